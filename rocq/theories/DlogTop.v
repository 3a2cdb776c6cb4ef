(** Last steps towards the property theorems of the dlog scheme. *)
From Verif Require Import Base Curve Algebra Spec Dlog DlogSpec DlogFacts DlogData DlogSound DlogComplete
  DlogSign DlogBind DlogAudit DlogHide.
From Coq Require Import Field Ring.
Unset Strict Implicit.

Lemma searchInts_lt_from disc : forall i0 i x, hidden_at disc i -> (x <= Z.of_nat (i0 + i))%Z ->
  searchInts (hidden_from i0 disc) x < nhid disc.
Proof.
  unfold hidden_at. induction disc as [|b ds IH]; intros i0 i x Hi Hx; [destruct i; discriminate|].
  cbn [hidden_from nhid]. destruct i as [|i].
  - injection Hi as ->. change (byte_eqb b0 b0) with true. cbn [searchInts]. rewrite Nat.add_0_r in Hx.
    destruct (x <=? Z.of_nat i0)%Z eqn:E; lia.
  - cbn [nth_error] in Hi. specialize (IH (S i0) i x Hi ltac:(lia)).
    destruct (byte_eqb b b0); [|exact IH]. cbn [searchInts]. destruct (x <=? Z.of_nat i0)%Z; lia.
Qed.

Lemma searchInts_lt disc rh i : rh <= i -> hidden_at disc i ->
  searchInts (hiddenIndices disc) (Z.of_nat rh) < nhid disc.
Proof. intros L Hi. eapply searchInts_lt_from; [exact Hi|]. lia. Qed.

Section Top.
  Context {C : Curve} (OK : CurveOk C).
  Variable T : translator C.
  Let KO := ok_zr OK.
  Let GO1 := ok_g1 OK.
  Let GO2 := ok_g2 OK.
  Let GOT := ok_gt OK.
  Add Field Kf_top : (sok_field KO).
  Notation zr := (zcar (Zr C)).
  Notation g1 := (gcar (G1 C)).
  Local Open Scope zr_scope.

  (** a credential with A = 1 is a discrete-log relation between the issuer's bases *)
  Lemma bbs_degenerate (B : Bases C) A e s sk attrs : bbs_valid B A e s sk attrs ->
    A <> gzero \/ cred_base B s sk attrs = gzero.
  Proof.
    intro V. destruct (geqb A gzero) eqn:E.
    - right. apply (gok_eqb GO1) in E. subst A. unfold bbs_valid in V.
      apply (pair_inj_r OK) with (Q := genG2 C); [apply (ok_gen2 OK)|]. rewrite <- V.
      rewrite <- (gmul_0 KO GO1 gzero), !(ok_pair_mul_r OK), !(gmul_0 KO GOT). reflexivity.
    - left. intros ->. rewrite (proj2 (gok_eqb GO1 _ _) eq_refl) in E. discriminate.
  Qed.

  Section Two.
    Variables (sig1 sig2 : Signature) (disc : bytes) (ipk : IssuerPublicKey) (msg : bytes)
      (vals : list (option zr)) (rhI eidI : Z) (vt : VerificationType) (B : Bases C) (F1 F2 : VerFirst C).
    Hypothesis HB : ipk_bases T ipk B.
    Hypothesis V1 : Ver_first T sig1 disc ipk msg vals rhI eidI vt = Ok F1.
    Hypothesis V2 : Ver_first T sig2 disc ipk msg vals rhI eidI vt = Ok F2.
    Hypothesis Same : vf_data F1 = vf_data F2.
    Hypothesis Diff : vf_c F1 <> vf_c F2.

    Lemma eid_bound j : verifyEIDNym vt sig1 = true -> eidI = Z.of_nat j -> hidden_at disc j ->
      exists n an Hj a, sg_eid sig1 = Some an /\ g1_from_proto T (an_nym an) = Ok n /\
        nth_error (b_attrs B) j = Some Hj /\ nth_error (w_attrs (extract T disc vals sig1 sig2)) j = Some a /\
        opens Hj (b_hrand B) n a (w_reid (extract T disc vals sig1 sig2)).
    Proof.
      intros W Ej Hid.
      destruct (two_facts OK _ _ _ _ _ _ _ _ HB V1 V2 Same) as (a & b & c & n & O1 & O2 & _ & _ & _ & Ee & _).
      pose proof (fo_eid O1) as R1. rewrite W in R1. destruct R1 as (x & R1 & X1).
      pose proof (fo_eid O2) as R2. rewrite <- Ee, X1 in R2.
      destruct (verifyEIDNym vt sig2); [|discriminate]. destruct R2 as (x2 & R2 & X2). injection X2 as <-.
      subst eidI. destruct (extract_attr_nym OK _ _ _ _ _ _ _ HB V1 V2 Same Diff sg_eid R1 R2 Hid) as (Hj & at' & Q1 & Q2 & Q3).
      destruct (recompute_t4_inv _ _ _ _ _ HB R1) as (n1 & h1 & s1 & m1 & P1 & P2 & P3 & P4 & P5).
      exists (fst x), n1, Hj, at'. rewrite P5 in *. cbn [fst] in *. repeat split; assumption.
    Qed.

    Lemma rh_bound j : verifyRHNym vt sig1 = true -> rhI = Z.of_nat j -> hidden_at disc j ->
      exists n an Hj a, sg_rh sig1 = Some an /\ g1_from_proto T (an_nym an) = Ok n /\
        nth_error (b_attrs B) j = Some Hj /\ nth_error (w_attrs (extract T disc vals sig1 sig2)) j = Some a /\
        opens Hj (b_hrand B) n a (w_rrh (extract T disc vals sig1 sig2)).
    Proof.
      intros W Ej Hid.
      destruct (two_facts OK _ _ _ _ _ _ _ _ HB V1 V2 Same) as (a & b & c & n & O1 & O2 & _ & _ & _ & _ & Ee).
      pose proof (fo_rh O1) as R1. rewrite W in R1. destruct R1 as (x & R1 & X1).
      pose proof (fo_rh O2) as R2. rewrite <- Ee, X1 in R2.
      destruct (verifyRHNym vt sig2); [|discriminate]. destruct R2 as (x2 & R2 & X2). injection X2 as <-.
      subst rhI. destruct (extract_attr_nym OK _ _ _ _ _ _ _ HB V1 V2 Same Diff sg_rh R1 R2 Hid) as (Hj & at' & Q1 & Q2 & Q3).
      destruct (recompute_t4_inv _ _ _ _ _ HB R1) as (n1 & h1 & s1 & m1 & P1 & P2 & P3 & P4 & P5).
      exists (fst x), n1, Hj, at'. rewrite P5 in *. cbn [fst] in *. repeat split; assumption.
    Qed.
  End Two.

  (** the bases are determined by an accepting run *)
  Lemma Ver_first_bases sig disc ipk msg vals rhI eidI vt F :
    Ver_first T sig disc ipk msg vals rhI eidI vt = Ok F -> exists B, ipk_bases T ipk B.
  Proof.
    unfold Ver_first. intro E. inv_all.
    repeat match goal with
    | X : g2_from_proto T (ip_w ipk) = Ok ?w, Y : g1_from_proto T (ip_hrand ipk) = Ok ?r,
      Z : g1_from_proto T (ip_hsk ipk) = Ok ?k, U : parse_points T (ip_hattrs ipk) = Ok ?l |- _ =>
        exists {| b_hsk := k; b_hrand := r; b_attrs := l; b_w := w |}; repeat split; assumption
    end.
  Qed.

  Lemma Ver_bases (H : hasher C) sig disc ipk msg vals rhI eidI revpk (rev : revpk) ep vt meta :
    Ver H T sig disc (Some ipk) msg vals rhI eidI rev ep vt meta = Ok tt ->
    exists B F, ipk_bases T ipk B /\ Ver_first T sig disc ipk msg vals rhI eidI vt = Ok F.
  Proof.
    intro V. destruct (Ver_runs V) as (k & F & E & VF). injection E as <-.
    destruct (Ver_first_bases VF) as [B HB]. exists B, F. auto.
  Qed.

  Lemma recompute_t4_nym an ipk idx hidden sattrs HRand c x : recompute_t4 T an ipk idx hidden sattrs HRand c = Ok x ->
    exists a, an = Some a /\ g1_from_proto T (an_nym a) = Ok (fst x).
  Proof.
    unfold recompute_t4. intro E. apply bind_ok in E. destruct E as [h [_ E]]. apply bind_ok in E. destruct E as [p [_ E]].
    apply bind_ok in E. destruct E as [a [Ea E]]. destruct an as [a'|]; [|discriminate]. cbn in Ea. injection Ea as ->.
    apply bind_ok in E. destruct E as [s [_ E]]. apply bind_ok in E. destruct E as [n [En E]]. injection E as <-. eauto.
  Qed.

  Lemma best_effort_nyms sig disc ipk msg vals rhI eidI F :
    Ver_first T sig disc ipk msg vals rhI eidI BestEffort = Ok F ->
    (sg_eid sig <> None -> exists an n t, sg_eid sig = Some an /\ g1_from_proto T (an_nym an) = Ok n /\ vf_eid F = Some (n, t)) /\
    (sg_rh sig <> None -> vf_eid F <> None /\
       exists an n t, sg_rh sig = Some an /\ g1_from_proto T (an_nym an) = Ok n /\ vf_rh F = Some (n, t)).
  Proof.
    intro E. destruct (best_effort_checks E) as [Q1 Q2].
    destruct (Ver_first_bases E) as [B HB].
    edestruct (Ver_first_inv OK) as (a & b & c & n & O); [exact HB|exact E|].
    pose proof (fo_eid O) as X1. pose proof (fo_rh O) as X2.
    split; intro N.
    - specialize (Q1 N). destruct (verifyEIDNym BestEffort sig); [|congruence]. destruct X1 as [x [R E1]].
      destruct (recompute_t4_nym R) as (an & A1 & A2). exists an, (fst x), (snd x). rewrite E1. destruct x. auto.
    - destruct (Q2 N) as [N2 N1]. split; [exact N1|].
      destruct (verifyRHNym BestEffort sig); [|congruence]. destruct X2 as [x [R E1]].
      destruct (recompute_t4_nym R) as (an & A1 & A2). exists an, (fst x), (snd x). rewrite E1. destruct x. auto.
  Qed.

  Lemma expected_nyms sig disc ipk msg vals rhI eidI vt F :
    Ver_first T sig disc ipk msg vals rhI eidI vt = Ok F ->
    (vt = ExpectEidNym \/ vt = ExpectEidNymRhNym -> exists an n t, sg_eid sig = Some an /\ g1_from_proto T (an_nym an) = Ok n /\ vf_eid F = Some (n, t)) /\
    (vt = ExpectEidNymRhNym -> exists an n t, sg_rh sig = Some an /\ g1_from_proto T (an_nym an) = Ok n /\ vf_rh F = Some (n, t)).
  Proof.
    intro E. destruct (Ver_first_bases E) as [B HB].
    edestruct (Ver_first_inv OK) as (a & b & c & n & O); [exact HB|exact E|].
    pose proof (fo_eid O) as X1. pose proof (fo_rh O) as X2.
    split; intro N.
    - assert (Q : verifyEIDNym vt sig = true) by (destruct N as [-> | ->]; unfold verifyEIDNym; cbn; rewrite ?orb_true_r; reflexivity).
      rewrite Q in X1. destruct X1 as [x [R E1]].
      destruct (recompute_t4_nym R) as (an & A1 & A2). exists an, (fst x), (snd x). rewrite E1. destruct x. auto.
    - assert (Q : verifyRHNym vt sig = true) by (rewrite N; unfold verifyRHNym; cbn; rewrite ?orb_true_r; reflexivity).
      rewrite Q in X2. destruct X2 as [x [R E1]].
      destruct (recompute_t4_nym R) as (an & A1 & A2). exists an, (fst x), (snd x). rewrite E1. destruct x. auto.
  Qed.

  Lemma audit_complete_one (nymOf : Signature -> option AttrNym) sig ipk B j Hj (n : g1) (a r : zr) :
    TrOk T -> ipk_bases T ipk B -> nth_error (b_attrs B) j = Some Hj -> Hj <> gzero ->
    opens Hj (b_hrand B) n a r -> option_map an_nym (nymOf sig) = Some (Some (g1_to_proto T n)) ->
    forall a', (auditNym T nymOf sig (Some ipk) a' (Z.of_nat j) r = Ok tt <-> a' = a) /\
               (auditRawNym T (g1_bytes C n) (Some ipk) a' (Z.of_nat j) r = Ok tt <-> a' = a).
  Proof.
    intros TO HB N NZ Op EN a'. destruct (nymOf sig) as [an|] eqn:ES; [|discriminate]. cbn in EN. injection EN as EN.
    rewrite (auditNym_iff OK _ _ _ _ HB N), (auditRaw_iff OK _ _ _ HB N).
    split; split.
    - intros (an' & nym & P1 & _ & P2 & P3). rewrite ES in P1. injection P1 as <-. rewrite EN in P2. rewrite (tr_g1 TO) in P2. injection P2 as <-.
      exact (opens_same_r OK NZ P3 Op).
    - intros ->. exists an, n. rewrite EN. repeat split; auto; [discriminate|]. apply (tr_g1 TO).
    - intros (_ & nym & P2 & P3). rewrite (ok_g1_rt OK) in P2. injection P2 as <-. exact (opens_same_r OK NZ P3 Op).
    - intros ->. split; [|exists n; split; [apply (ok_g1_rt OK)|exact Op]].
      pose proof (ok_g1_len OK n) as L. pose proof (ok_g1_size OK). intro Z. rewrite Z in L. cbn in L. lia.
  Qed.

  Lemma audit_complete (TO : TrOk T) (H : hasher C) cred sk Nym RNym ipk (B : Bases C) disc msg rhI eidI cri (R : SigRand C) st meta sig md :
    ipk_bases T ipk B -> Forall (fun h => h <> gzero) (b_attrs B) ->
    NewSignature H T (Some cred) (Some sk) (Some Nym) (Some RNym) (Some ipk) disc msg rhI eidI (Some cri) R st meta = Ok (sig, md) ->
    let attr i := option_map (fun a => zr_of_bytes C (ob a)) (nth_error (cr_attrs cred) (Z.to_nat i)) in
    (with_eid st = true -> exists m n r a,
       md = Some m /\ md_eid_data m = Some {| au_nym := Some n; au_rand := Some r; au_attr := Some a |} /\
       attr eidI = Some a /\
       forall a', (auditNymEid T sig (Some ipk) a' eidI r = Ok tt <-> a' = a) /\
                  (auditRawNym T (g1_bytes C n) (Some ipk) a' eidI r = Ok tt <-> a' = a)) /\
    (with_rh st = true -> exists m n r a,
       md = Some m /\ md_rh_data m = Some {| au_nym := Some n; au_rand := Some r; au_attr := Some a |} /\
       attr rhI = Some a /\
       forall a', (auditNymRh T sig (Some ipk) a' rhI r = Ok tt <-> a' = a) /\
                  (auditRawNym T (g1_bytes C n) (Some ipk) a' rhI r = Ok tt <-> a' = a)).
  Proof.
    intros HB FA E attr. destruct (sign_attr_nym OK TO HB E) as [P1 P2]. split; intro W.
    - destruct (P1 W) as (j & Hj & ab & n & r & -> & Q2 & Q3 & Q4 & Q5 & Q6 & _).
      destruct md as [m|]; [|discriminate]. cbn in Q6. injection Q6 as Q6.
      exists m, n, r, (zr_of_bytes C (ob ab)). split; [reflexivity|]. split; [exact Q6|].
      split; [unfold attr; rewrite Nat2Z.id, Q3; reflexivity|].
      rewrite Forall_forall in FA. apply (audit_complete_one TO HB Q2 (FA _ (nth_error_In _ _ Q2)) Q4). exact Q5.
    - destruct (P2 W) as (j & Hj & ab & n & r & -> & Q2 & Q3 & Q4 & Q5 & Q6 & _).
      destruct md as [m|]; [|discriminate]. cbn in Q6. injection Q6 as Q6.
      exists m, n, r, (zr_of_bytes C (ob ab)). split; [reflexivity|]. split; [exact Q6|].
      split; [unfold attr; rewrite Nat2Z.id, Q3; reflexivity|].
      rewrite Forall_forall in FA. apply (audit_complete_one TO HB Q2 (FA _ (nth_error_In _ _ Q2)) Q4). exact Q5.
  Qed.

  Lemma verifier_metadata (H : hasher C) sig disc ipk (B : Bases C) msg vals (rh eid : nat) rp (rev : rp) ep vt m :
    ipk_bases T ipk B ->
    Ver H T sig disc (Some ipk) msg vals (Z.of_nat rh) (Z.of_nat eid) rev ep vt (Some m) = Ok tt ->
    (verifyEIDNym vt sig = true -> exists an n, sg_eid sig = Some an /\ g1_from_proto T (an_nym an) = Ok n /\
       (forall d, md_eid_data m = Some d -> exists Hj a r, nth_error (b_attrs B) eid = Some Hj /\
          au_attr d = Some a /\ au_rand d = Some r /\ opens Hj (b_hrand B) n a r /\ (forall n', au_nym d = Some n' -> n' = n)) /\
       (md_eid m <> [] -> g1_of_bytes C (md_eid m) = Some n)) /\
    (verifyRHNym vt sig = true -> exists an n, sg_rh sig = Some an /\ g1_from_proto T (an_nym an) = Ok n /\
       (forall d, md_rh_data m = Some d -> exists Hj a r, nth_error (b_attrs B) rh = Some Hj /\
          au_attr d = Some a /\ au_rand d = Some r /\ opens Hj (b_hrand B) n a r /\ (forall n', au_nym d = Some n' -> n' = n)) /\
       (md_rh m <> [] -> g1_of_bytes C (md_rh m) = Some n)).
  Proof.
    intros HB V. pose proof V as V'. destruct (Ver_bases V') as (_ & F & _ & E).
    edestruct (Ver_first_inv OK) as (a & b & c & n & O); [exact HB|exact E|].
    unfold Ver in V. cbn [opt_err bind] in V. rewrite E in V. cbn [bind] in V.
    apply bind_ok in V. destruct V as [ch [_ V]]. apply bind_ok in V. destruct V as [[] [M1 V]].
    apply bind_ok in V. destruct V as [[] [M2 _]]. rewrite (fo_hrand O) in M1, M2.
    pose proof (fo_eid O) as X1. pose proof (fo_rh O) as X2.
    split; intro W; rewrite W in *.
    - destruct X1 as [x [R E1]]. rewrite E1 in M1. destruct (recompute_t4_nym R) as (an & A1 & A2).
      exists an, (fst x). split; [exact A1|]. split; [exact A2|]. destruct x as [y t]. exact (check_meta_inv OK HB M1).
    - destruct X2 as [x [R E1]]. rewrite E1 in M2. destruct (recompute_t4_nym R) as (an & A1 & A2).
      exists an, (fst x). split; [exact A1|]. split; [exact A2|]. destruct x as [y t]. exact (check_meta_inv OK HB M2).
  Qed.

  Lemma verNym_inv (H : hasher C) sig nym ipk msg : verNymSignature H T sig (Some nym) (Some ipk) msg = Ok tt ->
    exists pd HSk HRand, verNym_first T sig (Some nym) (Some ipk) msg = Ok pd /\
      g1_from_proto T (ip_hsk ipk) = Ok HSk /\ g1_from_proto T (ip_hrand ipk) = Ok HRand.
  Proof.
    unfold verNymSignature. intro V. apply bind_ok in V. destruct V as [pd [E _]]. exists pd.
    pose proof E as E'. unfold verNym_first in E'. cbn [deref bind] in E'.
    apply bind_ok in E'. destruct E' as [r [E1 E']]. apply bind_ok in E'. destruct E' as [s [E2 _]]. eauto 6.
  Qed.

  Lemma nymsig_context (H : hasher C) sig nym1 nym2 ipk msg1 msg2 :
    verNymSignature H T sig (Some nym1) (Some ipk) msg1 = Ok tt ->
    verNymSignature H T sig (Some nym2) (Some ipk) msg2 = Ok tt ->
    nym1 <> nym2 \/ msg1 <> msg2 ->
    exists pd1 pd2, verNym_first T sig (Some nym1) (Some ipk) msg1 = Ok pd1 /\
      verNym_first T sig (Some nym2) (Some ipk) msg2 = Ok pd2 /\
      transcripts_collide H pd1 pd2 (zr_of_bytes C (ns_nonce sig)).
  Proof.
    intros V1 V2 D. destruct (verNym_inv V1) as (pd1 & HSk & HRand & E1 & S & R). destruct (verNym_inv V2) as (pd2 & _ & _ & E2 & _).
    exists pd1, pd2. split; [exact E1|]. split; [exact E2|].
    refine (nymsig_message OK S R S R V1 V2 E1 E2 _). intro E. injection E as -> E. destruct D as [D|D]; congruence.
  Qed.

  Lemma generated_key_checks (TO : TrOk T) (H : hasher C) (marshal : IssuerPublicKey -> option bytes) names (R : IssuerRand C) key :
    ir_barg1 R <> z0 -> newIssuerKey H T marshal names R = Ok key ->
    exists ipk, ik_ipk key = Some ipk /\ ip_names ipk = names /\
      checkIPK H T marshal ipk = Ok ipk /\ setHash H marshal ipk = Ok ipk.
  Proof.
    intros NZ E. destruct (@newIssuerKey_inv C OK H T TO marshal names R key E) as (ipk & E1 & E2 & E3 & HB & Hc).
    exists ipk. split; [exact E1|]. split; [exact E3|]. specialize (Hc NZ). split; [exact Hc|].
    unfold checkIPK in Hc. apply bind_ok in Hc. destruct Hc as [pd [_ Hc]]. apply bind_ok in Hc. destruct Hc as [[] [_ Hc]]. exact Hc.
  Qed.

  Lemma credreq_nonces (H : hasher C) nym c s ipk n1 n2 :
    let m n := {| rq_nym := nym; rq_nonce := Some n; rq_c := c; rq_s := s |} in
    checkCredRequest H T (m n1) ipk = Ok tt -> checkCredRequest H T (m n2) ipk = Ok tt ->
    length n1 = length n2 -> n1 <> n2 ->
    exists pd1 pd2, checkCredRequest_first T (m n1) ipk = Ok pd1 /\ checkCredRequest_first T (m n2) ipk = Ok pd2 /\
      collision H pd1 pd2.
  Proof.
    intros m V1 V2 L D.
    assert (X : forall k, checkCredRequest H T k ipk = Ok tt -> exists pd, checkCredRequest_first T k ipk = Ok pd).
    { intros k V. unfold checkCredRequest in V. apply bind_ok in V. destruct V as [pd [E _]]. eauto. }
    destruct (X _ V1) as [pd1 E1]. destruct (X _ V2) as [pd2 E2]. exists pd1, pd2. split; [exact E1|]. split; [exact E2|].
    assert (S : exists HSk, g1_from_proto T (ip_hsk ipk) = Ok HSk).
    { clear - E1. unfold checkCredRequest_first in E1. inv_all; eauto. }
    destruct S as [HSk S]. exact (credreq_nonce OK (m := m n1) S V1 V2 E1 E2 L D).
  Qed.
End Top.
