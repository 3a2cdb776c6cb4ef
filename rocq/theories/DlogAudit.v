(** dlog: incompatible verification types, audits, caller-supplied metadata, issuer-key and
    request proofs. *)
From Verif Require Import Base Curve Algebra Spec Dlog DlogSpec DlogFacts DlogData DlogSound DlogComplete DlogSign DlogBind.
From Coq Require Import Field Ring.
Unset Strict Implicit.

Section Audit.
  Context {C : Curve} (OK : CurveOk C).
  Variable T : translator C.
  Let KO := ok_zr OK.
  Let GO1 := ok_g1 OK.
  Let GO2 := ok_g2 OK.
  Let GOT := ok_gt OK.
  Add Field Kf_audit : (sok_field KO).
  Notation zr := (zcar (Zr C)).
  Notation g1 := (gcar (G1 C)).
  Local Open Scope zr_scope.

  Lemma label_len (eid rh : option (g1 * g1)) : length (sig_label C eid rh) =
    match rh, eid with Some _, _ => 19 | None, Some _ => 14 | None, None => 4 end.
  Proof. unfold sig_label. destruct rh, eid; reflexivity. Qed.

  Lemma sig_two_types (H : hasher C) sig disc ipk B msg vals1 vals2 rhI1 rhI2 eidI1 eidI2
      revpk (rev1 rev2 : revpk) ep1 ep2 vt1 vt2 meta1 meta2 F1 F2 :
    ipk_bases T ipk B ->
    Ver H T sig disc (Some ipk) msg vals1 rhI1 eidI1 rev1 ep1 vt1 meta1 = Ok tt ->
    Ver H T sig disc (Some ipk) msg vals2 rhI2 eidI2 rev2 ep2 vt2 meta2 = Ok tt ->
    Ver_first T sig disc ipk msg vals1 rhI1 eidI1 vt1 = Ok F1 ->
    Ver_first T sig disc ipk msg vals2 rhI2 eidI2 vt2 = Ok F2 ->
    (verifyEIDNym vt1 sig, verifyRHNym vt1 sig) <> (verifyEIDNym vt2 sig, verifyRHNym vt2 sig) ->
    transcripts_collide H (vf_data F1) (vf_data F2) (zr_of_bytes C (sg_nonce sig)).
  Proof.
    intros HB V1 V2 E1 E2 ND.
    destruct (Ver_inv OK V1 E1) as [c1 [C1 D1]]. destruct (Ver_inv OK V2 E2) as [c2 [C2 D2]].
    edestruct (Ver_first_inv OK) as (a & b & c & n & O1); [exact HB|exact E1|].
    edestruct (Ver_first_inv OK) as (a' & b' & c' & n' & O2); [exact HB|exact E2|].
    rewrite (challenge_ok OK) in C1 by (rewrite (fo_data O1); apply (sig_string_length OK)).
    rewrite (challenge_ok OK) in C2 by (rewrite (fo_data O2); apply (sig_string_length OK)).
    rewrite (fo_nonce O1) in C1. rewrite (fo_nonce O2) in C2. rewrite (fo_c O1) in D1. rewrite (fo_c O2) in D2.
    injection C1 as C1. injection C2 as C2.
    apply (collide OK); [|congruence].
    intro E. rewrite (fo_data O1), (fo_data O2) in E. apply (f_equal (@length byte)) in E.
    unfold sig_string, sig_points in E. rewrite !app_length, !(pts_length OK), !app_length, !label_len, !fit_length in E.
    pose proof (fo_eid O1) as X1. pose proof (fo_rh O1) as Y1.
    pose proof (fo_eid O2) as X2. pose proof (fo_rh O2) as Y2.
    pose proof (rh_implies_eid vt1 sig) as I1. pose proof (rh_implies_eid vt2 sig) as I2.
    destruct (verifyEIDNym vt1 sig), (verifyRHNym vt1 sig), (verifyEIDNym vt2 sig), (verifyRHNym vt2 sig);
      try (specialize (I1 eq_refl); discriminate); try (specialize (I2 eq_refl); discriminate);
      try (apply ND; reflexivity);
      repeat match goal with X : exists x, _ /\ _ = Some x |- _ => destruct X as [[? ?] [_ X]] end;
      rewrite X1, X2, Y1, Y2 in E; cbn [nym_list length] in E; lia.
  Qed.

  (** ** Audits *)
  Lemma hattr_parse ipk B j Hj : ipk_bases T ipk B -> nth_error (b_attrs B) j = Some Hj ->
    exists h, nth_error (ip_hattrs ipk) j = Some h /\ g1_from_proto T h = Ok Hj.
  Proof.
    intros (_ & _ & HB3 & _) E.
    destruct (nth_error (ip_hattrs ipk) j) as [h|] eqn:N.
    - destruct (map_res_nth _ _ _ HB3 N) as [h' [P1 P2]]. exists h. split; congruence.
    - exfalso. apply nth_error_None in N. apply map_res_length in HB3.
      assert (j < length (b_attrs B)) by (apply nth_error_Some; congruence). lia.
  Qed.

  Lemma auditNym_iff (nymOf : Signature -> option AttrNym) sig ipk B j Hj a r :
    ipk_bases T ipk B -> nth_error (b_attrs B) j = Some Hj ->
    auditNym T nymOf sig (Some ipk) a (Z.of_nat j) r = Ok tt <->
    (exists an nym, nymOf sig = Some an /\ an_nym an <> None /\ g1_from_proto T (an_nym an) = Ok nym /\
       opens Hj (b_hrand B) nym a r).
  Proof.
    intros HB N. destruct (hattr_parse HB N) as [h [Hh Hp]]. destruct HB as (_ & HB2 & HB3 & _).
    assert (Lj : j < length (ip_hattrs ipk)) by (apply nth_error_Some; congruence).
    unfold auditNym. cbn [opt_err bind]. rewrite znth_nat.
    replace (Z.of_nat (length (ip_hattrs ipk)) <=? Z.of_nat j)%Z with false by lia.
    unfold nth_res. rewrite Hh, HB2. cbn [negb guard bind].
    split.
    - intro E. destruct (nymOf sig) as [an|]; [|discriminate]. cbn [opt_err bind] in E.
      destruct (an_nym an) as [np|] eqn:EN; [|discriminate]. cbn [opt_err bind] in E.
      rewrite Hp in E. cbn [bind] in E. apply bind_ok in E. destruct E as [nym [E Hg]]. apply guard_ok in Hg. exists an, nym. rewrite EN. repeat split; auto; try discriminate.
      apply (gok_eqb GO1) in Hg. symmetry. exact Hg.
    - intros (an & nym & E1 & E2 & E3 & E4). rewrite E1. cbn [opt_err bind].
      destruct (an_nym an) as [np|]; [|congruence]. cbn [opt_err bind]. rewrite Hp. cbn [bind].
      rewrite E3. cbn [bind]. unfold opens in E4. rewrite E4. unfold gmul2. rewrite (geqb_refl GO1). reflexivity.
  Qed.

  Lemma auditRaw_iff raw ipk B j Hj a r :
    ipk_bases T ipk B -> nth_error (b_attrs B) j = Some Hj ->
    auditRawNym T raw (Some ipk) a (Z.of_nat j) r = Ok tt <->
    raw <> [] /\ exists nym, g1_of_bytes C raw = Some nym /\ opens Hj (b_hrand B) nym a r.
  Proof.
    intros HB N. destruct (hattr_parse HB N) as [h [Hh Hp]]. destruct HB as (_ & HB2 & HB3 & _).
    assert (Lj : j < length (ip_hattrs ipk)) by (apply nth_error_Some; congruence).
    unfold auditRawNym. cbn [opt_err bind]. rewrite znth_nat.
    replace (Z.of_nat (length (ip_hattrs ipk)) <=? Z.of_nat j)%Z with false by lia.
    unfold nth_res. rewrite Hh, HB2. cbn [negb guard bind]. rewrite Hp. cbn [bind].
    split.
    - intro E. inv_all. split; [destruct raw; [discriminate|discriminate]|].
      destruct (g1_of_bytes C raw) as [nym|]; [|discriminate]. cbn [opt_err] in *. inv_all.
      eexists. split; [reflexivity|].
      match goal with G : geqb _ _ = true |- _ => apply (gok_eqb GO1) in G; symmetry; exact G end.
    - intros (NE & nym & E1 & E2). rewrite E1. destruct raw; [congruence|]. cbn [length Nat.eqb negb guard bind opt_err].
      unfold opens in E2. rewrite E2. unfold gmul2. rewrite (geqb_refl GO1). reflexivity.
  Qed.

  (** Openings of one commitment: the same attribute, or the discrete logarithm. *)
  Lemma opens_binding (g h c : g1) m r m' r' : opens g h c m r -> opens g h c m' r' ->
    m = m' \/ g = h ⊗ ((r' - r) * zinv (m - m')).
  Proof.
    intros O1 O2. destruct (zeqb m m') eqn:Q; [left; apply (sok_eqb KO); exact Q|right].
    assert (NE : m <> m') by (intro X; rewrite X, (zeqb_refl KO) in Q; discriminate).
    pose proof (zsub_nz OK NE) as NZ. unfold opens in *. rewrite O1 in O2.
    eapply (glin1 OK) with (k := zinv (m - m')); [exact O2|]. gnorm KO GO1; field; exact NZ.
  Qed.

  Lemma opens_same_r (g h c : g1) m m' r : g <> gzero -> opens g h c m r -> opens g h c m' r -> m = m'.
  Proof.
    intros NZ O1 O2. unfold opens in *. rewrite O1 in O2.
    apply (@gmul_faithful _ _ KO GO1 g); [exact NZ|].
    eapply (glin1 OK) with (k := z1); [exact O2|]. gnorm KO GO1; ring.
  Qed.

  Lemma opens_same_m (g h c : g1) m r r' : h <> gzero -> opens g h c m r -> opens g h c m r' -> r = r'.
  Proof.
    intros NZ O1 O2. unfold opens in *. rewrite O1 in O2.
    apply (@gmul_faithful _ _ KO GO1 h); [exact NZ|].
    eapply (glin1 OK) with (k := z1); [exact O2|]. gnorm KO GO1; ring.
  Qed.

  (** what the attribute commitments of a fresh signature contain *)
  Lemma sign_attr_nym (TO : TrOk T) (H : hasher C) cred sk Nym RNym ipk B disc msg rhI eidI cri R st meta sig md :
    ipk_bases T ipk B ->
    NewSignature H T (Some cred) (Some sk) (Some Nym) (Some RNym) (Some ipk) disc msg rhI eidI (Some cri) R st meta = Ok (sig, md) ->
    (with_eid st = true -> exists j Hj ab n r, eidI = Z.of_nat j /\ nth_error (b_attrs B) j = Some Hj /\
       nth_error (cr_attrs cred) j = Some ab /\ opens Hj (b_hrand B) n (zr_of_bytes C (ob ab)) r /\
       option_map an_nym (sg_eid sig) = Some (Some (g1_to_proto T n)) /\
       option_map (@md_eid_data C) md = Some (Some {| au_nym := Some n; au_rand := Some r; au_attr := Some (zr_of_bytes C (ob ab)) |}) /\
       match opt_map (@md_eid_data C) meta with
       | None => r = rd_eid R
       | Some d => d = Some {| au_nym := Some n; au_rand := Some r; au_attr := Some (zr_of_bytes C (ob ab)) |}
       end) /\
    (with_rh st = true -> exists j Hj ab n r, rhI = Z.of_nat j /\ nth_error (b_attrs B) j = Some Hj /\
       nth_error (cr_attrs cred) j = Some ab /\ opens Hj (b_hrand B) n (zr_of_bytes C (ob ab)) r /\
       option_map an_nym (sg_rh sig) = Some (Some (g1_to_proto T n)) /\
       option_map (@md_rh_data C) md = Some (Some {| au_nym := Some n; au_rand := Some r; au_attr := Some (zr_of_bytes C (ob ab)) |}) /\
       match opt_map (@md_rh_data C) meta with
       | None => r = rd_rh R
       | Some d => d = Some {| au_nym := Some n; au_rand := Some r; au_attr := Some (zr_of_bytes C (ob ab)) |}
       end).
  Proof.
    intros HB E.
    assert (K : forall idx j m hid ra fresh rr n t r a, finalise_nym T cred ipk idx m hid ra fresh rr = Ok (n, t, r, a) ->
      idx = Z.of_nat j -> exists Hj ab, nth_error (b_attrs B) j = Some Hj /\
       nth_error (cr_attrs cred) j = Some ab /\ opens Hj (b_hrand B) n (zr_of_bytes C (ob ab)) r /\ a = zr_of_bytes C (ob ab) /\
       match m with
       | None => r = fresh
       | Some d => d = Some {| au_nym := Some n; au_rand := Some r; au_attr := Some a |}
       end).
    { intros idx j m hid ra fresh rr n t r a F ->.
      edestruct (finalise_nym_inv OK) as (Hj & ab & ra' & Q1 & Q2 & Q3 & Q4 & Q5 & Q6 & Q7); [exact HB|exact F|].
      exists Hj, ab. repeat split; auto.
      - subst a. exact Q5.
      - destruct m as [[[n' r' a']|]|]; try contradiction; [|exact Q7]. cbn [au_nym au_rand au_attr] in Q7.
        destruct Q7 as (-> & -> & ->). reflexivity. }
    assert (ZN : forall k d, znth disc k = Ok d -> exists j, k = Z.of_nat j).
    { intros k d Hk. unfold znth in Hk. destruct (k <? 0)%Z eqn:Q; [discriminate|]. exists (Z.to_nat k). lia. }
    destruct st; cbn [with_eid with_rh NewSignature] in *; try discriminate.
    - split; discriminate.
    - split; [|discriminate]. intros _. apply bind_ok in E. destruct E as [d [E1 E]]. destruct (ZN _ _ E1) as [j ->].
      apply bind_ok in E. destruct E as [? [_ E]]. apply bind_ok in E. destruct E as [P [EP E]].
      unfold finalise in E. apply bind_ok in E. destruct E as [x1 [E2 E]]. apply bind_ok in E2. destruct E2 as [[[[n t] r] a] [E2 E3]].
      injection E3 as <-. destruct (K _ j _ _ _ _ _ _ _ _ _ E2 eq_refl) as (Hj & ab & K1 & K2 & K3 & -> & K5).
      exists j, Hj, ab, n, r. inv_all. cbn [sg_eid option_map an_nym md_eid_data]. repeat split; auto.
    - apply bind_ok in E. destruct E as [d [E1 E]]. destruct (ZN _ _ E1) as [j ->].
      apply bind_ok in E. destruct E as [? [_ E]]. apply bind_ok in E. destruct E as [d' [E1' E]]. destruct (ZN _ _ E1') as [j' ->].
      apply bind_ok in E. destruct E as [? [_ E]]. apply bind_ok in E. destruct E as [P [EP E]].
      unfold finalise in E. apply bind_ok in E. destruct E as [x1 [E2 E]]. apply bind_ok in E2. destruct E2 as [[[[n t] r] a] [E2 E3]].
      injection E3 as <-. destruct (K _ j _ _ _ _ _ _ _ _ _ E2 eq_refl) as (Hj & ab & K1 & K2 & K3 & -> & K5).
      apply bind_ok in E. destruct E as [x2 [E4 E]]. apply bind_ok in E4. destruct E4 as [[[[n' t'] r'] a'] [E4 E5]].
      injection E5 as <-. destruct (K _ j' _ _ _ _ _ _ _ _ _ E4 eq_refl) as (Hj' & ab' & K1' & K2' & K3' & -> & K5').
      inv_all. cbn [sg_eid sg_rh option_map an_nym md_eid_data md_rh_data]. split; intros _.
      + exists j, Hj, ab, n, r. repeat split; auto.
      + exists j', Hj', ab', n', r'. repeat split; auto.
  Qed.

  (** ** Metadata supplied to the verifier *)
  Lemma check_meta_inv n data raw ipk B j : ipk_bases T ipk B ->
    check_meta T n data raw ipk (Z.of_nat j) (b_hrand B) = Ok tt ->
    (forall d, data = Some d -> exists Hj a r, nth_error (b_attrs B) j = Some Hj /\
        au_attr d = Some a /\ au_rand d = Some r /\ opens Hj (b_hrand B) n a r /\
        (forall n', au_nym d = Some n' -> n' = n)) /\
    (raw <> [] -> g1_of_bytes C raw = Some n).
  Proof.
    intros (_ & _ & HB3 & _) E. unfold check_meta in E. apply bind_ok in E. destruct E as [u [E1 E2]]. split.
    - intros d ->. rewrite znth_nat in E1. inv_all.
      match goal with X : nth_res (ip_hattrs ipk) j = Ok _ |- _ => apply nth_res_ok in X;
        destruct (map_res_nth _ _ _ HB3 X) as [h' [P1 P2]] end.
      destruct (au_attr d) as [a|]; [|discriminate]. destruct (au_rand d) as [r|]; [|discriminate].
      cbn [deref] in *. inv_all.
      match goal with G : geqb _ _ = true |- _ => apply (gok_eqb GO1) in G; rename G into Q end.
      do 3 eexists. repeat split; eauto.
      + unfold opens. rewrite <- Q. assert (h' = v0) by congruence. subst h'. reflexivity.
      + intros n' En. rewrite En in *. inv_all. symmetry. apply (gok_eqb GO1). assumption.
    - intros NE. destruct raw as [|x raw]; [congruence|]. cbn [length Nat.eqb] in E2.
      destruct (g1_of_bytes C (x :: raw)) as [n'|]; [|discriminate]. cbn [opt_err bind] in E2.
      apply guard_ok, (gok_eqb GO1) in E2. congruence.
  Qed.

  (** ** Issuer key proof *)
  Lemma checkIPK_first_inv ipk pd : checkIPK_first T ipk = Ok pd ->
    exists BarG1 BarG2 W B, ipk_bases T ipk B /\ b_w B = W /\ g1_from_proto T (ip_barg1 ipk) = Ok BarG1 /\
      g1_from_proto T (ip_barg2 ipk) = Ok BarG2 /\ BarG1 <> gzero /\
      length (ip_names ipk) <= length (b_attrs B) /\
      pd = issuer_string (genG2 C ⊗ zr_of_bytes C (ip_s ipk) ⊕ W ⊗ (- zr_of_bytes C (ip_c ipk)))
             (BarG1 ⊗ zr_of_bytes C (ip_s ipk) ⊕ BarG2 ⊗ (- zr_of_bytes C (ip_c ipk))) BarG1 W BarG2.
  Proof.
    intro E. unfold checkIPK_first, parse_points in E. inv_all.
    match goal with X : issuer_data _ _ _ _ _ _ = Ok _ |- _ => rewrite (issuer_data_ok OK) in X end. inv_all.
    exists v2, v3, v4, {| b_hsk := v; b_hrand := v0; b_attrs := v1; b_w := v4 |}.
    unfold ipk_bases. cbn [b_hsk b_hrand b_attrs b_w]. repeat split; auto.
    - intro Z. subst v2. rewrite (geqb_refl GO1) in *. discriminate.
    - match goal with X : map_res _ _ = Ok v1 |- _ => apply map_res_length in X end. lia.
  Qed.

  Lemma checkIPK_sound k1 k2 pd :
    checkIPK_first T k1 = Ok pd -> checkIPK_first T k2 = Ok pd ->
    zr_of_bytes C (ip_c k1) <> zr_of_bytes C (ip_c k2) ->
    exists W BarG1 BarG2, g2_from_proto T (ip_w k1) = Ok W /\ g1_from_proto T (ip_barg1 k1) = Ok BarG1 /\
      g1_from_proto T (ip_barg2 k1) = Ok BarG2 /\ BarG1 <> gzero /\
      W = genG2 C ⊗ issuer_extract C k1 k2 /\ BarG2 = BarG1 ⊗ issuer_extract C k1 k2.
  Proof.
    intros E1 E2 NC. apply checkIPK_first_inv in E1. apply checkIPK_first_inv in E2.
    destruct E1 as (b1 & b2 & W & B & (_ & _ & _ & P0) & HW & P1 & P2 & NZ & _ & D1).
    destruct E2 as (b1' & b2' & W' & B' & _ & _ & _ & _ & _ & _ & D2).
    rewrite D1 in D2. apply (issuer_string_inj OK) in D2. destruct D2 as (T1 & T2 & -> & -> & ->).
    pose proof (zsub_nz OK NC) as NC'.
    exists W', b1', b2'. repeat split; auto; [congruence| |].
    - unfold issuer_extract, quot.
      assert (L2 : forall (X Y L R : G2 C) k, L = R -> X ⊖ Y = (L ⊖ R) ⊗ k -> X = Y).
      { intros X Y L R k -> Q. rewrite (gsub_diag KO GO2), (gmul_zero GO2) in Q. apply (gsub_zero KO GO2). exact Q. }
      eapply L2 with (k := zinv (zr_of_bytes C (ip_c k1) - zr_of_bytes C (ip_c k2))); [symmetry; exact T1|].
      gnorm KO GO2; field; exact NC'.
    - unfold issuer_extract, quot.
      eapply (glin1 OK) with (k := zinv (zr_of_bytes C (ip_c k1) - zr_of_bytes C (ip_c k2))); [symmetry; exact T2|].
      gnorm KO GO1; field; exact NC'.
  Qed.

  (** duplicate names are exactly what makes key generation fail *)
  Lemma names_unique_iff names : forall seen, names_unique seen names = true <->
    NoDup names /\ (forall x, In x names -> ~ In x seen).
  Proof.
    induction names as [|n ns IH]; intro seen; cbn [names_unique].
    - split; [intros _; split; [constructor|intros ? []]|reflexivity].
    - destruct (existsb (bytes_eqb n) seen) eqn:EX.
      + split; [discriminate|]. intros [_ HS]. exfalso. apply existsb_exists in EX. destruct EX as [x [X1 X2]].
        apply bytes_eqb_eq in X2. subst x. exact (HS n (or_introl eq_refl) X1).
      + assert (NI : ~ In n seen).
        { intro I. assert (existsb (bytes_eqb n) seen = true) by (apply existsb_exists; exists n; split; [exact I|apply bytes_eqb_refl]). congruence. }
        rewrite IH. split.
        * intros [D S]. split; [constructor; [|exact D]|].
          -- intro I. exact (S n I (or_introl eq_refl)).
          -- intros x [<-|I]; [exact NI|]. intro J. exact (S x I (or_intror J)).
        * intros [D S]. inversion D; subst. split; [assumption|].
          intros x I [<-|J]; [contradiction|]. exact (S x (or_intror I) J).
  Qed.

  Lemma newIssuerKey_iff (H : hasher C) marshal names R : (forall k, exists b, marshal k = Some b) ->
    (exists key, newIssuerKey H T marshal names R = Ok key) <-> NoDup names.
  Proof.
    intro MT. split.
    - intros [key E]. unfold newIssuerKey in E. apply bind_ok in E. destruct E as [u [E _]]. apply guard_ok in E.
      apply names_unique_iff in E. tauto.
    - intro ND. apply (newIssuerKey_ok OK); assumption.
  Qed.

  (** ** Credential requests *)
  Lemma credReq_first_inv m ipk pd HSk : g1_from_proto T (ip_hsk ipk) = Ok HSk ->
    checkCredRequest_first T m ipk = Ok pd ->
    exists Nym nonce, g1_from_proto T (rq_nym m) = Ok Nym /\ rq_nonce m = Some nonce /\
      (length nonce <= 2 * scalar_size C)%nat /\
      pd = credreq_string (HSk ⊗ zr_of_bytes C (rq_s m) ⊖ Nym ⊗ zr_of_bytes C (rq_c m)) HSk Nym nonce (ip_hash ipk).
  Proof.
    intros HS E. unfold checkCredRequest_first in E. rewrite HS in E. inv_all.
    destruct (rq_nonce m) as [nonce|] eqn:EN; [|discriminate]. cbn [opt_err] in *. inv_all.
    destruct (le_lt_dec (length v1) (2 * scalar_size C)) as [L|L].
    - rewrite (credreq_data_ok OK) in E by exact L. inv_all. eauto 10.
    - rewrite (credreq_data_long OK) in E by exact L. discriminate.
  Qed.

  Lemma credreq_string_inj (t k n t' k' n' : g1) nonce nonce' h h' :
    credreq_string t k n nonce h = credreq_string t' k' n' nonce' h' -> length nonce = length nonce' ->
    t = t' /\ k = k' /\ n = n' /\ nonce = nonce'.
  Proof.
    unfold credreq_string. intros E L. rewrite <- !app_assoc in E. apply app_inv_head in E.
    apply app_inj_len in E; [|rewrite !(pts_length OK); reflexivity]. destruct E as [E1 E].
    apply app_inj_len in E; [|exact L]. destruct E as [E2 _].
    apply (pts_inj OK) in E1; [|reflexivity]. inversion E1. auto.
  Qed.

  Lemma credreq_sound m1 m2 ipk pd HSk :
    g1_from_proto T (ip_hsk ipk) = Ok HSk ->
    checkCredRequest_first T m1 ipk = Ok pd -> checkCredRequest_first T m2 ipk = Ok pd ->
    zr_of_bytes C (rq_c m1) <> zr_of_bytes C (rq_c m2) ->
    g1_from_proto T (rq_nym m1) = Ok (HSk ⊗ request_extract C m1 m2).
  Proof.
    intros HS E1 E2 NC. apply (credReq_first_inv HS) in E1. apply (credReq_first_inv HS) in E2.
    destruct E1 as (N1 & n1 & P1 & Q1 & L1 & D1). destruct E2 as (N2 & n2 & P2 & Q2 & L2 & D2).
    rewrite D1 in D2. unfold credreq_string in D2. rewrite <- !app_assoc in D2. apply app_inv_head in D2.
    apply app_inj_len in D2; [|rewrite !(pts_length OK); reflexivity]. destruct D2 as [D2 _].
    apply (pts_inj OK) in D2; [|reflexivity]. injection D2 as ET EN. subst N2. rewrite P1. f_equal.
    pose proof (zsub_nz OK NC) as NC'. unfold request_extract, quot.
    eapply (glin1 OK) with (k := zinv (zr_of_bytes C (rq_c m1) - zr_of_bytes C (rq_c m2))); [symmetry; exact ET|].
    gnorm KO GO1; field; exact NC'.
  Qed.

  (** one proof accepted with two nonces of the same length *)
  Lemma credreq_nonce (H : hasher C) m ipk HSk n1 n2 pd1 pd2 :
    g1_from_proto T (ip_hsk ipk) = Ok HSk ->
    let m1 := {| rq_nym := rq_nym m; rq_nonce := Some n1; rq_c := rq_c m; rq_s := rq_s m |} in
    let m2 := {| rq_nym := rq_nym m; rq_nonce := Some n2; rq_c := rq_c m; rq_s := rq_s m |} in
    checkCredRequest H T m1 ipk = Ok tt -> checkCredRequest H T m2 ipk = Ok tt ->
    checkCredRequest_first T m1 ipk = Ok pd1 -> checkCredRequest_first T m2 ipk = Ok pd2 ->
    length n1 = length n2 -> n1 <> n2 -> collision H pd1 pd2.
  Proof.
    intros HS m1 m2 V1 V2 E1 E2 L N. unfold checkCredRequest in *. rewrite E1 in V1. rewrite E2 in V2. cbn [bind] in *.
    apply guard_ok, (sok_eqb KO) in V1. apply guard_ok, (sok_eqb KO) in V2.
    apply (credReq_first_inv HS) in E1. apply (credReq_first_inv HS) in E2.
    destruct E1 as (N1 & n1' & P1 & Q1 & L1 & D1). destruct E2 as (N2 & n2' & P2 & Q2 & L2 & D2).
    cbn [rq_nonce m1 m2] in Q1, Q2. injection Q1 as <-. injection Q2 as <-.
    split; [|cbn [rq_c m1 m2] in *; congruence]. intro E. rewrite D1, D2 in E.
    apply credreq_string_inj in E; [|exact L]. tauto.
  Qed.
End Audit.
