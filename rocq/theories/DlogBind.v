(** dlog: pseudonym signatures, binding to message and context, verification types, audits,
    issuer-key and request proofs. *)
From Verif Require Import Base Curve Algebra Spec Dlog DlogSpec DlogFacts DlogData DlogSound DlogComplete DlogSign.
From Coq Require Import Field Ring.
Unset Strict Implicit.

Section Bind.
  Context {C : Curve} (OK : CurveOk C).
  Variable T : translator C.
  Let KO := ok_zr OK.
  Let GO1 := ok_g1 OK.
  Let GO2 := ok_g2 OK.
  Let GOT := ok_gt OK.
  Add Field Kf_bind : (sok_field KO).
  Notation zr := (zcar (Zr C)).
  Notation g1 := (gcar (G1 C)).
  Local Open Scope zr_scope.

  (** ** Pseudonym signatures *)
  Lemma nymsig_complete (H : hasher C) sk Nym RNym ipk HSk HRand msg nonce rSk rRNym :
    g1_from_proto T (ip_hsk ipk) = Ok HSk -> g1_from_proto T (ip_hrand ipk) = Ok HRand ->
    opens HSk HRand Nym sk RNym ->
    exists sig, newNymSignature H T (Some sk) (Some Nym) (Some RNym) (Some ipk) msg nonce rSk rRNym = Ok sig /\
      verNymSignature H T sig (Some Nym) (Some ipk) msg = Ok tt.
  Proof.
    intros E1 E2 Op. unfold newNymSignature. rewrite E1, E2. cbn [bind].
    rewrite (nymsig_data_ok OK). cbn [bind]. rewrite (challenge_ok OK) by apply (nymsig_string_length OK).
    cbn [bind]. eexists. split; [reflexivity|].
    unfold verNymSignature, verNym_first. cbn [ns_c ns_ssk ns_srnym ns_nonce deref bind]. rewrite E1, E2. cbn [bind].
    rewrite !(zfb_zb OK), (nymsig_data_ok OK). cbn [bind].
    rewrite (challenge_ok OK) by apply (nymsig_string_length OK). cbn [bind].
    match goal with |- context [nymsig_string (?a ⊖ Nym ⊗ ?c)] =>
      replace (a ⊖ Nym ⊗ c) with (gmul2 HSk rSk HRand rRNym) end.
    - rewrite (zeqb_refl KO). reflexivity.
    - unfold opens in Op. rewrite Op. gnorm KO GO1; ring.
  Qed.

  Lemma verNym_first_inv sig nym ipk msg pd HSk HRand :
    g1_from_proto T (ip_hsk ipk) = Ok HSk -> g1_from_proto T (ip_hrand ipk) = Ok HRand ->
    verNym_first T sig (Some nym) (Some ipk) msg = Ok pd ->
    pd = nymsig_string (gmul2 HSk (zr_of_bytes C (ns_ssk sig)) HRand (zr_of_bytes C (ns_srnym sig))
                        ⊖ nym ⊗ zr_of_bytes C (ns_c sig)) nym (ip_hash ipk) msg.
  Proof.
    intros E1 E2 E. unfold verNym_first in E. cbn [deref bind] in E. rewrite E1, E2 in E. cbn [bind] in E.
    rewrite (nymsig_data_ok OK) in E. inv_all. reflexivity.
  Qed.

  Lemma nymsig_string_inj (t n t' n' : g1) h h' m m' :
    nymsig_string t n h m = nymsig_string t' n' h' m' ->
    t = t' /\ n = n' /\ fit (scalar_size C) h = fit (scalar_size C) h' /\ m = m'.
  Proof.
    unfold nymsig_string. intro E.
    apply app_inj_len in E; [|rewrite !app_length, !(pts_length OK); reflexivity]. destruct E as [E1 E2].
    apply app_inv_head in E1. apply (pts_inj OK) in E1; [|reflexivity].
    apply app_inj_len in E2; [|rewrite !fit_length; reflexivity]. destruct E2 as [E2 E3].
    inversion E1. auto.
  Qed.

  Lemma nymsig_sound sig1 sig2 nym1 nym2 ipk msg1 msg2 HSk HRand pd :
    g1_from_proto T (ip_hsk ipk) = Ok HSk -> g1_from_proto T (ip_hrand ipk) = Ok HRand ->
    verNym_first T sig1 (Some nym1) (Some ipk) msg1 = Ok pd ->
    verNym_first T sig2 (Some nym2) (Some ipk) msg2 = Ok pd ->
    zr_of_bytes C (ns_c sig1) <> zr_of_bytes C (ns_c sig2) ->
    nym1 = nym2 /\ msg1 = msg2 /\
    opens HSk HRand nym1 (fst (nym_extract C sig1 sig2)) (snd (nym_extract C sig1 sig2)).
  Proof.
    intros E1 E2 V1 V2 NC.
    apply (verNym_first_inv E1 E2) in V1. apply (verNym_first_inv E1 E2) in V2.
    rewrite V1 in V2. apply nymsig_string_inj in V2. destruct V2 as (Et & En & _ & Em). subst nym2.
    split; [reflexivity|]. split; [exact Em|].
    pose proof (zsub_nz OK NC) as NZ.
    unfold nym_extract, quot, opens. cbn [fst snd].
    eapply (glin1 OK) with (k := zinv (zr_of_bytes C (ns_c sig1) - zr_of_bytes C (ns_c sig2))); [symmetry; exact Et|].
    gnorm KO GO1; field; exact NZ.
  Qed.

  (** a signature made with an opening that does not open the pseudonym *)
  Lemma nymsig_wrong (H : hasher C) sk Nym RNym ipk HSk HRand msg nonce rSk rRNym sig :
    g1_from_proto T (ip_hsk ipk) = Ok HSk -> g1_from_proto T (ip_hrand ipk) = Ok HRand ->
    newNymSignature H T (Some sk) (Some Nym) (Some RNym) (Some ipk) msg nonce rSk rRNym = Ok sig ->
    verNymSignature H T sig (Some Nym) (Some ipk) msg = Ok tt ->
    opens HSk HRand Nym sk RNym \/ zr_of_bytes C (ns_c sig) = z0 \/
    transcripts_collide H (nymsig_string (gmul2 HSk rSk HRand rRNym) Nym (ip_hash ipk) msg)
      (nymsig_string (gmul2 HSk (zr_of_bytes C (ns_ssk sig)) HRand (zr_of_bytes C (ns_srnym sig))
                        ⊖ Nym ⊗ zr_of_bytes C (ns_c sig)) Nym (ip_hash ipk) msg) nonce.
  Proof.
    intros E1 E2 N V. unfold newNymSignature in N. rewrite E1, E2 in N. cbn [bind] in N.
    rewrite (nymsig_data_ok OK) in N. cbn [bind] in N. rewrite (challenge_ok OK) in N by apply (nymsig_string_length OK).
    cbn [bind] in N. inv_all. unfold verNymSignature, verNym_first in *. cbn [ns_c ns_ssk ns_srnym ns_nonce deref bind] in *.
    rewrite E1, E2 in *. cbn [bind] in *. rewrite !(zfb_zb OK) in *. rewrite (nymsig_data_ok OK) in *. cbn [bind] in *.
    rewrite (challenge_ok OK) in V by apply (nymsig_string_length OK). cbn [bind] in V.
    apply guard_ok in V. apply (sok_eqb KO) in V.
    set (S1 := nymsig_string (gmul2 HSk rSk HRand rRNym) Nym (ip_hash ipk) msg) in *.
    set (c := H (zr_bytes C (H S1) ++ zr_bytes C nonce)) in *.
    match goal with |- context [transcripts_collide H S1 ?s nonce] => set (S2 := s) in * end.
    destruct (bytes_eqb_spec S1 S2) as [ES|NS].
    - apply nymsig_string_inj in ES. destruct ES as (Et & _).
      destruct (zeqb c z0) eqn:Z0; [right; left; apply (sok_eqb KO); exact Z0|left].
      assert (NZ : c <> z0) by (intro Q; rewrite Q, (zeqb_refl KO) in Z0; discriminate).
      unfold opens. eapply (glin1 OK) with (k := zinv c); [exact Et|].
      gnorm KO GO1; field; exact NZ.
    - right. right. unfold transcripts_collide, collision.
      destruct (zeqb (H S1) (H S2)) eqn:Q; [left; split; [exact NS|apply (sok_eqb KO); exact Q]|].
      right. split; [|exact V]. intro X. apply app_inv_tail in X.
      apply (f_equal (zr_of_bytes C)) in X. rewrite !(zfb_zb OK) in X. rewrite X, (zeqb_refl KO) in Q. discriminate.
  Qed.

  Lemma collide (H : hasher C) pd1 pd2 nonce : pd1 <> pd2 ->
    H (zr_bytes C (H pd1) ++ zr_bytes C nonce) = H (zr_bytes C (H pd2) ++ zr_bytes C nonce) ->
    transcripts_collide H pd1 pd2 nonce.
  Proof.
    intros N E. unfold transcripts_collide, collision.
    destruct (zeqb (H pd1) (H pd2)) eqn:Q; [left; split; [exact N|apply (sok_eqb KO); exact Q]|].
    right. split; [|exact E]. intro X. apply app_inv_tail in X.
    apply (f_equal (zr_of_bytes C)) in X. rewrite !(zfb_zb OK) in X. rewrite X, (zeqb_refl KO) in Q. discriminate.
  Qed.

  Lemma nymsig_message (H : hasher C) sig nym1 nym2 ipk1 ipk2 msg1 msg2 pd1 pd2 HSk1 HRand1 HSk2 HRand2 :
    g1_from_proto T (ip_hsk ipk1) = Ok HSk1 -> g1_from_proto T (ip_hrand ipk1) = Ok HRand1 ->
    g1_from_proto T (ip_hsk ipk2) = Ok HSk2 -> g1_from_proto T (ip_hrand ipk2) = Ok HRand2 ->
    verNymSignature H T sig (Some nym1) (Some ipk1) msg1 = Ok tt ->
    verNymSignature H T sig (Some nym2) (Some ipk2) msg2 = Ok tt ->
    verNym_first T sig (Some nym1) (Some ipk1) msg1 = Ok pd1 ->
    verNym_first T sig (Some nym2) (Some ipk2) msg2 = Ok pd2 ->
    (nym1, fit (scalar_size C) (ip_hash ipk1), msg1) <> (nym2, fit (scalar_size C) (ip_hash ipk2), msg2) ->
    transcripts_collide H pd1 pd2 (zr_of_bytes C (ns_nonce sig)).
  Proof.
    intros A1 A2 B1 B2 V1 V2 F1 F2 N. unfold verNymSignature in *. rewrite F1 in V1. rewrite F2 in V2. cbn [bind] in *.
    apply (verNym_first_inv A1 A2) in F1. apply (verNym_first_inv B1 B2) in F2.
    rewrite (challenge_ok OK) in V1, V2 by (subst; apply (nymsig_string_length OK)). cbn [bind] in *.
    apply guard_ok, (sok_eqb KO) in V1. apply guard_ok, (sok_eqb KO) in V2.
    apply collide; [|congruence]. intro E. rewrite F1, F2 in E. apply nymsig_string_inj in E.
    destruct E as (_ & X1 & X2 & X3). apply N. congruence.
  Qed.

  (** ** Signatures: message, disclosure, issuer *)
  Lemma Ver_inv (H : hasher C) sig disc ipk msg vals rhI eidI revpk (rev : revpk) epoch vt meta F :
    Ver H T sig disc (Some ipk) msg vals rhI eidI rev epoch vt meta = Ok tt ->
    Ver_first T sig disc ipk msg vals rhI eidI vt = Ok F ->
    exists c, challenge H (vf_data F) (vf_nonce F) = Ok c /\ vf_c F = c.
  Proof.
    intros V E. unfold Ver in V. cbn [opt_err bind] in V. rewrite E in V. cbn [bind] in V. 
    apply bind_ok in V. destruct V as [c [V1 V]]. exists c. split; [exact V1|].
    apply bind_ok in V. destruct V as [? [_ V]]. apply bind_ok in V. destruct V as [? [_ V]].
    apply guard_ok, (sok_eqb KO) in V. exact V.
  Qed.

  Lemma sig_string_inj_shape (t1 t2 t3 a b c n : g1) eid rh (t1' t2' t3' a' b' c' n' : g1) eid' rh' hash hash' disc disc' msg msg' :
    (eid = None <-> eid' = None) -> (rh = None <-> rh' = None) -> length disc = length disc' ->
    sig_string t1 t2 t3 a b c n eid rh hash disc msg = sig_string t1' t2' t3' a' b' c' n' eid' rh' hash' disc' msg' ->
    sig_points t1 t2 t3 a b c n eid rh = sig_points t1' t2' t3' a' b' c' n' eid' rh' /\
    fit (scalar_size C) hash = fit (scalar_size C) hash' /\ disc = disc' /\ msg = msg'.
  Proof.
    intros He Hr L E. unfold sig_string in E.
    assert (LP : length (sig_points t1 t2 t3 a b c n eid rh) = length (sig_points t1' t2' t3' a' b' c' n' eid' rh')).
    { unfold sig_points. rewrite !app_length. destruct eid as [[? ?]|], eid' as [[? ?]|], rh as [[? ?]|], rh' as [[? ?]|];
        cbn; try reflexivity; exfalso; intuition congruence. }
    assert (LL : sig_label C eid rh = sig_label C eid' rh').
    { unfold sig_label. destruct eid, eid', rh, rh'; try reflexivity; exfalso; intuition congruence. }
    rewrite LL in E.
    apply app_inj_len in E; [|rewrite !app_length, !(pts_length OK), LP; reflexivity]. destruct E as [E1 E2].
    apply app_inv_head in E1. apply (pts_inj OK) in E1; [|exact LP].
    apply app_inj_len in E2; [|rewrite !fit_length; reflexivity]. destruct E2 as [E2 E3].
    apply app_inj_len in E3; [|exact L]. destruct E3. auto.
  Qed.

  Lemma sig_context (H : hasher C) sig disc1 disc2 ipk1 ipk2 B1 B2 msg1 msg2 vals1 vals2 rhI1 rhI2 eidI1 eidI2
      revpk (rev1 rev2 : revpk) ep1 ep2 vt1 vt2 meta1 meta2 F1 F2 :
    ipk_bases T ipk1 B1 -> ipk_bases T ipk2 B2 ->
    Ver H T sig disc1 (Some ipk1) msg1 vals1 rhI1 eidI1 rev1 ep1 vt1 meta1 = Ok tt ->
    Ver H T sig disc2 (Some ipk2) msg2 vals2 rhI2 eidI2 rev2 ep2 vt2 meta2 = Ok tt ->
    Ver_first T sig disc1 ipk1 msg1 vals1 rhI1 eidI1 vt1 = Ok F1 ->
    Ver_first T sig disc2 ipk2 msg2 vals2 rhI2 eidI2 vt2 = Ok F2 ->
    length disc1 = length disc2 ->
    verifyEIDNym vt1 sig = verifyEIDNym vt2 sig -> verifyRHNym vt1 sig = verifyRHNym vt2 sig ->
    (fit (scalar_size C) (ip_hash ipk1), disc1, msg1) <> (fit (scalar_size C) (ip_hash ipk2), disc2, msg2) ->
    transcripts_collide H (vf_data F1) (vf_data F2) (zr_of_bytes C (sg_nonce sig)).
  Proof.
    intros HB1 HB2 V1 V2 E1 E2 L He Hr N.
    destruct (Ver_inv V1 E1) as [c1 [C1 D1]]. destruct (Ver_inv V2 E2) as [c2 [C2 D2]].
    edestruct (Ver_first_inv OK) as (a & b & c & n & O1); [exact HB1|exact E1|].
    edestruct (Ver_first_inv OK) as (a' & b' & c' & n' & O2); [exact HB2|exact E2|].
    rewrite (challenge_ok OK) in C1 by (rewrite (fo_data O1); apply (sig_string_length OK)).
    rewrite (challenge_ok OK) in C2 by (rewrite (fo_data O2); apply (sig_string_length OK)).
    rewrite (fo_nonce O1) in C1. rewrite (fo_nonce O2) in C2. rewrite (fo_c O1) in D1. rewrite (fo_c O2) in D2.
    injection C1 as C1. injection C2 as C2.
    apply collide; [|congruence].
    intro E. rewrite (fo_data O1), (fo_data O2) in E. apply sig_string_inj_shape in E; [| | |exact L].
    - destruct E as (_ & X1 & X2 & X3). apply N. congruence.
    - pose proof (fo_eid O1) as X1. pose proof (fo_eid O2) as X2. rewrite He in X1.
      destruct (verifyEIDNym vt2 sig); [destruct X1 as [? [_ ->]], X2 as [? [_ ->]]; split; discriminate|rewrite X1, X2; tauto].
    - pose proof (fo_rh O1) as X1. pose proof (fo_rh O2) as X2. rewrite Hr in X1.
      destruct (verifyRHNym vt2 sig); [destruct X1 as [? [_ ->]], X2 as [? [_ ->]]; split; discriminate|rewrite X1, X2; tauto].
  Qed.

  Lemma dsum_diff disc : forall (ps : list g1) v1 v2,
    length disc <= length ps -> vals_ok disc v1 -> vals_ok disc v2 ->
    dsum disc ps v1 ⊖ dsum disc ps v2 = gdot ps (value_diff disc v1 v2).
  Proof.
    induction disc as [|d ds IH]; intros ps v1 v2 L O1 O2; cbn [dsum value_diff vals_ok length] in *.
    - rewrite (gdot_nil_r ps). apply (gsub_diag KO GO1).
    - destruct ps as [|p ps]; cbn [length] in L; [lia|]. cbn [gdot tl].
      destruct (byte_eqb d b0).
      + rewrite <- IH by (auto; lia). gnorm KO GO1; ring.
      + destruct v1 as [|[a|] v1]; try contradiction. destruct v2 as [|[b|] v2]; try contradiction.
        cbn [tl]. rewrite <- IH by (auto; lia). gnorm KO GO1; ring.
  Qed.

  Lemma sig_points_t2 (t1 t2 t3 a b c n : g1) eid rh (t1' t2' t3' a' b' c' n' : g1) eid' rh' :
    sig_points t1 t2 t3 a b c n eid rh = sig_points t1' t2' t3' a' b' c' n' eid' rh' -> t2 = t2'.
  Proof. unfold sig_points. cbn [app]. intro E. inversion E. reflexivity. Qed.

  (** the same signature accepted for two lists of disclosed values *)
  Lemma sig_values (H : hasher C) sig disc ipk B msg vals1 vals2 rhI eidI revpk (rev1 rev2 : revpk) ep1 ep2 vt meta1 meta2 F1 F2 :
    ipk_bases T ipk B ->
    Ver H T sig disc (Some ipk) msg vals1 rhI eidI rev1 ep1 vt meta1 = Ok tt ->
    Ver H T sig disc (Some ipk) msg vals2 rhI eidI rev2 ep2 vt meta2 = Ok tt ->
    Ver_first T sig disc ipk msg vals1 rhI eidI vt = Ok F1 ->
    Ver_first T sig disc ipk msg vals2 rhI eidI vt = Ok F2 ->
    transcripts_collide H (vf_data F1) (vf_data F2) (zr_of_bytes C (sg_nonce sig)) \/
    zr_of_bytes C (sg_c sig) = z0 \/
    gdot (b_attrs B) (value_diff disc vals1 vals2) = gzero.
  Proof.
    intros HB V1 V2 E1 E2.
    destruct (Ver_inv V1 E1) as [c1 [C1 D1]]. destruct (Ver_inv V2 E2) as [c2 [C2 D2]].
    edestruct (Ver_first_inv OK) as (a & b & c & n & O1); [exact HB|exact E1|].
    edestruct (Ver_first_inv OK) as (a' & b' & c' & n' & O2); [exact HB|exact E2|].
    rewrite (challenge_ok OK) in C1 by (rewrite (fo_data O1); apply (sig_string_length OK)).
    rewrite (challenge_ok OK) in C2 by (rewrite (fo_data O2); apply (sig_string_length OK)).
    rewrite (fo_nonce O1) in C1. rewrite (fo_nonce O2) in C2. rewrite (fo_c O1) in D1. rewrite (fo_c O2) in D2.
    injection C1 as C1. injection C2 as C2.
    destruct (bytes_eqb_spec (vf_data F1) (vf_data F2)) as [E|N]; [right|left; apply collide; [exact N|congruence]].
    rewrite (fo_data O1), (fo_data O2) in E. apply sig_string_inj_shape in E; [| | |reflexivity].
    2:{ pose proof (fo_eid O1) as X1. pose proof (fo_eid O2) as X2. 
        destruct (verifyEIDNym vt sig); [destruct X1 as [? [_ ->]], X2 as [? [_ ->]]; split; discriminate|rewrite X1, X2; tauto]. }
    2:{ pose proof (fo_rh O1) as X1. pose proof (fo_rh O2) as X2.
        destruct (verifyRHNym vt sig); [destruct X1 as [? [_ ->]], X2 as [? [_ ->]]; split; discriminate|rewrite X1, X2; tauto]. }
    destruct E as (E & _). apply sig_points_t2 in E. unfold t2_of in E.
    assert (c' = c) by (pose proof (fo_b O1); pose proof (fo_b O2); congruence). subst c'.
    set (ch := zr_of_bytes C (sg_c sig)) in *.
    destruct (zeqb ch z0) eqn:Z0; [left; apply (sok_eqb KO); exact Z0|right].
    assert (NZ : ch <> z0) by (intro Q; rewrite Q, (zeqb_refl KO) in Z0; discriminate).
    rewrite <- (@dsum_diff disc (b_attrs B) vals1 vals2 (fo_bases O1) (fo_vals O1) (fo_vals O2)).
    apply (gsub_zero KO GO1). rewrite (gsub_diag KO GO1) || idtac.
    eapply (glin1 OK) with (k := zinv ch); [exact E|]. gnorm KO GO1; field; exact NZ.
  Qed.

  (** ** Verification types *)
  Lemma Ver_runs (H : hasher C) sig disc ipk msg vals rhI eidI revpk (rev : revpk) epoch vt meta :
    Ver H T sig disc ipk msg vals rhI eidI rev epoch vt meta = Ok tt ->
    exists k F, ipk = Some k /\ Ver_first T sig disc k msg vals rhI eidI vt = Ok F.
  Proof.
    intro V. unfold Ver in V. apply bind_ok in V. destruct V as [k [E V]]. destruct ipk as [k'|]; [|discriminate].
    cbn [opt_err] in E. injection E as ->. apply bind_ok in V. destruct V as [F [E _]]. eauto.
  Qed.

  Lemma Ver_type_checks (H : hasher C) sig disc ipk msg vals rhI eidI revpk (rev : revpk) epoch vt meta :
    Ver H T sig disc ipk msg vals rhI eidI rev epoch vt meta = Ok tt -> type_checks vt sig = true.
  Proof.
    intro V. destruct (Ver_runs V) as (k & F & -> & E). unfold Ver_first in E.
    repeat (apply bind_ok in E; destruct E as [? [? E]]; try match goal with X : guard (type_checks _ _) = Ok _ |- _ => apply guard_ok in X; exact X end).
  Qed.

  Lemma nym_complete_inv x : nym_complete x = true -> exists n s, x = Some {| an_nym := Some n; an_s := Some s |}.
  Proof. destruct x as [[[n|] [s|]]|]; try discriminate. eauto. Qed.

  (** what each verification type lets through *)
  Lemma Ver_matrix (H : hasher C) sig disc ipk msg vals rhI eidI revpk (rev : revpk) epoch vt meta :
    Ver H T sig disc ipk msg vals rhI eidI rev epoch vt meta = Ok tt ->
    match vt with
    | ExpectStandard => sg_eid sig = None /\ sg_rh sig = None
    | ExpectEidNym => exists n s, sg_eid sig = Some {| an_nym := Some n; an_s := Some s |}
    | ExpectEidNymRhNym => (exists n s, sg_eid sig = Some {| an_nym := Some n; an_s := Some s |}) /\
                           (exists n s, sg_rh sig = Some {| an_nym := Some n; an_s := Some s |})
    | _ => True
    end.
  Proof.
    intro V. apply Ver_type_checks in V. unfold type_checks in V.
    destruct vt; try exact I; cbn in V.
    - destruct (sg_eid sig), (sg_rh sig); try discriminate; auto.
    - apply nym_complete_inv. destruct (nym_complete (sg_eid sig)); [reflexivity|discriminate].
    - split; apply nym_complete_inv; destruct (nym_complete (sg_eid sig)), (nym_complete (sg_rh sig)); try discriminate; reflexivity.
  Qed.

  (** BestEffort checks every attribute commitment that is present *)
  Lemma best_effort_checks sig disc ipk msg vals rhI eidI F :
    Ver_first T sig disc ipk msg vals rhI eidI BestEffort = Ok F ->
    (sg_eid sig <> None -> vf_eid F <> None) /\ (sg_rh sig <> None -> vf_rh F <> None /\ vf_eid F <> None).
  Proof.
    intro E. unfold Ver_first in E. unfold verifyEIDNym, verifyRHNym in E. cbn in E.
    repeat match type of E with
    | bind ?m _ = Ok _ => apply bind_ok in E; let a := fresh "v" in let X := fresh "X" in destruct E as [a [X E]]; cbv beta zeta in E
    end.
    injection E as <-. cbn [vf_eid vf_rh].
    destruct (sg_eid sig) as [e|], (sg_rh sig) as [r|]; cbn [is_some orb andb] in *; inv_all;
      repeat split; intros; congruence || discriminate.
  Qed.

  (** the smartcard verification types, and the undeclared ones, are treated exactly like Basic *)
  Lemma smartcard_is_basic (H : hasher C) sig disc ipk msg vals rhI eidI revpk (rev : revpk) epoch meta :
    Ver H T sig disc ipk msg vals rhI eidI rev epoch ExpectSmartcard meta
    = Ver H T sig disc ipk msg vals rhI eidI rev epoch Basic meta /\
    Ver H T sig disc ipk msg vals rhI eidI rev epoch ExpectSmartcardNoNyms meta
    = Ver H T sig disc ipk msg vals rhI eidI rev epoch Basic meta /\
    Ver H T sig disc ipk msg vals rhI eidI rev epoch OtherVer meta
    = Ver H T sig disc ipk msg vals rhI eidI rev epoch Basic meta.
  Proof. repeat split. Qed.

  (** epoch and revocation key are never read *)
  Lemma epoch_ignored (H : hasher C) sig disc ipk msg vals rhI eidI r1 r2 (rev1 : r1) (rev2 : r2) ep1 ep2 vt meta :
    Ver H T sig disc ipk msg vals rhI eidI rev1 ep1 vt meta = Ver H T sig disc ipk msg vals rhI eidI rev2 ep2 vt meta.
  Proof. reflexivity. Qed.
End Bind.
