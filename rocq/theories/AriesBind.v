(** One aries signature accepted twice: the challenge is the same, so the hashed transcripts are
    the same or the hash function collides. *)
From Verif Require Import Base Curve Algebra Spec Dlog Bridge BridgeFacts Bbs BbsSpec BbsFacts BbsProof BbsComplete Aries AriesSpec AriesIssue AriesNym AriesVerify AriesSign AriesSound.
From Coq Require Import Field Ring Sorting.Sorted.
Unset Strict Implicit.

Lemma app_tail_eq A (x y s t : list A) : length s = length t -> x ++ s = y ++ t -> x = y /\ s = t.
Proof.
  intros L E. assert (Lx : length x = length y) by (apply (f_equal (@length A)) in E; rewrite !app_length in E; lia).
  revert y E Lx. induction x as [|a x IH]; intros [|b y] E Lx; try discriminate; [split; [reflexivity|exact E]|].
  cbn [app] in E. injection E as -> E. cbn [length] in Lx. injection Lx as Lx. destruct (IH y E Lx) as [-> ->]. split; reflexivity.
Qed.

Lemma app_head_eq A (x y s t : list A) : length x = length y -> x ++ s = y ++ t -> x = y /\ s = t.
Proof. intros L E. apply app_tail_eq; [|exact E]. apply (f_equal (@length A)) in E. rewrite !app_length in E. lia. Qed.

Section Bind.
  Context {C : Curve} (OK : CurveOk C).
  Variable HG : bytes -> G1 C.
  Variable H : hasher C.
  Let KO := ok_zr OK.
  Let GO1 := ok_g1 OK.
  Add Field Kf_arb : (sok_field KO).
  Notation zr := (zcar (Zr C)).
  Notation g1 := (gcar (G1 C)).
  Notation g2 := (gcar (G2 C)).
  Variable BS : bls_sizes C.
  Variable c_sig : codec ASignature.
  Variables (pk : g2) (n : nat).
  Notation h0 := (gen0 HG pk (n + 1)).
  Notation hs := (gens HG pk (n + 1)).
  Notation key := (ip_key (issuer_key HG pk n)).
  Notation ipk := (Some (Some (issuer_key HG pk n))).

  (** The parts of Verify's first half that depend on the signature only. *)
  Lemma first_same sigb msg1 msg2 attrs1 attrs2 sk1 sk2 v1 v2 f1 f2 :
    arVerify_first H c_sig ipk sigb msg1 attrs1 sk1 v1 = Ok f1 -> arVerify_first H c_sig ipk sigb msg2 attrs2 sk2 v2 = Ok f2 ->
    vf_sig f1 = vf_sig f2 /\ vf_sp f1 = vf_sp f2 /\ vf_nym f1 = vf_nym f2.
  Proof.
    intros F1 F2. destruct (first_inv F1) as (D1 & _ & _ & _ & _ & _ & (p1 & P1 & S1 & _) & N1 & _).
    destruct (first_inv F2) as (D2 & _ & _ & _ & _ & _ & (p2 & P2 & S2 & _) & N2 & _).
    assert (E : vf_sig f1 = vf_sig f2) by congruence. rewrite E in *. split; [reflexivity|].
    rewrite P1 in P2. injection P2 as <-. rewrite S1 in S2. injection S2 as S2. rewrite N1 in N2. injection N2 as N2. auto.
  Qed.

  Lemma second_vc1 f c rh eid skIndex v meta : vf_key f = key ->
    arVerify_second f c rh eid skIndex v meta = Ok tt ->
    signatureProofVerify (vc2_verifier (ver_smartcard v) (vf_nym f)) (vf_sp f) c key (vf_revealed f) (vf_ms f) = Ok tt.
  Proof.
    intros K E. unfold arVerify_second in E. do 5 (apply bind_ok in E; destruct E as [[] [_ E]]). rewrite K in E. exact E.
  Qed.

  (** t = a'^r0 h0^r1 (abar/d)^c determines c. *)
  Lemma vc1_challenge (sp : PoKOfSignatureProof C) c1 c2 : length (pf_resp (sp_vc1 sp)) = 2 -> sp_abar sp <> sp_d sp ->
    gdot [sp_aprime sp; h0; sp_abar sp ⊖ sp_d sp] (pf_resp (sp_vc1 sp) ++ [c1]) = pf_comm (sp_vc1 sp) ->
    gdot [sp_aprime sp; h0; sp_abar sp ⊖ sp_d sp] (pf_resp (sp_vc1 sp) ++ [c2]) = pf_comm (sp_vc1 sp) -> c1 = c2.
  Proof.
    intros L N E1 E2. destruct (pf_resp (sp_vc1 sp)) as [|a [|b [|]]]; try discriminate. cbn [app gdot] in E1, E2.
    rewrite <- E2 in E1. apply (gadd_cancel_l GO1) in E1. apply (gadd_cancel_l GO1) in E1.
    apply (gmul_faithful KO GO1) with (a := sp_abar sp ⊖ sp_d sp).
    - intro Z. apply N. apply (gsub_zero KO GO1). exact Z.
    - rewrite !(gadd_zero_r GO1) in E1. exact E1.
  Qed.

  (** The hash of the transcripts, or of their hashes with the nonce, collides. *)
  Definition ar_collide (d1 d2 nonce : bytes) : Prop :=
    collision H d1 d2 \/ collision H (zr_bytes C (H d1) ++ nonce) (zr_bytes C (H d2) ++ nonce).

  Lemma challenge_eq d1 d2 nonce : challenge2 H d1 nonce = challenge2 H d2 nonce -> d1 = d2 \/ ar_collide d1 d2 nonce.
  Proof.
    intro E. unfold challenge2 in E. destruct (bytes_eqb d1 d2) eqn:B; [left; apply bytes_eqb_eq; exact B|]. right.
    assert (N : d1 <> d2) by (intro Q; apply bytes_eqb_eq in Q; congruence).
    destruct (zeqb (H d1) (H d2)) eqn:Z.
    - left. apply (sok_eqb KO) in Z. split; assumption.
    - right. split; [|exact E]. intro Q. apply app_tail_eq in Q; [|reflexivity]. destruct Q as [Q _].
      apply (f_equal (zr_of_bytes C)) in Q. rewrite !(ok_zr_rt OK) in Q. apply (sok_eqb KO) in Q. congruence.
  Qed.

  Lemma same_challenge sigb msg1 msg2 attrs1 attrs2 v1 v2 f1 f2 rh1 rh2 eid1 eid2 sk1 sk2 meta1 meta2 c1 c2 :
    arVerify_first H c_sig ipk sigb msg1 attrs1 sk1 v1 = Ok f1 -> arVerify_first H c_sig ipk sigb msg2 attrs2 sk2 v2 = Ok f2 ->
    arVerify_second f1 c1 rh1 eid1 sk1 v1 meta1 = Ok tt -> arVerify_second f2 c2 rh2 eid2 sk2 v2 meta2 = Ok tt ->
    length (pf_resp (sp_vc1 (vf_sp f1))) = 2 -> sp_abar (vf_sp f1) <> sp_d (vf_sp f1) -> c1 = c2.
  Proof.
    intros F1 F2 S1 S2 L N. destruct (first_same F1 F2) as (_ & Esp & _).
    destruct (first_inv F1) as (_ & _ & _ & K1 & _). destruct (first_inv F2) as (_ & _ & _ & K2 & _).
    apply (second_vc1 K1) in S1. apply (second_vc1 K2) in S2. rewrite <- Esp in S2.
    apply (signatureProofVerify_iff OK) in S1. apply (signatureProofVerify_iff OK) in S2.
    destruct S1 as (_ & (_ & E1) & _), S2 as (_ & (_ & E2) & _). exact (vc1_challenge L N E1 E2).
  Qed.

  Lemma same_transcript sigb msg1 msg2 attrs1 attrs2 v1 v2 rh1 rh2 eid1 eid2 sk1 sk2 meta1 meta2 :
    arVerify H c_sig ipk sigb msg1 attrs1 rh1 eid1 sk1 v1 meta1 = Ok tt -> arVerify H c_sig ipk sigb msg2 attrs2 rh2 eid2 sk2 v2 meta2 = Ok tt ->
    (forall f, arVerify_first H c_sig ipk sigb msg1 attrs1 sk1 v1 = Ok f -> length (pf_resp (sp_vc1 (vf_sp f))) = 2 /\ sp_abar (vf_sp f) <> sp_d (vf_sp f)) ->
    exists f1 f2, arVerify_first H c_sig ipk sigb msg1 attrs1 sk1 v1 = Ok f1 /\ arVerify_first H c_sig ipk sigb msg2 attrs2 sk2 v2 = Ok f2 /\
      (vf_data f1 = vf_data f2 \/ ar_collide (vf_data f1) (vf_data f2) (as_nonce (vf_sig f1))).
  Proof.
    intros V1 V2 Sh. unfold arVerify in V1, V2. apply bind_ok in V1. destruct V1 as [f1 [F1 S1]]. apply bind_ok in V2. destruct V2 as [f2 [F2 S2]].
    exists f1, f2. split; [exact F1|]. split; [exact F2|]. destruct (Sh f1 F1) as [L N]. apply challenge_eq.
    destruct (first_same F1 F2) as (Es & _). rewrite Es at 2. rewrite <- Es at 1.
    pose proof (same_challenge F1 F2 S1 S2 L N) as Q. rewrite Es in *. exact Q.
  Qed.

  (** ** What the transcript determines *)
  Lemma data_message sigb msg attrs skIndex v f : arVerify_first H c_sig ipk sigb msg attrs skIndex v = Ok f ->
    exists front, vf_data f = front ++ zr_bytes C (H msg).
  Proof.
    intro F. destruct (first_inv F) as (_ & _ & _ & _ & _ & _ & _ & _ & _ & _ & _ & D). rewrite D. rewrite !app_assoc. eexists. reflexivity.
  Qed.

  Lemma data_msg_eq sigb1 sigb2 msg1 msg2 attrs1 attrs2 sk1 sk2 v1 v2 f1 f2 :
    arVerify_first H c_sig ipk sigb1 msg1 attrs1 sk1 v1 = Ok f1 -> arVerify_first H c_sig ipk sigb2 msg2 attrs2 sk2 v2 = Ok f2 ->
    vf_data f1 = vf_data f2 -> H msg1 = H msg2.
  Proof.
    intros F1 F2 E. destruct (data_message F1) as [x E1]. destruct (data_message F2) as [y E2]. rewrite E1, E2 in E.
    apply app_tail_eq in E; [|rewrite !(ok_zr_len OK); reflexivity]. destruct E as [_ E]. apply (f_equal (zr_of_bytes C)) in E. rewrite !(ok_zr_rt OK) in E. exact E.
  Qed.

  (** The signature type whose label Verify hashes. *)
  Definition checked_type (v : VerificationType) (s : ASignature) : SignatureType :=
    match v with
    | ExpectSmartcard => Smartcard
    | ExpectSmartcardNoNyms => SmartcardNoNyms
    | _ => if ar_verifyRh v s then EidNymRhNym else if ar_verifyEid v s then EidNym else Standard
    end.
  Lemma label_of v s : ver_label v (ar_verifyEid v s) (ar_verifyRh v s) = sign_label (checked_type v s).
  Proof. unfold ver_label, checked_type. destruct v; try reflexivity; match goal with |- context [ar_verifyRh ?w s] => destruct (ar_verifyRh w s), (ar_verifyEid w s); reflexivity end. Qed.

  (** No encoded point begins with a letter that continues one label to another. *)
  Definition points_unlike_labels : Prop := forall (P : g1) b, hd_error (g1_bytes C P) = Some b -> b <> "W"%byte /\ b <> "R"%byte /\ b <> "N"%byte.

  Lemma labels_separate st1 st2 (P : g1) x y : points_unlike_labels ->
    sign_label st1 ++ g1_bytes C P ++ x = sign_label st2 ++ g1_bytes C P ++ y -> st1 = st2.
  Proof.
    intros U E. pose proof (ok_g1_len OK P) as L. pose proof (ok_g1_size OK) as G. specialize (U P). destruct (g1_bytes C P) as [|b p]; [cbn [length] in L; lia|].
    specialize (U b eq_refl). destruct U as (U1 & U2 & U3). clear L G.
    destruct st1, st2; try reflexivity; exfalso; cbn in E; injection E; intros; congruence.
  Qed.

  Lemma types_separate sigb msg1 msg2 attrs1 attrs2 sk1 sk2 v1 v2 f1 f2 : points_unlike_labels ->
    arVerify_first H c_sig ipk sigb msg1 attrs1 sk1 v1 = Ok f1 -> arVerify_first H c_sig ipk sigb msg2 attrs2 sk2 v2 = Ok f2 ->
    vf_data f1 = vf_data f2 -> checked_type v1 (vf_sig f1) = checked_type v2 (vf_sig f2).
  Proof.
    intros U F1 F2 E. destruct (first_same F1 F2) as (_ & Esp & _). 
    destruct (first_inv F1) as (_ & _ & _ & _ & _ & _ & _ & _ & _ & _ & _ & D1). destruct (first_inv F2) as (_ & _ & _ & _ & _ & _ & _ & _ & _ & _ & _ & D2).
    cbv zeta in D1, D2. rewrite D1, D2, !label_of, <- Esp in E. unfold chal_bytes in E. rewrite <- !app_assoc in E. exact (labels_separate U E).
  Qed.

  Lemma rh_eid v s : ar_verifyRh v s = true -> ar_verifyEid v s = true.
  Proof. unfold ar_verifyRh, ar_verifyEid. destruct v; try discriminate; intro E; try reflexivity. rewrite E. apply orb_true_r. Qed.

  (** without smartcards the lengths differ *)
  Lemma types_separate_nosc sigb msg1 msg2 attrs1 attrs2 sk1 sk2 v1 v2 f1 f2 : ver_smartcard v1 = false -> ver_smartcard v2 = false ->
    arVerify_first H c_sig ipk sigb msg1 attrs1 sk1 v1 = Ok f1 -> arVerify_first H c_sig ipk sigb msg2 attrs2 sk2 v2 = Ok f2 ->
    vf_data f1 = vf_data f2 -> checked_type v1 (vf_sig f1) = checked_type v2 (vf_sig f2).
  Proof.
    intros S1 S2 F1 F2 E. destruct (first_same F1 F2) as (Es & Esp & _).
    destruct (first_inv F1) as (_ & _ & _ & _ & _ & _ & (p1 & P1 & _ & _ & _ & R1) & _ & N1 & E1 & H1 & D1).
    destruct (first_inv F2) as (_ & _ & _ & _ & _ & _ & (p2 & P2 & _ & _ & _ & R2) & _ & N2 & E2 & H2 & D2).
    cbv zeta in *. rewrite <- Es in *. rewrite P1 in P2. injection P2 as <-. rewrite S1 in *. rewrite S2 in *. destruct N1 as (q1 & N1 & _), N2 as (q2 & N2 & _).
    assert (RR : forall i, In i (vf_revealed f1) <-> In i (vf_revealed f2)) by (intro i; rewrite R1, R2; reflexivity).
    assert (CB : chal_bytes key (vf_sp f1) (vf_revealed f1) = chal_bytes key (vf_sp f2) (vf_revealed f2)).
    { rewrite <- Esp. unfold chal_bytes. do 6 f_equal. f_equal. f_equal. f_equal. apply (hidden_bases_ext (C := C)). exact RR. }
    cbn [absent] in D1, D2. rewrite D1, D2, CB in E. apply (f_equal (@length byte)) in E. rewrite !app_length, N1, N2, !label_of in E. unfold proofNonceBytes in E. rewrite !(ok_zr_len OK), !(ok_g1_len OK) in E.
    pose proof (@rh_eid v1 (vf_sig f1)) as I1. pose proof (@rh_eid v2 (vf_sig f1)) as I2.
    assert (T : forall v, ver_smartcard v = false -> checked_type v (vf_sig f1) = if ar_verifyRh v (vf_sig f1) then EidNymRhNym else if ar_verifyEid v (vf_sig f1) then EidNym else Standard)
      by (intros []; try reflexivity; discriminate).
    rewrite (T v1 S1), (T v2 S2) in *. clear T.
    destruct (ar_verifyRh v1 (vf_sig f1)); [rewrite (I1 eq_refl) in *; destruct E1 as (a1 & E1 & _); destruct H1 as (b1 & H1 & _)|destruct (ar_verifyEid v1 (vf_sig f1)); [destruct E1 as (a1 & E1 & _)|]];
    (destruct (ar_verifyRh v2 (vf_sig f1)); [rewrite (I2 eq_refl) in *; destruct E2 as (a2 & E2 & _); destruct H2 as (b2 & H2 & _)|destruct (ar_verifyEid v2 (vf_sig f1)); [destruct E2 as (a2 & E2 & _)|]]);
    rewrite E1, E2, H1, H2 in E; rewrite ?app_length, ?(ok_g1_len OK) in E; cbn [sign_label str length] in E; try reflexivity; exfalso; cbn in E; lia.
  Qed.

  (** ** The disclosed values *)
  Lemma messages_states attrs : forall i ms vs, Forall2 (attr_states H) (filter (fun a => negb (is_hidden a)) attrs) vs -> to_messages H i attrs = Ok ms -> map (@sm_fr C) ms = vs.
  Proof.
    induction attrs as [|a attrs IH]; intros i ms vs F E; cbn [filter to_messages] in *.
    - inversion F. injection E as <-. reflexivity.
    - apply bind_ok in E. destruct E as [x [Ex E]]. apply bind_ok in E. destruct E as [ms' [Em E]]. destruct (is_hidden a) eqn:Hd; cbn [negb] in F.
      + assert (x = None) by (unfold is_hidden in Hd; unfold ar_value in Ex; destruct (at_type a); try discriminate; congruence). subst x. injection E as <-. exact (IH _ _ _ F Em).
      + inversion F as [|a' y l' ys Ha Fr]; subst. rewrite (ar_value_states HG Ha) in Ex. injection Ex as <-. injection E as <-. cbn [map sm_fr]. f_equal. exact (IH _ _ _ Fr Em).
  Qed.

  Lemma values_same sigb msg1 msg2 attrs1 attrs2 v1 v2 f1 f2 rh1 rh2 eid1 eid2 sk1 sk2 meta1 meta2 c :
    ver_smartcard v2 = ver_smartcard v1 ->
    arVerify_first H c_sig ipk sigb msg1 attrs1 sk1 v1 = Ok f1 -> arVerify_first H c_sig ipk sigb msg2 attrs2 sk2 v2 = Ok f2 ->
    arVerify_second f1 c rh1 eid1 sk1 v1 meta1 = Ok tt -> arVerify_second f2 c rh2 eid2 sk2 v2 meta2 = Ok tt ->
    length (pf_resp (sp_vc2 (vf_sp f1))) = 2 + hidden_before (ver_smartcard v1) (vf_revealed f1) (n + 1) -> c <> z0 ->
    disclosed key (vf_revealed f1) (map (@sm_fr C) (vf_ms f1)) = disclosed key (vf_revealed f1) (map (@sm_fr C) (vf_ms f2)).
  Proof.
    intros SV F1 F2 S1 S2 L Nc. destruct (first_same F1 F2) as (Es & Esp & En).
    destruct (first_inv F1) as (_ & _ & _ & K1 & _ & Z1 & (p1 & P1 & _ & _ & _ & R1) & _). destruct (first_inv F2) as (_ & _ & _ & K2 & _ & Z2 & (p2 & P2 & _ & _ & _ & R2) & _).
    cbv zeta in *. rewrite SV in Z2, R2. rewrite <- Es in P2. rewrite P1 in P2. injection P2 as <-.
    assert (RR : forall i, In i (vf_revealed f1) <-> In i (vf_revealed f2)) by (intro i; rewrite R1, R2; reflexivity).
    apply (second_vc1 K1) in S1. apply (second_vc1 K2) in S2. rewrite SV, <- Esp, <- En in S2.
    apply (signatureProofVerify_iff OK) in S1. apply (signatureProofVerify_iff OK) in S2. destruct S1 as (_ & _ & S1), S2 as (_ & _ & S2).
    assert (NE : pg_h key <> []) by (cbn [issuer_key ip_key pg_h]; intro Q; pose proof (gens_length HG pk (n + 1)) as X; rewrite Q in X; simpl in X; lia).
    apply (proj1 (vc2_iff OK BS (vf_nym f1) c (vf_ms f1) _ (sp_d (vf_sp f1)) Z1 NE)) in S1. apply (proj1 (vc2_iff OK BS (vf_nym f1) c (vf_ms f2) _ (sp_d (vf_sp f1)) Z2 NE)) in S2.
    destruct S1 as (_ & _ & S1), S2 as (_ & _ & S2).
    assert (VB : vc2_bases key (absent (ver_smartcard v1) (vf_revealed f2)) (sp_d (vf_sp f1)) = vc2_bases key (absent (ver_smartcard v1) (vf_revealed f1)) (sp_d (vf_sp f1))).
    { unfold vc2_bases. do 2 f_equal. apply (hidden_bases_ext (C := C)). intro j. unfold absent. destruct (ver_smartcard v1); cbn [In]; rewrite RR; tauto. }
    rewrite VB in S2. clear VB.
    assert (Lb : length (pf_resp (sp_vc2 (vf_sp f1))) = length (vc2_bases key (absent (ver_smartcard v1) (vf_revealed f1)) (sp_d (vf_sp f1)))).
    { rewrite L. unfold vc2_bases. cbn [length]. rewrite hidden_bases_length. cbn [issuer_key ip_key pg_h]. rewrite gens_length. destruct (ver_smartcard v1); reflexivity. }
    rewrite (contribution_exact OK) in S1 by exact Lb. rewrite (contribution_exact OK) in S2 by exact Lb. rewrite <- S2 in S1. apply (gadd_cancel_l GO1) in S1.
    assert (Q : shown (ver_smartcard v1) key (vf_revealed f1) (map (@sm_fr C) (vf_ms f1)) (vf_nym f1) = shown (ver_smartcard v1) key (vf_revealed f2) (map (@sm_fr C) (vf_ms f2)) (vf_nym f1)).
    { assert (G : forall x y : g1, gopp x ⊗ c = gopp y ⊗ c -> x = y).
      { intros x y Exy. apply (gsub_zero KO GO1). apply (gmul_inv_zero KO GO1) with (k := c); [|exact Nc].
        transitivity ((gopp y ⊗ c) ⊖ (gopp x ⊗ c)); [gnorm KO GO1; ring|]. rewrite Exy. gnorm KO GO1; ring. }
      apply G. exact S1. }
    assert (DE : disclosed key (vf_revealed f2) (map (@sm_fr C) (vf_ms f2)) = disclosed key (vf_revealed f1) (map (@sm_fr C) (vf_ms f2))).
    { apply disclosed_ext. intro i. symmetry. apply RR. }
    unfold shown in Q. rewrite DE in Q. destruct (ver_smartcard v1); [|exact Q]. rewrite !(gok_comm GO1 _ (vf_nym f1)) in Q. exact (gadd_cancel_l GO1 _ _ _ Q).
  Qed.

  (** the disclosed bases against the values shown *)
  Lemma gdot_woven r : forall (bs : list g1) i (vs : list zr), count_in i (length bs) r <= length vs ->
    gdot bs (weave i (length bs) r vs (repeat z0 (count_out i (length bs) r))) = gdot (pick i bs r) vs.
  Proof.
    induction bs as [|b bs IH]; intros i vs Lc; [destruct vs; reflexivity|]. cbn [length] in *. rewrite count_in_S in Lc. rewrite count_out_S. cbn [weave pick]. rewrite mem_existsb.
    destruct (mem i r).
    - destruct vs as [|x vs]; [cbn in Lc; lia|]. cbn [gdot length] in *. rewrite IH by lia. reflexivity.
    - cbn [repeat Nat.add gdot]. rewrite IH by lia. gnorm KO GO1; ring.
  Qed.
  Lemma disclosed_same r (xs ys : list zr) : count_in 0 (n + 1) r <= length xs -> count_in 0 (n + 1) r <= length ys ->
    disclosed key r xs = disclosed key r ys -> gdot (pick 0 hs r) xs = gdot (pick 0 hs r) ys.
  Proof.
    intros Lx Ly E. unfold disclosed, bbs_base in E. cbn [issuer_key ip_key pg_h pg_h0] in E. rewrite !gdot_woven in E by (rewrite gens_length; assumption).
    apply (gadd_cancel_l GO1) in E. exact E.
  Qed.

  Lemma values_dot sigb msg1 msg2 attrs1 attrs2 v1 v2 f1 f2 rh1 rh2 eid1 eid2 sk1 sk2 meta1 meta2 c idx :
    ver_smartcard v2 = ver_smartcard v1 ->
    arVerify_first H c_sig ipk sigb msg1 attrs1 sk1 v1 = Ok f1 -> arVerify_first H c_sig ipk sigb msg2 attrs2 sk2 v2 = Ok f2 ->
    arVerify_second f1 c rh1 eid1 sk1 v1 meta1 = Ok tt -> arVerify_second f2 c rh2 eid2 sk2 v2 meta2 = Ok tt ->
    length (pf_resp (sp_vc2 (vf_sp f1))) = 2 + hidden_before (ver_smartcard v1) (vf_revealed f1) (n + 1) -> c <> z0 ->
    increasing idx -> (forall i, In i idx -> i < n + 1) -> (forall i, In i (vf_revealed f1) <-> In i idx) ->
    gdot (map (base_at HG pk n) idx) (map (@sm_fr C) (vf_ms f1)) = gdot (map (base_at HG pk n) idx) (map (@sm_fr C) (vf_ms f2)).
  Proof.
    intros SV F1 F2 S1 S2 L Nc I B RI. pose proof (values_same SV F1 F2 S1 S2 L Nc) as E.
    destruct (first_same F1 F2) as (Es & Esp & En).
    destruct (first_inv F1) as (_ & _ & _ & K1 & _ & Z1 & (p1 & P1 & _ & _ & _ & R1) & _). destruct (first_inv F2) as (_ & _ & _ & K2 & _ & Z2 & (p2 & P2 & _ & _ & _ & R2) & _).
    cbv zeta in *. rewrite SV in R2. rewrite <- Es in P2. rewrite P1 in P2. injection P2 as <-.
    assert (RR : forall i, In i (vf_revealed f1) <-> In i (vf_revealed f2)) by (intro i; rewrite R1, R2; reflexivity).
    apply (second_vc1 K1) in S1. apply (second_vc1 K2) in S2. 
    apply (signatureProofVerify_iff OK) in S1. apply (signatureProofVerify_iff OK) in S2. destruct S1 as (_ & _ & S1), S2 as (_ & _ & S2).
    assert (NE : pg_h key <> []) by (cbn [issuer_key ip_key pg_h]; intro Q; pose proof (gens_length HG pk (n + 1)) as X; rewrite Q in X; simpl in X; lia).
    apply (proj1 (vc2_iff OK BS (vf_nym f1) c (vf_ms f1) _ (sp_d (vf_sp f1)) Z1 NE)) in S1. apply (proj1 (vc2_iff OK BS (vf_nym f2) c (vf_ms f2) _ (sp_d (vf_sp f2)) Z2 NE)) in S2.
    destruct S1 as ((_ & C1) & _), S2 as ((_ & C2) & _). cbn [issuer_key ip_key pg_h] in C1, C2. rewrite gens_length in C1, C2.
    rewrite <- (@count_in_ext 0 (n + 1) _ _ RR) in C2.
    apply disclosed_same in E; [|rewrite map_length; exact C1|rewrite map_length; exact C2].
    assert (PK : pick 0 hs (vf_revealed f1) = map (base_at HG pk n) idx).
    { rewrite (@pick_ext _ hs _ _ 0 (fun j _ => RI j)). rewrite (@pick_increasing _ gzero hs 0 idx I).
      - apply map_ext. intro j. rewrite Nat.sub_0_r. reflexivity.
      - intros j Hj. rewrite gens_length. specialize (B j Hj). lia. }
    rewrite PK in E. exact E.
  Qed.

  (** ** Audit data given to the signer *)
  Lemma attrCommit_inv pok x k d (R : AttrRand C) (o : option (attributeCommitment C)) : k <= n ->
    getAttributeCommitment (issuer_key HG pk n) pok x (Z.of_nat k) true (Some d) R = Ok o ->
    exists cm, o = Some cm /\ audit_of cm x = d /\ opens (base_at HG pk n k) h0 (cm_comm cm) x (cm_r cm).
  Proof.
    intros L E. unfold getAttributeCommitment in E. cbn [negb issuer_key ip_key pg_h pg_h0] in E. rewrite (base_lookup HG BS pk L) in E. cbn [bind] in E.
    apply bind_ok in E. destruct E as [[nym r] [E1 E]]. apply bind_ok in E. destruct E as [i [E2 E]]. apply bind_ok in E. destruct E as [b [E3 E]].
    apply bind_ok in E. destruct E as [u [E4 E]]. injection E as <-.
    apply bind_ok in E1. destruct E1 as [a [A1 E1]]. apply bind_ok in E1. destruct E1 as [[] [A2 E1]]. apply guard_ok, (sok_eqb KO) in A2. subst a.
    apply bind_ok in E1. destruct E1 as [r' [A3 E1]]. apply bind_ok in E1. destruct E1 as [nym' [A4 E1]]. apply bind_ok in E1. destruct E1 as [m [A5 E1]].
    apply bind_ok in E1. destruct E1 as [[] [A6 E1]]. apply guard_ok, (gok_eqb GO1) in A6. injection E1 as <- <-. subst m.
    rewrite (build_ok OK) in A4 by discriminate. cbn [map fst snd gdot] in A4. injection A4 as A4.
    destruct d as [dn dr da]. cbn [au_attr au_rand au_nym] in *. destruct dn as [dn|]; [|discriminate]. destruct dr as [dr|]; [|discriminate]. destruct da as [da|]; [|discriminate].
    injection A1 as ->. injection A3 as ->. injection A5 as ->. eexists. split; [reflexivity|]. unfold audit_of. cbn [cm_comm cm_r]. split; [reflexivity|].
    unfold opens. rewrite <- A4. gnorm KO GO1; ring.
  Qed.

  Lemma sig_messages_attrs m : forall i attrs (sk : zr) ms j x, i > 0 -> to_sig_messages m i attrs 0 sk = Ok ms -> nth_error ms j = Some x ->
    exists ab, nth_error attrs j = Some ab /\ sm_fr x = zr_of_bytes C ab.
  Proof.
    clear. induction m as [|m IH]; intros i attrs sk ms j x P E N; cbn [to_sig_messages] in E.
    - injection E as <-. destruct j; discriminate.
    - replace (Z.of_nat i =? 0)%Z with false in E by lia. destruct attrs as [|a attrs]; [discriminate|]. apply bind_ok in E. destruct E as [ms' [E1 E]]. injection E as <-.
      destruct j as [|j]; cbn [nth_error] in N |- *; [injection N as <-; exists a; auto|]. apply (IH (S i) attrs sk ms' j x); [lia|exact E1|exact N].
  Qed.

  Lemma messages_attr cred (sk : zr) ms i x : ac_skpos cred = 0%Z -> toSignatureMessage cred sk = Ok ms -> znth ms (past_sk (Z.of_nat i) 0) = Ok x ->
    exists ab, nth_error (ac_attrs cred) i = Some ab /\ sm_fr x = zr_of_bytes C ab.
  Proof.
    clear. intros Z E X. unfold toSignatureMessage in E. rewrite Z, Nat.add_1_r in E. cbn [to_sig_messages Z.of_nat Z.eqb] in E.
    apply bind_ok in E. destruct E as [ms' [E1 E]]. injection E as <-.
    assert (Q : past_sk (Z.of_nat i) 0 = Z.of_nat (S i)) by (unfold past_sk; replace (0 <=? Z.of_nat i)%Z with true by lia; lia).
    rewrite Q in X. apply znth_ok in X. destruct X as [k [Ek X]]. apply Nat2Z.inj in Ek. subst k. cbn [nth_error] in X.
    refine (@sig_messages_attrs _ 1 _ sk ms' i x _ E1 X). lia.
  Qed.

  Lemma sign_meta c_cred c_cri credBytes cred sk Nym RNym attributes msg (rh eid : nat) criRaw st meta (R : ASigRand C) sigb md :
    dec c_cred credBytes = Some cred -> ac_skpos cred = 0%Z -> eid < n -> rh < n ->
    arSign H c_cred c_sig c_cri credBytes sk Nym RNym ipk attributes msg (Z.of_nat rh) (Z.of_nat eid) criRaw st meta R = Ok (sigb, md) ->
    exists s, enc c_sig s = Some sigb /\
      (has_eid st = true -> forall d, md_eid_audit meta = Some d -> exists ab cm, nth_error (ac_attrs cred) eid = Some ab /\ audit_of cm (zr_of_bytes C ab) = d /\
         opens (base_at HG pk n (S eid)) h0 (cm_comm cm) (zr_of_bytes C ab) (cm_r cm) /\ as_eid s = g1_bytes C (cm_comm cm) /\ option_map (@md_eid_data C) md = Some (Some d)) /\
      (has_rh st = true -> forall d, md_rh_audit meta = Some d -> exists ab cm, nth_error (ac_attrs cred) rh = Some ab /\ audit_of cm (zr_of_bytes C ab) = d /\
         opens (base_at HG pk n (S rh)) h0 (cm_comm cm) (zr_of_bytes C ab) (cm_r cm) /\ as_rh s = g1_bytes C (cm_comm cm) /\ option_map (@md_rh_data C) md = Some (Some d)).
  Proof.
    intros D Z Le Lr E. unfold arSign in E.
    assert (PE : past_sk (Z.of_nat eid) 0 = Z.of_nat (S eid)) by (clear; unfold past_sk; replace (0 <=? Z.of_nat eid)%Z with true by lia; lia).
    assert (PR : past_sk (Z.of_nat rh) 0 = Z.of_nat (S rh)) by (clear; unfold past_sk; replace (0 <=? Z.of_nat rh)%Z with true by lia; lia).
    apply bind_ok in E. destruct E as [[] [_ E]]. cbn [assert_ptr bind] in E. apply bind_ok in E. destruct E as [cri [_ E]]. apply bind_ok in E. destruct E as [[] [_ E]].
    rewrite D in E. cbn [opt_err bind] in E. apply bind_ok in E. destruct E as [[pok ms] [EP E]]. rewrite Z in E.
    assert (EM : toSignatureMessage cred sk = Ok ms).
    { unfold getPoKOfSignature in EP. apply bind_ok in EP. destruct EP as [sg [_ EP]]. apply bind_ok in EP. destruct EP as [ms' [EM EP]]. destruct (is_smartcard st).
      - apply bind_ok in EP. destruct EP as [[] [_ EP]]. apply bind_ok in EP. destruct EP as [[] [_ EP]]. apply bind_ok in EP. destruct EP as [b [_ EP]].
        apply bind_ok in EP. destruct EP as [q [_ EP]]. injection EP as _ <-. exact EM.
      - apply bind_ok in EP. destruct EP as [q [_ EP]]. injection EP as _ <-. exact EM. }
    apply bind_ok in E. destruct E as [cn [_ E]]. apply bind_ok in E. destruct E as [me [Eme E]]. apply bind_ok in E. destruct E as [eidc [Ee E]].
    apply bind_ok in E. destruct E as [mr [Emr E]]. apply bind_ok in E. destruct E as [rhc [Er E]].
    apply bind_ok in E. destruct E as [c [_ E]]. apply bind_ok in E. destruct E as [pf [_ E]]. apply bind_ok in E. destruct E as [np [_ E]].
    apply bind_ok in E. destruct E as [eidp [Oe E]]. apply bind_ok in E. destruct E as [rhp [Or E]]. apply bind_ok in E. destruct E as [sb [Es E]].
    apply bind_ok in E. destruct E as [m [Em E]]. injection E as <- <-.
    unfold packageProof in Es. apply bind_ok in Es. destruct Es as [pb [_ Es]]. apply bind_ok in Es. destruct Es as [spb [_ Es]]. apply bind_ok in Es. destruct Es as [npb [_ Es]].
    apply bind_ok in Es. destruct Es as [epb [_ Es]]. apply bind_ok in Es. destruct Es as [rpb [_ Es]]. apply opt_err_ok in Es.
    eexists. split; [exact Es|]. cbn [as_eid as_rh].
    destruct (messages_attr Z EM Eme) as (ae & Ae & Ve). destruct (messages_attr Z EM Emr) as (ar & Ar & Vr). rewrite PE in Ee. rewrite PR in Er. split.
    - intros He d Hd. assert (Q : eid_enabled st = true) by (destruct st; (reflexivity || discriminate)). rewrite Q, Hd in Ee.
      assert (L : S eid <= n) by lia. destruct (attrCommit_inv L Ee) as (cm & -> & A & O). rewrite Ve in A, O. exists ae, cm. split; [exact Ae|]. split; [exact A|]. split; [exact O|].
      cbn [opt_respond] in Oe. apply bind_ok in Oe. destruct Oe as [p [_ Oe]]. injection Oe as <-. cbn [fst]. split; [reflexivity|].
      rewrite Ve in Em. destruct st; try discriminate; cbn [deref bind] in Em; [| |].
      + injection Em as <-. cbn [option_map md_eid_data]. rewrite A. reflexivity.
      + apply bind_ok in Em. destruct Em as [y [_ Em]]. injection Em as <-. cbn [option_map md_eid_data]. rewrite A. reflexivity.
      + injection Em as <-. cbn [option_map md_eid_data]. rewrite A. reflexivity.
    - intros Hr d Hd. destruct st; try discriminate. cbn [rh_enabled] in Er. rewrite Hd in Er.
      assert (L : S rh <= n) by lia. destruct (attrCommit_inv L Er) as (cm & -> & A & O). rewrite Vr in A, O. exists ar, cm. split; [exact Ar|]. split; [exact A|]. split; [exact O|].
      cbn [opt_respond] in Or. apply bind_ok in Or. destruct Or as [p [_ Or]]. injection Or as <-. cbn [fst]. split; [reflexivity|].
      rewrite Vr in Em. apply bind_ok in Em. destruct Em as [x [_ Em]]. cbn [deref bind] in Em. injection Em as <-. cbn [option_map md_rh_data]. rewrite A. reflexivity.
  Qed.

  (** ** What the honest signature decodes to *)
  Lemma honest_sp A e s sk vals RNym attributes st R eid rh msg cri meta sigb msg' attrs' skIndex v f :
    length vals = n -> Forall2 (attr_agrees H) attributes vals -> (Z.of_nat (n + 1) <= 65535)%Z -> eid < n -> rh < n ->
    (has_eid st = true -> exists a, nth_error attributes eid = Some a /\ at_type a = HiddenAttr) ->
    (hides_rh st = true -> exists a, nth_error attributes rh = Some a /\ at_type a = HiddenAttr) ->
    (has_eid st = true -> NoDup (h0 :: hs)) -> (has_eid st = true -> h_d HG pk n s sk vals R <> base_at HG pk n (S eid)) ->
    (has_rh st = true -> h_d HG pk n s sk vals R <> base_at HG pk n (S rh)) ->
    (has_eid st = true -> audit_for h0 (base_at HG pk n (S eid)) (nth eid vals z0) (md_eid_audit meta)) ->
    (has_rh st = true -> audit_for h0 (base_at HG pk n (S rh)) (nth rh vals z0) (md_rh_audit meta)) ->
    dec c_sig sigb = Some (h_sig HG H pk n A e s sk vals RNym attributes st R eid rh (S eid) (S rh) msg cri meta) ->
    arVerify_first H c_sig ipk sigb msg' attrs' skIndex v = Ok f ->
    vf_sp f = h_proof HG pk n A e s sk vals RNym attributes st R (h_c HG H pk n A e s sk vals RNym attributes st R eid rh (S eid) (S rh) msg meta) /\
    (forall i, In i (vf_revealed f) <-> In i (revealedAttributesIndex attributes)).
  Proof.
    intros Lv Agr Bn Le Lr He Hr ND Nde Ndr Ae Ar D F. set (c := h_c _ _ _ _ _ _ _ _ _ _ _ _ _ _ _ _ _ _ _) in *.
    destruct (first_inv F) as (D' & _ & _ & _ & _ & _ & (pl & P1 & P2 & _ & _ & P3) & _). cbv zeta in *.
    pose proof (eq_trans (eq_sym D') D) as Q. injection Q as Q. rewrite Q in P1, P2. clear Q. cbn [h_sig as_main] in P1, P2. fold c in P1, P2.
    pose proof (@payload_ok C HG H BS pk n s sk vals attributes st R Lv Agr eid rh meta Bn Le Lr He Hr ND Nde Ndr Ae Ar) as PO.
    pose proof (@proof_bytes C OK HG BS pk n A e s sk vals RNym attributes st R Lv eid rh meta Bn Le Lr He Hr ND Nde Ndr Ae Ar c) as PB.
    pose proof (@size1 C HG BS pk n A e s sk vals RNym attributes st R Lv eid rh meta Bn Le Lr He Hr ND Nde Ndr Ae Ar c) as B1.
    pose proof (@size2 C HG BS pk n A e s sk vals RNym attributes st R Lv eid rh meta Bn Le Lr He Hr ND Nde Ndr Ae Ar c) as B2.
    set (sp := h_proof _ _ _ _ _ _ _ _ _ _ _ _ _) in *. set (pb := okb (payloadBytes _)) in *. set (sb := okb (signatureProofBytes sp)) in *.
    destruct (@payload_rt {| pp_count := n + 1; pp_revealed := h_rv attributes |} Bn) as (pb' & EP' & LP & P).
    { cbn [pp_revealed pp_count]. intros i Hi. pose proof (rv_lt BS Lv Agr Hi) as Br. clear - Br. pose proof (Nat.mod_upper_bound (n + 1) 8 ltac:(lia)). pose proof (Nat.div_mod (n + 1) 8 ltac:(lia)). lia. }
    rewrite PO in EP'. injection EP' as <-. destruct (P sb) as (l & El & _ & Ml).
    pose proof (eq_trans (eq_sym El) P1) as Q. injection Q as <-. cbn [pp_count] in P2, LP. rewrite <- LP in P2.
    assert (SK : skipn (length pb) (pb ++ sb) = sb) by (clear; rewrite skipn_app, skipn_all, Nat.sub_diag; reflexivity). rewrite SK in P2.
    destruct (@signatureProof_rt C OK (proj1 BS) sp B1 B2) as (sb' & Es' & Ps). rewrite PB in Es'. injection Es' as <-.
    pose proof (eq_trans (eq_sym P2) Ps) as Q. injection Q as Q. split; [exact Q|].
    intro i. rewrite P3. cbn [pp_revealed] in *. rewrite Ml. unfold h_rv. split; [tauto|]. intro I. split; [exact I|]. intros _ ->. exact (rv_0 BS Lv I).
  Qed.

  Lemma honest_shape A e s sk vals RNym attributes st R c :
    let sp := h_proof HG pk n A e s sk vals RNym attributes st R c in
    length (pf_resp (sp_vc1 sp)) = 2 /\ (A ⊗ zmul (pr_r1 (rn_pok R)) e <> h0 ⊗ pr_r2 (rn_pok R) -> sp_abar sp <> sp_d sp).
  Proof.
    cbv zeta. split; [reflexivity|]. cbn [h_proof sp_abar sp_d]. intros N E. apply N. unfold h_Abar, h_d, h_A', h_r1, h_r2 in E.
    set (b := h_b _ _ _ _ _ _ ⊗ _) in E. revert E. generalize b. clear b. intros b E.
    assert (G : forall x y z : g1, x ⊖ y = x ⊖ z -> y = z).
    { intros x y z Q. apply (gsub_zero KO GO1). transitivity ((x ⊖ z) ⊖ (x ⊖ y)); [gnorm KO GO1; ring|]. rewrite Q. gnorm KO GO1; ring. }
    apply G in E. rewrite <- E. gnorm KO GO1; ring.
  Qed.
  Lemma honest_resp2 A e s sk vals RNym attributes st R c : length vals = n ->
    length (pf_resp (sp_vc2 (h_proof HG pk n A e s sk vals RNym attributes st R c))) = 2 + hidden_before (is_smartcard st) (revealedAttributesIndex attributes) (n + 1).
  Proof.
    intro Lv. cbn [h_proof sp_vc2 answered pf_resp]. 
    pose proof (@len2 C HG BS pk n s sk vals RNym attributes st R Lv) as L2. pose proof (@lenb2 C HG pk n s sk vals attributes st R) as Lb.
    rewrite resp_length by (rewrite L2, Lb; apply le_n). rewrite Lb. unfold h_bases2. cbn [length]. rewrite unpick_length, gens_length, hidden_before_eq. reflexivity.
  Qed.
  Lemma checked_compat st v s : checked_type v s = st -> aries_compatible st v = true \/ (st = Standard /\ v = OtherVer).
  Proof.
    unfold checked_type. destruct v; cbn [ar_verifyRh ar_verifyEid]; intros <-; try (left; reflexivity); try (right; split; reflexivity).
    left. destruct (nonempty (as_rh s)), (nonempty (as_eid s)); reflexivity.
  Qed.
End Bind.
