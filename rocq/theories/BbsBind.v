(** One selective disclosure proof accepted twice. *)
From Verif Require Import AriesVerify AriesSound.
From Verif Require Import Base Curve Algebra Spec Bbs BbsSpec BbsFacts BbsProof BbsComplete.
From Coq Require Import Field Ring Sorting.Permutation.
Unset Strict Implicit.

(** The string whose hash is the challenge when VerifyProof is run on the bytes [proof]. *)
Definition hashed_string (C : Curve) (HG : bytes -> G1 C) (H : hasher C) (proof nonce pkb d : bytes) : Prop :=
  exists pl sp pk, parsePoKPayload proof = Ok pl /\ unmarshalPublicKey C pkb = Ok pk /\
    parseSignatureProof C (skipn (lenInBytes (pp_count pl)) proof) = Ok sp /\
    d = g1_bytes C (sp_abar sp) ++ g1_bytes C (sp_aprime sp) ++ g1_bytes C (gen0 HG pk (pp_count pl))
        ++ g1_bytes C (pf_comm (sp_vc1 sp)) ++ g1_bytes C (sp_d sp) ++ g1_bytes C (gen0 HG pk (pp_count pl))
        ++ concat (map (g1_bytes C) (hidden_bases 0 (gens HG pk (pp_count pl)) (pp_revealed pl)))
        ++ g1_bytes C (pf_comm (sp_vc2 sp)) ++ zr_bytes C (H nonce).

Section BbsBind.
  Context {C : Curve} (OK : CurveOk C).
  Variable HG : bytes -> G1 C.
  Variable H : hasher C.
  Let KO := ok_zr OK.
  Let GO1 := ok_g1 OK.
  Add Field Kf_bb : (sok_field KO).
  Notation zr := (zcar (Zr C)).
  Notation g1 := (gcar (G1 C)).
  Variable BS : bls_sizes C.

  Lemma accepted_inv ms proof nonce pkb pl pk sp : verifyProof HG H ms proof nonce pkb = Ok tt ->
    parsePoKPayload proof = Ok pl -> unmarshalPublicKey C pkb = Ok pk -> parseSignatureProof C (skipn (lenInBytes (pp_count pl)) proof) = Ok sp ->
    let key := {| pg_h0 := gen0 HG pk (pp_count pl); pg_h := gens HG pk (pp_count pl); pg_w := pk; pg_count := pp_count pl |} in
    exists d, hashed_string HG H proof nonce pkb d /\ (exists x, d = x ++ zr_bytes C (H nonce)) /\
      signatureProofVerify (@defaultVC2Verify C) sp (H d) key (fold_left madd (pp_revealed pl) []) (messagesToFr H ms) = Ok tt.
  Proof.
    intros V P U S. destruct (verifyProofFr_inv OK BS V) as (pl' & sp' & pk' & P' & U' & S' & _ & _ & E).
    rewrite P in P'. injection P' as <-. rewrite U in U'. injection U' as <-. rewrite S in S'. injection S' as <-. cbv zeta in *. cbn [pg_h0 pg_h] in E.
    eexists. split; [exists pl, sp, pk; split; [exact P|split; [exact U|split; [exact S|reflexivity]]]|]. split; [|exact E].
    eexists. rewrite !app_assoc. reflexivity.
  Qed.

  Lemma vc1_challenge_any (h0 : g1) (sp : PoKOfSignatureProof C) c1 c2 : length (pf_resp (sp_vc1 sp)) = 2 -> sp_abar sp <> sp_d sp ->
    gdot [sp_aprime sp; h0; sp_abar sp ⊖ sp_d sp] (pf_resp (sp_vc1 sp) ++ [c1]) = pf_comm (sp_vc1 sp) ->
    gdot [sp_aprime sp; h0; sp_abar sp ⊖ sp_d sp] (pf_resp (sp_vc1 sp) ++ [c2]) = pf_comm (sp_vc1 sp) -> c1 = c2.
  Proof.
    intros L N E1 E2. destruct (pf_resp (sp_vc1 sp)) as [|a [|b [|]]]; try discriminate. cbn [app gdot] in E1, E2.
    rewrite <- E2 in E1. apply (gadd_cancel_l GO1) in E1. apply (gadd_cancel_l GO1) in E1.
    apply (gmul_faithful KO GO1) with (a := sp_abar sp ⊖ sp_d sp).
    - intro Z. apply N. apply (gsub_zero KO GO1). exact Z.
    - rewrite !(gadd_zero_r GO1) in E1. exact E1.
  Qed.

  (** two nonces *)
  Lemma two_nonces ms1 ms2 proof nonce1 nonce2 pkb pl pk sp :
    verifyProof HG H ms1 proof nonce1 pkb = Ok tt -> verifyProof HG H ms2 proof nonce2 pkb = Ok tt ->
    parsePoKPayload proof = Ok pl -> unmarshalPublicKey C pkb = Ok pk -> parseSignatureProof C (skipn (lenInBytes (pp_count pl)) proof) = Ok sp ->
    length (pf_resp (sp_vc1 sp)) = 2 -> sp_abar sp <> sp_d sp ->
    nonce1 = nonce2 \/ collision H nonce1 nonce2 \/
    exists d1 d2, hashed_string HG H proof nonce1 pkb d1 /\ hashed_string HG H proof nonce2 pkb d2 /\ collision H d1 d2.
  Proof.
    intros V1 V2 P U S L N. destruct (accepted_inv V1 P U S) as (d1 & Hd1 & (x1 & X1) & E1). destruct (accepted_inv V2 P U S) as (d2 & Hd2 & (x2 & X2) & E2). cbv zeta in *.
    apply (signatureProofVerify_iff OK) in E1. apply (signatureProofVerify_iff OK) in E2. destruct E1 as (_ & (_ & E1) & _), E2 as (_ & (_ & E2) & _).
    pose proof (vc1_challenge_any L N E1 E2) as EC.
    destruct (bytes_eqb_spec nonce1 nonce2) as [E|NN]; [left; exact E|right].
    destruct (bytes_eqb_spec d1 d2) as [E|ND]; [left|right; exists d1, d2; split; [exact Hd1|split; [exact Hd2|split; assumption]]].
    split; [exact NN|]. rewrite X1, X2 in E. apply (f_equal (@rev byte)) in E. rewrite !rev_app_distr in E.
    apply (f_equal (firstn (scalar_size C))) in E. rewrite !firstn_app, !rev_length, !(ok_zr_len OK), Nat.sub_diag, !firstn_O, !app_nil_r in E.
    rewrite !firstn_all2 in E by (rewrite rev_length, (ok_zr_len OK); apply le_n). apply (f_equal (@rev byte)) in E. rewrite !rev_involutive in E.
    exact (zr_bytes_inj OK _ _ E).
  Qed.

  (** two public keys *)
  Lemma two_keys ms1 ms2 proof nonce1 nonce2 pkb1 pkb2 pl pk1 pk2 sp :
    verifyProof HG H ms1 proof nonce1 pkb1 = Ok tt -> verifyProof HG H ms2 proof nonce2 pkb2 = Ok tt ->
    parsePoKPayload proof = Ok pl -> unmarshalPublicKey C pkb1 = Ok pk1 -> unmarshalPublicKey C pkb2 = Ok pk2 ->
    parseSignatureProof C (skipn (lenInBytes (pp_count pl)) proof) = Ok sp -> sp_aprime sp <> gzero -> pk1 = pk2.
  Proof.
    intros V1 V2 P U1 U2 S N. destruct (accepted_inv V1 P U1 S) as (d1 & _ & _ & E1). destruct (accepted_inv V2 P U2 S) as (d2 & _ & _ & E2). cbv zeta in *.
    apply (signatureProofVerify_iff OK) in E1. apply (signatureProofVerify_iff OK) in E2. destruct E1 as (E1 & _), E2 as (E2 & _). cbn [pg_w] in E1, E2.
    exact (@pair_inj_l C OK _ _ _ N (eq_trans E1 (eq_sym E2))).
  Qed.

  Lemma hashed_det proof nonce pkb d1 d2 : hashed_string HG H proof nonce pkb d1 -> hashed_string HG H proof nonce pkb d2 -> d1 = d2.
  Proof.
    intros (pl & sp & pk & P & U & S & ->) (pl' & sp' & pk' & P' & U' & S' & ->).
    rewrite P in P'. injection P' as <-. rewrite U in U'. injection U' as <-. rewrite S in S'. injection S' as <-. reflexivity.
  Qed.

  Lemma gdot_picked r : forall (bs : list g1) i (vs : list zr), count_in i (length bs) r <= length vs ->
    gdot bs (weave i (length bs) r vs (repeat z0 (count_out i (length bs) r))) = gdot (pick i bs r) vs.
  Proof.
    induction bs as [|b bs IH]; intros i vs Lc; [destruct vs; reflexivity|]. cbn [length] in *. rewrite count_in_S in Lc. rewrite count_out_S. cbn [weave pick]. rewrite mem_existsb.
    destruct (mem i r).
    - destruct vs as [|x vs]; [cbn in Lc; lia|]. cbn [gdot length] in *. rewrite IH by lia. reflexivity.
    - cbn [repeat Nat.add gdot]. rewrite IH by lia. gnorm KO GO1; ring.
  Qed.

  Lemma cancel_scaled (x y : g1) c : c <> z0 -> gopp x ⊗ c = gopp y ⊗ c -> x = y.
  Proof.
    intros Nc Exy. apply (gsub_zero KO GO1). apply (gmul_inv_zero KO GO1) with (k := c); [|exact Nc].
    transitivity ((gopp y ⊗ c) ⊖ (gopp x ⊗ c)); [gnorm KO GO1; ring|]. rewrite Exy. gnorm KO GO1; ring.
  Qed.

  (** two lists of messages, the same challenge *)
  Lemma two_messages c (key : PublicKeyWithGenerators C) idx (sp : PoKOfSignatureProof C) (ms1 ms2 : list (SignatureMessage C)) :
    increasing idx -> (forall i, In i idx -> i < length (pg_h key)) ->
    signatureProofVerify (@defaultVC2Verify C) sp c key (fold_left madd idx []) ms1 = Ok tt ->
    signatureProofVerify (@defaultVC2Verify C) sp c key (fold_left madd idx []) ms2 = Ok tt ->
    length (pf_resp (sp_vc2 sp)) = 2 + (length (pg_h key) - length idx) -> c <> z0 ->
    gdot (map (fun i => nth i (pg_h key) gzero) idx) (map (@sm_fr C) ms1) = gdot (map (fun i => nth i (pg_h key) gzero) idx) (map (@sm_fr C) ms2).
  Proof.
    intros I B S1 S2 L Nc. set (r := fold_left madd idx []) in *.
    assert (Mr : forall i, In i r <-> In i idx) by (intro i; unfold r; rewrite in_fold_madd; simpl; tauto).
    apply (signatureProofVerify_iff OK) in S1. apply (signatureProofVerify_iff OK) in S2. destruct S1 as (_ & _ & S1), S2 as (_ & _ & S2).
    apply (defaultVC2Verify_iff OK) in S1. apply (defaultVC2Verify_iff OK) in S2. destruct S1 as ((_ & C1) & _ & S1), S2 as ((_ & C2) & _ & S2).
    assert (CI : count_in 0 (length (pg_h key)) r = length idx).
    { rewrite (count_in_ext 0 _ Mr). apply (@count_in_increasing 0 _ idx I). intros j Hj. specialize (B j Hj). lia. }
    assert (Lb : length (pf_resp (sp_vc2 sp)) = length (vc2_bases key r (sp_d sp))).
    { rewrite L. unfold vc2_bases. cbn [length]. rewrite hidden_bases_length. pose proof (count_in_out 0 (length (pg_h key)) r). lia. }
    rewrite (contribution_exact OK) in S1 by exact Lb. rewrite (contribution_exact OK) in S2 by exact Lb. rewrite <- S2 in S1. apply (gadd_cancel_l GO1) in S1.
    apply (cancel_scaled Nc) in S1. unfold disclosed, bbs_base in S1.
    rewrite !gdot_picked in S1 by (rewrite map_length; assumption). apply (gadd_cancel_l GO1) in S1.
    assert (PK : pick 0 (pg_h key) r = map (fun i => nth i (pg_h key) gzero) idx).
    { rewrite (@pick_ext _ (pg_h key) r idx) by (intros j _; apply Mr). rewrite (@pick_increasing _ gzero (pg_h key) 0 idx I).
      - apply map_ext. intro j. rewrite Nat.sub_0_r. reflexivity.
      - intros j Hj. specialize (B j Hj). lia. }
    rewrite PK in S1. exact S1.
  Qed.

  Lemma shape_helper (A h x : g1) r1 r2 e : x ⊖ ((A ⊗ r1) ⊗ e) = x ⊖ (h ⊗ r2) -> A ⊗ zmul r1 e = h ⊗ r2.
  Proof.
    assert (G : forall x y z : g1, x ⊖ y = x ⊖ z -> y = z).
    { clear x. intros x y z Q. apply (gsub_zero KO GO1). transitivity ((x ⊖ z) ⊖ (x ⊖ y)); [gnorm KO GO1; ring|]. rewrite Q. gnorm KO GO1; ring. }
    intro E. apply G in E. rewrite <- E. gnorm KO GO1; ring.
  Qed.

  (** DeriveProof looks at the signature first. *)
  Lemma derive_checks ms sigb nonce pkb zs (R : PoKRand C) proof : deriveProof HG H ms sigb nonce pkb zs R = Ok proof -> bbsVerify HG H ms sigb pkb = Ok tt.
  Proof.
    unfold deriveProof, deriveProofZr. intro E. apply bind_ok in E. destruct E as [u [_ E]]. apply bind_ok in E. destruct E as [pk [Ek E]].
    apply bind_ok in E. destruct E as [key [Eg E]]. apply bind_ok in E. destruct E as [sg [Es E]]. apply bind_ok in E. destruct E as [pok [Ep _]].
    unfold newPoKOfSignature in Ep. apply bind_ok in Ep. destruct Ep as [b [Eb Ep]]. unfold pokOfSignatureB in Ep. apply bind_ok in Ep. destruct Ep as [[] [Ev _]].
    unfold messagesToFr in Eg. rewrite messagesToFr_length in Eg.
    unfold bbsVerify. rewrite Es. cbn [bind]. rewrite Ek. cbn [bind]. rewrite Eg. cbn [bind]. unfold signatureVerify. rewrite Eb. cbn [bind]. exact Ev.
  Qed.
  Lemma derive_count ms sigb nonce pkb zs (R : PoKRand C) proof : deriveProof HG H ms sigb nonce pkb zs R = Ok proof -> (Z.of_nat (length ms) <= 65535)%Z.
  Proof.
    unfold deriveProof, deriveProofZr. intro E. apply bind_ok in E. destruct E as [u [_ E]]. apply bind_ok in E. destruct E as [pk [_ E]].
    apply bind_ok in E. destruct E as [key [_ E]]. apply bind_ok in E. destruct E as [sg [_ E]]. apply bind_ok in E. destruct E as [pok [_ E]].
    apply bind_ok in E. destruct E as [pf [_ E]]. apply bind_ok in E. destruct E as [pb [E _]]. unfold payloadBytes in E.
    apply bind_ok in E. destruct E as [[] [E _]]. apply guard_ok in E. cbn [pp_count] in E. unfold messagesToFr in E. rewrite messagesToFr_length in E. lia.
  Qed.
End BbsBind.
