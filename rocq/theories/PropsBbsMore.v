(** * Further properties of the BBS+ library: what a proof stands for (C71), refusals of Sign and
    DeriveProof (C25, C26). *)
From Verif Require Import AriesVerify AriesSound.
From Verif Require Import Base Curve Algebra Spec Bbs BbsSpec BbsFacts BbsProof BbsComplete BbsBind Toy ToyBbs PropsBbs.
From Coq Require Import Sorting.Permutation.
Unset Strict Implicit.

(** ** Refusals *)
(** Nothing is signed when there are no messages, whatever the key. *)
Theorem C25_empty : forall C (HG : bytes -> G1 C) (H : hasher C) (skb : bytes) (e s : Zr C) (sg : bytes), bbsSign HG H [] skb e s <> Ok sg.
Proof. intros C HG H skb e s sg E. unfold bbsSign in E. apply bind_ok in E. destruct E as [sk [_ E]]. discriminate. Qed.

(** DeriveProof succeeds only for a signature that Verify accepts for the same messages and key, only
    if some position is disclosed, and only if the number of messages fits into two bytes. *)
Theorem C26_derive_checks : forall C (HG : bytes -> G1 C) (H : hasher C) (ms : list bytes) (sigb nonce pkb : bytes) (zs : list Z) (R : PoKRand C) (proof : bytes),
  deriveProof HG H ms sigb nonce pkb zs R = Ok proof -> bbsVerify HG H ms sigb pkb = Ok tt /\ zs <> [] /\ (Z.of_nat (length ms) <= 65535)%Z.
Proof.
  intros C HG H ms sigb nonce pkb zs R proof E. split; [exact (derive_checks E)|]. split; [intros ->; discriminate|exact (derive_count E)].
Qed.

(** ** C71 *)
(** A holder's proof: DeriveProof run on a valid signature (A, e, s) on the messages [ms], disclosing the
    positions [idx], with randomness [R] whose first draw is not 0. *)
Definition derived (C : Curve) (HG : bytes -> G1 C) (H : hasher C) (ms : list bytes) (A : G1 C) (e s : Zr C) (pk : G2 C) (idx : list nat)
    (nonce : bytes) (R : PoKRand C) (proof : bytes) : Prop :=
  (Z.of_nat (length ms) <= 65535)%Z /\
  bbs_signature pk (gen0 HG pk (length ms)) (gens HG pk (length ms)) A e s (map H ms) /\
  pr_r1 R <> z0 /\ idx <> [] /\ increasing idx /\ (forall i, In i idx -> i < length ms) /\
  deriveProof HG H ms (g1_comp C A ++ zr_bytes C e ++ zr_bytes C s) nonce (g2_comp C pk) (map Z.of_nat idx) R = Ok proof.

Lemma derived_shape : forall C (OK : CurveOk C) (HG : bytes -> G1 C) (H : hasher C) ms A e s pk idx nonce R proof,
  bls_sizes C -> derived HG H ms A e s pk idx nonce R proof ->
  exists sp, verifyProof HG H (map (fun i => nth i ms []) idx) proof nonce (g2_comp C pk) = Ok tt /\
    parsePoKPayload proof = Ok {| pp_count := length ms; pp_revealed := idx |} /\ parseSignatureProof C (skipn (lenInBytes (length ms)) proof) = Ok sp /\
    sp_aprime sp = A ⊗ pr_r1 R /\ (A ⊗ zmul (pr_r1 R) e <> gen0 HG pk (length ms) ⊗ pr_r2 R -> sp_abar sp <> sp_d sp) /\
    length (pf_resp (sp_vc1 sp)) = 2 /\ length (pf_resp (sp_vc2 sp)) = 2 + (length ms - length idx).
Proof.
  intros C OK HG H ms A e s pk idx nonce R proof BS (L & V & NZ & NE & I & B & D).
  pose proof (messagesToFr_length H ms 0) as LM.
  destruct (@derive_shape C OK HG BS H (messagesToFr_from H 0 ms) (messagesToFr H (map (fun i => nth i ms []) idx)) A e s pk idx (map Z.of_nat idx) nonce R) as (p & sp & D' & V' & P1 & P2 & S).
  - apply messagesToFr_numbered.
  - rewrite LM. exact L.
  - rewrite LM, messagesToFr_fr. exact V.
  - exact NZ.
  - exact NE.
  - exact I.
  - intros i Hi. rewrite LM. exact (B i Hi).
  - apply Permutation_refl.
  - unfold messagesToFr. rewrite !messagesToFr_fr, map_map. apply map_ext_in. intros i Hi.
    rewrite (nth_indep _ z0 (H [])) by (rewrite map_length; exact (B i Hi)). rewrite map_nth. reflexivity.
  - change (deriveProof HG H ms (g1_comp C A ++ zr_bytes C e ++ zr_bytes C s) nonce (g2_comp C pk) (map Z.of_nat idx) R = Ok p) in D'.
    rewrite D in D'. injection D' as <-. cbv zeta in S. rewrite LM in *. destruct S as (S1 & S2 & S3 & S4 & S5).
    exists sp. split; [exact V'|]. split; [exact P1|]. split; [exact P2|]. split; [exact S1|]. split; [|split; [exact S4|exact S5]].
    intros N E. apply N. rewrite S2, S3 in E. revert E. generalize (bbs_base (gen0 HG pk (length ms)) (gens HG pk (length ms)) s (map (@sm_fr C) (messagesToFr_from H 0 ms)) ⊗ pr_r1 R).
    intros x E. exact (shape_helper OK E).
Qed.

(** The nonce.  A holder's proof made for one nonce and accepted for another (for whatever messages)
    exhibits a collision of the hash function.  The draws must not make A^(r1 e) equal to h0^r2 (for random
    draws this has the probability of guessing a scalar). *)
Theorem C71_nonce : forall C (OK : CurveOk C) (HG : bytes -> G1 C) (H : hasher C) ms A e s pk idx nonce R proof,
  bls_sizes C -> derived HG H ms A e s pk idx nonce R proof ->
  A ⊗ zmul (pr_r1 R) e <> gen0 HG pk (length ms) ⊗ pr_r2 R ->
  forall ms' nonce', verifyProof HG H ms' proof nonce' (g2_comp C pk) = Ok tt ->
    nonce' = nonce \/ collision H nonce nonce' \/
    exists d d', hashed_string HG H proof nonce (g2_comp C pk) d /\ hashed_string HG H proof nonce' (g2_comp C pk) d' /\ collision H d d'.
Proof.
  intros C OK HG H ms A e s pk idx nonce R proof BS D NA ms' nonce' V.
  destruct (derived_shape OK BS D) as (sp & V0 & P & S & _ & N & L & _).
  destruct (two_nonces OK BS V0 V P (unmarshalPK_enc OK pk) S L (N NA)) as [E|X]; [left; symmetry; exact E|right; exact X].
Qed.

(** The public key: accepted under the holder's issuer only. *)
Theorem C71_key : forall C (OK : CurveOk C) (HG : bytes -> G1 C) (H : hasher C) ms A e s pk idx nonce R proof,
  bls_sizes C -> derived HG H ms A e s pk idx nonce R proof -> A <> gzero ->
  forall ms' nonce' pkb', verifyProof HG H ms' proof nonce' pkb' = Ok tt -> unmarshalPublicKey C pkb' = Ok pk.
Proof.
  intros C OK HG H ms A e s pk idx nonce R proof BS D NA ms' nonce' pkb' V.
  destruct (derived_shape OK BS D) as (sp & V0 & P & S & A' & _). pose proof V as V'. apply (verifyProofFr_inv OK BS) in V'. destruct V' as (_ & _ & pk' & _ & U & _).
  rewrite (two_keys OK BS V0 V P (unmarshalPK_enc OK pk) U S); [exact U|].
  rewrite A'. intro Z. apply NA. apply (gmul_inv_zero (ok_zr OK) (ok_g1 OK)) with (k := pr_r1 R); [exact Z|]. apply D.
Qed.

(** The messages: if a holder's proof is accepted for messages [ms'] in place of the disclosed ones, the
    two lists have the same product of powers of the disclosed bases - so if they differ, a non-trivial
    relation between the bases (or a collision of the hash function) is known - unless the challenge is 0. *)
Theorem C71_messages : forall C (OK : CurveOk C) (HG : bytes -> G1 C) (H : hasher C) ms A e s pk idx nonce R proof,
  bls_sizes C -> derived HG H ms A e s pk idx nonce R proof ->
  forall ms', verifyProof HG H ms' proof nonce (g2_comp C pk) = Ok tt ->
    (let bases := map (fun i => nth i (gens HG pk (length ms)) gzero) idx in
     gdot bases (map (fun i => H (nth i ms [])) idx) = gdot bases (map H ms')) \/
    (exists d, hashed_string HG H proof nonce (g2_comp C pk) d /\ H d = z0).
Proof.
  intros C OK HG H ms A e s pk idx nonce R proof BS D ms' V.
  destruct (derived_shape OK BS D) as (sp & V0 & P & S & _ & _ & _ & L2). destruct D as (_ & _ & _ & _ & I & B & _).
  destruct (accepted_inv OK BS V0 P (unmarshalPK_enc OK pk) S) as (d & Hd & _ & E). destruct (accepted_inv OK BS V P (unmarshalPK_enc OK pk) S) as (d' & Hd' & _ & E').
  cbv zeta in *. cbn [pp_count pp_revealed] in *. rewrite (hashed_det Hd' Hd) in E'.
  destruct (zeqb (H d) z0) eqn:Z0; [right; exists d; split; [exact Hd|apply (sok_eqb (ok_zr OK)); exact Z0]|left].
  assert (NZ : H d <> z0) by (intro Q; rewrite Q in Z0; rewrite (proj2 (sok_eqb (ok_zr OK) z0 z0) eq_refl) in Z0; discriminate).
  pose proof (gens_length HG pk (length ms)) as GL.
  set (key := {| pg_h0 := gen0 HG pk (length ms); pg_h := gens HG pk (length ms); pg_w := pk; pg_count := length ms |}) in *.
  assert (G : gdot (map (fun i => nth i (pg_h key) gzero) idx) (map (@sm_fr C) (messagesToFr H (map (fun i => nth i ms []) idx)))
    = gdot (map (fun i => nth i (pg_h key) gzero) idx) (map (@sm_fr C) (messagesToFr H ms'))).
  { apply (@two_messages C OK (H d) key idx sp); [exact I| |exact E|exact E'| |exact NZ]; cbn [pg_h key]; rewrite GL; [exact B|exact L2]. }
  cbn [pg_h key] in G. unfold messagesToFr in G. rewrite !messagesToFr_fr, map_map in G. exact G.
Qed.

(** Full claim: the same for every byte string VerifyProof accepts.  Proved: for those that carry exactly
    one response per base of the first proof and whose points Abar and d differ (nonce), whose point A' is not
    neutral (key).  Missing: other byte strings; the forgeries of C27_refuted are accepted for every nonce,
    key and list of messages. *)
Theorem C71_any_partial : forall C (OK : CurveOk C) (HG : bytes -> G1 C) (H : hasher C) (proof : bytes) ms1 ms2 nonce1 nonce2 pkb1 pkb2 pl sp pk1 pk2,
  bls_sizes C -> verifyProof HG H ms1 proof nonce1 pkb1 = Ok tt -> verifyProof HG H ms2 proof nonce2 pkb2 = Ok tt ->
  parsePoKPayload proof = Ok pl -> parseSignatureProof C (skipn (lenInBytes (pp_count pl)) proof) = Ok sp ->
  unmarshalPublicKey C pkb1 = Ok pk1 -> unmarshalPublicKey C pkb2 = Ok pk2 ->
  (sp_aprime sp <> gzero -> pk1 = pk2) /\
  (pkb1 = pkb2 -> length (pf_resp (sp_vc1 sp)) = 2 -> sp_abar sp <> sp_d sp ->
   nonce1 = nonce2 \/ collision H nonce1 nonce2 \/
   exists d1 d2, hashed_string HG H proof nonce1 pkb1 d1 /\ hashed_string HG H proof nonce2 pkb2 d2 /\ collision H d1 d2).
Proof.
  intros C OK HG H proof ms1 ms2 nonce1 nonce2 pkb1 pkb2 pl sp pk1 pk2 BS V1 V2 P S U1 U2. split.
  - intro N. exact (two_keys OK BS V1 V2 P U1 U2 S N).
  - intros <- L N. exact (two_nonces OK BS V1 V2 P U1 S L N).
Qed.

Theorem C71_refuted : forall C (OK : CurveOk C) (HG : bytes -> G1 C) (H : hasher C), bls_sizes C ->
  exists proof, forall (pk : G2 C) (m nonce : bytes), verifyProof HG H [m] proof nonce (g2_comp C pk) = Ok tt.
Proof.
  intros C OK HG H BS. destruct (@C27_refuted C OK HG BS 3 [1]) as (proof & F); [lia|repeat constructor|intros i [<-|[]]; lia|].
  exists proof. intros pk m nonce. apply F. apply le_n.
Qed.

(** The holder of ToyBbs.v. *)
Definition xb_dp : bytes :=
  match deriveProof hg32 h32 xb_ms (g1_comp toy32 xb_A ++ zr_bytes toy32 (f2 : Zr toy32) ++ zr_bytes toy32 (f9 : Zr toy32)) xb_nonce (g2_comp toy32 xb_pk) [0; 2]%Z xb_R with
  | Ok b => b | _ => [] end.
Example C71_example :
  derived hg32 h32 xb_ms xb_A (f2 : Zr toy32) (f9 : Zr toy32) xb_pk [0; 2] xb_nonce xb_R xb_dp /\ xb_A <> gzero /\
  xb_A ⊗ zmul (pr_r1 xb_R) (f2 : Zr toy32) <> gen0 hg32 xb_pk 3 ⊗ pr_r2 xb_R /\
  is_ok (verifyProof hg32 h32 [str "alice"; str "carol"] xb_dp xb_nonce (g2_comp toy32 xb_pk)) = true /\
  is_ok (verifyProof hg32 h32 [str "alice"; str "carol"] xb_dp (str "other") (g2_comp toy32 xb_pk)) = false /\
  is_ok (verifyProof hg32 h32 [str "alice"; str "carol"] xb_dp xb_nonce (g2_comp toy32 (xb_pk ⊕ xb_pk))) = false /\
  is_ok (verifyProof hg32 h32 [str "alice"; str "eve"] xb_dp xb_nonce (g2_comp toy32 xb_pk)) = false.
Proof.
  split; [|split; [vm_compute; discriminate|split; [vm_compute; discriminate|]]].
  - split; [vm_compute; discriminate|]. split; [exact xb_sig|]. split; [discriminate|]. split; [discriminate|].
    split; [repeat constructor|]. split; [intros i [<-|[<-|[]]]; vm_compute; lia|]. vm_compute. reflexivity.
  - split; [vm_compute; reflexivity|]. split; [vm_compute; reflexivity|]. split; vm_compute; reflexivity.
Qed.

Print Assumptions C25_empty.
Print Assumptions C26_derive_checks.
Print Assumptions C71_nonce.
Print Assumptions C71_key.
Print Assumptions C71_messages.
Print Assumptions C71_any_partial.
Print Assumptions C71_refuted.
