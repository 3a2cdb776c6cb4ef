(** * Malformed input and panics in the BBS+ library (C84) *)
From Verif Require Import Base Curve Algebra Bbs BbsSpec BbsFacts BbsProof BbsComplete BbsPanic Toy ToyBbs PropsBbs PropsBbsMore.
From Coq Require Import Sorting.Sorted Sorting.Permutation.
Unset Strict Implicit.

(** Keys, signatures, single proofs and payloads: an error at worst, whatever the bytes.  A list of messages shorter
    than 2^32 is all that Sign and Verify need. *)
Theorem C84_no_panic : forall C (OK : CurveOk C) (HG : bytes -> G1 C) (H : hasher C), bls_sizes C ->
  (forall b, unmarshalPrivateKey C b <> Panic) /\ (forall b, unmarshalPublicKey C b <> Panic) /\
  (forall hkdf seed rnd, generateKeyPair H hkdf seed rnd <> Panic) /\
  (forall b, parseSignature C b <> Panic) /\ (forall b, parseProofG1 C b <> Panic) /\ (forall b, parsePoKPayload b <> Panic) /\
  (forall ms skb e s, (Z.of_nat (length ms) < 2 ^ 32)%Z -> bbsSign HG H ms skb e s <> Panic) /\
  (forall ms sigb pkb, (Z.of_nat (length ms) < 2 ^ 32)%Z -> bbsVerify HG H ms sigb pkb <> Panic).
Proof.
  intros C OK HG H BS. split; [exact (@unmarshalSK_np C)|]. split; [exact (@unmarshalPK_np C)|]. split; [exact (@keygen_np C H)|].
  split; [exact (@parseSignature_np C HG BS)|]. split; [exact (parseProofG1_no_panic (proj1 BS))|]. split; [exact payload_never|]. split.
  - intros ms skb e s L. apply (sign_np OK BS). lia.
  - intros ms sigb pkb L. apply (verify_signature_np OK BS). lia.
Qed.
Print Assumptions C84_no_panic.

Example C84_no_panic_example : bls_sizes toy32 /\
  bbsVerify hg32 h32 xb_ms (str "no signature") (g2_comp toy32 xb_pk) = Err /\ parsePoKPayload (str "A") = Err.
Proof. split; [exact toy32_sizes|]. split; vm_compute; reflexivity. Qed.

(** DeriveProof: exactly one cause.  With a signature that verifies and no more indices than messages, an index that does
    not denote a message panics; nothing else does. *)
Theorem C84_derive : forall C (OK : CurveOk C) (HG : bytes -> G1 C) (H : hasher C), bls_sizes C ->
  forall (ms : list bytes) (sigb nonce pkb : bytes) (indexes : list Z) (R : PoKRand C), (Z.of_nat (length ms) < 2 ^ 32)%Z ->
  deriveProof HG H ms sigb nonce pkb indexes R = Panic <->
  bbsVerify HG H ms sigb pkb = Ok tt /\ indexes <> [] /\ length indexes <= length ms /\
  exists i, In i indexes /\ ~ (0 <= i < Z.of_nat (length ms))%Z.
Proof. intros C OK HG H BS ms sigb nonce pkb indexes R L. apply (derive_panic OK HG BS). lia. Qed.
Print Assumptions C84_derive.

Definition xb_sigb : bytes := g1_comp toy32 xb_A ++ zr_bytes toy32 (f2 : Zr toy32) ++ zr_bytes toy32 (f9 : Zr toy32).
Example C84_derive_example :
  deriveProof hg32 h32 xb_ms xb_sigb xb_nonce (g2_comp toy32 xb_pk) [0; 3]%Z xb_R = Panic /\
  deriveProof hg32 h32 xb_ms xb_sigb xb_nonce (g2_comp toy32 xb_pk) [-1; 2]%Z xb_R = Panic /\
  is_ok (deriveProof hg32 h32 xb_ms xb_sigb xb_nonce (g2_comp toy32 xb_pk) [2; 0]%Z xb_R) = true.
Proof. split; [vm_compute; reflexivity|]. split; vm_compute; reflexivity. Qed.

(** ** VerifyProof *)
(** The bytes after the payload: three points, a 4-byte length, a first proof of that length, a second proof. *)
Definition after_payload (proof : bytes) (pl : pokPayload) : bytes := skipn (lenInBytes (pp_count pl)) proof.
Definition length_field C (b : bytes) : Z := os2ip (firstn 4 (skipn (3 * g1_csize C) b)).
(** when the three points are there, so are the length field and as many bytes as it announces *)
Definition complete_frame C (b : bytes) : Prop :=
  3 * g1_csize C <= length b -> 3 * g1_csize C + 4 <= length b /\ (Z.of_nat (3 * g1_csize C + 4) + length_field C b <= Z.of_nat (length b))%Z.
Definition hidden_count (pl : pokPayload) : nat := length (filter (fun i => negb (existsb (Nat.eqb i) (pp_revealed pl))) (seq 0 (pp_count pl))).
(** enough responses for the equations, and no more than two positions behind the last message *)
Definition enough_for C (pl : pokPayload) (sp : PoKOfSignatureProof C) : Prop :=
  length (pp_revealed pl) <= pp_count pl + 2 /\ 2 <= length (pf_resp (sp_vc1 sp)) /\ 2 + hidden_count pl <= length (pf_resp (sp_vc2 sp)).

(** The full claim ("VerifyProof never panics") fails, see the two theorems below.  Proved: no panic for proofs with complete
    frames and enough responses, whatever the messages, the nonce and the key. *)
Theorem C84_verify_proof_partial : forall C (OK : CurveOk C) (HG : bytes -> G1 C) (H : hasher C), bls_sizes C ->
  forall (ms : list bytes) (proof nonce pkb : bytes),
  (forall pl, parsePoKPayload proof = Ok pl -> complete_frame C (after_payload proof pl) /\
     forall sp, parseSignatureProof C (after_payload proof pl) = Ok sp -> enough_for pl sp) ->
  verifyProof HG H ms proof nonce pkb <> Panic.
Proof. intros C OK HG H BS ms proof nonce pkb W. apply (verify_proof_np OK BS). exact W. Qed.
Print Assumptions C84_verify_proof_partial.

(** Whatever VerifyProof accepts once, cut off anywhere between the end of the third point and the end of the first
    proof, makes it panic: for all messages, nonces and keys. *)
Theorem C84_truncated_refuted : forall C (OK : CurveOk C) (HG : bytes -> G1 C) (H : hasher C), bls_sizes C ->
  forall (ms : list bytes) (proof nonce pkb : bytes), verifyProof HG H ms proof nonce pkb = Ok tt ->
  exists pl, parsePoKPayload proof = Ok pl /\
  let start := lenInBytes (pp_count pl) + 3 * g1_csize C in
  forall k, start <= k -> (Z.of_nat k < Z.of_nat (start + 4) + length_field C (after_payload proof pl))%Z ->
  forall (ms' : list bytes) (nonce' pkb' : bytes), verifyProof HG H ms' (firstn k proof) nonce' pkb' = Panic.
Proof.
  intros C OK HG H BS ms proof nonce pkb V. destruct (verifyProofFr_inv OK BS V) as (pl & sp & pk & EP & EK & ES & _).
  exists pl. split; [exact EP|]. intros start k K1 K2 ms' nonce' pkb'. exact (@verify_proof_cut C HG BS H ms' proof nonce' pkb' pl sp k EP ES K1 K2).
Qed.
Print Assumptions C84_truncated_refuted.

(** A complete proof that holds no responses makes VerifyProof panic under every key, for all messages and nonces. *)
Theorem C84_responses_refuted : forall C (OK : CurveOk C) (HG : bytes -> G1 C) (H : hasher C), bls_sizes C ->
  forall n, (Z.of_nat n <= 65535)%Z -> exists proof,
  (exists pl sp, parsePoKPayload proof = Ok pl /\ pp_count pl = n /\ pp_revealed pl = [] /\
     parseSignatureProof C (after_payload proof pl) = Ok sp /\ pf_resp (sp_vc1 sp) = [] /\ pf_resp (sp_vc2 sp) = []) /\
  forall (ms : list bytes) (nonce : bytes) (pk : G2 C), verifyProof HG H ms proof nonce (g2_comp C pk) = Panic.
Proof.
  intros C OK HG H BS n L. destruct (verify_hollow OK HG BS H L) as (proof & (pl & P0 & P1 & P2 & P3) & V). exists proof. split; [|exact V].
  exists pl, (@hollow C). split; [exact P0|]. split; [exact P1|]. split; [exact P2|]. split; [exact P3|]. split; reflexivity.
Qed.
Print Assumptions C84_responses_refuted.

(** The holder of PropsBbs.v: the whole proof is accepted, its first 40 bytes are cut inside the first proof. *)
Definition xb_whole : bool :=
  match parsePoKPayload xb_dp with
  | Ok pl => let b := after_payload xb_dp pl in
      (3 * g1_csize toy32 + 4 <=? length b) && (Z.of_nat (3 * g1_csize toy32 + 4) + length_field toy32 b <=? Z.of_nat (length b))%Z &&
      match parseSignatureProof toy32 b with
      | Ok sp => (length (pp_revealed pl) <=? pp_count pl + 2) && (2 <=? length (pf_resp (sp_vc1 sp))) && (2 + hidden_count pl <=? length (pf_resp (sp_vc2 sp)))
      | _ => false end
  | _ => false end.
Definition xb_cut : nat := match parsePoKPayload xb_dp with Ok pl => lenInBytes (pp_count pl) + 3 * g1_csize toy32 | _ => 0 end.
Example C84_verify_proof_example : bls_sizes toy32 /\ xb_whole = true /\
  is_ok (verifyProof hg32 h32 [str "alice"; str "carol"] xb_dp xb_nonce (g2_comp toy32 xb_pk)) = true /\
  verifyProof hg32 h32 [str "alice"; str "carol"] (firstn xb_cut xb_dp) xb_nonce (g2_comp toy32 xb_pk) = Panic /\
  verifyProof hg32 h32 [] (firstn (xb_cut + 10) xb_dp) (str "") (str "no key") = Panic /\
  verifyProof hg32 h32 [str "alice"; str "carol"] (firstn (xb_cut - 1) xb_dp) xb_nonce (g2_comp toy32 xb_pk) = Err.
Proof.
  split; [exact toy32_sizes|]. split; [vm_compute; reflexivity|]. split; [vm_compute; reflexivity|]. split; [vm_compute; reflexivity|].
  split; vm_compute; reflexivity.
Qed.
