(** * Properties of the BBS+ library /repo/bbs (C25 - C31, C61, C62) *)
From Verif Require Import Base Curve Algebra Bbs BbsSpec BbsFacts BbsProof BbsComplete BbsCache Toy ToyBbs.
From Coq Require Import Sorting.Sorted Sorting.Permutation.
Unset Strict Implicit.

(** ** Data for the examples: three messages under the toy curve with 32-byte scalars *)
Definition xb_ms : list bytes := [str "alice"; str "bob"; str "carol"].
Definition xb_sk : Zr toy32 := f5.
Definition xb_pk : G2 toy32 := genG2 toy32 ⊗ xb_sk.
Definition xb_nonce : bytes := str "nonce".
Definition xb_R : PoKRand toy32 :=
  {| pr_r1 := (f3 : Zr toy32); pr_r2 := (f8 : Zr toy32);
     pr_bl1 := fun i => zr_of_Z toy32 (Z.of_nat i + 4); pr_bl2 := fun i => zr_of_Z toy32 (Z.of_nat i * 3 + 2) |}.
Definition xb_A : G1 toy32 :=
  Eval vm_compute in (bbs_base (gen0 hg32 xb_pk 3) (gens hg32 xb_pk 3) (f9 : Zr toy32) (map h32 xb_ms) ⊗ zinv (zadd xb_sk (f2 : Zr toy32))).
Definition xb_key : PublicKeyWithGenerators toy32 :=
  {| pg_h0 := gen0 hg32 xb_pk 3; pg_h := gens hg32 xb_pk 3; pg_w := xb_pk; pg_count := 3 |}.

Lemma xb_sig : bbs_signature xb_pk (gen0 hg32 xb_pk 3) (gens hg32 xb_pk 3) xb_A (f2 : Zr toy32) (f9 : Zr toy32) (map h32 xb_ms).
Proof. vm_compute. reflexivity. Qed.

(** ** C25: signatures verify *)
(** Every signature made by Sign over one or more messages is accepted by Verify for the same
    messages and the public key of the signing key, unless the random exponent hits -sk. *)
Theorem C25_sign_verify : forall C (OK : CurveOk C) (HG : bytes -> G1 C) (H : hasher C) (ms : list bytes) (sk e s : Zr C),
  bls_sizes C -> ms <> [] -> (Z.of_nat (length ms) < 2 ^ 32)%Z -> zadd sk e <> z0 ->
  exists sg, bbsSign HG H ms (zr_bytes C sk) e s = Ok sg /\ bbsVerify HG H ms sg (g2_comp C (genG2 C ⊗ sk)) = Ok tt.
Proof. intros C OK HG H ms sk e s BS NE L N. exact (@bbs_sign_verify C OK HG (proj1 BS) H ms sk e s NE ltac:(lia) N). Qed.

Example C25_example : bls_sizes toy32 /\ xb_ms <> [] /\ zadd xb_sk (f2 : Zr toy32) <> z0 /\
  is_ok (bbsSign hg32 h32 xb_ms (zr_bytes toy32 xb_sk) (f2 : Zr toy32) (f9 : Zr toy32)) = true.
Proof. split; [exact toy32_sizes|]. split; [discriminate|]. split; [discriminate|]. vm_compute. reflexivity. Qed.

(** Verify accepts an encoded (A, e, s) exactly when it satisfies the BBS+ equation for the
    hashed messages, the generators of this public key and this number of messages. *)
Theorem C25_verify_iff : forall C (OK : CurveOk C) (HG : bytes -> G1 C) (H : hasher C) (ms : list bytes) (A : G1 C) (e s : Zr C) (pk : G2 C),
  bls_sizes C ->
  bbsVerify HG H ms (g1_comp C A ++ zr_bytes C e ++ zr_bytes C s) (g2_comp C pk) = Ok tt <->
  (Z.of_nat (length ms) < 2 ^ 32)%Z /\
  bbs_signature pk (gen0 HG pk (length ms)) (gens HG pk (length ms)) A e s (map H ms).
Proof.
  intros C OK HG H ms A e s pk BS. pose proof (@bbsVerify_iff C OK HG (proj1 BS) H ms A e s pk) as I.
  unfold sig_enc in I. rewrite I. split; intros [L E]; (split; [lia|exact E]).
Qed.

Example C25_verify_example :
  bbsVerify hg32 h32 xb_ms (g1_comp toy32 xb_A ++ zr_bytes toy32 (f2 : Zr toy32) ++ zr_bytes toy32 (f9 : Zr toy32)) (g2_comp toy32 xb_pk) = Ok tt
  /\ bbsVerify hg32 h32 [str "alice"; str "eve"; str "carol"] (g1_comp toy32 xb_A ++ zr_bytes toy32 (f2 : Zr toy32) ++ zr_bytes toy32 (f9 : Zr toy32)) (g2_comp toy32 xb_pk) = Err.
Proof. split; vm_compute; reflexivity. Qed.

(** ** C26: selective disclosure *)
(** For a valid signature on at most 65535 messages, any non-empty set of positions (given to
    DeriveProof in any order) and any nonce: DeriveProof succeeds and VerifyProof accepts the
    disclosed messages in position order under the same nonce. *)
Theorem C26_selective_disclosure : forall C (OK : CurveOk C) (HG : bytes -> G1 C) (H : hasher C)
    (ms : list bytes) (A : G1 C) (e s : Zr C) (pk : G2 C) (idx : list nat) (zs : list Z) (nonce : bytes) (R : PoKRand C),
  bls_sizes C -> (Z.of_nat (length ms) <= 65535)%Z ->
  bbs_signature pk (gen0 HG pk (length ms)) (gens HG pk (length ms)) A e s (map H ms) ->
  pr_r1 R <> z0 ->
  idx <> [] -> increasing idx -> (forall i, In i idx -> i < length ms) ->
  Permutation zs (map Z.of_nat idx) ->
  exists proof,
    deriveProof HG H ms (g1_comp C A ++ zr_bytes C e ++ zr_bytes C s) nonce (g2_comp C pk) zs R = Ok proof /\
    verifyProof HG H (map (fun i => nth i ms []) idx) proof nonce (g2_comp C pk) = Ok tt.
Proof.
  intros C OK HG H ms A e s pk idx zs nonce R BS L V NZ NE I B P.
  unfold deriveProof, verifyProof, messagesToFr. change (g1_comp C A ++ zr_bytes C e ++ zr_bytes C s) with (sig_enc A e s).
  apply (@derive_verify C OK HG BS H (messagesToFr_from H 0 ms) _ A e s pk idx zs nonce R).
  - apply messagesToFr_numbered.
  - rewrite messagesToFr_length. exact L.
  - rewrite messagesToFr_length, messagesToFr_fr. exact V.
  - exact NZ.
  - exact NE.
  - exact I.
  - intros i Hi. rewrite messagesToFr_length. exact (B i Hi).
  - exact P.
  - rewrite !messagesToFr_fr, map_map. apply map_ext_in. intros i Hi.
    rewrite (nth_indep _ z0 (H [])) by (rewrite map_length; exact (B i Hi)). rewrite map_nth. reflexivity.
Qed.

Example C26_example : bls_sizes toy32 /\
  bbs_signature xb_pk (gen0 hg32 xb_pk (length xb_ms)) (gens hg32 xb_pk (length xb_ms)) xb_A (f2 : Zr toy32) (f9 : Zr toy32) (map h32 xb_ms) /\
  pr_r1 xb_R <> z0 /\ increasing [0; 2] /\ Permutation [2; 0]%Z (map Z.of_nat [0; 2]) /\
  is_ok (let* p := deriveProof hg32 h32 xb_ms (g1_comp toy32 xb_A ++ zr_bytes toy32 (f2 : Zr toy32) ++ zr_bytes toy32 (f9 : Zr toy32)) xb_nonce (g2_comp toy32 xb_pk) [2; 0]%Z xb_R in
         verifyProof hg32 h32 [str "alice"; str "carol"] p xb_nonce (g2_comp toy32 xb_pk)) = true.
Proof.
  split; [exact toy32_sizes|]. split; [exact xb_sig|]. split; [discriminate|].
  split; [repeat constructor|]. split; [apply perm_swap|]. vm_compute. reflexivity.
Qed.

(** ** C27: soundness of proofs of possession *)
(** What VerifyProof establishes about an accepted byte string: it carries a payload with an
    increasing list of disclosed positions, at least that many messages were given, and a proof
    accepted for the challenge that hashes all the commitments, the bases and the nonce. *)
Theorem C27_challenge : forall C (OK : CurveOk C) (HG : bytes -> G1 C) (H : hasher C) (ms : list bytes) (proof nonce pkb : bytes) u,
  bls_sizes C -> verifyProof HG H ms proof nonce pkb = Ok u ->
  exists pl sp pk, parsePoKPayload proof = Ok pl /\ unmarshalPublicKey C pkb = Ok pk /\
    parseSignatureProof C (skipn (lenInBytes (pp_count pl)) proof) = Ok sp /\
    let key := {| pg_h0 := gen0 HG pk (pp_count pl); pg_h := gens HG pk (pp_count pl); pg_w := pk; pg_count := pp_count pl |} in
    increasing (pp_revealed pl) /\ length (pp_revealed pl) <= length ms /\
    signatureProofVerify (@defaultVC2Verify C) sp
      (H (g1_bytes C (sp_abar sp) ++ g1_bytes C (sp_aprime sp) ++ g1_bytes C (pg_h0 key)
           ++ g1_bytes C (pf_comm (sp_vc1 sp)) ++ g1_bytes C (sp_d sp) ++ g1_bytes C (pg_h0 key)
           ++ concat (map (g1_bytes C) (hidden_bases 0 (pg_h key) (pp_revealed pl)))
           ++ g1_bytes C (pf_comm (sp_vc2 sp)) ++ proofNonceBytes H nonce)) key (fold_left madd (pp_revealed pl) []) (messagesToFr H ms) = Ok tt.
Proof. intros C OK HG H ms proof nonce pkb u BS E. 
  replace (length ms) with (length (messagesToFr H ms)) by (unfold messagesToFr; apply messagesToFr_length).
  exact (verifyProofFr_inv OK BS E). Qed.

(** Full claim: from two accepted proofs with the same first message and distinct challenges a
    signature on a message vector with the given messages at the disclosed positions is computed.
    Proved here when both proofs carry exactly one response per base (two for the randomised
    signature, two plus one per hidden message for the messages); the code does not check the
    number of responses and the claim is false without it (C27_refuted). *)
Theorem C27_soundness_partial : forall C (OK : CurveOk C) (key : PublicKeyWithGenerators C) (revealed : list nat)
    (ms : list (SignatureMessage C)) (p q : PoKOfSignatureProof C) (c1 c2 : Zr C),
  signatureProofVerify (@defaultVC2Verify C) p c1 key revealed ms = Ok tt ->
  signatureProofVerify (@defaultVC2Verify C) q c2 key revealed ms = Ok tt ->
  sp_aprime p = sp_aprime q -> sp_abar p = sp_abar q -> sp_d p = sp_d q ->
  pf_comm (sp_vc1 p) = pf_comm (sp_vc1 q) -> pf_comm (sp_vc2 p) = pf_comm (sp_vc2 q) ->
  let r1 := pf_resp (sp_vc1 p) in let r2 := pf_resp (sp_vc1 q) in
  let t1 := pf_resp (sp_vc2 p) in let t2 := pf_resp (sp_vc2 q) in
  let n := length (pg_h key) in
  length r1 = 2 -> length r2 = 2 ->
  length t1 = 2 + length (filter (fun i => negb (mem i revealed)) (seq 0 n)) -> length t2 = length t1 ->
  c1 <> c2 ->
  let full := weave 0 n revealed (map (@sm_fr C) ms) (extract_hidden c1 c2 t1 t2) in
  length full = n /\
  (forall idx, increasing idx -> (forall i, In i idx <-> In i revealed) -> reveals idx (map (@sm_fr C) ms) full) /\
  bbs_signature (pg_w key) (pg_h0 key) (pg_h key) (extract_A (sp_aprime p) c1 c2 t1 t2)
    (extract_e c1 c2 r1 r2) (extract_s c1 c2 r1 r2 t1 t2) full.
Proof.
  intros C OK key revealed ms p q c1 c2 V1 V2 Ea Eb Ed E1 E2 r1 r2 t1 t2 n L1 L1' L2 L2' N full.
  destruct (@soundness C OK key revealed ms p q c1 c2 V1 V2 Ea Eb Ed E1 E2 L1 L1' L2 (eq_trans L2' L2) N) as [Lf S].
  split; [exact Lf|]. split; [|exact S]. intros idx I M.
  assert (W : full = weave 0 n idx (map (@sm_fr C) ms) (extract_hidden c1 c2 t1 t2)).
  { apply weave_ext. intros j _. symmetry. apply M. }
  rewrite W. apply weave_reveals; [exact I|]. rewrite <- W. exact Lf.
Qed.

(** two honest transcripts with the same first message *)
Definition xb_msz : list (SignatureMessage toy32) := messagesToFr h32 xb_ms.
Definition xb_pok := newPoKOfSignature {| si_a := xb_A; si_e := (f2 : Zr toy32); si_s := (f9 : Zr toy32) |} xb_msz [0; 2]%Z xb_key xb_R.
Definition xb_raw (c : Zr toy32) : zp * zp * zp * zp * list zp * zp * list zp :=
  match (let* pok := xb_pok in pokGenerateProof pok c) with
  | Ok p => (sp_aprime p : zp, sp_abar p : zp, sp_d p : zp, pf_comm (sp_vc1 p) : zp, pf_resp (sp_vc1 p) : list zp,
             pf_comm (sp_vc2 p) : zp, pf_resp (sp_vc2 p) : list zp)
  | _ => (f0, f0, f0, f0, [], f0, [])
  end.
Definition xb_pack (x : zp * zp * zp * zp * list zp * zp * list zp) : PoKOfSignatureProof toy32 :=
  let '(a, b, d, t1, r1, t2, r2) := x in
  {| sp_aprime := (a : G1 toy32); sp_abar := (b : G1 toy32); sp_d := (d : G1 toy32);
     sp_vc1 := {| pf_comm := (t1 : G1 toy32); pf_resp := (r1 : list (Zr toy32)) |};
     sp_vc2 := {| pf_comm := (t2 : G1 toy32); pf_resp := (r2 : list (Zr toy32)) |} |}.
Definition xb_raw4 := Eval vm_compute in xb_raw (f4 : Zr toy32).
Definition xb_raw11 := Eval vm_compute in xb_raw (f11 : Zr toy32).
Definition xb_p := xb_pack xb_raw4.
Definition xb_q := xb_pack xb_raw11.
Definition xb_given : list (SignatureMessage toy32) := messagesToFr h32 [str "alice"; str "carol"].

Example C27_soundness_example :
  signatureProofVerify (@defaultVC2Verify toy32) xb_p (f4 : Zr toy32) xb_key [2; 0] xb_given = Ok tt /\
  signatureProofVerify (@defaultVC2Verify toy32) xb_q (f11 : Zr toy32) xb_key [2; 0] xb_given = Ok tt /\
  sp_aprime xb_p = sp_aprime xb_q /\ sp_d xb_p = sp_d xb_q /\
  pf_comm (sp_vc1 xb_p) = pf_comm (sp_vc1 xb_q) /\ pf_comm (sp_vc2 xb_p) = pf_comm (sp_vc2 xb_q) /\
  length (pf_resp (sp_vc1 xb_p)) = 2 /\ length (pf_resp (sp_vc2 xb_p)) = 3 /\
  (* and the extracted signature is the one used *)
  extract_A (sp_aprime xb_p) (f4 : Zr toy32) (f11 : Zr toy32) (pf_resp (sp_vc2 xb_p)) (pf_resp (sp_vc2 xb_q)) = xb_A.
Proof.
  split; [vm_compute; reflexivity|]. split; [vm_compute; reflexivity|]. split; [vm_compute; reflexivity|].
  split; [vm_compute; reflexivity|]. split; [vm_compute; reflexivity|]. split; [vm_compute; reflexivity|].
  split; [vm_compute; reflexivity|]. split; [vm_compute; reflexivity|]. vm_compute; reflexivity.
Qed.

(** The claim without the condition on the number of responses is false: for every number of
    messages and every set of positions there is one fixed byte string, computed from public
    data only, that VerifyProof accepts under EVERY public key, for EVERY disclosed messages and
    EVERY nonce.  (A surplus response takes the place of the challenge.) *)
Theorem C27_refuted : forall C (OK : CurveOk C) (HG : bytes -> G1 C), bls_sizes C ->
  forall (n : nat) (idx : list nat), (Z.of_nat n <= 65535)%Z -> increasing idx -> (forall i, In i idx -> i < n) ->
  exists proof, forall (H : hasher C) (pk : G2 C) (ms : list bytes) (nonce : bytes),
    length idx <= length ms -> verifyProof HG H ms proof nonce (g2_comp C pk) = Ok tt.
Proof.
  intros C OK HG BS n idx L I B. destruct (@forged_accepted C OK HG BS n idx L I B) as [proof F].
  exists proof. intros H pk ms nonce Lm. apply F. unfold messagesToFr. rewrite messagesToFr_length. exact Lm.
Qed.

Example C27_refuted_example : increasing [0; 2] /\ (forall i, In i [0; 2] -> i < 3).
Proof. split; [repeat constructor|]. intros i [<-|[<-|[]]]; lia. Qed.

(** The forgery does not depend on points at infinity: any A', Abar with
    e(w, A') = e(g2, Abar) (for instance from one observed proof), any d and any responses do. *)
Theorem C27_refuted_observed : forall C (OK : CurveOk C) (key : PublicKeyWithGenerators C) (revealed : list nat)
    (ms : list (SignatureMessage C)) (aprime abar d : G1 C) (r1 r2 : list (Zr C)) (c : Zr C),
  pair C (pg_w key) aprime = pair C (genG2 C) abar ->
  length revealed <= pg_count key + 2 ->
  length (filter (fun i => mem i revealed) (seq 0 (length (pg_h key)))) <= length ms ->
  length r1 = 2 -> length r2 = 2 + length (filter (fun i => negb (mem i revealed)) (seq 0 (length (pg_h key)))) ->
  signatureProofVerify (@defaultVC2Verify C)
    {| sp_aprime := aprime; sp_abar := abar; sp_d := d;
       sp_vc1 := {| pf_comm := gdot [aprime; pg_h0 key] r1; pf_resp := r1 ++ [z0] |};
       sp_vc2 := {| pf_comm := gdot (d :: pg_h0 key :: hidden_bases 0 (pg_h key) revealed) r2; pf_resp := r2 ++ [z0] |} |}
    c key revealed ms = Ok tt.
Proof. intros C OK key revealed ms aprime abar d r1 r2 c P L1 L2 L3 L4. exact (@forgery C OK key revealed ms aprime abar d r1 r2 c P (conj L1 L2) L3 L4). Qed.

Example C27_observed_example :
  pair toy32 (pg_w xb_key) (sp_aprime xb_p) = pair toy32 (genG2 toy32) (sp_abar xb_p) /\ sp_aprime xb_p <> gzero.
Proof. split; [vm_compute; reflexivity|]. vm_compute. discriminate. Qed.

(** Messages given to the verifier beyond the number of disclosed positions are accepted without
    being looked at. *)
Theorem C27_surplus_messages_refuted : forall C (OK : CurveOk C) (HG : bytes -> G1 C) (H : hasher C) (ms extra : list (SignatureMessage C)) (proof nonce pkb : bytes),
  verifyProofFr HG H ms proof nonce pkb = Ok tt -> verifyProofFr HG H (ms ++ extra) proof nonce pkb = Ok tt.
Proof. intros C OK HG H ms extra proof nonce pkb E. exact (surplus_messages OK extra E). Qed.

(** ** C28: the disclosure payload *)
Theorem C28_payload : forall (p : pokPayload),
  (Z.of_nat (pp_count p) <= 65535)%Z -> (forall i, In i (pp_revealed p) -> i < pp_count p) ->
  exists b, payloadBytes p = Ok b /\ length b = lenInBytes (pp_count p) /\
    forall tail, exists l, parsePoKPayload (b ++ tail) = Ok {| pp_count := pp_count p; pp_revealed := l |} /\
      increasing l /\ (forall i, In i l <-> In i (pp_revealed p)).
Proof.
  intros p Hc Hr. apply (payload_rt Hc). intros r Hx. specialize (Hr r Hx).
  pose proof (Nat.mod_upper_bound (pp_count p) 8 ltac:(lia)). pose proof (Nat.div_mod (pp_count p) 8 ltac:(lia)). lia.
Qed.

Example C28_example : payloadBytes {| pp_count := 20; pp_revealed := [17; 3; 9] |} = Ok [Byte.x00; Byte.x14; Byte.x02; Byte.x02; Byte.x08] /\
  parsePoKPayload [Byte.x00; Byte.x14; Byte.x02; Byte.x02; Byte.x08; Byte.xff] = Ok {| pp_count := 20; pp_revealed := [3; 9; 17] |}.
Proof. split; vm_compute; reflexivity. Qed.

(** Whatever is written can be read back: counts and positions that do not fit are refused, not cut off. *)
Theorem C28_written : forall (p : pokPayload) (b : bytes), payloadBytes p = Ok b ->
  (Z.of_nat (pp_count p) <= 65535)%Z /\
  forall tail, exists l, parsePoKPayload (b ++ tail) = Ok {| pp_count := pp_count p; pp_revealed := l |} /\
    increasing l /\ (forall i, In i l <-> In i (pp_revealed p)).
Proof.
  intros p b E. destruct (payload_written E) as [L R]. split; [exact L|]. destruct (payload_rt L R) as [b' [E' [_ Q]]].
  rewrite E in E'. injection E' as <-. exact Q.
Qed.
Print Assumptions C28_written.
Example C28_written_example : payloadBytes {| pp_count := 7; pp_revealed := [7] |} = Ok [Byte.x00; Byte.x07; Byte.x80] /\
  payloadBytes {| pp_count := 7; pp_revealed := [8] |} = Err /\ payloadBytes {| pp_count := Z.to_nat 65536; pp_revealed := [] |} = Err.
Proof. repeat split; vm_compute; reflexivity. Qed.

(** Whatever bytes are parsed, the positions come out strictly increasing (hence without
    repetitions) and the payload is inside the input. *)
Theorem C28_parse_any : forall (b : bytes) (p : pokPayload), parsePoKPayload b = Ok p ->
  increasing (pp_revealed p) /\ lenInBytes (pp_count p) <= length b /\ (Z.of_nat (pp_count p) <= 65535)%Z /\
  (forall i, In i (pp_revealed p) -> i < 8 * (pp_count p / 8 + 1)).
Proof. intros b p E. destruct (parse_payload_inv E) as (A & B & D & F). auto. Qed.

Example C28_parse_example : is_ok (parsePoKPayload [Byte.x00; Byte.x03; Byte.xff]) = true.
Proof. vm_compute. reflexivity. Qed.

(** ** C29: byte codecs *)
Theorem C29_signature : forall C (OK : CurveOk C), bls_sizes C -> forall (s : Signature C),
  exists b, signatureBytes s = Ok b /\ length b = g1_csize C + 64 /\ parseSignature C b = Ok s.
Proof. intros C OK BS s. exact (@signature_rt C OK (proj1 BS) s). Qed.

Theorem C29_proofG1 : forall C (OK : CurveOk C), bls_sizes C -> forall (p : ProofG1 C),
  (Z.of_nat (length (pf_resp p)) < 2 ^ 32)%Z ->
  exists b, proofG1Bytes p = Ok b /\ length b = g1_csize C + 4 + length (pf_resp p) * 32 /\
    forall tail, parseProofG1 C (b ++ tail) = Ok p.
Proof. intros C OK BS p L. exact (@proofG1_rt C OK (proj1 BS) p ltac:(lia)). Qed.

Theorem C29_signatureProof : forall C (OK : CurveOk C), bls_sizes C -> forall (sp : PoKOfSignatureProof C),
  (Z.of_nat (g1_csize C + 4 + length (pf_resp (sp_vc1 sp)) * 32) < 2 ^ 32)%Z ->
  (Z.of_nat (length (pf_resp (sp_vc2 sp))) < 2 ^ 32)%Z ->
  exists b, signatureProofBytes sp = Ok b /\ parseSignatureProof C b = Ok sp.
Proof.
  intros C OK BS sp L1 L2. apply (@signatureProof_rt C OK (proj1 BS) sp); [|lia].
  unfold proof_size, frCompressedSize. lia.
Qed.

Example C29_example : bls_sizes toy32 /\
  is_ok (let* b := signatureProofBytes xb_p in parseSignatureProof toy32 b) = true /\
  length (pf_resp (sp_vc2 xb_p)) = 3.
Proof. split; [exact toy32_sizes|]. split; [vm_compute; reflexivity|]. vm_compute. reflexivity. Qed.

(** ** C30: the generators of different keys, counts and positions hash different strings *)
Theorem C30_domain_separation : forall C (OK : CurveOk C),
  (* the generators are hashes of [gen_string] *)
  (forall HG (pk : G2 C) n key, toPublicKeyWithGenerators HG pk n = Ok key ->
     pg_h0 key = HG (gen_string pk n 0) /\ length (pg_h key) = n /\ pg_w key = pk /\
     forall i, i < n -> nth_error (pg_h key) i = Some (HG (gen_string pk n (S i)))) /\
  (* and [gen_string] is injective *)
  (forall (pk pk' : G2 C) n n' i i', (Z.of_nat n < 2 ^ 32)%Z -> (Z.of_nat n' < 2 ^ 32)%Z -> i <= n -> i' <= n' ->
     gen_string pk n i = gen_string pk' n' i' -> pk = pk' /\ n = n' /\ i = i').
Proof.
  intros C OK. split.
  - intros HG pk n key E. apply (toPKwG_inv OK) in E. destruct E as [_ ->]. cbn [pg_h0 pg_h pg_w].
    split; [reflexivity|]. split; [apply gens_length|]. split; [reflexivity|].
    intros i L. unfold gens. rewrite nth_error_map, nth_error_nth' with (d := 0) by (rewrite seq_length; exact L).
    rewrite seq_nth by exact L. reflexivity.
  - intros pk pk' n n' i i' B B' L L' E. apply (gen_string_inj OK) in E; [exact E|lia|lia|lia|lia].
Qed.

Example C30_example : is_ok (toPublicKeyWithGenerators hg32 xb_pk 3) = true /\
  gen_string xb_pk 3 1 <> gen_string xb_pk 3 2 /\ gen_string xb_pk 3 1 <> gen_string xb_pk 4 1.
Proof. split; [vm_compute; reflexivity|]. split; vm_compute; discriminate. Qed.

(** ** C31: the cache is transparent *)
(** In every state reachable by any number of concurrent lookups in any interleaving, a lookup
    that has returned has returned the generator a lookup without cache computes. *)
Theorem C31_cache_transparent : forall (Cv G : Type) (hashToG1 : Cv -> bytes -> G) (c : Cv) (s : cstate Cv G),
  csteps hashToG1 (cinit Cv G) s -> one_curve c s ->
  forall i data g, nth_error (cs_calls s) i = Some (CDone c data g) -> g = hashToG1 c data.
Proof. intros Cv G h c s R O i data g E. exact (proj2 (cinv_reach R O) i _ E). Qed.

(** Every lookup can always take a step until it returns, and needs at most three. *)
Theorem C31_progress : forall (Cv G : Type) (hashToG1 : Cv -> bytes -> G) (s : cstate Cv G) i x,
  nth_error (cs_calls s) i = Some x -> remaining x > 0 ->
  exists t y, cstep hashToG1 s t /\ nth_error (cs_calls t) i = Some y /\ remaining y < remaining x.
Proof. exact call_progress. Qed.

(** Two racing lookups of the same generator: both miss, both compute, the second finds the
    value stored by the first. *)
Example C31_example :
  let h := fun (c : unit) (d : bytes) => length d in
  exists s, csteps h (cinit unit nat) s /\ one_curve tt s /\
    cs_calls s = [CDone tt (str "abc") 3; CDone tt (str "abc") 3].
Proof.
  intro h. exists {| cs_map := [(str "abc", 3)]; cs_calls := [CDone tt (str "abc") 3; CDone tt (str "abc") 3] |}.
  split; [|split; [|reflexivity]].
  2:{ intros x [<-|[<-|[]]]; reflexivity. }
  eapply Cs_step. eapply Cs_step. eapply Cs_step. eapply Cs_step. eapply Cs_step. eapply Cs_step. eapply Cs_step. eapply Cs_step.
  apply Cs_refl.
  - apply (St_begin h [] [] tt (str "abc")).
  - apply (St_begin h [] _ tt (str "abc")).
  - eapply (@St_miss _ _ h _ _ 0); reflexivity.
  - eapply (@St_miss _ _ h _ _ 1); reflexivity.
  - eapply (@St_hash _ _ h _ _ 0); reflexivity.
  - eapply (@St_hash _ _ h _ _ 1); reflexivity.
  - eapply (@St_stored _ _ h _ _ 0); reflexivity.
  - exact (@St_loaded _ _ h [(str "abc", 3)] [CDone tt (str "abc") 3; CStore tt (str "abc") 3] 1 tt (str "abc") 3 3 eq_refl eq_refl).
Qed.

(** The cache is not transparent when keys of two different curve objects are looked up in the
    same library: the cache key does not contain the curve. *)
Theorem C31_mixed_curves_refuted : forall (Cv G : Type) (hashToG1 : Cv -> bytes -> G) (c c' : Cv) (data : bytes),
  hashToG1 c data <> hashToG1 c' data ->
  exists s g, csteps hashToG1 (cinit Cv G) s /\ nth_error (cs_calls s) 1 = Some (CDone c' data g) /\ g <> hashToG1 c' data.
Proof.
  intros Cv G h c c' data N.
  exists {| cs_map := [(data, h c data)]; cs_calls := [CDone c data (h c data); CDone c' data (h c data)] |}, (h c data).
  split; [|split; [reflexivity|exact N]].
  eapply Cs_step. eapply Cs_step. eapply Cs_step. eapply Cs_step. eapply Cs_step. eapply Cs_step. apply Cs_refl.
  - apply (St_begin h [] [] c data).
  - eapply (@St_miss _ _ h _ _ 0); reflexivity.
  - eapply (@St_hash _ _ h _ _ 0); reflexivity.
  - eapply (@St_stored _ _ h _ _ 0); reflexivity.
  - apply (St_begin h _ _ c' data).
  - apply (@St_hit _ _ h [(data, h c data)] [CDone c data (h c data); CLoad G c' data] 1 c' data (h c data)); [reflexivity|].
    cbn [clookup]. rewrite bytes_eqb_refl. reflexivity.
Qed.

(** ** C61: the map from messages to scalars *)
(** A message becomes the 384-bit digest, read as a big-endian integer, modulo the group order
    (the two-halves computation with 2^192 is exactly the reduction). *)
Theorem C61_message_scalar : forall C (OK : CurveOk C) (blake : bytes -> bytes) (m : bytes),
  length (blake m) = 48 -> frFromOKM C blake m = Ok (zr_of_Z C (os2ip (blake m))).
Proof. intros C OK blake m L. exact (frFromOKM_digest OK L). Qed.

Example C61_example : let blake := fun m : bytes => m ++ zeros (48 - length m) in
  length (blake (str "hello")) = 48 /\ is_ok (frFromOKM toy32 blake (str "hello")) = true.
Proof. split; vm_compute; reflexivity. Qed.

(** ** C62: key generation *)
(** With no seed (nil) the key depends on 32 fresh random bytes only; with a 32-byte seed on the
    seed only; any other length except 0 is refused. *)
Theorem C62_keygen_seed : forall C (H : hasher C) (hkdf : bytes -> bytes) (seed : option bytes) (rnd : bytes) r,
  generateKeyPair H hkdf seed rnd = Ok r ->
  fst r = genG2 C ⊗ snd r /\
  match seed with
  | None => snd r = H (hkdf (rnd ++ [b0]))
  | Some s => (length s = 0 \/ length s = 32) /\ snd r = H (hkdf (s ++ [b0]))
  end.
Proof.
  intros C H hkdf seed rnd r E. unfold generateKeyPair in E. apply bind_ok in E. destruct E as [u [G E]].
  apply guard_ok in G. injection E as <-. cbn [fst snd]. split; [reflexivity|].
  destruct seed as [s|]; [|reflexivity]. split; [|reflexivity].
  apply orb_true_iff in G. destruct G as [G|G]; apply Nat.eqb_eq in G; auto.
Qed.

(** "Without a seed the key is random" fails for an empty but non-nil seed: the key pair is a
    constant, whatever the randomness. *)
Theorem C62_refuted : forall C (H : hasher C) (hkdf : bytes -> bytes),
  exists key, forall rnd, generateKeyPair H hkdf (Some []) rnd = Ok key.
Proof. intros C H hkdf. exists (publicKey (H (hkdf [b0])), H (hkdf [b0])). intro rnd. reflexivity. Qed.

Example C62_example : is_ok (generateKeyPair h32 (fun x => x) None (str "0123")) = true /\
  is_ok (generateKeyPair h32 (fun x => x) (Some (zeros 32)) []) = true /\
  generateKeyPair h32 (fun x => x) (Some (zeros 31)) [] = Err.
Proof. split; [vm_compute; reflexivity|]. split; vm_compute; reflexivity. Qed.

Print Assumptions C25_sign_verify.
Print Assumptions C25_verify_iff.
Print Assumptions C26_selective_disclosure.
Print Assumptions C27_challenge.
Print Assumptions C27_soundness_partial.
Print Assumptions C27_refuted.
Print Assumptions C27_refuted_observed.
Print Assumptions C27_surplus_messages_refuted.
Print Assumptions C28_payload.
Print Assumptions C28_parse_any.
Print Assumptions C29_signature.
Print Assumptions C29_proofG1.
Print Assumptions C29_signatureProof.
Print Assumptions C30_domain_separation.
Print Assumptions C31_cache_transparent.
Print Assumptions C31_progress.
Print Assumptions C31_mixed_curves_refuted.
Print Assumptions C61_message_scalar.
Print Assumptions C62_keygen_seed.
Print Assumptions C62_refuted.
