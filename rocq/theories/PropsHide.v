(** * What pseudonyms, requests and selective-disclosure proofs keep secret (C07 for aries, C82, C83)

    Reading guide.  All statements have one form: for two secrets there is a change of the random draws,
    one to one, after which the other secret gives the very same bytes.  Hence for uniform draws
    the bytes are equally likely under both secrets, and tell nothing about which one was used. *)
From Verif Require Import Base Curve Algebra Spec Dlog DlogSpec DlogSound Bridge BridgeFacts Bbs BbsSpec BbsFacts BbsProof BbsComplete
  Aries AriesSpec AriesIssue AriesNym AriesReqHide BbsHide Toy ToyDlog ToyBbs ToyCodec ToyAries PropsBbs.
From Coq Require Import Sorting.Sorted Sorting.Permutation.
Unset Strict Implicit.

(** ** C07 for aries *)
(** [two b0 b1] are the two draws of the proof: [b0] for the randomness, [b1] for the secret. *)
Theorem C07_aries : forall C (OK : CurveOk C) (HG : bytes -> G1 C) (H : hasher C) (c_nsig : codec ANymSignature),
  bls_sizes C -> (forall s, round_trips c_nsig s) ->
  forall (pk : G2 C) (n k : nat) (sk1 sk2 : Zr C) (digest : bytes), k <= n -> gen0 HG pk (n + 1) <> gzero ->
  let key := Some (Some (issuer_key HG pk n)) in
  exists d : Zr C, forall r nonce b0 b1 : Zr C, exists Nym sig c,
    arMakeNym (Z.of_nat k) sk1 key r = Ok (Nym, r) /\ arMakeNym (Z.of_nat k) sk2 key (zadd r d) = Ok (Nym, zadd r d) /\
    arNymSign H c_nsig (Z.of_nat k) sk1 Nym r key digest nonce (two b0 b1) = Ok sig /\
    arNymSign H c_nsig (Z.of_nat k) sk2 Nym (zadd r d) key digest nonce
      (two (zadd b0 (zmul c d)) (zadd b1 (zmul c (zsub sk2 sk1)))) = Ok sig.
Proof.
  intros C OK HG H c_nsig BS RT pk n k sk1 sk2 digest L NZ key. exact (ar_nymsig_hiding OK H BS sk1 sk2 digest L RT NZ).
Qed.
Print Assumptions C07_aries.

Example C07_aries_example : bls_sizes toy32 /\ (forall s, round_trips xa_cnsig s) /\ gen0 hg32 xa_pk 4 <> gzero /\ xa_sk <> f20.
Proof. split; [exact toy32_sizes|]. split; [exact xa_cnsig_ok|]. split; apply zp_ne; vm_compute; reflexivity. Qed.

(** ** C82: credential requests *)
(** aries: the bytes sent by Blind do not depend on the secret.  [f] and [g] are inverse to each other on the three
    draws: the blinding of the secret and the two of the proof. *)
Theorem C82_aries : forall C (OK : CurveOk C) (HG : bytes -> G1 C) (H : hasher C), bls_sizes C ->
  forall (pk : G2 C) (n k : nat) (sk1 sk2 : Zr C) (nonce : bytes),
  (Z.of_nat (n + 1) <= 4294967295)%Z -> k <= n -> gen0 HG pk (n + 1) <> gzero ->
  let request sk (x : Zr C * Zr C * Zr C) := let '(s, b0, b1) := x in
    arBlind HG H (Z.of_nat k) sk (Some (Some (issuer_key HG pk n))) nonce s (two b0 b1) in
  exists f g : Zr C * Zr C * Zr C -> Zr C * Zr C * Zr C,
    (forall x, g (f x) = x) /\ (forall y, f (g y) = y) /\
    (forall x, exists req b1 b2, request sk1 x = Ok (req, b1) /\ request sk2 (f x) = Ok (req, b2)).
Proof.
  intros C OK HG H BS pk n k sk1 sk2 nonce B L NZ. exact (request_hiding OK H BS sk1 sk2 nonce B L NZ).
Qed.
Print Assumptions C82_aries.

Example C82_example : (Z.of_nat (3 + 1) <= 4294967295)%Z /\ gen0 hg32 xa_pk (3 + 1) <> gzero /\ xa_sk <> f20 /\
  is_ok (arBlind hg32 h32 0 xa_sk xa_key (str "nonce") (f4 : Zr toy32) (two (f5 : Zr toy32) (f6 : Zr toy32))) = true.
Proof. split; [lia|]. split; [apply zp_ne; vm_compute; reflexivity|]. split; [apply zp_ne; vm_compute; reflexivity|]. vm_compute. reflexivity. Qed.

(** dlog: the request carries the same value whenever the same secret asks the same issuer, and never the same value for
    two secrets.  All requests of a user to one issuer can be recognised. *)
Theorem C82_dlog_refuted (C : Curve) (OK : CurveOk C) (H1 H2 : hasher C) (T : translator C) ipk (HSk : G1 C)
    (sk1 sk2 r1 r2 : Zr C) n1 n2 m1 m2 :
  TrOk T -> g1_from_proto T (ip_hsk ipk) = Ok HSk -> HSk <> gzero ->
  newCredRequest H1 T sk1 n1 ipk r1 = Ok m1 -> newCredRequest H2 T sk2 n2 ipk r2 = Ok m2 ->
  rq_nym m1 = rq_nym m2 <-> sk1 = sk2.
Proof.
  intros TO E NZ R1 R2. unfold newCredRequest in R1, R2. rewrite E in R1, R2. cbn [bind] in R1, R2.
  apply bind_ok in R1. destruct R1 as (p1 & _ & R1). apply bind_ok in R2. destruct R2 as (p2 & _ & R2).
  injection R1 as <-. injection R2 as <-. cbn [rq_nym]. split.
  - intro Q. apply (f_equal (g1_from_proto T)) in Q. rewrite !(tr_g1 TO) in Q. injection Q as Q.
    exact (@gmul_faithful _ _ (ok_zr OK) (ok_g1 OK) HSk sk1 sk2 NZ Q).
  - intros ->. reflexivity.
Qed.
Print Assumptions C82_dlog_refuted.

Example C82_dlog_example : TrOk tT /\ g1_from_proto tT (ip_hsk tipk) = Ok (f19 : G1 tC) /\ (f19 : G1 tC) <> gzero /\
  newCredRequest tH tT tsk (Some [Byte.x07]) tipk f12 = Ok treq /\
  is_ok (newCredRequest tH tT tsk (Some [Byte.x09]) tipk f22) = true.
Proof.
  split; [exact tTO|]. split; [vm_compute; reflexivity|]. split; [discriminate|]. split; vm_compute; reflexivity.
Qed.

(** ** C83: selective disclosure *)
(** Two holders of signatures by the same issuer on message lists of the same length that agree at the disclosed
    positions, and may differ everywhere else. *)
Theorem C83_hiding : forall C (OK : CurveOk C) (HG : bytes -> G1 C) (H : hasher C), bls_sizes C ->
  forall (pk : G2 C) (n : nat) (ms1 ms2 : list bytes) (A1 A2 : G1 C) (e1 s1 e2 s2 : Zr C) (idx : list nat) (zs : list Z) (nonce : bytes),
  length ms1 = n -> length ms2 = n -> (Z.of_nat n <= 65535)%Z -> gen0 HG pk n <> gzero ->
  bbs_signature pk (gen0 HG pk n) (gens HG pk n) A1 e1 s1 (map H ms1) -> A1 <> gzero ->
  bbs_signature pk (gen0 HG pk n) (gens HG pk n) A2 e2 s2 (map H ms2) -> A2 <> gzero ->
  idx <> [] -> increasing idx -> (forall i, In i idx -> i < n) -> Permutation zs (map Z.of_nat idx) ->
  (forall i, In i idx -> nth i ms1 [] = nth i ms2 []) ->
  let derive ms A e s := deriveProof HG H ms (g1_comp C A ++ zr_bytes C e ++ zr_bytes C s) nonce (g2_comp C pk) zs in
  exists f g : PoKRand C -> PoKRand C,
    (forall R, pr_r1 R <> z0 -> pr_r1 (f R) <> z0 /\ same_draws (g (f R)) R /\
       exists proof, derive ms1 A1 e1 s1 R = Ok proof /\ derive ms2 A2 e2 s2 (f R) = Ok proof) /\
    (forall R, pr_r1 R <> z0 -> pr_r1 (g R) <> z0 /\ same_draws (f (g R)) R /\
       exists proof, derive ms2 A2 e2 s2 R = Ok proof /\ derive ms1 A1 e1 s1 (g R) = Ok proof).
Proof.
  intros C OK HG H BS pk n ms1 ms2 A1 A2 e1 s1 e2 s2 idx zs nonce L1 L2 Hn HR V1 N1 V2 N2 NE I B P D derive.
  set (u := {| o_A := A1; o_e := e1; o_s := s1; o_ms := messagesToFr_from H 0 ms1 |}).
  set (v := {| o_A := A2; o_e := e2; o_s := s2; o_ms := messagesToFr_from H 0 ms2 |}).
  assert (U : HolderOk HG pk n u).
  { split; cbn [u o_ms o_A o_e o_s o_frs]; unfold o_frs; cbn [u o_ms]; [apply messagesToFr_numbered|rewrite messagesToFr_length; exact L1|rewrite messagesToFr_fr; exact V1|exact N1]. }
  assert (W : HolderOk HG pk n v).
  { split; cbn [v o_ms o_A o_e o_s o_frs]; unfold o_frs; cbn [v o_ms]; [apply messagesToFr_numbered|rewrite messagesToFr_length; exact L2|rewrite messagesToFr_fr; exact V2|exact N2]. }
  apply (@derive_hiding C OK HG H BS pk n idx zs nonce Hn HR NE I B P u v U W).
  intros i Hi. unfold o_frs, u, v. cbn [o_ms]. rewrite !messagesToFr_fr.
  rewrite !(nth_indep _ z0 (H [])) by (rewrite map_length; specialize (B i Hi); lia). rewrite !map_nth, (D i Hi). reflexivity.
Qed.
Print Assumptions C83_hiding.

Definition xb_ms2 : list bytes := [str "alice"; str "dave"; str "carol"].
Definition xb_A2 : G1 toy32 :=
  Eval vm_compute in (bbs_base (gen0 hg32 xb_pk 3) (gens hg32 xb_pk 3) (f10 : Zr toy32) (map h32 xb_ms2) ⊗ zinv (zadd xb_sk (f4 : Zr toy32))).
Example C83_example : bls_sizes toy32 /\ gen0 hg32 xb_pk 3 <> gzero /\
  bbs_signature xb_pk (gen0 hg32 xb_pk 3) (gens hg32 xb_pk 3) xb_A (f2 : Zr toy32) (f9 : Zr toy32) (map h32 xb_ms) /\ xb_A <> gzero /\
  bbs_signature xb_pk (gen0 hg32 xb_pk 3) (gens hg32 xb_pk 3) xb_A2 (f4 : Zr toy32) (f10 : Zr toy32) (map h32 xb_ms2) /\ xb_A2 <> gzero /\
  increasing [0; 2] /\ Permutation [2; 0]%Z (map Z.of_nat [0; 2]) /\
  (forall i, In i [0; 2] -> nth i xb_ms [] = nth i xb_ms2 []) /\ xb_ms <> xb_ms2.
Proof.
  split; [exact toy32_sizes|]. split; [apply zp_ne; vm_compute; reflexivity|]. split; [exact xb_sig|].
  split; [apply zp_ne; vm_compute; reflexivity|]. split; [vm_compute; reflexivity|]. split; [apply zp_ne; vm_compute; reflexivity|].
  split; [repeat constructor|]. split; [apply perm_swap|]. split; [|discriminate].
  intros i [<-|[<-|[]]]; reflexivity.
Qed.
