(** What a smartcard signature is bound to, and what it hides. *)
From Verif Require Import Base Curve Algebra Spec Dlog Bridge BridgeFacts Bbs BbsSpec BbsFacts BbsProof BbsComplete Aries AriesSpec AriesIssue AriesNym.
From Coq Require Import Field Ring.
Unset Strict Implicit.

(** The bytes a card hashes: six points without their first byte, then the message. *)
Definition card_data (C : Curve) (h0 h1 h2 B T tau : G1 C) (msg : bytes) : bytes :=
  skipn 1 (g1_bytes C h0) ++ skipn 1 (g1_bytes C h1) ++ skipn 1 (g1_bytes C h2) ++
  skipn 1 (g1_bytes C B) ++ skipn 1 (g1_bytes C T) ++ skipn 1 (g1_bytes C tau) ++ msg.

(** A signature as it is sent: 16 bytes, two points, two scalars. *)
Definition card_bytes (C : Curve) (seed : bytes) (B T : G1 C) (x r : Zr C) : bytes :=
  seed ++ g1_bytes C B ++ g1_bytes C T ++ zr_bytes C x ++ zr_bytes C r.

Lemma gens_at (C : Curve) (HG : bytes -> G1 C) (pk : G2 C) n k : k <= n -> znth (BbsSpec.gens HG pk (n + 1)) (Z.of_nat k) = Ok (base_at HG pk n k).
Proof.
  intro L. apply znth_at. unfold base_at. destruct (nth_error (BbsSpec.gens HG pk (n + 1)) k) eqn:E.
  - rewrite (nth_error_nth _ _ _ E). reflexivity.
  - apply nth_error_None in E. rewrite gens_length in E. lia.
Qed.

Section Card.
  Context {C : Curve} (OK : CurveOk C).
  Variable sha256 : bytes -> bytes.
  Let KO := ok_zr OK.
  Let GO1 := ok_g1 OK.
  Add Field Kf_card : (sok_field KO).
  Notation zr := (zcar (Zr C)).
  Notation g1 := (gcar (G1 C)).

  Lemma sc_hash_data h0 h1 h2 B T tau msg : sc_hash sha256 h0 h1 h2 B T tau msg = zr_of_bytes C (sha256 (card_data h0 h1 h2 B T tau msg)).
  Proof. unfold sc_hash, card_data. cbn [map concat]. rewrite app_nil_r, <- !app_assoc. reflexivity. Qed.

  Lemma card_data_inj h0 h1 h2 B T tau1 tau2 m1 m2 : card_data h0 h1 h2 B T tau1 m1 = card_data h0 h1 h2 B T tau2 m2 ->
    skipn 1 (g1_bytes C tau1) = skipn 1 (g1_bytes C tau2) /\ m1 = m2.
  Proof.
    unfold card_data. intro E. do 5 apply app_inv_head in E. apply app_inj_len in E; [exact E|]. rewrite !skipn_length, !(ok_g1_len OK). reflexivity.
  Qed.

  (** acceptance in one equation *)
  Lemma card_verify_iff h0 h1 h2 proof tau msg B T x r : scParse C proof = Ok (B, T, x, r) ->
    (scNymVerify sha256 h0 h1 h2 proof tau msg = Ok tt <->
     (h0 ⊗ r) ⊕ (h1 ⊗ x) = T ⊕ (B ⊗ zr_of_bytes C (sha256 (card_data h0 h1 h2 B T tau msg)))).
  Proof.
    intro P. rewrite (scNymVerify_iff OK sha256). split.
    - intros (B' & T' & x' & r' & P' & E). rewrite P in P'. injection P' as <- <- <- <-. rewrite <- sc_hash_data. exact E.
    - intro E. exists B, T, x, r. split; [exact P|]. rewrite sc_hash_data. exact E.
  Qed.

  Lemma card_parse seed B T x r tail : length seed = 16 -> scParse C (card_bytes seed B T x r ++ tail) = Ok (B, T, x, r).
  Proof. exact (scParse_enc OK sha256 B T x r tail). Qed.

  (** one signature, two claims *)
  Lemma card_binding h0 h1 h2 proof tau1 tau2 m1 m2 B T x r : scParse C proof = Ok (B, T, x, r) -> B <> gzero ->
    scNymVerify sha256 h0 h1 h2 proof tau1 m1 = Ok tt -> scNymVerify sha256 h0 h1 h2 proof tau2 m2 = Ok tt ->
    zr_of_bytes C (sha256 (card_data h0 h1 h2 B T tau1 m1)) = zr_of_bytes C (sha256 (card_data h0 h1 h2 B T tau2 m2)).
  Proof.
    intros P NZ V1 V2. apply (card_verify_iff h0 h1 h2 tau1 m1 P) in V1. apply (card_verify_iff h0 h1 h2 tau2 m2 P) in V2.
    rewrite V1 in V2. apply (gadd_cancel_l GO1) in V2. exact (gmul_faithful KO GO1 _ _ NZ V2).
  Qed.

  (** the forger's signature for a point of its own choice *)
  Lemma card_forge (h0 h1 h2 : g1) seed tau msg (x r xt rt : zr) : length seed = 16 ->
    let B := (h0 ⊗ r) ⊕ (h1 ⊗ x) in
    let T := (h0 ⊗ rt) ⊕ (h1 ⊗ xt) in
    let c := zr_of_bytes C (sha256 (card_data h0 h1 h2 B T tau msg)) in
    forall tail, scNymVerify sha256 h0 h1 h2 (card_bytes seed B T (zadd xt (zmul c x)) (zadd rt (zmul c r)) ++ tail) tau msg = Ok tt.
  Proof.
    intros L B T c tail. apply (card_verify_iff h0 h1 h2 tau msg (card_parse B T (zadd xt (zmul c x)) (zadd rt (zmul c r)) tail L)).
    fold c. unfold B at 1. unfold T. clearbody c. gnorm KO GO1; ring.
  Qed.

  Lemma card_neutral (h0 h1 h2 : g1) seed tau msg : length seed = 16 ->
    scNymVerify sha256 h0 h1 h2 (card_bytes seed (gzero : G1 C) gzero z0 z0) tau msg = Ok tt.
  Proof.
    intro L. rewrite <- (app_nil_r (card_bytes _ _ _ _ _)). apply (card_verify_iff h0 h1 h2 tau msg (card_parse (gzero : G1 C) gzero z0 z0 [] L)).
    rewrite !(gmul_0 KO GO1), (gmul_zero GO1). reflexivity.
  Qed.

  (** hiding *)
  Lemma card_hiding (sc1 sc2 : Card C) msg a : sc_h0 sc1 = sc_h0 sc2 -> sc_h1 sc1 = sc_h1 sc2 -> sc_h2 sc1 = sc_h2 sc2 ->
    sc_h1 sc1 = sc_h0 sc1 ⊗ a -> snd (getNymEid sc1) = snd (getNymEid sc2) ->
    forall seed (xt rt : zr),
      let u := zsub (sc_uid sc1) (sc_uid sc2) in
      prf C (sc_k1 sc2) seed = zadd (prf C (sc_k1 sc1) seed) (zmul a u) ->
      exists c, scNymSign sha256 sc2 msg seed (zadd xt (zmul c u)) (zsub rt (zmul c (zmul a u))) = scNymSign sha256 sc1 msg seed xt rt.
  Proof.
    intros E0 E1 E2 A ET seed xt rt u EP. unfold u in *. clear u.
    set (u1 := sc_uid sc1) in *. set (u2 := sc_uid sc2) in *.
    unfold scNymSign. rewrite EP, <- E0, <- E1, <- E2, <- ET. fold u1 u2. set (r1 := prf C (sc_k1 sc1) seed).
    assert (EB : gmul2 (sc_h0 sc1) (zadd r1 (zmul a (zsub u1 u2))) (sc_h1 sc1) u2 = gmul2 (sc_h0 sc1) r1 (sc_h1 sc1) u1).
    { unfold gmul2. rewrite A. gnorm KO GO1; ring. }
    rewrite EB. set (B := gmul2 (sc_h0 sc1) r1 (sc_h1 sc1) u1). set (T := gmul2 (sc_h0 sc1) rt (sc_h1 sc1) xt). set (tau := snd _).
    exists (sc_hash sha256 (sc_h0 sc1) (sc_h1 sc1) (sc_h2 sc1) B T tau msg).
    set (c := sc_hash _ _ _ _ _ _ _ _).
    assert (ET' : gmul2 (sc_h0 sc1) (zsub rt (zmul c (zmul a (zsub u1 u2)))) (sc_h1 sc1) (zadd xt (zmul c (zsub u1 u2))) = T).
    { unfold T, gmul2. rewrite A. gnorm KO GO1; ring. }
    rewrite ET', !(sc_challenge_ok OK). cbn [bind]. fold c. f_equal. f_equal. f_equal. f_equal. f_equal; f_equal; ring.
  Qed.
End Card.

(** ** The generator of a card can put out any scalar but for a few *)
Lemma xor_byte_0 b : xor_byte b b0 = b.
Proof. destruct b; reflexivity. Qed.
Lemma xor_byte_inj a b c : xor_byte a b = xor_byte a c -> b = c.
Proof.
  unfold xor_byte. assert (R : forall x y, exists z, Byte.of_N (N.lxor (Byte.to_N x) (Byte.to_N y)) = Some z /\ Byte.to_N z = N.lxor (Byte.to_N x) (Byte.to_N y)).
  { intros x y. destruct (Byte.of_N (N.lxor (Byte.to_N x) (Byte.to_N y))) as [z|] eqn:E.
    - exists z. split; [reflexivity|]. apply Byte.to_of_N. exact E.
    - exfalso. apply Byte.of_N_None_iff in E. pose proof (Byte.to_N_bounded x) as BX. pose proof (Byte.to_N_bounded y) as BY.
      assert (L : (N.lxor (Byte.to_N x) (Byte.to_N y) < 2 ^ 8)%N); [|change (2 ^ 8)%N with 256%N in L; lia].
      destruct (N.eq_dec (N.lxor (Byte.to_N x) (Byte.to_N y)) 0) as [->|NZ]; [reflexivity|].
      apply N.log2_lt_pow2; [lia|]. eapply N.le_lt_trans; [apply N.log2_lxor|].
      assert (LL : forall n, (n <= 255)%N -> (N.log2 n < 8)%N).
      { intros n Ln. destruct (N.eq_dec n 0) as [->|Nn]; [reflexivity|]. apply N.log2_lt_pow2; [lia|]. change (2 ^ 8)%N with 256%N. lia. }
      apply N.max_lub_lt; apply LL; assumption. }
  destruct (R a b) as (z & -> & Z). destruct (R a c) as (w & -> & W). intros <-. rewrite Z in W.
  assert (Q : Byte.to_N b = Byte.to_N c).
  { rewrite <- (N.lxor_0_l (Byte.to_N b)), <- (N.lxor_0_l (Byte.to_N c)), <- (N.lxor_nilpotent (Byte.to_N a)), !N.lxor_assoc, W. reflexivity. }
  apply (f_equal Byte.of_N) in Q. rewrite !Byte.of_to_N in Q. injection Q as Q. exact Q.
Qed.
Lemma xor_bytes_0 b : forall n, length b = n -> xor_bytes b (zeros n) = b.
Proof.
  induction b as [|x b IH]; intros [|n] L; try discriminate L; [reflexivity|]. injection L as L. cbn. rewrite xor_byte_0. f_equal. exact (IH _ L).
Qed.
Lemma xor_bytes_inj a : forall b c, length b = length a -> length c = length a -> xor_bytes a b = xor_bytes a c -> b = c.
Proof.
  induction a as [|x a IH]; intros [|y b] [|z c] L1 L2 E; try discriminate L1; try discriminate L2; [reflexivity|].
  cbn in E. injection E as E1 E2. apply xor_byte_inj in E1. f_equal; [exact E1|]. apply IH; [| |exact E2]; [injection L1; auto|injection L2; auto].
Qed.
Lemma xor_bytes_length a : forall b, length b = length a -> length (xor_bytes a b) = length a.
Proof. induction a as [|x a IH]; intros [|y b] L; try discriminate L; [reflexivity|]. cbn. f_equal. apply IH. injection L; auto. Qed.

(** exchanging two blocks *)
Definition swap (a b x : bytes) : bytes := if bytes_eqb x a then b else if bytes_eqb x b then a else x.
Lemma swap_swap a b x : swap a b (swap a b x) = x.
Proof.
  unfold swap. destruct (bytes_eqb_spec x a) as [->|N1].
  - destruct (bytes_eqb_spec b a) as [->|N2]; [reflexivity|]. destruct (bytes_eqb_spec b b); [reflexivity|congruence].
  - destruct (bytes_eqb_spec x b) as [->|N2].
    + destruct (bytes_eqb_spec a a); [reflexivity|congruence].
    + destruct (bytes_eqb_spec x a); [congruence|]. destruct (bytes_eqb_spec x b); [congruence|reflexivity].
Qed.
Lemma swap_length a b x : length a = length b -> length (swap a b x) = length x.
Proof. intro L. unfold swap. destruct (bytes_eqb_spec x a) as [->|_]; [auto|]. destruct (bytes_eqb_spec x b) as [->|_]; auto. Qed.

Lemma prf_reach C (r : Zr C) seed y1 y2 : length seed = 16 -> length y1 = 16 -> length y2 = 16 ->
  zr_of_bytes C (y1 ++ y2) = r -> y1 <> zeros 16 -> y1 <> y2 ->
  exists K K', (forall b, K' (K b) = b /\ K (K' b) = b /\ length (K b) = length b) /\ prf C K seed = r.
Proof.
  intros LS L1 L2 E NZ NE. set (w := swap seed y1 (xor_bytes seed y1)).
  assert (LX : length (xor_bytes seed y1) = 16) by (rewrite xor_bytes_length; lia).
  assert (Lw : length w = 16) by (unfold w; rewrite swap_length; lia).
  exists (fun b => swap w y2 (swap seed y1 b)), (fun b => swap seed y1 (swap w y2 b)). split.
  - intro b. split; [rewrite !swap_swap; reflexivity|]. split; [rewrite !swap_swap; reflexivity|]. rewrite !swap_length; lia.
  - unfold prf. rewrite (xor_bytes_0 LS).
    assert (F : swap seed y1 seed = y1) by (unfold swap; destruct (bytes_eqb_spec seed seed); [reflexivity|congruence]).
    assert (NW : y1 <> w).
    { intro Q. unfold w in Q. rewrite <- F in Q at 1. apply (f_equal (swap seed y1)) in Q. rewrite !swap_swap in Q. apply NZ.
      apply (@xor_bytes_inj seed); [lia|rewrite zeros_length; lia|]. rewrite <- Q. symmetry. apply xor_bytes_0. exact LS. }
    rewrite F. assert (G : swap w y2 y1 = y1).
    { unfold swap. destruct (bytes_eqb_spec y1 w); [congruence|]. destruct (bytes_eqb_spec y1 y2); [congruence|reflexivity]. }
    rewrite G. fold w. assert (W : swap w y2 w = y2) by (unfold swap; destruct (bytes_eqb_spec w w); [reflexivity|congruence]).
    rewrite W. exact E.
Qed.
