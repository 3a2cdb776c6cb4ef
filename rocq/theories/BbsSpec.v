(** Specification vocabulary for BBS+, independent of the code in /repo/bbs. *)
From Verif Require Import Base Curve.
From Coq Require Import Sorting.Sorted.
Unset Strict Implicit.

(** The string hashed for generator number [i] (0 is the blinding generator) of a public key
    and a number of messages. *)
Definition gen_string (C : Curve) (pk : G2 C) (n i : nat) : bytes :=
  g2_bytes C pk ++ [b0] ++ i2osp 4 (Z.of_nat i) ++ [b0] ++ i2osp 4 (Z.of_nat n).

(** The generators h_0 and h_1 .. h_n. *)
Definition gen0 (C : Curve) (HG : bytes -> G1 C) (pk : G2 C) (n : nat) : G1 C := HG (gen_string pk n 0).
Definition gens (C : Curve) (HG : bytes -> G1 C) (pk : G2 C) (n : nat) : list (G1 C) :=
  map (fun i => HG (gen_string pk n i)) (seq 1 n).

(** g1 h_0^s h_1^(m_1) ... h_n^(m_n) *)
Definition bbs_base (C : Curve) (h0 : G1 C) (hs : list (G1 C)) (s : Zr C) (ms : list (Zr C)) : G1 C :=
  genG1 C ⊕ (h0 ⊗ s) ⊕ gdot hs ms.

(** (A, e, s) is a BBS+ signature on the scalars [ms] under the public key [w]:
    e(w g2^e, A) = e(g2, bbs_base). *)
Definition bbs_signature (C : Curve) (w : G2 C) (h0 : G1 C) (hs : list (G1 C)) (A : G1 C) (e s : Zr C) (ms : list (Zr C)) : Prop :=
  pair C (w ⊕ (genG2 C ⊗ e)) A = pair C (genG2 C) (bbs_base h0 hs s ms).

(** [ms] has the [j]-th element of [given] at the [j]-th position listed in [revealed]. *)
Definition reveals (A : Type) (revealed : list nat) (given ms : list A) : Prop :=
  forall j i, nth_error revealed j = Some i -> i < length ms -> nth_error given j = nth_error ms i.

(** Strictly increasing lists of positions. *)
Definition increasing (l : list nat) : Prop := StronglySorted lt l.

(** The message vector of length [n] (first position [i]) with [given] at the positions in
    [revealed] and [hidden] elsewhere, both consumed in order. *)
Fixpoint weave (A : Type) (i n : nat) (revealed : list nat) (given hidden : list A) : list A :=
  match n with
  | O => []
  | S n' =>
      if existsb (Nat.eqb i) revealed
      then match given with x :: given' => x :: weave (S i) n' revealed given' hidden | [] => [] end
      else match hidden with x :: hidden' => x :: weave (S i) n' revealed given hidden' | [] => [] end
  end.

(** Extraction from two transcripts that share the first message (A', Abar, d and the two
    commitments) and answer the distinct challenges [c1], [c2] with the responses [r1], [r2] for
    the randomised signature and [t1], [t2] for the messages: a signature (A, e, s) and the
    hidden messages. *)
Definition extract_at (K : scalars) (c1 c2 : K) (r1 r2 : list K) (i : nat) : K :=
  zmul (zsub (nth i r2 z0) (nth i r1 z0)) (zinv (zsub c1 c2)).
Definition extract_A (C : Curve) (aprime : G1 C) (c1 c2 : Zr C) (t1 t2 : list (Zr C)) : G1 C :=
  aprime ⊗ zopp (extract_at c1 c2 t1 t2 0).
Definition extract_e (C : Curve) (c1 c2 : Zr C) (r1 r2 : list (Zr C)) : Zr C := zopp (extract_at c1 c2 r1 r2 0).
Definition extract_s (C : Curve) (c1 c2 : Zr C) (r1 r2 t1 t2 : list (Zr C)) : Zr C :=
  zsub (extract_at c1 c2 t1 t2 1) (zmul (extract_at c1 c2 r1 r2 1) (extract_at c1 c2 t1 t2 0)).
Definition extract_hidden (C : Curve) (c1 c2 : Zr C) (t1 t2 : list (Zr C)) : list (Zr C) :=
  map (extract_at c1 c2 t1 t2) (seq 2 (length t1 - 2)).

(** Sizes of BLS12-381 as fixed in the library: 32-byte scalars (and compressed points whose
    size fits the 32-bit length fields). *)
Definition bls_sizes (C : Curve) : Prop := scalar_size C = 32 /\ (Z.of_nat (g1_csize C) < 2147483648)%Z.
