(** Specification vocabulary, independent of the Go code: what a credential, a pseudonym and
    an opening are.  Theorem statements use these notions next to the modelled functions. *)
From Verif Require Import Base Curve.

(** The public bases of an issuer: h_sk, h_rand, h_1..h_n in G1 and w in G2. *)
Record Bases (C : Curve) := {
  b_hsk : G1 C;
  b_hrand : G1 C;
  b_attrs : list (G1 C);
  b_w : G2 C
}.

(** The commitment under a BBS+ credential: g1 h_rand^s h_sk^sk prod h_i^(a_i). *)
Definition cred_base (C : Curve) (B : Bases C) (s sk : Zr C) (attrs : list (Zr C)) : G1 C :=
  genG1 C ⊕ (b_hrand B ⊗ s) ⊕ (b_hsk B ⊗ sk) ⊕ gdot (b_attrs B) attrs.

(** (A,e,s) is a BBS+ signature on (sk, attrs): e(w g2^e, A) = e(g2, cred_base). *)
Definition bbs_valid (C : Curve) (B : Bases C) (A : G1 C) (e s sk : Zr C) (attrs : list (Zr C)) : Prop :=
  pair C (b_w B ⊕ (genG2 C ⊗ e)) A = pair C (genG2 C) (cred_base B s sk attrs).

(** (m, r) opens the commitment [c] with respect to the bases [g], [h]. *)
Definition opens (C : Curve) (g h c : G1 C) (m r : Zr C) : Prop := c = (g ⊗ m) ⊕ (h ⊗ r).

(** The attribute vector agrees with the verifier's values at every disclosed position. *)
Definition agrees_on_disclosed (C : Curve) (disclosure : bytes) (values : list (option (Zr C)))
    (attrs : list (Zr C)) : Prop :=
  forall i d, nth_error disclosure i = Some d -> d <> b0 ->
    exists a, nth_error values i = Some (Some a) /\ nth_error attrs i = Some a.

(** The hash function maps two different known inputs to the same value. *)
Definition collision (C : Curve) (H : hasher C) (x y : bytes) : Prop := x <> y /\ H x = H y.

(** All pointers of a byte vector of flags *)
Definition hidden_at (disclosure : bytes) (i : nat) : Prop := nth_error disclosure i = Some b0.
Arguments opens {C}.
Arguments agrees_on_disclosed {C}.

(** The difference of two lists of disclosed values as an exponent vector: v1 - v2 at
    disclosed positions, 0 at hidden ones. *)
Fixpoint value_diff {C : Curve} (disc : bytes) (v1 v2 : list (option (Zr C))) : list (Zr C) :=
  match disc with
  | [] => []
  | d :: ds =>
      (if byte_eqb d b0 then z0
       else match v1, v2 with
            | Some a :: _, Some b :: _ => zsub a b
            | _, _ => z0
            end) :: value_diff ds (tl v1) (tl v2)
  end.
