(** The interface of the pairing library github.com/IBM/mathlib as used by /repo.

    mathlib itself is not part of the repository and is not modelled: a [Curve] is an
    arbitrary collection of operations, and [CurveOk] states the algebraic and encoding
    laws that are assumed of it.  Every theorem that needs a law has [CurveOk C] as an
    explicit hypothesis; Toy.v constructs an instance satisfying all of them. *)
From Verif Require Import Base.
From Coq Require Import Field Ring.

(** ** Scalars: math.Zr with ModAdd, ModMul, ModSub, ModNeg, InvModP, Equals (all modulo
    curve.GroupOrder). Simplification: a Zr is identified with its residue class. *)
Record scalars : Type := {
  zcar :> Type;
  z0 : zcar;
  z1 : zcar;
  zadd : zcar -> zcar -> zcar;
  zmul : zcar -> zcar -> zcar;
  zsub : zcar -> zcar -> zcar;
  zopp : zcar -> zcar;
  zinv : zcar -> zcar;
  zeqb : zcar -> zcar -> bool
}.
Arguments z0 {s}.
Arguments z1 {s}.
Arguments zadd {s}.
Arguments zmul {s}.
Arguments zsub {s}.
Arguments zopp {s}.
Arguments zinv {s}.
Arguments zeqb {s}.

(** ** Groups: math.G1, math.G2, math.Gt with Add, Neg/Sub, Mul, Equals, IsInfinity.
    All written additively; [gmul P k] is [P.Mul(k)] (Gt.Exp for the target group). *)
Record group (K : scalars) : Type := {
  gcar :> Type;
  gzero : gcar;
  gadd : gcar -> gcar -> gcar;
  gopp : gcar -> gcar;
  gmul : gcar -> K -> gcar;
  geqb : gcar -> gcar -> bool
}.
Arguments gzero {K g}.
Arguments gadd {K g}.
Arguments gopp {K g}.
Arguments gmul {K g}.
Arguments geqb {K g}.

Declare Scope grp_scope.
Delimit Scope grp_scope with grp.
Infix "⊕" := gadd (at level 50, left associativity) : grp_scope.
Infix "⊗" := gmul (at level 40, left associativity) : grp_scope.
Open Scope grp_scope.

(** [a.Sub(b)] *)
Definition gsub {K} {g : group K} (a b : g) : g := a ⊕ gopp b.
Infix "⊖" := gsub (at level 50, left associativity) : grp_scope.

(** [P.Mul2(a, Q, b)] = P^a Q^b *)
Definition gmul2 {K} {g : group K} (P : g) (a : K) (Q : g) (b : K) : g := (P ⊗ a) ⊕ (Q ⊗ b).

Declare Scope zr_scope.
Delimit Scope zr_scope with zr.
Infix "+" := zadd : zr_scope.
Infix "*" := zmul : zr_scope.
Infix "-" := zsub : zr_scope.
Notation "- x" := (zopp x) : zr_scope.

(** ** math.Curve *)
Record Curve : Type := {
  Zr : scalars;
  G1 : group Zr;
  G2 : group Zr;
  GT : group Zr;
  genG1 : G1;                       (* curve.GenG1 *)
  genG2 : G2;                       (* curve.GenG2 *)
  pair : G2 -> G1 -> GT;            (* curve.FExp(curve.Pairing(Q, P)) *)
  scalar_size : nat;                (* curve.ScalarByteSize *)
  coord_size : nat;                 (* curve.CoordByteSize *)
  g1_size : nat;                    (* curve.G1ByteSize *)
  g2_size : nat;                    (* curve.G2ByteSize *)
  g1_csize : nat;                   (* curve.CompressedG1ByteSize *)
  g2_csize : nat;                   (* curve.CompressedG2ByteSize *)
  zr_bytes : Zr -> bytes;           (* Zr.Bytes *)
  zr_of_bytes : bytes -> Zr;        (* curve.NewZrFromBytes *)
  zr_of_Z : Z -> Zr;                (* curve.NewZrFromInt *)
  g1_bytes : G1 -> bytes;           (* G1.Bytes *)
  g1_of_bytes : bytes -> option G1; (* curve.NewG1FromBytes *)
  g1_comp : G1 -> bytes;            (* G1.Compressed *)
  g1_of_comp : bytes -> option G1;  (* curve.NewG1FromCompressed *)
  g2_bytes : G2 -> bytes;           (* G2.Bytes *)
  g2_of_bytes : bytes -> option G2; (* curve.NewG2FromBytes *)
  g2_comp : G2 -> bytes;            (* G2.Compressed *)
  g2_of_comp : bytes -> option G2   (* curve.NewG2FromCompressed *)
}.

(** ** Assumed laws *)
Record ScalarsOk (K : scalars) : Prop := {
  sok_field : field_theory (@z0 K) z1 zadd zmul zsub zopp (fun a b => zmul a (zinv b)) zinv eq;
  sok_eqb : forall a b : K, zeqb a b = true <-> a = b
}.

Record GroupOk (K : scalars) (g : group K) : Prop := {
  gok_assoc : forall a b c : g, a ⊕ (b ⊕ c) = (a ⊕ b) ⊕ c;
  gok_comm : forall a b : g, a ⊕ b = b ⊕ a;
  gok_zero : forall a : g, gzero ⊕ a = a;
  gok_opp : forall a : g, a ⊕ gopp a = gzero;
  gok_mul_1 : forall a : g, a ⊗ z1 = a;
  gok_mul_add : forall (a : g) (j k : K), a ⊗ (zadd j k) = (a ⊗ j) ⊕ (a ⊗ k);
  gok_mul_mul : forall (a : g) (j k : K), a ⊗ (zmul j k) = (a ⊗ j) ⊗ k;
  gok_mul_gadd : forall (a b : g) (k : K), (a ⊕ b) ⊗ k = (a ⊗ k) ⊕ (b ⊗ k);
  (* prime order: every element other than the neutral one is a generator *)
  gok_cyclic : forall a b : g, a <> gzero -> exists k : K, b = a ⊗ k;
  gok_eqb : forall a b : g, geqb a b = true <-> a = b
}.

Record CurveOk (C : Curve) : Prop := {
  ok_zr : ScalarsOk (Zr C);
  ok_g1 : GroupOk (G1 C);
  ok_g2 : GroupOk (G2 C);
  ok_gt : GroupOk (GT C);
  ok_gen1 : genG1 C <> gzero;
  ok_gen2 : genG2 C <> gzero;
  ok_pair_add_l : forall (Q Q' : G2 C) (P : G1 C), pair C (Q ⊕ Q') P = pair C Q P ⊕ pair C Q' P;
  ok_pair_add_r : forall (Q : G2 C) (P P' : G1 C), pair C Q (P ⊕ P') = pair C Q P ⊕ pair C Q P';
  ok_pair_mul_l : forall (Q : G2 C) (P : G1 C) k, pair C (Q ⊗ k) P = pair C Q P ⊗ k;
  ok_pair_mul_r : forall (Q : G2 C) (P : G1 C) k, pair C Q (P ⊗ k) = pair C Q P ⊗ k;
  ok_pair_nondeg : pair C (genG2 C) (genG1 C) <> gzero;
  ok_sizes : scalar_size C <= g1_size C;
  ok_g1_size : g1_size C > 0;
  ok_zr_len : forall x, length (zr_bytes C x) = scalar_size C;
  ok_zr_rt : forall x, zr_of_bytes C (zr_bytes C x) = x;
  ok_g1_len : forall P, length (g1_bytes C P) = g1_size C;
  ok_g1_rt : forall P, g1_of_bytes C (g1_bytes C P) = Some P;
  ok_g1c_len : forall P, length (g1_comp C P) = g1_csize C;
  ok_g1c_rt : forall P, g1_of_comp C (g1_comp C P) = Some P;
  ok_g2_len : forall P, length (g2_bytes C P) = g2_size C;
  ok_g2_rt : forall P, g2_of_bytes C (g2_bytes C P) = Some P;
  ok_g2c_len : forall P, length (g2_comp C P) = g2_csize C;
  ok_g2c_rt : forall P, g2_of_comp C (g2_comp C P) = Some P;
  (* NewZrFromInt / NewZrFromBytes: the canonical ring map from the integers *)
  ok_of_Z_add : forall a b, zr_of_Z C (a + b)%Z = zadd (zr_of_Z C a) (zr_of_Z C b);
  ok_of_Z_mul : forall a b, zr_of_Z C (a * b)%Z = zmul (zr_of_Z C a) (zr_of_Z C b);
  ok_of_Z_1 : zr_of_Z C 1 = z1;
  ok_of_bytes : forall b, zr_of_bytes C b = zr_of_Z C (os2ip b)
}.

(** ** A hash function into the scalars: curve.HashToZr.  Left completely arbitrary. *)
Definition hasher (C : Curve) := bytes -> Zr C.

(** Sums of points and multi-exponentiations used in specifications. *)
Fixpoint gsum {K} {g : group K} (l : list g) : g :=
  match l with
  | [] => gzero
  | a :: l' => a ⊕ gsum l'
  end.

(** [gdot [P1..Pn] [k1..kn]] = P1^k1 ... Pn^kn (the shorter list decides). *)
Fixpoint gdot {K} {g : group K} (ps : list g) (ks : list K) : g :=
  match ps, ks with
  | p :: ps', k :: ks' => (p ⊗ k) ⊕ gdot ps' ks'
  | _, _ => gzero
  end.
