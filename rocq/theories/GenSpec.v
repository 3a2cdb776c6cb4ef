(** Specification side of the properties of idemixgen. *)
From Verif Require Import Base Curve Dlog Bridge Csp Msp Idemixgen.
Unset Strict Implicit.

(** a file system is a tree: what contains something is a directory *)
Definition tree (f : fs) : Prop := f [] = Some Dir /\ forall p x, f (p ++ [x]) <> None -> f p = Some Dir.

(** everything that [f] contains is in [f'], the same *)
Definition preserved (f f' : fs) : Prop := forall q n, f q = Some n -> f' q = Some n.

(** no file stands where a directory of [p] is needed *)
Definition clear_way (f : fs) (p : path) : Prop := forall i b, f (firstn i p) <> Some (File b).

(** two processes on one file system *)
Inductive both : fs * (prog * prog) -> fs * (prog * prog) -> Prop :=
| both_refl x : both x x
| both_left f g1 g2 f' g1' z : step false (f, g1) (f', g1') -> both (f', (g1', g2)) z -> both (f, (g1, g2)) z
| both_right f g1 g2 f' g2' z : step false (f, g2) (f', g2') -> both (f', (g1, g2')) z -> both (f, (g1, g2)) z.

(** the UTF-8 strings and the round trips of the two configuration messages *)
Definition canon_signer (utf8 : bytes -> Prop) (s : signer_config) : Prop := utf8 (sc_ou s) /\ utf8 (sc_eid s) /\ utf8 (sc_rh s) /\ utf8 (sc_curve s) /\ int32 (sc_role s).
Definition canon_conf (utf8 : bytes -> Prop) (c : msp_config) : Prop :=
  utf8 (cf_name c) /\ utf8 (cf_curve c) /\ int64 (cf_epoch c) /\ match cf_signer c with Some s => canon_signer utf8 s | None => True end.

(** the draws for which the credential is the neutral element, with probability 1/r *)
Definition credential_exponent (C : Curve) (R : IssuerRand C) (sk s : Zr C) (attrs : list (Zr C)) : Zr C :=
  fold_left zadd (map (fun p => zmul (ir_attrs R (fst p)) (snd p)) (combine (seq 0 (length attrs)) attrs))
            (zadd z1 (zadd (zmul (ir_hrand R) s) (zmul (ir_hsk R) sk))).
