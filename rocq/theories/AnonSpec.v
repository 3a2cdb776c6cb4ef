(** * What others see of a member of an MSP (C89)

    A member's session: an MSP is set up from the member's configuration, its default identity is
    serialized and sent, and the identity signs one message after the other.  The messages are chosen
    by the observer [adv] from everything seen so far. *)
From Verif Require Import Base Curve Dlog Bridge Csp Msp.
Unset Strict Implicit.

(** the signatures a signer [S] makes with the draws [ds], appended to what was seen *)
Fixpoint signs (Y : Type) (S : Y -> bytes -> res bytes) (adv : list bytes -> bytes) (seen : list bytes) (ds : list Y) : res (list bytes) :=
  match ds with
  | [] => Ok seen
  | d :: ds => let* sig := S d (adv seen) in signs S adv (seen ++ [sig]) ds
  end.

Section Session.
  Variable U : universe.
  Variable CD : codecs.
  Variable E : env U.
  Variable h : heap U.
  Variable l : nat.
  Variable conf : Z * bytes.

  (** Setup and GetDefaultSigningIdentity *)
  Definition enter (d1 d2 : u_draw U) : res (heap U * signing U) :=
    let '(r, h') := Setup CD E h l d1 d2 (Some conf) in
    let* _ := r in
    let* m := opt_err (nth_error h' l) in
    let* s := GetDefaultSigningIdentity m in
    Ok (h', s).

  Definition shown (d1 d2 : u_draw U) : res bytes := let* '(h', s) := enter d1 d2 in Serialize CD h' (g_identity s).
  Definition signed (d1 d2 d : u_draw U) (msg : bytes) : res bytes := let* '(h', s) := enter d1 d2 in id_Sign h' s d msg.

  Definition session (adv : list bytes -> bytes) (d1 d2 : u_draw U) (ds : list (u_draw U)) : res (list bytes) :=
    let* ser := shown d1 d2 in signs (signed d1 d2) adv [ser] ds.
End Session.
