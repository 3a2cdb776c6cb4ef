(** The accessors of MSPs and identities, msp/idemixmsp.go. *)
From Verif Require Import Base Curve Dlog Bridge Csp Msp.
Unset Strict Implicit.

Section MspId.
  Variable U : universe.

  (** 442-452 GetVersion, GetType, GetIdentifier of an MSP *)
  Definition msp_GetVersion (m : msp U) : Z := p_version m.
  Definition msp_GetType (m : msp U) : Z := IDEMIX.
  Definition msp_GetIdentifier (m : msp U) : res bytes := Ok (p_name m).

  (** provider.go IdentityIdentifier and OUIdentifier *)
  Record identifier := { id_mspid : bytes; id_id : bytes }.
  Record ou_identifier := { oi_certifiers : bytes; oi_unit : bytes }.

  (** 741-743, 765-773: Anonymous; ExpiresAt is the zero time (None); GetIdentifier *)
  Definition id_Anonymous (i : identity U) : bool := true.
  Definition id_ExpiresAt (i : identity U) : option Z := None.
  Definition id_GetIdentifier (i : identity U) : identifier := {| id_mspid := i_id i; id_id := i_raw i |}.

  (** 781-791 GetOrganizationalUnits; a nil issuer key panics, one without bytes gives nil *)
  Definition id_GetOrganizationalUnits (X : scheme U) (M : mathops U) (h : heap U) (i : identity U) : res (list ou_identifier) :=
    let* m := deref (nth_error h (i_msp i)) in
    let* ipk := deref (p_ipk m) in
    match key_bytes X M ipk with
    | Ok b => Ok [{| oi_certifiers := b; oi_unit := ou_id (i_ou i) |}]
    | Err => Ok []
    | Panic => Panic
    end.

  (** 793-795, 815-817: Validate and SatisfiesPrincipal of an identity *)
  Definition id_Validate (h : heap U) (i : identity U) : res unit := Validate h (i_msp i) (IdPlain i).
  Definition id_SatisfiesPrincipal (CD : codecs) (h : heap U) (i : identity U) (p : option principal) : res unit :=
    SatisfiesPrincipal CD h (i_msp i) (IdPlain i) p.
  (** 884-886 GetPublicVersion *)
  Definition id_GetPublicVersion (s : signing U) : ident U := IdPlain (g_identity s).
End MspId.
