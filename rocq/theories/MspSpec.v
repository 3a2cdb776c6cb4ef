(** Specifications for the properties of the MSP (C50 - C55, C63, C64).  Nothing here is used by the model. *)
From Verif Require Import Base Curve Dlog Bridge Csp CspSpec Msp.
Unset Strict Implicit.

(** ** C50: what the MSP documentation says a principal means for an identity with role [role],
    organizational unit [ou] and serialization [ser], under an MSP called [name] of version [version].
    The wire formats of the fabric protos are given by [CD]. *)
Section Principals.
  Variable CD : codecs.
  Variable name : bytes.
  Variable version : Z.
  Variables (role : Z) (ou : bytes) (ser : option bytes).

  Inductive holds : principal -> Prop :=
  | h_member p r : pr_class p = P_ROLE -> dec (c_role CD) (pr_bytes p) = Some r -> ro_mspid r = name ->
      ro_role r = MSPRole_MEMBER -> holds p
  | h_admin p r : pr_class p = P_ROLE -> dec (c_role CD) (pr_bytes p) = Some r -> ro_mspid r = name ->
      ro_role r = MSPRole_ADMIN -> role = MSPRole_ADMIN -> holds p
  | h_client p r : pr_class p = P_ROLE -> dec (c_role CD) (pr_bytes p) = Some r -> ro_mspid r = name ->
      ro_role r = MSPRole_CLIENT -> (MSPv1_3 <= version)%Z -> holds p
  | h_identity p : pr_class p = P_IDENTITY -> ser = Some (pr_bytes p) -> holds p
  | h_ou p o : pr_class p = P_ORGANIZATION_UNIT -> dec (c_ou CD) (pr_bytes p) = Some o -> ou_mspid o = name ->
      ou_id o = ou -> holds p
  | h_combined p ps : pr_class p = P_COMBINED -> (MSPv1_3 <= version)%Z -> dec (c_comb CD) (pr_bytes p) = Some ps ->
      ps <> [] -> Forall holds ps -> holds p
  | h_anonymous p : pr_class p = P_ANONYMITY -> (MSPv1_3 <= version)%Z -> dec (c_anon CD) (pr_bytes p) = Some ANONYMOUS -> holds p.
End Principals.

(** The encoding of a combined principal contains those of its parts. *)
Definition nested_shorter (CD : codecs) : Prop :=
  forall b ps p, dec (c_comb CD) b = Some ps -> In p ps -> length (pr_bytes p) < length b.

Definition res_opt {A} (r : res A) : option A := match r with Ok a => Some a | _ => None end.

(** the identity with another pseudonym key *)
Definition with_nym U (i : identity U) (nym : key U) (raw : bytes) : identity U :=
  {| i_nym := nym; i_raw := raw; i_msp := i_msp i; i_id := i_id i; i_role := i_role i; i_ou := i_ou i; i_proof := i_proof i |}.
(** the identity behind a value of the interface *)
Definition identity_of U (id : ident U) : option (identity U) :=
  match id with IdPlain i => Some i | IdSigning s => Some (g_identity s) | IdOther _ => None end.

(** the attributes an identity claims: the organizational unit and the role, with the enrollment
    identifier and revocation handle hidden *)
Definition claims (ou : bytes) (role : Z) : list attribute :=
  [ {| at_type := BytesAttr; at_value := VBytes ou |};
    {| at_type := IntAttr; at_value := VInt (getIdemixRoleFromMSPRoleValue role) |};
    {| at_type := HiddenAttr; at_value := VOther |}; {| at_type := HiddenAttr; at_value := VOther |} ].

(** [m] has been set up with the scheme [X], the issuer key [ipk] and the revocation key [r] *)
Definition ready U (X : scheme U) (M : mathops U) (m : msp U) (ipk : u_ipk U) (r : u_epk U) : Prop :=
  (exists c, p_csp m = Some c /\ New X M false true = Ok c) /\
  p_ipk m = Some (KIssuerPublic ipk) /\ p_revpk m = Some (KRevPublic r).

(** The observable configuration of an MSP: the name, version, keys, CSP and signer *)
Definition same_config U (m m' : msp U) : Prop :=
  p_name m' = p_name m /\ p_version m' = p_version m /\ p_ipk m' = p_ipk m /\ p_revpk m' = p_revpk m /\
  p_csp m' = p_csp m /\ p_signer m' = p_signer m.

(** ** C53: messages whose encoding is read back *)
Record codecs_ok (utf8 : bytes -> Prop) (CD : codecs) : Prop := {
  ok_role : forall r, utf8 (ro_mspid r) -> int32 (ro_role r) -> round_trips (c_role CD) r;
  ok_ou : forall o, utf8 (ou_mspid o) -> utf8 (ou_id o) -> round_trips (c_ou CD) o;
  ok_si : forall s, utf8 (si_mspid s) -> round_trips (c_si CD) s;
  (* an empty byte string is read back as nil *)
  ok_ii : forall i, (forall b, ii_nymx i = Some b -> b <> []) -> (forall b, ii_nymy i = Some b -> b <> []) -> round_trips (c_ii CD) i;
  ok_signer : forall s, utf8 (sc_ou s) -> utf8 (sc_eid s) -> utf8 (sc_rh s) -> utf8 (sc_curve s) -> int32 (sc_role s) -> round_trips (c_signer CD) s;
  ok_conf : forall f, utf8 (cf_name f) -> utf8 (cf_curve f) -> int64 (cf_epoch f) ->
    (forall s, cf_signer f = Some s -> utf8 (sc_ou s) /\ utf8 (sc_eid s) /\ utf8 (sc_rh s) /\ utf8 (sc_curve s) /\ int32 (sc_role s)) -> round_trips (c_conf CD) f
}.

(** ** The curve an MSP of the given kind uses for the curve id of its configuration: the one named, or
    by default FP256BN_AMCL for dlog and BLS12_381_BBS for aries, which supports two curves only *)
Definition configured_curve (aries : bool) (conf : bytes) : option bytes :=
  match aries, conf with
  | false, [] => Some (str "FP256BN_AMCL")
  | true, [] => Some (str "BLS12_381_BBS")
  | false, c => Some c
  | true, c => if bytes_eqb c (str "BLS12_381_BBS") || bytes_eqb c (str "BLS12_381_BBS_GURVY") then Some c else None
  end.
