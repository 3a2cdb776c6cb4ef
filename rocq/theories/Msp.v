(** Model of /repo/msp: the membership service provider (MSP), its identities and roles.

    MSP objects are mutable and identities point to the MSP that made them, so operations run over a
    heap of MSP states and identities hold a location.  All MSP objects of one heap are of the same kind,
    dlog (NewIdemixMsp) or aries (NewIdemixMspAries), given by the environment.  The Go type of a
    curve element does not depend on the curve, hence one universe [U] for all curves.

    Simplifications: protobuf messages are records and their encodings abstract codecs; loggers and
    error texts are left out (except for the error kind Setup inspects); Role, OU and NymPublicKey
    of an identity are not changed by other code; Go's recursion depth is not limited. *)
From Verif Require Import Base Curve Dlog Bridge Csp.
Unset Strict Implicit.

(** ** msp/roles.go *)
(** 17-21 *)
Definition MEMBER : Z := 1.
Definition ADMIN : Z := 2.
Definition CLIENT : Z := 4.
Definition PEER : Z := 8.
(** 30-32 checkRole *)
Definition checkRole (bitmask role : Z) : bool := (Z.land bitmask role =? role)%Z.
(** 35-42 getRoleMaskFromIdemixRoles, 45-47 GetRoleMaskFromIdemixRole *)
Definition getRoleMaskFromIdemixRoles (roles : list Z) : Z := fold_left (fun mask r => Z.lor mask r) roles 0%Z.
Definition GetRoleMaskFromIdemixRole (role : Z) : Z := getRoleMaskFromIdemixRoles [role].
(** the enum MSPRole_MSPRoleType of the fabric protos *)
Definition MSPRole_MEMBER : Z := 0.
Definition MSPRole_ADMIN : Z := 1.
Definition MSPRole_CLIENT : Z := 2.
Definition MSPRole_PEER : Z := 3.
(** 60-73 getIdemixRoleFromMSPRoleValue *)
Definition getIdemixRoleFromMSPRoleValue (role : Z) : Z :=
  if (role =? MSPRole_ADMIN)%Z then ADMIN
  else if (role =? MSPRole_CLIENT)%Z then CLIENT
  else if (role =? MSPRole_MEMBER)%Z then MEMBER
  else if (role =? MSPRole_PEER)%Z then PEER
  else MEMBER.

(** ** Messages: msp/config/*.proto and the fabric protos *)
Record role_msg := { ro_mspid : bytes; ro_role : Z }.                              (* MSPRole *)
Record ou_msg := { ou_mspid : bytes; ou_id : bytes; ou_certifiers : bytes }.       (* OrganizationUnit *)
Record serialized := { si_mspid : bytes; si_bytes : bytes }.                       (* SerializedIdentity *)
Record idemix_serialized :=                                                        (* SerializedIdemixIdentity; None is nil *)
  { ii_nymx : option bytes; ii_nymy : option bytes; ii_ou : bytes; ii_role : bytes; ii_proof : bytes }.
Record principal := { pr_class : Z; pr_bytes : bytes }.                            (* MSPPrincipal *)
Record signer_config :=                                                            (* IdemixMSPSignerConfig *)
  { sc_cred : bytes; sc_sk : bytes; sc_ou : bytes; sc_role : Z; sc_eid : bytes; sc_cri : bytes; sc_rh : bytes; sc_curve : bytes }.
Record msp_config :=                                                               (* IdemixMSPConfig *)
  { cf_name : bytes; cf_ipk : bytes; cf_signer : option signer_config; cf_revpk : bytes; cf_epoch : Z; cf_curve : bytes }.
(** classification of principals: the enum MSPPrincipal_Classification *)
Definition P_ROLE : Z := 0.
Definition P_ORGANIZATION_UNIT : Z := 1.
Definition P_IDENTITY : Z := 2.
Definition P_ANONYMITY : Z := 3.
Definition P_COMBINED : Z := 4.
(** MSPIdentityAnonymityType *)
Definition NOMINAL : Z := 0.
Definition ANONYMOUS : Z := 1.

(** proto.Marshal and proto.Unmarshal of these messages; CombinedPrincipal is the list of its
    principals, MSPIdentityAnonymity its type *)
Record codecs := {
  c_role : codec role_msg; c_ou : codec ou_msg; c_si : codec serialized; c_ii : codec idemix_serialized;
  c_comb : codec (list principal); c_anon : codec Z; c_conf : codec msp_config; c_signer : codec signer_config
}.

(** idemixmsp.go 46-58, 74-83 *)
Definition attribute_names : list bytes := [str "OU"; str "Role"; str "EnrollmentID"; str "RevocationHandle"].
Definition FP256BN_AMCL : bytes := str "FP256BN_AMCL".
Definition BLS12_381_BBS : bytes := str "BLS12_381_BBS".
Definition BLS12_381_BBS_GURVY : bytes := str "BLS12_381_BBS_GURVY".
(** 62-71 *)
Definition MSPv1_1 : Z := 1.
Definition MSPv1_3 : Z := 2.
Definition rhIndex : Z := 3.
Definition eidIndex : Z := 2.
(** provider.go: FABRIC is 0 *)
Definition IDEMIX : Z := 1.
Definition IDEMIX_ARIES : Z := 2.

Section Msp.
  Variable U : universe.
  Variable CD : codecs.

  (** [ev_pack]: curveAndTranslator (idemixmsp.go 87-124), as the scheme and key functions built from
      the curve; None for an unknown curve identifier *)
  Record env := { ev_aries : bool; ev_pack : bytes -> option (scheme U * mathops U) }.
  Variable E : env.

  (** 729-739 Idemixidentity.  [i_raw] is NymPublicKey.Bytes(), which never changes; [i_id] the Mspid of
      its IdentityIdentifier, whose Id is [i_raw] *)
  Record identity := { i_nym : key U; i_raw : bytes; i_msp : nat; i_id : bytes; i_role : role_msg; i_ou : ou_msg; i_proof : bytes }.
  (** 858-864 IdemixSigningIdentity *)
  Record signing := { g_identity : identity; g_cred : bytes; g_user : key U; g_nym : key U; g_eid : bytes }.
  (** values of the interface Identity, by dynamic type *)
  Inductive ident := IdPlain (i : identity) | IdSigning (s : signing) | IdOther.

  (** 135-146 Idemixmsp; epoch is never assigned *)
  Record msp := { p_csp : option (CSP U); p_version : Z; p_ipk : option (key U); p_signer : option signing; p_name : bytes; p_revpk : option (key U) }.
  Definition p_epoch (m : msp) : Z := 0.
  Definition heap := list msp.

  (** 202-238: the constructors *)
  Definition NewIdemixMsp (version : Z) : msp :=
    {| p_csp := None; p_version := version; p_ipk := None; p_signer := None; p_name := []; p_revpk := None |}.

  Definition set_name (m : msp) (n : bytes) : msp :=
    {| p_csp := p_csp m; p_version := p_version m; p_ipk := p_ipk m; p_signer := p_signer m; p_name := n; p_revpk := p_revpk m |}.
  Definition set_csp (m : msp) (c : option (CSP U)) : msp :=
    {| p_csp := c; p_version := p_version m; p_ipk := p_ipk m; p_signer := p_signer m; p_name := p_name m; p_revpk := p_revpk m |}.
  Definition set_ipk (m : msp) (k : key U) : msp :=
    {| p_csp := p_csp m; p_version := p_version m; p_ipk := Some k; p_signer := p_signer m; p_name := p_name m; p_revpk := p_revpk m |}.
  Definition set_revpk (m : msp) (k : key U) : msp :=
    {| p_csp := p_csp m; p_version := p_version m; p_ipk := p_ipk m; p_signer := p_signer m; p_name := p_name m; p_revpk := Some k |}.
  Definition set_signer (m : msp) (s : signing) : msp :=
    {| p_csp := p_csp m; p_version := p_version m; p_ipk := p_ipk m; p_signer := Some s; p_name := p_name m; p_revpk := p_revpk m |}.

  (** msp.csp with its Dummy key store; imports are temporary *)
  Definition import (c : CSP U) (raw : bytes) (o : impopts U) : ires (key U) :=
    let+ r := fst (KeyImport (Dummy U unit) c tt (RBytes raw) (Some o)) in IOk (fst r).

  (** 745-763 newIdemixIdentity; a nym key whose Bytes fails panics *)
  Definition newIdemixIdentity (X : scheme U) (M : mathops U) (l : nat) (name : bytes) (nym : key U) (role : role_msg) (ou : ou_msg) (proof : bytes) : res identity :=
    match key_bytes X M nym with
    | Ok raw => Ok {| i_nym := nym; i_raw := raw; i_msp := l; i_id := name; i_role := role; i_ou := ou; i_proof := proof |}
    | _ => Panic
    end.

  (** 391-397: the attributes of the credential of the default signer *)
  Definition credential_attributes (ou : bytes) (role : Z) (eid : bytes) : list attribute :=
    [ {| at_type := BytesAttr; at_value := VBytes ou |};
      {| at_type := IntAttr; at_value := VInt (getIdemixRoleFromMSPRoleValue role) |};
      {| at_type := BytesAttr; at_value := VBytes eid |};
      {| at_type := HiddenAttr; at_value := VOther |} ].
  (** 415-420: the attributes shown by the association proof *)
  Definition disclosure : list attribute :=
    [ {| at_type := BytesAttr; at_value := VOther |}; {| at_type := IntAttr; at_value := VOther |};
      {| at_type := HiddenAttr; at_value := VOther |}; {| at_type := HiddenAttr; at_value := VOther |} ].
  (** 545-550: the attributes an association proof is verified against *)
  Definition identity_attributes (ou : bytes) (role : Z) : list attribute :=
    [ {| at_type := BytesAttr; at_value := VBytes ou |};
      {| at_type := IntAttr; at_value := VInt (getIdemixRoleFromMSPRoleValue role) |};
      {| at_type := HiddenAttr; at_value := VOther |}; {| at_type := HiddenAttr; at_value := VOther |} ].

  (** 411-424: options of the association proof *)
  Definition proof_opts (cred : bytes) (nym ipk : key U) (cri : bytes) : signer_opts U :=
    {| so_nym := Some nym; so_ipk := Some ipk; so_cred := cred; so_attrs := disclosure; so_rh := rhIndex; so_eid := eidIndex;
       so_sk := 0; so_cri := cri; so_epoch := 0; so_revpk := None; so_sigtype := Standard; so_meta := None; so_vertype := Basic |}.

  (** 267-282: the curve identifier *)
  Definition curve_id (conf : bytes) : option bytes :=
    if ev_aries E then
      if bytes_eqb conf [] || bytes_eqb conf BLS12_381_BBS then Some BLS12_381_BBS
      else if bytes_eqb conf BLS12_381_BBS_GURVY then Some conf else None
    else if bytes_eqb conf [] then Some FP256BN_AMCL else Some conf.

  (** 240-439 Setup on the MSP object at [l], from the point where the public keys are imported
      (351-438): the default signer *)
  Definition setup_signer (X : scheme U) (M : mathops U) (c : CSP U) (l : nat) (m : msp) (d1 d2 : u_draw U) (ipk : key U) (sg : signer_config) : res unit * msp :=
    match import c (sc_sk sg) (IUser true) with
    | IErr _ => (Err, m) | IPanic => (Panic, m)
    | IOk user =>
        match fst (KeyDeriv (Dummy U unit) c tt d1 (Some user) (Some (DNym true (Some ipk)))) with
        | Err => (Err, m) | Panic => (Panic, m)
        | Ok nym =>
            match key_public X M nym with
            | Err => (Err, m) | Panic => (Panic, m)
            | Ok nympk =>
                let role := {| ro_mspid := p_name m; ro_role := if checkRole (sc_role sg) ADMIN then MSPRole_ADMIN else MSPRole_MEMBER |} in
                let ou := {| ou_mspid := p_name m; ou_id := sc_ou sg; ou_certifiers := key_ski X M ipk |} in
                match csp_Verify c (Some user) (sc_cred sg) [] (Some (SCred (credential_attributes (sc_ou sg) (ro_role role) (sc_eid sg)) (Some ipk))) with
                | VPanic => (Panic, m)
                | Ret _ true => (Err, m)
                | Ret false false => (Err, m)
                | Ret true false =>
                    match csp_Sign c d2 (Some user) [] (Some (SSigner (proof_opts (sc_cred sg) nym ipk (sc_cri sg)))) with
                    | Err => (Err, m) | Panic => (Panic, m)
                    | Ok (proof, _) =>
                        match newIdemixIdentity X M l (p_name m) nympk role ou proof with
                        | Err => (Err, m) | Panic => (Panic, m)
                        | Ok i => (Ok tt, set_signer m {| g_identity := i; g_cred := sc_cred sg; g_user := user; g_nym := nym; g_eid := sc_eid sg |})
                        end
                    end
                end
            end
        end
    end.

  (** 311-331: which errors of the import of the issuer public key Setup returns; the others panic *)
  Definition import_failure (k : ikind) : res unit :=
    match k with
    | UnmarshallingError | HashError | ValidationError | NumAttributesError | AttributeNameError => Err
    | PlainError => Panic
    end.

  (** 240-349; [conf] is the type and the bytes of the MSPConfig, None the nil pointer; [d1] and [d2]
      the randomness of the pseudonym and of the association proof *)
  Definition setup_at (l : nat) (m : msp) (d1 d2 : u_draw U) (conf : option (Z * bytes)) : res unit * msp :=
    match conf with
    | None => (Err, m)
    | Some (ty, raw) =>
        match dec (c_conf CD) raw with
        | None => (Err, m)
        | Some cf =>
            let m := set_name m (cf_name cf) in
            if negb (ty =? (if ev_aries E then IDEMIX_ARIES else IDEMIX))%Z then (Err, m)
            else match curve_id (cf_curve cf) with
            | None => (Err, m)
            | Some cid =>
                match ev_pack E cid with
                | None => (Err, m)
                | Some (X, M) =>
                    match New X M false true with
                    | Err => (Err, set_csp m None) | Panic => (Panic, m)
                    | Ok c =>
                        let m := set_csp m (Some c) in
                        match import c (cf_ipk cf) (IIssuerPk true attribute_names 0 0 0 0 None) with
                        | IErr k => (import_failure k, m) | IPanic => (Panic, m)
                        | IOk ipk =>
                            let m := set_ipk m ipk in
                            match import c (cf_revpk cf) (IRevPk true) with
                            | IErr _ => (Err, m) | IPanic => (Panic, m)
                            | IOk revpk =>
                                let m := set_revpk m revpk in
                                match cf_signer cf with
                                | None => (Ok tt, m)
                                | Some sg => setup_signer X M c l m d1 d2 ipk sg
                                end
                            end
                        end
                    end
                end
            end
        end
    end.

  (** the heap with the object at [l] replaced *)
  Fixpoint put (h : heap) (l : nat) (m : msp) : heap :=
    match h, l with
    | [], _ => []
    | _ :: r, O => m :: r
    | x :: r, S l => x :: put r l m
    end.
  Definition Setup (h : heap) (l : nat) (d1 d2 : u_draw U) (conf : option (Z * bytes)) : res unit * heap :=
    match nth_error h l with
    | None => (Panic, h)
    | Some m => let '(r, m') := setup_at l m d1 d2 conf in (r, put h l m')
    end.

  (** 454-462 GetDefaultSigningIdentity *)
  Definition GetDefaultSigningIdentity (m : msp) : res signing := opt_err (p_signer m).

  (** 478-516 DeserializeIdentityInternal; [X] and [M] are those of the CSP, needed for the Bytes method
      of the imported key *)
  Definition DeserializeIdentityInternal (X : scheme U) (M : mathops U) (l : nat) (m : msp) (raw : bytes) : res identity :=
    let* s := opt_err (dec (c_ii CD) raw) in
    match ii_nymx s, ii_nymy s with
    | Some x, Some y =>
        let* c := deref (p_csp m) in
        let* nym := res_of (import c (x ++ y) (INymPk true)) in
        let* ou := opt_err (dec (c_ou CD) (ii_ou s)) in
        let* role := opt_err (dec (c_role CD) (ii_role s)) in
        newIdemixIdentity X M l (p_name m) nym role ou (ii_proof s)
    | _, _ => Err
    end.
  (** 464-476 DeserializeIdentity *)
  Definition DeserializeIdentity (X : scheme U) (M : mathops U) (l : nat) (m : msp) (raw : bytes) : res identity :=
    let* s := opt_err (dec (c_si CD) raw) in
    let* _ := guard (bytes_eqb (si_mspid s) (p_name m)) in
    DeserializeIdentityInternal X M l m (si_bytes s).
  (** 709-717 IsWellFormed; None is the nil pointer *)
  Definition IsWellFormed (s : option serialized) : res unit :=
    let* s := deref s in
    let* _ := opt_err (dec (c_ii CD) (si_bytes s)) in Ok tt.

  (** 537-561 verifyProof, on the MSP the identity points to *)
  Definition verify_opts (m : msp) (i : identity) : signer_opts U :=
    {| so_nym := None; so_ipk := None; so_cred := []; so_attrs := identity_attributes (ou_id (i_ou i)) (ro_role (i_role i));
       so_rh := rhIndex; so_eid := eidIndex; so_sk := 0; so_cri := []; so_epoch := p_epoch m; so_revpk := p_revpk m;
       so_sigtype := Standard; so_meta := None; so_vertype := Basic |}.
  Definition verifyProof (m : msp) (i : identity) : res unit :=
    let* c := deref (p_csp m) in
    match csp_Verify c (p_ipk m) (i_proof i) [] (Some (SSigner (verify_opts m i))) with
    | Ret _ true => Err
    | Ret true false => Ok tt
    | Ret false false => Panic
    | VPanic => Panic
    end.

  (** 775-779 GetMSPIdentifier *)
  Definition GetMSPIdentifier (h : heap) (i : identity) : res bytes :=
    let* m := deref (nth_error h (i_msp i)) in Ok (p_name m).

  (** 518-535 Validate, called on the MSP at [l] *)
  Definition Validate (h : heap) (l : nat) (id : ident) : res unit :=
    let* m := deref (nth_error h l) in
    let* i := match id with IdPlain i => Ok i | IdSigning s => Ok (g_identity s) | IdOther => Err end in
    let* n := GetMSPIdentifier h i in
    let* _ := guard (bytes_eqb n (p_name m)) in
    let* m' := deref (nth_error h (i_msp i)) in
    verifyProof m' i.

  (** 819-856 Serialize *)
  Definition Serialize (h : heap) (i : identity) : res bytes :=
    let half := Nat.div2 (length (i_raw i)) in
    let* ou := opt_err (enc (c_ou CD) (i_ou i)) in
    let* role := opt_err (enc (c_role CD) (i_role i)) in
    let* ib := opt_err (enc (c_ii CD) {| ii_nymx := Some (firstn half (i_raw i)); ii_nymy := Some (skipn half (i_raw i));
                                         ii_ou := ou; ii_role := role; ii_proof := i_proof i |}) in
    let* n := GetMSPIdentifier h i in
    opt_err (enc (c_si CD) {| si_mspid := n; si_bytes := ib |}).

  (** the type assertion [id.( *Idemixidentity)] *)
  Definition plain_identity (id : ident) : res identity := match id with IdPlain i => Ok i | _ => Panic end.
  Definition inner (id : ident) : res identity := match id with IdPlain i => Ok i | IdSigning s => Ok (g_identity s) | IdOther => Err end.

  (** 574-704 satisfiesPrincipalValidated on an MSP with the given name and version.  The recursion of
      COMBINED principals is bounded by [fuel]; PropsMsp.v shows that it does not run out. *)
  Fixpoint satisfiesPrincipalValidated (fuel : nat) (h : heap) (m : msp) (id : ident) (p : principal) : res unit :=
    if (pr_class p =? P_ROLE)%Z then
      let* r := opt_err (dec (c_role CD) (pr_bytes p)) in
      let* _ := guard (bytes_eqb (ro_mspid r) (p_name m)) in
      if (ro_role r =? MSPRole_MEMBER)%Z then Ok tt
      else if (ro_role r =? MSPRole_ADMIN)%Z then
        let* i := plain_identity id in guard (ro_role (i_role i) =? MSPRole_ADMIN)%Z
      else if (ro_role r =? MSPRole_PEER)%Z then
        if (p_version m >=? MSPv1_3)%Z then Err
        else (* fallthrough *) if (p_version m >=? MSPv1_3)%Z then Ok tt else Err
      else if (ro_role r =? MSPRole_CLIENT)%Z then
        if (p_version m >=? MSPv1_3)%Z then Ok tt else Err
      else Err
    else if (pr_class p =? P_IDENTITY)%Z then
      let* i := inner id in
      let* b := Serialize h i in
      guard (bytes_eqb b (pr_bytes p))
    else if (pr_class p =? P_ORGANIZATION_UNIT)%Z then
      let* o := opt_err (dec (c_ou CD) (pr_bytes p)) in
      let* _ := guard (bytes_eqb (ou_mspid o) (p_name m)) in
      let* i := plain_identity id in
      guard (bytes_eqb (ou_id o) (ou_id (i_ou i)))
    else if (pr_class p =? P_COMBINED)%Z then
      let* _ := guard (negb (p_version m <=? MSPv1_1)%Z) in
      let* ps := opt_err (dec (c_comb CD) (pr_bytes p)) in
      let* _ := guard (negb (length ps =? 0)) in
      match fuel with
      | O => Err
      | S fuel => fold_left (fun r cp => let* _ := r in satisfiesPrincipalValidated fuel h m id cp) ps (Ok tt)
      end
    else if (pr_class p =? P_ANONYMITY)%Z then
      let* _ := guard (negb (p_version m <=? MSPv1_1)%Z) in
      let* a := opt_err (dec (c_anon CD) (pr_bytes p)) in
      guard (a =? ANONYMOUS)%Z
    else Err.

  (** 563-570 SatisfiesPrincipal, called on the MSP at [l]; a nil principal panics *)
  Definition SatisfiesPrincipal (h : heap) (l : nat) (id : ident) (p : option principal) : res unit :=
    let* _ := Validate h l id in
    let* m := deref (nth_error h l) in
    let* p := deref p in
    satisfiesPrincipalValidated (length (pr_bytes p)) h m id p.

  (** 797-813 Verify (a signature of an identity), 866-882 Sign *)
  Definition nym_opts_of (m : msp) (nym : option (key U)) : nym_opts U :=
    {| no_nym := nym; no_ipk := p_ipk m; no_smartcard := false; no_card := None; no_nymeid := None; no_nymg1 := None; no_rnym := None; no_sk := 0 |}.
  Definition id_Verify (h : heap) (i : identity) (msg sig : bytes) : res unit :=
    let* m := deref (nth_error h (i_msp i)) in
    let* c := deref (p_csp m) in
    match csp_Verify c (Some (i_nym i)) sig msg (Some (SNym (nym_opts_of m None))) with
    | Ret _ failed => if failed then Err else Ok tt
    | VPanic => Panic
    end.
  Definition id_Sign (h : heap) (s : signing) (d : u_draw U) (msg : bytes) : res bytes :=
    let* m := deref (nth_error h (i_msp (g_identity s))) in
    let* c := deref (p_csp m) in
    let* r := csp_Sign c d (Some (g_user s)) msg (Some (SNym (nym_opts_of m (Some (g_nym s))))) in
    Ok (fst r).
End Msp.
