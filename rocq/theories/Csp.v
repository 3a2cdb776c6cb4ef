(** Model of /repo/bccsp/impl.go, /repo/bccsp/bccsp.go, /repo/bccsp/handlers, /repo/bccsp/keystore and
    the option types of /repo/bccsp/types: the cryptographic service provider (CSP) through which
    applications reach the dlog and aries schemes.

    The schemes appear as a record of functions with the signatures of /repo/bccsp/types/idemix.go;
    CspInst.v instantiates it with the models of Bridge.v and Aries.v.  Randomness is one extra
    argument [draw].  Simplifications: pointers to key and option structs are non-nil; the keys
    inside them are non-nil (the [nil] keys of bccsp.go only serve [reflect.TypeOf]); error texts
    are not modelled, except for the dynamic type of the error of the issuer public key importer,
    which /repo/msp inspects. *)
From Verif Require Import Base Curve Dlog Bridge.
Unset Strict Implicit.

(** ** Results that carry what the callers look at *)
(** types/idemixerrs.go 13-22, and every other error *)
Inductive ikind := PlainError | UnmarshallingError | HashError | ValidationError | NumAttributesError | AttributeNameError.
Inductive ires (A : Type) := IOk (a : A) | IErr (k : ikind) | IPanic.
Arguments IOk {A} a.
Arguments IErr {A} k.
Arguments IPanic {A}.
Definition ibind {A B} (m : ires A) (k : A -> ires B) : ires B :=
  match m with IOk a => k a | IErr e => IErr e | IPanic => IPanic end.
Definition plain {A} (m : res A) : ires A :=
  match m with Ok a => IOk a | Err => IErr PlainError | Panic => IPanic end.
Definition res_of {A} (m : ires A) : res A :=
  match m with IOk a => Ok a | IErr _ => Err | IPanic => Panic end.
Notation "'let+' x ':=' e 'in' k" := (ibind e (fun x => k))
  (at level 200, x name, e at level 100, k at level 200, right associativity).

(** The pair (valid, err) a Verify method returns: the boolean, and whether err is non-nil. *)
Inductive verdict := Ret (valid : bool) (failed : bool) | VPanic.
Definition accepted : verdict := Ret true false.
Definition rejected : verdict := Ret false true.

(** The Go types behind the interfaces of types/idemix.go *)
Record universe := {
  u_zr : Type; u_g1 : Type;
  u_isk : Type;            (* values of the interface IssuerSecretKey *)
  u_ipk : Type;            (* values of the interface IssuerPublicKey *)
  u_esk : Type; u_epk : Type;   (* ecdsa keys *)
  u_meta : Type; u_card : Type; u_bases : Type; u_draw : Type
}.

(** reflect.Type of the keys and options; [TOther] stands for types defined elsewhere *)
Inductive rtype :=
| TIssuerKeyGenOpts | TUserKeyGenOpts | TRevocationKeyGenOpts
| TUserSecretKey | TIssuerSecretKey | TRevocationSecretKey | TIssuerPublicKey | TNymPublicKey | TNymSecretKey | TRevocationPublicKey
| TUserImportOpts | TIssuerPkImportOpts | TIssuerImportOpts | TNymPkImportOpts | TNymImportOpts | TRevocationPkImportOpts | TRevocationImportOpts
| TOther (n : nat).
Definition rtype_eq_dec (a b : rtype) : {a = b} + {a <> b}.
Proof. decide equality. apply Nat.eq_dec. Defined.

Section Csp.
  Variable U : universe.
  Notation zr := (u_zr U).
  Notation g1 := (u_g1 U).
  Notation isk := (u_isk U).
  Notation ipk := (u_ipk U).
  Notation esk := (u_esk U).
  Notation epk := (u_epk U).
  Notation draw := (u_draw U).

  (** types/idemix.go 72-82 CredRequest, 84-95 BlindCredRequest, 191-203 SmartcardNymSignatureScheme *)
  Record cred_request := { cq_sign : draw -> zr -> ipk -> bytes -> res bytes; cq_verify : bytes -> ipk -> bytes -> res unit }.
  Record blind_request := { bq_blind : draw -> zr -> ipk -> bytes -> res (bytes * bytes); bq_verify : bytes -> ipk -> bytes -> res unit }.
  Record card_scheme := { cs_sign : draw -> u_card U -> ipk -> bytes -> res (bytes * g1 * zr); cs_verify : ipk -> g1 -> bytes -> bytes -> res unit }.

  (** types/idemix.go: all the interfaces implemented by a scheme.  A field of option type is nil
      in the struct literals of bccsp.go when the scheme does not offer the operation. *)
  Record scheme := {
    (* Issuer *)
    s_newIssuerKey : draw -> list bytes -> res isk;
    s_issuerKeyFromBytes : bytes -> list bytes -> res isk;
    s_issuerPkFromBytes : bytes -> list bytes -> ires ipk;
    s_bases : ipk -> Z -> Z -> Z -> Z -> res (u_bases U);
    s_iskBytes : isk -> res bytes;
    s_iskPublic : isk -> ipk;
    s_ipkBytes : ipk -> res bytes;
    s_ipkHash : ipk -> bytes;
    (* User *)
    s_newUserKey : draw -> res zr;
    s_userKeyFromBytes : bytes -> res zr;
    s_makeNym : draw -> zr -> ipk -> res (g1 * zr);
    s_nymFromBytes : bytes -> res (g1 * zr);
    s_publicNymFromBytes : bytes -> res g1;
    (* CredRequest, BlindCredRequest *)
    s_request : option cred_request;
    s_blind : option blind_request;
    (* Credential *)
    s_credSign : draw -> isk -> bytes -> list attribute -> res bytes;
    s_credVerify : zr -> ipk -> bytes -> list attribute -> res unit;
    (* Revocation *)
    s_revNewKey : draw -> res esk;
    s_revKeyFromBytes : bytes -> res esk;
    s_revSign : draw -> esk -> list bytes -> Z -> Z -> res bytes;
    s_revVerify : epk -> bytes -> Z -> Z -> res unit;
    (* SignatureScheme *)
    s_sign : draw -> bytes -> zr -> g1 -> zr -> ipk -> list attribute -> bytes -> Z -> Z -> bytes ->
             SignatureType -> option (u_meta U) -> res (bytes * option (u_meta U));
    s_verify : ipk -> bytes -> bytes -> list attribute -> Z -> Z -> Z -> option epk -> Z -> VerificationType ->
               option (u_meta U) -> res unit;
    s_auditEid : ipk -> Z -> Z -> bytes -> bytes -> option zr -> AuditType -> res unit;
    s_auditRh : ipk -> Z -> Z -> bytes -> bytes -> option zr -> AuditType -> res unit;
    (* NymSignatureScheme *)
    s_nymSign : draw -> zr -> g1 -> zr -> ipk -> bytes -> res bytes;
    s_nymVerify : ipk -> g1 -> bytes -> bytes -> Z -> res unit;
    (* SmartcardNymSignatureScheme *)
    s_card : option card_scheme
  }.

  (** mathlib, translator, hashing and x509 functions used by the key types *)
  Record mathops := {
    m_zrBytes : zr -> bytes;
    m_zrOfBytes : bytes -> zr;
    m_g1Bytes : g1 -> bytes;
    m_g1ToProto : g1 -> ecp;
    m_g1FromProto : option ecp -> res g1;
    m_sha256 : bytes -> bytes;
    m_eskBytes : esk -> bytes;             (* D.Bytes() *)
    m_eskPublic : esk -> epk;
    m_epkPoint : epk -> bytes;             (* elliptic.Marshal *)
    m_epkPkix : epk -> option bytes;       (* x509.MarshalPKIXPublicKey *)
    m_pemEpk : bytes -> option epk         (* pem.Decode, x509.ParsePKIXPublicKey, type assertion *)
  }.

  (** ** Keys: handlers/issuer.go 16-85, user.go 17-54, nym.go 18-109, revocation.go 23-122.
      The translator inside nym keys is the one of [mathops]. [KOther] is any other type. *)
  Inductive key :=
  | KIssuerSecret (sk : isk) (exportable : bool)
  | KIssuerPublic (pk : ipk)
  | KUserSecret (sk : zr) (exportable : bool)
  | KNymSecret (ski : bytes) (sk : zr) (pk : g1) (exportable : bool)
  | KNymPublic (pk : g1)
  | KRevSecret (sk : esk) (exportable : bool)
  | KRevPublic (pk : epk)
  | KOther (n : nat).

  Definition ktype (k : key) : rtype :=
    match k with
    | KIssuerSecret _ _ => TIssuerSecretKey
    | KIssuerPublic _ => TIssuerPublicKey
    | KUserSecret _ _ => TUserSecretKey
    | KNymSecret _ _ _ _ => TNymSecretKey
    | KNymPublic _ => TNymPublicKey
    | KRevSecret _ _ => TRevocationSecretKey
    | KRevPublic _ => TRevocationPublicKey
    | KOther n => TOther n
    end.

  (** ** Options: types/idemixopts.go *)
  (** 24-46 (IssuerKeyGen), 91-97 (UserSecretKeyGen), 366-373 (RevocationKeyGen) *)
  Inductive genopts :=
  | GIssuer (temporary : bool) (names : list bytes)
  | GUser (temporary : bool)
  | GRevocation (temporary : bool)
  | GOther (n : nat) (temporary : bool).
  (** 55-86, 102-108, 134-153, 378-395 *)
  Inductive impopts :=
  | IIssuerPk (temporary : bool) (names : list bytes) (request rhIndex eidIndex skIndex : Z) (bases : option (u_bases U))
  | IIssuer (temporary : bool) (names : list bytes)
  | IUser (temporary : bool)
  | INymPk (temporary : bool)
  | INym (temporary : bool)
  | IRevPk (temporary : bool)
  | IRev (temporary : bool)
  | IOther (n : nat) (temporary : bool).
  (** 114-131 *)
  Inductive dervopts :=
  | DNym (temporary : bool) (issuerPK : option key)
  | DOther (n : nat) (temporary : bool).

  Definition gtype (o : genopts) : rtype :=
    match o with GIssuer _ _ => TIssuerKeyGenOpts | GUser _ => TUserKeyGenOpts | GRevocation _ => TRevocationKeyGenOpts | GOther n _ => TOther n end.
  Definition itype (o : impopts) : rtype :=
    match o with
    | IIssuerPk _ _ _ _ _ _ _ => TIssuerPkImportOpts | IIssuer _ _ => TIssuerImportOpts | IUser _ => TUserImportOpts
    | INymPk _ => TNymPkImportOpts | INym _ => TNymImportOpts | IRevPk _ => TRevocationPkImportOpts | IRev _ => TRevocationImportOpts
    | IOther n _ => TOther n
    end.
  (** the Ephemeral methods *)
  Definition g_ephemeral (o : genopts) : bool :=
    match o with GIssuer t _ | GUser t | GRevocation t | GOther _ t => t end.
  Definition i_ephemeral (o : impopts) : bool :=
    match o with IIssuerPk t _ _ _ _ _ _ | IIssuer t _ | IUser t | INymPk t | INym t | IRevPk t | IRev t | IOther _ t => t end.
  Definition d_ephemeral (o : dervopts) : bool := match o with DNym t _ | DOther _ t => t end.

  (** 264-299 *)
  Record signer_opts := {
    so_nym : option key; so_ipk : option key; so_cred : bytes; so_attrs : list attribute;
    so_rh : Z; so_eid : Z; so_sk : Z; so_cri : bytes; so_epoch : Z; so_revpk : option key;
    so_sigtype : SignatureType; so_meta : option (u_meta U); so_vertype : VerificationType
  }.
  (** 332-359; [no_card] None is the nil interface *)
  Record nym_opts := {
    no_nym : option key; no_ipk : option key; no_smartcard : bool; no_card : option (u_card U);
    no_nymeid : option g1; no_nymg1 : option g1; no_rnym : option zr; no_sk : Z
  }.
  (** types/idemixopts.go 158-190, 222-232, 306-325, 402-408 *)
  Inductive sigopts :=
  | SSigner (o : signer_opts)
  | SNym (o : nym_opts)
  | SRequest (issuerPK : option key) (nonce : bytes)
  | SBlind (issuerPK : option key) (nonce blinding : bytes)
  | SCred (attrs : list attribute) (issuerPK : option key)
  | SCri (epoch alg : Z) (handles : list bytes)
  | SEidAudit (t : AuditType) (eidIndex : Z) (enrollmentID : bytes) (r : option zr) (skIndex : Z)
  | SRhAudit (t : AuditType) (rhIndex : Z) (handle : bytes) (r : option zr) (skIndex : Z)
  | SOther (n : nat).

  (** the argument raw of KeyImport *)
  Inductive rawval := RNil | RBytes (b : bytes) | ROther.

  (** impl.go 26-66: the handler interfaces.  Importers and signers may write to the options. *)
  Definition generator := draw -> genopts -> res key.
  Definition deriver := draw -> key -> dervopts -> res key.
  Definition importer := rawval -> impopts -> ires (key * impopts).
  Definition signer := draw -> key -> bytes -> option sigopts -> res (bytes * option sigopts).
  Definition verifier := key -> bytes -> bytes -> option sigopts -> verdict.

  (** ** impl.go 71-99: the CSP without its key store *)
  Record CSP := {
    gens : rtype -> option generator;
    ders : rtype -> option deriver;
    imps : rtype -> option importer;
    sigs : rtype -> option signer;
    vers : rtype -> option verifier
  }.
  Definition NewImpl : CSP :=
    {| gens := fun _ => None; ders := fun _ => None; imps := fun _ => None; sigs := fun _ => None; vers := fun _ => None |}.

  Definition upd {X} (m : rtype -> option X) (t : rtype) (x : X) : rtype -> option X :=
    fun t' => if rtype_eq_dec t' t then Some x else m t'.

  (** a wrapper value: the interfaces its dynamic type implements *)
  Record wrapper := {
    w_gen : option generator; w_imp : option importer; w_der : option deriver; w_sig : option signer; w_ver : option verifier
  }.

  (** impl.go 265-288 AddWrapper: the first matching case decides *)
  Definition AddWrapper (c : CSP) (t : option rtype) (w : option wrapper) : res CSP :=
    let* t := opt_err t in
    let* w := opt_err w in
    match w with
    | {| w_gen := Some g |} => Ok {| gens := upd (gens c) t g; ders := ders c; imps := imps c; sigs := sigs c; vers := vers c |}
    | {| w_imp := Some i |} => Ok {| gens := gens c; ders := ders c; imps := upd (imps c) t i; sigs := sigs c; vers := vers c |}
    | {| w_der := Some d |} => Ok {| gens := gens c; ders := upd (ders c) t d; imps := imps c; sigs := sigs c; vers := vers c |}
    | {| w_sig := Some s |} => Ok {| gens := gens c; ders := ders c; imps := imps c; sigs := upd (sigs c) t s; vers := vers c |}
    | {| w_ver := Some v |} => Ok {| gens := gens c; ders := ders c; imps := imps c; sigs := sigs c; vers := upd (vers c) t v |}
    | _ => Err
    end.

  (** types/crypto.go KeyStore; StoreKey returns whether it succeeded, and may have changed the
      store even when it did not *)
  Record keystore (S : Type) := { ks_store : S -> key -> S * bool; ks_get : S -> bytes -> res key }.

  Section Ops.
    Variable S : Type.
    Variable KS : keystore S.

    (** impl.go 118-123, 151-156, 184-189: [if !opts.Ephemeral() { csp.ks.StoreKey(k) ... }] *)
    Definition persist (ephemeral : bool) (k : key) (s : S) : S * bool :=
      if ephemeral then (s, true) else ks_store KS s k.

    (** impl.go 102-128 KeyGen *)
    Definition KeyGen (c : CSP) (s : S) (d : draw) (o : option genopts) : res key * S :=
      match o with
      | None => (Err, s)
      | Some o =>
          match gens c (gtype o) with
          | None => (Err, s)
          | Some g =>
              match g d o with
              | Ok k => match persist (g_ephemeral o) k s with (s', true) => (Ok k, s') | (s', false) => (Err, s') end
              | r => (r, s)
              end
          end
      end.

    (** impl.go 132-161 KeyDeriv *)
    Definition KeyDeriv (c : CSP) (s : S) (d : draw) (k : option key) (o : option dervopts) : res key * S :=
      match k, o with
      | Some k, Some o =>
          match ders c (ktype k) with
          | None => (Err, s)
          | Some dv =>
              match dv d k o with
              | Ok k' => match persist (d_ephemeral o) k' s with (s', true) => (Ok k', s') | (s', false) => (Err, s') end
              | r => (r, s)
              end
          end
      | _, _ => (Err, s)
      end.

    (** impl.go 165-194 KeyImport: the key and the options as left by the importer *)
    Definition KeyImport (c : CSP) (s : S) (raw : rawval) (o : option impopts) : ires (key * impopts) * S :=
      match raw, o with
      | RNil, _ | _, None => (IErr PlainError, s)
      | _, Some o =>
          match imps c (itype o) with
          | None => (IErr PlainError, s)
          | Some i =>
              match i raw o with
              | IOk r => match persist (i_ephemeral o) (fst r) s with (s', true) => (IOk r, s') | (s', false) => (IErr PlainError, s') end
              | r => (r, s)
              end
          end
      end.

    (** impl.go 198-205 GetKey *)
    Definition GetKey (s : S) (ski : bytes) : res key := ks_get KS s ski.
  End Ops.

  (** impl.go 213-234 (the base CSP) and bccsp.go 376-395 (csp, the type New returns): Sign *)
  Definition base_Sign (c : CSP) (d : draw) (k : option key) (digest : bytes) (o : option sigopts) : res (bytes * option sigopts) :=
    let* k := opt_err k in
    let* _ := guard (negb (length digest =? 0)) in
    let* sg := opt_err (sigs c (ktype k)) in
    sg d k digest o.
  Definition csp_Sign (c : CSP) (d : draw) (k : option key) (digest : bytes) (o : option sigopts) : res (bytes * option sigopts) :=
    let* k := opt_err k in
    let* sg := opt_err (sigs c (ktype k)) in
    sg d k digest o.

  (** impl.go 252-259, bccsp.go 412-419: a handler error forces the verdict false *)
  Definition forward (r : verdict) : verdict :=
    match r with
    | Ret _ true => rejected
    | r => r
    end.
  (** impl.go 237-260 *)
  Definition base_Verify (c : CSP) (k : option key) (signature digest : bytes) (o : option sigopts) : verdict :=
    match k with
    | None => rejected
    | Some k =>
        if length signature =? 0 then rejected
        else if length digest =? 0 then rejected
        else match vers c (ktype k) with
             | None => rejected
             | Some v => forward (v k signature digest o)
             end
    end.
  (** bccsp.go 399-419 *)
  Definition csp_Verify (c : CSP) (k : option key) (signature digest : bytes) (o : option sigopts) : verdict :=
    match k with
    | None => rejected
    | Some k =>
        if length signature =? 0 then rejected
        else match vers c (ktype k) with
             | None => rejected
             | Some v => forward (v k signature digest o)
             end
    end.

  (** ** Key methods *)
  Section Handlers.
  Variable X : scheme.
  Variable M : mathops.

  (** PublicKey(): issuer.go 52-56, 82-84; user.go 52-54; nym.go 69-73, 106-108; revocation.go 70-72, 119-121 *)
  Definition key_public (k : key) : res key :=
    match k with
    | KIssuerSecret sk _ => Ok (KIssuerPublic (s_iskPublic X sk))
    | KNymSecret _ _ pk _ => Ok (KNymPublic pk)
    | KRevSecret sk _ => Ok (KRevPublic (m_eskPublic M sk))
    | KUserSecret _ _ => Err
    | KOther _ => Err
    | k => Ok k
    end.

  (** Bytes(): issuer.go 27-33, 66-68; user.go 28-34; nym.go 46-52, 88-92; revocation.go 36-42, 84-91 *)
  Definition key_bytes (k : key) : res bytes :=
    match k with
    | KIssuerSecret sk e => if e then s_iskBytes X sk else Err
    | KIssuerPublic pk => s_ipkBytes X pk
    | KUserSecret sk e => if e then Ok (m_zrBytes M sk) else Err
    | KNymSecret _ sk _ e => if e then Ok (m_zrBytes M sk) else Err
    | KNymPublic pk => Ok (ex (m_g1ToProto M pk) ++ ey (m_g1ToProto M pk))
    | KRevSecret sk e => if e then Ok (m_eskBytes M sk) else Err
    | KRevPublic pk => opt_err (m_epkPkix M pk)
    | KOther _ => Err
    end.

  (** SKI(): issuer.go 35-42, 70-72; user.go 36-42; nym.go 54-59, 94-96; revocation.go 45-54, 94-103 *)
  Definition key_ski (k : key) : bytes :=
    match k with
    | KIssuerSecret sk _ => s_ipkHash X (s_iskPublic X sk)
    | KIssuerPublic pk => s_ipkHash X pk
    | KUserSecret sk _ => m_sha256 M (m_zrBytes M sk)
    | KNymSecret ski _ _ _ => ski
    | KNymPublic pk => m_sha256 M (m_g1Bytes M pk)
    | KRevSecret sk _ => m_sha256 M (m_epkPoint M (m_eskPublic M sk))
    | KRevPublic pk => m_sha256 M (m_epkPoint M pk)
    | KOther _ => []
    end.

  (** Private(): issuer.go 48-50, 78-80; user.go 48-50; nym.go 65-67, 102-104; revocation.go 64-66, 113-115 *)
  Definition key_private (k : key) : bool :=
    match k with KIssuerSecret _ _ | KUserSecret _ _ | KNymSecret _ _ _ _ | KRevSecret _ _ => true | _ => false end.

  (** nym.go 40-44 NewNymSecretKey *)
  Definition newNymSecretKey (sk : zr) (pk : g1) (e : bool) : key := KNymSecret (m_sha256 M (m_zrBytes M sk)) sk pk e.

  (** ** Key generation and derivation *)
  (** issuer.go 95-108 *)
  Definition h_IssuerKeyGen (e : bool) : generator := fun d o =>
    match o with
    | GIssuer _ names => let* k := s_newIssuerKey X d names in Ok (KIssuerSecret k e)
    | _ => Err
    end.
  (** user.go 64-71 *)
  Definition h_UserKeyGen (e : bool) : generator := fun d _ => let* k := s_newUserKey X d in Ok (KUserSecret k e).
  (** revocation.go 132-139 *)
  Definition h_RevocationKeyGen (e : bool) : generator := fun d _ => let* k := s_revNewKey X d in Ok (KRevSecret k e).
  (** nym.go 121-144 *)
  Definition h_NymKeyDerivation (e : bool) : deriver := fun d k o =>
    match k, o with
    | KUserSecret sk _, DNym _ (Some (KIssuerPublic pk)) =>
        let* '(nym, r) := s_makeNym X d sk pk in Ok (newNymSecretKey r nym e)
    | _, _ => Err
    end.

  (** [der, ok := raw.([]byte)] and the length check *)
  Definition raw_bytes (r : rawval) : ires bytes :=
    match r with
    | RBytes [] => IErr PlainError
    | RBytes b => IOk b
    | _ => IErr PlainError
    end.

  (** ** Key import *)
  (** issuer.go 116-148; CommitmentBasesRequest None is 0 *)
  Definition h_IssuerPublicKeyImporter : importer := fun raw o =>
    let+ der := raw_bytes raw in
    match o with
    | IIssuerPk t names req rh eid sk bases =>
        let+ pk := s_issuerPkFromBytes X der names in
        if (req =? 0)%Z then IOk (KIssuerPublic pk, o)
        else let+ b := plain (s_bases X pk req rh eid sk) in
             IOk (KIssuerPublic pk, IIssuerPk t names req rh eid sk (Some b))
    | _ => IErr PlainError
    end.
  (** issuer.go 159-183 *)
  Definition h_IssuerKeyImporter (e : bool) : importer := fun raw o =>
    let+ der := raw_bytes raw in
    match o with
    | IIssuer _ names => let+ sk := plain (s_issuerKeyFromBytes X der names) in IOk (KIssuerSecret sk e, o)
    | _ => IErr PlainError
    end.
  (** user.go 82-99 *)
  Definition h_UserKeyImporter (e : bool) : importer := fun raw o =>
    let+ der := raw_bytes raw in
    let+ sk := plain (s_userKeyFromBytes X der) in
    IOk (KUserSecret sk e, o).
  (** nym.go 154-181: a second attempt with the prefix 0x04 *)
  Definition h_NymPublicKeyImporter : importer := fun raw o =>
    let+ der := raw_bytes raw in
    let+ pk := plain (match s_publicNymFromBytes X der with
                      | Err => s_publicNymFromBytes X (Byte.x04 :: der)
                      | r => r
                      end) in
    IOk (KNymPublic pk, o).
  (** nym.go 192-209 *)
  Definition h_NymKeyImporter (e : bool) : importer := fun raw o =>
    let+ der := raw_bytes raw in
    let+ p := plain (s_nymFromBytes X der) in
    IOk (newNymSecretKey (snd p) (fst p) e, o).
  (** revocation.go 146-170 *)
  Definition h_RevocationPublicKeyImporter : importer := fun raw o =>
    let+ der := raw_bytes raw in
    let+ pk := plain (opt_err (m_pemEpk M der)) in
    IOk (KRevPublic pk, o).
  (** revocation.go 181-200 *)
  Definition h_RevocationKeyImporter (e : bool) : importer := fun raw o =>
    let+ der := raw_bytes raw in
    let+ sk := plain (s_revKeyFromBytes X der) in
    IOk (KRevSecret sk e, o).

  (** ** Signers *)
  (** signer.go 19-69 *)
  Definition h_Signer : signer := fun d k digest o =>
    match k, o with
    | KUserSecret sk _, Some (SSigner so) =>
        match so_ipk so, so_nym so with
        | Some (KIssuerPublic pk), Some (KNymSecret _ nsk npk _) =>
            let* '(sigma, meta) := s_sign X d (so_cred so) sk npk nsk pk (so_attrs so) digest (so_rh so) (so_eid so)
                                     (so_cri so) (so_sigtype so) (so_meta so) in
            Ok (sigma, Some (SSigner {| so_nym := so_nym so; so_ipk := so_ipk so; so_cred := so_cred so; so_attrs := so_attrs so;
                                        so_rh := so_rh so; so_eid := so_eid so; so_sk := so_sk so; so_cri := so_cri so;
                                        so_epoch := so_epoch so; so_revpk := so_revpk so; so_sigtype := so_sigtype so;
                                        so_meta := meta; so_vertype := so_vertype so |}))
        | _, _ => Err
        end
    | _, _ => Err
    end.

  (** nymsigner.go 19-79: in smartcard mode the key is not looked at *)
  Definition h_NymSigner : signer := fun d k digest o =>
    match o with
    | Some (SNym no) =>
        match no_ipk no with
        | Some (KIssuerPublic pk) =>
            if no_smartcard no then
              let* cs := opt_err (s_card X) in
              let* card := opt_err (no_card no) in
              let* '(sigma, nym, rnym) := cs_sign cs d card pk digest in
              Ok (sigma, Some (SNym {| no_nym := no_nym no; no_ipk := no_ipk no; no_smartcard := no_smartcard no; no_card := no_card no;
                                       no_nymeid := no_nymeid no; no_nymg1 := Some nym; no_rnym := Some rnym; no_sk := no_sk no |}))
            else
              match k, no_nym no with
              | KUserSecret sk _, Some (KNymSecret _ nsk npk _) =>
                  let* sigma := s_nymSign X d sk npk nsk pk digest in Ok (sigma, o)
              | _, _ => Err
              end
        | _ => Err
        end
    | _ => Err
    end.

  (** cred.go 20-38; a nil handler dereferences its receiver after the checks *)
  Definition h_CredentialRequestSigner (h : option cred_request) : signer := fun d k digest o =>
    match k, o with
    | KUserSecret sk _, Some (SRequest (Some (KIssuerPublic pk)) nonce) =>
        let* h := deref h in
        let* b := cq_sign h d sk pk nonce in Ok (b, o)
    | _, _ => Err
    end.
  (** cred.go 44-70 *)
  Definition h_BlindCredentialRequestSigner (h : option blind_request) : signer := fun d k digest o =>
    match k, o with
    | KUserSecret sk _, Some (SBlind (Some (KIssuerPublic pk)) nonce _) =>
        let* h := deref h in
        let* '(b, blinding) := bq_blind h d sk pk nonce in
        Ok (b, Some (SBlind (Some (KIssuerPublic pk)) nonce blinding))
    | _, _ => Err
    end.
  (** cred.go 121-137 *)
  Definition h_CredentialSigner : signer := fun d k digest o =>
    match k, o with
    | KIssuerSecret sk _, Some (SCred attrs _) => let* b := s_credSign X d sk digest attrs in Ok (b, o)
    | _, _ => Err
    end.
  (** revocation.go 206-222 *)
  Definition h_CriSigner : signer := fun d k digest o =>
    match k, o with
    | KRevSecret sk _, Some (SCri epoch alg handles) => let* b := s_revSign X d sk handles epoch alg in Ok (b, o)
    | _, _ => Err
    end.

  (** ** Verifiers *)
  (** [if err != nil { return false, err }; return true, nil] *)
  Definition verdict_of (r : res unit) : verdict :=
    match r with Ok _ => accepted | Err => rejected | Panic => VPanic end.
  Definition empty (b : bytes) : bool := length b =? 0.

  (** signer.go 75-104 *)
  Definition h_AuditNymEid : verifier := fun k signature digest o =>
    match k, o with
    | KIssuerPublic pk, Some (SEidAudit t eid value r sk) =>
        if empty signature then rejected else verdict_of (s_auditEid X pk eid sk signature value r t)
    | _, _ => rejected
    end.
  (** signer.go 106-135 *)
  Definition h_AuditNymRh : verifier := fun k signature digest o =>
    match k, o with
    | KIssuerPublic pk, Some (SRhAudit t rh value r sk) =>
        if empty signature then rejected else verdict_of (s_auditRh X pk rh sk signature value r t)
    | _, _ => rejected
    end.
  (** signer.go 137-186 *)
  Definition h_Verifier : verifier := fun k signature digest o =>
    match k, o with
    | KIssuerPublic pk, Some (SSigner so) =>
        match (match so_revpk so with
               | None => Ok None
               | Some (KRevPublic r) => Ok (Some r)
               | Some _ => Err
               end) with
        | Ok rpk =>
            if empty signature then rejected
            else verdict_of (s_verify X pk signature digest (so_attrs so) (so_rh so) (so_eid so) (so_sk so) rpk
                               (so_epoch so) (so_vertype so) (so_meta so))
        | _ => rejected
        end
    | _, _ => rejected
    end.
  (** cred.go 77-93 *)
  Definition h_CredentialRequestVerifier (h : option cred_request) : verifier := fun k signature digest o =>
    match k, o with
    | KIssuerPublic pk, Some (SRequest _ nonce) =>
        verdict_of (let* h := deref h in cq_verify h signature pk nonce)
    | _, _ => rejected
    end.
  (** cred.go 99-115 *)
  Definition h_BlindCredentialRequestVerifier (h : option blind_request) : verifier := fun k signature digest o =>
    match k, o with
    | KIssuerPublic pk, Some (SBlind _ nonce _) =>
        verdict_of (let* h := deref h in bq_verify h signature pk nonce)
    | _, _ => rejected
    end.
  (** cred.go 143-171 *)
  Definition h_CredentialVerifier : verifier := fun k signature digest o =>
    match k, o with
    | KUserSecret sk _, Some (SCred attrs (Some (KIssuerPublic pk))) =>
        if empty signature then rejected else verdict_of (s_credVerify X sk pk signature attrs)
    | _, _ => rejected
    end.
  (** nymsigner.go 86-142 *)
  Definition h_NymVerifier : verifier := fun k signature digest o =>
    match k, o with
    | KNymPublic nym, Some (SNym no) =>
        match no_ipk no with
        | Some (KIssuerPublic pk) =>
            if empty signature then rejected
            else if no_smartcard no then
              match s_card X, no_nymeid no with
              | Some cs, Some ne => verdict_of (cs_verify cs pk ne signature digest)
              | _, _ => rejected
              end
            else verdict_of (s_nymVerify X pk nym signature digest (no_sk no))
        | _ => rejected
        end
    | _, _ => rejected
    end.
  (** revocation.go 228-254 *)
  Definition h_CriVerifier : verifier := fun k signature digest o =>
    match k, o with
    | KRevPublic pk, Some (SCri epoch alg _) =>
        if empty signature then rejected else verdict_of (s_revVerify X pk signature epoch alg)
    | _, _ => rejected
    end.

  (** bccsp.go 429-442 *)
  Definition h_SignerMultiplexer : signer := fun d k digest o =>
    match o with
    | Some (SSigner _) => h_Signer d k digest o
    | Some (SNym _) => h_NymSigner d k digest o
    | Some (SRequest _ _) => h_CredentialRequestSigner (s_request X) d k digest o
    | Some (SBlind _ _ _) => h_BlindCredentialRequestSigner (s_blind X) d k digest o
    | _ => Err
    end.
  (** bccsp.go 450-466 *)
  Definition h_VerifierMultiplexer : verifier := fun k signature digest o =>
    match o with
    | Some (SEidAudit _ _ _ _ _) => h_AuditNymEid k signature digest o
    | Some (SRhAudit _ _ _ _ _) => h_AuditNymRh k signature digest o
    | Some (SSigner _) => h_Verifier k signature digest o
    | Some (SRequest _ _) => h_CredentialRequestVerifier (s_request X) k signature digest o
    | Some (SBlind _ _ _) => h_BlindCredentialRequestVerifier (s_blind X) k signature digest o
    | _ => rejected
    end.

  Definition w0 : wrapper := {| w_gen := None; w_imp := None; w_der := None; w_sig := None; w_ver := None |}.
  Definition wg g := {| w_gen := Some g; w_imp := None; w_der := None; w_sig := None; w_ver := None |}.
  Definition wi i := {| w_gen := None; w_imp := Some i; w_der := None; w_sig := None; w_ver := None |}.
  Definition wd d := {| w_gen := None; w_imp := None; w_der := Some d; w_sig := None; w_ver := None |}.
  Definition ws s := {| w_gen := None; w_imp := None; w_der := None; w_sig := Some s; w_ver := None |}.
  Definition wv v := {| w_gen := None; w_imp := None; w_der := None; w_sig := None; w_ver := Some v |}.

  (** bccsp.go 39-180 and 204-370: the registrations, in order *)
  Definition registrations (e : bool) : list (rtype * wrapper) :=
    [ (TIssuerKeyGenOpts, wg (h_IssuerKeyGen e));
      (TUserKeyGenOpts, wg (h_UserKeyGen e));
      (TRevocationKeyGenOpts, wg (h_RevocationKeyGen e));
      (TUserSecretKey, wd (h_NymKeyDerivation e));
      (TUserSecretKey, ws h_SignerMultiplexer);
      (TIssuerSecretKey, ws h_CredentialSigner);
      (TRevocationSecretKey, ws h_CriSigner);
      (TIssuerPublicKey, wv h_VerifierMultiplexer);
      (TNymPublicKey, wv h_NymVerifier);
      (TUserSecretKey, wv h_CredentialVerifier);
      (TRevocationPublicKey, wv h_CriVerifier);
      (TUserImportOpts, wi (h_UserKeyImporter e));
      (TIssuerPkImportOpts, wi h_IssuerPublicKeyImporter);
      (TIssuerImportOpts, wi (h_IssuerKeyImporter e));
      (TNymPkImportOpts, wi h_NymPublicKeyImporter);
      (TNymImportOpts, wi (h_NymKeyImporter e));
      (TRevocationPkImportOpts, wi h_RevocationPublicKeyImporter);
      (TRevocationImportOpts, wi (h_RevocationKeyImporter e)) ].

  (** bccsp.go 26-184 (New) and 186-373 (NewAries).  errors.Join runs every AddWrapper; a failing one
      makes the constructor fail, which [fold_res] renders by stopping. A nil key store is refused. *)
  Definition New (ks_nil : bool) (e : bool) : res CSP :=
    let* _ := guard (negb ks_nil) in
    fold_res (fun c r => AddWrapper c (Some (fst r)) (Some (snd r))) (registrations e) NewImpl.
  End Handlers.

  (** ** keystore/dummy.go 21-35 *)
  Definition Dummy (S : Type) : keystore S := {| ks_store := fun s _ => (s, false); ks_get := fun _ _ => Err |}.

  (** ** keystore/kvsbased.go *)
  (** 25-41 *)
  Record nym_entry := { ne_ski : bytes; ne_sk : bytes; ne_pk : option ecp; ne_exportable : bool }.
  Record user_entry := { ue_sk : bytes; ue_exportable : bool }.
  Record entry := { e_nym : option nym_entry; e_user : option user_entry }.

  (** 20-23 *)
  Record kvs (S : Type) := { kv_put : S -> bytes -> entry -> S * bool; kv_get : S -> bytes -> option entry }.

  (** encoding/hex.EncodeToString *)
  Definition hex_digit (n : N) : byte :=
    match Byte.of_N (if (n <? 10)%N then 48 + n else 87 + n)%N with Some b => b | None => b0 end.
  Definition hex (b : bytes) : bytes :=
    flat_map (fun x => [hex_digit (Byte.to_N x / 16); hex_digit (Byte.to_N x mod 16)]) b.

  Section KVS.
    Variable M : mathops.
    Variable S : Type.
    Variable KV : kvs S.

    (** the identifier and the entry of a key, 91-117 *)
    Definition key_entry (k : key) : option (bytes * entry) :=
      match k with
      | KNymSecret ski sk pk e =>
          Some (hex (m_sha256 M (m_g1Bytes M pk)),
                {| e_nym := Some {| ne_ski := ski; ne_sk := m_zrBytes M sk; ne_pk := Some (m_g1ToProto M pk); ne_exportable := e |};
                   e_user := None |})
      | KUserSecret sk e =>
          Some (hex (m_sha256 M (m_zrBytes M sk)),
                {| e_nym := None; e_user := Some {| ue_sk := m_zrBytes M sk; ue_exportable := e |} |})
      | _ => None
      end.

    (** 91-122 StoreKey *)
    Definition kvs_StoreKey (s : S) (k : key) : S * bool :=
      match key_entry k with
      | Some (id, e) => kv_put KV s id e
      | None => (s, false)
      end.

    (** 56-89 GetKey *)
    Definition kvs_GetKey (s : S) (ski : bytes) : res key :=
      let* e := opt_err (kv_get KV s (hex ski)) in
      match e_nym e, e_user e with
      | Some n, _ =>
          let* pk := m_g1FromProto M (ne_pk n) in
          Ok (KNymSecret (ne_ski n) (m_zrOfBytes M (ne_sk n)) pk (ne_exportable n))
      | None, Some u => Ok (KUserSecret (m_zrOfBytes M (ue_sk u)) (ue_exportable u))
      | None, None => Err
      end.

    Definition KVSStore : keystore S := {| ks_store := kvs_StoreKey; ks_get := kvs_GetKey |}.
  End KVS.
End Csp.

Arguments SCri {U}.
Arguments SOther {U}.
Arguments KOther {U}.
Arguments IIssuer {U}.
Arguments IUser {U}.
Arguments INymPk {U}.
Arguments INym {U}.
Arguments IRevPk {U}.
Arguments IRev {U}.
Arguments IOther {U}.
Arguments DOther {U}.

(** ** keystore/kvs/filebased.go: a directory of files *)
Definition dir := bytes -> option bytes.
Definition dput (d : dir) (name content : bytes) : dir := fun n => if bytes_eqb n name then Some content else d n.

(** The file system with the faults it will produce: each writing of a file consumes one element,
    [None] if all goes well, [Some n] if the write fails after [n] bytes (disk full, I/O error). *)
Record disk := { dk_files : dir; dk_faults : list (option nat) }.

Section FileKVS.
  (** encoding/json on the entry struct *)
  Variable json : codec entry.

  (** 39-52 Put: json.Marshal, then os.WriteFile, which opens the file with O_TRUNC and writes *)
  Definition file_put (k : disk) (id : bytes) (e : entry) : disk * bool :=
    match enc json e with
    | None => (k, false)
    | Some b =>
        match dk_faults k with
        | Some n :: fs => ({| dk_files := dput (dk_files k) id (firstn n b); dk_faults := fs |}, false)
        | None :: fs => ({| dk_files := dput (dk_files k) id b; dk_faults := fs |}, true)
        | [] => ({| dk_files := dput (dk_files k) id b; dk_faults := [] |}, true)
        end
    end.
  (** 54-68 Get *)
  Definition file_get (k : disk) (id : bytes) : option entry :=
    match dk_files k id with
    | Some b => dec json b
    | None => None
    end.
  Definition FileBased : kvs disk := {| kv_put := file_put; kv_get := file_get |}.

  (** What a crash while Put runs can leave of the directory: nothing done yet, or the file
      truncated and the first [n] bytes written. *)
  Inductive put_crash (d : dir) (id : bytes) (e : entry) : dir -> Prop :=
  | crash_before : put_crash d id e d
  | crash_writing b n : enc json e = Some b -> n <= length b -> put_crash d id e (dput d id (firstn n b)).
End FileKVS.
