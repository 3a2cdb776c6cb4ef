(** Model of /repo/bccsp/schemes/dlog/bridge (the byte-level API of the dlog scheme), of
    /repo/bccsp/schemes/dlog/crypto/revocation_authority.go, /repo/bccsp/schemes/aries/revocation.go
    and /repo/bccsp/schemes/weak-bb.

    [proto.Marshal]/[proto.Unmarshal] of each message is an abstract codec: encoding may fail
    ([None]) and decoding may fail.  crypto/ecdsa together with the ASN.1 signature encoding is an
    abstract signature scheme; sha256 is an abstract function. *)
From Verif Require Import Base Curve Dlog.
Unset Strict Implicit.

Record codec (X : Type) := { enc : X -> option bytes; dec : bytes -> option X }.

(** The decoder returns the encoded message *)
Definition round_trips X (c : codec X) (x : X) : Prop := exists b, enc c x = Some b /\ dec c b = Some x.

(** A Go interface value asserted to be of a pointer type: another dynamic type (or nil
    interface), or the expected type.  The struct behind the pointer holds again a pointer; a nil
    pointer at either level panics when dereferenced and is merged into [Some None]. *)
Definition iface (X : Type) := option (option X).

(** types/idemixopts.go: IdemixAttribute. The dynamic types the code distinguishes in [Value]. *)
Inductive attr_value := VBytes (b : bytes) | VInt (z : Z) | VInt64 (z : Z) | VOther.
Inductive attr_type := HiddenAttr | BytesAttr | IntAttr | OtherAttr.
Record attribute := { at_type : attr_type; at_value : attr_value }.

Inductive AuditType := AuditExpectSignature | AuditExpectEidNym | AuditExpectEidNymRhNym | AuditOther.

(** crypto/ecdsa on P384 with ASN.1 encoded signatures *)
Record ecdsa := {
  ec_sk : Type;
  ec_pk : Type;
  ec_sign : ec_sk -> bytes -> option bytes;       (* key.Sign(rand.Reader, digest, nil) *)
  ec_verify : ec_pk -> bytes -> bytes -> bool     (* asn1.Unmarshal succeeds and ecdsa.Verify *)
}.

Section Bridge.
  Variable C : Curve.
  Variable H : hasher C.
  Variable T : translator C.
  Notation zr := (zcar (Zr C)).
  Notation g1 := (gcar (G1 C)).

  (** the protobuf codecs of the five messages *)
  Variable c_ipk : codec IssuerPublicKey.
  Variable c_ik : codec IssuerKey.
  Variable c_req : codec CredRequest.
  Variable c_cred : codec Credential.
  Variable c_sig : codec Signature.
  Variable c_nsig : codec NymSignature.
  Variable c_cri : codec CRI.

  (** curve.NewZrFromInt *)
  Definition zr_of_int (z : Z) : zr := zr_of_Z C z.

  (** ** issuer.go *)

  (** issuer.go 49-65 NewKey *)
  Definition brNewKey (names : list bytes) (R : IssuerRand C) : res IssuerKey :=
    recover (newIssuerKey H T (enc c_ipk) names R).

  (** issuer.go 67-83 NewKeyFromBytes; crypto/issuerkey.go 123-136. The attributes are ignored. *)
  Definition brNewKeyFromBytes (raw : bytes) (attributes : list bytes) : res IssuerKey :=
    recover (opt_err (dec c_ik raw)).

  (** issuer.go 85-87 Bases *)
  Definition brBases (ipk : iface IssuerPublicKey) (req : Z) (rhIndex eidIndex skIndex : Z) : res unit := Panic.

  (** issuer.go 132-139: [for i, attr := range attributes { if ipk.AttributeNames[i] != attr ... }] *)
  Fixpoint names_match (i : nat) (attributes names : list bytes) : res unit :=
    match attributes with
    | [] => Ok tt
    | a :: rest =>
        let* n := nth_res names i in
        let* _ := guard (bytes_eqb n a) in
        names_match (S i) rest names
    end.

  (** issuer.go 89-145 NewPublicKeyFromBytes *)
  Definition brNewPublicKeyFromBytes (raw : bytes) (attributes : list bytes) : res IssuerPublicKey :=
    recover (
      let* ipk := opt_err (dec c_ipk raw) in
      let* ipk := setHash H (enc c_ipk) ipk in
      let* ipk := checkIPK H T (enc c_ipk) ipk in
      let* _ := if length attributes =? 0 then Ok tt
                else let* _ := guard (length attributes =? length (ip_names ipk)) in
                     names_match 0 attributes (ip_names ipk) in
      Ok ipk).

  (** issuer.go 21-23 IssuerPublicKey.Bytes *)
  Definition brPublicKeyBytes (ipk : IssuerPublicKey) : res bytes := opt_err (enc c_ipk ipk).
  (** issuer.go 34-36 IssuerSecretKey.Bytes *)
  Definition brSecretKeyBytes (key : IssuerKey) : res bytes := opt_err (enc c_ik key).

  (** ** user.go *)

  (** user.go 36-44 NewKeyFromBytes (no recover) *)
  Definition brUserKeyFromBytes (raw : bytes) : res zr :=
    let* _ := guard (length raw =? scalar_size C) in
    Ok (zr_of_bytes C raw).

  (** user.go 47-67 MakeNym *)
  Definition brMakeNym (sk : option zr) (ipk : iface IssuerPublicKey) (rnd : zr) : res (g1 * zr) :=
    recover (
      let* ipk := opt_err ipk in
      let* ipk := deref ipk in
      let* sk := deref sk in
      makeNym T sk ipk rnd).

  (** user.go 70-84 NewNymFromBytes *)
  Definition brNymFromBytes (raw : bytes) : res (g1 * zr) := recover (makeNymFromBytes T raw).

  (** user.go 86-97 NewPublicNymFromBytes *)
  Definition brPublicNymFromBytes (raw : bytes) : res g1 := recover (g1_from_raw T raw).

  (** ** credrequest.go *)

  (** credrequest.go 28-56 Sign *)
  Definition brRequestSign (sk : option zr) (ipk : iface IssuerPublicKey) (nonce : bytes) (rSk : zr) : res bytes :=
    recover (
      let* ipk := opt_err ipk in
      let* _ := guard (length nonce =? scalar_size C) in
      let* ipk := deref ipk in
      let* sk := deref sk in
      let* req := newCredRequest H T sk (Some nonce) ipk rSk in
      opt_err (enc c_req req)).

  (** credrequest.go 60-92 Verify *)
  Definition brRequestVerify (raw : bytes) (ipk : iface IssuerPublicKey) (nonce : bytes) : res unit :=
    recover (
      let* req := opt_err (dec c_req raw) in
      let* ipk := opt_err ipk in
      let* ipk := deref ipk in
      let* _ := checkCredRequest H T req ipk in
      let* _ := guard (length nonce =? scalar_size C) in
      guard (bytes_eqb nonce (ob (rq_nonce req)))).

  (** ** credential.go *)

  (** credential.go 56-64, 109-116 and signaturescheme.go 243-250: the int cases *)
  Definition int_value (v : attr_value) : res Z :=
    match v with VInt z | VInt64 z => Ok z | _ => Err end.
  (** attributes[i].Value.([]byte): a failing type assertion panics *)
  Definition bytes_value (v : attr_value) : res bytes :=
    match v with VBytes b => Ok b | _ => Panic end.

  (** credential.go 51-68: one attribute at issuance *)
  Definition issue_value (a : attribute) : res zr :=
    match at_type a with
    | BytesAttr => let* b := bytes_value (at_value a) in Ok (H b)
    | IntAttr => let* z := int_value (at_value a) in Ok (zr_of_int z)
    | _ => Err
    end.

  (** credential.go 31-76 Sign *)
  Definition brCredSign (key : iface IssuerKey) (request : bytes) (attributes : list attribute) (E S : zr)
    : res bytes :=
    recover (
      let* key := opt_err key in
      let* req := opt_err (dec c_req request) in
      let* vals := map_res issue_value attributes in
      let* key := deref key in
      let* cred := newCredential H T key req vals E S in
      opt_err (enc c_cred cred)).

  (** credential.go 100-128: the attribute comparison loop of Verify *)
  Fixpoint attrs_match (i : nat) (attributes : list attribute) (cred : Credential) : res unit :=
    match attributes with
    | [] => Ok tt
    | a :: rest =>
        let* _ :=
          match at_type a with
          | BytesAttr =>
              let* b := bytes_value (at_value a) in
              let* x := nth_res (cr_attrs cred) i in
              guard (bytes_eqb (zr_bytes C (H b)) (ob x))
          | IntAttr =>
              let* z := int_value (at_value a) in
              let* x := nth_res (cr_attrs cred) i in
              guard (bytes_eqb (zr_bytes C (zr_of_int z)) (ob x))
          | HiddenAttr => Ok tt
          | OtherAttr => Err
          end in
        attrs_match (S i) rest cred
    end.

  (** credential.go 82-131 Verify *)
  Definition brCredVerify (sk : option zr) (ipk : iface IssuerPublicKey) (credential : bytes)
      (attributes : list attribute) : res unit :=
    recover (
      let* ipk := opt_err ipk in
      let* cred := opt_err (dec c_cred credential) in
      let* _ := attrs_match 0 attributes cred in
      let* ipk := deref ipk in
      let* sk := deref sk in
      verCredential T cred sk ipk).

  (** ** signaturescheme.go *)

  (** signaturescheme.go 55-62 *)
  Definition sign_disclosure (attributes : list attribute) : bytes :=
    map (fun a => match at_type a with HiddenAttr => Byte.x00 | _ => Byte.x01 end) attributes.

  (** signaturescheme.go 29-90 Sign *)
  Definition brSign (cred : bytes) (sk : option zr) (Nym : option g1) (RNym : option zr)
      (ipk : iface IssuerPublicKey) (attributes : list attribute) (msg : bytes) (rhIndex eidIndex : Z)
      (criRaw : bytes) (R : SigRand C) (st : SignatureType) (meta : option (Metadata C))
    : res (bytes * option (Metadata C)) :=
    recover (
      let* ipk := opt_err ipk in
      let* credential := opt_err (dec c_cred cred) in
      let* cri := opt_err (dec c_cri criRaw) in
      let* r := NewSignature H T (Some credential) sk Nym RNym ipk (sign_disclosure attributes) msg
                  rhIndex eidIndex (Some cri) R st meta in
      let* b := opt_err (enc c_sig (fst r)) in
      Ok (b, snd r)).

  (** signaturescheme.go 232-260: disclosure flag and value of one attribute. (The default branch
      records an error that is returned after the loop; a later panic is turned into an error by
      the enclosing recover, so returning the error at once is the same.) *)
  Definition verify_value (a : attribute) : res (byte * option zr) :=
    match at_type a with
    | HiddenAttr => Ok (Byte.x00, None)
    | BytesAttr => let* b := bytes_value (at_value a) in Ok (Byte.x01, Some (H b))
    | IntAttr => let* z := int_value (at_value a) in Ok (Byte.x01, Some (zr_of_int z))
    | OtherAttr => Err
    end.

  (** signaturescheme.go 206-276 Verify *)
  Definition brVerify (ipk : iface IssuerPublicKey) (signature digest : bytes) (attributes : list attribute)
      (rhIndex eidIndex : Z) {revpk : Type} (revPk : revpk) (epoch : Z) (vt : VerificationType)
      (meta : option (Metadata C)) : res unit :=
    recover (
      let* ipk := opt_err ipk in
      let* sig := opt_err (dec c_sig signature) in
      let* vs := map_res verify_value attributes in
      Ver H T sig (map fst vs) ipk digest (map snd vs) rhIndex eidIndex revPk epoch vt meta).

  (** signaturescheme.go 93-147 AuditNymEid (the nil *math.Zr argument panics when used) *)
  Definition brAuditNymEid (ipk : iface IssuerPublicKey) (eidIndex : Z) (signature enrollmentID : bytes)
      (RNymEid : option zr) (vt : AuditType) : res unit :=
    recover (
      let* ipk := opt_err ipk in
      let eidAttr := H enrollmentID in
      match vt with
      | AuditExpectSignature =>
          let* sig := opt_err (dec c_sig signature) in
          let* r := deref RNymEid in
          auditNymEid T sig ipk eidAttr eidIndex r
      | AuditExpectEidNymRhNym | AuditExpectEidNym =>
          let* r := deref RNymEid in
          auditRawNym T signature ipk eidAttr eidIndex r
      | AuditOther => Err
      end).

  (** signaturescheme.go 150-202 AuditNymRh *)
  Definition brAuditNymRh (ipk : iface IssuerPublicKey) (rhIndex : Z) (signature revocationHandle : bytes)
      (RNymRh : option zr) (vt : AuditType) : res unit :=
    recover (
      let* ipk := opt_err ipk in
      let rhAttr := H revocationHandle in
      match vt with
      | AuditExpectSignature =>
          let* sig := opt_err (dec c_sig signature) in
          let* r := deref RNymRh in
          auditNymRh T sig ipk rhAttr rhIndex r
      | AuditExpectEidNymRhNym =>
          let* r := deref RNymRh in
          auditRawNym T signature ipk rhAttr rhIndex r
      | _ => Err
      end).

  (** ** nymsignaturescheme.go *)

  (** nymsignaturescheme.go 27-53 Sign *)
  Definition brNymSign (sk : option zr) (Nym : option g1) (RNym : option zr) (ipk : iface IssuerPublicKey)
      (digest : bytes) (Nonce rSk rRNym : zr) : res bytes :=
    recover (
      let* ipk := opt_err ipk in
      let* sig := newNymSignature H T sk Nym RNym ipk digest Nonce rSk rRNym in
      opt_err (enc c_nsig sig)).

  (** nymsignaturescheme.go 57-76 Verify *)
  Definition brNymVerify (ipk : iface IssuerPublicKey) (Nym : option g1) (signature digest : bytes) : res unit :=
    recover (
      let* ipk := opt_err ipk in
      let* sig := opt_err (dec c_nsig signature) in
      verNymSignature H T sig Nym ipk digest).

  (** ** revocation_authority.go and revocation.go *)
  Variable EC : ecdsa.
  Variable sha256 : bytes -> bytes.

  (** revocation_authority.go 67-102 createCRI; [wsk] is the draw of WbbKeyGen.  The unsupported
      algorithms sign and then return an error. *)
  Definition createCRI (key : option (ec_sk EC)) (epoch alg : Z) (wsk : zr) : res CRI :=
    let* key := opt_err key in
    let epochPk := if (alg =? 0)%Z then genG2 C else genG2 C ⊗ wsk in
    let cri := {| cri_epoch := epoch; cri_epochpk := Some (g2_to_proto T epochPk); cri_sig := []; cri_alg := alg |} in
    let* b := opt_err (enc c_cri cri) in
    let* s := opt_err (ec_sign key (sha256 b)) in
    if (alg =? 0)%Z
    then Ok {| cri_epoch := epoch; cri_epochpk := Some (g2_to_proto T epochPk); cri_sig := s; cri_alg := alg |}
    else Err.

  (** revocation_authority.go 113-137 verifyEpochPK *)
  Definition verifyEpochPK (pk : option (ec_pk EC)) (epochPK : option ecp2) (epochPkSig : bytes) (epoch alg : Z)
    : res unit :=
    let* pk := opt_err pk in
    let* epk := opt_err epochPK in
    let cri := {| cri_epoch := epoch; cri_epochpk := Some epk; cri_sig := []; cri_alg := alg |} in
    let* b := opt_err (enc c_cri cri) in
    guard (ec_verify pk (sha256 b) epochPkSig).

  (** bridge/revocation.go 34-52 Sign (the handles are decoded and never used) *)
  Definition brRevSign (key : option (ec_sk EC)) (handles : list bytes) (epoch alg : Z) (wsk : zr) : res bytes :=
    recover (
      let* cri := createCRI key epoch alg wsk in
      opt_err (enc c_cri cri)).

  (** bridge/revocation.go 56-76 Verify: the arguments epoch and alg are not read *)
  Definition brRevVerify (pk : option (ec_pk EC)) (criRaw : bytes) (epoch alg : Z) : res unit :=
    recover (
      let* cri := opt_err (dec c_cri criRaw) in
      verifyEpochPK pk (cri_epochpk cri) (cri_sig cri) (cri_epoch cri) (cri_alg cri)).

  (** ** aries/revocation.go *)

  (** aries proto: CredentialRevocationInformation with the epoch key as bytes *)
  Record ACRI := { acri_epoch : Z; acri_epochpk : bytes; acri_sig : bytes; acri_alg : Z }.
  Variable c_acri : codec ACRI.

  (** aries/revocation.go 48-84 Sign *)
  Definition arRevSign (key : option (ec_sk EC)) (handles : list bytes) (epoch alg : Z) (wsk : zr) : res bytes :=
    let* key := opt_err key in
    let epochPk := if (alg =? 0)%Z then genG2 C else genG2 C ⊗ wsk in
    let cri := {| acri_epoch := epoch; acri_epochpk := g2_bytes C epochPk; acri_sig := []; acri_alg := alg |} in
    let* b := opt_err (enc c_acri cri) in
    let* s := opt_err (ec_sign key (sha256 b)) in
    if (alg =? 0)%Z
    then opt_err (enc c_acri {| acri_epoch := epoch; acri_epochpk := g2_bytes C epochPk; acri_sig := s; acri_alg := alg |})
    else Err.

  (** aries/revocation.go 91-124 Verify *)
  Definition arRevVerify (pk : option (ec_pk EC)) (criRaw : bytes) (epoch alg : Z) : res unit :=
    let* pk := opt_err pk in
    let* cri := opt_err (dec c_acri criRaw) in
    let* b := opt_err (enc c_acri {| acri_epoch := epoch; acri_epochpk := acri_epochpk cri;
                                    acri_sig := []; acri_alg := alg |}) in
    guard (ec_verify pk (sha256 b) (acri_sig cri)).

  (** ** weak-bb.go *)

  (** weak-bb.go 17-24 WbbKeyGen *)
  Definition wbbKeyGen (sk : zr) : zr * gcar (G2 C) := (sk, genG2 C ⊗ sk).
  (** weak-bb.go 27-34 WbbSign (InvModP on 0 is not modelled: [zinv] of 0 is arbitrary) *)
  Definition wbbSign (sk m : zr) : g1 := genG1 C ⊗ (zinv (zadd sk m)).
  (** weak-bb.go 37-52 WbbVerify; GenGt is the pairing of the generators *)
  Definition wbbVerify (pk : option (G2 C)) (sig : option g1) (m : option zr) : res unit :=
    match pk, sig, m with
    | Some pk, Some sig, Some m =>
        let P := pk ⊕ genG2 C ⊗ m in
        guard (geqb (pair C P sig) (pair C (genG2 C) (genG1 C)))
    | _, _, _ => Err
    end.
End Bridge.
