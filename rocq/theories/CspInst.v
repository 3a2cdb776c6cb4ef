(** The schemes a CSP is built on: /repo/bccsp/bccsp.go 26-184 (New: the dlog scheme, through
    Bridge.v) and 186-373 (NewAries: the aries scheme, through Aries.v).

    Issuer keys are the interface values of Bridge.v: [None] is a key object of the other scheme.
    An issuer public key object without key is not modelled beyond [Some None]: its Hash, which
    panics, is rendered as the empty string. *)
From Verif Require Import Base Curve Bbs Aries Dlog Bridge Csp.
Unset Strict Implicit.

(** crypto/ecdsa, encoding/pem and crypto/x509 as far as /repo uses them *)
Record ecenv (EC : ecdsa) := {
  ee_bytes : ec_sk EC -> bytes;              (* D.Bytes() *)
  ee_of_bytes : bytes -> ec_sk EC;           (* revocation_authority.go 47-54, aries/revocation.go 37-44 *)
  ee_public : ec_sk EC -> ec_pk EC;
  ee_point : ec_pk EC -> bytes;              (* elliptic.Marshal *)
  ee_pkix : ec_pk EC -> option bytes;        (* x509.MarshalPKIXPublicKey *)
  ee_pem : bytes -> option (ec_pk EC)        (* pem.Decode then x509.ParsePKIXPublicKey *)
}.

Section Math.
  Variable C : Curve.
  Variable T : translator C.
  Variable EC : ecdsa.
  Variable EE : ecenv EC.
  Variable sha256 : bytes -> bytes.
  Variables Isk Ipk MB Cd D : Type.

  Definition universe_of : universe :=
    {| u_zr := Zr C; u_g1 := G1 C; u_isk := Isk; u_ipk := Ipk; u_esk := ec_sk EC; u_epk := ec_pk EC;
       u_meta := Metadata C; u_card := Cd; u_bases := MB; u_draw := D |}.

  Definition math_of : mathops universe_of :=
    {| m_zrBytes := zr_bytes C : u_zr universe_of -> bytes;
       m_zrOfBytes := zr_of_bytes C : bytes -> u_zr universe_of;
       m_g1Bytes := g1_bytes C : u_g1 universe_of -> bytes;
       m_g1ToProto := g1_to_proto T : u_g1 universe_of -> ecp;
       m_g1FromProto := g1_from_proto T : option ecp -> res (u_g1 universe_of);
       m_sha256 := sha256;
       m_eskBytes := ee_bytes EE : u_esk universe_of -> bytes;
       m_eskPublic := ee_public EE : u_esk universe_of -> u_epk universe_of;
       m_epkPoint := ee_point EE : u_epk universe_of -> bytes;
       m_epkPkix := ee_pkix EE : u_epk universe_of -> option bytes;
       m_pemEpk := ee_pem EE : bytes -> option (u_epk universe_of) |}.
End Math.

(** ** dlog *)
Section DlogScheme.
  Variable C : Curve.
  Variable H : hasher C.
  Variable T : translator C.
  Variable c_ipk : codec IssuerPublicKey.
  Variable c_ik : codec IssuerKey.
  Variable c_req : codec CredRequest.
  Variable c_cred : codec Credential.
  Variable c_sig : codec Signature.
  Variable c_nsig : codec NymSignature.
  Variable c_cri : codec CRI.
  Variable EC : ecdsa.
  Variable EE : ecenv EC.
  Variable sha256 : bytes -> bytes.

  (** the draws of one call; every call uses some of them *)
  Record ddraw := { dd_issuer : IssuerRand C; dd_zr : nat -> Zr C; dd_sig : SigRand C; dd_esk : option (ec_sk EC) }.

  Definition dlogU : universe := universe_of C EC (iface IssuerKey) (iface IssuerPublicKey) unit unit ddraw.

  (** bridge/issuer.go 89-145 NewPublicKeyFromBytes with the dynamic types of its errors.  [brNewPublicKeyFromBytes]
      is the same without them (PropsCsp.v, dlogPk_res). A recovered panic is a plain error. *)
  Definition kinded {A} (k : ikind) (r : res A) : ires A :=
    match r with Ok a => IOk a | Err => IErr k | Panic => IErr PlainError end.
  Definition dlogPk (raw : bytes) (attributes : list bytes) : ires IssuerPublicKey :=
    let+ ipk := kinded UnmarshallingError (opt_err (dec c_ipk raw)) in
    let+ ipk := kinded HashError (setHash H (enc c_ipk) ipk) in
    let+ ipk := kinded ValidationError (checkIPK H T (enc c_ipk) ipk) in
    if length attributes =? 0 then IOk ipk
    else let+ _ := kinded NumAttributesError (guard (length attributes =? length (ip_names ipk))) in
         let+ _ := kinded AttributeNameError (names_match 0 attributes (ip_names ipk)) in
         IOk ipk.

  Definition dlog_scheme : scheme dlogU :=
    {| s_newIssuerKey := fun (d : u_draw dlogU) names => let* k := brNewKey H T c_ipk names (dd_issuer d) in Ok (Some (Some k) : u_isk dlogU);
       s_issuerKeyFromBytes := fun raw names => let* k := brNewKeyFromBytes c_ik raw names in Ok (Some (Some k) : u_isk dlogU);
       s_issuerPkFromBytes := fun raw names => let+ k := dlogPk raw names in IOk (Some (Some k) : u_ipk dlogU);
       s_bases := fun (ipk : u_ipk dlogU) req rh eid sk => brBases ipk req rh eid sk;
       s_iskBytes := fun (k : u_isk dlogU) => match k with Some (Some k) => brSecretKeyBytes c_ik k | Some None => Panic | None => Err end;
       s_iskPublic := fun (k : u_isk dlogU) => match k with Some (Some k) => Some (ik_ipk k) : u_ipk dlogU | _ => None end;
       s_ipkBytes := fun (k : u_ipk dlogU) => match k with Some (Some k) => brPublicKeyBytes c_ipk k | Some None => Panic | None => Err end;
       s_ipkHash := fun (k : u_ipk dlogU) => match k with Some (Some k) => ip_hash k | _ => [] end;
       s_newUserKey := fun (d : u_draw dlogU) => Ok (dd_zr d 0 : u_zr dlogU);
       s_userKeyFromBytes := fun raw => brUserKeyFromBytes C raw;
       s_makeNym := fun (d : u_draw dlogU) (sk : u_zr dlogU) (ipk : u_ipk dlogU) => brMakeNym T (Some sk) ipk (dd_zr d 0);
       s_nymFromBytes := fun raw => brNymFromBytes T raw;
       s_publicNymFromBytes := fun raw => brPublicNymFromBytes T raw;
       s_request := Some {| cq_sign := fun (d : u_draw dlogU) (sk : u_zr dlogU) (ipk : u_ipk dlogU) nonce => brRequestSign H T c_req (Some sk) ipk nonce (dd_zr d 0);
                            cq_verify := fun raw (ipk : u_ipk dlogU) nonce => brRequestVerify H T c_req raw ipk nonce |};
       s_blind := None;
       s_credSign := fun (d : u_draw dlogU) (k : u_isk dlogU) req attrs => brCredSign H T c_req c_cred k req attrs (dd_zr d 0) (dd_zr d 1);
       s_credVerify := fun (sk : u_zr dlogU) (ipk : u_ipk dlogU) cred attrs => brCredVerify H T c_cred (Some sk) ipk cred attrs;
       s_revNewKey := fun (d : u_draw dlogU) => opt_err (dd_esk d);
       s_revKeyFromBytes := fun raw => Ok (ee_of_bytes EE raw : u_esk dlogU);
       s_revSign := fun (d : u_draw dlogU) (k : u_esk dlogU) handles epoch alg => brRevSign (C := C) T c_cri (EC := EC) sha256 (Some k) handles epoch alg (dd_zr d 0);
       s_revVerify := fun (k : u_epk dlogU) raw epoch alg => brRevVerify c_cri (EC := EC) sha256 (Some k) raw epoch alg;
       s_sign := fun (d : u_draw dlogU) cred (sk : u_zr dlogU) (nym : u_g1 dlogU) (rnym : u_zr dlogU) (ipk : u_ipk dlogU) attrs msg rh eid cri st (meta : option (u_meta dlogU)) =>
                   brSign H T c_cred c_sig c_cri cred (Some sk) (Some nym) (Some rnym) ipk attrs msg rh eid cri (dd_sig d) st meta;
       s_verify := fun (ipk : u_ipk dlogU) sig digest attrs rh eid sk (rpk : option (u_epk dlogU)) epoch vt (meta : option (u_meta dlogU)) =>
                     brVerify H T c_sig ipk sig digest attrs rh eid rpk epoch vt meta;
       s_auditEid := fun (ipk : u_ipk dlogU) eid sk sig value (r : option (u_zr dlogU)) t => brAuditNymEid H T c_sig ipk eid sig value r t;
       s_auditRh := fun (ipk : u_ipk dlogU) rh sk sig value (r : option (u_zr dlogU)) t => brAuditNymRh H T c_sig ipk rh sig value r t;
       s_nymSign := fun (d : u_draw dlogU) (sk : u_zr dlogU) (nym : u_g1 dlogU) (rnym : u_zr dlogU) (ipk : u_ipk dlogU) digest =>
                      brNymSign H T c_nsig (Some sk) (Some nym) (Some rnym) ipk digest (dd_zr d 0) (dd_zr d 1) (dd_zr d 2);
       s_nymVerify := fun (ipk : u_ipk dlogU) (nym : u_g1 dlogU) sig digest sk => brNymVerify H T c_nsig ipk (Some nym) sig digest;
       s_card := None |}.

  Definition dlog_math : mathops dlogU := math_of T EE sha256 _ _ _ _ _.
End DlogScheme.

(** ** aries.  UserSecretKeyIndex is left at 0 by NewAries. *)
Section AriesScheme.
  Variable C : Curve.
  Variable HG : bytes -> G1 C.
  Variable H : hasher C.
  Variable T : translator C.
  Variable hkdf : bytes -> bytes.
  Variable c_cred : codec ACredential.
  Variable c_sig : codec ASignature.
  Variable c_nsig : codec ANymSignature.
  Variable c_cri : codec ACRI.
  Variable EC : ecdsa.
  Variable EE : ecenv EC.
  Variable sha256 : bytes -> bytes.

  Record adraw := { ad_seed : bytes; ad_zr : nat -> Zr C; ad_sig : ASigRand C; ad_esk : option (ec_sk EC) }.

  Definition ariesU : universe :=
    universe_of C EC (iface (AIssuerSecretKey C)) (iface (AIssuerPublicKey C)) (BasesMap C) (iface (Card C)) adraw.

  (** a nil audit randomness panics in Mul2; simplification: before the other checks *)
  Definition aries_scheme : scheme ariesU :=
    {| s_newIssuerKey := fun (d : u_draw ariesU) names => let* k := arNewKey HG H hkdf names (ad_seed d) in Ok (Some (Some k) : u_isk ariesU);
       s_issuerKeyFromBytes := fun raw names => let* k := arNewKeyFromBytes HG raw names in Ok (Some (Some k) : u_isk ariesU);
       s_issuerPkFromBytes := fun raw names => plain (let* k := arNewPublicKeyFromBytes HG raw names in Ok (Some (Some k) : u_ipk ariesU));
       s_bases := fun (ipk : u_ipk ariesU) req rh eid sk => arBases ipk req rh eid sk;
       s_iskBytes := fun (k : u_isk ariesU) => let* k := assert_ptr k in Ok (arSecretKeyBytes k);
       s_iskPublic := fun (k : u_isk ariesU) => match k with Some (Some k) => Some (Some (is_pub k)) : u_ipk ariesU | _ => None end;
       s_ipkBytes := fun (k : u_ipk ariesU) => let* k := assert_ptr k in Ok (arPublicKeyBytes k);
       s_ipkHash := fun (k : u_ipk ariesU) => match k with Some (Some k) => g2_comp C (ip_pk k) | _ => [] end;
       s_newUserKey := fun (d : u_draw ariesU) => Ok (ad_zr d 0 : u_zr ariesU);
       s_userKeyFromBytes := fun raw => arUserKeyFromBytes C raw;
       s_makeNym := fun (d : u_draw ariesU) (sk : u_zr ariesU) (ipk : u_ipk ariesU) => arMakeNym 0 sk ipk (ad_zr d 0);
       s_nymFromBytes := fun raw => arNymFromBytes C raw;
       s_publicNymFromBytes := fun raw => arPublicNymFromBytes C raw;
       s_request := None;
       s_blind := Some {| bq_blind := fun (d : u_draw ariesU) (sk : u_zr ariesU) (ipk : u_ipk ariesU) nonce =>
                                        arBlind HG H 0 sk ipk nonce (ad_zr d 0) (fun i => ad_zr d (S i));
                          bq_verify := fun raw (ipk : u_ipk ariesU) nonce => arBlindVerify HG H 0 raw ipk nonce |};
       s_credSign := fun (d : u_draw ariesU) (k : u_isk ariesU) req attrs => arCredSign HG H c_cred 0 k req attrs (ad_zr d 0) (ad_zr d 1);
       s_credVerify := fun (sk : u_zr ariesU) (ipk : u_ipk ariesU) cred attrs => arCredVerify H c_cred sk ipk cred attrs;
       s_revNewKey := fun (d : u_draw ariesU) => opt_err (ad_esk d);
       s_revKeyFromBytes := fun raw => Ok (ee_of_bytes EE raw : u_esk ariesU);
       s_revSign := fun (d : u_draw ariesU) (k : u_esk ariesU) handles epoch alg => arRevSign (C := C) (EC := EC) sha256 c_cri (Some k) handles epoch alg (ad_zr d 0);
       s_revVerify := fun (k : u_epk ariesU) raw epoch alg => arRevVerify (EC := EC) sha256 c_cri (Some k) raw epoch alg;
       s_sign := fun (d : u_draw ariesU) cred (sk : u_zr ariesU) (nym : u_g1 ariesU) (rnym : u_zr ariesU) (ipk : u_ipk ariesU) attrs msg rh eid cri st (meta : option (u_meta ariesU)) =>
                   arSign H c_cred c_sig c_cri cred sk nym rnym ipk attrs msg rh eid cri st meta (ad_sig d);
       s_verify := fun (ipk : u_ipk ariesU) sig digest attrs rh eid sk (rpk : option (u_epk ariesU)) epoch vt (meta : option (u_meta ariesU)) =>
                     arVerify H c_sig ipk sig digest attrs rh eid sk vt meta;
       s_auditEid := fun (ipk : u_ipk ariesU) eid sk sig value (r : option (u_zr ariesU)) t =>
                       let* r := deref r in arAuditNymEid H c_sig ipk eid sk sig value r t;
       s_auditRh := fun (ipk : u_ipk ariesU) rh sk sig value (r : option (u_zr ariesU)) t =>
                      let* r := deref r in arAuditNymRh H c_sig ipk rh sk sig value r t;
       s_nymSign := fun (d : u_draw ariesU) (sk : u_zr ariesU) (nym : u_g1 ariesU) (rnym : u_zr ariesU) (ipk : u_ipk ariesU) digest =>
                      arNymSign H c_nsig 0 sk nym rnym ipk digest (ad_zr d 0) (fun i => ad_zr d (S i));
       s_nymVerify := fun (ipk : u_ipk ariesU) (nym : u_g1 ariesU) sig digest sk => arNymVerify H c_nsig ipk nym sig digest sk;
       s_card := Some {| cs_sign := fun (d : u_draw ariesU) (card : u_card ariesU) (ipk : u_ipk ariesU) digest =>
                                      scBackendSign sha256 card digest (ad_seed d) (ad_zr d 0) (ad_zr d 1);
                         cs_verify := fun (ipk : u_ipk ariesU) (nym : u_g1 ariesU) sig digest => scBackendVerify sha256 ipk nym sig digest |} |}.

  Definition aries_math : mathops ariesU := math_of T EE sha256 _ _ _ _ _.
End AriesScheme.
