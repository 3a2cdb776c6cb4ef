(** Specification vocabulary for the dlog scheme: what the messages mean, and the
    knowledge extractor used by the soundness theorems. *)
From Verif Require Import Base Curve Spec Dlog.

(** The issuer public key message [ipk] encodes the bases [B]. *)
Definition ipk_bases (C : Curve) (T : translator C) (ipk : IssuerPublicKey) (B : Bases C) : Prop :=
  g1_from_proto T (ip_hsk ipk) = Ok (b_hsk B) /\
  g1_from_proto T (ip_hrand ipk) = Ok (b_hrand B) /\
  map_res (g1_from_proto T) (ip_hattrs ipk) = Ok (b_attrs B) /\
  g2_from_proto T (ip_w ipk) = Ok (b_w B).

(** The credential message encodes the BBS+ signature (A, e, s) on [attrs]. *)
Definition cred_means (C : Curve) (T : translator C) (cred : Credential) (A : G1 C) (e s : Zr C)
    (attrs : list (Zr C)) : Prop :=
  g1_from_proto T (cr_a cred) = Ok A /\
  zr_of_bytes C (cr_e cred) = e /\
  zr_of_bytes C (cr_s cred) = s /\
  map (fun a => zr_of_bytes C (ob a)) (cr_attrs cred) = attrs.

(** ** The full attribute vector assembled from its hidden values (in order) and the
    values the verifier knows for the disclosed positions. *)
Fixpoint merge {A} (disc : bytes) (hid : list A) (vals : list (option A)) : list A :=
  match disc with
  | [] => []
  | d :: ds =>
      if byte_eqb d b0
      then match hid with h :: hs => h :: merge ds hs (tl vals) | [] => [] end
      else match vals with Some v :: vs => v :: merge ds hid vs | _ => [] end
  end.

(** ** Knowledge extraction from two accepting signatures with the same first message *)
Record Witness (C : Curve) := {
  w_A : G1 C;              (* the credential ... *)
  w_e : Zr C;
  w_s : Zr C;
  w_sk : Zr C;             (* ... on the secret key ... *)
  w_attrs : list (Zr C);   (* ... and the attributes *)
  w_rnym : Zr C;           (* opening of the pseudonym *)
  w_reid : Zr C;           (* opening of the enrollment-id commitment *)
  w_rrh : Zr C             (* opening of the revocation-handle commitment *)
}.

Section Extract.
  Variable C : Curve.
  Variable T : translator C.
  Notation zr := (zcar (Zr C)).
  Local Open Scope zr_scope.

  (** (x1 - x2) / (c1 - c2) *)
  Definition quot (c1 c2 x1 x2 : zr) : zr := (x1 - x2) * zinv (c1 - c2).

  Definition nym_s (x : option AttrNym) : bytes := match x with Some n => ob (an_s n) | None => [] end.

  (** Only field operations on the responses of the two signatures, and one
      exponentiation of the A' they contain. *)
  Definition extract (disc : bytes) (vals : list (option zr)) (sig1 sig2 : Signature) : Witness C :=
    let z f := zr_of_bytes C f in
    let c1 := z (sg_c sig1) in
    let c2 := z (sg_c sig2) in
    let q f := quot c1 c2 (z (f sig1)) (z (f sig2)) in
    let rho := - q sg_sr3 in
    let APrime := match g1_from_proto T (sg_aprime sig1) with Ok a => a | _ => gzero end in
    {| w_A := APrime ⊗ rho;
       w_e := - q sg_se;
       w_s := q sg_ssprime + rho * q sg_sr2;
       w_sk := q sg_ssk;
       w_attrs := merge disc (map (fun xy => quot c1 c2 (z (fst xy)) (z (snd xy)))
                                  (combine (sg_sattrs sig1) (sg_sattrs sig2))) vals;
       w_rnym := q sg_srnym;
       w_reid := q (fun s => nym_s (sg_eid s));
       w_rrh := q (fun s => nym_s (sg_rh s)) |}.
End Extract.
Arguments quot {C}.

(** Which verification types are meant to accept which signature types
    (types/idemixopts.go: Basic verifies a standard signature, BestEffort whatever is there,
    the Expect.. types exactly one signature type). *)
Definition compatible (st : SignatureType) (vt : VerificationType) : bool :=
  match st, vt with
  | Standard, (Basic | BestEffort | ExpectStandard) => true
  | EidNym, (BestEffort | ExpectEidNym) => true
  | EidNymRhNym, (BestEffort | ExpectEidNymRhNym) => true
  | _, _ => false
  end.

(** Does a signature of this type carry the enrollment-id / revocation-handle commitment? *)
Definition with_eid (st : SignatureType) : bool := match st with EidNym | EidNymRhNym => true | _ => false end.
Definition with_rh (st : SignatureType) : bool := match st with EidNymRhNym => true | _ => false end.

(** Metadata given to the signer: complete opening of a commitment to attribute value [a]. *)
Definition opening_ok (C : Curve) (Hj HRand : G1 C) (a : Zr C) (d : option (AuditData C)) : Prop :=
  exists n r, d = Some {| au_nym := Some n; au_rand := Some r; au_attr := Some a |} /\ opens Hj HRand n a r.

(** Extractors for the smaller proofs: quotients of the responses. *)
Definition nym_extract (C : Curve) (s1 s2 : NymSignature) : Zr C * Zr C :=
  let z := zr_of_bytes C in
  (quot (z (ns_c s1)) (z (ns_c s2)) (z (ns_ssk s1)) (z (ns_ssk s2)),
   quot (z (ns_c s1)) (z (ns_c s2)) (z (ns_srnym s1)) (z (ns_srnym s2))).
Definition issuer_extract (C : Curve) (k1 k2 : IssuerPublicKey) : Zr C :=
  let z := zr_of_bytes C in quot (z (ip_c k1)) (z (ip_c k2)) (z (ip_s k1)) (z (ip_s k2)).
Definition request_extract (C : Curve) (m1 m2 : CredRequest) : Zr C :=
  let z := zr_of_bytes C in quot (z (rq_c m1)) (z (rq_c m2)) (z (rq_s m1)) (z (rq_s m2)).

(** Two transcripts hashed into one challenge with the same nonce: a collision of the hash
    either on the transcripts themselves or on the two inputs of the second hash. *)
Definition transcripts_collide (C : Curve) (H : hasher C) (pd1 pd2 : bytes) (nonce : Zr C) : Prop :=
  collision H pd1 pd2 \/
  collision H (zr_bytes C (H pd1) ++ zr_bytes C nonce) (zr_bytes C (H pd2) ++ zr_bytes C nonce).

(** One presentation by a user: a fresh pseudonym with randomness [fst x], then a signature
    with the draws [snd x]; what the verifier gets to see. *)
Definition present (C : Curve) (H : hasher C) (T : translator C) (cred : Credential) (sk : Zr C)
    (ipk : IssuerPublicKey) (disc msg : bytes) (rhI eidI : Z) (cri : CRI) (st : SignatureType)
    (x : Zr C * SigRand C) : res Signature :=
  let* nr := makeNym T sk ipk (fst x) in
  let* sm := NewSignature H T (Some cred) (Some sk) (Some (fst nr)) (Some (snd nr)) (Some ipk) disc msg
               rhI eidI (Some cri) (snd x) st None in
  Ok (fst sm).

(** Equality of draws (the per-attribute draws are a function of the index). *)
Definition draws_eq (C : Curve) (x y : Zr C * SigRand C) : Prop :=
  fst x = fst y /\
  rd_r1 (snd x) = rd_r1 (snd y) /\ rd_r2 (snd x) = rd_r2 (snd y) /\ rd_nonce (snd x) = rd_nonce (snd y) /\
  rd_rsk (snd x) = rd_rsk (snd y) /\ rd_re (snd x) = rd_re (snd y) /\ rd_rr2 (snd x) = rd_rr2 (snd y) /\
  rd_rr3 (snd x) = rd_rr3 (snd y) /\ rd_rsprime (snd x) = rd_rsprime (snd y) /\
  rd_rrnym (snd x) = rd_rrnym (snd y) /\ (forall i, rd_rattrs (snd x) i = rd_rattrs (snd y) i) /\
  rd_eid (snd x) = rd_eid (snd y) /\ rd_r_eid (snd x) = rd_r_eid (snd y) /\
  rd_rh (snd x) = rd_rh (snd y) /\ rd_r_rh (snd x) = rd_r_rh (snd y).
