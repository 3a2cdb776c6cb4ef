(** Model of /repo/bccsp/schemes/dlog/crypto (the "dlog" Idemix scheme).

    Conventions: protobuf messages are records, a pointer or a bytes field whose nilness
    matters is an [option]; [math.Zr], [math.G1] values are elements of the curve record;
    [curve.HashToZr] is the parameter [H]; [io.Reader] draws are explicit arguments. *)
From Verif Require Import Base Curve.

(** ** Messages: idemix.proto, amcl.proto *)
Record ecp := { ex : bytes; ey : bytes }.
Record ecp2 := { exa : bytes; exb : bytes; eya : bytes; eyb : bytes }.

(** credential.go 18-24: the Translator interface *)
Record translator (C : Curve) := {
  g1_to_proto : G1 C -> ecp;
  g1_from_proto : option ecp -> res (G1 C);
  g1_from_raw : bytes -> res (G1 C);
  g2_to_proto : G2 C -> ecp2;
  g2_from_proto : option ecp2 -> res (G2 C)
}.
Arguments g1_to_proto {C}.
Arguments g1_from_proto {C}.
Arguments g1_from_raw {C}.
Arguments g2_to_proto {C}.
Arguments g2_from_proto {C}.

(** What the theorems need of a translator; Translator.v proves it for the three
    implementations in translator/amcl. *)
Record TrOk (C : Curve) (T : translator C) : Prop := {
  tr_g1 : forall P, g1_from_proto T (Some (g1_to_proto T P)) = Ok P;
  tr_g2 : forall P, g2_from_proto T (Some (g2_to_proto T P)) = Ok P
}.

(** idemix.proto: IssuerPublicKey *)
Record IssuerPublicKey := {
  ip_names : list bytes;
  ip_hsk : option ecp;
  ip_hrand : option ecp;
  ip_hattrs : list (option ecp);
  ip_w : option ecp2;
  ip_barg1 : option ecp;
  ip_barg2 : option ecp;
  ip_c : bytes;
  ip_s : bytes;
  ip_hash : bytes
}.

(** idemix.proto: IssuerKey *)
Record IssuerKey := { ik_isk : bytes; ik_ipk : option IssuerPublicKey }.

(** idemix.proto: Credential *)
Record Credential := {
  cr_a : option ecp;
  cr_b : option ecp;
  cr_e : bytes;
  cr_s : bytes;
  cr_attrs : list (option bytes)
}.

(** idemix.proto: CredRequest *)
Record CredRequest := {
  rq_nym : option ecp;
  rq_nonce : option bytes;
  rq_c : bytes;
  rq_s : bytes
}.

(** idemix.proto: EIDNym and RHNym (same shape) *)
Record AttrNym := { an_nym : option ecp; an_s : option bytes }.

(** idemix.proto: NonRevocationProof (the proof bytes are never read) *)
Record NonRevocationProof := { nr_alg : Z }.

(** idemix.proto: Signature *)
Record Signature := {
  sg_aprime : option ecp;
  sg_abar : option ecp;
  sg_bprime : option ecp;
  sg_c : bytes;
  sg_ssk : bytes;
  sg_se : bytes;
  sg_sr2 : bytes;
  sg_sr3 : bytes;
  sg_ssprime : bytes;
  sg_sattrs : list bytes;
  sg_nonce : bytes;
  sg_nym : option ecp;
  sg_srnym : bytes;
  sg_epochpk : option ecp2;
  sg_pksig : bytes;
  sg_epoch : Z;
  sg_nonrev : option NonRevocationProof;
  sg_eid : option AttrNym;
  sg_rh : option AttrNym
}.

(** idemix.proto: NymSignature *)
Record NymSignature := { ns_c : bytes; ns_ssk : bytes; ns_srnym : bytes; ns_nonce : bytes }.

(** idemix.proto: CredentialRevocationInformation (revocation_data is never read) *)
Record CRI := {
  cri_epoch : Z;
  cri_epochpk : option ecp2;
  cri_sig : bytes;
  cri_alg : Z
}.

(** types/idemixopts.go 414-448: SignatureType, VerificationType.  Both are integers that are only compared with
    the constants; [OtherSig] and [OtherVer] stand for all other values. *)
Inductive SignatureType := Standard | EidNym | EidNymRhNym | Smartcard | SmartcardNoNyms | OtherSig.
Inductive VerificationType :=
| Basic | BestEffort | ExpectStandard | ExpectEidNym | ExpectEidNymRhNym | ExpectSmartcard | ExpectSmartcardNoNyms | OtherVer.

Scheme Equality for SignatureType.
Scheme Equality for VerificationType.
Notation "a =?v b" := (VerificationType_beq a b) (at level 70).

(** types/idemixopts.go 245-261: AttrNymAuditData, IdemixSignerMetadata *)
Record AuditData (C : Curve) := {
  au_nym : option (G1 C);
  au_rand : option (Zr C);
  au_attr : option (Zr C)
}.
Record Metadata (C : Curve) := {
  md_eid : bytes;
  md_eid_data : option (AuditData C);
  md_rh : bytes;
  md_rh_data : option (AuditData C)
}.

Definition ob (b : option bytes) : bytes := match b with Some x => x | None => [] end.

(** method call on a possibly nil pointer *)
Definition deref {A} (x : option A) : res A := match x with Some a => Ok a | None => Panic end.
(** curve.New..FromBytes returning an error *)
Definition opt_err {A} (x : option A) : res A := match x with Some a => Ok a | None => Err end.

Fixpoint fold_res {A B} (f : A -> B -> res A) (l : list B) (a : A) : res A :=
  match l with
  | [] => Ok a
  | b :: l' => let* a' := f a b in fold_res f l' a'
  end.

Section Dlog.
  Variable C : Curve.
  Variable H : hasher C.           (* curve.HashToZr *)
  Variable T : translator C.

  Notation zr := (zcar (Zr C)).
  Notation g1 := (gcar (G1 C)).
  Notation g2 := (gcar (G2 C)).
  Local Open Scope zr_scope.

  Local Notation zb := (zr_bytes C).
  Local Notation zfb := (zr_of_bytes C).
  Local Notation pb := (g1_bytes C).

  (** The two-at-a-time multi-exponentiation loop:
      [for i := range n/2 { acc.Add(ps[2i].Mul2(ks[2i], ps[2i+1], ks[2i+1])) }
       if n%2 != 0 { acc.Add(ps[n-1].Mul(ks[n-1])) }]
      credential.go 103-116 and 187-198, signature.go 373-386 and 965-970. *)
  Definition loop2 (n : nat) (ps : list g1) (ks : list zr) (acc : g1) : res g1 :=
    let* acc := fold_res (fun acc i =>
        let* p0 := nth_res ps (2 * i) in
        let* k0 := nth_res ks (2 * i) in
        let* p1 := nth_res ps (2 * i + 1) in
        let* k1 := nth_res ks (2 * i + 1) in
        Ok (acc ⊕ gmul2 p0 k0 p1 k1)) (seq 0 (n / 2)) acc in
    if n mod 2 =? 0 then Ok acc
    else
      let* p := nth_res ps (n - 1) in
      let* k := nth_res ks (n - 1) in
      Ok (acc ⊕ p ⊗ k).

  (** for i := range ipk.HAttrs { HAttrs[i], err = t.G1FromProto(ipk.HAttrs[i]) } *)
  Definition parse_points (l : list (option ecp)) : res (list g1) := map_res (g1_from_proto T) l.

  (** ** util.go 42-57 makeNym; [randNym] is curve.NewRandomZr(rng) *)
  Definition makeNym (sk : zr) (ipk : IssuerPublicKey) (randNym : zr) : res (g1 * zr) :=
    let* HSk := g1_from_proto T (ip_hsk ipk) in
    let* HRand := g1_from_proto T (ip_hrand ipk) in
    Ok (gmul2 HSk sk HRand randNym, randNym).

  (** util.go 63-74 makeNymFromBytes (Go evaluates the slice expressions first) *)
  Definition makeNymFromBytes (raw : bytes) : res (g1 * zr) :=
    let* r := slice raw 0 (scalar_size C) in
    let* x := slice raw (scalar_size C) (scalar_size C + coord_size C) in
    let* y := slice_from raw (scalar_size C + coord_size C) in
    let* pk := g1_from_proto T (Some {| ex := x; ey := y |}) in
    Ok (pk, zfb r).

  (** ** issuerkey.go *)

  (** issuerkey.go 40-46: the duplicate check *)
  Fixpoint names_unique (seen names : list bytes) : bool :=
    match names with
    | [] => true
    | n :: ns => if existsb (bytes_eqb n) seen then false else names_unique (n :: seen) ns
    end.

  (** draws of newIssuerKey in program order *)
  Record IssuerRand := {
    ir_isk : zr;
    ir_attrs : nat -> zr;
    ir_hsk : zr;
    ir_hrand : zr;
    ir_barg1 : zr;
    ir_r : zr
  }.

  (** issuerkey.go 95-102 and 183-201: Fiat-Shamir input of the issuer key proof *)
  Definition issuer_data (t1 : g2) (t2 : g1) (BarG1 : g1) (W : g2) (BarG2 : g1) : res bytes :=
    let* st := append_all (new_buf (3 * g1_size C + 3 * g2_size C))
      [g2_bytes C t1; pb t2; g2_bytes C (genG2 C); pb BarG1; g2_bytes C W; pb BarG2] in
    Ok (fst st).

  (** proto.Marshal of an issuer public key; [None] models a marshalling error *)
  Variable marshal_ipk : IssuerPublicKey -> option bytes.

  Definition with_hash (ipk : IssuerPublicKey) (h : bytes) : IssuerPublicKey :=
    {| ip_names := ip_names ipk; ip_hsk := ip_hsk ipk; ip_hrand := ip_hrand ipk;
       ip_hattrs := ip_hattrs ipk; ip_w := ip_w ipk; ip_barg1 := ip_barg1 ipk;
       ip_barg2 := ip_barg2 ipk; ip_c := ip_c ipk; ip_s := ip_s ipk; ip_hash := h |}.

  (** issuerkey.go 224-233 SetHash (returns the modified key) *)
  Definition setHash (ipk : IssuerPublicKey) : res IssuerPublicKey :=
    match marshal_ipk (with_hash ipk []) with
    | None => Err
    | Some b => Ok (with_hash ipk (zb (H b)))
    end.

  (** issuerkey.go 36-117 newIssuerKey *)
  Definition newIssuerKey (names : list bytes) (R : IssuerRand) : res IssuerKey :=
    let* _ := guard (names_unique [] names) in
    let ISk := ir_isk R in
    let W := genG2 C ⊗ ISk in
    let hattrs := map (fun i => Some (g1_to_proto T (genG1 C ⊗ ir_attrs R i))) (seq 0 (length names)) in
    let HSk := genG1 C ⊗ ir_hsk R in
    let HRand := genG1 C ⊗ ir_hrand R in
    let BarG1 := genG1 C ⊗ ir_barg1 R in
    let BarG2 := BarG1 ⊗ ISk in
    let r := ir_r R in
    let t1 := genG2 C ⊗ r in
    let t2 := BarG1 ⊗ r in
    let* pd := issuer_data t1 t2 BarG1 W BarG2 in
    let proofC := H pd in
    let proofS := proofC * ISk + r in
    let ipk := {| ip_names := names;
                  ip_hsk := Some (g1_to_proto T HSk);
                  ip_hrand := Some (g1_to_proto T HRand);
                  ip_hattrs := hattrs;
                  ip_w := Some (g2_to_proto T W);
                  ip_barg1 := Some (g1_to_proto T BarG1);
                  ip_barg2 := Some (g1_to_proto T BarG2);
                  ip_c := zb proofC;
                  ip_s := zb proofS;
                  ip_hash := [] |} in
    let* ipk := setHash ipk in
    Ok {| ik_isk := zb ISk; ik_ipk := Some ipk |}.

  (** issuerkey.go 143-201: the first part of Check, up to the string that is hashed *)
  Definition checkIPK_first (ipk : IssuerPublicKey) : res bytes :=
    let* HSk := g1_from_proto T (ip_hsk ipk) in
    let* HRand := g1_from_proto T (ip_hrand ipk) in
    let* HAttrs := parse_points (ip_hattrs ipk) in
    let* BarG1 := g1_from_proto T (ip_barg1 ipk) in
    let* BarG2 := g1_from_proto T (ip_barg2 ipk) in
    let* W := g2_from_proto T (ip_w ipk) in
    let ProofC := zfb (ip_c ipk) in
    let ProofS := zfb (ip_s ipk) in
    let* _ := guard (negb (geqb BarG1 gzero)) in
    let* _ := guard (length (ip_names ipk) <=? length (ip_hattrs ipk)) in
    let* _ := guard (forallb (fun o => match o with Some _ => true | None => false end)
                             (firstn (length (ip_names ipk)) (ip_hattrs ipk))) in
    let t1 := genG2 C ⊗ ProofS ⊕ W ⊗ (- ProofC) in
    let t2 := BarG1 ⊗ ProofS ⊕ BarG2 ⊗ (- ProofC) in
    issuer_data t1 t2 BarG1 W BarG2.

  (** issuerkey.go 140-221 Check (ends in SetHash, hence returns the updated key) *)
  Definition checkIPK (ipk : IssuerPublicKey) : res IssuerPublicKey :=
    let* pd := checkIPK_first ipk in
    let* _ := guard (zeqb (zfb (ip_c ipk)) (H pd)) in
    setHash ipk.

  (** ** credrequest.go *)
  Definition credRequestLabel : bytes := str "credRequest".

  (** credrequest.go 62-69 and 111-118 *)
  Definition credreq_data (t HSk Nym : g1) (nonce hash : bytes) : res bytes :=
    let* st := append_all
      (new_buf (length credRequestLabel + 3 * g1_size C + 2 * scalar_size C))
      [credRequestLabel; pb t; pb HSk; pb Nym; nonce] in
    copy_at (fst st) (snd st) hash.

  (** credrequest.go 40-82 newCredRequest; [rSk] is the draw *)
  Definition newCredRequest (sk : zr) (nonce : option bytes) (ipk : IssuerPublicKey) (rSk : zr)
    : res CredRequest :=
    let* HSk := g1_from_proto T (ip_hsk ipk) in
    let Nym := HSk ⊗ sk in
    let t := HSk ⊗ rSk in
    let* pd := credreq_data t HSk Nym (ob nonce) (ip_hash ipk) in
    let proofC := H pd in
    let proofS := proofC * sk + rSk in
    Ok {| rq_nym := Some (g1_to_proto T Nym); rq_nonce := nonce; rq_c := zb proofC; rq_s := zb proofS |}.

  (** credrequest.go 85-118: the first part of Check, up to the string that is hashed *)
  Definition checkCredRequest_first (m : CredRequest) (ipk : IssuerPublicKey) : res bytes :=
    let* Nym := g1_from_proto T (rq_nym m) in
    let ProofC := zfb (rq_c m) in
    let ProofS := zfb (rq_s m) in
    let* HSk := g1_from_proto T (ip_hsk ipk) in
    let* nonce := opt_err (rq_nonce m) in
    let t := HSk ⊗ ProofS ⊖ Nym ⊗ ProofC in
    credreq_data t HSk Nym nonce (ip_hash ipk).

  (** credrequest.go 85-125 Check *)
  Definition checkCredRequest (m : CredRequest) (ipk : IssuerPublicKey) : res unit :=
    let* pd := checkCredRequest_first m ipk in
    guard (zeqb (zfb (rq_c m)) (H pd)).

  (** ** credential.go *)

  (** credential.go 52-138 newCredential; draws [E], [S] *)
  Definition newCredential (key : IssuerKey) (m : CredRequest) (attrs : list zr) (E S : zr)
    : res Credential :=
    let* ipk := deref (ik_ipk key) in
    let* _ := checkCredRequest m ipk in
    let* _ := guard (length attrs =? length (ip_names ipk)) in
    let* Nym := g1_from_proto T (rq_nym m) in
    let B := genG1 C ⊕ Nym in
    let* HRand := g1_from_proto T (ip_hrand ipk) in
    let B := B ⊕ HRand ⊗ S in
    let* HAttrs := parse_points (ip_hattrs ipk) in
    let* B := loop2 (length attrs) HAttrs attrs B in
    let Exp := zinv (zfb (ik_isk key) + E) in
    let A := B ⊗ Exp in
    Ok {| cr_a := Some (g1_to_proto T A);
          cr_b := Some (g1_to_proto T B);
          cr_e := zb E;
          cr_s := zb S;
          cr_attrs := map (fun a => Some (zb a)) attrs |}.

  (** credential.go 142-221 Credential.Ver *)
  Definition verCredential (cred : Credential) (sk : zr) (ipk : IssuerPublicKey) : res unit :=
    let* A := g1_from_proto T (cr_a cred) in
    let* B := g1_from_proto T (cr_b cred) in
    let E := zfb (cr_e cred) in
    let S := zfb (cr_s cred) in
    (* the error message indexes ipk.AttributeNames[i]: a panic when i is out of range *)
    let* _ := fold_res (fun _ i =>
        let* a := nth_res (cr_attrs cred) i in
        match a with
        | Some _ => Ok tt
        | None => let* _ := nth_res (ip_names ipk) i in Err
        end) (seq 0 (length (cr_attrs cred))) tt in
    let* HSk := g1_from_proto T (ip_hsk ipk) in
    let* HRand := g1_from_proto T (ip_hrand ipk) in
    let* HAttrs := parse_points (ip_hattrs ipk) in
    let BPrime := genG1 C ⊕ gmul2 HSk sk HRand S in
    let* BPrime := loop2 (length (cr_attrs cred)) HAttrs (map (fun a => zfb (ob a)) (cr_attrs cred)) BPrime in
    let* _ := guard (geqb B BPrime) in
    let* W := g2_from_proto T (ip_w ipk) in
    let a := genG2 C ⊗ E ⊕ W in
    guard (geqb (pair C a A) (pair C (genG2 C) B)).

  (** ** signature.go *)
  Definition signLabel : bytes := str "sign".
  Definition signWithEidNymLabel : bytes := str "signWithEidNym".
  Definition signWithEidNymRhNymLabel : bytes := str "signWithEidNymRhNym".

  (** signature.go 39-48 hiddenIndices *)
  Fixpoint hidden_from (i : nat) (disclosure : bytes) : list nat :=
    match disclosure with
    | [] => []
    | d :: ds => if byte_eqb d b0 then i :: hidden_from (S i) ds else hidden_from (S i) ds
    end.
  Definition hiddenIndices (disclosure : bytes) : list nat := hidden_from 0 disclosure.

  (** sort.SearchInts(a, x): the smallest i with a[i] >= x, or len(a) *)
  Fixpoint searchInts (a : list nat) (x : Z) : nat :=
    match a with
    | [] => 0
    | y :: a' => if (x <=? Z.of_nat y)%Z then 0 else S (searchInts a' x)
    end.

  (** draws of NewSignature, named after the Go variables *)
  Record SigRand := {
    rd_r1 : zr; rd_r2 : zr; rd_nonce : zr;
    rd_rsk : zr; rd_re : zr; rd_rr2 : zr; rd_rr3 : zr; rd_rsprime : zr; rd_rrnym : zr;
    rd_rattrs : nat -> zr;
    rd_eid : zr; rd_r_eid : zr;
    rd_rh : zr; rd_r_rh : zr
  }.

  (** the values returned by prepare *)
  Record Prepared := {
    pr_t1 : g1; pr_t2 : g1; pr_t3 : g1;
    pr_aprime : g1; pr_abar : g1; pr_bprime : g1;
    pr_e : zr; pr_r3 : zr; pr_sprime : zr;
    pr_rattrs : list zr;
    pr_hidden : list nat
  }.

  Definition alg_none (a : Z) : bool := (a =? 0)%Z.   (* ALG_NO_REVOCATION = 0 *)

  (** signature.go 261-267: input validation shared by prepare and Ver *)
  Definition valid_input (rhIndex : Z) (ipk : IssuerPublicKey) (disclosure : bytes) : bool :=
    negb ((rhIndex <? 0) || (Z.of_nat (length (ip_names ipk)) <=? rhIndex))%Z
    && (length disclosure =? length (ip_names ipk)).

  (** signature.go 234-406 prepare (all pointers already checked to be non-nil, see
      NewSignature below). The non-revocation prover is the nop prover or an error;
      it contributes no bytes, but its arguments cred.Attrs[rhIndex] and
      rAttrs[SearchInts(..)] are indexed. *)
  Definition prepare (cred : Credential) (sk : zr) (ipk : IssuerPublicKey)
      (disclosure : bytes) (rhIndex : Z) (cri : CRI) (R : SigRand) : res Prepared :=
    let* _ := guard (valid_input rhIndex ipk disclosure) in
    let* d := znth disclosure rhIndex in
    let* _ := guard (negb (negb (alg_none (cri_alg cri)) && byte_eqb d Byte.x01)) in
    let hidden := hiddenIndices disclosure in
    let r1 := rd_r1 R in
    let r2 := rd_r2 R in
    let r3 := zinv r1 in
    let* A := g1_from_proto T (cr_a cred) in
    let* B := g1_from_proto T (cr_b cred) in
    let APrime := A ⊗ r1 in
    let ABar := B ⊗ r1 ⊖ APrime ⊗ zfb (cr_e cred) in
    let* HRand := g1_from_proto T (ip_hrand ipk) in
    let* HSk := g1_from_proto T (ip_hsk ipk) in
    let BPrime := B ⊗ r1 ⊖ HRand ⊗ r2 in
    let S := zfb (cr_s cred) in
    let E := zfb (cr_e cred) in
    let sPrime := S - r2 * r3 in
    let rAttrs := map (rd_rattrs R) (seq 0 (length hidden)) in
    let* _ := guard (alg_none (cri_alg cri)) in
    let* _ := znth (cr_attrs cred) rhIndex in
    let* _ := nth_res rAttrs (searchInts hidden rhIndex) in
    let* HAttrs := parse_points (ip_hattrs ipk) in
    let t1 := gmul2 APrime (rd_re R) HRand (rd_rr2 R) in
    let t2 := HRand ⊗ rd_rsprime R ⊕ gmul2 BPrime (rd_rr3 R) HSk (rd_rsk R) in
    let* HHidden := map_res (nth_res HAttrs) hidden in
    let* t2 := loop2 (length hidden) HHidden rAttrs t2 in
    let t3 := gmul2 HSk (rd_rsk R) HRand (rd_rrnym R) in
    Ok {| pr_t1 := t1; pr_t2 := t2; pr_t3 := t3; pr_aprime := APrime; pr_abar := ABar;
          pr_bprime := BPrime; pr_e := E; pr_r3 := r3; pr_sprime := sPrime;
          pr_rattrs := rAttrs; pr_hidden := hidden |}.

  (** signature.go 522-590 and 1011-1067: the Fiat-Shamir input. [eid], [rh] are the pairs
      (nym, t4). The label and buffer length follow from which of them are present. The
      non-revocation contribution is empty (ProofBytes[ALG_NO_REVOCATION] = 0). *)
  Definition sig_label (eid rh : option (g1 * g1)) : bytes :=
    match rh, eid with
    | Some _, _ => signWithEidNymRhNymLabel
    | None, Some _ => signWithEidNymLabel
    | None, None => signLabel
    end.

  Definition nym_pts (x : option (g1 * g1)) : list bytes :=
    match x with
    | Some (n, t) => [pb n; pb t]
    | None => []
    end.

  Definition sig_npts (eid rh : option (g1 * g1)) : nat :=
    match rh, eid with
    | Some _, _ => 11
    | None, Some _ => 9
    | None, None => 7
    end.

  Definition sig_data (t1 t2 t3 APrime ABar BPrime Nym : g1) (eid rh : option (g1 * g1))
      (hash disclosure msg : bytes) : res bytes :=
    let pdl := (scalar_size C + length disclosure + length msg
               + (length (sig_label eid rh) + sig_npts eid rh * g1_size C))%nat in
    let* st := append_all (new_buf pdl)
      ([sig_label eid rh; pb t1; pb t2; pb t3; pb APrime; pb ABar; pb BPrime; pb Nym]
       ++ nym_pts eid ++ nym_pts rh) in
    let* st := copy_adv st hash (scalar_size C) in
    let* st := copy_adv st disclosure (length disclosure) in
    copy_at (fst st) (snd st) msg.

  (** proofData = proofData[:2*ScalarByteSize]; c || Nonce *)
  Definition challenge (pd : bytes) (nonce : zr) : res zr :=
    let* pd2 := rehash_buf pd (scalar_size C) (zb (H pd)) (zb nonce) in
    Ok (H pd2).

  (** signature.go 439-480 / 482-523: the commitment part of finalise for one attribute.
      Returns (Nym_attr, t4, r_attr, attribute). [fresh] is the draw used when metadata is
      nil, [rr] the draw r_r_eid. *)
  Definition finalise_nym (cred : Credential) (ipk : IssuerPublicKey) (idx : Z)
      (meta : option (option (AuditData C))) (hidden : list nat) (rAttrs : list zr)
      (fresh rr : zr) : res (g1 * g1 * zr * zr) :=
    let* a := znth (cr_attrs cred) idx in
    let attr := zfb (ob a) in
    let* r :=
      match meta with
      | None => Ok fresh
      | Some None => Err
      | Some (Some d) =>
          let* at' := deref (au_attr d) in
          let* _ := guard (zeqb at' attr) in
          Ok (match au_rand d with Some r => r | None => fresh end)
      end in
    let* r_a := nth_res rAttrs (searchInts hidden idx) in
    let* h := znth (ip_hattrs ipk) idx in
    let* H_a := g1_from_proto T h in
    let* HRand := g1_from_proto T (ip_hrand ipk) in
    (* a nil Rand in the metadata is dereferenced by Mul2 *)
    let* _ := match meta with
              | Some (Some d) => let* _ := deref (au_rand d) in Ok tt
              | _ => Ok tt
              end in
    let nym := gmul2 H_a attr HRand r in
    let* _ := match meta with
              | Some (Some d) =>
                  let* n := deref (au_nym d) in guard (geqb n nym)
              | _ => Ok tt
              end in
    Ok (nym, gmul2 H_a r_a HRand rr, r, attr).

  Definition opt_map {A B} (f : A -> B) (x : option A) : option B :=
    match x with Some a => Some (f a) | None => None end.

  (** signature.go 408-709 finalise, for sigType in {Standard, EidNym, EidNymRhNym};
      [we], [wr] say whether the enrollment id / revocation handle nym is included. *)
  Definition finalise (cred : Credential) (sk : zr) (Nym : g1) (RNym : zr) (ipk : IssuerPublicKey)
      (disclosure msg : bytes) (rhIndex eidIndex : Z) (cri : CRI) (P : Prepared) (R : SigRand)
      (we wr : bool) (metadata : option (Metadata C)) : res (Signature * option (Metadata C)) :=
    let* eid :=
      if we then
        let* x := finalise_nym cred ipk eidIndex (opt_map (@md_eid_data C) metadata)
                     (pr_hidden P) (pr_rattrs P) (rd_eid R) (rd_r_eid R) in Ok (Some x)
      else Ok None in
    let* rh :=
      if wr then
        let* x := finalise_nym cred ipk rhIndex (opt_map (@md_rh_data C) metadata)
                     (pr_hidden P) (pr_rattrs P) (rd_rh R) (rd_r_rh R) in Ok (Some x)
      else Ok None in
    let pts x := match x with Some (n, t, _, _) => Some (n, t) | None => None end in
    let* pd := sig_data (pr_t1 P) (pr_t2 P) (pr_t3 P) (pr_aprime P) (pr_abar P) (pr_bprime P) Nym
                 (pts eid) (pts rh) (ip_hash ipk) disclosure msg in
    let* ProofC := challenge pd (rd_nonce R) in
    let* sattrs := map_res (fun ij : nat * nat =>
        let* r := nth_res (pr_rattrs P) (fst ij) in
        let* a := nth_res (cr_attrs cred) (snd ij) in
        Ok (zb (r + ProofC * zfb (ob a))))
      (combine (seq 0 (length (pr_hidden P))) (pr_hidden P)) in
    let nym_msg x rr := match x with
      | Some (n, _, r, _) => Some {| an_nym := Some (g1_to_proto T n); an_s := Some (zb (rr + ProofC * r)) |}
      | None => None end in
    let audit x := match x with
      | Some (n, _, r, a) => Some {| au_nym := Some n; au_rand := Some r; au_attr := Some a |}
      | None => None end in
    Ok ({| sg_aprime := Some (g1_to_proto T (pr_aprime P));
           sg_abar := Some (g1_to_proto T (pr_abar P));
           sg_bprime := Some (g1_to_proto T (pr_bprime P));
           sg_c := zb ProofC;
           sg_ssk := zb (rd_rsk R + ProofC * sk);
           sg_se := zb (rd_re R - ProofC * pr_e P);
           sg_sr2 := zb (rd_rr2 R + ProofC * rd_r2 R);
           sg_sr3 := zb (rd_rr3 R - ProofC * pr_r3 P);
           sg_ssprime := zb (rd_rsprime R + ProofC * pr_sprime P);
           sg_sattrs := sattrs;
           sg_nonce := zb (rd_nonce R);
           sg_nym := Some (g1_to_proto T Nym);
           sg_srnym := zb (rd_rrnym R + ProofC * RNym);
           sg_epochpk := cri_epochpk cri;
           sg_pksig := cri_sig cri;
           sg_epoch := cri_epoch cri;
           sg_nonrev := Some {| nr_alg := 0 |};
           sg_eid := nym_msg eid (rd_r_eid R);
           sg_rh := nym_msg rh (rd_r_rh R) |},
        if we then Some {| md_eid := []; md_eid_data := audit eid; md_rh := []; md_rh_data := audit rh |}
        else None).

  (** signature.go 55-232 NewSignature and the three variants. Nil pointers among
      (cred, sk, Nym, RNym, ipk, cri) make prepare fail (257-259), but the disclosure
      checks 143 / 196-202 come first. *)
  Definition NewSignature (cred : option Credential) (sk : option zr) (Nym : option g1)
      (RNym : option zr) (ipk : option IssuerPublicKey) (disclosure msg : bytes)
      (rhIndex eidIndex : Z) (cri : option CRI) (R : SigRand) (sigType : SignatureType)
      (metadata : option (Metadata C)) : res (Signature * option (Metadata C)) :=
    let run we wr :=
      match cred, sk, Nym, RNym, ipk, cri with
      | Some cred, Some sk, Some Nym, Some RNym, Some ipk, Some cri =>
          let* P := prepare cred sk ipk disclosure rhIndex cri R in
          finalise cred sk Nym RNym ipk disclosure msg rhIndex eidIndex cri P R we wr metadata
      | _, _, _, _, _, _ => Err
      end in
    match sigType with
    | Standard => run false false
    | EidNym =>
        let* d := znth disclosure eidIndex in
        let* _ := guard (byte_eqb d b0) in
        run true false
    | EidNymRhNym =>
        let* d := znth disclosure eidIndex in
        let* _ := guard (byte_eqb d b0) in
        let* d := znth disclosure rhIndex in
        let* _ := guard (byte_eqb d b0) in
        run true true
    | _ => Panic
    end.

  (** signature.go 711-754 AuditNymEid / 756-799 AuditNymRh on a signature; [nymOf]
      selects the EidNym or RhNym field *)
  Definition auditNym (nymOf : Signature -> option AttrNym) (sig : Signature)
      (ipk : option IssuerPublicKey) (attr : zr) (idx : Z) (rnd : zr) : res unit :=
    let* ipk := opt_err ipk in
    let* an := opt_err (nymOf sig) in
    let* np := opt_err (an_nym an) in
    let* _ := guard (negb (Z.of_nat (length (ip_hattrs ipk)) <=? idx)%Z) in
    let* h := znth (ip_hattrs ipk) idx in
    let* H_a := g1_from_proto T h in
    let* HRand := g1_from_proto T (ip_hrand ipk) in
    let* nym := g1_from_proto T (Some np) in
    guard (geqb (gmul2 H_a attr HRand rnd) nym).

  Definition auditNymEid := auditNym sg_eid.
  Definition auditNymRh := auditNym sg_rh.

  (** nymeid.go 17-55 / nymrh.go 17-55: audit of a raw nym *)
  Definition auditRawNym (raw : bytes) (ipk : option IssuerPublicKey) (attr : zr) (idx : Z) (rnd : zr)
    : res unit :=
    let* ipk := opt_err ipk in
    let* _ := guard (negb (length raw =? 0)) in
    let* _ := guard (negb (Z.of_nat (length (ip_hattrs ipk)) <=? idx)%Z) in
    let* h := znth (ip_hattrs ipk) idx in
    let* H_a := g1_from_proto T h in
    let* HRand := g1_from_proto T (ip_hrand ipk) in
    let* nym := opt_err (g1_of_bytes C raw) in
    guard (geqb (gmul2 H_a attr HRand rnd) nym).

  (** signature.go 830-854: which extensions are verified, or an error *)
  Definition nym_complete (x : option AttrNym) : bool :=
    match x with
    | Some {| an_nym := Some _; an_s := Some _ |} => true
    | _ => false
    end.
  Definition is_some {A} (x : option A) : bool := match x with Some _ => true | None => false end.

  Definition type_checks (v : VerificationType) (sig : Signature) : bool :=
    negb ((v =?v ExpectEidNym) && negb (nym_complete (sg_eid sig)))
    && negb ((v =?v ExpectEidNymRhNym) && (negb (nym_complete (sg_eid sig)) || negb (nym_complete (sg_rh sig))))
    && negb ((v =?v ExpectStandard) && (is_some (sg_rh sig) || is_some (sg_eid sig))).

  Definition verifyRHNym (v : VerificationType) (sig : Signature) : bool :=
    ((v =?v BestEffort) && is_some (sg_rh sig)) || (v =?v ExpectEidNymRhNym).
  Definition verifyEIDNym (v : VerificationType) (sig : Signature) : bool :=
    ((v =?v BestEffort) && is_some (sg_eid sig)) || (v =?v ExpectEidNym) || (v =?v ExpectEidNymRhNym)
    || verifyRHNym v sig.

  (** signature.go 988-1003 / 1004-1017: recompute t4 for an attribute nym. Accessing
      sig.EidNym.ProofSEid dereferences sig.EidNym. Returns (nym, t4). *)
  Definition recompute_t4 (an : option AttrNym) (ipk : IssuerPublicKey) (idx : Z)
      (hidden : list nat) (sattrs : list zr) (HRand : g1) (ProofC : zr) : res (g1 * g1) :=
    let* h := znth (ip_hattrs ipk) idx in
    let* H_a := g1_from_proto T h in
    let* an := deref an in
    let v := zfb (ob (an_s an)) in
    let* s := nth_res sattrs (searchInts hidden idx) in
    let* nym := g1_from_proto T (an_nym an) in
    Ok (nym, gmul2 H_a s HRand v ⊖ nym ⊗ ProofC).

  (** signature.go 1078-1108 / 1110-1140: consistency of verifier-supplied metadata *)
  Definition check_meta (nym : g1) (data : option (AuditData C)) (raw : bytes)
      (ipk : IssuerPublicKey) (idx : Z) (HRand : g1) : res unit :=
    let* _ :=
      match data with
      | None => Ok tt
      | Some d =>
          let* h := znth (ip_hattrs ipk) idx in
          let* H_a := g1_from_proto T h in
          let* a := deref (au_attr d) in
          let* r := deref (au_rand d) in
          let* _ := guard (geqb (gmul2 H_a a HRand r) nym) in
          match au_nym d with
          | None => Ok tt
          | Some n => guard (geqb nym n)
          end
      end in
    if length raw =? 0 then Ok tt
    else
      let* n := opt_err (g1_of_bytes C raw) in
      guard (geqb n nym).

  (** signature.go 971-979: temp = g1 * prod_{disclosed} HAttrs[i]^{attributeValues[i]} *)
  Fixpoint disclosed_prod (i : nat) (disclosure : bytes) (HAttrs : list g1)
      (values : list (option zr)) (acc : g1) : res g1 :=
    match disclosure with
    | [] => Ok acc
    | d :: ds =>
        if byte_eqb d b0 then disclosed_prod (S i) ds HAttrs values acc
        else
          let* h := nth_res HAttrs i in
          let* v := nth_res values i in
          let* v := deref v in
          disclosed_prod (S i) ds HAttrs values (acc ⊕ h ⊗ v)
    end.

  (** What the first part of Ver hands over to the second: the string to be hashed, the
      challenge and nonce of the signature, the base HRand and the attribute nyms. *)
  Record VerFirst := {
    vf_data : bytes;
    vf_c : zr;
    vf_nonce : zr;
    vf_hrand : g1;
    vf_eid : option (g1 * g1);
    vf_rh : option (g1 * g1)
  }.

  (** signature.go 819-1071: Ver up to and including the construction of proofData. *)
  Definition Ver_first (sig : Signature) (disclosure : bytes) (ipk : IssuerPublicKey) (msg : bytes)
      (attributeValues : list (option zr)) (rhIndex eidIndex : Z) (verType : VerificationType)
    : res VerFirst :=
    let* _ := guard (valid_input rhIndex ipk disclosure) in
    let* nrp := deref (sg_nonrev sig) in
    let* d := znth disclosure rhIndex in
    let* _ := guard (negb (negb (alg_none (nr_alg nrp)) && byte_eqb d Byte.x01)) in
    let* _ := guard (type_checks verType sig) in
    let vrh := verifyRHNym verType sig in
    let veid := verifyEIDNym verType sig in
    let hidden := hiddenIndices disclosure in
    let* APrime := g1_from_proto T (sg_aprime sig) in
    let* ABar := g1_from_proto T (sg_abar sig) in
    let* BPrime := g1_from_proto T (sg_bprime sig) in
    let* Nym := g1_from_proto T (sg_nym sig) in
    let ProofC := zfb (sg_c sig) in
    let ProofSSk := zfb (sg_ssk sig) in
    let ProofSE := zfb (sg_se sig) in
    let ProofSR2 := zfb (sg_sr2 sig) in
    let ProofSR3 := zfb (sg_sr3 sig) in
    let ProofSSPrime := zfb (sg_ssprime sig) in
    let ProofSRNym := zfb (sg_srnym sig) in
    let* _ := guard (length (sg_sattrs sig) =? length hidden) in
    let ProofSAttrs := map zfb (sg_sattrs sig) in
    let Nonce := zfb (sg_nonce sig) in
    let* W := g2_from_proto T (ip_w ipk) in
    let* HRand := g1_from_proto T (ip_hrand ipk) in
    let* HSk := g1_from_proto T (ip_hsk ipk) in
    let* _ := guard (negb (geqb APrime gzero)) in
    let* _ := guard (geqb (pair C W APrime ⊖ pair C (genG2 C) ABar) gzero) in
    let* HAttrs := parse_points (ip_hattrs ipk) in
    let t1 := gmul2 APrime ProofSE HRand ProofSR2 ⊖ (ABar ⊖ BPrime) ⊗ ProofC in
    let t2 := HRand ⊗ ProofSSPrime ⊕ gmul2 BPrime ProofSR3 HSk ProofSSk in
    let* HHidden := map_res (nth_res HAttrs) hidden in
    let* t2 := loop2 (length hidden) HHidden ProofSAttrs t2 in
    let* temp := disclosed_prod 0 disclosure HAttrs attributeValues (genG1 C) in
    let t2 := t2 ⊕ temp ⊗ ProofC in
    let t3 := gmul2 HSk ProofSSk HRand ProofSRNym ⊖ Nym ⊗ ProofC in
    let* eid := if veid
      then let* x := recompute_t4 (sg_eid sig) ipk eidIndex hidden ProofSAttrs HRand ProofC in Ok (Some x)
      else Ok None in
    let* rh := if vrh
      then let* x := recompute_t4 (sg_rh sig) ipk rhIndex hidden ProofSAttrs HRand ProofC in Ok (Some x)
      else Ok None in
    let* _ := guard (alg_none (nr_alg nrp)) in
    let* _ := nth_res ProofSAttrs (searchInts hidden rhIndex) in
    let* _ := g2_from_proto T (sg_epochpk sig) in
    let* pd := sig_data t1 t2 t3 APrime ABar BPrime Nym eid rh (ip_hash ipk) disclosure msg in
    Ok {| vf_data := pd; vf_c := ProofC; vf_nonce := Nonce; vf_hrand := HRand; vf_eid := eid; vf_rh := rh |}.

  (** signature.go 805-1193 Ver. The arguments revPk and epoch of the Go function are
      accepted and never read; they are kept here so that theorems can talk about them. *)
  Definition Ver (sig : Signature) (disclosure : bytes) (ipk : option IssuerPublicKey) (msg : bytes)
      (attributeValues : list (option zr)) (rhIndex eidIndex : Z) {revpk : Type} (revPk : revpk) (epoch : Z)
      (verType : VerificationType) (meta : option (Metadata C)) : res unit :=
    let* ipk := opt_err ipk in
    let* F := Ver_first sig disclosure ipk msg attributeValues rhIndex eidIndex verType in
    let* c := challenge (vf_data F) (vf_nonce F) in
    let* _ := match vf_eid F, meta with
      | Some (n, _), Some m => check_meta n (md_eid_data m) (md_eid m) ipk eidIndex (vf_hrand F)
      | _, _ => Ok tt
      end in
    let* _ := match vf_rh F, meta with
      | Some (n, _), Some m => check_meta n (md_rh_data m) (md_rh m) ipk rhIndex (vf_hrand F)
      | _, _ => Ok tt
      end in
    guard (zeqb (vf_c F) c).

  (** ** nymsignature.go *)

  (** nymsignature.go 57-64 and 109-116 *)
  Definition nymsig_data (t Nym : g1) (hash msg : bytes) : res bytes :=
    let* st := append_all (new_buf (length signLabel + 2 * g1_size C + scalar_size C + length msg))
      [signLabel; pb t; pb Nym] in
    let* st := copy_adv st hash (scalar_size C) in
    copy_at (fst st) (snd st) msg.

  (** nymsignature.go 21-83 newNymSignature; draws Nonce, rSk, rRNym *)
  Definition newNymSignature (sk : option zr) (Nym : option g1) (RNym : option zr)
      (ipk : option IssuerPublicKey) (msg : bytes) (Nonce rSk rRNym : zr) : res NymSignature :=
    match sk, Nym, RNym, ipk with
    | Some sk, Some Nym, Some RNym, Some ipk =>
        let* HRand := g1_from_proto T (ip_hrand ipk) in
        let* HSk := g1_from_proto T (ip_hsk ipk) in
        let t := gmul2 HSk rSk HRand rRNym in
        let* pd := nymsig_data t Nym (ip_hash ipk) msg in
        let* ProofC := challenge pd Nonce in
        Ok {| ns_c := zb ProofC;
              ns_ssk := zb (rSk + ProofC * sk);
              ns_srnym := zb (rRNym + ProofC * RNym);
              ns_nonce := zb Nonce |}
    | _, _, _, _ => Err
    end.

  (** nymsignature.go 86-116: the first part of NymSignature.Ver, up to the string that is
      hashed (nil ipk or nym: nil dereference) *)
  Definition verNym_first (sig : NymSignature) (nym : option g1) (ipk : option IssuerPublicKey)
      (msg : bytes) : res bytes :=
    let ProofC := zfb (ns_c sig) in
    let ProofSSk := zfb (ns_ssk sig) in
    let ProofSRNym := zfb (ns_srnym sig) in
    let* ipk := deref ipk in
    let* HRand := g1_from_proto T (ip_hrand ipk) in
    let* HSk := g1_from_proto T (ip_hsk ipk) in
    let* nym := deref nym in
    let t := gmul2 HSk ProofSSk HRand ProofSRNym ⊖ nym ⊗ ProofC in
    nymsig_data t nym (ip_hash ipk) msg.

  (** nymsignature.go 86-128 NymSignature.Ver *)
  Definition verNymSignature (sig : NymSignature) (nym : option g1) (ipk : option IssuerPublicKey)
      (msg : bytes) : res unit :=
    let* pd := verNym_first sig nym ipk msg in
    let* c := challenge pd (zfb (ns_nonce sig)) in
    guard (zeqb (zfb (ns_c sig)) c).
End Dlog.
