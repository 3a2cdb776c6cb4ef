(** Model of /repo/bccsp/schemes/aries.

    Conventions as in Bbs.v: [HG] hashes to G1, [H] is bbs.FrFromOKM, random draws are explicit
    arguments, [panic] and run-time errors are [Panic] (nothing in this package recovers).
    Integers supplied by a caller or by a decoded message are [Z], and indexing with them panics
    out of range.  Protobuf messages go through abstract codecs as in Bridge.v.
    Simplifications: slice capacity equals length (MemParse.v does without); a nil *IssuerPublicKey inside the interface
    panics at the type assertion instead of at its first use; secret keys, pseudonyms and their
    randomness are non-nil pointers; int is unbounded. *)
From Verif Require Import Base Curve Dlog Bridge Bbs.
Unset Strict Implicit.

(** ** cred.pb.go / cred.proto *)
(** cred.proto 15-19 *)
Record ACredential := { ac_cred : bytes; ac_attrs : list bytes; ac_skpos : Z }.

(** cred.proto 22-40.  proto3 bytes fields: after decoding a field is nil exactly when it is
    empty.  [as_alg] is non_revocation_proof: absent, or its revocation_alg. *)
Record ASignature := {
  as_main : bytes; as_nonce : bytes; as_nym : bytes; as_nym_proof : bytes;
  as_eid : bytes; as_eid_proof : bytes; as_eid_idx : Z;
  as_rh : bytes; as_rh_proof : bytes; as_rh_idx : Z;
  as_epoch_pk : bytes; as_pk_sig : bytes; as_epoch : Z;
  as_alg : option Z
}.

(** cred.proto 66-69 *)
Record ANymSignature := { ans_main : bytes; ans_nonce : bytes }.

Section Aries.
  Variable C : Curve.
  Variable HG : bytes -> G1 C.
  Variable H : hasher C.
  Notation zr := (zcar (Zr C)).
  Notation g1 := (gcar (G1 C)).
  Notation g2 := (gcar (G2 C)).
  Notation pkwg := (PublicKeyWithGenerators C).
  Notation message := (SignatureMessage C).

  Variable c_cred : codec ACredential.
  Variable c_sig : codec ASignature.
  Variable c_nsig : codec ANymSignature.
  Variable c_cri : codec ACRI.

  (** ** issuer.go *)
  (** issuer.go 22-27 *)
  Record AIssuerPublicKey := { ip_pk : g2; ip_key : pkwg; ip_n : nat }.
  (** issuer.go 41-44 *)
  Record AIssuerSecretKey := { is_pub : AIssuerPublicKey; is_sk : zr }.

  (** key.(-IssuerPublicKey) and the like.  Simplification: a typed nil pointer panics here, in the code where it is first used. *)
  Definition assert_ptr {X} (key : iface X) : res X :=
    match key with
    | None => Err
    | Some None => Panic
    | Some (Some x) => Ok x
    end.

  (** issuer.go 91-117 (NewKey); [seed] are the 32 bytes drawn *)
  Definition arNewKey (hkdf : bytes -> bytes) (names : list bytes) (seed : bytes) : res AIssuerSecretKey :=
    let* '(pk, sk) := generateKeyPair H hkdf (Some seed) [] in
    let* key := toPublicKeyWithGenerators HG pk (length names + 1) in
    Ok {| is_pub := {| ip_pk := pk; ip_key := key; ip_n := length names |}; is_sk := sk |}.

  (** issuer.go 121-142 (NewKeyFromBytes) *)
  Definition arNewKeyFromBytes (raw : bytes) (names : list bytes) : res AIssuerSecretKey :=
    let* sk := unmarshalPrivateKey C raw in
    let pk := publicKey sk in
    let* key := toPublicKeyWithGenerators HG pk (length names + 1) in
    Ok {| is_pub := {| ip_pk := pk; ip_key := key; ip_n := length names |}; is_sk := sk |}.

  (** issuer.go 146-162 (NewPublicKeyFromBytes) *)
  Definition arNewPublicKeyFromBytes (raw : bytes) (names : list bytes) : res AIssuerPublicKey :=
    let* pk := unmarshalPublicKey C raw in
    let* key := toPublicKeyWithGenerators HG pk (length names + 1) in
    Ok {| ip_pk := pk; ip_key := key; ip_n := length names |}.

  (** issuer.go 30-32, 47-49 *)
  Definition arPublicKeyBytes (ipk : AIssuerPublicKey) : bytes := g2_comp C (ip_pk ipk).
  Definition arSecretKeyBytes (isk : AIssuerSecretKey) : bytes := zr_bytes C (is_sk isk).

  (** issuer.go 64-88 (Bases): the bases of Nym, NymEid and NymRh.  types.Dlog is 1. *)
  Record BasesMap := { bm_nym : g1 * g1; bm_eid : g1 * g1; bm_rh : g1 * g1 }.
  Definition arBases (key : iface AIssuerPublicKey) (ipkType rhIndex eidIndex skIndex : Z) : res BasesMap :=
    let* _ := guard (ipkType =? 1)%Z in
    let* ipk := assert_ptr key in
    let n := Z.of_nat (ip_n ipk) in
    let* _ := guard (negb ((rhIndex =? eidIndex) || (eidIndex =? skIndex) || (rhIndex =? skIndex)
                           || (n <=? rhIndex) || (n <=? eidIndex) || (n <=? skIndex))%Z) in
    let h0 := pg_h0 (ip_key ipk) in
    let* hs := znth (pg_h (ip_key ipk)) skIndex in
    let* he := znth (pg_h (ip_key ipk)) (eidIndex + 1) in
    let* hr := znth (pg_h (ip_key ipk)) (rhIndex + 1) in
    Ok {| bm_nym := (h0, hs); bm_eid := (h0, he); bm_rh := (h0, hr) |}.

  (** ** user.go *)
  (** user.go 32-38 *)
  Definition arUserKeyFromBytes (raw : bytes) : res zr :=
    let* _ := guard (length raw =? scalar_size C) in Ok (zr_of_bytes C raw).

  (** user.go 41-58 (MakeNym); [skIdx] is UserSecretKeyIndex, [rNym] the draw *)
  Definition arMakeNym (skIdx : Z) (sk : zr) (key : iface AIssuerPublicKey) (rNym : zr) : res (g1 * zr) :=
    let* ipk := assert_ptr key in
    let* hs := znth (pg_h (ip_key ipk)) skIdx in
    let* nym := build [(pg_h0 (ip_key ipk), rNym); (hs, sk)] in
    Ok (nym, rNym).

  (** user.go 60-72 *)
  Definition arNymFromBytes (raw : bytes) : res (g1 * zr) :=
    let* _ := guard (length raw =? scalar_size C + g1_size C) in
    let* a := slice raw 0 (scalar_size C) in
    let* b := slice_from raw (scalar_size C) in
    let* nym := opt_err (g1_of_bytes C b) in
    Ok (nym, zr_of_bytes C a).

  (** user.go 75-86 *)
  Definition arPublicNymFromBytes (raw : bytes) : res g1 :=
    let* _ := guard (length raw =? g1_size C) in opt_err (g1_of_bytes C raw).

  (** ** util.go *)
  (** the value of a disclosed attribute, util.go 20-30; the type assertions panic *)
  Definition ar_value (a : attribute) : res (option zr) :=
    match at_type a with
    | BytesAttr => match at_value a with VBytes b => Ok (Some (H b)) | _ => Panic end
    | IntAttr => match at_value a with VInt z => Ok (Some (zr_of_Z C z)) | _ => Panic end
    | HiddenAttr => Ok None
    | OtherAttr => Ok None
    end.

  (** util.go 19-34 *)
  Fixpoint to_messages (i : nat) (attributes : list attribute) : res (list message) :=
    match attributes with
    | [] => Ok []
    | a :: rest =>
        let* v := ar_value a in
        let* ms := to_messages (S i) rest in
        Ok (match v with Some x => {| sm_fr := x; sm_idx := i |} :: ms | None => ms end)
    end.

  Definition hidden_attr : attribute := {| at_type := HiddenAttr; at_value := VOther |}.

  (** [l[:i]] and [l[i:]] *)
  Definition zsplit {A} (l : list A) (i : Z) : res (list A * list A) :=
    if ((0 <=? i) && (i <=? Z.of_nat (length l)))%Z
    then Ok (firstn (Z.to_nat i) l, skipn (Z.to_nat i) l) else Panic.

  (** util.go 15-37 *)
  Definition attributesToSignatureMessage (attributes : list attribute) (skPos : Z) : res (list message) :=
    let* '(a, b) := zsplit attributes skPos in
    to_messages 0 (a ++ [hidden_attr] ++ b).

  Definition is_hidden (a : attribute) : bool := match at_type a with HiddenAttr => true | _ => false end.

  (** util.go 39-49 *)
  Fixpoint revealed_from (i : nat) (attributes : list attribute) : list nat :=
    match attributes with
    | [] => []
    | a :: rest => if is_hidden a then revealed_from (S i) rest else i :: revealed_from (S i) rest
    end.
  Definition revealedAttributesIndexNoSk (attributes : list attribute) : list nat := revealed_from 0 attributes.
  (** util.go 51-61 *)
  Definition revealedAttributesIndex (attributes : list attribute) : list nat := revealed_from 1 attributes.

  (** util.go 63-82: [n] messages remain, the next has index [i], the next attribute is the head *)
  Fixpoint to_sig_messages (n i : nat) (attrs : list bytes) (skPos : Z) (sk : zr) : res (list message) :=
    match n with
    | O => Ok []
    | S n' =>
        if (Z.of_nat i =? skPos)%Z
        then let* ms := to_sig_messages n' (S i) attrs skPos sk in Ok ({| sm_fr := sk; sm_idx := i |} :: ms)
        else match attrs with
             | [] => Panic
             | a :: attrs' =>
                 let* ms := to_sig_messages n' (S i) attrs' skPos sk in
                 Ok ({| sm_fr := zr_of_bytes C a; sm_idx := i |} :: ms)
             end
    end.
  Definition toSignatureMessage (c : ACredential) (sk : zr) : res (list message) :=
    to_sig_messages (length (ac_attrs c) + 1) 0 (ac_attrs c) (ac_skpos c) sk.

  (** ** blind_sign.go *)
  (** blind_sign.go 20-25, 75-78 *)
  Record BlindedMessages := { bl_c : g1; bl_pokc : g1; bl_proof : ProofG1 C }.

  (** blind_sign.go 27-35 *)
  Definition blindedBytes (b : BlindedMessages) : res bytes :=
    let* p := proofG1Bytes (bl_proof b) in
    Ok (g1_comp C (bl_c b) ++ g1_comp C (bl_pokc b) ++ p).

  (** blind_sign.go 37-70 *)
  Definition parseBlindedMessages (b : bytes) : res BlindedMessages :=
    let cs := g1_csize C in
    let* _ := guard (2 * cs <=? length b) in
    let* b1 := slice b 0 cs in
    let* c := opt_err (g1_of_comp C b1) in
    let* b2 := slice b cs (cs + cs) in
    let* pokc := opt_err (g1_of_comp C b2) in
    let* b3 := slice_from b (cs + cs) in
    let* p := parseProofG1 C b3 in
    Ok {| bl_c := c; bl_pokc := pokc; bl_proof := p |}.

  (** blind_sign.go 90-96: the bases of the positions set in the bitmap *)
  Fixpoint bitmap_bases (hs : list g1) (bitmap : list bool) : res (list g1) :=
    match bitmap with
    | [] => Ok []
    | b :: bitmap' =>
        match hs with
        | [] => if b then Panic else bitmap_bases [] bitmap'
        | h :: hs' => let* r := bitmap_bases hs' bitmap' in Ok (if b then h :: r else r)
        end
    end.

  (** blind_sign.go 82-104 *)
  Definition blindVerifyProof (p : ProofG1 C) (bitmap : list bool) (commitment : g1) (challenge : zr) (pk : g2) : res unit :=
    let* key := toPublicKeyWithGenerators HG pk (length bitmap) in
    let* hs := bitmap_bases (pg_h key) bitmap in
    proofG1Verify p (pg_h0 key :: hs) commitment challenge.

  (** blind_sign.go 108-114 *)
  Definition verifyBlinding (bitmap : list bool) (b : BlindedMessages) (pk : g2) (nonce : bytes) : res unit :=
    blindVerifyProof (bl_proof b) bitmap (bl_c b)
      (H (g1_bytes C (bl_c b) ++ g1_bytes C (bl_pokc b) ++ nonce)) pk.

  (** blind_sign.go 153-161: (base, secret) of the messages that are not nil *)
  Fixpoint blind_pairs (hs : list g1) (zrs : list (option zr)) : res (list (g1 * zr)) :=
    match zrs with
    | [] => Ok []
    | z :: zrs' =>
        match hs with
        | [] => match z with Some _ => Panic | None => blind_pairs [] zrs' end
        | h :: hs' => let* r := blind_pairs hs' zrs' in Ok (match z with Some x => (h, x) :: r | None => r end)
        end
    end.

  (** blind_sign.go 136-178; [s] is drawn first, then the blinding factors [bl] *)
  Definition blindMessagesZr (zrs : list (option zr)) (pk : g2) (nonce : bytes) (s : zr) (bl : nat -> zr)
      : res (BlindedMessages * zr) :=
    let* key := toPublicKeyWithGenerators HG pk (length zrs) in
    let* ps := blind_pairs (pg_h key) zrs in
    let cb := (pg_h0 key, s) :: ps in
    let* c := build cb in
    let* u := finish (map fst cb) (map bl (seq 0 (length cb))) in
    let ch := H (g1_bytes C c ++ g1_bytes C (pc_comm u) ++ nonce) in
    let* p := generateProof u ch (map snd cb) in
    Ok ({| bl_c := c; bl_pokc := pc_comm u; bl_proof := p |}, s).

  (** blind_sign.go 119-131 *)
  Definition blindMessages (messages : list bytes) (pk : g2) (nonce : bytes) (s : zr) (bl : nat -> zr) : res (BlindedMessages * zr) :=
    blindMessagesZr (map (fun m => match m with [] => None | _ => Some (H m) end) messages) pk nonce s bl.

  (** blind_sign.go 181-208; [e], [s] are the draws of SignWithKeyB *)
  Definition blindSign (messages : list message) (msgCount : nat) (commitment : g1) (privKeyBytes : bytes) (e s : zr) : res bytes :=
    let* sk := unmarshalPrivateKey C privKeyBytes in
    let* key := toPublicKeyWithGenerators HG (publicKey sk) msgCount in
    let* _ := guard (negb (length messages =? 0)) in
    let* ms := map_res (fun m => let* h := nth_res (pg_h key) (sm_idx m) in Ok (h, sm_fr m)) messages in
    let* comm := build (ms ++ [(commitment, zr_of_Z C 1); (genG1 C, zr_of_Z C 1)]) in
    signWithKeyB HG comm msgCount sk e s.

  (** blind_sign.go 211-220 *)
  Definition unblindSign (sigBytes : bytes) (S : zr) : res bytes :=
    let* sig := parseSignature C sigBytes in
    signatureBytes {| si_a := si_a sig; si_e := si_e sig; si_s := zadd (si_s sig) S |}.

  (** ** credrequest.go *)
  (** [make([]T, n)] with element [i] set to [x]; [n] is ipk.N+1 *)
  Definition one_at {A} (n : nat) (i : Z) (x d : A) : res (list A) :=
    if ((0 <=? i) && (i <? Z.of_nat n))%Z then Ok (set_nth (repeat d n) (Z.to_nat i) (fun _ => x)) else Panic.

  (** credrequest.go 23-38 (Blind): the request and the blinding *)
  Definition arBlind (skIdx : Z) (sk : zr) (key : iface AIssuerPublicKey) (nonce : bytes) (s : zr) (bl : nat -> zr)
      : res (bytes * bytes) :=
    let* ipk := assert_ptr key in
    let* zrs := one_at (ip_n ipk + 1) skIdx (Some sk) None in
    let* '(b, s) := blindMessagesZr zrs (ip_pk ipk) nonce s bl in
    let* bb := blindedBytes b in
    Ok (bb, zr_bytes C s).

  (** credrequest.go 41-56 (BlindVerify) *)
  Definition arBlindVerify (skIdx : Z) (credRequest : bytes) (key : iface AIssuerPublicKey) (nonce : bytes) : res unit :=
    let* ipk := assert_ptr key in
    let* bitmap := one_at (ip_n ipk + 1) skIdx true false in
    let* b := parseBlindedMessages credRequest in
    verifyBlinding bitmap b (ip_pk ipk) nonce.

  (** credrequest.go 59-76 (Unblind) *)
  Definition arUnblind (signature blinding : bytes) : res bytes :=
    let S := zr_of_bytes C blinding in
    let* cred := opt_err (dec c_cred signature) in
    let* sig := unblindSign (ac_cred cred) S in
    opt_err (enc c_cred {| ac_cred := sig; ac_attrs := ac_attrs cred; ac_skpos := ac_skpos cred |}).

  (** ** cred.go *)
  (** cred.go 45-48: [attrs := make([][]byte, len(attributes)); attrs[i] = msg.FR.Bytes()] *)
  Definition cred_attrs (n : nat) (ms : list message) : res (list bytes) :=
    if n <? length ms then Panic
    else Ok (map (fun m => zr_bytes C (sm_fr m)) ms ++ repeat [] (n - length ms)).

  (** cred.go 26-60 (Sign); SkPos is left at its zero value *)
  Definition arCredSign (skIdx : Z) (key : iface AIssuerSecretKey) (credRequest : bytes) (attributes : list attribute) (e s : zr) : res bytes :=
    let* isk := assert_ptr key in
    let* b := parseBlindedMessages credRequest in
    let* ms := attributesToSignatureMessage attributes skIdx in
    let* sig := blindSign ms (length attributes + 1) (bl_c b) (zr_bytes C (is_sk isk)) e s in
    let* attrs := cred_attrs (length attributes) ms in
    opt_err (enc c_cred {| ac_cred := sig; ac_attrs := attrs; ac_skpos := 0 |}).

  (** cred.go 84-114: the loop over the generators; [attrs] and [attributes] start at [i] *)
  Fixpoint cred_messages (n j : nat) (skPos : Z) (sk : zr) (attrs : list bytes) (attributes : list attribute) : res (list message) :=
    match n with
    | O => Ok []
    | S n' =>
        if (Z.of_nat j =? skPos)%Z
        then let* ms := cred_messages n' (S j) skPos sk attrs attributes in Ok ({| sm_fr := sk; sm_idx := j |} :: ms)
        else match attrs, attributes with
             | a :: attrs', t :: attributes' =>
                 let fr := zr_of_bytes C a in
                 let* v := ar_value t in
                 let* _ := match v with Some x => guard (zeqb x fr) | None => Ok tt end in
                 let* ms := cred_messages n' (S j) skPos sk attrs' attributes' in
                 Ok ({| sm_fr := fr; sm_idx := j |} :: ms)
             | _, _ => Panic
             end
    end.

  (** cred.go 64-117 (Verify) *)
  Definition arCredVerify (sk : zr) (key : iface AIssuerPublicKey) (credBytes : bytes) (attributes : list attribute) : res unit :=
    let* ipk := assert_ptr key in
    let* cred := opt_err (dec c_cred credBytes) in
    let* sigma := parseSignature C (ac_cred cred) in
    let* sm := cred_messages (length (pg_h (ip_key ipk))) 0 (ac_skpos cred) sk (ac_attrs cred) attributes in
    signatureVerify sigma sm (ip_key ipk).

  (** ** nymsigner.go *)
  (** nymsigner.go 18 *)
  Definition nymSigLabel : bytes := str "nym-sig".

  (** two-step challenges, nymsigner.go 52-56 and signer.go 246-253 *)
  Definition challenge2 (data nonce : bytes) : zr := H (zr_bytes C (H data) ++ nonce).

  (** nymsigner.go 27-65 (Sign) *)
  Definition arNymSign (skIdx : Z) (sk : zr) (Nym : g1) (RNym : zr) (key : iface AIssuerPublicKey) (digest : bytes)
      (nonce : zr) (bl : nat -> zr) : res bytes :=
    let* ipk := assert_ptr key in
    let* hs := znth (pg_h (ip_key ipk)) skIdx in
    let* u := finish [pg_h0 (ip_key ipk); hs] [bl 0; bl 1] in
    let c := challenge2 (nymSigLabel ++ g1_bytes C Nym ++ committedBytes u ++ digest) (zr_bytes C nonce) in
    let* p := generateProof u c [RNym; sk] in
    let* pb := proofG1Bytes p in
    opt_err (enc c_nsig {| ans_main := pb; ans_nonce := zr_bytes C nonce |}).

  (** nymsigner.go 68-108 (Verify) *)
  Definition arNymVerify (key : iface AIssuerPublicKey) (Nym : g1) (sigBytes digest : bytes) (skIndex : Z) : res unit :=
    let* ipk := assert_ptr key in
    let* sig := opt_err (dec c_nsig sigBytes) in
    let* p := parseProofG1 C (ans_main sig) in
    let* _ := guard (2 <=? length (pf_resp p)) in
    let* hs := znth (pg_h (ip_key ipk)) skIndex in
    let c := challenge2 (nymSigLabel ++ g1_bytes C Nym ++ g1_bytes C (pg_h0 (ip_key ipk)) ++ g1_bytes C hs
                          ++ g1_bytes C (pf_comm p) ++ digest) (ans_nonce sig) in
    proofG1Verify p [pg_h0 (ip_key ipk); hs] Nym c.

  (** ** signer.go *)
  (** signer.go 26-30; for other values there is no label, and this one is not used (see [getChallengeHash]) *)
  Definition sign_label (t : SignatureType) : bytes :=
    match t with
    | Standard => str "sign"
    | EidNym => str "signWithEidNym"
    | EidNymRhNym => str "signWithEidNymRhNym"
    | Smartcard => str "signWithSmartcard"
    | SmartcardNoNyms => str "signWithSmartcardNoNyms"
    | OtherSig => str "?"
    end.

  Definition is_smartcard (t : SignatureType) : bool := match t with Smartcard | SmartcardNoNyms => true | _ => false end.

  (** signer.go 42-78: as the default provider, but the exponent of H0 is s' - r *)
  Definition smartcardVC2 (r : zr) : VC2Signer C := fun d r3 key sPrime messages revealed bl =>
    let hid := hidden_messages messages revealed in
    let* hs := map_res (fun m => nth_res (pg_h key) (sm_idx m)) hid in
    let bases := d :: pg_h0 key :: hs in
    let* p := finish bases (map bl (seq 0 (length bases))) in
    Ok (p, zopp r3 :: zsub sPrime r :: map (@sm_fr C) hid).

  (** signer.go 98-117: as [split_bases] but position 0 is skipped *)
  Definition smartcard_split (hs : list g1) (revealed : list nat) (messages : list message) : res (list g1 * list (g1 * zr)) :=
    match hs with
    | [] => Ok ([], [])
    | _ :: hs' => split_bases 1 hs' revealed messages 0
    end.

  (** signer.go 85-137 *)
  Definition smartcardVC2Verify (nym : g1) : VC2Verifier C := fun challenge key revealed messages proof d =>
    if pg_count key + 2 <? length revealed then Panic else
    let* '(hid, dis) := smartcard_split (pg_h key) revealed messages in
    let pr := gopp (disclosed_sum ((genG1 C, zr_of_Z C 1) :: dis ++ [(nym, zr_of_Z C 1)])) in
    proofG1Verify proof (d :: pg_h0 key :: hid) pr challenge.

  (** all the draws of Signer.Sign *)
  Record AttrRand := { ra_r : zr; ra_bl : zr }.
  Record ASigRand := {
    rn_pok : PoKRand C;
    rn_nym : zr;              (* blinding factor of RNym *)
    rn_eid : AttrRand;
    rn_rh : AttrRand;
    rn_nonce : zr
  }.

  (** signer.go 139-192 *)
  Definition getPoKOfSignature (cred : ACredential) (attributes : list attribute) (sk : zr) (key : pkwg)
      (st : SignatureType) (Nym : g1) (RNym : zr) (R : PoKRand C) : res (PoKOfSignature C * list message) :=
    let* sig := parseSignature C (ac_cred cred) in
    let* ms := toSignatureMessage cred sk in
    if is_smartcard st
    then
      let c := Nym ⊖ (pg_h0 key ⊗ RNym) in
      let* '(a, _) := zsplit ms (ac_skpos cred) in
      let* '(_, b) := zsplit ms (ac_skpos cred + 1) in
      let msNoSk := a ++ b in
      let* b := computeB (si_s sig) msNoSk key in
      let* pok := pokOfSignatureB (smartcardVC2 RNym) false sig msNoSk
                    (map Z.of_nat (revealedAttributesIndexNoSk attributes)) key (b ⊕ c) R in
      Ok (pok, ms)
    else
      let* pok := newPoKOfSignature sig ms (map Z.of_nat (revealedAttributesIndex attributes)) key R in
      Ok (pok, ms).

  (** signer.go 308-332; None is the nil pointer *)
  Definition getCommitNym (ipk : AIssuerPublicKey) (pok : PoKOfSignature C) (st : SignatureType) (skIdx : Z) (bl : zr)
      : res (option (ProverCommittedG1 C)) :=
    if is_smartcard st then Ok None
    else
      let* hs := znth (pg_h (ip_key ipk)) skIdx in
      let* b := znth (pc_blind (ps_vc2 pok)) (2 + skIdx)%Z in
      let* u := finish [pg_h0 (ip_key ipk); hs] [bl; b] in
      Ok (Some u).

  (** signer.go 334-339 *)
  Record attributeCommitment := { cm_index : nat; cm_proof : ProverCommittedG1 C; cm_comm : g1; cm_r : zr }.

  (** signer.go 424-439 *)
  Fixpoint index_of_base (i : nat) (base : g1) (bases : list g1) : res nat :=
    match bases with
    | [] => Err
    | h :: bases' => if geqb base h then Ok i else index_of_base (S i) base bases'
    end.

  (** signer.go 365-422 *)
  Definition getAttributeCommitment (ipk : AIssuerPublicKey) (pok : PoKOfSignature C) (attr : zr) (idx : Z)
      (enabled : bool) (audit : option (AuditData C)) (R : AttrRand) : res (option attributeCommitment) :=
    if negb enabled then Ok None else
    let key := ip_key ipk in
    let* '(nym, r) :=
      match audit with
      | Some d =>
          let* a := deref (au_attr d) in
          let* _ := guard (zeqb attr a) in
          let* r := deref (au_rand d) in
          let* h := znth (pg_h key) idx in
          let* nym := build [(pg_h0 key, r); (h, a)] in
          let* n := deref (au_nym d) in
          let* _ := guard (geqb n nym) in
          Ok (nym, r)
      | None =>
          let* h := znth (pg_h key) idx in
          let* nym := build [(pg_h0 key, ra_r R); (h, attr)] in
          Ok (nym, ra_r R)
      end in
    let* h := znth (pg_h key) idx in
    let* i := index_of_base 0 h (pc_bases (ps_vc2 pok)) in
    let* b := nth_res (pc_blind (ps_vc2 pok)) i in
    let* u := finish [pg_h0 key; h] [ra_bl R; b] in
    Ok (Some {| cm_index := i; cm_proof := u; cm_comm := nym; cm_r := r |}).

  (** signer.go 341-363 *)
  Definition eid_enabled (st : SignatureType) : bool := match st with Standard | SmartcardNoNyms => false | _ => true end.
  Definition rh_enabled (st : SignatureType) : bool := match st with EidNymRhNym => true | _ => false end.

  (** signer.go 225-238: the commitment and its t-value *)
  Definition comm_bytes (on : bool) (c : option attributeCommitment) : res bytes :=
    if on then let* x := deref c in Ok (g1_bytes C (cm_comm x) ++ g1_bytes C (pc_comm (cm_proof x))) else Ok [].

  (** signer.go 194-254 (the random nonce is an argument) *)
  Definition getChallengeHash (pok : PoKOfSignature C) (Nym : g1) (commitNym : option (ProverCommittedG1 C))
      (eid rh : option attributeCommitment) (msg : bytes) (st : SignatureType) (nonce : zr) : res zr :=
    let* _ := match st with OtherSig => Panic | _ => Ok tt end in
    let* cn := if is_smartcard st then Ok [] else let* u := deref commitNym in Ok (g1_bytes C (pc_comm u)) in
    let* ce := comm_bytes (match st with EidNym | EidNymRhNym | Smartcard => true | _ => false end) eid in
    let* cr := comm_bytes (match st with EidNymRhNym => true | _ => false end) rh in
    Ok (challenge2 (sign_label st ++ pokBytes pok ++ g1_bytes C Nym ++ cn ++ ce ++ cr ++ proofNonceBytes H msg)
                   (zr_bytes C nonce)).

  Definition opt_proof (p : option (ProofG1 C)) : res bytes :=
    match p with Some x => proofG1Bytes x | None => Ok [] end.

  (** signer.go 256-306 *)
  Definition packageProof (attributes : list attribute) (Nym : g1) (proof : PoKOfSignatureProof C)
      (proofNym : option (ProofG1 C)) (eid : option (attributeCommitment * ProofG1 C))
      (rh : option (attributeCommitment * ProofG1 C)) (cri : ACRI) (nonce : zr) : res bytes :=
    let* pb := payloadBytes {| pp_count := length attributes + 1; pp_revealed := revealedAttributesIndex attributes |} in
    let* sb := signatureProofBytes proof in
    let* np := opt_proof proofNym in
    let* ep := match eid with Some x => proofG1Bytes (snd x) | None => Ok [] end in
    let* rp := match rh with Some x => proofG1Bytes (snd x) | None => Ok [] end in
    opt_err (enc c_sig {|
      as_main := pb ++ sb; as_nonce := zr_bytes C nonce; as_nym := g1_bytes C Nym; as_nym_proof := np;
      as_eid := match eid with Some x => g1_bytes C (cm_comm (fst x)) | None => [] end;
      as_eid_proof := ep;
      as_eid_idx := match eid with Some x => Z.of_nat (cm_index (fst x)) | None => 0%Z end;
      as_rh := match rh with Some x => g1_bytes C (cm_comm (fst x)) | None => [] end;
      as_rh_proof := rp;
      as_rh_idx := match rh with Some x => Z.of_nat (cm_index (fst x)) | None => 0%Z end;
      as_epoch_pk := acri_epochpk cri; as_pk_sig := acri_sig cri; as_epoch := acri_epoch cri;
      as_alg := Some (acri_alg cri) |}).

  (** the index of an attribute among all messages, signer.go 510-512, 524-526, 741-748 *)
  Definition past_sk (idx skPos : Z) : Z := if (skPos <=? idx)%Z then (idx + 1)%Z else idx.

  Definition attr_hidden (attributes : list attribute) (i : Z) : res bool :=
    let* a := znth attributes i in Ok (is_hidden a).

  (** signer.go 460-470; Go's [||] does not look at the rh attribute when the eid one is disclosed *)
  Definition sign_arg_check (attributes : list attribute) (rhIndex eidIndex : Z) (st : SignatureType) : res unit :=
    let* _ := match st with
              | EidNym | Smartcard => let* h := attr_hidden attributes eidIndex in guard h
              | _ => Ok tt
              end in
    match st with
    | EidNymRhNym | Smartcard =>
        let* h := attr_hidden attributes eidIndex in
        let* _ := guard h in
        let* h := attr_hidden attributes rhIndex in
        guard h
    | _ => Ok tt
    end.

  Definition md_eid_audit (m : option (Metadata C)) : option (AuditData C) := match m with Some x => md_eid_data x | None => None end.
  Definition md_rh_audit (m : option (Metadata C)) : option (AuditData C) := match m with Some x => md_rh_data x | None => None end.

  Definition audit_of (c : attributeCommitment) (attr : zr) : AuditData C :=
    {| au_nym := Some (cm_comm c); au_rand := Some (cm_r c); au_attr := Some attr |}.

  (** response for an optional commitment, signer.go 546-560 *)
  Definition opt_respond (c : option attributeCommitment) (challenge attr : zr) : res (option (attributeCommitment * ProofG1 C)) :=
    match c with
    | None => Ok None
    | Some x => let* p := generateProof (cm_proof x) challenge [cm_r x; attr] in Ok (Some (x, p))
    end.

  (** signer.go 442-603 (Sign) *)
  Definition arSign (credBytes : bytes) (sk : zr) (Nym : g1) (RNym : zr) (key : iface AIssuerPublicKey)
      (attributes : list attribute) (msg : bytes) (rhIndex eidIndex : Z) (criRaw : bytes) (st : SignatureType)
      (meta : option (Metadata C)) (R : ASigRand) : res (bytes * option (Metadata C)) :=
    let* _ := sign_arg_check attributes rhIndex eidIndex st in
    let* ipk := assert_ptr key in
    let* cri := opt_err (dec c_cri criRaw) in
    let* _ := guard (acri_alg cri =? 0)%Z in
    let* cred := opt_err (dec c_cred credBytes) in
    let* '(pok, ms) := getPoKOfSignature cred attributes sk (ip_key ipk) st Nym RNym (rn_pok R) in
    let* commitNym := getCommitNym ipk pok st (ac_skpos cred) (rn_nym R) in
    let eidIndex := past_sk eidIndex (ac_skpos cred) in
    let* me := znth ms eidIndex in
    let* eid := getAttributeCommitment ipk pok (sm_fr me) eidIndex (eid_enabled st) (md_eid_audit meta) (rn_eid R) in
    let rhIndex := past_sk rhIndex (ac_skpos cred) in
    let* mr := znth ms rhIndex in
    let* rh := getAttributeCommitment ipk pok (sm_fr mr) rhIndex (rh_enabled st) (md_rh_audit meta) (rn_rh R) in
    let* c := getChallengeHash pok Nym commitNym eid rh msg st (rn_nonce R) in
    let* proof := pokGenerateProof pok c in
    let* proofNym := match commitNym with
                     | None => Ok None
                     | Some u => let* p := generateProof u c [RNym; sk] in Ok (Some p)
                     end in
    let* eidp := opt_respond eid c (sm_fr me) in
    let* rhp := opt_respond rh c (sm_fr mr) in
    let* sb := packageProof attributes Nym proof proofNym eidp rhp cri (rn_nonce R) in
    let* m := match st with
              | EidNym | Smartcard =>
                  let* x := deref eid in
                  Ok (Some {| md_eid := []; md_eid_data := Some (audit_of x (sm_fr me)); md_rh := []; md_rh_data := None |})
              | EidNymRhNym =>
                  let* x := deref eid in
                  let* y := deref rh in
                  Ok (Some {| md_eid := []; md_eid_data := Some (audit_of x (sm_fr me)); md_rh := []; md_rh_data := Some (audit_of y (sm_fr mr)) |})
              | _ => Ok None
              end in
    Ok (sb, m).

  Definition nonempty (b : bytes) : bool := match b with [] => false | _ => true end.

  (** signer.go 637-659 *)
  Definition ar_type_checks (v : VerificationType) (s : ASignature) : bool :=
    match v with
    | ExpectEidNym => nonempty (as_eid s) && nonempty (as_eid_proof s)
    | ExpectEidNymRhNym => nonempty (as_eid s) && nonempty (as_eid_proof s) && nonempty (as_rh s) && nonempty (as_rh_proof s)
    | ExpectStandard | ExpectSmartcardNoNyms =>
        negb (nonempty (as_rh s)) && negb (nonempty (as_rh_proof s)) && negb (nonempty (as_eid s)) && negb (nonempty (as_eid_proof s))
    | _ => true
    end.

  (** signer.go 661-662 *)
  Definition ar_verifyRh (v : VerificationType) (s : ASignature) : bool :=
    match v with BestEffort => nonempty (as_rh s) | ExpectEidNymRhNym => true | _ => false end.
  Definition ar_verifyEid (v : VerificationType) (s : ASignature) : bool :=
    match v with
    | BestEffort => nonempty (as_eid s) || nonempty (as_rh s)
    | ExpectEidNym | ExpectEidNymRhNym | ExpectSmartcard => true
    | _ => false
    end.
  Definition ver_smartcard (v : VerificationType) : bool := match v with ExpectSmartcard | ExpectSmartcardNoNyms => true | _ => false end.

  (** signer.go 696-708, 710-722: proof and commitment of an attribute nym *)
  Definition parse_nym (on : bool) (proof comm : bytes) : res (option (ProofG1 C * g1)) :=
    if on then
      let* p := parseProofG1 C proof in
      let* n := opt_err (g1_of_bytes C comm) in
      Ok (Some (p, n))
    else Ok None.

  (** signer.go 731-741 *)
  Definition ver_label (v : VerificationType) (eid rh : bool) : bytes :=
    match v with
    | ExpectSmartcard => sign_label Smartcard
    | ExpectSmartcardNoNyms => sign_label SmartcardNoNyms
    | _ => if rh then sign_label EidNymRhNym else if eid then sign_label EidNym else sign_label Standard
    end.

  (** signer.go 795-819 and 822-846: the audit data in the metadata against the nym *)
  Definition ar_check_meta (key : pkwg) (idx : Z) (nym : g1) (data : option (AuditData C)) (raw : bytes) : res unit :=
    let* _ := match data with
              | None => Ok tt
              | Some d =>
                  let* h := znth (pg_h key) idx in
                  let* a := deref (au_attr d) in
                  let* r := deref (au_rand d) in
                  let* _ := guard (geqb (gmul2 h a (pg_h0 key) r) nym) in
                  match au_nym d with Some n => guard (geqb nym n) | None => Ok tt end
              end in
    match raw with
    | [] => Ok tt
    | _ => let* n := opt_err (g1_of_bytes C raw) in guard (geqb n nym)
    end.

  (** signer.go 858-884: equality of responses, then the proof of knowledge *)
  Definition verify_attr_nym (key : pkwg) (idx : Z) (p : ProofG1 C) (nym : g1) (vc2 : ProofG1 C) (pos : Z) (c : zr) : res unit :=
    let* r := nth_res (pf_resp p) 1 in
    let* r' := znth (pf_resp vc2) pos in
    let* _ := guard (zeqb r r') in
    let* h := znth (pg_h key) idx in
    proofG1Verify p [pg_h0 key; h] nym c.

  (** signer.go 606-894 (Verify) up to the challenge: everything the challenge is computed from *)
  Record AVerFirst := {
    vf_sig : ASignature; vf_key : pkwg; vf_ms : list message; vf_revealed : list nat; vf_sp : PoKOfSignatureProof C;
    vf_nym : g1; vf_nymp : option (ProofG1 C);
    vf_eid : option (ProofG1 C * g1); vf_rh : option (ProofG1 C * g1); vf_data : bytes
  }.

  Definition arVerify_first (key : iface AIssuerPublicKey) (signature msg : bytes) (attributes : list attribute)
      (skIndex : Z) (v : VerificationType) : res AVerFirst :=
    let* ipk := assert_ptr key in
    let* sig := opt_err (dec c_sig signature) in
    let* alg := opt_err (as_alg sig) in
    let* _ := guard (alg =? 0)%Z in
    let* _ := guard (ar_type_checks v sig) in
    let rh := ar_verifyRh v sig in
    let eid := ar_verifyEid v sig in
    let* ms := attributesToSignatureMessage attributes skIndex in
    let* payload := parsePoKPayload (as_main sig) in
    let* rest := slice_from (as_main sig) (lenInBytes (pp_count payload)) in
    let* sp := parseSignatureProof C rest in
    let* _ := guard (negb (length ms <? length (pp_revealed payload))) in
    let* nym := opt_err (g1_of_bytes C (as_nym sig)) in
    let* nymp := if ver_smartcard v then Ok None else let* p := parseProofG1 C (as_nym_proof sig) in Ok (Some p) in
    let* eidp := parse_nym eid (as_eid_proof sig) (as_eid sig) in
    let* rhp := parse_nym rh (as_rh_proof sig) (as_rh sig) in
    let revealed := fold_left madd (pp_revealed payload) [] in
    let forCh := if ver_smartcard v then madd revealed 0 else revealed in
    let* cb := getBytesForChallenge sp forCh (ip_key ipk) in
    let revealed := if ver_smartcard v then mdel forCh 0 else revealed in
    let data := ver_label v eid rh ++ cb ++ as_nym sig
                ++ match nymp with Some p => g1_bytes C (pf_comm p) | None => [] end
                ++ match eidp with Some p => as_eid sig ++ g1_bytes C (pf_comm (fst p)) | None => [] end
                ++ match rhp with Some p => as_rh sig ++ g1_bytes C (pf_comm (fst p)) | None => [] end
                ++ proofNonceBytes H msg in
    Ok {| vf_sig := sig; vf_key := ip_key ipk; vf_ms := ms; vf_revealed := revealed; vf_sp := sp; vf_nym := nym;
          vf_nymp := nymp; vf_eid := eidp; vf_rh := rhp; vf_data := data |}.

  (** signer.go 785-894: the checks once the challenge [c] is known *)
  Definition arVerify_second (f : AVerFirst) (c : zr) (rhIndex eidIndex skIndex : Z) (v : VerificationType)
      (meta : option (Metadata C)) : res unit :=
    let key := vf_key f in
    let eidIndex := past_sk eidIndex skIndex in
    let rhIndex := past_sk rhIndex skIndex in
    let vc2 := sp_vc2 (vf_sp f) in
    let* _ := match vf_eid f, meta with
              | Some (_, n), Some m => ar_check_meta key eidIndex n (md_eid_data m) (md_eid m)
              | _, _ => Ok tt
              end in
    let* _ := match vf_rh f, meta with
              | Some (_, n), Some m => ar_check_meta key rhIndex n (md_rh_data m) (md_rh m)
              | _, _ => Ok tt
              end in
    let* _ := match vf_nymp f with
              | Some p => verify_attr_nym key skIndex p (vf_nym f) vc2 (2 + skIndex)%Z c
              | None => Ok tt
              end in
    let* _ := match vf_eid f with
              | Some (p, n) => verify_attr_nym key eidIndex p n vc2 (as_eid_idx (vf_sig f)) c
              | None => Ok tt
              end in
    let* _ := match vf_rh f with
              | Some (p, n) => verify_attr_nym key rhIndex p n vc2 (as_rh_idx (vf_sig f)) c
              | None => Ok tt
              end in
    signatureProofVerify (if ver_smartcard v then smartcardVC2Verify (vf_nym f) else @defaultVC2Verify C)
      (vf_sp f) c key (vf_revealed f) (vf_ms f).

  (** signer.go 606-894 (Verify); the revocation key and epoch arguments are ignored by the code *)
  Definition arVerify (key : iface AIssuerPublicKey) (signature msg : bytes) (attributes : list attribute)
      (rhIndex eidIndex skIndex : Z) (v : VerificationType) (meta : option (Metadata C)) : res unit :=
    let* f := arVerify_first key signature msg attributes skIndex v in
    arVerify_second f (challenge2 (vf_data f) (as_nonce (vf_sig f))) rhIndex eidIndex skIndex v meta.

  (** signer.go 897-948 (AuditNymEid) *)
  Definition arAudit (raw : res g1) (key : iface AIssuerPublicKey) (idx skIndex : Z) (value : bytes) (r : zr) : res unit :=
    let* ipk := assert_ptr key in
    let* nym := raw in
    let* h := znth (pg_h (ip_key ipk)) (past_sk idx skIndex) in
    guard (geqb (gmul2 h (H value) (pg_h0 (ip_key ipk)) r) nym).
  Definition arAuditNymEid (key : iface AIssuerPublicKey) (eidIndex skIndex : Z) (signature enrollmentID : bytes) (r : zr)
      (t : AuditType) : res unit :=
    arAudit (match t with
             | AuditExpectSignature => let* s := opt_err (dec c_sig signature) in opt_err (g1_of_bytes C (as_eid s))
             | AuditExpectEidNymRhNym | AuditExpectEidNym => opt_err (g1_of_bytes C signature)
             | AuditOther => Err
             end) key eidIndex skIndex enrollmentID r.
  (** signer.go 951-1000 (AuditNymRh) *)
  Definition arAuditNymRh (key : iface AIssuerPublicKey) (rhIndex skIndex : Z) (signature revocationHandle : bytes) (r : zr)
      (t : AuditType) : res unit :=
    arAudit (match t with
             | AuditExpectSignature => let* s := opt_err (dec c_sig signature) in opt_err (g1_of_bytes C (as_rh s))
             | AuditExpectEidNymRhNym => opt_err (g1_of_bytes C signature)
             | AuditExpectEidNym | AuditOther => Err
             end) key rhIndex skIndex revocationHandle r.
End Aries.

(** ** smartcard.go *)
Section Smartcard.
  Variable C : Curve.
  Variable sha256 : bytes -> bytes.
  Notation zr := (zcar (Zr C)).
  Notation g1 := (gcar (G1 C)).

  (** smartcard.go 27-37; a cipher.Block is its block encryption function on 16-byte blocks *)
  Record Card := {
    sc_h0 : g1; sc_h1 : g1; sc_h2 : g1;
    sc_uid : zr; sc_eid : zr;
    sc_k0 : bytes -> bytes; sc_k1 : bytes -> bytes;
    sc_ctr : Z                              (* int16 *)
  }.

  Definition xor_byte (a b : byte) : byte :=
    match Byte.of_N (N.lxor (Byte.to_N a) (Byte.to_N b)) with Some x => x | None => b0 end.
  Fixpoint xor_bytes (a b : bytes) : bytes :=
    match a, b with
    | x :: a', y :: b' => xor_byte x y :: xor_bytes a' b'
    | _, _ => []
    end.

  (** smartcard.go 39-47: CBC encryption with a zero IV, twice, into a 32-byte buffer.
      Simplification: scalars of 32 bytes, blocks of 16, one-block inputs. *)
  Definition prf (K : bytes -> bytes) (input : bytes) : zr :=
    let y1 := K (xor_bytes input (zeros 16)) in
    let y2 := K (xor_bytes input y1) in
    zr_of_bytes C (y1 ++ y2).

  (** int16 arithmetic *)
  Definition wrap16 (z : Z) : Z := ((z + 32768) mod 65536 - 32768)%Z.

  (** smartcard.go 51-53: low byte, high byte, zeros *)
  Definition ctr_block (ctr : Z) : bytes :=
    [byte_of_Z (ctr mod 256); byte_of_Z (ctr / 256 mod 256)] ++ zeros 14.

  (** smartcard.go 49-62 *)
  Definition getNymEid (sc : Card) : zr * g1 :=
    let s := prf (sc_k0 sc) (ctr_block (sc_ctr sc)) in
    (s, gmul2 (sc_h0 sc) s (sc_h2 sc) (sc_eid sc)).

  (** smartcard.go 64-69 *)
  Definition scNymEid (sc : Card) : Card * (zr * g1) :=
    let sc' := {| sc_h0 := sc_h0 sc; sc_h1 := sc_h1 sc; sc_h2 := sc_h2 sc; sc_uid := sc_uid sc; sc_eid := sc_eid sc;
                  sc_k0 := sc_k0 sc; sc_k1 := sc_k1 sc; sc_ctr := wrap16 (sc_ctr sc + 1) |} in
    (sc', getNymEid sc').

  (** smartcard.go 91-98, 140-147: Bytes()[1:] of six points, then the message *)
  Definition tail1 (P : g1) : res bytes := slice_from (g1_bytes C P) 1.
  Definition sc_data (h0 h1 h2 B B' tau : g1) (msg : bytes) : res bytes :=
    let* x := map_res tail1 [h0; h1; h2; B; B'; tau] in
    Ok (concat x ++ msg).
  Definition sc_challenge (h0 h1 h2 B B' tau : g1) (msg : bytes) : res zr :=
    let* d := sc_data h0 h1 h2 B B' tau msg in
    Ok (zr_of_bytes C (sha256 d)).

  (** smartcard.go 71-122; [seed] are the 16 random bytes, [xt], [rt] the two draws *)
  Definition scNymSign (sc : Card) (msg seed : bytes) (xt rt : zr) : res bytes :=
    let r1 := prf (sc_k1 sc) seed in
    let B := gmul2 (sc_h0 sc) r1 (sc_h1 sc) (sc_uid sc) in
    let B' := gmul2 (sc_h0 sc) rt (sc_h1 sc) xt in
    let tau := snd (getNymEid sc) in
    let* c := sc_challenge (sc_h0 sc) (sc_h1 sc) (sc_h2 sc) B B' tau msg in
    Ok (seed ++ g1_bytes C B ++ g1_bytes C B' ++ zr_bytes C (zadd xt (zmul c (sc_uid sc))) ++ zr_bytes C (zadd rt (zmul c r1))).

  (** smartcard.go 124-165: parsing, then the equation *)
  Definition scParse (proof : bytes) : res (g1 * g1 * zr * zr) :=
    let gs := g1_size C in
    let ss := scalar_size C in
    let* b1 := slice proof 16 (16 + gs) in
    let* B := opt_err (g1_of_bytes C b1) in
    let* b2 := slice proof (16 + gs) (16 + gs + gs) in
    let* B' := opt_err (g1_of_bytes C b2) in
    let* b3 := slice proof (16 + gs + gs) (16 + gs + gs + ss) in
    let* b4 := slice proof (16 + gs + gs + ss) (16 + gs + gs + ss + ss) in
    Ok (B, B', zr_of_bytes C b3, zr_of_bytes C b4).
  Definition scEquation (h0 h1 B B' : g1) (x r c : zr) : bool :=
    geqb (gmul2 h0 r h1 x) (gmul2 B' (zr_of_Z C 1) B c).
  Definition scNymVerify (h0 h1 h2 : g1) (proof : bytes) (nymEid : g1) (msg : bytes) : res unit :=
    let* '(B, B', x, r) := scParse proof in
    let* c := sc_challenge h0 h1 h2 B B' nymEid msg in
    guard (scEquation h0 h1 B B' x r c).

  (** smartcard.go 172-192 (SmartcardIdemixBackend.Sign): signature, nym, randomness *)
  Definition scBackendSign (card : iface Card) (digest seed : bytes) (xt rt : zr) : res (bytes * g1 * zr) :=
    let* sc := assert_ptr card in
    let* sig := scNymSign sc digest seed xt rt in
    let* seed := slice sig 0 16 in
    let* nb := slice sig 16 (16 + g1_size C) in
    let* nym := opt_err (g1_of_bytes C nb) in
    Ok (sig, nym, prf (sc_k1 sc) seed).

  (** smartcard.go 195-204 (SmartcardIdemixBackend.Verify): the type assertion panics *)
  Definition scBackendVerify (key : iface (AIssuerPublicKey C)) (Nym : g1) (signature digest : bytes) : res unit :=
    match key with
    | Some (Some ipk) =>
        let* h1 := znth (pg_h (ip_key ipk)) 0 in
        let* h2 := znth (pg_h (ip_key ipk)) 3 in
        scNymVerify (pg_h0 (ip_key ipk)) h1 h2 signature Nym digest
    | _ => Panic
    end.
End Smartcard.
