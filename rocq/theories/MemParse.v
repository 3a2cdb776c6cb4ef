(** Slice expressions on slices in memory.  A Go slice expression [s[lo:hi]] is bounded by the capacity of [s], not by its
    length, so it can reach cells behind the bytes of [s].  The parsers below are those of Bbs.v, Aries.v and Dlog.v on a heap. *)
From Verif Require Import Base Curve Dlog Bbs Translator Bridge Aries Mem.
Unset Strict Implicit.

(** s[lo:hi] (the Go specification, "Slice expressions": 0 <= low <= high <= cap(a)) and s[lo:], which is s[lo:len(s)] *)
Definition reslice (s : Mem.slice) (lo hi : nat) : res Mem.slice :=
  if (lo <=? hi) && (hi <=? sl_cap s)
  then Ok {| sl_arr := sl_arr s; sl_off := sl_off s + lo; sl_len := hi - lo; sl_cap := sl_cap s - lo |}
  else Panic.
Definition reslice_from (s : Mem.slice) (lo : nat) : res Mem.slice := reslice s lo (sl_len s).
(** the bytes of s[lo:hi] *)
Definition hbytes (h : heap byte) (s : Mem.slice) (lo hi : nat) : res bytes := let* s' := reslice s lo hi in Ok (view h s').

(** bbs/utils.go 61-82 (ParsePoKPayload) *)
Definition hParsePoKPayload (h : heap byte) (s : Mem.slice) : res pokPayload :=
  let* _ := guard (2 <=? sl_len s) in
  let* hd := hbytes h s 0 2 in
  let messagesCount := Z.to_nat (os2ip hd) in
  let offset := lenInBytes messagesCount in
  let* _ := guard (offset <=? sl_len s) in
  let* body := hbytes h s 2 offset in
  Ok {| pp_count := messagesCount; pp_revealed := bitvectorToIndexes (rev body) |}.

Section Parse.
  Variable C : Curve.
  Variable HG : bytes -> G1 C.
  Variable H : hasher C.
  Variable T : translator C.
  Notation zr := (zcar (Zr C)).
  Notation g1 := (gcar (G1 C)).

  (** bbs/signature.go 25-44 (ParseSignature) *)
  Definition hParseSignature (h : heap byte) (s : Mem.slice) : res (Bbs.Signature C) :=
    let* _ := guard (sl_len s =? g1_csize C + 2 * frCompressedSize) in
    let* pa := hbytes h s 0 (g1_csize C) in
    let* a := match g1_of_comp C pa with Some p => Ok p | None => Err end in
    let* e := hbytes h s (g1_csize C) (g1_csize C + frCompressedSize) in
    let* s' := reslice_from s (g1_csize C + frCompressedSize) in
    Ok {| si_a := a; si_e := zr_of_bytes C e; si_s := zr_of_bytes C (view h s') |}.

  (** bbs/signature_proof.go 297-301 *)
  Fixpoint hparse_responses (h : heap byte) (n : nat) (s : Mem.slice) (offset : nat) : res (list zr) :=
    match n with
    | O => Ok []
    | S n' =>
        let* x := hbytes h s offset (offset + frCompressedSize) in
        let* r := hparse_responses h n' s (offset + frCompressedSize) in
        Ok (zr_of_bytes C x :: r)
    end.

  (** bbs/signature_proof.go 277-304 (ParseProofG1) *)
  Definition hParseProofG1 (h : heap byte) (s : Mem.slice) : res (ProofG1 C) :=
    let cs := g1_csize C in
    let* _ := guard (cs + 4 <=? sl_len s) in
    let* pc := hbytes h s 0 cs in
    let* comm := match g1_of_comp C pc with Some p => Ok p | None => Err end in
    let* lb := hbytes h s cs (cs + 4) in
    let n := os2ip lb in
    let* _ := guard (Z.of_nat (cs + 4) + n * Z.of_nat frCompressedSize <=? Z.of_nat (sl_len s))%Z in
    let* r := hparse_responses h (Z.to_nat n) s (cs + 4) in
    Ok {| pf_comm := comm; pf_resp := r |}.

  Definition hparse_g1c (h : heap byte) (s : Mem.slice) (offset : nat) : res g1 :=
    let* x := hbytes h s offset (offset + g1_csize C) in
    match g1_of_comp C x with Some p => Ok p | None => Err end.

  (** bbs/signature_proof.go 230-274 (ParseSignatureProof).  The end of the first proof is compared with the capacity as an
      integer, which is the bounds check of the slice expression. *)
  Definition hParseSignatureProof (h : heap byte) (s : Mem.slice) : res (PoKOfSignatureProof C) :=
    let cs := g1_csize C in
    let* _ := guard (cs * 3 <=? sl_len s) in
    let* p0 := hparse_g1c h s 0 in
    let* p1 := hparse_g1c h s cs in
    let* p2 := hparse_g1c h s (2 * cs) in
    let* lb := hbytes h s (3 * cs) (3 * cs + 4) in
    let n := os2ip lb in
    if (Z.of_nat (3 * cs + 4) + n >? Z.of_nat (sl_cap s))%Z then Panic else
    let* s1 := reslice s (3 * cs + 4) (3 * cs + 4 + Z.to_nat n) in
    let* vc1 := hParseProofG1 h s1 in
    let* s2 := reslice_from s (3 * cs + 4 + Z.to_nat n) in
    let* vc2 := hParseProofG1 h s2 in
    Ok {| sp_aprime := p0; sp_abar := p1; sp_d := p2; sp_vc1 := vc1; sp_vc2 := vc2 |}.

  (** bbs/bbs12381g2pub.go 112-157 (VerifyProof, VerifyProofFr) with the proof in memory *)
  Definition hVerifyProofFr (messages : list (SignatureMessage C)) (h : heap byte) (proof : Mem.slice) (nonce pubKeyBytes : bytes) : res unit :=
    let* payload := hParsePoKPayload h proof in
    let* rest := reslice_from proof (lenInBytes (pp_count payload)) in
    let* sp := hParseSignatureProof h rest in
    let* pk := unmarshalPublicKey C pubKeyBytes in
    let* key := toPublicKeyWithGenerators HG pk (pp_count payload) in
    let* _ := guard (negb (length messages <? length (pp_revealed payload))) in
    let revealed := fold_left madd (pp_revealed payload) [] in
    let* cb := getBytesForChallenge sp revealed key in
    signatureProofVerify (@defaultVC2Verify C) sp (H (cb ++ proofNonceBytes H nonce)) key revealed messages.
  Definition hVerifyProof (messages : list bytes) (h : heap byte) (proof : Mem.slice) (nonce pubKeyBytes : bytes) : res unit :=
    hVerifyProofFr (messagesToFr H messages) h proof nonce pubKeyBytes.

  (** aries/blind_sign.go 37-70 (ParseBlindedMessages) *)
  Definition hParseBlindedMessages (h : heap byte) (s : Mem.slice) : res (BlindedMessages C) :=
    let cs := g1_csize C in
    let* _ := guard (2 * cs <=? sl_len s) in
    let* b1 := hbytes h s 0 cs in
    let* c := opt_err (g1_of_comp C b1) in
    let* b2 := hbytes h s cs (cs + cs) in
    let* pokc := opt_err (g1_of_comp C b2) in
    let* s3 := reslice_from s (cs + cs) in
    let* p := hParseProofG1 h s3 in
    Ok {| bl_c := c; bl_pokc := pokc; bl_proof := p |}.

  (** aries/user.go 60-72 (NewNymFromBytes) *)
  Definition hArNymFromBytes (h : heap byte) (s : Mem.slice) : res (g1 * zr) :=
    let* _ := guard (sl_len s =? scalar_size C + g1_size C) in
    let* a := hbytes h s 0 (scalar_size C) in
    let* s' := reslice_from s (scalar_size C) in
    let* nym := opt_err (g1_of_bytes C (view h s')) in
    Ok (nym, zr_of_bytes C a).

  (** dlog/crypto/util.go 63-74 (makeNymFromBytes) *)
  Definition hMakeNymFromBytes (h : heap byte) (s : Mem.slice) : res (g1 * zr) :=
    let* r := hbytes h s 0 (scalar_size C) in
    let* x := hbytes h s (scalar_size C) (scalar_size C + coord_size C) in
    let* s' := reslice_from s (scalar_size C + coord_size C) in
    let* pk := g1_from_proto T (Some {| ex := x; ey := view h s' |}) in
    Ok (pk, zr_of_bytes C r).

  (** aries/smartcard.go 124-143 (NymVerify: nothing checks the length of the proof) *)
  Definition hScParse (h : heap byte) (s : Mem.slice) : res (g1 * g1 * zr * zr) :=
    let gs := g1_size C in
    let ss := scalar_size C in
    let* b1 := hbytes h s 16 (16 + gs) in
    let* B := opt_err (g1_of_bytes C b1) in
    let* b2 := hbytes h s (16 + gs) (16 + gs + gs) in
    let* B' := opt_err (g1_of_bytes C b2) in
    let* b3 := hbytes h s (16 + gs + gs) (16 + gs + gs + ss) in
    let* b4 := hbytes h s (16 + gs + gs + ss) (16 + gs + gs + ss + ss) in
    Ok (B, B', zr_of_bytes C b3, zr_of_bytes C b4).
  (** aries/smartcard.go 124-165, 195-204 (NymVerify and the backend's Verify) *)
  Definition hScNymVerify (sha256 : bytes -> bytes) (h0 h1 h2 : g1) (h : heap byte) (proof : Mem.slice) (nymEid : g1) (msg : bytes) : res unit :=
    let* '(B, B', x, r) := hScParse h proof in
    let* c := sc_challenge sha256 h0 h1 h2 B B' nymEid msg in
    guard (scEquation h0 h1 B B' x r c).
  Definition hScBackendVerify (sha256 : bytes -> bytes) (key : iface (AIssuerPublicKey C)) (Nym : g1) (h : heap byte) (signature : Mem.slice) (digest : bytes) : res unit :=
    match key with
    | Some (Some ipk) =>
        let* h1 := znth (pg_h (ip_key ipk)) 0 in
        let* h2 := znth (pg_h (ip_key ipk)) 3 in
        hScNymVerify sha256 (pg_h0 (ip_key ipk)) h1 h2 h signature Nym digest
    | _ => Panic
    end.
End Parse.
