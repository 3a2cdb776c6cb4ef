(** Model of the BBS+ library /repo/bbs.

    Two hash functions are parameters: [HG] is curve.HashToG1WithDomain with the fixed domain tag
    of keys.go 132-136, [H] is the hash into scalars used for messages, nonces and challenges
    (FrFromOKM, fr.go 47-73; [frFromOKM] below is its definition from BLAKE2b-384 and the
    theorems hold for every [H]).  Random draws are explicit arguments.  Indices produced by
    range loops are naturals; indices supplied by a caller are integers. *)
From Verif Require Import Base Curve.
From Coq Require Import Sorting.Sorted.
Unset Strict Implicit.

(** bbs12381g2pub.go 71 *)
Definition frCompressedSize : nat := 32.

(** ** fr.go *)
(** copy(buf[lo:hi], src) *)
Definition copy_win (buf : bytes) (lo hi : nat) (src : bytes) : res bytes :=
  if (lo <=? hi) && (hi <=? length buf)
  then Ok (firstn lo buf ++ firstn (hi - lo) src ++ skipn (lo + Nat.min (hi - lo) (length src)) buf)
  else Panic.

(** fr.go 22-27 *)
Definition f2192Bytes : bytes := zeros 7 ++ [Byte.x01] ++ zeros 24.

(** fr.go 47-73 (FrFromOKM); [blake] is BLAKE2b-384 with a null key. *)
Definition frFromOKM (C : Curve) (blake : bytes -> bytes) (message : bytes) : res (Zr C) :=
  let okm := blake message in
  let* okm1 := slice okm 0 24 in
  let* buf := copy_at (zeros 32) 8 okm1 in
  let elm := zmul (zr_of_bytes C buf) (zr_of_bytes C f2192Bytes) in
  let* okm2 := slice_from okm 24 in
  let* buf2 := copy_at (zeros 32) 8 okm2 in
  Ok (zadd elm (zr_of_bytes C buf2)).

(** ** utils.go *)
(** utils.go 15-21 *)
Definition uint32ToBytes (v : Z) : bytes := i2osp 4 v.

(** utils.go 38-47: the inner loop [for v > 0]; a byte is exhausted after eight rounds. *)
Fixpoint bit_loop (fuel : nat) (v : N) (scalar remaining : nat) (acc : list nat) : list nat * nat * nat :=
  match fuel with
  | O => (acc, scalar, remaining)
  | S fuel' =>
      if (0 <? v)%N
      then bit_loop fuel' (N.div2 v) (S scalar) (remaining - 1)
             (if (N.land v 1 =? 1)%N then acc ++ [scalar] else acc)
      else (acc, scalar, remaining)
  end.

(** utils.go 31-53 *)
Fixpoint bitvector_loop (data : bytes) (scalar : nat) (acc : list nat) : list nat :=
  match data with
  | [] => acc
  | v :: data' =>
      let '(acc', scalar', remaining) := bit_loop 8 (Byte.to_N v) scalar 8 acc in
      bitvector_loop data' (scalar' + remaining) acc'
  end.
Definition bitvectorToIndexes (data : bytes) : list nat := bitvector_loop data 0 [].

(** utils.go 55-58 *)
Record pokPayload := { pp_count : nat; pp_revealed : list nat }.

(** utils.go 115-117 *)
Definition lenInBytes (messagesCount : nat) : nat := 2 + messagesCount / 8 + 1.

(** utils.go 61-82; reverseBytes (126-132) is [rev] *)
Definition parsePoKPayload (b : bytes) : res pokPayload :=
  let* _ := guard (2 <=? length b) in
  let* hd := slice b 0 2 in
  let messagesCount := Z.to_nat (os2ip hd) in
  let offset := lenInBytes messagesCount in
  let* _ := guard (offset <=? length b) in
  let* body := slice b 2 offset in
  Ok {| pp_count := messagesCount; pp_revealed := bitvectorToIndexes (rev body) |}.

(** [bitvector[idx] |= 1 << bit] *)
Definition or_bit (b : byte) (bit : nat) : byte :=
  match Byte.of_N (N.lor (Byte.to_N b) (N.shiftl 1 (N.of_nat bit))) with
  | Some x => x
  | None => b0
  end.
Fixpoint set_nth {A} (l : list A) (i : nat) (f : A -> A) : list A :=
  match l, i with
  | [], _ => []
  | x :: l', O => f x :: l'
  | x :: l', S i' => x :: set_nth l' i' f
  end.

(** utils.go 95-104 *)
Fixpoint set_bits (bitvector : bytes) (revealed : list nat) : res bytes :=
  match revealed with
  | [] => Ok bitvector
  | r :: rs =>
      let idx := r / 8 in
      if length bitvector <=? idx then Err
      else set_bits (set_nth bitvector idx (fun b => or_bit b (r mod 8))) rs
  end.

(** utils.go 85-109.  Simplification: the fields are naturals (a negative MessagesCount or
    index cannot come out of any caller in the repository). *)
Definition payloadBytes (p : pokPayload) : res bytes :=
  let* _ := guard (Z.of_nat (pp_count p) <=? 65535)%Z in
  let* bv := set_bits (zeros (lenInBytes (pp_count p) - 2)) (pp_revealed p) in
  Ok (i2osp 2 (Z.of_nat (pp_count p)) ++ rev bv).

(** ** Sets of revealed positions.  [map[int]*SignatureMessage] is only asked for membership and
    size (the values are never read), so it is modelled by its list of keys. *)
Definition mem (i : nat) (m : list nat) : bool := existsb (Nat.eqb i) m.
Definition madd (m : list nat) (i : nat) : list nat := if mem i m then m else i :: m.
Definition mdel (m : list nat) (i : nat) : list nat := filter (fun j => negb (Nat.eqb i j)) m.

Section Bbs.
  Variable C : Curve.
  Variable HG : bytes -> G1 C.
  Variable H : hasher C.
  Notation zr := (zcar (Zr C)).
  Notation g1 := (gcar (G1 C)).
  Notation g2 := (gcar (G2 C)).

  (** ** signature_message.go, fr.go 79-87 *)
  Record SignatureMessage := { sm_fr : zr; sm_idx : nat }.
  Definition parseSignatureMessage (m : bytes) (idx : nat) : SignatureMessage := {| sm_fr := H m; sm_idx := idx |}.
  Fixpoint messagesToFr_from (i : nat) (ms : list bytes) : list SignatureMessage :=
    match ms with
    | [] => []
    | m :: ms' => parseSignatureMessage m i :: messagesToFr_from (S i) ms'
    end.
  Definition messagesToFr (ms : list bytes) : list SignatureMessage := messagesToFr_from 0 ms.

  (** ** keys.go.  A PublicKey is its point (the curve pointer is fixed). *)
  Record PublicKeyWithGenerators := {
    pg_h0 : g1;
    pg_h : list g1;
    pg_w : g2;
    pg_count : nat
  }.

  (** keys.go 117-130 *)
  Definition calcData (pk : g2) (messagesCount : nat) : res bytes :=
    if (Z.of_nat messagesCount >? 4294967295)%Z then Panic
    else Ok (g2_bytes C pk ++ zeros 6 ++ uint32ToBytes (Z.of_nat messagesCount)).

  (** keys.go 97-104: [dataCopy[j+offset] = iBytes[j]] for the four bytes of [i] *)
  Fixpoint write_at (data : bytes) (offset : nat) (src : bytes) : res bytes :=
    match src with
    | [] => Ok data
    | x :: src' =>
        if offset <? length data
        then write_at (set_nth data offset (fun _ => x)) (S offset) src'
        else Panic
    end.

  (** keys.go 86-115 with the cache-less lookup of 38-40 (see BbsCache.v for the cache) *)
  Definition toPublicKeyWithGenerators (pk : g2) (messagesCount : nat) : res PublicKeyWithGenerators :=
    let offset := g2_size C + 1 in
    let* data := calcData pk messagesCount in
    let* h := map_res (fun i => let* d := write_at data offset (uint32ToBytes (Z.of_nat i)) in Ok (HG d))
                      (seq 1 messagesCount) in
    Ok {| pg_h0 := HG data; pg_h := h; pg_w := pk; pg_count := messagesCount |}.

  (** keys.go 139-150; 153-157 (Marshal) is [zr_bytes] *)
  Definition unmarshalPrivateKey (b : bytes) : res zr :=
    let* _ := guard (length b =? frCompressedSize) in Ok (zr_of_bytes C b).
  (** keys.go 160-167 *)
  Definition publicKey (sk : zr) : g2 := genG2 C ⊗ sk.
  (** keys.go 170-184; 187-191 (Marshal) is [g2_comp] *)
  Definition unmarshalPublicKey (b : bytes) : res g2 :=
    let* _ := guard (length b =? g2_csize C) in
    match g2_of_comp C b with Some p => Ok p | None => Err end.

  (** keys.go 194-233 (GenerateKeyPair, generateOKM); [hkdf ikm] is the HKDF output for the
      fixed salt and info; [seed = None] is the nil slice; [rnd] the bytes drawn when it is. *)
  Definition generateKeyPair (hkdf : bytes -> bytes) (seed : option bytes) (rnd : bytes) : res (g2 * zr) :=
    let len := match seed with Some s => length s | None => 0 end in
    let* _ := guard ((len =? 0) || (len =? frCompressedSize)) in
    let ikm := match seed with Some s => s ++ [b0] | None => rnd ++ [b0] end in
    let sk := H (hkdf ikm) in
    Ok (publicKey sk, sk).

  (** ** bbs12381g2pub.go 330-361 (sumOfG1Products): [None] is the nil pointer returned for no
      bases.  Surplus scalars are ignored, missing ones panic. *)
  Fixpoint sum_loop (bases : list g1) (scalars : list zr) (acc : option g1) : res (option g1) :=
    let add g := Some (match acc with None => g | Some r => r ⊕ g end) in
    match bases with
    | [] => Ok acc
    | [b] => match scalars with
             | s :: _ => Ok (add (b ⊗ s))
             | [] => Panic
             end
    | x1 :: x2 :: bases' => match scalars with
                            | s1 :: s2 :: scalars' => sum_loop bases' scalars' (add (gmul2 x1 s1 x2 s2))
                            | _ => Panic
                            end
    end.
  Definition sumOfG1Products (bases : list g1) (scalars : list zr) : res (option g1) := sum_loop bases scalars None.

  Definition deref_g1 (x : option g1) : res g1 := match x with Some p => Ok p | None => Panic end.

  (** A commitment builder (309-328) is the list of its (base, scalar) pairs. *)
  Definition build (cb : list (g1 * zr)) : res g1 :=
    let* r := sumOfG1Products (map fst cb) (map snd cb) in deref_g1 r.

  (** bbs12381g2pub.go 363-369 *)
  Definition compareTwoPairings (p1 : g1) (q1 : g2) (p2 : g1) (q2 : g2) : bool :=
    geqb (pair C q1 p1 ⊕ pair C q2 p2) gzero.

  (** bbs12381g2pub.go 289-307 *)
  Definition computeB (s : zr) (messages : list SignatureMessage) (key : PublicKeyWithGenerators) : res g1 :=
    let* ms := map_res (fun m => let* h := nth_res (pg_h key) (sm_idx m) in Ok (h, sm_fr m)) messages in
    build ((genG1 C, zr_of_Z C 1) :: (pg_h0 key, s) :: ms).

  (** ** signature.go *)
  Record Signature := { si_a : g1; si_e : zr; si_s : zr }.

  (** signature.go 25-44 *)
  Definition parseSignature (b : bytes) : res Signature :=
    let* _ := guard (length b =? g1_csize C + 2 * frCompressedSize) in
    let* pa := slice b 0 (g1_csize C) in
    let* a := match g1_of_comp C pa with Some p => Ok p | None => Err end in
    let* e := slice b (g1_csize C) (g1_csize C + frCompressedSize) in
    let* s := slice_from b (g1_csize C + frCompressedSize) in
    Ok {| si_a := a; si_e := zr_of_bytes C e; si_s := zr_of_bytes C s |}.

  (** signature.go 47-55 *)
  Definition signatureBytes (s : Signature) : res bytes :=
    let b := zeros (g1_csize C + 2 * frCompressedSize) in
    let* b := copy_at b 0 (g1_comp C (si_a s)) in
    let* b := copy_win b (g1_csize C) (g1_csize C + frCompressedSize) (zr_bytes C (si_e s)) in
    copy_at b (g1_csize C + frCompressedSize) (zr_bytes C (si_s s)).

  (** signature.go 65-79 *)
  Definition verifyWithB (s : Signature) (key : PublicKeyWithGenerators) (b : g1) : res unit :=
    guard (compareTwoPairings (si_a s) ((genG2 C ⊗ si_e s) ⊕ pg_w key) (gopp b) (genG2 C)).

  (** signature.go 58-62 *)
  Definition signatureVerify (s : Signature) (messages : list SignatureMessage) (key : PublicKeyWithGenerators) : res unit :=
    let* b := computeB (si_s s) messages key in
    verifyWithB s key b.

  (** bbs12381g2pub.go 259-287; [e], [s] are the two draws *)
  Definition signWithKeyB (b : g1) (messagesCount : nat) (sk e s : zr) : res bytes :=
    let* key := toPublicKeyWithGenerators (publicKey sk) messagesCount in
    let exp := zinv (zadd sk e) in
    let b := b ⊕ (pg_h0 key ⊗ s) in
    signatureBytes {| si_a := b ⊗ exp; si_e := e; si_s := s |}.

  (** bbs12381g2pub.go 231-252 *)
  Definition signWithKeyFr (messages : list SignatureMessage) (messagesCount : nat) (sk e s : zr) : res bytes :=
    let* key := toPublicKeyWithGenerators (publicKey sk) messagesCount in
    let* ms := map_res (fun m => let* h := nth_res (pg_h key) (sm_idx m) in Ok (h, sm_fr m)) messages in
    let* b := build ((genG1 C, zr_of_Z C 1) :: ms) in
    signWithKeyB b (length messages) sk e s.

  (** bbs12381g2pub.go 98-109, 220-227 *)
  Definition bbsSign (messages : list bytes) (privKeyBytes : bytes) (e s : zr) : res bytes :=
    let* sk := unmarshalPrivateKey privKeyBytes in
    let* _ := guard (negb (length messages =? 0)) in
    signWithKeyFr (messagesToFr messages) (length messages) sk e s.

  (** bbs12381g2pub.go 74-95 *)
  Definition bbsVerify (messages : list bytes) (sigBytes pubKeyBytes : bytes) : res unit :=
    let* sig := parseSignature sigBytes in
    let* pk := unmarshalPublicKey pubKeyBytes in
    let* key := toPublicKeyWithGenerators pk (length messages) in
    signatureVerify sig (messagesToFr messages) key.

  (** ** proof_of_knowledge.go 209-275: ProverCommittedG1, ProverCommittingG1 *)
  Record ProverCommittedG1 := { pc_bases : list g1; pc_blind : list zr; pc_comm : g1 }.

  (** proof_of_knowledge.go 243-275: one draw of [bl] for each base in turn *)
  Definition finish (bases : list g1) (blind : list zr) : res ProverCommittedG1 :=
    let* s := sumOfG1Products bases blind in
    let* c := deref_g1 s in
    Ok {| pc_bases := bases; pc_blind := blind; pc_comm := c |}.

  (** proof_of_knowledge.go 216-224 *)
  Definition committedBytes (g : ProverCommittedG1) : bytes :=
    concat (map (g1_bytes C) (pc_bases g)) ++ g1_bytes C (pc_comm g).

  (** ** signature_proof.go 168-205: ProofG1 *)
  Record ProofG1 := { pf_comm : g1; pf_resp : list zr }.

  (** proof_of_knowledge.go 227-241 *)
  Fixpoint responses (challenge : zr) (blind secrets : list zr) : res (list zr) :=
    match blind with
    | [] => Ok []
    | b :: blind' =>
        match secrets with
        | [] => Panic
        | x :: secrets' =>
            let* r := responses challenge blind' secrets' in
            Ok (zsub b (zmul challenge x) :: r)
        end
    end.
  Definition generateProof (g : ProverCommittedG1) (challenge : zr) (secrets : list zr) : res ProofG1 :=
    let* r := responses challenge (pc_blind g) secrets in
    Ok {| pf_comm := pc_comm g; pf_resp := r |}.

  (** signature_proof.go 194-205 *)
  Definition getChallengeContribution (p : ProofG1) (bases : list g1) (commitment : g1) (challenge : zr) : res g1 :=
    let* s := sumOfG1Products (bases ++ [commitment]) (pf_resp p ++ [challenge]) in
    deref_g1 s.

  (** signature_proof.go 183-192 *)
  Definition proofG1Verify (p : ProofG1) (bases : list g1) (commitment : g1) (challenge : zr) : res unit :=
    let* contribution := getChallengeContribution p bases commitment challenge in
    guard (geqb (contribution ⊖ pf_comm p) gzero).

  (** signature_proof.go 208-227 *)
  Definition proofG1Bytes (p : ProofG1) : res bytes :=
    if (Z.of_nat (length (pf_resp p)) >? 4294967295)%Z then Panic
    else Ok (g1_comp C (pf_comm p) ++ uint32ToBytes (Z.of_nat (length (pf_resp p)))
             ++ concat (map (zr_bytes C) (pf_resp p))).

  (** signature_proof.go 297-301 *)
  Fixpoint parse_responses (n : nat) (b : bytes) (offset : nat) : res (list zr) :=
    match n with
    | O => Ok []
    | S n' =>
        let* x := slice b offset (offset + frCompressedSize) in
        let* r := parse_responses n' b (offset + frCompressedSize) in
        Ok (zr_of_bytes C x :: r)
    end.

  (** signature_proof.go 277-304.  The length is read as an integer; the loop runs only when
      the input holds that many scalars. *)
  Definition parseProofG1 (b : bytes) : res ProofG1 :=
    let cs := g1_csize C in
    let* _ := guard (cs + 4 <=? length b) in
    let* pc := slice b 0 cs in
    let* comm := match g1_of_comp C pc with Some p => Ok p | None => Err end in
    let* lb := slice b cs (cs + 4) in
    let n := os2ip lb in
    let* _ := guard (Z.of_nat (cs + 4) + n * Z.of_nat frCompressedSize <=? Z.of_nat (length b))%Z in
    let* r := parse_responses (Z.to_nat n) b (cs + 4) in
    Ok {| pf_comm := comm; pf_resp := r |}.

  (** ** proof_of_knowledge.go 15-206: PoKOfSignature *)
  Record PoKOfSignature := {
    ps_aprime : g1; ps_abar : g1; ps_d : g1;
    ps_vc1 : ProverCommittedG1; ps_sec1 : list zr;
    ps_vc2 : ProverCommittedG1; ps_sec2 : list zr
  }.

  (** The draws of PoKOfSignatureB: r1, r2, then the blinding factors of VC1 and VC2. *)
  Record PoKRand := { pr_r1 : zr; pr_r2 : zr; pr_bl1 : nat -> zr; pr_bl2 : nat -> zr }.

  (** VC2SignatureProvider: (d, r3, key, sPrime, messages, revealed) to (commitment, secrets) *)
  Definition VC2Signer := g1 -> zr -> PublicKeyWithGenerators -> zr -> list SignatureMessage -> list nat ->
    (nat -> zr) -> res (ProverCommittedG1 * list zr).

  (** proof_of_knowledge.go 128-145 *)
  Definition newVC1Signature (aPrime h0 : g1) (e r2 : zr) (bl : nat -> zr) : res (ProverCommittedG1 * list zr) :=
    let* p := finish [aPrime; h0] [bl 0; bl 1] in
    Ok (p, [zopp e; r2]).

  (** messages that are not revealed, proof_of_knowledge.go 169-180 *)
  Definition hidden_messages (messages : list SignatureMessage) (revealed : list nat) : list SignatureMessage :=
    filter (fun m => negb (mem (sm_idx m) revealed)) messages.

  (** proof_of_knowledge.go 151-185 *)
  Definition defaultVC2 : VC2Signer := fun d r3 key sPrime messages revealed bl =>
    let hid := hidden_messages messages revealed in
    let* hs := map_res (fun m => nth_res (pg_h key) (sm_idx m)) hid in
    let bases := d :: pg_h0 key :: hs in
    let* p := finish bases (map bl (seq 0 (length bases))) in
    Ok (p, zopp r3 :: sPrime :: map sm_fr hid).

  (** proof_of_knowledge.go 67-126 *)
  Definition pokOfSignatureB (vc2 : VC2Signer) (verifySig : bool) (sig : Signature) (messages : list SignatureMessage)
      (revealedIndexes : list Z) (key : PublicKeyWithGenerators) (b : g1) (R : PoKRand) : res PoKOfSignature :=
    let* _ := if verifySig then verifyWithB sig key b else Ok tt in
    let r1 := pr_r1 R in
    let r2 := pr_r2 R in
    let aPrime := si_a sig ⊗ r1 in
    let aBarDenom := aPrime ⊗ si_e sig in
    let aBar := (b ⊗ r1) ⊖ aBarDenom in
    let r2D := zopp r2 in
    let* d := build [(b, r1); (pg_h0 key, r2D)] in
    let r3 := zinv r1 in
    let sPrime := zadd (zopp (zmul r2 r3)) (si_s sig) in
    let* '(vc1, sec1) := newVC1Signature aPrime (pg_h0 key) (si_e sig) r2 (pr_bl1 R) in
    let* _ := guard (negb (length messages <? length revealedIndexes)) in
    let* ids := map_res (fun ind => let* m := znth messages ind in Ok (sm_idx m)) revealedIndexes in
    let revealed := fold_left madd ids [] in
    let* '(c2, sec2) := vc2 d r3 key sPrime messages revealed (pr_bl2 R) in
    Ok {| ps_aprime := aPrime; ps_abar := aBar; ps_d := d; ps_vc1 := vc1; ps_sec1 := sec1;
          ps_vc2 := c2; ps_sec2 := sec2 |}.

  (** proof_of_knowledge.go 33-45, 60-65 *)
  Definition newPoKOfSignature (sig : Signature) (messages : list SignatureMessage) (revealedIndexes : list Z)
      (key : PublicKeyWithGenerators) (R : PoKRand) : res PoKOfSignature :=
    let* b := computeB (si_s sig) messages key in
    pokOfSignatureB defaultVC2 true sig messages revealedIndexes key b R.

  (** proof_of_knowledge.go 188-194 *)
  Definition pokBytes (p : PoKOfSignature) : bytes :=
    g1_bytes C (ps_abar p) ++ committedBytes (ps_vc1 p) ++ committedBytes (ps_vc2 p).

  (** signature_proof.go 23-33 (the VC2ProofVerifier is passed separately) *)
  Record PoKOfSignatureProof := {
    sp_aprime : g1; sp_abar : g1; sp_d : g1; sp_vc1 : ProofG1; sp_vc2 : ProofG1
  }.

  (** proof_of_knowledge.go 197-206 *)
  Definition pokGenerateProof (p : PoKOfSignature) (challenge : zr) : res PoKOfSignatureProof :=
    let* p1 := generateProof (ps_vc1 p) challenge (ps_sec1 p) in
    let* p2 := generateProof (ps_vc2 p) challenge (ps_sec2 p) in
    Ok {| sp_aprime := ps_aprime p; sp_abar := ps_abar p; sp_d := ps_d p; sp_vc1 := p1; sp_vc2 := p2 |}.

  (** ** signature_proof.go *)
  (** [pubKey.H[i]] for the [i] not in the map, 51-55 *)
  Fixpoint hidden_bases (i : nat) (hs : list g1) (revealed : list nat) : list g1 :=
    match hs with
    | [] => []
    | h :: hs' => if mem i revealed then hidden_bases (S i) hs' revealed else h :: hidden_bases (S i) hs' revealed
    end.

  (** signature_proof.go 37-60; [make] with a negative capacity panics *)
  Definition getBytesForChallenge (sp : PoKOfSignatureProof) (revealed : list nat) (key : PublicKeyWithGenerators) : res bytes :=
    if pg_count key + 7 <? length revealed then Panic
    else Ok (g1_bytes C (sp_abar sp) ++ g1_bytes C (sp_aprime sp) ++ g1_bytes C (pg_h0 key)
             ++ g1_bytes C (pf_comm (sp_vc1 sp)) ++ g1_bytes C (sp_d sp) ++ g1_bytes C (pg_h0 key)
             ++ concat (map (g1_bytes C) (hidden_bases 0 (pg_h key) revealed))
             ++ g1_bytes C (pf_comm (sp_vc2 sp))).

  (** signature_proof.go 81-92 *)
  Definition verifyVC1Proof (sp : PoKOfSignatureProof) (challenge : zr) (key : PublicKeyWithGenerators) : res unit :=
    proofG1Verify (sp_vc1 sp) [sp_aprime sp; pg_h0 key] (sp_abar sp ⊖ sp_d sp) challenge.

  (** signature_proof.go 112-122: bases of the hidden messages and (base, exponent) pairs of the
      disclosed ones; [ind] is revealedMessagesInd *)
  Fixpoint split_bases (i : nat) (hs : list g1) (revealed : list nat) (messages : list SignatureMessage) (ind : nat)
      : res (list g1 * list (g1 * zr)) :=
    match hs with
    | [] => Ok ([], [])
    | h :: hs' =>
        if mem i revealed
        then let* m := nth_res messages ind in
             let* '(hid, dis) := split_bases (S i) hs' revealed messages (S ind) in
             Ok (hid, (h, sm_fr m) :: dis)
        else let* '(hid, dis) := split_bases (S i) hs' revealed messages ind in
             Ok (h :: hid, dis)
    end.

  (** signature_proof.go 124-134 *)
  Definition disclosed_sum (dis : list (g1 * zr)) : g1 :=
    fold_left (fun pr bs => pr ⊕ (fst bs ⊗ snd bs)) dis (genG1 C ⊖ genG1 C).

  (** VC2ProofVerifier *)
  Definition VC2Verifier := zr -> PublicKeyWithGenerators -> list nat -> list SignatureMessage -> ProofG1 -> g1 -> res unit.

  (** signature_proof.go 98-144 *)
  Definition defaultVC2Verify : VC2Verifier := fun challenge key revealed messages proof d =>
    if pg_count key + 2 <? length revealed then Panic else
    let* '(hid, dis) := split_bases 0 (pg_h key) revealed messages 0 in
    let pr := gopp (disclosed_sum ((genG1 C, zr_of_Z C 1) :: dis)) in
    proofG1Verify proof (d :: pg_h0 key :: hid) pr challenge.

  (** signature_proof.go 63-79 *)
  Definition signatureProofVerify (vc2 : VC2Verifier) (sp : PoKOfSignatureProof) (challenge : zr)
      (key : PublicKeyWithGenerators) (revealed : list nat) (messages : list SignatureMessage) : res unit :=
    let* _ := guard (compareTwoPairings (sp_aprime sp) (pg_w key) (gopp (sp_abar sp)) (genG2 C)) in
    let* _ := verifyVC1Proof sp challenge key in
    vc2 challenge key revealed messages (sp_vc2 sp) (sp_d sp).

  (** signature_proof.go 147-166 *)
  Definition signatureProofBytes (sp : PoKOfSignatureProof) : res bytes :=
    let* p1 := proofG1Bytes (sp_vc1 sp) in
    if (Z.of_nat (length p1) >? 4294967295)%Z then Panic else
    let* p2 := proofG1Bytes (sp_vc2 sp) in
    Ok (g1_comp C (sp_aprime sp) ++ g1_comp C (sp_abar sp) ++ g1_comp C (sp_d sp)
        ++ uint32ToBytes (Z.of_nat (length p1)) ++ p1 ++ p2).

  Definition parse_g1c (b : bytes) (offset : nat) : res g1 :=
    let* x := slice b offset (offset + g1_csize C) in
    match g1_of_comp C x with Some p => Ok p | None => Err end.

  (** signature_proof.go 230-274.  The length of the first proof is compared as an integer
      before slicing, which is the bounds check of the slice expression. *)
  Definition parseSignatureProof (b : bytes) : res PoKOfSignatureProof :=
    let cs := g1_csize C in
    let* _ := guard (cs * 3 <=? length b) in
    let* p0 := parse_g1c b 0 in
    let* p1 := parse_g1c b cs in
    let* p2 := parse_g1c b (2 * cs) in
    let* lb := slice b (3 * cs) (3 * cs + 4) in
    let n := os2ip lb in
    if (Z.of_nat (3 * cs + 4) + n >? Z.of_nat (length b))%Z then Panic else
    let* b1 := slice b (3 * cs + 4) (3 * cs + 4 + Z.to_nat n) in
    let* vc1 := parseProofG1 b1 in
    let* b2 := slice_from b (3 * cs + 4 + Z.to_nat n) in
    let* vc2 := parseProofG1 b2 in
    Ok {| sp_aprime := p0; sp_abar := p1; sp_d := p2; sp_vc1 := vc1; sp_vc2 := vc2 |}.

  (** bbs12381g2pub.go 377-386: the nonce is hashed to a scalar and re-encoded *)
  Definition proofNonceBytes (nonce : bytes) : bytes := zr_bytes C (H nonce).

  (** bbs12381g2pub.go 120-157 *)
  Definition verifyProofFr (messages : list SignatureMessage) (proof nonce pubKeyBytes : bytes) : res unit :=
    let* payload := parsePoKPayload proof in
    let* rest := slice_from proof (lenInBytes (pp_count payload)) in
    let* sp := parseSignatureProof rest in
    let* pk := unmarshalPublicKey pubKeyBytes in
    let* key := toPublicKeyWithGenerators pk (pp_count payload) in
    let* _ := guard (negb (length messages <? length (pp_revealed payload))) in
    let revealed := fold_left madd (pp_revealed payload) [] in
    let* cb := getBytesForChallenge sp revealed key in
    signatureProofVerify defaultVC2Verify sp (H (cb ++ proofNonceBytes nonce)) key revealed messages.

  (** bbs12381g2pub.go 112-116 *)
  Definition verifyProof (messages : list bytes) (proof nonce pubKeyBytes : bytes) : res unit :=
    verifyProofFr (messagesToFr messages) proof nonce pubKeyBytes.

  (** sort.Ints (insertion sort gives the same slice as any correct sort) *)
  Fixpoint insertZ (x : Z) (l : list Z) : list Z :=
    match l with
    | [] => [x]
    | y :: l' => if (x <=? y)%Z then x :: l else y :: insertZ x l'
    end.
  Definition sortInts (l : list Z) : list Z := fold_right insertZ [] l.

  (** bbs12381g2pub.go 167-217 *)
  Definition deriveProofZr (messages : list SignatureMessage) (sigBytes nonce pubKeyBytes : bytes)
      (revealedIndexes : list Z) (R : PoKRand) : res bytes :=
    let* _ := guard (negb (length revealedIndexes =? 0)) in
    let revealedIndexes := sortInts revealedIndexes in
    let* pk := unmarshalPublicKey pubKeyBytes in
    let* key := toPublicKeyWithGenerators pk (length messages) in
    let* sig := parseSignature sigBytes in
    let* pok := newPoKOfSignature sig messages revealedIndexes key R in
    let challenge := H (pokBytes pok ++ proofNonceBytes nonce) in
    let* proof := pokGenerateProof pok challenge in
    let* pb := payloadBytes {| pp_count := length messages; pp_revealed := map Z.to_nat revealedIndexes |} in
    let* sb := signatureProofBytes proof in
    Ok (pb ++ sb).

  (** bbs12381g2pub.go 160-163 *)
  Definition deriveProof (messages : list bytes) (sigBytes nonce pubKeyBytes : bytes) (revealedIndexes : list Z)
      (R : PoKRand) : res bytes :=
    deriveProofZr (messagesToFr messages) sigBytes nonce pubKeyBytes revealedIndexes R.
End Bbs.
