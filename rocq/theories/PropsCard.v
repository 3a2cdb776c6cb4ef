(** * What a smartcard pseudonym signature stands for (C85)

    [scNymVerify sha256 h0 h1 h2 signature pseudonym message] is Smartcard.NymVerify, [scNymSign] is Smartcard.NymSign.
    [card_bytes] and [card_data] (AriesCard.v) are the layout of a signature and of the hashed bytes. *)
From Verif Require Import Base Curve Algebra Spec Dlog Bridge BridgeFacts Bbs BbsSpec BbsFacts Aries AriesSpec AriesNym AriesCard
  Csp CspInst CspSpec CspFacts Toy ToyBbs ToyAries PropsAries.
Unset Strict Implicit.

(** Full claim: an accepted signature is accepted for one pseudonym and one message only, and only the card that can open
    the pseudonym can make it.
    Proved: a signature whose point B is not neutral and that is accepted twice, for [tau1], [m1] and for [tau2], [m2]: the
    messages are equal and the pseudonyms have the same encoding but for its first byte, or the two hashed byte strings,
    which are given, are a collision.
    Missing, because false: the neutral B and the pseudonym's opening, see below. *)
Theorem C85_binding_partial : forall C (OK : CurveOk C) (sha256 : bytes -> bytes) (h0 h1 h2 : G1 C) (signature : bytes)
    (tau1 tau2 : G1 C) (m1 m2 : bytes) (B T : G1 C) (x r : Zr C),
  scParse C signature = Ok (B, T, x, r) -> B <> gzero ->
  scNymVerify sha256 h0 h1 h2 signature tau1 m1 = Ok tt -> scNymVerify sha256 h0 h1 h2 signature tau2 m2 = Ok tt ->
  let d1 := card_data h0 h1 h2 B T tau1 m1 in
  let d2 := card_data h0 h1 h2 B T tau2 m2 in
  (skipn 1 (g1_bytes C tau1) = skipn 1 (g1_bytes C tau2) /\ m1 = m2) \/
  (d1 <> d2 /\ zr_of_bytes C (sha256 d1) = zr_of_bytes C (sha256 d2)).
Proof.
  intros C OK sha256 h0 h1 h2 signature tau1 tau2 m1 m2 B T x r P NZ V1 V2 d1 d2.
  destruct (list_eq_dec Byte.byte_eq_dec d1 d2) as [E|E].
  - left. exact (card_data_inj OK E).
  - right. split; [exact E|]. exact (card_binding OK P NZ V1 V2).
Qed.
Print Assumptions C85_binding_partial.

(** One byte string is accepted as a signature for every pseudonym and every message, under every issuer key. *)
Theorem C85_neutral_refuted : forall C (OK : CurveOk C) (sha256 : bytes -> bytes),
  exists signature, forall (h0 h1 h2 : G1 C) (pseudonym : G1 C) (message : bytes),
    scNymVerify sha256 h0 h1 h2 signature pseudonym message = Ok tt.
Proof.
  intros C OK sha256. exists (card_bytes (zeros 16) (gzero : G1 C) gzero z0 z0). intros. apply (card_neutral OK). reflexivity.
Qed.
Print Assumptions C85_neutral_refuted.

(** Whoever chooses [x] and [r] signs every message for every pseudonym, also when no neutral point is allowed. *)
Theorem C85_stranger_refuted : forall C (OK : CurveOk C) (sha256 : bytes -> bytes) (h0 h1 h2 : G1 C) (pseudonym : G1 C) (message : bytes)
    (x r xt rt : Zr C),
  let B := (h0 ⊗ r) ⊕ (h1 ⊗ x) in
  exists signature T a b, scParse C signature = Ok (B, T, a, b) /\ T = (h0 ⊗ rt) ⊕ (h1 ⊗ xt) /\
    scNymVerify sha256 h0 h1 h2 signature pseudonym message = Ok tt.
Proof.
  intros C OK sha256 h0 h1 h2 tau msg x r xt rt B. pose proof (card_forge OK sha256 h0 h1 h2 tau msg x r xt rt (eq_refl : length (zeros 16) = 16) []) as F.
  cbv zeta in F. fold B in F. set (T := (h0 ⊗ rt) ⊕ (h1 ⊗ xt)) in *. set (c := zr_of_bytes C _) in F.
  eexists. exists T. eexists. eexists. split; [|split; [reflexivity|exact F]]. apply (card_parse OK sha256). reflexivity.
Qed.
Print Assumptions C85_stranger_refuted.

(** The 16 bytes in front and everything behind the last scalar can be exchanged. *)
Theorem C85_bytes_refuted : forall C (OK : CurveOk C) (sha256 : bytes -> bytes) (h0 h1 h2 : G1 C) (seed seed' rest tail : bytes)
    (B T : G1 C) (x r : Zr C) (pseudonym : G1 C) (message : bytes),
  length seed = 16 -> length seed' = 16 ->
  rest = g1_bytes C B ++ g1_bytes C T ++ zr_bytes C x ++ zr_bytes C r ->
  scNymVerify sha256 h0 h1 h2 (seed ++ rest) pseudonym message = Ok tt ->
  scNymVerify sha256 h0 h1 h2 (seed' ++ rest ++ tail) pseudonym message = Ok tt.
Proof.
  intros C OK sha256 h0 h1 h2 seed seed' rest tail B T x r tau msg L L' -> V. rewrite app_assoc.
  apply (card_verify_iff OK sha256 h0 h1 h2 tau msg (card_parse OK sha256 B T x r tail L')).
  refine (proj1 (card_verify_iff OK sha256 h0 h1 h2 tau msg (card_parse OK sha256 B T x r [] L)) _). rewrite app_nil_r. exact V.
Qed.
Print Assumptions C85_bytes_refuted.

(** Through the API: with the smartcard flag set, Verify of the aries CSP does not look at the pseudonym key it is called
    with, only at the pseudonym in the options; and it accepts the signature of [C85_neutral_refuted]. *)
Theorem C85_csp_refuted : forall C (OK : CurveOk C) (HG : bytes -> G1 C) (H : hasher C) hkdf c_cred c_sig c_nsig c_cri EC (EE : ecenv EC) sha256 M e c,
  New (aries_scheme HG H hkdf c_cred c_sig c_nsig c_cri EE sha256) M false e = Ok c ->
  (forall nym1 nym2 signature digest o, no_smartcard o = true ->
     csp_Verify c (Some (KNymPublic nym1)) signature digest (Some (SNym o)) = csp_Verify c (Some (KNymPublic nym2)) signature digest (Some (SNym o))) /\
  (exists signature, forall nym digest (o : nym_opts (ariesU C EC)) pk n eid, 3 <= n -> no_smartcard o = true -> no_nymeid o = Some eid ->
     no_ipk o = Some (KIssuerPublic (Some (Some (issuer_key HG pk n)) : u_ipk (ariesU C EC))) ->
     csp_Verify c (Some (KNymPublic nym)) signature digest (Some (SNym o)) = accepted).
Proof.
  intros C OK HG H hkdf c_cred c_sig c_nsig c_cri EC EE sha256 M e c N. split.
  - intros nym1 nym2 signature digest o S. rewrite !(csp_verify_eq (M := M) _ signature digest _ N).
    cbn [h_NymVerifier]. rewrite S. reflexivity.
  - set (sig := card_bytes (zeros 16) (gzero : G1 C) gzero z0 z0). exists sig. intros nym digest o pk n eid L S E K.
    assert (V : scBackendVerify sha256 (Some (Some (issuer_key HG pk n))) eid sig digest = Ok tt).
    { unfold scBackendVerify. cbn [issuer_key ip_key pg_h pg_h0]. change 0%Z with (Z.of_nat 0). change 3%Z with (Z.of_nat 3).
      rewrite !gens_at by lia. cbn [bind]. apply (card_neutral OK). reflexivity. }
    assert (Z : length sig =? 0 = false) by reflexivity. clearbody sig.
    rewrite (csp_verify_eq (M := M) _ _ digest _ N), Z. cbn [h_NymVerifier]. rewrite K, S, E. unfold empty. rewrite Z.
    cbn [aries_scheme s_card cs_verify]. rewrite V. reflexivity.
Qed.
Print Assumptions C85_csp_refuted.

(** What the signature hides: a card with another user secret that shows the same pseudonym makes the same bytes.  [a] is
    the logarithm of the second base.  The output of the second card's generator and its draws are those of the first,
    shifted by constants; so if they are uniform, the signature does not depend on the secret. *)
Theorem C85_hiding : forall C (OK : CurveOk C) (sha256 : bytes -> bytes) (sc1 sc2 : Card C) (message : bytes),
  sc_h0 sc1 = sc_h0 sc2 -> sc_h1 sc1 = sc_h1 sc2 -> sc_h2 sc1 = sc_h2 sc2 -> sc_h0 sc1 <> gzero ->
  snd (getNymEid sc1) = snd (getNymEid sc2) ->
  exists a : Zr C, sc_h1 sc1 = sc_h0 sc1 ⊗ a /\
    forall seed (xt rt : Zr C),
      let u := zsub (sc_uid sc1) (sc_uid sc2) in
      prf C (sc_k1 sc2) seed = zadd (prf C (sc_k1 sc1) seed) (zmul a u) ->
      exists c, scNymSign sha256 sc2 message seed (zadd xt (zmul c u)) (zsub rt (zmul c (zmul a u)))
              = scNymSign sha256 sc1 message seed xt rt.
Proof.
  intros C OK sha256 sc1 sc2 message E0 E1 E2 NZ ET. destruct (gok_cyclic (ok_g1 OK) (sc_h1 sc1) NZ) as [a A].
  exists a. split; [exact A|]. exact (card_hiding OK sha256 message E0 E1 E2 A ET).
Qed.
Print Assumptions C85_hiding.

(** There is such a card for every other user secret: it differs from the first only in the secret and in the key of its
    generator, which permutes the blocks as a block cipher does, and with draws of its own it makes the same bytes.  [r2] is
    what its generator has to put out and [left], [right] are two blocks that stand for it; the first is not zero and they
    differ, which no two blocks put out by a block cipher in this mode violate but two zeros. *)
Theorem C85_hiding_cards : forall C (OK : CurveOk C) (sha256 : bytes -> bytes) (sc1 : Card C) (secret : Zr C) (message seed : bytes) (xt rt : Zr C),
  length seed = 16 -> sc_h0 sc1 <> gzero ->
  exists a : Zr C, sc_h1 sc1 = sc_h0 sc1 ⊗ a /\
    let r2 := zadd (prf C (sc_k1 sc1) seed) (zmul a (zsub (sc_uid sc1) secret)) in
    forall left right, length left = 16 -> length right = 16 -> zr_of_bytes C (left ++ right) = r2 -> left <> zeros 16 -> left <> right ->
    exists (encrypt decrypt : bytes -> bytes) xt' rt',
      let sc2 := {| sc_h0 := sc_h0 sc1; sc_h1 := sc_h1 sc1; sc_h2 := sc_h2 sc1; sc_uid := secret; sc_eid := sc_eid sc1;
                    sc_k0 := sc_k0 sc1; sc_k1 := encrypt; sc_ctr := sc_ctr sc1 |} in
      (forall b, decrypt (encrypt b) = b /\ encrypt (decrypt b) = b /\ length (encrypt b) = length b) /\
      scNymSign sha256 sc2 message seed xt' rt' = scNymSign sha256 sc1 message seed xt rt.
Proof.
  intros C OK sha256 sc1 secret message seed xt rt LS NZ. destruct (gok_cyclic (ok_g1 OK) (sc_h1 sc1) NZ) as [a A].
  exists a. split; [exact A|]. intros r2 left right L1 L2 V N1 N2.
  destruct (prf_reach LS L1 L2 V N1 N2) as (K & K' & P & E).
  set (sc2 := {| sc_h0 := sc_h0 sc1; sc_h1 := sc_h1 sc1; sc_h2 := sc_h2 sc1; sc_uid := secret; sc_eid := sc_eid sc1;
                 sc_k0 := sc_k0 sc1; sc_k1 := K; sc_ctr := sc_ctr sc1 |}).
  destruct (@card_hiding C OK sha256 sc1 sc2 message a eq_refl eq_refl eq_refl A eq_refl seed xt rt E) as [c Q].
  exists K, K'. eexists. eexists. split; [exact P|exact Q].
Qed.
Print Assumptions C85_hiding_cards.
(** With 32-byte scalars the encoding of a scalar is two such blocks, unless its first half is zero or equals the second. *)
Theorem C85_hiding_blocks : forall C (OK : CurveOk C) (r : Zr C), scalar_size C = 32 ->
  let left := firstn 16 (zr_bytes C r) in
  let right := skipn 16 (zr_bytes C r) in
  length left = 16 /\ length right = 16 /\ zr_of_bytes C (left ++ right) = r.
Proof.
  intros C OK r SZ left right. pose proof (ok_zr_len OK r) as LR. rewrite SZ in LR. unfold left, right.
  rewrite firstn_length, skipn_length, firstn_skipn. repeat split; [lia|lia|]. apply (ok_zr_rt OK).
Qed.
Print Assumptions C85_hiding_blocks.

(** ** A concrete case *)
Definition xa_sha (b : bytes) : bytes := i2osp 32 (Z.of_nat (length b) + zv (h32 b)).
Definition xa_log : Zr toy32 := zmul (sc_h1 xa_card : Zr toy32) (zinv (sc_h0 xa_card : Zr toy32)).
(** another card: another user secret, another generator, the same pseudonym *)
Definition xa_shift : Zr toy32 := zmul xa_log (zsub xa_sk f20).
Definition xa_card2 : Card toy32 := {| sc_h0 := sc_h0 xa_card; sc_h1 := sc_h1 xa_card; sc_h2 := sc_h2 xa_card;
  sc_uid := f20; sc_eid := sc_eid xa_card; sc_k0 := sc_k0 xa_card;
  sc_k1 := fun b => if bytes_eqb b (zeros 16) then i2osp 16 1 else i2osp 16 5; sc_ctr := sc_ctr xa_card |}.

Definition xa_card_sig : bytes := match scNymSign xa_sha xa_card (str "m") (zeros 16) f2 f3 with Ok p => p | _ => [] end.
Definition xa_card_ok (sig : bytes) (tau : G1 toy32) (msg : bytes) : bool :=
  is_ok (scNymVerify xa_sha (sc_h0 xa_card) (sc_h1 xa_card) (sc_h2 xa_card) sig tau msg).
Definition xa_tau : G1 toy32 := snd (getNymEid xa_card).

Example C85_example :
  xa_card_ok xa_card_sig xa_tau (str "m") = true /\ xa_card_ok xa_card_sig xa_tau (str "other") = false /\
  map (fun m => xa_card_ok (card_bytes (zeros 16) (gzero : G1 toy32) gzero z0 z0) (f7 : G1 toy32) (str m)) ["m"; "other"]%string = [true; true].
Proof. vm_compute. auto. Qed.

Example C85_hiding_example : sc_uid xa_card <> sc_uid xa_card2 /\ sc_h0 xa_card <> gzero /\
  zeqb (sc_h1 xa_card : Zr toy32) (zmul (sc_h0 xa_card : Zr toy32) xa_log) = true /\
  geqb (snd (getNymEid xa_card)) (snd (getNymEid xa_card2)) = true /\
  zeqb (prf toy32 (sc_k1 xa_card2) (zeros 16)) (zadd (prf toy32 (sc_k1 xa_card) (zeros 16)) (zmul xa_log (zsub (sc_uid xa_card) (sc_uid xa_card2)))) = true.
Proof. split; [apply zp_ne; vm_compute; reflexivity|]. split; [apply zp_ne; vm_compute; reflexivity|]. vm_compute. auto. Qed.
Example C85_hiding_cards_example :
  let r2 := zadd (prf toy32 (sc_k1 xa_card) (zeros 16)) (zmul xa_log (zsub (sc_uid xa_card) f20)) in
  let left := i2osp 16 (2 ^ 127) in
  sc_h0 xa_card <> gzero /\ length left = 16 /\ left <> zeros 16 /\
  existsb (fun n => let right := i2osp 16 n in (length right =? 16) && zeqb (zr_of_bytes toy32 (left ++ right)) r2 && negb (bytes_eqb left right))
    (map Z.of_nat (seq 0 40)) = true.
Proof.
  split; [apply zp_ne; vm_compute; reflexivity|]. split; [reflexivity|]. split; [vm_compute; discriminate|]. vm_compute. reflexivity.
Qed.
