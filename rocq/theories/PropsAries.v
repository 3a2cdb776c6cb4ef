(** * Properties of the aries scheme /repo/bccsp/schemes/aries (C32 - C43 and the aries part of C14)

    Reading guide.  [C] is a pairing curve satisfying the laws [CurveOk] with the sizes the BBS+
    library assumes ([bls_sizes]), [HG] the hash to G1, [H] the hash to scalars, [c_..] the protobuf
    codecs.  [issuer_key HG pk n] is the public key of an issuer with [n] attributes (C32_issuer_key
    says that it is what the API returns), [base_at .. i] the base of message [i], where message 0 is
    the user's secret and message [i]+1 is attribute [i].  After each theorem an [Example] instantiates its
    hypotheses on the toy curve (ToyAries.v). *)
From Verif Require Import Base Curve Algebra Spec Dlog Bridge BridgeFacts Bbs BbsSpec BbsFacts BbsProof BbsComplete
  Aries AriesSpec AriesIssue AriesNym AriesVerify AriesSign AriesSound AriesForge AriesHide DlogAudit Toy ToyBbs ToyCodec ToyAries.
From Coq Require Import Sorting.Sorted Field Ring.
Unset Strict Implicit.

(** ** C32: blind issuance *)
(** The keys made by NewKey / NewKeyFromBytes / NewPublicKeyFromBytes are those the other theorems
    are about. *)
Theorem C32_issuer_key : forall C (OK : CurveOk C) (HG : bytes -> G1 C) (H : hasher C) (hkdf : bytes -> bytes) (isk : Zr C) (names : list bytes) (seed : bytes),
  bls_sizes C -> (Z.of_nat (length names + 1) <= 4294967295)%Z ->
  let n := length names in
  (length seed = 32 -> exists sk, arNewKey HG H hkdf names seed = Ok {| is_pub := issuer_key HG (genG2 C ⊗ sk) n; is_sk := sk |}) /\
  arNewKeyFromBytes HG (zr_bytes C isk) names = Ok {| is_pub := issuer_key HG (genG2 C ⊗ isk) n; is_sk := isk |} /\
  (forall pk, arNewPublicKeyFromBytes HG (arPublicKeyBytes (issuer_key HG pk n)) names = Ok (issuer_key HG pk n)).
Proof.
  intros C OK HG H hkdf isk names seed BS B n. split; [|split].
  - intro L. unfold arNewKey, generateKeyPair. rewrite L. change (32 =? 0) with false. cbn [orb].
    change (32 =? frCompressedSize) with true. eexists. cbn [guard bind]. unfold publicKey. match goal with |- context [toPublicKeyWithGenerators HG ?p _] => pose proof (issuer_key_from OK HG p B) as K end.
    rewrite K. cbn [bind]. reflexivity.
  - unfold arNewKeyFromBytes. replace (unmarshalPrivateKey C (zr_bytes C isk)) with (@Ok (Zr C) isk).
    + cbn [bind]. unfold publicKey. rewrite (issuer_key_from OK HG _ B). reflexivity.
    + symmetry. unfold unmarshalPrivateKey. rewrite (ok_zr_len OK), (proj1 BS), Nat.eqb_refl. cbn [guard bind]. rewrite (ok_zr_rt OK). reflexivity.
  - intro pk. unfold arNewPublicKeyFromBytes, arPublicKeyBytes. cbn [issuer_key ip_pk].
    rewrite (unmarshalPK_enc OK). cbn [bind]. rewrite (issuer_key_from OK HG pk B). reflexivity.
Qed.

(** For an honest user and issuer with at least one attribute: every step succeeds, and the result is
    a credential on exactly the given attributes and the user's secret.  [isk]+[e] = 0 is the
    one draw for which no signature exists. *)
Theorem C32_issuance_partial : forall C (OK : CurveOk C) (HG : bytes -> G1 C) (H : hasher C) (c_cred : codec ACredential),
  bls_sizes C -> codec_ok canon_acred c_cred ->
  forall (isk sk : Zr C) (attributes : list attribute) (vals : list (Zr C)) (nonce : bytes) (s e s' : Zr C) (bl : nat -> Zr C),
  attributes <> [] -> (Z.of_nat (length attributes + 1) <= 4294967295)%Z ->
  Forall2 (attr_states H) attributes vals -> zadd isk e <> z0 ->
  let n := length attributes in
  let pk := genG2 C ⊗ isk in
  let ipk := Some (Some (issuer_key HG pk n)) in
  exists req blinding out cred A,
    arBlind HG H 0 sk ipk nonce s bl = Ok (req, blinding) /\
    arBlindVerify HG H 0 req ipk nonce = Ok tt /\
    arCredSign HG H c_cred 0 (Some (Some {| is_pub := issuer_key HG pk n; is_sk := isk |})) req attributes e s' = Ok out /\
    arUnblind C c_cred out blinding = Ok cred /\
    arCredVerify H c_cred sk ipk cred attributes = Ok tt /\
    dec c_cred cred = Some (credential_of A e (zadd s' s) vals) /\
    bbs_signature pk (gen0 HG pk (n + 1)) (gens HG pk (n + 1)) A e (zadd s' s) (sk :: vals).
Proof.
  intros C OK HG H c_cred BS CC isk sk attributes vals nonce s e s' bl NE B St NZ n pk ipk.
  assert (LV : length vals = n) by (symmetry; exact (Forall2_len St)).
  assert (NV : vals <> []) by (intro E; apply NE; rewrite E in LV; destruct attributes; [reflexivity|discriminate]).
  destruct (blind_ok OK HG H BS pk (n := n) (k := 0) sk s bl nonce B ltac:(lia)) as (req & E1 & P1).
  pose proof (request_verifies OK BS B (Nat.le_0_l n) P1) as V1.
  pose proof (@credSign_ok C OK HG H BS c_cred isk e s' n 0 attributes vals req _ LV NV ltac:(lia) B St P1) as S1. cbv zeta in S1. fold pk in S1.
  pose proof (@issued_valid C OK HG BS isk e s s' sk n 0 vals LV ltac:(lia) NZ) as IV. cbv zeta in IV. fold pk in IV.
  cbn [firstn skipn with_secret app] in IV. cbn [request bl_c] in S1.
  set (A := _ ⊗ zinv (zadd isk e)) in IV.
  match type of S1 with _ = opt_err (enc c_cred {| ac_cred := sig_enc ?A' _ _; ac_attrs := _; ac_skpos := _ |}) => change A' with A in S1 end.
  assert (K0 : forall sg, canon_acred {| ac_cred := sg; ac_attrs := map (zr_bytes C) vals; ac_skpos := 0 |}) by (intro sg; unfold canon_acred, int32; cbn [ac_skpos]; lia).
  destruct (CC _ (K0 (sig_enc A e s'))) as (out & Eo & Do). rewrite Eo in S1. cbn [opt_err] in S1.
  pose proof (@unblind_ok C OK BS c_cred A e s' s vals 0%Z out Do) as U.
  destruct (CC _ (K0 (sig_enc A e (zadd s' s)))) as (cr & Ec & Dc). rewrite Ec in U. cbn [opt_err] in U.
  exists req, (zr_bytes C s), out, cr, A. split; [exact E1|]. split; [exact V1|]. split; [exact S1|]. split; [exact U|].
  split; [|split; [exact Dc|exact IV]].
  assert (Ty : Forall typed attributes).
  { clear - St. induction St as [|a v l l' Hx _ IH]; constructor; [|exact IH]. intro E. unfold attr_states in Hx. rewrite E in Hx. exact Hx. }
  apply (proj2 (credVerify_iff OK HG H BS c_cred sk pk cr (n := n) eq_refl Ty)).
  exists {| ac_cred := sig_enc A e (zadd s' s); ac_attrs := map (zr_bytes C) vals; ac_skpos := 0 |}, {| si_a := A; si_e := e; si_s := zadd s' s |}, 0.
  split; [exact Dc|]. split; [apply (parse_sig_enc OK); exact (proj1 BS)|]. split; [reflexivity|]. split; [lia|].
  split; [cbn [ac_attrs]; rewrite map_length, LV; lia|]. cbn [ac_attrs].
  assert (Q : firstn n (map (zr_of_bytes C) (map (zr_bytes C) vals)) = vals).
  { rewrite map_map, (map_ext _ (fun x => x)) by (intro; apply (ok_zr_rt OK)). rewrite map_id. rewrite <- LV. apply firstn_all. }
  rewrite Q. split; [|exact IV].
  clear - St. induction St as [|a v l l' Hx _ IH]; constructor; [right; exact Hx|exact IH].
Qed.

Example C32_example : xa_certified <> [] /\ Forall2 (attr_states h32) xa_certified xa_vals /\ zadd xa_isk xa_e <> z0 /\
  codec_ok canon_acred xa_ccred /\
  is_ok (let* '(req, bl) := arBlind hg32 h32 0 xa_sk xa_key (str "nonce") (f4 : Zr toy32) (fun i => zr_of_Z toy32 (Z.of_nat i + 3)) in
         let* _ := arBlindVerify hg32 h32 0 req xa_key (str "nonce") in
         let* out := arCredSign hg32 h32 xa_ccred 0 (Some (Some {| is_pub := issuer_key hg32 xa_pk 3; is_sk := xa_isk |})) req xa_certified xa_e (f5 : Zr toy32) in
         let* cred := arUnblind toy32 xa_ccred out bl in
         arCredVerify h32 xa_ccred xa_sk xa_key cred xa_attrs) = true.
Proof.
  split; [discriminate|]. split; [exact xa_states|]. split; [apply zp_ne; vm_compute; reflexivity|].
  split; [exact xa_ccred_ok|]. vm_compute. reflexivity.
Qed.

(** The position of the secret is configurable (UserSecretKeyIndex), but for any other position than 0
    Cred.Sign records position 0 in the credential, and Cred.Verify accepts the honestly issued
    credential only if the issuer's bases satisfy an explicit discrete-logarithm relation. *)
Theorem C32_sk_position_refuted : forall C (OK : CurveOk C) (HG : bytes -> G1 C) (H : hasher C) (c_cred : codec ACredential),
  bls_sizes C -> codec_ok canon_acred c_cred ->
  forall (isk sk : Zr C) (attributes : list attribute) (vals : list (Zr C)) (k : nat) (nonce : bytes) (s e s' : Zr C) (bl : nat -> Zr C),
  attributes <> [] -> (Z.of_nat (length attributes + 1) <= 4294967295)%Z ->
  Forall2 (attr_states H) attributes vals -> zadd isk e <> z0 -> 1 <= k <= length attributes ->
  let n := length attributes in
  let pk := genG2 C ⊗ isk in
  let ipk := Some (Some (issuer_key HG pk n)) in
  exists req blinding out cred,
    arBlind HG H (Z.of_nat k) sk ipk nonce s bl = Ok (req, blinding) /\
    arBlindVerify HG H (Z.of_nat k) req ipk nonce = Ok tt /\
    arCredSign HG H c_cred (Z.of_nat k) (Some (Some {| is_pub := issuer_key HG pk n; is_sk := isk |})) req attributes e s' = Ok out /\
    arUnblind C c_cred out blinding = Ok cred /\
    (arCredVerify H c_cred sk ipk cred attributes = Ok tt ->
       gdot (gens HG pk (n + 1)) (sk :: vals) = gdot (gens HG pk (n + 1)) (firstn k vals ++ sk :: skipn k vals)).
Proof.
  intros C OK HG H c_cred BS CC isk sk attributes vals k nonce s e s' bl NE B St NZ [Lk Lk'] n pk ipk.
  assert (LV : length vals = n) by (symmetry; exact (Forall2_len St)).
  assert (NV : vals <> []) by (intro E; apply NE; rewrite E in LV; destruct attributes; [reflexivity|discriminate]).
  destruct (blind_ok OK HG H BS pk (n := n) (k := k) sk s bl nonce B Lk') as (req & E1 & P1).
  pose proof (request_verifies OK BS B Lk' P1) as V1.
  pose proof (@credSign_ok C OK HG H BS c_cred isk e s' n k attributes vals req _ LV NV Lk' B St P1) as S1. cbv zeta in S1. fold pk in S1.
  pose proof (@issued_valid C OK HG BS isk e s s' sk n k vals LV Lk' NZ) as IV. cbv zeta in IV. fold pk in IV.
  cbn [request bl_c] in S1.
  set (A := _ ⊗ zinv (zadd isk e)) in IV.
  match type of S1 with _ = opt_err (enc c_cred {| ac_cred := sig_enc ?A' _ _; ac_attrs := _; ac_skpos := _ |}) => change A' with A in S1 end.
  assert (K0 : forall sg, canon_acred {| ac_cred := sg; ac_attrs := map (zr_bytes C) vals; ac_skpos := 0 |}) by (intro sg; unfold canon_acred, int32; cbn [ac_skpos]; lia).
  destruct (CC _ (K0 (sig_enc A e s'))) as (out & Eo & Do). rewrite Eo in S1. cbn [opt_err] in S1.
  pose proof (@unblind_ok C OK BS c_cred A e s' s vals 0%Z out Do) as U.
  destruct (CC _ (K0 (sig_enc A e (zadd s' s)))) as (cr & Ec & Dc). rewrite Ec in U. cbn [opt_err] in U.
  exists req, (zr_bytes C s), out, cr. split; [exact E1|]. split; [exact V1|]. split; [exact S1|]. split; [exact U|].
  assert (Ty : Forall typed attributes).
  { clear - St. induction St as [|a v l l' Hx _ IH]; constructor; [|exact IH]. intro E. unfold attr_states in Hx. rewrite E in Hx. exact Hx. }
  intro V. apply (proj1 (credVerify_iff OK HG H BS c_cred sk pk cr (n := n) eq_refl Ty)) in V.
  destruct V as (c & sg & j & D1 & D2 & D3 & _ & _ & _ & V). rewrite Dc in D1. injection D1 as <-. cbn [ac_cred ac_skpos ac_attrs] in *.
  assert (j = 0) by (clear - D3; lia). subst j.
  rewrite (parse_sig_enc OK (proj1 BS)) in D2. injection D2 as <-. cbn [si_a si_e si_s] in V.
  rewrite map_map, (map_ext _ (fun x => x)), map_id in V by (intro; apply (ok_zr_rt OK)). rewrite <- LV, firstn_all in V. rewrite LV in V.
  cbn [with_secret firstn skipn app] in V. unfold bbs_signature in V, IV. rewrite IV in V.
  apply (@pair_inj_r C OK (genG2 C) _ _ (ok_gen2 OK)) in V. unfold bbs_base in V.
  apply (gadd_cancel_l (ok_g1 OK)) in V. symmetry. exact V.
Qed.

Example C32_sk_position_example :
  (let* '(req, bl) := arBlind hg32 h32 2 xa_sk xa_key (str "nonce") (f4 : Zr toy32) (fun i => zr_of_Z toy32 (Z.of_nat i + 3)) in
   let* _ := arBlindVerify hg32 h32 2 req xa_key (str "nonce") in
   let* out := arCredSign hg32 h32 xa_ccred 2 (Some (Some {| is_pub := issuer_key hg32 xa_pk 3; is_sk := xa_isk |})) req xa_certified xa_e (f5 : Zr toy32) in
   let* cred := arUnblind toy32 xa_ccred out bl in
   arCredVerify h32 xa_ccred xa_sk xa_key cred xa_attrs) = Err.
Proof. vm_compute. reflexivity. Qed.

(** ** C33: blind requests *)
(** Full claim: BlindVerify accepts a request only if its maker knows an opening of the blinded
    commitment.  Proved: from two accepted requests with the same commitment and first message, two
    responses each and different challenges an opening is computed.  Missing: the code hashes
    the point sent beside the proof, not the proof's own first message, and does not bound the number of
    responses (C33_refuted). *)
Theorem C33_request_knowledge_partial : forall C (OK : CurveOk C) (HG : bytes -> G1 C) (H : hasher C) (pk : G2 C) (n k : nat)
    (req1 req2 nonce1 nonce2 : bytes) (b1 b2 : BlindedMessages C),
  bls_sizes C -> (Z.of_nat (n + 1) <= 4294967295)%Z -> k <= n ->
  arBlindVerify HG H (Z.of_nat k) req1 (Some (Some (issuer_key HG pk n))) nonce1 = Ok tt ->
  arBlindVerify HG H (Z.of_nat k) req2 (Some (Some (issuer_key HG pk n))) nonce2 = Ok tt ->
  parseBlindedMessages C req1 = Ok b1 -> parseBlindedMessages C req2 = Ok b2 ->
  bl_c b1 = bl_c b2 -> pf_comm (bl_proof b1) = pf_comm (bl_proof b2) ->
  length (pf_resp (bl_proof b1)) = 2 -> length (pf_resp (bl_proof b2)) = 2 ->
  let c1 := H (g1_bytes C (bl_c b1) ++ g1_bytes C (bl_pokc b1) ++ nonce1) in
  let c2 := H (g1_bytes C (bl_c b2) ++ g1_bytes C (bl_pokc b2) ++ nonce2) in
  c1 <> c2 ->
  let x := extract_at c1 c2 (pf_resp (bl_proof b1)) (pf_resp (bl_proof b2)) in
  opens (base_at HG pk n k) (gen0 HG pk (n + 1)) (bl_c b1) (x 1) (x 0).
Proof. intros C OK HG H pk n k req1 req2 nonce1 nonce2 b1 b2 BS. exact (@blind_soundness C OK HG H BS pk n k req1 req2 nonce1 nonce2 b1 b2). Qed.

(** two honest requests with the same draws for two nonces *)
Definition xa_req (nonce : bytes) : bytes :=
  match arBlind hg32 h32 0 xa_sk xa_key nonce (f4 : Zr toy32) (fun i => zr_of_Z toy32 (Z.of_nat i + 3)) with Ok x => fst x | _ => [] end.
Definition xa_req_raw (req : bytes) : zp * zp * zp * list zp :=
  match parseBlindedMessages toy32 req with
  | Ok b => (bl_c b : zp, bl_pokc b : zp, pf_comm (bl_proof b) : zp, pf_resp (bl_proof b) : list zp)
  | _ => (f0, f0, f0, [])
  end.
Example C33_example :
  let a := xa_req_raw (xa_req (str "n1")) in let b := xa_req_raw (xa_req (str "n2")) in
  arBlindVerify hg32 h32 0 (xa_req (str "n1")) xa_key (str "n1") = Ok tt /\ arBlindVerify hg32 h32 0 (xa_req (str "n2")) xa_key (str "n2") = Ok tt /\
  is_ok (parseBlindedMessages toy32 (xa_req (str "n1"))) = true /\ is_ok (parseBlindedMessages toy32 (xa_req (str "n2"))) = true /\
  fst a = fst b /\ length (snd a) = 2 /\ length (snd b) = 2 /\ snd a <> snd b /\
  h32 (g1_bytes toy32 (fst (fst (fst a)) : G1 toy32) ++ g1_bytes toy32 (snd (fst (fst a)) : G1 toy32) ++ str "n1")
  <> h32 (g1_bytes toy32 (fst (fst (fst a)) : G1 toy32) ++ g1_bytes toy32 (snd (fst (fst a)) : G1 toy32) ++ str "n2").
Proof.
  cbv zeta. split; [vm_compute; reflexivity|]. split; [vm_compute; reflexivity|]. split; [vm_compute; reflexivity|]. split; [vm_compute; reflexivity|].
  split; [vm_compute; reflexivity|]. split; [vm_compute; reflexivity|]. split; [vm_compute; reflexivity|]. split; vm_compute; discriminate.
Qed.

(** The full claim is false: for EVERY point [c] (for instance one whose opening nobody knows), every
    key and nonce there is an accepted request for the commitment [c], computed from public data. *)
Theorem C33_refuted : forall C (OK : CurveOk C) (HG : bytes -> G1 C) (H : hasher C) (pk : G2 C) (n k : nat) (c : G1 C) (nonce : bytes),
  bls_sizes C -> (Z.of_nat (n + 1) <= 4294967295)%Z -> k <= n ->
  exists req b, parseBlindedMessages C req = Ok b /\ bl_c b = c /\
    arBlindVerify HG H (Z.of_nat k) req (Some (Some (issuer_key HG pk n))) nonce = Ok tt.
Proof.
  intros C OK HG H pk n k c nonce BS B L.
  destruct (forged_request_accepted OK HG H BS pk c gzero z0 z0 nonce B L) as (req & _ & P & V).
  exists req, (forged_request HG H pk n k c gzero z0 z0 nonce). split; [exact P|]. split; [reflexivity|exact V].
Qed.

Example C33_refuted_example : (Z.of_nat (3 + 1) <= 4294967295)%Z /\ 0 <= 3.
Proof. split; lia. Qed.

(** ** C34: signatures verify *)
(** What a user needs for a presentation of signature type [st] with attribute indices [eid], [rh]. *)
Definition presentable (C : Curve) (HG : bytes -> G1 C) (H : hasher C) (c_cred : codec ACredential) (c_cri : codec ACRI)
    (pk : G2 C) (n : nat) (A : G1 C) (e s sk : Zr C) (vals : list (Zr C)) (attributes : list attribute) (eid rh : nat)
    (st : SignatureType) (criRaw credBytes : bytes) (meta : option (Metadata C)) (RNym : Zr C) (R : ASigRand C) : Prop :=
  st <> OtherSig /\ (Z.of_nat (n + 1) <= 65535)%Z /\ length vals = n /\ eid < n /\ rh < n /\
  (* a valid credential, an attribute list that agrees with it, a revocation record *)
  bbs_signature pk (gen0 HG pk (n + 1)) (gens HG pk (n + 1)) A e s (sk :: vals) /\
  dec c_cred credBytes = Some (credential_of A e s vals) /\
  Forall2 (attr_agrees H) attributes vals /\
  (exists cri, dec c_cri criRaw = Some cri /\ acri_alg cri = 0%Z /\ int64 (acri_epoch cri)) /\
  (* the attributes committed to are hidden, and the caller's audit data, if any, is right *)
  (has_eid st = true -> exists a, nth_error attributes eid = Some a /\ at_type a = HiddenAttr) /\
  (hides_rh st = true -> exists a, nth_error attributes rh = Some a /\ at_type a = HiddenAttr) /\
  (has_eid st = true -> audit_for (gen0 HG pk (n + 1)) (base_at HG pk n (S eid)) (nth eid vals z0) (md_eid_audit meta)) /\
  (has_rh st = true -> audit_for (gen0 HG pk (n + 1)) (base_at HG pk n (S rh)) (nth rh vals z0) (md_rh_audit meta)) /\
  (* no accidental equality of bases, and r1 <> 0 *)
  (has_eid st = true -> NoDup (gen0 HG pk (n + 1) :: gens HG pk (n + 1))) /\
  usable_draws HG pk n st eid rh s sk vals (RNym, R).

(** For each of the five signature types: a presentation of a valid credential, with any attributes
    disclosed (those the type commits to excepted), succeeds, and is accepted by Verify under every
    verification type meant for it, with no metadata and with the metadata returned. *)
Theorem C34_sign_verifies : forall C (OK : CurveOk C) (HG : bytes -> G1 C) (H : hasher C)
    (c_cred : codec ACredential) (c_sig : codec ASignature) (c_cri : codec ACRI),
  bls_sizes C -> codec_ok canon_asig c_sig ->
  forall (pk : G2 C) (n : nat) (A : G1 C) (e s sk : Zr C) (vals : list (Zr C)) (attributes : list attribute) (eid rh : nat)
    (st : SignatureType) (msg criRaw credBytes : bytes) (meta : option (Metadata C)) (RNym : Zr C) (R : ASigRand C),
  presentable HG H c_cred c_cri pk n A e s sk vals attributes eid rh st criRaw credBytes meta RNym R ->
  let ipk := Some (Some (issuer_key HG pk n)) in
  exists Nym sig meta',
    arMakeNym 0 sk ipk RNym = Ok (Nym, RNym) /\
    arSign H c_cred c_sig c_cri credBytes sk Nym RNym ipk attributes msg (Z.of_nat rh) (Z.of_nat eid) criRaw st meta R = Ok (sig, meta') /\
    forall v, aries_compatible st v = true -> forall m, m = None \/ m = meta' ->
      arVerify H c_sig ipk sig msg attributes (Z.of_nat rh) (Z.of_nat eid) 0 v m = Ok tt.
Proof.
  intros C OK HG H c_cred c_sig c_cri BS CS pk n A e s sk vals attributes eid rh st msg criRaw credBytes meta RNym R
    (Kn & Bn & Lv & Le & Lr & V & Dc & Agr & (cri & Dr & Alg & Ep) & He & Hr & Ae & Ar & ND & (X1 & X2 & X3)) ipk. cbv zeta in X2, X3. cbn [fst snd] in X1, X2, X3.
  assert (Lse : S eid <= n) by (clear - Le; lia). assert (Lsr : S rh <= n) by (clear - Lr; lia).
  pose proof (@sig_canon C HG H pk n A e s sk vals RNym attributes st R eid rh (S eid) (S rh) msg cri meta Bn Lse Lsr Ep Alg) as K.
  destruct (CS _ K) as (b & Eb & Db).
  exists ((gen0 HG pk (n + 1) ⊗ RNym) ⊕ (base_at HG pk n 0 ⊗ sk)), b, (h_meta HG pk n sk vals attributes st R eid rh (S eid) (S rh) meta).
  split; [exact (makeNym_ok OK HG BS pk sk RNym (Nat.le_0_l n))|]. split.
  - pose proof (@sign_ok C OK HG H BS c_cred c_sig c_cri pk n A e s sk vals RNym attributes st R Lv Agr V eid rh (S eid) (S rh) msg cri meta Bn Le Lr He Hr ND X2 X3 Ae Ar credBytes criRaw Kn eq_refl eq_refl Dr Alg Dc) as S.
    rewrite Eb in S. exact S.
  - intros v CV m Hm.
    refine (@sig_verifies C OK HG H BS c_sig pk n A e s sk vals RNym attributes st R Lv Agr V X1 eid rh (S eid) (S rh) msg cri meta Bn Le Lr He Hr ND X2 X3 Ae Ar b v m Lse Lsr _ _ Alg Db CV Hm).
    + intro E. destruct (He E) as (a & E1 & E2). exact (hidden_rr E1 E2).
    + intro E. assert (E' : hides_rh st = true) by (clear - E; destruct st; (discriminate || reflexivity)). destruct (Hr E') as (a & E1 & E2). exact (hidden_rr E1 E2).
Qed.

(** The metadata returned with a signature opens its commitments to the certified attributes:
    AuditNymEid / AuditNymRh on the signature with the returned randomness accept exactly the
    byte strings that hash to the certified enrollment id / revocation handle. *)
Theorem C34_audit : forall C (OK : CurveOk C) (HG : bytes -> G1 C) (H : hasher C)
    (c_cred : codec ACredential) (c_sig : codec ASignature) (c_cri : codec ACRI),
  bls_sizes C -> codec_ok canon_asig c_sig ->
  forall (pk : G2 C) (n : nat) (A : G1 C) (e s sk : Zr C) (vals : list (Zr C)) (attributes : list attribute) (eid rh : nat)
    (st : SignatureType) (msg criRaw credBytes : bytes) (meta : option (Metadata C)) (RNym : Zr C) (R : ASigRand C),
  presentable HG H c_cred c_cri pk n A e s sk vals attributes eid rh st criRaw credBytes meta RNym R ->
  let ipk := Some (Some (issuer_key HG pk n)) in
  forall Nym sig meta',
    arMakeNym 0 sk ipk RNym = Ok (Nym, RNym) ->
    arSign H c_cred c_sig c_cri credBytes sk Nym RNym ipk attributes msg (Z.of_nat rh) (Z.of_nat eid) criRaw st meta R = Ok (sig, meta') ->
    (has_eid st = true -> base_at HG pk n (S eid) <> gzero ->
      exists m d r, meta' = Some m /\ md_eid_data m = Some d /\ au_rand d = Some r /\ au_attr d = Some (nth eid vals z0) /\
        forall id, arAuditNymEid H c_sig ipk (Z.of_nat eid) 0 sig id r AuditExpectSignature = Ok tt <-> H id = nth eid vals z0) /\
    (has_rh st = true -> base_at HG pk n (S rh) <> gzero ->
      exists m d r, meta' = Some m /\ md_rh_data m = Some d /\ au_rand d = Some r /\ au_attr d = Some (nth rh vals z0) /\
        forall id, arAuditNymRh H c_sig ipk (Z.of_nat rh) 0 sig id r AuditExpectSignature = Ok tt <-> H id = nth rh vals z0).
Proof.
  intros C OK HG H c_cred c_sig c_cri BS CS pk n A e s sk vals attributes eid rh st msg criRaw credBytes meta RNym R
    (Kn & Bn & Lv & Le & Lr & V & Dc & Agr & (cri & Dr & Alg & Ep) & He & Hr & Ae & Ar & ND & (X1 & X2 & X3)) ipk Nym sig meta' MN S0. cbv zeta in X2, X3. cbn [fst snd] in X1, X2, X3.
  assert (Lse : S eid <= n) by (clear - Le; lia). assert (Lsr : S rh <= n) by (clear - Lr; lia).
  unfold ipk in MN, S0. pose proof (makeNym_ok OK HG BS pk sk RNym (Nat.le_0_l n)) as MN'. rewrite (MN' : arMakeNym 0 _ _ _ = _) in MN. injection MN as <-.
  pose proof (@sig_canon C HG H pk n A e s sk vals RNym attributes st R eid rh (S eid) (S rh) msg cri meta Bn Lse Lsr Ep Alg) as K.
  destruct (CS _ K) as (b & Eb & Db).
  pose proof (@sign_ok C OK HG H BS c_cred c_sig c_cri pk n A e s sk vals RNym attributes st R Lv Agr V eid rh (S eid) (S rh) msg cri meta Bn Le Lr He Hr ND X2 X3 Ae Ar credBytes criRaw Kn eq_refl eq_refl Dr Alg Dc) as S1.
  rewrite Eb in S1. cbn [opt_err bind] in S1. unfold h_Nym in S1. rewrite S1 in S0. injection S0 as <- <-.
  assert (PS : forall i, past_sk (Z.of_nat i) 0 = Z.of_nat (S i)) by (clear; intro i; unfold past_sk; replace (0 <=? Z.of_nat i)%Z with true by lia; lia).
  assert (OP : forall i r id, i < n -> base_at HG pk n (S i) <> gzero ->
    (exists nym, @Ok (G1 C) ((gen0 HG pk (n + 1) ⊗ r) ⊕ (base_at HG pk n (S i) ⊗ nth (S i) (sk :: vals) z0)) = Ok nym /\ opens (base_at HG pk n (S i)) (gen0 HG pk (n + 1)) nym (H id) r)
    <-> H id = nth i vals z0).
  { intros i r id Li NZ. cbn [nth]. unfold opens. split.
    - intros (nym & E & O). injection E as <-. apply (@opens_same_r C OK (base_at HG pk n (S i)) (gen0 HG pk (n + 1)) _ _ _ r NZ O).
      unfold opens. apply (gok_comm (ok_g1 OK)).
    - intros ->. eexists. split; [reflexivity|]. apply (gok_comm (ok_g1 OK)). }
  split; intros Hon NZ.
  - unfold h_meta. rewrite Hon. do 3 eexists. split; [reflexivity|]. split; [reflexivity|]. split; [reflexivity|]. split; [reflexivity|].
    intro id. unfold ipk, arAuditNymEid. rewrite Db. cbn [opt_err bind h_sig as_eid]. rewrite Hon, (ok_g1_rt OK). cbn [opt_err].
    rewrite (audit_iff OK HG H BS pk _ id _ (PS eid) Lse). apply (OP eid _ id Le NZ).
  - assert (Hon' : has_eid st = true) by (clear - Hon; destruct st; (discriminate || reflexivity)).
    unfold h_meta. rewrite Hon, Hon'. do 3 eexists. split; [reflexivity|]. split; [reflexivity|]. split; [reflexivity|]. split; [reflexivity|].
    intro id. unfold ipk, arAuditNymRh. rewrite Db. cbn [opt_err bind h_sig as_rh]. rewrite Hon, (ok_g1_rt OK). cbn [opt_err].
    rewrite (audit_iff OK HG H BS pk _ id _ (PS rh) Lsr). apply (OP rh _ id Lr NZ).
Qed.

Lemma xa_presentable st : st <> OtherSig -> presentable hg32 h32 xa_ccred xa_ccri xa_pk 3 xa_A xa_e xa_s xa_sk xa_vals xa_attrs 1 2 st xa_crib xa_credb None xa_RNym xa_R.
Proof.
  intro Kn. split; [exact Kn|]. split; [lia|]. split; [reflexivity|]. split; [lia|]. split; [lia|]. split; [exact xa_valid|]. split; [exact xa_dec_cred|].
  split; [exact xa_agrees|].
  split; [exists xa_cri; split; [exact xa_dec_cri|]; split; [reflexivity|unfold int64; cbn [acri_epoch xa_cri]; lia]|].
  split; [intros _; eexists; split; reflexivity|]. split; [intros _; eexists; split; reflexivity|].
  split; [intros _; left; reflexivity|]. split; [intros _; left; reflexivity|]. split; [intros _; exact xa_nodup|]. exact (xa_usable st).
Qed.
Example C34_example : bls_sizes toy32 /\ codec_ok canon_asig xa_csig /\ base_at hg32 xa_pk 3 2 <> gzero /\ base_at hg32 xa_pk 3 3 <> gzero /\
  forall st, st <> OtherSig -> presentable hg32 h32 xa_ccred xa_ccri xa_pk 3 xa_A xa_e xa_s xa_sk xa_vals xa_attrs 1 2 st xa_crib xa_credb None xa_RNym xa_R.
Proof.
  split; [exact toy32_sizes|]. split; [exact xa_csig_ok|]. split; [apply zp_ne; vm_compute; reflexivity|].
  split; [apply zp_ne; vm_compute; reflexivity|]. exact xa_presentable.
Qed.
(** and the model computes: *)
Definition xa_sigb (st : SignatureType) (msg : bytes) : res bytes :=
  let* '(Nym, RNym) := arMakeNym 0 xa_sk xa_key xa_RNym in
  let* '(b, m) := arSign h32 xa_ccred xa_csig xa_ccri xa_credb xa_sk Nym RNym xa_key xa_attrs msg 2 1 xa_crib st None xa_R in
  let* _ := arVerify h32 xa_csig xa_key b msg xa_attrs 2 1 0
    (match st with Standard => ExpectStandard | EidNym => ExpectEidNym | EidNymRhNym => ExpectEidNymRhNym | Smartcard => ExpectSmartcard | SmartcardNoNyms => ExpectSmartcardNoNyms | OtherSig => OtherVer end) m in
  Ok b.
Example C34_computes : map (fun st => is_ok (xa_sigb st (str "message"))) [Standard; EidNym; EidNymRhNym; Smartcard; SmartcardNoNyms; OtherSig] = [true; true; true; true; true; false].
Proof. vm_compute. reflexivity. Qed.

(** ** C35, C37, C38: what an accepted signature establishes *)
(** Verify accepts exactly when the decoded signature passes the checks for the challenge hashing
    the label of the verification type, all points of the proofs, the message and the nonce. *)
Theorem C35_challenge : forall C (HG : bytes -> G1 C) (H : hasher C) (c_sig : codec ASignature)
    (pk : G2 C) (n : nat) (sig msg : bytes) (attributes : list attribute) (rh eid skIndex : Z) (v : VerificationType) (meta : option (Metadata C)),
  let ipk := Some (Some (issuer_key HG pk n)) in
  arVerify H c_sig ipk sig msg attributes rh eid skIndex v meta = Ok tt ->
  exists f, arVerify_first H c_sig ipk sig msg attributes skIndex v = Ok f /\
    arVerify_second f (H (zr_bytes C (H (vf_data f)) ++ as_nonce (vf_sig f))) rh eid skIndex v meta = Ok tt /\
    dec c_sig sig = Some (vf_sig f) /\
    let sp := vf_sp f in let s := vf_sig f in let h0 := gen0 HG pk (n + 1) in
    let hidden := filter (fun i => negb (existsb (Nat.eqb i) (absent (ver_smartcard v) (vf_revealed f)))) (seq 0 (n + 1)) in
    vf_data f =
      ver_label v (ar_verifyEid v s) (ar_verifyRh v s)
      ++ g1_bytes C (sp_abar sp) ++ g1_bytes C (sp_aprime sp) ++ g1_bytes C h0 ++ g1_bytes C (pf_comm (sp_vc1 sp))
      ++ g1_bytes C (sp_d sp) ++ g1_bytes C h0 ++ concat (map (fun i => g1_bytes C (base_at HG pk n i)) hidden) ++ g1_bytes C (pf_comm (sp_vc2 sp))
      ++ as_nym s
      ++ match vf_nymp f with Some p => g1_bytes C (pf_comm p) | None => [] end
      ++ match vf_eid f with Some p => as_eid s ++ g1_bytes C (pf_comm (fst p)) | None => [] end
      ++ match vf_rh f with Some p => as_rh s ++ g1_bytes C (pf_comm (fst p)) | None => [] end
      ++ proofNonceBytes H msg.
Proof.
  intros C HG H c_sig pk n sig msg attributes rh eid skIndex v meta ipk E. unfold arVerify in E. apply bind_ok in E. destruct E as [f [F E]].
  exists f. split; [exact F|]. split; [exact E|]. destruct (first_inv F) as (D & _ & _ & _ & _ & _ & _ & _ & _ & _ & _ & Da). split; [exact D|].
  cbv zeta in Da |- *. rewrite Da. unfold chal_bytes. cbn [issuer_key ip_key pg_h0 pg_h]. rewrite <- !app_assoc.
  assert (HB : forall r i (hs : list (G1 C)), map (g1_bytes C) (hidden_bases i hs r) = map (fun j => g1_bytes C (nth (j - i) hs gzero)) (filter (fun j => negb (existsb (Nat.eqb j) r)) (seq i (length hs)))).
  { intros r i hs. revert i. induction hs as [|h hs IH]; intro i; [reflexivity|]. cbn [hidden_bases length seq filter].
    assert (M : mem i r = existsb (Nat.eqb i) r) by (symmetry; apply mem_existsb). rewrite M.
    assert (T : map (fun j => g1_bytes C (nth (j - S i) hs gzero)) (filter (fun j => negb (existsb (Nat.eqb j) r)) (seq (S i) (length hs)))
              = map (fun j => g1_bytes C (nth (j - i) (h :: hs) gzero)) (filter (fun j => negb (existsb (Nat.eqb j) r)) (seq (S i) (length hs)))).
    { apply map_ext_in. intros j Hj. apply filter_In in Hj. destruct Hj as [Hj _]. apply in_seq in Hj. replace (j - i) with (S (j - S i)) by lia. reflexivity. }
    destruct (existsb (Nat.eqb i) r); cbn [negb map]; rewrite IH, T; [reflexivity|]. rewrite Nat.sub_diag. reflexivity. }
  rewrite HB, gens_length.
  rewrite (map_ext (fun j => g1_bytes C (nth (j - 0) (gens HG pk (n + 1)) gzero)) (fun j => g1_bytes C (base_at HG pk n j))); [reflexivity|].
  intro j. rewrite Nat.sub_0_r. reflexivity.
Qed.

(** Two accepted signatures with the same first message (the points sent before the challenge), exactly
    one response per base, and different challenges. *)
Definition aries_forked (C : Curve) (HG : bytes -> G1 C) (H : hasher C) (c_sig : codec ASignature) (pk : G2 C) (n : nat)
    (sig1 sig2 msg : bytes) (attributes : list attribute) (rh eid : nat) (v : VerificationType) (meta1 meta2 : option (Metadata C))
    (f1 f2 : AVerFirst C) (c1 c2 : Zr C) : Prop :=
  eid < n /\ rh < n /\
  arVerify_first H c_sig (Some (Some (issuer_key HG pk n))) sig1 msg attributes 0 v = Ok f1 /\
  arVerify_first H c_sig (Some (Some (issuer_key HG pk n))) sig2 msg attributes 0 v = Ok f2 /\
  arVerify_second f1 c1 (Z.of_nat rh) (Z.of_nat eid) 0 v meta1 = Ok tt /\
  arVerify_second f2 c2 (Z.of_nat rh) (Z.of_nat eid) 0 v meta2 = Ok tt /\
  same_first f1 f2 /\ one_response_each n (ver_smartcard v) f1 /\ one_response_each n (ver_smartcard v) f2 /\ c1 <> c2.

(** Full claim of C35: nobody without a credential produces an accepted signature.  Proved: from two
    accepted signatures as above a credential is computed: a BBS+ signature of the issuer on
    the message vector [extracted] and an opening of the pseudonym to its first message (for the
    smartcard types, where the secret stays on the card: a signature on the vector without secret,
    multiplied by the pseudonym).  Missing: the code accepts surplus responses, and then nothing
    follows (C35_refuted). *)
Theorem C35_soundness_partial : forall C (OK : CurveOk C) (HG : bytes -> G1 C) (H : hasher C) (c_sig : codec ASignature) (pk : G2 C) (n : nat)
    (sig1 sig2 msg : bytes) (attributes : list attribute) (rh eid : nat) (v : VerificationType) (meta1 meta2 : option (Metadata C))
    (f1 f2 : AVerFirst C) (c1 c2 : Zr C),
  bls_sizes C -> aries_forked HG H c_sig pk n sig1 sig2 msg attributes rh eid v meta1 meta2 f1 f2 c1 c2 ->
  let r1 := pf_resp (sp_vc1 (vf_sp f1)) in let r2 := pf_resp (sp_vc1 (vf_sp f2)) in
  let t1 := pf_resp (sp_vc2 (vf_sp f1)) in let t2 := pf_resp (sp_vc2 (vf_sp f2)) in
  let full := extracted n (ver_smartcard v) f1 f2 c1 c2 in
  let A := extract_A (sp_aprime (vf_sp f1)) c1 c2 t1 t2 in
  let e := extract_e c1 c2 r1 r2 in
  let s := extract_s c1 c2 r1 r2 t1 t2 in
  let h0 := gen0 HG pk (n + 1) in let hs := gens HG pk (n + 1) in
  length full = n + 1 /\
  (ver_smartcard v = false -> bbs_signature pk h0 hs A e s full) /\
  (ver_smartcard v = true -> pair C (pk ⊕ (genG2 C ⊗ e)) A = pair C (genG2 C) (bbs_base h0 hs s full ⊕ vf_nym f1)) /\
  (ver_smartcard v = false -> ~ In 0 (vf_revealed f1) ->
     exists p1 p2, vf_nymp f1 = Some p1 /\ vf_nymp f2 = Some p2 /\
       opens (base_at HG pk n 0) h0 (vf_nym f1) (nth 0 full z0) (extract_at c1 c2 (pf_resp p1) (pf_resp p2) 0)).
Proof.
  intros C OK HG H c_sig pk n sig1 sig2 msg attributes rh eid v meta1 meta2 f1 f2 c1 c2 BS (Le & Lr & F1 & F2 & S1 & S2 & SF & O1 & O2 & NC) r1 r2 t1 t2 full A e s h0 hs.
  destruct (first_inv F1) as (_ & _ & _ & K1 & _ & Z1 & _ & _ & N1 & _). destruct (first_inv F2) as (_ & _ & _ & _ & _ & _ & _ & _ & N2 & _).
  destruct (verify_soundness OK BS K1 Le Lr Z1 S1 S2 SF O1 O2 NC) as (Lf & P & Nm & _). cbv zeta in Lf, P, Nm.
  fold r1 r2 t1 t2 in P. split; [exact Lf|]. split; [|split].
  - intro E. unfold bbs_signature. rewrite E in P. unfold full. rewrite E. etransitivity; [exact P|]. rewrite (gadd_zero_r (ok_g1 OK)). reflexivity.
  - intro E. rewrite E in P. unfold full. rewrite E. exact P.
  - intros E NI. rewrite E in N1, N2. destruct N1 as (p1 & N1 & _). destruct N2 as (p2 & N2 & _). exists p1, p2. split; [exact N1|]. split; [exact N2|].
    exact (Nm p1 p2 N1 N2 NI E).
Qed.

(** The full claim is false.  For every number of attributes, every set of disclosed positions and
    every verification type there is one byte string, computed from public data only, that Verify
    accepts for EVERY hash function, issuer key, message and list of attributes with at least that
    many disclosed. *)
Theorem C35_refuted : forall C (OK : CurveOk C) (HG : bytes -> G1 C) (c_sig : codec ASignature),
  bls_sizes C -> codec_ok canon_asig c_sig ->
  forall (n : nat) (positions : list nat) (v : VerificationType),
  (Z.of_nat (n + 1) <= 65535)%Z -> increasing positions -> (forall i, In i positions -> 1 <= i <= n) ->
  exists sig, forall (H : hasher C) (pk : G2 C) (msg : bytes) (attributes : list attribute) (ms : list (SignatureMessage C)) (eid rh : nat),
    eid < n -> rh < n ->
    attributesToSignatureMessage H attributes 0 = Ok ms -> length positions <= length ms ->
    arVerify H c_sig (Some (Some (issuer_key HG pk n))) sig msg attributes (Z.of_nat rh) (Z.of_nat eid) 0 v None = Ok tt.
Proof.
  intros C OK HG c_sig BS CS n positions v Bn I P.
  destruct (@forged_result C OK HG BS c_sig n positions v Bn I P CS 2%Z ltac:(unfold int32; lia)) as (sig & F).
  exists sig. intros H pk msg attributes ms eid rh Le Lr EM L. rewrite (F H pk msg attributes ms eid rh Le Lr EM L).
  unfold forged_out. destruct (needs_eid v); [|reflexivity].
  replace ((0 <=? 2)%Z && (2 <? Z.of_nat (3 + count_out 0 (n + 1) (absent (ver_smartcard v) positions)))%Z) with true; [reflexivity|].
  symmetry. apply andb_true_iff. split; [reflexivity|]. apply Z.ltb_lt. lia.
Qed.

Example C35_refuted_example : bls_sizes toy32 /\ codec_ok canon_asig xa_csig /\ increasing [1] /\ (forall i, In i [1] -> 1 <= i <= 3) /\
  is_ok (attributesToSignatureMessage h32 xa_attrs 0) = true.
Proof.
  split; [exact toy32_sizes|]. split; [exact xa_csig_ok|]. split; [repeat constructor|]. split; [intros i [<-|[]]; lia|]. vm_compute. reflexivity.
Qed.

(** Two signatures of the example with the same draws and different nonces. *)
Definition opt_same A (f : A -> A -> bool) (x y : option A) : bool := match x, y with Some p, Some q => f p q | None, None => true | _, _ => false end.
Definition forkb (C : Curve) (H : hasher C) (c_sig : codec ASignature) (key : iface (AIssuerPublicKey C)) (n : nat)
    (sig1 sig2 msg : bytes) (attributes : list attribute) (rh eid : Z) (v : VerificationType) : bool :=
  match arVerify_first H c_sig key sig1 msg attributes 0 v, arVerify_first H c_sig key sig2 msg attributes 0 v with
  | Ok u, Ok w =>
      let c1 := challenge2 H (vf_data u) (as_nonce (vf_sig u)) in let c2 := challenge2 H (vf_data w) (as_nonce (vf_sig w)) in
      let one f := (length (pf_resp (sp_vc1 (vf_sp f))) =? 2) && (length (pf_resp (sp_vc2 (vf_sp f))) =? 2 + hidden_before (ver_smartcard v) (vf_revealed f) (n + 1))
        && match vf_nymp f with Some p => length (pf_resp p) =? 2 | None => true end
        && match vf_eid f with Some p => length (pf_resp (fst p)) =? 2 | None => true end
        && match vf_rh f with Some p => length (pf_resp (fst p)) =? 2 | None => true end in
      is_ok (arVerify_second u c1 rh eid 0 v None) && is_ok (arVerify_second w c2 rh eid 0 v None) &&
      (if list_eq_dec Nat.eq_dec (vf_revealed u) (vf_revealed w) then true else false) &&
      geqb (vf_nym u) (vf_nym w) && geqb (sp_aprime (vf_sp u)) (sp_aprime (vf_sp w)) && geqb (sp_abar (vf_sp u)) (sp_abar (vf_sp w)) &&
      geqb (sp_d (vf_sp u)) (sp_d (vf_sp w)) && geqb (pf_comm (sp_vc1 (vf_sp u))) (pf_comm (sp_vc1 (vf_sp w))) &&
      geqb (pf_comm (sp_vc2 (vf_sp u))) (pf_comm (sp_vc2 (vf_sp w))) &&
      opt_same (fun p q => geqb (pf_comm p) (pf_comm q)) (vf_nymp u) (vf_nymp w) &&
      opt_same (fun p q => geqb (pf_comm (fst p)) (pf_comm (fst q)) && geqb (snd p) (snd q)) (vf_eid u) (vf_eid w) &&
      opt_same (fun p q => geqb (pf_comm (fst p)) (pf_comm (fst q)) && geqb (snd p) (snd q)) (vf_rh u) (vf_rh w) &&
      one u && one w && negb (zeqb c1 c2)
  | _, _ => false
  end.
Lemma opt_same_map A B (f : A -> A -> bool) (g : A -> B) x y : (forall p q, f p q = true -> g p = g q) -> opt_same f x y = true -> option_map g x = option_map g y.
Proof. intro F. destruct x, y; cbn; intro E; try discriminate; [f_equal; exact (F _ _ E)|reflexivity]. Qed.
Lemma forkb_ok C (OK : CurveOk C) (HG : bytes -> G1 C) (H : hasher C) (c_sig : codec ASignature) pk n sig1 sig2 msg attributes (rh eid : nat) v :
  eid < n -> rh < n ->
  forkb H c_sig (Some (Some (issuer_key HG pk n))) n sig1 sig2 msg attributes (Z.of_nat rh) (Z.of_nat eid) v = true ->
  exists f1 f2 c1 c2, aries_forked HG H c_sig pk n sig1 sig2 msg attributes rh eid v None None f1 f2 c1 c2.
Proof.
  intros Le Lr. unfold forkb. destruct (arVerify_first H c_sig _ sig1 _ _ _ _) as [u| |] eqn:F1; try discriminate.
  destruct (arVerify_first H c_sig _ sig2 _ _ _ _) as [w| |] eqn:F2; try discriminate. cbv zeta.
  set (c1 := challenge2 H (vf_data u) _). set (c2 := challenge2 H (vf_data w) _). intro E.
  repeat match type of E with (_ && _)%bool = true => apply andb_true_iff in E; let X := fresh "X" in destruct E as [E X] end.
  exists u, w, c1, c2. split; [exact Le|]. split; [exact Lr|]. split; [exact F1|]. split; [exact F2|].
  assert (IO : forall r : res unit, is_ok r = true -> r = Ok tt) by (intros [[]| |]; [reflexivity|discriminate|discriminate]).
  split; [apply IO, E|]. split; [apply IO; assumption|].
  destruct (first_inv F1) as (_ & _ & _ & K1 & M1 & _). destruct (first_inv F2) as (_ & _ & _ & K2 & M2 & _).
  assert (ONE : forall f : AVerFirst C, ((length (pf_resp (sp_vc1 (vf_sp f))) =? 2) && (length (pf_resp (sp_vc2 (vf_sp f))) =? 2 + hidden_before (ver_smartcard v) (vf_revealed f) (n + 1))
        && match vf_nymp f with Some p => length (pf_resp p) =? 2 | None => true end
        && match vf_eid f with Some p => length (pf_resp (fst p)) =? 2 | None => true end
        && match vf_rh f with Some p => length (pf_resp (fst p)) =? 2 | None => true end)%bool = true -> one_response_each n (ver_smartcard v) f).
  { clear. intros f E. repeat match type of E with (_ && _)%bool = true => apply andb_true_iff in E; let X := fresh "X" in destruct E as [E X] end.
    split; [apply Nat.eqb_eq; assumption|]. split; [apply Nat.eqb_eq; assumption|].
    split; [|split]; intros p Ep; rewrite Ep in *; apply Nat.eqb_eq; assumption. }
  split; [|split; [|split]].
  - split; [congruence|]. split; [congruence|]. split; [destruct (list_eq_dec Nat.eq_dec (vf_revealed u) (vf_revealed w)); [assumption|discriminate]|].
    repeat match goal with H : geqb _ _ = true |- _ => apply (gok_eqb (ok_g1 OK)) in H end.
    split; [assumption|]. split; [assumption|]. split; [assumption|]. split; [assumption|]. split; [assumption|]. split; [assumption|].
    split; [|split].
    + apply (opt_same_map (g := @pf_comm C)) in X4; [exact X4|]. intros p q Q. apply (gok_eqb (ok_g1 OK)), Q.
    + apply (opt_same_map (g := fun p => (pf_comm (fst p), snd p))) in X3; [exact X3|]. intros p q Q. apply andb_true_iff in Q. destruct Q as [Q1 Q2].
      apply (gok_eqb (ok_g1 OK)) in Q1, Q2. rewrite Q1, Q2. reflexivity.
    + apply (opt_same_map (g := fun p => (pf_comm (fst p), snd p))) in X2; [exact X2|]. intros p q Q. apply andb_true_iff in Q. destruct Q as [Q1 Q2].
      apply (gok_eqb (ok_g1 OK)) in Q1, Q2. rewrite Q1, Q2. reflexivity.
  - apply ONE. assumption.
  - apply ONE. assumption.
  - intro Q. apply (sok_eqb (ok_zr OK)) in Q. rewrite Q in X. discriminate.
Qed.
Definition xa_draws (nonce : Zr toy32) : ASigRand toy32 :=
  {| rn_pok := rn_pok xa_R; rn_nym := rn_nym xa_R; rn_eid := rn_eid xa_R; rn_rh := rn_rh xa_R; rn_nonce := nonce |}.
Definition xa_sig_with (st : SignatureType) (nonce : Zr toy32) : bytes :=
  match (let* '(Nym, RNym) := arMakeNym 0 xa_sk xa_key xa_RNym in
         arSign h32 xa_ccred xa_csig xa_ccri xa_credb xa_sk Nym RNym xa_key xa_attrs (str "message") 2 1 xa_crib st None (xa_draws nonce))
  with Ok (b, _) => b | _ => [] end.
Example C35_soundness_example : Forall (fun '(st, v) =>
    exists u w c1 c2, aries_forked hg32 h32 xa_csig xa_pk 3 (xa_sig_with st f16) (xa_sig_with st f17) (str "message") xa_attrs 2 1 v None None u w c1 c2)
  [(Standard, ExpectStandard); (EidNym, ExpectEidNym); (EidNymRhNym, ExpectEidNymRhNym); (Smartcard, ExpectSmartcard); (SmartcardNoNyms, ExpectSmartcardNoNyms)].
Proof. repeat constructor; apply (forkb_ok toy32_ok); try lia; vm_compute; reflexivity. Qed.


(** ** C36 *)
(** Full claim: NymSigner.Verify accepts only signatures whose maker knows an opening of the
    pseudonym.  Proved for signatures with exactly two responses: two accepted signatures with
    the same commitment and different challenges give an opening.  Missing: longer response lists
    are accepted (C36_refuted). *)
Theorem C36_nym_knowledge_partial : forall C (OK : CurveOk C) (HG : bytes -> G1 C) (H : hasher C) (c_nsig : codec ANymSignature),
  bls_sizes C ->
  forall (pk : G2 C) (n k : nat) (Nym : G1 C) (sig1 sig2 digest1 digest2 : bytes) (s1 s2 : ANymSignature) (p1 p2 : ProofG1 C),
  k <= n ->
  let key := Some (Some (issuer_key HG pk n)) in
  arNymVerify H c_nsig key Nym sig1 digest1 (Z.of_nat k) = Ok tt ->
  arNymVerify H c_nsig key Nym sig2 digest2 (Z.of_nat k) = Ok tt ->
  dec c_nsig sig1 = Some s1 -> dec c_nsig sig2 = Some s2 ->
  parseProofG1 C (ans_main s1) = Ok p1 -> parseProofG1 C (ans_main s2) = Ok p2 ->
  pf_comm p1 = pf_comm p2 -> length (pf_resp p1) = 2 -> length (pf_resp p2) = 2 ->
  let ch p s digest := H (zr_bytes C (H (nymSigLabel ++ g1_bytes C Nym ++ g1_bytes C (gen0 HG pk (n + 1)) ++ g1_bytes C (base_at HG pk n k)
                          ++ g1_bytes C (pf_comm p) ++ digest)) ++ ans_nonce s) in
  ch p1 s1 digest1 <> ch p2 s2 digest2 ->
  let x := extract_at (ch p1 s1 digest1) (ch p2 s2 digest2) (pf_resp p1) (pf_resp p2) in
  opens (base_at HG pk n k) (gen0 HG pk (n + 1)) Nym (x 1) (x 0).
Proof.
  intros C OK HG H c_nsig BS pk n k Nym sig1 sig2 digest1 digest2 s1 s2 p1 p2 Lk key V1 V2 D1 D2 P1 P2 E L1 L2 ch NC x.
  exact (nym_soundness OK BS Lk V1 V2 D1 D2 P1 P2 E L1 L2 NC).
Qed.

Theorem C36_refuted : forall C (OK : CurveOk C) (HG : bytes -> G1 C) (H : hasher C) (c_nsig : codec ANymSignature),
  bls_sizes C -> (forall s, round_trips c_nsig s) ->
  exists sig, forall (pk : G2 C) (n k : nat) (Nym : G1 C) (digest : bytes), k <= n ->
    arNymVerify H c_nsig (Some (Some (issuer_key HG pk n))) Nym sig digest (Z.of_nat k) = Ok tt.
Proof. intros C OK HG H c_nsig BS RT. exact (nym_forgery OK HG H BS RT). Qed.

(** Completeness (the aries part of C14). *)
Theorem C14_aries_nym : forall C (OK : CurveOk C) (HG : bytes -> G1 C) (H : hasher C) (c_nsig : codec ANymSignature),
  bls_sizes C -> (forall s, round_trips c_nsig s) ->
  forall (pk : G2 C) (n k : nat) (sk r nonce : Zr C) (digest : bytes) (bl : nat -> Zr C), k <= n ->
  let key := Some (Some (issuer_key HG pk n)) in
  exists Nym sig, arMakeNym (Z.of_nat k) sk key r = Ok (Nym, r) /\
    opens (base_at HG pk n k) (gen0 HG pk (n + 1)) Nym sk r /\
    arNymSign H c_nsig (Z.of_nat k) sk Nym r key digest nonce bl = Ok sig /\
    arNymVerify H c_nsig key Nym sig digest (Z.of_nat k) = Ok tt.
Proof.
  intros C OK HG H c_nsig BS RT pk n k sk r nonce digest bl Lk key.
  destruct (nymSign_ok OK HG H BS pk sk r digest nonce bl Lk RT) as (sig & E & V). cbv zeta in E, V.
  exists ((gen0 HG pk (n + 1) ⊗ r) ⊕ (base_at HG pk n k ⊗ sk)), sig. split; [exact (makeNym_ok OK HG BS pk sk r Lk)|].
  split; [apply (gok_comm (ok_g1 OK))|]. split; [exact E|exact V].
Qed.

Definition xa_nym : zp := (gen0 hg32 xa_pk 4 ⊗ xa_RNym) ⊕ (base_at hg32 xa_pk 3 0 ⊗ xa_sk).
Definition xa_nsig (nonce : Zr toy32) : bytes :=
  match arNymSign h32 xa_cnsig 0 xa_sk xa_nym xa_RNym xa_key (str "digest") nonce (fun i => zr_of_Z toy32 (Z.of_nat i + 3)) with Ok b => b | _ => [] end.
Definition nforkb (sig1 sig2 digest : bytes) : bool :=
  match dec xa_cnsig sig1, dec xa_cnsig sig2 with
  | Some s1, Some s2 =>
    match parseProofG1 toy32 (ans_main s1), parseProofG1 toy32 (ans_main s2) with
    | Ok p1, Ok p2 =>
      let ch p s := challenge2 h32 (nymSigLabel ++ g1_bytes toy32 xa_nym ++ g1_bytes toy32 (gen0 hg32 xa_pk 4) ++ g1_bytes toy32 (base_at hg32 xa_pk 3 0)
                          ++ g1_bytes toy32 (pf_comm p) ++ digest) (ans_nonce s) in
      is_ok (arNymVerify h32 xa_cnsig xa_key xa_nym sig1 digest 0) && is_ok (arNymVerify h32 xa_cnsig xa_key xa_nym sig2 digest 0) &&
      geqb (pf_comm p1) (pf_comm p2) && (length (pf_resp p1) =? 2) && (length (pf_resp p2) =? 2) && negb (zeqb (ch p1 s1) (ch p2 s2))
    | _, _ => false
    end
  | _, _ => false
  end.
Example C36_example : bls_sizes toy32 /\ (forall s, round_trips xa_cnsig s) /\ nforkb (xa_nsig f3) (xa_nsig f4) (str "digest") = true.
Proof. split; [exact toy32_sizes|]. split; [exact xa_cnsig_ok|]. vm_compute. reflexivity. Qed.

(** ** C37 *)
(** Full claim: if Verify accepts with a list of disclosed attributes, the proof is about a credential
    carrying exactly these values at exactly these positions.  Proved: from two accepted signatures as in
    C35 whose set of disclosed positions is the one of the attribute list, a credential agreeing with
    the list at each position is computed.  Missing: Verify never compares the positions; see
    C37_refuted and C37_positions_refuted. *)
Theorem C37_attributes_bound_partial : forall C (OK : CurveOk C) (HG : bytes -> G1 C) (H : hasher C) (c_sig : codec ASignature) (pk : G2 C) (n : nat)
    (sig1 sig2 msg : bytes) (attributes : list attribute) (rh eid : nat) (v : VerificationType) (meta1 meta2 : option (Metadata C))
    (f1 f2 : AVerFirst C) (c1 c2 : Zr C),
  bls_sizes C -> aries_forked HG H c_sig pk n sig1 sig2 msg attributes rh eid v meta1 meta2 f1 f2 c1 c2 ->
  Forall typed attributes -> length attributes = n ->
  (forall i, In i (vf_revealed f1) <-> exists j a, i = S j /\ nth_error attributes j = Some a /\ at_type a <> HiddenAttr) ->
  Forall2 (attr_agrees H) attributes (skipn 1 (extracted n (ver_smartcard v) f1 f2 c1 c2)).
Proof.
  intros C OK HG H c_sig pk n sig1 sig2 msg attributes rh eid v meta1 meta2 f1 f2 c1 c2 BS FK T L RV.
  destruct (C35_soundness_partial OK BS FK) as (Lf & _). destruct FK as (_ & _ & F1 & _). destruct (first_inv F1) as (_ & _ & _ & _ & M1 & _).
  apply (attributes_bound BS T L M1); [|exact Lf].
  intro i. rewrite RV. unfold revealedAttributesIndex.
  assert (G : forall l k, In i (revealed_from k l) <-> exists j a, i = k + j /\ nth_error l j = Some a /\ at_type a <> HiddenAttr).
  { induction l as [|a l IH]; intro k; cbn [revealed_from].
    - split; [intros []|]. intros (j & a & _ & E & _). destruct j; discriminate.
    - assert (X : (exists j a', i = k + j /\ nth_error (a :: l) j = Some a' /\ at_type a' <> HiddenAttr)
        <-> (i = k /\ at_type a <> HiddenAttr) \/ exists j a', i = S k + j /\ nth_error l j = Some a' /\ at_type a' <> HiddenAttr).
      { split.
        - intros ([|j] & a' & E1 & E2 & E3); [left; injection E2 as <-; split; [lia|exact E3]|right; exists j, a'; split; [lia|split; assumption]].
        - intros [[E1 E2]|(j & a' & E1 & E2 & E3)]; [exists 0, a; split; [lia|split; [reflexivity|exact E2]]|exists (S j), a'; split; [lia|split; assumption]]. }
      rewrite X, <- IH. unfold is_hidden. destruct (at_type a) eqn:Ta; cbn [In]; intuition congruence. }
  rewrite G. split; intros (j & a & E & Q); exists j, a; split; try exact Q; lia.
Qed.

Definition xa_revealed : list nat :=
  match arVerify_first h32 xa_csig xa_key (xa_sig_with Standard f16) (str "message") xa_attrs 0 ExpectStandard with Ok u => vf_revealed u | _ => [] end.
Example C37_example : exists u w c1 c2, aries_forked hg32 h32 xa_csig xa_pk 3 (xa_sig_with Standard f16) (xa_sig_with Standard f17) (str "message") xa_attrs 2 1 ExpectStandard None None u w c1 c2 /\
  Forall typed xa_attrs /\ (forall i, In i (vf_revealed u) <-> exists j a, i = S j /\ nth_error xa_attrs j = Some a /\ at_type a <> HiddenAttr).
Proof.
  pose proof C35_soundness_example as E. apply Forall_inv in E. cbv beta iota in E. destruct E as (u & w & c1 & c2 & FK). exists u, w, c1, c2.
  split; [exact FK|]. split; [repeat constructor; discriminate|].
  assert (R : vf_revealed u = [1]).
  { destruct FK as (_ & _ & F & _). assert (X : xa_revealed = [1]) by (vm_compute; reflexivity). unfold xa_revealed, xa_key in X. rewrite F in X. exact X. }
  rewrite R. intro i. split.
  - intros [<-|[]]. exists 0. eexists. split; [reflexivity|]. split; [reflexivity|]. discriminate.
  - intros (j & a & -> & E & N). destruct j as [|[|[|j]]]; [left; reflexivity| | |]; cbn in E; try (injection E as <-; cbn in N; congruence). destruct j; discriminate.
Qed.

(** Two attribute lists with the same non-hidden attributes in the same order, at whatever
    positions, are not distinguished; and further disclosed attributes are ignored. *)
Definition disclosed (l : list attribute) : list attribute := filter (fun a => negb (is_hidden a)) l.
Lemma disclosed_cons a l : disclosed (a :: l) = match at_type a with HiddenAttr => disclosed l | _ => a :: disclosed l end.
Proof. unfold disclosed. cbn [filter]. unfold is_hidden at 1. destruct (at_type a); reflexivity. Qed.
Theorem C37_positions_refuted : forall C (HG : bytes -> G1 C) (H : hasher C) (c_sig : codec ASignature) (OK : CurveOk C) (pk : G2 C) (n : nat)
    (sig msg : bytes) (attributes attributes' : list attribute) (more : list attribute) (rh eid : Z) (v : VerificationType) (meta : option (Metadata C)),
  bls_sizes C -> Forall (fun a => ar_value H a <> Panic) more -> disclosed attributes' = disclosed attributes ++ more ->
  let ipk := Some (Some (issuer_key HG pk n)) in
  arVerify H c_sig ipk sig msg attributes rh eid 0 v meta = Ok tt -> arVerify H c_sig ipk sig msg attributes' rh eid 0 v meta = Ok tt.
Proof.
  intros C HG H c_sig OK pk n sig msg attributes attributes' more rh eid v meta BS T D ipk V.
  assert (V' := V). unfold arVerify in V'. apply bind_ok in V'. destruct V' as [f [F _]]. destruct (first_inv F) as (_ & _ & _ & _ & M & _).
  assert (Z0 : forall l, attributesToSignatureMessage H l 0 = to_messages H 1 l).
  { intro l. unfold attributesToSignatureMessage. change 0%Z with (Z.of_nat 0) at 1. rewrite zsplit_ok by lia. cbn. destruct (to_messages H 1 l); reflexivity. }
  rewrite Z0 in M.
  assert (S1 : forall l i j ms, to_messages H i l = Ok ms -> exists ms', to_messages H j (disclosed l) = Ok ms' /\ map (@sm_fr C) ms' = map (@sm_fr C) ms).
  { induction l as [|a l IH]; intros i j ms E; cbn [to_messages] in E.
    - injection E as <-. exists []. split; reflexivity.
    - apply bind_ok in E. destruct E as [x [E1 E]]. apply bind_ok in E. destruct E as [ms1 [E2 E]]. injection E as <-.
      rewrite disclosed_cons. destruct (at_type a) eqn:Ta.
      + unfold ar_value in E1. rewrite Ta in E1. injection E1 as <-. exact (IH _ j _ E2).
      + destruct (IH _ (S j) _ E2) as (ms' & E3 & E4). cbn [to_messages]. rewrite E1, E3. cbn [bind]. eexists. split; [reflexivity|]. destruct x; cbn [map sm_fr]; rewrite E4; reflexivity.
      + destruct (IH _ (S j) _ E2) as (ms' & E3 & E4). cbn [to_messages]. rewrite E1, E3. cbn [bind]. eexists. split; [reflexivity|]. destruct x; cbn [map sm_fr]; rewrite E4; reflexivity.
      + destruct (IH _ (S j) _ E2) as (ms' & E3 & E4). cbn [to_messages]. rewrite E1, E3. cbn [bind]. eexists. split; [reflexivity|]. destruct x; cbn [map sm_fr]; rewrite E4; reflexivity. }
  assert (S2 : forall l i j ms, to_messages H j (disclosed l) = Ok ms -> exists ms', to_messages H i l = Ok ms' /\ map (@sm_fr C) ms' = map (@sm_fr C) ms).
  { induction l as [|a l IH]; intros i j ms E.
    - injection E as <-. exists []. split; reflexivity.
    - rewrite disclosed_cons in E. destruct (at_type a) eqn:Ta; cbn [to_messages] in E |- *.
      1: { destruct (IH (S i) _ _ E) as (ms' & E3 & E4). unfold ar_value. rewrite Ta, E3. cbn [bind]. eexists. split; [reflexivity|exact E4]. }
      all: apply bind_ok in E; destruct E as [x [E1 E]]; apply bind_ok in E; destruct E as [ms1 [E2 E]]; injection E as <-;
        destruct (IH (S i) _ _ E2) as (ms' & E3 & E4); rewrite E1, E3; cbn [bind]; eexists; split; [reflexivity|]; destruct x; cbn [map sm_fr]; rewrite E4; reflexivity. }
  assert (S3 : forall l m i ms, Forall (fun a => ar_value H a <> Panic) m -> to_messages H i l = Ok ms -> exists ms', to_messages H i (l ++ m) = Ok (ms ++ ms')).
  { induction l as [|a l IH]; intros m i ms Tm E.
    - injection E as <-. cbn [app]. revert i. induction Tm as [|a m Ta Tm IHm]; intro i; [exists []; reflexivity|]. cbn [to_messages].
      destruct (IHm (S i)) as (ms' & E). rewrite E. destruct (ar_value H a) as [x| |] eqn:Ea; [cbn [bind]; eexists; reflexivity| |congruence].
      unfold ar_value in Ea. destruct (at_type a), (at_value a); discriminate.
    - cbn [to_messages app] in E |- *. apply bind_ok in E. destruct E as [x [E1 E]]. apply bind_ok in E. destruct E as [ms1 [E2 E]]. injection E as <-.
      destruct (IH m _ _ Tm E2) as (ms' & E3). rewrite E1, E3. cbn [bind]. exists ms'. destruct x; reflexivity. }
  destruct (S1 _ _ 0 _ M) as (ms1 & E1 & Q1). destruct (S3 _ more _ _ T E1) as (ms2 & E2). rewrite <- D in E2.
  destruct (S2 _ 1 _ _ E2) as (ms3 & E3 & Q3). rewrite map_app, Q1 in Q3. rewrite <- Z0 in E3, M.
  exact (verify_more OK BS M E3 Q3 V).
Qed.

(** In particular a signature accepted for a list of hidden attributes is accepted for every
    list of disclosed attributes. *)
Corollary C37_refuted : forall C (HG : bytes -> G1 C) (H : hasher C) (c_sig : codec ASignature) (OK : CurveOk C) (pk : G2 C) (n : nat)
    (sig msg : bytes) (k : nat) (attributes : list attribute) (rh eid : Z) (v : VerificationType) (meta : option (Metadata C)),
  bls_sizes C -> Forall (fun a => ar_value H a <> Panic) attributes ->
  let ipk := Some (Some (issuer_key HG pk n)) in
  arVerify H c_sig ipk sig msg (repeat hidden_attr k) rh eid 0 v meta = Ok tt -> arVerify H c_sig ipk sig msg attributes rh eid 0 v meta = Ok tt.
Proof.
  intros C HG H c_sig OK pk n sig msg k attributes rh eid v meta BS T ipk V.
  refine (C37_positions_refuted OK (more := disclosed attributes) BS _ _ V).
  - clear - T. induction T as [|a l Ha T IH]; [constructor|]. rewrite disclosed_cons. destruct (at_type a); [exact IH| | |]; constructor; assumption.
  - replace (disclosed (repeat hidden_attr k)) with (@nil attribute); [reflexivity|]. clear. induction k; [reflexivity|exact IHk].
Qed.

(** The hidden presentation of alice's credential is accepted as a presentation disclosing
    the OU "admin" and the enrollment id "bob". *)
Definition xa_hidden : list attribute := [hidden_attr; hidden_attr; hidden_attr].
Definition xa_sig_hidden : bytes :=
  match (let* '(Nym, RNym) := arMakeNym 0 xa_sk xa_key xa_RNym in
         arSign h32 xa_ccred xa_csig xa_ccri xa_credb xa_sk Nym RNym xa_key xa_hidden (str "message") 2 1 xa_crib Standard None xa_R)
  with Ok (b, _) => b | _ => [] end.
Example C37_refuted_example :
  map (fun l => is_ok (arVerify h32 xa_csig xa_key xa_sig_hidden (str "message") l 2 1 0 ExpectStandard None))
    [xa_hidden; [{| at_type := BytesAttr; at_value := VBytes (str "admin") |}; {| at_type := BytesAttr; at_value := VBytes (str "bob") |}; hidden_attr]] = [true; true].
Proof. vm_compute. reflexivity. Qed.
(** and the OU disclosed at position 0 may be claimed at position 1: *)
Example C37_positions_example :
  map (fun l => is_ok (arVerify h32 xa_csig xa_key (xa_sig_with Standard f16) (str "message") l 2 1 0 ExpectStandard None))
    [xa_attrs; [hidden_attr; {| at_type := BytesAttr; at_value := VBytes (str "OU") |}; hidden_attr]] = [true; true].
Proof. vm_compute. reflexivity. Qed.

(** ** C38 *)
(** Full claim: if Verify accepts, NymEid commits to the credential's enrollment id and NymRh to its
    revocation handle.  Proved: from two accepted signatures as in C35 that state the position of the
    enrollment id (revocation handle) among the hidden messages, the nym opens to the message of the extracted
    credential at that position.  Missing: the position is taken from the signature and not
    checked; see C38_refuted. *)
Theorem C38_nym_binding_partial : forall C (OK : CurveOk C) (HG : bytes -> G1 C) (H : hasher C) (c_sig : codec ASignature) (pk : G2 C) (n : nat)
    (sig1 sig2 msg : bytes) (attributes : list attribute) (rh eid : nat) (v : VerificationType) (meta1 meta2 : option (Metadata C))
    (f1 f2 : AVerFirst C) (c1 c2 : Zr C),
  bls_sizes C -> aries_forked HG H c_sig pk n sig1 sig2 msg attributes rh eid v meta1 meta2 f1 f2 c1 c2 ->
  let full := extracted n (ver_smartcard v) f1 f2 c1 c2 in let h0 := gen0 HG pk (n + 1) in
  (forall p1 p2, vf_eid f1 = Some p1 -> vf_eid f2 = Some p2 -> ~ In (S eid) (vf_revealed f1) ->
     as_eid_idx (vf_sig f1) = Z.of_nat (2 + hidden_before (ver_smartcard v) (vf_revealed f1) (S eid)) -> as_eid_idx (vf_sig f2) = as_eid_idx (vf_sig f1) ->
     g1_of_bytes C (as_eid (vf_sig f1)) = Some (snd p1) /\
     opens (base_at HG pk n (S eid)) h0 (snd p1) (nth (S eid) full z0) (extract_at c1 c2 (pf_resp (fst p1)) (pf_resp (fst p2)) 0)) /\
  (forall p1 p2, vf_rh f1 = Some p1 -> vf_rh f2 = Some p2 -> ~ In (S rh) (vf_revealed f1) ->
     as_rh_idx (vf_sig f1) = Z.of_nat (2 + hidden_before (ver_smartcard v) (vf_revealed f1) (S rh)) -> as_rh_idx (vf_sig f2) = as_rh_idx (vf_sig f1) ->
     g1_of_bytes C (as_rh (vf_sig f1)) = Some (snd p1) /\
     opens (base_at HG pk n (S rh)) h0 (snd p1) (nth (S rh) full z0) (extract_at c1 c2 (pf_resp (fst p1)) (pf_resp (fst p2)) 0)).
Proof.
  intros C OK HG H c_sig pk n sig1 sig2 msg attributes rh eid v meta1 meta2 f1 f2 c1 c2 BS (Le & Lr & F1 & F2 & S1 & S2 & SF & O1 & O2 & NC) full h0.
  destruct (first_inv F1) as (_ & _ & _ & K1 & _ & Z1 & _ & _ & _ & E1 & R1 & _).
  destruct (verify_soundness OK BS K1 Le Lr Z1 S1 S2 SF O1 O2 NC) as (_ & _ & _ & QE & QR).
  split; intros p1 p2 P1 P2 NI I1 I2.
  - split; [|exact (QE p1 p2 P1 P2 NI I1 I2)]. destruct (ar_verifyEid v (vf_sig f1)); [|congruence]. destruct E1 as (q & Q1 & _ & Q2). congruence.
  - split; [|exact (QR p1 p2 P1 P2 NI I1 I2)]. destruct (ar_verifyRh v (vf_sig f1)); [|congruence]. destruct R1 as (q & Q1 & _ & Q2). congruence.
Qed.

(** A holder of a credential can make NymEid commit to any of their hidden messages, also to
    their own secret (position 0), which they choose: Verify accepts, and AuditNymEid then confirms the chosen identity. *)
Theorem C38_refuted : forall C (OK : CurveOk C) (HG : bytes -> G1 C) (H : hasher C)
    (c_cred : codec ACredential) (c_sig : codec ASignature) (c_cri : codec ACRI),
  bls_sizes C -> codec_ok canon_asig c_sig ->
  forall (pk : G2 C) (n : nat) (A : G1 C) (e s sk : Zr C) (vals : list (Zr C)) (attributes : list attribute) (eid rh : nat)
    (msg criRaw credBytes : bytes) (RNym : Zr C) (R : ASigRand C) (j : nat),
  presentable HG H c_cred c_cri pk n A e s sk vals attributes eid rh EidNym criRaw credBytes None RNym R ->
  j = 0 \/ (exists i a, j = S i /\ nth_error attributes i = Some a /\ at_type a = HiddenAttr) ->
  base_at HG pk n (S eid) <> gzero ->
  let ipk := Some (Some (issuer_key HG pk n)) in
  exists sig r,
    arVerify H c_sig ipk sig msg attributes (Z.of_nat rh) (Z.of_nat eid) 0 ExpectEidNym None = Ok tt /\
    (forall id, arAuditNymEid H c_sig ipk (Z.of_nat eid) 0 sig id r AuditExpectSignature = Ok tt <-> H id = nth j (sk :: vals) z0).
Proof.
  intros C OK HG H c_cred c_sig c_cri BS CS pk n A e s sk vals attributes eid rh msg criRaw credBytes RNym R j
    (Kn & Bn & Lv & Le & Lr & V & Dc & Agr & (cri & Dr & Alg & Ep) & He & Hr & Ae & Ar & ND & (X1 & X2 & X3)) Hj NZ ipk. cbv zeta in X2, X3. cbn [fst snd] in X1, X2, X3.
  assert (Lj : j <= n).
  { destruct Hj as [->|(i & a & -> & E & _)]; [clear; lia|]. assert (i < length attributes) by (apply nth_error_Some; congruence).
    pose proof (Forall2_len Agr) as LL. clear - LL H0 Lv. lia. }
  assert (Lse : S eid <= n) by (clear - Le; lia). assert (Lsr : S rh <= n) by (clear - Lr; lia).
  pose proof (@sig_canon C HG H pk n A e s sk vals RNym attributes EidNym R eid rh j (S rh) msg cri None Bn Lj Lsr Ep Alg) as K.
  destruct (CS _ K) as (b & _ & Db). exists b, (ra_r (rn_eid R)). split.
  - refine (@sig_verifies C OK HG H BS c_sig pk n A e s sk vals RNym attributes EidNym R Lv Agr V X1 eid rh j (S rh) msg cri None Bn Le Lr He Hr ND X2 X3 Ae Ar b ExpectEidNym None Lj Lsr _ _ Alg Db eq_refl (or_introl eq_refl)).
    + intros _. destruct Hj as [->|(i & a & -> & E1 & E2)]; [exact (rv_0 BS Lv)|exact (hidden_rr E1 E2)].
    + discriminate.
  - intro id. assert (PS : past_sk (Z.of_nat eid) 0 = Z.of_nat (S eid)) by (clear; unfold past_sk; replace (0 <=? Z.of_nat eid)%Z with true by lia; lia).
    unfold ipk, arAuditNymEid. rewrite Db. cbn [opt_err bind h_sig as_eid has_eid]. rewrite (ok_g1_rt OK). cbn [opt_err].
    rewrite (audit_iff OK HG H BS pk _ id _ PS Lse). unfold opens. cbn [h_eid h_comm cm_comm]. unfold h_re. cbn [md_eid_audit chosen_rand]. split.
    + intros (nym & E & O). injection E as <-. apply (@opens_same_r C OK (base_at HG pk n (S eid)) (gen0 HG pk (n + 1)) _ _ _ (ra_r (rn_eid R)) NZ O).
      unfold opens. apply (gok_comm (ok_g1 OK)).
    + intros ->. eexists. split; [reflexivity|]. apply (gok_comm (ok_g1 OK)).
Qed.
(** the secret of the example happens to be the hash of "carol": alice is audited as carol *)
Example C38_refuted_example : presentable hg32 h32 xa_ccred xa_ccri xa_pk 3 xa_A xa_e xa_s xa_sk xa_vals xa_attrs 1 2 EidNym xa_crib xa_credb None xa_RNym xa_R /\
  base_at hg32 xa_pk 3 2 <> gzero /\ h32 (str "carol") = nth 0 (xa_sk :: xa_vals) z0 /\ h32 (str "carol") <> h32 (str "alice").
Proof.
  split; [exact (@xa_presentable EidNym ltac:(discriminate))|]. split; [apply zp_ne; vm_compute; reflexivity|]. split; [vm_compute; reflexivity|]. apply zp_ne; vm_compute; reflexivity.
Qed.
Definition xa_positions (nonce : Zr toy32) : list Z :=
  match arVerify_first h32 xa_csig xa_key (xa_sig_with EidNymRhNym nonce) (str "message") xa_attrs 0 ExpectEidNymRhNym with
  | Ok u => [as_eid_idx (vf_sig u); Z.of_nat (2 + hidden_before false (vf_revealed u) 2); as_rh_idx (vf_sig u); Z.of_nat (2 + hidden_before false (vf_revealed u) 3);
             if in_dec Nat.eq_dec 2%nat (vf_revealed u) then 1 else 0; if in_dec Nat.eq_dec 3%nat (vf_revealed u) then 1 else 0;
             if vf_eid u then 1 else 0; if vf_rh u then 1 else 0]%Z
  | _ => [] end.
Example C38_example : map xa_positions [f16; f17] = [[3; 3; 4; 4; 0; 0; 1; 1]; [3; 3; 4; 4; 0; 0; 1; 1]]%Z.
Proof. vm_compute. reflexivity. Qed.

(** ** C39 *)
Theorem C39_nym_verify_no_panic : forall C (OK : CurveOk C) (HG : bytes -> G1 C) (H : hasher C) (c_nsig : codec ANymSignature),
  bls_sizes C ->
  forall (pk : G2 C) (n k : nat) (Nym : G1 C) (sig digest : bytes), k <= n ->
  arNymVerify H c_nsig (Some (Some (issuer_key HG pk n))) Nym sig digest (Z.of_nat k) <> Panic.
Proof. intros C OK HG H c_nsig BS. exact (nymVerify_no_panic OK BS (HG := HG) (H := H) (c_nsig := c_nsig)). Qed.

(** Full claim: Signer.Verify returns an error for malformed signatures.  Proved: it does not panic on
    signatures whose proof is long enough to be parsed, with as many responses as bases, and with
    positions inside the list of responses.  Missing: the code does not check these conditions,
    and without them it panics (C39_refuted). *)
Theorem C39_verify_no_panic_partial : forall C (OK : CurveOk C) (HG : bytes -> G1 C) (H : hasher C) (c_sig : codec ASignature) (pk : G2 C) (n : nat)
    (sig msg : bytes) (attributes : list attribute) (rh eid : nat) (v : VerificationType) (meta : option (Metadata C)),
  bls_sizes C -> eid < n -> rh < n -> length attributes <= n ->
  Forall (fun a => match at_type a, at_value a with BytesAttr, VBytes _ | IntAttr, VInt _ | HiddenAttr, _ | OtherAttr, _ => True | _, _ => False end) attributes ->
  (forall m, meta = Some m -> forall d, md_eid_data m = Some d \/ md_rh_data m = Some d -> au_attr d <> None /\ au_rand d <> None) ->
  (forall sg pl, dec c_sig sig = Some sg -> parsePoKPayload (as_main sg) = Ok pl -> parseSignatureProof C (skipn (lenInBytes (pp_count pl)) (as_main sg)) <> Panic) ->
  (forall f, arVerify_first H c_sig (Some (Some (issuer_key HG pk n))) sig msg attributes 0 v = Ok f ->
    let responses := length (pf_resp (sp_vc2 (vf_sp f))) in
    2 <= length (pf_resp (sp_vc1 (vf_sp f))) /\ 2 + hidden_before (ver_smartcard v) (vf_revealed f) (n + 1) <= responses /\
    (forall p, vf_nymp f = Some p -> 2 <= length (pf_resp p) /\ 3 <= responses) /\
    (forall p, vf_eid f = Some p -> 2 <= length (pf_resp (fst p)) /\ (0 <= as_eid_idx (vf_sig f) < Z.of_nat responses)%Z) /\
    (forall p, vf_rh f = Some p -> 2 <= length (pf_resp (fst p)) /\ (0 <= as_rh_idx (vf_sig f) < Z.of_nat responses)%Z)) ->
  arVerify H c_sig (Some (Some (issuer_key HG pk n))) sig msg attributes (Z.of_nat rh) (Z.of_nat eid) 0 v meta <> Panic.
Proof.
  intros C OK HG H c_sig pk n sig msg attributes rh eid v meta BS Le Lr La T M P E.
  apply (@verify_np C OK HG BS c_sig H pk n sig msg attributes eid rh v meta Le Lr La); [| |exact P|exact E].
  - eapply Forall_impl; [|exact T]. intros a Ha. unfold ar_value. revert Ha. cbv beta. destruct (at_type a), (at_value a); intro Ha; (discriminate || contradiction).
  - intros m Em. split; intros d Ed; apply (M m Em d); [left|right]; exact Ed.
Qed.

(** Byte strings that make Signer.Verify panic whatever the issuer, the message and the attributes: one
    cut short, one with a negative position for the enrollment id. *)
Theorem C39_refuted : forall C (OK : CurveOk C) (HG : bytes -> G1 C) (c_sig : codec ASignature) (n : nat),
  bls_sizes C -> codec_ok canon_asig c_sig -> (Z.of_nat (n + 1) <= 65535)%Z ->
  (forall v, exists sig, forall (H : hasher C) (pk : G2 C) (n' : nat) (msg : bytes) (attributes : list attribute) (rh eid skIndex : Z) (meta : option (Metadata C)),
     (exists ms, attributesToSignatureMessage H attributes skIndex = Ok ms) ->
     arVerify H c_sig (Some (Some (issuer_key HG pk n'))) sig msg attributes rh eid skIndex v meta = Panic) /\
  (exists sig, forall (H : hasher C) (pk : G2 C) (msg : bytes) (attributes : list attribute) (eid rh : nat),
     eid < n -> rh < n -> (exists ms, attributesToSignatureMessage H attributes 0 = Ok ms) ->
     arVerify H c_sig (Some (Some (issuer_key HG pk n))) sig msg attributes (Z.of_nat rh) (Z.of_nat eid) 0 ExpectEidNym None = Panic).
Proof.
  intros C OK HG c_sig n BS CS Bn. split.
  - intro v. destruct (truncated_panics OK HG BS v Bn CS) as (sig & P). exists sig. intros H pk n' msg attributes rh eid skIndex meta (ms & E). exact (P H pk n' msg attributes ms eid rh skIndex meta E).
  - destruct (@forged_result C OK HG BS c_sig n [] ExpectEidNym Bn ltac:(constructor) ltac:(intros i []) CS (-1)%Z ltac:(unfold int32; lia)) as (sig & F).
    exists sig. intros H pk msg attributes eid rh Le Lr (ms & E). rewrite (F H pk msg attributes ms eid rh Le Lr E); [reflexivity|]. cbn. lia.
Qed.

(** Smartcard verification: a proof of the full length never panics, one that ends within the first point always does. *)
Theorem C39_smartcard_partial : forall C (OK : CurveOk C) (sha256 : bytes -> bytes) (h0 h1 h2 tau : G1 C) (proof msg : bytes),
  16 + 2 * g1_size C + 2 * scalar_size C <= length proof -> scNymVerify sha256 h0 h1 h2 proof tau msg <> Panic.
Proof.
  intros C OK sha256 h0 h1 h2 tau proof msg L. unfold scNymVerify. apply bind_np.
  - unfold scParse. assert (SL : forall a b, a <= b <= length proof -> exists x, slice proof a b = Ok x).
    { intros a b Hab. unfold slice. replace (_ && _)%bool with true by (symmetry; apply andb_true_iff; split; apply Nat.leb_le; lia). eexists. reflexivity. }
    destruct (SL 16 (16 + g1_size C) ltac:(lia)) as (x1 & ->). destruct (SL (16 + g1_size C) (16 + g1_size C + g1_size C) ltac:(lia)) as (x2 & ->).
    destruct (SL (16 + g1_size C + g1_size C) (16 + g1_size C + g1_size C + scalar_size C) ltac:(lia)) as (x3 & ->).
    destruct (SL (16 + g1_size C + g1_size C + scalar_size C) (16 + g1_size C + g1_size C + scalar_size C + scalar_size C) ltac:(lia)) as (x4 & ->).
    cbn [bind]. destruct (g1_of_bytes C x1); [|discriminate]. cbn [opt_err bind]. destruct (g1_of_bytes C x2); discriminate.
  - intros [[[B B'] x] r] _. rewrite (sc_challenge_ok OK). cbn [bind]. apply guard_np.
Qed.
Theorem C39_smartcard_refuted : forall C (sha256 : bytes -> bytes) (h0 h1 h2 tau : G1 C) (proof msg : bytes),
  length proof < 16 + g1_size C -> scNymVerify sha256 h0 h1 h2 proof tau msg = Panic.
Proof.
  intros C sha256 h0 h1 h2 tau proof msg L. unfold scNymVerify, scParse, slice.
  replace (_ && _)%bool with false; [reflexivity|]. symmetry. apply andb_false_iff. right. apply Nat.leb_gt. exact L.
Qed.
Example C39_example : arVerify h32 xa_csig xa_key (xa_sig_with EidNym f16) (str "message") xa_attrs 2 1 0 ExpectEidNym None = Ok tt /\
  arVerify h32 xa_csig xa_key (xa_sig_with EidNym f16) (str "other") xa_attrs 2 1 0 ExpectEidNym None = Err.
Proof. split; vm_compute; reflexivity. Qed.

(** ** C40 *)
(** Two users with valid credentials of one issuer that agree on the disclosed attributes: the draws
    of one (pseudonym, blinding factors, nonce) correspond one to one to the draws of the
    other, and corresponding draws give the same bytes. *)
Theorem C40_unlinkability : forall C (OK : CurveOk C) (HG : bytes -> G1 C) (H : hasher C)
    (c_cred : codec ACredential) (c_sig : codec ASignature) (c_cri : codec ACRI),
  bls_sizes C -> codec_ok canon_asig c_sig ->
  forall (pk : G2 C) (n : nat) (attributes : list attribute) (st : SignatureType) (eid rh : nat) (msg criRaw : bytes) (cri : ACRI),
  let h0 := gen0 HG pk (n + 1) in let hs := gens HG pk (n + 1) in
  (Z.of_nat (n + 1) <= 65535)%Z -> eid < n -> rh < n -> h0 <> gzero -> (has_eid st = true -> NoDup (h0 :: hs)) ->
  dec c_cri criRaw = Some cri -> acri_alg cri = 0%Z -> int64 (acri_epoch cri) -> st <> OtherSig ->
  (has_eid st = true -> exists a, nth_error attributes eid = Some a /\ at_type a = HiddenAttr) ->
  (hides_rh st = true -> exists a, nth_error attributes rh = Some a /\ at_type a = HiddenAttr) ->
  forall (A1 A2 : G1 C) (e1 s1 sk1 e2 s2 sk2 : Zr C) (vals1 vals2 : list (Zr C)) (cred1 cred2 : bytes),
  length vals1 = n -> length vals2 = n ->
  Forall2 (attr_agrees H) attributes vals1 -> Forall2 (attr_agrees H) attributes vals2 ->
  bbs_signature pk h0 hs A1 e1 s1 (sk1 :: vals1) -> bbs_signature pk h0 hs A2 e2 s2 (sk2 :: vals2) ->
  A1 <> gzero -> A2 <> gzero ->
  dec c_cred cred1 = Some (credential_of A1 e1 s1 vals1) -> dec c_cred cred2 = Some (credential_of A2 e2 s2 vals2) ->
  let ok1 := usable_draws HG pk n st eid rh s1 sk1 vals1 in let ok2 := usable_draws HG pk n st eid rh s2 sk2 vals2 in
  let sign1 := ar_present H c_cred c_sig c_cri cred1 sk1 (Some (Some (issuer_key HG pk n))) attributes msg rh eid criRaw st in
  let sign2 := ar_present H c_cred c_sig c_cri cred2 sk2 (Some (Some (issuer_key HG pk n))) attributes msg rh eid criRaw st in
  exists f g : Zr C * ASigRand C -> Zr C * ASigRand C,
    (forall x, ok1 x -> ok2 (f x) /\ adraws_eq (g (f x)) x /\ exists sig, sign1 x = Ok sig /\ sign2 (f x) = Ok sig) /\
    (forall y, ok2 y -> ok1 (g y) /\ adraws_eq (f (g y)) y /\ exists sig, sign2 y = Ok sig /\ sign1 (g y) = Ok sig).
Proof.
  intros C OK HG H c_cred c_sig c_cri BS CS pk n attributes st eid rh msg criRaw cri h0 hs Bn Le Lr HR ND Dc Alg Ep Kn He Hr
    A1 A2 e1 s1 sk1 e2 s2 sk2 vals1 vals2 cred1 cred2 L1 L2 G1 G2 V1 V2 N1 N2 D1 D2 ok1 ok2 sign1 sign2.
  set (U := {| u_A := A1; u_e := e1; u_s := s1; u_sk := sk1; u_vals := vals1 |}). set (W := {| u_A := A2; u_e := e2; u_s := s2; u_sk := sk2; u_vals := vals2 |}).
  assert (UO : UserOk HG H pk n attributes U) by (constructor; assumption). assert (WO : UserOk HG H pk n attributes W) by (constructor; assumption).
  exact (@unlinkable C OK HG H BS pk n attributes st eid rh msg cri HR Le Lr He Hr c_cred c_sig c_cri CS Bn ND criRaw Dc Alg Kn Ep U W cred1 cred2 UO WO D1 D2).
Qed.

(** a second user, bob, in the same OU *)
Definition xb_vals : list (Zr toy32) := [h32 (str "OU"); h32 (str "bob"); zr_of_Z toy32 43].
Definition xb_sk : Zr toy32 := f4.
Definition xb_e : Zr toy32 := f11.
Definition xb_s : Zr toy32 := f20.
Definition xb_A : G1 toy32 :=
  Eval vm_compute in (bbs_base (gen0 hg32 xa_pk 4) (gens hg32 xa_pk 4) xb_s (xb_sk :: xb_vals) ⊗ zinv (zadd xa_isk xb_e)).
Definition xb_credb : bytes := ser s_acred (credential_of xb_A xb_e xb_s xb_vals).
Example C40_example : gen0 hg32 xa_pk 4 <> gzero /\ NoDup (gen0 hg32 xa_pk 4 :: gens hg32 xa_pk 4) /\
  length xa_vals = 3 /\ length xb_vals = 3 /\ Forall2 (attr_agrees h32) xa_attrs xa_vals /\ Forall2 (attr_agrees h32) xa_attrs xb_vals /\
  bbs_signature xa_pk (gen0 hg32 xa_pk 4) (gens hg32 xa_pk 4) xa_A xa_e xa_s (xa_sk :: xa_vals) /\
  bbs_signature xa_pk (gen0 hg32 xa_pk 4) (gens hg32 xa_pk 4) xb_A xb_e xb_s (xb_sk :: xb_vals) /\
  xa_A <> gzero /\ xb_A <> gzero /\ dec xa_ccred xa_credb = Some (credential_of xa_A xa_e xa_s xa_vals) /\ dec xa_ccred xb_credb = Some (credential_of xb_A xb_e xb_s xb_vals) /\
  h32 (str "bob") <> h32 (str "alice") /\ forall st, usable_draws hg32 xa_pk 3 st 1 2 xa_s xa_sk xa_vals (xa_RNym, xa_R).
Proof.
  split; [apply zp_ne; vm_compute; reflexivity|]. split; [exact xa_nodup|]. split; [reflexivity|]. split; [reflexivity|]. split; [exact xa_agrees|].
  split; [constructor; [right; reflexivity|]; repeat (constructor; [left; reflexivity|]); constructor|]. split; [exact xa_valid|].
  split; [vm_compute; reflexivity|]. split; [apply zp_ne; vm_compute; reflexivity|]. split; [apply zp_ne; vm_compute; reflexivity|]. split; [exact xa_dec_cred|].
  split; [destruct (tcodec_rt s_acred_ok (credential_of xb_A xb_e xb_s xb_vals)) as (b & E & D); injection E as <-; exact D|].
  split; [apply zp_ne; vm_compute; reflexivity|]. exact xa_usable.
Qed.

(** ** C41 *)
(** The card's proof is accepted for its current NymEid and the message, and the backend returns the
    pseudonym of the proof and its randomness. *)
Theorem C41_card_signature : forall C (OK : CurveOk C) (sha256 : bytes -> bytes) (sc : Card C) (msg seed : bytes) (xt rt : Zr C),
  length seed = 16 ->
  exists proof Nym r,
    scNymSign sha256 sc msg seed xt rt = Ok proof /\
    scBackendSign sha256 (Some (Some sc)) msg seed xt rt = Ok (proof, Nym, r) /\
    opens (sc_h1 sc) (sc_h0 sc) Nym (sc_uid sc) r /\
    scNymVerify sha256 (sc_h0 sc) (sc_h1 sc) (sc_h2 sc) proof (snd (getNymEid sc)) msg = Ok tt /\
    opens (sc_h2 sc) (sc_h0 sc) (snd (getNymEid sc)) (sc_eid sc) (fst (getNymEid sc)).
Proof.
  intros C OK sha256 sc msg seed xt rt L. destruct (scNymSign_ok OK sha256 sc msg xt rt L) as (proof & E & _ & V & B).
  exists proof. do 2 eexists. split; [exact E|]. split; [exact B|]. split; [apply (gok_comm (ok_g1 OK))|].
  split; [specialize (V []); rewrite app_nil_r in V; exact V|]. unfold getNymEid, opens. cbn [fst snd]. unfold gmul2. apply (gok_comm (ok_g1 OK)).
Qed.
Theorem C41_card_soundness : forall C (OK : CurveOk C) (sha256 : bytes -> bytes) (h0 h1 h2 : G1 C) (proof1 proof2 : bytes) (tau1 tau2 : G1 C) (msg1 msg2 : bytes)
    (B T : G1 C) (x1 r1 x2 r2 : Zr C),
  scNymVerify sha256 h0 h1 h2 proof1 tau1 msg1 = Ok tt -> scNymVerify sha256 h0 h1 h2 proof2 tau2 msg2 = Ok tt ->
  scParse C proof1 = Ok (B, T, x1, r1) -> scParse C proof2 = Ok (B, T, x2, r2) ->
  let c tau msg := zr_of_bytes C (sha256 (concat (map (fun P => skipn 1 (g1_bytes C P)) [h0; h1; h2; B; T; tau]) ++ msg)) in
  c tau1 msg1 <> c tau2 msg2 ->
  opens h1 h0 B (zmul (zsub x1 x2) (zinv (zsub (c tau1 msg1) (c tau2 msg2)))) (zmul (zsub r1 r2) (zinv (zsub (c tau1 msg1) (c tau2 msg2)))).
Proof. intros C OK sha256 h0 h1 h2 proof1 proof2 tau1 tau2 msg1 msg2 B T x1 r1 x2 r2 V1 V2 P1 P2 c N. exact (sc_soundness OK V1 V2 P1 P2 N). Qed.

(** Full claim: the counter block the card encrypts for NymEid never repeats.  Proved for
    65535 consecutive calls. *)
Theorem C41_counter_partial : forall C (sc : Card C) (i j : nat), int16 (sc_ctr sc) ->
  (Z.of_nat i < Z.of_nat j < Z.of_nat i + 65536)%Z -> ctr_block (sc_ctr (nym_eids i sc)) <> ctr_block (sc_ctr (nym_eids j sc)).
Proof. intros C sc i j I L. exact (nym_eids_fresh L I). Qed.
(** The counter is an int16: after 65536 calls the card gives the same NymEid again. *)
Theorem C41_counter_refuted : forall C (sc : Card C) (i m : nat), int16 (sc_ctr sc) -> Z.of_nat m = 65536%Z ->
  getNymEid (nym_eids (i + m) sc) = getNymEid (nym_eids i sc).
Proof.
  intros C sc i m I M. induction i as [|i IH]; cbn [Nat.add nym_eids].
  - rewrite (nym_eids_wrap I M). reflexivity.
  - assert (E : nym_eids (i + m) sc = nym_eids i sc); [|rewrite E; reflexivity].
    clear IH. induction i as [|i IH]; [exact (nym_eids_wrap I M)|]. cbn [Nat.add nym_eids]. rewrite IH. reflexivity.
Qed.
Definition xa_card : Card toy32 := {| sc_h0 := gen0 hg32 xa_pk 4; sc_h1 := base_at hg32 xa_pk 3 0; sc_h2 := base_at hg32 xa_pk 3 3;
  sc_uid := xa_sk; sc_eid := h32 (str "alice"); sc_k0 := fun b => b; sc_k1 := fun b => rev b; sc_ctr := 32767%Z |}.
Definition xa_proof (xt rt : Zr toy32) (msg : bytes) : bytes := match scNymSign (fun b => i2osp 32 (Z.of_nat (length b) + zv (h32 b))) xa_card msg (zeros 16) xt rt with Ok p => p | _ => [] end.
Example C41_example : int16 (sc_ctr xa_card) /\
  is_ok (scNymVerify (fun b => i2osp 32 (Z.of_nat (length b) + zv (h32 b))) (sc_h0 xa_card) (sc_h1 xa_card) (sc_h2 xa_card) (xa_proof f2 f3 (str "m")) (snd (getNymEid xa_card)) (str "m")) = true /\
  is_ok (scNymVerify (fun b => i2osp 32 (Z.of_nat (length b) + zv (h32 b))) (sc_h0 xa_card) (sc_h1 xa_card) (sc_h2 xa_card) (xa_proof f2 f3 (str "other")) (snd (getNymEid xa_card)) (str "other")) = true.
Proof. split; [unfold int16; cbn; lia|]. split; vm_compute; reflexivity. Qed.

(** ** C42 *)
(** Full claim: Bases returns, for distinct indices in range, the bases used by pseudonyms, signing, verification and
    auditing.  Proved for secret index 0 and attribute indices at least 1.  Missing: secret
    indices above an attribute index (C42_refuted), attribute index 0 (C42_index0_refuted). *)
Theorem C42_bases_partial : forall C (OK : CurveOk C) (HG : bytes -> G1 C) (H : hasher C) (c_cred : codec ACredential) (c_sig : codec ASignature) (c_cri : codec ACRI),
  bls_sizes C -> codec_ok canon_asig c_sig ->
  forall (pk : G2 C) (n eid rh : nat), 1 <= eid < n -> 1 <= rh < n -> eid <> rh ->
  let ipk := Some (Some (issuer_key HG pk n)) in
  exists b, arBases ipk 1 (Z.of_nat rh) (Z.of_nat eid) 0 = Ok b /\
    (forall sk r Nym, arMakeNym 0 sk ipk r = Ok (Nym, r) -> opens (snd (bm_nym b)) (fst (bm_nym b)) Nym sk r) /\
    (forall nym id r, arAuditNymEid H c_sig ipk (Z.of_nat eid) 0 (g1_bytes C nym) id r AuditExpectEidNym = Ok tt <-> opens (snd (bm_eid b)) (fst (bm_eid b)) nym (H id) r) /\
    (forall nym id r, arAuditNymRh H c_sig ipk (Z.of_nat rh) 0 (g1_bytes C nym) id r AuditExpectEidNymRhNym = Ok tt <-> opens (snd (bm_rh b)) (fst (bm_rh b)) nym (H id) r) /\
    (forall A e s sk vals attributes st msg criRaw credBytes meta RNym R Nym sig meta',
       presentable HG H c_cred c_cri pk n A e s sk vals attributes eid rh st criRaw credBytes meta RNym R ->
       arMakeNym 0 sk ipk RNym = Ok (Nym, RNym) ->
       arSign H c_cred c_sig c_cri credBytes sk Nym RNym ipk attributes msg (Z.of_nat rh) (Z.of_nat eid) criRaw st meta R = Ok (sig, meta') ->
       exists sg, dec c_sig sig = Some sg /\
         (has_eid st = true -> exists nym m d r, g1_of_bytes C (as_eid sg) = Some nym /\ meta' = Some m /\ md_eid_data m = Some d /\ au_rand d = Some r /\
            opens (snd (bm_eid b)) (fst (bm_eid b)) nym (nth eid vals z0) r) /\
         (has_rh st = true -> exists nym m d r, g1_of_bytes C (as_rh sg) = Some nym /\ meta' = Some m /\ md_rh_data m = Some d /\ au_rand d = Some r /\
            opens (snd (bm_rh b)) (fst (bm_rh b)) nym (nth rh vals z0) r)).
Proof.
  intros C OK HG H c_cred c_sig c_cri BS CS pk n eid rh Le Lr NE ipk. eexists. split.
  { apply (bases_iff HG BS). split; [reflexivity|]. split; [lia|]. split; [lia|]. split; [lia|]. split; [lia|]. split; [lia|]. split; [lia|]. reflexivity. }
  cbn [bm_nym bm_eid bm_rh fst snd].
  assert (PS : forall i, past_sk (Z.of_nat i) 0 = Z.of_nat (S i)) by (clear; intro i; unfold past_sk; replace (0 <=? Z.of_nat i)%Z with true by lia; lia).
  replace (Z.to_nat (Z.of_nat eid + 1)) with (S eid) by lia. replace (Z.to_nat (Z.of_nat rh + 1)) with (S rh) by lia.
  split; [|split; [|split]].
  - intros sk r Nym E. unfold ipk in E. rewrite (makeNym_ok OK HG BS pk sk r (Nat.le_0_l n) : arMakeNym 0 _ _ _ = _) in E. injection E as <-. apply (gok_comm (ok_g1 OK)).
  - intros nym id r. unfold ipk, arAuditNymEid. rewrite (ok_g1_rt OK). cbn [opt_err].
    rewrite (@audit_iff C OK HG H BS pk n (S eid) (Ok nym) (Z.of_nat eid) 0%Z id r (PS eid) ltac:(lia)). split; [intros (x & E & O); injection E as <-; exact O|intro O; exists nym; split; [reflexivity|exact O]].
  - intros nym id r. unfold ipk, arAuditNymRh. rewrite (ok_g1_rt OK). cbn [opt_err].
    rewrite (@audit_iff C OK HG H BS pk n (S rh) (Ok nym) (Z.of_nat rh) 0%Z id r (PS rh) ltac:(lia)). split; [intros (x & E & O); injection E as <-; exact O|intro O; exists nym; split; [reflexivity|exact O]].
  - clear Le Lr. intros A e s sk vals attributes st msg criRaw credBytes meta RNym R Nym sig meta'
      (Kn & Bn & Lv & Le & Lr & V & Dc & Agr & (cri & Dr & Alg & Ep) & He & Hr & Ae & Ar & ND & (X1 & X2 & X3)) MN S0. cbv zeta in X2, X3. cbn [fst snd] in X1, X2, X3.
    assert (Lse : S eid <= n) by (clear - Le; lia). assert (Lsr : S rh <= n) by (clear - Lr; lia).
    unfold ipk in MN, S0. rewrite (makeNym_ok OK HG BS pk sk RNym (Nat.le_0_l n) : arMakeNym 0 _ _ _ = _) in MN. injection MN as <-.
    pose proof (@sig_canon C HG H pk n A e s sk vals RNym attributes st R eid rh (S eid) (S rh) msg cri meta Bn Lse Lsr Ep Alg) as K.
    destruct (CS _ K) as (b & Eb & Db).
    pose proof (@sign_ok C OK HG H BS c_cred c_sig c_cri pk n A e s sk vals RNym attributes st R Lv Agr V eid rh (S eid) (S rh) msg cri meta Bn Le Lr He Hr ND X2 X3 Ae Ar credBytes criRaw Kn eq_refl eq_refl Dr Alg Dc) as S1.
    rewrite Eb in S1. cbn [opt_err bind] in S1. unfold h_Nym in S1. rewrite S1 in S0. injection S0 as <- <-.
    eexists. split; [exact Db|]. split; intro Hon.
    + cbn [h_sig as_eid]. rewrite Hon, (ok_g1_rt OK). unfold h_meta. rewrite Hon. do 4 eexists. split; [reflexivity|]. split; [reflexivity|]. split; [reflexivity|]. split; [reflexivity|].
      apply (gok_comm (ok_g1 OK)).
    + assert (Hon' : has_eid st = true) by (clear - Hon; destruct st; (discriminate || reflexivity)).
      cbn [h_sig as_rh]. rewrite Hon, (ok_g1_rt OK). unfold h_meta. rewrite Hon, Hon'. do 4 eexists. split; [reflexivity|]. split; [reflexivity|]. split; [reflexivity|]. split; [reflexivity|].
      apply (gok_comm (ok_g1 OK)).
Qed.

(** With the secret at an index above the enrollment id, auditing uses the base at [eid], Bases returns the base at [eid + 1]. *)
Theorem C42_refuted : forall C (OK : CurveOk C) (HG : bytes -> G1 C) (H : hasher C) (c_sig : codec ASignature),
  bls_sizes C -> forall (pk : G2 C) (n k eid rh : nat), eid < k < n -> rh < n -> rh <> eid -> rh <> k ->
  base_at HG pk n eid <> base_at HG pk n (S eid) ->
  let ipk := Some (Some (issuer_key HG pk n)) in
  exists b, arBases ipk 1 (Z.of_nat rh) (Z.of_nat eid) (Z.of_nat k) = Ok b /\
    forall id r, H id <> z0 -> exists nym,
      arAuditNymEid H c_sig ipk (Z.of_nat eid) (Z.of_nat k) (g1_bytes C nym) id r AuditExpectEidNym = Ok tt /\
      ~ opens (snd (bm_eid b)) (fst (bm_eid b)) nym (H id) r.
Proof.
  intros C OK HG H c_sig BS pk n k eid rh L Lr N1 N2 NB ipk. eexists. split.
  { apply (bases_iff HG BS). split; [reflexivity|]. split; [lia|]. split; [lia|]. split; [lia|]. split; [lia|]. split; [lia|]. split; [lia|]. reflexivity. }
  cbn [bm_eid fst snd]. replace (Z.to_nat (Z.of_nat eid + 1)) with (S eid) by lia.
  intros id r NZ. exists ((base_at HG pk n eid ⊗ H id) ⊕ (gen0 HG pk (n + 1) ⊗ r)). split.
  - unfold ipk, arAuditNymEid. rewrite (ok_g1_rt OK). cbn [opt_err].
    assert (PS : past_sk (Z.of_nat eid) (Z.of_nat k) = Z.of_nat eid) by (unfold past_sk; replace (Z.of_nat k <=? Z.of_nat eid)%Z with false by lia; reflexivity).
    apply (@audit_iff C OK HG H BS pk n eid _ (Z.of_nat eid) (Z.of_nat k) id r PS ltac:(lia)). eexists. split; [reflexivity|]. reflexivity.
  - unfold opens. intro E. apply NB. rewrite !(gok_comm (ok_g1 OK) _ (gen0 HG pk (n + 1) ⊗ r)) in E. apply (gadd_cancel_l (ok_g1 OK)) in E.
    assert (Q : forall P : G1 C, P = (P ⊗ H id) ⊗ zinv (H id)).
    { intro P. rewrite <- (gok_mul_mul (ok_g1 OK)). rewrite (Rmul_comm (F_R (sok_field (ok_zr OK)))), (Finv_l (sok_field (ok_zr OK)) _ NZ). symmetry. apply (gok_mul_1 (ok_g1 OK)). }
    rewrite (Q (base_at HG pk n eid)), (Q (base_at HG pk n (S eid))), E. reflexivity.
Qed.

(** An enrollment id or revocation handle at attribute index 0 is refused when the secret has index 0,
    although signing and verification allow it; and index -1 gives the base of the secret. *)
Theorem C42_index0_refuted : forall C (HG : bytes -> G1 C), bls_sizes C -> forall (pk : G2 C) (n : nat) (rh : Z),
  let ipk := Some (Some (issuer_key HG pk n)) in
  (forall b, arBases ipk 1 rh 0 0 <> Ok b) /\ (1 <= rh < Z.of_nat n ->
    exists b, arBases ipk 1 rh (-1) 0 = Ok b /\ bm_eid b = bm_nym b)%Z.
Proof.
  intros C HG BS pk n rh ipk. split.
  - intros b E. apply (bases_iff HG BS) in E. lia.
  - intro L. eexists. split; [apply (bases_iff HG BS); split; [reflexivity|]; split; [lia|]; split; [lia|]; split; [lia|]; split; [lia|]; split; [lia|]; split; [lia|]; reflexivity|]. reflexivity.
Qed.
Example C42_example : base_at hg32 xa_pk 3 1 <> base_at hg32 xa_pk 3 2 /\ h32 (str "alice") <> z0.
Proof. split; apply zp_ne; vm_compute; reflexivity. Qed.

(** ** C43 *)
Theorem C43_credential_verification : forall C (OK : CurveOk C) (HG : bytes -> G1 C) (H : hasher C) (c_cred : codec ACredential),
  bls_sizes C -> forall (pk : G2 C) (n : nat) (sk : Zr C) (credBytes : bytes) (attributes : list attribute),
  length attributes = n -> Forall typed attributes ->
  arCredVerify H c_cred sk (Some (Some (issuer_key HG pk n))) credBytes attributes = Ok tt <->
  exists c sg k, dec c_cred credBytes = Some c /\ parseSignature C (ac_cred c) = Ok sg /\ ac_skpos c = Z.of_nat k /\ k <= n /\
    n <= length (ac_attrs c) /\
    let certified := firstn n (map (zr_of_bytes C) (ac_attrs c)) in
    Forall2 (attr_agrees H) attributes certified /\
    bbs_signature pk (gen0 HG pk (n + 1)) (gens HG pk (n + 1)) (si_a sg) (si_e sg) (si_s sg) (firstn k certified ++ sk :: skipn k certified).
Proof. intros C OK HG H c_cred BS pk n sk credBytes attributes L T. exact (credVerify_iff OK HG H BS c_cred sk pk credBytes L T). Qed.
Example C43_example : Forall typed xa_attrs /\ is_ok (arCredVerify h32 xa_ccred xa_sk xa_key xa_credb xa_attrs) = true /\
  is_ok (arCredVerify h32 xa_ccred xa_sk xa_key xa_credb xa_certified) = true /\
  is_ok (arCredVerify h32 xa_ccred xa_sk xa_key xa_credb [hidden_attr; {| at_type := BytesAttr; at_value := VBytes (str "bob") |}; hidden_attr]) = false.
Proof. split; [repeat constructor; discriminate|]. split; [vm_compute; reflexivity|]. split; vm_compute; reflexivity. Qed.

Print Assumptions C32_issuer_key.
Print Assumptions C32_issuance_partial.
Print Assumptions C32_sk_position_refuted.
Print Assumptions C33_request_knowledge_partial.
Print Assumptions C33_refuted.
Print Assumptions C34_sign_verifies.
Print Assumptions C34_audit.
Print Assumptions C35_challenge.
Print Assumptions C35_soundness_partial.
Print Assumptions C35_refuted.
Print Assumptions C36_nym_knowledge_partial.
Print Assumptions C36_refuted.
Print Assumptions C14_aries_nym.
Print Assumptions C37_attributes_bound_partial.
Print Assumptions C37_positions_refuted.
Print Assumptions C37_refuted.
Print Assumptions C38_nym_binding_partial.
Print Assumptions C38_refuted.
Print Assumptions C39_nym_verify_no_panic.
Print Assumptions C39_verify_no_panic_partial.
Print Assumptions C39_refuted.
Print Assumptions C39_smartcard_partial.
Print Assumptions C39_smartcard_refuted.
Print Assumptions C40_unlinkability.
Print Assumptions C41_card_signature.
Print Assumptions C41_card_soundness.
Print Assumptions C41_counter_partial.
Print Assumptions C41_counter_refuted.
Print Assumptions C42_bases_partial.
Print Assumptions C42_refuted.
Print Assumptions C42_index0_refuted.
Print Assumptions C43_credential_verification.
