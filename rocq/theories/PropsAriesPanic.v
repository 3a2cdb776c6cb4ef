(** * Malformed messages of the issuance protocol and panics in the aries scheme (C95)

    Reading guide: [issuer_key HG pk n] is the public key of an issuer for [n] attributes; an [iface] key is a Go interface
    value: [None] is nil, [Some None] a typed nil pointer.  [announced_responses] is the number in the 4 bytes behind the first
    three points of a request, [well_typed] says that the value of an attribute has the type that the attribute announces. *)
From Verif Require Import Base Curve Algebra Spec Dlog Bridge BridgeFacts Bbs BbsSpec BbsFacts BbsProof BbsComplete
  Aries AriesSpec AriesIssue AriesNym AriesForge BbsPanic AriesPanic Csp CspSpec CspInst CspFacts Toy ToyBbs ToyCodec ToyAries ToyCsp PropsAries PropsCsp.
Unset Strict Implicit.

(** Keys, pseudonyms, blinded signatures and requests to be signed: an error at worst.  The user secret key has a position
    among the attributes and every attribute has a value of its type. *)
Theorem C95_total : forall C (OK : CurveOk C) (HG : bytes -> G1 C) (H : hasher C) (c_cred : codec ACredential), bls_sizes C ->
  (forall raw names, (Z.of_nat (length names) < 2 ^ 32 - 1)%Z -> arNewKeyFromBytes HG raw names <> Panic) /\
  (forall raw names, (Z.of_nat (length names) < 2 ^ 32 - 1)%Z -> arNewPublicKeyFromBytes HG raw names <> Panic) /\
  (forall raw, arUserKeyFromBytes C raw <> Panic) /\ (forall raw, arNymFromBytes C raw <> Panic) /\ (forall raw, arPublicNymFromBytes C raw <> Panic) /\
  (forall pk n k sk r, k <= n -> arMakeNym (Z.of_nat k) sk (Some (Some (issuer_key HG pk n))) r <> Panic) /\
  (forall pk n k sk nonce s bl, (Z.of_nat n < 2 ^ 32 - 1)%Z -> k <= n ->
     arBlind HG H (Z.of_nat k) sk (Some (Some (issuer_key HG pk n))) nonce s bl <> Panic) /\
  (forall isk req attributes k e s, (Z.of_nat (length attributes) < 2 ^ 32 - 1)%Z -> k <= length attributes -> Forall well_typed attributes ->
     arCredSign HG H c_cred (Z.of_nat k) (Some (Some isk)) req attributes e s <> Panic) /\
  (forall signature blinding, arUnblind C c_cred signature blinding <> Panic).
Proof.
  intros C OK HG H c_cred BS. split; [|split; [|split; [|split; [|split; [|split; [|split; [|split]]]]]]].
  - intros raw names L. unfold arNewKeyFromBytes. apply bind_np; [apply unmarshalSK_np|]. intros sk _. rewrite (toPKwG_ok OK) by lia. discriminate.
  - intros raw names L. unfold arNewPublicKeyFromBytes. apply bind_np; [apply unmarshalPK_np|]. intros pk _. rewrite (toPKwG_ok OK) by lia. discriminate.
  - intro raw. unfold arUserKeyFromBytes. apply bind_np; [apply guard_np|]. discriminate.
  - intro raw. unfold arNymFromBytes. destruct (length raw =? _) eqn:L; cbn [guard bind]; [|discriminate]. apply Nat.eqb_eq in L.
    apply bind_np; [apply slice_np; lia|]. intros a _. apply bind_np; [apply slice_np; lia|]. intros b _. apply bind_np; [apply opt_err_np|]. discriminate.
  - intro raw. unfold arPublicNymFromBytes. apply bind_np; [apply guard_np|]. intros _ _. apply opt_err_np.
  - intros pk n k sk r L. rewrite (makeNym_ok OK HG) by assumption. discriminate.
  - intros pk n k sk nonce s bl B L. destruct (@blind_ok C OK HG H BS pk n k sk s bl nonce ltac:(lia) L) as (req & -> & _). discriminate.
  - intros isk req attributes k e s B L T. apply (credSign_np OK BS); [lia|exact L|exact T].
  - intros signature blinding. apply (unblind_np OK HG BS).
Qed.
Print Assumptions C95_total.
Example C95_total_example : bls_sizes toy32 /\ Forall well_typed xa_certified /\
  is_ok (arCredSign hg32 h32 xa_ccred 0 (Some (Some {| is_pub := issuer_key hg32 xa_pk 3; is_sk := xa_isk |})) (xa_req (str "n1")) xa_certified f3 f4) = true /\
  is_ok (arCredSign hg32 h32 xa_ccred 0 (Some (Some {| is_pub := issuer_key hg32 xa_pk 3; is_sk := xa_isk |})) (str "no request") xa_certified f3 f4) = false.
Proof. split; [exact toy32_sizes|]. split; [repeat constructor|]. split; vm_compute; reflexivity. Qed.

(** ** Requests *)
(** Full claim: BlindVerify returns an error for a malformed request.  Proved: it panics exactly for requests that
    announce fewer than two responses and are otherwise well-formed.  Missing: nothing rejects these (C95_request_refuted). *)
Theorem C95_request_partial : forall C (OK : CurveOk C) (HG : bytes -> G1 C) (H : hasher C) (pk : G2 C) (n k : nat) (req nonce : bytes),
  bls_sizes C -> (Z.of_nat n < 2 ^ 32 - 1)%Z -> k <= n ->
  let ipk := Some (Some (issuer_key HG pk n)) in
  (arBlindVerify HG H (Z.of_nat k) req ipk nonce = Panic <-> (exists b, parseBlindedMessages C req = Ok b) /\ (announced_responses C req < 2)%Z).
Proof. intros C OK HG H pk n k req nonce BS B L. apply (blindVerify_panic OK HG BS); [lia|exact L]. Qed.
Print Assumptions C95_request_partial.

(** Three points and the number 0, or 1 and a scalar, make every issuer panic that checks the request: the function
    itself, and Verify of the CSP. *)
Theorem C95_request_refuted : forall C (OK : CurveOk C) (c t u : G1 C) (rs : list (Zr C)), bls_sizes C -> length rs < 2 ->
  let req := g1_comp C c ++ g1_comp C t ++ g1_comp C u ++ uint32ToBytes (Z.of_nat (length rs)) ++ concat (map (zr_bytes C) rs) in
  (forall (HG : bytes -> G1 C) (H : hasher C) (pk : G2 C) (n k : nat) (nonce : bytes), (Z.of_nat n < 2 ^ 32 - 1)%Z -> k <= n ->
     arBlindVerify HG H (Z.of_nat k) req (Some (Some (issuer_key HG pk n))) nonce = Panic) /\
  (forall (HG : bytes -> G1 C) (H : hasher C) hkdf c_cred c_sig c_nsig c_cri EC (EE : ecenv EC) sha256 M e csp (pk : G2 C) (n : nat) digest i nonce b,
     New (aries_scheme HG H hkdf c_cred c_sig c_nsig c_cri EE sha256) M false e = Ok csp -> (Z.of_nat n < 2 ^ 32 - 1)%Z ->
     csp_Verify csp (Some (KIssuerPublic (Some (Some (issuer_key HG pk n)) : u_ipk (ariesU C EC)))) req digest (Some (SBlind i nonce b)) = VPanic).
Proof.
  intros C OK c t u rs BS L req.
  assert (P : parseBlindedMessages C req = Ok {| bl_c := c; bl_pokc := t; bl_proof := {| pf_comm := u; pf_resp := rs |} |}).
  { destruct (@blinded_rt C OK (fun _ => gzero) BS {| bl_c := c; bl_pokc := t; bl_proof := {| pf_comm := u; pf_resp := rs |} |} ltac:(cbn [bl_proof pf_resp]; lia)) as (x & E & P).
    unfold blindedBytes, proofG1Bytes in E. cbn [bl_c bl_pokc bl_proof pf_comm pf_resp] in E. replace (Z.of_nat (length rs) >? 4294967295)%Z with false in E by lia.
    cbn [bind] in E. injection E as <-. exact P. }
  assert (V : forall (HG : bytes -> G1 C) (H : hasher C) (pk : G2 C) (n k : nat) (nonce : bytes), (Z.of_nat n < 2 ^ 32 - 1)%Z -> k <= n ->
     arBlindVerify HG H (Z.of_nat k) req (Some (Some (issuer_key HG pk n))) nonce = Panic).
  { intros HG H pk n k nonce B K. apply (blindVerify_panic OK HG BS); [lia|exact K|]. split; [eexists; exact P|]. rewrite <- (parseBlinded_count HG BS P). cbn [bl_proof pf_resp]. lia. }
  split; [exact V|]. intros HG H hkdf c_cred c_sig c_nsig c_cri EC EE sha256 M e csp pk n digest i nonce b N B.
  apply (proj2 (C44_panics _ _ digest _ N)). eexists. eexists. split; [reflexivity|]. split; [reflexivity|]. split.
  { intro E. assert (X : length req = 0) by (rewrite E; reflexivity). unfold req, uint32ToBytes in X. rewrite !app_length, i2osp_length in X. lia. }
  left. exact (f_equal Some (V HG H pk n 0 nonce B (Nat.le_0_l n))).
Qed.
Print Assumptions C95_request_refuted.

(** an honest request and the same request cut behind its first response *)
Definition xa_short_req : bytes := firstn (3 * g1_csize toy32) (xa_req (str "n1")) ++ uint32ToBytes 1 ++ firstn 32 (skipn (3 * g1_csize toy32 + 4) (xa_req (str "n1"))).
Example C95_request_example :
  arBlindVerify hg32 h32 0 (xa_req (str "n1")) xa_key (str "n1") = Ok tt /\ announced_responses toy32 (xa_req (str "n1")) = 2%Z /\
  is_ok (parseBlindedMessages toy32 xa_short_req) = true /\ announced_responses toy32 xa_short_req = 1%Z /\
  arBlindVerify hg32 h32 0 xa_short_req xa_key (str "n1") = Panic /\
  arBlindVerify hg32 h32 0 (removelast xa_short_req) xa_key (str "n1") = Err.
Proof. repeat split; vm_compute; reflexivity. Qed.

(** ** Credentials *)
(** Full claim: the verification of a credential returns an error for malformed credentials.  Proved: it panics exactly if
    the signature in the credential can be parsed, the credential has fewer attributes than the issuer certifies or a
    position for the user secret key that does not exist, and the attributes that it has agree with the expected ones.
    Missing: nothing rejects these (C95_credential_refuted). *)
Theorem C95_credential_partial : forall C (OK : CurveOk C) (HG : bytes -> G1 C) (H : hasher C) (c_cred : codec ACredential) (sk : Zr C) (pk : G2 C) (n : nat)
    (cred : bytes) (attributes : list attribute),
  bls_sizes C -> length attributes = n -> Forall well_typed attributes ->
  (arCredVerify H c_cred sk (Some (Some (issuer_key HG pk n))) cred attributes = Panic <->
   exists c sg, dec c_cred cred = Some c /\ parseSignature C (ac_cred c) = Ok sg /\
     (length (ac_attrs c) < n \/ (ac_skpos c < 0 \/ Z.of_nat n < ac_skpos c)%Z) /\
     Forall2 (attr_agrees H) (firstn (length (ac_attrs c)) attributes) (firstn n (map (zr_of_bytes C) (ac_attrs c)))).
Proof. intros C OK HG H c_cred sk pk n cred attributes BS. apply (credVerify_panic OK HG BS). Qed.
Print Assumptions C95_credential_partial.

(** A credential with any signature and no attributes makes every holder panic, and Verify of the CSP with it. *)
Theorem C95_credential_refuted : forall C (OK : CurveOk C) (c_cred : codec ACredential) (A : G1 C) (e s : Zr C),
  bls_sizes C -> codec_ok canon_acred c_cred ->
  exists cred, forall (HG : bytes -> G1 C) (H : hasher C) (sk : Zr C) (pk : G2 C) (attributes : list attribute),
    attributes <> [] -> Forall well_typed attributes ->
    let ipk := Some (Some (issuer_key HG pk (length attributes))) in
    arCredVerify H c_cred sk ipk cred attributes = Panic /\
    (forall hkdf c_sig c_nsig c_cri EC (EE : ecenv EC) sha256 M ex csp exportable digest, cred <> [] ->
       New (aries_scheme HG H hkdf c_cred c_sig c_nsig c_cri EE sha256) M false ex = Ok csp ->
       csp_Verify csp (Some (KUserSecret (sk : u_zr (ariesU C EC)) exportable)) cred digest (Some (SCred attributes (Some (KIssuerPublic (ipk : u_ipk (ariesU C EC)))))) = VPanic).
Proof.
  intros C OK c_cred A e s BS CC. destruct (CC {| ac_cred := sig_enc A e s; ac_attrs := []; ac_skpos := 0 |}) as (cred & E & D); [unfold canon_acred, int32; cbn [ac_skpos]; lia|].
  exists cred. intros HG H sk pk attributes NE T ipk.
  assert (V : arCredVerify H c_cred sk ipk cred attributes = Panic).
  { apply (credVerify_panic OK HG BS); [reflexivity|exact T|]. eexists. eexists. split; [exact D|]. split; [apply (parse_sig_enc OK (proj1 BS))|].
    cbn [ac_attrs ac_skpos length map]. split; [left; destruct attributes; [congruence|cbn; lia]|]. rewrite firstn_nil. constructor. }
  split; [exact V|]. intros hkdf c_sig c_nsig c_cri EC EE sha256 M ex csp exportable digest NC N.
  apply (proj2 (C44_panics _ _ digest _ N)). eexists. eexists. split; [reflexivity|]. split; [reflexivity|]. split; [exact NC|]. left. exact (f_equal Some V).
Qed.
Print Assumptions C95_credential_refuted.

(** the example credential, the same with one attribute less and with a position that does not exist, and one whose first attribute differs *)
Definition xa_cut_cred : bytes := ser s_acred {| ac_cred := ac_cred xa_cred; ac_attrs := firstn 2 (ac_attrs xa_cred); ac_skpos := ac_skpos xa_cred |}.
Definition xa_far_cred : bytes := ser s_acred {| ac_cred := ac_cred xa_cred; ac_attrs := ac_attrs xa_cred; ac_skpos := 4 |}.
Definition xa_odd_cred : bytes := ser s_acred {| ac_cred := ac_cred xa_cred; ac_attrs := [str "x"]; ac_skpos := 4 |}.
Example C95_credential_example :
  length xa_certified = 3 /\ Forall well_typed xa_certified /\
  arCredVerify h32 xa_ccred xa_sk xa_key xa_credb xa_certified = Ok tt /\ arCredVerify h32 xa_ccred xa_sk xa_key xa_cut_cred xa_certified = Panic /\
  arCredVerify h32 xa_ccred xa_sk xa_key xa_far_cred xa_certified = Panic /\ arCredVerify h32 xa_ccred xa_sk xa_key xa_odd_cred xa_certified = Err.
Proof. split; [reflexivity|]. split; [repeat constructor|]. repeat split; vm_compute; reflexivity. Qed.
