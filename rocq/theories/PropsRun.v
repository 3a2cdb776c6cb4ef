(** * Honest runs through the CSP API (C67)

    An application that uses only KeyGen, KeyImport, KeyDeriv, Sign and Verify of one CSP: the issuer
    makes its key and publishes it, a user makes a key and a pseudonym, requests and receives a
    credential, the authority issues revocation information, the user signs.  Every call succeeds and
    every Verify accepts.  All keys are ephemeral (what goes into the key store is C45 and C46).
    [signing], [verifying], [nym_opts_for] (RunSpec.v) are the options passed; [nothing_is]: the empty
    string decodes to no message but the one without fields. *)
From Verif Require Import Base Curve Algebra Spec Dlog DlogSpec DlogFacts DlogComplete Bridge BridgeFacts Translator TranslatorFacts
  Toy ToyDlog ToyCodec PropsBridge Csp CspInst CspSpec CspFacts PropsCsp ToyCsp RunSpec RunFacts.
Unset Strict Implicit.
Local Open Scope zr_scope.

(** ** dlog *)
Theorem C67_dlog : forall C (OK : CurveOk C) (H : hasher C) (T : translator C) (TO : TrOk T) utf8 c_ipk c_ik c_req c_cred c_sig c_nsig c_cri EC (EE : ecenv EC) sha256 e c S (KS : keystore _ S) s,
  let X := dlog_scheme H T c_ipk c_ik c_req c_cred c_sig c_nsig c_cri EE sha256 in
  let M := dlog_math T EE sha256 in
  codec_ok (canon_ipk utf8) c_ipk -> codec_ok canon_req c_req -> codec_ok canon_cred c_cred -> codec_ok canon_sig c_sig ->
  codec_ok (fun _ => True) c_nsig -> codec_ok canon_cri c_cri ->
  nothing_is no_ipk_msg c_ipk -> nothing_is no_request c_req -> nothing_is no_credential c_cred -> nothing_is no_signature c_sig ->
  nothing_is no_nymsig c_nsig -> nothing_is no_cri c_cri ->
  (forall rk d, exists sg, ec_sign rk d = Some sg /\ ec_verify (ee_public EE rk) d sg = true) ->
  New X M false e = Ok c ->
  forall (names : list bytes) (nonce : bytes) (attributes : list attribute) (vals : list (Zr C)) (rk : ec_sk EC) (epoch : Z) (handles : list bytes)
    (dI dU dN dR dC dV dV' : ddraw C EC),
  NoDup names -> Forall utf8 names -> length nonce = scalar_size C ->
  length attributes = length names -> map (attr_scalar H) attributes = map Some vals -> int64 epoch ->
  (* no unlucky draw, and crypto/ecdsa gives a key *)
  ir_barg1 (dd_issuer dI) <> z0 -> ir_isk (dd_issuer dI) + dd_zr dC 0 <> z0 -> dd_esk dV = Some rk ->
  exists isk ipk pkraw usk nym npk req cred rsk rpk cri,
    (* keys *)
    KeyGen KS c s dI (Some (GIssuer true names)) = (Ok isk, s) /\
    key_public X M isk = Ok ipk /\ key_bytes X M ipk = Ok pkraw /\
    (forall rh eid sk, KeyImport KS c s (RBytes pkraw) (Some (IIssuerPk true names 0 rh eid sk None)) = (IOk (ipk, IIssuerPk true names 0 rh eid sk None), s)) /\
    KeyGen KS c s dU (Some (GUser true)) = (Ok usk, s) /\
    KeyDeriv KS c s dN (Some usk) (Some (DNym true (Some ipk))) = (Ok nym, s) /\ key_public X M nym = Ok npk /\
    KeyGen KS c s dV (Some (GRevocation true)) = (Ok rsk, s) /\ key_public X M rsk = Ok rpk /\
    (* issuance *)
    (exists o, csp_Sign c dR (Some usk) [] (Some (SRequest (Some ipk) nonce)) = Ok (req, o)) /\
    csp_Verify c (Some ipk) req [] (Some (SRequest None nonce)) = accepted /\
    (exists o, csp_Sign c dC (Some isk) req (Some (SCred attributes None)) = Ok (cred, o)) /\
    (forall shown, shows shown attributes -> csp_Verify c (Some usk) cred [] (Some (SCred shown (Some ipk))) = accepted) /\
    (* revocation information *)
    (exists o, csp_Sign c dV' (Some rsk) [] (Some (SCri epoch 0 handles)) = Ok (cri, o)) /\
    csp_Verify c (Some rpk) cri [] (Some (SCri epoch 0 [])) = accepted /\
    (* pseudonym signatures *)
    (forall d msg, exists sig o, csp_Sign c d (Some usk) msg (Some (SNym (nym_opts_for (Some nym) ipk))) = Ok (sig, o) /\
       csp_Verify c (Some npk) sig msg (Some (SNym (nym_opts_for None ipk))) = accepted) /\
    (* signatures *)
    forall (d : ddraw C EC) msg shown (rh eid : nat) st vt,
    shows shown attributes -> compatible st vt = true ->
    (exists i a, rh <= i /\ nth_error shown i = Some a /\ at_type a = HiddenAttr) -> rh < length shown ->
    (with_eid st = true -> exists a, nth_error shown eid = Some a /\ at_type a = HiddenAttr) ->
    (with_rh st = true -> exists a, nth_error shown rh = Some a /\ at_type a = HiddenAttr) ->
    (* again no unlucky draw *)
    rd_r1 (dd_sig d) <> z0 ->
    (forall cd A, dec c_cred cred = Some cd -> g1_from_proto T (cr_a cd) = Ok A -> A <> gzero) ->
    exists sig so,
      csp_Sign c d (Some usk) msg (Some (SSigner (signing nym ipk cred shown (Z.of_nat rh) (Z.of_nat eid) cri epoch st))) = Ok (sig, Some (SSigner so)) /\
      (* without the metadata and with it, with the authority's key and without *)
      (forall meta r, meta = None \/ meta = so_meta so -> r = None \/ r = Some rpk ->
        csp_Verify c (Some ipk) sig msg (Some (SSigner (verifying shown (Z.of_nat rh) (Z.of_nat eid) r epoch vt meta))) = accepted) /\
      (* the returned metadata lets an auditor confirm exactly the certified values *)
      ((forall i, ir_attrs (dd_issuer dI) i <> z0) ->
       (with_eid st = true -> forall v, nth_error attributes eid = Some {| at_type := BytesAttr; at_value := VBytes v |} ->
         exists m ad r, so_meta so = Some m /\ md_eid_data m = Some ad /\ au_rand ad = Some r /\
           forall v', csp_Verify c (Some ipk) sig [] (Some (SEidAudit AuditExpectSignature (Z.of_nat eid) v' (Some (r : u_zr (dlogU C EC))) 0)) = accepted <-> H v' = H v) /\
       (with_rh st = true -> forall v, nth_error attributes rh = Some {| at_type := BytesAttr; at_value := VBytes v |} ->
         exists m ad r, so_meta so = Some m /\ md_rh_data m = Some ad /\ au_rand ad = Some r /\
           forall v', csp_Verify c (Some ipk) sig [] (Some (SRhAudit AuditExpectSignature (Z.of_nat rh) v' (Some (r : u_zr (dlogU C EC))) 0)) = accepted <-> H v' = H v)).
Proof.
  intros C OK H T TO utf8 c_ipk c_ik c_req c_cred c_sig c_nsig c_cri EC EE sha256 e c S KS s X M CI CR CC CS CN CV ZI ZR ZC ZS ZN ZV HE N
    names nonce attributes vals rk epoch handles dI dU dN dR dC dV dV' ND U Ln La Ev Hep Hb Hnz Hrk.
  destruct (@C01_bridge C OK H T TO utf8 c_ipk c_req c_cred names (dd_issuer dI) (dd_zr dU 0) (dd_zr dR 0) nonce attributes vals (dd_zr dC 0) (dd_zr dC 1)
              CI CR CC ND U Hb Ln La Ev Hnz) as (key & ipk & pkraw & req & cred & K1 & K2 & K3 & K4 & _ & K6 & K7 & K8 & K9).
  assert (NI : pkraw <> []) by exact (ipk_nonempty ZI K1 K2 K4).
  assert (NR : req <> []) by exact (request_nonempty OK ZR K7).
  destruct (credential_issued CC ZC Ev K8) as (NC & cd & Dc & At).
  (* the bases *)
  pose proof (proj1 (recover_ok _ _) K1) as K1'.
  destruct (@newIssuerKey_inv C OK H T TO (enc c_ipk) names (dd_issuer dI) key K1') as (ipk' & E1 & _ & E3 & HB & _).
  rewrite K2 in E1. injection E1 as <-. match type of HB with ipk_bases _ _ ?b => set (B := b) in HB end.
  assert (Nym : exists Nym, brMakeNym T (Some (dd_zr dU 0)) (Some (Some ipk)) (dd_zr dN 0) = Ok (Nym, dd_zr dN 0)).
  { eexists. apply recover_ok. cbn [opt_err bind deref]. unfold makeNym. destruct HB as (B1 & B2 & _). rewrite B1, B2. reflexivity. }
  destruct Nym as [Nym EN].
  (* revocation *)
  destruct (@C21_dlog_complete C T EC sha256 c_cri rk (ee_public EE rk) handles epoch epoch 0 (dd_zr dV' 0) CV Hep (HE rk)) as (cri & V1 & V2).
  assert (NV : cri <> []) by exact (cri_nonempty ZV V2).
  assert (Dv : forall x, dec c_cri cri = Some x -> int64 (cri_epoch x)).
  { exact (cri_created CV Hep V1). }
  exists (KIssuerSecret (Some (Some key) : u_isk (dlogU C EC)) e), (KIssuerPublic (Some (Some ipk) : u_ipk (dlogU C EC))), pkraw,
    (KUserSecret (dd_zr dU 0 : u_zr (dlogU C EC)) e), (newNymSecretKey M (dd_zr dN 0 : u_zr (dlogU C EC)) (Nym : u_g1 (dlogU C EC)) e),
    (KNymPublic (Nym : u_g1 (dlogU C EC))), req, cred, (KRevSecret (rk : u_esk (dlogU C EC)) e), (KRevPublic (ee_public EE rk : u_epk (dlogU C EC))), cri.
  assert (KU : s_newUserKey X dU = Ok (dd_zr dU 0 : u_zr (dlogU C EC))) by reflexivity.
  split; [apply (call_gen_issuer N); cbn [X dlog_scheme s_newIssuerKey]; rewrite K1; reflexivity|].
  split; [cbn [key_public X dlog_scheme s_iskPublic]; rewrite K2; reflexivity|].
  split; [exact K3|].
  split; [intros rh eid sk; apply (call_import_issuer N _ _ _ _ _ _ NI); cbn [X dlog_scheme s_issuerPkFromBytes];
          pose proof (dlogPk_res H T c_ipk pkraw names) as Q; rewrite K4 in Q; destruct (dlogPk H T c_ipk pkraw names); [injection Q as ->; reflexivity|discriminate Q..]|].
  split; [exact (call_gen_user N _ _ KU)|].
  split; [exact (call_derive N KS s e (d := dN) (EN : s_makeNym X dN _ _ = Ok (_, _)))|].
  split; [reflexivity|].
  split; [apply (call_gen_revocation N); cbn [X dlog_scheme s_revNewKey]; rewrite Hrk; reflexivity|].
  split; [reflexivity|].
  split; [eexists; exact (call_sign_request N (h := Build_cred_request _ _) e [] (eq_refl : s_request X = Some _) K6)|].
  split; [exact (call_verify N NR (f_equal Some K7 : deciding X (KIssuerPublic _) req [] (SRequest None nonce) = Some (Ok tt)))|].
  split; [eexists; exact (call_sign_credential N e None (K8 : s_credSign X dC _ req attributes = Ok cred))|].
  split; [intros shown Sh; exact (call_verify N NC (f_equal Some (credVerify_shows Sh K9) : deciding X (KUserSecret _ e) cred [] (SCred shown (Some (KIssuerPublic _))) = Some (Ok tt)))|].
  split; [eexists; exact (call_sign_cri N e [] (V1 : s_revSign X dV' _ handles epoch 0 = Ok cri))|].
  split; [exact (call_verify N NV (f_equal Some V2 : deciding X (KRevPublic _) cri [] (SCri epoch 0 []) = Some (Ok tt)))|].
  split.
  { intros d msg.
    destruct (@C14_bridge C OK H T c_nsig (dd_zr dU 0) ipk B msg (dd_zr dN 0) (dd_zr d 0) (dd_zr d 1) (dd_zr d 2) CN HB) as (Nym' & RNym & sig & F1 & F2 & F3).
    rewrite EN in F1. injection F1 as <- <-. exists sig. eexists. split.
    - exact (call_sign_nym N e (no := nym_opts_for (Some (newNymSecretKey M _ _ e)) (KIssuerPublic _)) eq_refl eq_refl eq_refl (F2 : s_nymSign X d _ _ _ _ msg = Ok sig)).
    - exact (call_verify N (nymsig_nonempty OK CN ZN F2) (f_equal Some F3 : deciding X (KNymPublic _) sig msg (SNym (nym_opts_for None (KIssuerPublic _))) = Some (Ok tt))). }
  intros d msg shown rh eid st vt Sh Cm Hi Lr He Hr NZ NA.
  assert (Ls : length shown = length attributes) by (clear -Sh; induction Sh; cbn; congruence).
  assert (Lv : length vals = length attributes) by (rewrite <- (map_length (attr_scalar H)), Ev, map_length; reflexivity).
  pose proof (credVerify_shows Sh K9) as K9'.
  assert (EA : exists A, g1_from_proto T (cr_a cd) = Ok A).
  { apply (proj1 (recover_ok _ _)) in K9. cbn [opt_err bind deref] in K9. rewrite Dc in K9. cbn [opt_err bind] in K9. apply bind_ok in K9. destruct K9 as [? [_ K9]].
    unfold verCredential in K9. apply bind_ok in K9. destruct K9 as [A [EA _]]. exists A. exact EA. }
  destruct EA as [A EA].
  assert (Hst : In st [Standard; EidNym; EidNymRhNym]) by (destruct st; cbn in Cm |- *; try discriminate Cm; auto).
  destruct (@C02_bridge C OK H T TO c_ipk c_cred c_sig c_cri EC sha256 pkraw names ipk (dd_zr dU 0) cred cd A shown (dd_zr dN 0) Nym (dd_zr dN 0) rk handles epoch (dd_zr dV' 0) cri
              msg rh eid (dd_sig d) st CS CV Hep K4 K9' EN V1 Dc EA (NA _ _ Dc EA)) as (sig & md & Sg & Vf).
  { rewrite At, map_length, E3. congruence. } { rewrite E3. congruence. } { exact Hi. } { exact Lr. } { exact Hst. } { exact He. } { exact Hr. } { exact NZ. }
  assert (NS : sig <> []) by exact (sig_nonempty OK CS ZS Dv Sg).
  destruct (call_sign N e (so := signing (newNymSecretKey M (dd_zr dN 0 : u_zr (dlogU C EC)) (Nym : u_g1 (dlogU C EC)) e) (KIssuerPublic (Some (Some ipk) : u_ipk (dlogU C EC))) cred shown (Z.of_nat rh) (Z.of_nat eid) cri epoch st)
              eq_refl eq_refl (Sg : s_sign X d cred _ _ _ _ shown msg _ _ cri st None = Ok (sig, md))) as (so & SE & Em).
  exists sig, so. split; [exact SE|]. split.
  { intros meta r Hm [-> | ->].
    - apply (call_verify N NS). apply (f_equal Some). rewrite Em in Hm. exact (Vf _ None epoch vt meta Cm Hm).
    - apply (call_verify N NS). apply (f_equal Some). rewrite Em in Hm. exact (Vf _ (Some (ee_public EE rk)) epoch vt meta Cm Hm). }
  intros HA.
  assert (HA' : Forall (fun h => h <> gzero) (b_attrs B)).
  { cbn [B b_attrs]. apply Forall_forall. intros h Hh. apply in_map_iff in Hh. destruct Hh as (i & <- & _). intros Q. apply (HA i).
    apply (@gmul_faithful _ _ (ok_zr OK) (ok_g1 OK) (genG1 C)); [exact (ok_gen1 OK)|]. rewrite Q. symmetry. apply (gmul_0 (ok_zr OK) (ok_g1 OK)). }
  destruct (@C12_bridge C OK H T TO c_cred c_sig c_cri cred cd (dd_zr dU 0) Nym (dd_zr dN 0) ipk B shown msg (Z.of_nat rh) (Z.of_nat eid) cri (dd_sig d) st None sig md CS Dv HB HA' Dc Sg) as (A1 & A2).
  assert (Val : forall i v a, nth_error attributes i = Some {| at_type := BytesAttr; at_value := VBytes v |} ->
      option_map (fun a => zr_of_bytes C (ob a)) (nth_error (cr_attrs cd) (Z.to_nat (Z.of_nat i))) = Some a -> a = H v).
  { intros i v a Hn Ha. rewrite Nat2Z.id, At, nth_error_map in Ha.
    assert (Hv : nth_error (map (attr_scalar H) attributes) i = Some (Some (H v))) by (rewrite nth_error_map, Hn; reflexivity).
    rewrite Ev, nth_error_map in Hv. destruct (nth_error vals i) as [w|]; [|discriminate Hv]. cbn in Hv. injection Hv as ->.
    cbn [option_map ob] in Ha. rewrite (ok_zr_rt OK) in Ha. injection Ha as <-. reflexivity. }
  split.
  - intros W v Hv. destruct (A1 W) as (m & n & r & a & -> & Q2 & Q3 & Q4). exists m. eexists. exists r. split; [exact Em|]. split; [exact Q2|]. split; [reflexivity|].
    intros v'. rewrite <- (Val eid v a Hv Q3). rewrite <- (proj1 (Q4 v')). apply (call_verify_iff N NS). reflexivity.
  - intros W v Hv. destruct (A2 W) as (m & n & r & a & -> & Q2 & Q3 & Q4). exists m. eexists. exists r. split; [exact Em|]. split; [exact Q2|]. split; [reflexivity|].
    intros v'. rewrite <- (Val rh v a Hv Q3). rewrite <- (proj1 (Q4 v')). apply (call_verify_iff N NS). reflexivity.
Qed.
Print Assumptions C67_dlog.

(** the hypotheses on the toy curve, the point of the credential being nonzero, and the run itself *)
Definition rdraw (i : nat) : u_draw xU :=
  {| dd_issuer := tIR; dd_zr := (fun j => nth (i + j) [f21; f13; f23; f10; f4; f6; f9; f8] f5) : nat -> Zr tC; dd_sig := tR f25; dd_esk := Some (str "k") : option (ec_sk xEC) |}.
Definition rkeys (k : res (key xU) * disk) : res (key xU) := fst k.
Definition rsig {A} (r : res (bytes * A)) : res bytes := let* '(b, _) := r in Ok b.
Definition rcredential : res bytes :=
  let* isk := rkeys (KeyGen xKS xcsp xdisk (rdraw 0) (Some (GIssuer true tnames))) in
  let* ipk := key_public xX xM isk in
  let* usk := rkeys (KeyGen xKS xcsp xdisk (rdraw 1) (Some (GUser true))) in
  let* req := rsig (csp_Sign xcsp (rdraw 2) (Some usk) [] (Some (SRequest (Some ipk) [Byte.x07]))) in
  rsig (csp_Sign xcsp (rdraw 3) (Some isk) req (Some (SCred battrs None))).
Definition rrun (st : SignatureType) (vt : VerificationType) : res verdict :=
  let* isk := rkeys (KeyGen xKS xcsp xdisk (rdraw 0) (Some (GIssuer true tnames))) in
  let* ipk := key_public xX xM isk in
  let* usk := rkeys (KeyGen xKS xcsp xdisk (rdraw 1) (Some (GUser true))) in
  let* nym := rkeys (KeyDeriv xKS xcsp xdisk (rdraw 4) (Some usk) (Some (DNym true (Some ipk)))) in
  let* rsk := rkeys (KeyGen xKS xcsp xdisk (rdraw 5) (Some (GRevocation true))) in
  let* rpk := key_public xX xM rsk in
  let* cred := rcredential in
  let* cri := rsig (csp_Sign xcsp (rdraw 6) (Some rsk) [] (Some (SCri 5 0 []))) in
  let* sig := rsig (csp_Sign xcsp (rdraw 7) (Some usk) (str "msg") (Some (SSigner (signing nym ipk cred bshow 3 2 cri 5 st)))) in
  Ok (csp_Verify xcsp (Some ipk) sig (str "msg") (Some (SSigner (verifying bshow 3 2 (Some rpk) 5 vt None)))).
Definition rpoint (c : res bytes) : option (G1 tC) :=
  match c with
  | Ok b => match dec (tcodec s_cred) b with Some cd => match g1_from_proto tT (cr_a cd) with Ok A => Some A | _ => None end | None => None end
  | _ => None
  end.

Example C67_example :
  codec_ok (canon_ipk (fun _ => True)) (tcodec s_ipk) /\ codec_ok canon_req (tcodec s_req) /\ codec_ok canon_cred (tcodec s_cred) /\
  codec_ok canon_sig (tcodec s_sig) /\ codec_ok (fun _ => True) (tcodec s_nsig) /\ codec_ok canon_cri (tcodec s_cri) /\
  nothing_is no_ipk_msg (tcodec s_ipk) /\ nothing_is no_request (tcodec s_req) /\ nothing_is no_credential (tcodec s_cred) /\
  nothing_is no_signature (tcodec s_sig) /\ nothing_is no_nymsig (tcodec s_nsig) /\ nothing_is no_cri (tcodec s_cri) /\
  (forall (rk : ec_sk xEC) d, exists sg, ec_sign rk d = Some sg /\ ec_verify (ee_public xEE rk) d sg = true) /\
  New xX xM false true = Ok xcsp /\ NoDup tnames /\ Forall (fun _ => True) tnames /\ length [Byte.x07] = scalar_size tC /\
  length battrs = length tnames /\ map (attr_scalar tH) battrs = map Some bvals /\ int64 5 /\
  (forall i, ir_barg1 (dd_issuer (rdraw i)) <> z0) /\ ir_isk (dd_issuer (rdraw 0)) + dd_zr (rdraw 3) 0 <> z0 /\
  dd_esk (rdraw 5) = Some (str "k" : ec_sk xEC) /\
  shows bshow battrs /\ 3 < length bshow /\ option_map at_type (nth_error bshow 2) = Some HiddenAttr /\ option_map at_type (nth_error bshow 3) = Some HiddenAttr /\
  rd_r1 (dd_sig (rdraw 7)) <> z0 /\ (exists A, rpoint rcredential = Some A /\ A <> gzero) /\
  Forall (fun p => rrun (fst p) (snd p) = Ok accepted)
    [(Standard, ExpectStandard); (Standard, Basic); (EidNym, ExpectEidNym); (EidNymRhNym, ExpectEidNymRhNym); (EidNymRhNym, BestEffort)] /\
  rrun EidNym ExpectStandard = Ok rejected.
Proof.
  split; [intros x _; apply (tcodec_rt s_ipk_ok)|]. split; [intros x _; apply (tcodec_rt s_req_ok)|]. split; [intros x _; apply (tcodec_rt s_cred_ok)|].
  split; [intros x _; apply (tcodec_rt s_sig_ok)|]. split; [intros x _; apply (tcodec_rt s_nsig_ok)|]. split; [intros x _; apply (tcodec_rt s_cri_ok)|].
  split; [intros x D; discriminate D|]. split; [intros x D; discriminate D|]. split; [intros x D; discriminate D|].
  split; [intros x D; discriminate D|]. split; [intros x D; discriminate D|]. split; [intros x D; discriminate D|].
  split; [intros rk d; eexists; split; [reflexivity|apply bytes_eqb_eq; reflexivity]|].
  split; [exact xcsp_new|]. split; [repeat constructor; cbn; intuition discriminate|]. split; [repeat constructor|].
  split; [reflexivity|]. split; [reflexivity|]. split; [reflexivity|]. split; [unfold int64; lia|].
  split; [intros i; discriminate|]. split; [discriminate|]. split; [reflexivity|].
  split; [repeat constructor; first [left; reflexivity|right; reflexivity]|]. split; [cbn; lia|]. split; [reflexivity|]. split; [reflexivity|].
  split; [discriminate|]. split; [eexists; split; [vm_compute; reflexivity|discriminate]|].
  split; [repeat (constructor; [vm_compute; reflexivity|]); constructor|vm_compute; reflexivity].
Qed.
