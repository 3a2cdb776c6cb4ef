(** * Honest runs through the CSP API with the aries bridge (C67)

    The same run as C67_dlog.  The credential the issuer signs is blinded: the user calls Unblind of
    the credential-request object with the blinding that Sign left in its options. *)
From Verif Require Import Base Curve Algebra Spec Bbs BbsSpec BbsFacts BbsProof Aries AriesSpec AriesIssue AriesVerify AriesNym ToyBbs ToyAries Dlog Bridge BridgeFacts
  Translator Toy ToyCodec PropsBridge PropsAries Csp CspInst CspSpec CspFacts PropsCsp ToyCsp RunSpec RunFacts.
Unset Strict Implicit.

Theorem C67_aries : forall C (OK : CurveOk C) (HG : bytes -> G1 C) (H : hasher C) hkdf c_cred c_sig c_nsig c_cri EC (EE : ecenv EC) sha256 (T : translator C) e c S (KS : keystore _ S) s,
  let X := aries_scheme HG H hkdf c_cred c_sig c_nsig c_cri EE sha256 in
  let M := aries_math T EE sha256 in
  bls_sizes C -> codec_ok canon_acred c_cred -> codec_ok canon_asig c_sig -> codec_ok (fun _ => True) c_nsig -> codec_ok canon_acri c_cri ->
  nothing_is no_acredential c_cred -> nothing_is no_asignature c_sig -> nothing_is no_anymsig c_nsig -> nothing_is no_acri c_cri ->
  (forall rk d, exists sg, ec_sign rk d = Some sg /\ ec_verify (ee_public EE rk) d sg = true) ->
  New X M false e = Ok c ->
  forall (names : list bytes) (nonce : bytes) (attributes : list attribute) (vals : list (Zr C)) (rk : ec_sk EC) (epoch : Z) (handles : list bytes)
    (dI dU dN dR dC dV dV' : adraw C EC),
  attributes <> [] -> length attributes = length names -> (Z.of_nat (length names + 1) <= 65535)%Z ->
  Forall2 (attr_states H) attributes vals -> int64 epoch ->
  (* the random source gives 32 bytes of seed, no unlucky draw, and crypto/ecdsa gives a key *)
  length (ad_seed dI) = 32 -> (forall k, arNewKey HG H hkdf names (ad_seed dI) = Ok k -> zadd (is_sk k) (ad_zr dC 0) <> z0) -> ad_esk dV = Some rk ->
  exists isk ipk pkraw usk nym npk req blinding blinded cred rsk rpk cri,
    (* keys *)
    KeyGen KS c s dI (Some (GIssuer true names)) = (Ok isk, s) /\
    key_public X M isk = Ok ipk /\ key_bytes X M ipk = Ok pkraw /\
    (forall rh eid sk, KeyImport KS c s (RBytes pkraw) (Some (IIssuerPk true names 0 rh eid sk None)) = (IOk (ipk, IIssuerPk true names 0 rh eid sk None), s)) /\
    KeyGen KS c s dU (Some (GUser true)) = (Ok usk, s) /\
    KeyDeriv KS c s dN (Some usk) (Some (DNym true (Some ipk))) = (Ok nym, s) /\ key_public X M nym = Ok npk /\
    KeyGen KS c s dV (Some (GRevocation true)) = (Ok rsk, s) /\ key_public X M rsk = Ok rpk /\
    (* issuance *)
    csp_Sign c dR (Some usk) [] (Some (SBlind (Some ipk) nonce [])) = Ok (req, Some (SBlind (Some ipk) nonce blinding)) /\
    csp_Verify c (Some ipk) req [] (Some (SBlind None nonce [])) = accepted /\
    (exists o, csp_Sign c dC (Some isk) req (Some (SCred attributes None)) = Ok (blinded, o)) /\
    arUnblind C c_cred blinded blinding = Ok cred /\
    (forall shown, shows shown attributes -> csp_Verify c (Some usk) cred [] (Some (SCred shown (Some ipk))) = accepted) /\
    (* revocation information *)
    (exists o, csp_Sign c dV' (Some rsk) [] (Some (SCri epoch 0 handles)) = Ok (cri, o)) /\
    csp_Verify c (Some rpk) cri [] (Some (SCri epoch 0 [])) = accepted /\
    (* pseudonym signatures *)
    (forall d msg, exists sig o, csp_Sign c d (Some usk) msg (Some (SNym (nym_opts_for (Some nym) ipk))) = Ok (sig, o) /\
       csp_Verify c (Some npk) sig msg (Some (SNym (nym_opts_for None ipk))) = accepted) /\
    (* signatures *)
    exists (pk : G2 C) (A : G1 C) (E0 S0 sk : Zr C),
    ipk = KIssuerPublic (Some (Some (issuer_key HG pk (length names))) : u_ipk (ariesU C EC)) /\ usk = KUserSecret (sk : u_zr (ariesU C EC)) e /\
    dec c_cred cred = Some (credential_of A E0 S0 vals) /\
    forall (d : adraw C EC) msg shown (rh eid : nat) st vt,
    shows shown attributes -> aries_compatible st vt = true -> rh < length shown -> eid < length shown ->
    (has_eid st = true -> exists a, nth_error shown eid = Some a /\ at_type a = HiddenAttr) ->
    (hides_rh st = true -> exists a, nth_error shown rh = Some a /\ at_type a = HiddenAttr) ->
    (* no accidental equality of the issuer's bases, again no unlucky draw *)
    (has_eid st = true -> NoDup (gen0 HG pk (length names + 1) :: BbsSpec.gens HG pk (length names + 1))) ->
    (forall r, usable_draws HG pk (length names) st eid rh S0 sk vals (r, ad_sig d)) ->
    exists sig so,
      csp_Sign c d (Some usk) msg (Some (SSigner (signing nym ipk cred shown (Z.of_nat rh) (Z.of_nat eid) cri epoch st))) = Ok (sig, Some (SSigner so)) /\
      (forall meta r, meta = None \/ meta = so_meta so -> r = None \/ r = Some rpk ->
        csp_Verify c (Some ipk) sig msg (Some (SSigner (verifying shown (Z.of_nat rh) (Z.of_nat eid) r epoch vt meta))) = accepted) /\
      (has_eid st = true -> base_at HG pk (length names) (Datatypes.S eid) <> gzero ->
        forall v, nth_error attributes eid = Some {| at_type := BytesAttr; at_value := VBytes v |} ->
         exists m ad r, so_meta so = Some m /\ md_eid_data m = Some ad /\ au_rand ad = Some r /\
           forall v', csp_Verify c (Some ipk) sig [] (Some (SEidAudit AuditExpectSignature (Z.of_nat eid) v' (Some (r : u_zr (ariesU C EC))) 0)) = accepted <-> H v' = H v) /\
      (has_rh st = true -> base_at HG pk (length names) (Datatypes.S rh) <> gzero ->
        forall v, nth_error attributes rh = Some {| at_type := BytesAttr; at_value := VBytes v |} ->
         exists m ad r, so_meta so = Some m /\ md_rh_data m = Some ad /\ au_rand ad = Some r /\
           forall v', csp_Verify c (Some ipk) sig [] (Some (SRhAudit AuditExpectSignature (Z.of_nat rh) v' (Some (r : u_zr (ariesU C EC))) 0)) = accepted <-> H v' = H v).
Proof.
  intros C OK HG H hkdf c_cred c_sig c_nsig c_cri EC EE sha256 T e c S KS s X M BS CC CS CN CR ZC ZS ZN ZR HE N
    names nonce attributes vals rk epoch handles dI dU dN dR dC dV dV' NE La Lb St Hep Ls Hnz Hrk.
  destruct (@C32_issuer_key C OK HG H hkdf z0 names (ad_seed dI) BS ltac:(lia)) as (K1 & _ & K3).
  destruct (K1 Ls) as [isk K1']. clear K1. specialize (Hnz _ K1'). cbn [is_sk] in Hnz.
  set (pk := genG2 C ⊗ isk) in *. specialize (K3 pk). set (ipk := issuer_key HG pk (length names)) in *. set (sk := ad_zr dU 0).
  destruct (@C32_issuance_partial C OK HG H c_cred BS CC isk sk attributes vals nonce (ad_zr dR 0) (ad_zr dC 0) (ad_zr dC 1) (fun i => ad_zr dR (Datatypes.S i)) NE
             ltac:(rewrite La; lia) St Hnz) as (req & bl & out & cred & A & I1 & I2 & I3 & I4 & I5 & I6 & I7).
  fold pk in I1, I2, I3, I5, I7. rewrite La in I1, I2, I3, I5, I7. fold ipk in I1, I2, I3, I5.
  assert (LV : length vals = length names) by (rewrite <- La; symmetry; exact (Forall2_len St)).
  assert (NI : arPublicKeyBytes ipk <> []) by exact (@g2c_pos C OK _).
  assert (NR : req <> []) by exact (@blinded_nonempty C HG H _ _ _ _ I2).
  assert (NC : cred <> []).
  { apply (acred_nonempty ZC I6). cbn [credential_of ac_cred]. intros Q. pose proof (parse_sig_enc OK (proj1 BS) A (ad_zr dC 0) (zadd (ad_zr dC 1) (ad_zr dR 0))) as P.
    unfold sig_enc in P. rewrite Q in P. unfold parseSignature in P. cbn [length] in P. unfold frCompressedSize in P.
    replace (0 =? g1_csize C + 2 * 32) with false in P by (symmetry; apply Nat.eqb_neq; lia). discriminate P. }
  destruct (@C21_aries_complete C EC sha256 c_cri rk (ee_public EE rk) handles epoch (ad_zr dV' 0) CR Hep (HE rk)) as (cri & V1 & V2).
  destruct (acri_created OK ZR CR Hep V1) as (NV & Dv).
  destruct (@C14_aries_nym C OK HG H c_nsig BS (fun x => CN x I) pk (length names) 0 sk (ad_zr dN 0) z0 [] (fun _ => z0) ltac:(lia)) as (Nym & _ & EN & _).
  exists (KIssuerSecret (Some (Some {| is_pub := ipk; is_sk := isk |}) : u_isk (ariesU C EC)) e), (KIssuerPublic (Some (Some ipk) : u_ipk (ariesU C EC))), (arPublicKeyBytes ipk),
    (KUserSecret (sk : u_zr (ariesU C EC)) e), (newNymSecretKey M (ad_zr dN 0 : u_zr (ariesU C EC)) (Nym : u_g1 (ariesU C EC)) e),
    (KNymPublic (Nym : u_g1 (ariesU C EC))), req, bl, out, cred, (KRevSecret (rk : u_esk (ariesU C EC)) e), (KRevPublic (ee_public EE rk : u_epk (ariesU C EC))), cri.
  assert (KU : s_newUserKey X dU = Ok (sk : u_zr (ariesU C EC))) by reflexivity.
  split; [apply (call_gen_issuer N); cbn [X aries_scheme s_newIssuerKey]; rewrite K1'; reflexivity|].
  split; [reflexivity|]. split; [reflexivity|].
  split; [intros rh eid k; apply (call_import_issuer N _ _ _ _ _ _ NI); cbn [X aries_scheme s_issuerPkFromBytes]; rewrite K3; reflexivity|].
  split; [exact (call_gen_user N _ _ KU)|].
  split; [exact (call_derive N KS s e (d := dN) (EN : s_makeNym X dN _ _ = Ok (_, _)))|].
  split; [reflexivity|].
  split; [apply (call_gen_revocation N); cbn [X aries_scheme s_revNewKey]; rewrite Hrk; reflexivity|].
  split; [reflexivity|].
  split; [exact (call_sign_blind N (h := Build_blind_request _ _) e [] [] (eq_refl : s_blind X = Some _) I1)|].
  split; [exact (call_verify N NR (f_equal Some I2 : deciding X (KIssuerPublic _) req [] (SBlind None nonce []) = Some (Ok tt)))|].
  split; [eexists; exact (call_sign_credential N e None (I3 : s_credSign X dC _ req attributes = Ok out))|].
  split; [exact I4|].
  assert (CV : forall shown, shows shown attributes -> arCredVerify H c_cred sk (Some (Some ipk)) cred shown = Ok tt).
  { intros shown Sh. assert (Lsh : length shown = length names) by (rewrite (shows_length Sh); exact La).
    apply (proj2 (@C43_credential_verification C OK HG H c_cred BS pk (length names) sk cred shown Lsh (shows_typed Sh (states_typed St)))).
    exists (credential_of A (ad_zr dC 0) (zadd (ad_zr dC 1) (ad_zr dR 0)) vals), {| si_a := A; si_e := ad_zr dC 0; si_s := zadd (ad_zr dC 1) (ad_zr dR 0) |}, 0.
    split; [exact I6|]. split; [apply (parse_sig_enc OK); exact (proj1 BS)|]. split; [reflexivity|]. split; [lia|].
    cbn [credential_of ac_attrs]. split; [rewrite map_length, LV; lia|].
    assert (Q : firstn (length names) (map (zr_of_bytes C) (map (zr_bytes C) vals)) = vals).
    { rewrite map_map, (map_ext _ (fun x => x)) by (intro; apply (ok_zr_rt OK)). rewrite map_id, <- LV. apply firstn_all. }
    rewrite Q. split; [exact (shows_agrees Sh St)|exact I7]. }
  split; [intros shown Sh; exact (call_verify N NC (f_equal Some (CV shown Sh) : deciding X (KUserSecret _ e) cred [] (SCred shown (Some (KIssuerPublic _))) = Some (Ok tt)))|].
  split; [eexists; exact (call_sign_cri N e [] (V1 : s_revSign X dV' _ handles epoch 0 = Ok cri))|].
  split; [exact (call_verify N NV (f_equal Some V2 : deciding X (KRevPublic _) cri [] (SCri epoch 0 []) = Some (Ok tt)))|].
  split.
  { intros d msg.
    destruct (@C14_aries_nym C OK HG H c_nsig BS (fun x => CN x I) pk (length names) 0 sk (ad_zr dN 0) (ad_zr d 0) msg (fun i => ad_zr d (Datatypes.S i)) ltac:(lia)) as (Nym' & sig & F1 & _ & F2 & F3).
    fold ipk in F1, F2, F3, EN. pose proof (eq_trans (eq_sym F1) EN) as Q. injection Q as ->. exists sig. eexists. split.
    - exact (call_sign_nym N e (no := nym_opts_for (Some (newNymSecretKey M _ _ e)) (KIssuerPublic _)) eq_refl eq_refl eq_refl (F2 : s_nymSign X d _ _ _ _ msg = Ok sig)).
    - exact (call_verify N (@anymsig_nonempty _ _ _ _ _ _ _ _ ZN F3) (f_equal Some F3 : deciding X (KNymPublic _) sig msg (SNym (nym_opts_for None (KIssuerPublic _))) = Some (Ok tt))). }
  exists pk, A, (ad_zr dC 0), (zadd (ad_zr dC 1) (ad_zr dR 0)), sk. split; [reflexivity|]. split; [reflexivity|]. split; [exact I6|].
  intros d msg shown rh eid st vt Sh Cm Lr Le He Hr ND UD.
  assert (Lsh : length shown = length names) by (rewrite (shows_length Sh); exact La).
  assert (Pr : presentable HG H c_cred c_cri pk (length names) A (ad_zr dC 0) (zadd (ad_zr dC 1) (ad_zr dR 0)) sk vals shown eid rh st cri cred None (ad_zr dN 0) (ad_sig d)).
  { split; [intros ->; destruct vt; discriminate Cm|]. split; [exact Lb|]. split; [exact LV|]. split; [lia|]. split; [lia|]. split; [exact I7|]. split; [exact I6|]. split; [exact (shows_agrees Sh St)|]. split; [exact Dv|].
    split; [exact He|]. split; [exact Hr|]. split; [intros _; left; reflexivity|]. split; [intros _; left; reflexivity|]. split; [exact ND|exact (UD _)]. }
  destruct (@C34_sign_verifies C OK HG H c_cred c_sig c_cri BS CS pk (length names) A _ _ sk vals shown eid rh st msg cri cred None (ad_zr dN 0) (ad_sig d) Pr) as (Nym' & sig & md & S1 & S2 & S3).
  fold ipk in S1, S2, S3, EN. pose proof (eq_trans (eq_sym S1) EN) as Q. injection Q as ->.
  assert (NS : sig <> []) by exact (@asig_nonempty _ _ _ _ _ _ _ _ _ _ _ _ ZS (S3 _ Cm None (or_introl eq_refl))).
  destruct (call_sign N e (so := signing (newNymSecretKey M (ad_zr dN 0 : u_zr (ariesU C EC)) (Nym : u_g1 (ariesU C EC)) e) (KIssuerPublic (Some (Some ipk) : u_ipk (ariesU C EC))) cred shown (Z.of_nat rh) (Z.of_nat eid) cri epoch st)
              eq_refl eq_refl (S2 : s_sign X d cred _ _ _ _ shown msg _ _ cri st None = Ok (sig, md))) as (so & SE & Em).
  exists sig, so. split; [exact SE|]. split.
  { intros meta r Hm [-> | ->]; apply (call_verify N NS); apply (f_equal Some); rewrite Em in Hm; exact (S3 vt Cm meta Hm). }
  destruct (@C34_audit C OK HG H c_cred c_sig c_cri BS CS pk (length names) A _ _ sk vals shown eid rh st msg cri cred None (ad_zr dN 0) (ad_sig d) Pr Nym sig md EN S2) as (A1 & A2).
  assert (Val : forall i v, nth_error attributes i = Some {| at_type := BytesAttr; at_value := VBytes v |} -> nth i vals z0 = H v).
  { clear -St. induction St as [|a x l l' Hx _ IH]; intros [|i] v Hn; try discriminate Hn.
    - cbn in Hn. injection Hn as ->. exact Hx.
    - exact (IH i v Hn). }
  split.
  - intros W NB v Hv. destruct (A1 W NB) as (m & ad & r & -> & Q2 & Q3 & _ & Q5). exists m, ad, r. split; [exact Em|]. split; [exact Q2|]. split; [exact Q3|].
    intros v'. rewrite <- (Val eid v Hv), <- (Q5 v'). apply (call_verify_iff N NS). reflexivity.
  - intros W NB v Hv. destruct (A2 W NB) as (m & ad & r & -> & Q2 & Q3 & _ & Q5). exists m, ad, r. split; [exact Em|]. split; [exact Q2|]. split; [exact Q3|].
    intros v'. rewrite <- (Val rh v Hv), <- (Q5 v'). apply (call_verify_iff N NS). reflexivity.
Qed.
Print Assumptions C67_aries.

(** the hypotheses on the toy curve, and the run itself *)
Definition qdraw (i : nat) : u_draw yU :=
  {| ad_seed := repeat Byte.x07 32; ad_zr := fun j => zr_of_Z toy32 (Z.of_nat (i + j) + 5); ad_sig := xa_R; ad_esk := Some (str "k") : option (ec_sk xEC) |} : adraw toy32 xEC.
Definition qKS : keystore yU disk := KVSStore yM (FileBased xjson).
Definition qnames : list bytes := [str "OU"; str "EnrollmentID"; str "RevocationHandle"].
Definition qattrs : list attribute :=
  [{| at_type := BytesAttr; at_value := VBytes (str "OU") |}; {| at_type := BytesAttr; at_value := VBytes (str "alice") |}; {| at_type := BytesAttr; at_value := VBytes (str "rh") |}].
Definition qvals : list (Zr toy32) := [h32 (str "OU"); h32 (str "alice"); h32 (str "rh")].
Definition qshown : list attribute := [{| at_type := BytesAttr; at_value := VBytes (str "OU") |}; hidden_attr; hidden_attr].
Definition qkey (k : res (key yU) * disk) : res (key yU) := fst k.
Definition qrun (st : SignatureType) (vt : VerificationType) : res verdict :=
  let* isk := qkey (KeyGen qKS ycsp xdisk (qdraw 0) (Some (GIssuer true qnames))) in
  let* ipk := key_public yX yM isk in
  let* usk := qkey (KeyGen qKS ycsp xdisk (qdraw 1) (Some (GUser true))) in
  let* nym := qkey (KeyDeriv qKS ycsp xdisk (qdraw 2) (Some usk) (Some (DNym true (Some ipk)))) in
  let* rsk := qkey (KeyGen qKS ycsp xdisk (qdraw 3) (Some (GRevocation true))) in
  let* rpk := key_public yX yM rsk in
  let* '(req, o) := csp_Sign ycsp (qdraw 4) (Some usk) [] (Some (SBlind (Some ipk) [Byte.x07] [])) in
  let* blinding := match o with Some (SBlind _ _ b) => Ok b | _ => Err end in
  let* '(out, _) := csp_Sign ycsp (qdraw 5) (Some isk) req (Some (SCred qattrs None)) in
  let* cred := arUnblind toy32 xa_ccred out blinding in
  let* '(cri, _) := csp_Sign ycsp (qdraw 6) (Some rsk) [] (Some (SCri 5 0 [])) in
  let* '(sig, _) := csp_Sign ycsp (qdraw 7) (Some usk) (str "msg") (Some (SSigner (signing nym ipk cred qshown 2 1 cri 5 st))) in
  Ok (csp_Verify ycsp (Some ipk) sig (str "msg") (Some (SSigner (verifying qshown 2 1 (Some rpk) 5 vt None)))).
Definition qkeys : option (AIssuerSecretKey toy32) := match arNewKey hg32 h32 (fun b => b) qnames (ad_seed (qdraw 0)) with Ok k => Some k | _ => None end.
(** what the theorem asks of the issuer's bases and the signer's draws, as computations *)
Definition qusable : bool :=
  match qkeys with
  | Some k =>
      let pk := ip_pk (is_pub k) in
      let g0 := gen0 hg32 pk 4 in let gs := BbsSpec.gens hg32 pk 4 in
      let d := (bbs_base g0 gs (zadd (ad_zr (qdraw 5) 1) (ad_zr (qdraw 4) 0)) (ad_zr (qdraw 1) 0 :: qvals) ⊗ pr_r1 (rn_pok xa_R)) ⊖ (g0 ⊗ pr_r2 (rn_pok xa_R)) in
      negb (geqb d (base_at hg32 pk 3 2)) && negb (geqb d (base_at hg32 pk 3 3))
      && negb (geqb (base_at hg32 pk 3 2) gzero) && negb (geqb (base_at hg32 pk 3 3) gzero)
      && forallb (fun i => forallb (fun j => (i =? j) || negb (geqb (nth i (g0 :: gs) gzero) (nth j (g0 :: gs) gzero))) (seq 0 5)) (seq 0 5)
      && negb (zeqb (zadd (is_sk k) (ad_zr (qdraw 5) 0)) z0)
  | None => false
  end.

Example C67_aries_example :
  bls_sizes toy32 /\ codec_ok canon_acred xa_ccred /\ codec_ok canon_asig xa_csig /\ codec_ok (fun _ => True) xa_cnsig /\ codec_ok canon_acri xa_ccri /\
  nothing_is no_acredential xa_ccred /\ nothing_is no_asignature xa_csig /\ nothing_is no_anymsig xa_cnsig /\ nothing_is no_acri xa_ccri /\
  (forall (rk : ec_sk xEC) d, exists sg, ec_sign rk d = Some sg /\ ec_verify (ee_public xEE rk) d sg = true) /\
  New yX yM false true = Ok ycsp /\ qattrs <> [] /\ length qattrs = length qnames /\ Forall2 (attr_states h32) qattrs qvals /\ int64 5 /\
  length (ad_seed (qdraw 0)) = 32 /\ ad_esk (qdraw 3) = Some (str "k" : ec_sk xEC) /\
  shows qshown qattrs /\ pr_r1 (rn_pok (ad_sig (qdraw 7))) <> z0 /\ qusable = true /\
  Forall (fun p => qrun (fst p) (snd p) = Ok accepted)
    [(Standard, ExpectStandard); (Standard, Basic); (EidNym, ExpectEidNym); (EidNymRhNym, ExpectEidNymRhNym); (EidNymRhNym, BestEffort);
     (Smartcard, ExpectSmartcard); (SmartcardNoNyms, ExpectSmartcardNoNyms)] /\
  qrun EidNym ExpectEidNymRhNym = Ok rejected.
Proof.
  split; [exact toy32_sizes|]. split; [exact xa_ccred_ok|]. split; [exact xa_csig_ok|]. split; [intros x _; apply xa_cnsig_ok|]. split; [intros x _; apply (tcodec_rt s_acri_ok)|].
  split; [intros x D; discriminate D|]. split; [intros x D; discriminate D|]. split; [intros x D; discriminate D|]. split; [intros x D; discriminate D|].
  split; [intros rk d; eexists; split; [reflexivity|apply bytes_eqb_eq; reflexivity]|]. split; [exact ycsp_new|].
  split; [discriminate|]. split; [reflexivity|]. split; [repeat constructor|]. split; [unfold int64; lia|].
  split; [reflexivity|]. split; [reflexivity|]. split; [repeat constructor; first [left; reflexivity|right; reflexivity]|].
  split; [apply zp_ne; vm_compute; reflexivity|]. split; [vm_compute; reflexivity|].
  split; [repeat (constructor; [vm_compute; reflexivity|]); constructor|vm_compute; reflexivity].
Qed.

(** ** C42 through the API *)
(** KeyImport of an issuer public key with a request for bases succeeds exactly for request 1 and pairwise distinct indices in
    range (Issuer.Bases allows -1), and then leaves in the options the bases at the positions of the request. *)
Theorem C42_import : forall C (OK : CurveOk C) (HG : bytes -> G1 C) (H : hasher C) hkdf c_cred c_sig c_nsig c_cri EC (EE : ecenv EC) sha256 (T : translator C) e c S (KS : keystore _ S) s,
  bls_sizes C ->
  New (aries_scheme HG H hkdf c_cred c_sig c_nsig c_cri EE sha256) (aries_math T EE sha256) false e = Ok c ->
  forall (pk : G2 C) (names : list bytes) (req rh eid sk : Z) b0 key o,
  (Z.of_nat (length names + 1) <= 4294967295)%Z -> req <> 0%Z ->
  let n := length names in
  KeyImport KS c s (RBytes (g2_comp C pk)) (Some (IIssuerPk true names req rh eid sk b0)) = (IOk (key, o), s) <->
  (req = 1 /\ rh <> eid /\ eid <> sk /\ rh <> sk /\ -1 <= rh < Z.of_nat n /\ -1 <= eid < Z.of_nat n /\ 0 <= sk < Z.of_nat n)%Z /\
  key = KIssuerPublic (Some (Some (issuer_key HG pk n)) : u_ipk (ariesU C EC)) /\
  o = IIssuerPk true names req rh eid sk
        (Some ({| bm_nym := (gen0 HG pk (n + 1), base_at HG pk n (Z.to_nat sk));
                  bm_eid := (gen0 HG pk (n + 1), base_at HG pk n (Z.to_nat (eid + 1)));
                  bm_rh := (gen0 HG pk (n + 1), base_at HG pk n (Z.to_nat (rh + 1))) |} : u_bases (ariesU C EC))).
Proof.
  intros C OK HG H hkdf c_cred c_sig c_nsig c_cri EC EE sha256 T e c S KS s BS N pk names req rh eid sk b0 key o Ln NZ n.
  destruct (@C32_issuer_key C OK HG H hkdf z0 names [] BS Ln) as (_ & _ & K). specialize (K pk). fold n in K.
  assert (NE : g2_comp C pk <> []) by exact (@g2c_pos C OK _). cbn [arPublicKeyBytes issuer_key ip_pk] in K. change (arPublicKeyBytes (issuer_key HG pk n)) with (g2_comp C pk) in K.
  pose proof (fun bm => @bases_iff C HG BS pk n req rh eid sk bm) as B.
  destruct (new_tables N) as (_ & _ & G & _). clear N. unfold KeyImport. cbn [itype]. rewrite G. cbn [wired_csp imps]. unfold h_IssuerPublicKeyImporter.
  destruct (g2_comp C pk) as [|x raw]; [contradiction|]. cbn [raw_bytes ibind aries_scheme s_issuerPkFromBytes s_bases]. rewrite K. cbn [bind plain ibind].
  replace (req =? 0)%Z with false by lia. set (R := arBases (Some (Some (issuer_key HG pk n))) req rh eid sk) in *.
  destruct R as [bm| |] eqn:E; cbn [plain ibind].
  - pose proof (proj1 (B bm) eq_refl) as (Q1 & Q2 & Q3 & Q4 & Q5 & Q6 & Q7 & Q8). cbn [i_ephemeral persist fst]. split.
    + intro F. injection F as <- <-. split; [tauto|]. split; [reflexivity|]. rewrite <- Q8. reflexivity.
    + intros (_ & -> & ->). rewrite <- Q8. reflexivity.
  - split; [discriminate|]. intros ((Q1 & Q2 & Q3 & Q4 & Q5 & Q6 & Q7) & _). pose proof (proj2 (B _) (conj Q1 (conj Q2 (conj Q3 (conj Q4 (conj Q5 (conj Q6 (conj Q7 eq_refl)))))))) as F. discriminate F.
  - split; [discriminate|]. intros ((Q1 & Q2 & Q3 & Q4 & Q5 & Q6 & Q7) & _). pose proof (proj2 (B _) (conj Q1 (conj Q2 (conj Q3 (conj Q4 (conj Q5 (conj Q6 (conj Q7 eq_refl)))))))) as F. discriminate F.
Qed.
Print Assumptions C42_import.

Example C42_import_example :
  map (fun p => match fst (KeyImport qKS ycsp xdisk (RBytes (g2_comp toy32 xa_pk)) (Some (IIssuerPk true qnames 1 (fst p) (snd p) 0 None))) with
                | IOk (_, IIssuerPk _ _ _ _ _ _ (Some b)) => Some (zv (snd (bm_eid b)) =? zv (base_at hg32 xa_pk 3 2), zv (snd (bm_rh b)) =? zv (base_at hg32 xa_pk 3 3))%Z
                | _ => None end) [(2, 1); (1, 2); (1, 1); (3, 1)]%Z = [Some (true, true); Some (false, false); None; None].
Proof. vm_compute. reflexivity. Qed.
