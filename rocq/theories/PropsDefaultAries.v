(** * Which default identities an MSP over the aries scheme accepts (C66, second part) *)
From Verif Require Import Base Curve Algebra Spec Bbs BbsSpec BbsFacts BbsProof BbsComplete Aries AriesSpec AriesIssue AriesNym AriesVerify AriesSign AriesSignPanic
  Dlog DlogSpec Bridge BridgeFacts Translator TranslatorFacts PropsAries PropsUsable PropsBridge Csp CspInst CspSpec CspFacts PropsCsp RunSpec RunFacts Msp MspSpec MspFacts PropsMsp Idemixgen GenSpec GenFacts GenDlog
  Toy ToyBbs ToyCodec ToyAries ToyCsp ToyMsp PropsGen PropsMspAries PropsMspPanic Proto ProtoFacts PropsProto ToyDlog PropsDefault.
Unset Strict Implicit.

(** After every successful Setup with a signer whose credential says that the user secret is the first message, and with a
    first random scalar that is not zero, the default identity is accepted and its signatures verify; nothing is asked of the
    revocation information or of the way the credential is encoded.  Missing: Setup also accepts a credential with the secret
    at another position (C66_aries_refuted). *)
Theorem C66_aries_setup_partial : forall CD C (OK : CurveOk C) (HG : bytes -> G1 C) (H : hasher C) hkdf c_cred c_sig c_nsig c_cri EC (EE : ecenv EC) sha256 (T : translator C)
    (E : env (ariesU C EC)) h l m d1 d2 ty raw cf sg h' c,
  let X := aries_scheme HG H hkdf c_cred c_sig c_nsig c_cri EE sha256 in
  let M := aries_math T EE sha256 in
  bls_sizes C -> codec_ok canon_asig c_sig -> codec_ok (fun _ => True) c_nsig ->
  nothing_is no_asignature c_sig -> nothing_is no_anymsig c_nsig ->
  (forall b cri, dec c_cri b = Some cri -> int64 (acri_epoch cri)) ->
  (forall cid p, configured_curve (ev_aries E) (cf_curve cf) = Some cid -> ev_pack E cid = Some p -> p = (X, M)) -> nth_error h l = Some m ->
  Setup CD E h l d1 d2 (Some (ty, raw)) = (Ok tt, h') ->
  dec (c_conf CD) raw = Some cf -> cf_signer cf = Some sg ->
  dec c_cred (sc_cred sg) = Some c -> ac_skpos c = 0%Z ->
  pr_r1 (rn_pok (ad_sig d2)) <> z0 ->
  exists m' s, nth_error h' l = Some m' /\ GetDefaultSigningIdentity m' = Ok s /\
    p_name m' = cf_name cf /\ ou_id (i_ou (g_identity s)) = sc_ou sg /\
    ro_role (i_role (g_identity s)) = (if checkRole (sc_role sg) ADMIN then MSPRole_ADMIN else MSPRole_MEMBER) /\
    Validate h' l (IdSigning s) = Ok tt /\
    forall d msg, exists sig, id_Sign h' s d msg = Ok sig /\ id_Verify h' (g_identity s) msg sig = Ok tt.
Proof.
  intros CD C OK HG H hkdf c_cred c_sig c_nsig c_cri EC EE sha256 T E h l m d1 d2 ty raw cf sg h' c X M
    BS CS CN ZS ZN Hep PK L S D G Dc Sp NZ.
  unfold Setup in S. rewrite L in S. destruct (setup_at CD E l m d1 d2 (Some (ty, raw))) as [r0 m'] eqn:S0. injection S as -> <-.
  destruct (setup_ok_inv S0) as (ty' & raw' & cf' & cid & X0 & M0 & ipk & r & Q & D' & _ & CIq & P & _ & I & _ & _ & R & Nm & Sg).
  injection Q as <- <-. rewrite D in D'. injection D' as <-. rewrite G in Sg. rewrite curve_spec in CIq. pose proof (PK _ _ CIq P) as Q. injection Q as -> ->. fold X in R, Sg, I. fold M in R, Sg.
  destruct Sg as (sn & Hs & sk & nym & rr & md & _ & _ & K3 & _ & K5 & K6 & K7 & _ & K9 & K10 & _).
  assert (Lm : nth_error (put h l m') l = Some m') by exact (put_same m' L).
  change (s_issuerPkFromBytes X (cf_ipk cf) attribute_names) with (plain (let* k := arNewPublicKeyFromBytes HG (cf_ipk cf) attribute_names in Ok (Some (Some k) : u_ipk (ariesU C EC)))) in I.
  destruct (arNewPublicKeyFromBytes HG (cf_ipk cf) attribute_names) as [k| |] eqn:Ipk; cbn [bind plain] in I; [|discriminate I..]. injection I as <-.
  destruct (issuer_from_bytes OK (names := attribute_names) ltac:(cbn; lia) Ipk) as [pk ->]. change (length attribute_names) with 4 in *.
  set (role := if checkRole (sc_role sg) ADMIN then MSPRole_ADMIN else MSPRole_MEMBER) in *. cbn [ro_role] in K5.
  assert (K5' : arCredVerify H c_cred sk (Some (Some (issuer_key HG pk 4))) (sc_cred sg) (credential_attributes (sc_ou sg) role (sc_eid sg)) = Ok tt) by exact K5.
  assert (K3' : arMakeNym 0 sk (Some (Some (issuer_key HG pk 4))) (ad_zr d1 0) = Ok (nym, rr)) by exact K3.
  assert (K6' : arSign H c_cred c_sig c_cri (sc_cred sg) sk nym rr (Some (Some (issuer_key HG pk 4))) (claims (sc_ou sg) role) [] 3 2 (sc_cri sg) Standard None (ad_sig d2)
                = Ok (i_proof (g_identity sn), md)) by exact K6.
  (* the pseudonym *)
  assert (Hr : rr = ad_zr d1 0).
  { destruct (@C14_aries_nym C OK HG H c_nsig BS (fun x => CN x I) pk 4 0 sk (ad_zr d1 0) z0 [] (fun _ => z0) ltac:(lia)) as (Nym' & sig & F1 & _).
    pose proof (eq_trans (eq_sym K3') F1) as Q. injection Q as _ ->. reflexivity. }
  subst rr.
  (* the credential *)
  assert (Ty : Forall typed (credential_attributes (sc_ou sg) role (sc_eid sg))) by (repeat constructor; discriminate).
  assert (L4 : length (ac_attrs c) = 4).
  { pose proof (proj1 (@C43_credential_verification C OK HG H c_cred BS pk 4 sk (sc_cred sg) (credential_attributes (sc_ou sg) role (sc_eid sg)) eq_refl Ty) K5') as (c' & _ & _ & D' & _ & _ & _ & Ln & _).
    rewrite Dc in D'. injection D' as <-. destruct (Nat.eq_dec (length (ac_attrs c)) 4) as [Q|Q]; [exact Q|]. exfalso.
    assert (F : arSign H c_cred c_sig c_cri (sc_cred sg) sk nym (ad_zr d1 0) (Some (Some (issuer_key HG pk 4))) (claims (sc_ou sg) role) [] 3 2 (sc_cri sg) Standard None (ad_sig d2) = Panic); [|congruence].
    apply (proj2 (@C96_partial C OK HG H c_cred c_sig c_cri pk 4 (sc_cred sg) c sk nym (ad_zr d1 0) (credential_attributes (sc_ou sg) role (sc_eid sg)) (claims (sc_ou sg) role) [] 3 2 (sc_cri sg)
             Standard None (ad_sig d2) BS ltac:(lia) eq_refl ltac:(lia) ltac:(lia) eq_refl ltac:(discriminate) ltac:(intros ? F; discriminate F) ltac:(intros ? F; discriminate F) eq_refl Ty Dc K5')).
    split; [discriminate|]. split; [discriminate|]. split; [|left; lia].
    unfold arSign in K6'. cbn [sign_arg_check bind assert_ptr] in K6'. apply bind_ok in K6'. destruct K6' as [cri [F1 F]]. apply bind_ok in F. destruct F as [[] [F2 _]].
    destruct (dec c_cri (sc_cri sg)) as [x|]; [|discriminate F1]. injection F1 as ->. exists cri. split; [reflexivity|]. destruct (acri_alg cri =? 0)%Z eqn:Z; [lia|discriminate F2]. }
  pose proof (proj1 (@C43_credential_verification C OK HG H c_cred BS pk 4 sk (sc_cred sg) (credential_attributes (sc_ou sg) role (sc_eid sg)) eq_refl Ty) K5') as (c' & sig & k & D' & Ps & _ & _ & _ & Agr & _).
  rewrite Dc in D'. injection D' as <-. cbv zeta in Agr.
  assert (F4 : firstn 4 (map (zr_of_bytes C) (ac_attrs c)) = map (zr_of_bytes C) (ac_attrs c)) by (rewrite <- L4, <- (map_length (zr_of_bytes C) (ac_attrs c)); apply firstn_all).
  rewrite F4 in Agr. apply agrees_hide in Agr.
  assert (Ver : forall v, aries_compatible Standard v = true -> forall m0, m0 = None \/ m0 = md ->
      arVerify H c_sig (Some (Some (issuer_key HG pk 4))) (i_proof (g_identity sn)) [] (claims (sc_ou sg) role) (Z.of_nat 3) (Z.of_nat 2) 0 v m0 = Ok tt).
  { apply (@C72_aries C OK HG H c_cred c_sig c_cri pk 4 (sc_cred sg) c sk nym (ad_zr d1 0) (claims (sc_ou sg) role) [] 3 2 (sc_cri sg) Standard None (ad_sig d2) _ md);
      try assumption; try lia; try reflexivity; try discriminate.
    - apply Hep.
    - intros sg' _. split; [exact NZ|]. split; discriminate. }
  exists m', sn. split; [exact Lm|]. split; [unfold GetDefaultSigningIdentity; rewrite Hs; reflexivity|]. split; [exact Nm|].
  split; [rewrite K7; reflexivity|]. split; [rewrite K7; reflexivity|].
  assert (IM : i_msp (g_identity sn) = l) by (rewrite K7; reflexivity). split.
  - assert (NE : i_proof (g_identity sn) <> []) by exact (@asig_nonempty _ _ _ _ _ _ _ _ _ _ _ _ ZS (Ver Basic eq_refl None (or_introl eq_refl))).
    assert (Q : Validate (put h l m') l (IdPlain (g_identity sn)) = Ok tt); [|exact Q].
    apply (C51_partial Lm (eq_trans (f_equal _ IM) Lm) R). split; [reflexivity|]. split; [exact NE|].
    replace (ou_id (i_ou (g_identity sn))) with (sc_ou sg) by (rewrite K7; reflexivity). replace (ro_role (i_role (g_identity sn))) with role by (rewrite K7; reflexivity).
    exact (Ver Basic eq_refl None (or_introl eq_refl)).
  - intros d msg.
    destruct (@C14_aries_nym C OK HG H c_nsig BS (fun x => CN x I) pk 4 0 sk (ad_zr d1 0) (ad_zr d 0) msg (fun i => ad_zr d (S i)) ltac:(lia)) as (Nym' & sg' & F1 & _ & F2 & F3).
    pose proof (eq_trans (eq_sym K3') F1) as Q. injection Q as ->.
    exists sg'. assert (Li : nth_error (put h l m') (i_msp (g_identity sn)) = Some m') by (rewrite IM; exact Lm). split.
    + rewrite (id_sign_ready d msg Li R K9 K10). exact F2.
    + pose proof (@anymsig_nonempty _ _ _ _ _ _ _ _ ZN F3) as NE. assert (Hn : i_nym (g_identity sn) = KNymPublic (Nym' : u_g1 (ariesU C EC))) by (rewrite K7; reflexivity). rewrite (id_verify_ready msg sg' Li R Hn). clear R.
      destruct (length sg' =? 0) eqn:Z; [apply Nat.eqb_eq, length_zero_iff_nil in Z; contradiction|]. exact F3.
Qed.
Print Assumptions C66_aries_setup_partial.

(** The same user's credential, signed by the same issuer with the user secret as the second message instead of the first. *)
Definition v_second (c : ACredential) : ACredential :=
  match arNewKey hg32 h32 (fun b => b) attribute_names wseed, parseSignature toy32 (ac_cred c) with
  | Ok key, Ok sig =>
      let pk := ip_pk (is_pub key) in
      let ms := with_secret 1 (aa_sk wcadraw) (map (zr_of_bytes toy32) (ac_attrs c)) in
      let A := bbs_base (gen0 hg32 pk 5) (BbsSpec.gens hg32 pk 5) (si_s sig) ms ⊗ zinv (zadd (is_sk key) (si_e sig)) in
      {| ac_cred := from_ok [] (signatureBytes {| si_a := A; si_e := si_e sig; si_s := si_s sig |}); ac_attrs := ac_attrs c; ac_skpos := 1 |}
  | _, _ => c
  end.
(** the outcomes of Setup and of Validate on the default identity *)
Definition v_run (f : ACredential -> ACredential) : res (res unit * res unit) :=
  let* raw := opt_err (wedited f) in
  let '(r, h) := Setup mCD wE [w0] 0 wdraw wdraw (Some (IDEMIX_ARIES, raw)) in
  let* m := deref (nth_error h 0) in
  let* s := GetDefaultSigningIdentity m in
  Ok (r, Validate h 0 (IdSigning s)).
Theorem C66_aries_refuted : v_run v_second = Ok (Ok tt, Err) /\ v_run (fun c => c) = Ok (Ok tt, Ok tt).
Proof. split; vm_compute; reflexivity. Qed.
Print Assumptions C66_aries_refuted.
