(** * Joint signatures with a smartcard, through the CSP API (C90)

    What /repo/bccsp/smartcard_test.go (TestSmartcardCSP) runs on one card: the card signs under its pseudonym, the host
    turns the pseudonym into a presentation of the credential, without knowing the user's secret key.
    In the test the host passes no user key to the bridge; here it passes any key. *)
From Verif Require Import Base Curve Algebra Spec Bbs BbsSpec BbsFacts BbsProof Aries AriesSpec AriesIssue AriesVerify AriesSign AriesNym AriesCard CardRun ToyBbs ToyAries Dlog Bridge BridgeFacts
  Translator Toy ToyCodec PropsBridge PropsAries Csp CspInst CspSpec CspFacts PropsCsp ToyCsp RunSpec RunFacts.
Unset Strict Implicit.

(** the card works with the first base, the base of the secret key and the base of the third attribute *)
Definition card_of (C : Curve) (HG : bytes -> G1 C) (pk : G2 C) (n : nat) (sc : Card C) (sk eid : Zr C) : Prop :=
  sc_h0 sc = gen0 HG pk (n + 1) /\ sc_h1 sc = base_at HG pk n 0 /\ sc_h2 sc = base_at HG pk n 3 /\ sc_uid sc = sk /\ sc_eid sc = eid.

Section Opts.
  Variable U : universe.
  (** the host asks the card for a signature *)
  Definition card_signs (ipk : key U) (card : u_card U) : nym_opts U :=
    {| no_nym := None; no_ipk := Some ipk; no_smartcard := true; no_card := Some card; no_nymeid := None; no_nymg1 := None; no_rnym := None; no_sk := 0 |}.
  (** the verifier knows the pseudonym of the enrollment id *)
  Definition card_checked (ipk : key U) (nymEid : u_g1 U) : nym_opts U :=
    {| no_nym := None; no_ipk := Some ipk; no_smartcard := true; no_card := None; no_nymeid := Some nymEid; no_nymg1 := None; no_rnym := None; no_sk := 0 |}.
  (** the host presents the credential under the card's pseudonym *)
  Definition presenting (nym ipk : key U) (cred : bytes) (shown : list attribute) (rh eid : Z) (cri : bytes) (st : SignatureType) (meta : option (u_meta U)) : signer_opts U :=
    {| so_nym := Some nym; so_ipk := Some ipk; so_cred := cred; so_attrs := shown; so_rh := rh; so_eid := eid; so_sk := 0; so_cri := cri;
       so_epoch := 0; so_revpk := None; so_sigtype := st; so_meta := meta; so_vertype := BestEffort |}.
End Opts.

(** what the host knows of the card's pseudonym of the enrollment id *)
Definition card_audit (C : Curve) (sc : Card C) : Metadata C :=
  let '(r, nym) := getNymEid sc in
  {| md_eid := g1_bytes C nym; md_eid_data := Some {| au_nym := Some nym; au_rand := Some r; au_attr := Some (sc_eid sc) |}; md_rh := []; md_rh_data := None |}.

(** The card's signature on [msg] is accepted for its enrollment-id pseudonym, and Sign hands back a pseudonym of the user
    with its opening.  A host with any user key presents the credential under it, for [digest]; the presentation is
    accepted, without metadata, and with metadata that names an enrollment-id pseudonym exactly if that is the card's. *)
Theorem C90_joint : forall C (OK : CurveOk C) (HG : bytes -> G1 C) (H : hasher C) hkdf c_cred c_sig c_nsig c_cri EC (EE : ecenv EC) sha256 (T : translator C) e c,
  let X := aries_scheme HG H hkdf c_cred c_sig c_nsig c_cri EE sha256 in
  let M := aries_math T EE sha256 in
  bls_sizes C -> codec_ok canon_asig c_sig -> nothing_is no_asignature c_sig ->
  New X M false e = Ok c ->
  forall (pk : G2 C) (n : nat) (sc : Card C) (A : G1 C) (ce s sk : Zr C) (vals : list (Zr C)) (shown : list attribute) (rh : nat) (cri cred : bytes)
    (d1 d2 : adraw C EC) (msg digest : bytes) (u1 u2 : u_zr (ariesU C EC)) (x1 x2 : bool),
  card_of HG pk n sc sk (nth 2 vals z0) ->
  (* the card draws 16 bytes; the credential can be presented *)
  length (ad_seed d1) = 16 ->
  presentable HG H c_cred c_cri pk n A ce s sk vals shown 2 rh Smartcard cri cred (Some (card_audit sc)) (prf C (sc_k1 sc) (ad_seed d1)) (ad_sig d2) ->
  let ipk := KIssuerPublic (Some (Some (issuer_key HG pk n)) : u_ipk (ariesU C EC)) in
  let nymEid := snd (getNymEid sc) in
  exists sig1 no (Nym : G1 C) (r : Zr C),
    csp_Sign c d1 (Some (KUserSecret u1 x1)) msg (Some (SNym (card_signs ipk (Some (Some sc) : u_card (ariesU C EC))))) = Ok (sig1, Some (SNym no)) /\
    no_nymg1 no = Some (Nym : u_g1 (ariesU C EC)) /\ no_rnym no = Some (r : u_zr (ariesU C EC)) /\
    Nym = (gen0 HG pk (n + 1) ⊗ r) ⊕ (base_at HG pk n 0 ⊗ sk) /\
    (forall key, csp_Verify c (Some (KNymPublic key)) sig1 msg (Some (SNym (card_checked ipk (nymEid : u_g1 (ariesU C EC))))) = accepted) /\
    exists sig2 so,
      csp_Sign c d2 (Some (KUserSecret u2 x2)) digest
        (Some (SSigner (presenting (newNymSecretKey M (r : u_zr (ariesU C EC)) (Nym : u_g1 (ariesU C EC)) e) ipk cred shown (Z.of_nat rh) 2 cri Smartcard
                          (Some (card_audit sc : u_meta (ariesU C EC)))))) = Ok (sig2, Some (SSigner so)) /\
      (forall epoch, csp_Verify c (Some ipk) sig2 digest (Some (SSigner (verifying shown (Z.of_nat rh) 2 None epoch ExpectSmartcard None))) = accepted) /\
      (forall epoch (m : Metadata C), md_eid_data m = None ->
        (csp_Verify c (Some ipk) sig2 digest (Some (SSigner (verifying shown (Z.of_nat rh) 2 None epoch ExpectSmartcard (Some (m : u_meta (ariesU C EC)))))) = accepted
         <-> md_eid m = [] \/ g1_of_bytes C (md_eid m) = Some nymEid)).
Proof.
  intros C OK HG H hkdf c_cred c_sig c_nsig c_cri EC EE sha256 T e c X M BS CS ZS N pk n sc A ce s sk vals shown rh cri cred d1 d2 msg digest u1 u2 x1 x2
    (E0 & E1 & E2 & E3 & E4) L P ipk nymEid.
  pose proof P as (Kn & Bn & Lv & Le & Lr & _ & Dc & _).
  destruct (scNymSign_ok OK sha256 sc msg (ad_zr d1 0) (ad_zr d1 1) L) as (sig1 & _ & _ & V1 & B1).
  set (r := prf C (sc_k1 sc) (ad_seed d1)) in *. rewrite E0, E1, E3 in B1. set (Nym := (gen0 HG pk (n + 1) ⊗ r) ⊕ (base_at HG pk n 0 ⊗ sk)) in *.
  specialize (V1 []). rewrite app_nil_r in V1.
  (* the presentation *)
  assert (Q : exists sig2 m0 d0, arSign H c_cred c_sig c_cri cred u2 Nym r (Some (Some (issuer_key HG pk n))) shown digest (Z.of_nat rh) (Z.of_nat 2) cri Smartcard (Some (card_audit sc)) (ad_sig d2) = Ok (sig2, Some m0) /\
    md_eid_data m0 = Some d0 /\ au_nym d0 = Some nymEid /\
    forall m, m = None \/ m = Some m0 -> arVerify H c_sig (Some (Some (issuer_key HG pk n))) sig2 digest shown (Z.of_nat rh) (Z.of_nat 2) 0 ExpectSmartcard m = Ok tt).
  { destruct (C34_sign_verifies OK BS CS digest P) as (Nym' & sig2 & meta' & MN & S2 & V2).
    rewrite (makeNym_ok OK HG BS pk sk r (Nat.le_0_l n) : arMakeNym 0 _ _ _ = _) in MN. injection MN as <-. fold Nym in S2.
    destruct P as (_ & _ & _ & _ & _ & V & _ & Agr & (cr & Dr & Alg & Ep) & He & Hr & Ae & Ar & ND & (Y1 & Y2 & Y3)). cbv zeta in Y2, Y3. cbn [fst snd] in Y1, Y2, Y3.
    pose proof (@sign_ok C OK HG H BS c_cred c_sig c_cri pk n A ce s sk vals r shown Smartcard (ad_sig d2) Lv Agr V 2 rh 3 (S rh) digest cr (Some (card_audit sc)) Bn Le Lr He Hr ND Y2 Y3 Ae Ar cred cri Kn eq_refl eq_refl Dr Alg Dc) as S3.
    unfold h_Nym in S3. fold Nym in S3. rewrite S3 in S2. apply bind_ok in S2. destruct S2 as [b [Eb S2]]. injection S2 as <- <-.
    rewrite Eb in S3. cbn [bind] in S3. do 3 eexists. split; [|split; [|split]].
    - rewrite (sign_any_sk OK H c_sig c_cri u2 sk Nym r _ shown digest rh 2 cri _ _ (eq_refl : is_smartcard Smartcard = true) Dc). exact S3.
    - reflexivity.
    - cbn [audit_of au_nym]. f_equal. unfold h_eid, h_comm. cbn [cm_comm nth]. unfold h_re, nymEid, card_audit, getNymEid. cbn [md_eid_audit md_eid_data chosen_rand au_rand snd fst].
      unfold gmul2. rewrite E0, E2, E4. reflexivity.
    - exact (V2 ExpectSmartcard eq_refl). }
  destruct Q as (sig2 & m0 & d0 & S2 & Ed0 & Et & V2).
  assert (NE1 : sig1 <> []) by (intros ->; discriminate V1).
  assert (NE2 : sig2 <> []).
  { intros ->. pose proof (V2 None (or_introl eq_refl)) as V. unfold arVerify, arVerify_first in V. cbn [assert_ptr bind] in V.
    destruct (dec c_sig []) as [x|] eqn:D; [|discriminate V]. rewrite (ZS _ D) in V. discriminate V. }
  assert (B : scBackendVerify sha256 (Some (Some (issuer_key HG pk n))) nymEid sig1 msg = Ok tt).
  { unfold scBackendVerify. cbn [issuer_key ip_key pg_h pg_h0]. change 0%Z with (Z.of_nat 0). change 3%Z with (Z.of_nat 3).
    rewrite !gens_at by (clear - Le; lia). cbn [bind]. rewrite <- E0, <- E1, <- E2. exact V1. }
  assert (VV : forall epoch (m : option (Metadata C)),
    csp_Verify c (Some ipk) sig2 digest (Some (SSigner (verifying shown (Z.of_nat rh) 2 None epoch ExpectSmartcard (m : option (u_meta (ariesU C EC)))))) = accepted <->
    arVerify H c_sig (Some (Some (issuer_key HG pk n))) sig2 digest shown (Z.of_nat rh) (Z.of_nat 2) 0 ExpectSmartcard m = Ok tt).
  { intros epoch m. apply (call_verify_iff N NE2). reflexivity. }
  set (no := {| no_nym := None; no_ipk := Some ipk; no_smartcard := true; no_card := Some (Some (Some sc) : u_card (ariesU C EC)); no_nymeid := None;
                no_nymg1 := Some (Nym : u_g1 (ariesU C EC)); no_rnym := Some (r : u_zr (ariesU C EC)); no_sk := 0%Z |} : nym_opts (ariesU C EC)).
  exists sig1, no, Nym, r. split; [|split; [reflexivity|split; [reflexivity|split; [reflexivity|split]]]].
  - destruct (new_tables N) as (_ & _ & _ & G & _). clear N. unfold csp_Sign. cbn [opt_err bind ktype]. rewrite G.
    cbn [wired_csp sigs h_SignerMultiplexer h_NymSigner opt_err bind card_signs no_ipk no_smartcard no_card]. unfold X, ipk. cbn [aries_scheme s_card cs_sign opt_err bind].
    rewrite B1. reflexivity.
  - intro key. apply (call_verify N NE1). unfold deciding. cbn [card_checked no_ipk no_smartcard no_nymeid]. unfold ipk, X. cbn [aries_scheme s_card cs_verify]. rewrite B. reflexivity.
  - edestruct (fun so nsk npk y => @call_sign _ X M e c N d2 u2 x2 so (Some (Some (issuer_key HG pk n)) : u_ipk (ariesU C EC)) (m_sha256 M (m_zrBytes M (r : u_zr (ariesU C EC)))) nsk npk y digest sig2 (Some (m0 : u_meta (ariesU C EC)))) as (so & Q & _).
    4: { exists sig2, so. split; [exact Q|]. split.
      - intro epoch. apply VV. exact (V2 None (or_introl eq_refl)).
      - intros epoch m Em. rewrite VV. exact (verify_raw OK BS Le Lr eq_refl (V2 _ (or_intror eq_refl)) Ed0 Et Em). }
    + reflexivity.
    + reflexivity.
    + exact S2.
Qed.
Print Assumptions C90_joint.

(** ** A concrete case *)
Definition kc_card : Card toy32 := {| sc_h0 := gen0 hg32 xa_pk 4; sc_h1 := base_at hg32 xa_pk 3 0; sc_h2 := base_at hg32 xa_pk 3 3;
  sc_uid := xa_sk; sc_eid := zr_of_Z toy32 42; sc_k0 := fun b => b; sc_k1 := fun b => rev b; sc_ctr := 32767%Z |}.
Definition kc_draw : adraw toy32 xEC := {| ad_seed := zeros 16; ad_zr := fun i => zr_of_Z toy32 (Z.of_nat i + 2); ad_sig := xa_R; ad_esk := None |}.

Example C90_example : bls_sizes toy32 /\ codec_ok canon_asig xa_csig /\ nothing_is no_asignature xa_csig /\ New yX yM false true = Ok ycsp /\
  card_of hg32 xa_pk 3 kc_card xa_sk (nth 2 xa_vals z0) /\ length (ad_seed kc_draw) = 16 /\
  presentable hg32 h32 xa_ccred xa_ccri xa_pk 3 xa_A xa_e xa_s xa_sk xa_vals xa_attrs 2 1 Smartcard xa_crib xa_credb (Some (card_audit kc_card))
    (prf toy32 (sc_k1 kc_card) (ad_seed kc_draw)) (ad_sig kc_draw).
Proof.
  split; [exact toy32_sizes|]. split; [exact xa_csig_ok|]. split; [intros x D; discriminate D|]. split; [exact ycsp_new|].
  split; [repeat split|]. split; [reflexivity|].
  split; [discriminate|]. split; [lia|]. split; [reflexivity|]. split; [lia|]. split; [lia|]. split; [exact xa_valid|]. split; [exact xa_dec_cred|].
  split; [exact xa_agrees|].
  split; [exists xa_cri; split; [exact xa_dec_cri|]; split; [reflexivity|unfold int64; cbn [acri_epoch xa_cri]; lia]|].
  split; [intros _; eexists; split; reflexivity|]. split; [intros _; eexists; split; reflexivity|].
  split; [intros _; right; eexists; reflexivity|]. split; [intros F; discriminate F|]. split; [intros _; exact xa_nodup|].
  destruct (xa_usable EidNymRhNym) as (U1 & U2 & U3). split; [exact U1|]. split; [intros _; exact (U3 eq_refl)|intros F; discriminate F].
Qed.

(** and the run: the verdicts on the card's signature, then on the presentation without metadata, with the card's
    enrollment-id pseudonym and with another one; the host's user key is not the card's *)
Definition kc_key : u_zr yU := zr_of_Z toy32 5.
Definition kc_ipk : key yU := KIssuerPublic (xa_key : u_ipk yU).
Definition kc_meta (P : G1 toy32) : u_meta yU := {| md_eid := g1_bytes toy32 P; md_eid_data := None; md_rh := []; md_rh_data := None |}.
Definition kc_run : res (list verdict) :=
  let* '(sig1, o) := csp_Sign ycsp kc_draw (Some (KUserSecret kc_key true)) (str "msg") (Some (SNym (card_signs kc_ipk (Some (Some kc_card) : u_card yU)))) in
  let* '(nym, r) := match o with Some (SNym no) => match no_nymg1 no, no_rnym no with Some a, Some b => Ok (a, b) | _, _ => Err end | _ => Err end in
  let* '(sig2, _) := csp_Sign ycsp kc_draw (Some (KUserSecret kc_key true)) (str "digest")
    (Some (SSigner (presenting (newNymSecretKey yM r nym true) kc_ipk xa_credb xa_attrs 1 2 xa_crib Smartcard (Some (card_audit kc_card : u_meta yU))))) in
  let check m := csp_Verify ycsp (Some kc_ipk) sig2 (str "digest") (Some (SSigner (verifying xa_attrs 1 2 None 0 ExpectSmartcard m))) in
  Ok [csp_Verify ycsp (Some (KNymPublic (gzero : u_g1 yU))) sig1 (str "msg") (Some (SNym (card_checked kc_ipk (snd (getNymEid kc_card) : u_g1 yU))));
      check None; check (Some (kc_meta (snd (getNymEid kc_card)))); check (Some (kc_meta (f7 : G1 toy32)))].
Example C90_run_example : kc_run = Ok [accepted; accepted; accepted; rejected].
Proof. vm_compute. reflexivity. Qed.
