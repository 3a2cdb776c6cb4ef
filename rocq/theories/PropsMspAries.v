(** The MSP over the aries scheme: the default identity Setup builds validates, and its signatures
    verify; idemixgen's aries commands write a directory Setup accepts. *)
From Verif Require Import Base Curve Algebra Spec Bbs BbsSpec BbsFacts BbsProof BbsComplete Aries AriesSpec AriesIssue AriesNym AriesVerify AriesSign
  Dlog DlogSpec Bridge BridgeFacts Translator TranslatorFacts PropsAries PropsBridge Csp CspInst CspSpec CspFacts PropsCsp RunSpec RunFacts Msp MspSpec MspFacts PropsMsp Idemixgen GenSpec GenFacts GenDlog
  Toy ToyBbs ToyCodec ToyAries ToyCsp ToyMsp PropsGen.
Unset Strict Implicit.

Lemma issuer_from_bytes C (OK : CurveOk C) (HG : bytes -> G1 C) raw names k :
  (Z.of_nat (length names + 1) <= 4294967295)%Z ->
  arNewPublicKeyFromBytes HG raw names = Ok k -> exists pk, k = issuer_key HG pk (length names).
Proof.
  intros B E. unfold arNewPublicKeyFromBytes in E. apply bind_ok in E. destruct E as [pk [E1 E]]. exists pk.
  rewrite (issuer_key_from OK HG pk B) in E. injection E as <-. reflexivity.
Qed.

Lemma agrees_hide C (H : hasher C) ou role eid vals :
  Forall2 (attr_agrees H) (credential_attributes ou role eid) vals -> Forall2 (attr_agrees H) (claims ou role) vals.
Proof.
  intros F. inversion F as [|a v l1 l2 A1 F1]; subst. inversion F1 as [|a2 v2 l3 l4 A2 F2]; subst. inversion F2 as [|a3 v3 l5 l6 A3 F3]; subst.
  constructor; [exact A1|]. constructor; [exact A2|]. constructor; [left; reflexivity|exact F3].
Qed.

(** what a credential that passed verification gives a presentation needs *)
Lemma setup_presentable C (OK : CurveOk C) (HG : bytes -> G1 C) (H : hasher C) c_cred c_cri EC sha256 pk sk (A : G1 C) e s vals ou role eid credBytes criRaw
    (rk : ec_sk EC) handles epoch (wsk RNym : Zr C) (R : ASigRand C) :
  bls_sizes C -> codec_ok canon_acri c_cri -> int64 epoch ->
  arCredVerify H c_cred sk (Some (Some (issuer_key HG pk 4))) credBytes (credential_attributes ou role eid) = Ok tt ->
  dec c_cred credBytes = Some (credential_of A e s vals) -> length vals = 4 ->
  arRevSign (C := C) sha256 c_cri (Some rk) handles epoch 0 wsk = Ok criRaw -> pr_r1 (rn_pok R) <> z0 ->
  presentable HG H c_cred c_cri pk 4 A e s sk vals (claims ou role) 2 3 Standard criRaw credBytes None RNym R.
Proof.
  intros BS CR Hep V D L Rv NZ.
  assert (Ty : Forall typed (credential_attributes ou role eid)) by (repeat constructor; discriminate).
  apply (@C43_credential_verification C OK HG H c_cred BS pk 4 sk credBytes (credential_attributes ou role eid) eq_refl Ty) in V.
  destruct V as (c & sg & k & D' & Ps & Sp & Lk & Ln & Agr & Sig). rewrite D in D'. injection D' as <-.
  cbn [credential_of ac_cred ac_skpos ac_attrs] in *. assert (k = 0) by lia. subst k.
  pose proof (parse_sig_enc OK (proj1 BS) A e s) as P. unfold sig_enc in P. rewrite P in Ps. injection Ps as <-. cbn [si_a si_e si_s] in Sig.
  assert (Q : map (zr_of_bytes C) (map (zr_bytes C) vals) = vals).
  { rewrite map_map. rewrite <- (map_id vals) at 2. apply map_ext. intro x. apply (ok_zr_rt OK). }
  rewrite Q in Agr, Sig. assert (F4 : firstn 4 vals = vals) by (rewrite <- L; apply firstn_all). rewrite F4 in Agr, Sig. cbn [firstn skipn app] in Sig.
  split; [discriminate|]. split; [lia|]. split; [exact L|]. split; [lia|]. split; [lia|]. split; [exact Sig|]. split; [exact D|]. split; [exact (agrees_hide Agr)|].
  split.
  { unfold arRevSign in Rv. cbn [opt_err bind Z.eqb] in Rv. apply bind_ok in Rv. destruct Rv as [b [_ Rv]]. apply bind_ok in Rv. destruct Rv as [sb [_ Rv]].
    match type of Rv with opt_err (enc _ ?m) = _ => exists m; destruct (CR m) as (raw & E1 & E2); [split; [exact Hep|unfold int32; cbn; lia]|] end.
    rewrite E1 in Rv. injection Rv as <-. split; [exact E2|]. split; [reflexivity|exact Hep]. }
  do 5 (split; [discriminate|]). split; [exact NZ|]. split; discriminate.
Qed.

(** ** C66 for the aries scheme.  The revocation information must be that of some authority (its epoch an
    int64), the credential encoded as issuance encodes it (C32) and the proof's first random scalar not
    zero (probability 1/r).  The CSP refuses empty byte strings, but protobuf encodings of signatures are
    not empty. *)
Theorem C66_aries_partial : forall CD C (OK : CurveOk C) (HG : bytes -> G1 C) (H : hasher C) hkdf c_cred c_sig c_nsig c_cri EC (EE : ecenv EC) sha256 (T : translator C)
    (E : env (ariesU C EC)) h l m d1 d2 ty raw cf sg h' (A : G1 C) e s vals (rk : ec_sk EC) handles epoch wsk,
  let X := aries_scheme HG H hkdf c_cred c_sig c_nsig c_cri EE sha256 in
  let M := aries_math T EE sha256 in
  bls_sizes C -> codec_ok canon_asig c_sig -> codec_ok canon_acri c_cri -> int64 epoch -> codec_ok (fun _ => True) c_nsig ->
  nothing_is no_asignature c_sig -> nothing_is no_anymsig c_nsig ->
  (forall cid p, configured_curve (ev_aries E) (cf_curve cf) = Some cid -> ev_pack E cid = Some p -> p = (X, M)) -> nth_error h l = Some m ->
  Setup CD E h l d1 d2 (Some (ty, raw)) = (Ok tt, h') ->
  dec (c_conf CD) raw = Some cf -> cf_signer cf = Some sg ->
  arRevSign (C := C) sha256 c_cri (Some rk) handles epoch 0 wsk = Ok (sc_cri sg) ->
  dec c_cred (sc_cred sg) = Some (credential_of A e s vals) -> length vals = 4 ->
  pr_r1 (rn_pok (ad_sig d2)) <> z0 ->
  exists m' s, nth_error h' l = Some m' /\ GetDefaultSigningIdentity m' = Ok s /\
    p_name m' = cf_name cf /\ ou_id (i_ou (g_identity s)) = sc_ou sg /\
    ro_role (i_role (g_identity s)) = (if checkRole (sc_role sg) ADMIN then MSPRole_ADMIN else MSPRole_MEMBER) /\
    Validate h' l (IdSigning s) = Ok tt /\
    forall d msg, exists sig, id_Sign h' s d msg = Ok sig /\ id_Verify h' (g_identity s) msg sig = Ok tt.
Proof.
  intros CD C OK HG H hkdf c_cred c_sig c_nsig c_cri EC EE sha256 T E h l m d1 d2 ty raw cf sg h' A e s vals rk handles epoch wsk X M
    BS CS CC Hep CN ZS ZN PK L S D G Ecri Ecred L4 NZ.
  unfold Setup in S. rewrite L in S. destruct (setup_at CD E l m d1 d2 (Some (ty, raw))) as [r0 m'] eqn:S0. injection S as -> <-.
  destruct (setup_ok_inv S0) as (ty' & raw' & cf' & cid & X0 & M0 & ipk & r & Q & D' & _ & CIq & P & _ & I & _ & _ & R & Nm & Sg).
  injection Q as <- <-. rewrite D in D'. injection D' as <-. rewrite G in Sg. rewrite curve_spec in CIq. pose proof (PK _ _ CIq P) as Q. injection Q as -> ->. fold X in R, Sg, I. fold M in R, Sg.
  destruct Sg as (sn & Hs & sk & nym & rr & md & _ & _ & K3 & _ & K5 & K6 & K7 & _ & K9 & K10 & _).
  assert (Lm : nth_error (put h l m') l = Some m') by exact (put_same m' L).
  change (s_issuerPkFromBytes X (cf_ipk cf) attribute_names) with (plain (let* k := arNewPublicKeyFromBytes HG (cf_ipk cf) attribute_names in Ok (Some (Some k) : u_ipk (ariesU C EC)))) in I.
  destruct (arNewPublicKeyFromBytes HG (cf_ipk cf) attribute_names) as [k| |] eqn:Ipk; cbn [bind plain] in I; [|discriminate I..]. injection I as <-.
  destruct (issuer_from_bytes OK (names := attribute_names) ltac:(cbn; lia) Ipk) as [pk ->]. change (length attribute_names) with 4 in *.
  set (role := if checkRole (sc_role sg) ADMIN then MSPRole_ADMIN else MSPRole_MEMBER) in *. cbn [ro_role] in K5.
  assert (K5' : arCredVerify H c_cred sk (Some (Some (issuer_key HG pk 4))) (sc_cred sg) (credential_attributes (sc_ou sg) role (sc_eid sg)) = Ok tt) by exact K5.
  pose proof (@setup_presentable C OK HG H c_cred c_cri EC sha256 pk sk A e s vals (sc_ou sg) role (sc_eid sg) (sc_cred sg) (sc_cri sg) rk handles epoch wsk (ad_zr d1 0) (ad_sig d2)
                BS CC Hep K5' Ecred L4 Ecri NZ) as Pr.
  destruct (@C34_sign_verifies C OK HG H c_cred c_sig c_cri BS CS pk 4 A e s sk vals (claims (sc_ou sg) role) 2 3 Standard [] (sc_cri sg) (sc_cred sg) None (ad_zr d1 0) (ad_sig d2) Pr)
    as (Nym & proof & md' & E1 & Sign & Ver).
  assert (K3' : arMakeNym 0 sk (Some (Some (issuer_key HG pk 4))) (ad_zr d1 0) = Ok (nym, rr)) by exact K3.
  pose proof (eq_trans (eq_sym K3') E1) as Q. injection Q as -> ->.
  assert (K6' : arSign H c_cred c_sig c_cri (sc_cred sg) sk Nym (ad_zr d1 0) (Some (Some (issuer_key HG pk 4))) (claims (sc_ou sg) role) [] 3 2 (sc_cri sg) Standard None (ad_sig d2)
                = Ok (i_proof (g_identity sn), md)) by exact K6.
  change (Z.of_nat 3) with 3%Z in Sign, Ver. change (Z.of_nat 2) with 2%Z in Sign, Ver. pose proof (eq_trans (eq_sym K6') Sign) as Q.
  injection Q as Q _. rewrite <- Q in Ver. clear Q Sign.
  exists m', sn. split; [exact Lm|]. split; [unfold GetDefaultSigningIdentity; rewrite Hs; reflexivity|]. split; [exact Nm|].
  split; [rewrite K7; reflexivity|]. split; [rewrite K7; reflexivity|].
  assert (IM : i_msp (g_identity sn) = l) by (rewrite K7; reflexivity). split.
  - assert (NE : i_proof (g_identity sn) <> []) by exact (@asig_nonempty _ _ _ _ _ _ _ _ _ _ _ _ ZS (Ver Basic eq_refl None (or_introl eq_refl))).
    assert (Q : Validate (put h l m') l (IdPlain (g_identity sn)) = Ok tt); [|exact Q].
    apply (C51_partial Lm (eq_trans (f_equal _ IM) Lm) R). split; [reflexivity|]. split; [exact NE|].
    replace (ou_id (i_ou (g_identity sn))) with (sc_ou sg) by (rewrite K7; reflexivity). replace (ro_role (i_role (g_identity sn))) with role by (rewrite K7; reflexivity).
    exact (Ver Basic eq_refl None (or_introl eq_refl)).
  - intros d msg.
    destruct (@C14_aries_nym C OK HG H c_nsig BS (fun x => CN x I) pk 4 0 sk (ad_zr d1 0) (ad_zr d 0) msg (fun i => ad_zr d (S i)) ltac:(lia)) as (Nym' & sig & F1 & _ & F2 & F3).
    pose proof (eq_trans (eq_sym E1) F1) as Q. injection Q as <-.
    exists sig. assert (Li : nth_error (put h l m') (i_msp (g_identity sn)) = Some m') by (rewrite IM; exact Lm). split.
    + rewrite (id_sign_ready d msg Li R K9 K10). exact F2.
    + pose proof (@anymsig_nonempty _ _ _ _ _ _ _ _ ZN F3) as NE. assert (Hn : i_nym (g_identity sn) = KNymPublic (Nym : u_g1 (ariesU C EC))) by (rewrite K7; reflexivity). rewrite (id_verify_ready msg sig Li R Hn). clear R.
      destruct (length sig =? 0) eqn:Z; [apply Nat.eqb_eq, length_zero_iff_nil in Z; contradiction|]. exact F3.
Qed.
Print Assumptions C66_aries_partial.

(** ** C56 for the aries scheme *)
Lemma cred_agrees C (H : hasher C) ou role mrole eid rh vals :
  getIdemixRoleFromMSPRoleValue mrole = role ->
  Forall2 (attr_states H) (gen_attrs ou role eid rh) vals -> Forall2 (attr_agrees H) (credential_attributes ou mrole eid) vals.
Proof.
  intros R F. inversion F as [|a v l1 l2 A1 F1]; subst. inversion F1 as [|a2 v2 l3 l4 A2 F2]; subst. inversion F2 as [|a3 v3 l5 l6 A3 F3]; subst.
  inversion F3 as [|a4 v4 l7 l8 A4 F4]; subst. inversion F4; subst.
  repeat (constructor; [first [left; reflexivity|right; assumption]|]). constructor.
Qed.

Lemma aries_ready_made CD C (OK : CurveOk C) (HG : bytes -> G1 C) (H : hasher C) hkdf c_cred c_sig c_nsig c_cri EC (EE : ecenv EC) sha256 (T : translator C)
    (E : env (ariesU C EC)) h l m d1 d2 raw name pk rpk epk sg (sk : Zr C) (A : G1 C) e s vals (rk : ec_sk EC) wsk mrole :
  let X := aries_scheme HG H hkdf c_cred c_sig c_nsig c_cri EE sha256 in
  let M := aries_math T EE sha256 in
  bls_sizes C -> codec_ok canon_asig c_sig -> codec_ok canon_acri c_cri ->
  ev_aries E = true -> ev_pack E BLS12_381_BBS = Some (X, M) -> nth_error h l = Some m ->
  dec (c_conf CD) raw = Some {| cf_name := name; cf_ipk := g2_comp C pk; cf_signer := Some sg; cf_revpk := rpk; cf_epoch := 0; cf_curve := [] |} ->
  rpk <> [] -> ee_pem EE rpk = Some epk ->
  sc_sk sg = zr_bytes C sk -> sc_cred sg <> [] ->
  mrole = (if checkRole (sc_role sg) ADMIN then MSPRole_ADMIN else MSPRole_MEMBER) ->
  arCredVerify H c_cred sk (Some (Some (issuer_key HG pk 4))) (sc_cred sg) (credential_attributes (sc_ou sg) mrole (sc_eid sg)) = Ok tt ->
  arRevSign (C := C) sha256 c_cri (Some rk) [] 0 0 wsk = Ok (sc_cri sg) ->
  dec c_cred (sc_cred sg) = Some (credential_of A e s vals) -> length vals = 4 ->
  pr_r1 (rn_pok (ad_sig d2)) <> z0 ->
  exists h', Setup CD E h l d1 d2 (Some (IDEMIX_ARIES, raw)) = (Ok tt, h').
Proof.
  intros X M BS CS CC EA EP L D Nr Pem Sk Nc Mr Cv Ecri Ecred L4 NZ.
  unfold Setup. rewrite L.
  assert (Ty : type_ok E IDEMIX_ARIES = true) by (unfold type_ok; rewrite EA; reflexivity).
  assert (Ci : curve_id E [] = Some BLS12_381_BBS) by (unfold curve_id; rewrite EA; reflexivity).
  destruct (setup_eq l m d1 d2 D Ty Ci EP) as [c [N Q]]. rewrite Q. clear Q. cbn [cf_ipk cf_revpk cf_signer cf_name].
  destruct (@C32_issuer_key C OK HG H hkdf z0 attribute_names [] BS ltac:(cbn; lia)) as (_ & _ & K). specialize (K pk).
  change (length attribute_names) with 4 in K. unfold arPublicKeyBytes in K. cbn [issuer_key ip_pk] in K.
  pose proof (g2c_pos OK (P := pk)) as Ni. destruct (g2_comp C pk) as [|i0 ipkraw]; [contradiction|]. cbn [raw_bytes ibind].
  change (s_issuerPkFromBytes X (i0 :: ipkraw) attribute_names) with (plain (let* k := arNewPublicKeyFromBytes HG (i0 :: ipkraw) attribute_names in Ok (Some (Some k) : u_ipk (ariesU C EC)))).
  rewrite K. cbn [bind plain].
  destruct rpk as [|r0 rpk]; [contradiction|]. cbn [length Nat.eqb].
  change (m_pemEpk M (r0 :: rpk)) with (ee_pem EE (r0 :: rpk)). rewrite Pem.
  rewrite (setup_signer_eq _ _ _ _ _ _ N). clear N. cbn zeta. cbn [ro_role].
  assert (Lk : length (sc_sk sg) =? 0 = false).
  { rewrite Sk, (ok_zr_len OK). apply Nat.eqb_neq. pose proof (scalar_pos OK). lia. }
  rewrite Lk.
  assert (Us : s_userKeyFromBytes X (sc_sk sg) = Ok (sk : u_zr (ariesU C EC))).
  { change (arUserKeyFromBytes C (sc_sk sg) = Ok sk). unfold arUserKeyFromBytes. rewrite Sk, (ok_zr_len OK), Nat.eqb_refl. cbn [guard bind]. rewrite (ok_zr_rt OK). reflexivity. }
  rewrite Us.
  pose proof (@setup_presentable C OK HG H c_cred c_cri EC sha256 pk sk A e s vals (sc_ou sg) mrole (sc_eid sg) (sc_cred sg) (sc_cri sg) rk [] 0 wsk (ad_zr d1 0) (ad_sig d2)
                BS CC ltac:(unfold int64; lia) Cv Ecred L4 Ecri NZ) as Pr.
  destruct (@C34_sign_verifies C OK HG H c_cred c_sig c_cri BS CS pk 4 A e s sk vals (claims (sc_ou sg) mrole) 2 3 Standard [] (sc_cri sg) (sc_cred sg) None (ad_zr d1 0) (ad_sig d2) Pr)
    as (Nym & proof & md' & E1 & Sign & _).
  match goal with |- context [s_makeNym ?x ?d ?u ?p] => change (s_makeNym x d u p) with (arMakeNym 0 sk (Some (Some (issuer_key HG pk 4))) (ad_zr d1 0)) end. rewrite E1.
  assert (Lc : length (sc_cred sg) =? 0 = false) by (destruct (sc_cred sg); [contradiction|reflexivity]). rewrite Lc.
  rewrite <- Mr.
  match goal with |- context [s_credVerify ?x ?u ?p ?r ?a] => change (s_credVerify x u p r a) with (arCredVerify H c_cred sk (Some (Some (issuer_key HG pk 4))) (sc_cred sg) (credential_attributes (sc_ou sg) mrole (sc_eid sg))) end.
  rewrite Cv.
  match goal with |- context [s_sign ?x ?d ?cr ?u ?n ?r ?p ?a ?b ?i ?j ?ci ?st ?me] =>
    change (s_sign x d cr u n r p a b i j ci st me) with
      (arSign H c_cred c_sig c_cri (sc_cred sg) sk Nym (ad_zr d1 0) (Some (Some (issuer_key HG pk 4))) (claims (sc_ou sg) mrole) [] (Z.of_nat 3) (Z.of_nat 2) (sc_cri sg) Standard None (ad_sig d2)) end.
  rewrite Sign. eexists. reflexivity.
Qed.

(** The directory idemixgen --aries writes, when it works on the curve Setup takes when the
    configuration names none (--curve BLS12_381_BBS), is accepted.  [key] is the issuer key NewKey
    makes from the seed drawn; the empty protobuf encoding is that of the empty message. *)
Theorem C56_aries_partial : forall CD C (OK : CurveOk C) (HG : bytes -> G1 C) (H : hasher C) hkdf c_cred c_sig c_nsig c_cri EC (EE : ecenv EC) sha256 (T : translator C) utf8
    (E : env (ariesU C EC)) h l m d1 d2 resolve parse f fl name seed key (A : caadraw C) (rk : ec_sk EC) pk rskraw rpk,
  let X := aries_scheme HG H hkdf c_cred c_sig c_nsig c_cri EE sha256 in
  let M := aries_math T EE sha256 in
  let out := resolve (fl_output fl) in
  let generate := GenerateSignerConfigAries HG H c_cred c_cri (EC := EC) sha256 CD (fl_ou fl) (fl_eid fl) (fl_rh fl) A in
  bls_sizes C -> codec_ok canon_acred c_cred -> codec_ok canon_acri c_cri -> codec_ok canon_asig c_sig -> codec_ok (fun _ => True) c_nsig ->
  codec_ok (canon_signer utf8) (c_signer CD) -> codec_ok (canon_conf utf8) (c_conf CD) ->
  nothing_is no_acredential c_cred -> nothing_is no_asignature c_sig -> nothing_is no_anymsig c_nsig ->
  utf8 [] -> utf8 name -> utf8 (fl_ou fl) -> utf8 (fl_eid fl) -> utf8 (fl_rh fl) ->
  (* revocation keys *)
  (forall d, exists s, ec_sign (e := EC) rk d = Some s) -> parse rskraw = Some rk -> rpk <> [] -> ee_pem EE rpk = Some pk ->
  (* flags and file system *)
  fl_ou fl <> [] -> fl_eid fl <> [] -> fl_cainput fl = [] \/ fl_cainput fl = fl_output fl ->
  tree f -> clear_way f out -> f (out ++ [str "ca"]) = None -> f (out ++ [str "msp"]) = None -> f (out ++ [str "user"]) = None ->
  (* draws *)
  length seed = 32 -> arNewKey HG H hkdf attribute_names seed = Ok key -> zadd (is_sk key) (aa_e A) <> z0 -> pr_r1 (rn_pok (ad_sig d2)) <> z0 ->
  (* the MSP *)
  ev_aries E = true -> ev_pack E (str "BLS12_381_BBS") = Some (X, M) -> nth_error h l = Some m ->
  exists f1 f2 conf h' m' s,
    exec f (ca_keygen resolve (fl_output fl) (GenerateIssuerKeyAries HG H hkdf seed) (Some (rskraw, rpk))) = (f1, true) /\
    exec f1 (signerconfig resolve parse generate fl) = (f2, true) /\
    GetIdemixMspConfigWithType resolve CD f2 (fl_output fl) name IDEMIX_ARIES = Ok conf /\
    Setup CD E h l d1 d2 (Some conf) = (Ok tt, h') /\
    nth_error h' l = Some m' /\ p_name m' = name /\ GetDefaultSigningIdentity m' = Ok s /\
    ou_id (i_ou (g_identity s)) = fl_ou fl /\ ro_role (i_role (g_identity s)) = (if fl_admin fl then MSPRole_ADMIN else MSPRole_MEMBER) /\
    Validate h' l (IdSigning s) = Ok tt /\
    forall d msg, exists sig, id_Sign h' s d msg = Ok sig /\ id_Verify h' (g_identity s) msg sig = Ok tt.
Proof.
  intros CD C OK HG H hkdf c_cred c_sig c_nsig c_cri EC EE sha256 T utf8 E h l m d1 d2 resolve parse f fl name seed key A rk pk rskraw rpk X M out generate
    BS CC CR CG CN CS CF ZC ZS ZN U0 Un Uo Ue Ur SG Pa Nr Pem No Ne In Tr Cw Nca Nmsp Nuser Ls Key NE NZ EA EP L.
  destruct (@C32_issuer_key C OK HG H hkdf (is_sk key) attribute_names seed BS ltac:(cbn; lia)) as (K1 & K2 & _). change (length attribute_names) with 4 in *.
  destruct (K1 Ls) as (isk & K1'). rewrite K1' in Key. injection Key as <-. rename K1' into Key. cbn [is_sk] in K2, NE. clear K1.
  set (ipk := genG2 C ⊗ isk) in *.
  set (role := GetRoleMaskFromIdemixRole (if fl_admin fl then ADMIN else MEMBER)).
  assert (Rv : role = (if fl_admin fl then 2 else 1)%Z) by (unfold role; destruct (fl_admin fl); reflexivity).
  assert (Ir : int32 role) by (rewrite Rv; destruct (fl_admin fl); unfold int32; lia).
  set (vals := [H (fl_ou fl); zr_of_Z C role; H (fl_eid fl); H (fl_rh fl)]).
  set (attrs := gen_attrs (fl_ou fl) role (fl_eid fl) (fl_rh fl)).
  assert (St : Forall2 (attr_states H) attrs vals) by (repeat constructor).
  set (mrole := if fl_admin fl then MSPRole_ADMIN else MSPRole_MEMBER).
  assert (Rr : getIdemixRoleFromMSPRoleValue mrole = role) by (rewrite Rv; unfold mrole; destruct (fl_admin fl); reflexivity).
  destruct (@C32_issuance_partial C OK HG H c_cred BS CC isk (aa_sk A) attrs vals (zr_bytes C (aa_ni A)) (aa_blind A) (aa_e A) (aa_s A) (aa_bl A)
              ltac:(discriminate) ltac:(cbn; lia) St NE) as (req & blinding & cout & cred & Ap & I1 & I2 & I3 & I4 & I5 & I6 & I7).
  change (length attrs) with 4 in *. fold ipk in I1, I2, I3, I5, I7.
  (* the revocation information *)
  assert (I64 : int64 0) by (unfold int64; lia). assert (I32 : int32 0) by (unfold int32; lia).
  set (cm := {| acri_epoch := 0; acri_epochpk := g2_bytes C (genG2 C); acri_sig := []; acri_alg := 0 |}).
  destruct (CR cm (conj I64 I32)) as (b & Eb & _). destruct (SG (sha256 b)) as (sb & S3).
  set (cm' := {| acri_epoch := 0; acri_epochpk := g2_bytes C (genG2 C); acri_sig := sb; acri_alg := 0 |}).
  destruct (CR cm' (conj I64 I32)) as (criraw & Er & _).
  assert (Ecri : arRevSign (C := C) (EC := EC) sha256 c_cri (Some rk) [] 0 0 (aa_wsk A) = Ok criraw).
  { unfold arRevSign. cbn [opt_err bind Z.eqb]. fold cm. rewrite Eb. cbn [opt_err bind]. rewrite S3. cbn [opt_err bind]. fold cm'. rewrite Er. reflexivity. }
  (* the signer file *)
  set (sg := {| sc_cred := cred; sc_sk := zr_bytes C (aa_sk A); sc_ou := fl_ou fl; sc_role := role; sc_eid := fl_eid fl; sc_cri := criraw; sc_rh := fl_rh fl; sc_curve := [] |}).
  assert (Csg : canon_signer utf8 sg) by (repeat (split; [assumption|]); exact Ir).
  destruct (CS sg Csg) as (cfg & G1 & G2).
  assert (Gen : generate role (zr_bytes C isk) (g2_comp C ipk) rk = Ok cfg).
  { unfold generate, GenerateSignerConfigAries.
    replace (bytes_eqb (fl_ou fl) []) with false by (destruct (fl_ou fl); [contradiction|reflexivity]).
    replace (bytes_eqb (fl_eid fl) []) with false by (destruct (fl_eid fl); [contradiction|reflexivity]).
    cbn [negb guard bind]. rewrite K2. cbn [bind is_pub]. fold ipk. rewrite I1. cbn [bind]. rewrite I2. cbn [bind].
    match goal with |- context [arCredSign _ _ _ _ _ _ ?a _ _] => change a with attrs end. rewrite I3. cbn [bind]. rewrite I4. cbn [bind].
    rewrite I5. cbn [bind]. rewrite Ecri. cbn [bind]. fold sg. rewrite G1. reflexivity. }
  set (f1 := after_keygen f out (zr_bytes C isk) (g2_comp C ipk) rskraw rpk).
  destruct (after_keygen_reads f out (zr_bytes C isk) (g2_comp C ipk) rskraw rpk) as (R1 & R2 & R3 & R4 & R5). fold f1 in R1, R2, R3, R4, R5.
  set (f2 := after_signer f1 out cfg). destruct (after_signer_reads f1 out cfg) as [R6 R7]. fold f2 in R6, R7.
  set (cf := {| cf_name := name; cf_ipk := g2_comp C ipk; cf_signer := Some sg; cf_revpk := rpk; cf_epoch := 0; cf_curve := [] |}).
  assert (Ccf : canon_conf utf8 cf) by (split; [exact Un|split; [exact U0|split; [exact I64|exact Csg]]]).
  destruct (CF cf Ccf) as (raw & F1 & F2).
  assert (Mr : mrole = if checkRole role ADMIN then MSPRole_ADMIN else MSPRole_MEMBER) by (rewrite Rv; unfold mrole; destruct (fl_admin fl); reflexivity).
  assert (Nc : cred <> []) by (intros Z; rewrite Z in I6; discriminate (ZC _ I6)).
  assert (Cv : arCredVerify H c_cred (aa_sk A) (Some (Some (issuer_key HG ipk 4))) cred (credential_attributes (fl_ou fl) mrole (fl_eid fl)) = Ok tt).
  { pose proof I5 as V.
    apply (@C43_credential_verification C OK HG H c_cred BS ipk 4 (aa_sk A) cred attrs eq_refl ltac:(repeat constructor; discriminate)) in V.
    apply (@C43_credential_verification C OK HG H c_cred BS ipk 4 (aa_sk A) cred (credential_attributes (fl_ou fl) mrole (fl_eid fl)) eq_refl ltac:(repeat constructor; discriminate)).
    destruct V as (c & g & k & V1 & V2 & V3 & V4 & V5 & V6 & V7). exists c, g, k. do 5 (split; [assumption|]). split; [|exact V7].
    rewrite I6 in V1. injection V1 as <-. cbn [credential_of ac_attrs] in *. rewrite map_map in *.
    replace (firstn 4 (map (fun x => zr_of_bytes C (zr_bytes C x)) vals)) with vals in * by (cbn; rewrite !(ok_zr_rt OK); reflexivity).
    exact (cred_agrees Rr St). }
  destruct (@aries_ready_made CD C OK HG H hkdf c_cred c_sig c_nsig c_cri EC EE sha256 T E h l m d1 d2 raw name ipk rpk pk sg (aa_sk A) Ap (aa_e A) _ vals rk (aa_wsk A) mrole
              BS CG CR EA EP L F2 Nr Pem eq_refl Nc Mr Cv Ecri I6 eq_refl NZ) as [h' SE].
  destruct (@C66_aries_partial CD C OK HG H hkdf c_cred c_sig c_nsig c_cri EC EE sha256 T E h l m d1 d2 IDEMIX_ARIES raw cf sg h' Ap (aa_e A) (zadd (aa_s A) (aa_blind A)) vals rk [] 0 (aa_wsk A)
              BS CG CR I64 CN ZS ZN) as (m' & s & M1 & M2 & M3 & M4 & M5 & M6 & M7); try assumption; try reflexivity; try exact I6.
  { intros cid p E1 E2. rewrite EA in E1. injection E1 as <-. fold X M. rewrite EP in E2. injection E2 as <-. reflexivity. }
  exists f1, f2, (IDEMIX_ARIES, raw), h', m', s.
  split.
  { unfold GenerateIssuerKeyAries. rewrite Key. cbn [bind]. apply (exec_keygen (resolve := resolve) _ _ _ _ Tr Cw Nca Nmsp). }
  split.
  { apply (exec_signerconfig (resolve := resolve) (fl := fl) (isk := zr_bytes C isk) (ipk := g2_comp C ipk) (rsk := rskraw) (rpk := rpk) (k := rk) (cfg := cfg)); try assumption.
    - apply after_keygen_clear. exact Cw.
    - unfold f1. change (resolve (fl_output fl)) with out. rewrite after_keygen_user. exact Nuser.
    - unfold f1. change (resolve (fl_output fl)) with out. rewrite after_keygen_user. apply (none_two _ Tr). exact Nuser. }
  split.
  { unfold GetIdemixMspConfigWithType, at2, read_file. cbn [Z.ltb Z.compare IDEMIX_ARIES negb guard bind]. change (resolve (fl_output fl)) with out.
    rewrite R7, R5. cbn [opt_err bind]. rewrite R7, R4. cbn [opt_err bind]. rewrite R6, G2. cbn [opt_err bind]. fold cf. rewrite F1. reflexivity. }
  split; [exact SE|]. split; [exact M1|]. split; [exact M3|]. split; [exact M2|]. split; [rewrite M4; reflexivity|]. split; [rewrite M5; symmetry; exact Mr|].
  split; [exact M6|exact M7].
Qed.
Print Assumptions C56_aries_partial.

(** the hypotheses, and the whole run on the toy curve, up to a signature that verifies *)
Definition wE : env yU := {| ev_aries := true; ev_pack := fun cid => if bytes_eqb cid BLS12_381_BBS then Some (yX, yM) else None |}.
Definition wdraw : u_draw yU :=
  {| ad_seed := repeat Byte.x07 32; ad_zr := fun i => zr_of_Z toy32 (Z.of_nat i + 5); ad_sig := xa_R; ad_esk := None |} : adraw toy32 xEC.
Definition wcadraw : caadraw toy32 :=
  {| aa_sk := xa_sk; aa_ni := (f5 : Zr toy32); aa_blind := (f4 : Zr toy32); aa_bl := fun i => zr_of_Z toy32 (Z.of_nat i + 3); aa_e := xa_e; aa_s := (f6 : Zr toy32); aa_wsk := (f1 : Zr toy32) |}.
Definition wseed : bytes := repeat Byte.x07 32.
Definition wgenerate (fl : flags) := GenerateSignerConfigAries hg32 h32 xa_ccred xa_ccri (EC := xEC) bsha mCD (fl_ou fl) (fl_eid fl) (fl_rh fl) wcadraw.
Definition w0 : msp yU := NewIdemixMsp yU 2.

Example C56_aries_example : forall admin : bool,
  bls_sizes toy32 /\ codec_ok canon_acred xa_ccred /\ codec_ok canon_acri xa_ccri /\ codec_ok canon_asig xa_csig /\ codec_ok (fun _ => True) xa_cnsig /\
  codec_ok (canon_signer (fun _ => True)) (c_signer mCD) /\ codec_ok (canon_conf (fun _ => True)) (c_conf mCD) /\
  nothing_is no_acredential xa_ccred /\ nothing_is no_asignature xa_csig /\ nothing_is no_anymsig xa_cnsig /\
  (forall d : bytes, exists s : bytes, ec_sign (e := xEC) (str "k" : ec_sk xEC) d = Some s) /\ gparse_pem (xpem (str "k")) = Some (str "k" : ec_sk xEC) /\
  ee_pem xEE (xpem (str "k")) = Some (str "k" : ec_pk xEC) /\
  tree gempty /\ clear_way gempty (here gA) /\ gempty (here gA ++ [str "ca"]) = None /\ gempty (here gA ++ [str "msp"]) = None /\ gempty (here gA ++ [str "user"]) = None /\
  length wseed = 32 /\ (exists key, arNewKey hg32 h32 (fun b => b) attribute_names wseed = Ok key /\ zadd (is_sk key) (aa_e wcadraw) <> z0) /\
  pr_r1 (rn_pok (ad_sig wdraw)) <> z0 /\ ev_aries wE = true /\ ev_pack wE (str "BLS12_381_BBS") = Some (yX, yM) /\
  (let f1 := exec gempty (ca_keygen here gA (GenerateIssuerKeyAries hg32 h32 (fun b => b) wseed) (Some (xpem (str "k"), xpem (str "k")))) in
   let f2 := exec (fst f1) (signerconfig here gparse_pem (wgenerate (gfl admin)) (gfl admin)) in
   snd f1 = true /\ snd f2 = true /\
   match GetIdemixMspConfigWithType here mCD (fst f2) gA (str "Org1MSP") IDEMIX_ARIES with
   | Ok conf =>
       match Setup mCD wE [w0] 0 wdraw wdraw (Some conf) with
       | (Ok tt, [m1] as h) =>
           match p_signer m1 with
           | Some s => i_proof (g_identity s) <> [] /\ Validate h 0 (IdSigning s) = Ok tt /\
                       is_ok (let* sig := id_Sign h s wdraw (str "msg") in id_Verify h (g_identity s) (str "msg") sig) = true
           | None => False
           end
       | _ => False
       end
   | _ => False
   end).
Proof.
  intros admin.
  split; [split; [reflexivity|vm_compute; reflexivity]|].
  split; [exact xa_ccred_ok|]. split; [intros x _; apply (tcodec_rt s_acri_ok)|]. split; [exact xa_csig_ok|]. split; [intros x _; apply xa_cnsig_ok|].
  split; [intros x _; apply (tcodec_rt s_signer_ok)|]. split; [intros x _; apply (tcodec_rt s_conf_ok)|].
  split; [intros c D; discriminate D|]. split; [intros c D; discriminate D|]. split; [intros c D; discriminate D|].
  split; [intros d; eexists; reflexivity|]. split; [reflexivity|]. split; [reflexivity|].
  split; [apply tree_of_list; vm_compute; reflexivity|].
  split; [intros [|[|i]] b; discriminate|]. split; [reflexivity|]. split; [reflexivity|]. split; [reflexivity|].
  split; [reflexivity|]. split.
  { assert (A : match arNewKey hg32 h32 (fun b => b) attribute_names wseed with Ok k => negb (zv (zadd (is_sk k) (aa_e wcadraw)) =? zv (z0 : Zr toy32))%Z | _ => false end = true) by (vm_compute; reflexivity).
    destruct (arNewKey hg32 h32 (fun b => b) attribute_names wseed) as [k| |]; [|discriminate A..]. exists k. split; [reflexivity|].
    apply negb_true_iff in A. exact (zp_ne A). }
  split; [apply zp_ne; vm_compute; reflexivity|]. split; [reflexivity|]. split; [reflexivity|].
  cbv zeta. split; [vm_compute; reflexivity|]. split; [destruct admin; vm_compute; reflexivity|].
  destruct admin; vm_compute; (split; [discriminate|split; reflexivity]).
Qed.
