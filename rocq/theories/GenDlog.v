(** Lemmas for C56: the dlog files of idemixgen. *)
From Coq Require Import Lia.
From Verif Require Import Base Curve Algebra Spec Dlog DlogSpec DlogFacts DlogData DlogSound DlogComplete
  DlogSign DlogBind DlogAudit DlogHide DlogTop Bridge BridgeFacts Translator Csp CspInst CspSpec CspFacts Msp MspSpec MspFacts PropsDlog PropsBridge PropsCsp
  Idemixgen GenSpec GenFacts.
Unset Strict Implicit.

Section GenDlog.
  Variable C : Curve.
  Hypothesis OK : CurveOk C.
  Let KO := ok_zr OK.
  Let GO1 := ok_g1 OK.
  Let GOT := ok_gt OK.
  Add Field Kf_gend : (sok_field KO).
  Variable H : hasher C.
  Variable T : translator C.
  Hypothesis TO : TrOk T.
  Variable utf8 : bytes -> Prop.
  Variable c_ipk : codec IssuerPublicKey.
  Variable c_cred : codec Credential.
  Variable c_cri : codec CRI.
  Variable EC : ecdsa.
  Variable sha256 : bytes -> bytes.
  Variable CD : codecs.
  Hypothesis CI : codec_ok (canon_ipk utf8) c_ipk.
  Hypothesis CC : codec_ok canon_cred c_cred.
  Hypothesis CR : codec_ok canon_cri c_cri.
  Hypothesis CS : codec_ok (canon_signer utf8) (c_signer CD).
  Hypothesis UN : Forall utf8 attribute_names.
  Variable R : IssuerRand C.
  Hypothesis Hb : ir_barg1 R <> z0.

  Definition gen_attrs (ou : bytes) (role : Z) (eid rh : bytes) : list attribute :=
    [ {| at_type := BytesAttr; at_value := VBytes ou |}; {| at_type := IntAttr; at_value := VInt role |};
      {| at_type := BytesAttr; at_value := VBytes eid |}; {| at_type := BytesAttr; at_value := VBytes rh |} ].

  Lemma names_nodup : NoDup attribute_names.
  Proof. apply (proj1 (names_unique_iff attribute_names [])). reflexivity. Qed.

  Let B : Bases C := {| b_hsk := genG1 C ⊗ ir_hsk R; b_hrand := genG1 C ⊗ ir_hrand R;
                         b_attrs := map (fun i => genG1 C ⊗ ir_attrs R i) (seq 0 4); b_w := genG2 C ⊗ ir_isk R |}.

  Lemma base_exponent s sk a0 a1 a2 a3 :
    cred_base B s sk [a0; a1; a2; a3] = genG1 C ⊗ credential_exponent R sk s [a0; a1; a2; a3].
  Proof. unfold cred_base, credential_exponent, B. cbn. gnorm KO GO1. ring. Qed.

  Lemma issuer_files : exists ipk raw,
    GenerateIssuerKey H T c_ipk R = Ok (zr_bytes C (ir_isk R), raw) /\ enc c_ipk ipk = Some raw /\ dec c_ipk raw = Some ipk /\
    brNewPublicKeyFromBytes H T c_ipk raw attribute_names = Ok ipk /\ ip_names ipk = attribute_names /\ ipk_bases T ipk B.
  Proof.
    assert (Ek : exists key, newIssuerKey H T (enc c_ipk) attribute_names R = Ok key).
    { unfold newIssuerKey. rewrite (proj2 (names_unique_iff attribute_names []) ltac:(split; [exact names_nodup|intros ? ? []])). cbn [guard bind].
      rewrite (issuer_data_ok OK). cbn [bind]. unfold setHash.
      match goal with |- context [enc c_ipk ?k] => destruct (CI (x := k)) as (b & Eb & _) end.
      - split; [exact UN|]. cbn [ip_hattrs]. apply Forall_forall. intros o Ho. apply in_map_iff in Ho. destruct Ho as (i & <- & _). discriminate.
      - rewrite Eb. cbn [bind]. eauto. }
    destruct Ek as [key Ek].
    destruct (@newIssuerKey_inv C OK H T TO (enc c_ipk) attribute_names R key Ek) as (ipk & E1 & E2 & E3 & HB & Hc).
    destruct (@generated_key_checks C OK T TO H (enc c_ipk) attribute_names R key Hb Ek) as (ipk' & E1' & _ & K1 & K2).
    rewrite E1 in E1'. injection E1' as <-.
    assert (Cipk : canon_ipk utf8 ipk).
    { split; [rewrite E3; exact UN|].
      pose proof Ek as Ek0. unfold newIssuerKey in Ek0. apply bind_ok in Ek0. destruct Ek0 as [? [_ Ek0]]. apply bind_ok in Ek0. destruct Ek0 as [? [_ Ek0]].
      apply bind_ok in Ek0. destruct Ek0 as [k [Ek1 Ek0]]. injection Ek0 as <-. cbn [ik_ipk] in E1. injection E1 as ->.
      unfold setHash in Ek1. match type of Ek1 with match ?m with _ => _ end = _ => destruct m end; [|discriminate].
      injection Ek1 as <-. cbn. repeat constructor; discriminate. }
    destruct (CI Cipk) as (pkraw & P1 & P2).
    exists ipk, pkraw. split; [|split; [exact P1|split; [exact P2|split; [|split; [exact E3|exact HB]]]]].
    - unfold GenerateIssuerKey. rewrite Ek. cbn [bind]. rewrite E1. cbn [deref bind]. rewrite P1. cbn [opt_err bind]. rewrite E2. reflexivity.
    - apply (proj2 (recover_ok _ _)). rewrite P2. cbn [opt_err bind]. rewrite K2. cbn [bind]. rewrite K1. cbn [bind]. rewrite E3.
      reflexivity.
  Qed.

  Lemma signer_file ou eid rh (A : cadraw C) role rk ipk raw :
    ou <> [] -> eid <> [] -> int32 role -> utf8 ou -> utf8 eid -> utf8 rh -> utf8 [] ->
    (forall d, exists s, ec_sign (e := EC) rk d = Some s) ->
    (ir_isk R + ca_e A)%zr <> z0 -> credential_exponent R (ca_sk A) (ca_s A) [H ou; zr_of_Z C role; H eid; H rh] <> z0 ->
    dec c_ipk raw = Some ipk -> ip_names ipk = attribute_names -> ipk_bases T ipk B ->
    exists cfg sg cred Ap,
      GenerateSignerConfig H T c_ipk c_cred c_cri sha256 CD ou eid rh A role (zr_bytes C (ir_isk R)) raw rk = Ok cfg /\ dec (c_signer CD) cfg = Some sg /\
      canon_signer utf8 sg /\
      sc_sk sg = zr_bytes C (ca_sk A) /\ sc_ou sg = ou /\ sc_role sg = role /\ sc_eid sg = eid /\ sc_curve sg = [] /\
      enc c_cred cred = Some (sc_cred sg) /\ dec c_cred (sc_cred sg) = Some cred /\
      g1_from_proto T (cr_a cred) = Ok Ap /\ Ap <> gzero /\ length (cr_attrs cred) = 4 /\
      brCredVerify H T c_cred (Some (ca_sk A)) (Some (Some ipk)) (sc_cred sg) (gen_attrs ou role eid rh) = Ok tt /\
      brRevSign T c_cri sha256 (Some rk) [] 0 0 (ca_wsk A) = Ok (sc_cri sg).
  Proof.
    intros No Ne Ir Uo Ue Ur U0 SG NE ND Dk Nk HB.
    set (vals := [H ou; zr_of_Z C role; H eid; H rh]) in *.
    set (nonce := zr_bytes C (ca_ni A)).
    assert (Ln : length nonce = scalar_size C) by apply (ok_zr_len OK).
    destruct (@credRequest_ok C OK H T TO (ca_sk A) nonce ipk (ca_rsk A) _ HB ltac:(lia)) as (req & Q1 & Q2 & Q3 & Q4).
    set (key := {| ik_isk := zr_bytes C (ir_isk R); ik_ipk := Some ipk |}).
    destruct (@newCredential_ok C OK H T TO key ipk B (ir_isk R) req (ca_sk A) vals (ca_e A) (ca_s A) eq_refl eq_refl HB eq_refl Q2 Q3) as (cred & Ap & D1 & D2 & D3 & D4).
    { rewrite Nk. reflexivity. } { cbn. lia. } { exact NE. }
    assert (At : cr_attrs cred = map (fun a => Some (zr_bytes C a)) vals) by exact (newCredential_canonical D1).
    assert (Ccred : canon_cred cred).
    { unfold canon_cred. rewrite At. apply Forall_forall. intros o Ho. apply in_map_iff in Ho. destruct Ho as (i & <- & _). discriminate. }
    destruct (CC Ccred) as (craw & S1 & S2).
    assert (I64 : int64 0) by (unfold int64; lia). assert (I32 : int32 0) by (unfold int32; lia).
    set (m := {| cri_epoch := 0; cri_epochpk := Some (g2_to_proto T (genG2 C)); cri_sig := []; cri_alg := 0 |}).
    destruct (CR (x := m) (conj I64 I32)) as (b & Eb & _). destruct (SG (sha256 b)) as (s & S3).
    set (m' := {| cri_epoch := 0; cri_epochpk := Some (g2_to_proto T (genG2 C)); cri_sig := s; cri_alg := 0 |}).
    destruct (CR (x := m') (conj I64 I32)) as (criraw & Er & Dr).
    assert (Ecri : createCRI T c_cri (EC := EC) sha256 (Some rk) 0 0 (ca_wsk A) = Ok m').
    { unfold createCRI. cbn [opt_err bind Z.eqb]. fold m. rewrite Eb. cbn [opt_err bind]. rewrite S3. reflexivity. }
    set (sg := {| sc_cred := craw; sc_sk := zr_bytes C (ca_sk A); sc_ou := ou; sc_role := role; sc_eid := eid; sc_cri := criraw; sc_rh := rh; sc_curve := [] |}).
    assert (Csg : canon_signer utf8 sg) by (repeat (split; [assumption|]); exact Ir).
    destruct (CS Csg) as (cfg & G1 & G2).
    exists cfg, sg, cred, Ap.
    split.
    { unfold GenerateSignerConfig.
      replace (bytes_eqb ou []) with false by (destruct ou; [contradiction|reflexivity]).
      replace (bytes_eqb eid []) with false by (destruct eid; [contradiction|reflexivity]).
      cbn [negb guard bind]. rewrite Dk. cbn [opt_err bind]. fold key. fold nonce.
      change (newCredRequest H T (ca_sk A) (@Some bytes nonce) ipk (ca_rsk A) = Ok req) in Q1. rewrite Q1. cbn [bind].
      change [H ou; zr_of_int C role; H eid; H rh] with vals. rewrite D1. cbn [bind]. rewrite S1. cbn [opt_err bind].
      rewrite Ecri. cbn [bind]. rewrite Er. cbn [opt_err bind]. fold sg. rewrite G1. reflexivity. }
    split; [exact G2|]. split; [exact Csg|]. do 5 (split; [reflexivity|]). split; [exact S1|]. split; [exact S2|].
    split; [apply D3|]. split.
    { intros ->. unfold bbs_valid in D4. unfold vals in D4. rewrite base_exponent, (pair_zero_r OK), (ok_pair_mul_r OK) in D4. fold vals in D4.
      apply (ok_pair_nondeg OK). eapply gmul_inv_zero; [exact KO|exact GOT|symmetry; exact D4|exact ND]. }
    split; [rewrite At; reflexivity|]. split.
    - apply (proj2 (recover_ok _ _)). cbn [sc_cred sg]. rewrite S2. cbn [opt_err bind].
      rewrite (proj2 (attrs_match_iff H cred _ 0)); [exact D2|].
      intros i a Hi. right. cbn [Nat.add]. rewrite At.
      destruct i as [|[|[|[|i]]]]; cbn in Hi; [injection Hi as <-..|destruct i; discriminate Hi]; eexists _, _; (split; [reflexivity|split; [reflexivity|reflexivity]]).
    - unfold brRevSign. rewrite Ecri. cbn [bind]. rewrite Er. reflexivity.
  Qed.
End GenDlog.

(** ** Setup accepts the files *)
From Verif Require Import PropsMsp.

Lemma attrs_match_gen C (H : hasher C) cred ou role mrole eid rh :
  getIdemixRoleFromMSPRoleValue mrole = role ->
  attrs_match H 0 (gen_attrs ou role eid rh) cred = Ok tt -> attrs_match H 0 (credential_attributes ou mrole eid) cred = Ok tt.
Proof.
  intros R E. pose proof (proj1 (attrs_match_iff H cred _ 0) E) as Q. apply attrs_match_iff. intros i a Hi.
  destruct i as [|[|[|[|i]]]]; cbn in Hi; [injection Hi as <-..|destruct i; discriminate Hi].
  - exact (Q 0 _ eq_refl).
  - rewrite R. exact (Q 1 _ eq_refl).
  - exact (Q 2 _ eq_refl).
  - left. reflexivity.
Qed.
Lemma credVerify_gen C (H : hasher C) T c_cred sk ipk raw ou role mrole eid rh :
  getIdemixRoleFromMSPRoleValue mrole = role ->
  brCredVerify H T c_cred sk ipk raw (gen_attrs ou role eid rh) = Ok tt -> brCredVerify H T c_cred sk ipk raw (credential_attributes ou mrole eid) = Ok tt.
Proof.
  intros R E. apply (proj1 (recover_ok _ _)) in E. apply recover_ok.
  apply bind_ok in E. destruct E as [k [E1 E]]. rewrite E1. cbn [bind]. apply bind_ok in E. destruct E as [cr [E2 E]]. rewrite E2. cbn [bind].
  apply bind_ok in E. destruct E as [[] [E3 E]]. rewrite (attrs_match_gen R E3). exact E.
Qed.

Lemma ready_made CD C (OK : CurveOk C) (H : hasher C) (T : translator C) (TO : TrOk T) c_ipk c_ik c_req c_cred c_sig c_nsig c_cri EC (EE : ecenv EC) sha256
    (E : env (dlogU C EC)) h l m d1 d2 raw name ipkraw ipk B rpk pk sg (sk : Zr C) cred A (rk : ec_sk EC) wsk mrole rh :
  let X := dlog_scheme H T c_ipk c_ik c_req c_cred c_sig c_nsig c_cri EE sha256 in
  let M := dlog_math T EE sha256 in
  codec_ok canon_sig c_sig -> codec_ok canon_cri c_cri -> codec_ok (fun _ => True) c_nsig ->
  ev_aries E = false -> ev_pack E FP256BN_AMCL = Some (X, M) -> nth_error h l = Some m ->
  dec (c_conf CD) raw = Some {| cf_name := name; cf_ipk := ipkraw; cf_signer := Some sg; cf_revpk := rpk; cf_epoch := 0; cf_curve := [] |} ->
  ipkraw <> [] -> brNewPublicKeyFromBytes H T c_ipk ipkraw attribute_names = Ok ipk -> ipk_bases T ipk B -> ip_names ipk = attribute_names ->
  rpk <> [] -> ee_pem EE rpk = Some pk ->
  sc_sk sg = zr_bytes C sk -> sc_cred sg <> [] ->
  mrole = (if checkRole (sc_role sg) ADMIN then MSPRole_ADMIN else MSPRole_MEMBER) -> getIdemixRoleFromMSPRoleValue mrole = sc_role sg ->
  brCredVerify H T c_cred (Some sk) (Some (Some ipk)) (sc_cred sg) (gen_attrs (sc_ou sg) (sc_role sg) (sc_eid sg) rh) = Ok tt ->
  brRevSign T c_cri sha256 (Some rk) [] 0 0 wsk = Ok (sc_cri sg) ->
  dec c_cred (sc_cred sg) = Some cred -> g1_from_proto T (cr_a cred) = Ok A -> A <> gzero -> length (cr_attrs cred) = 4 ->
  rd_r1 (dd_sig d2) <> z0 ->
  exists h', Setup CD E h l d1 d2 (Some (IDEMIX, raw)) = (Ok tt, h').
Proof.
  intros X M CS CC CN EA EP L D Ni Imp HB Nk Nr Pem Sk Nc Mr Rr Cv Ecri Ecred GA NA L4 NZ.
  unfold Setup. rewrite L.
  assert (Ty : type_ok E IDEMIX = true) by (unfold type_ok; rewrite EA; reflexivity).
  assert (Ci : curve_id E [] = Some FP256BN_AMCL) by (unfold curve_id; rewrite EA; reflexivity).
  destruct (setup_eq l m d1 d2 D Ty Ci EP) as [c [N Q]]. rewrite Q. clear Q. cbn [cf_ipk cf_revpk cf_signer cf_name].
  destruct ipkraw as [|i0 ipkraw]; [contradiction|]. cbn [raw_bytes ibind].
  change (s_issuerPkFromBytes X (i0 :: ipkraw) attribute_names) with (let+ k := dlogPk H T c_ipk (i0 :: ipkraw) attribute_names in IOk (Some (Some k) : u_ipk (dlogU C EC))).
  pose proof (dlogPk_res H T c_ipk (i0 :: ipkraw) attribute_names) as Res. rewrite Imp in Res.
  destruct (dlogPk H T c_ipk (i0 :: ipkraw) attribute_names) as [k|k|]; cbn [res_of] in Res; [|discriminate Res..]. injection Res as ->. cbn [ibind].
  destruct rpk as [|r0 rpk]; [contradiction|]. cbn [length Nat.eqb].
  change (m_pemEpk M (r0 :: rpk)) with (ee_pem EE (r0 :: rpk)). rewrite Pem.
  rewrite (setup_signer_eq _ _ _ _ _ _ N). clear N. cbn zeta. cbn [ro_role].
  assert (Lk : length (sc_sk sg) =? 0 = false).
  { rewrite Sk, (ok_zr_len OK). apply Nat.eqb_neq. pose proof (scalar_pos OK). lia. }
  rewrite Lk.
  assert (Us : s_userKeyFromBytes X (sc_sk sg) = Ok (sk : u_zr (dlogU C EC))).
  { change (brUserKeyFromBytes C (sc_sk sg) = Ok sk). unfold brUserKeyFromBytes. rewrite Sk, (ok_zr_len OK), Nat.eqb_refl. cbn [guard bind]. rewrite (ok_zr_rt OK). reflexivity. }
  rewrite Us.
  destruct (@C14_bridge C OK H T c_nsig sk ipk B [] (dd_zr d1 0) z0 z0 z0 CN HB) as (Nym & RNym & sig & E1 & _).
  match goal with |- context [s_makeNym ?x ?d ?u ?p] => change (s_makeNym x d u p) with (brMakeNym T (Some sk) (Some (Some ipk)) (dd_zr d1 0)) end. rewrite E1.
  assert (Lc : length (sc_cred sg) =? 0 = false) by (destruct (sc_cred sg); [contradiction|reflexivity]). rewrite Lc.
  rewrite <- Mr.
  match goal with |- context [s_credVerify ?x ?u ?p ?r ?a] => change (s_credVerify x u p r a) with (brCredVerify H T c_cred (Some sk) (Some (Some ipk)) (sc_cred sg) (credential_attributes (sc_ou sg) mrole (sc_eid sg))) end.
  pose proof (credVerify_gen Rr Cv) as Cv1. rewrite Cv1.
  pose proof (credVerify_hide Cv1) as Cv2.
  destruct (@C02_bridge C OK H T TO c_ipk c_cred c_sig c_cri EC sha256 (i0 :: ipkraw) attribute_names ipk sk (sc_cred sg) cred A (claims (sc_ou sg) mrole)
              (dd_zr d1 0) Nym RNym rk [] 0 wsk (sc_cri sg) [] 3 2 (dd_sig d2) Standard CS CC ltac:(unfold int64; lia) Imp Cv2 E1 Ecri Ecred GA NA) as (proof & md' & Sign & _).
  { rewrite Nk. exact L4. } { rewrite Nk. reflexivity. }
  { exists 3. eexists. split; [lia|]. split; [reflexivity|]. reflexivity. } { cbn. lia. } { left. reflexivity. }
  { discriminate. } { discriminate. } { exact NZ. }
  match goal with |- context [s_sign ?x ?d ?cr ?u ?n ?r ?p ?a ?b ?i ?j ?ci ?st ?me] =>
    change (s_sign x d cr u n r p a b i j ci st me) with
      (brSign H T c_cred c_sig c_cri (sc_cred sg) (Some sk) (Some Nym) (Some RNym) (Some (Some ipk)) (claims (sc_ou sg) mrole) [] (Z.of_nat 3) (Z.of_nat 2) (sc_cri sg) (dd_sig d2) Standard None) end.
  rewrite Sign. eexists. reflexivity.
Qed.
