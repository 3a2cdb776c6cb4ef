(** * Which default identities an MSP accepts (C66, second part)

    Setup checks the credential of the signer but neither the revocation information nor the signature it makes; so the
    default identity may be one that the same MSP refuses.  For dlog this file says exactly when it does. *)
From Verif Require Import Base Curve Algebra Spec Dlog DlogSpec DlogFacts DlogComplete DlogSign DlogSound DlogAudit Bridge BridgeFacts Translator TranslatorFacts PropsDlog PropsBridge
  Csp CspInst CspSpec CspFacts PropsCsp RunSpec RunFacts Msp MspSpec MspFacts PropsMsp
  Proto ProtoFacts PropsProto Toy ToyDlog ToyCodec ToyCsp ToyMsp PropsStore PropsRun PropsWire PropsWireRun.
Unset Strict Implicit.
Local Open Scope zr_scope.

Section DlogSide.
  Variable C : Curve.
  Hypothesis OK : CurveOk C.
  Variable H : hasher C.
  Variable T : translator C.
  Hypothesis TO : TrOk T.

  Lemma finalise_fields cred sk Nym RNym ipk disc msg rhI eidI cri P R we wr meta sig md :
    finalise H T cred sk Nym RNym ipk disc msg rhI eidI cri P R we wr meta = Ok (sig, md) ->
    sg_aprime sig = Some (g1_to_proto T (pr_aprime P)) /\ sg_epochpk sig = cri_epochpk cri.
  Proof.
    intros E. unfold finalise in E. do 5 (apply bind_ok in E; destruct E as [? [_ E]]). injection E as <- _. split; reflexivity.
  Qed.

  Lemma sign_fields cred sk Nym RNym ipk disc msg rhI eidI cri R st meta sig md :
    NewSignature H T (Some cred) (Some sk) (Some Nym) (Some RNym) (Some ipk) disc msg rhI eidI (Some cri) R st meta = Ok (sig, md) ->
    exists P, prepare T cred sk ipk disc rhI cri R = Ok P /\ sg_aprime sig = Some (g1_to_proto T (pr_aprime P)) /\ sg_epochpk sig = cri_epochpk cri.
  Proof.
    assert (K : forall we wr, (let* P := prepare T cred sk ipk disc rhI cri R in finalise H T cred sk Nym RNym ipk disc msg rhI eidI cri P R we wr meta) = Ok (sig, md) ->
      exists P, prepare T cred sk ipk disc rhI cri R = Ok P /\ sg_aprime sig = Some (g1_to_proto T (pr_aprime P)) /\ sg_epochpk sig = cri_epochpk cri).
    { intros we wr E. apply bind_ok in E. destruct E as [P [E1 E]]. exists P. split; [exact E1|]. exact (finalise_fields E). }
    intros E. destruct st; cbn [NewSignature] in E; try discriminate E.
    - exact (K _ _ E).
    - do 2 (apply bind_ok in E; destruct E as [? [_ E]]). exact (K _ _ E).
    - do 4 (apply bind_ok in E; destruct E as [? [_ E]]). exact (K _ _ E).
  Qed.

  Lemma sign_rh cred sk Nym RNym ipk disc msg (rh : nat) eidI cri R st meta sig md :
    NewSignature H T (Some cred) (Some sk) (Some Nym) (Some RNym) (Some ipk) disc msg (Z.of_nat rh) eidI (Some cri) R st meta = Ok (sig, md) ->
    rh < length (cr_attrs cred).
  Proof.
    intros E. apply sign_fields in E. destruct E as (P & E & _). unfold prepare in E. repeat (apply bind_ok in E; destruct E as [? [? E]]).
    match goal with X : znth (cr_attrs cred) _ = Ok _ |- _ => rewrite znth_nat in X; apply nth_res_ok in X end.
    apply nth_error_Some. congruence.
  Qed.

  (** A signature made with a credential that verifies: Ver accepts it exactly in these cases. *)
  Lemma sign_verifies_iff cred sk Nym RNym ipk B disc msg rhI eidI cri R st meta sig md vals vt vmeta revpk (rev : revpk) epoch (A : G1 C) :
    ipk_bases T ipk B ->
    verCredential T cred sk ipk = Ok tt ->
    length (cr_attrs cred) = length disc -> length disc <= length (b_attrs B) ->
    g1_from_proto T (cr_a cred) = Ok A ->
    opens (b_hsk B) (b_hrand B) Nym sk RNym ->
    agrees_on_disclosed disc vals (map (fun a => zr_of_bytes C (ob a)) (cr_attrs cred)) ->
    compatible st vt = true ->
    vmeta = None \/ vmeta = md ->
    NewSignature H T (Some cred) (Some sk) (Some Nym) (Some RNym) (Some ipk) disc msg rhI eidI (Some cri) R st meta = Ok (sig, md) ->
    (Ver H T sig disc (Some ipk) msg vals rhI eidI rev epoch vt vmeta = Ok tt <->
     A <> gzero /\ rd_r1 R <> z0 /\ exists EP, g2_from_proto T (cri_epochpk cri) = Ok EP).
  Proof.
    intros HB HC La Ld EA Hnym Hag Hcomp Hvm E. split.
    - intro V. destruct (sign_fields E) as (P & EP & F1 & F2). edestruct (prepare_inv OK) as (A' & Bv & I1 & _ & _ & _ & _ & EPr); [exact HB|exact Ld|exact EP|].
      assert (A' = A) by congruence. subst A'. cbv zeta in EPr.
      assert (Q : pr_aprime P = A ⊗ rd_r1 R) by (rewrite EPr; reflexivity).
      unfold Ver in V. cbn [opt_err bind] in V. apply bind_ok in V. destruct V as [F [V _]].
      assert (NZ : A ⊗ rd_r1 R <> gzero /\ exists EP, g2_from_proto T (cri_epochpk cri) = Ok EP).
      { unfold Ver_first in V. rewrite F1, F2, (tr_g1 TO), Q in V.
        repeat (apply bind_ok in V; destruct V as [? [? V]]; cbv zeta beta in V).
        repeat match goal with X : Ok _ = Ok _ |- _ => injection X as <- end.
        split; [|eauto]. match goal with X : guard (negb (geqb (A ⊗ rd_r1 R) gzero)) = Ok _ |- _ => clear - X OK end.
        intro Z. rewrite Z, (geqb_refl (ok_g1 OK)) in *. discriminate. }
      destruct NZ as [NZ HE]. split; [intros ->; apply NZ; apply (gmul_zero (ok_g1 OK))|]. split; [|exact HE].
      intro Z. rewrite Z in NZ. apply NZ. apply (gmul_0 (ok_zr OK) (ok_g1 OK)).
    - intros (HA & NZ & EP & HE). eapply (@sign_verifies C OK H T TO); try eassumption. intros A' E'. congruence.
  Qed.
End DlogSide.

(** The bridge: Sign with a credential that verifies for the attribute list, then Verify. *)
Lemma bridge_verifies_iff (C : Curve) (OK : CurveOk C) (H : hasher C) (T : translator C) (TO : TrOk T)
    (c_cred : codec Credential) (c_sig : codec Signature) (c_cri : codec CRI)
    ipk B (sk : Zr C) craw cred (A : G1 C) attributes rnd Nym RNym criRaw cri msg (rh eid : nat) (R : SigRand C) st sigraw md :
  codec_ok canon_sig c_sig -> ipk_bases T ipk B ->
  brCredVerify H T c_cred (Some sk) (Some (Some ipk)) craw attributes = Ok tt ->
  brMakeNym T (Some sk) (Some (Some ipk)) rnd = Ok (Nym, RNym) ->
  dec c_cred craw = Some cred -> g1_from_proto T (cr_a cred) = Ok A -> length (cr_attrs cred) = length attributes -> length attributes <= length (b_attrs B) ->
  dec c_cri criRaw = Some cri -> int64 (cri_epoch cri) ->
  brSign H T c_cred c_sig c_cri craw (Some sk) (Some Nym) (Some RNym) (Some (Some ipk)) attributes msg (Z.of_nat rh) (Z.of_nat eid) criRaw R st None = Ok (sigraw, md) ->
  forall revpk (rev : revpk) ep vt vmeta, compatible st vt = true -> vmeta = None \/ vmeta = md ->
  (brVerify H T c_sig (Some (Some ipk)) sigraw msg attributes (Z.of_nat rh) (Z.of_nat eid) rev ep vt vmeta = Ok tt <->
   A <> gzero /\ rd_r1 R <> z0 /\ exists EP, g2_from_proto T (cri_epochpk cri) = Ok EP).
Proof.
  intros CS HB Ecred Enym Edec EA L1 L2 Dcri Hep S revpk rev ep vt vmeta Hc Hm.
  apply (proj1 (recover_ok _ _)) in Ecred. cbn [opt_err bind deref] in Ecred. rewrite Edec in Ecred. cbn [opt_err bind] in Ecred.
  apply bind_ok in Ecred. destruct Ecred as [[] [Em Ecred]].
  pose proof (proj1 (attrs_match_iff H cred attributes 0) Em) as Carry. cbn [Nat.add] in Carry.
  apply (proj1 (recover_ok _ _)) in Enym. cbn [opt_err bind deref] in Enym. unfold makeNym in Enym. destruct HB as (B1 & B2 & B3 & B4).
  rewrite B1, B2 in Enym. cbn [bind] in Enym. injection Enym as <- <-.
  assert (HB : ipk_bases T ipk B) by (repeat split; assumption).
  assert (Typed : forall a, In a attributes -> at_type a = HiddenAttr \/ attr_scalar H a <> None).
  { intros a Ha. apply In_nth_error in Ha. destruct Ha as [j Hj]. destruct (Carry j a Hj) as [X|(v & x & X & _)]; [left; exact X|].
    right. rewrite X. discriminate. }
  destruct (@verify_values C H attributes Typed) as (vs & V1 & V2 & V3).
  assert (Ld : length (sign_disclosure attributes) = length attributes) by apply map_length.
  apply (proj1 (recover_ok _ _)) in S. cbn [opt_err bind] in S. rewrite Edec in S. cbn [opt_err bind] in S. rewrite Dcri in S. cbn [opt_err bind] in S.
  apply bind_ok in S. destruct S as [[sig md'] [Sg S]]. cbn [fst snd] in S. apply bind_ok in S. destruct S as [sraw [En S]]. injection S as <- <-.
  destruct (CS sig (sig_canonical OK Sg Hep)) as (sraw' & Y1 & Y2). rewrite Y1 in En. injection En as <-.
  rewrite <- (@sign_verifies_iff C OK H T TO cred sk (gmul2 (b_hsk B) sk (b_hrand B) rnd) rnd ipk B (sign_disclosure attributes) msg (Z.of_nat rh) (Z.of_nat eid) cri R st None sig md'
            (map (attr_scalar H) attributes) vt vmeta revpk rev ep A); try assumption; try lia; try reflexivity.
  - unfold brVerify. rewrite recover_ok. cbn [opt_err bind]. rewrite Y2. cbn [opt_err bind]. rewrite V1. cbn [bind]. rewrite V2, V3. reflexivity.
  - intros j d Hj Hd. unfold sign_disclosure in Hj. rewrite nth_error_map in Hj.
    destruct (nth_error attributes j) as [a|] eqn:Ea; [|discriminate]. cbn in Hj.
    destruct (Carry j a Ea) as [Ht|(v & x & X1 & X2 & X3)].
    + rewrite Ht in Hj. injection Hj as <-. exfalso. apply Hd. reflexivity.
    + exists v. rewrite !nth_error_map, Ea, X2. cbn. rewrite X1, X3, (ok_zr_rt OK). split; reflexivity.
Qed.

(** ** C66 for dlog.  After every successful Setup with a signer whose credential has an attribute for each of the four names:
    the default identity is accepted exactly if the key in the revocation information can be read as a point of G2, and
    neither the point of the credential nor the first random scalar is zero.  Its signatures verify in any case.  Missing:
    Setup does not look at any of the three (C66_dlog_refuted). *)
Theorem C66_dlog_exact_partial : forall CD C (OK : CurveOk C) (H : hasher C) (T : translator C) (TO : TrOk T) c_ipk c_ik c_req c_cred c_sig c_nsig c_cri EC (EE : ecenv EC) sha256
    (E : env (dlogU C EC)) h l m d1 d2 ty raw cf sg h' cred,
  let X := dlog_scheme H T c_ipk c_ik c_req c_cred c_sig c_nsig c_cri EE sha256 in
  let M := dlog_math T EE sha256 in
  codec_ok canon_sig c_sig -> codec_ok (fun _ => True) c_nsig -> nothing_is no_signature c_sig -> nothing_is no_nymsig c_nsig ->
  (forall b cri, dec c_cri b = Some cri -> int64 (cri_epoch cri)) ->
  (forall cid p, configured_curve (ev_aries E) (cf_curve cf) = Some cid -> ev_pack E cid = Some p -> p = (X, M)) -> nth_error h l = Some m ->
  Setup CD E h l d1 d2 (Some (ty, raw)) = (Ok tt, h') ->
  dec (c_conf CD) raw = Some cf -> cf_signer cf = Some sg ->
  dec c_cred (sc_cred sg) = Some cred -> length (cr_attrs cred) = 4 ->
  exists m' s A cri, nth_error h' l = Some m' /\ GetDefaultSigningIdentity m' = Ok s /\
    p_name m' = cf_name cf /\ ou_id (i_ou (g_identity s)) = sc_ou sg /\
    ro_role (i_role (g_identity s)) = (if checkRole (sc_role sg) ADMIN then MSPRole_ADMIN else MSPRole_MEMBER) /\
    g1_from_proto T (cr_a cred) = Ok A /\ dec c_cri (sc_cri sg) = Some cri /\
    (Validate h' l (IdSigning s) = Ok tt <-> A <> gzero /\ rd_r1 (dd_sig d2) <> z0 /\ exists EP, g2_from_proto T (cri_epochpk cri) = Ok EP) /\
    forall d msg, exists sig, id_Sign h' s d msg = Ok sig /\ id_Verify h' (g_identity s) msg sig = Ok tt.
Proof.
  intros CD C OK H T TO c_ipk c_ik c_req c_cred c_sig c_nsig c_cri EC EE sha256 E h l m d1 d2 ty raw cf sg h' cred X M
    CS CN ZS ZN Hep PK L S D G Ecred L4.
  unfold Setup in S. rewrite L in S. destruct (setup_at CD E l m d1 d2 (Some (ty, raw))) as [r0 m'] eqn:S0. injection S as -> <-.
  destruct (setup_ok_inv S0) as (ty' & raw' & cf' & cid & X0 & M0 & ipk & r & Q & D' & _ & CIq & P & _ & I & _ & _ & R & Nm & Sg).
  injection Q as <- <-. rewrite D in D'. injection D' as <-. rewrite G in Sg. rewrite curve_spec in CIq. pose proof (PK _ _ CIq P) as Q. injection Q as -> ->. fold X in R, Sg, I. fold M in R, Sg.
  destruct Sg as (s & Hs & sk & nym & rr & md & _ & _ & K3 & _ & K5 & K6 & K7 & _ & K9 & K10 & _).
  assert (Lm : nth_error (put h l m') l = Some m') by exact (put_same m' L).
  change (s_issuerPkFromBytes X (cf_ipk cf) attribute_names) with (let+ k := dlogPk H T c_ipk (cf_ipk cf) attribute_names in IOk (Some (Some k) : u_ipk (dlogU C EC))) in I.
  destruct (dlogPk H T c_ipk (cf_ipk cf) attribute_names) as [k|k|] eqn:Ipk; cbn [ibind] in I; [|discriminate I..]. injection I as <-.
  assert (Imp : brNewPublicKeyFromBytes H T c_ipk (cf_ipk cf) attribute_names = Ok k) by (rewrite <- dlogPk_res, Ipk; reflexivity).
  destruct (C17_import_checked Imp) as [Chk _].
  assert (HB : exists B, ipk_bases T k B).
  { unfold checkIPK in Chk. apply bind_ok in Chk. destruct Chk as [pd [F1 _]]. destruct (checkIPK_first_inv OK F1) as (_ & _ & _ & B & HB & _). exists B. exact HB. }
  destruct HB as [B HB].
  set (role := if checkRole (sc_role sg) ADMIN then MSPRole_ADMIN else MSPRole_MEMBER) in *. cbn [ro_role] in K5.
  assert (K5' : brCredVerify H T c_cred (Some sk) (Some (Some k)) (sc_cred sg) (claims (sc_ou sg) role) = Ok tt) by exact (credVerify_hide K5).
  assert (K6' : brSign H T c_cred c_sig c_cri (sc_cred sg) (Some sk) (Some nym) (Some rr) (Some (Some k)) (claims (sc_ou sg) role) [] 3 2 (sc_cri sg) (dd_sig d2) Standard None
                = Ok (i_proof (g_identity s), md)) by exact K6.
  (* the credential *)
  pose proof K5' as V. apply (proj1 (recover_ok _ _)) in V. cbn [opt_err bind deref] in V. rewrite Ecred in V. cbn [opt_err bind] in V.
  apply bind_ok in V. destruct V as [[] [_ V]]. apply (proj1 (verCredential_iff OK cred sk HB)) in V.
  destruct V as (A & e & sv & attrs & (EA & _ & _ & At) & _ & Lb & _).
  assert (Lb' : 4 <= length (b_attrs B)) by (rewrite <- At, map_length, L4 in Lb; exact Lb). clear Lb At.
  (* the revocation information *)
  assert (Dc : exists cri, dec c_cri (sc_cri sg) = Some cri).
  { pose proof K6' as V. apply (proj1 (recover_ok _ _)) in V. cbn [opt_err bind] in V. rewrite Ecred in V. cbn [opt_err bind] in V.
    apply bind_ok in V. destruct V as [cri [V _]]. destruct (dec c_cri (sc_cri sg)) as [c0|]; [eauto|discriminate V]. }
  destruct Dc as [cri Dc].
  exists m', s, A, cri. split; [exact Lm|]. split; [unfold GetDefaultSigningIdentity; rewrite Hs; reflexivity|]. split; [exact Nm|].
  split; [rewrite K7; reflexivity|]. split; [rewrite K7; reflexivity|]. split; [exact EA|]. split; [exact Dc|].
  assert (IM : i_msp (g_identity s) = l) by (rewrite K7; reflexivity). split.
  - assert (NE : i_proof (g_identity s) <> []) by exact (sig_nonempty OK CS ZS (Hep (sc_cri sg)) K6').
    transitivity (Validate (put h l m') l (IdPlain (g_identity s)) = Ok tt); [reflexivity|].
    rewrite (C51_partial Lm (eq_trans (f_equal _ IM) Lm) R).
    replace (ou_id (i_ou (g_identity s))) with (sc_ou sg) by (rewrite K7; reflexivity). replace (ro_role (i_role (g_identity s))) with role by (rewrite K7; reflexivity).
    pose proof (@bridge_verifies_iff C OK H T TO c_cred c_sig c_cri k B sk (sc_cred sg) cred A (claims (sc_ou sg) role) (dd_zr d1 0) nym rr (sc_cri sg) cri [] 3 2 (dd_sig d2) Standard
      (i_proof (g_identity s)) md CS HB K5' K3 Ecred EA L4 Lb' Dc (Hep _ _ Dc) K6' _ (Some r) 0%Z Basic None eq_refl (or_introl eq_refl)) as V.
    split.
    + intros (_ & _ & Q). apply V. exact Q.
    + intros Q. split; [reflexivity|]. split; [exact NE|]. apply V. exact Q.
  - intros d msg.
    destruct (@C14_bridge C OK H T c_nsig sk k B msg (dd_zr d1 0) (dd_zr d 0) (dd_zr d 1) (dd_zr d 2) CN HB) as (Nym & RNym & sig & E1 & E2 & E3).
    assert (K3' : brMakeNym T (Some sk) (Some (Some k)) (dd_zr d1 0) = Ok (nym, rr)) by exact K3.
    pose proof (eq_trans (eq_sym K3') E1) as Q. injection Q as <- <-.
    exists sig. assert (Li : nth_error (put h l m') (i_msp (g_identity s)) = Some m') by (rewrite IM; exact Lm). split.
    + rewrite (id_sign_ready d msg Li R K9 K10). exact E2.
    + pose proof (nymsig_nonempty OK CN ZN E2) as NE. assert (Hn : i_nym (g_identity s) = KNymPublic nym) by (rewrite K7; reflexivity). rewrite (id_verify_ready msg sig Li R Hn). clear R.
      destruct (length sig =? 0) eqn:Z; [apply Nat.eqb_eq, length_zero_iff_nil in Z; contradiction|]. exact E3.
Qed.
Print Assumptions C66_dlog_exact_partial.

(** With the protobuf encoding nothing is assumed about the codecs, and the revocation information of a configuration without
    one (the empty string) has no key. *)
Lemma signed_range w v : (0 < w)%Z -> (- 2 ^ (w - 1) <= signed w v < 2 ^ (w - 1))%Z.
Proof.
  intros W. unfold signed. assert (P : (0 < 2 ^ w)%Z) by lia. assert (Q : (2 ^ w = 2 * 2 ^ (w - 1))%Z) by (rewrite <- Z.pow_succ_r by lia; f_equal; lia).
  pose proof (Z.mod_pos_bound v (2 ^ w) P). destruct (_ <? _)%Z eqn:L; lia.
Qed.
Lemma cri_reads : forall b cri, dec pb_cri b = Some cri -> int64 (cri_epoch cri).
Proof.
  intros b cri E. unfold pb_cri, pb in E. cbn [dec] in E. destruct (parse b) as [fs|]; [|discriminate]. unfold r_cri in E.
  destruct (r_msg r_ecp2 2 fs); [|discriminate]. injection E as <-. cbn [cri_epoch]. unfold r_int, int64. pose proof (@signed_range 64 (last (vars 1 fs) 0%Z) ltac:(lia)). lia.
Qed.
Lemma cri_nothing : dec pb_cri [] = Some {| cri_epoch := 0; cri_epochpk := None; cri_sig := []; cri_alg := 0 |}.
Proof. reflexivity. Qed.

Theorem C66_dlog_wire_partial : forall CD C (OK : CurveOk C) (H : hasher C) (T : translator C) (TO : TrOk T) EC (EE : ecenv EC) sha256
    (E : env (dlogU C EC)) h l m d1 d2 ty raw cf sg h' cred,
  let X := dlog_scheme H T pb_ipk pb_ik pb_req pb_cred pb_sig pb_nsig pb_cri EE sha256 in
  let M := dlog_math T EE sha256 in
  (forall cid p, configured_curve (ev_aries E) (cf_curve cf) = Some cid -> ev_pack E cid = Some p -> p = (X, M)) -> nth_error h l = Some m ->
  Setup CD E h l d1 d2 (Some (ty, raw)) = (Ok tt, h') ->
  dec (c_conf CD) raw = Some cf -> cf_signer cf = Some sg ->
  dec pb_cred (sc_cred sg) = Some cred -> length (cr_attrs cred) = 4 ->
  exists m' s A cri, nth_error h' l = Some m' /\ GetDefaultSigningIdentity m' = Ok s /\
    p_name m' = cf_name cf /\ ou_id (i_ou (g_identity s)) = sc_ou sg /\
    ro_role (i_role (g_identity s)) = (if checkRole (sc_role sg) ADMIN then MSPRole_ADMIN else MSPRole_MEMBER) /\
    g1_from_proto T (cr_a cred) = Ok A /\ dec pb_cri (sc_cri sg) = Some cri /\
    (Validate h' l (IdSigning s) = Ok tt <-> A <> gzero /\ rd_r1 (dd_sig d2) <> z0 /\ exists EP, g2_from_proto T (cri_epochpk cri) = Ok EP) /\
    forall d msg, exists sig, id_Sign h' s d msg = Ok sig /\ id_Verify h' (g_identity s) msg sig = Ok tt.
Proof.
  intros. destruct C78_read_back as ((_ & _ & _ & _ & L5 & L6 & _) & _ & _ & (N1 & N2 & N3 & N4 & N5 & N6 & _) & _ & _).
  eapply (@C66_dlog_exact_partial CD C OK H T TO pb_ipk pb_ik pb_req pb_cred pb_sig pb_nsig pb_cri EC EE sha256); eauto; [intros ? Q; congruence|intros ? Q; congruence|exact cri_reads].
Qed.
Print Assumptions C66_dlog_wire_partial.

(** ** The claim as it stands is false: the configuration of a signer without revocation information is accepted by Setup, and
    the same MSP refuses the default identity it made. *)
Definition z_conf (cri : bytes) : res msp_config :=
  let* isk := rkeys (KeyGen xKS wcsp xdisk (rdraw 0) (Some (GIssuer true tnames))) in
  let* ipk := key_public vX xM isk in
  let* pkraw := key_bytes vX xM ipk in
  let* '(_, cred) := wcredential in
  Ok {| cf_name := mname; cf_ipk := pkraw; cf_revpk := xpem (str "k"); cf_epoch := 0; cf_curve := [];
        cf_signer := Some {| sc_cred := cred; sc_sk := zr_bytes tC f13; sc_ou := str "ou"; sc_role := 2; sc_eid := str "id"; sc_cri := cri; sc_rh := str "rh"; sc_curve := [] |} |}.
Definition z_cri : bytes := from_ok [] (brRevSign (EC := xEC) tT pb_cri bsha (Some (str "k" : ec_sk xEC)) [] 0 0 f1).
(** the outcomes of Setup and of Validate on the default identity *)
Definition z_run (cri : bytes) : res (res unit * res unit) :=
  let* cf := z_conf cri in
  let* raw := opt_err (enc (c_conf pb_msp) cf) in
  let '(r, h) := Setup pb_msp vE [m0] 0 xdraw xdraw (Some (IDEMIX, raw)) in
  let* m := deref (nth_error h 0) in
  let* s := GetDefaultSigningIdentity m in
  Ok (r, Validate h 0 (IdSigning s)).
Theorem C66_dlog_refuted : z_run [] = Ok (Ok tt, Err) /\ z_run z_cri = Ok (Ok tt, Ok tt).
Proof. split; vm_compute; reflexivity. Qed.
Print Assumptions C66_dlog_refuted.
