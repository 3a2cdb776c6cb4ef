(** * Credentials that verify and crash their holder in the aries scheme (C96), and Setup of an aries MSP (C64)

    Reading guide: [issuer_key HG pk n] is the public key of an issuer for [n] attributes; [shown attributes] is the number of
    attributes a presentation discloses; [ac_skpos c] is the position of the user secret key that the credential announces.
    [Setup CD E h l d1 d2 conf] sets up the MSP at location [l] of the heap [h]; [cf_signer cf] is the signer part of its
    configuration and [attribute_names] the four attributes of an MSP. *)
From Verif Require Import Base Curve Algebra Spec Dlog Bridge BridgeFacts Bbs BbsSpec BbsFacts BbsProof BbsComplete
  Aries AriesSpec AriesIssue AriesNym AriesVerify AriesForge BbsPanic AriesPanic AriesSign AriesSignPanic Csp CspSpec CspInst CspFacts Translator Msp MspSpec MspFacts
  Idemixgen GenSpec Toy ToyBbs ToyCodec ToyAries ToyCsp ToyMsp PropsAries PropsCsp PropsMsp PropsGen PropsMspAries PropsAriesPanic.
Unset Strict Implicit.

(** the attribute at a position is hidden *)
Definition hidden_at (attributes : list attribute) (i : nat) : Prop := exists a, nth_error attributes i = Some a /\ at_type a = HiddenAttr.
(** how many attributes are disclosed *)
Definition shown (attributes : list attribute) : nat :=
  length (filter (fun a => match at_type a with HiddenAttr => false | _ => true end) attributes).

Lemma shown_revealed attributes : length (revealedAttributesIndex attributes) = shown attributes.
Proof.
  unfold revealedAttributesIndex, shown. generalize 1. induction attributes as [|a l IH]; intro i; [reflexivity|]. cbn [revealed_from filter]. unfold is_hidden.
  destruct (at_type a); cbn [length]; rewrite IH; reflexivity.
Qed.

Lemma hidden_spec attributes i : attr_hidden attributes (Z.of_nat i) = Ok true <-> hidden_at attributes i.
Proof.
  unfold attr_hidden, hidden_at. rewrite znth_nat. unfold nth_res. destruct (nth_error attributes i) as [a|]; cbn [bind]; [|split; [discriminate|intros (a & E & _); discriminate]].
  unfold is_hidden. split; [intro E; exists a; split; [reflexivity|]; destruct (at_type a); try discriminate; reflexivity|intros (a' & E & T); injection E as <-; rewrite T; reflexivity].
Qed.

Lemma arg_check_spec attributes rh eid st : is_smartcard st = false ->
  sign_arg_check attributes (Z.of_nat rh) (Z.of_nat eid) st = Ok tt <-> (has_eid st = true -> hidden_at attributes eid) /\ (has_rh st = true -> hidden_at attributes rh).
Proof.
  intro SC. rewrite <- !hidden_spec. unfold sign_arg_check. destruct st; try discriminate SC; cbn [has_eid has_rh bind].
  - split; [intros _; split; discriminate|reflexivity].
  - destruct (attr_hidden attributes (Z.of_nat eid)) as [[]| |]; cbn; try (split; [discriminate|intros [F _]; specialize (F eq_refl); discriminate]).
    split; [intros _; split; [reflexivity|discriminate]|reflexivity].
  - destruct (attr_hidden attributes (Z.of_nat eid)) as [[]| |]; cbn; try (split; [discriminate|intros [F _]; specialize (F eq_refl); discriminate]).
    destruct (attr_hidden attributes (Z.of_nat rh)) as [[]| |]; cbn; try (split; [discriminate|intros [_ F]; specialize (F eq_refl); discriminate]).
    split; [intros _; split; reflexivity|reflexivity].
  - split; [intros _; split; discriminate|reflexivity].
Qed.

(** ** C96 *)
(** A credential of the shape the issuer gives it, one value for each attribute and the user secret key in front: whatever
    else it holds, Sign returns a signature or an error. *)
Theorem C96_issued_shape : forall C (OK : CurveOk C) (HG : bytes -> G1 C) (H : hasher C) (c_cred : codec ACredential) (c_sig : codec ASignature) (c_cri : codec ACRI)
    (pk : G2 C) (n : nat) (credBytes : bytes) (c : ACredential) (sk : Zr C) (Nym : G1 C) (RNym : Zr C) (attributes : list attribute) (msg : bytes)
    (rh eid : nat) (criRaw : bytes) (st : SignatureType) (meta : option (Metadata C)) (R : ASigRand C),
  bls_sizes C -> (Z.of_nat n < 2 ^ 32 - 3)%Z -> length attributes = n -> rh < n -> eid < n -> is_smartcard st = false -> st <> OtherSig ->
  complete_audit (md_eid_audit meta) -> complete_audit (md_rh_audit meta) ->
  dec c_cred credBytes = Some c -> length (ac_attrs c) = n -> ac_skpos c = 0%Z ->
  arSign H c_cred c_sig c_cri credBytes sk Nym RNym (Some (Some (issuer_key HG pk n))) attributes msg (Z.of_nat rh) (Z.of_nat eid) criRaw st meta R <> Panic.
Proof.
  intros C OK HG H c_cred c_sig c_cri pk n credBytes c sk Nym RNym attributes msg rh eid criRaw st meta R BS Ln La Lr Le SC Kn A1 A2 D LA P.
  apply (@sign_np C OK HG BS H c_cred c_sig c_cri pk n 0 credBytes c); try assumption. apply (rv_le La).
Qed.
Print Assumptions C96_issued_shape.

(** Sign after a successful verification of the credential: it panics exactly if the credential has more attributes than the
    issuer certifies, or announces a position of the user secret key too far behind for the number of attributes that are
    disclosed.  (The enrollment id and the revocation handle must be hidden where the signature has a pseudonym of them, and
    the revocation information readable; otherwise Sign returns an error first.)  Missing: nothing rejects these
    credentials (C96_refuted). *)
Theorem C96_partial : forall C (OK : CurveOk C) (HG : bytes -> G1 C) (H : hasher C) (c_cred : codec ACredential) (c_sig : codec ASignature) (c_cri : codec ACRI)
    (pk : G2 C) (n : nat) (credBytes : bytes) (c : ACredential) (sk : Zr C) (Nym : G1 C) (RNym : Zr C) (certified attributes : list attribute) (msg : bytes)
    (rh eid : nat) (criRaw : bytes) (st : SignatureType) (meta : option (Metadata C)) (R : ASigRand C),
  bls_sizes C -> (Z.of_nat n < 2 ^ 32 - 3)%Z -> length attributes = n -> rh < n -> eid < n -> is_smartcard st = false -> st <> OtherSig ->
  complete_audit (md_eid_audit meta) -> complete_audit (md_rh_audit meta) ->
  length certified = n -> Forall typed certified -> dec c_cred credBytes = Some c ->
  let ipk := Some (Some (issuer_key HG pk n)) in
  arCredVerify H c_cred sk ipk credBytes certified = Ok tt ->
  (arSign H c_cred c_sig c_cri credBytes sk Nym RNym ipk attributes msg (Z.of_nat rh) (Z.of_nat eid) criRaw st meta R = Panic <->
   (has_eid st = true -> hidden_at attributes eid) /\ (has_rh st = true -> hidden_at attributes rh) /\
   (exists cri, dec c_cri criRaw = Some cri /\ acri_alg cri = 0%Z) /\
   (n < length (ac_attrs c) \/ (Z.of_nat n < ac_skpos c + Z.of_nat (shown attributes))%Z)).
Proof.
  intros C OK HG H c_cred c_sig c_cri pk n credBytes c sk Nym RNym certified attributes msg rh eid criRaw st meta R BS Ln La Lr Le SC Kn A1 A2 Lc Ty D ipk V.
  apply (credVerify_iff OK HG H BS c_cred sk pk credBytes Lc Ty) in V. destruct V as (c' & sg & k & D' & PS & Sp & Lk & Lm & _ & Sig).
  rewrite D in D'. injection D' as <-. rewrite Sp, <- (shown_revealed attributes).
  assert (PP : passes c_cri attributes rh eid criRaw st <-> (has_eid st = true -> hidden_at attributes eid) /\ (has_rh st = true -> hidden_at attributes rh) /\ exists cri, dec c_cri criRaw = Some cri /\ acri_alg cri = 0%Z).
  { unfold passes. rewrite (arg_check_spec attributes rh eid SC). tauto. }
  split.
  - intro E. pose proof (@sign_panic_passes C HG BS H c_cred c_sig c_cri pk n k credBytes sk Nym RNym attributes msg rh eid criRaw st meta R La Lr Le SC E) as Q. apply PP in Q.
    destruct Q as (Q1 & Q2 & Q3). split; [exact Q1|]. split; [exact Q2|]. split; [exact Q3|].
    destruct (Nat.eq_dec (length (ac_attrs c)) n) as [Ec|Ec]; [|left; lia]. right.
    destruct (Nat.le_gt_cases (k + length (revealedAttributesIndex attributes)) n) as [L|L]; [|lia].
    exfalso. revert E. apply (@sign_np C OK HG BS H c_cred c_sig c_cri pk n k credBytes c); assumption.
  - intros (Q1 & Q2 & Q3 & Q). apply (@sign_panics C OK HG BS H c_cred c_sig c_cri pk n k credBytes c sk Nym RNym attributes msg rh eid criRaw st meta R D Sp La Lr Le SC sg); try assumption.
    + apply PP. auto.
    + destruct (Nat.eq_dec (length (ac_attrs c)) n) as [Ec|Ec]; [|left; lia]. right. split; [exact Ec|]. split; [destruct Q; lia|].
      replace (map (zr_of_bytes C) (ac_attrs c)) with (firstn n (map (zr_of_bytes C) (ac_attrs c))); [exact Sig|]. rewrite firstn_all2; [reflexivity|rewrite map_length; lia].
Qed.
Print Assumptions C96_partial.

(** From every credential of every issuer one makes, by adding an attribute and without any key, a credential that the
    holder's verification accepts and with which every call of Sign that would succeed with the original panics. *)
Theorem C96_refuted : forall C (OK : CurveOk C) (HG : bytes -> G1 C) (H : hasher C) (c_cred : codec ACredential),
  bls_sizes C -> codec_ok canon_acred c_cred ->
  forall (pk : G2 C) (n : nat) (sk : Zr C) (credBytes : bytes) (c : ACredential) (certified : list attribute) (extra : bytes),
  length certified = n -> Forall typed certified -> dec c_cred credBytes = Some c -> length (ac_attrs c) = n ->
  let ipk := Some (Some (issuer_key HG pk n)) in
  arCredVerify H c_cred sk ipk credBytes certified = Ok tt -> (Z.of_nat n < 2 ^ 31)%Z ->
  exists bad, arCredVerify H c_cred sk ipk bad certified = Ok tt /\
    forall (c_sig : codec ASignature) (c_cri : codec ACRI) (Nym : G1 C) (RNym : Zr C) (attributes : list attribute) (msg : bytes)
        (rh eid : nat) (criRaw : bytes) (st : SignatureType) (meta : option (Metadata C)) (R : ASigRand C) out,
      length attributes = n -> rh < n -> eid < n -> is_smartcard st = false -> complete_audit (md_eid_audit meta) -> complete_audit (md_rh_audit meta) ->
      arSign H c_cred c_sig c_cri credBytes sk Nym RNym ipk attributes msg (Z.of_nat rh) (Z.of_nat eid) criRaw st meta R = Ok out ->
      arSign H c_cred c_sig c_cri bad sk Nym RNym ipk attributes msg (Z.of_nat rh) (Z.of_nat eid) criRaw st meta R = Panic.
Proof.
  intros C OK HG H c_cred BS CC pk n sk credBytes c certified extra Lc Ty D LA ipk V Ln.
  apply (credVerify_iff OK HG H BS c_cred sk pk credBytes Lc Ty) in V. destruct V as (c' & sg & k & D' & PS & Sp & Lk & Lm & Agr & Sig).
  rewrite D in D'. injection D' as <-.
  set (cx := {| ac_cred := ac_cred c; ac_attrs := ac_attrs c ++ [extra]; ac_skpos := ac_skpos c |}).
  destruct (CC cx) as (bad & E & Dx); [unfold canon_acred, int32, cx; cbn [ac_skpos]; lia|].
  assert (F : firstn n (map (zr_of_bytes C) (ac_attrs cx)) = firstn n (map (zr_of_bytes C) (ac_attrs c))).
  { unfold cx. cbn [ac_attrs]. rewrite map_app, firstn_app, map_length, LA, Nat.sub_diag. cbn [firstn]. apply app_nil_r. }
  assert (W : arCredVerify H c_cred sk ipk bad certified = Ok tt).
  { apply (credVerify_iff OK HG H BS c_cred sk pk bad Lc Ty). exists cx, sg, k. rewrite F. split; [exact Dx|]. split; [exact PS|]. split; [exact Sp|]. split; [exact Lk|].
    split; [unfold cx; cbn [ac_attrs]; rewrite app_length; lia|]. split; [exact Agr|exact Sig]. }
  exists bad. split; [exact W|]. intros c_sig c_cri Nym RNym attributes msg rh eid criRaw st meta R out La Lr Le SC A1 A2 S.
  apply (@C96_partial C OK HG H c_cred c_sig c_cri pk n bad cx sk Nym RNym certified attributes msg rh eid criRaw st meta R); try assumption; [lia|exact (sign_known S)|].
  unfold arSign in S. apply bind_ok in S. destruct S as [[] [S0 S]]. apply (arg_check_spec attributes rh eid SC) in S0. destruct S0 as [S1 S2].
  split; [exact S1|]. split; [exact S2|]. split; [|left; unfold cx; cbn [ac_attrs]; rewrite app_length; cbn [length]; lia].
  cbn [assert_ptr ipk bind] in S. destruct (dec c_cri criRaw) as [cri|]; [|discriminate]. cbn [opt_err bind] in S. exists cri. split; [reflexivity|].
  destruct (acri_alg cri =? 0)%Z eqn:G; [lia|discriminate].
Qed.
Print Assumptions C96_refuted.

(** the user of ToyAries.v: their credential, and the one with an attribute more, verify; a call of Sign succeeds with the first *)
Definition xa_long_cred : bytes := ser s_acred {| ac_cred := ac_cred xa_cred; ac_attrs := ac_attrs xa_cred ++ [str "x"]; ac_skpos := ac_skpos xa_cred |}.
Definition xa_sign_with (cred : bytes) (st : SignatureType) : res (bytes * option (Metadata toy32)) :=
  let* '(Nym, RNym) := arMakeNym 0 xa_sk xa_key xa_RNym in
  arSign h32 xa_ccred xa_csig xa_ccri cred xa_sk Nym RNym xa_key xa_attrs (str "message") 2 1 xa_crib st None xa_R.
Example C96_example :
  bls_sizes toy32 /\ length xa_certified = 3 /\ Forall typed xa_certified /\ length xa_attrs = 3 /\ dec xa_ccred xa_credb = Some xa_cred /\ length (ac_attrs xa_cred) = 3 /\
  complete_audit (@md_eid_audit toy32 None) /\ hidden_at xa_attrs 1 /\ hidden_at xa_attrs 2 /\ shown xa_attrs = 1 /\
  is_ok (arCredVerify h32 xa_ccred xa_sk xa_key xa_credb xa_certified) = true /\ is_ok (arCredVerify h32 xa_ccred xa_sk xa_key xa_long_cred xa_certified) = true /\
  map (fun st => is_ok (xa_sign_with xa_credb st)) [Standard; EidNym; EidNymRhNym] = [true; true; true] /\
  map (fun st => match xa_sign_with xa_long_cred st with Panic => true | _ => false end) [Standard; EidNym; EidNymRhNym] = [true; true; true].
Proof.
  split; [exact toy32_sizes|]. split; [reflexivity|]. split; [repeat constructor; discriminate|]. split; [reflexivity|]. split; [exact xa_dec_cred|]. split; [reflexivity|].
  split; [discriminate|]. split; [eexists; split; reflexivity|]. split; [eexists; split; reflexivity|]. split; [reflexivity|]. vm_compute. repeat split; reflexivity.
Qed.

(** ** C64: which configurations crash Setup of an aries MSP *)
(** Setup panics exactly if the issuer public key is empty or cannot be imported, or the configuration names a signer whose
    credential crashes its verification (C95) or, after it was accepted, the signature of the default identity (C96).
    [imported] says that the issuer, the revocation key and the signer's secret key could be read. *)
Theorem C64_aries_partial : forall CD C (OK : CurveOk C) (HG : bytes -> G1 C) (H : hasher C) hkdf c_cred c_sig c_nsig c_cri EC (EE : ecenv EC) sha256 (T : translator C)
    (E : env (ariesU C EC)) h l m d1 d2 raw cf cid,
  let X := aries_scheme HG H hkdf c_cred c_sig c_nsig c_cri EE sha256 in
  let M := aries_math T EE sha256 in
  bls_sizes C -> nth_error h l = Some m -> ev_aries E = true -> dec (c_conf CD) raw = Some cf ->
  configured_curve (ev_aries E) (cf_curve cf) = Some cid -> ev_pack E cid = Some (X, M) ->
  let imported sg pk sk :=
    cf_ipk cf <> [] /\ arNewPublicKeyFromBytes HG (cf_ipk cf) attribute_names = Ok (issuer_key HG pk 4) /\
    cf_revpk cf <> [] /\ (exists rpk, m_pemEpk M (cf_revpk cf) = Some rpk) /\
    cf_signer cf = Some sg /\ sc_sk sg <> [] /\ arUserKeyFromBytes C (sc_sk sg) = Ok sk /\ sc_cred sg <> [] in
  let expected sg := credential_attributes (sc_ou sg) (if checkRole (sc_role sg) ADMIN then MSPRole_ADMIN else MSPRole_MEMBER) (sc_eid sg) in
  (fst (Setup CD E h l d1 d2 (Some (IDEMIX_ARIES, raw))) = Panic <->
   cf_ipk cf = [] \/ arNewPublicKeyFromBytes HG (cf_ipk cf) attribute_names = Err \/
   exists sg pk sk c cs, imported sg pk sk /\ dec c_cred (sc_cred sg) = Some c /\ parseSignature C (ac_cred c) = Ok cs /\
     (((length (ac_attrs c) < 4 \/ (ac_skpos c < 0 \/ 4 < ac_skpos c)%Z) /\
       Forall2 (attr_agrees H) (firstn (length (ac_attrs c)) (expected sg)) (firstn 4 (map (zr_of_bytes C) (ac_attrs c)))) \/
      (arCredVerify H c_cred sk (Some (Some (issuer_key HG pk 4))) (sc_cred sg) (expected sg) = Ok tt /\
       (exists cri, dec c_cri (sc_cri sg) = Some cri /\ acri_alg cri = 0%Z) /\ (4 < length (ac_attrs c) \/ (2 < ac_skpos c)%Z)))).
Proof.
  intros CD C OK HG H hkdf c_cred c_sig c_nsig c_cri EC EE sha256 T E h l m d1 d2 raw cf cid X M BS L A D Cu P imported expected.
  rewrite <- curve_spec in Cu. assert (TY : type_ok E IDEMIX_ARIES = true) by (unfold type_ok; rewrite A; apply Z.eqb_refl).
  destruct (@setup_eq _ CD E l m d1 d2 IDEMIX_ARIES raw cf cid X M D TY Cu P) as (cc & N & Q). cbn zeta in Q.
  unfold Setup. rewrite L, Q. clear Q. unfold imported. clear imported.
  destruct (cf_ipk cf) as [|b bs]; [split; [intros _; left; reflexivity|reflexivity]|]. cbn [raw_bytes ibind].
  change (s_issuerPkFromBytes X (b :: bs) attribute_names) with (plain (let* k := arNewPublicKeyFromBytes HG (b :: bs) attribute_names in Ok (Some (Some k) : u_ipk (ariesU C EC)))).
  destruct (arNewPublicKeyFromBytes HG (b :: bs) attribute_names) as [k| |] eqn:I; cbn [bind plain].
  2:{ split; [intros _; right; left; reflexivity|reflexivity]. }
  2:{ exfalso. destruct (@C95_total C OK HG H c_cred BS) as (_ & NP & _). apply (NP (b :: bs) attribute_names); [cbn; lia|exact I]. }
  destruct (@issuer_from_bytes C OK HG (b :: bs) attribute_names k ltac:(cbn; lia) I) as [pk ->]. change (length attribute_names) with 4 in *.
  assert (PKI : forall pk', Ok (issuer_key HG pk 4) = Ok (issuer_key HG pk' 4) -> pk' = pk) by (intros pk' Q; apply (f_equal (fun r => match r with Ok x => ip_pk x | _ => pk end)) in Q; symmetry; exact Q).
  destruct (cf_revpk cf) as [|b' bs']; [clear N; split; [discriminate|intros [F|[F|(sg & pk' & sk & c & cs & (_ & _ & F & _) & _)]]; [discriminate|discriminate|congruence]]|]. cbn [length Nat.eqb].
  destruct (m_pemEpk M (b' :: bs')) as [rpk|] eqn:PR.
  2:{ clear N; split; [discriminate|intros [F|[F|(sg & pk' & sk & c & cs & (_ & _ & _ & (r & F) & _) & _)]]; discriminate]. }
  destruct (cf_signer cf) as [sg|].
  2:{ clear N; split; [discriminate|intros [F|[F|(sg & pk' & sk & c & cs & (_ & _ & _ & _ & F & _) & _)]]; discriminate]. }
  rewrite (@setup_signer_eq _ X M cc l _ d1 d2 (Some (Some (issuer_key HG pk 4)) : u_ipk (ariesU C EC)) sg N). clear N. cbn zeta.
  destruct (sc_sk sg) as [|b1 bs1] eqn:SK.
  { cbn [length Nat.eqb]. split; [discriminate|intros [F|[F|(sg' & pk' & sk & c & cs & (_ & _ & _ & _ & Q & F & _) & _)]]; [discriminate|discriminate|injection Q as <-; congruence]]. }
  cbn [length Nat.eqb]. change (s_userKeyFromBytes X (b1 :: bs1)) with (arUserKeyFromBytes C (b1 :: bs1)).
  destruct (arUserKeyFromBytes C (b1 :: bs1)) as [sk| |] eqn:US.
  2:{ split; [discriminate|intros [F|[F|(sg' & pk' & sk & c & cs & (_ & _ & _ & _ & Q & _ & F & _) & _)]]; [discriminate|discriminate|injection Q as <-; rewrite SK, US in F; discriminate]]. }
  2:{ exfalso. destruct (@C95_total C OK HG H c_cred BS) as (_ & _ & NP & _). exact (NP _ US). }
  match goal with |- context [s_makeNym X d1 ?a ?b] => change (s_makeNym X d1 a b) with (arMakeNym 0 sk (Some (Some (issuer_key HG pk 4))) (ad_zr d1 0)) end.
  rewrite (makeNym_ok OK HG BS pk sk (ad_zr d1 0) (Nat.le_0_l 4) : arMakeNym 0 _ _ _ = _). set (Nym := _ ⊕ _).
  destruct (length (sc_cred sg) =? 0) eqn:CR.
  { apply Nat.eqb_eq, length_zero_iff_nil in CR. split; [discriminate|intros [F|[F|(sg' & pk' & sk' & c & cs & (_ & _ & _ & _ & Q & _ & _ & F) & _)]]; [discriminate|discriminate|injection Q as <-; congruence]]. }
  apply empty_length in CR.
  match goal with |- context [s_credVerify X ?a ?b ?cr ?at_] => change (s_credVerify X a b cr at_) with (arCredVerify H c_cred sk (Some (Some (issuer_key HG pk 4))) (sc_cred sg) (expected sg)) end.
  match goal with |- context [s_sign X ?y1 ?y2 ?y3 ?y4 ?y5 ?y6 ?y7 ?y8 ?y9 ?z1 ?z2 ?z3 ?z4] => 
    change (s_sign X y1 y2 y3 y4 y5 y6 y7 y8 y9 z1 z2 z3 z4) with
      (arSign H c_cred c_sig c_cri (sc_cred sg) sk Nym (ad_zr d1 0) (Some (Some (issuer_key HG pk 4))) disclosure [] (Z.of_nat 3) (Z.of_nat 2) (sc_cri sg) Standard None (ad_sig d2)) end.
  assert (WT : Forall well_typed (expected sg)) by (repeat constructor).
  assert (Ty : Forall typed (expected sg)) by (repeat constructor; discriminate).
  pose proof (@credVerify_panic C OK HG BS H c_cred sk pk 4 (sc_cred sg) (expected sg) eq_refl WT) as VP.
  set (cv := arCredVerify H c_cred sk (Some (Some (issuer_key HG pk 4))) (sc_cred sg) (expected sg)) in *.
  set (sn := arSign _ _ _ _ _ _ _ _ _ _ _ _ _ _ _ _ _).
  assert (SP : forall c, dec c_cred (sc_cred sg) = Some c -> cv = Ok tt ->
    (sn = Panic <-> (exists cri, dec c_cri (sc_cri sg) = Some cri /\ acri_alg cri = 0%Z) /\ (4 < length (ac_attrs c) \/ (2 < ac_skpos c)%Z))).
  { intros c Dc V.
    pose proof (@C96_partial C OK HG H c_cred c_sig c_cri pk 4 (sc_cred sg) c sk Nym (ad_zr d1 0) (expected sg) disclosure [] 3 2 (sc_cri sg) Standard None (ad_sig d2)
      BS ltac:(lia) eq_refl ltac:(lia) ltac:(lia) eq_refl ltac:(discriminate) ltac:(discriminate) ltac:(discriminate) eq_refl Ty Dc V) as Q. cbn zeta in Q. fold sn in Q. rewrite Q. clear Q.
    change (shown disclosure) with 2. cbn [has_eid has_rh]. split; [intros (_ & _ & F & G)|intros (F & G); split; [discriminate|]; split; [discriminate|]]; (split; [exact F|destruct G; [left|right]; lia]). }
  assert (IMP : forall sg' pk' sk', (b :: bs <> [] /\ Ok (issuer_key HG pk 4) = Ok (issuer_key HG pk' 4) /\ b' :: bs' <> [] /\ (exists rpk0, Some rpk = Some rpk0) /\
      Some sg = Some sg' /\ sc_sk sg' <> [] /\ arUserKeyFromBytes C (sc_sk sg') = Ok sk' /\ sc_cred sg' <> []) <-> sg' = sg /\ pk' = pk /\ sk' = sk).
  { intros sg' pk' sk'. split.
    - intros (_ & Q1 & _ & _ & Q2 & _ & Q3 & _). injection Q2 as <-. split; [reflexivity|]. split; [exact (PKI _ Q1)|]. rewrite SK, US in Q3. injection Q3 as <-. reflexivity.
    - intros (-> & -> & ->). rewrite SK. split; [discriminate|]. split; [reflexivity|]. split; [discriminate|]. split; [exists rpk; reflexivity|]. split; [reflexivity|]. split; [discriminate|]. split; [exact US|exact CR]. }
  split.
  - intro F. right. right. destruct cv as [[]| |] eqn:CV; [|discriminate|].
    + pose proof CV as CV'. unfold cv in CV'. apply (credVerify_iff OK HG H BS c_cred sk pk _ (eq_refl : length (expected sg) = 4) Ty) in CV'. destruct CV' as (c & cs & kk & Dc & PS & _).
      exists sg, pk, sk, c, cs. split; [apply IMP; auto|]. split; [exact Dc|]. split; [exact PS|]. right. split; [exact CV|].
      apply (SP c Dc eq_refl). destruct sn as [[? ?]| |]; [discriminate|discriminate|reflexivity].
    + destruct (proj1 VP eq_refl) as (c & cs & Dc & PS & Q1 & Q2). exists sg, pk, sk, c, cs. split; [apply IMP; auto|]. split; [exact Dc|]. split; [exact PS|]. left. split; assumption.
  - intros [F|[F|(sg' & pk' & sk' & c & cs & Im & Dc & PS & Q)]]; [discriminate|discriminate|]. apply IMP in Im. destruct Im as (-> & -> & ->).
    destruct Q as [[Q1 Q2]|(V & Q)].
    + rewrite (proj2 VP) by (exists c, cs; auto). reflexivity.
    + fold cv in V. rewrite V. apply (SP c Dc V) in Q. rewrite Q. reflexivity.
Qed.
Print Assumptions C64_aries_partial.

(** the configuration idemixgen writes in C56_aries_example, with the signer's credential edited by [f] *)
Definition wedited (f : ACredential -> ACredential) : option bytes :=
  let f1 := exec gempty (ca_keygen here gA (GenerateIssuerKeyAries hg32 h32 (fun b => b) wseed) (Some (xpem (str "k"), xpem (str "k")))) in
  let f2 := exec (fst f1) (signerconfig here gparse_pem (wgenerate (gfl false)) (gfl false)) in
  match GetIdemixMspConfigWithType here mCD (fst f2) gA (str "Org1MSP") IDEMIX_ARIES with
  | Ok (_, raw) =>
      match dec (c_conf mCD) raw with
      | Some cf =>
          match cf_signer cf with
          | Some sg =>
              match dec xa_ccred (sc_cred sg) with
              | Some c => enc (c_conf mCD) {| cf_name := cf_name cf; cf_ipk := cf_ipk cf; cf_revpk := cf_revpk cf; cf_epoch := cf_epoch cf; cf_curve := cf_curve cf;
                  cf_signer := Some {| sc_cred := ser s_acred (f c); sc_sk := sc_sk sg; sc_ou := sc_ou sg; sc_role := sc_role sg; sc_eid := sc_eid sg; sc_cri := sc_cri sg;
                                       sc_rh := sc_rh sg; sc_curve := sc_curve sg |} |}
              | None => None
              end
          | None => None
          end
      | None => None
      end
  | _ => None
  end.
Definition wsetup (f : ACredential -> ACredential) : option (res unit) :=
  match wedited f with Some raw => Some (fst (Setup mCD wE [w0] 0 wdraw wdraw (Some (IDEMIX_ARIES, raw)))) | None => None end.
Example C64_aries_example :
  wsetup (fun c => c) = Some (Ok tt) /\
  wsetup (fun c => {| ac_cred := ac_cred c; ac_attrs := firstn 3 (ac_attrs c); ac_skpos := ac_skpos c |}) = Some Panic /\
  wsetup (fun c => {| ac_cred := ac_cred c; ac_attrs := ac_attrs c; ac_skpos := 5 |}) = Some Panic /\
  wsetup (fun c => {| ac_cred := ac_cred c; ac_attrs := ac_attrs c ++ [str "x"]; ac_skpos := ac_skpos c |}) = Some Panic /\
  wsetup (fun c => {| ac_cred := ac_cred c; ac_attrs := ac_attrs c; ac_skpos := 1 |}) = Some Err.
Proof. vm_compute. repeat split; reflexivity. Qed.
