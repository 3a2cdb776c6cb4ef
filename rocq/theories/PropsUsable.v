(** * Sign hands out no signature that does not verify (C72) *)
From Verif Require Import Base Curve Algebra Spec Dlog DlogSpec Translator Toy ToyDlog
  Bridge BridgeFacts Bbs BbsSpec BbsFacts BbsProof BbsComplete
  Aries AriesSpec AriesIssue AriesNym AriesVerify AriesSign AriesSound AriesForge AriesHide AriesBind AriesUse ToyBbs ToyCodec ToyAries PropsAries PropsAriesMore.
Unset Strict Implicit.

(** ** aries *)
(** Sign succeeds, for a signature type without smartcard, only with a credential that is a signature of
    this issuer on this secret key and on the attributes the credential carries. *)
Theorem C72_credential : forall C (OK : CurveOk C) (HG : bytes -> G1 C) (H : hasher C) (c_cred : codec ACredential) (c_sig : codec ASignature) (c_cri : codec ACRI)
    (pk : G2 C) (n : nat) (credBytes : bytes) (cred : ACredential) (sk : Zr C) (Nym : G1 C) (RNym : Zr C) (attributes : list attribute) (msg : bytes)
    (rh eid : Z) (criRaw : bytes) (st : SignatureType) (meta : option (Metadata C)) (R : ASigRand C) out,
  dec c_cred credBytes = Some cred -> ac_skpos cred = 0%Z -> is_smartcard st = false ->
  arSign H c_cred c_sig c_cri credBytes sk Nym RNym (Some (Some (issuer_key HG pk n))) attributes msg rh eid criRaw st meta R = Ok out ->
  exists sg, parseSignature C (ac_cred cred) = Ok sg /\
    bbs_signature pk (gen0 HG pk (n + 1)) (gens HG pk (n + 1)) (si_a sg) (si_e sg) (si_s sg) (sk :: map (zr_of_bytes C) (ac_attrs cred)).
Proof.
  intros C OK HG H c_cred c_sig c_cri pk n credBytes cred sk Nym RNym attributes msg rh eid criRaw st meta R out D Z NS E.
  destruct (@sign_checked C OK HG H c_sig c_cri pk n c_cred credBytes cred sk Nym RNym attributes msg rh eid criRaw st meta R out D Z NS E) as (sg & cri & E1 & _ & E2 & _).
  exists sg. split; assumption.
Qed.

(** Whenever Sign succeeds for such a type, with any secret, credential bytes that carry one value per attribute
    of the key, revocation record, attribute list, audit data and message, the signature is accepted under
    every verification type meant for it.  The attribute list must state the credential's values (Sign does
    not compare them; C72_values_refuted) and the draws must not be degenerate. *)
Theorem C72_aries : forall C (OK : CurveOk C) (HG : bytes -> G1 C) (H : hasher C) (c_cred : codec ACredential) (c_sig : codec ASignature) (c_cri : codec ACRI)
    (pk : G2 C) (n : nat) (credBytes : bytes) (cred : ACredential) (sk : Zr C) (Nym : G1 C) (RNym : Zr C) (attributes : list attribute) (msg : bytes)
    (rh eid : nat) (criRaw : bytes) (st : SignatureType) (meta : option (Metadata C)) (R : ASigRand C) (sig : bytes) (meta' : option (Metadata C)),
  bls_sizes C -> codec_ok canon_asig c_sig ->
  (Z.of_nat (n + 1) <= 65535)%Z -> eid < n -> rh < n ->
  dec c_cred credBytes = Some cred -> ac_skpos cred = 0%Z -> length (ac_attrs cred) = n ->
  Forall2 (attr_agrees H) attributes (map (zr_of_bytes C) (ac_attrs cred)) ->
  (forall cri, dec c_cri criRaw = Some cri -> int64 (acri_epoch cri)) ->
  (has_eid st = true -> NoDup (gen0 HG pk (n + 1) :: gens HG pk (n + 1))) ->
  (forall sg, parseSignature C (ac_cred cred) = Ok sg -> usable_draws HG pk n st eid rh (si_s sg) sk (map (zr_of_bytes C) (ac_attrs cred)) (RNym, R)) ->
  is_smartcard st = false ->
  let ipk := Some (Some (issuer_key HG pk n)) in
  arMakeNym 0 sk ipk RNym = Ok (Nym, RNym) ->
  arSign H c_cred c_sig c_cri credBytes sk Nym RNym ipk attributes msg (Z.of_nat rh) (Z.of_nat eid) criRaw st meta R = Ok (sig, meta') ->
  forall v, aries_compatible st v = true -> forall m, m = None \/ m = meta' ->
    arVerify H c_sig ipk sig msg attributes (Z.of_nat rh) (Z.of_nat eid) 0 v m = Ok tt.
Proof.
  intros C OK HG H c_cred c_sig c_cri pk n credBytes cred sk Nym RNym attributes msg rh eid criRaw st meta R sig meta'
    BS CS Bn Le Lr D Z Ln Agr Ep ND U NS ipk MN E v CV m Hm.
  destruct (@sign_checked C OK HG H c_sig c_cri pk n c_cred credBytes cred sk Nym RNym attributes msg _ _ criRaw st meta R _ D Z NS E) as (sg & cri & E1 & _ & V & Dr & Alg & SC).
  destruct (@sign_meta C OK HG H BS c_sig pk n c_cred c_cri credBytes cred sk Nym RNym attributes msg rh eid criRaw st meta R sig meta' D Z Le Lr E) as (s & Es & Pe & Pr).
  set (vals := map (zr_of_bytes C) (ac_attrs cred)) in *.
  assert (Lv : length vals = n) by (unfold vals; rewrite map_length; exact Ln).
  assert (N : forall i ab, nth_error (ac_attrs cred) i = Some ab -> nth i vals z0 = zr_of_bytes C ab).
  { intros i ab Q. unfold vals. apply nth_error_nth with (d := z0). rewrite nth_error_map, Q. reflexivity. }
  assert (Hd : forall i, attr_hidden attributes (Z.of_nat i) = Ok true -> exists a, nth_error attributes i = Some a /\ at_type a = HiddenAttr).
  { intros i Q. unfold attr_hidden in Q. apply bind_ok in Q. destruct Q as [a [Q1 Q2]]. apply znth_ok in Q1. destruct Q1 as (k & Ek & Q1). apply Nat2Z.inj in Ek. subst k. exists a. split; [exact Q1|]. unfold is_hidden in Q2. destruct (at_type a); (discriminate || reflexivity). }
  rewrite (@sign_reads C OK HG H BS c_sig c_cri pk n c_cred credBytes cred sg sk Nym RNym attributes msg _ _ criRaw st meta R D Z E1) in E.
  assert (P : presentable HG H (reads_as (si_a sg) (si_e sg) (si_s sg) vals) c_cri pk n (si_a sg) (si_e sg) (si_s sg) sk vals attributes eid rh st criRaw credBytes meta RNym R).
  { split; [exact (sign_known E)|]. split; [exact Bn|]. split; [exact Lv|]. split; [exact Le|]. split; [exact Lr|]. split; [exact V|]. split; [reflexivity|]. split; [exact Agr|].
    split; [exists cri; split; [exact Dr|split; [exact Alg|exact (Ep _ Dr)]]|].
    split; [|split; [|split; [|split; [|split; [exact ND|exact (U _ E1)]]]]].
    - intro Q. apply Hd. destruct st; try discriminate; unfold sign_arg_check in SC; cbn [bind] in SC;
        destruct (attr_hidden attributes (Z.of_nat eid)) as [[]| |]; try discriminate; reflexivity.
    - intro Q. apply Hd. destruct st; try discriminate; unfold sign_arg_check in SC; cbn [bind] in SC;
        destruct (attr_hidden attributes (Z.of_nat eid)) as [[]| |]; try discriminate; cbn [bind guard] in SC;
        destruct (attr_hidden attributes (Z.of_nat rh)) as [[]| |]; try discriminate; reflexivity.
    - intro Q. unfold audit_for. destruct (md_eid_audit meta) as [d|] eqn:Qd; [right|left; reflexivity].
      destruct (Pe Q d eq_refl) as (ab & cm & F1 & F2 & F3 & _ & _). exists (cm_r cm). rewrite (N _ _ F1), <- F2. unfold audit_of. unfold opens in F3. rewrite (gok_comm (ok_g1 OK)) in F3. rewrite F3. reflexivity.
    - intro Q. unfold audit_for. destruct (md_rh_audit meta) as [d|] eqn:Qd; [right|left; reflexivity].
      destruct (Pr Q d eq_refl) as (ab & cm & F1 & F2 & F3 & _ & _). exists (cm_r cm). rewrite (N _ _ F1), <- F2. unfold audit_of. unfold opens in F3. rewrite (gok_comm (ok_g1 OK)) in F3. rewrite F3. reflexivity. }
  destruct (@C34_sign_verifies C OK HG H (reads_as (si_a sg) (si_e sg) (si_s sg) vals) c_sig c_cri BS CS pk n _ _ _ sk vals attributes eid rh st msg criRaw credBytes meta RNym R P)
    as (Nym' & sig' & meta1 & MN' & E' & W).
  pose proof (eq_trans (eq_sym MN') MN) as Q. injection Q as ->.
  pose proof (eq_trans (eq_sym E') E) as Q. injection Q as -> ->. exact (W v CV m Hm).
Qed.

(** The user of ToyAries.v signing with their own secret and with another one. *)
Definition xa_sign_as (sk : zp) (attrs : list attribute) (st : SignatureType) : res (bytes * option (Metadata toy32)) :=
  let* '(Nym, RNym) := arMakeNym 0 (sk : Zr toy32) xa_key xa_RNym in
  arSign h32 xa_ccred xa_csig xa_ccri xa_credb (sk : Zr toy32) Nym RNym xa_key attrs (str "message") 2 1 xa_crib st None xa_R.
Definition xa_accepts (sk : zp) (attrs : list attribute) (st : SignatureType) : bool :=
  is_ok (let* '(b, m) := xa_sign_as sk attrs st in arVerify h32 xa_csig xa_key b (str "message") attrs 2 1 0 (own_type st) None).
Example C72_aries_example :
  bls_sizes toy32 /\ codec_ok canon_asig xa_csig /\ dec xa_ccred xa_credb = Some xa_cred /\ ac_skpos xa_cred = 0%Z /\ length (ac_attrs xa_cred) = 3 /\
  Forall2 (attr_agrees h32) xa_attrs (map (zr_of_bytes toy32) (ac_attrs xa_cred)) /\
  (exists sg, parseSignature toy32 (ac_cred xa_cred) = Ok sg /\ forall st, usable_draws hg32 xa_pk 3 st 1 2 (si_s sg) xa_sk (map (zr_of_bytes toy32) (ac_attrs xa_cred)) (xa_RNym, xa_R)) /\
  map (fun st => is_ok (xa_sign_as xa_sk xa_attrs st)) [Standard; EidNym; EidNymRhNym] = [true; true; true] /\
  map (fun st => is_ok (xa_sign_as Toy.f8 xa_attrs st)) [Standard; EidNym; EidNymRhNym] = [false; false; false].
Proof.
  assert (V : map (zr_of_bytes toy32) (ac_attrs xa_cred) = xa_vals) by (unfold xa_cred, credential_of; cbn [ac_attrs]; rewrite map_map, (map_ext _ (fun x => x)), map_id; [reflexivity|exact (ok_zr_rt toy32_ok)]).
  rewrite V. split; [exact toy32_sizes|]. split; [exact xa_csig_ok|]. split; [exact xa_dec_cred|]. split; [reflexivity|]. split; [reflexivity|]. split; [exact xa_agrees|].
  split; [|vm_compute; split; reflexivity].
  exists {| si_a := xa_A; si_e := xa_e; si_s := xa_s |}. split; [exact (parse_sig_enc toy32_ok (proj1 toy32_sizes) xa_A xa_e xa_s)|exact xa_usable].
Qed.

(** For the smartcard types the claim fails: with another user's secret Sign succeeds and the signature is
    refused (aries leaves this check to the card, which holds the secret). *)
Theorem C72_smartcard_refuted :
  map (fun st => is_ok (xa_sign_as Toy.f8 xa_attrs st)) [Smartcard; SmartcardNoNyms] = [true; true] /\
  map (xa_accepts Toy.f8 xa_attrs) [Smartcard; SmartcardNoNyms] = [false; false] /\
  map (xa_accepts xa_sk xa_attrs) [Smartcard; SmartcardNoNyms] = [true; true].
Proof. vm_compute. repeat split; reflexivity. Qed.

(** It fails when a disclosed value is not the certified one: Sign looks only at which attributes are hidden. *)
Definition xa_wrong_attrs : list attribute := [{| at_type := BytesAttr; at_value := VBytes (str "another OU") |}; hidden_attr; hidden_attr].
Theorem C72_values_refuted :
  map (fun st => is_ok (xa_sign_as xa_sk xa_wrong_attrs st)) [Standard; EidNym; EidNymRhNym] = [true; true; true] /\
  map (xa_accepts xa_sk xa_wrong_attrs) [Standard; EidNym; EidNymRhNym] = [false; false; false] /\
  map (xa_accepts xa_sk xa_attrs) [Standard; EidNym; EidNymRhNym] = [true; true; true].
Proof. vm_compute. repeat split; reflexivity. Qed.

(** ** dlog *)
(** NewSignature does not look at the credential's validity at all: with the credential of one user and the
    secret of another it succeeds, and the signature is refused under every type. *)
Definition tsign_as (sk : zp) (st : SignatureType) : res (Dlog.Signature * option (Metadata tC)) :=
  NewSignature tH tT (Some tcred) (Some (sk : Zr tC)) (Some (gmul2 (Toy.f19 : G1 tC) (sk : Zr tC) (Toy.f23 : G1 tC) trnym)) (Some trnym) (Some tipk) tdisc tmsg 3 2 (Some tcri) (tR Toy.f25) st None.
Definition taccepts (sk : zp) (st : SignatureType) (v : VerificationType) : bool :=
  is_ok (let* '(sg, m) := tsign_as sk st in tver tH sg v None).
Theorem C72_dlog_refuted :
  verCredential tT tcred tsk2 tipk <> Ok tt /\
  map (fun st => is_ok (tsign_as tsk2 st)) [Standard; EidNym; EidNymRhNym] = [true; true; true] /\
  map (fun x => taccepts tsk2 (fst x) (snd x)) [(Standard, ExpectStandard); (EidNym, ExpectEidNym); (EidNymRhNym, ExpectEidNymRhNym); (EidNym, BestEffort)] = [false; false; false; false] /\
  map (fun x => taccepts tsk (fst x) (snd x)) [(Standard, ExpectStandard); (EidNym, ExpectEidNym); (EidNymRhNym, ExpectEidNymRhNym); (EidNym, BestEffort)] = [true; true; true; true].
Proof. split; [intro E; vm_compute in E; discriminate|]. vm_compute. repeat split; reflexivity. Qed.

Print Assumptions C72_credential.
Print Assumptions C72_aries.
Print Assumptions C72_smartcard_refuted.
Print Assumptions C72_values_refuted.
Print Assumptions C72_dlog_refuted.
