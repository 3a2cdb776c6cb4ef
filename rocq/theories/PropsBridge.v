(** Properties of the byte-level API of the dlog scheme (bccsp/schemes/dlog/bridge), of credential
    revocation information and of weak Boneh-Boyen signatures.

    The codecs [c_*] stand for protobuf; [codec_ok canon c] says that messages satisfying [canon]
    (BridgeFacts.v) are encoded and decoded back. *)
From Verif Require Import Base Curve Algebra Spec Dlog DlogSpec DlogFacts DlogData DlogSound DlogComplete
  DlogSign DlogBind DlogAudit DlogHide DlogTop Bridge BridgeFacts Toy Translator TranslatorFacts ToyDlog ToyCodec PropsDlog.
Unset Strict Implicit.
Local Open Scope zr_scope.

(** ** C01 and C17 through the byte-level API: key generation, export, import, request, issuance,
    verification. *)
Theorem C01_bridge (C : Curve) (OK : CurveOk C) (H : hasher C) (T : translator C) (TO : TrOk T)
    (utf8 : bytes -> Prop) (c_ipk : codec IssuerPublicKey) (c_req : codec CredRequest) (c_cred : codec Credential)
    (names : list bytes) (R : IssuerRand C) (sk rSk : Zr C) (nonce : bytes) (attributes : list attribute)
    (vals : list (Zr C)) (E S : Zr C) :
  codec_ok (canon_ipk utf8) c_ipk -> codec_ok canon_req c_req -> codec_ok canon_cred c_cred ->
  NoDup names -> Forall utf8 names ->
  ir_barg1 R <> z0 -> length nonce = scalar_size C -> length attributes = length names ->
  map (attr_scalar H) attributes = map Some vals -> ir_isk R + E <> z0 ->
  exists key ipk pkraw reqraw credraw,
    brNewKey H T c_ipk names R = Ok key /\ ik_ipk key = Some ipk /\
    brPublicKeyBytes c_ipk ipk = Ok pkraw /\
    brNewPublicKeyFromBytes H T c_ipk pkraw names = Ok ipk /\
    brUserKeyFromBytes C (zr_bytes C sk) = Ok sk /\
    brRequestSign H T c_req (Some sk) (Some (Some ipk)) nonce rSk = Ok reqraw /\
    brRequestVerify H T c_req reqraw (Some (Some ipk)) nonce = Ok tt /\
    brCredSign H T c_req c_cred (Some (Some key)) reqraw attributes E S = Ok credraw /\
    brCredVerify H T c_cred (Some sk) (Some (Some ipk)) credraw attributes = Ok tt.
Proof.
  intros CI CR CC ND U Hb Ln La Ev Hnz.
  assert (Lv : length vals = length names).
  { rewrite <- La. rewrite <- (map_length (attr_scalar H)), Ev, map_length. reflexivity. }
  (* key generation *)
  assert (Ek : exists key, newIssuerKey H T (enc c_ipk) names R = Ok key).
  { unfold newIssuerKey. rewrite (proj2 (names_unique_iff names []) ltac:(split; [exact ND|intros ? ? []])). cbn [guard bind].
    rewrite (issuer_data_ok OK). cbn [bind]. unfold setHash.
    match goal with |- context [enc c_ipk ?k] => destruct (CI k) as (b & Eb & _) end.
    - split; [exact U|]. cbn. apply Forall_forall. intros o Ho. apply in_map_iff in Ho. destruct Ho as (i & <- & _). discriminate.
    - rewrite Eb. cbn [bind]. eauto. }
  destruct Ek as [key Ek].
  destruct (@newIssuerKey_inv C OK H T TO (enc c_ipk) names R key Ek) as (ipk & E1 & E2 & E3 & HB & Hc).
  destruct (@generated_key_checks C OK T TO H (enc c_ipk) names R key Hb Ek) as (ipk' & E1' & _ & K1 & K2).
  rewrite E1 in E1'. injection E1' as <-.
  destruct (@credRequest_ok C OK H T TO sk nonce ipk rSk _ HB ltac:(lia)) as (req & Q1 & Q2 & Q3 & Q4).
  destruct (@newCredential_ok C OK H T TO key ipk _ (ir_isk R) req sk vals E S E1 E2 HB eq_refl Q2 Q3) as (cred & A & D1 & D2 & D3 & _).
  - congruence.
  - cbn [b_attrs]. rewrite map_length, seq_length. lia.
  - exact Hnz.
  - assert (Cipk : canon_ipk utf8 ipk).
    { split; [rewrite E3; exact U|]. destruct HB as (_ & _ & HB & _). cbn [b_attrs] in HB.
      unfold newIssuerKey in Ek. apply bind_ok in Ek. destruct Ek as [? [_ Ek]]. apply bind_ok in Ek. destruct Ek as [? [_ Ek]].
      apply bind_ok in Ek. destruct Ek as [k [Ek1 Ek]]. injection Ek as <-. cbn [ik_ipk] in E1. injection E1 as ->.
      unfold setHash in Ek1. match type of Ek1 with match ?m with _ => _ end = _ => destruct m end; [|discriminate].
      injection Ek1 as <-. cbn. apply Forall_forall. intros o Ho. apply in_map_iff in Ho. destruct Ho as (i & <- & _). discriminate. }
    destruct (CI ipk Cipk) as (pkraw & P1 & P2).
    assert (Creq : canon_req req).
    { unfold canon_req. rewrite Q4. intro Z. injection Z as Z. subst nonce. cbn in Ln. pose proof (scalar_pos OK). lia. }
    destruct (CR req Creq) as (reqraw & R1 & R2).
    assert (At : cr_attrs cred = map (fun a => Some (zr_bytes C a)) vals) by exact (newCredential_canonical D1).
    assert (Ccred : canon_cred cred).
    { unfold canon_cred. rewrite At. apply Forall_forall. intros o Ho. apply in_map_iff in Ho. destruct Ho as (i & <- & _). discriminate. }
    destruct (CC cred Ccred) as (craw & S1 & S2).
    exists key, ipk, pkraw, reqraw, craw.
    split; [apply recover_ok; exact Ek|]. split; [exact E1|].
    split; [unfold brPublicKeyBytes; rewrite P1; reflexivity|].
    split.
    { apply (proj2 (recover_ok _ _)). rewrite P2. cbn [opt_err bind]. rewrite K2. cbn [bind]. rewrite K1. cbn [bind]. rewrite E3.
      destruct (length names =? 0) eqn:L0; [reflexivity|]. rewrite Nat.eqb_refl. cbn [guard bind].
      assert (NM : names_match 0 names names = Ok tt)
        by (apply (proj2 (names_match_ok names [] names)); exists []; rewrite app_nil_r; reflexivity).
      rewrite NM. reflexivity. }
    split. { unfold brUserKeyFromBytes. rewrite (ok_zr_len OK), Nat.eqb_refl. cbn [guard bind]. rewrite (ok_zr_rt OK). reflexivity. }
    split. { apply (proj2 (recover_ok _ _)). cbn [opt_err bind deref]. rewrite (proj2 (Nat.eqb_eq _ _) Ln). cbn [guard bind].
             change (newCredRequest H T sk (@Some bytes nonce) ipk rSk = Ok req) in Q1. rewrite Q1. cbn [bind]. rewrite R1. reflexivity. }
    split. { apply (proj2 (recover_ok _ _)). rewrite R2. cbn [opt_err bind deref]. rewrite Q2. cbn [bind].
             rewrite (proj2 (Nat.eqb_eq _ _) Ln). cbn [guard bind]. rewrite Q4. cbn [ob]. rewrite bytes_eqb_refl. reflexivity. }
    split. { apply (proj2 (recover_ok _ _)). rewrite R2. cbn [opt_err bind]. rewrite (issue_values Ev). cbn [bind deref].
             rewrite D1. cbn [bind]. rewrite S1. reflexivity. }
    apply (proj2 (recover_ok _ _)). rewrite S2. cbn [opt_err bind].
    rewrite (proj2 (attrs_match_iff H cred attributes 0)); [exact D2|].
    intros i a Hi. right. cbn [Nat.add].
    assert (Hv : nth_error (map (attr_scalar H) attributes) i = Some (attr_scalar H a)) by (rewrite nth_error_map, Hi; reflexivity).
    rewrite Ev, nth_error_map in Hv. destruct (nth_error vals i) as [v|] eqn:Vi; [|discriminate]. cbn in Hv. injection Hv as Hv.
    exists v, (Some (zr_bytes C v)). split; [symmetry; exact Hv|]. split; [|reflexivity].
    rewrite At, nth_error_map, Vi. reflexivity.
Qed.
Print Assumptions C01_bridge.

Definition battrs : list attribute :=
  [{| at_type := BytesAttr; at_value := VBytes (str "ou") |}; {| at_type := IntAttr; at_value := VInt 2 |};
   {| at_type := BytesAttr; at_value := VBytes (str "id") |}; {| at_type := IntAttr; at_value := VInt64 (-9) |}].
Definition bvals : list (Zr tC) := [tH (str "ou"); zr_of_Z tC 2; tH (str "id"); zr_of_Z tC (-9)].

Example C01_bridge_example :
  codec_ok (canon_ipk (fun _ => True)) (tcodec s_ipk) /\ codec_ok canon_req (tcodec s_req) /\ codec_ok canon_cred (tcodec s_cred) /\
  NoDup tnames /\ Forall (fun _ => True) tnames /\ ir_barg1 tIR <> z0 /\ length [Byte.x07] = scalar_size tC /\
  length battrs = length tnames /\ map (attr_scalar tH) battrs = map Some bvals /\ ir_isk tIR + f4 <> z0.
Proof.
  split; [intros x _; apply (tcodec_rt s_ipk_ok)|]. split; [intros x _; apply (tcodec_rt s_req_ok)|].
  split; [intros x _; apply (tcodec_rt s_cred_ok)|].
  split; [repeat constructor; cbn; intuition discriminate|]. split; [repeat constructor|]. split; [discriminate|].
  split; [reflexivity|]. split; [reflexivity|]. split; [reflexivity|]. discriminate.
Qed.

(** ** C02 through the byte-level API: a credential that verifies, a pseudonym made for it and
    revocation information of the authority give a signature that verifies. *)
Theorem C02_bridge (C : Curve) (OK : CurveOk C) (H : hasher C) (T : translator C) (TO : TrOk T)
    (c_ipk : codec IssuerPublicKey) (c_cred : codec Credential) (c_sig : codec Signature) (c_cri : codec CRI)
    (EC : ecdsa) (sha256 : bytes -> bytes)
    pkraw names ipk (sk : Zr C) craw cred (A : G1 C) attributes rnd Nym RNym (rk : ec_sk EC) handles epoch wsk criRaw
    msg (rh eid : nat) (R : SigRand C) st :
  codec_ok canon_sig c_sig -> codec_ok canon_cri c_cri -> int64 epoch ->
  brNewPublicKeyFromBytes H T c_ipk pkraw names = Ok ipk ->
  brCredVerify H T c_cred (Some sk) (Some (Some ipk)) craw attributes = Ok tt ->
  brMakeNym T (Some sk) (Some (Some ipk)) rnd = Ok (Nym, RNym) ->
  brRevSign T c_cri sha256 (Some rk) handles epoch 0 wsk = Ok criRaw ->
  dec c_cred craw = Some cred -> g1_from_proto T (cr_a cred) = Ok A -> A <> gzero ->
  length (cr_attrs cred) = length (ip_names ipk) -> length attributes = length (ip_names ipk) ->
  (exists i a, rh <= i /\ nth_error attributes i = Some a /\ at_type a = HiddenAttr) -> rh < length attributes ->
  In st [Standard; EidNym; EidNymRhNym] ->
  (with_eid st = true -> exists a, nth_error attributes eid = Some a /\ at_type a = HiddenAttr) ->
  (with_rh st = true -> exists a, nth_error attributes rh = Some a /\ at_type a = HiddenAttr) ->
  rd_r1 R <> z0 ->
  exists sigraw md,
    brSign H T c_cred c_sig c_cri craw (Some sk) (Some Nym) (Some RNym) (Some (Some ipk)) attributes msg
      (Z.of_nat rh) (Z.of_nat eid) criRaw R st None = Ok (sigraw, md) /\
    forall revpk (rev : revpk) ep vt vmeta, compatible st vt = true -> vmeta = None \/ vmeta = md ->
      brVerify H T c_sig (Some (Some ipk)) sigraw msg attributes (Z.of_nat rh) (Z.of_nat eid) rev ep vt vmeta = Ok tt.
Proof.
  intros CS CC Hep Epk Ecred Enym Ecri Edec EA NA L1 L2 (i & ai & Hi1 & Hi2 & Hi3) Lr Hst He Hr NZ.
  (* the issuer key *)
  apply (proj1 (recover_ok _ _)) in Epk. apply bind_ok in Epk. destruct Epk as [k0 [_ Epk]]. apply bind_ok in Epk. destruct Epk as [k1 [_ Epk]].
  apply bind_ok in Epk. destruct Epk as [k2 [Epk Epk']]. apply bind_ok in Epk'. destruct Epk' as [[] [_ Epk']]. injection Epk' as ->.
  assert (HB : exists B, ipk_bases T ipk B).
  { unfold checkIPK in Epk. apply bind_ok in Epk. destruct Epk as [pd [F1 Epk]]. apply bind_ok in Epk. destruct Epk as [[] [_ Epk]].
    destruct (checkIPK_first_inv OK F1) as (_ & _ & _ & B & HB & _). exists B.
    unfold setHash in Epk. destruct (enc c_ipk (with_hash k1 [])); [|discriminate]. injection Epk as <-. exact HB. }
  destruct HB as [B HB].
  (* the credential *)
  apply (proj1 (recover_ok _ _)) in Ecred. cbn [opt_err bind deref] in Ecred. rewrite Edec in Ecred. cbn [opt_err bind] in Ecred.
  apply bind_ok in Ecred. destruct Ecred as [[] [Em Ecred]].
  pose proof (proj1 (attrs_match_iff H cred attributes 0) Em) as Carry. cbn [Nat.add] in Carry.
  (* the pseudonym *)
  apply (proj1 (recover_ok _ _)) in Enym. cbn [opt_err bind deref] in Enym. unfold makeNym in Enym. destruct HB as (B1 & B2 & B3 & B4).
  rewrite B1, B2 in Enym. cbn [bind] in Enym. injection Enym as <- <-.
  assert (HB : ipk_bases T ipk B) by (repeat split; assumption).
  (* the revocation information *)
  apply (proj1 (recover_ok _ _)) in Ecri. apply bind_ok in Ecri. destruct Ecri as [cri [Ecri Eenc]].
  assert (Pcri : cri_alg cri = 0%Z /\ cri_epoch cri = epoch /\ g2_from_proto T (cri_epochpk cri) = Ok (genG2 C)).
  { unfold createCRI in Ecri. cbn [opt_err bind Z.eqb] in Ecri. apply bind_ok in Ecri. destruct Ecri as [? [_ Ecri]].
    apply bind_ok in Ecri. destruct Ecri as [? [_ Ecri]]. injection Ecri as <-. split; [reflexivity|]. split; [reflexivity|]. apply (tr_g2 TO). }
  destruct Pcri as (Pc1 & Pc0 & Pc2). rewrite <- Pc0 in Hep.
  assert (Dcri : dec c_cri criRaw = Some cri).
  { destruct (CC cri) as (b & X1 & X2); [split; [exact Hep|rewrite Pc1; unfold int32; lia]|]. rewrite X1 in Eenc. injection Eenc as <-. exact X2. }
  assert (Typed : forall a, In a attributes -> at_type a = HiddenAttr \/ attr_scalar H a <> None).
  { intros a Ha. apply In_nth_error in Ha. destruct Ha as [j Hj]. destruct (Carry j a Hj) as [X|(v & x & X & _)]; [left; exact X|].
    right. rewrite X. discriminate. }
  destruct (@verify_values C H attributes Typed) as (vs & V1 & V2 & V3).
  assert (Ld : length (sign_disclosure attributes) = length attributes) by apply map_length.
  assert (Hid : forall j a, nth_error attributes j = Some a -> at_type a = HiddenAttr -> hidden_at (sign_disclosure attributes) j).
  { intros j a Hj Ht. unfold hidden_at, sign_disclosure. rewrite nth_error_map, Hj. cbn. rewrite Ht. reflexivity. }
  destruct (@C02_signature_complete C OK H T TO cred sk (gmul2 (b_hsk B) sk (b_hrand B) rnd) rnd ipk B (sign_disclosure attributes)
              msg rh eid cri R st None (map (attr_scalar H) attributes) (genG2 C))
    as (sig & md & Sg & Vf).
  - exact HB.
  - exact Ecred.
  - intros A' E'. rewrite EA in E'. injection E' as <-. exact NA.
  - lia.
  - lia.
  - lia.
  - exists i. split; [exact Hi1|]. exact (Hid i ai Hi2 Hi3).
  - exact Pc1.
  - exact Pc2.
  - exact Hst.
  - intro W. destruct (He W) as (a & Ha & Ht). split; [exact (Hid eid a Ha Ht)|left; reflexivity].
  - intro W. destruct (Hr W) as (a & Ha & Ht). split; [exact (Hid rh a Ha Ht)|left; reflexivity].
  - exact NZ.
  - reflexivity.
  - intros j d Hj Hd. unfold sign_disclosure in Hj. rewrite nth_error_map in Hj.
    destruct (nth_error attributes j) as [a|] eqn:Ea; [|discriminate]. cbn in Hj.
    destruct (Carry j a Ea) as [Ht|(v & x & X1 & X2 & X3)].
    + rewrite Ht in Hj. injection Hj as <-. exfalso. apply Hd. reflexivity.
    + exists v. rewrite !nth_error_map, Ea, X2. cbn. rewrite X1, X3, (ok_zr_rt OK). split; reflexivity.
  - destruct (CS sig (sig_canonical OK Sg Hep)) as (sraw & Y1 & Y2). exists sraw, md. split.
    + apply (proj2 (recover_ok _ _)). cbn [opt_err bind]. rewrite Edec. cbn [opt_err bind]. rewrite Dcri. cbn [opt_err bind].
      rewrite Sg. cbn [bind fst snd]. rewrite Y1. reflexivity.
    + intros revpk rev ep vt vmeta Hc Hm. apply (proj2 (recover_ok _ _)). cbn [opt_err bind]. rewrite Y2. cbn [opt_err bind].
      rewrite V1. cbn [bind]. rewrite V2, V3. apply Vf; assumption.
Qed.
Print Assumptions C02_bridge.

(** a whole run on the toy curve *)
Definition bEC : ecdsa :=
  {| ec_sk := unit; ec_pk := unit; ec_sign := fun _ d => Some d; ec_verify := fun _ d s => bytes_eqb d s |}.
Definition bsha (b : bytes) : bytes := rev b.
Definition bkey : IssuerKey := from_ok tkey (brNewKey tH tT (tcodec s_ipk) tnames tIR).
Definition bipk : IssuerPublicKey := match ik_ipk bkey with Some k => k | None => tipk0 end.
Definition bpkraw : bytes := from_ok [] (brPublicKeyBytes (tcodec s_ipk) bipk).
Definition breqraw : bytes := from_ok [] (brRequestSign tH tT (tcodec s_req) (Some tsk) (Some (Some bipk)) [Byte.x07] f12).
Definition bcredraw : bytes :=
  from_ok [] (brCredSign tH tT (tcodec s_req) (tcodec s_cred) (Some (Some bkey)) breqraw battrs f4 f6).
Definition bcred : Credential := match dec (tcodec s_cred) bcredraw with Some c => c | None => tcred0 end.
(** present the credential hiding all but the organisational unit *)
Definition bshow : list attribute :=
  [{| at_type := BytesAttr; at_value := VBytes (str "ou") |}; {| at_type := HiddenAttr; at_value := VOther |};
   {| at_type := HiddenAttr; at_value := VOther |}; {| at_type := HiddenAttr; at_value := VOther |}].
Definition bcriraw : bytes := from_ok [] (brRevSign (EC := bEC) tT (tcodec s_cri) bsha (Some tt) [] 5 0 f1).

Example C02_bridge_example :
  codec_ok canon_sig (tcodec s_sig) /\ codec_ok canon_cri (tcodec s_cri) /\ int64 5 /\
  brNewPublicKeyFromBytes tH tT (tcodec s_ipk) bpkraw tnames = Ok bipk /\
  brCredVerify tH tT (tcodec s_cred) (Some tsk) (Some (Some bipk)) bcredraw bshow = Ok tt /\
  brMakeNym tT (Some tsk) (Some (Some bipk)) trnym = Ok (tnym, trnym) /\
  brRevSign (EC := bEC) tT (tcodec s_cri) bsha (Some tt) [] 5 0 f1 = Ok bcriraw /\
  dec (tcodec s_cred) bcredraw = Some bcred /\ (exists A : G1 tC, g1_from_proto tT (cr_a bcred) = Ok A /\ A <> gzero) /\
  length (cr_attrs bcred) = length (ip_names bipk) /\ length bshow = length (ip_names bipk) /\
  option_map at_type (nth_error bshow 2) = Some HiddenAttr /\ option_map at_type (nth_error bshow 3) = Some HiddenAttr /\
  rd_r1 (tR f25) <> z0.
Proof.
  split; [intros x _; apply (tcodec_rt s_sig_ok)|]. split; [intros x _; apply (tcodec_rt s_cri_ok)|]. split; [unfold int64; lia|].
  split; [vm_compute; reflexivity|]. split; [vm_compute; reflexivity|]. split; [vm_compute; reflexivity|].
  split; [vm_compute; reflexivity|]. split; [vm_compute; reflexivity|].
  split; [eexists; split; [vm_compute; reflexivity|discriminate]|].
  split; [vm_compute; reflexivity|]. split; [vm_compute; reflexivity|]. split; [reflexivity|]. split; [reflexivity|discriminate].
Qed.

(** ** C10 through the byte-level API: what an accepted presentation says about the attributes
    the verifier lists, reduced to the core verifier (whose soundness is C03). *)
Theorem C10_bridge_verify (C : Curve) (H : hasher C) (T : translator C) (c_sig : codec Signature)
    ipk sigraw digest attributes rhI eidI revpk (rev : revpk) ep vt meta :
  brVerify H T c_sig ipk sigraw digest attributes rhI eidI rev ep vt meta = Ok tt <->
  exists k sig, ipk = Some k /\ dec c_sig sigraw = Some sig /\
    (forall a, In a attributes -> at_type a = HiddenAttr \/ attr_scalar H a <> None) /\
    Ver H T sig (sign_disclosure attributes) k digest (map (attr_scalar H) attributes) rhI eidI rev ep vt meta = Ok tt.
Proof.
  split.
  - intro E. apply (proj1 (recover_ok _ _)) in E. apply bind_ok in E. destruct E as [k [E1 E]]. apply bind_ok in E. destruct E as [sig [E2 E]].
    apply bind_ok in E. destruct E as [vs [E3 E]]. destruct (verify_values_inv E3) as (V1 & V2 & V3). rewrite V1, V2 in E.
    destruct ipk as [k'|]; [|discriminate]. injection E1 as ->. destruct (dec c_sig sigraw) as [s'|]; [|discriminate]. injection E2 as ->.
    exists k, sig. auto.
  - intros (k & sig & -> & E1 & Ty & E). apply (proj2 (recover_ok _ _)). cbn [opt_err bind]. rewrite E1. cbn [opt_err bind].
    destruct (verify_values Ty) as (vs & -> & V1 & V2). cbn [bind]. rewrite V1, V2. exact E.
Qed.
Print Assumptions C10_bridge_verify.

Definition bsigraw : bytes :=
  fst (from_ok ([], None) (brSign tH tT (tcodec s_cred) (tcodec s_sig) (tcodec s_cri) bcredraw (Some tsk) (Some tnym) (Some trnym)
    (Some (Some bipk)) bshow tmsg 3 2 bcriraw (tR f25) EidNymRhNym None)).
Example C10_bridge_example :
  brVerify tH tT (tcodec s_sig) (Some (Some bipk)) bsigraw tmsg bshow 3 2 tt 5 ExpectEidNymRhNym None = Ok tt /\
  brVerify tH tT (tcodec s_sig) (Some (Some bipk)) bsigraw tmsg battrs 3 2 tt 5 ExpectEidNymRhNym None = Err.
Proof. split; vm_compute; reflexivity. Qed.

(** ** C12 through the byte-level API: the auditor given the signer's opening confirms exactly the
    strings that hash to the credential's attribute. *)
Theorem C12_bridge (C : Curve) (OK : CurveOk C) (H : hasher C) (T : translator C) (TO : TrOk T)
    (c_cred : codec Credential) (c_sig : codec Signature) (c_cri : codec CRI)
    craw cred sk Nym RNym ipk (B : Bases C) attributes msg rhI eidI criRaw (R : SigRand C) st meta sigraw md :
  codec_ok canon_sig c_sig -> (forall cri, dec c_cri criRaw = Some cri -> int64 (cri_epoch cri)) ->
  ipk_bases T ipk B -> Forall (fun h => h <> gzero) (b_attrs B) -> dec c_cred craw = Some cred ->
  brSign H T c_cred c_sig c_cri craw (Some sk) (Some Nym) (Some RNym) (Some (Some ipk)) attributes msg rhI eidI criRaw R st meta
    = Ok (sigraw, md) ->
  let attr i := option_map (fun a => zr_of_bytes C (ob a)) (nth_error (cr_attrs cred) (Z.to_nat i)) in
  (with_eid st = true -> exists m n r a,
     md = Some m /\ md_eid_data m = Some {| au_nym := Some n; au_rand := Some r; au_attr := Some a |} /\ attr eidI = Some a /\
     forall s, (brAuditNymEid H T c_sig (Some (Some ipk)) eidI sigraw s (Some r) AuditExpectSignature = Ok tt <-> H s = a) /\
               (brAuditNymEid H T c_sig (Some (Some ipk)) eidI (g1_bytes C n) s (Some r) AuditExpectEidNym = Ok tt <-> H s = a) /\
               (brAuditNymEid H T c_sig (Some (Some ipk)) eidI (g1_bytes C n) s (Some r) AuditExpectEidNymRhNym = Ok tt <-> H s = a)) /\
  (with_rh st = true -> exists m n r a,
     md = Some m /\ md_rh_data m = Some {| au_nym := Some n; au_rand := Some r; au_attr := Some a |} /\ attr rhI = Some a /\
     forall s, (brAuditNymRh H T c_sig (Some (Some ipk)) rhI sigraw s (Some r) AuditExpectSignature = Ok tt <-> H s = a) /\
               (brAuditNymRh H T c_sig (Some (Some ipk)) rhI (g1_bytes C n) s (Some r) AuditExpectEidNymRhNym = Ok tt <-> H s = a)).
Proof.
  intros CS Hep HB NZ Ec E attr. apply (proj1 (recover_ok _ _)) in E. cbn [opt_err bind] in E. rewrite Ec in E. cbn [opt_err bind] in E.
  apply bind_ok in E. destruct E as [cri [Ecri E]]. apply bind_ok in E. destruct E as [[sig md'] [Sg E]]. cbn [fst snd] in E.
  apply bind_ok in E. destruct E as [b [Eb E]]. injection E as -> ->.
  assert (Hep' : int64 (cri_epoch cri)) by (destruct (dec c_cri criRaw); [injection Ecri as ->; exact (Hep _ eq_refl)|discriminate Ecri]).
  destruct (CS sig (sig_canonical OK Sg Hep')) as (b' & Y1 & Y2). rewrite Y1 in Eb. injection Eb as ->.
  destruct (C12_audit_complete OK TO HB NZ Sg) as [P1 P2].
  split; intro W; [destruct (P1 W) as (m & n & r & a & Q1 & Q2 & Q3 & Q4)|destruct (P2 W) as (m & n & r & a & Q1 & Q2 & Q3 & Q4)];
    exists m, n, r, a; (split; [exact Q1|]); (split; [exact Q2|]); (split; [exact Q3|]); intro s; specialize (Q4 (H s)) as [Q4 Q5];
    unfold brAuditNymEid, brAuditNymRh; rewrite ?recover_ok, Y2; cbn [opt_err bind deref]; auto.
Qed.
Print Assumptions C12_bridge.

Example C12_bridge_example :
  codec_ok canon_sig (tcodec s_sig) /\ (forall cri, dec (tcodec s_cri) bcriraw = Some cri -> int64 (cri_epoch cri)) /\ ipk_bases tT bipk tB /\ Forall (fun h => h <> gzero) (b_attrs tB) /\
  dec (tcodec s_cred) bcredraw = Some bcred /\
  is_ok (brSign tH tT (tcodec s_cred) (tcodec s_sig) (tcodec s_cri) bcredraw (Some tsk) (Some tnym) (Some trnym)
    (Some (Some bipk)) bshow tmsg 3 2 bcriraw (tR f25) EidNymRhNym None) = true.
Proof.
  split; [intros x _; apply (tcodec_rt s_sig_ok)|].
  split; [intros cri E; assert (Q : option_map cri_epoch (dec (tcodec s_cri) bcriraw) = Some 5%Z) by (vm_compute; reflexivity); rewrite E in Q; injection Q as ->; unfold int64; lia|].
  split; [vm_compute; repeat split; reflexivity|].
  split; [repeat constructor; discriminate|]. split; vm_compute; reflexivity.
Qed.

(** ** C14 through the byte-level API *)
Theorem C14_bridge (C : Curve) (OK : CurveOk C) (H : hasher C) (T : translator C) (c_nsig : codec NymSignature)
    sk ipk (B : Bases C) digest (rnd nonce rSk rRNym : Zr C) :
  codec_ok (fun _ => True) c_nsig -> ipk_bases T ipk B ->
  exists Nym RNym raw,
    brMakeNym T (Some sk) (Some (Some ipk)) rnd = Ok (Nym, RNym) /\
    brNymSign H T c_nsig (Some sk) (Some Nym) (Some RNym) (Some (Some ipk)) digest nonce rSk rRNym = Ok raw /\
    brNymVerify H T c_nsig (Some (Some ipk)) (Some Nym) raw digest = Ok tt.
Proof.
  intros CN (B1 & B2 & _). destruct (@C14_nym_signature_complete C OK H T sk ipk _ _ digest rnd nonce rSk rRNym B1 B2) as (Nym & sig & E1 & E2 & E3).
  destruct (CN sig I) as (raw & Y1 & Y2). exists Nym, rnd, raw.
  split; [apply recover_ok; exact E1|]. split; apply recover_ok; cbn [opt_err bind].
  - rewrite E2. cbn [bind]. rewrite Y1. reflexivity.
  - rewrite Y2. exact E3.
Qed.
Print Assumptions C14_bridge.

Example C14_bridge_example : codec_ok (fun _ => True) (tcodec s_nsig) /\ ipk_bases tT bipk tB.
Proof. split; [intros x _; apply (tcodec_rt s_nsig_ok)|]. vm_compute. repeat split; reflexivity. Qed.

(** ** C17: importing an issuer public key *)
Theorem C17_import_checked (C : Curve) (H : hasher C) (T : translator C) (c_ipk : codec IssuerPublicKey) raw names ipk :
  brNewPublicKeyFromBytes H T c_ipk raw names = Ok ipk ->
  checkIPK H T (enc c_ipk) ipk = Ok ipk /\ (names <> [] -> ip_names ipk = names).
Proof.
  intro E. apply (proj1 (recover_ok _ _)) in E. apply bind_ok in E. destruct E as [k0 [_ E]]. apply bind_ok in E. destruct E as [k1 [_ E]].
  apply bind_ok in E. destruct E as [k2 [Ck E]]. apply bind_ok in E. destruct E as [[] [Nm E]]. injection E as ->. split.
  - unfold checkIPK in *. apply bind_ok in Ck. destruct Ck as [pd [F Ck]]. apply bind_ok in Ck. destruct Ck as [[] [G Ck]].
    unfold setHash in *. destruct (enc c_ipk (with_hash k1 [])) as [b|] eqn:Eb; [|discriminate]. injection Ck as <-.
    unfold checkIPK_first in *. cbn [with_hash ip_names ip_hsk ip_hrand ip_hattrs ip_w ip_barg1 ip_barg2 ip_c ip_s] in *.
    rewrite F. cbn [bind]. rewrite G. cbn [bind]. unfold with_hash in *. cbn in *. rewrite Eb. reflexivity.
  - intro N. destruct (length names =? 0) eqn:L0.
    + apply Nat.eqb_eq, length_zero_iff_nil in L0. contradiction.
    + apply bind_ok in Nm. destruct Nm as [[] [L Nm]]. apply guard_ok, Nat.eqb_eq in L.
      apply (names_match_ok names [] (ip_names ipk)) in Nm. destruct Nm as [rest Nm]. rewrite Nm in L. rewrite app_length in L.
      assert (rest = []) by (apply length_zero_iff_nil; lia). subst rest. rewrite app_nil_r in Nm. exact Nm.
Qed.
Print Assumptions C17_import_checked.

(** What the import of an issuer key through the byte-level API lets through: keys for which the check of C16 succeeds. *)
Theorem C16_import (C : Curve) (H : hasher C) (T : translator C) (c_ipk : codec IssuerPublicKey) raw names ipk :
  brNewPublicKeyFromBytes H T c_ipk raw names = Ok ipk -> checkIPK H T (enc c_ipk) ipk = Ok ipk.
Proof. intro E. exact (proj1 (C17_import_checked E)). Qed.
Print Assumptions C16_import.

Example C17_import_example :
  brNewPublicKeyFromBytes tH tT (tcodec s_ipk) bpkraw tnames = Ok bipk /\ tnames <> [] /\
  brNewPublicKeyFromBytes tH tT (tcodec s_ipk) bpkraw (rev tnames) = Err /\
  brNewPublicKeyFromBytes tH tT (tcodec s_ipk) bpkraw (firstn 3 tnames) = Err.
Proof. split; [vm_compute; reflexivity|]. split; [discriminate|]. split; vm_compute; reflexivity. Qed.

(** ** C18: the request verifier accepts exactly the requests carrying the expected nonce *)
Theorem C18_request_verify_iff (C : Curve) (H : hasher C) (T : translator C) (c_req : codec CredRequest) raw ipk nonce :
  brRequestVerify H T c_req raw (Some (Some ipk)) nonce = Ok tt <->
  exists req, dec c_req raw = Some req /\ checkCredRequest H T req ipk = Ok tt /\
    length nonce = scalar_size C /\ ob (rq_nonce req) = nonce.
Proof.
  unfold brRequestVerify. rewrite recover_ok. split.
  - intro E. apply bind_ok in E. destruct E as [req [E1 E]]. cbn [opt_err bind deref] in E. apply bind_ok in E. destruct E as [[] [E2 E]].
    apply bind_ok in E. destruct E as [[] [E3 E]]. apply guard_ok in E3, E. apply Nat.eqb_eq in E3. apply bytes_eqb_eq in E.
    destruct (dec c_req raw) as [r|]; [|discriminate]. injection E1 as ->. exists req. auto.
  - intros (req & -> & E1 & L & <-). cbn [opt_err bind deref]. rewrite E1. cbn [bind]. rewrite (proj2 (Nat.eqb_eq _ _) L).
    cbn [guard bind]. rewrite bytes_eqb_refl. reflexivity.
Qed.
Print Assumptions C18_request_verify_iff.

Example C18_bridge_example :
  brRequestVerify tH tT (tcodec s_req) breqraw (Some (Some bipk)) [Byte.x07] = Ok tt /\
  brRequestVerify tH tT (tcodec s_req) breqraw (Some (Some bipk)) [Byte.x08] = Err.
Proof. split; vm_compute; reflexivity. Qed.

(** ** C19: Credential.Verify with a list of expected attributes *)
Theorem C19_bridge_verify_iff (C : Curve) (OK : CurveOk C) (H : hasher C) (T : translator C) (c_cred : codec Credential)
    sk ipk (B : Bases C) raw attributes :
  ipk_bases T ipk B ->
  (brCredVerify H T c_cred (Some sk) (Some (Some ipk)) raw attributes = Ok tt <->
   exists cred A e s attrs, dec c_cred raw = Some cred /\
     (forall i a, nth_error attributes i = Some a -> attr_carried H cred i a) /\
     cred_means T cred A e s attrs /\ Forall (fun a => a <> None) (cr_attrs cred) /\ length attrs <= length (b_attrs B) /\
     g1_from_proto T (cr_b cred) = Ok (cred_base B s sk attrs) /\ bbs_valid B A e s sk attrs).
Proof.
  intro HB. unfold brCredVerify. rewrite recover_ok. split.
  - intro E. cbn [opt_err bind deref] in E. apply bind_ok in E. destruct E as [cred [E1 E]]. apply bind_ok in E. destruct E as [[] [E2 E]].
    apply (verCredential_iff OK) with (B := B) in E; [|exact HB]. destruct E as (A & e & s & attrs & E).
    pose proof (proj1 (attrs_match_iff H cred attributes 0) E2) as Q. cbn [Nat.add] in Q.
    destruct (dec c_cred raw) as [c|]; [|discriminate]. injection E1 as ->. exists cred, A, e, s, attrs. auto.
  - intros (cred & A & e & s & attrs & E1 & Q & E). cbn [opt_err bind deref]. rewrite E1. cbn [opt_err bind].
    rewrite (proj2 (attrs_match_iff H cred attributes 0) Q). cbn [bind]. apply (verCredential_iff OK) with (B := B); [exact HB|].
    exists A, e, s, attrs. exact E.
Qed.
Print Assumptions C19_bridge_verify_iff.

Example C19_bridge_example : ipk_bases tT bipk tB /\
  brCredVerify tH tT (tcodec s_cred) (Some tsk) (Some (Some bipk)) bcredraw battrs = Ok tt /\
  brCredVerify tH tT (tcodec s_cred) (Some tsk) (Some (Some bipk)) bcredraw (rev battrs) = Err.
Proof. split; [vm_compute; repeat split; reflexivity|]. split; vm_compute; reflexivity. Qed.

(** ** C21: credential revocation information.
    [issued] is what the authority has signed: the unsigned revocation informations.  A verifier
    that accepts for (epoch, alg) holds a signature on information for exactly that epoch and
    algorithm: it was issued, or the accepted pair is a forgery of the signature scheme, or two
    different encodings with the same digest are at hand. *)
Definition forged (EC : ecdsa) (pk : ec_pk EC) (sha256 : bytes -> bytes) X (encode : X -> option bytes) (issued : list X)
    (d sig : bytes) : Prop :=
  ec_verify pk d sig = true /\ forall c b, In c issued -> encode c = Some b -> d <> sha256 b.

Lemma issued_or_forged (EC : ecdsa) (pk : ec_pk EC) sha256 X (encode : X -> option bytes) issued (x : X) b sig :
  (forall x y b, encode x = Some b -> encode y = Some b -> x = y) ->
  encode x = Some b -> ec_verify pk (sha256 b) sig = true ->
  In x issued \/ forged pk sha256 encode issued (sha256 b) sig \/ exists b', b <> b' /\ sha256 b = sha256 b'.
Proof.
  intros Inj Ex Ev.
  destruct (existsb (fun c => match encode c with Some b' => bytes_eqb (sha256 b) (sha256 b') | None => false end) issued) eqn:Ei.
  - apply existsb_exists in Ei. destruct Ei as (c & Hc & Hb). destruct (encode c) as [b'|] eqn:Ec; [|discriminate].
    apply bytes_eqb_eq in Hb. destruct (bytes_eqb_spec b b') as [->|N].
    + left. rewrite (Inj x c b' Ex Ec). exact Hc.
    + right. right. exists b'. auto.
  - right. left. split; [exact Ev|]. intros c b' Hc Eb Q.
    assert (T : existsb (fun c => match encode c with Some b' => bytes_eqb (sha256 b) (sha256 b') | None => false end) issued = true).
    { apply existsb_exists. exists c. split; [exact Hc|]. rewrite Eb. apply bytes_eqb_eq. exact Q. }
    congruence.
Qed.

Theorem C21_aries_bound (EC : ecdsa) (sha256 : bytes -> bytes) (c_acri : codec ACRI) pk raw epoch alg issued :
  (forall x y b, enc c_acri x = Some b -> enc c_acri y = Some b -> x = y) ->
  arRevVerify sha256 c_acri (Some pk) raw epoch alg = Ok tt ->
  exists cri b, dec c_acri raw = Some cri /\
    enc c_acri {| acri_epoch := epoch; acri_epochpk := acri_epochpk cri; acri_sig := []; acri_alg := alg |} = Some b /\
    ((exists c0, In c0 issued /\ acri_epoch c0 = epoch /\ acri_alg c0 = alg /\ acri_epochpk c0 = acri_epochpk cri) \/
     forged (EC := EC) pk sha256 (enc c_acri) issued (sha256 b) (acri_sig cri) \/
     exists b', b <> b' /\ sha256 b = sha256 b').
Proof.
  intros Inj E. unfold arRevVerify in E. cbn [opt_err bind] in E. apply bind_ok in E. destruct E as [cri [E1 E]].
  apply bind_ok in E. destruct E as [b [E2 E]]. apply guard_ok in E. destruct (dec c_acri raw) as [c|]; [|discriminate].
  injection E1 as ->.
  match type of E2 with opt_err ?m = _ => destruct m as [b'|] eqn:Eb; [|discriminate] end. injection E2 as ->.
  exists cri, b. split; [reflexivity|]. split; [exact Eb|].
  destruct (@issued_or_forged EC pk sha256 ACRI (enc c_acri) issued _ b (acri_sig cri) Inj Eb E) as [I|[F|K]]; [|right; left; exact F|right; right; exact K].
  left. eexists. split; [exact I|]. repeat split; reflexivity.
Qed.
Print Assumptions C21_aries_bound.

Theorem C21_aries_complete (C : Curve) (EC : ecdsa) (sha256 : bytes -> bytes) (c_acri : codec ACRI) (sk : ec_sk EC) (pk : ec_pk EC) handles epoch (w : Zr C) :
  codec_ok canon_acri c_acri -> int64 epoch ->
  (forall d, exists s, ec_sign sk d = Some s /\ ec_verify pk d s = true) ->
  exists raw, arRevSign sha256 c_acri (Some sk) handles epoch 0 w = Ok raw /\ arRevVerify sha256 c_acri (Some pk) raw epoch 0 = Ok tt.
Proof.
  intros CC Hep Sc. assert (I0 : int32 0) by (unfold int32; lia). unfold arRevSign. cbn [opt_err bind Z.eqb].
  set (m := {| acri_epoch := epoch; acri_epochpk := g2_bytes C (genG2 C); acri_sig := []; acri_alg := 0 |}).
  destruct (CC m (conj Hep I0)) as (b & Eb & _). rewrite Eb. cbn [opt_err bind]. destruct (Sc (sha256 b)) as (s & S1 & S2). rewrite S1. cbn [opt_err bind].
  set (m' := {| acri_epoch := epoch; acri_epochpk := g2_bytes C (genG2 C); acri_sig := s; acri_alg := 0 |}).
  destruct (CC m' (conj Hep I0)) as (raw & Er & Dr). rewrite Er. exists raw. split; [reflexivity|].
  unfold arRevVerify. cbn [opt_err bind]. rewrite Dr. cbn [opt_err bind acri_epochpk acri_sig m']. fold m. rewrite Eb. cbn [opt_err bind].
  rewrite S2. reflexivity.
Qed.
Print Assumptions C21_aries_complete.

(** the dlog authority: verifyEpochPK binds the epoch and algorithm it is given *)
Theorem C21_dlog_bound (EC : ecdsa) (sha256 : bytes -> bytes) (c_cri : codec CRI) pk epk sig epoch alg issued :
  (forall x y b, enc c_cri x = Some b -> enc c_cri y = Some b -> x = y) ->
  verifyEpochPK c_cri sha256 (Some pk) (Some epk) sig epoch alg = Ok tt ->
  exists b, enc c_cri {| cri_epoch := epoch; cri_epochpk := Some epk; cri_sig := []; cri_alg := alg |} = Some b /\
    ((exists c0, In c0 issued /\ cri_epoch c0 = epoch /\ cri_alg c0 = alg /\ cri_epochpk c0 = Some epk) \/
     forged (EC := EC) pk sha256 (enc c_cri) issued (sha256 b) sig \/
     exists b', b <> b' /\ sha256 b = sha256 b').
Proof.
  intros Inj E. unfold verifyEpochPK in E. cbn [opt_err bind] in E. apply bind_ok in E. destruct E as [b [E2 E]]. apply guard_ok in E.
  match type of E2 with opt_err ?m = _ => destruct m as [b'|] eqn:Eb; [|discriminate] end. injection E2 as ->.
  exists b. split; [reflexivity|].
  destruct (@issued_or_forged EC pk sha256 CRI (enc c_cri) issued _ b sig Inj Eb E) as [I|[F|K]]; [|right; left; exact F|right; right; exact K].
  left. eexists. split; [exact I|]. repeat split; reflexivity.
Qed.
Print Assumptions C21_dlog_bound.

Theorem C21_dlog_complete (C : Curve) (T : translator C) (EC : ecdsa) (sha256 : bytes -> bytes) (c_cri : codec CRI) (sk : ec_sk EC) (pk : ec_pk EC)
    handles epoch epoch' alg' (w : Zr C) :
  codec_ok canon_cri c_cri -> int64 epoch ->
  (forall d, exists s, ec_sign sk d = Some s /\ ec_verify pk d s = true) ->
  exists raw, brRevSign T c_cri sha256 (Some sk) handles epoch 0 w = Ok raw /\
    brRevVerify c_cri sha256 (Some pk) raw epoch' alg' = Ok tt.
Proof.
  intros CC Hep Sc. assert (I0 : int32 0) by (unfold int32; lia). unfold brRevSign, createCRI. cbn [opt_err bind Z.eqb].
  set (m := {| cri_epoch := epoch; cri_epochpk := Some (g2_to_proto T (genG2 C)); cri_sig := []; cri_alg := 0 |}).
  destruct (CC m (conj Hep I0)) as (b & Eb & _). rewrite Eb. cbn [opt_err bind]. destruct (Sc (sha256 b)) as (s & S1 & S2). rewrite S1. cbn [opt_err bind].
  set (m' := {| cri_epoch := epoch; cri_epochpk := Some (g2_to_proto T (genG2 C)); cri_sig := s; cri_alg := 0 |}).
  destruct (CC m' (conj Hep I0)) as (raw & Er & Dr). rewrite Er. cbn [opt_err recover]. exists raw. split; [reflexivity|].
  unfold brRevVerify, verifyEpochPK. rewrite Dr. cbn [opt_err bind cri_epochpk cri_sig cri_epoch cri_alg m']. fold m. rewrite Eb.
  cbn [opt_err bind]. rewrite S2. reflexivity.
Qed.
Print Assumptions C21_dlog_complete.

(** C21 fails for the dlog bridge: it reads the epoch and the algorithm from the revocation
    information itself and ignores its arguments. *)
Theorem C21_refuted :
  (forall (EC : ecdsa) (sha256 : bytes -> bytes) (c_cri : codec CRI) (pk : option (ec_pk EC)) raw ep1 alg1 ep2 alg2,
     brRevVerify c_cri sha256 pk raw ep1 alg1 = brRevVerify c_cri sha256 pk raw ep2 alg2) /\
  exists (EC : ecdsa) (sha256 : bytes -> bytes) (c_cri : codec CRI) (pk : ec_pk EC) raw cri,
    dec c_cri raw = Some cri /\ cri_epoch cri = 5%Z /\ brRevVerify c_cri sha256 (Some pk) raw 99 7 = Ok tt.
Proof.
  split; [reflexivity|]. exists bEC, bsha, (tcodec s_cri), tt, bcriraw. eexists.
  split; [vm_compute; reflexivity|]. split; vm_compute; reflexivity.
Qed.
Print Assumptions C21_refuted.

Definition baraw : bytes := from_ok [] (arRevSign (C := tC) (EC := bEC) bsha (tcodec s_acri) (Some tt) [] 5 0 f1).
Example C21_example :
  (forall x y b, enc (tcodec s_acri) x = Some b -> enc (tcodec s_acri) y = Some b -> x = y) /\
  (forall x y b, enc (tcodec s_cri) x = Some b -> enc (tcodec s_cri) y = Some b -> x = y) /\
  arRevVerify (EC := bEC) bsha (tcodec s_acri) (Some tt) baraw 5 0 = Ok tt /\
  arRevVerify (EC := bEC) bsha (tcodec s_acri) (Some tt) baraw 6 0 = Err /\
  (forall d, exists s, ec_sign (e := bEC) tt d = Some s /\ ec_verify (e := bEC) tt d s = true).
Proof.
  assert (I : forall X (s : serial X) (x y : X) b, serial_ok s -> enc (tcodec s) x = Some b -> enc (tcodec s) y = Some b -> x = y).
  { intros X s x y b Hs E1 E2. cbn in E1, E2. pose proof (Hs x []) as P1. pose proof (Hs y []) as P2.
    injection E1 as E1. injection E2 as E2. rewrite <- E2 in E1. rewrite E1 in P1. rewrite P1 in P2. injection P2 as ->. reflexivity. }
  split; [intros x y b; exact (I _ _ x y b s_acri_ok)|]. split; [intros x y b; exact (I _ _ x y b s_cri_ok)|].
  split; [vm_compute; reflexivity|]. split; [vm_compute; reflexivity|].
  intro d. exists d. split; [reflexivity|]. cbn. apply bytes_eqb_refl.
Qed.

(** ** C22: weak Boneh-Boyen signatures *)
Theorem C22_wbb (C : Curve) (OK : CurveOk C) (sk m : Zr C) :
  sk + m <> z0 ->
  let '(_, pk) := wbbKeyGen sk in
  forall m', wbbVerify (Some pk) (Some (wbbSign sk m)) (Some m') = Ok tt <-> m' = m.
Proof.
  exact (@wbb_iff C OK sk m).
Qed.
Print Assumptions C22_wbb.

Example C22_example : (f7 : Zr tC) + f8 <> z0 /\
  wbbVerify (C := tC) (Some (f7 : G2 tC)) (Some (wbbSign (C := tC) f7 f8)) (Some (f8 : Zr tC)) = Ok tt /\
  wbbVerify (C := tC) (Some (f7 : G2 tC)) (Some (wbbSign (C := tC) f7 f8)) (Some (f9 : Zr tC)) = Err.
Proof. split; [discriminate|]. split; vm_compute; reflexivity. Qed.

(** ** C23: no input makes the dlog bridge panic.
    Every entry point with the recover idiom, and User.NewKeyFromBytes, which has none. *)
Theorem C23_no_panic_partial (C : Curve) (H : hasher C) (T : translator C) (EC : ecdsa) (sha256 : bytes -> bytes)
    c_ipk c_ik c_req c_cred c_sig c_nsig c_cri :
  (forall names R, brNewKey H T c_ipk names R <> Panic) /\
  (forall raw names, brNewKeyFromBytes c_ik raw names <> Panic) /\
  (forall raw names, brNewPublicKeyFromBytes H T c_ipk raw names <> Panic) /\
  (forall raw, brUserKeyFromBytes C raw <> Panic) /\
  (forall sk ipk r, brMakeNym T sk ipk r <> Panic) /\
  (forall raw, brNymFromBytes T raw <> Panic) /\
  (forall raw, brPublicNymFromBytes T raw <> Panic) /\
  (forall sk ipk nonce r, brRequestSign H T c_req sk ipk nonce r <> Panic) /\
  (forall raw ipk nonce, brRequestVerify H T c_req raw ipk nonce <> Panic) /\
  (forall key raw attrs E S, brCredSign H T c_req c_cred key raw attrs E S <> Panic) /\
  (forall sk ipk raw attrs, brCredVerify H T c_cred sk ipk raw attrs <> Panic) /\
  (forall cred sk Nym RNym ipk attrs msg rh eid cri R st meta,
     brSign H T c_cred c_sig c_cri cred sk Nym RNym ipk attrs msg rh eid cri R st meta <> Panic) /\
  (forall ipk sig digest attrs rh eid revpk (rev : revpk) ep vt meta,
     brVerify H T c_sig ipk sig digest attrs rh eid rev ep vt meta <> Panic) /\
  (forall ipk i sig s r vt, brAuditNymEid H T c_sig ipk i sig s r vt <> Panic) /\
  (forall ipk i sig s r vt, brAuditNymRh H T c_sig ipk i sig s r vt <> Panic) /\
  (forall sk Nym RNym ipk digest n r1 r2, brNymSign H T c_nsig sk Nym RNym ipk digest n r1 r2 <> Panic) /\
  (forall ipk Nym sig digest, brNymVerify H T c_nsig ipk Nym sig digest <> Panic) /\
  (forall (sk : option (ec_sk EC)) handles epoch alg w, brRevSign T c_cri sha256 sk handles epoch alg w <> Panic) /\
  (forall (pk : option (ec_pk EC)) raw epoch alg, brRevVerify c_cri sha256 pk raw epoch alg <> Panic).
Proof.
  repeat split; intros; try apply recover_no_panic. unfold brUserKeyFromBytes. destruct (length raw =? scalar_size C); discriminate.
Qed.
Print Assumptions C23_no_panic_partial.

(** The entry point that is missing above: Issuer.Bases always panics, and has no recover. *)
Theorem C23_refuted : forall ipk req rh eid sk, brBases ipk req rh eid sk = Panic.
Proof. reflexivity. Qed.
Print Assumptions C23_refuted.

(** The recover idiom is needed: without it malformed messages do panic, e.g. a signature without
    the non-revocation proof and a credential with an attribute index out of range. *)
Example C23_example :
  Ver tH tT tsig0 tdisc (Some tipk) tmsg tvals 3 2 tt 0 Basic None = Panic /\
  brVerify tH tT (tcodec s_sig) (Some (Some tipk)) (ser s_sig tsig0) tmsg bshow 3 2 tt 0 Basic None = Err /\
  attrs_match tH 0 battrs tcred0 = Panic /\
  brCredVerify tH tT (tcodec s_cred) (Some tsk) (Some (Some tipk)) (ser s_cred tcred0) battrs = Err.
Proof. split; [vm_compute; reflexivity|]. split; [vm_compute; reflexivity|]. split; vm_compute; reflexivity. Qed.
