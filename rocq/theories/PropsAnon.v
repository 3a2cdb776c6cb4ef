(** * Anonymity of the members of an MSP (C89)

    [session CD E h l (ty, raw) adv d1 d2 ds] (AnonSpec.v) is everything an observer [adv] sees of a
    member whose configuration is [raw]: the serialized default identity and the signatures of the
    messages that [adv] asks for.  Two members cannot be told apart when a bijection of the random draws
    turns the sessions of one into those of the other: what is seen then has the same distribution. *)
From Verif Require Import Base Curve Algebra Spec Dlog DlogSpec DlogFacts DlogData DlogSound DlogTop DlogAudit Bridge BridgeFacts Bbs BbsSpec BbsFacts Aries AriesSpec AriesNym AriesReqHide
  Translator PropsDlog PropsAries PropsBridge Csp CspInst CspSpec CspFacts PropsCsp RunSpec RunFacts Msp MspSpec MspFacts PropsMsp PropsMspAries PropsMspSound
  AnonSpec AnonFacts Toy ToyBbs ToyDlog ToyCodec ToyAries ToyCsp ToyMsp.
From Coq Require Import Field.
Unset Strict Implicit.

(** Two configurations for members of one MSP *)
Definition same_msp (cf1 cf2 : msp_config) : Prop :=
  cf_name cf1 = cf_name cf2 /\ cf_ipk cf1 = cf_ipk cf2 /\ cf_revpk cf1 = cf_revpk cf2 /\ cf_curve cf1 = cf_curve cf2.
(** with the same organizational unit, role and revocation information *)
Definition alike (sg1 sg2 : signer_config) : Prop :=
  sc_ou sg1 = sc_ou sg2 /\ checkRole (sc_role sg1) ADMIN = checkRole (sc_role sg2) ADMIN /\ sc_cri sg1 = sc_cri sg2.

(** Draws of the calls, from the scalars they use *)
Definition dl_nym C EC (d0 : ddraw C EC) (r : Zr C) : ddraw C EC := {| dd_issuer := dd_issuer d0; dd_zr := fun _ => r; dd_sig := dd_sig d0; dd_esk := dd_esk d0 |}.
Definition dl_proof C EC (d0 : ddraw C EC) (R : SigRand C) : ddraw C EC := {| dd_issuer := dd_issuer d0; dd_zr := dd_zr d0; dd_sig := R; dd_esk := dd_esk d0 |}.
Definition dl_sign C EC (d0 : ddraw C EC) (y : Zr C * Zr C * Zr C) : ddraw C EC :=
  {| dd_issuer := dd_issuer d0; dd_zr := fun i => match i with O => fst (fst y) | S O => snd (fst y) | _ => snd y end; dd_sig := dd_sig d0; dd_esk := dd_esk d0 |}.

Lemma standard_fields C (H : hasher C) (T : translator C) cred sk N r ipk disc msg rh eid cri R sig md :
  NewSignature H T (Some cred) (Some sk) (Some N) (Some r) (Some ipk) disc msg rh eid (Some cri) R Standard None = Ok (sig, md) ->
  sg_nym sig = Some (g1_to_proto T N) /\ sg_pksig sig = cri_sig cri.
Proof.
  intros E. cbn [NewSignature] in E. apply bind_ok in E. destruct E as [P [_ E]]. unfold finalise in E. cbn [bind] in E.
  apply bind_ok in E. destruct E as [pd [_ E]]. apply bind_ok in E. destruct E as [c [_ E]]. apply bind_ok in E. destruct E as [sa [_ E]].
  apply (f_equal (fun r => match r with Ok p => (sg_nym (fst p), sg_pksig (fst p)) | _ => (None, []) end)) in E. cbn [fst sg_nym sg_pksig] in E. injection E as <- <-. split; reflexivity.
Qed.

(** what [present] (C06) makes is what Setup makes *)
Lemma present_made C (OK : CurveOk C) (H : hasher C) (T : translator C) (TO : TrOk T) (c_cred : codec Credential) (c_sig : codec Dlog.Signature) (c_cri : codec CRI)
    k (B : Bases C) cred craw sk cri criRaw x sig : ipk_bases T k B -> codec_ok canon_sig c_sig -> int64 (cri_epoch cri) -> dec c_cred craw = Some cred -> dec c_cri criRaw = Some cri ->
  present H T cred sk k [Byte.x01; Byte.x01; Byte.x00; Byte.x00] [] 3 2 cri Standard x = Ok sig ->
  let N := gmul2 (b_hsk B) sk (b_hrand B) (fst x) in
  brMakeNym T (Some sk) (Some (Some k)) (fst x) = Ok (N, fst x) /\ g1_from_proto T (sg_nym sig) = Ok N /\
  exists b md, enc c_sig sig = Some b /\ brSign H T c_cred c_sig c_cri craw (Some sk) (Some N) (Some (fst x)) (Some (Some k)) disclosure [] 3 2 criRaw (snd x) Standard None = Ok (b, md).
Proof.
  intros HB CS Ie Dc Dr P N. destruct HB as (B1 & B2 & _). unfold present in P. unfold brMakeNym. cbn [opt_err bind deref].
  assert (Q : makeNym T sk k (fst x) = Ok (N, fst x)) by (unfold makeNym; rewrite B1, B2; reflexivity).
  rewrite Q in *. cbn [bind fst snd] in P. split; [reflexivity|].
  apply bind_ok in P. destruct P as [[sg md] [E P]]. injection P as ->. destruct (standard_fields E) as [Fn _]. split; [rewrite Fn; apply (tr_g1 TO)|].
  destruct (CS sig (sig_canonical OK E Ie)) as (b & E1 & _). exists b, md. split; [exact E1|]. unfold brSign. cbn [opt_err bind]. rewrite Dc, Dr. cbn [opt_err bind].
  change (sign_disclosure disclosure) with [Byte.x01; Byte.x01; Byte.x00; Byte.x00]. rewrite E. cbn [bind fst snd]. rewrite E1. reflexivity.
Qed.

Lemma nymSign_of C (H : hasher C) (T : translator C) c_nsig (sk : Zr C) N r k m n a b ns nb :
  newNymSignature H T (Some sk) (Some N) (Some r) (Some k) m n a b = Ok ns -> enc c_nsig ns = Some nb ->
  brNymSign H T c_nsig (Some sk) (Some N) (Some r) (Some (Some k)) m n a b = Ok nb.
Proof. intros E1 E2. unfold brNymSign. cbn [opt_err bind]. rewrite E1. cbn [bind]. rewrite E2. reflexivity. Qed.

Theorem C89_dlog_partial : forall utf8 CD C (OK : CurveOk C) (H : hasher C) (T : translator C) (TO : TrOk T) c_ipk c_ik c_req c_cred c_sig c_nsig c_cri EC (EE : ecenv EC) sha256
    (E : env (dlogU C EC)) h l m ty raw1 raw2 cf1 cf2 sg1 sg2 a1 a2 b1 b2 h1 h2 cred1 cred2 (A1 A2 : G1 C) (rk : ec_sk EC) handles epoch wsk (d0 : ddraw C EC) adv,
  let X := dlog_scheme H T c_ipk c_ik c_req c_cred c_sig c_nsig c_cri EE sha256 in
  let M := dlog_math T EE sha256 in
  codec_ok canon_sig c_sig -> codec_ok canon_cri c_cri -> int64 epoch -> codec_ok (fun _ => True) c_nsig -> codecs_ok utf8 CD -> (forall x, enc (c_ii CD) x <> None) ->
  (forall cid p, configured_curve (ev_aries E) (cf_curve cf1) = Some cid -> ev_pack E cid = Some p -> p = (X, M)) -> nth_error h l = Some m ->
  dec (c_conf CD) raw1 = Some cf1 -> cf_signer cf1 = Some sg1 -> Setup CD E h l a1 a2 (Some (ty, raw1)) = (Ok tt, h1) ->
  dec (c_conf CD) raw2 = Some cf2 -> cf_signer cf2 = Some sg2 -> Setup CD E h l b1 b2 (Some (ty, raw2)) = (Ok tt, h2) ->
  same_msp cf1 cf2 -> alike sg1 sg2 -> utf8 (cf_name cf1) -> utf8 (sc_ou sg1) ->
  brRevSign T c_cri sha256 (Some rk) handles epoch 0 wsk = Ok (sc_cri sg1) ->
  dec c_cred (sc_cred sg1) = Some cred1 -> g1_from_proto T (cr_a cred1) = Ok A1 -> A1 <> gzero -> length (cr_attrs cred1) = 4 ->
  dec c_cred (sc_cred sg2) = Some cred2 -> g1_from_proto T (cr_a cred2) = Ok A2 -> A2 <> gzero -> length (cr_attrs cred2) = 4 ->
  (forall k HRand, brNewPublicKeyFromBytes H T c_ipk (cf_ipk cf1) attribute_names = Ok k -> g1_from_proto T (ip_hrand k) = Ok HRand -> HRand <> gzero) ->
  let see raw (x : (Zr C * SigRand C) * list (Zr C * Zr C * Zr C)) :=
    session CD E h l (ty, raw) adv (dl_nym d0 (fst (fst x))) (dl_proof d0 (snd (fst x))) (map (dl_sign d0) (snd x)) in
  exists f g : (Zr C * SigRand C) * list (Zr C * Zr C * Zr C) -> (Zr C * SigRand C) * list (Zr C * Zr C * Zr C),
    (forall x, rd_r1 (snd (fst x)) <> z0 -> rd_r1 (snd (fst (f x))) <> z0 /\ draws_eq (fst (g (f x))) (fst x) /\ snd (g (f x)) = snd x /\
       exists seen, see raw1 x = Ok seen /\ see raw2 (f x) = Ok seen) /\
    (forall y, rd_r1 (snd (fst y)) <> z0 -> rd_r1 (snd (fst (g y))) <> z0 /\ draws_eq (fst (f (g y))) (fst y) /\ snd (f (g y)) = snd y /\
       exists seen, see raw2 y = Ok seen /\ see raw1 (g y) = Ok seen).
Proof.
  intros utf8 CD C OK H T TO c_ipk c_ik c_req c_cred c_sig c_nsig c_cri EC EE sha256 E h l m ty raw1 raw2 cf1 cf2 sg1 sg2 a1 a2 b1 b2 h1 h2 cred1 cred2 A1 A2 rk handles epoch wsk d0 adv X M
    CS CC Hep CN CDO CII PK L D1 G1 S1 D2 G2 S2 (Sn & Si & Sr & Sc) (So & Sa & Scr) Un Uo Ecri Ec1 EA1 NA1 L1 Ec2 EA2 NA2 L2 HR see.
  destruct (enter_run L S1 D1 G1 PK) as (ipk & sk1 & I1 & _ & V1 & Run1).
  assert (PK2 : forall cid p, configured_curve (ev_aries E) (cf_curve cf2) = Some cid -> ev_pack E cid = Some p -> p = (X, M)) by (rewrite <- Sc; exact PK).
  destruct (enter_run L S2 D2 G2 PK2) as (ipk2 & sk2 & I2 & _ & V2 & Run2). rewrite <- Si in I2. rewrite <- Sn in Run2.
  change (s_issuerPkFromBytes X (cf_ipk cf1) attribute_names) with (let+ k := dlogPk H T c_ipk (cf_ipk cf1) attribute_names in IOk (Some (Some k) : u_ipk (dlogU C EC))) in I1, I2.
  destruct (dlogPk H T c_ipk (cf_ipk cf1) attribute_names) as [k|k|] eqn:Ipk; cbn [ibind] in I1, I2; [|discriminate I1..]. injection I1 as <-. injection I2 as <-.
  assert (Imp : brNewPublicKeyFromBytes H T c_ipk (cf_ipk cf1) attribute_names = Ok k) by (rewrite <- dlogPk_res, Ipk; reflexivity).
  destruct (C17_import_checked Imp) as [Chk Nms]. specialize (Nms ltac:(discriminate)).
  assert (Ln : length (ip_names k) = 4) by (rewrite Nms; reflexivity).
  assert (HB : exists B, ipk_bases T k B).
  { unfold checkIPK in Chk. apply bind_ok in Chk. destruct Chk as [pd [F1 _]]. destruct (checkIPK_first_inv OK F1) as (_ & _ & _ & B & HB & _). exists B. exact HB. }
  destruct HB as [B HB]. assert (NZ : b_hrand B <> gzero) by exact (HR k (b_hrand B) Imp (proj1 (proj2 HB))).
  rewrite <- Sa, <- So in V2. set (role := if checkRole (sc_role sg1) ADMIN then MSPRole_ADMIN else MSPRole_MEMBER) in *.
  (* the revocation information *)
  assert (Hcri : exists cri, dec c_cri (sc_cri sg1) = Some cri /\ cri_alg cri = 0%Z /\ int64 (cri_epoch cri)).
  { apply (proj1 (recover_ok _ _)) in Ecri. apply bind_ok in Ecri. destruct Ecri as [cri [Ecri Eenc]].
    assert (Pcri : cri_alg cri = 0%Z /\ cri_epoch cri = epoch).
    { unfold createCRI in Ecri. cbn [opt_err bind Z.eqb] in Ecri. apply bind_ok in Ecri. destruct Ecri as [? [_ Ecri]].
      apply bind_ok in Ecri. destruct Ecri as [? [_ Ecri]]. injection Ecri as <-. split; reflexivity. }
    destruct Pcri as (Pc1 & Pc0). rewrite <- Pc0 in Hep. exists cri. split; [|split; assumption].
    destruct (CC cri) as (b & X1 & X2); [split; [exact Hep|rewrite Pc1; unfold int32; lia]|]. rewrite X1 in Eenc. injection Eenc as <-. exact X2. }
  destruct Hcri as (cri & Dr & Al & Ie). assert (Dr2 : dec c_cri (sc_cri sg2) = Some cri) by (rewrite <- Scr; exact Dr).
  (* the credentials *)
  assert (Cr : forall sk craw cred eid, dec c_cred craw = Some cred -> brCredVerify H T c_cred (Some sk) (Some (Some k)) craw (credential_attributes (sc_ou sg1) role eid) = Ok tt ->
            verCredential T cred sk k = Ok tt /\ forall i v, nth_error [H (sc_ou sg1); zr_of_int C (getIdemixRoleFromMSPRoleValue role)] i = Some v ->
              nth_error (map (fun a => zr_of_bytes C (ob a)) (cr_attrs cred)) i = Some v).
  { intros sk craw cred eid Dc V. apply (proj1 (recover_ok _ _)) in V. cbn [opt_err bind deref] in V. rewrite Dc in V. cbn [opt_err bind] in V.
    apply bind_ok in V. destruct V as [[] [Em V]]. split; [exact V|]. pose proof (proj1 (attrs_match_iff H cred _ 0) Em) as Q. cbn [Nat.add] in Q.
    intros i v Hi. rewrite nth_error_map.
    assert (Qi : exists a, nth_error (credential_attributes (sc_ou sg1) role eid) i = Some a /\ attr_scalar H a = Some v /\ at_type a <> HiddenAttr).
    { destruct i as [|[|i]]; [| |destruct i; discriminate Hi]; cbn in Hi; injection Hi as <-; eexists; (split; [reflexivity|]); (split; [reflexivity|discriminate]). }
    destruct Qi as (a & Ha & Hs & Ht). destruct (Q i a Ha) as [W|(v' & x & W1 & W2 & W3)]; [contradiction|]. rewrite W2. cbn [option_map]. rewrite W3, (ok_zr_rt OK). congruence. }
  destruct (Cr sk1 (sc_cred sg1) cred1 (sc_eid sg1) Ec1 V1) as [Vc1 Ca1]. destruct (Cr sk2 (sc_cred sg2) cred2 (sc_eid sg2) Ec2 V2) as [Vc2 Ca2]. clear Cr.
  destruct (@C06_unlinkable C OK H T k B [Byte.x01; Byte.x01; Byte.x00; Byte.x00] [] 3 2 cri Standard
              cred1 sk1 A1 (zr_of_bytes C (cr_e cred1)) (zr_of_bytes C (cr_s cred1)) (map (fun a => zr_of_bytes C (ob a)) (cr_attrs cred1))
              cred2 sk2 A2 (zr_of_bytes C (cr_e cred2)) (zr_of_bytes C (cr_s cred2)) (map (fun a => zr_of_bytes C (ob a)) (cr_attrs cred2)) HB NZ Ln) as (f1 & g1 & F1 & G1').
  { cbn. lia. } { exists 3. split; [lia|reflexivity]. } { exact Al. } { left; reflexivity. } { discriminate. } { discriminate. }
  { exact Vc1. } { repeat split. exact EA1. } { exact NA1. } { rewrite map_length. exact L1. }
  { exact Vc2. } { repeat split. exact EA2. } { exact NA2. } { rewrite map_length. exact L2. }
  { intros i b Hi Nb. destruct i as [|[|[|[|i]]]]; try (cbn in Hi; injection Hi as <-; destruct (Nb eq_refl)).
    - rewrite (Ca1 0 _ eq_refl), (Ca2 0 _ eq_refl). reflexivity.
    - rewrite (Ca1 1 _ eq_refl), (Ca2 1 _ eq_refl). reflexivity.
    - destruct i; discriminate Hi. }
  change (Z.of_nat 3) with 3%Z in F1, G1'. change (Z.of_nat 2) with 2%Z in F1, G1'.
  set (opn raw (x : Zr C * SigRand C) := shown CD E h l (ty, raw) (dl_nym d0 (fst x)) (dl_proof d0 (snd x))).
  set (sgn raw (x : Zr C * SigRand C) y m := signed CD E h l (ty, raw) (dl_nym d0 (fst x)) (dl_proof d0 (snd x)) (dl_sign d0 y) m).
  set (nym sk (x : Zr C * SigRand C) := gmul2 (b_hsk B) sk (b_hrand B) (fst x)).
  destruct (@sessions (Zr C * Zr C * Zr C) (Zr C * SigRand C) (@draws_eq C) (fun x => rd_r1 (snd x) <> z0) (fun x => rd_r1 (snd x) <> z0) f1 g1 (opn raw1) (opn raw2) (sgn raw1) (sgn raw2)
              (fun x m y => nshift H T k (nym sk1 x) sk1 (fst x) sk2 (fst (f1 x)) m y) (fun x m y => nshift H T k (nym sk2 x) sk2 (fst x) sk1 (fst (g1 x)) m y)) with (adv := adv) as (f & g & F & G).
  3:{ assert (Q : forall raw x, see raw x = sess (opn raw) (sgn raw) adv x).
      { intros raw x. unfold see, session, sess, opn, sgn. destruct (shown _ _ _ _ _ _ _) as [b| |]; cbn [bind]; [apply signs_map|reflexivity..]. }
      exists f, g. split; intros x O; rewrite !Q; [exact (F x O)|exact (G x O)]. }
  - intros x O. destruct (F1 x O) as (P1 & P2 & sig & P3 & P4). split; [exact P1|]. split; [exact P2|].
    destruct (present_made OK TO (c_sig := c_sig) HB CS Ie Ec1 Dr P3) as (M1 & Q1 & p1 & md1 & B1 & W1). destruct (present_made OK TO (c_sig := c_sig) HB CS Ie Ec2 Dr2 P4) as (M2 & Q2 & p2 & md2 & B2 & W2).
    assert (Ep : p1 = p2) by congruence. subst p2. assert (EN : nym sk1 x = nym sk2 (f1 x)) by (unfold nym; congruence). fold (nym sk1 x) in M1, W1. fold (nym sk2 (f1 x)) in M2, W2. rewrite <- EN in M2, W2.
    destruct (@shown_same _ CD E X M utf8 h l (ty, raw1) (ty, raw2) (cf_name cf1) (Some (Some k) : u_ipk (dlogU C EC)) sg1 sg2 sk1 sk2 (dl_nym d0 (fst x)) (dl_proof d0 (snd x))
                (dl_nym d0 (fst (f1 x))) (dl_proof d0 (snd (f1 x))) (nym sk1 x) (fst x) (fst (f1 x)) p1 md1 md2 CDO CII Un Uo So Sa Run1 Run2 M1 M2 W1 W2) as ((ser & Z1 & Z2) & Z3 & Z4).
    exists ser. split; [exact Z1|]. split; [exact Z2|]. intros m0 [[n a] b].
    pose proof (@nshift_ok C OK H T k (b_hsk B) (b_hrand B) (nym sk1 x) sk1 (fst x) sk2 (fst (f1 x)) m0 n a b (proj1 HB) (proj1 (proj2 HB)) EN) as Sh.
    destruct (nshift H T k (nym sk1 x) sk1 (fst x) sk2 (fst (f1 x)) m0 (n, a, b)) as [[n' a'] b'] eqn:Y. destruct Sh as (ns & U1 & U2 & U3).
    destruct (CN ns I) as (nb & Nb & _). exists nb. unfold sgn. rewrite Z3, Z4.
    split; [|split].
    + exact (nymSign_of (c_nsig := c_nsig) U1 Nb).
    + exact (nymSign_of (c_nsig := c_nsig) U2 Nb).
    + rewrite <- EN, (proj1 P2). exact U3.
  - intros x O. destruct (G1' x O) as (P1 & P2 & sig & P3 & P4). split; [exact P1|]. split; [exact P2|].
    destruct (present_made OK TO (c_sig := c_sig) HB CS Ie Ec2 Dr2 P3) as (M1 & Q1 & p1 & md1 & B1 & W1). destruct (present_made OK TO (c_sig := c_sig) HB CS Ie Ec1 Dr P4) as (M2 & Q2 & p2 & md2 & B2 & W2).
    assert (Ep : p1 = p2) by congruence. subst p2. assert (EN : nym sk2 x = nym sk1 (g1 x)) by (unfold nym; congruence). fold (nym sk2 x) in M1, W1. fold (nym sk1 (g1 x)) in M2, W2. rewrite <- EN in M2, W2.
    destruct (@shown_same _ CD E X M utf8 h l (ty, raw2) (ty, raw1) (cf_name cf1) (Some (Some k) : u_ipk (dlogU C EC)) sg2 sg1 sk2 sk1 (dl_nym d0 (fst x)) (dl_proof d0 (snd x))
                (dl_nym d0 (fst (g1 x))) (dl_proof d0 (snd (g1 x))) (nym sk2 x) (fst x) (fst (g1 x)) p1 md1 md2 CDO CII Un (eq_ind _ utf8 Uo _ So) (eq_sym So) (eq_sym Sa) Run2 Run1 M1 M2 W1 W2) as ((ser & Z1 & Z2) & Z3 & Z4).
    exists ser. split; [exact Z1|]. split; [exact Z2|]. intros m0 [[n a] b].
    pose proof (@nshift_ok C OK H T k (b_hsk B) (b_hrand B) (nym sk2 x) sk2 (fst x) sk1 (fst (g1 x)) m0 n a b (proj1 HB) (proj1 (proj2 HB)) EN) as Sh.
    destruct (nshift H T k (nym sk2 x) sk2 (fst x) sk1 (fst (g1 x)) m0 (n, a, b)) as [[n' a'] b'] eqn:Y. destruct Sh as (ns & U1 & U2 & U3).
    destruct (CN ns I) as (nb & Nb & _). exists nb. unfold sgn. rewrite Z3, Z4.
    split; [|split].
    + exact (nymSign_of (c_nsig := c_nsig) U1 Nb).
    + exact (nymSign_of (c_nsig := c_nsig) U2 Nb).
    + rewrite <- EN, (proj1 P2). exact U3.
Qed.
Print Assumptions C89_dlog_partial.

(** ** aries *)
Definition al_nym C EC (d0 : adraw C EC) (r : Zr C) : adraw C EC := {| ad_seed := ad_seed d0; ad_zr := fun _ => r; ad_sig := ad_sig d0; ad_esk := ad_esk d0 |}.
Definition al_proof C EC (d0 : adraw C EC) (R : ASigRand C) : adraw C EC := {| ad_seed := ad_seed d0; ad_zr := ad_zr d0; ad_sig := R; ad_esk := ad_esk d0 |}.
Definition al_sign C EC (d0 : adraw C EC) (y : Zr C * Zr C * Zr C) : adraw C EC :=
  {| ad_seed := ad_seed d0; ad_zr := fun i => match i with O => fst (fst y) | S O => snd (fst y) | _ => snd y end; ad_sig := ad_sig d0; ad_esk := ad_esk d0 |}.

Lemma standard_asig C (H : hasher C) c_cred c_sig c_cri credBytes sk N r key attributes msg rh eid criRaw cri R b md : dec c_cri criRaw = Some cri ->
  arSign H c_cred c_sig c_cri credBytes sk N r key attributes msg rh eid criRaw Standard None R = Ok (b, md) ->
  exists sg, enc c_sig sg = Some b /\ as_nym sg = g1_bytes C N /\ as_pk_sig sg = acri_sig cri /\ (int64 (acri_epoch cri) -> canon_asig sg).
Proof.
  intros Dr E. unfold arSign in E. apply bind_ok in E. destruct E as [u [_ E]]. apply bind_ok in E. destruct E as [ipk [_ E]]. rewrite Dr in E. cbn [opt_err bind] in E.
  apply bind_ok in E. destruct E as [u2 [Al E]]. apply guard_ok in Al. apply Z.eqb_eq in Al. apply bind_ok in E. destruct E as [cr [_ E]]. apply bind_ok in E. destruct E as [[pok ms] [_ E]].
  apply bind_ok in E. destruct E as [cn [_ E]]. apply bind_ok in E. destruct E as [me [_ E]]. apply bind_ok in E. destruct E as [e1 [Q1 E]]. injection Q1 as <-.
  apply bind_ok in E. destruct E as [mr [_ E]]. apply bind_ok in E. destruct E as [e2 [Q2 E]]. injection Q2 as <-.
  apply bind_ok in E. destruct E as [c [_ E]]. apply bind_ok in E. destruct E as [pf [_ E]]. apply bind_ok in E. destruct E as [pn [_ E]].
  cbn [opt_respond bind] in E. apply bind_ok in E. destruct E as [sb [Pk E]]. injection E as -> _.
  unfold packageProof in Pk. apply bind_ok in Pk. destruct Pk as [x1 [_ Pk]]. apply bind_ok in Pk. destruct Pk as [x2 [_ Pk]]. apply bind_ok in Pk. destruct Pk as [x3 [_ Pk]].
  cbn [bind] in Pk. match type of Pk with opt_err (enc _ ?sg) = _ => exists sg; destruct (enc c_sig sg); [injection Pk as ->|discriminate Pk] end.
  do 3 (split; [reflexivity|]). intros Ep. split; [clear; unfold int32; cbn; lia|]. split; [clear; unfold int32; cbn; lia|]. split; [exact Ep|]. intros a Q. injection Q as <-. rewrite Al. clear; unfold int32; lia.
Qed.

Lemma apresent_made C (OK : CurveOk C) HG (H : hasher C) c_cred c_sig c_cri pk cred sk attributes msg rh eid criRaw st x sig : bls_sizes C ->
  ar_present H c_cred c_sig c_cri cred sk (Some (Some (issuer_key HG pk 4))) attributes msg rh eid criRaw st x = Ok sig ->
  let N := (gen0 HG pk (4 + 1) ⊗ fst x) ⊕ (base_at HG pk 4 0 ⊗ sk) in
  arMakeNym 0 sk (Some (Some (issuer_key HG pk 4))) (fst x) = Ok (N, fst x) /\
  exists md, arSign H c_cred c_sig c_cri cred sk N (fst x) (Some (Some (issuer_key HG pk 4))) attributes msg (Z.of_nat rh) (Z.of_nat eid) criRaw st None (snd x) = Ok (sig, md).
Proof.
  intros BS P N. pose proof (makeNym_ok OK HG BS pk sk (fst x) (Nat.le_0_l 4) : arMakeNym 0 _ _ _ = _) as Q. fold N in Q. split; [exact Q|].
  unfold ar_present in P. rewrite Q in P. cbn [bind] in P. apply bind_ok in P. destruct P as [[b md] [P1 P2]]. injection P2 as ->. exists md. exact P1.
Qed.

Theorem C89_aries_partial : forall utf8 CD C (OK : CurveOk C) (HG : bytes -> G1 C) (H : hasher C) hkdf c_cred c_sig c_nsig c_cri EC (EE : ecenv EC) sha256 (T : translator C)
    (E : env (ariesU C EC)) h l m ty raw1 raw2 cf1 cf2 sg1 sg2 a1 a2 b1 b2 h1 h2 (A1 A2 : G1 C) e1 e2 s1 s2 vals1 vals2 (rk : ec_sk EC) handles epoch wsk (d0 : adraw C EC) adv,
  let X := aries_scheme HG H hkdf c_cred c_sig c_nsig c_cri EE sha256 in
  let M := aries_math T EE sha256 in
  bls_sizes C -> codec_ok canon_asig c_sig -> codec_ok canon_acri c_cri -> int64 epoch -> codec_ok (fun _ => True) c_nsig -> codecs_ok utf8 CD -> (forall x, enc (c_ii CD) x <> None) ->
  (forall cid p, configured_curve (ev_aries E) (cf_curve cf1) = Some cid -> ev_pack E cid = Some p -> p = (X, M)) -> nth_error h l = Some m ->
  dec (c_conf CD) raw1 = Some cf1 -> cf_signer cf1 = Some sg1 -> Setup CD E h l a1 a2 (Some (ty, raw1)) = (Ok tt, h1) ->
  dec (c_conf CD) raw2 = Some cf2 -> cf_signer cf2 = Some sg2 -> Setup CD E h l b1 b2 (Some (ty, raw2)) = (Ok tt, h2) ->
  same_msp cf1 cf2 -> alike sg1 sg2 -> utf8 (cf_name cf1) -> utf8 (sc_ou sg1) ->
  arRevSign (C := C) sha256 c_cri (Some rk) handles epoch 0 wsk = Ok (sc_cri sg1) ->
  dec c_cred (sc_cred sg1) = Some (credential_of A1 e1 s1 vals1) -> length vals1 = 4 -> A1 <> gzero ->
  dec c_cred (sc_cred sg2) = Some (credential_of A2 e2 s2 vals2) -> length vals2 = 4 -> A2 <> gzero ->
  (forall k, arNewPublicKeyFromBytes HG (cf_ipk cf1) attribute_names = Ok k -> pg_h0 (ip_key k) <> gzero) ->
  let see raw (x : (Zr C * ASigRand C) * list (Zr C * Zr C * Zr C)) :=
    session CD E h l (ty, raw) adv (al_nym d0 (fst (fst x))) (al_proof d0 (snd (fst x))) (map (al_sign d0) (snd x)) in
  let usable (x : (Zr C * ASigRand C) * list (Zr C * Zr C * Zr C)) := pr_r1 (rn_pok (snd (fst x))) <> z0 in
  exists f g : (Zr C * ASigRand C) * list (Zr C * Zr C * Zr C) -> (Zr C * ASigRand C) * list (Zr C * Zr C * Zr C),
    (forall x, usable x -> usable (f x) /\ adraws_eq (fst (g (f x))) (fst x) /\ snd (g (f x)) = snd x /\ exists seen, see raw1 x = Ok seen /\ see raw2 (f x) = Ok seen) /\
    (forall y, usable y -> usable (g y) /\ adraws_eq (fst (f (g y))) (fst y) /\ snd (f (g y)) = snd y /\ exists seen, see raw2 y = Ok seen /\ see raw1 (g y) = Ok seen).
Proof.
  intros utf8 CD C OK HG H hkdf c_cred c_sig c_nsig c_cri EC EE sha256 T E h l m ty raw1 raw2 cf1 cf2 sg1 sg2 a1 a2 b1 b2 h1 h2 A1 A2 e1 e2 s1 s2 vals1 vals2 rk handles epoch wsk d0 adv X M
    BS CS CC Hep CN CDO CII PK L D1 G1 S1 D2 G2 S2 (Sn & Si & Sr & Sc) (So & Sa & Scr) Un Uo Ecri Ec1 L1 NA1 Ec2 L2 NA2 HR see usable.
  destruct (enter_run L S1 D1 G1 PK) as (ipk & sk1 & I1 & _ & V1 & Run1).
  assert (PK2 : forall cid p, configured_curve (ev_aries E) (cf_curve cf2) = Some cid -> ev_pack E cid = Some p -> p = (X, M)) by (rewrite <- Sc; exact PK).
  destruct (enter_run L S2 D2 G2 PK2) as (ipk2 & sk2 & I2 & _ & V2 & Run2). rewrite <- Si in I2. rewrite <- Sn in Run2.
  change (s_issuerPkFromBytes X (cf_ipk cf1) attribute_names) with (plain (let* k := arNewPublicKeyFromBytes HG (cf_ipk cf1) attribute_names in Ok (Some (Some k) : u_ipk (ariesU C EC)))) in I1, I2.
  destruct (arNewPublicKeyFromBytes HG (cf_ipk cf1) attribute_names) as [k| |] eqn:Ipk; cbn [bind plain] in I1, I2; [|discriminate I1..]. injection I1 as <-. injection I2 as <-.
  specialize (HR k eq_refl). destruct (issuer_from_bytes OK (names := attribute_names) ltac:(cbn; lia) Ipk) as [pk ->]. change (length attribute_names) with 4 in *.
  change (pg_h0 (ip_key (issuer_key HG pk 4))) with (gen0 HG pk (4 + 1)) in HR.
  rewrite <- Sa, <- So in V2. set (role := if checkRole (sc_role sg1) ADMIN then MSPRole_ADMIN else MSPRole_MEMBER) in *.
  pose proof Ecri as Ecri2. rewrite Scr in Ecri2.
  assert (Ex : exists R : ASigRand C, pr_r1 (rn_pok R) <> z0).
  { exists {| rn_pok := {| pr_r1 := z1; pr_r2 := z1; pr_bl1 := fun _ => z0; pr_bl2 := fun _ => z0 |}; rn_nym := z0; rn_eid := rn_eid (ad_sig d0); rn_rh := rn_rh (ad_sig d0); rn_nonce := z0 |}. exact (Field_theory.F_1_neq_0 (sok_field (ok_zr OK))). }
  destruct Ex as [Rx Rnz].
  destruct (@setup_presentable C OK HG H c_cred c_cri EC sha256 pk sk1 A1 e1 s1 vals1 (sc_ou sg1) role (sc_eid sg1) (sc_cred sg1) (sc_cri sg1) rk handles epoch wsk z0 Rx
              BS CC Hep V1 Ec1 L1 Ecri Rnz) as (_ & _ & _ & _ & _ & Sg1 & _ & Ag1 & (cri & Dr & Al & Ie) & _).
  destruct (@setup_presentable C OK HG H c_cred c_cri EC sha256 pk sk2 A2 e2 s2 vals2 (sc_ou sg1) role (sc_eid sg2) (sc_cred sg2) (sc_cri sg2) rk handles epoch wsk z0 Rx
              BS CC Hep V2 Ec2 L2 Ecri2 Rnz) as (_ & _ & _ & _ & _ & Sg2 & _ & Ag2 & _).
  destruct (@C40_unlinkability C OK HG H c_cred c_sig c_cri BS CS pk 4 (claims (sc_ou sg1) role) Standard 2 3 [] (sc_cri sg1) cri ltac:(cbn; lia) ltac:(lia) ltac:(lia) HR ltac:(discriminate) Dr Al Ie ltac:(discriminate)
              ltac:(discriminate) ltac:(discriminate) A1 A2 e1 s1 sk1 e2 s2 sk2 vals1 vals2 (sc_cred sg1) (sc_cred sg2) L1 L2 Ag1 Ag2 Sg1 Sg2 NA1 NA2 Ec1 Ec2) as (f1 & g1 & F1 & G1').
  change (Z.of_nat 3) with 3%Z in F1, G1'. change (Z.of_nat 2) with 2%Z in F1, G1'. cbv zeta in F1, G1'.
  set (opn raw (x : Zr C * ASigRand C) := shown CD E h l (ty, raw) (al_nym d0 (fst x)) (al_proof d0 (snd x))).
  set (sgn raw (x : Zr C * ASigRand C) y m := signed CD E h l (ty, raw) (al_nym d0 (fst x)) (al_proof d0 (snd x)) (al_sign d0 y) m).
  set (nym sk (x : Zr C * ASigRand C) := (gen0 HG pk (4 + 1) ⊗ fst x) ⊕ (base_at HG pk 4 0 ⊗ sk)).
  assert (Us1 : forall x : Zr C * ASigRand C, pr_r1 (rn_pok (snd x)) <> z0 -> usable_draws HG pk 4 Standard 2 3 s1 sk1 vals1 x) by (intros x O; split; [exact O|split; discriminate]).
  assert (Us2 : forall x : Zr C * ASigRand C, pr_r1 (rn_pok (snd x)) <> z0 -> usable_draws HG pk 4 Standard 2 3 s2 sk2 vals2 x) by (intros x O; split; [exact O|split; discriminate]).
  assert (Same : forall sig N1 N2 cr1 k1 r1 R1 md1 cr2 k2 r2 R2 md2,
     arSign H c_cred c_sig c_cri cr1 k1 N1 r1 (Some (Some (issuer_key HG pk 4))) (claims (sc_ou sg1) role) [] 3 2 (sc_cri sg1) Standard None R1 = Ok (sig, md1) ->
     arSign H c_cred c_sig c_cri cr2 k2 N2 r2 (Some (Some (issuer_key HG pk 4))) (claims (sc_ou sg1) role) [] 3 2 (sc_cri sg1) Standard None R2 = Ok (sig, md2) -> N1 = N2).
  { intros sig N1 N2 cr1 k1 r1 R1 md1 cr2 k2 r2 R2 md2 W1 W2. destruct (standard_asig Dr W1) as (x1 & X1 & Y1 & _ & K1). destruct (standard_asig Dr W2) as (x2 & X2 & Y2 & _ & K2).
    destruct (CS x1 (K1 Ie)) as (b & B1 & B2). destruct (CS x2 (K2 Ie)) as (b' & B1' & B2'). assert (Q : x1 = x2) by congruence. apply (g1_bytes_inj OK). congruence. }
  destruct (@sessions (Zr C * Zr C * Zr C) (Zr C * ASigRand C) (@adraws_eq C) (fun x => pr_r1 (rn_pok (snd x)) <> z0) (fun x => pr_r1 (rn_pok (snd x)) <> z0) f1 g1 (opn raw1) (opn raw2) (sgn raw1) (sgn raw2)
              (fun x m y => ashift HG H pk 4 (nym sk1 x) sk1 (fst x) sk2 (fst (f1 x)) m y) (fun x m y => ashift HG H pk 4 (nym sk2 x) sk2 (fst x) sk1 (fst (g1 x)) m y)) with (adv := adv) as (f & g & F & G).
  3:{ assert (Q : forall raw x, see raw x = sess (opn raw) (sgn raw) adv x).
      { intros raw x. unfold see, session, sess, opn, sgn. destruct (shown _ _ _ _ _ _ _) as [b| |]; cbn [bind]; [apply signs_map|reflexivity..]. }
      exists f, g. split; intros x O; rewrite !Q; [exact (F x O)|exact (G x O)]. }
  - intros x O. destruct (F1 x (Us1 x O)) as (P1 & P2 & sig & P3 & P4). split; [exact (proj1 P1)|]. split; [exact P2|].
    destruct (apresent_made OK BS P3) as (M1 & md1 & W1). destruct (apresent_made OK BS P4) as (M2 & md2 & W2). fold (nym sk1 x) in M1, W1. fold (nym sk2 (f1 x)) in M2, W2.
    assert (EN : nym sk1 x = nym sk2 (f1 x)) by exact (Same _ _ _ _ _ _ _ _ _ _ _ _ _ W1 W2). rewrite <- EN in M2, W2. rewrite Scr in W2.
    destruct (@shown_same _ CD E X M utf8 h l (ty, raw1) (ty, raw2) (cf_name cf1) (Some (Some (issuer_key HG pk 4)) : u_ipk (ariesU C EC)) sg1 sg2 sk1 sk2 (al_nym d0 (fst x)) (al_proof d0 (snd x))
                (al_nym d0 (fst (f1 x))) (al_proof d0 (snd (f1 x))) (nym sk1 x) (fst x) (fst (f1 x)) sig md1 md2 CDO CII Un Uo So Sa Run1 Run2 M1 M2 W1 W2) as ((ser & Z1 & Z2) & Z3 & Z4).
    exists ser. split; [exact Z1|]. split; [exact Z2|]. intros m0 [[n a] b].
    pose proof (@ashift_ok C OK HG H c_nsig BS (fun x => CN x I) pk 4 sk1 (fst x) sk2 (fst (f1 x)) m0 n a b) as Sh. cbv zeta in Sh. fold (nym sk1 x) (nym sk2 (f1 x)) in Sh. specialize (Sh EN).
    destruct (ashift HG H pk 4 (nym sk1 x) sk1 (fst x) sk2 (fst (f1 x)) m0 (n, a, b)) as [[n' a'] b'] eqn:Y. destruct Sh as (nb & U1 & U2 & U3).
    exists nb. unfold sgn. rewrite Z3, Z4. split; [exact U1|]. split; [exact U2|]. rewrite <- EN, (proj1 P2). exact U3.
  - intros x O. destruct (G1' x (Us2 x O)) as (P1 & P2 & sig & P3 & P4). split; [exact (proj1 P1)|]. split; [exact P2|].
    destruct (apresent_made OK BS P3) as (M1 & md1 & W1). destruct (apresent_made OK BS P4) as (M2 & md2 & W2). fold (nym sk2 x) in M1, W1. fold (nym sk1 (g1 x)) in M2, W2.
    assert (EN : nym sk2 x = nym sk1 (g1 x)) by exact (Same _ _ _ _ _ _ _ _ _ _ _ _ _ W1 W2). rewrite <- EN in M2, W2. rewrite Scr in W1.
    destruct (@shown_same _ CD E X M utf8 h l (ty, raw2) (ty, raw1) (cf_name cf1) (Some (Some (issuer_key HG pk 4)) : u_ipk (ariesU C EC)) sg2 sg1 sk2 sk1 (al_nym d0 (fst x)) (al_proof d0 (snd x))
                (al_nym d0 (fst (g1 x))) (al_proof d0 (snd (g1 x))) (nym sk2 x) (fst x) (fst (g1 x)) sig md1 md2 CDO CII Un (eq_ind _ utf8 Uo _ So) (eq_sym So) (eq_sym Sa) Run2 Run1 M1 M2 W1 W2) as ((ser & Z1 & Z2) & Z3 & Z4).
    exists ser. split; [exact Z1|]. split; [exact Z2|]. intros m0 [[n a] b].
    pose proof (@ashift_ok C OK HG H c_nsig BS (fun x => CN x I) pk 4 sk2 (fst x) sk1 (fst (g1 x)) m0 n a b) as Sh. cbv zeta in Sh. fold (nym sk2 x) (nym sk1 (g1 x)) in Sh. specialize (Sh EN).
    destruct (ashift HG H pk 4 (nym sk2 x) sk2 (fst x) sk1 (fst (g1 x)) m0 (n, a, b)) as [[n' a'] b'] eqn:Y. destruct Sh as (nb & U1 & U2 & U3).
    exists nb. unfold sgn. rewrite Z3, Z4. split; [exact U1|]. split; [exact U2|]. rewrite <- EN, (proj1 P2). exact U3.
Qed.
Print Assumptions C89_aries_partial.

(** ** What a member shows besides *)

(** the serialized identity names the proof that Setup made *)
Lemma shown_proof U utf8 CD (E : env U) (X : scheme U) (M : mathops U) h l m ty raw cf sg d1 d2 ser :
  codecs_ok utf8 CD -> (forall P, 2 <= length (ex (m_g1ToProto M P) ++ ey (m_g1ToProto M P))) ->
  (forall cid p, configured_curve (ev_aries E) (cf_curve cf) = Some cid -> ev_pack E cid = Some p -> p = (X, M)) -> nth_error h l = Some m ->
  dec (c_conf CD) raw = Some cf -> cf_signer cf = Some sg -> utf8 (cf_name cf) -> shown CD E h l (ty, raw) d1 d2 = Ok ser ->
  exists s i ipk sk nym r md, dec (c_si CD) ser = Some s /\ dec (c_ii CD) (si_bytes s) = Some i /\ s_issuerPkFromBytes X (cf_ipk cf) attribute_names = IOk ipk /\
    s_userKeyFromBytes X (sc_sk sg) = Ok sk /\ s_makeNym X d1 sk ipk = Ok (nym, r) /\
    s_sign X d2 (sc_cred sg) sk nym r ipk disclosure [] 3 2 (sc_cri sg) Standard None = Ok (ii_proof i, md) /\
    (exists nx ny, ii_nymx i = Some nx /\ ii_nymy i = Some ny /\ nx ++ ny = ex (m_g1ToProto M nym) ++ ey (m_g1ToProto M nym)).
Proof.
  intros CO LN PK L D G Un S. unfold shown in S. apply bind_ok in S. destruct S as [[h1 s] [En S]]. unfold enter, Setup in En. rewrite L in En.
  destruct (setup_at CD E l m d1 d2 (Some (ty, raw))) as [r0 m'] eqn:S0. apply bind_ok in En. destruct En as [[] [-> En]]. pose proof (put_same m' L) as L'. rewrite L' in En. cbn [opt_err bind] in En.
  destruct (setup_ok_inv S0) as (ty' & raw' & cf' & cid & X0 & M0 & ipk & rv & Q & D' & Ty & CIq & P & NI & I & NR & RV & _ & Nm & Sg).
  injection Q as <- <-. rewrite D in D'. injection D' as <-. rewrite G in Sg. rewrite curve_spec in CIq. pose proof (PK _ _ CIq P) as Q. injection Q as -> ->.
  destruct Sg as (s' & Hs & sk & nym & r & md & K1 & K2 & K3 & K4 & K5 & K6 & K7 & _).
  unfold GetDefaultSigningIdentity in En. rewrite Hs in En. cbn [opt_err bind] in En. injection En as <- <-.
  unfold Serialize in S. rewrite K7 in S. cbn [i_raw i_ou i_role i_proof i_msp] in S. cbv zeta in S. apply bind_ok in S. destruct S as [ob [_ S]]. apply bind_ok in S. destruct S as [rb [_ S]].
  apply bind_ok in S. destruct S as [ib [Ei S]]. unfold GetMSPIdentifier in S. cbn [i_msp] in S. rewrite L' in S. cbn [deref bind] in S. rewrite Nm in S.
  destruct (halves (LN nym)) as [H1 H2]. set (half := Nat.div2 (length (ex (m_g1ToProto M nym) ++ ey (m_g1ToProto M nym)))) in *.
  match type of Ei with opt_err (enc _ ?x) = _ => destruct (@ok_ii _ _ CO x) as (b & E1 & E2); [intros b [= <-]; exact H1|intros b [= <-]; exact H2|]; rewrite E1 in Ei; injection Ei as ->; exists {| si_mspid := cf_name cf; si_bytes := ib |}, x end.
  exists ipk, sk, nym, r, md. destruct (@ok_si _ _ CO {| si_mspid := cf_name cf; si_bytes := ib |} Un) as (c & F1 & F2). rewrite F1 in S. injection S as ->.
  split; [exact F2|]. split; [exact E2|]. split; [exact I|]. split; [exact K2|]. split; [exact K3|]. split; [exact K6|].
  eexists. eexists. split; [reflexivity|]. split; [reflexivity|]. apply firstn_skipn.
Qed.

(** The full claim asks nothing of the revocation information; but every identity carries the signature
    of its signer's revocation information.  idemixgen makes that information anew for every signer
    (GenerateSignerConfig), with randomized ECDSA: all identities of such a signer can be linked. *)
Theorem C89_dlog_refuted : forall utf8 CD C (OK : CurveOk C) (H : hasher C) (T : translator C) c_ipk c_ik c_req c_cred c_sig c_nsig c_cri EC (EE : ecenv EC) sha256 (E : env (dlogU C EC)),
  let X := dlog_scheme H T c_ipk c_ik c_req c_cred c_sig c_nsig c_cri EE sha256 in
  let M := dlog_math T EE sha256 in
  codec_ok canon_sig c_sig -> codecs_ok utf8 CD -> (forall P, 2 <= length (ex (g1_to_proto T P) ++ ey (g1_to_proto T P))) ->
  exists link : bytes -> option bytes, forall h l m ty raw cf sg cri d1 d2 ser,
    (forall cid p, configured_curve (ev_aries E) (cf_curve cf) = Some cid -> ev_pack E cid = Some p -> p = (X, M)) -> nth_error h l = Some m ->
    dec (c_conf CD) raw = Some cf -> cf_signer cf = Some sg -> utf8 (cf_name cf) -> dec c_cri (sc_cri sg) = Some cri -> int64 (cri_epoch cri) ->
    shown CD E h l (ty, raw) d1 d2 = Ok ser -> link ser = Some (cri_sig cri).
Proof.
  intros utf8 CD C OK H T c_ipk c_ik c_req c_cred c_sig c_nsig c_cri EC EE sha256 E X M CS CO LN.
  exists (fun ser => match dec (c_si CD) ser with Some s => match dec (c_ii CD) (si_bytes s) with Some i => match dec c_sig (ii_proof i) with Some g => Some (sg_pksig g) | None => None end | None => None end | None => None end).
  intros h l m ty raw cf sg cri d1 d2 ser PK L D G Un Dr Ie S.
  destruct (shown_proof (X := X) (M := M) CO LN PK L D G Un S) as (s & i & ipk & sk & nym & r & md & Q1 & Q2 & _ & _ & _ & Q3 & _). rewrite Q1, Q2.
  change (brSign H T c_cred c_sig c_cri (sc_cred sg) (Some sk) (Some nym) (Some r) ipk disclosure [] 3 2 (sc_cri sg) (dd_sig d2) Standard None = Ok (ii_proof i, md)) in Q3.
  unfold brSign in Q3. apply (proj1 (recover_ok _ _)) in Q3. apply bind_ok in Q3. destruct Q3 as [k [_ Q3]]. apply bind_ok in Q3. destruct Q3 as [cred [_ Q3]].
  rewrite Dr in Q3. cbn [opt_err bind] in Q3.
  apply bind_ok in Q3. destruct Q3 as [[sig md'] [Q3 Q4]]. cbn [fst snd] in Q4. apply bind_ok in Q4. destruct Q4 as [b [Q4 Q5]]. injection Q5 as <- _.
  destruct k as [k|]; [|cbn [NewSignature] in Q3; discriminate Q3]. destruct (standard_fields Q3) as [_ Fp].
  destruct (CS sig (sig_canonical OK Q3 Ie)) as (b' & E1 & E2). rewrite E1 in Q4. injection Q4 as ->. rewrite E2, Fp. reflexivity.
Qed.
Print Assumptions C89_dlog_refuted.

Theorem C89_aries_refuted : forall utf8 CD C (OK : CurveOk C) (HG : bytes -> G1 C) (H : hasher C) hkdf c_cred c_sig c_nsig c_cri EC (EE : ecenv EC) sha256 (T : translator C) (E : env (ariesU C EC)),
  let X := aries_scheme HG H hkdf c_cred c_sig c_nsig c_cri EE sha256 in
  let M := aries_math T EE sha256 in
  codec_ok canon_asig c_sig -> codecs_ok utf8 CD -> (forall P, 2 <= length (ex (g1_to_proto T P) ++ ey (g1_to_proto T P))) ->
  exists link : bytes -> option bytes, forall h l m ty raw cf sg cri d1 d2 ser,
    (forall cid p, configured_curve (ev_aries E) (cf_curve cf) = Some cid -> ev_pack E cid = Some p -> p = (X, M)) -> nth_error h l = Some m ->
    dec (c_conf CD) raw = Some cf -> cf_signer cf = Some sg -> utf8 (cf_name cf) -> dec c_cri (sc_cri sg) = Some cri -> int64 (acri_epoch cri) ->
    shown CD E h l (ty, raw) d1 d2 = Ok ser -> link ser = Some (acri_sig cri).
Proof.
  intros utf8 CD C OK HG H hkdf c_cred c_sig c_nsig c_cri EC EE sha256 T E X M CS CO LN.
  exists (fun ser => match dec (c_si CD) ser with Some s => match dec (c_ii CD) (si_bytes s) with Some i => match dec c_sig (ii_proof i) with Some g => Some (as_pk_sig g) | None => None end | None => None end | None => None end).
  intros h l m ty raw cf sg cri d1 d2 ser PK L D G Un Dr Ie S.
  destruct (shown_proof (X := X) (M := M) CO LN PK L D G Un S) as (s & i & ipk & sk & nym & r & md & Q1 & Q2 & _ & _ & _ & Q3 & _). rewrite Q1, Q2.
  change (arSign H c_cred c_sig c_cri (sc_cred sg) sk nym r ipk disclosure [] 3 2 (sc_cri sg) Standard None (ad_sig d2) = Ok (ii_proof i, md)) in Q3.
  destruct (standard_asig Dr Q3) as (sig & E0 & _ & Fp & Ca). destruct (CS sig (Ca Ie)) as (b' & E1 & E2). rewrite E1 in E0. injection E0 as <-. rewrite E2, Fp. reflexivity.
Qed.
Print Assumptions C89_aries_refuted.

(** Nor does the full claim ask anything of the issuer's key; but an issuer can replace the base that
    blinds pseudonyms by the neutral element: the check of the key still accepts, and every pseudonym of
    a member is the same point, whatever is drawn. *)
Definition unblinded C (T : translator C) (k : IssuerPublicKey) : IssuerPublicKey :=
  {| ip_names := ip_names k; ip_hsk := ip_hsk k; ip_hrand := Some (g1_to_proto T gzero); ip_hattrs := ip_hattrs k; ip_w := ip_w k;
     ip_barg1 := ip_barg1 k; ip_barg2 := ip_barg2 k; ip_c := ip_c k; ip_s := ip_s k; ip_hash := ip_hash k |}.
Theorem C89_issuer_refuted : forall utf8 CD C (OK : CurveOk C) (H : hasher C) (T : translator C) (TO : TrOk T) c_ipk c_ik c_req c_cred c_sig c_nsig c_cri EC (EE : ecenv EC) sha256 (E : env (dlogU C EC)) pk k,
  let X := dlog_scheme H T c_ipk c_ik c_req c_cred c_sig c_nsig c_cri EE sha256 in
  let M := dlog_math T EE sha256 in
  codec_ok (canon_ipk utf8) c_ipk -> canon_ipk utf8 k -> brNewPublicKeyFromBytes H T c_ipk pk attribute_names = Ok k ->
  exists pk' HSk, g1_from_proto T (ip_hsk k) = Ok HSk /\ is_ok (brNewPublicKeyFromBytes H T c_ipk pk' attribute_names) = true /\
    forall h l m ty raw cf sg d1 d2 h1 s,
      (forall cid p, configured_curve (ev_aries E) (cf_curve cf) = Some cid -> ev_pack E cid = Some p -> p = (X, M)) -> nth_error h l = Some m ->
      dec (c_conf CD) raw = Some cf -> cf_signer cf = Some sg -> cf_ipk cf = pk' -> enter CD E h l (ty, raw) d1 d2 = Ok (h1, s) ->
      i_nym (g_identity s) = KNymPublic (HSk ⊗ zr_of_bytes C (sc_sk sg) : u_g1 (dlogU C EC)).
Proof.
  intros utf8 CD C OK H T TO c_ipk c_ik c_req c_cred c_sig c_nsig c_cri EC EE sha256 E pk k X M CI [Cn Ca] Imp.
  destruct (C17_import_checked Imp) as [Chk Nms]. specialize (Nms ltac:(discriminate)).
  assert (Chk' : exists pd, checkIPK_first T k = Ok pd /\ zeqb (zr_of_bytes C (ip_c k)) (H pd) = true).
  { unfold checkIPK in Chk. apply bind_ok in Chk. destruct Chk as [pd [F1 F2]]. apply bind_ok in F2. destruct F2 as [[] [F2 _]]. apply guard_ok in F2. exists pd. split; assumption. }
  clear Chk. destruct Chk' as (pd & F1 & F2).
  assert (HS : exists HSk, g1_from_proto T (ip_hsk k) = Ok HSk) by (unfold checkIPK_first in F1; apply bind_ok in F1; destruct F1 as [HSk [F1 _]]; exists HSk; exact F1). destruct HS as [HSk HS].
  set (k' := unblinded T k). assert (Ck : forall h0, canon_ipk utf8 (with_hash k' h0)) by (intro h0; split; assumption).
  destruct (CI _ (Ck (ip_hash k))) as (pk' & P1 & P2). exists pk', HSk. split; [exact HS|].
  assert (First : forall h0, checkIPK_first T (with_hash k' h0) = Ok pd).
  { intro h0. unfold checkIPK_first in F1 |- *. cbn [k' unblinded with_hash ip_names ip_hsk ip_hrand ip_hattrs ip_w ip_barg1 ip_barg2 ip_c ip_s].
    apply bind_ok in F1. destruct F1 as [x1 [Y1 F1]]. apply bind_ok in F1. destruct F1 as [x2 [_ F1]]. rewrite Y1, (tr_g1 TO). cbn [bind]. exact F1. }
  destruct (CI _ (Ck [])) as (b0 & B0 & _).
  assert (Set_ : forall h0, setHash H (enc c_ipk) (with_hash k' h0) = Ok (with_hash k' (zr_bytes C (H b0)))).
  { intro h0. unfold setHash. change (with_hash (with_hash k' h0) []) with (with_hash k' []). rewrite B0. reflexivity. }
  assert (Imp' : brNewPublicKeyFromBytes H T c_ipk pk' attribute_names = Ok (with_hash k' (zr_bytes C (H b0)))).
  { apply recover_ok. rewrite P2. cbn [opt_err bind]. rewrite Set_. cbn [bind]. unfold checkIPK. rewrite First. cbn [bind].
    change (ip_c (with_hash k' (zr_bytes C (H b0)))) with (ip_c k). rewrite F2. cbn [guard bind]. rewrite Set_. cbn [bind].
    change (ip_names (with_hash k' (zr_bytes C (H b0)))) with (ip_names k). rewrite Nms. reflexivity. }
  split; [rewrite Imp'; reflexivity|].
  intros h l m ty raw cf sg d1 d2 h1 s PK L D G Qp En. unfold enter, Setup in En. rewrite L in En.
  destruct (setup_at CD E l m d1 d2 (Some (ty, raw))) as [r0 m'] eqn:S0. apply bind_ok in En. destruct En as [[] [-> En]]. rewrite (put_same m' L) in En. cbn [opt_err bind] in En.
  destruct (setup_ok_inv S0) as (ty' & raw' & cf' & cid & X0 & M0 & ipk & rv & Q & D' & Ty & CIq & P & NI & I & NR & RV & _ & Nm & Sg).
  injection Q as <- <-. rewrite D in D'. injection D' as <-. rewrite G in Sg. rewrite curve_spec in CIq. pose proof (PK _ _ CIq P) as Q. injection Q as -> ->.
  destruct Sg as (s' & Hs & sk & nym & r & md & K1 & K2 & K3 & K4 & K5 & K6 & K7 & _).
  unfold GetDefaultSigningIdentity in En. rewrite Hs in En. cbn [opt_err bind] in En. injection En as <- <-. rewrite K7. cbn [i_nym]. f_equal.
  rewrite Qp in I. change (s_issuerPkFromBytes X pk' attribute_names) with (let+ k := dlogPk H T c_ipk pk' attribute_names in IOk (Some (Some k) : u_ipk (dlogU C EC))) in I.
  pose proof (dlogPk_res H T c_ipk pk' attribute_names) as R0. rewrite Imp' in R0. destruct (dlogPk H T c_ipk pk' attribute_names) as [k2|k2|]; cbn in R0; [|destruct k2; discriminate R0|discriminate R0].
  injection R0 as ->. cbn [ibind] in I. injection I as <-.
  change (brUserKeyFromBytes C (sc_sk sg) = Ok sk) in K2. unfold brUserKeyFromBytes in K2. apply bind_ok in K2. destruct K2 as [u [_ K2]]. injection K2 as <-.
  change (brMakeNym T (Some (zr_of_bytes C (sc_sk sg))) (Some (Some (with_hash k' (zr_bytes C (H b0))))) (dd_zr d1 0) = Ok (nym, r)) in K3.
  unfold brMakeNym in K3. apply (proj1 (recover_ok _ _)) in K3. cbn [opt_err bind deref] in K3. unfold makeNym in K3.
  cbn [k' unblinded with_hash ip_hsk ip_hrand] in K3. rewrite HS in K3. cbn [bind] in K3. rewrite (tr_g1 TO) in K3. cbn [bind] in K3. injection K3 as <- _.
  unfold gmul2. rewrite (gmul_zero (ok_g1 OK)), (gadd_zero_r (ok_g1 OK)). reflexivity.
Qed.
Print Assumptions C89_issuer_refuted.

(** ** Examples *)

(** dlog: the signer of ToyMsp.v and a second member, with their own secret, enrollment id and credential *)
Definition o_attrs : list attribute :=
  [{| at_type := BytesAttr; at_value := VBytes (str "ou") |}; {| at_type := IntAttr; at_value := VInt 2 |};
   {| at_type := BytesAttr; at_value := VBytes (str "bob") |}; {| at_type := IntAttr; at_value := VInt64 8 |}].
Definition o_credraw : bytes :=
  from_ok [] (brCredSign tH tT (tcodec s_req) (tcodec s_cred) (Some (Some bkey))
                (from_ok [] (brRequestSign tH tT (tcodec s_req) (Some tsk2) (Some (Some bipk)) [Byte.x07] f12)) o_attrs f5 f7).
Definition o_cred : Credential := match dec (tcodec s_cred) o_credraw with Some c => c | None => tcred0 end.
Definition o_signer : signer_config :=
  {| sc_cred := o_credraw; sc_sk := zr_bytes tC tsk2; sc_ou := str "ou"; sc_role := 2; sc_eid := str "bob"; sc_cri := mcri; sc_rh := str "rh2"; sc_curve := [] |}.
Lemma toy_nonzero (x : zp) : negb (zv x =? 0)%Z = true -> x <> (gzero : G1 tC).
Proof. intros N Q. rewrite Q in N. discriminate N. Qed.

Example C89_dlog_example : codec_ok canon_sig (tcodec s_sig) /\ codec_ok canon_cri (tcodec s_cri) /\ int64 0 /\ codec_ok (fun _ => True) (tcodec s_nsig) /\ codecs_ok (fun _ => True) mCD /\
  (forall x, enc (c_ii mCD) x <> None) /\
  (forall cid p, configured_curve (ev_aries mE) (cf_curve (mconf (Some msigner))) = Some cid -> ev_pack mE cid = Some p -> p = (xX, xM)) /\
  dec (c_conf mCD) (mraw (mconf (Some msigner))) = Some (mconf (Some msigner)) /\ dec (c_conf mCD) (mraw (mconf (Some o_signer))) = Some (mconf (Some o_signer)) /\
  fst (Setup mCD mE [m0] 0 xdraw xdraw (Some (IDEMIX, mraw (mconf (Some msigner))))) = Ok tt /\
  fst (Setup mCD mE [m0] 0 xdraw xdraw (Some (IDEMIX, mraw (mconf (Some o_signer))))) = Ok tt /\
  same_msp (mconf (Some msigner)) (mconf (Some o_signer)) /\ alike msigner o_signer /\ sc_sk msigner <> sc_sk o_signer /\ sc_eid msigner <> sc_eid o_signer /\
  brRevSign (EC := xEC) tT (tcodec s_cri) bsha (Some (str "k" : ec_sk xEC)) [] 0 0 f1 = Ok (sc_cri msigner) /\
  dec (tcodec s_cred) (sc_cred msigner) = Some bcred /\ length (cr_attrs bcred) = 4 /\ (exists A : G1 tC, g1_from_proto tT (cr_a bcred) = Ok A /\ A <> gzero) /\
  dec (tcodec s_cred) (sc_cred o_signer) = Some o_cred /\ length (cr_attrs o_cred) = 4 /\ (exists A : G1 tC, g1_from_proto tT (cr_a o_cred) = Ok A /\ A <> gzero) /\
  (forall k (HRand : G1 tC), brNewPublicKeyFromBytes tH tT (tcodec s_ipk) (cf_ipk (mconf (Some msigner))) attribute_names = Ok k -> g1_from_proto tT (ip_hrand k) = Ok HRand -> HRand <> gzero) /\
  (* the second signer with other revocation information and an issuer's key in canonical form, for the refutations *)
  (forall P : G1 tC, 2 <= length (ex (g1_to_proto tT P) ++ ey (g1_to_proto tT P))) /\
  is_ok (shown mCD mE [m0] 0 (IDEMIX, mraw (mconf (Some o_signer))) xdraw xdraw) = true /\
  codec_ok (canon_ipk (fun _ => True)) (tcodec s_ipk) /\ canon_ipk (fun _ => True) bipk /\ brNewPublicKeyFromBytes tH tT (tcodec s_ipk) bpkraw attribute_names = Ok bipk.
Proof.
  split; [intros x _; apply (tcodec_rt s_sig_ok)|]. split; [intros x _; apply (tcodec_rt s_cri_ok)|]. split; [unfold int64; lia|]. split; [intros x _; apply (tcodec_rt s_nsig_ok)|].
  split; [exact mCD_ok|]. split; [intros x Q; discriminate Q|].
  split; [intros cid p _ E; unfold mE in E; cbn [ev_pack] in E; destruct (bytes_eqb cid FP256BN_AMCL); [injection E as <-; reflexivity|discriminate E]|].
  split; [exact toy_conf|]. split; [exact (tcodec_dec s_conf_ok (mconf (Some o_signer)))|]. split; [vm_compute; reflexivity|]. split; [vm_compute; reflexivity|].
  split; [repeat split|]. split; [repeat split|]. split; [vm_compute; discriminate|]. split; [discriminate|]. split; [apply from_ok_eq; vm_compute; reflexivity|].
  assert (NZ : forall c, match g1_from_proto tT (cr_a c) with Ok A => negb (zv A =? 0)%Z | _ => false end = true -> exists A : G1 tC, g1_from_proto tT (cr_a c) = Ok A /\ A <> gzero).
  { intros c Q. destruct (g1_from_proto tT (cr_a c)) as [A| |]; [|discriminate Q..]. exists A. split; [reflexivity|exact (toy_nonzero Q)]. }
  split; [vm_compute; reflexivity|]. split; [vm_compute; reflexivity|]. split; [apply NZ; vm_compute; reflexivity|].
  split; [vm_compute; reflexivity|]. split; [vm_compute; reflexivity|]. split; [apply NZ; vm_compute; reflexivity|].
  assert (Q : match brNewPublicKeyFromBytes tH tT (tcodec s_ipk) (cf_ipk (mconf (Some msigner))) attribute_names with Ok k => match g1_from_proto tT (ip_hrand k) with Ok A => negb (zv A =? 0)%Z | _ => false end | _ => false end = true) by (vm_compute; reflexivity).
  split; [intros k HRand E1 E2; rewrite E1, E2 in Q; exact (toy_nonzero Q)|].
  split; [intros P; rewrite app_length; vm_compute; lia|]. split; [vm_compute; reflexivity|].
  split; [intros x _; apply (tcodec_rt s_ipk_ok)|]. split; [split; [apply Forall_forall; intros x _; exact I|]|vm_compute; reflexivity].
  apply Forall_forall. intros o Io ->. assert (F : forallb (fun o => match o with Some _ => true | None => false end) (ip_hattrs bipk) = true) by (vm_compute; reflexivity).
  rewrite forallb_forall in F. discriminate (F None Io).
Qed.

(** aries: two members on the toy curve *)
Definition p_vals : list (Zr toy32) := [h32 (str "ou"); zr_of_Z toy32 ADMIN; h32 (str "bob"); h32 (str "rh2")].
Definition p_sk : Zr toy32 := f11.
Definition p_A : G1 toy32 :=
  Eval vm_compute in (bbs_base (gen0 hg32 xa_pk 5) (BbsSpec.gens hg32 xa_pk 5) xa_s (p_sk :: p_vals) ⊗ zinv (zadd xa_isk xa_e)).
Definition p_cri : bytes := from_ok [] (arRevSign (C := toy32) (EC := xEC) bsha xa_ccri (Some (str "k" : ec_sk xEC)) [] 0 0 (f1 : Zr toy32)).
Definition p_signer1 : signer_config :=
  {| sc_cred := ser s_acred (credential_of nA xa_e xa_s nvals); sc_sk := zr_bytes toy32 xa_sk; sc_ou := str "ou"; sc_role := 2; sc_eid := str "id"; sc_cri := p_cri; sc_rh := str "rh"; sc_curve := [] |}.
Definition p_signer2 : signer_config :=
  {| sc_cred := ser s_acred (credential_of p_A xa_e xa_s p_vals); sc_sk := zr_bytes toy32 p_sk; sc_ou := str "ou"; sc_role := 2; sc_eid := str "bob"; sc_cri := p_cri; sc_rh := str "rh2"; sc_curve := [] |}.
Definition p_conf (sg : signer_config) : msp_config :=
  {| cf_name := mname; cf_ipk := arPublicKeyBytes (issuer_key hg32 xa_pk 4); cf_signer := Some sg; cf_revpk := xpem (str "k"); cf_epoch := 0; cf_curve := str "BLS12_381_BBS" |}.

Example C89_aries_example : bls_sizes toy32 /\ codec_ok canon_asig xa_csig /\ codec_ok canon_acri xa_ccri /\ int64 0 /\ codec_ok (fun _ => True) xa_cnsig /\ codecs_ok (fun _ => True) mCD /\
  (forall cid p, configured_curve (ev_aries wE) (cf_curve (p_conf p_signer1)) = Some cid -> ev_pack wE cid = Some p -> p = (yX, yM)) /\
  dec (c_conf mCD) (mraw (p_conf p_signer1)) = Some (p_conf p_signer1) /\ dec (c_conf mCD) (mraw (p_conf p_signer2)) = Some (p_conf p_signer2) /\
  fst (Setup mCD wE [w0] 0 wdraw wdraw (Some (IDEMIX_ARIES, mraw (p_conf p_signer1)))) = Ok tt /\
  fst (Setup mCD wE [w0] 0 wdraw wdraw (Some (IDEMIX_ARIES, mraw (p_conf p_signer2)))) = Ok tt /\
  same_msp (p_conf p_signer1) (p_conf p_signer2) /\ alike p_signer1 p_signer2 /\ sc_sk p_signer1 <> sc_sk p_signer2 /\ sc_eid p_signer1 <> sc_eid p_signer2 /\
  arRevSign (C := toy32) (EC := xEC) bsha xa_ccri (Some (str "k" : ec_sk xEC)) [] 0 0 (f1 : Zr toy32) = Ok (sc_cri p_signer1) /\
  dec xa_ccred (sc_cred p_signer1) = Some (credential_of nA xa_e xa_s nvals) /\ length nvals = 4 /\ nA <> gzero /\
  dec xa_ccred (sc_cred p_signer2) = Some (credential_of p_A xa_e xa_s p_vals) /\ length p_vals = 4 /\ p_A <> gzero /\
  (forall k, arNewPublicKeyFromBytes hg32 (cf_ipk (p_conf p_signer1)) attribute_names = Ok k -> pg_h0 (ip_key k) <> gzero).
Proof.
  split; [exact toy32_sizes|]. split; [exact xa_csig_ok|]. split; [intros x _; apply (tcodec_rt s_acri_ok)|]. split; [unfold int64; lia|]. split; [intros x _; apply xa_cnsig_ok|].
  split; [exact mCD_ok|].
  split; [intros cid p _ E; unfold wE in E; cbn [ev_pack] in E; destruct (bytes_eqb cid BLS12_381_BBS); [injection E as <-; reflexivity|discriminate E]|].
  split; [exact (tcodec_dec s_conf_ok (p_conf p_signer1))|]. split; [exact (tcodec_dec s_conf_ok (p_conf p_signer2))|]. split; [vm_compute; reflexivity|]. split; [vm_compute; reflexivity|].
  split; [repeat split|]. split; [repeat split|]. split; [vm_compute; discriminate|]. split; [discriminate|]. split; [apply from_ok_eq; vm_compute; reflexivity|].
  split; [exact (tcodec_dec s_acred_ok _)|]. split; [reflexivity|]. split; [apply zp_ne; vm_compute; reflexivity|].
  split; [exact (tcodec_dec s_acred_ok _)|]. split; [reflexivity|]. split; [apply zp_ne; vm_compute; reflexivity|].
  assert (Q : match arNewPublicKeyFromBytes hg32 (cf_ipk (p_conf p_signer1)) attribute_names with Ok k => negb (zv (pg_h0 (ip_key k)) =? 0)%Z | _ => false end = true) by (vm_compute; reflexivity).
  intros k E1. rewrite E1 in Q. intro Z. rewrite Z in Q. discriminate Q.
Qed.
