From Coq Require Import List ZArith.
From Verif Require Import Base Curve Algebra Dlog DlogSpec DlogData DlogSound DlogBind DlogTop Spec Bridge BridgeFacts Toy ToyDlog ToyCodec PropsDlog PropsBridge PropsIssuer
  Csp CspInst CspSpec CspFacts PropsCsp ToyCsp RunSpec PropsRun.
Import ListNotations.
Set Implicit Arguments.
Unset Strict Implicit.

(** The properties of accepted signatures, stated for the Verify of the signature scheme: it takes the signature as bytes
    and the list of attributes, hidden or with a value (bridge signaturescheme.go 206-276). *)

(** Two lists of attributes that hide the same positions. *)
Definition same_hidden (l1 l2 : list attribute) : Prop := Forall2 (fun a b => at_type a = HiddenAttr <-> at_type b = HiddenAttr) l1 l2.

Lemma same_hidden_disclosure l1 l2 : same_hidden l1 l2 -> sign_disclosure l1 = sign_disclosure l2.
Proof.
  induction 1 as [|a b l1 l2 E F IH]; [reflexivity|]. unfold sign_disclosure in *. cbn [map]. rewrite IH. f_equal.
  destruct (at_type a), (at_type b); try reflexivity; try (discriminate (proj1 E eq_refl)); discriminate (proj2 E eq_refl).
Qed.

(** What Verify hashes for these arguments: [d], then its hash with [nonce]. *)
Definition br_hashed (C : Curve) (H : hasher C) (T : translator C) (c_sig : codec Dlog.Signature) (ipk : IssuerPublicKey) (sigraw msg : bytes) (attributes : list attribute)
    (rhI eidI : Z) (vt : VerificationType) (d : bytes) (nonce : Zr C) : Prop :=
  exists sig F, dec c_sig sigraw = Some sig /\ Ver_first T sig (sign_disclosure attributes) ipk msg (map (attr_scalar H) attributes) rhI eidI vt = Ok F /\
    vf_data F = d /\ zr_of_bytes C (sg_nonce sig) = nonce.

(** ** C09: signature bytes accepted for two messages *)
Theorem C09_bridge : forall (C : Curve) (OK : CurveOk C) (H : hasher C) (T : translator C) (c_sig : codec Dlog.Signature) (ipk : IssuerPublicKey) (sigraw msg1 msg2 : bytes)
    attributes1 attributes2 rhI1 rhI2 eidI1 eidI2 rp (rev1 rev2 : rp) ep1 ep2 vt meta1 meta2,
  brVerify H T c_sig (Some (Some ipk)) sigraw msg1 attributes1 rhI1 eidI1 rev1 ep1 vt meta1 = Ok tt ->
  brVerify H T c_sig (Some (Some ipk)) sigraw msg2 attributes2 rhI2 eidI2 rev2 ep2 vt meta2 = Ok tt ->
  same_hidden attributes1 attributes2 ->
  msg1 = msg2 \/
  exists d1 d2 nonce, br_hashed H T c_sig ipk sigraw msg1 attributes1 rhI1 eidI1 vt d1 nonce /\
    br_hashed H T c_sig ipk sigraw msg2 attributes2 rhI2 eidI2 vt d2 nonce /\ transcripts_collide H d1 d2 nonce.
Proof.
  intros C OK H T c_sig ipk sigraw msg1 msg2 a1 a2 rhI1 rhI2 eidI1 eidI2 rp rev1 rev2 ep1 ep2 vt meta1 meta2 V1 V2 S.
  apply C10_bridge_verify in V1. destruct V1 as (k & sig & K & D & _ & V1). injection K as <-.
  apply C10_bridge_verify in V2. destruct V2 as (k & sig' & K & D' & _ & V2). injection K as <-.
  rewrite D in D'. injection D' as <-.
  destruct (bytes_eqb_spec msg1 msg2) as [E|N]; [left; exact E|right].
  pose proof (same_hidden_disclosure S) as SD. rewrite <- SD in V2.
  destruct (C09_message_bound OK V1 V2 N) as (F1 & F2 & E1 & E2 & Cl). rewrite SD in E2.
  exists (vf_data F1), (vf_data F2), (zr_of_bytes C (sg_nonce sig)).
  split; [exists sig, F1; auto|]. split; [exists sig, F2; auto|exact Cl].
Qed.
Print Assumptions C09_bridge.

(** ** C11: what is in signature bytes accepted for a verification type *)
Theorem C11_bridge : forall (C : Curve) (H : hasher C) (T : translator C) (c_sig : codec Dlog.Signature) ipk sigraw msg attributes rhI eidI rp (rev : rp) ep vt meta,
  brVerify H T c_sig ipk sigraw msg attributes rhI eidI rev ep vt meta = Ok tt ->
  exists sig, dec c_sig sigraw = Some sig /\
  match vt with
  | ExpectStandard => sg_eid sig = None /\ sg_rh sig = None
  | ExpectEidNym => exists n s, sg_eid sig = Some {| an_nym := Some n; an_s := Some s |}
  | ExpectEidNymRhNym =>
      (exists n s, sg_eid sig = Some {| an_nym := Some n; an_s := Some s |}) /\
      (exists n s, sg_rh sig = Some {| an_nym := Some n; an_s := Some s |})
  | _ => True
  end.
Proof.
  intros C H T c_sig ipk sigraw msg attributes rhI eidI rp rev ep vt meta V. apply C10_bridge_verify in V.
  destruct V as (k & sig & _ & D & _ & V). exists sig. split; [exact D|exact (C11_type_matrix V)].
Qed.
Print Assumptions C11_bridge.

(** ** C13: what the verifier expects of the pseudonyms is what the signature bytes hold *)
Theorem C13_bridge : forall (C : Curve) (OK : CurveOk C) (H : hasher C) (T : translator C) (c_sig : codec Dlog.Signature) ipk (B : Bases C) sigraw msg attributes
    (rh eid : nat) rp (rev : rp) ep vt m,
  ipk_bases T ipk B ->
  brVerify H T c_sig (Some (Some ipk)) sigraw msg attributes (Z.of_nat rh) (Z.of_nat eid) rev ep vt (Some m) = Ok tt ->
  exists sig, dec c_sig sigraw = Some sig /\
  (verifyEIDNym vt sig = true -> exists an n, sg_eid sig = Some an /\ g1_from_proto T (an_nym an) = Ok n /\
     (forall d, md_eid_data m = Some d -> exists Hj a r, nth_error (b_attrs B) eid = Some Hj /\
        au_attr d = Some a /\ au_rand d = Some r /\ opens Hj (b_hrand B) n a r /\ (forall n', au_nym d = Some n' -> n' = n)) /\
     (md_eid m <> [] -> g1_of_bytes C (md_eid m) = Some n)) /\
  (verifyRHNym vt sig = true -> exists an n, sg_rh sig = Some an /\ g1_from_proto T (an_nym an) = Ok n /\
     (forall d, md_rh_data m = Some d -> exists Hj a r, nth_error (b_attrs B) rh = Some Hj /\
        au_attr d = Some a /\ au_rand d = Some r /\ opens Hj (b_hrand B) n a r /\ (forall n', au_nym d = Some n' -> n' = n)) /\
     (md_rh m <> [] -> g1_of_bytes C (md_rh m) = Some n)).
Proof.
  intros C OK H T c_sig ipk B sigraw msg attributes rh eid rp rev ep vt m HB V. apply C10_bridge_verify in V.
  destruct V as (k & sig & K & D & _ & V). injection K as <-. exists sig. split; [exact D|exact (C13_verifier_metadata OK HB V)].
Qed.
Print Assumptions C13_bridge.

(** ** C70: signature bytes accepted under two issuer public keys *)
Theorem C70_bridge : forall (C : Curve) (OK : CurveOk C) (H : hasher C) (T : translator C) (c_sig : codec Dlog.Signature) (sigraw : bytes) (ipk1 ipk2 : IssuerPublicKey)
    msg1 msg2 attributes1 attributes2 rhI1 rhI2 eidI1 eidI2 rp (rev1 rev2 : rp) ep1 ep2 vt1 vt2 meta1 meta2,
  brVerify H T c_sig (Some (Some ipk1)) sigraw msg1 attributes1 rhI1 eidI1 rev1 ep1 vt1 meta1 = Ok tt ->
  brVerify H T c_sig (Some (Some ipk2)) sigraw msg2 attributes2 rhI2 eidI2 rev2 ep2 vt2 meta2 = Ok tt ->
  exists W, g2_from_proto T (ip_w ipk1) = Ok W /\ g2_from_proto T (ip_w ipk2) = Ok W.
Proof.
  intros C OK H T c_sig sigraw ipk1 ipk2 msg1 msg2 a1 a2 rhI1 rhI2 eidI1 eidI2 rp rev1 rev2 ep1 ep2 vt1 vt2 meta1 meta2 V1 V2.
  apply C10_bridge_verify in V1. destruct V1 as (k & sig & K & D & _ & V1). injection K as <-.
  apply C10_bridge_verify in V2. destruct V2 as (k & sig' & K & D' & _ & V2). injection K as <-.
  rewrite D in D'. injection D' as <-. exact (C70_dlog OK V1 V2).
Qed.
Print Assumptions C70_bridge.

(** The hypotheses are met: honest signature bytes are accepted, and not for another message. *)
Example C09_bridge_example :
  is_ok (brVerify tH tT (tcodec s_sig) (Some (Some bipk)) bsigraw tmsg bshow 3 2 tt 5 ExpectEidNymRhNym None) = true /\
  is_ok (brVerify tH tT (tcodec s_sig) (Some (Some bipk)) bsigraw (Byte.x00 :: tmsg) bshow 3 2 tt 5 ExpectEidNymRhNym None) = false /\
  same_hidden bshow bshow.
Proof. split; [vm_compute; reflexivity|]. split; [vm_compute; reflexivity|]. repeat constructor; auto. Qed.

(** ** Through the CSP: the Verify of a CSP with the dlog scheme, given an issuer public key and the options for signatures *)
Lemma csp_accepts C (H : hasher C) (T : translator C) c_ipk c_ik c_req c_cred c_sig c_nsig c_cri EC (EE : ecenv EC) sha256 e c (ipk : iface IssuerPublicKey) sigraw digest so :
  let X := dlog_scheme H T c_ipk c_ik c_req c_cred c_sig c_nsig c_cri EE sha256 in
  New X (dlog_math T EE sha256) false e = Ok c ->
  csp_Verify c (Some (KIssuerPublic (ipk : u_ipk (dlogU C EC)))) sigraw digest (Some (SSigner so)) = accepted ->
  exists r : option (u_epk (dlogU C EC)), brVerify H T c_sig ipk sigraw digest (so_attrs so) (so_rh so) (so_eid so) r (so_epoch so) (so_vertype so) (so_meta so) = Ok tt.
Proof.
  intros X N V. destruct (C44_verdict_partial (Some (KIssuerPublic (ipk : u_ipk (dlogU C EC)))) sigraw digest (Some (SSigner so)) N) as (_ & A & _).
  apply A in V. clear A. destruct V as (k & o & K & O & _ & D). injection K as <-. injection O as <-. cbn [deciding] in D.
  destruct (so_revpk so) as [[]|]; try discriminate D; injection D as D; eexists; exact D.
Qed.

Theorem C09_csp : forall C (OK : CurveOk C) (H : hasher C) (T : translator C) c_ipk c_ik c_req c_cred c_sig c_nsig c_cri EC (EE : ecenv EC) sha256 e c
    (ipk : IssuerPublicKey) (sigraw msg1 msg2 : bytes) (so1 so2 : signer_opts (dlogU C EC)),
  let X := dlog_scheme H T c_ipk c_ik c_req c_cred c_sig c_nsig c_cri EE sha256 in
  let key := KIssuerPublic (Some (Some ipk) : u_ipk (dlogU C EC)) in
  New X (dlog_math T EE sha256) false e = Ok c ->
  csp_Verify c (Some key) sigraw msg1 (Some (SSigner so1)) = accepted ->
  csp_Verify c (Some key) sigraw msg2 (Some (SSigner so2)) = accepted ->
  same_hidden (so_attrs so1) (so_attrs so2) -> so_vertype so1 = so_vertype so2 ->
  msg1 = msg2 \/
  exists d1 d2 nonce, br_hashed H T c_sig ipk sigraw msg1 (so_attrs so1) (so_rh so1) (so_eid so1) (so_vertype so1) d1 nonce /\
    br_hashed H T c_sig ipk sigraw msg2 (so_attrs so2) (so_rh so2) (so_eid so2) (so_vertype so2) d2 nonce /\ transcripts_collide H d1 d2 nonce.
Proof.
  intros C OK H T c_ipk c_ik c_req c_cred c_sig c_nsig c_cri EC EE sha256 e c ipk sigraw msg1 msg2 so1 so2 X key N V1 V2 S E.
  destruct (csp_accepts N V1) as [r1 B1]. destruct (csp_accepts N V2) as [r2 B2]. rewrite <- E in *. exact (C09_bridge OK B1 B2 S).
Qed.
Print Assumptions C09_csp.

Theorem C70_csp : forall C (OK : CurveOk C) (H : hasher C) (T : translator C) c_ipk c_ik c_req c_cred c_sig c_nsig c_cri EC (EE : ecenv EC) sha256 e c
    (ipk1 ipk2 : IssuerPublicKey) (sigraw msg1 msg2 : bytes) (so1 so2 : signer_opts (dlogU C EC)),
  let X := dlog_scheme H T c_ipk c_ik c_req c_cred c_sig c_nsig c_cri EE sha256 in
  New X (dlog_math T EE sha256) false e = Ok c ->
  csp_Verify c (Some (KIssuerPublic (Some (Some ipk1) : u_ipk (dlogU C EC)))) sigraw msg1 (Some (SSigner so1)) = accepted ->
  csp_Verify c (Some (KIssuerPublic (Some (Some ipk2) : u_ipk (dlogU C EC)))) sigraw msg2 (Some (SSigner so2)) = accepted ->
  exists W, g2_from_proto T (ip_w ipk1) = Ok W /\ g2_from_proto T (ip_w ipk2) = Ok W.
Proof.
  intros C OK H T c_ipk c_ik c_req c_cred c_sig c_nsig c_cri EC EE sha256 e c ipk1 ipk2 sigraw msg1 msg2 so1 so2 X N V1 V2.
  destruct (csp_accepts N V1) as [r1 B1]. destruct (csp_accepts N V2) as [r2 B2]. exact (C70_bridge OK B1 B2).
Qed.
Print Assumptions C70_csp.

Theorem C11_csp : forall C (H : hasher C) (T : translator C) c_ipk c_ik c_req c_cred c_sig c_nsig c_cri EC (EE : ecenv EC) sha256 e c
    (ipk : iface IssuerPublicKey) (sigraw msg : bytes) (so : signer_opts (dlogU C EC)),
  let X := dlog_scheme H T c_ipk c_ik c_req c_cred c_sig c_nsig c_cri EE sha256 in
  New X (dlog_math T EE sha256) false e = Ok c ->
  csp_Verify c (Some (KIssuerPublic (ipk : u_ipk (dlogU C EC)))) sigraw msg (Some (SSigner so)) = accepted ->
  exists sig, dec c_sig sigraw = Some sig /\
  match so_vertype so with
  | ExpectStandard => sg_eid sig = None /\ sg_rh sig = None
  | ExpectEidNym => exists n s, sg_eid sig = Some {| an_nym := Some n; an_s := Some s |}
  | ExpectEidNymRhNym =>
      (exists n s, sg_eid sig = Some {| an_nym := Some n; an_s := Some s |}) /\
      (exists n s, sg_rh sig = Some {| an_nym := Some n; an_s := Some s |})
  | _ => True
  end.
Proof.
  intros C H T c_ipk c_ik c_req c_cred c_sig c_nsig c_cri EC EE sha256 e c ipk sigraw msg so X N V.
  destruct (csp_accepts N V) as [r B]. exact (C11_bridge B).
Qed.
Print Assumptions C11_csp.

Theorem C13_csp : forall C (OK : CurveOk C) (H : hasher C) (T : translator C) c_ipk c_ik c_req c_cred c_sig c_nsig c_cri EC (EE : ecenv EC) sha256 e c
    (ipk : IssuerPublicKey) (B : Bases C) (sigraw msg : bytes) (so : signer_opts (dlogU C EC)) (rh eid : nat) (m : Metadata C),
  let X := dlog_scheme H T c_ipk c_ik c_req c_cred c_sig c_nsig c_cri EE sha256 in
  New X (dlog_math T EE sha256) false e = Ok c -> ipk_bases T ipk B ->
  so_rh so = Z.of_nat rh -> so_eid so = Z.of_nat eid -> so_meta so = Some (m : u_meta (dlogU C EC)) ->
  csp_Verify c (Some (KIssuerPublic (Some (Some ipk) : u_ipk (dlogU C EC)))) sigraw msg (Some (SSigner so)) = accepted ->
  exists sig, dec c_sig sigraw = Some sig /\
  (verifyEIDNym (so_vertype so) sig = true -> exists an n, sg_eid sig = Some an /\ g1_from_proto T (an_nym an) = Ok n /\
     (forall d, md_eid_data m = Some d -> exists Hj a r, nth_error (b_attrs B) eid = Some Hj /\
        au_attr d = Some a /\ au_rand d = Some r /\ opens Hj (b_hrand B) n a r /\ (forall n', au_nym d = Some n' -> n' = n)) /\
     (md_eid m <> [] -> g1_of_bytes C (md_eid m) = Some n)) /\
  (verifyRHNym (so_vertype so) sig = true -> exists an n, sg_rh sig = Some an /\ g1_from_proto T (an_nym an) = Ok n /\
     (forall d, md_rh_data m = Some d -> exists Hj a r, nth_error (b_attrs B) rh = Some Hj /\
        au_attr d = Some a /\ au_rand d = Some r /\ opens Hj (b_hrand B) n a r /\ (forall n', au_nym d = Some n' -> n' = n)) /\
     (md_rh m <> [] -> g1_of_bytes C (md_rh m) = Some n)).
Proof.
  intros C OK H T c_ipk c_ik c_req c_cred c_sig c_nsig c_cri EC EE sha256 e c ipk B sigraw msg so rh eid m X N HB R E M V.
  destruct (csp_accepts N V) as [r W]. rewrite R, E, M in W. exact (C13_bridge OK HB W).
Qed.
Print Assumptions C13_csp.

(** A CSP is set up, and the honest run through it ends with an accepted signature (PropsRun.v). *)
Example C09_csp_example : New xX xM false true = Ok xcsp /\ rrun EidNymRhNym ExpectEidNymRhNym = Ok accepted.
Proof. split; [exact xcsp_new|vm_compute; reflexivity]. Qed.

(** ** C03 and C04: what two accepted signatures give *)
(** What acceptance adds to the extraction: the challenge of an accepted signature is the hash of its first message and nonce. *)
Theorem C03_challenge : forall C (OK : CurveOk C) (H : hasher C) (T : translator C) c_ipk c_ik c_req c_cred c_sig c_nsig c_cri EC (EE : ecenv EC) sha256 e c
    (ipk : IssuerPublicKey) (sigraw msg : bytes) (so : signer_opts (dlogU C EC)),
  let X := dlog_scheme H T c_ipk c_ik c_req c_cred c_sig c_nsig c_cri EE sha256 in
  New X (dlog_math T EE sha256) false e = Ok c ->
  csp_Verify c (Some (KIssuerPublic (Some (Some ipk) : u_ipk (dlogU C EC)))) sigraw msg (Some (SSigner so)) = accepted ->
  exists sig F, dec c_sig sigraw = Some sig /\
    Ver_first T sig (sign_disclosure (so_attrs so)) ipk msg (map (attr_scalar H) (so_attrs so)) (so_rh so) (so_eid so) (so_vertype so) = Ok F /\
    zr_of_bytes C (sg_c sig) = H (zr_bytes C (H (vf_data F)) ++ zr_bytes C (zr_of_bytes C (sg_nonce sig))).
Proof.
  intros C OK H T c_ipk c_ik c_req c_cred c_sig c_nsig c_cri EC EE sha256 e c ipk sigraw msg so X N V.
  destruct (csp_accepts N V) as [r W]. apply C10_bridge_verify in W. destruct W as (k & sig & K & D & _ & W). injection K as <-.
  destruct (Ver_bases W) as (B & F & HB & EF). exists sig, F. split; [exact D|]. split; [exact EF|].
  edestruct (Ver_first_inv OK) as (a & b & d & n & O); [exact HB|exact EF|].
  destruct (Ver_inv OK W EF) as (ch & C1 & C2). rewrite (challenge_ok OK) in C1 by (rewrite (fo_data O); apply (sig_string_length OK)).
  injection C1 as C1. rewrite <- (fo_c O), C2, <- C1, (fo_nonce O). reflexivity.
Qed.
Print Assumptions C03_challenge.

(** Two signatures accepted for the same message and options, with one first message and two challenges. *)
Theorem C03_csp : forall C (OK : CurveOk C) (H : hasher C) (T : translator C) c_ipk c_ik c_req c_cred c_sig c_nsig c_cri EC (EE : ecenv EC) sha256 e c
    (ipk : IssuerPublicKey) (B : Bases C) (raw1 raw2 msg : bytes) (so : signer_opts (dlogU C EC)) sig1 sig2 (F1 F2 : VerFirst C),
  let X := dlog_scheme H T c_ipk c_ik c_req c_cred c_sig c_nsig c_cri EE sha256 in
  let key := KIssuerPublic (Some (Some ipk) : u_ipk (dlogU C EC)) in
  let disc := sign_disclosure (so_attrs so) in let vals := map (attr_scalar H) (so_attrs so) in
  New X (dlog_math T EE sha256) false e = Ok c -> ipk_bases T ipk B ->
  csp_Verify c (Some key) raw1 msg (Some (SSigner so)) = accepted -> csp_Verify c (Some key) raw2 msg (Some (SSigner so)) = accepted ->
  dec c_sig raw1 = Some sig1 -> dec c_sig raw2 = Some sig2 ->
  Ver_first T sig1 disc ipk msg vals (so_rh so) (so_eid so) (so_vertype so) = Ok F1 ->
  Ver_first T sig2 disc ipk msg vals (so_rh so) (so_eid so) (so_vertype so) = Ok F2 ->
  vf_data F1 = vf_data F2 -> vf_c F1 <> vf_c F2 ->
  let w := extract T disc vals sig1 sig2 in
  bbs_valid B (w_A w) (w_e w) (w_s w) (w_sk w) (w_attrs w) /\
  (forall j a, nth_error (so_attrs so) j = Some a -> at_type a <> HiddenAttr -> exists v, attr_scalar H a = Some v /\ nth_error (w_attrs w) j = Some v) /\
  (w_A w <> gzero \/ cred_base B (w_s w) (w_sk w) (w_attrs w) = gzero) /\
  exists Nym, g1_from_proto T (sg_nym sig1) = Ok Nym /\ g1_from_proto T (sg_nym sig2) = Ok Nym /\ opens (b_hsk B) (b_hrand B) Nym (w_sk w) (w_rnym w).
Proof.
  intros C OK H T c_ipk c_ik c_req c_cred c_sig c_nsig c_cri EC EE sha256 e c ipk B raw1 raw2 msg so sig1 sig2 F1 F2 X key disc vals N HB V1 V2 D1 D2 E1 E2 S Nc w.
  destruct (csp_accepts N V1) as [r1 W1]. apply C10_bridge_verify in W1. destruct W1 as (k & s & K & D & Ty & W1). injection K as <-. rewrite D1 in D. injection D as <-.
  destruct (csp_accepts N V2) as [r2 W2]. apply C10_bridge_verify in W2. destruct W2 as (k & s & K & D & _ & W2). injection K as <-. rewrite D2 in D. injection D as <-.
  assert (Fk : forked H H T sig1 sig2 disc ipk msg vals (so_rh so) (so_eid so) (so_vertype so) B F1 F2 r1 r2 (so_epoch so) (so_epoch so) (so_meta so) (so_meta so))
    by exact (conj HB (conj W1 (conj W2 (conj E1 (conj E2 (conj S Nc)))))).
  destruct (C03_special_soundness OK Fk) as (Q1 & Q2 & Q3 & Q4). destruct (C04_nym_same_secret OK Fk) as (_ & Q5).
  split; [exact Q1|]. split; [|split; [exact Q4|exact Q5]].
  intros j a Ha Hn.
  assert (Hd : nth_error disc j = Some Byte.x01).
  { unfold disc, sign_disclosure. rewrite nth_error_map, Ha. cbn [option_map]. destruct (at_type a); congruence. }
  destruct (Q3 j _ Hd) as (v & X1 & X2); [discriminate|].
  unfold vals in X1. rewrite nth_error_map, Ha in X1. injection X1 as X1. exists v. split; [exact X1|exact X2].
Qed.
Print Assumptions C03_csp.

(** ** C15: signatures with a pseudonym, as bytes *)
Theorem C15_bridge : forall C (OK : CurveOk C) (H : hasher C) (T : translator C) (c_nsig : codec NymSignature) (ipk : IssuerPublicKey) (nym1 nym2 : G1 C) (raw msg1 msg2 : bytes),
  brNymVerify H T c_nsig (Some (Some ipk)) (Some nym1) raw msg1 = Ok tt ->
  brNymVerify H T c_nsig (Some (Some ipk)) (Some nym2) raw msg2 = Ok tt ->
  nym1 <> nym2 \/ msg1 <> msg2 ->
  exists sig d1 d2, dec c_nsig raw = Some sig /\ verNym_first T sig (Some nym1) (Some ipk) msg1 = Ok d1 /\ verNym_first T sig (Some nym2) (Some ipk) msg2 = Ok d2 /\
    transcripts_collide H d1 d2 (zr_of_bytes C (ns_nonce sig)).
Proof.
  intros C OK H T c_nsig ipk nym1 nym2 raw msg1 msg2 V1 V2 N.
  apply (proj1 (recover_ok _ _)) in V1. apply (proj1 (recover_ok _ _)) in V2. cbn [opt_err bind] in V1, V2.
  destruct (dec c_nsig raw) as [sig|]; [|discriminate]. cbn [opt_err bind] in V1, V2.
  destruct (C15_nym_signature_message OK V1 V2 N) as (d1 & d2 & Q). exists sig, d1, d2. split; [reflexivity|exact Q].
Qed.
Print Assumptions C15_bridge.

(** ** C20 is false of the CSP's caller's view too: the scheme's Verify does not look at the epoch and the revocation key. *)
Theorem C20_bridge_refuted :
  (exists (C : Curve) (_ : CurveOk C) (H : hasher C) (T : translator C) (c_sig : codec Dlog.Signature) ipk raw sig msg attributes rhI eidI,
     dec c_sig raw = Some sig /\ sg_epoch sig = 5%Z /\ brVerify H T c_sig (Some (Some ipk)) raw msg attributes rhI eidI tt 99 ExpectEidNymRhNym None = Ok tt) /\
  forall (C : Curve) (H : hasher C) (T : translator C) c_sig ipk raw msg attributes rhI eidI rp1 rp2 (rev1 : rp1) (rev2 : rp2) ep1 ep2 vt meta,
    brVerify H T c_sig ipk raw msg attributes rhI eidI rev1 ep1 vt meta = Ok tt -> brVerify H T c_sig ipk raw msg attributes rhI eidI rev2 ep2 vt meta = Ok tt.
Proof.
  split.
  - exists tC, tOK, tH, tT, (tcodec s_sig), bipk, bsigraw.
    destruct (dec (tcodec s_sig) bsigraw) as [sig|] eqn:D; [|exfalso; vm_compute in D; discriminate D].
    exists sig, tmsg, bshow, 3%Z, 2%Z. split; [reflexivity|]. split; [|vm_compute; reflexivity].
    assert (Q : option_map sg_epoch (dec (tcodec s_sig) bsigraw) = Some 5%Z) by (vm_compute; reflexivity). rewrite D in Q. injection Q as Q. exact Q.
  - intros C H T c_sig ipk raw msg attributes rhI eidI rp1 rp2 rev1 rev2 ep1 ep2 vt meta V. apply C10_bridge_verify in V. destruct V as (k & sig & K & D & Ty & V).
    apply C10_bridge_verify. exists k, sig. split; [exact K|]. split; [exact D|]. split; [exact Ty|]. rewrite <- V. apply (proj2 C20_refuted).
Qed.
Print Assumptions C20_bridge_refuted.

(** Two honest signatures with the same draws but for the nonce are accepted, have one first message and two challenges. *)
Definition raw_at (nonce : zp) : bytes :=
  fst (from_ok ([], None) (brSign tH tT (tcodec s_cred) (tcodec s_sig) (tcodec s_cri) bcredraw (Some tsk) (Some tnym) (Some trnym)
    (Some (Some bipk)) bshow tmsg 3 2 bcriraw (tR nonce) EidNymRhNym None)).
Definition shown_opts U : signer_opts U :=
  {| so_nym := None; so_ipk := None; so_cred := []; so_attrs := bshow; so_rh := 3; so_eid := 2; so_sk := 0; so_cri := []; so_epoch := 5; so_revpk := None;
     so_sigtype := Standard; so_meta := None; so_vertype := ExpectEidNymRhNym |}.
Definition first_at (nonce : zp) : option (bytes * zp) :=
  match dec (tcodec s_sig) (raw_at nonce) with
  | Some sig => match Ver_first tT sig (sign_disclosure bshow) bipk tmsg (map (attr_scalar tH) bshow) 3 2 ExpectEidNymRhNym with
                | Ok F => Some (vf_data F, vf_c F) | _ => None end
  | None => None
  end.
Definition differ (a b : option (bytes * zp)) : bool :=
  match a, b with Some (d1, c1), Some (d2, c2) => bytes_eqb d1 d2 && negb (zeqb (c1 : Zr tC) c2) | _, _ => false end.
Example C03_csp_example :
  New xX xM false true = Ok xcsp /\ differ (first_at f25) (first_at f26) = true /\
  map (fun n => match csp_Verify xcsp (Some (KIssuerPublic (Some (Some bipk) : u_ipk xU))) (raw_at n) tmsg (Some (SSigner (shown_opts _))) with Ret true false => true | _ => false end) [f25; f26] = [true; true].
Proof. split; [exact xcsp_new|]. split; vm_compute; reflexivity. Qed.
