From Coq Require Import List ZArith.
From Verif Require Import Base Curve Algebra Dlog DlogSpec DlogData DlogSound DlogBind DlogTop Spec Bridge BridgeFacts Toy ToyDlog ToyCodec PropsDlog PropsBridge PropsIssuer
  Csp CspInst CspSpec CspFacts PropsCsp ToyCsp RunSpec PropsRun PropsDlogApi.
Import ListNotations.
Set Implicit Arguments.
Unset Strict Implicit.

(** The properties of accepted signatures with a pseudonym (C15) and of the pseudonyms of attributes (C05), stated for the
    Verify of a CSP with the dlog scheme. *)

(** ** C15 *)
Lemma csp_nym_accepts C (H : hasher C) (T : translator C) c_ipk c_ik c_req c_cred c_sig c_nsig c_cri EC (EE : ecenv EC) sha256 e c
    (nym : G1 C) (ipk : IssuerPublicKey) raw digest (no : nym_opts (dlogU C EC)) :
  let X := dlog_scheme H T c_ipk c_ik c_req c_cred c_sig c_nsig c_cri EE sha256 in
  New X (dlog_math T EE sha256) false e = Ok c ->
  no_ipk no = Some (KIssuerPublic (Some (Some ipk) : u_ipk (dlogU C EC))) ->
  csp_Verify c (Some (KNymPublic (nym : u_g1 (dlogU C EC)))) raw digest (Some (SNym no)) = accepted ->
  brNymVerify H T c_nsig (Some (Some ipk)) (Some nym) raw digest = Ok tt.
Proof.
  intros X N P V. destruct (C44_verdict_partial (Some (KNymPublic (nym : u_g1 (dlogU C EC)))) raw digest (Some (SNym no)) N) as (_ & A & _).
  apply A in V. clear A. destruct V as (k & o & K & O & _ & D). injection K as <-. injection O as <-. cbn [deciding] in D. rewrite P in D.
  destruct (no_smartcard no); [discriminate D|]. injection D as D. exact D.
Qed.

Lemma brNym_inv C (H : hasher C) (T : translator C) c_nsig (ipk : IssuerPublicKey) (nym : G1 C) raw digest :
  brNymVerify H T c_nsig (Some (Some ipk)) (Some nym) raw digest = Ok tt ->
  exists sig, dec c_nsig raw = Some sig /\ verNymSignature H T sig (Some nym) (Some ipk) digest = Ok tt.
Proof.
  intros V. apply (proj1 (recover_ok _ _)) in V. cbn [opt_err bind] in V. destruct (dec c_nsig raw) as [sig|]; [|discriminate].
  exists sig. split; [reflexivity|exact V].
Qed.

(** Exactly what is accepted: bytes that parse, whose challenge is the hash of the recomputed commitment, the pseudonym,
    the issuer key's hash and the message, and then of that hash with the nonce. *)
Theorem C15_exact : forall C (OK : CurveOk C) (H : hasher C) (T : translator C) c_ipk c_ik c_req c_cred c_sig c_nsig c_cri EC (EE : ecenv EC) sha256 e c
    (nym : G1 C) (ipk : IssuerPublicKey) (raw msg : bytes) (no : nym_opts (dlogU C EC)),
  let X := dlog_scheme H T c_ipk c_ik c_req c_cred c_sig c_nsig c_cri EE sha256 in
  New X (dlog_math T EE sha256) false e = Ok c ->
  no_ipk no = Some (KIssuerPublic (Some (Some ipk) : u_ipk (dlogU C EC))) ->
  csp_Verify c (Some (KNymPublic (nym : u_g1 (dlogU C EC)))) raw msg (Some (SNym no)) = accepted <->
  raw <> [] /\ no_smartcard no = false /\
  exists sig HSk HRand, dec c_nsig raw = Some sig /\ g1_from_proto T (ip_hsk ipk) = Ok HSk /\ g1_from_proto T (ip_hrand ipk) = Ok HRand /\
    let ch := zr_of_bytes C (ns_c sig) in
    let t := gmul2 HSk (zr_of_bytes C (ns_ssk sig)) HRand (zr_of_bytes C (ns_srnym sig)) ⊖ nym ⊗ ch in
    ch = H (zr_bytes C (H (nymsig_string t nym (ip_hash ipk) msg)) ++ zr_bytes C (zr_of_bytes C (ns_nonce sig))).
Proof.
  intros C OK H T c_ipk c_ik c_req c_cred c_sig c_nsig c_cri EC EE sha256 e c nym ipk raw msg no X N P.
  destruct (C44_verdict_partial (Some (KNymPublic (nym : u_g1 (dlogU C EC)))) raw msg (Some (SNym no)) N) as (_ & A & _). rewrite A. clear A. split.
  - intros (k & o & K & O & R & D). injection K as <-. injection O as <-. cbn [deciding] in D. rewrite P in D.
    destruct (no_smartcard no); [discriminate D|]. injection D as D. split; [exact R|]. split; [reflexivity|].
    destruct (brNym_inv D) as (sig & Ds & W). destruct (verNym_inv W) as (pd & HSk & HRand & E1 & S & Q).
    exists sig, HSk, HRand. split; [exact Ds|]. split; [exact S|]. split; [exact Q|]. intros ch t.
    pose proof (verNym_first_inv OK S Q E1) as F. unfold verNymSignature in W. rewrite E1 in W. cbn [bind] in W.
    rewrite (challenge_ok OK) in W by (rewrite F; apply (nymsig_string_length OK)). cbn [bind] in W.
    apply (proj1 (guard_ok _ _)) in W. apply (sok_eqb (ok_zr OK)) in W. rewrite F in W. exact W.
  - intros (R & Sc & sig & HSk & HRand & Ds & S & Q & E). do 2 eexists. split; [reflexivity|]. split; [reflexivity|]. split; [exact R|].
    cbn [deciding]. rewrite P, Sc. f_equal. apply (proj2 (recover_ok _ _)). cbn [opt_err bind]. rewrite Ds. cbn [opt_err bind].
    unfold verNymSignature, verNym_first. cbn [deref bind]. rewrite S, Q. cbn [bind]. rewrite (nymsig_data_ok OK). cbn [bind].
    rewrite (challenge_ok OK) by apply (nymsig_string_length OK). cbn [bind]. apply (proj2 (guard_ok _ _)). apply (sok_eqb (ok_zr OK)). exact E.
Qed.
Print Assumptions C15_exact.

(** Bytes accepted for two pseudonyms or two messages give a collision. *)
Theorem C15_csp : forall C (OK : CurveOk C) (H : hasher C) (T : translator C) c_ipk c_ik c_req c_cred c_sig c_nsig c_cri EC (EE : ecenv EC) sha256 e c
    (nym1 nym2 : G1 C) (ipk : IssuerPublicKey) (raw msg1 msg2 : bytes) (no1 no2 : nym_opts (dlogU C EC)),
  let X := dlog_scheme H T c_ipk c_ik c_req c_cred c_sig c_nsig c_cri EE sha256 in
  let key := KIssuerPublic (Some (Some ipk) : u_ipk (dlogU C EC)) in
  New X (dlog_math T EE sha256) false e = Ok c -> no_ipk no1 = Some key -> no_ipk no2 = Some key ->
  csp_Verify c (Some (KNymPublic (nym1 : u_g1 (dlogU C EC)))) raw msg1 (Some (SNym no1)) = accepted ->
  csp_Verify c (Some (KNymPublic (nym2 : u_g1 (dlogU C EC)))) raw msg2 (Some (SNym no2)) = accepted ->
  nym1 <> nym2 \/ msg1 <> msg2 ->
  exists sig d1 d2, dec c_nsig raw = Some sig /\ verNym_first T sig (Some nym1) (Some ipk) msg1 = Ok d1 /\ verNym_first T sig (Some nym2) (Some ipk) msg2 = Ok d2 /\
    transcripts_collide H d1 d2 (zr_of_bytes C (ns_nonce sig)).
Proof.
  intros C OK H T c_ipk c_ik c_req c_cred c_sig c_nsig c_cri EC EE sha256 e c nym1 nym2 ipk raw msg1 msg2 no1 no2 X key N P1 P2 V1 V2 D.
  exact (C15_bridge OK (csp_nym_accepts N P1 V1) (csp_nym_accepts N P2 V2) D).
Qed.
Print Assumptions C15_csp.

(** Two accepted signatures with one hashed string and two challenges give an opening of the pseudonym. *)
Theorem C15_csp_sound : forall C (OK : CurveOk C) (H : hasher C) (T : translator C) c_ipk c_ik c_req c_cred c_sig c_nsig c_cri EC (EE : ecenv EC) sha256 e c
    (nym1 nym2 : G1 C) (ipk : IssuerPublicKey) (raw1 raw2 msg1 msg2 : bytes) (no1 no2 : nym_opts (dlogU C EC)) sig1 sig2 d,
  let X := dlog_scheme H T c_ipk c_ik c_req c_cred c_sig c_nsig c_cri EE sha256 in
  let key := KIssuerPublic (Some (Some ipk) : u_ipk (dlogU C EC)) in
  New X (dlog_math T EE sha256) false e = Ok c -> no_ipk no1 = Some key -> no_ipk no2 = Some key ->
  csp_Verify c (Some (KNymPublic (nym1 : u_g1 (dlogU C EC)))) raw1 msg1 (Some (SNym no1)) = accepted ->
  csp_Verify c (Some (KNymPublic (nym2 : u_g1 (dlogU C EC)))) raw2 msg2 (Some (SNym no2)) = accepted ->
  dec c_nsig raw1 = Some sig1 -> dec c_nsig raw2 = Some sig2 ->
  verNym_first T sig1 (Some nym1) (Some ipk) msg1 = Ok d -> verNym_first T sig2 (Some nym2) (Some ipk) msg2 = Ok d ->
  zr_of_bytes C (ns_c sig1) <> zr_of_bytes C (ns_c sig2) ->
  nym1 = nym2 /\ msg1 = msg2 /\
  exists HSk HRand sk r, g1_from_proto T (ip_hsk ipk) = Ok HSk /\ g1_from_proto T (ip_hrand ipk) = Ok HRand /\
    (sk, r) = nym_extract C sig1 sig2 /\ opens HSk HRand nym1 sk r.
Proof.
  intros C OK H T c_ipk c_ik c_req c_cred c_sig c_nsig c_cri EC EE sha256 e c nym1 nym2 ipk raw1 raw2 msg1 msg2 no1 no2 sig1 sig2 d X key N P1 P2 V1 V2 D1 D2 F1 F2 Nc.
  destruct (brNym_inv (csp_nym_accepts N P1 V1)) as (s & Q & W1). rewrite D1 in Q. injection Q as <-.
  destruct (brNym_inv (csp_nym_accepts N P2 V2)) as (s & Q & W2). rewrite D2 in Q. injection Q as <-.
  destruct (verNym_inv W1) as (pd & HSk & HRand & _ & S & R).
  destruct (C15_nym_signature_sound OK S R W1 W2 F1 F2 Nc) as (A & B & O). split; [exact A|]. split; [exact B|].
  exists HSk, HRand, (fst (nym_extract C sig1 sig2)), (snd (nym_extract C sig1 sig2)).
  split; [exact S|]. split; [exact R|]. split; [destruct (nym_extract C sig1 sig2); reflexivity|exact O].
Qed.
Print Assumptions C15_csp_sound.

(** Two honest signatures with a pseudonym whose draws differ in the nonce: accepted by the CSP, one hashed string, two challenges. *)
Definition nraw_at (nonce : zp) : bytes := match enc (tcodec s_nsig) (tnymsig nonce) with Some b => b | None => [] end.
Definition nym_shown U (ipk : key U) : nym_opts U :=
  {| no_nym := None; no_ipk := Some ipk; no_smartcard := false; no_card := None; no_nymeid := None; no_nymg1 := None; no_rnym := None; no_sk := 0 |}.
Definition nfirst_at (nonce : zp) : option (bytes * zp) :=
  match dec (tcodec s_nsig) (nraw_at nonce) with
  | Some sig => match verNym_first tT sig (Some tnym) (Some tipk) tmsg with Ok d => Some (d, zr_of_bytes tC (ns_c sig)) | _ => None end
  | None => None
  end.
Example C15_csp_example :
  New xX xM false true = Ok xcsp /\ differ (nfirst_at f4) (nfirst_at f5) = true /\
  map (fun n => match csp_Verify xcsp (Some (KNymPublic (tnym : u_g1 xU))) (nraw_at n) tmsg (Some (SNym (nym_shown (KIssuerPublic (Some (Some tipk) : u_ipk xU))))) with Ret true false => true | _ => false end) [f4; f5] = [true; true].
Proof. split; [exact xcsp_new|]. split; vm_compute; reflexivity. Qed.

(** ** C05 *)
(** Full statement: without the conditions that the attribute is hidden; false of the code, see [C05_csp_refuted]. *)
Theorem C05_csp_partial : forall C (OK : CurveOk C) (H : hasher C) (T : translator C) c_ipk c_ik c_req c_cred c_sig c_nsig c_cri EC (EE : ecenv EC) sha256 e c
    (ipk : IssuerPublicKey) (B : Bases C) (raw1 raw2 msg : bytes) (so : signer_opts (dlogU C EC)) sig1 sig2 (F1 F2 : VerFirst C) (eid rh : nat) (ae ar : attribute),
  let X := dlog_scheme H T c_ipk c_ik c_req c_cred c_sig c_nsig c_cri EE sha256 in
  let key := KIssuerPublic (Some (Some ipk) : u_ipk (dlogU C EC)) in
  let disc := sign_disclosure (so_attrs so) in let vals := map (attr_scalar H) (so_attrs so) in
  New X (dlog_math T EE sha256) false e = Ok c -> ipk_bases T ipk B ->
  csp_Verify c (Some key) raw1 msg (Some (SSigner so)) = accepted -> csp_Verify c (Some key) raw2 msg (Some (SSigner so)) = accepted ->
  dec c_sig raw1 = Some sig1 -> dec c_sig raw2 = Some sig2 ->
  Ver_first T sig1 disc ipk msg vals (so_rh so) (so_eid so) (so_vertype so) = Ok F1 ->
  Ver_first T sig2 disc ipk msg vals (so_rh so) (so_eid so) (so_vertype so) = Ok F2 ->
  vf_data F1 = vf_data F2 -> vf_c F1 <> vf_c F2 ->
  let w := extract T disc vals sig1 sig2 in
  bbs_valid B (w_A w) (w_e w) (w_s w) (w_sk w) (w_attrs w) /\
  (In (so_vertype so) [ExpectEidNym; ExpectEidNymRhNym] -> so_eid so = Z.of_nat eid -> nth_error (so_attrs so) eid = Some ae -> at_type ae = HiddenAttr ->
   exists an n Hj a, sg_eid sig1 = Some an /\ g1_from_proto T (an_nym an) = Ok n /\ nth_error (b_attrs B) eid = Some Hj /\ nth_error (w_attrs w) eid = Some a /\
     opens Hj (b_hrand B) n a (w_reid w)) /\
  (so_vertype so = ExpectEidNymRhNym -> so_rh so = Z.of_nat rh -> nth_error (so_attrs so) rh = Some ar -> at_type ar = HiddenAttr ->
   exists an n Hj a, sg_rh sig1 = Some an /\ g1_from_proto T (an_nym an) = Ok n /\ nth_error (b_attrs B) rh = Some Hj /\ nth_error (w_attrs w) rh = Some a /\
     opens Hj (b_hrand B) n a (w_rrh w)).
Proof.
  intros C OK H T c_ipk c_ik c_req c_cred c_sig c_nsig c_cri EC EE sha256 e c ipk B raw1 raw2 msg so sig1 sig2 F1 F2 eid rh ae ar X key disc vals N HB V1 V2 D1 D2 E1 E2 S Nc w.
  destruct (csp_accepts N V1) as [r1 W1]. apply C10_bridge_verify in W1. destruct W1 as (k & s & K & D & Ty & W1). injection K as <-. rewrite D1 in D. injection D as <-.
  destruct (csp_accepts N V2) as [r2 W2]. apply C10_bridge_verify in W2. destruct W2 as (k & s & K & D & _ & W2). injection K as <-. rewrite D2 in D. injection D as <-.
  assert (Fk : forked H H T sig1 sig2 disc ipk msg vals (so_rh so) (so_eid so) (so_vertype so) B F1 F2 r1 r2 (so_epoch so) (so_epoch so) (so_meta so) (so_meta so))
    by exact (conj HB (conj W1 (conj W2 (conj E1 (conj E2 (conj S Nc)))))).
  destruct (C05_attr_nym_bound_partial OK eid rh Fk) as (Q1 & Q2 & Q3).
  assert (Hd : forall j a, nth_error (so_attrs so) j = Some a -> at_type a = HiddenAttr -> hidden_at disc j).
  { intros j a Ha Hh. unfold hidden_at, disc, sign_disclosure. rewrite nth_error_map, Ha. cbn [option_map]. rewrite Hh. reflexivity. }
  split; [exact Q1|]. split.
  - intros I Ei Ha Hh. apply Q2; [|exact Ei|exact (Hd _ _ Ha Hh)].
    unfold verifyEIDNym. destruct I as [<-|[<-|[]]]; cbn; destruct (verifyRHNym _ _); reflexivity.
  - intros I Ei Ha Hh. apply Q3; [|exact Ei|exact (Hd _ _ Ha Hh)]. rewrite I. unfold verifyRHNym. cbn. reflexivity.
Qed.
Print Assumptions C05_csp_partial.

(** The two runs of C03_csp_example serve here too: the verification type asks for both pseudonyms and both attributes are hidden. *)
Example C05_csp_example :
  In (so_vertype (shown_opts xU)) [ExpectEidNym; ExpectEidNymRhNym] /\ so_vertype (shown_opts xU) = ExpectEidNymRhNym /\
  so_eid (shown_opts xU) = Z.of_nat 2 /\ so_rh (shown_opts xU) = Z.of_nat 3 /\
  map (option_map at_type) [nth_error (so_attrs (shown_opts xU)) 2; nth_error (so_attrs (shown_opts xU)) 3] = [Some HiddenAttr; Some HiddenAttr].
Proof. split; [right; left; reflexivity|]. repeat split; reflexivity. Qed.

(** The full C05 fails for the CSP: a holder whose credential, accepted by the CSP, has the enrollment id "id" discloses it and
    still presents a pseudonym of another one; Verify accepts, and the CSP's audit confirms the other enrollment id and not "id". *)
Definition wshow : list attribute :=
  [{| at_type := BytesAttr; at_value := VBytes (str "ou") |}; {| at_type := HiddenAttr; at_value := VOther |};
   {| at_type := BytesAttr; at_value := VBytes (str "id") |}; {| at_type := HiddenAttr; at_value := VOther |}].
Definition wcred : Credential :=
  {| cr_a := cr_a bcred; cr_b := cr_b bcred; cr_e := cr_e bcred; cr_s := cr_s bcred;
     cr_attrs := [nth 0 (cr_attrs bcred) None; nth 1 (cr_attrs bcred) None; nth 3 (cr_attrs bcred) None; nth 3 (cr_attrs bcred) None] |}.
Definition wforged : bytes :=
  match enc (tcodec s_sig) (fst (from_ok (tsig0, None) (
    let* P := prepare tT bcred tsk bipk (sign_disclosure wshow) 3 tcri (tR f25) in
    finalise tH tT wcred tsk tnym trnym bipk (sign_disclosure wshow) tmsg 3 2 tcri P (tR f25) true false None))) with Some b => b | None => [] end.
Definition wopts : signer_opts xU :=
  {| so_nym := None; so_ipk := None; so_cred := []; so_attrs := wshow; so_rh := 3; so_eid := 2; so_sk := 0; so_cri := []; so_epoch := 5; so_revpk := None;
     so_sigtype := Standard; so_meta := None; so_vertype := ExpectEidNym |}.
Theorem C05_csp_refuted :
  let ipk := KIssuerPublic (Some (Some bipk) : u_ipk xU) in
  let audit id := csp_Verify xcsp (Some ipk) wforged [] (Some (SEidAudit AuditExpectSignature 2 id (Some (f14 : u_zr xU)) 0)) in
  New xX xM false true = Ok xcsp /\
  csp_Verify xcsp (Some (KUserSecret (tsk : u_zr xU) true)) bcredraw [] (Some (SCred wshow (Some ipk))) = accepted /\
  csp_Verify xcsp (Some ipk) wforged tmsg (Some (SSigner wopts)) = accepted /\
  nth_error (so_attrs wopts) 2 = Some {| at_type := BytesAttr; at_value := VBytes (str "id") |} /\
  audit (str "id") = rejected /\ audit (str "L") = accepted.
Proof.
  intros ipk audit. split; [exact xcsp_new|]. split; [vm_compute; reflexivity|]. split; [vm_compute; reflexivity|]. split; [reflexivity|].
  split; vm_compute; reflexivity.
Qed.
Print Assumptions C05_csp_refuted.
