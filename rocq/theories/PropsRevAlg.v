(** * The revocation information a signature is made with and carries (C76, C77) *)
From Verif Require Import Base Curve Algebra Spec Dlog DlogSpec Translator Toy ToyDlog
  Bridge BridgeFacts Bbs BbsSpec Aries AriesSpec ToyBbs ToyCodec ToyAries PropsBridge PropsAries.
Unset Strict Implicit.

(** The algorithm named by the non-revocation proof of a dlog signature, if it has one. *)
Definition dlog_algorithm (s : Dlog.Signature) : option Z := option_map nr_alg (sg_nonrev s).

(** A dlog signature in which only the revocation information (epoch, epoch key, authority's signature
    on them) is exchanged; the same for aries. *)
Definition with_revocation (s : Dlog.Signature) (epoch : Z) (epk : option ecp2) (by_authority : bytes) : Dlog.Signature :=
  {| sg_aprime := sg_aprime s; sg_abar := sg_abar s; sg_bprime := sg_bprime s; sg_c := sg_c s; sg_ssk := sg_ssk s; sg_se := sg_se s;
     sg_sr2 := sg_sr2 s; sg_sr3 := sg_sr3 s; sg_ssprime := sg_ssprime s; sg_sattrs := sg_sattrs s; sg_nonce := sg_nonce s;
     sg_nym := sg_nym s; sg_srnym := sg_srnym s; sg_epochpk := epk; sg_pksig := by_authority; sg_epoch := epoch;
     sg_nonrev := sg_nonrev s; sg_eid := sg_eid s; sg_rh := sg_rh s |}.
Definition with_arevocation (s : ASignature) (epoch : Z) (epk by_authority : bytes) : ASignature :=
  {| as_main := as_main s; as_nonce := as_nonce s; as_nym := as_nym s; as_nym_proof := as_nym_proof s;
     as_eid := as_eid s; as_eid_proof := as_eid_proof s; as_eid_idx := as_eid_idx s;
     as_rh := as_rh s; as_rh_proof := as_rh_proof s; as_rh_idx := as_rh_idx s;
     as_epoch_pk := epk; as_pk_sig := by_authority; as_epoch := epoch; as_alg := as_alg s |}.

(** ** C76: only the algorithm "no revocation" (0) is ever accepted, and a signature carries exactly the
    revocation information it was made with *)

(** the authority issues information for algorithm 0 only *)
Theorem C76_issue : forall C (T : translator C) (EC : ecdsa) (sha256 : bytes -> bytes) (c_cri : codec CRI) (c_acri : codec ACRI)
    (key : option (ec_sk EC)) (handles : list bytes) (epoch alg : Z) (wsk : Zr C) (raw : bytes),
  brRevSign T c_cri sha256 key handles epoch alg wsk = Ok raw \/ arRevSign sha256 c_acri key handles epoch alg wsk = Ok raw -> alg = 0%Z.
Proof.
  intros C T EC sha256 c_cri c_acri key handles epoch alg wsk raw [E|E].
  - apply (proj1 (recover_ok _ _)) in E. apply bind_ok in E. destruct E as [c [E _]]. unfold createCRI in E.
    apply bind_ok in E. destruct E as [k [_ E]]. apply bind_ok in E. destruct E as [b [_ E]]. apply bind_ok in E. destruct E as [s [_ E]].
    destruct (alg =? 0)%Z eqn:A; [apply Z.eqb_eq; exact A|discriminate].
  - unfold arRevSign in E. apply bind_ok in E. destruct E as [k [_ E]]. apply bind_ok in E. destruct E as [b [_ E]].
    apply bind_ok in E. destruct E as [s [_ E]]. destruct (alg =? 0)%Z eqn:A; [apply Z.eqb_eq; exact A|discriminate].
Qed.
Print Assumptions C76_issue.

(** Sign, dlog *)
Theorem C76_sign_dlog : forall C (H : hasher C) (T : translator C) (c_cred : codec Credential) (c_sig : codec Dlog.Signature) (c_cri : codec CRI)
    cred sk Nym RNym ipk attributes msg rhI eidI criRaw (R : SigRand C) st meta sigraw md,
  brSign H T c_cred c_sig c_cri cred sk Nym RNym ipk attributes msg rhI eidI criRaw R st meta = Ok (sigraw, md) ->
  exists cri s, dec c_cri criRaw = Some cri /\ cri_alg cri = 0%Z /\
    enc c_sig s = Some sigraw /\ dlog_algorithm s = Some 0%Z /\
    sg_epoch s = cri_epoch cri /\ sg_epochpk s = cri_epochpk cri /\ sg_pksig s = cri_sig cri.
Proof.
  intros C H T c_cred c_sig c_cri cred sk Nym RNym ipk attributes msg rhI eidI criRaw R st meta sigraw md E.
  apply (proj1 (recover_ok _ _)) in E. apply bind_ok in E. destruct E as [k [_ E]]. apply bind_ok in E. destruct E as [cr [_ E]].
  apply bind_ok in E. destruct E as [cri [Ecri E]]. apply bind_ok in E. destruct E as [[s md'] [Sg E]]. cbn [fst snd] in E.
  apply bind_ok in E. destruct E as [b [Eb E]]. injection E as -> ->.
  destruct (dec c_cri criRaw) as [c'|]; [|discriminate]. injection Ecri as ->.
  destruct (enc c_sig s) as [b'|] eqn:Es; [|discriminate]. injection Eb as ->.
  assert (F : exists sk Nym RNym k P we wr, prepare T cr sk k (sign_disclosure attributes) rhI cri R = Ok P /\
                finalise H T cr sk Nym RNym k (sign_disclosure attributes) msg rhI eidI cri P R we wr meta = Ok (s, md)).
  { destruct sk as [sk|]; [|destruct st; try discriminate; cbn [NewSignature] in Sg; inv_all].
    destruct Nym as [Nym|]; [|destruct st; try discriminate; cbn [NewSignature] in Sg; inv_all].
    destruct RNym as [RNym|]; [|destruct st; try discriminate; cbn [NewSignature] in Sg; inv_all].
    destruct k as [k|]; [|destruct st; try discriminate; cbn [NewSignature] in Sg; inv_all].
    exists sk, Nym, RNym, k. unfold NewSignature in Sg. destruct st; try discriminate; inv_all; eauto. }
  clear Sg. destruct F as (sk' & Nym' & RNym' & k' & P & we & wr & Pr & F).
  exists cri, s. split; [reflexivity|]. split.
  { clear F. unfold prepare in Pr. inv_all.
    match goal with G : alg_none (cri_alg cri) = true |- _ => apply Z.eqb_eq; exact G end. }
  split; [exact Es|]. unfold finalise in F.
  apply bind_ok in F. destruct F as [eid [_ F]]. apply bind_ok in F. destruct F as [rh [_ F]].
  apply bind_ok in F. destruct F as [pd [_ F]]. apply bind_ok in F. destruct F as [c [_ F]].
  apply bind_ok in F. destruct F as [sa [_ F]]. injection F as <- _. repeat split; reflexivity.
Qed.
Print Assumptions C76_sign_dlog.

(** Sign, aries *)
Theorem C76_sign_aries : forall C (H : hasher C) (c_cred : codec ACredential) (c_sig : codec ASignature) (c_cri : codec ACRI)
    credBytes sk Nym RNym key attributes msg rhI eidI criRaw st meta (R : ASigRand C) sigraw md,
  arSign H c_cred c_sig c_cri credBytes sk Nym RNym key attributes msg rhI eidI criRaw st meta R = Ok (sigraw, md) ->
  exists cri s, dec c_cri criRaw = Some cri /\ acri_alg cri = 0%Z /\
    enc c_sig s = Some sigraw /\ as_alg s = Some 0%Z /\
    as_epoch s = acri_epoch cri /\ as_epoch_pk s = acri_epochpk cri /\ as_pk_sig s = acri_sig cri.
Proof.
  intros C H c_cred c_sig c_cri credBytes sk Nym RNym key attributes msg rhI eidI criRaw st meta R sigraw md E.
  unfold arSign in E. apply bind_ok in E. destruct E as [u [_ E]]. apply bind_ok in E. destruct E as [ipk [_ E]].
  apply bind_ok in E. destruct E as [cri [Ecri E]]. apply bind_ok in E. destruct E as [u2 [Alg E]].
  assert (A : acri_alg cri = 0%Z) by (destruct (acri_alg cri =? 0)%Z eqn:Q; [apply Z.eqb_eq; exact Q|discriminate Alg]).
  destruct (dec c_cri criRaw) as [c'|]; [|discriminate]. injection Ecri as ->.
  assert (Pk : exists (Nym' : G1 C) proof pn ep rp nonce, packageProof c_sig attributes Nym' proof pn ep rp cri nonce = Ok sigraw).
  { apply bind_ok in E. destruct E as [cred [_ E]]. apply bind_ok in E. destruct E as [[pok ms] [_ E]].
    do 10 (apply bind_ok in E; destruct E as [? [_ E]]).
    apply bind_ok in E. destruct E as [sb [Pk E]]. apply bind_ok in E. destruct E as [m [_ E]]. injection E as -> _. eauto 10. }
  destruct Pk as (Nym' & proof & pn & ep & rp & nonce & Pk). unfold packageProof in Pk.
  do 5 (apply bind_ok in Pk; destruct Pk as [? [_ Pk]]).
  match type of Pk with opt_err (enc c_sig ?s) = _ => exists cri, s; destruct (enc c_sig s) as [b'|]; [|discriminate] end.
  injection Pk as ->. split; [reflexivity|]. split; [exact A|]. split; [reflexivity|]. cbn [as_alg as_epoch as_epoch_pk as_pk_sig].
  rewrite A. repeat split; reflexivity.
Qed.
Print Assumptions C76_sign_aries.

(** Verify *)
Theorem C76_verify_dlog : forall C (H : hasher C) (T : translator C) (c_sig : codec Dlog.Signature)
    ipk sigraw digest attributes rhI eidI revpk (rev : revpk) ep vt meta,
  brVerify H T c_sig ipk sigraw digest attributes rhI eidI rev ep vt meta = Ok tt ->
  exists s, dec c_sig sigraw = Some s /\ dlog_algorithm s = Some 0%Z.
Proof.
  intros C H T c_sig ipk sigraw digest attributes rhI eidI revpk rev ep vt meta E.
  apply (proj1 (recover_ok _ _)) in E. apply bind_ok in E. destruct E as [k [_ E]]. apply bind_ok in E. destruct E as [s [Es E]].
  apply bind_ok in E. destruct E as [vs [_ E]]. unfold Ver in E. apply bind_ok in E. destruct E as [k' [_ E]].
  apply bind_ok in E. destruct E as [F [E1 _]]. exists s. split; [destruct (dec c_sig sigraw); [injection Es as ->; reflexivity|discriminate]|].
  unfold Ver_first in E1. apply bind_ok in E1. destruct E1 as [? [_ E1]]. apply bind_ok in E1. destruct E1 as [nrp [En E1]].
  unfold dlog_algorithm. destruct (sg_nonrev s) as [n|]; [|discriminate]. injection En as ->. cbn [option_map]. inv_all.
  match goal with G : alg_none (nr_alg nrp) = true |- _ => apply Z.eqb_eq in G; rewrite G; reflexivity end.
Qed.
Print Assumptions C76_verify_dlog.

Theorem C76_verify_aries : forall C (H : hasher C) (c_sig : codec ASignature) key sigraw msg attributes rhI eidI skI v (meta : option (Metadata C)),
  arVerify H c_sig key sigraw msg attributes rhI eidI skI v meta = Ok tt ->
  exists s, dec c_sig sigraw = Some s /\ as_alg s = Some 0%Z.
Proof.
  intros C H c_sig key sigraw msg attributes rhI eidI skI v meta E. unfold arVerify in E. apply bind_ok in E. destruct E as [f [E _]].
  unfold arVerify_first in E. apply bind_ok in E. destruct E as [ipk [_ E]]. apply bind_ok in E. destruct E as [s [Es E]].
  apply bind_ok in E. destruct E as [a [Ea E]]. apply bind_ok in E. destruct E as [u [G _]].
  exists s. split; [destruct (dec c_sig sigraw); [injection Es as ->; reflexivity|discriminate]|].
  destruct (as_alg s) as [a'|]; [|discriminate]. injection Ea as ->.
  destruct (a =? 0)%Z eqn:Q; [apply Z.eqb_eq in Q; rewrite Q; reflexivity|discriminate].
Qed.
Print Assumptions C76_verify_aries.

(** ** C77: full claim: the revocation information inside an accepted signature (epoch, epoch key and the
    authority's signature) was put there by the signer.  False of both schemes: none of it enters the
    challenge and none of it is checked, so anyone may exchange it.  (dlog still parses the epoch key.) *)
Theorem C77_dlog_refuted : forall C (H : hasher C) (T : translator C) (c_sig : codec Dlog.Signature)
    ipk sigraw sigraw' s epoch epk by_authority digest attributes rhI eidI revpk (rev : revpk) ep vt meta,
  dec c_sig sigraw = Some s -> dec c_sig sigraw' = Some (with_revocation s epoch epk by_authority) ->
  (exists E, g2_from_proto T epk = Ok E) ->
  brVerify H T c_sig ipk sigraw digest attributes rhI eidI rev ep vt meta = Ok tt ->
  brVerify H T c_sig ipk sigraw' digest attributes rhI eidI rev ep vt meta = Ok tt.
Proof.
  intros C H T c_sig ipk sigraw sigraw' s epoch epk by_authority digest attributes rhI eidI revpk rev ep vt meta D D' [P HP] E.
  apply (proj1 (recover_ok _ _)) in E. apply (proj2 (recover_ok _ _)). rewrite D in E. rewrite D'. cbn [opt_err bind] in *.
  apply bind_ok in E. destruct E as [k [-> E]]. cbn [bind]. apply bind_ok in E. destruct E as [vs [-> E]]. cbn [bind].
  unfold Ver in *. apply bind_ok in E. destruct E as [k' [-> E]]. cbn [bind]. apply bind_ok in E. destruct E as [F [E1 E]].
  assert (E1' : Ver_first T (with_revocation s epoch epk by_authority) (map fst vs) k' digest (map snd vs) rhI eidI vt = Ok F).
  { clear E. unfold Ver_first in *.
    change (type_checks vt (with_revocation s epoch epk by_authority)) with (type_checks vt s).
    change (verifyRHNym vt (with_revocation s epoch epk by_authority)) with (verifyRHNym vt s).
    change (verifyEIDNym vt (with_revocation s epoch epk by_authority)) with (verifyEIDNym vt s).
    cbn [with_revocation sg_aprime sg_abar sg_bprime sg_c sg_ssk sg_se sg_sr2 sg_sr3 sg_ssprime sg_sattrs sg_nonce sg_nym sg_srnym sg_nonrev sg_eid sg_rh sg_epochpk].
    rewrite HP. destruct (g2_from_proto T (sg_epochpk s)) as [P'| |].
    - exact E1.
    - exfalso. revert E1. clear. intro E1. cbn [bind] in E1. repeat (apply bind_ok in E1; destruct E1 as [? [_ E1]]). discriminate.
    - exfalso. revert E1. clear. intro E1. cbn [bind] in E1. repeat (apply bind_ok in E1; destruct E1 as [? [_ E1]]). discriminate. }
  rewrite E1'. exact E.
Qed.
Print Assumptions C77_dlog_refuted.

Theorem C77_aries_refuted : forall C (H : hasher C) (c_sig : codec ASignature)
    key sigraw sigraw' s epoch epk by_authority msg attributes rhI eidI skI v (meta : option (Metadata C)),
  dec c_sig sigraw = Some s -> dec c_sig sigraw' = Some (with_arevocation s epoch epk by_authority) ->
  arVerify H c_sig key sigraw msg attributes rhI eidI skI v meta = arVerify H c_sig key sigraw' msg attributes rhI eidI skI v meta.
Proof.
  intros C H c_sig key sigraw sigraw' s epoch epk by_authority msg attributes rhI eidI skI v meta D D'.
  unfold arVerify, arVerify_first. destruct (assert_ptr key) as [ipk| |]; [|reflexivity|reflexivity]. cbn [bind]. rewrite D, D'. cbn [opt_err bind].
  change (ar_type_checks v (with_arevocation s epoch epk by_authority)) with (ar_type_checks v s).
  change (ar_verifyRh v (with_arevocation s epoch epk by_authority)) with (ar_verifyRh v s).
  change (ar_verifyEid v (with_arevocation s epoch epk by_authority)) with (ar_verifyEid v s).
  cbn [with_arevocation as_main as_nonce as_nym as_nym_proof as_eid as_eid_proof as_eid_idx as_rh as_rh_proof as_rh_idx as_alg].
  repeat (match goal with |- bind (bind ?m _) _ = _ => destruct m; [|reflexivity|reflexivity] end; cbn [bind]).
  reflexivity.
Qed.
Print Assumptions C77_aries_refuted.

(** ** the hypotheses are met *)
(** dlog: signing with information for algorithm 0 succeeds, with algorithm 1 it fails; so does issuing it *)
Definition kcri (alg : Z) : bytes :=
  match dec (tcodec s_cri) bcriraw with
  | Some c => ser s_cri {| cri_epoch := cri_epoch c; cri_epochpk := cri_epochpk c; cri_sig := cri_sig c; cri_alg := alg |}
  | None => []
  end.
Definition ksign (alg : Z) : res (bytes * option (Metadata tC)) :=
  brSign tH tT (tcodec s_cred) (tcodec s_sig) (tcodec s_cri) bcredraw (Some tsk) (Some tnym) (Some trnym)
    (Some (Some bipk)) bshow tmsg 3 2 (kcri alg) (tR f25) EidNymRhNym None.
Example C76_dlog_example :
  map (fun a => is_ok (ksign a)) [0%Z; 1%Z] = [true; false] /\
  map (fun a => is_ok (brRevSign (EC := bEC) tT (tcodec s_cri) bsha (Some tt) [] 5 a f1)) [0%Z; 1%Z] = [true; false] /\
  map (fun a => is_ok (arRevSign (C := tC) (EC := bEC) bsha (tcodec s_acri) (Some tt) [] 5 a f1)) [0%Z; 1%Z] = [true; false].
Proof. split; [vm_compute; reflexivity|]. split; vm_compute; reflexivity. Qed.

Definition xa_sign_alg (alg : Z) : res bytes :=
  let* '(Nym, RNym) := arMakeNym 0 xa_sk xa_key xa_RNym in
  let* '(b, m) := arSign h32 xa_ccred xa_csig xa_ccri xa_credb xa_sk Nym RNym xa_key xa_attrs (str "message") 2 1
    (ser s_acri {| acri_epoch := 3; acri_epochpk := str "epoch"; acri_sig := str "sig"; acri_alg := alg |}) Standard None xa_R in Ok b.
Example C76_aries_example : map (fun a => is_ok (xa_sign_alg a)) [0%Z; 1%Z; (-1)%Z] = [true; false; false].
Proof. vm_compute. reflexivity. Qed.

(** the signature of C10_bridge_example and of C37_refuted_example, made for epochs 5 and 3, is accepted with
    the epoch 7 and a foreign signature on it, and refused when it names algorithm 1 *)
Definition ksig : Dlog.Signature := match dec (tcodec s_sig) bsigraw with Some s => s | None => tsig0 end.
Definition kmoved : bytes := ser s_sig (with_revocation ksig 7 (sg_epochpk ksig) (str "nobody")).
Example C77_dlog_example :
  brVerify tH tT (tcodec s_sig) (Some (Some bipk)) bsigraw tmsg bshow 3 2 tt 5 ExpectEidNymRhNym None = Ok tt /\
  is_ok (g2_from_proto tT (sg_epochpk ksig)) = true /\ sg_epoch ksig = 5%Z /\
  option_map sg_epoch (dec (tcodec s_sig) kmoved) = Some 7%Z /\
  brVerify tH tT (tcodec s_sig) (Some (Some bipk)) kmoved tmsg bshow 3 2 tt 5 ExpectEidNymRhNym None = Ok tt.
Proof. do 4 (split; [vm_compute; reflexivity|]). vm_compute. reflexivity. Qed.

Definition xa_moved (epoch alg : Z) : bytes :=
  match dec xa_csig xa_sig_hidden with
  | Some s => ser s_asig (let t := with_arevocation s epoch (str "any") (str "nobody") in
      {| as_main := as_main t; as_nonce := as_nonce t; as_nym := as_nym t; as_nym_proof := as_nym_proof t;
         as_eid := as_eid t; as_eid_proof := as_eid_proof t; as_eid_idx := as_eid_idx t;
         as_rh := as_rh t; as_rh_proof := as_rh_proof t; as_rh_idx := as_rh_idx t;
         as_epoch_pk := as_epoch_pk t; as_pk_sig := as_pk_sig t; as_epoch := as_epoch t; as_alg := Some alg |})
  | None => []
  end.
Example C77_aries_example :
  option_map as_epoch (dec xa_csig xa_sig_hidden) = Some 3%Z /\ option_map as_epoch (dec xa_csig (xa_moved 7 0)) = Some 7%Z /\
  map (fun b => is_ok (arVerify h32 xa_csig xa_key b (str "message") xa_hidden 2 1 0 ExpectStandard None)) [xa_sig_hidden; xa_moved 7 0; xa_moved 3 1] = [true; true; false].
Proof. split; [vm_compute; reflexivity|]. split; vm_compute; reflexivity. Qed.
