(** * Signature and verification types that a scheme does not implement (C60, C98)

    The two types are integers in the API.  The dlog scheme implements Standard, EidNym and EidNymRhNym and the verification types
    that go with them; the aries scheme implements all declared values.  [OtherSig] and [OtherVer] stand for the values that
    are not declared. *)
From Verif Require Import Base Curve Algebra Spec Dlog DlogBind Bridge BridgeFacts Bbs BbsSpec Aries AriesSpec AriesSign Translator Toy ToyDlog ToyBbs ToyCodec ToyAries
  Csp CspInst CspSpec CspFacts PropsCsp ToyCsp RunSpec RunFacts PropsAries PropsRun PropsRunAries.
Unset Strict Implicit.

(** the options with another signature type, or another verification type *)
Definition with_type U (so : signer_opts U) (st : SignatureType) : signer_opts U :=
  {| so_nym := so_nym so; so_ipk := so_ipk so; so_cred := so_cred so; so_attrs := so_attrs so; so_rh := so_rh so; so_eid := so_eid so; so_sk := so_sk so;
     so_cri := so_cri so; so_epoch := so_epoch so; so_revpk := so_revpk so; so_sigtype := st; so_meta := so_meta so; so_vertype := so_vertype so |}.
Definition expecting U (so : signer_opts U) (v : VerificationType) : signer_opts U :=
  {| so_nym := so_nym so; so_ipk := so_ipk so; so_cred := so_cred so; so_attrs := so_attrs so; so_rh := so_rh so; so_eid := so_eid so; so_sk := so_sk so;
     so_cri := so_cri so; so_epoch := so_epoch so; so_revpk := so_revpk so; so_sigtype := so_sigtype so; so_meta := so_meta so; so_vertype := v |}.

(** ** C98: signing *)
(** dlog: an error, whatever the key, the draws and the other options *)
Theorem C98_dlog : forall C (H : hasher C) (T : translator C) c_ipk c_ik c_req c_cred c_sig c_nsig c_cri EC (EE : ecenv EC) sha256 e c d k digest so,
  let X := dlog_scheme H T c_ipk c_ik c_req c_cred c_sig c_nsig c_cri EE sha256 in
  New X (dlog_math T EE sha256) false e = Ok c ->
  so_sigtype so <> Standard -> so_sigtype so <> EidNym -> so_sigtype so <> EidNymRhNym ->
  csp_Sign c d k digest (Some (SSigner so)) = Err.
Proof.
  intros C H T c_ipk c_ik c_req c_cred c_sig c_nsig c_cri EC EE sha256 e c d k digest so X N N1 N2 N3.
  destruct (new_tables N) as (_ & _ & _ & G & _). clear N. unfold csp_Sign. destruct k as [k|]; [|reflexivity]. cbn [opt_err bind]. rewrite G.
  destruct k; try reflexivity. cbn [ktype wired_csp sigs h_SignerMultiplexer h_Signer opt_err bind].
  destruct (so_ipk so) as [[]|]; try reflexivity. destruct (so_nym so) as [[]|]; try reflexivity.
  cbn [X dlog_scheme s_sign]. unfold brSign.
  destruct (opt_err pk) as [i| |]; try reflexivity. cbn [bind]. destruct (opt_err (dec c_cred (so_cred so))) as [cr| |]; try reflexivity. cbn [bind].
  destruct (opt_err (dec c_cri (so_cri so))) as [ci| |]; try reflexivity. cbn [bind].
  unfold NewSignature. destruct (so_sigtype so); try contradiction; reflexivity.
Qed.
Print Assumptions C98_dlog.

(** aries: no signature for a value that is not declared; and Sign panics, for every request that it serves with EidNym *)
Theorem C98_aries : forall C (HG : bytes -> G1 C) (H : hasher C) T hkdf c_cred c_sig c_nsig c_cri EC (EE : ecenv EC) sha256 e c d k digest so,
  let X := aries_scheme HG H hkdf c_cred c_sig c_nsig c_cri EE sha256 in
  New X (aries_math T EE sha256) false e = Ok c ->
  (forall out, csp_Sign c d k digest (Some (SSigner (with_type so OtherSig))) <> Ok out) /\
  (forall out, csp_Sign c d k digest (Some (SSigner (with_type so EidNym))) = Ok out ->
     csp_Sign c d k digest (Some (SSigner (with_type so OtherSig))) = Panic).
Proof.
  intros C HG H T hkdf c_cred c_sig c_nsig c_cri EC EE sha256 e c d k digest so X N.
  destruct (new_tables N) as (_ & _ & _ & G & _). clear N. unfold csp_Sign. destruct k as [k|]; [|split; discriminate]. cbn [opt_err bind]. rewrite G.
  destruct k; try (split; discriminate). cbn [ktype wired_csp sigs h_SignerMultiplexer h_Signer opt_err bind].
  cbn [with_type so_nym so_ipk so_cred so_attrs so_rh so_eid so_cri so_sigtype so_meta].
  destruct (so_ipk so) as [[]|]; try (split; discriminate). destruct (so_nym so) as [[]|]; try (split; discriminate).
  cbn [X aries_scheme s_sign]. split; intros out E.
  - apply bind_ok in E. destruct E as [x [E _]]. exact (sign_known E eq_refl).
  - apply bind_ok in E. destruct E as [x [E _]]. match goal with |- bind ?s _ = _ => enough (Q : s = Panic) by (rewrite Q; reflexivity) end.
    unfold arSign in *. apply bind_ok in E. destruct E as [[] [_ E]]. cbn [sign_arg_check bind].
    apply bind_ok in E. destruct E as [ipk [-> E]]. cbn [bind]. apply bind_ok in E. destruct E as [cri [-> E]]. cbn [bind]. apply bind_ok in E. destruct E as [u [-> E]]. cbn [bind].
    apply bind_ok in E. destruct E as [cred [-> E]]. cbn [bind]. apply bind_ok in E. destruct E as [[pok ms] [E1 E]].
    change (getPoKOfSignature ?a ?b ?c ?d EidNym ?f ?g ?h) with (getPoKOfSignature a b c d OtherSig f g h) in E1. rewrite E1. cbn [bind].
    apply bind_ok in E. destruct E as [cn [E2 E]]. change (getCommitNym ?a ?b EidNym ?f ?g) with (getCommitNym a b OtherSig f g) in E2. rewrite E2. cbn [bind].
    apply bind_ok in E. destruct E as [me [-> E]]. cbn [bind]. apply bind_ok in E. destruct E as [ei [E3 E]]. cbn [eid_enabled] in *. rewrite E3. cbn [bind].
    apply bind_ok in E. destruct E as [mr [-> E]]. cbn [bind]. apply bind_ok in E. destruct E as [rr [E4 E]]. cbn [rh_enabled] in *. rewrite E4. reflexivity.
Qed.
Print Assumptions C98_aries.

(** the honest run of PropsRunAries.v, with the type EidNym and with a value that is not declared *)
Example C98_example :
  New xX xM false true = Ok xcsp /\ New yX yM false true = Ok ycsp /\ qrun EidNym ExpectEidNym = Ok accepted /\ qrun OtherSig ExpectEidNym = Panic.
Proof. split; [exact xcsp_new|]. split; [exact ycsp_new|]. split; vm_compute; reflexivity. Qed.

(** ** C60: verifying *)
(** False of both schemes: the type is taken for Basic, with the types for smartcards (dlog) and with values that are not declared
    (both); and there are signatures that Basic accepts. *)
Theorem C60_dlog_refuted :
  (forall C (H : hasher C) (T : translator C) c_ipk c_ik c_req c_cred c_sig c_nsig c_cri EC (EE : ecenv EC) sha256 e c k sig digest so v,
    let X := dlog_scheme H T c_ipk c_ik c_req c_cred c_sig c_nsig c_cri EE sha256 in
    New X (dlog_math T EE sha256) false e = Ok c ->
    v = ExpectSmartcard \/ v = ExpectSmartcardNoNyms \/ v = OtherVer ->
    csp_Verify c k sig digest (Some (SSigner (expecting so v))) = csp_Verify c k sig digest (Some (SSigner (expecting so Basic)))) /\
  rrun Standard OtherVer = Ok accepted.
Proof.
  split; [|vm_compute; reflexivity].
  intros C H T c_ipk c_ik c_req c_cred c_sig c_nsig c_cri EC EE sha256 e c k sig digest so v X N Hv.
  destruct k as [k|]; [|reflexivity]. rewrite !(csp_verify_spec _ _ _ _ N). clear N. destruct (length sig =? 0); [reflexivity|].
  enough (Q : forall ipk r, s_verify X ipk sig digest (so_attrs so) (so_rh so) (so_eid so) (so_sk so) r (so_epoch so) v (so_meta so) =
                           s_verify X ipk sig digest (so_attrs so) (so_rh so) (so_eid so) (so_sk so) r (so_epoch so) Basic (so_meta so)).
  { destruct k; cbn [deciding expecting so_revpk so_attrs so_rh so_eid so_sk so_epoch so_meta so_vertype]; [|destruct (so_revpk so) as [[]|]|..]; rewrite ?Q; reflexivity. }
  intros ipk r. cbn [X dlog_scheme s_verify]. unfold brVerify.
  destruct (opt_err ipk) as [i| |]; cbn [bind]; [|reflexivity|reflexivity]. destruct (opt_err (dec c_sig sig)) as [s0| |]; cbn [bind]; [|reflexivity|reflexivity].
  destruct (map_res _ (so_attrs so)) as [vs| |]; cbn [bind]; [|reflexivity|reflexivity].
  match goal with |- recover ?x = recover ?y => enough (Q : x = y) by (rewrite Q; reflexivity) end. destruct Hv as [->|[->| ->]]; apply smartcard_is_basic.
Qed.
Print Assumptions C60_dlog_refuted.

Theorem C60_aries_refuted :
  (forall C (HG : bytes -> G1 C) (H : hasher C) T hkdf c_cred c_sig c_nsig c_cri EC (EE : ecenv EC) sha256 e c k sig digest so,
    let X := aries_scheme HG H hkdf c_cred c_sig c_nsig c_cri EE sha256 in
    New X (aries_math T EE sha256) false e = Ok c ->
    csp_Verify c k sig digest (Some (SSigner (expecting so OtherVer))) = csp_Verify c k sig digest (Some (SSigner (expecting so Basic)))) /\
  qrun Standard OtherVer = Ok accepted.
Proof.
  split; [|vm_compute; reflexivity].
  intros C HG H T hkdf c_cred c_sig c_nsig c_cri EC EE sha256 e c k sig digest so X N.
  destruct k as [k|]; [|reflexivity]. rewrite !(csp_verify_spec _ _ _ _ N). clear N. destruct (length sig =? 0); [reflexivity|].
  enough (Q : forall ipk r, s_verify X ipk sig digest (so_attrs so) (so_rh so) (so_eid so) (so_sk so) r (so_epoch so) OtherVer (so_meta so) =
                           s_verify X ipk sig digest (so_attrs so) (so_rh so) (so_eid so) (so_sk so) r (so_epoch so) Basic (so_meta so)).
  { destruct k; cbn [deciding expecting so_revpk so_attrs so_rh so_eid so_sk so_epoch so_meta so_vertype]; [|destruct (so_revpk so) as [[]|]|..]; rewrite ?Q; reflexivity. }
  intros ipk r. cbn [X aries_scheme s_verify]. unfold arVerify, arVerify_first.
  destruct (assert_ptr ipk) as [i| |]; cbn [bind]; [|reflexivity|reflexivity]. destruct (opt_err (dec c_sig sig)) as [s0| |]; cbn [bind]; [|reflexivity|reflexivity].
  cbn [ar_type_checks ar_verifyRh ar_verifyEid ver_smartcard ver_label]. reflexivity.
Qed.
Print Assumptions C60_aries_refuted.
