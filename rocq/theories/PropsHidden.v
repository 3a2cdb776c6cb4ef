(** * Sign commits to hidden attributes only (C111)

    A signature of type EidNym, EidNymRhNym or Smartcard carries commitments to the enrollment id and the revocation handle.  The signer
    makes it only if the attribute list of the request hides these attributes. *)
From Verif Require Import Base Curve Algebra Spec Dlog Bridge BridgeFacts Bbs BbsSpec Aries AriesSpec AriesIssue Translator Toy ToyDlog ToyBbs ToyCodec ToyAries
  Csp CspInst CspSpec CspFacts PropsCsp ToyCsp RunSpec RunFacts PropsAries PropsRun PropsRunAries.
Unset Strict Implicit.

(** the attribute at position [i] is in the list, and hidden *)
Definition hidden_attr (attributes : list attribute) (i : Z) : Prop :=
  exists k a, i = Z.of_nat k /\ nth_error attributes k = Some a /\ at_type a = HiddenAttr.

Lemma disclosure_hidden attributes i d : znth (sign_disclosure attributes) i = Ok d -> byte_eqb d b0 = true -> hidden_attr attributes i.
Proof.
  intros E D. apply znth_ok in E. destruct E as (k & -> & E). unfold sign_disclosure in E. rewrite nth_error_map in E.
  destruct (nth_error attributes k) as [a|] eqn:A; [|discriminate]. injection E as <-. exists k, a. split; [reflexivity|]. split; [exact A|].
  destruct (at_type a); [reflexivity|discriminate D..].
Qed.

Lemma attr_hidden_true attributes i : attr_hidden attributes i = Ok true -> hidden_attr attributes i.
Proof.
  intro E. apply bind_ok in E. destruct E as [a [E F]]. apply znth_ok in E. destruct E as (k & -> & E). injection F as F.
  exists k, a. split; [reflexivity|]. split; [exact E|]. unfold is_hidden in F. destruct (at_type a); [reflexivity|discriminate F..].
Qed.

Theorem C111_dlog : forall C (H : hasher C) (T : translator C) c_ipk c_ik c_req c_cred c_sig c_nsig c_cri EC (EE : ecenv EC) sha256 e c d k digest so out,
  let X := dlog_scheme H T c_ipk c_ik c_req c_cred c_sig c_nsig c_cri EE sha256 in
  New X (dlog_math T EE sha256) false e = Ok c ->
  csp_Sign c d k digest (Some (SSigner so)) = Ok out ->
  (so_sigtype so = EidNym \/ so_sigtype so = EidNymRhNym -> hidden_attr (so_attrs so) (so_eid so)) /\
  (so_sigtype so = EidNymRhNym -> hidden_attr (so_attrs so) (so_rh so)).
Proof.
  intros C H T c_ipk c_ik c_req c_cred c_sig c_nsig c_cri EC EE sha256 e c d k digest so out X N S.
  destruct (new_tables N) as (_ & _ & _ & G & _). clear N. unfold csp_Sign in S. destruct k as [k|]; [|discriminate]. cbn [opt_err bind] in S. rewrite G in S.
  destruct k; try discriminate S. cbn [ktype wired_csp sigs h_SignerMultiplexer h_Signer opt_err bind] in S.
  destruct (so_ipk so) as [[]|]; try discriminate S. destruct (so_nym so) as [[]|]; try discriminate S.
  cbn [X dlog_scheme s_sign] in S. apply bind_ok in S. destruct S as [x [S _]]. unfold brSign in S. apply (proj1 (recover_ok _ _)) in S.
  apply bind_ok in S. destruct S as [ipk [_ S]]. apply bind_ok in S. destruct S as [cr [_ S]]. apply bind_ok in S. destruct S as [cri [_ S]].
  apply bind_ok in S. destruct S as [y [S _]]. unfold NewSignature in S.
  destruct (so_sigtype so); (split; [intros [Q|Q]|intro Q]); try discriminate Q.
  - apply bind_ok in S. destruct S as [b [E S]]. apply bind_ok in S. destruct S as [[] [D _]]. apply guard_ok in D. exact (disclosure_hidden E D).
  - apply bind_ok in S. destruct S as [b [E S]]. apply bind_ok in S. destruct S as [[] [D _]]. apply guard_ok in D. exact (disclosure_hidden E D).
  - apply bind_ok in S. destruct S as [b [_ S]]. apply bind_ok in S. destruct S as [[] [_ S]].
    apply bind_ok in S. destruct S as [b' [E S]]. apply bind_ok in S. destruct S as [[] [D _]]. apply guard_ok in D. exact (disclosure_hidden E D).
Qed.
Print Assumptions C111_dlog.

Theorem C111_aries : forall C (HG : bytes -> G1 C) (H : hasher C) T hkdf c_cred c_sig c_nsig c_cri EC (EE : ecenv EC) sha256 e c d k digest so out,
  let X := aries_scheme HG H hkdf c_cred c_sig c_nsig c_cri EE sha256 in
  New X (aries_math T EE sha256) false e = Ok c ->
  csp_Sign c d k digest (Some (SSigner so)) = Ok out ->
  (so_sigtype so = EidNym \/ so_sigtype so = EidNymRhNym \/ so_sigtype so = Smartcard -> hidden_attr (so_attrs so) (so_eid so)) /\
  (so_sigtype so = EidNymRhNym \/ so_sigtype so = Smartcard -> hidden_attr (so_attrs so) (so_rh so)).
Proof.
  intros C HG H T hkdf c_cred c_sig c_nsig c_cri EC EE sha256 e c d k digest so out X N S.
  destruct (new_tables N) as (_ & _ & _ & G & _). clear N. unfold csp_Sign in S. destruct k as [k|]; [|discriminate]. cbn [opt_err bind] in S. rewrite G in S.
  destruct k; try discriminate S. cbn [ktype wired_csp sigs h_SignerMultiplexer h_Signer opt_err bind] in S.
  destruct (so_ipk so) as [[]|]; try discriminate S. destruct (so_nym so) as [[]|]; try discriminate S.
  cbn [X aries_scheme s_sign] in S. apply bind_ok in S. destruct S as [x [S _]]. unfold arSign in S.
  apply bind_ok in S. destruct S as [[] [A _]]. unfold sign_arg_check in A. apply bind_ok in A. destruct A as [[] [A1 A2]].
  assert (EID : so_sigtype so = EidNym \/ so_sigtype so = EidNymRhNym \/ so_sigtype so = Smartcard -> attr_hidden (so_attrs so) (so_eid so) = Ok true).
  { intros [Q|[Q|Q]]; rewrite Q in A1, A2.
    - apply bind_ok in A1. destruct A1 as [h [E F]]. apply guard_ok in F. subst h. exact E.
    - apply bind_ok in A2. destruct A2 as [h [E F]]. apply bind_ok in F. destruct F as [[] [F _]]. apply guard_ok in F. subst h. exact E.
    - apply bind_ok in A2. destruct A2 as [h [E F]]. apply bind_ok in F. destruct F as [[] [F _]]. apply guard_ok in F. subst h. exact E. }
  split; [intro Q; apply attr_hidden_true, EID, Q|]. intros [Q|Q]; rewrite Q in A2; apply attr_hidden_true;
    apply bind_ok in A2; destruct A2 as [h [_ A2]]; apply bind_ok in A2; destruct A2 as [[] [_ A2]]; apply bind_ok in A2; destruct A2 as [h' [E F]]; apply guard_ok in F; subst h'; exact E.
Qed.
Print Assumptions C111_aries.

(** The honest runs sign with both commitments, so the hypotheses are met. *)
Example C111_example :
  New xX xM false true = Ok xcsp /\ New yX yM false true = Ok ycsp /\ rrun EidNymRhNym ExpectEidNymRhNym = Ok accepted /\ qrun EidNymRhNym ExpectEidNymRhNym = Ok accepted.
Proof. split; [exact xcsp_new|]. split; [exact ycsp_new|]. split; vm_compute; reflexivity. Qed.
