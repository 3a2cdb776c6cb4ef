(** * Credentials that verify and crash their holder when they sign with a smartcard (C96)

    Reading guide: see PropsMspPanic.v; the signature types here are those with [is_smartcard st = true]: Smartcard, which has a
    pseudonym of the enrollment id, and SmartcardNoNyms. *)
From Verif Require Import Base Curve Algebra Spec Dlog Bridge BridgeFacts Bbs BbsSpec BbsFacts BbsProof BbsComplete
  Aries AriesSpec AriesIssue AriesNym AriesVerify AriesForge BbsPanic AriesPanic AriesSignPanic AriesSignCard Toy ToyBbs ToyCodec ToyAries PropsAries PropsAriesPanic PropsMspPanic.
Unset Strict Implicit.

Lemma card_arg_check attributes rh eid st : is_smartcard st = true ->
  sign_arg_check attributes (Z.of_nat rh) (Z.of_nat eid) st = Ok tt <-> (st = Smartcard -> hidden_at attributes eid /\ hidden_at attributes rh).
Proof.
  intro SC. rewrite <- !hidden_spec. unfold sign_arg_check. destruct st; try discriminate SC; cbn [bind].
  - destruct (attr_hidden attributes (Z.of_nat eid)) as [[]| |]; cbn; try (split; [discriminate|intros F; specialize (F eq_refl); destruct F; discriminate]).
    destruct (attr_hidden attributes (Z.of_nat rh)) as [[]| |]; cbn; try (split; [discriminate|intros F; specialize (F eq_refl); destruct F; discriminate]).
    split; [auto|reflexivity].
  - split; [intros _; discriminate|reflexivity].
Qed.

(** ** C96 for the smartcard types *)
(** Sign after a successful verification of the credential panics exactly if the credential has more attributes than the issuer
    certifies.  (The enrollment id and the revocation handle must be hidden for the type Smartcard, and the revocation
    information readable; otherwise Sign returns an error first.)  The position of the user secret key does not matter here.
    Missing: nothing rejects these credentials (C96_refuted, C96_smartcard_example). *)
Theorem C96_smartcard_partial : forall C (OK : CurveOk C) (HG : bytes -> G1 C) (H : hasher C) (c_cred : codec ACredential) (c_sig : codec ASignature) (c_cri : codec ACRI)
    (pk : G2 C) (n : nat) (credBytes : bytes) (c : ACredential) (sk sk' : Zr C) (Nym : G1 C) (RNym : Zr C) (certified attributes : list attribute) (msg : bytes)
    (rh eid : nat) (criRaw : bytes) (st : SignatureType) (meta : option (Metadata C)) (R : ASigRand C),
  bls_sizes C -> (Z.of_nat n < 2 ^ 32 - 3)%Z -> length attributes = n -> rh < n -> eid < n -> is_smartcard st = true ->
  complete_audit (md_eid_audit meta) ->
  length certified = n -> Forall typed certified -> dec c_cred credBytes = Some c ->
  let ipk := Some (Some (issuer_key HG pk n)) in
  arCredVerify H c_cred sk ipk credBytes certified = Ok tt ->
  (arSign H c_cred c_sig c_cri credBytes sk' Nym RNym ipk attributes msg (Z.of_nat rh) (Z.of_nat eid) criRaw st meta R = Panic <->
   (st = Smartcard -> hidden_at attributes eid /\ hidden_at attributes rh) /\
   (exists cri, dec c_cri criRaw = Some cri /\ acri_alg cri = 0%Z) /\
   n < length (ac_attrs c)).
Proof.
  intros C OK HG H c_cred c_sig c_cri pk n credBytes c sk sk' Nym RNym certified attributes msg rh eid criRaw st meta R BS Ln La Lr Le SC A1 Lc Ty D ipk V.
  apply (credVerify_iff OK HG H BS c_cred sk pk credBytes Lc Ty) in V. destruct V as (c' & sg & k & D' & PS & Sp & Lk & Lm & _ & _).
  rewrite D in D'. injection D' as <-. split.
  - intro E. split; [|split].
    + apply (card_arg_check attributes rh eid SC). unfold arSign in E.
      destruct (sign_arg_check attributes (Z.of_nat rh) (Z.of_nat eid) st) as [[]| |] eqn:AC; [reflexivity|discriminate|exfalso; revert AC; apply (arg_check_np BS); lia].
    + unfold arSign in E. destruct (sign_arg_check attributes (Z.of_nat rh) (Z.of_nat eid) st) as [[]| |] eqn:AC; [|discriminate|exfalso; revert AC; apply (arg_check_np BS); lia].
      cbn [assert_ptr ipk bind] in E. destruct (dec c_cri criRaw) as [cri|]; [|discriminate]. cbn [opt_err bind] in E. exists cri. split; [reflexivity|].
      destruct (acri_alg cri =? 0)%Z eqn:G; [lia|discriminate].
    + destruct (Nat.eq_dec (length (ac_attrs c)) n) as [Ec|Ec]; [|lia]. exfalso. revert E.
      apply (@card_np C OK HG BS H c_cred c_sig c_cri pk n k credBytes c); assumption || lia.
  - intros (Q1 & Q2 & Q3).
    apply (@card_panics C HG BS H c_cred c_sig c_cri pk n k credBytes c sk' Nym RNym attributes msg rh eid criRaw st meta R D Sp La Lr Le SC sg); try assumption.
    split; [apply (card_arg_check attributes rh eid SC); exact Q1|exact Q2].
Qed.
Print Assumptions C96_smartcard_partial.

(** The toy user's credential and the one with an attribute more both verify.  With the first, Sign succeeds for both types; with
    the second it panics. *)
Example C96_smartcard_example :
  is_ok (arCredVerify h32 xa_ccred xa_sk xa_key xa_long_cred xa_certified) = true /\
  (Smartcard = Smartcard -> hidden_at xa_attrs 1 /\ hidden_at xa_attrs 2) /\
  map (fun st => is_ok (xa_sign_with xa_credb st)) [Smartcard; SmartcardNoNyms] = [true; true] /\
  map (fun st => match xa_sign_with xa_long_cred st with Panic => true | _ => false end) [Smartcard; SmartcardNoNyms] = [true; true].
Proof.
  split; [vm_compute; reflexivity|]. split; [intros _; split; eexists; split; reflexivity|]. vm_compute. split; reflexivity.
Qed.
