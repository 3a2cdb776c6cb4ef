(** * What happens to a call with a nil issuer key, or a key of another implementation (C97)

    Reading guide: the code takes issuer keys as Go interface values.  [None] is a nil interface or a value of another Go type,
    [Some None] is a nil pointer of the right type, and [Some (Some k)] is a key. *)
From Verif Require Import Base Curve Algebra Spec Dlog Bridge BridgeFacts Bbs BbsSpec
  Aries AriesSpec Toy ToyBbs ToyCodec ToyAries ToyDlog PropsBridge PropsAries.
Unset Strict Implicit.

(** ** Vocabulary *)
Definition no_key {X} (key : iface X) : Prop := forall k, key <> Some (Some k).

Lemma no_key_cases {X} (key : iface X) : no_key key -> key = None \/ key = Some None.
Proof. destruct key as [[k|]|]; auto. intros N. destruct (N k eq_refl). Qed.

Lemma recover_err {A} (m : res A) : (forall x, m <> Ok x) -> recover m = Err.
Proof. destruct m; cbn; auto. intros E. now destruct (E a). Qed.

Lemma sign_no_key C (H : hasher C) T cred sk Nym RNym d msg rh eid cri R st meta x :
  NewSignature H T cred sk Nym RNym None d msg rh eid cri R st meta <> Ok x.
Proof.
  intros E. unfold NewSignature in E.
  destruct st; repeat (apply bind_ok in E; destruct E as [? [_ E]]); destruct cred, sk, Nym, RNym, cri; discriminate E.
Qed.

Ltac no_key_step E :=
  repeat first [ discriminate E
               | apply sign_no_key in E; destruct E
               | let E1 := fresh "F" in apply bind_ok in E; destruct E as [? [E1 E]]; first [ discriminate E1 | now apply sign_no_key in E1 | cbn in E1; injection E1 as <- | idtac ] ].

(** ** C97, the dlog scheme: every operation reports an error, whatever the other arguments are. *)
Theorem C97_dlog : forall C (H : hasher C) (T : translator C) (key : iface IssuerPublicKey) (skey : iface IssuerKey),
  no_key key -> no_key skey ->
  (forall sk rnd, brMakeNym T sk key rnd = Err) /\
  (forall c_req sk nonce rSk, brRequestSign H T c_req sk key nonce rSk = Err) /\
  (forall c_req raw nonce, brRequestVerify H T c_req raw key nonce = Err) /\
  (forall c_req c_cred req attrs e s, brCredSign H T c_req c_cred skey req attrs e s = Err) /\
  (forall c_cred sk cred attrs, brCredVerify H T c_cred sk key cred attrs = Err) /\
  (forall c_cred c_sig c_cri cred sk Nym RNym attrs msg rh eid cri R st meta,
     brSign H T c_cred c_sig c_cri cred sk Nym RNym key attrs msg rh eid cri R st meta = Err) /\
  (forall c_sig sig msg attrs rh eid revpk (pk : revpk) epoch vt meta,
     brVerify H T c_sig key sig msg attrs rh eid pk epoch vt meta = Err) /\
  (forall c_sig eid sig id r vt, brAuditNymEid H T c_sig key eid sig id r vt = Err) /\
  (forall c_sig rh sig h r vt, brAuditNymRh H T c_sig key rh sig h r vt = Err) /\
  (forall c_nsig sk Nym RNym msg n r1 r2, brNymSign H T c_nsig sk Nym RNym key msg n r1 r2 = Err) /\
  (forall c_nsig Nym sig msg, brNymVerify H T c_nsig key Nym sig msg = Err).
Proof.
  intros C H T key skey N N'. apply no_key_cases in N, N'.
  repeat split; intros; apply recover_err; intros x E;
    destruct N as [-> | ->]; destruct N' as [-> | ->];
    try (match type of E with context [match ?v with _ => _ end] => destruct v end); try no_key_step E.
  all: destruct sk, Nym, RNym; discriminate F.
Qed.
Print Assumptions C97_dlog.

(** With the key of the toy issuer the call succeeds: the theorem is about the key alone. *)
Example C97_dlog_example :
  no_key (@None (option IssuerPublicKey)) /\ no_key (Some (@None IssuerPublicKey)) /\ ~ no_key (Some (Some bipk)) /\
  is_ok (brMakeNym tT (Some (f7 : Zr tC)) (Some (Some bipk)) (f3 : Zr tC)) = true.
Proof. split; [intros k; discriminate|]. split; [intros k; discriminate|]. split; [intros N; now apply (N bipk)|]. vm_compute. reflexivity. Qed.

(** ** C97, the aries scheme: a nil interface or a key of another implementation is reported as an error by every operation but
    one, and no operation succeeds without a key. *)
Section Aries_calls.
  Variable C : Curve.
  Variable HG : bytes -> G1 C.
  Variable H : hasher C.
  Variable sha : bytes -> bytes.
  Variables (c_cred : codec ACredential) (c_sig : codec ASignature) (c_nsig : codec ANymSignature) (c_cri : codec ACRI).

  (** One call of the aries scheme, with all its arguments but the key. *)
  Inductive call : Type :=
  | CBases (ty rh eid sk : Z)
  | CMakeNym (skpos : Z) (sk rnd : Zr C)
  | CBlind (skpos : Z) (sk : Zr C) (nonce : bytes) (b : Zr C) (r : nat -> Zr C)
  | CBlindVerify (skpos : Z) (req nonce : bytes)
  | CCredVerify (sk : Zr C) (cred : bytes) (attrs : list attribute)
  | CNymSign (skpos : Z) (sk : Zr C) (Nym : G1 C) (RNym : Zr C) (msg : bytes) (n : Zr C) (r : nat -> Zr C)
  | CNymVerify (Nym : G1 C) (sig msg : bytes) (skpos : Z)
  | CSign (cred : bytes) (sk : Zr C) (Nym : G1 C) (RNym : Zr C) (attrs : list attribute) (msg : bytes) (rh eid : Z) (cri : bytes)
      (st : SignatureType) (meta : option (Metadata C)) (R : ASigRand C)
  | CVerify (sig msg : bytes) (attrs : list attribute) (rh eid skpos : Z) (vt : VerificationType) (meta : option (Metadata C))
  | CAuditNymEid (eid skpos : Z) (sig id : bytes) (r : Zr C) (vt : AuditType)
  | CAuditNymRh (rh skpos : Z) (sig h : bytes) (r : Zr C) (vt : AuditType)
  | CSmartcardVerify (Nym : G1 C) (sig msg : bytes).

  (** Its outcome, without the returned value. *)
  Definition outcome {A} (m : res A) : res unit := let* _ := m in Ok tt.
  Definition run (key : iface (AIssuerPublicKey C)) (x : call) : res unit :=
    match x with
    | CBases ty rh eid sk => outcome (arBases key ty rh eid sk)
    | CMakeNym skpos sk rnd => outcome (arMakeNym skpos sk key rnd)
    | CBlind skpos sk nonce b r => outcome (arBlind HG H skpos sk key nonce b r)
    | CBlindVerify skpos req nonce => arBlindVerify HG H skpos req key nonce
    | CCredVerify sk cred attrs => arCredVerify H c_cred sk key cred attrs
    | CNymSign skpos sk Nym RNym msg n r => outcome (arNymSign H c_nsig skpos sk Nym RNym key msg n r)
    | CNymVerify Nym sig msg skpos => arNymVerify H c_nsig key Nym sig msg skpos
    | CSign cred sk Nym RNym attrs msg rh eid cri st meta R =>
        outcome (arSign H c_cred c_sig c_cri cred sk Nym RNym key attrs msg rh eid cri st meta R)
    | CVerify sig msg attrs rh eid skpos vt meta => arVerify H c_sig key sig msg attrs rh eid skpos vt meta
    | CAuditNymEid eid skpos sig id r vt => arAuditNymEid H c_sig key eid skpos sig id r vt
    | CAuditNymRh rh skpos sig h r vt => arAuditNymRh H c_sig key rh skpos sig h r vt
    | CSmartcardVerify Nym sig msg => scBackendVerify sha key Nym sig msg
    end.
  (** Sign looks at the enrollment id and the revocation handle before the key, if the signature is to hide them. *)
  Definition checks_key (x : call) : Prop :=
    match x with
    | CSmartcardVerify _ _ _ => False
    | CSign _ _ _ _ attrs _ rh eid _ st _ _ =>
        st = Standard \/ ((0 <= eid < Z.of_nat (length attrs))%Z /\ (0 <= rh < Z.of_nat (length attrs))%Z)
    | _ => True
    end.
End Aries_calls.

Lemma hidden_np attrs i : (0 <= i < Z.of_nat (length attrs))%Z -> exists b, attr_hidden attrs i = Ok b.
Proof.
  intros B. unfold attr_hidden, znth. replace (i <? 0)%Z with false by lia. unfold nth_res.
  destruct (nth_error attrs (Z.to_nat i)) eqn:E; cbn; eauto. apply nth_error_None in E. lia.
Qed.

Theorem C97_aries_partial : forall C HG (H : hasher C) sha c_cred c_sig c_nsig c_cri,
  (forall x, checks_key x -> run HG H sha c_cred c_sig c_nsig c_cri None x = Err) /\
  (forall key x, no_key key -> run HG H sha c_cred c_sig c_nsig c_cri key x <> Ok tt) /\
  (forall skpos req attrs e s, arCredSign HG H c_cred skpos (None : iface (AIssuerSecretKey C)) req attrs e s = Err) /\
  (forall skpos (key : iface (AIssuerSecretKey C)) req attrs e s, no_key key -> forall cred, arCredSign HG H c_cred skpos key req attrs e s <> Ok cred) /\
  (forall digest seed xt rt, scBackendSign sha (None : iface (Card C)) digest seed xt rt = Err) /\
  (forall (card : iface (Card C)) digest seed xt rt, no_key card -> forall r, scBackendSign sha card digest seed xt rt <> Ok r).
Proof.
  intros. repeat split.
  - intros x K. destruct x; cbn in K |- *; try reflexivity; try contradiction.
    + unfold arBases, guard. now destruct (ty =? 1)%Z.
    + unfold arSign, outcome. destruct K as [-> | [K1 K2]]; [reflexivity|].
      apply hidden_np in K1, K2. destruct K1 as [b1 E1], K2 as [b2 E2]. unfold sign_arg_check. rewrite E1, E2.
      destruct st, b1, b2; reflexivity.
  - intros key x N E. apply no_key_cases in N. 
    assert (A : forall k, assert_ptr key <> Ok k) by (intros k; destruct N as [-> | ->]; discriminate).
    destruct x; cbn in E; unfold outcome, arBases, arMakeNym, arBlind, arBlindVerify, arCredVerify, arNymSign, arNymVerify, arSign, arVerify, arVerify_first, arAuditNymEid, arAuditNymRh, arAudit in E;
      try (now repeat (let F := fresh "F" in apply bind_ok in E; destruct E as [? [E F]]; try now apply A in E)).
    + apply bind_ok in E; destruct E as [? [E _]]. apply bind_ok in E; destruct E as [? [_ E]].
      apply bind_ok in E; destruct E as [? [E _]]. now apply A in E.
    + apply bind_ok in E; destruct E as [? [E _]]. apply bind_ok in E; destruct E as [? [_ E]].
      apply bind_ok in E; destruct E as [? [E _]]. now apply A in E.
    + destruct N as [-> | ->]; discriminate E.
  - intros skpos key req attrs e s N cred E. apply no_key_cases in N. destruct N as [-> | ->]; discriminate E.
  - intros card digest seed xt rt N r E. apply no_key_cases in N. destruct N as [-> | ->]; discriminate E.
Qed.
Print Assumptions C97_aries_partial.

(** Calls of every kind satisfy [checks_key], and the same calls get past the key check with the toy issuer's key. *)
Example C97_aries_example :
  checks_key (CVerify (str "sig") (str "m") xa_attrs 2 1 0 ExpectEidNym (None : option (Metadata toy32))) /\
  run hg32 h32 (fun b => b) xa_ccred xa_csig xa_cnsig xa_ccri xa_key (CVerify (xa_sig_with EidNym f16) (str "message") xa_attrs 2 1 0 ExpectEidNym None) = Ok tt /\
  run hg32 h32 (fun b => b) xa_ccred xa_csig xa_cnsig xa_ccri None (CVerify (xa_sig_with EidNym f16) (str "message") xa_attrs 2 1 0 ExpectEidNym None) = Err /\
  run hg32 h32 (fun b => b) xa_ccred xa_csig xa_cnsig xa_ccri xa_key (CBases _ 1 2 1 0) = Ok tt /\
  run hg32 h32 (fun b => b) xa_ccred xa_csig xa_cnsig xa_ccri None (CBases _ 1 2 1 0) = Err.
Proof. split; [exact I|]. repeat split; vm_compute; reflexivity. Qed.

(** ** C97 is false of the code: the smartcard backend's Verify asserts the type of the key without checking, and panics on every
    nil interface and every key of another implementation, whatever the signature and the message are. *)
Theorem C97_smartcard_refuted : forall C (sha : bytes -> bytes) (key : iface (AIssuerPublicKey C)) Nym sig msg,
  no_key key -> scBackendVerify sha key Nym sig msg = Panic.
Proof. intros. apply no_key_cases in H. now destruct H as [-> | ->]. Qed.
Print Assumptions C97_smartcard_refuted.

(** And Sign, asked to hide an enrollment id that is not among the attributes, panics before it has looked at the key. *)
Theorem C97_sign_refuted : forall C (H : hasher C) c_cred c_sig c_cri cred sk Nym RNym (key : iface (AIssuerPublicKey C)) attrs msg rh eid cri meta R,
  ~ (0 <= eid < Z.of_nat (length attrs))%Z ->
  arSign H c_cred c_sig c_cri cred sk Nym RNym key attrs msg rh eid cri EidNym meta R = Panic.
Proof.
  intros * B. unfold arSign, sign_arg_check, attr_hidden, znth.
  destruct (Z.ltb_spec eid 0); [reflexivity|]. unfold nth_res.
  rewrite (proj2 (nth_error_None attrs (Z.to_nat eid))) by lia. reflexivity.
Qed.
Print Assumptions C97_sign_refuted.
