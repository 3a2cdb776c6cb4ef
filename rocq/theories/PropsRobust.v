(** * Malformed identities and signatures (C88)

    [DeserializeIdentity CD X M l m raw] reads the bytes [raw] at the MSP [m], which is object [l] of the heap. *)
From Verif Require Import Base Curve Algebra Spec Bbs BbsSpec BbsFacts Aries AriesSpec AriesNym Dlog DlogSpec DlogTop Bridge BridgeFacts
  Translator PropsDlog PropsAries PropsBridge Csp CspInst CspSpec CspFacts PropsCsp RunSpec RunFacts Msp MspId MspSpec MspFacts PropsMsp PropsMspSound
  Toy ToyBbs ToyDlog ToyCodec ToyAries ToyCsp ToyMsp.
Unset Strict Implicit.

(** What is called with an identity read from bytes does not panic. *)
Definition survives U CD (h : heap U) (l : nat) (i : identity U) : Prop :=
  Validate h l (IdPlain i) <> Panic /\ (forall p, SatisfiesPrincipal CD h l (IdPlain i) (Some p) <> Panic) /\
  (forall msg sig, id_Verify h i msg sig <> Panic) /\ Serialize CD h i <> Panic.

(** ** Any scheme *)
Section Any.
  Variable U : universe.
  Variable CD : codecs.
  Variable X : scheme U.
  Variable M : mathops U.

  Lemma deserialize_kind l (m : msp U) raw i : DeserializeIdentity CD X M l m raw = Ok i -> (exists ipk r, ready X M m ipk r) -> i_msp i = l /\ exists nym, i_nym i = KNymPublic nym.
  Proof.
    intros D (ipk & r & [[c [Hc N]] _]). destruct (C52_deserialize D) as [Q _]. split; [exact Q|]. unfold DeserializeIdentity in D.
    destruct (dec (c_si CD) raw) as [s|]; [|discriminate D]. cbn [opt_err bind] in D.
    apply bind_ok in D. destruct D as [u [_ D]]. unfold DeserializeIdentityInternal in D.
    destruct (dec (c_ii CD) (si_bytes s)) as [ii|]; [|discriminate D]. cbn [opt_err bind] in D.
    destruct (ii_nymx ii) as [x|]; [|discriminate D]. destruct (ii_nymy ii) as [y|]; [|discriminate D].
    rewrite Hc in D. cbn [deref bind] in D. rewrite (import_nym (x ++ y) N) in D. clear N.
    destruct (raw_bytes (RBytes (x ++ y))) as [b| |]; [|discriminate D|discriminate D]. cbn [ibind] in D.
    destruct (match s_publicNymFromBytes X b with Err => s_publicNymFromBytes X (Byte.x04 :: b) | z => z end) as [pk| |]; [|discriminate D|discriminate D].
    cbn [plain ibind res_of bind] in D.
    apply bind_ok in D. destruct D as [ou [_ D]]. apply bind_ok in D. destruct D as [role [_ D]].
    unfold newIdemixIdentity in D. cbn [key_bytes] in D. injection D as <-. exists pk. reflexivity.
  Qed.
  Lemma deserialize_no_panic l (m : msp U) ipk r raw : ready X M m ipk r -> (forall b, s_publicNymFromBytes X b <> Panic) -> DeserializeIdentity CD X M l m raw <> Panic.
  Proof.
    intros [[c [Hc N]] _] NP. unfold DeserializeIdentity.
    destruct (dec (c_si CD) raw) as [s|]; [|discriminate]. cbn [opt_err bind].
    destruct (guard (bytes_eqb (si_mspid s) (p_name m))) eqn:G; [|discriminate|destruct (guard_no_panic G)]. cbn [bind]. clear G.
    unfold DeserializeIdentityInternal.
    destruct (dec (c_ii CD) (si_bytes s)) as [ii|]; [|discriminate]. cbn [opt_err bind].
    destruct (ii_nymx ii) as [x|]; [|discriminate]. destruct (ii_nymy ii) as [y|]; [|discriminate].
    rewrite Hc. cbn [deref bind]. rewrite (import_nym (x ++ y) N). clear N.
    destruct (x ++ y) as [|z0 zs]; [cbn; discriminate|]. cbn [raw_bytes ibind]. set (b := z0 :: zs).
    destruct (match s_publicNymFromBytes X b with Err => s_publicNymFromBytes X (Byte.x04 :: b) | z => z end) as [pk| |] eqn:E; [|cbn; discriminate|].
    - cbn [plain ibind res_of bind]. destruct (dec (c_ou CD) _); [|discriminate]. cbn [opt_err bind]. destruct (dec (c_role CD) _); [|discriminate]. cbn. discriminate.
    - exfalso. pose proof (NP b) as N1. pose proof (NP (Byte.x04 :: b)) as N2. destruct (s_publicNymFromBytes X b); congruence.
  Qed.
  Lemma validate_panic h l m ipk r (i : identity U) : nth_error h l = Some m -> ready X M m ipk r -> i_msp i = l ->
    (Validate h l (IdPlain i) = Panic <->
     i_proof i <> [] /\ s_verify X ipk (i_proof i) [] (claims (ou_id (i_ou i)) (ro_role (i_role i))) 3 2 0 (Some r) 0 Basic None = Panic).
  Proof.
    intros L [[c [Hc N]] [Hk Hr]] I. unfold Validate, GetMSPIdentifier. rewrite L. cbn [deref bind]. rewrite I, L. cbn [deref bind]. rewrite bytes_eqb_refl. cbn [guard bind].
    unfold verifyProof. rewrite Hc, Hk. cbn [deref bind].
    pose proof (@C44_panics U X M true c (Some (KIssuerPublic ipk)) (i_proof i) [] (Some (SSigner (verify_opts m i))) N) as P.
    destruct (@C44_verdict_partial U X M true c (Some (KIssuerPublic ipk)) (i_proof i) [] (Some (SSigner (verify_opts m i))) N) as [T _]. clear N.
    assert (A : csp_Verify c (Some (KIssuerPublic ipk)) (i_proof i) [] (Some (SSigner (verify_opts m i))) = VPanic <->
      i_proof i <> [] /\ s_verify X ipk (i_proof i) [] (claims (ou_id (i_ou i)) (ro_role (i_role i))) 3 2 0 (Some r) 0 Basic None = Panic).
    { rewrite P. split.
      - intros (k' & o' & K & O & S & D). injection K as <-. injection O as <-. split; [exact S|].
        destruct D as [D|[(? & ? & ? & _ & D & _)|(? & ? & ? & ? & _ & D & _)]]; [|discriminate D|discriminate D].
        cbn [deciding so_revpk verify_opts] in D. rewrite Hr in D. injection D as D. exact D.
      - intros [S D]. exists (KIssuerPublic ipk), (SSigner (verify_opts m i)). repeat split; [exact S|]. left.
        cbn [deciding so_revpk verify_opts]. rewrite Hr. f_equal. exact D. }
    rewrite <- A. destruct T as [T|[T|T]]; rewrite T; cbn; split; intros F; try reflexivity; discriminate F.
  Qed.
  Lemma satisfies_panic h l m (i : identity U) p : nth_error h l = Some m -> i_msp i = l ->
    (SatisfiesPrincipal CD h l (IdPlain i) (Some p) = Panic <-> Validate h l (IdPlain i) = Panic).
  Proof.
    intros L I. split.
    - intro S. destruct (Validate h l (IdPlain i)) as [[]| |] eqn:V; [|unfold SatisfiesPrincipal in S; rewrite V in S; discriminate S|reflexivity].
      destruct (C50_no_panic V S).
    - intro V. unfold SatisfiesPrincipal. rewrite V. reflexivity.
  Qed.
End Any.

(** ** The dlog scheme *)
(** Whatever bytes are read as an identity, an MSP that has been set up returns the identity or an error; and
    validating the identity, asking for a principal and verifying any signature bytes for it return as well. *)
Theorem C88_dlog : forall CD C (H : hasher C) (T : translator C) c_ipk c_ik c_req c_cred c_sig c_nsig c_cri EC (EE : ecenv EC) sha256
    (h : heap (dlogU C EC)) l m ipk r (raw : bytes),
  let X := dlog_scheme H T c_ipk c_ik c_req c_cred c_sig c_nsig c_cri EE sha256 in
  let M := dlog_math T EE sha256 in
  nth_error h l = Some m -> ready X M m ipk r ->
  DeserializeIdentity CD X M l m raw <> Panic /\
  forall i, DeserializeIdentity CD X M l m raw = Ok i -> survives CD h l i.
Proof.
  intros CD C H T c_ipk c_ik c_req c_cred c_sig c_nsig c_cri EC EE sha256 h l m ipk r raw X M L R. split.
  - refine (deserialize_no_panic R _). intro b. exact (@recover_no_panic _ _).
  - intros i D. destruct (deserialize_kind D (ex_intro _ ipk (ex_intro _ r R))) as [I [nym N]].
    assert (V : Validate h l (IdPlain i) <> Panic).
    { intro V. apply (validate_panic L R I) in V. destruct V as [_ V]. exact (recover_no_panic V). }
    split; [exact V|]. split; [intros p S; apply V, (satisfies_panic CD p L I), S|]. split.
    + intros msg sig. rewrite (@id_verify_ready _ X M h m _ r i nym msg sig ltac:(rewrite I; exact L) R N). clear R.
      destruct (length sig =? 0); [discriminate|]. exact (@recover_no_panic _ _).
    + apply serialize_no_panic. rewrite I, L. discriminate.
Qed.
Print Assumptions C88_dlog.

(** ** The aries scheme *)
(** Full claim: as for dlog.  Proved: reading any bytes, verifying any signature bytes for the identity read and
    serializing it do not panic; validating it and asking for a principal panic exactly when the verification of
    the association proof inside it does.  Missing, because false: that this verification never does. *)
Theorem C88_aries_partial : forall CD C (OK : CurveOk C) (HG : bytes -> G1 C) (H : hasher C) hkdf c_cred c_sig c_nsig c_cri EC (EE : ecenv EC) sha256
    (h : heap (ariesU C EC)) l m (pk : G2 C) r (raw : bytes),
  let X := aries_scheme HG H hkdf c_cred c_sig c_nsig c_cri EE sha256 in
  let M := aries_math (Gurvy C) EE sha256 in
  let key := Some (Some (issuer_key HG pk 4)) in
  bls_sizes C -> nth_error h l = Some m -> ready X M m (key : u_ipk (ariesU C EC)) r ->
  DeserializeIdentity CD X M l m raw <> Panic /\
  forall i, DeserializeIdentity CD X M l m raw = Ok i ->
    (forall msg sig, id_Verify h i msg sig <> Panic) /\ Serialize CD h i <> Panic /\
    (Validate h l (IdPlain i) = Panic <->
     i_proof i <> [] /\ arVerify H c_sig key (i_proof i) [] (claims (ou_id (i_ou i)) (ro_role (i_role i))) 3 2 0 Basic None = Panic) /\
    (forall p, SatisfiesPrincipal CD h l (IdPlain i) (Some p) = Panic <-> Validate h l (IdPlain i) = Panic).
Proof.
  intros CD C OK HG H hkdf c_cred c_sig c_nsig c_cri EC EE sha256 h l m pk r raw X M key BS L R. split.
  - refine (deserialize_no_panic R _). intro b. cbn [s_publicNymFromBytes X aries_scheme]. unfold arPublicNymFromBytes.
    apply bind_no_panic; [apply guard_no_panic|]. intros _ _. apply opt_err_no_panic.
  - intros i D. destruct (deserialize_kind D (ex_intro _ _ (ex_intro _ r R))) as [I [nym N]].
    split.
    { intros msg sig. rewrite (@id_verify_ready _ X M h m _ r i nym msg sig ltac:(rewrite I; exact L) R N). clear R.
      destruct (length sig =? 0); [discriminate|]. exact (@C39_nym_verify_no_panic C OK HG H c_nsig BS pk 4 0 nym sig msg (Nat.le_0_l 4)). }
    split; [apply serialize_no_panic; rewrite I, L; discriminate|]. split.
    + exact (validate_panic L R I).
    + intro p. exact (satisfies_panic CD p L I).
Qed.
Print Assumptions C88_aries_partial.

Lemma panic_nonempty C (H : hasher C) (c_sig : codec ASignature) k raw msg attrs rh eid i v m : nothing_is no_asignature c_sig ->
  arVerify H c_sig (Some (Some k)) raw msg attrs rh eid i v m = Panic -> raw <> [].
Proof.
  intros Z E ->. unfold arVerify, arVerify_first in E. cbn [assert_ptr bind] in E.
  destruct (dec c_sig []) as [sg|] eqn:D; [|discriminate E]. rewrite (Z _ D) in E. discriminate E.
Qed.
(** One byte string is an association proof that makes every such MSP panic: for every pseudonym, organizational
    unit and role there is a serialized identity that any peer can send, that the MSP deserializes, and with which
    Validate and every SatisfiesPrincipal panic. *)
Theorem C88_aries_refuted : forall C (OK : CurveOk C) (HG : bytes -> G1 C) (c_sig : codec ASignature),
  bls_sizes C -> 2 <= g1_size C -> codec_ok canon_asig c_sig -> nothing_is no_asignature c_sig ->
  exists proof, forall CD utf8 (H : hasher C) hkdf c_cred c_nsig c_cri EC (EE : ecenv EC) sha256 (h : heap (ariesU C EC)) l m (pk : G2 C) r
      (Nym : G1 C) (ou : ou_msg) (role : role_msg),
    let X := aries_scheme HG H hkdf c_cred c_sig c_nsig c_cri EE sha256 in
    let M := aries_math (Gurvy C) EE sha256 in
    codecs_ok utf8 CD -> nth_error h l = Some m -> ready X M m (Some (Some (issuer_key HG pk 4)) : u_ipk (ariesU C EC)) r ->
    utf8 (p_name m) -> utf8 (ou_mspid ou) -> utf8 (ou_id ou) -> utf8 (ro_mspid role) -> int32 (ro_role role) ->
    exists raw i, DeserializeIdentity CD X M l m raw = Ok i /\ i_nym i = KNymPublic (Nym : u_g1 (ariesU C EC)) /\ i_ou i = ou /\ i_role i = role /\ i_proof i = proof /\
      Validate h l (IdPlain i) = Panic /\ forall p, SatisfiesPrincipal CD h l (IdPlain i) (Some p) = Panic.
Proof.
  intros C OK HG c_sig BS L2 CS ZS. destruct (@C39_refuted C OK HG c_sig 4 BS CS ltac:(lia)) as [F _]. destruct (F Basic) as (proof & P). clear F. exists proof.
  intros CD utf8 H hkdf c_cred c_nsig c_cri EC EE sha256 h l m pk r Nym ou role X M CO L R U1 U2 U3 U4 U5.
  set (i := {| i_nym := KNymPublic (Nym : u_g1 (ariesU C EC)); i_raw := ex (m_g1ToProto M Nym) ++ ey (m_g1ToProto M Nym); i_msp := l; i_id := p_name m;
               i_role := role; i_ou := ou; i_proof := proof |}).
  destruct (@C53_aries CD utf8 C OK HG H hkdf c_cred c_sig c_nsig c_cri EC EE sha256 h l m _ r i Nym CO L R eq_refl eq_refl eq_refl) as (raw & _ & D).
  - change (i_raw i) with (firstn (length (g1_bytes C Nym) / 2) (g1_bytes C Nym) ++ skipn (length (g1_bytes C Nym) / 2) (g1_bytes C Nym)).
    rewrite firstn_skipn, (ok_g1_len OK). exact L2.
  - do 4 (split; [assumption|]). assumption.
  - exists raw, i. split; [exact D|]. do 4 (split; [reflexivity|]).
    assert (V : Validate h l (IdPlain i) = Panic).
    { assert (Q : arVerify H c_sig (Some (Some (issuer_key HG pk 4))) proof [] (claims (ou_id ou) (ro_role role)) 3 2 0 Basic None = Panic).
      { apply P. eexists. reflexivity. }
      apply (@validate_panic _ X M h l m _ r i L R eq_refl). split; [exact (panic_nonempty ZS Q)|exact Q]. }
    split; [exact V|]. intro p. apply (@satisfies_panic _ CD h l m i p L eq_refl). exact V.
Qed.
Print Assumptions C88_aries_refuted.

(** the MSPs of the examples: the dlog one reads an identity and refuses other bytes, the aries one is set up *)
Example C88_dlog_example : (exists r, ready xX xM m1 mbipk r) /\ nth_error mheap 0 = Some m1 /\
  match Serialize mCD mheap mid with
  | Ok b => (is_ok (DeserializeIdentity mCD xX xM 0 m1 b) && negb (is_ok (DeserializeIdentity mCD xX xM 0 m1 (firstn 9 b))))%bool
  | _ => false
  end = true.
Proof. split; [exact toy_ready_key|]. split; [reflexivity|]. vm_compute. reflexivity. Qed.
Example C88_aries_example : bls_sizes toy32 /\ 2 <= g1_size toy32 /\ codec_ok canon_asig xa_csig /\ nothing_is no_asignature xa_csig /\ codecs_ok (fun _ => True) mCD /\
  ready yX yM nmsp (nkey : u_ipk yU) (str "k" : u_epk yU).
Proof.
  split; [exact toy32_sizes|]. split; [vm_compute; lia|]. split; [exact xa_csig_ok|]. split; [intros x D; discriminate D|]. split; [exact mCD_ok|]. exact nmsp_ready.
Qed.
