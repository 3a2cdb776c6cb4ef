(** Properties of the MSP: principals (C50), identities (C51 - C53), roles (C54) and Setup (C55, C63, C64). *)
From Verif Require Import Base Curve Algebra Spec Bbs Aries ToyBbs ToyAries Dlog DlogSpec DlogComplete DlogAudit Bridge BridgeFacts Translator TranslatorFacts Toy ToyDlog ToyCodec PropsBridge
  Csp CspInst CspSpec CspFacts PropsCsp ToyCsp RunSpec RunFacts Msp MspSpec MspFacts ToyMsp.
Unset Strict Implicit.

Lemma toy_conf : dec (c_conf mCD) (mraw (mconf (Some msigner))) = Some (mconf (Some msigner)).
Proof. exact (tcodec_dec s_conf_ok (mconf (Some msigner))). Qed.
Lemma toy_curve : curve_id mE (cf_curve (mconf (Some msigner))) = Some FP256BN_AMCL.
Proof. vm_compute. reflexivity. Qed.
Lemma toy_pack : ev_pack mE FP256BN_AMCL = Some (xX, xM).
Proof. unfold mE. cbn [ev_pack]. rewrite bytes_eqb_refl. reflexivity. Qed.
Lemma toy_setup : setup_at mCD mE 0 m0 xdraw xdraw (Some (IDEMIX, mraw (mconf (Some msigner)))) = (Ok tt, m1).
Proof. change (mset = (Ok tt, m1)). exact mset_eq. Qed.
Lemma toy_ready : exists ipk r, ready xX xM m1 ipk r.
Proof.
  destruct (@setup_ready xU mCD mE 0 m0 xdraw xdraw IDEMIX (mraw (mconf (Some msigner))) (mconf (Some msigner)) FP256BN_AMCL xX xM m1 toy_setup toy_conf toy_curve toy_pack) as (ipk & r & R & _).
  exists ipk, r. exact R.
Qed.
Lemma toy_found : nth_error mheap 0 = Some m1.
Proof. reflexivity. Qed.

(** ** C50: an identity satisfies a principal exactly if it is valid and the principal, unfolded
    through any nesting of combined principals, holds of it under the name and version of the MSP. *)
(** for identities of type Idemixidentity *)
Theorem C50_partial : forall U CD (h : heap U) l m i p,
  nested_shorter CD -> nth_error h l = Some m ->
  (SatisfiesPrincipal CD h l (IdPlain i) (Some p) = Ok tt <->
   Validate h l (IdPlain i) = Ok tt /\
   holds CD (p_name m) (p_version m) (ro_role (i_role i)) (ou_id (i_ou i)) (res_opt (Serialize CD h i)) p).
Proof.
  intros U CD h l m i p NS L. unfold SatisfiesPrincipal. rewrite L. cbn [deref bind].
  destruct (Validate h l (IdPlain i)) as [[]| |] eqn:V; cbn [bind].
  - split; [intros S; split; [reflexivity|exact (sat_sound (id := IdPlain i) eq_refl S)]|].
    intros [_ Hp]. exact (sat_complete NS (Nat.le_refl _) Hp).
  - split; [discriminate|intros [F _]; discriminate F].
  - split; [discriminate|intros [F _]; discriminate F].
Qed.
Print Assumptions C50_partial.
(** for all identities: acceptance is sound *)
Theorem C50_sound : forall U CD (h : heap U) l m id p,
  nth_error h l = Some m -> SatisfiesPrincipal CD h l id p = Ok tt ->
  exists i p', identity_of id = Some i /\ p = Some p' /\ Validate h l id = Ok tt /\
    holds CD (p_name m) (p_version m) (ro_role (i_role i)) (ou_id (i_ou i)) (res_opt (Serialize CD h i)) p'.
Proof.
  intros U CD h l m id p L S. unfold SatisfiesPrincipal in S. rewrite L in S. cbn [deref bind] in S.
  apply bind_ok in S. destruct S as [[] [V S]]. apply bind_ok in S. destruct S as [p' [P S]].
  assert (I : exists i, identity_of id = Some i).
  { destruct id as [i|s|]; [exists i; reflexivity|exists (g_identity s); reflexivity|].
    unfold Validate in V. rewrite L in V. discriminate V. }
  destruct I as [i I]. exists i, p'. split; [exact I|]. split; [destruct p; [injection P as ->; reflexivity|discriminate P]|].
  split; [exact V|exact (sat_sound I S)].
Qed.
Print Assumptions C50_sound.
(** evaluating any principal on a valid Idemixidentity ends with a verdict, not with a panic *)
Theorem C50_no_panic : forall U CD (h : heap U) l i p,
  Validate h l (IdPlain i) = Ok tt -> SatisfiesPrincipal CD h l (IdPlain i) (Some p) <> Panic.
Proof.
  intros U CD h l i p V. unfold SatisfiesPrincipal. rewrite V. cbn [bind].
  unfold Validate in V. destruct (nth_error h l) as [m|] eqn:L; [|discriminate V]. cbn [deref bind] in V |- *.
  apply sat_no_panic. intros F. unfold GetMSPIdentifier in V. rewrite F in V. discriminate V.
Qed.
Print Assumptions C50_no_panic.
(** The full statement fails for the other identity type: asking whether the signer's own
    IdemixSigningIdentity has role ADMIN, or is in an organizational unit, panics, whatever the answer. *)
Theorem C50_refuted : forall U CD (h : heap U) l m s p,
  nth_error h l = Some m -> Validate h l (IdSigning s) = Ok tt ->
  (pr_class p = P_ROLE /\ (exists r, dec (c_role CD) (pr_bytes p) = Some r /\ ro_mspid r = p_name m /\ ro_role r = MSPRole_ADMIN)) \/
  (pr_class p = P_ORGANIZATION_UNIT /\ (exists o, dec (c_ou CD) (pr_bytes p) = Some o /\ ou_mspid o = p_name m)) ->
  SatisfiesPrincipal CD h l (IdSigning s) (Some p) = Panic.
Proof.
  intros U CD h l m s p L V Hp. unfold SatisfiesPrincipal. rewrite V. cbn [bind]. rewrite L. cbn [deref bind].
  destruct Hp as [[C [r [D [N R]]]]|[C [o [D N]]]]; destruct (length (pr_bytes p)); cbn [satisfiesPrincipalValidated]; rewrite C;
    cbn [P_ROLE P_ORGANIZATION_UNIT P_IDENTITY Z.eqb Pos.eqb]; rewrite D; cbn [opt_err bind]; rewrite N, bytes_eqb_refl; cbn [guard bind]; try rewrite R; reflexivity.
Qed.
Print Assumptions C50_refuted.

(** a member of Org1MSP that is admin of "ou", and a policy: (ADMIN and (OU "ou" and anonymous)) *)
Definition padmin : principal := {| pr_class := P_ROLE; pr_bytes := ser s_role {| ro_mspid := mname; ro_role := MSPRole_ADMIN |} |}.
Definition pou (b : bytes) : principal := {| pr_class := P_ORGANIZATION_UNIT; pr_bytes := ser s_ou {| ou_mspid := mname; ou_id := b; ou_certifiers := [] |} |}.
Definition panon : principal := {| pr_class := P_ANONYMITY; pr_bytes := ser s_Z ANONYMOUS |}.
Definition pall (ps : list principal) : principal := {| pr_class := P_COMBINED; pr_bytes := ser (s_list s_principal) ps |}.
Example C50_example : nested_shorter mCD /\ nth_error mheap 0 = Some m1 /\
  SatisfiesPrincipal mCD mheap 0 (IdPlain mid) (Some (pall [padmin; pall [pou (str "ou"); panon]])) = Ok tt /\
  SatisfiesPrincipal mCD mheap 0 (IdPlain mid) (Some (pall [padmin; pall [pou (str "other"); panon]])) = Err /\
  SatisfiesPrincipal mCD mheap 0 (IdSigning msig) (Some padmin) = Panic.
Proof. split; [exact mCD_shorter|]. split; [exact toy_found|]. repeat split; vm_compute; reflexivity. Qed.

(** ** C51: the association proof and the pseudonym of an identity *)
(** Validate accepts exactly if the proof verifies, for the claimed organizational unit and role,
    under the keys of the MSP the identity points to: the pseudonym is not looked at. *)
Theorem C51_partial : forall U (h : heap U) l m m' X M ipk r i,
  nth_error h l = Some m -> nth_error h (i_msp i) = Some m' -> ready X M m' ipk r ->
  (Validate h l (IdPlain i) = Ok tt <->
   p_name m' = p_name m /\ i_proof i <> [] /\
   s_verify X ipk (i_proof i) [] (claims (ou_id (i_ou i)) (ro_role (i_role i))) 3 2 0 (Some r) 0 Basic None = Ok tt).
Proof.
  intros U h l m m' X M ipk r i L L' R. unfold Validate, GetMSPIdentifier. rewrite L. cbn [deref bind]. rewrite L'. cbn [deref bind].
  destruct (bytes_eqb (p_name m') (p_name m)) eqn:B; cbn [guard bind].
  - rewrite (verifyProof_ready i R). apply bytes_eqb_eq in B. rewrite B. tauto.
  - split; [discriminate|]. intros [F _]. rewrite F, bytes_eqb_refl in B. discriminate B.
Qed.
Print Assumptions C51_partial.
Theorem C51_refuted : forall U (h : heap U) l i nym raw,
  Validate h l (IdPlain (with_nym i nym raw)) = Validate h l (IdPlain i).
Proof. reflexivity. Qed.
Print Assumptions C51_refuted.

Example C51_example : (exists ipk r, ready xX xM m1 ipk r) /\ nth_error mheap (i_msp mid) = Some m1 /\ Validate mheap 0 (IdPlain mid) = Ok tt /\
  Validate mheap 0 (IdPlain (with_nym mid (KNymPublic (f7 : u_g1 xU)) [])) = Ok tt /\
  Validate mheap 0 (IdPlain {| i_nym := i_nym mid; i_raw := i_raw mid; i_msp := 0; i_id := mname; i_role := {| ro_mspid := mname; ro_role := MSPRole_MEMBER |};
                               i_ou := i_ou mid; i_proof := i_proof mid |}) = Err.
Proof. split; [exact toy_ready|]. repeat split; vm_compute; reflexivity. Qed.

(** ** C52: identities of other MSPs *)
(** DeserializeIdentity of an MSP refuses other MSP identifiers; the identity it returns points to
    this MSP, so that Validate judges it by the keys of this MSP. *)
Theorem C52_deserialize : forall U CD X M l (m : msp U) raw i,
  DeserializeIdentity CD X M l m raw = Ok i ->
  i_msp i = l /\ i_id i = p_name m /\ exists s, dec (c_si CD) raw = Some s /\ si_mspid s = p_name m.
Proof.
  intros U CD X M l m raw i D. unfold DeserializeIdentity in D.
  destruct (dec (c_si CD) raw) as [s|]; [|discriminate D]. cbn [opt_err bind] in D.
  apply bind_ok in D. destruct D as [u [G D]]. apply guard_ok in G. apply bytes_eqb_eq in G.
  unfold DeserializeIdentityInternal in D. destruct (dec (c_ii CD) (si_bytes s)) as [ii|]; [|discriminate D]. cbn [opt_err bind] in D.
  destruct (ii_nymx ii) as [x|]; [|discriminate D]. destruct (ii_nymy ii) as [y|]; [|discriminate D].
  apply bind_ok in D. destruct D as [c [_ D]]. apply bind_ok in D. destruct D as [nym [_ D]].
  apply bind_ok in D. destruct D as [ou [_ D]]. apply bind_ok in D. destruct D as [role [_ D]].
  unfold newIdemixIdentity in D. destruct (key_bytes X M nym); [|discriminate D|discriminate D]. injection D as <-.
  split; [reflexivity|]. split; [reflexivity|]. exists s. split; [reflexivity|exact G].
Qed.
Print Assumptions C52_deserialize.
Theorem C52_judged_partial : forall U CD (h : heap U) l m X M ipk r raw i,
  nth_error h l = Some m -> ready X M m ipk r -> DeserializeIdentity CD X M l m raw = Ok i ->
  (Validate h l (IdPlain i) = Ok tt <->
   i_proof i <> [] /\ s_verify X ipk (i_proof i) [] (claims (ou_id (i_ou i)) (ro_role (i_role i))) 3 2 0 (Some r) 0 Basic None = Ok tt).
Proof.
  intros U CD h l m X M ipk r raw i L R D. destruct (C52_deserialize D) as [Q _].
  assert (L' : nth_error h (i_msp i) = Some m) by (rewrite Q; exact L).
  rewrite (C51_partial L L' R). tauto.
Qed.
Print Assumptions C52_judged_partial.
(** an identity whose MSP has another name is refused *)
Theorem C52_name : forall U (h : heap U) l m m' id i,
  nth_error h l = Some m -> identity_of id = Some i -> nth_error h (i_msp i) = Some m' -> p_name m' <> p_name m -> Validate h l id = Err.
Proof.
  intros U h l m m' id i L I L' N. unfold Validate. rewrite L. cbn [deref bind].
  destruct id as [i0|s|]; [injection I as ->|injection I as <-|discriminate I]; cbn [bind]; unfold GetMSPIdentifier; rewrite L'; cbn [deref bind];
    destruct (bytes_eqb (p_name m') (p_name m)) eqn:B; [apply bytes_eqb_eq in B; contradiction|reflexivity|apply bytes_eqb_eq in B; contradiction|reflexivity].
Qed.
Print Assumptions C52_name.
(** The full statement fails: an identity object made by another MSP object of the same name is judged
    by the keys of that object; those of the MSP on which Validate is called have no influence. *)
Theorem C52_refuted : forall U (h : heap U) l m i ipk revpk,
  nth_error h l = Some m -> i_msp i <> l ->
  Validate (put h l (set_revpk (set_ipk m ipk) revpk)) l (IdPlain i) = Validate h l (IdPlain i).
Proof.
  intros U h l m i ipk revpk L N. unfold Validate, GetMSPIdentifier.
  rewrite (put_same _ L), L. cbn [deref bind]. rewrite (put_other _ _ N). reflexivity.
Qed.
Print Assumptions C52_refuted.

(** two MSP objects called Org1MSP: one trusts the issuer of [mid], the other another issuer *)
Definition m2key : IssuerPublicKey :=
  {| ip_names := ip_names bipk; ip_hsk := ip_hrand bipk; ip_hrand := ip_hsk bipk; ip_hattrs := ip_hattrs bipk; ip_w := ip_w bipk;
     ip_barg1 := ip_barg1 bipk; ip_barg2 := ip_barg2 bipk; ip_c := ip_c bipk; ip_s := ip_s bipk; ip_hash := ip_hash bipk |}.
Definition m2 : msp xU := set_ipk m1 (KIssuerPublic (Some (Some m2key) : u_ipk xU)).
Example C52_example : nth_error [m1; m2] 1 = Some m2 /\ i_msp mid <> 1 /\ p_name m2 = p_name m1 /\
  Validate [m1; m2] 1 (IdPlain mid) = Ok tt /\ verifyProof m2 mid = Err /\
  Validate [m1; set_name m1 (str "Org2MSP")] 1 (IdPlain mid) = Err /\
  is_ok (let* b := Serialize mCD mheap mid in DeserializeIdentity mCD xX xM 0 m1 b) = true.
Proof. split; [reflexivity|]. split; [vm_compute; discriminate|]. split; [vm_compute; reflexivity|]. split; [vm_compute; reflexivity|].
  split; [vm_compute; reflexivity|]. split; vm_compute; reflexivity. Qed.

(** ** C53: serialization of identities *)
(** [c] reads back the pseudonym keys it exports *)
Definition nym_round_trip U (X : scheme U) (M : mathops U) : Prop :=
  forall c pk, New X M false true = Ok c ->
    import c (ex (m_g1ToProto M pk) ++ ey (m_g1ToProto M pk)) (INymPk true) = IOk (KNymPublic pk).
Definition printable (utf8 : bytes -> Prop) U (m : msp U) (i : identity U) : Prop :=
  utf8 (p_name m) /\ utf8 (ou_mspid (i_ou i)) /\ utf8 (ou_id (i_ou i)) /\ utf8 (ro_mspid (i_role i)) /\ int32 (ro_role (i_role i)).

Lemma halves (b : bytes) : 2 <= length b -> firstn (Nat.div2 (length b)) b <> [] /\ skipn (Nat.div2 (length b)) b <> [].
Proof.
  intros L. assert (H : 0 < Nat.div2 (length b) < length b).
  { destruct (length b) as [|[|n]]; [lia|lia|]. cbn. pose proof (Nat.div2_decr n n). lia. }
  split; intros F; apply (f_equal (@length byte)) in F; rewrite ?firstn_length, ?skipn_length in F; cbn in F; lia.
Qed.

Lemma serialize_round_trip U CD utf8 (h : heap U) l m X M ipk r i pk :
  codecs_ok utf8 CD -> nym_round_trip X M -> nth_error h l = Some m -> ready X M m ipk r ->
  i_msp i = l -> i_nym i = KNymPublic pk -> key_bytes X M (i_nym i) = Ok (i_raw i) -> 2 <= length (i_raw i) -> printable utf8 m i ->
  exists b, Serialize CD h i = Ok b /\
    DeserializeIdentity CD X M l m b = Ok {| i_nym := i_nym i; i_raw := i_raw i; i_msp := l; i_id := p_name m; i_role := i_role i; i_ou := i_ou i; i_proof := i_proof i |}.
Proof.
  intros CO RT L [[c [Hc N]] _] IM IN KB LN (U1 & U2 & U3 & U4 & U5).
  destruct (halves LN) as [H1 H2].
  destruct (ok_ou CO U2 U3) as [ob [O1 O2]]. destruct (ok_role CO U4 U5) as [rb [R1 R2]].
  set (half := Nat.div2 (length (i_raw i))) in *.
  destruct (@ok_ii _ _ CO {| ii_nymx := Some (firstn half (i_raw i)); ii_nymy := Some (skipn half (i_raw i)); ii_ou := ob; ii_role := rb; ii_proof := i_proof i |}) as [ib [I1 I2]].
  { intros b [= <-]. exact H1. } { intros b [= <-]. exact H2. }
  destruct (@ok_si _ _ CO {| si_mspid := p_name m; si_bytes := ib |} U1) as [b [S1 S2]].
  exists b. split.
  - unfold Serialize, GetMSPIdentifier. rewrite O1, R1. cbn [opt_err bind]. fold half. rewrite I1. cbn [opt_err bind]. rewrite IM, L. cbn [deref bind]. rewrite S1. reflexivity.
  - unfold DeserializeIdentity. rewrite S2. cbn [opt_err bind si_mspid si_bytes]. rewrite bytes_eqb_refl. cbn [guard bind].
    unfold DeserializeIdentityInternal. rewrite I2. cbn [opt_err bind ii_nymx ii_nymy ii_ou ii_role ii_proof]. rewrite Hc. cbn [deref bind].
    rewrite firstn_skipn. rewrite IN in KB. cbn [key_bytes] in KB. injection KB as KB.
    assert (Q : import c (i_raw i) (INymPk true) = IOk (KNymPublic pk)) by (rewrite <- KB; exact (RT c pk N)).
    clear N. rewrite Q. cbn [res_of bind]. rewrite O2, R2. cbn [opt_err bind]. unfold newIdemixIdentity. cbn [key_bytes]. rewrite KB. rewrite IN. reflexivity.
Qed.

Lemma nym_round_trip_step U (X : scheme U) (M : mathops U) :
  (forall c pk b, New X M false true = Ok c -> key_bytes X M (KNymPublic pk) = Ok b -> step (Dummy U unit) c tt (OpImport (RBytes b) (Some (INymPk true))) = (Ok (KNymPublic pk), tt)) ->
  nym_round_trip X M.
Proof.
  intros S c pk N. specialize (S c pk _ N eq_refl). cbn [step] in S. clear N. unfold import.
  destruct (KeyImport (Dummy U unit) c tt (RBytes (ex (m_g1ToProto M pk) ++ ey (m_g1ToProto M pk))) (Some (INymPk true))) as [[[k o]|k|] s];
    cbn in S |- *; congruence.
Qed.

(** dlog: identities whose pseudonym was exported by a translator that reads its own output (C65_translators) *)
Theorem C53_dlog : forall CD utf8 C (H : hasher C) (T : translator C) c_ipk c_ik c_req c_cred c_sig c_nsig c_cri EC (EE : ecenv EC) sha256
    (h : heap (dlogU C EC)) l m ipk r i pk,
  let X := dlog_scheme H T c_ipk c_ik c_req c_cred c_sig c_nsig c_cri EE sha256 in
  let M := dlog_math T EE sha256 in
  codecs_ok utf8 CD -> raw_round_trip T -> nth_error h l = Some m -> ready X M m ipk r ->
  i_msp i = l -> i_nym i = KNymPublic pk -> key_bytes X M (i_nym i) = Ok (i_raw i) -> 2 <= length (i_raw i) -> printable utf8 m i ->
  exists b, Serialize CD h i = Ok b /\
    DeserializeIdentity CD X M l m b = Ok {| i_nym := i_nym i; i_raw := i_raw i; i_msp := l; i_id := p_name m; i_role := i_role i; i_ou := i_ou i; i_proof := i_proof i |}.
Proof.
  intros CD utf8 C H T c_ipk c_ik c_req c_cred c_sig c_nsig c_cri EC EE sha256 h l m ipk r i pk X M CO RT L R IM IN KB LN P.
  refine (serialize_round_trip CO _ L R IM IN KB LN P). apply nym_round_trip_step. intros c pk' b N K.
  exact (@C65_nym_public C H T c_ipk c_ik c_req c_cred c_sig c_nsig c_cri EC EE sha256 true c unit (Dummy _ unit) tt pk' b RT N K).
Qed.
Print Assumptions C53_dlog.
Theorem C53_aries : forall CD utf8 C (OK : CurveOk C) (HG : bytes -> G1 C) (H : hasher C) hkdf c_cred c_sig c_nsig c_cri EC (EE : ecenv EC) sha256
    (h : heap (ariesU C EC)) l m ipk r i pk,
  let X := aries_scheme HG H hkdf c_cred c_sig c_nsig c_cri EE sha256 in
  let M := aries_math (Gurvy C) EE sha256 in
  codecs_ok utf8 CD -> nth_error h l = Some m -> ready X M m ipk r ->
  i_msp i = l -> i_nym i = KNymPublic pk -> key_bytes X M (i_nym i) = Ok (i_raw i) -> 2 <= length (i_raw i) -> printable utf8 m i ->
  exists b, Serialize CD h i = Ok b /\
    DeserializeIdentity CD X M l m b = Ok {| i_nym := i_nym i; i_raw := i_raw i; i_msp := l; i_id := p_name m; i_role := i_role i; i_ou := i_ou i; i_proof := i_proof i |}.
Proof.
  intros CD utf8 C OK HG H hkdf c_cred c_sig c_nsig c_cri EC EE sha256 h l m ipk r i pk X M CO L R IM IN KB LN P.
  refine (serialize_round_trip CO _ L R IM IN KB LN P). apply nym_round_trip_step. intros c pk' b N K.
  exact (@C65_nym_public_aries C OK HG H hkdf c_cred c_sig c_nsig c_cri EC EE sha256 true c unit (Dummy _ unit) tt pk' b N K).
Qed.
Print Assumptions C53_aries.

Lemma toy_mid : i_msp mid = 0 /\ (exists pk, i_nym mid = KNymPublic pk) /\ key_bytes xX xM (i_nym mid) = Ok (i_raw mid) /\ 2 <= length (i_raw mid).
Proof.
  assert (A : match i_nym mid with KNymPublic _ => true | _ => false end = true) by (vm_compute; reflexivity).
  split; [vm_compute; reflexivity|]. split; [destruct (i_nym mid) as [| | | |pk| | |]; try discriminate A; exists pk; reflexivity|].
  split; [vm_compute; reflexivity|]. apply Nat.leb_le. vm_compute. reflexivity.
Qed.
Example C53_example : codecs_ok (fun _ => True) mCD /\ raw_round_trip tT /\ nth_error mheap 0 = Some m1 /\ (exists ipk r, ready xX xM m1 ipk r) /\
  i_msp mid = 0 /\ (exists pk, i_nym mid = KNymPublic pk) /\ key_bytes xX xM (i_nym mid) = Ok (i_raw mid) /\ 2 <= length (i_raw mid) /\
  printable (fun _ => True) m1 mid.
Proof.
  split; [exact mCD_ok|]. split; [destruct (@C65_translators tC tOK ltac:(vm_compute; lia)) as [R _]; apply R; split; [reflexivity|split; [reflexivity|intro P; reflexivity]]|].
  split; [reflexivity|]. split; [exact toy_ready|]. destruct toy_mid as (A & B & D & F).
  split; [exact A|]. split; [exact B|]. split; [exact D|]. split; [exact F|]. do 4 (split; [exact I|]).
  assert (Q : ro_role (i_role mid) = 1%Z) by (vm_compute; reflexivity). rewrite Q. unfold int32. lia.
Qed.

(** ** C51, continued: impersonation *)
(** Whoever sees a valid identity can make, with an arbitrary user key and without any credential, an
    identity with the same proof, organizational unit and role under a pseudonym of their own: it is
    valid and signatures made with that key verify. *)
Theorem C51_dlog_refuted : forall C (OK : CurveOk C) (H : hasher C) (T : translator C) c_ipk c_ik c_req c_cred c_sig c_nsig c_cri EC (EE : ecenv EC) sha256
    (h : heap (dlogU C EC)) l m (ipk : IssuerPublicKey) (B : Bases C) r i (sk rnd nonce rSk rRNym : Zr C) msg raw,
  let X := dlog_scheme H T c_ipk c_ik c_req c_cred c_sig c_nsig c_cri EE sha256 in
  let M := dlog_math T EE sha256 in
  codec_ok (fun _ => True) c_nsig -> nothing_is no_nymsig c_nsig -> ipk_bases T ipk B ->
  nth_error h (i_msp i) = Some m -> ready X M m (Some (Some ipk) : u_ipk (dlogU C EC)) r -> Validate h l (IdPlain i) = Ok tt ->
  exists Nym RNym sig,
    brMakeNym T (Some sk) (Some (Some ipk)) rnd = Ok (Nym, RNym) /\
    brNymSign H T c_nsig (Some sk) (Some Nym) (Some RNym) (Some (Some ipk)) msg nonce rSk rRNym = Ok sig /\
    let i' := with_nym i (KNymPublic (Nym : u_g1 (dlogU C EC))) raw in
    Validate h l (IdPlain i') = Ok tt /\ id_Verify h i' msg sig = Ok tt.
Proof.
  intros C OK H T c_ipk c_ik c_req c_cred c_sig c_nsig c_cri EC EE sha256 h l m ipk B r i sk rnd nonce rSk rRNym msg raw X M CN ZN HB L R V.
  destruct (@C14_bridge C OK H T c_nsig sk ipk B msg rnd nonce rSk rRNym CN HB) as (Nym & RNym & sig & E1 & E2 & E3).
  exists Nym, RNym, sig. split; [exact E1|]. split; [exact E2|]. cbn zeta. split; [exact V|]. pose proof (nymsig_nonempty OK CN ZN E2) as NE.
  assert (Q := @id_verify_ready _ X M h m _ r (with_nym i (KNymPublic (Nym : u_g1 (dlogU C EC))) raw) Nym msg sig L R eq_refl).
  clear R. rewrite Q. destruct (length sig =? 0) eqn:Z; [apply Nat.eqb_eq, length_zero_iff_nil in Z; contradiction|]. exact E3.
Qed.
Print Assumptions C51_dlog_refuted.

Example C51_dlog_example : codec_ok (fun _ => True) (tcodec s_nsig) /\ nothing_is no_nymsig (tcodec s_nsig) /\ ipk_bases tT bipk tB /\ Validate mheap 0 (IdPlain mid) = Ok tt /\
  match brMakeNym tT (Some (f9 : Zr tC)) (Some (Some bipk)) f10 with
  | Ok (Nym, RNym) =>
      match brNymSign tH tT (tcodec s_nsig) (Some (f9 : Zr tC)) (Some Nym) (Some RNym) (Some (Some bipk)) tmsg f11 f12 f13 with
      | Ok sig => id_Verify mheap (with_nym mid (KNymPublic (Nym : u_g1 xU)) []) tmsg sig = Ok tt
      | _ => False
      end
  | _ => False
  end.
Proof.
  split; [intros x _; apply (tcodec_rt s_nsig_ok)|]. split; [intros x D; discriminate D|]. split; [vm_compute; repeat split; reflexivity|]. split; vm_compute; reflexivity.
Qed.

(** ** C54: roles *)
(** the attribute shown for the role is that of an administrator exactly for the role ADMIN, and the
    four roles of the protocol are shown differently *)
Theorem C54_disclosed : forall role,
  (getIdemixRoleFromMSPRoleValue role = ADMIN <-> role = MSPRole_ADMIN) /\
  forall role', (0 <= role <= 3)%Z -> (0 <= role' <= 3)%Z -> getIdemixRoleFromMSPRoleValue role = getIdemixRoleFromMSPRoleValue role' -> role = role'.
Proof.
  assert (V : forall r, getIdemixRoleFromMSPRoleValue r = (if r =? 1 then 2 else if r =? 2 then 4 else if r =? 0 then 1 else if r =? 3 then 8 else 1)%Z) by reflexivity.
  intros role. unfold ADMIN, MSPRole_ADMIN. split; [|intros role' H1 H2]; rewrite !V.
  - destruct (Z.eqb_spec role 1), (Z.eqb_spec role 2), (Z.eqb_spec role 0), (Z.eqb_spec role 3); lia.
  - destruct (Z.eqb_spec role 1), (Z.eqb_spec role 2), (Z.eqb_spec role 0), (Z.eqb_spec role 3);
      destruct (Z.eqb_spec role' 1), (Z.eqb_spec role' 2), (Z.eqb_spec role' 0), (Z.eqb_spec role' 3); lia.
Qed.
Print Assumptions C54_disclosed.

(** a mask contains exactly the roles combined into it *)
Definition a_role (r : Z) : Prop := In r [MEMBER; ADMIN; CLIENT; PEER].
Lemma check_bit m k : (0 <= k)%Z -> checkRole m (2 ^ k) = Z.testbit m k.
Proof.
  intros K. unfold checkRole. destruct (Z.testbit m k) eqn:B.
  - apply Z.eqb_eq. apply Z.bits_inj'. intros n N. rewrite Z.land_spec, Z.pow2_bits_eqb by lia. destruct (Z.eqb_spec k n) as [<-|]; [rewrite B; reflexivity|apply Bool.andb_false_r].
  - apply Z.eqb_neq. intros F. apply (f_equal (fun z => Z.testbit z k)) in F. rewrite Z.land_spec, B, Z.pow2_bits_true in F by lia. discriminate F.
Qed.
Lemma role_bit r : a_role r <-> exists k, (0 <= k < 4)%Z /\ r = (2 ^ k)%Z.
Proof.
  unfold a_role, MEMBER, ADMIN, CLIENT, PEER. cbn [In]. split.
  - intros [<-|[<-|[<-|[<-|[]]]]]; [exists 0%Z|exists 1%Z|exists 2%Z|exists 3%Z]; split; (lia || reflexivity).
  - intros [k [K ->]]. assert (D : (k = 0 \/ k = 1 \/ k = 2 \/ k = 3)%Z) by lia. destruct D as [->|[->|[->| ->]]]; cbn; tauto.
Qed.
Lemma mask_bits rs k : (0 <= k)%Z -> forall m, Forall a_role rs ->
  (Z.testbit (fold_left (fun mask r => Z.lor mask r) rs m) k = true <-> Z.testbit m k = true \/ In (2 ^ k)%Z rs).
Proof.
  intros K. induction rs as [|r rs IH]; intros m F; cbn [fold_left In]; [tauto|]. inversion F as [|? ? Fr Fs]; subst.
  rewrite (IH _ Fs), Z.lor_spec, Bool.orb_true_iff. apply role_bit in Fr. destruct Fr as [j [J ->]].
  assert (Q : Z.testbit (2 ^ j) k = true <-> (2 ^ j = 2 ^ k)%Z).
  { rewrite Z.pow2_bits_eqb by lia. rewrite Z.eqb_eq. split; [intros ->; reflexivity|]. intros E. apply Z.pow_inj_r in E; lia. }
  rewrite Q. tauto.
Qed.
Theorem C54_mask : forall rs r, Forall a_role rs -> a_role r ->
  (checkRole (getRoleMaskFromIdemixRoles rs) r = true <-> In r rs).
Proof.
  intros rs r F R. apply role_bit in R. destruct R as [k [K ->]]. rewrite check_bit by lia. unfold getRoleMaskFromIdemixRoles.
  rewrite mask_bits by (lia || assumption). rewrite Z.bits_0. split; [intros [D|D]; [discriminate D|exact D]|tauto].
Qed.
Print Assumptions C54_mask.
Theorem C54_single : forall r r', a_role r -> a_role r' -> (checkRole (GetRoleMaskFromIdemixRole r) r' = true <-> r' = r).
Proof.
  intros r r' R R'. unfold GetRoleMaskFromIdemixRole. rewrite C54_mask by (assumption || (constructor; [assumption|constructor])).
  cbn [In]. split; [intros [->|[]]; reflexivity|intros ->; tauto].
Qed.
Print Assumptions C54_single.
Example C54_example : Forall a_role [ADMIN; PEER] /\ a_role CLIENT /\ checkRole (getRoleMaskFromIdemixRoles [ADMIN; PEER]) PEER = true /\
  checkRole (getRoleMaskFromIdemixRoles [ADMIN; PEER]) CLIENT = false.
Proof. split; [repeat constructor; cbn; tauto|]. split; [cbn; tauto|]. split; reflexivity. Qed.

(** ** C55: a failing Setup *)
(** what is kept: the default signer, the version and all other MSP objects; with a configuration that is
    nil or cannot be decoded, everything *)
Theorem C55_partial : forall U CD (E : env U) h l m d1 d2 conf r h',
  nth_error h l = Some m -> Setup CD E h l d1 d2 conf = (r, h') -> r <> Ok tt ->
  (forall j, j <> l -> nth_error h' j = nth_error h j) /\
  exists m', nth_error h' l = Some m' /\ p_signer m' = p_signer m /\ p_version m' = p_version m /\
    ((conf = None \/ exists ty raw, conf = Some (ty, raw) /\ dec (c_conf CD) raw = None) -> same_config m m').
Proof.
  intros U CD E h l m d1 d2 conf r h' L S F. unfold Setup in S. rewrite L in S.
  destruct (setup_at CD E l m d1 d2 conf) as [r0 m'] eqn:S0. injection S as -> <-.
  split; [intros j J; apply put_other; exact J|]. exists m'. split; [exact (put_same m' L)|].
  destruct (setup_keeps S0) as [V G]. split; [exact (G F)|]. split; [exact V|].
  intros D. assert (Q : m' = m).
  { destruct D as [->|(ty & raw & -> & D)]; cbn [setup_at] in S0; [|rewrite D in S0]; injection S0 as _ ->; reflexivity. }
  rewrite Q. repeat split.
Qed.
Print Assumptions C55_partial.
(** The full statement fails: the name is replaced before the type of the configuration is looked at, *)
Theorem C55_name_refuted : forall U CD (E : env U) h l m d1 d2 ty raw cf,
  nth_error h l = Some m -> dec (c_conf CD) raw = Some cf -> ty <> (if ev_aries E then IDEMIX_ARIES else IDEMIX) ->
  exists m', Setup CD E h l d1 d2 (Some (ty, raw)) = (Err, put h l m') /\ p_name m' = cf_name cf.
Proof.
  intros U CD E h l m d1 d2 ty raw cf L D T. exists (set_name m (cf_name cf)). unfold Setup. rewrite L. cbn [setup_at]. rewrite D.
  destruct (Z.eqb_spec ty (if ev_aries E then IDEMIX_ARIES else IDEMIX)) as [F|F]; [contradiction|]. split; reflexivity.
Qed.
Print Assumptions C55_name_refuted.
(** and the issuer key before the revocation key is read. *)
Theorem C55_keys_refuted : forall U CD (E : env U) h l m d1 d2 ty raw cf cid X M ipk,
  nth_error h l = Some m -> dec (c_conf CD) raw = Some cf -> ty = (if ev_aries E then IDEMIX_ARIES else IDEMIX) ->
  configured_curve (ev_aries E) (cf_curve cf) = Some cid -> ev_pack E cid = Some (X, M) -> cf_ipk cf <> [] ->
  s_issuerPkFromBytes X (cf_ipk cf) attribute_names = IOk ipk -> m_pemEpk M (cf_revpk cf) = None ->
  exists m', Setup CD E h l d1 d2 (Some (ty, raw)) = (Err, put h l m') /\
    p_name m' = cf_name cf /\ p_ipk m' = Some (KIssuerPublic ipk) /\ p_revpk m' = p_revpk m /\ p_signer m' = p_signer m.
Proof.
  intros U CD E h l m d1 d2 ty raw cf cid X M ipk L D T Cu P NE I R.
  rewrite <- curve_spec in Cu. assert (TY : type_ok E ty = true) by (unfold type_ok; rewrite T; apply Z.eqb_refl).
  destruct (@setup_eq U CD E l m d1 d2 ty raw cf cid X M D TY Cu P) as (c & N & Q). clear N. cbn zeta in Q.
  exists (set_ipk (set_csp (set_name m (cf_name cf)) (Some c)) (KIssuerPublic ipk)). split; [|repeat split].
  unfold Setup. rewrite L, Q. destruct (cf_ipk cf) as [|b bs]; [contradiction|]. cbn [raw_bytes ibind]. rewrite I, R.
  destruct (length (cf_revpk cf) =? 0); reflexivity.
Qed.
Print Assumptions C55_keys_refuted.

Definition mconf2 (revpk : bytes) : msp_config :=
  {| cf_name := str "Org2MSP"; cf_ipk := bpkraw; cf_signer := None; cf_revpk := revpk; cf_epoch := 0; cf_curve := [] |}.
Lemma toy_conf2 r : dec (c_conf mCD) (mraw (mconf2 r)) = Some (mconf2 r).
Proof. exact (tcodec_dec s_conf_ok (mconf2 r)). Qed.
(** after the failing Setup the MSP does not accept the identities it accepted before *)
Example C55_example : nth_error mheap 0 = Some m1 /\ dec (c_conf mCD) (mraw (mconf2 [])) = Some (mconf2 []) /\
  fst (Setup mCD mE mheap 0 xdraw xdraw (Some (IDEMIX_ARIES, mraw (mconf2 [])))) = Err /\
  is_ok (res_of (s_issuerPkFromBytes xX (cf_ipk (mconf2 [])) attribute_names)) = true /\ m_pemEpk xM (cf_revpk (mconf2 [])) = None /\
  is_ok (let* b := Serialize mCD mheap mid in DeserializeIdentity mCD xX xM 0 m1 b) = true /\
  is_ok (let* b := Serialize mCD mheap mid in
         let* m' := deref (nth_error (snd (Setup mCD mE mheap 0 xdraw xdraw (Some (IDEMIX, mraw (mconf2 []))))) 0) in
         DeserializeIdentity mCD xX xM 0 m' b) = false.
Proof.
  split; [reflexivity|]. split; [exact (toy_conf2 [])|]. split; [vm_compute; reflexivity|]. split; [vm_compute; reflexivity|]. split; [vm_compute; reflexivity|].
  split; vm_compute; reflexivity.
Qed.

(** ** C63: Setup without a signer gives an MSP that only verifies *)
(** for an MSP object without a signer *)
Theorem C63_partial : forall U CD (E : env U) h l m d1 d2 ty raw cf h',
  nth_error h l = Some m -> p_signer m = None -> dec (c_conf CD) raw = Some cf -> cf_signer cf = None ->
  Setup CD E h l d1 d2 (Some (ty, raw)) = (Ok tt, h') ->
  exists m' cid X M ipk r, nth_error h' l = Some m' /\ configured_curve (ev_aries E) (cf_curve cf) = Some cid /\ ev_pack E cid = Some (X, M) /\
    s_issuerPkFromBytes X (cf_ipk cf) attribute_names = IOk ipk /\ m_pemEpk M (cf_revpk cf) = Some r /\
    ready X M m' ipk r /\ p_name m' = cf_name cf /\ GetDefaultSigningIdentity m' = Err.
Proof.
  intros U CD E h l m d1 d2 ty raw cf h' L P D G S. unfold Setup in S. rewrite L in S.
  destruct (setup_at CD E l m d1 d2 (Some (ty, raw))) as [r0 m'] eqn:S0. injection S as -> <-.
  destruct (setup_ok_inv S0) as (ty' & raw' & cf' & cid & X & M & ipk & r & Q & D' & _ & Cu & Pk & _ & Ik & _ & Rk & R & Nm & Sg).
  injection Q as <- <-. rewrite D in D'. injection D' as <-. rewrite G in Sg. rewrite P in Sg. rewrite curve_spec in Cu.
  exists m', cid, X, M, ipk, r. split; [exact (put_same m' L)|]. split; [exact Cu|]. split; [exact Pk|]. split; [exact Ik|]. split; [exact Rk|]. split; [exact R|]. split; [exact Nm|]. unfold GetDefaultSigningIdentity. rewrite Sg. reflexivity.
Qed.
Print Assumptions C63_partial.
(** The full statement fails: a signer set up before stays, whatever the new configuration trusts. *)
Theorem C63_refuted : forall U CD (E : env U) h l m s d1 d2 ty raw cf h',
  nth_error h l = Some m -> p_signer m = Some s -> dec (c_conf CD) raw = Some cf -> cf_signer cf = None ->
  Setup CD E h l d1 d2 (Some (ty, raw)) = (Ok tt, h') ->
  exists m', nth_error h' l = Some m' /\ p_name m' = cf_name cf /\ GetDefaultSigningIdentity m' = Ok s.
Proof.
  intros U CD E h l m s d1 d2 ty raw cf h' L P D G S. unfold Setup in S. rewrite L in S.
  destruct (setup_at CD E l m d1 d2 (Some (ty, raw))) as [r0 m'] eqn:S0. injection S as -> <-.
  destruct (setup_ok_inv S0) as (ty' & raw' & cf' & cid & X & M & ipk & r & Q & D' & _ & _ & _ & _ & _ & _ & _ & R & Nm & Sg).
  clear R. injection Q as <- <-. rewrite D in D'. injection D' as <-. rewrite G in Sg. rewrite P in Sg.
  exists m'. split; [exact (put_same m' L)|]. split; [exact Nm|]. unfold GetDefaultSigningIdentity. rewrite Sg. reflexivity.
Qed.
Print Assumptions C63_refuted.
Example C63_example : p_signer m0 = None /\ p_signer m1 = Some msig /\ dec (c_conf mCD) (mraw (mconf2 (xpem (str "k")))) = Some (mconf2 (xpem (str "k"))) /\
  cf_signer (mconf2 (xpem (str "k"))) = None /\
  fst (Setup mCD mE [m0] 0 xdraw xdraw (Some (IDEMIX, mraw (mconf2 (xpem (str "k")))))) = Ok tt /\
  fst (Setup mCD mE mheap 0 xdraw xdraw (Some (IDEMIX, mraw (mconf2 (xpem (str "k")))))) = Ok tt.
Proof.
  split; [reflexivity|]. split; [exact m1_signer|]. split; [exact (toy_conf2 _)|]. split; [reflexivity|]. split; vm_compute; reflexivity.
Qed.

(** ** C64: Setup reports malformed configurations as errors *)
(** dlog: it panics at most if the issuer public key is empty or its import fails without one of the
    documented errors, which happens only after a panic (C64_plain) *)
Theorem C64_dlog_partial : forall CD C (H : hasher C) (T : translator C) c_ipk c_ik c_req c_cred c_sig c_nsig c_cri EC (EE : ecenv EC) sha256
    (E : env (dlogU C EC)) h l m d1 d2 conf,
  let X := dlog_scheme H T c_ipk c_ik c_req c_cred c_sig c_nsig c_cri EE sha256 in
  let M := dlog_math T EE sha256 in
  (forall cid p, ev_pack E cid = Some p -> p = (X, M)) -> nth_error h l = Some m ->
  fst (Setup CD E h l d1 d2 conf) = Panic ->
  exists ty raw cf, conf = Some (ty, raw) /\ dec (c_conf CD) raw = Some cf /\
    (cf_ipk cf = [] \/ dlogPk H T c_ipk (cf_ipk cf) attribute_names = IErr PlainError).
Proof.
  intros CD C H T c_ipk c_ik c_req c_cred c_sig c_nsig c_cri EC EE sha256 E h l m d1 d2 conf X M PK L S.
  unfold Setup in S. rewrite L in S.
  destruct conf as [[ty raw]|]; [|discriminate S].
  destruct (dec (c_conf CD) raw) as [cf|] eqn:D; [|cbn [setup_at] in S; rewrite D in S; discriminate S].
  exists ty, raw, cf. split; [reflexivity|]. split; [exact D|].
  destruct (type_ok E ty) eqn:TY; [|unfold type_ok in TY; cbn [setup_at] in S; rewrite D, TY in S; discriminate S].
  destruct (curve_id E (cf_curve cf)) as [cid|] eqn:Cu; [|unfold type_ok in TY; cbn [setup_at] in S; rewrite D, TY, Cu in S; discriminate S].
  destruct (ev_pack E cid) as [p|] eqn:P; [|unfold type_ok in TY; cbn [setup_at] in S; rewrite D, TY, Cu, P in S; discriminate S].
  pose proof (PK _ _ P) as ->.
  destruct (@setup_eq _ CD E l m d1 d2 ty raw cf cid X M D TY Cu P) as (c & N & Q). cbn zeta in Q. rewrite Q in S. clear Q.
  destruct (cf_ipk cf) as [|b bs]; [left; reflexivity|]. right. cbn [raw_bytes ibind] in S.
  change (s_issuerPkFromBytes X (b :: bs) attribute_names) with (let+ k := dlogPk H T c_ipk (b :: bs) attribute_names in IOk (Some (Some k) : u_ipk (dlogU C EC))) in S.
  destruct (dlogPk H T c_ipk (b :: bs) attribute_names) as [k|k|] eqn:I; cbn [ibind] in S.
  - exfalso. destruct (if length (cf_revpk cf) =? 0 then None else m_pemEpk M (cf_revpk cf)) as [rpk|]; [|clear N; discriminate S].
    destruct (cf_signer cf) as [sg|]; [|clear N; discriminate S].
    rewrite (@setup_signer_eq _ X M c l (set_revpk (set_ipk (set_csp (set_name m (cf_name cf)) (Some c)) (KIssuerPublic (Some (Some k) : u_ipk (dlogU C EC)))) (KRevPublic rpk)) d1 d2 (Some (Some k) : u_ipk (dlogU C EC)) sg N) in S.
    clear N. revert S.
    destruct (@C23_no_panic_partial C H T EC sha256 c_ipk c_ik c_req c_cred c_sig c_nsig c_cri) as (_ & _ & _ & A1 & A2 & _ & _ & _ & _ & _ & A3 & A4 & _).
    destruct (length (sc_sk sg) =? 0); [discriminate|].
    destruct (s_userKeyFromBytes X (sc_sk sg)) as [sk| |] eqn:B1; [|discriminate|exact (False_ind _ (A1 _ B1))].
    match goal with |- context [s_makeNym ?x ?d ?u ?p] => destruct (s_makeNym x d u p) as [[nym r]| |] eqn:B2; [|discriminate|exact (False_ind _ (A2 _ _ _ B2))] end.
    destruct (length (sc_cred sg) =? 0); [discriminate|].
    match goal with |- context [s_credVerify ?x ?u ?p ?cr ?at_] => destruct (s_credVerify x u p cr at_) as [[]| |] eqn:B3; [|discriminate|exact (False_ind _ (A3 _ _ _ _ B3))] end.
    match goal with |- context [s_sign ?x ?y1 ?y2 ?y3 ?y4 ?y5 ?y6 ?y7 ?y8 ?y9 ?z1 ?z2 ?z3 ?z4] =>
      destruct (s_sign x y1 y2 y3 y4 y5 y6 y7 y8 y9 z1 z2 z3 z4) as [[pf md]| |] eqn:B4; [discriminate|discriminate|] end.
    intros _. exact (A4 _ _ _ _ _ _ _ _ _ _ _ _ _ B4).
  - destruct k; cbn [import_failure fst] in S; clear N; [reflexivity|discriminate S..].
  - exfalso. clear - I. unfold dlogPk in I. destruct (opt_err (dec c_ipk (b :: bs))) as [k| |]; cbn [kinded ibind] in I; [|discriminate I..].
    destruct (setHash H (enc c_ipk) k) as [k1| |]; cbn [kinded ibind] in I; [|discriminate I..].
    destruct (checkIPK H T (enc c_ipk) k1) as [k2| |]; cbn [kinded ibind] in I; [|discriminate I..].
    destruct (length attribute_names =? 0); [discriminate I|]. destruct (guard (length attribute_names =? length (ip_names k2))); cbn [kinded ibind] in I; [|discriminate I..].
    destruct (names_match 0 attribute_names (ip_names k2)); discriminate I.
Qed.
Print Assumptions C64_dlog_partial.
(** with the translators Fp256bn and Fp256bnMiracl the import never fails in such a way, hence Setup
    panics only if the issuer public key is empty *)
Theorem C64_fp_partial : forall CD C (OK : CurveOk C) (H : hasher C) (T : translator C) c_ipk c_ik c_req c_cred c_sig c_nsig c_cri EC (EE : ecenv EC) sha256
    (E : env (dlogU C EC)) h l m d1 d2 conf,
  T = Fp256bn C \/ T = Fp256bnMiracl C ->
  (forall cid p, ev_pack E cid = Some p -> p = (dlog_scheme H T c_ipk c_ik c_req c_cred c_sig c_nsig c_cri EE sha256, dlog_math T EE sha256)) ->
  nth_error h l = Some m -> fst (Setup CD E h l d1 d2 conf) = Panic ->
  exists ty raw cf, conf = Some (ty, raw) /\ dec (c_conf CD) raw = Some cf /\ cf_ipk cf = [].
Proof.
  intros CD C OK H T c_ipk c_ik c_req c_cred c_sig c_nsig c_cri EC EE sha256 E h l m d1 d2 conf HT PK L S.
  assert (P : parses T) by (destruct HT as [->| ->]; [exact fp_parses|exact mir_parses]).
  destruct (C64_dlog_partial PK L S) as (ty & raw & cf & A & B & [D|D]); [exists ty, raw, cf; auto|].
  destruct (@dlogPk_kinds C OK H T c_ipk (cf_ipk cf) attribute_names P) as [F _]. contradiction.
Qed.
Print Assumptions C64_fp_partial.
(** The full statement fails: with an empty issuer public key Setup panics, *)
Theorem C64_refuted : forall U CD (E : env U) h l m d1 d2 ty raw cf cid X M,
  nth_error h l = Some m -> dec (c_conf CD) raw = Some cf -> ty = (if ev_aries E then IDEMIX_ARIES else IDEMIX) ->
  configured_curve (ev_aries E) (cf_curve cf) = Some cid -> ev_pack E cid = Some (X, M) -> cf_ipk cf = [] ->
  fst (Setup CD E h l d1 d2 (Some (ty, raw))) = Panic.
Proof.
  intros U CD E h l m d1 d2 ty raw cf cid X M L D T Cu P NE.
  rewrite <- curve_spec in Cu. assert (TY : type_ok E ty = true) by (unfold type_ok; rewrite T; apply Z.eqb_refl).
  destruct (@setup_eq U CD E l m d1 d2 ty raw cf cid X M D TY Cu P) as (c & N & Q). clear N. cbn zeta in Q.
  unfold Setup. rewrite L, Q, NE. reflexivity.
Qed.
Print Assumptions C64_refuted.
(** and with the aries scheme on every issuer public key that cannot be imported. *)
Theorem C64_aries_refuted : forall CD C (HG : bytes -> G1 C) (H : hasher C) hkdf c_cred c_sig c_nsig c_cri EC (EE : ecenv EC) sha256 (T : translator C)
    (E : env (ariesU C EC)) h l m d1 d2 raw cf cid,
  let X := aries_scheme HG H hkdf c_cred c_sig c_nsig c_cri EE sha256 in
  let M := aries_math T EE sha256 in
  nth_error h l = Some m -> ev_aries E = true -> dec (c_conf CD) raw = Some cf ->
  configured_curve (ev_aries E) (cf_curve cf) = Some cid -> ev_pack E cid = Some (X, M) ->
  arNewPublicKeyFromBytes HG (cf_ipk cf) attribute_names = Err ->
  fst (Setup CD E h l d1 d2 (Some (IDEMIX_ARIES, raw))) = Panic.
Proof.
  intros CD C HG H hkdf c_cred c_sig c_nsig c_cri EC EE sha256 T E h l m d1 d2 raw cf cid X M L A D Cu P I.
  rewrite <- curve_spec in Cu. assert (TY : type_ok E IDEMIX_ARIES = true) by (unfold type_ok; rewrite A; apply Z.eqb_refl).
  destruct (@setup_eq _ CD E l m d1 d2 IDEMIX_ARIES raw cf cid X M D TY Cu P) as (c & N & Q). clear N. cbn zeta in Q.
  unfold Setup. rewrite L, Q. destruct (cf_ipk cf) as [|b bs]; [reflexivity|]. cbn [raw_bytes ibind].
  change (s_issuerPkFromBytes X (b :: bs) attribute_names) with (plain (let* k := arNewPublicKeyFromBytes HG (b :: bs) attribute_names in Ok (Some (Some k) : u_ipk (ariesU C EC)))).
  rewrite I. reflexivity.
Qed.
Print Assumptions C64_aries_refuted.
(** With the translator Gurvy, a key with a missing point does the same. *)
Theorem C64_gurvy_refuted : forall CD C (H : hasher C) c_ipk c_ik c_req c_cred c_sig c_nsig c_cri EC (EE : ecenv EC) sha256
    (E : env (dlogU C EC)) h l m d1 d2 raw cf cid k k',
  let X := dlog_scheme H (Gurvy C) c_ipk c_ik c_req c_cred c_sig c_nsig c_cri EE sha256 in
  let M := dlog_math (Gurvy C) EE sha256 in
  nth_error h l = Some m -> ev_aries E = false -> dec (c_conf CD) raw = Some cf ->
  configured_curve (ev_aries E) (cf_curve cf) = Some cid -> ev_pack E cid = Some (X, M) ->
  dec c_ipk (cf_ipk cf) = Some k -> setHash H (enc c_ipk) k = Ok k' -> ip_hsk k = None ->
  fst (Setup CD E h l d1 d2 (Some (IDEMIX, raw))) = Panic.
Proof.
  intros CD C H c_ipk c_ik c_req c_cred c_sig c_nsig c_cri EC EE sha256 E h l m d1 d2 raw cf cid k k' X M L A D Cu P K1 K2 K3.
  rewrite <- curve_spec in Cu. assert (TY : type_ok E IDEMIX = true) by (unfold type_ok; rewrite A; apply Z.eqb_refl).
  destruct (@setup_eq _ CD E l m d1 d2 IDEMIX raw cf cid X M D TY Cu P) as (c & N & Q). clear N. cbn zeta in Q.
  assert (K4 : ip_hsk k' = None). { unfold setHash in K2. destruct (enc c_ipk (with_hash k [])); [|discriminate K2]. injection K2 as <-. exact K3. }
  assert (I : dlogPk H (Gurvy C) c_ipk (cf_ipk cf) attribute_names = IErr PlainError).
  { unfold dlogPk. rewrite K1. cbn [opt_err kinded ibind]. rewrite K2. cbn [kinded ibind]. unfold checkIPK, checkIPK_first. rewrite K4. reflexivity. }
  unfold Setup. rewrite L, Q. destruct (cf_ipk cf) as [|b bs]; [reflexivity|]. cbn [raw_bytes ibind].
  change (s_issuerPkFromBytes X (b :: bs) attribute_names) with (let+ k := dlogPk H (Gurvy C) c_ipk (b :: bs) attribute_names in IOk (Some (Some k) : u_ipk (dlogU C EC))).
  rewrite I. reflexivity.
Qed.
Print Assumptions C64_gurvy_refuted.

Definition mconf3 : msp_config :=
  {| cf_name := mname; cf_ipk := []; cf_signer := None; cf_revpk := []; cf_epoch := 0; cf_curve := [] |}.
Example C64_example : nth_error [m0] 0 = Some m0 /\ dec (c_conf mCD) (mraw mconf3) = Some mconf3 /\ configured_curve (ev_aries mE) (cf_curve mconf3) = Some FP256BN_AMCL /\
  ev_pack mE FP256BN_AMCL = Some (xX, xM) /\ fst (Setup mCD mE [m0] 0 xdraw xdraw (Some (IDEMIX, mraw mconf3))) = Panic /\
  fst (Setup mCD mE [m0] 0 xdraw xdraw (Some (IDEMIX, str "x"))) = Err.
Proof.
  split; [reflexivity|]. split; [exact (tcodec_dec s_conf_ok mconf3)|]. split; [vm_compute; reflexivity|]. split; [exact toy_pack|].
  split; vm_compute; reflexivity.
Qed.

(** ** C66: the default identity of an MSP that was set up is accepted by it *)
Lemma attrs_match_hide C (H : hasher C) cred ou role eid :
  attrs_match H 0 (credential_attributes ou role eid) cred = Ok tt -> attrs_match H 0 (claims ou role) cred = Ok tt.
Proof.
  unfold credential_attributes, claims. cbn [attrs_match at_type at_value]. intros E.
  apply bind_ok in E. destruct E as [u1 [E1 E]]. rewrite E1. cbn [bind].
  apply bind_ok in E. destruct E as [u2 [E2 E]]. rewrite E2. reflexivity.
Qed.
Lemma credVerify_hide C (H : hasher C) T c_cred sk ipk raw ou role eid :
  brCredVerify H T c_cred sk ipk raw (credential_attributes ou role eid) = Ok tt -> brCredVerify H T c_cred sk ipk raw (claims ou role) = Ok tt.
Proof.
  intros E. apply (proj1 (recover_ok _ _)) in E. apply recover_ok.
  apply bind_ok in E. destruct E as [k [E1 E]]. rewrite E1. cbn [bind]. apply bind_ok in E. destruct E as [cr [E2 E]]. rewrite E2. cbn [bind].
  apply bind_ok in E. destruct E as [[] [E3 E]]. rewrite (attrs_match_hide E3). exact E.
Qed.

(** dlog.  The revocation information must be that of some authority, the credential non-degenerate
    (what issuance gives, C01) and the proof's first random scalar not zero (probability 1/r).  [nothing_is]:
    protobuf reads no fields from the empty string. *)
Theorem C66_dlog_partial : forall CD C (OK : CurveOk C) (H : hasher C) (T : translator C) (TO : TrOk T) c_ipk c_ik c_req c_cred c_sig c_nsig c_cri EC (EE : ecenv EC) sha256
    (E : env (dlogU C EC)) h l m d1 d2 ty raw cf sg h' cred (A : G1 C) (rk : ec_sk EC) handles epoch wsk,
  let X := dlog_scheme H T c_ipk c_ik c_req c_cred c_sig c_nsig c_cri EE sha256 in
  let M := dlog_math T EE sha256 in
  codec_ok canon_sig c_sig -> codec_ok canon_cri c_cri -> int64 epoch -> codec_ok (fun _ => True) c_nsig ->
  nothing_is no_signature c_sig -> nothing_is no_nymsig c_nsig ->
  (forall cid p, configured_curve (ev_aries E) (cf_curve cf) = Some cid -> ev_pack E cid = Some p -> p = (X, M)) -> nth_error h l = Some m ->
  Setup CD E h l d1 d2 (Some (ty, raw)) = (Ok tt, h') ->
  dec (c_conf CD) raw = Some cf -> cf_signer cf = Some sg ->
  brRevSign T c_cri sha256 (Some rk) handles epoch 0 wsk = Ok (sc_cri sg) ->
  dec c_cred (sc_cred sg) = Some cred -> g1_from_proto T (cr_a cred) = Ok A -> A <> gzero -> length (cr_attrs cred) = 4 ->
  rd_r1 (dd_sig d2) <> z0 ->
  exists m' s, nth_error h' l = Some m' /\ GetDefaultSigningIdentity m' = Ok s /\
    p_name m' = cf_name cf /\ ou_id (i_ou (g_identity s)) = sc_ou sg /\
    ro_role (i_role (g_identity s)) = (if checkRole (sc_role sg) ADMIN then MSPRole_ADMIN else MSPRole_MEMBER) /\
    Validate h' l (IdSigning s) = Ok tt /\
    forall d msg, exists sig, id_Sign h' s d msg = Ok sig /\ id_Verify h' (g_identity s) msg sig = Ok tt.
Proof.
  intros CD C OK H T TO c_ipk c_ik c_req c_cred c_sig c_nsig c_cri EC EE sha256 E h l m d1 d2 ty raw cf sg h' cred A rk handles epoch wsk X M
    CS CC Hep CN ZS ZN PK L S D G Ecri Ecred EA NA L4 NZ.
  unfold Setup in S. rewrite L in S. destruct (setup_at CD E l m d1 d2 (Some (ty, raw))) as [r0 m'] eqn:S0. injection S as -> <-.
  destruct (setup_ok_inv S0) as (ty' & raw' & cf' & cid & X0 & M0 & ipk & r & Q & D' & _ & CIq & P & _ & I & _ & _ & R & Nm & Sg).
  injection Q as <- <-. rewrite D in D'. injection D' as <-. rewrite G in Sg. rewrite curve_spec in CIq. pose proof (PK _ _ CIq P) as Q. injection Q as -> ->. fold X in R, Sg, I. fold M in R, Sg.
  destruct Sg as (s & Hs & sk & nym & rr & md & _ & _ & K3 & _ & K5 & K6 & K7 & _ & K9 & K10 & _).
  assert (Lm : nth_error (put h l m') l = Some m') by exact (put_same m' L).
  change (s_issuerPkFromBytes X (cf_ipk cf) attribute_names) with (let+ k := dlogPk H T c_ipk (cf_ipk cf) attribute_names in IOk (Some (Some k) : u_ipk (dlogU C EC))) in I.
  destruct (dlogPk H T c_ipk (cf_ipk cf) attribute_names) as [k|k|] eqn:Ipk; cbn [ibind] in I; [|discriminate I..]. injection I as <-.
  assert (Imp : brNewPublicKeyFromBytes H T c_ipk (cf_ipk cf) attribute_names = Ok k) by (rewrite <- dlogPk_res, Ipk; reflexivity).
  destruct (C17_import_checked Imp) as [Chk Nms]. specialize (Nms ltac:(discriminate)).
  assert (Ln : length (ip_names k) = 4) by (rewrite Nms; reflexivity).
  assert (HB : exists B, ipk_bases T k B).
  { unfold checkIPK in Chk. apply bind_ok in Chk. destruct Chk as [pd [F1 _]]. destruct (checkIPK_first_inv OK F1) as (_ & _ & _ & B & HB & _). exists B. exact HB. }
  set (role := if checkRole (sc_role sg) ADMIN then MSPRole_ADMIN else MSPRole_MEMBER) in *. cbn [ro_role] in K5.
  assert (K5' : brCredVerify H T c_cred (Some sk) (Some (Some k)) (sc_cred sg) (claims (sc_ou sg) role) = Ok tt) by exact (credVerify_hide K5).
  destruct (@C02_bridge C OK H T TO c_ipk c_cred c_sig c_cri EC sha256 (cf_ipk cf) attribute_names k sk (sc_cred sg) cred A (claims (sc_ou sg) role)
              (dd_zr d1 0) nym rr rk handles epoch wsk (sc_cri sg) [] 3 2 (dd_sig d2) Standard CS CC Hep Imp K5' K3 Ecri Ecred EA NA) as (proof & md' & Sign & Ver).
  { rewrite Ln. exact L4. } { rewrite Ln. reflexivity. }
  { exists 3. eexists. split; [lia|]. split; [reflexivity|]. reflexivity. } { cbn. lia. } { left. reflexivity. }
  { discriminate. } { discriminate. } { exact NZ. }
  assert (K6' : brSign H T c_cred c_sig c_cri (sc_cred sg) (Some sk) (Some nym) (Some rr) (Some (Some k)) (claims (sc_ou sg) role) [] 3 2 (sc_cri sg) (dd_sig d2) Standard None
                = Ok (i_proof (g_identity s), md)) by exact K6.
  change (Z.of_nat 3) with 3%Z in Sign, Ver. change (Z.of_nat 2) with 2%Z in Sign, Ver. pose proof (eq_trans (eq_sym K6') Sign) as Q.
  injection Q as Q _. rewrite <- Q in Ver. clear Q Sign.
  exists m', s. split; [exact Lm|]. split; [unfold GetDefaultSigningIdentity; rewrite Hs; reflexivity|]. split; [exact Nm|].
  split; [rewrite K7; reflexivity|]. split; [rewrite K7; reflexivity|].
  assert (IM : i_msp (g_identity s) = l) by (rewrite K7; reflexivity). split.
  - assert (NE : i_proof (g_identity s) <> []) by exact (sig_nonempty OK CS ZS (cri_created CC Hep Ecri) K6').
    assert (Q : Validate (put h l m') l (IdPlain (g_identity s)) = Ok tt); [|exact Q].
    apply (C51_partial Lm (eq_trans (f_equal _ IM) Lm) R). split; [reflexivity|]. split; [exact NE|].
    replace (ou_id (i_ou (g_identity s))) with (sc_ou sg) by (rewrite K7; reflexivity). replace (ro_role (i_role (g_identity s))) with role by (rewrite K7; reflexivity).
    exact (Ver _ (Some r) 0%Z Basic None eq_refl (or_introl eq_refl)).
  - intros d msg. destruct HB as [B HB].
    destruct (@C14_bridge C OK H T c_nsig sk k B msg (dd_zr d1 0) (dd_zr d 0) (dd_zr d 1) (dd_zr d 2) CN HB) as (Nym & RNym & sig & E1 & E2 & E3).
    assert (K3' : brMakeNym T (Some sk) (Some (Some k)) (dd_zr d1 0) = Ok (nym, rr)) by exact K3.
    pose proof (eq_trans (eq_sym K3') E1) as Q. injection Q as <- <-.
    exists sig. assert (Li : nth_error (put h l m') (i_msp (g_identity s)) = Some m') by (rewrite IM; exact Lm). split.
    + rewrite (id_sign_ready d msg Li R K9 K10). exact E2.
    + pose proof (nymsig_nonempty OK CN ZN E2) as NE. assert (Hn : i_nym (g_identity s) = KNymPublic nym) by (rewrite K7; reflexivity). rewrite (id_verify_ready msg sig Li R Hn). clear R.
      destruct (length sig =? 0) eqn:Z; [apply Nat.eqb_eq, length_zero_iff_nil in Z; contradiction|]. exact E3.
Qed.
Print Assumptions C66_dlog_partial.

Example C66_example :
  codec_ok canon_sig (tcodec s_sig) /\ codec_ok canon_cri (tcodec s_cri) /\ int64 0 /\ codec_ok (fun _ => True) (tcodec s_nsig) /\
  nothing_is no_signature (tcodec s_sig) /\ nothing_is no_nymsig (tcodec s_nsig) /\
  (forall cid p, configured_curve (ev_aries mE) (cf_curve (mconf (Some msigner))) = Some cid -> ev_pack mE cid = Some p -> p = (xX, xM)) /\
  fst (Setup mCD mE [m0] 0 xdraw xdraw (Some (IDEMIX, mraw (mconf (Some msigner))))) = Ok tt /\
  dec (c_conf mCD) (mraw (mconf (Some msigner))) = Some (mconf (Some msigner)) /\
  is_ok (brRevSign (EC := xEC) tT (tcodec s_cri) bsha (Some (str "k" : ec_sk xEC)) [] 0 0 f1) = true /\
  dec (tcodec s_cred) (sc_cred msigner) = Some bcred /\ length (cr_attrs bcred) = 4 /\ rd_r1 (dd_sig xdraw) <> z0 /\
  i_proof mid <> [] /\ Validate mheap 0 (IdSigning msig) = Ok tt /\
  is_ok (let* sig := id_Sign mheap msig xdraw tmsg in id_Verify mheap mid tmsg sig) = true.
Proof.
  split; [intros x _; apply (tcodec_rt s_sig_ok)|]. split; [intros x _; apply (tcodec_rt s_cri_ok)|]. split; [unfold int64; lia|]. split; [intros x _; apply (tcodec_rt s_nsig_ok)|].
  split; [intros x D; discriminate D|]. split; [intros x D; discriminate D|].
  split; [intros cid p _ E; unfold mE in E; cbn [ev_pack] in E; destruct (bytes_eqb cid FP256BN_AMCL); [injection E as <-; reflexivity|discriminate E]|].
  split; [vm_compute; reflexivity|]. split; [exact toy_conf|]. split; [vm_compute; reflexivity|]. split; [vm_compute; reflexivity|]. split; [vm_compute; reflexivity|].
  split; [discriminate|]. split; [vm_compute; discriminate|]. split; [exact mvalid|]. vm_compute. reflexivity.
Qed.
