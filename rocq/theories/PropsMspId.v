(** * Accessors of identities agree with what the MSP checks (C73) *)
From Verif Require Import Base Curve Algebra Spec Bbs Aries ToyBbs ToyAries Dlog DlogSpec DlogComplete DlogAudit Bridge BridgeFacts Translator TranslatorFacts Toy ToyDlog ToyCodec PropsBridge
  Csp CspInst CspSpec CspFacts PropsCsp ToyCsp RunSpec RunFacts Msp MspId MspSpec MspFacts ToyMsp PropsMsp.
Unset Strict Implicit.

(** ** Identifiers *)
Lemma deserialized_nym U CD X M l (m : msp U) ipk r raw i : ready X M m ipk r -> DeserializeIdentity CD X M l m raw = Ok i ->
  exists pk, i_nym i = KNymPublic pk /\ i_raw i = ex (m_g1ToProto M pk) ++ ey (m_g1ToProto M pk) /\ i_msp i = l /\ i_id i = p_name m.
Proof.
  intros [[c [Hc N]] _] D. unfold DeserializeIdentity in D. apply bind_ok in D. destruct D as [s [_ D]]. apply bind_ok in D. destruct D as [[] [_ D]].
  unfold DeserializeIdentityInternal in D. apply bind_ok in D. destruct D as [ii [_ D]].
  destruct (ii_nymx ii) as [x|]; [|discriminate D]. destruct (ii_nymy ii) as [y|]; [|discriminate D]. rewrite Hc in D. cbn [deref bind] in D.
  rewrite (import_nym _ N) in D. clear N. destruct (raw_bytes _) as [b|k|]; [|discriminate D|discriminate D]. cbn [ibind] in D.
  destruct (plain _) as [pk|k|]; [|discriminate D|discriminate D]. cbn [ibind res_of bind] in D.
  apply bind_ok in D. destruct D as [ou [_ D]]. apply bind_ok in D. destruct D as [role [_ D]].
  unfold newIdemixIdentity in D. cbn [key_bytes] in D. injection D as <-. exists pk. repeat split; reflexivity.
Qed.
Lemma nym_bytes_inj U (X : scheme U) (M : mathops U) p q : nym_round_trip X M ->
  ex (m_g1ToProto M p) ++ ey (m_g1ToProto M p) = ex (m_g1ToProto M q) ++ ey (m_g1ToProto M q) -> p = q.
Proof.
  intros RT E. destruct (new_exists X M true) as [c N]. pose proof (RT c p N) as P. pose proof (RT c q N) as Q. clear N.
  rewrite E in P. pose proof (eq_trans (eq_sym P) Q) as F. injection F. exact (fun x => x).
Qed.
Lemma identifier_nym U CD X M l (m : msp U) ipk r raw1 raw2 i1 i2 : nym_round_trip X M -> ready X M m ipk r ->
  DeserializeIdentity CD X M l m raw1 = Ok i1 -> DeserializeIdentity CD X M l m raw2 = Ok i2 ->
  (id_GetIdentifier i1 = id_GetIdentifier i2 <-> i_nym i1 = i_nym i2) /\
  (id_GetIdentifier i1 = id_GetIdentifier i2 -> forall h msg sig, id_Verify h i1 msg sig = id_Verify h i2 msg sig).
Proof.
  intros RT R D1 D2. destruct (deserialized_nym R D1) as (p & N1 & B1 & L1 & I1). destruct (deserialized_nym R D2) as (q & N2 & B2 & L2 & I2).
  assert (J : id_GetIdentifier i1 = id_GetIdentifier i2 -> p = q).
  { unfold id_GetIdentifier. rewrite I1, I2, B1, B2. intro Q. injection Q as Q. exact (nym_bytes_inj RT Q). }
  split; [split|].
  - intro Q. rewrite N1, N2, (J Q). reflexivity.
  - rewrite N1, N2. intro Q. injection Q as ->. unfold id_GetIdentifier. rewrite I1, I2, B1, B2. reflexivity.
  - intros Q h msg sig. unfold id_Verify. rewrite L1, L2, N1, N2, (J Q). reflexivity.
Qed.

(** Two identities read by an MSP have the same identifier exactly if they have the same pseudonym; then
    they accept the same signatures. *)
Theorem C73_identifier_dlog : forall CD C (H : hasher C) (T : translator C) c_ipk c_ik c_req c_cred c_sig c_nsig c_cri EC (EE : ecenv EC) sha256
    l (m : msp (dlogU C EC)) ipk r raw1 raw2 i1 i2,
  let X := dlog_scheme H T c_ipk c_ik c_req c_cred c_sig c_nsig c_cri EE sha256 in
  let M := dlog_math T EE sha256 in
  raw_round_trip T -> ready X M m ipk r ->
  DeserializeIdentity CD X M l m raw1 = Ok i1 -> DeserializeIdentity CD X M l m raw2 = Ok i2 ->
  (id_GetIdentifier i1 = id_GetIdentifier i2 <-> i_nym i1 = i_nym i2) /\
  (id_GetIdentifier i1 = id_GetIdentifier i2 -> forall h msg sig, id_Verify h i1 msg sig = id_Verify h i2 msg sig).
Proof.
  intros CD C H T c_ipk c_ik c_req c_cred c_sig c_nsig c_cri EC EE sha256 l m ipk r raw1 raw2 i1 i2 X M RT R D1 D2.
  refine (identifier_nym _ R D1 D2). apply nym_round_trip_step. intros c pk' b N K.
  exact (@C65_nym_public C H T c_ipk c_ik c_req c_cred c_sig c_nsig c_cri EC EE sha256 true c unit (Dummy _ unit) tt pk' b RT N K).
Qed.
Theorem C73_identifier_aries : forall CD C (OK : CurveOk C) (HG : bytes -> G1 C) (H : hasher C) hkdf c_cred c_sig c_nsig c_cri EC (EE : ecenv EC) sha256
    l (m : msp (ariesU C EC)) ipk r raw1 raw2 i1 i2,
  let X := aries_scheme HG H hkdf c_cred c_sig c_nsig c_cri EE sha256 in
  let M := aries_math (Gurvy C) EE sha256 in
  ready X M m ipk r ->
  DeserializeIdentity CD X M l m raw1 = Ok i1 -> DeserializeIdentity CD X M l m raw2 = Ok i2 ->
  (id_GetIdentifier i1 = id_GetIdentifier i2 <-> i_nym i1 = i_nym i2) /\
  (id_GetIdentifier i1 = id_GetIdentifier i2 -> forall h msg sig, id_Verify h i1 msg sig = id_Verify h i2 msg sig).
Proof.
  intros CD C OK HG H hkdf c_cred c_sig c_nsig c_cri EC EE sha256 l m ipk r raw1 raw2 i1 i2 X M R D1 D2.
  refine (identifier_nym _ R D1 D2). apply nym_round_trip_step. intros c pk' b N K.
  exact (@C65_nym_public_aries C OK HG H hkdf c_cred c_sig c_nsig c_cri EC EE sha256 true c unit (Dummy _ unit) tt pk' b N K).
Qed.

(** ** Organizational units *)
(** GetOrganizationalUnits of a valid identity names one unit, certified by the issuer key the MSP trusts, and
    it is the only unit of this MSP the identity satisfies a principal for, whatever certifier that names. *)
Theorem C73_units : forall U CD (X : scheme U) (M : mathops U) (h : heap U) l m ipk r i b (p : principal) (o : ou_msg),
  nth_error h l = Some m -> i_msp i = l -> ready X M m ipk r -> Validate h l (IdPlain i) = Ok tt -> s_ipkBytes X ipk = Ok b ->
  pr_class p = P_ORGANIZATION_UNIT -> dec (c_ou CD) (pr_bytes p) = Some o -> ou_mspid o = p_name m ->
  exists u, id_GetOrganizationalUnits X M h i = Ok [u] /\ oi_certifiers u = b /\
    (id_SatisfiesPrincipal CD h i (Some p) = Ok tt <-> ou_id o = oi_unit u).
Proof.
  intros U CD X M h l m ipk r i b p o L IM (_ & K & _) V B P D N.
  exists {| oi_certifiers := b; oi_unit := ou_id (i_ou i) |}. split; [|split; [reflexivity|]].
  - unfold id_GetOrganizationalUnits. rewrite IM, L. cbn [deref bind]. rewrite K. cbn [deref bind key_bytes]. rewrite B. reflexivity.
  - unfold id_SatisfiesPrincipal, SatisfiesPrincipal. rewrite IM, L. cbn [deref bind]. rewrite V. cbn [bind].
    destruct (length (pr_bytes p)); cbn [satisfiesPrincipalValidated]; rewrite P; cbn [P_ORGANIZATION_UNIT P_ROLE P_IDENTITY Z.eqb Pos.eqb];
      rewrite D; cbn [opt_err bind]; rewrite N, bytes_eqb_refl; cbn [guard bind plain_identity oi_unit];
      destruct (bytes_eqb_spec (ou_id o) (ou_id (i_ou i))) as [Q|Q]; try rewrite Q; rewrite ?bytes_eqb_refl; cbn [guard]; split; intro F; try reflexivity; try assumption; try discriminate; try contradiction.
Qed.

(** Anonymous() of a valid identity is the answer its MSP gives to anonymity principals. *)
Theorem C73_anonymous : forall U CD (h : heap U) l m i (p : principal) (a : Z),
  nth_error h l = Some m -> i_msp i = l -> Validate h l (IdPlain i) = Ok tt -> (p_version m > MSPv1_1)%Z ->
  pr_class p = P_ANONYMITY -> dec (c_anon CD) (pr_bytes p) = Some a ->
  (id_SatisfiesPrincipal CD h i (Some p) = Ok tt <-> a = if id_Anonymous i then ANONYMOUS else NOMINAL).
Proof.
  intros U CD h l m i p a L IM V W P D. unfold id_SatisfiesPrincipal, SatisfiesPrincipal. rewrite IM, L. cbn [deref bind]. rewrite V. cbn [bind].
  assert (W' : (p_version m <=? MSPv1_1)%Z = false) by (apply Z.leb_gt; lia).
  destruct (length (pr_bytes p)); cbn [satisfiesPrincipalValidated]; rewrite P; cbn [P_ANONYMITY P_ORGANIZATION_UNIT P_ROLE P_IDENTITY P_COMBINED Z.eqb Pos.eqb];
    rewrite W', D; cbn [negb guard opt_err bind id_Anonymous]; destruct (Z.eqb_spec a ANONYMOUS); cbn [guard]; split; intro F; congruence.
Qed.

(** ** The MSP an identity names *)
(** A history of an application with several MSPs: setting one up, asking for its default identity, reading
    an identity ([X], [M] are those of the CSP; here they are arbitrary). *)
Inductive event (U : universe) :=
| ESetup (l : nat) (d1 d2 : u_draw U) (conf : option (Z * bytes))
| EDefault (l : nat)
| ERead (l : nat) (X : scheme U) (M : mathops U) (raw : bytes).
(** the MSPs and the identities handed out so far *)
Definition after U CD (E : nat -> env U) (st : heap U * list (identity U)) (e : event U) : heap U * list (identity U) :=
  let '(h, ids) := st in
  match e with
  | ESetup l d1 d2 conf => (snd (Setup CD (E l) h l d1 d2 conf), ids)
  | EDefault _ l => match (let* m := deref (nth_error h l) in GetDefaultSigningIdentity m) with Ok s => (h, g_identity s :: ids) | _ => st end
  | ERead l X M raw => match (let* m := deref (nth_error h l) in DeserializeIdentity CD X M l m raw) with Ok i => (h, i :: ids) | _ => st end
  end.

Definition named U (names : nat -> bytes) (h : heap U) : Prop :=
  forall l m, nth_error h l = Some m -> (p_csp m <> None -> p_name m = names l) /\
    forall s, p_signer m = Some s -> p_csp m <> None /\ i_id (g_identity s) = names l /\ i_msp (g_identity s) = l.
Definition belongs U (names : nat -> bytes) (h : heap U) (i : identity U) : Prop :=
  exists m, nth_error h (i_msp i) = Some m /\ p_name m = names (i_msp i) /\ i_id i = names (i_msp i).

Lemma setup_renames U CD (E : env U) l m d1 d2 conf r m' : setup_at CD E l m d1 d2 conf = (r, m') ->
  (m' = m /\ forall ty raw, conf = Some (ty, raw) -> dec (c_conf CD) raw = None) \/
  exists ty raw cf, conf = Some (ty, raw) /\ dec (c_conf CD) raw = Some cf /\ p_name m' = cf_name cf /\ (p_csp m <> None -> p_csp m' <> None).
Proof.
  intros S. unfold setup_at in S.
  destruct conf as [[ty raw]|]; [|injection S as <- <-; left; split; [reflexivity|discriminate]].
  destruct (dec (c_conf CD) raw) as [cf|] eqn:D; [|injection S as <- <-; left; split; [reflexivity|intros ty' raw' [= <- <-]; exact D]].
  right. exists ty, raw, cf. split; [reflexivity|]. split; [exact D|].
  destruct (negb _); [injection S as <- <-; auto|].
  destruct (curve_id E (cf_curve cf)) as [cid|]; [|injection S as <- <-; auto].
  destruct (ev_pack E cid) as [[X M]|]; [|injection S as <- <-; auto].
  destruct (new_exists X M true) as [c N]. rewrite N in S.
  rewrite (import_ipk _ N), (import_revpk _ N) in S.
  destruct (let+ b := _ in _) as [ipk|k|] eqn:I1 in S; [|injection S as <- <-; clear; split; [reflexivity|discriminate]|injection S as <- <-; clear; split; [reflexivity|discriminate]].
  destruct (let+ b := _ in _) as [rpk|k|] eqn:I2 in S; [|injection S as <- <-; clear; split; [reflexivity|discriminate]|injection S as <- <-; clear; split; [reflexivity|discriminate]].
  destruct (cf_signer cf) as [sg|]; [|injection S as <- <-; clear; split; [reflexivity|discriminate]].
  assert (K : exists pk, ipk = KIssuerPublic pk).
  { clear S N. destruct (raw_bytes _) as [b|k|]; cbn [ibind] in I1; [|discriminate I1|discriminate I1].
    destruct (s_issuerPkFromBytes X b attribute_names) as [pk|k|]; cbn [ibind] in I1; [|discriminate I1|discriminate I1].
    injection I1 as <-. exists pk. reflexivity. }
  destruct K as [pk ->]. rewrite (setup_signer_eq _ _ _ _ _ _ N) in S. clear N. cbn zeta in S.
  destruct (if length (sc_sk sg) =? 0 then Err else s_userKeyFromBytes X (sc_sk sg)) as [sk| |]; [|injection S as <- <-; clear; split; [reflexivity|discriminate]|injection S as <- <-; clear; split; [reflexivity|discriminate]].
  destruct (s_makeNym X d1 sk pk) as [[nym rn]| |]; [|injection S as <- <-; clear; split; [reflexivity|discriminate]|injection S as <- <-; clear; split; [reflexivity|discriminate]].
  destruct (if length (sc_cred sg) =? 0 then Err else _) as [[]| |]; [|injection S as <- <-; clear; split; [reflexivity|discriminate]|injection S as <- <-; clear; split; [reflexivity|discriminate]].
  destruct (s_sign _ _ _ _ _ _ _ _ _ _ _ _ _ _) as [[proof md]| |]; injection S as <- <-; clear; split; (reflexivity || discriminate).
Qed.
Lemma setup_signer_id U CD (E : env U) l m d1 d2 conf r m' : setup_at CD E l m d1 d2 conf = (r, m') ->
  p_signer m' = p_signer m \/ exists s, p_signer m' = Some s /\ p_csp m' <> None /\ i_id (g_identity s) = p_name m' /\ i_msp (g_identity s) = l.
Proof.
  intros S. destruct r as [[]| |]; [|left; exact (proj2 (setup_keeps S) ltac:(discriminate))|left; exact (proj2 (setup_keeps S) ltac:(discriminate))].
  destruct (setup_ok_inv S) as (ty & raw & cf & cid & X & M & ipk & rpk & _ & _ & _ & _ & _ & _ & _ & _ & _ & ((c & Hc & _) & _) & Nm & SG).
  destruct (cf_signer cf) as [sg|]; [|left; exact SG]. right. destruct SG as (s & Q1 & (sk & nym & rn & md & _ & _ & _ & _ & _ & _ & Q2 & _)).
  exists s. split; [exact Q1|]. split; [rewrite Hc; discriminate|]. rewrite Q2, Nm. split; reflexivity.
Qed.

Definition consistent U CD (names : nat -> bytes) (e : event U) : Prop :=
  match e with ESetup l _ _ (Some (_, raw)) => forall cf, dec (c_conf CD) raw = Some cf -> cf_name cf = names l | _ => True end.

Lemma after_named U CD (E : nat -> env U) names h ids (e : event U) h' ids' : consistent CD names e -> named names h -> Forall (belongs names h) ids ->
  after CD E (h, ids) e = (h', ids') -> named names h' /\ Forall (belongs names h') ids'.
Proof.
  intros CO NM BL A. destruct e as [l d1 d2 conf|l|l X M raw]; cbn [after] in A.
  - injection A as <- <-. unfold Setup. destruct (nth_error h l) as [m|] eqn:L; [|split; assumption].
    destruct (setup_at CD (E l) l m d1 d2 conf) as [r m'] eqn:S. cbn [snd].
    assert (Nm' : p_csp m' <> None -> p_name m' = names l).
    { destruct (setup_renames S) as [[-> _]|(ty & raw & cf & -> & D & Q & _)]; [exact (proj1 (NM l m L))|]. intros _. rewrite Q. exact (CO cf D). }
    assert (Keep : p_csp m <> None -> p_csp m' <> None) by (destruct (setup_renames S) as [[-> _]|(ty & raw & cf & _ & _ & _ & Q)]; [exact (fun x => x)|exact Q]).
    split.
    + intros j x J. destruct (Nat.eq_dec j l) as [->|NE]; [|rewrite put_other in J by exact NE; exact (NM j x J)].
      rewrite (put_same m' L) in J. injection J as <-. split; [exact Nm'|]. intros s Hs.
      destruct (setup_signer_id S) as [Q|(s' & Q1 & Q2 & Q3 & Q4)].
      * rewrite Q in Hs. destruct (proj2 (NM l m L) s Hs) as (F1 & F2 & F3). split; [exact (Keep F1)|split; assumption].
      * rewrite Q1 in Hs. injection Hs as <-. split; [exact Q2|]. split; [rewrite Q3; exact (Nm' Q2)|exact Q4].
    + refine (Forall_impl _ _ BL). intros i (x & J & F1 & F2). destruct (Nat.eq_dec (i_msp i) l) as [EQ|NE].
      * exists m'. rewrite EQ in *. split; [exact (put_same m' L)|]. split; [|exact F2].
        rewrite L in J. injection J as <-. destruct (setup_renames S) as [[-> _]|(ty & raw & cf & -> & D & Q & _)]; [exact F1|]. rewrite Q. exact (CO cf D).
      * exists x. rewrite put_other by exact NE. split; [exact J|split; assumption].
  - destruct (nth_error h l) as [m|] eqn:L; cbn [deref bind] in A; [|injection A as <- <-; split; assumption].
    unfold GetDefaultSigningIdentity in A. destruct (p_signer m) as [s|] eqn:Hs; cbn [opt_err] in A; [|injection A as <- <-; split; assumption].
    injection A as <- <-. split; [exact NM|]. constructor; [|exact BL]. destruct (proj2 (NM l m L) s Hs) as (F1 & F2 & F3).
    exists m. rewrite F3. split; [exact L|]. split; [exact (proj1 (NM l m L) F1)|exact F2].
  - destruct (nth_error h l) as [m|] eqn:L; cbn [deref bind] in A; [|injection A as <- <-; split; assumption].
    destruct (DeserializeIdentity CD X M l m raw) as [i| |] eqn:D; [|injection A as <- <-; split; assumption|injection A as <- <-; split; assumption].
    injection A as <- <-. split; [exact NM|]. constructor; [|exact BL].
    unfold DeserializeIdentity in D. apply bind_ok in D. destruct D as [s0 [_ D]]. apply bind_ok in D. destruct D as [[] [_ D]].
    unfold DeserializeIdentityInternal in D. apply bind_ok in D. destruct D as [ii [_ D]].
    destruct (ii_nymx ii); [|discriminate D]. destruct (ii_nymy ii); [|discriminate D]. apply bind_ok in D. destruct D as [c [Hc D]].
    apply bind_ok in D. destruct D as [nym [_ D]]. apply bind_ok in D. destruct D as [ou [_ D]]. apply bind_ok in D. destruct D as [role [_ D]].
    unfold newIdemixIdentity in D. destruct (key_bytes X M nym); [|discriminate D|discriminate D]. injection D as <-.
    assert (Q : p_name m = names l) by (apply (proj1 (NM l m L)); intro F; rewrite F in Hc; discriminate Hc).
    exists m. cbn. split; [exact L|]. split; exact Q.
Qed.

(** In every history in which each MSP is only ever set up under one name (successfully or not), every
    identity handed out names, in its identifier and as its MSP, the name of its MSP. *)
Theorem C73_history_partial : forall U CD (E : nat -> env U) (names : nat -> bytes) (versions : list Z) (events : list (event U)),
  (forall e, In e events -> consistent CD names e) ->
  forall h ids, fold_left (after CD E) events (map (NewIdemixMsp U) versions, []) = (h, ids) ->
  forall i, In i ids -> GetMSPIdentifier h i = Ok (names (i_msp i)) /\ id_mspid (id_GetIdentifier i) = names (i_msp i).
Proof.
  intros U CD E names versions events CO h ids R i I.
  assert (G : forall h0 ids0, named names h0 -> Forall (belongs names h0) ids0 -> fold_left (after CD E) events (h0, ids0) = (h, ids) -> named names h /\ Forall (belongs names h) ids).
  { clear R I. revert CO. induction events as [|e es IH]; intros CO h0 ids0 N0 B0 R; [injection R as <- <-; split; assumption|].
    cbn [fold_left] in R. destruct (after CD E (h0, ids0) e) as [h1 ids1] eqn:A.
    destruct (after_named (CO e (or_introl eq_refl)) N0 B0 A) as [N1 B1]. exact (IH (fun e' Hin => CO e' (or_intror Hin)) h1 ids1 N1 B1 R). }
  assert (N0 : named names (map (NewIdemixMsp U) versions)).
  { intros l m L. apply nth_error_In, in_map_iff in L. destruct L as (v & <- & _). split; [intros F; contradiction F; reflexivity|discriminate]. }
  destruct (G _ _ N0 (Forall_nil _) R) as [_ B].
  rewrite Forall_forall in B. destruct (B i I) as (m & L & Q1 & Q2). unfold GetMSPIdentifier, id_GetIdentifier. rewrite L. cbn. rewrite Q1. split; [reflexivity|exact Q2].
Qed.

(** Full claim: the same without the condition on the names.  It is false: after an attempt to set the MSP up
    under another name, even one that fails, earlier identities report the old name in their identifier and
    the new one as their MSP. *)
Theorem C73_refuted : forall U CD (E : env U) h l m d1 d2 ty raw cf i,
  nth_error h l = Some m -> i_msp i = l -> i_id i = p_name m -> dec (c_conf CD) raw = Some cf -> cf_name cf <> p_name m ->
  let h' := snd (Setup CD E h l d1 d2 (Some (ty, raw))) in
  GetMSPIdentifier h i = Ok (id_mspid (id_GetIdentifier i)) /\
  GetMSPIdentifier h' i = Ok (cf_name cf) /\ id_mspid (id_GetIdentifier i) <> cf_name cf.
Proof.
  intros U CD E h l m d1 d2 ty raw cf i L IM ID D NE h'. unfold h', Setup, GetMSPIdentifier, id_GetIdentifier. cbn [id_mspid]. rewrite IM, L, ID. cbn [deref bind].
  split; [reflexivity|]. split; [|congruence].
  destruct (setup_at CD E l m d1 d2 (Some (ty, raw))) as [r m'] eqn:S. cbn [snd]. rewrite (put_same m' L). cbn [deref bind].
  destruct (setup_renames S) as [[_ F]|(ty' & raw' & cf' & Q & D' & Q1 & _)].
  - specialize (F ty raw eq_refl). rewrite D in F. discriminate F.
  - injection Q as <- <-. rewrite D in D'. injection D' as <-. rewrite Q1. reflexivity.
Qed.

(** The MSP of ToyMsp.v and its default identity. *)
Definition mread : res (identity xU) := let* b := Serialize mCD mheap mid in DeserializeIdentity mCD xX xM 0 m1 b.
Definition mevents : list (event xU) :=
  [ESetup 0 xdraw xdraw (Some (IDEMIX, mraw (mconf (Some msigner)))); EDefault xU 0].
Example C73_example :
  raw_round_trip tT /\ (exists ipk r, ready xX xM m1 ipk r) /\ is_ok mread = true /\
  is_ok (let* i := mread in guard (bytes_eqb (id_id (id_GetIdentifier i)) (id_id (id_GetIdentifier mid)))) = true /\
  Validate mheap 0 (IdPlain mid) = Ok tt /\
  match id_GetOrganizationalUnits xX xM mheap mid with Ok [u] => oi_unit u = str "ou" | _ => False end /\
  id_SatisfiesPrincipal mCD mheap mid (Some (pou (str "ou"))) = Ok tt /\ id_SatisfiesPrincipal mCD mheap mid (Some (pou (str "ou2"))) = Err.
Proof.
  destruct C53_example as (_ & E1 & _). split; [exact E1|]. split; [exact toy_ready|].
  vm_compute. repeat split; reflexivity.
Qed.
Example C73_anonymous_example :
  nth_error mheap 0 = Some m1 /\ i_msp mid = 0 /\ Validate mheap 0 (IdPlain mid) = Ok tt /\ (p_version m1 > MSPv1_1)%Z /\
  id_SatisfiesPrincipal mCD mheap mid (Some panon) = Ok tt /\
  id_SatisfiesPrincipal mCD mheap mid (Some {| pr_class := P_ANONYMITY; pr_bytes := ser s_Z NOMINAL |}) = Err.
Proof. split; [reflexivity|]. vm_compute. repeat split; reflexivity. Qed.
Example C73_history_example :
  (forall e, In e mevents -> consistent mCD (fun _ => mname) e) /\
  length (snd (fold_left (after mCD (fun _ => mE)) mevents (map (NewIdemixMsp xU) [2%Z], []))) = 1.
Proof.
  split; [|vm_compute; reflexivity]. intros e [<-|[<-|[]]]; [|exact I]. intros cf D. rewrite toy_conf in D. injection D as <-. reflexivity.
Qed.
Example C73_refuted_example : nth_error mheap 0 = Some m1 /\ i_msp mid = 0 /\ i_id mid = p_name m1 /\
  dec (c_conf mCD) (mraw (mconf2 [])) = Some (mconf2 []) /\ cf_name (mconf2 []) <> p_name m1.
Proof.
  split; [reflexivity|]. split; [vm_compute; reflexivity|]. split; [vm_compute; reflexivity|]. split; [exact (toy_conf2 [])|].
  rewrite (proj1 m1_keys). vm_compute. discriminate.
Qed.

Print Assumptions C73_identifier_dlog.
Print Assumptions C73_identifier_aries.
Print Assumptions C73_units.
Print Assumptions C73_anonymous.
Print Assumptions C73_history_partial.
Print Assumptions C73_refuted.
