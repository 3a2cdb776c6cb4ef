(** C112: calls on an MSP that overlap a Setup of it. *)
From Verif Require Import Base Curve Bbs Aries ToyBbs ToyAries Dlog Bridge BridgeFacts Translator Toy ToyDlog ToyCodec PropsBridge
  Csp CspInst CspSpec CspFacts ToyCsp Msp MspSpec MspFacts ToyMsp PropsMsp MspConc.
Unset Strict Implicit.

Arguments WName {U}.
Arguments during {U}.
Arguments alone {U}.

(** ** Executions without overlap are those of Msp.v *)
Lemma alone_andthen U (m : msp U) p q : alone m (andthen p q) = (let* _ := alone m p in alone m q).
Proof. induction p as [r|k IH|k IH|k IH|k IH|k IH]; cbn [andthen alone]; [destruct r; reflexivity|apply IH..]. Qed.
Lemma alone_check U (m : msp U) b p : alone m (check b p) = (let* _ := guard b in alone m p).
Proof. destruct b; reflexivity. Qed.
Lemma alone_need U A (m : msp U) (o : option A) k : alone m (need o k) = (let* a := opt_err o in alone m (k a)).
Proof. destruct o; reflexivity. Qed.
Lemma fold_seq {A} (f : A -> res unit) ps : forall r,
  fold_left (fun r x => let* _ := r in f x) ps r = (let* _ := r in fold_right (fun x q => let* _ := f x in q) (Ok tt) ps).
Proof.
  induction ps as [|x ps IH]; intros r; cbn [fold_left fold_right]; [destruct r as [[]| |]; reflexivity|].
  rewrite IH. destruct r as [[]| |]; reflexivity.
Qed.
Lemma alone_all U (m : msp U) (f : principal -> prog U) ps :
  alone m (fold_right (fun cp q => andthen (f cp) q) (Done U (Ok tt)) ps) = fold_right (fun x q => let* _ := alone m (f x) in q) (Ok tt) ps.
Proof. induction ps as [|x ps IH]; cbn [fold_right]; [reflexivity|]. rewrite alone_andthen, IH. reflexivity. Qed.

Lemma alone_validate U (h : heap U) m i : nth_error h (i_msp i) = Some m -> alone m (validate_prog i) = Validate h (i_msp i) (IdPlain i).
Proof.
  intros L. unfold validate_prog, Validate, GetMSPIdentifier. rewrite L. cbn [deref bind alone]. rewrite L. cbn [deref bind].
  rewrite alone_check. destruct (bytes_eqb (p_name m) (p_name m)); reflexivity.
Qed.
Lemma alone_satisfies U CD (h : heap U) m i : nth_error h (i_msp i) = Some m -> forall fuel p,
  alone m (satisfies_prog CD fuel i p) = satisfiesPrincipalValidated CD fuel h m (IdPlain i) p.
Proof.
  intros L fuel. induction fuel as [|fuel IH]; intros p; cbn [satisfies_prog satisfiesPrincipalValidated].
  all: destruct (pr_class p =? P_ROLE)%Z.
  1, 3: rewrite alone_need; destruct (dec (c_role CD) (pr_bytes p)) as [r|]; cbn [opt_err bind]; [|reflexivity];
    cbn [alone]; rewrite alone_check; destruct (bytes_eqb (ro_mspid r) (p_name m)); cbn [guard bind]; [|reflexivity];
    destruct (ro_role r =? MSPRole_MEMBER)%Z; [reflexivity|]; destruct (ro_role r =? MSPRole_ADMIN)%Z; [reflexivity|];
    destruct (ro_role r =? MSPRole_PEER)%Z; [cbn [alone]; rewrite alone_check; destruct (p_version m >=? MSPv1_3)%Z eqn:V; cbn; rewrite ?V; reflexivity|];
    destruct (ro_role r =? MSPRole_CLIENT)%Z; [cbn [alone]; destruct (p_version m >=? MSPv1_3)%Z; reflexivity|reflexivity].
  all: destruct (pr_class p =? P_IDENTITY)%Z.
  1, 3: unfold identity_prog, inner, Serialize, GetMSPIdentifier; cbn [alone bind i_msp nth_error i_raw i_ou i_role i_proof deref set_name p_name]; rewrite L; reflexivity.
  all: destruct (pr_class p =? P_ORGANIZATION_UNIT)%Z.
  1, 3: rewrite alone_need; destruct (dec (c_ou CD) (pr_bytes p)) as [r|]; cbn [opt_err bind]; [|reflexivity]; cbn [alone]; rewrite alone_check; reflexivity.
  all: destruct (pr_class p =? P_COMBINED)%Z.
  1, 3: cbn [alone]; rewrite alone_check; destruct (negb (p_version m <=? MSPv1_1)%Z); cbn [guard bind]; [|reflexivity];
    rewrite alone_need; destruct (dec (c_comb CD) (pr_bytes p)) as [ps|]; cbn [opt_err bind]; [|reflexivity];
    rewrite alone_check; destruct (negb (length ps =? 0)); cbn [guard bind]; [|reflexivity].
  - reflexivity.
  - rewrite fold_seq, alone_all. cbn [bind]. clear - IH. induction ps as [|x ps IH2]; cbn [fold_right]; [reflexivity|]. rewrite IH, IH2. reflexivity.
  - destruct (pr_class p =? P_ANONYMITY)%Z; [|reflexivity]. cbn [alone]. rewrite alone_check.
    destruct (negb (p_version m <=? MSPv1_1)%Z); cbn [guard bind]; [|reflexivity]. rewrite alone_need. destruct (dec (c_anon CD) (pr_bytes p)); reflexivity.
  - destruct (pr_class p =? P_ANONYMITY)%Z; [|reflexivity]. cbn [alone]. rewrite alone_check.
    destruct (negb (p_version m <=? MSPv1_1)%Z); cbn [guard bind]; [|reflexivity]. rewrite alone_need. destruct (dec (c_anon CD) (pr_bytes p)); reflexivity.
Qed.
(** a call that does not overlap a Setup returns what the model of Msp.v says *)
Theorem C112_alone : forall U CD (h : heap U) m i c, nth_error h (i_msp i) = Some m -> alone m (prog_of CD i c) = result CD h i c.
Proof.
  intros U CD h m i [|p|msg sig] L; cbn [prog_of result].
  - exact (alone_validate L).
  - unfold principal_prog, SatisfiesPrincipal. rewrite alone_andthen, (alone_validate L), (alone_satisfies CD L), L. reflexivity.
  - unfold id_Verify. rewrite L. reflexivity.
Qed.
Print Assumptions C112_alone.

Lemma signer_writes_eq U X (M : mathops U) c l m d1 d2 ipk sg :
  fold_left (@apply_write U) (signer_writes X M c l m d1 d2 ipk sg) m = snd (setup_signer X M c l m d1 d2 ipk sg).
Proof.
  unfold signer_writes, setup_signer. destruct (import c (sc_sk sg) _); try reflexivity.
  destruct (fst (KeyDeriv _ _ _ _ _ _)); try reflexivity. destruct (key_public X M _); try reflexivity.
  destruct (csp_Verify _ _ _ _ _) as [[] []|]; try reflexivity. destruct (csp_Sign _ _ _ _ _) as [[]| |]; try reflexivity.
  destruct (newIdemixIdentity _ _ _ _ _ _ _ _); reflexivity.
Qed.
(** the assignments of Setup, all of them, give the object that Setup of Msp.v leaves *)
Theorem C112_setup : forall U CD (E : env U) l m d1 d2 conf,
  fold_left (@apply_write U) (setup_writes CD E l m d1 d2 conf) m = snd (setup_at CD E l m d1 d2 conf).
Proof.
  intros U CD E l m d1 d2 [[ty raw]|]; [|reflexivity]. unfold setup_writes, setup_at.
  destruct (dec (c_conf CD) raw) as [cf|]; [|reflexivity]. cbn [fold_left apply_write].
  destruct (negb _); [reflexivity|]. destruct (curve_id E (cf_curve cf)) as [cid|]; [|reflexivity].
  destruct (ev_pack E cid) as [[X M]|]; [|reflexivity]. destruct (New X M false true) as [c| |]; [|reflexivity..]. cbn [fold_left apply_write].
  destruct (import c (cf_ipk cf) _) as [ipk| |]; [|reflexivity..]. cbn [fold_left apply_write].
  destruct (import c (cf_revpk cf) _) as [rk| |]; [|reflexivity..]. cbn [fold_left apply_write].
  destruct (cf_signer cf) as [sg|]; [|reflexivity]. apply signer_writes_eq.
Qed.
Print Assumptions C112_setup.

(** ** Every call returns what it returns before or after the Setup *)
(** programs that load the name only if [N], the revocation key only if [R], and the issuer key at most once, and only if [K] *)
Inductive loads U (N R : bool) : bool -> prog U -> Prop :=
| l_done K r : loads N R K (Done U r)
| l_name K k : N = true -> (forall x, loads N R K (k x)) -> loads N R K (LdName k)
| l_version K k : (forall x, loads N R K (k x)) -> loads N R K (LdVersion k)
| l_csp K k : (forall x, loads N R K (k x)) -> loads N R K (LdCsp k)
| l_revpk K k : R = true -> (forall x, loads N R K (k x)) -> loads N R K (LdRevpk k)
| l_ipk k : (forall x, loads N R false (k x)) -> loads N R true (LdIpk k).
Lemma loads_weaken U N R (p : prog U) K : loads N R false p -> loads N R K p.
Proof.
  intros H. destruct K; [|exact H]. remember false as K eqn:Q. induction H; try discriminate Q; constructor; auto.
Qed.
Lemma loads_check U N R K b (p : prog U) : loads N R K p -> loads N R K (check b p).
Proof. destruct b; [trivial|constructor]. Qed.
Lemma loads_need U N R K A (o : option A) (k : A -> prog U) : (forall a, loads N R K (k a)) -> loads N R K (need o k).
Proof. intros H. destruct o; [apply H|constructor]. Qed.
Lemma loads_andthen U N R K (p q : prog U) : loads N R K p -> loads N R false q -> loads N R K (andthen p q).
Proof.
  intros H Q. induction H; cbn [andthen]; try (constructor; auto; fail).
  destruct r; [exact (loads_weaken K Q)|constructor..].
Qed.
Lemma loads_verify U (i : identity U) : loads true true true (verify_prog i).
Proof. repeat (constructor; intros). Qed.
Lemma loads_satisfies U CD (i : identity U) fuel : forall p, loads true true false (satisfies_prog CD fuel i p).
Proof.
  induction fuel as [|fuel IH]; intros p; cbn [satisfies_prog];
    repeat first [apply loads_check | apply loads_need; intros | match goal with |- loads _ _ _ (if ?b then _ else _) => destruct b end
                 | unfold identity_prog; constructor; intros; [reflexivity|] | constructor; intros | reflexivity].
  match goal with |- loads _ _ _ (fold_right _ _ ?ps) => induction ps as [|cp cps IH2]; cbn [fold_right]; [constructor|exact (loads_andthen (IH cp) IH2)] end.
Qed.
Lemma loads_validate U (i : identity U) : loads true true true (validate_prog i).
Proof. unfold validate_prog. apply l_name; [reflexivity|]. intros. apply l_name; [reflexivity|]. intros. apply loads_check. apply loads_verify. Qed.
Lemma loads_call U CD (i : identity U) c : loads true true true (prog_of CD i c).
Proof.
  destruct c as [|p|msg sig]; cbn [prog_of].
  - apply loads_validate.
  - apply loads_andthen; [apply loads_validate|apply loads_satisfies].
  - repeat (constructor; intros).
Qed.
Lemma loads_signature U (i : identity U) msg sig : loads false false true (signature_prog i msg sig).
Proof. repeat (constructor; intros). Qed.

Section Kept.
  Variable U : universe.
  Variables N R : bool.
  Definition kept (m m' : msp U) : Prop :=
    (N = true -> p_name m' = p_name m) /\ p_version m' = p_version m /\ p_csp m' = p_csp m /\ (R = true -> p_revpk m' = p_revpk m).
  Definition harmless (m : msp U) (w : write U) : Prop :=
    match w with
    | WName n => N = true -> n = p_name m
    | WCsp c => c = p_csp m
    | WRevpk k => R = true -> Some k = p_revpk m
    | _ => True
    end.
  Definition is_ipk (w : write U) : bool := match w with WIpk _ => true | _ => false end.

  Lemma kept_refl m : kept m m. Proof. repeat split. Qed.
  Lemma kept_trans m m' m'' : kept m m' -> kept m' m'' -> kept m m''.
  Proof. intros (A & B & C & D) (A' & B' & C' & D'). repeat split; try congruence; intros T; [rewrite (A' T); exact (A T)|rewrite (D' T); exact (D T)]. Qed.
  Lemma harmless_kept m w : harmless m w -> kept m (apply_write m w).
  Proof. intros H. destruct w; cbn [harmless] in H; repeat split; cbn; trivial; intros T; exact (H T). Qed.
  Lemma harmless_next m m' w : kept m m' -> harmless m w -> harmless m' w.
  Proof.
    intros (A & _ & C & D) H. destruct w; cbn [harmless] in *; trivial.
    - intros T. rewrite (A T). exact (H T).
    - congruence.
    - intros T. rewrite (D T). exact (H T).
  Qed.
  Lemma harmless_all m m' ws : kept m m' -> Forall (harmless m) ws -> Forall (harmless m') ws.
  Proof. intros A. apply Forall_impl. intros w. exact (harmless_next A). Qed.
  Lemma kept_all ws : forall m, Forall (harmless m) ws -> kept m (fold_left (@apply_write U) ws m).
  Proof.
    induction ws as [|w ws IH]; intros m H; cbn [fold_left]; [apply kept_refl|]. inversion H as [|w' ws' H1 H2]; subst.
    pose proof (harmless_kept H1) as A. exact (kept_trans A (IH _ (harmless_all A H2))).
  Qed.
  Lemma kept_alone p K : loads N R K p -> forall m m', kept m m' -> (K = true -> p_ipk m' = p_ipk m) -> alone m' p = alone m p.
  Proof.
    intros H. induction H as [K r|K k T H IH|K k H IH|K k H IH|K k T H IH|k H IH]; intros m m' A I; cbn [alone]; [reflexivity|..];
      pose proof A as (A1 & A2 & A3 & A4).
    - rewrite (A1 T). exact (IH _ _ _ A I).
    - rewrite A2. exact (IH _ _ _ A I).
    - rewrite A3. exact (IH _ _ _ A I).
    - rewrite (A4 T). exact (IH _ _ _ A I).
    - rewrite (I eq_refl). refine (IH _ _ _ A _). discriminate.
  Qed.
  Lemma other_ipk m w : is_ipk w = false -> p_ipk (apply_write m w) = p_ipk m.
  Proof. destruct w; [reflexivity..|discriminate|reflexivity|reflexivity]. Qed.
  (** if what the program still loads does not change, the schedule does not matter *)
  Lemma during_same cs : forall ws m K p, loads N R K p -> Forall (harmless m) ws -> (K = true -> forallb (fun w => negb (is_ipk w)) ws = true) ->
    during cs ws m p = alone m p.
  Proof.
    induction cs as [|[] cs IH]; intros ws m K p L H I; cbn [during]; [reflexivity|..].
    - destruct ws as [|w ws]; [exact (IH _ _ _ _ L H I)|]. inversion H as [|w' ws' H1 H2]; subst. pose proof (harmless_kept H1) as A.
      transitivity (alone (apply_write m w) p).
      + refine (IH _ _ _ _ L (harmless_all A H2) _). intros T. specialize (I T). cbn [forallb] in I. apply andb_prop in I. exact (proj2 I).
      + refine (kept_alone L A _). intros T. specialize (I T). cbn [forallb] in I. apply andb_prop in I. apply other_ipk.
        destruct (is_ipk w); [destruct I; discriminate|reflexivity].
    - destruct L; cbn [alone]; try reflexivity; try (eapply IH; [eauto|exact H|exact I]).
      eapply IH; [eauto|exact H|discriminate].
  Qed.
  (** if the issuer key is assigned at most once, the call returns what it returns before or after *)
  Lemma during_either cs : forall ws m p, loads N R true p -> Forall (harmless m) ws -> length (filter is_ipk ws) <= 1 ->
    during cs ws m p = alone m p \/ during cs ws m p = alone (fold_left (@apply_write U) ws m) p.
  Proof.
    induction cs as [|[] cs IH]; intros ws m p L H I; cbn [during]; [left; reflexivity|..].
    - destruct ws as [|w ws]; [exact (IH _ _ _ L H I)|]. inversion H as [|w' ws' H1 H2]; subst. pose proof (harmless_kept H1) as A.
      cbn [fold_left]. cbn [filter] in I. destruct (is_ipk w) eqn:W.
      + right. cbn [length] in I. assert (Z : forallb (fun w => negb (is_ipk w)) ws = true).
        { clear - I. induction ws as [|w ws IH]; [reflexivity|]. cbn [filter forallb] in *. destruct (is_ipk w); cbn [length negb andb] in *; [lia|exact (IH I)]. }
        rewrite (during_same cs L (harmless_all A H2) (fun _ => Z)). symmetry. refine (kept_alone L (kept_all (harmless_all A H2)) _). intros _.
        clear - Z. generalize (apply_write m w). induction ws as [|w' ws IH]; intros m'; cbn [fold_left]; [reflexivity|].
        cbn [forallb] in Z. apply andb_prop in Z. destruct Z as [Z1 Z2]. rewrite (IH Z2). apply other_ipk. destruct (is_ipk w'); [discriminate Z1|reflexivity].
      + rewrite <- (kept_alone L A (fun _ => other_ipk m W)). exact (IH _ _ _ L (harmless_all A H2) I).
    - pose proof (kept_all H) as (A1 & A2 & A3 & A4). remember true as K eqn:Q. destruct L; subst; cbn [alone].
      + left. reflexivity.
      + rewrite (A1 H0). apply IH; auto.
      + rewrite A2. apply IH; auto.
      + rewrite A3. apply IH; auto.
      + rewrite (A4 H0). apply IH; auto.
      + left. refine (during_same cs (H0 _) H _). discriminate.
  Qed.
End Kept.

(** Setup assigns the issuer key at most once *)
Lemma setup_one_ipk U CD (E : env U) l m d1 d2 conf : length (filter (@is_ipk U) (setup_writes CD E l m d1 d2 conf)) <= 1.
Proof.
  unfold setup_writes. destruct conf as [[ty raw]|]; [|cbn; lia]. destruct (dec (c_conf CD) raw) as [cf|]; [|cbn; lia].
  destruct (negb _); [cbn; lia|]. destruct (curve_id E (cf_curve cf)) as [cid|]; [|cbn; lia].
  destruct (ev_pack E cid) as [[X M]|]; [|cbn; lia]. destruct (New X M false true) as [c| |]; [|cbn; lia..].
  destruct (import c (cf_ipk cf) _) as [ipk| |]; [|cbn; lia..]. destruct (import c (cf_revpk cf) _) as [rk| |]; [|cbn; lia..].
  destruct (cf_signer cf) as [sg|]; [|cbn; lia]. unfold signer_writes. destruct (setup_signer _ _ _ _ _ _ _ _ _) as [[] m']; [|cbn; lia..].
  destruct (p_signer m'); cbn; lia.
Qed.

(** what a successful Setup leaves in the object *)
Lemma setup_left U CD (E : env U) l m0 d1 d2 ty raw cf m : setup_at CD E l m0 d1 d2 (Some (ty, raw)) = (Ok tt, m) -> dec (c_conf CD) raw = Some cf ->
  exists cid X M c rk, curve_id E (cf_curve cf) = Some cid /\ ev_pack E cid = Some (X, M) /\ New X M false true = Ok c /\
    import c (cf_revpk cf) (IRevPk true) = IOk rk /\ p_name m = cf_name cf /\ p_csp m = Some c /\ p_revpk m = Some rk.
Proof.
  intros S D. pose proof (C112_setup CD E l m0 d1 d2 (Some (ty, raw))) as W. unfold setup_writes in W. unfold setup_at in S, W. rewrite D in S, W.
  cbn zeta in S, W. destruct (negb _); [discriminate S|].
  destruct (curve_id E (cf_curve cf)) as [cid|]; [|discriminate S]. destruct (ev_pack E cid) as [[X M]|] eqn:Pk; [|discriminate S].
  destruct (New X M false true) as [c| |] eqn:Nw; [|discriminate S..].
  destruct (import c (cf_ipk cf) _) as [ipk|k|]; [|destruct k; discriminate S|discriminate S].
  destruct (import c (cf_revpk cf) _) as [rk| |] eqn:I; [|discriminate S..].
  exists cid, X, M, c, rk. split; [reflexivity|]. split; [exact Pk|]. split; [exact Nw|]. split; [exact I|].
  destruct (cf_signer cf) as [sg|].
  - rewrite S in W. cbn [fold_left apply_write snd] in W. unfold signer_writes in W.
    match type of W with context[match ?e with _ => _ end] => destruct e as [[[]| |] m'] end;
      [destruct (p_signer m')|..]; cbn in W; subst m; repeat split.
  - injection S as <-. repeat split.
Qed.

(** For a Setup with the name, curve and revocation public key the MSP already has: every call that overlaps it returns what it
    returns before the Setup or what it returns after it. *)
Theorem C112_partial : forall U CD (E : env U) (h : heap U) l m before e1 e2 ty1 raw1 cf1 d1 d2 ty raw cf i c choices,
  setup_at CD E l before e1 e2 (Some (ty1, raw1)) = (Ok tt, m) -> dec (c_conf CD) raw1 = Some cf1 ->
  dec (c_conf CD) raw = Some cf -> cf_name cf = cf_name cf1 -> cf_curve cf = cf_curve cf1 -> cf_revpk cf = cf_revpk cf1 ->
  nth_error h l = Some m -> i_msp i = l ->
  let r := during choices (setup_writes CD E l m d1 d2 (Some (ty, raw))) m (prog_of CD i c) in
  r = result CD h i c \/ r = result CD (snd (Setup CD E h l d1 d2 (Some (ty, raw)))) i c.
Proof.
  intros U CD E h l m before e1 e2 ty1 raw1 cf1 d1 d2 ty raw cf i c choices S D1 D Qn Qc Qr L Il r. subst l.
  destruct (setup_left S D1) as (cid & X & M & cs & rk & C1 & C2 & C3 & C4 & Nm & Cs & Rk).
  destruct (@during_either U true true choices (setup_writes CD E (i_msp i) m d1 d2 (Some (ty, raw))) m (prog_of CD i c)) as [Q|Q].
  - apply loads_call.
  - unfold setup_writes. rewrite D. constructor; [intros _; congruence|]. destruct (negb _); [constructor|]. rewrite Qc, C1, C2, C3.
    constructor; [exact (eq_sym Cs)|]. destruct (import cs (cf_ipk cf) _) as [ipk| |]; [|constructor..]. constructor; [exact I|].
    rewrite Qr, C4. constructor; [intros _; exact (eq_sym Rk)|]. destruct (cf_signer cf) as [sg|]; [|constructor].
    unfold signer_writes. destruct (setup_signer _ _ _ _ _ _ _ _ _) as [[] m']; [|constructor..]. destruct (p_signer m'); repeat constructor.
  - apply setup_one_ipk.
  - left. unfold r. rewrite Q. exact (C112_alone CD c L).
  - right. unfold r. rewrite Q, C112_setup. apply C112_alone. unfold Setup. rewrite L.
    destruct (setup_at CD E (i_msp i) m d1 d2 (Some (ty, raw))) as [r0 m']. cbn [snd]. exact (put_same m' L).
Qed.
Print Assumptions C112_partial.

(** Verify, for a Setup with the curve the MSP already has, whatever its name and its revocation public key *)
Theorem C112_verify_partial : forall U CD (E : env U) (h : heap U) l m before e1 e2 ty1 raw1 cf1 d1 d2 ty raw cf i msg sig choices,
  setup_at CD E l before e1 e2 (Some (ty1, raw1)) = (Ok tt, m) -> dec (c_conf CD) raw1 = Some cf1 ->
  dec (c_conf CD) raw = Some cf -> cf_curve cf = cf_curve cf1 ->
  nth_error h l = Some m -> i_msp i = l ->
  let r := during choices (setup_writes CD E l m d1 d2 (Some (ty, raw))) m (prog_of CD i (CVerify msg sig)) in
  r = id_Verify h i msg sig \/ r = id_Verify (snd (Setup CD E h l d1 d2 (Some (ty, raw)))) i msg sig.
Proof.
  intros U CD E h l m before e1 e2 ty1 raw1 cf1 d1 d2 ty raw cf i msg sig choices S D1 D Qc L Il r. subst l.
  destruct (setup_left S D1) as (cid & X & M & cs & rk & C1 & C2 & C3 & C4 & Nm & Cs & Rk).
  destruct (@during_either U false false choices (setup_writes CD E (i_msp i) m d1 d2 (Some (ty, raw))) m (prog_of CD i (CVerify msg sig))) as [Q|Q].
  - apply loads_signature.
  - unfold setup_writes. rewrite D. constructor; [intros T; discriminate T|]. destruct (negb _); [constructor|]. rewrite Qc, C1, C2, C3.
    constructor; [exact (eq_sym Cs)|]. destruct (import cs (cf_ipk cf) _) as [ipk| |]; [|constructor..]. constructor; [exact I|].
    destruct (import cs (cf_revpk cf) _) as [rk'| |]; [|constructor..].
    constructor; [intros T; discriminate T|]. destruct (cf_signer cf) as [sg|]; [|constructor].
    unfold signer_writes. destruct (setup_signer _ _ _ _ _ _ _ _ _) as [[] m']; [|constructor..]. destruct (p_signer m'); repeat constructor.
  - apply setup_one_ipk.
  - left. unfold r. rewrite Q. exact (C112_alone CD (CVerify msg sig) L).
  - right. unfold r. rewrite Q, C112_setup. refine (@C112_alone U CD _ _ i (CVerify msg sig) _). unfold Setup. rewrite L.
    destruct (setup_at CD E (i_msp i) m d1 d2 (Some (ty, raw))) as [r0 m']. cbn [snd]. exact (put_same m' L).
Qed.
Print Assumptions C112_verify_partial.

(** ** Any Setup: which keys an overlapping call uses *)
(** the results of a program each of whose loads comes from some object satisfying [P] *)
Fixpoint returns U (P : msp U -> Prop) (p : prog U) (r : res unit) : Prop :=
  match p with
  | Done _ r' => r = r'
  | LdName k => exists m, P m /\ returns P (k (p_name m)) r
  | LdVersion k => exists m, P m /\ returns P (k (p_version m)) r
  | LdCsp k => exists m, P m /\ returns P (k (p_csp m)) r
  | LdIpk k => exists m, P m /\ returns P (k (p_ipk m)) r
  | LdRevpk k => exists m, P m /\ returns P (k (p_revpk m)) r
  end.
Lemma returns_alone U (P : msp U -> Prop) m p : P m -> returns P p (alone m p).
Proof. intros H. induction p; cbn [returns alone]; [reflexivity|exists m; split; auto..]. Qed.
Lemma during_returns U (P : msp U -> Prop) cs : forall ws m p, (forall a b, ws = a ++ b -> P (fold_left (@apply_write U) a m)) -> returns P p (during cs ws m p).
Proof.
  induction cs as [|[] cs IH]; intros ws m p H; pose proof (H [] ws eq_refl) as Hm; cbn [fold_left] in Hm; cbn [during]; [exact (returns_alone p Hm)|..].
  - destruct ws as [|w ws]; [exact (IH _ _ _ H)|]. apply IH. intros a b ->. exact (H (w :: a) b eq_refl).
  - destruct p; cbn [returns]; [reflexivity|exists m; split; auto..].
Qed.
Lemma returns_andthen U (P : msp U -> Prop) q : forall p, returns P (andthen p q) (Ok tt) -> returns P p (Ok tt).
Proof. induction p as [r|k IH|k IH|k IH|k IH|k IH]; cbn [andthen returns]; [destruct r as [[]| |]; cbn; congruence|intros (m & A & B); exists m; auto..]. Qed.

Definition field U (w : write U) : nat := match w with WName _ => 0 | WCsp _ => 1 | WIpk _ => 2 | WRevpk _ => 3 | WSigner _ => 4 end.
Lemma setup_fields U CD (E : env U) l m d1 d2 conf : exists n, map (@field U) (setup_writes CD E l m d1 d2 conf) = firstn n [0; 1; 2; 3; 4].
Proof.
  unfold setup_writes. destruct conf as [[ty raw]|]; [|exists 0; reflexivity]. destruct (dec (c_conf CD) raw) as [cf|]; [|exists 0; reflexivity].
  destruct (negb _); [exists 1; reflexivity|]. destruct (curve_id E (cf_curve cf)) as [cid|]; [|exists 1; reflexivity].
  destruct (ev_pack E cid) as [[X M]|]; [|exists 1; reflexivity]. destruct (New X M false true) as [c| |]; [|exists 2; reflexivity|exists 1; reflexivity].
  destruct (import c (cf_ipk cf) _) as [ipk| |]; [|exists 2; reflexivity..]. destruct (import c (cf_revpk cf) _) as [rk| |]; [|exists 3; reflexivity..].
  destruct (cf_signer cf) as [sg|]; [|exists 4; reflexivity]. unfold signer_writes. destruct (setup_signer _ _ _ _ _ _ _ _ _) as [[] m']; [|exists 4; reflexivity..].
  destruct (p_signer m'); [exists 5|exists 4]; reflexivity.
Qed.
Lemma nodup_firstn {A} n : forall l : list A, NoDup l -> NoDup (firstn n l).
Proof.
  induction n as [|n IH]; intros [|x l] H; cbn [firstn]; try constructor; inversion H as [|x' l' H1 H2]; subst; [|exact (IH l H2)].
  intros I. apply H1. rewrite <- (firstn_skipn n l). apply in_or_app. left. exact I.
Qed.
Lemma nodup_fields n : NoDup (firstn n [0; 1; 2; 3; 4]).
Proof. apply nodup_firstn. repeat constructor; cbn; lia. Qed.
Lemma untouched U {A} (f : msp U -> A) n (F : forall m w, field w <> n -> f (apply_write m w) = f m) ws : forall m,
  ~ In n (map (@field U) ws) -> f (fold_left (@apply_write U) ws m) = f m.
Proof.
  induction ws as [|w ws IH]; intros m H; cbn [fold_left map In] in *; [reflexivity|]. rewrite IH; [apply F|]; intuition.
Qed.
(** a field is assigned at most once: half-way it has its value before or its value after *)
Lemma halfway U {A} (f : msp U -> A) n (F : forall m w, field w <> n -> f (apply_write m w) = f m) ws m a b :
  NoDup (map (@field U) ws) -> ws = a ++ b ->
  f (fold_left (@apply_write U) a m) = f m \/ f (fold_left (@apply_write U) a m) = f (fold_left (@apply_write U) ws m).
Proof.
  intros H ->. rewrite map_app in H. rewrite fold_left_app. destruct (in_dec Nat.eq_dec n (map (@field U) a)) as [I|I].
  - right. symmetry. apply (untouched F). intros J. clear F. induction (map (@field U) a) as [|x l IH]; [destruct I|].
    cbn [app] in H. inversion H as [|x' l' H1 H2]; subst. destruct I as [->|I]; [apply H1, in_or_app; right; exact J|exact (IH H2 I)].
  - left. exact (untouched F m I).
Qed.
Definition mixed U (m m' x : msp U) : Prop :=
  (p_name x = p_name m \/ p_name x = p_name m') /\ (p_csp x = p_csp m \/ p_csp x = p_csp m') /\
  (p_ipk x = p_ipk m \/ p_ipk x = p_ipk m') /\ (p_revpk x = p_revpk m \/ p_revpk x = p_revpk m').
Lemma setup_mixed U CD (E : env U) l m d1 d2 conf a b : setup_writes CD E l m d1 d2 conf = a ++ b ->
  mixed m (snd (setup_at CD E l m d1 d2 conf)) (fold_left (@apply_write U) a m).
Proof.
  intros Q. rewrite <- C112_setup. destruct (setup_fields CD E l m d1 d2 conf) as [n Fn].
  assert (D : NoDup (map (@field U) (setup_writes CD E l m d1 d2 conf))) by (rewrite Fn; apply nodup_fields).
  repeat split; [refine (halfway (n := 0) _ m D Q)|refine (halfway (n := 1) _ m D Q)|refine (halfway (n := 2) _ m D Q)|refine (halfway (n := 3) _ m D Q)];
    intros x [] W; cbn in *; congruence.
Qed.
(** Whatever the Setup: an identity that a call accepts while it runs has a proof that verifies with an issuer key, a CSP and a
    revocation key each of which the MSP has before the Setup or after it. *)
Theorem C112_keys : forall U CD (E : env U) (h : heap U) l m d1 d2 conf i choices,
  nth_error h l = Some m -> i_msp i = l ->
  let m' := snd (setup_at CD E l m d1 d2 conf) in
  let accepted c := during choices (setup_writes CD E l m d1 d2 conf) m (prog_of CD i c) = Ok tt in
  (accepted CValidate \/ exists p, accepted (CSatisfiesPrincipal p)) ->
  exists x, (p_csp x = p_csp m \/ p_csp x = p_csp m') /\ (p_ipk x = p_ipk m \/ p_ipk x = p_ipk m') /\ (p_revpk x = p_revpk m \/ p_revpk x = p_revpk m') /\
    verifyProof x i = Ok tt.
Proof.
  intros U CD E h l m d1 d2 conf i choices L Il m' acc H.
  assert (V : returns (mixed m m') (validate_prog i) (Ok tt)).
  { destruct H as [H|[p H]]; [|apply (returns_andthen (q := satisfies_prog CD (length (pr_bytes p)) i p))]; rewrite <- H; apply during_returns; intros a b; apply setup_mixed. }
  cbn [validate_prog returns] in V. destruct V as (x1 & _ & x2 & _ & V). destruct (bytes_eqb _ _); [|cbn in V; discriminate V].
  cbn [check verify_prog returns] in V. destruct V as (y1 & M1 & y2 & M2 & y3 & M3 & V).
  exists (loaded (p_csp y1) (p_ipk y2) (p_revpk y3)). split; [apply M1|]. split; [apply M2|]. split; [apply M3|]. exact (eq_sym V).
Qed.
Print Assumptions C112_keys.

(** ** The full statement fails *)
(** Validate compares the name of the MSP with itself, but loads it twice: when the Setup of a different name falls in between, no
    identity is valid. *)
Theorem C112_name_refuted : forall U CD (E : env U) m d1 d2 ty raw cf (i : identity U),
  dec (c_conf CD) raw = Some cf -> cf_name cf <> p_name m ->
  exists choices, during choices (setup_writes CD E (i_msp i) m d1 d2 (Some (ty, raw))) m (prog_of CD i CValidate) = Err.
Proof.
  intros U CD E m d1 d2 ty raw cf i D Ne. exists [false; true; false]. unfold setup_writes. rewrite D. cbn [prog_of validate_prog during apply_write set_name p_name].
  destruct (bytes_eqb (p_name m) (cf_name cf)) eqn:B; [|reflexivity]. apply bytes_eqb_eq in B. congruence.
Qed.
Print Assumptions C112_name_refuted.
(** An identity the MSP accepts is, while a Setup runs, a member of the MSP named by the new configuration. *)
Theorem C112_member_refuted : forall U CD (E : env U) (h : heap U) m d1 d2 ty raw cf i p r,
  nth_error h (i_msp i) = Some m -> Validate h (i_msp i) (IdPlain i) = Ok tt -> dec (c_conf CD) raw = Some cf ->
  pr_class p = P_ROLE -> dec (c_role CD) (pr_bytes p) = Some r -> ro_mspid r = cf_name cf -> ro_role r = MSPRole_MEMBER ->
  exists choices, during choices (setup_writes CD E (i_msp i) m d1 d2 (Some (ty, raw))) m (prog_of CD i (CSatisfiesPrincipal p)) = Ok tt.
Proof.
  intros U CD E h m d1 d2 ty raw cf i p r L V D Pc Dr Rm Rr. exists [true]. unfold setup_writes. rewrite D. cbn [during apply_write prog_of].
  set (m2 := set_name m (cf_name cf)).
  assert (V2 : alone m2 (validate_prog i) = Ok tt).
  { rewrite <- (alone_validate L) in V. unfold validate_prog in *. cbn [alone] in *. rewrite alone_check in *. rewrite bytes_eqb_refl in *. exact V. }
  unfold principal_prog. rewrite alone_andthen, V2. cbn [bind].
  destruct (length (pr_bytes p)); cbn [satisfies_prog]; rewrite Pc; cbn [Z.eqb P_ROLE]; rewrite Dr; cbn [need alone]; rewrite Rm, Rr; cbn [m2 set_name p_name]; rewrite bytes_eqb_refl; reflexivity.
Qed.
Print Assumptions C112_member_refuted.

(** a second CA: the MSP of ToyMsp.v is set up again with its key *)
Definition kIR : IssuerRand tC :=
  {| ir_isk := f11 : Zr tC; ir_attrs := ir_attrs tIR; ir_hsk := ir_hsk tIR; ir_hrand := ir_hrand tIR; ir_barg1 := ir_barg1 tIR; ir_r := ir_r tIR |}.
Definition kkey : IssuerKey := from_ok tkey (brNewKey tH tT (tcodec s_ipk) tnames kIR).
Definition kpkraw : bytes := from_ok [] (brPublicKeyBytes (tcodec s_ipk) (match ik_ipk kkey with Some k => k | None => tipk0 end)).
Definition kconf (name : bytes) : msp_config :=
  {| cf_name := name; cf_ipk := kpkraw; cf_signer := None; cf_revpk := xpem (str "k"); cf_epoch := 0; cf_curve := [] |}.
Definition ksetup (f : msp_config) := setup_writes mCD mE 0 m1 xdraw xdraw (Some (IDEMIX, mraw f)).
Definition kafter (f : msp_config) : heap xU := snd (Setup mCD mE mheap 0 xdraw xdraw (Some (IDEMIX, mraw f))).
Definition kmember : principal := {| pr_class := P_ROLE; pr_bytes := ser s_role {| ro_mspid := str "Org2MSP"; ro_role := MSPRole_MEMBER |} |}.

(** a Setup that changes only the issuer key: before it the identity is valid, after it it is not *)
Example C112_example :
  setup_at mCD mE 0 m0 xdraw xdraw (Some (IDEMIX, mraw (mconf (Some msigner)))) = (Ok tt, m1) /\
  dec (c_conf mCD) (mraw (mconf (Some msigner))) = Some (mconf (Some msigner)) /\ dec (c_conf mCD) (mraw (kconf mname)) = Some (kconf mname) /\
  nth_error mheap 0 = Some m1 /\ i_msp mid = 0 /\ fst (Setup mCD mE mheap 0 xdraw xdraw (Some (IDEMIX, mraw (kconf mname)))) = Ok tt /\
  result mCD mheap mid CValidate = Ok tt /\ is_ok (result mCD (kafter (kconf mname)) mid CValidate) = false /\
  during [false; true; true; false; false; false; true] (ksetup (kconf mname)) m1 (prog_of mCD mid CValidate) = Ok tt /\
  is_ok (during [false; true; true; true; false; false; true; false] (ksetup (kconf mname)) m1 (prog_of mCD mid CValidate)) = false.
Proof.
  split; [exact toy_setup|]. split; [exact toy_conf|]. split; [exact (tcodec_dec s_conf_ok (kconf mname))|]. split; [reflexivity|].
  split; [vm_compute; reflexivity|]. split; [vm_compute; reflexivity|]. split; [vm_compute; reflexivity|]. split; [vm_compute; reflexivity|].
  split; vm_compute; reflexivity.
Qed.
(** a Setup that changes only the name: the identity is valid before and after, but not in between *)
Example C112_name_example :
  dec (c_conf mCD) (mraw (mconf2 (xpem (str "k")))) = Some (mconf2 (xpem (str "k"))) /\ cf_name (mconf2 (xpem (str "k"))) <> p_name m1 /\
  result mCD mheap mid CValidate = Ok tt /\ result mCD (kafter (mconf2 (xpem (str "k")))) mid CValidate = Ok tt /\
  during [false; true; false] (ksetup (mconf2 (xpem (str "k")))) m1 (prog_of mCD mid CValidate) = Err.
Proof.
  split; [exact (toy_conf2 _)|]. split; [rewrite (proj1 m1_keys); discriminate|]. split; [vm_compute; reflexivity|].
  split; vm_compute; reflexivity.
Qed.
(** a Setup that changes both: neither before nor after is the identity a member of the MSP Org2MSP, but in between it is *)
Example C112_member_example :
  nth_error mheap (i_msp mid) = Some m1 /\ Validate mheap (i_msp mid) (IdPlain mid) = Ok tt /\
  dec (c_conf mCD) (mraw (kconf (str "Org2MSP"))) = Some (kconf (str "Org2MSP")) /\
  dec (c_role mCD) (pr_bytes kmember) = Some {| ro_mspid := cf_name (kconf (str "Org2MSP")); ro_role := MSPRole_MEMBER |} /\
  fst (Setup mCD mE mheap 0 xdraw xdraw (Some (IDEMIX, mraw (kconf (str "Org2MSP"))))) = Ok tt /\
  is_ok (result mCD mheap mid (CSatisfiesPrincipal kmember)) = false /\
  is_ok (result mCD (kafter (kconf (str "Org2MSP"))) mid (CSatisfiesPrincipal kmember)) = false /\
  during [true] (ksetup (kconf (str "Org2MSP"))) m1 (prog_of mCD mid (CSatisfiesPrincipal kmember)) = Ok tt.
Proof.
  assert (I : i_msp mid = 0) by (vm_compute; reflexivity). rewrite I.
  split; [reflexivity|]. split; [vm_compute; reflexivity|]. split; [exact (tcodec_dec s_conf_ok (kconf (str "Org2MSP")))|].
  split; [exact (tcodec_dec s_role_ok _)|]. split; [vm_compute; reflexivity|]. split; [vm_compute; reflexivity|].
  split; vm_compute; reflexivity.
Qed.
