(** * Which issuance messages make the aries scheme panic (lemmas for C95) *)
From Verif Require Import Base Curve Algebra Spec Dlog Bridge BridgeFacts Bbs BbsSpec BbsFacts BbsProof BbsComplete
  Aries AriesSpec AriesIssue AriesForge BbsPanic.
Unset Strict Implicit.

Lemma skip_skip A (a b : nat) : forall l : list A, skipn a (skipn b l) = skipn (a + b) l.
Proof.
  induction b as [|b IH]; intro l; [rewrite Nat.add_0_r; reflexivity|]. rewrite Nat.add_succ_r. destruct l as [|x l]; [rewrite skipn_nil; reflexivity|exact (IH l)].
Qed.

(** the value of an attribute has the type that the attribute says; [OtherAttr] is no type of the library *)
Definition well_typed (a : attribute) : Prop :=
  match at_type a, at_value a with BytesAttr, VBytes _ | IntAttr, VInt _ | HiddenAttr, _ => True | _, _ => False end.

(** the number of responses that a request announces: 4 bytes behind three points *)
Definition announced_responses (C : Curve) (req : bytes) : Z := os2ip (firstn 4 (skipn (3 * g1_csize C) req)).

Section Panic.
  Context {C : Curve} (OK : CurveOk C) (HG : bytes -> G1 C) (BS : bls_sizes C) (H : hasher C).
  Let KO := ok_zr OK.
  Let GO1 := ok_g1 OK.
  Let S32 : scalar_size C = frCompressedSize := proj1 BS.
  Notation zr := (zcar (Zr C)).
  Notation g1 := (gcar (G1 C)).
  Notation g2 := (gcar (G2 C)).
  Variable c_cred : codec ACredential.

  Lemma proof_panic (p : ProofG1 C) bases cm c : proofG1Verify p bases cm c = Panic <-> length (pf_resp p) < length bases.
  Proof.
    split.
    - intro E. destruct (Nat.le_gt_cases (length bases) (length (pf_resp p))) as [L|L]; [|exact L]. exfalso; revert E; apply (proof_np OK); exact L.
    - intro L. unfold proofG1Verify, getChallengeContribution. rewrite sum_short; [reflexivity|]. rewrite !app_length. cbn [length]. lia.
  Qed.

  Lemma parseBlinded_np b : parseBlindedMessages C b <> Panic.
  Proof.
    unfold parseBlindedMessages. cbv zeta. destruct (2 * g1_csize C <=? length b) eqn:L; cbn [guard bind]; [|discriminate]. apply Nat.leb_le in L.
    apply bind_np; [apply slice_np; lia|]. intros x _. apply bind_np; [apply opt_err_np|]. intros c _.
    apply bind_np; [apply slice_np; lia|]. intros y _. apply bind_np; [apply opt_err_np|]. intros t _.
    apply bind_np; [apply slice_np; lia|]. intros z _. apply bind_np; [apply (parseProofG1_no_panic S32)|]. discriminate.
  Qed.

  Lemma parseBlinded_count req b : parseBlindedMessages C req = Ok b -> Z.of_nat (length (pf_resp (bl_proof b))) = announced_responses C req.
  Proof.
    unfold parseBlindedMessages. cbv zeta. set (cs := g1_csize C). intro E.
    apply bind_ok in E. destruct E as [[] [E0 E]]. apply guard_ok in E0. apply Nat.leb_le in E0.
    apply bind_ok in E. destruct E as [x [_ E]]. apply bind_ok in E. destruct E as [c [_ E]]. apply bind_ok in E. destruct E as [y [_ E]].
    apply bind_ok in E. destruct E as [t [_ E]]. apply bind_ok in E. destruct E as [z [E1 E]]. apply bind_ok in E. destruct E as [p [E2 E]].
    injection E as <-. cbn [bl_proof].
    unfold slice_from, slice in E1. destruct (_ && _); [|discriminate]. injection E1 as <-.
    replace (firstn (length req - (cs + cs)) (skipn (cs + cs) req)) with (skipn (cs + cs) req) in E2 by (symmetry; apply firstn_all2; rewrite skipn_length; lia).
    unfold parseProofG1 in E2. cbv zeta in E2. fold cs in E2. apply bind_ok in E2. destruct E2 as [[] [_ E2]]. apply bind_ok in E2. destruct E2 as [pc [_ E2]].
    apply bind_ok in E2. destruct E2 as [cm [_ E2]]. apply bind_ok in E2. destruct E2 as [lb [E3 E2]].
    unfold slice in E3. destruct (_ && _); [|discriminate]. injection E3 as <-.
    rewrite skip_skip in E2. replace (cs + 4 - cs) with 4 in E2 by lia. replace (cs + (cs + cs)) with (3 * cs) in E2 by lia.
    apply bind_ok in E2. destruct E2 as [[] [G E2]]. apply bind_ok in E2. destruct E2 as [r [E4 E2]]. injection E2 as <-. cbn [pf_resp].
    assert (PL : forall n b o r, parse_responses C n b o = Ok r -> length r = n).
    { induction n as [|n IH]; intros b0 o r0 F; cbn [parse_responses] in F; [injection F as <-; reflexivity|].
      apply bind_ok in F. destruct F as [? [_ F]]. apply bind_ok in F. destruct F as [r1 [F1 F]]. injection F as <-. cbn [length]. rewrite (IH _ _ _ F1). reflexivity. }
    rewrite (PL _ _ _ _ E4). unfold announced_responses. fold cs. apply Z2Nat.id. apply (proj1 (os2ip_bound _)).
  Qed.

  Lemma blindVerify_panic pk n k req nonce : (Z.of_nat (n + 1) <= 4294967295)%Z -> k <= n ->
    arBlindVerify HG H (Z.of_nat k) req (Some (Some (issuer_key HG pk n))) nonce = Panic <->
    (exists b, parseBlindedMessages C req = Ok b) /\ (announced_responses C req < 2)%Z.
  Proof.
    intros B L. unfold arBlindVerify. cbn [assert_ptr bind ip_n ip_pk issuer_key]. rewrite one_at_ok by lia. cbn [bind].
    unfold verifyBlinding, blindVerifyProof. rewrite app_length. cbn [length]. rewrite !repeat_length.
    replace (k + S (n + 1 - k - 1)) with (n + 1) by lia. rewrite (toPKwG_ok OK) by exact B. cbn [bind pg_h pg_h0].
    rewrite bitmap_one by (rewrite gens_length; lia). cbn [bind].
    destruct (parseBlindedMessages C req) as [b| |] eqn:P; cbn [bind].
    - rewrite proof_panic. cbn [length]. pose proof (parseBlinded_count P) as N. split; [intro X; split; [eexists; reflexivity|lia]|intros [_ X]; lia].
    - split; [discriminate|]. intros [[b X] _]; discriminate.
    - destruct (parseBlinded_np P).
  Qed.

  (** ** Values *)
  Lemma well_typed_value a : well_typed a -> exists v, ar_value H a = Ok v.
  Proof. unfold well_typed, ar_value. destruct (at_type a), (at_value a); try contradiction; intros _; eexists; reflexivity. Qed.
  Lemma well_typed_typed a : well_typed a -> typed a.
  Proof. unfold well_typed, typed. destruct (at_type a), (at_value a); try contradiction; discriminate. Qed.

  Lemma to_messages_total attrs : forall i, Forall well_typed attrs ->
    exists ms, to_messages H i attrs = Ok ms /\ length ms + length (filter is_hidden attrs) <= length attrs /\
      Forall (fun m => sm_idx m < i + length attrs) ms.
  Proof.
    induction attrs as [|a attrs IH]; intros i T; cbn [to_messages length filter].
    - exists []. repeat split; [cbn; lia|constructor].
    - inversion T as [|? ? T1 T2]; subst. destruct (well_typed_value T1) as [v Ev]. rewrite Ev. cbn [bind]. destruct (IH (S i) T2) as (ms & -> & Lm & Fm). cbn [bind].
      eexists. split; [reflexivity|].
      assert (Fm' : Forall (fun m : SignatureMessage C => sm_idx m < i + S (length attrs)) ms) by (eapply Forall_impl; [|exact Fm]; intros m X; cbn in X; lia).
      destruct v as [x|].
      + cbn [length]. split; [|constructor; [cbn [sm_idx]; lia|exact Fm']].
        assert (NH : is_hidden a = false). { unfold ar_value in Ev. unfold is_hidden. destruct (at_type a); try reflexivity. discriminate. }
        rewrite NH. lia.
      + split; [|exact Fm']. destruct (is_hidden a); cbn [length]; lia.
  Qed.

  Lemma credSign_np isk req attrs k e s : (Z.of_nat (length attrs + 1) <= 4294967295)%Z -> k <= length attrs -> Forall well_typed attrs ->
    arCredSign HG H c_cred (Z.of_nat k) (Some (Some isk)) req attrs e s <> Panic.
  Proof.
    intros B L T. unfold arCredSign. cbn [assert_ptr bind]. apply bind_np; [apply parseBlinded_np|]. intros b _.
    unfold attributesToSignatureMessage. rewrite zsplit_ok by exact L. cbn [bind].
    assert (Ht : well_typed hidden_attr) by exact I.
    destruct (@to_messages_total (firstn k attrs ++ [hidden_attr] ++ skipn k attrs) 0) as (ms & E & Lm & Fm).
    { apply Forall_app. split; [apply Forall_forall; intros a Ia; rewrite Forall_forall in T; apply T; rewrite <- (firstn_skipn k attrs); apply in_or_app; left; exact Ia|].
      constructor; [exact Ht|]. apply Forall_forall; intros a Ia; rewrite Forall_forall in T; apply T; rewrite <- (firstn_skipn k attrs); apply in_or_app; right; exact Ia. }
    rewrite E. cbn [bind].
    assert (LL : length (firstn k attrs ++ [hidden_attr] ++ skipn k attrs) = length attrs + 1).
    { rewrite !app_length, firstn_length, skipn_length. cbn [length]. lia. }
    rewrite LL in Lm, Fm. cbn [plus] in Fm.
    assert (Lms : length ms <= length attrs).
    { rewrite filter_app, app_length in Lm. cbn [filter app is_hidden hidden_attr at_type length] in Lm. lia. }
    apply bind_np.
    - unfold blindSign, unmarshalPrivateKey. rewrite (ok_zr_len OK), S32, Nat.eqb_refl. cbn [guard bind]. rewrite (toPKwG_ok OK) by exact B. cbn [bind pg_h].
      apply bind_np; [apply guard_np|]. intros _ _. apply bind_np.
      + apply map_np. intros m Im. rewrite Forall_forall in Fm. specialize (Fm m Im).
        destruct (@nth_res_lt _ (gens HG (publicKey (zr_of_bytes C (zr_bytes C (is_sk isk)))) (length attrs + 1)) (sm_idx m)) as [h ->]; [rewrite gens_length; exact Fm|]. discriminate.
      + intros l _. rewrite (build_ok OK) by (intro X; apply app_eq_nil in X; destruct X as [_ X]; discriminate). cbn [bind].
        unfold signWithKeyB. rewrite (toPKwG_ok OK) by exact B. cbn [bind]. rewrite (signatureBytes_enc OK S32). discriminate.
    - intros sig _. unfold cred_attrs. replace (length attrs <? length ms) with false by (symmetry; apply Nat.ltb_ge; exact Lms). cbn [bind]. apply opt_err_np.
  Qed.

  Lemma unblind_np signature blinding : arUnblind C c_cred signature blinding <> Panic.
  Proof.
    unfold arUnblind. cbv zeta. apply bind_np; [apply opt_err_np|]. intros c _. apply bind_np; [|intros; apply opt_err_np].
    unfold unblindSign. apply bind_np; [apply (parseSignature_np HG BS)|]. intros sg _. rewrite (signatureBytes_enc OK S32). discriminate.
  Qed.

  (** ** Credentials *)
  Lemma cred_messages_panic n : forall j k sk attrs attributes, Forall well_typed attributes ->
    cred_messages H n j k sk attrs attributes = Panic <->
    Nat.min (length attrs) (length attributes) + (if ((Z.of_nat j <=? k) && (k <? Z.of_nat (j + n)))%Z then 1 else 0) < n /\
    Forall2 (attr_agrees H) (firstn (length attrs) attributes) (firstn (length attributes) (map (zr_of_bytes C) attrs)).
  Proof.
    induction n as [|n IH]; intros j k sk attrs attributes T; cbn [cred_messages].
    - split; [discriminate|intros [X _]; lia].
    - destruct (Z.of_nat j =? k)%Z eqn:JK.
      + apply Z.eqb_eq in JK.
        assert (X : (let* ms := cred_messages H n (S j) k sk attrs attributes in Ok ({| sm_fr := sk; sm_idx := j |} :: ms)) = Panic <-> cred_messages H n (S j) k sk attrs attributes = Panic).
        { destruct (cred_messages H n (S j) k sk attrs attributes); cbn [bind]; split; congruence. }
        rewrite X, IH by exact T.
        replace ((Z.of_nat (S j) <=? k) && (k <? Z.of_nat (S j + n)))%Z with false by lia.
        replace ((Z.of_nat j <=? k) && (k <? Z.of_nat (j + S n)))%Z with true by lia.
        split; intros [A B]; (split; [lia|exact B]).
      + apply Z.eqb_neq in JK. destruct attrs as [|a attrs]; [|destruct attributes as [|t attributes]].
        * split; [intros _|reflexivity]. cbn [length map]. split; [|cbn [firstn]; destruct (length attributes); constructor].
          cbn [Nat.min]. destruct ((Z.of_nat j <=? k) && (k <? Z.of_nat (j + S n)))%Z eqn:E; lia.
        * split; [intros _|reflexivity]. cbn [length]. split; [|cbn [firstn]; constructor].
          cbn [Nat.min]. destruct ((Z.of_nat j <=? k) && (k <? Z.of_nat (j + S n)))%Z eqn:E; lia.
        * inversion T as [|? ? T1 T2]; subst. destruct (well_typed_value T1) as [v Ev]. rewrite Ev. cbn [bind length map firstn Nat.min].
          pose proof (ar_value_agrees OK (zr_of_bytes C a) (well_typed_typed T1) Ev) as AG.
          assert (ND : (if ((Z.of_nat j <=? k) && (k <? Z.of_nat (j + S n)))%Z then 1 else 0) = (if ((Z.of_nat (S j) <=? k) && (k <? Z.of_nat (S j + n)))%Z then 1 else 0)).
          { replace ((Z.of_nat j <=? k) && (k <? Z.of_nat (j + S n)))%Z with ((Z.of_nat (S j) <=? k) && (k <? Z.of_nat (S j + n)))%Z by lia. reflexivity. }
          destruct (match v with Some x => guard (zeqb x (zr_of_bytes C a)) | None => Ok tt end) as [[]| |] eqn:G; cbn [bind].
          -- assert (X : forall m, (let* ms := cred_messages H n (S j) k sk attrs attributes in Ok (m :: ms)) = Panic <-> cred_messages H n (S j) k sk attrs attributes = Panic).
             { intro m. destruct (cred_messages H n (S j) k sk attrs attributes); cbn [bind]; split; congruence. }
             rewrite X, IH by exact T2. rewrite <- ND. split.
             ++ intros [A B]. split; [lia|]. constructor; [apply AG; reflexivity|exact B].
             ++ intros [A B]. inversion B; subst. split; [lia|assumption].
          -- split; [discriminate|]. intros [_ B]. inversion B as [|? ? ? ? B1 B2]; subst. apply AG in B1. discriminate.
          -- destruct v; [|discriminate]. destruct (guard_np G).
  Qed.

  Lemma credVerify_panic sk pk n credBytes attributes : length attributes = n -> Forall well_typed attributes ->
    arCredVerify H c_cred sk (Some (Some (issuer_key HG pk n))) credBytes attributes = Panic <->
    exists c sg, dec c_cred credBytes = Some c /\ parseSignature C (ac_cred c) = Ok sg /\
      (length (ac_attrs c) < n \/ (ac_skpos c < 0 \/ Z.of_nat n < ac_skpos c)%Z) /\
      Forall2 (attr_agrees H) (firstn (length (ac_attrs c)) attributes) (firstn n (map (zr_of_bytes C) (ac_attrs c))).
  Proof.
    intros LA T. unfold arCredVerify. cbn [assert_ptr bind issuer_key ip_key pg_h]. rewrite gens_length.
    destruct (dec c_cred credBytes) as [c|] eqn:D; cbn [opt_err bind]; [|split; [discriminate|intros (c & sg & X & _); discriminate]].
    destruct (parseSignature C (ac_cred c)) as [sg| |] eqn:P; cbn [bind];
      [|split; [discriminate|intros (c' & sg & X & Y & _); congruence]|destruct (parseSignature_np HG BS P)].
    pose proof (@cred_messages_panic (n + 1) 0 (ac_skpos c) sk (ac_attrs c) attributes T) as CP. rewrite LA in CP.
    destruct (cred_messages H (n + 1) 0 (ac_skpos c) sk (ac_attrs c) attributes) as [sm| |] eqn:M; cbn [bind].
    - split.
      + intro E. exfalso. assert (T' : Forall typed attributes) by (eapply Forall_impl; [|exact T]; exact well_typed_typed).
        rewrite Nat.add_1_r in M. change (ac_skpos c) with (Z.of_nat 0 + ac_skpos c)%Z in M.
        apply (cred_messages_iff OK) in M; [|assumption..]. destruct M as (B1 & B2 & B3 & ->).
        assert (LF : length (firstn n (map (zr_of_bytes C) (ac_attrs c))) = n) by (rewrite firstn_length, map_length; lia).
        assert (WL : length (with_secret (Z.to_nat (ac_skpos c)) sk (firstn n (map (zr_of_bytes C) (ac_attrs c)))) = S n) by (unfold with_secret; rewrite app_length; cbn [length]; rewrite firstn_length, skipn_length, LF; lia).
        unfold signatureVerify in E. rewrite (computeB_ok OK) in E; [|apply number_numbered|cbn [pg_h]; rewrite number_length, gens_length, WL; lia].
        cbn [bind] in E. destruct (guard_np E).
      + intros (c' & sg' & [= <-] & _ & A & B). exfalso. assert (X : @Ok (list (SignatureMessage C)) sm = Panic); [|discriminate]. apply CP. split; [|exact B].
        destruct ((Z.of_nat 0 <=? ac_skpos c) && (ac_skpos c <? Z.of_nat (0 + (n + 1))))%Z eqn:E; lia.
    - split; [discriminate|]. intros (c' & sg' & [= <-] & _ & A & B). exfalso. assert (X : @Err (list (SignatureMessage C)) = Panic); [|discriminate]. apply CP. split; [|exact B].
      destruct ((Z.of_nat 0 <=? ac_skpos c) && (ac_skpos c <? Z.of_nat (0 + (n + 1))))%Z eqn:E; lia.
    - split; [intros _|reflexivity]. destruct (proj1 CP eq_refl) as [A B]. exists c, sg. repeat split; [exact P| |exact B].
      destruct ((Z.of_nat 0 <=? ac_skpos c) && (ac_skpos c <? Z.of_nat (0 + (n + 1))))%Z eqn:E; lia.
  Qed.
End Panic.
