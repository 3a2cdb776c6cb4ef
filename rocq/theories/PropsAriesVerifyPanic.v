(** * Exactly which signatures make Signer.Verify of the aries scheme panic (C39)

    Reading guide: [arVerify_first … = Ok f] says that everything in the signature decodes; [f] holds the decoded parts:
    the proof [vf_sp], the proofs of the pseudonym, the enrollment id and the revocation handle ([vf_nymp], [vf_eid], [vf_rh]),
    the disclosed positions [vf_revealed] and the bytes that are hashed to the challenge [vf_data]. *)
From Verif Require Import Base Curve Algebra Spec Dlog Bridge BridgeFacts Bbs BbsSpec BbsFacts BbsProof BbsComplete
  Aries AriesSpec AriesIssue AriesNym AriesVerify AriesSign AriesSound AriesForge BbsPanic AriesPanic Toy ToyBbs ToyCodec ToyAries PropsPanic PropsPanicIff PropsAries.
Unset Strict Implicit.

(** ** Vocabulary *)
(** Checks made one after the other.  A check is a pair: what must be there for the check to be made at all, and what the check
    asks.  The checks crash if the first one that does not pass is one that cannot be made. *)
Definition crashes (checks : list (Prop * Prop)) : Prop :=
  exists i there asked, nth_error checks i = Some (there, asked) /\ ~ there /\
  forall j there' asked', j < i -> nth_error checks j = Some (there', asked') -> there' /\ asked'.

(** The proof that a commitment [nym] over [h0] and [h] opens to the hidden message with the response at position [pos]. *)
Definition nym_check C (h0 h : G1 C) (c : Zr C) (responses : list (Zr C)) (pos : Z) (x : option (ProofG1 C * G1 C)) : Prop * Prop :=
  (forall p nym, x = Some (p, nym) -> 2 <= length (pf_resp p) /\ (0 <= pos < Z.of_nat (length responses))%Z,
   forall p nym, x = Some (p, nym) -> nth_error (pf_resp p) 1 = nth_error responses (Z.to_nat pos) /\ gdot [h0; h; nym] (pf_resp p ++ [c]) = pf_comm p).
(** The caller's audit data for a commitment. *)
Definition audit_check C (h0 h : G1 C) (x : option (ProofG1 C * G1 C)) (meta : option (Metadata C)) (data : Metadata C -> option (AuditData C)) (raw : Metadata C -> bytes) : Prop * Prop :=
  (True, forall p nym m, x = Some (p, nym) -> meta = Some m ->
     (forall d, data m = Some d -> exists a r, au_attr d = Some a /\ au_rand d = Some r /\ (h ⊗ a) ⊕ (h0 ⊗ r) = nym /\ forall y, au_nym d = Some y -> y = nym) /\
     (raw m <> [] -> g1_of_bytes C (raw m) = Some nym)).

Definition verify_checks C (HG : bytes -> G1 C) (pk : G2 C) (n eid rh : nat) (v : VerificationType) (meta : option (Metadata C)) (f : AVerFirst C) (c : Zr C) : list (Prop * Prop) :=
  let h0 := gen0 HG pk (n + 1) in let h i := base_at HG pk n i in
  let sp := vf_sp f in let responses := pf_resp (sp_vc2 sp) in
  [ audit_check h0 (h (S eid)) (vf_eid f) meta (@md_eid_data C) (@md_eid C);
    audit_check h0 (h (S rh)) (vf_rh f) meta (@md_rh_data C) (@md_rh C);
    nym_check h0 (h 0) c responses 2 (option_map (fun p => (p, vf_nym f)) (vf_nymp f));
    nym_check h0 (h (S eid)) c responses (as_eid_idx (vf_sig f)) (vf_eid f);
    nym_check h0 (h (S rh)) c responses (as_rh_idx (vf_sig f)) (vf_rh f);
    (True, pair C pk (sp_aprime sp) = pair C (genG2 C) (sp_abar sp));
    (2 <= length (pf_resp (sp_vc1 sp)), gdot [sp_aprime sp; h0; sp_abar sp ⊖ sp_d sp] (pf_resp (sp_vc1 sp) ++ [c]) = pf_comm (sp_vc1 sp));
    (2 + hidden_before (ver_smartcard v) (vf_revealed f) (n + 1) <= length responses, True) ].

Lemma crash_nil : crashes [] <-> False.
Proof. split; [|tauto]. intros (i & a & b & E & _). destruct i; discriminate. Qed.

Lemma crash_cons (m K : res unit) (e h : Prop) cs : (m = Ok tt <-> e /\ h) -> (m = Panic <-> ~ e) -> (m = Ok tt -> K = Panic <-> crashes cs) ->
  (let* _ := m in K) = Panic <-> crashes ((e, h) :: cs).
Proof.
  intros O P R. destruct m as [[]| |]; cbn [bind].
  - destruct (proj1 O eq_refl) as [He Hh]. rewrite (R eq_refl). split.
    + intros (i & a & b & E & N & F). exists (S i), a, b. split; [exact E|]. split; [exact N|]. intros [|j] a' b' L E'; [injection E' as <- <-; auto|]. apply (F j); [lia|exact E'].
    + intros ([|i] & a & b & E & N & F); [injection E as <- <-; contradiction|]. exists i, a, b. split; [exact E|]. split; [exact N|]. intros j a' b' L E'. apply (F (S j)); [lia|exact E'].
  - split; [discriminate|]. intros ([|i] & a & b & E & N & F).
    + injection E as <- <-. apply P in N. discriminate.
    + destruct (F 0 e h ltac:(lia) eq_refl) as [He Hh]. assert (X : @Err unit = Ok tt) by (apply O; auto). discriminate.
  - split; [|reflexivity]. intros _. exists 0, e, h. split; [reflexivity|]. split; [apply P; reflexivity|]. intros j a b L. lia.
Qed.

(** a last check without a continuation *)
Lemma crash_last (m : res unit) (e : Prop) : (m = Panic <-> ~ e) -> m = Panic <-> crashes [(e, True)].
Proof.
  intro P. rewrite P. split.
  - intro N. exists 0, e, True. split; [reflexivity|]. split; [exact N|]. intros j a b L. lia.
  - intros ([|[|i]] & a & b & E & N & _); try discriminate. injection E as <- <-. exact N.
Qed.

Section VerifyPanic.
  Context {C : Curve} (OK : CurveOk C) (HG : bytes -> G1 C) (BS : bls_sizes C).
  Let KO := ok_zr OK.
  Let GO1 := ok_g1 OK.
  Let GOT := ok_gt OK.
  Notation zr := (zcar (Zr C)).
  Notation g1 := (gcar (G1 C)).
  Variable c_sig : codec ASignature.

  Lemma nym_panic pk n k (p : ProofG1 C) nym (vc2 : ProofG1 C) pos c : k <= n ->
    verify_attr_nym (ip_key (issuer_key HG pk n)) (Z.of_nat k) p nym vc2 pos c = Panic <->
    ~ (2 <= length (pf_resp p) /\ (0 <= pos < Z.of_nat (length (pf_resp vc2)))%Z).
  Proof.
    intro Lk. split.
    - intros E [A B]. exact (attr_nym_np OK BS Lk A B E).
    - intro N. unfold verify_attr_nym. destruct (Nat.le_gt_cases 2 (length (pf_resp p))) as [L|L].
      + unfold nth_res at 1. destruct (nth_error (pf_resp p) 1) eqn:E; [|apply nth_error_None in E; lia]. cbn [bind]. unfold znth at 1.
        destruct (pos <? 0)%Z eqn:Q; [reflexivity|]. unfold nth_res at 1. rewrite (proj2 (nth_error_None _ _)); [reflexivity|]. lia.
      + unfold nth_res at 1. rewrite (proj2 (nth_error_None _ _)); [reflexivity|]. lia.
  Qed.

  Lemma nym_step pk n k (x : option (ProofG1 C * G1 C)) (vc2 : ProofG1 C) pos c (K : res unit) cs : k <= n ->
    (K = Panic <-> crashes cs) ->
    (let* _ := match x with Some (p, nym) => verify_attr_nym (ip_key (issuer_key HG pk n)) (Z.of_nat k) p nym vc2 pos c | None => Ok tt end in K) = Panic <->
    crashes (nym_check (gen0 HG pk (n + 1)) (base_at HG pk n k) c (pf_resp vc2) pos x :: cs).
  Proof.
    intros Lk R. unfold nym_check. apply crash_cons; [| |intros _; exact R].
    - destruct x as [[p nym]|].
      2:{ split; [intros _; split; intros; discriminate|reflexivity]. }
      rewrite (verify_attr_nym_iff OK HG BS pk p nym vc2 pos c Lk). split.
      + intros (y & j & E1 & -> & E2 & E3). assert (J : j < length (pf_resp vc2)) by (apply nth_error_Some; congruence). assert (I : 1 < length (pf_resp p)) by (apply nth_error_Some; congruence).
        split; intros p' nym' Q; injection Q as <- <-.
        * split; [lia|lia].
        * rewrite Nat2Z.id. split; [congruence|exact E3].
      + intros [A B]. destruct (A p nym eq_refl) as [A1 A2]. destruct (B p nym eq_refl) as [B1 B2].
        destruct (nth_error (pf_resp p) 1) as [y|] eqn:E1; [|apply nth_error_None in E1; lia]. exists y, (Z.to_nat pos).
        split; [reflexivity|]. split; [lia|]. split; [symmetry; exact B1|exact B2].
    - destruct x as [[p nym]|].
      + rewrite (nym_panic pk p nym vc2 pos c Lk). split.
        * intros N A. apply N. exact (A p nym eq_refl).
        * intros N A. apply N. intros p' nym' Q. injection Q as <- <-. exact A.
      + split; [discriminate|]. intro N. exfalso. apply N. intros; discriminate.
  Qed.

  Lemma audit_step pk n k (x : option (ProofG1 C * G1 C)) (meta : option (Metadata C)) data raw (K : res unit) cs : k <= n ->
    (forall m, meta = Some m -> usable (data m)) -> (K = Panic <-> crashes cs) ->
    (let* _ := match x, meta with Some (_, nym), Some m => ar_check_meta (ip_key (issuer_key HG pk n)) (Z.of_nat k) nym (data m) (raw m) | _, _ => Ok tt end in K) = Panic <->
    crashes (audit_check (gen0 HG pk (n + 1)) (base_at HG pk n k) x meta data raw :: cs).
  Proof.
    intros Lk U R. unfold audit_check. apply crash_cons; [| |intros _; exact R].
    - destruct x as [[p nym]|]; [|split; [intros _; split; [exact I|intros; discriminate]|reflexivity]].
      destruct meta as [m|]; [|split; [intros _; split; [exact I|intros; discriminate]|reflexivity]].
      rewrite (check_meta_iff OK HG BS pk nym (data m) (raw m) Lk). unfold audit_fits, opens. split.
      + intros [A B]. split; [exact I|]. intros p' nym' m' Q1 Q2. injection Q1 as <- <-. injection Q2 as <-. split; [|exact B].
        intros d Ed. rewrite Ed in A. destruct A as (a & r & A1 & A2 & A3 & A4). exists a, r. split; [exact A1|]. split; [exact A2|]. split; [congruence|exact A4].
      + intros [_ A]. destruct (A p nym m eq_refl eq_refl) as [A1 A2]. split; [|exact A2]. destruct (data m) as [d|]; [|exact I].
        destruct (A1 d eq_refl) as (a & r & B1 & B2 & B3 & B4). exists a, r. split; [exact B1|]. split; [exact B2|]. split; [congruence|exact B4].
    - split; [|intro N; exfalso; apply N; exact I]. intro E. exfalso. destruct x as [[p nym]|]; [|discriminate]. destruct meta as [m|]; [|discriminate].
      exact (meta_np BS Lk (U m eq_refl) E).
  Qed.

  Lemma first_panic (H : hasher C) pk n sigb msg attrs v : length attrs <= n -> Forall (fun a => ar_value H a <> Panic) attrs ->
    arVerify_first H c_sig (Some (Some (issuer_key HG pk n))) sigb msg attrs 0 v = Panic <->
    exists sg pl, dec c_sig sigb = Some sg /\ as_alg sg = Some 0%Z /\ ar_type_checks v sg = true /\ parsePoKPayload (as_main sg) = Ok pl /\
      three_points C (after_payload (as_main sg) pl) /\ ~ complete_frame C (after_payload (as_main sg) pl).
  Proof.
    intros La Ha. unfold arVerify_first. cbn [assert_ptr bind].
    destruct (dec c_sig sigb) as [sg|] eqn:D; cbn [opt_err bind]; [|split; [discriminate|intros (sg & pl & Q & _); discriminate]].
    destruct (as_alg sg) as [alg|] eqn:EA; cbn [opt_err bind]; [|split; [discriminate|intros (sg' & pl & Q & Q2 & _); congruence]].
    destruct (alg =? 0)%Z eqn:E0; cbn [guard bind]; [|split; [discriminate|intros (sg' & pl & Q & Q2 & _); injection Q as <-; rewrite EA in Q2; injection Q2 as ->; discriminate]].
    apply Z.eqb_eq in E0. subst alg.
    destruct (ar_type_checks v sg) eqn:ET; cbn [guard bind]; [|split; [discriminate|intros (sg' & pl & Q & _ & Q2 & _); injection Q as <-; congruence]].
    cbv zeta.
    destruct (attributesToSignatureMessage H attrs 0) as [ms| |] eqn:EM; cbn [bind].
    2,3: exfalso; revert EM; unfold attributesToSignatureMessage; change 0%Z with (Z.of_nat 0); rewrite zsplit_ok by lia; cbn [bind firstn skipn app].
    2:{ assert (X : forall i, exists ms, to_messages H i attrs = Ok ms).
        { clear - Ha. induction Ha as [|a attrs Ha _ IH]; intro i; [eexists; reflexivity|]. cbn [to_messages]. destruct (IH (S i)) as (ms & ->). 
          unfold ar_value in *. destruct (at_type a); [| | |]; try (destruct (at_value a)); try congruence; cbn [bind]; eexists; reflexivity. }
        cbn [to_messages ar_value hidden_attr at_type bind]. destruct (X 1) as (ms & ->). discriminate. }
    2:{ intro EM. revert EM. apply messages_np. constructor; [discriminate|exact Ha]. }
    pose proof (messages0 BS EM) as EM'. apply (messages_len BS) in EM'.
    destruct (parsePoKPayload (as_main sg)) as [pl| |] eqn:EP; cbn [bind]; [| |destruct (payload_never EP)].
    2:{ split; [discriminate|]. intros (sg' & pl & Q & _ & _ & Q2 & _). injection Q as <-. congruence. }
    destruct (parse_payload_inv EP) as (I & _ & LP & _). rewrite (slice_from_rest HG BS LP). cbn [bind].
    fold (after_payload (as_main sg) pl). pose proof (parse_sp_panic HG BS (after_payload (as_main sg) pl)) as PP.
    assert (EX : (exists sg' pl', Some sg = Some sg' /\ as_alg sg' = Some 0%Z /\ ar_type_checks v sg' = true /\ parsePoKPayload (as_main sg') = Ok pl' /\
      three_points C (after_payload (as_main sg') pl') /\ ~ complete_frame C (after_payload (as_main sg') pl')) <->
      (three_points C (after_payload (as_main sg) pl) /\ ~ complete_frame C (after_payload (as_main sg) pl))).
    { split; [intros (sg' & pl' & Q & _ & _ & Q2 & X); injection Q as <-; rewrite EP in Q2; injection Q2 as <-; exact X|]. intro X. exists sg, pl. repeat split; auto; apply X. }
    rewrite EX, <- PP. clear EX PP. destruct (parseSignatureProof C (after_payload (as_main sg) pl)) as [sp| |] eqn:ES; cbn [bind]; [|split; discriminate|split; reflexivity].
    split; [|discriminate]. intro E. exfalso. revert E. destruct (negb (length ms <? length (pp_revealed pl))) eqn:LM; cbn [guard bind]; [|discriminate]. apply negb_true_iff, Nat.ltb_ge in LM.
    apply bind_np; [apply opt_err_np|]. intros nym _. apply bind_np.
    { destruct (ver_smartcard v); [discriminate|]. apply bind_np; [apply (parseProofG1_no_panic (proj1 BS))|]. discriminate. }
    intros nymp _.
    assert (PN : forall on a b, parse_nym C on a b <> Panic).
    { intros on a b. unfold parse_nym. destruct on; [|discriminate]. apply bind_np; [apply (parseProofG1_no_panic (proj1 BS))|]. intros p _. apply bind_np; [apply opt_err_np|]. discriminate. }
    apply bind_np; [apply PN|]. intros eidp _. apply bind_np; [apply PN|]. intros rhp _. apply bind_np; [|discriminate].
    unfold getBytesForChallenge. cbn [issuer_key ip_key pg_count].
    assert (LL : length (fold_left madd (pp_revealed pl) []) <= n) by (rewrite fold_madd_length by (apply increasing_nodup, I); lia).
    replace (n + 1 + 7 <? _) with false; [discriminate|]. symmetry. apply Nat.ltb_ge. destruct (ver_smartcard v); [|lia].
    unfold madd at 1. destruct (mem _ _); cbn [length]; lia.
  Qed.

  Lemma vc2_panic (H : hasher C) pk n sigb msg attrs v f c : length attrs <= n ->
    arVerify_first H c_sig (Some (Some (issuer_key HG pk n))) sigb msg attrs 0 v = Ok f ->
    vc2_verifier (ver_smartcard v) (vf_nym f) c (vf_key f) (vf_revealed f) (vf_ms f) (sp_vc2 (vf_sp f)) (sp_d (vf_sp f)) = Panic <->
    ~ 2 + hidden_before (ver_smartcard v) (vf_revealed f) (n + 1) <= length (pf_resp (sp_vc2 (vf_sp f))).
  Proof.
    intros La F. pose proof (first_inv F) as FI. cbv zeta in FI. destruct FI as (_ & _ & _ & K & EM & NR & (pl & EP & _ & I & LM & RV) & _).
    apply (messages0 BS) in EM. pose proof (messages_len BS EM) as LMs. pose proof (first_len BS F) as LF. rewrite K. clear F.
    assert (Lh : length (pg_h (ip_key (issuer_key HG pk n))) = n + 1) by (cbn [issuer_key ip_key pg_h]; apply gens_length).
    assert (CI : count_in 0 (n + 1) (vf_revealed f) <= length (vf_ms f)) by (pose proof (@count_in_len 0 (n + 1) (vf_revealed f) (pp_revealed pl) (fun j J => proj1 (proj1 (RV j) J))); lia).
    assert (PC : pg_count (ip_key (issuer_key HG pk n)) + 2 <? length (vf_revealed f) = false) by (apply Nat.ltb_ge; cbn [issuer_key ip_key pg_count]; lia).
    assert (G : forall bases x, length bases = 2 + hidden_before (ver_smartcard v) (vf_revealed f) (n + 1) -> proofG1Verify (sp_vc2 (vf_sp f)) bases x c = Panic <->
      ~ 2 + hidden_before (ver_smartcard v) (vf_revealed f) (n + 1) <= length (pf_resp (sp_vc2 (vf_sp f)))).
    { intros bases x L. split.
      - intros E A. revert E. apply (proof_np OK). lia.
      - intro N. apply (proof_short BS). lia. }
    destruct (ver_smartcard v) eqn:SC; unfold vc2_verifier.
    - unfold smartcardVC2Verify. rewrite PC. unfold smartcard_split.
      destruct (pg_h (ip_key (issuer_key HG pk n))) as [|h hs] eqn:EH; [simpl in Lh; lia|]. cbn [length] in Lh.
      assert (C1 : count_in 1 n (vf_revealed f) = count_in 0 (n + 1) (vf_revealed f)).
      { replace (n + 1) with (S n) by lia. rewrite count_in_S. destruct (mem 0 (vf_revealed f)) eqn:M; [apply mem_in in M; destruct (NR eq_refl M)|reflexivity]. }
      destruct (@split_bases_ok C hs (vf_revealed f) 1 (vf_ms f) 0) as (hid & dis & E); [rewrite skipn_O; replace (length hs) with n by lia; lia|].
      rewrite E. cbn [bind]. apply G. destruct (split_bases_spec OK E) as (-> & _ & _). cbn [length]. rewrite hidden_bases_unpick, unpick_length. replace (length hs) with n by lia.
      rewrite hidden_before_eq. replace (n + 1) with (S n) by lia. rewrite count_out_S.
      replace (mem 0 (0 :: vf_revealed f)) with true by reflexivity. rewrite count_out_skip0 by lia. reflexivity.
    - unfold defaultVC2Verify. rewrite PC.
      destruct (@split_bases_ok C (pg_h (ip_key (issuer_key HG pk n))) (vf_revealed f) 0 (vf_ms f) 0) as (hid & dis & E); [rewrite skipn_O, Lh; lia|].
      rewrite E. cbn [bind]. apply G. destruct (split_bases_spec OK E) as (-> & _ & _). cbn [length]. rewrite hidden_bases_unpick, unpick_length, Lh, hidden_before_eq. reflexivity.
  Qed.

  Lemma second_panic (H : hasher C) pk n sigb msg attrs eid rh v meta f c : eid < n -> rh < n -> length attrs <= n ->
    (forall m, meta = Some m -> usable (md_eid_data m) /\ usable (md_rh_data m)) ->
    arVerify_first H c_sig (Some (Some (issuer_key HG pk n))) sigb msg attrs 0 v = Ok f ->
    arVerify_second f c (Z.of_nat rh) (Z.of_nat eid) 0 v meta = Panic <-> crashes (verify_checks HG pk n eid rh v meta f c).
  Proof.
    intros Le Lr La U F. pose proof (vc2_panic c La F) as V2. pose proof (first_inv F) as FI. cbv zeta in FI. destruct FI as (_ & _ & _ & K & _).
    assert (PE : past_sk (Z.of_nat eid) 0 = Z.of_nat (S eid)) by (unfold past_sk; replace (0 <=? Z.of_nat eid)%Z with true by lia; lia).
    assert (PR : past_sk (Z.of_nat rh) 0 = Z.of_nat (S rh)) by (unfold past_sk; replace (0 <=? Z.of_nat rh)%Z with true by lia; lia).
    unfold arVerify_second, verify_checks. cbv zeta. rewrite K, PE, PR in *.
    apply audit_step; [lia|intros m Em; apply (U m Em)|]. apply audit_step; [lia|intros m Em; apply (U m Em)|].
    replace (match vf_nymp f with Some p => verify_attr_nym _ 0 p (vf_nym f) (sp_vc2 (vf_sp f)) (2 + 0) c | None => Ok tt end) with
      (match option_map (fun p => (p, vf_nym f)) (vf_nymp f) with Some (p, nym) => verify_attr_nym (ip_key (issuer_key HG pk n)) (Z.of_nat 0) p nym (sp_vc2 (vf_sp f)) 2 c | None => Ok tt end)
      by (destruct (vf_nymp f); reflexivity).
    apply nym_step; [lia|]. apply nym_step; [lia|]. apply nym_step; [lia|].
    unfold signatureProofVerify. change (if ver_smartcard v then _ else _) with (vc2_verifier (ver_smartcard v) (vf_nym f)). cbn [issuer_key ip_key pg_w pg_h0].
    apply crash_cons.
    { unfold compareTwoPairings. rewrite (pair_opp_r OK). rewrite guard_ok, (gok_eqb GOT). split; [intro E; split; [exact I|exact (proj1 (gsub_zero KO GOT _ _) E)]|intros [_ E]; exact (proj2 (gsub_zero KO GOT _ _) E)]. }
    { split; [intro E; destruct (guard_np E)|intro N; exfalso; apply N; exact I]. }
    intros _. unfold verifyVC1Proof. cbn [pg_h0]. apply crash_cons.
    { split.
      - intro E. apply (proofG1Verify_inv OK) in E. exact E.
      - intros [A B]. apply (proofG1Verify_ok OK); [exact A|exact B]. }
    { split; [intros E A; revert E; apply (proof_np OK); exact A|]. intro N. apply (proof_short BS). cbn [length]. lia. }
    intros _. apply crash_last. exact V2.
  Qed.

  Lemma verify_panic (H : hasher C) pk n sigb msg attrs eid rh v meta : eid < n -> rh < n -> length attrs <= n -> Forall (fun a => ar_value H a <> Panic) attrs ->
    (forall m, meta = Some m -> usable (md_eid_data m) /\ usable (md_rh_data m)) ->
    let ipk := Some (Some (issuer_key HG pk n)) in
    arVerify H c_sig ipk sigb msg attrs (Z.of_nat rh) (Z.of_nat eid) 0 v meta = Panic <->
    (exists sg pl, dec c_sig sigb = Some sg /\ as_alg sg = Some 0%Z /\ ar_type_checks v sg = true /\ parsePoKPayload (as_main sg) = Ok pl /\
       three_points C (after_payload (as_main sg) pl) /\ ~ complete_frame C (after_payload (as_main sg) pl)) \/
    (exists f, arVerify_first H c_sig ipk sigb msg attrs 0 v = Ok f /\
       crashes (verify_checks HG pk n eid rh v meta f (challenge2 H (vf_data f) (as_nonce (vf_sig f))))).
  Proof.
    intros Le Lr La Ha U ipk. rewrite <- (first_panic pk sigb msg v La Ha). fold ipk. unfold arVerify.
    destruct (arVerify_first H c_sig ipk sigb msg attrs 0 v) as [f| |] eqn:F; cbn [bind].
    - rewrite (second_panic _ Le Lr La U F). split; [intro X; right; exists f; auto|]. intros [X|(f' & Q & X)]; [discriminate|]. injection Q as <-. exact X.
    - split; [discriminate|]. intros [X|(f' & Q & X)]; discriminate.
    - split; [auto|reflexivity].
  Qed.
End VerifyPanic.

(** ** Signer.Verify *)
(** Full claim: Signer.Verify returns an error for malformed signatures.  Proved: it panics on exactly these signatures and on
    no others, for all issuer keys, messages, attribute lists of the issuer's length with values of their types, positions of
    the enrollment id and the revocation handle, verification types and audit data with randomness and value:
    - three points decode and the length field behind them, or the bytes that it announces, are missing;
    - everything decodes and the checks crash: all checks up to one pass, and that one lacks a response, or points at a response that is not there.
    Missing: nothing rejects these (C39_refuted). *)
Theorem C39_verify_exact_partial : forall C (OK : CurveOk C) (HG : bytes -> G1 C) (H : hasher C) (c_sig : codec ASignature) (pk : G2 C) (n : nat)
    (sig msg : bytes) (attributes : list attribute) (rh eid : nat) (v : VerificationType) (meta : option (Metadata C)),
  bls_sizes C -> eid < n -> rh < n -> length attributes <= n ->
  Forall (fun a => match at_type a, at_value a with BytesAttr, VBytes _ | IntAttr, VInt _ | HiddenAttr, _ | OtherAttr, _ => True | _, _ => False end) attributes ->
  (forall m, meta = Some m -> forall d, md_eid_data m = Some d \/ md_rh_data m = Some d -> au_attr d <> None /\ au_rand d <> None) ->
  let ipk := Some (Some (issuer_key HG pk n)) in
  arVerify H c_sig ipk sig msg attributes (Z.of_nat rh) (Z.of_nat eid) 0 v meta = Panic <->
  (exists sg pl, dec c_sig sig = Some sg /\ as_alg sg = Some 0%Z /\ ar_type_checks v sg = true /\ parsePoKPayload (as_main sg) = Ok pl /\
     three_points C (after_payload (as_main sg) pl) /\ ~ complete_frame C (after_payload (as_main sg) pl)) \/
  (exists f, arVerify_first H c_sig ipk sig msg attributes 0 v = Ok f /\
     crashes (verify_checks HG pk n eid rh v meta f (challenge2 H (vf_data f) (as_nonce (vf_sig f))))).
Proof.
  intros C OK HG H c_sig pk n sig msg attributes rh eid v meta BS Le Lr La T M ipk. apply (verify_panic OK HG BS); try assumption.
  - eapply Forall_impl; [|exact T]. intros a Ha. unfold ar_value. revert Ha. cbv beta. destruct (at_type a), (at_value a); intro Ha; (discriminate || contradiction).
  - intros m Em. split; intros d Ed; apply (M m Em d); [left|right]; exact Ed.
Qed.
Print Assumptions C39_verify_exact_partial.

(** the example signature with another position for the enrollment id, and with its main part cut *)
Definition xa_edit (edit : ASignature -> ASignature) : bytes := match dec xa_csig (xa_sig_with EidNym f16) with Some s => ser s_asig (edit s) | None => [] end.
Definition xa_with_idx (i : Z) (s : ASignature) : ASignature := {|
  as_main := as_main s; as_nonce := as_nonce s; as_nym := as_nym s; as_nym_proof := as_nym_proof s; as_eid := as_eid s; as_eid_proof := as_eid_proof s; as_eid_idx := i;
  as_rh := as_rh s; as_rh_proof := as_rh_proof s; as_rh_idx := as_rh_idx s; as_epoch_pk := as_epoch_pk s; as_pk_sig := as_pk_sig s; as_epoch := as_epoch s; as_alg := as_alg s |}.
Definition xa_with_main (n : nat) (s : ASignature) : ASignature := {|
  as_main := firstn n (as_main s); as_nonce := as_nonce s; as_nym := as_nym s; as_nym_proof := as_nym_proof s; as_eid := as_eid s; as_eid_proof := as_eid_proof s; as_eid_idx := as_eid_idx s;
  as_rh := as_rh s; as_rh_proof := as_rh_proof s; as_rh_idx := as_rh_idx s; as_epoch_pk := as_epoch_pk s; as_pk_sig := as_pk_sig s; as_epoch := as_epoch s; as_alg := as_alg s |}.
Definition xa_points : nat := 3 + 3 * g1_csize toy32.
Example C39_verify_exact_example :
  let V b msg := arVerify h32 xa_csig xa_key b (str msg) xa_attrs 2 1 0 ExpectEidNym None in
  V (xa_edit (fun s => s)) "message"%string = Ok tt /\
  V (xa_edit (xa_with_idx (-1))) "message"%string = Panic /\ V (xa_edit (xa_with_idx 5)) "message"%string = Panic /\ V (xa_edit (xa_with_idx 4)) "message"%string = Err /\
  V (xa_edit (xa_with_idx (-1))) "other"%string = Err /\
  V (xa_edit (xa_with_main (xa_points - 1))) "message"%string = Err /\ V (xa_edit (xa_with_main xa_points)) "other"%string = Panic /\
  V (xa_edit (xa_with_main (xa_points + 3))) "message"%string = Panic /\ V (xa_edit (xa_with_main (xa_points + 20))) "other"%string = Panic.
Proof. cbv zeta. repeat split; vm_compute; reflexivity. Qed.

(** ** Smartcards *)
(** The verification of a smartcard's pseudonym signature panics exactly if the bytes end within a part whose predecessors decode. *)
Theorem C39_smartcard_exact_partial : forall C (OK : CurveOk C) (sha256 : bytes -> bytes) (h0 h1 h2 tau : G1 C) (proof msg : bytes),
  let gs := g1_size C in let point i := g1_of_bytes C (firstn gs (skipn (16 + i * gs) proof)) in
  scNymVerify sha256 h0 h1 h2 proof tau msg = Panic <->
  length proof < 16 + gs \/ point 0 <> None /\ (length proof < 16 + 2 * gs \/ point 1 <> None /\ length proof < 16 + 2 * gs + 2 * scalar_size C).
Proof.
  intros C OK sha256 h0 h1 h2 tau proof msg gs point. unfold scNymVerify, scParse. fold gs.
  assert (SL : forall a k, a + k <= length proof -> slice proof a (a + k) = Ok (firstn k (skipn a proof))).
  { intros a k L. unfold slice. replace ((a <=? a + k) && (a + k <=? length proof)) with true by (symmetry; apply andb_true_iff; split; apply Nat.leb_le; lia).
    replace (a + k - a) with k by lia. reflexivity. }
  unfold point. replace (16 + 0 * gs) with 16 by lia. replace (16 + 1 * gs) with (16 + gs) by lia.
  destruct (Nat.le_gt_cases (16 + gs) (length proof)) as [L1|L1].
  2:{ rewrite slice_panic by lia. split; [intros _; left; exact L1|reflexivity]. }
  rewrite SL by lia. cbn [bind]. destruct (g1_of_bytes C (firstn gs (skipn 16 proof))); cbn [opt_err bind].
  2:{ split; [discriminate|]. intros [X|[X _]]; [lia|congruence]. }
  destruct (Nat.le_gt_cases (16 + 2 * gs) (length proof)) as [L2|L2].
  2:{ rewrite slice_panic by lia. split; [intros _; right; split; [discriminate|left; exact L2]|reflexivity]. }
  rewrite SL by lia. cbn [bind]. destruct (g1_of_bytes C (firstn gs (skipn (16 + gs) proof))); cbn [opt_err bind].
  2:{ split; [discriminate|]. intros [X|[_ [X|[X _]]]]; [lia|lia|congruence]. }
  destruct (Nat.le_gt_cases (16 + 2 * gs + 2 * scalar_size C) (length proof)) as [L3|L3].
  - rewrite !SL by lia. cbn [bind]. rewrite (sc_challenge_ok OK). cbn [bind]. split; [intro E; destruct (guard_np E)|]. intros [X|[_ [X|[_ X]]]]; lia.
  - split; [intros _; right; split; [discriminate|right; split; [discriminate|exact L3]]|]. intros _.
    destruct (Nat.le_gt_cases (16 + 2 * gs + scalar_size C) (length proof)) as [L4|L4].
    + rewrite SL by lia. cbn [bind]. rewrite slice_panic by lia. reflexivity.
    + rewrite slice_panic by lia. reflexivity.
Qed.
Print Assumptions C39_smartcard_exact_partial.
(** every proper prefix of an honest signature panics; a prefix whose first point does not decode is rejected *)
Example C39_smartcard_exact_example :
  let V b := scNymVerify (fun b => i2osp 32 (Z.of_nat (length b) + zv (h32 b))) (sc_h0 xa_card) (sc_h1 xa_card) (sc_h2 xa_card) b (snd (getNymEid xa_card)) (str "m") in
  let p := xa_proof f2 f3 (str "m") in
  V p = Ok tt /\ forallb (fun k => match V (firstn k p) with Panic => true | _ => false end) (seq 0 (length p)) = true /\
  V (firstn 16 p ++ repeat xff (length p - 17)) = Err.
Proof. cbv zeta. repeat split; vm_compute; reflexivity. Qed.
