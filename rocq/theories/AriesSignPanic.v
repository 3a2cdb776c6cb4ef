(** * Sign of the aries scheme does not panic on a credential of the right shape (lemmas for C95 and C64) *)
From Verif Require Import Base Curve Algebra Spec Dlog Bridge BridgeFacts Bbs BbsSpec BbsFacts BbsProof BbsComplete
  Aries AriesSpec AriesIssue AriesNym AriesVerify AriesForge BbsPanic AriesPanic.
Unset Strict Implicit.

(** audit data a caller passes to Sign: nothing, or all three values *)
Definition complete_audit (C : Curve) (d : option (AuditData C)) : Prop :=
  forall x, d = Some x -> au_attr x <> None /\ au_rand x <> None /\ au_nym x <> None.

Section SignPanic.
  Context {C : Curve} (OK : CurveOk C) (HG : bytes -> G1 C) (BS : bls_sizes C) (H : hasher C).
  Let KO := ok_zr OK.
  Let GO1 := ok_g1 OK.
  Let S32 : scalar_size C = frCompressedSize := proj1 BS.
  Notation zr := (zcar (Zr C)).
  Notation g1 := (gcar (G1 C)).
  Variables (c_cred : codec ACredential) (c_sig : codec ASignature) (c_cri : codec ACRI).

  Lemma to_sig_behind (sk : zr) k attrs : forall i, k < i -> to_sig_messages (length attrs) i attrs (Z.of_nat k) sk = Ok (number i (map (zr_of_bytes C) attrs)).
  Proof.
    induction attrs as [|a attrs IH]; intros i L; [reflexivity|]. cbn [to_sig_messages length map number]. replace (Z.of_nat i =? Z.of_nat k)%Z with false by lia.
    rewrite IH by lia. reflexivity.
  Qed.
  Lemma to_sig_front (sk : zr) attrs : forall i k, k <= length attrs ->
    to_sig_messages (S (length attrs)) i attrs (Z.of_nat (i + k)) sk = Ok (number i (with_secret k sk (map (zr_of_bytes C) attrs))).
  Proof.
    induction attrs as [|a attrs IH]; intros i k L.
    - assert (k = 0) by (simpl in L; lia). subst k. cbn [to_sig_messages length map]. rewrite Nat.add_0_r, Z.eqb_refl. reflexivity.
    - destruct k as [|k].
      + remember (length (a :: attrs)) as m. cbn [to_sig_messages]. rewrite Nat.add_0_r, Z.eqb_refl. subst m. rewrite to_sig_behind by lia. reflexivity.
      + cbn [length]. remember (S (length attrs)) as m. cbn [to_sig_messages]. replace (Z.of_nat i =? Z.of_nat (i + S k))%Z with false by lia. subst m.
        rewrite <- Nat.add_succ_comm, IH by (simpl in L; lia). reflexivity.
  Qed.
  Lemma cred_messages_total (c : ACredential) (sk : zr) k : ac_skpos c = Z.of_nat k -> k <= length (ac_attrs c) ->
    toSignatureMessage c sk = Ok (number 0 (with_secret k sk (map (zr_of_bytes C) (ac_attrs c)))).
  Proof. intros P L. unfold toSignatureMessage. rewrite P, Nat.add_1_r. exact (@to_sig_front sk (ac_attrs c) 0 k L). Qed.

  Lemma index_base_np (h : g1) bases : forall i, index_of_base i h bases <> Panic.
  Proof. induction bases as [|b bases IH]; intro i; cbn [index_of_base]; [discriminate|]. destruct (geqb h b); [discriminate|apply IH]. Qed.
  Lemma index_base_lt (h : g1) bases : forall i j, index_of_base i h bases = Ok j -> i <= j < i + length bases.
  Proof.
    induction bases as [|b bases IH]; intros i j; cbn [index_of_base length]; [discriminate|]. destruct (geqb h b); intro E; [injection E as <-; lia|].
    apply IH in E. lia.
  Qed.

  (** the shape of the committed proof: as many blinding factors as bases and secrets *)
  Definition shaped (m : nat) (pok : PoKOfSignature C) : Prop :=
    length (pc_blind (ps_vc1 pok)) <= length (ps_sec1 pok) /\ length (pc_blind (ps_vc1 pok)) = 2 /\
    length (pc_blind (ps_vc2 pok)) <= length (ps_sec2 pok) /\ length (pc_blind (ps_vc2 pok)) = length (pc_bases (ps_vc2 pok)) /\
    length (pc_bases (ps_vc2 pok)) = 2 + m.

  Lemma newPoK_np pk n sg ms rv R : numbered 0 ms -> length ms = n + 1 -> increasing rv -> (forall i, In i rv -> 0 < i < n + 1) -> length rv <= n ->
    newPoKOfSignature sg ms (map Z.of_nat rv) (ip_key (issuer_key HG pk n)) R <> Panic /\
    (forall pok, newPoKOfSignature sg ms (map Z.of_nat rv) (ip_key (issuer_key HG pk n)) R = Ok pok -> shaped (n + 1 - length rv) pok) /\
    (bbs_signature pk (gen0 HG pk (n + 1)) (gens HG pk (n + 1)) (si_a sg) (si_e sg) (si_s sg) (map (@sm_fr C) ms) ->
       exists pok, newPoKOfSignature sg ms (map Z.of_nat rv) (ip_key (issuer_key HG pk n)) R = Ok pok).
  Proof.
    intros N L I B Lr. set (key := ip_key (issuer_key HG pk n)). assert (Lk : length ms = length (pg_h key)) by (cbn [key issuer_key ip_key pg_h]; rewrite gens_length; exact L).
    unfold newPoKOfSignature. rewrite (computeB_ok OK) by (auto; lia). cbn [bind]. unfold pokOfSignatureB.
    match goal with |- context [verifyWithB ?a ?b ?c] => destruct (verifyWithB a b c) as [[]| |] eqn:VB end; cbn [bind];
      [|split; [discriminate|split; [discriminate|intro V; exfalso; pose proof (eq_trans (eq_sym VB) (proj2 (verifyWithB_iff OK sg key _) V)) as F; discriminate F]]|unfold verifyWithB in VB; destruct (guard_np VB)].
    rewrite (build_ok OK) by discriminate. cbn [bind]. unfold newVC1Signature. rewrite (finish_ok OK) by (try discriminate; simpl; lia). cbn [bind].
    rewrite map_length. replace (negb (length ms <? length rv)) with true by lia. cbn [guard bind].
    rewrite znth_ids; [|exact N|intros i I'; apply B in I'; lia]. cbn [bind].
    match goal with |- context [@defaultVC2 C ?d ?r3 ?k ?s ?m ?r ?bl] => set (r' := r); destruct (@defaultVC2_ok C OK d r3 k s m r' bl N Lk) as (g & Eg & Fg & Bg) end.
    rewrite Eg. cbn [bind]. split; [discriminate|]. split; [|intros _; eexists; reflexivity].
    intros pok E. injection E as <-. cbn [ps_vc1 ps_vc2 ps_sec1 ps_sec2 pc_blind pc_bases].
    rewrite (finish_ok OK) in Fg; [|discriminate|rewrite map_length, seq_length; lia].
    apply (f_equal (fun r => match r with Ok x => x | _ => g end)) in Fg. cbv beta iota in Fg. rewrite <- Fg. unfold shaped. cbn [ps_vc1 ps_vc2 ps_sec1 ps_sec2 pc_blind pc_bases].
    assert (L0 : count_out 0 (length ms) r' = n + 1 - length rv).
    { rewrite (@count_out_ext 0 (length ms) r' rv) by (intro j; unfold r'; rewrite in_fold_madd; simpl; tauto).
      pose proof (count_in_out 0 (length ms) rv) as Q. rewrite count_in_increasing in Q; [lia|exact I|]. intros j J. apply B in J. lia. }
    assert (LV : forall d, length (vc2_bases key r' d) = 2 + (n + 1 - length rv)) by (intro d; unfold vc2_bases; cbn [length]; rewrite hidden_bases_length, <- Lk, L0; lia).
    split; [reflexivity|]. split; [reflexivity|]. rewrite map_length, seq_length, LV. cbn [length]. rewrite unpick_length, map_length, L0. lia.
  Qed.

  Lemma commit_np pk n pok k attr on d R : k <= n -> length (pc_blind (ps_vc2 pok)) = length (pc_bases (ps_vc2 pok)) -> complete_audit d ->
    getAttributeCommitment (issuer_key HG pk n) pok attr (Z.of_nat k) on d R <> Panic /\
    forall x, getAttributeCommitment (issuer_key HG pk n) pok attr (Z.of_nat k) on d R = Ok x ->
      if on then exists y, x = Some y /\ length (pc_blind (cm_proof y)) = 2 else x = None.
  Proof.
    intros Lk LB CA. unfold getAttributeCommitment. destruct on; cbn [negb]; [|split; [discriminate|intros x E; injection E as <-; reflexivity]].
    cbn [issuer_key ip_key pg_h pg_h0]. rewrite !(base_lookup HG BS pk Lk). cbn [bind].
    assert (T : forall nym r,
      let rest := (let* i := index_of_base 0 (base_at HG pk n k) (pc_bases (ps_vc2 pok)) in
        let* b := nth_res (pc_blind (ps_vc2 pok)) i in
        let* u := finish [gen0 HG pk (n + 1); base_at HG pk n k] [ra_bl R; b] in
        Ok (Some {| cm_index := i; cm_proof := u; cm_comm := nym; cm_r := r |})) in
      rest <> Panic /\ forall x, rest = Ok x -> exists y, x = Some y /\ length (pc_blind (cm_proof y)) = 2).
    { intros nym r. cbn zeta. destruct (index_of_base 0 (base_at HG pk n k) (pc_bases (ps_vc2 pok))) as [i| |] eqn:E; [|split; discriminate|destruct (index_base_np E)].
      apply index_base_lt in E. cbn [bind]. unfold nth_res. destruct (nth_error (pc_blind (ps_vc2 pok)) i) as [b|] eqn:Nb; [|apply nth_error_None in Nb; lia]. cbn [bind].
      rewrite (finish_ok OK) by (try discriminate; simpl; lia). cbn [bind]. split; [discriminate|]. intros x Q. injection Q as <-. eexists. split; reflexivity. }
    destruct d as [d|].
    - destruct (CA d eq_refl) as (U1 & U2 & U3). destruct (au_attr d) as [a|]; [|congruence]. destruct (au_rand d) as [r|]; [|congruence]. destruct (au_nym d) as [nm|]; [|congruence].
      cbn [deref bind]. destruct (guard (zeqb attr a)) as [[]| |] eqn:G; [|split; discriminate|destruct (guard_np G)]. cbn [bind].
      rewrite (build_ok OK) by discriminate. cbn [bind].
      match goal with |- context [guard ?b] => destruct (guard b) as [[]| |] eqn:G2 end; [|split; discriminate|destruct (guard_np G2)]. cbn [bind]. apply T.
    - rewrite (build_ok OK) by discriminate. cbn [bind]. apply T.
  Qed.

  Lemma generate_ok (g : ProverCommittedG1 C) c xs : length (pc_blind g) <= length xs ->
    exists p, generateProof g c xs = Ok p /\ length (pf_resp p) = length (pc_blind g).
  Proof.
    intro L. unfold generateProof. rewrite responses_ok by exact L. cbn [bind]. eexists. split; [reflexivity|]. cbn [pf_resp]. apply resp_length. exact L.
  Qed.

  Lemma proof_bytes_np (p : ProofG1 C) : (Z.of_nat (length (pf_resp p)) <= 4294967295)%Z -> proofG1Bytes p <> Panic.
  Proof. intro L. destruct (proofG1_rt OK S32 L) as (b & -> & _). discriminate. Qed.

  Lemma hidden_np attributes i : i < length attributes -> attr_hidden attributes (Z.of_nat i) <> Panic.
  Proof. intros Li. unfold attr_hidden. rewrite znth_nat. unfold nth_res. destruct (nth_error attributes i) eqn:E; [discriminate|apply nth_error_None in E; lia]. Qed.
  Lemma arg_check_np attributes rh eid st : rh < length attributes -> eid < length attributes -> sign_arg_check attributes (Z.of_nat rh) (Z.of_nat eid) st <> Panic.
  Proof.
    intros Lrh Leid. unfold sign_arg_check. apply bind_np.
    - destruct st; try discriminate; apply bind_np; try apply hidden_np; try assumption; intros; apply guard_np.
    - intros _ _. destruct st; try discriminate; (apply bind_np; [apply hidden_np; assumption|]; intros h _; apply bind_np; [apply guard_np|]; intros _ _;
        apply bind_np; [apply hidden_np; assumption|]; intros; apply guard_np).
  Qed.

  Lemma revealed_count attributes : forall i, length (revealed_from i attributes) = length (filter (fun a => negb (is_hidden a)) attributes).
  Proof.
    induction attributes as [|a l IH]; intro i; [reflexivity|]. cbn [revealed_from filter]. destruct (is_hidden a); cbn [negb length]; rewrite IH; reflexivity.
  Qed.

  Section Cred.
    Variables (pk : G2 C) (n k : nat) (credBytes : bytes) (c : ACredential) (sk : zr) (Nym : g1) (RNym : zr) (attributes : list attribute) (msg : bytes).
    Variables (rh eid : nat) (criRaw : bytes) (st : SignatureType) (meta : option (Metadata C)) (R : ASigRand C).
    Hypothesis Ln : (Z.of_nat n < 2 ^ 32 - 3)%Z.
    Hypothesis D : dec c_cred credBytes = Some c.
    Hypothesis P : ac_skpos c = Z.of_nat k.
    Hypothesis Lat : length attributes = n.
    Hypothesis Lrh : rh < n.
    Hypothesis Leid : eid < n.
    Hypothesis SC : is_smartcard st = false.
    Hypothesis Kn : st <> OtherSig.
    Hypothesis A1 : complete_audit (md_eid_audit meta).
    Hypothesis A2 : complete_audit (md_rh_audit meta).
    Let rv := revealedAttributesIndex attributes.
    Let sign := arSign H c_cred c_sig c_cri credBytes sk Nym RNym (Some (Some (issuer_key HG pk n))) attributes msg (Z.of_nat rh) (Z.of_nat eid) criRaw st meta R.

    Lemma rv_bounds i : In i rv -> 0 < i < n + 1.
    Proof. intros I; apply revealed_bounds in I; lia. Qed.
    Lemma rv_le : length rv <= n.
    Proof.
      unfold rv, revealedAttributesIndex. rewrite revealed_count, <- Lat. apply AriesSign.filter_len.
    Qed.

    (** the secret key is at a position whose blinding factor exists: Sign returns a signature or an error *)
    Lemma sign_np : length (ac_attrs c) = n -> k + length rv <= n -> sign <> Panic.
    Proof.
      intros LA Lk. unfold sign, arSign. apply bind_np; [apply arg_check_np; lia|].
      intros _ _. cbn [assert_ptr bind]. apply bind_np; [apply opt_err_np|]. intros cri _. apply bind_np; [apply guard_np|]. intros _ _. rewrite D. cbn [opt_err bind].
      unfold getPoKOfSignature. rewrite SC.
      destruct (parseSignature C (ac_cred c)) as [sg| |] eqn:PS; [|discriminate|destruct (parseSignature_np HG BS PS)]. cbn [bind].
      rewrite (@cred_messages_total c sk k P) by lia. cbn [bind]. set (ms := number 0 _). assert (Lm : length ms = n + 1). { unfold ms. rewrite number_length, with_secret_length; rewrite ?map_length; (exact BS || lia). }
      pose proof (number_numbered (with_secret k sk (map (zr_of_bytes C) (ac_attrs c))) 0) as N. fold ms in N.
      destruct (@newPoK_np pk n sg ms rv (rn_pok R) N Lm (revealed_increasing attributes 1) rv_bounds rv_le) as (Q1 & Q2 & _). fold rv.
      destruct (newPoKOfSignature sg ms (map Z.of_nat rv) (ip_key (issuer_key HG pk n)) (rn_pok R)) as [pok| |] eqn:EP; [|discriminate|congruence]. clear Q1.
      destruct (Q2 pok eq_refl) as (S1 & S2 & S3 & S4 & S5). clear Q2. cbn [bind]. rewrite P.
      assert (Lkn : k <= n) by lia.
      unfold getCommitNym. rewrite SC. cbn [issuer_key ip_key pg_h pg_h0]. rewrite (base_lookup HG BS pk Lkn). cbn [bind].
      replace (2 + Z.of_nat k)%Z with (Z.of_nat (2 + k)) by lia. rewrite znth_nat. unfold nth_res at 1.
      destruct (nth_error (pc_blind (ps_vc2 pok)) (2 + k)) as [b2|] eqn:NB; [|apply nth_error_None in NB; lia]. cbn [bind].
      rewrite (finish_ok OK) by (try discriminate; simpl; lia). cbn [bind].
      assert (PS' : forall i, i < n -> exists j, past_sk (Z.of_nat i) (Z.of_nat k) = Z.of_nat j /\ j <= n).
      { intros i Li. unfold past_sk. destruct (Z.of_nat k <=? Z.of_nat i)%Z; [exists (S i)|exists i]; lia. }
      destruct (PS' eid Leid) as (je & -> & Je). destruct (PS' rh Lrh) as (jr & -> & Jr).
      assert (ZM : forall i, i <= n -> exists m, znth ms (Z.of_nat i) = Ok m).
      { intros i Li. rewrite znth_nat. unfold nth_res. destruct (nth_error ms i) eqn:E; [eauto|apply nth_error_None in E; lia]. }
      destruct (ZM je Je) as [me ->]. destruct (ZM jr Jr) as [mr ->]. cbn [bind].
      fold (ip_key (issuer_key HG pk n)).
      destruct (@commit_np pk n pok je (sm_fr me) (eid_enabled st) (md_eid_audit meta) (rn_eid R) Je S4 A1) as [E1 E2].
      apply bind_np; [exact E1|]. intros ce Ee. apply E2 in Ee. clear E1 E2.
      destruct (@commit_np pk n pok jr (sm_fr mr) (rh_enabled st) (md_rh_audit meta) (rn_rh R) Jr S4 A2) as [E1 E2].
      apply bind_np; [exact E1|]. intros cr Er. apply E2 in Er. clear E1 E2.
      match goal with |- context [getChallengeHash H pok Nym ?u ce cr msg st ?nn] => assert (GC : exists ch, getChallengeHash H pok Nym u ce cr msg st nn = Ok ch) end.
      { unfold getChallengeHash. rewrite SC. cbn [deref bind].
        destruct st; try discriminate SC; try contradiction; cbn [eid_enabled rh_enabled] in Ee, Er; repeat match goal with E : exists _, _ |- _ => destruct E as (? & -> & _) end; subst; cbn [comm_bytes deref bind]; eexists; reflexivity. }
      destruct GC as [ch ->]. cbn [bind].
      unfold pokGenerateProof. destruct (@generate_ok (ps_vc1 pok) ch (ps_sec1 pok) S1) as (p1 & -> & R1). cbn [bind].
      destruct (@generate_ok (ps_vc2 pok) ch (ps_sec2 pok) S3) as (p2 & -> & R2). cbn [bind].
      match goal with |- context [generateProof ?g ch [RNym; sk]] => destruct (@generate_ok g ch [RNym; sk] (le_n 2)) as (pn & -> & R3) end. cbn [bind]. cbn [pc_blind length] in R3.
      assert (OR : forall (on : bool) (x : option (attributeCommitment C)) (a : zr), (if on then exists y, x = Some y /\ length (pc_blind (cm_proof y)) = 2 else x = None) ->
        exists z, opt_respond x ch a = Ok z /\ forall w, z = Some w -> length (pf_resp (snd w)) = 2).
      { intros [|] x a E; [destruct E as (y & -> & L2)|subst x]; cbn [opt_respond]; [|eexists; split; [reflexivity|discriminate]].
        destruct (@generate_ok (cm_proof y) ch [cm_r y; a]) as (p & -> & Lp); [rewrite L2; reflexivity|]. cbn [bind]. eexists. split; [reflexivity|]. intros w E. injection E as <-. cbn [snd]. congruence. }
      destruct (OR _ _ (sm_fr me) Ee) as (ze & -> & We). destruct (OR _ _ (sm_fr mr) Er) as (zr' & -> & Wr). cbn [bind].
      apply bind_np.
      - unfold packageProof. apply bind_np.
        { unfold payloadBytes. apply bind_np; [apply guard_np|]. intros _ _. apply bind_np; [apply set_bits_np|]. discriminate. }
        intros pb _. apply bind_np.
        { match goal with |- context [signatureProofBytes ?sp] => destruct (@signatureProofBytes_ok C OK BS sp) as [sb ->] end; [| |discriminate].
          - unfold proof_size. cbn [sp_vc1]. rewrite R1, S2. pose proof (proj2 BS) as B1. unfold frCompressedSize. lia.
          - cbn [sp_vc2]. rewrite R2, S4. lia. }
        intros sb _. apply bind_np; [apply proof_bytes_np; rewrite R3; lia|]. intros np _.
        apply bind_np; [destruct ze as [w|]; [apply proof_bytes_np; rewrite (We w eq_refl); lia|discriminate]|]. intros ep _.
        apply bind_np; [destruct zr' as [w|]; [apply proof_bytes_np; rewrite (Wr w eq_refl); lia|discriminate]|]. intros rp _. apply opt_err_np.
      - intros sb _. apply bind_np; [|discriminate].
        destruct st; try discriminate; cbn [eid_enabled rh_enabled] in Ee, Er; repeat match goal with E : exists _, _ |- _ => destruct E as (? & -> & _) end; discriminate.
    Qed.

    (** what has been checked before the credential is used *)
    Definition passes : Prop :=
      sign_arg_check attributes (Z.of_nat rh) (Z.of_nat eid) st = Ok tt /\ exists cri, dec c_cri criRaw = Some cri /\ acri_alg cri = 0%Z.
    Lemma sign_panic_passes : sign = Panic -> passes.
    Proof.
      intro E. unfold sign, arSign in E.
      destruct (sign_arg_check attributes (Z.of_nat rh) (Z.of_nat eid) st) as [[]| |] eqn:AC; [|discriminate|exfalso; revert AC; apply arg_check_np; lia].
      split; [exact AC|]. cbn [assert_ptr bind] in E. destruct (dec c_cri criRaw) as [cri|]; [|discriminate]. cbn [opt_err bind] in E. exists cri. split; [reflexivity|].
      destruct (acri_alg cri =? 0)%Z eqn:G; [lia|discriminate].
    Qed.

    Lemma sign_panics sg : passes -> parseSignature C (ac_cred c) = Ok sg -> k <= n ->
      n < length (ac_attrs c) \/
      (length (ac_attrs c) = n /\ n < k + length rv /\
       bbs_signature pk (gen0 HG pk (n + 1)) (gens HG pk (n + 1)) (si_a sg) (si_e sg) (si_s sg) (with_secret k sk (map (zr_of_bytes C) (ac_attrs c)))) ->
      sign = Panic.
    Proof.
      intros [AC (cri & Dc & Al)] PS Lk Q. unfold sign, arSign. rewrite AC. cbn [assert_ptr bind]. rewrite Dc. cbn [opt_err bind]. rewrite Al. cbn [Z.eqb guard bind].
      rewrite D. cbn [opt_err bind]. unfold getPoKOfSignature. rewrite SC, PS. cbn [bind].
      rewrite (@cred_messages_total c sk k P) by (destruct Q as [Q|[Q _]]; lia). cbn [bind]. set (ms := number 0 _).
      pose proof (number_numbered (with_secret k sk (map (zr_of_bytes C) (ac_attrs c))) 0) as N. fold ms in N.
      assert (Lm : length ms = length (ac_attrs c) + 1) by (unfold ms; rewrite number_length, with_secret_length; rewrite ?map_length; [lia|exact BS|destruct Q as [Q|[Q _]]; lia]).
      destruct Q as [Q|(LA & Q & V)].
      - unfold newPoKOfSignature. assert (EB : computeB (si_s sg) ms (ip_key (issuer_key HG pk n)) = Panic); [|rewrite EB; reflexivity].
        unfold computeB. cbn [issuer_key ip_key pg_h].
        assert (G : forall (l : list (SignatureMessage C)) i, numbered i l -> i <= n + 1 -> n + 1 < i + length l ->
          map_res (fun m => let* h := nth_res (gens HG pk (n + 1)) (sm_idx m) in Ok (h, sm_fr m)) l = Panic).
        { induction l as [|m l IH]; intros i Nl L1 L2; [simpl in L2; lia|]. unfold numbered in Nl. cbn [map length seq] in Nl. injection Nl as N1 N2. cbn [map_res]. rewrite N1.
          destruct (nth_res (gens HG pk (n + 1)) i) as [h| |] eqn:E; unfold nth_res in E; (destruct (nth_error (gens HG pk (n + 1)) i) as [h'|] eqn:E'; try discriminate); [|reflexivity]. cbn [bind].
          assert (i < n + 1) by (rewrite <- (gens_length HG pk (n + 1)); apply nth_error_Some; congruence).
          rewrite (IH (S i)); [reflexivity|exact N2|lia|simpl in L2; lia]. }
        rewrite (G ms 0 N) by lia. reflexivity.
      - destruct (@newPoK_np pk n sg ms rv (rn_pok R) N ltac:(lia) (revealed_increasing attributes 1) rv_bounds rv_le) as (_ & Q2 & Q3). fold rv.
        destruct Q3 as [pok EP]; [unfold ms; rewrite number_fr; exact V|]. rewrite EP. cbn [bind]. destruct (Q2 pok EP) as (_ & _ & _ & S4 & S5).
        unfold getCommitNym. rewrite SC, P. cbn [issuer_key ip_key pg_h pg_h0]. rewrite (base_lookup HG BS pk Lk). cbn [bind].
        replace (2 + Z.of_nat k)%Z with (Z.of_nat (2 + k)) by lia. rewrite znth_nat. unfold nth_res at 1.
        destruct (nth_error (pc_blind (ps_vc2 pok)) (2 + k)) as [b2|] eqn:NB; [|reflexivity].
        assert (2 + k < length (pc_blind (ps_vc2 pok))) by (apply nth_error_Some; congruence). pose proof rv_le. lia.
    Qed.
  End Cred.
End SignPanic.
