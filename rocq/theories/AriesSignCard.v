(** * Sign of the aries scheme for the smartcard types: which credentials make it panic (lemmas for C96) *)
From Verif Require Import Base Curve Algebra Spec Dlog Bridge BridgeFacts Bbs BbsSpec BbsFacts BbsProof BbsComplete
  Aries AriesSpec AriesIssue AriesNym AriesVerify AriesForge BbsPanic AriesPanic AriesSignPanic.
Unset Strict Implicit.

Lemma map_res_all {A B} (f : A -> res B) l : Forall (fun x => exists y, f x = Ok y) l -> exists ys, map_res f l = Ok ys /\ length ys = length l.
Proof.
  induction 1 as [|x l [y E] F (ys & E' & L)]; [exists []; split; reflexivity|].
  cbn [map_res]. rewrite E. cbn [bind]. rewrite E'. cbn [bind]. exists (y :: ys). split; [reflexivity|]. cbn [length]. lia.
Qed.

Lemma map_res_panic {A B} (f : A -> res B) l : (forall x, In x l -> f x <> Err) -> (exists x, In x l /\ f x = Panic) -> map_res f l = Panic.
Proof.
  induction l as [|x l IH]; intros N (y & I & E); [destruct I|]. cbn [map_res].
  destruct (f x) as [z| |] eqn:Ex; cbn [bind]; [|destruct (N x (or_introl eq_refl) Ex)|reflexivity].
  destruct I as [->|I]; [congruence|]. rewrite IH; [reflexivity|intros w W; apply N; right; exact W|exists y; auto].
Qed.

Section SignCard.
  Context {C : Curve} (OK : CurveOk C) (HG : bytes -> G1 C) (BS : bls_sizes C) (H : hasher C).
  Let KO := ok_zr OK.
  Let GO1 := ok_g1 OK.
  Let S32 : scalar_size C = frCompressedSize := proj1 BS.
  Notation zr := (zcar (Zr C)).
  Notation g1 := (gcar (G1 C)).
  Variables (c_cred : codec ACredential) (c_sig : codec ASignature) (c_cri : codec ACRI).

  (** the messages of a credential without the user secret *)
  Definition without (k : nat) (ms : list (SignatureMessage C)) : list (SignatureMessage C) := firstn k ms ++ skipn (S k) ms.

  Lemma without_length k ms : k < length ms -> length (without k ms) = length ms - 1.
  Proof. intro L. unfold without. rewrite app_length, firstn_length, skipn_length. lia. Qed.

  Lemma zsplit_nat {A} (l : list A) i : i <= length l -> zsplit l (Z.of_nat i) = Ok (firstn i l, skipn i l).
  Proof. intro L. unfold zsplit. replace ((0 <=? Z.of_nat i) && (Z.of_nat i <=? Z.of_nat (length l)))%Z with true by lia. rewrite Nat2Z.id. reflexivity. Qed.

  Lemma without_in k ms m : numbered 0 ms -> In m (without k ms) -> sm_idx m < length ms.
  Proof.
    intros N I. assert (I' : In m ms).
    { unfold without in I. apply in_app_or in I. destruct I as [I|I]; [|rewrite <- (firstn_skipn (S k) ms); apply in_or_app; auto].
      rewrite <- (firstn_skipn k ms). apply in_or_app. auto. }
    apply (in_map (@sm_idx C)) in I'. unfold numbered in N. rewrite N in I'. apply in_seq in I'. lia.
  Qed.

  (** the message with the largest number is there, unless it is the user secret *)
  Lemma without_last k ms : numbered 0 ms -> S k < length ms -> exists m, In m (without k ms) /\ sm_idx m = length ms - 1.
  Proof.
    intros N L. assert (E : nth_error (map (@sm_idx C) ms) (length ms - 1) = Some (length ms - 1)).
    { unfold numbered in N. rewrite N. rewrite (nth_error_nth' _ 0) by (rewrite seq_length; lia). rewrite seq_nth by lia. reflexivity. }
    rewrite nth_error_map in E. destruct (nth_error ms (length ms - 1)) as [m|] eqn:Em; [|discriminate]. injection E as E. exists m. split; [|exact E].
    unfold without. apply in_or_app. right. remember (length ms - 1) as j. rewrite <- (firstn_skipn (S k) ms) in Em. rewrite nth_error_app2 in Em by (rewrite firstn_length; lia).
    apply nth_error_In in Em. exact Em.
  Qed.

  Lemma computeB_in (s : zr) (ms : list (SignatureMessage C)) (key : PublicKeyWithGenerators C) : (forall m, In m ms -> sm_idx m < length (pg_h key)) -> exists b, computeB s ms key = Ok b.
  Proof.
    intro F. unfold computeB.
    destruct (@map_res_all _ _ (fun m => let* h := nth_res (pg_h key) (sm_idx m) in Ok (h, sm_fr m)) ms) as (ys & -> & _).
    { apply Forall_forall. intros m I. apply F in I. unfold nth_res. destruct (nth_error (pg_h key) (sm_idx m)) eqn:E; [cbn; eauto|apply nth_error_None in E; lia]. }
    cbn [bind]. rewrite (build_ok OK) by discriminate. eauto.
  Qed.
  Lemma computeB_out (s : zr) (ms : list (SignatureMessage C)) (key : PublicKeyWithGenerators C) : (exists m, In m ms /\ length (pg_h key) <= sm_idx m) -> computeB s ms key = Panic.
  Proof.
    intros (m & I & L). unfold computeB. rewrite map_res_panic; [reflexivity| |].
    - intros x _. unfold nth_res. destruct (nth_error (pg_h key) (sm_idx x)); discriminate.
    - exists m. split; [exact I|]. unfold nth_res. replace (nth_error (pg_h key) (sm_idx m)) with (@None g1) by (symmetry; apply nth_error_None; lia). reflexivity.
  Qed.

  Lemma smartcardVC2_ok (r : zr) (d : g1) (r3 : zr) (key : PublicKeyWithGenerators C) (s' : zr) (ms : list (SignatureMessage C)) revealed bl : (forall m, In m ms -> sm_idx m < length (pg_h key)) ->
    exists p xs, smartcardVC2 r d r3 key s' ms revealed bl = Ok (p, xs) /\
      length (pc_blind p) = length xs /\ length (pc_blind p) = length (pc_bases p) /\ length (pc_bases p) <= 2 + length ms.
  Proof.
    intro F. unfold smartcardVC2. set (hid := hidden_messages ms revealed).
    assert (Lh : length hid <= length ms) by apply filter_length_le || (unfold hid, hidden_messages; apply AriesSign.filter_len).
    destruct (@map_res_all _ _ (fun m => nth_res (pg_h key) (sm_idx m)) hid) as (hs & -> & L).
    { apply Forall_forall. intros m I. unfold hid, hidden_messages in I. apply filter_In in I. destruct I as [I _]. apply F in I. unfold nth_res.
      destruct (nth_error (pg_h key) (sm_idx m)) eqn:E; [cbn; eauto|apply nth_error_None in E; lia]. }
    cbn [bind]. rewrite (finish_ok OK) by (try discriminate; rewrite map_length, seq_length; lia). cbn [bind].
    eexists. eexists. split; [reflexivity|]. cbn [pc_blind pc_bases length]. rewrite !map_length, seq_length. cbn [length]. lia.
  Qed.

  Section Cred.
    Variables (pk : G2 C) (n k : nat) (credBytes : bytes) (c : ACredential) (sk : zr) (Nym : g1) (RNym : zr) (attributes : list attribute) (msg : bytes).
    Variables (rh eid : nat) (criRaw : bytes) (st : SignatureType) (meta : option (Metadata C)) (R : ASigRand C).
    Hypothesis Ln : (Z.of_nat n < 2 ^ 32 - 3)%Z.
    Hypothesis D : dec c_cred credBytes = Some c.
    Hypothesis P : ac_skpos c = Z.of_nat k.
    Hypothesis Lat : length attributes = n.
    Hypothesis Lrh : rh < n.
    Hypothesis Leid : eid < n.
    Hypothesis SC : is_smartcard st = true.
    Hypothesis A1 : complete_audit (md_eid_audit meta).
    Let sign := arSign H c_cred c_sig c_cri credBytes sk Nym RNym (Some (Some (issuer_key HG pk n))) attributes msg (Z.of_nat rh) (Z.of_nat eid) criRaw st meta R.

    Lemma card_np : length (ac_attrs c) = n -> k <= n -> sign <> Panic.
    Proof.
      intros LA Lkn. unfold sign, arSign. apply bind_np; [apply (arg_check_np BS); lia|].
      intros _ _. cbn [assert_ptr bind]. apply bind_np; [apply opt_err_np|]. intros cri _. apply bind_np; [apply guard_np|]. intros _ _. rewrite D. cbn [opt_err bind].
      unfold getPoKOfSignature. rewrite SC.
      destruct (parseSignature C (ac_cred c)) as [sg| |] eqn:PS; [|discriminate|destruct (parseSignature_np HG BS PS)]. cbn [bind].
      rewrite (@cred_messages_total C HG BS c sk k P) by lia. cbn [bind]. set (ms := number 0 _).
      assert (Lm : length ms = n + 1). { unfold ms. rewrite number_length, with_secret_length; rewrite ?map_length; (exact BS || lia). }
      pose proof (number_numbered (with_secret k sk (map (zr_of_bytes C) (ac_attrs c))) 0) as N. fold ms in N.
      rewrite P. replace (Z.of_nat k + 1)%Z with (Z.of_nat (S k)) by lia. rewrite !zsplit_nat by lia. cbn [bind].
      fold (without k ms). set (mn := without k ms). assert (Lmn : length mn = n) by (unfold mn; rewrite without_length; lia).
      set (key := ip_key (issuer_key HG pk n)). assert (Lk : length (pg_h key) = n + 1) by (cbn [key issuer_key ip_key pg_h]; apply gens_length).
      assert (IN : forall m, In m mn -> sm_idx m < length (pg_h key)) by (intros m I; apply (without_in N) in I; lia).
      destruct (@computeB_in (si_s sg) mn key IN) as [b ->]. cbn [bind].
      unfold pokOfSignatureB. cbn [bind]. rewrite (build_ok OK) by discriminate. cbn [bind].
      unfold newVC1Signature. rewrite (finish_ok OK) by (try discriminate; simpl; lia). cbn [bind].
      set (rv := revealedAttributesIndexNoSk attributes).
      match goal with |- context [guard ?g] => destruct (guard g) as [[]| |] eqn:G; [|discriminate|destruct (guard_np G)] end. cbn [bind].
      match goal with |- context [map_res ?f (map Z.of_nat rv)] => destruct (@map_res_all _ _ f (map Z.of_nat rv)) as (ids & -> & _) end.
      { apply Forall_forall. intros z I. apply in_map_iff in I. destruct I as (i & <- & I).
        assert (Li : i < n).
        { unfold rv, revealedAttributesIndexNoSk in I. rewrite <- Lat. clear - I. revert I. change (In i (revealed_from 0 attributes) -> i < 0 + length attributes). generalize 0.
          induction attributes as [|a l IH]; intros j I; [destruct I|]. cbn [revealed_from length] in I |- *. destruct (is_hidden a); [apply IH in I; lia|].
          destruct I as [->|I]; [lia|]. apply IH in I. lia. }
        rewrite znth_nat. unfold nth_res. destruct (nth_error mn i) eqn:E; [cbn; eauto|apply nth_error_None in E; lia]. }
      cbn [bind].
      match goal with |- context [smartcardVC2 ?r ?d ?r3 key ?s' mn ?rev ?bl] => destruct (@smartcardVC2_ok r d r3 key s' mn rev bl IN) as (p2 & xs & -> & T1 & T2 & T3) end.
      cbn [bind]. set (pok := {| ps_aprime := _ |}).
      unfold getCommitNym. rewrite SC. cbn [bind].
      assert (PS' : forall i, i < n -> exists j, past_sk (Z.of_nat i) (Z.of_nat k) = Z.of_nat j /\ j <= n).
      { intros i Li. unfold past_sk. destruct (Z.of_nat k <=? Z.of_nat i)%Z; [exists (S i)|exists i]; lia. }
      destruct (PS' eid Leid) as (je & -> & Je). destruct (PS' rh Lrh) as (jr & -> & Jr).
      assert (ZM : forall i, i <= n -> exists m, znth ms (Z.of_nat i) = Ok m).
      { intros i Li. rewrite znth_nat. unfold nth_res. destruct (nth_error ms i) eqn:E; [eauto|apply nth_error_None in E; lia]. }
      destruct (ZM je Je) as [me ->]. destruct (ZM jr Jr) as [mr ->]. cbn [bind].
      destruct (@commit_np C OK HG BS pk n pok je (sm_fr me) (eid_enabled st) (md_eid_audit meta) (rn_eid R) Je T2 A1) as [E1 E2].
      apply bind_np; [exact E1|]. intros ce Ee. apply E2 in Ee. clear E1 E2.
      assert (RO : rh_enabled st = false) by (destruct st; try discriminate SC; reflexivity).
      unfold getAttributeCommitment at 1. rewrite RO. cbn [negb bind].
      match goal with |- context [getChallengeHash H pok Nym ?u ce ?cr msg st ?nn] => assert (GC : exists ch, getChallengeHash H pok Nym u ce cr msg st nn = Ok ch) end.
      { unfold getChallengeHash. rewrite SC. cbn [deref bind].
        destruct st; try discriminate SC; cbn [eid_enabled] in Ee; repeat match goal with E : exists _, _ |- _ => destruct E as (? & -> & _) end; subst; cbn [comm_bytes deref bind]; eexists; reflexivity. }
      destruct GC as [ch ->]. cbn [bind].
      unfold pokGenerateProof. destruct (@generate_ok C (ps_vc1 pok) ch (ps_sec1 pok)) as (p1 & -> & R1); [cbn; lia|]. cbn [bind].
      destruct (@generate_ok C (ps_vc2 pok) ch (ps_sec2 pok)) as (q2 & -> & R2); [cbn; lia|]. cbn [bind].
      assert (OR : exists z, opt_respond ce ch (sm_fr me) = Ok z /\ forall w, z = Some w -> length (pf_resp (snd w)) = 2).
      { destruct (eid_enabled st); [destruct Ee as (y & -> & L2)|subst ce]; cbn [opt_respond]; [|eexists; split; [reflexivity|discriminate]].
        destruct (@generate_ok C (cm_proof y) ch [cm_r y; sm_fr me]) as (p & -> & Lp); [rewrite L2; reflexivity|]. cbn [bind]. eexists. split; [reflexivity|]. intros w E. injection E as <-. cbn [snd]. congruence. }
      destruct OR as (ze & -> & We). cbn [opt_respond bind].
      apply bind_np.
      - unfold packageProof. apply bind_np.
        { unfold payloadBytes. apply bind_np; [apply guard_np|]. intros _ _. apply bind_np; [apply set_bits_np|]. discriminate. }
        intros pb _. apply bind_np.
        { match goal with |- context [signatureProofBytes ?sp] => destruct (@signatureProofBytes_ok C OK BS sp) as [sb ->] end; [| |discriminate].
          - unfold proof_size. cbn [sp_vc1]. rewrite R1. cbn. pose proof (proj2 BS) as B1. unfold frCompressedSize. lia.
          - cbn [sp_vc2]. rewrite R2. cbn [pok ps_vc2]. lia. }
        intros sb _. cbn [opt_proof bind].
        apply bind_np; [destruct ze as [w|]; [apply (proof_bytes_np OK BS); rewrite (We w eq_refl); lia|discriminate]|]. intros ep _. apply opt_err_np.
      - intros sb _. apply bind_np; [|discriminate].
        destruct st; try discriminate; cbn [eid_enabled] in Ee; repeat match goal with E : exists _, _ |- _ => destruct E as (? & -> & _) end; discriminate.
    Qed.

    Lemma card_panics sg : passes c_cri attributes rh eid criRaw st -> parseSignature C (ac_cred c) = Ok sg -> k <= n -> n < length (ac_attrs c) -> sign = Panic.
    Proof.
      intros [AC (cri & Dc & Al)] PS Lk Q. unfold sign, arSign. rewrite AC. cbn [assert_ptr bind]. rewrite Dc. cbn [opt_err bind]. rewrite Al. cbn [Z.eqb guard bind].
      rewrite D. cbn [opt_err bind]. unfold getPoKOfSignature. rewrite SC, PS. cbn [bind].
      rewrite (@cred_messages_total C HG BS c sk k P) by lia. cbn [bind]. set (ms := number 0 _).
      assert (Lm : length ms = length (ac_attrs c) + 1). { unfold ms. rewrite number_length, with_secret_length; rewrite ?map_length; (exact BS || lia). }
      pose proof (number_numbered (with_secret k sk (map (zr_of_bytes C) (ac_attrs c))) 0) as N. fold ms in N.
      rewrite P. replace (Z.of_nat k + 1)%Z with (Z.of_nat (S k)) by lia. rewrite !zsplit_nat by lia. cbn [bind]. fold (without k ms).
      rewrite computeB_out; [reflexivity|]. destruct (@without_last k ms N) as (m & I & E); [lia|]. exists m. split; [exact I|].
      cbn [issuer_key ip_key pg_h]. rewrite gens_length. lia.
    Qed.
  End Cred.
End SignCard.
