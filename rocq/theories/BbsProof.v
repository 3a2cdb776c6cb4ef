(** Signature verification, completeness and soundness of BBS+ proofs. *)
From Verif Require Import Base Curve Algebra Bbs BbsSpec BbsFacts.
From Coq Require Import Field Ring Sorting.Sorted Sorting.Permutation.
Unset Strict Implicit.

(** ** Sets of positions *)
Lemma mem_in i l : mem i l = true <-> In i l.
Proof.
  unfold mem. rewrite existsb_exists. split.
  - intros [x [I E]]. apply Nat.eqb_eq in E. subst; exact I.
  - intro I. exists i. split; [exact I|apply Nat.eqb_refl].
Qed.

Lemma mem_ext i l l' : (In i l <-> In i l') -> mem i l = mem i l'.
Proof.
  intro E. destruct (mem i l) eqn:M; destruct (mem i l') eqn:M'; try reflexivity.
  - apply mem_in in M. apply E, mem_in in M. congruence.
  - apply mem_in in M'. apply E, mem_in in M'. congruence.
Qed.

Lemma in_madd i m x : In i (madd m x) <-> i = x \/ In i m.
Proof.
  unfold madd. destruct (mem x m) eqn:M.
  - apply mem_in in M. split; [tauto|]. intros [->|]; assumption.
  - simpl. intuition.
Qed.

Lemma in_fold_madd l : forall m i, In i (fold_left madd l m) <-> In i l \/ In i m.
Proof.
  induction l as [|x l IH]; intros m i; cbn [fold_left]; [simpl; tauto|].
  rewrite IH, in_madd. simpl. intuition.
Qed.

Lemma madd_nodup m x : NoDup m -> NoDup (madd m x).
Proof.
  intro N. unfold madd. destruct (mem x m) eqn:M; [exact N|]. constructor; [|exact N].
  intro I. apply mem_in in I. congruence.
Qed.

Lemma fold_madd_nodup l : forall m, NoDup m -> NoDup (fold_left madd l m).
Proof. induction l as [|x l IH]; intros m N; cbn [fold_left]; [exact N|apply IH, madd_nodup, N]. Qed.

Lemma increasing_nodup l : increasing l -> NoDup l.
Proof.
  induction 1 as [|x l S IH F]; constructor; [|exact IH].
  intro I. rewrite Forall_forall in F. apply F in I. lia.
Qed.

Lemma fold_madd_length l : NoDup l -> length (fold_left madd l []) = length l.
Proof.
  intro N. apply Permutation_length. apply NoDup_Permutation.
  - apply fold_madd_nodup. constructor.
  - exact N.
  - intro i. rewrite in_fold_madd. simpl. tauto.
Qed.

(** ** sort.Ints *)
Lemma insertZ_perm x l : Permutation (insertZ x l) (x :: l).
Proof.
  induction l as [|y l IH]; [apply Permutation_refl|]. cbn [insertZ]. destruct (x <=? y)%Z; [apply Permutation_refl|].
  rewrite IH. apply perm_swap.
Qed.

Lemma sortInts_perm l : Permutation (sortInts l) l.
Proof.
  induction l as [|x l IH]; [constructor|]. unfold sortInts in *. cbn [fold_right]. rewrite insertZ_perm.
  constructor. exact IH.
Qed.

Lemma insertZ_sorted x l : StronglySorted Z.le l -> StronglySorted Z.le (insertZ x l).
Proof.
  induction 1 as [|y l S IH F]; cbn [insertZ]; [repeat constructor|].
  destruct (x <=? y)%Z eqn:E.
  - constructor; [constructor; assumption|]. constructor; [lia|].
    rewrite Forall_forall in *. intros z I. apply F in I. lia.
  - constructor; [exact IH|]. rewrite Forall_forall in *. intros z I.
    apply (Permutation_in _ (insertZ_perm x l)) in I. destruct I as [<-|I]; [lia|auto].
Qed.

Lemma sortInts_sorted l : StronglySorted Z.le (sortInts l).
Proof. induction l as [|x l IH]; [constructor|]. apply insertZ_sorted, IH. Qed.

(** sorting a rearrangement of an increasing list of positions gives that list *)
Lemma sortInts_increasing l idx : increasing idx -> Permutation l (map Z.of_nat idx) -> sortInts l = map Z.of_nat idx.
Proof.
  intros I P.
  assert (Q : Permutation (sortInts l) (map Z.of_nat idx)) by (rewrite sortInts_perm; exact P).
  pose proof (sortInts_sorted l) as S. clear P. revert S Q. generalize (sortInts l) as s. intros s S. revert idx I.
  induction S as [|x s S IH F]; intros idx I Q.
  - apply Permutation_nil in Q. destruct idx; [reflexivity|discriminate].
  - destruct idx as [|i idx]; [apply Permutation_sym, Permutation_nil_cons in Q; contradiction|].
    inversion I as [|? ? I1 F1]; subst. rewrite Forall_forall in F, F1. cbn [map] in Q.
    assert (E : x = Z.of_nat i).
    { assert (In1 : In (Z.of_nat i) (x :: s)) by (apply (Permutation_in _ (Permutation_sym Q)); left; reflexivity).
      assert (In2 : In x (Z.of_nat i :: map Z.of_nat idx)) by (apply (Permutation_in _ Q); left; reflexivity).
      destruct In1 as [E|In1]; [exact E|]. destruct In2 as [E|In2]; [symmetry; exact E|].
      apply F in In1. apply in_map_iff in In2. destruct In2 as [k [<- Ik]]. apply F1 in Ik. lia. }
    subst x. cbn [map]. f_equal. apply IH; [exact I1|]. apply Permutation_cons_inv in Q. exact Q.
Qed.

(** ** Weaving disclosed and hidden values *)
Section Weave.
  Variable A : Type.
  Implicit Types given hidden : list A.

  Lemma weave_ext n : forall i l l' given hidden, (forall j, i <= j -> (In j l <-> In j l')) ->
    weave i n l given hidden = weave i n l' given hidden.
  Proof.
    induction n as [|n IH]; intros i l l' given hidden E; [reflexivity|]. cbn [weave].
    assert (Q : existsb (Nat.eqb i) l = existsb (Nat.eqb i) l') by (apply (@mem_ext i l l'), E; lia).
    rewrite Q. clear Q. destruct (existsb (Nat.eqb i) l'); [destruct given|destruct hidden]; try reflexivity; f_equal; apply IH; intros j L; apply E; lia.
  Qed.

  (** number of positions in [i, i+n) inside and outside [l] *)
  Definition count_in (i n : nat) (l : list nat) : nat := length (filter (fun j => mem j l) (seq i n)).
  Definition count_out (i n : nat) (l : list nat) : nat := length (filter (fun j => negb (mem j l)) (seq i n)).

  Lemma weave_length n : forall i l given hidden, count_in i n l <= length given -> count_out i n l <= length hidden ->
    length (weave i n l given hidden) = n.
  Proof.
    unfold count_in, count_out. induction n as [|n IH]; intros i l given hidden L1 L2; [reflexivity|].
    cbn [weave]. cbn [seq filter] in L1, L2. unfold mem in L1 at 1, L2 at 1.
    destruct (existsb (Nat.eqb i) l); cbn [negb length] in L1, L2.
    - destruct given as [|x given]; [simpl in L1; lia|]. cbn [length] in *. rewrite IH; [reflexivity|lia|lia].
    - destruct hidden as [|x hidden]; [simpl in L2; lia|]. cbn [length] in *. rewrite IH; [reflexivity|lia|lia].
  Qed.

  Lemma count_in_out i n l : count_in i n l + count_out i n l = n.
  Proof.
    unfold count_in, count_out. rewrite <- (seq_length n i) at 3. induction (seq i n) as [|x s IH]; [reflexivity|].
    cbn [filter]. destruct (mem x l); cbn [negb length]; lia.
  Qed.

  Lemma weave_reveals_from n : forall i l given hidden, increasing l -> (forall j, In j l -> i <= j) ->
    length (weave i n l given hidden) = n ->
    forall j k, nth_error l j = Some k -> k < i + n -> nth_error given j = nth_error (weave i n l given hidden) (k - i).
  Proof.
    induction n as [|n IH]; intros i l given hidden I B L j k N K.
    - exfalso. apply nth_error_In in N. apply B in N. lia.
    - cbn [weave] in *. destruct l as [|x l]; [destruct j; discriminate|].
      destruct (Nat.eq_dec x i) as [->|NE].
      + cbn [existsb] in *. rewrite Nat.eqb_refl in *. cbn [orb] in *.
        destruct given as [|g given]; [simpl in L; lia|]. cbn [length] in L. injection L as L.
        inversion I as [|? ? I1 F1]; subst. rewrite Forall_forall in F1.
        assert (Ex : weave (S i) n (i :: l) given hidden = weave (S i) n l given hidden).
        { apply weave_ext. intros q Hq. simpl. intuition lia. }
        rewrite Ex in *. destruct j as [|j]; cbn [nth_error] in N.
        * injection N as <-. rewrite Nat.sub_diag. reflexivity.
        * assert (i < k) by (apply F1; eapply nth_error_In; exact N).
          replace (k - i) with (S (k - S i)) by lia. cbn [nth_error].
          apply IH; [exact I1|intros q Hq; apply F1 in Hq; lia|exact L|exact N|lia].
      + assert (B' : forall q, In q (x :: l) -> S i <= q).
        { intros q [<-|Hq]; [specialize (B x (or_introl eq_refl)); lia|].
          inversion I as [|? ? I1 F1]; subst. rewrite Forall_forall in F1. apply F1 in Hq.
          specialize (B x (or_introl eq_refl)). lia. }
        assert (M : existsb (Nat.eqb i) (x :: l) = false).
        { destruct (existsb _ _) eqn:E; [|reflexivity]. apply (@mem_in i (x :: l)) in E. apply B' in E. lia. }
        rewrite M in *. destruct hidden as [|h hidden]; [simpl in L; lia|]. cbn [length] in L. injection L as L.
        assert (S i <= k) by (apply B'; eapply nth_error_In; exact N).
        replace (k - i) with (S (k - S i)) by lia. cbn [nth_error].
        apply IH; [exact I|exact B'|exact L|exact N|lia].
  Qed.

  Lemma weave_reveals n l given hidden : increasing l -> length (weave 0 n l given hidden) = n ->
    reveals l given (weave 0 n l given hidden).
  Proof.
    intros I L j k N K. rewrite L in K.
    rewrite (@weave_reveals_from n 0 l given hidden I (fun _ _ => Nat.le_0_l _) L j k N) by lia.
    rewrite Nat.sub_0_r. reflexivity.
  Qed.
End Weave.

Lemma skipn_here A (l1 : list A) x l2 : skipn (length l1) (l1 ++ x :: l2) = x :: l2.
Proof. induction l1; simpl; auto. Qed.
Lemma skipn_past A (l1 : list A) x l2 : skipn (S (length l1)) (l1 ++ x :: l2) = l2.
Proof. induction l1; simpl in *; auto. Qed.

Section Proofs.
  Context {C : Curve} (OK : CurveOk C).
  Variable HG : bytes -> G1 C.
  Let KO := ok_zr OK.
  Let GO1 := ok_g1 OK.
  Let GO2 := ok_g2 OK.
  Let GOT := ok_gt OK.
  Add Field Kf_bbsp : (sok_field KO).
  Notation zr := (zcar (Zr C)).
  Notation g1 := (gcar (G1 C)).
  Notation g2 := (gcar (G2 C)).

  (** messages numbered consecutively from [k] *)
  Definition numbered (k : nat) (ms : list (SignatureMessage C)) : Prop := map (@sm_idx C) ms = seq k (length ms).

  Lemma messagesToFr_numbered (H : hasher C) ms : forall k, numbered k (messagesToFr_from H k ms).
  Proof.
    unfold numbered. induction ms as [|m ms IH]; intro k; [reflexivity|].
    cbn [messagesToFr_from map length seq]. rewrite IH. reflexivity.
  Qed.
  Lemma messagesToFr_fr (H : hasher C) ms : forall k, map (@sm_fr C) (messagesToFr_from H k ms) = map H ms.
  Proof. induction ms as [|m ms IH]; intro k; [reflexivity|]. cbn [messagesToFr_from map]. rewrite IH. reflexivity. Qed.
  Lemma messagesToFr_length (H : hasher C) ms : forall k, length (messagesToFr_from H k ms) = length ms.
  Proof. induction ms as [|m ms IH]; intro k; [reflexivity|]. cbn [messagesToFr_from length]. rewrite IH. reflexivity. Qed.

  Lemma gdot_combine (hs : list g1) : forall (ks : list zr), gdot (map fst (combine hs ks)) (map snd (combine hs ks)) = gdot hs ks.
  Proof. induction hs as [|h hs IH]; intros [|k ks]; try reflexivity. cbn [combine map gdot fst snd]. rewrite IH. reflexivity. Qed.

  Lemma lookup_bases (hs : list g1) ms : forall k, numbered k ms -> k + length ms <= length hs ->
    map_res (fun m => let* h := nth_res hs (sm_idx m) in Ok (h, sm_fr m)) ms
    = Ok (combine (skipn k hs) (map (@sm_fr C) ms)).
  Proof.
    unfold numbered. induction ms as [|m ms IH]; intros k N L.
    - cbn. rewrite combine_nil. reflexivity.
    - cbn [map length seq] in N. injection N as N1 N2. cbn [map_res]. cbn [length] in L.
      destruct (@nth_res_lt _ hs k) as [h Eh]; [lia|]. rewrite N1, Eh. cbn [bind].
      rewrite (IH (S k)) by (auto; lia). cbn [bind].
      apply nth_res_ok in Eh. apply nth_error_split in Eh. destruct Eh as (l1 & l2 & -> & <-).
      rewrite skipn_here, skipn_past. reflexivity.
  Qed.

  Lemma lookup_short (hs : list g1) (ms : list (SignatureMessage C)) r :
    map_res (fun m => let* h := nth_res hs (sm_idx m) in Ok (h, sm_fr m)) ms = Ok r -> numbered 0 ms -> length ms <= length hs.
  Proof.
    intros E N. destruct (Nat.le_gt_cases (length ms) (length hs)) as [|L]; [assumption|].
    exfalso. destruct (nth_error ms (length hs)) as [m|] eqn:M; [|apply nth_error_None in M; lia].
    pose proof (map_res_nth _ _ _ E M) as [y [Ey _]]. inv_all.
    assert (I : sm_idx m = length hs).
    { unfold numbered in N. apply (f_equal (fun l => nth_error l (length hs))) in N.
      rewrite nth_error_map, M in N. cbn [option_map] in N.
      rewrite nth_error_nth' with (d := 0) in N by (rewrite seq_length; exact L). rewrite seq_nth in N by exact L.
      injection N as N. exact N. }
    rewrite I in E0. unfold nth_res in E0. replace (nth_error hs (length hs)) with (@None g1) in E0; [discriminate|].
    symmetry. apply nth_error_None. lia.
  Qed.

  Lemma computeB_ok (key : PublicKeyWithGenerators C) s ms : numbered 0 ms -> length ms <= length (pg_h key) ->
    computeB s ms key = Ok (bbs_base (pg_h0 key) (pg_h key) s (map (@sm_fr C) ms)).
  Proof.
    intros N L. unfold computeB. rewrite (@lookup_bases _ _ 0) by (auto; lia). cbn [bind skipn].
    rewrite (build_ok OK) by discriminate. f_equal. cbn [map fst snd gdot]. rewrite gdot_combine.
    unfold bbs_base. rewrite (ok_of_Z_1 OK). gnorm KO GO1; ring.
  Qed.

  Lemma verifyWithB_iff (sg : Signature C) (key : PublicKeyWithGenerators C) b :
    verifyWithB sg key b = Ok tt <-> pair C (pg_w key ⊕ (genG2 C ⊗ si_e sg)) (si_a sg) = pair C (genG2 C) b.
  Proof.
    unfold verifyWithB, compareTwoPairings. rewrite guard_ok, (gok_eqb GOT), (pair_opp_r OK), (gok_comm GO2 _ (pg_w key)).
    apply (gsub_zero KO GOT).
  Qed.

  Lemma signatureVerify_iff (sg : Signature C) ms (key : PublicKeyWithGenerators C) : numbered 0 ms ->
    signatureVerify sg ms key = Ok tt <->
    length ms <= length (pg_h key) /\
    bbs_signature (pg_w key) (pg_h0 key) (pg_h key) (si_a sg) (si_e sg) (si_s sg) (map (@sm_fr C) ms).
  Proof.
    intro N. unfold signatureVerify. split.
    - intro E. apply bind_ok in E. destruct E as [b [Eb E]].
      assert (L : length ms <= length (pg_h key)).
      { unfold computeB in Eb. apply bind_ok in Eb. destruct Eb as [r [Er _]]. exact (lookup_short Er N). }
      split; [exact L|]. rewrite computeB_ok in Eb by auto. injection Eb as <-. apply verifyWithB_iff in E. exact E.
    - intros [L E]. rewrite computeB_ok by auto. cbn [bind]. apply verifyWithB_iff. exact E.
  Qed.

  (** the signature computed from the secret key *)
  Lemma sign_valid (sk e : zr) (b : g1) : zadd sk e <> z0 ->
    pair C ((genG2 C ⊗ sk) ⊕ (genG2 C ⊗ e)) (b ⊗ zinv (zadd sk e)) = pair C (genG2 C) b.
  Proof.
    intro N. rewrite <- (gok_mul_add GO2), (ok_pair_mul_l OK), (ok_pair_mul_r OK).
    gnorm KO GOT; field; exact N.
  Qed.

  (** ** Codecs in closed form *)
  Section Sized.
  Variable S32 : scalar_size C = frCompressedSize.

  Definition sig_enc (A : g1) (e s : zr) : bytes := g1_comp C A ++ zr_bytes C e ++ zr_bytes C s.

  Lemma parse_sig_enc A e s : parseSignature C (sig_enc A e s) = Ok {| si_a := A; si_e := e; si_s := s |}.
  Proof.
    unfold sig_enc, parseSignature.
    pose proof (ok_g1c_len OK A) as LA. pose proof (ok_zr_len OK e) as LE. pose proof (ok_zr_len OK s) as LS. rewrite S32 in LE, LS.
    rewrite !app_length, LA, LE, LS.
    replace (g1_csize C + (frCompressedSize + frCompressedSize) =? _) with true by (symmetry; apply Nat.eqb_eq; lia).
    cbn [guard bind]. rewrite slice_head by exact LA. cbn [bind]. rewrite (ok_g1c_rt OK). cbn [bind].
    rewrite slice_at by (rewrite ?LA, ?LE; reflexivity). cbn [bind].
    rewrite app_assoc, slice_from_at by (rewrite app_length, LA, LE; reflexivity). cbn [bind].
    rewrite !(ok_zr_rt OK). reflexivity.
  Qed.

  Lemma signatureBytes_enc (sg : Signature C) : signatureBytes sg = Ok (sig_enc (si_a sg) (si_e sg) (si_s sg)).
  Proof.
    destruct sg as [a e s]. unfold signatureBytes, sig_enc. cbn [si_a si_e si_s].
    set (n := g1_csize C). pose proof (ok_g1c_len OK a) as LA. pose proof (ok_zr_len OK e) as LE. pose proof (ok_zr_len OK s) as LS.
    rewrite S32 in LE, LS. fold n in LA.
    assert (Z : zeros (n + 2 * frCompressedSize) = zeros n ++ zeros 32 ++ zeros 32) by (rewrite !zeros_app; reflexivity).
    rewrite Z. rewrite (@copy_at_last [] (zeros n ++ zeros 32 ++ zeros 32)). cbn [app bind].
    rewrite firstn_all2 by (rewrite !app_length, zeros_length; lia).
    rewrite skipn_app, skipn_all2 by (rewrite zeros_length; lia).
    rewrite zeros_length, LA, Nat.sub_diag. cbn [skipn app].
    rewrite (@copy_win_at (g1_comp C a) (zeros 32) (zeros 32)); [|exact LA|rewrite zeros_length; reflexivity|rewrite zeros_length, LE; reflexivity].
    cbn [bind]. rewrite (app_assoc (g1_comp C a)).
    replace (n + frCompressedSize) with (length (g1_comp C a ++ zr_bytes C e)) by (rewrite app_length, LA, LE; reflexivity).
    rewrite copy_at_last. rewrite firstn_all2 by (rewrite zeros_length, LS; unfold frCompressedSize; lia).
    rewrite skipn_all2 by (rewrite zeros_length, LS; unfold frCompressedSize; lia). rewrite app_nil_r, <- app_assoc. reflexivity.
  Qed.

  Lemma unmarshalPK_enc pk : unmarshalPublicKey C (g2_comp C pk) = Ok pk.
  Proof. unfold unmarshalPublicKey. rewrite (ok_g2c_len OK), Nat.eqb_refl. cbn [guard bind]. rewrite (ok_g2c_rt OK). reflexivity. Qed.

  (** ** Sign and Verify *)
  Lemma bbsVerify_iff (H : hasher C) ms A e s pk :
    bbsVerify HG H ms (sig_enc A e s) (g2_comp C pk) = Ok tt <->
    (Z.of_nat (length ms) <= 4294967295)%Z /\
    bbs_signature pk (gen0 HG pk (length ms)) (gens HG pk (length ms)) A e s (map H ms).
  Proof.
    unfold bbsVerify. rewrite parse_sig_enc. cbn [bind]. rewrite unmarshalPK_enc. cbn [bind].
    assert (N : numbered 0 (messagesToFr H ms)) by apply messagesToFr_numbered.
    split.
    - intro E. apply bind_ok in E. destruct E as [key [Ek E]]. apply (toPKwG_inv OK) in Ek. destruct Ek as [B ->].
      split; [exact B|]. apply signatureVerify_iff in E; [|exact N]. destruct E as [_ E]. cbn in E.
      unfold messagesToFr in E. rewrite messagesToFr_fr in E. exact E.
    - intros [B E]. rewrite (toPKwG_ok OK) by exact B. cbn [bind]. apply signatureVerify_iff; [exact N|]. cbn [pg_h pg_w pg_h0 si_a si_e si_s].
      unfold messagesToFr. rewrite gens_length, messagesToFr_length, messagesToFr_fr. auto.
  Qed.

  Lemma bbsSign_ok (H : hasher C) ms sk e s : ms <> [] -> (Z.of_nat (length ms) <= 4294967295)%Z ->
    let pk := genG2 C ⊗ sk in
    bbsSign HG H ms (zr_bytes C sk) e s
    = Ok (sig_enc (bbs_base (gen0 HG pk (length ms)) (gens HG pk (length ms)) s (map H ms) ⊗ zinv (zadd sk e)) e s).
  Proof.
    intros NE B pk. unfold bbsSign, unmarshalPrivateKey. rewrite (ok_zr_len OK), S32, Nat.eqb_refl. cbn [guard bind].
    rewrite (ok_zr_rt OK).
    replace (negb (length ms =? 0)) with true by (destruct ms; [contradiction|reflexivity]). cbn [guard bind].
    unfold signWithKeyFr, publicKey. fold pk. rewrite (toPKwG_ok OK) by exact B. cbn [bind pg_h].
    unfold messagesToFr. rewrite (@lookup_bases _ _ 0); [|apply messagesToFr_numbered|rewrite messagesToFr_length, gens_length; lia].
    cbn [bind skipn]. rewrite (build_ok OK) by discriminate. cbn [bind map fst snd gdot]. rewrite gdot_combine, messagesToFr_fr.
    unfold signWithKeyB, publicKey. fold pk. rewrite messagesToFr_length, (toPKwG_ok OK) by exact B. cbn [bind pg_h0].
    rewrite signatureBytes_enc. cbn [si_a si_e si_s]. unfold bbs_base. rewrite (ok_of_Z_1 OK).
    f_equal. f_equal. f_equal. gnorm KO GO1; ring.
  Qed.

  Lemma bbs_sign_verify (H : hasher C) ms sk e s : ms <> [] -> (Z.of_nat (length ms) <= 4294967295)%Z -> zadd sk e <> z0 ->
    exists sg, bbsSign HG H ms (zr_bytes C sk) e s = Ok sg /\ bbsVerify HG H ms sg (g2_comp C (genG2 C ⊗ sk)) = Ok tt.
  Proof.
    intros NE B N. eexists. split; [apply bbsSign_ok; assumption|]. apply bbsVerify_iff. split; [exact B|].
    unfold bbs_signature. apply sign_valid. exact N.
  Qed.

  End Sized.

  (** ** Disclosed and hidden bases *)
  Lemma hidden_bases_ext (hs : list g1) : forall i l l', (forall j, In j l <-> In j l') -> hidden_bases i hs l = hidden_bases i hs l'.
  Proof.
    induction hs as [|h hs IH]; intros i l l' E; [reflexivity|]. cbn [hidden_bases].
    rewrite (mem_ext (E i)), (IH _ _ _ E). reflexivity.
  Qed.

  Lemma hidden_bases_length (hs : list g1) : forall i l, length (hidden_bases i hs l) = count_out i (length hs) l.
  Proof.
    unfold count_out. induction hs as [|h hs IH]; intros i l; [reflexivity|]. cbn [hidden_bases length seq filter].
    destruct (mem i l); cbn [negb length]; rewrite IH; reflexivity.
  Qed.

  Lemma disclosed_sum_acc (dis : list (g1 * zr)) : forall acc,
    fold_left (fun pr bs => pr ⊕ (fst bs ⊗ snd bs)) dis acc = acc ⊕ gdot (map fst dis) (map snd dis).
  Proof.
    induction dis as [|[b x] dis IH]; intro acc; cbn [fold_left map gdot fst snd].
    - rewrite (gadd_zero_r GO1). reflexivity.
    - rewrite IH. gnorm KO GO1; ring.
  Qed.

  Lemma disclosed_sum_eq (dis : list (g1 * zr)) :
    disclosed_sum ((genG1 C, zr_of_Z C 1) :: dis) = genG1 C ⊕ gdot (map fst dis) (map snd dis).
  Proof.
    unfold disclosed_sum. rewrite disclosed_sum_acc. cbn [map fst snd gdot]. rewrite (ok_of_Z_1 OK). gnorm KO GO1; ring.
  Qed.

  (** disclosed part plus hidden part is the whole product *)
  Lemma split_bases_spec (hs : list g1) revealed : forall i (ms : list (SignatureMessage C)) ind hid dis,
    split_bases i hs revealed ms ind = Ok (hid, dis) ->
    hid = hidden_bases i hs revealed /\
    count_in i (length hs) revealed <= length (skipn ind ms) /\
    forall hidden, length hidden = length hid ->
      gdot hs (weave i (length hs) revealed (skipn ind (map (@sm_fr C) ms)) hidden)
      = gdot (map fst dis) (map snd dis) ⊕ gdot hid hidden.
  Proof.
    induction hs as [|h hs IH]; intros i ms ind hid dis E; cbn [split_bases] in E.
    - injection E as <- <-. split; [reflexivity|]. split; [apply Nat.le_0_l|]. intros. cbn. rewrite (gadd_zero_r GO1). reflexivity.
    - cbn [hidden_bases length]. unfold count_in. cbn [seq filter weave]. change (existsb (Nat.eqb i) revealed) with (mem i revealed).
      destruct (mem i revealed) eqn:M.
      + apply bind_ok in E. destruct E as [m [Em E]]. apply bind_ok in E. destruct E as [[hid' dis'] [E' E]].
        injection E as <- <-. destruct (IH _ _ _ _ _ E') as (-> & L & G). split; [reflexivity|].
        apply nth_res_ok in Em. apply nth_error_split in Em. destruct Em as (l1 & l2 & -> & <-).
        rewrite skipn_past in L. rewrite skipn_here. cbn [length]. split; [unfold count_in in L; lia|].
        intros hidden Lh. rewrite map_app in *. cbn [map] in *.
        specialize (G hidden Lh). rewrite <- (map_length (@sm_fr C) l1) in *.
        rewrite skipn_past in G. rewrite skipn_here.
        cbn [gdot map fst snd]. rewrite G. gnorm KO GO1; ring.
      + apply bind_ok in E. destruct E as [[hid' dis'] [E' E]]. injection E as <- <-.
        destruct (IH _ _ _ _ _ E') as (-> & L & G). split; [reflexivity|]. split; [exact L|].
        intros [|x hidden] Lh; cbn [length] in Lh; [lia|]. cbn [gdot]. rewrite G by lia. gnorm KO GO1; ring.
  Qed.

  Lemma split_bases_ok (hs : list g1) revealed : forall i (ms : list (SignatureMessage C)) ind,
    count_in i (length hs) revealed <= length (skipn ind ms) -> exists hid dis, split_bases i hs revealed ms ind = Ok (hid, dis).
  Proof.
    induction hs as [|h hs IH]; intros i ms ind L; cbn [split_bases]; [eauto|].
    unfold count_in in L. cbn [length seq filter] in L. destruct (mem i revealed) eqn:M.
    - cbn [length] in L. destruct (nth_error ms ind) as [m|] eqn:N.
      2:{ apply nth_error_None in N. rewrite skipn_all2 in L by exact N. simpl in L. lia. }
      unfold nth_res. rewrite N. cbn [bind]. destruct (IH (S i) ms (S ind)) as (hid & dis & ->).
      + rewrite skipn_length in *. unfold count_in. lia.
      + cbn [bind]. eauto.
    - destruct (IH (S i) ms ind) as (hid & dis & ->); [exact L|]. cbn [bind]. eauto.
  Qed.

  (** ** Verification of proofs, as equations *)
  Definition enough (key : PublicKeyWithGenerators C) (revealed : list nat) (ms : list (SignatureMessage C)) : Prop :=
    length revealed <= pg_count key + 2 /\ count_in 0 (length (pg_h key)) revealed <= length ms.

  (** g1 and the disclosed part *)
  Definition disclosed (key : PublicKeyWithGenerators C) (revealed : list nat) (ms : list zr) : g1 :=
    bbs_base (pg_h0 key) (pg_h key) z0 (weave 0 (length (pg_h key)) revealed ms (repeat z0 (count_out 0 (length (pg_h key)) revealed))).

  Lemma gdot_zeros (hs : list g1) n : gdot hs (repeat z0 n) = gzero.
  Proof.
    revert n. induction hs as [|h hs IH]; intros [|n]; try reflexivity. cbn [repeat gdot]. rewrite IH, (gmul_0 KO GO1), (gadd_zero_r GO1). reflexivity.
  Qed.

  Lemma split_disclosed (key : PublicKeyWithGenerators C) revealed ms hid dis :
    split_bases 0 (pg_h key) revealed ms 0 = Ok (hid, dis) ->
    disclosed_sum ((genG1 C, zr_of_Z C 1) :: dis) = disclosed key revealed (map (@sm_fr C) ms).
  Proof.
    intro E. destruct (split_bases_spec E) as (-> & _ & G). rewrite disclosed_sum_eq. unfold disclosed, bbs_base.
    change (map (@sm_fr C) ms) with (skipn 0 (map (@sm_fr C) ms)).
    rewrite G by (rewrite repeat_length, hidden_bases_length; reflexivity). rewrite gdot_zeros. gnorm KO GO1; ring.
  Qed.

  (** the full base splits *)
  Lemma base_split (key : PublicKeyWithGenerators C) revealed ms s hidden :
    count_in 0 (length (pg_h key)) revealed <= length ms ->
    length hidden = length (hidden_bases 0 (pg_h key) revealed) ->
    bbs_base (pg_h0 key) (pg_h key) s (weave 0 (length (pg_h key)) revealed (map (@sm_fr C) ms) hidden)
    = disclosed key revealed (map (@sm_fr C) ms) ⊕ (pg_h0 key ⊗ s) ⊕ gdot (hidden_bases 0 (pg_h key) revealed) hidden.
  Proof.
    intros L Lh. destruct (@split_bases_ok (pg_h key) revealed 0 ms 0 L) as (hid & dis & E).
    rewrite <- (split_disclosed E). destruct (split_bases_spec E) as (-> & _ & G).
    unfold bbs_base. change (map (@sm_fr C) ms) with (skipn 0 (map (@sm_fr C) ms)). rewrite (G hidden Lh), disclosed_sum_eq.
    gnorm KO GO1; ring.
  Qed.

  (** what is verified about the messages *)
  Definition vc2_bases (key : PublicKeyWithGenerators C) (revealed : list nat) (d : g1) : list g1 :=
    d :: pg_h0 key :: hidden_bases 0 (pg_h key) revealed.

  Lemma defaultVC2Verify_iff c (key : PublicKeyWithGenerators C) revealed ms p d :
    defaultVC2Verify c key revealed ms p d = Ok tt <->
    enough key revealed ms /\
    length (vc2_bases key revealed d) <= length (pf_resp p) /\
    gdot (vc2_bases key revealed d ++ [gopp (disclosed key revealed (map (@sm_fr C) ms))]) (pf_resp p ++ [c]) = pf_comm p.
  Proof.
    unfold defaultVC2Verify, enough. split.
    - destruct (pg_count key + 2 <? length revealed) eqn:G; [discriminate|]. apply Nat.ltb_ge in G.
      intro E. apply bind_ok in E. destruct E as [[hid dis] [Es E]]. rewrite (split_disclosed Es) in E.
      destruct (split_bases_spec Es) as (-> & L & _). apply (proofG1Verify_inv OK) in E. destruct E as [L2 E].
      split; [split; [exact G|exact L]|]. split; [exact L2|exact E].
    - intros ((G & L) & L2 & E). replace (pg_count key + 2 <? length revealed) with false by (symmetry; apply Nat.ltb_ge; exact G).
      destruct (@split_bases_ok (pg_h key) revealed 0 ms 0 L) as (hid & dis & Es). rewrite Es. cbn [bind].
      rewrite (split_disclosed Es). destruct (split_bases_spec Es) as (-> & _ & _).
      apply (proofG1Verify_ok OK); [exact L2|exact E].
  Qed.

  Lemma signatureProofVerify_iff vc2 (sp : PoKOfSignatureProof C) c (key : PublicKeyWithGenerators C) revealed ms :
    signatureProofVerify vc2 sp c key revealed ms = Ok tt <->
    pair C (pg_w key) (sp_aprime sp) = pair C (genG2 C) (sp_abar sp) /\
    (2 <= length (pf_resp (sp_vc1 sp)) /\
     gdot [sp_aprime sp; pg_h0 key; sp_abar sp ⊖ sp_d sp] (pf_resp (sp_vc1 sp) ++ [c]) = pf_comm (sp_vc1 sp)) /\
    vc2 c key revealed ms (sp_vc2 sp) (sp_d sp) = Ok tt.
  Proof.
    unfold signatureProofVerify, verifyVC1Proof, compareTwoPairings. rewrite (pair_opp_r OK). split.
    - intro E. apply bind_ok in E. destruct E as [u [E1 E]]. apply bind_ok in E. destruct E as [u' [E2 E]].
      apply guard_ok in E1. apply (gok_eqb GOT) in E1. apply (proj1 (gsub_zero KO GOT _ _)) in E1.
      apply (proofG1Verify_inv OK) in E2. destruct E2 as [L2 E2]. split; [exact E1|]. split; [split; [exact L2|exact E2]|exact E].
    - intros (E1 & (L2 & E2) & E). apply (proj2 (gsub_zero KO GOT _ _)) in E1. unfold gsub in E1. rewrite E1.
      rewrite (geqb_refl GOT). cbn [guard bind]. rewrite (proofG1Verify_ok OK); [exact E|exact L2|exact E2].
  Qed.

  (** ** Special soundness *)
  Lemma gdot_map_sub (ps : list g1) (k : zr) : forall r1 r2 : list zr, length r1 = length ps -> length r2 = length ps ->
    gdot ps (map (fun i => zmul (zsub (nth i r2 z0) (nth i r1 z0)) k) (seq 0 (length ps)))
    = (gdot ps r2 ⊖ gdot ps r1) ⊗ k.
  Proof.
    induction ps as [|p ps IH]; intros [|a r1] [|b r2] L1 L2; cbn [length] in *; try lia.
    - cbn. rewrite (gsub_diag KO GO1), (gmul_zero GO1). reflexivity.
    - cbn [seq map gdot nth]. rewrite <- seq_shift, map_map. cbn [nth]. rewrite IH by lia. gnorm KO GO1; ring.
  Qed.

  Lemma two_responses (bases : list g1) (x : g1) (r1 r2 : list zr) c1 c2 cm :
    length r1 = length bases -> length r2 = length bases -> c1 <> c2 ->
    gdot (bases ++ [x]) (r1 ++ [c1]) = cm -> gdot (bases ++ [x]) (r2 ++ [c2]) = cm ->
    gdot bases (map (extract_at c1 c2 r1 r2) (seq 0 (length bases))) = x.
  Proof.
    intros L1 L2 N E1 E2. rewrite (contribution_exact OK) in E1, E2 by assumption.
    unfold extract_at. rewrite gdot_map_sub by assumption.
    assert (D : gdot bases r2 ⊖ gdot bases r1 = x ⊗ (zsub c1 c2)).
    { apply (gadd_cancel_l GO1 (gdot bases r1 ⊕ (x ⊗ c2))).
      transitivity (gdot bases r2 ⊕ (x ⊗ c2)); [gnorm KO GO1; ring|]. rewrite E2, <- E1. gnorm KO GO1; ring. }
    rewrite D. assert (NZ : zsub c1 c2 <> z0) by (intro Q; apply N; apply (zsub_zero KO); exact Q).
    gnorm KO GO1; field; exact NZ.
  Qed.

  (** two accepting transcripts with the same first message, one response per base *)
  Lemma soundness (key : PublicKeyWithGenerators C) revealed ms (p q : PoKOfSignatureProof C) c1 c2 :
    signatureProofVerify (@defaultVC2Verify C) p c1 key revealed ms = Ok tt ->
    signatureProofVerify (@defaultVC2Verify C) q c2 key revealed ms = Ok tt ->
    sp_aprime p = sp_aprime q -> sp_abar p = sp_abar q -> sp_d p = sp_d q ->
    pf_comm (sp_vc1 p) = pf_comm (sp_vc1 q) -> pf_comm (sp_vc2 p) = pf_comm (sp_vc2 q) ->
    length (pf_resp (sp_vc1 p)) = 2 -> length (pf_resp (sp_vc1 q)) = 2 ->
    length (pf_resp (sp_vc2 p)) = 2 + count_out 0 (length (pg_h key)) revealed ->
    length (pf_resp (sp_vc2 q)) = 2 + count_out 0 (length (pg_h key)) revealed ->
    c1 <> c2 ->
    let r1 := pf_resp (sp_vc1 p) in let r2 := pf_resp (sp_vc1 q) in
    let t1 := pf_resp (sp_vc2 p) in let t2 := pf_resp (sp_vc2 q) in
    let full := weave 0 (length (pg_h key)) revealed (map (@sm_fr C) ms) (extract_hidden c1 c2 t1 t2) in
    length full = length (pg_h key) /\
    bbs_signature (pg_w key) (pg_h0 key) (pg_h key) (extract_A (sp_aprime p) c1 c2 t1 t2)
      (extract_e c1 c2 r1 r2) (extract_s c1 c2 r1 r2 t1 t2) full.
  Proof.
    intros V1 V2 Ea Eb Ed E1 E2 L1 L1' L2 L2' N r1 r2 t1 t2 full.
    apply signatureProofVerify_iff in V1. destruct V1 as (P1 & (_ & A1) & B1).
    apply signatureProofVerify_iff in V2. destruct V2 as (_ & (_ & A2) & B2).
    apply defaultVC2Verify_iff in B1. destruct B1 as ((_ & En) & _ & B1).
    apply defaultVC2Verify_iff in B2. destruct B2 as (_ & _ & B2).
    rewrite <- Ea, <- Eb, <- Ed, <- E1 in A2. rewrite <- Ed, <- E2 in B2.
    set (n := length (pg_h key)) in *. set (hid := hidden_bases 0 (pg_h key) revealed) in *.
    assert (Lhid : length hid = count_out 0 n revealed) by apply hidden_bases_length.
    change [sp_aprime p; pg_h0 key; sp_abar p ⊖ sp_d p] with ([sp_aprime p; pg_h0 key] ++ [sp_abar p ⊖ sp_d p]) in A1, A2.
    pose proof (@two_responses [sp_aprime p; pg_h0 key] _ _ _ c1 c2 _ L1 L1' N A1 A2) as X.
    assert (Lb : length (vc2_bases key revealed (sp_d p)) = 2 + count_out 0 n revealed) by (unfold vc2_bases; cbn [length]; fold hid; lia).
    pose proof (@two_responses (vc2_bases key revealed (sp_d p)) _ _ _ c1 c2 _ (eq_trans L2 (eq_sym Lb)) (eq_trans L2' (eq_sym Lb)) N B1 B2) as Y.
    fold r1 r2 t1 t2 in X, Y, L1, L1', L2, L2'.
    unfold vc2_bases in Y. fold hid in Y. cbn [length seq map gdot] in X, Y.
    set (x0 := extract_at c1 c2 r1 r2 0) in *. set (x1 := extract_at c1 c2 r1 r2 1) in *.
    set (y0 := extract_at c1 c2 t1 t2 0) in *. set (y1 := extract_at c1 c2 t1 t2 1) in *.
    assert (Eh : extract_hidden c1 c2 t1 t2 = map (extract_at c1 c2 t1 t2) (seq 2 (length hid))).
    { unfold extract_hidden. f_equal. f_equal. lia. }
    assert (Lx : length (extract_hidden c1 c2 t1 t2) = length hid) by (rewrite Eh, map_length, seq_length; reflexivity).
    split. { unfold full. apply weave_length; [rewrite map_length; exact En|rewrite Lx, Lhid; lia]. }
    unfold bbs_signature, full. unfold n. rewrite base_split by (try exact En; exact Lx).
    fold hid. rewrite Eh. unfold extract_A, extract_e, extract_s. fold x0 x1 y0 y1.
    set (Hd := gdot hid (map (extract_at c1 c2 t1 t2) (seq 2 (length hid)))) in *.
    set (D := disclosed key revealed (map (@sm_fr C) ms)) in *.
    rewrite (ok_pair_add_l OK), (ok_pair_mul_l OK), !(ok_pair_mul_r OK), P1.
    rewrite <- !(ok_pair_mul_r OK), <- (ok_pair_add_r OK). f_equal.
    (* D = - (d y0 + h0 y1 + Hd), d = Abar - A' x0 - h0 x1 *)
    assert (ED : D = gopp ((sp_d p ⊗ y0) ⊕ (pg_h0 key ⊗ y1) ⊕ Hd)).
    { transitivity (gopp (gopp D)); [gnorm KO GO1; ring|]. rewrite <- Y. gnorm KO GO1; ring. }
    assert (Edd : sp_d p = sp_abar p ⊖ ((sp_aprime p ⊗ x0) ⊕ (pg_h0 key ⊗ x1))).
    { apply (gadd_cancel_l GO1 (sp_abar p ⊖ sp_d p)). rewrite <- X at 2. gnorm KO GO1; ring. }
    rewrite ED, Edd. gnorm KO GO1; ring.
  Qed.

  (** ** Forgery: one surplus response replaces the challenge *)
  Lemma forgery (key : PublicKeyWithGenerators C) revealed ms (aprime abar d : g1) (r1 r2 : list zr) (c : zr) :
    pair C (pg_w key) aprime = pair C (genG2 C) abar -> enough key revealed ms ->
    length r1 = 2 -> length r2 = 2 + count_out 0 (length (pg_h key)) revealed ->
    signatureProofVerify (@defaultVC2Verify C)
      {| sp_aprime := aprime; sp_abar := abar; sp_d := d;
         sp_vc1 := {| pf_comm := gdot [aprime; pg_h0 key] r1; pf_resp := r1 ++ [z0] |};
         sp_vc2 := {| pf_comm := gdot (vc2_bases key revealed d) r2; pf_resp := r2 ++ [z0] |} |}
      c key revealed ms = Ok tt.
  Proof.
    intros P En L1 L2. apply signatureProofVerify_iff. cbn [sp_aprime sp_abar sp_d sp_vc1 sp_vc2 pf_resp pf_comm].
    split; [exact P|]. split.
    - rewrite app_length, L1. split; [simpl; lia|].
      change [aprime; pg_h0 key; abar ⊖ d] with ([aprime; pg_h0 key] ++ [abar ⊖ d]).
      rewrite (contribution_surplus OK) by exact L1. rewrite (gmul_0 KO GO1), (gadd_zero_r GO1). reflexivity.
    - assert (Lb : length r2 = length (vc2_bases key revealed d)) by (unfold vc2_bases; cbn [length]; rewrite hidden_bases_length; lia).
      apply defaultVC2Verify_iff. cbn [pf_resp pf_comm]. split; [exact En|]. rewrite app_length. split; [lia|].
      rewrite (contribution_surplus OK) by exact Lb. rewrite (gmul_0 KO GO1), (gadd_zero_r GO1). reflexivity.
  Qed.
End Proofs.
