(** Completeness of selective disclosure, and proofs at the byte level. *)
From Verif Require Import Base Curve Algebra Bbs BbsSpec BbsFacts BbsProof.
From Coq Require Import Field Ring Sorting.Sorted Sorting.Permutation.
Unset Strict Implicit.

(** elements at the positions in / not in a set *)
Fixpoint pick (A : Type) (i : nat) (l : list A) (revealed : list nat) : list A :=
  match l with
  | [] => []
  | x :: l' => if mem i revealed then x :: pick (S i) l' revealed else pick (S i) l' revealed
  end.
Fixpoint unpick (A : Type) (i : nat) (l : list A) (revealed : list nat) : list A :=
  match l with
  | [] => []
  | x :: l' => if mem i revealed then unpick (S i) l' revealed else x :: unpick (S i) l' revealed
  end.

Lemma weave_pick A (l : list A) revealed : forall i, weave i (length l) revealed (pick i l revealed) (unpick i l revealed) = l.
Proof.
  induction l as [|x l IH]; intro i; [reflexivity|]. cbn [length weave pick unpick].
  change (existsb (Nat.eqb i) revealed) with (mem i revealed). destruct (mem i revealed); rewrite IH; reflexivity.
Qed.

Lemma pick_ext A (l : list A) r r' : forall i, (forall j, i <= j -> (In j r <-> In j r')) -> pick i l r = pick i l r'.
Proof.
  induction l as [|x l IH]; intros i E; [reflexivity|]. cbn [pick]. rewrite (mem_ext (E i (le_n i))), (IH (S i)).
  - reflexivity.
  - intros j L. apply E. lia.
Qed.

Lemma unpick_ext A (l : list A) r r' : forall i, (forall j, In j r <-> In j r') -> unpick i l r = unpick i l r'.
Proof.
  induction l as [|x l IH]; intros i E; [reflexivity|]. cbn [unpick]. rewrite (mem_ext (E i)), (IH (S i) E). reflexivity.
Qed.

Lemma pick_map A B (f : A -> B) l r : forall i, pick i (map f l) r = map f (pick i l r).
Proof. induction l as [|x l IH]; intro i; [reflexivity|]. cbn [map pick]. destruct (mem i r); cbn [map]; rewrite IH; reflexivity. Qed.
Lemma unpick_map A B (f : A -> B) l r : forall i, unpick i (map f l) r = map f (unpick i l r).
Proof. induction l as [|x l IH]; intro i; [reflexivity|]. cbn [map unpick]. destruct (mem i r); cbn [map]; rewrite IH; reflexivity. Qed.

Lemma unpick_length A (l : list A) r : forall i, length (unpick i l r) = count_out i (length l) r.
Proof.
  unfold count_out. induction l as [|x l IH]; intro i; [reflexivity|]. cbn [unpick length seq filter].
  destruct (mem i r); cbn [negb length]; rewrite IH; reflexivity.
Qed.
Lemma pick_length A (l : list A) r : forall i, length (pick i l r) = count_in i (length l) r.
Proof.
  unfold count_in. induction l as [|x l IH]; intro i; [reflexivity|]. cbn [pick length seq filter].
  destruct (mem i r); cbn [length]; rewrite IH; reflexivity.
Qed.

Lemma count_in_ext i n r r' : (forall j, In j r <-> In j r') -> count_in i n r = count_in i n r'.
Proof. intro E. unfold count_in. f_equal. apply filter_ext. intro j. apply mem_ext, E. Qed.
Lemma count_out_ext i n r r' : (forall j, In j r <-> In j r') -> count_out i n r = count_out i n r'.
Proof. intro E. unfold count_out. f_equal. apply filter_ext. intro j. rewrite (mem_ext (E j)). reflexivity. Qed.

Lemma pick_increasing A (d : A) (l : list A) : forall i idx, increasing idx -> (forall j, In j idx -> i <= j < i + length l) ->
  pick i l idx = map (fun j => nth (j - i) l d) idx.
Proof.
  induction l as [|x l IH]; intros i idx S B.
  - destruct idx as [|j idx]; [reflexivity|]. specialize (B j (or_introl eq_refl)). simpl in B. lia.
  - cbn [pick]. destruct idx as [|j idx].
    + cbn [map mem existsb]. rewrite (IH (Datatypes.S i) [] S); [reflexivity|]. intros j [].
    + inversion S as [|? ? S1 F1]; subst. rewrite Forall_forall in F1.
      destruct (Nat.eq_dec j i) as [->|NE].
      * replace (mem i (i :: idx)) with true by (symmetry; apply mem_in; left; reflexivity).
        cbn [map]. rewrite Nat.sub_diag. cbn [nth]. f_equal.
        rewrite (@pick_ext A l (i :: idx) idx) by (intros q Hq; simpl; intuition lia).
        rewrite IH; [|exact S1|].
        -- apply map_ext_in. intros q Hq. apply F1 in Hq. replace (q - i) with (Datatypes.S (q - Datatypes.S i)) by lia. reflexivity.
        -- intros q Hq. pose proof (F1 q Hq). specialize (B q (or_intror Hq)). cbn [length] in B. lia.
      * assert (L : forall q, In q (j :: idx) -> Datatypes.S i <= q).
        { intros q Hq. assert (i <= j) by (apply B; left; reflexivity). destruct Hq as [<-|Hq]; [lia|]. apply F1 in Hq. lia. }
        replace (mem i (j :: idx)) with false.
        2:{ symmetry. destruct (mem i (j :: idx)) eqn:M; [|reflexivity]. apply mem_in in M. apply L in M. lia. }
        rewrite IH; [|exact S|].
        -- apply map_ext_in. intros q Hq. apply L in Hq. replace (q - i) with (Datatypes.S (q - Datatypes.S i)) by lia. reflexivity.
        -- intros q Hq. pose proof (L q Hq). specialize (B q Hq). cbn [length] in B. lia.
Qed.

Lemma count_in_increasing i n idx : increasing idx -> (forall j, In j idx -> i <= j < i + n) -> count_in i n idx = length idx.
Proof.
  intros S B. rewrite <- (seq_length n i) in B. rewrite <- (seq_length n i), <- pick_length.
  rewrite (@pick_increasing nat 0 _ _ _ S B), map_length. reflexivity.
Qed.

Section Complete.
  Context {C : Curve} (OK : CurveOk C).
  Variable HG : bytes -> G1 C.
  Let KO := ok_zr OK.
  Let GO1 := ok_g1 OK.
  Let GO2 := ok_g2 OK.
  Let GOT := ok_gt OK.
  Add Field Kf_bbsc : (sok_field KO).
  Notation zr := (zcar (Zr C)).
  Notation g1 := (gcar (G1 C)).
  Notation g2 := (gcar (G2 C)).

  (** ** The honest prover *)
  Section Prover.
    Variables (key : PublicKeyWithGenerators C) (sg : Signature C) (b : g1) (R : PoKRand C).
    Hypothesis VB : verifyWithB sg key b = Ok tt.
    Hypothesis NZ : pr_r1 R <> z0.

    Let A' := si_a sg ⊗ pr_r1 R.
    Let Abar := (b ⊗ pr_r1 R) ⊖ (A' ⊗ si_e sg).
    Let d := (b ⊗ pr_r1 R) ⊖ (pg_h0 key ⊗ pr_r2 R).
    Let r3 := zinv (pr_r1 R).
    Let s' := zsub (si_s sg) (zmul (pr_r2 R) r3).

    Lemma honest_pairing : pair C (pg_w key) A' = pair C (genG2 C) Abar.
    Proof.
      apply (verifyWithB_iff OK) in VB. unfold A', Abar.
      rewrite (pair_sub_r OK), !(ok_pair_mul_r OK), <- VB, (ok_pair_add_l OK), (ok_pair_mul_l OK). fold A'.
      unfold A'. rewrite (ok_pair_mul_r OK). gnorm KO GOT; ring.
    Qed.

    Lemma honest_vc1 : gdot [A'; pg_h0 key] [zopp (si_e sg); pr_r2 R] = Abar ⊖ d.
    Proof. cbn [gdot]. unfold Abar, d. gnorm KO GO1; ring. Qed.

    Lemma honest_d : d ⊗ r3 = b ⊖ (pg_h0 key ⊗ (zmul (pr_r2 R) r3)).
    Proof. unfold d, r3. gnorm KO GO1; field; exact NZ. Qed.

    (** a prover for any second proof whose statement [x] is satisfied by the secrets *)
    Lemma pokB_ok (vc2 : VC2Signer C) vs ms zs ids c2 sec2 :
      length zs <= length ms ->
      map_res (fun ind => let* m := znth ms ind in Ok (sm_idx m)) zs = Ok ids ->
      vc2 d r3 key s' ms (fold_left madd ids []) (pr_bl2 R) = Ok (c2, sec2) ->
      exists vc1, pokOfSignatureB vc2 vs sg ms zs key b R
        = Ok {| ps_aprime := A'; ps_abar := Abar; ps_d := d; ps_vc1 := vc1; ps_sec1 := [zopp (si_e sg); pr_r2 R];
                ps_vc2 := c2; ps_sec2 := sec2 |}
        /\ finish [A'; pg_h0 key] [pr_bl1 R 0; pr_bl1 R 1] = Ok vc1
        /\ pc_bases vc1 = [A'; pg_h0 key] /\ pc_blind vc1 = [pr_bl1 R 0; pr_bl1 R 1].
    Proof.
      intros L Eids E2. unfold pokOfSignatureB.
      replace (if vs then verifyWithB sg key b else Ok tt) with (@Ok unit tt) by (destruct vs; [symmetry; exact VB|reflexivity]).
      cbn [bind]. fold A' Abar. rewrite (build_ok OK) by discriminate. cbn [map fst snd gdot bind].
      replace (b ⊗ pr_r1 R ⊕ (pg_h0 key ⊗ zopp (pr_r2 R) ⊕ gzero)) with d by (unfold d; gnorm KO GO1; ring).
      fold r3. replace (zadd (zopp (zmul (pr_r2 R) r3)) (si_s sg)) with s' by (unfold s'; ring).
      unfold newVC1Signature. rewrite (finish_ok OK) by (try discriminate; simpl; lia). cbn [bind].
      replace (negb (length ms <? length zs)) with true by (symmetry; apply negb_true_iff, Nat.ltb_ge; lia).
      cbn [guard bind]. rewrite Eids. cbn [bind]. rewrite E2. cbn [bind]. eexists. split; [reflexivity|]. auto.
    Qed.

    (** its proof for a challenge [c] *)
    Lemma pok_generate vc1 c2 sec2 c p2 :
      finish [A'; pg_h0 key] [pr_bl1 R 0; pr_bl1 R 1] = Ok vc1 ->
      generateProof c2 c sec2 = Ok p2 ->
      exists p1, pokGenerateProof {| ps_aprime := A'; ps_abar := Abar; ps_d := d; ps_vc1 := vc1; ps_sec1 := [zopp (si_e sg); pr_r2 R];
                ps_vc2 := c2; ps_sec2 := sec2 |} c = Ok {| sp_aprime := A'; sp_abar := Abar; sp_d := d; sp_vc1 := p1; sp_vc2 := p2 |}
       /\ pf_comm p1 = pc_comm vc1 /\ length (pf_resp p1) = 2
       /\ forall vc2v revealed ms, vc2v c key revealed ms p2 d = Ok tt ->
          signatureProofVerify vc2v {| sp_aprime := A'; sp_abar := Abar; sp_d := d; sp_vc1 := p1; sp_vc2 := p2 |} c key revealed ms = Ok tt.
    Proof.
      intros F G. unfold pokGenerateProof. cbn [ps_vc1 ps_vc2 ps_sec1 ps_sec2 ps_aprime ps_abar ps_d].
      destruct (@generateProof_verifies C OK [A'; pg_h0 key] [pr_bl1 R 0; pr_bl1 R 1] [zopp (si_e sg); pr_r2 R] c) as
        (g & p & F' & _ & _ & Cg & Gp & Cp & _ & Lp & V); try reflexivity; [discriminate|].
      rewrite F' in F. injection F as <-. rewrite Gp. cbn [bind]. rewrite G. cbn [bind]. exists p. split; [reflexivity|].
      split; [congruence|]. split; [exact Lp|]. intros vc2v revealed ms V2. rewrite honest_vc1 in V.
      apply (signatureProofVerify_iff OK). cbn [sp_aprime sp_abar sp_d sp_vc1 sp_vc2].
      split; [exact honest_pairing|]. split; [|exact V2]. apply (proofG1Verify_inv OK) in V. exact V.
    Qed.
  End Prover.

  (** ** The hidden messages of the default prover *)
  Lemma hidden_messages_unpick (ms : list (SignatureMessage C)) r : forall k, numbered k ms -> hidden_messages ms r = unpick k ms r.
  Proof.
    unfold numbered, hidden_messages. induction ms as [|m ms IH]; intros k N; [reflexivity|].
    cbn [map length seq] in N. injection N as N1 N2. cbn [filter unpick]. rewrite N1, (IH _ N2).
    destruct (mem k r); reflexivity.
  Qed.

  Lemma hidden_lookup (hs : list g1) (ms : list (SignatureMessage C)) r : forall k, numbered k ms -> k + length ms <= length hs ->
    map_res (fun m => nth_res hs (sm_idx m)) (unpick k ms r) = Ok (unpick k (firstn (length ms) (skipn k hs)) r).
  Proof.
    unfold numbered. induction ms as [|m ms IH]; intros k N L; [reflexivity|].
    cbn [map length seq] in N, L. injection N as N1 N2.
    destruct (nth_error hs k) as [h|] eqn:Eh; [|apply nth_error_None in Eh; lia].
    pose proof Eh as Eh'. apply nth_error_split in Eh'. destruct Eh' as (l1 & l2 & Es & Ek).
    rewrite Es. rewrite <- Ek at 3. rewrite skipn_here. cbn [length firstn unpick].
    assert (Sk : skipn (S k) hs = l2) by (rewrite Es, <- Ek; apply skipn_past).
    specialize (IH (S k) N2 ltac:(lia)). rewrite Sk in IH. rewrite <- Es.
    destruct (mem k r); [exact IH|]. cbn [map_res]. rewrite N1. unfold nth_res at 1. rewrite Eh. cbn [bind]. rewrite IH. reflexivity.
  Qed.

  Lemma hidden_bases_unpick (hs : list g1) r : forall i, hidden_bases i hs r = unpick i hs r.
  Proof. induction hs as [|h hs IH]; intro i; [reflexivity|]. cbn [hidden_bases unpick]. destruct (mem i r); rewrite IH; reflexivity. Qed.

  Lemma defaultVC2_ok d r3 (key : PublicKeyWithGenerators C) s' ms r bl : numbered 0 ms -> length ms = length (pg_h key) ->
    exists g, defaultVC2 d r3 key s' ms r bl = Ok (g, zopp r3 :: s' :: unpick 0 (map (@sm_fr C) ms) r) /\
      finish (vc2_bases key r d) (map bl (seq 0 (length (vc2_bases key r d)))) = Ok g /\ pc_bases g = vc2_bases key r d.
  Proof.
    intros N L. unfold defaultVC2. rewrite (@hidden_messages_unpick ms r 0 N).
    rewrite (@hidden_lookup (pg_h key) ms r 0 N) by lia. cbn [bind skipn]. rewrite L, firstn_all, <- hidden_bases_unpick.
    unfold vc2_bases. rewrite (finish_ok OK) by (try discriminate; rewrite map_length, seq_length; lia). cbn [bind].
    eexists. split; [rewrite unpick_map; reflexivity|]. auto.
  Qed.

  (** the statement proved by the default prover *)
  Lemma default_statement (key : PublicKeyWithGenerators C) (sg : Signature C) (R : PoKRand C) ms vms r :
    pr_r1 R <> z0 -> length ms = length (pg_h key) ->
    map (@sm_fr C) vms = pick 0 (map (@sm_fr C) ms) r ->
    let b := bbs_base (pg_h0 key) (pg_h key) (si_s sg) (map (@sm_fr C) ms) in
    let d := (b ⊗ pr_r1 R) ⊖ (pg_h0 key ⊗ pr_r2 R) in
    let r3 := zinv (pr_r1 R) in
    gdot (vc2_bases key r d) (zopp r3 :: zsub (si_s sg) (zmul (pr_r2 R) r3) :: unpick 0 (map (@sm_fr C) ms) r)
    = gopp (disclosed key r (map (@sm_fr C) vms)).
  Proof.
    intros NZ L P b d r3. unfold vc2_bases. cbn [gdot].
    assert (Lm : length (pg_h key) = length (map (@sm_fr C) ms)) by (rewrite map_length; auto).
    assert (EB : b = disclosed key r (map (@sm_fr C) vms) ⊕ (pg_h0 key ⊗ si_s sg) ⊕ gdot (hidden_bases 0 (pg_h key) r) (unpick 0 (map (@sm_fr C) ms) r)).
    { rewrite <- (@base_split C OK key r vms).
      - unfold b. f_equal. rewrite Lm, P. symmetry. apply weave_pick.
      - rewrite <- (map_length (@sm_fr C) vms), P, pick_length, Lm. lia.
      - rewrite unpick_length, hidden_bases_length, Lm. reflexivity. }
    set (Hd := gdot _ _) in *. set (D := disclosed _ _ _) in *.
    pose proof (@honest_d key b R NZ) as Hd3. fold d r3 in Hd3.
    transitivity (gopp (d ⊗ r3) ⊕ (pg_h0 key ⊗ zsub (si_s sg) (zmul (pr_r2 R) r3)) ⊕ Hd); [gnorm KO GO1; ring|].
    rewrite Hd3, EB. gnorm KO GO1; ring.
  Qed.

  Lemma znth_ids (ms : list (SignatureMessage C)) idx : numbered 0 ms -> (forall i, In i idx -> i < length ms) ->
    map_res (fun ind => let* m := znth ms ind in Ok (sm_idx m)) (map Z.of_nat idx) = Ok idx.
  Proof.
    intros N. induction idx as [|i idx IH]; intro B; [reflexivity|]. cbn [map map_res]. rewrite znth_nat.
    destruct (@nth_res_lt _ ms i (B i (or_introl eq_refl))) as [m Em]. rewrite Em. cbn [bind].
    apply nth_res_ok in Em. unfold numbered in N. apply (f_equal (fun l => nth_error l i)) in N.
    rewrite nth_error_map, Em in N. cbn [option_map] in N.
    assert (Li : i < length ms) by (apply B; left; reflexivity).
    rewrite nth_error_nth' with (d := 0) in N by (rewrite seq_length; exact Li). rewrite seq_nth in N by exact Li. injection N as N.
    rewrite IH by (intros j Hj; apply B; right; exact Hj). cbn [bind]. rewrite N. reflexivity.
  Qed.

  (** ** Byte level *)
  Variable BS : bls_sizes C.
  Let S32 : scalar_size C = frCompressedSize := proj1 BS.

  (** the verifier on a payload followed by an encoded proof *)
  Lemma verifyProofFr_enc (H : hasher C) pl pb sp sb vms nonce pk l :
    payloadBytes pl = Ok pb -> signatureProofBytes sp = Ok sb ->
    (Z.of_nat (pp_count pl) <= 65535)%Z -> (forall i, In i (pp_revealed pl) -> i < 8 * (pp_count pl / 8 + 1)) ->
    (Z.of_nat (proof_size (sp_vc1 sp)) <= 4294967295)%Z -> (Z.of_nat (length (pf_resp (sp_vc2 sp))) <= 4294967295)%Z ->
    increasing l -> (forall i, In i l <-> In i (pp_revealed pl)) ->
    verifyProofFr HG H vms (pb ++ sb) nonce (g2_comp C pk)
    = let key := {| pg_h0 := gen0 HG pk (pp_count pl); pg_h := gens HG pk (pp_count pl); pg_w := pk; pg_count := pp_count pl |} in
      let* _ := guard (negb (length vms <? length l)) in
      let* cb := getBytesForChallenge sp (fold_left madd l []) key in
      signatureProofVerify (@defaultVC2Verify C) sp (H (cb ++ proofNonceBytes H nonce)) key (fold_left madd l []) vms.
  Proof.
    intros Ep Es Hc Hr B1 B2 I M. unfold verifyProofFr.
    destruct (@payload_rt pl Hc Hr) as (pb' & Ep' & Lp & P). rewrite Ep in Ep'. injection Ep' as <-.
    destruct (P sb) as (l' & El & I' & M'). rewrite El. cbn [bind pp_count pp_revealed].
    assert (l' = l) by (apply increasing_ext; auto; intro i; rewrite M', M; tauto). subst l'.
    rewrite slice_from_at by exact Lp. cbn [bind].
    destruct (@signatureProof_rt C OK S32 sp B1 B2) as (sb' & Es' & Ps). rewrite Es in Es'. injection Es' as <-.
    rewrite Ps. cbn [bind]. rewrite (unmarshalPK_enc OK). cbn [bind]. rewrite (toPKwG_ok OK) by lia. reflexivity.
  Qed.

  Lemma signatureProofBytes_ok (sp : PoKOfSignatureProof C) :
    (Z.of_nat (proof_size (sp_vc1 sp)) <= 4294967295)%Z -> (Z.of_nat (length (pf_resp (sp_vc2 sp))) <= 4294967295)%Z ->
    exists sb, signatureProofBytes sp = Ok sb.
  Proof. intros B1 B2. destruct (@signatureProof_rt C OK S32 sp B1 B2) as (sb & E & _). eauto. Qed.

  Theorem derive_shape (H : hasher C) (ms vms : list (SignatureMessage C)) A e s pk idx zs nonce (R : PoKRand C) :
    numbered 0 ms -> (Z.of_nat (length ms) <= 65535)%Z ->
    bbs_signature pk (gen0 HG pk (length ms)) (gens HG pk (length ms)) A e s (map (@sm_fr C) ms) ->
    pr_r1 R <> z0 ->
    idx <> [] -> increasing idx -> (forall i, In i idx -> i < length ms) ->
    Permutation zs (map Z.of_nat idx) ->
    map (@sm_fr C) vms = map (fun i => nth i (map (@sm_fr C) ms) z0) idx ->
    exists proof sp, deriveProofZr HG H ms (sig_enc A e s) nonce (g2_comp C pk) zs R = Ok proof /\
      verifyProofFr HG H vms proof nonce (g2_comp C pk) = Ok tt /\
      parsePoKPayload proof = Ok {| pp_count := length ms; pp_revealed := idx |} /\
      parseSignatureProof C (skipn (lenInBytes (length ms)) proof) = Ok sp /\
      let b := bbs_base (gen0 HG pk (length ms)) (gens HG pk (length ms)) s (map (@sm_fr C) ms) in
      sp_aprime sp = A ⊗ pr_r1 R /\ sp_abar sp = (b ⊗ pr_r1 R) ⊖ ((A ⊗ pr_r1 R) ⊗ e) /\
      sp_d sp = (b ⊗ pr_r1 R) ⊖ (gen0 HG pk (length ms) ⊗ pr_r2 R) /\
      length (pf_resp (sp_vc1 sp)) = 2 /\ length (pf_resp (sp_vc2 sp)) = 2 + (length ms - length idx).
  Proof.
    intros N Hc V NZ NE I B P Hv.
    set (n := length ms) in *. set (key := {| pg_h0 := gen0 HG pk n; pg_h := gens HG pk n; pg_w := pk; pg_count := n |}).
    set (sg := {| si_a := A; si_e := e; si_s := s |}).
    set (b := bbs_base (pg_h0 key) (pg_h key) (si_s sg) (map (@sm_fr C) ms)).
    set (r := fold_left madd idx []).
    assert (Mr : forall i, In i r <-> In i idx) by (intro i; unfold r; rewrite in_fold_madd; simpl; tauto).
    assert (VB : verifyWithB sg key b = Ok tt) by (apply (verifyWithB_iff OK); exact V).
    assert (Lk : length ms = length (pg_h key)) by (cbn; rewrite gens_length; reflexivity).
    assert (Lzs : length idx = length zs) by (apply Permutation_length in P; rewrite map_length in P; auto).
    assert (Lidx : length idx <= n).
    { rewrite <- (@count_in_increasing 0 n idx I) by (intros j Hj; specialize (B j Hj); lia). pose proof (count_in_out 0 n idx). lia. }
    assert (Hv' : map (@sm_fr C) vms = pick 0 (map (@sm_fr C) ms) r).
    { rewrite Hv. rewrite (@pick_ext _ _ r idx) by (intros j _; apply Mr).
      rewrite (@pick_increasing _ z0 _ 0 idx I) by (intros j Hj; rewrite map_length; specialize (B j Hj); fold n; lia).
      apply map_ext. intro j. rewrite Nat.sub_0_r. reflexivity. }
    unfold deriveProofZr.
    replace (negb (length zs =? 0)) with true by (rewrite <- Lzs; destruct idx; [contradiction|reflexivity]). cbn [guard bind].
    rewrite (@sortInts_increasing zs idx I P). rewrite (unmarshalPK_enc OK). cbn [bind]. fold n.
    rewrite (toPKwG_ok OK) by lia. cbn [bind]. fold key. rewrite (parse_sig_enc OK S32). cbn [bind]. fold sg.
    unfold newPoKOfSignature. rewrite (computeB_ok OK) by (auto; lia). cbn [bind]. fold b.
    destruct (@defaultVC2_ok ((b ⊗ pr_r1 R) ⊖ (pg_h0 key ⊗ pr_r2 R)) (zinv (pr_r1 R)) key (zsub (si_s sg) (zmul (pr_r2 R) (zinv (pr_r1 R)))) ms r (pr_bl2 R) N Lk) as (g & Eg & Fg & Bg).
    destruct (@pokB_ok key sg b R VB (@defaultVC2 C) true ms (map Z.of_nat idx) idx _ _ ltac:(rewrite map_length; fold n; lia) (znth_ids N B) Eg) as (vc1 & Epok & F1 & B1 & _).
    rewrite Epok. cbn [bind]. match goal with |- context [pokBytes ?p] => set (pok := p) end.
    set (c := H (pokBytes pok ++ proofNonceBytes H nonce)).
    set (d := (b ⊗ pr_r1 R) ⊖ (pg_h0 key ⊗ pr_r2 R)) in *.
    assert (Lu : length (unpick 0 (map (@sm_fr C) ms) r) = length (hidden_bases 0 (pg_h key) r)).
    { rewrite unpick_length, hidden_bases_length, map_length, Lk. reflexivity. }
    destruct (@generateProof_verifies C OK (vc2_bases key r d) (map (pr_bl2 R) (seq 0 (length (vc2_bases key r d))))
                (zopp (zinv (pr_r1 R)) :: zsub (si_s sg) (zmul (pr_r2 R) (zinv (pr_r1 R))) :: unpick 0 (map (@sm_fr C) ms) r) c)
      as (g' & p2 & F2 & _ & _ & Cg & G2' & Cp2 & _ & Lp2 & V2).
    { discriminate. } { rewrite map_length, seq_length. reflexivity. } { unfold vc2_bases. cbn [length]. rewrite Lu. reflexivity. }
    rewrite Fg in F2. injection F2 as <-.
    destruct (@pok_generate key sg b R VB vc1 g _ c p2 F1 G2') as (p1 & Egen & Cp1 & Lp1 & V1).
    fold d in Egen, V1. fold pok in Egen. rewrite Egen. cbn [bind].
    set (sp := {| sp_aprime := _; sp_abar := _; sp_d := _; sp_vc1 := p1; sp_vc2 := p2 |}) in *.
    assert (Mt : map Z.to_nat (map Z.of_nat idx) = idx) by (rewrite map_map; rewrite (map_ext _ (fun i => i)) by apply Nat2Z.id; apply map_id).
    rewrite Mt. set (pl := {| pp_count := n; pp_revealed := idx |}).
    assert (Hr : forall i, In i (pp_revealed pl) -> i < 8 * (pp_count pl / 8 + 1)).
    { intros i Hi. specialize (B i Hi). cbn [pp_count pl]. pose proof (Nat.mod_upper_bound n 8 ltac:(lia)). pose proof (Nat.div_mod n 8 ltac:(lia)). lia. }
    destruct (@payload_rt pl Hc Hr) as (pb & Ep & _). rewrite Ep. cbn [bind].
    assert (Z1 : (Z.of_nat (proof_size (sp_vc1 sp)) <= 4294967295)%Z).
    { unfold proof_size. cbn [sp sp_vc1]. rewrite Lp1. pose proof (proj2 BS) as G. unfold frCompressedSize. lia. }
    assert (Z2 : (Z.of_nat (length (pf_resp (sp_vc2 sp))) <= 4294967295)%Z).
    { cbn [sp sp_vc2]. rewrite Lp2. unfold vc2_bases. cbn [length]. rewrite hidden_bases_length. pose proof (count_in_out 0 (length (pg_h key)) r). lia. }
    destruct (@signatureProofBytes_ok sp Z1 Z2) as [sb Es]. rewrite Es. cbn [bind]. exists (pb ++ sb), sp. split; [reflexivity|].
    destruct (@payload_rt pl Hc Hr) as (pb' & Ep' & Lp & Pp). rewrite Ep in Ep'. injection Ep' as <-.
    destruct (Pp sb) as (l' & El & I' & M'). assert (l' = idx) by (apply increasing_ext; auto). subst l'.
    destruct (@signatureProof_rt C OK S32 sp Z1 Z2) as (sb' & Es' & Psb). rewrite Es in Es'. injection Es' as <-.
    split; [|split; [exact El|split; [cbn [pp_count pl] in Lp; rewrite <- Lp, skipn_app, skipn_all, Nat.sub_diag; exact Psb|]]].
    2:{ cbv zeta. split; [reflexivity|]. split; [reflexivity|]. split; [reflexivity|]. split; [exact Lp1|].
        cbn [sp sp_vc2]. rewrite Lp2. unfold vc2_bases. cbn [length]. rewrite hidden_bases_length, <- Lk. fold n.
        pose proof (count_in_out 0 n r) as CI. rewrite (count_in_ext 0 _ Mr), (@count_in_increasing 0 n idx I) in CI by (intros j Hj; specialize (B j Hj); lia). clear - CI; lia. }
    rewrite (@verifyProofFr_enc H pl pb sp sb vms nonce pk idx Ep Es Hc Hr Z1 Z2 I (fun i => iff_refl _)). cbn [pp_count pl]. fold key.
    assert (Lv : length vms = length idx) by (rewrite <- (map_length (@sm_fr C)), Hv, map_length; reflexivity).
    replace (negb (length vms <? length idx)) with true by (symmetry; apply negb_true_iff, Nat.ltb_ge; lia). cbn [guard bind].
    fold r. unfold getBytesForChallenge.
    assert (Lr : length r = length idx) by (apply fold_madd_length, increasing_nodup, I).
    replace (pg_count key + 7 <? length r) with false by (symmetry; apply Nat.ltb_ge; cbn; lia). cbn [bind].
    match goal with |- context [H (?x ++ proofNonceBytes H nonce)] => replace (H (x ++ proofNonceBytes H nonce)) with c end.
    - apply V1. apply (defaultVC2Verify_iff OK).
      assert (En : enough key r vms).
      { split; [cbn; lia|]. rewrite (count_in_ext 0 _ Mr), <- Lk. rewrite (@count_in_increasing 0 (length ms) idx I) by (intros j Hj; specialize (B j Hj); fold n; lia). lia. }
      split; [exact En|]. pose proof (@default_statement key sg R ms vms r NZ Lk Hv') as DS. cbv zeta in DS. fold b in DS. fold d in DS. rewrite DS in V2.
      apply (proofG1Verify_inv OK) in V2. exact V2.
    - unfold c. f_equal. f_equal. unfold pokBytes, pok. cbn [ps_abar ps_vc1 ps_vc2]. unfold committedBytes. rewrite B1, Bg.
      unfold vc2_bases. cbn [map concat sp sp_abar sp_aprime sp_d sp_vc1 sp_vc2]. rewrite Cp1, Cp2, Cg.
      rewrite <- !app_assoc. cbn [app]. reflexivity.
  Qed.

  Theorem derive_verify (H : hasher C) (ms vms : list (SignatureMessage C)) A e s pk idx zs nonce (R : PoKRand C) :
    numbered 0 ms -> (Z.of_nat (length ms) <= 65535)%Z ->
    bbs_signature pk (gen0 HG pk (length ms)) (gens HG pk (length ms)) A e s (map (@sm_fr C) ms) ->
    pr_r1 R <> z0 ->
    idx <> [] -> increasing idx -> (forall i, In i idx -> i < length ms) ->
    Permutation zs (map Z.of_nat idx) ->
    map (@sm_fr C) vms = map (fun i => nth i (map (@sm_fr C) ms) z0) idx ->
    exists proof, deriveProofZr HG H ms (sig_enc A e s) nonce (g2_comp C pk) zs R = Ok proof /\
      verifyProofFr HG H vms proof nonce (g2_comp C pk) = Ok tt.
  Proof.
    intros N Hc V NZ NE I B P Hv. destruct (@derive_shape H ms vms A e s pk idx zs nonce R N Hc V NZ NE I B P Hv) as (proof & sp & E1 & E2 & _).
    exists proof. split; assumption.
  Qed.

  (** ** What acceptance of a byte string says *)
  Lemma verifyProofFr_inv (H : hasher C) vms proof nonce pkb u : verifyProofFr HG H vms proof nonce pkb = Ok u ->
    exists pl sp pk, parsePoKPayload proof = Ok pl /\ unmarshalPublicKey C pkb = Ok pk /\
      parseSignatureProof C (skipn (lenInBytes (pp_count pl)) proof) = Ok sp /\
      let key := {| pg_h0 := gen0 HG pk (pp_count pl); pg_h := gens HG pk (pp_count pl); pg_w := pk; pg_count := pp_count pl |} in
      increasing (pp_revealed pl) /\ length (pp_revealed pl) <= length vms /\
      signatureProofVerify (@defaultVC2Verify C) sp
        (H (g1_bytes C (sp_abar sp) ++ g1_bytes C (sp_aprime sp) ++ g1_bytes C (pg_h0 key)
             ++ g1_bytes C (pf_comm (sp_vc1 sp)) ++ g1_bytes C (sp_d sp) ++ g1_bytes C (pg_h0 key)
             ++ concat (map (g1_bytes C) (hidden_bases 0 (pg_h key) (pp_revealed pl)))
             ++ g1_bytes C (pf_comm (sp_vc2 sp)) ++ proofNonceBytes H nonce)) key (fold_left madd (pp_revealed pl) []) vms = Ok tt.
  Proof.
    unfold verifyProofFr. intro E.
    apply bind_ok in E. destruct E as [pl [Ep E]]. apply bind_ok in E. destruct E as [rest [Er E]].
    apply bind_ok in E. destruct E as [sp [Es E]]. apply bind_ok in E. destruct E as [pk [Ek E]].
    apply bind_ok in E. destruct E as [key [Eg E]]. apply bind_ok in E. destruct E as [u' [El E]].
    apply bind_ok in E. destruct E as [cb [Ec E]].
    apply (toPKwG_inv OK) in Eg. destruct Eg as [_ ->].
    exists pl, sp, pk. split; [exact Ep|]. split; [exact Ek|].
    unfold slice_from in Er. apply slice_len in Er. destruct Er as (Lr & Lr2 & ->).
    rewrite firstn_all2 in Es by (rewrite skipn_length; lia). split; [exact Es|].
    destruct (parse_payload_inv Ep) as (I & _). split; [exact I|].
    apply guard_ok in El. apply negb_true_iff, Nat.ltb_ge in El. split; [exact El|].
    unfold getBytesForChallenge in Ec. destruct (_ <? _); [discriminate|]. injection Ec as <-.
    cbn [pg_h0 pg_h] in E |- *. rewrite <- !app_assoc in E.
    rewrite (@hidden_bases_ext C (gens HG pk (pp_count pl)) 0 (pp_revealed pl) (fold_left madd (pp_revealed pl) [])).
    - destruct u. exact E.
    - intro j. rewrite in_fold_madd. simpl. tauto.
  Qed.

  (** ** The universal forgery as a byte string *)
  Definition forged_proof (n : nat) (idx : list nat) : PoKOfSignatureProof C :=
    {| sp_aprime := gzero; sp_abar := gzero; sp_d := gzero;
       sp_vc1 := {| pf_comm := gzero; pf_resp := repeat z0 3 |};
       sp_vc2 := {| pf_comm := gzero; pf_resp := repeat z0 (3 + count_out 0 n idx) |} |}.

  Lemma gdot_z0 (hs : list g1) n : gdot hs (repeat z0 n) = gzero.
  Proof. apply (gdot_zeros OK). Qed.

  Lemma forged_accepted n idx : (Z.of_nat n <= 65535)%Z -> increasing idx -> (forall i, In i idx -> i < n) ->
    exists proof, forall (H : hasher C) pk vms nonce, length idx <= length vms ->
      verifyProofFr HG H vms proof nonce (g2_comp C pk) = Ok tt.
  Proof.
    intros Hc I B. set (sp := forged_proof n idx). set (pl := {| pp_count := n; pp_revealed := idx |}).
    assert (Hr : forall i, In i (pp_revealed pl) -> i < 8 * (pp_count pl / 8 + 1)).
    { intros i Hi. specialize (B i Hi). cbn [pp_count pl]. pose proof (Nat.mod_upper_bound n 8 ltac:(lia)). pose proof (Nat.div_mod n 8 ltac:(lia)). lia. }
    destruct (@payload_rt pl Hc Hr) as (pb & Ep & _).
    assert (Z1 : (Z.of_nat (proof_size (sp_vc1 sp)) <= 4294967295)%Z).
    { unfold proof_size. cbn. pose proof (proj2 BS) as G. lia. }
    assert (Z2 : (Z.of_nat (length (pf_resp (sp_vc2 sp))) <= 4294967295)%Z).
    { cbn [sp forged_proof sp_vc2 pf_resp]. rewrite repeat_length. pose proof (count_in_out 0 n idx). lia. }
    destruct (@signatureProofBytes_ok sp Z1 Z2) as [sb Es].
    exists (pb ++ sb). intros H pk vms nonce L.
    rewrite (@verifyProofFr_enc H pl pb sp sb vms nonce pk idx Ep Es Hc Hr Z1 Z2 I (fun i => iff_refl _)). cbn [pp_count pl].
    set (key := {| pg_h0 := _ |}).
    replace (negb (length vms <? length idx)) with true by (symmetry; apply negb_true_iff, Nat.ltb_ge; lia). cbn [guard bind].
    set (r := fold_left madd idx []).
    assert (Mr : forall i, In i r <-> In i idx) by (intro i; unfold r; rewrite in_fold_madd; simpl; tauto).
    assert (Lr : length r = length idx) by (apply fold_madd_length, increasing_nodup, I).
    assert (Li : length idx <= n).
    { rewrite <- (@count_in_increasing 0 n idx I) by (intros j Hj; specialize (B j Hj); lia). pose proof (count_in_out 0 n idx). lia. }
    unfold getBytesForChallenge. replace (pg_count key + 7 <? length r) with false by (symmetry; apply Nat.ltb_ge; cbn; lia). cbn [bind].
    assert (En : enough key r vms).
    { split; [cbn; lia|]. rewrite (count_in_ext 0 _ Mr). cbn [key pg_h]. rewrite gens_length.
      rewrite (@count_in_increasing 0 n idx I) by (intros j Hj; specialize (B j Hj); lia). lia. }
    match goal with |- signatureProofVerify _ _ ?c _ _ _ = _ => 
      pose proof (@forgery C OK key r vms gzero gzero gzero (repeat z0 2) (repeat z0 (2 + count_out 0 n idx)) c) as F end.
    assert (Lg : length (pg_h key) = n) by (cbn; apply gens_length).
    unfold sp, forged_proof. rewrite !(gdot_z0) in F.
    replace (repeat (@z0 (Zr C)) 3) with (repeat (@z0 (Zr C)) 2 ++ [z0]) by reflexivity.
    replace (repeat (@z0 (Zr C)) (3 + count_out 0 n idx)) with (repeat (@z0 (Zr C)) (2 + count_out 0 n idx) ++ [z0]).
    2:{ change [@z0 (Zr C)] with (repeat (@z0 (Zr C)) 1). rewrite <- repeat_app. f_equal. lia. }
    apply F.
    - rewrite (pair_zero_r OK), (pair_zero_r OK). reflexivity.
    - exact En.
    - reflexivity.
    - rewrite repeat_length, Lg, (count_out_ext 0 n Mr). reflexivity.
  Qed.
End Complete.

(** ** Surplus messages given to the verifier are ignored *)
Lemma weave_extra A n revealed : forall i (given extra hidden : list A), count_in i n revealed <= length given ->
  weave i n revealed (given ++ extra) hidden = weave i n revealed given hidden.
Proof.
  unfold count_in. induction n as [|n IH]; intros i given extra hidden L; [reflexivity|]. cbn [weave]. cbn [seq filter] in L.
  change (existsb (Nat.eqb i) revealed) with (mem i revealed). destruct (mem i revealed); cbn [length] in L.
  - destruct given as [|x given]; [simpl in L; lia|]. cbn [app length] in *. rewrite IH by lia. reflexivity.
  - destruct hidden as [|x hidden]; [reflexivity|]. rewrite IH by lia. reflexivity.
Qed.

Lemma surplus_messages C (OK : CurveOk C) HG (H : hasher C) vms extra proof nonce pkb :
  verifyProofFr HG H vms proof nonce pkb = Ok tt -> verifyProofFr HG H (vms ++ extra) proof nonce pkb = Ok tt.
Proof.
  unfold verifyProofFr. intro E.
  apply bind_ok in E. destruct E as [pl [Ep E]]. apply bind_ok in E. destruct E as [rest [Er E]].
  apply bind_ok in E. destruct E as [sp [Es E]]. apply bind_ok in E. destruct E as [pk [Ek E]].
  apply bind_ok in E. destruct E as [key [Eg E]]. apply bind_ok in E. destruct E as [u' [El E]].
  apply bind_ok in E. destruct E as [cb [Ec E]].
  rewrite Ep. cbn [bind]. rewrite Er. cbn [bind]. rewrite Es. cbn [bind]. rewrite Ek. cbn [bind]. rewrite Eg. cbn [bind].
  apply guard_ok in El. apply negb_true_iff, Nat.ltb_ge in El.
  replace (negb (length (vms ++ extra) <? length (pp_revealed pl))) with true
    by (symmetry; apply negb_true_iff, Nat.ltb_ge; rewrite app_length; lia). cbn [guard bind]. rewrite Ec. cbn [bind].
  apply (signatureProofVerify_iff OK) in E. apply (signatureProofVerify_iff OK). destruct E as (E1 & E2 & E3).
  split; [exact E1|]. split; [exact E2|]. apply (defaultVC2Verify_iff OK) in E3. apply (defaultVC2Verify_iff OK).
  destruct E3 as ((G & L) & E4 & E5). split; [split; [exact G|rewrite app_length; lia]|]. split; [exact E4|].
  unfold disclosed in *. rewrite map_app, weave_extra by (rewrite map_length; exact L). exact E5.
Qed.

(** ** FrFromOKM *)
Lemma copy_pad src : length src = 24 -> copy_at (zeros 32) 8 src = Ok (zeros 8 ++ src).
Proof.
  intro L. rewrite copy_at_ok by (rewrite zeros_length; lia). rewrite L.
  replace (length (zeros 32) - 8) with 24 by reflexivity. replace 24 with (length src) by lia.
  rewrite firstn_all, L. cbn. rewrite app_nil_r. reflexivity.
Qed.

Lemma os2ip_zeros n b : os2ip (zeros n ++ b) = os2ip b.
Proof.
  rewrite os2ip_app. replace (os2ip (zeros n)) with 0%Z; [lia|]. induction n as [|n IH]; [reflexivity|].
  change (zeros (S n)) with ([b0] ++ zeros n). rewrite os2ip_app, <- IH. reflexivity.
Qed.

Lemma frFromOKM_digest C (OK : CurveOk C) blake m : length (blake m) = 48 ->
  frFromOKM C blake m = Ok (zr_of_Z C (os2ip (blake m))).
Proof.
  intro L. unfold frFromOKM. set (okm := blake m) in *.
  rewrite <- (firstn_skipn 24 okm). set (a := firstn 24 okm). set (b := skipn 24 okm).
  assert (La : length a = 24) by (unfold a; rewrite firstn_length; lia).
  assert (Lb : length b = 24) by (unfold b; rewrite skipn_length; lia).
  rewrite slice_head by exact La. cbn [bind]. rewrite copy_pad by exact La. cbn [bind].
  rewrite slice_from_at by exact La. cbn [bind]. rewrite copy_pad by exact Lb. cbn [bind].
  rewrite !(ok_of_bytes OK), !os2ip_zeros, os2ip_app, Lb.
  replace (os2ip f2192Bytes) with (256 ^ Z.of_nat 24)%Z by reflexivity.
  rewrite (ok_of_Z_add OK), (ok_of_Z_mul OK). reflexivity.
Qed.
