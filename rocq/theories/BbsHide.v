(** BBS+: a selective-disclosure proof determines neither the hidden messages nor the signature. *)
From Verif Require Import Base Curve Algebra Spec Dlog Bridge BridgeFacts Bbs BbsSpec BbsFacts BbsProof BbsComplete
  Aries AriesSpec AriesIssue AriesNym AriesVerify AriesSign.
From Coq Require Import Field Ring Sorting.Sorted Sorting.Permutation.
Unset Strict Implicit.

(** draws that are the same, position by position *)
Definition same_draws (C : Curve) (R R' : PoKRand C) : Prop :=
  pr_r1 R = pr_r1 R' /\ pr_r2 R = pr_r2 R' /\ (forall j, pr_bl1 R j = pr_bl1 R' j) /\ (forall j, pr_bl2 R j = pr_bl2 R' j).

Section BHide.
  Context {C : Curve} (OK : CurveOk C).
  Variable HG : bytes -> G1 C.
  Variable H : hasher C.
  Let KO := ok_zr OK.
  Let GO1 := ok_g1 OK.
  Let GOT := ok_gt OK.
  Add Field Kf_bhide : (sok_field KO).
  Notation zr := (zcar (Zr C)).
  Notation g1 := (gcar (G1 C)).
  Notation g2 := (gcar (G2 C)).
  Local Open Scope zr_scope.
  Variable BS : bls_sizes C.
  Let S32 : scalar_size C = frCompressedSize := proj1 BS.

  Lemma bglin (X Y L R : g1) k : L = R -> X ⊖ Y = (L ⊖ R) ⊗ k -> X = Y.
  Proof. intros -> E. apply (gsub_zero KO GO1). rewrite E, (gsub_diag KO GO1). apply (gmul_zero GO1). Qed.

  (** answers that are the same for both *)
  Lemma bresp_moved c : forall bl bl' su sv : list zr, length bl' = length bl -> length su = length bl -> length sv = length bl ->
    (forall j, (j < length bl)%nat -> nth j bl' z0 = nth j bl z0 + c * (nth j sv z0 - nth j su z0)) -> resp c bl' sv = resp c bl su.
  Proof.
    unfold resp. induction bl as [|b bl IH]; intros [|b' bl'] [|x su] [|y sv] L1 L2 L3 E; cbn [length] in *; try lia; [reflexivity|].
    cbn [combine map fst snd]. f_equal.
    - specialize (E 0%nat ltac:(lia)). cbn [nth] in E. rewrite E. ring.
    - apply IH; try lia. intros j Lj. apply (E (S j)). lia.
  Qed.

  Lemma banswered_moved c (bases : list g1) bl bl' su sv : length bl = length bases -> length bl' = length bl -> length su = length bl -> length sv = length bl ->
    gdot bases sv = gdot bases su ->
    (forall j, (j < length bl)%nat -> nth j bl' z0 = nth j bl z0 + c * (nth j sv z0 - nth j su z0)) ->
    answered bases bl' sv c = answered bases bl su c.
  Proof.
    intros L0 L1 L2 L3 G E. unfold answered. pose proof (bresp_moved L1 L2 L3 E) as Q. rewrite Q. f_equal.
    pose proof (gdot_resp OK c (ps := bases) (bl := bl) (xs := su) ltac:(lia) ltac:(lia)) as X.
    pose proof (gdot_resp OK c (ps := bases) (bl := bl') (xs := sv) ltac:(lia) ltac:(lia)) as Y. rewrite Q, G, X in Y.
    eapply bglin with (k := - z1); [exact Y|]. gnorm KO GO1; ring.
  Qed.

  Variables (pk : g2) (n : nat) (idx : list nat) (zs : list Z) (nonce : bytes).
  Notation h0 := (gen0 HG pk n).
  Notation hs := (gens HG pk n).
  Hypothesis Hn : (Z.of_nat n <= 65535)%Z.
  Hypothesis HR : h0 <> gzero.
  Hypothesis NE : idx <> [].
  Hypothesis I : increasing idx.
  Hypothesis B : forall i, In i idx -> (i < n)%nat.
  Hypothesis P : Permutation zs (map Z.of_nat idx).

  Definition bkey : PublicKeyWithGenerators C := {| pg_h0 := h0; pg_h := hs; pg_w := pk; pg_count := n |}.
  Definition brev : list nat := fold_left madd idx [].

  Record Holder := { o_A : g1; o_e : zr; o_s : zr; o_ms : list (SignatureMessage C) }.
  Definition o_frs (u : Holder) : list zr := map (@sm_fr C) (o_ms u).
  Record HolderOk (u : Holder) : Prop := {
    ho_num : numbered 0 (o_ms u);
    ho_len : length (o_ms u) = n;
    ho_valid : bbs_signature pk h0 hs (o_A u) (o_e u) (o_s u) (o_frs u);
    ho_nz : o_A u <> gzero
  }.

  Definition ob (u : Holder) : g1 := bbs_base h0 hs (o_s u) (o_frs u).
  Definition oA' (u : Holder) (R : PoKRand C) : g1 := o_A u ⊗ pr_r1 R.
  Definition oAbar (u : Holder) (R : PoKRand C) : g1 := (ob u ⊗ pr_r1 R) ⊖ (oA' u R ⊗ o_e u).
  Definition od (u : Holder) (R : PoKRand C) : g1 := (ob u ⊗ pr_r1 R) ⊖ (h0 ⊗ pr_r2 R).
  Definition osec1 (u : Holder) (R : PoKRand C) : list zr := [- o_e u; pr_r2 R].
  Definition osec2 (u : Holder) (R : PoKRand C) : list zr :=
    - zinv (pr_r1 R) :: (o_s u - pr_r2 R * zinv (pr_r1 R)) :: unpick 0 (o_frs u) brev.
  Definition obases1 (u : Holder) (R : PoKRand C) : list g1 := [oA' u R; h0].
  Definition obases2 (u : Holder) (R : PoKRand C) : list g1 := vc2_bases bkey brev (od u R).
  Definition obl1 (R : PoKRand C) : list zr := [pr_bl1 R 0; pr_bl1 R 1].
  Definition obl2 (u : Holder) (R : PoKRand C) : list zr := map (pr_bl2 R) (seq 0 (length (obases2 u R))).
  Definition odata (u : Holder) (R : PoKRand C) : bytes :=
    g1_bytes C (oAbar u R) ++ committedBytes (committed (obases1 u R) (obl1 R)) ++ committedBytes (committed (obases2 u R) (obl2 u R)).
  Definition oc (u : Holder) (R : PoKRand C) : zr := H (odata u R ++ proofNonceBytes H nonce).
  Definition oproof (u : Holder) (R : PoKRand C) (c : zr) : PoKOfSignatureProof C :=
    {| sp_aprime := oA' u R; sp_abar := oAbar u R; sp_d := od u R;
       sp_vc1 := answered (obases1 u R) (obl1 R) (osec1 u R) c; sp_vc2 := answered (obases2 u R) (obl2 u R) (osec2 u R) c |}.

  Definition oderive (u : Holder) (R : PoKRand C) : res bytes :=
    deriveProofZr HG H (o_ms u) (sig_enc (o_A u) (o_e u) (o_s u)) nonce (g2_comp C pk) zs R.

  Lemma olen2 u R : HolderOk u -> length (osec2 u R) = length (obases2 u R).
  Proof.
    intro U. unfold osec2, obases2, vc2_bases. cbn [length]. rewrite unpick_length, hidden_bases_length. unfold o_frs. rewrite map_length, (ho_len U).
    unfold bkey. cbn [pg_h]. rewrite gens_length. reflexivity.
  Qed.

  Lemma derive_eval u R : HolderOk u -> 
    oderive u R = (let* pb := payloadBytes {| pp_count := n; pp_revealed := idx |} in
                   let* sb := signatureProofBytes (oproof u R (oc u R)) in Ok (pb ++ sb)).
  Proof.
    intro U. pose proof (ho_num U) as N. pose proof (ho_len U) as Ln. pose proof (ho_valid U) as V.
    set (sg := {| si_a := o_A u; si_e := o_e u; si_s := o_s u |}).
    assert (VB : verifyWithB sg bkey (ob u) = Ok tt) by (apply (verifyWithB_iff OK); exact V).
    assert (Lk : length (o_ms u) = length (pg_h bkey)) by (cbn; rewrite gens_length; exact Ln).
    assert (Lzs : length idx = length zs) by (apply Permutation_length in P; rewrite map_length in P; auto).
    assert (Lidx : (length idx <= n)%nat).
    { rewrite <- (@count_in_increasing 0 n idx I) by (intros j Hj; specialize (B Hj); lia). pose proof (count_in_out 0 n idx). lia. }
    unfold oderive, deriveProofZr.
    replace (negb (length zs =? 0)) with true by (rewrite <- Lzs; destruct idx; [contradiction|reflexivity]). cbn [guard bind].
    rewrite (@sortInts_increasing zs idx I P). rewrite (unmarshalPK_enc OK). cbn [bind]. rewrite Ln.
    rewrite (toPKwG_ok OK) by lia. cbn [bind]. change {| pg_h0 := h0; pg_h := hs; pg_w := pk; pg_count := n |} with bkey.
    rewrite (parse_sig_enc OK S32). cbn [bind]. fold sg.
    unfold newPoKOfSignature. rewrite (computeB_ok OK) by (auto; lia). cbn [bind].
    change (bbs_base (pg_h0 bkey) (pg_h bkey) (si_s sg) (map (@sm_fr C) (o_ms u))) with (ob u).
    destruct (@defaultVC2_ok C OK (od u R) (zinv (pr_r1 R)) bkey (o_s u - pr_r2 R * zinv (pr_r1 R)) (o_ms u) brev (pr_bl2 R) N Lk) as (g & Eg & Fg & _).
    fold (o_frs u) in Eg. fold (osec2 u R) in Eg. fold (obases2 u R) in Fg. fold (obl2 u R) in Fg.
    rewrite (finish_ok OK) in Fg by (try discriminate; unfold obl2; rewrite map_length, seq_length; apply le_n). injection Fg as <-.
    assert (Bz : forall i, In i idx -> (i < length (o_ms u))%nat) by (rewrite Ln; exact B).
    destruct (@pokB_ok C OK bkey sg (ob u) R VB (@defaultVC2 C) true (o_ms u) (map Z.of_nat idx) idx _ _ ltac:(rewrite map_length; lia) (znth_ids N Bz) Eg) as (vc1 & Epok & F1 & _ & _).
    rewrite Epok. cbn [bind]. clear Epok.
    change (si_a sg ⊗ pr_r1 R) with (oA' u R) in *. change (pg_h0 bkey) with h0 in *. change (si_e sg) with (o_e u).
    fold (oAbar u R). fold (od u R). fold (osec1 u R).
    rewrite (finish_ok OK) in F1 by (try discriminate; reflexivity). injection F1 as <-.
    unfold pokBytes. cbn [ps_abar ps_vc1 ps_vc2].
    change {| pc_bases := [oA' u R; h0]; pc_blind := [pr_bl1 R 0; pr_bl1 R 1]; pc_comm := gdot [oA' u R; h0] [pr_bl1 R 0; pr_bl1 R 1] |}
      with (committed (obases1 u R) (obl1 R)).
    change {| pc_bases := obases2 u R; pc_blind := obl2 u R; pc_comm := gdot (obases2 u R) (obl2 u R) |} with (committed (obases2 u R) (obl2 u R)).
    fold (odata u R). fold (oc u R). unfold pokGenerateProof, generateProof. cbn [ps_vc1 ps_vc2 ps_sec1 ps_sec2 ps_aprime ps_abar ps_d committed pc_blind pc_comm].
    rewrite (responses_ok _ (bl := obl1 R)) by reflexivity. cbn [bind].
    rewrite responses_ok by (unfold obl2; rewrite map_length, seq_length, olen2 by exact U; apply le_n). cbn [bind].
    assert (Mt : map Z.to_nat (map Z.of_nat idx) = idx) by (rewrite map_map; rewrite (map_ext _ (fun i => i)) by apply Nat2Z.id; apply map_id).
    rewrite Mt. reflexivity.
  Qed.

  Lemma derive_ok u R : HolderOk u -> exists proof, oderive u R = Ok proof.
  Proof.
    intro U. rewrite derive_eval by exact U.
    assert (Hr : forall i, In i (pp_revealed {| pp_count := n; pp_revealed := idx |}) -> (i < 8 * (pp_count {| pp_count := n; pp_revealed := idx |} / 8 + 1))%nat).
    { cbn [pp_count pp_revealed]. intros i Hi. specialize (B Hi). pose proof (Nat.mod_upper_bound n 8 ltac:(lia)). pose proof (Nat.div_mod n 8 ltac:(lia)). lia. }
    destruct (@payload_rt {| pp_count := n; pp_revealed := idx |} Hn Hr) as (pb & Ep & _). rewrite Ep. cbn [bind].
    destruct (@signatureProofBytes_ok C OK BS (oproof u R (oc u R))) as (sb & Es); [| |rewrite Es; eexists; reflexivity].
    - unfold proof_size, oproof. cbn [sp_vc1 answered pf_resp]. rewrite resp_length by reflexivity. cbn [length obl1]. pose proof (proj2 BS) as G. unfold frCompressedSize. lia.
    - unfold oproof. cbn [sp_vc2 answered pf_resp].
      assert (X : length (obl2 u R) = length (osec2 u R)) by (unfold obl2; rewrite map_length, seq_length, olen2 by exact U; reflexivity).
      rewrite resp_length by (rewrite X; apply le_n). unfold obl2. rewrite map_length, seq_length. unfold obases2, vc2_bases. cbn [length]. rewrite hidden_bases_length.
      unfold bkey. cbn [pg_h]. rewrite gens_length. pose proof (count_in_out 0 n brev). lia.
  Qed.

  Record BLink (u v : Holder) (k d : zr) : Prop := { bl_k : k <> z0; bl_A : o_A u = o_A v ⊗ k; bl_B : ob v ⊗ k ⊖ ob u = h0 ⊗ d }.

  Definition bmoved (k d : zr) (R : PoKRand C) : PoKRand C :=
    {| pr_r1 := pr_r1 R * k; pr_r2 := pr_r2 R + pr_r1 R * d; pr_bl1 := pr_bl1 R; pr_bl2 := pr_bl2 R |}.
  Definition bshiftc (c : zr) (u v : Holder) (k d : zr) (R : PoKRand C) : PoKRand C :=
    let S := bmoved k d R in
    {| pr_r1 := pr_r1 S; pr_r2 := pr_r2 S;
       pr_bl1 := fun j => pr_bl1 R j + c * (nth j (osec1 v S) z0 - nth j (osec1 u R) z0);
       pr_bl2 := fun j => pr_bl2 R j + c * (nth j (osec2 v S) z0 - nth j (osec2 u R) z0) |}.
  Definition bshift (u v : Holder) (k d : zr) (R : PoKRand C) : PoKRand C := bshiftc (oc u R) u v k d R.

  Section Two.
    Variables (u v : Holder) (k d : zr) (R : PoKRand C).
    Hypothesis U : HolderOk u.
    Hypothesis V : HolderOk v.
    Hypothesis D : forall i, In i idx -> nth i (o_frs u) z0 = nth i (o_frs v) z0.
    Hypothesis L : BLink u v k d.
    Hypothesis NZ : pr_r1 R <> z0.
    Let S := bshift u v k d R.
    Let c := oc u R.

    Lemma br1_ne : pr_r1 S <> z0.
    Proof.
      unfold S. cbn [bshift bshiftc bmoved pr_r1]. intro E. apply NZ.
      assert (X : pr_r1 R = pr_r1 R * k * zinv k) by (field; exact (bl_k L)). rewrite X, E. ring.
    Qed.
    Lemma bEA' : oA' v S = oA' u R.
    Proof. unfold oA', S. cbn [bshift bshiftc bmoved pr_r1]. rewrite (bl_A L). gnorm KO GO1; ring. Qed.
    Lemma bEd : od v S = od u R.
    Proof.
      unfold od, S. cbn [bshift bshiftc bmoved pr_r1 pr_r2].
      eapply bglin with (k := pr_r1 R); [exact (bl_B L)|]. gnorm KO GO1; ring.
    Qed.
    Lemma babar_of w Q : HolderOk w -> pair C (genG2 C) (oAbar w Q) = pair C pk (oA' w Q).
    Proof.
      intro W. pose proof (ho_valid W) as BV. unfold bbs_signature in BV. rewrite (ok_pair_add_l OK), (ok_pair_mul_l OK) in BV.
      unfold oAbar, oA', ob. rewrite (pair_sub_r OK), !(ok_pair_mul_r OK), <- BV. gnorm KO GOT; ring.
    Qed.
    Lemma bEAbar : oAbar v S = oAbar u R.
    Proof. apply (pair_inj_r OK (Q := genG2 C)); [exact (ok_gen2 OK)|]. rewrite !babar_of by assumption. rewrite bEA'. reflexivity. Qed.
    Lemma bEbases2 : obases2 v S = obases2 u R.
    Proof. unfold obases2. rewrite bEd. reflexivity. Qed.

    Lemma bans1 : answered (obases1 v S) (obl1 S) (osec1 v S) c = answered (obases1 u R) (obl1 R) (osec1 u R) c.
    Proof.
      unfold obases1. rewrite bEA'. apply banswered_moved; try reflexivity.
      - rewrite <- bEA' at 1. unfold osec1. cbn [gdot].
        assert (E : forall w Q, (oA' w Q ⊗ - o_e w) ⊕ (h0 ⊗ pr_r2 Q) = oAbar w Q ⊖ od w Q).
        { intros w Q. unfold oAbar, od. gnorm KO GO1; ring. }
        pose proof (E v S) as X. pose proof (E u R) as Y. rewrite bEAbar, bEd, <- Y in X.
        eapply bglin with (k := z1); [exact X|]. gnorm KO GO1; ring.
      - intros j Lj. cbn [obl1 length] in Lj. destruct j as [|[|j]]; [reflexivity|reflexivity|lia].
    Qed.

    Lemma pick_same : pick 0 (o_frs u) brev = pick 0 (o_frs v) brev.
    Proof.
      assert (E : forall w, HolderOk w -> pick 0 (o_frs w) brev = map (fun j => nth j (o_frs w) z0) idx).
      { intros w W. rewrite (@pick_ext _ _ brev idx) by (intros j _; unfold brev; rewrite in_fold_madd; simpl; tauto).
        rewrite (@pick_increasing _ z0 _ 0 idx I).
        - apply map_ext. intro j. rewrite Nat.sub_0_r. reflexivity.
        - intros j Hj. unfold o_frs. rewrite map_length, (ho_len W). specialize (B Hj). lia. }
      rewrite !E by assumption. apply map_ext_in. exact D.
    Qed.

    Lemma bsame_statement : gdot (obases2 u R) (osec2 v S) = gdot (obases2 u R) (osec2 u R).
    Proof.
      assert (E : forall w Q, HolderOk w -> pr_r1 Q <> z0 -> gdot (obases2 w Q) (osec2 w Q)
        = gopp (disclosed bkey brev (map (@sm_fr C) (pick 0 (o_ms w) brev)))).
      { intros w Q W NQ. 
        refine (@default_statement C OK bkey {| si_a := o_A w; si_e := o_e w; si_s := o_s w |} Q (o_ms w) (pick 0 (o_ms w) brev) brev NQ _ _).
        - cbn. rewrite gens_length. exact (ho_len W).
        - rewrite <- pick_map. reflexivity. }
      pose proof (E v S V br1_ne) as X. pose proof (E u R U NZ) as Y. rewrite bEbases2 in X. rewrite X, Y.
      rewrite <- !pick_map. fold (o_frs u) (o_frs v). rewrite pick_same. reflexivity.
    Qed.

    Lemma bans2 : answered (obases2 v S) (obl2 v S) (osec2 v S) c = answered (obases2 u R) (obl2 u R) (osec2 u R) c.
    Proof.
      assert (LB : forall w Q, length (obl2 w Q) = length (obases2 w Q)) by (intros; unfold obl2; rewrite map_length, seq_length; reflexivity).
      rewrite bEbases2. apply banswered_moved.
      - apply LB.
      - rewrite !LB, bEbases2. reflexivity.
      - rewrite LB. apply olen2, U.
      - rewrite LB, olen2 by exact V. rewrite bEbases2. reflexivity.
      - exact bsame_statement.
      - rewrite LB. intros j Lj. unfold obl2. rewrite bEbases2.
        assert (N : forall (f : nat -> zr) m, (j < m)%nat -> nth j (map f (seq 0 m)) z0 = f j).
        { intros f m Lm. rewrite (nth_indep _ z0 (f 0%nat)) by (rewrite map_length, seq_length; exact Lm). rewrite map_nth, seq_nth by exact Lm. reflexivity. }
        rewrite !N by exact Lj. reflexivity.
    Qed.

    Lemma bEdata : odata v S = odata u R.
    Proof.
      unfold odata, committedBytes. cbn [committed pc_bases pc_comm].
      pose proof (f_equal (@pf_comm C) bans1) as Q1. pose proof (f_equal (@pf_comm C) bans2) as Q2. cbn [answered pf_comm] in Q1, Q2.
      rewrite Q1, Q2, bEAbar, bEbases2. unfold obases1. rewrite bEA'. reflexivity.
    Qed.
    Lemma bEc : oc v S = c.
    Proof. unfold c, oc. rewrite bEdata. reflexivity. Qed.
    Lemma bEproof : oproof v S (oc v S) = oproof u R (oc u R).
    Proof. unfold oproof. rewrite bEc, bEA', bEAbar, bEd. unfold c at 1 2. fold c. rewrite bans1, bans2. reflexivity. Qed.

    Lemma bsame : exists proof, oderive u R = Ok proof /\ oderive v S = Ok proof.
    Proof.
      destruct (derive_ok R U) as (proof & E). exists proof. split; [exact E|]. rewrite <- E, !derive_eval by assumption.
      rewrite bEproof. reflexivity.
    Qed.
  End Two.

  Lemma blink_exists u v : HolderOk u -> HolderOk v -> exists k d, BLink u v k d.
  Proof.
    intros U V. destruct (gok_cyclic GO1 (o_A u) (ho_nz V)) as [k Hk]. destruct (gok_cyclic GO1 (ob v ⊗ k ⊖ ob u) HR) as [d Hd].
    exists k, d. split; try assumption. intros ->. apply (ho_nz U). rewrite Hk. apply (gmul_0 KO GO1).
  Qed.
  Lemma blink_sym u v k d : BLink u v k d -> BLink v u (zinv k) (- (d * zinv k)).
  Proof.
    intros [Hk HA HB]. split.
    - intro Z. apply Hk. assert (E : k * zinv k = z1) by (field; exact Hk). rewrite Z in E.
      destruct (F_1_neq_0 (sok_field KO)). rewrite <- E. ring.
    - rewrite HA. gnorm KO GO1; field; exact Hk.
    - eapply bglin with (k := - zinv k); [exact HB|]. gnorm KO GO1; field; exact Hk.
  Qed.

  Lemma bshift_shift u v k d R : HolderOk u -> HolderOk v -> (forall i, In i idx -> nth i (o_frs u) z0 = nth i (o_frs v) z0) ->
    BLink u v k d -> pr_r1 R <> z0 -> same_draws (bshift v u (zinv k) (- (d * zinv k)) (bshift u v k d R)) R.
  Proof.
    intros U V D L NZ. pose proof (bl_k L) as Hk. unfold bshift at 1. rewrite (bEc U V D L NZ). set (c := oc u R).
    set (S := bshift u v k d R). 
    assert (B1 : pr_r1 (bmoved (zinv k) (- (d * zinv k)) S) = pr_r1 R) by (unfold S; cbn [bmoved bshift bshiftc pr_r1]; field; exact Hk).
    assert (B2 : pr_r2 (bmoved (zinv k) (- (d * zinv k)) S) = pr_r2 R) by (unfold S; cbn [bmoved bshift bshiftc pr_r1 pr_r2]; field; exact Hk).
    unfold same_draws, bshiftc. cbn [pr_r1 pr_r2 pr_bl1 pr_bl2]. split; [exact B1|]. split; [exact B2|].
    assert (E1 : osec1 u (bmoved (zinv k) (- (d * zinv k)) S) = osec1 u R) by (unfold osec1; rewrite B2; reflexivity).
    assert (E2 : osec2 u (bmoved (zinv k) (- (d * zinv k)) S) = osec2 u R) by (unfold osec2; rewrite B1, B2; reflexivity).
    rewrite E1, E2. change (osec1 v S) with (osec1 v (bmoved k d R)). change (osec2 v S) with (osec2 v (bmoved k d R)).
    split; intro j; unfold S; cbn [bshift bshiftc pr_bl1 pr_bl2]; fold c; ring.
  Qed.

  Theorem derive_hiding u v : HolderOk u -> HolderOk v -> (forall i, In i idx -> nth i (o_frs u) z0 = nth i (o_frs v) z0) ->
    exists f g : PoKRand C -> PoKRand C,
      (forall R, pr_r1 R <> z0 -> pr_r1 (f R) <> z0 /\ same_draws (g (f R)) R /\ exists proof, oderive u R = Ok proof /\ oderive v (f R) = Ok proof) /\
      (forall R, pr_r1 R <> z0 -> pr_r1 (g R) <> z0 /\ same_draws (f (g R)) R /\ exists proof, oderive v R = Ok proof /\ oderive u (g R) = Ok proof).
  Proof.
    intros U V D. destruct (blink_exists U V) as (k & d & L). pose proof (blink_sym L) as L'. pose proof (bl_k L) as Hk.
    assert (D' : forall i, In i idx -> nth i (o_frs v) z0 = nth i (o_frs u) z0) by (intros i Hi; symmetry; apply D, Hi).
    exists (bshift u v k d), (bshift v u (zinv k) (- (d * zinv k))). split; intros R NZ.
    - split; [exact (br1_ne L NZ)|]. split; [exact (bshift_shift U V D L NZ)|exact (bsame U V D L NZ)].
    - split; [exact (br1_ne L' NZ)|]. split; [|exact (bsame V U D' L' NZ)].
      pose proof (bshift_shift V U D' L' NZ) as X.
      assert (Z1 : zinv (zinv k) = k).
      { pose proof (bl_k L') as Hz. assert (E : k * zinv k = z1) by (field; exact Hk). assert (E' : zinv k * zinv (zinv k) = z1) by (pose proof (Finv_l (sok_field KO) _ Hz) as E'; rewrite <- E'; ring).
        transitivity (k * zinv k * zinv (zinv k)); [rewrite E; ring|]. transitivity (k * (zinv k * zinv (zinv k))); [ring|]. rewrite E'. ring. }
      assert (Z2 : - (- (d * zinv k) * zinv (zinv k)) = d) by (rewrite Z1; field; exact Hk).
      rewrite Z1 in X. rewrite Z1 in Z2. rewrite Z2 in X. exact X.
  Qed.
End BHide.
