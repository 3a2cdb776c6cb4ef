(** * Which inputs make the BBS+ library panic (lemmas for C84) *)
From Verif Require Import Base Curve Algebra Bbs BbsSpec BbsFacts BbsProof BbsComplete AriesSign AriesForge AriesSound.
From Coq Require Import Sorting.Sorted Sorting.Permutation.
Unset Strict Implicit.

Lemma map_np A B (f : A -> res B) l : (forall x, In x l -> f x <> Panic) -> map_res f l <> Panic.
Proof.
  induction l as [|x l IH]; intro N; cbn [map_res]; [discriminate|]. apply bind_np; [apply N; left; reflexivity|].
  intros y _. apply bind_np; [apply IH; intros z Z; apply N; right; exact Z|]. discriminate.
Qed.

Lemma slice_np A (l : list A) lo hi : lo <= hi <= length l -> slice l lo hi <> Panic.
Proof. intro L. unfold slice. replace ((lo <=? hi) && (hi <=? length l)) with true by (symmetry; apply andb_true_iff; split; apply Nat.leb_le; lia). discriminate. Qed.

Lemma slice_panic A (l : list A) lo hi : lo <= hi -> length l < hi -> slice l lo hi = Panic.
Proof. intros L1 L2. unfold slice. replace (hi <=? length l) with false by (symmetry; apply Nat.leb_gt; lia). rewrite andb_false_r. reflexivity. Qed.

Lemma firstn_slice A (l : list A) k lo hi : lo <= hi <= k -> slice l lo hi <> Panic -> slice (firstn k l) lo hi = slice l lo hi.
Proof.
  intros L N. unfold slice in *. destruct ((lo <=? hi) && (hi <=? length l)) eqn:E; [|congruence]. apply andb_true_iff in E. destruct E as [E1 E2]. apply Nat.leb_le in E2.
  rewrite E1, firstn_length. replace (hi <=? Nat.min k (length l)) with true by (symmetry; apply Nat.leb_le; lia). cbn [andb].
  rewrite skipn_firstn_comm, firstn_firstn. replace (Nat.min (hi - lo) (k - lo)) with (hi - lo) by lia. reflexivity.
Qed.

Lemma payload_never b : parsePoKPayload b <> Panic.
Proof.
  unfold parsePoKPayload. destruct (2 <=? length b) eqn:L; cbn [guard bind]; [|discriminate]. apply Nat.leb_le in L.
  apply bind_np; [apply slice_np; lia|]. intros x _. cbv zeta. destruct (lenInBytes _ <=? length b) eqn:L2; cbn [guard bind]; [|discriminate]. apply Nat.leb_le in L2.
  apply bind_np; [|discriminate]. apply slice_np. unfold lenInBytes in *. lia.
Qed.

Section Panic.
  Context {C : Curve} (OK : CurveOk C) (HG : bytes -> G1 C) (BS : bls_sizes C).
  Let KO := ok_zr OK.
  Let GO1 := ok_g1 OK.
  Let GO2 := ok_g2 OK.
  Let GOT := ok_gt OK.
  Let S32 : scalar_size C = frCompressedSize := proj1 BS.
  Add Field Kf_panic : (sok_field KO).
  Notation zr := (zcar (Zr C)).
  Notation g1 := (gcar (G1 C)).
  Notation g2 := (gcar (G2 C)).

  (** ** Keys, signatures *)
  Lemma unmarshalSK_np b : unmarshalPrivateKey C b <> Panic.
  Proof. unfold unmarshalPrivateKey. apply bind_np; [apply guard_np|]. discriminate. Qed.
  Lemma unmarshalPK_np b : unmarshalPublicKey C b <> Panic.
  Proof. unfold unmarshalPublicKey. apply bind_np; [apply guard_np|]. intros _ _. destruct (g2_of_comp C b); discriminate. Qed.
  Lemma toPKwG_np pk n : (Z.of_nat n <= 4294967295)%Z -> toPublicKeyWithGenerators HG pk n <> Panic.
  Proof. intro L. rewrite (toPKwG_ok OK) by exact L. discriminate. Qed.
  Lemma parseSignature_np b : parseSignature C b <> Panic.
  Proof.
    unfold parseSignature. destruct (length b =? _) eqn:L; cbn [guard bind]; [|discriminate]. apply Nat.eqb_eq in L.
    apply bind_np; [apply slice_np; lia|]. intros pa _. apply bind_np; [destruct (g1_of_comp C pa); discriminate|]. intros a _.
    apply bind_np; [apply slice_np; lia|]. intros e _. apply bind_np; [apply slice_np; lia|]. discriminate.
  Qed.

  Lemma verify_signature_np (H : hasher C) ms sigb pkb : (Z.of_nat (length ms) <= 4294967295)%Z -> bbsVerify HG H ms sigb pkb <> Panic.
  Proof.
    intro L. unfold bbsVerify. apply bind_np; [apply parseSignature_np|]. intros sg _. apply bind_np; [apply unmarshalPK_np|]. intros pk _.
    rewrite (toPKwG_ok OK) by exact L. cbn [bind]. unfold signatureVerify.
    rewrite (computeB_ok OK); [|apply messagesToFr_numbered|cbn [pg_h]; unfold messagesToFr; rewrite messagesToFr_length, gens_length; lia].
    cbn [bind]. apply guard_np.
  Qed.

  Lemma sign_np (H : hasher C) ms skb e s : (Z.of_nat (length ms) <= 4294967295)%Z -> bbsSign HG H ms skb e s <> Panic.
  Proof.
    intro L. unfold bbsSign. apply bind_np; [apply unmarshalSK_np|]. intros sk _. apply bind_np; [apply guard_np|]. intros _ _.
    unfold signWithKeyFr. rewrite (toPKwG_ok OK) by exact L. cbn [bind pg_h].
    rewrite (@lookup_bases _ _ _ 0); [|apply messagesToFr_numbered|unfold messagesToFr; rewrite messagesToFr_length, gens_length; lia].
    cbn [bind]. rewrite (build_ok OK) by discriminate. cbn [bind]. unfold signWithKeyB. unfold messagesToFr. rewrite messagesToFr_length.
    rewrite (toPKwG_ok OK) by exact L. cbn [bind]. rewrite (signatureBytes_enc OK S32). discriminate.
  Qed.

  Lemma keygen_np (H : hasher C) hkdf seed rnd : generateKeyPair H hkdf seed rnd <> Panic.
  Proof. unfold generateKeyPair. apply bind_np; [apply guard_np|]. discriminate. Qed.

  (** ** ParseSignatureProof *)
  (** the length field of the first proof *)
  Definition announced (b : bytes) : Z := os2ip (firstn 4 (skipn (3 * g1_csize C) b)).
  (** the part that holds the three points also holds the length field and the number of bytes announced there *)
  Definition framed (b : bytes) : Prop :=
    3 * g1_csize C <= length b -> 3 * g1_csize C + 4 <= length b /\ (Z.of_nat (3 * g1_csize C + 4) + announced b <= Z.of_nat (length b))%Z.

  Lemma parse_g1c_np b o : o + g1_csize C <= length b -> parse_g1c C b o <> Panic.
  Proof. intro L. unfold parse_g1c. apply bind_np; [apply slice_np; lia|]. intros x _. destruct (g1_of_comp C x); discriminate. Qed.

  Lemma parse_sp_np b : framed b -> parseSignatureProof C b <> Panic.
  Proof.
    intro F. unfold parseSignatureProof. set (cs := g1_csize C) in *. cbv zeta. destruct (cs * 3 <=? length b) eqn:L; cbn [guard bind]; [|discriminate]. apply Nat.leb_le in L.
    destruct F as [F1 F2]; [lia|]. fold cs in F1, F2.
    apply bind_np; [apply parse_g1c_np; fold cs; lia|]. intros p0 _. apply bind_np; [apply parse_g1c_np; fold cs; lia|]. intros p1 _.
    apply bind_np; [apply parse_g1c_np; fold cs; lia|]. intros p2 _.
    assert (SL : slice b (3 * cs) (3 * cs + 4) = Ok (firstn 4 (skipn (3 * cs) b))).
    { unfold slice. replace ((3 * cs <=? 3 * cs + 4) && (3 * cs + 4 <=? length b)) with true by (symmetry; apply andb_true_iff; split; apply Nat.leb_le; lia).
      replace (3 * cs + 4 - 3 * cs) with 4 by lia. reflexivity. }
    rewrite SL. cbn [bind]. change (os2ip (firstn 4 (skipn (3 * cs) b))) with (announced b). pose proof (os2ip_bound (firstn 4 (skipn (3 * cs) b))) as Bd. change (os2ip (firstn 4 (skipn (3 * cs) b))) with (announced b) in Bd.
    destruct (_ >? _)%Z eqn:G; [lia|].
    apply bind_np; [apply slice_np; lia|]. intros b1 _. apply bind_np; [apply (parseProofG1_no_panic S32)|]. intros v1 _.
    apply bind_np; [apply slice_np; lia|]. intros b2 _. apply bind_np; [apply (parseProofG1_no_panic S32)|]. discriminate.
  Qed.

  (** a parsed proof cut anywhere between the third point and the end of the first proof *)
  Lemma parse_sp_cut b sp k : parseSignatureProof C b = Ok sp ->
    3 * g1_csize C <= k -> (Z.of_nat k < Z.of_nat (3 * g1_csize C + 4) + announced b)%Z -> parseSignatureProof C (firstn k b) = Panic.
  Proof.
    set (cs := g1_csize C). intros E K1 K2. unfold parseSignatureProof in *. fold cs in E |- *. cbv zeta in E |- *.
    apply bind_ok in E. destruct E as [u [G E]]. apply guard_ok in G. apply Nat.leb_le in G.
    replace (cs * 3 <=? length (firstn k b)) with true by (symmetry; apply Nat.leb_le; rewrite firstn_length; lia). cbn [guard bind].
    assert (PC : forall o, o + cs <= 3 * cs -> parse_g1c C (firstn k b) o = parse_g1c C b o).
    { intros o Lo. unfold parse_g1c. fold cs. rewrite firstn_slice; [reflexivity|lia|apply slice_np; lia]. }
    apply bind_ok in E. destruct E as [p0 [E0 E]]. rewrite PC, E0 by lia. cbn [bind].
    apply bind_ok in E. destruct E as [p1 [E1 E]]. rewrite PC, E1 by lia. cbn [bind].
    apply bind_ok in E. destruct E as [p2 [E2 E]]. rewrite PC, E2 by lia. cbn [bind].
    apply bind_ok in E. destruct E as [lb [El E]]. pose proof (slice_len El) as (L1 & L2 & L3).
    replace (3 * cs + 4 - 3 * cs) with 4 in L3 by lia.
    assert (A : os2ip lb = announced b) by (unfold announced; fold cs; rewrite L3; reflexivity).
    destruct (Nat.le_gt_cases (3 * cs + 4) k) as [K|K].
    - rewrite firstn_slice, El; [|lia|rewrite El; discriminate]. cbn [bind]. rewrite A.
      replace (_ >? _)%Z with true; [reflexivity|]. symmetry. rewrite firstn_length. apply Z.gtb_lt. lia.
    - rewrite slice_panic; [reflexivity|lia|rewrite firstn_length; lia].
  Qed.

  (** ** VerifyProof *)
  Lemma payload_len proof pl : parsePoKPayload proof = Ok pl -> lenInBytes (pp_count pl) <= length proof.
  Proof. intro E. destruct (parse_payload_inv E) as (_ & _ & L & _). exact L. Qed.

  Lemma slice_from_rest (proof : bytes) n : n <= length proof -> slice_from proof n = Ok (skipn n proof).
  Proof.
    intro L. unfold slice_from, slice. replace ((n <=? length proof) && (length proof <=? length proof)) with true by (symmetry; apply andb_true_iff; split; apply Nat.leb_le; lia).
    rewrite firstn_all2 by (rewrite skipn_length; lia). reflexivity.
  Qed.

  Lemma verify_proof_np (H : hasher C) ms proof nonce pkb :
    (forall pl, parsePoKPayload proof = Ok pl ->
       framed (skipn (lenInBytes (pp_count pl)) proof) /\
       forall sp, parseSignatureProof C (skipn (lenInBytes (pp_count pl)) proof) = Ok sp ->
         length (pp_revealed pl) <= pp_count pl + 2 /\ 2 <= length (pf_resp (sp_vc1 sp)) /\
         2 + count_out 0 (pp_count pl) (pp_revealed pl) <= length (pf_resp (sp_vc2 sp))) ->
    verifyProof HG H ms proof nonce pkb <> Panic.
  Proof.
    intro W. unfold verifyProof, verifyProofFr. apply bind_np; [apply payload_never|]. intros pl EP. destruct (W pl EP) as [F WS].
    destruct (parse_payload_inv EP) as (I & _ & LP & BC). rewrite (slice_from_rest LP). cbn [bind].
    apply bind_np; [apply parse_sp_np, F|]. intros sp ES. destruct (WS sp ES) as (R0 & R1 & R2).
    apply bind_np; [apply unmarshalPK_np|]. intros pk _. rewrite (toPKwG_ok OK) by lia. cbn [bind].
    destruct (negb _) eqn:G; cbn [guard bind]; [|discriminate]. apply negb_true_iff, Nat.ltb_ge in G.
    assert (LL : length (fold_left madd (pp_revealed pl) []) = length (pp_revealed pl)) by (apply fold_madd_length, increasing_nodup, I).
    unfold getBytesForChallenge. cbn [pg_count]. replace (_ + 7 <? _) with false by (symmetry; apply Nat.ltb_ge; lia). cbn [bind].
    unfold signatureProofVerify. apply bind_np; [apply guard_np|]. intros _ _. apply bind_np; [apply (proof_np OK); exact R1|]. intros _ _.
    unfold defaultVC2Verify. cbn [pg_count]. replace (_ + 2 <? _) with false by (symmetry; apply Nat.ltb_ge; lia).
    apply bind_np.
    - cbn [pg_h]. apply (split_np BS). rewrite Nat.add_0_r.
      apply Nat.le_trans with (length (pp_revealed pl)); [|exact G]. apply count_in_len. intros j J. apply in_fold_madd in J. simpl in J. tauto.
    - intros [hid dis] E. apply (proof_np OK). destruct (split_bases_spec OK E) as (-> & _ & _). cbn [length pg_h].
      rewrite (@hidden_bases_ext C _ 0 (fold_left madd (pp_revealed pl) []) (pp_revealed pl)) by (intro j; rewrite in_fold_madd; simpl; tauto).
      rewrite hidden_bases_length, gens_length. exact R2.
  Qed.

  (** an accepted (or merely well-formed) proof, cut *)
  Lemma verify_proof_cut (H : hasher C) ms proof nonce pkb pl sp k : parsePoKPayload proof = Ok pl ->
    parseSignatureProof C (skipn (lenInBytes (pp_count pl)) proof) = Ok sp ->
    let start := lenInBytes (pp_count pl) in
    start + 3 * g1_csize C <= k ->
    (Z.of_nat k < Z.of_nat (start + 3 * g1_csize C + 4) + announced (skipn start proof))%Z ->
    verifyProof HG H ms (firstn k proof) nonce pkb = Panic.
  Proof.
    intros EP ES start K1 K2. unfold verifyProof, verifyProofFr.
    assert (EP' : parsePoKPayload (firstn k proof) = Ok pl).
    { pose proof (payload_len EP) as LP. fold start in LP. unfold parsePoKPayload in EP |- *. apply bind_ok in EP. destruct EP as [u [G EP]]. apply guard_ok, Nat.leb_le in G.
      assert (L2 : 2 <= start) by (unfold start, lenInBytes; lia).
      replace (2 <=? length (firstn k proof)) with true by (symmetry; apply Nat.leb_le; rewrite firstn_length; lia). cbn [guard bind].
      apply bind_ok in EP. destruct EP as [hd [Eh EP]]. rewrite firstn_slice, Eh; [|lia|rewrite Eh; discriminate]. cbn [bind]. cbv zeta in EP |- *.
      apply bind_ok in EP. destruct EP as [u' [G' EP]]. apply guard_ok, Nat.leb_le in G'. apply bind_ok in EP. destruct EP as [body [Eb EP]]. injection EP as EP.
      assert (SE : start = lenInBytes (Z.to_nat (os2ip hd))) by (unfold start; rewrite <- EP; reflexivity). rewrite <- SE in G', Eb |- *.
      replace (start <=? length (firstn k proof)) with true by (symmetry; apply Nat.leb_le; rewrite firstn_length; lia). cbn [guard bind].
      rewrite firstn_slice, Eb; [|lia|rewrite Eb; discriminate]. cbn [bind]. rewrite EP. reflexivity. }
    rewrite EP'. cbn [bind]. fold start. pose proof (payload_len EP') as LP'. fold start in LP'. rewrite (slice_from_rest LP'). cbn [bind].
    rewrite skipn_firstn_comm. rewrite (@parse_sp_cut _ sp (k - start)); [reflexivity|exact ES|lia|lia].
  Qed.

  (** a proof without responses *)
  Definition hollow : PoKOfSignatureProof C :=
    {| sp_aprime := gzero; sp_abar := gzero; sp_d := gzero; sp_vc1 := {| pf_comm := gzero; pf_resp := [] |}; sp_vc2 := {| pf_comm := gzero; pf_resp := [] |} |}.

  Lemma proof_short (p : ProofG1 C) bases x c : length (pf_resp p) < length bases -> proofG1Verify p bases x c = Panic.
  Proof.
    intro L. unfold proofG1Verify, getChallengeContribution. rewrite sum_short; [reflexivity|]. rewrite !app_length. simpl. lia.
  Qed.

  Lemma verify_hollow (H : hasher C) n : (Z.of_nat n <= 65535)%Z -> exists proof,
    (exists pl, parsePoKPayload proof = Ok pl /\ pp_count pl = n /\ pp_revealed pl = [] /\
       parseSignatureProof C (skipn (lenInBytes (pp_count pl)) proof) = Ok hollow) /\
    forall ms nonce pk, verifyProof HG H ms proof nonce (g2_comp C pk) = Panic.
  Proof.
    intro Ln. destruct (@payload_rt {| pp_count := n; pp_revealed := [] |} Ln) as (pb & Ep & Lp & P). { intros r []. }
    destruct (@signatureProof_rt C OK S32 hollow) as (sb & Es & Ps).
    { unfold hollow, proof_size. cbn [sp_vc1 pf_resp length]. pose proof (proj2 BS) as B1. unfold frCompressedSize. lia. }
    { cbn. lia. }
    exists (pb ++ sb). destruct (P sb) as (l & El & I & M). cbn [pp_count pp_revealed] in *.
    assert (l = []) by (destruct l as [|i l]; [reflexivity|]; exfalso; apply (M i); left; reflexivity). subst l.
    split.
    - eexists. split; [exact El|]. cbn [pp_count pp_revealed]. split; [reflexivity|]. split; [reflexivity|]. rewrite <- Lp, skipn_app, skipn_all, Nat.sub_diag. exact Ps.
    - intros ms nonce pk. unfold verifyProof. rewrite (@verifyProofFr_enc C OK HG BS H _ pb hollow sb _ nonce pk [] Ep Es); cbn [pp_count pp_revealed]; auto.
      + cbn [length Nat.ltb Nat.leb]. unfold getBytesForChallenge. cbn [pg_count fold_left length].
        replace (length (messagesToFr H ms) <? 0) with false by (symmetry; apply Nat.ltb_ge; lia). cbn [negb guard bind].
        replace (n + 7 <? 0) with false by (symmetry; apply Nat.ltb_ge; lia). cbn [bind].
        unfold signatureProofVerify, compareTwoPairings, hollow. cbn [sp_aprime sp_abar sp_d sp_vc1].
        replace (geqb _ _) with true; [cbn [guard bind]; unfold verifyVC1Proof; rewrite proof_short by (simpl; lia); reflexivity|].
        symmetry. apply (gok_eqb GOT). rewrite (pair_opp_r OK), !(pair_zero_r OK). apply (proj2 (gsub_zero KO GOT _ _)). reflexivity.
      + intros r [].
      + unfold hollow, proof_size. cbn [sp_vc1 pf_resp length]. pose proof (proj2 BS) as B1. unfold frCompressedSize. lia.
      + cbn. lia.
  Qed.

  (** ** DeriveProof *)
  Definition in_range (n : nat) (i : Z) : Prop := (0 <= i < Z.of_nat n)%Z.

  Lemma znth_range A (l : list A) i : in_range (length l) i -> exists x, znth l i = Ok x.
  Proof.
    intros [L1 L2]. unfold znth. replace (i <? 0)%Z with false by lia. unfold nth_res.
    destruct (nth_error l (Z.to_nat i)) eqn:E; [eauto|]. apply nth_error_None in E. lia.
  Qed.
  Lemma znth_out A (l : list A) i : ~ in_range (length l) i -> znth l i = Panic.
  Proof.
    intro N. unfold znth. destruct (i <? 0)%Z eqn:E; [reflexivity|]. unfold nth_res.
    destruct (nth_error l (Z.to_nat i)) eqn:F; [|reflexivity]. exfalso. apply N. assert (Z.to_nat i < length l) by (apply nth_error_Some; congruence). split; lia.
  Qed.

  Lemma lookups A B (g : A -> B) (l : list A) zs :
    (Forall (in_range (length l)) zs /\ exists r, map_res (fun i => let* m := znth l i in Ok (g m)) zs = Ok r) \/
    ((exists i, In i zs /\ ~ in_range (length l) i) /\ map_res (fun i => let* m := znth l i in Ok (g m)) zs = Panic).
  Proof.
    induction zs as [|i zs IH]; cbn [map_res]; [left; split; [constructor|eauto]|].
    assert (D : in_range (length l) i \/ ~ in_range (length l) i) by (unfold in_range; lia). destruct D as [D|D].
    - destruct (znth_range D) as [x ->]. cbn [bind]. destruct IH as [[F [r ->]]|[[j [J N]] ->]]; cbn [bind].
      + left. split; [constructor; assumption|eauto].
      + right. split; [exists j; split; [right; exact J|exact N]|reflexivity].
    - right. rewrite (znth_out D). cbn [bind]. split; [exists i; split; [left; reflexivity|exact D]|reflexivity].
  Qed.

  Lemma set_bits_np rs : forall bv, set_bits bv rs <> Panic.
  Proof. induction rs as [|r rs IH]; intro bv; cbn [set_bits]; [discriminate|]. destruct (_ <=? _); [discriminate|apply IH]. Qed.

  Lemma derive_panic (H : hasher C) ms sigb nonce pkb zs R : (Z.of_nat (length ms) <= 4294967295)%Z ->
    deriveProof HG H ms sigb nonce pkb zs R = Panic <->
    bbsVerify HG H ms sigb pkb = Ok tt /\ zs <> [] /\ length zs <= length ms /\ exists i, In i zs /\ ~ in_range (length ms) i.
  Proof.
    intro L. unfold deriveProof, deriveProofZr, bbsVerify.
    assert (Lm : length (messagesToFr H ms) = length ms) by apply messagesToFr_length.
    pose proof (messagesToFr_numbered H ms 0) as N. fold (messagesToFr H ms) in N. set (M := messagesToFr H ms) in *.
    destruct (length zs =? 0) eqn:Z0.
    { cbn [negb guard bind]. apply Nat.eqb_eq in Z0. split; [discriminate|]. intros (_ & NE & _). destruct zs; [contradiction|discriminate]. }
    apply Nat.eqb_neq in Z0. assert (NE : zs <> []) by (intros ->; apply Z0; reflexivity). cbn [negb guard bind].
    destruct (parseSignature C sigb) as [sg| |] eqn:PS; [|cbn [bind]|destruct (parseSignature_np PS)].
    2:{ split; [|intros [X _]; discriminate]. intro E. exfalso. revert E. apply bind_np; [apply unmarshalPK_np|]. intros pk _.
        apply bind_np; [apply toPKwG_np; rewrite Lm; exact L|]. discriminate. }
    destruct (unmarshalPublicKey C pkb) as [pk| |] eqn:PK; cbn [bind]; [| |destruct (unmarshalPK_np PK)].
    2:{ split; [discriminate|]. intros [X _]; discriminate. }
    rewrite Lm, (toPKwG_ok OK) by exact L. cbn [bind]. set (key := {| pg_h0 := _; pg_h := _; pg_w := _; pg_count := _ |}).
    assert (Lk : length M = length (pg_h key)) by (unfold key; cbn [pg_h]; rewrite gens_length; exact Lm).
    unfold newPoKOfSignature, signatureVerify. rewrite (computeB_ok OK) by (auto; lia). cbn [bind]. set (b := bbs_base _ _ _ _).
    unfold pokOfSignatureB. destruct (verifyWithB sg key b) as [[]| |] eqn:VB; cbn [bind].
    2:{ split; [discriminate|]. intros [X _]; discriminate. }
    2:{ unfold verifyWithB in VB. destruct (guard_np VB). }
    rewrite (build_ok OK) by discriminate. cbn [bind]. unfold newVC1Signature. rewrite (finish_ok OK) by (try discriminate; simpl; lia). cbn [bind].
    assert (Ls : length (sortInts zs) = length zs) by (apply Permutation_length, sortInts_perm).
    rewrite Ls, Lm. destruct (length ms <? length zs) eqn:LZ; cbn [negb guard bind].
    { apply Nat.ltb_lt in LZ. split; [discriminate|]. intros (_ & _ & X & _). lia. }
    apply Nat.ltb_ge in LZ. destruct (lookups (@sm_idx C) M (sortInts zs)) as [[F [ids ->]]|[[i [Hi Ni]] ->]]; cbn [bind].
    2:{ split; [intros _|reflexivity]. split; [reflexivity|]. split; [exact NE|]. split; [exact LZ|]. exists i. rewrite Lm in Ni. split; [|exact Ni]. eapply Permutation_in; [apply sortInts_perm|exact Hi]. }
    split.
    2:{ intros (_ & _ & _ & i & Hi & Ni). exfalso. apply Ni. rewrite Lm in F. rewrite Forall_forall in F. apply F. eapply Permutation_in; [apply Permutation_sym, sortInts_perm|exact Hi]. }
    intro E. exfalso. revert E.
    match goal with |- context [@defaultVC2 C ?d ?r3 ?k ?s ?m ?r ?bl] => destruct (@defaultVC2_ok C OK d r3 k s m r bl N Lk) as (g & Eg & Fg & Bg) end.
    rewrite Eg. cbn [bind]. unfold pokGenerateProof. cbn [ps_vc1 ps_sec1 ps_vc2 ps_sec2]. set (c := H _).
    unfold generateProof at 1. cbn [pc_blind responses bind].
    rewrite (finish_ok OK) in Fg; [|discriminate|rewrite map_length, seq_length; lia]. apply (f_equal (fun r => match r with Ok x => x | _ => g end)) in Fg. cbv beta iota in Fg. rewrite <- Fg.
    unfold generateProof. cbn [pc_blind pc_comm]. rewrite responses_ok.
    2:{ unfold vc2_bases. rewrite map_length, seq_length. cbn [length]. rewrite unpick_length, hidden_bases_length, map_length, Lk. lia. }
    cbn [bind]. apply bind_np.
    { unfold payloadBytes. apply bind_np; [apply guard_np|]. intros _ _. apply bind_np; [apply set_bits_np|]. discriminate. }
    intros pb Ep. unfold payloadBytes in Ep. apply bind_ok in Ep. destruct Ep as [u [G _]]. apply guard_ok in G. cbn [pp_count] in G.
    match goal with |- context [signatureProofBytes ?sp] => destruct (@signatureProofBytes_ok C OK BS sp) as [sb ->] end.
    - unfold proof_size. cbn [sp_vc1 pf_resp length]. pose proof (proj2 BS) as B1. unfold frCompressedSize. lia.
    - cbn [sp_vc2 pf_resp]. rewrite resp_length. 2:{ unfold vc2_bases. rewrite map_length, seq_length. cbn [length]. rewrite unpick_length, hidden_bases_length, map_length, Lk. lia. }
      rewrite map_length, seq_length. unfold vc2_bases. cbn [length]. rewrite hidden_bases_length. unfold count_out.
      match goal with |- context [filter ?f ?l] => pose proof (AriesSign.filter_len f l) as FL end. rewrite seq_length in FL. lia.
    - discriminate.
  Qed.
End Panic.
