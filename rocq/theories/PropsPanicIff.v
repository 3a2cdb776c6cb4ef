(** * Exactly which proofs make VerifyProof panic (C84) *)
From Verif Require Import Base Curve Algebra Bbs BbsSpec BbsFacts BbsProof BbsComplete BbsPanic AriesForge AriesSound Toy ToyBbs PropsBbs PropsBbsMore PropsPanic.
Unset Strict Implicit.

(** ** Vocabulary *)
(** three points at the start *)
Definition three_points C (b : bytes) : Prop :=
  let cs := g1_csize C in 3 * cs <= length b /\
  forall i, i < 3 -> g1_of_comp C (firstn cs (skipn (i * cs) b)) <> None.
(** the generators of the messages that are not disclosed *)
Definition hidden_generators C (HG : bytes -> G1 C) (pk : G2 C) (pl : pokPayload) : list (G1 C) :=
  map (fun i => HG (gen_string pk (pp_count pl) (S i)))
      (filter (fun i => negb (existsb (Nat.eqb i) (pp_revealed pl))) (seq 0 (pp_count pl))).
(** the challenge *)
Definition challenge_of C (HG : bytes -> G1 C) (H : hasher C) (pk : G2 C) (pl : pokPayload) (sp : PoKOfSignatureProof C) (nonce : bytes) : Zr C :=
  let h0 := gen0 HG pk (pp_count pl) in
  H (g1_bytes C (sp_abar sp) ++ g1_bytes C (sp_aprime sp) ++ g1_bytes C h0 ++ g1_bytes C (pf_comm (sp_vc1 sp)) ++ g1_bytes C (sp_d sp) ++ g1_bytes C h0
     ++ concat (map (g1_bytes C) (hidden_generators HG pk pl)) ++ g1_bytes C (pf_comm (sp_vc2 sp)) ++ zr_bytes C (H nonce)).

Section Iff.
  Context {C : Curve} (OK : CurveOk C) (HG : bytes -> G1 C) (BS : bls_sizes C).
  Let KO := ok_zr OK.
  Let GO1 := ok_g1 OK.
  Let GOT := ok_gt OK.
  Notation zr := (zcar (Zr C)).
  Notation g1 := (gcar (G1 C)).

  Lemma g1c_at b i : 3 * g1_csize C <= length b -> i < 3 ->
    parse_g1c C b (i * g1_csize C) = match g1_of_comp C (firstn (g1_csize C) (skipn (i * g1_csize C) b)) with Some p => Ok p | None => Err end.
  Proof.
    intros L Li. unfold parse_g1c, slice. set (cs := g1_csize C) in *.
    assert (i * cs + cs <= 3 * cs) by nia.
    replace ((i * cs <=? i * cs + cs) && (i * cs + cs <=? length b)) with true by (symmetry; apply andb_true_iff; split; apply Nat.leb_le; lia).
    cbn [bind]. replace (i * cs + cs - i * cs) with cs by lia. reflexivity.
  Qed.

  Lemma parse_sp_panic b : parseSignatureProof C b = Panic <-> three_points C b /\ ~ complete_frame C b.
  Proof.
    split.
    - intro E. split.
      + unfold parseSignatureProof in E. cbv zeta in E. set (cs := g1_csize C) in *.
        destruct (cs * 3 <=? length b) eqn:L; cbn [guard bind] in E; [|discriminate]. apply Nat.leb_le in L.
        pose proof (@g1c_at b 0 ltac:(fold cs; lia) ltac:(lia)) as P0. pose proof (@g1c_at b 1 ltac:(fold cs; lia) ltac:(lia)) as P1. pose proof (@g1c_at b 2 ltac:(fold cs; lia) ltac:(lia)) as P2.
        fold cs in P0, P1, P2. replace (0 * cs) with 0 in P0 by lia. replace (1 * cs) with cs in P1 by lia.
        split; [fold cs; lia|]. rewrite P0 in E. destruct (g1_of_comp C (firstn cs (skipn 0 b))) eqn:Q0; cbn [bind] in E; [|discriminate].
        rewrite P1 in E. destruct (g1_of_comp C (firstn cs (skipn cs b))) eqn:Q1; cbn [bind] in E; [|discriminate].
        rewrite P2 in E. destruct (g1_of_comp C (firstn cs (skipn (2 * cs) b))) eqn:Q2; cbn [bind] in E; [|discriminate].
        intros i Li. fold cs. destruct i as [|[|[|i]]]; [| | |lia].
        * replace (0 * cs) with 0 by lia. rewrite Q0. discriminate.
        * replace (1 * cs) with cs by lia. rewrite Q1. discriminate.
        * rewrite Q2. discriminate.
      + intro F. exact (parse_sp_np HG BS (b := b) F E).
    - intros [[L P] F]. unfold parseSignatureProof. cbv zeta. set (cs := g1_csize C) in *.
      replace (cs * 3 <=? length b) with true by (symmetry; apply Nat.leb_le; lia). cbn [guard bind].
      pose proof (@g1c_at b 0 ltac:(fold cs; lia) ltac:(lia)) as P0. pose proof (@g1c_at b 1 ltac:(fold cs; lia) ltac:(lia)) as P1. pose proof (@g1c_at b 2 ltac:(fold cs; lia) ltac:(lia)) as P2.
      fold cs in P0, P1, P2. specialize (P 0) as Q0. specialize (P 1) as Q1. specialize (P 2) as Q2. specialize (Q0 ltac:(lia)). specialize (Q1 ltac:(lia)). specialize (Q2 ltac:(lia)).
      replace (0 * cs) with 0 in P0, Q0 by lia. replace (1 * cs) with cs in P1, Q1 by lia.
      rewrite P0. destruct (g1_of_comp C (firstn cs (skipn 0 b))); [|contradiction]. cbn [bind].
      rewrite P1. destruct (g1_of_comp C (firstn cs (skipn cs b))); [|contradiction]. cbn [bind].
      rewrite P2. destruct (g1_of_comp C (firstn cs (skipn (2 * cs) b))); [|contradiction]. cbn [bind].
      destruct (Nat.le_gt_cases (3 * cs + 4) (length b)) as [L4|L4].
      + assert (SL : slice b (3 * cs) (3 * cs + 4) = Ok (firstn 4 (skipn (3 * cs) b))).
        { unfold slice. replace ((3 * cs <=? 3 * cs + 4) && (3 * cs + 4 <=? length b)) with true by (symmetry; apply andb_true_iff; split; apply Nat.leb_le; lia).
          replace (3 * cs + 4 - 3 * cs) with 4 by lia. reflexivity. }
        rewrite SL. cbn [bind]. change (os2ip (firstn 4 (skipn (3 * cs) b))) with (length_field C b).
        destruct (_ >? _)%Z eqn:G; [reflexivity|]. exfalso. apply F. intros _. fold cs. split; [exact L4|]. lia.
      + rewrite slice_panic by lia. reflexivity.
  Qed.

  Lemma unpick_map A (f : nat -> A) (r : list nat) n : forall i,
    unpick i (map f (seq i n)) r = map f (filter (fun j => negb (existsb (Nat.eqb j) r)) (seq i n)).
  Proof.
    induction n as [|n IH]; intro i; [reflexivity|]. cbn [seq map unpick filter]. unfold mem in *. destruct (existsb (Nat.eqb i) r); cbn [negb map]; rewrite IH; reflexivity.
  Qed.

  Lemma hidden_gens (pk : G2 C) pl r : (forall j, In j r <-> In j (pp_revealed pl)) ->
    hidden_bases 0 (gens HG pk (pp_count pl)) r = hidden_generators HG pk pl.
  Proof.
    intro R. rewrite (@hidden_bases_ext C _ 0 r (pp_revealed pl) R), hidden_bases_unpick. unfold gens, hidden_generators.
    rewrite <- seq_shift, map_map. apply unpick_map.
  Qed.

  Lemma proof_iff (p : ProofG1 C) bases x c : length bases <= length (pf_resp p) ->
    proofG1Verify p bases x c = Ok tt <-> gdot (bases ++ [x]) (pf_resp p ++ [c]) = pf_comm p.
  Proof.
    intro L. unfold proofG1Verify, getChallengeContribution. rewrite (sum_ok OK); [|destruct bases; discriminate|rewrite !app_length; simpl; lia].
    cbn [deref_g1 bind]. split.
    - intro E. apply guard_ok in E. apply (gok_eqb GO1) in E. exact (proj1 (gsub_zero KO GO1 _ _) E).
    - intro E. unfold guard. replace (geqb _ _) with true; [reflexivity|]. symmetry. apply (gok_eqb GO1). exact (proj2 (gsub_zero KO GO1 _ _) E).
  Qed.

  Lemma verify_proof_panic (H : hasher C) ms proof nonce pkb :
    verifyProof HG H ms proof nonce pkb = Panic <->
    exists pl, parsePoKPayload proof = Ok pl /\
    ((three_points C (after_payload proof pl) /\ ~ complete_frame C (after_payload proof pl)) \/
     exists sp pk, parseSignatureProof C (after_payload proof pl) = Ok sp /\ unmarshalPublicKey C pkb = Ok pk /\
       length (pp_revealed pl) <= length ms /\
       let c := challenge_of HG H pk pl sp nonce in
       (pp_count pl + 7 < length (pp_revealed pl) \/
        pair C pk (sp_aprime sp) = pair C (genG2 C) (sp_abar sp) /\
        (length (pf_resp (sp_vc1 sp)) < 2 \/
         gdot [sp_aprime sp; gen0 HG pk (pp_count pl); sp_abar sp ⊖ sp_d sp] (pf_resp (sp_vc1 sp) ++ [c]) = pf_comm (sp_vc1 sp) /\
         (pp_count pl + 2 < length (pp_revealed pl) \/ length (pf_resp (sp_vc2 sp)) < 2 + hidden_count pl)))).
  Proof.
    unfold verifyProof, verifyProofFr, after_payload.
    destruct (parsePoKPayload proof) as [pl| |] eqn:EP; cbn [bind]; [| |destruct (payload_never EP)].
    2:{ split; [discriminate|]. intros (pl & Q & _). discriminate. }
    destruct (parse_payload_inv EP) as (I & _ & LP & BC). rewrite (slice_from_rest HG BS LP). cbn [bind].
    set (b := skipn _ proof). pose proof (parse_sp_panic b) as PP.
    assert (EX : forall P : pokPayload -> Prop, (exists pl', Ok pl = Ok pl' /\ P pl') <-> P pl).
    { intro P. split; [intros (pl' & Q & X); injection Q as <-; exact X|intro X; exists pl; auto]. }
    rewrite EX. fold b.
    destruct (parseSignatureProof C b) as [sp| |] eqn:ES; cbn [bind].
    2:{ split; [discriminate|]. intros [X|(sp & pk & Q & _)]; [|discriminate]. apply PP in X. discriminate. }
    2:{ split; [intros _; left; apply PP; reflexivity|reflexivity]. }
    assert (NP : ~ (three_points C b /\ ~ complete_frame C b)) by (intro X; apply PP in X; discriminate).
    destruct (unmarshalPublicKey C pkb) as [pk| |] eqn:EK; cbn [bind]; [| |destruct (unmarshalPK_np EK)].
    2:{ split; [discriminate|]. intros [X|(sp' & pk & _ & Q & _)]; [contradiction|discriminate]. }
    rewrite (toPKwG_ok OK) by lia. cbn [bind].
    assert (EX2 : forall (P : PoKOfSignatureProof C -> G2 C -> Prop), (three_points C b /\ ~ complete_frame C b \/ exists sp' pk', Ok sp = Ok sp' /\ Ok pk = Ok pk' /\ P sp' pk') <-> P sp pk).
    { intro P. split; [intros [X|(sp' & pk' & Q1 & Q2 & X)]; [contradiction|injection Q1 as <-; injection Q2 as <-; exact X]|intro X; right; exists sp, pk; auto]. }
    rewrite EX2. clear EX EX2 NP PP.
    assert (LM : length (messagesToFr H ms) = length ms) by apply messagesToFr_length. rewrite LM.
    destruct (length ms <? length (pp_revealed pl)) eqn:G; cbn [negb guard bind].
    { apply Nat.ltb_lt in G. split; [discriminate|]. intros [X _]. lia. }
    apply Nat.ltb_ge in G.
    set (r := fold_left madd (pp_revealed pl) []).
    assert (RR : forall j, In j r <-> In j (pp_revealed pl)) by (intro j; unfold r; rewrite in_fold_madd; simpl; tauto).
    assert (LL : length r = length (pp_revealed pl)) by (apply fold_madd_length, increasing_nodup, I).
    unfold getBytesForChallenge. cbn [pg_count pg_h0 pg_h]. rewrite LL.
    destruct (_ + 7 <? _) eqn:G7; cbn [bind].
    { apply Nat.ltb_lt in G7. split; [intros _; split; [exact G|left; exact G7]|reflexivity]. }
    apply Nat.ltb_ge in G7. rewrite (hidden_gens pk RR).
    match goal with |- context [H (?x ++ proofNonceBytes H nonce)] => assert (CE : H (x ++ proofNonceBytes H nonce) = challenge_of HG H pk pl sp nonce) end.
    { unfold challenge_of, proofNonceBytes. cbv zeta. f_equal. rewrite <- !app_assoc. reflexivity. }
    rewrite CE. clear CE. set (c := challenge_of HG H pk pl sp nonce).
    unfold signatureProofVerify. cbn [pg_w].
    assert (PE : compareTwoPairings (sp_aprime sp) pk (gopp (sp_abar sp)) (genG2 C) = true <-> pair C pk (sp_aprime sp) = pair C (genG2 C) (sp_abar sp)).
    { unfold compareTwoPairings. rewrite (gok_eqb GOT), (pair_opp_r OK). apply (gsub_zero KO GOT). }
    destruct (compareTwoPairings _ _ _ _); cbn [guard bind].
    2:{ split; [discriminate|]. intros [_ [X|[X _]]]; [lia|]. apply PE in X. discriminate. }
    assert (PE' := proj1 PE eq_refl). clear PE. unfold verifyVC1Proof. cbn [pg_h0].
    destruct (Nat.le_gt_cases 2 (length (pf_resp (sp_vc1 sp)))) as [L1|L1].
    2:{ rewrite (proof_short BS) by (simpl; lia). cbn [bind]. split; [intros _|reflexivity]. split; [exact G|]. right. split; [exact PE'|]. left. exact L1. }
    pose proof (@proof_iff (sp_vc1 sp) [sp_aprime sp; gen0 HG pk (pp_count pl)] (sp_abar sp ⊖ sp_d sp) c ltac:(simpl; lia)) as P1. cbn [app] in P1.
    destruct (proofG1Verify (sp_vc1 sp) _ _ c) as [[]| |] eqn:V1; cbn [bind].
    2:{ split; [discriminate|]. intros [_ [X|[_ [X|[X _]]]]]; [lia|lia|]. apply P1 in X. discriminate. }
    2:{ exfalso. revert V1. apply (proof_np OK). simpl. lia. }
    assert (P1' := proj1 P1 eq_refl). unfold defaultVC2Verify. cbn [pg_count pg_h pg_h0]. rewrite LL.
    destruct (_ + 2 <? _) eqn:G2.
    { apply Nat.ltb_lt in G2. split; [intros _|reflexivity]. split; [exact G|]. right. split; [exact PE'|]. right. split; [exact P1'|]. left. exact G2. }
    apply Nat.ltb_ge in G2.
    destruct (split_bases 0 (gens HG pk (pp_count pl)) r (messagesToFr H ms) 0) as [[hid dis]| |] eqn:E; cbn [bind].
    2:{ exfalso. destruct (@split_bases_ok C (gens HG pk (pp_count pl)) r 0 (messagesToFr H ms) 0) as (hid & dis & E').
        - rewrite skipn_O, LM. apply Nat.le_trans with (length (pp_revealed pl)); [|exact G]. apply count_in_len. intros j J. apply RR, J.
        - rewrite E' in E. discriminate. }
    2:{ exfalso. revert E. apply (split_np BS). rewrite Nat.add_0_r, LM. apply Nat.le_trans with (length (pp_revealed pl)); [|exact G]. apply count_in_len. intros j J. apply RR, J. }
    destruct (split_bases_spec OK E) as (HE & _ & _).
    assert (LH : length hid = hidden_count pl).
    { rewrite HE, (hidden_gens pk RR). unfold hidden_generators. rewrite map_length. reflexivity. }
    destruct (Nat.le_gt_cases (2 + hidden_count pl) (length (pf_resp (sp_vc2 sp)))) as [L2|L2].
    - split; [intro X; exfalso; revert X; apply (proof_np OK); simpl; lia|]. intros [_ [X|[_ [X|[_ [X|X]]]]]]; lia.
    - rewrite (proof_short BS) by (simpl; lia). split; [intros _|reflexivity]. split; [exact G|]. right. split; [exact PE'|]. right. split; [exact P1'|]. right. exact L2.
  Qed.
End Iff.

(** VerifyProof panics on exactly these inputs and on no others:
    - the payload parses, the three points decode, and the length field of the first proof or the bytes it announces are missing;
    - everything decodes, there are enough messages, and the payload marks at least eight positions more than the messages it
      counts;
    - the pairing equation holds and the first proof carries fewer than two responses;
    - the first proof verifies too, and the payload marks three positions too many or the second proof carries fewer responses
      than two and one for each message that stays hidden. *)
Theorem C84_verify_proof_exact : forall C (OK : CurveOk C) (HG : bytes -> G1 C) (H : hasher C), bls_sizes C ->
  forall (ms : list bytes) (proof nonce pkb : bytes),
  verifyProof HG H ms proof nonce pkb = Panic <->
  exists pl, parsePoKPayload proof = Ok pl /\
  ((three_points C (after_payload proof pl) /\ ~ complete_frame C (after_payload proof pl)) \/
   exists sp pk, parseSignatureProof C (after_payload proof pl) = Ok sp /\ unmarshalPublicKey C pkb = Ok pk /\
     length (pp_revealed pl) <= length ms /\
     let c := challenge_of HG H pk pl sp nonce in
     (pp_count pl + 7 < length (pp_revealed pl) \/
      pair C pk (sp_aprime sp) = pair C (genG2 C) (sp_abar sp) /\
      (length (pf_resp (sp_vc1 sp)) < 2 \/
       gdot [sp_aprime sp; gen0 HG pk (pp_count pl); sp_abar sp ⊖ sp_d sp] (pf_resp (sp_vc1 sp) ++ [c]) = pf_comm (sp_vc1 sp) /\
       (pp_count pl + 2 < length (pp_revealed pl) \/ length (pf_resp (sp_vc2 sp)) < 2 + hidden_count pl)))).
Proof. intros C OK HG H BS ms proof nonce pkb. exact (verify_proof_panic OK HG BS H ms proof nonce pkb). Qed.
Print Assumptions C84_verify_proof_exact.

(** A proof of nothing that counts [n] messages and marks [r] positions. *)
Definition xb_marks (n r : nat) : bytes :=
  match payloadBytes {| pp_count := n; pp_revealed := seq 0 r |}, signatureProofBytes (@hollow toy32) with Ok pb, Ok sb => pb ++ sb | _, _ => [] end.
(** The same with points that fail the pairing equation, and with as many responses as the equations need. *)
Definition xb_bad (n r : nat) : bytes :=
  match payloadBytes {| pp_count := n; pp_revealed := seq 0 r |},
        signatureProofBytes {| sp_aprime := gzero; sp_abar := xb_A; sp_d := gzero; sp_vc1 := sp_vc1 (@hollow toy32); sp_vc2 := sp_vc2 (@hollow toy32) |}
  with Ok pb, Ok sb => pb ++ sb | _, _ => [] end.
Definition xb_full (n r : nat) : bytes :=
  match payloadBytes {| pp_count := n; pp_revealed := seq 0 r |},
        signatureProofBytes {| sp_aprime := gzero; sp_abar := gzero; sp_d := gzero;
          sp_vc1 := {| pf_comm := (gzero : G1 toy32); pf_resp := [(f0 : Zr toy32); f0] |}; sp_vc2 := {| pf_comm := gzero; pf_resp := [(f0 : Zr toy32); f0] |} |}
  with Ok pb, Ok sb => pb ++ sb | _, _ => [] end.
Example C84_verify_proof_exact_example :
  let V ms b := verifyProof hg32 h32 ms b xb_nonce (g2_comp toy32 xb_pk) in let sixteen := repeat (str "m") 16 in
  V sixteen (xb_marks 8 16) = Panic /\ V sixteen (xb_bad 8 16) = Panic /\ V sixteen (xb_bad 8 15) = Err /\
  V (repeat (str "m") 15) (xb_bad 8 16) = Err /\ V [str "m"] (xb_marks 1 1) = Panic /\
  V sixteen (xb_full 3 6) = Panic /\ V sixteen (xb_full 3 5) = Err /\ V sixteen (xb_full 3 2) = Panic /\ V sixteen (xb_full 3 3) = Err.
Proof. cbv zeta. repeat split; vm_compute; reflexivity. Qed.
