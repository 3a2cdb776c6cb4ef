(** Soundness of the aries signer, and what it does not check. *)
From Verif Require Import Base Curve Algebra Spec Dlog Bridge BridgeFacts Bbs BbsSpec BbsFacts BbsProof BbsComplete Aries AriesSpec AriesIssue AriesNym AriesVerify AriesSign.
From Coq Require Import Field Ring Sorting.Sorted.
Unset Strict Implicit.

Lemma opt_err_ok A (x : option A) a : opt_err x = Ok a <-> x = Some a.
Proof. destruct x; cbn; split; intro E; inversion E; reflexivity. Qed.

Lemma slice_from_inv A (l : list A) i r : slice_from l i = Ok r -> r = skipn i l.
Proof. intro E. apply slice_len in E. destruct E as (_ & _ & ->). apply firstn_all2. rewrite skipn_length. lia. Qed.

Lemma mem_existsb i l : existsb (Nat.eqb i) l = mem i l.
Proof. reflexivity. Qed.

(** hidden positions of a woven vector *)
Lemma weave_hidden A n r : forall i j (given hidden : list A), length (weave i n r given hidden) = n -> j < n -> ~ In (i + j) r ->
  nth_error (weave i n r given hidden) j = nth_error hidden (count_out i j r).
Proof.
  induction n as [|n IH]; intros i j given hidden L Lj N; [lia|]. cbn [weave] in *. rewrite mem_existsb in *.
  destruct (mem i r) eqn:M.
  - destruct given as [|x given]; [discriminate|]. destruct j as [|j].
    + exfalso. apply N. rewrite Nat.add_0_r. apply mem_in, M.
    + cbn [nth_error]. rewrite IH; [|injection L as L; exact L|lia|replace (S i + j) with (i + S j) by lia; exact N].
      rewrite count_out_S, M. reflexivity.
  - destruct hidden as [|x hidden]; [discriminate|]. destruct j as [|j]; [reflexivity|].
    cbn [nth_error]. rewrite IH; [|injection L as L; exact L|lia|replace (S i + j) with (i + S j) by lia; exact N].
    rewrite count_out_S, M. reflexivity.
Qed.

Lemma count_out_skip0 n r : forall i, i > 0 -> count_out i n (0 :: r) = count_out i n r.
Proof.
  induction n as [|n IH]; intros i L; [reflexivity|]. rewrite !count_out_S. rewrite IH by lia. f_equal.
  rewrite (@mem_ext i (0 :: r) r); [reflexivity|]. simpl. intuition lia.
Qed.

Lemma hidden_before_eq sc r i : hidden_before sc r i = count_out 0 i (if sc then 0 :: r else r).
Proof. reflexivity. Qed.

(** position among the messages of the proof and among the hidden ones *)
Lemma hidden_shift sc r j : ~ In 0 r \/ sc = false -> (sc = true -> j > 0) -> count_out 0 j r = (if sc then 1 else 0) + hidden_before sc r j.
Proof.
  intros N L. rewrite hidden_before_eq. destruct sc; [|reflexivity]. destruct N as [N|]; [|discriminate].
  destruct j as [|j]; [specialize (L eq_refl); lia|]. rewrite !count_out_S. rewrite count_out_skip0 by lia.
  assert (M1 : mem 0 r = false) by (destruct (mem 0 r) eqn:M; [apply mem_in in M; contradiction|reflexivity]). rewrite M1.
  change (mem 0 (0 :: r)) with true. reflexivity.
Qed.

Section Sound.
  Context {C : Curve} (OK : CurveOk C).
  Variable HG : bytes -> G1 C.
  Variable H : hasher C.
  Let KO := ok_zr OK.
  Let GO1 := ok_g1 OK.
  Add Field Kf_arx : (sok_field KO).
  Notation zr := (zcar (Zr C)).
  Notation g1 := (gcar (G1 C)).
  Notation g2 := (gcar (G2 C)).
  Variable BS : bls_sizes C.
  Let S32 : scalar_size C = frCompressedSize := proj1 BS.
  Variables (pk : g2) (n : nat).
  Notation h0 := (gen0 HG pk (n + 1)).
  Notation hs := (gens HG pk (n + 1)).
  Notation key := (ip_key (issuer_key HG pk n)).

  Lemma hsl : length hs = n + 1.
  Proof. apply gens_length. Qed.

  (** ** The proof of possession *)
  Lemma pok_soundness sc nym r ms (p q : PoKOfSignatureProof C) c1 c2 : (sc = true -> ~ In 0 r) ->
    signatureProofVerify (vc2_verifier sc nym) p c1 key r ms = Ok tt ->
    signatureProofVerify (vc2_verifier sc nym) q c2 key r ms = Ok tt ->
    sp_aprime p = sp_aprime q -> sp_abar p = sp_abar q -> sp_d p = sp_d q ->
    pf_comm (sp_vc1 p) = pf_comm (sp_vc1 q) -> pf_comm (sp_vc2 p) = pf_comm (sp_vc2 q) ->
    length (pf_resp (sp_vc1 p)) = 2 -> length (pf_resp (sp_vc1 q)) = 2 ->
    length (pf_resp (sp_vc2 p)) = 2 + hidden_before sc r (n + 1) -> length (pf_resp (sp_vc2 q)) = 2 + hidden_before sc r (n + 1) ->
    c1 <> c2 ->
    let r1 := pf_resp (sp_vc1 p) in let r2 := pf_resp (sp_vc1 q) in
    let t1 := pf_resp (sp_vc2 p) in let t2 := pf_resp (sp_vc2 q) in
    let full := weave 0 (n + 1) r (map (@sm_fr C) ms) ((if sc then [z0] else []) ++ extract_hidden c1 c2 t1 t2) in
    length full = n + 1 /\
    pair C (pk ⊕ (genG2 C ⊗ extract_e c1 c2 r1 r2)) (extract_A (sp_aprime p) c1 c2 t1 t2)
    = pair C (genG2 C) (bbs_base h0 hs (extract_s c1 c2 r1 r2 t1 t2) full ⊕ (if sc then nym else gzero)).
  Proof.
    intros NR V1 V2 Ea Eb Ed E1 E2 L1 L1' L2 L2' N r1 r2 t1 t2 full.
    assert (NE : pg_h key <> []) by (cbn [issuer_key ip_key pg_h]; intro Q; pose proof hsl as X; rewrite Q in X; simpl in X; lia).
    apply (signatureProofVerify_iff OK) in V1. destruct V1 as (P1 & (_ & A1) & B1).
    apply (signatureProofVerify_iff OK) in V2. destruct V2 as (_ & (_ & A2) & B2).
    apply (proj1 (vc2_iff OK BS nym c1 ms (sp_vc2 p) (sp_d p) NR NE)) in B1. destruct B1 as ((_ & En) & _ & B1).
    apply (proj1 (vc2_iff OK BS nym c2 ms (sp_vc2 q) (sp_d q) NR NE)) in B2. destruct B2 as (_ & _ & B2).
    rewrite <- Ea, <- Eb, <- Ed, <- E1 in A2. rewrite <- Ed, <- E2 in B2.
    cbn [issuer_key ip_key pg_h pg_h0 pg_w] in *.
    set (hid := hidden_bases 0 hs (absent sc r)) in *.
    assert (Lhid : length hid = hidden_before sc r (n + 1)) by (unfold hid; rewrite hidden_bases_length, hsl; destruct sc; reflexivity).
    change [sp_aprime p; h0; sp_abar p ⊖ sp_d p] with ([sp_aprime p; h0] ++ [sp_abar p ⊖ sp_d p]) in A1, A2.
    pose proof (@two_responses C OK [sp_aprime p; h0] _ _ _ c1 c2 _ L1 L1' N A1 A2) as X.
    assert (Lb : length (vc2_bases key (absent sc r) (sp_d p)) = 2 + hidden_before sc r (n + 1)) by (unfold vc2_bases; cbn [length issuer_key ip_key pg_h]; fold hid; lia).
    pose proof (@two_responses C OK (vc2_bases key (absent sc r) (sp_d p)) _ _ _ c1 c2 _ (eq_trans L2 (eq_sym Lb)) (eq_trans L2' (eq_sym Lb)) N B1 B2) as Y.
    fold r1 r2 t1 t2 in X, Y, L1, L1', L2, L2'.
    unfold vc2_bases in Y. cbn [issuer_key ip_key pg_h pg_h0] in Y. fold hid in Y. cbn [length seq map gdot] in X, Y.
    set (x0 := extract_at c1 c2 r1 r2 0) in *. set (x1 := extract_at c1 c2 r1 r2 1) in *.
    set (y0 := extract_at c1 c2 t1 t2 0) in *. set (y1 := extract_at c1 c2 t1 t2 1) in *.
    assert (Eh : extract_hidden c1 c2 t1 t2 = map (extract_at c1 c2 t1 t2) (seq 2 (length hid))).
    { unfold extract_hidden. f_equal. f_equal. lia. }
    assert (Lx : length (extract_hidden c1 c2 t1 t2) = length hid) by (rewrite Eh, map_length, seq_length; reflexivity).
    set (hidden := (if sc then [z0] else []) ++ extract_hidden c1 c2 t1 t2) in *.
    assert (Lh : length hidden = count_out 0 (n + 1) r).
    { unfold hidden. rewrite (@hidden_shift sc r (n + 1)) by (try lia; destruct sc; auto). rewrite app_length, Lx, Lhid. destruct sc; reflexivity. }
    assert (Gh : gdot (hidden_bases 0 hs r) hidden = gdot hid (extract_hidden c1 c2 t1 t2)).
    { unfold hidden, hid. destruct sc; [|reflexivity]. specialize (NR eq_refl). cbn [absent app].
      destruct hs as [|h hs'] eqn:Q; [contradiction|]. rewrite hidden_bases_drop0. rewrite !hidden_bases_unpick, unpick_cons0 by exact NR.
      cbn [gdot]. gnorm KO GO1; ring. }
    split. { unfold full. apply weave_length; [rewrite map_length; rewrite <- hsl; exact En|lia]. }
    unfold full. pose proof (@base_split C OK key r ms (extract_s c1 c2 r1 r2 t1 t2) hidden) as BSp. cbn [issuer_key ip_key pg_h pg_h0] in BSp. rewrite hsl in BSp.
    rewrite hsl in En. rewrite BSp; [|exact En|rewrite hidden_bases_length, hsl; exact Lh]. rewrite Gh.
    rewrite Eh. unfold extract_A, extract_e, extract_s. fold x0 x1 y0 y1.
    set (Hd := gdot hid (map (extract_at c1 c2 t1 t2) (seq 2 (length hid)))) in *.
    fold (ip_key (issuer_key HG pk n)) in *.
    set (D := disclosed key r (map (@sm_fr C) ms)) in *.
    assert (ED : D ⊕ (if sc then nym else gzero) = gopp ((sp_d p ⊗ y0) ⊕ (h0 ⊗ y1) ⊕ Hd)).
    { transitivity (gopp (gopp (shown sc key r (map (@sm_fr C) ms) nym))).
      - unfold shown. destruct sc; fold D; gnorm KO GO1; ring.
      - f_equal. refine (eq_trans (eq_sym Y) _). gnorm KO GO1; ring. }
    assert (Edd : sp_d p = sp_abar p ⊖ ((sp_aprime p ⊗ x0) ⊕ (h0 ⊗ x1))).
    { apply (gadd_cancel_l GO1 (sp_abar p ⊖ sp_d p)). rewrite <- X at 2. gnorm KO GO1; ring. }
    rewrite (ok_pair_add_l OK), (ok_pair_mul_l OK), !(ok_pair_mul_r OK), P1.
    rewrite <- !(ok_pair_mul_r OK), <- (ok_pair_add_r OK). f_equal.
    set (Y1 := h0 ⊗ zsub y1 (zmul x1 y0)). change (disclosed {| pg_h0 := h0; pg_h := hs; pg_w := pk; pg_count := n + 1 |} r (map (@sm_fr C) ms)) with D.
    transitivity ((D ⊕ (if sc then nym else gzero)) ⊕ Y1 ⊕ Hd); [|gnorm KO GO1; ring].
    rewrite ED, Edd. unfold Y1. gnorm KO GO1; ring.
  Qed.

  (** ** The pseudonyms *)
  Lemma nym_sound k (p1 p2 v1 v2 : ProofG1 C) nym pos c1 c2 : k <= n ->
    verify_attr_nym key (Z.of_nat k) p1 nym v1 (Z.of_nat pos) c1 = Ok tt -> verify_attr_nym key (Z.of_nat k) p2 nym v2 (Z.of_nat pos) c2 = Ok tt ->
    pf_comm p1 = pf_comm p2 -> length (pf_resp p1) = 2 -> length (pf_resp p2) = 2 -> c1 <> c2 ->
    opens (base_at HG pk n k) h0 nym (extract_at c1 c2 (pf_resp v1) (pf_resp v2) pos) (extract_at c1 c2 (pf_resp p1) (pf_resp p2) 0).
  Proof.
    intros L V1 V2 E L1 L2 N. apply (verify_attr_nym_iff OK HG BS) in V1; [|exact L]. apply (verify_attr_nym_iff OK HG BS) in V2; [|exact L].
    destruct V1 as (x1 & j1 & A1 & J1 & B1 & V1), V2 as (x2 & j2 & A2 & J2 & B2 & V2). apply Nat2Z.inj in J1, J2. subst j1 j2. rewrite <- E in V2.
    change [h0; base_at HG pk n k; nym] with ([h0; base_at HG pk n k] ++ [nym]) in V1, V2.
    pose proof (@two_responses C OK [h0; base_at HG pk n k] nym _ _ c1 c2 _ L1 L2 N V1 V2) as X. cbn [length seq map gdot] in X.
    assert (Q : extract_at c1 c2 (pf_resp p1) (pf_resp p2) 1 = extract_at c1 c2 (pf_resp v1) (pf_resp v2) pos).
    { unfold extract_at. rewrite (nth_error_nth _ _ z0 A1), (nth_error_nth _ _ z0 A2), (nth_error_nth _ _ z0 B1), (nth_error_nth _ _ z0 B2). reflexivity. }
    rewrite Q in X. unfold opens. rewrite <- X. gnorm KO GO1; ring.
  Qed.

  (** ** Verify *)
  Lemma verify_soundness f1 f2 c1 c2 (eid rh : nat) v meta1 meta2 :
    vf_key f1 = key -> eid < n -> rh < n -> (ver_smartcard v = true -> ~ In 0 (vf_revealed f1)) ->
    arVerify_second f1 c1 (Z.of_nat rh) (Z.of_nat eid) 0 v meta1 = Ok tt ->
    arVerify_second f2 c2 (Z.of_nat rh) (Z.of_nat eid) 0 v meta2 = Ok tt ->
    same_first f1 f2 -> one_response_each n (ver_smartcard v) f1 -> one_response_each n (ver_smartcard v) f2 -> c1 <> c2 ->
    let sc := ver_smartcard v in
    let r1 := pf_resp (sp_vc1 (vf_sp f1)) in let r2 := pf_resp (sp_vc1 (vf_sp f2)) in
    let t1 := pf_resp (sp_vc2 (vf_sp f1)) in let t2 := pf_resp (sp_vc2 (vf_sp f2)) in
    let full := extracted n sc f1 f2 c1 c2 in
    length full = n + 1 /\
    pair C (pk ⊕ (genG2 C ⊗ extract_e c1 c2 r1 r2)) (extract_A (sp_aprime (vf_sp f1)) c1 c2 t1 t2)
    = pair C (genG2 C) (bbs_base h0 hs (extract_s c1 c2 r1 r2 t1 t2) full ⊕ (if sc then vf_nym f1 else gzero)) /\
    (forall p1 p2, vf_nymp f1 = Some p1 -> vf_nymp f2 = Some p2 -> ~ In 0 (vf_revealed f1) -> sc = false ->
       opens (base_at HG pk n 0) h0 (vf_nym f1) (nth 0 full z0) (extract_at c1 c2 (pf_resp p1) (pf_resp p2) 0)) /\
    (forall p1 p2, vf_eid f1 = Some p1 -> vf_eid f2 = Some p2 -> ~ In (S eid) (vf_revealed f1) ->
       as_eid_idx (vf_sig f1) = Z.of_nat (2 + hidden_before sc (vf_revealed f1) (S eid)) -> as_eid_idx (vf_sig f2) = as_eid_idx (vf_sig f1) ->
       opens (base_at HG pk n (S eid)) h0 (snd p1) (nth (S eid) full z0) (extract_at c1 c2 (pf_resp (fst p1)) (pf_resp (fst p2)) 0)) /\
    (forall p1 p2, vf_rh f1 = Some p1 -> vf_rh f2 = Some p2 -> ~ In (S rh) (vf_revealed f1) ->
       as_rh_idx (vf_sig f1) = Z.of_nat (2 + hidden_before sc (vf_revealed f1) (S rh)) -> as_rh_idx (vf_sig f2) = as_rh_idx (vf_sig f1) ->
       opens (base_at HG pk n (S rh)) h0 (snd p1) (nth (S rh) full z0) (extract_at c1 c2 (pf_resp (fst p1)) (pf_resp (fst p2)) 0)).
  Proof.
    intros K1 Le Lr NR V1 V2 SF O1 O2 N sc r1 r2 t1 t2 full.
    destruct SF as (Ek & Em & Er & En & Ea & Eb & Ed & E1 & E2 & E3 & E4 & E5).
    destruct O1 as (L1 & L2 & L3 & L4 & L5), O2 as (M1 & M2 & M3 & M4 & M5).
    assert (K2 : vf_key f2 = key) by congruence.
    assert (PE : past_sk (Z.of_nat eid) (Z.of_nat 0) = Z.of_nat (S eid)) by (clear; unfold past_sk; replace (Z.of_nat 0 <=? Z.of_nat eid)%Z with true by lia; lia).
    assert (PR : past_sk (Z.of_nat rh) (Z.of_nat 0) = Z.of_nat (S rh)) by (clear; unfold past_sk; replace (Z.of_nat 0 <=? Z.of_nat rh)%Z with true by lia; lia).
    change 0%Z with (Z.of_nat 0) in V1, V2.
    apply (proj1 (second_iff OK (HG := HG) BS c1 v meta1 (Nat.le_0_l n) Le Lr PE PR K1)) in V1.
    apply (proj1 (second_iff OK (HG := HG) BS c2 v meta2 (Nat.le_0_l n) Le Lr PE PR K2)) in V2.
    destruct V1 as (_ & _ & VN1 & VE1 & VR1 & VS1), V2 as (_ & _ & VN2 & VE2 & VR2 & VS2).
    rewrite K1 in VN1, VE1, VR1, VS1. rewrite K2 in VN2, VE2, VR2, VS2.
    rewrite <- Er in M2. rewrite <- Em, <- Er, <- En in VS2.
    destruct (@pok_soundness sc (vf_nym f1) (vf_revealed f1) (vf_ms f1) (vf_sp f1) (vf_sp f2) c1 c2 NR VS1 VS2 Ea Eb Ed E1 E2 L1 M1 L2 M2 N) as [Lf PF].
    change (weave 0 (n + 1) (vf_revealed f1) _ _) with full in Lf, PF. split; [exact Lf|]. split; [exact PF|].
    assert (NR' : ~ In 0 (vf_revealed f1) \/ sc = false) by (clear - NR; unfold sc; destruct (ver_smartcard v); [left; apply NR; reflexivity|right; reflexivity]).
    assert (Hid : forall j, j <= n -> ~ In j (vf_revealed f1) -> (sc = true -> j > 0) ->
       nth j full z0 = extract_at c1 c2 t1 t2 (2 + hidden_before sc (vf_revealed f1) j)).
    { intros j Lj Nj Sj. 
      assert (W : nth_error full j = nth_error ((if sc then [z0] else []) ++ extract_hidden c1 c2 t1 t2) (count_out 0 j (vf_revealed f1))).
      { apply weave_hidden; [exact Lf|lia|exact Nj]. }
      rewrite (@hidden_shift sc (vf_revealed f1) j) in W by (first [exact Sj|exact NR']).
      assert (Lt : hidden_before sc (vf_revealed f1) j < length t1 - 2).
      { fold t1 in L2. rewrite L2. rewrite !hidden_before_eq. assert (X : count_out 0 j (if sc then 0 :: vf_revealed f1 else vf_revealed f1) < count_out 0 (n + 1) (if sc then 0 :: vf_revealed f1 else vf_revealed f1)); [|fold sc; lia].
        apply count_out_lt; [lia|]. cbn [Nat.add]. destruct sc; [|exact Nj]. intros [Q|Q]; [specialize (Sj eq_refl); lia|exact (Nj Q)]. }
      assert (W' : nth_error full j = Some (extract_at c1 c2 t1 t2 (2 + hidden_before sc (vf_revealed f1) j))).
      { rewrite W. rewrite nth_error_app2 by (destruct sc; cbn [length]; lia). replace ((if sc then 1 else 0) + hidden_before sc (vf_revealed f1) j - length (if sc then [z0] else [])) with (hidden_before sc (vf_revealed f1) j) by (destruct sc; cbn [length]; lia).
        unfold extract_hidden. rewrite nth_error_map. rewrite nth_error_nth' with (d := 0) by (rewrite seq_length; exact Lt). rewrite seq_nth by exact Lt. reflexivity. }
      exact (nth_error_nth _ _ z0 W'). }
    split; [|split].
    - intros p1 p2 Q1 Q2 N0 S0. rewrite Hid by (try lia; try exact N0; rewrite S0; discriminate).
      rewrite hidden_before_eq, S0. change (2 + count_out 0 0 (vf_revealed f1)) with 2. 
      apply (@nym_sound 0 p1 p2 (sp_vc2 (vf_sp f1)) (sp_vc2 (vf_sp f2)) (vf_nym f1) 2 c1 c2); [lia|exact (VN1 p1 Q1)|rewrite En; exact (VN2 p2 Q2)| |exact (L3 p1 Q1)|exact (M3 p2 Q2)|exact N].
      rewrite Q1, Q2 in E3. injection E3 as E3. exact E3.
    - intros p1 p2 Q1 Q2 Ni I1 I2. rewrite Hid by (try lia; exact Ni). rewrite Q1, Q2 in E4. injection E4 as Ec Es.
      specialize (VE1 p1 Q1). specialize (VE2 p2 Q2). rewrite I2 in VE2. rewrite I1 in VE1, VE2. rewrite <- Es in VE2.
      apply (nym_sound (k := S eid) (p1 := fst p1) (p2 := fst p2)) with (1 := Le) (2 := VE1) (3 := VE2); [exact Ec|exact (L4 p1 Q1)|exact (M4 p2 Q2)|exact N].
    - intros p1 p2 Q1 Q2 Ni I1 I2. rewrite Hid by (try lia; exact Ni). rewrite Q1, Q2 in E5. injection E5 as Ec Es.
      specialize (VR1 p1 Q1). specialize (VR2 p2 Q2). rewrite I2 in VR2. rewrite I1 in VR1, VR2. rewrite <- Es in VR2.
      apply (nym_sound (k := S rh) (p1 := fst p1) (p2 := fst p2)) with (1 := Lr) (2 := VR1) (3 := VR2); [exact Ec|exact (L5 p1 Q1)|exact (M5 p2 Q2)|exact N].
  Qed.

  (** ** The first half of Verify *)
  Variable c_sig : codec ASignature.

  Lemma first_inv sigb msg attrs skIndex v f :
    arVerify_first H c_sig (Some (Some (issuer_key HG pk n))) sigb msg attrs skIndex v = Ok f ->
    let sg := vf_sig f in
    dec c_sig sigb = Some sg /\ as_alg sg = Some 0%Z /\ ar_type_checks v sg = true /\
    vf_key f = key /\ attributesToSignatureMessage H attrs skIndex = Ok (vf_ms f) /\
    (ver_smartcard v = true -> ~ In 0 (vf_revealed f)) /\
    (exists pl, parsePoKPayload (as_main sg) = Ok pl /\ parseSignatureProof C (skipn (lenInBytes (pp_count pl)) (as_main sg)) = Ok (vf_sp f) /\
       increasing (pp_revealed pl) /\ length (pp_revealed pl) <= length (vf_ms f) /\
       (forall i, In i (vf_revealed f) <-> In i (pp_revealed pl) /\ (ver_smartcard v = true -> i <> 0))) /\
    g1_of_bytes C (as_nym sg) = Some (vf_nym f) /\
    (if ver_smartcard v then vf_nymp f = None else exists p, vf_nymp f = Some p /\ parseProofG1 C (as_nym_proof sg) = Ok p) /\
    (if ar_verifyEid v sg then exists p, vf_eid f = Some p /\ parseProofG1 C (as_eid_proof sg) = Ok (fst p) /\ g1_of_bytes C (as_eid sg) = Some (snd p) else vf_eid f = None) /\
    (if ar_verifyRh v sg then exists p, vf_rh f = Some p /\ parseProofG1 C (as_rh_proof sg) = Ok (fst p) /\ g1_of_bytes C (as_rh sg) = Some (snd p) else vf_rh f = None) /\
    vf_data f = ver_label v (ar_verifyEid v sg) (ar_verifyRh v sg) ++ chal_bytes key (vf_sp f) (absent (ver_smartcard v) (vf_revealed f)) ++ as_nym sg
                ++ match vf_nymp f with Some p => g1_bytes C (pf_comm p) | None => [] end
                ++ match vf_eid f with Some p => as_eid sg ++ g1_bytes C (pf_comm (fst p)) | None => [] end
                ++ match vf_rh f with Some p => as_rh sg ++ g1_bytes C (pf_comm (fst p)) | None => [] end
                ++ proofNonceBytes H msg.
  Proof.
    intros E. unfold arVerify_first in E. cbn [assert_ptr bind] in E.
    apply bind_ok in E. destruct E as [sg [D E]]. apply opt_err_ok in D.
    apply bind_ok in E. destruct E as [alg [EA E]]. apply opt_err_ok in EA.
    apply bind_ok in E. destruct E as [u1 [G1 E]]. apply guard_ok in G1. apply Z.eqb_eq in G1. subst alg.
    apply bind_ok in E. destruct E as [u2 [G2 E]]. apply guard_ok in G2.
    apply bind_ok in E. destruct E as [ms [EM E]].
    apply bind_ok in E. destruct E as [pl [EP E]].
    apply bind_ok in E. destruct E as [rest [ER E]].
    apply bind_ok in E. destruct E as [sp [ES E]].
    apply bind_ok in E. destruct E as [u3 [G3 E]]. apply guard_ok in G3.
    apply bind_ok in E. destruct E as [nym [EN E]]. apply opt_err_ok in EN.
    apply bind_ok in E. destruct E as [nymp [ENP E]].
    apply bind_ok in E. destruct E as [eidp [EE E]].
    apply bind_ok in E. destruct E as [rhp [EH E]].
    apply bind_ok in E. destruct E as [cb [EC E]]. injection E as <-. cbn [vf_sig vf_key vf_ms vf_revealed vf_sp vf_nym vf_nymp vf_eid vf_rh vf_data].
    split; [exact D|]. split; [exact EA|]. split; [exact G2|]. split; [reflexivity|]. split; [exact EM|].
    pose proof (parse_payload_inv EP) as PI. destruct PI as (Pinc & Plen & _ & _).
    split.
    { intros Sv I. rewrite Sv in I. apply in_mdel in I. destruct I as [_ I]. congruence. }
    split.
    { exists pl. split; [exact EP|]. split; [apply slice_from_inv in ER; subst rest; exact ES|]. split; [exact Pinc|]. split; [destruct (Nat.ltb_spec (length ms) (length (pp_revealed pl))); [discriminate|assumption]|].
      intro i. destruct (ver_smartcard v).
      - rewrite in_mdel, in_madd, in_fold_madd. simpl. intuition congruence.
      - rewrite in_fold_madd. simpl. intuition discriminate. }
    split; [exact EN|].
    split. { destruct (ver_smartcard v); [injection ENP as <-; reflexivity|]. apply bind_ok in ENP. destruct ENP as [p [P1 P2]]. injection P2 as <-. exists p. auto. }
    split. { unfold parse_nym in EE. destruct (ar_verifyEid v sg); [|injection EE as <-; reflexivity]. apply bind_ok in EE. destruct EE as [p [P1 EE]]. apply bind_ok in EE. destruct EE as [x [P2 EE]]. apply opt_err_ok in P2. injection EE as <-. exists (p, x). auto. }
    split. { unfold parse_nym in EH. destruct (ar_verifyRh v sg); [|injection EH as <-; reflexivity]. apply bind_ok in EH. destruct EH as [p [P1 EH]]. apply bind_ok in EH. destruct EH as [x [P2 EH]]. apply opt_err_ok in P2. injection EH as <-. exists (p, x). auto. }
    unfold getBytesForChallenge in EC. match type of EC with (if ?b then _ else _) = _ => destruct b; [discriminate|] end. injection EC as <-.
    f_equal. f_equal. unfold chal_bytes. do 6 f_equal. f_equal. f_equal. f_equal.
    apply (hidden_bases_ext (C := C)). intro j. unfold absent. destruct (ver_smartcard v).
    - cbn [In]. rewrite in_mdel, in_madd. destruct (Nat.eq_dec j 0); intuition congruence.
    - reflexivity.
  Qed.

  (** ** Disclosed attributes when the signature discloses the positions the verifier expects *)
  Definition well_typed (a : attribute) : Prop :=
    match at_type a, at_value a with
    | HiddenAttr, _ => True
    | BytesAttr, VBytes _ => True
    | IntAttr, VInt _ => True
    | _, _ => False
    end.

  Lemma agree_woven attrs : forall i ms hidden, Forall typed attrs -> to_messages H i attrs = Ok ms ->
    length (weave i (length attrs) (revealed_from i attrs) (map (@sm_fr C) ms) hidden) = length attrs ->
    Forall2 (attr_agrees H) attrs (weave i (length attrs) (revealed_from i attrs) (map (@sm_fr C) ms) hidden).
  Proof.
    induction attrs as [|a attrs IH]; intros i ms hidden T E L; [constructor|]. inversion T as [|a' l' Ta Tl]; subst.
    cbn [to_messages] in E. apply bind_ok in E. destruct E as [v [Ev E]]. apply bind_ok in E. destruct E as [ms' [Em E]]. injection E as <-.
    cbn [revealed_from length weave] in *. rewrite mem_existsb in *. destruct (is_hidden a) eqn:Hd.
    - assert (Hv : v = None /\ at_type a = HiddenAttr).
      { unfold is_hidden in Hd. unfold ar_value in Ev. destruct (at_type a); try discriminate. injection Ev as <-. auto. }
      destruct Hv as [-> Hv].
      assert (M : mem i (revealed_from (S i) attrs) = false) by (destruct (mem i (revealed_from (S i) attrs)) eqn:M; [apply mem_in, revealed_bounds in M; lia|reflexivity]).
      rewrite M in *. destruct hidden as [|x hidden]; [discriminate|]. cbn [length] in L. injection L as L. constructor; [left; exact Hv|]. apply IH; assumption.
    - unfold mem in *. cbn [existsb] in *. rewrite Nat.eqb_refl in *. cbn [orb] in *.
      assert (Hs : exists x, v = Some x /\ attr_states H a x).
      { unfold is_hidden in Hd. unfold typed in Ta. unfold ar_value in Ev. unfold attr_states. destruct (at_type a); try discriminate; try contradiction;
        destruct (at_value a); try discriminate; injection Ev as <-; eexists; split; reflexivity. }
      destruct Hs as (x & -> & Hs). cbn [map sm_fr length] in *. injection L as L.
      assert (W : forall g h : list zr, weave (S i) (length attrs) (i :: revealed_from (S i) attrs) g h = weave (S i) (length attrs) (revealed_from (S i) attrs) g h).
      { intros g h. apply weave_ext. intros j Lj. simpl. intuition lia. }
      rewrite W in *. constructor; [right; exact Hs|]. apply IH; assumption.
  Qed.

  Lemma messages0 attributes ms : attributesToSignatureMessage H attributes 0 = Ok ms -> to_messages H 1 attributes = Ok ms.
  Proof.
    unfold attributesToSignatureMessage. change 0%Z with (Z.of_nat 0). rewrite zsplit_ok by lia. cbn [firstn skipn bind app to_messages ar_value hidden_attr at_type].
    intro E. apply bind_ok in E. destruct E as [m [E1 E2]]. congruence.
  Qed.

  Lemma attributes_bound attributes ms r given_hidden : Forall typed attributes -> length attributes = n -> attributesToSignatureMessage H attributes 0 = Ok ms ->
    (forall i, In i r <-> In i (revealedAttributesIndex attributes)) ->
    let full := weave 0 (n + 1) r (map (@sm_fr C) ms) given_hidden in length full = n + 1 -> Forall2 (attr_agrees H) attributes (skipn 1 full).
  Proof.
    intros T L E R full Lf. apply messages0 in E.
    assert (N0 : ~ In 0 r) by (intro I; apply R, revealed_bounds in I; lia).
    assert (W : full = weave 0 (S (length attributes)) (revealed_from 1 attributes) (map (@sm_fr C) ms) given_hidden).
    { unfold full. replace (n + 1) with (S (length attributes)) by lia. apply weave_ext. intros j _. apply R. }
    cbn [weave] in W. rewrite mem_existsb in W.
    assert (M : mem 0 (revealed_from 1 attributes) = false) by (destruct (mem 0 (revealed_from 1 attributes)) eqn:M; [apply mem_in, revealed_bounds in M; lia|reflexivity]).
    rewrite M in W. destruct given_hidden as [|x hidden]; [rewrite W in Lf; simpl in Lf; lia|]. rewrite W in *. cbn [skipn length] in *.
    apply agree_woven; [exact T|exact E|lia].
  Qed.

  (** ** Only the number of disclosed attributes is compared: further attributes are not looked at *)
  Lemma pok_more sc nym (sp : PoKOfSignatureProof C) c r ms ms' extra : (sc = true -> ~ In 0 r) ->
    map (@sm_fr C) ms' = map (@sm_fr C) ms ++ extra ->
    signatureProofVerify (vc2_verifier sc nym) sp c key r ms = Ok tt -> signatureProofVerify (vc2_verifier sc nym) sp c key r ms' = Ok tt.
  Proof.
    intros NR E V. assert (NE : pg_h key <> []) by (cbn [issuer_key ip_key pg_h]; intro Q; pose proof hsl as X; rewrite Q in X; simpl in X; lia).
    apply (signatureProofVerify_iff OK) in V. apply (signatureProofVerify_iff OK). destruct V as (A & B & D). split; [exact A|]. split; [exact B|].
    apply (proj1 (vc2_iff OK BS nym c ms (sp_vc2 sp) (sp_d sp) NR NE)) in D. apply (vc2_iff OK BS nym c ms' (sp_vc2 sp) (sp_d sp) NR NE).
    destruct D as ((D1 & D2) & D3 & D4).
    assert (L : length ms <= length ms') by (apply (f_equal (@length zr)) in E; rewrite app_length, !map_length in E; lia).
    split; [split; [exact D1|lia]|]. split; [exact D3|]. rewrite E. 
    replace (shown sc key r (map (@sm_fr C) ms ++ extra) nym) with (shown sc key r (map (@sm_fr C) ms) nym); [exact D4|].
    unfold shown, disclosed. rewrite weave_extra by (rewrite map_length; exact D2). reflexivity.
  Qed.

  Lemma verify_more sigb msg attrs attrs' ms ms' extra rh eid skIndex v meta :
    attributesToSignatureMessage H attrs skIndex = Ok ms -> attributesToSignatureMessage H attrs' skIndex = Ok ms' ->
    map (@sm_fr C) ms' = map (@sm_fr C) ms ++ extra ->
    arVerify H c_sig (Some (Some (issuer_key HG pk n))) sigb msg attrs rh eid skIndex v meta = Ok tt ->
    arVerify H c_sig (Some (Some (issuer_key HG pk n))) sigb msg attrs' rh eid skIndex v meta = Ok tt.
  Proof.
    intros E1 E2 EE V. unfold arVerify in *. apply bind_ok in V. destruct V as [f [F S]].
    pose proof (first_inv F) as FI. cbv zeta in FI. destruct FI as (_ & _ & _ & K & EM & NR & _). rewrite E1 in EM. injection EM as EM.
    set (f' := {| vf_sig := vf_sig f; vf_key := vf_key f; vf_ms := ms'; vf_revealed := vf_revealed f; vf_sp := vf_sp f; vf_nym := vf_nym f;
                  vf_nymp := vf_nymp f; vf_eid := vf_eid f; vf_rh := vf_rh f; vf_data := vf_data f |}).
    assert (F' : arVerify_first H c_sig (Some (Some (issuer_key HG pk n))) sigb msg attrs' skIndex v = Ok f').
    { unfold arVerify_first in *. cbn [assert_ptr bind] in *.
      apply bind_ok in F. destruct F as [sg [D F]]. rewrite D. cbn [bind].
      apply bind_ok in F. destruct F as [alg [EA F]]. rewrite EA. cbn [bind].
      apply bind_ok in F. destruct F as [u1 [G1 F]]. rewrite G1. cbn [bind].
      apply bind_ok in F. destruct F as [u2 [G2 F]]. rewrite G2. cbn [bind].
      rewrite E1 in F. rewrite E2. cbn [bind] in *.
      apply bind_ok in F. destruct F as [pl [EP F]]. rewrite EP. cbn [bind].
      apply bind_ok in F. destruct F as [rest [ER F]]. rewrite ER. cbn [bind].
      apply bind_ok in F. destruct F as [sp [ES F]]. rewrite ES. cbn [bind].
      apply bind_ok in F. destruct F as [u3 [G3 F]]. apply guard_ok in G3.
      assert (L : length ms <= length ms') by (apply (f_equal (@length zr)) in EE; rewrite app_length, !map_length in EE; lia).
      replace (negb (length ms' <? length (pp_revealed pl))) with true by (clear - L G3; destruct (Nat.ltb_spec (length ms) (length (pp_revealed pl))); destruct (Nat.ltb_spec (length ms') (length (pp_revealed pl))); try discriminate; try reflexivity; lia).
      cbn [guard bind].
      apply bind_ok in F. destruct F as [nym [EN F]]. rewrite EN. cbn [bind].
      apply bind_ok in F. destruct F as [nymp [ENP F]]. rewrite ENP. cbn [bind].
      apply bind_ok in F. destruct F as [eidp [EE' F]]. rewrite EE'. cbn [bind].
      apply bind_ok in F. destruct F as [rhp [EH F]]. rewrite EH. cbn [bind].
      apply bind_ok in F. destruct F as [cb [EC F]]. rewrite EC. cbn [bind]. injection F as <-. reflexivity. }
    rewrite F'. cbn [bind]. change (vf_data f') with (vf_data f). change (vf_sig f') with (vf_sig f).
    set (c := challenge2 H (vf_data f) (as_nonce (vf_sig f))) in *.
    unfold arVerify_second in *. cbn [f' vf_key vf_sp vf_eid vf_rh vf_nymp vf_nym vf_revealed vf_ms vf_sig].
    apply bind_ok in S. destruct S as [u1 [S1 S]]. rewrite S1. cbn [bind].
    apply bind_ok in S. destruct S as [u2 [S2 S]]. rewrite S2. cbn [bind].
    apply bind_ok in S. destruct S as [u3 [S3 S]]. rewrite S3. cbn [bind].
    apply bind_ok in S. destruct S as [u4 [S4 S]]. rewrite S4. cbn [bind].
    apply bind_ok in S. destruct S as [u5 [S5 S]]. rewrite S5. cbn [bind].
    rewrite K in *. rewrite <- EM in S. exact (pok_more NR EE S).
  Qed.
End Sound.
