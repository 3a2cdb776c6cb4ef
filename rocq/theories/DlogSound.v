(** Soundness proofs for dlog signatures. *)
From Verif Require Import Base Curve Algebra Spec Dlog DlogSpec DlogFacts DlogData.
From Coq Require Import Field Ring.

Section Sound.
  Context {C : Curve} (OK : CurveOk C).
  Variable T : translator C.
  Let KO := ok_zr OK.
  Let GO1 := ok_g1 OK.
  Let GO2 := ok_g2 OK.
  Let GOT := ok_gt OK.
  Add Field Kf_sound : (sok_field KO).
  Notation zr := (zcar (Zr C)).
  Notation g1 := (gcar (G1 C)).
  Local Open Scope zr_scope.

  (** ** The equations behind an accepting first part of Ver *)
  Definition t1_of (APrime ABar BPrime HRand : g1) (c se sr2 : zr) : g1 :=
    gmul2 APrime se HRand sr2 ⊖ (ABar ⊖ BPrime) ⊗ c.
  Definition t2_of (B : Bases C) (disc : bytes) (vals : list (option zr)) (BPrime : g1)
      (c ssp sr3 ssk : zr) (sattrs : list zr) : g1 :=
    b_hrand B ⊗ ssp ⊕ gmul2 BPrime sr3 (b_hsk B) ssk ⊕ gdot (hsel disc (b_attrs B)) sattrs
    ⊕ (genG1 C ⊕ dsum disc (b_attrs B) vals) ⊗ c.
  Definition t3_of (B : Bases C) (Nym : g1) (c ssk srnym : zr) : g1 :=
    gmul2 (b_hsk B) ssk (b_hrand B) srnym ⊖ Nym ⊗ c.

  Record FirstOk (sig : Signature) (disc : bytes) (ipk : IssuerPublicKey) (msg : bytes)
      (vals : list (option zr)) (rhI eidI : Z) (vt : VerificationType) (B : Bases C) (F : VerFirst C)
      (APrime ABar BPrime Nym : g1) : Prop := {
    fo_valid : valid_input rhI ipk disc = true;
    fo_type : type_checks vt sig = true;
    fo_a : g1_from_proto T (sg_aprime sig) = Ok APrime;
    fo_abar : g1_from_proto T (sg_abar sig) = Ok ABar;
    fo_b : g1_from_proto T (sg_bprime sig) = Ok BPrime;
    fo_nym : g1_from_proto T (sg_nym sig) = Ok Nym;
    fo_nz : APrime <> gzero;
    fo_pair : pair C (b_w B) APrime = pair C (genG2 C) ABar;
    fo_len : length (sg_sattrs sig) = nhid disc;
    fo_bases : length disc <= length (b_attrs B);
    fo_vals : vals_ok disc vals;
    fo_c : vf_c F = zr_of_bytes C (sg_c sig);
    fo_nonce : vf_nonce F = zr_of_bytes C (sg_nonce sig);
    fo_hrand : vf_hrand F = b_hrand B;
    fo_eid : if verifyEIDNym vt sig
             then exists x, recompute_t4 T (sg_eid sig) ipk eidI (hiddenIndices disc)
                    (map (zr_of_bytes C) (sg_sattrs sig)) (b_hrand B) (zr_of_bytes C (sg_c sig)) = Ok x
                  /\ vf_eid F = Some x
             else vf_eid F = None;
    fo_rh : if verifyRHNym vt sig
            then exists x, recompute_t4 T (sg_rh sig) ipk rhI (hiddenIndices disc)
                    (map (zr_of_bytes C) (sg_sattrs sig)) (b_hrand B) (zr_of_bytes C (sg_c sig)) = Ok x
                  /\ vf_rh F = Some x
            else vf_rh F = None;
    fo_nonrev : exists n, sg_nonrev sig = Some n /\ nr_alg n = 0%Z;
    fo_search : searchInts (hiddenIndices disc) rhI < nhid disc;
    fo_epoch : exists E, g2_from_proto T (sg_epochpk sig) = Ok E;
    fo_data : vf_data F = sig_string
        (t1_of APrime ABar BPrime (b_hrand B) (zr_of_bytes C (sg_c sig)) (zr_of_bytes C (sg_se sig)) (zr_of_bytes C (sg_sr2 sig)))
        (t2_of B disc vals BPrime (zr_of_bytes C (sg_c sig)) (zr_of_bytes C (sg_ssprime sig))
               (zr_of_bytes C (sg_sr3 sig)) (zr_of_bytes C (sg_ssk sig)) (map (zr_of_bytes C) (sg_sattrs sig)))
        (t3_of B Nym (zr_of_bytes C (sg_c sig)) (zr_of_bytes C (sg_ssk sig)) (zr_of_bytes C (sg_srnym sig)))
        APrime ABar BPrime Nym (vf_eid F) (vf_rh F) (ip_hash ipk) disc msg
  }.

  Lemma rh_implies_eid vt sig : verifyRHNym vt sig = true -> verifyEIDNym vt sig = true.
  Proof. intro E. unfold verifyEIDNym. rewrite E. apply orb_true_r. Qed.

  Lemma hidden_nhid disc : length (hiddenIndices disc) = nhid disc.
  Proof. apply nhid_hidden. Qed.

  Lemma Ver_first_inv sig disc ipk msg vals rhI eidI vt F B :
    ipk_bases T ipk B ->
    Ver_first T sig disc ipk msg vals rhI eidI vt = Ok F ->
    exists APrime ABar BPrime Nym, FirstOk sig disc ipk msg vals rhI eidI vt B F APrime ABar BPrime Nym.
  Proof.
    intros (Hsk & Hrand & Hattrs & Hw) E. unfold Ver_first, parse_points in E.
    rewrite Hsk, Hrand, Hattrs, Hw in E.
    repeat (match type of E with
      | bind ?m _ = Ok _ =>
          let a := fresh "v" in let X := fresh "X" in
          apply bind_ok in E; destruct E as [a [X E]]; cbv beta zeta in E
      end).
    inv_all.
    repeat match goal with
    | X : Ok _ = Ok _ |- _ => inversion X; subst; clear X
    end.
    match goal with X : map_res _ (hiddenIndices disc) = Ok _, Y : disclosed_prod _ _ _ _ _ _ = Ok _ |- _ =>
      pose proof (enough_bases _ _ _ _ X Y) as EB;
      pose proof (disclosed_prod_inv _ _ _ _ _ Y) as [VO _];
      cbn [skipn] in VO;
      rewrite (disclosed_prod_ok OK disc 0 (b_attrs B) vals (genG1 C)) in Y by (cbn [skipn]; auto);
      cbn [skipn] in Y;
      pose proof (map_res_hidden disc [] (b_attrs B) EB) as MH; cbn [app length] in MH;
      change (hidden_from 0 disc) with (hiddenIndices disc) in MH; rewrite MH in X
    end.
    inv_all.
    match goal with X : loop2 _ _ _ _ _ = Ok _ |- _ => rename X into LP end.
    assert (LH : length (hsel disc (b_attrs B)) = nhid disc) by (apply hsel_nhid; exact EB).
    assert (LS : length (sg_sattrs sig) = nhid disc).
    { match goal with G : (length (sg_sattrs sig) =? _) = true |- _ => apply Nat.eqb_eq in G; rewrite G end.
      apply hidden_nhid. }
    rewrite (loop2_ok OK) in LP by (rewrite hidden_nhid, ?map_length; lia).
    rewrite hidden_nhid, !firstn_all2 in LP by (rewrite ?map_length; lia).
    inv_all.
    match goal with X : g1_from_proto T (sg_aprime sig) = Ok ?a, Y : g1_from_proto T (sg_abar sig) = Ok ?b,
      Z : g1_from_proto T (sg_bprime sig) = Ok ?c, W : g1_from_proto T (sg_nym sig) = Ok ?d |- _ =>
      exists a, b, c, d end.
    match goal with X : sig_data _ _ _ _ _ _ _ _ ?e ?r _ _ _ = Ok _ |- _ => rename X into SD; set (eid := e) in *; set (rh := r) in * end.
    assert (HE : rh <> None -> eid <> None).
    { subst rh eid. intros HR.
      destruct (verifyRHNym vt sig) eqn:R.
      - rewrite (rh_implies_eid _ _ R) in *. inv_all. congruence.
      - inv_all. congruence. }
    rewrite (sig_data_ok OK) in SD by exact HE. inv_all.
    constructor; cbn [vf_data vf_c vf_nonce vf_hrand vf_eid vf_rh]; auto.
    - match goal with G : negb (geqb ?a gzero) = true |- ?a <> gzero =>
        intro Z; rewrite Z in G; rewrite (geqb_refl GO1) in G; discriminate end.
    - apply (gsub_zero KO GOT). match goal with G : geqb _ gzero = true |- _ => apply (gok_eqb GOT) in G; exact G end.
    - subst eid. destruct (verifyEIDNym vt sig); inv_all; eauto.
    - subst rh. destruct (verifyRHNym vt sig); inv_all; eauto.
    - destruct (sg_nonrev sig) as [n|]; cbn [deref] in *; inv_all; try discriminate.
      match goal with G : alg_none (nr_alg ?n) = true |- _ => exists n; split; [reflexivity|unfold alg_none in G; lia] end.
    - match goal with X : nth_res (map _ (sg_sattrs sig)) _ = Ok _ |- _ => apply nth_res_ok in X;
        assert (NN : nth_error (map (zr_of_bytes C) (sg_sattrs sig)) (searchInts (hiddenIndices disc) rhI) <> None) by congruence;
        apply nth_error_Some in NN; rewrite map_length in NN; lia end.
    - eauto.
  Qed.

  (** ** Linear reasoning in G1 *)
  Lemma glin1 (X Y L R : g1) k : L = R -> X ⊖ Y = (L ⊖ R) ⊗ k -> X = Y.
  Proof.
    intros -> E. apply (gsub_zero KO GO1). rewrite E, (gsub_diag KO GO1). apply (gmul_zero GO1).
  Qed.

  Lemma glin2 (X Y L R L' R' : g1) k k' : L = R -> L' = R' ->
    X ⊖ Y = (L ⊖ R) ⊗ k ⊕ (L' ⊖ R') ⊗ k' -> X = Y.
  Proof.
    intros -> -> E. apply (gsub_zero KO GO1). rewrite E, !(gsub_diag KO GO1), !(gmul_zero GO1).
    apply (gadd_zero_r GO1).
  Qed.

  Lemma zsub_nz (a b : zr) : a <> b -> a - b <> z0.
  Proof. intros N E. apply N. apply (zsub_zero KO). exact E. Qed.

  (** equal transcripts for the same disclosure and message have the same shape *)
  Lemma sig_string_same (t1 t2 t3 a b c n : g1) eid rh (t1' t2' t3' a' b' c' n' : g1) eid' rh' hash hash' disc msg :
    (rh <> None -> eid <> None) -> (rh' <> None -> eid' <> None) ->
    sig_string t1 t2 t3 a b c n eid rh hash disc msg = sig_string t1' t2' t3' a' b' c' n' eid' rh' hash' disc msg ->
    (t1, t2, t3, a, b, c, n, eid, rh) = (t1', t2', t3', a', b', c', n', eid', rh').
  Proof.
    intros I I' E.
    assert (L := f_equal (@length _) E). unfold sig_string in L.
    rewrite !app_length, !(pts_length OK), !fit_length in L.
    assert (L1 : length signLabel = 4) by reflexivity.
    assert (L2 : length signWithEidNymLabel = 14) by reflexivity.
    assert (L3 : length signWithEidNymRhNymLabel = 19) by reflexivity.
    assert (S : is_some eid = is_some eid' /\ is_some rh = is_some rh').
    { pose proof (ok_g1_size OK). unfold sig_points in L.
      destruct eid as [[]|], eid' as [[]|], rh as [[]|], rh' as [[]|];
        try (exfalso; apply I; congruence); try (exfalso; apply I'; congruence);
        cbn [is_some]; try (split; reflexivity); exfalso;
        unfold sig_label in L; rewrite ?L1, ?L2, ?L3 in L; cbn [app nym_list length] in L; lia. }
    destruct S as [S1 S2].
    exact (proj1 (@sig_string_points C OK _ _ _ _ _ _ _ _ _ _ _ _ _ _ _ _ _ _ _ _ _ _ _ _ S1 S2 E)).
  Qed.

  Lemma fo_order sig disc ipk msg vals rhI eidI vt B F a b c n :
    FirstOk sig disc ipk msg vals rhI eidI vt B F a b c n -> vf_rh F <> None -> vf_eid F <> None.
  Proof.
    intros O R. pose proof (fo_rh O) as X. pose proof (fo_eid O) as Y.
    destruct (verifyRHNym vt sig) eqn:E.
    - rewrite (rh_implies_eid _ _ E) in Y. destruct Y as [y [_ Y]]. congruence.
    - congruence.
  Qed.

  Lemma quot_map_gdot (ps : list g1) (c1 c2 : zr) (l1 l2 : list bytes) : length l1 = length l2 ->
    gdot ps (map (fun xy => quot c1 c2 (zr_of_bytes C (fst xy)) (zr_of_bytes C (snd xy))) (combine l1 l2))
    = (gdot ps (map (zr_of_bytes C) l1) ⊖ gdot ps (map (zr_of_bytes C) l2)) ⊗ zinv (c1 - c2).
  Proof.
    intro L. rewrite (gdot_sub OK) by (rewrite !map_length; exact L).
    rewrite (gdot_scale OK). f_equal. revert l2 L; induction l1 as [|x l1 IH]; intros [|y l2] L; try discriminate; [reflexivity|].
    cbn [combine map fst snd]. f_equal. apply IH. cbn in L; lia.
  Qed.

  Lemma nth_error_combine A A' (l : list A) : forall (l' : list A') k,
    nth_error (combine l l') k =
    match nth_error l k, nth_error l' k with Some a, Some b => Some (a, b) | _, _ => None end.
  Proof.
    induction l as [|a l IH]; intros [|b l'] [|k]; cbn [combine nth_error]; try reflexivity.
    - destruct (nth_error l k); reflexivity.
    - apply IH.
  Qed.

  Lemma recompute_t4_inv an ipk j hidden sattrs c x B :
    ipk_bases T ipk B ->
    recompute_t4 T an ipk (Z.of_nat j) hidden sattrs (b_hrand B) c = Ok x ->
    exists n h s m, an = Some n /\ nth_error (b_attrs B) j = Some h /\
      nth_error sattrs (searchInts hidden (Z.of_nat j)) = Some s /\
      g1_from_proto T (an_nym n) = Ok m /\
      x = (m, gmul2 h s (b_hrand B) (zr_of_bytes C (ob (an_s n))) ⊖ m ⊗ c).
  Proof.
    intros (_ & _ & Hattrs & _) R. unfold recompute_t4 in R. rewrite znth_nat in R. inv_all.
    match goal with X : nth_res (ip_hattrs ipk) j = Ok _ |- _ => apply nth_res_ok in X;
      destruct (map_res_nth _ _ _ Hattrs X) as [h [Hh1 Hh2]] end.
    match goal with X : nth_res sattrs _ = Ok _ |- _ => apply nth_res_ok in X end.
    destruct an as [n|]; cbn [deref] in *; [|discriminate]. inv_all.
    repeat eexists; eauto. congruence.
  Qed.

  Section Two.
    Variables (sig1 sig2 : Signature) (disc : bytes) (ipk : IssuerPublicKey) (msg : bytes)
      (vals : list (option zr)) (rhI eidI : Z) (vt : VerificationType) (B : Bases C) (F1 F2 : VerFirst C).
    Hypothesis HB : ipk_bases T ipk B.
    Hypothesis V1 : Ver_first T sig1 disc ipk msg vals rhI eidI vt = Ok F1.
    Hypothesis V2 : Ver_first T sig2 disc ipk msg vals rhI eidI vt = Ok F2.
    Hypothesis Same : vf_data F1 = vf_data F2.
    Hypothesis Diff : vf_c F1 <> vf_c F2.

    Let w := extract T disc vals sig1 sig2.

    Lemma two_facts : exists APrime ABar BPrime Nym,
      FirstOk sig1 disc ipk msg vals rhI eidI vt B F1 APrime ABar BPrime Nym /\
      FirstOk sig2 disc ipk msg vals rhI eidI vt B F2 APrime ABar BPrime Nym /\
      let z := zr_of_bytes C in
      t1_of APrime ABar BPrime (b_hrand B) (z (sg_c sig1)) (z (sg_se sig1)) (z (sg_sr2 sig1))
      = t1_of APrime ABar BPrime (b_hrand B) (z (sg_c sig2)) (z (sg_se sig2)) (z (sg_sr2 sig2)) /\
      t2_of B disc vals BPrime (z (sg_c sig1)) (z (sg_ssprime sig1)) (z (sg_sr3 sig1)) (z (sg_ssk sig1)) (map z (sg_sattrs sig1))
      = t2_of B disc vals BPrime (z (sg_c sig2)) (z (sg_ssprime sig2)) (z (sg_sr3 sig2)) (z (sg_ssk sig2)) (map z (sg_sattrs sig2)) /\
      t3_of B Nym (z (sg_c sig1)) (z (sg_ssk sig1)) (z (sg_srnym sig1))
      = t3_of B Nym (z (sg_c sig2)) (z (sg_ssk sig2)) (z (sg_srnym sig2)) /\
      vf_eid F1 = vf_eid F2 /\ vf_rh F1 = vf_rh F2.
    Proof.
      edestruct Ver_first_inv as (a & b & c & n & O1); [exact HB|exact V1|].
      edestruct Ver_first_inv as (a' & b' & c' & n' & O2); [exact HB|exact V2|].
      pose proof Same as E. rewrite (fo_data O1), (fo_data O2) in E.
      apply sig_string_same in E; [|exact (fo_order O1)|exact (fo_order O2)].
      inversion E as [[E1 E2 E3 E4 E5 E6 E7 E8 E9]]. subst a' b' c' n'.
      exists a, b, c, n. cbv zeta. auto 10.
    Qed.

    Lemma c_nz : zr_of_bytes C (sg_c sig1) - zr_of_bytes C (sg_c sig2) <> z0.
    Proof.
      destruct two_facts as (a & b & c & n & O1 & O2 & _).
      apply zsub_nz. rewrite <- (fo_c O1), <- (fo_c O2). exact Diff.
    Qed.

    Lemma extract_hid_len :
      length (map (fun xy => quot (zr_of_bytes C (sg_c sig1)) (zr_of_bytes C (sg_c sig2))
             (zr_of_bytes C (fst xy)) (zr_of_bytes C (snd xy))) (combine (sg_sattrs sig1) (sg_sattrs sig2))) = nhid disc.
    Proof.
      destruct two_facts as (a & b & c & n & O1 & O2 & _).
      rewrite map_length, combine_length, (fo_len O1), (fo_len O2). apply Nat.min_id.
    Qed.

    Lemma extract_attrs_len : length (w_attrs w) = length disc.
    Proof.
      destruct two_facts as (a & b & c & n & O1 & O2 & _).
      unfold w, extract. cbn [w_attrs]. apply merge_length; [apply extract_hid_len|exact (fo_vals O1)].
    Qed.

    Lemma extract_agrees : agrees_on_disclosed disc vals (w_attrs w).
    Proof.
      destruct two_facts as (a & b & c & n & O1 & O2 & _).
      unfold w, extract. cbn [w_attrs]. intros i d Hi Hd.
      eapply merge_vals; eauto; [apply extract_hid_len|exact (fo_vals O1)].
    Qed.

    Lemma extract_bbs : bbs_valid B (w_A w) (w_e w) (w_s w) (w_sk w) (w_attrs w).
    Proof.
      destruct two_facts as (a & b & c & n & O1 & O2 & E1 & E2 & _). cbv zeta in *.
      pose proof c_nz as NZ. pose proof extract_hid_len as HL.
      unfold bbs_valid. unfold w, extract. cbn [w_A w_e w_s w_sk w_attrs]. rewrite (fo_a O1).
      rewrite (ok_pair_add_l OK), (ok_pair_mul_l OK), (ok_pair_mul_r OK), (fo_pair O1), (ok_pair_mul_r OK).
      rewrite <- !(ok_pair_mul_r OK), <- (ok_pair_add_r OK). f_equal.
      unfold cred_base. rewrite (gdot_merge OK) by first [exact HL|exact (fo_bases O1)|exact (fo_vals O1)].
      rewrite quot_map_gdot by (rewrite (fo_len O1), (fo_len O2); reflexivity).
      unfold t1_of in E1. unfold t2_of in E2. unfold quot.
      set (c1 := zr_of_bytes C (sg_c sig1)) in *. set (c2 := zr_of_bytes C (sg_c sig2)) in *.
      set (r31 := zr_of_bytes C (sg_sr3 sig1)) in *. set (r32 := zr_of_bytes C (sg_sr3 sig2)) in *.
      apply (@glin2 _ _ _ _ _ _ ((r31 - r32) * zinv (c1 - c2) * zinv (c1 - c2)) (- zinv (c1 - c2)) E1 E2).
      gnorm KO GO1; field; exact NZ.
    Qed.

    Lemma extract_nym Nym : g1_from_proto T (sg_nym sig1) = Ok Nym ->
      opens (b_hsk B) (b_hrand B) Nym (w_sk w) (w_rnym w).
    Proof.
      intro HN. destruct two_facts as (a & b & c & n & O1 & O2 & _ & _ & E3 & _). cbv zeta in *.
      pose proof c_nz as NZ. rewrite (fo_nym O1) in HN. inversion HN; subst n.
      unfold opens, w, extract. cbn [w_sk w_rnym]. unfold t3_of in E3. unfold quot.
      set (c1 := zr_of_bytes C (sg_c sig1)) in *. set (c2 := zr_of_bytes C (sg_c sig2)) in *.
      apply (@glin1 _ _ _ _ (- zinv (c1 - c2)) E3).
      gnorm KO GO1; field; exact NZ.
    Qed.

    Lemma extract_attr_nym (nymOf : Signature -> option AttrNym) j x :
      recompute_t4 T (nymOf sig1) ipk (Z.of_nat j) (hiddenIndices disc)
        (map (zr_of_bytes C) (sg_sattrs sig1)) (b_hrand B) (zr_of_bytes C (sg_c sig1)) = Ok x ->
      recompute_t4 T (nymOf sig2) ipk (Z.of_nat j) (hiddenIndices disc)
        (map (zr_of_bytes C) (sg_sattrs sig2)) (b_hrand B) (zr_of_bytes C (sg_c sig2)) = Ok x ->
      hidden_at disc j ->
      exists Hj a, nth_error (b_attrs B) j = Some Hj /\ nth_error (w_attrs w) j = Some a /\
        opens Hj (b_hrand B) (fst x) a
          (quot (zr_of_bytes C (sg_c sig1)) (zr_of_bytes C (sg_c sig2))
                (zr_of_bytes C (nym_s (nymOf sig1))) (zr_of_bytes C (nym_s (nymOf sig2)))).
    Proof.
      intros R1 R2 Hid. destruct two_facts as (a & b & c & n & O1 & O2 & _).
      pose proof c_nz as NZ. pose proof extract_hid_len as HL.
      destruct (recompute_t4_inv _ _ _ _ _ HB R1) as (n1 & h1 & s1 & m1 & Q1 & Q2 & Q3 & Q4 & Q5).
      destruct (recompute_t4_inv _ _ _ _ _ HB R2) as (n2 & h2 & s2 & m2 & Z1 & Z2 & Z3 & Z4 & Z5).
      assert (h1 = h2) by congruence. subst h2.
      rewrite Q5 in Z5. inversion Z5 as [[Em Et]]. subst m2. clear Z5.
      exists h1. rewrite Q1, Z1. cbn [nym_s]. unfold w, extract. cbn [w_attrs].
      set (hid := map _ (combine _ _)) in *.
      assert (ML : length (merge disc hid vals) = length disc) by (apply merge_length; [exact HL|exact (fo_vals O1)]).
      pose proof (hsel_searchInts disc 0 j (merge disc hid vals) Hid ltac:(lia)) as HS.
      rewrite merge_hsel in HS by first [exact HL|exact (fo_vals O1)].
      cbn [Nat.add] in HS. change (hidden_from 0 disc) with (hiddenIndices disc) in HS.
      exists (quot (zr_of_bytes C (sg_c sig1)) (zr_of_bytes C (sg_c sig2)) s1 s2).
      split; [exact Q2|]. split.
      - rewrite <- HS. unfold hid. 
        rewrite nth_error_map in Q3, Z3 |- *. set (k := searchInts _ _) in *.
        rewrite nth_error_combine.
        destruct (nth_error (sg_sattrs sig1) k) as [y1|]; [|discriminate].
        destruct (nth_error (sg_sattrs sig2) k) as [y2|]; [|discriminate].
        cbn [option_map fst snd] in *. inversion Q3; inversion Z3; subst. reflexivity.
      - rewrite Q5. cbn [fst]. unfold opens, quot.
        set (c1 := zr_of_bytes C (sg_c sig1)) in *. set (c2 := zr_of_bytes C (sg_c sig2)) in *.
        apply (@glin1 _ _ _ _ (- zinv (c1 - c2)) Et).
        gnorm KO GO1; field; exact NZ.
    Qed.
  End Two.
End Sound.
