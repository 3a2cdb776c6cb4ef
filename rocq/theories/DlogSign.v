(** Completeness of dlog signatures: what finalise returns, and why Ver accepts it. *)
From Verif Require Import Base Curve Algebra Spec Dlog DlogSpec DlogFacts DlogData DlogSound DlogComplete.
From Coq Require Import Field Ring.

Section Sign.
  Context {C : Curve} (OK : CurveOk C).
  Variable H : hasher C.
  Variable T : translator C.
  Hypothesis TO : TrOk T.
  Let KO := ok_zr OK.
  Let GO1 := ok_g1 OK.
  Let GO2 := ok_g2 OK.
  Let GOT := ok_gt OK.
  Add Field Kf_sign : (sok_field KO).
  Notation zr := (zcar (Zr C)).
  Notation g1 := (gcar (G1 C)).
  Local Open Scope zr_scope.

  (** the challenge computed from a transcript *)
  Definition chal (pd : bytes) (nonce : zr) : zr := H (zr_bytes C (H pd) ++ zr_bytes C nonce).

  Definition sig_of (P : Prepared C) (R : SigRand C) (cred : Credential) (cri : CRI) (sk : zr) (Nym : g1) (RNym : zr)
      (disc : bytes) (eid rh : option (g1 * g1 * zr * zr)) (c : zr) : Signature :=
    {| sg_aprime := Some (g1_to_proto T (pr_aprime P));
       sg_abar := Some (g1_to_proto T (pr_abar P));
       sg_bprime := Some (g1_to_proto T (pr_bprime P));
       sg_c := zr_bytes C c;
       sg_ssk := zr_bytes C (rd_rsk R + c * sk);
       sg_se := zr_bytes C (rd_re R - c * pr_e P);
       sg_sr2 := zr_bytes C (rd_rr2 R + c * rd_r2 R);
       sg_sr3 := zr_bytes C (rd_rr3 R - c * pr_r3 P);
       sg_ssprime := zr_bytes C (rd_rsprime R + c * pr_sprime P);
       sg_sattrs := map (fun xy => zr_bytes C (fst xy + c * snd xy))
          (combine (pr_rattrs P) (hsel disc (map (fun a => zr_of_bytes C (ob a)) (cr_attrs cred))));
       sg_nonce := zr_bytes C (rd_nonce R);
       sg_nym := Some (g1_to_proto T Nym);
       sg_srnym := zr_bytes C (rd_rrnym R + c * RNym);
       sg_epochpk := cri_epochpk cri;
       sg_pksig := cri_sig cri;
       sg_epoch := cri_epoch cri;
       sg_nonrev := Some {| nr_alg := 0 |};
       sg_eid := attr_sig T eid (rd_r_eid R) c;
       sg_rh := attr_sig T rh (rd_r_rh R) c |}.

  Definition md_of (we : bool) (eid rh : option (g1 * g1 * zr * zr)) : option (Metadata C) :=
    if we then Some {| md_eid := []; md_eid_data := attr_audit eid; md_rh := []; md_rh_data := attr_audit rh |}
    else None.

  (** finalise's two optional commitments *)
  Definition fin_nym (w : bool) cred ipk idx meta P rr fresh (x : option (g1 * g1 * zr * zr)) : Prop :=
    if w then exists y, finalise_nym T cred ipk idx meta (pr_hidden P) (pr_rattrs P) fresh rr = Ok y /\ x = Some y
    else x = None.

  Lemma finalise_ok cred sk Nym RNym ipk disc msg rhI eidI cri P R (we wr : bool) meta eid rh :
    (wr = true -> we = true) ->
    length (cr_attrs cred) = length disc ->
    pr_hidden P = hiddenIndices disc -> length (pr_rattrs P) = nhid disc ->
    fin_nym we cred ipk eidI (opt_map (@md_eid_data C) meta) P (rd_r_eid R) (rd_eid R) eid ->
    fin_nym wr cred ipk rhI (opt_map (@md_rh_data C) meta) P (rd_r_rh R) (rd_rh R) rh ->
    finalise H T cred sk Nym RNym ipk disc msg rhI eidI cri P R we wr meta =
    Ok (sig_of P R cred cri sk Nym RNym disc eid rh
          (chal (sig_string (pr_t1 P) (pr_t2 P) (pr_t3 P) (pr_aprime P) (pr_abar P) (pr_bprime P) Nym
                   (attr_pts eid) (attr_pts rh) (ip_hash ipk) disc msg) (rd_nonce R)),
        md_of we eid rh).
  Proof.
    intros Hw La Hh Lr He Hr. unfold finalise.
    match goal with |- (let* e := ?X in _) = _ => replace X with (Ok eid) end.
    2:{ unfold fin_nym in He. destruct we; [destruct He as [x [-> ->]]; reflexivity|subst; reflexivity]. }
    cbn [bind].
    match goal with |- (let* e := ?X in _) = _ => replace X with (Ok rh) end.
    2:{ unfold fin_nym in Hr. destruct wr; [destruct Hr as [x [-> ->]]; reflexivity|subst; reflexivity]. }
    cbn [bind].
    change (match eid with Some (n, t, _, _) => Some (n, t) | None => None end) with (attr_pts eid).
    change (match rh with Some (n, t, _, _) => Some (n, t) | None => None end) with (attr_pts rh).
    rewrite (sig_data_ok OK).
    2:{ intro N. unfold fin_nym in *. destruct wr.
        - rewrite Hw in He by reflexivity. destruct He as [[[[? ?] ?] ?] [_ ->]]. discriminate.
        - subst rh. cbn in N. congruence. }
    cbn [bind]. rewrite (challenge_ok OK) by apply (sig_string_length OK). cbn [bind].
    rewrite Hh.
    match goal with |- context [sig_string ?a ?b ?c ?d ?e ?f ?g ?h ?i ?j ?k ?l] =>
      set (S := sig_string a b c d e f g h i j k l) end.
    change (H (zr_bytes C (H S) ++ zr_bytes C (rd_nonce R))) with (chal S (rd_nonce R)).
    set (c := chal S (rd_nonce R)).
    pose proof (map_res_hidden disc [] (cr_attrs cred)) as MH.
    specialize (MH ltac:(lia)). cbn [app length] in MH.
    change (hidden_from 0 disc) with (hiddenIndices disc) in MH.
    assert (Lh : length (pr_rattrs P) = length (hiddenIndices disc)) by (rewrite hidden_nhid; exact Lr).
    pose proof (@sattrs_loop C (fun r a => zr_bytes C (r + c * zr_of_bytes C (ob a))) (cr_attrs cred)
      (pr_rattrs P) [] (hiddenIndices disc) (hsel disc (cr_attrs cred)) 0 eq_refl Lh MH) as SL.
    cbn [app] in SL. unfold bytes in *. rewrite SL. cbn [bind].
    unfold sig_of, md_of. rewrite combine_hsel_map, map_map. reflexivity.
  Qed.

  Lemma finalise_nyms cred sk Nym RNym ipk disc msg rhI eidI cri P R (we wr : bool) meta x :
    finalise H T cred sk Nym RNym ipk disc msg rhI eidI cri P R we wr meta = Ok x ->
    exists eid rh,
      fin_nym we cred ipk eidI (opt_map (@md_eid_data C) meta) P (rd_r_eid R) (rd_eid R) eid /\
      fin_nym wr cred ipk rhI (opt_map (@md_rh_data C) meta) P (rd_r_rh R) (rd_rh R) rh.
  Proof.
    intro E. unfold finalise in E. apply bind_ok in E. destruct E as [eid [E1 E]].
    apply bind_ok in E. destruct E as [rh [E2 _]]. exists eid, rh. unfold fin_nym.
    split; [destruct we|destruct wr]; inv_all; eauto.
  Qed.

  (** ** The verifier accepts *)
  Lemma sig_of_types st vt P R cred cri sk Nym RNym disc eid rh c :
    compatible st vt = true ->
    (if with_eid st then exists y, eid = Some y else eid = None) ->
    (if with_rh st then exists y, rh = Some y else rh = None) ->
    let s := sig_of P R cred cri sk Nym RNym disc eid rh c in
    type_checks vt s = true /\ verifyEIDNym vt s = with_eid st /\ verifyRHNym vt s = with_rh st.
  Proof.
    intros Hc He Hr. unfold sig_of. cbn.
    assert (He' : eid = None \/ exists a b c d, eid = Some (a, b, c, d)).
    { destruct eid as [[[[a b] c'] d]|]; [right; repeat eexists|left; reflexivity]. }
    assert (Hr' : rh = None \/ exists a b c d, rh = Some (a, b, c, d)).
    { destruct rh as [[[[a b] c'] d]|]; [right; repeat eexists|left; reflexivity]. }
    destruct st; try discriminate; cbn [with_eid with_rh] in *;
      destruct He' as [->|(? & ? & ? & ? & ->)]; try discriminate; try (destruct He; discriminate);
      destruct Hr' as [->|(? & ? & ? & ? & ->)]; try discriminate; try (destruct Hr; discriminate);
      destruct vt; try discriminate; cbn; auto.
  Qed.

  Lemma check_meta_own cred ipk B j meta hidden rattrs fresh rr n t r a :
    ipk_bases T ipk B ->
    finalise_nym T cred ipk (Z.of_nat j) meta hidden rattrs fresh rr = Ok (n, t, r, a) ->
    check_meta T n (attr_audit (Some (n, t, r, a))) [] ipk (Z.of_nat j) (b_hrand B) = Ok tt.
  Proof.
    intros HB E. edestruct (finalise_nym_inv OK) as (Hj & ab & ra & Q1 & Q2 & Q3 & Q4 & Q5 & Q6 & _); [exact HB|exact E|].
    destruct HB as (_ & HB2 & HB3 & _).
    unfold check_meta. cbn [attr_audit au_attr au_rand au_nym deref]. rewrite znth_nat.
    assert (exists h, nth_error (ip_hattrs ipk) j = Some h) as [h Hh].
    { destruct (nth_error (ip_hattrs ipk) j) eqn:N; [eauto|]. exfalso.
      apply nth_error_None in N. apply map_res_length in HB3.
      assert (j < length (b_attrs B)) by (apply nth_error_Some; congruence). lia. }
    destruct (map_res_nth _ _ _ HB3 Hh) as [h' [P1 P2]]. assert (h' = Hj) by congruence. subst h'.
    unfold nth_res. rewrite Hh. cbn [bind]. rewrite P1. cbn [bind]. rewrite <- Q5, !(geqb_refl GO1). reflexivity.
  Qed.

  Lemma sign_verifies cred sk Nym RNym ipk B disc msg rhI eidI cri R st meta sig md vals vt vmeta revpk (rev : revpk) epoch EP :
    ipk_bases T ipk B ->
    verCredential T cred sk ipk = Ok tt ->
    length (cr_attrs cred) = length disc ->
    (forall A, g1_from_proto T (cr_a cred) = Ok A -> A <> gzero) ->
    rd_r1 R <> z0 ->
    opens (b_hsk B) (b_hrand B) Nym sk RNym ->
    agrees_on_disclosed disc vals (map (fun a => zr_of_bytes C (ob a)) (cr_attrs cred)) ->
    g2_from_proto T (cri_epochpk cri) = Ok EP ->
    compatible st vt = true ->
    vmeta = None \/ vmeta = md ->
    NewSignature H T (Some cred) (Some sk) (Some Nym) (Some RNym) (Some ipk) disc msg rhI eidI (Some cri) R st meta = Ok (sig, md) ->
    Ver H T sig disc (Some ipk) msg vals rhI eidI rev epoch vt vmeta = Ok tt.
  Proof.
    intros HB HC La HA Hr1 Hnym Hag HE Hcomp Hvm E.
    apply (verCredential_iff OK) with (B := B) in HC; [|exact HB].
    destruct HC as (A & e & s & attrs & (M1 & M2 & M3 & M4) & FA & LL & HBp & BV).
    assert (La' : length attrs = length disc) by (rewrite <- M4, map_length; exact La).
    rewrite M4 in Hag. specialize (HA _ M1).
    destruct (merge_split disc attrs vals La' Hag) as [MS VO].
    (* unfold the dispatcher *)
    assert (exists P eid rh, prepare T cred sk ipk disc rhI cri R = Ok P /\
      fin_nym (with_eid st) cred ipk eidI (opt_map (@md_eid_data C) meta) P (rd_r_eid R) (rd_eid R) eid /\
      fin_nym (with_rh st) cred ipk rhI (opt_map (@md_rh_data C) meta) P (rd_r_rh R) (rd_rh R) rh /\
      (with_eid st = true -> exists j, eidI = Z.of_nat j /\ hidden_at disc j) /\
      (with_rh st = true -> exists j, rhI = Z.of_nat j /\ hidden_at disc j) /\
      finalise H T cred sk Nym RNym ipk disc msg rhI eidI cri P R (with_eid st) (with_rh st) meta = Ok (sig, md))
      as (P & eid & rh & EP1 & Fe & Fr & Je & Jr & EF).
    { assert (ZN : forall k d, znth disc k = Ok d -> byte_eqb d b0 = true -> exists j, k = Z.of_nat j /\ hidden_at disc j).
      { intros k d Hk Hd. unfold znth in Hk. destruct (k <? 0)%Z eqn:K; [discriminate|].
        exists (Z.to_nat k). split; [lia|]. apply nth_res_ok in Hk. unfold hidden_at. rewrite Hk.
        destruct (byte_eqb_spec d b0); congruence. }
      destruct st; try discriminate; cbn [NewSignature with_eid with_rh] in *; inv_all;
        match goal with X : finalise _ _ _ _ _ _ _ _ _ _ _ _ ?P _ _ _ _ = _ |- _ =>
          destruct (finalise_nyms _ _ _ _ _ _ _ _ _ _ _ _ _ _ _ X) as (eid & rh & F1 & F2);
          exists P, eid, rh end;
        repeat split; eauto; discriminate. }
    edestruct (prepare_inv OK) as (A' & Bv & I1 & I2 & I3 & I4 & I5 & EPr); [exact HB| |exact EP1|]; [lia|].
    assert (A' = A) by congruence. subst A'. assert (Bv = cred_base B s sk attrs) by congruence. subst Bv.
    cbv zeta in EPr.
    assert (RA : pr_rattrs P = map (rd_rattrs R) (seq 0 (nhid disc))) by (rewrite EPr; reflexivity).
    assert (RAl : length (pr_rattrs P) = nhid disc) by (rewrite RA, map_length, seq_length; reflexivity).
    assert (PH : pr_hidden P = hiddenIndices disc) by (rewrite EPr; reflexivity).
    assert (Hwr : with_rh st = true -> with_eid st = true) by (destruct st; cbn; congruence).
    rewrite (@finalise_ok cred sk Nym RNym ipk disc msg rhI eidI cri P R _ _ meta eid rh Hwr La PH RAl Fe Fr) in EF.
    match type of EF with context [chal ?s ?n] => set (pd := s) in *; set (c := chal pd n) in * end.
    injection EF as ES EM.
    pose proof (@sig_of_types st vt P R cred cri sk Nym RNym disc eid rh c Hcomp) as TY.
    assert (Pe : if with_eid st then exists y, eid = Some y else eid = None).
    { unfold fin_nym in Fe. destruct (with_eid st); [destruct Fe as [y [_ ->]]; eauto|exact Fe]. }
    assert (Pr : if with_rh st then exists y, rh = Some y else rh = None).
    { unfold fin_nym in Fr. destruct (with_rh st); [destruct Fr as [y [_ ->]]; eauto|exact Fr]. }
    specialize (TY Pe Pr). cbv zeta in TY. rewrite ES in TY. destruct TY as (TY1 & TY2 & TY3).
    assert (F1 : g1_from_proto T (sg_aprime sig) = Ok (pr_aprime P)) by (rewrite <- ES; apply (tr_g1 TO)).
    assert (F2 : g1_from_proto T (sg_abar sig) = Ok (pr_abar P)) by (rewrite <- ES; apply (tr_g1 TO)).
    assert (F3 : g1_from_proto T (sg_bprime sig) = Ok (pr_bprime P)) by (rewrite <- ES; apply (tr_g1 TO)).
    assert (F4 : g1_from_proto T (sg_nym sig) = Ok Nym) by (rewrite <- ES; apply (tr_g1 TO)).
    assert (SA : map (zr_of_bytes C) (sg_sattrs sig) =
                 map (fun xy => fst xy + c * snd xy) (combine (pr_rattrs P) (hsel disc attrs))).
    { rewrite <- ES. cbn [sg_sattrs sig_of]. rewrite M4, (zfb_zb_map OK). reflexivity. }
    assert (LHS : length (hsel disc attrs) = nhid disc) by (apply hsel_nhid; lia).
    assert (LS : length (sg_sattrs sig) = nhid disc).
    { rewrite <- ES. cbn [sg_sattrs sig_of]. rewrite M4, map_length, combine_length. lia. }
    assert (EC : zr_of_bytes C (sg_c sig) = c) by (rewrite <- ES; apply (zfb_zb OK)).
    assert (NZ : pr_aprime P <> gzero).
    { rewrite EPr. cbn [pr_aprime]. intro Z0. apply Hr1. apply (@gmul_faithful _ _ KO GO1 A); [exact HA|].
      rewrite (gmul_0 KO GO1). exact Z0. }
    assert (PA : pair C (b_w B) (pr_aprime P) = pair C (genG2 C) (pr_abar P)).
    { rewrite EPr. cbn [pr_aprime pr_abar]. unfold bbs_valid in BV. rewrite M2.
      rewrite (ok_pair_add_l OK), (ok_pair_mul_l OK) in BV.
      rewrite (pair_sub_r OK), !(ok_pair_mul_r OK), <- BV. gnorm KO GOT; ring. }
    unfold Ver. cbn [opt_err bind].
    erewrite (Ver_first_ok OK) with (eid := attr_pts eid) (rh := attr_pts rh);
      [|exact HB|exact I3|exact TY1|exact F1|exact F2|exact F3|exact F4|exact NZ|exact PA|exact LS|lia|exact VO| | |rewrite <- ES; reflexivity|reflexivity|exact I5|rewrite <- ES; exact HE].
    2:{ rewrite TY2. unfold fin_nym in Fe. destruct (with_eid st); [|subst eid; reflexivity].
        destruct Fe as [[[[n t] r] a] [Fe ->]]. destruct (Je eq_refl) as [j [-> Hj]].
        exists (n, t). split; [|reflexivity]. rewrite SA, EC. rewrite PH in Fe.
        rewrite <- ES. cbn [sg_eid sig_of].
        eapply (recompute_ok OK TO); [exact HB|exact M4|exact La'|exact RAl|exact Hj|exact Fe]. }
    2:{ rewrite TY3. unfold fin_nym in Fr. destruct (with_rh st); [|subst rh; reflexivity].
        destruct Fr as [[[[n t] r] a] [Fr ->]]. destruct (Jr eq_refl) as [j [-> Hj]].
        exists (n, t). split; [|reflexivity]. rewrite SA, EC. rewrite PH in Fr.
        rewrite <- ES. cbn [sg_rh sig_of].
        eapply (recompute_ok OK TO); [exact HB|exact M4|exact La'|exact RAl|exact Hj|exact Fr]. }
    cbn [bind vf_data vf_c vf_nonce vf_hrand vf_eid vf_rh].
    rewrite (challenge_ok OK) by apply (sig_string_length OK). cbn [bind].
    assert (ZE : zr_of_bytes C (sg_se sig) = rd_re R - c * pr_e P) by (rewrite <- ES; apply (zfb_zb OK)).
    assert (ZR2 : zr_of_bytes C (sg_sr2 sig) = rd_rr2 R + c * rd_r2 R) by (rewrite <- ES; apply (zfb_zb OK)).
    assert (ZR3 : zr_of_bytes C (sg_sr3 sig) = rd_rr3 R - c * pr_r3 P) by (rewrite <- ES; apply (zfb_zb OK)).
    assert (ZSP : zr_of_bytes C (sg_ssprime sig) = rd_rsprime R + c * pr_sprime P) by (rewrite <- ES; apply (zfb_zb OK)).
    assert (ZSK : zr_of_bytes C (sg_ssk sig) = rd_rsk R + c * sk) by (rewrite <- ES; apply (zfb_zb OK)).
    assert (ZRN : zr_of_bytes C (sg_srnym sig) = rd_rrnym R + c * RNym) by (rewrite <- ES; apply (zfb_zb OK)).
    assert (ZN : zr_of_bytes C (sg_nonce sig) = rd_nonce R) by (rewrite <- ES; apply (zfb_zb OK)).
    rewrite EC, ZE, ZR2, ZR3, ZSP, ZSK, ZRN, ZN, SA.
    match goal with |- context [sig_string ?x1 ?x2 ?x3] =>
      replace x1 with (pr_t1 P); [replace x2 with (pr_t2 P); [replace x3 with (pr_t3 P)|]|] end.
    - change (sig_string (pr_t1 P) (pr_t2 P) (pr_t3 P) (pr_aprime P) (pr_abar P) (pr_bprime P) Nym
                   (attr_pts eid) (attr_pts rh) (ip_hash ipk) disc msg) with pd.
      change (H (zr_bytes C (H pd) ++ zr_bytes C (rd_nonce R))) with c.
      match goal with |- (let* _ := ?X in _) = _ => replace X with (Ok tt) end.
      2:{ destruct Hvm as [->| ->]; [destruct (attr_pts eid) as [[? ?]|]; reflexivity|].
          rewrite <- EM. unfold fin_nym in Fe. unfold md_of. destruct (with_eid st); [|subst eid; reflexivity].
          destruct Fe as [[[[n t] r] a] [Fe ->]]. destruct (Je eq_refl) as [j [-> Hj]].
          cbn [attr_pts md_eid_data md_eid]. symmetry. eapply check_meta_own; [exact HB|exact Fe]. }
      cbn [bind].
      match goal with |- (let* _ := ?X in _) = _ => replace X with (Ok tt) end.
      2:{ destruct Hvm as [->| ->]; [destruct (attr_pts rh) as [[? ?]|]; reflexivity|].
          rewrite <- EM. unfold fin_nym in Fr. unfold md_of. destruct (with_rh st) eqn:WR.
          - rewrite (Hwr eq_refl).
            destruct Fr as [[[[n t] r] a] [Fr ->]]. destruct (Jr eq_refl) as [j [-> Hj]].
            cbn [attr_pts md_rh_data md_rh]. symmetry. eapply check_meta_own; [exact HB|exact Fr].
          - subst rh. destruct (with_eid st); reflexivity. }
      cbn [bind]. rewrite (zeqb_refl KO). reflexivity.
    - rewrite EPr. cbn [pr_t3]. unfold t3_of. unfold opens in Hnym. rewrite Hnym. gnorm KO GO1; ring.
    - unfold t2_of. rewrite <- gdot_comb by (exact OK || lia).
      rewrite EPr. cbn [pr_t2 pr_sprime pr_r3 pr_bprime pr_rattrs].
      assert (GM := gdot_merge OK disc (b_attrs B) (hsel disc attrs) vals ltac:(lia) LHS VO).
      rewrite MS in GM. unfold cred_base. rewrite M3, GM.
      set (U := gdot (hsel disc (b_attrs B)) (map (rd_rattrs R) (seq 0 (nhid disc)))).
      set (V := gdot (hsel disc (b_attrs B)) (hsel disc attrs)).
      set (W := dsum disc (b_attrs B) vals).
      gnorm KO GO1; field; exact Hr1.
    - rewrite EPr. unfold t1_of. cbn [pr_t1 pr_aprime pr_abar pr_bprime pr_e]. gnorm KO GO1; ring.
  Qed.

  Lemma prepare_ok cred sk ipk B disc rh cri R :
    ipk_bases T ipk B ->
    verCredential T cred sk ipk = Ok tt ->
    length (cr_attrs cred) = length disc ->
    length (ip_names ipk) = length disc ->
    rh < length disc ->
    searchInts (hiddenIndices disc) (Z.of_nat rh) < nhid disc ->
    cri_alg cri = 0%Z ->
    exists P, prepare T cred sk ipk disc (Z.of_nat rh) cri R = Ok P.
  Proof.
    intros HB HC La Ln Hrh Hs Hal.
    apply (verCredential_iff OK) with (B := B) in HC; [|exact HB].
    destruct HC as (A & e & s & attrs & (M1 & M2 & M3 & M4) & FA & LL & HBp & BV).
    assert (La' : length attrs = length disc) by (rewrite <- M4, map_length; exact La).
    destruct HB as (HB1 & HB2 & HB3 & HB4).
    unfold prepare, parse_points, valid_input. rewrite !znth_nat.
    rewrite Ln, Nat.eqb_refl.
    replace ((Z.of_nat rh <? 0)%Z || (Z.of_nat (length disc) <=? Z.of_nat rh)%Z) with false by lia.
    cbn [negb andb guard bind].
    destruct (@nth_res_lt _ disc rh) as [d ->]; [exact Hrh|]. cbn [bind].
    unfold alg_none. rewrite Hal. cbn [Z.eqb negb andb guard bind].
    rewrite M1, HBp, HB1, HB2, HB3. cbn [bind].
    destruct (@nth_res_lt _ (cr_attrs cred) rh) as [a ->]; [lia|]. cbn [bind].
    rewrite hidden_nhid.
    destruct (@nth_res_lt _ (map (rd_rattrs R) (seq 0 (nhid disc))) (searchInts (hiddenIndices disc) (Z.of_nat rh))) as [x ->];
      [rewrite map_length, seq_length; exact Hs|]. cbn [bind].
    pose proof (map_res_hidden disc [] (b_attrs B)) as MH. specialize (MH ltac:(lia)). cbn [app length] in MH.
    change (hidden_from 0 disc) with (hiddenIndices disc) in MH. rewrite MH. cbn [bind].
    rewrite (loop2_ok OK) by (rewrite ?map_length, ?seq_length, ?hsel_nhid; lia). cbn [bind]. eauto.
  Qed.

  (** what a caller may pass as signing metadata for the commitment to attribute j *)
  Definition meta_ok (ipk : IssuerPublicKey) (B : Bases C) (cred : Credential) (j : nat)
      (m : option (option (AuditData C))) : Prop :=
    m = None \/ exists Hj ab d, nth_error (b_attrs B) j = Some Hj /\ nth_error (cr_attrs cred) j = Some ab /\
      m = Some d /\ opening_ok Hj (b_hrand B) (zr_of_bytes C (ob ab)) d.

  Lemma sign_succeeds cred sk Nym RNym ipk B disc msg rh eid cri R st meta :
    ipk_bases T ipk B ->
    verCredential T cred sk ipk = Ok tt ->
    length (cr_attrs cred) = length disc ->
    length (ip_names ipk) = length disc ->
    rh < length disc ->
    searchInts (hiddenIndices disc) (Z.of_nat rh) < nhid disc ->
    cri_alg cri = 0%Z ->
    In st [Standard; EidNym; EidNymRhNym] ->
    (with_eid st = true -> hidden_at disc eid /\ meta_ok ipk B cred eid (opt_map (@md_eid_data C) meta)) ->
    (with_rh st = true -> hidden_at disc rh /\ meta_ok ipk B cred rh (opt_map (@md_rh_data C) meta)) ->
    exists sig md, NewSignature H T (Some cred) (Some sk) (Some Nym) (Some RNym) (Some ipk) disc msg
      (Z.of_nat rh) (Z.of_nat eid) (Some cri) R st meta = Ok (sig, md).
  Proof.
    intros HB HC La Ln Hrh Hs Hal Hst He Hr.
    destruct (@prepare_ok cred sk ipk B disc rh cri R HB HC La Ln Hrh Hs Hal) as [P EP].
    apply (verCredential_iff OK) with (B := B) in HC; [|exact HB].
    destruct HC as (A & e & s & attrs & (M1 & M2 & M3 & M4) & FA & LL & HBp & BV).
    assert (La' : length attrs = length disc) by (rewrite <- M4, map_length; exact La).
    edestruct (prepare_inv OK) as (A' & Bv & _ & _ & _ & _ & _ & EPr); [exact HB| |exact EP|]; [lia|].
    cbv zeta in EPr.
    assert (RA : pr_rattrs P = map (rd_rattrs R) (seq 0 (nhid disc))) by (rewrite EPr; reflexivity).
    assert (RAl : length (pr_rattrs P) = nhid disc) by (rewrite RA, map_length, seq_length; reflexivity).
    assert (PH : pr_hidden P = hiddenIndices disc) by (rewrite EPr; reflexivity).
    assert (FN : forall j m fresh rr, hidden_at disc j -> meta_ok ipk B cred j m ->
      exists y, finalise_nym T cred ipk (Z.of_nat j) m (pr_hidden P) (pr_rattrs P) fresh rr = Ok y).
    { intros j m fresh rr Hj Hm.
      assert (j < length disc) by (apply nth_error_Some; unfold hidden_at in Hj; congruence).
      destruct (nth_error (b_attrs B) j) as [Hb|] eqn:N1; [|apply nth_error_None in N1; lia].
      destruct (nth_error (cr_attrs cred) j) as [ab|] eqn:N2; [|apply nth_error_None in N2; lia].
      pose proof (searchInts_hidden disc 0 j) as SH. 
      destruct (nth_error (pr_rattrs P) (searchInts (pr_hidden P) (Z.of_nat j))) as [ra|] eqn:N3.
      - eapply (finalise_nym_ok OK); [exact HB|exact N1|exact N2|exact N3|].
        destruct Hm as [->|(Hj' & ab' & d & X1 & X2 & -> & X3)]; [left; reflexivity|right].
        exists d. split; [reflexivity|]. congruence.
      - exfalso. apply nth_error_None in N3. 
        pose proof (hsel_searchInts disc 0 j attrs Hj) as HS. specialize (HS ltac:(lia)).
        cbn [Nat.add] in HS. change (hidden_from 0 disc) with (hiddenIndices disc) in HS.
        rewrite <- PH in HS.
        assert (nth_error (hsel disc attrs) (searchInts (pr_hidden P) (Z.of_nat j)) <> None).
        { rewrite HS. apply nth_error_Some. lia. }
        apply nth_error_Some in H1. rewrite hsel_nhid in H1 by lia. lia. }
    assert (exists x, fin_nym (with_eid st) cred ipk (Z.of_nat eid) (opt_map (@md_eid_data C) meta) P (rd_r_eid R) (rd_eid R) x) as [x1 X1].
    { unfold fin_nym. destruct (with_eid st); [|eauto]. destruct (He eq_refl) as [U V].
      destruct (FN eid _ (rd_eid R) (rd_r_eid R) U V) as [y Y]. eauto. }
    assert (exists x, fin_nym (with_rh st) cred ipk (Z.of_nat rh) (opt_map (@md_rh_data C) meta) P (rd_r_rh R) (rd_rh R) x) as [x2 X2].
    { unfold fin_nym. destruct (with_rh st); [|eauto]. destruct (Hr eq_refl) as [U V].
      destruct (FN rh _ (rd_rh R) (rd_r_rh R) U V) as [y Y]. eauto. }
    assert (Hwr : with_rh st = true -> with_eid st = true) by (destruct st; cbn; congruence).
    pose proof (@finalise_ok cred sk Nym RNym ipk disc msg (Z.of_nat rh) (Z.of_nat eid) cri P R _ _ meta x1 x2 Hwr La PH RAl X1 X2) as FO.
    match type of FO with _ = Ok (?a, ?b) => exists a, b end. rewrite <- FO.
    unfold NewSignature. rewrite EP. cbn [bind].
    destruct Hst as [<-|[<-|[<-|[]]]]; cbn [with_eid with_rh] in *.
    - reflexivity.
    - destruct (He eq_refl) as [U _]. rewrite znth_nat. unfold nth_res. unfold hidden_at in U. rewrite U. reflexivity.
    - destruct (He eq_refl) as [U _]. rewrite !znth_nat. unfold nth_res. unfold hidden_at in U. rewrite U.
      destruct (Hr eq_refl) as [U' _]. unfold hidden_at in U'. rewrite U'. reflexivity.
  Qed.
End Sign.
