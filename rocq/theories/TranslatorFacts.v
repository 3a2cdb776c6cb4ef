(** Facts about the translators: round trips, canonicity, nil arguments. *)
From Verif Require Import Base Curve Dlog Translator Toy.
Unset Strict Implicit.

Lemma copy_at_fit pre n src : copy_at (pre ++ zeros n) (length pre) src = Ok (pre ++ fit n src).
Proof.
  rewrite copy_at_ok by (rewrite app_length; lia).
  rewrite firstn_app, firstn_all, Nat.sub_diag, firstn_O, app_nil_r, app_length, zeros_length.
  replace (length pre + n - length pre) with n by lia.
  rewrite skipn_app, skipn_all2 by lia. cbn [app].
  replace (length pre + length src - length pre) with (length src) by lia.
  unfold fit. f_equal. f_equal. f_equal. unfold zeros.
  destruct (Nat.le_gt_cases (length src) n).
  - replace n with (length src + (n - length src)) at 1 by lia. rewrite repeat_app, skipn_app.
    rewrite skipn_all2 by (rewrite repeat_length; lia). rewrite repeat_length, Nat.sub_diag. reflexivity.
  - rewrite skipn_all2 by (rewrite repeat_length; lia). replace (n - length src) with 0 by lia. reflexivity.
Qed.

Lemma copy_at_clean pre n src : length src <= n ->
  copy_at (pre ++ zeros n) (length pre) src = Ok ((pre ++ src) ++ zeros (n - length src)).
Proof. intro L. rewrite copy_at_fit. unfold fit. rewrite firstn_all2 by lia. rewrite <- app_assoc. reflexivity. Qed.

Lemma fit_app l m src : fit (l + m) (firstn l src) = fit l src ++ zeros m.
Proof.
  unfold fit. rewrite firstn_firstn, Nat.min_r, firstn_length, <- app_assoc, zeros_app by lia. f_equal. f_equal. lia.
Qed.

Lemma copy_between_clean pre l m src :
  copy_between (pre ++ zeros (l + m)) (length pre) (length pre + l) src = Ok (pre ++ fit l src ++ zeros m).
Proof.
  unfold copy_between, slice.
  replace (length pre <=? length pre + l) with true by (symmetry; apply Nat.leb_le; lia).
  replace (length pre + l <=? length (pre ++ zeros (l + m))) with true
    by (symmetry; apply Nat.leb_le; rewrite app_length, zeros_length; lia).
  cbn [andb bind]. replace (length pre + l - length pre) with l by lia.
  rewrite copy_at_fit, fit_app. reflexivity.
Qed.

Lemma fill4_ok l e : fill4 l e = Ok (fit l (exa e) ++ fit l (exb e) ++ fit l (eya e) ++ fit l (eyb e)).
Proof.
  unfold fill4.
  pose proof (copy_between_clean [] l (l * 3) (exa e)) as E1. cbn [length Nat.add app] in E1.
  replace (l + l * 3) with (l * 4) in E1 by lia. rewrite E1. cbn [bind]. clear E1.
  pose proof (copy_between_clean (fit l (exa e)) l (l * 2) (exb e)) as E2. rewrite fit_length in E2.
  replace (l + l * 2) with (l * 3) in E2 by lia. replace (l + l) with (2 * l) in E2 by lia. rewrite E2. cbn [bind]. clear E2.
  pose proof (copy_between_clean (fit l (exa e) ++ fit l (exb e)) l l (eya e)) as E3.
  rewrite app_length, !fit_length, <- app_assoc in E3.
  replace (l + l) with (2 * l) in E3 by lia. replace (2 * l + l) with (3 * l) in E3 by lia.
  replace (l * 2) with (2 * l) by lia. rewrite E3. cbn [bind]. clear E3.
  pose proof (copy_at_fit (fit l (exa e) ++ fit l (exb e) ++ fit l (eya e)) l (eyb e)) as E4.
  rewrite !app_length, !fit_length, <- !app_assoc in E4.
  replace (l + (l + l)) with (3 * l) in E4 by lia. rewrite <- !app_assoc. exact E4.
Qed.

Lemma skipn_skipn' A (b : list A) : forall n m, skipn n (skipn m b) = skipn (m + n) b.
Proof. induction b as [|x b IH]; intros n [|m]; cbn [skipn Nat.add]; rewrite ?skipn_nil; auto. Qed.

Lemma opt_err_ok A (x : option A) a : opt_err x = Ok a <-> x = Some a.
Proof. destruct x; cbn; split; intro H; inversion H; reflexivity. Qed.

Lemma halves_app b : ex (halves b) ++ ey (halves b) = b.
Proof. apply firstn_skipn. Qed.

Lemma halves_len b n : length b = 2 * n -> length (ex (halves b)) = n /\ length (ey (halves b)) = n.
Proof.
  intro L. unfold halves. cbn [ex ey]. rewrite L. replace (2 * n / 2) with n by (rewrite Nat.mul_comm, Nat.div_mul; lia).
  rewrite firstn_length, skipn_length. lia.
Qed.

Lemma quarters_app b n : length b = 4 * n ->
  exa (quarters b) ++ exb (quarters b) ++ eya (quarters b) ++ eyb (quarters b) = b /\
  length (exa (quarters b)) = n /\ length (exb (quarters b)) = n /\ length (eya (quarters b)) = n /\ length (eyb (quarters b)) = n.
Proof.
  intro L. unfold quarters. cbn [exa exb eya eyb]. rewrite L. replace (4 * n / 4) with n by (rewrite Nat.mul_comm, Nat.div_mul; lia).
  repeat split; rewrite ?firstn_length, ?skipn_length; try lia.
  rewrite <- (firstn_skipn n b) at 5. f_equal. rewrite <- (firstn_skipn n (skipn n b)) at 2. f_equal.
  rewrite !skipn_skipn'. replace (n + n) with (2 * n) by lia. rewrite <- (firstn_skipn n (skipn (2 * n) b)) at 2. f_equal.
  rewrite skipn_skipn'. f_equal. lia.
Qed.

(** ** What the byte encodings of the three curve libraries look like *)
Definition amcl_style (C : Curve) : Prop :=
  g1_size C = 1 + 2 * coord_size C /\ g2_size C = 4 * coord_size C /\
  forall P, hd b0 (g1_bytes C P) = Byte.x04.
Definition miracl_style (C : Curve) : Prop :=
  g1_size C = 1 + 2 * coord_size C /\ g2_size C = 1 + 4 * coord_size C /\
  (forall P, hd b0 (g1_bytes C P) = Byte.x04) /\ (forall P, hd b0 (g2_bytes C P) = Byte.x04).
Definition gurvy_style (C : Curve) : Prop :=
  g1_size C = 2 * coord_size C /\ g2_size C = 4 * coord_size C.

(** the library decodes only what it encodes *)
Definition canonical_g1 (C : Curve) : Prop := forall b P, g1_of_bytes C b = Some P -> b = g1_bytes C P.
Definition canonical_g2 (C : Curve) : Prop := forall b P, g2_of_bytes C b = Some P -> b = g2_bytes C P.

Section Facts.
  Context {C : Curve} (OK : CurveOk C).

  Lemma fp_g1_from_eq e : length (ex e) = coord_size C -> length (ey e) = coord_size C ->
    fp_g1_from C (Some e) = opt_err (g1_of_bytes C (Byte.x04 :: ex e ++ ey e)).
  Proof.
    intros L1 L2. unfold fp_g1_from. rewrite L1, L2, Nat.eqb_refl. cbn [andb guard bind].
    set (n := coord_size C) in *.
    pose proof (@copy_at_clean [] (n * 2 + 1) [Byte.x04] ltac:(cbn; lia)) as E. cbn [length app] in E. rewrite E. cbn [bind].
    replace (n * 2 + 1 - 1) with (n * 2) by lia.
    pose proof (@copy_at_clean [Byte.x04] (n * 2) (ex e) ltac:(lia)) as E2. cbn [length app] in E2. cbn [app].
    rewrite E2. cbn [bind]. rewrite L1. replace (n * 2 - n) with n by lia.
    pose proof (@copy_at_fit (Byte.x04 :: ex e) n (ey e)) as E3. cbn [length app] in E3. rewrite L1 in E3.
    replace (S n) with (n + 1) in E3 by lia. rewrite E3. cbn [bind]. rewrite fit_exact by exact L2. reflexivity.
  Qed.

  Lemma fp_g1_from_inv e P : fp_g1_from C (Some e) = Ok P ->
    length (ex e) = coord_size C /\ length (ey e) = coord_size C /\ g1_of_bytes C (Byte.x04 :: ex e ++ ey e) = Some P.
  Proof.
    intro E. assert (L : length (ex e) = coord_size C /\ length (ey e) = coord_size C).
    { unfold fp_g1_from in E. destruct (length (ex e) =? coord_size C) eqn:A, (length (ey e) =? coord_size C) eqn:B; cbn in E; try discriminate.
      split; apply Nat.eqb_eq; assumption. }
    destruct L as [L1 L2]. rewrite fp_g1_from_eq in E by assumption. repeat split; try assumption.
    destruct (g1_of_bytes C _); cbn in E; [congruence|discriminate].
  Qed.

  Lemma tl_hd (b : bytes) x n : hd b0 b = x -> length b = S n -> b = x :: tl b.
  Proof. destruct b; cbn; intros; [discriminate|congruence]. Qed.

  Lemma fp_g1_rt : g1_size C = 1 + 2 * coord_size C -> (forall P, hd b0 (g1_bytes C P) = Byte.x04) ->
    forall P, fp_g1_from C (Some (fp_g1_to P)) = Ok P.
  Proof.
    intros S1 H4 P. unfold fp_g1_to. pose proof (ok_g1_len OK P) as L. rewrite S1 in L.
    pose proof (tl_hd (H4 P) L) as E.
    assert (Lt : length (tl (g1_bytes C P)) = 2 * coord_size C) by (rewrite E in L; cbn [length tl] in *; lia).
    destruct (halves_len Lt) as [L1 L2].
    rewrite fp_g1_from_eq, halves_app, <- E, (ok_g1_rt OK) by assumption. reflexivity.
  Qed.

  Lemma fp_g1_raw : g1_size C = 1 + 2 * coord_size C -> (forall P, hd b0 (g1_bytes C P) = Byte.x04) ->
    forall P, from_raw (fp_g1_from C) (tl (g1_bytes C P)) = Ok P.
  Proof. intros. apply fp_g1_rt; assumption. Qed.

  Lemma app_inv_len A (a b c d : list A) : length a = length c -> a ++ b = c ++ d -> a = c /\ b = d.
  Proof. revert c; induction a as [|x a IH]; intros [|y c] L E; cbn in *; try discriminate; auto.
    injection E as -> E. destruct (IH c ltac:(lia) E). subst. auto. Qed.

  Lemma fp_g1_canon e P : g1_size C = 1 + 2 * coord_size C -> canonical_g1 C ->
    fp_g1_from C (Some e) = Ok P -> e = fp_g1_to P.
  Proof.
    intros S1 Ca E. apply fp_g1_from_inv in E. destruct E as (L1 & L2 & E). apply Ca in E.
    unfold fp_g1_to. rewrite <- E. cbn [tl].
    assert (L : length (ex e ++ ey e) = 2 * coord_size C) by (rewrite app_length; lia).
    destruct (halves_len L) as [L3 L4]. pose proof (halves_app (ex e ++ ey e)) as HA.
    symmetry in HA. apply app_inv_len in HA; [|lia]. destruct e, (halves _); cbn in *. destruct HA. congruence.
  Qed.

  Lemma quad_inj e n : length (exa e) = n -> length (exb e) = n -> length (eya e) = n -> length (eyb e) = n ->
    quarters (exa e ++ exb e ++ eya e ++ eyb e) = e.
  Proof.
    intros L1 L2 L3 L4. set (b := exa e ++ exb e ++ eya e ++ eyb e).
    assert (L : length b = 4 * n) by (unfold b; rewrite !app_length; lia).
    destruct (quarters_app L) as (E & Q1 & Q2 & Q3 & Q4). unfold b in E at 5.
    apply app_inv_len in E; [|lia]. destruct E as [E1 E]. apply app_inv_len in E; [|lia]. destruct E as [E2 E].
    apply app_inv_len in E; [|lia]. destruct E as [E3 E4]. destruct e, (quarters b); cbn in *; congruence.
  Qed.

  Lemma coords_ok_iff e : coords_ok C e = true <->
    length (exa e) = coord_size C /\ length (exb e) = coord_size C /\ length (eya e) = coord_size C /\ length (eyb e) = coord_size C.
  Proof. unfold coords_ok. rewrite !andb_true_iff, !Nat.eqb_eq. tauto. Qed.

  Lemma fp_g2_from_inv e P : fp_g2_from C (Some e) = Ok P <->
    coords_ok C e = true /\ g2_of_bytes C (exa e ++ exb e ++ eya e ++ eyb e) = Some P.
  Proof.
    unfold fp_g2_from. destruct (coords_ok C e) eqn:K; cbn [guard bind].
    - apply coords_ok_iff in K. destruct K as (L1 & L2 & L3 & L4).
      rewrite fill4_ok. cbn [bind]. rewrite !fit_exact by congruence.
      rewrite opt_err_ok. tauto.
    - split; [discriminate|]. intros [X _]. discriminate.
  Qed.

  Lemma fp_g2_rt : g2_size C = 4 * coord_size C -> forall P, fp_g2_from C (Some (fp_g2_to P)) = Ok P.
  Proof.
    intros S2 P. pose proof (ok_g2_len OK P) as L. rewrite S2 in L.
    destruct (quarters_app L) as (E & Q). apply fp_g2_from_inv. unfold fp_g2_to. rewrite E, (ok_g2_rt OK).
    split; [apply coords_ok_iff; exact Q|reflexivity].
  Qed.

  Lemma fp_g2_canon e P : g2_size C = 4 * coord_size C -> canonical_g2 C -> fp_g2_from C (Some e) = Ok P -> e = fp_g2_to P.
  Proof.
    intros S2 Ca E. apply fp_g2_from_inv in E. destruct E as [K E]. apply Ca in E.
    apply coords_ok_iff in K. destruct K as (L1 & L2 & L3 & L4). unfold fp_g2_to. rewrite <- E. symmetry.
    eapply quad_inj; eassumption.
  Qed.

  Lemma mir_g2_from_inv e P : mir_g2_from C (Some e) = Ok P <->
    coords_ok C e = true /\ g2_of_bytes C (Byte.x04 :: exa e ++ exb e ++ eya e ++ eyb e) = Some P.
  Proof.
    unfold mir_g2_from. destruct (coords_ok C e) eqn:K; cbn [guard bind]; [|split; [discriminate|intros [X _]; discriminate]].
    apply coords_ok_iff in K. destruct K as (L1 & L2 & L3 & L4). rewrite L1. set (n := coord_size C) in *.
    pose proof (@copy_at_clean [] (1 + n * 4) [Byte.x04] ltac:(cbn; lia)) as E. cbn [length app] in E.
    cbv zeta. rewrite E. cbn [bind]. clear E. replace (1 + n * 4 - 1) with (n * 4) by lia.
    pose proof (@copy_at_clean [Byte.x04] (n * 4) (exa e) ltac:(lia)) as E. cbn [length app] in E. cbn [app].
    rewrite E. cbn [bind]. clear E. rewrite L1. replace (n * 4 - n) with (n * 3) by lia.
    pose proof (@copy_at_clean (Byte.x04 :: exa e) (n * 3) (exb e) ltac:(lia)) as E. cbn [length] in E. cbn [app] in E. rewrite L1 in E.
    replace (S n) with (1 + n) in E by lia. rewrite E. cbn [bind]. clear E. rewrite L2. replace (n * 3 - n) with (n * 2) by lia.
    pose proof (@copy_at_clean (Byte.x04 :: exa e ++ exb e) (n * 2) (eya e) ltac:(lia)) as E. cbn [length app] in E.
    rewrite app_length, L1, L2 in E. replace (S (n + n)) with (1 + 2 * n) in E by lia. rewrite E. cbn [bind]. clear E. rewrite L3. replace (n * 2 - n) with n by lia.
    pose proof (@copy_at_fit (Byte.x04 :: (exa e ++ exb e) ++ eya e) n (eyb e)) as E. cbn [length app] in E.
    rewrite !app_length, L1, L2, L3 in E. replace (S (n + n + n)) with (1 + 3 * n) in E by lia. rewrite E. cbn [bind]. clear E.
    rewrite fit_exact by exact L4. rewrite <- !app_assoc.
    rewrite opt_err_ok. tauto.
  Qed.

  Lemma mir_g2_rt : g2_size C = 1 + 4 * coord_size C -> (forall P, hd b0 (g2_bytes C P) = Byte.x04) ->
    forall P, mir_g2_from C (Some (mir_g2_to P)) = Ok P.
  Proof.
    intros S2 H4 P. pose proof (ok_g2_len OK P) as L. rewrite S2 in L. pose proof (tl_hd (H4 P) L) as E.
    assert (Lt : length (tl (g2_bytes C P)) = 4 * coord_size C) by (rewrite E in L; cbn [length tl] in *; lia).
    destruct (quarters_app Lt) as (Q & R). apply mir_g2_from_inv. unfold mir_g2_to. rewrite Q, <- E, (ok_g2_rt OK).
    split; [apply coords_ok_iff; exact R|reflexivity].
  Qed.

  Lemma mir_g2_canon e P : canonical_g2 C -> mir_g2_from C (Some e) = Ok P -> e = mir_g2_to P.
  Proof.
    intros Ca E. apply mir_g2_from_inv in E. destruct E as [K E]. apply Ca in E.
    apply coords_ok_iff in K. destruct K as (L1 & L2 & L3 & L4). unfold mir_g2_to. rewrite <- E. cbn [tl]. symmetry.
    eapply quad_inj; eassumption.
  Qed.

  Lemma gur_g1_from_eq e : gur_g1_from C (Some e) = opt_err (g1_of_bytes C (ex e ++ fit (length (ex e)) (ey e))).
  Proof.
    unfold gur_g1_from. cbn [deref bind]. set (n := length (ex e)).
    pose proof (@copy_at_clean [] (n * 2) (ex e) ltac:(lia)) as E. cbn [length app] in E. rewrite E. cbn [bind].
    fold n. replace (n * 2 - n) with n by lia. rewrite copy_at_fit. reflexivity.
  Qed.

  Lemma gur_g1_rt : g1_size C = 2 * coord_size C -> forall P, gur_g1_from C (Some (gur_g1_to P)) = Ok P.
  Proof.
    intros S1 P. pose proof (ok_g1_len OK P) as L. rewrite S1 in L. destruct (halves_len L) as [L1 L2].
    unfold gur_g1_to. rewrite gur_g1_from_eq, fit_exact, halves_app, (ok_g1_rt OK) by congruence. reflexivity.
  Qed.

  Lemma gur_g2_rt : g2_size C = 4 * coord_size C -> forall P, gur_g2_from C (Some (fp_g2_to P)) = Ok P.
  Proof.
    intros S2 P. pose proof (ok_g2_len OK P) as L. rewrite S2 in L.
    destruct (quarters_app L) as (E & Q1 & Q2 & Q3 & Q4). unfold gur_g2_from, fp_g2_to. cbn [deref bind].
    rewrite fill4_ok. cbn [bind]. rewrite !fit_exact by congruence. rewrite E, (ok_g2_rt OK). reflexivity.
  Qed.

  (** the gurvy translator ignores everything in Y beyond the length of X *)
  Lemma gur_not_canonical : g1_size C = 2 * coord_size C -> forall P extra,
    gur_g1_from C (Some {| ex := ex (gur_g1_to P); ey := ey (gur_g1_to P) ++ extra |}) = Ok P.
  Proof.
    intros S1 P extra. rewrite gur_g1_from_eq. cbn [ex ey].
    pose proof (ok_g1_len OK P) as L. rewrite S1 in L. destruct (halves_len L) as [L1 L2]. fold (gur_g1_to P) in L1, L2.
    assert (F : fit (length (ex (gur_g1_to P))) (ey (gur_g1_to P) ++ extra) = ey (gur_g1_to P)).
    { unfold fit. rewrite L1. rewrite <- L2 at 1. rewrite firstn_app, firstn_all, Nat.sub_diag, firstn_O, app_nil_r.
      rewrite app_length, L2. replace (coord_size C - _) with 0 by lia. apply app_nil_r. }
    rewrite F. unfold gur_g1_to. rewrite halves_app, (ok_g1_rt OK). reflexivity.
  Qed.

  Lemma gur_g1_canon e P : g1_size C = 2 * coord_size C -> canonical_g1 C ->
    length (ey e) = length (ex e) -> gur_g1_from C (Some e) = Ok P -> e = gur_g1_to P.
  Proof.
    intros S1 Ca L E. rewrite gur_g1_from_eq, fit_exact in E by exact L.
    destruct (g1_of_bytes C (ex e ++ ey e)) as [Q|] eqn:D; cbn in E; [|discriminate]. injection E as ->. apply Ca in D.
    unfold gur_g1_to. rewrite <- D.
    assert (L' : length (ex e ++ ey e) = 2 * length (ex e)) by (rewrite app_length; lia).
    destruct (halves_len L') as [L3 L4]. pose proof (halves_app (ex e ++ ey e)) as HA.
    symmetry in HA. apply app_inv_len in HA; [|lia]. destruct e, (halves _); cbn in *. destruct HA. congruence.
  Qed.
End Facts.

Lemma tdec_canon pre n b a : tdec pre n b = Some a -> b = tenc pre n a.
Proof.
  unfold tdec, tenc, strip_prefix. destruct (bytes_eqb (firstn (length pre) b) pre) eqn:E; [|discriminate].
  apply bytes_eqb_eq in E. intro D. rewrite <- (firstn_skipn (length pre) b), E. f_equal.
  destruct (skipn (length pre) b) as [|x r]; [discriminate|].
  destruct ((os2ip [x] <? tp)%Z && bytes_eqb r (zeros n)) eqn:K; [|discriminate]. injection D as <-.
  apply andb_true_iff in K. destruct K as [K1 K2]. apply bytes_eqb_eq in K2. subst r.
  change (x :: zeros n) with ([x] ++ zeros n). f_equal.
  rewrite zv_mk, Z.mod_small by (split; [apply (os2ip_bound [x])|lia]).
  change 1 with (length [x]). symmetry. apply i2osp_os2ip.
Qed.
