(** Lemmas about the dlog model: loops, transcripts, index bookkeeping. *)
From Verif Require Import Base Curve Algebra Spec Dlog DlogSpec.
From Coq Require Import Field Ring.

(** ** index bookkeeping *)

(** sub-list of [l] at the hidden positions *)
Fixpoint hsel {A} (disc : bytes) (l : list A) : list A :=
  match disc, l with
  | d :: ds, a :: l' => if byte_eqb d b0 then a :: hsel ds l' else hsel ds l'
  | _, _ => []
  end.

Lemma nth_res_app2 A (pre l : list A) i : nth_res (pre ++ l) (length pre + i) = nth_res l i.
Proof.
  unfold nth_res. rewrite nth_error_app2 by lia.
  replace (length pre + i - length pre) with i by lia. reflexivity.
Qed.

Lemma map_res_hidden A (disc : bytes) : forall (pre l : list A),
  length disc <= length l ->
  map_res (nth_res (pre ++ l)) (hidden_from (length pre) disc) = Ok (hsel disc l).
Proof.
  induction disc as [|d ds IH]; intros pre [|a l] Hl; cbn [hidden_from hsel length] in *; try lia; try reflexivity.
  assert (R : map_res (nth_res (pre ++ a :: l)) (hidden_from (S (length pre)) ds) = Ok (hsel ds l)).
  { replace (pre ++ a :: l) with ((pre ++ [a]) ++ l) by (rewrite <- app_assoc; reflexivity).
    replace (S (length pre)) with (length (pre ++ [a])) by (rewrite app_length; simpl; lia).
    apply IH. lia. }
  destruct (byte_eqb d b0); [|exact R].
  cbn [map_res]. rewrite R.
  pose proof (nth_res_app2 pre (a :: l) 0) as E. rewrite Nat.add_0_r in E. rewrite E. reflexivity.
Qed.

Lemma hidden_from_length disc : forall i, length (hidden_from i disc) = length (hsel disc disc).
Proof.
  induction disc as [|d ds IH]; intro i; cbn [hidden_from hsel]; [reflexivity|].
  destruct (byte_eqb d b0); cbn [length]; rewrite IH; reflexivity.
Qed.

Lemma hsel_length A B (disc : bytes) : forall (l : list A) (l' : list B),
  length disc <= length l -> length disc <= length l' -> length (hsel disc l) = length (hsel disc l').
Proof.
  induction disc as [|d ds IH]; intros [|a l] [|b l'] H1 H2; cbn [hsel length] in *; try lia; try reflexivity.
  destruct (byte_eqb d b0); cbn [length]; rewrite (IH l l') by lia; reflexivity.
Qed.

Lemma hidden_length A (disc : bytes) (l : list A) : length disc <= length l ->
  length (hiddenIndices disc) = length (hsel disc l).
Proof. intro Hl. unfold hiddenIndices. rewrite hidden_from_length. apply hsel_length; lia. Qed.

(** success of the loops implies that there are enough bases *)
Lemma map_res_hidden_inv A (disc : bytes) (hattrs : list A) hh i :
  map_res (nth_res hattrs) (hidden_from i disc) = Ok hh ->
  forall j, nth_error disc j = Some b0 -> i + j < length hattrs.
Proof.
  revert i hh; induction disc as [|d ds IH]; intros i hh E j Hj.
  - destruct j; discriminate.
  - cbn [hidden_from] in E. destruct j as [|j]; cbn [nth_error] in Hj.
    + inversion Hj; subst d. replace (byte_eqb b0 b0) with true in E by reflexivity.
      cbn [map_res] in E. destruct (nth_res hattrs i) eqn:N; cbn [bind] in E; try discriminate.
      apply nth_res_ok in N. rewrite Nat.add_0_r. apply nth_error_Some. congruence.
    + destruct (byte_eqb d b0).
      * cbn [map_res] in E. destruct (nth_res hattrs i); cbn [bind] in E; try discriminate.
        destruct (map_res (nth_res hattrs) (hidden_from (S i) ds)) eqn:N; cbn [bind] in E; try discriminate.
        specialize (IH _ _ N j Hj). lia.
      * specialize (IH _ _ E j Hj). lia.
Qed.

(** searchInts on the list of hidden indices finds a hidden index *)
Lemma searchInts_hidden disc : forall i j,
  nth_error disc j = Some b0 ->
  nth_error (hidden_from i disc) (searchInts (hidden_from i disc) (Z.of_nat (i + j))) = Some (i + j).
Proof.
  induction disc as [|d ds IH]; intros i j Hj; [destruct j; discriminate|].
  cbn [hidden_from]. destruct j as [|j]; cbn [nth_error] in Hj.
  - inversion Hj; subst d. replace (byte_eqb b0 b0) with true by reflexivity.
    cbn [searchInts]. destruct (Z.of_nat (i + 0) <=? Z.of_nat i)%Z eqn:L; [|lia].
    cbn [nth_error]. f_equal. lia.
  - specialize (IH (S i) j Hj). replace (S i + j) with (i + S j) in IH by lia.
    destruct (byte_eqb d b0); [|exact IH].
    cbn [searchInts]. destruct (Z.of_nat (i + S j) <=? Z.of_nat i)%Z eqn:L; [lia|].
    cbn [nth_error]. exact IH.
Qed.

Lemma hsel_searchInts A (disc : bytes) : forall i j (l : list A),
  nth_error disc j = Some b0 ->
  length disc <= length l ->
  nth_error (hsel disc l) (searchInts (hidden_from i disc) (Z.of_nat (i + j))) = nth_error l j.
Proof.
  induction disc as [|d ds IH]; intros i j l Hj Hl; [destruct j; discriminate|].
  destruct l as [|a l]; cbn [length] in *; [lia|].
  cbn [hidden_from hsel]. destruct j as [|j]; cbn [nth_error] in *.
  - inversion Hj; subst d. replace (byte_eqb b0 b0) with true by reflexivity.
    cbn [searchInts]. destruct (Z.of_nat (i + 0) <=? Z.of_nat i)%Z eqn:L; [|lia]. reflexivity.
  - specialize (IH (S i) j l Hj ltac:(lia)). replace (S i + j) with (i + S j) in IH by lia.
    destruct (byte_eqb d b0); [|exact IH].
    cbn [searchInts]. destruct (Z.of_nat (i + S j) <=? Z.of_nat i)%Z eqn:L; [lia|].
    cbn [nth_error]. exact IH.
Qed.

(** ** full attribute vector from hidden and disclosed parts *)
(** every disclosed position has a value *)
Fixpoint vals_ok {A} (disc : bytes) (vals : list (option A)) : Prop :=
  match disc with
  | [] => True
  | d :: ds =>
      if byte_eqb d b0 then vals_ok ds (tl vals)
      else match vals with Some _ :: vs => vals_ok ds vs | _ => False end
  end.

Fixpoint nhid (disc : bytes) : nat :=
  match disc with
  | [] => 0
  | d :: ds => if byte_eqb d b0 then S (nhid ds) else nhid ds
  end.

Lemma nhid_hidden disc : forall i, length (hidden_from i disc) = nhid disc.
Proof.
  induction disc as [|d ds IH]; intro i; cbn [hidden_from nhid]; [reflexivity|].
  destruct (byte_eqb d b0); cbn [length]; rewrite IH; reflexivity.
Qed.

Lemma hsel_nhid A disc : forall l : list A, length disc <= length l -> length (hsel disc l) = nhid disc.
Proof.
  induction disc as [|d ds IH]; intros [|a l] Hl; cbn [hsel nhid length] in *; try lia.
  destruct (byte_eqb d b0); cbn [length]; rewrite IH by lia; reflexivity.
Qed.

Lemma merge_length A disc : forall (hid : list A) vals,
  length hid = nhid disc -> vals_ok disc vals -> length (merge disc hid vals) = length disc.
Proof.
  induction disc as [|d ds IH]; intros hid vals Hh Hv; cbn [merge nhid vals_ok length] in *; [reflexivity|].
  destruct (byte_eqb d b0).
  - destruct hid as [|h hs]; cbn [length] in *; [lia|]. rewrite IH; auto.
  - destruct vals as [|[v|] vs]; try contradiction. cbn [length]. rewrite IH; auto.
Qed.

Lemma merge_hsel A disc : forall (hid : list A) vals,
  length hid = nhid disc -> vals_ok disc vals -> hsel disc (merge disc hid vals) = hid.
Proof.
  induction disc as [|d ds IH]; intros hid vals Hh Hv; cbn [merge nhid vals_ok hsel] in *.
  - destruct hid; [reflexivity|discriminate].
  - destruct (byte_eqb d b0) eqn:D.
    + destruct hid as [|h hs]; cbn [length] in *; [lia|]. rewrite IH; auto.
    + destruct vals as [|[v|] vs]; try contradiction. apply IH; auto.
Qed.

Lemma merge_vals A disc : forall (hid : list A) vals,
  length hid = nhid disc -> vals_ok disc vals ->
  forall i d, nth_error disc i = Some d -> d <> b0 ->
  exists a, nth_error vals i = Some (Some a) /\ nth_error (merge disc hid vals) i = Some a.
Proof.
  induction disc as [|d0 ds IH]; intros hid vals Hh Hv i d Hi Hd; [destruct i; discriminate|].
  cbn [merge nhid vals_ok] in *.
  destruct (byte_eqb_spec d0 b0) as [D|D].
  - destruct hid as [|h hs]; cbn [length] in *; [lia|].
    destruct i as [|i]; cbn [nth_error] in *; [congruence|].
    destruct vals as [|v vs]; cbn [tl] in *.
    + destruct (IH hs [] ltac:(lia) Hv i d Hi Hd) as [a [Ha _]]. destruct i; discriminate.
    + apply (IH hs vs ltac:(lia) Hv i d); auto.
  - destruct vals as [|[v|] vs]; try contradiction.
    destruct i as [|i]; cbn [nth_error] in *; [eauto|]. apply (IH hid vs ltac:(lia) Hv i d); auto.
Qed.

Section Facts.
  Context {C : Curve} (OK : CurveOk C).
  Let KO := ok_zr OK.
  Let GO1 := ok_g1 OK.
  Let GO2 := ok_g2 OK.
  Let GOT := ok_gt OK.
  Add Field Kf_dlog : (sok_field KO).

  Notation zr := (zcar (Zr C)).
  Notation g1 := (gcar (G1 C)).

  (** ** the two-at-a-time loop computes the whole product *)
  Lemma fold_res_app A B (f : A -> B -> res A) l1 l2 : forall a,
    fold_res f (l1 ++ l2) a = bind (fold_res f l1 a) (fold_res f l2).
  Proof.
    induction l1 as [|b l1 IH]; intro a; cbn [app fold_res]; [reflexivity|].
    destruct (f a b); cbn [bind]; auto.
  Qed.

  Lemma firstn_S_nth A (l : list A) n a : nth_error l n = Some a -> firstn (S n) l = firstn n l ++ [a].
  Proof.
    revert n; induction l as [|x l IH]; intros [|n] H; cbn in *; try discriminate.
    - congruence.
    - rewrite <- (IH n H). reflexivity.
  Qed.

  Lemma pairs_loop (ps : list g1) (ks : list zr) (k : nat) : forall acc,
    2 * k <= length ps -> 2 * k <= length ks ->
    fold_res (fun acc i =>
        let* p0 := nth_res ps (2 * i) in
        let* k0 := nth_res ks (2 * i) in
        let* p1 := nth_res ps (2 * i + 1) in
        let* k1 := nth_res ks (2 * i + 1) in
        Ok (acc ⊕ gmul2 p0 k0 p1 k1)) (seq 0 k) acc
    = Ok (acc ⊕ gdot (firstn (2 * k) ps) (firstn (2 * k) ks)).
  Proof.
    induction k as [|k IH]; intros acc Hp Hk.
    - cbn. rewrite (gadd_zero_r GO1). reflexivity.
    - rewrite seq_S, fold_res_app, IH by lia. cbn [bind Nat.add fold_res].
      destruct (nth_error ps (2 * k)) as [p0|] eqn:E0; [|apply nth_error_None in E0; lia].
      destruct (nth_error ks (2 * k)) as [k0|] eqn:F0; [|apply nth_error_None in F0; lia].
      destruct (nth_error ps (2 * k + 1)) as [p1|] eqn:E1; [|apply nth_error_None in E1; lia].
      destruct (nth_error ks (2 * k + 1)) as [k1|] eqn:F1; [|apply nth_error_None in F1; lia].
      unfold nth_res at 1 2 3 4. rewrite E0, F0, E1, F1. cbn [bind].
      f_equal.
      replace (2 * S k) with (S (S (2 * k))) by lia.
      rewrite (@firstn_S_nth _ ps (S (2 * k)) p1) by (rewrite <- E1; f_equal; lia).
      rewrite (@firstn_S_nth _ ps _ _ E0).
      rewrite (@firstn_S_nth _ ks (S (2 * k)) k1) by (rewrite <- F1; f_equal; lia).
      rewrite (@firstn_S_nth _ ks _ _ F0).
      assert (L : length (firstn (2 * k) ps) = length (firstn (2 * k) ks))
        by (rewrite !firstn_length; lia).
      rewrite <- !app_assoc, (gdot_app GO1) by exact L. cbn [app gdot].
      unfold gmul2. rewrite (gadd_zero_r GO1).
      rewrite !(gok_assoc GO1). reflexivity.
  Qed.

  Lemma loop2_ok n (ps : list g1) (ks : list zr) acc :
    n <= length ps -> n <= length ks ->
    loop2 C n ps ks acc = Ok (acc ⊕ gdot (firstn n ps) (firstn n ks)).
  Proof.
    intros Hp Hk. unfold loop2. pose proof (Nat.div_mod n 2 ltac:(lia)) as D.
    pose proof (Nat.mod_upper_bound n 2 ltac:(lia)) as U.
    rewrite pairs_loop by lia. cbn [bind].
    destruct (Nat.eqb_spec (n mod 2) 0) as [E|E].
    - replace (2 * (n / 2)) with n by lia. reflexivity.
    - replace (2 * (n / 2)) with (n - 1) by lia.
      destruct (nth_error ps (n - 1)) as [p|] eqn:E0; [|apply nth_error_None in E0; lia].
      destruct (nth_error ks (n - 1)) as [k|] eqn:F0; [|apply nth_error_None in F0; lia].
      unfold nth_res. rewrite E0, F0. cbn [bind]. f_equal.
      replace n with (S (n - 1)) at 3 4 by lia.
      rewrite (@firstn_S_nth _ ps _ _ E0), (@firstn_S_nth _ ks _ _ F0), (gdot_app GO1).
      + cbn [gdot]. rewrite (gadd_zero_r GO1), (gok_assoc GO1). reflexivity.
      + rewrite !firstn_length; lia.
  Qed.

  Lemma loop2_panic_bases n (ps : list g1) (ks : list zr) acc r :
    loop2 C n ps ks acc = Ok r -> n <= length ps /\ n <= length ks.
  Proof.
    unfold loop2. intro E.
    assert (P : forall k a r', fold_res (fun acc i =>
        let* p0 := nth_res ps (2 * i) in
        let* k0 := nth_res ks (2 * i) in
        let* p1 := nth_res ps (2 * i + 1) in
        let* k1 := nth_res ks (2 * i + 1) in
        Ok (acc ⊕ gmul2 p0 k0 p1 k1)) (seq 0 k) a = Ok r' -> 2 * k <= length ps /\ 2 * k <= length ks).
    { induction k as [|k IH]; intros a r' F; [lia|].
      rewrite seq_S, fold_res_app in F. apply bind_ok in F. destruct F as [a' [F1 F2]].
      apply IH in F1. cbn [fold_res Nat.add] in F2.
      inv_all.
      repeat match goal with N : nth_res _ _ = Ok _ |- _ => apply nth_res_ok in N end.
      repeat match goal with N : nth_error ?l ?i = Some _ |- _ =>
        assert (i < length l) by (apply nth_error_Some; congruence); clear N end.
      lia. }
    apply bind_ok in E. destruct E as [a' [E1 E2]]. apply P in E1.
    pose proof (Nat.div_mod n 2 ltac:(lia)) as D.
    pose proof (Nat.mod_upper_bound n 2 ltac:(lia)) as U.
    destruct (Nat.eqb_spec (n mod 2) 0) as [E|E]; [lia|].
    inv_all.
    repeat match goal with N : nth_res _ _ = Ok _ |- _ => apply nth_res_ok in N end.
    repeat match goal with N : nth_error ?l ?i = Some _ |- _ =>
        assert (i < length l) by (apply nth_error_Some; congruence); clear N end.
    lia.
  Qed.

  (** ** disclosed product *)
  (** sum over the disclosed positions *)
  Fixpoint dsum (disc : bytes) (ps : list g1) (vals : list (option zr)) : g1 :=
    match disc with
    | [] => gzero
    | d :: ds =>
        if byte_eqb d b0 then dsum ds (tl ps) (tl vals)
        else match ps, vals with
             | p :: ps', Some a :: vs => p ⊗ a ⊕ dsum ds ps' vs
             | _, _ => gzero
             end
    end.

  Lemma skipn_tl A (l : list A) : forall i, skipn (S i) l = tl (skipn i l).
  Proof. induction l as [|a l IH]; intros [|i]; cbn [skipn tl]; auto. rewrite <- IH. destruct l; reflexivity. Qed.

  Lemma nth_res_skipn A (l : list A) : forall i,
    nth_res l i = match skipn i l with a :: _ => Ok a | [] => Panic end.
  Proof.
    induction l as [|a l IH]; intros [|i]; try reflexivity. cbn [skipn]. rewrite <- IH. reflexivity.
  Qed.

  Lemma disclosed_prod_ok disc : forall i HA vals acc,
    length disc <= length (skipn i HA) -> vals_ok disc (skipn i vals) ->
    disclosed_prod C i disc HA vals acc = Ok (acc ⊕ dsum disc (skipn i HA) (skipn i vals)).
  Proof.
    induction disc as [|d ds IH]; intros i HA vals acc Hl Hv; cbn [disclosed_prod dsum vals_ok] in *.
    - rewrite (gadd_zero_r GO1). reflexivity.
    - cbn [length] in Hl.
      assert (Hl' : length ds <= length (skipn (S i) HA))
        by (rewrite skipn_length in *; lia).
      destruct (byte_eqb d b0).
      + rewrite IH by (rewrite ?skipn_tl in *; auto). rewrite !skipn_tl. reflexivity.
      + rewrite !nth_res_skipn.
        pose proof (skipn_tl HA i) as TA. pose proof (skipn_tl vals i) as TV.
        destruct (skipn i HA) as [|p ps]; cbn [length tl] in *; [lia|].
        destruct (skipn i vals) as [|[v|] vs]; try contradiction. cbn [bind deref tl] in *.
        rewrite IH by (rewrite ?TA, ?TV; auto; lia). rewrite TA, TV, (gok_assoc GO1). reflexivity.
  Qed.

  Lemma disclosed_prod_inv disc : forall i HA vals acc r,
    disclosed_prod C i disc HA vals acc = Ok r ->
    vals_ok disc (skipn i vals) /\
    (forall j d, nth_error disc j = Some d -> d <> b0 -> i + j < length HA).
  Proof.
    induction disc as [|d ds IH]; intros i HA vals acc r E; cbn [disclosed_prod vals_ok] in *.
    - split; [exact I|]. intros [|j] d Hj; discriminate.
    - destruct (byte_eqb_spec d b0) as [D|D].
      + apply IH in E. destruct E as [E1 E2]. rewrite skipn_tl in E1. split; [exact E1|].
        intros [|j] d' Hj Hd; cbn [nth_error] in Hj; [congruence|].
        specialize (E2 j d' Hj Hd). lia.
      + rewrite !nth_res_skipn in E.
        pose proof (skipn_tl vals i) as TV.
        destruct (skipn i HA) as [|p ps] eqn:TA; cbn [bind] in E; [discriminate|].
        assert (i < length HA).
        { destruct (le_lt_dec (length HA) i) as [L|L]; [|exact L].
          rewrite skipn_all2 in TA by exact L. discriminate. }
        destruct (skipn i vals) as [|[v|] vs]; cbn [bind deref] in E; try discriminate.
        apply IH in E. destruct E as [E1 E2]. rewrite TV in E1. split; [exact E1|].
        intros [|j] d' Hj Hd; cbn [nth_error] in Hj; [lia|].
        specialize (E2 j d' Hj Hd). lia.
  Qed.

  Lemma enough_bases (disc : bytes) (HA hh : list g1) vals acc r :
    map_res (nth_res HA) (hiddenIndices disc) = Ok hh ->
    disclosed_prod C 0 disc HA vals acc = Ok r ->
    length disc <= length HA.
  Proof.
    intros E1 E2. apply disclosed_prod_inv in E2. destruct E2 as [_ E2].
    destruct (le_lt_dec (length disc) (length HA)) as [L|L]; [exact L|exfalso].
    destruct (nth_error disc (length HA)) as [d|] eqn:N; [|apply nth_error_None in N; lia].
    destruct (byte_eqb_spec d b0) as [D|D].
    - subst d. pose proof (map_res_hidden_inv _ _ _ E1 _ N). lia.
    - specialize (E2 _ _ N D). lia.
  Qed.

  Lemma gdot_merge disc : forall (ps : list g1) (hid : list zr) vals,
    length disc <= length ps -> length hid = nhid disc -> vals_ok disc vals ->
    gdot ps (merge disc hid vals) = gdot (hsel disc ps) hid ⊕ dsum disc ps vals.
  Proof.
    induction disc as [|d ds IH]; intros ps hid vals Hl Hh Hv; cbn [merge hsel dsum nhid vals_ok length] in *.
    - rewrite (gdot_nil_r ps). symmetry. apply (gadd_zero_r GO1).
    - destruct ps as [|p ps]; cbn [length] in Hl; [lia|].
      destruct (byte_eqb d b0).
      + destruct hid as [|h hs]; cbn [length] in Hh; [lia|]. cbn [gdot tl].
        rewrite IH by (auto; lia). rewrite (gok_assoc GO1). reflexivity.
      + destruct vals as [|[v|] vs]; try contradiction. cbn [gdot].
        rewrite IH by (auto; lia). gnorm KO GO1; ring.
  Qed.

  (** splitting an attribute vector *)
  Lemma merge_split disc : forall (attrs : list zr) vals,
    length attrs = length disc ->
    (forall i d, nth_error disc i = Some d -> d <> b0 ->
       exists a, nth_error vals i = Some (Some a) /\ nth_error attrs i = Some a) ->
    merge disc (hsel disc attrs) vals = attrs /\ vals_ok disc vals.
  Proof.
    induction disc as [|d ds IH]; intros attrs vals Hl Ha; cbn [merge hsel vals_ok length] in *.
    - destruct attrs; [auto|discriminate].
    - destruct attrs as [|a attrs]; [discriminate|]. cbn [length] in Hl.
      destruct (byte_eqb_spec d b0) as [D|D].
      + destruct (IH attrs (tl vals)) as [I1 I2]; [lia| |].
        * intros i d' Hi Hd. destruct (Ha (S i) d' Hi Hd) as [x [X1 X2]]. exists x. split; [|exact X2].
          destruct vals; [discriminate|exact X1].
        * rewrite I1. auto.
      + destruct (Ha 0 d eq_refl D) as [x [X1 X2]]. destruct vals as [|v vs]; [discriminate|].
        cbn [nth_error] in *. inversion X1; inversion X2; subst v x.
        destruct (IH attrs vs) as [I1 I2]; [lia| |].
        * intros i d' Hi Hd. exact (Ha (S i) d' Hi Hd).
        * rewrite I1. auto.
  Qed.

  Lemma gdot_sub (ps : list g1) (a b : list zr) : length a = length b ->
    gdot ps a ⊖ gdot ps b = gdot ps (map (fun xy => zsub (fst xy) (snd xy)) (combine a b)).
  Proof.
    revert a b; induction ps as [|p ps IH]; intros [|x a] [|y b] L; cbn [gdot combine map fst snd length] in *;
      try discriminate; try (gnorm KO GO1; ring).
    rewrite <- (IH a b) by lia. gnorm KO GO1; ring.
  Qed.

  Lemma gdot_scale (ps : list g1) (a : list zr) k :
    gdot ps a ⊗ k = gdot ps (map (fun x => zmul x k) a).
  Proof.
    revert a; induction ps as [|p ps IH]; intros [|x a]; cbn [gdot map];
      try apply (gmul_zero GO1).
    rewrite <- IH. gnorm KO GO1; ring.
  Qed.

  Lemma gdot_comb (ps : list g1) (a b : list zr) k : length a = length b ->
    gdot ps a ⊕ gdot ps b ⊗ k = gdot ps (map (fun xy => zadd (fst xy) (zmul k (snd xy))) (combine a b)).
  Proof.
    revert a b; induction ps as [|p ps IH]; intros [|x a] [|y b] L; cbn [gdot combine map fst snd length] in *;
      try discriminate; try (gnorm KO GO1; ring).
    rewrite <- (IH a b) by lia. gnorm KO GO1; ring.
  Qed.
End Facts.
