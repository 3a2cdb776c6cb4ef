(** Facts about slices that share memory (Mem.v). *)
From Verif Require Import Base Curve Dlog Bbs Translator Bridge Csp Mem.
From Coq Require Import Sorting.Permutation Sorting.Sorted.
Unset Strict Implicit.

Lemma nth_error_firstn_lt A (l : list A) : forall n i, nth_error (firstn n l) i = if i <? n then nth_error l i else None.
Proof.
  induction l as [|x l IH]; intros [|n] [|i]; cbn [firstn nth_error]; try reflexivity.
  - destruct (S i <? S n); reflexivity.
  - rewrite IH. reflexivity.
Qed.
Lemma nth_error_skipn_add A (l : list A) : forall n i, nth_error (skipn n l) i = nth_error l (n + i).
Proof. induction l as [|x l IH]; intros [|n] i; cbn [skipn]; try reflexivity; [destruct i; reflexivity|]. cbn [Nat.add nth_error]. apply IH. Qed.
Lemma nth_error_ext A (l m : list A) : (forall i, nth_error l i = nth_error m i) -> l = m.
Proof.
  revert m. induction l as [|x l IH]; intros [|y m] E; [reflexivity|discriminate (E 0)|discriminate (E 0)|].
  pose proof (E 0) as E0. injection E0 as ->. f_equal. apply IH. intro i. exact (E (S i)).
Qed.
Lemma skipn_add A (l : list A) a b : skipn a (skipn b l) = skipn (b + a) l.
Proof. apply nth_error_ext. intro i. rewrite !nth_error_skipn_add. f_equal. lia. Qed.

Section Facts.
  Variable A : Type.
  Implicit Types (h : heap A) (s : slice) (xs : list A).

  Lemma update_array h : forall a l b, array (update h a l) b = if (b =? a) && (a <? length h) then l else array h b.
  Proof.
    unfold array. induction h as [|x h IH]; intros [|a] l [|b]; cbn [update nth length]; try reflexivity.
    - rewrite andb_false_r. reflexivity.
    - rewrite IH. reflexivity.
  Qed.
  Lemma update_length h : forall a l, length (update h a l) = length h.
  Proof. induction h as [|x h IH]; intros [|a] l; cbn; auto. Qed.
  Lemma splice_nth (l : list A) i xs j : i + length xs <= length l ->
    nth_error (splice l i xs) j = if (i <=? j) && (j <? i + length xs) then nth_error xs (j - i) else nth_error l j.
  Proof.
    intro L. unfold splice. assert (LF : length (firstn i l) = i) by (rewrite firstn_length; lia).
    destruct (Nat.leb_spec i j) as [P|P].
    - rewrite nth_error_app2 by lia. rewrite LF. destruct (Nat.ltb_spec j (i + length xs)) as [Q|Q]; cbn [andb].
      + apply nth_error_app1. lia.
      + rewrite nth_error_app2 by lia. rewrite nth_error_skipn_add. f_equal. lia.
    - cbn [andb]. rewrite nth_error_app1 by lia. rewrite nth_error_firstn_lt. destruct (Nat.ltb_spec j i); [reflexivity|lia].
  Qed.
  Lemma splice_length (l : list A) i xs : i + length xs <= length l -> length (splice l i xs) = length l.
  Proof. intro L. unfold splice. rewrite !app_length, firstn_length, skipn_length. lia. Qed.
  Lemma array_in h a : 0 < length (array h a) -> a < length h.
  Proof. intro L. destruct (Nat.lt_ge_cases a (length h)) as [|G]; [assumption|]. unfold array in L. rewrite nth_overflow in L by exact G. cbn in L. lia. Qed.

  Lemma cell_store h a i xs b j : i + length xs <= length (array h a) ->
    cell (store h a i xs) b j = if (b =? a) && ((i <=? j) && (j <? i + length xs)) then nth_error xs (j - i) else cell h b j.
  Proof.
    intro L. unfold cell, store. rewrite update_array. destruct (Nat.eqb_spec b a) as [->|N]; cbn [andb]; [|reflexivity].
    destruct (Nat.ltb_spec a (length h)) as [P|P].
    - apply splice_nth. exact L.
    - unfold array in L |- *. rewrite nth_overflow in L |- * by exact P. cbn in L. destruct xs; cbn in L; [|lia]. cbn [length].
      destruct (Nat.leb_spec i j); destruct (Nat.ltb_spec j (i + 0)); cbn [andb]; try reflexivity. lia.
  Qed.
  Lemma store_arrays h a i xs b : i + length xs <= length (array h a) -> length (array (store h a i xs) b) = length (array h b).
  Proof.
    intro L. unfold store. rewrite update_array. destruct (Nat.eqb_spec b a) as [->|N]; cbn [andb]; [|reflexivity].
    destruct (a <? length h); [apply splice_length; exact L|reflexivity].
  Qed.

  Lemma view_nth h s i : nth_error (view h s) i = if i <? sl_len s then cell h (sl_arr s) (sl_off s + i) else None.
  Proof. unfold view, cell. rewrite nth_error_firstn_lt, nth_error_skipn_add. reflexivity. Qed.
  Lemma view_length h s : lies_in h s -> length (view h s) = sl_len s.
  Proof. intros [L1 L2]. unfold view. rewrite firstn_length, skipn_length. lia. Qed.
  Lemma view_same h h' s : (forall i, sl_off s <= i < sl_off s + sl_len s -> cell h' (sl_arr s) i = cell h (sl_arr s) i) -> view h' s = view h s.
  Proof.
    intro E. apply nth_error_ext. intro i. rewrite !view_nth. destruct (Nat.ltb_spec i (sl_len s)) as [L|L]; [|reflexivity].
    apply E. lia.
  Qed.

  Lemma cell_alloc h xs spare b j : b < length h -> cell (fst (alloc h xs spare)) b j = cell h b j.
  Proof. intro L. unfold cell, alloc, array. cbn [fst]. rewrite app_nth1 by exact L. reflexivity. Qed.
  Lemma cell_in h b j x : cell h b j = Some x -> b < length h.
  Proof. intro E. apply array_in. unfold cell in E. assert (j < length (array h b)) by (apply nth_error_Some; congruence). lia. Qed.
  Lemma view_alloc h xs spare : view (fst (alloc h xs spare)) (snd (alloc h xs spare)) = xs.
  Proof.
    unfold view, alloc, array. cbn [fst snd sl_len sl_off sl_arr]. rewrite app_nth2 by lia. rewrite Nat.sub_diag. cbn [nth skipn].
    rewrite firstn_app, Nat.sub_diag, firstn_all. cbn. apply app_nil_r.
  Qed.

  (** append: the result, and which old cells change *)
  Lemma append_view h s xs spare : lies_in h s -> view (fst (go_append h s xs spare)) (snd (go_append h s xs spare)) = view h s ++ xs.
  Proof.
    intros [L1 L2]. unfold go_append. destruct (Nat.leb_spec (sl_len s + length xs) (sl_cap s)) as [L|L]; [|apply view_alloc].
    cbn [fst snd]. apply nth_error_ext. intro i. rewrite view_nth. cbn [sl_len sl_arr sl_off].
    assert (LV : length (view h s) = sl_len s) by (apply view_length; split; assumption).
    rewrite cell_store by lia. rewrite Nat.eqb_refl. cbn [andb].
    destruct (Nat.lt_ge_cases i (sl_len s)) as [P|P].
    - rewrite nth_error_app1 by lia. rewrite view_nth. rewrite (proj2 (Nat.ltb_lt i (sl_len s)) P), (proj2 (Nat.ltb_lt _ _) (ltac:(lia) : i < sl_len s + length xs)).
      destruct (Nat.leb_spec (sl_off s + sl_len s) (sl_off s + i)); [lia|reflexivity].
    - rewrite nth_error_app2 by lia. rewrite LV. destruct (Nat.ltb_spec i (sl_len s + length xs)) as [Q|Q].
      + destruct (Nat.leb_spec (sl_off s + sl_len s) (sl_off s + i)); [|lia]. destruct (Nat.ltb_spec (sl_off s + i) (sl_off s + sl_len s + length xs)); [|lia].
        cbn [andb]. f_equal. lia.
      + symmetry. apply nth_error_None. lia.
  Qed.
  Lemma append_cells h s xs spare a i x : lies_in h s -> cell h a i = Some x ->
    cell (fst (go_append h s xs spare)) a i =
    if (sl_len s + length xs <=? sl_cap s) && ((a =? sl_arr s) && ((sl_off s + sl_len s <=? i) && (i <? sl_off s + sl_len s + length xs)))
    then nth_error xs (i - (sl_off s + sl_len s)) else cell h a i.
  Proof.
    intros [L1 L2] E. unfold go_append. destruct (Nat.leb_spec (sl_len s + length xs) (sl_cap s)) as [L|L]; cbn [andb].
    - cbn [fst]. apply cell_store. lia.
    - apply cell_alloc. exact (cell_in E).
  Qed.
End Facts.

(** sort.Ints *)
Lemma insertZ_perm x l : Permutation (x :: l) (insertZ x l).
Proof.
  induction l as [|y l IH]; cbn [insertZ]; [reflexivity|]. destruct (x <=? y)%Z; [reflexivity|].
  transitivity (y :: x :: l); [apply perm_swap|]. apply perm_skip. exact IH.
Qed.
Lemma sortInts_perm l : Permutation l (sortInts l).
Proof.
  induction l as [|x l IH]; [reflexivity|]. change (sortInts (x :: l)) with (insertZ x (sortInts l)).
  transitivity (x :: sortInts l); [apply perm_skip; exact IH|apply insertZ_perm].
Qed.
Lemma insertZ_sorted x l : Sorted Z.le l -> Sorted Z.le (insertZ x l).
Proof.
  induction l as [|y l IH]; intro S; cbn [insertZ]; [repeat constructor|]. destruct (Z.leb_spec x y) as [L|L].
  - constructor; [exact S|constructor; exact L].
  - inversion S as [|? ? S' HD]; subst. constructor; [apply IH; exact S'|].
    destruct l as [|z l]; cbn [insertZ]; [constructor; lia|]. destruct (x <=? z)%Z; constructor; [lia|]. inversion HD; subst. assumption.
Qed.
Lemma sortInts_sorted l : Sorted Z.le (sortInts l).
Proof. induction l as [|x l IH]; [constructor|]. apply insertZ_sorted. exact IH. Qed.
Lemma sortInts_fix l : Sorted Z.le l -> sortInts l = l.
Proof.
  induction l as [|x l IH]; intro S; [reflexivity|]. inversion S as [|? ? S' HD]; subst. change (sortInts (x :: l)) with (insertZ x (sortInts l)).
  rewrite (IH S'). destruct l as [|y l]; [reflexivity|]. inversion HD; subst. cbn [insertZ]. rewrite (proj2 (Z.leb_le x y)) by assumption. reflexivity.
Qed.
Lemma sortInts_length l : length (sortInts l) = length l.
Proof. symmetry. apply Permutation_length. apply sortInts_perm. Qed.

Lemma sort_view h s : lies_in h s -> view (go_sort h s) s = sortInts (view h s).
Proof.
  intros [L1 L2]. assert (LV : length (sortInts (view h s)) = sl_len s) by (rewrite sortInts_length; apply view_length; split; assumption).
  apply nth_error_ext. intro i. rewrite view_nth. unfold go_sort. rewrite cell_store by lia. rewrite Nat.eqb_refl. cbn [andb].
  destruct (Nat.ltb_spec i (sl_len s)) as [P|P].
  - destruct (Nat.leb_spec (sl_off s) (sl_off s + i)); [|lia]. destruct (Nat.ltb_spec (sl_off s + i) (sl_off s + length (sortInts (view h s)))); [|lia].
    cbn [andb]. f_equal. lia.
  - symmetry. apply nth_error_None. lia.
Qed.
Lemma sort_cells h s a i : lies_in h s -> ~ (a = sl_arr s /\ sl_off s <= i < sl_off s + sl_len s) -> cell (go_sort h s) a i = cell h a i.
Proof.
  intros [L1 L2] N. assert (LV : length (sortInts (view h s)) = sl_len s) by (rewrite sortInts_length; apply view_length; split; assumption).
  unfold go_sort. rewrite cell_store by lia. rewrite LV. destruct (Nat.eqb_spec a (sl_arr s)) as [->|]; [|reflexivity]. cbn [andb].
  destruct (Nat.leb_spec (sl_off s) i); [|reflexivity]. destruct (Nat.ltb_spec i (sl_off s + sl_len s)); [|reflexivity]. exfalso. apply N. auto.
Qed.
