(** Basic facts about the BBS+ model: multi-exponentiations, generators, byte codecs. *)
From Verif Require Import Base Curve Algebra Bbs BbsSpec.
From Coq Require Import Field Ring Sorting.Sorted NArith Nnat.
Unset Strict Implicit.

(** ** Bytes *)
Lemma slice_app A (a b c : list A) : slice (a ++ b ++ c) (length a) (length a + length b) = Ok b.
Proof.
  unfold slice. rewrite !app_length.
  replace (length a <=? length a + length b) with true by (symmetry; apply Nat.leb_le; lia).
  replace (length a + length b <=? _) with true by (symmetry; apply Nat.leb_le; lia).
  cbn [andb]. f_equal. rewrite skipn_app, skipn_all, Nat.sub_diag. cbn [app skipn].
  replace (length a + length b - length a) with (length b) by lia.
  rewrite firstn_app, firstn_all, Nat.sub_diag, firstn_O, app_nil_r. reflexivity.
Qed.

Lemma slice_at A (a b c : list A) i j : length a = i -> i + length b = j -> slice (a ++ b ++ c) i j = Ok b.
Proof. intros <- <-. apply slice_app. Qed.

Lemma slice_head A (b c : list A) j : length b = j -> slice (b ++ c) 0 j = Ok b.
Proof. intros <-. apply (@slice_app A [] b c). Qed.

Lemma slice_from_at A (a b : list A) i : length a = i -> slice_from (a ++ b) i = Ok b.
Proof.
  intros <-. unfold slice_from. rewrite <- (app_nil_r b) at 1. apply slice_at; [reflexivity|].
  rewrite !app_length. simpl. lia.
Qed.

Lemma slice_len A (l : list A) lo hi x : slice l lo hi = Ok x -> lo <= hi <= length l /\ length x = hi - lo /\ x = firstn (hi - lo) (skipn lo l).
Proof.
  unfold slice. destruct (lo <=? hi) eqn:E1; destruct (hi <=? length l) eqn:E2; cbn [andb]; try discriminate.
  intro E; injection E as <-. apply Nat.leb_le in E1, E2. split; [lia|]. split; [|reflexivity].
  rewrite firstn_length, skipn_length. lia.
Qed.

Lemma os2ip_i2osp_small n z : (0 <= z < 256 ^ Z.of_nat n)%Z -> os2ip (i2osp n z) = z.
Proof. intro B. rewrite os2ip_i2osp. apply Z.mod_small. exact B. Qed.

Lemma i2osp_inj n a b : (0 <= a < 256 ^ Z.of_nat n)%Z -> (0 <= b < 256 ^ Z.of_nat n)%Z -> i2osp n a = i2osp n b -> a = b.
Proof. intros A B E. rewrite <- (os2ip_i2osp_small A), <- (os2ip_i2osp_small B), E. reflexivity. Qed.

Lemma set_nth_length A (f : A -> A) : forall l i, length (set_nth l i f) = length l.
Proof. induction l as [|x l IH]; intros [|i]; simpl; auto. Qed.

Lemma set_nth_same A (f : A -> A) : forall l i x, nth_error l i = Some x -> nth_error (set_nth l i f) i = Some (f x).
Proof. induction l as [|y l IH]; intros [|i] x E; simpl in *; try discriminate; [congruence|auto]. Qed.

Lemma set_nth_other A (f : A -> A) : forall l i j, i <> j -> nth_error (set_nth l i f) j = nth_error l j.
Proof. induction l as [|y l IH]; intros [|i] [|j] N; simpl; auto; try lia. Qed.

Lemma set_nth_app A (f : A -> A) a x b : set_nth (a ++ x :: b) (length a) f = a ++ f x :: b.
Proof. induction a as [|y a IH]; simpl; [reflexivity|rewrite IH; reflexivity]. Qed.

(** Overwriting a block of a buffer *)
Lemma write_at_app : forall src a old b, length old = length src ->
  write_at (a ++ old ++ b) (length a) src = Ok (a ++ src ++ b).
Proof.
  induction src as [|x src IH]; intros a old b L; destruct old as [|y old]; simpl in L; try lia; [reflexivity|].
  cbn [write_at].
  replace (length a <? _) with true by (symmetry; apply Nat.ltb_lt; rewrite !app_length; simpl; lia).
  cbn [app]. rewrite set_nth_app.
  replace (S (length a)) with (length (a ++ [x])) by (rewrite app_length; simpl; lia).
  replace (a ++ x :: old ++ b) with ((a ++ [x]) ++ old ++ b) by (rewrite <- app_assoc; reflexivity).
  rewrite IH by lia. rewrite <- app_assoc. reflexivity.
Qed.

Lemma copy_win_app a old b src : length old = length src ->
  copy_win (a ++ old ++ b) (length a) (length a + length old) src = Ok (a ++ src ++ b).
Proof.
  intro L. unfold copy_win. rewrite !app_length.
  replace (length a <=? length a + length old) with true by (symmetry; apply Nat.leb_le; lia).
  replace (length a + length old <=? _) with true by (symmetry; apply Nat.leb_le; lia).
  cbn [andb]. f_equal.
  rewrite firstn_app, firstn_all, Nat.sub_diag, firstn_O, app_nil_r.
  replace (length a + length old - length a) with (length old) by lia. rewrite L, Nat.min_id.
  rewrite firstn_all. f_equal. f_equal.
  rewrite skipn_app, skipn_all2 by lia.
  replace (length a + length src - length a) with (length src) by lia.
  rewrite <- L, skipn_app, skipn_all, Nat.sub_diag. reflexivity.
Qed.

Lemma copy_win_at a old b src i j : length a = i -> i + length old = j -> length old = length src ->
  copy_win (a ++ old ++ b) i j src = Ok (a ++ src ++ b).
Proof. intros <- <-. apply copy_win_app. Qed.

(** ** The payload *)
(** positions of the bits set in a list of bytes, least significant bit of the first byte first *)
Definition bit_at (data : bytes) (p : nat) : bool :=
  match nth_error data (p / 8) with
  | Some b => N.testbit (Byte.to_N b) (N.of_nat (p mod 8))
  | None => false
  end.

Definition bits_of (v : N) (scalar n : nat) : list nat :=
  map (fun i => scalar + i) (filter (fun i => N.testbit v (N.of_nat i)) (seq 0 n)).

Lemma bits_of_S v scalar n :
  bits_of v scalar (S n) = (if N.testbit v 0 then [scalar] else []) ++ bits_of (N.div2 v) (S scalar) n.
Proof.
  unfold bits_of. cbn [seq filter]. change (N.of_nat 0) with 0%N.
  rewrite <- seq_shift.
  assert (F : forall l, filter (fun i => N.testbit v (N.of_nat i)) (map S l)
            = map S (filter (fun i => N.testbit (N.div2 v) (N.of_nat i)) l)).
  { induction l as [|x l IH]; [reflexivity|]. cbn [map filter].
    rewrite IH. rewrite <- N.testbit_succ_r_div2 by lia.
    rewrite <- Nat2N.inj_succ. destruct (N.testbit v (N.of_nat (S x))); reflexivity. }
  rewrite F. destruct (N.testbit v 0); cbn [map app]; rewrite map_map; rewrite ?Nat.add_0_r;
    [f_equal|]; apply map_ext; intro; lia.
Qed.

Lemma bits_of_0 scalar n : bits_of 0 scalar n = [].
Proof.
  unfold bits_of. replace (filter _ (seq 0 n)) with (@nil nat); [reflexivity|].
  symmetry. generalize (seq 0 n). induction l as [|x l IH]; [reflexivity|]. cbn [filter]. rewrite N.bits_0. exact IH.
Qed.

Lemma bit_loop_spec fuel : forall v scalar acc, (v < 2 ^ N.of_nat fuel)%N ->
  exists s' r', bit_loop fuel v scalar fuel acc = (acc ++ bits_of v scalar fuel, s', r') /\ s' + r' = scalar + fuel.
Proof.
  induction fuel as [|fuel IH]; intros v scalar acc B.
  - exists scalar, 0. cbn [bit_loop]. unfold bits_of. cbn. rewrite app_nil_r. auto.
  - cbn [bit_loop]. destruct (0 <? v)%N eqn:P.
    + assert (B' : (N.div2 v < 2 ^ N.of_nat fuel)%N).
      { rewrite N.div2_div. apply N.div_lt_upper_bound; [lia|].
        rewrite Nat2N.inj_succ, N.pow_succ_r in B by lia. lia. }
      replace (S fuel - 1) with fuel by lia.
      destruct (IH (N.div2 v) (S scalar) (if (N.land v 1 =? 1)%N then acc ++ [scalar] else acc) B') as (s' & r' & E & L).
      exists s', r'. rewrite E. split; [|lia]. f_equal. f_equal.
      rewrite bits_of_S. change 1%N with (N.ones 1). rewrite N.land_ones. change (2 ^ 1)%N with 2%N.
      change (N.ones 1) with 1%N.
      rewrite <- N.bit0_mod. destruct (N.testbit v 0); cbn [N.b2n N.eqb Pos.eqb app].
      * rewrite <- app_assoc. reflexivity.
      * reflexivity.
    + assert (v = 0)%N by lia. subst v. exists scalar, (S fuel). rewrite bits_of_0, app_nil_r. auto.
Qed.

Lemma shift_seq d n : forall a, map (fun i => d + i) (seq a n) = seq (d + a) n.
Proof.
  induction n as [|n IH]; intro a; [reflexivity|]. cbn [seq map]. rewrite IH.
  rewrite Nat.add_succ_r. reflexivity.
Qed.

Lemma bitvector_loop_spec data : forall scalar acc,
  bitvector_loop data scalar acc
  = acc ++ map (fun i => scalar + i) (filter (bit_at data) (seq 0 (8 * length data))).
Proof.
  induction data as [|v data IH]; intros scalar acc.
  - cbn. rewrite app_nil_r. reflexivity.
  - cbn [bitvector_loop].
    destruct (@bit_loop_spec 8 (Byte.to_N v) scalar acc) as (s' & r' & E & L).
    { pose proof (Byte.to_N_bounded v). simpl. lia. }
    rewrite E, IH, <- app_assoc, L. f_equal.
    cbn [length]. replace (8 * S (length data)) with (8 + 8 * length data) by lia.
    rewrite (seq_app 8 (8 * length data) 0), filter_app, map_app. apply (f_equal2 (@app nat)).
    + unfold bits_of. apply f_equal. apply filter_ext_in. intros a Ha. apply in_seq in Ha.
      unfold bit_at. rewrite Nat.div_small, Nat.mod_small by lia. reflexivity.
    + change (0 + 8) with 8.
      assert (F : forall l, filter (bit_at (v :: data)) (map (fun i => 8 + i) l) = map (fun i => 8 + i) (filter (bit_at data) l)).
      { induction l as [|x l IHl]; [reflexivity|]. cbn [map filter].
        assert (Q : bit_at (v :: data) (8 + x) = bit_at data x).
        { unfold bit_at. replace (8 + x) with (x + 1 * 8) by lia. rewrite Nat.div_add, Nat.mod_add by lia.
          replace (x / 8 + 1) with (S (x / 8)) by lia. reflexivity. }
        rewrite Q, IHl. destruct (bit_at data x); reflexivity. }
      replace (seq 8 (8 * length data)) with (map (fun i => 8 + i) (seq 0 (8 * length data))).
      * rewrite F, map_map. apply map_ext. intro; lia.
      * apply shift_seq.
Qed.

Lemma bitvectorToIndexes_spec data : bitvectorToIndexes data = filter (bit_at data) (seq 0 (8 * length data)).
Proof.
  unfold bitvectorToIndexes. rewrite bitvector_loop_spec. cbn [app].
  rewrite (map_ext (fun i => 0 + i) (fun i => i)) by reflexivity. apply map_id.
Qed.

Lemma seq_increasing n : forall a, increasing (seq a n).
Proof.
  induction n as [|n IH]; intro a; [constructor|]. cbn [seq]. constructor; [apply IH|].
  apply Forall_forall. intros x Hx. apply in_seq in Hx. lia.
Qed.

Lemma filter_increasing f l : increasing l -> increasing (filter f l).
Proof.
  induction 1 as [|x l S IH F]; [constructor|]. cbn [filter]. destruct (f x); [|exact IH].
  constructor; [exact IH|]. apply Forall_forall. intros y Hy. apply filter_In in Hy.
  rewrite Forall_forall in F. apply F, Hy.
Qed.

(** two strictly increasing lists with the same members are equal *)
Lemma increasing_ext : forall l l', increasing l -> increasing l' -> (forall i, In i l <-> In i l') -> l = l'.
Proof.
  induction l as [|x l IH]; intros [|y l'] S S' E.
  - reflexivity.
  - exfalso. apply (E y). left; reflexivity.
  - exfalso. apply (E x). left; reflexivity.
  - inversion S as [|? ? S1 F1]; subst. inversion S' as [|? ? S2 F2]; subst.
    rewrite Forall_forall in F1, F2.
    assert (x = y).
    { assert (X : In x (y :: l')) by (apply E; left; reflexivity).
      assert (Y : In y (x :: l)) by (apply E; left; reflexivity).
      destruct X as [X|X]; [auto|]. destruct Y as [Y|Y]; [auto|].
      apply F2 in X. apply F1 in Y. lia. }
    subst y. f_equal. apply IH; auto. intro i. split; intro I.
    + destruct (proj1 (E i) (or_intror I)) as [->|J]; [|exact J]. apply F1 in I. lia.
    + destruct (proj2 (E i) (or_intror I)) as [->|J]; [|exact J]. apply F2 in I. lia.
Qed.

Lemma or_bit_N b k : k < 8 -> Byte.to_N (or_bit b k) = N.lor (Byte.to_N b) (N.shiftl 1 (N.of_nat k)).
Proof.
  intro K. unfold or_bit. destruct (Byte.of_N _) as [x|] eqn:E.
  - apply Byte.to_of_N in E. exact E.
  - exfalso. apply Byte.of_N_None_iff in E.
    assert (L : (N.lor (Byte.to_N b) (N.shiftl 1 (N.of_nat k)) < 2 ^ 8)%N); [|change (2 ^ 8)%N with 256%N in L; lia].
    pose proof (Byte.to_N_bounded b) as B.
    assert (B2 : (N.shiftl 1 (N.of_nat k) < 2 ^ 8)%N).
    { rewrite N.shiftl_mul_pow2, N.mul_1_l. apply N.pow_lt_mono_r; lia. }
    destruct (N.eq_dec (N.lor (Byte.to_N b) (N.shiftl 1 (N.of_nat k))) 0) as [->|NZ]; [reflexivity|].
    apply N.log2_lt_pow2; [lia|]. rewrite N.log2_lor. apply N.max_lub_lt.
    + destruct (N.eq_dec (Byte.to_N b) 0) as [->|]; [reflexivity|]. apply N.log2_lt_pow2; [lia|change (2 ^ 8)%N with 256%N; lia].
    + destruct (N.eq_dec (N.shiftl 1 (N.of_nat k)) 0) as [->|]; [reflexivity|]. apply N.log2_lt_pow2; [lia|exact B2].
Qed.

Lemma set_bit_at bv r : r / 8 < length bv -> forall p,
  bit_at (set_nth bv (r / 8) (fun b => or_bit b (r mod 8))) p = bit_at bv p || (p =? r).
Proof.
  intros L p. unfold bit_at.
  pose proof (Nat.div_mod p 8 ltac:(lia)) as Dp. pose proof (Nat.div_mod r 8 ltac:(lia)) as Dr.
  pose proof (Nat.mod_upper_bound p 8 ltac:(lia)). pose proof (Nat.mod_upper_bound r 8 ltac:(lia)).
  destruct (Nat.eq_dec (r / 8) (p / 8)) as [E|N].
  - destruct (nth_error bv (p / 8)) as [b|] eqn:G.
    2:{ apply nth_error_None in G. lia. }
    rewrite E. rewrite (@set_nth_same _ _ _ _ b G). rewrite or_bit_N by lia.
    rewrite N.lor_spec. f_equal. rewrite N.shiftl_mul_pow2, N.mul_1_l, N.pow2_bits_eqb.
    destruct (p =? r) eqn:Q; lia.
  - rewrite set_nth_other by exact N. replace (p =? r) with false by lia. rewrite orb_false_r. reflexivity.
Qed.

Lemma set_bits_spec revealed : forall bv out, set_bits bv revealed = Ok out ->
  length out = length bv /\ forall p, bit_at out p = bit_at bv p || existsb (Nat.eqb p) revealed.
Proof.
  induction revealed as [|r rs IH]; intros bv out E; cbn [set_bits] in E.
  - injection E as <-. split; [reflexivity|]. intro p. cbn. rewrite orb_false_r. reflexivity.
  - destruct (length bv <=? r / 8) eqn:G; [discriminate|]. apply Nat.leb_gt in G.
    apply IH in E. destruct E as [L E]. rewrite set_nth_length in L. split; [exact L|].
    intro p. rewrite E, set_bit_at by exact G. cbn [existsb]. rewrite orb_assoc. reflexivity.
Qed.

Lemma set_bits_ok revealed : forall bv, (forall r, In r revealed -> r / 8 < length bv) -> exists out, set_bits bv revealed = Ok out.
Proof.
  induction revealed as [|r rs IH]; intros bv B; cbn [set_bits]; [eauto|].
  replace (length bv <=? r / 8) with false.
  - apply IH. intros x Hx. rewrite set_nth_length. apply B. right; exact Hx.
  - symmetry. apply Nat.leb_gt. apply B. left; reflexivity.
Qed.

Lemma bit_at_zeros n p : bit_at (zeros n) p = false.
Proof.
  unfold bit_at. destruct (nth_error (zeros n) (p / 8)) as [b|] eqn:E; [|reflexivity].
  apply nth_error_In in E. apply repeat_spec in E. subst b. apply N.bits_0.
Qed.

(** positions outside the vector are refused *)
Lemma set_bits_in revealed : forall bv out, set_bits bv revealed = Ok out -> forall r, In r revealed -> r / 8 < length bv.
Proof.
  induction revealed as [|r rs IH]; intros bv out E x I; cbn [set_bits] in E; [destruct I|].
  destruct (Nat.leb_spec (length bv) (r / 8)) as [L|L]; [discriminate|]. destruct I as [<-|I]; [exact L|].
  pose proof (IH _ _ E x I) as Q. rewrite set_nth_length in Q. exact Q.
Qed.
Lemma payload_written p b : payloadBytes p = Ok b ->
  (Z.of_nat (pp_count p) <= 65535)%Z /\ (forall r, In r (pp_revealed p) -> r < 8 * (pp_count p / 8 + 1)).
Proof.
  unfold payloadBytes. intro E. inv_all. split; [apply Z.leb_le; assumption|]. intros r I.
  match goal with Q : set_bits _ _ = Ok _ |- _ => pose proof (set_bits_in Q I) as L end.
  rewrite zeros_length in L. unfold lenInBytes in L. pose proof (Nat.div_mod r 8 ltac:(lia)). pose proof (Nat.mod_upper_bound r 8 ltac:(lia)). lia.
Qed.

(** the payload parser inverts the writer *)
Lemma payload_rt p : (Z.of_nat (pp_count p) <= 65535)%Z -> (forall r, In r (pp_revealed p) -> r < 8 * (pp_count p / 8 + 1)) ->
  exists b, payloadBytes p = Ok b /\ length b = lenInBytes (pp_count p) /\
    forall tail, exists l, parsePoKPayload (b ++ tail) = Ok {| pp_count := pp_count p; pp_revealed := l |} /\
      increasing l /\ forall i, In i l <-> In i (pp_revealed p).
Proof.
  intros Hc Hr. destruct p as [n rs]. cbn [pp_count pp_revealed] in *.
  unfold payloadBytes. cbn [pp_count pp_revealed].
  replace (Z.of_nat n <=? 65535)%Z with true by lia. cbn [guard bind].
  destruct (@set_bits_ok rs (zeros (lenInBytes n - 2))) as [bv Ebv].
  { intros r Hx. apply Hr in Hx. rewrite zeros_length. unfold lenInBytes.
    apply Nat.div_lt_upper_bound; lia. }
  rewrite Ebv. cbn [bind]. eexists. split; [reflexivity|].
  destruct (set_bits_spec Ebv) as [L B]. rewrite zeros_length in L.
  assert (L2 : length (rev bv) = lenInBytes n - 2) by (rewrite rev_length; exact L).
  split. { rewrite app_length, i2osp_length, L2. unfold lenInBytes. lia. }
  intro tail. unfold parsePoKPayload.
  rewrite <- app_assoc.
  replace (2 <=? _) with true by (symmetry; apply Nat.leb_le; rewrite app_length, i2osp_length; lia).
  cbn [guard bind].
  rewrite slice_head by apply i2osp_length. cbn [bind].
  rewrite os2ip_i2osp_small by (change (256 ^ Z.of_nat 2)%Z with 65536%Z; lia).
  rewrite Nat2Z.id.
  replace (lenInBytes n <=? _) with true
    by (symmetry; apply Nat.leb_le; rewrite !app_length, i2osp_length, L2; unfold lenInBytes; lia).
  cbn [guard bind].
  rewrite (@slice_at _ (i2osp 2 (Z.of_nat n)) (rev bv) tail 2 (lenInBytes n)).
  2:{ apply i2osp_length. }
  2:{ rewrite L2. unfold lenInBytes. lia. }
  cbn [bind]. eexists. split; [reflexivity|]. rewrite rev_involutive, bitvectorToIndexes_spec.
  split. { apply filter_increasing, seq_increasing. }
  intro i. rewrite filter_In, in_seq, B, bit_at_zeros, orb_false_l, L.
  unfold lenInBytes. split.
  - intros [_ E]. apply existsb_exists in E. destruct E as [x [Hx Q]]. apply Nat.eqb_eq in Q. subst; exact Hx.
  - intro I. split; [specialize (Hr _ I); lia|]. apply existsb_exists. exists i. split; [exact I|apply Nat.eqb_refl].
Qed.

(** what a successful parse says *)
Lemma parse_payload_inv b p : parsePoKPayload b = Ok p ->
  increasing (pp_revealed p) /\ (forall i, In i (pp_revealed p) -> i < 8 * (pp_count p / 8 + 1)) /\
  lenInBytes (pp_count p) <= length b /\ (Z.of_nat (pp_count p) <= 65535)%Z.
Proof.
  unfold parsePoKPayload. intro E. inv_all. cbn [pp_count pp_revealed].
  match goal with X : slice b 0 2 = Ok ?h, Y : slice b 2 _ = Ok ?v |- _ =>
    apply slice_len in X; destruct X as (X1 & X2 & X3); apply slice_len in Y; destruct Y as (Y1 & Y2 & Y3);
    pose proof (os2ip_bound h) as Bd; rewrite X2 in Bd end.
  change (256 ^ Z.of_nat (2 - 0))%Z with 65536%Z in Bd.
  rewrite bitvectorToIndexes_spec. split; [apply filter_increasing, seq_increasing|].
  split; [|split; [lia|lia]].
  intros i I. apply filter_In in I. destruct I as [I _]. apply in_seq in I.
  rewrite rev_length, Y2 in I. unfold lenInBytes in I. lia.
Qed.

Section Facts.
  Context {C : Curve} (OK : CurveOk C).
  Let KO := ok_zr OK.
  Let GO1 := ok_g1 OK.
  Let GO2 := ok_g2 OK.
  Let GOT := ok_gt OK.
  Add Field Kf_bbs : (sok_field KO).
  Notation zr := (zcar (Zr C)).
  Notation g1 := (gcar (G1 C)).
  Notation g2 := (gcar (G2 C)).

  (** ** sumOfG1Products *)
  Lemma sum_loop_ok : forall n (bases : list g1) (scalars : list zr) acc, length bases <= n -> length bases <= length scalars ->
    sum_loop bases scalars acc
    = Ok (match bases with [] => acc | _ => Some (match acc with None => gdot bases scalars | Some r => r ⊕ gdot bases scalars end) end).
  Proof.
    induction n as [|n IH]; intros bases scalars acc Ln L.
    - destruct bases; [reflexivity|simpl in Ln; lia].
    - destruct bases as [|x1 [|x2 bases]]; [reflexivity| |].
      + destruct scalars as [|s scalars]; [simpl in L; lia|]. cbn [sum_loop gdot]. f_equal. f_equal.
        destruct acc; [f_equal|]; rewrite (gadd_zero_r GO1); reflexivity.
      + destruct scalars as [|s1 [|s2 scalars]]; simpl in L; try lia.
        cbn [sum_loop]. rewrite IH by (simpl in Ln; lia). f_equal.
        destruct bases as [|b bases].
        * cbn [gdot]. f_equal. destruct acc; unfold gmul2; rewrite (gadd_zero_r GO1); reflexivity.
        * f_equal. cbn [gdot]. unfold gmul2. destruct acc; rewrite !(gok_assoc GO1); reflexivity.
  Qed.

  Lemma sum_ok (bases : list g1) (scalars : list zr) : bases <> [] -> length bases <= length scalars ->
    sumOfG1Products bases scalars = Ok (Some (gdot bases scalars)).
  Proof.
    intros N L. unfold sumOfG1Products. rewrite (@sum_loop_ok (length bases)) by lia.
    destruct bases; [contradiction|reflexivity].
  Qed.

  Lemma sum_loop_short : forall n (bases : list g1) (scalars : list zr) acc, length bases <= n -> length scalars < length bases ->
    sum_loop bases scalars acc = Panic.
  Proof.
    induction n as [|n IH]; intros bases scalars acc Ln L; [lia|].
    destruct bases as [|x1 [|x2 bases]]; simpl in L; [lia| |].
    - destruct scalars; [reflexivity|simpl in L; lia].
    - destruct scalars as [|s1 [|s2 scalars]]; [reflexivity|reflexivity|]. simpl in L, Ln. cbn [sum_loop]. apply IH; lia.
  Qed.

  Lemma sum_short (bases : list g1) (scalars : list zr) : length scalars < length bases -> sumOfG1Products bases scalars = Panic.
  Proof. intro L. unfold sumOfG1Products. apply (@sum_loop_short (length bases)); lia. Qed.

  Lemma build_ok (cb : list (g1 * zr)) : cb <> [] -> build cb = Ok (gdot (map fst cb) (map snd cb)).
  Proof.
    intro N. unfold build. rewrite sum_ok; [reflexivity| |rewrite !map_length; lia].
    destruct cb; [contradiction|discriminate].
  Qed.

  Lemma finish_ok (bases : list g1) (bl : list zr) : bases <> [] -> length bases <= length bl ->
    finish bases bl = Ok {| pc_bases := bases; pc_blind := bl; pc_comm := gdot bases bl |}.
  Proof. intros N L. unfold finish. rewrite sum_ok by assumption. reflexivity. Qed.

  (** ** gdot *)
  Lemma gdot_firstn (ps : list g1) : forall ks : list zr, gdot ps ks = gdot ps (firstn (length ps) ks).
  Proof. induction ps as [|p ps IH]; intros [|k ks]; cbn [gdot length firstn]; try reflexivity. rewrite IH. reflexivity. Qed.

  Lemma gdot_extra (ps : list g1) : forall (ks ls : list zr), length ps <= length ks -> gdot ps (ks ++ ls) = gdot ps ks.
  Proof.
    induction ps as [|p ps IH]; intros ks ls L; [reflexivity|].
    destruct ks as [|k ks]; [simpl in L; lia|]. cbn [gdot app length] in *. rewrite IH by lia. reflexivity.
  Qed.

  (** responses [b - c x] *)
  Definition resp (c : zr) (bl xs : list zr) : list zr := map (fun p => zsub (fst p) (zmul c (snd p))) (combine bl xs).

  Lemma responses_ok c : forall bl xs, length bl <= length xs -> responses c bl xs = Ok (resp c bl xs).
  Proof.
    induction bl as [|b bl IH]; intros [|x xs] L; simpl in L; try lia; try reflexivity.
    cbn [responses]. rewrite IH by lia. reflexivity.
  Qed.

  Lemma responses_inv c : forall bl xs r, responses c bl xs = Ok r -> length bl <= length xs /\ r = resp c bl xs.
  Proof.
    induction bl as [|b bl IH]; intros [|x xs] r E; cbn [responses] in E.
    - injection E as <-. split; [simpl; lia|reflexivity].
    - injection E as <-. split; [simpl; lia|reflexivity].
    - discriminate.
    - inv_all. destruct (IH _ _ E0) as [L ->]. split; [simpl; lia|reflexivity].
  Qed.

  Lemma resp_length c bl xs : length bl <= length xs -> length (resp c bl xs) = length bl.
  Proof. intro L. unfold resp. rewrite map_length, combine_length. lia. Qed.

  Lemma gdot_resp c : forall (ps : list g1) bl xs, length bl = length ps -> length xs = length ps ->
    gdot ps (resp c bl xs) = gdot ps bl ⊖ (gdot ps xs ⊗ c).
  Proof.
    unfold resp. induction ps as [|p ps IH]; intros [|b bl] [|x xs] L1 L2; cbn [length] in *; try lia.
    - cbn [combine map gdot]. rewrite (gmul_zero GO1), (gsub_diag KO GO1). reflexivity.
    - cbn [combine map gdot fst snd]. rewrite IH by lia. gnorm KO GO1; ring.
  Qed.

  (** ** ProofG1 *)
  (** what the verifier computes when there are at least as many scalars as points *)
  Lemma contribution_ok (p : ProofG1 C) bases cm c : length bases <= length (pf_resp p) ->
    getChallengeContribution p bases cm c = Ok (gdot (bases ++ [cm]) (pf_resp p ++ [c])).
  Proof.
    intro L. unfold getChallengeContribution. rewrite sum_ok; [reflexivity| |].
    - destruct bases; discriminate.
    - rewrite !app_length. simpl. lia.
  Qed.

  Lemma proofG1Verify_inv (p : ProofG1 C) bases cm c u : proofG1Verify p bases cm c = Ok u ->
    length bases <= length (pf_resp p) /\ gdot (bases ++ [cm]) (pf_resp p ++ [c]) = pf_comm p.
  Proof.
    intro E. unfold proofG1Verify in E.
    destruct (Nat.le_gt_cases (length bases) (length (pf_resp p))) as [L|L].
    - rewrite contribution_ok in E by exact L. cbn [bind] in E. apply guard_ok in E.
      apply (gok_eqb GO1) in E. apply (proj1 (gsub_zero KO GO1 _ _)) in E. auto.
    - unfold getChallengeContribution in E. rewrite sum_short in E; [discriminate|].
      rewrite !app_length. simpl. lia.
  Qed.

  Lemma proofG1Verify_ok (p : ProofG1 C) bases cm c : length bases <= length (pf_resp p) ->
    gdot (bases ++ [cm]) (pf_resp p ++ [c]) = pf_comm p -> proofG1Verify p bases cm c = Ok tt.
  Proof.
    intros L E. unfold proofG1Verify. rewrite contribution_ok by exact L. cbn [bind].
    rewrite E, (gsub_diag KO GO1), (geqb_refl GO1). reflexivity.
  Qed.

  (** with exactly one response per base the challenge multiplies the statement *)
  Lemma contribution_exact (bases : list g1) (cm : g1) (rs : list zr) (c : zr) : length rs = length bases ->
    gdot (bases ++ [cm]) (rs ++ [c]) = gdot bases rs ⊕ (cm ⊗ c).
  Proof. intro L. rewrite (gdot_app GO1) by auto. cbn [gdot]. rewrite (gadd_zero_r GO1). reflexivity. Qed.

  (** with surplus responses it does not occur at all *)
  Lemma contribution_surplus (bases : list g1) (cm : g1) (rs : list zr) (x : zr) (ys : list zr) (c : zr) : length rs = length bases ->
    gdot (bases ++ [cm]) ((rs ++ x :: ys) ++ [c]) = gdot bases rs ⊕ (cm ⊗ x).
  Proof.
    intro L. rewrite <- app_assoc. cbn [app]. rewrite (gdot_app GO1) by auto.
    cbn [gdot]. rewrite (gadd_zero_r GO1). reflexivity.
  Qed.

  (** an honest proof of [cm = gdot bases xs] *)
  Lemma generateProof_verifies (bases : list g1) bl xs c : bases <> [] -> length bl = length bases -> length xs = length bases ->
    exists g p, finish bases bl = Ok g /\ pc_bases g = bases /\ pc_blind g = bl /\ pc_comm g = gdot bases bl /\
      generateProof g c xs = Ok p /\ pf_comm p = gdot bases bl /\ pf_resp p = resp c bl xs /\ length (pf_resp p) = length bases /\
      proofG1Verify p bases (gdot bases xs) c = Ok tt.
  Proof.
    intros N L1 L2. rewrite finish_ok by (auto; lia). eexists. eexists. split; [reflexivity|].
    cbn [pc_bases pc_blind pc_comm]. unfold generateProof. cbn [pc_blind pc_comm].
    rewrite responses_ok by lia. cbn [bind]. repeat (split; [reflexivity|]).
    cbn [pf_resp pf_comm].
    assert (L : length (resp c bl xs) = length bases) by (rewrite resp_length; lia).
    split; [exact L|]. apply proofG1Verify_ok; cbn [pf_resp pf_comm]; [lia|].
    rewrite contribution_exact by exact L. rewrite gdot_resp by lia. gnorm KO GO1; ring.
  Qed.

  (** ** Generators *)
  Lemma i2osp4_0 : i2osp 4 0 = zeros 4.
  Proof. reflexivity. Qed.

  Lemma calcData_ok (pk : g2) n : (Z.of_nat n <= 4294967295)%Z -> calcData pk n = Ok (gen_string pk n 0).
  Proof.
    intro B. unfold calcData. replace (Z.of_nat n >? 4294967295)%Z with false by lia.
    unfold gen_string, uint32ToBytes. change (Z.of_nat 0) with 0%Z. rewrite i2osp4_0. reflexivity.
  Qed.

  Lemma write_gen (pk : g2) n i : write_at (gen_string (C := C) pk n 0) (g2_size C + 1) (uint32ToBytes (Z.of_nat i)) = Ok (gen_string pk n i).
  Proof.
    unfold gen_string, uint32ToBytes.
    replace (g2_size C + 1) with (length (g2_bytes C pk ++ [b0])) by (rewrite app_length, (ok_g2_len OK); reflexivity).
    rewrite !(app_assoc (g2_bytes C pk) [b0]).
    rewrite write_at_app by (rewrite !i2osp_length; reflexivity). reflexivity.
  Qed.

  Lemma toPKwG_ok HG (pk : g2) n : (Z.of_nat n <= 4294967295)%Z ->
    toPublicKeyWithGenerators HG pk n = Ok {| pg_h0 := gen0 HG pk n; pg_h := gens HG pk n; pg_w := pk; pg_count := n |}.
  Proof.
    intro B. unfold toPublicKeyWithGenerators. rewrite calcData_ok by exact B. cbn [bind].
    assert (M : map_res (fun i => let* d := write_at (gen_string pk n 0) (g2_size C + 1) (uint32ToBytes (Z.of_nat i)) in Ok (HG d)) (seq 1 n)
                = Ok (gens HG pk n)).
    { unfold gens. generalize (seq 1 n) as l. induction l as [|i l IH]; [reflexivity|].
      cbn [map_res map]. rewrite write_gen. cbn [bind]. rewrite IH. reflexivity. }
    rewrite M. reflexivity.
  Qed.

  Lemma toPKwG_inv HG (pk : g2) n key : toPublicKeyWithGenerators HG pk n = Ok key ->
    (Z.of_nat n <= 4294967295)%Z /\ key = {| pg_h0 := gen0 HG pk n; pg_h := gens HG pk n; pg_w := pk; pg_count := n |}.
  Proof.
    intro E. assert (B : (Z.of_nat n <= 4294967295)%Z).
    { unfold toPublicKeyWithGenerators, calcData in E. destruct (Z.of_nat n >? 4294967295)%Z eqn:G; [discriminate|lia]. }
    split; [exact B|]. rewrite toPKwG_ok in E by exact B. injection E as <-. reflexivity.
  Qed.

  Lemma gens_length HG (pk : g2) n : length (gens HG pk n) = n.
  Proof. unfold gens. rewrite map_length, seq_length. reflexivity. Qed.

  Lemma gen_string_inj (pk pk' : g2) n n' i i' : (Z.of_nat n < 256 ^ 4)%Z -> (Z.of_nat n' < 256 ^ 4)%Z ->
    (Z.of_nat i < 256 ^ 4)%Z -> (Z.of_nat i' < 256 ^ 4)%Z ->
    gen_string pk n i = gen_string pk' n' i' -> pk = pk' /\ n = n' /\ i = i'.
  Proof.
    intros B1 B2 B3 B4 E. unfold gen_string in E.
    apply app_inj_len in E; [|rewrite !(ok_g2_len OK); reflexivity]. destruct E as [E1 E].
    apply app_inj_len in E; [|reflexivity]. destruct E as [_ E].
    apply app_inj_len in E; [|rewrite !i2osp_length; reflexivity]. destruct E as [E2 E].
    apply app_inj_len in E; [|reflexivity]. destruct E as [_ E3].
    apply (g2_bytes_inj OK) in E1.
    apply i2osp_inj in E2; [|change (Z.of_nat 4) with 4%Z; lia|change (Z.of_nat 4) with 4%Z; lia].
    apply i2osp_inj in E3; [|change (Z.of_nat 4) with 4%Z; lia|change (Z.of_nat 4) with 4%Z; lia].
    split; [exact E1|]. split; lia.
  Qed.

  (** ** Codecs *)
  Variable S32 : scalar_size C = frCompressedSize.

  Lemma signature_rt (s : Signature C) : exists b, signatureBytes s = Ok b /\
    length b = g1_csize C + 2 * frCompressedSize /\ parseSignature C b = Ok s.
  Proof.
    destruct s as [a e s]. unfold signatureBytes. cbn [si_a si_e si_s].
    set (n := g1_csize C). pose proof (ok_g1c_len OK a) as LA. pose proof (ok_zr_len OK e) as LE. pose proof (ok_zr_len OK s) as LS.
    rewrite S32 in LE, LS. fold n in LA.
    assert (Z : zeros (n + 2 * frCompressedSize) = zeros n ++ zeros 32 ++ zeros 32) by (rewrite !zeros_app; reflexivity).
    rewrite Z. rewrite (@copy_at_last [] (zeros n ++ zeros 32 ++ zeros 32)). cbn [app bind].
    rewrite firstn_all2 by (rewrite !app_length, zeros_length; lia).
    rewrite skipn_app, skipn_all2 by (rewrite zeros_length; lia).
    rewrite zeros_length, LA, Nat.sub_diag. cbn [skipn app].
    rewrite (@copy_win_at (g1_comp C a) (zeros 32) (zeros 32)); [|exact LA|rewrite zeros_length; reflexivity|rewrite zeros_length, LE; reflexivity].
    cbn [bind]. rewrite (app_assoc (g1_comp C a)).
    replace (n + frCompressedSize) with (length (g1_comp C a ++ zr_bytes C e)) by (rewrite app_length, LA, LE; reflexivity).
    rewrite copy_at_last. rewrite firstn_all2 by (rewrite zeros_length, LS; unfold frCompressedSize; lia).
    rewrite skipn_all2 by (rewrite zeros_length, LS; unfold frCompressedSize; lia). rewrite app_nil_r.
    eexists. split; [reflexivity|].
    assert (L : length ((g1_comp C a ++ zr_bytes C e) ++ zr_bytes C s) = n + 2 * frCompressedSize)
      by (rewrite !app_length, LA, LE, LS; unfold frCompressedSize; lia).
    split; [exact L|]. unfold parseSignature. fold n. rewrite L, Nat.eqb_refl. cbn [guard bind].
    rewrite <- app_assoc. rewrite slice_head by exact LA. cbn [bind]. rewrite (ok_g1c_rt OK). cbn [bind].
    rewrite slice_at by (rewrite ?LA, ?LE; reflexivity). cbn [bind].
    rewrite app_assoc, slice_from_at by (rewrite app_length, LA, LE; reflexivity). cbn [bind].
    rewrite !(ok_zr_rt OK). reflexivity.
  Qed.

  Lemma parse_responses_rt rs : forall pre tail, parse_responses C (length rs) (pre ++ concat (map (zr_bytes C) rs) ++ tail) (length pre) = Ok rs.
  Proof.
    induction rs as [|r rs IH]; intros pre tail; [reflexivity|].
    cbn [length parse_responses map concat]. rewrite <- app_assoc.
    pose proof (ok_zr_len OK r) as LR. rewrite S32 in LR.
    rewrite slice_at by (rewrite ?LR; reflexivity). cbn [bind].
    replace (length pre + frCompressedSize) with (length (pre ++ zr_bytes C r)) by (rewrite app_length, LR; reflexivity).
    rewrite (app_assoc pre). rewrite IH. cbn [bind]. rewrite (ok_zr_rt OK). reflexivity.
  Qed.

  Lemma concat_zr_length rs : length (concat (map (zr_bytes C) rs)) = length rs * frCompressedSize.
  Proof.
    induction rs as [|r rs IH]; [reflexivity|]. cbn [map concat length]. rewrite app_length, IH, (ok_zr_len OK), S32. lia.
  Qed.

  Definition proof_size (p : ProofG1 C) : nat := g1_csize C + 4 + length (pf_resp p) * frCompressedSize.

  Lemma proofG1_rt (p : ProofG1 C) : (Z.of_nat (length (pf_resp p)) <= 4294967295)%Z ->
    exists b, proofG1Bytes p = Ok b /\ length b = proof_size p /\ forall tail, parseProofG1 C (b ++ tail) = Ok p.
  Proof.
    destruct p as [cm rs]. cbn [pf_resp]. intro B. unfold proofG1Bytes. cbn [pf_comm pf_resp].
    replace (Z.of_nat (length rs) >? 4294967295)%Z with false by lia.
    pose proof (ok_g1c_len OK cm) as LC.
    eexists. split; [reflexivity|].
    assert (L : length (g1_comp C cm ++ uint32ToBytes (Z.of_nat (length rs)) ++ concat (map (zr_bytes C) rs))
                = proof_size {| pf_comm := cm; pf_resp := rs |}).
    { unfold proof_size. cbn [pf_resp]. rewrite !app_length, LC, concat_zr_length. unfold uint32ToBytes. rewrite i2osp_length. lia. }
    split; [exact L|]. intro tail. unfold parseProofG1.
    set (b := (g1_comp C cm ++ _) ++ tail).
    assert (Lb : length b = proof_size {| pf_comm := cm; pf_resp := rs |} + length tail) by (unfold b; rewrite app_length, L; reflexivity).
    unfold proof_size in Lb. cbn [pf_resp] in Lb. rewrite Lb.
    replace (g1_csize C + 4 <=? _) with true by (symmetry; apply Nat.leb_le; lia). cbn [guard bind].
    unfold b. rewrite <- !app_assoc. rewrite slice_head by exact LC. cbn [bind]. rewrite (ok_g1c_rt OK). cbn [bind].
    rewrite slice_at; [|exact LC|unfold uint32ToBytes; rewrite i2osp_length; reflexivity]. cbn [bind].
    unfold uint32ToBytes. rewrite os2ip_i2osp_small by (change (256 ^ Z.of_nat 4)%Z with 4294967296%Z; lia).
    match goal with |- context [(?x <=? ?y)%Z] => replace (x <=? y)%Z with true by (symmetry; apply Z.leb_le; unfold frCompressedSize; lia) end.
    cbn [guard bind]. rewrite Nat2Z.id, app_assoc.
    replace (g1_csize C + 4) with (length (g1_comp C cm ++ i2osp 4 (Z.of_nat (length rs)))) by (rewrite app_length, LC, i2osp_length; lia).
    rewrite parse_responses_rt. reflexivity.
  Qed.

  Lemma parse_g1c_at p pre tail : parse_g1c C (pre ++ g1_comp C p ++ tail) (length pre) = Ok p.
  Proof.
    unfold parse_g1c. rewrite slice_at by (rewrite ?(ok_g1c_len OK); reflexivity). cbn [bind]. rewrite (ok_g1c_rt OK). reflexivity.
  Qed.

  Lemma signatureProof_rt (sp : PoKOfSignatureProof C) :
    (Z.of_nat (proof_size (sp_vc1 sp)) <= 4294967295)%Z ->
    (Z.of_nat (length (pf_resp (sp_vc2 sp))) <= 4294967295)%Z ->
    exists b, signatureProofBytes sp = Ok b /\ parseSignatureProof C b = Ok sp.
  Proof.
    destruct sp as [a ab d p1 p2]. cbn [sp_vc1 sp_vc2]. intros B1 B2.
    destruct (@proofG1_rt p1) as (x1 & E1 & L1 & P1). { unfold proof_size, frCompressedSize in B1. lia. }
    destruct (@proofG1_rt p2 B2) as (x2 & E2 & L2 & P2).
    unfold signatureProofBytes. cbn [sp_vc1 sp_vc2 sp_aprime sp_abar sp_d].
    rewrite E1. cbn [bind]. rewrite L1.
    replace (Z.of_nat (proof_size p1) >? 4294967295)%Z with false by lia.
    rewrite E2. cbn [bind]. eexists. split; [reflexivity|].
    set (cs := g1_csize C).
    pose proof (ok_g1c_len OK a) as La. pose proof (ok_g1c_len OK ab) as Lab. pose proof (ok_g1c_len OK d) as Ld. fold cs in La, Lab, Ld.
    unfold parseSignatureProof. fold cs.
    set (lb := uint32ToBytes (Z.of_nat (proof_size p1))).
    assert (Llb : length lb = 4) by (unfold lb, uint32ToBytes; apply i2osp_length).
    set (b := g1_comp C a ++ _).
    assert (Lb : length b = 3 * cs + 4 + length x1 + length x2) by (unfold b; rewrite !app_length, La, Lab, Ld, Llb; lia).
    replace (cs * 3 <=? length b) with true by (symmetry; apply Nat.leb_le; lia). cbn [guard bind].
    assert (Q0 : parse_g1c C b 0 = Ok a) by (apply (@parse_g1c_at a [])).
    assert (Q1 : parse_g1c C b cs = Ok ab) by (unfold b; rewrite <- La; apply parse_g1c_at).
    assert (Q2 : parse_g1c C b (2 * cs) = Ok d).
    { unfold b. rewrite (app_assoc (g1_comp C a)). replace (2 * cs) with (length (g1_comp C a ++ g1_comp C ab)) by (rewrite app_length; lia). apply parse_g1c_at. }
    rewrite Q0, Q1, Q2. cbn [bind].
    assert (Q3 : slice b (3 * cs) (3 * cs + 4) = Ok lb).
    { unfold b. rewrite (app_assoc (g1_comp C a)), (app_assoc _ (g1_comp C d)). apply slice_at; [rewrite !app_length; lia|lia]. }
    rewrite Q3. cbn [bind].
    assert (Q4 : os2ip lb = Z.of_nat (length x1)).
    { unfold lb, uint32ToBytes. rewrite os2ip_i2osp_small; [congruence|]. change (256 ^ Z.of_nat 4)%Z with 4294967296%Z. lia. }
    rewrite Q4. replace (_ >? _)%Z with false by lia. rewrite Nat2Z.id.
    assert (SP : b = (g1_comp C a ++ g1_comp C ab ++ g1_comp C d ++ lb) ++ x1 ++ x2) by (unfold b; rewrite <- !app_assoc; reflexivity).
    assert (LP : length (g1_comp C a ++ g1_comp C ab ++ g1_comp C d ++ lb) = 3 * cs + 4) by (rewrite !app_length; lia).
    assert (Q5 : slice b (3 * cs + 4) (3 * cs + 4 + length x1) = Ok x1) by (rewrite SP; apply slice_at; [exact LP|reflexivity]).
    rewrite Q5. cbn [bind]. rewrite <- (app_nil_r x1), P1. cbn [bind].
    assert (Q6 : slice_from b (3 * cs + 4 + length x1) = Ok x2).
    { rewrite SP, app_assoc. apply slice_from_at. rewrite app_length, LP. reflexivity. }
    rewrite app_nil_r, Q6. cbn [bind]. rewrite <- (app_nil_r x2), P2. reflexivity.
  Qed.

  (** parsers never read outside their input *)
  Lemma parse_responses_total : forall n b offset, offset + n * frCompressedSize <= length b ->
    exists r, parse_responses C n b offset = Ok r /\ length r = n.
  Proof.
    induction n as [|n IH]; intros b offset L; [exists []; split; reflexivity|].
    cbn [parse_responses]. assert (E : exists x, slice b offset (offset + frCompressedSize) = Ok x).
    { unfold slice. replace (offset <=? offset + frCompressedSize) with true by (symmetry; apply Nat.leb_le; lia).
      replace (offset + frCompressedSize <=? length b) with true by (symmetry; apply Nat.leb_le; unfold frCompressedSize in *; lia). cbn [andb]; eauto. }
    destruct E as [x ->]. cbn [bind]. destruct (IH b (offset + frCompressedSize)) as [r [-> Lr]]; [lia|].
    cbn [bind]. eexists. split; [reflexivity|]. simpl. lia.
  Qed.

  Lemma parseProofG1_no_panic b : parseProofG1 C b <> Panic.
  Proof.
    unfold parseProofG1. set (cs := g1_csize C).
    destruct (cs + 4 <=? length b) eqn:G; cbn [guard bind]; [|discriminate]. apply Nat.leb_le in G.
    assert (S1 : exists x, slice b 0 cs = Ok x).
    { unfold slice. replace (0 <=? cs) with true by reflexivity. replace (cs <=? length b) with true by (symmetry; apply Nat.leb_le; lia). cbn [andb]; eauto. }
    destruct S1 as [x ->]. cbn [bind]. destruct (g1_of_comp C x); cbn [bind]; [|discriminate].
    assert (S2 : exists x, slice b cs (cs + 4) = Ok x /\ length x = 4).
    { unfold slice. replace (cs <=? cs + 4) with true by (symmetry; apply Nat.leb_le; lia).
      replace (cs + 4 <=? length b) with true by (symmetry; apply Nat.leb_le; lia). cbn [andb]. eexists. split; [reflexivity|].
      rewrite firstn_length, skipn_length. lia. }
    destruct S2 as [lb [-> Llb]]. cbn [bind]. pose proof (os2ip_bound lb) as B.
    destruct (_ <=? _)%Z eqn:G2; cbn [guard bind]; [|discriminate]. apply Z.leb_le in G2.
    destruct (@parse_responses_total (Z.to_nat (os2ip lb)) b (cs + 4)) as [r [-> _]]; [unfold frCompressedSize in *; lia|]. discriminate.
  Qed.
End Facts.
