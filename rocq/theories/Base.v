(** Basic vocabulary shared by all model files: results of Go functions, byte
    strings, slices and fixed-size buffers.  Nothing here models a particular
    file of /repo; it models the Go constructs the repository uses. *)
From Coq Require Export Strings.String Strings.Byte.
From Coq Require Export List ZArith Lia Bool ZifyBool ZifyNat ZifyN.
Export ListNotations.
#[global] Set Implicit Arguments.
#[global] Open Scope list_scope.

(** ** Results of Go functions.
    [Ok v]  : the function returned [v] and a nil error.
    [Err]   : the function returned a non-nil error (the text is not modelled).
    [Panic] : a run-time panic (nil dereference, index out of range, explicit panic). *)
Inductive res (A : Type) : Type :=
| Ok (a : A)
| Err
| Panic.
Arguments Ok {A} a.
Arguments Err {A}.
Arguments Panic {A}.

Definition bind {A B} (m : res A) (k : A -> res B) : res B :=
  match m with
  | Ok a => k a
  | Err => Err
  | Panic => Panic
  end.

Notation "'let*' x ':=' e 'in' k" := (bind e (fun x => k))
  (at level 200, x name, e at level 100, k at level 200, right associativity).
Notation "'let*' ' p ':=' e 'in' k" := (bind e (fun p => k))
  (at level 200, p strict pattern, e at level 100, k at level 200, right associativity).

(** [if cond { return err }] *)
Definition guard (b : bool) : res unit := if b then Ok tt else Err.

(** The [defer func() { if r := recover(); r != nil { err = ... } }()] idiom. *)
Definition recover {A} (m : res A) : res A :=
  match m with
  | Panic => Err
  | _ => m
  end.

Definition is_ok {A} (m : res A) : bool := match m with Ok _ => true | _ => false end.

Lemma bind_ok A B (m : res A) (k : A -> res B) b :
  bind m k = Ok b <-> exists a, m = Ok a /\ k a = Ok b.
Proof.
  destruct m; simpl; split; intro H; try discriminate.
  - eexists; eauto.
  - destruct H as [a' [E H]]; inversion E; subst; exact H.
  - destruct H as [a' [E H]]; discriminate.
  - destruct H as [a' [E H]]; discriminate.
Qed.

Lemma guard_ok b u : guard b = Ok u <-> b = true.
Proof. destruct b, u; simpl; split; intro; try discriminate; reflexivity. Qed.

Lemma recover_ok A (m : res A) a : recover m = Ok a <-> m = Ok a.
Proof. destruct m; simpl; split; intro H; try discriminate; exact H. Qed.

(** ** Byte strings *)
Definition bytes := list byte.

Definition b0 : byte := Byte.x00.
Definition zeros (n : nat) : bytes := repeat b0 n.

Definition byte_eqb (a b : byte) : bool := Byte.eqb a b.

Lemma byte_eqb_spec a b : reflect (a = b) (byte_eqb a b).
Proof.
  unfold byte_eqb. destruct (Byte.eqb a b) eqn:E.
  - apply Byte.byte_dec_bl in E. constructor; exact E.
  - constructor. intro Hab. apply Byte.byte_dec_lb in Hab. congruence.
Qed.

Fixpoint bytes_eqb (a b : bytes) : bool :=
  match a, b with
  | [], [] => true
  | x :: a', y :: b' => byte_eqb x y && bytes_eqb a' b'
  | _, _ => false
  end.

Lemma bytes_eqb_spec a b : reflect (a = b) (bytes_eqb a b).
Proof.
  revert b; induction a as [|x a IH]; intros [|y b]; simpl; try (constructor; congruence).
  destruct (byte_eqb_spec x y) as [->|N]; simpl.
  - destruct (IH b) as [->|N]; constructor; congruence.
  - constructor; congruence.
Qed.

Lemma bytes_eqb_eq a b : bytes_eqb a b = true <-> a = b.
Proof. destruct (bytes_eqb_spec a b); split; congruence. Qed.

Lemma bytes_eqb_refl a : bytes_eqb a a = true.
Proof. apply bytes_eqb_eq; reflexivity. Qed.

Definition str (s : string) : bytes := list_byte_of_string s.

Lemma zeros_length n : length (zeros n) = n.
Proof. apply repeat_length. Qed.

Lemma zeros_app n m : zeros n ++ zeros m = zeros (n + m).
Proof. unfold zeros. rewrite repeat_app. reflexivity. Qed.

(** ** Slices: indexing with Go's bounds check *)
Definition nth_res {A} (l : list A) (i : nat) : res A :=
  match nth_error l i with
  | Some a => Ok a
  | None => Panic
  end.

(** Go [int] index, possibly negative. *)
Definition znth {A} (l : list A) (i : Z) : res A :=
  if (i <? 0)%Z then Panic else nth_res l (Z.to_nat i).

Lemma nth_res_ok A (l : list A) i a : nth_res l i = Ok a <-> nth_error l i = Some a.
Proof. unfold nth_res; destruct (nth_error l i); split; intro H; inversion H; reflexivity. Qed.

Lemma nth_res_lt A (l : list A) i : i < length l -> exists a, nth_res l i = Ok a.
Proof.
  intro H. unfold nth_res. destruct (nth_error l i) eqn:E; eauto.
  apply nth_error_None in E. lia.
Qed.

Lemma znth_nat A (l : list A) (i : nat) : znth l (Z.of_nat i) = nth_res l i.
Proof. unfold znth. destruct (Z.of_nat i <? 0)%Z eqn:E; [lia|]. rewrite Nat2Z.id; reflexivity. Qed.

(** Slice expression [l[lo:hi]] with [lo], [hi] non-negative ints (panics when
    [lo > hi] or [hi > len]; for the slices in this code base cap = len unless
    stated otherwise). *)
Definition slice {A} (l : list A) (lo hi : nat) : res (list A) :=
  if (lo <=? hi) && (hi <=? length l) then Ok (firstn (hi - lo) (skipn lo l)) else Panic.

Definition slice_from {A} (l : list A) (lo : nat) : res (list A) := slice l lo (length l).

(** ** Fixed-size buffers.
    [copy(buf[i:], src)]: panics when [i > len(buf)], otherwise overwrites at most
    [len(buf) - i] bytes. *)
Definition copy_at (buf : bytes) (i : nat) (src : bytes) : res bytes :=
  if i <=? length buf
  then Ok (firstn i buf ++ firstn (length buf - i) src ++ skipn (i + length src) buf)
  else Panic.

(** A write cursor into a buffer, as in [index = appendBytes(proofData, index, b)]. *)
Definition cursor := (bytes * nat)%type.

Definition new_buf (n : nat) : cursor := (zeros n, 0).

(** /repo/bccsp/schemes/dlog/crypto/util.go 16-20 (appendBytes). *)
Definition append_bytes (st : cursor) (src : bytes) : res cursor :=
  let* b := copy_at (fst st) (snd st) src in
  Ok (b, snd st + length src).

(** [copy(proofData[index:], src); index = index + n]. *)
Definition copy_adv (st : cursor) (src : bytes) (n : nat) : res cursor :=
  let* b := copy_at (fst st) (snd st) src in
  Ok (b, snd st + n).

Fixpoint append_all (st : cursor) (srcs : list bytes) : res cursor :=
  match srcs with
  | [] => Ok st
  | s :: srcs' => let* st' := append_bytes st s in append_all st' srcs'
  end.

(** What a source becomes in a field of fixed size [n]: cut or zero-padded. *)
Definition fit (n : nat) (b : bytes) : bytes := firstn n b ++ zeros (n - length b).

Lemma fit_length n b : length (fit n b) = n.
Proof. unfold fit. rewrite app_length, firstn_length, zeros_length. lia. Qed.

Lemma fit_exact n b : length b = n -> fit n b = b.
Proof.
  intro H. unfold fit. rewrite <- H, Nat.sub_diag, firstn_all. simpl. apply app_nil_r.
Qed.

(** Cursor invariant: the bytes before the index are [pre], whatever comes after
    will be overwritten or is zero. *)
Definition at_cursor (st : cursor) (pre : bytes) (n : nat) : Prop :=
  length (fst st) = n /\ snd st = length pre /\ firstn (length pre) (fst st) = pre.

Lemma copy_at_ok buf i src :
  i <= length buf ->
  copy_at buf i src = Ok (firstn i buf ++ firstn (length buf - i) src ++ skipn (i + length src) buf).
Proof. intro H. unfold copy_at. apply Nat.leb_le in H. rewrite H. reflexivity. Qed.

Lemma append_bytes_clean pre n src :
  length src <= n ->
  append_bytes (pre ++ zeros n, length pre) src
  = Ok ((pre ++ src) ++ zeros (n - length src), length (pre ++ src)).
Proof.
  intros H. unfold append_bytes. cbn [fst snd].
  rewrite copy_at_ok by (rewrite app_length; lia). cbn [bind].
  rewrite !app_length, zeros_length.
  rewrite firstn_app, firstn_all, Nat.sub_diag, firstn_O, app_nil_r.
  replace (length pre + n - length pre) with n by lia.
  rewrite firstn_all2 by lia.
  rewrite skipn_app, skipn_all2 by lia.
  replace (length pre + length src - length pre) with (length src) by lia.
  cbn [app]. unfold zeros. 
  replace (skipn (length src) (repeat b0 n)) with (repeat b0 (n - length src)).
  - rewrite <- app_assoc. reflexivity.
  - replace n with (length src + (n - length src)) at 2 by lia.
    rewrite repeat_app, skipn_app, skipn_all2 by (rewrite repeat_length; lia).
    rewrite repeat_length, Nat.sub_diag. reflexivity.
Qed.

Lemma append_all_clean srcs : forall pre n,
  length (concat srcs) <= n ->
  append_all (pre ++ zeros n, length pre) srcs
  = Ok ((pre ++ concat srcs) ++ zeros (n - length (concat srcs)), length (pre ++ concat srcs)).
Proof.
  induction srcs as [|s srcs IH]; intros pre n H; cbn [append_all concat] in *.
  - rewrite app_nil_r. simpl. rewrite Nat.sub_0_r. reflexivity.
  - rewrite app_length in H.
    rewrite append_bytes_clean by lia. cbn [bind].
    rewrite IH by lia. rewrite !app_length, <- !app_assoc.
    rewrite Nat.sub_add_distr, Nat.add_assoc. reflexivity.
Qed.

Lemma append_all_new n srcs : length (concat srcs) <= n ->
  append_all (new_buf n) srcs
  = Ok (concat srcs ++ zeros (n - length (concat srcs)), length (concat srcs)).
Proof. intro H. exact (append_all_clean srcs [] H). Qed.

(** [copy] of a block which fills the buffer up to its end. *)
Lemma copy_at_last pre rest src :
  copy_at (pre ++ rest) (length pre) src = Ok (pre ++ firstn (length rest) src ++ skipn (length src) rest).
Proof.
  rewrite copy_at_ok by (rewrite app_length; lia).
  rewrite firstn_app, firstn_all, Nat.sub_diag, firstn_O, app_nil_r.
  rewrite app_length. replace (length pre + length rest - length pre) with (length rest) by lia.
  rewrite skipn_app, skipn_all2 by lia.
  replace (length pre + length src - length pre) with (length src) by lia. reflexivity.
Qed.

(** The idiom used by every signature transcript:
    [copy(pd[i:], hash); i += S; copy(pd[i:], disc); i += len(disc); copy(pd[i:], msg)]
    in a buffer with exactly [S + len(disc) + len(msg)] bytes left. *)
Lemma skipn_zeros k n : skipn k (zeros n) = zeros (n - k).
Proof.
  unfold zeros. revert k; induction n as [|n IH]; intros [|k]; simpl; auto.
Qed.

Lemma firstn_fit_app n h k :
  k >= n -> length (firstn k h ++ zeros (k - length h)) = k ->
  firstn n (firstn k h ++ zeros (k - length h)) = fit n h.
Proof.
  intros Hk _. unfold fit. rewrite firstn_app, firstn_firstn, Nat.min_l by lia.
  rewrite firstn_length. destruct (le_lt_dec k (length h)) as [Hle|Hlt].
  - rewrite Nat.min_l by lia.
    replace (n - k) with 0 by lia. replace (n - length h) with 0 by lia. reflexivity.
  - rewrite Nat.min_r by lia. f_equal. unfold zeros.
    destruct (le_lt_dec (n - length h) (k - length h)).
    + replace (k - length h) with ((n - length h) + (k - length h - (n - length h))) by lia.
      rewrite repeat_app, firstn_app, repeat_length, Nat.sub_diag.
      rewrite firstn_all2 by (rewrite repeat_length; lia). simpl. apply app_nil_r.
    + lia.
Qed.

Lemma tail_block pre S hash disc msg :
  (let* st1 := copy_adv (pre ++ zeros (S + length disc + length msg), length pre) hash S in
   let* st2 := copy_adv st1 disc (length disc) in
   copy_at (fst st2) (snd st2) msg)
  = Ok (pre ++ fit S hash ++ disc ++ msg).
Proof.
  unfold copy_adv. cbn [fst snd].
  rewrite copy_at_last. cbn [bind fst snd]. rewrite zeros_length, skipn_zeros.
  set (k := S + length disc + length msg).
  set (blk := firstn k hash ++ zeros (k - length hash)).
  assert (Lb : length blk = k) by (unfold blk; rewrite app_length, firstn_length, zeros_length; lia).
  assert (Sp : blk = fit S hash ++ skipn S blk).
  { rewrite <- (firstn_skipn S blk) at 1. f_equal. unfold blk at 1.
    apply firstn_fit_app; [unfold k; lia | exact Lb]. }
  rewrite Sp, app_assoc.
  replace (length pre + S) with (length (pre ++ fit S hash)) by (rewrite app_length, fit_length; lia).
  rewrite copy_at_last. cbn [bind fst snd].
  assert (Ls : length (skipn S blk) = length disc + length msg) by (rewrite skipn_length, Lb; unfold k; lia).
  rewrite Ls, firstn_all2 by lia.
  set (tl := skipn (length disc) (skipn S blk)).
  assert (Lt : length tl = length msg) by (unfold tl; rewrite skipn_length; lia).
  rewrite (app_assoc _ disc).
  replace (length (pre ++ fit S hash) + length disc) with (length ((pre ++ fit S hash) ++ disc))
    by (rewrite app_length; lia).
  rewrite copy_at_last. rewrite Lt, firstn_all.
  rewrite skipn_all2 by lia. rewrite app_nil_r, <- !app_assoc. reflexivity.
Qed.

Lemma tail_block2 pre S hash msg :
  (let* st1 := copy_adv (pre ++ zeros (S + length msg), length pre) hash S in
   copy_at (fst st1) (snd st1) msg)
  = Ok (pre ++ fit S hash ++ msg).
Proof.
  pose proof (tail_block pre S hash [] msg) as TB. cbn [length] in TB.
  replace (S + 0 + length msg) with (S + length msg) in TB by lia.
  change (pre ++ fit S hash ++ [] ++ msg) with (pre ++ fit S hash ++ msg) in TB.
  etransitivity; [|exact TB]. clear TB.
  unfold copy_adv. cbn [fst snd].
  rewrite copy_at_ok by (rewrite app_length; lia).
  match goal with |- context [Ok (?x ++ ?y ++ ?z)] => set (b := x ++ y ++ z) end.
  assert (Lb : length b = length pre + (S + length msg)).
  { unfold b. rewrite !app_length, !firstn_length, skipn_length, app_length, zeros_length. lia. }
  cbn [bind fst snd]. rewrite (@copy_at_ok b _ []) by lia. cbn [bind fst snd length].
  rewrite !Nat.add_0_r, firstn_nil. cbn [app]. rewrite firstn_skipn. reflexivity.
Qed.

(** Overwriting the first [2*n] bytes of a buffer by two [n]-byte blocks:
    [proofData = proofData[:2*n]; appendBytes(c); appendBytes(nonce)]. *)
Definition rehash_buf (buf : bytes) (n : nat) (a b : bytes) : res bytes :=
  let* h := slice buf 0 (2 * n) in
  let* st := append_bytes (h, 0) a in
  let* st := append_bytes st b in
  Ok (fst st).

Lemma rehash_buf_ok buf n a b :
  2 * n <= length buf -> length a = n -> length b = n ->
  rehash_buf buf n a b = Ok (a ++ b).
Proof.
  intros H Ha Hb. unfold rehash_buf, slice.
  replace (0 <=? 2 * n) with true by reflexivity.
  apply Nat.leb_le in H as H'. rewrite H'. cbn [andb bind].
  rewrite Nat.sub_0_r. cbn [skipn].
  assert (L : length (firstn (2 * n) buf) = 2 * n) by (rewrite firstn_length; lia).
  destruct (firstn (2 * n) buf) as [|x l] eqn:E.
  - simpl in L. assert (n = 0) by lia. subst n. destruct a, b; simpl in *; try lia. reflexivity.
  - rewrite <- E in *. clear E x l. set (h := firstn (2 * n) buf) in *.
    unfold append_bytes. cbn [fst snd].
    rewrite copy_at_ok by lia. cbn [bind fst snd].
    rewrite L, Nat.sub_0_r, (firstn_all2 a) by lia. cbn [firstn app Nat.add].
    rewrite copy_at_ok by (rewrite app_length, skipn_length; lia).
    cbn [bind fst snd].
    rewrite app_length, skipn_length, L.
    rewrite firstn_app, firstn_all, Nat.sub_diag, firstn_O, app_nil_r.
    rewrite (firstn_all2 b) by lia.
    rewrite skipn_app, skipn_all2 by lia.
    rewrite (skipn_all2 (skipn _ _)) by (rewrite skipn_length; lia).
    simpl. rewrite app_nil_r. reflexivity.
Qed.

(** ** Integers and byte strings (big endian) *)
Fixpoint os2ip_aux (acc : Z) (b : bytes) : Z :=
  match b with
  | [] => acc
  | x :: b' => os2ip_aux (acc * 256 + Z.of_N (Byte.to_N x)) b'
  end.
Definition os2ip (b : bytes) : Z := os2ip_aux 0 b.

Definition byte_of_Z (z : Z) : byte :=
  match Byte.of_N (Z.to_N (z mod 256)) with
  | Some b => b
  | None => b0
  end.

(** [n] big-endian bytes of [z] *)
Fixpoint i2osp (n : nat) (z : Z) : bytes :=
  match n with
  | O => []
  | S n' => i2osp n' (z / 256) ++ [byte_of_Z z]
  end.

Lemma i2osp_length n z : length (i2osp n z) = n.
Proof. revert z; induction n as [|n IH]; intro z; simpl; [reflexivity|]. rewrite app_length, IH; simpl; lia. Qed.

Lemma byte_of_Z_to z : Z.of_N (Byte.to_N (byte_of_Z z)) = (z mod 256)%Z.
Proof.
  unfold byte_of_Z. pose proof (Z.mod_pos_bound z 256 ltac:(lia)) as B.
  destruct (Byte.of_N (Z.to_N (z mod 256))) as [b|] eqn:E.
  - apply Byte.to_of_N in E. rewrite E. rewrite Z2N.id by lia. reflexivity.
  - apply Byte.of_N_None_iff in E. lia.
Qed.

Lemma os2ip_aux_app a b acc : os2ip_aux acc (a ++ b) = os2ip_aux (os2ip_aux acc a) b.
Proof. revert acc; induction a as [|x a IH]; intro acc; simpl; auto. Qed.

Lemma os2ip_aux_lin b : forall acc, os2ip_aux acc b = (acc * 256 ^ Z.of_nat (length b) + os2ip_aux 0 b)%Z.
Proof.
  induction b as [|x b IH]; intro acc; cbn [os2ip_aux length].
  - simpl; lia.
  - rewrite IH, (IH (0 * 256 + _)%Z). rewrite Nat2Z.inj_succ, Z.pow_succ_r by lia. ring.
Qed.

Lemma os2ip_app a b : os2ip (a ++ b) = (os2ip a * 256 ^ Z.of_nat (length b) + os2ip b)%Z.
Proof. unfold os2ip. rewrite os2ip_aux_app, os2ip_aux_lin. reflexivity. Qed.

Lemma os2ip_i2osp n z : os2ip (i2osp n z) = (z mod 256 ^ Z.of_nat n)%Z.
Proof.
  revert z; induction n as [|n IH]; intro z; cbn [i2osp].
  - change (os2ip []) with 0%Z. simpl. rewrite Z.mod_1_r; reflexivity.
  - rewrite os2ip_app, IH. unfold os2ip at 1. cbn [os2ip_aux length].
    rewrite byte_of_Z_to. change (Z.of_nat 1) with 1%Z. rewrite Z.pow_1_r.
    rewrite Nat2Z.inj_succ, Z.pow_succ_r by lia.
    assert (P : (0 < 256 ^ Z.of_nat n)%Z) by (apply Z.pow_pos_nonneg; lia).
    rewrite Z.rem_mul_r by lia. lia.
Qed.

Lemma os2ip_bound b : (0 <= os2ip b < 256 ^ Z.of_nat (length b))%Z.
Proof.
  induction b as [|x b IH] using rev_ind.
  - unfold os2ip; simpl; lia.
  - rewrite os2ip_app, app_length. unfold os2ip at 2 4; cbn [os2ip_aux length].
    change (Z.of_nat 1) with 1%Z. rewrite Nat.add_1_r, Nat2Z.inj_succ, Z.pow_succ_r by lia.
    pose proof (Byte.to_N_bounded x). lia.
Qed.

Lemma i2osp_os2ip b : i2osp (length b) (os2ip b) = b.
Proof.
  induction b as [|x b IH] using rev_ind; [reflexivity|].
  rewrite app_length; cbn [length]. rewrite Nat.add_1_r. cbn [i2osp].
  rewrite os2ip_app. cbn [length]. change (Z.of_nat 1) with 1%Z. rewrite Z.pow_1_r.
  unfold os2ip at 2 4. cbn [os2ip_aux].
  pose proof (Byte.to_N_bounded x) as B.
  replace ((os2ip b * 256 + (0 * 256 + Z.of_N (Byte.to_N x))) / 256)%Z with (os2ip b).
  2:{ replace (0 * 256 + Z.of_N (Byte.to_N x))%Z with (Z.of_N (Byte.to_N x)) by lia.
      rewrite Z.div_add_l by lia. rewrite Z.div_small by lia. lia. }
  rewrite IH. f_equal. f_equal.
  unfold byte_of_Z.
  replace ((os2ip b * 256 + (0 * 256 + Z.of_N (Byte.to_N x))) mod 256)%Z with (Z.of_N (Byte.to_N x)).
  2:{ replace (0 * 256 + Z.of_N (Byte.to_N x))%Z with (Z.of_N (Byte.to_N x)) by lia.
      rewrite Z.add_comm, Z.mod_add by lia. rewrite Z.mod_small by lia. reflexivity. }
  rewrite N2Z.id, Byte.of_to_N. reflexivity.
Qed.

(** Two concatenations with equally long first parts are equal only componentwise. *)
Lemma app_inj_len A (a b c d : list A) : length a = length c -> a ++ b = c ++ d -> a = c /\ b = d.
Proof.
  revert c; induction a as [|x a IH]; intros [|y c] L E; simpl in *; try discriminate; auto.
  inversion E; subst. destruct (IH c) as [-> ->]; auto.
Qed.

Lemma app_inj_tail_len A (a b c d : list A) : length b = length d -> a ++ b = c ++ d -> a = c /\ b = d.
Proof.
  intros L E. apply app_inj_len; [|exact E].
  apply (f_equal (@length A)) in E. rewrite !app_length in E. lia.
Qed.

(** ** Traversal with errors: [for i := range l { x[i], err = f(l[i]); if err != nil {return} }] *)
Fixpoint map_res {A B} (f : A -> res B) (l : list A) : res (list B) :=
  match l with
  | [] => Ok []
  | a :: l' => let* b := f a in let* bs := map_res f l' in Ok (b :: bs)
  end.

Lemma map_res_length A B (f : A -> res B) l : forall bs, map_res f l = Ok bs -> length bs = length l.
Proof.
  induction l as [|a l IH]; cbn [map_res]; intros bs H.
  - inversion H; reflexivity.
  - destruct (f a); cbn [bind] in H; try discriminate.
    destruct (map_res f l); cbn [bind] in H; try discriminate.
    inversion H; subst; simpl. f_equal. apply IH; reflexivity.
Qed.

Lemma map_res_map A B C (f : B -> res C) (g : A -> B) (h : A -> C) l :
  (forall a, f (g a) = Ok (h a)) -> map_res f (map g l) = Ok (map h l).
Proof.
  intro H. induction l as [|a l IH]; cbn [map map_res]; [reflexivity|].
  rewrite H; cbn [bind]. rewrite IH. reflexivity.
Qed.

Definition bool_eqb := Bool.eqb.

(** Inversion of a chain of binds ending in [Ok]. *)
Ltac inv_ok H :=
  lazymatch type of H with
  | bind ?m ?k = Ok ?b =>
      let a := fresh "v" in
      let E := fresh "E" in
      destruct m as [a| |] eqn:E; cbn [bind] in H; [ inv_ok H | discriminate H | discriminate H ]
  | _ => idtac
  end.

(** Invert every successful monadic computation among the hypotheses. *)
Ltac inv_all :=
  repeat match goal with
  | H : bind _ _ = Ok _ |- _ =>
      let a := fresh "v" in let E := fresh "E" in
      apply bind_ok in H; destruct H as [a [E H]]; cbv beta in H
  | H : Ok _ = Ok _ |- _ => injection H; clear H; intros; subst
  | H : Err = Ok _ |- _ => discriminate H
  | H : Panic = Ok _ |- _ => discriminate H
  | H : guard ?b = Ok _ |- _ =>
      let G := fresh "Hg" in
      assert (G : b = true) by (destruct b; [reflexivity|discriminate H]); clear H
  end.

Lemma map_res_nth A B (f : A -> res B) l : forall r j x,
  map_res f l = Ok r -> nth_error l j = Some x -> exists y, f x = Ok y /\ nth_error r j = Some y.
Proof.
  induction l as [|a l IH]; intros r j x E N; [destruct j; discriminate|].
  cbn [map_res] in E. inv_all. destruct j as [|j]; cbn [nth_error] in *.
  - inversion N; subst. eauto.
  - eauto.
Qed.

(** the ranges of Go's int32 and int64 *)
Definition int32 (z : Z) : Prop := (-2147483648 <= z <= 2147483647)%Z.
Definition int64 (z : Z) : Prop := (-9223372036854775808 <= z <= 9223372036854775807)%Z.
