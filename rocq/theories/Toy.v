(** A concrete curve satisfying all assumed laws: G1 = G2 = GT = Z/31, pairing = product.
    It is cryptographically worthless; it shows that [CurveOk] is satisfiable and runs the
    examples.  The two parameters are the prefixes of the point encodings, so that the three
    encoding styles met by the translators (amcl, miracl, gurvy) all have an instance. *)
From Verif Require Import Base Curve.
From Coq Require Import Eqdep_dec Field Ring.

Definition tp : Z := 31.

(** The field with 31 elements, as an enumeration: closed terms compute to constructors. *)
Inductive zp := f0 | f1 | f2 | f3 | f4 | f5 | f6 | f7 | f8 | f9 | f10 | f11 | f12 | f13 | f14 | f15 | f16 | f17 | f18 | f19 | f20 | f21 | f22 | f23 | f24 | f25 | f26 | f27 | f28 | f29 | f30.

Definition zp_list : list zp := [f0; f1; f2; f3; f4; f5; f6; f7; f8; f9; f10; f11; f12; f13; f14; f15; f16; f17; f18; f19; f20; f21; f22; f23; f24; f25; f26; f27; f28; f29; f30].

Definition mk (z : Z) : zp := nth (Z.to_nat (z mod tp)) zp_list f0.

Definition zv (a : zp) : Z :=
  match a with
  | f0 => 0 | f1 => 1 | f2 => 2 | f3 => 3 | f4 => 4 | f5 => 5 | f6 => 6 | f7 => 7 | f8 => 8 | f9 => 9 | f10 => 10 | f11 => 11 | f12 => 12 | f13 => 13 | f14 => 14 | f15 => 15 | f16 => 16 | f17 => 17 | f18 => 18 | f19 => 19 | f20 => 20 | f21 => 21 | f22 => 22 | f23 => 23 | f24 => 24 | f25 => 25 | f26 => 26 | f27 => 27 | f28 => 28 | f29 => 29 | f30 => 30
  end%Z.

Lemma zv_bound a : (0 <= zv a < tp)%Z.
Proof. destruct a; cbn [zv]; unfold tp; lia. Qed.

Lemma mk_zv a : mk (zv a) = a.
Proof. destruct a; reflexivity. Qed.

Lemma zp_eq (a b : zp) : zv a = zv b -> a = b.
Proof. intro H. rewrite <- (mk_zv a), <- (mk_zv b), H. reflexivity. Qed.

Lemma zv_mk z : zv (mk z) = (z mod tp)%Z.
Proof.
  pose proof (Z.mod_pos_bound z tp ltac:(reflexivity)) as B.
  unfold mk. remember (z mod tp)%Z as m eqn:E. clear E z.
  rewrite <- (Z2Nat.id m) at 2 by lia.
  assert (N : (Z.to_nat m < 31)%nat) by (unfold tp in B; lia).
  remember (Z.to_nat m) as n eqn:E. clear E B m.
  do 31 (destruct n as [|n]; [reflexivity|]). lia.
Qed.

(** a ^ (p-2) by repeated squaring: 29 = 11101b *)
Definition tinv (a : zp) : zp :=
  let m x y := mk (zv x * zv y) in
  let a2 := m a a in let a4 := m a2 a2 in let a8 := m a4 a4 in let a16 := m a8 a8 in
  m (m a16 a8) (m a4 a).

Definition tscalars : scalars := {|
  zcar := zp;
  z0 := f0; z1 := f1;
  zadd a b := mk (zv a + zv b);
  zmul a b := mk (zv a * zv b);
  zsub a b := mk (zv a - zv b);
  zopp a := mk (- zv a);
  zinv := tinv;
  zeqb a b := (zv a =? zv b)%Z
|}.

Lemma inv_sweep a : a <> f0 -> mk (zv (tinv a) * zv a) = f1.
Proof. destruct a; intro H; try (exfalso; apply H; reflexivity); reflexivity. Qed.

Ltac zp_ring :=
  intros; apply zp_eq; cbn [zadd zmul zsub zopp z0 z1 tscalars]; rewrite ?zv_mk; cbn [zv];
  rewrite ?Zplus_mod_idemp_l, ?Zplus_mod_idemp_r, ?Zmult_mod_idemp_l, ?Zmult_mod_idemp_r,
          ?Zminus_mod_idemp_l, ?Zminus_mod_idemp_r.

Lemma tscalars_ok : ScalarsOk tscalars.
Proof.
  constructor.
  - constructor.
    + constructor.
      * intro x. zp_ring. rewrite Z.add_0_l. apply Z.mod_small, zv_bound.
      * zp_ring; f_equal; ring.
      * zp_ring; f_equal; ring.
      * intro x. zp_ring. rewrite Z.mul_1_l. apply Z.mod_small, zv_bound.
      * zp_ring; f_equal; ring.
      * zp_ring; f_equal; ring.
      * zp_ring; f_equal; ring.
      * zp_ring; f_equal; ring.
      * zp_ring. rewrite Z.add_opp_diag_r. reflexivity.
    + intro H. discriminate.
    + reflexivity.
    + intros a Ha. exact (inv_sweep Ha).
  - intros a b. cbn [zeqb tscalars]. rewrite Z.eqb_eq. split; [apply zp_eq|congruence].
Qed.

Add Field tfield : (sok_field tscalars_ok).

Definition tgroup : group tscalars := {|
  gcar := zp;
  gzero := f0;
  gadd := @zadd tscalars;
  gopp := @zopp tscalars;
  gmul := @zmul tscalars;
  geqb := @zeqb tscalars
|}.

Lemma tgroup_ok : GroupOk tgroup.
Proof.
  constructor; cbn [gcar gzero gadd gopp gmul geqb tgroup].
  - intros a b c. change (@eq tscalars (@zadd tscalars a (@zadd tscalars b c)) (@zadd tscalars (@zadd tscalars a b) c)). ring.
  - intros a b. change (@eq tscalars (@zadd tscalars a b) (@zadd tscalars b a)). ring.
  - intros a. change (@eq tscalars (@zadd tscalars (@z0 tscalars) a) a). ring.
  - intros a. change (@eq tscalars (@zadd tscalars a (@zopp tscalars a)) (@z0 tscalars)). ring.
  - intros a. change (@eq tscalars (@zmul tscalars a (@z1 tscalars)) a). ring.
  - intros a j k. change (@eq tscalars (@zmul tscalars a (@zadd tscalars j k)) (@zadd tscalars (@zmul tscalars a j) (@zmul tscalars a k))). ring.
  - intros a j k. change (@eq tscalars (@zmul tscalars a (@zmul tscalars j k)) (@zmul tscalars (@zmul tscalars a j) k)). ring.
  - intros a b k. change (@eq tscalars (@zmul tscalars (@zadd tscalars a b) k) (@zadd tscalars (@zmul tscalars a k) (@zmul tscalars b k))). ring.
  - intros a b Ha. exists (@zmul tscalars (@zinv tscalars a) b).
    assert (F : forall x y : tscalars, x <> z0 -> y = zmul x (zmul (zinv x) y))
      by (intros x y Hx; field; exact Hx).
    exact (F a b Ha).
  - intros a b. apply (sok_eqb tscalars_ok).
Qed.

Definition strip_prefix (pre b : bytes) : option bytes :=
  if bytes_eqb (firstn (length pre) b) pre then Some (skipn (length pre) b) else None.

Lemma strip_prefix_app pre b : strip_prefix pre (pre ++ b) = Some b.
Proof.
  unfold strip_prefix. rewrite firstn_app, firstn_all, Nat.sub_diag, firstn_O, app_nil_r.
  rewrite bytes_eqb_refl, skipn_app, skipn_all, Nat.sub_diag. reflexivity.
Qed.

(** decode a point from [coordinate ++ zeros] of length [n] *)
Definition tdec (pre : bytes) (n : nat) (b : bytes) : option zp :=
  match strip_prefix pre b with
  | Some (x :: r) =>
      if (os2ip [x] <? tp)%Z && bytes_eqb r (zeros n) then Some (mk (os2ip [x])) else None
  | _ => None
  end.

Definition tenc (pre : bytes) (n : nat) (a : zp) : bytes := pre ++ i2osp 1 (zv a) ++ zeros n.

Lemma tenc_dec pre n a : tdec pre n (tenc pre n a) = Some a.
Proof.
  unfold tdec, tenc. rewrite strip_prefix_app. cbn [i2osp app].
  assert (E : os2ip [byte_of_Z (zv a)] = zv a).
  { change [byte_of_Z (zv a)] with (i2osp 1 (zv a)). rewrite os2ip_i2osp.
    apply Z.mod_small. pose proof (zv_bound a) as B. unfold tp in B. simpl. lia. }
  rewrite E. pose proof (zv_bound a). destruct (zv a <? tp)%Z eqn:L; [|lia].
  rewrite bytes_eqb_refl. cbn [andb]. rewrite mk_zv. reflexivity.
Qed.

Lemma tenc_len pre n a : length (tenc pre n a) = length pre + 1 + n.
Proof. unfold tenc. rewrite !app_length, i2osp_length, zeros_length. lia. Qed.

Definition toy (pre1 pre2 : bytes) : Curve := {|
  Zr := tscalars;
  G1 := tgroup; G2 := tgroup; GT := tgroup;
  genG1 := f1; genG2 := f1;
  pair Q P := @zmul tscalars Q P;
  scalar_size := 1;
  coord_size := 1;
  g1_size := length pre1 + 2;
  g2_size := length pre2 + 4;
  g1_csize := 1;
  g2_csize := 1;
  zr_bytes a := i2osp 1 (zv a);
  zr_of_bytes b := mk (os2ip b);
  zr_of_Z z := mk z;
  g1_bytes := tenc pre1 1; g1_of_bytes := tdec pre1 1;
  g1_comp := tenc [] 0; g1_of_comp := tdec [] 0;
  g2_bytes := tenc pre2 3; g2_of_bytes := tdec pre2 3;
  g2_comp := tenc [] 0; g2_of_comp := tdec [] 0
|}.

Theorem toy_ok pre1 pre2 : CurveOk (toy pre1 pre2).
Proof.
  constructor; cbn [toy Zr G1 G2 GT genG1 genG2 pair scalar_size g1_size g2_size g1_csize g2_csize
                     zr_bytes zr_of_bytes zr_of_Z g1_bytes g1_of_bytes g1_comp g1_of_comp
                     g2_bytes g2_of_bytes g2_comp g2_of_comp].
  - exact tscalars_ok.
  - exact tgroup_ok.
  - exact tgroup_ok.
  - exact tgroup_ok.
  - intro H. discriminate.
  - intro H. discriminate.
  - intros Q Q' P. change (@eq tscalars (@zmul tscalars (@zadd tscalars Q Q') P) (@zadd tscalars (@zmul tscalars Q P) (@zmul tscalars Q' P))). ring.
  - intros Q P P'. change (@eq tscalars (@zmul tscalars Q (@zadd tscalars P P')) (@zadd tscalars (@zmul tscalars Q P) (@zmul tscalars Q P'))). ring.
  - intros Q P k. change (@eq tscalars (@zmul tscalars (@zmul tscalars Q k) P) (@zmul tscalars (@zmul tscalars Q P) k)). ring.
  - intros Q P k. change (@eq tscalars (@zmul tscalars Q (@zmul tscalars P k)) (@zmul tscalars (@zmul tscalars Q P) k)). ring.
  - intro H. discriminate.
  - lia.
  - lia.
  - intro x. apply i2osp_length.
  - intro x. rewrite os2ip_i2osp. rewrite Z.mod_small; [apply mk_zv|].
    pose proof (zv_bound x) as B. unfold tp in B. simpl. lia.
  - intro P. rewrite tenc_len. lia.
  - intro P. apply tenc_dec.
  - intro P. rewrite tenc_len. reflexivity.
  - intro P. apply tenc_dec.
  - intro P. rewrite tenc_len. lia.
  - intro P. apply tenc_dec.
  - intro P. rewrite tenc_len. reflexivity.
  - intro P. apply tenc_dec.
  - intros a b. apply zp_eq. cbn [zadd tscalars]. rewrite !zv_mk, Zplus_mod_idemp_l, Zplus_mod_idemp_r. reflexivity.
  - intros a b. apply zp_eq. cbn [zmul tscalars]. rewrite !zv_mk, Zmult_mod_idemp_l, Zmult_mod_idemp_r. reflexivity.
  - reflexivity.
  - reflexivity.
Qed.

(** The three encoding styles. *)
Definition toy_amcl : Curve := toy [Byte.x04] [].
Definition toy_miracl : Curve := toy [Byte.x04] [Byte.x04].
Definition toy_gurvy : Curve := toy [] [].

(** A toy hash: polynomial evaluation of the bytes at 7, plus one. *)
Definition toy_hash (pre1 pre2 : bytes) : hasher (toy pre1 pre2) :=
  fun b => mk (fold_left (fun acc x => (acc * 7 + Z.of_N (Byte.to_N x) + 1) mod tp)%Z b 1%Z).
