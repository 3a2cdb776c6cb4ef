(** A toy curve with 32-byte scalars, for the examples about the BBS+ library. *)
From Verif Require Import Base Curve Toy BbsSpec.
From Coq Require Import Field Ring.
Unset Strict Implicit.

Add Field tf_toybbs : (sok_field tscalars_ok).

Definition toy32 : Curve := {|
  Zr := tscalars;
  G1 := tgroup; G2 := tgroup; GT := tgroup;
  genG1 := f1; genG2 := f1;
  pair Q P := @zmul tscalars Q P;
  scalar_size := 32;
  coord_size := 32;
  g1_size := 32;
  g2_size := 4;
  g1_csize := 1;
  g2_csize := 1;
  zr_bytes a := i2osp 32 (zv a);
  zr_of_bytes b := mk (os2ip b);
  zr_of_Z z := mk z;
  g1_bytes := tenc [] 31; g1_of_bytes := tdec [] 31;
  g1_comp := tenc [] 0; g1_of_comp := tdec [] 0;
  g2_bytes := tenc [] 3; g2_of_bytes := tdec [] 3;
  g2_comp := tenc [] 0; g2_of_comp := tdec [] 0
|}.

Theorem toy32_ok : CurveOk toy32.
Proof.
  constructor; cbn [toy32 Zr G1 G2 GT genG1 genG2 pair scalar_size g1_size g2_size g1_csize g2_csize
                     zr_bytes zr_of_bytes zr_of_Z g1_bytes g1_of_bytes g1_comp g1_of_comp
                     g2_bytes g2_of_bytes g2_comp g2_of_comp].
  - exact tscalars_ok.
  - exact tgroup_ok.
  - exact tgroup_ok.
  - exact tgroup_ok.
  - intro H. discriminate.
  - intro H. discriminate.
  - intros Q Q' P. change (@eq tscalars (@zmul tscalars (@zadd tscalars Q Q') P) (@zadd tscalars (@zmul tscalars Q P) (@zmul tscalars Q' P))). ring.
  - intros Q P P'. change (@eq tscalars (@zmul tscalars Q (@zadd tscalars P P')) (@zadd tscalars (@zmul tscalars Q P) (@zmul tscalars Q P'))). ring.
  - intros Q P k. change (@eq tscalars (@zmul tscalars (@zmul tscalars Q k) P) (@zmul tscalars (@zmul tscalars Q P) k)). ring.
  - intros Q P k. change (@eq tscalars (@zmul tscalars Q (@zmul tscalars P k)) (@zmul tscalars (@zmul tscalars Q P) k)). ring.
  - intro H. discriminate.
  - lia.
  - lia.
  - intro x. apply i2osp_length.
  - intro x. rewrite os2ip_i2osp. rewrite Z.mod_small; [apply mk_zv|].
    pose proof (zv_bound x) as B. unfold tp in B. split; [lia|].
    apply Z.lt_le_trans with (256 ^ 1)%Z; [lia|]. apply Z.pow_le_mono_r; lia.
  - intro P. rewrite tenc_len. reflexivity.
  - intro P. apply tenc_dec.
  - intro P. rewrite tenc_len. reflexivity.
  - intro P. apply tenc_dec.
  - intro P. rewrite tenc_len. reflexivity.
  - intro P. apply tenc_dec.
  - intro P. rewrite tenc_len. reflexivity.
  - intro P. apply tenc_dec.
  - intros a b. apply zp_eq. cbn [zadd tscalars]. rewrite !zv_mk, Zplus_mod_idemp_l, Zplus_mod_idemp_r. reflexivity.
  - intros a b. apply zp_eq. cbn [zmul tscalars]. rewrite !zv_mk, Zmult_mod_idemp_l, Zmult_mod_idemp_r. reflexivity.
  - reflexivity.
  - reflexivity.
Qed.

Lemma toy32_sizes : bls_sizes toy32.
Proof. split; [reflexivity|]. cbn. lia. Qed.

(** toy hash functions *)
Definition h32 : hasher toy32 :=
  fun b => mk (fold_left (fun acc x => (acc * 7 + Z.of_N (Byte.to_N x) + 1) mod tp)%Z b 1%Z).
Definition hg32 : bytes -> G1 toy32 :=
  fun b => mk (1 + (fold_left (fun acc x => (acc * 5 + Z.of_N (Byte.to_N x) + 3) mod 30) b 1) mod 30)%Z.
