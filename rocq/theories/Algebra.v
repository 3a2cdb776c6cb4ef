(** Consequences of the curve laws, and a reflective decision procedure [gsolve] for
    equations in a module over the scalar field (up to the scalar equations left to
    [ring] / [field]). *)
From Verif Require Import Base Curve.
From Coq Require Import Field Ring.

Section GroupFacts.
  Context {K : scalars} {g : group K} (KO : ScalarsOk K) (GO : GroupOk g).

  Add Field Kfield : (sok_field KO).

  Lemma gadd_zero_l (a : g) : gzero ⊕ a = a.
  Proof. apply (gok_zero GO). Qed.

  Lemma gadd_zero_r (a : g) : a ⊕ gzero = a.
  Proof. rewrite (gok_comm GO). apply (gok_zero GO). Qed.

  Lemma gadd_cancel_l (a b c : g) : a ⊕ b = a ⊕ c -> b = c.
  Proof.
    intro H. rewrite <- (gadd_zero_l b), <- (gadd_zero_l c).
    rewrite <- (gok_opp GO a), (gok_comm GO a), <- !(gok_assoc GO), H. reflexivity.
  Qed.

  Lemma gmul_0 (a : g) : a ⊗ z0 = gzero.
  Proof.
    apply (gadd_cancel_l (a ⊗ z0)). rewrite <- (gok_mul_add GO), gadd_zero_r. f_equal. ring.
  Qed.

  Lemma gmul_zero (k : K) : @gzero K g ⊗ k = gzero.
  Proof.
    apply (gadd_cancel_l (gzero ⊗ k)). rewrite <- (gok_mul_gadd GO), !gadd_zero_r. reflexivity.
  Qed.

  Lemma gmul_opp1 (a : g) : a ⊗ (zopp z1) = gopp a.
  Proof.
    apply (gadd_cancel_l a). rewrite (gok_opp GO).
    rewrite <- (gok_mul_1 GO a) at 1. rewrite <- (gok_mul_add GO).
    replace (zadd z1 (zopp z1)) with (@z0 K) by ring. apply gmul_0.
  Qed.

  Inductive gexp : Type :=
  | GV (n : nat)
  | GZ
  | GA (a b : gexp)
  | GN (a : gexp)
  | GM (a : gexp) (k : K).

  Fixpoint gden (env : list g) (e : gexp) : g :=
    match e with
    | GV n => nth n env gzero
    | GZ => gzero
    | GA a b => gden env a ⊕ gden env b
    | GN a => gopp (gden env a)
    | GM a k => gden env a ⊗ k
    end.

  Fixpoint gcoef (e : gexp) (i : nat) : K :=
    match e with
    | GV n => if Nat.eqb n i then z1 else z0
    | GZ => z0
    | GA a b => zadd (gcoef a i) (gcoef b i)
    | GN a => zopp (gcoef a i)
    | GM a k => zmul (gcoef a i) k
    end.

  (** sum over an environment starting at index [i] *)
  Fixpoint glin (env : list g) (i : nat) (c : nat -> K) : g :=
    match env with
    | [] => gzero
    | p :: env' => (p ⊗ c i) ⊕ glin env' (S i) c
    end.

  Lemma glin_ext env : forall i c c', (forall j, i <= j -> j < i + length env -> c j = c' j) ->
    glin env i c = glin env i c'.
  Proof.
    induction env as [|p env IH]; intros i c c' H; simpl in *; [reflexivity|].
    rewrite (H i) by lia. f_equal. apply IH. intros j H1 H2. apply H; lia.
  Qed.

  Lemma glin_0 env : forall i, glin env i (fun _ => z0) = gzero.
  Proof.
    induction env as [|p env IH]; intro i; simpl; [reflexivity|].
    rewrite IH, gmul_0, gadd_zero_l. reflexivity.
  Qed.

  Lemma gswap (a b c d : g) : (a ⊕ b) ⊕ (c ⊕ d) = (a ⊕ c) ⊕ (b ⊕ d).
  Proof.
    rewrite <- !(gok_assoc GO). f_equal. rewrite !(gok_assoc GO). f_equal. apply (gok_comm GO).
  Qed.

  Lemma glin_add env : forall i c c',
    glin env i (fun j => zadd (c j) (c' j)) = glin env i c ⊕ glin env i c'.
  Proof.
    induction env as [|p env IH]; intros i c c'; simpl.
    - rewrite gadd_zero_l. reflexivity.
    - rewrite IH, (gok_mul_add GO). apply gswap.
  Qed.

  Lemma glin_mul env : forall i c k,
    glin env i (fun j => zmul (c j) k) = glin env i c ⊗ k.
  Proof.
    induction env as [|p env IH]; intros i c k; simpl.
    - rewrite gmul_zero. reflexivity.
    - rewrite IH, (gok_mul_mul GO), (gok_mul_gadd GO). reflexivity.
  Qed.

  Lemma glin_var env : forall n i, i <= n ->
    glin env i (fun j => if Nat.eqb n j then z1 else z0) = nth (n - i) env gzero.
  Proof.
    induction env as [|p env IH]; intros n i H; simpl.
    - destruct (n - i); reflexivity.
    - destruct (Nat.eqb_spec n i) as [->|N].
      + rewrite Nat.sub_diag, (gok_mul_1 GO).
        rewrite (@glin_ext env _ _ (fun _ => z0)).
        * rewrite glin_0, gadd_zero_r. reflexivity.
        * intros j H1 H2. destruct (Nat.eqb_spec i j); [lia|reflexivity].
      + rewrite gmul_0, gadd_zero_l, IH by lia.
        replace (n - i) with (S (n - S i)) by lia. reflexivity.
  Qed.

  Lemma gden_lin env e : gden env e = glin env 0 (gcoef e).
  Proof.
    induction e as [n| |a IHa b IHb|a IHa|a IHa k]; simpl.
    - rewrite glin_var by lia. rewrite Nat.sub_0_r. reflexivity.
    - rewrite glin_0. reflexivity.
    - rewrite IHa, IHb, <- glin_add. reflexivity.
    - rewrite IHa, <- gmul_opp1, <- glin_mul. apply glin_ext. intros; ring.
    - rewrite IHa, <- glin_mul. reflexivity.
  Qed.

  Fixpoint all_below (n : nat) (P : nat -> Prop) : Prop :=
    match n with
    | O => True
    | S n' => all_below n' P /\ P n'
    end.

  Lemma all_below_spec n P : all_below n P -> forall i, i < n -> P i.
  Proof.
    induction n as [|n IH]; intros H i Hi; [lia|].
    destruct H as [H1 H2]. destruct (Nat.eq_dec i n) as [->|]; [exact H2|apply IH; [exact H1|lia]].
  Qed.

  Lemma gden_eq env e1 e2 :
    all_below (length env) (fun i => gcoef e1 i = gcoef e2 i) -> gden env e1 = gden env e2.
  Proof.
    intro H. rewrite !gden_lin. apply glin_ext. intros j _ Hj. apply (@all_below_spec _ _ H). exact Hj.
  Qed.
End GroupFacts.

(** Reification *)
Ltac g_mem x env :=
  lazymatch env with
  | nil => constr:(false)
  | x :: _ => constr:(true)
  | _ :: ?r => g_mem x r
  end.

Ltac g_add x env :=
  let b := g_mem x env in
  lazymatch b with
  | true => env
  | false => constr:(x :: env)
  end.

Ltac g_atoms t env :=
  lazymatch t with
  | @gadd _ _ ?a ?b => let e := g_atoms a env in g_atoms b e
  | @gopp _ _ ?a => g_atoms a env
  | @gmul _ _ ?a _ => g_atoms a env
  | @gzero _ _ => env
  | _ => g_add t env
  end.

Ltac g_index x env :=
  lazymatch env with
  | x :: _ => constr:(O)
  | _ :: ?r => let n := g_index x r in constr:(S n)
  end.

Ltac g_reify K t env :=
  lazymatch t with
  | @gadd _ _ ?a ?b => let a' := g_reify K a env in let b' := g_reify K b env in constr:(GA a' b')
  | @gopp _ _ ?a => let a' := g_reify K a env in constr:(GN a')
  | @gmul _ _ ?a ?k => let a' := g_reify K a env in constr:(GM a' k)
  | @gzero _ _ => constr:(@GZ K)
  | _ => let n := g_index t env in constr:(@GV K n)
  end.

(** [gnorm KO GO]: turn an equation between group expressions into one scalar equation per
    atom. *)
Ltac gnorm KO GO :=
  unfold gmul2, gsub;
  lazymatch goal with
  | |- @eq ?T ?l ?r =>
      lazymatch type of GO with
      | @GroupOk ?K ?g =>
          let env0 := g_atoms l constr:(@nil (gcar g)) in
          let env := g_atoms r env0 in
          let e1 := g_reify K l env in
          let e2 := g_reify K r env in
          change (gden (g := g) env e1 = gden (g := g) env e2);
          apply (gden_eq KO GO);
          cbn [length all_below gcoef Nat.eqb];
          repeat split
      end
  end.

Section MoreFacts.
  Context {K : scalars} {g : group K} (KO : ScalarsOk K) (GO : GroupOk g).
  Add Field Kfield2 : (sok_field KO).

  Lemma gsub_diag (a : g) : a ⊖ a = gzero.
  Proof. gnorm KO GO; ring. Qed.

  Lemma gsub_zero (a b : g) : a ⊖ b = gzero <-> a = b.
  Proof.
    split; intro H.
    - replace a with ((a ⊖ b) ⊕ b) by (gnorm KO GO; ring). rewrite H. gnorm KO GO; ring.
    - subst. apply gsub_diag.
  Qed.

  Lemma zmul_zero_inv (a b : K) : zmul a b = z0 -> a <> z0 -> b = z0.
  Proof.
    intros H Ha. transitivity (zmul (zinv a) (zmul a b)).
    - field; exact Ha.
    - rewrite H. ring.
  Qed.

  Lemma zsub_zero (a b : K) : zsub a b = z0 <-> a = b.
  Proof.
    split; intro H.
    - replace a with (zadd (zsub a b) b) by ring. rewrite H. ring.
    - subst; ring.
  Qed.

  Lemma gmul_inv_zero (a : g) (k : K) : a ⊗ k = gzero -> k <> z0 -> a = gzero.
  Proof.
    intros H Hk. transitivity ((a ⊗ k) ⊗ zinv k).
    - gnorm KO GO; field; exact Hk.
    - rewrite H. apply (gmul_zero GO).
  Qed.

  Lemma zeq_dec (a b : K) : {a = b} + {a <> b}.
  Proof.
    destruct (zeqb a b) eqn:E.
    - left. apply (sok_eqb KO); exact E.
    - right. intro H. apply (sok_eqb KO) in H. congruence.
  Qed.

  Lemma geq_dec (a b : g) : {a = b} + {a <> b}.
  Proof.
    destruct (geqb a b) eqn:E.
    - left. apply (gok_eqb GO); exact E.
    - right. intro H. apply (gok_eqb GO) in H. congruence.
  Qed.

  Lemma gmul_faithful (a : g) (j k : K) : a <> gzero -> a ⊗ j = a ⊗ k -> j = k.
  Proof.
    intros Ha H. destruct (zeq_dec j k) as [E|N]; [exact E|]. exfalso. apply Ha.
    apply (@gmul_inv_zero a (zsub j k)).
    - transitivity ((a ⊗ j) ⊖ (a ⊗ k)); [gnorm KO GO; ring|]. rewrite H. apply gsub_diag.
    - intro Hz. apply N, zsub_zero, Hz.
  Qed.

  Lemma zeqb_refl (a : K) : zeqb a a = true.
  Proof. apply (sok_eqb KO); reflexivity. Qed.

  Lemma geqb_refl (a : g) : geqb a a = true.
  Proof. apply (gok_eqb GO); reflexivity. Qed.

  (** gdot *)
  Lemma gdot_nil_r (ps : list g) : gdot ps [] = gzero.
  Proof. destruct ps; reflexivity. Qed.

  Lemma gdot_app (ps qs : list g) (ks ls : list K) : length ps = length ks ->
    gdot (ps ++ qs) (ks ++ ls) = gdot ps ks ⊕ gdot qs ls.
  Proof.
    revert ks; induction ps as [|p ps IH]; intros [|k ks] H; simpl in *; try discriminate.
    - rewrite (gadd_zero_l GO); reflexivity.
    - rewrite IH by lia. apply (gok_assoc GO).
  Qed.
End MoreFacts.

Section PairFacts.
  Context {C : Curve} (OK : CurveOk C).
  Let KO := ok_zr OK.
  Let GO1 := ok_g1 OK.
  Let GO2 := ok_g2 OK.
  Let GOT := ok_gt OK.
  Add Field Kfield3 : (sok_field KO).

  Lemma pair_zero_r (Q : G2 C) : pair C Q gzero = gzero.
  Proof.
    rewrite <- (gmul_0 KO GO1 (genG1 C)), (ok_pair_mul_r OK). apply (gmul_0 KO GOT).
  Qed.

  Lemma pair_zero_l (P : G1 C) : pair C gzero P = gzero.
  Proof.
    rewrite <- (gmul_0 KO GO2 (genG2 C)), (ok_pair_mul_l OK). apply (gmul_0 KO GOT).
  Qed.

  Lemma pair_opp_r (Q : G2 C) (P : G1 C) : pair C Q (gopp P) = gopp (pair C Q P).
  Proof. rewrite <- (gmul_opp1 KO GO1), (ok_pair_mul_r OK). apply (gmul_opp1 KO GOT). Qed.

  Lemma pair_sub_r (Q : G2 C) (P P' : G1 C) : pair C Q (P ⊖ P') = pair C Q P ⊖ pair C Q P'.
  Proof. unfold gsub. rewrite (ok_pair_add_r OK), pair_opp_r. reflexivity. Qed.

  (** pairing with a non-trivial element of G2 is injective *)
  Lemma pair_inj_r (Q : G2 C) (P P' : G1 C) : Q <> gzero -> pair C Q P = pair C Q P' -> P = P'.
  Proof.
    intros HQ H. apply (gsub_zero KO GO1).
    destruct (geq_dec GO1 (P ⊖ P') gzero) as [E|N]; [exact E|exfalso].
    destruct (gok_cyclic GO2 (genG2 C) HQ) as [k Hk].
    destruct (gok_cyclic GO1 (genG1 C) N) as [j Hj].
    apply (ok_pair_nondeg OK). rewrite Hk, Hj, (ok_pair_mul_l OK), (ok_pair_mul_r OK), pair_sub_r, H.
    rewrite (gsub_diag KO GOT), !(gmul_zero GOT). reflexivity.
  Qed.

  Lemma pair_inj_l (Q Q' : G2 C) (P : G1 C) : P <> gzero -> pair C Q P = pair C Q' P -> Q = Q'.
  Proof.
    intros HP H. apply (gsub_zero KO GO2).
    destruct (geq_dec GO2 (Q ⊖ Q') gzero) as [E|N]; [exact E|exfalso].
    destruct (gok_cyclic GO1 (genG1 C) HP) as [k Hk].
    destruct (gok_cyclic GO2 (genG2 C) N) as [j Hj].
    apply (ok_pair_nondeg OK). rewrite Hk, Hj, (ok_pair_mul_l OK), (ok_pair_mul_r OK).
    unfold gsub. rewrite (ok_pair_add_l OK).
    rewrite <- (gmul_opp1 KO GO2), (ok_pair_mul_l OK), H, (gmul_opp1 KO GOT).
    rewrite (gok_opp GOT), !(gmul_zero GOT). reflexivity.
  Qed.

  Lemma zr_bytes_inj (a b : Zr C) : zr_bytes C a = zr_bytes C b -> a = b.
  Proof. intro H. rewrite <- (ok_zr_rt OK a), H. apply (ok_zr_rt OK). Qed.

  Lemma g1_bytes_inj (a b : G1 C) : g1_bytes C a = g1_bytes C b -> a = b.
  Proof. intro H. apply (f_equal (g1_of_bytes C)) in H. rewrite !(ok_g1_rt OK) in H. congruence. Qed.

  Lemma g2_bytes_inj (a b : G2 C) : g2_bytes C a = g2_bytes C b -> a = b.
  Proof. intro H. apply (f_equal (g2_of_bytes C)) in H. rewrite !(ok_g2_rt OK) in H. congruence. Qed.

  Lemma g1_comp_inj (a b : G1 C) : g1_comp C a = g1_comp C b -> a = b.
  Proof. intro H. apply (f_equal (g1_of_comp C)) in H. rewrite !(ok_g1c_rt OK) in H. congruence. Qed.
End PairFacts.
