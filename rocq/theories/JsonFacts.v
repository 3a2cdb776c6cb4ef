(** Facts about the JSON of Json.v *)
From Verif Require Import Base Dlog Bridge BridgeFacts Csp Json.
Unset Strict Implicit.
Local Open Scope Z_scope.

Lemma jz_bound b : 0 <= jz b < 256.
Proof. unfold jz. pose proof (Byte.to_N_bounded b). lia. Qed.
Lemma byte_jz b : byte_of_Z (jz b) = b.
Proof. destruct b; reflexivity. Qed.
Lemma byte_is z b : z = jz b -> byte_of_Z z = b.
Proof. intros ->. apply byte_jz. Qed.

(** ** base64 *)
Lemma value64_digit v : 0 <= v < 64 -> value64 (digit64 v) = Some v.
Proof.
  intro B. assert (Q : forallb (fun n => match value64 (digit64 (Z.of_nat n)) with Some w => w =? Z.of_nat n | None => false end) (seq 0 64) = true) by (vm_compute; reflexivity).
  pose proof (proj1 (forallb_forall _ _) Q (Z.to_nat v) (proj2 (in_seq 64 0 (Z.to_nat v)) ltac:(lia))) as W. cbv beta in W.
  rewrite Z2Nat.id in W by lia. destruct (value64 (digit64 v)) as [w|]; [|discriminate]. apply Z.eqb_eq in W. congruence.
Qed.

(** bytes that stand for themselves in a string *)
Definition plain (c : byte) : bool := (32 <=? jz c) && (jz c <? 128) && negb (byte_eqb c Byte.x22) && negb (byte_eqb c Byte.x5c).
Lemma digit64_plain v : plain (digit64 v) = true.
Proof.
  assert (Q : forallb plain (alphabet ++ [Byte.x41]) = true) by (vm_compute; reflexivity).
  apply (proj1 (forallb_forall _ _) Q). unfold digit64. destruct (Nat.ltb_spec (Z.to_nat v) (length alphabet)) as [L|L].
  - apply in_or_app. left. apply nth_In. exact L.
  - apply in_or_app. right. rewrite nth_overflow by lia. left. reflexivity.
Qed.
Lemma base64_plain : forall b, forallb plain (base64 b) = true.
Proof.
  fix IH 1. intros [|x [|y [|z r]]]; [reflexivity| | |]; cbn [base64 app forallb]; rewrite ?digit64_plain; cbn [andb]; [reflexivity|reflexivity|]. apply IH.
Qed.

Ltac Zify.zify_post_hook ::= Z.to_euclidean_division_equations.
Lemma groups64_base64 : forall b, groups64 (base64 b) = Some b.
Proof.
  fix IH 1. intros [|x [|y [|z r]]]; [reflexivity| | |].
  - pose proof (jz_bound x). cbn [base64 groups64]. rewrite !value64_digit by lia. cbn [value64 option_map].
    change (value64 Byte.x3d) with (@None Z). cbv iota. change (byte_eqb Byte.x3d Byte.x3d) with true. cbv iota. cbn [andb]. f_equal. f_equal. apply byte_is. lia.
  - pose proof (jz_bound x). pose proof (jz_bound y). cbn [base64 groups64]. rewrite !value64_digit by lia.
    change (value64 Byte.x3d) with (@None Z). cbv iota. change (byte_eqb Byte.x3d Byte.x3d) with true. cbv iota. f_equal. f_equal; [|f_equal]; apply byte_is; lia.
  - pose proof (jz_bound x). pose proof (jz_bound y). pose proof (jz_bound z). cbn [base64 app groups64]. rewrite !value64_digit by lia. rewrite IH.
    cbn [option_map app]. f_equal. f_equal; [|f_equal; [|f_equal]]; apply byte_is; lia.
Qed.
Ltac Zify.zify_post_hook ::= idtac.

Lemma plain_no_eol l : forallb plain l = true -> filter (fun c => negb (byte_eqb c Byte.x0a || byte_eqb c Byte.x0d)) l = l.
Proof.
  induction l as [|c l IH]; [reflexivity|]. cbn [forallb filter]. intro P. apply andb_prop in P. destruct P as [P Q].
  rewrite (IH Q). destruct (byte_eqb_spec c Byte.x0a) as [->|]; [discriminate|]. destruct (byte_eqb_spec c Byte.x0d) as [->|]; [discriminate|]. reflexivity.
Qed.
Lemma unbase64_base64 b : unbase64 (base64 b) = Some b.
Proof. unfold unbase64. rewrite (plain_no_eol (base64_plain b)). apply groups64_base64. Qed.

(** ** what the parser consumes: at least [k] bytes, none of them zero *)
Definition eats (k : nat) (b r : bytes) : Prop := exists p, b = p ++ r /\ (k <= length p)%nat /\ Forall (fun c => c <> Byte.x00) p.
Lemma eats_refl b : eats 0 b b.
Proof. exists []. repeat split; [lia|constructor]. Qed.
Lemma eats_trans j k b c d : eats j b c -> eats k c d -> eats (j + k) b d.
Proof.
  intros [p [-> [L1 N1]]] [q [-> [L2 N2]]]. exists (p ++ q). rewrite app_assoc, app_length. repeat split; [lia|apply Forall_app; auto].
Qed.
Lemma eats_le j k b c : (j <= k)%nat -> eats k b c -> eats j b c.
Proof. intros L [p [-> [L1 N1]]]. exists p. repeat split; [lia|exact N1]. Qed.
Lemma eats_cons c r : c <> Byte.x00 -> eats 1 (c :: r) r.
Proof. intro N. exists [c]. repeat split; [cbn; lia|]. constructor; [exact N|constructor]. Qed.
Lemma eats_len k b r : eats k b r -> (k + length r <= length b)%nat.
Proof. intros [p [-> [L _]]]. rewrite app_length. lia. Qed.
Lemma skip_eats b : eats 0 b (skip b).
Proof.
  induction b as [|c b IH]; [apply eats_refl|]. cbn [skip]. destruct (blank c) eqn:B; [|apply eats_refl].
  refine (eats_le _ (eats_trans (eats_cons _ _) IH)); [lia|]. intros ->. discriminate.
Qed.
Lemma literal_eats w : Forall (fun c => c <> Byte.x00) w -> forall b r, literal w b = Some r -> eats (length w) b r.
Proof.
  induction w as [|x w IH]; intros N b r E; cbn [literal] in E.
  - injection E as ->. apply eats_refl.
  - destruct b as [|y b]; [discriminate|]. destruct (byte_eqb_spec x y) as [->|]; [|discriminate]. inversion N as [|? ? N1 N2]; subst.
    exact (eats_trans (eats_cons b N1) (IH N2 _ _ E)).
Qed.
Lemma digits_eats : forall b d r, digits b = (d, r) -> eats (length d) b r.
Proof.
  induction b as [|c b IH]; intros d r E; cbn [digits] in E.
  - injection E as <- <-. apply eats_refl.
  - destruct (is_digit c) eqn:D; [|injection E as <- <-; apply eats_refl]. destruct (digits b) as [d' r'] eqn:E'. injection E as <- <-.
    refine (eats_trans (eats_cons _ _) (IH _ _ eq_refl)). intros ->. discriminate.
Qed.
Lemma some_digits_eats b d r : some_digits b = Some (d, r) -> eats 1 b r.
Proof.
  unfold some_digits. destruct (digits b) as [d' r'] eqn:E. destruct d' as [|x d']; [discriminate|]. intro Q. injection Q as <- <-.
  refine (eats_le _ (digits_eats E)); cbn; lia.
Qed.
Lemma sign_eats cs b s r : ~ In Byte.x00 cs -> sign cs b = (s, r) -> eats 0 b r.
Proof.
  intros N E. destruct b as [|c b]; cbn [sign] in E; [injection E as <- <-; apply eats_refl|].
  destruct (existsb (byte_eqb c) cs) eqn:X; injection E as <- <-; [|apply eats_refl]. refine (eats_le _ (eats_cons _ _)); [lia|]. intros ->.
  apply existsb_exists in X. destruct X as [y [I Y]]. destruct (byte_eqb_spec Byte.x00 y) as [<-|]; [contradiction|discriminate].
Qed.
Lemma integer_eats b i r : integer b = Some (i, r) -> eats 1 b r.
Proof.
  unfold integer. destruct b as [|c b]; [discriminate|]. destruct (byte_eqb_spec c Byte.x30) as [->|]; [|apply some_digits_eats].
  intro E. injection E as <- <-. apply eats_cons. discriminate.
Qed.
Lemma fraction_eats b i r : fraction b = Some (i, r) -> eats 0 b r.
Proof.
  unfold fraction. destruct b as [|c b]; [intro E; injection E as <- <-; apply eats_refl|].
  destruct (byte_eqb_spec c Byte.x2e) as [->|]; [|intro E; injection E as <- <-; apply eats_refl].
  destruct (some_digits b) as [[d r']|] eqn:D; [|discriminate]. cbn [option_map]. intro E. injection E as <- <-.
  refine (eats_le _ (eats_trans (eats_cons _ _) (some_digits_eats D))); [lia|discriminate].
Qed.
Lemma exponent_eats b i r : exponent b = Some (i, r) -> eats 0 b r.
Proof.
  unfold exponent. destruct b as [|c b]; [intro E; injection E as <- <-; apply eats_refl|].
  destruct (byte_eqb c Byte.x65 || byte_eqb c Byte.x45) eqn:X; [|intro E; injection E as <- <-; apply eats_refl].
  destruct (sign _ b) as [s r1] eqn:S. destruct (some_digits r1) as [[d r']|] eqn:D; [|discriminate]. cbn [option_map]. intro E. injection E as <- <-.
  refine (eats_le _ (eats_trans (eats_cons _ _) (eats_trans (sign_eats _ S) (some_digits_eats D)))); [lia| |].
  - intros ->. discriminate.
  - intros [I|[I|[]]]; discriminate.
Qed.
Lemma number_eats b t r : number b = Some (t, r) -> eats 1 b r.
Proof.
  unfold number. destruct (sign _ b) as [s r0] eqn:S. destruct (integer r0) as [[i r1]|] eqn:I; [|discriminate].
  destruct (fraction r1) as [[f r2]|] eqn:F; [|discriminate]. destruct (exponent r2) as [[e r3]|] eqn:E; [|discriminate]. intro Q. injection Q as <- <-.
  refine (eats_le _ (eats_trans (sign_eats _ S) (eats_trans (integer_eats I) (eats_trans (fraction_eats F) (exponent_eats E))))); [lia|].
  intros [X|[]]; discriminate.
Qed.
Lemma hex_nz c : is_hex c = true -> c <> Byte.x00.
Proof. intros H ->. discriminate. Qed.
Lemma text_eats : forall n b t r, (length b <= n)%nat -> text b = Some (t, r) -> eats 1 b r.
Proof.
  induction n as [|n IH]; intros b t r L E; (destruct b as [|c b]; [discriminate|]); [cbn in L; lia|]. cbn [text] in E. cbn [length] in L.
  destruct (byte_eqb_spec c Byte.x22) as [->|]; [injection E as <- <-; apply eats_cons; discriminate|].
  destruct (byte_eqb_spec c Byte.x5c) as [->|].
  - destruct b as [|e b]; [discriminate|]. cbn [length] in L. destruct (existsb (byte_eqb e) _) eqn:X.
    + destruct (text b) as [[t' r']|] eqn:T; [|discriminate]. injection E as <- <-.
      refine (eats_le _ (eats_trans (eats_cons _ _) (eats_trans (eats_cons _ _) (IH b _ _ ltac:(lia) T)))); [lia|discriminate|]. intros ->. discriminate.
    + destruct (byte_eqb_spec e Byte.x75) as [->|]; [|discriminate]. destruct b as [|h1 [|h2 [|h3 [|h4 b]]]]; try discriminate.
      destruct (is_hex h1 && is_hex h2 && is_hex h3 && is_hex h4) eqn:HX; [|discriminate].
      apply andb_prop in HX. destruct HX as [HX H4]. apply andb_prop in HX. destruct HX as [HX H3]. apply andb_prop in HX. destruct HX as [H1 H2].
      destruct (text b) as [[t' r']|] eqn:T; [|discriminate]. injection E as <- <-. cbn [length] in L.
      pose proof (IH b _ _ ltac:(lia) T) as Q.
      refine (eats_le _ (eats_trans (eats_cons _ _) (eats_trans (eats_cons _ _) (eats_trans (eats_cons _ (hex_nz H1)) (eats_trans (eats_cons _ (hex_nz H2)) (eats_trans (eats_cons _ (hex_nz H3)) (eats_trans (eats_cons _ (hex_nz H4)) Q)))))));
      [lia|discriminate|discriminate].
  - destruct (Z.ltb_spec (jz c) 32) as [Q|Q]; [discriminate|]. destruct (text b) as [[t' r']|] eqn:T; [|discriminate]. injection E as <- <-.
    refine (eats_le _ (eats_trans (eats_cons _ _) (IH b _ _ ltac:(lia) T))); [lia|]. intros ->. cbn in Q. lia.
Qed.
Lemma quoted_eats b s r : quoted b = Some (s, r) -> eats 2 b r.
Proof.
  unfold quoted. destruct b as [|c b]; [discriminate|]. destruct (byte_eqb_spec c Byte.x22) as [->|]; [|discriminate].
  destruct (text b) as [[t r']|] eqn:T; [|discriminate]. intro E. injection E as <- <-.
  refine (eats_trans (eats_cons _ _) (text_eats (le_n _) T)). discriminate.
Qed.

Lemma value_eats n :
  (forall b v r, value n b = Some (v, r) -> eats 1 b r) /\
  (forall b l r, members n b = Some (l, r) -> eats 1 b r) /\
  (forall b l r, elements n b = Some (l, r) -> eats 1 b r).
Proof.
  induction n as [|n (IV & IM & IE)]; [repeat split; discriminate|]. split; [|split]; intros b x r E.
  - cbn [value] in E. pose proof (skip_eats b) as K. destruct (skip b) as [|c b']; [discriminate|].
    enough (eats 1 (c :: b') r) by (exact (eats_trans K H)).
    destruct (byte_eqb_spec c Byte.x7b) as [->|]; [|destruct (byte_eqb_spec c Byte.x5b) as [->|]; [|
      destruct (byte_eqb_spec c Byte.x22) as [->|]; [|destruct (byte_eqb_spec c Byte.x74) as [->|]; [|destruct (byte_eqb_spec c Byte.x66) as [->|]; [|
      destruct (byte_eqb_spec c Byte.x6e) as [->|]]]]]].
    + destruct (literal [Byte.x7d] (skip b')) as [r'|] eqn:Lt.
      * injection E as <- <-. refine (eats_le _ (eats_trans (eats_cons _ _) (eats_trans (skip_eats b') (literal_eats _ Lt)))); [cbn; lia|discriminate|repeat constructor; discriminate].
      * destruct (members n b') as [[l r']|] eqn:M; [|discriminate]. injection E as <- <-.
        refine (eats_le _ (eats_trans (eats_cons _ _) (IM _ _ _ M))); [lia|discriminate].
    + destruct (literal [Byte.x5d] (skip b')) as [r'|] eqn:Lt.
      * injection E as <- <-. refine (eats_le _ (eats_trans (eats_cons _ _) (eats_trans (skip_eats b') (literal_eats _ Lt)))); [cbn; lia|discriminate|repeat constructor; discriminate].
      * destruct (elements n b') as [[l r']|] eqn:M; [|discriminate]. injection E as <- <-.
        refine (eats_le _ (eats_trans (eats_cons _ _) (IE _ _ _ M))); [lia|discriminate].
    + destruct (quoted _) as [[s r']|] eqn:Q; [|discriminate]. injection E as <- <-. refine (eats_le _ (quoted_eats Q)); lia.
    + destruct (literal (str "true") _) as [r'|] eqn:Lt; [|discriminate]. injection E as <- <-. refine (eats_le _ (literal_eats _ Lt)); [cbn; lia|repeat constructor; discriminate].
    + destruct (literal (str "false") _) as [r'|] eqn:Lt; [|discriminate]. injection E as <- <-. refine (eats_le _ (literal_eats _ Lt)); [cbn; lia|repeat constructor; discriminate].
    + destruct (literal (str "null") _) as [r'|] eqn:Lt; [|discriminate]. injection E as <- <-. refine (eats_le _ (literal_eats _ Lt)); [cbn; lia|repeat constructor; discriminate].
    + destruct (number _) as [[t r']|] eqn:N; [|discriminate]. injection E as <- <-. exact (number_eats N).
  - cbn [members] in E. destruct (quoted (skip b)) as [[k r0]|] eqn:Q; [|discriminate]. destruct (literal [Byte.x3a] (skip r0)) as [r1|] eqn:Lt; [|discriminate].
    destruct (value n r1) as [[v r2]|] eqn:V; [|discriminate]. pose proof (skip_eats r2) as K. destruct (skip r2) as [|c r3]; [discriminate|].
    assert (P : eats 2 b (c :: r3)).
    { refine (eats_le _ (eats_trans (skip_eats b) (eats_trans (quoted_eats Q) (eats_trans (skip_eats r0) (eats_trans (literal_eats _ Lt) (eats_trans (IV _ _ _ V) K))))));
        [cbn; lia|repeat constructor; discriminate]. }
    destruct (byte_eqb_spec c Byte.x2c) as [->|].
    + destruct (members n r3) as [[l' r']|] eqn:M; [|discriminate]. injection E as <- <-.
      refine (eats_le _ (eats_trans P (eats_trans (eats_cons _ _) (IM _ _ _ M)))); [lia|discriminate].
    + destruct (byte_eqb_spec c Byte.x7d) as [->|]; [|discriminate]. injection E as <- <-. refine (eats_le _ (eats_trans P (eats_cons _ _))); [lia|discriminate].
  - cbn [elements] in E. destruct (value n b) as [[v r2]|] eqn:V; [|discriminate]. pose proof (skip_eats r2) as K. destruct (skip r2) as [|c r3]; [discriminate|].
    pose proof (eats_trans (IV _ _ _ V) K) as P.
    destruct (byte_eqb_spec c Byte.x2c) as [->|].
    + destruct (elements n r3) as [[l' r']|] eqn:M; [|discriminate]. injection E as <- <-.
      refine (eats_le _ (eats_trans P (eats_trans (eats_cons _ _) (IE _ _ _ M)))); [lia|discriminate].
    + destruct (byte_eqb_spec c Byte.x5d) as [->|]; [|discriminate]. injection E as <- <-. refine (eats_le _ (eats_trans P (eats_cons _ _))); [lia|discriminate].
Qed.

(** ** the fuel is enough *)
Lemma value_fuel_ k :
  (forall b n m, (length b <= k)%nat -> (2 * length b < n)%nat -> (2 * length b < m)%nat -> value n b = value m b) /\
  (forall b n m, (length b <= k)%nat -> (2 * length b < n)%nat -> (2 * length b < m)%nat -> members n b = members m b) /\
  (forall b n m, (length b <= k)%nat -> (2 * length b + 1 < n)%nat -> (2 * length b + 1 < m)%nat -> elements n b = elements m b).
Proof.
  induction k as [k IH] using lt_wf_ind.
  assert (IV : forall b n m, (length b < k)%nat -> (2 * length b < n)%nat -> (2 * length b < m)%nat -> value n b = value m b).
  { intros b n m L. exact (proj1 (IH (length b) L) b n m (le_n _)). }
  assert (IM : forall b n m, (length b < k)%nat -> (2 * length b < n)%nat -> (2 * length b < m)%nat -> members n b = members m b).
  { intros b n m L. exact (proj1 (proj2 (IH (length b) L)) b n m (le_n _)). }
  assert (IE : forall b n m, (length b < k)%nat -> (2 * length b + 1 < n)%nat -> (2 * length b + 1 < m)%nat -> elements n b = elements m b).
  { intros b n m L. exact (proj2 (proj2 (IH (length b) L)) b n m (le_n _)). }
  clear IH.
  assert (VV : forall b n m, (length b <= k)%nat -> (2 * length b < n)%nat -> (2 * length b < m)%nat -> value n b = value m b).
  { intros b [|n] [|m] L Ln Lm; try lia. cbn [value]. pose proof (eats_len (skip_eats b)) as K. destruct (skip b) as [|c b']; [reflexivity|]. cbn [length] in K.
    destruct (byte_eqb c Byte.x7b); [rewrite (IM b' n m ltac:(lia) ltac:(lia) ltac:(lia)); reflexivity|].
    destruct (byte_eqb c Byte.x5b); [rewrite (IE b' n m ltac:(lia) ltac:(lia) ltac:(lia)); reflexivity|]. reflexivity. }
  split; [exact VV|split].
  - intros b [|n] [|m] L Ln Lm; try lia. cbn [members]. destruct (quoted (skip b)) as [[key r]|] eqn:Q; [|reflexivity].
    destruct (literal [Byte.x3a] (skip r)) as [r1|] eqn:Lt; [|reflexivity].
    pose proof (eats_len (eats_trans (skip_eats b) (eats_trans (quoted_eats Q) (eats_trans (skip_eats r) (@literal_eats [Byte.x3a] ltac:(repeat constructor; discriminate) _ _ Lt))))) as K. cbn in K.
    rewrite (IV r1 n m ltac:(lia) ltac:(lia) ltac:(lia)). destruct (value m r1) as [[v r2]|] eqn:V; [|reflexivity].
    pose proof (eats_len (eats_trans (proj1 (value_eats m) _ _ _ V) (skip_eats r2))) as K2. destruct (skip r2) as [|c r3]; [reflexivity|]. cbn [length] in K2.
    rewrite (IM r3 n m ltac:(lia) ltac:(lia) ltac:(lia)). reflexivity.
  - intros b [|n] [|m] L Ln Lm; try lia. cbn [elements]. rewrite (VV b n m ltac:(lia) ltac:(lia) ltac:(lia)). destruct (value m b) as [[v r2]|] eqn:V; [|reflexivity].
    pose proof (eats_len (eats_trans (proj1 (value_eats m) _ _ _ V) (skip_eats r2))) as K2. destruct (skip r2) as [|c r3]; [reflexivity|]. cbn [length] in K2.
    rewrite (IE r3 n m ltac:(lia) ltac:(lia) ltac:(lia)). reflexivity.
Qed.
Lemma value_fuel b n m : (2 * length b < n)%nat -> (2 * length b < m)%nat -> value n b = value m b.
Proof. exact (proj1 (value_fuel_ (length b)) b n m (le_n _)). Qed.

(** ** a parsed text contains no zero byte *)
Lemma parse_no_zero b v : parse_json b = Some v -> ~ In Byte.x00 b.
Proof.
  unfold parse_json. destruct (value _ b) as [[x r]|] eqn:V; [|discriminate]. pose proof (skip_eats r) as K. destruct (skip r) as [|]; [|discriminate]. intros _.
  destruct (eats_trans (proj1 (value_eats _) _ _ _ V) K) as [p [-> [_ N]]]. rewrite app_nil_r. intro I. exact (proj1 (Forall_forall _ _) N _ I eq_refl).
Qed.

(** ** more text after a value *)
Lemma skip_app b c r q : skip b = c :: r -> skip (b ++ q) = c :: r ++ q.
Proof.
  induction b as [|x b IH]; [discriminate|]. cbn [skip app]. destruct (blank x); [exact IH|]. intro E. injection E as <- <-. reflexivity.
Qed.
Lemma literal_app w : forall b r q, literal w b = Some r -> literal w (b ++ q) = Some (r ++ q).
Proof.
  induction w as [|x w IH]; intros b r q E; cbn [literal] in *; [injection E as ->; reflexivity|]. destruct b as [|y b]; [discriminate|]. cbn [app].
  destruct (byte_eqb x y); [apply IH; exact E|discriminate].
Qed.
Lemma literal1_none x c r q : literal [x] (c :: r) = None -> literal [x] (c :: r ++ q) = None.
Proof. cbn [literal]. destruct (byte_eqb x c); [discriminate|reflexivity]. Qed.
Lemma text_app : forall n b t r q, (length b <= n)%nat -> text b = Some (t, r) -> text (b ++ q) = Some (t, r ++ q).
Proof.
  induction n as [|n IH]; intros b t r q L E; (destruct b as [|c b]; [discriminate|]); [cbn in L; lia|]. cbn [length] in L. cbn [app text] in *.
  destruct (byte_eqb c Byte.x22); [injection E as <- <-; reflexivity|]. destruct (byte_eqb c Byte.x5c).
  - destruct b as [|e b]; [discriminate|]. cbn [length] in L. cbn [app]. destruct (existsb (byte_eqb e) _).
    + destruct (text b) as [[t' r']|] eqn:T; [|discriminate]. rewrite (IH b _ _ q ltac:(lia) T). cbn [option_map] in *. injection E as <- <-. reflexivity.
    + destruct (byte_eqb e Byte.x75); [|discriminate]. destruct b as [|h1 [|h2 [|h3 [|h4 b]]]]; try discriminate. cbn [app].
      destruct (is_hex h1 && is_hex h2 && is_hex h3 && is_hex h4); [|discriminate]. cbn [length] in L.
      destruct (text b) as [[t' r']|] eqn:T; [|discriminate]. rewrite (IH b _ _ q ltac:(lia) T). cbn [option_map] in *. injection E as <- <-. reflexivity.
  - destruct (jz c <? 32); [discriminate|]. destruct (text b) as [[t' r']|] eqn:T; [|discriminate]. rewrite (IH b _ _ q ltac:(lia) T). cbn [option_map] in *. injection E as <- <-. reflexivity.
Qed.
Lemma quoted_app b s r q : quoted b = Some (s, r) -> quoted (b ++ q) = Some (s, r ++ q).
Proof.
  unfold quoted. destruct b as [|c b]; [discriminate|]. cbn [app]. destruct (byte_eqb c Byte.x22); [|discriminate].
  destruct (text b) as [[t r']|] eqn:T; [|discriminate]. rewrite (text_app q (le_n _) T). intro E. injection E as <- <-. reflexivity.
Qed.
Lemma digits_app : forall b d r q, r <> [] -> digits b = (d, r) -> digits (b ++ q) = (d, r ++ q).
Proof.
  induction b as [|c b IH]; intros d r q N E; cbn [digits app] in *; [injection E as <- <-; destruct N; reflexivity|]. destruct (is_digit c); [|injection E as <- <-; reflexivity].
  destruct (digits b) as [d' r'] eqn:D. injection E as <- <-. rewrite (IH _ _ q N eq_refl). reflexivity.
Qed.
Lemma some_digits_app b d r q : r <> [] -> some_digits b = Some (d, r) -> some_digits (b ++ q) = Some (d, r ++ q).
Proof.
  unfold some_digits. intro N. destruct (digits b) as [d' r'] eqn:D. destruct d' as [|x d']; [discriminate|]. intro E. injection E as <- <-.
  rewrite (digits_app q N D). reflexivity.
Qed.
Lemma sign_app cs b s r q : r <> [] -> sign cs b = (s, r) -> sign cs (b ++ q) = (s, r ++ q).
Proof.
  intro N. destruct b as [|c b]; cbn [sign app]; [intro E; injection E as <- <-; destruct N; reflexivity|]. destruct (existsb (byte_eqb c) cs); intro E; injection E as <- <-; reflexivity.
Qed.
Lemma integer_app b i r q : r <> [] -> integer b = Some (i, r) -> integer (b ++ q) = Some (i, r ++ q).
Proof.
  intro N. unfold integer. destruct b as [|c b]; [discriminate|]. cbn [app]. destruct (byte_eqb c Byte.x30); [intro E; injection E as <- <-; reflexivity|].
  intro E. exact (some_digits_app q N E).
Qed.
Lemma fraction_app b i r q : r <> [] -> fraction b = Some (i, r) -> fraction (b ++ q) = Some (i, r ++ q).
Proof.
  intro N. unfold fraction. destruct b as [|c b]; [intro E; injection E as <- <-; destruct N; reflexivity|]. cbn [app]. destruct (byte_eqb c Byte.x2e); [|intro E; injection E as <- <-; reflexivity].
  destruct (some_digits b) as [[d r']|] eqn:D; [|discriminate]. cbn [option_map]. intro E. injection E as <- <-. rewrite (some_digits_app q N D). reflexivity.
Qed.
Lemma eats_nonempty k b r : eats k b r -> r <> [] -> b <> [].
Proof. intros [p [-> _]] N E. destruct p; [exact (N E)|discriminate]. Qed.
Lemma exponent_app b i r q : r <> [] -> exponent b = Some (i, r) -> exponent (b ++ q) = Some (i, r ++ q).
Proof.
  intro N. unfold exponent. destruct b as [|c b]; [intro E; injection E as <- <-; destruct N; reflexivity|]. cbn [app]. destruct (byte_eqb c Byte.x65 || byte_eqb c Byte.x45); [|intro E; injection E as <- <-; reflexivity].
  destruct (sign _ b) as [s r1] eqn:S. destruct (some_digits r1) as [[d r']|] eqn:D; [|discriminate]. cbn [option_map]. intro E. injection E as <- <-.
  rewrite (sign_app q (eats_nonempty (some_digits_eats D) N) S), (some_digits_app q N D). reflexivity.
Qed.
Lemma number_app b t r q : r <> [] -> number b = Some (t, r) -> number (b ++ q) = Some (t, r ++ q).
Proof.
  intro N. unfold number. destruct (sign _ b) as [s r0] eqn:S. destruct (integer r0) as [[i r1]|] eqn:I; [|discriminate].
  destruct (fraction r1) as [[f r2]|] eqn:F; [|discriminate]. destruct (exponent r2) as [[e r3]|] eqn:E; [|discriminate]. intro Q. injection Q as <- <-.
  pose proof (eats_nonempty (exponent_eats E) N) as N2. pose proof (eats_nonempty (fraction_eats F) N2) as N1. pose proof (eats_nonempty (integer_eats I) N1) as N0.
  rewrite (sign_app q N0 S), (integer_app q N1 I), (fraction_app q N2 F), (exponent_app q N E). reflexivity.
Qed.
Definition is_num (v : json) : bool := match v with JNum _ => true | _ => false end.
Lemma value_app n :
  (forall b v r q, value n b = Some (v, r) -> r <> [] \/ is_num v = false -> value n (b ++ q) = Some (v, r ++ q)) /\
  (forall b l r q, members n b = Some (l, r) -> members n (b ++ q) = Some (l, r ++ q)) /\
  (forall b l r q, elements n b = Some (l, r) -> elements n (b ++ q) = Some (l, r ++ q)).
Proof.
  induction n as [|n (IV & IM & IE)]; [repeat split; discriminate|]. split; [|split].
  - intros b v r q E NX. cbn [value] in E |- *. destruct (skip b) as [|c b'] eqn:K; [discriminate|]. rewrite (skip_app q K).
    destruct (byte_eqb c Byte.x7b); [|destruct (byte_eqb c Byte.x5b); [|destruct (byte_eqb c Byte.x22); [|destruct (byte_eqb c Byte.x74); [|
      destruct (byte_eqb c Byte.x66); [|destruct (byte_eqb c Byte.x6e)]]]]].
    + destruct (skip b') as [|c' b''] eqn:K'.
      * cbn [literal] in E. destruct n as [|n']; [discriminate|]. cbn [members] in E. rewrite K' in E. discriminate.
      * rewrite (skip_app q K'). destruct (literal [Byte.x7d] (c' :: b'')) as [r'|] eqn:Lt.
        -- change (c' :: b'' ++ q) with ((c' :: b'') ++ q). rewrite (literal_app q Lt). injection E as <- <-. reflexivity.
        -- rewrite (literal1_none q Lt). destruct (members n b') as [[l r']|] eqn:M; [|discriminate]. injection E as <- <-. rewrite (IM _ _ _ q M). reflexivity.
    + destruct (skip b') as [|c' b''] eqn:K'.
      * cbn [literal] in E. destruct n as [|[|n']]; [discriminate|discriminate|]. cbn [elements value] in E. rewrite K' in E. discriminate.
      * rewrite (skip_app q K'). destruct (literal [Byte.x5d] (c' :: b'')) as [r'|] eqn:Lt.
        -- change (c' :: b'' ++ q) with ((c' :: b'') ++ q). rewrite (literal_app q Lt). injection E as <- <-. reflexivity.
        -- rewrite (literal1_none q Lt). destruct (elements n b') as [[l r']|] eqn:M; [|discriminate]. injection E as <- <-. rewrite (IE _ _ _ q M). reflexivity.
    + destruct (quoted _) as [[s r']|] eqn:Q; [|discriminate]. injection E as <- <-. change (c :: b' ++ q) with ((c :: b') ++ q). rewrite (quoted_app q Q). reflexivity.
    + destruct (literal (str "true") _) as [r'|] eqn:Lt; [|discriminate]. injection E as <- <-. change (c :: b' ++ q) with ((c :: b') ++ q). rewrite (literal_app q Lt). reflexivity.
    + destruct (literal (str "false") _) as [r'|] eqn:Lt; [|discriminate]. injection E as <- <-. change (c :: b' ++ q) with ((c :: b') ++ q). rewrite (literal_app q Lt). reflexivity.
    + destruct (literal (str "null") _) as [r'|] eqn:Lt; [|discriminate]. injection E as <- <-. change (c :: b' ++ q) with ((c :: b') ++ q). rewrite (literal_app q Lt). reflexivity.
    + destruct (number _) as [[t r']|] eqn:N; [|discriminate]. injection E as <- <-. destruct NX as [NX|NX]; [|discriminate].
      change (c :: b' ++ q) with ((c :: b') ++ q). rewrite (number_app q NX N). reflexivity.
  - intros b l r q E. cbn [members] in E |- *. destruct (quoted (skip b)) as [[k r0]|] eqn:Q; [|discriminate].
    destruct (skip b) as [|c b'] eqn:K; [discriminate|]. rewrite (skip_app q K). change (c :: b' ++ q) with ((c :: b') ++ q). rewrite (quoted_app q Q).
    destruct (skip r0) as [|c0 r0'] eqn:K0; [discriminate|]. rewrite (skip_app q K0). destruct (literal [Byte.x3a] (c0 :: r0')) as [r1|] eqn:Lt; [|discriminate].
    change (c0 :: r0' ++ q) with ((c0 :: r0') ++ q). rewrite (literal_app q Lt). destruct (value n r1) as [[v r2]|] eqn:V; [|discriminate].
    destruct (skip r2) as [|c2 r3] eqn:K2; [discriminate|].
    assert (N2 : r2 <> []) by (intros ->; discriminate). rewrite (IV _ _ _ q V (or_introl N2)), (skip_app q K2).
    destruct (byte_eqb c2 Byte.x2c).
    + destruct (members n r3) as [[l' r']|] eqn:M; [|discriminate]. injection E as <- <-. rewrite (IM _ _ _ q M). reflexivity.
    + destruct (byte_eqb c2 Byte.x7d); [|discriminate]. injection E as <- <-. reflexivity.
  - intros b l r q E. cbn [elements] in E |- *. destruct (value n b) as [[v r2]|] eqn:V; [|discriminate].
    destruct (skip r2) as [|c2 r3] eqn:K2; [discriminate|].
    assert (N2 : r2 <> []) by (intros ->; discriminate). rewrite (IV _ _ _ q V (or_introl N2)), (skip_app q K2).
    destruct (byte_eqb c2 Byte.x2c).
    + destruct (elements n r3) as [[l' r']|] eqn:M; [|discriminate]. injection E as <- <-. rewrite (IE _ _ _ q M). reflexivity.
    + destruct (byte_eqb c2 Byte.x5d); [|discriminate]. injection E as <- <-. reflexivity.
Qed.

(** ** printed values are parsed *)
Lemma plain_inv c : plain c = true -> jz c <? 32 = false /\ jz c <? 128 = true /\ byte_eqb c Byte.x22 = false /\ byte_eqb c Byte.x5c = false.
Proof.
  unfold plain. intro P. apply andb_prop in P. destruct P as [P P4]. apply andb_prop in P. destruct P as [P P3]. apply andb_prop in P. destruct P as [P1 P2].
  apply negb_true_iff in P3, P4. repeat split; [lia|assumption|assumption|assumption].
Qed.
Lemma text_plain s r : forallb plain s = true -> text (s ++ Byte.x22 :: r) = Some (s, r).
Proof.
  induction s as [|c s IH]; intro P; cbn [app text forallb] in *; [reflexivity|]. apply andb_prop in P. destruct P as [P Q].
  destruct (plain_inv P) as (A & _ & B & D). rewrite A, B, D, (IH Q). reflexivity.
Qed.
Lemma unquote_plain s : forallb plain s = true -> unquote (length s) s = s.
Proof.
  induction s as [|c s IH]; intro P; [reflexivity|]. cbn [length unquote forallb] in *. apply andb_prop in P. destruct P as [P Q].
  destruct (plain_inv P) as (A & B & D & E). rewrite E. cbn [char_size]. rewrite B. cbn [firstn skipn app]. rewrite (IH Q). reflexivity.
Qed.
Lemma quoted_plain s r : forallb plain s = true -> quoted (j_string s ++ r) = Some (s, r).
Proof.
  intro P. unfold j_string. rewrite <- !app_assoc. cbn [app quoted]. change (byte_eqb Byte.x22 Byte.x22) with true. cbv iota.
  rewrite (text_plain r P), (unquote_plain P). reflexivity.
Qed.

(** [b] is a text of [j] that starts with no blank *)
Definition printed (b : bytes) (j : json) : Prop := forall n r, (length b <= n)%nat -> value n (b ++ r) = Some (j, r).
Lemma printed_string s : forallb plain s = true -> printed (j_string s) (JStr s).
Proof.
  intros P n r L. destruct n as [|n]; [cbn in L; lia|]. cbn [value]. change (skip (j_string s ++ r)) with (j_string s ++ r).
  pose proof (quoted_plain r P) as Q. change (j_string s ++ r) with (Byte.x22 :: (s ++ [Byte.x22]) ++ r) in Q |- *. cbv iota.
  change (byte_eqb Byte.x22 Byte.x7b) with false. change (byte_eqb Byte.x22 Byte.x5b) with false. change (byte_eqb Byte.x22 Byte.x22) with true. cbv iota. rewrite Q. reflexivity.
Qed.
Lemma printed_bytes b : printed (j_bytes b) (JStr (base64 b)).
Proof. apply printed_string, base64_plain. Qed.
Lemma printed_bool b : printed (j_bool b) (JBool b).
Proof. intros n r L. destruct n as [|n]; [destruct b; cbn in L; lia|]. destruct b; reflexivity. Qed.
Lemma printed_null : printed (str "null") JNull.
Proof. intros n r L. destruct n as [|n]; [cbn in L; lia|]. reflexivity. Qed.

Lemma member_length k v : length (j_member k v) = (length (str k) + 3 + length v)%nat.
Proof. unfold j_member, j_string. rewrite !app_length. cbn [length]. lia. Qed.
Definition mprinted (m : bytes) (x : bytes * json) : Prop := exists k v, m = j_member k v /\ fst x = str k /\ forallb plain (str k) = true /\ printed v (snd x).
Lemma mprinted_ok k v j : forallb plain (str k) = true -> printed v j -> mprinted (j_member k v) (str k, j).
Proof. intros P Q. exists k, v. auto. Qed.
Lemma members_print l x m : forall ms xs, l = m :: ms -> mprinted m x -> Forall2 mprinted ms xs ->
  forall n r, (length (j_list l) < n)%nat -> members n (j_list l ++ Byte.x7d :: r) = Some (x :: xs, r).
Proof.
  revert x m. induction l as [|m0 l IH]; intros x m ms xs E PM PF n r L; [discriminate|]. injection E as -> ->.
  destruct PM as (k & v & -> & Ek & Pk & Pv). destruct x as [kx jx]. cbn [fst snd] in *. subst kx.
  destruct n as [|n]; [lia|]. cbn [members].
  assert (HD : forall t, quoted (skip (j_member k v ++ t)) = Some (str k, Byte.x3a :: v ++ t)).
  { intro t. unfold j_member. rewrite <- !app_assoc. change (skip (j_string (str k) ++ [Byte.x3a] ++ v ++ t)) with (j_string (str k) ++ [Byte.x3a] ++ v ++ t).
    exact (quoted_plain _ Pk). }
  destruct ms as [|m2 ms].
  - inversion PF; subst. cbn [j_list] in *. rewrite HD. cbn [skip blank byte_eqb literal]. change (blank Byte.x3a) with false. cbv iota. cbn [literal].
    change (byte_eqb Byte.x3a Byte.x3a) with true. cbv iota. rewrite member_length in L. rewrite Pv by lia. cbn [skip]. change (blank Byte.x7d) with false. cbv iota.
    change (byte_eqb Byte.x7d Byte.x2c) with false. change (byte_eqb Byte.x7d Byte.x7d) with true. reflexivity.
  - inversion PF as [|? x2 ? xs' PM2 PF2]; subst. change (j_list (j_member k v :: m2 :: ms)) with (j_member k v ++ [Byte.x2c] ++ j_list (m2 :: ms)) in *.
    rewrite <- !app_assoc, HD. cbn [skip]. change (blank Byte.x3a) with false. cbv iota. cbn [literal].
    change (byte_eqb Byte.x3a Byte.x3a) with true. cbv iota. rewrite !app_length, member_length in L. cbn [length] in L. rewrite Pv by lia. cbn [app skip]. change (blank Byte.x2c) with false. cbv iota.
    change (byte_eqb Byte.x2c Byte.x2c) with true. cbv iota. rewrite (IH x2 m2 ms xs' eq_refl PM2 PF2) by lia. reflexivity.
Qed.
Lemma printed_object ms xs : Forall2 mprinted ms xs -> printed (j_object ms) (JObj xs).
Proof.
  intros PF n r L. destruct n as [|n]; [unfold j_object in L; rewrite !app_length in L; cbn in L; lia|]. unfold j_object in *. rewrite !app_length in L. cbn [length] in L. cbn [value].
  rewrite <- !app_assoc. cbn [app skip]. change (blank Byte.x7b) with false. cbv iota. change (byte_eqb Byte.x7b Byte.x7b) with true. cbv iota.
  destruct PF as [|m x ms xs PM PF].
  - cbn [j_list app skip]. reflexivity.
  - rewrite (members_print eq_refl PM PF) by lia. cbn [option_map].
    destruct PM as (k & v & -> & _). destruct ms; cbn [j_list]; unfold j_member, j_string; rewrite <- !app_assoc; reflexivity.
Qed.

Ltac mem := apply mprinted_ok; [reflexivity|].
Definition v_ecp (p : ecp) : json :=
  JObj (match ex p with [] => [] | x => [(str "x", JStr (base64 x))] end ++ match ey p with [] => [] | y => [(str "y", JStr (base64 y))] end).
Lemma printed_ecp p : printed (j_ecp p) (v_ecp p).
Proof.
  apply printed_object. apply Forall2_app; [destruct (ex p)|destruct (ey p)]; repeat constructor; mem; apply printed_bytes.
Qed.
Definition v_nym (n : nym_entry) : json :=
  JObj [(str "Ski", JStr (base64 (ne_ski n))); (str "Sk", JStr (base64 (ne_sk n))); (str "Pk", match ne_pk n with Some p => v_ecp p | None => JNull end); (str "Exportable", JBool (ne_exportable n))].
Lemma printed_nym n : printed (j_nym n) (v_nym n).
Proof.
  apply printed_object. repeat constructor; mem; try apply printed_bytes; try apply printed_bool. destruct (ne_pk n); [apply printed_ecp|apply printed_null].
Qed.
Definition v_user (u : user_entry) : json := JObj [(str "Sk", JStr (base64 (ue_sk u))); (str "Exportable", JBool (ue_exportable u))].
Lemma printed_user u : printed (j_user u) (v_user u).
Proof. apply printed_object. repeat constructor; mem; [apply printed_bytes|apply printed_bool]. Qed.
Definition v_entry (e : entry) : list (bytes * json) :=
  match e_nym e with Some n => [(str "NymSecretKey", v_nym n)] | None => [] end ++ match e_user e with Some u => [(str "UserSecretKey", v_user u)] | None => [] end.
Lemma printed_entry e : printed (j_entry e) (JObj (v_entry e)).
Proof.
  apply printed_object. apply Forall2_app; [destruct (e_nym e)|destruct (e_user e)]; repeat constructor; mem; [apply printed_nym|apply printed_user].
Qed.

(** ** and read *)
Lemma read_back old b : read_bytes old (JStr (base64 b)) = Some b.
Proof. apply unbase64_base64. Qed.
Lemma ecp_x p b : ecp_member p (str "x") (JStr (base64 b)) = Some {| ex := b; ey := ey p |}.
Proof. unfold ecp_member. change (names "x" (str "x")) with true. cbv iota. rewrite read_back. reflexivity. Qed.
Lemma ecp_y p b : ecp_member p (str "y") (JStr (base64 b)) = Some {| ex := ex p; ey := b |}.
Proof. unfold ecp_member. change (names "x" (str "y")) with false. change (names "y" (str "y")) with true. cbv iota. rewrite read_back. reflexivity. Qed.
Lemma ecp_read p : fold_members ecp_member (match v_ecp p with JObj l => l | _ => [] end) {| ex := []; ey := [] |} = Some p.
Proof.
  destruct p as [[|a x] [|b y]]; unfold v_ecp; cbn [ex ey app fold_members]; rewrite ?ecp_x; cbn [fold_members]; rewrite ?ecp_y; reflexivity.
Qed.
Lemma struct_read X (zero : X) step (j : json) x : (exists l, j = JObj l) -> fold_members step (match j with JObj l => l | _ => [] end) zero = Some x ->
  read_struct zero step None j = Some (Some x).
Proof. intros [l ->] E. cbn [read_struct]. rewrite E. reflexivity. Qed.
Lemma nym_read n : fold_members nym_member (match v_nym n with JObj l => l | _ => [] end) no_nym_entry = Some n.
Proof.
  destruct n as [ski sk pk x]. unfold v_nym. cbn [ne_ski ne_sk ne_pk ne_exportable fold_members].
  unfold nym_member at 1. change (names "Ski" (str "Ski")) with true. cbv iota. rewrite read_back. cbn [option_map fold_members].
  unfold nym_member at 1. change (names "Ski" (str "Sk")) with false. change (names "Sk" (str "Sk")) with true. cbv iota. rewrite read_back. cbn [option_map fold_members].
  unfold nym_member at 1. change (names "Ski" (str "Pk")) with false. change (names "Sk" (str "Pk")) with false. change (names "Pk" (str "Pk")) with true. cbv iota. cbn [ne_ski ne_sk ne_pk ne_exportable no_nym_entry].
  destruct pk as [p|]; [rewrite (@struct_read _ _ _ (v_ecp p) p (ex_intro _ _ eq_refl) (ecp_read p))|]; reflexivity.
Qed.
Lemma user_read u : fold_members user_member (match v_user u with JObj l => l | _ => [] end) no_user_entry = Some u.
Proof.
  destruct u as [sk x]. unfold v_user. cbn [ue_sk ue_exportable fold_members].
  unfold user_member at 1. change (names "Sk" (str "Sk")) with true. cbv iota. rewrite read_back. reflexivity.
Qed.
Lemma entry_n e n : e_nym e = None -> entry_member e (str "NymSecretKey") (v_nym n) = Some {| e_nym := Some n; e_user := e_user e |}.
Proof.
  intro E. unfold entry_member. change (names "NymSecretKey" (str "NymSecretKey")) with true. cbv iota. rewrite E.
  rewrite (@struct_read _ _ _ (v_nym n) n (ex_intro _ _ eq_refl) (nym_read n)). reflexivity.
Qed.
Lemma entry_u e u : e_user e = None -> entry_member e (str "UserSecretKey") (v_user u) = Some {| e_nym := e_nym e; e_user := Some u |}.
Proof.
  intro E. unfold entry_member. change (names "NymSecretKey" (str "UserSecretKey")) with false. change (names "UserSecretKey" (str "UserSecretKey")) with true. cbv iota. rewrite E.
  rewrite (@struct_read _ _ _ (v_user u) u (ex_intro _ _ eq_refl) (user_read u)). reflexivity.
Qed.
Lemma entry_read e : fold_members entry_member (v_entry e) {| e_nym := None; e_user := None |} = Some e.
Proof.
  destruct e as [[n|] [u|]]; unfold v_entry; cbn [e_nym e_user app fold_members]; rewrite ?entry_n by reflexivity; cbn [fold_members e_nym e_user];
    rewrite ?entry_u by reflexivity; reflexivity.
Qed.

Lemma parse_entry e q : parse_json (j_entry e ++ q) = match skip q with [] => Some (JObj (v_entry e)) | _ => None end.
Proof. unfold parse_json. rewrite printed_entry by (rewrite app_length; lia). reflexivity. Qed.
Lemma json_round_trips e : round_trips go_json e.
Proof.
  exists (j_entry e). split; [reflexivity|]. cbn [dec go_json]. pose proof (parse_entry e []) as P. rewrite app_nil_r in P. rewrite P. exact (entry_read e).
Qed.
(** nothing but blanks may follow *)
Lemma json_trailing e q : skip q <> [] -> dec go_json (j_entry e ++ q) = None.
Proof. intro N. cbn [dec go_json]. rewrite parse_entry. destruct (skip q); [contradiction|reflexivity]. Qed.
(** nothing may be missing *)
Lemma json_prefix e p q : j_entry e = p ++ q -> q <> [] -> dec go_json p = None.
Proof.
  intros E N. cbn [dec go_json]. destruct (parse_json p) as [v|] eqn:P; [|reflexivity]. exfalso. unfold parse_json in P.
  destruct (value (S (length p + length p)) p) as [[v' r]|] eqn:V; [|discriminate]. destruct (skip r) eqn:K; [|discriminate].
  assert (NN : is_num v' = false).
  { destruct p as [|c p]; [discriminate|]. assert (c = Byte.x7b) as -> by (unfold j_entry, j_object in E; cbn [app] in E; congruence).
    cbn [value skip] in V. change (blank Byte.x7b) with false in V. cbv iota in V. change (byte_eqb Byte.x7b Byte.x7b) with true in V. cbv iota in V.
    destruct (literal [Byte.x7d] (skip p)); [injection V as <- <-; reflexivity|]. destruct (members _ p) as [[l r']|]; [|discriminate]. injection V as <- <-. reflexivity. }
  pose proof (proj1 (value_app _) _ _ _ q V (or_intror NN)) as W. rewrite <- E in W.
  assert (L : (2 * length p < S (length p + length p))%nat) by lia.
  assert (V2 : value (S (length (j_entry e) + length (j_entry e))) p = Some (v', r)).
  { rewrite <- V. apply value_fuel; [rewrite E, app_length|]; lia. }
  pose proof (proj1 (value_app _) _ _ _ q V2 (or_intror NN)) as W2. rewrite <- E in W2.
  pose proof (@printed_entry e (S (length (j_entry e) + length (j_entry e))) [] ltac:(lia)) as X. rewrite app_nil_r in X. rewrite X in W2.
  injection W2 as _ Q. destruct r; [exact (N (eq_sym Q))|discriminate].
Qed.
(** damaged files *)
Lemma json_damaged e f : (length f <= length (j_entry e))%nat -> f <> j_entry e ->
  (forall i c, nth_error f i = Some c -> c = Byte.x00 \/ nth_error (j_entry e) i = Some c) -> dec go_json f = None.
Proof.
  intros L N D. destruct (in_dec Byte.byte_eq_dec Byte.x00 f) as [I|I].
  - cbn [dec go_json]. destruct (parse_json f) as [v|] eqn:P; [|reflexivity]. destruct (parse_no_zero P I).
  - assert (Q : j_entry e = f ++ skipn (length f) (j_entry e)).
    { rewrite <- (firstn_skipn (length f) (j_entry e)) at 1. f_equal. clear N. revert L D I. generalize (j_entry e) as b. induction f as [|c f IH]; intros b L D I; [reflexivity|].
      destruct b as [|x b]; [cbn in L; lia|]. cbn [length firstn]. destruct (D 0%nat c eq_refl) as [->|E]; [destruct I; left; reflexivity|]. injection E as ->.
      f_equal. apply IH; [cbn in L; lia| |intro J; apply I; right; exact J]. intros i y Y. exact (D (S i) y Y). }
    apply (json_prefix Q). intro Z0. rewrite Z0, app_nil_r in Q. exact (N (eq_sym Q)).
Qed.
