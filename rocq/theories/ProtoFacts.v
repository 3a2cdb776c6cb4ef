(** Facts about the protobuf encoding: printing and parsing of fields are inverse, parsing is compatible with
    concatenation, and the messages are read back. *)
From Verif Require Import Base Dlog Bridge BridgeFacts Aries AriesSpec Msp MspSpec RunSpec Proto.
Unset Strict Implicit.
Local Open Scope Z_scope.

Lemma zb_bound b : 0 <= zb b < 256.
Proof. unfold zb. pose proof (Byte.to_N_bounded b). lia. Qed.
Lemma zb_of z : 0 <= z < 256 -> zb (byte_of_Z z) = z.
Proof. intro B. unfold zb. rewrite byte_of_Z_to. apply Z.mod_small. exact B. Qed.

(** ** varints *)
Lemma read_varint_ fuel : forall z r, 0 <= z < 2 ^ Z.of_nat fuel -> (0 < fuel)%nat ->
  read_varint (varint_ fuel z ++ r) = Some (z, length (varint_ fuel z), r).
Proof.
  induction fuel as [|n IH]; intros z r B Z; [lia|]. cbn [varint_].
  destruct (z <? 128) eqn:E; cbn [app read_varint length].
  - rewrite zb_of by lia. rewrite E. reflexivity.
  - apply Z.ltb_ge in E. pose proof (Z.mod_pos_bound z 128 ltac:(lia)) as M. rewrite zb_of by lia.
    destruct (z mod 128 + 128 <? 128) eqn:E2; [lia|].
    assert (P : z / 128 < 2 ^ Z.of_nat n).
    { rewrite Nat2Z.inj_succ, Z.pow_succ_r in B by lia. apply Z.div_lt_upper_bound; lia. }
    assert (1 <= z / 128) by (apply Z.div_le_lower_bound; lia).
    rewrite IH; [|split; [lia|exact P]|].
    + f_equal. f_equal. f_equal. pose proof (Z.div_mod z 128 ltac:(lia)). lia.
    + destruct n; [|lia]. cbn in P. lia.
Qed.
Lemma varint_fuel z : 0 <= z -> z < 2 ^ Z.of_nat (S (Z.to_nat (Z.log2 z))).
Proof.
  intro P. rewrite Nat2Z.inj_succ, Z2Nat.id by apply Z.log2_nonneg.
  destruct (Z.eq_dec z 0) as [->|N]; [reflexivity|]. apply Z.log2_spec. lia.
Qed.
Lemma read_varint_ok z r : 0 <= z -> read_varint (varint z ++ r) = Some (z, length (varint z), r).
Proof. intro P. apply read_varint_; [split; [exact P|apply varint_fuel; exact P]|lia]. Qed.

(** a minimal varint below 128^k has at most k bytes *)
Lemma varint_len_ fuel : forall z k, 0 <= z < 128 ^ Z.of_nat (S k) -> (length (varint_ fuel z) <= S k)%nat.
Proof.
  induction fuel as [|n IH]; intros z k B; cbn [varint_]; [cbn; lia|]. destruct (z <? 128) eqn:E; cbn [length]; [lia|].
  apply Z.ltb_ge in E. destruct k as [|k]; [change (128 ^ Z.of_nat 1) with 128 in B; lia|].
  apply le_n_S. apply IH. rewrite Nat2Z.inj_succ, Z.pow_succ_r in B by lia. split; [apply Z.div_pos; lia|]. apply Z.div_lt_upper_bound; lia.
Qed.
Lemma varint_len z : 0 <= z < 2 ^ 64 -> (length (varint z) <= 10)%nat.
Proof. intro B. apply varint_len_. change (128 ^ Z.of_nat 10) with (2 ^ 70). lia. Qed.
Lemma varint_nonempty z : varint z <> [].
Proof. unfold varint. cbn [varint_]. destruct (z <? 128); discriminate. Qed.

Lemma consume_varint_ok z r : 0 <= z < 2 ^ 64 -> consume_varint (varint z ++ r) = Some (z, r).
Proof.
  intro B. unfold consume_varint. rewrite read_varint_ok by lia.
  rewrite (proj2 (Nat.leb_le _ _)) by (apply varint_len; exact B). rewrite (proj2 (Z.ltb_lt _ _)) by lia. reflexivity.
Qed.
Lemma consume_bytes_ok b r : consume_bytes (varint (Z.of_nat (length b)) ++ b ++ r) = Some (b, r).
Proof.
  unfold consume_bytes. rewrite read_varint_ok by lia. rewrite Nat.eqb_refl, orb_true_r.
  rewrite (proj2 (Z.leb_le _ _)) by (rewrite app_length; lia). cbn [andb]. rewrite Nat2Z.id.
  rewrite firstn_app, firstn_all, Nat.sub_diag, skipn_app, skipn_all, Nat.sub_diag. cbn [firstn skipn app]. rewrite app_nil_r. reflexivity.
Qed.
Lemma consume_fixed_ok n b r : length b = n -> consume_fixed n (b ++ r) = Some (b, r).
Proof.
  intro L. unfold consume_fixed. rewrite (proj2 (Nat.leb_le _ _)) by (rewrite app_length; lia). subst n.
  rewrite firstn_app, firstn_all, Nat.sub_diag, skipn_app, skipn_all, Nat.sub_diag. cbn [firstn skipn app]. rewrite app_nil_r. reflexivity.
Qed.

(** ** consuming is local: what follows does not matter *)
Lemma read_varint_app b : forall v k r s, read_varint b = Some (v, k, r) -> read_varint (b ++ s) = Some (v, k, r ++ s).
Proof.
  induction b as [|c b IH]; intros v k r s E; [discriminate|]. cbn [read_varint app] in *.
  destruct (zb c <? 128); [injection E as <- <- <-; reflexivity|].
  destruct (read_varint b) as [[[v' k'] r']|] eqn:Q; [|discriminate]. injection E as <- <- <-. rewrite (IH _ _ _ s eq_refl). reflexivity.
Qed.
Lemma read_varint_len b : forall v k r, read_varint b = Some (v, k, r) -> length b = (k + length r)%nat /\ (0 < k)%nat.
Proof.
  induction b as [|c b IH]; intros v k r E; [discriminate|]. cbn [read_varint] in E.
  destruct (zb c <? 128); [injection E as <- <- <-; cbn; lia|].
  destruct (read_varint b) as [[[v' k'] r']|] eqn:Q; [|discriminate]. injection E as <- <- <-. destruct (IH _ _ _ eq_refl). cbn [length]. lia.
Qed.
Lemma read_varint_pos b : forall v k r, read_varint b = Some (v, k, r) -> 0 <= v.
Proof.
  induction b as [|c b IH]; intros v k r E; [discriminate|]. cbn [read_varint] in E. pose proof (zb_bound c).
  destruct (zb c <? 128) eqn:Q; [injection E as <- <- <-; lia|].
  destruct (read_varint b) as [[[v' k'] r']|] eqn:Q2; [|discriminate]. specialize (IH _ _ _ eq_refl). apply Z.ltb_ge in Q.
  assert (V : v = zb c - 128 + 128 * v') by congruence. lia.
Qed.
Lemma consume_varint_app b v r s : consume_varint b = Some (v, r) -> consume_varint (b ++ s) = Some (v, r ++ s) /\ (length r < length b)%nat.
Proof.
  unfold consume_varint. destruct (read_varint b) as [[[v' k] r']|] eqn:E; [|discriminate]. destruct (_ && _) eqn:G; [|discriminate].
  intro Q. injection Q as <- <-. rewrite (read_varint_app s E), G. destruct (read_varint_len E). split; [reflexivity|lia].
Qed.
Lemma firstn_skipn_app X (n : nat) (l s : list X) : (n <= length l)%nat -> firstn n (l ++ s) = firstn n l /\ skipn n (l ++ s) = skipn n l ++ s.
Proof. intro L. rewrite firstn_app, skipn_app. replace (n - length l)%nat with O by lia. cbn. rewrite app_nil_r. auto. Qed.
Lemma consume_bytes_app b x r s : consume_bytes b = Some (x, r) -> consume_bytes (b ++ s) = Some (x, r ++ s) /\ (length r < length b)%nat.
Proof.
  unfold consume_bytes. destruct (read_varint b) as [[[v k] r']|] eqn:E; [|discriminate].
  destruct (_ && (v <=? Z.of_nat (length r'))) eqn:G; [|discriminate]. apply andb_true_iff in G. destruct G as [G1 G2]. apply Z.leb_le in G2.
  intro Q. injection Q as <- <-. rewrite (read_varint_app s E), G1. cbn [andb].
  rewrite (proj2 (Z.leb_le v _)) by (rewrite app_length; lia). pose proof (read_varint_pos E). destruct (read_varint_len E).
  destruct (@firstn_skipn_app byte (Z.to_nat v) r' s ltac:(lia)) as [-> ->]. split; [reflexivity|]. rewrite skipn_length. lia.
Qed.
Lemma consume_fixed_app n b x r s : consume_fixed n b = Some (x, r) -> consume_fixed n (b ++ s) = Some (x, r ++ s) /\ (length r <= length b)%nat.
Proof.
  unfold consume_fixed. destruct (n <=? length b)%nat eqn:G; [|discriminate]. intro Q. injection Q as <- <-. apply Nat.leb_le in G.
  rewrite (proj2 (Nat.leb_le _ _)) by (rewrite app_length; lia). destruct (@firstn_skipn_app byte n b s G) as [-> ->].
  split; [reflexivity|]. rewrite skipn_length. lia.
Qed.

Lemma skip_group_app f : forall num b r s, skip_group f num b = Some r ->
  (length r < length b)%nat /\ forall f', (f <= f')%nat -> skip_group f' num (b ++ s) = Some (r ++ s).
Proof.
  induction f as [|f IH]; intros num b r s E; [discriminate|]. cbn [skip_group] in E.
  destruct (consume_varint b) as [[tag r1]|] eqn:E1; [|discriminate]. destruct (consume_varint_app s E1) as [A1 L1].
  destruct (_ || _) eqn:G; [discriminate|].
  assert (Next : forall r2, (length r2 <= length r1)%nat -> skip_group f num r2 = Some r ->
            (length r < length b)%nat /\ forall f', (f <= f')%nat -> skip_group f' num (r2 ++ s) = Some (r ++ s)).
  { intros r2 L Q. destruct (IH _ _ _ s Q) as [Lq F]. split; [lia|exact F]. }
  assert (Step : forall f', (S f <= f')%nat -> exists g, f' = S g /\ (f <= g)%nat) by (intros [|g] L; [lia|]; exists g; split; [reflexivity|lia]).
  destruct (tag mod 8) as [|[[[?|?|]|[?|?|]|]|[[?|?|]|[?|?|]|]|]|?] eqn:Tg; try discriminate.
  - destruct (consume_varint r1) as [[x r2]|] eqn:E2; [|discriminate]. destruct (consume_varint_app s E2) as [A2 L2].
    destruct (Next r2 ltac:(lia) E) as [L F]. split; [exact L|]. intros f' Lf. destruct (Step f' Lf) as (g & -> & Lg).
    cbn [skip_group]. rewrite A1, G, Tg, A2. apply F. exact Lg.
  - destruct (consume_fixed 4 r1) as [[x r2]|] eqn:E2; [|discriminate]. destruct (consume_fixed_app s E2) as [A2 L2].
    destruct (Next r2 ltac:(lia) E) as [L F]. split; [exact L|]. intros f' Lf. destruct (Step f' Lf) as (g & -> & Lg).
    cbn [skip_group]. rewrite A1, G, Tg, A2. apply F. exact Lg.
  - destruct (skip_group f (tag / 8) r1) as [r2|] eqn:E2; [|discriminate]. destruct (IH _ _ _ s E2) as [L2 F2].
    destruct (Next r2 ltac:(lia) E) as [L F]. split; [exact L|]. intros f' Lf. destruct (Step f' Lf) as (g & -> & Lg).
    cbn [skip_group]. rewrite A1, G, Tg, (F2 g Lg). apply F. exact Lg.
  - destruct (tag / 8 =? num) eqn:N; [|discriminate]. injection E as <-. split; [exact L1|]. intros f' Lf. destruct (Step f' Lf) as (g & -> & Lg).
    cbn [skip_group]. rewrite A1, G, Tg, N. reflexivity.
  - destruct (consume_bytes r1) as [[x r2]|] eqn:E2; [|discriminate]. destruct (consume_bytes_app s E2) as [A2 L2].
    destruct (Next r2 ltac:(lia) E) as [L F]. split; [exact L|]. intros f' Lf. destruct (Step f' Lf) as (g & -> & Lg).
    cbn [skip_group]. rewrite A1, G, Tg, A2. apply F. exact Lg.
  - destruct (consume_fixed 8 r1) as [[x r2]|] eqn:E2; [|discriminate]. destruct (consume_fixed_app s E2) as [A2 L2].
    destruct (Next r2 ltac:(lia) E) as [L F]. split; [exact L|]. intros f' Lf. destruct (Step f' Lf) as (g & -> & Lg).
    cbn [skip_group]. rewrite A1, G, Tg, A2. apply F. exact Lg.
Qed.

Lemma consume_value_app n t b v r s : consume_value n t b = Some (v, r) -> consume_value n t (b ++ s) = Some (v, r ++ s) /\ (length r <= length b)%nat.
Proof.
  unfold consume_value. intro E. destruct t as [|[[[?|?|]|[?|?|]|]|[[?|?|]|[?|?|]|]|]|?]; try discriminate.
  - destruct (consume_varint b) as [[x r']|] eqn:Q; [|discriminate]. injection E as <- <-. destruct (consume_varint_app s Q) as [-> L]. split; [reflexivity|lia].
  - destruct (consume_fixed 4 b) as [[x r']|] eqn:Q; [|discriminate]. injection E as <- <-. destruct (consume_fixed_app s Q) as [-> L]. split; [reflexivity|lia].
  - destruct (skip_group (length b) n b) as [r'|] eqn:Q; [|discriminate]. injection E as <- <-. destruct (skip_group_app s Q) as [L F].
    rewrite F by (rewrite app_length; lia). split; [reflexivity|lia].
  - destruct (consume_bytes b) as [[x r']|] eqn:Q; [|discriminate]. injection E as <- <-. destruct (consume_bytes_app s Q) as [-> L]. split; [reflexivity|lia].
  - destruct (consume_fixed 8 b) as [[x r']|] eqn:Q; [|discriminate]. injection E as <- <-. destruct (consume_fixed_app s Q) as [-> L]. split; [reflexivity|lia].
Qed.

(** for byte strings that fit into memory, a length is read as the library does *)
Lemma consume_bytes_library b : Z.of_nat (length b) < 2 ^ 64 ->
  consume_bytes b = match consume_varint b with
                    | Some (v, r) => if v <=? Z.of_nat (length r) then Some (firstn (Z.to_nat v) r, skipn (Z.to_nat v) r) else None
                    | None => None
                    end.
Proof.
  intro L. unfold consume_bytes, consume_varint. destruct (read_varint b) as [[[v k] r]|] eqn:E; [|reflexivity].
  destruct (read_varint_len E) as [L1 _]. pose proof (read_varint_pos E) as P.
  destruct (Z.ltb_spec v (2 ^ 64)) as [S|S].
  - pose proof (@varint_len v ltac:(lia)) as M. destruct (Nat.leb_spec k 10) as [K|K]; cbn [orb andb]; [reflexivity|].
    destruct (Nat.eqb_spec k (length (varint v))) as [Q|Q]; [lia|reflexivity].
  - rewrite (proj2 (Z.leb_gt v _)) by lia. rewrite !andb_false_r. reflexivity.
Qed.

(** ** parsing a concatenation *)
Lemma parse_fuel f : forall b fs, parse_ f b = Some fs -> forall f', (length b <= f')%nat -> parse_ f' b = Some fs.
Proof.
  induction f as [|f IH]; intros b fs E f' L.
  - destruct b as [|c b]; [|discriminate]. destruct f'; exact E.
  - destruct b as [|c b]; [destruct f'; exact E|]. destruct f' as [|f']; [cbn [length] in L; lia|]. cbn [parse_] in E |- *.
    destruct (consume_varint (c :: b)) as [[tag r]|] eqn:E1; [|discriminate]. destruct (consume_varint_app [] E1) as [_ L1].
    destruct (_ || _); [discriminate|]. destruct (consume_value (tag / 8) (tag mod 8) r) as [[v r']|] eqn:E2; [|discriminate].
    destruct (consume_value_app [] E2) as [_ L2]. destruct (parse_ f r') as [gs|] eqn:E3; [|discriminate]. injection E as <-.
    rewrite (IH _ _ E3 f') by (cbn [length] in *; lia). reflexivity.
Qed.
Lemma parse_app_ f : forall b fs s, parse_ f b = Some fs -> (length b <= f)%nat ->
  parse (b ++ s) = match parse s with Some gs => Some (fs ++ gs) | None => None end.
Proof.
  induction f as [|f IH]; intros b fs s E L.
  - destruct b as [|c b]; [|discriminate]. injection E as <-. cbn [app]. destruct (parse s); reflexivity.
  - destruct b as [|c b]; [injection E as <-; cbn [app]; destruct (parse s); reflexivity|].
    cbn [parse_] in E. unfold parse at 1. cbn [app length parse_].
    destruct (consume_varint (c :: b)) as [[tag r]|] eqn:E1; [|discriminate]. destruct (consume_varint_app s E1) as [A1 L1].
    cbn [app] in A1. rewrite A1. destruct (_ || _); [discriminate|].
    destruct (consume_value (tag / 8) (tag mod 8) r) as [[v r']|] eqn:E2; [|discriminate].
    destruct (consume_value_app s E2) as [A2 L2]. rewrite A2. destruct (parse_ f r') as [gs|] eqn:E3; [|discriminate]. injection E as <-.
    specialize (IH _ _ s E3 ltac:(cbn [length] in *; lia)). unfold parse at 1 in IH.
    destruct (parse s) as [hs|].
    + rewrite (parse_fuel IH) by (rewrite !app_length in *; cbn [length] in *; lia). reflexivity.
    + destruct (parse_ (length (b ++ s)) (r' ++ s)) as [ks|] eqn:E4; [|reflexivity].
      rewrite (parse_fuel E4) in IH by lia. discriminate.
Qed.
Lemma parse_app b fs s : parse b = Some fs -> parse (b ++ s) = match parse s with Some gs => Some (fs ++ gs) | None => None end.
Proof. intro E. exact (parse_app_ s E (Nat.le_refl _)). Qed.

(** ** printing and parsing *)
Definition field_ok (f : Z * wval) : Prop :=
  1 <= fst f < 2 ^ 29 /\
  match snd f with WVar v => 0 <= v < 2 ^ 64 | W64 b => length b = 8%nat | W32 b => length b = 4%nat | _ => True end.

Lemma tag_split n t : 0 <= t < 8 -> (n * 8 + t) / 8 = n /\ (n * 8 + t) mod 8 = t.
Proof. intro B. split; [rewrite Z.div_add_l by lia; rewrite Z.div_small by lia; lia|rewrite Z.add_comm, Z.mod_add by lia; apply Z.mod_small; lia]. Qed.

Lemma parse_field f : field_ok f -> parse (print_field f) = Some [f].
Proof.
  destruct f as [n v]. intros [B V]. cbn [fst snd] in *.
  assert (Gen : forall t p, 0 <= t < 8 -> consume_value n t p = Some (v, []) -> parse (varint (n * 8 + t) ++ p) = Some [(n, v)]).
  { intros t p Bt E. unfold parse. destruct (varint (n * 8 + t)) as [|c l] eqn:Q; [exfalso; exact (varint_nonempty Q)|].
    cbn [app length parse_]. change (c :: l ++ p) with ((c :: l) ++ p). rewrite <- Q. rewrite consume_varint_ok by lia.
    destruct (tag_split n Bt) as [-> ->]. rewrite (proj2 (Z.ltb_ge n 1)) by lia. rewrite (proj2 (Z.ltb_ge _ n)) by lia. cbn [orb].
    rewrite E. destruct (length (l ++ p)); reflexivity. }
  destruct v as [z|b|b| |b]; cbn [print_field].
  - rewrite <- (Z.add_0_r (n * 8)). apply Gen; [lia|]. cbn [consume_value]. rewrite <- (app_nil_r (varint z)). rewrite consume_varint_ok by exact V. reflexivity.
  - apply Gen; [lia|]. cbn [consume_value]. pose proof (consume_fixed_ok [] V) as Q. rewrite app_nil_r in Q. rewrite Q. reflexivity.
  - apply Gen; [lia|]. cbn [consume_value]. pose proof (consume_bytes_ok b []) as Q. rewrite app_nil_r in Q. rewrite Q. reflexivity.
  - apply Gen; [lia|]. cbn [consume_value]. destruct (varint (n * 8 + 4)) as [|c l] eqn:Q; [exfalso; exact (varint_nonempty Q)|]. cbn [length skip_group].
    rewrite <- Q. rewrite <- (app_nil_r (varint (n * 8 + 4))). rewrite consume_varint_ok by lia. destruct (tag_split n (t := 4) ltac:(lia)) as [-> ->].
    rewrite (proj2 (Z.ltb_ge n 1)) by lia. rewrite (proj2 (Z.ltb_ge _ n)) by lia. cbn [orb]. rewrite Z.eqb_refl. reflexivity.
  - apply Gen; [lia|]. cbn [consume_value]. pose proof (consume_fixed_ok [] V) as Q. rewrite app_nil_r in Q. rewrite Q. reflexivity.
Qed.
Lemma parse_print fs : Forall field_ok fs -> parse (print fs) = Some fs.
Proof.
  induction 1 as [|f fs F _ IH]; [reflexivity|]. unfold print in *. cbn [map concat]. rewrite (parse_app _ (parse_field F)), IH. reflexivity.
Qed.

(** ** reading what was written, field by field *)
Lemma lens_app i a b : lens i (a ++ b) = lens i a ++ lens i b.
Proof. apply flat_map_app. Qed.
Lemma vars_app i a b : vars i (a ++ b) = vars i a ++ vars i b.
Proof. apply flat_map_app. Qed.

Lemma lens_bytes i j b : lens i (w_bytes j b) = if j =? i then match b with [] => [] | _ => [b] end else [].
Proof. destruct b; cbn; destruct (j =? i); reflexivity. Qed.
Lemma lens_obytes i j o : lens i (w_obytes j o) = if j =? i then match o with None => [] | Some [] => [] | Some b => [b] end else [].
Proof. destruct o as [b|]; [cbn [w_obytes]; rewrite lens_bytes; destruct b; reflexivity|cbn; destruct (j =? i); reflexivity]. Qed.
Lemma lens_list i j l : lens i (w_list j l) = if j =? i then l else [].
Proof. unfold lens, w_list. induction l as [|b l IH]; cbn; [destruct (j =? i); reflexivity|]. rewrite IH. destruct (j =? i); reflexivity. Qed.
Lemma lens_int i j z : lens i (w_int j z) = [].
Proof. unfold w_int. destruct (z =? 0); reflexivity. Qed.
Lemma lens_msg i j o : lens i (w_msg j o) = if j =? i then match o with Some fs => [print fs] | None => [] end else [].
Proof. destruct o; cbn; destruct (j =? i); reflexivity. Qed.
Lemma vars_bytes i j b : vars i (w_bytes j b) = [].
Proof. destruct b; reflexivity. Qed.
Lemma vars_obytes i j o : vars i (w_obytes j o) = [].
Proof. destruct o as [[]|]; reflexivity. Qed.
Lemma vars_list i j l : vars i (w_list j l) = [].
Proof. unfold vars, w_list. induction l as [|b l IH]; cbn; [reflexivity|exact IH]. Qed.
Lemma vars_int i j z : vars i (w_int j z) = if j =? i then (if z =? 0 then [] else [z mod 2 ^ 64]) else [].
Proof. unfold w_int, vars. destruct (z =? 0); cbn [flat_map]; [destruct (j =? i); reflexivity|rewrite app_nil_r; reflexivity]. Qed.
Lemma vars_msg i j o : vars i (w_msg j o) = [].
Proof. destruct o; reflexivity. Qed.

(** the sections of a message with other numbers than the one read disappear *)
Ltac sections :=
  repeat first [rewrite lens_app | rewrite vars_app | rewrite lens_bytes | rewrite lens_obytes | rewrite lens_list | rewrite lens_int | rewrite lens_msg
               | rewrite vars_bytes | rewrite vars_obytes | rewrite vars_list | rewrite vars_int | rewrite vars_msg];
  cbn [Z.eqb Pos.eqb app]; rewrite ?app_nil_r.

(** the same for large messages: one field after the other *)
Ltac read_all W :=
  repeat match goal with
  | |- context [lens ?i (W ?x)] => let E := fresh in eassert (E : lens i (W x) = _) by (unfold W; sections; reflexivity); rewrite E; clear E
  | |- context [vars ?i (W ?x)] => let E := fresh in eassert (E : vars i (W x) = _) by (unfold W; sections; reflexivity); rewrite E; clear E
  end.

Lemma last_bytes (b : bytes) : last (match b with [] => [] | _ => [b] end : list bytes) ([] : bytes) = b.
Proof. destruct b; reflexivity. Qed.
Lemma last_obytes (o : option bytes) : o <> Some [] ->
  (match last (match o with None => [] | Some [] => [] | Some b => [b] end : list bytes) ([] : bytes) with [] => None | b => Some b end : option bytes) = o.
Proof. destruct o as [[|c b]|]; intro N; [contradiction|reflexivity|reflexivity]. Qed.

Lemma signed_ok w z : 0 < w <= 64 -> - 2 ^ (w - 1) <= z < 2 ^ (w - 1) -> signed w (last (if z =? 0 then [] else [z mod 2 ^ 64]) 0) = z.
Proof.
  intros W B. assert (E : signed w (z mod 2 ^ 64) = z).
  { unfold signed. assert (D : (z mod 2 ^ 64) mod 2 ^ w = z mod 2 ^ w).
    { replace 64 with (w + (64 - w)) by lia. rewrite Z.pow_add_r by lia. rewrite Z.rem_mul_r by (try apply Z.pow_nonzero; lia).
      rewrite Z.mul_comm, Z_mod_plus_full. apply Z.mod_mod. apply Z.pow_nonzero; lia. }
    rewrite D. assert (P : 2 ^ w = 2 * 2 ^ (w - 1)) by (rewrite <- Z.pow_succ_r by lia; f_equal; lia).
    assert (Q : 0 < 2 ^ (w - 1)) by (apply Z.pow_pos_nonneg; lia).
    destruct (Z.ltb_spec (z mod 2 ^ w) (2 ^ (w - 1))) as [L|L].
    - destruct (Z.neg_nonneg_cases z) as [Nz|Pz].
      + exfalso. rewrite <- (Z_mod_plus_full z 1) in L. rewrite Z.mod_small in L by lia. lia.
      + apply Z.mod_small. lia.
    - destruct (Z.neg_nonneg_cases z) as [Nz|Pz].
      + rewrite <- (Z_mod_plus_full z 1). rewrite Z.mod_small by lia. lia.
      + exfalso. rewrite Z.mod_small in L by lia. lia. }
  destruct (Z.eqb_spec z 0) as [->|N]; cbn [last]; [|exact E]. unfold signed. rewrite Z.mod_0_l by (apply Z.pow_nonzero; lia).
  rewrite (proj2 (Z.ltb_lt _ _)); [reflexivity|apply Z.pow_pos_nonneg; lia].
Qed.
Lemma int32_ok z : int32 z -> signed 32 (last (if z =? 0 then [] else [z mod 2 ^ 64]) 0) = z.
Proof. unfold int32. intro B. apply signed_ok; [lia|]. change (2 ^ (32 - 1)) with 2147483648. lia. Qed.
Lemma int64_ok z : int64 z -> signed 64 (last (if z =? 0 then [] else [z mod 2 ^ 64]) 0) = z.
Proof. unfold int64. intro B. apply signed_ok; [lia|]. change (2 ^ (64 - 1)) with 9223372036854775808. lia. Qed.

(** written fields are well formed *)
Lemma ok_bytes i b : 1 <= i < 2 ^ 29 -> Forall field_ok (w_bytes i b).
Proof. intro B. destruct b; [constructor|]. constructor; [split; [exact B|exact I]|constructor]. Qed.
Lemma ok_obytes i o : 1 <= i < 2 ^ 29 -> Forall field_ok (w_obytes i o).
Proof. intro B. destruct o; [apply ok_bytes; exact B|constructor]. Qed.
Lemma ok_list i l : 1 <= i < 2 ^ 29 -> Forall field_ok (w_list i l).
Proof. intro B. induction l; [constructor|]. constructor; [split; [exact B|exact I]|exact IHl]. Qed.
Lemma ok_int i z : 1 <= i < 2 ^ 29 -> Forall field_ok (w_int i z).
Proof. intro B. unfold w_int. destruct (z =? 0); constructor; [|constructor]. split; [exact B|]. cbn [snd]. apply Z.mod_pos_bound. lia. Qed.
Lemma ok_msg i o : 1 <= i < 2 ^ 29 -> Forall field_ok (w_msg i o).
Proof. intro B. destruct o; [|constructor]. constructor; [split; [exact B|exact I]|constructor]. Qed.
Ltac fields_ok :=
  repeat (apply Forall_app; split); first [apply ok_bytes | apply ok_obytes | apply ok_list | apply ok_int | apply ok_msg]; lia.

(** reading a written submessage *)
Lemma r_msg_ok X (write : X -> fields) (read : fields -> option X) (o : option X) :
  (forall x, o = Some x -> Forall field_ok (write x) /\ read (write x) = Some x) ->
  match match option_map write o with Some fs => [print fs] | None => [] end with
  | [] => Some None
  | l => match all_some parse l with Some ls => match read (concat ls) with Some x => Some (Some x) | None => None end | None => None end
  end = Some o.
Proof.
  intro W. destruct o as [x|]; [|reflexivity]. destruct (W x eq_refl) as [W1 W2]. cbn [option_map all_some].
  rewrite (parse_print W1). cbn [concat]. rewrite app_nil_r, W2. reflexivity.
Qed.

Lemma pb_ok X (write : X -> option fields) (read : fields -> option X) x fs :
  write x = Some fs -> Forall field_ok fs -> read fs = Some x -> round_trips (pb write read) x.
Proof. intros W F R. exists (print fs). cbn [pb enc dec]. rewrite W, (parse_print F). auto. Qed.

(** ** the messages *)
Lemma ecp_ok e : Forall field_ok (w_ecp e) /\ r_ecp (w_ecp e) = Some e.
Proof. split; [unfold w_ecp; fields_ok|]. unfold r_ecp, w_ecp, r_bytes. sections. rewrite !last_bytes. destruct e; reflexivity. Qed.
Lemma ecp2_ok e : Forall field_ok (w_ecp2 e) /\ r_ecp2 (w_ecp2 e) = Some e.
Proof. split; [unfold w_ecp2; fields_ok|]. unfold r_ecp2, w_ecp2, r_bytes. sections. rewrite !last_bytes. destruct e; reflexivity. Qed.
Lemma o_ecp (o : option ecp) : forall x, o = Some x -> Forall field_ok (w_ecp x) /\ r_ecp (w_ecp x) = Some x.
Proof. intros x _. apply ecp_ok. Qed.
Lemma o_ecp2 (o : option ecp2) : forall x, o = Some x -> Forall field_ok (w_ecp2 x) /\ r_ecp2 (w_ecp2 x) = Some x.
Proof. intros x _. apply ecp2_ok. Qed.

Lemma nsig_codec : codec_ok (fun _ => True) pb_nsig.
Proof.
  intros s _. apply pb_ok with (fs := w_nsig s); [reflexivity|unfold w_nsig; fields_ok|]. unfold r_nsig, w_nsig, r_bytes. sections. rewrite !last_bytes. destruct s; reflexivity.
Qed.
Lemma sig_codec : codec_ok canon_sig pb_sig.
Proof.
  intros s (K1 & K2 & K3 & K4). apply pb_ok with (fs := w_sig s); [reflexivity|unfold w_sig; fields_ok|].
  assert (An : forall a, an_s a <> Some [] -> Forall field_ok (w_attr_nym a) /\ r_attr_nym (w_attr_nym a) = Some a).
  { intros a N. split; [unfold w_attr_nym; fields_ok|]. unfold r_attr_nym, w_attr_nym, r_obytes, r_bytes, r_msg. sections.
    rewrite (r_msg_ok (@o_ecp (an_nym a))), (last_obytes N). destruct a; reflexivity. }
  assert (Nr : forall n, int32 (nr_alg n) -> Forall field_ok (w_nonrev n) /\ r_nonrev (w_nonrev n) = Some n).
  { intros n N. split; [unfold w_nonrev; fields_ok|]. unfold r_nonrev, w_nonrev, r_int. sections. rewrite (int32_ok N). destruct n; reflexivity. }
  unfold r_sig, r_bytes, r_msg, r_int. read_all w_sig.
  rewrite !(r_msg_ok (@o_ecp _)), (r_msg_ok (@o_ecp2 _)), (r_msg_ok (fun n E => Nr n (K4 n E))), (r_msg_ok (fun a E => An a (K1 a E))), (r_msg_ok (fun a E => An a (K2 a E))).
  rewrite !last_bytes, (int64_ok K3). destruct s; reflexivity.
Qed.

Lemma cri_codec : codec_ok canon_cri pb_cri.
Proof.
  intros c [K1 K2]. apply pb_ok with (fs := w_cri c); [reflexivity|unfold w_cri; fields_ok|]. unfold r_cri, w_cri, r_bytes, r_int, r_msg. sections.
  rewrite (r_msg_ok (@o_ecp2 _)), (int64_ok K1), (int32_ok K2), !last_bytes. destruct c; reflexivity.
Qed.
Lemma some_nil (l : list (option bytes)) : Forall (fun o => o <> None) l -> map Some (map or_nil l) = l.
Proof. induction 1 as [|o l N _ IH]; [reflexivity|]. cbn [map]. rewrite IH. destruct o; [reflexivity|contradiction]. Qed.
Lemma cred_codec : codec_ok canon_cred pb_cred.
Proof.
  intros c K. apply pb_ok with (fs := w_cred c); [reflexivity|unfold w_cred; fields_ok|]. unfold r_cred, w_cred, r_bytes, r_msg. sections.
  rewrite !(r_msg_ok (@o_ecp _)), !last_bytes, (some_nil K). destruct c; reflexivity.
Qed.
Lemma req_codec : codec_ok canon_req pb_req.
Proof.
  intros c K. apply pb_ok with (fs := w_req c); [reflexivity|unfold w_req; fields_ok|]. unfold r_req, w_req, r_obytes, r_bytes, r_msg. sections.
  rewrite (r_msg_ok (@o_ecp _)), (last_obytes K), !last_bytes. destruct c; reflexivity.
Qed.
Lemma all_some_map X Y Z (f : X -> Y) (g : Y -> option Z) (h : X -> Z) l : (forall x, In x l -> g (f x) = Some (h x)) -> all_some g (map f l) = Some (map h l).
Proof.
  induction l as [|x l IH]; intro E; [reflexivity|]. cbn [map all_some]. rewrite (E x (or_introl eq_refl)), IH; [reflexivity|]. intros y I. apply E. right. exact I.
Qed.
Lemma ipk_read k : canon_ipk utf8 k -> exists fs, w_ipk k = Some fs /\ Forall field_ok fs /\ r_ipk fs = Some k.
Proof.
  intros [K1 K2]. assert (U : forallb utf8_ok (ip_names k) = true).
  { apply forallb_forall. intros x I. exact (proj1 (Forall_forall _ _) K1 x I). }
  unfold w_ipk. rewrite U. eexists. split; [reflexivity|]. split; [fields_ok|].
  unfold r_ipk, r_strings, r_bytes, r_msg, r_msgs. sections. rewrite U.
  assert (A : all_some (fun b => match parse b with Some fs => r_ecp fs | None => None end) (map (fun o => print (or_empty (option_map w_ecp o))) (ip_hattrs k))
              = Some (map (fun o => match o with Some e => e | None => {| ex := []; ey := [] |} end) (ip_hattrs k))).
  { apply all_some_map. intros o I. destruct o as [e|]; [|exfalso; exact (proj1 (Forall_forall _ _) K2 None I eq_refl)].
    cbn [option_map or_empty]. destruct (ecp_ok e) as [W1 W2]. rewrite (parse_print W1). exact W2. }
  rewrite A, !(r_msg_ok (@o_ecp _)), (r_msg_ok (@o_ecp2 _)), !last_bytes. f_equal. destruct k as [n h1 h2 ha w b1 b2 c s h]. cbn in *. f_equal.
  clear - K2. induction K2 as [|o l N _ IH]; [reflexivity|]. cbn [map]. rewrite IH. destruct o; [reflexivity|contradiction].
Qed.
Lemma ipk_codec : codec_ok (canon_ipk utf8) pb_ipk.
Proof. intros k K. destruct (ipk_read K) as (fs & W & F & R). exact (pb_ok W F R). Qed.
Lemma ik_codec : codec_ok (fun k => forall p, ik_ipk k = Some p -> canon_ipk utf8 p) pb_ik.
Proof.
  intros k K. destruct k as [sk [p|]]; cbn [ik_ipk] in K.
  - destruct (ipk_read (K p eq_refl)) as (fs & W & F & R).
    apply pb_ok with (fs := w_bytes 1 sk ++ w_msg 2 (Some fs)); [unfold w_ik; cbn [ik_ipk ik_isk]; rewrite W; reflexivity|fields_ok|].
    unfold r_ik, r_bytes, r_msg. sections. cbn [all_some]. rewrite (parse_print F). cbn [concat]. rewrite app_nil_r, R, last_bytes. reflexivity.
  - apply pb_ok with (fs := w_bytes 1 sk); [reflexivity|fields_ok|]. unfold r_ik, r_bytes, r_msg. sections. rewrite last_bytes. reflexivity.
Qed.

Lemma acred_codec : codec_ok canon_acred pb_acred.
Proof.
  intros c K. apply pb_ok with (fs := w_acred c); [reflexivity|unfold w_acred; fields_ok|]. unfold r_acred, w_acred, r_bytes, r_int. sections.
  rewrite (int32_ok K), last_bytes. destruct c; reflexivity.
Qed.
Lemma asig_codec : codec_ok canon_asig pb_asig.
Proof.
  intros s (K1 & K2 & K3 & K4). apply pb_ok with (fs := w_asig s); [reflexivity|unfold w_asig; fields_ok|]. unfold r_asig, r_bytes, r_int, r_msg. read_all w_asig.
  assert (A : forall a, int32 a -> Forall field_ok (w_int 1 a) /\ r_alg (w_int 1 a) = Some a).
  { intros a I. split; [apply ok_int; lia|]. unfold r_alg, r_int. sections. rewrite (int32_ok I). reflexivity. }
  rewrite (r_msg_ok (fun a E => A a (K4 a E))), !last_bytes, (int32_ok K1), (int32_ok K2), (int64_ok K3). destruct s; reflexivity.
Qed.
Lemma acri_codec : codec_ok canon_acri pb_acri.
Proof.
  intros c [K1 K2]. apply pb_ok with (fs := w_acri c); [reflexivity|unfold w_acri; fields_ok|]. unfold r_acri, w_acri, r_bytes, r_int. sections.
  rewrite (int64_ok K1), (int32_ok K2), !last_bytes. destruct c; reflexivity.
Qed.
Lemma ansig_codec : codec_ok (fun _ => True) pb_ansig.
Proof.
  intros s _. apply pb_ok with (fs := w_ansig s); [reflexivity|unfold w_ansig; fields_ok|]. unfold r_ansig, w_ansig, r_bytes. sections. rewrite !last_bytes. destruct s; reflexivity.
Qed.

Lemma one_utf8 (b : bytes) : utf8 b -> forallb utf8_ok (match b with [] => [] | _ => [b] end) = true.
Proof. unfold utf8. destruct b; intro U; [reflexivity|]. cbn [forallb]. rewrite U. reflexivity. Qed.
Lemma signer_read s : utf8 (sc_ou s) -> utf8 (sc_eid s) -> utf8 (sc_rh s) -> utf8 (sc_curve s) -> int32 (sc_role s) ->
  exists fs, w_signer s = Some fs /\ Forall field_ok fs /\ r_signer fs = Some s.
Proof.
  intros U1 U2 U3 U4 I. unfold w_signer. unfold utf8 in *. rewrite U1, U2, U3, U4. cbn [andb]. eexists. split; [reflexivity|]. split; [fields_ok|].
  unfold r_signer, r_string, r_strings, r_bytes, r_int. sections. rewrite !one_utf8 by assumption. cbn [forallb]. rewrite !last_bytes, (int32_ok I). destruct s; reflexivity.
Qed.
Lemma msp_codecs : codecs_ok utf8 pb_msp.
Proof.
  split.
  - intros r U I. apply pb_ok with (fs := w_bytes 1 (ro_mspid r) ++ w_int 2 (ro_role r)); [unfold w_role; rewrite U; reflexivity|fields_ok|].
    unfold r_role, r_string, r_strings, r_int. sections. rewrite (one_utf8 U), last_bytes, (int32_ok I). destruct r; reflexivity.
  - intros o U1 U2. apply pb_ok with (fs := w_bytes 1 (ou_mspid o) ++ w_bytes 2 (ou_id o) ++ w_bytes 3 (ou_certifiers o)); [unfold w_ou; rewrite U1, U2; reflexivity|fields_ok|].
    unfold r_ou, r_string, r_strings, r_bytes. sections. rewrite (one_utf8 U1), (one_utf8 U2), !last_bytes. destruct o; reflexivity.
  - intros s U. apply pb_ok with (fs := w_bytes 1 (si_mspid s) ++ w_bytes 2 (si_bytes s)); [unfold w_si; rewrite U; reflexivity|fields_ok|].
    unfold r_si, r_string, r_strings, r_bytes. sections. rewrite (one_utf8 U), !last_bytes. destruct s; reflexivity.
  - intros i N1 N2. apply pb_ok with (fs := w_ii i); [reflexivity|unfold w_ii; fields_ok|].
    unfold r_ii, w_ii, r_string, r_strings, r_obytes, r_bytes. sections. cbn [forallb].
    rewrite (@last_obytes (ii_nymx i)), (@last_obytes (ii_nymy i)), !last_bytes; [destruct i; reflexivity| |].
    + intro E. exact (N2 [] E eq_refl).
    + intro E. exact (N1 [] E eq_refl).
  - intros s U1 U2 U3 U4 I. destruct (signer_read U1 U2 U3 U4 I) as (fs & W & F & R). exact (pb_ok W F R).
  - intros f U1 U2 I S.
    assert (Sg : exists sg, match cf_signer f with None => Some None | Some s => option_map Some (w_signer s) end = Some sg /\
              r_msg r_signer 3 (w_msg 3 sg) = Some (cf_signer f)).
    { destruct (cf_signer f) as [s|]; [|exists None; split; reflexivity]. destruct (S s eq_refl) as (S1 & S2 & S3 & S4 & S5).
      destruct (signer_read S1 S2 S3 S4 S5) as (fs & W & F & R). exists (Some fs). rewrite W. split; [reflexivity|].
      unfold r_msg. sections. cbn [all_some]. rewrite (parse_print F). cbn [concat]. rewrite app_nil_r, R. reflexivity. }
    destruct Sg as (sg & W & R).
    apply pb_ok with (fs := w_bytes 1 (cf_name f) ++ w_bytes 2 (cf_ipk f) ++ w_msg 3 sg ++ w_bytes 4 (cf_revpk f) ++ w_int 5 (cf_epoch f) ++ w_bytes 6 (cf_curve f)).
    + unfold w_conf. rewrite U1, U2, W. reflexivity.
    + fields_ok.
    + unfold r_conf, r_string, r_strings, r_bytes, r_int. unfold r_msg in *. revert R. sections. intro R. rewrite R.
      rewrite (one_utf8 U1), (one_utf8 U2), !last_bytes, (int64_ok I). cbn [forallb]. destruct f; reflexivity.
Qed.
Lemma comb_codec : codec_ok (Forall (fun p => int32 (pr_class p))) (c_comb pb_msp).
Proof.
  intros l K. apply pb_ok with (fs := w_comb l); [reflexivity|unfold w_comb; fields_ok|]. unfold r_comb, w_comb, r_msgs. rewrite lens_list, Z.eqb_refl.
  rewrite (@all_some_map _ _ _ _ _ (fun p => p)); [rewrite map_id; reflexivity|]. intros p I. rewrite Forall_forall in K. specialize (K p I).
  rewrite parse_print by (unfold w_principal; fields_ok). unfold r_principal, w_principal, r_int, r_bytes. sections. rewrite (int32_ok K), last_bytes. destruct p; reflexivity.
Qed.
Lemma anon_codec : codec_ok int32 (c_anon pb_msp).
Proof. intros z K. apply pb_ok with (fs := w_int 1 z); [reflexivity|fields_ok|]. unfold r_alg, r_int. sections. rewrite (int32_ok K). reflexivity. Qed.

(** ** unknown fields *)
Lemma lens_unknown i n v fs : n <> i -> lens i (fs ++ [(n, v)]) = lens i fs.
Proof. intro N. rewrite lens_app. cbn. destruct v; try apply app_nil_r. rewrite (proj2 (Z.eqb_neq n i) N). apply app_nil_r. Qed.
Lemma vars_unknown i n v fs : n <> i -> vars i (fs ++ [(n, v)]) = vars i fs.
Proof. intro N. rewrite vars_app. cbn. destruct v; try apply app_nil_r. rewrite (proj2 (Z.eqb_neq n i) N). apply app_nil_r. Qed.
Lemma dec_unknown X (write : X -> option fields) (read : fields -> option X) b x n v :
  (forall fs, read (fs ++ [(n, v)]) = read fs) -> field_ok (n, v) -> dec (pb write read) b = Some x -> dec (pb write read) (b ++ print_field (n, v)) = Some x.
Proof.
  intros R F D. cbn [pb dec] in *. destruct (parse b) as [fs|] eqn:E; [|discriminate]. rewrite (parse_app _ E), (parse_field F), R. exact D.
Qed.
Ltac unknown_fields := repeat first [rewrite lens_unknown by lia | rewrite vars_unknown by lia].
Lemma sig_unknown n v fs : 19 < n -> r_sig (fs ++ [(n, v)]) = r_sig fs.
Proof. intro L. unfold r_sig, r_msg, r_bytes, r_int. unknown_fields. reflexivity. Qed.
Lemma nsig_unknown n v fs : 4 < n -> r_nsig (fs ++ [(n, v)]) = r_nsig fs.
Proof. intro L. unfold r_nsig, r_bytes. unknown_fields. reflexivity. Qed.
Lemma asig_unknown n v fs : 14 < n -> r_asig (fs ++ [(n, v)]) = r_asig fs.
Proof. intro L. unfold r_asig, r_msg, r_bytes, r_int. unknown_fields. reflexivity. Qed.
Lemma ansig_unknown n v fs : 2 < n -> r_ansig (fs ++ [(n, v)]) = r_ansig fs.
Proof. intro L. unfold r_ansig, r_bytes. unknown_fields. reflexivity. Qed.

(** ** what is inside a message is shorter *)
Lemma consume_bytes_inside b x r : consume_bytes b = Some (x, r) -> (length x + length r < length b)%nat.
Proof.
  unfold consume_bytes. destruct (read_varint b) as [[[v k] s]|] eqn:E; [|discriminate]. destruct (read_varint_len E) as [L P].
  destruct (_ && _); [|discriminate]. intro Q. injection Q as <- <-. rewrite <- (firstn_skipn (Z.to_nat v) s) in L. rewrite app_length in L. lia.
Qed.
Lemma parse_inside_ f : forall b fs, parse_ f b = Some fs -> forall n x, In (n, WLen x) fs -> (length x < length b)%nat.
Proof.
  induction f as [|f IH]; intros b fs E n x I; (destruct b as [|c b]; [cbn in E; injection E as <-; destruct I|]); [discriminate|].
  cbn [parse_] in E. destruct (consume_varint (c :: b)) as [[tag r]|] eqn:V; [|discriminate]. destruct (consume_varint_app [] V) as [_ L].
  destruct (_ || _); [discriminate|]. destruct (consume_value (tag / 8) (tag mod 8) r) as [[v r']|] eqn:W; [|discriminate].
  destruct (consume_value_app [] W) as [_ L']. destruct (parse_ f r') as [gs|] eqn:P; [|discriminate]. injection E as <-. destruct I as [I|I].
  - injection I as _ ->. unfold consume_value in W. destruct (tag mod 8) as [|[[[?|?|]|[?|?|]|]|[[?|?|]|[?|?|]|]|]|?]; try discriminate;
      repeat match type of W with match ?m with _ => _ end = _ => destruct m as [[? ?]|] eqn:?B; [|discriminate] | match ?m with _ => _ end = _ => destruct m as [?|] eqn:?B; [|discriminate] end;
      try discriminate.
    injection W as -> ->. pose proof (consume_bytes_inside B). lia.
  - pose proof (IH _ _ P n x I). lia.
Qed.
Lemma lens_in i fs x : In x (lens i fs) -> exists n, In (n, WLen x) fs.
Proof.
  unfold lens. intro I. apply in_flat_map in I. destruct I as [[n v] [I J]]. destruct v; try destruct J. destruct (n =? i); [|destruct J].
  destruct J as [->|[]]. exists n. exact I.
Qed.
Lemma all_some_in X Y (f : X -> option Y) l : forall ys y, all_some f l = Some ys -> In y ys -> exists x, In x l /\ f x = Some y.
Proof.
  induction l as [|a l IH]; intros ys y E I; cbn [all_some] in E; [injection E as <-; destruct I|].
  destruct (f a) as [b|] eqn:F; [|discriminate]. destruct (all_some f l) as [bs|]; [|discriminate]. injection E as <-. destruct I as [<-|I].
  - exists a. split; [left; reflexivity|exact F].
  - destruct (IH bs y eq_refl I) as [x [J G]]. exists x. split; [right; exact J|exact G].
Qed.
Lemma last_in (l : list bytes) : last l [] = [] \/ In (last l []) l.
Proof.
  induction l as [|a l IH]; [left; reflexivity|]. destruct l as [|b l]; [right; left; reflexivity|]. destruct IH as [IH|IH]; [left; exact IH|right; right; exact IH].
Qed.
Lemma comb_inside b ps p : dec (c_comb pb_msp) b = Some ps -> In p ps -> (length (pr_bytes p) < length b)%nat.
Proof.
  cbn [pb_msp c_comb pb dec]. destruct (parse b) as [fs|] eqn:P; [|discriminate]. intros E I. unfold r_comb, r_msgs in E.
  destruct (all_some_in E I) as [x [J R]]. destruct (lens_in J) as [n K]. pose proof (parse_inside_ P K) as L.
  destruct (parse x) as [gs|] eqn:Q; [|discriminate]. injection R as <-. cbn [pr_bytes]. unfold r_bytes.
  destruct (last_in (lens 2 gs)) as [->|M]; [cbn [length]; lia|]. destruct (lens_in M) as [n' K']. pose proof (parse_inside_ Q K'). lia.
Qed.
