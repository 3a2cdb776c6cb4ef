(** * Calls leave the caller's memory alone, and the caller cannot reach into keys (C92)

    [cell h a i] is cell [i] of array [a] of the heap, [view h s] what the slice [s] shows, [lies_in h s]: the slice lies in
    its array (Mem.v). *)
From Verif Require Import Base Curve Dlog Bbs Translator Bridge Csp CspInst Mem MemFacts Toy ToyDlog ToyBbs ToyCodec PropsBridge.
From Coq Require Import Sorting.Permutation Sorting.Sorted.
Unset Strict Implicit.

(** ** GenerateKeyPair
    Full claim: a call returns the keys for the bytes in the seed and leaves every cell of the caller's memory as it was.
    Proved: the keys are the right ones, and of the caller's cells at most one changes: if the seed is accepted and its
    capacity exceeds its length, the cell behind the seed becomes zero. *)
Definition behind (seed : option slice) (a i : nat) : Prop :=
  match seed with
  | None => False
  | Some s => (sl_len s = 0 \/ sl_len s = 32) /\ sl_len s < sl_cap s /\ a = sl_arr s /\ i = sl_off s + sl_len s
  end.
Theorem C92_keygen_partial : forall C (H : hasher C) (hkdf : bytes -> bytes) (h : heap byte) (seed : option slice) (rnd spare : bytes) r h',
  (forall s, seed = Some s -> lies_in h s) ->
  hGenerateKeyPair H hkdf h seed rnd spare = (r, h') ->
  r = generateKeyPair H hkdf (option_map (view h) seed) rnd /\
  (forall s, seed = Some s -> view h' s = view h s) /\
  forall a i x, cell h a i = Some x ->
    (behind seed a i -> cell h' a i = Some b0) /\ (~ behind seed a i -> cell h' a i = Some x).
Proof.
  intros C H hkdf h seed rnd spare r h' LI E. unfold hGenerateKeyPair, generateKeyPair in *.
  assert (LL : match @option_map slice bytes (view h) seed with Some s => @length byte s | None => 0 end = match seed with Some s => sl_len s | None => 0 end).
  { destruct seed as [s|]; [|reflexivity]. cbn. apply view_length. exact (LI s eq_refl). }
  cbv zeta in E |- *. match goal with |- _ = (let* _ := guard ((?m =? 0) || _) in _) /\ _ => replace m with (match seed with Some s => sl_len s | None => 0 end) by (symmetry; exact LL) end. clear LL. change frCompressedSize with 32 in *. set (n := match seed with Some s => sl_len s | None => 0 end) in *.
  destruct ((n =? 0) || (n =? 32)) eqn:G; cbn [guard bind]; subst n.
  2: { injection E as <- <-. split; [reflexivity|]. split; [reflexivity|]. intros a i x X. split; [|auto].
       destruct seed as [s|]; [|intros []]. intros ([Z0|Z0] & _); rewrite Z0 in G; discriminate G. }
  destruct seed as [s|].
  - specialize (LI s eq_refl). pose proof (append_view [b0] spare LI) as V. destruct (go_append h s [b0] spare) as [h1 ikm] eqn:EA. cbn [fst snd] in V.
    injection E as <- <-. cbn [option_map]. rewrite V. split; [reflexivity|].
    assert (CL : forall a i x, cell h a i = Some x -> cell h1 a i = if (sl_len s + 1 <=? sl_cap s) && ((a =? sl_arr s) && ((sl_off s + sl_len s <=? i) && (i <? sl_off s + sl_len s + 1))) then nth_error [b0] (i - (sl_off s + sl_len s)) else cell h a i).
    { intros a i x X. pose proof (append_cells [b0] spare LI X) as Q. rewrite EA in Q. exact Q. }
    split.
    + intros s0 [= <-]. apply view_same. intros i L. destruct LI as [L1 L2].
      destruct (cell h (sl_arr s) i) as [x|] eqn:X; [|exfalso; apply nth_error_None in X; lia].
      rewrite (CL _ _ _ X). destruct (Nat.leb_spec (sl_off s + sl_len s) i); [lia|]. cbn [andb]. rewrite !andb_false_r. exact X.
    + intros a i x X. rewrite (CL _ _ _ X). apply orb_true_iff in G. split.
      * intros (_ & L & -> & ->). rewrite Nat.eqb_refl, Nat.leb_refl. rewrite (proj2 (Nat.leb_le (sl_len s + 1) (sl_cap s))) by lia.
        rewrite (proj2 (Nat.ltb_lt _ _)) by lia. cbn [andb]. rewrite Nat.sub_diag. reflexivity.
      * intro N. destruct (Nat.leb_spec (sl_len s + 1) (sl_cap s)) as [Q1|]; [|exact X]. destruct (Nat.eqb_spec a (sl_arr s)) as [->|]; [|exact X].
        destruct (Nat.leb_spec (sl_off s + sl_len s) i) as [Q2|]; [|exact X]. destruct (Nat.ltb_spec i (sl_off s + sl_len s + 1)) as [Q3|]; [|exact X].
        exfalso. apply N. split; [|split; [lia|split; [reflexivity|lia]]]. destruct G as [G|G]; apply Nat.eqb_eq in G; auto.
  - destruct (alloc h (rnd ++ [b0]) []) as [h1 ikm] eqn:EA. pose proof (view_alloc h (rnd ++ [b0]) []) as V. rewrite EA in V. cbn [fst snd] in V.
    injection E as <- <-. cbn [option_map]. rewrite V. split; [reflexivity|]. split; [discriminate|]. intros a i x X. split; [intros []|intros _].
    pose proof (@cell_alloc _ h (rnd ++ [b0]) [] a i (cell_in X)) as Q. rewrite EA in Q. cbn [fst] in Q. rewrite Q. exact X.
Qed.
Print Assumptions C92_keygen_partial.
(** Two seeds next to each other in one buffer: making the first key pair replaces the first byte of the second seed by zero,
    and the second key pair is that of the changed seed. *)
Theorem C92_keygen_refuted : forall C (H : hasher C) (hkdf : bytes -> bytes) (seed1 seed2 rnd1 rnd2 spare1 spare2 : bytes) x,
  length seed1 = 32 -> length seed2 = 31 ->
  let h := [seed1 ++ x :: seed2] in
  let first := {| sl_arr := 0; sl_off := 0; sl_len := 32; sl_cap := 64 |} in
  let second := {| sl_arr := 0; sl_off := 32; sl_len := 32; sl_cap := 32 |} in
  let '(k1, h1) := hGenerateKeyPair H hkdf h (Some first) rnd1 spare1 in
  let '(k2, _) := hGenerateKeyPair H hkdf h1 (Some second) rnd2 spare2 in
  lies_in h first /\ lies_in h second /\ view h first = seed1 /\ view h second = x :: seed2 /\
  k1 = generateKeyPair H hkdf (Some seed1) rnd1 /\ view h1 second = b0 :: seed2 /\ k2 = generateKeyPair H hkdf (Some (b0 :: seed2)) rnd2.
Proof.
  intros C H hkdf seed1 seed2 rnd1 rnd2 spare1 spare2 x L1 L2 h first second.
  assert (I1 : lies_in h first) by (split; cbn; [lia|rewrite app_length; cbn; lia]).
  assert (I2 : lies_in h second) by (split; cbn; [lia|rewrite app_length; cbn; lia]).
  assert (V1 : view h first = seed1).
  { unfold view. cbn [first h sl_len sl_off sl_arr array nth]. change (skipn 0 (seed1 ++ x :: seed2)) with (seed1 ++ x :: seed2).
    rewrite firstn_app, L1, Nat.sub_diag, <- L1, firstn_all. apply app_nil_r. }
  assert (V2 : view h second = x :: seed2).
  { unfold view. cbn [second h sl_len sl_off sl_arr array nth]. rewrite skipn_app, <- L1, skipn_all, Nat.sub_diag. cbn [app skipn].
    rewrite L1. apply firstn_all2. cbn. lia. }
  destruct (hGenerateKeyPair H hkdf h (Some first) rnd1 spare1) as [k1 h1] eqn:E1.
  destruct (@C92_keygen_partial C H hkdf h (Some first) rnd1 spare1 k1 h1) as (K1 & _ & F); [intros s [= <-]; exact I1|exact E1|].
  assert (W : view h1 second = b0 :: seed2).
  { apply nth_error_ext. intro i. rewrite view_nth. cbn [second sl_len sl_off sl_arr]. destruct (Nat.ltb_spec i 32) as [L|L].
    - destruct (cell h 0 (32 + i)) as [y|] eqn:Y; [|exfalso; apply nth_error_None in Y; destruct I2 as [_ I2]; cbn [second sl_off sl_cap sl_arr] in I2; lia].
      destruct (F 0 (32 + i) y Y) as [FB FN]. destruct i as [|i].
      + apply FB. split; [right; reflexivity|]. split; [cbn; lia|]. split; reflexivity.
      + rewrite FN by (cbn; intros (_ & _ & _ & Q); lia). unfold cell, h in Y. cbn [array nth] in Y.
        rewrite nth_error_app2 in Y by lia. rewrite L1 in Y. replace (32 + S i - 32) with (S i) in Y by lia. symmetry. exact Y.
    - symmetry. apply nth_error_None. cbn. lia. }
  assert (I3 : lies_in h1 second).
  { split; [cbn; lia|]. destruct (Nat.le_gt_cases 64 (length (array h1 0))) as [Q|Q]; [exact Q|exfalso].
    pose proof (f_equal (@length byte) W) as LW. unfold view in LW. cbn [second sl_len sl_off sl_arr] in LW. rewrite firstn_length, skipn_length in LW. cbn [length] in LW. lia. }
  destruct (hGenerateKeyPair H hkdf h1 (Some second) rnd2 spare2) as [k2 h2] eqn:E2.
  destruct (@C92_keygen_partial C H hkdf h1 (Some second) rnd2 spare2 k2 h2) as (K2 & _ & _); [intros s [= <-]; exact I3|exact E2|].
  cbn [option_map] in K1, K2. rewrite V1 in K1. rewrite W in K2. auto 10.
Qed.
Print Assumptions C92_keygen_refuted.

(** ** DeriveProof
    Full claim: a call returns the proof for the indexes it is given and leaves the caller's memory as it was.
    Proved: the proof is the right one and nothing outside the indexes changes; the indexes are sorted in place. *)
Theorem C92_derive_partial : forall C (HG : bytes -> G1 C) (H : hasher C) messages sigBytes nonce pubKeyBytes (h : heap Z) (indexes : slice) (R : PoKRand C) r h',
  lies_in h indexes ->
  hDeriveProofZr HG H messages sigBytes nonce pubKeyBytes h indexes R = (r, h') ->
  r = deriveProofZr HG H messages sigBytes nonce pubKeyBytes (view h indexes) R /\
  Permutation (view h indexes) (view h' indexes) /\
  (forall a i, ~ (a = sl_arr indexes /\ sl_off indexes <= i < sl_off indexes + sl_len indexes) -> cell h' a i = cell h a i) /\
  (Sorted Z.le (view h indexes) -> view h' indexes = view h indexes).
Proof.
  intros C HG H messages sigBytes nonce pubKeyBytes h s R r h' LI E. unfold hDeriveProofZr in E. pose proof (view_length LI) as LV.
  destruct (Nat.eqb_spec (sl_len s) 0) as [Z0|NZ]; injection E as <- <-.
  - unfold deriveProofZr. rewrite LV, Z0. cbn. auto.
  - rewrite (sort_view LI). split; [|split; [apply sortInts_perm|split; [intros a i N; apply sort_cells; assumption|apply sortInts_fix]]].
    unfold deriveProofZr. rewrite sortInts_length. rewrite (sortInts_fix (sortInts_sorted _)). reflexivity.
Qed.
Print Assumptions C92_derive_partial.
(** The indexes of the caller are in order after every call with some index, also if the call fails: whatever was not sorted
    has changed. *)
Theorem C92_derive_refuted : forall C (HG : bytes -> G1 C) (H : hasher C) messages sigBytes nonce pubKeyBytes (h : heap Z) (indexes : slice) (R : PoKRand C) r h',
  lies_in h indexes -> ~ Sorted Z.le (view h indexes) ->
  hDeriveProofZr HG H messages sigBytes nonce pubKeyBytes h indexes R = (r, h') ->
  Sorted Z.le (view h' indexes) /\ view h' indexes <> view h indexes.
Proof.
  intros C HG H messages sigBytes nonce pubKeyBytes h s R r h' LI NS E. unfold hDeriveProofZr in E.
  destruct (Nat.eqb_spec (sl_len s) 0) as [Z0|NZ]; injection E as <- <-.
  - exfalso. apply NS. unfold view. rewrite Z0. constructor.
  - rewrite (sort_view LI). pose proof (sortInts_sorted (view h s)) as S. split; [exact S|]. intro Q. apply NS. rewrite <- Q. exact S.
Qed.
Print Assumptions C92_derive_refuted.

(** ** What keys hand out *)
(** Bytes of a public pseudonym appends one half of an encoding to the other although both lie in one array: the result is
    the encoding nevertheless, and no cell that existed before has changed. *)
Theorem C92_bytes : forall (h : heap byte) (raw spare more : bytes) (skip : nat) h' s, skip <= length raw ->
  hNymPublicBytes h raw spare more skip = (h', s) ->
  view h' s = skipn skip raw /\ forall a i x, cell h a i = Some x -> cell h' a i = Some x.
Proof.
  intros h raw spare more skip h' s SK E. unfold hNymPublicBytes, hG1ToProto in E.
  destruct (alloc h raw spare) as [h1 s1] eqn:EA. injection EA as E1 E2.
  assert (A1 : array h1 (length h) = raw ++ spare) by (unfold array; rewrite <- E1, app_nth2, Nat.sub_diag by lia; reflexivity).
  set (l := Nat.div2 (length raw - skip)) in *. assert (LL : l <= length raw - skip) by (unfold l; apply Nat.div2_decr; lia).
  assert (EC : sl_cap s1 = length raw + length spare) by (rewrite <- E2; reflexivity). assert (EAr : sl_arr s1 = length h) by (rewrite <- E2; reflexivity).
  rewrite EC, EAr in E. set (X := {| sl_arr := length h; sl_off := skip; sl_len := l; sl_cap := _ |}) in E. set (Y := {| sl_arr := length h; sl_off := skip + l; sl_len := _; sl_cap := _ |}) in E.
  assert (LX : lies_in h1 X) by (split; cbn [X sl_len sl_cap sl_off sl_arr]; [lia|rewrite A1, app_length; lia]).
  assert (VX : view h1 X = firstn l (skipn skip raw)).
  { unfold view. cbn [X sl_arr sl_off sl_len]. rewrite A1, skipn_app, firstn_app, skipn_length. replace (l - (length raw - skip)) with 0 by lia. cbn. apply app_nil_r. }
  assert (VY : view h1 Y = skipn l (skipn skip raw)).
  { unfold view. cbn [Y sl_arr sl_off sl_len]. rewrite A1, skipn_app, skipn_add, firstn_app, skipn_length.
    replace (length raw - skip - l - (length raw - (skip + l))) with 0 by lia. cbn [firstn]. rewrite app_nil_r. apply firstn_all2. rewrite skipn_length. lia. }
  pose proof (append_view (view h1 Y) more LX) as V. rewrite E in V. cbn [fst snd] in V. rewrite V, VX, VY, firstn_skipn. split; [reflexivity|].
  intros a i x Q. pose proof (cell_in Q) as B. assert (Q1 : cell h1 a i = Some x) by (rewrite <- Q, <- E1; exact (@cell_alloc _ h raw spare a i B)).
  pose proof (append_cells (view h1 Y) more LX Q1) as W. rewrite E in W. cbn [fst] in W. rewrite W. cbn [X sl_arr].
  destruct (Nat.eqb_spec a (length h)); [lia|]. cbn [andb]. rewrite andb_false_r. exact Q1.
Qed.
Print Assumptions C92_bytes.

(** The identifier of a pseudonym key is a copy: whatever the caller stores into it, the key keeps its own. *)
Theorem C92_ski : forall (h : heap byte) (ski : slice) h' s, lies_in h ski -> hNymSecretSki h ski = (h', s) ->
  view h' s = view h ski /\ forall i xs, i + length xs <= sl_len s -> view (store h' (sl_arr s) (sl_off s + i) xs) ski = view h ski.
Proof.
  intros h ski h' s LI E. unfold hNymSecretSki in E. pose proof (view_alloc h (view h ski) []) as V. rewrite E in V. cbn [fst snd] in V. split; [exact V|].
  intros i xs L. unfold alloc in E. injection E as <- <-. cbn [sl_arr sl_off sl_len] in *. apply view_same. intros j LJ.
  destruct LI as [L1 L2]. assert (B : sl_arr ski < length h) by (apply array_in; lia).
  rewrite cell_store.
  - destruct (Nat.eqb_spec (sl_arr ski) (length h)); [lia|]. cbn [andb]. exact (@cell_alloc _ h (view h ski) [] (sl_arr ski) j B).
  - unfold array. rewrite app_nth2, Nat.sub_diag by lia. cbn [nth]. rewrite app_nil_r. lia.
Qed.
Print Assumptions C92_ski.
(** The identifier of a dlog issuer key is the memory of the key: a caller who stores into it changes the key, and its
    identifier with it. *)
Theorem C92_issuer_ski_refuted : forall (h : heap byte) (k : hIssuerPublicKey) (new : bytes), lies_in h (hi_hash k) -> length new = sl_len (hi_hash k) ->
  let '(h1, ski) := hIssuerSki h k in
  let h2 := store h1 (sl_arr ski) (sl_off ski) new in
  view h1 ski = ip_hash (hi_value h k) /\ ip_hash (hi_value h2 k) = new /\ hi_value h2 k = with_hash (hi_value h k) new.
Proof.
  intros h k new LI L. unfold hIssuerSki. cbn. split; [reflexivity|]. destruct LI as [L1 L2].
  assert (V : view (store h (sl_arr (hi_hash k)) (sl_off (hi_hash k)) new) (hi_hash k) = new).
  { apply nth_error_ext. intro i. rewrite view_nth, cell_store by lia. rewrite Nat.eqb_refl. cbn [andb]. destruct (Nat.ltb_spec i (sl_len (hi_hash k))) as [P|P].
    - destruct (Nat.leb_spec (sl_off (hi_hash k)) (sl_off (hi_hash k) + i)); [|lia].
      destruct (Nat.ltb_spec (sl_off (hi_hash k) + i) (sl_off (hi_hash k) + length new)); [|lia]. cbn [andb]. f_equal. lia.
    - symmetry. apply nth_error_None. lia. }
  unfold hi_value. rewrite V. split; reflexivity.
Qed.
Print Assumptions C92_issuer_ski_refuted.

(** A generated dlog issuer key keeps the caller's list of attribute names: what the caller stores into the list later,
    duplicates for example, are the names of the key, beside the identifier of the old ones. *)
Theorem C92_names_refuted : forall C (H : hasher C) (T : translator C) marshal (h : heap bytes) (names : slice) (R : IssuerRand C) k (new : list bytes),
  lies_in h names -> length new = sl_len names -> hNewIssuerKey H T marshal h names R = Ok k ->
  newIssuerKey H T marshal (view h names) R = Ok (hn_value h k) /\
  exists ipk1 ipk2, ik_ipk (hn_value h k) = Some ipk1 /\ ik_ipk (hn_value (store h (sl_arr names) (sl_off names) new) k) = Some ipk2 /\
    ip_names ipk1 = view h names /\ ip_names ipk2 = new /\ ip_hash ipk2 = ip_hash ipk1 /\ ipk2 = with_names ipk1 new.
Proof.
  intros C H T marshal h names R k new LI L E. unfold hNewIssuerKey in E. apply bind_ok in E. destruct E as [k0 [N E]]. injection E as <-.
  assert (K : exists p, ik_ipk k0 = Some p /\ ip_names p = view h names).
  { unfold newIssuerKey in N. apply bind_ok in N. destruct N as [u [_ N]]. apply bind_ok in N. destruct N as [pd [_ N]]. apply bind_ok in N. destruct N as [p [S N]]. injection N as <-.
    exists p. split; [reflexivity|]. unfold setHash in S. destruct (marshal _); [|discriminate S]. injection S as <-. reflexivity. }
  destruct K as (p & KP & KN). unfold hn_value. cbn [hn_key hn_names]. rewrite KP. cbn [option_map ik_ipk].
  split.
  { rewrite N. f_equal. destruct k0 as [i o]. cbn [ik_isk ik_ipk] in KP |- *. subst o. f_equal. f_equal. destruct p. cbn in KN |- *. subst. reflexivity. }
  eexists. eexists. split; [reflexivity|]. split; [reflexivity|]. cbn [with_names ip_names ip_hash]. split; [reflexivity|].
  assert (V : view (store h (sl_arr names) (sl_off names) new) names = new).
  { destruct LI as [L1 L2]. apply nth_error_ext. intro i. rewrite view_nth, cell_store by lia. rewrite Nat.eqb_refl. cbn [andb]. destruct (Nat.ltb_spec i (sl_len names)) as [P|P].
    - destruct (Nat.leb_spec (sl_off names) (sl_off names + i)); [|lia].
      destruct (Nat.ltb_spec (sl_off names + i) (sl_off names + length new)); [|lia]. cbn [andb]. f_equal. lia.
    - symmetry. apply nth_error_None. lia. }
  split; [exact V|]. split; [reflexivity|]. rewrite V. reflexivity.
Qed.
Print Assumptions C92_names_refuted.

(** ** Concrete cases *)
Definition m_first : slice := {| sl_arr := 0; sl_off := 0; sl_len := 32; sl_cap := 64 |}.
Definition m_second : slice := {| sl_arr := 0; sl_off := 32; sl_len := 32; sl_cap := 32 |}.
Definition m_heap : heap byte := [repeat Byte.x05 32 ++ Byte.x07 :: repeat Byte.x09 31].
(** the two seeds of [C92_keygen_refuted]; the second key pair is not that of the seed the caller had stored *)
Example C92_keygen_example :
  lies_in m_heap m_first /\ lies_in m_heap m_second /\
  let '(k1, h1) := hGenerateKeyPair h32 (fun x => x) m_heap (Some m_first) [] [] in
  let sk k := match k with Ok (_, x) => zr_bytes toy32 x | _ => [] end in
  (bytes_eqb (sk k1) (sk (generateKeyPair h32 (fun x => x) (Some (repeat Byte.x05 32)) []))
   && negb (bytes_eqb (sk (fst (hGenerateKeyPair h32 (fun x => x) h1 (Some m_second) [] []))) (sk (fst (hGenerateKeyPair h32 (fun x => x) m_heap (Some m_second) [] [])))))%bool = true.
Proof. split; [split; cbn; lia|]. split; [split; cbn; lia|]. vm_compute. reflexivity. Qed.
(** indexes in a larger array *)
Definition m_ints : heap Z := [[7; 2; 0; 7]]%Z.
Definition m_indexes : slice := {| sl_arr := 0; sl_off := 1; sl_len := 2; sl_cap := 3 |}.
Example C92_derive_example :
  lies_in m_ints m_indexes /\ ~ Sorted Z.le (view m_ints m_indexes) /\ go_sort m_ints m_indexes = [[7; 0; 2; 7]]%Z.
Proof.
  split; [split; cbn; lia|]. split; [|reflexivity]. intro S. change (view m_ints m_indexes) with [2; 0]%Z in S. inversion S as [|? ? _ HD]; subst. inversion HD; subst. lia.
Qed.
Example C92_bytes_example :
  let '(h, s) := hNymPublicBytes m_heap [Byte.x04; Byte.x01; Byte.x02; Byte.x03; Byte.x05] [Byte.x00] [] 1 in
  view h s = [Byte.x01; Byte.x02; Byte.x03; Byte.x05] /\ length h = 2.
Proof. split; reflexivity. Qed.
(** The toy issuer's key: after the caller has written into its identifier, a signature that was accepted is refused. *)
Definition m_key : hIssuerPublicKey := {| hi_key := tipk; hi_hash := {| sl_arr := 0; sl_off := 0; sl_len := length (ip_hash tipk); sl_cap := length (ip_hash tipk) |} |}.
Example C92_issuer_example :
  let h := [ip_hash tipk] in
  let ver h := is_ok (Ver tH tT (fst (tsign Standard)) tdisc (Some (hi_value h m_key)) tmsg tvals 3 2 tt 5 Basic None) in
  lies_in h (hi_hash m_key) /\ ver h = true /\ ver (store h 0 0 [Byte.x00]) = false.
Proof. split; [split; apply Nat.leb_le; vm_compute; reflexivity|]. split; vm_compute; reflexivity. Qed.
(** the toy issuer's key from a list in memory *)
Example C92_names_example :
  let names := {| sl_arr := 0; sl_off := 0; sl_len := length tnames; sl_cap := length tnames |} in
  lies_in [tnames] names /\ is_ok (hNewIssuerKey tH tT tmarshal [tnames] names tIR) = true.
Proof. split; [split; apply Nat.leb_le; vm_compute; reflexivity|]. vm_compute. reflexivity. Qed.
