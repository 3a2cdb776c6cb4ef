(** Model of the generator cache of /repo/bbs/keys.go 28-51 under concurrency.

    Any number of goroutines call [get]; the calls interleave at the granularity of the two
    atomic sync.Map operations and the computation between them.  A generator is modelled by
    its value: the pointers handed out are shared, but no code in /repo writes through a
    generator obtained from the cache (Add, Sub and Neg are only called on copies and on fresh
    results of Mul, Mul2 and Build). *)
From Verif Require Import Base.
Unset Strict Implicit.

Section Cache.
  (** a curve object and its points; [hashToG1 c data] (keys.go 132-136) *)
  Variables Cv G : Type.
  Variable hashToG1 : Cv -> bytes -> G.

  (** One call of get(data, curve): before Load; after a miss; after hashToG1; returned. *)
  Inductive call :=
  | CLoad (c : Cv) (data : bytes)
  | CMiss (c : Cv) (data : bytes)
  | CStore (c : Cv) (data : bytes) (g : G)
  | CDone (c : Cv) (data : bytes) (g : G).

  (** The sync.Map, as an association list: the key is string(data) only. *)
  Record cstate := { cs_map : list (bytes * G); cs_calls : list call }.

  Fixpoint clookup (m : list (bytes * G)) (k : bytes) : option G :=
    match m with
    | [] => None
    | (k', g) :: m' => if bytes_eqb k k' then Some g else clookup m' k
    end.

  Fixpoint cset (l : list call) (i : nat) (x : call) : list call :=
    match l, i with
    | [], _ => []
    | _ :: l', O => x :: l'
    | y :: l', S i' => y :: cset l' i' x
    end.

  (** keys.go 37-51, one atomic step of call number [i] *)
  Inductive cstep : cstate -> cstate -> Prop :=
  | St_begin m l c data : (* a goroutine calls get *)
      cstep {| cs_map := m; cs_calls := l |} {| cs_map := m; cs_calls := l ++ [CLoad c data] |}
  | St_hit m l i c data g : nth_error l i = Some (CLoad c data) -> clookup m data = Some g ->
      cstep {| cs_map := m; cs_calls := l |} {| cs_map := m; cs_calls := cset l i (CDone c data g) |}
  | St_miss m l i c data : nth_error l i = Some (CLoad c data) -> clookup m data = None ->
      cstep {| cs_map := m; cs_calls := l |} {| cs_map := m; cs_calls := cset l i (CMiss c data) |}
  | St_hash m l i c data : nth_error l i = Some (CMiss c data) ->
      cstep {| cs_map := m; cs_calls := l |} {| cs_map := m; cs_calls := cset l i (CStore c data (hashToG1 c data)) |}
  | St_loaded m l i c data g g' : nth_error l i = Some (CStore c data g) -> clookup m data = Some g' ->
      cstep {| cs_map := m; cs_calls := l |} {| cs_map := m; cs_calls := cset l i (CDone c data g') |}
  | St_stored m l i c data g : nth_error l i = Some (CStore c data g) -> clookup m data = None ->
      cstep {| cs_map := m; cs_calls := l |} {| cs_map := (data, g) :: m; cs_calls := cset l i (CDone c data g) |}.

  Inductive csteps : cstate -> cstate -> Prop :=
  | Cs_refl s : csteps s s
  | Cs_step s t u : csteps s t -> cstep t u -> csteps s u.

  Definition cinit : cstate := {| cs_map := []; cs_calls := [] |}.

  Definition call_curve (x : call) : Cv :=
    match x with CLoad c _ | CMiss c _ | CStore c _ _ | CDone c _ _ => c end.

  (** ** Invariant *)
  Definition cinv (c : Cv) (s : cstate) : Prop :=
    (forall k g, clookup (cs_map s) k = Some g -> g = hashToG1 c k) /\
    (forall i x, nth_error (cs_calls s) i = Some x ->
       match x with CStore c' k g | CDone c' k g => g = hashToG1 c k | _ => True end).

  Lemma nth_cset l : forall i x j y, nth_error (cset l i x) j = Some y -> y = x \/ nth_error l j = Some y.
  Proof.
    induction l as [|z l IH]; intros [|i] x [|j] y E; cbn in *; try discriminate; auto.
    - injection E as <-. auto.
    - eapply IH. exact E.
  Qed.

  Lemma nth_snoc A (l : list A) x j y : nth_error (l ++ [x]) j = Some y -> y = x \/ nth_error l j = Some y.
  Proof.
    intro E. destruct (Nat.lt_ge_cases j (length l)) as [L|L].
    - rewrite nth_error_app1 in E by exact L. auto.
    - rewrite nth_error_app2 in E by exact L. destruct (j - length l) as [|k]; cbn in E; [injection E as <-; auto|destruct k; discriminate].
  Qed.

  (** every call made so far concerns the curve [c] *)
  Definition one_curve (c : Cv) (s : cstate) : Prop := forall x, In x (cs_calls s) -> call_curve x = c.

  Lemma cset_in l : forall i x y, In y l -> In y (cset l i x) \/ nth_error l i = Some y.
  Proof.
    induction l as [|z l IH]; intros [|i] x y I; cbn in *; try tauto.
    - destruct I as [->|I]; auto.
    - destruct I as [->|I]; auto. destruct (IH i x y I); auto.
  Qed.

  Lemma cset_hit l : forall i x y, nth_error l i = Some y -> In x (cset l i x).
  Proof. induction l as [|z l IH]; intros [|i] x y E; cbn in *; try discriminate; auto. right. eapply IH. exact E. Qed.

  (** earlier states of an execution over one curve are over that curve *)
  Lemma one_curve_back c s t : cstep s t -> one_curve c t -> one_curve c s.
  Proof.
    intros St O x I.
    assert (T : forall l i y z, nth_error l i = Some y -> call_curve y = call_curve z ->
               (forall x, In x (cset l i z) -> call_curve x = c) -> In x l -> call_curve x = c).
    { intros l i y z N Q O' J. destruct (@cset_in l i z x J) as [K|K]; [exact (O' _ K)|].
      rewrite N in K. injection K as <-. rewrite Q. exact (O' _ (cset_hit _ N)). }
    destruct St as [m l c' k|m l i c' k g N L|m l i c' k N L|m l i c' k N|m l i c' k g g' N L|m l i c' k g N L];
      unfold one_curve in O; cbn [cs_calls] in *.
    - apply (O x). apply in_or_app. auto.
    - eapply T; [exact N| |exact O|exact I]; reflexivity.
    - eapply T; [exact N| |exact O|exact I]; reflexivity.
    - eapply T; [exact N| |exact O|exact I]; reflexivity.
    - eapply T; [exact N| |exact O|exact I]; reflexivity.
    - eapply T; [exact N| |exact O|exact I]; reflexivity.
  Qed.

  Lemma cinv_step c s t : cstep s t -> one_curve c t -> cinv c s -> cinv c t.
  Proof.
    intros St O [M K]. destruct St as [m l c' k|m l i c' k g N L|m l i c' k N L|m l i c' k N|m l i c' k g g' N L|m l i c' k g N L];
      cbn [cs_map cs_calls] in *; split; cbn [cs_map cs_calls]; try exact M.
    - intros j x E. apply nth_snoc in E. destruct E as [->|E]; [exact I|exact (K _ _ E)].
    - intros j x E. apply nth_cset in E. destruct E as [->|E]; [exact (M _ _ L)|exact (K _ _ E)].
    - intros j x E. apply nth_cset in E. destruct E as [->|E]; [exact I|exact (K _ _ E)].
    - intros j x E. apply nth_cset in E. destruct E as [->|E]; [|exact (K _ _ E)].
      assert (c' = c) by exact (O _ (cset_hit _ N)). subst. reflexivity.
    - intros j x E. apply nth_cset in E. destruct E as [->|E]; [exact (M _ _ L)|exact (K _ _ E)].
    - intros q h E. cbn [clookup] in E. destruct (bytes_eqb q k) eqn:Q; [|auto].
      apply bytes_eqb_eq in Q. subst q. injection E as <-. exact (K _ _ N).
    - intros j x E. apply nth_cset in E. destruct E as [->|E]; [exact (K _ _ N)|exact (K _ _ E)].
  Qed.

  Lemma cinv_reach c s : csteps cinit s -> one_curve c s -> cinv c s.
  Proof.
    intro R. remember cinit as s0 eqn:E0. induction R as [s|s t u R IH St]; intro O; subst s.
    - split; cbn; [discriminate|]. intros i x E. destruct i; discriminate.
    - eapply cinv_step; [exact St|exact O|]. apply IH; [reflexivity|]. eapply one_curve_back; eauto.
  Qed.

  (** ** Progress: a call is never stuck, and needs at most three of its own steps *)
  Definition remaining (x : call) : nat :=
    match x with CLoad _ _ => 3 | CMiss _ _ => 2 | CStore _ _ _ => 1 | CDone _ _ _ => 0 end.

  Lemma nth_cset_same l : forall i x y, nth_error l i = Some y -> nth_error (cset l i x) i = Some x.
  Proof. induction l as [|z l IH]; intros [|i] x y E; cbn in *; try discriminate; eauto. Qed.

  Lemma call_progress s i x : nth_error (cs_calls s) i = Some x -> remaining x > 0 ->
    exists t y, cstep s t /\ nth_error (cs_calls t) i = Some y /\ remaining y < remaining x.
  Proof.
    destruct s as [m l]. cbn [cs_calls]. intros N P. destruct x as [c k|c k|c k g|c k g]; cbn [remaining] in P; try lia.
    - destruct (clookup m k) as [g|] eqn:L.
      + exists {| cs_map := m; cs_calls := cset l i (CDone c k g) |}, (CDone c k g).
        split; [eapply St_hit; eauto|]. split; [eapply nth_cset_same; eauto|]. cbn; lia.
      + exists {| cs_map := m; cs_calls := cset l i (CMiss c k) |}, (CMiss c k).
        split; [eapply St_miss; eauto|]. split; [eapply nth_cset_same; eauto|]. cbn; lia.
    - exists {| cs_map := m; cs_calls := cset l i (CStore c k (hashToG1 c k)) |}, (CStore c k (hashToG1 c k)).
      split; [eapply St_hash; eauto|]. split; [eapply nth_cset_same; eauto|]. cbn; lia.
    - destruct (clookup m k) as [g'|] eqn:L.
      + exists {| cs_map := m; cs_calls := cset l i (CDone c k g') |}, (CDone c k g').
        split; [eapply St_loaded; eauto|]. split; [eapply nth_cset_same; eauto|]. cbn; lia.
      + exists {| cs_map := (k, g) :: m; cs_calls := cset l i (CDone c k g) |}, (CDone c k g).
        split; [eapply St_stored; eauto|]. split; [eapply nth_cset_same; eauto|]. cbn; lia.
  Qed.
End Cache.
