(** C75: concurrent use of the file-based key store. *)
From Verif Require Import Base Curve Bbs Aries ToyBbs ToyAries Dlog Bridge Toy ToyDlog ToyCodec Csp CspSpec CspFacts CspInst ToyCsp StoreConc StoreConcFacts.
Unset Strict Implicit.

(** What encoding/json guarantees for the entries: encodings are decoded to what was encoded; they contain no
    zero byte, and neither strict prefixes nor texts with zero bytes are decoded. *)
Definition json_ok (json : codec entry) : Prop :=
  (forall e, round_trips json e) /\ dec json [] = None /\
  forall e b f, enc json e = Some b -> f <> b -> length f <= length b ->
    (forall i c, nth_error f i = Some c -> c = Byte.x00 \/ nth_error b i = Some c) -> dec json f = None.

Definition stored U (s : shared U) (k : key U) : Prop := exists id b w, In (Store k id b w) (sh_calls s).
(** keys stored under the same identifier are the same, including the exportable flag *)
Definition one_key_each U (X : scheme U) (M : mathops U) (s : shared U) : Prop :=
  forall k1 k2, stored s k1 -> stored s k2 -> kvs_ident X M k1 = kvs_ident X M k2 -> k1 = k2.

Lemma entry_ident U (X : scheme U) (M : mathops U) k id e : key_entry M k = Some (id, e) -> exists i, kvs_ident X M k = Some i /\ id = hex i.
Proof. destruct k; try discriminate; intros [= <- _]; eexists; split; reflexivity. Qed.
Lemma one_key_agree U (X : scheme U) (M : mathops U) json s : reached M json s -> one_key_each X M s -> agree s.
Proof.
  intros R O k1 k2 id b1 b2 w1 w2 I1 I2. destruct (reached_entry R I1) as (e1 & K1 & E1). destruct (reached_entry R I2) as (e2 & K2 & E2).
  destruct (entry_ident X K1) as (i1 & J1 & Q1). destruct (entry_ident X K2) as (i2 & J2 & Q2).
  assert (k1 = k2). { apply O; [exists id, b1, w1; exact I1|exists id, b2, w2; exact I2|]. rewrite J1, J2. f_equal. apply hex_inj. congruence. }
  subst k2. rewrite K1 in K2. injection K2 as <-. congruence.
Qed.

Section Concurrent.
  Variables (U : universe) (X : scheme U) (M : mathops U) (json : codec entry) (s : shared U).
  Hypotheses (J : json_ok json) (MO : math_ok M) (R : reached M json s) (O : one_key_each X M s).

  Let DM : forall e b f, enc json e = Some b -> damaged b f -> f <> b -> dec json f = None.
  Proof. intros e b f E [L D] N. exact (proj2 (proj2 J) e b f E N L D). Qed.
  Let INV : inv M json s.
  Proof. exact (reached_inv (proj1 J) MO DM R (one_key_agree R O)). Qed.
  Let read_dir fs ski f : sh_files s (hex ski) = Some f ->
    GetKey (KVSStore M (FileBased json)) {| dk_files := sh_files s; dk_faults := fs |} ski = key_of_file M json ski f.
  Proof. intros F. unfold GetKey, key_of_file, kvs_GetKey. cbn [ks_get KVSStore]. unfold kvs_GetKey. cbn [kv_get FileBased]. unfold file_get. cbn [dk_files]. rewrite F, bytes_eqb_refl. reflexivity. Qed.
  Let damaged_key fs ski f k b w : sh_files s (hex ski) = Some f -> In (Store k (hex ski) b w) (sh_calls s) -> damaged b f ->
    GetKey (KVSStore M (FileBased json)) {| dk_files := sh_files s; dk_faults := fs |} ski = Err \/
    kvs_ident X M k = Some ski /\ GetKey (KVSStore M (FileBased json)) {| dk_files := sh_files s; dk_faults := fs |} ski = Ok k.
  Proof.
    intros F I D. rewrite (read_dir fs F). destruct (reached_entry R I) as (e & K & E). destruct (list_eq_dec byte_eq_dec f b) as [->|N].
    - right. split; [|exact (key_of_file_ok (proj1 J) MO K E eq_refl)]. destruct (entry_ident X K) as (i & Hi & Q). apply hex_inj in Q. congruence.
    - left. apply key_of_file_bad. exact (DM E D N).
  Qed.

  (** Whatever the interleaving of any number of calls: a GetKey that returns a key returns one that was
      passed to StoreKey, under its identifier.  *)
  Theorem C75_read_partial : forall ski r, In (Read ski (RDone r)) (sh_calls s) ->
    r = Err \/ exists k, stored s k /\ kvs_ident X M k = Some ski /\ r = Ok k.
  Proof.
    intros ski r I. destruct (proj2 INV _ I) as [E|(k & b & w & IS & E)]; [left; exact E|right]. exists k.
    split; [exists (hex ski), b, w; exact IS|]. split; [|exact E].
    destruct (reached_entry R IS) as (e & K & _). destruct (entry_ident X K) as (i & Hi & Q). apply hex_inj in Q. congruence.
  Qed.

  (** The same for a read after all processes died at any point of any interleaving. *)
  Theorem C75_crash_partial : forall fs ski,
    let r := GetKey (KVSStore M (FileBased json)) {| dk_files := sh_files s; dk_faults := fs |} ski in
    r = Err \/ exists k, stored s k /\ kvs_ident X M k = Some ski /\ r = Ok k.
  Proof.
    intros fs ski r. destruct (sh_files s (hex ski)) as [f|] eqn:F.
    - destruct (proj1 INV _ _ F) as (k & b & w & I & D & _). destruct (damaged_key fs F I D) as [Q|[Q1 Q2]]; [left; exact Q|right].
      exists k. split; [exists (hex ski), b, w; exact I|]. split; assumption.
    - left. unfold r, GetKey. cbn [ks_get KVSStore]. unfold kvs_GetKey. cbn [kv_get FileBased]. unfold file_get. cbn [dk_files]. rewrite F. reflexivity.
  Qed.

  (** Once the calls that stored a key have all returned without error it is found. *)
  Theorem C75_stored_partial : forall k i fs, stored s k -> kvs_ident X M k = Some i ->
    (forall k' id b w, In (Store k' id b w) (sh_calls s) -> kvs_ident X M k' = Some i -> w = WDone) ->
    GetKey (KVSStore M (FileBased json)) {| dk_files := sh_files s; dk_faults := fs |} i = Ok k.
  Proof.
    intros k i fs (id & b & w & I) Hi A. pose proof (A _ _ _ _ I Hi) as ->.
    destruct (reached_entry R I) as (e & K & E). destruct (entry_ident X K) as (i' & Hi' & Q). rewrite Hi in Hi'. injection Hi' as <-. subst id.
    destruct (proj2 INV _ I) as [_ DN]. destruct (sh_files s (hex i)) as [f|] eqn:F; [|contradiction].
    destruct (proj1 INV _ _ F) as (k2 & b2 & w2 & I2 & D2 & P2).
    pose proof (one_key_agree R O I2 I) as ->.
    destruct (reached_entry R I2) as (e2 & K2 & E2). destruct (entry_ident X K2) as (i2 & Hi2 & Q2). apply hex_inj in Q2. subst i2.
    pose proof (A _ _ _ _ I2 Hi2) as ->. cbn [off] in P2. rewrite (nth_eq P2 (proj1 D2)) in F.
    rewrite (read_dir fs F). exact (key_of_file_ok (proj1 J) MO K E eq_refl).
  Qed.
End Concurrent.

(** ** A stretch of a history in which nobody stores the key *)
(** All StoreKey calls for the identifier [i] have succeeded. *)
Definition settled U (X : scheme U) (M : mathops U) (i : bytes) (s : shared U) : Prop :=
  forall k id b w, In (Store k id b w) (sh_calls s) -> kvs_ident X M k = Some i -> w = WDone.
(** Any steps of any calls, as long as it stays that way. *)
Inductive quiet U (X : scheme U) (M : mathops U) json (i : bytes) (s : shared U) : shared U -> Prop :=
| quiet_refl : settled X M i s -> quiet X M json i s s
| quiet_step s1 s' : quiet X M json i s s1 -> sstep M json s1 s' -> settled X M i s' -> quiet X M json i s s'.

Lemma prefix_next (b : bytes) x : forall n, nth_error b (length (firstn n b)) = Some x -> exists m, firstn n b ++ [x] = firstn m b.
Proof.
  induction b as [|y b IH]; intros [|n] E; try discriminate.
  - exists 1. cbn in *. congruence.
  - destruct (IH n E) as (m & Q). exists (S m). cbn [firstn app]. rewrite Q. reflexivity.
Qed.

Section Quiet.
  Variables (U : universe) (X : scheme U) (M : mathops U) (json : codec entry) (i : bytes) (k : key U) (b : bytes) (s0 : shared U).
  Hypothesis K : key_of_file M json i b = Ok k.

  Definition reader_ok (c : call U) : Prop :=
    match c with
    | Read j (RAt buf) => j = i -> exists n, buf = firstn n b
    | Read j (RDone r) => j = i -> In c (sh_calls s0) \/ r = Ok k
    | _ => True
    end.

  Lemma quiet_reached s : reached M json s0 -> quiet X M json i s0 s -> reached M json s /\ settled X M i s.
  Proof. intros R Q. induction Q as [S|s1 s' Q IH ST S]; [split; assumption|]. split; [|exact S]. destruct IH as [R1 _]. exact (reached_step R1 ST). Qed.

  Lemma store_owner s k' id b' w : reached M json s -> In (Store k' id b' w) (sh_calls s) -> id = hex i -> kvs_ident X M k' = Some i.
  Proof.
    intros R I E. destruct (reached_entry R I) as (e & E1 & _). destruct (entry_ident X E1) as (i' & Hi & Q). rewrite E in Q. apply hex_inj in Q. congruence.
  Qed.

  Lemma quiet_inv s : reached M json s0 -> quiet X M json i s0 s -> sh_files s0 (hex i) = Some b ->
    (forall r, In (Read i r) (sh_calls s0) -> (exists x, r = RDone x) \/ r = RStart \/ r = RFailed) ->
    sh_files s (hex i) = Some b /\ forall c, In c (sh_calls s) -> reader_ok c.
  Proof.
    intros R Q F0 N. induction Q as [S|s1 s' Q IH ST S].
    - split; [exact F0|]. intros [k' id b' w|j [|buf|r|]] I; cbn [reader_ok]; auto; intros ->.
      destruct (N _ I) as [[x E]|[E|E]]; discriminate.
    - destruct IH as [F RO]. destruct (quiet_reached R Q) as [R1 S1].
      destruct ST as [s1 k' id e b' E1 E2|s1 ski|d l1 c l2 d' c' A]; cbn [sh_files sh_calls] in *.
      + split; [exact F|]. intros c [<-|I]; [exact Logic.I|]. exact (RO _ I).
      + split; [exact F|]. intros c [<-|I]; [exact Logic.I|]. exact (RO _ I).
      + pose proof (in_mid l1 l2 c) as IM. pose proof (RO _ IM) as RC.
        assert (G : d' (hex i) = Some b /\ reader_ok c').
        { destruct A as [d k' id b'|d k' id b' n x f Hn Hf|d k' id b'|d k' id b' w Hw|d ski f Hf|d ski Hf|d ski buf f x Hf Hn|d ski buf f Hf L|d ski r Hr].
          - split; [|exact Logic.I]. rewrite dput_other; [exact F|]. intro E. symmetry in E. pose proof (S1 _ _ _ _ IM (store_owner R1 IM E)). discriminate.
          - split; [|exact Logic.I]. rewrite dput_other; [exact F|]. intro E. symmetry in E. pose proof (S1 _ _ _ _ IM (store_owner R1 IM E)). discriminate.
          - split; [exact F|exact Logic.I].
          - split; [exact F|exact Logic.I].
          - split; [exact F|]. intros ->. exists 0. reflexivity.
          - split; [exact F|]. intros ->. congruence.
          - split; [exact F|]. intros ->. rewrite F in Hf. injection Hf as <-. destruct (RC eq_refl) as (n & ->). exact (prefix_next Hn).
          - split; [exact F|]. intros ->. right. rewrite F in Hf. injection Hf as <-. destruct (RC eq_refl) as (n & ->). rewrite firstn_all2; [exact K|].
            rewrite firstn_length in L. lia.
          - split; [exact F|exact Logic.I]. }
        split; [apply G|]. intros x I. apply in_app_or in I. destruct I as [I|[<-|I]]; [apply RO, in_or_app; auto|apply G|apply RO, in_or_app; auto using in_cons].
  Qed.
End Quiet.

(** Whatever other calls do meanwhile: if at some time the key has been stored, all StoreKey calls for it have succeeded
    and nobody is in the middle of reading it, then every GetKey for it that returns before the next StoreKey call for it
    begins returns this key; only a failure of the operating system keeps it from doing so. *)
Theorem C75_window : forall U (X : scheme U) (M : mathops U) json (s0 s : shared U) k i,
  json_ok json -> math_ok M -> reached M json s0 -> one_key_each X M s0 ->
  stored s0 k -> kvs_ident X M k = Some i -> (forall buf, ~ In (Read i (RAt buf)) (sh_calls s0)) ->
  quiet X M json i s0 s ->
  forall r, In (Read i (RDone r)) (sh_calls s) -> In (Read i (RDone r)) (sh_calls s0) \/ r = Ok k.
Proof.
  intros U X M json s0 s k i J MO R O ST KI NR Q r I.
  assert (S0 : settled X M i s0) by (clear - Q; induction Q; assumption).
  destruct ST as (id & b & w & IS). pose proof (S0 _ _ _ _ IS KI) as ->.
  destruct (reached_entry R IS) as (e & E1 & E2). destruct (entry_ident X E1) as (i' & Hi & EI). rewrite KI in Hi. injection Hi as <-. subst id.
  assert (DM : forall e b f, enc json e = Some b -> damaged b f -> f <> b -> dec json f = None) by (intros e' b' f' E [L D] N; exact (proj2 (proj2 J) e' b' f' E N L D)).
  destruct (reached_inv (proj1 J) MO DM R (one_key_agree R O)) as [FI CI]. destruct (CI _ IS) as [_ DN].
  destruct (sh_files s0 (hex i)) as [f|] eqn:F; [|contradiction].
  destruct (FI _ _ F) as (k2 & b2 & w2 & I2 & D2 & P2). pose proof (one_key_agree R O I2 IS) as ->.
  pose proof (S0 _ _ _ _ I2 (store_owner X R I2 eq_refl)) as ->. cbn [off] in P2. rewrite (nth_eq P2 (proj1 D2)) in F.
  pose proof (key_of_file_ok (proj1 J) MO E1 E2 eq_refl) as KF.
  assert (N : forall x, In (Read i x) (sh_calls s0) -> (exists y, x = RDone y) \/ x = RStart \/ x = RFailed).
  { intros [|buf|y|] Ix; [auto|destruct (NR _ Ix)|left; eexists; reflexivity|auto]. }
  destruct (quiet_inv KF R Q F N) as [_ RO]. exact (RO _ I eq_refl).
Qed.

(** ** What is missing *)
(** A key that has been stored successfully may not be found by a GetKey that runs while the same key is stored
    again: both StoreKey calls succeed, and in between GetKey fails. *)
Theorem C75_read_refuted : forall U (M : mathops U) json k i e, json_ok json -> key_entry M k = Some (hex i, e) ->
  exists b before after,
    reached M json before /\ sh_calls before = [Store k (hex i) b WDone] /\
    reached M json after /\ sh_calls after = [Read i (RDone Err); Store k (hex i) b WDone; Store k (hex i) b WDone].
Proof.
  intros U M json k i e (RT & D0 & _) K. destruct (RT e) as (b & E & D). exists b. set (id := hex i) in *.
  assert (R1 : reached M json {| sh_files := fun _ => None; sh_calls := [Store k id b WStart] |}) by exact (reached_step (reached_start M json) (st_store (M := M) (json := json) _ K E)).
  assert (R2 : reached M json {| sh_files := dput (fun _ => None) id []; sh_calls := [Store k id b (WAt 0)] |})
    by exact (reached_step R1 (st_advance (M := M) (json := json) [] [] (adv_open M json (fun _ => None) k id b))).
  destruct (@write_all U M json [] [] k id b [] (dput (fun _ => None) id []) 0) as (d1 & R3 & F1); [unfold dput; rewrite bytes_eqb_refl; reflexivity|lia|exact R2|].
  exists {| sh_files := d1; sh_calls := [Store k id b WDone] |}.
  assert (R4 : reached M json {| sh_files := d1; sh_calls := [Store k id b WStart; Store k id b WDone] |}) by exact (reached_step R3 (st_store (M := M) (json := json) _ K E)).
  set (d2 := dput d1 id []).
  assert (F2 : d2 id = Some []) by (unfold d2, dput; rewrite bytes_eqb_refl; reflexivity).
  assert (R5 : reached M json {| sh_files := d2; sh_calls := [Store k id b (WAt 0); Store k id b WDone] |})
    by exact (reached_step R4 (st_advance (M := M) (json := json) [] [Store k id b WDone] (adv_open M json d1 k id b))).
  assert (R6 : reached M json {| sh_files := d2; sh_calls := [Read i RStart; Store k id b (WAt 0); Store k id b WDone] |})
    by exact (reached_step R5 (st_get M json _ i)).
  assert (R7 : reached M json {| sh_files := d2; sh_calls := [Read i (RAt []); Store k id b (WAt 0); Store k id b WDone] |})
    by exact (reached_step R6 (st_advance (M := M) (json := json) [] [Store k id b (WAt 0); Store k id b WDone] (@adv_ropen _ M json d2 i [] F2))).
  assert (R8 : reached M json {| sh_files := d2; sh_calls := [Read i (RDone Err); Store k id b (WAt 0); Store k id b WDone] |}).
  { pose proof (@adv_eof _ M json d2 i [] [] F2 (le_n 0)) as A. rewrite (@key_of_file_bad _ M json i [] D0) in A.
    exact (reached_step R7 (st_advance (M := M) (json := json) [] [Store k id b (WAt 0); Store k id b WDone] A)). }
  destruct (@write_all U M json [Read i (RDone Err)] [Store k id b WDone] k id b [] d2 0) as (d3 & R9 & _); [exact F2|lia|exact R8|].
  exists {| sh_files := d3; sh_calls := [Read i (RDone Err); Store k id b WDone; Store k id b WDone] |}.
  split; [exact R3|]. split; [reflexivity|]. split; [exact R9|reflexivity].
Qed.

(** The same user key stored at the same time as exportable and as not exportable: both calls succeed and the
    key cannot be read any more.  The encodings of the two entries have different lengths, and the shorter
    followed by the rest of the longer one is no encoding (in JSON: "...true}}" and "...false}}" give "...true}}}"). *)
Theorem C75_stored_refuted : forall U (X : scheme U) (M : mathops U) json (sk : u_zr U) b1 b2,
  let entry_of x := {| e_nym := None; e_user := Some {| ue_sk := m_zrBytes M sk; ue_exportable := x |} |} in
  enc json (entry_of true) = Some b1 -> enc json (entry_of false) = Some b2 -> dec json (b1 ++ skipn (length b1) b2) = None ->
  let i := key_ski X M (KUserSecret sk true) in
  exists s, reached M json s /\ sh_calls s = [Store (KUserSecret sk false) (hex i) b2 WDone; Store (KUserSecret sk true) (hex i) b1 WDone] /\
    forall fs, GetKey (KVSStore M (FileBased json)) {| dk_files := sh_files s; dk_faults := fs |} i = Err.
Proof.
  intros U X M json sk b1 b2 entry_of E1 E2 DN i. set (id := hex i). set (k1 := KUserSecret sk true). set (k2 := KUserSecret sk false).
  assert (K1 : key_entry M k1 = Some (id, entry_of true)) by reflexivity. assert (K2 : key_entry M k2 = Some (id, entry_of false)) by reflexivity.
  pose proof (reached_step (reached_start M json) (st_store (M := M) (json := json) _ K1 E1)) as R1. cbn [sh_files sh_calls] in R1.
  pose proof (reached_step R1 (st_store (M := M) (json := json) _ K2 E2)) as R2. cbn [sh_files sh_calls] in R2.
  set (d0 := fun _ : bytes => None : option bytes) in *. set (d1 := dput d0 id []).
  assert (R3 : reached M json {| sh_files := d1; sh_calls := [Store k2 id b2 WStart; Store k1 id b1 (WAt 0)] |})
    by exact (reached_step R2 (st_advance (M := M) (json := json) [Store k2 id b2 WStart] [] (adv_open M json d0 k1 id b1))).
  set (d2 := dput d1 id []).
  assert (R4 : reached M json {| sh_files := d2; sh_calls := [Store k2 id b2 (WAt 0); Store k1 id b1 (WAt 0)] |})
    by exact (reached_step R3 (st_advance (M := M) (json := json) [] [Store k1 id b1 (WAt 0)] (adv_open M json d1 k2 id b2))).
  assert (F2 : d2 id = Some []) by (unfold d2, dput; rewrite bytes_eqb_refl; reflexivity).
  destruct (@write_all U M json [] [Store k1 id b1 (WAt 0)] k2 id b2 [] d2 0) as (d3 & R5 & F3); [exact F2|lia|exact R4|].
  rewrite skipn_nil, app_nil_r in F3.
  destruct (@write_all U M json [Store k2 id b2 WDone] [] k1 id b1 b2 d3 0) as (d4 & R6 & F4); [exact F3|lia|exact R5|].
  exists {| sh_files := d4; sh_calls := [Store k2 id b2 WDone; Store k1 id b1 WDone] |}. split; [exact R6|]. split; [reflexivity|].
  intros fs. unfold GetKey. cbn [ks_get KVSStore]. unfold kvs_GetKey. cbn [kv_get FileBased]. unfold file_get. cbn [dk_files sh_files]. fold id. rewrite F4, DN. reflexivity.
Qed.

(** ** Examples *)
(** A codec with the properties of JSON: no byte of an encoding is zero, and there is an end mark. *)
Fixpoint nz (b : bytes) : bytes := match b with [] => [Byte.x03] | x :: r => (if byte_eqb x b0 then [Byte.x02; Byte.x01] else [Byte.x01; x]) ++ nz r end.
Fixpoint unnz (b : bytes) : option bytes :=
  match b with
  | [Byte.x03] => Some []
  | Byte.x01 :: Byte.x00 :: _ => None
  | Byte.x01 :: x :: r => option_map (cons x) (unnz r)
  | Byte.x02 :: Byte.x01 :: r => option_map (cons b0) (unnz r)
  | _ => None
  end.
Lemma unnz_nz b : unnz (nz b) = Some b.
Proof. induction b as [|x r IH]; [reflexivity|]. destruct x; cbn; rewrite IH; reflexivity. Qed.
Lemma unnz_damaged b : forall f, damaged (nz b) f -> f <> nz b -> unnz f = None.
Proof.
  induction b as [|x r IH]; intros f [L D] N.
  - destruct f as [|y [|]]; [reflexivity| |cbn in L; lia]. destruct (D 0 y eq_refl) as [->|Q]; [reflexivity|]. injection Q as <-. contradiction.
  - set (a1 := if byte_eqb x b0 then Byte.x02 else Byte.x01). set (a2 := if byte_eqb x b0 then Byte.x01 else x).
    assert (E : nz (x :: r) = a1 :: a2 :: nz r) by (cbn [nz]; unfold a1, a2; destruct (byte_eqb x b0); reflexivity). rewrite E in *.
    destruct f as [|y f]; [reflexivity|]. destruct (D 0 y eq_refl) as [->|Q]; [reflexivity|]. injection Q as <-.
    destruct f as [|z f]; [unfold a1; destruct (byte_eqb x b0); reflexivity|].
    assert (Z : z = b0 \/ z = a2) by (destruct (D 1 z eq_refl) as [->|Q]; [left; reflexivity|injection Q as <-; right; reflexivity]).
    destruct Z as [->| ->]; [unfold a1; destruct (byte_eqb x b0); reflexivity|].
    assert (IHf : unnz f = None).
    { apply IH; [|intros ->; apply N; reflexivity]. split; [cbn in L; lia|]. intros i c Q. exact (D (S (S i)) c Q). }
    unfold a1, a2. destruct x; cbn; rewrite IHf; reflexivity.
Qed.
(** the encoding of an entry that is not exportable is longer, as in JSON *)
Definition flag (e : entry) : bool :=
  match e_nym e, e_user e with Some n, _ => ne_exportable n | None, Some u => ue_exportable u | None, None => false end.
Definition njson : codec entry :=
  {| enc := fun e => Some (nz (ser s_entry e ++ (if flag e then [] else [Byte.x07])));
     dec := fun b => match unnz b with
                     | Some l => match par s_entry l with
                                 | Some (e, []) => if flag e then Some e else None
                                 | Some (e, [Byte.x07]) => if flag e then None else Some e
                                 | _ => None
                                 end
                     | None => None
                     end |}.
Lemma njson_ok : json_ok njson.
Proof.
  split; [|split; [reflexivity|]].
  - intros e. eexists. split; [reflexivity|]. cbn [dec njson]. rewrite unnz_nz, s_entry_ok. destruct (flag e); reflexivity.
  - intros e b f [= <-] N L D. cbn [dec njson]. erewrite unnz_damaged; [reflexivity|split; [exact L|exact D]|exact N].
Qed.

(** three overlapping calls *)
Example C75_example : json_ok njson /\ math_ok xM /\
  exists s, reached xM njson s /\ one_key_each xX xM s /\ stored s xuser /\ length (sh_calls s) = 3 /\
    (forall k id b w, In (Store k id b w) (sh_calls s) -> w = WDone) /\ In (Read (key_ski xX xM xuser) (RDone Err)) (sh_calls s).
Proof.
  split; [exact njson_ok|]. split; [exact xM_ok|].
  destruct (@C75_read_refuted xU xM njson xuser (key_ski xX xM xuser) _ njson_ok eq_refl) as (b & s1 & s & _ & _ & R & E).
  exists s. split; [exact R|]. unfold one_key_each, stored. rewrite E.
  split; [intros k1 k2 (id1 & b1 & w1 & I1) (id2 & b2 & w2 & I2) _; destruct I1 as [Q|[Q|[Q|[]]]]; try discriminate Q; injection Q as <- _ _ _;
          destruct I2 as [Q|[Q|[Q|[]]]]; try discriminate Q; injection Q as <- _ _ _; reflexivity|].
  split; [eexists; eexists; eexists; right; left; reflexivity|]. split; [reflexivity|].
  split; [intros k id b' w [Q|[Q|[Q|[]]]]; try discriminate Q; injection Q as _ _ _ <-; reflexivity|left; reflexivity].
Qed.
(** a GetKey of its own after the last StoreKey, with the bytes read one after the other *)
Lemma quiet_read U (X : scheme U) (M : mathops U) json i b l d s0 : d (hex i) = Some b ->
  (forall k id b w, In (Store k id b w) l -> w = WDone) -> quiet X M json i s0 {| sh_files := d; sh_calls := l |} ->
  quiet X M json i s0 {| sh_files := d; sh_calls := Read i (RDone (key_of_file M json i b)) :: l |}.
Proof.
  intros F D Q. assert (ST : forall r, settled X M i {| sh_files := d; sh_calls := Read i r :: l |}).
  { intros r k id b' w [E|I] _; [discriminate E|exact (D _ _ _ _ I)]. }
  assert (Q1 : quiet X M json i s0 {| sh_files := d; sh_calls := Read i (RAt []) :: l |}).
  { eapply quiet_step; [|exact (st_advance (M := M) (json := json) [] l (@adv_ropen _ M json d i b F))|apply ST].
    eapply quiet_step; [exact Q|exact (st_get M json {| sh_files := d; sh_calls := l |} i)|apply ST]. }
  assert (QA : forall n, n <= length b -> quiet X M json i s0 {| sh_files := d; sh_calls := Read i (RAt (firstn n b)) :: l |}).
  { induction n as [|n IH]; intro L; [exact Q1|]. assert (LF : length (firstn n b) = n) by (rewrite firstn_length; lia).
    destruct (nth_error b n) as [c|] eqn:E; [|apply nth_error_None in E; lia].
    assert (FE : firstn (S n) b = firstn n b ++ [c]).
    { clear - E. revert n E. induction b as [|y b IH]; intros [|n] E; try discriminate; cbn in *; [congruence|]. rewrite (IH n E). reflexivity. }
    rewrite FE. eapply quiet_step; [apply IH; lia|exact (st_advance (M := M) (json := json) [] l (@adv_read _ M json d i _ b c F (eq_trans (f_equal (nth_error b) LF) E)))|apply ST]. }
  specialize (QA (length b) (le_n _)). rewrite firstn_all in QA.
  eapply quiet_step; [exact QA|exact (st_advance (M := M) (json := json) [] l (@adv_eof _ M json d i b b F (le_n _)))|apply ST].
Qed.
Example C75_window_example : json_ok njson /\ math_ok xM /\
  exists s0 s, reached xM njson s0 /\ one_key_each xX xM s0 /\ stored s0 xuser /\ quiet xX xM njson (key_ski xX xM xuser) s0 s /\
    (forall r, ~ In (Read (key_ski xX xM xuser) r) (sh_calls s0)) /\ In (Read (key_ski xX xM xuser) (RDone (Ok xuser))) (sh_calls s).
Proof.
  split; [exact njson_ok|]. split; [exact xM_ok|].
  destruct (@C75_read_refuted xU xM njson xuser (key_ski xX xM xuser) _ njson_ok eq_refl) as (b & s1 & s & R & E & _).
  destruct s1 as [d l]. cbn [sh_calls] in E. subst l.
  set (i := key_ski xX xM xuser) in *. set (c := Store xuser (hex i) b WDone) in *.
  assert (I : In c (sh_calls {| sh_files := d; sh_calls := [c] |})) by (left; reflexivity).
  assert (D : forall k id b' w, In (Store k id b' w) [c] -> w = WDone) by (intros k id b' w [Q|[]]; injection Q as _ _ _ <-; reflexivity).
  assert (O : one_key_each xX xM {| sh_files := d; sh_calls := [c] |}).
  { intros k1 k2 (id1 & b1 & w1 & I1) (id2 & b2 & w2 & I2) _. cbn [sh_calls] in I1, I2. destruct I1 as [Q|[]]. injection Q as <- _ _ _. destruct I2 as [Q|[]]. injection Q as <- _ _ _. reflexivity. }
  assert (STD : stored {| sh_files := d; sh_calls := [c] |} xuser) by (exists (hex i), b, WDone; exact I).
  destruct (sh_files {| sh_files := d; sh_calls := [c] |} (hex i)) as [f|] eqn:F.
  - pose proof (@C75_stored_partial xU xX xM njson _ njson_ok xM_ok R O xuser i [] STD eq_refl (fun k' id b' w J _ => D k' id b' w J)) as G.
    assert (KF : key_of_file xM njson i f = Ok xuser).
    { rewrite <- G. unfold GetKey, key_of_file, kvs_GetKey. cbn [ks_get KVSStore]. unfold kvs_GetKey. cbn [kv_get FileBased]. unfold file_get. cbn [dk_files]. rewrite F, bytes_eqb_refl. reflexivity. }
    exists {| sh_files := d; sh_calls := [c] |}, {| sh_files := d; sh_calls := Read i (RDone (Ok xuser)) :: [c] |}.
    split; [exact R|]. split; [exact O|]. split; [exists (hex i), b, WDone; exact I|]. split; [|split; [intros r [Q|[]]; discriminate Q|left; reflexivity]].
    rewrite <- KF. apply quiet_read; [exact F|exact D|]. apply quiet_refl. intros k id b' w J _. exact (D _ _ _ _ J).
  - exfalso. pose proof (@C75_stored_partial xU xX xM njson _ njson_ok xM_ok R O xuser i [] STD eq_refl (fun k' id b' w J _ => D k' id b' w J)) as G.
    unfold GetKey in G. cbn [ks_get KVSStore] in G. unfold kvs_GetKey in G. cbn [kv_get FileBased] in G. unfold file_get in G. cbn [dk_files sh_files] in G, F. rewrite F in G. discriminate.
Qed.
Example C75_stored_example :
  let entry_of x := {| e_nym := None; e_user := Some {| ue_sk := m_zrBytes xM (tsk : u_zr xU); ue_exportable := x |} |} in
  match enc njson (entry_of true), enc njson (entry_of false) with
  | Some b1, Some b2 => dec njson (b1 ++ skipn (length b1) b2) = None
  | _, _ => False
  end.
Proof. vm_compute. reflexivity. Qed.

Print Assumptions C75_read_partial.
Print Assumptions C75_crash_partial.
Print Assumptions C75_stored_partial.
Print Assumptions C75_window.
Print Assumptions C75_read_refuted.
Print Assumptions C75_stored_refuted.
