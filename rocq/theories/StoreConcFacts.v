(** Facts about concurrent use of the file-based key store. *)
From Verif Require Import Base Curve Bbs Aries Dlog Bridge Csp CspSpec CspFacts StoreConc.
Unset Strict Implicit.

Lemma write_at_nth f n c i :
  nth_error (write_at f n c) i = if i =? n then Some c else if i <? length f then nth_error f i else if i <? n then Some b0 else None.
Proof.
  unfold write_at. set (g := f ++ repeat b0 (n - length f)).
  assert (Lg : n <= length g) by (unfold g; rewrite app_length, repeat_length; lia).
  assert (L1 : length (firstn n g) = n) by (rewrite firstn_length; lia).
  destruct (Nat.eqb_spec i n) as [->|N].
  - rewrite nth_error_app2 by lia. rewrite L1, Nat.sub_diag. reflexivity.
  - destruct (Nat.lt_ge_cases i n) as [Q|Q].
    + rewrite nth_error_app1 by lia. assert (E : nth_error (firstn n g) i = nth_error g i).
      { rewrite <- (firstn_skipn n g) at 2. rewrite nth_error_app1 by lia. reflexivity. }
      rewrite E. unfold g. destruct (Nat.ltb_spec i (length f)) as [R|R].
      * apply nth_error_app1. exact R.
      * rewrite nth_error_app2 by lia. destruct (Nat.ltb_spec i n) as [_|]; [|lia].
        rewrite nth_error_repeat by lia. reflexivity.
    + rewrite nth_error_app2 by lia. rewrite L1. destruct (i - n) as [|j] eqn:Ej; [lia|]. cbn [nth_error].
      destruct (Nat.ltb_spec i (length f)) as [R|R].
      * rewrite <- (firstn_skipn (S n) f) at 2. rewrite nth_error_app2; rewrite firstn_length; [|lia]. f_equal. lia.
      * destruct (Nat.ltb_spec i n) as [|_]; [lia|]. apply nth_error_None. rewrite skipn_length. lia.
Qed.
Lemma write_at_length f n c : length (write_at f n c) = Nat.max (length f) (S n).
Proof.
  unfold write_at. rewrite app_length, firstn_length, app_length, repeat_length. cbn [length]. rewrite skipn_length. lia.
Qed.

(** [f] is not longer than [b], and its bytes are those of [b] or zeros *)
Definition damaged (b f : bytes) : Prop := length f <= length b /\ forall i c, nth_error f i = Some c -> c = b0 \/ nth_error b i = Some c.
Lemma nth_eq (b f : bytes) : (forall i, i < length b -> nth_error f i = nth_error b i) -> length f <= length b -> f = b.
Proof.
  revert f. induction b as [|x b IH]; intros f E L.
  - destruct f; [reflexivity|cbn in L; lia].
  - destruct f as [|y f]; [specialize (E 0 ltac:(cbn; lia)); discriminate E|].
    pose proof (E 0 ltac:(cbn; lia)) as E0. injection E0 as ->. f_equal. apply IH; [|cbn in L; lia].
    intros i Li. exact (E (S i) ltac:(cbn; lia)).
Qed.

Section Facts.
  Variable U : universe.
  Variable M : mathops U.
  Variable json : codec entry.
  Hypothesis RT : forall e, round_trips json e.
  Hypothesis MO : math_ok M.
  (** a damaged encoding is refused *)
  Hypothesis DM : forall e b f, enc json e = Some b -> damaged b f -> f <> b -> dec json f = None.

  Notation call := (call U).
  Notation key_of_file := (key_of_file M json).

  Lemma key_of_file_ok k id e b ski : key_entry M k = Some (id, e) -> enc json e = Some b -> id = hex ski -> key_of_file ski b = Ok k.
  Proof.
    intros K E ->. unfold StoreConc.key_of_file, kvs_GetKey. cbn [kv_get FileBased file_get dk_files]. unfold file_get. cbn [dk_files]. rewrite bytes_eqb_refl.
    destruct (RT e) as (b' & E' & D). rewrite E in E'. injection E' as <-. rewrite D. cbn [opt_err bind].
    destruct k; try discriminate K; injection K as _ <-; cbn [e_nym e_user ne_pk ne_ski ne_sk ne_exportable ue_sk ue_exportable];
      rewrite ?(mo_g1 MO); cbn [bind]; rewrite (mo_zr MO); reflexivity.
  Qed.
  Lemma key_of_file_bad ski f : dec json f = None -> key_of_file ski f = Err.
  Proof.
    intros D. unfold StoreConc.key_of_file, kvs_GetKey. cbn [kv_get FileBased]. unfold file_get. cbn [dk_files]. rewrite bytes_eqb_refl, D. reflexivity.
  Qed.

  Definition off (w : writer) (b : bytes) : nat := match w with WAt n => n | WDone => length b | _ => 0 end.
  Definition covers (calls : list call) (id f : bytes) : Prop :=
    exists k b w, In (Store k id b w) calls /\ damaged b f /\ forall i, i < off w b -> nth_error f i = nth_error b i.
  Definition call_ok (d : dir) (calls : list call) (c : call) : Prop :=
    match c with
    | Store k id b w => (exists e, key_entry M k = Some (id, e) /\ enc json e = Some b) /\
        match w with WAt n => n <= length b /\ d id <> None | WDone => d id <> None | _ => True end
    | Read ski RStart | Read ski RFailed => True
    | Read ski (RAt buf) => exists k b w, In (Store k (hex ski) b w) calls /\ damaged b buf
    | Read ski (RDone r) => r = Err \/ exists k b w, In (Store k (hex ski) b w) calls /\ r = Ok k
    end.
  Definition inv (s : shared U) : Prop :=
    (forall id f, sh_files s id = Some f -> covers (sh_calls s) id f) /\
    (forall c, In c (sh_calls s) -> call_ok (sh_files s) (sh_calls s) c).
  (** calls for the same file write the same content *)
  Definition agree (s : shared U) : Prop :=
    forall k1 k2 id b1 b2 w1 w2, In (Store k1 id b1 w1) (sh_calls s) -> In (Store k2 id b2 w2) (sh_calls s) -> b1 = b2.

  Definition stores_in (l l' : list call) : Prop := forall k id b w, In (Store k id b w) l -> exists w', In (Store k id b w') l'.
  Lemma advance_call d c d' c' : advance M json d c d' c' ->
    forall k id b w, c = Store k id b w -> exists w', c' = Store k id b w'.
  Proof.
    intros A. destruct A; intros k0 id0 b1 w0 E; try discriminate E; injection E as -> -> -> E; eexists; reflexivity.
  Qed.
  Lemma advance_stores l1 l2 d c d' c' : advance M json d c d' c' -> stores_in (l1 ++ c :: l2) (l1 ++ c' :: l2).
  Proof.
    intros A k id b w I. apply in_app_or in I. destruct I as [I|[->|I]].
    - exists w. apply in_or_app. left. exact I.
    - destruct (advance_call A eq_refl) as [w' ->]. exists w'. apply in_or_app. right. left. reflexivity.
    - exists w. apply in_or_app. right. right. exact I.
  Qed.
  Lemma step_agree s s' : sstep M json s s' -> agree s' -> agree s.
  Proof.
    intros S A k1 k2 id b1 b2 w1 w2 I1 I2.
    assert (P : stores_in (sh_calls s) (sh_calls s')).
    { destruct S; cbn [sh_calls]; [intros ? ? ? w I; exists w; right; exact I|intros ? ? ? w I; exists w; right; exact I|]. eapply advance_stores; exact H. }
    destruct (P _ _ _ _ I1) as [w1' J1]. destruct (P _ _ _ _ I2) as [w2' J2]. exact (A _ _ _ _ _ _ _ J1 J2).
  Qed.

  Lemma call_ok_mono d d' l l' c : (forall id, d id <> None -> d' id <> None) -> stores_in l l' -> call_ok d l c -> call_ok d' l' c.
  Proof.
    intros D S. destruct c as [k id b w|ski [|buf|r|]]; cbn [call_ok]; [| | | |auto].
    - intros [E W]. split; [exact E|]. destruct w as [|n| |]; auto. destruct W as [W1 W2]. auto.
    - auto.
    - intros (k & b & w & I & Q). destruct (S _ _ _ _ I) as [w' I']. exists k, b, w'. split; assumption.
    - intros [E|(k & b & w & I & Q)]; [left; exact E|right]. destruct (S _ _ _ _ I) as [w' I']. exists k, b, w'. split; assumption.
  Qed.

  Lemma dput_same d id f : dput d id f id = Some f.
  Proof. unfold dput. rewrite bytes_eqb_refl. reflexivity. Qed.
  Lemma dput_other d id f id' : id' <> id -> dput d id f id' = d id'.
  Proof. intros N. unfold dput. destruct (bytes_eqb_spec id' id); [contradiction|reflexivity]. Qed.
  Lemma dput_mono d id f id' : d id' <> None -> dput d id f id' <> None.
  Proof. intros N. unfold dput. destruct (bytes_eqb id' id); [discriminate|exact N]. Qed.

  (** a witness other than the advancing call stays, for the advancing one the new state must do *)
  Lemma covers_keep l1 l2 c c' id f : covers (l1 ++ c :: l2) id f ->
    (forall k b w, c = Store k id b w -> damaged b f -> (forall i, i < off w b -> nth_error f i = nth_error b i) -> covers (l1 ++ c' :: l2) id f) ->
    covers (l1 ++ c' :: l2) id f.
  Proof.
    intros (k & b & w & I & D & P) K. apply in_app_or in I. destruct I as [I|[->|I]]; [|exact (K _ _ _ eq_refl D P)|];
      (exists k, b, w; split; [apply in_or_app; auto using in_cons|split; assumption]).
  Qed.

  Lemma in_mid (l1 l2 : list call) c : In c (l1 ++ c :: l2).
  Proof. apply in_or_app. right. left. reflexivity. Qed.

  Lemma inv_step s s' : sstep M json s s' -> agree s' -> inv s -> inv s'.
  Proof.
    intros S AG [FI CI]. pose proof (step_agree S AG) as AG0. destruct S as [s k id e b K E|s ski|d l1 c l2 d' c' A].
    - split; cbn [sh_files sh_calls] in *.
      + intros id' f F. destruct (FI _ _ F) as (k' & b' & w & I & Q). exists k', b', w. split; [right; exact I|exact Q].
      + assert (SI : stores_in (sh_calls s) (Store k id b WStart :: sh_calls s)) by (intros ? ? ? w I; exists w; right; exact I).
        intros c [<-|I]; [split; [exists e; split; assumption|exact Logic.I]|]. exact (call_ok_mono (fun _ x => x) SI (CI _ I)).
    - split; cbn [sh_files sh_calls] in *.
      + intros id' f F. destruct (FI _ _ F) as (k' & b' & w & I & Q). exists k', b', w. split; [right; exact I|exact Q].
      + assert (SI : stores_in (sh_calls s) (Read ski RStart :: sh_calls s)) by (intros ? ? ? w I; exists w; right; exact I).
        intros c [<-|I]; [exact Logic.I|]. exact (call_ok_mono (fun _ x => x) SI (CI _ I)).
    - cbn [sh_files sh_calls] in *. pose proof (@advance_stores l1 l2 d c d' c' A) as SI.
      pose proof (CI _ (in_mid l1 l2 c)) as Cc.
      (* the other calls stay correct *)
      assert (REST : (forall id, d id <> None -> d' id <> None) -> call_ok d' (l1 ++ c' :: l2) c' -> forall x, In x (l1 ++ c' :: l2) -> call_ok d' (l1 ++ c' :: l2) x).
      { intros DM' Cc' x I. apply in_app_or in I. destruct I as [I|[<-|I]]; [|exact Cc'|];
          (apply (call_ok_mono DM' SI), CI, in_or_app; auto using in_cons). }
      unfold agree in AG0. cbn [sh_calls] in AG0.
      destruct A as [d k id b|d k id b n x f Hn Hf|d k id b|d k id b w Hw|d ski f Hf|d ski Hf|d ski buf f x Hf Hn|d ski buf f Hf L|d ski r Hr].
      + (* open *) split; cbn [sh_files sh_calls].
        * intros id' f' F. destruct (bytes_eqb_spec id' id) as [->|N].
          -- rewrite dput_same in F. injection F as <-. exists k, b, (WAt 0). split; [apply in_mid|]. split; [split; [cbn; lia|intros i y Q; destruct i; discriminate Q]|cbn; intros i Q; lia].
          -- rewrite (dput_other _ _ N) in F. apply (covers_keep (FI _ _ F)). intros k0 b1 w0 Q. injection Q as _ Q _ _. congruence.
        * apply REST; [intros i; apply dput_mono|]. destruct Cc as [E0 _]. split; [exact E0|]. split; [lia|]. rewrite dput_same. discriminate.
      + (* write *) destruct Cc as [E0 [Ln Dn]].
        assert (Lx : n < length b) by (apply nth_error_Some; rewrite Hn; discriminate).
        split; cbn [sh_files sh_calls].
        * intros id' f' F. destruct (bytes_eqb_spec id' id) as [->|N].
          -- rewrite dput_same in F. injection F as <-. destruct (FI _ _ Hf) as (k0 & b1 & w0 & I0 & D0 & P0).
             pose proof (AG0 _ _ _ _ _ _ _ I0 (in_mid l1 l2 (Store k id b (WAt n)))) as ->.
             assert (D1 : damaged b (write_at f n x)).
             { split; [rewrite write_at_length; destruct D0; lia|]. intros i y. rewrite write_at_nth. destruct (Nat.eqb_spec i n) as [->|]; [intros [= <-]; right; exact Hn|].
               destruct (i <? length f); [apply D0|]. destruct (i <? n); [intros [= <-]; left; reflexivity|discriminate]. }
             assert (KEEP : forall i, i < length b -> nth_error f i = nth_error b i -> nth_error (write_at f n x) i = nth_error b i).
             { intros i Li Q. rewrite write_at_nth. destruct (Nat.eqb_spec i n) as [->|]; [symmetry; exact Hn|].
               destruct (Nat.ltb_spec i (length f)) as [|R]; [exact Q|]. apply nth_error_None in R. rewrite R in Q. symmetry in Q. apply nth_error_None in Q. lia. }
             assert (B : off w0 b <= length b).
             { destruct (CI _ I0) as [_ W]. destruct w0; cbn [off]; try lia. }
             apply in_app_or in I0. destruct I0 as [I0|[I0|I0]].
             ++ exists k0, b, w0. split; [apply in_or_app; left; exact I0|]. split; [exact D1|]. intros i Q. apply KEEP; [lia|exact (P0 _ Q)].
             ++ injection I0 as <- <-. exists k, b, (WAt (S n)). split; [apply in_mid|]. split; [exact D1|]. cbn [off] in *. intros i Q.
                destruct (Nat.eq_dec i n) as [->|]; [rewrite write_at_nth, Nat.eqb_refl; symmetry; exact Hn|]. apply KEEP; [lia|]. apply P0. lia.
             ++ exists k0, b, w0. split; [apply in_or_app; right; right; exact I0|]. split; [exact D1|]. intros i Q. apply KEEP; [lia|exact (P0 _ Q)].
          -- rewrite (dput_other _ _ N) in F. apply (covers_keep (FI _ _ F)). intros k0 b1 w0 Q. injection Q as _ Q _ _. congruence.
        * apply REST; [intros i; apply dput_mono|]. split; [exact E0|]. split; [lia|]. rewrite dput_same. discriminate.
      + (* close *) destruct Cc as [E0 [_ Dn]]. split; cbn [sh_files sh_calls].
        * intros id' f' F. apply (covers_keep (FI _ _ F)). intros k0 b1 w0 Q D0 P0. injection Q as -> -> -> <-.
          exists k0, b1, WDone. split; [apply in_mid|]. split; assumption.
        * apply REST; [auto|]. split; assumption.
      + (* fail *) destruct Cc as [E0 _]. split; cbn [sh_files sh_calls].
        * intros id' f' F. apply (covers_keep (FI _ _ F)). intros k0 b1 w0 Q D0 P0. injection Q as -> -> -> <-.
          exists k0, b1, WFailed. split; [apply in_mid|]. split; [exact D0|]. cbn [off]. intros i Li. lia.
        * apply REST; [auto|]. split; [exact E0|exact Logic.I].
      + (* open for reading *) split; cbn [sh_files sh_calls].
        * intros id' f' F. apply (covers_keep (FI _ _ F)). intros k0 b1 w0 Q. discriminate Q.
        * apply REST; [auto|]. destruct (FI _ _ Hf) as (k0 & b1 & w0 & I0 & _). destruct (SI _ _ _ _ I0) as [w' I']. exists k0, b1, w'. split; [exact I'|].
          split; [cbn; lia|]. intros i y Q. destruct i; discriminate Q.
      + split; cbn [sh_files sh_calls].
        * intros id' f' F. apply (covers_keep (FI _ _ F)). intros k0 b1 w0 Q. discriminate Q.
        * apply REST; [auto|]. left. reflexivity.
      + (* read *) split; cbn [sh_files sh_calls].
        * intros id' f' F. apply (covers_keep (FI _ _ F)). intros k0 b1 w0 Q. discriminate Q.
        * apply REST; [auto|]. destruct Cc as (k0 & b1 & w0 & I0 & D0). destruct (FI _ _ Hf) as (k2 & b2 & w2 & I2 & D2 & _).
          pose proof (AG0 _ _ _ _ _ _ _ I0 I2) as <-. destruct (SI _ _ _ _ I0) as [w' I']. exists k0, b1, w'. split; [exact I'|].
          assert (Q : length buf < length f) by (apply nth_error_Some; rewrite Hn; discriminate).
          split; [rewrite app_length; cbn; destruct D2; lia|]. intros i y. destruct (Nat.lt_ge_cases i (length buf)) as [R|R].
          -- rewrite nth_error_app1 by exact R. apply D0.
          -- rewrite nth_error_app2 by exact R. destruct (i - length buf) as [|j] eqn:Ej; [|destruct j; discriminate].
             intros [= <-]. replace i with (length buf) by lia. apply D2. exact Hn.
      + (* end of file *) split; cbn [sh_files sh_calls].
        * intros id' f' F. apply (covers_keep (FI _ _ F)). intros k0 b1 w0 Q. discriminate Q.
        * apply REST; [auto|]. destruct Cc as (k0 & b1 & w0 & I0 & D0). destruct (CI _ I0) as [(e0 & K0 & Eb) _].
          destruct (list_eq_dec byte_eq_dec buf b1) as [->|N].
          -- right. destruct (SI _ _ _ _ I0) as [w' I']. exists k0, b1, w'. split; [exact I'|]. exact (key_of_file_ok K0 Eb eq_refl).
          -- left. apply key_of_file_bad. exact (DM Eb D0 N).
      + (* failed read *) split; cbn [sh_files sh_calls].
        * intros id' f' F. apply (covers_keep (FI _ _ F)). intros k0 b1 w0 Q. discriminate Q.
        * apply REST; [auto|]. exact Logic.I.
  Qed.

  Lemma reached_inv s : reached M json s -> agree s -> inv s.
  Proof.
    induction 1 as [|s s' R IH S]; intro AG.
    - split; [intros id f F; discriminate F|intros c []].
    - exact (inv_step S AG (IH (step_agree S AG))).
  Qed.
End Facts.

Section Schedules.
  Variable U : universe.
  Variable M : mathops U.
  Variable json : codec entry.

  (** the calls of a history are those of kvsbased.go *)
  Lemma reached_entry s : reached M json s -> forall k id b w, In (Store k id b w) (sh_calls s) -> exists e, key_entry M k = Some (id, e) /\ enc json e = Some b.
  Proof.
    induction 1 as [|s s' R IH S]; [intros ? ? ? ? []|]. intros k id b w.
    destruct S as [s k0 id0 e0 b1 K E|s ski|d l1 c l2 d' c' A]; cbn [sh_calls] in *.
    - intros [Q|I]; [injection Q as <- <- <- <-; exists e0; split; assumption|exact (IH _ _ _ _ I)].
    - intros [Q|I]; [discriminate Q|exact (IH _ _ _ _ I)].
    - intros I. assert (J : exists w', In (Store k id b w') (l1 ++ c :: l2)).
      { apply in_app_or in I. destruct I as [I|[Q|I]].
        - exists w. apply in_or_app. left. exact I.
        - destruct A; try discriminate Q; injection Q as -> -> -> _; eexists; apply in_or_app; right; left; reflexivity.
        - exists w. apply in_or_app. right. right. exact I. }
      destruct J as [w' J]. exact (IH _ _ _ _ J).
  Qed.

  Lemma overlay_step (b f : bytes) n c : nth_error b n = Some c -> write_at (firstn n b ++ skipn n f) n c = firstn (S n) b ++ skipn (S n) f.
  Proof.
    intros Hn. assert (L : n < length b) by (apply nth_error_Some; rewrite Hn; discriminate).
    assert (L1 : length (firstn n b) = n) by (rewrite firstn_length; lia).
    assert (E : firstn (S n) b = firstn n b ++ [c]).
    { apply nth_error_split in Hn. destruct Hn as (u & v & -> & Lu). rewrite firstn_app, Lu. rewrite (firstn_all2 u) by lia. replace (S n - n) with 1 by lia. cbn [firstn].
      rewrite firstn_app, Lu, Nat.sub_diag, (firstn_all2 u) by lia. cbn [firstn]. rewrite app_nil_r. reflexivity. }
    rewrite E. clear E.
    unfold write_at. rewrite <- app_assoc. rewrite firstn_app, L1, Nat.sub_diag, firstn_all2 by lia. cbn [firstn]. rewrite app_nil_r.
    rewrite skipn_app, L1. rewrite (skipn_all2 (firstn n b)) by lia. replace (S n - n) with 1 by lia. cbn [app].
    rewrite <- app_assoc. cbn [app]. f_equal. f_equal. clear. revert f. induction n as [|n IH]; intros f; [destruct f; reflexivity|]. destruct f as [|y f]; [reflexivity|]. exact (IH f).
  Qed.
  (** a writer that has opened its file runs to its end *)
  Lemma write_all l1 l2 k id b f : forall d n, d id = Some (firstn n b ++ skipn n f) -> n <= length b ->
    reached M json {| sh_files := d; sh_calls := l1 ++ Store k id b (WAt n) :: l2 |} ->
    exists d', reached M json {| sh_files := d'; sh_calls := l1 ++ Store k id b WDone :: l2 |} /\ d' id = Some (b ++ skipn (length b) f).
  Proof.
    intros d n. remember (length b - n) as j eqn:Ej. revert d n Ej. induction j as [|j IH]; intros d n Ej D L R.
    - assert (n = length b) by lia. subst n. exists d. split; [|rewrite firstn_all in D; exact D].
      exact (reached_step R (st_advance (M := M) (json := json) l1 l2 (adv_close M json d k id b))).
    - destruct (nth_error b n) as [c|] eqn:Hn; [|apply nth_error_None in Hn; lia].
      apply (IH (dput d id (write_at (firstn n b ++ skipn n f) n c)) (S n)); [lia| |lia|].
      + unfold dput. rewrite bytes_eqb_refl. rewrite (overlay_step f Hn). reflexivity.
      + exact (reached_step R (st_advance (M := M) (json := json) l1 l2 (@adv_write _ M json d k id b n c _ Hn D))).
  Qed.
End Schedules.
