(** Lemmas about the file system and the programs of Idemixgen.v. *)
From Coq Require Import Lia.
From Verif Require Import Base Curve Dlog Bridge Csp Msp MspFacts Idemixgen GenSpec.
Unset Strict Implicit.

Lemma path_eqb_eq p q : path_eqb p q = true <-> p = q.
Proof.
  revert q. induction p as [|a p IH]; intros [|b q]; simpl; try (split; [discriminate|discriminate]); [tauto|].
  rewrite Bool.andb_true_iff, bytes_eqb_eq, IH. split; [intros [-> ->]; reflexivity|]. intros E. injection E as -> ->. split; reflexivity.
Qed.
Lemma path_eqb_refl p : path_eqb p p = true. Proof. apply path_eqb_eq. reflexivity. Qed.
Lemma path_eqb_neq p q : p <> q -> path_eqb p q = false.
Proof. intros N. destruct (path_eqb p q) eqn:E; [|reflexivity]. apply path_eqb_eq in E. contradiction. Qed.
Lemma prefix_app p q : prefix p (p ++ q) = true.
Proof. induction p as [|a p IH]; simpl; [reflexivity|]. rewrite bytes_eqb_refl. exact IH. Qed.
Lemma prefix_split p q : prefix p q = true -> exists r, q = p ++ r.
Proof.
  revert q. induction p as [|a p IH]; intros q E; [exists q; reflexivity|]. destruct q as [|b q]; [discriminate|].
  simpl in E. apply Bool.andb_true_iff in E. destruct E as [E1 E2]. apply bytes_eqb_eq in E1. subst.
  destruct (IH q E2) as [r ->]. exists r. reflexivity.
Qed.
Lemma prefix_firstn p q : prefix p q = true -> p = firstn (length p) q.
Proof. intros E. apply prefix_split in E. destruct E as [r ->]. rewrite firstn_app, Nat.sub_diag, firstn_all, firstn_O, app_nil_r. reflexivity. Qed.

Lemma fput_same f p n : fput f p n p = Some n. Proof. unfold fput. rewrite path_eqb_refl. reflexivity. Qed.
Lemma fput_other f p n q : q <> p -> fput f p n q = f q. Proof. intros N. unfold fput. rewrite (path_eqb_neq N). reflexivity. Qed.
Lemma fput_keeps f p n q : f p = None -> f q <> None -> fput f p n q = f q.
Proof. intros N Q. apply fput_other. intros ->. contradiction. Qed.

Lemma mkdirs_keeps f p n q : f q <> None -> mkdirs f p n q = f q.
Proof. unfold mkdirs. destruct (f q); [reflexivity|contradiction]. Qed.
Lemma mkdirs_other f p n q : prefix q p = false -> mkdirs f p n q = f q.
Proof. unfold mkdirs. intros ->. destruct (f q); reflexivity. Qed.

(** what is not there has nothing below *)
Lemma tree_none f p q : tree f -> f p = None -> f (p ++ q) = None.
Proof.
  intros [_ T] E. induction q as [|x q IH] using rev_ind; [rewrite app_nil_r; exact E|].
  rewrite app_assoc. destruct (f ((p ++ q) ++ [x])) eqn:F; [|reflexivity].
  rewrite T with (x := x) in IH; [discriminate|rewrite F; discriminate].
Qed.
Lemma preserved_refl f : preserved f f. Proof. intros q n E. exact E. Qed.
Lemma preserved_none f f' p : preserved f f' -> f' p = None -> f p = None.
Proof. intros P E. destruct (f p) eqn:F; [|reflexivity]. rewrite (P p n F) in E. discriminate. Qed.

(** ** Programs that change nothing that exists *)
Fixpoint safe (X : path -> Prop) (f : fs) (g : prog) : Prop :=
  match g with
  | Done _ => True
  | Stat p k => safe X f (k true) /\ (f p = None -> safe X f (k false))
  | MkdirAll p k => forall b, safe X f (k b)
  | WriteFile p _ k => (f p = None \/ X p) /\ forall b, safe X f (k b)
  | ReadFile p k => forall r, safe X f (k r)
  end.

Definition kept (X : path -> Prop) (f f' : fs) : Prop := forall q n, f q = Some n -> ~ X q -> f' q = Some n.

Lemma kept_none X f f' p : kept X f f' -> f' p = None -> ~ X p -> f p = None.
Proof. intros P E N. destruct (f p) eqn:F; [|reflexivity]. rewrite (P p n F N) in E. discriminate. Qed.

Lemma step_safe X f0 f g f' g' :
  (forall p k, g = Stat p k -> ~ X p) -> safe X f0 g -> kept X f0 f -> step false (f, g) (f', g') -> safe X f0 g' /\ kept X f0 f'.
Proof.
  intros XS S K ST. inversion ST; subst; simpl in S.
  - split; [|exact K]. destruct S as [S1 S2]. destruct (f' p) eqn:F; [exact S1|]. apply S2. eapply kept_none; eauto.
  - discriminate.
  - split; [apply S|]. intros q n E N. rewrite mkdirs_keeps; [apply K; assumption|]. rewrite (K q n E N). discriminate.
  - split; [apply S|exact K].
  - split; [apply S|]. intros q m E N. rewrite mkdirs_keeps; [apply K; assumption|]. rewrite (K q m E N). discriminate.
  - destruct S as [S1 S2]. split; [apply S2|]. intros q n E N. rewrite fput_other; [apply K; assumption|].
    intros ->. destruct S1 as [S1|S1]; [congruence|contradiction].
  - destruct S as [S1 S2]. split; [apply S2|]. intros q m E N. rewrite fput_other; [apply K; assumption|].
    intros ->. destruct S1 as [S1|S1]; [congruence|contradiction].
  - destruct S as [S1 S2]. split; [apply S2|exact K].
  - split; [apply S|exact K].
  - split; [apply S|exact K].
Qed.

(** the program never asks about [X] *)
Fixpoint stats_off (X : path -> Prop) (g : prog) : Prop :=
  match g with
  | Done _ => True
  | Stat p k => ~ X p /\ forall b, stats_off X (k b)
  | MkdirAll p k => forall b, stats_off X (k b)
  | WriteFile p _ k => forall b, stats_off X (k b)
  | ReadFile p k => forall r, stats_off X (k r)
  end.
Lemma step_stats_off X f g f' g' : stats_off X g -> step false (f, g) (f', g') -> stats_off X g'.
Proof. intros S ST. inversion ST; subst; simpl in S; first [apply S | discriminate | destruct S as [_ S]; apply S]. Qed.

Lemma steps_safe X f0 x y : steps false x y -> stats_off X (snd x) -> safe X f0 (snd x) -> kept X f0 (fst x) -> kept X f0 (fst y).
Proof.
  induction 1 as [x|[f g] [f' g'] z ST _ IH]; intros O S K; [exact K|]. cbn [fst snd] in *.
  destruct (step_safe (X := X) (f0 := f0) (f := f) (g := g) (f' := f') (g' := g')) as [S' K']; try assumption.
  - intros p k ->. apply O.
  - apply IH; try assumption. eapply step_stats_off; eauto.
Qed.

Lemma exec_steps f g : steps false (f, g) (fst (exec f g), Done (snd (exec f g))).
Proof.
  revert f. induction g as [ok|p k IH|p k IH|p b k IH|p k IH]; intros f; simpl.
  - apply steps_refl.
  - eapply steps_more; [apply s_stat|]. apply IH.
  - destruct (no_file_above f p (length p)) eqn:E; (eapply steps_more; [|apply IH]); [apply s_mkdir; exact E|apply s_mkdir_none].
  - destruct (writable f p) eqn:E; (eapply steps_more; [|apply IH]); [apply s_write; exact E|apply s_open_fail].
  - destruct (f p) as [[|b]|] eqn:E; (eapply steps_more; [|apply IH]); [apply s_read_fail|apply s_read; exact E|apply s_read_fail].
Qed.

(** ** Fault-free runs *)
Lemma parent_snoc (p : path) x : parent (p ++ [x]) = p. Proof. apply removelast_last. Qed.
Lemma writable_snoc f p x : f p = Some Dir -> f (p ++ [x]) <> Some Dir -> writable f (p ++ [x]) = true.
Proof.
  intros D N. unfold writable. rewrite parent_snoc, D. destruct (p ++ [x]) eqn:E; [destruct p; discriminate|]. rewrite <- E in *.
  destruct (f (p ++ [x])) as [[|c]|]; [contradiction|reflexivity|reflexivity].
Qed.
Lemma no_file_above_ok f p n : (forall i b, f (firstn i p) <> Some (File b)) -> no_file_above f p n = true.
Proof. intros N. apply forallb_forall. intros i _. specialize (N i). destruct (f (firstn i p)) as [[|b]|]; try reflexivity. exfalso. exact (N b eq_refl). Qed.
Lemma mkdirs_dir f p q : clear_way f p -> prefix q p = true -> mkdirs f p (length p) q = Some Dir.
Proof.
  intros N P. unfold mkdirs. rewrite P. assert (L : length q <=? length p = true).
  { apply Nat.leb_le. apply prefix_split in P. destruct P as [r ->]. rewrite app_length. lia. }
  rewrite L. simpl. pose proof (prefix_firstn P) as Q. specialize (N (length q)). rewrite <- Q in N.
  destruct (f q) as [[|b]|]; [reflexivity| exfalso; exact (N b eq_refl)|reflexivity].
Qed.
Lemma clear_way_snoc f p x : clear_way f p -> (forall b, f (p ++ [x]) <> Some (File b)) -> clear_way f (p ++ [x]).
Proof.
  intros N M i b. rewrite firstn_app. destruct (i - length p) eqn:E; [rewrite firstn_O, app_nil_r; apply N|].
  rewrite firstn_all2 by lia. simpl. rewrite firstn_nil. apply M.
Qed.
Lemma mkdirs_no_file f p n q b : f q <> Some (File b) -> mkdirs f p n q <> Some (File b).
Proof. unfold mkdirs. destruct (f q) as [[|c]|]; [discriminate| |]. { intros N E. apply N. exact E. } destruct (prefix q p && (length q <=? n)); discriminate. Qed.

Lemma path_eqb_app o p q : path_eqb (o ++ p) (o ++ q) = path_eqb p q.
Proof. induction o as [|a o IH]; simpl; [reflexivity|]. rewrite bytes_eqb_refl. exact IH. Qed.
Lemma path_eqb_app0 o q : path_eqb o (o ++ q) = path_eqb [] q.
Proof. rewrite <- (app_nil_r o) at 1. apply path_eqb_app. Qed.
Lemma prefix_app_app o p q : prefix (o ++ p) (o ++ q) = prefix p q.
Proof. induction o as [|a o IH]; simpl; [reflexivity|]. rewrite bytes_eqb_refl. exact IH. Qed.
Lemma prefix_app0 o q : prefix o (o ++ q) = true.
Proof. apply prefix_app. Qed.
Lemma prefix_long o p : p <> [] -> prefix (o ++ p) o = false.
Proof.
  intros N. destruct (prefix (o ++ p) o) eqn:E; [|reflexivity]. apply prefix_split in E. destruct E as [r E].
  apply (f_equal (@length _)) in E. rewrite !app_length in E. destruct p; [contradiction|]. simpl in E. lia.
Qed.

(** reading below [o] in a file system changed below [o] *)
Lemma fput_app f o p q n : fput f (o ++ p) n (o ++ q) = if path_eqb q p then Some n else f (o ++ q).
Proof. unfold fput. rewrite path_eqb_app. reflexivity. Qed.
Lemma mkdirs_app f o p q n :
  mkdirs f (o ++ p) n (o ++ q) = match f (o ++ q) with None => if prefix q p && (length (o ++ q) <=? n) then Some Dir else None | x => x end.
Proof. unfold mkdirs. rewrite prefix_app_app. reflexivity. Qed.
Lemma fput_app_neq f o p q n : path_eqb q p = false -> fput f (o ++ p) n (o ++ q) = f (o ++ q).
Proof. intros E. rewrite fput_app, E. reflexivity. Qed.
Lemma fput_app_eq f o p n : fput f (o ++ p) n (o ++ p) = Some n.
Proof. apply fput_same. Qed.
Lemma mkdirs_app_neq f o p q n : prefix q p = false -> mkdirs f (o ++ p) n (o ++ q) = f (o ++ q).
Proof. intros E. rewrite mkdirs_app, E. simpl. destruct (f (o ++ q)); reflexivity. Qed.
Ltac look := repeat first [ rewrite fput_app_eq | rewrite fput_app_neq by reflexivity | rewrite mkdirs_app_neq by reflexivity ].

Lemma exec_must_not_exist f p k : f p = None -> exec f (must_not_exist p k) = exec f k.
Proof. intros E. simpl. rewrite E. reflexivity. Qed.
Lemma exec_mkdir f p k : clear_way f p -> exec f (mkdir_all p k) = exec (mkdirs f p (length p)) k.
Proof. intros E. simpl. rewrite (no_file_above_ok (p := p) (length p) E). reflexivity. Qed.
Lemma exec_write f p b k : writable f p = true -> exec f (write_file p b k) = exec (fput f p (File b)) k.
Proof. intros E. simpl. rewrite E. reflexivity. Qed.
Lemma exec_read f p b k : f p = Some (File b) -> exec f (read_or_exit p k) = exec f (k b).
Proof. intros E. simpl. rewrite E. reflexivity. Qed.

Lemma writable_at2 f o a b : f (o ++ [a]) = Some Dir -> f (o ++ [a; b]) <> Some Dir -> writable f (o ++ [a; b]) = true.
Proof. change [a; b] with ([a] ++ [b]). rewrite app_assoc. apply writable_snoc. Qed.
Lemma clear_way_mkdirs f p n q : clear_way f q -> clear_way (mkdirs f p n) q.
Proof. intros N i b. apply mkdirs_no_file. apply N. Qed.
Lemma clear_way_put f o q n : q <> [] -> clear_way f o -> clear_way (fput f (o ++ q) n) o.
Proof.
  intros Q N i b. rewrite fput_other; [apply N|]. intros E. apply (f_equal (@length bytes)) in E.
  rewrite app_length, firstn_length in E. destruct q; [contradiction|]. cbn [length] in E. lia.
Qed.

(** the file system after ca-keygen *)
Definition after_keygen (f : fs) (o : path) (isk ipk rsk rpk : bytes) : fs :=
  let f := mkdirs f (o ++ [n_ca]) (length (o ++ [n_ca])) in
  let f := mkdirs f (o ++ [n_msp]) (length (o ++ [n_msp])) in
  let f := fput f (o ++ [n_ca; n_isk]) (File isk) in
  let f := fput f (o ++ [n_ca; n_revkey]) (File rsk) in
  let f := fput f (o ++ [n_ca; n_ipk]) (File ipk) in
  let f := fput f (o ++ [n_msp; n_revpk]) (File rpk) in
  fput f (o ++ [n_msp; n_ipk]) (File ipk).

Lemma none_two f o a b : tree f -> f (o ++ [a]) = None -> f (o ++ [a; b]) = None.
Proof. intros T E. change [a; b] with ([a] ++ [b]). rewrite app_assoc. apply tree_none; assumption. Qed.

Lemma exec_keygen resolve out isk ipk rsk rpk f :
  tree f -> clear_way f (resolve out) -> f (resolve out ++ [n_ca]) = None -> f (resolve out ++ [n_msp]) = None ->
  exec f (ca_keygen resolve out (Ok (isk, ipk)) (Some (rsk, rpk))) = (after_keygen f (resolve out) isk ipk rsk rpk, true).
Proof.
  intros T W NC NM. unfold ca_keygen, at2. set (o := resolve out) in *.
  assert (Wc : clear_way f (o ++ [n_ca])) by (apply clear_way_snoc; [exact W|intros b; rewrite NC; discriminate]).
  assert (Wm : clear_way f (o ++ [n_msp])) by (apply clear_way_snoc; [exact W|intros b; rewrite NM; discriminate]).
  rewrite exec_must_not_exist by exact NC. rewrite exec_must_not_exist by exact NM.
  rewrite exec_mkdir by exact Wc.
  rewrite exec_mkdir by (apply clear_way_mkdirs; exact Wm).
  unfold after_keygen.
  set (f1 := mkdirs f (o ++ [n_ca]) (length (o ++ [n_ca]))). set (f2 := mkdirs f1 (o ++ [n_msp]) (length (o ++ [n_msp]))).
  assert (Dc : f2 (o ++ [n_ca]) = Some Dir).
  { unfold f2. rewrite mkdirs_app_neq by reflexivity. apply mkdirs_dir; [exact Wc|]. rewrite prefix_app_app. reflexivity. }
  assert (Dm : f2 (o ++ [n_msp]) = Some Dir).
  { apply mkdirs_dir; [apply clear_way_mkdirs; exact Wm|]. rewrite prefix_app_app. reflexivity. }
  assert (Nc : forall b, f2 (o ++ [n_ca; b]) = None).
  { intros b. unfold f2, f1. rewrite !mkdirs_app. rewrite (none_two b T NC).
    change (prefix [n_ca; b] [n_msp]) with false. replace (prefix [n_ca; b] [n_ca]) with false; [reflexivity|]. simpl. reflexivity. }
  assert (Nm : forall b, f2 (o ++ [n_msp; b]) = None).
  { intros b. unfold f2, f1. rewrite !mkdirs_app. rewrite (none_two b T NM).
    change (prefix [n_msp; b] [n_ca]) with false. replace (prefix [n_msp; b] [n_msp]) with false; [reflexivity|]. simpl. reflexivity. }
  clearbody f2. clear f1.
  repeat (rewrite exec_write; [|apply writable_at2; look; [first [exact Dc|exact Dm]|rewrite ?Nc, ?Nm; discriminate]]).
  reflexivity.
Qed.

Lemma after_keygen_reads f o isk ipk rsk rpk :
  let f1 := after_keygen f o isk ipk rsk rpk in
  f1 (o ++ [n_ca; n_isk]) = Some (File isk) /\ f1 (o ++ [n_ca; n_ipk]) = Some (File ipk) /\ f1 (o ++ [n_ca; n_revkey]) = Some (File rsk) /\
  f1 (o ++ [n_msp; n_revpk]) = Some (File rpk) /\ f1 (o ++ [n_msp; n_ipk]) = Some (File ipk).
Proof. cbn zeta. unfold after_keygen. repeat split; look; reflexivity. Qed.

Lemma after_keygen_user f o isk ipk rsk rpk q : after_keygen f o isk ipk rsk rpk (o ++ n_user :: q) = f (o ++ n_user :: q).
Proof. unfold after_keygen. look. reflexivity. Qed.
Lemma after_keygen_clear f o isk ipk rsk rpk : clear_way f o -> clear_way (after_keygen f o isk ipk rsk rpk) o.
Proof. intros W. unfold after_keygen. repeat (apply clear_way_put; [discriminate|]). repeat apply clear_way_mkdirs. exact W. Qed.

(** signerconfig in the directory of the CA *)
Definition after_signer (f : fs) (o : path) (cfg : bytes) : fs :=
  fput (mkdirs f (o ++ [n_user]) (length (o ++ [n_user]))) (o ++ [n_user; n_signer]) (File cfg).

Lemma exec_signerconfig resolve sk (parse : bytes -> option sk) gen fl f isk ipk rsk rpk k cfg :
  let o := resolve (fl_output fl) in
  fl_cainput fl = [] \/ fl_cainput fl = fl_output fl ->
  clear_way f o -> f (o ++ [n_user]) = None -> f (o ++ [n_user; n_signer]) = None ->
  f (o ++ [n_ca; n_isk]) = Some (File isk) -> f (o ++ [n_ca; n_ipk]) = Some (File ipk) -> f (o ++ [n_ca; n_revkey]) = Some (File rsk) ->
  f (o ++ [n_msp; n_revpk]) = Some (File rpk) -> parse rsk = Some k ->
  gen (GetRoleMaskFromIdemixRole (if fl_admin fl then ADMIN else MEMBER)) isk ipk k = Ok cfg ->
  exec f (signerconfig resolve parse gen fl) = (after_signer f o cfg, true).
Proof.
  intros o CI W NU NS R1 R2 R3 R4 P G.
  assert (CA : (if bytes_eqb (fl_cainput fl) [] then fl_output fl else fl_cainput fl) = fl_output fl).
  { destruct (bytes_eqb (fl_cainput fl) []) eqn:E; [reflexivity|]. destruct CI as [X|X]; [rewrite X in E; discriminate|exact X]. }
  unfold signerconfig, at2. rewrite CA. fold o. cbv zeta.
  rewrite (exec_read _ R1), (exec_read _ R2), (exec_read _ R3), P, (exec_read _ R4), G.
  assert (Wu : clear_way f (o ++ [n_user])) by (apply clear_way_snoc; [exact W|intros b; rewrite NU; discriminate]).
  rewrite exec_must_not_exist by exact NU. rewrite exec_mkdir by exact Wu. rewrite exec_write.
  - rewrite bytes_eqb_refl. reflexivity.
  - apply writable_at2.
    + apply mkdirs_dir; [exact Wu|]. rewrite prefix_app_app. reflexivity.
    + rewrite mkdirs_app_neq by reflexivity. rewrite NS. discriminate.
Qed.
Lemma after_signer_reads f o cfg :
  after_signer f o cfg (o ++ [n_user; n_signer]) = Some (File cfg) /\
  forall b, after_signer f o cfg (o ++ [n_msp; b]) = f (o ++ [n_msp; b]).
Proof. unfold after_signer. split; [look; reflexivity|]. intros b. look. reflexivity. Qed.

(** runs that succeed *)
Lemma exec_read_inv f p k f' : exec f (read_or_exit p k) = (f', true) -> exists b, f p = Some (File b) /\ exec f (k b) = (f', true).
Proof. simpl. destruct (f p) as [[|b]|]; simpl; intros E; [discriminate E| |discriminate E]. exists b. split; [reflexivity|exact E]. Qed.
Lemma exec_not_exist_inv f p k f' : exec f (must_not_exist p k) = (f', true) -> f p = None /\ exec f k = (f', true).
Proof. simpl. destruct (f p) as [n|]; simpl; intros E; [discriminate E|]. split; [reflexivity|exact E]. Qed.
Lemma exec_mkdir_inv f p k f' : exec f (mkdir_all p k) = (f', true) -> exec (mkdirs f p (length p)) k = (f', true).
Proof. simpl. destruct (no_file_above f p (length p)); simpl; intros E; [exact E|discriminate E]. Qed.
Lemma exec_write_inv f p b k f' : exec f (write_file p b k) = (f', true) -> exec (fput f p (File b)) k = (f', true).
Proof. simpl. destruct (writable f p); simpl; intros E; [exact E|discriminate E]. Qed.
