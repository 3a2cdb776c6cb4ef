(** The verification equations of the aries signer. *)
From Verif Require Import Base Curve Algebra Spec Dlog Bridge BridgeFacts Bbs BbsSpec BbsFacts BbsProof BbsComplete Aries AriesSpec AriesIssue AriesNym.
From Coq Require Import Field Ring Sorting.Sorted.
Unset Strict Implicit.

(** ** Positions *)
Lemma count_out_S i n r : count_out i (S n) r = (if mem i r then 0 else 1) + count_out (S i) n r.
Proof. unfold count_out. cbn [seq filter]. destruct (mem i r); reflexivity. Qed.
Lemma count_in_S i n r : count_in i (S n) r = (if mem i r then 1 else 0) + count_in (S i) n r.
Proof. unfold count_in. cbn [seq filter]. destruct (mem i r); reflexivity. Qed.

Lemma unpick_nth A (l : list A) r : forall i j, j < length l -> ~ In (i + j) r ->
  nth_error (unpick i l r) (count_out i j r) = nth_error l j.
Proof.
  induction l as [|x l IH]; intros i j L N; [simpl in L; lia|]. cbn [unpick]. destruct j as [|j].
  - rewrite Nat.add_0_r in N. destruct (mem i r) eqn:M; [apply mem_in in M; contradiction|]. reflexivity.
  - rewrite count_out_S. cbn [length] in L. destruct (mem i r); cbn [Nat.add nth_error]; apply IH; try lia; rewrite Nat.add_succ_comm; exact N.
Qed.

Lemma unpick_in A (l : list A) r x : forall i, In x (unpick i l r) -> In x l.
Proof.
  induction l as [|y l IH]; intros i I; [exact I|]. cbn [unpick] in I. destruct (mem i r); [right; eapply IH, I|].
  destruct I as [->|I]; [left; reflexivity|right; eapply IH, I].
Qed.

Lemma unpick_nodup A (l : list A) r : forall i, NoDup l -> NoDup (unpick i l r).
Proof.
  induction l as [|y l IH]; intros i N; [constructor|]. inversion N; subst. cbn [unpick]. destruct (mem i r); [auto|].
  constructor; [|auto]. intro I. apply unpick_in in I. contradiction.
Qed.

Lemma unpick_cons0 A (x : A) l r : ~ In 0 r -> unpick 0 (x :: l) r = x :: unpick 1 l r.
Proof. intro N. cbn [unpick]. destruct (mem 0 r) eqn:M; [apply mem_in in M; contradiction|reflexivity]. Qed.

Lemma unpick_skip A (l : list A) r j : forall i, j < i -> unpick i l (j :: r) = unpick i l r.
Proof.
  induction l as [|y l IH]; intros i L; [reflexivity|]. cbn [unpick]. rewrite IH by lia. unfold mem. cbn [existsb].
  replace (i =? j) with false by lia. reflexivity.
Qed.
Lemma unpick_drop0 A (x : A) l r : unpick 0 (x :: l) (0 :: r) = unpick 1 l r.
Proof. cbn [unpick]. unfold mem at 1. cbn [existsb Nat.eqb orb]. apply unpick_skip. lia. Qed.
Lemma pick_skip A (l : list A) r j : forall i, j < i -> pick i l (j :: r) = pick i l r.
Proof.
  induction l as [|y l IH]; intros i L; [reflexivity|]. cbn [pick]. rewrite IH by lia. unfold mem. cbn [existsb].
  replace (i =? j) with false by lia. reflexivity.
Qed.
Lemma pick_cons0 A (x : A) l r : ~ In 0 r -> pick 0 (x :: l) r = pick 1 l r.
Proof. intro N. cbn [pick]. destruct (mem 0 r) eqn:M; [apply mem_in in M; contradiction|reflexivity]. Qed.

Lemma in_mdel m i j : In j (mdel m i) <-> In j m /\ j <> i.
Proof. unfold mdel. rewrite filter_In, negb_true_iff. split; intros [A B]; split; auto; lia. Qed.

(** disclosed positions of a list of attributes *)
Lemma revealed_in attrs : forall i j, In j (revealed_from i attrs) <-> exists k a, j = i + k /\ nth_error attrs k = Some a /\ is_hidden a = false.
Proof.
  induction attrs as [|a attrs IH]; intros i j; cbn [revealed_from].
  - split; [intros []|]. intros (k & a & _ & E & _). destruct k; discriminate.
  - destruct (is_hidden a) eqn:E.
    + rewrite IH. split; intros (k & b & -> & N & Hb).
      * exists (S k), b. repeat split; auto. lia.
      * destruct k as [|k]; [cbn in N; congruence|]. exists k, b. repeat split; auto. lia.
    + cbn [In]. rewrite IH. split.
      * intros [<-|(k & b & -> & N & Hb)]; [exists 0, a; repeat split; auto|exists (S k), b; repeat split; auto; lia].
      * intros (k & b & -> & N & Hb). destruct k as [|k]; [left; lia|]. right. exists k, b. repeat split; auto. lia.
Qed.

Lemma revealed_bounds attrs i j : In j (revealed_from i attrs) -> i <= j < i + length attrs.
Proof.
  intro I. apply revealed_in in I. destruct I as (k & a & -> & E & _). assert (k < length attrs) by (apply nth_error_Some; congruence). lia.
Qed.

Lemma revealed_increasing attrs : forall i, increasing (revealed_from i attrs).
Proof.
  induction attrs as [|a attrs IH]; intro i; [constructor|]. cbn [revealed_from]. destruct (is_hidden a); [apply IH|].
  constructor; [apply IH|]. apply Forall_forall. intros j I. apply revealed_bounds in I. lia.
Qed.

Lemma revealed_hidden attrs i a : nth_error attrs i = Some a -> at_type a = HiddenAttr -> forall k, ~ In (k + i) (revealed_from k attrs).
Proof.
  intros E Hd k I. apply revealed_in in I. destruct I as (j & b & Ej & Eb & Hb). assert (j = i) by lia. subst j.
  rewrite E in Eb. injection Eb as <-. unfold is_hidden in Hb. rewrite Hd in Hb. discriminate.
Qed.

Lemma increasing_count l : increasing l -> forall n, (forall i, In i l -> i < n) -> length l <= n.
Proof.
  intros I n B. rewrite <- (@count_in_increasing 0 n l I) by (intros j Hj; specialize (B j Hj); lia). pose proof (count_in_out 0 n l). lia.
Qed.

Section Verify.
  Context {C : Curve} (OK : CurveOk C).
  Variable HG : bytes -> G1 C.
  Variable H : hasher C.
  Let KO := ok_zr OK.
  Let GO1 := ok_g1 OK.
  Add Field Kf_arv : (sok_field KO).
  Notation zr := (zcar (Zr C)).
  Notation g1 := (gcar (G1 C)).
  Notation g2 := (gcar (G2 C)).
  Variable BS : bls_sizes C.
  Let S32 : scalar_size C = frCompressedSize := proj1 BS.

  (** ** The statement about the messages *)
  (** positions hidden from the second proof: the disclosed ones and, for smartcards, the secret *)
  Definition absent (sc : bool) (r : list nat) : list nat := if sc then 0 :: r else r.

  (** g1, the disclosed part and, for smartcards, the pseudonym *)
  Definition shown (sc : bool) (key : PublicKeyWithGenerators C) (r : list nat) (ms : list zr) (nym : g1) : g1 :=
    if sc then disclosed key r ms ⊕ nym else disclosed key r ms.

  Lemma hidden_bases_drop0 (h : g1) hs r : hidden_bases 0 (h :: hs) (0 :: r) = hidden_bases 1 hs r.
  Proof. rewrite !hidden_bases_unpick. apply unpick_drop0. Qed.

  Lemma smartcard_split_eq (hs : list g1) r ms hid dis : ~ In 0 r -> hs <> [] ->
    smartcard_split hs r ms = Ok (hid, dis) <-> exists h, split_bases 0 hs r ms 0 = Ok (h :: hid, dis) /\ hd_error hs = Some h.
  Proof.
    intros N NE. destruct hs as [|h hs]; [contradiction|]. cbn [smartcard_split split_bases hd_error].
    destruct (mem 0 r) eqn:M; [apply mem_in in M; contradiction|]. split.
    - intros ->. exists h. split; reflexivity.
    - intros [h' [E E']]. injection E' as <-. apply bind_ok in E. destruct E as [[a b] [E1 E2]]. injection E2 as <- <-. exact E1.
  Qed.

  Lemma smartcard_sum (dis : list (g1 * zr)) nym :
    disclosed_sum ((genG1 C, zr_of_Z C 1) :: dis ++ [(nym, zr_of_Z C 1)]) = disclosed_sum ((genG1 C, zr_of_Z C 1) :: dis) ⊕ nym.
  Proof.
    rewrite !(disclosed_sum_eq OK), !map_app. cbn [map fst snd]. rewrite (gdot_app GO1) by (rewrite !map_length; reflexivity).
    cbn [gdot]. rewrite (ok_of_Z_1 OK), (gok_mul_1 GO1). gnorm KO GO1; ring.
  Qed.

  Lemma smartcardVC2Verify_iff nym c (key : PublicKeyWithGenerators C) r ms p d : ~ In 0 r -> pg_h key <> [] ->
    smartcardVC2Verify nym c key r ms p d = Ok tt <->
    enough key r ms /\
    length (vc2_bases key (0 :: r) d) <= length (pf_resp p) /\
    gdot (vc2_bases key (0 :: r) d ++ [gopp (disclosed key r (map (@sm_fr C) ms) ⊕ nym)]) (pf_resp p ++ [c]) = pf_comm p.
  Proof.
    intros N NE. unfold smartcardVC2Verify, enough. split.
    - intro E. destruct (pg_count key + 2 <? length r) eqn:L; [discriminate|]. apply bind_ok in E. destruct E as [[hid dis] [E1 E]].
      apply (proj1 (@smartcard_split_eq _ _ _ _ _ N NE)) in E1. destruct E1 as [h [E1 E2]]. pose proof (split_disclosed OK E1) as SD.
      pose proof (split_bases_spec OK E1) as [Hh [Ci _]]. cbn [skipn] in Ci. rewrite smartcard_sum, SD in E. apply (proofG1Verify_inv OK) in E. destruct E as [L2 E].
      assert (Hd : hid = hidden_bases 0 (pg_h key) (0 :: r)).
      { destruct (pg_h key) as [|h' hs]; [contradiction|]. injection E2 as ->. rewrite hidden_bases_drop0. cbn [hidden_bases] in Hh.
        destruct (mem 0 r) eqn:M; [apply mem_in in M; contradiction|]. injection Hh as ->. reflexivity. }
      unfold vc2_bases. rewrite <- Hd. split; [split; [lia|exact Ci]|]. split; [exact L2|exact E].
    - intros [[L Ci] [L2 E]]. replace (pg_count key + 2 <? length r) with false by lia.
      destruct (split_bases_ok (hs := pg_h key) (revealed := r) (i := 0) (ms := ms) (ind := 0)) as (hid & dis & E1); [exact Ci|].
      pose proof (split_disclosed OK E1) as SD. pose proof (split_bases_spec OK E1) as [Hh _].
      destruct (pg_h key) as [|h hs] eqn:EK; [contradiction|]. cbn [hidden_bases] in Hh. destruct (mem 0 r) eqn:M; [apply mem_in in M; contradiction|].
      subst hid. rewrite (proj2 (@smartcard_split_eq (h :: hs) r ms (hidden_bases 1 hs r) dis N NE)) by (exists h; split; [exact E1|reflexivity]).
      cbn [bind]. rewrite smartcard_sum, SD. apply (proofG1Verify_ok OK).
      + unfold vc2_bases in L2. rewrite EK, hidden_bases_drop0 in L2. exact L2.
      + unfold vc2_bases in E. rewrite EK, hidden_bases_drop0 in E. exact E.
  Qed.

  Definition vc2_verifier (sc : bool) (nym : g1) : VC2Verifier C := if sc then smartcardVC2Verify nym else @defaultVC2Verify C.

  Lemma vc2_iff sc nym c (key : PublicKeyWithGenerators C) r ms p d : (sc = true -> ~ In 0 r) -> pg_h key <> [] ->
    vc2_verifier sc nym c key r ms p d = Ok tt <->
    enough key r ms /\
    length (vc2_bases key (absent sc r) d) <= length (pf_resp p) /\
    gdot (vc2_bases key (absent sc r) d ++ [gopp (shown sc key r (map (@sm_fr C) ms) nym)]) (pf_resp p ++ [c]) = pf_comm p.
  Proof.
    intros N NE. destruct sc; [apply smartcardVC2Verify_iff; auto|apply (defaultVC2Verify_iff OK)].
  Qed.

  (** ** The proofs about pseudonyms *)
  Lemma verify_attr_nym_iff pk n k (p : ProofG1 C) nym (vc2 : ProofG1 C) pos c : k <= n ->
    verify_attr_nym (ip_key (issuer_key HG pk n)) (Z.of_nat k) p nym vc2 pos c = Ok tt <->
    exists x j, nth_error (pf_resp p) 1 = Some x /\ pos = Z.of_nat j /\ nth_error (pf_resp vc2) j = Some x /\
      gdot [gen0 HG pk (n + 1); base_at HG pk n k; nym] (pf_resp p ++ [c]) = pf_comm p.
  Proof.
    intro L. unfold verify_attr_nym. cbn [issuer_key ip_key pg_h0 pg_h]. rewrite (base_lookup HG BS pk L). split.
    - intro E. apply bind_ok in E. destruct E as [x [E1 E]]. apply bind_ok in E. destruct E as [y [E2 E]].
      apply bind_ok in E. destruct E as [[] [E3 E]]. apply guard_ok, (sok_eqb KO) in E3. subst y. cbn [bind] in E.
      apply (proofG1Verify_inv OK) in E. apply nth_res_ok in E1. apply znth_ok in E2. destruct E2 as [j [-> E2]]. exists x, j. repeat split; auto. apply E.
    - intros (x & j & E1 & -> & E2 & E). rewrite (proj2 (nth_res_ok _ _ _) E1). cbn [bind]. rewrite (znth_at E2). cbn [bind].
      replace (zeqb x x) with true by (symmetry; apply (sok_eqb KO); reflexivity). cbn [guard bind]. apply (proofG1Verify_ok OK); [|exact E].
      assert (1 < length (pf_resp p)) by (apply nth_error_Some; congruence). cbn [length]. lia.
  Qed.

  (** ** Audit data *)
  Definition audit_fits (h0 h nym : g1) (d : option (AuditData C)) (raw : bytes) : Prop :=
    match d with
    | None => True
    | Some d => exists a r, au_attr d = Some a /\ au_rand d = Some r /\ opens h h0 nym a r /\ (forall x, au_nym d = Some x -> x = nym)
    end /\ (raw <> [] -> g1_of_bytes C raw = Some nym).

  Lemma check_meta_iff pk n k nym d raw : k <= n ->
    ar_check_meta (ip_key (issuer_key HG pk n)) (Z.of_nat k) nym d raw = Ok tt <-> audit_fits (gen0 HG pk (n + 1)) (base_at HG pk n k) nym d raw.
  Proof.
    intro L. unfold ar_check_meta, audit_fits, opens, gmul2. cbn [issuer_key ip_key pg_h0 pg_h]. rewrite (base_lookup HG BS pk L). cbn [bind]. split.
    - intro E. apply bind_ok in E. destruct E as [[] [E1 E2]]. split.
      + destruct d as [d|]; [|exact I]. apply bind_ok in E1. destruct E1 as [a [A1 E1]]. apply bind_ok in E1. destruct E1 as [r [A2 E1]].
        apply bind_ok in E1. destruct E1 as [[] [A3 E1]]. apply guard_ok, (gok_eqb GO1) in A3.
        destruct (au_attr d) as [a'|]; [|discriminate]. destruct (au_rand d) as [r'|]; [|discriminate]. injection A1 as ->. injection A2 as ->.
        exists a, r. repeat split; auto. intros x Ex. rewrite Ex in E1. apply guard_ok, (gok_eqb GO1) in E1. auto.
      + intro NE. destruct raw as [|x raw]; [contradiction|]. apply bind_ok in E2. destruct E2 as [y [E2 E3]]. apply guard_ok, (gok_eqb GO1) in E3. subst y.
        destruct (g1_of_bytes C (x :: raw)); [injection E2 as ->; reflexivity|discriminate].
    - intros [A B]. apply bind_ok. exists tt. split.
      + destruct d as [d|]; [|reflexivity]. destruct A as (a & r & -> & -> & E & N). cbn [deref bind]. rewrite <- E, (geqb_refl GO1). cbn [guard bind].
        destruct (au_nym d) as [x|]; [|reflexivity]. rewrite (N x eq_refl), (geqb_refl GO1). reflexivity.
      + destruct raw as [|x raw]; [reflexivity|]. rewrite B by discriminate. cbn [opt_err bind]. rewrite (geqb_refl GO1). reflexivity.
  Qed.

  (** ** The second half of Verify *)
  Variable c_sig : codec ASignature.

  Lemma second_iff pk n k ke kr (f : AVerFirst C) c rhIndex eidIndex v meta : k <= n -> ke <= n -> kr <= n ->
    past_sk eidIndex (Z.of_nat k) = Z.of_nat ke -> past_sk rhIndex (Z.of_nat k) = Z.of_nat kr ->
    vf_key f = ip_key (issuer_key HG pk n) ->
    arVerify_second f c rhIndex eidIndex (Z.of_nat k) v meta = Ok tt <->
    (forall p m, vf_eid f = Some p -> meta = Some m -> audit_fits (gen0 HG pk (n + 1)) (base_at HG pk n ke) (snd p) (md_eid_data m) (md_eid m)) /\
    (forall p m, vf_rh f = Some p -> meta = Some m -> audit_fits (gen0 HG pk (n + 1)) (base_at HG pk n kr) (snd p) (md_rh_data m) (md_rh m)) /\
    (forall p, vf_nymp f = Some p -> verify_attr_nym (vf_key f) (Z.of_nat k) p (vf_nym f) (sp_vc2 (vf_sp f)) (Z.of_nat (2 + k)) c = Ok tt) /\
    (forall p, vf_eid f = Some p -> verify_attr_nym (vf_key f) (Z.of_nat ke) (fst p) (snd p) (sp_vc2 (vf_sp f)) (as_eid_idx (vf_sig f)) c = Ok tt) /\
    (forall p, vf_rh f = Some p -> verify_attr_nym (vf_key f) (Z.of_nat kr) (fst p) (snd p) (sp_vc2 (vf_sp f)) (as_rh_idx (vf_sig f)) c = Ok tt) /\
    signatureProofVerify (vc2_verifier (ver_smartcard v) (vf_nym f)) (vf_sp f) c (vf_key f) (vf_revealed f) (vf_ms f) = Ok tt.
  Proof.
    intros L Le Lr Ee Er EK. unfold arVerify_second. rewrite Ee, Er, EK. change (if ver_smartcard v then _ else _) with (vc2_verifier (ver_smartcard v) (vf_nym f)).
    replace (2 + Z.of_nat k)%Z with (Z.of_nat (2 + k)) by lia. split.
    - intro E. apply bind_ok in E. destruct E as [[] [E1 E]]. apply bind_ok in E. destruct E as [[] [E2 E]]. apply bind_ok in E. destruct E as [[] [E3 E]].
      apply bind_ok in E. destruct E as [[] [E4 E]]. apply bind_ok in E. destruct E as [[] [E5 E]].
      split; [|split; [|split; [|split; [|split; [|exact E]]]]].
      + intros p m Ep Em. rewrite Ep, Em in E1. destruct p. apply check_meta_iff in E1; assumption.
      + intros p m Ep Em. rewrite Ep, Em in E2. destruct p. apply check_meta_iff in E2; assumption.
      + intros p Ep. rewrite Ep in E3. exact E3.
      + intros p Ep. rewrite Ep in E4. destruct p. exact E4.
      + intros p Ep. rewrite Ep in E5. destruct p. exact E5.
    - intros (E1 & E2 & E3 & E4 & E5 & E6). apply bind_ok; exists tt; split; [|apply bind_ok; exists tt; split; [|apply bind_ok; exists tt; split; [|apply bind_ok; exists tt; split; [|apply bind_ok; exists tt; split]]]].
      + destruct (vf_eid f) as [[p x]|], meta as [m|]; try reflexivity. apply check_meta_iff; [assumption|]. exact (E1 _ _ eq_refl eq_refl).
      + destruct (vf_rh f) as [[p x]|], meta as [m|]; try reflexivity. apply check_meta_iff; [assumption|]. exact (E2 _ _ eq_refl eq_refl).
      + destruct (vf_nymp f) as [p|]; [|reflexivity]. exact (E3 _ eq_refl).
      + destruct (vf_eid f) as [[p x]|]; [|reflexivity]. exact (E4 _ eq_refl).
      + destruct (vf_rh f) as [[p x]|]; [|reflexivity]. exact (E5 _ eq_refl).
      + exact E6.
  Qed.
End Verify.
