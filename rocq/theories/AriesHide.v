(** aries: perfect unlinkability of presentations. *)
From Verif Require Import Base Curve Algebra Spec Dlog Bridge BridgeFacts Bbs BbsSpec BbsFacts BbsProof BbsComplete Aries AriesSpec AriesIssue AriesNym AriesVerify AriesSign.
From Coq Require Import Field Ring.
Unset Strict Implicit.

Section Hide.
  Context {C : Curve} (OK : CurveOk C).
  Variable HG : bytes -> G1 C.
  Variable H : hasher C.
  Let KO := ok_zr OK.
  Let GO1 := ok_g1 OK.
  Let GOT := ok_gt OK.
  Add Field Kf_arh : (sok_field KO).
  Notation zr := (zcar (Zr C)).
  Notation g1 := (gcar (G1 C)).
  Notation g2 := (gcar (G2 C)).
  Local Open Scope zr_scope.
  Variable BS : bls_sizes C.

  Variables (pk : g2) (n : nat) (attributes : list attribute) (st : SignatureType).
  Variables (eid rh : nat) (msg : bytes) (cri : ACRI).
  Notation h0 := (gen0 HG pk (n + 1)).
  Notation hs := (gens HG pk (n + 1)).
  Notation base i := (base_at HG pk n i).
  Hypothesis HR : h0 <> gzero.
  Hypothesis Le : (eid < n)%nat.
  Hypothesis Lr : (rh < n)%nat.
  Hypothesis He : has_eid st = true -> exists a, nth_error attributes eid = Some a /\ at_type a = HiddenAttr.
  Hypothesis Hr : hides_rh st = true -> exists a, nth_error attributes rh = Some a /\ at_type a = HiddenAttr.

  Record User := { u_A : g1; u_e : zr; u_s : zr; u_sk : zr; u_vals : list zr }.
  Record UserOk (u : User) : Prop := {
    uo_len : length (u_vals u) = n;
    uo_agr : Forall2 (attr_agrees H) attributes (u_vals u);
    uo_valid : bbs_signature pk h0 hs (u_A u) (u_e u) (u_s u) (u_sk u :: u_vals u);
    uo_nz : u_A u <> gzero
  }.
  Definition Draws : Type := zr * ASigRand C.
  Definition b_ (u : User) : g1 := bbs_base h0 hs (u_s u) (u_sk u :: u_vals u).
  Definition at_ (u : User) (i : nat) : zr := nth i (u_sk u :: u_vals u) z0.
  Definition A'_ (u : User) (x : Draws) : g1 := h_A' (u_A u) (snd x).
  Definition d_ (u : User) (x : Draws) : g1 := h_d HG pk n (u_s u) (u_sk u) (u_vals u) (snd x).
  Definition Abar_ (u : User) (x : Draws) : g1 := h_Abar HG pk n (u_A u) (u_e u) (u_s u) (u_sk u) (u_vals u) (snd x).
  Definition Nym_ (u : User) (x : Draws) : g1 := h_Nym HG pk n (u_sk u) (fst x).
  Definition sec1_ (u : User) (x : Draws) : list zr := h_sec1 (u_e u) (snd x).
  Definition sec2_ (u : User) (x : Draws) : list zr := h_sec2 (u_s u) (u_sk u) (u_vals u) (fst x) attributes st (snd x).
  Definition bases2_ (u : User) (x : Draws) : list g1 := h_bases2 HG pk n (u_s u) (u_sk u) (u_vals u) attributes st (snd x).
  Definition bl2_ (u : User) (x : Draws) : list zr := h_bl2 HG pk n (u_s u) (u_sk u) (u_vals u) attributes st (snd x).
  Definition c_ (u : User) (x : Draws) : zr :=
    h_c HG H pk n (u_A u) (u_e u) (u_s u) (u_sk u) (u_vals u) (fst x) attributes st (snd x) eid rh (S eid) (S rh) msg None.
  Definition data_ (u : User) (x : Draws) : bytes :=
    h_data HG H pk n (u_A u) (u_e u) (u_s u) (u_sk u) (u_vals u) (fst x) attributes st (snd x) eid rh (S eid) (S rh) msg None.
  Definition sig_ (u : User) (x : Draws) : ASignature :=
    h_sig HG H pk n (u_A u) (u_e u) (u_s u) (u_sk u) (u_vals u) (fst x) attributes st (snd x) eid rh (S eid) (S rh) msg cri None.
  Definition r1_ (x : Draws) : zr := pr_r1 (rn_pok (snd x)).

  (** the constants relating two users *)
  Record Link (u v : User) (k d dn de dr : zr) : Prop := {
    l_k : k <> z0;
    l_A : u_A u = u_A v ⊗ k;
    l_B : b_ v ⊗ k ⊖ b_ u = h0 ⊗ d;
    l_nym : base 0 ⊗ (u_sk u - u_sk v) = h0 ⊗ dn;
    l_eid : base (S eid) ⊗ (at_ u (S eid) - at_ v (S eid)) = h0 ⊗ de;
    l_rh : base (S rh) ⊗ (at_ u (S rh) - at_ v (S rh)) = h0 ⊗ dr
  }.

  Definition moved (k d dn de dr : zr) (x : Draws) : Draws :=
    let R := snd x in
    (fst x + dn,
     {| rn_pok := {| pr_r1 := pr_r1 (rn_pok R) * k; pr_r2 := pr_r2 (rn_pok R) + pr_r1 (rn_pok R) * d;
                     pr_bl1 := pr_bl1 (rn_pok R); pr_bl2 := pr_bl2 (rn_pok R) |};
        rn_nym := rn_nym R; rn_eid := {| ra_r := ra_r (rn_eid R) + de; ra_bl := ra_bl (rn_eid R) |};
        rn_rh := {| ra_r := ra_r (rn_rh R) + dr; ra_bl := ra_bl (rn_rh R) |}; rn_nonce := rn_nonce R |}).

  Definition shiftc (c : zr) (u v : User) (k d dn de dr : zr) (x : Draws) : Draws :=
    let R := snd x in
    let y := moved k d dn de dr x in
    (fst y,
     {| rn_pok := {| pr_r1 := pr_r1 (rn_pok (snd y)); pr_r2 := pr_r2 (rn_pok (snd y));
                     pr_bl1 := fun j => pr_bl1 (rn_pok R) j + c * (nth j (sec1_ v y) z0 - nth j (sec1_ u x) z0);
                     pr_bl2 := fun j => pr_bl2 (rn_pok R) j + c * (nth j (sec2_ v y) z0 - nth j (sec2_ u x) z0) |};
        rn_nym := rn_nym R + c * dn;
        rn_eid := {| ra_r := ra_r (rn_eid R) + de; ra_bl := ra_bl (rn_eid R) + c * de |};
        rn_rh := {| ra_r := ra_r (rn_rh R) + dr; ra_bl := ra_bl (rn_rh R) + c * dr |}; rn_nonce := rn_nonce R |}).
  Definition shift (u v : User) (k d dn de dr : zr) (x : Draws) : Draws := shiftc (c_ u x) u v k d dn de dr x.

  Lemma glin (X Y L R : g1) k : L = R -> X ⊖ Y = (L ⊖ R) ⊗ k -> X = Y.
  Proof. intros -> E. apply (gsub_zero KO GO1). rewrite E, (gsub_diag KO GO1). apply (gmul_zero GO1). Qed.

  (** ** Answers that are the same for both *)
  Lemma resp_moved c : forall bl bl' su sv : list zr, length bl' = length bl -> length su = length bl -> length sv = length bl ->
    (forall j, (j < length bl)%nat -> nth j bl' z0 = nth j bl z0 + c * (nth j sv z0 - nth j su z0)) -> resp c bl' sv = resp c bl su.
  Proof.
    unfold resp. induction bl as [|b bl IH]; intros [|b' bl'] [|x su] [|y sv] L1 L2 L3 E; cbn [length] in *; try lia; [reflexivity|].
    cbn [combine map fst snd]. f_equal.
    - specialize (E 0%nat ltac:(lia)). cbn [nth] in E. rewrite E. ring.
    - apply IH; try lia. intros j Lj. apply (E (S j)). lia.
  Qed.

  Lemma answered_moved c (bases : list g1) bl bl' su sv : length bl = length bases -> length bl' = length bl -> length su = length bl -> length sv = length bl ->
    gdot bases sv = gdot bases su ->
    (forall j, (j < length bl)%nat -> nth j bl' z0 = nth j bl z0 + c * (nth j sv z0 - nth j su z0)) ->
    answered bases bl' sv c = answered bases bl su c.
  Proof.
    intros L0 L1 L2 L3 G E. unfold answered. pose proof (resp_moved L1 L2 L3 E) as Q. rewrite Q. f_equal.
    pose proof (gdot_resp OK c (ps := bases) (bl := bl) (xs := su) ltac:(lia) ltac:(lia)) as X.
    pose proof (gdot_resp OK c (ps := bases) (bl := bl') (xs := sv) ltac:(lia) ltac:(lia)) as Y. rewrite Q, G, X in Y.
    eapply glin with (k := - z1); [exact Y|]. gnorm KO GO1; ring.
  Qed.

  (** ** The points that are the same for both *)
  Section Two.
    Variables (u v : User) (k d dn de dr : zr) (x : Draws).
    Hypothesis U : UserOk u.
    Hypothesis V : UserOk v.
    Hypothesis L : Link u v k d dn de dr.
    Hypothesis NZ : r1_ x <> z0.
    Let y := shift u v k d dn de dr x.
    Let c := c_ u x.

    Lemma r1_ne : r1_ y <> z0.
    Proof.
      unfold r1_, y. cbn [shift shiftc moved snd rn_pok pr_r1]. intro E. apply NZ. unfold r1_.
      assert (X : pr_r1 (rn_pok (snd x)) = pr_r1 (rn_pok (snd x)) * k * zinv k) by (field; exact (l_k L)). rewrite X, E. ring.
    Qed.

    Lemma EA' : A'_ v y = A'_ u x.
    Proof. unfold A'_, h_A', h_r1, y. cbn [shift shiftc moved snd rn_pok pr_r1]. rewrite (l_A L). gnorm KO GO1; ring. Qed.

    Lemma Ed : d_ v y = d_ u x.
    Proof.
      unfold d_, h_d, h_r1, h_r2, y. cbn [shift shiftc moved snd rn_pok pr_r1 pr_r2]. fold (b_ u) (b_ v). unfold h_b. fold (b_ u) (b_ v).
      eapply glin with (k := pr_r1 (rn_pok (snd x))); [exact (l_B L)|]. gnorm KO GO1; ring.
    Qed.

    Lemma abar_of w z : UserOk w -> pair C (genG2 C) (Abar_ w z) = pair C pk (A'_ w z).
    Proof.
      intro W. pose proof (uo_valid W) as BV. unfold bbs_signature in BV. rewrite (ok_pair_add_l OK), (ok_pair_mul_l OK) in BV.
      unfold Abar_, A'_, h_Abar, h_A', h_b. rewrite (pair_sub_r OK), !(ok_pair_mul_r OK), <- BV. gnorm KO GOT; ring.
    Qed.

    Lemma EAbar : Abar_ v y = Abar_ u x.
    Proof. apply (pair_inj_r OK (Q := genG2 C)); [exact (ok_gen2 OK)|]. rewrite !abar_of by assumption. rewrite EA'. reflexivity. Qed.

    Lemma ENym : Nym_ v y = Nym_ u x.
    Proof.
      unfold Nym_, h_Nym, y. cbn [shift shiftc moved fst]. eapply glin with (k := - z1); [exact (l_nym L)|]. gnorm KO GO1; ring.
    Qed.

    Lemma Ebases2 : bases2_ v y = bases2_ u x.
    Proof. unfold bases2_, h_bases2. fold (d_ v y) (d_ u x). rewrite Ed. reflexivity. Qed.

    Lemma sec1_shift : sec1_ v y = sec1_ v (moved k d dn de dr x).
    Proof. reflexivity. Qed.
    Lemma sec2_shift : sec2_ v y = sec2_ v (moved k d dn de dr x).
    Proof. reflexivity. Qed.

    Lemma ans1 : answered [A'_ v y; h0] (h_bl1 (snd y)) (sec1_ v y) c = answered [A'_ u x; h0] (h_bl1 (snd x)) (sec1_ u x) c.
    Proof.
      rewrite EA'. apply answered_moved; try reflexivity.
      - rewrite <- EA' at 1. unfold sec1_, h_sec1. cbn [gdot].
        pose proof EAbar as E1. pose proof Ed as E2. pose proof EA' as E3. unfold Abar_, h_Abar in E1. unfold d_, h_d in E2. fold (A'_ v y) (A'_ u x) in E1.
        assert (E : forall w z, (A'_ w z ⊗ - u_e w) ⊕ (h0 ⊗ h_r2 (snd z)) = Abar_ w z ⊖ d_ w z).
        { intros w z. unfold Abar_, d_, h_Abar, h_d. fold (A'_ w z). gnorm KO GO1; ring. }
        pose proof (E v y) as X. pose proof (E u x) as Y. rewrite EAbar, Ed, <- Y in X.
        eapply glin with (k := z1); [exact X|]. gnorm KO GO1; ring.
      - intros j Lj. cbn [h_bl1 length] in Lj. destruct j as [|[|j]]; [reflexivity|reflexivity|lia].
    Qed.

    Lemma len_sec2 w z : UserOk w -> length (sec2_ w z) = length (bases2_ w z).
    Proof. intro W. apply len2; [exact BS|exact (uo_len W)]. Qed.
    Lemma len_bl2 w z : length (bl2_ w z) = length (bases2_ w z).
    Proof. apply lenb2. Qed.

    Lemma same_statement : gdot (bases2_ u x) (sec2_ v y) = gdot (bases2_ u x) (sec2_ u x).
    Proof.
      destruct (verifier_messages HG BS (u_sk u) (uo_len U) (uo_agr U)) as (ms & E1 & P1 & _).
      destruct (verifier_messages HG BS (u_sk v) (uo_len V) (uo_agr V)) as (ms' & E2 & P2 & _).
      rewrite E1 in E2. injection E2 as <-.
      pose proof (@statement2 C OK HG BS pk n (u_A u) (u_e u) (u_s u) (u_sk u) (u_vals u) (fst x) attributes st (snd x) (uo_len U) (uo_valid U) NZ ms P1) as X.
      pose proof (@statement2 C OK HG BS pk n (u_A v) (u_e v) (u_s v) (u_sk v) (u_vals v) (fst y) attributes st (snd y) (uo_len V) (uo_valid V) r1_ne ms P2) as Y.
      fold (sec2_ u x) (bases2_ u x) (Nym_ u x) in X. fold (sec2_ v y) (bases2_ v y) (Nym_ v y) in Y. rewrite Ebases2, ENym in Y. congruence.
    Qed.

    Lemma ans2 : answered (bases2_ v y) (bl2_ v y) (sec2_ v y) c = answered (bases2_ u x) (bl2_ u x) (sec2_ u x) c.
    Proof.
      rewrite Ebases2. apply answered_moved.
      - apply len_bl2.
      - rewrite !len_bl2, Ebases2. reflexivity.
      - rewrite len_bl2. apply len_sec2, U.
      - rewrite len_bl2, len_sec2 by exact V. rewrite Ebases2. reflexivity.
      - exact same_statement.
      - rewrite len_bl2. intros j Lj. unfold bl2_, h_bl2. fold (bases2_ v y) (bases2_ u x). rewrite Ebases2.
        assert (N : forall (f : nat -> zr) m, (j < m)%nat -> nth j (map f (seq 0 m)) z0 = f j) by (intros f m Lm; apply nth_error_nth, nth_blind, Lm).
        rewrite !N by exact Lj. reflexivity.
    Qed.

    (** the commitment to message [i] with randomness shifted by [dx] *)
    Lemma comm_shift i r dx : base i ⊗ (at_ u i - at_ v i) = h0 ⊗ dx -> (h0 ⊗ (r + dx)) ⊕ (base i ⊗ at_ v i) = (h0 ⊗ r) ⊕ (base i ⊗ at_ u i).
    Proof. intro E. eapply glin with (k := - z1); [exact E|]. gnorm KO GO1; ring. Qed.

    Lemma ans_nym i r rbl dx : (i <= n)%nat -> ~ In i (h_rr attributes st) -> base i ⊗ (at_ u i - at_ v i) = h0 ⊗ dx ->
      answered (h_nbases HG pk n i) (h_nbl attributes st (snd y) i (rbl + c * dx)) (h_nsec (u_sk v) (u_vals v) i (r + dx)) c
      = answered (h_nbases HG pk n i) (h_nbl attributes st (snd x) i rbl) (h_nsec (u_sk u) (u_vals u) i r) c.
    Proof.
      intros Li Ni E. apply answered_moved; try reflexivity.
      - unfold h_nbases, h_nsec. cbn [gdot]. fold (at_ u i) (at_ v i). eapply glin with (k := - z1); [exact E|]. gnorm KO GO1; ring.
      - intros j Lj. cbn [h_nbl length] in Lj. destruct j as [|[|j]]; [| |lia].
        + cbn [h_nbl h_nsec nth]. ring.
        + cbn [h_nbl h_nsec nth]. fold (at_ u i) (at_ v i). unfold y at 1. cbn [shift shiftc snd rn_pok pr_bl2]. fold c.
          assert (X : forall w z, UserOk w -> nth (h_pos attributes st i) (sec2_ w z) z0 = at_ w i).
          { intros w z W. apply nth_error_nth. apply (sec2_at BS (n := n)); [exact (uo_len W)|exact Li|exact Ni]. }
          rewrite !X by assumption. reflexivity.
    Qed.

    Lemma not0 : is_smartcard st = false -> ~ In 0%nat (h_rr attributes st).
    Proof. intro E. unfold h_rr. rewrite E. exact (rv_0 BS (uo_len U)). Qed.
    Lemma noteid : has_eid st = true -> ~ In (S eid) (h_rr attributes st).
    Proof. intro E. destruct (He E) as (a & E1 & E2). exact (hidden_rr E1 E2). Qed.
    Lemma notrh : has_rh st = true -> ~ In (S rh) (h_rr attributes st).
    Proof. intro E. destruct Hr as (a & E1 & E2); [destruct st; try discriminate; reflexivity|]. exact (hidden_rr E1 E2). Qed.

    Lemma Epok : pokBytes (h_pok HG pk n (u_A v) (u_e v) (u_s v) (u_sk v) (u_vals v) (fst y) attributes st (snd y))
               = pokBytes (h_pok HG pk n (u_A u) (u_e u) (u_s u) (u_sk u) (u_vals u) (fst x) attributes st (snd x)).
    Proof.
      unfold pokBytes, committedBytes, h_pok. cbn [ps_abar ps_vc1 ps_vc2 committed pc_bases pc_comm].
      fold (Abar_ v y) (Abar_ u x) (bases2_ v y) (bases2_ u x) (bl2_ v y) (bl2_ u x). unfold h_bases1. fold (A'_ v y) (A'_ u x).
      pose proof (f_equal (@pf_comm C) ans1) as Q1. pose proof (f_equal (@pf_comm C) ans2) as Q2. cbn [answered pf_comm] in Q1, Q2.
      rewrite Q1, Q2, EAbar, EA', Ebases2. reflexivity.
    Qed.

    Lemma comm_nym i dx (r : zr) : (i <= n)%nat -> ~ In i (h_rr attributes st) -> base i ⊗ (at_ u i - at_ v i) = h0 ⊗ dx -> forall rbl,
      gdot (h_nbases HG pk n i) (h_nbl attributes st (snd y) i (rbl + c * dx)) = gdot (h_nbases HG pk n i) (h_nbl attributes st (snd x) i rbl).
    Proof. intros Li Ni E rbl. exact (f_equal (@pf_comm C) (ans_nym r rbl Li Ni E)). Qed.

    Lemma Edata : data_ v y = data_ u x.
    Proof.
      assert (Q1 : has_eid st = true -> gdot (h_nbases HG pk n (S eid)) (h_nbl attributes st (snd y) (S eid) (ra_bl (rn_eid (snd y)))) = gdot (h_nbases HG pk n (S eid)) (h_nbl attributes st (snd x) (S eid) (ra_bl (rn_eid (snd x)))))
        by (intro E; exact (comm_nym z0 Le (noteid E) (l_eid L) (ra_bl (rn_eid (snd x))))).
      assert (Q2 : has_rh st = true -> gdot (h_nbases HG pk n (S rh)) (h_nbl attributes st (snd y) (S rh) (ra_bl (rn_rh (snd y)))) = gdot (h_nbases HG pk n (S rh)) (h_nbl attributes st (snd x) (S rh) (ra_bl (rn_rh (snd x)))))
        by (intro E; exact (comm_nym z0 Lr (notrh E) (l_rh L) (ra_bl (rn_rh (snd x))))).
      pose proof (comm_shift (ra_r (rn_eid (snd x))) (l_eid L)) as Q3. pose proof (comm_shift (ra_r (rn_rh (snd x))) (l_rh L)) as Q4.
      unfold data_, h_data. rewrite Epok. fold (Nym_ v y) (Nym_ u x). rewrite ENym. do 3 f_equal. f_equal.
      { destruct (is_smartcard st) eqn:SC; [reflexivity|]. f_equal. exact (comm_nym z0 (Nat.le_0_l n) (not0 SC) (l_nym L) (rn_nym (snd x))). }
      f_equal; [|f_equal].
      - unfold h_cb. destruct (has_eid st) eqn:E; [|reflexivity]. unfold h_eid, h_comm, h_re, chosen_rand. cbn [cm_comm cm_proof committed pc_comm md_eid_audit].
        fold (at_ v (S eid)) (at_ u (S eid)). f_equal; f_equal.
        + exact Q3.
        + exact (Q1 eq_refl).
      - unfold h_cb. destruct (has_rh st) eqn:E; [|reflexivity]. unfold h_rh, h_comm, h_rrh, chosen_rand. cbn [cm_comm cm_proof committed pc_comm md_rh_audit].
        fold (at_ v (S rh)) (at_ u (S rh)). f_equal; f_equal.
        + exact Q4.
        + exact (Q2 eq_refl).
    Qed.

    Lemma Ec : c_ v y = c.
    Proof. unfold c, c_, h_c. fold (data_ v y) (data_ u x). rewrite Edata. reflexivity. Qed.

    Lemma Esig : sig_ v y = sig_ u x.
    Proof.
      pose proof (comm_shift (ra_r (rn_eid (snd x))) (l_eid L)) as Q3. pose proof (comm_shift (ra_r (rn_rh (snd x))) (l_rh L)) as Q4.
      unfold sig_, h_sig. fold (c_ v y) (c_ u x). fold (Nym_ v y) (Nym_ u x). rewrite ENym.
      assert (P1 : h_proof HG pk n (u_A v) (u_e v) (u_s v) (u_sk v) (u_vals v) (fst y) attributes st (snd y) (c_ v y)
                   = h_proof HG pk n (u_A u) (u_e u) (u_s u) (u_sk u) (u_vals u) (fst x) attributes st (snd x) (c_ u x)).
      { unfold h_proof. rewrite Ec. pose proof ans1 as Q1. pose proof ans2 as Q2. pose proof EAbar as Q6. pose proof EA' as Q7. pose proof Ed as Q8. 
        unfold sec1_, sec2_, bases2_, bl2_ in Q1, Q2. unfold h_bases1. unfold A'_ in *. unfold Abar_ in Q6. unfold d_ in Q8. fold c. rewrite Q1, Q2, Q6, Q7, Q8. reflexivity. }
      rewrite P1. unfold h_nymp, h_eidp, h_rhp, h_nproof. fold (c_ v y) (c_ u x). rewrite Ec. fold c.
      assert (N0 : is_smartcard st = false -> answered (h_nbases HG pk n 0) (h_nbl attributes st (snd y) 0 (rn_nym (snd y))) (h_nsec (u_sk v) (u_vals v) 0 (fst y)) c
                   = answered (h_nbases HG pk n 0) (h_nbl attributes st (snd x) 0 (rn_nym (snd x))) (h_nsec (u_sk u) (u_vals u) 0 (fst x)) c).
      { intro SC. exact (ans_nym (fst x) (rn_nym (snd x)) (Nat.le_0_l n) (not0 SC) (l_nym L)). }
      assert (N1 : has_eid st = true -> answered (h_nbases HG pk n (S eid)) (h_nbl attributes st (snd y) (S eid) (ra_bl (rn_eid (snd y)))) (h_nsec (u_sk v) (u_vals v) (S eid) (ra_r (rn_eid (snd y)))) c
                   = answered (h_nbases HG pk n (S eid)) (h_nbl attributes st (snd x) (S eid) (ra_bl (rn_eid (snd x)))) (h_nsec (u_sk u) (u_vals u) (S eid) (ra_r (rn_eid (snd x)))) c).
      { intro E. exact (ans_nym (ra_r (rn_eid (snd x))) (ra_bl (rn_eid (snd x))) Le (noteid E) (l_eid L)). }
      assert (N2 : has_rh st = true -> answered (h_nbases HG pk n (S rh)) (h_nbl attributes st (snd y) (S rh) (ra_bl (rn_rh (snd y)))) (h_nsec (u_sk v) (u_vals v) (S rh) (ra_r (rn_rh (snd y)))) c
                   = answered (h_nbases HG pk n (S rh)) (h_nbl attributes st (snd x) (S rh) (ra_bl (rn_rh (snd x)))) (h_nsec (u_sk u) (u_vals u) (S rh) (ra_r (rn_rh (snd x)))) c).
      { intro E. exact (ans_nym (ra_r (rn_rh (snd x))) (ra_bl (rn_rh (snd x))) Lr (notrh E) (l_rh L)). }
      unfold h_re, h_rrh, chosen_rand, h_eid, h_rh, h_comm, h_re, h_rrh, chosen_rand. cbn [md_eid_audit md_rh_audit cm_comm].
      fold (at_ v (S rh)) (at_ u (S rh)) (at_ v (S eid)) (at_ u (S eid)).
      f_equal.
      - destruct (is_smartcard st) eqn:SC; [reflexivity|]. rewrite N0 by reflexivity. reflexivity.
      - destruct (has_eid st); [|reflexivity]. f_equal. exact Q3.
      - destruct (has_eid st); [|reflexivity]. rewrite N1 by reflexivity. reflexivity.
      - destruct (has_rh st); [|reflexivity]. f_equal. exact Q4.
      - destruct (has_rh st); [|reflexivity]. rewrite N2 by reflexivity. reflexivity.
    Qed.
  End Two.

  Lemma link_exists u v : UserOk u -> UserOk v -> exists k d dn de dr, Link u v k d dn de dr.
  Proof.
    intros U V.
    destruct (gok_cyclic GO1 (u_A u) (uo_nz V)) as [k Hk].
    destruct (gok_cyclic GO1 (b_ v ⊗ k ⊖ b_ u) HR) as [d Hd].
    destruct (gok_cyclic GO1 (base 0 ⊗ (u_sk u - u_sk v)) HR) as [dn Hn].
    destruct (gok_cyclic GO1 (base (S eid) ⊗ (at_ u (S eid) - at_ v (S eid))) HR) as [de He'].
    destruct (gok_cyclic GO1 (base (S rh) ⊗ (at_ u (S rh) - at_ v (S rh))) HR) as [dr Hr'].
    exists k, d, dn, de, dr. split; try assumption.
    intros ->. apply (uo_nz U). rewrite Hk. apply (gmul_0 KO GO1).
  Qed.

  Lemma link_sym u v k d dn de dr : Link u v k d dn de dr ->
    Link v u (zinv k) (- (d * zinv k)) (- dn) (- de) (- dr).
  Proof.
    intros []. split.
    - intro Z. apply l_k0. assert (E : k * zinv k = z1) by (field; exact l_k0). rewrite Z in E.
      destruct (F_1_neq_0 (sok_field KO)). rewrite <- E. ring.
    - rewrite l_A0. gnorm KO GO1; field; exact l_k0.
    - eapply glin with (k := - zinv k); [exact l_B0|]. gnorm KO GO1; field; exact l_k0.
    - eapply glin with (k := - z1); [exact l_nym0|]. gnorm KO GO1; ring.
    - eapply glin with (k := - z1); [exact l_eid0|]. gnorm KO GO1; ring.
    - eapply glin with (k := - z1); [exact l_rh0|]. gnorm KO GO1; ring.
  Qed.


  Lemma shift_shift u v k d dn de dr x : UserOk u -> UserOk v -> Link u v k d dn de dr -> r1_ x <> z0 ->
    adraws_eq (shift v u (zinv k) (- (d * zinv k)) (- dn) (- de) (- dr) (shift u v k d dn de dr x)) x.
  Proof.
    intros U V L NZ. unfold shift at 1. rewrite (Ec U V L NZ). pose proof (l_k L) as Hk. set (c := c_ u x).
    unfold adraws_eq, shift. fold c.
    assert (B : moved (zinv k) (- (d * zinv k)) (- dn) (- de) (- dr) (shiftc c u v k d dn de dr x)
                = (fst x, {| rn_pok := {| pr_r1 := pr_r1 (rn_pok (snd x)); pr_r2 := pr_r2 (rn_pok (snd x));
                                          pr_bl1 := pr_bl1 (rn_pok (snd (shiftc c u v k d dn de dr x))); pr_bl2 := pr_bl2 (rn_pok (snd (shiftc c u v k d dn de dr x))) |};
                             rn_nym := rn_nym (snd (shiftc c u v k d dn de dr x));
                             rn_eid := {| ra_r := ra_r (rn_eid (snd x)); ra_bl := ra_bl (rn_eid (snd (shiftc c u v k d dn de dr x))) |};
                             rn_rh := {| ra_r := ra_r (rn_rh (snd x)); ra_bl := ra_bl (rn_rh (snd (shiftc c u v k d dn de dr x))) |};
                             rn_nonce := rn_nonce (snd x) |})).
    { unfold moved, shiftc, moved. cbn [fst snd rn_pok pr_r1 pr_r2 rn_eid rn_rh ra_r ra_bl rn_nonce rn_nym pr_bl1 pr_bl2]. f_equal; [ring|]. f_equal; [|f_equal; ring|f_equal; ring]. f_equal; [|].
      - field; exact Hk.
      - field; exact Hk. }
    unfold shiftc at 1 3 5 7 9 11 13 15 17. cbv zeta. rewrite B. cbn [fst snd rn_pok pr_r1 pr_r2 rn_eid rn_rh ra_r ra_bl rn_nonce rn_nym pr_bl1 pr_bl2].
    assert (S1 : forall b1 b2 z1' z2' z3' z4', sec1_ u (fst x, {| rn_pok := {| pr_r1 := pr_r1 (rn_pok (snd x)); pr_r2 := pr_r2 (rn_pok (snd x)); pr_bl1 := b1; pr_bl2 := b2 |};
               rn_nym := z1'; rn_eid := z2'; rn_rh := z3'; rn_nonce := z4' |}) = sec1_ u x) by reflexivity.
    assert (S2 : forall b1 b2 z1' z2' z3' z4', sec2_ u (fst x, {| rn_pok := {| pr_r1 := pr_r1 (rn_pok (snd x)); pr_r2 := pr_r2 (rn_pok (snd x)); pr_bl1 := b1; pr_bl2 := b2 |};
               rn_nym := z1'; rn_eid := z2'; rn_rh := z3'; rn_nonce := z4' |}) = sec2_ u x) by reflexivity.
    assert (S3 : sec1_ v (shiftc c u v k d dn de dr x) = sec1_ v (moved k d dn de dr x)) by reflexivity.
    assert (S4 : sec2_ v (shiftc c u v k d dn de dr x) = sec2_ v (moved k d dn de dr x)) by reflexivity.
    rewrite !S1, !S2, !S3, !S4.
    split; [reflexivity|]. split; [reflexivity|]. split; [reflexivity|].
    split; [intro j; unfold shiftc; cbn [fst snd rn_pok pr_bl1]; ring|].
    split; [intro j; unfold shiftc; cbn [fst snd rn_pok pr_bl2]; ring|].
    split; [unfold shiftc; cbn [snd rn_nym]; ring|].
    split; [unfold shiftc; cbn [snd rn_eid ra_bl ra_r]; destruct (rn_eid (snd x)) as [er eb]; cbn [ra_r ra_bl]; f_equal; ring|].
    split; [unfold shiftc; cbn [snd rn_rh ra_bl ra_r]; destruct (rn_rh (snd x)) as [er eb]; cbn [ra_r ra_bl]; f_equal; ring|].
    reflexivity.
  Qed.

  (** ** The theorem *)
  Variable c_cred : codec ACredential.
  Variable c_sig : codec ASignature.
  Variable c_cri : codec ACRI.
  Hypothesis CS : codec_ok canon_asig c_sig.
  Hypothesis Bn : (Z.of_nat (n + 1) <= 65535)%Z.
  Hypothesis ND : has_eid st = true -> NoDup (h0 :: hs).
  Variable criRaw : bytes.
  Hypothesis Dc : dec c_cri criRaw = Some cri.
  Hypothesis Alg : acri_alg cri = 0%Z.
  Hypothesis Kn : st <> OtherSig.
  Hypothesis Ep : int64 (acri_epoch cri).

  Definition usable (u : User) (x : Draws) : Prop := usable_draws HG pk n st eid rh (u_s u) (u_sk u) (u_vals u) x.
  Definition presents (u : User) (credBytes : bytes) (x : Draws) : res bytes :=
    ar_present H c_cred c_sig c_cri credBytes (u_sk u) (Some (Some (issuer_key HG pk n))) attributes msg rh eid criRaw st x.

  Lemma present_ok u credBytes x : UserOk u -> usable u x -> dec c_cred credBytes = Some (credential_of (u_A u) (u_e u) (u_s u) (u_vals u)) ->
    exists b, enc c_sig (sig_ u x) = Some b /\ presents u credBytes x = Ok b.
  Proof.
    intros U (X1 & X2 & X3) D. destruct (CS (x := sig_ u x)) as (b & Eb & _).
    { assert (Lse : S eid <= n) by (clear - Le; lia). assert (Lsr : S rh <= n) by (clear - Lr; lia).
      exact (@sig_canon C HG H pk n (u_A u) (u_e u) (u_s u) (u_sk u) (u_vals u) (fst x) attributes st (snd x) eid rh (S eid) (S rh) msg cri None Bn Lse Lsr Ep Alg). }
    exists b. split; [exact Eb|]. unfold presents, ar_present. change 0%Z with (Z.of_nat 0). rewrite (makeNym_ok OK HG BS) by lia. cbn [bind].
    change ((h0 ⊗ fst x) ⊕ (base 0 ⊗ u_sk u)) with (h_Nym HG pk n (u_sk u) (fst x)).
    assert (NA : forall i, has_eid st = true -> audit_for h0 (base (S i)) (nth i (u_vals u) z0) (@None (AuditData C))) by (intros; left; reflexivity).
    assert (NA' : forall i, has_rh st = true -> audit_for h0 (base (S i)) (nth i (u_vals u) z0) (@None (AuditData C))) by (intros; left; reflexivity).
    rewrite (@sign_ok C OK HG H BS c_cred c_sig c_cri pk n (u_A u) (u_e u) (u_s u) (u_sk u) (u_vals u) (fst x) attributes st (snd x) (uo_len U) (uo_agr U) (uo_valid U)
      eid rh (S eid) (S rh) msg cri None Bn Le Lr He Hr ND X2 X3 (NA eid) (NA' rh) credBytes criRaw Kn eq_refl eq_refl Dc Alg D).
    fold (sig_ u x). rewrite Eb. reflexivity.
  Qed.

  Lemma usable_shift u v k d dn de dr x : UserOk u -> UserOk v -> Link u v k d dn de dr -> usable u x -> usable v (shift u v k d dn de dr x).
  Proof.
    intros U V L (X1 & X2 & X3). pose proof (Ed x L) as D. unfold d_, h_d, h_b in D. split; [exact (r1_ne L X1)|].
    unfold h_r1, h_r2 in D. cbv zeta. rewrite D. split; assumption.
  Qed.

  Lemma unlinkable u v cu cv : UserOk u -> UserOk v ->
    dec c_cred cu = Some (credential_of (u_A u) (u_e u) (u_s u) (u_vals u)) -> dec c_cred cv = Some (credential_of (u_A v) (u_e v) (u_s v) (u_vals v)) ->
    exists f g : Draws -> Draws,
      (forall x, usable u x -> usable v (f x) /\ adraws_eq (g (f x)) x /\ exists b, presents u cu x = Ok b /\ presents v cv (f x) = Ok b) /\
      (forall y, usable v y -> usable u (g y) /\ adraws_eq (f (g y)) y /\ exists b, presents v cv y = Ok b /\ presents u cu (g y) = Ok b).
  Proof.
    intros U V Du Dv. destruct (link_exists U V) as (k & d & dn & de & dr & L). pose proof (link_sym L) as L'.
    exists (shift u v k d dn de dr), (shift v u (zinv k) (- (d * zinv k)) (- dn) (- de) (- dr)). split.
    - intros x X. pose proof (usable_shift U V L X) as Y. split; [exact Y|]. split; [exact (shift_shift U V L (proj1 X))|].
      destruct (present_ok U X Du) as (b & E1 & E2). destruct (present_ok V Y Dv) as (b' & E3 & E4). rewrite (Esig U V L (proj1 X)) in E3. exists b. split; [exact E2|congruence].
    - intros y Y. pose proof (usable_shift V U L' Y) as X. split; [exact X|]. split.
      + pose proof (shift_shift V U L' (proj1 Y)) as S.
        replace (zinv (zinv k)) with k in S by (field; split; [exact (l_k L)|apply (F_1_neq_0 (sok_field KO))]).
        replace (- (- (d * zinv k) * k)) with d in S by (field; exact (l_k L)).
        replace (- - dn) with dn in S by ring. replace (- - de) with de in S by ring. replace (- - dr) with dr in S by ring. exact S.
      + destruct (present_ok V Y Dv) as (b & E1 & E2). destruct (present_ok U X Du) as (b' & E3 & E4). rewrite (Esig V U L' (proj1 Y)) in E3. exists b. split; [exact E2|congruence].
  Qed.
End Hide.
