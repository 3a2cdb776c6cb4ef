(** dlog: perfect unlinkability of presentations, hiding of pseudonyms. *)
From Verif Require Import Base Curve Algebra Spec Dlog DlogSpec DlogFacts DlogData DlogSound DlogComplete DlogSign DlogBind DlogAudit.
From Coq Require Import Field Ring.
Unset Strict Implicit.

Section Hide.
  Context {C : Curve} (OK : CurveOk C).
  Variable H : hasher C.
  Variable T : translator C.
  Hypothesis TO : TrOk T.
  Let KO := ok_zr OK.
  Let GO1 := ok_g1 OK.
  Let GO2 := ok_g2 OK.
  Let GOT := ok_gt OK.
  Add Field Kf_hide : (sok_field KO).
  Notation zr := (zcar (Zr C)).
  Notation g1 := (gcar (G1 C)).
  Local Open Scope zr_scope.

  (** the common part of both presentations *)
  Variables (ipk : IssuerPublicKey) (B : Bases C) (disc msg : bytes) (rh eid : nat) (cri : CRI) (st : SignatureType).
  Hypothesis HB : ipk_bases T ipk B.
  Hypothesis Ln : length (ip_names ipk) = length disc.
  Hypothesis Hrh : rh < length disc.
  Hypothesis Hse : searchInts (hiddenIndices disc) (Z.of_nat rh) < nhid disc.
  Hypothesis Hal : cri_alg cri = 0%Z.
  Hypothesis Hst : In st [Standard; EidNym; EidNymRhNym].
  Hypothesis Heid : with_eid st = true -> hidden_at disc eid.
  Hypothesis Hrhh : with_rh st = true -> hidden_at disc rh.
  Hypothesis HR : b_hrand B <> gzero.

  Record User := { u_cred : Credential; u_sk : zr; u_A : g1; u_e : zr; u_s : zr; u_attrs : list zr }.
  Record UserOk (u : User) : Prop := {
    uo_ver : verCredential T (u_cred u) (u_sk u) ipk = Ok tt;
    uo_means : cred_means T (u_cred u) (u_A u) (u_e u) (u_s u) (u_attrs u);
    uo_base : g1_from_proto T (cr_b (u_cred u)) = Ok (cred_base B (u_s u) (u_sk u) (u_attrs u));
    uo_valid : bbs_valid B (u_A u) (u_e u) (u_s u) (u_sk u) (u_attrs u);
    uo_len : length (u_attrs u) = length disc;
    uo_bases : length disc <= length (b_attrs B);
    uo_nz : u_A u <> gzero
  }.

  Definition prep (u : User) (R : SigRand C) : Prepared C :=
    let Bv := cred_base B (u_s u) (u_sk u) (u_attrs u) in
    let APrime := u_A u ⊗ rd_r1 R in
    let BPrime := Bv ⊗ rd_r1 R ⊖ b_hrand B ⊗ rd_r2 R in
    let rattrs := map (rd_rattrs R) (seq 0 (nhid disc)) in
    {| pr_t1 := gmul2 APrime (rd_re R) (b_hrand B) (rd_rr2 R);
       pr_t2 := b_hrand B ⊗ rd_rsprime R ⊕ gmul2 BPrime (rd_rr3 R) (b_hsk B) (rd_rsk R)
                ⊕ gdot (hsel disc (b_attrs B)) rattrs;
       pr_t3 := gmul2 (b_hsk B) (rd_rsk R) (b_hrand B) (rd_rrnym R);
       pr_aprime := APrime; pr_abar := Bv ⊗ rd_r1 R ⊖ APrime ⊗ u_e u; pr_bprime := BPrime;
       pr_e := u_e u; pr_r3 := zinv (rd_r1 R);
       pr_sprime := u_s u - rd_r2 R * zinv (rd_r1 R);
       pr_rattrs := rattrs; pr_hidden := hiddenIndices disc |}.

  Definition at_ (l : list zr) (j : nat) : zr := nth j l z0.
  Definition base_ (j : nat) : g1 := nth j (b_attrs B) gzero.
  Definition ra_ (R : SigRand C) (j : nat) : zr := rd_rattrs R (searchInts (hiddenIndices disc) (Z.of_nat j)).

  Definition nymx (w : bool) (u : User) (R : SigRand C) (j : nat) (r rr : zr) : option (g1 * g1 * zr * zr) :=
    if w then Some (gmul2 (base_ j) (at_ (u_attrs u) j) (b_hrand B) r,
                    gmul2 (base_ j) (ra_ R j) (b_hrand B) rr, r, at_ (u_attrs u) j)
    else None.

  Definition NymOf (u : User) (r : zr) : g1 := gmul2 (b_hsk B) (u_sk u) (b_hrand B) r.

  Definition strOf (u : User) (x : zr * SigRand C) : bytes :=
    let P := prep u (snd x) in
    sig_string (pr_t1 P) (pr_t2 P) (pr_t3 P) (pr_aprime P) (pr_abar P) (pr_bprime P) (NymOf u (fst x))
      (attr_pts (nymx (with_eid st) u (snd x) eid (rd_eid (snd x)) (rd_r_eid (snd x))))
      (attr_pts (nymx (with_rh st) u (snd x) rh (rd_rh (snd x)) (rd_r_rh (snd x)))) (ip_hash ipk) disc msg.

  Definition cOf (u : User) (x : zr * SigRand C) : zr := chal H (strOf u x) (rd_nonce (snd x)).

  Definition sigOf (u : User) (x : zr * SigRand C) : Signature :=
    sig_of T (prep u (snd x)) (snd x) (u_cred u) cri (u_sk u) (NymOf u (fst x)) (fst x) disc
      (nymx (with_eid st) u (snd x) eid (rd_eid (snd x)) (rd_r_eid (snd x)))
      (nymx (with_rh st) u (snd x) rh (rd_rh (snd x)) (rd_r_rh (snd x))) (cOf u x).

  Lemma search_hidden j : hidden_at disc j -> searchInts (hiddenIndices disc) (Z.of_nat j) < nhid disc.
  Proof.
    intro Hj. assert (j < length disc) by (apply nth_error_Some; unfold hidden_at in Hj; congruence).
    pose proof (hsel_searchInts disc 0 j disc Hj) as HS. specialize (HS ltac:(lia)).
    cbn [Nat.add] in HS. change (hidden_from 0 disc) with (hiddenIndices disc) in HS.
    assert (N : nth_error (hsel disc disc) (searchInts (hiddenIndices disc) (Z.of_nat j)) <> None).
    { rewrite HS. apply nth_error_Some. lia. }
    apply nth_error_Some in N. rewrite hsel_nhid in N by lia. exact N.
  Qed.

  Lemma nymx_ok u R j fresh rr : UserOk u -> hidden_at disc j ->
    finalise_nym T (u_cred u) ipk (Z.of_nat j) None (hiddenIndices disc) (map (rd_rattrs R) (seq 0 (nhid disc))) fresh rr
    = Ok (gmul2 (base_ j) (at_ (u_attrs u) j) (b_hrand B) fresh,
          gmul2 (base_ j) (ra_ R j) (b_hrand B) rr, fresh, at_ (u_attrs u) j).
  Proof.
    intros U Hj. assert (Lj : j < length disc) by (apply nth_error_Some; unfold hidden_at in Hj; congruence).
    pose proof (search_hidden Hj) as Sj. destruct (uo_means U) as (_ & _ & _ & M4).
    pose proof (uo_len U) as L1. pose proof (uo_bases U) as L2.
    unfold finalise_nym. rewrite !znth_nat.
    assert (N1 : nth_error (b_attrs B) j = Some (base_ j)) by (apply nth_error_nth'; lia).
    destruct (hattr_parse HB N1) as [h [Hh Hp]].
    assert (N2 : nth_error (u_attrs u) j = Some (at_ (u_attrs u) j)) by (apply nth_error_nth'; lia).
    rewrite <- M4, nth_error_map in N2. unfold nth_res.
    destruct (nth_error (cr_attrs (u_cred u)) j) as [ab|]; [|discriminate]. cbn [option_map] in N2. injection N2 as N2.
    cbn [bind]. rewrite nth_error_map.
    assert (NS : nth_error (seq 0 (nhid disc)) (searchInts (hiddenIndices disc) (Z.of_nat j)) = Some (searchInts (hiddenIndices disc) (Z.of_nat j))).
    { rewrite nth_error_nth' with (d := 0) by (rewrite seq_length; exact Sj). rewrite seq_nth by exact Sj. reflexivity. }
    rewrite NS. cbn [option_map bind]. rewrite Hh. cbn [bind]. rewrite Hp. cbn [bind].
    destruct HB as (_ & HB2 & _). rewrite HB2. cbn [bind]. rewrite M4 in N2. rewrite N2. reflexivity.
  Qed.

  Lemma present_ok u x : UserOk u ->
    present H T (u_cred u) (u_sk u) ipk disc msg (Z.of_nat rh) (Z.of_nat eid) cri st x = Ok (sigOf u x).
  Proof.
    intro U. destruct (uo_means U) as (M1 & M2 & M3 & M4).
    assert (La : length (cr_attrs (u_cred u)) = length disc) by (rewrite <- (uo_len U), <- M4, map_length; reflexivity).
    unfold present, makeNym. destruct HB as (HB1 & HB2 & _). rewrite HB1, HB2. cbn [bind fst snd].
    edestruct (@prepare_ok C OK T (u_cred u) (u_sk u) ipk B disc rh cri (snd x)) as [P EP];
      [exact HB|exact (uo_ver U)|exact La|exact Ln|exact Hrh|exact Hse|exact Hal|].
    assert (PP : P = prep u (snd x)).
    { edestruct (prepare_inv OK) as (A' & Bv & I1 & I2 & _ & _ & _ & EPr); [exact HB| |exact EP|]; [exact (uo_bases U)|].
      cbv zeta in EPr. rewrite EPr. assert (A' = u_A u) by congruence. subst A'.
      assert (Bv = cred_base B (u_s u) (u_sk u) (u_attrs u)) by (pose proof (uo_base U); congruence). subst Bv.
      unfold prep. rewrite M2, M3. reflexivity. }
    subst P.
    assert (Hwr : with_rh st = true -> with_eid st = true) by (destruct st; cbn; congruence).
    assert (Lr : length (pr_rattrs (prep u (snd x))) = nhid disc) by (cbn [prep pr_rattrs]; rewrite map_length, seq_length; reflexivity).
    pose proof (@finalise_ok C OK H T (u_cred u) (u_sk u) (NymOf u (fst x)) (fst x) ipk disc msg (Z.of_nat rh) (Z.of_nat eid)
      cri (prep u (snd x)) (snd x) (with_eid st) (with_rh st) None
      (nymx (with_eid st) u (snd x) eid (rd_eid (snd x)) (rd_r_eid (snd x)))
      (nymx (with_rh st) u (snd x) rh (rd_rh (snd x)) (rd_r_rh (snd x))) Hwr La eq_refl Lr) as FO.
    assert (F1 : fin_nym T (with_eid st) (u_cred u) ipk (Z.of_nat eid) None (prep u (snd x)) (rd_r_eid (snd x)) (rd_eid (snd x))
                  (nymx (with_eid st) u (snd x) eid (rd_eid (snd x)) (rd_r_eid (snd x)))).
    { pose proof (fun j => @nymx_ok u (snd x) j (rd_eid (snd x)) (rd_r_eid (snd x)) U) as NX. pose proof Heid as HH.
      unfold fin_nym, nymx. destruct (with_eid st); [|reflexivity]. eexists. split; [|reflexivity].
      cbn [prep pr_hidden pr_rattrs]. apply NX; auto. }
    assert (F2 : fin_nym T (with_rh st) (u_cred u) ipk (Z.of_nat rh) None (prep u (snd x)) (rd_r_rh (snd x)) (rd_rh (snd x))
                  (nymx (with_rh st) u (snd x) rh (rd_rh (snd x)) (rd_r_rh (snd x)))).
    { pose proof (fun j => @nymx_ok u (snd x) j (rd_rh (snd x)) (rd_r_rh (snd x)) U) as NX. pose proof Hrhh as HH.
      unfold fin_nym, nymx. destruct (with_rh st); [|reflexivity]. eexists. split; [|reflexivity].
      cbn [prep pr_hidden pr_rattrs]. apply NX; auto. }
    specialize (FO F1 F2).
    assert (NS : NewSignature H T (Some (u_cred u)) (Some (u_sk u)) (Some (NymOf u (fst x))) (Some (fst x)) (Some ipk) disc msg
       (Z.of_nat rh) (Z.of_nat eid) (Some cri) (snd x) st None
       = finalise H T (u_cred u) (u_sk u) (NymOf u (fst x)) (fst x) ipk disc msg (Z.of_nat rh) (Z.of_nat eid) cri
           (prep u (snd x)) (snd x) (with_eid st) (with_rh st) None).
    { unfold NewSignature. rewrite EP. cbn [bind].
      destruct Hst as [<-|[<-|[<-|[]]]]; cbn [with_eid with_rh] in *.
      - reflexivity.
      - rewrite znth_nat. unfold nth_res. pose proof (Heid eq_refl) as U1. unfold hidden_at in U1. rewrite U1. reflexivity.
      - rewrite !znth_nat. unfold nth_res. pose proof (Heid eq_refl) as U1. unfold hidden_at in U1. rewrite U1.
        pose proof (Hrhh eq_refl) as U2. unfold hidden_at in U2. rewrite U2. reflexivity. }
    unfold NymOf in *. rewrite NS, FO. cbn [bind fst]. reflexivity.
  Qed.

  (** the constants relating two users *)
  Record Link (u v : User) (k d dn de dr : zr) : Prop := {
    l_k : k <> z0;
    l_A : u_A u = u_A v ⊗ k;
    l_B : cred_base B (u_s v) (u_sk v) (u_attrs v) ⊗ k ⊖ cred_base B (u_s u) (u_sk u) (u_attrs u) = b_hrand B ⊗ d;
    l_nym : b_hsk B ⊗ (u_sk u - u_sk v) = b_hrand B ⊗ dn;
    l_eid : base_ eid ⊗ (at_ (u_attrs u) eid - at_ (u_attrs v) eid) = b_hrand B ⊗ de;
    l_rh : base_ rh ⊗ (at_ (u_attrs u) rh - at_ (u_attrs v) rh) = b_hrand B ⊗ dr
  }.

  Definition shiftc (c : zr) (u v : User) (k d dn de dr : zr) (x : zr * SigRand C) : zr * SigRand C :=
    let R := snd x in
    let r1 := rd_r1 R * k in
    let r2 := rd_r2 R + rd_r1 R * d in
    (fst x + dn,
     {| rd_r1 := r1; rd_r2 := r2; rd_nonce := rd_nonce R;
        rd_rsk := rd_rsk R + c * (u_sk u - u_sk v);
        rd_re := rd_re R - c * (u_e u - u_e v);
        rd_rr2 := rd_rr2 R + c * (rd_r2 R - r2);
        rd_rr3 := rd_rr3 R - c * (zinv (rd_r1 R) - zinv r1);
        rd_rsprime := rd_rsprime R + c * ((u_s u - rd_r2 R * zinv (rd_r1 R)) - (u_s v - r2 * zinv r1));
        rd_rrnym := rd_rrnym R + c * (fst x - (fst x + dn));
        rd_rattrs := fun i => rd_rattrs R i + c * (nth i (hsel disc (u_attrs u)) z0 - nth i (hsel disc (u_attrs v)) z0);
        rd_eid := rd_eid R + de; rd_r_eid := rd_r_eid R + c * (rd_eid R - (rd_eid R + de));
        rd_rh := rd_rh R + dr; rd_r_rh := rd_r_rh R + c * (rd_rh R - (rd_rh R + dr)) |}).

  Definition shift (u v : User) (k d dn de dr : zr) (x : zr * SigRand C) : zr * SigRand C :=
    shiftc (cOf u x) u v k d dn de dr x.

  Definition agree (u v : User) : Prop :=
    forall i b, nth_error disc i = Some b -> b <> b0 -> nth_error (u_attrs u) i = nth_error (u_attrs v) i.

  Lemma hsel_rattrs (f : nat -> zr) (l l' : list zr) c n : length l = n -> length l' = n ->
    map (fun i => f i + c * (nth i l z0 - nth i l' z0)) (seq 0 n)
    = map (fun xy => fst xy + c * snd xy) (combine (map f (seq 0 n)) (map (fun xy => fst xy - snd xy) (combine l l'))).
  Proof.
    intros L L'. assert (G : forall n l l' o, length l = n -> length l' = n ->
      map (fun i => f (o + i)%nat + c * (nth i l z0 - nth i l' z0)) (seq 0 n)
      = map (fun xy => fst xy + c * snd xy) (combine (map (fun i => f (o + i)%nat) (seq 0 n)) (map (fun xy => fst xy - snd xy) (combine l l')))).
    { clear. induction n as [|n IH]; intros [|a l] [|b l'] o L L'; try discriminate; [reflexivity|].
      cbn [seq map combine fst snd nth]. f_equal. rewrite <- seq_shift, !map_map.
      cbn [length] in *. specialize (IH l l' (S o)). 
      transitivity (map (fun i => f (S o + i)%nat + c * (nth i l z0 - nth i l' z0)) (seq 0 n)).
      - apply map_ext. intro i. cbn [nth]. rewrite Nat.add_succ_r. reflexivity.
      - rewrite IH by lia. f_equal. f_equal. apply map_ext. intro i. rewrite Nat.add_succ_r. reflexivity. }
    exact (G n l l' 0 L L').
  Qed.

  (** two valid attribute vectors which agree on the disclosed positions *)
  Lemma hidden_diff u v : UserOk u -> UserOk v -> agree u v ->
    gdot (b_attrs B) (u_attrs u) ⊖ gdot (b_attrs B) (u_attrs v)
    = gdot (hsel disc (b_attrs B)) (map (fun xy => fst xy - snd xy) (combine (hsel disc (u_attrs u)) (hsel disc (u_attrs v)))).
  Proof.
    intros U V Ag. pose proof (uo_len U) as L1. pose proof (uo_len V) as L2. pose proof (uo_bases U) as L3.
    unfold agree in Ag. revert Ag L1 L2 L3. generalize (u_attrs u), (u_attrs v), (b_attrs B). clear -KO GO1.
    induction disc as [|b ds IH]; intros [|x l1] [|y l2] [|p ps] Ag L1 L2 L3; cbn [length] in *; try lia; try discriminate;
      cbn [hsel gdot combine map].
    - apply (gsub_diag (ok_zr OK) (ok_g1 OK)).
    - apply (gsub_diag (ok_zr OK) (ok_g1 OK)).
    - assert (IH' := IH l1 l2 ps ltac:(intros i b' Hi Hb; exact (Ag (S i) b' Hi Hb)) ltac:(lia) ltac:(lia) ltac:(lia)).
      destruct (byte_eqb_spec b b0) as [E|E].
      + cbn [gdot combine map fst snd]. rewrite <- IH'. gnorm KO GO1; ring.
      + specialize (Ag 0 b eq_refl E). cbn [nth_error] in Ag. injection Ag as ->. rewrite <- IH'. gnorm KO GO1; ring.
  Qed.

  Lemma abar_of u R : UserOk u -> pair C (genG2 C) (pr_abar (prep u R)) = pair C (b_w B) (pr_aprime (prep u R)).
  Proof.
    intro U. cbn [prep pr_abar pr_aprime]. pose proof (uo_valid U) as BV. unfold bbs_valid in BV.
    rewrite (ok_pair_add_l OK), (ok_pair_mul_l OK) in BV.
    rewrite (pair_sub_r OK), !(ok_pair_mul_r OK), <- BV. gnorm KO GOT; ring.
  Qed.

  Lemma ra_shift u v k d dn de dr x j : UserOk u -> UserOk v -> hidden_at disc j ->
    ra_ (snd (shift u v k d dn de dr x)) j = ra_ (snd x) j + cOf u x * (at_ (u_attrs u) j - at_ (u_attrs v) j).
  Proof.
    intros U V Hj. assert (Lj : j < length disc) by (apply nth_error_Some; unfold hidden_at in Hj; congruence).
    unfold ra_. cbn [shift shiftc snd rd_rattrs]. f_equal. f_equal.
    assert (G : forall l : list zr, length l = length disc ->
      nth (searchInts (hiddenIndices disc) (Z.of_nat j)) (hsel disc l) z0 = at_ l j).
    { intros l L. pose proof (hsel_searchInts disc 0 j l Hj ltac:(lia)) as HS. cbn [Nat.add] in HS.
      change (hidden_from 0 disc) with (hiddenIndices disc) in HS. unfold at_.
      rewrite (nth_error_nth' l z0) in HS by lia. apply nth_error_nth. exact HS. }
    rewrite !G by (rewrite ?(uo_len U), ?(uo_len V); reflexivity). reflexivity.
  Qed.

  Lemma shift_all u v k d dn de dr x : UserOk u -> UserOk v -> agree u v -> Link u v k d dn de dr ->
    rd_r1 (snd x) <> z0 ->
    let y := shift u v k d dn de dr x in
    strOf v y = strOf u x /\
    pr_aprime (prep v (snd y)) = pr_aprime (prep u (snd x)) /\
    pr_bprime (prep v (snd y)) = pr_bprime (prep u (snd x)) /\
    pr_abar (prep v (snd y)) = pr_abar (prep u (snd x)) /\
    NymOf v (fst y) = NymOf u (fst x) /\
    attr_pts (nymx (with_eid st) v (snd y) eid (rd_eid (snd y)) (rd_r_eid (snd y)))
    = attr_pts (nymx (with_eid st) u (snd x) eid (rd_eid (snd x)) (rd_r_eid (snd x))) /\
    attr_pts (nymx (with_rh st) v (snd y) rh (rd_rh (snd y)) (rd_r_rh (snd y)))
    = attr_pts (nymx (with_rh st) u (snd x) rh (rd_rh (snd x)) (rd_r_rh (snd x))).
  Proof.
    intros U V Ag L NZ. destruct L.
    intro y.
    assert (EA : pr_aprime (prep v (snd y)) = pr_aprime (prep u (snd x))).
    { cbn. rewrite l_A0. gnorm KO GO1; ring. }
    assert (EBp : pr_bprime (prep v (snd y)) = pr_bprime (prep u (snd x))).
    { cbn. eapply (glin1 OK) with (k := rd_r1 (snd x)); [exact l_B0|]. gnorm KO GO1; ring. }
    assert (EAb : pr_abar (prep v (snd y)) = pr_abar (prep u (snd x))).
    { apply (pair_inj_r OK) with (Q := genG2 C); [apply (ok_gen2 OK)|].
      rewrite (abar_of _ V), (abar_of _ U), EA. reflexivity. }
    assert (EN : NymOf v (fst y) = NymOf u (fst x)).
    { unfold NymOf. cbn. eapply (glin1 OK) with (k := - z1); [exact l_nym0|]. gnorm KO GO1; ring. }
    set (c := cOf u x) in *.
    assert (E3 : pr_t3 (prep v (snd y)) = pr_t3 (prep u (snd x))).
    { cbn. fold c. eapply (glin1 OK) with (k := c); [exact l_nym0|]. gnorm KO GO1; ring. }
    assert (E1 : pr_t1 (prep v (snd y)) = pr_t1 (prep u (snd x))).
    { assert (Q : (u_A u ⊗ rd_r1 (snd x)) ⊗ (u_e u - u_e v) = gopp ((b_hrand B ⊗ d) ⊗ rd_r1 (snd x))).
      { rewrite <- l_B0. pose proof EAb as Q. cbn [prep pr_abar] in Q.
        change (u_A v ⊗ rd_r1 (snd y)) with (pr_aprime (prep v (snd y))) in Q. rewrite EA in Q. cbn [prep pr_aprime] in Q.
        subst y. cbn [shift shiftc snd rd_r1] in Q.
        eapply (glin1 OK) with (k := z1); [exact Q|]. gnorm KO GO1; ring. }
      cbn [prep pr_t1]. change (u_A v ⊗ rd_r1 (snd y)) with (pr_aprime (prep v (snd y))). rewrite EA. cbn [prep pr_aprime].
      subst y. cbn [shift shiftc snd rd_re rd_rr2]. fold c.
      eapply (glin1 OK) with (k := - c); [exact Q|]. gnorm KO GO1; ring. }
    assert (E2 : pr_t2 (prep v (snd y)) = pr_t2 (prep u (snd x))).
    { pose proof (hidden_diff U V Ag) as HD.
      assert (LU : length (hsel disc (u_attrs u)) = nhid disc) by (apply hsel_nhid; rewrite (uo_len U); lia).
      assert (LV : length (hsel disc (u_attrs v)) = nhid disc) by (apply hsel_nhid; rewrite (uo_len V); lia).
      pose proof EBp as Qb. cbn [prep pr_bprime] in Qb.
      cbn [prep pr_t2]. change (cred_base B (u_s v) (u_sk v) (u_attrs v) ⊗ rd_r1 (snd y) ⊖ b_hrand B ⊗ rd_r2 (snd y))
        with (pr_bprime (prep v (snd y))).
      set (bv := pr_bprime (prep v (snd y))).
      assert (Qr : map (rd_rattrs (snd y)) (seq 0 (nhid disc)) =
        map (fun xy => fst xy + c * snd xy) (combine (map (rd_rattrs (snd x)) (seq 0 (nhid disc)))
          (map (fun xy => fst xy - snd xy) (combine (hsel disc (u_attrs u)) (hsel disc (u_attrs v)))))).
      { subst y. cbn [shift shiftc snd rd_rattrs]. fold c. apply hsel_rattrs; assumption. }
      rewrite Qr, <- (gdot_comb OK), <- HD; [|rewrite !map_length, combine_length, seq_length; lia].
      assert (Hb : bv ⊗ (zinv (rd_r1 (snd x)) - zinv (rd_r1 (snd x) * k))
        = (b_hrand B ⊗ (u_s u - rd_r2 (snd x) * zinv (rd_r1 (snd x))) ⊕ b_hsk B ⊗ u_sk u ⊕ gdot (b_attrs B) (u_attrs u)) ⊖
          (b_hrand B ⊗ (u_s v - (rd_r2 (snd x) + rd_r1 (snd x) * d) * zinv (rd_r1 (snd x) * k)) ⊕ b_hsk B ⊗ u_sk v ⊕ gdot (b_attrs B) (u_attrs v))).
      { transitivity (pr_bprime (prep u (snd x)) ⊗ zinv (rd_r1 (snd x)) ⊖ bv ⊗ zinv (rd_r1 (snd x) * k)).
        { rewrite <- EBp. fold bv. gnorm KO GO1; ring. }
        subst bv y. cbn [prep pr_bprime shift shiftc snd rd_r1 rd_r2]. unfold cred_base.
        gnorm KO GO1; field; auto. }
      change (cred_base B (u_s u) (u_sk u) (u_attrs u) ⊗ rd_r1 (snd x) ⊖ b_hrand B ⊗ rd_r2 (snd x))
        with (pr_bprime (prep u (snd x))). rewrite <- EBp. fold bv.
      subst y. cbn [shift shiftc snd rd_rsprime rd_rr3 rd_rsk rd_rattrs]. fold c.
      eapply (glin1 OK) with (k := - c); [exact Hb|]. gnorm KO GO1; ring. }
    assert (NE : forall j r rr r' rr' e (w : bool), (w = true -> hidden_at disc j) ->
              base_ j ⊗ (at_ (u_attrs u) j - at_ (u_attrs v) j) = b_hrand B ⊗ e ->
              r' = r + e -> rr' = rr + c * (r - r') ->
              attr_pts (nymx w v (snd y) j r' rr') = attr_pts (nymx w u (snd x) j r rr)).
    { intros j r rr r' rr' e w Hw Le -> ->. destruct w; [|reflexivity]. specialize (Hw eq_refl).
      cbn [nymx attr_pts]. f_equal. f_equal.
      - eapply (glin1 OK) with (k := - z1); [exact Le|]. gnorm KO GO1; ring.
      - unfold y. rewrite (ra_shift _ _ _ _ _ _ U V Hw). fold c.
        eapply (glin1 OK) with (k := c); [exact Le|]. gnorm KO GO1; ring. }
    assert (Ee : attr_pts (nymx (with_eid st) v (snd y) eid (rd_eid (snd y)) (rd_r_eid (snd y)))
      = attr_pts (nymx (with_eid st) u (snd x) eid (rd_eid (snd x)) (rd_r_eid (snd x)))).
    { eapply NE; [exact Heid|exact l_eid0|reflexivity|reflexivity]. }
    assert (Er : attr_pts (nymx (with_rh st) v (snd y) rh (rd_rh (snd y)) (rd_r_rh (snd y)))
      = attr_pts (nymx (with_rh st) u (snd x) rh (rd_rh (snd x)) (rd_r_rh (snd x)))).
    { eapply NE; [exact Hrhh|exact l_rh0|reflexivity|reflexivity]. }
    repeat split; try assumption.
    unfold strOf. rewrite EA, EBp, EAb, EN, E1, E2, E3, Ee, Er. reflexivity.
  Qed.

  Lemma shift_c u v k d dn de dr x : UserOk u -> UserOk v -> agree u v -> Link u v k d dn de dr ->
    rd_r1 (snd x) <> z0 -> cOf v (shift u v k d dn de dr x) = cOf u x.
  Proof. intros U V Ag L NZ. unfold cOf. destruct (shift_all U V Ag L NZ) as [-> _]. reflexivity. Qed.

  Lemma shift_sig u v k d dn de dr x : UserOk u -> UserOk v -> agree u v -> Link u v k d dn de dr ->
    rd_r1 (snd x) <> z0 -> sigOf v (shift u v k d dn de dr x) = sigOf u x.
  Proof.
    intros U V Ag L NZ. pose proof (shift_c U V Ag L NZ) as EC.
    destruct (shift_all U V Ag L NZ) as (_ & EA & EB & EAb & EN & Ee & Er).
    unfold sigOf. rewrite EC.
    assert (LU : length (hsel disc (u_attrs u)) = nhid disc) by (apply hsel_nhid; rewrite (uo_len U); lia).
    assert (LV : length (hsel disc (u_attrs v)) = nhid disc) by (apply hsel_nhid; rewrite (uo_len V); lia).
    assert (ESa : map (fun xy => zr_bytes C (fst xy + cOf u x * snd xy))
                   (combine (pr_rattrs (prep v (snd (shift u v k d dn de dr x)))) (hsel disc (map (fun a => zr_of_bytes C (ob a)) (cr_attrs (u_cred v)))))
             = map (fun xy => zr_bytes C (fst xy + cOf u x * snd xy))
                   (combine (pr_rattrs (prep u (snd x))) (hsel disc (map (fun a => zr_of_bytes C (ob a)) (cr_attrs (u_cred u)))))).
    { destruct (uo_means U) as (_ & _ & _ & MU). destruct (uo_means V) as (_ & _ & _ & MV).
      rewrite MU, MV. cbn [prep pr_rattrs shift shiftc snd rd_rattrs].
      revert LU LV. generalize (hsel disc (u_attrs u)), (hsel disc (u_attrs v)), (cOf u x), (rd_rattrs (snd x)), (nhid disc).
      clear -KO. intros l l' c f n. 
      assert (G : forall n l l' o, length l = n -> length l' = n ->
        map (fun xy => zr_bytes C (fst xy + c * snd xy)) (combine (map (fun i => f (o + i)%nat + c * (nth i l z0 - nth i l' z0)) (seq 0 n)) l')
        = map (fun xy => zr_bytes C (fst xy + c * snd xy)) (combine (map (fun i => f (o + i)%nat) (seq 0 n)) l)).
      { clear -KO. induction n as [|n IH]; intros [|a l] [|b l'] o L L'; try discriminate; [reflexivity|].
        cbn [seq map combine fst snd nth]. f_equal; [f_equal; ring|].
        rewrite <- seq_shift, !map_map. cbn [length] in *. specialize (IH l l' (S o) ltac:(lia) ltac:(lia)).
        etransitivity; [|etransitivity; [exact IH|]].
        - f_equal. f_equal. apply map_ext. intro i. cbn [nth]. rewrite Nat.add_succ_r. reflexivity.
        - f_equal. f_equal. apply map_ext. intro i. rewrite Nat.add_succ_r. reflexivity. }
      exact (G n l l' 0). }
    unfold sig_of. rewrite EA, EB, EAb, EN, ESa.
    f_equal.
    all: try (cbn [shift shiftc snd fst prep rd_rsk rd_re rd_rr2 rd_rr3 rd_rsprime rd_rrnym pr_e pr_r3 pr_sprime rd_r1 rd_r2]; f_equal; ring).
    - revert Ee. cbn [shift shiftc snd rd_eid rd_r_eid]. unfold nymx. destruct (with_eid st); [|reflexivity].
      cbn [attr_pts attr_sig]. intro Ee. injection Ee as Ee _. rewrite Ee. do 4 f_equal. ring.
    - revert Er. cbn [shift shiftc snd rd_rh rd_r_rh]. unfold nymx. destruct (with_rh st); [|reflexivity].
      cbn [attr_pts attr_sig]. intro Er. injection Er as Er _. rewrite Er. do 4 f_equal. ring.
  Qed.

  Lemma link_exists u v : UserOk u -> UserOk v -> exists k d dn de dr, Link u v k d dn de dr.
  Proof.
    intros U V.
    destruct (gok_cyclic GO1 (u_A u) (uo_nz V)) as [k Hk].
    destruct (gok_cyclic GO1 (cred_base B (u_s v) (u_sk v) (u_attrs v) ⊗ k ⊖ cred_base B (u_s u) (u_sk u) (u_attrs u)) HR) as [d Hd].
    destruct (gok_cyclic GO1 (b_hsk B ⊗ (u_sk u - u_sk v)) HR) as [dn Hn].
    destruct (gok_cyclic GO1 (base_ eid ⊗ (at_ (u_attrs u) eid - at_ (u_attrs v) eid)) HR) as [de He].
    destruct (gok_cyclic GO1 (base_ rh ⊗ (at_ (u_attrs u) rh - at_ (u_attrs v) rh)) HR) as [dr Hr].
    exists k, d, dn, de, dr. split; try assumption.
    intros ->. apply (uo_nz U). rewrite Hk. apply (gmul_0 KO GO1).
  Qed.

  Lemma link_sym u v k d dn de dr : Link u v k d dn de dr ->
    Link v u (zinv k) (- (d * zinv k)) (- dn) (- de) (- dr).
  Proof.
    intros []. split.
    - intro Z. apply l_k0. assert (E : k * zinv k = z1) by (field; exact l_k0). rewrite Z in E.
      destruct (F_1_neq_0 (sok_field KO)). rewrite <- E. ring.
    - rewrite l_A0. gnorm KO GO1; field; exact l_k0.
    - eapply (glin1 OK) with (k := - zinv k); [exact l_B0|]. gnorm KO GO1; field; exact l_k0.
    - eapply (glin1 OK) with (k := - z1); [exact l_nym0|]. gnorm KO GO1; ring.
    - eapply (glin1 OK) with (k := - z1); [exact l_eid0|]. gnorm KO GO1; ring.
    - eapply (glin1 OK) with (k := - z1); [exact l_rh0|]. gnorm KO GO1; ring.
  Qed.

  Lemma shift_shift u v k d dn de dr x : UserOk u -> UserOk v -> agree u v -> Link u v k d dn de dr ->
    rd_r1 (snd x) <> z0 ->
    draws_eq (shift v u (zinv k) (- (d * zinv k)) (- dn) (- de) (- dr) (shift u v k d dn de dr x)) x.
  Proof.
    intros U V Ag L NZ. pose proof (shift_c U V Ag L NZ) as EC.
    unfold shift at 1. rewrite EC. unfold shift. generalize (cOf u x). intro c. clear EC. unfold draws_eq, shiftc.
    destruct x as [r R]. cbn [fst snd rd_r1 rd_r2 rd_nonce rd_rsk rd_re rd_rr2 rd_rr3 rd_rsprime rd_rrnym rd_rattrs rd_eid rd_r_eid rd_rh rd_r_rh] in *.
    pose proof (l_k L) as NK.
    repeat match goal with |- _ /\ _ => split end; try reflexivity; try ring.
    all: try (field; auto).
    all: intros; ring.
  Qed.
End Hide.

Section HideTheorems.
  Context {C : Curve} (OK : CurveOk C).
  Variable H : hasher C.
  Variable T : translator C.
  Let KO := ok_zr OK.
  Let GO1 := ok_g1 OK.
  Add Field Kf_hide2 : (sok_field KO).
  Notation zr := (zcar (Zr C)).
  Notation g1 := (gcar (G1 C)).
  Local Open Scope zr_scope.

  Lemma user_ok ipk B disc cred sk A e s attrs : ipk_bases T ipk B ->
    verCredential T cred sk ipk = Ok tt -> cred_means T cred A e s attrs -> A <> gzero ->
    length (cr_attrs cred) = length disc ->
    UserOk T ipk B disc {| u_cred := cred; u_sk := sk; u_A := A; u_e := e; u_s := s; u_attrs := attrs |}.
  Proof.
    intros HB Hv Hm HA La. pose proof Hv as Hv'. eapply (verCredential_iff OK) in Hv'; [|exact HB].
    destruct Hv' as (A' & e' & s' & at' & Hm' & _ & L & EB & BV).
    destruct Hm as (M1 & M2 & M3 & M4), Hm' as (M1' & M2' & M3' & M4').
    subst e s attrs. subst e' s' at'. assert (A' = A) by congruence. subst A'.
    assert (L2 : length (map (fun a => zr_of_bytes C (ob a)) (cr_attrs cred)) = length disc) by (rewrite map_length; exact La).
    split; cbn [u_cred u_sk u_A u_e u_s u_attrs]; try assumption.
    - repeat split; assumption.
    - rewrite <- L2. exact L.
  Qed.

  (** C06: there are mutually inverse maps between the draws of the two users under which the
      two presentations are the same message. *)
  Lemma unlinkable ipk B disc msg rh eid cri st cred1 sk1 A1 e1 s1 attrs1 cred2 sk2 A2 e2 s2 attrs2 :
    ipk_bases T ipk B -> b_hrand B <> gzero ->
    length (ip_names ipk) = length disc -> rh < length disc ->
    searchInts (hiddenIndices disc) (Z.of_nat rh) < nhid disc ->
    cri_alg cri = 0%Z -> In st [Standard; EidNym; EidNymRhNym] ->
    (with_eid st = true -> hidden_at disc eid) -> (with_rh st = true -> hidden_at disc rh) ->
    verCredential T cred1 sk1 ipk = Ok tt -> cred_means T cred1 A1 e1 s1 attrs1 -> A1 <> gzero ->
    length (cr_attrs cred1) = length disc ->
    verCredential T cred2 sk2 ipk = Ok tt -> cred_means T cred2 A2 e2 s2 attrs2 -> A2 <> gzero ->
    length (cr_attrs cred2) = length disc ->
    (forall i b, nth_error disc i = Some b -> b <> b0 -> nth_error attrs1 i = nth_error attrs2 i) ->
    exists f g : zr * SigRand C -> zr * SigRand C,
      (forall x, rd_r1 (snd x) <> z0 ->
        rd_r1 (snd (f x)) <> z0 /\ draws_eq (g (f x)) x /\
        exists sig, present H T cred1 sk1 ipk disc msg (Z.of_nat rh) (Z.of_nat eid) cri st x = Ok sig /\
                    present H T cred2 sk2 ipk disc msg (Z.of_nat rh) (Z.of_nat eid) cri st (f x) = Ok sig) /\
      (forall y, rd_r1 (snd y) <> z0 ->
        rd_r1 (snd (g y)) <> z0 /\ draws_eq (f (g y)) y /\
        exists sig, present H T cred2 sk2 ipk disc msg (Z.of_nat rh) (Z.of_nat eid) cri st y = Ok sig /\
                    present H T cred1 sk1 ipk disc msg (Z.of_nat rh) (Z.of_nat eid) cri st (g y) = Ok sig).
  Proof.
    intros HB HR Ln Hrh Hse Hal Hst He Hr V1 M1 N1 L1 V2 M2 N2 L2 Ag.
    pose proof (user_ok HB V1 M1 N1 L1) as U. pose proof (user_ok HB V2 M2 N2 L2) as V.
    set (u := {| u_cred := cred1 |}) in *. set (v := {| u_cred := cred2 |}) in *.
    assert (Agu : agree disc u v) by exact Ag.
    assert (Agv : agree disc v u) by (intros i b X Y; symmetry; exact (Ag i b X Y)).
    destruct (@link_exists C OK T ipk B disc rh eid HR u v U V) as (k & d & dn & de & dr & L).
    pose proof (link_sym OK L) as Ls.
    assert (Gnz : forall a b : zr, a <> z0 -> b <> z0 -> a * b <> z0).
    { intros a b Ha Hb Z. apply Ha. transitivity (a * b * zinv b); [field; exact Hb|]. rewrite Z. ring. }
    exists (shift H ipk B disc msg rh eid st u v k d dn de dr),
           (shift H ipk B disc msg rh eid st v u (zinv k) (- (d * zinv k)) (- dn) (- de) (- dr)).
    split; intros x NZ.
    - split; [cbn; apply Gnz; [exact NZ|exact (l_k L)]|].
      split; [eapply (shift_shift OK); eassumption|].
      exists (sigOf H T ipk B disc msg rh eid cri st u x). split.
      + eapply (@present_ok C OK) with (u := u); eassumption.
      + rewrite <- (@shift_sig C OK H T ipk B disc msg rh eid cri st Ln Hrh Hse He Hr u v k d dn de dr x U V Agu L NZ).
        eapply (@present_ok C OK H T ipk B disc msg rh eid cri st) with (u := v); eassumption.
    - split; [cbn; apply Gnz; [exact NZ|exact (l_k Ls)]|].
      split.
      + pose proof (@shift_shift C OK H T ipk B disc msg rh eid st Ln Hrh Hse He Hr v u _ _ _ _ _ x V U Agv Ls NZ) as D.
        pose proof (l_k L) as NK. pose proof (l_k Ls) as NK'.
        replace (zinv (zinv k)) with k in D by (field; split; [exact NK|exact (F_1_neq_0 (sok_field KO))]).
        replace (- (- (d * zinv k) * k)) with d in D by (field; auto).
        replace (- - dn) with dn in D by ring. replace (- - de) with de in D by ring. replace (- - dr) with dr in D by ring.
        exact D.
      + exists (sigOf H T ipk B disc msg rh eid cri st v x). split.
        * eapply (@present_ok C OK) with (u := v); eassumption.
        * rewrite <- (@shift_sig C OK H T ipk B disc msg rh eid cri st Ln Hrh Hse He Hr v u _ _ _ _ _ x V U Agv Ls NZ).
          eapply (@present_ok C OK H T ipk B disc msg rh eid cri st) with (u := u); eassumption.
  Qed.

  (** C07: pseudonyms hide the user secret. *)
  Lemma nym_hiding ipk HSk HRand sk1 sk2 :
    g1_from_proto T (ip_hsk ipk) = Ok HSk -> g1_from_proto T (ip_hrand ipk) = Ok HRand -> HRand <> gzero ->
    exists d : zr, forall r, exists N,
      makeNym T sk1 ipk r = Ok (N, r) /\ makeNym T sk2 ipk (r + d) = Ok (N, r + d).
  Proof.
    intros E1 E2 NZ. destruct (gok_cyclic GO1 (HSk ⊗ (sk1 - sk2)) NZ) as [d Hd].
    exists d. intro r. exists (gmul2 HSk sk1 HRand r). unfold makeNym. rewrite E1, E2. cbn [bind].
    split; [reflexivity|]. f_equal. f_equal.
    eapply (glin1 OK) with (k := - z1); [exact Hd|]. gnorm KO GO1; ring.
  Qed.

  (** ... and so does everything that is signed with them: the same signature of the same
      message under the same pseudonym comes from the other secret with other draws. *)
  Lemma nymsig_hiding ipk HSk HRand sk1 sk2 msg :
    g1_from_proto T (ip_hsk ipk) = Ok HSk -> g1_from_proto T (ip_hrand ipk) = Ok HRand -> HRand <> gzero ->
    exists d : zr, forall r nonce rSk rRNym, exists N sig c,
      makeNym T sk1 ipk r = Ok (N, r) /\ makeNym T sk2 ipk (r + d) = Ok (N, r + d) /\
      newNymSignature H T (Some sk1) (Some N) (Some r) (Some ipk) msg nonce rSk rRNym = Ok sig /\
      newNymSignature H T (Some sk2) (Some N) (Some (r + d)) (Some ipk) msg nonce
        (rSk + c * (sk1 - sk2)) (rRNym - c * d) = Ok sig.
  Proof.
    intros E1 E2 NZ. destruct (gok_cyclic GO1 (HSk ⊗ (sk1 - sk2)) NZ) as [d Hd].
    exists d. intros r nonce rSk rRNym. set (N := gmul2 HSk sk1 HRand r).
    set (str := nymsig_string (gmul2 HSk rSk HRand rRNym) N (ip_hash ipk) msg).
    exists N.
    assert (EN : gmul2 HSk sk2 HRand (r + d) = N).
    { unfold N. eapply (glin1 OK) with (k := - z1); [exact Hd|]. gnorm KO GO1; ring. }
    unfold newNymSignature. rewrite E1, E2. cbn [bind].
    rewrite (nymsig_data_ok OK). cbn [bind]. rewrite (challenge_ok OK) by apply (nymsig_string_length OK).
    cbn [bind]. fold str.
    match goal with |- exists sig c, _ /\ _ /\ Ok {| ns_c := zr_bytes _ ?k |} = _ /\ _ => set (ch := k) in *; eexists; exists ch end.
    unfold makeNym. rewrite E1, E2. cbn [bind].
    split; [reflexivity|]. split; [rewrite EN; reflexivity|]. split; [reflexivity|].
    assert (Et : gmul2 HSk (rSk + ch * (sk1 - sk2)) HRand (rRNym - ch * d) = gmul2 HSk rSk HRand rRNym).
    { eapply (glin1 OK) with (k := ch); [exact Hd|]. gnorm KO GO1; ring. }
    rewrite Et, (nymsig_data_ok OK). cbn [bind]. rewrite (challenge_ok OK) by apply (nymsig_string_length OK). cbn [bind].
    fold str. fold ch. f_equal. f_equal; f_equal; ring.
  Qed.
End HideTheorems.
