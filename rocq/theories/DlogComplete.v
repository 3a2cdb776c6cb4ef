(** Completeness proofs for the dlog scheme. *)
From Verif Require Import Base Curve Algebra Spec Dlog DlogSpec DlogFacts DlogData DlogSound.
From Coq Require Import Field Ring.

Section Complete.
  Context {C : Curve} (OK : CurveOk C).
  Variable H : hasher C.
  Variable T : translator C.
  Hypothesis TO : TrOk T.
  Let KO := ok_zr OK.
  Let GO1 := ok_g1 OK.
  Let GO2 := ok_g2 OK.
  Let GOT := ok_gt OK.
  Add Field Kf_complete : (sok_field KO).
  Notation zr := (zcar (Zr C)).
  Notation g1 := (gcar (G1 C)).
  Local Open Scope zr_scope.

  Lemma zfb_zb x : zr_of_bytes C (zr_bytes C x) = x.
  Proof. apply (ok_zr_rt OK). Qed.

  (** ** Issuance *)
  Section IssueKey.
  Variable marshal : IssuerPublicKey -> option bytes.

  Lemma newIssuerKey_inv names R key :
    newIssuerKey H T marshal names R = Ok key ->
    exists ipk, ik_ipk key = Some ipk /\ ik_isk key = zr_bytes C (ir_isk R) /\ ip_names ipk = names /\
      ipk_bases T ipk {| b_hsk := genG1 C ⊗ ir_hsk R; b_hrand := genG1 C ⊗ ir_hrand R;
                         b_attrs := map (fun i => genG1 C ⊗ ir_attrs R i) (seq 0 (length names));
                         b_w := genG2 C ⊗ ir_isk R |} /\
      (ir_barg1 R <> z0 -> checkIPK H T marshal ipk = Ok ipk).
  Proof.
    intro E. unfold newIssuerKey in E. rewrite (issuer_data_ok OK) in E. cbn [bind] in E. inv_all.
    unfold setHash in *.
    match goal with X : match marshal ?k with Some _ => _ | None => Err end = Ok _ |- _ =>
      destruct (marshal k) as [mb|] eqn:EM; inversion X; subst; clear X end.
    eexists. split; [reflexivity|]. split; [reflexivity|]. split; [reflexivity|].
    assert (PP : map_res (g1_from_proto T)
       (map (fun i : nat => Some (g1_to_proto T (genG1 C ⊗ ir_attrs R i))) (seq 0 (length names))) =
       Ok (map (fun i => genG1 C ⊗ ir_attrs R i) (seq 0 (length names)))).
    { apply map_res_map. intro i. apply (tr_g1 TO). }
    split.
    - unfold ipk_bases. cbn [with_hash ip_hsk ip_hrand ip_hattrs ip_w b_hsk b_hrand b_attrs b_w].
      rewrite !(tr_g1 TO), (tr_g2 TO). auto.
    - intro NZ. unfold checkIPK, checkIPK_first, parse_points. cbn [with_hash ip_hsk ip_hrand ip_hattrs ip_w ip_barg1 ip_barg2 ip_c ip_s ip_names].
      rewrite !(tr_g1 TO), (tr_g2 TO). rewrite PP. cbn [bind]. rewrite !zfb_zb.
      destruct (geqb (genG1 C ⊗ ir_barg1 R) gzero) eqn:EZ.
      { exfalso. apply (gok_eqb GO1) in EZ. apply NZ. 
        apply (@gmul_faithful _ _ KO GO1 (genG1 C)); [apply (ok_gen1 OK)|]. rewrite (gmul_0 KO GO1). exact EZ. }
      cbn [negb guard bind].
      rewrite map_length, seq_length, Nat.leb_refl. cbn [guard bind].
      rewrite (proj2 (forallb_forall _ _)).
      2:{ intros o Ho. assert (Hi : In o (map (fun i : nat => Some (g1_to_proto T (genG1 C ⊗ ir_attrs R i))) (seq 0 (length names)))).
          { rewrite <- (firstn_skipn (length names) (map _ _)). apply in_or_app. left. exact Ho. }
          apply in_map_iff in Hi. destruct Hi as [i [<- _]]. reflexivity. }
      cbn [guard bind]. rewrite (issuer_data_ok OK). cbn [bind].
      match goal with |- context [guard (zeqb ?h (H ?s))] =>
        match h with H ?s' => replace s with s' end end.
      + rewrite (zeqb_refl KO). cbn [guard bind]. unfold setHash.
        unfold with_hash in *. cbn [ip_names ip_hsk ip_hrand ip_hattrs ip_w ip_barg1 ip_barg2 ip_c ip_s] in *.
        rewrite EM. reflexivity.
      + f_equal.
        * f_equal. gnorm KO GO2; ring.
        * f_equal. f_equal. gnorm KO GO1; ring.
  Qed.

  Lemma newIssuerKey_ok names R : NoDup names ->
    (forall k, exists b, marshal k = Some b) -> exists key, newIssuerKey H T marshal names R = Ok key.
  Proof.
    intros ND MT. unfold newIssuerKey. 
    assert (U : forall l seen, NoDup l -> (forall x, In x l -> ~ In x seen) -> names_unique seen l = true).
    { induction l as [|n l IH]; intros seen D S; [reflexivity|]. cbn [names_unique].
      destruct (existsb (bytes_eqb n) seen) eqn:EX.
      - exfalso. apply existsb_exists in EX. destruct EX as [x [X1 X2]]. apply bytes_eqb_eq in X2. subst x.
        exact (S n (or_introl eq_refl) X1).
      - inversion D; subst. apply IH; [assumption|]. intros x Hx [<-|Hs]; [contradiction|].
        exact (S x (or_intror Hx) Hs). }
    rewrite U by (auto; intros ? _ []). cbn [guard bind]. rewrite (issuer_data_ok OK). cbn [bind].
    unfold setHash. match goal with |- context [marshal ?k] => destruct (MT k) as [b ->] end.
    cbn [bind]. eauto.
  Qed.

  End IssueKey.

  Lemma credRequest_ok sk nonce ipk rSk B :
    ipk_bases T ipk B -> length nonce <= (2 * scalar_size C)%nat ->
    exists req, newCredRequest H T sk (Some nonce) ipk rSk = Ok req /\
      checkCredRequest H T req ipk = Ok tt /\
      g1_from_proto T (rq_nym req) = Ok (b_hsk B ⊗ sk) /\ rq_nonce req = Some nonce.
  Proof.
    intros (Hsk & _) L. unfold newCredRequest. rewrite Hsk. cbn [bind ob].
    rewrite (credreq_data_ok OK) by exact L. cbn [bind]. eexists. split; [reflexivity|].
    cbn [rq_nym rq_nonce]. split; [|split; [apply (tr_g1 TO)|reflexivity]].
    unfold checkCredRequest, checkCredRequest_first. cbn [rq_nym rq_nonce rq_c rq_s]. rewrite (tr_g1 TO). cbn [bind].
    rewrite Hsk. cbn [bind opt_err]. rewrite !zfb_zb. rewrite (credreq_data_ok OK) by exact L. cbn [bind].
    match goal with |- guard (zeqb ?h (H ?s)) = _ => match h with H ?s' => replace s with s' end end.
    - rewrite (zeqb_refl KO). reflexivity.
    - unfold credreq_string. do 4 f_equal. f_equal. gnorm KO GO1; ring.
  Qed.

  Lemma map_ob_attrs (attrs : list zr) :
    map (fun a => zr_of_bytes C (ob a)) (map (fun a => Some (zr_bytes C a)) attrs) = attrs.
  Proof. rewrite map_map. cbn [ob]. rewrite <- (map_id attrs) at 2. apply map_ext. intro. apply zfb_zb. Qed.

  Lemma attrs_present_ok (names : list bytes) (attrs : list zr) : forall pre k,
    k = length pre ->
    fold_res (fun (_ : unit) i =>
        let* a := nth_res (pre ++ map (fun a => Some (zr_bytes C a)) attrs) i in
        match a with
        | Some _ => Ok tt
        | None => let* _ := nth_res names i in Err
        end) (seq k (length attrs)) tt = Ok tt.
  Proof.
    induction attrs as [|a attrs IH]; intros pre k ->; [reflexivity|].
    cbn [length seq fold_res map].
    pose proof (nth_res_app2 pre (Some (zr_bytes C a) :: map (fun a => Some (zr_bytes C a)) attrs) 0) as N.
    rewrite Nat.add_0_r in N. rewrite N. cbn [nth_res nth_error bind].
    replace (pre ++ Some (zr_bytes C a) :: map (fun a0 => Some (zr_bytes C a0)) attrs)
      with ((pre ++ [Some (zr_bytes C a)]) ++ map (fun a0 => Some (zr_bytes C a0)) attrs) by (rewrite <- app_assoc; reflexivity).
    apply IH. rewrite app_length. cbn [length]. lia.
  Qed.

  Lemma newCredential_ok key ipk B isk req sk attrs E S :
    ik_ipk key = Some ipk -> ik_isk key = zr_bytes C isk ->
    ipk_bases T ipk B -> b_w B = genG2 C ⊗ isk ->
    checkCredRequest H T req ipk = Ok tt ->
    g1_from_proto T (rq_nym req) = Ok (b_hsk B ⊗ sk) ->
    length attrs = length (ip_names ipk) -> length attrs <= length (b_attrs B) ->
    isk + E <> z0 ->
    exists cred A, newCredential H T key req attrs E S = Ok cred /\
      verCredential T cred sk ipk = Ok tt /\
      cred_means T cred A E S attrs /\ bbs_valid B A E S sk attrs.
  Proof.
    intros Hi Hs (HB1 & HB2 & HB3 & HB4) HW Hreq Hnym L1 L2 NZ.
    unfold newCredential. rewrite Hi. cbn [deref bind]. rewrite Hreq. cbn [bind].
    rewrite (proj2 (Nat.eqb_eq _ _) L1). cbn [guard bind]. rewrite Hnym. cbn [bind]. rewrite HB2. cbn [bind].
    unfold parse_points. rewrite HB3. cbn [bind].
    rewrite (loop2_ok OK) by lia. cbn [bind]. rewrite firstn_all.
    rewrite Hs, zfb_zb.
    assert (FD : gdot (firstn (length attrs) (b_attrs B)) attrs = gdot (b_attrs B) attrs).
    { clear. generalize (b_attrs B). induction attrs as [|a l IH]; intros [|p ps]; try reflexivity.
      cbn [length firstn gdot]. rewrite IH. reflexivity. }
    rewrite FD.
    set (Bv := genG1 C ⊕ b_hsk B ⊗ sk ⊕ b_hrand B ⊗ S ⊕ gdot (b_attrs B) attrs).
    assert (EB : Bv = cred_base B S sk attrs) by (unfold Bv, cred_base; gnorm KO GO1; ring).
    assert (BV : bbs_valid B (Bv ⊗ zinv (isk + E)) E S sk attrs).
    { unfold bbs_valid. rewrite <- EB, HW.
      replace (genG2 C ⊗ isk ⊕ genG2 C ⊗ E) with (genG2 C ⊗ (isk + E)) by (gnorm KO GO2; ring).
      rewrite (ok_pair_mul_l OK), (ok_pair_mul_r OK). gnorm KO GOT; field; exact NZ. }
    eexists. exists (Bv ⊗ zinv (isk + E)). split; [reflexivity|]. split; [|split].
    - unfold verCredential. cbn [cr_a cr_b cr_e cr_s cr_attrs]. rewrite !(tr_g1 TO). cbn [bind].
      rewrite map_length.
      pose proof (attrs_present_ok (ip_names ipk) attrs [] eq_refl) as AP. cbn [app length] in AP. rewrite AP. cbn [bind].
      rewrite HB1. cbn [bind]. rewrite HB2. cbn [bind]. unfold parse_points. rewrite HB3. cbn [bind].
      rewrite map_ob_attrs, (loop2_ok OK) by lia. cbn [bind]. rewrite firstn_all, FD, !zfb_zb.
      replace (genG1 C ⊕ gmul2 (b_hsk B) sk (b_hrand B) S ⊕ gdot (b_attrs B) attrs) with Bv
        by (unfold Bv; gnorm KO GO1; ring).
      rewrite (geqb_refl GO1). cbn [guard bind]. rewrite HB4. cbn [bind].
      unfold bbs_valid in BV. rewrite <- EB in BV. rewrite (gok_comm GO2), BV, (geqb_refl GOT). reflexivity.
    - unfold cred_means. cbn [cr_a cr_e cr_s cr_attrs]. rewrite (tr_g1 TO), !zfb_zb. 
      repeat split; try reflexivity. apply map_ob_attrs.
    - exact BV.
  Qed.

  Lemma attrs_present_iff (names : list bytes) (attrs : list (option bytes)) : forall pre k,
    k = length pre ->
    fold_res (fun (_ : unit) i =>
        let* a := nth_res (pre ++ attrs) i in
        match a with
        | Some _ => Ok tt
        | None => let* _ := nth_res names i in Err
        end) (seq k (length attrs)) tt = Ok tt <-> Forall (fun a => a <> None) attrs.
  Proof.
    induction attrs as [|a attrs IH]; intros pre k ->; cbn [length seq fold_res].
    - split; [constructor|reflexivity].
    - pose proof (nth_res_app2 pre (a :: attrs) 0) as N.
      rewrite Nat.add_0_r in N. rewrite N. cbn [nth_res nth_error bind].
      replace (pre ++ a :: attrs) with ((pre ++ [a]) ++ attrs) by (rewrite <- app_assoc; reflexivity).
      destruct a as [b|]; cbn [bind].
      + rewrite (IH (pre ++ [Some b]) (S (length pre))) by (rewrite app_length; cbn [length]; lia).
        split; intro F; [constructor; [discriminate|exact F]|inversion F; assumption].
      + split; intro F.
        * destruct (nth_res names (length pre)); cbn [bind] in F; discriminate.
        * inversion F; congruence.
  Qed.

  Lemma gdot_firstn (ks : list zr) : forall ps : list g1,
    gdot (firstn (length ks) ps) ks = gdot ps ks.
  Proof.
    induction ks as [|a l IH]; intros [|p ps]; try reflexivity.
    cbn [length firstn gdot]. rewrite IH. reflexivity.
  Qed.

  Lemma verCredential_iff cred sk ipk B : ipk_bases T ipk B ->
    verCredential T cred sk ipk = Ok tt <->
    (exists A e s attrs, cred_means T cred A e s attrs /\
      Forall (fun a => a <> None) (cr_attrs cred) /\
      length attrs <= length (b_attrs B) /\
      g1_from_proto T (cr_b cred) = Ok (cred_base B s sk attrs) /\
      bbs_valid B A e s sk attrs).
  Proof.
    intros (HB1 & HB2 & HB3 & HB4). unfold verCredential, parse_points. rewrite HB1, HB2, HB3, HB4.
    set (attrs := map (fun a => zr_of_bytes C (ob a)) (cr_attrs cred)).
    assert (La : length attrs = length (cr_attrs cred)) by apply map_length.
    assert (EB : forall s, genG1 C ⊕ gmul2 (b_hsk B) sk (b_hrand B) s ⊕ gdot (b_attrs B) attrs = cred_base B s sk attrs).
    { intro s. unfold cred_base. gnorm KO GO1; ring. }
    split.
    - intro E. inv_all. exists v, (zr_of_bytes C (cr_e cred)), (zr_of_bytes C (cr_s cred)), attrs.
      match goal with X : loop2 _ _ _ _ _ = Ok _ |- _ => rename X into LP end.
      destruct (loop2_panic_bases _ _ _ _ LP) as [L1 L2].
      rewrite (loop2_ok OK) in LP by lia. rewrite <- La, firstn_all, gdot_firstn, EB in LP. inv_all.
      repeat match goal with G : geqb _ _ = true |- _ =>
        first [apply (gok_eqb GO1) in G | apply (gok_eqb GOT) in G] end.
      repeat split; try assumption.
      + match goal with X : fold_res _ _ _ = Ok ?u |- _ => destruct u; apply (attrs_present_iff (ip_names ipk) (cr_attrs cred) [] eq_refl); exact X end.
      + lia.
      + congruence.
      + unfold bbs_valid. rewrite (gok_comm GO2). congruence.
    - intros (A & e & s & attrs' & (M1 & M2 & M3 & M4) & FA & LL & HBp & BV).
      change (attrs = attrs') in M4. subst attrs' e s.
      rewrite M1, HBp. cbn [bind].
      pose proof (proj2 (attrs_present_iff (ip_names ipk) (cr_attrs cred) [] eq_refl) FA) as AP.
      cbn [app length] in AP. rewrite AP. cbn [bind].
      rewrite (loop2_ok OK) by lia. rewrite <- La, firstn_all, gdot_firstn, EB. cbn [bind].
      rewrite (geqb_refl GO1). cbn [guard bind].
      unfold bbs_valid in BV. rewrite (gok_comm GO2 (genG2 C ⊗ _)), BV, (geqb_refl GOT). reflexivity.
  Qed.

  (** ** Signatures *)
  Lemma Ver_first_ok sig disc ipk msg vals rhI eidI vt B APrime ABar BPrime Nym eid rh n E :
    ipk_bases T ipk B ->
    valid_input rhI ipk disc = true ->
    type_checks vt sig = true ->
    g1_from_proto T (sg_aprime sig) = Ok APrime ->
    g1_from_proto T (sg_abar sig) = Ok ABar ->
    g1_from_proto T (sg_bprime sig) = Ok BPrime ->
    g1_from_proto T (sg_nym sig) = Ok Nym ->
    APrime <> gzero ->
    pair C (b_w B) APrime = pair C (genG2 C) ABar ->
    length (sg_sattrs sig) = nhid disc ->
    length disc <= length (b_attrs B) ->
    vals_ok disc vals ->
    (if verifyEIDNym vt sig
     then exists x, recompute_t4 T (sg_eid sig) ipk eidI (hiddenIndices disc)
                    (map (zr_of_bytes C) (sg_sattrs sig)) (b_hrand B) (zr_of_bytes C (sg_c sig)) = Ok x
                  /\ eid = Some x
     else eid = None) ->
    (if verifyRHNym vt sig
     then exists x, recompute_t4 T (sg_rh sig) ipk rhI (hiddenIndices disc)
                    (map (zr_of_bytes C) (sg_sattrs sig)) (b_hrand B) (zr_of_bytes C (sg_c sig)) = Ok x
                  /\ rh = Some x
     else rh = None) ->
    sg_nonrev sig = Some n -> nr_alg n = 0%Z ->
    searchInts (hiddenIndices disc) rhI < nhid disc ->
    g2_from_proto T (sg_epochpk sig) = Ok E ->
    Ver_first T sig disc ipk msg vals rhI eidI vt = Ok {|
      vf_data := sig_string
        (t1_of APrime ABar BPrime (b_hrand B) (zr_of_bytes C (sg_c sig)) (zr_of_bytes C (sg_se sig)) (zr_of_bytes C (sg_sr2 sig)))
        (t2_of B disc vals BPrime (zr_of_bytes C (sg_c sig)) (zr_of_bytes C (sg_ssprime sig))
               (zr_of_bytes C (sg_sr3 sig)) (zr_of_bytes C (sg_ssk sig)) (map (zr_of_bytes C) (sg_sattrs sig)))
        (t3_of B Nym (zr_of_bytes C (sg_c sig)) (zr_of_bytes C (sg_ssk sig)) (zr_of_bytes C (sg_srnym sig)))
        APrime ABar BPrime Nym eid rh (ip_hash ipk) disc msg;
      vf_c := zr_of_bytes C (sg_c sig); vf_nonce := zr_of_bytes C (sg_nonce sig);
      vf_hrand := b_hrand B; vf_eid := eid; vf_rh := rh |}.
  Proof.
    intros (HB1 & HB2 & HB3 & HB4) HV HT Ha Hab Hb Hn Hnz Hp Hl Hbs Hvo He Hr Hnr Hal Hs HE.
    unfold Ver_first, parse_points. rewrite HV. cbn [guard bind]. rewrite Hnr. cbn [deref bind].
    unfold valid_input in HV.
    assert (exists d, znth disc rhI = Ok d) as [d ->].
    { unfold znth. apply andb_true_iff in HV. destruct HV as [HV1 HV2]. apply Nat.eqb_eq in HV2.
      destruct (rhI <? 0)%Z eqn:Z0; [cbn [orb negb] in HV1; discriminate|]. apply nth_res_lt. lia. }
    cbn [bind]. unfold alg_none. rewrite Hal. cbn [Z.eqb negb andb guard bind]. rewrite HT. cbn [guard bind].
    rewrite Ha, Hab, Hb, Hn. cbn [bind]. rewrite Hl, hidden_nhid, Nat.eqb_refl. cbn [guard bind].
    rewrite HB4, HB2, HB1. cbn [bind].
    destruct (geqb APrime gzero) eqn:Z1; [exfalso; apply (gok_eqb GO1) in Z1; contradiction|].
    cbn [negb guard bind]. rewrite Hp, (gsub_diag KO GOT), (geqb_refl GOT). cbn [guard bind].
    rewrite HB3. cbn [bind].
    pose proof (map_res_hidden disc [] (b_attrs B) Hbs) as MH. cbn [app length] in MH.
    change (hidden_from 0 disc) with (hiddenIndices disc) in MH. rewrite MH. cbn [bind].
    rewrite (loop2_ok OK) by (rewrite ?map_length, ?hsel_nhid; lia). cbn [bind].
    rewrite !firstn_all2 by (rewrite ?map_length, ?hsel_nhid; lia).
    rewrite (disclosed_prod_ok OK disc 0 (b_attrs B) vals (genG1 C)) by (cbn [skipn]; auto). cbn [bind skipn].
    match goal with |- (let* e := ?X in _) = _ => replace X with (Ok eid) end.
    2:{ destruct (verifyEIDNym vt sig); [destruct He as [x [-> ->]]; reflexivity|subst; reflexivity]. }
    cbn [bind].
    match goal with |- (let* e := ?X in _) = _ => replace X with (Ok rh) end.
    2:{ destruct (verifyRHNym vt sig); [destruct Hr as [x [-> ->]]; reflexivity|subst; reflexivity]. }
    cbn [bind].
    destruct (@nth_res_lt _ (map (zr_of_bytes C) (sg_sattrs sig)) (searchInts (hiddenIndices disc) rhI)) as [s0 ->];
      [rewrite map_length; lia|]. cbn [bind]. rewrite HE. cbn [bind].
    rewrite (sig_data_ok OK).
    - reflexivity.
    - intros N. destruct (verifyRHNym vt sig) eqn:R; [|congruence].
      rewrite (rh_implies_eid _ _ R) in He. destruct He as [x [_ ->]]. congruence.
  Qed.

  Lemma sattrs_loop (g : zr -> option bytes -> bytes) (cA : list (option bytes)) : forall (rA pre : list zr) (hidden : list nat) sel k,
    k = length pre -> length rA = length hidden ->
    map_res (nth_res cA) hidden = Ok sel ->
    map_res (fun ij : nat * nat =>
        let* r := nth_res (pre ++ rA) (fst ij) in
        let* a := nth_res cA (snd ij) in
        Ok (g r a)) (combine (seq k (length hidden)) hidden)
    = Ok (map (fun xy => g (fst xy) (snd xy)) (combine rA sel)).
  Proof.
    induction rA as [|r rA IH]; intros pre [|h hidden] sel k -> L E; try discriminate.
    - cbn [map_res] in E. inversion E. reflexivity.
    - cbn [map_res] in E. inv_all. cbn [length seq combine map_res fst snd map].
      pose proof (nth_res_app2 pre (r :: rA) 0) as N. rewrite Nat.add_0_r in N. rewrite N.
      cbn [nth_res nth_error bind]. rewrite E0. cbn [bind].
      replace (pre ++ r :: rA) with ((pre ++ [r]) ++ rA) by (rewrite <- app_assoc; reflexivity).
      rewrite (IH (pre ++ [r]) hidden v0 (S (length pre))); auto.
      rewrite app_length. cbn [length]. lia.
  Qed.

  (** what finalise computes for an attribute pseudonym *)
  Lemma finalise_nym_inv cred ipk B j meta hidden rAttrs fresh rr nym t4 r a :
    ipk_bases T ipk B ->
    finalise_nym T cred ipk (Z.of_nat j) meta hidden rAttrs fresh rr = Ok (nym, t4, r, a) ->
    exists Hj ab ra, nth_error (b_attrs B) j = Some Hj /\ nth_error (cr_attrs cred) j = Some ab /\
      a = zr_of_bytes C (ob ab) /\ nth_error rAttrs (searchInts hidden (Z.of_nat j)) = Some ra /\
      nym = gmul2 Hj a (b_hrand B) r /\ t4 = gmul2 Hj ra (b_hrand B) rr /\
      match meta with
      | None => r = fresh
      | Some None => False
      | Some (Some d) => au_attr d = Some a /\ au_rand d = Some r /\ au_nym d = Some nym
      end.
  Proof.
    intros (_ & HB2 & HB3 & _) E. unfold finalise_nym in E. rewrite !znth_nat in E. rewrite HB2 in E. inv_all.
    repeat match goal with X : nth_res _ _ = Ok _ |- _ => apply nth_res_ok in X end.
    match goal with X : nth_error (ip_hattrs ipk) j = Some _ |- _ =>
      destruct (map_res_nth _ _ _ HB3 X) as [h [Hh1 Hh2]] end.
    match goal with X : g1_from_proto T _ = Ok ?h' |- _ => assert (h = h') by congruence; subst h' end.
    do 3 eexists. repeat split; eauto.
    destruct meta as [[d|]|]; [|inv_all|inv_all; reflexivity]. inv_all.
    destruct (au_attr d) as [x|]; cbn [deref] in *; [|discriminate].
    destruct (au_rand d) as [y|]; cbn [deref] in *; [|discriminate].
    destruct (au_nym d) as [z|]; cbn [deref] in *; [|discriminate]. inv_all.
    repeat match goal with G : geqb _ _ = true |- _ => apply (gok_eqb GO1) in G; subst
                         | G : zeqb _ _ = true |- _ => apply (sok_eqb KO) in G; subst end.
    auto.
  Qed.

  Lemma prepare_inv cred sk ipk B disc rhI cri R P :
    ipk_bases T ipk B -> length disc <= length (b_attrs B) ->
    prepare T cred sk ipk disc rhI cri R = Ok P ->
    exists A Bv, g1_from_proto T (cr_a cred) = Ok A /\ g1_from_proto T (cr_b cred) = Ok Bv /\
      valid_input rhI ipk disc = true /\ cri_alg cri = 0%Z /\
      searchInts (hiddenIndices disc) rhI < nhid disc /\
      let e := zr_of_bytes C (cr_e cred) in
      let APrime := A ⊗ rd_r1 R in
      let BPrime := Bv ⊗ rd_r1 R ⊖ b_hrand B ⊗ rd_r2 R in
      let rattrs := map (rd_rattrs R) (seq 0 (nhid disc)) in
      P = {| pr_t1 := gmul2 APrime (rd_re R) (b_hrand B) (rd_rr2 R);
             pr_t2 := b_hrand B ⊗ rd_rsprime R ⊕ gmul2 BPrime (rd_rr3 R) (b_hsk B) (rd_rsk R)
                      ⊕ gdot (hsel disc (b_attrs B)) rattrs;
             pr_t3 := gmul2 (b_hsk B) (rd_rsk R) (b_hrand B) (rd_rrnym R);
             pr_aprime := APrime; pr_abar := Bv ⊗ rd_r1 R ⊖ APrime ⊗ e; pr_bprime := BPrime;
             pr_e := e; pr_r3 := zinv (rd_r1 R);
             pr_sprime := zr_of_bytes C (cr_s cred) - rd_r2 R * zinv (rd_r1 R);
             pr_rattrs := rattrs; pr_hidden := hiddenIndices disc |}.
  Proof.
    intros (HB1 & HB2 & HB3 & HB4) L E. unfold prepare, parse_points in E.
    rewrite HB1, HB2, HB3 in E. rewrite hidden_nhid in E.
    pose proof (map_res_hidden disc [] (b_attrs B) L) as MH. cbn [app length] in MH.
    change (hidden_from 0 disc) with (hiddenIndices disc) in MH.
    inv_all. rewrite MH in *. inv_all.
    match goal with X : loop2 _ _ _ _ _ = Ok _ |- _ =>
      rewrite (loop2_ok OK) in X by (rewrite ?map_length, ?seq_length, ?hsel_nhid; lia);
      rewrite !firstn_all2 in X by (rewrite ?map_length, ?seq_length, ?hsel_nhid; lia) end.
    inv_all. do 2 eexists. repeat split; eauto.
    - match goal with G : alg_none (cri_alg cri) = true |- _ => unfold alg_none in G; lia end.
    - match goal with X : nth_res (map _ (seq _ _)) ?k = Ok _ |- _ => apply nth_res_ok in X;
        assert (NN : nth_error (map (rd_rattrs R) (seq 0 (nhid disc))) k <> None) by congruence;
        apply nth_error_Some in NN; rewrite map_length, seq_length in NN; exact NN end.
  Qed.

  Lemma finalise_nym_ok cred ipk B j meta hidden rAttrs fresh rr Hj ab ra :
    ipk_bases T ipk B ->
    nth_error (b_attrs B) j = Some Hj -> nth_error (cr_attrs cred) j = Some ab ->
    nth_error rAttrs (searchInts hidden (Z.of_nat j)) = Some ra ->
    (meta = None \/ exists d, meta = Some d /\ opening_ok Hj (b_hrand B) (zr_of_bytes C (ob ab)) d) ->
    exists x, finalise_nym T cred ipk (Z.of_nat j) meta hidden rAttrs fresh rr = Ok x.
  Proof.
    intros (_ & HB2 & HB3 & _) E1 E2 E3 Hm. unfold finalise_nym. rewrite !znth_nat.
    unfold nth_res at 1. rewrite E2. cbn [bind].
    assert (exists h, nth_error (ip_hattrs ipk) j = Some h) as [h Hh].
    { destruct (nth_error (ip_hattrs ipk) j) eqn:N; [eauto|]. exfalso.
      apply nth_error_None in N. apply map_res_length in HB3.
      assert (j < length (b_attrs B)) by (apply nth_error_Some; congruence). lia. }
    destruct (map_res_nth _ _ _ HB3 Hh) as [h' [P1 P2]]. assert (h' = Hj) by congruence. subst h'.
    destruct Hm as [->|[d [-> (n & r & -> & On)]]].
    - cbn [bind]. unfold nth_res at 1. rewrite E3. cbn [bind]. unfold nth_res. rewrite Hh. cbn [bind].
      rewrite P1, HB2. cbn [bind]. eauto.
    - cbn [bind au_attr au_rand au_nym deref]. rewrite (zeqb_refl KO). cbn [guard bind].
      unfold nth_res at 1. rewrite E3. cbn [bind]. unfold nth_res. rewrite Hh. cbn [bind].
      rewrite P1, HB2. cbn [bind]. unfold opens in On. rewrite On.
      unfold gmul2 at 1. rewrite (geqb_refl GO1). cbn [guard bind]. eauto.
  Qed.

  (** the shape of a signature produced by finalise *)
  Definition attr_sig (x : option (g1 * g1 * zr * zr)) (rr c : zr) : option AttrNym :=
    match x with
    | Some (n, _, r, _) => Some {| an_nym := Some (g1_to_proto T n); an_s := Some (zr_bytes C (rr + c * r)) |}
    | None => None
    end.
  Definition attr_pts (x : option (g1 * g1 * zr * zr)) : option (g1 * g1) :=
    match x with Some (n, t, _, _) => Some (n, t) | None => None end.
  Definition attr_audit (x : option (g1 * g1 * zr * zr)) : option (AuditData C) :=
    match x with
    | Some (n, _, r, a) => Some {| au_nym := Some n; au_rand := Some r; au_attr := Some a |}
    | None => None
    end.

  Lemma recompute_ok cred ipk B j meta disc rattrs fresh rr n t r a c (attrs : list zr) :
    ipk_bases T ipk B ->
    map (fun a => zr_of_bytes C (ob a)) (cr_attrs cred) = attrs ->
    length attrs = length disc ->
    length rattrs = nhid disc ->
    hidden_at disc j ->
    finalise_nym T cred ipk (Z.of_nat j) meta (hiddenIndices disc) rattrs fresh rr = Ok (n, t, r, a) ->
    recompute_t4 T (attr_sig (Some (n, t, r, a)) rr c) ipk (Z.of_nat j) (hiddenIndices disc)
      (map (fun xy => fst xy + c * snd xy) (combine rattrs (hsel disc attrs))) (b_hrand B) c = Ok (n, t).
  Proof.
    intros HB Ha La Lr Hid E.
    edestruct finalise_nym_inv as (Hj & ab & ra & Q1 & Q2 & Q3 & Q4 & Q5 & Q6 & _); [exact HB|exact E|].
    destruct HB as (_ & HB2 & HB3 & _).
    unfold recompute_t4. rewrite znth_nat.
    assert (exists h, nth_error (ip_hattrs ipk) j = Some h) as [h Hh].
    { destruct (nth_error (ip_hattrs ipk) j) eqn:N; [eauto|]. exfalso.
      apply nth_error_None in N. apply map_res_length in HB3.
      assert (j < length (b_attrs B)) by (apply nth_error_Some; congruence). lia. }
    destruct (map_res_nth _ _ _ HB3 Hh) as [h' [P1 P2]]. assert (h' = Hj) by congruence. subst h'.
    unfold nth_res at 1. rewrite Hh. cbn [bind]. rewrite P1. cbn [bind deref attr_sig an_nym an_s ob].
    pose proof (hsel_searchInts disc 0 j attrs) as HS. specialize (HS Hid ltac:(lia)). cbn [Nat.add] in HS.
    change (hidden_from 0 disc) with (hiddenIndices disc) in HS.
    unfold nth_res. rewrite nth_error_map, nth_error_combine, Q4, HS.
    assert (Na : nth_error attrs j = Some a).
    { rewrite <- Ha, nth_error_map, Q2. cbn [option_map]. congruence. }
    rewrite Na. cbn [option_map fst snd bind]. rewrite (tr_g1 TO). cbn [bind]. rewrite zfb_zb.
    subst n t. do 2 f_equal. gnorm KO GO1; ring.
  Qed.

  Lemma zfb_zb_map {X} (f : X -> zr) (l : list X) : map (zr_of_bytes C) (map (fun x => zr_bytes C (f x)) l) = map f l.
  Proof. rewrite map_map. apply map_ext. intro. apply zfb_zb. Qed.

  Lemma combine_hsel_map (rA : list zr) (f : option bytes -> zr) disc : forall l,
    combine rA (hsel disc (map f l)) = map (fun xy => (fst xy, f (snd xy))) (combine rA (hsel disc l)).
  Proof.
    intro l. assert (E : hsel disc (map f l) = map f (hsel disc l)).
    { revert l. induction disc as [|d ds IH]; intros [|x l]; cbn [hsel map]; try reflexivity.
      destruct (byte_eqb d b0); cbn [map]; rewrite IH; reflexivity. }
    rewrite E. generalize (hsel disc l). clear. induction rA as [|r rA IH]; intros [|x l]; cbn [combine map]; try reflexivity.
    rewrite IH. reflexivity.
  Qed.
End Complete.
