(** Signatures the aries verifier accepts although nobody certified anything, and byte strings that
    make it panic. *)
From Verif Require Import Base Curve Algebra Spec Dlog Bridge BridgeFacts Bbs BbsSpec BbsFacts BbsProof BbsComplete Aries AriesSpec AriesIssue AriesNym AriesVerify AriesSign AriesSound.
From Coq Require Import Field Ring Sorting.Sorted.
Unset Strict Implicit.

Section Forge.
  Context {C : Curve} (OK : CurveOk C).
  Variable HG : bytes -> G1 C.
  Let KO := ok_zr OK.
  Let GO1 := ok_g1 OK.
  Notation zr := (zcar (Zr C)).
  Notation g1 := (gcar (G1 C)).
  Notation g2 := (gcar (G2 C)).
  Variable BS : bls_sizes C.
  Let S32 : scalar_size C = frCompressedSize := proj1 BS.
  Variable c_sig : codec ASignature.

  Definition needs_eid (v : VerificationType) : bool := match v with ExpectEidNym | ExpectEidNymRhNym | ExpectSmartcard => true | _ => false end.
  Definition needs_rh (v : VerificationType) : bool := match v with ExpectEidNymRhNym => true | _ => false end.

  (** a signature made of neutral elements and zero responses; [idx] is the position claimed for the enrollment id *)
  Definition forged_sig (main np : bytes) (v : VerificationType) (idx : Z) : ASignature := {|
    as_main := main; as_nonce := []; as_nym := g1_bytes C gzero; as_nym_proof := np;
    as_eid := if needs_eid v then g1_bytes C gzero else []; as_eid_proof := if needs_eid v then np else []; as_eid_idx := idx;
    as_rh := if needs_rh v then g1_bytes C gzero else []; as_rh_proof := if needs_rh v then np else []; as_rh_idx := 2%Z;
    as_epoch_pk := []; as_pk_sig := []; as_epoch := 0%Z; as_alg := Some 0%Z |}.

  Lemma forged_canon main np v idx : int32 idx -> canon_asig (forged_sig main np v idx).
  Proof.
    intro I. unfold canon_asig, forged_sig, int32, int64 in *. cbn [as_eid_idx as_rh_idx as_epoch as_alg]. split; [exact I|]. split; [lia|]. split; [lia|].
    intros a E. injection E as <-. lia.
  Qed.

  Lemma null_bytes : exists np, np <> [] /\ parseProofG1 C np = Ok (null_proof (C := C) 3).
  Proof.
    destruct (proofG1_rt OK S32 (p := null_proof (C := C) 3)) as [pb [_ [L P]]]; [cbn; lia|]. exists pb. split.
    - intros ->. unfold proof_size in L. simpl in L. lia.
    - rewrite <- (app_nil_r pb) at 1. apply P.
  Qed.

  Lemma forged_checks main np v idx : np <> [] -> ar_type_checks v (forged_sig main np v idx) = true /\
    ar_verifyEid v (forged_sig main np v idx) = needs_eid v /\ ar_verifyRh v (forged_sig main np v idx) = needs_rh v.
  Proof.
    intro NE. assert (N1 : nonempty (g1_bytes C gzero) = true) by (pose proof (ok_g1_len OK gzero) as L; pose proof (ok_g1_size OK); destruct (g1_bytes C gzero); [simpl in L; lia|reflexivity]). assert (N2 : nonempty np = true) by (destruct np; [congruence|reflexivity]).
    destruct v; unfold ar_type_checks, ar_verifyEid, ar_verifyRh, forged_sig; cbn [as_eid as_eid_proof as_rh as_rh_proof needs_eid needs_rh nonempty]; rewrite ?N1, ?N2; auto.
  Qed.

  Definition forged_out (v : VerificationType) (idx : Z) (m : nat) : res unit :=
    if needs_eid v then if (0 <=? idx)%Z && (idx <? Z.of_nat m)%Z then Ok tt else Panic else Ok tt.

  Lemma forged_result n rv v : (Z.of_nat (n + 1) <= 65535)%Z -> increasing rv -> (forall i, In i rv -> 1 <= i <= n) -> codec_ok canon_asig c_sig ->
    forall idx, int32 idx -> exists sigb, forall (H : hasher C) pk msg attrs ms eid rh, eid < n -> rh < n ->
      attributesToSignatureMessage H attrs 0 = Ok ms -> length rv <= length ms ->
      arVerify H c_sig (Some (Some (issuer_key HG pk n))) sigb msg attrs (Z.of_nat rh) (Z.of_nat eid) 0 v None
      = forged_out v idx (3 + count_out 0 (n + 1) (absent (ver_smartcard v) rv)).
  Proof.
    intros Hc I B CO idx I32. set (sc := ver_smartcard v). set (sp := forged_proof (C := C) (n + 1) (absent sc rv)). set (pl := {| pp_count := n + 1; pp_revealed := rv |}).
    assert (Hr : forall i, In i (pp_revealed pl) -> i < 8 * (pp_count pl / 8 + 1)).
    { intros i Hi. specialize (B i Hi). cbn [pp_count pl]. pose proof (Nat.mod_upper_bound (n + 1) 8 ltac:(lia)). pose proof (Nat.div_mod (n + 1) 8 ltac:(lia)). lia. }
    destruct (@payload_rt pl Hc Hr) as (pb & Ep & _).
    assert (Z1 : (Z.of_nat (proof_size (sp_vc1 sp)) <= 4294967295)%Z) by (unfold proof_size; cbn; pose proof (proj2 BS) as G; lia).
    pose proof (count_in_out 0 (n + 1) (absent sc rv)) as CIO.
    assert (Z2 : (Z.of_nat (length (pf_resp (sp_vc2 sp))) <= 4294967295)%Z) by (cbn [sp forged_proof sp_vc2 pf_resp]; rewrite repeat_length; lia).
    destruct (@signatureProofBytes_ok C OK BS sp Z1 Z2) as [sb Es].
    destruct null_bytes as (np & NE & PN). set (sg := forged_sig (pb ++ sb) np v idx).
    destruct (CO sg (@forged_canon _ _ v _ I32)) as (sigb & _ & D).
    exists sigb. intros H pk msg attrs ms eid rh Le Lr EM LM.
    destruct (@forged_checks (pb ++ sb) np v idx NE) as (T1 & T2 & T3). fold sg in T1, T2, T3.
    assert (P1 : parse_nym C (ar_verifyEid v sg) (as_eid_proof sg) (as_eid sg) = Ok (if needs_eid v then Some (null_proof (C := C) 3, gzero) else None)).
    { rewrite T2. cbn [sg forged_sig as_eid_proof as_eid]. destruct (needs_eid v); [|reflexivity]. unfold parse_nym. rewrite PN. cbn [bind]. rewrite (ok_g1_rt OK). reflexivity. }
    assert (P2 : parse_nym C (ar_verifyRh v sg) (as_rh_proof sg) (as_rh sg) = Ok (if needs_rh v then Some (null_proof (C := C) 3, gzero) else None)).
    { rewrite T3. cbn [sg forged_sig as_rh_proof as_rh]. destruct (needs_rh v); [|reflexivity]. unfold parse_nym. rewrite PN. cbn [bind]. rewrite (ok_g1_rt OK). reflexivity. }
    assert (B' : forall i, In i rv -> i < n + 1) by (intros i Hi; specialize (B i Hi); lia).
    destruct (@first_enc C OK HG H BS c_sig pk n sigb msg attrs 0%Z v sg ms rv pb sp sb gzero (null_proof (C := C) 3) _ _ D eq_refl T1 EM Ep Es eq_refl Hc I B' LM Z1 Z2 eq_refl (fun _ => PN) P1 P2)
      as (f & EF & F1 & F2 & F3 & F4 & F5 & F6 & F7 & F8 & F9 & F10 & _).
    unfold arVerify. rewrite EF. cbn [bind]. set (c := challenge2 H _ _).
    assert (R : (forall i, In i (vf_revealed f) <-> In i rv)).
    { intro i. rewrite F9. split; [tauto|]. intro X. split; [exact X|]. intros _ ->. specialize (B 0 X). lia. }
    assert (V : signatureProofVerify (vc2_verifier sc gzero) sp c (ip_key (issuer_key HG pk n)) (vf_revealed f) ms = Ok tt).
    { assert (Lh : length (pg_h (ip_key (issuer_key HG pk n))) = n + 1) by (cbn [issuer_key ip_key pg_h]; apply gens_length).
      assert (NEh : pg_h (ip_key (issuer_key HG pk n)) <> []) by (intro Q; rewrite Q in Lh; simpl in Lh; lia).
      apply (signatureProofVerify_iff OK). cbn [sp forged_proof sp_aprime sp_abar sp_d sp_vc1 sp_vc2].
      split; [rewrite !(pair_zero_r OK); reflexivity|]. split.
      - split; [cbn; lia|]. apply (gdot_all_zero OK). cbn. lia.
      - assert (NR : sc = true -> ~ In 0 (vf_revealed f)) by (intros _ X; apply R in X; specialize (B 0 X); lia).
        apply (vc2_iff OK BS gzero c ms _ gzero NR NEh).
        assert (CE : count_out 0 (n + 1) (absent sc (vf_revealed f)) = count_out 0 (n + 1) (absent sc rv)).
        { apply count_out_ext. intro i. unfold absent. destruct sc; [cbn [In]; rewrite R; tauto|apply R]. }
        assert (LV : length (vc2_bases (ip_key (issuer_key HG pk n)) (absent sc (vf_revealed f)) gzero) = 2 + count_out 0 (n + 1) (absent sc rv)).
        { unfold vc2_bases. cbn [length]. rewrite hidden_bases_unpick, unpick_length, Lh, CE. reflexivity. }
        split; [|split].
        + split; [cbn [issuer_key ip_key pg_count]; clear - F10; lia|]. rewrite Lh, (count_in_ext 0 _ R). rewrite (@count_in_increasing 0 (n + 1) rv I) by (intros j Hj; specialize (B j Hj); lia). exact LM.
        + cbn [pf_resp]. rewrite repeat_length, LV. lia.
        + cbn [pf_resp pf_comm]. apply (gdot_all_zero OK). rewrite app_length, LV. cbn [length]. lia. }
    unfold arVerify_second. rewrite F1, F2, F3, F4, F5, F6, F7, F8.
    replace (match (if needs_eid v then _ else _) with Some _ => _ | None => _ end) with (@Ok unit tt) by (destruct (needs_eid v); reflexivity).
    replace (match (if needs_rh v then _ else _) with Some _ => _ | None => _ end) with (@Ok unit tt) by (destruct (needs_rh v); reflexivity). cbn [bind].
    assert (NV : forall k pos, k <= n -> verify_attr_nym (ip_key (issuer_key HG pk n)) (Z.of_nat k) (null_proof (C := C) 3) gzero (sp_vc2 sp) pos c
                 = if (0 <=? pos)%Z && (pos <? Z.of_nat (3 + count_out 0 (n + 1) (absent sc rv)))%Z then Ok tt else Panic).
    { intros k pos Lk. destruct ((0 <=? pos)%Z && (pos <? Z.of_nat (3 + count_out 0 (n + 1) (absent sc rv)))%Z) eqn:Q.
      - apply (verify_attr_nym_iff OK HG BS _ _ _ _ _ _ Lk). exists z0, (Z.to_nat pos). split; [reflexivity|]. split; [lia|]. split.
        + cbn [sp forged_proof sp_vc2 pf_resp]. apply nth_error_repeat. lia.
        + apply (gdot_all_zero OK). cbn. lia.
      - unfold verify_attr_nym. replace (nth_res (pf_resp (null_proof (C := C) 3)) 1) with (Ok (@z0 (Zr C))) by reflexivity. cbn [bind]. unfold znth. cbn [sp forged_proof sp_vc2 pf_resp].
        destruct (pos <? 0)%Z eqn:Q1; [reflexivity|]. unfold nth_res at 1. rewrite (proj2 (nth_error_None _ _)); [reflexivity|]. rewrite repeat_length. lia. }
    fold sc.
    assert (PE : past_sk (Z.of_nat eid) 0 = Z.of_nat (S eid)) by (unfold past_sk; replace (0 <=? Z.of_nat eid)%Z with true by lia; lia).
    assert (PR : past_sk (Z.of_nat rh) 0 = Z.of_nat (S rh)) by (unfold past_sk; replace (0 <=? Z.of_nat rh)%Z with true by lia; lia).
    rewrite PE, PR. cbn [sg forged_sig as_eid_idx as_rh_idx].
    replace (match (if sc then None else Some (null_proof 3)) with Some p => verify_attr_nym (ip_key (issuer_key HG pk n)) 0 p gzero (sp_vc2 sp) (2 + 0) c | None => Ok tt end) with (@Ok unit tt).
    2:{ destruct sc; [reflexivity|]. symmetry. change 0%Z with (Z.of_nat 0) at 1. rewrite NV by lia. replace ((0 <=? 2 + 0)%Z && _) with true by lia. reflexivity. }
    cbn [bind]. unfold forged_out.
    replace (match (if needs_rh v then Some (null_proof 3, gzero) else None) with Some (p, n0) => verify_attr_nym (ip_key (issuer_key HG pk n)) (Z.of_nat (S rh)) p n0 (sp_vc2 sp) 2 c | None => Ok tt end) with (@Ok unit tt).
    2:{ destruct (needs_rh v); [|reflexivity]. symmetry. rewrite NV by lia. replace ((0 <=? 2)%Z && _) with true by lia. reflexivity. }
    destruct (needs_eid v).
    - rewrite NV by lia. destruct (_ && _); [|reflexivity]. cbn [bind]. exact V.
    - cbn [bind]. exact V.
  Qed.

  (** MainSignature ending right after the three points: reading the length of the first proof panics *)
  Lemma truncated_panics n v : (Z.of_nat (n + 1) <= 65535)%Z -> codec_ok canon_asig c_sig ->
    exists sigb, forall (H : hasher C) pk n' msg attrs ms eid rh skIndex meta, attributesToSignatureMessage H attrs skIndex = Ok ms ->
      arVerify H c_sig (Some (Some (issuer_key HG pk n'))) sigb msg attrs rh eid skIndex v meta = Panic.
  Proof.
    intros Hc CO. set (pl := {| pp_count := n + 1; pp_revealed := [] |}).
    destruct (@payload_rt pl Hc) as (pb & Ep & L & P); [cbn; tauto|].
    destruct null_bytes as (np & NE & PN). set (main := pb ++ g1_comp C gzero ++ g1_comp C gzero ++ g1_comp C gzero). set (sg := forged_sig main np v 2).
    destruct (CO sg) as (sigb & _ & D). { apply forged_canon. unfold int32. lia. }
    exists sigb. intros H pk n' msg attrs ms eid rh skIndex meta EM. unfold arVerify, arVerify_first. cbn [assert_ptr bind]. rewrite D. cbn [opt_err bind]. change (as_alg sg) with (Some 0%Z). cbn [opt_err bind Z.eqb guard].
    destruct (@forged_checks main np v 2 NE) as (T1 & _). fold sg in T1. rewrite T1. cbn [guard bind]. rewrite EM. cbn [bind]. change (as_main sg) with main. 
    specialize (P (g1_comp C gzero ++ g1_comp C gzero ++ g1_comp C gzero)). destruct P as (l & P & _). fold main in P. rewrite P. cbn [bind pp_count].
    change (n + 1) with (pp_count pl). rewrite <- L. unfold main. rewrite (@slice_from_at byte pb _ (length pb) eq_refl). cbn [bind].
    replace (parseSignatureProof C (g1_comp C gzero ++ g1_comp C gzero ++ g1_comp C gzero)) with (@Panic (PoKOfSignatureProof C)); [reflexivity|].
    symmetry. unfold parseSignatureProof. pose proof (ok_g1c_len OK gzero) as Lz. set (z := g1_comp C gzero) in *. set (cs := g1_csize C) in *.
    assert (Q0 : parse_g1c C (z ++ z ++ z) 0 = Ok gzero) by (apply (parse_g1c_at OK gzero [])).
    assert (Q1 : parse_g1c C (z ++ z ++ z) cs = Ok gzero) by (rewrite <- Lz; apply (parse_g1c_at OK)).
    assert (Q2 : parse_g1c C (z ++ z ++ z) (2 * cs) = Ok gzero).
    { rewrite app_assoc. replace (2 * cs) with (length (z ++ z)) by (rewrite app_length; lia). rewrite <- (app_nil_r z) at 3. apply (parse_g1c_at OK). }
    replace (cs * 3 <=? length (z ++ z ++ z)) with true by (symmetry; apply Nat.leb_le; rewrite !app_length; lia). cbn [guard bind].
    rewrite Q0, Q1, Q2. cbn [bind]. unfold slice. rewrite !app_length, Lz.
    replace ((3 * cs <=? 3 * cs + 4) && (3 * cs + 4 <=? cs + (cs + cs))) with false; [reflexivity|]. symmetry. apply andb_false_iff. right. apply Nat.leb_gt. lia.
  Qed.

  (** ** What keeps Verify from panicking *)
  Lemma bind_np A B (m : res A) (k : A -> res B) : m <> Panic -> (forall x, m = Ok x -> k x <> Panic) -> (let* x := m in k x) <> Panic.
  Proof. intros N K. destruct m as [x| |]; cbn [bind]; [apply K; reflexivity|discriminate|congruence]. Qed.
  Lemma guard_np b : guard b <> Panic.
  Proof. destruct b; discriminate. Qed.
  Lemma opt_err_np A (x : option A) : opt_err x <> Panic.
  Proof. destruct x; discriminate. Qed.

  Lemma proof_np (p : ProofG1 C) bases x c : length bases <= length (pf_resp p) -> proofG1Verify p bases x c <> Panic.
  Proof. intro L. unfold proofG1Verify. rewrite (contribution_ok OK) by exact L. cbn [bind]. apply guard_np. Qed.

  Lemma messages_len (H : hasher C) attrs : forall i ms, to_messages H i attrs = Ok ms -> length ms <= length attrs.
  Proof.
    induction attrs as [|a attrs IH]; intros i ms E; cbn [to_messages] in E; [injection E as <-; simpl; lia|].
    apply bind_ok in E. destruct E as [v [_ E]]. apply bind_ok in E. destruct E as [ms' [E1 E]]. injection E as <-. apply IH in E1. destruct v; simpl; lia.
  Qed.

  Lemma messages_np (H : hasher C) attrs : Forall (fun a => ar_value H a <> Panic) attrs -> forall i, to_messages H i attrs <> Panic.
  Proof.
    induction 1 as [|a attrs Ha _ IH]; intro i; cbn [to_messages]; [discriminate|]. apply bind_np; [exact Ha|]. intros v _. apply bind_np; [apply IH|]. discriminate.
  Qed.

  Lemma payload_np b : parsePoKPayload b <> Panic.
  Proof.
    unfold parsePoKPayload. destruct (2 <=? length b) eqn:L; cbn [guard bind]; [|discriminate]. apply Nat.leb_le in L.
    apply bind_np; [unfold slice; replace ((0 <=? 2) && (2 <=? length b)) with true by (symmetry; apply andb_true_iff; split; apply Nat.leb_le; lia); discriminate|].
    intros x _. cbv zeta. destruct (lenInBytes _ <=? length b) eqn:L2; cbn [guard bind]; [|discriminate]. apply bind_np; [|discriminate].
    unfold slice. rewrite L2. replace (2 <=? _) with true by (symmetry; apply Nat.leb_le; unfold lenInBytes; lia). discriminate.
  Qed.

  (** [ne], [nr]: the caller's audit data has an attribute and randomness *)
  Definition usable (d : option (AuditData C)) : Prop := forall x, d = Some x -> au_attr x <> None /\ au_rand x <> None.

  (** as many responses as the equations use, and indices that point at one of them *)
  Definition enough_responses (n : nat) (v : VerificationType) (f : AVerFirst C) : Prop :=
    let vc2 := pf_resp (sp_vc2 (vf_sp f)) in
    2 <= length (pf_resp (sp_vc1 (vf_sp f))) /\ 2 + hidden_before (ver_smartcard v) (vf_revealed f) (n + 1) <= length vc2 /\
    (forall p, vf_nymp f = Some p -> 2 <= length (pf_resp p) /\ 3 <= length vc2) /\
    (forall p, vf_eid f = Some p -> 2 <= length (pf_resp (fst p)) /\ (0 <= as_eid_idx (vf_sig f) < Z.of_nat (length vc2))%Z) /\
    (forall p, vf_rh f = Some p -> 2 <= length (pf_resp (fst p)) /\ (0 <= as_rh_idx (vf_sig f) < Z.of_nat (length vc2))%Z).

  Lemma attr_nym_np pk n k (p : ProofG1 C) nym (vc2 : ProofG1 C) pos c : k <= n -> 2 <= length (pf_resp p) -> (0 <= pos < Z.of_nat (length (pf_resp vc2)))%Z ->
    verify_attr_nym (ip_key (issuer_key HG pk n)) (Z.of_nat k) p nym vc2 pos c <> Panic.
  Proof.
    intros Lk L2 Lp. unfold verify_attr_nym. apply bind_np.
    { unfold nth_res. destruct (nth_error (pf_resp p) 1) eqn:E; [discriminate|]. apply nth_error_None in E. lia. }
    intros r _. apply bind_np.
    { unfold znth. replace (pos <? 0)%Z with false by lia. unfold nth_res. destruct (nth_error _ _) eqn:E; [discriminate|]. apply nth_error_None in E. lia. }
    intros r' _. apply bind_np; [apply guard_np|]. intros _ _. apply bind_np.
    { cbn [issuer_key ip_key pg_h]. rewrite (base_lookup HG BS pk Lk). discriminate. }
    intros h _. apply proof_np. exact L2.
  Qed.

  Lemma meta_np pk n k nym d raw : k <= n -> usable d -> ar_check_meta (ip_key (issuer_key HG pk n)) (Z.of_nat k) nym d raw <> Panic.
  Proof.
    intros Lk U. unfold ar_check_meta. apply bind_np.
    - destruct d as [d|]; [|discriminate]. destruct (U d eq_refl) as [U1 U2]. cbn [issuer_key ip_key pg_h]. rewrite (base_lookup HG BS pk Lk). cbn [bind].
      destruct (au_attr d); [|congruence]. destruct (au_rand d); [|congruence]. cbn [deref bind]. apply bind_np; [apply guard_np|]. intros _ _. destruct (au_nym d); [apply guard_np|discriminate].
    - intros _ _. destruct raw; [discriminate|]. apply bind_np; [apply opt_err_np|]. intros x _. apply guard_np.
  Qed.

  Lemma split_np (hs : list g1) r (ms : list (SignatureMessage C)) : forall i ind, count_in i (length hs) r + ind <= length ms -> split_bases i hs r ms ind <> Panic.
  Proof.
    intros i ind L. destruct (@split_bases_ok C hs r i ms ind) as (hid & dis & E); [rewrite skipn_length; lia|]. rewrite E. discriminate.
  Qed.

  Lemma count_in_len i m l l' : (forall j, In j l -> In j l') -> count_in i m l <= length l'.
  Proof.
    intro S. unfold count_in. apply NoDup_incl_length; [apply NoDup_filter, seq_NoDup|]. intros x Hx. apply filter_In in Hx. apply S, mem_in, Hx.
  Qed.

  Lemma first_len (H : hasher C) pk n sigb msg attrs skIndex v f :
    arVerify_first H c_sig (Some (Some (issuer_key HG pk n))) sigb msg attrs skIndex v = Ok f -> length (vf_revealed f) <= length (vf_ms f) + 1.
  Proof.
    intro F. unfold arVerify_first in F. cbn [assert_ptr bind] in F. do 5 (apply bind_ok in F; destruct F as [? [? F]]).
    apply bind_ok in F. destruct F as [pl [EP F]]. destruct (parse_payload_inv EP) as (I & _). do 2 (apply bind_ok in F; destruct F as [? [? F]]).
    apply bind_ok in F. destruct F as [u [G F]]. apply guard_ok in G. apply negb_true_iff, Nat.ltb_ge in G. do 5 (apply bind_ok in F; destruct F as [? [? F]]).
    injection F as <-. cbn [vf_revealed vf_ms].
    assert (LL : length (fold_left madd (pp_revealed pl) []) = length (pp_revealed pl)) by (apply fold_madd_length, increasing_nodup, I).
    destruct (ver_smartcard v); [|lia]. unfold mdel. rewrite filter_len. unfold madd at 1. destruct (mem _ _); cbn [length]; lia.
  Qed.

  Lemma verify_np (H : hasher C) pk n sigb msg attrs eid rh v meta : eid < n -> rh < n -> length attrs <= n ->
    Forall (fun a => ar_value H a <> Panic) attrs -> (forall m, meta = Some m -> usable (md_eid_data m) /\ usable (md_rh_data m)) ->
    (forall sg pl, dec c_sig sigb = Some sg -> parsePoKPayload (as_main sg) = Ok pl -> parseSignatureProof C (skipn (lenInBytes (pp_count pl)) (as_main sg)) <> Panic) ->
    (forall f, arVerify_first H c_sig (Some (Some (issuer_key HG pk n))) sigb msg attrs 0 v = Ok f -> enough_responses n v f) ->
    arVerify H c_sig (Some (Some (issuer_key HG pk n))) sigb msg attrs (Z.of_nat rh) (Z.of_nat eid) 0 v meta <> Panic.
  Proof.
    intros Le Lr La Ha Hm Hp Hf. unfold arVerify. apply bind_np.
    - unfold arVerify_first. cbn [assert_ptr bind]. apply bind_np; [apply opt_err_np|]. intros sg D. apply opt_err_ok in D. apply bind_np; [apply opt_err_np|]. intros alg _.
      apply bind_np; [apply guard_np|]. intros _ _. apply bind_np; [apply guard_np|]. intros _ _. cbv zeta. apply bind_np.
      { unfold attributesToSignatureMessage. change 0%Z with (Z.of_nat 0). rewrite zsplit_ok by lia. cbn [bind firstn skipn app]. apply messages_np. constructor; [discriminate|exact Ha]. }
      intros ms EM. apply (messages0 BS) in EM. apply messages_len in EM. apply bind_np; [apply payload_np|]. intros pl EP. destruct (parse_payload_inv EP) as (I & _).
      destruct (slice_from (as_main sg) (lenInBytes (pp_count pl))) as [rest| |] eqn:ER; cbn [bind]; [|discriminate|].
      2:{ exfalso. revert EP ER. clear. unfold parsePoKPayload, slice_from. destruct (2 <=? length (as_main sg)); cbn [guard bind]; [|discriminate]. intro E.
          apply bind_ok in E. destruct E as [x [_ E]]. cbv zeta in E. destruct (lenInBytes _ <=? length (as_main sg)) eqn:L; cbn [guard bind] in E; [|discriminate].
          apply bind_ok in E. destruct E as [y [_ E]]. injection E as <-. cbn [pp_count]. unfold slice. rewrite L, Nat.leb_refl. discriminate. }
      apply slice_from_inv in ER. apply bind_np.
      { replace rest with (skipn (lenInBytes (pp_count pl)) (as_main sg)) by (symmetry; apply ER). apply (Hp sg pl D EP). }
      intros sp _. destruct (negb (length ms <? length (pp_revealed pl))) eqn:LM; cbn [guard bind]; [|discriminate]. apply negb_true_iff, Nat.ltb_ge in LM.
      apply bind_np; [apply opt_err_np|]. intros nym _. apply bind_np.
      { destruct (ver_smartcard v); [discriminate|]. apply bind_np; [apply (parseProofG1_no_panic S32)|]. discriminate. }
      intros nymp _.
      assert (PN : forall on a b, parse_nym C on a b <> Panic).
      { intros on a b. unfold parse_nym. destruct on; [|discriminate]. apply bind_np; [apply (parseProofG1_no_panic S32)|]. intros p _. apply bind_np; [apply opt_err_np|]. discriminate. }
      apply bind_np; [apply PN|]. intros eidp _. apply bind_np; [apply PN|]. intros rhp _. apply bind_np; [|discriminate].
      unfold getBytesForChallenge. cbn [issuer_key ip_key pg_count].
      assert (LL : length (fold_left madd (pp_revealed pl) []) <= n) by (rewrite fold_madd_length by (apply increasing_nodup, I); lia).
      replace (n + 1 + 7 <? _) with false; [discriminate|]. symmetry. apply Nat.ltb_ge. destruct (ver_smartcard v); [|lia].
      unfold madd at 1. destruct (mem _ _); cbn [length]; lia.
    - intros f F. pose proof (Hf f F) as (R1 & R2 & R3 & R4 & R5). pose proof (first_inv F) as FI. cbv zeta in FI.
      destruct FI as (_ & _ & _ & K & EM & NR & (pl & EP & _ & I & LM & RV) & _).
      apply (messages0 BS) in EM. pose proof (messages_len EM) as LMs.
      assert (PE : past_sk (Z.of_nat eid) 0 = Z.of_nat (S eid)) by (unfold past_sk; replace (0 <=? Z.of_nat eid)%Z with true by lia; lia).
      assert (PR : past_sk (Z.of_nat rh) 0 = Z.of_nat (S rh)) by (unfold past_sk; replace (0 <=? Z.of_nat rh)%Z with true by lia; lia).
      unfold arVerify_second. rewrite K, PE, PR. set (c := challenge2 H _ _).
      apply bind_np.
      { destruct (vf_eid f) as [[p x]|]; [|discriminate]. destruct meta as [m|]; [|discriminate]. apply meta_np; [lia|]. apply (Hm m eq_refl). }
      intros _ _. apply bind_np.
      { destruct (vf_rh f) as [[p x]|]; [|discriminate]. destruct meta as [m|]; [|discriminate]. apply meta_np; [lia|]. apply (Hm m eq_refl). }
      intros _ _. apply bind_np.
      { destruct (vf_nymp f) as [p|]; [|discriminate]. destruct (R3 p eq_refl) as [X Y]. apply (@attr_nym_np pk n 0); [lia|exact X|lia]. }
      intros _ _. apply bind_np.
      { destruct (vf_eid f) as [[p x]|]; [|discriminate]. destruct (R4 _ eq_refl) as [X Y]. apply attr_nym_np; [lia|exact X|exact Y]. }
      intros _ _. apply bind_np.
      { destruct (vf_rh f) as [[p x]|]; [|discriminate]. destruct (R5 _ eq_refl) as [X Y]. apply attr_nym_np; [lia|exact X|exact Y]. }
      intros _ _. unfold signatureProofVerify. apply bind_np; [apply guard_np|]. intros _ _. apply bind_np; [apply proof_np; exact R1|]. intros _ _.
      pose proof (first_len F) as LF.
      assert (Lh : length (pg_h (ip_key (issuer_key HG pk n))) = n + 1) by (cbn [issuer_key ip_key pg_h]; apply gens_length).
      assert (HB : forall r, hidden_bases 0 (pg_h (ip_key (issuer_key HG pk n))) r = unpick 0 (pg_h (ip_key (issuer_key HG pk n))) r) by (intro; apply hidden_bases_unpick).
      assert (CI : count_in 0 (n + 1) (vf_revealed f) <= length (vf_ms f)) by (pose proof (@count_in_len 0 (n + 1) (vf_revealed f) (pp_revealed pl) (fun j J => proj1 (proj1 (RV j) J))); lia).
      assert (PC : pg_count (ip_key (issuer_key HG pk n)) + 2 <? length (vf_revealed f) = false) by (apply Nat.ltb_ge; cbn [issuer_key ip_key pg_count]; lia).
      destruct (ver_smartcard v) eqn:SC.
      + unfold smartcardVC2Verify. rewrite PC. unfold smartcard_split.
        destruct (pg_h (ip_key (issuer_key HG pk n))) as [|h hs] eqn:EH; [simpl in Lh; lia|]. cbn [length] in Lh.
        assert (C1 : count_in 1 n (vf_revealed f) = count_in 0 (n + 1) (vf_revealed f)).
        { replace (n + 1) with (S n) by lia. rewrite count_in_S. destruct (mem 0 (vf_revealed f)) eqn:M; [apply mem_in in M; destruct (NR eq_refl M)|reflexivity]. }
        apply bind_np; [apply split_np; replace (length hs) with n by lia; lia|]. intros [hid dis] E. apply proof_np.
        destruct (split_bases_spec OK E) as (-> & _ & _). cbn [length]. rewrite hidden_bases_unpick, unpick_length. replace (length hs) with n by lia.
        rewrite hidden_before_eq in R2. replace (n + 1) with (S n) in R2 by lia. rewrite count_out_S in R2.
        replace (mem 0 (0 :: vf_revealed f)) with true in R2 by reflexivity. rewrite count_out_skip0 in R2 by lia. lia.
      + unfold defaultVC2Verify. rewrite PC.
        apply bind_np; [apply split_np; rewrite Lh; lia|]. intros [hid dis] E. apply proof_np.
        destruct (split_bases_spec OK E) as (-> & _ & _). cbn [length]. rewrite hidden_bases_unpick, unpick_length, Lh. rewrite hidden_before_eq in R2. exact R2.
  Qed.
End Forge.
