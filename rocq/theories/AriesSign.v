(** Completeness of the aries signer. *)
From Verif Require Import Base Curve Algebra Spec Dlog Bridge BridgeFacts Bbs BbsSpec BbsFacts BbsProof BbsComplete Aries AriesSpec AriesIssue AriesNym AriesVerify.
From Coq Require Import Field Ring Sorting.Sorted.
Unset Strict Implicit.

Lemma hd_index C (OK : CurveOk C) (h : G1 C) : forall bases i j,
  nth_error bases j = Some h -> (forall j', j' < j -> nth_error bases j' <> Some h) -> index_of_base i h bases = Ok (i + j).
Proof.
  induction bases as [|b bases IH]; intros i j E N; [destruct j; discriminate|]. cbn [index_of_base].
  destruct (geqb h b) eqn:G.
  - apply (gok_eqb (ok_g1 OK)) in G. subst b. destruct j as [|j]; [f_equal; lia|]. exfalso. apply (N 0); [lia|reflexivity].
  - destruct j as [|j].
    + injection E as ->. rewrite (geqb_refl (ok_g1 OK)) in G. discriminate.
    + rewrite (IH (S i) j) by (try exact E; intros j' L; apply (N (S j')); lia). f_equal. lia.
Qed.

Lemma nth_resp C c (bl xs : list (Zr C)) j b x : nth_error bl j = Some b -> nth_error xs j = Some x ->
  nth_error (resp c bl xs) j = Some (zsub b (zmul c x)).
Proof.
  revert xs j. induction bl as [|y bl IH]; intros [|z xs] [|j] E1 E2; try discriminate; cbn [nth_error] in *.
  - injection E1 as ->. injection E2 as ->. reflexivity.
  - apply (IH xs j E1 E2).
Qed.

Lemma nth_blind A (f : nat -> A) m j : j < m -> nth_error (map f (seq 0 m)) j = Some (f j).
Proof.
  intro L. rewrite nth_error_map, nth_error_nth' with (d := 0) by (rewrite seq_length; exact L). rewrite seq_nth by exact L. reflexivity.
Qed.

Lemma count_out_lt i n j r : j < n -> ~ In (i + j) r -> count_out i j r < count_out i n r.
Proof.
  revert i j. induction n as [|n IH]; intros i j L N; [lia|]. rewrite (count_out_S i n). destruct j as [|j].
  - rewrite Nat.add_0_r in N. destruct (mem i r) eqn:M; [apply mem_in in M; contradiction|]. unfold count_out. cbn. lia.
  - rewrite count_out_S. specialize (IH (S i) j). rewrite Nat.add_succ_comm in IH. specialize (IH ltac:(lia) N). lia.
Qed.

Lemma filter_len A (f : A -> bool) l : length (filter f l) <= length l.
Proof. induction l as [|x l IH]; [reflexivity|]. cbn [filter]. destruct (f x); cbn [length]; lia. Qed.

Section Sign.
  Context {C : Curve} (OK : CurveOk C).
  Variable HG : bytes -> G1 C.
  Variable H : hasher C.
  Let KO := ok_zr OK.
  Let GO1 := ok_g1 OK.
  Add Field Kf_ars : (sok_field KO).
  Notation zr := (zcar (Zr C)).
  Notation g1 := (gcar (G1 C)).
  Notation g2 := (gcar (G2 C)).
  Variable BS : bls_sizes C.
  Let S32 : scalar_size C = frCompressedSize := proj1 BS.
  Variable c_cred : codec ACredential.
  Variable c_sig : codec ASignature.
  Variable c_cri : codec ACRI.

  (** ** The first half of Verify on an assembled signature *)
  Lemma parse_on (on : bool) p pb x (b : bytes) : (on = true -> proofG1Bytes p = Ok pb) -> (Z.of_nat (length (pf_resp p)) <= 4294967295)%Z ->
    (on = true -> b = g1_bytes C x) ->
    parse_nym C on pb b = Ok (if on then Some (p, x) else None).
  Proof.
    intros E B Eb. destruct on; [|reflexivity]. unfold parse_nym. destruct (proofG1_rt OK S32 B) as [pb' [E' [_ P]]].
    rewrite (E eq_refl) in E'. injection E' as <-. specialize (P []). rewrite app_nil_r in P. rewrite P. cbn [bind].
    rewrite (Eb eq_refl), (ok_g1_rt OK). reflexivity.
  Qed.

  Definition chal_bytes (key : PublicKeyWithGenerators C) (sp : PoKOfSignatureProof C) (r : list nat) : bytes :=
    g1_bytes C (sp_abar sp) ++ g1_bytes C (sp_aprime sp) ++ g1_bytes C (pg_h0 key)
      ++ g1_bytes C (pf_comm (sp_vc1 sp)) ++ g1_bytes C (sp_d sp) ++ g1_bytes C (pg_h0 key)
      ++ concat (map (g1_bytes C) (hidden_bases 0 (pg_h key) r)) ++ g1_bytes C (pf_comm (sp_vc2 sp)).

  Lemma first_enc pk n sigb msg attrs skIndex v sg ms rv pb sp sb nym np eidp rhp :
    dec c_sig sigb = Some sg -> as_alg sg = Some 0%Z -> ar_type_checks v sg = true ->
    attributesToSignatureMessage H attrs skIndex = Ok ms ->
    payloadBytes {| pp_count := n + 1; pp_revealed := rv |} = Ok pb -> signatureProofBytes sp = Ok sb -> as_main sg = pb ++ sb ->
    (Z.of_nat (n + 1) <= 65535)%Z -> increasing rv -> (forall i, In i rv -> i < n + 1) -> length rv <= length ms ->
    (Z.of_nat (proof_size (sp_vc1 sp)) <= 4294967295)%Z -> (Z.of_nat (length (pf_resp (sp_vc2 sp))) <= 4294967295)%Z ->
    as_nym sg = g1_bytes C nym ->
    (ver_smartcard v = false -> parseProofG1 C (as_nym_proof sg) = Ok np) ->
    parse_nym C (ar_verifyEid v sg) (as_eid_proof sg) (as_eid sg) = Ok eidp ->
    parse_nym C (ar_verifyRh v sg) (as_rh_proof sg) (as_rh sg) = Ok rhp ->
    let nymp := if ver_smartcard v then None else Some np in
    let key := ip_key (issuer_key HG pk n) in
    exists f, arVerify_first H c_sig (Some (Some (issuer_key HG pk n))) sigb msg attrs skIndex v = Ok f /\
      vf_sig f = sg /\ vf_key f = key /\ vf_ms f = ms /\ vf_sp f = sp /\ vf_nym f = nym /\ vf_nymp f = nymp /\ vf_eid f = eidp /\ vf_rh f = rhp /\
      (forall i, In i (vf_revealed f) <-> In i rv /\ (ver_smartcard v = true -> i <> 0)) /\ length (vf_revealed f) <= n + 2 /\
      vf_data f = ver_label v (ar_verifyEid v sg) (ar_verifyRh v sg) ++ chal_bytes key sp (absent (ver_smartcard v) rv) ++ g1_bytes C nym
                ++ match nymp with Some p => g1_bytes C (pf_comm p) | None => [] end
                ++ match eidp with Some p => as_eid sg ++ g1_bytes C (pf_comm (fst p)) | None => [] end
                ++ match rhp with Some p => as_rh sg ++ g1_bytes C (pf_comm (fst p)) | None => [] end
                ++ proofNonceBytes H msg.
  Proof.
    intros D EA TC EM EP ES EMain B I Br Lr B1 B2 EN PN PE PR nymp key. unfold arVerify_first. cbn [assert_ptr bind]. rewrite D. cbn [opt_err bind].
    rewrite EA. cbn [opt_err bind]. cbn [Z.eqb guard bind]. rewrite TC. cbn [guard bind]. rewrite EM. cbn [bind].
    destruct (@payload_rt {| pp_count := n + 1; pp_revealed := rv |} B) as (pb' & EP' & LP & P).
    { cbn [pp_revealed pp_count]. intros i Hi. specialize (Br i Hi). pose proof (Nat.mod_upper_bound (n + 1) 8 ltac:(lia)). pose proof (Nat.div_mod (n + 1) 8 ltac:(lia)). lia. }
    rewrite EP in EP'. injection EP' as <-. destruct (P sb) as (l & El & Il & Ml). cbn [pp_revealed] in Ml.
    assert (l = rv) by (apply increasing_ext; auto). subst l. rewrite EMain, El. cbn [bind pp_count pp_revealed]. rewrite slice_from_at by exact LP. cbn [bind].
    destruct (@signatureProof_rt C OK S32 sp B1 B2) as (sb' & Es' & Ps). rewrite ES in Es'. injection Es' as <-. rewrite Ps. cbn [bind].
    replace (negb (length ms <? length rv)) with true by lia. cbn [guard bind]. rewrite EN, (ok_g1_rt OK). cbn [opt_err bind].
    assert (E1 : (if ver_smartcard v then Ok None else let* p := parseProofG1 C (as_nym_proof sg) in Ok (Some p)) = Ok nymp).
    { unfold nymp. destruct (ver_smartcard v); [reflexivity|]. rewrite PN by reflexivity. reflexivity. }
    rewrite E1. cbn [bind]. rewrite PE, PR. cbn [bind]. set (r := fold_left madd rv []).
    assert (Mr : forall i, In i r <-> In i rv) by (intro i; unfold r; rewrite in_fold_madd; simpl; tauto).
    assert (Lrr : length r = length rv) by (apply fold_madd_length, increasing_nodup, I).
    pose proof (@increasing_count rv I (n + 1) Br) as Ln.
    set (fc := if ver_smartcard v then madd r 0 else r).
    assert (Lf : length fc <= n + 2). { unfold fc. destruct (ver_smartcard v); [unfold madd; destruct (mem 0 r); cbn [length]; lia|lia]. }
    assert (Mf : forall i, In i fc <-> In i (absent (ver_smartcard v) rv)).
    { intro i. unfold fc, absent. destruct (ver_smartcard v); [rewrite in_madd, Mr; cbn [In]; intuition|apply Mr]. }
    unfold getBytesForChallenge. cbn [issuer_key ip_key pg_count]. replace (n + 1 + 7 <? length fc) with false by lia. cbn [bind].
    eexists. split; [reflexivity|]. cbn [vf_sig vf_key vf_ms vf_sp vf_nym vf_nymp vf_eid vf_rh vf_revealed vf_data].
    do 8 (split; [reflexivity|]). split; [|split].
    - intro i. unfold fc. destruct (ver_smartcard v).
      + rewrite in_mdel, in_madd, Mr. intuition congruence.
      + rewrite Mr. intuition discriminate.
    - destruct (ver_smartcard v); [|exact Lf]. unfold mdel. eapply Nat.le_trans; [apply filter_len|exact Lf].
    - unfold chal_bytes. cbn [pg_h0 pg_h issuer_key ip_key key]. rewrite (@hidden_bases_ext C (gens HG pk (n + 1)) 0 fc (absent (ver_smartcard v) rv) Mf). reflexivity.
  Qed.

  (** ** The honest prover in closed form *)
  Section Honest.
    Variables (pk : g2) (n : nat) (A : g1) (e s sk : zr) (vals : list zr) (RNym : zr) (attributes : list attribute).
    Variables (st : SignatureType) (R : ASigRand C).
    Notation h0 := (gen0 HG pk (n + 1)).
    Notation hs := (gens HG pk (n + 1)).
    Notation key := (ip_key (issuer_key HG pk n)).
    Notation sc := (is_smartcard st).

    Definition h_Nym : g1 := (h0 ⊗ RNym) ⊕ (base_at HG pk n 0 ⊗ sk).
    Definition h_rv : list nat := revealedAttributesIndex attributes.
    Definition h_rr : list nat := absent sc h_rv.
    Definition h_b : g1 := bbs_base h0 hs s (sk :: vals).
    Definition h_r1 : zr := pr_r1 (rn_pok R).
    Definition h_r2 : zr := pr_r2 (rn_pok R).
    Definition h_A' : g1 := A ⊗ h_r1.
    Definition h_Abar : g1 := (h_b ⊗ h_r1) ⊖ (h_A' ⊗ e).
    Definition h_d : g1 := (h_b ⊗ h_r1) ⊖ (h0 ⊗ h_r2).
    Definition h_s' : zr := zsub s (zmul h_r2 (zinv h_r1)).
    Definition h_bases1 : list g1 := [h_A'; h0].
    Definition h_sec1 : list zr := [zopp e; h_r2].
    Definition h_bl1 : list zr := [pr_bl1 (rn_pok R) 0; pr_bl1 (rn_pok R) 1].
    Definition h_bases2 : list g1 := h_d :: h0 :: unpick 0 hs h_rr.
    Definition h_sec2 : list zr := zopp (zinv h_r1) :: (if sc then zsub h_s' RNym else h_s') :: unpick 0 (sk :: vals) h_rr.
    Definition h_bl2 : list zr := map (pr_bl2 (rn_pok R)) (seq 0 (length h_bases2)).
    Definition committed (bases : list g1) (bl : list zr) : ProverCommittedG1 C := {| pc_bases := bases; pc_blind := bl; pc_comm := gdot bases bl |}.
    Definition answered (bases : list g1) (bl sec : list zr) (c : zr) : ProofG1 C := {| pf_comm := gdot bases bl; pf_resp := resp c bl sec |}.
    Definition h_pok : PoKOfSignature C :=
      {| ps_aprime := h_A'; ps_abar := h_Abar; ps_d := h_d; ps_vc1 := committed h_bases1 h_bl1; ps_sec1 := h_sec1;
         ps_vc2 := committed h_bases2 h_bl2; ps_sec2 := h_sec2 |}.
    Definition h_proof (c : zr) : PoKOfSignatureProof C :=
      {| sp_aprime := h_A'; sp_abar := h_Abar; sp_d := h_d; sp_vc1 := answered h_bases1 h_bl1 h_sec1 c; sp_vc2 := answered h_bases2 h_bl2 h_sec2 c |}.

    (** a commitment with the base of message [i] to message [j] (the honest signer: [i] = [j]) with
        randomness [r], blinded by [rbl] *)
    Definition h_pos (i : nat) : nat := 2 + count_out 0 i h_rr.
    Definition h_nbases (i : nat) : list g1 := [h0; base_at HG pk n i].
    Definition h_nbl (i : nat) (rbl : zr) : list zr := [rbl; pr_bl2 (rn_pok R) (h_pos i)].
    Definition h_nsec (i : nat) (r : zr) : list zr := [r; nth i (sk :: vals) z0].
    Definition h_comm (i j : nat) (r rbl : zr) : attributeCommitment C :=
      {| cm_index := h_pos j; cm_proof := committed (h_nbases i) (h_nbl j rbl);
         cm_comm := (h0 ⊗ r) ⊕ (base_at HG pk n i ⊗ nth j (sk :: vals) z0); cm_r := r |}.
    Definition h_nproof (i j : nat) (r rbl c : zr) : ProofG1 C := answered (h_nbases i) (h_nbl j rbl) (h_nsec j r) c.

    Hypothesis Lv : length vals = n.
    Hypothesis Agr : Forall2 (attr_agrees H) attributes vals.

    Lemma La : length attributes = n.
    Proof. rewrite <- Lv. eapply Forall2_len; exact Agr. Qed.

    Lemma rv_0 : ~ In 0 h_rv.
    Proof. intro I. apply revealed_bounds in I. lia. Qed.
    Lemma rv_lt i : In i h_rv -> i < n + 1.
    Proof. intro I. apply revealed_bounds in I. rewrite La in I. lia. Qed.
    Lemma rv_inc : increasing h_rv.
    Proof. apply revealed_increasing. Qed.
    Lemma rv_len : length h_rv <= n.
    Proof.
      rewrite <- La. unfold h_rv, revealedAttributesIndex. clear Lv. clear Agr. generalize 1. induction attributes as [|a l IH]; intro i; [reflexivity|].
      cbn [revealed_from length]. destruct (is_hidden a); cbn [length]; specialize (IH (S i)); lia.
    Qed.

    (** messages the verifier computes *)
    Lemma shown_messages l vs : Forall2 (attr_agrees H) l vs -> forall i, exists ms, to_messages H i l = Ok ms /\ map (@sm_fr C) ms = pick i vs (revealed_from i l).
    Proof.
      induction 1 as [|a v l vs Ha F IH]; intro i; [exists []; auto|]. destruct (IH (S i)) as (ms & E & P). cbn [to_messages revealed_from pick].
      destruct Ha as [Hd|Hs].
      - unfold ar_value, is_hidden. rewrite Hd. cbn [bind]. rewrite E. cbn [bind]. exists ms. split; [reflexivity|].
        destruct (mem i (revealed_from (S i) l)) eqn:M; [apply mem_in, revealed_bounds in M; lia|exact P].
      - rewrite (ar_value_states HG Hs). cbn [bind]. rewrite E. cbn [bind].
        assert (Hh : is_hidden a = false) by (unfold is_hidden, attr_states in *; destruct (at_type a); auto; contradiction). rewrite Hh.
        eexists. split; [reflexivity|]. cbn [map sm_fr]. unfold mem. cbn [existsb]. rewrite Nat.eqb_refl. cbn [orb]. rewrite P, pick_skip by lia. reflexivity.
    Qed.

    Lemma verifier_messages : exists ms, attributesToSignatureMessage H attributes 0 = Ok ms /\ map (@sm_fr C) ms = pick 0 (sk :: vals) h_rv /\ length ms = length h_rv.
    Proof.
      destruct (shown_messages Agr 1) as (ms & E & P). exists ms. unfold attributesToSignatureMessage.
      change 0%Z with (Z.of_nat 0). rewrite zsplit_ok by lia. cbn [firstn skipn bind app to_messages ar_value hidden_attr at_type]. rewrite E. cbn [bind]. split; [reflexivity|].
      rewrite pick_cons0 by exact rv_0. split; [exact P|]. rewrite <- (map_length (@sm_fr C)), P, pick_length, Lv. apply count_in_increasing; [exact rv_inc|].
      intros j I. apply revealed_bounds in I. rewrite La in I. exact I.
    Qed.

    Lemma cred_ms m : forall i attrs, length attrs = m -> i > 0 ->
      to_sig_messages m i (map (zr_bytes C) attrs) 0 sk = Ok (number i attrs).
    Proof.
      clear - OK. induction m as [|m IH]; intros i [|x attrs] L P; try discriminate; [reflexivity|]. cbn [to_sig_messages map].
      replace (Z.of_nat i =? 0)%Z with false by lia. rewrite IH by (simpl in L; lia). cbn [bind number]. rewrite (ok_zr_rt OK). reflexivity.
    Qed.

    Lemma credential_messages : toSignatureMessage (credential_of A e s vals) sk = Ok (number 0 (sk :: vals)).
    Proof.
      unfold toSignatureMessage, credential_of. cbn [ac_attrs ac_skpos]. rewrite map_length, Nat.add_1_r. cbn [to_sig_messages]. cbn [Z.of_nat Z.eqb].
      rewrite cred_ms by (auto; lia). reflexivity.
    Qed.

    Hypothesis V : bbs_signature pk h0 hs A e s (sk :: vals).
    Hypothesis NZ : h_r1 <> z0.

    Lemma hs_len : length hs = n + 1.
    Proof. apply gens_length. Qed.
    Lemma hs_cons : hs = base_at HG pk n 0 :: skipn 1 hs.
    Proof. unfold base_at. pose proof hs_len as L. destruct hs as [|h l]; [simpl in L; lia|reflexivity]. Qed.
    Lemma vals_len : length (sk :: vals) = length hs.
    Proof. rewrite hs_len. cbn [length]. rewrite Lv. lia. Qed.

    Lemma len2 : length h_sec2 = length h_bases2.
    Proof. unfold h_sec2, h_bases2. cbn [length]. rewrite !unpick_length, vals_len. reflexivity. Qed.
    Lemma lenb2 : length h_bl2 = length h_bases2.
    Proof. unfold h_bl2. rewrite map_length, seq_length. reflexivity. Qed.

    Let sg := {| si_a := A; si_e := e; si_s := s |}.
    Lemma VB : verifyWithB sg key h_b = Ok tt.
    Proof. apply (verifyWithB_iff OK). exact V. Qed.

    Lemma sPrime_eq r1 r2 : zadd (zopp (zmul r2 (zinv r1))) s = zsub s (zmul r2 (zinv r1)).
    Proof. ring. Qed.

    Lemma ids_std : map_res (fun ind => let* m := znth (number 0 (sk :: vals)) ind in Ok (sm_idx m)) (map Z.of_nat h_rv) = Ok h_rv.
    Proof. apply znth_ids; [apply number_numbered|]. intros i I. rewrite number_length. cbn [length]. apply rv_lt in I. lia. Qed.

    Lemma ids_from l : forall k, (forall i, In i l -> i < length vals) ->
      map_res (fun ind => let* m := znth (number k vals) ind in Ok (sm_idx m)) (map Z.of_nat l) = Ok (map (fun i => k + i) l).
    Proof.
      intros k B. induction l as [|i l IH]; [reflexivity|]. cbn [map map_res].
      assert (Li : i < length vals) by (apply B; left; reflexivity).
      destruct (nth_error (number k vals) i) as [m|] eqn:Em.
      - rewrite (znth_at Em). cbn [bind]. rewrite IH by (intros j Hj; apply B; right; exact Hj). cbn [bind].
        pose proof (number_numbered vals k) as N. unfold numbered in N. apply (f_equal (fun l => nth_error l i)) in N.
        rewrite nth_error_map, Em in N. cbn [option_map] in N. rewrite number_length in N.
        rewrite nth_error_nth' with (d := 0) in N by (rewrite seq_length; exact Li). rewrite seq_nth in N by exact Li. injection N as ->. reflexivity.
      - apply nth_error_None in Em. rewrite number_length in Em. lia.
    Qed.

    Lemma revealed_shift l : forall i j, revealed_from (i + j) l = map (fun x => i + x) (revealed_from j l).
    Proof.
      clear. induction l as [|a l IH]; intros i j; [reflexivity|]. cbn [revealed_from]. rewrite <- Nat.add_succ_r, IH. destruct (is_hidden a); reflexivity.
    Qed.

    Lemma getPoK_ok : getPoKOfSignature (credential_of A e s vals) attributes sk key st h_Nym RNym (rn_pok R) = Ok (h_pok, number 0 (sk :: vals)).
    Proof.
      unfold getPoKOfSignature. unfold credential_of at 1. cbn [ac_cred]. change (g1_comp C A ++ zr_bytes C e ++ zr_bytes C s) with (sig_enc A e s).
      rewrite (parse_sig_enc OK S32). cbn [bind]. rewrite credential_messages. cbn [bind]. fold sg.
      pose proof rv_len as Lr. pose proof vals_len as VL. pose proof hs_cons as HC.
      destruct sc eqn:SC.
      - cbn [credential_of ac_skpos]. change 0%Z with (Z.of_nat 0). rewrite zsplit_ok by lia. cbn [bind]. change (Z.of_nat 0 + 1)%Z with (Z.of_nat 1).
        rewrite zsplit_ok by (cbn [number length]; lia). cbn [bind]. cbn [number firstn skipn app].
        assert (EB : computeB (si_s sg) (number 1 vals) key = Ok (genG1 C ⊕ (h0 ⊗ s) ⊕ gdot (skipn 1 hs) vals)).
        { unfold computeB. rewrite (@lookup_bases C (pg_h key) (number 1 vals) 1 (number_numbered vals 1)) by (rewrite number_length; cbn [pg_h issuer_key ip_key]; rewrite hs_len; lia).
          cbn [bind]. rewrite (build_ok OK) by discriminate. cbn [map fst snd gdot]. rewrite number_fr, gdot_combine, (ok_of_Z_1 OK), (gok_mul_1 GO1). cbn [issuer_key ip_key pg_h0 pg_h sg si_s].
          f_equal. gnorm KO GO1; ring. }
        rewrite EB. cbn [bind issuer_key ip_key pg_h0].
        assert (Eb : (genG1 C ⊕ (h0 ⊗ s) ⊕ gdot (skipn 1 hs) vals) ⊕ (h_Nym ⊖ (h0 ⊗ RNym)) = h_b).
        { unfold h_b, bbs_base. rewrite HC at 2. cbn [gdot]. unfold h_Nym. gnorm KO GO1; ring. }
        rewrite Eb. unfold pokOfSignatureB. cbn [bind issuer_key ip_key pg_h0 sg si_a si_e si_s].
        rewrite (build_ok OK) by discriminate. cbn [bind map fst snd gdot]. rewrite sPrime_eq.
        assert (Ed : (h_b ⊗ pr_r1 (rn_pok R)) ⊕ ((h0 ⊗ zopp (pr_r2 (rn_pok R))) ⊕ gzero) = h_d) by (unfold h_d, h_r1, h_r2; gnorm KO GO1; ring).
        rewrite Ed. unfold newVC1Signature. rewrite (finish_ok OK) by (try discriminate; cbn; lia). cbn [bind].
        rewrite map_length, number_length.
        assert (L0 : length (revealedAttributesIndexNoSk attributes) = length h_rv).
        { unfold h_rv, revealedAttributesIndex. change (revealed_from 1 attributes) with (revealed_from (1 + 0) attributes). rewrite (revealed_shift attributes 1 0), map_length. reflexivity. }
        rewrite L0. replace (negb (length vals <? length h_rv)) with true by lia. cbn [guard bind].
        rewrite ids_from.
        2:{ intros i I. apply revealed_bounds in I. rewrite La in I. lia. }
        unfold revealedAttributesIndexNoSk. rewrite <- (revealed_shift attributes 1 0). change (revealed_from (1 + 0) attributes) with h_rv. cbn [bind].
        set (r := fold_left madd h_rv []). assert (Mr : forall i, In i r <-> In i h_rv) by (intro i; unfold r; rewrite in_fold_madd; simpl; tauto).
        unfold smartcardVC2. rewrite (@hidden_messages_unpick C (number 1 vals) r 1 (number_numbered vals 1)).
        cbn [pg_h]. rewrite (@hidden_lookup C hs (number 1 vals) r 1 (number_numbered vals 1)) by (rewrite number_length, hs_len; lia). cbn [bind].
        rewrite number_length. rewrite firstn_all2 by (rewrite skipn_length, hs_len; lia).
        rewrite (@unpick_ext _ (skipn 1 hs) r h_rv 1 Mr), <- unpick_map, number_fr, (@unpick_ext _ vals r h_rv 1 Mr).
        assert (U1 : unpick 1 (skipn 1 hs) h_rv = unpick 0 hs h_rr) by (unfold h_rr; rewrite SC; cbn [absent]; rewrite HC at 2; symmetry; apply unpick_drop0).
        assert (U2 : unpick 1 vals h_rv = unpick 0 (sk :: vals) h_rr) by (unfold h_rr; rewrite SC; cbn [absent]; symmetry; apply unpick_drop0).
        rewrite U1, U2. rewrite (finish_ok OK) by (try discriminate; rewrite map_length, seq_length; lia). cbn [bind].
        unfold h_pok, h_sec2. rewrite SC. reflexivity.
      - unfold newPoKOfSignature. rewrite (computeB_ok OK) by (try apply number_numbered; rewrite number_length; cbn [pg_h issuer_key ip_key]; lia). cbn [bind].
        rewrite number_fr. change (bbs_base (pg_h0 key) (pg_h key) (si_s sg) (sk :: vals)) with h_b.
        unfold pokOfSignatureB. rewrite VB. cbn [bind issuer_key ip_key pg_h0 sg si_a si_e si_s].
        rewrite (build_ok OK) by discriminate. cbn [bind map fst snd gdot]. rewrite sPrime_eq.
        assert (Ed : (h_b ⊗ pr_r1 (rn_pok R)) ⊕ ((h0 ⊗ zopp (pr_r2 (rn_pok R))) ⊕ gzero) = h_d) by (unfold h_d, h_r1, h_r2; gnorm KO GO1; ring).
        rewrite Ed. unfold newVC1Signature. rewrite (finish_ok OK) by (try discriminate; cbn; lia). cbn [bind].
        rewrite map_length, number_length. fold h_rv. replace (negb (length (sk :: vals) <? length h_rv)) with true by (cbn [length]; lia). cbn [guard bind].
        rewrite ids_std. cbn [bind]. set (r := fold_left madd h_rv []). assert (Mr : forall i, In i r <-> In i h_rv) by (intro i; unfold r; rewrite in_fold_madd; simpl; tauto).
        unfold defaultVC2. rewrite (@hidden_messages_unpick C (number 0 (sk :: vals)) r 0 (number_numbered _ 0)).
        cbn [pg_h]. rewrite (@hidden_lookup C hs (number 0 (sk :: vals)) r 0 (number_numbered _ 0)) by (rewrite number_length; lia). cbn [bind skipn].
        rewrite number_length, VL, firstn_all. rewrite (@unpick_ext _ hs r h_rv 0 Mr), <- unpick_map, number_fr, (@unpick_ext _ (sk :: vals) r h_rv 0 Mr).
        rewrite (finish_ok OK) by (try discriminate; rewrite map_length, seq_length; lia). cbn [bind].
        unfold h_pok, h_sec2, h_bl2, h_bases2, h_rr. rewrite SC. reflexivity.
    Qed.

    (** ** What the honest proofs prove *)
    Lemma answered_ok bases bl sec c x : bases <> [] -> length bl = length bases -> length sec = length bases -> gdot bases sec = x ->
      length bases <= length (pf_resp (answered bases bl sec c)) /\
      gdot (bases ++ [x]) (pf_resp (answered bases bl sec c) ++ [c]) = pf_comm (answered bases bl sec c).
    Proof.
      intros N L1 L2 E. unfold answered. cbn [pf_comm pf_resp]. rewrite resp_length by lia. split; [lia|].
      rewrite (contribution_exact OK) by (rewrite resp_length; lia). rewrite (gdot_resp OK) by assumption. rewrite E.
      gnorm KO GO1; ring.
    Qed.

    Lemma statement2 ms : map (@sm_fr C) ms = pick 0 (sk :: vals) h_rv ->
      gdot h_bases2 h_sec2 = gopp (shown sc key h_rv (map (@sm_fr C) ms) h_Nym).
    Proof.
      intro P.
      assert (DS : gdot (vc2_bases key h_rv h_d) (zopp (zinv h_r1) :: h_s' :: unpick 0 (sk :: vals) h_rv) = gopp (disclosed key h_rv (map (@sm_fr C) ms))).
      { pose proof (@default_statement C OK key sg (rn_pok R) (number 0 (sk :: vals)) ms h_rv NZ) as DS. cbv zeta in DS. rewrite number_fr, number_length in DS.
        apply DS; [cbn [pg_h issuer_key ip_key]; apply vals_len|exact P]. }
      unfold vc2_bases in DS. rewrite hidden_bases_unpick in DS. cbn [pg_h0 pg_h issuer_key ip_key] in DS.
      unfold h_bases2, h_sec2, h_rr, shown. destruct sc; cbn [absent]; [|exact DS].
      rewrite unpick_drop0. pose proof hs_cons as HC. rewrite HC at 1. rewrite unpick_drop0.
      rewrite HC in DS at 1. rewrite !unpick_cons0 in DS by exact rv_0. cbn [gdot] in DS |- *. set (X := gdot (unpick 1 _ _) _) in *.
      set (D := disclosed _ _ _) in *. transitivity (gopp D ⊖ h_Nym); [|gnorm KO GO1; ring]. rewrite <- DS. unfold h_Nym. gnorm KO GO1; ring.
    Qed.

    Lemma disclosed_ext r r' ms : (forall i, In i r <-> In i r') -> disclosed key r ms = disclosed key r' ms.
    Proof.
      intro M. unfold disclosed. rewrite (count_out_ext 0 _ M). f_equal. apply weave_ext. intros j _. apply M.
    Qed.

    Lemma bases2_eq r : (forall i, In i r <-> In i h_rv) -> vc2_bases key (absent sc r) h_d = h_bases2.
    Proof.
      intro M. unfold vc2_bases, h_bases2. rewrite hidden_bases_unpick. cbn [pg_h0 pg_h issuer_key ip_key]. do 2 f_equal. apply unpick_ext.
      intro j. unfold h_rr, absent. destruct sc; cbn [In]; rewrite M; tauto.
    Qed.

    Lemma proof_verifies c ms r : (forall i, In i r <-> In i h_rv) -> length r <= n + 2 ->
      map (@sm_fr C) ms = pick 0 (sk :: vals) h_rv -> length ms = length h_rv ->
      signatureProofVerify (vc2_verifier sc h_Nym) (h_proof c) c key r ms = Ok tt.
    Proof.
      intros M L P Lm. apply (signatureProofVerify_iff OK). unfold h_proof. cbn [sp_aprime sp_abar sp_d sp_vc1 sp_vc2]. split; [|split].
      - exact (@honest_pairing C OK key sg h_b (rn_pok R) VB).
      - change [h_A'; pg_h0 key; h_Abar ⊖ h_d] with (h_bases1 ++ [h_Abar ⊖ h_d]). apply (answered_ok (bases := h_bases1)); try reflexivity; [discriminate|].
        exact (@honest_vc1 C OK key sg h_b (rn_pok R)).
      - apply (vc2_iff OK BS).
        + intros _ I. apply M in I. exact (rv_0 I).
        + cbn [pg_h issuer_key ip_key]. pose proof hs_len as Lh. intro E. rewrite E in Lh. simpl in Lh. lia.
        + rewrite (bases2_eq M). split.
          { split; [cbn [pg_count issuer_key ip_key]; lia|]. cbn [pg_h issuer_key ip_key]. rewrite hs_len, (count_in_ext 0 _ M), Lm.
            rewrite count_in_increasing; [lia|exact rv_inc|]. intros j I. apply rv_lt in I. lia. }
          replace (shown sc key r (map (@sm_fr C) ms) h_Nym) with (shown sc key h_rv (map (@sm_fr C) ms) h_Nym)
            by (unfold shown; rewrite (disclosed_ext _ M); reflexivity).
          apply answered_ok; [discriminate|apply lenb2|apply len2|apply statement2, P].
    Qed.

    Lemma sec2_at i : i <= n -> ~ In i h_rr -> nth_error h_sec2 (h_pos i) = Some (nth i (sk :: vals) z0).
    Proof.
      intros L N. unfold h_sec2, h_pos. cbn [Nat.add nth_error]. rewrite unpick_nth by (cbn [length]; try lia; exact N).
      apply nth_error_nth'. cbn [length]. lia.
    Qed.
    Lemma base2_at i : i <= n -> ~ In i h_rr -> nth_error h_bases2 (h_pos i) = Some (base_at HG pk n i).
    Proof.
      intros L N. unfold h_bases2, h_pos. cbn [Nat.add nth_error]. rewrite unpick_nth by (rewrite ?hs_len; try lia; exact N).
      unfold base_at. apply nth_error_nth'. rewrite hs_len. lia.
    Qed.
    Lemma bl2_at i : i <= n -> ~ In i h_rr -> nth_error h_bl2 (h_pos i) = Some (pr_bl2 (rn_pok R) (h_pos i)).
    Proof.
      intros L N. unfold h_bl2. apply nth_blind. assert (nth_error h_bases2 (h_pos i) <> None) by (rewrite base2_at by assumption; discriminate).
      apply nth_error_Some. assumption.
    Qed.

    Lemma nym_verifies i j r rbl c : i <= n -> j <= n -> ~ In j h_rr ->
      verify_attr_nym key (Z.of_nat i) (h_nproof i j r rbl c) (cm_comm (h_comm i j r rbl)) (sp_vc2 (h_proof c)) (Z.of_nat (h_pos j)) c = Ok tt.
    Proof.
      intros L Lj N. apply (verify_attr_nym_iff OK HG BS); [exact L|]. eexists _, (h_pos j). split; [|split; [reflexivity|split]].
      - unfold h_nproof, answered. cbn [pf_resp]. apply (@nth_resp C c (h_nbl j rbl) (h_nsec j r) 1); reflexivity.
      - unfold h_proof, answered. cbn [sp_vc2 pf_resp]. apply nth_resp; [apply bl2_at; assumption|apply sec2_at; assumption].
      - change [h0; base_at HG pk n i; cm_comm (h_comm i j r rbl)] with (h_nbases i ++ [cm_comm (h_comm i j r rbl)]).
        apply (answered_ok (bases := h_nbases i)); try reflexivity; [discriminate|]. cbn [h_nbases h_nsec gdot h_comm cm_comm]. gnorm KO GO1; ring.
    Qed.

    (** ** The commitments of the signer *)
    Lemma commitNym_ok : getCommitNym (issuer_key HG pk n) h_pok st 0 (rn_nym R)
      = Ok (if sc then None else Some (committed (h_nbases 0) (h_nbl 0 (rn_nym R)))).
    Proof.
      unfold getCommitNym. destruct sc eqn:SC; [reflexivity|]. cbn [issuer_key ip_key pg_h pg_h0]. change 0%Z with (Z.of_nat 0) at 1. rewrite (base_lookup HG BS pk (Nat.le_0_l n)). cbn [bind].
      assert (N : ~ In 0 h_rr) by (unfold h_rr; rewrite SC; exact rv_0).
      pose proof (bl2_at (Nat.le_0_l n) N) as E. change (2 + 0)%Z with (Z.of_nat (h_pos 0)). cbn [h_pok ps_vc2 pc_blind committed]. rewrite (znth_at E). cbn [bind].
      rewrite (finish_ok OK) by (try discriminate; cbn; lia). reflexivity.
    Qed.

    Definition chosen_rand (d : option (AuditData C)) (dflt : zr) : zr :=
      match d with Some x => match au_rand x with Some r => r | None => dflt end | None => dflt end.

    Lemma attrCommit_ok i enabled audit (Rr : AttrRand C) : i <= n ->
      (enabled = true -> ~ In i h_rr /\ NoDup (h0 :: hs) /\ h_d <> base_at HG pk n i /\ audit_for h0 (base_at HG pk n i) (nth i (sk :: vals) z0) audit) ->
      getAttributeCommitment (issuer_key HG pk n) h_pok (nth i (sk :: vals) z0) (Z.of_nat i) enabled audit Rr
      = Ok (if enabled then Some (h_comm i i (chosen_rand audit (ra_r Rr)) (ra_bl Rr)) else None).
    Proof.
      intros L Hy. unfold getAttributeCommitment. destruct enabled; [|reflexivity]. cbn [negb]. destruct (Hy eq_refl) as (N & ND & Nd & Au). clear Hy.
      cbn [issuer_key ip_key pg_h pg_h0]. rewrite (base_lookup HG BS pk L). cbn [bind].
      set (x := nth i (sk :: vals) z0) in *. set (h := base_at HG pk n i) in *.
      assert (EB : forall r, build [(h0, r); (h, x)] = Ok ((h0 ⊗ r) ⊕ (h ⊗ x))).
      { intro r. rewrite (build_ok OK) by discriminate. cbn [map fst snd gdot]. f_equal. gnorm KO GO1; ring. }
      assert (ES : (let* '(nym, r) := match audit with
                     | Some d => let* a := deref (au_attr d) in let* _ := guard (zeqb x a) in let* r := deref (au_rand d) in
                         let* nym := build [(h0, r); (h, a)] in let* m := deref (au_nym d) in let* _ := guard (geqb m nym) in Ok (nym, r)
                     | None => let* nym := build [(h0, ra_r Rr); (h, x)] in Ok (nym, ra_r Rr) end in Ok (nym, r))
                   = Ok ((h0 ⊗ chosen_rand audit (ra_r Rr)) ⊕ (h ⊗ x), chosen_rand audit (ra_r Rr))).
      { destruct Au as [->|[r ->]]; cbn [au_attr au_rand au_nym deref bind chosen_rand].
        - rewrite EB. reflexivity.
        - replace (zeqb x x) with true by (symmetry; apply (sok_eqb KO); reflexivity). cbn [guard bind]. rewrite EB. cbn [bind]. rewrite (geqb_refl GO1). reflexivity. }
      assert (EX : forall A B (m : res (A * B)) y, (let* '(a, b) := m in Ok (a, b)) = Ok y -> m = Ok y).
      { intros A0 B0 [[a b]| |] y; auto. }
      apply EX in ES. rewrite ES. cbn [bind]. clear EX ES EB.
      cbn [h_pok ps_vc2 pc_bases pc_blind committed]. pose proof (base2_at L N) as Eb. fold h in Eb.
      assert (EI : index_of_base 0 h h_bases2 = Ok (0 + h_pos i)).
      { apply (hd_index OK); [exact Eb|]. intros j Lj Ej. unfold h_bases2 in Ej, Eb. destruct j as [|j]; [injection Ej as Ej; exact (Nd Ej)|].
        cbn [nth_error] in Ej. unfold h_pos in Eb, Lj. cbn [Nat.add nth_error] in Eb.
        assert (ND' : NoDup (h0 :: unpick 0 hs h_rr)).
        { inversion ND; subst. constructor; [intro I; apply unpick_in in I; contradiction|apply unpick_nodup; assumption]. }
        change (nth_error (unpick 0 hs h_rr) (count_out 0 i h_rr)) with (nth_error (h0 :: unpick 0 hs h_rr) (S (count_out 0 i h_rr))) in Eb.
        assert (j = S (count_out 0 i h_rr)); [|lia]. eapply (proj1 (NoDup_nth_error _) ND'); [apply nth_error_Some; congruence|congruence]. }
      rewrite EI. cbn [bind Nat.add]. rewrite (proj2 (nth_res_ok _ _ _) (bl2_at L N)). cbn [bind].
      rewrite (finish_ok OK) by (try discriminate; cbn; lia). reflexivity.
    Qed.

    (** ** The signature in closed form *)
    Definition okb (x : res bytes) : bytes := match x with Ok b => b | _ => [] end.

    Lemma size3 i j r rbl c : (Z.of_nat (length (pf_resp (h_nproof i j r rbl c))) <= 4294967295)%Z.
    Proof. cbn [h_nproof answered pf_resp]. rewrite resp_length by reflexivity. cbn [h_nbl length]. lia. Qed.
    Lemma nproof_bytes i j r rbl c : proofG1Bytes (h_nproof i j r rbl c) = Ok (okb (proofG1Bytes (h_nproof i j r rbl c))).
    Proof. destruct (proofG1_rt OK S32 (@size3 i j r rbl c)) as (b & E & _). rewrite E. reflexivity. Qed.

    Lemma g1_bytes_ne (x : g1) : nonempty (g1_bytes C x) = true.
    Proof. pose proof (ok_g1_len OK x) as L. pose proof (ok_g1_size OK). destruct (g1_bytes C x); [simpl in L; lia|reflexivity]. Qed.
    Lemma nproof_ne i j r rbl c : nonempty (okb (proofG1Bytes (h_nproof i j r rbl c))) = true.
    Proof.
      destruct (proofG1_rt OK S32 (@size3 i j r rbl c)) as (b & E & L & _). rewrite E. cbn [okb]. destruct b; [|reflexivity]. unfold proof_size in L. simpl in L. lia.
    Qed.

    Section Message.
      (** [eid], [rh]: the attributes the commitments are about; [je], [jr]: the messages used *)
      Variables (eid rh je jr : nat) (msg : bytes) (cri : ACRI) (meta : option (Metadata C)).

      Definition h_re : zr := chosen_rand (md_eid_audit meta) (ra_r (rn_eid R)).
      Definition h_rrh : zr := chosen_rand (md_rh_audit meta) (ra_r (rn_rh R)).
      Definition h_eid : attributeCommitment C := h_comm (S eid) je h_re (ra_bl (rn_eid R)).
      Definition h_rh : attributeCommitment C := h_comm (S rh) jr h_rrh (ra_bl (rn_rh R)).
      Definition h_cb (on : bool) (x : attributeCommitment C) : bytes :=
        if on then g1_bytes C (cm_comm x) ++ g1_bytes C (pc_comm (cm_proof x)) else [].
      Definition h_data : bytes :=
        sign_label st ++ pokBytes h_pok ++ g1_bytes C h_Nym
          ++ (if sc then [] else g1_bytes C (gdot (h_nbases 0) (h_nbl 0 (rn_nym R))))
          ++ h_cb (has_eid st) h_eid ++ h_cb (has_rh st) h_rh ++ proofNonceBytes H msg.
      Definition h_c : zr := challenge2 H h_data (zr_bytes C (rn_nonce R)).
      Definition h_eidp : ProofG1 C := h_nproof (S eid) je h_re (ra_bl (rn_eid R)) h_c.
      Definition h_rhp : ProofG1 C := h_nproof (S rh) jr h_rrh (ra_bl (rn_rh R)) h_c.
      Definition h_nymp : ProofG1 C := h_nproof 0 0 RNym (rn_nym R) h_c.
      Definition h_sig : ASignature := {|
        as_main := okb (payloadBytes {| pp_count := n + 1; pp_revealed := h_rv |}) ++ okb (signatureProofBytes (h_proof h_c));
        as_nonce := zr_bytes C (rn_nonce R); as_nym := g1_bytes C h_Nym;
        as_nym_proof := if sc then [] else okb (proofG1Bytes h_nymp);
        as_eid := if has_eid st then g1_bytes C (cm_comm h_eid) else [];
        as_eid_proof := if has_eid st then okb (proofG1Bytes h_eidp) else [];
        as_eid_idx := if has_eid st then Z.of_nat (h_pos je) else 0%Z;
        as_rh := if has_rh st then g1_bytes C (cm_comm h_rh) else [];
        as_rh_proof := if has_rh st then okb (proofG1Bytes h_rhp) else [];
        as_rh_idx := if has_rh st then Z.of_nat (h_pos jr) else 0%Z;
        as_epoch_pk := acri_epochpk cri; as_pk_sig := acri_sig cri; as_epoch := acri_epoch cri; as_alg := Some (acri_alg cri) |}.
      Definition h_meta : option (Metadata C) :=
        if has_eid st then Some {| md_eid := []; md_eid_data := Some (audit_of h_eid (nth je (sk :: vals) z0)); md_rh := [];
                                   md_rh_data := if has_rh st then Some (audit_of h_rh (nth jr (sk :: vals) z0)) else None |}
        else None.

      Hypothesis Bn : (Z.of_nat (n + 1) <= 65535)%Z.
      Hypothesis Le : eid < n.
      Hypothesis Lr : rh < n.
      Hypothesis He : has_eid st = true -> exists a, nth_error attributes eid = Some a /\ at_type a = HiddenAttr.
      Hypothesis Hr : hides_rh st = true -> exists a, nth_error attributes rh = Some a /\ at_type a = HiddenAttr.
      Hypothesis ND : has_eid st = true -> NoDup (h0 :: hs).
      Hypothesis Nde : has_eid st = true -> h_d <> base_at HG pk n (S eid).
      Hypothesis Ndr : has_rh st = true -> h_d <> base_at HG pk n (S rh).
      Hypothesis Ae : has_eid st = true -> audit_for h0 (base_at HG pk n (S eid)) (nth eid vals z0) (md_eid_audit meta).
      Hypothesis Ar : has_rh st = true -> audit_for h0 (base_at HG pk n (S rh)) (nth rh vals z0) (md_rh_audit meta).

      Lemma hidden_rr i a : nth_error attributes i = Some a -> at_type a = HiddenAttr -> ~ In (S i) h_rr.
      Proof.
        intros E T I. unfold h_rr, absent in I. assert (I' : In (S i) h_rv) by (destruct sc; [destruct I; [discriminate|]|]; assumption).
        exact (revealed_hidden E T (k := 1) I').
      Qed.

      Lemma eid_hidden : has_eid st = true -> ~ In (S eid) h_rr.
      Proof. intro E. destruct (He E) as (a & E1 & E2). exact (hidden_rr E1 E2). Qed.
      Lemma rh_hidden : has_rh st = true -> ~ In (S rh) h_rr.
      Proof. intro E. destruct Hr as (a & E1 & E2); [destruct st; try discriminate; reflexivity|]. exact (hidden_rr E1 E2). Qed.

      Lemma args_ok : sign_arg_check attributes (Z.of_nat rh) (Z.of_nat eid) st = Ok tt.
      Proof.
        assert (X : forall i a, nth_error attributes i = Some a -> at_type a = HiddenAttr -> attr_hidden attributes (Z.of_nat i) = Ok true).
        { intros i a E T. unfold attr_hidden. rewrite (znth_at E). cbn [bind]. unfold is_hidden. rewrite T. reflexivity. }
        unfold sign_arg_check.
        destruct (has_eid st) eqn:E1.
        - destruct (He eq_refl) as (a & Ea & Ta). pose proof (X eid a Ea Ta) as Xe. rewrite Xe. cbn [bind guard].
          destruct (hides_rh st) eqn:E2.
          + destruct (Hr eq_refl) as (b & Eb & Tb). rewrite (X rh b Eb Tb). cbn [bind guard]. clear - st. destruct st; reflexivity.
          + clear - E2. destruct st; try discriminate; reflexivity.
        - clear - E1. destruct st; try discriminate; reflexivity.
      Qed.

      Lemma znth_val i : i < n -> exists m, znth (number 0 (sk :: vals)) (past_sk (Z.of_nat i) 0) = Ok m /\ sm_fr m = nth (S i) (sk :: vals) z0.
      Proof.
        intro L. assert (E : past_sk (Z.of_nat i) 0 = Z.of_nat (S i)) by (unfold past_sk; replace (0 <=? Z.of_nat i)%Z with true by lia; lia). rewrite E.
        destruct (nth_error (number 0 (sk :: vals)) (S i)) as [m|] eqn:Em.
        - exists m. split; [apply znth_at; exact Em|]. pose proof (number_fr (C := C) (sk :: vals) 0) as N. apply (f_equal (fun l => nth_error l (S i))) in N.
          rewrite nth_error_map, Em in N. cbn [option_map] in N. symmetry in N. symmetry. exact (nth_error_nth _ _ z0 N).
        - apply nth_error_None in Em. rewrite number_length in Em. cbn [length] in Em. lia.
      Qed.

      Lemma size1 c : (Z.of_nat (proof_size (sp_vc1 (h_proof c))) <= 4294967295)%Z.
      Proof.
        unfold proof_size. cbn [h_proof sp_vc1 answered pf_resp]. rewrite resp_length by reflexivity. cbn [h_bl1 length].
        pose proof (proj2 BS) as G. unfold frCompressedSize. lia.
      Qed.
      Lemma size2 c : (Z.of_nat (length (pf_resp (sp_vc2 (h_proof c)))) <= 4294967295)%Z.
      Proof.
        cbn [h_proof sp_vc2 answered pf_resp]. rewrite resp_length by (rewrite lenb2, len2; lia). rewrite lenb2. unfold h_bases2. cbn [length].
        rewrite unpick_length, hs_len. pose proof (count_in_out 0 (n + 1) h_rr). lia.
      Qed.
      Lemma payload_ok : payloadBytes {| pp_count := n + 1; pp_revealed := h_rv |} = Ok (okb (payloadBytes {| pp_count := n + 1; pp_revealed := h_rv |})).
      Proof.
        destruct (@payload_rt {| pp_count := n + 1; pp_revealed := h_rv |} Bn) as (pb & E & _).
        { cbn [pp_revealed pp_count]. intros i Hi. apply rv_lt in Hi. pose proof (Nat.mod_upper_bound (n + 1) 8 ltac:(lia)). pose proof (Nat.div_mod (n + 1) 8 ltac:(lia)). lia. }
        rewrite E. reflexivity.
      Qed.
      Lemma proof_bytes c : signatureProofBytes (h_proof c) = Ok (okb (signatureProofBytes (h_proof c))).
      Proof. destruct (@signatureProofBytes_ok C OK BS (h_proof c) (@size1 c) (@size2 c)) as [sb E]. rewrite E. reflexivity. Qed.

      Lemma nym_generate i j r rbl c : generateProof (committed (h_nbases i) (h_nbl j rbl)) c (h_nsec j r) = Ok (h_nproof i j r rbl c).
      Proof. unfold generateProof. cbn [pc_blind pc_comm committed]. rewrite responses_ok by reflexivity. reflexivity. Qed.

      Lemma pok_generates c : pokGenerateProof h_pok c = Ok (h_proof c).
      Proof.
        unfold pokGenerateProof, generateProof, h_pok. cbn [ps_vc1 ps_vc2 ps_sec1 ps_sec2 pc_blind pc_comm committed ps_aprime ps_abar ps_d].
        rewrite responses_ok by reflexivity. cbn [bind]. rewrite responses_ok by (rewrite lenb2, len2; lia). reflexivity.
      Qed.

      Lemma sign_ok credBytes criRaw : st <> OtherSig -> je = S eid -> jr = S rh -> dec c_cri criRaw = Some cri -> acri_alg cri = 0%Z -> dec c_cred credBytes = Some (credential_of A e s vals) ->
        arSign H c_cred c_sig c_cri credBytes sk h_Nym RNym (Some (Some (issuer_key HG pk n))) attributes msg (Z.of_nat rh) (Z.of_nat eid) criRaw st meta R
        = let* b := opt_err (enc c_sig h_sig) in Ok (b, h_meta).
      Proof.
        intros Kn Je Jr D1 EA D2. unfold arSign. rewrite args_ok. cbn [bind assert_ptr]. rewrite D1. cbn [opt_err bind]. rewrite EA. cbn [Z.eqb guard bind].
        rewrite D2. cbn [opt_err bind]. rewrite getPoK_ok. cbn [bind]. cbn [credential_of ac_skpos]. rewrite commitNym_ok. cbn [bind].
        destruct (znth_val Le) as (me & Eme & Fme). destruct (znth_val Lr) as (mr & Emr & Fmr). rewrite Eme. cbn [bind]. rewrite Fme.
        assert (PE : past_sk (Z.of_nat eid) 0 = Z.of_nat (S eid)) by (unfold past_sk; replace (0 <=? Z.of_nat eid)%Z with true by lia; lia).
        assert (PR : past_sk (Z.of_nat rh) 0 = Z.of_nat (S rh)) by (unfold past_sk; replace (0 <=? Z.of_nat rh)%Z with true by lia; lia).
        rewrite PE. assert (EE : eid_enabled st = has_eid st) by (clear - Kn; destruct st; (reflexivity || contradiction)).
        rewrite attrCommit_ok.
        2:{ lia. }
        2:{ rewrite EE. intro X. split; [apply eid_hidden, X|]. split; [apply ND, X|]. split; [apply Nde, X|]. apply (Ae X). }
        cbn [bind]. rewrite Emr. cbn [bind]. rewrite Fmr, PR. rewrite attrCommit_ok.
        2:{ lia. }
        2:{ change (rh_enabled st) with (has_rh st). intro X. split; [apply rh_hidden, X|]. split; [apply ND; destruct st; try discriminate; reflexivity|]. split; [apply Ndr, X|]. apply (Ar X). }
        cbn [bind]. fold h_re h_rrh. 
        replace (h_comm (S eid) (S eid) h_re (ra_bl (rn_eid R))) with h_eid by (unfold h_eid; rewrite Je; reflexivity).
        replace (h_comm (S rh) (S rh) h_rrh (ra_bl (rn_rh R))) with h_rh by (unfold h_rh; rewrite Jr; reflexivity).
        replace (nth (S eid) (sk :: vals) z0) with (nth je (sk :: vals) z0) by (rewrite Je; reflexivity).
        replace (nth (S rh) (sk :: vals) z0) with (nth jr (sk :: vals) z0) by (rewrite Jr; reflexivity).
        rewrite EE. change (rh_enabled st) with (has_rh st).
        assert (EC : getChallengeHash H h_pok h_Nym (if sc then None else Some (committed (h_nbases 0) (h_nbl 0 (rn_nym R))))
                       (if has_eid st then Some h_eid else None) (if has_rh st then Some h_rh else None) msg st (rn_nonce R) = Ok h_c).
        { unfold getChallengeHash, h_c, h_data. clear - Kn. destruct st; try reflexivity. contradiction. }
        rewrite EC. cbn [bind]. rewrite pok_generates. cbn [bind].
        assert (EN : match (if sc then None else Some (committed (h_nbases 0) (h_nbl 0 (rn_nym R)))) with
                     | Some u => let* p := generateProof u h_c [RNym; sk] in Ok (Some p) | None => Ok None end = Ok (if sc then None else Some h_nymp)).
        { destruct sc; [reflexivity|]. change [RNym; sk] with (h_nsec 0 RNym). rewrite nym_generate. reflexivity. }
        rewrite EN. cbn [bind].
        assert (E1 : opt_respond (if has_eid st then Some h_eid else None) h_c (nth je (sk :: vals) z0) = Ok (if has_eid st then Some (h_eid, h_eidp) else None)).
        { destruct (has_eid st); [|reflexivity]. unfold opt_respond. cbn [h_eid h_comm cm_proof cm_r]. change [h_re; nth je (sk :: vals) z0] with (h_nsec je h_re). rewrite nym_generate. reflexivity. }
        assert (E2 : opt_respond (if has_rh st then Some h_rh else None) h_c (nth jr (sk :: vals) z0) = Ok (if has_rh st then Some (h_rh, h_rhp) else None)).
        { destruct (has_rh st); [|reflexivity]. unfold opt_respond. cbn [h_rh h_comm cm_proof cm_r]. change [h_rrh; nth jr (sk :: vals) z0] with (h_nsec jr h_rrh). rewrite nym_generate. reflexivity. }
        rewrite E1, E2. cbn [bind].
        assert (EP : packageProof c_sig attributes h_Nym (h_proof h_c) (if sc then None else Some h_nymp) (if has_eid st then Some (h_eid, h_eidp) else None)
                       (if has_rh st then Some (h_rh, h_rhp) else None) cri (rn_nonce R) = opt_err (enc c_sig h_sig)).
        { unfold packageProof. rewrite La. fold h_rv. rewrite payload_ok. cbn [bind]. rewrite proof_bytes. cbn [bind].
          unfold h_sig, opt_proof.
          pose proof (nproof_bytes 0 0 RNym (rn_nym R) h_c) as X1. fold h_nymp in X1. pose proof (nproof_bytes (S eid) je h_re (ra_bl (rn_eid R)) h_c) as X2. fold h_eidp in X2.
          pose proof (nproof_bytes (S rh) jr h_rrh (ra_bl (rn_rh R)) h_c) as X3. fold h_rhp in X3.
          destruct (proofG1Bytes h_nymp) eqn:Q1; try discriminate. destruct (proofG1Bytes h_eidp) eqn:Q2; try discriminate. destruct (proofG1Bytes h_rhp) eqn:Q3; try discriminate.
          clear - Q1 Q2 Q3. destruct sc, (has_eid st), (has_rh st); cbn [fst snd]; rewrite ?Q1, ?Q2, ?Q3; reflexivity. }
        rewrite EP. unfold h_meta. destruct (enc c_sig h_sig) as [b|]; [|reflexivity]. cbn [opt_err bind]. clear - st. destruct st; reflexivity.
      Qed.

      Lemma sig_canon : je <= n -> jr <= n -> int64 (acri_epoch cri) -> acri_alg cri = 0%Z -> canon_asig h_sig.
      Proof using Bn.
        intros Lje Ljr I A0. unfold canon_asig. cbn [h_sig as_eid_idx as_rh_idx as_epoch as_alg]. rewrite A0.
        assert (P : forall j, j <= n -> int32 (Z.of_nat (h_pos j))).
        { intros j Lj. unfold int32, h_pos, count_out. pose proof (filter_len (fun k => negb (mem k h_rr)) (seq 0 j)) as F. rewrite seq_length in F. clear - F Lj Bn. lia. }
        assert (P0 : int32 0%Z) by (clear; unfold int32; lia).
        assert (Q : forall (b : bool) x, int32 x -> int32 (if b then x else 0%Z)) by (intros [] x Ix; [exact Ix|exact P0]).
        split; [apply Q, P, Lje|]. split; [apply Q, P, Ljr|]. split; [exact I|].
        intros a Ea. injection Ea as <-. exact P0.
      Qed.

      Lemma sig_verifies sigb v m : je <= n -> jr <= n -> (has_eid st = true -> ~ In je h_rr) -> (has_rh st = true -> ~ In jr h_rr) -> acri_alg cri = 0%Z -> dec c_sig sigb = Some h_sig -> aries_compatible st v = true -> m = None \/ m = h_meta ->
        arVerify H c_sig (Some (Some (issuer_key HG pk n))) sigb msg attributes (Z.of_nat rh) (Z.of_nat eid) 0 v m = Ok tt.
      Proof.
        assert (PE : past_sk (Z.of_nat eid) (Z.of_nat 0) = Z.of_nat (S eid)) by (clear; unfold past_sk; replace (Z.of_nat 0 <=? Z.of_nat eid)%Z with true by lia; lia).
        assert (PR : past_sk (Z.of_nat rh) (Z.of_nat 0) = Z.of_nat (S rh)) by (clear; unfold past_sk; replace (Z.of_nat 0 <=? Z.of_nat rh)%Z with true by lia; lia).
        intros Lje Ljr HE HR EA D CV Hm. unfold arVerify. destruct verifier_messages as (ms & EM & PM & LM).
        assert (LM' : length h_rv <= length ms) by (clear - LM; lia).
        assert (SCv : ver_smartcard v = sc) by (destruct st, v; try discriminate; reflexivity).
        assert (N1 : nonempty (as_eid h_sig) = has_eid st) by (cbn [h_sig as_eid]; destruct (has_eid st); [apply g1_bytes_ne|reflexivity]).
        assert (N2 : nonempty (as_eid_proof h_sig) = has_eid st) by (cbn [h_sig as_eid_proof]; destruct (has_eid st); [apply nproof_ne|reflexivity]).
        assert (N3 : nonempty (as_rh h_sig) = has_rh st) by (cbn [h_sig as_rh]; destruct (has_rh st); [apply g1_bytes_ne|reflexivity]).
        assert (N4 : nonempty (as_rh_proof h_sig) = has_rh st) by (cbn [h_sig as_rh_proof]; destruct (has_rh st); [apply nproof_ne|reflexivity]).
        assert (VE : ar_verifyEid v h_sig = has_eid st).
        { unfold ar_verifyEid. rewrite N1, N3. clear - CV. destruct st, v; try discriminate; reflexivity. }
        assert (VR : ar_verifyRh v h_sig = has_rh st).
        { unfold ar_verifyRh. rewrite N3. clear - CV. destruct st, v; try discriminate; reflexivity. }
        assert (TC : ar_type_checks v h_sig = true).
        { unfold ar_type_checks. rewrite N1, N2, N3, N4. clear - CV. destruct st, v; try discriminate; reflexivity. }
        assert (Alg : as_alg h_sig = Some 0%Z) by (cbn [h_sig as_alg]; rewrite EA; reflexivity).
        assert (PN : ver_smartcard v = false -> parseProofG1 C (as_nym_proof h_sig) = Ok h_nymp).
        { rewrite SCv. intro SC. cbn [h_sig as_nym_proof]. rewrite SC. destruct (proofG1_rt OK S32 (@size3 0 0 RNym (rn_nym R) h_c)) as (b & E & _ & P). unfold h_nymp. rewrite E. cbn [okb].
          specialize (P []). rewrite app_nil_r in P. exact P. }
        assert (PE0 : parse_nym C (ar_verifyEid v h_sig) (as_eid_proof h_sig) (as_eid h_sig) = Ok (if has_eid st then Some (h_eidp, cm_comm h_eid) else None)).
        { rewrite VE. cbn [h_sig as_eid_proof as_eid]. destruct (has_eid st); [|reflexivity]. apply (@parse_on true); [intros _; apply nproof_bytes|apply size3|reflexivity]. }
        assert (PR0 : parse_nym C (ar_verifyRh v h_sig) (as_rh_proof h_sig) (as_rh h_sig) = Ok (if has_rh st then Some (h_rhp, cm_comm h_rh) else None)).
        { rewrite VR. cbn [h_sig as_rh_proof as_rh]. destruct (has_rh st); [|reflexivity]. apply (@parse_on true); [intros _; apply nproof_bytes|apply size3|reflexivity]. }
        pose proof (@first_enc pk n sigb msg attributes 0%Z v h_sig ms h_rv _ (h_proof h_c) _ h_Nym h_nymp _ _ D Alg TC EM payload_ok (proof_bytes h_c) eq_refl Bn rv_inc rv_lt
           LM' (@size1 h_c) (@size2 h_c) eq_refl PN PE0 PR0) as FE. cbv zeta in FE. destruct FE as (f & EF & F1 & F2 & F3 & F4 & F5 & F6 & F7 & F8 & F9 & F10 & F11).
        { rewrite EF. cbn [bind]. rewrite F1.
          assert (ED : challenge2 H (vf_data f) (as_nonce h_sig) = h_c).
          { unfold h_c. cbn [h_sig as_nonce]. f_equal. rewrite F11, VE, VR, SCv. unfold h_data.
            assert (LB : ver_label v (has_eid st) (has_rh st) = sign_label st) by (destruct st, v; try discriminate; reflexivity). rewrite LB. f_equal.
            assert (PB : chal_bytes key (h_proof h_c) (absent sc h_rv) = pokBytes h_pok).
            { unfold chal_bytes, pokBytes, committedBytes, h_pok, h_proof. cbn [sp_abar sp_aprime sp_vc1 sp_vc2 sp_d answered pf_comm ps_abar ps_vc1 ps_vc2 committed pc_bases pc_comm pg_h0 pg_h issuer_key ip_key].
              unfold h_bases1, h_bases2 at 2. cbn [map concat]. rewrite hidden_bases_unpick. fold h_rr. rewrite <- !app_assoc. cbn [app]. reflexivity. }
            rewrite PB. f_equal. f_equal. cbn [h_sig as_eid as_rh]. unfold h_cb, h_nymp, h_eidp, h_rhp, h_nproof, answered, h_eid at 2 4, h_rh at 2 4, h_comm, committed.
            destruct sc, (has_eid st), (has_rh st); cbn [fst pf_comm cm_proof pc_comm app]; rewrite <- ?app_assoc; reflexivity. }
          rewrite ED.
          change 0%Z with (Z.of_nat 0). apply (second_iff OK (HG := HG) BS h_c v m (Nat.le_0_l n) Le Lr PE PR F2).
          rewrite F1, F2, F3, F4, F5, F6, F7, F8, SCv.
          assert (AU : forall i j r rbl, audit_fits h0 (base_at HG pk n i) (cm_comm (h_comm i j r rbl)) (Some (audit_of (h_comm i j r rbl) (nth j (sk :: vals) z0))) []).
          { intros i j r rbl. split; [|congruence]. exists (nth j (sk :: vals) z0), r. unfold audit_of. cbn [au_attr au_rand au_nym cm_comm cm_r h_comm].
            split; [reflexivity|]. split; [reflexivity|]. split; [|intros y Ey; injection Ey as <-; reflexivity]. unfold opens. cbn [nth]. gnorm KO GO1; ring. }
          split; [|split; [|split; [|split; [|split]]]].
          + intros p m' Ep Em. destruct (has_eid st) eqn:X; [|discriminate]. injection Ep as <-. cbn [snd]. destruct Hm as [->| ->]; [discriminate|].
            unfold h_meta in Em. rewrite X in Em. injection Em as <-. cbn [md_eid_data md_eid]. apply AU.
          + intros p m' Ep Em. destruct (has_rh st) eqn:X; [|discriminate]. injection Ep as <-. cbn [snd]. destruct Hm as [->| ->]; [discriminate|].
            unfold h_meta in Em. assert (X' : has_eid st = true) by (destruct st; try discriminate; reflexivity). rewrite X', X in Em. injection Em as <-. cbn [md_rh_data md_rh]. apply AU.
          + intros p Ep. destruct sc eqn:SC; [discriminate|]. injection Ep as <-. apply (@nym_verifies 0 0 RNym (rn_nym R) h_c); [clear; lia|clear; lia|]. unfold h_rr. rewrite SC. exact rv_0.
          + intros p Ep. destruct (has_eid st) eqn:X; [|discriminate]. injection Ep as <-. cbn [fst snd h_sig as_eid_idx]. rewrite X. apply nym_verifies; [clear - Le; lia|exact Lje|]. apply HE. reflexivity.
          + intros p Ep. destruct (has_rh st) eqn:X; [|discriminate]. injection Ep as <-. cbn [fst snd h_sig as_rh_idx]. rewrite X. apply nym_verifies; [clear - Lr; lia|exact Ljr|]. apply HR. reflexivity.
          + apply proof_verifies; [|exact F10|exact PM|exact LM]. intro i. rewrite F9, SCv. split; [tauto|]. intro I. split; [exact I|]. intros _ ->. exact (rv_0 I). }
      Qed.
    End Message.
  End Honest.
End Sign.

(** Sign fails with a value that is not one of the declared signature types. *)
Lemma sign_known (C : Curve) (H : hasher C) c_cred c_sig c_cri credBytes (sk : Zr C) (Nym : G1 C) (RNym : Zr C) key attributes msg rh eid criRaw st meta R out :
  arSign H c_cred c_sig c_cri credBytes sk Nym RNym key attributes msg rh eid criRaw st meta R = Ok out -> st <> OtherSig.
Proof.
  intros E ->. unfold arSign in E. cbn [sign_arg_check bind] in E.
  apply bind_ok in E. destruct E as [ipk [_ E]]. apply bind_ok in E. destruct E as [cri [_ E]]. apply bind_ok in E. destruct E as [u [_ E]].
  apply bind_ok in E. destruct E as [cred [_ E]]. apply bind_ok in E. destruct E as [[pok ms] [_ E]]. apply bind_ok in E. destruct E as [cn [_ E]]. cbv zeta in E.
  apply bind_ok in E. destruct E as [me [_ E]]. apply bind_ok in E. destruct E as [ei [_ E]]. apply bind_ok in E. destruct E as [mr [_ E]].
  apply bind_ok in E. destruct E as [rr [_ E]]. discriminate E.
Qed.
