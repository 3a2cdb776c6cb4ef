(** Blind requests, pseudonym signatures, commitment bases and smartcards: verification equations,
    completeness, soundness, forgeries. *)
From Verif Require Import Base Curve Algebra Spec Dlog Bridge BridgeFacts Bbs BbsSpec BbsFacts BbsProof BbsComplete Aries AriesSpec AriesIssue.
From Coq Require Import Field Ring.
Unset Strict Implicit.

Section Nym.
  Context {C : Curve} (OK : CurveOk C).
  Variable HG : bytes -> G1 C.
  Variable H : hasher C.
  Let KO := ok_zr OK.
  Let GO1 := ok_g1 OK.
  Add Field Kf_arn : (sok_field KO).
  Notation zr := (zcar (Zr C)).
  Notation g1 := (gcar (G1 C)).
  Notation g2 := (gcar (G2 C)).
  Variable BS : bls_sizes C.
  Let S32 : scalar_size C = frCompressedSize := proj1 BS.

  Lemma base_lookup (pk : g2) n k : k <= n -> znth (gens HG pk (n + 1)) (Z.of_nat k) = Ok (base_at HG pk n k).
  Proof.
    intro L. apply znth_at. unfold base_at. destruct (nth_error (gens HG pk (n + 1)) k) eqn:E.
    - rewrite (nth_error_nth _ _ _ E). reflexivity.
    - apply nth_error_None in E. rewrite gens_length in E. lia.
  Qed.

  Lemma base_lookup_inv (pk : g2) n i h : znth (gens HG pk (n + 1)) i = Ok h -> exists k, i = Z.of_nat k /\ k <= n /\ h = base_at HG pk n k.
  Proof.
    intro E. apply znth_ok in E. destruct E as [k [-> E]]. exists k. split; [reflexivity|].
    assert (L : k < length (gens HG pk (n + 1))) by (apply nth_error_Some; congruence). rewrite gens_length in L. split; [lia|].
    unfold base_at. rewrite (nth_error_nth _ _ _ E). reflexivity.
  Qed.

  (** ** Blind requests *)
  (** two accepting requests with one first message and two responses each *)
  Lemma blind_soundness pk n k req1 req2 nonce1 nonce2 b1 b2 : (Z.of_nat (n + 1) <= 4294967295)%Z -> k <= n ->
    arBlindVerify HG H (Z.of_nat k) req1 (Some (Some (issuer_key HG pk n))) nonce1 = Ok tt ->
    arBlindVerify HG H (Z.of_nat k) req2 (Some (Some (issuer_key HG pk n))) nonce2 = Ok tt ->
    parseBlindedMessages C req1 = Ok b1 -> parseBlindedMessages C req2 = Ok b2 ->
    bl_c b1 = bl_c b2 -> pf_comm (bl_proof b1) = pf_comm (bl_proof b2) ->
    length (pf_resp (bl_proof b1)) = 2 -> length (pf_resp (bl_proof b2)) = 2 ->
    let c1 := H (g1_bytes C (bl_c b1) ++ g1_bytes C (bl_pokc b1) ++ nonce1) in
    let c2 := H (g1_bytes C (bl_c b2) ++ g1_bytes C (bl_pokc b2) ++ nonce2) in
    c1 <> c2 ->
    let x := extract_at c1 c2 (pf_resp (bl_proof b1)) (pf_resp (bl_proof b2)) in
    opens (base_at HG pk n k) (gen0 HG pk (n + 1)) (bl_c b1) (x 1) (x 0).
  Proof.
    intros B L V1 V2 P1 P2 EC ET L1 L2 c1 c2 NE x.
    apply (blindVerify_iff OK HG H BS) in V1; [|assumption..]. apply (blindVerify_iff OK HG H BS) in V2; [|assumption..].
    destruct V1 as [b1' [P1' [_ V1]]], V2 as [b2' [P2' [_ V2]]].
    rewrite P1 in P1'. injection P1' as <-. rewrite P2 in P2'. injection P2' as <-.
    assert (E := two_responses OK (bases := [gen0 HG pk (n + 1); base_at HG pk n k]) (x := bl_c b1)
       (r1 := pf_resp (bl_proof b1)) (r2 := pf_resp (bl_proof b2)) (c1 := c1) (c2 := c2) (cm := pf_comm (bl_proof b1)) L1 L2 NE V1).
    rewrite EC in E at 1. rewrite ET in E. specialize (E V2). cbn [length seq map gdot] in E. fold x in E.
    unfold opens. rewrite <- E. gnorm KO GO1; ring.
  Qed.

  (** any point passes as blinded commitment: the first message of the proof is not hashed *)
  Definition forged_request (pk : g2) (n k : nat) (c t : g1) (r0 r1 : zr) (nonce : bytes) : BlindedMessages C :=
    {| bl_c := c; bl_pokc := t;
       bl_proof := {| pf_comm := gdot [gen0 HG pk (n + 1); base_at HG pk n k; c] [r0; r1; H (g1_bytes C c ++ g1_bytes C t ++ nonce)];
                      pf_resp := [r0; r1] |} |}.

  Lemma forged_request_accepted pk n k c t r0 r1 nonce : (Z.of_nat (n + 1) <= 4294967295)%Z -> k <= n ->
    exists req, blindedBytes (forged_request pk n k c t r0 r1 nonce) = Ok req /\
      parseBlindedMessages C req = Ok (forged_request pk n k c t r0 r1 nonce) /\
      arBlindVerify HG H (Z.of_nat k) req (Some (Some (issuer_key HG pk n))) nonce = Ok tt.
  Proof.
    intros B L. destruct (blinded_rt OK HG BS (b := forged_request pk n k c t r0 r1 nonce)) as [req [E P]]; [cbn; lia|].
    exists req. split; [exact E|]. split; [exact P|]. apply (blindVerify_iff OK HG H BS); [assumption..|].
    exists (forged_request pk n k c t r0 r1 nonce). repeat split; [exact P|reflexivity].
  Qed.

  (** ** Pseudonym signatures *)
  Variable c_nsig : codec ANymSignature.

  Lemma nymVerify_iff pk n k Nym sigBytes digest : k <= n ->
    arNymVerify H c_nsig (Some (Some (issuer_key HG pk n))) Nym sigBytes digest (Z.of_nat k) = Ok tt <->
    exists sig p, dec c_nsig sigBytes = Some sig /\ parseProofG1 C (ans_main sig) = Ok p /\ 2 <= length (pf_resp p) /\
      gdot [gen0 HG pk (n + 1); base_at HG pk n k; Nym]
        (pf_resp p ++ [challenge2 H (nymSigLabel ++ g1_bytes C Nym ++ g1_bytes C (gen0 HG pk (n + 1)) ++ g1_bytes C (base_at HG pk n k)
                          ++ g1_bytes C (pf_comm p) ++ digest) (ans_nonce sig)]) = pf_comm p.
  Proof.
    intro L. unfold arNymVerify. cbn [assert_ptr bind issuer_key ip_key pg_h0 pg_h]. split.
    - intro E. apply bind_ok in E. destruct E as [sig [E1 E]]. destruct (dec c_nsig sigBytes) as [s|] eqn:D; [|discriminate]. injection E1 as ->.
      apply bind_ok in E. destruct E as [p [E2 E]]. apply bind_ok in E. destruct E as [[] [E3 E]].
      rewrite (base_lookup pk L) in E. cbn [bind] in E. apply (proofG1Verify_inv OK) in E. destruct E as [L2 E].
      exists sig, p. repeat split; assumption.
    - intros (sig & p & D & P & L2 & E). rewrite D. cbn [opt_err bind]. rewrite P. cbn [bind].
      replace (2 <=? length (pf_resp p)) with true by lia. cbn [guard bind]. rewrite (base_lookup pk L). cbn [bind].
      apply (proofG1Verify_ok OK); assumption.
  Qed.

  Lemma nymSign_ok pk n k sk RNym digest nonce bl : k <= n ->
    (forall s, round_trips c_nsig s) ->
    let Nym := (gen0 HG pk (n + 1) ⊗ RNym) ⊕ (base_at HG pk n k ⊗ sk) in
    exists sig, arNymSign H c_nsig (Z.of_nat k) sk Nym RNym (Some (Some (issuer_key HG pk n))) digest nonce bl = Ok sig /\
      arNymVerify H c_nsig (Some (Some (issuer_key HG pk n))) Nym sig digest (Z.of_nat k) = Ok tt.
  Proof.
    intros L RT Nym. unfold arNymSign. cbn [assert_ptr bind issuer_key ip_key pg_h0 pg_h]. rewrite (base_lookup pk L). cbn [bind].
    set (h0 := gen0 HG pk (n + 1)). set (h := base_at HG pk n k). rewrite (finish_ok OK) by (try discriminate; reflexivity). cbn [bind].
    unfold committedBytes. cbn [pc_bases pc_comm map concat]. rewrite app_nil_r, <- !app_assoc. unfold generateProof. cbn [pc_blind pc_comm].
    rewrite responses_ok by reflexivity. cbn [bind]. set (c := challenge2 H _ _).
    set (p := {| pf_comm := _; pf_resp := _ |}).
    destruct (proofG1_rt OK S32 (p := p)) as [pb [E [_ P]]].
    { unfold p. cbn [pf_resp]. rewrite resp_length by reflexivity. cbn. lia. }
    rewrite E. cbn [bind]. destruct (RT {| ans_main := pb; ans_nonce := zr_bytes C nonce |}) as [sb [EE DD]].
    rewrite EE. cbn [opt_err]. exists sb. split; [reflexivity|]. apply nymVerify_iff; [exact L|].
    exists {| ans_main := pb; ans_nonce := zr_bytes C nonce |}, p. split; [exact DD|]. cbn [ans_main ans_nonce].
    specialize (P []). rewrite app_nil_r in P. split; [exact P|]. split; [unfold p; cbn [pf_resp]; rewrite resp_length by reflexivity; reflexivity|].
    fold h0 h. change (pf_comm p) with (gdot [h0; h] [bl 0; bl 1]). fold c. unfold p. cbn [pf_resp resp combine map fst snd app gdot].
    unfold Nym. fold h0 h. gnorm KO GO1; ring.
  Qed.

  Lemma nym_soundness pk n k Nym sb1 sb2 digest1 digest2 s1 s2 p1 p2 : k <= n ->
    let key := Some (Some (issuer_key HG pk n)) in
    arNymVerify H c_nsig key Nym sb1 digest1 (Z.of_nat k) = Ok tt ->
    arNymVerify H c_nsig key Nym sb2 digest2 (Z.of_nat k) = Ok tt ->
    dec c_nsig sb1 = Some s1 -> dec c_nsig sb2 = Some s2 ->
    parseProofG1 C (ans_main s1) = Ok p1 -> parseProofG1 C (ans_main s2) = Ok p2 ->
    pf_comm p1 = pf_comm p2 -> length (pf_resp p1) = 2 -> length (pf_resp p2) = 2 ->
    let ch p s digest := challenge2 H (nymSigLabel ++ g1_bytes C Nym ++ g1_bytes C (gen0 HG pk (n + 1)) ++ g1_bytes C (base_at HG pk n k)
                          ++ g1_bytes C (pf_comm p) ++ digest) (ans_nonce s) in
    ch p1 s1 digest1 <> ch p2 s2 digest2 ->
    let x := extract_at (ch p1 s1 digest1) (ch p2 s2 digest2) (pf_resp p1) (pf_resp p2) in
    opens (base_at HG pk n k) (gen0 HG pk (n + 1)) Nym (x 1) (x 0).
  Proof.
    intros L key V1 V2 D1 D2 P1 P2 ET L1 L2 ch NE x.
    apply nymVerify_iff in V1; [|assumption]. apply nymVerify_iff in V2; [|assumption].
    destruct V1 as (s1' & p1' & D1' & P1' & _ & V1), V2 as (s2' & p2' & D2' & P2' & _ & V2).
    rewrite D1 in D1'. injection D1' as <-. rewrite D2 in D2'. injection D2' as <-.
    rewrite P1 in P1'. injection P1' as <-. rewrite P2 in P2'. injection P2' as <-.
    assert (E := two_responses OK (bases := [gen0 HG pk (n + 1); base_at HG pk n k]) (x := Nym)
       (r1 := pf_resp p1) (r2 := pf_resp p2) (cm := pf_comm p1) L1 L2 NE V1).
    rewrite ET in E at 1. specialize (E V2). cbn [length seq map gdot] in E. fold x in E.
    unfold opens. rewrite <- E. gnorm KO GO1; ring.
  Qed.

  (** one byte string is accepted for every pseudonym, message and issuer *)
  Definition null_proof (m : nat) : ProofG1 C := {| pf_comm := gzero; pf_resp := repeat z0 m |}.

  Lemma gdot_all_zero (ps : list g1) m c : length ps <= m -> gdot ps (repeat z0 m ++ [c]) = gzero.
  Proof. intro L. rewrite gdot_extra by (rewrite repeat_length; exact L). apply (gdot_zeros OK). Qed.

  Lemma nym_forgery : (forall s, round_trips c_nsig s) ->
    exists sb, forall pk n k Nym digest, k <= n ->
      arNymVerify H c_nsig (Some (Some (issuer_key HG pk n))) Nym sb digest (Z.of_nat k) = Ok tt.
  Proof.
    intro RT. destruct (proofG1_rt OK S32 (p := null_proof 3)) as [pb [_ [_ P]]]; [cbn; lia|].
    destruct (RT {| ans_main := pb ++ []; ans_nonce := [] |}) as [sb [_ D]]. exists sb. intros pk n k Nym digest L.
    apply nymVerify_iff; [exact L|]. eexists _, (null_proof 3). split; [exact D|]. cbn [ans_main ans_nonce]. split; [apply P|].
    split; [cbn; lia|]. apply (gdot_all_zero). cbn. lia.
  Qed.

  (** NymSigner.Verify never panics *)
  Lemma nymVerify_no_panic pk n k Nym sb digest : k <= n ->
    arNymVerify H c_nsig (Some (Some (issuer_key HG pk n))) Nym sb digest (Z.of_nat k) <> Panic.
  Proof.
    intro L. unfold arNymVerify. cbn [assert_ptr bind issuer_key ip_key pg_h0 pg_h]. destruct (dec c_nsig sb) as [s|]; [|discriminate]. cbn [opt_err bind].
    pose proof (parseProofG1_no_panic S32 (b := ans_main s)) as NP. destruct (parseProofG1 C (ans_main s)) as [p| |]; [|discriminate|congruence].
    cbn [bind]. destruct (2 <=? length (pf_resp p)) eqn:L2; [|discriminate]. cbn [guard bind]. rewrite (base_lookup pk L). cbn [bind].
    unfold proofG1Verify. rewrite (contribution_ok OK) by (cbn; lia). cbn [bind]. destruct (geqb _ _); discriminate.
  Qed.

  (** ** MakeNym and Bases *)
  Lemma makeNym_ok pk n k sk r : k <= n ->
    arMakeNym (Z.of_nat k) sk (Some (Some (issuer_key HG pk n))) r = Ok ((gen0 HG pk (n + 1) ⊗ r) ⊕ (base_at HG pk n k ⊗ sk), r).
  Proof.
    intro L. unfold arMakeNym. cbn [assert_ptr bind issuer_key ip_key pg_h0 pg_h]. rewrite (base_lookup pk L). cbn [bind].
    rewrite (build_ok OK) by discriminate. cbn [bind map fst snd gdot]. do 2 f_equal. gnorm KO GO1; ring.
  Qed.

  Lemma bases_iff pk n t rh eid sk bm :
    arBases (Some (Some (issuer_key HG pk n))) t rh eid sk = Ok bm <->
    t = 1%Z /\ rh <> eid /\ eid <> sk /\ rh <> sk /\ (-1 <= rh < Z.of_nat n)%Z /\ (-1 <= eid < Z.of_nat n)%Z /\ (0 <= sk < Z.of_nat n)%Z /\
    bm = {| bm_nym := (gen0 HG pk (n + 1), base_at HG pk n (Z.to_nat sk));
            bm_eid := (gen0 HG pk (n + 1), base_at HG pk n (Z.to_nat (eid + 1)));
            bm_rh := (gen0 HG pk (n + 1), base_at HG pk n (Z.to_nat (rh + 1))) |}.
  Proof.
    unfold arBases. split.
    - intro E. apply bind_ok in E. destruct E as [[] [E1 E]]. apply guard_ok in E1. cbn [assert_ptr bind issuer_key ip_key pg_h0 pg_h ip_n] in E.
      apply bind_ok in E. destruct E as [[] [E2 E]]. apply guard_ok in E2. apply bind_ok in E. destruct E as [hs [E3 E]].
      apply bind_ok in E. destruct E as [he [E4 E]]. apply bind_ok in E. destruct E as [hr [E5 E]]. injection E as <-.
      apply base_lookup_inv in E3, E4, E5. destruct E3 as (a & Ea & La & ->), E4 as (b & Eb & Lb & ->), E5 as (c & Ec & Lc & ->).
      rewrite Eb, Ec, Ea, !Nat2Z.id. repeat split; lia.
    - intros (-> & A1 & A2 & A3 & A4 & A5 & A6 & ->). cbn [Z.eqb Pos.eqb guard bind assert_ptr issuer_key ip_key pg_h0 pg_h ip_n].
      replace (negb _) with true by lia. cbn [guard bind].
      rewrite <- (Z2Nat.id sk) at 1 by lia. rewrite base_lookup by lia. cbn [bind].
      rewrite <- (Z2Nat.id (eid + 1)) at 1 by lia. rewrite base_lookup by lia. cbn [bind].
      rewrite <- (Z2Nat.id (rh + 1)) at 1 by lia. rewrite base_lookup by lia. reflexivity.
  Qed.

  (** ** Audit *)
  Lemma audit_iff pk n k (raw : res g1) (idx skIndex : Z) value r : past_sk idx skIndex = Z.of_nat k -> k <= n ->
    arAudit H raw (Some (Some (issuer_key HG pk n))) idx skIndex value r = Ok tt <->
    exists nym, raw = Ok nym /\ opens (base_at HG pk n k) (gen0 HG pk (n + 1)) nym (H value) r.
  Proof.
    intros E L. unfold arAudit. cbn [assert_ptr bind issuer_key ip_key pg_h0 pg_h]. rewrite E, (base_lookup pk L). rewrite bind_ok. cbn [bind].
    unfold opens, gmul2. split.
    - intros [nym [E1 E2]]. apply guard_ok, (gok_eqb GO1) in E2. exists nym. split; [exact E1|congruence].
    - intros [nym [E1 E2]]. exists nym. split; [exact E1|]. apply guard_ok, (gok_eqb GO1). congruence.
  Qed.
End Nym.

(** ** Smartcard *)
Section Card.
  Context {C : Curve} (OK : CurveOk C).
  Variable sha256 : bytes -> bytes.
  Let KO := ok_zr OK.
  Let GO1 := ok_g1 OK.
  Add Field Kf_arc : (sok_field KO).
  Notation zr := (zcar (Zr C)).
  Notation g1 := (gcar (G1 C)).

  Lemma tail1_ok (P : g1) : exists b, g1_bytes C P = b ++ skipn 1 (g1_bytes C P) /\ length b = 1 /\ tail1 P = Ok (skipn 1 (g1_bytes C P)).
  Proof.
    pose proof (ok_g1_size OK) as SZ. pose proof (ok_g1_len OK P) as L. destruct (g1_bytes C P) as [|x l] eqn:E; [cbn in L; lia|].
    exists [x]. split; [reflexivity|]. split; [reflexivity|]. unfold tail1, slice_from, slice. rewrite E. cbn [length].
    replace ((1 <=? S (length l)) && (S (length l) <=? S (length l))) with true by lia. cbn [skipn]. f_equal. apply firstn_all2. cbn. lia.
  Qed.

  Definition sc_hash (h0 h1 h2 B B' tau : g1) (msg : bytes) : zr :=
    zr_of_bytes C (sha256 (concat (map (fun P => skipn 1 (g1_bytes C P)) [h0; h1; h2; B; B'; tau]) ++ msg)).

  Lemma sc_challenge_ok h0 h1 h2 B B' tau msg : sc_challenge sha256 h0 h1 h2 B B' tau msg = Ok (sc_hash h0 h1 h2 B B' tau msg).
  Proof.
    unfold sc_challenge, sc_data. cbn [map_res].
    destruct (tail1_ok h0) as (_ & _ & _ & ->), (tail1_ok h1) as (_ & _ & _ & ->), (tail1_ok h2) as (_ & _ & _ & ->),
      (tail1_ok B) as (_ & _ & _ & ->), (tail1_ok B') as (_ & _ & _ & ->), (tail1_ok tau) as (_ & _ & _ & ->). reflexivity.
  Qed.

  Definition sc_enc (seed : bytes) (B B' : g1) (x r : zr) : bytes := seed ++ g1_bytes C B ++ g1_bytes C B' ++ zr_bytes C x ++ zr_bytes C r.

  Lemma scParse_enc seed B B' x r tail : length seed = 16 -> scParse C (sc_enc seed B B' x r ++ tail) = Ok (B, B', x, r).
  Proof.
    intro L. unfold scParse, sc_enc. rewrite <- !app_assoc.
    rewrite slice_at by (rewrite ?(ok_g1_len OK); lia). cbn [bind]. rewrite (ok_g1_rt OK). cbn [opt_err bind].
    rewrite (app_assoc seed), slice_at by (rewrite ?app_length, ?(ok_g1_len OK); lia). cbn [bind]. rewrite (ok_g1_rt OK). cbn [opt_err bind].
    rewrite (app_assoc (seed ++ _)), slice_at by (rewrite ?app_length, ?(ok_g1_len OK), ?(ok_zr_len OK); lia). cbn [bind].
    rewrite (app_assoc ((seed ++ _) ++ _)), slice_at by (rewrite ?app_length, ?(ok_g1_len OK), ?(ok_zr_len OK); lia). cbn [bind].
    rewrite !(ok_zr_rt OK). reflexivity.
  Qed.

  Lemma scNymVerify_iff h0 h1 h2 proof tau msg : scNymVerify sha256 h0 h1 h2 proof tau msg = Ok tt <->
    exists B B' x r, scParse C proof = Ok (B, B', x, r) /\
      (h0 ⊗ r) ⊕ (h1 ⊗ x) = B' ⊕ (B ⊗ sc_hash h0 h1 h2 B B' tau msg).
  Proof.
    unfold scNymVerify. rewrite bind_ok. split.
    - intros [[[[B B'] x] r] [P E]]. rewrite sc_challenge_ok in E. cbn [bind] in E. apply guard_ok in E. unfold scEquation in E.
      apply (gok_eqb GO1) in E. unfold gmul2 in E. rewrite (ok_of_Z_1 OK), (gok_mul_1 GO1) in E. exists B, B', x, r. auto.
    - intros (B & B' & x & r & P & E). exists (B, B', x, r). split; [exact P|]. rewrite sc_challenge_ok. cbn [bind]. apply guard_ok.
      unfold scEquation. apply (gok_eqb GO1). unfold gmul2. rewrite (ok_of_Z_1 OK), (gok_mul_1 GO1). exact E.
  Qed.

  Lemma scNymSign_ok (sc : Card C) msg seed xt rt : length seed = 16 ->
    exists proof, scNymSign sha256 sc msg seed xt rt = Ok proof /\
      (forall tail, exists B' x r, scParse C (proof ++ tail) = Ok ((sc_h0 sc ⊗ prf C (sc_k1 sc) seed) ⊕ (sc_h1 sc ⊗ sc_uid sc), B', x, r)) /\
      (forall tail, scNymVerify sha256 (sc_h0 sc) (sc_h1 sc) (sc_h2 sc) (proof ++ tail) (snd (getNymEid sc)) msg = Ok tt) /\
      scBackendSign sha256 (Some (Some sc)) msg seed xt rt
      = Ok (proof, (sc_h0 sc ⊗ prf C (sc_k1 sc) seed) ⊕ (sc_h1 sc ⊗ sc_uid sc), prf C (sc_k1 sc) seed).
  Proof.
    intro L. unfold scBackendSign. cbn [assert_ptr bind].
    unfold scNymSign. rewrite sc_challenge_ok. cbn [bind]. set (c := sc_hash _ _ _ _ _ _ _).
    set (B := gmul2 (sc_h0 sc) (prf C (sc_k1 sc) seed) _ _) in *. set (B' := gmul2 _ rt _ _) in *.
    set (x := zadd xt _). set (r := zadd rt _). fold (sc_enc seed B B' x r). eexists. split; [reflexivity|].
    split; [|split].
    - intro tail. exists B', x, r. apply scParse_enc, L.
    - intro tail. apply scNymVerify_iff. exists B, B', x, r. split; [apply scParse_enc, L|]. fold c. unfold x, r. unfold B at 1. unfold B'. clearbody c. gnorm KO GO1; ring.
    - unfold sc_enc. rewrite slice_head by exact L. cbn [bind]. rewrite slice_at by (rewrite ?(ok_g1_len OK); lia). cbn [bind].
      rewrite (ok_g1_rt OK). reflexivity.
  Qed.

  Lemma sc_soundness h0 h1 h2 p1 p2 tau1 tau2 msg1 msg2 B T x1 r1 x2 r2 :
    scNymVerify sha256 h0 h1 h2 p1 tau1 msg1 = Ok tt -> scNymVerify sha256 h0 h1 h2 p2 tau2 msg2 = Ok tt ->
    scParse C p1 = Ok (B, T, x1, r1) -> scParse C p2 = Ok (B, T, x2, r2) ->
    let c1 := sc_hash h0 h1 h2 B T tau1 msg1 in
    let c2 := sc_hash h0 h1 h2 B T tau2 msg2 in
    c1 <> c2 ->
    opens h1 h0 B (zmul (zsub x1 x2) (zinv (zsub c1 c2))) (zmul (zsub r1 r2) (zinv (zsub c1 c2))).
  Proof.
    intros V1 V2 P1 P2 c1 c2 NE. apply scNymVerify_iff in V1, V2.
    destruct V1 as (B1 & T1 & y1 & q1 & P1' & V1), V2 as (B2 & T2 & y2 & q2 & P2' & V2).
    rewrite P1 in P1'. injection P1' as <- <- <- <-. rewrite P2 in P2'. injection P2' as <- <- <- <-. fold c1 in V1. fold c2 in V2.
    assert (NZ : zsub c1 c2 <> z0) by (intro X; apply NE; apply (zsub_zero KO); exact X).
    assert (E : (h0 ⊗ zsub r1 r2) ⊕ (h1 ⊗ zsub x1 x2) = B ⊗ zsub c1 c2).
    { transitivity (((h0 ⊗ r1) ⊕ (h1 ⊗ x1)) ⊖ ((h0 ⊗ r2) ⊕ (h1 ⊗ x2))); [gnorm KO GO1; ring|]. rewrite V1, V2. gnorm KO GO1; ring. }
    unfold opens. transitivity ((B ⊗ zsub c1 c2) ⊗ zinv (zsub c1 c2)); [gnorm KO GO1; field; exact NZ|]. rewrite <- E. gnorm KO GO1; ring.
  Qed.

  (** ** The counter *)
  Lemma nym_eids_ctr m (sc : Card C) : sc_ctr (nym_eids m sc) = match m with O => sc_ctr sc | _ => wrap16 (sc_ctr sc + Z.of_nat m) end.
  Proof.
    induction m as [|m IH]; [reflexivity|]. cbn [nym_eids scNymEid fst sc_ctr]. rewrite IH. destruct m; [reflexivity|].
    unfold wrap16. Z.div_mod_to_equations. lia.
  Qed.

  Lemma nym_eids_static m (sc : Card C) : sc_h0 (nym_eids m sc) = sc_h0 sc /\ sc_h1 (nym_eids m sc) = sc_h1 sc /\ sc_h2 (nym_eids m sc) = sc_h2 sc /\
    sc_uid (nym_eids m sc) = sc_uid sc /\ sc_eid (nym_eids m sc) = sc_eid sc /\ sc_k0 (nym_eids m sc) = sc_k0 sc /\ sc_k1 (nym_eids m sc) = sc_k1 sc.
  Proof. induction m as [|m IH]; [auto 10|]. cbn [nym_eids scNymEid fst sc_h0 sc_h1 sc_h2 sc_uid sc_eid sc_k0 sc_k1]. exact IH. Qed.

  (** the counter comes back after 65536 calls *)
  Lemma nym_eids_wrap m (sc : Card C) : int16 (sc_ctr sc) -> Z.of_nat m = 65536%Z -> nym_eids m sc = sc.
  Proof.
    intros B M. pose proof (nym_eids_ctr m sc) as E. destruct m as [|m]; [discriminate|]. rewrite M in E.
    pose proof (nym_eids_static (S m) sc) as (E1 & E2 & E3 & E4 & E5 & E6 & E7).
    assert (E0 : sc_ctr (nym_eids (S m) sc) = sc_ctr sc).
    { rewrite E. unfold wrap16, int16 in *. clear - B. Z.div_mod_to_equations. lia. }
    destruct (nym_eids (S m) sc) as [a1 a2 a3 a4 a5 a6 a7 a8], sc as [b1 b2 b3 b4 b5 b6 b7 b8]. cbn [sc_h0 sc_h1 sc_h2 sc_uid sc_eid sc_k0 sc_k1 sc_ctr] in *. congruence.
  Qed.

  Lemma ctr_block_inj a b : ctr_block a = ctr_block b -> (a mod 65536 = b mod 65536)%Z.
  Proof.
    unfold ctr_block. cbn [app]. intro E. injection E as E1 E2.
    apply (f_equal (fun x => Z.of_N (Byte.to_N x))) in E1, E2. rewrite !byte_of_Z_to in E1, E2. Z.div_mod_to_equations. lia.
  Qed.

  Lemma nym_eids_fresh i j (sc : Card C) : (Z.of_nat i < Z.of_nat j < Z.of_nat i + 65536)%Z -> int16 (sc_ctr sc) ->
    ctr_block (sc_ctr (nym_eids i sc)) <> ctr_block (sc_ctr (nym_eids j sc)).
  Proof.
    intros L B E. apply ctr_block_inj in E. rewrite !nym_eids_ctr in E. unfold wrap16, int16 in *.
    destruct j as [|j]; [lia|]. remember (Z.of_nat (S j)) as y. clear Heqy.
    destruct i as [|i].
    - cbn [Z.of_nat] in L. Z.div_mod_to_equations. lia.
    - remember (Z.of_nat (S i)) as x. clear Heqx. Z.div_mod_to_equations. lia.
  Qed.
End Card.
