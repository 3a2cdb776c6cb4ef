(** * What a call makes of its argument depends only on the bytes it is given (C94)

    A Go slice expression is bounded by the capacity of the slice, so a parser that does not compare lengths reads what lies
    behind its argument.  [h] is the memory, [lies_in h s]: the slice [s] lies in its array, [view h s] are the bytes of [s]
    (Mem.v).  The functions with names in h (MemParse.v) are the API functions on a slice in memory; those without are the
    functions on byte strings that the theorems of the other files are about. *)
From Verif Require Import Base Curve Algebra Spec Dlog Bbs BbsSpec Translator Bridge Aries AriesSpec AriesNym Mem MemFacts MemParse MemParseFacts
  Toy ToyBbs ToyAries PropsAries PropsCard PropsBbs PropsBbsMore.
Unset Strict Implicit.

(** ** Parsers that compare lengths first: credentials (BBS+ signatures), proofs over one base list, proof headers, blinded
    messages, pseudonym keys of both schemes.  They read nothing but the bytes they are given. *)
Theorem C94_parse : forall C (T : translator C) (h : heap byte) (s : Mem.slice), lies_in h s ->
  hParseSignature C h s = parseSignature C (view h s) /\
  hParseProofG1 C h s = parseProofG1 C (view h s) /\
  hParsePoKPayload h s = parsePoKPayload (view h s) /\
  hParseBlindedMessages C h s = parseBlindedMessages C (view h s) /\
  hArNymFromBytes C h s = arNymFromBytes C (view h s) /\
  hMakeNymFromBytes T h s = makeNymFromBytes T (view h s).
Proof.
  intros C T h s L. repeat apply conj; [apply hParseSignature_eq|apply hParseProofG1_eq|apply hParsePoKPayload_eq|apply hParseBlindedMessages_eq
    |apply hArNymFromBytes_eq|apply hMakeNymFromBytes_eq]; exact L.
Qed.
Print Assumptions C94_parse.

(** ** VerifyProof
    Full claim: the result of VerifyProof is a function of the bytes of the proof.
    Proved: whether the proof is accepted is, for every memory; and a call that panics panics for these bytes with nothing
    behind them.  Missing, because false: whether a malformed proof gives an error or a panic. *)
Theorem C94_verify_partial : forall C (HG : bytes -> G1 C) (H : hasher C) (messages : list bytes) (h : heap byte) (proof : Mem.slice) (nonce pub : bytes), lies_in h proof ->
  (hVerifyProof HG H messages h proof nonce pub = Ok tt <-> verifyProof HG H messages (view h proof) nonce pub = Ok tt) /\
  (hVerifyProof HG H messages h proof nonce pub = Panic -> verifyProof HG H messages (view h proof) nonce pub = Panic).
Proof.
  intros C HG H messages h proof nonce pub L. destruct (hVerifyProofFr_agrees HG H (messagesToFr H messages) nonce pub L) as [E P].
  split; [apply (E tt)|exact P].
Qed.
Print Assumptions C94_verify_partial.

(** A slice that fills an array of its own, and the same bytes at the start of a longer array. *)
Definition alone (b : bytes) : heap byte * Mem.slice := ([b], {| sl_arr := 0; sl_off := 0; sl_len := length b; sl_cap := length b |}).
Definition followed (b more : bytes) : heap byte * Mem.slice :=
  ([b ++ more], {| sl_arr := 0; sl_off := 0; sl_len := length b; sl_cap := length (b ++ more) |}).
Lemma followed_ok b more : lies_in (fst (followed b more)) (snd (followed b more)) /\ view (fst (followed b more)) (snd (followed b more)) = b.
Proof.
  split; [split; unfold array; cbn [fst snd followed sl_len sl_cap sl_off sl_arr nth]; rewrite app_length; lia|].
  unfold view, array. cbn [fst snd followed sl_len sl_off sl_arr nth skipn]. rewrite firstn_app, Nat.sub_diag, firstn_all. cbn. apply app_nil_r.
Qed.
Lemma alone_followed b : alone b = followed b [].
Proof. unfold alone, followed. rewrite !app_nil_r. reflexivity. Qed.

Lemma slice_mid A (a b c : list A) lo hi : length a = lo -> hi = lo + length b -> Base.slice (a ++ b ++ c) lo hi = Ok b.
Proof.
  intros <- ->. unfold Base.slice. rewrite !app_length. rewrite (proj2 (Nat.leb_le _ _)) by lia. rewrite (proj2 (Nat.leb_le _ _)) by lia. cbn [andb]. f_equal.
  rewrite skipn_app, skipn_all, Nat.sub_diag. cbn [skipn app]. rewrite firstn_app. replace (length a + length b - length a) with (length b) by lia.
  rewrite Nat.sub_diag, firstn_all. cbn [firstn]. apply app_nil_r.
Qed.

(** The counterexample: a header for no messages and three points, and nothing else. *)
Theorem C94_verify_refuted : forall C (OK : CurveOk C) (HG : bytes -> G1 C) (H : hasher C) (messages : list bytes) (nonce pub : bytes) (P1 P2 P3 : G1 C),
  let proof := zeros 3 ++ g1_comp C P1 ++ g1_comp C P2 ++ g1_comp C P3 in
  let '(h1, s1) := alone proof in
  let '(h2, s2) := followed proof (zeros 4) in
  view h1 s1 = view h2 s2 /\
  hVerifyProof HG H messages h1 s1 nonce pub = Panic /\ hVerifyProof HG H messages h2 s2 nonce pub = Err.
Proof.
  intros C OK HG H messages nonce pub P1 P2 P3 proof.
  assert (R : forall more, (4 <= length more -> firstn 4 more = zeros 4) -> let '(h, s) := followed proof more in
    hVerifyProof HG H messages h s nonce pub = if 4 <=? length more then Err else Panic).
  { intros more Z4. pose proof (followed_ok proof more) as FO. destruct (followed proof more) as [h s] eqn:F. cbn [fst snd] in FO. destruct FO as [L V].
    unfold hVerifyProof, hVerifyProofFr. rewrite (hParsePoKPayload_eq L), V.
    assert (PP : parsePoKPayload proof = Ok {| pp_count := 0; pp_revealed := bitvectorToIndexes (rev [b0]) |}) by reflexivity.
    rewrite PP. cbn [bind pp_count]. change (lenInBytes 0) with 3. clear PP.
    assert (PE : proof = zeros 3 ++ g1_comp C P1 ++ g1_comp C P2 ++ g1_comp C P3) by reflexivity. clearbody proof.
    injection F as <- <-. unfold reslice_from, reslice. cbn [sl_len sl_cap sl_off sl_arr].
    assert (LP : length proof = 3 + 3 * g1_csize C) by (rewrite PE, !app_length, zeros_length, !(ok_g1c_len OK); lia).
    rewrite (proj2 (Nat.leb_le 3 (length proof))) by lia. rewrite (proj2 (Nat.leb_le (length proof) (length (proof ++ more)))) by (rewrite app_length; lia). cbn [andb bind].
    set (s' := {| sl_arr := 0; sl_off := 0 + 3; sl_len := length proof - 3; sl_cap := length (proof ++ more) - 3 |}).
    set (h := [proof ++ more]) in *.
    assert (L' : lies_in h s') by (split; unfold array; cbn [sl_len sl_cap sl_off sl_arr s' nth h]; rewrite ?app_length; lia).
    assert (V' : view h s' = g1_comp C P1 ++ g1_comp C P2 ++ g1_comp C P3).
    { unfold view, array. cbn [s' h sl_arr sl_off sl_len nth]. rewrite PE at 2. rewrite <- app_assoc. change (0 + 3) with 3. cbn [zeros repeat app skipn].
      rewrite firstn_app. replace (length proof - 3 - length (g1_comp C P1 ++ g1_comp C P2 ++ g1_comp C P3)) with 0 by (rewrite LP, !app_length, !(ok_g1c_len OK); lia).
      cbn [firstn]. rewrite app_nil_r. apply firstn_all2. rewrite LP, !app_length, !(ok_g1c_len OK). lia. }
    unfold hParseSignatureProof. cbv zeta. set (cs := g1_csize C) in *.
    assert (LS : sl_len s' = 3 * cs) by (cbn [s' sl_len]; lia).
    rewrite LS. replace (cs * 3 <=? 3 * cs) with true by (symmetry; apply Nat.leb_le; lia). cbn [guard bind].
    assert (G : forall a P c o, g1_comp C P1 ++ g1_comp C P2 ++ g1_comp C P3 = a ++ g1_comp C P ++ c -> length a = o -> hparse_g1c C h s' o = Ok P).
    { intros a P c o E LA. assert (LL : length (g1_comp C P1 ++ g1_comp C P2 ++ g1_comp C P3) = 3 * cs) by (rewrite !app_length, !(ok_g1c_len OK); fold cs; lia).
      assert (o + cs <= 3 * cs) by (rewrite <- LL, E, !app_length, (ok_g1c_len OK); fold cs; lia).
      unfold hparse_g1c. fold cs. rewrite hbytes_in by (assumption || lia). rewrite V', E. rewrite (@slice_mid _ a (g1_comp C P) c o (o + cs)); [|exact LA|rewrite (ok_g1c_len OK); reflexivity].
      cbn [bind]. rewrite (ok_g1c_rt OK). reflexivity. }
    pose proof (G [] P1 (g1_comp C P2 ++ g1_comp C P3) 0 eq_refl eq_refl) as G1.
    pose proof (G (g1_comp C P1) P2 (g1_comp C P3) cs eq_refl (ok_g1c_len OK P1)) as G2.
    assert (G3 : hparse_g1c C h s' (2 * cs) = Ok P3).
    { apply (G (g1_comp C P1 ++ g1_comp C P2) P3 []); [rewrite app_nil_r, app_assoc; reflexivity|]. rewrite app_length, !(ok_g1c_len OK). fold cs. lia. }
    rewrite G1, G2, G3. cbn [bind]. unfold hbytes at 1, reslice at 1. replace (3 * cs <=? 3 * cs + 4) with true by (symmetry; apply Nat.leb_le; lia). cbn [andb].
    destruct (Nat.leb_spec 4 (length more)) as [Q|Q].
    - replace (3 * cs + 4 <=? sl_cap s') with true by (symmetry; apply Nat.leb_le; cbn [s' sl_cap]; rewrite app_length; lia). cbn [bind].
      match goal with |- context [view h ?x] => set (s4 := x) end.
      assert (V4 : view h s4 = firstn 4 more).
      { unfold view, array. cbn [s4 s' h sl_arr sl_off sl_len nth]. replace (0 + 3 + 3 * cs) with (length proof) by lia. rewrite skipn_app, skipn_all, Nat.sub_diag. cbn [skipn app].
        f_equal. lia. }
      rewrite V4. rewrite (Z4 Q). change (os2ip (zeros 4)) with 0%Z.
      rewrite Z.add_0_r. replace (Z.of_nat (3 * cs + 4) >? Z.of_nat (sl_cap s'))%Z with false by (symmetry; rewrite Z.gtb_ltb; apply Z.ltb_ge; cbn [s' sl_cap]; rewrite app_length; lia).
      unfold reslice. change (Z.to_nat 0) with 0. rewrite Nat.add_0_r, Nat.leb_refl. replace (3 * cs + 4 <=? sl_cap s') with true by (symmetry; apply Nat.leb_le; cbn [s' sl_cap]; rewrite app_length; lia).
      cbn [andb bind]. unfold hParseProofG1 at 1. cbv zeta. cbn [sl_len]. rewrite Nat.sub_diag. fold cs. replace (cs + 4 <=? 0) with false by (symmetry; apply Nat.leb_gt; lia). reflexivity.
    - replace (3 * cs + 4 <=? sl_cap s') with false by (symmetry; apply Nat.leb_gt; cbn [s' sl_cap]; rewrite app_length; lia). reflexivity. }
  rewrite alone_followed. assert (Q1 : 4 <= length (@nil byte) -> firstn 4 (@nil byte) = zeros 4) by (cbn; lia).
  pose proof (R [] Q1) as R1. pose proof (R (zeros 4) (fun _ => eq_refl)) as R2.
  destruct (followed_ok proof []) as [_ V1]. destruct (followed_ok proof (zeros 4)) as [_ V2].
  destruct (followed proof []) as [h1 s1]. destruct (followed proof (zeros 4)) as [h2 s2]. cbn [fst snd] in V1, V2.
  split; [rewrite V1, V2; reflexivity|]. split; [exact R1|exact R2].
Qed.
Print Assumptions C94_verify_refuted.

(** ** Smartcard pseudonym signatures
    Full claim: the verdict is a function of the bytes of the signature.
    Proved: it is for signatures that are long enough.  Missing, because false: Verify does not compare lengths. *)
Theorem C94_card_partial : forall C (sha256 : bytes -> bytes) (key : iface (AIssuerPublicKey C)) (Nym : G1 C) (h : heap byte) (signature : Mem.slice) (digest : bytes),
  lies_in h signature -> 16 + 2 * g1_size C + 2 * scalar_size C <= sl_len signature \/ sl_cap signature = sl_len signature ->
  hScBackendVerify sha256 key Nym h signature digest = scBackendVerify sha256 key Nym (view h signature) digest.
Proof.
  intros C sha256 key Nym h s digest L I. unfold hScBackendVerify, scBackendVerify. destruct key as [[ipk|]|]; [|reflexivity|reflexivity].
  destruct (znth (pg_h (ip_key ipk)) 0) as [h1| |]; [|reflexivity|reflexivity]. cbn [bind].
  destruct (znth (pg_h (ip_key ipk)) 3) as [h2| |]; [|reflexivity|reflexivity]. cbn [bind].
  unfold hScNymVerify, scNymVerify. f_equal. destruct I as [I|I]; [apply hScParse_eq; assumption|].
  assert (E : forall lo hi, hbytes h s lo hi = Base.slice (view h s) lo hi).
  { intros lo hi. destruct (Nat.le_gt_cases hi (sl_len s)) as [P|P]; [apply hbytes_in; assumption|].
    unfold hbytes, reslice, Base.slice. rewrite view_length by exact L. rewrite I. rewrite (proj2 (Nat.leb_gt hi (sl_len s))) by exact P. rewrite andb_false_r. reflexivity. }
  unfold hScParse, scParse. rewrite !E. reflexivity.
Qed.
Print Assumptions C94_card_partial.

(** The counterexample: every accepted signature is still accepted when the caller passes only its first [n] bytes, for every
    [n], as long as the others follow in memory; alone the same bytes make Verify panic. *)
Theorem C94_card_refuted : forall C (sha256 : bytes -> bytes) (key : iface (AIssuerPublicKey C)) (Nym : G1 C) (signature digest : bytes) (n : nat),
  scBackendVerify sha256 key Nym signature digest = Ok tt -> n < 16 + g1_size C ->
  let '(h1, s1) := followed (firstn n signature) (skipn n signature) in
  let '(h2, s2) := alone (firstn n signature) in
  view h1 s1 = view h2 s2 /\ hScBackendVerify sha256 key Nym h1 s1 digest = Ok tt /\ hScBackendVerify sha256 key Nym h2 s2 digest = Panic.
Proof.
  intros C sha256 key Nym signature digest n V N. unfold followed at 1. rewrite firstn_skipn. rewrite alone_followed.
  pose proof (followed_ok (firstn n signature) []) as FO. destruct (followed (firstn n signature) []) as [h2 s2] eqn:F. cbn [fst snd] in FO. destruct FO as [L2 V2].
  set (s1 := {| sl_arr := 0; sl_off := 0; sl_len := length (firstn n signature); sl_cap := length signature |}).
  set (full := {| sl_arr := 0; sl_off := 0; sl_len := length signature; sl_cap := length signature |}).
  assert (LF : lies_in [signature] full) by (split; cbn; lia).
  assert (VF : view [signature] full = signature) by (unfold view, array; cbn; apply firstn_all).
  assert (LE : length (firstn n signature) <= length signature) by (rewrite firstn_length; lia).
  split.
  { rewrite V2. unfold view, array. cbn [s1 sl_arr sl_off sl_len nth skipn]. rewrite firstn_length. destruct (Nat.le_ge_cases n (length signature)) as [P|P].
    - rewrite Nat.min_l by exact P. reflexivity.
    - rewrite Nat.min_r by exact P. rewrite firstn_all. symmetry. apply firstn_all2. exact P. }
  split.
  - rewrite <- V. rewrite <- VF at 2. rewrite <- (@C94_card_partial C sha256 key Nym [signature] full digest LF); [reflexivity|right; reflexivity].
  - rewrite (@C94_card_partial C sha256 key Nym h2 s2 digest L2); [|right; injection F as <- <-; cbn [sl_cap sl_len]; rewrite app_nil_r; reflexivity].
    rewrite V2. unfold scBackendVerify in V |- *. destruct key as [[ipk|]|]; [|reflexivity|reflexivity].
    destruct (znth (pg_h (ip_key ipk)) 0) as [h1| |]; [|discriminate V|reflexivity]. cbn [bind] in V |- *.
    destruct (znth (pg_h (ip_key ipk)) 3) as [h3| |]; [|discriminate V|reflexivity]. cbn [bind] in V |- *.
    unfold scNymVerify, scParse. rewrite slice_panic by (rewrite firstn_length; lia). reflexivity.
Qed.
Print Assumptions C94_card_refuted.

(** ** Concrete cases *)
(** a proof in a buffer with other bytes behind it *)
Example C94_verify_example :
  let '(h, s) := followed xb_dp (str "the next message") in
  lies_in h s /\ is_ok (hVerifyProof hg32 h32 [str "alice"; str "carol"] h s xb_nonce (g2_comp toy32 xb_pk)) = true /\
  is_ok (hVerifyProof hg32 h32 [str "alice"; str "eve"] h s xb_nonce (g2_comp toy32 xb_pk)) = false.
Proof. split; [apply (followed_ok xb_dp)|]. split; vm_compute; reflexivity. Qed.
(** one byte of a smartcard signature, and the others behind it *)
Example C94_card_example :
  is_ok (scBackendVerify xa_sha xa_key xa_tau xa_card_sig (str "m")) = true /\
  (let '(h, s) := followed (firstn 1 xa_card_sig) (skipn 1 xa_card_sig) in
   length (view h s) = 1 /\ is_ok (hScBackendVerify xa_sha xa_key xa_tau h s (str "m")) = true) /\
  (let '(h, s) := followed (firstn 1 xa_card_sig) (skipn 1 (rev xa_card_sig)) in
   length (view h s) = 1 /\ is_ok (hScBackendVerify xa_sha xa_key xa_tau h s (str "m")) = false).
Proof. split; [vm_compute; reflexivity|]. split; split; vm_compute; reflexivity. Qed.
