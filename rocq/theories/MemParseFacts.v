(** Facts about parsing slices in memory (MemParse.v). *)
From Verif Require Import Base Curve Dlog Bbs Translator Bridge Aries Mem MemFacts MemParse.
Unset Strict Implicit.

(** what lies behind the bytes decides at most between an error and a panic *)
Definition agrees A (go model : res A) : Prop := (forall x, go = Ok x <-> model = Ok x) /\ (go = Panic -> model = Panic).

Lemma agrees_refl A (r : res A) : agrees r r.
Proof. split; [intro x; reflexivity|auto]. Qed.
Lemma agrees_bind A B (r r' : res A) (f f' : A -> res B) : agrees r r' -> (forall x, r' = Ok x -> agrees (f x) (f' x)) -> agrees (bind r f) (bind r' f').
Proof.
  intros [E P] F. destruct r' as [x| |].
  - rewrite (proj2 (E x) eq_refl). cbn. apply F. reflexivity.
  - destruct r as [x| |]; [discriminate (proj1 (E x) eq_refl)|apply agrees_refl|discriminate (P eq_refl)].
  - destruct r as [x| |]; [discriminate (proj1 (E x) eq_refl)| |apply agrees_refl]. cbn. split; [intro; split; discriminate|discriminate].
Qed.
Lemma agrees_panic A (r : res A) : (forall x, r <> Ok x) -> agrees r Panic.
Proof. intro N. split; [intro x; split; [intro E; destruct (N _ E)|discriminate]|auto]. Qed.

Section Facts.
  Variable h : heap byte.

  Lemma hbytes_in s lo hi : lies_in h s -> hi <= sl_len s -> hbytes h s lo hi = Base.slice (view h s) lo hi.
  Proof.
    intros L I. unfold hbytes, reslice, Base.slice. rewrite view_length by exact L. destruct L as [L1 L2].
    destruct (Nat.leb_spec lo hi) as [P|P]; [|reflexivity]. cbn [andb].
    rewrite (proj2 (Nat.leb_le hi (sl_cap s))) by lia. rewrite (proj2 (Nat.leb_le hi (sl_len s))) by lia. cbn [bind]. f_equal.
    unfold view. cbn [sl_arr sl_off sl_len]. apply nth_error_ext. intro i.
    rewrite !nth_error_firstn_lt, !nth_error_skipn_add, nth_error_firstn_lt, nth_error_skipn_add.
    destruct (Nat.ltb_spec i (hi - lo)) as [Q|Q]; [|reflexivity]. rewrite (proj2 (Nat.ltb_lt _ _)) by lia. f_equal. lia.
  Qed.
  Lemma reslice_lies s lo hi s' : lies_in h s -> reslice s lo hi = Ok s' -> lies_in h s' /\ sl_len s' = hi - lo.
  Proof.
    intros [L1 L2]. unfold reslice. destruct (Nat.leb_spec lo hi); [|discriminate]. destruct (Nat.leb_spec hi (sl_cap s)); [|discriminate].
    intros [= <-]. split; [|reflexivity]. split; cbn; lia.
  Qed.
  Lemma reslice_in s lo hi : lies_in h s -> lo <= hi -> hi <= sl_len s ->
    exists s', reslice s lo hi = Ok s' /\ lies_in h s' /\ sl_len s' = hi - lo /\ Base.slice (view h s) lo hi = Ok (view h s').
  Proof.
    intros L P I. pose proof (hbytes_in lo L I) as E. unfold hbytes in E.
    destruct (reslice s lo hi) as [s'| |] eqn:R.
    - exists s'. cbn in E. destruct (reslice_lies L R) as [L' N]. repeat split; try assumption; try apply L'. symmetry. exact E.
    - exfalso. revert R. unfold reslice. destruct (_ && _); discriminate.
    - exfalso. revert R. unfold reslice. destruct L as [L1 L2]. rewrite (proj2 (Nat.leb_le lo hi)), (proj2 (Nat.leb_le hi (sl_cap s))) by lia. discriminate.
  Qed.
  Lemma reslice_from_in s lo : lies_in h s -> lo <= sl_len s ->
    exists s', reslice_from s lo = Ok s' /\ lies_in h s' /\ sl_len s' = sl_len s - lo /\ slice_from (view h s) lo = Ok (view h s').
  Proof. intros L I. unfold reslice_from, slice_from. rewrite view_length by exact L. apply reslice_in; [exact L|exact I|lia]. Qed.
  Lemma slice_from_view s lo : lies_in h s -> bind (reslice_from s lo) (fun s' => Ok (view h s')) = slice_from (view h s) lo.
  Proof. intro L. unfold reslice_from, slice_from. rewrite view_length by exact L. apply (hbytes_in lo L). lia. Qed.
  (** the bytes that a call sees when a slice is cut: with no spare capacity there is nothing behind *)

  Lemma hParsePoKPayload_eq s : lies_in h s -> hParsePoKPayload h s = parsePoKPayload (view h s).
  Proof.
    intro L. unfold hParsePoKPayload, parsePoKPayload. rewrite view_length by exact L.
    destruct (Nat.leb_spec 2 (sl_len s)) as [P|P]; [|reflexivity]. cbn [guard bind]. rewrite hbytes_in by assumption.
    destruct (Base.slice (view h s) 0 2) as [hd| |]; [|reflexivity|reflexivity]. cbn [bind].
    destruct (Nat.leb_spec (lenInBytes (Z.to_nat (os2ip hd))) (sl_len s)) as [Q|Q]; [|reflexivity]. cbn [guard bind].
    rewrite hbytes_in by assumption. reflexivity.
  Qed.

  Variable C : Curve.

  Lemma hParseSignature_eq s : lies_in h s -> hParseSignature C h s = parseSignature C (view h s).
  Proof.
    intro L. unfold hParseSignature, parseSignature. rewrite view_length by exact L.
    destruct (Nat.eqb_spec (sl_len s) (g1_csize C + 2 * frCompressedSize)) as [P|P]; [|reflexivity]. cbn [guard bind].
    rewrite !hbytes_in by (assumption || lia). rewrite <- (slice_from_view (g1_csize C + frCompressedSize) L).
    destruct (Base.slice (view h s) 0 (g1_csize C)) as [pa| |]; [|reflexivity|reflexivity]. cbn [bind].
    destruct (g1_of_comp C pa); [|reflexivity]. cbn [bind].
    destruct (Base.slice (view h s) (g1_csize C) (g1_csize C + frCompressedSize)) as [e| |]; [|reflexivity|reflexivity]. cbn [bind].
    destruct (reslice_from s (g1_csize C + frCompressedSize)); reflexivity.
  Qed.

  Lemma hparse_responses_eq s : lies_in h s -> forall n o, o + n * frCompressedSize <= sl_len s -> hparse_responses C h n s o = parse_responses C n (view h s) o.
  Proof.
    intros L n. induction n as [|n IH]; intros o I; cbn [hparse_responses parse_responses]; [reflexivity|].
    change (S n * frCompressedSize) with (frCompressedSize + n * frCompressedSize) in I.
    rewrite hbytes_in by (assumption || lia). destruct (Base.slice (view h s) o (o + frCompressedSize)); [|reflexivity|reflexivity]. cbn [bind].
    rewrite IH by lia. reflexivity.
  Qed.

  Lemma hParseProofG1_eq s : lies_in h s -> hParseProofG1 C h s = parseProofG1 C (view h s).
  Proof.
    intro L. unfold hParseProofG1, parseProofG1. cbv zeta. rewrite view_length by exact L.
    destruct (Nat.leb_spec (g1_csize C + 4) (sl_len s)) as [P|P]; [|reflexivity]. cbn [guard bind].
    rewrite !hbytes_in by (assumption || lia).
    destruct (Base.slice (view h s) 0 (g1_csize C)) as [pa| |]; [|reflexivity|reflexivity]. cbn [bind].
    destruct (g1_of_comp C pa); [|reflexivity]. cbn [bind].
    destruct (Base.slice (view h s) (g1_csize C) (g1_csize C + 4)) as [lb| |]; [|reflexivity|reflexivity]. cbn [bind].
    destruct (Z.leb_spec (Z.of_nat (g1_csize C + 4) + os2ip lb * Z.of_nat frCompressedSize) (Z.of_nat (sl_len s))) as [Q|Q]; [|reflexivity]. cbn [guard bind].
    rewrite hparse_responses_eq; [reflexivity|exact L|]. pose proof (proj1 (os2ip_bound lb)). nia.
  Qed.

  Lemma hParseBlindedMessages_eq s : lies_in h s -> hParseBlindedMessages C h s = parseBlindedMessages C (view h s).
  Proof.
    intro L. unfold hParseBlindedMessages, parseBlindedMessages. cbv zeta. rewrite view_length by exact L.
    destruct (Nat.leb_spec (2 * g1_csize C) (sl_len s)) as [P|P]; [|reflexivity]. cbn [guard bind].
    rewrite !hbytes_in by (assumption || lia).
    destruct (Base.slice (view h s) 0 (g1_csize C)) as [b1| |]; [|reflexivity|reflexivity]. cbn [bind].
    destruct (opt_err (g1_of_comp C b1)); [|reflexivity|reflexivity]. cbn [bind].
    destruct (Base.slice (view h s) (g1_csize C) (g1_csize C + g1_csize C)) as [b2| |]; [|reflexivity|reflexivity]. cbn [bind].
    destruct (opt_err (g1_of_comp C b2)); [|reflexivity|reflexivity]. cbn [bind].
    destruct (reslice_from_in (lo := g1_csize C + g1_csize C) L) as (s' & E & L' & _ & V); [lia|]. rewrite E, V. cbn [bind].
    rewrite (hParseProofG1_eq L'). reflexivity.
  Qed.

  Lemma hArNymFromBytes_eq s : lies_in h s -> hArNymFromBytes C h s = arNymFromBytes C (view h s).
  Proof.
    intro L. unfold hArNymFromBytes, arNymFromBytes. rewrite view_length by exact L.
    destruct (Nat.eqb_spec (sl_len s) (scalar_size C + g1_size C)) as [P|P]; [|reflexivity]. cbn [guard bind].
    rewrite hbytes_in by (assumption || lia). destruct (Base.slice (view h s) 0 (scalar_size C)) as [a| |]; [|reflexivity|reflexivity]. cbn [bind].
    destruct (reslice_from_in (lo := scalar_size C) L) as (s' & E & L' & _ & V); [lia|]. rewrite E, V. reflexivity.
  Qed.

  Lemma slice_panic A (l : list A) lo hi : length l < hi -> Base.slice l lo hi = Panic.
  Proof. intro L. unfold Base.slice. rewrite (proj2 (Nat.leb_gt hi (length l))) by exact L. rewrite andb_false_r. reflexivity. Qed.
  Lemma slice_not_err A (l : list A) lo hi : Base.slice l lo hi <> Err.
  Proof. unfold Base.slice. destruct (_ && _); discriminate. Qed.
  Lemma hbytes_not_err s lo hi : hbytes h s lo hi <> Err.
  Proof. unfold hbytes, reslice. destruct (_ && _); discriminate. Qed.
  Lemma reslice_from_out s lo : sl_len s < lo -> reslice_from s lo = Panic.
  Proof. intro L. unfold reslice_from, reslice. rewrite (proj2 (Nat.leb_gt lo (sl_len s))) by exact L. reflexivity. Qed.

  (** an imported pseudonym that is too short panics whatever lies behind it: the last slice expression has no upper bound *)
  Lemma hMakeNymFromBytes_eq (T : translator C) s : lies_in h s -> hMakeNymFromBytes T h s = makeNymFromBytes T (view h s).
  Proof.
    intro L. unfold hMakeNymFromBytes, makeNymFromBytes.
    destruct (Nat.le_gt_cases (scalar_size C + coord_size C) (sl_len s)) as [P|P].
    - rewrite !hbytes_in by (assumption || lia). destruct (reslice_from_in (lo := scalar_size C + coord_size C) L P) as (s' & E & _ & _ & V). rewrite E, V. reflexivity.
    - rewrite (reslice_from_out P). rewrite (@slice_panic _ (view h s) (scalar_size C) (scalar_size C + coord_size C)) by (rewrite view_length by exact L; exact P).
      transitivity (@Panic (gcar (G1 C) * zcar (Zr C))).
      + destruct (hbytes h s 0 (scalar_size C)) as [r| |] eqn:E1; [|destruct (hbytes_not_err E1)|reflexivity]. cbn [bind].
        destruct (hbytes h s (scalar_size C) (scalar_size C + coord_size C)) as [r'| |] eqn:E2; [|destruct (hbytes_not_err E2)|reflexivity]. reflexivity.
      + destruct (Base.slice (view h s) 0 (scalar_size C)) as [r| |] eqn:E1; [|destruct (slice_not_err E1)|]; reflexivity.
  Qed.

  Lemma hParseSignatureProof_agrees s : lies_in h s -> agrees (hParseSignatureProof C h s) (parseSignatureProof C (view h s)).
  Proof.
    intro L. unfold hParseSignatureProof, parseSignatureProof. cbv zeta. rewrite view_length by exact L. set (cs := g1_csize C).
    destruct (Nat.leb_spec (cs * 3) (sl_len s)) as [P|P]; [|apply agrees_refl]. cbn [guard bind].
    assert (G : forall o, o + cs <= sl_len s -> hparse_g1c C h s o = parse_g1c C (view h s) o).
    { intros o I. unfold hparse_g1c, parse_g1c. rewrite hbytes_in by assumption. reflexivity. }
    rewrite !G by lia. apply agrees_bind; [apply agrees_refl|intros p0 _]. apply agrees_bind; [apply agrees_refl|intros p1 _].
    apply agrees_bind; [apply agrees_refl|intros p2 _].
    destruct (Nat.le_gt_cases (3 * cs + 4) (sl_len s)) as [Q|Q].
    - rewrite hbytes_in by assumption. apply agrees_bind; [apply agrees_refl|intros lb _]. pose proof (proj1 (os2ip_bound lb)) as N0. set (n := os2ip lb) in *.
      destruct L as [L1 L2]. assert (L : lies_in h s) by (split; assumption).
      destruct (Z.of_nat (3 * cs + 4) + n >? Z.of_nat (sl_len s))%Z eqn:E.
      + apply agrees_panic. intros x F. destruct (Z.of_nat (3 * cs + 4) + n >? Z.of_nat (sl_cap s))%Z; [discriminate F|].
        apply bind_ok in F. destruct F as [s1 [_ F]]. apply bind_ok in F. destruct F as [vc1 [_ F]]. rewrite reslice_from_out in F by lia. discriminate F.
      + replace (Z.of_nat (3 * cs + 4) + n >? Z.of_nat (sl_cap s))%Z with false by lia.
        destruct (@reslice_in s (3 * cs + 4) (3 * cs + 4 + Z.to_nat n) L) as (s1 & E1 & La & _ & V1); [lia|lia|]. rewrite E1, V1. cbn [bind].
        rewrite (hParseProofG1_eq La). apply agrees_bind; [apply agrees_refl|intros vc1 _].
        destruct (@reslice_from_in s (3 * cs + 4 + Z.to_nat n) L) as (s2 & E2 & Lb & _ & V2); [lia|]. rewrite E2, V2. cbn [bind].
        rewrite (hParseProofG1_eq Lb). apply agrees_refl.
    - rewrite (@slice_panic _ (view h s)) by (rewrite view_length by exact L; exact Q). cbn [bind]. apply agrees_panic. intros x F.
      apply bind_ok in F. destruct F as [lb [_ F]]. destruct (Z.of_nat (3 * cs + 4) + os2ip lb >? Z.of_nat (sl_cap s))%Z; [discriminate F|].
      apply bind_ok in F. destruct F as [s1 [_ F]]. apply bind_ok in F. destruct F as [vc1 [_ F]]. rewrite reslice_from_out in F by lia. discriminate F.
  Qed.

  Lemma hVerifyProofFr_agrees (HG : bytes -> G1 C) (H : hasher C) messages s nonce pub : lies_in h s ->
    agrees (hVerifyProofFr HG H messages h s nonce pub) (verifyProofFr HG H messages (view h s) nonce pub).
  Proof.
    intro L. unfold hVerifyProofFr, verifyProofFr. rewrite (hParsePoKPayload_eq L). apply agrees_bind; [apply agrees_refl|]. intros payload E.
    destruct (@reslice_from_in s (lenInBytes (pp_count payload)) L) as (s' & R & L' & _ & V).
    { unfold parsePoKPayload in E. rewrite view_length in E by exact L. apply bind_ok in E. destruct E as [u [_ E]]. apply bind_ok in E. destruct E as [hd [_ E]].
      apply bind_ok in E. destruct E as [u' [G E]]. apply guard_ok in G. apply bind_ok in E. destruct E as [body [_ E]]. injection E as <-. cbn [pp_count]. apply Nat.leb_le. exact G. }
    rewrite R, V. cbn [bind]. apply agrees_bind; [apply hParseSignatureProof_agrees, L'|]. intros sp _. apply agrees_refl.
  Qed.

  Lemma hScParse_eq s : lies_in h s -> 16 + 2 * g1_size C + 2 * scalar_size C <= sl_len s -> hScParse C h s = scParse C (view h s).
  Proof. intros L I. unfold hScParse, scParse. rewrite !hbytes_in by (assumption || lia). reflexivity. Qed.

  (** the smartcard parser looks at the capacity only *)
  Lemma hScParse_widen s n : lies_in h s -> n <= sl_cap s ->
    hScParse C h {| sl_arr := sl_arr s; sl_off := sl_off s; sl_len := n; sl_cap := sl_cap s |} = hScParse C h s.
  Proof. intros L I. reflexivity. Qed.
End Facts.
