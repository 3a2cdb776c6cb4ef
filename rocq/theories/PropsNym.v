(** * What the signature of an identity stands for (C59)

    [id_Verify h i msg sig] is Verify of the identity [i], whose MSP is in the heap [h]. *)
From Verif Require Import Base Curve Algebra Spec Bbs BbsSpec BbsFacts Aries AriesSpec AriesNym Dlog DlogSpec DlogTop Bridge BridgeFacts
  Translator PropsDlog PropsAries PropsBridge Csp CspInst CspSpec CspFacts RunSpec RunFacts Msp MspSpec MspFacts PropsMsp PropsMspSound
  Toy ToyBbs ToyDlog ToyCodec ToyAries ToyCsp ToyMsp.
Unset Strict Implicit.

(** ** The dlog scheme *)
(** Signature bytes that verify for two identities of an MSP, [i1] with [m1] and [i2] with [m2]: the messages and the
    pseudonyms are equal, or two known different byte strings have the same hash. *)
Theorem C59_dlog : forall C (OK : CurveOk C) (H : hasher C) (T : translator C) c_ipk c_ik c_req c_cred c_sig c_nsig c_cri EC (EE : ecenv EC) sha256
    (h : heap (dlogU C EC)) l m (ipk : IssuerPublicKey) r (i1 i2 : identity _) (m1 m2 sig : bytes) (nym1 nym2 : G1 C),
  let X := dlog_scheme H T c_ipk c_ik c_req c_cred c_sig c_nsig c_cri EE sha256 in
  let M := dlog_math T EE sha256 in
  nth_error h l = Some m -> ready X M m (Some (Some ipk) : u_ipk (dlogU C EC)) r ->
  i_msp i1 = l -> i_msp i2 = l ->
  i_nym i1 = KNymPublic (nym1 : u_g1 (dlogU C EC)) -> i_nym i2 = KNymPublic (nym2 : u_g1 (dlogU C EC)) ->
  id_Verify h i1 m1 sig = Ok tt -> id_Verify h i2 m2 sig = Ok tt ->
  (nym1 = nym2 /\ m1 = m2) \/
  exists s d1 d2, dec c_nsig sig = Some s /\
    verNym_first T s (Some nym1) (Some ipk) m1 = Ok d1 /\ verNym_first T s (Some nym2) (Some ipk) m2 = Ok d2 /\
    transcripts_collide H d1 d2 (zr_of_bytes C (ns_nonce s)).
Proof.
  intros C OK H T c_ipk c_ik c_req c_cred c_sig c_nsig c_cri EC EE sha256 h l m ipk r i1 i2 m1 m2 sig nym1 nym2 X M L R I1 I2 N1 N2 V1 V2.
  rewrite (@id_verify_ready _ X M h m _ r i1 nym1 m1 sig ltac:(rewrite I1; exact L) R N1) in V1.
  rewrite (@id_verify_ready _ X M h m _ r i2 nym2 m2 sig ltac:(rewrite I2; exact L) R N2) in V2. clear R.
  destruct (length sig =? 0); [discriminate|].
  assert (Q : forall nym msg, s_nymVerify X (Some (Some ipk) : u_ipk (dlogU C EC)) (nym : u_g1 (dlogU C EC)) sig msg 0 = Ok tt ->
     exists s, dec c_nsig sig = Some s /\ verNymSignature H T s (Some nym) (Some ipk) msg = Ok tt).
  { clear. intros nym msg V. cbn [s_nymVerify X dlog_scheme] in V. unfold brNymVerify in V. apply (proj1 (recover_ok _ _)) in V.
    cbn [opt_err bind] in V. destruct (dec c_nsig sig) as [s|]; [|discriminate]. exists s. auto. }
  destruct (Q _ _ V1) as (s & D & W1). destruct (Q _ _ V2) as (s' & D' & W2). rewrite D in D'. injection D' as <-.
  destruct (list_eq_dec Byte.byte_eq_dec m1 m2) as [Em|Em].
  - destruct (geqb nym1 nym2) eqn:G.
    + apply (gok_eqb (ok_g1 OK)) in G. left. split; congruence.
    + right. assert (NE : nym1 <> nym2). { intro E. apply (gok_eqb (ok_g1 OK)) in E. congruence. }
      destruct (C15_nym_signature_message OK W1 W2 (or_introl NE)) as (d1 & d2 & E1 & E2 & TC). exists s, d1, d2. auto.
  - right. destruct (C15_nym_signature_message OK W1 W2 (or_intror Em)) as (d1 & d2 & E1 & E2 & TC). exists s, d1, d2. auto.
Qed.
Print Assumptions C59_dlog.

(** ** The aries scheme *)
(** The bytes that are hashed for a pseudonym signature with commitment [T]. *)
Definition nym_data C (h0 hsk Nym T : G1 C) (msg : bytes) : bytes :=
  nymSigLabel ++ g1_bytes C Nym ++ g1_bytes C h0 ++ g1_bytes C hsk ++ g1_bytes C T ++ msg.
Definition nym_challenge C (H : hasher C) (d nonce : bytes) : Zr C := H (zr_bytes C (H d) ++ nonce).

(** Full claim: as for dlog.  Proved, for signatures with two responses, the number that Sign makes:
    - for one pseudonym other than the neutral point the messages are equal, or there is a collision;
    - for two pseudonyms, the one times its challenge is the other times its challenge.
    Missing, because false: the neutral pseudonym and more responses, see below. *)
Theorem C59_aries_partial : forall C (OK : CurveOk C) (HG : bytes -> G1 C) (H : hasher C) hkdf c_cred c_sig c_nsig c_cri EC (EE : ecenv EC) sha256
    (h : heap (ariesU C EC)) l m (pk : G2 C) r (i1 i2 : identity _) (m1 m2 sig : bytes) (Nym1 Nym2 : G1 C) s p,
  let X := aries_scheme HG H hkdf c_cred c_sig c_nsig c_cri EE sha256 in
  let M := aries_math (Gurvy C) EE sha256 in
  bls_sizes C ->
  nth_error h l = Some m -> ready X M m (Some (Some (issuer_key HG pk 4)) : u_ipk (ariesU C EC)) r ->
  i_msp i1 = l -> i_msp i2 = l ->
  i_nym i1 = KNymPublic (Nym1 : u_g1 (ariesU C EC)) -> i_nym i2 = KNymPublic (Nym2 : u_g1 (ariesU C EC)) ->
  id_Verify h i1 m1 sig = Ok tt -> id_Verify h i2 m2 sig = Ok tt ->
  dec c_nsig sig = Some s -> parseProofG1 C (ans_main s) = Ok p -> length (pf_resp p) = 2 ->
  let d1 := nym_data (gen0 HG pk 5) (base_at HG pk 4 0) Nym1 (pf_comm p) m1 in
  let d2 := nym_data (gen0 HG pk 5) (base_at HG pk 4 0) Nym2 (pf_comm p) m2 in
  Nym1 ⊗ nym_challenge H d1 (ans_nonce s) = Nym2 ⊗ nym_challenge H d2 (ans_nonce s) /\
  (Nym1 = Nym2 -> Nym1 <> gzero ->
     m1 = m2 \/ collision H d1 d2 \/ collision H (zr_bytes C (H d1) ++ ans_nonce s) (zr_bytes C (H d2) ++ ans_nonce s)).
Proof.
  intros C OK HG H hkdf c_cred c_sig c_nsig c_cri EC EE sha256 h l m pk r i1 i2 m1 m2 sig Nym1 Nym2 s p X M BS L R I1 I2 N1 N2 V1 V2 D P L2 d1 d2.
  rewrite (@id_verify_ready _ X M h m _ r i1 Nym1 m1 sig ltac:(rewrite I1; exact L) R N1) in V1.
  rewrite (@id_verify_ready _ X M h m _ r i2 Nym2 m2 sig ltac:(rewrite I2; exact L) R N2) in V2. clear R.
  destruct (length sig =? 0); [discriminate|]. cbn [s_nymVerify X aries_scheme] in V1, V2.
  apply (nymVerify_iff OK HG H BS c_nsig pk Nym1 sig m1 (Nat.le_0_l 4)) in V1.
  apply (nymVerify_iff OK HG H BS c_nsig pk Nym2 sig m2 (Nat.le_0_l 4)) in V2.
  destruct V1 as (s1 & p1 & D1 & P1 & _ & V1), V2 as (s2 & p2 & D2 & P2 & _ & V2).
  rewrite D in D1. injection D1 as <-. rewrite D in D2. injection D2 as <-. rewrite P in P1. injection P1 as <-. rewrite P in P2. injection P2 as <-.
  destruct (pf_resp p) as [|a [|b [|]]]; cbn in L2; try lia. cbn [app gdot] in V1, V2.
  change (challenge2 H _ _) with (nym_challenge H d1 (ans_nonce s)) in V1. change (challenge2 H _ _) with (nym_challenge H d2 (ans_nonce s)) in V2.
  set (c1 := nym_challenge H d1 (ans_nonce s)) in *. set (c2 := nym_challenge H d2 (ans_nonce s)) in *.
  assert (E : Nym1 ⊗ c1 = Nym2 ⊗ c2).
  { pose proof (eq_trans V1 (eq_sym V2)) as Q. apply (gadd_cancel_l (ok_g1 OK)) in Q. apply (gadd_cancel_l (ok_g1 OK)) in Q.
    rewrite !(gadd_zero_r (ok_g1 OK)) in Q. exact Q. }
  split; [exact E|]. intros <- NZ. apply (gmul_faithful (ok_zr OK) (ok_g1 OK) _ _ NZ) in E.
  destruct (list_eq_dec Byte.byte_eq_dec m1 m2) as [Em|Em]; [left; exact Em|right].
  assert (ND : d1 <> d2). { intro Q. apply Em. unfold d1, d2, nym_data in Q. do 5 (apply app_inv_head in Q). exact Q. }
  destruct (zeqb (H d1) (H d2)) eqn:Z.
  - left. split; [exact ND|]. apply (sok_eqb (ok_zr OK)). exact Z.
  - right. split; [|exact E]. intro Q. apply app_inv_tail in Q. apply (zr_bytes_inj OK) in Q. apply (sok_eqb (ok_zr OK)) in Q. congruence.
Qed.
Print Assumptions C59_aries_partial.

(** The neutral point is a pseudonym whose signatures, when they have two responses, are valid for every message; and a
    signature with more responses that is valid for every pseudonym and every message exists, whoever the issuer is. *)
Theorem C59_neutral_refuted : forall C (OK : CurveOk C) (HG : bytes -> G1 C) (H : hasher C) hkdf c_cred c_sig c_nsig c_cri EC (EE : ecenv EC) sha256
    (h : heap (ariesU C EC)) l m (pk : G2 C) r (i : identity _) (m1 sig : bytes) s p,
  let X := aries_scheme HG H hkdf c_cred c_sig c_nsig c_cri EE sha256 in
  let M := aries_math (Gurvy C) EE sha256 in
  bls_sizes C ->
  nth_error h l = Some m -> ready X M m (Some (Some (issuer_key HG pk 4)) : u_ipk (ariesU C EC)) r ->
  i_msp i = l -> i_nym i = KNymPublic ((gzero : G1 C) : u_g1 (ariesU C EC)) ->
  dec c_nsig sig = Some s -> parseProofG1 C (ans_main s) = Ok p -> length (pf_resp p) = 2 ->
  id_Verify h i m1 sig = Ok tt -> forall m2, id_Verify h i m2 sig = Ok tt.
Proof.
  intros C OK HG H hkdf c_cred c_sig c_nsig c_cri EC EE sha256 h l m pk r i m1 sig s p X M BS L R I N D P L2 V m2.
  rewrite (@id_verify_ready _ X M h m _ r i (gzero : G1 C) m1 sig ltac:(rewrite I; exact L) R N) in V.
  rewrite (@id_verify_ready _ X M h m _ r i (gzero : G1 C) m2 sig ltac:(rewrite I; exact L) R N). clear R.
  destruct (length sig =? 0); [discriminate|]. cbn [s_nymVerify X aries_scheme] in V |- *.
  apply (nymVerify_iff OK HG H BS c_nsig pk gzero sig m1 (Nat.le_0_l 4)) in V.
  apply (nymVerify_iff OK HG H BS c_nsig pk gzero sig m2 (Nat.le_0_l 4)).
  destruct V as (s1 & p1 & D1 & P1 & _ & V). rewrite D in D1. injection D1 as <-. rewrite P in P1. injection P1 as <-.
  exists s, p. split; [exact D|]. split; [exact P|]. split; [lia|].
  destruct (pf_resp p) as [|a [|b [|]]]; cbn in L2; try lia. cbn [app gdot] in V |- *. rewrite !(gmul_zero (ok_g1 OK)) in *. exact V.
Qed.
Print Assumptions C59_neutral_refuted.

Theorem C59_padded_refuted : forall C (OK : CurveOk C) (HG : bytes -> G1 C) (c_nsig : codec ANymSignature),
  bls_sizes C -> (forall s, round_trips c_nsig s) -> nothing_is no_anymsig c_nsig ->
  forall (H : hasher C) hkdf c_cred c_sig c_cri EC (EE : ecenv EC) sha256, exists sig, forall (h : heap (ariesU C EC)) l m (pk : G2 C) r (i : identity _) (Nym : G1 C),
  let X := aries_scheme HG H hkdf c_cred c_sig c_nsig c_cri EE sha256 in
  let M := aries_math (Gurvy C) EE sha256 in
  nth_error h l = Some m -> ready X M m (Some (Some (issuer_key HG pk 4)) : u_ipk (ariesU C EC)) r ->
  i_msp i = l -> i_nym i = KNymPublic (Nym : u_g1 (ariesU C EC)) -> forall msg, id_Verify h i msg sig = Ok tt.
Proof.
  intros C OK HG c_nsig BS RT ZN H hkdf c_cred c_sig c_cri EC EE sha256. destruct (C36_refuted OK HG H BS RT) as [sig F].
  exists sig. intros h l m pk r i Nym X M L R I N msg.
  rewrite (@id_verify_ready _ X M h m _ r i Nym msg sig ltac:(rewrite I; exact L) R N). clear R.
  pose proof (F pk 4 0 Nym msg (Nat.le_0_l 4)) as V. pose proof (@anymsig_nonempty _ _ _ _ _ _ _ _ ZN V) as NE.
  destruct (length sig =? 0) eqn:Z; [apply Nat.eqb_eq, length_zero_iff_nil in Z; contradiction|]. exact V.
Qed.
Print Assumptions C59_padded_refuted.

(** ** Examples *)
Definition xn_i (nym : G1 toy32) : identity yU :=
  {| i_nym := KNymPublic (nym : u_g1 yU); i_raw := []; i_msp := 0; i_id := mname; i_role := {| ro_mspid := mname; ro_role := MSPRole_ADMIN |};
     i_ou := {| ou_mspid := mname; ou_id := str "ou"; ou_certifiers := [] |}; i_proof := [] |}.
Definition xn_nym : G1 toy32 := Eval vm_compute in (gen0 hg32 xa_pk 5 ⊗ f20) ⊕ (base_at hg32 xa_pk 4 0 ⊗ xa_sk).
Definition xn_sig : bytes := Eval vm_compute in
  match arNymSign h32 xa_cnsig 0 xa_sk xn_nym f20 nkey (str "m") f3 (fun i => zr_of_Z toy32 (Z.of_nat i + 3)) with Ok b => b | _ => [] end.
Definition xn_two (sig : bytes) : bool :=
  match dec xa_cnsig sig with Some s => match parseProofG1 toy32 (ans_main s) with Ok p => length (pf_resp p) =? 2 | _ => false end | None => false end.
Definition xn_ok (nym : G1 toy32) (msg sig : bytes) : bool := is_ok (id_Verify [nmsp] (xn_i nym) msg sig).
(** The signature verifies for its message, not for another one, and for a third one because the hash of the example, which has 31 values, collides. *)
Example C59_aries_example : bls_sizes toy32 /\ ready yX yM nmsp (nkey : u_ipk yU) (str "k" : u_epk yU) /\ xn_two xn_sig = true /\ xn_nym <> gzero /\
  map (fun k => xn_ok xn_nym (str "m" ++ repeat Byte.x41 k) xn_sig) [0; 1; 15] = [true; false; true].
Proof.
  split; [exact toy32_sizes|]. split; [exact nmsp_ready|]. split; [vm_compute; reflexivity|]. split; [apply zp_ne; vm_compute; reflexivity|]. vm_compute. reflexivity.
Qed.
Definition xn_neutral_sig : bytes := Eval vm_compute in
  match arNymSign h32 xa_cnsig 0 xa_sk (gzero : G1 toy32) xa_RNym nkey (str "m") f3 (fun i => zr_of_Z toy32 (Z.of_nat i + 3)) with Ok b => b | _ => [] end.
Example C59_neutral_example : xn_two xn_neutral_sig = true /\ xn_ok gzero (str "m") xn_neutral_sig = true /\ xn_ok gzero (str "other") xn_neutral_sig = true.
Proof. vm_compute. auto. Qed.
Example C59_padded_example : (forall s, round_trips xa_cnsig s) /\ nothing_is no_anymsig xa_cnsig.
Proof. split; [exact xa_cnsig_ok|]. intros x D. discriminate D. Qed.

Definition xn_dsig : bytes := match id_Sign mheap msig xdraw tmsg with Ok b => b | _ => [] end.
Example C59_dlog_example : (exists r, ready xX xM m1 mbipk r) /\ i_msp mid = 0 /\ (match i_nym mid with KNymPublic _ => true | _ => false end) = true /\
  map (fun k => is_ok (id_Verify mheap mid (tmsg ++ repeat Byte.x41 k) xn_dsig)) [0; 1; 15] = [true; false; true].
Proof. split; [exact toy_ready_key|]. split; [vm_compute; reflexivity|]. split; vm_compute; reflexivity. Qed.
