(** * A signature is accepted under one issuer key only (C70) *)
From Verif Require Import Base Curve Algebra Spec Dlog DlogSpec DlogFacts DlogData DlogSound DlogComplete DlogTop Translator Toy ToyDlog
  Bridge BridgeFacts Bbs BbsSpec BbsFacts BbsProof BbsComplete
  Aries AriesSpec AriesIssue AriesNym AriesVerify AriesSign AriesSound AriesForge AriesHide AriesBind ToyBbs ToyCodec ToyAries PropsAries PropsAriesMore.
Unset Strict Implicit.

(** ** dlog *)
(** A signature that verifies under two issuer public keys (for whatever messages, disclosures,
    values, indices and types): the two keys hold the same signing key W. *)
Theorem C70_dlog : forall (C : Curve) (OK : CurveOk C) (H : hasher C) (T : translator C) (sig : Dlog.Signature) (ipk1 ipk2 : IssuerPublicKey)
    disc1 disc2 msg1 msg2 vals1 vals2 rhI1 rhI2 eidI1 eidI2 rp (rev1 rev2 : rp) ep1 ep2 vt1 vt2 meta1 meta2,
  Ver H T sig disc1 (Some ipk1) msg1 vals1 rhI1 eidI1 rev1 ep1 vt1 meta1 = Ok tt ->
  Ver H T sig disc2 (Some ipk2) msg2 vals2 rhI2 eidI2 rev2 ep2 vt2 meta2 = Ok tt ->
  exists W, g2_from_proto T (ip_w ipk1) = Ok W /\ g2_from_proto T (ip_w ipk2) = Ok W.
Proof.
  intros C OK H T sig ipk1 ipk2 disc1 disc2 msg1 msg2 vals1 vals2 rhI1 rhI2 eidI1 eidI2 rp rev1 rev2 ep1 ep2 vt1 vt2 meta1 meta2 V1 V2.
  destruct (Ver_bases V1) as (B1 & F1 & HB1 & E1). destruct (Ver_bases V2) as (B2 & F2 & HB2 & E2).
  edestruct (Ver_first_inv OK) as (a & b & c & n & O1); [exact HB1|exact E1|].
  edestruct (Ver_first_inv OK) as (a' & b' & c' & n' & O2); [exact HB2|exact E2|].
  pose proof (eq_trans (eq_sym (fo_a O1)) (fo_a O2)) as Q. injection Q as <-. pose proof (eq_trans (eq_sym (fo_abar O1)) (fo_abar O2)) as Q. injection Q as <-.
  exists (b_w B1). split; [apply HB1|]. rewrite (@pair_inj_l C OK _ _ _ (fo_nz O1) (eq_trans (fo_pair O1) (eq_sym (fo_pair O2)))). apply HB2.
Qed.

(** For generated issuer keys: the issuers drew the same secret. *)
Theorem C70_dlog_issuers : forall (C : Curve) (OK : CurveOk C) (H : hasher C) (T : translator C) (marshal : IssuerPublicKey -> option bytes) (sig : Dlog.Signature)
    names1 names2 (R1 R2 : IssuerRand C) key1 key2 ipk1 ipk2 disc1 disc2 msg1 msg2 vals1 vals2 rhI1 rhI2 eidI1 eidI2 rp (rev1 rev2 : rp) ep1 ep2 vt1 vt2 meta1 meta2,
  TrOk T ->
  newIssuerKey H T marshal names1 R1 = Ok key1 -> ik_ipk key1 = Some ipk1 ->
  newIssuerKey H T marshal names2 R2 = Ok key2 -> ik_ipk key2 = Some ipk2 ->
  Ver H T sig disc1 (Some ipk1) msg1 vals1 rhI1 eidI1 rev1 ep1 vt1 meta1 = Ok tt ->
  Ver H T sig disc2 (Some ipk2) msg2 vals2 rhI2 eidI2 rev2 ep2 vt2 meta2 = Ok tt ->
  ir_isk R1 = ir_isk R2.
Proof.
  intros C OK H T marshal sig names1 names2 R1 R2 key1 key2 ipk1 ipk2 disc1 disc2 msg1 msg2 vals1 vals2 rhI1 rhI2 eidI1 eidI2 rp rev1 rev2 ep1 ep2 vt1 vt2 meta1 meta2 TO K1 I1 K2 I2 V1 V2.
  destruct (C70_dlog OK V1 V2) as (W & W1 & W2).
  destruct (@newIssuerKey_inv C OK H T TO marshal _ _ _ K1) as (k1 & J1 & _ & _ & (_ & _ & _ & X1) & _). destruct (@newIssuerKey_inv C OK H T TO marshal _ _ _ K2) as (k2 & J2 & _ & _ & (_ & _ & _ & X2) & _).
  rewrite I1 in J1. injection J1 as <-. rewrite I2 in J2. injection J2 as <-. cbn [b_w] in X1, X2.
  assert (E : genG2 C ⊗ ir_isk R1 = genG2 C ⊗ ir_isk R2) by (pose proof (eq_trans (eq_sym X1) W1) as Q1; injection Q1 as ->; pose proof (eq_trans (eq_sym X2) W2) as Q2; injection Q2 as ->; reflexivity).
  refine (gmul_faithful (ok_zr OK) (ok_g2 OK) _ _ (ok_gen2 OK) E).
Qed.

(** The example issuer key; the same with other attribute names; and one with another W. *)
Definition renamed : IssuerPublicKey := {| ip_names := [str "a"; str "b"; str "c"; str "d"]; ip_hsk := ip_hsk tipk; ip_hrand := ip_hrand tipk; ip_hattrs := ip_hattrs tipk; ip_w := ip_w tipk;
  ip_barg1 := None; ip_barg2 := None; ip_c := []; ip_s := []; ip_hash := ip_hash tipk |}.
Definition other_w : IssuerPublicKey := {| ip_names := ip_names tipk; ip_hsk := ip_hsk tipk; ip_hrand := ip_hrand tipk; ip_hattrs := ip_hattrs tipk;
  ip_w := Some (g2_to_proto tT (Toy.f2 : G2 tC)); ip_barg1 := None; ip_barg2 := None; ip_c := []; ip_s := []; ip_hash := ip_hash tipk |}.
Example C70_dlog_example :
  let sig := fst (tsign EidNym) in
  newIssuerKey tH tT tmarshal tnames tIR = Ok tkey /\ ik_ipk tkey = Some tipk /\
  Ver tH tT sig tdisc (Some tipk) tmsg tvals 3 2 tt 5 ExpectEidNym None = Ok tt /\
  Ver tH tT sig tdisc (Some renamed) tmsg tvals 3 2 tt 5 ExpectEidNym None = Ok tt /\
  Ver tH tT sig tdisc (Some other_w) tmsg tvals 3 2 tt 5 ExpectEidNym None = Err.
Proof.
  split; [vm_compute; reflexivity|]. split; [vm_compute; reflexivity|]. split; [vm_compute; reflexivity|].
  split; [vm_compute; reflexivity|]. vm_compute; reflexivity.
Qed.

(** ** aries *)
(** A signature made by the signer with a credential of issuer [pk] is accepted under no other
    issuer key, for whatever number of attributes, message, attributes, indices, type and metadata. *)
Theorem C70_aries_honest : forall C (OK : CurveOk C) (HG : bytes -> G1 C) (H : hasher C) (c_cred : codec ACredential) (c_sig : codec ASignature) (c_cri : codec ACRI)
    (pk : G2 C) (n : nat) (A : G1 C) (e s sk : Zr C) (vals : list (Zr C)) (attributes : list attribute) (eid rh : nat) (st : SignatureType) (msg criRaw credBytes : bytes)
    (meta : option (Metadata C)) (RNym : Zr C) (R : ASigRand C) (Nym : G1 C) (sig : bytes) (meta' : option (Metadata C)),
  bls_sizes C -> codec_ok canon_asig c_sig ->
  presentable HG H c_cred c_cri pk n A e s sk vals attributes eid rh st criRaw credBytes meta RNym R -> A <> gzero ->
  let ipk := Some (Some (issuer_key HG pk n)) in
  arMakeNym 0 sk ipk RNym = Ok (Nym, RNym) ->
  arSign H c_cred c_sig c_cri credBytes sk Nym RNym ipk attributes msg (Z.of_nat rh) (Z.of_nat eid) criRaw st meta R = Ok (sig, meta') ->
  forall (pk' : G2 C) (n' : nat) (msg' : bytes) (attributes' : list attribute) (rh' eid' sk' : Z) (v : VerificationType) (m : option (Metadata C)),
    arVerify H c_sig (Some (Some (issuer_key HG pk' n'))) sig msg' attributes' rh' eid' sk' v m = Ok tt -> pk' = pk.
Proof.
  intros C OK HG H c_cred c_sig c_cri pk n A e s sk vals attributes eid rh st msg criRaw credBytes meta RNym R Nym sig meta' BS CS PR NA ipk MN S0 pk' n' msg' attributes' rh' eid' sk' v m V.
  destruct (honest_accepted OK BS CS PR MN S0) as (V0 & SP). fold ipk in V0, SP.
  apply bind_ok in V0. destruct V0 as [f0 [F0 S1]]. apply bind_ok in V. destruct V as [f [F S2]].
  destruct (first_inv F0) as (D0 & _ & _ & K0 & _ & _ & (p0 & P0 & Q0 & _) & _). destruct (first_inv F) as (D & _ & _ & K & _ & _ & (p & P & Q & _) & _). cbv zeta in *.
  pose proof (eq_trans (eq_sym D0) D) as J. injection J as J. rewrite <- J in *. pose proof (eq_trans (eq_sym P0) P) as J'. injection J' as <-. pose proof (eq_trans (eq_sym Q0) Q) as J'. injection J' as J'.
  apply (second_vc1 K0) in S1. apply (second_vc1 K) in S2. apply (signatureProofVerify_iff OK) in S1. apply (signatureProofVerify_iff OK) in S2.
  destruct S1 as (E1 & _), S2 as (E2 & _). rewrite <- J' in E2. destruct (SP _ _ _ _ _ F0) as (c & X & _). rewrite X in E1, E2.
  refine (@pair_inj_l C OK _ _ (sp_aprime (h_proof HG pk n A e s sk vals RNym attributes st R c)) _ (eq_trans E2 (eq_sym E1))).
  cbn [h_proof sp_aprime]. unfold h_A', h_r1. intro Z. apply NA. apply (gmul_inv_zero (ok_zr OK) (ok_g1 OK)) with (k := pr_r1 (rn_pok R)); [exact Z|].
  destruct PR as (_ & _ & _ & _ & _ & _ & _ & _ & _ & _ & _ & _ & _ & _ & (X1 & _)). exact X1.
Qed.

(** Full claim: the same for every byte string accepted as a signature.  Proved: for those whose
    point A' is not the neutral element.  Missing: verification does not look at A'; see C70_refuted. *)
Theorem C70_aries_partial : forall C (OK : CurveOk C) (HG : bytes -> G1 C) (H : hasher C) (c_sig : codec ASignature) (sig : bytes)
    (pk1 : G2 C) (n1 : nat) (msg1 : bytes) (attributes1 : list attribute) (rh1 eid1 sk1 : Z) (v1 : VerificationType) (m1 : option (Metadata C))
    (pk2 : G2 C) (n2 : nat) (msg2 : bytes) (attributes2 : list attribute) (rh2 eid2 sk2 : Z) (v2 : VerificationType) (m2 : option (Metadata C)),
  arVerify H c_sig (Some (Some (issuer_key HG pk1 n1))) sig msg1 attributes1 rh1 eid1 sk1 v1 m1 = Ok tt ->
  arVerify H c_sig (Some (Some (issuer_key HG pk2 n2))) sig msg2 attributes2 rh2 eid2 sk2 v2 m2 = Ok tt ->
  (forall f, arVerify_first H c_sig (Some (Some (issuer_key HG pk1 n1))) sig msg1 attributes1 sk1 v1 = Ok f -> sp_aprime (vf_sp f) <> gzero) ->
  pk1 = pk2.
Proof.
  intros C OK HG H c_sig sig pk1 n1 msg1 attributes1 rh1 eid1 sk1 v1 m1 pk2 n2 msg2 attributes2 rh2 eid2 sk2 v2 m2 V0 V NZ.
  apply bind_ok in V0. destruct V0 as [f0 [F0 S1]]. apply bind_ok in V. destruct V as [f [F S2]]. specialize (NZ _ F0).
  destruct (first_inv F0) as (D0 & _ & _ & K0 & _ & _ & (p0 & P0 & Q0 & _) & _). destruct (first_inv F) as (D & _ & _ & K & _ & _ & (p & P & Q & _) & _). cbv zeta in *.
  pose proof (eq_trans (eq_sym D0) D) as J. injection J as J. rewrite <- J in *. pose proof (eq_trans (eq_sym P0) P) as J'. injection J' as <-. pose proof (eq_trans (eq_sym Q0) Q) as J'. injection J' as J'.
  apply (second_vc1 K0) in S1. apply (second_vc1 K) in S2. apply (signatureProofVerify_iff OK) in S1. apply (signatureProofVerify_iff OK) in S2.
  destruct S1 as (E1 & _), S2 as (E2 & _). rewrite <- J' in E2. exact (@pair_inj_l C OK _ _ _ NZ (eq_trans E1 (eq_sym E2))).
Qed.

(** One byte string is accepted under every issuer key. *)
Theorem C70_aries_refuted : forall C (OK : CurveOk C) (HG : bytes -> G1 C) (H : hasher C) (c_sig : codec ASignature),
  bls_sizes C -> codec_ok canon_asig c_sig ->
  exists sig, forall (pk : G2 C) (msg : bytes), arVerify H c_sig (Some (Some (issuer_key HG pk 3))) sig msg [hidden_attr; hidden_attr; hidden_attr] 2 1 0 ExpectStandard None = Ok tt.
Proof.
  intros C OK HG H c_sig BS CS. destruct (@C35_refuted C OK HG c_sig BS CS 3 [] ExpectStandard) as (sig & F); [lia|constructor|intros i []|].
  exists sig. intros pk msg. apply (F H pk msg [hidden_attr; hidden_attr; hidden_attr] [] 1 2); [lia|lia|reflexivity|apply le_n].
Qed.

Example C70_aries_example :
  bls_sizes toy32 /\ codec_ok canon_asig xa_csig /\ xa_A <> gzero /\
  (forall st, st <> OtherSig -> presentable hg32 h32 xa_ccred xa_ccri xa_pk 3 xa_A xa_e xa_s xa_sk xa_vals xa_attrs 1 2 st xa_crib xa_credb None xa_RNym xa_R) /\
  map (fun st => is_ok (let* b := xa_sigb st (str "message") in arVerify h32 xa_csig (Some (Some (issuer_key hg32 xa_pk 3))) b (str "message") xa_attrs 2 1 0 (own_type st) None))
    [Standard; EidNym; EidNymRhNym; Smartcard; SmartcardNoNyms] = [true; true; true; true; true] /\
  map (fun st => is_ok (let* b := xa_sigb st (str "message") in arVerify h32 xa_csig (Some (Some (issuer_key hg32 (xa_pk ⊕ xa_pk) 3))) b (str "message") xa_attrs 2 1 0 (own_type st) None))
    [Standard; EidNym; EidNymRhNym; Smartcard; SmartcardNoNyms] = [false; false; false; false; false].
Proof.
  split; [exact toy32_sizes|]. split; [exact xa_csig_ok|]. split; [apply zp_ne; vm_compute; reflexivity|]. split; [exact xa_presentable|].
  split; vm_compute; reflexivity.
Qed.

Print Assumptions C70_dlog.
Print Assumptions C70_dlog_issuers.
Print Assumptions C70_aries_honest.
Print Assumptions C70_aries_partial.
Print Assumptions C70_aries_refuted.
