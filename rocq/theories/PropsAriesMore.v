(** * Further properties of the aries scheme: audit data (C13), one signature and several messages,
    attribute lists or verification types (C68, C69).

    Reading guide: as in PropsAries.v.  [presentable ..] (PropsAries.v) says that the signer holds a
    valid credential, that the attributes shown agree with it and that its random draws do not hit one of the
    exceptional values listed there. *)
From Verif Require Import Base Curve Algebra Spec Dlog Bridge BridgeFacts Bbs BbsSpec BbsFacts BbsProof BbsComplete
  Aries AriesSpec AriesIssue AriesNym AriesVerify AriesSign AriesSound AriesForge AriesHide AriesBind DlogAudit Toy ToyBbs ToyCodec ToyAries PropsAries.
From Coq Require Import Sorting.Sorted Field Ring.
Unset Strict Implicit.

(** ** C13 for aries: audit data supplied by the caller *)
(** If signing succeeds although the caller supplied audit data, then that data is the certified
    attribute with an opening of its nym, the signature carries that nym and the data is returned. *)
Theorem C13_aries_honoured : forall C (OK : CurveOk C) (HG : bytes -> G1 C) (H : hasher C) (c_cred : codec ACredential) (c_sig : codec ASignature) (c_cri : codec ACRI)
    (pk : G2 C) (n : nat) (credBytes : bytes) (cred : ACredential) (sk : Zr C) (Nym : G1 C) (RNym : Zr C) (attributes : list attribute) (msg : bytes)
    (rh eid : nat) (criRaw : bytes) (st : SignatureType) (m : Metadata C) (R : ASigRand C) (sig : bytes) (md : option (Metadata C)),
  bls_sizes C -> dec c_cred credBytes = Some cred -> ac_skpos cred = 0%Z -> eid < n -> rh < n ->
  arSign H c_cred c_sig c_cri credBytes sk Nym RNym (Some (Some (issuer_key HG pk n))) attributes msg (Z.of_nat rh) (Z.of_nat eid) criRaw st (Some m) R = Ok (sig, md) ->
  exists s, enc c_sig s = Some sig /\
    (has_eid st = true -> forall d, md_eid_data m = Some d ->
       exists ab nym r, nth_error (ac_attrs cred) eid = Some ab /\
         d = {| au_nym := Some nym; au_rand := Some r; au_attr := Some (zr_of_bytes C ab) |} /\
         opens (base_at HG pk n (S eid)) (gen0 HG pk (n + 1)) nym (zr_of_bytes C ab) r /\
         as_eid s = g1_bytes C nym /\ option_map (@md_eid_data C) md = Some (Some d)) /\
    (has_rh st = true -> forall d, md_rh_data m = Some d ->
       exists ab nym r, nth_error (ac_attrs cred) rh = Some ab /\
         d = {| au_nym := Some nym; au_rand := Some r; au_attr := Some (zr_of_bytes C ab) |} /\
         opens (base_at HG pk n (S rh)) (gen0 HG pk (n + 1)) nym (zr_of_bytes C ab) r /\
         as_rh s = g1_bytes C nym /\ option_map (@md_rh_data C) md = Some (Some d)).
Proof.
  intros C OK HG H c_cred c_sig c_cri pk n credBytes cred sk Nym RNym attributes msg rh eid criRaw st m R sig md BS D Z Le Lr E.
  destruct (@sign_meta C OK HG H BS c_sig pk n c_cred c_cri credBytes cred sk Nym RNym attributes msg rh eid criRaw st (Some m) R sig md D Z Le Lr E) as (s & Es & Pe & Pr).
  exists s. split; [exact Es|]. split; intros Hh d Hd.
  - destruct (Pe Hh d Hd) as (ab & cm & E1 & E2 & E3 & E4 & E5). exists ab, (cm_comm cm), (cm_r cm). repeat (split; [assumption || (symmetry; exact E2)|]). exact E5.
  - destruct (Pr Hh d Hd) as (ab & cm & E1 & E2 & E3 & E4 & E5). exists ab, (cm_comm cm), (cm_r cm). repeat (split; [assumption || (symmetry; exact E2)|]). exact E5.
Qed.

(** the position of attribute [i] among the signed messages when the user key is at position [k] *)
Definition beside (k i : nat) : nat := if k <=? i then S i else i.
Lemma beside_past k i : past_sk (Z.of_nat i) (Z.of_nat k) = Z.of_nat (beside k i).
Proof. unfold past_sk, beside. destruct (Nat.leb_spec k i); [replace (Z.of_nat k <=? Z.of_nat i)%Z with true by lia|replace (Z.of_nat k <=? Z.of_nat i)%Z with false by lia]; lia. Qed.
Lemma beside_le k i n : i < n -> beside k i <= n.
Proof. unfold beside. destruct (k <=? i); lia. Qed.

(** Verification with metadata: audit data the verifier is given opens the nym in the signature, and a
    nym given in the metadata is the nym in the signature. *)
Theorem C13_aries_verifier : forall C (OK : CurveOk C) (HG : bytes -> G1 C) (H : hasher C) (c_sig : codec ASignature)
    (pk : G2 C) (n : nat) (sig msg : bytes) (attributes : list attribute) (rh eid k : nat) (v : VerificationType) (m : Metadata C),
  bls_sizes C -> eid < n -> rh < n -> k <= n ->
  arVerify H c_sig (Some (Some (issuer_key HG pk n))) sig msg attributes (Z.of_nat rh) (Z.of_nat eid) (Z.of_nat k) v (Some m) = Ok tt ->
  exists s, dec c_sig sig = Some s /\
    (v = ExpectEidNym \/ v = ExpectEidNymRhNym \/ v = ExpectSmartcard \/ (v = BestEffort /\ as_eid s <> []) ->
     exists nym, g1_of_bytes C (as_eid s) = Some nym /\
       (forall d, md_eid_data m = Some d -> exists a r, au_attr d = Some a /\ au_rand d = Some r /\
          opens (base_at HG pk n (beside k eid)) (gen0 HG pk (n + 1)) nym a r /\ (forall nym', au_nym d = Some nym' -> nym' = nym)) /\
       (md_eid m <> [] -> g1_of_bytes C (md_eid m) = Some nym)) /\
    (v = ExpectEidNymRhNym \/ (v = BestEffort /\ as_rh s <> []) ->
     exists nym, g1_of_bytes C (as_rh s) = Some nym /\
       (forall d, md_rh_data m = Some d -> exists a r, au_attr d = Some a /\ au_rand d = Some r /\
          opens (base_at HG pk n (beside k rh)) (gen0 HG pk (n + 1)) nym a r /\ (forall nym', au_nym d = Some nym' -> nym' = nym)) /\
       (md_rh m <> [] -> g1_of_bytes C (md_rh m) = Some nym)).
Proof.
  intros C OK HG H c_sig pk n sig msg attributes rh eid k v m BS Le Lr Lk E. unfold arVerify in E. apply bind_ok in E. destruct E as [f [F E]].
  destruct (first_inv F) as (D & _ & _ & K & _ & _ & _ & _ & _ & Pe & Pr & _). cbv zeta in *.
  apply (second_iff OK (HG := HG) BS _ v (Some m) Lk (beside_le k Le) (beside_le k Lr) (beside_past k eid) (beside_past k rh) K) in E. destruct E as (Me & Mr & _).
  exists (vf_sig f). split; [exact D|].
  assert (NN : forall b : bytes, b <> [] -> nonempty b = true) by (intros [|x b] Q; [congruence|reflexivity]).
  split; intro Hv.
  - assert (VE : ar_verifyEid v (vf_sig f) = true).
    { unfold ar_verifyEid. destruct Hv as [->|[->|[->|[-> Q]]]]; try reflexivity. rewrite (NN _ Q). reflexivity. }
    rewrite VE in Pe. destruct Pe as (p & Ep & _ & G). exists (snd p). split; [exact G|]. destruct (Me p m Ep eq_refl) as [A B]. split; [|exact B].
    intros d Hd. rewrite Hd in A. exact A.
  - assert (VR : ar_verifyRh v (vf_sig f) = true).
    { unfold ar_verifyRh. destruct Hv as [->|[-> Q]]; [reflexivity|]. exact (NN _ Q). }
    rewrite VR in Pr. destruct Pr as (p & Ep & _ & G). exists (snd p). split; [exact G|]. destruct (Mr p m Ep eq_refl) as [A B]. split; [|exact B].
    intros d Hd. rewrite Hd in A. exact A.
Qed.

(** The signer of ToyAries.v with audit data of its own; wrong audit data is refused. *)
Definition xa_audit (i : nat) (r v : Zr toy32) : AuditData toy32 :=
  {| au_nym := Some ((gen0 hg32 xa_pk 4 ⊗ r) ⊕ (base_at hg32 xa_pk 3 (S i) ⊗ v)); au_rand := Some r; au_attr := Some v |}.
Definition xa_meta (v : Zr toy32) : Metadata toy32 :=
  {| md_eid := []; md_eid_data := Some (xa_audit 1 f4 v); md_rh := []; md_rh_data := Some (xa_audit 2 f5 (zr_of_Z toy32 42)) |}.
Definition xa_msig (v : Zr toy32) : res (bytes * option (Metadata toy32)) :=
  let* '(Nym, RNym) := arMakeNym 0 xa_sk xa_key xa_RNym in
  arSign h32 xa_ccred xa_csig xa_ccri xa_credb xa_sk Nym RNym xa_key xa_attrs (str "message") 2 1 xa_crib EidNymRhNym (Some (xa_meta v)) xa_R.
Example C13_aries_example :
  bls_sizes toy32 /\ dec xa_ccred xa_credb = Some xa_cred /\ ac_skpos xa_cred = 0%Z /\
  is_ok (xa_msig (h32 (str "alice"))) = true /\ is_ok (xa_msig (h32 (str "bob"))) = false /\
  is_ok (let* '(b, m) := xa_msig (h32 (str "alice")) in arVerify h32 xa_csig xa_key b (str "message") xa_attrs 2 1 0 ExpectEidNymRhNym (Some (xa_meta (h32 (str "alice"))))) = true /\
  is_ok (let* '(b, m) := xa_msig (h32 (str "alice")) in arVerify h32 xa_csig xa_key b (str "message") xa_attrs 2 1 0 ExpectEidNymRhNym (Some (xa_meta (h32 (str "bob"))))) = false.
Proof.
  split; [exact toy32_sizes|]. split; [exact xa_dec_cred|]. split; [reflexivity|].
  split; [vm_compute; reflexivity|]. split; [vm_compute; reflexivity|]. split; [vm_compute; reflexivity|]. vm_compute. reflexivity.
Qed.

(** ** C68: one signature, one message *)
(** [hashed .. d nonce]: to check the signature for these arguments, Verify hashes [d] and then the hash
    with [nonce] (C35_challenge says what [d] consists of). *)
Definition hashed (C : Curve) (H : hasher C) (c_sig : codec ASignature) (ipk : iface (AIssuerPublicKey C)) (sig msg : bytes) (attributes : list attribute)
    (skIndex : Z) (v : VerificationType) (d nonce : bytes) : Prop :=
  exists f, arVerify_first H c_sig ipk sig msg attributes skIndex v = Ok f /\ vf_data f = d /\ as_nonce (vf_sig f) = nonce.
(** The hash function collides on what Verify hashes for the two sets of arguments. *)
Definition clash (C : Curve) (H : hasher C) (c_sig : codec ASignature) (ipk : iface (AIssuerPublicKey C)) (sig : bytes)
    (msg1 : bytes) (attributes1 : list attribute) (sk1 : Z) (v1 : VerificationType) (msg2 : bytes) (attributes2 : list attribute) (sk2 : Z) (v2 : VerificationType) : Prop :=
  exists d1 d2 nonce, hashed H c_sig ipk sig msg1 attributes1 sk1 v1 d1 nonce /\ hashed H c_sig ipk sig msg2 attributes2 sk2 v2 d2 nonce /\
    (collision H d1 d2 \/ collision H (zr_bytes C (H d1) ++ nonce) (zr_bytes C (H d2) ++ nonce)).

(** The verification type named after the signature type. *)
Definition own_type (st : SignatureType) : VerificationType :=
  match st with Standard => ExpectStandard | EidNym => ExpectEidNym | EidNymRhNym => ExpectEidNymRhNym | Smartcard => ExpectSmartcard | SmartcardNoNyms => ExpectSmartcardNoNyms | OtherSig => OtherVer end.

(** what an honest signature is, and that it is accepted *)
Lemma honest_accepted : forall C (OK : CurveOk C) (HG : bytes -> G1 C) (H : hasher C) (c_cred : codec ACredential) (c_sig : codec ASignature) (c_cri : codec ACRI)
    (pk : G2 C) (n : nat) (A : G1 C) (e s sk : Zr C) (vals : list (Zr C)) (attributes : list attribute) (eid rh : nat) (st : SignatureType) (msg criRaw credBytes : bytes)
    (meta : option (Metadata C)) (RNym : Zr C) (R : ASigRand C) (Nym : G1 C) (sig : bytes) (meta' : option (Metadata C)),
  bls_sizes C -> codec_ok canon_asig c_sig ->
  presentable HG H c_cred c_cri pk n A e s sk vals attributes eid rh st criRaw credBytes meta RNym R ->
  let ipk := Some (Some (issuer_key HG pk n)) in
  arMakeNym 0 sk ipk RNym = Ok (Nym, RNym) ->
  arSign H c_cred c_sig c_cri credBytes sk Nym RNym ipk attributes msg (Z.of_nat rh) (Z.of_nat eid) criRaw st meta R = Ok (sig, meta') ->
  arVerify H c_sig ipk sig msg attributes (Z.of_nat rh) (Z.of_nat eid) 0 (own_type st) None = Ok tt /\
  forall msg' attributes' skIndex v f, arVerify_first H c_sig ipk sig msg' attributes' skIndex v = Ok f ->
    exists c, vf_sp f = h_proof HG pk n A e s sk vals RNym attributes st R c /\ forall i, In i (vf_revealed f) <-> In i (revealedAttributesIndex attributes).
Proof.
  intros C OK HG H c_cred c_sig c_cri pk n A e s sk vals attributes eid rh st msg criRaw credBytes meta RNym R Nym sig meta' BS CS PR ipk MN S0.
  pose proof (@C34_sign_verifies C OK HG H c_cred c_sig c_cri BS CS pk n A e s sk vals attributes eid rh st msg criRaw credBytes meta RNym R PR) as (Nym' & sig' & m' & MN' & S' & V).
  cbv zeta in *. fold ipk in MN', S', V. pose proof (eq_trans (eq_sym MN') MN) as Q. injection Q as ->.
  pose proof (eq_trans (eq_sym S') S0) as Q. injection Q as -> ->. split.
  { apply V; [pose proof (proj1 PR) as Kn; clear - Kn; destruct st; (reflexivity || contradiction)|left; reflexivity]. }
  destruct PR as (Kn & Bn & Lv & Le & Lr & VV & Dc & Agr & (cri & Dr & Alg & Ep) & He & Hr & Ae & Ar & ND & (X1 & X2 & X3)). cbv zeta in X2, X3. cbn [fst snd] in X1, X2, X3.
  assert (Lse : S eid <= n) by (clear - Le; lia). assert (Lsr : S rh <= n) by (clear - Lr; lia).
  pose proof (@sig_canon C HG H pk n A e s sk vals RNym attributes st R eid rh (S eid) (S rh) msg cri meta Bn Lse Lsr Ep Alg) as K.
  destruct (CS _ K) as (b & Eb & Db).
  assert (NE : Nym = h_Nym HG pk n sk RNym).
  { pose proof (makeNym_ok OK HG BS pk sk RNym (Nat.le_0_l n)) as Q. pose proof (eq_trans (eq_sym Q) MN) as Q'. injection Q' as <-. reflexivity. }
  assert (SB : sig = b).
  { pose proof (@sign_ok C OK HG H BS c_cred c_sig c_cri pk n A e s sk vals RNym attributes st R Lv Agr VV eid rh (S eid) (S rh) msg cri meta Bn Le Lr He Hr ND X2 X3 Ae Ar
      credBytes criRaw Kn eq_refl eq_refl Dr Alg Dc) as Q.
    rewrite Eb in Q. cbn [opt_err bind] in Q. rewrite <- NE in Q. fold ipk in Q. pose proof (eq_trans (eq_sym S0) Q) as Q'. injection Q' as Q'. exact Q'. }
  subst b. intros msg' attributes' skIndex v f F. eexists.
  exact (@honest_sp C OK HG H BS c_sig pk n A e s sk vals RNym attributes st R eid rh msg cri meta sig msg' attributes' skIndex v f Lv Agr Bn Le Lr He Hr ND X2 X3 Ae Ar Db F).
Qed.

(** A signature made by the signer for [msg] is accepted for another message, by whatever
    verification type and with whatever attributes, only if the hash function collides on the two
    messages or on what Verify hashes.  The draws must not make A^(r1 e) equal to h0^r2 (for random
    draws this has the probability of guessing a scalar). *)
Theorem C68_honest_message : forall C (OK : CurveOk C) (HG : bytes -> G1 C) (H : hasher C) (c_cred : codec ACredential) (c_sig : codec ASignature) (c_cri : codec ACRI)
    (pk : G2 C) (n : nat) (A : G1 C) (e s sk : Zr C) (vals : list (Zr C)) (attributes : list attribute) (eid rh : nat) (st : SignatureType) (msg criRaw credBytes : bytes)
    (meta : option (Metadata C)) (RNym : Zr C) (R : ASigRand C) (Nym : G1 C) (sig : bytes) (meta' : option (Metadata C)),
  bls_sizes C -> codec_ok canon_asig c_sig ->
  presentable HG H c_cred c_cri pk n A e s sk vals attributes eid rh st criRaw credBytes meta RNym R ->
  A ⊗ zmul (pr_r1 (rn_pok R)) e <> gen0 HG pk (n + 1) ⊗ pr_r2 (rn_pok R) ->
  let ipk := Some (Some (issuer_key HG pk n)) in
  arMakeNym 0 sk ipk RNym = Ok (Nym, RNym) ->
  arSign H c_cred c_sig c_cri credBytes sk Nym RNym ipk attributes msg (Z.of_nat rh) (Z.of_nat eid) criRaw st meta R = Ok (sig, meta') ->
  forall (msg' : bytes) (attributes' : list attribute) (rh' eid' sk' : Z) (v : VerificationType) (m : option (Metadata C)),
    arVerify H c_sig ipk sig msg' attributes' rh' eid' sk' v m = Ok tt ->
    msg' = msg \/ collision H msg msg' \/ clash H c_sig ipk sig msg attributes 0 (own_type st) msg' attributes' sk' v.
Proof.
  intros C OK HG H c_cred c_sig c_cri pk n A e s sk vals attributes eid rh st msg criRaw credBytes meta RNym R Nym sig meta' BS CS PR NA ipk MN S0 msg' attributes' rh' eid' sk' v m V.
  destruct (honest_accepted OK BS CS PR MN S0) as (V0 & SP). fold ipk in V0, SP.
  destruct (@same_transcript C OK HG H c_sig pk n sig msg msg' attributes attributes' (own_type st) v (Z.of_nat rh) rh' (Z.of_nat eid) eid' 0%Z sk' None m V0 V) as (f1 & f2 & F1 & F2 & D).
  { intros f F. destruct (SP _ _ _ _ _ F) as (c & -> & _). destruct (@honest_shape C OK HG pk n A e s sk vals RNym attributes st R c) as (L & N). split; [exact L|exact (N NA)]. }
  destruct (bytes_eqb msg' msg) eqn:B; [left; apply bytes_eqb_eq; exact B|right].
  destruct D as [D|D].
  - left. split; [intro Q; subst; assert (bytes_eqb msg' msg' = true) by (apply bytes_eqb_eq; reflexivity); congruence|]. exact (data_msg_eq OK F1 F2 D).
  - right. exists (vf_data f1), (vf_data f2), (as_nonce (vf_sig f1)). destruct (first_same F1 F2) as (Es & _).
    split; [exists f1; auto|]. split; [exists f2; split; [exact F2|split; [reflexivity|congruence]]|exact D].
Qed.

(** Full claim: the same for every byte string accepted as a signature.  Proved: for those whose
    first proof has the two responses it should have and whose points Abar and d differ.
    Missing: other byte strings; the forgeries of C35_refuted are accepted for every message. *)
Theorem C68_message_partial : forall C (OK : CurveOk C) (HG : bytes -> G1 C) (H : hasher C) (c_sig : codec ASignature) (pk : G2 C) (n : nat) (sig : bytes)
    (msg1 : bytes) (attributes1 : list attribute) (rh1 eid1 sk1 : Z) (v1 : VerificationType) (m1 : option (Metadata C))
    (msg2 : bytes) (attributes2 : list attribute) (rh2 eid2 sk2 : Z) (v2 : VerificationType) (m2 : option (Metadata C)),
  let ipk := Some (Some (issuer_key HG pk n)) in
  arVerify H c_sig ipk sig msg1 attributes1 rh1 eid1 sk1 v1 m1 = Ok tt -> arVerify H c_sig ipk sig msg2 attributes2 rh2 eid2 sk2 v2 m2 = Ok tt ->
  (forall f, arVerify_first H c_sig ipk sig msg1 attributes1 sk1 v1 = Ok f -> length (pf_resp (sp_vc1 (vf_sp f))) = 2 /\ sp_abar (vf_sp f) <> sp_d (vf_sp f)) ->
  msg1 = msg2 \/ collision H msg1 msg2 \/ clash H c_sig ipk sig msg1 attributes1 sk1 v1 msg2 attributes2 sk2 v2.
Proof.
  intros C OK HG H c_sig pk n sig msg1 attributes1 rh1 eid1 sk1 v1 m1 msg2 attributes2 rh2 eid2 sk2 v2 m2 ipk V1 V2 Sh.
  destruct (same_transcript OK V1 V2 Sh) as (f1 & f2 & F1 & F2 & D).
  destruct (bytes_eqb msg1 msg2) eqn:B; [left; apply bytes_eqb_eq; exact B|right].
  destruct D as [D|D].
  - left. split; [intro Q; subst; assert (bytes_eqb msg2 msg2 = true) by (apply bytes_eqb_eq; reflexivity); congruence|]. exact (data_msg_eq OK F1 F2 D).
  - right. exists (vf_data f1), (vf_data f2), (as_nonce (vf_sig f1)). destruct (first_same F1 F2) as (Es & _).
    split; [exists f1; auto|]. split; [exists f2; split; [exact F2|split; [reflexivity|congruence]]|exact D].
Qed.

Theorem C68_refuted : forall C (OK : CurveOk C) (HG : bytes -> G1 C) (H : hasher C) (c_sig : codec ASignature) (pk : G2 C),
  bls_sizes C -> codec_ok canon_asig c_sig ->
  exists sig, forall msg, arVerify H c_sig (Some (Some (issuer_key HG pk 3))) sig msg [hidden_attr; hidden_attr; hidden_attr] 2 1 0 ExpectStandard None = Ok tt.
Proof.
  intros C OK HG H c_sig pk BS CS. destruct (@C35_refuted C OK HG c_sig BS CS 3 [] ExpectStandard) as (sig & F); [lia|constructor|intros i []|].
  exists sig. intro msg. apply (F H pk msg [hidden_attr; hidden_attr; hidden_attr] [] 1 2); [lia|lia|reflexivity|apply le_n].
Qed.

(** The values of disclosed attributes.  If an honest signature is accepted for attributes whose
    disclosed values (in order) are [vs], then [vs] has the same product of powers of the disclosed bases as
    the certified values - so if the values differ, a non-trivial relation between the issuer's bases is known -
    unless the challenge is 0. *)
Theorem C68_honest_values : forall C (OK : CurveOk C) (HG : bytes -> G1 C) (H : hasher C) (c_cred : codec ACredential) (c_sig : codec ASignature) (c_cri : codec ACRI)
    (pk : G2 C) (n : nat) (A : G1 C) (e s sk : Zr C) (vals : list (Zr C)) (attributes : list attribute) (eid rh : nat) (st : SignatureType) (msg criRaw credBytes : bytes)
    (meta : option (Metadata C)) (RNym : Zr C) (R : ASigRand C) (Nym : G1 C) (sig : bytes) (meta' : option (Metadata C)),
  bls_sizes C -> codec_ok canon_asig c_sig ->
  presentable HG H c_cred c_cri pk n A e s sk vals attributes eid rh st criRaw credBytes meta RNym R ->
  A ⊗ zmul (pr_r1 (rn_pok R)) e <> gen0 HG pk (n + 1) ⊗ pr_r2 (rn_pok R) ->
  let ipk := Some (Some (issuer_key HG pk n)) in
  arMakeNym 0 sk ipk RNym = Ok (Nym, RNym) ->
  arSign H c_cred c_sig c_cri credBytes sk Nym RNym ipk attributes msg (Z.of_nat rh) (Z.of_nat eid) criRaw st meta R = Ok (sig, meta') ->
  forall (msg' : bytes) (attributes' : list attribute) (rh' eid' : Z) (v : VerificationType) (m : option (Metadata C)) (vs : list (Zr C)),
    arVerify H c_sig ipk sig msg' attributes' rh' eid' 0 v m = Ok tt -> ver_smartcard v = is_smartcard st ->
    Forall2 (attr_states H) (disclosed attributes') vs ->
    (let shown := revealedAttributesIndex attributes in
     gdot (map (base_at HG pk n) shown) (map (fun i => nth i (sk :: vals) z0) shown) = gdot (map (base_at HG pk n) shown) vs) \/
    (exists d nonce, hashed H c_sig ipk sig msg' attributes' 0 v d nonce /\ H (zr_bytes C (H d) ++ nonce) = z0).
Proof.
  intros C OK HG H c_cred c_sig c_cri pk n A e s sk vals attributes eid rh st msg criRaw credBytes meta RNym R Nym sig meta' BS CS PR NA ipk MN S0 msg' attributes' rh' eid' v m vs V SC Fv.
  destruct (honest_accepted OK BS CS PR MN S0) as (V0 & SP). fold ipk in V0, SP.
  destruct PR as (Kn & Bn & Lv & Le & Lr & VV & Dc & Agr & _).
  pose proof V0 as V0'. pose proof V as V'. unfold arVerify in V0', V'. apply bind_ok in V0'. destruct V0' as [f1 [F1 S1]]. apply bind_ok in V'. destruct V' as [f2 [F2 S2]].
  destruct (SP _ _ _ _ _ F1) as (c & Esp & RI). destruct (@honest_shape C OK HG pk n A e s sk vals RNym attributes st R c) as (L & N). rewrite <- Esp in L, N.
  pose proof (same_challenge OK F1 F2 S1 S2 L (N NA)) as EC. destruct (first_same F1 F2) as (Es & _ & _).
  assert (SV : ver_smartcard v = ver_smartcard (own_type st)) by (rewrite SC; destruct st; reflexivity).
  destruct (zeqb (challenge2 H (vf_data f2) (as_nonce (vf_sig f2))) z0) eqn:Z0.
  { right. apply (sok_eqb (ok_zr OK)) in Z0. exists (vf_data f2), (as_nonce (vf_sig f2)). split; [exists f2; auto|exact Z0]. }
  assert (NZ : challenge2 H (vf_data f2) (as_nonce (vf_sig f2)) <> z0) by (intro Q; rewrite Q in Z0; rewrite (proj2 (sok_eqb (ok_zr OK) z0 z0) eq_refl) in Z0; discriminate).
  left. cbv zeta. rewrite EC in S1.
  assert (L2 : length (pf_resp (sp_vc2 (vf_sp f1))) = 2 + hidden_before (ver_smartcard (own_type st)) (vf_revealed f1) (n + 1)).
  { rewrite Esp, (@honest_resp2 C HG BS pk n) by exact Lv. f_equal. rewrite !hidden_before_eq. replace (ver_smartcard (own_type st)) with (is_smartcard st) by (destruct st; reflexivity).
    apply count_out_ext. intro j. destruct (is_smartcard st); cbn [In]; rewrite RI; tauto. }
  assert (I1 : increasing (revealedAttributesIndex attributes)) by apply (rv_inc attributes).
  assert (I2 : forall i, In i (revealedAttributesIndex attributes) -> i < n + 1) by (intros i Hi; exact (rv_lt BS Lv Agr Hi)).
  pose proof (@values_dot C OK HG H BS c_sig pk n sig msg msg' attributes attributes' (own_type st) v f1 f2 (Z.of_nat rh) rh' (Z.of_nat eid) eid' 0%Z 0%Z None m _ _
     SV F1 F2 S1 S2 L2 NZ I1 I2 RI) as G.
  destruct (first_inv F1) as (_ & _ & _ & _ & M1 & _). destruct (first_inv F2) as (_ & _ & _ & _ & M2 & _). cbv zeta in *.
  apply (messages0 BS) in M2. rewrite (@messages_states C HG H attributes' 1 (vf_ms f2) vs Fv M2) in G. etransitivity; [|exact G]. f_equal.
  destruct (@verifier_messages C HG H BS n sk vals attributes Lv Agr) as (ms & EM & PM & _). rewrite EM in M1. injection M1 as <-.
  etransitivity; [|symmetry; exact PM]. symmetry. unfold h_rv. rewrite (@pick_increasing _ z0 (sk :: vals) 0 _ I1).
  - apply map_ext. intro j. rewrite Nat.sub_0_r. reflexivity.
  - intros j Hj. cbn [length]. rewrite Lv. specialize (I2 j Hj). lia.
Qed.

(** The hypothesis on the draws holds for the signer of ToyAries.v, and with the toy hash function there are
    messages that collide: the signature of one is accepted for the other. *)
Definition verifies (st : SignatureType) (msg msg' : bytes) : bool :=
  is_ok (let* b := xa_sigb st msg in arVerify h32 xa_csig xa_key b msg' xa_attrs 2 1 0 (own_type st) None).
Example C68_example :
  bls_sizes toy32 /\ codec_ok canon_asig xa_csig /\
  (forall st, st <> OtherSig -> presentable hg32 h32 xa_ccred xa_ccri xa_pk 3 xa_A xa_e xa_s xa_sk xa_vals xa_attrs 1 2 st xa_crib xa_credb None xa_RNym xa_R) /\
  xa_A ⊗ zmul (pr_r1 (rn_pok xa_R)) xa_e <> gen0 hg32 xa_pk 4 ⊗ pr_r2 (rn_pok xa_R) /\
  map (fun st => verifies st (str "message") (str "messageJ")) [Standard; EidNym; EidNymRhNym; Smartcard; SmartcardNoNyms] = [true; true; true; true; true] /\
  map (fun st => verifies st (str "message") (str "other")) [Standard; EidNym; EidNymRhNym; Smartcard; SmartcardNoNyms] = [false; false; false; false; false] /\
  Forall2 (attr_states h32) (disclosed xa_attrs) [h32 (str "OU")].
Proof.
  split; [exact toy32_sizes|]. split; [exact xa_csig_ok|]. split; [exact xa_presentable|].
  split; [apply zp_ne; vm_compute; reflexivity|]. split; [vm_compute; reflexivity|]. split; [vm_compute; reflexivity|]. repeat constructor.
Qed.

(** ** C69: the acceptance matrix of the verification types *)
(** Whatever the signature bytes: what the type asks for is there (and decodes). *)
Theorem C69_fields : forall C (HG : bytes -> G1 C) (H : hasher C) (c_sig : codec ASignature) (pk : G2 C) (n : nat) (sig msg : bytes) (attributes : list attribute)
    (rh eid skIndex : Z) (v : VerificationType) (m : option (Metadata C)),
  arVerify H c_sig (Some (Some (issuer_key HG pk n))) sig msg attributes rh eid skIndex v m = Ok tt ->
  exists s, dec c_sig sig = Some s /\ g1_of_bytes C (as_nym s) <> None /\
    let eid_given := exists p nym, parseProofG1 C (as_eid_proof s) = Ok p /\ g1_of_bytes C (as_eid s) = Some nym in
    let rh_given := exists p nym, parseProofG1 C (as_rh_proof s) = Ok p /\ g1_of_bytes C (as_rh s) = Some nym in
    let nym_given := exists p, parseProofG1 C (as_nym_proof s) = Ok p in
    match v with
    | Basic | OtherVer => nym_given
    | BestEffort => nym_given /\ (as_eid s <> [] \/ as_rh s <> [] -> eid_given) /\ (as_rh s <> [] -> rh_given)
    | ExpectStandard => nym_given /\ as_eid s = [] /\ as_eid_proof s = [] /\ as_rh s = [] /\ as_rh_proof s = []
    | ExpectEidNym => nym_given /\ as_eid s <> [] /\ as_eid_proof s <> [] /\ eid_given
    | ExpectEidNymRhNym => nym_given /\ as_eid s <> [] /\ as_eid_proof s <> [] /\ eid_given /\ as_rh s <> [] /\ as_rh_proof s <> [] /\ rh_given
    | ExpectSmartcard => eid_given
    | ExpectSmartcardNoNyms => as_eid s = [] /\ as_eid_proof s = [] /\ as_rh s = [] /\ as_rh_proof s = []
    end.
Proof.
  intros C HG H c_sig pk n sig msg attributes rh eid skIndex v m E. unfold arVerify in E. apply bind_ok in E. destruct E as [f [F _]].
  destruct (first_inv F) as (D & _ & T & _ & _ & _ & _ & N & NP & Pe & Pr & _). cbv zeta in *.
  exists (vf_sig f). split; [exact D|]. split; [congruence|].
  assert (NN : forall b : bytes, nonempty b = true -> b <> []) by (intros [|x b] Q; [discriminate|congruence]).
  assert (NI : forall b : bytes, b <> [] -> nonempty b = true) by (intros [|x b] Q; [congruence|reflexivity]).
  assert (NE : forall b : bytes, negb (nonempty b) = true -> b = []) by (intros [|x b] Q; [reflexivity|discriminate]).
  assert (GE : ar_verifyEid v (vf_sig f) = true -> exists p nym, parseProofG1 C (as_eid_proof (vf_sig f)) = Ok p /\ g1_of_bytes C (as_eid (vf_sig f)) = Some nym).
  { intro Q. rewrite Q in Pe. destruct Pe as (p & _ & X & Y). exists (fst p), (snd p). auto. }
  assert (GR : ar_verifyRh v (vf_sig f) = true -> exists p nym, parseProofG1 C (as_rh_proof (vf_sig f)) = Ok p /\ g1_of_bytes C (as_rh (vf_sig f)) = Some nym).
  { intro Q. rewrite Q in Pr. destruct Pr as (p & _ & X & Y). exists (fst p), (snd p). auto. }
  assert (GN : ver_smartcard v = false -> exists p, parseProofG1 C (as_nym_proof (vf_sig f)) = Ok p).
  { intro Q. rewrite Q in NP. destruct NP as (p & _ & X). exists p. exact X. }
  clear NP Pe Pr. unfold ar_type_checks in T.
  destruct v; cbn [ar_verifyEid ar_verifyRh ver_smartcard] in GE, GR, GN; rewrite ?andb_true_iff in T.
  - exact (GN eq_refl).
  - split; [exact (GN eq_refl)|]. split; [intro Q; apply GE|intro Q; exact (GR (NI _ Q))]. destruct Q as [Q|Q]; rewrite (NI _ Q), ?orb_true_r; reflexivity.
  - destruct T as [[[T1 T2] T3] T4]. repeat (split; [first [exact (GN eq_refl)|apply NE; assumption]|]). apply NE; assumption.
  - destruct T as [T1 T2]. repeat (split; [first [exact (GN eq_refl)|apply NN; assumption]|]). exact (GE eq_refl).
  - destruct T as [[[T1 T2] T3] T4]. repeat (split; [first [exact (GN eq_refl)|apply NN; assumption|exact (GE eq_refl)]|]). exact (GR eq_refl).
  - exact (GE eq_refl).
  - destruct T as [[[T1 T2] T3] T4]. repeat (split; [apply NE; assumption|]). apply NE; assumption.
  - exact (GN eq_refl).
Qed.

(** What is checked of the pseudonyms: each one a verification type asks for, or that BestEffort finds, comes with a proof whose
    equation holds for the base of its attribute and whose answer is one of the answers about the credential. *)
Definition nym_checked C (HG : bytes -> G1 C) (pk : G2 C) (n k : nat) (proof comm : bytes) (pos : Z) (credential : ProofG1 C) (c : Zr C) : Prop :=
  exists p nym x j, parseProofG1 C proof = Ok p /\ g1_of_bytes C comm = Some nym /\
    gdot [gen0 HG pk (n + 1); base_at HG pk n k; nym] (pf_resp p ++ [c]) = pf_comm p /\
    nth_error (pf_resp p) 1 = Some x /\ pos = Z.of_nat j /\ nth_error (pf_resp credential) j = Some x.
Theorem C69_checked : forall C (OK : CurveOk C) (HG : bytes -> G1 C) (H : hasher C) (c_sig : codec ASignature) (pk : G2 C) (n : nat) (sig msg : bytes) (attributes : list attribute)
    (rh eid k : nat) (v : VerificationType) (m : option (Metadata C)),
  bls_sizes C -> eid < n -> rh < n -> k <= n ->
  arVerify H c_sig (Some (Some (issuer_key HG pk n))) sig msg attributes (Z.of_nat rh) (Z.of_nat eid) (Z.of_nat k) v m = Ok tt ->
  exists s credential c, dec c_sig sig = Some s /\
    let eid_checked := nym_checked HG pk n (beside k eid) (as_eid_proof s) (as_eid s) (as_eid_idx s) credential c in
    let rh_checked := nym_checked HG pk n (beside k rh) (as_rh_proof s) (as_rh s) (as_rh_idx s) credential c in
    let nym_is_checked := nym_checked HG pk n k (as_nym_proof s) (as_nym s) (Z.of_nat (2 + k)) credential c in
    (ver_smartcard v = false -> nym_is_checked) /\
    match v with
    | BestEffort => (as_eid s <> [] \/ as_rh s <> [] -> eid_checked) /\ (as_rh s <> [] -> rh_checked)
    | ExpectEidNym | ExpectSmartcard => eid_checked
    | ExpectEidNymRhNym => eid_checked /\ rh_checked
    | _ => True
    end.
Proof.
  intros C OK HG H c_sig pk n sig msg attributes rh eid k v m BS Le Lr Lk E. unfold arVerify in E. apply bind_ok in E. destruct E as [f [F E]].
  destruct (first_inv F) as (D & _ & _ & EK & _ & _ & _ & N & NP & Pe & Pr & _). cbv zeta in *.
  set (c := challenge2 H (vf_data f) (as_nonce (vf_sig f))) in *.
  pose proof (beside_le k Le) as Lse. pose proof (beside_le k Lr) as Lsr.
  apply (second_iff OK (HG := HG) BS _ _ _ Lk Lse Lsr (beside_past k eid) (beside_past k rh) EK) in E. destruct E as (_ & _ & A1 & A2 & A3 & _).
  exists (vf_sig f), (sp_vc2 (vf_sp f)), c. split; [exact D|]. rewrite EK in A1, A2, A3.
  assert (NI : forall b : bytes, b <> [] -> nonempty b = true) by (intros [|x b] Q; [congruence|reflexivity]).
  assert (GE : ar_verifyEid v (vf_sig f) = true -> nym_checked HG pk n (beside k eid) (as_eid_proof (vf_sig f)) (as_eid (vf_sig f)) (as_eid_idx (vf_sig f)) (sp_vc2 (vf_sp f)) c).
  { intro Q. rewrite Q in Pe. destruct Pe as (p & Ep & X & Y). specialize (A2 _ Ep). apply (verify_attr_nym_iff OK HG BS _ _ _ _ _ _ Lse) in A2.
    destruct A2 as (x & j & Q1 & Q2 & Q3 & Q4). exists (fst p), (snd p), x, j. auto 10. }
  assert (GR : ar_verifyRh v (vf_sig f) = true -> nym_checked HG pk n (beside k rh) (as_rh_proof (vf_sig f)) (as_rh (vf_sig f)) (as_rh_idx (vf_sig f)) (sp_vc2 (vf_sp f)) c).
  { intro Q. rewrite Q in Pr. destruct Pr as (p & Ep & X & Y). specialize (A3 _ Ep). apply (verify_attr_nym_iff OK HG BS _ _ _ _ _ _ Lsr) in A3.
    destruct A3 as (x & j & Q1 & Q2 & Q3 & Q4). exists (fst p), (snd p), x, j. auto 10. }
  split.
  - intro Q. rewrite Q in NP. destruct NP as (p & Ep & X). specialize (A1 _ Ep). apply (verify_attr_nym_iff OK HG BS _ _ _ _ _ _ Lk) in A1.
    destruct A1 as (x & j & Q1 & Q2 & Q3 & Q4). exists p, (vf_nym f), x, j. auto 10.
  - clear A1 A2 A3 NP Pe Pr. destruct v; try exact I; cbn [ar_verifyEid ar_verifyRh] in GE, GR.
    + split; intro Q; [apply GE|apply GR, NI, Q]. destruct Q as [Q|Q]; rewrite (NI _ Q), ?orb_true_r; reflexivity.
    + exact (GE eq_refl).
    + split; [exact (GE eq_refl)|exact (GR eq_refl)].
    + exact (GE eq_refl).
Qed.
Print Assumptions C69_checked.

(** An honest signature of type [st] is accepted (C34) by the verification types compatible with it, and by no
    other (a value that is not one of the declared verification types is treated as Basic, see C60), whatever the other arguments, unless the hash collides.  For the smartcard types the
    labels that separate them are only told apart if no encoded point begins with one of the letters
    with which one label continues another (true of the encodings of BLS12-381, whose first byte is at most 0x1a, or 0x40
    for the neutral element). *)
Theorem C69_honest_matrix : forall C (OK : CurveOk C) (HG : bytes -> G1 C) (H : hasher C) (c_cred : codec ACredential) (c_sig : codec ASignature) (c_cri : codec ACRI)
    (pk : G2 C) (n : nat) (A : G1 C) (e s sk : Zr C) (vals : list (Zr C)) (attributes : list attribute) (eid rh : nat) (st : SignatureType) (msg criRaw credBytes : bytes)
    (meta : option (Metadata C)) (RNym : Zr C) (R : ASigRand C) (Nym : G1 C) (sig : bytes) (meta' : option (Metadata C)),
  bls_sizes C -> codec_ok canon_asig c_sig ->
  presentable HG H c_cred c_cri pk n A e s sk vals attributes eid rh st criRaw credBytes meta RNym R ->
  A ⊗ zmul (pr_r1 (rn_pok R)) e <> gen0 HG pk (n + 1) ⊗ pr_r2 (rn_pok R) ->
  let ipk := Some (Some (issuer_key HG pk n)) in
  arMakeNym 0 sk ipk RNym = Ok (Nym, RNym) ->
  arSign H c_cred c_sig c_cri credBytes sk Nym RNym ipk attributes msg (Z.of_nat rh) (Z.of_nat eid) criRaw st meta R = Ok (sig, meta') ->
  forall (msg' : bytes) (attributes' : list attribute) (rh' eid' sk' : Z) (v : VerificationType) (m : option (Metadata C)),
    (is_smartcard st = true \/ ver_smartcard v = true -> forall (P : G1 C) b, hd_error (g1_bytes C P) = Some b -> b <> "W"%byte /\ b <> "R"%byte /\ b <> "N"%byte) ->
    arVerify H c_sig ipk sig msg' attributes' rh' eid' sk' v m = Ok tt ->
    aries_compatible st v = true \/ (st = Standard /\ v = OtherVer) \/ clash H c_sig ipk sig msg attributes 0 (own_type st) msg' attributes' sk' v.
Proof.
  intros C OK HG H c_cred c_sig c_cri pk n A e s sk vals attributes eid rh st msg criRaw credBytes meta RNym R Nym sig meta' BS CS PR NA ipk MN S0 msg' attributes' rh' eid' sk' v m U V.
  destruct (honest_accepted OK BS CS PR MN S0) as (V0 & SP). fold ipk in V0, SP.
  destruct (@same_transcript C OK HG H c_sig pk n sig msg msg' attributes attributes' (own_type st) v (Z.of_nat rh) rh' (Z.of_nat eid) eid' 0%Z sk' None m V0 V) as (f1 & f2 & F1 & F2 & D).
  { intros f F. destruct (SP _ _ _ _ _ F) as (c & -> & _). destruct (@honest_shape C OK HG pk n A e s sk vals RNym attributes st R c) as (L & N). split; [exact L|exact (N NA)]. }
  destruct D as [D|D].
  - enough (X : aries_compatible st v = true \/ (st = Standard /\ v = OtherVer)) by (destruct X as [X|X]; [left; exact X|right; left; exact X]).
    apply (@checked_compat st v (vf_sig f2)).
    assert (T1 : checked_type (own_type st) (vf_sig f1) = st) by (pose proof (proj1 PR) as Kn; clear - Kn; destruct st; (reflexivity || contradiction)). refine (eq_trans _ T1). symmetry.
    destruct (is_smartcard st || ver_smartcard v) eqn:SC.
    + apply orb_true_iff in SC. exact (types_separate OK (U SC) F1 F2 D).
    + apply orb_false_iff in SC. destruct SC as [SC1 SC2]. refine (types_separate_nosc OK _ SC2 F1 F2 D). destruct st; (reflexivity || discriminate).
  - right. right. exists (vf_data f1), (vf_data f2), (as_nonce (vf_sig f1)). destruct (first_same F1 F2) as (Es & _).
    split; [exists f1; auto|]. split; [exists f2; split; [exact F2|split; [reflexivity|congruence]]|exact D].
Qed.

Example C69_example :
  (forall (P : G1 toy32) b, hd_error (g1_bytes toy32 P) = Some b -> b <> "W"%byte /\ b <> "R"%byte /\ b <> "N"%byte) /\
  map (fun st => map (fun v => is_ok (let* b := xa_sigb st (str "message") in arVerify h32 xa_csig xa_key b (str "message") xa_attrs 2 1 0 v None))
      [Basic; BestEffort; ExpectStandard; ExpectEidNym; ExpectEidNymRhNym; ExpectSmartcard; ExpectSmartcardNoNyms])
    [Standard; EidNym; EidNymRhNym; Smartcard; SmartcardNoNyms]
  = [[true; true; true; false; false; false; false]; [false; true; false; true; false; false; false]; [false; true; false; false; true; false; false];
     [false; false; false; false; false; true; false]; [false; false; false; false; false; false; true]].
Proof.
  split; [|vm_compute; reflexivity]. intros P b E. change (Some (byte_of_Z (zv P)) = Some b) in E. injection E as <-.
  pose proof (byte_of_Z_to (zv P)) as T. pose proof (zv_bound P) as B. unfold tp in B. rewrite Z.mod_small in T by lia.
  split; [|split]; intro Q; rewrite Q in T; cbn in T; lia.
Qed.

Print Assumptions C13_aries_honoured.
Print Assumptions C13_aries_verifier.
Print Assumptions C68_honest_message.
Print Assumptions C68_message_partial.
Print Assumptions C68_refuted.
Print Assumptions C68_honest_values.
Print Assumptions C69_fields.
Print Assumptions C69_honest_matrix.
