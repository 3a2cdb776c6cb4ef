(** Properties of the dlog Idemix scheme (bccsp/schemes/dlog/crypto).

    Reading guide.  [C] is a pairing curve satisfying the laws [CurveOk] (Curve.v), [H] the hash
    into scalars, [T] a point translator that decodes what it encodes ([TrOk]).  The functions
    called in the statements are the Go entry points modelled in Dlog.v; the mathematical
    vocabulary ([bbs_valid], [opens], [collision] ...) is in Spec.v and DlogSpec.v.  After
    each theorem an [Example] instantiates its hypotheses on the toy curve. *)
From Verif Require Import Base Curve Algebra Spec Dlog DlogSpec DlogFacts DlogData DlogSound DlogComplete
  DlogSign DlogBind DlogAudit DlogHide DlogTop Toy Translator TranslatorFacts ToyDlog.
Unset Strict Implicit.
Local Open Scope zr_scope.

(** ** C01: issuance completeness *)
Theorem C01_issuance_complete (C : Curve) (OK : CurveOk C) (H : hasher C) (T : translator C) (TO : TrOk T)
    (marshal : IssuerPublicKey -> option bytes) (names : list bytes) (R : IssuerRand C)
    (sk rSk : Zr C) (nonce : bytes) (attrs : list (Zr C)) (E S : Zr C) :
  (forall k, exists b, marshal k = Some b) ->
  NoDup names ->
  ir_barg1 R <> z0 ->
  length nonce = scalar_size C ->
  length attrs = length names ->
  ir_isk R + E <> z0 ->
  exists key ipk req cred,
    newIssuerKey H T marshal names R = Ok key /\ ik_ipk key = Some ipk /\
    checkIPK H T marshal ipk = Ok ipk /\
    newCredRequest H T sk (Some nonce) ipk rSk = Ok req /\
    checkCredRequest H T req ipk = Ok tt /\
    newCredential H T key req attrs E S = Ok cred /\
    map (fun a => zr_of_bytes C (ob a)) (cr_attrs cred) = attrs /\
    verCredential T cred sk ipk = Ok tt.
Proof.
  intros Hm ND Hb Ln La Hnz.
  destruct (@newIssuerKey_ok C OK H T marshal names R ND Hm) as [key Ek].
  destruct (@newIssuerKey_inv C OK H T TO marshal names R key Ek) as (ipk & E1 & E2 & E3 & HB & Hc).
  destruct (@credRequest_ok C OK H T TO sk nonce ipk rSk _ HB ltac:(lia)) as (req & Q1 & Q2 & Q3 & _).
  destruct (@newCredential_ok C OK H T TO key ipk _ (ir_isk R) req sk attrs E S E1 E2 HB eq_refl Q2 Q3) as (cred & A & D1 & D2 & D3 & _).
  - congruence.
  - cbn [b_attrs]. rewrite map_length, seq_length. lia.
  - exact Hnz.
  - destruct D3 as (_ & _ & _ & D4). exists key, ipk, req, cred. auto 10.
Qed.
Print Assumptions C01_issuance_complete.

Example C01_example :
  (forall k, exists b, tmarshal k = Some b) /\ NoDup tnames /\ ir_barg1 tIR <> z0 /\
  length [Byte.x07] = scalar_size tC /\ length tattrs = length tnames /\ ir_isk tIR + f4 <> z0.
Proof.
  repeat split; try discriminate; try reflexivity.
  - intro k. eexists. reflexivity.
  - repeat constructor; cbn; intuition discriminate.
Qed.

(** ** C02: signature completeness.
    [compatible] lists the verification types that cover a signature type; [meta] is the caller's
    optional choice of the audit randomness ([meta_ok]: absent, or a correct opening); the
    verifier may pass the metadata returned by the signer. *)
Theorem C02_signature_complete (C : Curve) (OK : CurveOk C) (H : hasher C) (T : translator C) (TO : TrOk T)
    cred sk Nym RNym ipk (B : Bases C) disc msg (rh eid : nat) cri (R : SigRand C) st meta vals EP :
  ipk_bases T ipk B ->
  verCredential T cred sk ipk = Ok tt ->
  (forall A, g1_from_proto T (cr_a cred) = Ok A -> A <> gzero) ->
  length (cr_attrs cred) = length disc -> length (ip_names ipk) = length disc ->
  rh < length disc -> (exists i, rh <= i /\ hidden_at disc i) ->
  cri_alg cri = 0%Z -> g2_from_proto T (cri_epochpk cri) = Ok EP ->
  In st [Standard; EidNym; EidNymRhNym] ->
  (with_eid st = true -> hidden_at disc eid /\ meta_ok ipk B cred eid (opt_map (@md_eid_data C) meta)) ->
  (with_rh st = true -> hidden_at disc rh /\ meta_ok ipk B cred rh (opt_map (@md_rh_data C) meta)) ->
  rd_r1 R <> z0 ->
  opens (b_hsk B) (b_hrand B) Nym sk RNym ->
  agrees_on_disclosed disc vals (map (fun a => zr_of_bytes C (ob a)) (cr_attrs cred)) ->
  exists sig md,
    NewSignature H T (Some cred) (Some sk) (Some Nym) (Some RNym) (Some ipk) disc msg
      (Z.of_nat rh) (Z.of_nat eid) (Some cri) R st meta = Ok (sig, md) /\
    forall revpk (rev : revpk) epoch vt vmeta, compatible st vt = true -> vmeta = None \/ vmeta = md ->
      Ver H T sig disc (Some ipk) msg vals (Z.of_nat rh) (Z.of_nat eid) rev epoch vt vmeta = Ok tt.
Proof.
  intros HB HV HA L1 L2 Lr [i [Hi1 Hi2]] Ha HE Hst He Hr NZ Op Ag.
  edestruct (@sign_succeeds C OK H T cred sk Nym RNym ipk B disc msg rh eid cri R st meta) as (sig & md & S); try eassumption.
  - eapply searchInts_lt; eassumption.
  - exists sig, md. split; [exact S|]. intros. eapply (@sign_verifies C OK H T TO); eassumption.
Qed.
Print Assumptions C02_signature_complete.

Example C02_example : forall st, In st [Standard; EidNym; EidNymRhNym] ->
  ipk_bases tT tipk tB /\ verCredential tT tcred tsk tipk = Ok tt /\
  (forall A : G1 tC, g1_from_proto tT (cr_a tcred) = Ok A -> A <> gzero) /\
  length (cr_attrs tcred) = length tdisc /\ length (ip_names tipk) = length tdisc /\ (exists i, 3 <= i /\ hidden_at tdisc i) /\
  (exists EP : G2 tC, g2_from_proto tT (cri_epochpk tcri) = Ok EP) /\
  (with_eid st = true -> hidden_at tdisc 2 /\ meta_ok tipk tB tcred 2 None) /\
  (with_rh st = true -> hidden_at tdisc 3 /\ meta_ok tipk tB tcred 3 None) /\ rd_r1 (tR f25) <> z0 /\
  opens (b_hsk tB) (b_hrand tB) tnym tsk trnym /\
  agrees_on_disclosed tdisc tvals (map (fun a => zr_of_bytes tC (ob a)) (cr_attrs tcred)).
Proof.
  intros st _. split; [exact tipk_bases|]. split; [exact tcred_ok|].
  split. { intros A E. destruct tcred_means as [M _]. rewrite M in E. injection E as <-. discriminate. }
  split; [vm_compute; reflexivity|]. split; [vm_compute; reflexivity|].
  split; [exists 3; split; [lia|reflexivity]|].
  split; [exists f1; vm_compute; reflexivity|].
  split; [intros _; split; [reflexivity|left; reflexivity]|].
  split; [intros _; split; [reflexivity|left; reflexivity]|].
  split; [discriminate|]. split; [vm_compute; reflexivity|].
  destruct tcred_means as (_ & _ & _ & ->).
  intros i d Hi Hd. destruct i as [|[|[|[|i]]]]; cbn in Hi;
    first [injection Hi as <- | destruct i; discriminate Hi]; try (exfalso; apply Hd; reflexivity). exists f1. split; reflexivity.
Qed.

(** ** C03, C04, C05: special soundness.
    Two accepted signatures (under any two hash functions) with the same first message, that
    is the same hashed string, and different challenges: [extract] computes from their
    responses a credential valid under the issuer key whose disclosed attributes are the
    verifier's values; its secret key opens the pseudonym; the EidNym / RhNym commits to its
    attribute.  The credential is not the degenerate A = 1, unless the issuer bases satisfy the
    explicit discrete-log relation [cred_base .. = 1]. *)
Section Soundness.
  Context (C : Curve) (OK : CurveOk C) (H1 H2 : hasher C) (T : translator C).
  Variables (sig1 sig2 : Signature) (disc : bytes) (ipk : IssuerPublicKey) (msg : bytes) (vals : list (option (Zr C)))
    (rhI eidI : Z) (vt : VerificationType) (B : Bases C) (F1 F2 : VerFirst C)
    (rp1 rp2 : Type) (rev1 : rp1) (rev2 : rp2) (ep1 ep2 : Z) (meta1 meta2 : option (Metadata C)).

  (** the hypotheses shared by the three theorems *)
  Definition forked : Prop :=
    ipk_bases T ipk B /\
    Ver H1 T sig1 disc (Some ipk) msg vals rhI eidI rev1 ep1 vt meta1 = Ok tt /\
    Ver H2 T sig2 disc (Some ipk) msg vals rhI eidI rev2 ep2 vt meta2 = Ok tt /\
    Ver_first T sig1 disc ipk msg vals rhI eidI vt = Ok F1 /\
    Ver_first T sig2 disc ipk msg vals rhI eidI vt = Ok F2 /\
    vf_data F1 = vf_data F2 /\ vf_c F1 <> vf_c F2.

  Theorem C03_special_soundness : forked ->
    let w := extract T disc vals sig1 sig2 in
    bbs_valid B (w_A w) (w_e w) (w_s w) (w_sk w) (w_attrs w) /\
    length (w_attrs w) = length disc /\
    agrees_on_disclosed disc vals (w_attrs w) /\
    (w_A w <> gzero \/ cred_base B (w_s w) (w_sk w) (w_attrs w) = gzero).
  Proof.
    intros (HB & _ & _ & V1 & V2 & S & D) w.
    assert (V : bbs_valid B (w_A w) (w_e w) (w_s w) (w_sk w) (w_attrs w)) by exact (extract_bbs OK _ _ _ _ _ _ _ _ HB V1 V2 S D).
    split; [exact V|]. split; [exact (extract_attrs_len OK _ _ _ _ _ _ _ _ HB V1 V2 S)|].
    split; [exact (extract_agrees OK _ _ _ _ _ _ _ _ HB V1 V2 S)|exact (bbs_degenerate OK V)].
  Qed.

  Theorem C04_nym_same_secret : forked ->
    let w := extract T disc vals sig1 sig2 in
    bbs_valid B (w_A w) (w_e w) (w_s w) (w_sk w) (w_attrs w) /\
    exists Nym, g1_from_proto T (sg_nym sig1) = Ok Nym /\ g1_from_proto T (sg_nym sig2) = Ok Nym /\
      opens (b_hsk B) (b_hrand B) Nym (w_sk w) (w_rnym w).
  Proof.
    intros (HB & _ & _ & V1 & V2 & S & D) w. split; [exact (extract_bbs OK _ _ _ _ _ _ _ _ HB V1 V2 S D)|].
    destruct (two_facts OK _ _ _ _ _ _ _ _ HB V1 V2 S) as (a & b & c & n & O1 & O2 & _).
    exists n. split; [exact (fo_nym O1)|]. split; [exact (fo_nym O2)|].
    exact (extract_nym OK _ _ _ _ _ _ _ _ HB V1 V2 S D (fo_nym O1)).
  Qed.

  (** Full statement of C05: the conclusion without the hypotheses [hidden_at].  It is false of
      the code, see [C05_refuted]; proved under the condition that the enrollment-id
      (revocation-handle) attribute is not itself disclosed. *)
  Theorem C05_attr_nym_bound_partial (eid rh : nat) : forked ->
    let w := extract T disc vals sig1 sig2 in
    bbs_valid B (w_A w) (w_e w) (w_s w) (w_sk w) (w_attrs w) /\
    (verifyEIDNym vt sig1 = true -> eidI = Z.of_nat eid -> hidden_at disc eid ->
     exists an n Hj a, sg_eid sig1 = Some an /\ g1_from_proto T (an_nym an) = Ok n /\
       nth_error (b_attrs B) eid = Some Hj /\ nth_error (w_attrs w) eid = Some a /\
       opens Hj (b_hrand B) n a (w_reid w)) /\
    (verifyRHNym vt sig1 = true -> rhI = Z.of_nat rh -> hidden_at disc rh ->
     exists an n Hj a, sg_rh sig1 = Some an /\ g1_from_proto T (an_nym an) = Ok n /\
       nth_error (b_attrs B) rh = Some Hj /\ nth_error (w_attrs w) rh = Some a /\
       opens Hj (b_hrand B) n a (w_rrh w)).
  Proof.
    intros (HB & _ & _ & V1 & V2 & S & D) w. split; [exact (extract_bbs OK _ _ _ _ _ _ _ _ HB V1 V2 S D)|]. split; intros W E Hd.
    - destruct (eid_bound OK HB V1 V2 S D W E Hd) as (n & an & Hj & a & Q). exists an, n, Hj, a. exact Q.
    - destruct (rh_bound OK HB V1 V2 S D W E Hd) as (n & an & Hj & a & Q). exists an, n, Hj, a. exact Q.
  Qed.
End Soundness.
Print Assumptions C03_special_soundness.
Print Assumptions C04_nym_same_secret.
Print Assumptions C05_attr_nym_bound_partial.

(** Two runs of the signer that differ in the nonce only fork the proof. *)
Definition tsig_at (nonce : zp) : Signature :=
  fst (from_ok (tsig0, None) (NewSignature tH tT (Some tcred) (Some tsk) (Some tnym) (Some trnym) (Some tipk)
    tdisc tmsg 3 2 (Some tcri) (tR nonce) EidNymRhNym None)).
Definition tfirst (sig : Signature) : VerFirst tC :=
  from_ok {| vf_data := []; vf_c := f0 : Zr tC; vf_nonce := f0 : Zr tC; vf_hrand := f0 : G1 tC; vf_eid := None; vf_rh := None |}
    (Ver_first tT sig tdisc tipk tmsg tvals 3 2 ExpectEidNymRhNym).
Example C03_example :
  forked tH tH tT (tsig_at f25) (tsig_at f26) tdisc tipk tmsg tvals 3 2 ExpectEidNymRhNym tB (tfirst (tsig_at f25)) (tfirst (tsig_at f26))
    tt tt 5 5 None None /\
  verifyEIDNym ExpectEidNymRhNym (tsig_at f25) = true /\ verifyRHNym ExpectEidNymRhNym (tsig_at f25) = true /\
  hidden_at tdisc 2 /\ hidden_at tdisc 3.
Proof.
  split; [|repeat split; reflexivity]. split; [exact tipk_bases|].
  split; [vm_compute; reflexivity|]. split; [vm_compute; reflexivity|].
  split; [apply from_ok_eq; vm_compute; reflexivity|]. split; [apply from_ok_eq; vm_compute; reflexivity|].
  split; [vm_compute; reflexivity|]. vm_compute. discriminate.
Qed.

(** The full C05 fails when the enrollment id is disclosed: the verifier looks up the response
    of the next hidden attribute.  The holder of a credential whose enrollment id is [f8]
    (disclosed and checked) presents an EidNym that commits to [f9], the value of the revocation
    handle; ExpectEidNym verification accepts and an auditor confirms the wrong enrollment id.
    The forged presentation runs the signer's own [prepare] and [finalise] with the
    enrollment-id slot of the credential overwritten. *)
Definition fdisc : bytes := [Byte.x01; Byte.x00; Byte.x01; Byte.x00].
Definition fvals : list (option (Zr tC)) := [Some (f1 : Zr tC); None; Some (f8 : Zr tC); None].
Definition fcred : Credential :=
  {| cr_a := cr_a tcred; cr_b := cr_b tcred; cr_e := cr_e tcred; cr_s := cr_s tcred;
     cr_attrs := [nth 0 (cr_attrs tcred) None; nth 1 (cr_attrs tcred) None; nth 3 (cr_attrs tcred) None; nth 3 (cr_attrs tcred) None] |}.
Definition forged_eid : Signature :=
  fst (from_ok (tsig0, None) (
    let* P := prepare tT tcred tsk tipk fdisc 3 tcri (tR f25) in
    finalise tH tT fcred tsk tnym trnym tipk fdisc tmsg 3 2 tcri P (tR f25) true false None)).

Theorem C05_refuted :
  exists (C : Curve) (_ : CurveOk C) (H : hasher C) (T : translator C) (_ : TrOk T) cred sk ipk sig disc msg vals
    (eid rh : nat) (v v' r : Zr C),
    verCredential T cred sk ipk = Ok tt /\
    nth_error (map (fun a => zr_of_bytes C (ob a)) (cr_attrs cred)) eid = Some v /\
    nth_error vals eid = Some (Some v) /\ nth_error disc eid = Some Byte.x01 /\
    Ver H T sig disc (Some ipk) msg vals (Z.of_nat rh) (Z.of_nat eid) tt 0 ExpectEidNym None = Ok tt /\
    v <> v' /\
    auditNymEid T sig (Some ipk) v' (Z.of_nat eid) r = Ok tt /\
    auditNymEid T sig (Some ipk) v (Z.of_nat eid) r = Err.
Proof.
  exists tC, tOK, tH, tT, tTO, tcred, tsk, tipk, forged_eid, fdisc, tmsg, fvals, 2, 3, f8, f9, f14.
  split; [exact tcred_ok|]. split; [reflexivity|]. split; [reflexivity|]. split; [reflexivity|].
  split; [vm_compute; reflexivity|]. split; [discriminate|]. split; vm_compute; reflexivity.
Qed.
Print Assumptions C05_refuted.

(** ** C06: perfect unlinkability.
    [f] and [g] are mutually inverse on the random draws with r1 <> 0: hence for uniform draws the
    two users' presentations (pseudonym and signature) have the same distribution. *)
Theorem C06_unlinkable (C : Curve) (OK : CurveOk C) (H : hasher C) (T : translator C)
    ipk (B : Bases C) disc msg (rh eid : nat) cri st cred1 sk1 A1 e1 s1 attrs1 cred2 sk2 A2 e2 s2 attrs2 :
  ipk_bases T ipk B -> b_hrand B <> gzero ->
  length (ip_names ipk) = length disc -> rh < length disc -> (exists i, rh <= i /\ hidden_at disc i) ->
  cri_alg cri = 0%Z -> In st [Standard; EidNym; EidNymRhNym] ->
  (with_eid st = true -> hidden_at disc eid) -> (with_rh st = true -> hidden_at disc rh) ->
  verCredential T cred1 sk1 ipk = Ok tt -> cred_means T cred1 A1 e1 s1 attrs1 -> A1 <> gzero -> length attrs1 = length disc ->
  verCredential T cred2 sk2 ipk = Ok tt -> cred_means T cred2 A2 e2 s2 attrs2 -> A2 <> gzero -> length attrs2 = length disc ->
  (forall i b, nth_error disc i = Some b -> b <> b0 -> nth_error attrs1 i = nth_error attrs2 i) ->
  exists f g : Zr C * SigRand C -> Zr C * SigRand C,
    (forall x, rd_r1 (snd x) <> z0 -> rd_r1 (snd (f x)) <> z0 /\ draws_eq (g (f x)) x /\
       exists sig, present H T cred1 sk1 ipk disc msg (Z.of_nat rh) (Z.of_nat eid) cri st x = Ok sig /\
                   present H T cred2 sk2 ipk disc msg (Z.of_nat rh) (Z.of_nat eid) cri st (f x) = Ok sig) /\
    (forall y, rd_r1 (snd y) <> z0 -> rd_r1 (snd (g y)) <> z0 /\ draws_eq (f (g y)) y /\
       exists sig, present H T cred2 sk2 ipk disc msg (Z.of_nat rh) (Z.of_nat eid) cri st y = Ok sig /\
                   present H T cred1 sk1 ipk disc msg (Z.of_nat rh) (Z.of_nat eid) cri st (g y) = Ok sig).
Proof.
  intros HB Hr Ln Lr [i [Hi1 Hi2]] Ha Hst He Hrh V1 M1 N1 L1 V2 M2 N2 L2 Ag.
  eapply (@unlinkable C OK H T ipk B disc msg rh eid cri st cred1 sk1 A1 e1 s1 attrs1 cred2 sk2 A2 e2 s2 attrs2); try eassumption.
  - eapply searchInts_lt; eassumption.
  - destruct M1 as (_ & _ & _ & <-). rewrite map_length in L1. exact L1.
  - destruct M2 as (_ & _ & _ & <-). rewrite map_length in L2. exact L2.
Qed.
Print Assumptions C06_unlinkable.

Example C06_example :
  ipk_bases tT tipk tB /\ b_hrand tB <> gzero /\ length (ip_names tipk) = length tdisc /\
  (exists i, 3 <= i /\ hidden_at tdisc i) /\ hidden_at tdisc 2 /\ hidden_at tdisc 3 /\
  verCredential tT tcred tsk tipk = Ok tt /\ (exists A e s, cred_means tT tcred A e s tattrs /\ A <> gzero) /\
  verCredential tT tcred2 tsk2 tipk = Ok tt /\ (exists A e s, cred_means tT tcred2 A e s tattrs2 /\ A <> gzero) /\
  (forall i b, nth_error tdisc i = Some b -> b <> b0 -> nth_error tattrs i = nth_error tattrs2 i) /\ tattrs <> tattrs2.
Proof.
  split; [exact tipk_bases|]. split; [discriminate|]. split; [reflexivity|].
  split; [exists 3; split; [lia|reflexivity]|]. split; [reflexivity|]. split; [reflexivity|].
  split; [exact tcred_ok|].
  split; [exists f7, f4, f6; split; [exact tcred_means|discriminate]|].
  split; [exact tcred2_ok|].
  split; [do 3 eexists; split; [vm_compute; repeat split; reflexivity|discriminate]|].
  split; [|discriminate].
  intros i b Hi Hb. destruct i as [|[|[|[|i]]]]; cbn in Hi;
    first [injection Hi as <- | destruct i; discriminate Hi]; try (exfalso; apply Hb; reflexivity). reflexivity.
Qed.

(** ** C07: pseudonyms hide the user secret (and so do pseudonym signatures) *)
Theorem C07_nym_hiding (C : Curve) (OK : CurveOk C) (T : translator C) ipk (HSk HRand : G1 C) (sk1 sk2 : Zr C) :
  g1_from_proto T (ip_hsk ipk) = Ok HSk -> g1_from_proto T (ip_hrand ipk) = Ok HRand -> HRand <> gzero ->
  exists d : Zr C, forall r : Zr C, exists N,
    makeNym T sk1 ipk r = Ok (N, r) /\ makeNym T sk2 ipk (r + d) = Ok (N, r + d).
Proof. exact (@nym_hiding C OK T ipk HSk HRand sk1 sk2). Qed.
Print Assumptions C07_nym_hiding.

Theorem C07_nym_signature_hiding (C : Curve) (OK : CurveOk C) (H : hasher C) (T : translator C) ipk (HSk HRand : G1 C)
    (sk1 sk2 : Zr C) msg :
  g1_from_proto T (ip_hsk ipk) = Ok HSk -> g1_from_proto T (ip_hrand ipk) = Ok HRand -> HRand <> gzero ->
  exists d : Zr C, forall r nonce rSk rRNym : Zr C, exists N sig c,
    makeNym T sk1 ipk r = Ok (N, r) /\ makeNym T sk2 ipk (r + d) = Ok (N, r + d) /\
    newNymSignature H T (Some sk1) (Some N) (Some r) (Some ipk) msg nonce rSk rRNym = Ok sig /\
    newNymSignature H T (Some sk2) (Some N) (Some (r + d)) (Some ipk) msg nonce
      (rSk + c * (sk1 - sk2)) (rRNym - c * d) = Ok sig.
Proof. exact (@nymsig_hiding C OK H T ipk HSk HRand sk1 sk2 msg). Qed.
Print Assumptions C07_nym_signature_hiding.

Example C07_example : g1_from_proto tT (ip_hsk tipk) = Ok (f19 : G1 tC) /\ g1_from_proto tT (ip_hrand tipk) = Ok (f23 : G1 tC) /\
  (f23 : G1 tC) <> gzero /\ tsk <> tsk2.
Proof. split; [vm_compute; reflexivity|]. split; [vm_compute; reflexivity|]. split; discriminate. Qed.

(** ** C08: commitments are binding.
    The discrete logarithm of the attribute base to the base HRand is computed from the openings. *)
Theorem C08_nym_binding (C : Curve) (OK : CurveOk C) (g h c : G1 C) (m r m' r' : Zr C) :
  opens g h c m r -> opens g h c m' r' -> m <> m' -> g = h ⊗ ((r' - r) * zinv (m - m')).
Proof. intros O1 O2 N. destruct (opens_binding OK O1 O2); [contradiction|assumption]. Qed.
Print Assumptions C08_nym_binding.

Theorem C08_audit_binding (C : Curve) (OK : CurveOk C) (T : translator C) sig ipk (B : Bases C) (j : nat) Hj (a r a' r' : Zr C) :
  ipk_bases T ipk B -> nth_error (b_attrs B) j = Some Hj -> a <> a' ->
  (auditNymEid T sig (Some ipk) a (Z.of_nat j) r = Ok tt -> auditNymEid T sig (Some ipk) a' (Z.of_nat j) r' = Ok tt ->
   Hj = b_hrand B ⊗ ((r' - r) * zinv (a - a'))) /\
  (auditNymRh T sig (Some ipk) a (Z.of_nat j) r = Ok tt -> auditNymRh T sig (Some ipk) a' (Z.of_nat j) r' = Ok tt ->
   Hj = b_hrand B ⊗ ((r' - r) * zinv (a - a'))).
Proof.
  intros HB N D. split; intros E1 E2;
    apply (auditNym_iff OK _ _ _ _ HB N) in E1; apply (auditNym_iff OK _ _ _ _ HB N) in E2;
    destruct E1 as (an & n & P1 & _ & P2 & P3); destruct E2 as (an' & n' & Q1 & _ & Q2 & Q3);
    rewrite P1 in Q1; injection Q1 as <-; rewrite P2 in Q2; injection Q2 as <-;
    exact (C08_nym_binding OK P3 Q3 D).
Qed.
Print Assumptions C08_audit_binding.

Example C08_example :
  nth_error (b_attrs tB) 2 = Some (f13 : G1 tC) /\ (f8 : Zr tC) <> f9 /\
  (exists r r' : Zr tC, auditNymEid tT (fst (tsign EidNym)) (Some tipk) f8 2 r = Ok tt /\
     auditNymEid tT (fst (tsign EidNym)) (Some tipk) f9 2 r' = Ok tt) /\
  exists r r' : Zr tC, auditNymRh tT (fst (tsign EidNymRhNym)) (Some tipk) f8 3 r = Ok tt /\
     auditNymRh tT (fst (tsign EidNymRhNym)) (Some tipk) f9 3 r' = Ok tt.
Proof.
  split; [reflexivity|]. split; [discriminate|]. split.
  - exists f14, f4. split; vm_compute; reflexivity.
  - exists f10, f16. split; vm_compute; reflexivity.
Qed.

(** ** C09, C10: an accepted signature is bound to message, disclosure vector and issuer key.
    If one signature is accepted in two contexts, then the two strings that verification hashes
    are a collision ([transcripts_collide]: of the hash on the strings, or in the second hash). *)
Theorem C09_message_bound (C : Curve) (OK : CurveOk C) (H : hasher C) (T : translator C) sig disc ipk msg1 msg2
    vals1 vals2 rhI1 rhI2 eidI1 eidI2 rp (rev1 rev2 : rp) ep1 ep2 vt meta1 meta2 :
  Ver H T sig disc (Some ipk) msg1 vals1 rhI1 eidI1 rev1 ep1 vt meta1 = Ok tt ->
  Ver H T sig disc (Some ipk) msg2 vals2 rhI2 eidI2 rev2 ep2 vt meta2 = Ok tt ->
  msg1 <> msg2 ->
  exists F1 F2, Ver_first T sig disc ipk msg1 vals1 rhI1 eidI1 vt = Ok F1 /\
    Ver_first T sig disc ipk msg2 vals2 rhI2 eidI2 vt = Ok F2 /\
    transcripts_collide H (vf_data F1) (vf_data F2) (zr_of_bytes C (sg_nonce sig)).
Proof.
  intros V1 V2 D. destruct (Ver_bases V1) as (B & F1 & HB & E1). destruct (Ver_bases V2) as (B2 & F2 & _ & E2).
  exists F1, F2. split; [exact E1|]. split; [exact E2|].
  refine (sig_context OK HB HB V1 V2 E1 E2 eq_refl eq_refl eq_refl _). intro E. injection E. exact D.
Qed.
Print Assumptions C09_message_bound.

(** with the toy hash, which is not collision resistant, the hypotheses are met *)
Example C09_example :
  let sig := fst (tsign EidNym) in
  Ver tH tT sig tdisc (Some tipk) tmsg tvals 3 2 tt 5 ExpectEidNym None = Ok tt /\
  Ver tH tT sig tdisc (Some tipk) [Byte.x00; Byte.x01] tvals 3 2 tt 5 ExpectEidNym None = Ok tt /\
  tmsg <> [Byte.x00; Byte.x01].
Proof. split; [vm_compute; reflexivity|]. split; [vm_compute; reflexivity|]. discriminate. Qed.

Theorem C10_disclosure_bound (C : Curve) (OK : CurveOk C) (H : hasher C) (T : translator C) sig disc1 disc2 ipk1 ipk2 msg1 msg2
    vals1 vals2 rhI1 rhI2 eidI1 eidI2 rp (rev1 rev2 : rp) ep1 ep2 vt meta1 meta2 :
  Ver H T sig disc1 (Some ipk1) msg1 vals1 rhI1 eidI1 rev1 ep1 vt meta1 = Ok tt ->
  Ver H T sig disc2 (Some ipk2) msg2 vals2 rhI2 eidI2 rev2 ep2 vt meta2 = Ok tt ->
  length disc1 = length disc2 ->
  length (ip_hash ipk1) = scalar_size C -> length (ip_hash ipk2) = scalar_size C ->
  disc1 <> disc2 \/ ip_hash ipk1 <> ip_hash ipk2 ->
  exists F1 F2, Ver_first T sig disc1 ipk1 msg1 vals1 rhI1 eidI1 vt = Ok F1 /\
    Ver_first T sig disc2 ipk2 msg2 vals2 rhI2 eidI2 vt = Ok F2 /\
    transcripts_collide H (vf_data F1) (vf_data F2) (zr_of_bytes C (sg_nonce sig)).
Proof.
  intros V1 V2 L L1 L2 D. destruct (Ver_bases V1) as (B & F1 & HB & E1). destruct (Ver_bases V2) as (B2 & F2 & HB2 & E2).
  exists F1, F2. split; [exact E1|]. split; [exact E2|].
  refine (sig_context OK HB HB2 V1 V2 E1 E2 L eq_refl eq_refl _). intro E. injection E as E3 E4 _.
  rewrite <- L1 in E3 at 1. rewrite <- L2 in E3. rewrite !fit_exact in E3 by reflexivity. destruct D as [D|D]; congruence.
Qed.
Print Assumptions C10_disclosure_bound.

(** ... and to the disclosed values: two value vectors accepted for one signature give a
    collision or a non-trivial representation of the neutral element in the issuer's bases. *)
Theorem C10_values_bound (C : Curve) (OK : CurveOk C) (H : hasher C) (T : translator C) sig disc ipk (B : Bases C) msg
    vals1 vals2 rhI eidI rp (rev1 rev2 : rp) ep1 ep2 vt meta1 meta2 :
  ipk_bases T ipk B ->
  Ver H T sig disc (Some ipk) msg vals1 rhI eidI rev1 ep1 vt meta1 = Ok tt ->
  Ver H T sig disc (Some ipk) msg vals2 rhI eidI rev2 ep2 vt meta2 = Ok tt ->
  zr_of_bytes C (sg_c sig) <> z0 ->
  gdot (b_attrs B) (value_diff disc vals1 vals2) = gzero \/
  exists F1 F2, Ver_first T sig disc ipk msg vals1 rhI eidI vt = Ok F1 /\
    Ver_first T sig disc ipk msg vals2 rhI eidI vt = Ok F2 /\
    transcripts_collide H (vf_data F1) (vf_data F2) (zr_of_bytes C (sg_nonce sig)).
Proof.
  intros HB V1 V2 NZ. destruct (Ver_bases V1) as (_ & F1 & _ & E1). destruct (Ver_bases V2) as (_ & F2 & _ & E2).
  destruct (sig_values OK HB V1 V2 E1 E2) as [X|[X|X]]; [right; exists F1, F2; auto|contradiction|left; exact X].
Qed.
Print Assumptions C10_values_bound.

Example C10_example :
  let sig := fst (tsign EidNym) in
  let disc2 := [Byte.x20; Byte.x00; Byte.x00; Byte.x00] in
  Ver tH tT sig tdisc (Some tipk) tmsg tvals 3 2 tt 5 ExpectEidNym None = Ok tt /\
  Ver tH tT sig disc2 (Some tipk) tmsg tvals 3 2 tt 5 ExpectEidNym None = Ok tt /\
  length tdisc = length disc2 /\ tdisc <> disc2 /\ length (ip_hash tipk) = scalar_size tC /\
  zr_of_bytes tC (sg_c sig) <> z0.
Proof.
  split; [vm_compute; reflexivity|]. split; [vm_compute; reflexivity|]. split; [reflexivity|].
  split; [discriminate|]. split; [vm_compute; reflexivity|]. vm_compute. discriminate.
Qed.

(** ** C11: the acceptance matrix *)
Theorem C11_type_matrix (C : Curve) (H : hasher C) (T : translator C) sig disc ipk msg vals rhI eidI rp (rev : rp) ep vt meta :
  Ver H T sig disc ipk msg vals rhI eidI rev ep vt meta = Ok tt ->
  match vt with
  | ExpectStandard => sg_eid sig = None /\ sg_rh sig = None
  | ExpectEidNym => exists n s, sg_eid sig = Some {| an_nym := Some n; an_s := Some s |}
  | ExpectEidNymRhNym =>
      (exists n s, sg_eid sig = Some {| an_nym := Some n; an_s := Some s |}) /\
      (exists n s, sg_rh sig = Some {| an_nym := Some n; an_s := Some s |})
  | _ => True
  end.
Proof. exact (@Ver_matrix C T H sig disc ipk msg vals rhI eidI rp rev ep vt meta). Qed.
Print Assumptions C11_type_matrix.

(** BestEffort verifies every nym that is present: the hashed string then contains the nym and
    the recomputed commitment to the hidden attribute response. *)
Theorem C11_best_effort (C : Curve) (OK : CurveOk C) (T : translator C) sig disc ipk msg vals rhI eidI F :
  Ver_first T sig disc ipk msg vals rhI eidI BestEffort = Ok F ->
  (sg_eid sig <> None -> exists an n t, sg_eid sig = Some an /\ g1_from_proto T (an_nym an) = Ok n /\ vf_eid F = Some (n, t)) /\
  (sg_rh sig <> None -> vf_eid F <> None /\
     exists an n t, sg_rh sig = Some an /\ g1_from_proto T (an_nym an) = Ok n /\ vf_rh F = Some (n, t)).
Proof. exact (@best_effort_nyms C OK T sig disc ipk msg vals rhI eidI F). Qed.
Print Assumptions C11_best_effort.

(** the types that ask for a nym verify it *)
Theorem C11_expected (C : Curve) (OK : CurveOk C) (T : translator C) sig disc ipk msg vals rhI eidI vt F :
  Ver_first T sig disc ipk msg vals rhI eidI vt = Ok F ->
  (vt = ExpectEidNym \/ vt = ExpectEidNymRhNym -> exists an n t, sg_eid sig = Some an /\ g1_from_proto T (an_nym an) = Ok n /\ vf_eid F = Some (n, t)) /\
  (vt = ExpectEidNymRhNym -> exists an n t, sg_rh sig = Some an /\ g1_from_proto T (an_nym an) = Ok n /\ vf_rh F = Some (n, t)).
Proof. exact (@expected_nyms C OK T sig disc ipk msg vals rhI eidI vt F). Qed.
Print Assumptions C11_expected.

(** one signature cannot be accepted both with and without a nym being verified, except by a collision *)
Theorem C11_types_separated (C : Curve) (OK : CurveOk C) (H : hasher C) (T : translator C) sig disc ipk msg
    vals1 vals2 rhI1 rhI2 eidI1 eidI2 rp (rev1 rev2 : rp) ep1 ep2 vt1 vt2 meta1 meta2 :
  Ver H T sig disc (Some ipk) msg vals1 rhI1 eidI1 rev1 ep1 vt1 meta1 = Ok tt ->
  Ver H T sig disc (Some ipk) msg vals2 rhI2 eidI2 rev2 ep2 vt2 meta2 = Ok tt ->
  (verifyEIDNym vt1 sig, verifyRHNym vt1 sig) <> (verifyEIDNym vt2 sig, verifyRHNym vt2 sig) ->
  exists F1 F2, Ver_first T sig disc ipk msg vals1 rhI1 eidI1 vt1 = Ok F1 /\
    Ver_first T sig disc ipk msg vals2 rhI2 eidI2 vt2 = Ok F2 /\
    transcripts_collide H (vf_data F1) (vf_data F2) (zr_of_bytes C (sg_nonce sig)).
Proof.
  intros V1 V2 D. destruct (Ver_bases V1) as (B & F1 & HB & E1). destruct (Ver_bases V2) as (_ & F2 & _ & E2).
  exists F1, F2. split; [exact E1|]. split; [exact E2|]. exact (sig_two_types OK HB V1 V2 E1 E2 D).
Qed.
Print Assumptions C11_types_separated.

Example C11_example :
  tver tH (fst (tsign Standard)) ExpectStandard None = Ok tt /\ tver tH (fst (tsign EidNym)) ExpectEidNym None = Ok tt /\
  tver tH (fst (tsign EidNymRhNym)) ExpectEidNymRhNym None = Ok tt /\ tver tH (fst (tsign EidNymRhNym)) BestEffort None = Ok tt /\
  sg_eid (fst (tsign EidNymRhNym)) <> None /\ sg_rh (fst (tsign EidNymRhNym)) <> None /\
  (verifyEIDNym Basic (fst (tsign EidNym)), verifyRHNym Basic (fst (tsign EidNym)))
    <> (verifyEIDNym ExpectEidNym (fst (tsign EidNym)), verifyRHNym ExpectEidNym (fst (tsign EidNym))).
Proof.
  do 4 (split; [vm_compute; reflexivity|]). split; [vm_compute; discriminate|]. split; [vm_compute; discriminate|discriminate].
Qed.

(** ** C60: unsupported verification types never accept.  False of the code: the smartcard types, which the
    dlog scheme does not implement, are accepted and behave as Basic. *)
Theorem C60_refuted :
  (exists (C : Curve) (_ : CurveOk C) (H : hasher C) (T : translator C) sig disc ipk msg vals rhI eidI,
     Ver H T sig disc (Some ipk) msg vals rhI eidI tt 0 ExpectSmartcard None = Ok tt) /\
  forall (C : Curve) (H : hasher C) (T : translator C) sig disc ipk msg vals rhI eidI rp (rev : rp) ep meta,
    Ver H T sig disc ipk msg vals rhI eidI rev ep ExpectSmartcard meta =
    Ver H T sig disc ipk msg vals rhI eidI rev ep Basic meta.
Proof.
  split.
  - exists tC, tOK, tH, tT, (fst (tsign Standard)), tdisc, tipk, tmsg, tvals, 3%Z, 2%Z. vm_compute. reflexivity.
  - intros. apply smartcard_is_basic.
Qed.
Print Assumptions C60_refuted.

(** ** C12: audit completeness *)
Theorem C12_audit_complete (C : Curve) (OK : CurveOk C) (H : hasher C) (T : translator C) (TO : TrOk T)
    cred sk Nym RNym ipk (B : Bases C) disc msg rhI eidI cri (R : SigRand C) st meta sig md :
  ipk_bases T ipk B -> Forall (fun h => h <> gzero) (b_attrs B) ->
  NewSignature H T (Some cred) (Some sk) (Some Nym) (Some RNym) (Some ipk) disc msg rhI eidI (Some cri) R st meta = Ok (sig, md) ->
  let attr i := option_map (fun a => zr_of_bytes C (ob a)) (nth_error (cr_attrs cred) (Z.to_nat i)) in
  (with_eid st = true -> exists m n r a,
     md = Some m /\ md_eid_data m = Some {| au_nym := Some n; au_rand := Some r; au_attr := Some a |} /\
     attr eidI = Some a /\
     forall a', (auditNymEid T sig (Some ipk) a' eidI r = Ok tt <-> a' = a) /\
                (auditRawNym T (g1_bytes C n) (Some ipk) a' eidI r = Ok tt <-> a' = a)) /\
  (with_rh st = true -> exists m n r a,
     md = Some m /\ md_rh_data m = Some {| au_nym := Some n; au_rand := Some r; au_attr := Some a |} /\
     attr rhI = Some a /\
     forall a', (auditNymRh T sig (Some ipk) a' rhI r = Ok tt <-> a' = a) /\
                (auditRawNym T (g1_bytes C n) (Some ipk) a' rhI r = Ok tt <-> a' = a)).
Proof. exact (@audit_complete C OK T TO H cred sk Nym RNym ipk B disc msg rhI eidI cri R st meta sig md). Qed.
Print Assumptions C12_audit_complete.

Example C12_example : ipk_bases tT tipk tB /\ Forall (fun h => h <> gzero) (b_attrs tB) /\
  is_ok (NewSignature tH tT (Some tcred) (Some tsk) (Some tnym) (Some trnym) (Some tipk) tdisc tmsg 3 2 (Some tcri) (tR f25) EidNymRhNym None) = true.
Proof. split; [exact tipk_bases|]. split; [repeat constructor; discriminate|]. vm_compute. reflexivity. Qed.

(** ** C13: caller-supplied audit metadata is honoured or rejected *)
Theorem C13_metadata_honoured (C : Curve) (OK : CurveOk C) (H : hasher C) (T : translator C) (TO : TrOk T)
    cred sk Nym RNym ipk (B : Bases C) disc msg rhI eidI cri (R : SigRand C) st m sig md :
  ipk_bases T ipk B ->
  NewSignature H T (Some cred) (Some sk) (Some Nym) (Some RNym) (Some ipk) disc msg rhI eidI (Some cri) R st (Some m) = Ok (sig, md) ->
  (with_eid st = true -> exists j Hj ab n r, eidI = Z.of_nat j /\
     nth_error (b_attrs B) j = Some Hj /\ nth_error (cr_attrs cred) j = Some ab /\
     md_eid_data m = Some {| au_nym := Some n; au_rand := Some r; au_attr := Some (zr_of_bytes C (ob ab)) |} /\
     opens Hj (b_hrand B) n (zr_of_bytes C (ob ab)) r /\
     option_map an_nym (sg_eid sig) = Some (Some (g1_to_proto T n)) /\
     option_map (@md_eid_data C) md = Some (md_eid_data m)) /\
  (with_rh st = true -> exists j Hj ab n r, rhI = Z.of_nat j /\
     nth_error (b_attrs B) j = Some Hj /\ nth_error (cr_attrs cred) j = Some ab /\
     md_rh_data m = Some {| au_nym := Some n; au_rand := Some r; au_attr := Some (zr_of_bytes C (ob ab)) |} /\
     opens Hj (b_hrand B) n (zr_of_bytes C (ob ab)) r /\
     option_map an_nym (sg_rh sig) = Some (Some (g1_to_proto T n)) /\
     option_map (@md_rh_data C) md = Some (md_rh_data m)).
Proof.
  intros HB E. destruct (sign_attr_nym OK TO HB E) as [P1 P2]. cbn [opt_map] in P1, P2. split; intro W.
  - destruct (P1 W) as (j & Hj & ab & n & r & Q1 & Q2 & Q3 & Q4 & Q5 & Q6 & Q7).
    exists j, Hj, ab, n, r. rewrite Q7, Q6. auto 10.
  - destruct (P2 W) as (j & Hj & ab & n & r & Q1 & Q2 & Q3 & Q4 & Q5 & Q6 & Q7).
    exists j, Hj, ab, n, r. rewrite Q7, Q6. auto 10.
Qed.
Print Assumptions C13_metadata_honoured.

(** verification with metadata: what the verifier is given must open the nym in the signature *)
Theorem C13_verifier_metadata (C : Curve) (OK : CurveOk C) (H : hasher C) (T : translator C) sig disc ipk (B : Bases C) msg vals
    (rh eid : nat) rp (rev : rp) ep vt m :
  ipk_bases T ipk B ->
  Ver H T sig disc (Some ipk) msg vals (Z.of_nat rh) (Z.of_nat eid) rev ep vt (Some m) = Ok tt ->
  (verifyEIDNym vt sig = true -> exists an n, sg_eid sig = Some an /\ g1_from_proto T (an_nym an) = Ok n /\
     (forall d, md_eid_data m = Some d -> exists Hj a r, nth_error (b_attrs B) eid = Some Hj /\
        au_attr d = Some a /\ au_rand d = Some r /\ opens Hj (b_hrand B) n a r /\ (forall n', au_nym d = Some n' -> n' = n)) /\
     (md_eid m <> [] -> g1_of_bytes C (md_eid m) = Some n)) /\
  (verifyRHNym vt sig = true -> exists an n, sg_rh sig = Some an /\ g1_from_proto T (an_nym an) = Ok n /\
     (forall d, md_rh_data m = Some d -> exists Hj a r, nth_error (b_attrs B) rh = Some Hj /\
        au_attr d = Some a /\ au_rand d = Some r /\ opens Hj (b_hrand B) n a r /\ (forall n', au_nym d = Some n' -> n' = n)) /\
     (md_rh m <> [] -> g1_of_bytes C (md_rh m) = Some n)).
Proof. exact (@verifier_metadata C OK T H sig disc ipk B msg vals rh eid rp rev ep vt m). Qed.
Print Assumptions C13_verifier_metadata.

Definition tmeta : Metadata tC :=
  {| md_eid := []; md_eid_data := Some {| au_nym := Some (gmul2 (f13 : G1 tC) (f8 : Zr tC) (f23 : G1 tC) (f20 : Zr tC));
                                          au_rand := Some (f20 : Zr tC); au_attr := Some (f8 : Zr tC) |};
     md_rh := []; md_rh_data := Some {| au_nym := Some (gmul2 (f17 : G1 tC) (f9 : Zr tC) (f23 : G1 tC) (f21 : Zr tC));
                                        au_rand := Some (f21 : Zr tC); au_attr := Some (f9 : Zr tC) |} |}.
Definition tmeta_sig : Signature * option (Metadata tC) :=
  from_ok (tsig0, None) (NewSignature tH tT (Some tcred) (Some tsk) (Some tnym) (Some trnym) (Some tipk) tdisc tmsg 3 2 (Some tcri)
    (tR f25) EidNymRhNym (Some tmeta)).
Example C13_example :
  NewSignature tH tT (Some tcred) (Some tsk) (Some tnym) (Some trnym) (Some tipk) tdisc tmsg 3 2 (Some tcri) (tR f25) EidNymRhNym (Some tmeta)
    = Ok tmeta_sig /\
  Ver tH tT (fst tmeta_sig) tdisc (Some tipk) tmsg tvals (Z.of_nat 3) (Z.of_nat 2) tt 5 ExpectEidNymRhNym (Some tmeta) = Ok tt.
Proof. split; [apply from_ok_eq; vm_compute; reflexivity|]. vm_compute. reflexivity. Qed.

(** ** C14 (dlog part): pseudonym signatures verify *)
Theorem C14_nym_signature_complete (C : Curve) (OK : CurveOk C) (H : hasher C) (T : translator C) sk ipk HSk HRand msg
    (r nonce rSk rRNym : Zr C) :
  g1_from_proto T (ip_hsk ipk) = Ok HSk -> g1_from_proto T (ip_hrand ipk) = Ok HRand ->
  exists Nym sig, makeNym T sk ipk r = Ok (Nym, r) /\
    newNymSignature H T (Some sk) (Some Nym) (Some r) (Some ipk) msg nonce rSk rRNym = Ok sig /\
    verNymSignature H T sig (Some Nym) (Some ipk) msg = Ok tt.
Proof.
  intros E1 E2. set (Nym := gmul2 HSk sk HRand r).
  destruct (@nymsig_complete C OK T H sk Nym r ipk HSk HRand msg nonce rSk rRNym E1 E2 eq_refl) as (sig & S1 & S2).
  exists Nym, sig. split; [|auto]. unfold makeNym. rewrite E1, E2. reflexivity.
Qed.
Print Assumptions C14_nym_signature_complete.

(** ** C15: pseudonym signatures are proofs of knowledge of an opening of the pseudonym *)
Theorem C15_nym_signature_sound (C : Curve) (OK : CurveOk C) (H1 H2 : hasher C) (T : translator C) sig1 sig2 nym1 nym2 ipk msg1 msg2
    HSk HRand pd :
  g1_from_proto T (ip_hsk ipk) = Ok HSk -> g1_from_proto T (ip_hrand ipk) = Ok HRand ->
  verNymSignature H1 T sig1 (Some nym1) (Some ipk) msg1 = Ok tt ->
  verNymSignature H2 T sig2 (Some nym2) (Some ipk) msg2 = Ok tt ->
  verNym_first T sig1 (Some nym1) (Some ipk) msg1 = Ok pd ->
  verNym_first T sig2 (Some nym2) (Some ipk) msg2 = Ok pd ->
  zr_of_bytes C (ns_c sig1) <> zr_of_bytes C (ns_c sig2) ->
  nym1 = nym2 /\ msg1 = msg2 /\
  opens HSk HRand nym1 (fst (nym_extract C sig1 sig2)) (snd (nym_extract C sig1 sig2)).
Proof. intros E1 E2 _ _. apply (nymsig_sound OK); assumption. Qed.
Print Assumptions C15_nym_signature_sound.

Theorem C15_nym_signature_message (C : Curve) (OK : CurveOk C) (H : hasher C) (T : translator C) sig nym1 nym2 ipk msg1 msg2 :
  verNymSignature H T sig (Some nym1) (Some ipk) msg1 = Ok tt ->
  verNymSignature H T sig (Some nym2) (Some ipk) msg2 = Ok tt ->
  nym1 <> nym2 \/ msg1 <> msg2 ->
  exists pd1 pd2, verNym_first T sig (Some nym1) (Some ipk) msg1 = Ok pd1 /\
    verNym_first T sig (Some nym2) (Some ipk) msg2 = Ok pd2 /\
    transcripts_collide H pd1 pd2 (zr_of_bytes C (ns_nonce sig)).
Proof. exact (@nymsig_context C OK T H sig nym1 nym2 ipk msg1 msg2). Qed.
Print Assumptions C15_nym_signature_message.

Definition tnymsig (nonce : zp) : NymSignature :=
  from_ok {| ns_c := []; ns_ssk := []; ns_srnym := []; ns_nonce := [] |}
    (newNymSignature tH tT (Some tsk) (Some tnym) (Some trnym) (Some tipk) tmsg (nonce : Zr tC) f5 f6).
Example C15_example :
  (exists pd, verNymSignature tH tT (tnymsig f4) (Some tnym) (Some tipk) tmsg = Ok tt /\
     verNymSignature tH tT (tnymsig f5) (Some tnym) (Some tipk) tmsg = Ok tt /\
     verNym_first tT (tnymsig f4) (Some tnym) (Some tipk) tmsg = Ok pd /\
     verNym_first tT (tnymsig f5) (Some tnym) (Some tipk) tmsg = Ok pd) /\
  zr_of_bytes tC (ns_c (tnymsig f4)) <> zr_of_bytes tC (ns_c (tnymsig f5)) /\
  verNymSignature tH tT (tnymsig f4) (Some tnym) (Some tipk) (repeat Byte.x41 11) = Ok tt.
Proof.
  split; [|split; [vm_compute; discriminate|vm_compute; reflexivity]].
  eexists. split; [vm_compute; reflexivity|]. split; [vm_compute; reflexivity|]. split; vm_compute; reflexivity.
Qed.

(** ** C58: wrong key material does not sign.  [nymsig_string t ..] is the hashed string for the commitment t. *)
Theorem C58_wrong_opening_rejected (C : Curve) (OK : CurveOk C) (H : hasher C) (T : translator C) sk Nym RNym ipk HSk HRand msg
    nonce rSk rRNym sig :
  g1_from_proto T (ip_hsk ipk) = Ok HSk -> g1_from_proto T (ip_hrand ipk) = Ok HRand ->
  newNymSignature H T (Some sk) (Some Nym) (Some RNym) (Some ipk) msg nonce rSk rRNym = Ok sig ->
  ~ opens HSk HRand Nym sk RNym -> zr_of_bytes C (ns_c sig) <> z0 ->
  verNymSignature H T sig (Some Nym) (Some ipk) msg = Ok tt ->
  transcripts_collide H (nymsig_string (gmul2 HSk rSk HRand rRNym) Nym (ip_hash ipk) msg)
    (nymsig_string (gmul2 HSk (zr_of_bytes C (ns_ssk sig)) HRand (zr_of_bytes C (ns_srnym sig)) ⊖ Nym ⊗ zr_of_bytes C (ns_c sig)) Nym
       (ip_hash ipk) msg) nonce.
Proof.
  intros E1 E2 E3 NO NZ V. destruct (nymsig_wrong OK E1 E2 E3 V) as [X|[X|X]]; [contradiction|contradiction|exact X].
Qed.
Print Assumptions C58_wrong_opening_rejected.

Example C58_example :
  let s := newNymSignature tH tT (Some tsk2) (Some tnym) (Some trnym) (Some tipk) tmsg (f4 : Zr tC) f5 f6 in
  is_ok s = true /\ gmul2 (f19 : G1 tC) tsk2 (f23 : G1 tC) trnym <> tnym /\
  match s with Ok sig => verNymSignature tH tT sig (Some tnym) (Some tipk) tmsg | _ => Ok tt end = Err.
Proof. split; [vm_compute; reflexivity|]. split; [vm_compute; discriminate|vm_compute; reflexivity]. Qed.

(** ** C16: issuer keys *)
Theorem C16_generated_key_checks (C : Curve) (OK : CurveOk C) (H : hasher C) (T : translator C) (TO : TrOk T)
    (marshal : IssuerPublicKey -> option bytes) names (R : IssuerRand C) key :
  ir_barg1 R <> z0 -> newIssuerKey H T marshal names R = Ok key ->
  exists ipk, ik_ipk key = Some ipk /\ ip_names ipk = names /\
    checkIPK H T marshal ipk = Ok ipk /\ setHash H marshal ipk = Ok ipk.
Proof. exact (@generated_key_checks C OK T TO H marshal names R key). Qed.
Print Assumptions C16_generated_key_checks.

Theorem C16_issuer_key_sound (C : Curve) (OK : CurveOk C) (H1 H2 : hasher C) (T : translator C) marshal1 marshal2 k1 k2 k1' k2' pd :
  checkIPK H1 T marshal1 k1 = Ok k1' -> checkIPK H2 T marshal2 k2 = Ok k2' ->
  checkIPK_first T k1 = Ok pd -> checkIPK_first T k2 = Ok pd ->
  zr_of_bytes C (ip_c k1) <> zr_of_bytes C (ip_c k2) ->
  exists W BarG1 BarG2, g2_from_proto T (ip_w k1) = Ok W /\
    g1_from_proto T (ip_barg1 k1) = Ok BarG1 /\ g1_from_proto T (ip_barg2 k1) = Ok BarG2 /\ BarG1 <> gzero /\
    W = genG2 C ⊗ issuer_extract C k1 k2 /\ BarG2 = BarG1 ⊗ issuer_extract C k1 k2.
Proof. intros _ _. apply (checkIPK_sound OK). Qed.
Print Assumptions C16_issuer_key_sound.

(** the same first message answered for another challenge: c+1, s+isk *)
Definition tipk' : IssuerPublicKey :=
  {| ip_names := ip_names tipk; ip_hsk := ip_hsk tipk; ip_hrand := ip_hrand tipk; ip_hattrs := ip_hattrs tipk; ip_w := ip_w tipk;
     ip_barg1 := ip_barg1 tipk; ip_barg2 := ip_barg2 tipk;
     ip_c := zr_bytes tC (zr_of_bytes tC (ip_c tipk) + f1); ip_s := zr_bytes tC (zr_of_bytes tC (ip_s tipk) + f7); ip_hash := [] |}.
Definition tH' : hasher tC := fun b => tH b + f1.
Example C16_example :
  ir_barg1 tIR <> z0 /\ newIssuerKey tH tT tmarshal tnames tIR = Ok tkey /\
  is_ok (checkIPK tH tT tmarshal tipk) = true /\ is_ok (checkIPK tH' tT tmarshal tipk') = true /\
  is_ok (checkIPK_first tT tipk) = true /\ checkIPK_first tT tipk' = checkIPK_first tT tipk /\
  zr_of_bytes tC (ip_c tipk) <> zr_of_bytes tC (ip_c tipk').
Proof.
  split; [discriminate|]. split; [exact (proj1 tkey_made)|]. do 4 (split; [vm_compute; reflexivity|]).
  vm_compute. discriminate.
Qed.

(** ** C17 (key generation part): names *)
Theorem C17_names_distinct (C : Curve) (OK : CurveOk C) (H : hasher C) (T : translator C)
    (marshal : IssuerPublicKey -> option bytes) names (R : IssuerRand C) :
  (forall k, exists b, marshal k = Some b) ->
  ((exists key, newIssuerKey H T marshal names R = Ok key) <-> NoDup names).
Proof. apply (newIssuerKey_iff OK). Qed.
Print Assumptions C17_names_distinct.

Example C17_example : NoDup tnames /\ ~ NoDup [str "OU"; str "Role"; str "OU"].
Proof.
  split; [repeat constructor; cbn; intuition discriminate|].
  intro N. inversion N as [|x l N1 _]; subst. apply N1. right. left. reflexivity.
Qed.

(** ** C18 (crypto part): credential requests *)
Theorem C18_request_sound (C : Curve) (OK : CurveOk C) (H1 H2 : hasher C) (T : translator C) m1 m2 ipk HSk pd :
  g1_from_proto T (ip_hsk ipk) = Ok HSk ->
  checkCredRequest H1 T m1 ipk = Ok tt -> checkCredRequest H2 T m2 ipk = Ok tt ->
  checkCredRequest_first T m1 ipk = Ok pd -> checkCredRequest_first T m2 ipk = Ok pd ->
  zr_of_bytes C (rq_c m1) <> zr_of_bytes C (rq_c m2) ->
  g1_from_proto T (rq_nym m1) = Ok (HSk ⊗ request_extract C m1 m2).
Proof. intros E _ _ E1 E2. exact (credreq_sound OK E E1 E2). Qed.
Print Assumptions C18_request_sound.

Theorem C18_request_nonce_bound (C : Curve) (OK : CurveOk C) (H : hasher C) (T : translator C) nym c s ipk n1 n2 :
  let m n := {| rq_nym := nym; rq_nonce := Some n; rq_c := c; rq_s := s |} in
  checkCredRequest H T (m n1) ipk = Ok tt -> checkCredRequest H T (m n2) ipk = Ok tt ->
  length n1 = length n2 -> n1 <> n2 ->
  exists pd1 pd2, checkCredRequest_first T (m n1) ipk = Ok pd1 /\ checkCredRequest_first T (m n2) ipk = Ok pd2 /\
    collision H pd1 pd2.
Proof. exact (@credreq_nonces C OK T H nym c s ipk n1 n2). Qed.
Print Assumptions C18_request_nonce_bound.

Definition treq' : CredRequest :=
  {| rq_nym := rq_nym treq; rq_nonce := rq_nonce treq; rq_c := zr_bytes tC (zr_of_bytes tC (rq_c treq) + f1);
     rq_s := zr_bytes tC (zr_of_bytes tC (rq_s treq) + tsk) |}.
Example C18_example :
  checkCredRequest tH tT treq tipk = Ok tt /\ checkCredRequest tH' tT treq' tipk = Ok tt /\
  is_ok (checkCredRequest_first tT treq tipk) = true /\ checkCredRequest_first tT treq' tipk = checkCredRequest_first tT treq tipk /\
  zr_of_bytes tC (rq_c treq) <> zr_of_bytes tC (rq_c treq') /\ rq_nonce treq = Some [Byte.x07] /\
  (* 0x26 = 7 + 31: a toy collision *)
  checkCredRequest tH tT {| rq_nym := rq_nym treq; rq_nonce := Some [Byte.x26]; rq_c := rq_c treq; rq_s := rq_s treq |} tipk = Ok tt.
Proof. do 4 (split; [vm_compute; reflexivity|]). split; [vm_compute; discriminate|]. split; vm_compute; reflexivity. Qed.

(** ** C19: credential verification is exactly the BBS+ equation on the carried values *)
Theorem C19_credential_verify_iff (C : Curve) (OK : CurveOk C) (T : translator C) cred sk ipk (B : Bases C) :
  ipk_bases T ipk B ->
  (verCredential T cred sk ipk = Ok tt <->
   exists A e s attrs, cred_means T cred A e s attrs /\ Forall (fun a => a <> None) (cr_attrs cred) /\
     length attrs <= length (b_attrs B) /\
     g1_from_proto T (cr_b cred) = Ok (cred_base B s sk attrs) /\ bbs_valid B A e s sk attrs).
Proof. apply (verCredential_iff OK). Qed.
Print Assumptions C19_credential_verify_iff.

Example C19_example : ipk_bases tT tipk tB /\ verCredential tT tcred tsk tipk = Ok tt /\ verCredential tT tcred tsk2 tipk = Err.
Proof. split; [exact tipk_bases|]. split; [exact tcred_ok|]. vm_compute. reflexivity. Qed.

(** ** C20: epoch and revocation key.  False of the code: the verdict does not depend on them. *)
Theorem C20_refuted :
  (exists (C : Curve) (_ : CurveOk C) (H : hasher C) (T : translator C) sig disc ipk msg vals rhI eidI,
     sg_epoch sig = 5%Z /\ Ver H T sig disc (Some ipk) msg vals rhI eidI tt 99 Basic None = Ok tt) /\
  forall (C : Curve) (H : hasher C) (T : translator C) sig disc ipk msg vals rhI eidI rp1 rp2 (rev1 : rp1) (rev2 : rp2) ep1 ep2 vt meta,
    Ver H T sig disc ipk msg vals rhI eidI rev1 ep1 vt meta = Ver H T sig disc ipk msg vals rhI eidI rev2 ep2 vt meta.
Proof.
  split; [|intros; apply epoch_ignored].
  exists tC, tOK, tH, tT, (fst (tsign Standard)), tdisc, tipk, tmsg, tvals, 3%Z, 2%Z. split; vm_compute; reflexivity.
Qed.
Print Assumptions C20_refuted.

(** ** C24: curve-point translators *)
Theorem C24_fp256bn (C : Curve) (OK : CurveOk C) : amcl_style C ->
  TrOk (Fp256bn C) /\
  (forall P, g1_from_raw (Fp256bn C) (tl (g1_bytes C P)) = Ok P) /\
  (canonical_g1 C -> forall e P, g1_from_proto (Fp256bn C) (Some e) = Ok P -> e = g1_to_proto (Fp256bn C) P) /\
  (canonical_g2 C -> forall e P, g2_from_proto (Fp256bn C) (Some e) = Ok P -> e = g2_to_proto (Fp256bn C) P).
Proof.
  intros (S1 & S2 & S3). split; [split; [exact (fp_g1_rt OK S1 S3)|exact (fp_g2_rt OK S2)]|].
  split; [exact (fp_g1_raw OK S1 S3)|]. split; intros Ca e P E.
  - exact (fp_g1_canon S1 Ca E).
  - exact (fp_g2_canon S2 Ca E).
Qed.
Print Assumptions C24_fp256bn.

Theorem C24_miracl (C : Curve) (OK : CurveOk C) : miracl_style C ->
  TrOk (Fp256bnMiracl C) /\
  (forall P, g1_from_raw (Fp256bnMiracl C) (tl (g1_bytes C P)) = Ok P) /\
  (canonical_g1 C -> forall e P, g1_from_proto (Fp256bnMiracl C) (Some e) = Ok P -> e = g1_to_proto (Fp256bnMiracl C) P) /\
  (canonical_g2 C -> forall e P, g2_from_proto (Fp256bnMiracl C) (Some e) = Ok P -> e = g2_to_proto (Fp256bnMiracl C) P).
Proof.
  intros (S1 & S2 & S3 & S4). split; [split; [exact (fp_g1_rt OK S1 S3)|exact (mir_g2_rt OK S2 S4)]|].
  split; [exact (fp_g1_raw OK S1 S3)|]. split; intros Ca e P E.
  - exact (fp_g1_canon S1 Ca E).
  - exact (mir_g2_canon Ca E).
Qed.
Print Assumptions C24_miracl.

(** Missing for gurvy: injectivity, which is false (next theorem); canonical only among encodings with |Y| = |X| *)
Theorem C24_gurvy_partial (C : Curve) (OK : CurveOk C) : gurvy_style C ->
  TrOk (Gurvy C) /\
  (canonical_g1 C -> forall e P, length (ey e) = length (ex e) ->
     g1_from_proto (Gurvy C) (Some e) = Ok P -> e = g1_to_proto (Gurvy C) P).
Proof.
  intros (S1 & S2). split; [split; [exact (gur_g1_rt OK S1)|exact (gur_g2_rt OK S2)]|].
  intros Ca e P L E. exact (gur_g1_canon S1 Ca L E).
Qed.
Print Assumptions C24_gurvy_partial.

Theorem C24_gurvy_refuted (C : Curve) (OK : CurveOk C) : gurvy_style C -> forall P : G1 C,
  exists e1 e2, e1 <> e2 /\ g1_from_proto (Gurvy C) (Some e1) = Ok P /\ g1_from_proto (Gurvy C) (Some e2) = Ok P.
Proof.
  intros (S1 & _) P. exists (gur_g1_to P), {| ex := ex (gur_g1_to P); ey := ey (gur_g1_to P) ++ [b0] |}.
  split; [|split; [exact (gur_g1_rt OK S1 P)|exact (gur_not_canonical OK S1 P [b0])]].
  intro E. apply (f_equal ey) in E. cbn [ey] in E. apply (f_equal (@length byte)) in E. rewrite app_length in E. cbn in E. lia.
Qed.
Print Assumptions C24_gurvy_refuted.

Example C24_example : amcl_style toy_amcl /\ canonical_g1 toy_amcl /\ canonical_g2 toy_amcl /\
  miracl_style toy_miracl /\ gurvy_style toy_gurvy /\ canonical_g1 toy_gurvy.
Proof.
  split; [split; [reflexivity|split; [reflexivity|intro P; reflexivity]]|].
  split; [intros b P; exact (@tdec_canon [Byte.x04] 1 b P)|]. split; [intros b P; exact (@tdec_canon [] 3 b P)|].
  split; [split; [reflexivity|split; [reflexivity|split; intro P; reflexivity]]|].
  split; [split; reflexivity|]. intros b P; exact (@tdec_canon [] 1 b P).
Qed.
