(** * What the Verify of a CSP with the aries scheme accepts (C13, C35 to C38, C68, C69 through the CSP)

    Reading guide: as in PropsAries.v and PropsAriesMore.v.  The theorems there are about the Verify of the signature
    scheme; here they are stated for the Verify of the CSP with the options a caller gives it. *)
From Verif Require Import Base Curve Algebra Spec Dlog Bridge BridgeFacts Bbs BbsSpec BbsFacts BbsProof BbsComplete
  Aries AriesSpec AriesIssue AriesNym AriesVerify AriesSign AriesSound AriesForge AriesHide AriesBind DlogAudit Translator Toy ToyBbs ToyCodec ToyAries PropsBridge PropsAries PropsAriesMore
  Csp CspInst CspSpec CspFacts PropsCsp ToyCsp RunSpec RunFacts PropsRunAries.
Unset Strict Implicit.

Lemma csp_ar_accepts C (HG : bytes -> G1 C) (H : hasher C) hkdf c_cred c_sig c_nsig c_cri EC (EE : ecenv EC) sha256 (T : translator C) e c (ipk : iface (AIssuerPublicKey C)) sig digest so :
  let X := aries_scheme HG H hkdf c_cred c_sig c_nsig c_cri EE sha256 in
  New X (aries_math T EE sha256) false e = Ok c ->
  csp_Verify c (Some (KIssuerPublic (ipk : u_ipk (ariesU C EC)))) sig digest (Some (SSigner so)) = accepted ->
  arVerify H c_sig ipk sig digest (so_attrs so) (so_rh so) (so_eid so) (so_sk so) (so_vertype so) (so_meta so) = Ok tt.
Proof.
  intros X N V. destruct (C44_verdict_partial (Some (KIssuerPublic (ipk : u_ipk (ariesU C EC)))) sig digest (Some (SSigner so)) N) as (_ & A & _).
  apply A in V. clear A. destruct V as (k & o & K & O & _ & D). injection K as <-. injection O as <-. cbn [deciding] in D.
  destruct (so_revpk so) as [[]|]; try discriminate D; injection D as D; exact D.
Qed.

Lemma csp_ar_nym_accepts C (HG : bytes -> G1 C) (H : hasher C) hkdf c_cred c_sig c_nsig c_cri EC (EE : ecenv EC) sha256 (T : translator C) e c
    (ipk : iface (AIssuerPublicKey C)) (nym : G1 C) sig digest (no : nym_opts (ariesU C EC)) :
  let X := aries_scheme HG H hkdf c_cred c_sig c_nsig c_cri EE sha256 in
  New X (aries_math T EE sha256) false e = Ok c ->
  no_ipk no = Some (KIssuerPublic (ipk : u_ipk (ariesU C EC))) -> no_smartcard no = false ->
  csp_Verify c (Some (KNymPublic (nym : u_g1 (ariesU C EC)))) sig digest (Some (SNym no)) = accepted ->
  arNymVerify H c_nsig ipk nym sig digest (no_sk no) = Ok tt.
Proof.
  intros X N P S V. destruct (C44_verdict_partial (Some (KNymPublic (nym : u_g1 (ariesU C EC)))) sig digest (Some (SNym no)) N) as (_ & A & _).
  apply A in V. clear A. destruct V as (k & o & K & O & _ & D). injection K as <-. injection O as <-. cbn [deciding] in D. rewrite P, S in D.
  injection D as D. exact D.
Qed.

(** ** C68: bytes accepted for two messages.  Full claim: without the condition on the proof inside; false, see C68_refuted. *)
Theorem C68_csp_partial : forall C (OK : CurveOk C) (HG : bytes -> G1 C) (H : hasher C) hkdf c_cred c_sig c_nsig c_cri EC (EE : ecenv EC) sha256 (T : translator C) e c (pk : G2 C) (n : nat)
    (sig msg1 msg2 : bytes) (so1 so2 : signer_opts (ariesU C EC)),
  let X := aries_scheme HG H hkdf c_cred c_sig c_nsig c_cri EE sha256 in
  let key := KIssuerPublic (Some (Some (issuer_key HG pk n)) : u_ipk (ariesU C EC)) in
  let ipk := Some (Some (issuer_key HG pk n)) in
  New X (aries_math T EE sha256) false e = Ok c ->
  csp_Verify c (Some key) sig msg1 (Some (SSigner so1)) = accepted -> csp_Verify c (Some key) sig msg2 (Some (SSigner so2)) = accepted ->
  (forall f, arVerify_first H c_sig ipk sig msg1 (so_attrs so1) (so_sk so1) (so_vertype so1) = Ok f ->
     length (pf_resp (sp_vc1 (vf_sp f))) = 2 /\ sp_abar (vf_sp f) <> sp_d (vf_sp f)) ->
  msg1 = msg2 \/ collision H msg1 msg2 \/
  clash H c_sig ipk sig msg1 (so_attrs so1) (so_sk so1) (so_vertype so1) msg2 (so_attrs so2) (so_sk so2) (so_vertype so2).
Proof.
  intros C OK HG H hkdf c_cred c_sig c_nsig c_cri EC EE sha256 T e c pk n sig msg1 msg2 so1 so2 X key ipk N V1 V2 Sh.
  exact (C68_message_partial OK (csp_ar_accepts N V1) (csp_ar_accepts N V2) Sh).
Qed.
Print Assumptions C68_csp_partial.

(** ** C69: what accepted bytes contain, by verification type *)
Theorem C69_csp : forall C (OK : CurveOk C) (HG : bytes -> G1 C) (H : hasher C) hkdf c_cred c_sig c_nsig c_cri EC (EE : ecenv EC) sha256 (T : translator C) e c (pk : G2 C) (n : nat)
    (sig msg : bytes) (so : signer_opts (ariesU C EC)),
  let X := aries_scheme HG H hkdf c_cred c_sig c_nsig c_cri EE sha256 in
  New X (aries_math T EE sha256) false e = Ok c ->
  csp_Verify c (Some (KIssuerPublic (Some (Some (issuer_key HG pk n)) : u_ipk (ariesU C EC)))) sig msg (Some (SSigner so)) = accepted ->
  exists s, dec c_sig sig = Some s /\ g1_of_bytes C (as_nym s) <> None /\
    let eid_given := exists p nym, parseProofG1 C (as_eid_proof s) = Ok p /\ g1_of_bytes C (as_eid s) = Some nym in
    let rh_given := exists p nym, parseProofG1 C (as_rh_proof s) = Ok p /\ g1_of_bytes C (as_rh s) = Some nym in
    let nym_given := exists p, parseProofG1 C (as_nym_proof s) = Ok p in
    match so_vertype so with
    | Basic | OtherVer => nym_given
    | BestEffort => nym_given /\ (as_eid s <> [] \/ as_rh s <> [] -> eid_given) /\ (as_rh s <> [] -> rh_given)
    | ExpectStandard => nym_given /\ as_eid s = [] /\ as_eid_proof s = [] /\ as_rh s = [] /\ as_rh_proof s = []
    | ExpectEidNym => nym_given /\ as_eid s <> [] /\ as_eid_proof s <> [] /\ eid_given
    | ExpectEidNymRhNym => nym_given /\ as_eid s <> [] /\ as_eid_proof s <> [] /\ eid_given /\ as_rh s <> [] /\ as_rh_proof s <> [] /\ rh_given
    | ExpectSmartcard => eid_given
    | ExpectSmartcardNoNyms => as_eid s = [] /\ as_eid_proof s = [] /\ as_rh s = [] /\ as_rh_proof s = []
    end.
Proof. intros C OK HG H hkdf c_cred c_sig c_nsig c_cri EC EE sha256 T e c pk n sig msg so X N V. exact (C69_fields (csp_ar_accepts N V)). Qed.
Print Assumptions C69_csp.

(** the pseudonyms it contains are checked against the credential, with the user secret at position 0 *)
Theorem C69_csp_checked : forall C (OK : CurveOk C) (HG : bytes -> G1 C) (H : hasher C) hkdf c_cred c_sig c_nsig c_cri EC (EE : ecenv EC) sha256 (T : translator C) e c (pk : G2 C) (n : nat)
    (sig msg : bytes) (so : signer_opts (ariesU C EC)) (rh eid k : nat),
  let X := aries_scheme HG H hkdf c_cred c_sig c_nsig c_cri EE sha256 in
  bls_sizes C -> eid < n -> rh < n -> so_eid so = Z.of_nat eid -> so_rh so = Z.of_nat rh -> k <= n -> so_sk so = Z.of_nat k ->
  New X (aries_math T EE sha256) false e = Ok c ->
  csp_Verify c (Some (KIssuerPublic (Some (Some (issuer_key HG pk n)) : u_ipk (ariesU C EC)))) sig msg (Some (SSigner so)) = accepted ->
  exists s credential ch, dec c_sig sig = Some s /\
    let eid_checked := nym_checked HG pk n (beside k eid) (as_eid_proof s) (as_eid s) (as_eid_idx s) credential ch in
    let rh_checked := nym_checked HG pk n (beside k rh) (as_rh_proof s) (as_rh s) (as_rh_idx s) credential ch in
    let nym_is_checked := nym_checked HG pk n k (as_nym_proof s) (as_nym s) (Z.of_nat (2 + k)) credential ch in
    (ver_smartcard (so_vertype so) = false -> nym_is_checked) /\
    match so_vertype so with
    | BestEffort => (as_eid s <> [] \/ as_rh s <> [] -> eid_checked) /\ (as_rh s <> [] -> rh_checked)
    | ExpectEidNym | ExpectSmartcard => eid_checked
    | ExpectEidNymRhNym => eid_checked /\ rh_checked
    | _ => True
    end.
Proof.
  intros C OK HG H hkdf c_cred c_sig c_nsig c_cri EC EE sha256 T e c pk n sig msg so rh eid k X BS Le Lr Ee Er Lk Es N V.
  apply (csp_ar_accepts N) in V. rewrite Ee, Er, Es in V. exact (C69_checked OK BS Le Lr Lk V).
Qed.
Print Assumptions C69_csp_checked.

(** ** C13: audit data given to Verify *)
Theorem C13_aries_csp : forall C (OK : CurveOk C) (HG : bytes -> G1 C) (H : hasher C) hkdf c_cred c_sig c_nsig c_cri EC (EE : ecenv EC) sha256 (T : translator C) e c (pk : G2 C) (n : nat)
    (sig msg : bytes) (so : signer_opts (ariesU C EC)) (rh eid k : nat) (m : Metadata C),
  let X := aries_scheme HG H hkdf c_cred c_sig c_nsig c_cri EE sha256 in
  let v := so_vertype so in
  bls_sizes C -> eid < n -> rh < n -> so_eid so = Z.of_nat eid -> so_rh so = Z.of_nat rh -> k <= n -> so_sk so = Z.of_nat k -> so_meta so = Some (m : u_meta (ariesU C EC)) ->
  New X (aries_math T EE sha256) false e = Ok c ->
  csp_Verify c (Some (KIssuerPublic (Some (Some (issuer_key HG pk n)) : u_ipk (ariesU C EC)))) sig msg (Some (SSigner so)) = accepted ->
  exists s, dec c_sig sig = Some s /\
    (v = ExpectEidNym \/ v = ExpectEidNymRhNym \/ v = ExpectSmartcard \/ (v = BestEffort /\ as_eid s <> []) ->
     exists nym, g1_of_bytes C (as_eid s) = Some nym /\
       (forall d, md_eid_data m = Some d -> exists a r, au_attr d = Some a /\ au_rand d = Some r /\
          opens (base_at HG pk n (beside k eid)) (gen0 HG pk (n + 1)) nym a r /\ (forall nym', au_nym d = Some nym' -> nym' = nym)) /\
       (md_eid m <> [] -> g1_of_bytes C (md_eid m) = Some nym)) /\
    (v = ExpectEidNymRhNym \/ (v = BestEffort /\ as_rh s <> []) ->
     exists nym, g1_of_bytes C (as_rh s) = Some nym /\
       (forall d, md_rh_data m = Some d -> exists a r, au_attr d = Some a /\ au_rand d = Some r /\
          opens (base_at HG pk n (beside k rh)) (gen0 HG pk (n + 1)) nym a r /\ (forall nym', au_nym d = Some nym' -> nym' = nym)) /\
       (md_rh m <> [] -> g1_of_bytes C (md_rh m) = Some nym)).
Proof.
  intros C OK HG H hkdf c_cred c_sig c_nsig c_cri EC EE sha256 T e c pk n sig msg so rh eid k m X v BS Le Lr Ee Er Lk Es Em N V.
  apply (csp_ar_accepts N) in V. rewrite Ee, Er, Es, Em in V. exact (C13_aries_verifier OK BS Le Lr Lk V).
Qed.
Print Assumptions C13_aries_csp.

(** ** C36: signatures with a pseudonym.  Full claim: without the condition on the number of responses; false, see C36_refuted. *)
Theorem C36_csp_partial : forall C (OK : CurveOk C) (HG : bytes -> G1 C) (H : hasher C) hkdf c_cred c_sig c_nsig c_cri EC (EE : ecenv EC) sha256 (T : translator C) e c (pk : G2 C) (n k : nat) (Nym : G1 C)
    (sig1 sig2 digest1 digest2 : bytes) (no1 no2 : nym_opts (ariesU C EC)) (s1 s2 : ANymSignature) (p1 p2 : ProofG1 C),
  let X := aries_scheme HG H hkdf c_cred c_sig c_nsig c_cri EE sha256 in
  let key := KIssuerPublic (Some (Some (issuer_key HG pk n)) : u_ipk (ariesU C EC)) in
  bls_sizes C -> k <= n -> New X (aries_math T EE sha256) false e = Ok c ->
  no_ipk no1 = Some key -> no_ipk no2 = Some key -> no_smartcard no1 = false -> no_smartcard no2 = false -> no_sk no1 = Z.of_nat k -> no_sk no2 = Z.of_nat k ->
  csp_Verify c (Some (KNymPublic (Nym : u_g1 (ariesU C EC)))) sig1 digest1 (Some (SNym no1)) = accepted ->
  csp_Verify c (Some (KNymPublic (Nym : u_g1 (ariesU C EC)))) sig2 digest2 (Some (SNym no2)) = accepted ->
  dec c_nsig sig1 = Some s1 -> dec c_nsig sig2 = Some s2 ->
  parseProofG1 C (ans_main s1) = Ok p1 -> parseProofG1 C (ans_main s2) = Ok p2 ->
  pf_comm p1 = pf_comm p2 -> length (pf_resp p1) = 2 -> length (pf_resp p2) = 2 ->
  let ch p s digest := H (zr_bytes C (H (nymSigLabel ++ g1_bytes C Nym ++ g1_bytes C (gen0 HG pk (n + 1)) ++ g1_bytes C (base_at HG pk n k)
                          ++ g1_bytes C (pf_comm p) ++ digest)) ++ ans_nonce s) in
  ch p1 s1 digest1 <> ch p2 s2 digest2 ->
  let x := extract_at (ch p1 s1 digest1) (ch p2 s2 digest2) (pf_resp p1) (pf_resp p2) in
  opens (base_at HG pk n k) (gen0 HG pk (n + 1)) Nym (x 1) (x 0).
Proof.
  intros C OK HG H hkdf c_cred c_sig c_nsig c_cri EC EE sha256 T e c pk n k Nym sig1 sig2 digest1 digest2 no1 no2 s1 s2 p1 p2 X key BS Lk N I1 I2 S1 S2 K1 K2 V1 V2 D1 D2 P1 P2 E L1 L2 ch NC x.
  apply (csp_ar_nym_accepts N I1 S1) in V1. apply (csp_ar_nym_accepts N I2 S2) in V2. rewrite K1 in V1. rewrite K2 in V2.
  exact (C36_nym_knowledge_partial OK BS Lk V1 V2 D1 D2 P1 P2 E L1 L2 NC).
Qed.
Print Assumptions C36_csp_partial.

(** ** C35, C37, C38: two signatures the CSP accepts.  Full claims and what is missing: as beside C35_soundness_partial,
    C37_attributes_bound_partial and C38_nym_binding_partial; the full claims are false of the CSP too (C35_csp_refuted). *)
(** The two signatures are accepted for one message with the same disclosure, positions and verification type; they decode to
    the same points, with one response per base, and their challenges (the hash of all points, the message and the nonce) differ. *)
Definition csp_forked (C : Curve) (HG : bytes -> G1 C) (H : hasher C) hkdf c_cred (c_sig : codec ASignature) c_nsig c_cri EC (EE : ecenv EC) sha256 (T : translator C) (c : CSP (ariesU C EC))
    (pk : G2 C) (n : nat) (sig1 sig2 msg : bytes) (attributes : list attribute) (rh eid : nat) (v : VerificationType) (so1 so2 : signer_opts (ariesU C EC)) (f1 f2 : AVerFirst C) : Prop :=
  let key := Some (KIssuerPublic (Some (Some (issuer_key HG pk n)) : u_ipk (ariesU C EC))) in
  let same so := so_attrs so = attributes /\ so_rh so = Z.of_nat rh /\ so_eid so = Z.of_nat eid /\ so_sk so = 0%Z /\ so_vertype so = v in
  (exists e, New (aries_scheme HG H hkdf c_cred c_sig c_nsig c_cri EE sha256) (aries_math T EE sha256) false e = Ok c) /\
  eid < n /\ rh < n /\ same so1 /\ same so2 /\
  csp_Verify c key sig1 msg (Some (SSigner so1)) = accepted /\ csp_Verify c key sig2 msg (Some (SSigner so2)) = accepted /\
  arVerify_first H c_sig (Some (Some (issuer_key HG pk n))) sig1 msg attributes 0 v = Ok f1 /\
  arVerify_first H c_sig (Some (Some (issuer_key HG pk n))) sig2 msg attributes 0 v = Ok f2 /\
  same_first f1 f2 /\ one_response_each n (ver_smartcard v) f1 /\ one_response_each n (ver_smartcard v) f2 /\
  H (zr_bytes C (H (vf_data f1)) ++ as_nonce (vf_sig f1)) <> H (zr_bytes C (H (vf_data f2)) ++ as_nonce (vf_sig f2)).
Lemma csp_forked_ok C (HG : bytes -> G1 C) (H : hasher C) hkdf c_cred (c_sig : codec ASignature) c_nsig c_cri EC (EE : ecenv EC) sha256 (T : translator C) c
    pk n sig1 sig2 msg attributes rh eid v so1 so2 f1 f2 :
  csp_forked HG H hkdf c_cred c_sig c_nsig c_cri EE sha256 T c pk n sig1 sig2 msg attributes rh eid v so1 so2 f1 f2 ->
  aries_forked HG H c_sig pk n sig1 sig2 msg attributes rh eid v (so_meta so1) (so_meta so2) f1 f2
    (H (zr_bytes C (H (vf_data f1)) ++ as_nonce (vf_sig f1))) (H (zr_bytes C (H (vf_data f2)) ++ as_nonce (vf_sig f2))).
Proof.
  intros ((e & N) & Le & Lr & (A1 & R1 & E1 & K1 & T1) & (A2 & R2 & E2 & K2 & T2) & V1 & V2 & F1 & F2 & SF & O1 & O2 & NC).
  apply (csp_ar_accepts N) in V1, V2. rewrite A1, R1, E1, K1, T1 in V1. rewrite A2, R2, E2, K2, T2 in V2.
  unfold arVerify in V1, V2. rewrite F1 in V1. rewrite F2 in V2.
  split; [exact Le|]. split; [exact Lr|]. split; [exact F1|]. split; [exact F2|]. split; [exact V1|]. split; [exact V2|].
  split; [exact SF|]. split; [exact O1|]. split; [exact O2|]. exact NC.
Qed.
Theorem C35_csp_partial : forall C (OK : CurveOk C) (HG : bytes -> G1 C) (H : hasher C) hkdf c_cred (c_sig : codec ASignature) c_nsig c_cri EC (EE : ecenv EC) sha256 (T : translator C) c
    pk n sig1 sig2 msg attributes rh eid v so1 so2 f1 f2,
  bls_sizes C -> csp_forked HG H hkdf c_cred c_sig c_nsig c_cri EE sha256 T c pk n sig1 sig2 msg attributes rh eid v so1 so2 f1 f2 ->
  let c1 := H (zr_bytes C (H (vf_data f1)) ++ as_nonce (vf_sig f1)) in let c2 := H (zr_bytes C (H (vf_data f2)) ++ as_nonce (vf_sig f2)) in
  let r1 := pf_resp (sp_vc1 (vf_sp f1)) in let r2 := pf_resp (sp_vc1 (vf_sp f2)) in
  let t1 := pf_resp (sp_vc2 (vf_sp f1)) in let t2 := pf_resp (sp_vc2 (vf_sp f2)) in
  let full := extracted n (ver_smartcard v) f1 f2 c1 c2 in
  let A := extract_A (sp_aprime (vf_sp f1)) c1 c2 t1 t2 in
  let e := extract_e c1 c2 r1 r2 in
  let s := extract_s c1 c2 r1 r2 t1 t2 in
  let h0 := gen0 HG pk (n + 1) in let hs := BbsSpec.gens HG pk (n + 1) in
  length full = n + 1 /\
  (ver_smartcard v = false -> bbs_signature pk h0 hs A e s full) /\
  (ver_smartcard v = true -> pair C (pk ⊕ (genG2 C ⊗ e)) A = pair C (genG2 C) (bbs_base h0 hs s full ⊕ vf_nym f1)) /\
  (ver_smartcard v = false -> ~ In 0 (vf_revealed f1) ->
     exists p1 p2, vf_nymp f1 = Some p1 /\ vf_nymp f2 = Some p2 /\
       opens (base_at HG pk n 0) h0 (vf_nym f1) (nth 0 full z0) (extract_at c1 c2 (pf_resp p1) (pf_resp p2) 0)).
Proof. intros C OK HG H hkdf c_cred c_sig c_nsig c_cri EC EE sha256 T c pk n sig1 sig2 msg attributes rh eid v so1 so2 f1 f2 BS FK. exact (C35_soundness_partial OK BS (csp_forked_ok FK)). Qed.
Print Assumptions C35_csp_partial.
Theorem C37_csp_partial : forall C (OK : CurveOk C) (HG : bytes -> G1 C) (H : hasher C) hkdf c_cred (c_sig : codec ASignature) c_nsig c_cri EC (EE : ecenv EC) sha256 (T : translator C) c
    pk n sig1 sig2 msg attributes rh eid v so1 so2 f1 f2,
  bls_sizes C -> csp_forked HG H hkdf c_cred c_sig c_nsig c_cri EE sha256 T c pk n sig1 sig2 msg attributes rh eid v so1 so2 f1 f2 ->
  let c1 := H (zr_bytes C (H (vf_data f1)) ++ as_nonce (vf_sig f1)) in let c2 := H (zr_bytes C (H (vf_data f2)) ++ as_nonce (vf_sig f2)) in
  Forall typed attributes -> length attributes = n ->
  (forall i, In i (vf_revealed f1) <-> exists j a, i = S j /\ nth_error attributes j = Some a /\ at_type a <> HiddenAttr) ->
  Forall2 (attr_agrees H) attributes (skipn 1 (extracted n (ver_smartcard v) f1 f2 c1 c2)).
Proof.
  intros C OK HG H hkdf c_cred c_sig c_nsig c_cri EC EE sha256 T c pk n sig1 sig2 msg attributes rh eid v so1 so2 f1 f2 BS FK c1 c2 TY L RV.
  exact (C37_attributes_bound_partial OK BS (csp_forked_ok FK) TY L RV).
Qed.
Print Assumptions C37_csp_partial.
Theorem C38_csp_partial : forall C (OK : CurveOk C) (HG : bytes -> G1 C) (H : hasher C) hkdf c_cred (c_sig : codec ASignature) c_nsig c_cri EC (EE : ecenv EC) sha256 (T : translator C) c
    pk n sig1 sig2 msg attributes rh eid v so1 so2 f1 f2,
  bls_sizes C -> csp_forked HG H hkdf c_cred c_sig c_nsig c_cri EE sha256 T c pk n sig1 sig2 msg attributes rh eid v so1 so2 f1 f2 ->
  let c1 := H (zr_bytes C (H (vf_data f1)) ++ as_nonce (vf_sig f1)) in let c2 := H (zr_bytes C (H (vf_data f2)) ++ as_nonce (vf_sig f2)) in
  let full := extracted n (ver_smartcard v) f1 f2 c1 c2 in let h0 := gen0 HG pk (n + 1) in
  (forall p1 p2, vf_eid f1 = Some p1 -> vf_eid f2 = Some p2 -> ~ In (S eid) (vf_revealed f1) ->
     as_eid_idx (vf_sig f1) = Z.of_nat (2 + hidden_before (ver_smartcard v) (vf_revealed f1) (S eid)) -> as_eid_idx (vf_sig f2) = as_eid_idx (vf_sig f1) ->
     g1_of_bytes C (as_eid (vf_sig f1)) = Some (snd p1) /\
     opens (base_at HG pk n (S eid)) h0 (snd p1) (nth (S eid) full z0) (extract_at c1 c2 (pf_resp (fst p1)) (pf_resp (fst p2)) 0)) /\
  (forall p1 p2, vf_rh f1 = Some p1 -> vf_rh f2 = Some p2 -> ~ In (S rh) (vf_revealed f1) ->
     as_rh_idx (vf_sig f1) = Z.of_nat (2 + hidden_before (ver_smartcard v) (vf_revealed f1) (S rh)) -> as_rh_idx (vf_sig f2) = as_rh_idx (vf_sig f1) ->
     g1_of_bytes C (as_rh (vf_sig f1)) = Some (snd p1) /\
     opens (base_at HG pk n (S rh)) h0 (snd p1) (nth (S rh) full z0) (extract_at c1 c2 (pf_resp (fst p1)) (pf_resp (fst p2)) 0)).
Proof. intros C OK HG H hkdf c_cred c_sig c_nsig c_cri EC EE sha256 T c pk n sig1 sig2 msg attributes rh eid v so1 so2 f1 f2 BS FK. exact (C38_nym_binding_partial OK BS (csp_forked_ok FK)). Qed.
Print Assumptions C38_csp_partial.

(** The full claim is false of the CSP: one byte string made from public data is accepted under every issuer key, for every message
    and every disclosure with enough entries (here: without metadata and revocation key).  The condition on
    [dec c_sig []] holds of protobuf: the empty string decodes to a signature without pseudonym. *)
Theorem C35_csp_refuted : forall C (OK : CurveOk C) (HG : bytes -> G1 C) (c_sig : codec ASignature),
  bls_sizes C -> codec_ok canon_asig c_sig -> (forall s, dec c_sig [] = Some s -> g1_of_bytes C (as_nym s) = None) ->
  forall (n : nat) (positions : list nat) (v : VerificationType),
  (Z.of_nat (n + 1) <= 65535)%Z -> increasing positions -> (forall i, In i positions -> 1 <= i <= n) ->
  exists sig, forall (H : hasher C) hkdf c_cred c_nsig c_cri EC (EE : ecenv EC) sha256 (T : translator C) e c (pk : G2 C) (msg : bytes) (so : signer_opts (ariesU C EC)) (ms : list (SignatureMessage C)) (eid rh : nat),
    New (aries_scheme HG H hkdf c_cred c_sig c_nsig c_cri EE sha256) (aries_math T EE sha256) false e = Ok c ->
    eid < n -> rh < n -> so_eid so = Z.of_nat eid -> so_rh so = Z.of_nat rh -> so_sk so = 0%Z -> so_vertype so = v -> so_meta so = None -> so_revpk so = None ->
    attributesToSignatureMessage H (so_attrs so) 0 = Ok ms -> length positions <= length ms ->
    csp_Verify c (Some (KIssuerPublic (Some (Some (issuer_key HG pk n)) : u_ipk (ariesU C EC)))) sig msg (Some (SSigner so)) = accepted.
Proof.
  intros C OK HG c_sig BS CS DE n positions v Bn I P. destruct (C35_refuted OK HG BS CS v Bn I P) as (sig & F). exists sig.
  intros H hkdf c_cred c_nsig c_cri EC EE sha256 T e c pk msg so ms eid rh N Le Lr Ee Er Es Ev Em Ep EM L.
  pose proof (F H pk msg (so_attrs so) ms eid rh Le Lr EM L) as V.
  assert (NE : sig <> []).
  { intros ->. destruct (C69_fields V) as (s & D & G & _). exact (G (DE s D)). }
  destruct (C44_verdict_partial (Some (KIssuerPublic (Some (Some (issuer_key HG pk n)) : u_ipk (ariesU C EC)))) sig msg (Some (SSigner so)) N) as (_ & A & _).
  apply A. eexists _, _. split; [reflexivity|]. split; [reflexivity|]. split; [exact NE|]. cbn [deciding]. rewrite Ep, Ee, Er, Es, Ev, Em. f_equal. exact V.
Qed.
Print Assumptions C35_csp_refuted.

(** One byte string is accepted as a signature with every pseudonym, under every issuer key and for every digest. *)
Theorem C36_csp_refuted : forall C (OK : CurveOk C) (HG : bytes -> G1 C) (H : hasher C) (c_nsig : codec ANymSignature),
  bls_sizes C -> (forall s, round_trips c_nsig s) -> (forall s, dec c_nsig [] = Some s -> ans_main s = []) ->
  exists sig, forall hkdf c_cred c_sig c_cri EC (EE : ecenv EC) sha256 (T : translator C) e c (pk : G2 C) (n k : nat) (Nym : G1 C) (digest : bytes) (no : nym_opts (ariesU C EC)),
    New (aries_scheme HG H hkdf c_cred c_sig c_nsig c_cri EE sha256) (aries_math T EE sha256) false e = Ok c -> k <= n ->
    no_ipk no = Some (KIssuerPublic (Some (Some (issuer_key HG pk n)) : u_ipk (ariesU C EC))) -> no_smartcard no = false -> no_sk no = Z.of_nat k ->
    csp_Verify c (Some (KNymPublic (Nym : u_g1 (ariesU C EC)))) sig digest (Some (SNym no)) = accepted.
Proof.
  intros C OK HG H c_nsig BS RT DE. destruct (C36_refuted OK HG H BS RT) as (sig & F). exists sig.
  intros hkdf c_cred c_sig c_cri EC EE sha256 T e c pk n k Nym digest no N Lk I S K. pose proof (F pk n k Nym digest Lk) as V.
  assert (NE : sig <> []).
  { intros ->. unfold arNymVerify in V. apply bind_ok in V. destruct V as [ipk [_ V]]. apply bind_ok in V. destruct V as [s [D V]].
    apply bind_ok in V. destruct V as [p [P _]]. destruct (dec c_nsig []) as [s'|]; [|discriminate D]. cbn in D. injection D as ->.
    rewrite (DE s eq_refl) in P. unfold parseProofG1 in P. replace (g1_csize C + 4 <=? length (@nil byte)) with false in P; [discriminate P|].
    symmetry. apply Nat.leb_gt. cbn [length]. lia. }
  destruct (C44_verdict_partial (Some (KNymPublic (Nym : u_g1 (ariesU C EC)))) sig digest (Some (SNym no)) N) as (_ & A & _).
  apply A. eexists _, _. split; [reflexivity|]. split; [reflexivity|]. split; [exact NE|]. cbn [deciding]. rewrite I, S, K. f_equal. exact V.
Qed.
Print Assumptions C36_csp_refuted.

(** A signature the CSP accepts stays accepted when the disclosed attributes are moved to other positions, and when further attributes
    are claimed to be disclosed after them. *)
Theorem C37_csp_refuted : forall C (OK : CurveOk C) (HG : bytes -> G1 C) (H : hasher C) hkdf c_cred c_sig c_nsig c_cri EC (EE : ecenv EC) sha256 (T : translator C) e c (pk : G2 C) (n : nat)
    (sig msg : bytes) (so so' : signer_opts (ariesU C EC)) (more : list attribute),
  let key := Some (KIssuerPublic (Some (Some (issuer_key HG pk n)) : u_ipk (ariesU C EC))) in
  bls_sizes C -> Forall (fun a => ar_value H a <> Panic) more -> disclosed (so_attrs so') = disclosed (so_attrs so) ++ more ->
  so_rh so' = so_rh so -> so_eid so' = so_eid so -> so_sk so = 0%Z -> so_sk so' = 0%Z -> so_vertype so' = so_vertype so -> so_meta so' = so_meta so -> so_revpk so' = None ->
  New (aries_scheme HG H hkdf c_cred c_sig c_nsig c_cri EE sha256) (aries_math T EE sha256) false e = Ok c ->
  csp_Verify c key sig msg (Some (SSigner so)) = accepted -> csp_Verify c key sig msg (Some (SSigner so')) = accepted.
Proof.
  intros C OK HG H hkdf c_cred c_sig c_nsig c_cri EC EE sha256 T e c pk n sig msg so so' more key BS FM D Er Ee Es Es' Ev Em Ep N V.
  destruct (C44_verdict_partial key sig msg (Some (SSigner so)) N) as (_ & A0 & _). pose proof (proj1 A0 V) as (_ & _ & _ & _ & NE & _).
  apply (csp_ar_accepts N) in V. rewrite Es in V.
  pose proof (C37_positions_refuted OK BS FM D V) as V'.
  destruct (C44_verdict_partial key sig msg (Some (SSigner so')) N) as (_ & A & _).
  apply A. eexists _, _. split; [reflexivity|]. split; [reflexivity|]. split; [exact NE|]. cbn [deciding]. rewrite Ep, Er, Ee, Es', Ev, Em. f_equal. exact V'.
Qed.
Print Assumptions C37_csp_refuted.

(** A holder of a credential can make NymEid commit to any of their hidden messages, also to their own secret (position 0):
    the CSP accepts the signature, and its audit then confirms exactly the identities that hash to that message. *)
Theorem C38_csp_refuted : forall C (OK : CurveOk C) (HG : bytes -> G1 C) (H : hasher C) hkdf c_cred c_sig c_nsig c_cri EC (EE : ecenv EC) sha256 (T : translator C) en c,
  bls_sizes C -> codec_ok canon_asig c_sig -> (forall s, dec c_sig [] = Some s -> g1_of_bytes C (as_nym s) = None) ->
  New (aries_scheme HG H hkdf c_cred c_sig c_nsig c_cri EE sha256) (aries_math T EE sha256) false en = Ok c ->
  forall (pk : G2 C) (n : nat) (A : G1 C) (e s sk : Zr C) (vals : list (Zr C)) (attributes : list attribute) (eid rh : nat)
    (msg criRaw credBytes : bytes) (RNym : Zr C) (R : ASigRand C) (j : nat),
  presentable HG H c_cred c_cri pk n A e s sk vals attributes eid rh EidNym criRaw credBytes None RNym R ->
  j = 0 \/ (exists i a, j = S i /\ nth_error attributes i = Some a /\ at_type a = HiddenAttr) ->
  base_at HG pk n (S eid) <> gzero ->
  let key := Some (KIssuerPublic (Some (Some (issuer_key HG pk n)) : u_ipk (ariesU C EC))) in
  exists sig r,
    csp_Verify c key sig msg (Some (SSigner (verifying attributes (Z.of_nat rh) (Z.of_nat eid) None 0 ExpectEidNym None))) = accepted /\
    (forall id, csp_Verify c key sig [] (Some (SEidAudit AuditExpectSignature (Z.of_nat eid) id (Some (r : u_zr (ariesU C EC))) 0)) = accepted <-> H id = nth j (sk :: vals) z0).
Proof.
  intros C OK HG H hkdf c_cred c_sig c_nsig c_cri EC EE sha256 T en c BS CS DE N pk n A e s sk vals attributes eid rh msg criRaw credBytes RNym R j P J B key.
  destruct (C38_refuted OK BS CS msg P J B) as (sig & r & V & Q). exists sig, r.
  assert (NE : sig <> []).
  { intros ->. destruct (C69_fields V) as (s' & D & G & _). exact (G (DE s' D)). }
  split.
  - destruct (C44_verdict_partial key sig msg (Some (SSigner (verifying attributes (Z.of_nat rh) (Z.of_nat eid) None 0 ExpectEidNym None : signer_opts (ariesU C EC)))) N) as (_ & K & _).
    apply K. eexists _, _. split; [reflexivity|]. split; [reflexivity|]. split; [exact NE|]. cbn [deciding verifying so_revpk]. f_equal. exact V.
  - intro id. rewrite <- (Q id).
    destruct (C44_verdict_partial key sig [] (Some (SEidAudit AuditExpectSignature (Z.of_nat eid) id (Some (r : u_zr (ariesU C EC))) 0)) N) as (_ & K & _).
    rewrite K. split.
    + intros (k' & o' & E1 & E2 & _ & D). injection E1 as <-. injection E2 as <-. cbn [deciding] in D. injection D as D. exact D.
    + intro D. eexists _, _. split; [reflexivity|]. split; [reflexivity|]. split; [exact NE|]. cbn [deciding]. f_equal. exact D.
Qed.
Print Assumptions C38_csp_refuted.

(** The CSP is set up, and honest runs through it end with accepted signatures for the verification types above. *)
Example C68_csp_example : New yX yM false true = Ok ycsp /\ qrun EidNymRhNym ExpectEidNymRhNym = Ok accepted /\ qrun Smartcard ExpectSmartcard = Ok accepted.
Proof. split; [exact ycsp_new|]. split; vm_compute; reflexivity. Qed.

(** The two pseudonym signatures of C36_example are accepted by the CSP. *)
Definition ynym : nym_opts yU :=
  {| no_nym := None; no_ipk := Some (KIssuerPublic (Some (Some (issuer_key hg32 xa_pk 3)) : u_ipk yU)); no_smartcard := false; no_card := None; no_nymeid := None;
     no_nymg1 := None; no_rnym := None; no_sk := 0 |}.
Example C36_csp_example :
  nforkb (xa_nsig f3) (xa_nsig f4) (str "digest") = true /\
  map (fun x => match csp_Verify ycsp (Some (KNymPublic (xa_nym : u_g1 yU))) (xa_nsig x) (str "digest") (Some (SNym ynym)) with Ret true false => true | _ => false end) [f3; f4] = [true; true].
Proof. split; vm_compute; reflexivity. Qed.

(** The two signatures of C35_soundness_example are accepted by the CSP, for every signature type. *)
Definition yso (v : VerificationType) : signer_opts yU := verifying xa_attrs 2 1 None 0 v None.
Definition yipk : u_ipk yU := Some (Some (issuer_key hg32 xa_pk 3)).
Definition ycheck (sig : bytes) (v : VerificationType) : bool :=
  match csp_Verify ycsp (Some (KIssuerPublic yipk)) sig (str "message") (Some (SSigner (yso v))) with Ret true false => true | _ => false end.
Definition ydiffer (sig1 sig2 : bytes) (v : VerificationType) : bool :=
  match arVerify_first h32 xa_csig (Some (Some (issuer_key hg32 xa_pk 3))) sig1 (str "message") xa_attrs 0 v, arVerify_first h32 xa_csig (Some (Some (issuer_key hg32 xa_pk 3))) sig2 (str "message") xa_attrs 0 v with
  | Ok u, Ok w => negb (zeqb (h32 (zr_bytes toy32 (h32 (vf_data u)) ++ as_nonce (vf_sig u))) (h32 (zr_bytes toy32 (h32 (vf_data w)) ++ as_nonce (vf_sig w))))
  | _, _ => false
  end.
Lemma csp_forked_toy sig1 sig2 v :
  forkb h32 xa_csig (Some (Some (issuer_key hg32 xa_pk 3))) 3 sig1 sig2 (str "message") xa_attrs 2 1 v = true ->
  ydiffer sig1 sig2 v = true -> ycheck sig1 v = true -> ycheck sig2 v = true ->
  exists f1 f2, csp_forked hg32 h32 (fun b => b) xa_ccred xa_csig xa_cnsig xa_ccri xEE bsha (Gurvy toy32) ycsp xa_pk 3 sig1 sig2 (str "message") xa_attrs 2 1 v (yso v) (yso v) f1 f2.
Proof.
  intros F D V1 V2. destruct (@forkb_ok toy32 toy32_ok hg32 h32 xa_csig xa_pk 3 sig1 sig2 (str "message") xa_attrs 2 1 v ltac:(lia) ltac:(lia) F) as (f1 & f2 & c1 & c2 & Le & Lr & F1 & F2 & _ & _ & SF & O1 & O2 & _).
  exists f1, f2. unfold ydiffer in D. rewrite F1, F2 in D.
  assert (AC : forall sig, ycheck sig v = true -> csp_Verify ycsp (Some (KIssuerPublic yipk)) sig (str "message") (Some (SSigner (yso v))) = accepted).
  { intros sig. unfold ycheck. destruct (csp_Verify ycsp _ sig _ _) as [[] []|]; intro A; try discriminate A. reflexivity. }
  split; [exists true; exact ycsp_new|]. split; [exact Le|]. split; [exact Lr|].
  split; [repeat split|]. split; [repeat split|]. split; [exact (AC sig1 V1)|]. split; [exact (AC sig2 V2)|].
  split; [exact F1|]. split; [exact F2|]. split; [exact SF|]. split; [exact O1|]. split; [exact O2|].
  intro Q. apply (sok_eqb (ok_zr toy32_ok)) in Q. rewrite Q in D. discriminate D.
Qed.
Example C35_csp_example : Forall (fun '(st, v) =>
    exists f1 f2, csp_forked hg32 h32 (fun b => b) xa_ccred xa_csig xa_cnsig xa_ccri xEE bsha (Gurvy toy32) ycsp xa_pk 3 (xa_sig_with st f16) (xa_sig_with st f17) (str "message") xa_attrs 2 1 v (yso v) (yso v) f1 f2)
  [(Standard, ExpectStandard); (EidNym, ExpectEidNym); (EidNymRhNym, ExpectEidNymRhNym); (Smartcard, ExpectSmartcard); (SmartcardNoNyms, ExpectSmartcardNoNyms)].
Proof. repeat constructor; apply csp_forked_toy; vm_compute; reflexivity. Qed.
(** The empty string is no toy signature with a pseudonym; the remaining conditions of C38_csp_refuted are met in C38_refuted_example. *)
Example C35_csp_refuted_example : match dec xa_csig [] with Some s => g1_of_bytes toy32 (as_nym s) | None => None end = None.
Proof. vm_compute. reflexivity. Qed.
Example C36_csp_refuted_example : match dec xa_cnsig [] with Some s => ans_main s | None => [] end = [].
Proof. vm_compute. reflexivity. Qed.
(** The disclosed attributes of the example, moved to the front and with one more. *)
Example C37_csp_refuted_example :
  let moved := disclosed xa_attrs ++ [{| at_type := BytesAttr; at_value := VBytes (str "admin") |}] in
  disclosed moved = moved /\ moved <> xa_attrs /\
  (match csp_Verify ycsp (Some (KIssuerPublic yipk)) (xa_sig_with Standard f16) (str "message") (Some (SSigner (verifying moved 2 1 None 0 ExpectStandard None))) with Ret true false => true | _ => false end) = true.
Proof. split; [vm_compute; reflexivity|]. split; [vm_compute; discriminate|]. vm_compute. reflexivity. Qed.
