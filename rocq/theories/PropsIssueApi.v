(** * What the Verify of a CSP accepts in issuance and revocation (C18, C19, C20, C21, C33, C43 through the CSP)

    Reading guide: as in PropsBridge.v and PropsAries.v, whose theorems are about the operations of the two schemes; here they
    are stated for the Verify of the CSP with the key and options a caller gives it. *)
From Coq Require Import List ZArith Lia.
From Verif Require Import Base Curve Algebra Spec Dlog DlogSpec DlogData DlogSound DlogBind DlogTop Bridge BridgeFacts Bbs BbsSpec BbsFacts BbsProof
  Aries AriesSpec AriesIssue Translator Toy ToyDlog ToyBbs ToyCodec ToyAries PropsDlog PropsBridge PropsAries
  Csp CspInst CspSpec CspFacts PropsCsp ToyCsp.
Import ListNotations.
Unset Strict Implicit.

Lemma csp_decided U (X : scheme U) (M : mathops U) e c k raw digest o (r : res unit) :
  New X M false e = Ok c -> deciding X k raw digest o = Some r ->
  csp_Verify c (Some k) raw digest (Some o) = accepted <-> raw <> [] /\ r = Ok tt.
Proof.
  intros N D. destruct (C44_verdict_partial (Some k) raw digest (Some o) N) as (_ & A & _). rewrite A. clear A. split.
  - intros (k' & o' & K & O & R & E). injection K as <-. injection O as <-. rewrite D in E. injection E as E. auto.
  - intros (R & ->). exists k, o. auto.
Qed.

(** ** C18: credential requests of the dlog scheme *)
(** Accepted are exactly the non-empty bytes of a request that checks and carries the nonce given in the options. *)
Theorem C18_csp : forall C (H : hasher C) (T : translator C) c_ipk c_ik c_req c_cred c_sig c_nsig c_cri EC (EE : ecenv EC) sha256 e c
    (ipk : IssuerPublicKey) (raw digest nonce : bytes) (issuer : option (key (dlogU C EC))),
  let X := dlog_scheme H T c_ipk c_ik c_req c_cred c_sig c_nsig c_cri EE sha256 in
  New X (dlog_math T EE sha256) false e = Ok c ->
  csp_Verify c (Some (KIssuerPublic (Some (Some ipk) : u_ipk (dlogU C EC)))) raw digest (Some (SRequest issuer nonce)) = accepted <->
  raw <> [] /\ exists req, dec c_req raw = Some req /\ checkCredRequest H T req ipk = Ok tt /\ length nonce = scalar_size C /\ ob (rq_nonce req) = nonce.
Proof.
  intros C H T c_ipk c_ik c_req c_cred c_sig c_nsig c_cri EC EE sha256 e c ipk raw digest nonce issuer X N.
  rewrite (csp_decided (k := KIssuerPublic (Some (Some ipk) : u_ipk (dlogU C EC))) (o := SRequest issuer nonce) (raw := raw) (digest := digest) N eq_refl). cbn.
  rewrite C18_request_verify_iff. reflexivity.
Qed.
Print Assumptions C18_csp.

(** The same bytes are not accepted for two nonces. *)
Theorem C18_csp_nonce : forall C (H : hasher C) (T : translator C) c_ipk c_ik c_req c_cred c_sig c_nsig c_cri EC (EE : ecenv EC) sha256 e c
    (ipk1 ipk2 : IssuerPublicKey) (raw d1 d2 nonce1 nonce2 : bytes) (i1 i2 : option (key (dlogU C EC))),
  let X := dlog_scheme H T c_ipk c_ik c_req c_cred c_sig c_nsig c_cri EE sha256 in
  New X (dlog_math T EE sha256) false e = Ok c ->
  csp_Verify c (Some (KIssuerPublic (Some (Some ipk1) : u_ipk (dlogU C EC)))) raw d1 (Some (SRequest i1 nonce1)) = accepted ->
  csp_Verify c (Some (KIssuerPublic (Some (Some ipk2) : u_ipk (dlogU C EC)))) raw d2 (Some (SRequest i2 nonce2)) = accepted ->
  nonce1 = nonce2.
Proof.
  intros C H T c_ipk c_ik c_req c_cred c_sig c_nsig c_cri EC EE sha256 e c ipk1 ipk2 raw d1 d2 nonce1 nonce2 i1 i2 X N V1 V2.
  apply (proj1 (C18_csp ipk1 raw d1 nonce1 i1 N)) in V1. apply (proj1 (C18_csp ipk2 raw d2 nonce2 i2 N)) in V2.
  destruct V1 as (_ & r1 & D1 & _ & _ & <-), V2 as (_ & r2 & D2 & _ & _ & <-). congruence.
Qed.
Print Assumptions C18_csp_nonce.

Example C18_csp_example :
  map (fun n => match csp_Verify xcsp (Some xipk) breqraw [] (Some (SRequest None n)) with Ret true false => true | _ => false end) [[Byte.x07]; [Byte.x08]] = [true; false].
Proof. vm_compute. reflexivity. Qed.

(** ** C19: credentials of the dlog scheme *)
(** Accepted are exactly the credentials that carry the given attributes and satisfy the BBS+ equation for the user's secret. *)
Theorem C19_csp : forall C (OK : CurveOk C) (H : hasher C) (T : translator C) c_ipk c_ik c_req c_cred c_sig c_nsig c_cri EC (EE : ecenv EC) sha256 e c
    (sk : Zr C) (exportable : bool) (ipk : IssuerPublicKey) (B : Bases C) (raw digest : bytes) (attributes : list attribute),
  let X := dlog_scheme H T c_ipk c_ik c_req c_cred c_sig c_nsig c_cri EE sha256 in
  New X (dlog_math T EE sha256) false e = Ok c -> ipk_bases T ipk B ->
  csp_Verify c (Some (KUserSecret (sk : u_zr (dlogU C EC)) exportable)) raw digest
    (Some (SCred attributes (Some (KIssuerPublic (Some (Some ipk) : u_ipk (dlogU C EC)))))) = accepted <->
  raw <> [] /\ exists cred A x s attrs, dec c_cred raw = Some cred /\
    (forall i a, nth_error attributes i = Some a -> attr_carried H cred i a) /\
    cred_means T cred A x s attrs /\ Forall (fun a => a <> None) (cr_attrs cred) /\ length attrs <= length (b_attrs B) /\
    g1_from_proto T (cr_b cred) = Ok (cred_base B s sk attrs) /\ bbs_valid B A x s sk attrs.
Proof.
  intros C OK H T c_ipk c_ik c_req c_cred c_sig c_nsig c_cri EC EE sha256 e c sk ex ipk B raw digest attributes X N HB.
  rewrite (csp_decided (k := KUserSecret (sk : u_zr (dlogU C EC)) ex) (o := SCred attributes (Some (KIssuerPublic (Some (Some ipk) : u_ipk (dlogU C EC))))) (raw := raw) (digest := digest) N eq_refl).
  cbn. rewrite (C19_bridge_verify_iff OK H c_cred sk raw attributes HB). reflexivity.
Qed.
Print Assumptions C19_csp.

Example C19_csp_example : ipk_bases tT bipk tB /\
  map (fun l => match csp_Verify xcsp (Some xuser) bcredraw [] (Some (SCred l (Some xipk))) with Ret true false => true | _ => false end) [battrs; rev battrs] = [true; false].
Proof. split; [vm_compute; repeat split; reflexivity|]. vm_compute. reflexivity. Qed.

(** ** C43: credentials of the aries scheme *)
Theorem C43_csp : forall C (OK : CurveOk C) (HG : bytes -> G1 C) (H : hasher C) hkdf c_cred c_sig c_nsig c_cri EC (EE : ecenv EC) sha256 (T : translator C) e c (pk : G2 C) (n : nat)
    (sk : Zr C) (exportable : bool) (raw digest : bytes) (attributes : list attribute),
  let X := aries_scheme HG H hkdf c_cred c_sig c_nsig c_cri EE sha256 in
  bls_sizes C -> New X (aries_math T EE sha256) false e = Ok c -> length attributes = n -> Forall typed attributes ->
  csp_Verify c (Some (KUserSecret (sk : u_zr (ariesU C EC)) exportable)) raw digest
    (Some (SCred attributes (Some (KIssuerPublic (Some (Some (issuer_key HG pk n)) : u_ipk (ariesU C EC)))))) = accepted <->
  raw <> [] /\ exists cr sg k, dec c_cred raw = Some cr /\ parseSignature C (ac_cred cr) = Ok sg /\ ac_skpos cr = Z.of_nat k /\ k <= n /\
    n <= length (ac_attrs cr) /\
    let certified := firstn n (map (zr_of_bytes C) (ac_attrs cr)) in
    Forall2 (attr_agrees H) attributes certified /\
    bbs_signature pk (gen0 HG pk (n + 1)) (BbsSpec.gens HG pk (n + 1)) (si_a sg) (si_e sg) (si_s sg) (firstn k certified ++ sk :: skipn k certified).
Proof.
  intros C OK HG H hkdf c_cred c_sig c_nsig c_cri EC EE sha256 T e c pk n sk ex raw digest attributes X BS N L Ty.
  rewrite (csp_decided (k := KUserSecret (sk : u_zr (ariesU C EC)) ex) (o := SCred attributes (Some (KIssuerPublic (Some (Some (issuer_key HG pk n)) : u_ipk (ariesU C EC))))) (raw := raw) (digest := digest) N eq_refl).
  pose proof (C43_credential_verification OK HG H c_cred BS pk sk raw L Ty) as E. cbv zeta in E |- *. rewrite <- E. reflexivity.
Qed.
Print Assumptions C43_csp.

Example C43_csp_example : Forall typed xa_attrs /\
  map (fun l => match csp_Verify ycsp (Some (KUserSecret (xa_sk : u_zr yU) true)) xa_credb [] (Some (SCred l (Some yipk))) with Ret true false => true | _ => false end)
    [xa_attrs; xa_certified; [hidden_attr; {| at_type := BytesAttr; at_value := VBytes (str "bob") |}; hidden_attr]] = [true; true; false].
Proof. split; [repeat constructor; discriminate|]. vm_compute. reflexivity. Qed.

(** ** C33: blind credential requests of the aries scheme *)
(** Partial, as [C33_request_knowledge_partial]: the two requests share the commitment of the proof. *)
Theorem C33_csp_partial : forall C (OK : CurveOk C) (HG : bytes -> G1 C) (H : hasher C) hkdf c_cred c_sig c_nsig c_cri EC (EE : ecenv EC) sha256 (T : translator C) e c (pk : G2 C) (n : nat)
    (req1 req2 d1 d2 nonce1 nonce2 : bytes) (i1 i2 : option (key (ariesU C EC))) (f1 f2 : bytes) (b1 b2 : BlindedMessages C),
  let X := aries_scheme HG H hkdf c_cred c_sig c_nsig c_cri EE sha256 in
  let key := KIssuerPublic (Some (Some (issuer_key HG pk n)) : u_ipk (ariesU C EC)) in
  bls_sizes C -> (Z.of_nat (n + 1) <= 4294967295)%Z -> New X (aries_math T EE sha256) false e = Ok c ->
  csp_Verify c (Some key) req1 d1 (Some (SBlind i1 nonce1 f1)) = accepted -> csp_Verify c (Some key) req2 d2 (Some (SBlind i2 nonce2 f2)) = accepted ->
  parseBlindedMessages C req1 = Ok b1 -> parseBlindedMessages C req2 = Ok b2 ->
  bl_c b1 = bl_c b2 -> pf_comm (bl_proof b1) = pf_comm (bl_proof b2) ->
  length (pf_resp (bl_proof b1)) = 2 -> length (pf_resp (bl_proof b2)) = 2 ->
  let c1 := H (g1_bytes C (bl_c b1) ++ g1_bytes C (bl_pokc b1) ++ nonce1) in
  let c2 := H (g1_bytes C (bl_c b2) ++ g1_bytes C (bl_pokc b2) ++ nonce2) in
  c1 <> c2 ->
  let x := extract_at c1 c2 (pf_resp (bl_proof b1)) (pf_resp (bl_proof b2)) in
  opens (base_at HG pk n 0) (gen0 HG pk (n + 1)) (bl_c b1) (x 1) (x 0).
Proof.
  intros C OK HG H hkdf c_cred c_sig c_nsig c_cri EC EE sha256 T e c pk n req1 req2 d1 d2 nonce1 nonce2 i1 i2 f1 f2 b1 b2 X key BS B N V1 V2.
  apply (csp_decided (k := key) (o := SBlind i1 nonce1 f1) N eq_refl) in V1. apply (csp_decided (k := key) (o := SBlind i2 nonce2 f2) N eq_refl) in V2.
  exact (@C33_request_knowledge_partial C OK HG H pk n 0 req1 req2 nonce1 nonce2 b1 b2 BS B (Nat.le_0_l n) (proj2 V1) (proj2 V2)).
Qed.
Print Assumptions C33_csp_partial.

Example C33_csp_example :
  map (fun n => match csp_Verify ycsp (Some yipk) (xa_req (str (fst n))) [] (Some (SBlind None (str (snd n)) [])) with Ret true false => true | _ => false end)
    [("n1", "n1"); ("n2", "n2"); ("n1", "n2")]%string = [true; true; false].
Proof. vm_compute. reflexivity. Qed.

(** ** C21 and C20: revocation *)
Theorem C21_aries_csp : forall C (HG : bytes -> G1 C) (H : hasher C) hkdf c_cred c_sig c_nsig (c_cri : codec ACRI) EC (EE : ecenv EC) sha256 (T : translator C) e c
    (pk : ec_pk EC) (raw digest : bytes) (epoch alg : Z) (handles : list bytes) (issued : list ACRI),
  let X := aries_scheme HG H hkdf c_cred c_sig c_nsig c_cri EE sha256 in
  New X (aries_math T EE sha256) false e = Ok c ->
  (forall x y b, enc c_cri x = Some b -> enc c_cri y = Some b -> x = y) ->
  csp_Verify c (Some (KRevPublic (pk : u_epk (ariesU C EC)))) raw digest (Some (SCri epoch alg handles)) = accepted ->
  exists cri b, dec c_cri raw = Some cri /\
    enc c_cri {| acri_epoch := epoch; acri_epochpk := acri_epochpk cri; acri_sig := []; acri_alg := alg |} = Some b /\
    ((exists c0, In c0 issued /\ acri_epoch c0 = epoch /\ acri_alg c0 = alg /\ acri_epochpk c0 = acri_epochpk cri) \/
     forged pk sha256 (enc c_cri) issued (sha256 b) (acri_sig cri) \/
     exists b', b <> b' /\ sha256 b = sha256 b').
Proof.
  intros C HG H hkdf c_cred c_sig c_nsig c_cri EC EE sha256 T e c pk raw digest epoch alg handles issued X N I V.
  apply (csp_decided (k := KRevPublic (pk : u_epk (ariesU C EC))) (o := SCri epoch alg handles) N eq_refl) in V. exact (C21_aries_bound issued I (proj2 V)).
Qed.
Print Assumptions C21_aries_csp.

(** The CSP with the dlog scheme gives the same verdict for every epoch and algorithm asked about, and accepts information for
    epoch 5 as information for epoch 99. *)
Definition xcriraw : bytes := from_ok [] (brRevSign (EC := xEC) tT (tcodec s_cri) bsha (Some (str "k" : ec_sk xEC)) [] 5 0 f1).
Theorem C21_csp_refuted :
  (forall C (H : hasher C) (T : translator C) c_ipk c_ik c_req c_cred c_sig c_nsig c_cri EC (EE : ecenv EC) sha256 e c (pk : ec_pk EC) raw digest ep1 ep2 alg1 alg2 h1 h2,
     New (dlog_scheme H T c_ipk c_ik c_req c_cred c_sig c_nsig c_cri EE sha256) (dlog_math T EE sha256) false e = Ok c ->
     csp_Verify c (Some (KRevPublic (pk : u_epk (dlogU C EC)))) raw digest (Some (SCri ep1 alg1 h1)) = accepted ->
     csp_Verify c (Some (KRevPublic (pk : u_epk (dlogU C EC)))) raw digest (Some (SCri ep2 alg2 h2)) = accepted) /\
  New xX xM false true = Ok xcsp /\ option_map cri_epoch (dec (tcodec s_cri) xcriraw) = Some 5%Z /\
  csp_Verify xcsp (Some (KRevPublic (str "k" : u_epk xU))) xcriraw [] (Some (SCri 99 7 [])) = accepted.
Proof.
  split.
  - intros C H T c_ipk c_ik c_req c_cred c_sig c_nsig c_cri EC EE sha256 e c pk raw digest ep1 ep2 alg1 alg2 h1 h2 N V.
    apply (csp_decided (k := KRevPublic (pk : u_epk (dlogU C EC))) (o := SCri ep1 alg1 h1) N eq_refl) in V. apply (csp_decided (k := KRevPublic (pk : u_epk (dlogU C EC))) (o := SCri ep2 alg2 h2) N eq_refl). exact V.
  - split; [exact xcsp_new|]. split; vm_compute; reflexivity.
Qed.
Print Assumptions C21_csp_refuted.

Definition ycriraw : bytes := from_ok [] (arRevSign (C := toy32) (EC := xEC) bsha xa_ccri (Some (str "k" : ec_sk xEC)) [] 5 0 (zr_of_Z toy32 1)).
Example C21_aries_csp_example :
  map (fun ep => match csp_Verify ycsp (Some (KRevPublic (str "k" : u_epk yU))) ycriraw [] (Some (SCri ep 0 [])) with Ret true false => true | _ => false end) [5; 6]%Z = [true; false].
Proof. vm_compute. reflexivity. Qed.

(** C20 is false for the CSP as well: whatever epoch and revocation key the caller asks for, the verdict is the same, and a
    signature made for epoch 5 is accepted for epoch 99. *)
Definition with_revocation U (so : signer_opts U) (epoch : Z) (rev : option (u_epk U)) : signer_opts U :=
  {| so_nym := so_nym so; so_ipk := so_ipk so; so_cred := so_cred so; so_attrs := so_attrs so; so_rh := so_rh so; so_eid := so_eid so; so_sk := so_sk so;
     so_cri := so_cri so; so_epoch := epoch; so_revpk := option_map (fun k => KRevPublic k) rev; so_sigtype := so_sigtype so; so_meta := so_meta so;
     so_vertype := so_vertype so |}.
Definition xshow : signer_opts xU :=
  {| so_nym := None; so_ipk := None; so_cred := []; so_attrs := bshow; so_rh := 3; so_eid := 2; so_sk := 0; so_cri := []; so_epoch := 0; so_revpk := None;
     so_sigtype := Standard; so_meta := None; so_vertype := ExpectEidNymRhNym |}.
Theorem C20_csp_refuted :
  (forall C (H : hasher C) (T : translator C) c_ipk c_ik c_req c_cred c_sig c_nsig c_cri EC (EE : ecenv EC) sha256 e c (ipk : u_ipk (dlogU C EC)) raw digest so
      ep1 ep2 (rev1 rev2 : option (u_epk (dlogU C EC))),
     New (dlog_scheme H T c_ipk c_ik c_req c_cred c_sig c_nsig c_cri EE sha256) (dlog_math T EE sha256) false e = Ok c ->
     csp_Verify c (Some (KIssuerPublic ipk)) raw digest (Some (SSigner (with_revocation so ep1 rev1))) = accepted ->
     csp_Verify c (Some (KIssuerPublic ipk)) raw digest (Some (SSigner (with_revocation so ep2 rev2))) = accepted) /\
  New xX xM false true = Ok xcsp /\ option_map sg_epoch (dec (tcodec s_sig) bsigraw) = Some 5%Z /\
  csp_Verify xcsp (Some xipk) bsigraw tmsg (Some (SSigner (with_revocation xshow 99 (Some (str "other key" : u_epk xU))))) = accepted.
Proof.
  split.
  - intros C H T c_ipk c_ik c_req c_cred c_sig c_nsig c_cri EC EE sha256 e c ipk raw digest so ep1 ep2 rev1 rev2 N V.
    assert (D : forall ep rev, deciding (dlog_scheme H T c_ipk c_ik c_req c_cred c_sig c_nsig c_cri EE sha256) (KIssuerPublic ipk) raw digest (SSigner (with_revocation so ep rev))
                = Some (brVerify H T c_sig ipk raw digest (so_attrs so) (so_rh so) (so_eid so) rev ep (so_vertype so) (so_meta so))) by (intros ep [k|]; reflexivity).
    apply (csp_decided N (D ep1 rev1)) in V. apply (csp_decided N (D ep2 rev2)). destruct V as (R & V). split; [exact R|].
    apply C10_bridge_verify in V. destruct V as (k & sig & K & Ds & Ty & V).
    apply C10_bridge_verify. exists k, sig. split; [exact K|]. split; [exact Ds|]. split; [exact Ty|]. rewrite <- V. apply (proj2 C20_refuted).
  - split; [exact xcsp_new|]. split; vm_compute; reflexivity.
Qed.
Print Assumptions C20_csp_refuted.
