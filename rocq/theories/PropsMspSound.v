(** C74: what a valid identity of an MSP says about its holder. *)
From Verif Require Import Base Curve Algebra Spec Bbs BbsSpec BbsFacts Aries AriesSpec Dlog DlogSpec Bridge BridgeFacts Translator PropsDlog PropsAries PropsBridge
  Csp CspInst CspSpec CspFacts RunSpec RunFacts Msp MspSpec MspFacts PropsMsp Toy ToyBbs ToyDlog ToyCodec ToyAries ToyCsp ToyMsp.
Unset Strict Implicit.

(** ** The dlog scheme *)
(** Two identities the MSP accepts, for the same organizational unit and role, whose proofs answer
    different challenges [c1 <> c2] to the same first message, give a credential of the MSP's issuer
    on that organizational unit and that role.  (An adversary who makes valid identities makes such a pair by the
    forking argument, which is not part of the model.) *)
Definition same_claims U (i1 i2 : identity U) : Prop := ou_id (i_ou i1) = ou_id (i_ou i2) /\ ro_role (i_role i1) = ro_role (i_role i2).

Definition shown_flags : bytes := [Byte.x01; Byte.x01; Byte.x00; Byte.x00].
Definition shown_values C (H : hasher C) (ou : bytes) (role : Z) : list (option (Zr C)) :=
  [Some (H ou); Some (zr_of_int C (getIdemixRoleFromMSPRoleValue role)); None; None].

Theorem C74_dlog : forall C (OK : CurveOk C) (H : hasher C) (T : translator C) c_ipk c_ik c_req c_cred c_sig c_nsig c_cri EC (EE : ecenv EC) sha256
    (h : heap (dlogU C EC)) l m (ipk : IssuerPublicKey) (B : Bases C) r i1 i2 sig1 sig2 (F1 F2 : VerFirst C),
  let X := dlog_scheme H T c_ipk c_ik c_req c_cred c_sig c_nsig c_cri EE sha256 in
  let M := dlog_math T EE sha256 in
  let ou := ou_id (i_ou i1) in let role := ro_role (i_role i1) in
  nth_error h l = Some m -> ready X M m (Some (Some ipk) : u_ipk (dlogU C EC)) r -> ipk_bases T ipk B ->
  i_msp i1 = l -> i_msp i2 = l -> same_claims i1 i2 ->
  Validate h l (IdPlain i1) = Ok tt -> Validate h l (IdPlain i2) = Ok tt ->
  dec c_sig (i_proof i1) = Some sig1 -> dec c_sig (i_proof i2) = Some sig2 ->
  Ver_first T sig1 shown_flags ipk [] (shown_values H ou role) 3 2 Basic = Ok F1 ->
  Ver_first T sig2 shown_flags ipk [] (shown_values H ou role) 3 2 Basic = Ok F2 ->
  vf_data F1 = vf_data F2 -> vf_c F1 <> vf_c F2 ->
  let w := extract T shown_flags (shown_values H ou role) sig1 sig2 in
  bbs_valid B (w_A w) (w_e w) (w_s w) (w_sk w) (w_attrs w) /\
  exists eid rh, w_attrs w = [H ou; zr_of_int C (getIdemixRoleFromMSPRoleValue role); eid; rh].
Proof.
  intros C OK H T c_ipk c_ik c_req c_cred c_sig c_nsig c_cri EC EE sha256 h l m ipk B r i1 i2 sig1 sig2 F1 F2 X M ou role L R HB I1 I2 [SO SR] V1 V2 D1 D2 E1 E2 SD NC w.
  assert (L1 : nth_error h (i_msp i1) = Some m) by (rewrite I1; exact L). assert (L2 : nth_error h (i_msp i2) = Some m) by (rewrite I2; exact L).
  apply (C51_partial L L1 R) in V1. apply (C51_partial L L2 R) in V2. destruct V1 as (_ & _ & V1). destruct V2 as (_ & _ & V2).
  rewrite <- SO, <- SR in V2. fold ou role in V1, V2.
  assert (Q : forall p sg, dec c_sig p = Some sg -> s_verify X (Some (Some ipk) : u_ipk (dlogU C EC)) p [] (claims ou role) 3 2 0 (Some r) 0 Basic None = Ok tt ->
            Ver H T sg shown_flags (Some ipk) [] (shown_values H ou role) 3 2 (Some r) 0 Basic None = Ok tt).
  { clear. intros p sg D V. cbn [s_verify X dlog_scheme] in V. unfold brVerify in V. cbn [opt_err bind] in V. rewrite D in V. cbn [opt_err bind] in V.
    unfold recover in V. match type of V with match ?x with _ => _ end = _ => destruct x as [[]| |] eqn:G; [exact G|discriminate V..] end. }
  destruct (@C03_special_soundness C OK H H T sig1 sig2 shown_flags ipk [] (shown_values H ou role) 3 2 Basic B F1 F2 _ _ (Some r) (Some r) 0 0 None None) as (W & Ln & Ag & _).
  { split; [exact HB|]. split; [exact (Q _ _ D1 V1)|]. split; [exact (Q _ _ D2 V2)|]. split; [exact E1|]. split; [exact E2|]. split; assumption. }
  fold w in W, Ln, Ag. split; [exact W|].
  destruct (Ag 0 Byte.x01 eq_refl ltac:(discriminate)) as (a & A1 & A2). destruct (Ag 1 Byte.x01 eq_refl ltac:(discriminate)) as (b & B1 & B2).
  injection A1 as <-. injection B1 as <-. change (length shown_flags) with 4 in Ln.
  destruct (w_attrs w) as [|x0 [|x1 [|x2 [|x3 [|]]]]]; cbn in Ln; try lia. injection A2 as ->. injection B2 as ->. exists x2, x3. reflexivity.
Qed.

(** ** The aries scheme *)
(** The same under the conditions of C35 and C37: the proofs carry one response for each hidden message and
    the positions shown are those of the organizational unit and the role. *)
Theorem C74_aries_partial : forall C (OK : CurveOk C) (HG : bytes -> G1 C) (H : hasher C) hkdf c_cred c_sig c_nsig c_cri EC (EE : ecenv EC) sha256
    (h : heap (ariesU C EC)) l m (pk : G2 C) r i1 i2 (f1 f2 : AVerFirst C),
  let X := aries_scheme HG H hkdf c_cred c_sig c_nsig c_cri EE sha256 in
  let M := aries_math (Gurvy C) EE sha256 in
  let key := Some (Some (issuer_key HG pk 4)) in
  let ou := ou_id (i_ou i1) in let role := ro_role (i_role i1) in
  let challenge (f : AVerFirst C) := challenge2 H (Aries.vf_data f) (as_nonce (vf_sig f)) in
  bls_sizes C ->
  nth_error h l = Some m -> ready X M m (key : u_ipk (ariesU C EC)) r ->
  i_msp i1 = l -> i_msp i2 = l -> same_claims i1 i2 ->
  Validate h l (IdPlain i1) = Ok tt -> Validate h l (IdPlain i2) = Ok tt ->
  arVerify_first H c_sig key (i_proof i1) [] (claims ou role) 0 Basic = Ok f1 ->
  arVerify_first H c_sig key (i_proof i2) [] (claims ou role) 0 Basic = Ok f2 ->
  same_first f1 f2 -> one_response_each 4 false f1 -> one_response_each 4 false f2 -> challenge f1 <> challenge f2 ->
  (forall j, In j (vf_revealed f1) <-> j = 1 \/ j = 2) ->
  exists A e s sk eid rh,
    bbs_signature pk (gen0 HG pk 5) (BbsSpec.gens HG pk 5) A e s [sk; H ou; zr_of_Z C (getIdemixRoleFromMSPRoleValue role); eid; rh].
Proof.
  intros C OK HG H hkdf c_cred c_sig c_nsig c_cri EC EE sha256 h l m pk r i1 i2 f1 f2 X M key ou role challenge BS L R I1 I2 [SO SR] V1 V2 E1 E2 SF O1 O2 NC RV.
  assert (FK : aries_forked HG H c_sig pk 4 (i_proof i1) (i_proof i2) [] (claims ou role) 3 2 Basic None None f1 f2 (challenge f1) (challenge f2)).
  { assert (L1 : nth_error h (i_msp i1) = Some m) by (rewrite I1; exact L). assert (L2 : nth_error h (i_msp i2) = Some m) by (rewrite I2; exact L).
    apply (C51_partial L L1 R) in V1. apply (C51_partial L L2 R) in V2. destruct V1 as (_ & _ & V1). destruct V2 as (_ & _ & V2).
    rewrite <- SO, <- SR in V2. fold ou role in V1, V2.
    assert (V1' : arVerify H c_sig key (i_proof i1) [] (claims ou role) 3 2 0 Basic None = Ok tt) by exact V1.
    assert (V2' : arVerify H c_sig key (i_proof i2) [] (claims ou role) 3 2 0 Basic None = Ok tt) by exact V2.
    unfold arVerify in V1', V2'. rewrite E1 in V1'. rewrite E2 in V2'. cbn [bind] in V1', V2'.
    split; [lia|]. split; [lia|]. split; [exact E1|]. split; [exact E2|]. split; [exact V1'|]. split; [exact V2'|]. split; [exact SF|]. split; [exact O1|]. split; [exact O2|exact NC]. }
  destruct (C35_soundness_partial OK BS FK) as (Ln & Sg & _). cbv zeta in Ln, Sg. specialize (Sg eq_refl).
  assert (Agr : Forall2 (attr_agrees H) (claims ou role) (skipn 1 (extracted 4 (ver_smartcard Basic) f1 f2 (challenge f1) (challenge f2)))).
  { apply (C37_attributes_bound_partial OK BS FK); [repeat constructor; discriminate|reflexivity|]. intro j. rewrite RV. split.
    - intros [-> | ->]; [exists 0|exists 1]; eexists; (split; [reflexivity|]); (split; [reflexivity|discriminate]).
    - intros (k & a & -> & N & NH). destruct k as [|[|[|[|k]]]]; [left; reflexivity|right; reflexivity|injection N as <-; elim NH; reflexivity..|destruct k; discriminate N]. }
  destruct (extracted 4 (ver_smartcard Basic) f1 f2 (challenge f1) (challenge f2)) as [|x0 [|x1 [|x2 [|x3 [|x4 [|]]]]]]; cbn in Ln; try lia.
  cbn [skipn] in Agr. inversion Agr as [|a1 y1 l1 l1' A1 Agr1]; subst. inversion Agr1 as [|a2 y2 l2 l2' A2 _]; subst.
  destruct A1 as [F|A1]; [discriminate F|]. destruct A2 as [F|A2]; [discriminate F|]. cbn in A1, A2. subst x1 x2. do 3 eexists. exists x0, x3, x4. exact Sg.
Qed.

(** Missing: the conditions are needed, and without them everything fails.  One byte string, which depends on no
    key, is an association proof for every aries MSP, every organizational unit and every role.  With it
    whoever has no credential makes an identity under a pseudonym of theirs that the MSP validates, that
    satisfies the principals of that organizational unit and role, and for which their signatures verify. *)
Theorem C74_aries_refuted : forall C (OK : CurveOk C) (HG : bytes -> G1 C) (c_sig : codec ASignature) (c_nsig : codec ANymSignature),
  bls_sizes C -> codec_ok canon_asig c_sig -> nothing_is no_asignature c_sig -> codec_ok (fun _ => True) c_nsig -> nothing_is no_anymsig c_nsig ->
  exists proof, forall (H : hasher C) hkdf c_cred c_cri EC (EE : ecenv EC) sha256 (CD : codecs) (h : heap (ariesU C EC)) l m (pk : G2 C) r,
    let X := aries_scheme HG H hkdf c_cred c_sig c_nsig c_cri EE sha256 in
    let M := aries_math (Gurvy C) EE sha256 in
    let key := Some (Some (issuer_key HG pk 4)) in
    nested_shorter CD -> nth_error h l = Some m -> ready X M m (key : u_ipk (ariesU C EC)) r ->
    forall (ou : ou_msg) (role : role_msg) (sk rnd nonce : Zr C) (bl : nat -> Zr C) (raw msg : bytes),
    exists Nym sig,
      arMakeNym 0 sk key rnd = Ok (Nym, rnd) /\ arNymSign H c_nsig 0 sk Nym rnd key msg nonce bl = Ok sig /\
      let i := {| i_nym := KNymPublic (Nym : u_g1 (ariesU C EC)); i_raw := raw; i_msp := l; i_id := p_name m; i_role := role; i_ou := ou; i_proof := proof |} in
      Validate h l (IdPlain i) = Ok tt /\ id_Verify h i msg sig = Ok tt /\
      forall p, SatisfiesPrincipal CD h l (IdPlain i) (Some p) = Ok tt <->
        holds CD (p_name m) (p_version m) (ro_role role) (ou_id ou) (res_opt (Serialize CD h i)) p.
Proof.
  intros C OK HG c_sig c_nsig BS CS ZS CN ZN.
  destruct (@C35_refuted C OK HG c_sig BS CS 4 [1; 2] Basic ltac:(cbn; lia) ltac:(repeat constructor) ltac:(intros j [<-|[<-|[]]]; lia)) as (proof & F).
  exists proof. intros H hkdf c_cred c_cri EC EE sha256 CD h l m pk r X M key NS L R ou role sk rnd nonce bl raw msg.
  destruct (@C14_aries_nym C OK HG H c_nsig BS (fun x => CN x I) pk 4 0 sk rnd nonce msg bl ltac:(lia)) as (Nym & sig & E1 & _ & E2 & E3).
  exists Nym, sig. split; [exact E1|]. split; [exact E2|]. cbv zeta.
  match goal with |- Validate _ _ (IdPlain ?x) = _ /\ _ => set (i := x) end.
  assert (V : Validate h l (IdPlain i) = Ok tt).
  { assert (V : arVerify H c_sig (Some (Some (issuer_key HG pk 4))) proof [] (claims (ou_id ou) (ro_role role)) 3 2 0 Basic None = Ok tt)
      by exact (F H pk [] (claims (ou_id ou) (ro_role role)) _ 2 3 ltac:(lia) ltac:(lia) eq_refl (le_n 2)).
    apply (@C51_partial _ h l m m X M _ r i L L R). split; [reflexivity|]. split; [exact (@asig_nonempty _ _ _ _ _ _ _ _ _ _ _ _ ZS V)|exact V]. }
  split; [exact V|]. split.
  - pose proof (@anymsig_nonempty _ _ _ _ _ _ _ _ ZN E3) as NE. rewrite (@id_verify_ready _ X M h m _ r i Nym msg sig L R eq_refl). clear R.
    destruct (length sig =? 0) eqn:Z; [apply Nat.eqb_eq, length_zero_iff_nil in Z; contradiction|]. exact E3.
  - intro p. rewrite (C50_partial i p NS L). split; [intros [_ Q]; exact Q|intro Q; split; [exact V|exact Q]].
Qed.

(** ** Examples *)
(** The MSP of ToyMsp.v set up twice with the same draws, except for the nonce of the association proof. *)
Definition ndraw : u_draw xU := {| dd_issuer := dd_issuer xdraw; dd_zr := dd_zr xdraw; dd_sig := tR f26; dd_esk := dd_esk xdraw |}.
Definition nid : identity xU :=
  match p_signer (snd (setup_at mCD mE 0 m0 xdraw ndraw (Some (IDEMIX, mraw (mconf (Some msigner)))))) with Some s => g_identity s | None => mbare end.
Definition nproof (i : identity xU) : Dlog.Signature := match dec (tcodec s_sig) (i_proof i) with Some s => s | None => tsig_at f25 end.
Definition nfirst (i : identity xU) : VerFirst tC :=
  from_ok (tfirst (tsig_at f25)) (Ver_first tT (nproof i) shown_flags bipk [] (shown_values tH (str "ou") MSPRole_ADMIN) 3 2 Basic).
Lemma toy_ready_key : exists r, ready xX xM m1 mbipk r.
Proof.
  destruct (@setup_ready xU mCD mE 0 m0 xdraw xdraw IDEMIX (mraw (mconf (Some msigner))) (mconf (Some msigner)) FP256BN_AMCL xX xM m1 toy_setup toy_conf toy_curve toy_pack) as (ipk & r & R & K & _).
  exists r. assert (K' : s_issuerPkFromBytes xX (cf_ipk (mconf (Some msigner))) attribute_names = IOk mbipk) by (vm_compute; reflexivity).
  pose proof (eq_trans (eq_sym K) K') as Q. injection Q as ->. exact R.
Qed.
Example C74_dlog_example : (exists r, ready xX xM m1 mbipk r) /\ ipk_bases tT bipk tB /\ i_msp mid = 0 /\ i_msp nid = 0 /\ same_claims mid nid /\
  ou_id (i_ou mid) = str "ou" /\ ro_role (i_role mid) = MSPRole_ADMIN /\
  Validate mheap 0 (IdPlain mid) = Ok tt /\ Validate mheap 0 (IdPlain nid) = Ok tt /\
  dec (tcodec s_sig) (i_proof mid) = Some (nproof mid) /\ dec (tcodec s_sig) (i_proof nid) = Some (nproof nid) /\
  Ver_first tT (nproof mid) shown_flags bipk [] (shown_values tH (str "ou") MSPRole_ADMIN) 3 2 Basic = Ok (nfirst mid) /\
  Ver_first tT (nproof nid) shown_flags bipk [] (shown_values tH (str "ou") MSPRole_ADMIN) 3 2 Basic = Ok (nfirst nid) /\
  Dlog.vf_data (nfirst mid) = Dlog.vf_data (nfirst nid) /\ vf_c (nfirst mid) <> vf_c (nfirst nid).
Proof.
  split; [exact toy_ready_key|]. split; [vm_compute; repeat split; reflexivity|].
  do 2 (split; [vm_compute; reflexivity|]). split; [split; vm_compute; reflexivity|]. do 6 (split; [vm_compute; reflexivity|]).
  split; [apply from_ok_eq; vm_compute; reflexivity|]. split; [apply from_ok_eq; vm_compute; reflexivity|]. split; [vm_compute; reflexivity|]. vm_compute. discriminate.
Qed.

(** An issuer with the four attributes of an MSP, and two presentations with the same draws and different nonces. *)
Definition nvals : list (Zr toy32) := [h32 (str "ou"); zr_of_Z toy32 ADMIN; h32 (str "id"); h32 (str "rh")].
Definition nA : G1 toy32 :=
  Eval vm_compute in (bbs_base (gen0 hg32 xa_pk 5) (BbsSpec.gens hg32 xa_pk 5) xa_s (xa_sk :: nvals) ⊗ zinv (zadd xa_isk xa_e)).
Definition nkey : iface (AIssuerPublicKey toy32) := Some (Some (issuer_key hg32 xa_pk 4)).
Definition nshown (nonce : Zr toy32) : bytes :=
  match (let* '(Nym, RNym) := arMakeNym 0 xa_sk nkey xa_RNym in
         arSign h32 xa_ccred xa_csig xa_ccri (ser s_acred (credential_of nA xa_e xa_s nvals)) xa_sk Nym RNym nkey (claims (str "ou") MSPRole_ADMIN) [] 3 2 xa_crib Standard None (xa_draws nonce))
  with Ok (b, _) => b | _ => [] end.
Definition naries (proof : bytes) : identity yU :=
  {| i_nym := KNymPublic (gzero : u_g1 yU); i_raw := []; i_msp := 0; i_id := mname; i_role := {| ro_mspid := mname; ro_role := MSPRole_ADMIN |};
     i_ou := {| ou_mspid := mname; ou_id := str "ou"; ou_certifiers := [] |}; i_proof := proof |}.
Definition nmsp : msp yU :=
  {| p_csp := Some ycsp; p_version := 2; p_ipk := Some (KIssuerPublic (nkey : u_ipk yU)); p_signer := None; p_name := mname; p_revpk := Some (KRevPublic (str "k" : u_epk yU)) |}.
Lemma nmsp_ready : ready yX yM nmsp (nkey : u_ipk yU) (str "k" : u_epk yU).
Proof.
  split; [|split; reflexivity]. exists ycsp. split; [reflexivity|]. unfold ycsp. destruct (new_exists yX yM true) as [c N]. rewrite N. reflexivity.
Qed.
Example C74_aries_example : bls_sizes toy32 /\ ready yX yM nmsp (nkey : u_ipk yU) (str "k" : u_epk yU) /\
  Validate [nmsp] 0 (IdPlain (naries (nshown f16))) = Ok tt /\ Validate [nmsp] 0 (IdPlain (naries (nshown f17))) = Ok tt /\
  (exists u w c1 c2, aries_forked hg32 h32 xa_csig xa_pk 4 (nshown f16) (nshown f17) [] (claims (str "ou") MSPRole_ADMIN) 3 2 Basic None None u w c1 c2) /\
  match arVerify_first h32 xa_csig nkey (nshown f16) [] (claims (str "ou") MSPRole_ADMIN) 0 Basic with Ok f => vf_revealed f = [2; 1] | _ => False end.
Proof.
  split; [exact toy32_sizes|]. split; [exact nmsp_ready|]. split; [vm_compute; reflexivity|]. split; [vm_compute; reflexivity|].
  split; [apply (forkb_ok toy32_ok); try lia; vm_compute; reflexivity|]. vm_compute. reflexivity.
Qed.
Example C74_refuted_example : bls_sizes toy32 /\ codec_ok canon_asig xa_csig /\ nothing_is no_asignature xa_csig /\ codec_ok (fun _ => True) xa_cnsig /\
  nothing_is no_anymsig xa_cnsig /\ nested_shorter mCD /\ exists pk r, ready yX yM nmsp (Some (Some (issuer_key hg32 pk 4)) : u_ipk yU) r.
Proof.
  split; [exact toy32_sizes|]. split; [exact xa_csig_ok|]. split; [intros x D; discriminate D|]. split; [intros x _; apply xa_cnsig_ok|].
  split; [intros x D; discriminate D|]. split; [exact mCD_shorter|]. exists xa_pk, (str "k" : u_epk yU). exact nmsp_ready.
Qed.

Print Assumptions C74_dlog.
Print Assumptions C74_aries_partial.
Print Assumptions C74_aries_refuted.
