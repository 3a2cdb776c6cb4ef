(** Lemmas for PropsAnon.v. *)
From Verif Require Import Base Curve Algebra Spec Dlog DlogSpec DlogFacts DlogData DlogSound DlogComplete DlogSign DlogBind DlogTop DlogHide Bbs BbsSpec BbsFacts BbsProof BbsComplete Aries AriesSpec AriesNym AriesReqHide Bridge BridgeFacts Translator Csp CspInst CspSpec CspFacts Msp MspSpec MspFacts AnonSpec.
From Coq Require Import Field Ring.
Unset Strict Implicit.

(** ** Observers who choose the messages *)
Section Adaptive.
  Variable Y : Type.
  Fixpoint shifts (S : Y -> bytes -> res bytes) (f : bytes -> Y -> Y) (adv : list bytes -> bytes) (seen : list bytes) (ys : list Y) : list Y :=
    match ys with
    | [] => []
    | y :: ys => f (adv seen) y :: shifts S f adv (seen ++ [match S y (adv seen) with Ok s => s | _ => [] end]) ys
    end.

  Lemma shifts_ok S1 S2 f g adv : (forall m y, exists sig, S1 y m = Ok sig /\ S2 (f m y) m = Ok sig /\ g m (f m y) = y) ->
    forall ys seen, shifts S2 g adv seen (shifts S1 f adv seen ys) = ys /\
      exists out, signs S1 adv seen ys = Ok out /\ signs S2 adv seen (shifts S1 f adv seen ys) = Ok out.
  Proof.
    intros F. induction ys as [|y ys IH]; intros seen; cbn [shifts signs]; [split; [reflexivity|]; exists seen; split; reflexivity|].
    destruct (F (adv seen) y) as (sig & E1 & E2 & E3). rewrite E1, E2, E3. cbn [bind]. destruct (IH (seen ++ [sig])) as (I1 & out & I2 & I3).
    split; [rewrite I1; reflexivity|]. exists out. split; assumption.
  Qed.
  Lemma signs_map Z (S : Z -> bytes -> res bytes) (k : Y -> Z) adv : forall ys seen, signs S adv seen (map k ys) = signs (fun y => S (k y)) adv seen ys.
  Proof. induction ys as [|y ys IH]; intros seen; cbn [map signs]; [reflexivity|]. destruct (S (k y) (adv seen)); cbn [bind]; [apply IH|reflexivity..]. Qed.

  (** a bijection of the opening draws and one of the draws of each signature give one of whole sessions *)
  Variable D : Type.
  Variables (eqD : D -> D -> Prop) (ok1 ok2 : D -> Prop) (f1 g1 : D -> D) (open1 open2 : D -> res bytes) (S1 S2 : D -> Y -> bytes -> res bytes) (fm gm : D -> bytes -> Y -> Y).
  Hypothesis H1 : forall x, ok1 x -> ok2 (f1 x) /\ eqD (g1 (f1 x)) x /\ exists ser, open1 x = Ok ser /\ open2 (f1 x) = Ok ser /\
    forall m y, exists sig, S1 x y m = Ok sig /\ S2 (f1 x) (fm x m y) m = Ok sig /\ gm (f1 x) m (fm x m y) = y.
  Hypothesis H2 : forall x, ok2 x -> ok1 (g1 x) /\ eqD (f1 (g1 x)) x /\ exists ser, open2 x = Ok ser /\ open1 (g1 x) = Ok ser /\
    forall m y, exists sig, S2 x y m = Ok sig /\ S1 (g1 x) (gm x m y) m = Ok sig /\ fm (g1 x) m (gm x m y) = y.
  Definition sess (op : D -> res bytes) (S : D -> Y -> bytes -> res bytes) adv (x : D * list Y) : res (list bytes) :=
    let* ser := op (fst x) in signs (S (fst x)) adv [ser] (snd x).
  Lemma sessions adv : exists f g : D * list Y -> D * list Y,
    (forall x, ok1 (fst x) -> ok2 (fst (f x)) /\ eqD (fst (g (f x))) (fst x) /\ snd (g (f x)) = snd x /\ exists seen, sess open1 S1 adv x = Ok seen /\ sess open2 S2 adv (f x) = Ok seen) /\
    (forall x, ok2 (fst x) -> ok1 (fst (g x)) /\ eqD (fst (f (g x))) (fst x) /\ snd (f (g x)) = snd x /\ exists seen, sess open2 S2 adv x = Ok seen /\ sess open1 S1 adv (g x) = Ok seen).
  Proof.
    set (first (o : res bytes) := match o with Ok b => [b] | _ => [] end).
    exists (fun x => (f1 (fst x), shifts (S1 (fst x)) (fm (fst x)) adv (first (open1 (fst x))) (snd x))),
           (fun x => (g1 (fst x), shifts (S2 (fst x)) (gm (fst x)) adv (first (open2 (fst x))) (snd x))).
    split; intros [x ys] O; cbn [fst snd] in *.
    - destruct (H1 O) as (O2 & Q & ser & E1 & E2 & F). rewrite E1, E2. cbn [first]. destruct (shifts_ok adv F ys [ser]) as (B & out & R1 & R2).
      do 3 (split; [assumption|]). exists out. unfold sess. cbn [fst snd]. rewrite E1, E2. split; assumption.
    - destruct (H2 O) as (O2 & Q & ser & E1 & E2 & F). rewrite E1, E2. cbn [first]. destruct (shifts_ok adv F ys [ser]) as (B & out & R1 & R2).
      do 3 (split; [assumption|]). exists out. unfold sess. cbn [fst snd]. rewrite E1, E2. split; assumption.
  Qed.
End Adaptive.

(** ** The MSP *)
Lemma serialize_name U CD (h1 h2 : heap U) m1 m2 i : nth_error h1 (i_msp i) = Some m1 -> nth_error h2 (i_msp i) = Some m2 -> p_name m1 = p_name m2 ->
  Serialize CD h1 i = Serialize CD h2 i.
Proof. intros L1 L2 N. unfold Serialize, GetMSPIdentifier. rewrite L1, L2. cbn [deref bind]. rewrite N. reflexivity. Qed.

Lemma serialize_ok U CD utf8 (h : heap U) m i : codecs_ok utf8 CD -> (forall x, enc (c_ii CD) x <> None) -> nth_error h (i_msp i) = Some m ->
  utf8 (p_name m) -> utf8 (ou_mspid (i_ou i)) -> utf8 (ou_id (i_ou i)) -> utf8 (ro_mspid (i_role i)) -> int32 (ro_role (i_role i)) -> exists b, Serialize CD h i = Ok b.
Proof.
  intros O I L N Ou1 Ou2 Ro1 Ro2. unfold Serialize, GetMSPIdentifier. destruct (@ok_ou _ _ O _ Ou1 Ou2) as (b1 & E1 & _). destruct (@ok_role _ _ O _ Ro1 Ro2) as (b2 & E2 & _).
  rewrite E1, E2. cbn [opt_err bind].
  match goal with |- context [enc (c_ii CD) ?x] => destruct (enc (c_ii CD) x) as [b3|] eqn:E3; [|destruct (I _ E3)] end. cbn [opt_err bind]. rewrite L. cbn [deref bind].
  match goal with |- context [enc (c_si CD) ?x] => destruct (@ok_si _ _ O x N) as (b4 & E4 & _) end. rewrite E4. exists b4. reflexivity.
Qed.

(** A configuration that Setup accepts with some draws is accepted with all draws for which a pseudonym
    and a proof are made, and installs the identity made of them. *)
Section Enter.
  Variable U : universe.
  Variable CD : codecs.
  Variable E : env U.
  Variable X : scheme U.
  Variable M : mathops U.

  Definition made l name (ipk : u_ipk U) sg nym proof : identity U :=
    {| i_nym := KNymPublic nym; i_raw := ex (m_g1ToProto M nym) ++ ey (m_g1ToProto M nym); i_msp := l; i_id := name;
       i_role := {| ro_mspid := name; ro_role := if checkRole (sc_role sg) ADMIN then MSPRole_ADMIN else MSPRole_MEMBER |};
       i_ou := {| ou_mspid := name; ou_id := sc_ou sg; ou_certifiers := s_ipkHash X ipk |}; i_proof := proof |}.

  (** the sessions of a member with secret [sk] *)
  Definition runs h l conf name ipk sg sk : Prop :=
    forall d1 d2 nym r proof md, s_makeNym X d1 sk ipk = Ok (nym, r) -> s_sign X d2 (sc_cred sg) sk nym r ipk disclosure [] 3 2 (sc_cri sg) Standard None = Ok (proof, md) ->
      exists h1 m1 s, enter CD E h l conf d1 d2 = Ok (h1, s) /\ nth_error h1 l = Some m1 /\ p_name m1 = name /\ g_identity s = made l name ipk sg nym proof /\
        forall d msg, id_Sign h1 s d msg = s_nymSign X d sk nym r ipk msg.

  Lemma enter_run h l m a1 a2 ty raw cf sg h' : nth_error h l = Some m -> Setup CD E h l a1 a2 (Some (ty, raw)) = (Ok tt, h') ->
    dec (c_conf CD) raw = Some cf -> cf_signer cf = Some sg ->
    (forall cid p, configured_curve (ev_aries E) (cf_curve cf) = Some cid -> ev_pack E cid = Some p -> p = (X, M)) ->
    exists ipk sk, s_issuerPkFromBytes X (cf_ipk cf) attribute_names = IOk ipk /\ s_userKeyFromBytes X (sc_sk sg) = Ok sk /\
      s_credVerify X sk ipk (sc_cred sg) (credential_attributes (sc_ou sg) (if checkRole (sc_role sg) ADMIN then MSPRole_ADMIN else MSPRole_MEMBER) (sc_eid sg)) = Ok tt /\
      runs h l (ty, raw) (cf_name cf) ipk sg sk.
  Proof.
    intros L S D G PK. unfold Setup in S. rewrite L in S. destruct (setup_at CD E l m a1 a2 (Some (ty, raw))) as [r0 m'] eqn:S0. injection S as -> <-.
    destruct (setup_ok_inv S0) as (ty' & raw' & cf' & cid & X0 & M0 & ipk & r & Q & D' & Ty & CIq & P & NI & I & NR & RV & _ & _ & Sg).
    injection Q as <- <-. rewrite D in D'. injection D' as <-. rewrite G in Sg. pose proof CIq as CIc. rewrite curve_spec in CIq. pose proof (PK _ _ CIq P) as Q. injection Q as -> ->.
    destruct Sg as (s & Hs & sk & nym0 & rr & md0 & K1 & K2 & K3 & K4 & K5 & _). exists ipk, sk. split; [exact I|]. split; [exact K2|]. split; [exact K5|].
    intros d1 d2 nym rn proof md F1 F2. 
    destruct (setup_eq l m d1 d2 D Ty CIc P) as [c [N Q]]. cbv zeta in Q.
    destruct (cf_ipk cf) as [|b0 bs] eqn:IP; [destruct (NI eq_refl)|]. cbn [raw_bytes ibind] in Q. rewrite I in Q.
    destruct (cf_revpk cf) as [|c0 cs] eqn:RP; [destruct (NR eq_refl)|]. cbn [length Nat.eqb] in Q. rewrite RV, G in Q.
    rewrite (setup_signer_eq _ _ _ _ _ _ N) in Q. cbn zeta in Q.
    destruct (sc_sk sg) as [|s0 ss] eqn:SK; [destruct (K1 eq_refl)|]. cbn [length Nat.eqb] in Q. rewrite K2, F1 in Q.
    destruct (sc_cred sg) as [|t0 ts] eqn:SC; [destruct (K4 eq_refl)|]. cbn [length Nat.eqb] in Q. cbn [ro_role] in *. rewrite K5 in Q.
    rewrite F2 in Q.
    match type of Q with _ = (Ok tt, ?mm) => set (m1 := mm) in * end.
    assert (RD : ready X M m1 ipk r) by (split; [exists c; split; [reflexivity|exact N]|split; reflexivity]). clear N.
    assert (L1 : nth_error (put h l m1) l = Some m1) by exact (put_same m1 L).
    exists (put h l m1), m1. eexists. split; [unfold enter, Setup; rewrite L, Q; cbn [bind]; rewrite L1; reflexivity|].
    split; [exact L1|]. split; [reflexivity|]. split; [reflexivity|]. intros d msg. match goal with |- id_Sign _ ?s _ _ = _ => exact (@id_sign_ready _ X M (put h l m1) m1 ipk r s sk true rn nym true d msg L1 RD eq_refl eq_refl) end.
  Qed.

  (** two members with the same pseudonym, proof and claims show the same identity *)
  Lemma shown_same utf8 h l conf1 conf2 name ipk sg1 sg2 sk1 sk2 d1 d2 e1 e2 nym r1 r2 proof md1 md2 : codecs_ok utf8 CD -> (forall x, enc (c_ii CD) x <> None) ->
    utf8 name -> utf8 (sc_ou sg1) -> sc_ou sg1 = sc_ou sg2 -> checkRole (sc_role sg1) ADMIN = checkRole (sc_role sg2) ADMIN ->
    runs h l conf1 name ipk sg1 sk1 -> runs h l conf2 name ipk sg2 sk2 ->
    s_makeNym X d1 sk1 ipk = Ok (nym, r1) -> s_makeNym X e1 sk2 ipk = Ok (nym, r2) ->
    s_sign X d2 (sc_cred sg1) sk1 nym r1 ipk disclosure [] 3 2 (sc_cri sg1) Standard None = Ok (proof, md1) ->
    s_sign X e2 (sc_cred sg2) sk2 nym r2 ipk disclosure [] 3 2 (sc_cri sg2) Standard None = Ok (proof, md2) ->
    (exists ser, shown CD E h l conf1 d1 d2 = Ok ser /\ shown CD E h l conf2 e1 e2 = Ok ser) /\
    (forall d msg, signed CD E h l conf1 d1 d2 d msg = s_nymSign X d sk1 nym r1 ipk msg) /\
    (forall d msg, signed CD E h l conf2 e1 e2 d msg = s_nymSign X d sk2 nym r2 ipk msg).
  Proof.
    intros O CII Un Uo So Sa R1 R2 N1 N2 P1 P2. destruct (R1 _ _ _ _ _ _ N1 P1) as (h1 & m1 & s1 & E1 & L1 & Q1 & I1 & F1).
    destruct (R2 _ _ _ _ _ _ N2 P2) as (h2 & m2 & s2 & E2 & L2 & Q2 & I2 & F2). unfold shown, signed. rewrite E1, E2. cbn [bind].
    split; [|split; assumption].
    assert (Q : made l name ipk sg1 nym proof = made l name ipk sg2 nym proof) by (unfold made; rewrite So, Sa; reflexivity).
    rewrite I1, I2, <- Q. rewrite <- (@serialize_name _ CD h1 h2 m1 m2 (made l name ipk sg1 nym proof) L1 L2 (eq_trans Q1 (eq_sym Q2))).
    destruct (@serialize_ok _ CD utf8 h1 m1 (made l name ipk sg1 nym proof) O CII L1) as [b B]; [rewrite Q1; exact Un|exact Un|exact Uo|exact Un| |exists b; split; exact B].
    cbn [made i_role ro_role]. destruct (checkRole (sc_role sg1) ADMIN); unfold int32, MSPRole_ADMIN, MSPRole_MEMBER; lia.
  Qed.
End Enter.

(** ** Signatures of pseudonyms, dlog *)
Section DlogNym.
  Variable C : Curve.
  Hypothesis OK : CurveOk C.
  Variable H : hasher C.
  Variable T : translator C.
  Local Notation zr := (Zr C).
  Let KO := ok_zr OK.
  Let GO1 := ok_g1 OK.
  Add Field Kf_anon : (sok_field KO).
  Local Open Scope zr_scope.

  Definition nshift ipk (N : G1 C) (sk1 r1 sk2 r2 : zr) (m : bytes) (y : zr * zr * zr) : zr * zr * zr :=
    let '(n, a, b) := y in
    let c := match newNymSignature H T (Some sk1) (Some N) (Some r1) (Some ipk) m n a b with Ok s => zr_of_bytes C (ns_c s) | _ => z0 end in
    (n, a + c * (sk1 - sk2), b + c * (r1 - r2)).

  Lemma nshift_ok ipk HSk HRand N sk1 r1 sk2 r2 m n a b :
    g1_from_proto T (ip_hsk ipk) = Ok HSk -> g1_from_proto T (ip_hrand ipk) = Ok HRand -> gmul2 HSk sk1 HRand r1 = gmul2 HSk sk2 HRand r2 ->
    let '(n', a', b') := nshift ipk N sk1 r1 sk2 r2 m (n, a, b) in
    exists sig, newNymSignature H T (Some sk1) (Some N) (Some r1) (Some ipk) m n a b = Ok sig /\
      newNymSignature H T (Some sk2) (Some N) (Some r2) (Some ipk) m n' a' b' = Ok sig /\
      nshift ipk N sk2 r2 sk1 r1 m (n', a', b') = (n, a, b).
  Proof.
    intros E1 E2 EN. unfold nshift. set (c0 := match newNymSignature H T (Some sk1) _ _ _ _ _ _ _ with Ok _ => _ | _ => _ end).
    assert (Hd : HSk ⊗ (sk1 - sk2) = HRand ⊗ (r2 - r1)).
    { apply (gadd_cancel_l GO1 (gmul2 HSk sk2 HRand r1)). transitivity (gmul2 HSk sk1 HRand r1); [unfold gmul2; gnorm KO GO1; ring|]. rewrite EN. unfold gmul2. gnorm KO GO1; ring. }
    assert (Et : forall c, gmul2 HSk (a + c * (sk1 - sk2)) HRand (b + c * (r1 - r2)) = gmul2 HSk a HRand b).
    { intro c. eapply (glin1 OK) with (k := c); [exact Hd|]. gnorm KO GO1; ring. }
    assert (Q : exists sig, newNymSignature H T (Some sk1) (Some N) (Some r1) (Some ipk) m n a b = Ok sig /\ zr_of_bytes C (ns_c sig) = c0 /\
                newNymSignature H T (Some sk2) (Some N) (Some r2) (Some ipk) m n (a + c0 * (sk1 - sk2)) (b + c0 * (r1 - r2)) = Ok sig).
    { unfold c0; clear c0. unfold newNymSignature. rewrite E1, E2. cbn [bind]. rewrite !(nymsig_data_ok OK). cbn [bind].
      rewrite !(challenge_ok OK) by apply (nymsig_string_length OK). cbn [bind].
      match goal with |- context [zr_bytes _ ?k] => set (ch := k) end. cbn [ns_c]. rewrite (ok_zr_rt OK). eexists. split; [reflexivity|]. split; [apply (ok_zr_rt OK)|].
      rewrite Et. fold ch. f_equal. f_equal; f_equal; ring. }
    destruct Q as (sig & Q1 & Q2 & Q3). exists sig. split; [exact Q1|]. split; [exact Q3|]. rewrite Q3, Q2. f_equal; [f_equal|]; ring.
  Qed.
End DlogNym.

(** ** Signatures of pseudonyms, aries *)
Section AriesNymShift.
  Variable C : Curve.
  Hypothesis OK : CurveOk C.
  Variable HG : bytes -> G1 C.
  Variable H : hasher C.
  Variable c_nsig : codec ANymSignature.
  Hypothesis BS : bls_sizes C.
  Hypothesis RT : forall s, round_trips c_nsig s.
  Local Notation zr := (Zr C).
  Let KO := ok_zr OK.
  Let GO1 := ok_g1 OK.
  Add Field Kf_anona : (sok_field KO).
  Local Open Scope zr_scope.

  Definition achal pk n (N : G1 C) (m : bytes) (nonce a b : zr) : zr :=
    let h0 := gen0 HG pk (n + 1) in let h := base_at HG pk n 0 in
    challenge2 H (nymSigLabel ++ g1_bytes C N ++ committedBytes {| pc_bases := [h0; h]; pc_blind := [a; b]; pc_comm := gdot [h0; h] [a; b] |} ++ m) (zr_bytes C nonce).
  Definition ashift pk n N (sk1 r1 sk2 r2 : zr) (m : bytes) (y : zr * zr * zr) : zr * zr * zr :=
    let '(nonce, a, b) := y in let c := achal pk n N m nonce a b in (nonce, a + c * (r2 - r1), b + c * (sk2 - sk1)).

  Lemma ashift_ok pk n sk1 r1 sk2 r2 m nonce a b :
    let h0 := gen0 HG pk (n + 1) in let h := base_at HG pk n 0 in let key := Some (Some (issuer_key HG pk n)) in
    let N := (h0 ⊗ r1) ⊕ (h ⊗ sk1) in N = (h0 ⊗ r2) ⊕ (h ⊗ sk2) ->
    let '(nonce', a', b') := ashift pk n N sk1 r1 sk2 r2 m (nonce, a, b) in
    exists sig, arNymSign H c_nsig 0 sk1 N r1 key m nonce (two a b) = Ok sig /\ arNymSign H c_nsig 0 sk2 N r2 key m nonce' (two a' b') = Ok sig /\
      ashift pk n N sk2 r2 sk1 r1 m (nonce', a', b') = (nonce, a, b).
  Proof.
    intros h0 h key N EN. unfold ashift. set (c := achal pk n N m nonce a b).
    assert (Hd : h ⊗ (sk1 - sk2) = h0 ⊗ (r2 - r1)).
    { apply (gadd_cancel_l GO1 ((h0 ⊗ r1) ⊕ (h ⊗ sk2))). transitivity N; [unfold N; gnorm KO GO1; ring|]. rewrite EN. gnorm KO GO1; ring. }
    assert (E2 : gdot [h0; h] [a + c * (r2 - r1); b + c * (sk2 - sk1)] = gdot [h0; h] [a; b]).
    { cbn [gdot]. eapply (glin1 OK) with (k := - c); [exact Hd|]. gnorm KO GO1; ring. }
    assert (Ec : achal pk n N m nonce (a + c * (r2 - r1)) (b + c * (sk2 - sk1)) = c).
    { assert (Ac : forall x y, gdot [h0; h] [x; y] = gdot [h0; h] [a; b] -> achal pk n N m nonce x y = achal pk n N m nonce a b); [|exact (Ac _ _ E2)].
      intros x y Q. unfold achal. fold h0 h. unfold committedBytes. cbn [pc_bases pc_comm]. rewrite Q. reflexivity. }
    destruct (nymSign_ok OK HG H BS pk sk1 r1 m nonce (two a b) (Nat.le_0_l n) RT) as (sig & E & _). cbv zeta in E. fold h0 h in E. fold key N in E. change (Z.of_nat 0) with 0%Z in E.
    exists sig. split; [exact E|]. split.
    - rewrite <- E. clear E. unfold arNymSign. unfold key. cbn [assert_ptr bind issuer_key ip_key pg_h0 pg_h].
      rewrite (base_lookup HG BS pk (Nat.le_0_l n) : znth _ 0 = _). cbn [bind]. fold h0 h. rewrite !(finish_ok OK) by (try discriminate; reflexivity). cbn [bind two].
      repeat match goal with |- context [challenge2 H (nymSigLabel ++ g1_bytes C N ++ committedBytes {| pc_bases := [h0; h]; pc_blind := [?x; ?y]; pc_comm := gdot [h0; h] [?x; ?y] |} ++ m) (zr_bytes C nonce)] =>
        change (challenge2 H (nymSigLabel ++ g1_bytes C N ++ committedBytes {| pc_bases := [h0; h]; pc_blind := [x; y]; pc_comm := gdot [h0; h] [x; y] |} ++ m) (zr_bytes C nonce)) with (achal pk n N m nonce x y) end.
      fold c. rewrite Ec.
      unfold generateProof. cbn [pc_blind pc_comm]. rewrite !responses_ok by reflexivity. cbn [bind]. rewrite E2.
      replace (resp c [a + c * (r2 - r1); b + c * (sk2 - sk1)] [r2; sk2]) with (resp c [a; b] [r1; sk1]); [reflexivity|].
      cbn [resp combine map fst snd]. f_equal; [ring|]. f_equal. ring.
    - rewrite Ec. f_equal; [f_equal|]; ring.
  Qed.
End AriesNymShift.
