(** * The honest runs of C67 and C90 with the encodings of the code
    C67 and C90 are about arbitrary codecs; with the protobuf encoding of Proto.v nothing has to be assumed about them.
    Reading guides: PropsRun.v, PropsRunAries.v, PropsCardRun.v. *)
From Verif Require Import Base Curve Algebra Spec Bbs BbsSpec BbsFacts BbsProof Aries AriesSpec AriesIssue AriesVerify AriesNym Dlog DlogSpec Bridge BridgeFacts
  Translator TranslatorFacts Csp CspInst CspSpec CspFacts PropsCsp RunSpec RunFacts Proto ProtoFacts PropsRun PropsRunAries PropsAries PropsCardRun PropsProto Toy ToyDlog ToyCodec PropsBridge ToyCsp PropsStore PropsWire.
Unset Strict Implicit.
Local Open Scope zr_scope.

Theorem C67_dlog_wire : forall C (OK : CurveOk C) (H : hasher C) (T : translator C) (TO : TrOk T) EC (EE : ecenv EC) sha256 e c S (KS : keystore _ S) s,
  let X := dlog_scheme H T pb_ipk pb_ik pb_req pb_cred pb_sig pb_nsig pb_cri EE sha256 in
  let M := dlog_math T EE sha256 in
  (forall rk d, exists sg, ec_sign rk d = Some sg /\ ec_verify (ee_public EE rk) d sg = true) ->
  New X M false e = Ok c ->
  forall (names : list bytes) (nonce : bytes) (attributes : list attribute) (vals : list (Zr C)) (rk : ec_sk EC) (epoch : Z) (handles : list bytes)
    (dI dU dN dR dC dV dV' : ddraw C EC),
  NoDup names -> Forall utf8 names -> length nonce = scalar_size C ->
  length attributes = length names -> map (attr_scalar H) attributes = map Some vals -> int64 epoch ->
  (* no unlucky draw, and crypto/ecdsa gives a key *)
  ir_barg1 (dd_issuer dI) <> z0 -> ir_isk (dd_issuer dI) + dd_zr dC 0 <> z0 -> dd_esk dV = Some rk ->
  exists isk ipk pkraw usk nym npk req cred rsk rpk cri,
    (* keys *)
    KeyGen KS c s dI (Some (GIssuer true names)) = (Ok isk, s) /\
    key_public X M isk = Ok ipk /\ key_bytes X M ipk = Ok pkraw /\
    (forall rh eid sk, KeyImport KS c s (RBytes pkraw) (Some (IIssuerPk true names 0 rh eid sk None)) = (IOk (ipk, IIssuerPk true names 0 rh eid sk None), s)) /\
    KeyGen KS c s dU (Some (GUser true)) = (Ok usk, s) /\
    KeyDeriv KS c s dN (Some usk) (Some (DNym true (Some ipk))) = (Ok nym, s) /\ key_public X M nym = Ok npk /\
    KeyGen KS c s dV (Some (GRevocation true)) = (Ok rsk, s) /\ key_public X M rsk = Ok rpk /\
    (* issuance *)
    (exists o, csp_Sign c dR (Some usk) [] (Some (SRequest (Some ipk) nonce)) = Ok (req, o)) /\
    csp_Verify c (Some ipk) req [] (Some (SRequest None nonce)) = accepted /\
    (exists o, csp_Sign c dC (Some isk) req (Some (SCred attributes None)) = Ok (cred, o)) /\
    (forall shown, shows shown attributes -> csp_Verify c (Some usk) cred [] (Some (SCred shown (Some ipk))) = accepted) /\
    (* revocation information *)
    (exists o, csp_Sign c dV' (Some rsk) [] (Some (SCri epoch 0 handles)) = Ok (cri, o)) /\
    csp_Verify c (Some rpk) cri [] (Some (SCri epoch 0 [])) = accepted /\
    (* pseudonym signatures *)
    (forall d msg, exists sig o, csp_Sign c d (Some usk) msg (Some (SNym (nym_opts_for (Some nym) ipk))) = Ok (sig, o) /\
       csp_Verify c (Some npk) sig msg (Some (SNym (nym_opts_for None ipk))) = accepted) /\
    (* signatures *)
    forall (d : ddraw C EC) msg shown (rh eid : nat) st vt,
    shows shown attributes -> compatible st vt = true ->
    (exists i a, rh <= i /\ nth_error shown i = Some a /\ at_type a = HiddenAttr) -> rh < length shown ->
    (with_eid st = true -> exists a, nth_error shown eid = Some a /\ at_type a = HiddenAttr) ->
    (with_rh st = true -> exists a, nth_error shown rh = Some a /\ at_type a = HiddenAttr) ->
    (* again no unlucky draw *)
    rd_r1 (dd_sig d) <> z0 ->
    (forall cd A, dec pb_cred cred = Some cd -> g1_from_proto T (cr_a cd) = Ok A -> A <> gzero) ->
    exists sig so,
      csp_Sign c d (Some usk) msg (Some (SSigner (signing nym ipk cred shown (Z.of_nat rh) (Z.of_nat eid) cri epoch st))) = Ok (sig, Some (SSigner so)) /\
      (* without the metadata and with it, with the authority's key and without *)
      (forall meta r, meta = None \/ meta = so_meta so -> r = None \/ r = Some rpk ->
        csp_Verify c (Some ipk) sig msg (Some (SSigner (verifying shown (Z.of_nat rh) (Z.of_nat eid) r epoch vt meta))) = accepted) /\
      (* the returned metadata lets an auditor confirm exactly the certified values *)
      ((forall i, ir_attrs (dd_issuer dI) i <> z0) ->
       (with_eid st = true -> forall v, nth_error attributes eid = Some {| at_type := BytesAttr; at_value := VBytes v |} ->
         exists m ad r, so_meta so = Some m /\ md_eid_data m = Some ad /\ au_rand ad = Some r /\
           forall v', csp_Verify c (Some ipk) sig [] (Some (SEidAudit AuditExpectSignature (Z.of_nat eid) v' (Some (r : u_zr (dlogU C EC))) 0)) = accepted <-> H v' = H v) /\
       (with_rh st = true -> forall v, nth_error attributes rh = Some {| at_type := BytesAttr; at_value := VBytes v |} ->
         exists m ad r, so_meta so = Some m /\ md_rh_data m = Some ad /\ au_rand ad = Some r /\
           forall v', csp_Verify c (Some ipk) sig [] (Some (SRhAudit AuditExpectSignature (Z.of_nat rh) v' (Some (r : u_zr (dlogU C EC))) 0)) = accepted <-> H v' = H v)).
Proof.
  intros. destruct C78_read_back as ((L1 & _ & L3 & L4 & L5 & L6 & L7) & _ & _ & (N1 & N2 & N3 & N4 & N5 & N6 & _) & _ & _).
  eapply (@C67_dlog C OK H T TO utf8 pb_ipk pb_ik pb_req pb_cred pb_sig pb_nsig pb_cri EC EE sha256); eauto; intros ? Q; congruence.
Qed.
Print Assumptions C67_dlog_wire.

Theorem C67_aries_wire : forall C (OK : CurveOk C) (HG : bytes -> G1 C) (H : hasher C) hkdf EC (EE : ecenv EC) sha256 (T : translator C) e c S (KS : keystore _ S) s,
  let X := aries_scheme HG H hkdf pb_acred pb_asig pb_ansig pb_acri EE sha256 in
  let M := aries_math T EE sha256 in
  bls_sizes C ->
  (forall rk d, exists sg, ec_sign rk d = Some sg /\ ec_verify (ee_public EE rk) d sg = true) ->
  New X M false e = Ok c ->
  forall (names : list bytes) (nonce : bytes) (attributes : list attribute) (vals : list (Zr C)) (rk : ec_sk EC) (epoch : Z) (handles : list bytes)
    (dI dU dN dR dC dV dV' : adraw C EC),
  attributes <> [] -> length attributes = length names -> (Z.of_nat (length names + 1) <= 65535)%Z ->
  Forall2 (attr_states H) attributes vals -> int64 epoch ->
  (* the random source gives 32 bytes of seed, no unlucky draw, and crypto/ecdsa gives a key *)
  length (ad_seed dI) = 32 -> (forall k, arNewKey HG H hkdf names (ad_seed dI) = Ok k -> zadd (is_sk k) (ad_zr dC 0) <> z0) -> ad_esk dV = Some rk ->
  exists isk ipk pkraw usk nym npk req blinding blinded cred rsk rpk cri,
    (* keys *)
    KeyGen KS c s dI (Some (GIssuer true names)) = (Ok isk, s) /\
    key_public X M isk = Ok ipk /\ key_bytes X M ipk = Ok pkraw /\
    (forall rh eid sk, KeyImport KS c s (RBytes pkraw) (Some (IIssuerPk true names 0 rh eid sk None)) = (IOk (ipk, IIssuerPk true names 0 rh eid sk None), s)) /\
    KeyGen KS c s dU (Some (GUser true)) = (Ok usk, s) /\
    KeyDeriv KS c s dN (Some usk) (Some (DNym true (Some ipk))) = (Ok nym, s) /\ key_public X M nym = Ok npk /\
    KeyGen KS c s dV (Some (GRevocation true)) = (Ok rsk, s) /\ key_public X M rsk = Ok rpk /\
    (* issuance *)
    csp_Sign c dR (Some usk) [] (Some (SBlind (Some ipk) nonce [])) = Ok (req, Some (SBlind (Some ipk) nonce blinding)) /\
    csp_Verify c (Some ipk) req [] (Some (SBlind None nonce [])) = accepted /\
    (exists o, csp_Sign c dC (Some isk) req (Some (SCred attributes None)) = Ok (blinded, o)) /\
    arUnblind C pb_acred blinded blinding = Ok cred /\
    (forall shown, shows shown attributes -> csp_Verify c (Some usk) cred [] (Some (SCred shown (Some ipk))) = accepted) /\
    (* revocation information *)
    (exists o, csp_Sign c dV' (Some rsk) [] (Some (SCri epoch 0 handles)) = Ok (cri, o)) /\
    csp_Verify c (Some rpk) cri [] (Some (SCri epoch 0 [])) = accepted /\
    (* pseudonym signatures *)
    (forall d msg, exists sig o, csp_Sign c d (Some usk) msg (Some (SNym (nym_opts_for (Some nym) ipk))) = Ok (sig, o) /\
       csp_Verify c (Some npk) sig msg (Some (SNym (nym_opts_for None ipk))) = accepted) /\
    (* signatures *)
    exists (pk : G2 C) (A : G1 C) (E0 S0 sk : Zr C),
    ipk = KIssuerPublic (Some (Some (issuer_key HG pk (length names))) : u_ipk (ariesU C EC)) /\ usk = KUserSecret (sk : u_zr (ariesU C EC)) e /\
    dec pb_acred cred = Some (credential_of A E0 S0 vals) /\
    forall (d : adraw C EC) msg shown (rh eid : nat) st vt,
    shows shown attributes -> aries_compatible st vt = true -> rh < length shown -> eid < length shown ->
    (has_eid st = true -> exists a, nth_error shown eid = Some a /\ at_type a = HiddenAttr) ->
    (hides_rh st = true -> exists a, nth_error shown rh = Some a /\ at_type a = HiddenAttr) ->
    (* no accidental equality of the issuer's bases, again no unlucky draw *)
    (has_eid st = true -> NoDup (gen0 HG pk (length names + 1) :: BbsSpec.gens HG pk (length names + 1))) ->
    (forall r, usable_draws HG pk (length names) st eid rh S0 sk vals (r, ad_sig d)) ->
    exists sig so,
      csp_Sign c d (Some usk) msg (Some (SSigner (signing nym ipk cred shown (Z.of_nat rh) (Z.of_nat eid) cri epoch st))) = Ok (sig, Some (SSigner so)) /\
      (forall meta r, meta = None \/ meta = so_meta so -> r = None \/ r = Some rpk ->
        csp_Verify c (Some ipk) sig msg (Some (SSigner (verifying shown (Z.of_nat rh) (Z.of_nat eid) r epoch vt meta))) = accepted) /\
      (has_eid st = true -> base_at HG pk (length names) (Datatypes.S eid) <> gzero ->
        forall v, nth_error attributes eid = Some {| at_type := BytesAttr; at_value := VBytes v |} ->
         exists m ad r, so_meta so = Some m /\ md_eid_data m = Some ad /\ au_rand ad = Some r /\
           forall v', csp_Verify c (Some ipk) sig [] (Some (SEidAudit AuditExpectSignature (Z.of_nat eid) v' (Some (r : u_zr (ariesU C EC))) 0)) = accepted <-> H v' = H v) /\
      (has_rh st = true -> base_at HG pk (length names) (Datatypes.S rh) <> gzero ->
        forall v, nth_error attributes rh = Some {| at_type := BytesAttr; at_value := VBytes v |} ->
         exists m ad r, so_meta so = Some m /\ md_rh_data m = Some ad /\ au_rand ad = Some r /\
           forall v', csp_Verify c (Some ipk) sig [] (Some (SRhAudit AuditExpectSignature (Z.of_nat rh) v' (Some (r : u_zr (ariesU C EC))) 0)) = accepted <-> H v' = H v).
Proof.
  intros. destruct C78_read_back as (_ & (L1 & L2 & L3 & L4) & _ & (_ & _ & _ & _ & _ & _ & N1 & N2 & N3 & N4) & _ & _).
  eapply (@C67_aries C OK HG H hkdf pb_acred pb_asig pb_ansig pb_acri EC EE sha256 T); eauto; intros ? Q; congruence.
Qed.
Print Assumptions C67_aries_wire.

Theorem C90_joint_wire : forall C (OK : CurveOk C) (HG : bytes -> G1 C) (H : hasher C) hkdf EC (EE : ecenv EC) sha256 (T : translator C) e c,
  let X := aries_scheme HG H hkdf pb_acred pb_asig pb_ansig pb_acri EE sha256 in
  let M := aries_math T EE sha256 in
  bls_sizes C -> 
  New X M false e = Ok c ->
  forall (pk : G2 C) (n : nat) (sc : Card C) (A : G1 C) (ce s sk : Zr C) (vals : list (Zr C)) (shown : list attribute) (rh : nat) (cri cred : bytes)
    (d1 d2 : adraw C EC) (msg digest : bytes) (u1 u2 : u_zr (ariesU C EC)) (x1 x2 : bool),
  card_of HG pk n sc sk (nth 2 vals z0) ->
  (* the card draws 16 bytes; the credential can be presented *)
  length (ad_seed d1) = 16 ->
  presentable HG H pb_acred pb_acri pk n A ce s sk vals shown 2 rh Smartcard cri cred (Some (card_audit sc)) (prf C (sc_k1 sc) (ad_seed d1)) (ad_sig d2) ->
  let ipk := KIssuerPublic (Some (Some (issuer_key HG pk n)) : u_ipk (ariesU C EC)) in
  let nymEid := snd (getNymEid sc) in
  exists sig1 no (Nym : G1 C) (r : Zr C),
    csp_Sign c d1 (Some (KUserSecret u1 x1)) msg (Some (SNym (card_signs ipk (Some (Some sc) : u_card (ariesU C EC))))) = Ok (sig1, Some (SNym no)) /\
    no_nymg1 no = Some (Nym : u_g1 (ariesU C EC)) /\ no_rnym no = Some (r : u_zr (ariesU C EC)) /\
    Nym = (gen0 HG pk (n + 1) ⊗ r) ⊕ (base_at HG pk n 0 ⊗ sk) /\
    (forall key, csp_Verify c (Some (KNymPublic key)) sig1 msg (Some (SNym (card_checked ipk (nymEid : u_g1 (ariesU C EC))))) = accepted) /\
    exists sig2 so,
      csp_Sign c d2 (Some (KUserSecret u2 x2)) digest
        (Some (SSigner (presenting (newNymSecretKey M (r : u_zr (ariesU C EC)) (Nym : u_g1 (ariesU C EC)) e) ipk cred shown (Z.of_nat rh) 2 cri Smartcard
                          (Some (card_audit sc : u_meta (ariesU C EC)))))) = Ok (sig2, Some (SSigner so)) /\
      (forall epoch, csp_Verify c (Some ipk) sig2 digest (Some (SSigner (verifying shown (Z.of_nat rh) 2 None epoch ExpectSmartcard None))) = accepted) /\
      (forall epoch (m : Metadata C), md_eid_data m = None ->
        (csp_Verify c (Some ipk) sig2 digest (Some (SSigner (verifying shown (Z.of_nat rh) 2 None epoch ExpectSmartcard (Some (m : u_meta (ariesU C EC)))))) = accepted
         <-> md_eid m = [] \/ g1_of_bytes C (md_eid m) = Some nymEid)).
Proof.
  intros. destruct C78_read_back as (_ & (L1 & L2 & L3 & L4) & _ & (_ & _ & _ & _ & _ & _ & N1 & N2 & N3 & N4) & _ & _).
  eapply (@C90_joint C OK HG H hkdf pb_acred pb_asig pb_ansig pb_acri EC EE sha256 T); eauto; intros ? Q; congruence.
Qed.
Print Assumptions C90_joint_wire.

(** ** A concrete case: the dlog run of C67_example with the protobuf encoding, and what each message measures *)
Definition wcsp : CSP xU := match New vX xM false true with Ok c => c | _ => NewImpl xU end.
Definition wcredential : res (bytes * bytes) :=
  let* isk := rkeys (KeyGen xKS wcsp xdisk (rdraw 0) (Some (GIssuer true tnames))) in
  let* ipk := key_public vX xM isk in
  let* usk := rkeys (KeyGen xKS wcsp xdisk (rdraw 1) (Some (GUser true))) in
  let* req := rsig (csp_Sign wcsp (rdraw 2) (Some usk) [] (Some (SRequest (Some ipk) [Byte.x07]))) in
  let* cred := rsig (csp_Sign wcsp (rdraw 3) (Some isk) req (Some (SCred battrs None))) in
  Ok (req, cred).
Definition wrun (st : SignatureType) (vt : VerificationType) : res (bool * verdict * verdict) :=
  let* isk := rkeys (KeyGen xKS wcsp xdisk (rdraw 0) (Some (GIssuer true tnames))) in
  let* ipk := key_public vX xM isk in
  let* pkraw := key_bytes vX xM ipk in
  let* usk := rkeys (KeyGen xKS wcsp xdisk (rdraw 1) (Some (GUser true))) in
  let* nym := rkeys (KeyDeriv xKS wcsp xdisk (rdraw 4) (Some usk) (Some (DNym true (Some ipk)))) in
  let* rsk := rkeys (KeyGen xKS wcsp xdisk (rdraw 5) (Some (GRevocation true))) in
  let* rpk := key_public vX xM rsk in
  let* '(req, cred) := wcredential in
  let* cri := rsig (csp_Sign wcsp (rdraw 6) (Some rsk) [] (Some (SCri 5 0 []))) in
  let* sig := rsig (csp_Sign wcsp (rdraw 7) (Some usk) (str "msg") (Some (SSigner (signing nym ipk cred bshow 3 2 cri 5 st)))) in
  let check s := csp_Verify wcsp (Some ipk) s (str "msg") (Some (SSigner (verifying bshow 3 2 (Some rpk) 5 vt None))) in
  Ok (match fst (KeyImport xKS wcsp xdisk (RBytes pkraw) (Some (IIssuerPk true tnames 0 0 0 0 None))) with IOk _ => true | _ => false end, check sig, check (removelast sig)).

Example C67_wire_example :
  New vX xM false true = Ok wcsp /\ Forall utf8 tnames /\
  (exists req cred cd A, wcredential = Ok (req, cred) /\ dec pb_cred cred = Some cd /\ g1_from_proto tT (cr_a cd) = Ok A /\ A <> gzero) /\
  wrun EidNymRhNym ExpectEidNymRhNym = Ok (true, accepted, rejected) /\ wrun Standard ExpectStandard = Ok (true, accepted, rejected) /\
  wrun EidNym ExpectStandard = Ok (true, rejected, rejected).
Proof.
  split; [unfold wcsp; destruct (new_wired vX xM true) as [c [E _]]; rewrite E; reflexivity|]. split; [repeat constructor; reflexivity|].
  split; [do 4 eexists; split; [vm_compute; reflexivity|split; [vm_compute; reflexivity|split; [vm_compute; reflexivity|discriminate]]]|].
  split; [vm_compute; reflexivity|]. split; vm_compute; reflexivity.
Qed.
