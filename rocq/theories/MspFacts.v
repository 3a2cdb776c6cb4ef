(** Lemmas about the MSP. *)
From Verif Require Import Base Curve Dlog DlogData Bridge BridgeFacts Translator TranslatorFacts Csp CspInst CspSpec CspFacts Msp MspSpec PropsCsp.
Unset Strict Implicit.

Section Facts.
  Variable U : universe.
  Variable CD : codecs.
  Notation sat := (@satisfiesPrincipalValidated U CD).

  Lemma guard_ok b u : guard b = Ok u -> b = true.
  Proof. destruct b; [reflexivity|discriminate]. Qed.
  Lemma guard_no_panic b : guard b <> Panic.
  Proof. destruct b; discriminate. Qed.

  Lemma fold_ok_all (A : Type) (f : A -> res unit) ps : forall r, fold_left (fun r cp => let* _ := r in f cp) ps r = Ok tt <-> r = Ok tt /\ Forall (fun p => f p = Ok tt) ps.
  Proof.
    induction ps as [|p ps IH]; intros r; cbn [fold_left].
    - split; [intros ->; split; [reflexivity|constructor]|intros [-> _]; reflexivity].
    - rewrite IH. destruct r as [[]| |]; cbn.
      + split; [intros [F1 F2]; split; [reflexivity|constructor; assumption]|intros [_ F]; inversion F; auto].
      + split; intros [F _]; discriminate F.
      + split; intros [F _]; discriminate F.
  Qed.
  Lemma fold_no_panic (A : Type) (f : A -> res unit) ps : forall r, r <> Panic -> Forall (fun p => f p <> Panic) ps ->
    fold_left (fun r cp => let* _ := r in f cp) ps r <> Panic.
  Proof.
    induction ps as [|p ps IH]; intros r N F; cbn [fold_left]; [exact N|]. inversion F; subst.
    apply IH; [|assumption]. destruct r as [[]| |]; cbn; [assumption|discriminate|contradiction].
  Qed.

  Lemma sat_sound h m id i fuel : identity_of id = Some i -> forall p, sat fuel h m id p = Ok tt ->
    holds CD (p_name m) (p_version m) (ro_role (i_role i)) (ou_id (i_ou i)) (res_opt (Serialize CD h i)) p.
  Proof.
    intros I. induction fuel as [|fuel IH]; intros p E0; cbn [satisfiesPrincipalValidated] in E0.
    all: destruct (Z.eqb_spec (pr_class p) P_ROLE) as [C|_];
      [|destruct (Z.eqb_spec (pr_class p) P_IDENTITY) as [C|_];
        [|destruct (Z.eqb_spec (pr_class p) P_ORGANIZATION_UNIT) as [C|_];
          [|destruct (Z.eqb_spec (pr_class p) P_COMBINED) as [C|_];
            [|destruct (Z.eqb_spec (pr_class p) P_ANONYMITY) as [C|_]; [|discriminate E0]]]]].
    all: try (destruct (dec (c_role CD) (pr_bytes p)) as [r|] eqn:D; [|discriminate E0]; cbn [opt_err bind] in E0;
      apply bind_ok in E0; destruct E0 as [? [G E0]]; apply guard_ok in G; apply bytes_eqb_eq in G;
      destruct (Z.eqb_spec (ro_role r) MSPRole_MEMBER) as [R|_]; [exact (h_member _ _ _ _ C D G R)|];
      destruct (Z.eqb_spec (ro_role r) MSPRole_ADMIN) as [R|_];
      [destruct id as [i0|s|]; cbn [plain_identity bind] in E0; [|discriminate E0|discriminate E0];
       injection I as <-; apply guard_ok in E0; apply Z.eqb_eq in E0; exact (h_admin _ _ _ C D G R E0)|];
      destruct (Z.eqb_spec (ro_role r) MSPRole_PEER) as [R|_];
      [destruct (p_version m >=? MSPv1_3)%Z; discriminate E0|];
      destruct (Z.eqb_spec (ro_role r) MSPRole_CLIENT) as [R|_]; [|discriminate E0];
      destruct (Z.geb_spec (p_version m) MSPv1_3) as [V|V]; [|discriminate E0];
      exact (h_client _ _ _ C D G R V)).
    all: try (assert (I' : inner id = Ok i) by (destruct id; cbn in I |- *; congruence); rewrite I' in E0; cbn [bind] in E0;
      destruct (Serialize CD h i) as [b| |] eqn:S; [|discriminate E0|discriminate E0]; cbn [bind] in E0;
      apply guard_ok in E0; apply bytes_eqb_eq in E0; subst b; apply h_identity; [exact C|reflexivity]).
    all: try (destruct (dec (c_ou CD) (pr_bytes p)) as [o|] eqn:D; [|discriminate E0]; cbn [opt_err bind] in E0;
      apply bind_ok in E0; destruct E0 as [? [G E0]]; apply guard_ok in G; apply bytes_eqb_eq in G;
      destruct id as [i0|s|]; cbn [plain_identity bind] in E0; [|discriminate E0|discriminate E0];
      injection I as <-; apply guard_ok in E0; apply bytes_eqb_eq in E0; exact (h_ou _ _ _ C D G E0)).
    all: apply bind_ok in E0; destruct E0 as [? [V E0]]; apply guard_ok in V; apply Bool.negb_true_iff, Z.leb_gt in V;
      assert (V' : (MSPv1_3 <= p_version m)%Z) by (unfold MSPv1_3, MSPv1_1 in *; lia).
    all: try (destruct (dec (c_anon CD) (pr_bytes p)) as [a|] eqn:D; [|discriminate E0]; cbn [opt_err bind] in E0;
      apply guard_ok in E0; apply Z.eqb_eq in E0; subst a; exact (h_anonymous _ _ _ _ C V' D)).
    all: destruct (dec (c_comb CD) (pr_bytes p)) as [ps|] eqn:D; [|discriminate E0]; cbn [opt_err bind] in E0;
      apply bind_ok in E0; destruct E0 as [? [L E0]]; apply guard_ok in L.
    - discriminate E0.
    - apply fold_ok_all in E0. destruct E0 as [_ F].
      apply (h_combined C V' D).
      + intros ->. discriminate L.
      + clear D L. induction F as [|q ps Hq F IHF]; constructor; [exact (IH q Hq)|exact IHF].
  Qed.

  Section Complete.
    Variables (h : heap U) (m : msp U) (i : identity U).
    Hypothesis NS : nested_shorter CD.
    Notation holds' := (holds CD (p_name m) (p_version m) (ro_role (i_role i)) (ou_id (i_ou i)) (res_opt (Serialize CD h i))).

    Lemma sat_complete : forall fuel p, length (pr_bytes p) <= fuel -> holds' p -> sat fuel h m (IdPlain i) p = Ok tt.
    Proof.
      induction fuel as [fuel IH] using lt_wf_ind. intros p L Hp.
      destruct Hp as [p r C D G R|p r C D G R A|p r C D G R V|p C S|p o C D G O|p ps C V D N F|p C V D];
        destruct fuel as [|fuel]; cbn [satisfiesPrincipalValidated]; rewrite C;
        change (P_ROLE =? P_ROLE)%Z with true; change (P_IDENTITY =? P_ROLE)%Z with false; change (P_ORGANIZATION_UNIT =? P_ROLE)%Z with false;
        change (P_COMBINED =? P_ROLE)%Z with false; change (P_ANONYMITY =? P_ROLE)%Z with false; cbn iota;
        change (P_IDENTITY =? P_IDENTITY)%Z with true; change (P_ORGANIZATION_UNIT =? P_IDENTITY)%Z with false;
        change (P_COMBINED =? P_IDENTITY)%Z with false; change (P_ANONYMITY =? P_IDENTITY)%Z with false; cbn iota;
        change (P_ORGANIZATION_UNIT =? P_ORGANIZATION_UNIT)%Z with true;
        change (P_COMBINED =? P_ORGANIZATION_UNIT)%Z with false; change (P_ANONYMITY =? P_ORGANIZATION_UNIT)%Z with false; cbn iota;
        change (P_COMBINED =? P_COMBINED)%Z with true; change (P_ANONYMITY =? P_COMBINED)%Z with false; cbn iota;
        change (P_ANONYMITY =? P_ANONYMITY)%Z with true; cbn iota.
      all: try (rewrite D; cbn [opt_err bind]).
      all: try (rewrite G, bytes_eqb_refl; cbn [guard bind]).
      all: try (rewrite R; reflexivity).
      all: try (rewrite R; cbn [plain_identity bind]; rewrite A; reflexivity).
      all: try (rewrite R; change (MSPRole_CLIENT =? MSPRole_MEMBER)%Z with false; change (MSPRole_CLIENT =? MSPRole_ADMIN)%Z with false;
        change (MSPRole_CLIENT =? MSPRole_PEER)%Z with false; change (MSPRole_CLIENT =? MSPRole_CLIENT)%Z with true; cbn iota;
        rewrite (proj2 (Z.geb_le _ _) V); reflexivity).
      all: try (cbn [inner bind]; destruct (Serialize CD h i) as [b| |]; try discriminate S; injection S as ->; cbn [bind];
        rewrite bytes_eqb_refl; reflexivity).
      all: try (cbn [plain_identity bind]; rewrite O, bytes_eqb_refl; reflexivity).
      all: assert (V' : (p_version m <=? MSPv1_1)%Z = false) by (apply Z.leb_gt; unfold MSPv1_3, MSPv1_1 in *; lia); rewrite V'; cbn [negb guard bind].
      all: try (rewrite ?D; reflexivity).
      all: rewrite ?D; cbn [opt_err bind]; destruct ps as [|q ps]; [contradiction N; reflexivity|]; cbn [length Nat.eqb negb guard bind].
      - exfalso. pose proof (NS D (or_introl eq_refl)). lia.
      - apply fold_ok_all. split; [reflexivity|]. apply Forall_forall. intros x X.
        apply IH; [lia| |].
        + pose proof (NS D X). lia.
        + rewrite Forall_forall in F. exact (F x X).
    Qed.
  End Complete.

  (** no panic on a plain identity whose MSP exists *)
  Lemma serialize_no_panic h (i : identity U) : nth_error h (i_msp i) <> None -> Serialize CD h i <> Panic.
  Proof.
    intros N. unfold Serialize, GetMSPIdentifier.
    destruct (enc (c_ou CD) _); cbn; [|discriminate]. destruct (enc (c_role CD) _); cbn; [|discriminate].
    destruct (enc (c_ii CD) _); cbn; [|discriminate].
    destruct (nth_error h (i_msp i)); [|contradiction]; cbn. destruct (enc (c_si CD) _); discriminate.
  Qed.
  Lemma sat_no_panic h m i : nth_error h (i_msp i) <> None -> forall fuel p, sat fuel h m (IdPlain i) p <> Panic.
  Proof.
    intros N. induction fuel as [|fuel IH]; intros p; cbn [satisfiesPrincipalValidated].
    all: destruct (pr_class p =? P_ROLE)%Z;
      [destruct (dec (c_role CD) (pr_bytes p)) as [r|]; [|discriminate]; cbn [opt_err bind];
       destruct (guard _) eqn:G; cbn [bind]; [|discriminate|destruct (guard_no_panic G)];
       destruct (ro_role r =? _)%Z; [discriminate|]; destruct (ro_role r =? _)%Z; [cbn; apply guard_no_panic|];
       destruct (ro_role r =? _)%Z; [destruct (p_version m >=? _)%Z; discriminate|];
       destruct (ro_role r =? _)%Z; [destruct (p_version m >=? _)%Z; discriminate|discriminate]|].
    all: destruct (pr_class p =? P_IDENTITY)%Z;
      [cbn; pose proof (serialize_no_panic N) as S; destruct (Serialize CD h i); [apply guard_no_panic|discriminate|contradiction]|].
    all: destruct (pr_class p =? P_ORGANIZATION_UNIT)%Z;
      [destruct (dec (c_ou CD) (pr_bytes p)) as [o|]; [|discriminate]; cbn [opt_err bind];
       destruct (guard _) eqn:G; cbn [bind plain_identity]; [apply guard_no_panic|discriminate|destruct (guard_no_panic G)]|].
    all: destruct (pr_class p =? P_COMBINED)%Z;
      [destruct (guard _) eqn:G; cbn [bind]; [|discriminate|destruct (guard_no_panic G)];
       destruct (dec (c_comb CD) (pr_bytes p)) as [ps|]; [|discriminate]; cbn [opt_err bind];
       destruct (guard (negb (length ps =? 0))) eqn:G'; cbn [bind]; [|discriminate|destruct (guard_no_panic G')]|].
    all: try (destruct (pr_class p =? P_ANONYMITY)%Z; [|discriminate];
      destruct (guard _) eqn:G; cbn [bind]; [|discriminate|destruct (guard_no_panic G)];
      destruct (dec (c_anon CD) (pr_bytes p)); [|discriminate]; cbn [opt_err bind]; apply guard_no_panic).
    - discriminate.
    - apply fold_no_panic; [discriminate|]. clear G'. induction ps as [|q ps IHp]; constructor; [exact (IH q)|exact IHp].
  Qed.

  (** what Validate decides, in terms of the scheme *)
  Lemma verifyProof_ready X M (m : msp U) ipk r i : ready X M m ipk r ->
    (verifyProof m i = Ok tt <-> i_proof i <> [] /\
       s_verify X ipk (i_proof i) [] (claims (ou_id (i_ou i)) (ro_role (i_role i))) 3 2 0 (Some r) 0 Basic None = Ok tt).
  Proof.
    intros [[c [Hc N]] [Hk Hr]]. unfold verifyProof. rewrite Hc, Hk. cbn [deref bind].
    destruct (@C44_verdict_partial U X M true c (Some (KIssuerPublic ipk)) (i_proof i) [] (Some (SSigner (verify_opts m i))) N) as [T [A _]].
    assert (A' : csp_Verify c (Some (KIssuerPublic ipk)) (i_proof i) [] (Some (SSigner (verify_opts m i))) = accepted <->
      i_proof i <> [] /\ s_verify X ipk (i_proof i) [] (claims (ou_id (i_ou i)) (ro_role (i_role i))) 3 2 0 (Some r) 0 Basic None = Ok tt).
    { rewrite A. split.
      - intros [k' [o' [K [O [S D]]]]]. injection K as <-. injection O as <-. split; [exact S|].
        cbn [deciding so_revpk verify_opts] in D. rewrite Hr in D. injection D as D. exact D.
      - intros [S D]. exists (KIssuerPublic ipk), (SSigner (verify_opts m i)). repeat split; [exact S|].
        cbn [deciding so_revpk verify_opts]. rewrite Hr. f_equal. exact D. }
    clear A N. rewrite <- A'. destruct T as [T|[T|T]]; rewrite T; cbn; split; intros F; try reflexivity; discriminate F.
  Qed.
End Facts.

Section SetupFacts.
  Variable U : universe.
  Variable CD : codecs.
  Variable E : env U.
  Notation setup := (@setup_at U CD E).

  Lemma new_exists (X : scheme U) (M : mathops U) e : exists c, New X M false e = Ok c.
  Proof. destruct (new_wired X M e) as [c [N _]]. exists c. exact N. Qed.

  (** imports through the CSP *)
  Lemma import_eq (X : scheme U) (M : mathops U) c raw o g : New X M false true = Ok c -> i_ephemeral o = true ->
    imps (wired_csp X M true) (itype o) = Some g -> import c raw o = (let+ x := g (RBytes raw) o in IOk (fst x)).
  Proof.
    intros N EP G. destruct (new_tables N) as (_ & _ & I & _). clear N. unfold import. cbn [KeyImport]. rewrite I, G.
    destruct (g (RBytes raw) o) as [r| |]; [|reflexivity|reflexivity]. unfold persist. rewrite EP. reflexivity.
  Qed.
  Lemma import_ipk (X : scheme U) (M : mathops U) c raw : New X M false true = Ok c ->
    import c raw (IIssuerPk true attribute_names 0 0 0 0 None) =
      (let+ b := raw_bytes (RBytes raw) in let+ pk := s_issuerPkFromBytes X b attribute_names in IOk (KIssuerPublic pk)).
  Proof.
    intros N. rewrite (import_eq (o := IIssuerPk true attribute_names 0 0 0 0 None) raw N eq_refl eq_refl). clear N. unfold h_IssuerPublicKeyImporter.
    destruct (raw_bytes _) as [b| |]; [|reflexivity|reflexivity]. cbn [ibind].
    destruct (s_issuerPkFromBytes X b attribute_names); reflexivity.
  Qed.
  Lemma import_revpk (X : scheme U) (M : mathops U) c raw : New X M false true = Ok c ->
    import c raw (IRevPk true) =
      (let+ b := raw_bytes (RBytes raw) in let+ pk := plain (opt_err (m_pemEpk M b)) in IOk (KRevPublic pk)).
  Proof.
    intros N. rewrite (import_eq (o := IRevPk true) raw N eq_refl eq_refl). clear N. unfold h_RevocationPublicKeyImporter.
    destruct (raw_bytes _) as [b| |]; [|reflexivity|reflexivity]. cbn [ibind].
    destruct (plain _); reflexivity.
  Qed.
  Lemma import_user (X : scheme U) (M : mathops U) c raw : New X M false true = Ok c ->
    import c raw (IUser true) =
      (let+ b := raw_bytes (RBytes raw) in let+ sk := plain (s_userKeyFromBytes X b) in IOk (KUserSecret sk true)).
  Proof.
    intros N. rewrite (import_eq (o := IUser true) raw N eq_refl eq_refl). clear N. unfold h_UserKeyImporter.
    destruct (raw_bytes _) as [b| |]; [|reflexivity|reflexivity]. cbn [ibind].
    destruct (plain _); reflexivity.
  Qed.
  Lemma import_nym (X : scheme U) (M : mathops U) c raw : New X M false true = Ok c ->
    import c raw (INymPk true) =
      (let+ b := raw_bytes (RBytes raw) in
       let+ pk := plain (match s_publicNymFromBytes X b with Err => s_publicNymFromBytes X (Byte.x04 :: b) | r => r end) in
       IOk (KNymPublic pk)).
  Proof.
    intros N. rewrite (import_eq (o := INymPk true) raw N eq_refl eq_refl). clear N. unfold h_NymPublicKeyImporter.
    destruct (raw_bytes _) as [b| |]; [|reflexivity|reflexivity]. cbn [ibind].
    destruct (plain _); reflexivity.
  Qed.
  Lemma derive_eq (X : scheme U) (M : mathops U) c d sk ipk : New X M false true = Ok c ->
    fst (KeyDeriv (Dummy U unit) c tt d (Some (KUserSecret sk true)) (Some (DNym true (Some (KIssuerPublic ipk))))) =
      (let* '(nym, r) := s_makeNym X d sk ipk in Ok (newNymSecretKey M r nym true)).
  Proof.
    intros N. destruct (new_tables N) as (_ & D & _). clear N. cbn [KeyDeriv ktype]. rewrite D. cbn [ders wired_csp h_NymKeyDerivation].
    destruct (s_makeNym X d sk ipk) as [[nym r]| |]; reflexivity.
  Qed.
  Lemma cred_verify_eq (X : scheme U) (M : mathops U) c sk cred attrs ipk : New X M false true = Ok c ->
    csp_Verify c (Some (KUserSecret sk true)) cred [] (Some (SCred attrs (Some (KIssuerPublic ipk)))) =
      if length cred =? 0 then rejected else verdict_of (s_credVerify X sk ipk cred attrs).
  Proof.
    intros N. rewrite (csp_verify_eq _ _ _ _ N). clear N. destruct (length cred =? 0) eqn:L; [reflexivity|].
    cbn [h_CredentialVerifier]. unfold empty. rewrite L. apply forward_verdict.
  Qed.
  Lemma proof_sign_eq (X : scheme U) (M : mathops U) c d sk cred ski nsk npk e ipk cri : New X M false true = Ok c ->
    csp_Sign c d (Some (KUserSecret sk true)) [] (Some (SSigner (proof_opts cred (KNymSecret ski nsk npk e) (KIssuerPublic ipk) cri))) =
      (let* '(sigma, meta) := s_sign X d cred sk npk nsk ipk disclosure [] 3 2 cri Standard None in
       Ok (sigma, Some (SSigner (let so := proof_opts cred (KNymSecret ski nsk npk e) (KIssuerPublic ipk) cri in
         {| so_nym := so_nym so; so_ipk := so_ipk so; so_cred := so_cred so; so_attrs := so_attrs so;
            so_rh := so_rh so; so_eid := so_eid so; so_sk := so_sk so; so_cri := so_cri so;
            so_epoch := so_epoch so; so_revpk := so_revpk so; so_sigtype := so_sigtype so;
            so_meta := meta; so_vertype := so_vertype so |})))).
  Proof.
    intros N. destruct (new_tables N) as (_ & _ & _ & S & _). clear N. unfold csp_Sign. cbn [opt_err bind ktype]. rewrite S. reflexivity.
  Qed.

  (** Setup of the default signer, in terms of the scheme *)
  Lemma setup_signer_eq (X : scheme U) (M : mathops U) c l m d1 d2 ipk sg : New X M false true = Ok c ->
    let admin := checkRole (sc_role sg) ADMIN in
    let role := {| ro_mspid := p_name m; ro_role := if admin then MSPRole_ADMIN else MSPRole_MEMBER |} in
    let ou := {| ou_mspid := p_name m; ou_id := sc_ou sg; ou_certifiers := s_ipkHash X ipk |} in
    setup_signer X M c l m d1 d2 (KIssuerPublic ipk) sg =
    match (if length (sc_sk sg) =? 0 then Err else s_userKeyFromBytes X (sc_sk sg)) with
    | Err => (Err, m) | Panic => (Panic, m)
    | Ok sk =>
        match s_makeNym X d1 sk ipk with
        | Err => (Err, m) | Panic => (Panic, m)
        | Ok (nym, r) =>
            match (if length (sc_cred sg) =? 0 then Err else s_credVerify X sk ipk (sc_cred sg) (credential_attributes (sc_ou sg) (ro_role role) (sc_eid sg))) with
            | Err => (Err, m) | Panic => (Panic, m)
            | Ok _ =>
                match s_sign X d2 (sc_cred sg) sk nym r ipk disclosure [] 3 2 (sc_cri sg) Standard None with
                | Err => (Err, m) | Panic => (Panic, m)
                | Ok (proof, _) =>
                    (Ok tt, set_signer m
                       {| g_identity := {| i_nym := KNymPublic nym; i_raw := ex (m_g1ToProto M nym) ++ ey (m_g1ToProto M nym); i_msp := l; i_id := p_name m;
                                           i_role := role; i_ou := ou; i_proof := proof |};
                          g_cred := sc_cred sg; g_user := KUserSecret sk true; g_nym := newNymSecretKey M r nym true; g_eid := sc_eid sg |})
                end
            end
        end
    end.
  Proof.
    intros N admin role ou. unfold setup_signer. rewrite (import_user _ N). subst admin.
    destruct (sc_sk sg) as [|b0 bs] eqn:SK; [reflexivity|]. cbn [raw_bytes ibind length Nat.eqb].
    destruct (s_userKeyFromBytes X (b0 :: bs)) as [sk| |]; [|reflexivity|reflexivity]. cbn [plain ibind].
    rewrite (derive_eq _ _ _ N).
    destruct (s_makeNym X d1 sk ipk) as [[nym r]| |]; [|reflexivity|reflexivity]. cbn [bind key_public newNymSecretKey].
    rewrite (cred_verify_eq _ _ _ _ N).
    destruct (length (sc_cred sg) =? 0); [reflexivity|].
    fold role. destruct (s_credVerify X sk ipk (sc_cred sg) (credential_attributes (sc_ou sg) (ro_role role) (sc_eid sg))) as [[]| |]; [|reflexivity|reflexivity].
    cbn [verdict_of accepted]. fold (newNymSecretKey M r nym true). unfold newNymSecretKey at 1. rewrite (proof_sign_eq _ _ _ _ _ _ _ _ _ N).
    destruct (s_sign X d2 (sc_cred sg) sk nym r ipk disclosure [] 3 2 (sc_cri sg) Standard None) as [[proof md]| |]; reflexivity.
  Qed.

  (** Setup, in terms of the scheme selected by the configuration *)
  Definition type_ok (ty : Z) : bool := (ty =? (if ev_aries E then IDEMIX_ARIES else IDEMIX))%Z.
  Lemma curve_spec conf : curve_id E conf = configured_curve (ev_aries E) conf.
  Proof.
    unfold curve_id, configured_curve. change (str "BLS12_381_BBS") with BLS12_381_BBS. change (str "BLS12_381_BBS_GURVY") with BLS12_381_BBS_GURVY.
    destruct (ev_aries E); destruct conf as [|b bs]; try reflexivity.
    replace (bytes_eqb (b :: bs) []) with false by reflexivity. cbn [orb].
    destruct (bytes_eqb (b :: bs) BLS12_381_BBS) eqn:Q; [apply bytes_eqb_eq in Q; rewrite Q; reflexivity|]. reflexivity.
  Qed.

  Lemma setup_eq l m d1 d2 ty raw cf cid X M : dec (c_conf CD) raw = Some cf -> type_ok ty = true -> curve_id E (cf_curve cf) = Some cid ->
    ev_pack E cid = Some (X, M) ->
    exists c, New X M false true = Ok c /\
      let m2 := set_csp (set_name m (cf_name cf)) (Some c) in
      setup l m d1 d2 (Some (ty, raw)) =
      match (let+ b := raw_bytes (RBytes (cf_ipk cf)) in s_issuerPkFromBytes X b attribute_names) with
      | IErr k => (import_failure k, m2) | IPanic => (Panic, m2)
      | IOk ipk =>
          let m3 := set_ipk m2 (KIssuerPublic ipk) in
          match (if length (cf_revpk cf) =? 0 then None else m_pemEpk M (cf_revpk cf)) with
          | None => (Err, m3)
          | Some rpk =>
              let m4 := set_revpk m3 (KRevPublic rpk) in
              match cf_signer cf with
              | None => (Ok tt, m4)
              | Some sg => setup_signer X M c l m4 d1 d2 (KIssuerPublic ipk) sg
              end
          end
      end.
  Proof.
    intros D T CI P. destruct (new_exists X M true) as [c N]. exists c. split; [exact N|]. intros m2.
    unfold setup_at. rewrite D. unfold type_ok in T. rewrite T. cbn [negb]. rewrite CI, P, N.
    fold m2. rewrite (import_ipk _ N), (import_revpk _ N).
    destruct (raw_bytes (RBytes (cf_ipk cf))) as [b|k|]; cbn [ibind]; [|reflexivity|reflexivity].
    destruct (s_issuerPkFromBytes X b attribute_names) as [ipk|k|]; cbn [ibind]; [|reflexivity|reflexivity].
    destruct (cf_revpk cf) as [|b0 bs]; [reflexivity|]. cbn [raw_bytes ibind length Nat.eqb].
    destruct (m_pemEpk M (b0 :: bs)) as [rpk|]; reflexivity.
  Qed.

  (** what every Setup preserves *)
  Lemma setup_keeps l m d1 d2 conf r m' : setup l m d1 d2 conf = (r, m') -> p_version m' = p_version m /\ (r <> Ok tt -> p_signer m' = p_signer m).
  Proof.
    intros S. unfold setup_at in S.
    destruct conf as [[ty raw]|]; [|injection S as <- <-; auto].
    destruct (dec (c_conf CD) raw) as [cf|]; [|injection S as <- <-; auto].
    destruct (negb _); [injection S as <- <-; auto|].
    destruct (curve_id E (cf_curve cf)) as [cid|]; [|injection S as <- <-; auto].
    destruct (ev_pack E cid) as [[X M]|]; [|injection S as <- <-; auto].
    destruct (new_exists X M true) as [c N]. rewrite N in S.
    rewrite (import_ipk _ N), (import_revpk _ N) in S.
    destruct (let+ b := _ in _) as [ipk|k|] eqn:I1 in S; [|injection S as <- <-; auto|injection S as <- <-; auto].
    destruct (let+ b := _ in _) as [rpk|k|] eqn:I2 in S; [|injection S as <- <-; auto|injection S as <- <-; auto].
    destruct (cf_signer cf) as [sg|]; [|injection S as <- <-; split; [reflexivity|intros F; contradiction F; reflexivity]].
    assert (K : exists pk, ipk = KIssuerPublic pk).
    { clear S N. destruct (raw_bytes _) as [b|k|]; cbn [ibind] in I1; [|discriminate I1|discriminate I1].
      destruct (s_issuerPkFromBytes X b attribute_names) as [pk|k|]; cbn [ibind] in I1; [|discriminate I1|discriminate I1].
      injection I1 as <-. exists pk. reflexivity. }
    destruct K as [pk ->]. rewrite (setup_signer_eq _ _ _ _ _ _ N) in S. clear N. cbn zeta in S.
    destruct (if length (sc_sk sg) =? 0 then Err else s_userKeyFromBytes X (sc_sk sg)) as [sk| |]; [|injection S as <- <-; auto|injection S as <- <-; auto].
    destruct (s_makeNym X d1 sk pk) as [[nym rn]| |]; [|injection S as <- <-; auto|injection S as <- <-; auto].
    destruct (if length (sc_cred sg) =? 0 then Err else _) as [[]| |]; [|injection S as <- <-; auto|injection S as <- <-; auto].
    destruct (s_sign _ _ _ _ _ _ _ _ _ _ _ _ _ _) as [[proof md]| |]; [|injection S as <- <-; auto|injection S as <- <-; auto].
    injection S as <- <-. split; [reflexivity|intros F; contradiction F; reflexivity].
  Qed.

  (** the signer a successful Setup installs *)
  Definition signer_made (X : scheme U) (M : mathops U) l name d1 d2 (ipk : u_ipk U) sg (s : signing U) : Prop :=
    exists sk nym r md,
      let role := {| ro_mspid := name; ro_role := if checkRole (sc_role sg) ADMIN then MSPRole_ADMIN else MSPRole_MEMBER |} in
      sc_sk sg <> [] /\ s_userKeyFromBytes X (sc_sk sg) = Ok sk /\ s_makeNym X d1 sk ipk = Ok (nym, r) /\
      sc_cred sg <> [] /\ s_credVerify X sk ipk (sc_cred sg) (credential_attributes (sc_ou sg) (ro_role role) (sc_eid sg)) = Ok tt /\
      s_sign X d2 (sc_cred sg) sk nym r ipk disclosure [] 3 2 (sc_cri sg) Standard None = Ok (i_proof (g_identity s), md) /\
      g_identity s = {| i_nym := KNymPublic nym; i_raw := ex (m_g1ToProto M nym) ++ ey (m_g1ToProto M nym); i_msp := l; i_id := name;
                        i_role := role; i_ou := {| ou_mspid := name; ou_id := sc_ou sg; ou_certifiers := s_ipkHash X ipk |};
                        i_proof := i_proof (g_identity s) |} /\
      g_cred s = sc_cred sg /\ g_user s = KUserSecret sk true /\ g_nym s = newNymSecretKey M r nym true /\ g_eid s = sc_eid sg.

  Lemma empty_length (b : bytes) : length b =? 0 = false -> b <> [].
  Proof. intros L ->. discriminate L. Qed.

  Lemma setup_ok_inv l m d1 d2 conf m' : setup l m d1 d2 conf = (Ok tt, m') ->
    exists ty raw cf cid X M ipk rpk,
      conf = Some (ty, raw) /\ dec (c_conf CD) raw = Some cf /\ type_ok ty = true /\ curve_id E (cf_curve cf) = Some cid /\
      ev_pack E cid = Some (X, M) /\ cf_ipk cf <> [] /\ s_issuerPkFromBytes X (cf_ipk cf) attribute_names = IOk ipk /\
      cf_revpk cf <> [] /\ m_pemEpk M (cf_revpk cf) = Some rpk /\ ready X M m' ipk rpk /\ p_name m' = cf_name cf /\
      match cf_signer cf with
      | None => p_signer m' = p_signer m
      | Some sg => exists s, p_signer m' = Some s /\ signer_made X M l (cf_name cf) d1 d2 ipk sg s
      end.
  Proof.
    intros S. destruct conf as [[ty raw]|]; [|discriminate S].
    destruct (dec (c_conf CD) raw) as [cf|] eqn:D; [|unfold setup_at in S; rewrite D in S; discriminate S].
    destruct (type_ok ty) eqn:T; [|unfold setup_at in S; rewrite D in S; unfold type_ok in T; rewrite T in S; discriminate S].
    destruct (curve_id E (cf_curve cf)) as [cid|] eqn:CI;
      [|unfold setup_at in S; rewrite D in S; unfold type_ok in T; rewrite T in S; cbn [negb] in S; rewrite CI in S; discriminate S].
    destruct (ev_pack E cid) as [[X M]|] eqn:P;
      [|unfold setup_at in S; rewrite D in S; unfold type_ok in T; rewrite T in S; cbn [negb] in S; rewrite CI, P in S; discriminate S].
    destruct (setup_eq l m d1 d2 D T CI P) as [c [N Q]]. rewrite Q in S. clear Q.
    exists ty, raw, cf, cid, X, M.
    destruct (cf_ipk cf) as [|b0 bs] eqn:IP; [discriminate S|]. cbn [raw_bytes ibind] in S.
    destruct (s_issuerPkFromBytes X (b0 :: bs) attribute_names) as [ipk|k|] eqn:I; [|destruct k; discriminate S|discriminate S].
    destruct (length (cf_revpk cf) =? 0) eqn:L; [discriminate S|].
    destruct (m_pemEpk M (cf_revpk cf)) as [rpk|] eqn:R; [|discriminate S].
    exists ipk, rpk.
    destruct (cf_signer cf) as [sg|] eqn:SG.
    - rewrite (setup_signer_eq _ _ _ _ _ _ N) in S. cbn zeta in S.
      destruct (length (sc_sk sg) =? 0) eqn:L1; [discriminate S|].
      destruct (s_userKeyFromBytes X (sc_sk sg)) as [sk| |] eqn:F1; [|discriminate S|discriminate S].
      destruct (s_makeNym X d1 sk ipk) as [[nym rn]| |] eqn:F2; [|discriminate S|discriminate S].
      destruct (length (sc_cred sg) =? 0) eqn:L2; [discriminate S|].
      destruct (s_credVerify X sk ipk (sc_cred sg) _) as [[]| |] eqn:F3; [|discriminate S|discriminate S].
      destruct (s_sign _ _ _ _ _ _ _ _ _ _ _ _ _ _) as [[proof md]| |] eqn:F4; [|discriminate S|discriminate S].
      injection S as <-.
      match goal with |- context [ready X M ?mm ipk rpk] => assert (RD : ready X M mm ipk rpk) by (split; [exists c; split; [reflexivity|exact N]|split; reflexivity]) end.
      clear N. apply empty_length in L, L1, L2.
      repeat match goal with |- _ /\ _ => split end; try assumption; try reflexivity; try discriminate.
      + eexists. split; [reflexivity|]. exists sk, nym, rn, md. cbn. repeat split; assumption.
    - injection S as <-.
      match goal with |- context [ready X M ?mm ipk rpk] => assert (RD : ready X M mm ipk rpk) by (split; [exists c; split; [reflexivity|exact N]|split; reflexivity]) end.
      clear N. apply empty_length in L.
      repeat match goal with |- _ /\ _ => split end; try assumption; try reflexivity; try discriminate.
  Qed.
End SetupFacts.

Lemma put_same U (h : heap U) l m m' : nth_error h l = Some m -> nth_error (put h l m') l = Some m'.
Proof. revert l. induction h as [|x h IH]; intros [|l] L; try discriminate L; [reflexivity|]. cbn. exact (IH l L). Qed.
Lemma put_other U (h : heap U) l m' j : j <> l -> nth_error (put h l m') j = nth_error h j.
Proof. revert l j. induction h as [|x h IH]; intros [|l] [|j] N; try reflexivity; [contradiction N; reflexivity|]. cbn. apply IH. congruence. Qed.

Lemma setup_ready U CD (E : env U) l m d1 d2 ty raw cf cid X M m' : setup_at CD E l m d1 d2 (Some (ty, raw)) = (Ok tt, m') ->
  dec (c_conf CD) raw = Some cf -> curve_id E (cf_curve cf) = Some cid -> ev_pack E cid = Some (X, M) ->
  exists ipk r, ready X M m' ipk r /\ s_issuerPkFromBytes X (cf_ipk cf) attribute_names = IOk ipk /\ m_pemEpk M (cf_revpk cf) = Some r.
Proof.
  intros S D CI P. destruct (setup_ok_inv S) as (ty' & raw' & cf' & cid' & X' & M' & ipk & rpk & Q & D' & _ & CI' & P' & _ & I & _ & R & RD & _).
  injection Q as -> ->. rewrite D in D'. injection D' as <-. rewrite CI in CI'. injection CI' as <-. rewrite P in P'. injection P' as <- <-.
  exists ipk, rpk. auto.
Qed.

(** signatures of identities, in terms of the scheme *)
Lemma id_verify_ready U (X : scheme U) M (h : heap U) m ipk r i nym msg sig : nth_error h (i_msp i) = Some m -> ready X M m ipk r -> i_nym i = KNymPublic nym ->
  id_Verify h i msg sig = (if length sig =? 0 then Err else s_nymVerify X ipk nym sig msg 0).
Proof.
  intros L [[c [Hc N]] [Hk _]] Hn. unfold id_Verify. rewrite L. cbn [deref bind]. rewrite Hc. cbn [deref bind]. rewrite Hn.
  rewrite (csp_verify_eq _ _ _ _ N). clear N. destruct (length sig =? 0) eqn:Z; [reflexivity|].
  cbn [h_NymVerifier nym_opts_of no_ipk no_smartcard no_sk]. rewrite Hk. unfold empty. rewrite Z. rewrite forward_verdict.
  destruct (s_nymVerify X ipk nym sig msg 0) as [[]| |]; reflexivity.
Qed.
Lemma id_sign_ready U (X : scheme U) M (h : heap U) m ipk r s sk e r0 nym e' d msg : nth_error h (i_msp (g_identity s)) = Some m -> ready X M m ipk r ->
  g_user s = KUserSecret sk e -> g_nym s = newNymSecretKey M r0 nym e' ->
  id_Sign h s d msg = s_nymSign X d sk nym r0 ipk msg.
Proof.
  intros L [[c [Hc N]] [Hk _]] Hu Hn. unfold id_Sign. rewrite L. cbn [deref bind]. rewrite Hc. cbn [deref bind]. rewrite Hu, Hn.
  destruct (new_tables N) as (_ & _ & _ & S & _). clear N. unfold csp_Sign. cbn [opt_err bind ktype]. rewrite S.
  cbn [wired_csp sigs opt_err bind]. cbn [h_SignerMultiplexer h_NymSigner nym_opts_of no_ipk no_smartcard no_nym newNymSecretKey].
  rewrite Hk. 
  destruct (s_nymSign X d sk nym r0 ipk msg); reflexivity.
Qed.

(** ** When the import of a dlog issuer public key panics *)
Lemma bind_no_panic A B (m : res A) (f : A -> res B) : m <> Panic -> (forall a, m = Ok a -> f a <> Panic) -> bind m f <> Panic.
Proof. intros Hm Hf. destruct m as [a| |]; cbn; [exact (Hf a eq_refl)|discriminate|contradiction]. Qed.
Lemma opt_err_no_panic A (o : option A) : opt_err o <> Panic.
Proof. destruct o; discriminate. Qed.
Lemma copy_at_length buf i src b : copy_at buf i src = Ok b -> length b = length buf.
Proof.
  unfold copy_at. destruct (Nat.leb_spec i (length buf)) as [L|L]; [|discriminate]. intros [= <-].
  rewrite !app_length, !firstn_length, skipn_length. lia.
Qed.
Lemma copy_at_no_panic buf i src : i <= length buf -> copy_at buf i src <> Panic.
Proof. intros L. rewrite copy_at_ok by exact L. discriminate. Qed.
Lemma map_res_no_panic A B (f : A -> res B) l : (forall a, f a <> Panic) -> map_res f l <> Panic.
Proof.
  intros F. induction l as [|a l IH]; cbn [map_res]; [discriminate|]. apply bind_no_panic; [exact (F a)|]. intros b _.
  apply bind_no_panic; [exact IH|]. discriminate.
Qed.

Section NoPanic.
  Context {C : Curve}.
  (** a translator that reports malformed points as errors *)
  Definition parses (T : translator C) : Prop := (forall e, g1_from_proto T e <> Panic) /\ (forall e, g2_from_proto T e <> Panic).
  Lemma fp_g1_no_panic e : fp_g1_from C e <> Panic.
  Proof.
    destruct e as [e|]; [|discriminate]. cbn [fp_g1_from]. apply bind_no_panic; [apply guard_no_panic|]. intros u G.
    assert (Z : length (zeros (length (ex e) * 2 + 1)) = length (ex e) * 2 + 1) by apply zeros_length.
    apply bind_no_panic; [apply copy_at_no_panic; lia|]. intros b1 E1. apply copy_at_length in E1.
    apply bind_no_panic; [apply copy_at_no_panic; lia|]. intros b2 E2. apply copy_at_length in E2.
    apply bind_no_panic; [apply copy_at_no_panic; lia|]. intros b3 E3. apply opt_err_no_panic.
  Qed.
  Lemma fp_g2_no_panic e : fp_g2_from C e <> Panic.
  Proof.
    destruct e as [e|]; [|discriminate]. cbn [fp_g2_from]. apply bind_no_panic; [apply guard_no_panic|]. intros u _.
    rewrite fill4_ok. apply opt_err_no_panic.
  Qed.
  Lemma mir_g2_no_panic e : mir_g2_from C e <> Panic.
  Proof.
    destruct e as [e|]; [|discriminate]. cbn [mir_g2_from]. apply bind_no_panic; [apply guard_no_panic|]. intros u _.
    assert (Z : length (zeros (1 + length (exa e) * 4)) = 1 + length (exa e) * 4) by apply zeros_length.
    apply bind_no_panic; [apply copy_at_no_panic; lia|]. intros b1 E1. apply copy_at_length in E1.
    apply bind_no_panic; [apply copy_at_no_panic; lia|]. intros b2 E2. apply copy_at_length in E2.
    apply bind_no_panic; [apply copy_at_no_panic; lia|]. intros b3 E3. apply copy_at_length in E3.
    apply bind_no_panic; [apply copy_at_no_panic; lia|]. intros b4 E4. apply copy_at_length in E4.
    apply bind_no_panic; [apply copy_at_no_panic; lia|]. intros b5 E5. apply opt_err_no_panic.
  Qed.
  Lemma fp_parses : parses (Fp256bn C).
  Proof. split; [exact fp_g1_no_panic|exact fp_g2_no_panic]. Qed.
  Lemma mir_parses : parses (Fp256bnMiracl C).
  Proof. split; [exact fp_g1_no_panic|exact mir_g2_no_panic]. Qed.

  Lemma names_match_no_panic attributes : forall i names, i + length attributes <= length names -> names_match i attributes names <> Panic.
  Proof.
    induction attributes as [|a l IH]; intros i names L; cbn [names_match length] in *; [discriminate|].
    unfold nth_res. destruct (nth_error names i) as [n|] eqn:N; [|apply nth_error_None in N; lia]. cbn [bind].
    apply bind_no_panic; [apply guard_no_panic|]. intros u _. apply IH. lia.
  Qed.
  Context (OK : CurveOk C).
  Lemma checkIPK_no_panic (H : hasher C) (T : translator C) m ipk : parses T -> checkIPK H T m ipk <> Panic.
  Proof.
    intros [P1 P2]. unfold checkIPK. apply bind_no_panic.
    - unfold checkIPK_first. repeat (apply bind_no_panic; [first [apply P1|apply P2|apply guard_no_panic|apply map_res_no_panic; exact P1]|intros ? _]).
      rewrite (issuer_data_ok OK). discriminate.
    - intros pd _. apply bind_no_panic; [apply guard_no_panic|]. intros u _. unfold setHash. destruct (m (with_hash ipk [])); discriminate.
  Qed.
  Lemma dlogPk_kinds (H : hasher C) (T : translator C) c_ipk raw names : parses T ->
    dlogPk H T c_ipk raw names <> IErr PlainError /\ dlogPk H T c_ipk raw names <> IPanic.
  Proof.
    intros P. unfold dlogPk. destruct (dec c_ipk raw) as [k|]; cbn [opt_err kinded ibind]; [|split; discriminate].
    assert (S : setHash H (enc c_ipk) k <> Panic) by (unfold setHash; destruct (enc c_ipk (with_hash k [])); discriminate).
    destruct (setHash H (enc c_ipk) k) as [k1| |]; cbn [kinded ibind]; [|split; discriminate|contradiction].
    pose proof (@checkIPK_no_panic H T (enc c_ipk) k1 P) as K.
    destruct (checkIPK H T (enc c_ipk) k1) as [k2| |]; cbn [kinded ibind]; [|split; discriminate|contradiction].
    destruct (length names =? 0); [split; discriminate|].
    destruct (length names =? length (ip_names k2)) eqn:L; cbn [guard kinded ibind]; [|split; discriminate].
    apply Nat.eqb_eq in L. pose proof (@names_match_no_panic names 0 (ip_names k2)) as N. cbn [Nat.add] in N. specialize (N ltac:(lia)).
    destruct (names_match 0 names (ip_names k2)) as [[]| |]; cbn [kinded ibind]; [split; discriminate|split; discriminate|contradiction].
  Qed.
End NoPanic.
