(** Lemmas about the CSP model (C44 - C49). *)
From Coq Require Import NArith Nnat.
From Verif Require Import Base Curve Dlog Bridge Csp CspSpec.
Unset Strict Implicit.

(** ** C49: registration *)
Section Registration.
  Variable U : universe.

  Lemma upd_same A (m : rtype -> option A) t x : upd m t x t = Some x.
  Proof. unfold upd. destruct (rtype_eq_dec t t); congruence. Qed.
  Lemma upd_other A (m : rtype -> option A) t x t' : t' <> t -> upd m t x t' = m t'.
  Proof. unfold upd. destruct (rtype_eq_dec t' t); congruence. Qed.

  Definition charge1 (tw : option rtype * option (wrapper U)) (t : rtype) (i : interface) : option (wrapper U) := in_charge [tw] t i.

  Lemma add_lookup c t w t' :
    let c' := match AddWrapper (U := U) c t w with Ok c' => c' | _ => c end in
    gens c' t' = match obind (charge1 (t, w) t' IKeyGenerator) (w_gen (U := U)) with Some g => Some g | None => gens c t' end /\
    imps c' t' = match obind (charge1 (t, w) t' IKeyImporter) (w_imp (U := U)) with Some g => Some g | None => imps c t' end /\
    ders c' t' = match obind (charge1 (t, w) t' IKeyDeriver) (w_der (U := U)) with Some g => Some g | None => ders c t' end /\
    sigs c' t' = match obind (charge1 (t, w) t' ISigner) (w_sig (U := U)) with Some g => Some g | None => sigs c t' end /\
    vers c' t' = match obind (charge1 (t, w) t' IVerifier) (w_ver (U := U)) with Some g => Some g | None => vers c t' end.
  Proof.
    unfold charge1. cbn [in_charge]. destruct t as [t|]; [|cbn; auto]. destruct w as [w|]; [|cbn; auto].
    cbn [AddWrapper opt_err bind]. destruct w as [[g|] [i|] [d|] [s|] [v|]]; cbn [role_of w_gen w_imp w_der w_sig w_ver];
      destruct (rtype_eq_dec t t') as [<-|N]; cbn [gens imps ders sigs vers obind w_gen w_imp w_der w_sig w_ver];
      repeat split; try reflexivity; unfold upd; destruct (rtype_eq_dec _ _); congruence.
  Qed.

  Lemma in_charge_role h t i w : in_charge (U := U) h t i = Some w -> role_of w = Some i.
  Proof.
    induction h as [|[t' w'] h IH]; cbn; [discriminate|]. destruct (in_charge h t i) as [w1|]; [intros [= <-]; auto|].
    destruct t' as [t'|]; [|discriminate]. destruct w' as [w'|]; [|discriminate]. destruct (rtype_eq_dec t' t); [|discriminate].
    destruct (role_of w') as [r|] eqn:R; [|destruct i; discriminate].
    destruct r, i; intro E; try discriminate; injection E as <-; exact R.
  Qed.

  Lemma register_lookup h : forall c t,
    let c' := register (U := U) c h in
    gens c' t = match obind (in_charge h t IKeyGenerator) (w_gen (U := U)) with Some g => Some g | None => gens c t end /\
    imps c' t = match obind (in_charge h t IKeyImporter) (w_imp (U := U)) with Some g => Some g | None => imps c t end /\
    ders c' t = match obind (in_charge h t IKeyDeriver) (w_der (U := U)) with Some g => Some g | None => ders c t end /\
    sigs c' t = match obind (in_charge h t ISigner) (w_sig (U := U)) with Some g => Some g | None => sigs c t end /\
    vers c' t = match obind (in_charge h t IVerifier) (w_ver (U := U)) with Some g => Some g | None => vers c t end.
  Proof.
    induction h as [|[t1 w1] h IH]; intros c t; [cbn; auto|].
    cbn [register]. pose proof (add_lookup c t1 w1 t) as A. cbv zeta in A.
    set (c1 := match AddWrapper c t1 w1 with Ok c' => c' | _ => c end) in *.
    specialize (IH c1 t). cbv zeta in IH.
    destruct A as (A1 & A2 & A3 & A4 & A5), IH as (I1 & I2 & I3 & I4 & I5). unfold charge1 in *.
    assert (W : forall i w, in_charge h t i = Some w -> match i with IKeyGenerator => w_gen w <> None | IKeyImporter => w_imp w <> None
      | IKeyDeriver => w_der w <> None | ISigner => w_sig w <> None | IVerifier => w_ver w <> None end).
    { intros i w E. apply in_charge_role in E. destruct w as [[g|] [i0|] [d|] [s|] [v|]], i; cbn in E; try discriminate; cbn; discriminate. }
    cbv zeta. cbn [in_charge] in *.
    rewrite I1, I2, I3, I4, I5, A1, A2, A3, A4, A5. repeat split.
    - pose proof (W IKeyGenerator) as Q. destruct (in_charge h t IKeyGenerator) as [w|]; [|reflexivity]. cbn. specialize (Q w eq_refl). cbn in Q. destruct (w_gen w); [reflexivity|contradiction].
    - pose proof (W IKeyImporter) as Q. destruct (in_charge h t IKeyImporter) as [w|]; [|reflexivity]. cbn. specialize (Q w eq_refl). cbn in Q. destruct (w_imp w); [reflexivity|contradiction].
    - pose proof (W IKeyDeriver) as Q. destruct (in_charge h t IKeyDeriver) as [w|]; [|reflexivity]. cbn. specialize (Q w eq_refl). cbn in Q. destruct (w_der w); [reflexivity|contradiction].
    - pose proof (W ISigner) as Q. destruct (in_charge h t ISigner) as [w|]; [|reflexivity]. cbn. specialize (Q w eq_refl). cbn in Q. destruct (w_sig w); [reflexivity|contradiction].
    - pose proof (W IVerifier) as Q. destruct (in_charge h t IVerifier) as [w|]; [|reflexivity]. cbn. specialize (Q w eq_refl). cbn in Q. destruct (w_ver w); [reflexivity|contradiction].
  Qed.

  Lemma fold_register (l : list (rtype * wrapper U)) : Forall (fun r => role_of (snd r) <> None) l -> forall c,
    fold_res (fun c r => AddWrapper c (Some (fst r)) (Some (snd r))) l c = Ok (register c (map (fun r => (Some (fst r), Some (snd r))) l)).
  Proof.
    induction l as [|[t w] l IH]; intros F c; [reflexivity|]. inversion F as [|? ? R F']; subst. cbn [snd] in R.
    cbn [fold_res map register fst snd].
    assert (A : exists c', AddWrapper c (Some t) (Some w) = Ok c').
    { destruct w as [[g|] [i|] [d|] [s|] [v|]]; cbn; eauto. exfalso. apply R. reflexivity. }
    destruct A as [c' ->]. cbn [bind]. apply IH. exact F'.
  Qed.
End Registration.

Section Facts.
  Variable U : universe.
  Variable X : scheme U.
  Variable M : mathops U.

  (** ** The CSP made by New *)
  Definition wired_csp (e : bool) : CSP U :=
    {| gens := fun t => match t with
                        | TIssuerKeyGenOpts => Some (h_IssuerKeyGen X e)
                        | TUserKeyGenOpts => Some (h_UserKeyGen X e)
                        | TRevocationKeyGenOpts => Some (h_RevocationKeyGen X e)
                        | _ => None end;
       ders := fun t => match t with TUserSecretKey => Some (h_NymKeyDerivation X M e) | _ => None end;
       imps := fun t => match t with
                        | TUserImportOpts => Some (h_UserKeyImporter X e)
                        | TIssuerPkImportOpts => Some (h_IssuerPublicKeyImporter X)
                        | TIssuerImportOpts => Some (h_IssuerKeyImporter X e)
                        | TNymPkImportOpts => Some (h_NymPublicKeyImporter X)
                        | TNymImportOpts => Some (h_NymKeyImporter X M e)
                        | TRevocationPkImportOpts => Some (h_RevocationPublicKeyImporter M)
                        | TRevocationImportOpts => Some (h_RevocationKeyImporter X e)
                        | _ => None end;
       sigs := fun t => match t with
                        | TUserSecretKey => Some (h_SignerMultiplexer X)
                        | TIssuerSecretKey => Some (h_CredentialSigner X)
                        | TRevocationSecretKey => Some (h_CriSigner X)
                        | _ => None end;
       vers := fun t => match t with
                        | TIssuerPublicKey => Some (h_VerifierMultiplexer X)
                        | TNymPublicKey => Some (h_NymVerifier X)
                        | TUserSecretKey => Some (h_CredentialVerifier X)
                        | TRevocationPublicKey => Some (h_CriVerifier X)
                        | _ => None end |}.

  Lemma new_wired e : exists c, New X M false e = Ok c /\
    (forall t, gens c t = gens (wired_csp e) t) /\ (forall t, ders c t = ders (wired_csp e) t) /\
    (forall t, imps c t = imps (wired_csp e) t) /\ (forall t, sigs c t = sigs (wired_csp e) t) /\
    (forall t, vers c t = vers (wired_csp e) t).
  Proof.
    eexists. split.
    - unfold New. cbn [negb guard bind]. apply fold_register. unfold registrations.
      repeat (constructor; [discriminate|]). constructor.
    - match goal with |- context [register _ ?h] => pose proof (fun t => register_lookup h (NewImpl U) t) as L end.
      cbv zeta in L. repeat split; intro t; destruct (L t) as (L1 & L2 & L3 & L4 & L5).
      + rewrite L1. destruct t; reflexivity.
      + rewrite L3. destruct t; reflexivity.
      + rewrite L2. destruct t; reflexivity.
      + rewrite L4. destruct t; reflexivity.
      + rewrite L5. destruct t; reflexivity.
  Qed.

  Lemma new_tables e c : New X M false e = Ok c ->
    (forall t, gens c t = gens (wired_csp e) t) /\ (forall t, ders c t = ders (wired_csp e) t) /\
    (forall t, imps c t = imps (wired_csp e) t) /\ (forall t, sigs c t = sigs (wired_csp e) t) /\
    (forall t, vers c t = vers (wired_csp e) t).
  Proof.
    intro E. destruct (new_wired e) as [c' [E' P]]. rewrite E in E'. injection E' as <-. exact P.
  Qed.

  (** ** C44 *)
  Lemma forward_cases r : forward r = Ret false false \/ forward r = accepted \/ forward r = rejected \/ forward r = VPanic.
  Proof. destruct r as [[] []|]; cbn; auto. Qed.

  Lemma verdict_of_not r : verdict_of r <> Ret false false.
  Proof. destruct r; discriminate. Qed.
  Lemma verdict_of_accepted r : verdict_of r = accepted -> r = Ok tt.
  Proof. destruct r as [[]| |]; [reflexivity|discriminate|discriminate]. Qed.

  Lemma forward_verdict r : forward (verdict_of r) = verdict_of r.
  Proof. destruct r; reflexivity. Qed.

  (** the CSP's Verify in one equation *)
  Lemma csp_verify_eq e c k signature digest o : New X M false e = Ok c ->
    csp_Verify c (Some k) signature digest o =
      if length signature =? 0 then rejected
      else match k with
           | KIssuerPublic _ => forward (h_VerifierMultiplexer X k signature digest o)
           | KNymPublic _ => forward (h_NymVerifier X k signature digest o)
           | KUserSecret _ _ => forward (h_CredentialVerifier X k signature digest o)
           | KRevPublic _ => forward (h_CriVerifier X k signature digest o)
           | _ => rejected
           end.
  Proof.
    intro N. destruct (new_tables N) as (_ & _ & _ & _ & V). unfold csp_Verify.
    destruct (length signature =? 0); [reflexivity|]. rewrite V. destruct k; reflexivity.
  Qed.

  Lemma csp_verify_spec e c k signature digest o : New X M false e = Ok c ->
    csp_Verify c k signature digest o =
      match k, o with
      | Some k, Some o =>
          if length signature =? 0 then rejected
          else match deciding X k signature digest o with
               | Some r => verdict_of r
               | None => match k, o with
                         | KIssuerPublic _, SRequest _ _ => match s_request X with None => VPanic | _ => rejected end
                         | KIssuerPublic _, SBlind _ _ _ => match s_blind X with None => VPanic | _ => rejected end
                         | _, _ => rejected
                         end
               end
      | _, _ => rejected
      end.
  Proof.
    intro N. destruct k as [k|]; [|reflexivity].
    rewrite (csp_verify_eq k signature digest o N).
    destruct (length signature =? 0) eqn:L.
    { destruct o; reflexivity. }
    destruct k, o as [[]|]; cbn [h_VerifierMultiplexer h_AuditNymEid h_AuditNymRh h_Verifier h_CredentialRequestVerifier
      h_BlindCredentialRequestVerifier h_NymVerifier h_CredentialVerifier h_CriVerifier deciding]; unfold empty; rewrite ?L;
      try reflexivity; rewrite ?forward_verdict; try reflexivity.
    - destruct (so_revpk o) as [[]|]; rewrite ?forward_verdict; reflexivity.
    - destruct (s_request X); cbn; rewrite ?forward_verdict; reflexivity.
    - destruct (s_blind X); cbn; rewrite ?forward_verdict; reflexivity.
    - destruct issuerPK as [[]|]; rewrite ?forward_verdict; reflexivity.
    - destruct (no_ipk o) as [[]|]; try reflexivity. destruct (no_smartcard o).
      + destruct (s_card X), (no_nymeid o); rewrite ?forward_verdict; reflexivity.
      + apply forward_verdict.
  Qed.

  Lemma deciding_wired k signature digest o r : deciding X k signature digest o = Some r -> verifier_wired k o.
  Proof. destruct k, o; intro E; try discriminate; constructor. Qed.

  (** ** C45 *)
  Section Store.
    Variable S : Type.
    Variable KS : keystore U S.
    Variable c : CSP U.

    Variable inv : S -> Prop.
    Hypothesis INV : forall s k s' ok, inv s -> ks_store KS s k = (s', ok) -> inv s'.
    Hypothesis ATOMIC : forall s k s', inv s -> ks_store KS s k = (s', false) -> s' = s.

    Lemma eph_gen d (o : genopts) : op_ephemeral (OpGen d (Some o) : op U) = g_ephemeral o.
    Proof. destruct o; reflexivity. Qed.
    Lemma eph_der d k (o : dervopts U) : op_ephemeral (OpDeriv d k (Some o)) = d_ephemeral o.
    Proof. destruct o; reflexivity. Qed.
    Lemma eph_imp raw (o : impopts U) : op_ephemeral (OpImport raw (Some o)) = i_ephemeral o.
    Proof. destruct o; reflexivity. Qed.

    Lemma step_cases s x r s' : step KS c s x = (r, s') ->
      (exists k, r = Ok k /\ op_ephemeral x = false /\ ks_store KS s k = (s', true)) \/
      (exists k, r = Ok k /\ op_ephemeral x = true /\ s' = s) \/
      (r = Err /\ exists k, op_ephemeral x = false /\ ks_store KS s k = (s', false)) \/
      ((r = Err \/ r = Panic) /\ s' = s).
    Proof.
      unfold step, KeyGen, KeyDeriv, KeyImport, persist. intro E.
      destruct x as [d [o|]|d [k|] [o|]|raw [o|]]; rewrite ?eph_gen, ?eph_der, ?eph_imp;
        try (injection E as <- <-; right; right; right; auto; fail).
      - destruct (gens c (gtype o)) as [g|]; [|injection E as <- <-; right; right; right; auto].
        destruct (g d o) as [k| |]; [|injection E as <- <-; right; right; right; auto|injection E as <- <-; right; right; right; auto].
        destruct (g_ephemeral o); [injection E as <- <-; right; left; eauto|].
        destruct (ks_store KS s k) as [s1 []] eqn:P; injection E as <- <-; [left; eauto|right; right; left; eauto].
      - destruct (ders c (ktype k)) as [g|]; [|injection E as <- <-; right; right; right; auto].
        destruct (g d k o) as [k'| |]; [|injection E as <- <-; right; right; right; auto|injection E as <- <-; right; right; right; auto].
        destruct (d_ephemeral o); [injection E as <- <-; right; left; eauto|].
        destruct (ks_store KS s k') as [s1 []] eqn:P; injection E as <- <-; [left; eauto|right; right; left; eauto].
      - assert (E2 : (raw = RNil /\ (r, s') = (@Err (key U), s)) \/ raw <> RNil) by (destruct raw; [left; split; [reflexivity|exact (eq_sym E)]|right; discriminate|right; discriminate]).
        destruct E2 as [[-> E2]|NR]; [injection E2 as -> ->; right; right; right; auto|].
        assert (E3 : (let '(r, s') := match imps c (itype o) with
               | Some i => match i raw o with
                           | IOk r => let (s', b) := if i_ephemeral o then (s, true) else ks_store KS s (fst r) in if b then (IOk r, s') else (IErr PlainError, s')
                           | IErr k => (IErr k, s)
                           | IPanic => (IPanic, s) end
               | None => (IErr PlainError, s) end in (res_of (let+ x := r in IOk (fst x)), s')) = (r, s')).
        { rewrite <- E. destruct raw; [contradiction| |]; reflexivity. }
        clear E. destruct (imps c (itype o)) as [i|]; [|cbn in E3; injection E3 as <- <-; right; right; right; auto].
        destruct (i raw o) as [k'| |]; [|cbn in E3; injection E3 as <- <-; right; right; right; auto|cbn in E3; injection E3 as <- <-; right; right; right; auto].
        destruct (i_ephemeral o); [cbn in E3; injection E3 as <- <-; right; left; eauto|].
        destruct (ks_store KS s (fst k')) as [s1 []] eqn:P; cbn in E3; injection E3 as <- <-; [left; eauto|right; right; left; eauto].
      - destruct raw; injection E as <- <-; right; right; right; auto.
    Qed.

    Lemma step_inv s x r s' : inv s -> step KS c s x = (r, s') -> inv s'.
    Proof.
      intros I ES. destruct (step_cases ES) as [[k [-> [OE P]]]|[[k [-> [OE ->]]]|[[-> [k [OE P]]]|[[->| ->] ->]]]]; eauto.
    Qed.

    Lemma run_inv ops : forall s h s', inv s -> run KS c s ops = (h, s') -> inv s'.
    Proof.
      induction ops as [|x ops IH]; intros s h s' I E; cbn in E.
      - injection E as <- <-. exact I.
      - destruct (step KS c s x) as [r s1] eqn:ES. destruct (run KS c s1 ops) as [h1 s2] eqn:ER. injection E as <- <-.
        exact (IH _ _ _ (step_inv I ES) ER).
    Qed.

    Lemma run_stored ops : forall s h s', inv s -> run KS c s ops = (h, s') -> stored_all KS s (persisted h) = Some s'.
    Proof.
      induction ops as [|x ops IH]; intros s h s' I E; cbn in E.
      - injection E as <- <-. reflexivity.
      - destruct (step KS c s x) as [r s1] eqn:ES. destruct (run KS c s1 ops) as [h1 s2] eqn:ER.
        injection E as <- <-. specialize (IH _ _ _ (step_inv I ES) ER).
        destruct (step_cases ES) as [[k [-> [OE P]]]|[[k [-> [OE ->]]]|[[-> [k [OE P]]]|[[->| ->] ->]]]]; cbn [persisted].
        + rewrite OE. cbn. rewrite P. exact IH.
        + rewrite OE. exact IH.
        + apply ATOMIC in P; [|exact I]. subst s1. exact IH.
        + exact IH.
        + exact IH.
    Qed.

    Lemma run_ephemeral ops s h s' : (forall x, In x ops -> op_ephemeral x = true) -> run KS c s ops = (h, s') -> s' = s.
    Proof.
      revert s h s'. induction ops as [|x ops IH]; intros s h s' A E; cbn in E.
      - injection E as <- <-. reflexivity.
      - destruct (step KS c s x) as [r s1] eqn:ES. destruct (run KS c s1 ops) as [h1 s2] eqn:ER.
        injection E as <- <-. apply IH in ER; [|intros y I; apply A; right; exact I]. subst s2.
        pose proof (A x (or_introl eq_refl)) as OE.
        destruct (step_cases ES) as [[k [-> [OE' P]]]|[[k [-> [OE' ->]]]|[[-> [k [OE' P]]]|[[->| ->] ->]]]]; congruence.
    Qed.

    (** map-like stores *)
    Variable ident : key U -> option bytes.
    Hypothesis MS : map_store inv KS ident.

    Lemma stored_get ks : forall s s', inv s -> stored_all KS s ks = Some s' -> forall i,
      ks_get KS s' i = match last_under ident i ks with Some k => Ok k | None => ks_get KS s i end.
    Proof.
      induction ks as [|k ks IH]; intros s s' I E i; cbn in *.
      - injection E as <-. reflexivity.
      - destruct (ks_store KS s k) as [s1 []] eqn:P; [|discriminate].
        rewrite (IH _ _ (INV I P) E i). destruct (last_under ident i ks); [reflexivity|].
        destruct (ms_put MS I P) as [j [Ej [L N]]]. rewrite Ej. destruct (bytes_eqb j i) eqn:B.
        + apply bytes_eqb_eq in B. subst j. exact L.
        + apply N. intros ->. assert (B2 : bytes_eqb j j = true) by (apply bytes_eqb_eq; reflexivity). congruence.
    Qed.

    Lemma run_get ops s h s' i : inv s -> run KS c s ops = (h, s') ->
      ks_get KS s' i = match last_under ident i (persisted h) with Some k => Ok k | None => ks_get KS s i end.
    Proof.
      intros I E. apply stored_get; [exact I|]. exact (run_stored I E).
    Qed.
  End Store.

  (** ** KVSStore over a map *)
  Lemma to_N_lt (b : byte) : (Byte.to_N b < 256)%N.
  Proof. pose proof (Byte.to_N_bounded b). lia. Qed.

  Lemma hex_digit_inj a b : (a < 16)%N -> (b < 16)%N -> hex_digit a = hex_digit b -> a = b.
  Proof.
    intros A B E.
    assert (FA : forallb (fun x => forallb (fun y => implb (byte_eqb (hex_digit (N.of_nat x)) (hex_digit (N.of_nat y))) (x =? y)) (seq 0 16)) (seq 0 16) = true) by (vm_compute; reflexivity).
    rewrite forallb_forall in FA. specialize (FA (N.to_nat a)).
    assert (IA : In (N.to_nat a) (seq 0 16)) by (apply in_seq; lia). specialize (FA IA). cbv beta in FA.
    rewrite forallb_forall in FA. specialize (FA (N.to_nat b)).
    assert (IB : In (N.to_nat b) (seq 0 16)) by (apply in_seq; lia). specialize (FA IB). cbv beta in FA.
    rewrite !N2Nat.id in FA. rewrite E in FA.
    assert (R : byte_eqb (hex_digit b) (hex_digit b) = true) by (unfold byte_eqb; destruct (hex_digit b); reflexivity).
    rewrite R in FA. cbn in FA. apply Nat.eqb_eq in FA. lia.
  Qed.

  Lemma hex_inj a : forall b, hex a = hex b -> a = b.
  Proof.
    induction a as [|x a IH]; intros [|y b] E; try discriminate; [reflexivity|].
    cbn in E. injection E as E1 E2 E3. f_equal; [|apply IH; exact E3].
    pose proof (to_N_lt x) as LX. pose proof (to_N_lt y) as LY.
    apply hex_digit_inj in E1; [|apply N.div_lt_upper_bound; lia|apply N.div_lt_upper_bound; lia].
    apply hex_digit_inj in E2; [|apply N.mod_lt; lia|apply N.mod_lt; lia].
    assert (EN : Byte.to_N x = Byte.to_N y).
    { rewrite (N.div_mod (Byte.to_N x) 16), (N.div_mod (Byte.to_N y) 16) by lia. congruence. }
    assert (ES : Some x = Some y) by (rewrite <- (Byte.of_to_N x), <- (Byte.of_to_N y), EN; reflexivity).
    injection ES as ->. reflexivity.
  Qed.

  Lemma kvs_map_store S inv (KV : kvs S) : kvs_ok inv KV -> math_ok M -> map_store inv (KVSStore M KV) (kvs_ident X M).
  Proof.
    intros KO MO. constructor.
    - intros s k s' ok I E. cbn in E. unfold kvs_StoreKey in E. destruct (key_entry M k) as [[i e]|].
      + exact (kv_inv KO I E).
      + injection E as <- <-. exact I.
    - intros s k s' I E. cbn in E. unfold kvs_StoreKey in E. destruct (key_entry M k) as [[i e]|].
      + exact (kv_fail KO I E).
      + injection E as <-. reflexivity.
    - intros s k s' I E. cbn in E. unfold kvs_StoreKey in E.
      assert (EO : forall i0 e0, kv_put KV s i0 e0 = (s', true) -> forall i, i0 = hex i -> forall j, j <> i -> kvs_GetKey M KV s' j = kvs_GetKey M KV s j).
      { intros i0 e0 P i -> j NJ. unfold kvs_GetKey. rewrite (kv_other KO I P (j := hex j)); [reflexivity|].
        intro HJ. apply NJ. apply hex_inj. exact HJ. }
      destruct k; cbn [key_entry] in E; try discriminate.
      + eexists. split; [reflexivity|]. split; [|exact (EO _ _ E _ eq_refl)].
        cbn [ks_get KVSStore]. unfold kvs_GetKey. cbn [key_ski]. rewrite (kv_same KO I E). cbn. rewrite (mo_zr MO). reflexivity.
      + eexists. split; [reflexivity|]. split; [|exact (EO _ _ E _ eq_refl)].
        cbn [ks_get KVSStore]. unfold kvs_GetKey. cbn [key_ski]. rewrite (kv_same KO I E). cbn [opt_err bind e_nym ne_pk ne_ski ne_sk ne_exportable].
        rewrite (mo_g1 MO), (mo_zr MO). reflexivity.
  Qed.

  (** a stored pseudonym key read under the SKI of its public key, a user key under its own *)
  Lemma kvs_store_supported S (KV : kvs S) s k s' : ks_store (KVSStore M KV) s k = (s', true) -> kvs_ident X M k <> None.
  Proof. destruct k; cbn; unfold kvs_StoreKey; cbn; congruence. Qed.

  Lemma last_under_in ident i ks k : last_under (U := U) ident i ks = Some k -> In k ks /\ ident k = Some i.
  Proof.
    induction ks as [|k0 ks IH]; cbn; [discriminate|].
    destruct (last_under ident i ks).
    - intros [= ->]. destruct (IH eq_refl). auto.
    - destruct (ident k0) as [j|] eqn:EJ; [|discriminate]. destruct (bytes_eqb j i) eqn:B; [|discriminate].
      intros [= <-]. apply bytes_eqb_eq in B. subst j. auto.
  Qed.
  Lemma last_under_none ident i ks : last_under (U := U) ident i ks = None -> forall k, In k ks -> ident k <> Some i.
  Proof.
    induction ks as [|k0 ks IH]; cbn; [intros _ k []|].
    destruct (last_under ident i ks); [discriminate|].
    destruct (ident k0) as [j|] eqn:EJ.
    - destruct (bytes_eqb j i) eqn:B; [discriminate|]. intros _ k [<-|I].
      + rewrite EJ. intros [= ->]. assert (B2 : bytes_eqb i i = true) by (apply bytes_eqb_eq; reflexivity). congruence.
      + apply IH; auto.
    - intros _ k [<-|I]; [rewrite EJ; discriminate|apply IH; auto].
  Qed.
  Lemma last_under_split ident i pre k post : ident k = Some i -> (forall k', In k' post -> ident k' <> Some i) ->
    last_under (U := U) ident i (pre ++ k :: post) = Some k.
  Proof.
    intros EI N. assert (LP : last_under ident i post = None).
    { destruct (last_under ident i post) eqn:L; [|reflexivity]. destruct (last_under_in L) as [I E]. exfalso. exact (N _ I E). }
    induction pre as [|p pre IH]; cbn.
    - rewrite LP, EI. assert (B2 : bytes_eqb i i = true) by (apply bytes_eqb_eq; reflexivity). rewrite B2. reflexivity.
    - rewrite IH. reflexivity.
  Qed.

  (** ** C47 *)
  Lemma secret_bytes k b : key_private k = true -> key_bytes X M k = Ok b -> exportable_secret k = true.
  Proof. destruct k; cbn; intros P E; try discriminate; destruct exportable; auto; discriminate. Qed.

  Lemma gen_flag e c t g d o k : New X M false e = Ok c -> gens c t = Some g -> g d o = Ok k -> exportable_secret k = e /\ key_private k = true.
  Proof.
    intros N G E. destruct (new_tables N) as (GT & _). rewrite GT in G. clear N GT.
    destruct t; try discriminate; cbn in G; injection G as <-.
    - unfold h_IssuerKeyGen in E. destruct o; try discriminate. apply bind_ok in E. destruct E as [x [_ E]]. injection E as <-. auto.
    - unfold h_UserKeyGen in E. apply bind_ok in E. destruct E as [x [_ E]]. injection E as <-. auto.
    - unfold h_RevocationKeyGen in E. apply bind_ok in E. destruct E as [x [_ E]]. injection E as <-. auto.
  Qed.
  Lemma deriv_flag e c t g d k0 o k : New X M false e = Ok c -> ders c t = Some g -> g d k0 o = Ok k -> exportable_secret k = e /\ key_private k = true.
  Proof.
    intros N G E. destruct (new_tables N) as (_ & GT & _). rewrite GT in G. clear N GT.
    destruct t; try discriminate; cbn in G; injection G as <-.
    unfold h_NymKeyDerivation in E. destruct k0; try discriminate. destruct o as [? [[]|]|]; try discriminate.
    apply bind_ok in E. destruct E as [[nym r] [_ E]]. injection E as <-. auto.
  Qed.
  Lemma import_flag e c t g raw o k o' : New X M false e = Ok c -> imps c t = Some g -> g raw o = IOk (k, o') ->
    key_private k = true -> exportable_secret k = e.
  Proof.
    intros N G E P. destruct (new_tables N) as (_ & _ & GT & _). rewrite GT in G. clear N GT.
    assert (IB : forall A B (m : ires A) (f : A -> ires B) b, ibind m f = IOk b -> exists a, m = IOk a /\ f a = IOk b).
    { intros A B m f b Q. destruct m; cbn in Q; try discriminate. eauto. }
    destruct t; try discriminate; cbn in G; injection G as <-;
      unfold h_UserKeyImporter, h_IssuerPublicKeyImporter, h_IssuerKeyImporter, h_NymPublicKeyImporter, h_NymKeyImporter,
        h_RevocationPublicKeyImporter, h_RevocationKeyImporter in E;
      apply IB in E; destruct E as [der [_ E]].
    - apply IB in E. destruct E as [x [_ E]]. injection E as <- <-. reflexivity.
    - destruct o; try discriminate. apply IB in E. destruct E as [x [_ E]].
      destruct (request =? 0)%Z; [injection E as <- <-; discriminate P|].
      apply IB in E. destruct E as [y [_ E]]. injection E as <- <-. discriminate P.
    - destruct o; try discriminate. apply IB in E. destruct E as [x [_ E]]. injection E as <- <-. reflexivity.
    - apply IB in E. destruct E as [x [_ E]]. injection E as <- <-. discriminate P.
    - apply IB in E. destruct E as [x [_ E]]. injection E as <- <-. reflexivity.
    - apply IB in E. destruct E as [x [_ E]]. injection E as <- <-. discriminate P.
    - apply IB in E. destruct E as [x [_ E]]. injection E as <- <-. reflexivity.
  Qed.

  Lemma step_flag e c S (KS : keystore U S) s x k s' : New X M false e = Ok c -> step KS c s x = (Ok k, s') ->
    key_private k = true -> exportable_secret k = e.
  Proof.
    intros N E P. unfold step in E. pose proof (fun t g d o k => @gen_flag e c t g d o k N) as GF. pose proof (fun t g d k0 o k => @deriv_flag e c t g d k0 o k N) as DF. pose proof (fun t g raw o k o' => @import_flag e c t g raw o k o' N) as IF. clear N. destruct x as [d o|d k0 o|raw o].
    - unfold KeyGen in E. destruct o as [o|]; [|discriminate]. destruct (gens c (gtype o)) as [g|] eqn:G; [|discriminate].
      destruct (g d o) as [k1| |] eqn:EG; try discriminate. destruct (persist KS (g_ephemeral o) k1 s) as [s1 []]; try discriminate.
      injection E as <- <-. exact (proj1 (GF _ _ _ _ _ G EG)).
    - unfold KeyDeriv in E. destruct k0 as [k0|]; [|discriminate]. destruct o as [o|]; [|discriminate]. destruct (ders c (ktype k0)) as [g|] eqn:G; [|discriminate].
      destruct (g d k0 o) as [k1| |] eqn:EG; try discriminate. destruct (persist KS (d_ephemeral o) k1 s) as [s1 []]; try discriminate.
      injection E as <- <-. exact (proj1 (DF _ _ _ _ _ _ G EG)).
    - unfold KeyImport in E. destruct o as [o|]; [|destruct raw; discriminate].
      assert (R : raw <> RNil) by (intros ->; discriminate).
      destruct (imps c (itype o)) as [g|] eqn:G; [|destruct raw; discriminate].
      destruct (g raw o) as [[k1 o1]| |] eqn:EG; [|destruct raw; discriminate|destruct raw; discriminate].
      assert (EE : k1 = k).
      { destruct raw; [contradiction| |]; cbn [fst] in E; destruct (persist KS (i_ephemeral o) k1 s) as [s1 []]; cbn in E; congruence. }
      subst k1. exact (IF _ _ _ _ _ _ G EG P).
  Qed.

  Lemma run_flag e c S (KS : keystore U S) ops : New X M false e = Ok c -> forall s h s', run KS c s ops = (h, s') ->
    forall k, In k (returned h) -> key_private k = true -> exportable_secret k = e.
  Proof.
    intro N. induction ops as [|x ops IH]; intros s h s' E k I P; cbn in E.
    - injection E as <- <-. destruct I.
    - destruct (step KS c s x) as [r s1] eqn:ES. destruct (run KS c s1 ops) as [h1 s2] eqn:ER. injection E as <- <-.
      cbn in I. destruct r as [k1| |]; [|exact (IH _ _ _ ER _ I P)|exact (IH _ _ _ ER _ I P)].
      destruct I as [<-|I]; [exact (step_flag N ES P)|exact (IH _ _ _ ER _ I P)].
  Qed.

  Lemma persisted_returned h k : In k (persisted h) -> In k (returned (U := U) h).
  Proof.
    induction h as [|[x [k1| |]] h IH]; cbn; auto. destruct (op_ephemeral x).
    - intro I. right. auto.
    - intros [->|I]; auto.
  Qed.
End Facts.

(** ** The file-based KVS *)
Section Files.
  Variable json : codec entry.

  Lemma file_kvs_ok : (forall e, round_trips json e) -> kvs_ok (fun d => dk_faults d = []) (FileBased json).
  Proof.
    intro RT. constructor; cbn [kv_put kv_get FileBased]; unfold file_put, file_get.
    - intros s i e s' ok I E. destruct (RT e) as [b [Eb _]]. rewrite Eb, I in E. injection E as <- <-. reflexivity.
    - intros s i e s' I E. destruct (RT e) as [b [Eb _]]. rewrite Eb, I in E. discriminate.
    - intros s i e s' I E. destruct (RT e) as [b [Eb Db]]. rewrite Eb, I in E. injection E as <-. cbn.
      unfold dput. assert (B : bytes_eqb i i = true) by (apply bytes_eqb_eq; reflexivity). rewrite B. exact Db.
    - intros s i e s' I E j NJ. destruct (RT e) as [b [Eb Db]]. rewrite Eb, I in E. injection E as <-. cbn.
      unfold dput. destruct (bytes_eqb j i) eqn:B; [apply bytes_eqb_eq in B; contradiction|]. reflexivity.
  Qed.

  Lemma crash_other d id e d' j : put_crash json d id e d' -> j <> id -> d' j = d j.
  Proof.
    intros P N. inversion P; subst; [reflexivity|]. unfold dput.
    destruct (bytes_eqb j id) eqn:B; [apply bytes_eqb_eq in B; contradiction|]. reflexivity.
  Qed.
  Lemma crash_same d id e d' : put_crash json d id e d' ->
    d' id = d id \/ exists b n, enc json e = Some b /\ n <= length b /\ d' id = Some (firstn n b).
  Proof.
    intro P. inversion P; subst; [left; reflexivity|]. right. exists b, n. repeat split; auto.
    unfold dput. assert (B : bytes_eqb id id = true) by (apply bytes_eqb_eq; reflexivity). rewrite B. reflexivity.
  Qed.
End Files.
