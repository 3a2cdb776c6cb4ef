(** Lemmas for joint signatures with a smartcard through the CSP (C90). *)
From Verif Require Import Base Curve Algebra Spec Dlog Bridge Bbs BbsSpec BbsFacts Aries AriesSpec AriesIssue AriesVerify AriesSign.
Unset Strict Implicit.

Section Sign.
  Variable C : Curve.
  Hypothesis OK : CurveOk C.
  Variable H : hasher C.
  Variable c_cred : codec ACredential.
  Variable c_sig : codec ASignature.
  Variable c_cri : codec ACRI.

  (** with a card the secret key given to Sign is left out of everything *)
  Lemma pok_any_sk (A : G1 C) e s vals attributes key st Nym RNym R : is_smartcard st = true ->
    exists P, forall sk, getPoKOfSignature (credential_of A e s vals) attributes sk key st Nym RNym R
      = let* pok := P in Ok (pok, number 0 (sk :: vals)).
  Proof.
    intro Sc. unfold getPoKOfSignature. rewrite Sc.
    set (cred := ac_cred (credential_of A e s vals)).
    exists (let* sig := parseSignature C cred in
            let msNoSk := number 1 vals in
            let* b := computeB (si_s sig) msNoSk key in
            pokOfSignatureB (smartcardVC2 RNym) false sig msNoSk (map Z.of_nat (revealedAttributesIndexNoSk attributes)) key
              (b ⊕ (Nym ⊖ (pg_h0 key ⊗ RNym))) R).
    intro sk. destruct (parseSignature C cred) as [sig| |]; cbn [bind]; try reflexivity.
    rewrite (credential_messages OK). cbn [bind credential_of ac_skpos number].
    assert (Z1 : forall (x : SignatureMessage C) l, zsplit (x :: l) (0 + 1) = Ok ([x], l)).
    { intros x l. unfold zsplit. cbn [length]. replace ((0 <=? 0 + 1)%Z && (0 + 1 <=? Z.of_nat (S (length l)))%Z) with true by lia. reflexivity. }
    assert (Z0 : forall (l : list (SignatureMessage C)), zsplit l 0 = Ok ([], l)).
    { intros l. unfold zsplit. replace ((0 <=? 0)%Z && (0 <=? Z.of_nat (length l))%Z) with true by lia. reflexivity. }
    rewrite Z0, Z1. cbn [bind app]. destruct (computeB _ _ _) as [b| |]; reflexivity.
  Qed.

  Lemma at_any_sk sk1 sk2 (vals : list (Zr C)) i : znth (number 0 (sk1 :: vals)) (past_sk (Z.of_nat i) 0) = znth (number 0 (sk2 :: vals)) (past_sk (Z.of_nat i) 0).
  Proof.
    assert (PE : past_sk (Z.of_nat i) 0 = Z.of_nat (S i)) by (unfold past_sk; replace (0 <=? Z.of_nat i)%Z with true by lia; lia).
    rewrite PE. unfold znth. destruct (_ <? 0)%Z; [reflexivity|]. rewrite Nat2Z.id. reflexivity.
  Qed.

  Lemma sign_any_sk (A : G1 C) e s vals credBytes sk1 sk2 Nym RNym key attributes msg rh eid criRaw st meta R : is_smartcard st = true ->
    dec c_cred credBytes = Some (credential_of A e s vals) ->
    arSign H c_cred c_sig c_cri credBytes sk1 Nym RNym key attributes msg (Z.of_nat rh) (Z.of_nat eid) criRaw st meta R
    = arSign H c_cred c_sig c_cri credBytes sk2 Nym RNym key attributes msg (Z.of_nat rh) (Z.of_nat eid) criRaw st meta R.
  Proof.
    intros Sc D. unfold arSign. destruct (sign_arg_check _ _ _ _); cbn [bind]; try reflexivity.
    destruct (assert_ptr key) as [ipk| |]; cbn [bind]; try reflexivity. destruct (opt_err (dec c_cri criRaw)) as [cri| |]; cbn [bind]; try reflexivity.
    destruct (guard (acri_alg cri =? 0)%Z) as [[]| |]; cbn [bind]; try reflexivity. rewrite D. cbn [opt_err bind].
    destruct (pok_any_sk A e s vals attributes (ip_key ipk) Nym RNym (rn_pok R) Sc) as [P E]. rewrite !E. destruct P as [pok| |]; cbn [bind]; try reflexivity.
    unfold getCommitNym. rewrite Sc. cbn [bind credential_of ac_skpos].
    rewrite (at_any_sk sk1 sk2 vals eid), (at_any_sk sk1 sk2 vals rh). reflexivity.
  Qed.

  (** metadata without audit data: the pseudonym in it, if there is one, has to be the one of the signature *)
  Lemma verify_raw (HG : bytes -> G1 C) pk n key signature msg attributes rh eid (m0 : Metadata C) d tau : bls_sizes C -> eid < n -> rh < n ->
    key = Some (Some (issuer_key HG pk n)) ->
    arVerify H c_sig key signature msg attributes (Z.of_nat rh) (Z.of_nat eid) 0 ExpectSmartcard (Some m0) = Ok tt ->
    md_eid_data m0 = Some d -> au_nym d = Some tau ->
    forall m, md_eid_data m = None ->
      (arVerify H c_sig key signature msg attributes (Z.of_nat rh) (Z.of_nat eid) 0 ExpectSmartcard (Some m) = Ok tt <->
       md_eid m = [] \/ g1_of_bytes C (md_eid m) = Some tau).
  Proof.
    intros BS Le Lr -> V0 Ed Et m Em. unfold arVerify in *. apply bind_ok in V0. destruct V0 as [f [F V0]]. rewrite F. cbn [bind].
    assert (X : vf_key f = ip_key (issuer_key HG pk n) /\ vf_rh f = None /\ exists p, vf_eid f = Some p).
    { unfold arVerify_first in F. cbn [assert_ptr bind] in F.
      apply bind_ok in F; destruct F as [sig [_ F]]. apply bind_ok in F; destruct F as [alg [_ F]]. apply bind_ok in F; destruct F as [[] [_ F]].
      apply bind_ok in F; destruct F as [[] [_ F]]. apply bind_ok in F; destruct F as [ms [_ F]]. apply bind_ok in F; destruct F as [payload [_ F]].
      apply bind_ok in F; destruct F as [rest [_ F]]. apply bind_ok in F; destruct F as [sp [_ F]]. apply bind_ok in F; destruct F as [[] [_ F]].
      apply bind_ok in F; destruct F as [nym [_ F]]. apply bind_ok in F; destruct F as [nymp [_ F]]. apply bind_ok in F; destruct F as [eidp [EE F]].
      apply bind_ok in F; destruct F as [rhp [ER F]]. apply bind_ok in F; destruct F as [cb [_ F]].
      cbn [parse_nym ar_verifyEid ar_verifyRh] in EE, ER. injection ER as <-. apply bind_ok in EE. destruct EE as [p [_ EE]]. apply bind_ok in EE. destruct EE as [q [_ EE]].
      injection EE as <-. injection F as <-. cbn [vf_key vf_rh vf_eid]. split; [reflexivity|]. split; [reflexivity|]. eexists. reflexivity. }
    destruct X as (EK & Er & p & Ep).
    assert (PS : forall i, past_sk (Z.of_nat i) (Z.of_nat 0) = Z.of_nat (S i)) by (clear; intro i; unfold past_sk; replace (Z.of_nat 0 <=? Z.of_nat i)%Z with true by lia; lia).
    change 0%Z with (Z.of_nat 0) in V0 |- *.
    assert (Lse : S eid <= n) by (clear - Le; lia). assert (Lsr : S rh <= n) by (clear - Lr; lia).
    apply (second_iff OK (HG := HG) BS _ _ _ (Nat.le_0_l n) Lse Lsr (PS eid) (PS rh) EK) in V0. destruct V0 as (A0 & _ & A1 & A2 & A3 & A4).
    assert (Q : snd p = tau).
    { destruct (A0 _ _ Ep eq_refl) as [Q _]. rewrite Ed in Q. destruct Q as (a & r & _ & _ & _ & Q). symmetry. exact (Q _ Et). }
    rewrite (second_iff OK (HG := HG) BS _ _ _ (Nat.le_0_l n) Lse Lsr (PS eid) (PS rh) EK). split.
    - intros (B0 & _). destruct (B0 _ _ Ep eq_refl) as [_ B]. rewrite Q in B. destruct (md_eid m) as [|x l]; [left; reflexivity|right; apply B; discriminate].
    - intro E. split; [|split; [|split; [|split; [|split]]]]; try assumption.
      + intros p' m' Ep' Em'. rewrite Ep in Ep'. injection Ep' as <-. injection Em' as <-. rewrite Em, Q. split; [exact I|]. intro NE. destruct E as [E|E]; [contradiction|exact E].
      + intros p' m' Ep'. rewrite Er in Ep'. discriminate Ep'.
  Qed.
End Sign.
