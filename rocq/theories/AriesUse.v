(** What a successful Sign says about its arguments. *)
From Verif Require Import Base Curve Algebra Spec Dlog Bridge BridgeFacts Bbs BbsSpec BbsFacts BbsProof BbsComplete Aries AriesSpec AriesIssue AriesNym AriesVerify AriesSign AriesSound AriesBind.
Unset Strict Implicit.

Section Use.
  Context {C : Curve} (OK : CurveOk C).
  Variable HG : bytes -> G1 C.
  Variable H : hasher C.
  Notation zr := (zcar (Zr C)).
  Notation g1 := (gcar (G1 C)).
  Notation g2 := (gcar (G2 C)).
  Variable BS : bls_sizes C.
  Variable c_sig : codec ASignature.
  Variable c_cri : codec ACRI.
  Variables (pk : g2) (n : nat).
  Notation key := (ip_key (issuer_key HG pk n)).
  Notation ipk := (Some (Some (issuer_key HG pk n))).

  Lemma cred_messages m : forall i (attrs : list bytes) (sk : zr), length attrs = m -> i > 0 ->
    to_sig_messages m i attrs 0 sk = Ok (number i (map (zr_of_bytes C) attrs)).
  Proof.
    clear. induction m as [|m IH]; intros i [|x attrs] sk L P; try discriminate; [reflexivity|]. cbn [to_sig_messages map].
    replace (Z.of_nat i =? 0)%Z with false by lia. rewrite IH by (simpl in L; lia). reflexivity.
  Qed.
  Lemma any_messages cred (sk : zr) : ac_skpos cred = 0%Z -> toSignatureMessage cred sk = Ok (number 0 (sk :: map (zr_of_bytes C) (ac_attrs cred))).
  Proof.
    clear. intro Z. unfold toSignatureMessage. rewrite Z, Nat.add_1_r. cbn [to_sig_messages]. cbn [Z.of_nat Z.eqb]. rewrite cred_messages by (auto; lia). reflexivity.
  Qed.

  (** Sign reads a credential only through the point and scalars it carries. *)
  Definition reads_as (A : g1) (e s : zr) (vals : list zr) : codec ACredential :=
    {| enc := fun _ => None; dec := fun _ => Some (credential_of A e s vals) |}.

  Lemma sign_reads c_cred credBytes cred sg (sk : zr) Nym RNym attributes msg rh eid criRaw st meta (R : ASigRand C) :
    dec c_cred credBytes = Some cred -> ac_skpos cred = 0%Z -> parseSignature C (ac_cred cred) = Ok sg ->
    arSign H c_cred c_sig c_cri credBytes sk Nym RNym ipk attributes msg rh eid criRaw st meta R =
    arSign H (reads_as (si_a sg) (si_e sg) (si_s sg) (map (zr_of_bytes C) (ac_attrs cred))) c_sig c_cri credBytes sk Nym RNym ipk attributes msg rh eid criRaw st meta R.
  Proof.
    intros D Z P. unfold arSign. destruct (sign_arg_check attributes rh eid st) as [[]| |]; try reflexivity. cbn [bind assert_ptr].
    destruct (opt_err (dec c_cri criRaw)) as [cri| |]; try reflexivity. cbn [bind]. destruct (guard _) as [[]| |]; try reflexivity. cbn [bind].
    rewrite D. cbn [reads_as dec opt_err bind]. set (c' := credential_of _ _ _ _).
    assert (Z' : ac_skpos c' = 0%Z) by reflexivity.
    assert (G : getPoKOfSignature cred attributes sk key st Nym RNym (rn_pok R) = getPoKOfSignature c' attributes sk key st Nym RNym (rn_pok R)).
    { unfold getPoKOfSignature. rewrite P, Z, Z', !any_messages by assumption.
      assert (P' : parseSignature C (ac_cred c') = Ok sg).
      { unfold c', credential_of. cbn [ac_cred]. change (g1_comp C (si_a sg) ++ zr_bytes C (si_e sg) ++ zr_bytes C (si_s sg)) with (sig_enc (si_a sg) (si_e sg) (si_s sg)).
        rewrite (parse_sig_enc OK (proj1 BS)). destruct sg; reflexivity. }
      rewrite P'. unfold c'. cbn [credential_of ac_attrs]. rewrite map_map, (map_ext _ (fun x => x)), map_id by (intro x; apply (ok_zr_rt OK)). reflexivity. }
    rewrite G, Z, Z'. reflexivity.
  Qed.

  (** What Sign has checked when it succeeds. *)
  Lemma sign_checked c_cred credBytes cred (sk : zr) Nym RNym attributes msg rh eid criRaw st meta (R : ASigRand C) out :
    dec c_cred credBytes = Some cred -> ac_skpos cred = 0%Z -> is_smartcard st = false ->
    arSign H c_cred c_sig c_cri credBytes sk Nym RNym ipk attributes msg rh eid criRaw st meta R = Ok out ->
    exists sg cri, parseSignature C (ac_cred cred) = Ok sg /\ length (ac_attrs cred) <= n /\
      bbs_signature pk (gen0 HG pk (n + 1)) (gens HG pk (n + 1)) (si_a sg) (si_e sg) (si_s sg) (sk :: map (zr_of_bytes C) (ac_attrs cred)) /\
      dec c_cri criRaw = Some cri /\ acri_alg cri = 0%Z /\ sign_arg_check attributes rh eid st = Ok tt.
  Proof.
    intros D Z NS E. unfold arSign in E. apply bind_ok in E. destruct E as [[] [E0 E]]. cbn [bind assert_ptr] in E.
    apply bind_ok in E. destruct E as [cri [Ec E]]. apply bind_ok in E. destruct E as [[] [Eg E]]. apply guard_ok in Eg.
    rewrite D in E. cbn [opt_err bind] in E. apply bind_ok in E. destruct E as [[pok ms] [Ep _]].
    unfold getPoKOfSignature in Ep. apply bind_ok in Ep. destruct Ep as [sg [Es Ep]]. rewrite (any_messages _ Z) in Ep. cbn [bind] in Ep. rewrite NS in Ep.
    apply bind_ok in Ep. destruct Ep as [pok' [Ep _]]. unfold newPoKOfSignature in Ep. apply bind_ok in Ep. destruct Ep as [b [Eb Ep]].
    unfold pokOfSignatureB in Ep. apply bind_ok in Ep. destruct Ep as [[] [Ev _]].
    assert (V : signatureVerify sg (number 0 (sk :: map (zr_of_bytes C) (ac_attrs cred))) key = Ok tt).
    { unfold signatureVerify. rewrite Eb. exact Ev. }
    apply (signatureVerify_iff OK) in V; [|apply number_numbered]. destruct V as [L V]. rewrite number_fr in V. rewrite number_length in L. cbn [length] in L. rewrite map_length in L.
    exists sg, cri. split; [exact Es|]. split; [|split; [exact V|]].
    - cbn [issuer_key ip_key pg_h] in L. rewrite gens_length in L. lia.
    - split; [|split; [|exact E0]]; [|lia]. destruct (dec c_cri criRaw); [injection Ec as ->; reflexivity|discriminate].
  Qed.
End Use.
