(** Specification vocabulary and lemmas for the byte-level API of the dlog scheme. *)
From Verif Require Import Base Curve Algebra Spec Dlog DlogSpec DlogFacts DlogData DlogComplete DlogSign DlogAudit DlogTop Bridge.
From Coq Require Import Field.
Unset Strict Implicit.

(** The scalar an attribute stands for; [None] for a hidden or ill-typed attribute. *)
Definition attr_scalar (C : Curve) (H : hasher C) (a : attribute) : option (Zr C) :=
  match at_type a, at_value a with
  | BytesAttr, VBytes b => Some (H b)
  | IntAttr, VInt z => Some (zr_of_Z C z)
  | IntAttr, VInt64 z => Some (zr_of_Z C z)
  | _, _ => None
  end.

(** Messages that survive protobuf encoding: proto3 does not distinguish an absent from an empty
    bytes field, a nil element of a repeated field becomes an empty one, strings must be UTF-8, and
    integers fit their types. *)
Definition canon_ipk (utf8 : bytes -> Prop) (k : IssuerPublicKey) : Prop :=
  Forall utf8 (ip_names k) /\ Forall (fun o => o <> None) (ip_hattrs k).
Definition canon_req (r : CredRequest) : Prop := rq_nonce r <> Some [].
Definition canon_cred (c : Credential) : Prop := Forall (fun o => o <> None) (cr_attrs c).
Definition canon_sig (s : Signature) : Prop :=
  (forall an, sg_eid s = Some an -> an_s an <> Some []) /\ (forall an, sg_rh s = Some an -> an_s an <> Some []) /\
  int64 (sg_epoch s) /\ (forall n, sg_nonrev s = Some n -> int32 (nr_alg n)).
Definition canon_cri (c : CRI) : Prop := int64 (cri_epoch c) /\ int32 (cri_alg c).
Definition canon_acri (c : ACRI) : Prop := int64 (acri_epoch c) /\ int32 (acri_alg c).

Definition codec_ok X (canon : X -> Prop) (c : codec X) : Prop := forall x, canon x -> round_trips c x.

Lemma recover_no_panic A (m : res A) : recover m <> Panic.
Proof. destruct m; discriminate. Qed.

Lemma names_match_ok attributes : forall pre names,
  names_match (length pre) attributes (pre ++ names) = Ok tt <-> exists rest, names = attributes ++ rest.
Proof.
  induction attributes as [|a l IH]; intros pre names; cbn [names_match app].
  - split; [intros _; exists names; reflexivity|reflexivity].
  - split.
    + intro E. apply bind_ok in E. destruct E as [n [E1 E]]. apply bind_ok in E. destruct E as [[] [E2 E]].
      apply guard_ok in E2. apply bytes_eqb_eq in E2. subst n.
      apply nth_res_ok in E1. rewrite nth_error_app2, Nat.sub_diag in E1 by lia.
      destruct names as [|n names]; [discriminate|]. injection E1 as ->.
      specialize (IH (pre ++ [a]) names). rewrite app_length, <- app_assoc in IH. cbn [length app] in IH.
      rewrite Nat.add_1_r in IH. apply IH in E. destruct E as [rest ->]. exists rest. reflexivity.
    + intros [rest ->]. assert (N : nth_res (pre ++ (a :: l) ++ rest) (length pre) = Ok a).
      { apply nth_res_ok. rewrite nth_error_app2, Nat.sub_diag by lia. reflexivity. }
      cbn [app] in *. rewrite N. cbn [bind]. rewrite bytes_eqb_refl. cbn [guard bind].
      specialize (IH (pre ++ [a]) (l ++ rest)). rewrite app_length, <- app_assoc in IH. cbn [length app] in IH.
      rewrite Nat.add_1_r in IH. apply IH. exists rest. reflexivity.
Qed.

Section Facts.
  Context (C : Curve) (OK : CurveOk C) (H : hasher C) (T : translator C).
  Notation zr := (zcar (Zr C)).
  Notation g1 := (gcar (G1 C)).

  Lemma scalar_pos : 0 < scalar_size C.
  Proof.
    destruct (scalar_size C) eqn:E; [|lia]. exfalso.
    assert (Z : forall x, zr_bytes C x = []) by (intro x; apply length_zero_iff_nil; rewrite (ok_zr_len OK), E; reflexivity).
    apply (Field_theory.F_1_neq_0 (sok_field (ok_zr OK))).
    rewrite <- (ok_zr_rt OK z1), <- (ok_zr_rt OK z0), !Z. reflexivity.
  Qed.

  Lemma zb_nonempty x : zr_bytes C x <> [].
  Proof. intro E. pose proof (ok_zr_len OK x) as L. rewrite E in L. cbn in L. pose proof scalar_pos. lia. Qed.

  Lemma issue_value_iff a v : issue_value H a = Ok v <-> attr_scalar H a = Some v.
  Proof.
    unfold issue_value, attr_scalar. destruct a as [[] []]; cbn; split; intro E; try discriminate; injection E as <-; reflexivity.
  Qed.

  Lemma issue_values attributes vals : map (attr_scalar H) attributes = map Some vals ->
    map_res (issue_value H) attributes = Ok vals.
  Proof.
    revert vals; induction attributes as [|a l IH]; intros [|v vals] E; cbn in E; try discriminate; [reflexivity|].
    injection E as E1 E2. cbn [map_res]. rewrite (proj2 (issue_value_iff a v) E1). cbn [bind]. rewrite (IH _ E2). reflexivity.
  Qed.

  (** what the attribute comparison of Credential.Verify establishes *)
  Definition attr_carried (cred : Credential) (i : nat) (a : attribute) : Prop :=
    at_type a = HiddenAttr \/
    exists v x, attr_scalar H a = Some v /\ nth_error (cr_attrs cred) i = Some x /\ ob x = zr_bytes C v.

  Lemma attrs_match_iff cred attributes : forall k,
    attrs_match H k attributes cred = Ok tt <->
    forall i a, nth_error attributes i = Some a -> attr_carried cred (k + i) a.
  Proof.
    induction attributes as [|a l IH]; intro k; cbn [attrs_match].
    - split; [intros _ i a E; destruct i; discriminate|reflexivity].
    - assert (Hd : (match at_type a with
          | BytesAttr => let* b := bytes_value (at_value a) in
              let* x := nth_res (cr_attrs cred) k in guard (bytes_eqb (zr_bytes C (H b)) (ob x))
          | IntAttr => let* z := int_value (at_value a) in
              let* x := nth_res (cr_attrs cred) k in guard (bytes_eqb (zr_bytes C (zr_of_int C z)) (ob x))
          | HiddenAttr => Ok tt | OtherAttr => Err end) = Ok tt <-> attr_carried cred k a).
      { unfold attr_carried, attr_scalar. destruct a as [ty va]. cbn [at_type at_value].
        assert (Aux : forall v : zr, (let* x := nth_res (cr_attrs cred) k in guard (bytes_eqb (zr_bytes C v) (ob x))) = Ok tt <->
                  exists v' x, Some v = Some v' /\ nth_error (cr_attrs cred) k = Some x /\ ob x = zr_bytes C v').
        { intro v. split.
          - intro E. apply bind_ok in E. destruct E as [x [E1 E]]. apply guard_ok in E. apply bytes_eqb_eq in E.
            apply nth_res_ok in E1. exists v, x. auto.
          - intros (v' & x & Q & E1 & E2). injection Q as <-. apply nth_res_ok in E1. rewrite E1. cbn [bind].
            rewrite E2, bytes_eqb_refl. reflexivity. }
        destruct ty, va; cbn [bytes_value int_value bind]; split; intro E;
          try discriminate; try (left; reflexivity); try reflexivity;
          try (right; apply Aux; exact E);
          try (destruct E as [E|E]; [discriminate|apply Aux; exact E]);
          try (destruct E as [E|(v & x & E & _)]; discriminate). }
      split.
      + intro E. apply bind_ok in E. destruct E as [[] [E1 E]]. apply Hd in E1. intros i b Eb.
        destruct i as [|i]; cbn in Eb.
        * injection Eb as <-. rewrite Nat.add_0_r. exact E1.
        * apply (proj1 (IH (S k)) E) in Eb. rewrite Nat.add_succ_comm in Eb. exact Eb.
      + intro E. apply bind_ok. exists tt. split.
        * apply Hd. specialize (E 0 a eq_refl). rewrite Nat.add_0_r in E. exact E.
        * apply IH. intros i b Eb. rewrite Nat.add_succ_comm. apply E. exact Eb.
  Qed.

  (** the verifier's view of the attribute list *)
  Lemma verify_values attributes :
    (forall a, In a attributes -> at_type a = HiddenAttr \/ attr_scalar H a <> None) ->
    exists vs, map_res (verify_value H) attributes = Ok vs /\ map fst vs = sign_disclosure attributes /\
      map snd vs = map (attr_scalar H) attributes.
  Proof.
    induction attributes as [|a l IH]; intro Hin.
    - exists []. repeat split; reflexivity.
    - destruct IH as (vs & E1 & E2 & E3); [intros b Hb; apply Hin; right; exact Hb|].
      assert (V : exists p, verify_value H a = Ok p /\ fst p = match at_type a with HiddenAttr => Byte.x00 | _ => Byte.x01 end /\
                  snd p = attr_scalar H a).
      { destruct (Hin a (or_introl eq_refl)) as [E|E]; unfold verify_value, attr_scalar in *; destruct a as [[] []]; cbn in *;
          try discriminate; try (exfalso; apply E; reflexivity); eexists; repeat split; reflexivity. }
      destruct V as (p & V1 & V2 & V3). exists (p :: vs). cbn [map_res]. rewrite V1. cbn [bind]. rewrite E1. cbn [bind].
      split; [reflexivity|]. cbn [map sign_disclosure]. rewrite V2, V3, E3. split; [|reflexivity]. f_equal. exact E2.
  Qed.

  Lemma verify_values_inv attributes vs : map_res (verify_value H) attributes = Ok vs ->
    map fst vs = sign_disclosure attributes /\ map snd vs = map (attr_scalar H) attributes /\
    forall a, In a attributes -> at_type a = HiddenAttr \/ attr_scalar H a <> None.
  Proof.
    revert vs; induction attributes as [|a l IH]; intros vs E; cbn [map_res] in E.
    - injection E as <-. repeat split; try reflexivity. intros a [].
    - apply bind_ok in E. destruct E as [p [E1 E]]. apply bind_ok in E. destruct E as [vs' [E2 E]]. injection E as <-.
      destruct (IH vs' E2) as (Q1 & Q2 & Q3).
      assert (V : fst p = match at_type a with HiddenAttr => Byte.x00 | _ => Byte.x01 end /\ snd p = attr_scalar H a /\
                  (at_type a = HiddenAttr \/ attr_scalar H a <> None)).
      { unfold verify_value, attr_scalar in *. destruct a as [[] []]; cbn in *; try discriminate; injection E1 as <-;
          (split; [reflexivity|]); (split; [reflexivity|]); first [left; reflexivity|right; discriminate]. }
      destruct V as (V1 & V2 & V3). cbn [map sign_disclosure]. rewrite V1, V2, Q2. split; [f_equal; exact Q1|].
      split; [reflexivity|]. intros b [<-|Hb]; auto.
  Qed.

  Lemma sig_canonical cred sk Nym RNym ipk disc msg rhI eidI cri R st meta sig md :
    NewSignature H T (Some cred) (Some sk) (Some Nym) (Some RNym) (Some ipk) disc msg rhI eidI (Some cri) R st meta = Ok (sig, md) ->
    int64 (cri_epoch cri) -> canon_sig sig.
  Proof.
    intros E Ep. assert (F : exists P we wr, finalise H T cred sk Nym RNym ipk disc msg rhI eidI cri P R we wr meta = Ok (sig, md)).
    { unfold NewSignature in E. destruct st; try discriminate; inv_all; eauto. }
    clear E. destruct F as (P & we & wr & F). unfold finalise in F.
    apply bind_ok in F. destruct F as [eid [_ F]]. apply bind_ok in F. destruct F as [rh [_ F]].
    apply bind_ok in F. destruct F as [pd [_ F]]. apply bind_ok in F. destruct F as [c [_ F]].
    apply bind_ok in F. destruct F as [sa [_ F]]. injection F as <- _.
    assert (Q : forall x, Some (zr_bytes C x) <> Some []) by (intros x Q; injection Q as Q; exact (zb_nonempty Q)).
    split; [|split; [|split; [exact Ep|intros n E; injection E as <-; unfold int32; cbn [nr_alg]; lia]]];
      intros an E; cbn [sg_eid sg_rh] in E; [destruct eid as [[[[n t] r] a]|]|destruct rh as [[[[n t] r] a]|]];
      try discriminate; injection E as <-; cbn [an_s]; apply Q.
  Qed.

  Local Open Scope zr_scope.
  Let KO := ok_zr OK.
  Let GT := ok_gt OK.
  Add Field bridge_field : (sok_field KO).

  Lemma wbb_iff (sk m : zr) : sk + m <> z0 ->
    forall m', wbbVerify (Some (genG2 C ⊗ sk)) (Some (wbbSign sk m)) (Some m') = Ok tt <-> m' = m.
  Proof.
    intros NZ m'. cbn [wbbVerify]. unfold wbbSign. rewrite guard_ok.
    assert (E : pair C ((genG2 C ⊗ sk) ⊕ (genG2 C ⊗ m')) (genG1 C ⊗ zinv (sk + m)) =
                pair C (genG2 C) (genG1 C) ⊗ ((sk + m') * zinv (sk + m))).
    { rewrite (ok_pair_mul_r OK), (ok_pair_add_l OK), !(ok_pair_mul_l OK). gnorm KO GT; ring. }
    rewrite (gok_eqb GT), E. split.
    - intro Q.
      assert (Q' : pair C (genG2 C) (genG1 C) ⊗ ((sk + m') * zinv (sk + m)) = pair C (genG2 C) (genG1 C) ⊗ z1) by (rewrite Q; gnorm KO GT; ring).
      apply (@gmul_faithful _ _ KO GT) in Q'; [|exact (ok_pair_nondeg OK)].
      assert (X : (sk + m') * zinv (sk + m) * (sk + m) = z1 * (sk + m)) by (rewrite Q'; reflexivity).
      assert (Y : sk + m' = sk + m) by (rewrite <- (Ring_theory.Rmul_1_l (Field_theory.F_R (sok_field KO)) (sk + m)), <- X; field; exact NZ).
      replace m' with (sk + m' - sk) by ring. rewrite Y. ring.
    - intros ->. gnorm KO GT; field; exact NZ.
  Qed.

  Lemma newCredential_canonical key req attrs E S cred :
    newCredential H T key req attrs E S = Ok cred -> cr_attrs cred = map (fun a => Some (zr_bytes C a)) attrs.
  Proof.
    unfold newCredential. intro X.
    repeat (apply bind_ok in X; destruct X as [? [? X]]). injection X as <-. reflexivity.
  Qed.
End Facts.
