(** Data for the examples about the aries scheme: an issuer with three attributes (OU, enrollment id,
    revocation handle) on the toy curve, a credential, and concrete encodings of the messages. *)
From Verif Require Import Base Curve Algebra Spec Dlog Bridge BridgeFacts Bbs BbsSpec Aries AriesSpec Toy ToyBbs ToyCodec.
Unset Strict Implicit.

Definition s_acred : serial ACredential :=
  s_iso (s_pair s_bytes (s_pair (s_list s_bytes) s_Z)) (fun c => (ac_cred c, (ac_attrs c, ac_skpos c)))
    (fun p => {| ac_cred := fst p; ac_attrs := fst (snd p); ac_skpos := snd (snd p) |}).
Lemma s_acred_ok : serial_ok s_acred.
Proof. unfold s_acred. serial_tac. intros []; reflexivity. Qed.

Definition s_ansig : serial ANymSignature :=
  s_iso (s_pair s_bytes s_bytes) (fun c => (ans_main c, ans_nonce c)) (fun p => {| ans_main := fst p; ans_nonce := snd p |}).
Lemma s_ansig_ok : serial_ok s_ansig.
Proof. unfold s_ansig. serial_tac. intros []; reflexivity. Qed.

Definition s_asig : serial ASignature :=
  s_iso (s_pair s_bytes (s_pair s_bytes (s_pair s_bytes (s_pair s_bytes (s_pair s_bytes (s_pair s_bytes (s_pair s_Z
        (s_pair s_bytes (s_pair s_bytes (s_pair s_Z (s_pair s_bytes (s_pair s_bytes (s_pair s_Z (s_opt s_Z))))))))))))))
    (fun s => (as_main s, (as_nonce s, (as_nym s, (as_nym_proof s, (as_eid s, (as_eid_proof s, (as_eid_idx s,
              (as_rh s, (as_rh_proof s, (as_rh_idx s, (as_epoch_pk s, (as_pk_sig s, (as_epoch s, as_alg s))))))))))))))
    (fun p => let '(a, (b, (c, (d, (e, (f, (g, (h, (i, (j, (k, (l, (m, n))))))))))))) := p in
       {| as_main := a; as_nonce := b; as_nym := c; as_nym_proof := d; as_eid := e; as_eid_proof := f; as_eid_idx := g;
          as_rh := h; as_rh_proof := i; as_rh_idx := j; as_epoch_pk := k; as_pk_sig := l; as_epoch := m; as_alg := n |}).
Lemma s_asig_ok : serial_ok s_asig.
Proof.
  unfold s_asig. apply s_iso_ok; [|intros []; reflexivity].
  repeat (apply s_pair_ok; [first [exact s_bytes_ok|exact s_Z_ok]|]). exact (s_opt_ok s_Z_ok).
Qed.

Definition xa_ccred := tcodec s_acred.
Definition xa_csig := tcodec s_asig.
Definition xa_cnsig := tcodec s_ansig.
Definition xa_ccri := tcodec s_acri.
Lemma xa_ccred_ok : codec_ok canon_acred xa_ccred.
Proof. intros x _. exact (tcodec_rt s_acred_ok x). Qed.
Lemma xa_csig_ok : codec_ok canon_asig xa_csig.
Proof. intros x _. exact (tcodec_rt s_asig_ok x). Qed.
Lemma xa_cnsig_ok : forall s, round_trips xa_cnsig s.
Proof. exact (tcodec_rt s_ansig_ok). Qed.

(** ** An issuer, a user and a credential *)
Definition xa_isk : Zr toy32 := f5.
Definition xa_pk : G2 toy32 := genG2 toy32 ⊗ xa_isk.
Definition xa_key : iface (AIssuerPublicKey toy32) := Some (Some (issuer_key hg32 xa_pk 3)).
Definition xa_certified : list attribute :=
  [{| at_type := BytesAttr; at_value := VBytes (str "OU") |}; {| at_type := BytesAttr; at_value := VBytes (str "alice") |};
   {| at_type := IntAttr; at_value := VInt 42 |}].
(** the OU is disclosed *)
Definition xa_attrs : list attribute := [{| at_type := BytesAttr; at_value := VBytes (str "OU") |}; hidden_attr; hidden_attr].
Definition xa_vals : list (Zr toy32) := [h32 (str "OU"); h32 (str "alice"); zr_of_Z toy32 42].
Definition xa_sk : Zr toy32 := f7.
Definition xa_e : Zr toy32 := f2.
Definition xa_s : Zr toy32 := f9.
Definition xa_A : G1 toy32 :=
  Eval vm_compute in (bbs_base (gen0 hg32 xa_pk 4) (gens hg32 xa_pk 4) xa_s (xa_sk :: xa_vals) ⊗ zinv (zadd xa_isk xa_e)).
Definition xa_cred : ACredential := credential_of xa_A xa_e xa_s xa_vals.
Definition xa_credb : bytes := ser s_acred xa_cred.
Definition xa_cri : ACRI := {| acri_epoch := 3; acri_epochpk := str "epoch"; acri_sig := str "sig"; acri_alg := 0 |}.
Definition xa_crib : bytes := ser s_acri xa_cri.
Definition xa_R : ASigRand toy32 :=
  {| rn_pok := {| pr_r1 := (f3 : Zr toy32); pr_r2 := (f8 : Zr toy32);
                  pr_bl1 := fun i => zr_of_Z toy32 (Z.of_nat i + 4); pr_bl2 := fun i => zr_of_Z toy32 (Z.of_nat i * 3 + 2) |};
     rn_nym := (f11 : Zr toy32); rn_eid := {| ra_r := (f12 : Zr toy32); ra_bl := (f13 : Zr toy32) |};
     rn_rh := {| ra_r := (f14 : Zr toy32); ra_bl := (f15 : Zr toy32) |}; rn_nonce := (f16 : Zr toy32) |}.
Definition xa_RNym : Zr toy32 := f6.

Lemma xa_valid : bbs_signature xa_pk (gen0 hg32 xa_pk 4) (gens hg32 xa_pk 4) xa_A xa_e xa_s (xa_sk :: xa_vals).
Proof. vm_compute. reflexivity. Qed.
Lemma xa_dec_cred : dec xa_ccred xa_credb = Some xa_cred.
Proof. destruct (tcodec_rt s_acred_ok xa_cred) as (b & E & D). injection E as <-. exact D. Qed.
Lemma xa_dec_cri : dec xa_ccri xa_crib = Some xa_cri.
Proof. destruct (tcodec_rt s_acri_ok xa_cri) as (b & E & D). injection E as <-. exact D. Qed.
Lemma xa_states : Forall2 (attr_states h32) xa_certified xa_vals.
Proof. repeat constructor. Qed.
Lemma xa_agrees : Forall2 (attr_agrees h32) xa_attrs xa_vals.
Proof. constructor; [right; reflexivity|]. repeat (constructor; [left; reflexivity|]). constructor. Qed.

(** two field elements are different if their values are *)
Lemma zp_ne (a b : zp) : (zv a =? zv b)%Z = false -> a <> b.
Proof. intros E ->. rewrite Z.eqb_refl in E. discriminate. Qed.

Definition xa_gens : list zp := gen0 hg32 xa_pk 4 :: gens hg32 xa_pk 4.
Definition zp_nodup (l : list zp) : bool := (fix f l := match l with [] => true | x :: r => negb (existsb (fun y => zv x =? zv y)%Z r) && f r end) l.
Lemma zp_nodup_ok l : zp_nodup l = true -> NoDup l.
Proof.
  induction l as [|x r IH]; cbn; intro E; [constructor|]. apply andb_true_iff in E. destruct E as [E1 E2]. constructor; [|exact (IH E2)].
  intro I. apply negb_true_iff in E1.
  assert (X : existsb (fun y => (zv x =? zv y)%Z) r = true) by (apply existsb_exists; exists x; split; [exact I|apply Z.eqb_refl]). congruence.
Qed.
Lemma xa_nodup : NoDup (gen0 hg32 xa_pk 4 :: gens hg32 xa_pk 4).
Proof. apply (@zp_nodup_ok xa_gens). vm_compute. reflexivity. Qed.

Definition xa_d : zp :=
  (bbs_base (gen0 hg32 xa_pk 4) (gens hg32 xa_pk 4) xa_s (xa_sk :: xa_vals) ⊗ (f3 : Zr toy32)) ⊖ (gen0 hg32 xa_pk 4 ⊗ (f8 : Zr toy32)).
Lemma xa_usable st : usable_draws hg32 xa_pk 3 st 1 2 xa_s xa_sk xa_vals (xa_RNym, xa_R).
Proof.
  split; [apply zp_ne; vm_compute; reflexivity|]. split; intros _.
  - change (xa_d <> base_at hg32 xa_pk 3 2). apply zp_ne. vm_compute. reflexivity.
  - change (xa_d <> base_at hg32 xa_pk 3 3). apply zp_ne. vm_compute. reflexivity.
Qed.
