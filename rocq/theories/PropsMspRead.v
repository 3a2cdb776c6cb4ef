(** * Reading an identity while the MSP is set up again (C112) *)
From Verif Require Import Base Curve Algebra Dlog Bridge BridgeFacts Csp CspSpec CspFacts Msp MspSpec MspFacts MspConc Toy ToyDlog ToyCodec ToyCsp ToyMsp PropsMsp PropsMspId PropsMspConc.
Unset Strict Implicit.

(** without assignments in between the call is DeserializeIdentity of Msp.v: before the Setup and after it *)
Theorem C112_read_alone : forall U CD (E : env U) (X : scheme U) (M : mathops U) l m d1 d2 conf raw,
  let ws := setup_writes CD E l m d1 d2 conf in
  let all := length ws in
  read_during CD X M l raw ws m 0 0 0 = DeserializeIdentity CD X M l m raw /\
  read_during CD X M l raw ws m all all all = DeserializeIdentity CD X M l (snd (setup_at CD E l m d1 d2 conf)) raw.
Proof.
  intros U CD E X M l m d1 d2 conf raw ws all. unfold read_during, read_loads, DeserializeIdentity, DeserializeIdentityInternal.
  unfold all. rewrite firstn_all. unfold ws. rewrite C112_setup. split; reflexivity.
Qed.
Print Assumptions C112_read_alone.

(** For a Setup with the name and the curve the MSP already has, whatever its keys: an overlapping call reads what it reads
    before the Setup, which is also what it reads after it. *)
Theorem C112_read_partial : forall U CD (E : env U) (X : scheme U) (M : mathops U) l m before e1 e2 ty1 raw1 cf1 d1 d2 ty raw cf b k1 k2 k3,
  setup_at CD E l before e1 e2 (Some (ty1, raw1)) = (Ok tt, m) -> dec (c_conf CD) raw1 = Some cf1 ->
  dec (c_conf CD) raw = Some cf -> cf_name cf = cf_name cf1 -> cf_curve cf = cf_curve cf1 ->
  let r := read_during CD X M l b (setup_writes CD E l m d1 d2 (Some (ty, raw))) m k1 k2 k3 in
  r = DeserializeIdentity CD X M l m b /\ r = DeserializeIdentity CD X M l (snd (setup_at CD E l m d1 d2 (Some (ty, raw)))) b.
Proof.
  intros U CD E X M l m before e1 e2 ty1 raw1 cf1 d1 d2 ty raw cf b k1 k2 k3 S D1 D Qn Qc r.
  destruct (setup_left S D1) as (cid & X' & M' & cs & rk & C1 & C2 & C3 & _ & Nm & Cs & _).
  assert (H : Forall (harmless true false m) (setup_writes CD E l m d1 d2 (Some (ty, raw)))).
  { unfold setup_writes. rewrite D. constructor; [intros _; congruence|]. destruct (negb _); [constructor|]. rewrite Qc, C1, C2, C3.
    constructor; [exact (eq_sym Cs)|]. destruct (import cs (cf_ipk cf) _) as [ipk| |]; [|constructor..]. constructor; [exact I|].
    destruct (import cs (cf_revpk cf) _) as [rk'| |]; [|constructor..]. constructor; [intros T; discriminate T|]. destruct (cf_signer cf) as [sg|]; [|constructor].
    unfold signer_writes. destruct (setup_signer _ _ _ _ _ _ _ _ _) as [[] m']; [|constructor..]. destruct (p_signer m'); repeat constructor. }
  assert (K : forall k, kept true false m (fold_left (@apply_write U) (firstn k (setup_writes CD E l m d1 d2 (Some (ty, raw)))) m)).
  { intro k. apply kept_all. rewrite Forall_forall in *. intros w I. apply H. rewrite <- (firstn_skipn k). apply in_or_app. left. exact I. }
  assert (Q : forall k1 k2 k3, read_during CD X M l b (setup_writes CD E l m d1 d2 (Some (ty, raw))) m k1 k2 k3 = DeserializeIdentity CD X M l m b).
  { intros j1 j2 j3. rewrite <- (proj1 (C112_read_alone CD E X M l m d1 d2 (Some (ty, raw)) b)). unfold read_during.
    destruct (K j1) as (N1 & _). destruct (K j2) as (_ & _ & P2 & _). destruct (K j3) as (N3 & _). rewrite (N1 eq_refl), P2, (N3 eq_refl). reflexivity. }
  split; [apply Q|]. unfold r. rewrite Q. rewrite <- (proj2 (C112_read_alone CD E X M l m d1 d2 (Some (ty, raw)) b)), Q. reflexivity.
Qed.
Print Assumptions C112_read_partial.

(** Whatever the Setup: an identity that is read names the MSP by its name before or after, and so did the bytes. *)
Theorem C112_read_name : forall U CD (E : env U) (X : scheme U) (M : mathops U) l m d1 d2 conf b k1 k2 k3 i,
  let m' := snd (setup_at CD E l m d1 d2 conf) in
  read_during CD X M l b (setup_writes CD E l m d1 d2 conf) m k1 k2 k3 = Ok i ->
  i_msp i = l /\ (i_id i = p_name m \/ i_id i = p_name m') /\
  exists s, dec (c_si CD) b = Some s /\ (si_mspid s = p_name m \/ si_mspid s = p_name m').
Proof.
  intros U CD E X M l m d1 d2 conf b k1 k2 k3 i m' R.
  assert (K : forall k, mixed m m' (fold_left (@apply_write U) (firstn k (setup_writes CD E l m d1 d2 conf)) m)).
  { intro k. apply (setup_mixed (b := skipn k (setup_writes CD E l m d1 d2 conf))). symmetry. apply firstn_skipn. }
  unfold read_during, read_loads in R. destruct (dec (c_si CD) b) as [s|]; [|discriminate R]. cbn [opt_err bind] in R.
  apply bind_ok in R. destruct R as [u [G R]]. apply guard_ok in G. apply bytes_eqb_eq in G.
  unfold DeserializeIdentityInternal in R. apply bind_ok in R. destruct R as [x [_ R]]. destruct (ii_nymx x) as [nx|]; [|discriminate R]. destruct (ii_nymy x) as [ny|]; [|discriminate R].
  apply bind_ok in R. destruct R as [c [_ R]]. apply bind_ok in R. destruct R as [nym [_ R]]. apply bind_ok in R. destruct R as [ou [_ R]]. apply bind_ok in R. destruct R as [role [_ R]].
  unfold newIdemixIdentity in R. destruct (key_bytes X M nym) as [kb| |]; try discriminate R. injection R as <-. cbn [i_msp i_id set_name p_name].
  split; [reflexivity|]. split; [apply (proj1 (K k3))|]. exists s. split; [reflexivity|]. rewrite G. apply (proj1 (K k1)).
Qed.
Print Assumptions C112_read_name.

(** The name is loaded twice.  When the Setup of a different name falls in between, bytes that name the old MSP are read as an
    identity of the new one: before the Setup they are read as an identity of the old one, and after it they are refused. *)
Theorem C112_read_refuted : forall U CD (E : env U) (X : scheme U) (M : mathops U) l m d1 d2 ty raw cf b i,
  dec (c_conf CD) raw = Some cf -> cf_name cf <> p_name m -> DeserializeIdentity CD X M l m b = Ok i ->
  let m' := snd (setup_at CD E l m d1 d2 (Some (ty, raw))) in
  i_id i = p_name m /\ DeserializeIdentity CD X M l m' b = Err /\
  exists k1 k2 k3 i', k1 <= k2 <= k3 /\ read_during CD X M l b (setup_writes CD E l m d1 d2 (Some (ty, raw))) m k1 k2 k3 = Ok i' /\
    i_id i' = p_name m' /\ p_name m' <> p_name m.
Proof.
  intros U CD E X M l m d1 d2 ty raw cf b i D Ne R m'.
  assert (Nm : p_name m' = cf_name cf).
  { unfold m'. destruct (setup_at CD E l m d1 d2 (Some (ty, raw))) as [r0 m2] eqn:S. cbn [snd].
    destruct (setup_renames S) as [[_ F]|(ty' & raw' & cf' & F & D' & Q & _)]; [rewrite (F _ _ eq_refl) in D; discriminate D|].
    injection F as <- <-. rewrite D in D'. injection D' as <-. exact Q. }
  assert (W : exists ws, setup_writes CD E l m d1 d2 (Some (ty, raw)) = WName (cf_name cf) :: ws).
  { unfold setup_writes. rewrite D. eexists. reflexivity. }
  destruct W as [ws W].
  unfold DeserializeIdentity in R. apply bind_ok in R. destruct R as [s [Ds R]]. apply bind_ok in R. destruct R as [u [G R]]. apply guard_ok in G.
  pose proof G as G'. apply bytes_eqb_eq in G'. unfold DeserializeIdentityInternal in R. apply bind_ok in R. destruct R as [x [Dx R]].
  destruct (ii_nymx x) as [nx|] eqn:Ex; [|discriminate R]. destruct (ii_nymy x) as [ny|] eqn:Ey; [|discriminate R].
  apply bind_ok in R. destruct R as [c [Rc R]]. apply bind_ok in R. destruct R as [nym [Rn R]]. apply bind_ok in R. destruct R as [ou [Ro R]]. apply bind_ok in R. destruct R as [role [Rr R]].
  unfold newIdemixIdentity in R. destruct (key_bytes X M nym) as [kb| |] eqn:Rk; try discriminate R. injection R as <-. cbn [i_id].
  split; [reflexivity|]. split.
  - unfold DeserializeIdentity. rewrite Ds. cbn [bind]. rewrite G', Nm.
    destruct (bytes_eqb (p_name m) (cf_name cf)) eqn:B; [apply bytes_eqb_eq in B; congruence|reflexivity].
  - exists 0, 0, 1. eexists. split; [lia|]. split.
    + rewrite W. unfold read_during, read_loads. cbn [firstn fold_left apply_write]. rewrite Ds. cbn [bind]. rewrite G. cbn [guard bind]. unfold DeserializeIdentityInternal.
      rewrite Dx. cbn [bind]. rewrite Ex, Ey. cbn [set_name loaded p_csp]. rewrite Rc. cbn [bind]. rewrite Rn. cbn [bind]. rewrite Ro. cbn [bind]. rewrite Rr. cbn [bind].
      unfold newIdemixIdentity. rewrite Rk. reflexivity.
    + cbn [i_id set_name p_name]. rewrite Nm. split; [reflexivity|exact Ne].
Qed.
Print Assumptions C112_read_refuted.

(** the identity of ToyMsp.v is read while the MSP gets another issuer key, or another name *)
Definition rbytes : bytes := from_ok [] (Serialize mCD mheap mid).
Definition rread (f : msp_config) (k1 k2 k3 : nat) := read_during mCD xX xM 0 rbytes (ksetup f) m1 k1 k2 k3.
Example C112_read_example :
  setup_at mCD mE 0 m0 xdraw xdraw (Some (IDEMIX, mraw (mconf (Some msigner)))) = (Ok tt, m1) /\
  dec (c_conf mCD) (mraw (kconf mname)) = Some (kconf mname) /\ is_ok (DeserializeIdentity mCD xX xM 0 m1 rbytes) = true /\
  is_ok (rread (kconf mname) 0 2 3) = true.
Proof.
  destruct C112_example as (E1 & _ & E2 & _). split; [exact E1|]. split; [exact E2|]. split; vm_compute; reflexivity.
Qed.
Example C112_read_refuted_example :
  let f := mconf2 (xpem (str "k")) in
  dec (c_conf mCD) (mraw f) = Some f /\ cf_name f <> p_name m1 /\
  match DeserializeIdentity mCD xX xM 0 m1 rbytes with Ok i => i_id i = mname | _ => False end /\
  match rread f 0 0 1 with Ok i => i_id i = str "Org2MSP" | _ => False end /\ is_ok (rread f 1 1 1) = false.
Proof.
  destruct C112_name_example as (E1 & E2 & _). split; [exact E1|]. split; [exact E2|]. split; [vm_compute; reflexivity|]. split; vm_compute; reflexivity.
Qed.
