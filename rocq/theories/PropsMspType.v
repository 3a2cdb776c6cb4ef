(** * The type of a configuration, and the attributes of its issuer key (C113, C114) *)
From Verif Require Import Base Curve Bbs Aries Dlog Bridge BridgeFacts Csp CspSpec CspInst CspFacts Msp MspSpec MspFacts Toy ToyDlog ToyCodec ToyCsp ToyMsp PropsBridge PropsCsp PropsMsp PropsMspAries PropsDefaultAries.
Unset Strict Implicit.

(** What decides is the number in the configuration: 1 for MSPs of the dlog scheme and 2 for those of the aries scheme. *)
Theorem C113_type : forall U CD (E : env U) h l d1 d2 ty raw,
  fst (Setup CD E h l d1 d2 (Some (ty, raw))) = Ok tt -> ty = if ev_aries E then 2%Z else 1%Z.
Proof.
  intros U CD E h l d1 d2 ty raw S. unfold Setup in S. destruct (nth_error h l) as [m|]; [|discriminate S]. cbn [setup_at] in S.
  destruct (dec (c_conf CD) raw) as [cf|]; [|discriminate S].
  destruct (ty =? (if ev_aries E then IDEMIX_ARIES else IDEMIX))%Z eqn:T; [|discriminate S]. apply Z.eqb_eq in T. rewrite T. destruct (ev_aries E); reflexivity.
Qed.
Print Assumptions C113_type.

(** A configuration that some MSP of one scheme accepts makes Setup of every MSP of the other scheme fail, in every state, and its
    keys and its default identity stay. *)
Theorem C113_one_scheme : forall U1 U2 CD1 CD2 (E1 : env U1) (E2 : env U2) h1 l1 e1 e2 h2 l2 m2 d1 d2 conf,
  ev_aries E1 <> ev_aries E2 -> fst (Setup CD1 E1 h1 l1 e1 e2 conf) = Ok tt -> nth_error h2 l2 = Some m2 ->
  exists m', Setup CD2 E2 h2 l2 d1 d2 conf = (Err, put h2 l2 m') /\
    p_csp m' = p_csp m2 /\ p_ipk m' = p_ipk m2 /\ p_revpk m' = p_revpk m2 /\ p_signer m' = p_signer m2 /\ p_version m' = p_version m2.
Proof.
  intros U1 U2 CD1 CD2 E1 E2 h1 l1 e1 e2 h2 l2 m2 d1 d2 [[ty raw]|] NE S L.
  - apply C113_type in S. unfold Setup. rewrite L. cbn [setup_at]. destruct (dec (c_conf CD2) raw) as [cf|].
    + assert (T : (ty =? (if ev_aries E2 then IDEMIX_ARIES else IDEMIX))%Z = false).
      { rewrite S. destruct (ev_aries E1), (ev_aries E2); try reflexivity; contradiction. }
      rewrite T. exists (set_name m2 (cf_name cf)). repeat split.
    + exists m2. repeat split.
  - unfold Setup in S. destruct (nth_error h1 l1); discriminate S.
Qed.
Print Assumptions C113_one_scheme.

(** the configuration of ToyMsp.v, with the other type, and given to an MSP of the other scheme *)
Example C113_example :
  fst (Setup mCD mE [m0] 0 xdraw xdraw (Some (1%Z, mraw (mconf (Some msigner))))) = Ok tt /\
  ev_aries mE <> true /\
  fst (Setup mCD mE [m0] 0 xdraw xdraw (Some (2%Z, mraw (mconf (Some msigner))))) = Err /\
  fst (Setup mCD {| ev_aries := true; ev_pack := ev_pack mE |} [m0] 0 xdraw xdraw (Some (1%Z, mraw (mconf (Some msigner))))) = Err.
Proof. split; [vm_compute; reflexivity|]. split; [discriminate|]. split; vm_compute; reflexivity. Qed.

(** * The attributes of the issuer keys an MSP trusts (C114) *)
(** The attributes an MSP trusts an issuer key for are, in this order, the unit, the role, the enrollment id and the revocation
    handle: the key carries these names (dlog) or is for as many attributes as there are names (aries, whose keys carry none). *)
Theorem C114_dlog : forall CD C (H : hasher C) (T : translator C) c_ipk c_ik c_req c_cred c_sig c_nsig c_cri EC (EE : ecenv EC) sha256
    (E : env (dlogU C EC)) h l d1 d2 conf h' m,
  let X := dlog_scheme H T c_ipk c_ik c_req c_cred c_sig c_nsig c_cri EE sha256 in
  (forall cid p, ev_pack E cid = Some p -> p = (X, dlog_math T EE sha256)) ->
  Setup CD E h l d1 d2 conf = (Ok tt, h') -> nth_error h' l = Some m ->
  exists ipk, p_ipk m = Some (KIssuerPublic (Some (Some ipk) : u_ipk (dlogU C EC))) /\
    checkIPK H T (enc c_ipk) ipk = Ok ipk /\ ip_names ipk = [str "OU"; str "Role"; str "EnrollmentID"; str "RevocationHandle"].
Proof.
  intros CD C H T c_ipk c_ik c_req c_cred c_sig c_nsig c_cri EC EE sha256 E h l d1 d2 conf h' m X PK S L. unfold Setup in S.
  destruct (nth_error h l) as [m0|] eqn:L0; [|discriminate S]. destruct (setup_at CD E l m0 d1 d2 conf) as [r0 m'] eqn:S0. injection S as -> <-.
  rewrite (put_same m' L0) in L. injection L as ->.
  destruct (setup_ok_inv S0) as (ty' & raw' & cf' & cid & X' & M' & ipk & r & _ & _ & _ & _ & P & _ & I & _ & _ & (_ & K & _) & _).
  apply PK in P. injection P as -> ->. cbn [X dlog_scheme s_issuerPkFromBytes] in I.
  pose proof (dlogPk_res H T c_ipk (cf_ipk cf') attribute_names) as Q. destruct (dlogPk H T c_ipk (cf_ipk cf') attribute_names) as [k| |]; try discriminate I.
  cbn in I. injection I as <-. cbn [res_of] in Q. symmetry in Q. destruct (C17_import_checked Q) as [Q1 Q2].
  exists k. split; [exact K|]. split; [exact Q1|]. apply Q2. discriminate.
Qed.
Print Assumptions C114_dlog.
Theorem C114_aries : forall CD C (HG : bytes -> G1 C) (H : hasher C) hkdf c_cred c_sig c_nsig c_cri EC (EE : ecenv EC) sha256 (T : translator C)
    (E : env (ariesU C EC)) h l d1 d2 conf h' m,
  let X := aries_scheme HG H hkdf c_cred c_sig c_nsig c_cri EE sha256 in
  (forall cid p, ev_pack E cid = Some p -> p = (X, aries_math T EE sha256)) ->
  Setup CD E h l d1 d2 conf = (Ok tt, h') -> nth_error h' l = Some m ->
  exists ipk, p_ipk m = Some (KIssuerPublic (Some (Some ipk) : u_ipk (ariesU C EC))) /\ ip_n ipk = 4.
Proof.
  intros CD C HG H hkdf c_cred c_sig c_nsig c_cri EC EE sha256 T E h l d1 d2 conf h' m X PK S L. unfold Setup in S.
  destruct (nth_error h l) as [m0|] eqn:L0; [|discriminate S]. destruct (setup_at CD E l m0 d1 d2 conf) as [r0 m'] eqn:S0. injection S as -> <-.
  rewrite (put_same m' L0) in L. injection L as ->.
  destruct (setup_ok_inv S0) as (ty' & raw' & cf' & cid & X' & M' & ipk & r & _ & _ & _ & _ & P & _ & I & _ & _ & (_ & K & _) & _).
  apply PK in P. injection P as -> ->. cbn [X aries_scheme s_issuerPkFromBytes] in I.
  destruct (arNewPublicKeyFromBytes HG (cf_ipk cf') attribute_names) as [k| |] eqn:A; try discriminate I. cbn in I. injection I as <-.
  exists k. split; [exact K|]. unfold arNewPublicKeyFromBytes in A. apply bind_ok in A. destruct A as [pk [_ A]]. apply bind_ok in A. destruct A as [key [_ A]]. injection A as <-. reflexivity.
Qed.
Print Assumptions C114_aries.
Example C114_example :
  fst (Setup mCD mE [m0] 0 xdraw xdraw (Some (IDEMIX, mraw (mconf (Some msigner))))) = Ok tt /\ (forall cid p, ev_pack mE cid = Some p -> p = (xX, xM)) /\
  match p_ipk m1 with Some (KIssuerPublic k) => match (k : iface IssuerPublicKey) with Some (Some i) => ip_names i = [str "OU"; str "Role"; str "EnrollmentID"; str "RevocationHandle"] | _ => False end | _ => False end.
Proof.
  split; [vm_compute; reflexivity|]. split.
  - intros cid p. unfold mE. cbn [ev_pack]. destruct (bytes_eqb _ _); [intros [= <-]; reflexivity|discriminate].
  - vm_compute. reflexivity.
Qed.
Example C114_aries_example :
  (forall cid p, ev_pack wE cid = Some p -> p = (yX, yM)) /\
  match PropsDefaultAries.v_run (fun c => c) with Ok (Ok tt, _) => True | _ => False end.
Proof.
  split; [|rewrite (proj2 C66_aries_refuted); exact I].
  intros cid p. unfold wE. cbn [ev_pack]. destruct (bytes_eqb _ _); [intros [= <-]; reflexivity|discriminate].
Qed.
