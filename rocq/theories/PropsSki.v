(** * What subject key identifiers identify (C91) *)
From Verif Require Import Base Curve Algebra Spec Dlog DlogSpec Translator TranslatorFacts Bridge BridgeFacts Bbs BbsSpec Aries AriesSpec Csp CspSpec CspInst CspFacts
  Proto ProtoFacts Toy ToyDlog ToyBbs ToyCodec ToyAries ToyCsp PropsBridge PropsProto PropsCsp.
Unset Strict Implicit.

(** two different byte strings with the same hash *)
Definition clash {X} (h : bytes -> X) (a b : bytes) : Prop := a <> b /\ h a = h b.

(** ** The two halves of a key pair
    An issuer key and a revocation key have the identifier of their public key, and a public key is its own public key.
    A pseudonym key does not, unless SHA-256 of its secret and of the pseudonym clash. *)
Theorem C91_pair_partial : forall U (X : scheme U) (M : mathops U) (k p : key U), key_public X M k = Ok p ->
  key_public X M p = Ok p /\
  match k with
  | KNymSecret _ _ _ _ => True
  | _ => key_ski X M k = key_ski X M p
  end.
Proof. intros U X M k p E. destruct k; try discriminate E; injection E as <-; split; try reflexivity; exact I. Qed.
Print Assumptions C91_pair_partial.
Theorem C91_pair_refuted : forall U (X : scheme U) (M : mathops U) sk pk e p,
  let k := newNymSecretKey M sk pk e in
  key_public X M k = Ok p -> key_ski X M k = key_ski X M p -> m_zrBytes M sk <> m_g1Bytes M pk ->
  clash (m_sha256 M) (m_zrBytes M sk) (m_g1Bytes M pk).
Proof. intros U X M sk pk e p k E Q N. injection E as <-. split; [exact N|exact Q]. Qed.
Print Assumptions C91_pair_refuted.

(** ** Keys of one kind
    User keys, public pseudonyms and revocation public keys with the same identifier are the same key, or SHA-256 clashes on
    their encodings. *)
Definition same_or_clash {X K} (h : bytes -> X) (encoding : K -> bytes) (a b : K) : Prop := a = b \/ clash h (encoding a) (encoding b).
Lemma same_or_clash_intro {X K} (h : bytes -> X) (encoding : K -> bytes) : (forall a b, encoding a = encoding b -> a = b) ->
  forall a b, h (encoding a) = h (encoding b) -> same_or_clash h encoding a b.
Proof.
  intros I a b E. destruct (bytes_eqb_spec (encoding a) (encoding b)) as [Q|Q]; [left; exact (I _ _ Q)|right; split; [exact Q|exact E]].
Qed.
(** [dlog_math] and [aries_math] are instances of [math_of], so this is about both schemes. *)
Theorem C91_kinds_partial : forall C (OK : CurveOk C) (T : translator C) EC (EE : ecenv EC) sha256 Isk Ipk MB Cd D (X : scheme (universe_of C EC Isk Ipk MB Cd D)),
  let M := math_of T EE sha256 Isk Ipk MB Cd D in
  let user (x : Zr C) e : key (universe_of C EC Isk Ipk MB Cd D) := KUserSecret (U := universe_of C EC Isk Ipk MB Cd D) x e in
  let nym (x : G1 C) : key (universe_of C EC Isk Ipk MB Cd D) := KNymPublic (U := universe_of C EC Isk Ipk MB Cd D) x in
  let rev (x : ec_pk EC) : key (universe_of C EC Isk Ipk MB Cd D) := KRevPublic (U := universe_of C EC Isk Ipk MB Cd D) x in
  (forall a b e e', key_ski X M (user a e) = key_ski X M (user b e') -> same_or_clash sha256 (zr_bytes C) a b) /\
  (forall a b, key_ski X M (nym a) = key_ski X M (nym b) -> same_or_clash sha256 (g1_bytes C) a b) /\
  ((forall a b, ee_point EE a = ee_point EE b -> a = b) ->
   forall a b, key_ski X M (rev a) = key_ski X M (rev b) -> same_or_clash sha256 (ee_point EE) a b).
Proof.
  intros. split; [|split].
  - intros a b e e' E. apply same_or_clash_intro; [|exact E]. intros x y Q. rewrite <- (ok_zr_rt OK x), <- (ok_zr_rt OK y), Q. reflexivity.
  - intros a b E. apply same_or_clash_intro; [|exact E]. intros x y Q. exact (g1_bytes_inj OK _ _ Q).
  - intros I a b E. apply same_or_clash_intro; [exact I|exact E].
Qed.
Print Assumptions C91_kinds_partial.

(** Issuer public keys that the dlog CSP has imported: the same identifier means the same key, whatever names it was imported
    with, or the curve's hash clashes. *)
Lemma r_ipk_canon raw k : dec pb_ipk raw = Some k -> canon_ipk utf8 k.
Proof.
  cbn [dec pb_ipk pb]. destruct (parse raw) as [fs|]; [|discriminate]. unfold r_ipk. unfold r_strings.
  destruct (forallb utf8_ok (lens 1 fs)) eqn:U; [|discriminate].
  repeat match goal with |- match ?x with Some _ => _ | None => None end = _ -> _ => destruct x; [|discriminate] end.
  intros [= <-]. split; cbn.
  - rewrite forallb_forall in U. apply Forall_forall. exact U.
  - apply Forall_forall. intros ecpo IN. apply in_map_iff in IN. destruct IN as (ecpx & <- & _). discriminate.
Qed.
Theorem C91_issuer_dlog : forall C (OK : CurveOk C) (H : hasher C) (T : translator C) EC (EE : ecenv EC) sha256 e c S (KS : keystore _ S) s1 s2 s1' s2' raw1 raw2 names1 names2 k1 k2 o1 o2,
  let X := dlog_scheme H T pb_ipk pb_ik pb_req pb_cred pb_sig pb_nsig pb_cri EE sha256 in
  let M := dlog_math T EE sha256 in
  New X M false e = Ok c ->
  KeyImport KS c s1 (RBytes raw1) (Some (IIssuerPk true names1 0 0 0 0 None)) = (IOk (k1, o1), s1') ->
  KeyImport KS c s2 (RBytes raw2) (Some (IIssuerPk true names2 0 0 0 0 None)) = (IOk (k2, o2), s2') ->
  key_ski X M k1 = key_ski X M k2 -> k1 = k2 \/ exists a b, clash H a b.
Proof.
  intros C OK H T EC EE sha256 e c S KS s1 s2 s1' s2' raw1 raw2 names1 names2 k1 k2 o1 o2 X M N E1 E2 Q.
  destruct (C17_csp N E1) as (i1 & -> & _ & B1 & _ & _). destruct (C17_csp N E2) as (i2 & -> & _ & B2 & _ & _). clear N E1 E2.
  cbn [key_ski X dlog_scheme s_ipkHash] in Q.
  assert (V : forall raw names i, brNewPublicKeyFromBytes H T pb_ipk raw names = Ok i ->
            exists b, canon_ipk utf8 i /\ enc pb_ipk (with_hash i []) = Some b /\ ip_hash i = zr_bytes C (H b)).
  { intros raw names i E. unfold brNewPublicKeyFromBytes in E. apply (proj1 (recover_ok _ _)) in E. apply bind_ok in E. destruct E as [k0 [D E]]. apply opt_err_ok in D.
    apply r_ipk_canon in D. apply bind_ok in E. destruct E as [k3 [E3 E]]. apply bind_ok in E. destruct E as [k4 [E4 E]]. apply bind_ok in E. destruct E as [u [_ E]].
    injection E as <-. unfold checkIPK in E4. apply bind_ok in E4. destruct E4 as [pd [_ E4]]. apply bind_ok in E4. destruct E4 as [u' [_ E4]].
    unfold setHash in E3, E4. destruct (enc pb_ipk (with_hash k0 [])) as [b0|]; [|discriminate E3]. injection E3 as <-.
    change (with_hash (with_hash k0 (zr_bytes C (H b0))) []) with (with_hash k0 []) in E4.
    destruct (enc pb_ipk (with_hash k0 [])) as [b|] eqn:Eb; [|discriminate E4]. injection E4 as <-. exists b. split; [exact D|]. split; [exact Eb|reflexivity]. }
  destruct (V _ _ _ B1) as (b1 & K1 & P1 & Q1). destruct (V _ _ _ B2) as (b2 & K2 & P2 & Q2). rewrite Q1, Q2 in Q.
  assert (HH : H b1 = H b2) by (rewrite <- (ok_zr_rt OK (H b1)), <- (ok_zr_rt OK (H b2)), Q; reflexivity).
  destruct (bytes_eqb_spec b1 b2) as [<-|NE]; [left|right; exists b1, b2; split; assumption].
  assert (W : forall i, canon_ipk utf8 i -> canon_ipk utf8 (with_hash i [])) by (intros i Ki; exact Ki).
  destruct (ipk_codec (W _ K1)) as (x & X1 & X2). destruct (ipk_codec (W _ K2)) as (y & Y1 & Y2).
  rewrite P1 in X1. rewrite P2 in Y1. injection X1 as <-. injection Y1 as <-. rewrite X2 in Y2. injection Y2 as Y2.
  assert (i1 = i2) as <-; [|reflexivity].
  destruct i1, i2. cbn in *. congruence.
Qed.
Print Assumptions C91_issuer_dlog.

(** The identifier of an aries issuer key is its point: imported for the same number of attributes, keys with the same
    identifier are the same key ... *)
Lemma aries_import C (HG : bytes -> G1 C) (H : hasher C) hkdf c_cred c_sig c_nsig c_cri EC (EE : ecenv EC) sha256 (T : translator C) e c S (KS : keystore _ S) s s' raw names k o :
  let X := aries_scheme HG H hkdf c_cred c_sig c_nsig c_cri EE sha256 in
  New X (aries_math T EE sha256) false e = Ok c ->
  KeyImport KS c s (RBytes raw) (Some (IIssuerPk true names 0 0 0 0 None)) = (IOk (k, o), s') ->
  exists ipk, k = KIssuerPublic (Some (Some ipk) : u_ipk (ariesU C EC)) /\ arNewPublicKeyFromBytes HG raw names = Ok ipk.
Proof.
  intros X N E. destruct (new_tables N) as (_ & _ & I & _). clear N. unfold KeyImport in E. cbn [itype] in E. rewrite I in E. cbn [wired_csp imps] in E.
  unfold h_IssuerPublicKeyImporter in E. destruct raw as [|x raw]; [discriminate E|]. cbn [raw_bytes ibind X aries_scheme s_issuerPkFromBytes] in E.
  destruct (arNewPublicKeyFromBytes HG (x :: raw) names) as [ipk| |]; [|discriminate E|discriminate E]. exists ipk. split; [|reflexivity].
  cbn in E. injection E as <- _ _. reflexivity.
Qed.
Theorem C91_issuer_aries_partial : forall C (OK : CurveOk C) (HG : bytes -> G1 C) (H : hasher C) hkdf c_cred c_sig c_nsig c_cri EC (EE : ecenv EC) sha256 (T : translator C) e c S (KS : keystore _ S)
    s1 s2 s1' s2' raw1 raw2 names1 names2 k1 k2 o1 o2,
  let X := aries_scheme HG H hkdf c_cred c_sig c_nsig c_cri EE sha256 in
  let M := aries_math T EE sha256 in
  New X M false e = Ok c ->
  KeyImport KS c s1 (RBytes raw1) (Some (IIssuerPk true names1 0 0 0 0 None)) = (IOk (k1, o1), s1') ->
  KeyImport KS c s2 (RBytes raw2) (Some (IIssuerPk true names2 0 0 0 0 None)) = (IOk (k2, o2), s2') ->
  key_ski X M k1 = key_ski X M k2 -> length names1 = length names2 -> k1 = k2.
Proof.
  intros C OK HG H hkdf c_cred c_sig c_nsig c_cri EC EE sha256 T e c S KS s1 s2 s1' s2' raw1 raw2 names1 names2 k1 k2 o1 o2 X M N E1 E2 Q L.
  destruct (aries_import N E1) as (i1 & -> & B1). destruct (aries_import N E2) as (i2 & -> & B2). clear N E1 E2.
  cbn [key_ski X aries_scheme s_ipkHash] in Q. unfold arNewPublicKeyFromBytes in B1, B2.
  apply bind_ok in B1. destruct B1 as [p1 [_ B1]]. apply bind_ok in B1. destruct B1 as [g1 [G1 B1]]. injection B1 as <-.
  apply bind_ok in B2. destruct B2 as [p2 [_ B2]]. apply bind_ok in B2. destruct B2 as [g2 [G2 B2]]. injection B2 as <-. cbn [ip_pk] in Q.
  assert (p1 = p2) as <- by (apply (f_equal (g2_of_comp C)) in Q; rewrite !(ok_g2c_rt OK) in Q; injection Q as Q; exact Q).
  rewrite <- L in *. rewrite G1 in G2. injection G2 as <-. reflexivity.
Qed.
Print Assumptions C91_issuer_aries_partial.
(** ... but the same bytes imported for different numbers of attributes give different keys with the same identifier. *)
Theorem C91_issuer_aries_refuted : forall C (HG : bytes -> G1 C) (H : hasher C) hkdf c_cred c_sig c_nsig c_cri EC (EE : ecenv EC) sha256 (T : translator C) e c S (KS : keystore _ S)
    s1 s2 s1' s2' raw names1 names2 k1 k2 o1 o2,
  let X := aries_scheme HG H hkdf c_cred c_sig c_nsig c_cri EE sha256 in
  let M := aries_math T EE sha256 in
  New X M false e = Ok c -> length names1 <> length names2 ->
  KeyImport KS c s1 (RBytes raw) (Some (IIssuerPk true names1 0 0 0 0 None)) = (IOk (k1, o1), s1') ->
  KeyImport KS c s2 (RBytes raw) (Some (IIssuerPk true names2 0 0 0 0 None)) = (IOk (k2, o2), s2') ->
  key_ski X M k1 = key_ski X M k2 /\ k1 <> k2.
Proof.
  intros C HG H hkdf c_cred c_sig c_nsig c_cri EC EE sha256 T e c S KS s1 s2 s1' s2' raw names1 names2 k1 k2 o1 o2 X M N L E1 E2.
  destruct (aries_import N E1) as (i1 & -> & B1). destruct (aries_import N E2) as (i2 & -> & B2). clear N E1 E2.
  unfold arNewPublicKeyFromBytes in B1, B2. apply bind_ok in B1. destruct B1 as [p [P B1]]. rewrite P in B2. cbn [bind] in B2.
  apply bind_ok in B1. destruct B1 as [g1 [_ B1]]. apply bind_ok in B2. destruct B2 as [g2 [_ B2]].
  assert (Q1 : ip_pk i1 = p /\ ip_n i1 = length names1) by (injection B1 as <-; split; reflexivity).
  assert (Q2 : ip_pk i2 = p /\ ip_n i2 = length names2) by (injection B2 as <-; split; reflexivity). clear B1 B2.
  destruct Q1 as [Q1 N1]. destruct Q2 as [Q2 N2]. split.
  - cbn [key_ski X aries_scheme s_ipkHash]. rewrite Q1, Q2. reflexivity.
  - intro E. apply (f_equal (fun k : key (ariesU C EC) => match k with KIssuerPublic i => match (i : iface (AIssuerPublicKey C)) with Some (Some i0) => ip_n i0 | _ => 0 end | _ => 0 end)) in E. cbn in E. congruence.
Qed.
Print Assumptions C91_issuer_aries_refuted.

(** Pseudonym keys: the identifier depends on the randomness only, so that different pseudonyms share it.  The bytes of a
    public pseudonym after some randomness are imported as a pseudonym key. *)
Theorem C91_nym_refuted : forall C (OK : CurveOk C) (HG : bytes -> G1 C) (H : hasher C) hkdf c_cred c_sig c_nsig c_cri EC (EE : ecenv EC) sha256 e c S (KS : keystore _ S) s (r : Zr C) (P Q : G1 C),
  let X := aries_scheme HG H hkdf c_cred c_sig c_nsig c_cri EE sha256 in
  let M := aries_math (Gurvy C) EE sha256 in
  let import (N : G1 C) := step KS c s (OpImport (RBytes (zr_bytes C r ++ g1_bytes C N)) (Some (INym true))) in
  New X M false e = Ok c -> P <> Q ->
  exists k l, import P = (Ok k, s) /\ import Q = (Ok l, s) /\ k <> l /\ key_ski X M k = key_ski X M l /\
    key_public X M k = Ok (KNymPublic (P : u_g1 (ariesU C EC))) /\ key_public X M l = Ok (KNymPublic (Q : u_g1 (ariesU C EC))).
Proof.
  intros C OK HG H hkdf c_cred c_sig c_nsig c_cri EC EE sha256 e c S KS s r P Q X M import N NE.
  assert (B : forall P, key_bytes X M (KNymPublic (P : u_g1 (ariesU C EC))) = Ok (g1_bytes C P)).
  { intro P0. cbn [key_bytes M aries_math math_of m_g1ToProto g1_to_proto Gurvy]. unfold gur_g1_to. f_equal. apply halves_app. }
  assert (I : forall P, import P = (Ok (newNymSecretKey M (r : u_zr (ariesU C EC)) (P : u_g1 (ariesU C EC)) e), s)).
  { intro P0. unfold import.
    exact (@C65_nym_pair_partial C OK HG H hkdf c_cred c_sig c_nsig c_cri EC EE sha256 e c S KS s (r : u_zr (ariesU C EC)) (P0 : u_g1 (ariesU C EC)) (zr_bytes C r) (g1_bytes C P0) N eq_refl (B P0)). }
  exists (newNymSecretKey M (r : u_zr (ariesU C EC)) (P : u_g1 (ariesU C EC)) e), (newNymSecretKey M (r : u_zr (ariesU C EC)) (Q : u_g1 (ariesU C EC)) e).
  split; [exact (I P)|]. split; [exact (I Q)|]. split; [|split; [reflexivity|split; reflexivity]].
  intro E. apply NE. apply (f_equal (fun k : key (ariesU C EC) => match k with KNymSecret _ _ p _ => (p : gcar (G1 C)) | _ => P end)) in E. exact E.
Qed.
Print Assumptions C91_nym_refuted.

(** ** The hypotheses can be met *)
(** the dlog CSP with the protobuf formats: an issuer key made by the CSP's own key generation is imported under its names and
    under none, with the same identifier *)
Definition zX : scheme xU := dlog_scheme tH tT pb_ipk pb_ik pb_req pb_cred pb_sig pb_nsig pb_cri xEE bsha.
Definition zcsp : CSP xU := match New zX xM false true with Ok c => c | _ => NewImpl xU end.
Lemma zcsp_new : New zX xM false true = Ok zcsp.
Proof. unfold zcsp. destruct (new_wired zX xM true) as [c [E _]]. rewrite E. reflexivity. Qed.
Definition zraw : bytes := match brNewKey tH tT pb_ipk tnames tIR with Ok k => match ik_ipk k with Some p => match enc pb_ipk p with Some b => b | None => [] end | None => [] end | _ => [] end.
Definition zski (names : list bytes) : bytes :=
  match fst (KeyImport xKS zcsp xdisk (RBytes zraw) (Some (IIssuerPk true names 0 0 0 0 None))) with IOk (k, _) => key_ski zX xM k | _ => [] end.
Example C91_issuer_example : New zX xM false true = Ok zcsp /\ zski tnames <> [] /\ zski tnames = zski [] /\ zski (rev tnames) = [].
Proof. split; [exact zcsp_new|]. split; [intro Q; apply (f_equal (@length byte)) in Q; vm_compute in Q; discriminate Q|]. split; vm_compute; reflexivity. Qed.
(** the toy aries issuer's key, imported for three attributes and for four: one identifier, two keys *)
Definition yfound (n : nat) : option (bytes * nat) :=
  match fst (KeyImport (KVSStore yM (FileBased xjson)) ycsp xdisk (RBytes (g2_comp toy32 xa_pk)) (Some (IIssuerPk true (repeat (str "a") n) 0 0 0 0 None))) with
  | IOk (k, _) => Some (key_ski yX yM k, match k with KIssuerPublic i => match (i : iface (AIssuerPublicKey toy32)) with Some (Some i0) => ip_n i0 | _ => 0 end | _ => 0 end)
  | _ => None
  end.
Example C91_issuer_aries_example :
  New yX yM false true = Ok ycsp /\ yfound 3 = Some (g2_comp toy32 xa_pk, 3) /\ yfound 4 = Some (g2_comp toy32 xa_pk, 4).
Proof. split; [exact ycsp_new|]. split; vm_compute; reflexivity. Qed.
(** a pseudonym key of the toy dlog CSP and its public key *)
Example C91_pair_example :
  key_public xX xM xnym = Ok xpub /\ key_ski xX xM xnym <> key_ski xX xM xpub.
Proof. split; [reflexivity|]. intro Q. vm_compute in Q. discriminate Q. Qed.
(** two pseudonyms on the toy curve *)
Example C91_nym_example : genG1 toy32 <> genG1 toy32 ⊕ genG1 toy32.
Proof. intro Q. apply (f_equal (g1_bytes toy32)) in Q. vm_compute in Q. discriminate Q. Qed.
