(** * Properties of the CSP: /repo/bccsp/impl.go, bccsp.go, handlers and keystore (C44 - C49, C65)

    Reading guide.  [X] is a scheme (CspInst.v: [dlog_scheme], [aries_scheme]), [M] the curve and
    hashing operations the key objects use, [New X M false e = Ok c] says that [c] is the CSP made by
    New/NewAries with the exportable flag [e]; [C44_constructor] says that it exists.  [run KS c s ops]
    performs a history of key operations against the key store state [s].  CspSpec.v holds the
    vocabulary.  Examples use the dlog CSP of ToyCsp.v over a file-based key store. *)
From Verif Require Import Base Curve Bbs Aries ToyBbs ToyAries Dlog DlogFacts Bridge BridgeFacts Translator TranslatorFacts
  Toy ToyDlog ToyCodec PropsBridge Csp CspInst CspSpec CspFacts ToyCsp.
Unset Strict Implicit.

(** ** C44: verdicts of Verify *)
Theorem C44_constructor : forall U (X : scheme U) (M : mathops U) e, exists c, New X M false e = Ok c.
Proof. intros U X M e. destruct (new_wired X M e) as [c [E _]]. exists c. exact E. Qed.
Print Assumptions C44_constructor.

(** The verdict is (true, nil) or (false, error), and (true, nil) exactly when the operation of the
    scheme that decides about this combination of key and options accepts the non-empty signature.
    Partial: a scheme operation, or a missing one, can panic ([C44_panics]). *)
Theorem C44_verdict_partial : forall U (X : scheme U) (M : mathops U) e c k signature digest o,
  New X M false e = Ok c ->
  let r := csp_Verify c k signature digest o in
  (r = accepted \/ r = rejected \/ r = VPanic) /\
  (r = accepted <-> exists k' o', k = Some k' /\ o = Some o' /\ signature <> [] /\ deciding X k' signature digest o' = Some (Ok tt)) /\
  (r = accepted -> exists k' o', k = Some k' /\ o = Some o' /\ verifier_wired k' o') /\
  (signature = [] -> r = rejected).
Proof.
  intros U X M e c k signature digest o N r. subst r. rewrite (csp_verify_spec (M := M) k signature digest o N). clear N.
  destruct k as [k|].
  2:{ split; [auto|]. split; [|split; [discriminate|reflexivity]]. split; [discriminate|]. intros (k' & o' & K & _). discriminate. }
  destruct o as [o|].
  2:{ split; [auto|]. split; [|split; [discriminate|reflexivity]]. split; [discriminate|]. intros (k' & o' & _ & K & _). discriminate. }
  destruct signature as [|x signature].
  { cbn [length Nat.eqb]. split; [auto|]. split; [|split; [discriminate|reflexivity]]. split; [discriminate|]. intros (k' & o' & _ & _ & K & _). congruence. }
  change (length (x :: signature) =? 0) with false.
  destruct (deciding X k (x :: signature) digest o) as [r|] eqn:D.
  - split; [destruct r as [[]| |]; auto|]. split; [|split; [|discriminate]].
    + split.
      * intro E. apply verdict_of_accepted in E. subst r. exists k, o. repeat split; auto. discriminate.
      * intros (k' & o' & [= <-] & [= <-] & _ & E). rewrite D in E. injection E as ->. reflexivity.
    + intros _. exists k, o. repeat split. exact (deciding_wired D).
  - assert (NA : match k, o with
         | KIssuerPublic _, SRequest _ _ => match s_request X with None => VPanic | _ => rejected end
         | KIssuerPublic _, SBlind _ _ _ => match s_blind X with None => VPanic | _ => rejected end
         | _, _ => rejected end <> accepted).
    { destruct k, o; try discriminate; [destruct (s_request X)|destruct (s_blind X)]; discriminate. }
    split; [destruct k, o; auto; [destruct (s_request X)|destruct (s_blind X)]; auto|].
    split; [|split; [intro E; contradiction|discriminate]].
    split; [intro E; contradiction|]. intros (k' & o' & [= <-] & [= <-] & _ & E). congruence.
Qed.
Print Assumptions C44_verdict_partial.

(** When Verify panics *)
Theorem C44_panics : forall U (X : scheme U) (M : mathops U) e c k signature digest o,
  New X M false e = Ok c ->
  (csp_Verify c k signature digest o = VPanic <->
   exists k' o', k = Some k' /\ o = Some o' /\ signature <> [] /\
     (deciding X k' signature digest o' = Some Panic \/
      (exists pk i n, k' = KIssuerPublic pk /\ o' = SRequest i n /\ s_request X = None) \/
      (exists pk i n b, k' = KIssuerPublic pk /\ o' = SBlind i n b /\ s_blind X = None))).
Proof.
  intros U X M e c k signature digest o N. rewrite (csp_verify_spec (M := M) k signature digest o N). clear N.
  destruct k as [k|]; [|split; [discriminate|intros (k' & o' & K & _); discriminate]].
  destruct o as [o|]; [|split; [discriminate|intros (k' & o' & _ & K & _); discriminate]].
  destruct signature as [|x signature]; [split; [discriminate|intros (k' & o' & _ & _ & K & _); congruence]|].
  change (length (x :: signature) =? 0) with false. destruct (deciding X k (x :: signature) digest o) as [r|] eqn:D.
  - split.
    + destruct r as [[]| |]; try discriminate. intros _. exists k, o. repeat split; auto. discriminate.
    + intros (k' & o' & [= <-] & [= <-] & _ & [E|[(pk & i & n & -> & -> & E)|(pk & i & n & b & -> & -> & E)]]).
      * rewrite D in E. injection E as ->. reflexivity.
      * cbn in D. rewrite E in D. discriminate.
      * cbn in D. rewrite E in D. discriminate.
  - split.
    + intro E. exists k, o. split; [reflexivity|]. split; [reflexivity|]. split; [discriminate|].
      destruct k, o; try discriminate.
      * destruct (s_request X) eqn:R; [discriminate|]. right. left. eauto 8.
      * destruct (s_blind X) eqn:R; [discriminate|]. right. right. eauto 10.
    + intros (k' & o' & [= <-] & [= <-] & _ & [E|[(pk & i & n & -> & -> & E)|(pk & i & n & b & -> & -> & E)]]).
      * congruence.
      * rewrite E. reflexivity.
      * rewrite E. reflexivity.
Qed.
Print Assumptions C44_panics.

(** The dlog CSP: the only panic is that of the verifier of blinded requests, which the scheme does
    not offer but bccsp.go 147-153 calls nevertheless. *)
Theorem C44_dlog_partial : forall C (H : hasher C) (T : translator C) c_ipk c_ik c_req c_cred c_sig c_nsig c_cri EC (EE : ecenv EC) sha256 M e c k signature digest o,
  New (dlog_scheme H T c_ipk c_ik c_req c_cred c_sig c_nsig c_cri EE sha256) M false e = Ok c ->
  csp_Verify c k signature digest o = VPanic ->
  exists pk i n b, k = Some (KIssuerPublic pk) /\ o = Some (SBlind i n b).
Proof.
  intros C H T c_ipk c_ik c_req c_cred c_sig c_nsig c_cri EC EE sha256 M e c k signature digest o N E.
  apply (proj1 (C44_panics k signature digest o N)) in E. clear N. destruct E as (k' & o' & -> & -> & _ & [E|[(pk & i & n & -> & -> & E)|(pk & i & n & b & -> & -> & E)]]).
  - exfalso. destruct k', o'; try discriminate.
    + cbn [deciding] in E. destruct (so_revpk o) as [[]|]; try discriminate; injection E as E; exact (recover_no_panic E).
    + injection E as E. exact (recover_no_panic E).
    + injection E as E. exact (recover_no_panic E).
    + injection E as E. exact (recover_no_panic E).
    + cbn [deciding] in E. destruct issuerPK as [[]|]; try discriminate. injection E as E. exact (recover_no_panic E).
    + cbn [deciding] in E. destruct (no_ipk o) as [[]|]; try discriminate. destruct (no_smartcard o); [discriminate|].
      injection E as E. exact (recover_no_panic E).
    + injection E as E. exact (recover_no_panic E).
  - discriminate.
  - eauto 10.
Qed.
Print Assumptions C44_dlog_partial.

(** ... and it does panic, for every non-empty signature; likewise the aries CSP for requests of the
    non-blinded kind. *)
Theorem C44_dlog_blind_refuted : forall C (H : hasher C) (T : translator C) c_ipk c_ik c_req c_cred c_sig c_nsig c_cri EC (EE : ecenv EC) sha256 M e c pk signature digest i n b,
  New (dlog_scheme H T c_ipk c_ik c_req c_cred c_sig c_nsig c_cri EE sha256) M false e = Ok c -> signature <> [] ->
  csp_Verify c (Some (KIssuerPublic pk)) signature digest (Some (SBlind i n b)) = VPanic.
Proof.
  intros. apply (proj2 (C44_panics _ _ digest _ H0)). eexists. eexists. split; [reflexivity|]. split; [reflexivity|]. split; [assumption|].
  right. right. repeat eexists.
Qed.
Print Assumptions C44_dlog_blind_refuted.

Theorem C44_aries_request_refuted : forall C (HG : bytes -> G1 C) (H : hasher C) hkdf c_cred c_sig c_nsig c_cri EC (EE : ecenv EC) sha256 M e c pk signature digest i n,
  New (aries_scheme HG H hkdf c_cred c_sig c_nsig c_cri EE sha256) M false e = Ok c -> signature <> [] ->
  csp_Verify c (Some (KIssuerPublic pk)) signature digest (Some (SRequest i n)) = VPanic.
Proof.
  intros. apply (proj2 (C44_panics _ _ digest _ H0)). eexists. eexists. split; [reflexivity|]. split; [reflexivity|]. split; [assumption|].
  right. left. repeat eexists.
Qed.
Print Assumptions C44_aries_request_refuted.

(** Whatever handlers are registered: never (true, error), an empty signature never valid, no
    verdict but rejection for a type without verifier. *)
Theorem C44_any_handlers : forall U (c : CSP U) k signature digest o,
  csp_Verify c k signature digest o <> Ret true true /\ base_Verify c k signature digest o <> Ret true true /\
  (signature = [] -> csp_Verify c k signature digest o = rejected /\ base_Verify c k signature digest o = rejected) /\
  (digest = [] -> base_Verify c k signature digest o = rejected) /\
  (forall k', k = Some k' -> vers c (ktype k') = None ->
     csp_Verify c k signature digest o = rejected /\ base_Verify c k signature digest o = rejected).
Proof.
  intros U c k signature digest o. unfold csp_Verify, base_Verify.
  assert (F : forall r, forward r <> Ret true true) by (intros [[] []|]; discriminate).
  destruct k as [k|]; [|repeat split; try discriminate; intros; discriminate].
  split; [|split; [|split; [|split]]].
  - destruct (length signature =? 0); [discriminate|]. destruct (vers c (ktype k)); [apply F|discriminate].
  - destruct (length signature =? 0); [discriminate|]. destruct (length digest =? 0); [discriminate|].
    destruct (vers c (ktype k)); [apply F|discriminate].
  - intros ->. auto.
  - intros ->. destruct (length signature =? 0); reflexivity.
  - intros k' [= <-] ->. destruct (length signature =? 0), (length digest =? 0); auto.
Qed.
Print Assumptions C44_any_handlers.

(** a request made through the CSP is accepted by it; an altered one, the wrong nonce and the empty
    signature are rejected; the blinded verifier panics *)
Example C44_example :
  csp_Verify xcsp (Some xipk) breqraw [] (Some (SRequest None [Byte.x07])) = accepted /\
  csp_Verify xcsp (Some xipk) breqraw [] (Some (SRequest None [Byte.x08])) = rejected /\
  csp_Verify xcsp (Some xipk) [] [] (Some (SRequest None [Byte.x07])) = rejected /\
  csp_Verify xcsp (Some xipk) breqraw [] (Some (SBlind None [Byte.x07] [])) = VPanic.
Proof.
  rewrite !(csp_verify_spec (M := xM) _ _ _ _ xcsp_new).
  split; [|split; [|split]]; vm_compute; reflexivity.
Qed.
Example C44_aries_example : csp_Verify ycsp (Some yipk) [Byte.x01] [] (Some (SRequest None [Byte.x07])) = VPanic.
Proof. apply (C44_aries_request_refuted (xa_key : u_ipk yU) [] None [Byte.x07] ycsp_new). discriminate. Qed.

(** ** C45: what reaches the key store *)
(** one call: a key returned by a non-ephemeral call has just been stored; an ephemeral call leaves
    the store alone; a call that fails before storing leaves it alone *)
Theorem C45_call : forall U S (KS : keystore U S) (c : CSP U) s x r s',
  step KS c s x = (r, s') ->
  match r with
  | Ok k => if op_ephemeral x then s' = s else ks_store KS s k = (s', true)
  | _ => s' = s \/ exists k, op_ephemeral x = false /\ ks_store KS s k = (s', false)
  end.
Proof.
  intros U S KS c s x r s' E. destruct (step_cases E) as [(k & -> & EP & ST)|[(k & -> & EP & ->)|[(-> & k & EP & ST)|([-> | ->] & ->)]]];
    try rewrite EP; eauto.
Qed.
Print Assumptions C45_call.

(** Any key store whose failing StoreKey changes nothing: after a history its state is the initial
    one with the keys of the successful non-ephemeral calls stored in order. *)
Theorem C45_ordered : forall U S (KS : keystore U S) (c : CSP U),
  (forall s k s', ks_store KS s k = (s', false) -> s' = s) ->
  forall ops s h s', run KS c s ops = (h, s') -> stored_all KS s (persisted h) = Some s'.
Proof. intros U S KS c A ops s h s' E. exact (@run_stored U S KS c (fun _ => True) (fun _ _ _ _ _ _ => I) (fun s0 k s1 _ => A s0 k s1) ops s h s' I E). Qed.
Print Assumptions C45_ordered.

(** A key store that is a map: every identifier holds the last key persisted under it, or what it
    held before. *)
Theorem C45_contents : forall U S (KS : keystore U S) (c : CSP U) inv ident, map_store inv KS ident ->
  forall ops s h s', inv s -> run KS c s ops = (h, s') -> forall i,
  GetKey KS s' i = match last_under ident i (persisted h) with Some k => Ok k | None => GetKey KS s i end.
Proof.
  intros U S KS c inv ident MS ops s h s' I E i.
  exact (@run_get U S KS c inv (ms_inv MS) (ms_fail MS) ident MS ops s h s' i I E).
Qed.
Print Assumptions C45_contents.

(** Histories of ephemeral calls never touch the key store, whatever it is. *)
Theorem C45_ephemeral : forall U S (KS : keystore U S) (c : CSP U) ops s h s',
  (forall x, In x ops -> op_ephemeral x = true) -> run KS c s ops = (h, s') -> s' = s.
Proof. intros U S KS c ops s h s'. apply run_ephemeral. Qed.
Print Assumptions C45_ephemeral.

(** the shipped key stores are such maps: KVSStore over a map, and the file-based KVS as long as no
    write fails *)
Theorem C45_kvs : forall U (X : scheme U) (M : mathops U) S inv (KV : kvs S),
  kvs_ok inv KV -> math_ok M -> map_store inv (KVSStore M KV) (kvs_ident X M).
Proof. intros. apply kvs_map_store; assumption. Qed.
Print Assumptions C45_kvs.
Theorem C45_files : forall json, (forall e, round_trips json e) -> kvs_ok (fun d => dk_faults d = []) (FileBased json).
Proof. exact file_kvs_ok. Qed.
Print Assumptions C45_files.
Theorem C45_math : forall C (OK : CurveOk C) (T : translator C) (TO : TrOk T) EC (EE : ecenv EC) sha256,
  math_ok (dlog_math T EE sha256) /\ math_ok (aries_math T EE sha256).
Proof. intros. split; (split; [exact (ok_zr_rt OK)|exact (tr_g1 TO)]). Qed.
Print Assumptions C45_math.

(** the Dummy key store keeps nothing and says so: no key it returns can be persistent, and nothing is ever found in it *)
Theorem C45_dummy : forall U S (c : CSP U) ops (s : S) h s',
  run (Dummy U S) c s ops = (h, s') ->
  s' = s /\ persisted h = [] /\ (forall x k, In (x, Ok k) h -> op_ephemeral x = true) /\ forall i, GetKey (Dummy U S) s' i = Err.
Proof.
  intros U S c ops. induction ops as [|x ops IH]; intros s h s' E; cbn [run] in E; [injection E as <- <-; repeat split; intros ? ? []|].
  destruct (step (Dummy U S) c s x) as [r s1] eqn:E1. destruct (run (Dummy U S) c s1 ops) as [h1 s2] eqn:E2. injection E as <- <-.
  pose proof (C45_call E1) as Q. destruct (IH _ _ _ E2) as (-> & P & A & G).
  assert (s1 = s) as -> by (destruct r; [destruct (op_ephemeral x); [exact Q|discriminate Q]| |]; (destruct Q as [Q|(k & _ & Q)]; [exact Q|injection Q as Q; symmetry; exact Q])).
  split; [reflexivity|]. assert (X : forall k, r = Ok k -> op_ephemeral x = true).
  { intros k ->. destruct (op_ephemeral x); [reflexivity|discriminate Q]. }
  split; [|split; [|exact G]].
  - cbn [persisted]. destruct r as [k| |]; [rewrite (X k eq_refl)| |]; exact P.
  - intros y k [[= <- ->]|I]; [exact (X k eq_refl)|exact (A y k I)].
Qed.
Print Assumptions C45_dummy.

(** a CSP cannot be made without a key store, and with one always can *)
Theorem C45_needs_store : forall U (X : scheme U) (M : mathops U) e,
  New X M true e = Err /\ exists c, New X M false e = Ok c.
Proof. intros U X M e. split; [reflexivity|]. destruct (new_wired X M e) as [c [E _]]. exists c. exact E. Qed.
Print Assumptions C45_needs_store.

(** a history of four calls: the imported user key and one of the two pseudonyms end up on disk *)
Definition view (k : key xU) : rtype * bytes * res bytes := (ktype k, key_ski xX xM k, key_bytes xX xM k).
Definition xrun := run xKS xcsp xdisk xops.
Definition xpub : key xU := match key_public xX xM xnym with Ok k => k | _ => xuser end.
Example C45_example :
  map (fun x => is_ok (snd x)) (fst xrun) = [true; true; true; false] /\
  map view (persisted (fst xrun)) = [view xuser; view xnym] /\
  (let* k := GetKey xKS (snd xrun) (key_ski xX xM xuser) in Ok (view k)) = Ok (view xuser) /\
  (let* k := GetKey xKS (snd xrun) (key_ski xX xM xpub) in Ok (view k)) = Ok (view xnym) /\
  view xuser <> view xnym.
Proof. split; [|split; [|split; [|split]]]; try (vm_compute; reflexivity). intro E. injection E. intros. discriminate. Qed.

(** ** C46: retrieval by SKI *)
(** With KVSStore, a user key is found under its SKI and a pseudonym key under the SKI of its public
    key, until another key is stored under that identifier.
    Partial: not for the SKI of the pseudonym key itself ([C46_refuted]), nor for the other kinds of
    keys, which KVSStore refuses ([C46_supported]). *)
Theorem C46_partial : forall U (X : scheme U) (M : mathops U) S inv (KV : kvs S) (c : CSP U),
  kvs_ok inv KV -> math_ok M ->
  forall ops s h s' pre k post, inv s -> run (KVSStore M KV) c s ops = (h, s') -> persisted h = pre ++ k :: post ->
  (forall k', In k' post -> kvs_ident X M k' <> kvs_ident X M k) ->
  match k with
  | KUserSecret _ _ => GetKey (KVSStore M KV) s' (key_ski X M k) = Ok k
  | KNymSecret _ _ _ _ => exists pub, key_public X M k = Ok pub /\ GetKey (KVSStore M KV) s' (key_ski X M pub) = Ok k
  | _ => True
  end.
Proof.
  intros U X M S inv KV c KO MO ops s h s' pre k post I E P N.
  pose proof (C45_contents (C45_kvs X KO MO) I E) as G. rewrite P in G.
  assert (L : forall i, kvs_ident X M k = Some i -> GetKey (KVSStore M KV) s' i = Ok k).
  { intros i EI. rewrite G, (@last_under_split U (kvs_ident X M) i pre k post EI); [reflexivity|].
    intros k' IK. rewrite <- EI. exact (N k' IK). }
  clear I. destruct k; try exact I; [apply L; reflexivity|].
  eexists. split; [reflexivity|]. apply L. reflexivity.
Qed.
Print Assumptions C46_partial.

(** Only these two kinds of keys are ever persisted by KVSStore: a non-ephemeral call for any other
    key fails. *)
Theorem C46_supported : forall U (M : mathops U) S (KV : kvs S) (c : CSP U) s x k s',
  step (KVSStore M KV) c s x = (Ok k, s') -> op_ephemeral x = false ->
  match k with KUserSecret _ _ | KNymSecret _ _ _ _ => True | _ => False end.
Proof.
  intros U M S KV c s x k s' E EP. destruct (step_cases E) as [(k' & [= <-] & _ & ST)|[(k' & _ & EP' & _)|[(D & _)|([D|D] & _)]]]; try congruence.
  destruct k; cbn in ST; unfold kvs_StoreKey in ST; cbn in ST; try exact I; discriminate.
Qed.
Print Assumptions C46_supported.

(** Whatever the store holds, GetKey returns a key exactly when there is an entry under the identifier with a pseudonym key
    or a user key, and then that key. *)
Theorem C46_only : forall U (M : mathops U) S (KV : kvs S) s ski (k : key U),
  GetKey (KVSStore M KV) s ski = Ok k <->
  exists e, kv_get KV s (hex ski) = Some e /\
    ((exists n pk, e_nym e = Some n /\ m_g1FromProto M (ne_pk n) = Ok pk /\ k = KNymSecret (ne_ski n) (m_zrOfBytes M (ne_sk n)) pk (ne_exportable n)) \/
     (e_nym e = None /\ exists u, e_user e = Some u /\ k = KUserSecret (m_zrOfBytes M (ue_sk u)) (ue_exportable u))).
Proof.
  intros U M S KV s ski k. unfold GetKey. cbn [ks_get KVSStore]. unfold kvs_GetKey. destruct (kv_get KV s (hex ski)) as [e|]; cbn [opt_err bind].
  2: { split; [discriminate|]. intros (e & E & _). discriminate E. }
  split.
  - intro E. exists e. split; [reflexivity|]. destruct (e_nym e) as [n|].
    + left. apply bind_ok in E. destruct E as [pk [E1 E]]. injection E as <-. exists n, pk. auto.
    + right. split; [reflexivity|]. destruct (e_user e) as [u|]; [|discriminate E]. injection E as <-. exists u. auto.
  - intros (e' & E & D). injection E as <-. destruct D as [(n & pk & -> & E & ->)|(-> & u & -> & ->)]; [rewrite E|]; reflexivity.
Qed.
Print Assumptions C46_only.

(** A pseudonym key cannot be found under its own SKI: after a history that persisted just that key
    into an empty store, GetKey(k.SKI()) fails. *)
Theorem C46_refuted : forall U (X : scheme U) (M : mathops U) S inv (KV : kvs S) (c : CSP U),
  kvs_ok inv KV -> math_ok M ->
  forall ops s h s' sk pk e, inv s -> (forall i, kv_get KV s i = None) ->
  let k := newNymSecretKey M sk pk e in
  run (KVSStore M KV) c s ops = (h, s') -> persisted h = [k] ->
  m_sha256 M (m_zrBytes M sk) <> m_sha256 M (m_g1Bytes M pk) ->
  GetKey (KVSStore M KV) s' (key_ski X M k) = Err.
Proof.
  intros U X M S inv KV c KO MO ops s h s' sk pk e I0 EM k E P NE.
  rewrite (C45_contents (C45_kvs X KO MO) I0 E), P. cbn [last_under k newNymSecretKey kvs_ident key_ski].
  destruct (bytes_eqb (m_sha256 M (m_g1Bytes M pk)) (m_sha256 M (m_zrBytes M sk))) eqn:B.
  - apply bytes_eqb_eq in B. congruence.
  - cbn [GetKey ks_get KVSStore]. unfold kvs_GetKey. rewrite EM. reflexivity.
Qed.
Print Assumptions C46_refuted.
(** both cases arise in the run of [C45_example] *)
Example C46_example :
  view xnym = view (newNymSecretKey xM (f21 : u_zr xU) (gmul2 (f19 : G1 tC) tsk (f23 : G1 tC) f21 : u_g1 xU) true) /\
  is_ok (GetKey xKS (snd xrun) (key_ski xX xM xuser)) = true /\
  is_ok (GetKey xKS (snd xrun) (key_ski xX xM xnym)) = false /\
  is_ok (GetKey xKS (snd xrun) (key_ski xX xM xpub)) = true.
Proof. split; [reflexivity|]. repeat split; vm_compute; reflexivity. Qed.

(** ** C47: secret keys leave the CSP only if it was created exportable *)
(** After any history, for every key the caller was given or reads back from the key store: if it is
    private and its bytes can be had, the CSP was created with the exportable flag.  The keys
    already in the store must carry the same flag, e.g. because the store was empty. *)
Theorem C47_secret : forall U (X : scheme U) (M : mathops U) S inv (KV : kvs S) e c,
  kvs_ok inv KV -> math_ok M -> New X M false e = Ok c ->
  forall ops s h s', inv s -> run (KVSStore M KV) c s ops = (h, s') ->
  (forall i k, GetKey (KVSStore M KV) s i = Ok k -> key_private k = true -> exportable_secret k = e) ->
  forall k, In k (returned h) \/ (exists i, GetKey (KVSStore M KV) s' i = Ok k) ->
  key_private k = true -> (exists b, key_bytes X M k = Ok b) -> e = true.
Proof.
  intros U X M S inv KV e c KO MO N ops s h s' I0 E F k K P [b B].
  apply (secret_bytes (X := X) (M := M)) in B; [|exact P]. rewrite <- B.
  destruct K as [K|[i K]].
  - symmetry. exact (run_flag N E K P).
  - symmetry. rewrite (C45_contents (C45_kvs X KO MO) I0 E) in K.
    destruct (last_under (kvs_ident X M) i (persisted h)) as [k'|] eqn:L.
    + injection K as ->. destruct (last_under_in L) as [IK _]. exact (run_flag N E (persisted_returned IK) P).
    + exact (F i k K P).
Qed.
Print Assumptions C47_secret.

(** Without any key store: every key object returned by KeyGen, KeyDeriv or KeyImport *)
Theorem C47_returned : forall U (X : scheme U) (M : mathops U) S (KS : keystore U S) e c ops s h s' k,
  New X M false e = Ok c -> run KS c s ops = (h, s') -> In k (returned h) -> key_private k = true ->
  match k with
  | KUserSecret sk _ | KNymSecret _ sk _ _ => key_bytes X M k = if e then Ok (m_zrBytes M sk) else Err
  | KRevSecret sk _ => key_bytes X M k = if e then Ok (m_eskBytes M sk) else Err
  | KIssuerSecret sk _ => key_bytes X M k = if e then s_iskBytes X sk else Err
  | _ => True
  end.
Proof.
  intros U X M S KS e c ops s h s' k N E K P. pose proof (run_flag N E K P) as F.
  destruct k; try exact I; cbn in F; subst exportable; reflexivity.
Qed.
Print Assumptions C47_returned.

(** Public keys export: those of pseudonyms always; those of issuers if the scheme can serialise
    them; those of revocation authorities if x509 can. *)
Theorem C47_public : forall U (X : scheme U) (M : mathops U) k, key_private k = false ->
  match k with
  | KNymPublic _ => exists b, key_bytes X M k = Ok b
  | KIssuerPublic pk => key_bytes X M k = s_ipkBytes X pk
  | KRevPublic pk => key_bytes X M k = opt_err (m_epkPkix M pk)
  | _ => True
  end.
Proof. intros U X M k P. destruct k; try exact I; try reflexivity. eexists. reflexivity. Qed.
Print Assumptions C47_public.
(** PublicKey never returns a private key, and a user secret key has no public key *)
Theorem C47_public_part : forall U (X : scheme U) (M : mathops U) k,
  (forall k', key_public X M k = Ok k' -> key_private k' = false) /\
  (ktype k = TUserSecretKey -> key_public X M k = Err).
Proof. intros U X M k. split; [intros k' E|intros T]; destruct k; try discriminate; try reflexivity; injection E as <-; reflexivity. Qed.
Print Assumptions C47_public_part.
Theorem C47_issuer_public : forall C (H : hasher C) (T : translator C) c_ipk c_ik c_req c_cred c_sig c_nsig c_cri EC (EE : ecenv EC) sha256 raw names pk,
  let X := dlog_scheme H T c_ipk c_ik c_req c_cred c_sig c_nsig c_cri EE sha256 in
  s_issuerPkFromBytes X raw names = IOk pk -> (forall k, enc c_ipk k <> None) ->
  exists b, key_bytes X (dlog_math T EE sha256) (KIssuerPublic pk) = Ok b.
Proof.
  intros C H T c_ipk c_ik c_req c_cred c_sig c_nsig c_cri EC EE sha256 raw names pk X E TOT.
  cbn in E. destruct (dlogPk H T c_ipk raw names) as [k| |]; try discriminate. injection E as <-.
  cbn. unfold brPublicKeyBytes. destruct (enc c_ipk k) as [b|] eqn:EN; [|destruct (TOT k EN)]. exists b. reflexivity.
Qed.
Print Assumptions C47_issuer_public.
Theorem C47_issuer_public_aries : forall C (HG : bytes -> G1 C) (H : hasher C) T hkdf c_cred c_sig c_nsig c_cri EC (EE : ecenv EC) sha256 raw names pk,
  let X := aries_scheme HG H hkdf c_cred c_sig c_nsig c_cri EE sha256 in
  s_issuerPkFromBytes X raw names = IOk pk ->
  exists b, key_bytes X (aries_math T EE sha256) (KIssuerPublic pk) = Ok b.
Proof.
  intros C HG H T hkdf c_cred c_sig c_nsig c_cri EC EE sha256 raw names pk X E.
  cbn in E. destruct (arNewPublicKeyFromBytes HG raw names) as [k| |]; try discriminate. injection E as <-.
  eexists. reflexivity.
Qed.
Print Assumptions C47_issuer_public_aries.

(** the keys of [C45_example] export, the same history under a non-exportable CSP gives keys that do not *)
Definition zcsp : CSP xU := match New xX xM false false with Ok c => c | _ => NewImpl xU end.
Example C47_example :
  New xX xM false false = Ok zcsp /\
  map (fun k => is_ok (key_bytes xX xM k)) (returned (fst xrun)) = [true; true; true] /\
  map (fun k => is_ok (key_bytes xX xM k)) (returned (fst (run xKS zcsp xdisk xops))) = [false; false; false] /\
  (forall i, GetKey xKS xdisk i = Err).
Proof.
  split; [unfold zcsp; destruct (new_wired xX xM false) as [c [E _]]; rewrite E; reflexivity|].
  split; [vm_compute; reflexivity|]. split; [vm_compute; reflexivity|]. intro i. reflexivity.
Qed.

(** ** C48: crashes of the file-based key store *)
(** Whatever the crash point: keys under other identifiers are read as before; the identifier being
    written holds its old content or a prefix of the new one.  With a codec that rejects strict
    prefixes of encodings (as JSON objects are), the key read is the old one, the new one, or none.
    Partial: "none" is possible ([C48_refuted]). *)
Theorem C48_partial : forall U (M : mathops U) json d fs k id e d',
  key_entry M k = Some (id, e) -> put_crash json d id e d' -> round_trips json e ->
  (forall b n, enc json e = Some b -> n < length b -> dec json (firstn n b) = None) ->
  let read (x : dir) ski := GetKey (KVSStore M (FileBased json)) {| dk_files := x; dk_faults := fs |} ski in
  (forall ski, hex ski <> id -> read d' ski = read d ski) /\
  (forall ski, hex ski = id -> read d' ski = read d ski \/ (exists new, ks_store (KVSStore M (FileBased json)) {| dk_files := d; dk_faults := [] |} k = (new, true) /\ read d' ski = read (dk_files new) ski) \/ read d' ski = Err).
Proof.
  intros U M json d fs k id e d' K P RT PS read. split.
  - intros ski N. unfold read, GetKey. cbn. unfold kvs_GetKey. cbn. unfold file_get. cbn. rewrite (crash_other P); auto.
  - intros ski ID. destruct (crash_same P) as [E|(b & n & EN & L & E)].
    + left. unfold read, GetKey. cbn. unfold kvs_GetKey. cbn. unfold file_get. cbn. rewrite ID, E. reflexivity.
    + destruct (Nat.lt_ge_cases n (length b)) as [L'|L'].
      * right. right. unfold read, GetKey. cbn. unfold kvs_GetKey. cbn. unfold file_get. cbn. rewrite ID, E, (PS b n EN L'). reflexivity.
      * right. left. eexists. split.
        -- cbn. unfold kvs_StoreKey. rewrite K. cbn. unfold file_put. rewrite EN. reflexivity.
        -- unfold read, GetKey. cbn. unfold kvs_GetKey. cbn. unfold file_get. cbn. rewrite ID, E.
           unfold dput. rewrite bytes_eqb_refl. rewrite firstn_all2 by lia. reflexivity.
Qed.
Print Assumptions C48_partial.

(** A key that is stored and readable is lost if the process dies between the truncation of its file
    and the end of the write, e.g. when the same key is stored again.  [dec json []] fails for JSON. *)
Theorem C48_refuted : forall U (M : mathops U) json d fs k id e,
  key_entry M k = Some (id, e) -> (exists b, enc json e = Some b) -> dec json [] = None ->
  exists d', put_crash json d id e d' /\
    forall ski, hex ski = id -> GetKey (KVSStore M (FileBased json)) {| dk_files := d'; dk_faults := fs |} ski = Err.
Proof.
  intros U M json d fs k id e K [b EN] DN. exists (dput d id (firstn 0 b)). split; [apply crash_writing; [exact EN|lia]|].
  intros ski ID. unfold GetKey. cbn. unfold kvs_GetKey. cbn. unfold file_get, dput. cbn. rewrite ID, bytes_eqb_refl, DN. reflexivity.
Qed.
Print Assumptions C48_refuted.

(** Even without a crash: a write that fails (disk full) makes StoreKey return an error and destroys
    the key stored earlier under that identifier. *)
Theorem C48_write_error_refuted : forall U (M : mathops U) json d fs k id e b ski,
  key_entry M k = Some (id, e) -> enc json e = Some b -> dec json [] = None -> hex ski = id ->
  let s := {| dk_files := d; dk_faults := Some 0 :: fs |} in
  exists s', ks_store (KVSStore M (FileBased json)) s k = (s', false) /\ GetKey (KVSStore M (FileBased json)) s' ski = Err.
Proof.
  intros U M json d fs k id e b ski K EN DN ID s. eexists. split.
  - cbn. unfold kvs_StoreKey. rewrite K. cbn. unfold file_put. rewrite EN. reflexivity.
  - unfold GetKey. cbn. unfold kvs_GetKey. cbn. unfold file_get, dput. cbn. rewrite ID, bytes_eqb_refl, DN. reflexivity.
Qed.
Print Assumptions C48_write_error_refuted.

(** But whatever write errors the disk is going to have: when StoreKey reports success the key is read
    back under its identifier, and every call leaves the keys under other identifiers alone. *)
Theorem C48_reported : forall U (X : scheme U) (M : mathops U) json (d : disk) k d' ok,
  (forall e, round_trips json e) -> math_ok M -> ks_store (KVSStore M (FileBased json)) d k = (d', ok) ->
  (ok = true -> exists i, kvs_ident X M k = Some i /\ GetKey (KVSStore M (FileBased json)) d' i = Ok k) /\
  (forall j, kvs_ident X M k <> Some j -> GetKey (KVSStore M (FileBased json)) d' j = GetKey (KVSStore M (FileBased json)) d j).
Proof.
  intros U X M json d k d' ok RT MO E.
  assert (W : forall i e ok, file_put json d i e = (d', ok) ->
     (ok = true -> file_get json d' i = Some e) /\ forall j, j <> i -> file_get json d' j = file_get json d j).
  { intros i e o P. unfold file_put, file_get in *. destruct (RT e) as (b & Eb & Db). rewrite Eb in P.
    assert (Q : forall b0, (forall j, j <> i -> dput (dk_files d) i b0 j = dk_files d j) /\ dput (dk_files d) i b0 i = Some b0).
    { intros b0. unfold dput. split; [|rewrite bytes_eqb_refl; reflexivity].
      intros j N. destruct (bytes_eqb j i) eqn:B; [apply bytes_eqb_eq in B; contradiction|reflexivity]. }
    destruct (dk_faults d) as [|[n|] fs]; injection P as <- <-; cbn [dk_files]; (split; [intro O; try discriminate O|intros j N; rewrite (proj1 (Q _) j N); reflexivity]);
      rewrite (proj2 (Q _)); exact Db. }
  assert (G : forall i e ok, file_put json d (hex i) e = (d', ok) -> forall j, i <> j ->
     GetKey (KVSStore M (FileBased json)) d' j = GetKey (KVSStore M (FileBased json)) d j).
  { intros i e o P j N. unfold GetKey. cbn [ks_get KVSStore]. unfold kvs_GetKey. cbn [kv_get FileBased].
    rewrite (proj2 (W _ _ _ P) (hex j)); [reflexivity|]. intro HJ. apply N. symmetry. apply hex_inj. exact HJ. }
  cbn [ks_store KVSStore] in E. unfold kvs_StoreKey in E. destruct k; cbn [key_entry kv_put FileBased] in E;
    try (injection E as <- <-; split; [intro O; discriminate O|reflexivity]).
  - split.
    + intros ->. eexists. split; [reflexivity|]. unfold GetKey. cbn [ks_get KVSStore]. unfold kvs_GetKey. cbn [kv_get FileBased key_ski].
      rewrite (proj1 (W _ _ _ E) eq_refl). cbn. rewrite (mo_zr MO). reflexivity.
    + intros j N. apply (G _ _ _ E). intro Q. apply N. cbn. rewrite <- Q. reflexivity.
  - split.
    + intros ->. eexists. split; [reflexivity|]. unfold GetKey. cbn [ks_get KVSStore]. unfold kvs_GetKey. cbn [kv_get FileBased key_ski].
      rewrite (proj1 (W _ _ _ E) eq_refl). cbn [opt_err bind e_nym ne_pk ne_ski ne_sk ne_exportable]. rewrite (mo_g1 MO), (mo_zr MO). reflexivity.
    + intros j N. apply (G _ _ _ E). intro Q. apply N. cbn. rewrite <- Q. reflexivity.
Qed.
Print Assumptions C48_reported.
(** a disk whose first write works, whose second fails after three bytes and whose third works *)
Definition fdisk : disk := {| dk_files := fun _ => None; dk_faults := [None; Some 3; None] |}.
Example C48_reported_example :
  (forall e, round_trips xjson e) /\ math_ok xM /\
  let d1 := ks_store xKS fdisk xuser in let d2 := ks_store xKS (fst d1) xnym in let d3 := ks_store xKS (fst d2) xnym in
  (snd d1, snd d2, snd d3) = (true, false, true) /\
  is_ok (GetKey xKS (fst d2) (key_ski xX xM xuser)) = true /\ is_ok (GetKey xKS (fst d2) (key_ski xX xM xpub)) = false /\
  is_ok (GetKey xKS (fst d3) (key_ski xX xM xpub)) = true.
Proof. split; [exact xjson_rt|]. split; [exact xM_ok|]. split; [vm_compute; reflexivity|]. split; [vm_compute; reflexivity|]. split; vm_compute; reflexivity. Qed.

(** the user key is readable after the run of [C45_example]; storing it again and crashing loses it *)
Example C48_example : exists id e,
  key_entry xM xuser = Some (id, e) /\ hex (key_ski xX xM xuser) = id /\
  round_trips xjson e /\ (forall b n, enc xjson e = Some b -> n < length b -> dec xjson (firstn n b) = None) /\ dec xjson [] = None /\
  is_ok (GetKey xKS (snd xrun) (key_ski xX xM xuser)) = true.
Proof.
  eexists. eexists. split; [reflexivity|]. split; [reflexivity|]. split; [apply xjson_rt|].
  split; [intros b n; apply xjson_prefix|]. split; [reflexivity|]. vm_compute. reflexivity.
Qed.

(** ** C49: dispatch *)
(** A CSP built by any sequence of AddWrapper calls: every operation is delegated to the wrapper
    registered last for the type of its key or options under the operation's interface; without
    one the operation fails and the key store stays as it is. *)
Theorem C49_dispatch : forall U (hist : registrations_of U) S (KS : keystore U S),
  let c := register (NewImpl U) hist in
  (forall s d o,
     match in_charge hist (gtype o) IKeyGenerator with
     | None => KeyGen KS c s d (Some o) = (Err, s)
     | Some w => exists g, w_gen w = Some g /\
         (forall k, g d o = Ok k -> KeyGen KS c s d (Some o) =
            if op_ephemeral (OpGen d (Some o) : op U) then (Ok k, s) else match ks_store KS s k with (s', ok) => (if ok then Ok k else Err, s') end) /\
         ((forall k, g d o <> Ok k) -> KeyGen KS c s d (Some o) = (g d o, s))
     end) /\
  (forall s d k o,
     match in_charge hist (ktype k) IKeyDeriver with
     | None => KeyDeriv KS c s d (Some k) (Some o) = (Err, s)
     | Some w => exists g, w_der w = Some g /\
         (forall k', g d k o = Ok k' -> KeyDeriv KS c s d (Some k) (Some o) =
            if op_ephemeral (OpDeriv d (Some k) (Some o)) then (Ok k', s) else match ks_store KS s k' with (s', ok) => (if ok then Ok k' else Err, s') end) /\
         ((forall k', g d k o <> Ok k') -> KeyDeriv KS c s d (Some k) (Some o) = (g d k o, s))
     end) /\
  (forall s raw o, raw <> RNil ->
     match in_charge hist (itype o) IKeyImporter with
     | None => KeyImport KS c s raw (Some o) = (IErr PlainError, s)
     | Some w => exists g, w_imp w = Some g /\
         (forall r, g raw o = IOk r -> KeyImport KS c s raw (Some o) =
            if op_ephemeral (OpImport raw (Some o)) then (IOk r, s) else match ks_store KS s (fst r) with (s', ok) => (if ok then IOk r else IErr PlainError, s') end) /\
         ((forall r, g raw o <> IOk r) -> KeyImport KS c s raw (Some o) = (g raw o, s))
     end) /\
  (forall d k digest o,
     match in_charge hist (ktype k) ISigner with
     | None => csp_Sign c d (Some k) digest o = Err
     | Some w => exists g, w_sig w = Some g /\ csp_Sign c d (Some k) digest o = g d k digest o
     end) /\
  (forall k signature digest o, signature <> [] ->
     match in_charge hist (ktype k) IVerifier with
     | None => csp_Verify c (Some k) signature digest o = rejected
     | Some w => exists g, w_ver w = Some g /\ csp_Verify c (Some k) signature digest o = forward (g k signature digest o)
     end).
Proof.
  intros U hist S KS c. pose proof (fun t => register_lookup hist (NewImpl U) t) as L. cbv zeta in L. fold c in L.
  assert (R : forall t i w, in_charge hist t i = Some w -> match i with IKeyGenerator => w_gen w <> None | IKeyImporter => w_imp w <> None
      | IKeyDeriver => w_der w <> None | ISigner => w_sig w <> None | IVerifier => w_ver w <> None end).
  { intros t i w E. apply in_charge_role in E. destruct w as [[g|] [i0|] [dv|] [sg|] [v|]], i; cbn in E; try discriminate; cbn; discriminate. }
  split; [|split; [|split; [|split]]].
  - intros s d o. destruct (L (gtype o)) as (L1 & _). pose proof (R (gtype o) IKeyGenerator) as Q. cbn [KeyGen]. rewrite L1.
    destruct (in_charge hist (gtype o) IKeyGenerator) as [w|]; cbn [obind]; [|reflexivity]. specialize (Q w eq_refl). cbn in Q.
    destruct (w_gen w) as [g|]; [|contradiction]. exists g. split; [reflexivity|]. split.
    + intros k ->. rewrite eph_gen. unfold persist. destruct (g_ephemeral o); [reflexivity|]. destruct (ks_store KS s k) as [s' []]; reflexivity.
    + intro NO. destruct (g d o) as [k| |]; [destruct (NO k eq_refl)|reflexivity|reflexivity].
  - intros s d k o. destruct (L (ktype k)) as (_ & _ & L1 & _). pose proof (R (ktype k) IKeyDeriver) as Q. cbn [KeyDeriv]. rewrite L1.
    destruct (in_charge hist (ktype k) IKeyDeriver) as [w|]; cbn [obind]; [|reflexivity]. specialize (Q w eq_refl). cbn in Q.
    destruct (w_der w) as [g|]; [|contradiction]. exists g. split; [reflexivity|]. split.
    + intros k' ->. rewrite eph_der. unfold persist. destruct (d_ephemeral o); [reflexivity|]. destruct (ks_store KS s k') as [s' []]; reflexivity.
    + intro NO. destruct (g d k o) as [k'| |]; [destruct (NO k' eq_refl)|reflexivity|reflexivity].
  - intros s raw o NN. destruct (L (itype o)) as (_ & L1 & _). pose proof (R (itype o) IKeyImporter) as Q.
    assert (EK : KeyImport KS c s raw (Some o) = match imps c (itype o) with
          | None => (IErr PlainError, s)
          | Some i => match i raw o with
              | IOk r => match persist KS (i_ephemeral o) (fst r) s with (s', true) => (IOk r, s') | (s', false) => (IErr PlainError, s') end
              | r => (r, s) end end) by (destruct raw; [contradiction|reflexivity|reflexivity]).
    rewrite EK, L1.
    destruct (in_charge hist (itype o) IKeyImporter) as [w|]; cbn [obind]; [|reflexivity]. specialize (Q w eq_refl). cbn in Q.
    destruct (w_imp w) as [g|]; [|contradiction]. exists g. split; [reflexivity|]. split.
    + intros r ->. rewrite eph_imp. unfold persist. destruct (i_ephemeral o); [reflexivity|]. destruct (ks_store KS s (fst r)) as [s' []]; reflexivity.
    + intro NO. destruct (g raw o) as [r| |]; [destruct (NO r eq_refl)|reflexivity|reflexivity].
  - intros d k digest o. destruct (L (ktype k)) as (_ & _ & _ & L1 & _). pose proof (R (ktype k) ISigner) as Q. cbn [csp_Sign opt_err bind]. rewrite L1.
    destruct (in_charge hist (ktype k) ISigner) as [w|]; cbn [obind]; [|reflexivity]. specialize (Q w eq_refl). cbn in Q.
    destruct (w_sig w) as [g|]; [|contradiction]. exists g. split; reflexivity.
  - intros k signature digest o NE. destruct (L (ktype k)) as (_ & _ & _ & _ & L1). pose proof (R (ktype k) IVerifier) as Q. cbn [csp_Verify].
    destruct signature as [|x signature]; [contradiction|]. change (length (x :: signature) =? 0) with false. rewrite L1.
    destruct (in_charge hist (ktype k) IVerifier) as [w|]; cbn [obind]; [|reflexivity]. specialize (Q w eq_refl). cbn in Q.
    destruct (w_ver w) as [g|]; [|contradiction]. exists g. split; reflexivity.
Qed.
Print Assumptions C49_dispatch.

(** Registering a wrapper for a type changes one table at that type and nothing else; a nil type, a
    nil wrapper or a wrapper of no known interface is refused. *)
Theorem C49_registering : forall U (c c' : CSP U) t w, AddWrapper c t w = Ok c' ->
  exists t0 w0 i, t = Some t0 /\ w = Some w0 /\ role_of w0 = Some i /\
  (forall t', t' <> t0 -> gens c' t' = gens c t' /\ ders c' t' = ders c t' /\ imps c' t' = imps c t' /\ sigs c' t' = sigs c t' /\ vers c' t' = vers c t') /\
  (i <> IKeyGenerator -> gens c' t0 = gens c t0) /\ (i <> IKeyDeriver -> ders c' t0 = ders c t0) /\
  (i <> IKeyImporter -> imps c' t0 = imps c t0) /\ (i <> ISigner -> sigs c' t0 = sigs c t0) /\ (i <> IVerifier -> vers c' t0 = vers c t0).
Proof.
  intros U c c' t w E. destruct t as [t|]; [|discriminate]. destruct w as [w|]; [|discriminate]. cbn [AddWrapper opt_err bind] in E.
  destruct w as [[g|] [i|] [d|] [s|] [v|]]; try discriminate; injection E as <-; eexists; eexists; eexists;
    (split; [reflexivity|]; split; [reflexivity|]; split; [reflexivity|]; cbn [gens ders imps sigs vers];
     split; [intros t' N; rewrite ?upd_other by exact N; auto|repeat split; intro N; try reflexivity; congruence]).
Qed.
Print Assumptions C49_registering.

(** registering a second signer for user keys replaces the first and leaves the verifier in place *)
Example C49_example : exists hist : registrations_of xU,
  (exists c, New xX xM false true = Ok c /\ register (NewImpl xU) (firstn 18 hist) = c) /\
  (exists w, in_charge hist TUserSecretKey ISigner = Some w /\ w_sig w = Some (fun _ _ _ _ => Err)) /\
  (exists w, in_charge hist TUserSecretKey IVerifier = Some w /\ w_ver w = Some (h_CredentialVerifier xX)) /\
  in_charge hist (TOther 0) ISigner = None.
Proof.
  exists (map (fun r => (Some (fst r), Some (snd r))) (registrations xX xM true) ++ [(Some TUserSecretKey, Some (ws (fun _ _ _ _ => Err)))]).
  split; [|split; [|split]].
  - eexists. split; [|reflexivity]. unfold New. cbn [negb guard bind].
    change (firstn 18 (map (fun r => (Some (fst r), Some (snd r))) (registrations xX xM true) ++ [(Some TUserSecretKey, Some (ws (fun _ _ _ _ => Err)))]))
      with (map (fun r => (Some (fst r), Some (snd r))) (registrations xX xM true)).
    apply fold_register. unfold registrations. repeat (constructor; [discriminate|]). constructor.
  - eexists. split; reflexivity.
  - eexists. split; reflexivity.
  - reflexivity.
Qed.

(** the issuer public key importer with typed errors is the one of Bridge.v with the types forgotten *)
Theorem dlogPk_res : forall C (H : hasher C) (T : translator C) c_ipk raw names,
  res_of (dlogPk H T c_ipk raw names) = brNewPublicKeyFromBytes H T c_ipk raw names.
Proof.
  intros C H T c_ipk raw names. unfold dlogPk, brNewPublicKeyFromBytes.
  destruct (opt_err (dec c_ipk raw)) as [k| |]; cbn [kinded ibind bind]; try reflexivity.
  destruct (setHash H (enc c_ipk) k) as [k1| |]; cbn [kinded ibind bind]; try reflexivity.
  destruct (checkIPK H T (enc c_ipk) k1) as [k2| |]; cbn [kinded ibind bind]; try reflexivity.
  destruct (length names =? 0); [reflexivity|].
  destruct (guard (length names =? length (ip_names k2))) as [[]| |]; cbn [kinded ibind bind]; try reflexivity.
  destruct (names_match 0 names (ip_names k2)) as [[]| |]; reflexivity.
Qed.
Print Assumptions dlogPk_res.

(** ** C65: exported keys can be imported again *)
(** the importers as the caller sees them *)
Lemma import_step U (X : scheme U) (M : mathops U) e c S (KS : keystore U S) s b o g :
  New X M false e = Ok c -> i_ephemeral o = true -> imps (wired_csp X M e) (itype o) = Some g ->
  step KS c s (OpImport (RBytes b) (Some o)) = (res_of (let+ x := g (RBytes b) o in IOk (fst x)), s).
Proof.
  intros N EP G. destruct (new_tables N) as (_ & _ & I & _). clear N. cbn [step KeyImport]. rewrite I, G.
  destruct (g (RBytes b) o) as [r| |]; [|reflexivity|reflexivity]. unfold persist. rewrite EP. reflexivity.
Qed.

Lemma raw_ok b : b <> [] -> raw_bytes (RBytes b) = IOk b.
Proof. destruct b; [contradiction|reflexivity]. Qed.

(** user secret keys, dlog and aries *)
Theorem C65_user : forall C (OK : CurveOk C) (H : hasher C) (T : translator C) c_ipk c_ik c_req c_cred c_sig c_nsig c_cri EC (EE : ecenv EC) sha256 e c S (KS : keystore _ S) s sk b,
  let X := dlog_scheme H T c_ipk c_ik c_req c_cred c_sig c_nsig c_cri EE sha256 in
  let M := dlog_math T EE sha256 in
  New X M false e = Ok c -> key_bytes X M (KUserSecret sk true) = Ok b ->
  step KS c s (OpImport (RBytes b) (Some (IUser true))) = (Ok (KUserSecret sk e), s).
Proof.
  intros C OK H T c_ipk c_ik c_req c_cred c_sig c_nsig c_cri EC EE sha256 e c S KS s sk b X M N B.
  injection B as <-. rewrite (@import_step _ X M e c S KS s _ (IUser true) _ N eq_refl eq_refl). unfold h_UserKeyImporter.
  rewrite raw_ok by (apply (zb_nonempty OK)). cbn [ibind]. cbn [s_userKeyFromBytes X dlog_scheme]. unfold brUserKeyFromBytes.
  cbn. rewrite (ok_zr_len OK), Nat.eqb_refl. cbn. rewrite (ok_zr_rt OK). reflexivity.
Qed.
Print Assumptions C65_user.
Theorem C65_user_aries : forall C (OK : CurveOk C) (HG : bytes -> G1 C) (H : hasher C) T hkdf c_cred c_sig c_nsig c_cri EC (EE : ecenv EC) sha256 e c S (KS : keystore _ S) s sk b,
  let X := aries_scheme HG H hkdf c_cred c_sig c_nsig c_cri EE sha256 in
  let M := aries_math T EE sha256 in
  New X M false e = Ok c -> key_bytes X M (KUserSecret sk true) = Ok b ->
  step KS c s (OpImport (RBytes b) (Some (IUser true))) = (Ok (KUserSecret sk e), s).
Proof.
  intros C OK HG H T hkdf c_cred c_sig c_nsig c_cri EC EE sha256 e c S KS s sk b X M N B.
  injection B as <-. rewrite (@import_step _ X M e c S KS s _ (IUser true) _ N eq_refl eq_refl). unfold h_UserKeyImporter.
  rewrite raw_ok by (apply (zb_nonempty OK)). cbn [ibind]. cbn [s_userKeyFromBytes X aries_scheme]. unfold arUserKeyFromBytes.
  cbn. rewrite (ok_zr_len OK), Nat.eqb_refl. cbn. rewrite (ok_zr_rt OK). reflexivity.
Qed.
Print Assumptions C65_user_aries.

(** pseudonym public keys, for the three translators of translator/amcl *)
Definition raw_round_trip (C : Curve) (T : translator C) : Prop :=
  forall P, g1_from_raw T (ex (g1_to_proto T P) ++ ey (g1_to_proto T P)) = Ok P /\ ex (g1_to_proto T P) ++ ey (g1_to_proto T P) <> [].
Theorem C65_translators : forall C (OK : CurveOk C), 0 < coord_size C ->
  (amcl_style C -> raw_round_trip (Fp256bn C)) /\ (miracl_style C -> raw_round_trip (Fp256bnMiracl C)) /\ (gurvy_style C -> raw_round_trip (Gurvy C)).
Proof.
  intros C OK CS.
  assert (A : g1_size C = 1 + 2 * coord_size C -> (forall P, hd b0 (g1_bytes C P) = Byte.x04) -> forall P,
     from_raw (fp_g1_from C) (ex (fp_g1_to (C := C) P) ++ ey (fp_g1_to P)) = Ok P /\ ex (fp_g1_to P) ++ ey (fp_g1_to P) <> []).
  { intros SZ HD P. unfold fp_g1_to. rewrite halves_app. split; [exact (fp_g1_raw OK SZ HD P)|].
    intro E. pose proof (ok_g1_len OK P) as L. destruct (g1_bytes C P) as [|x r]; cbn in *; [lia|]. subst r. cbn in L. lia. }
  split; [|split].
  - intros (SZ & _ & HD) P. exact (A SZ HD P).
  - intros (SZ & _ & HD & _) P. exact (A SZ HD P).
  - intros (SZ & _) P. cbn [g1_from_raw g1_to_proto Gurvy]. assert (E0 : ex (gur_g1_to P) ++ ey (gur_g1_to P) = g1_bytes C P) by (unfold gur_g1_to; apply halves_app).
    rewrite E0. split; [exact (gur_g1_rt OK SZ P)|].
    intro E. pose proof (ok_g1_len OK P) as L. rewrite E in L. cbn in L. lia.
Qed.
Print Assumptions C65_translators.
Theorem C65_nym_public : forall C (H : hasher C) (T : translator C) c_ipk c_ik c_req c_cred c_sig c_nsig c_cri EC (EE : ecenv EC) sha256 e c S (KS : keystore _ S) s pk b,
  let X := dlog_scheme H T c_ipk c_ik c_req c_cred c_sig c_nsig c_cri EE sha256 in
  let M := dlog_math T EE sha256 in
  raw_round_trip T -> New X M false e = Ok c -> key_bytes X M (KNymPublic pk) = Ok b ->
  step KS c s (OpImport (RBytes b) (Some (INymPk true))) = (Ok (KNymPublic pk), s).
Proof.
  intros C H T c_ipk c_ik c_req c_cred c_sig c_nsig c_cri EC EE sha256 e c S KS s pk b X M RR N B.
  injection B as <-. rewrite (@import_step _ X M e c S KS s _ (INymPk true) _ N eq_refl eq_refl). unfold h_NymPublicKeyImporter.
  destruct (RR pk) as [R NE]. rewrite raw_ok by exact NE. cbn [ibind]. cbn [s_publicNymFromBytes X dlog_scheme]. unfold brPublicNymFromBytes.
  cbn [m_g1ToProto M dlog_math math_of]. rewrite R. reflexivity.
Qed.
Print Assumptions C65_nym_public.
Theorem C65_nym_public_aries : forall C (OK : CurveOk C) (HG : bytes -> G1 C) (H : hasher C) hkdf c_cred c_sig c_nsig c_cri EC (EE : ecenv EC) sha256 e c S (KS : keystore _ S) s pk b,
  let X := aries_scheme HG H hkdf c_cred c_sig c_nsig c_cri EE sha256 in
  let M := aries_math (Gurvy C) EE sha256 in
  New X M false e = Ok c -> key_bytes X M (KNymPublic pk) = Ok b ->
  step KS c s (OpImport (RBytes b) (Some (INymPk true))) = (Ok (KNymPublic pk), s).
Proof.
  intros C OK HG H hkdf c_cred c_sig c_nsig c_cri EC EE sha256 e c S KS s pk b X M N B.
  assert (E0 : b = g1_bytes C pk) by (injection B as <-; apply halves_app). clear B. subst b.
  rewrite (@import_step _ X M e c S KS s _ (INymPk true) _ N eq_refl eq_refl). unfold h_NymPublicKeyImporter.
  pose proof (ok_g1_len OK pk) as L. pose proof (ok_g1_size OK) as GS.
  rewrite raw_ok by (intro E; rewrite E in L; cbn in L; lia).
  cbn [ibind]. cbn [s_publicNymFromBytes X aries_scheme]. unfold arPublicNymFromBytes.
  rewrite L, Nat.eqb_refl. cbn [guard bind]. rewrite (ok_g1_rt OK). reflexivity.
Qed.
Print Assumptions C65_nym_public_aries.

(** Either encoding of the point will do: what the scheme's parser accepts, or, if it refuses that,
    what it accepts after the prefix 0x04 of uncompressed points is added *)
Theorem C65_nym_public_forms : forall U (X : scheme U) (M : mathops U) e c S (KS : keystore U S) s b,
  New X M false e = Ok c -> b <> [] ->
  (forall pk, s_publicNymFromBytes X b = Ok pk -> step KS c s (OpImport (RBytes b) (Some (INymPk true))) = (Ok (KNymPublic pk), s)) /\
  (forall pk, s_publicNymFromBytes X b = Err -> s_publicNymFromBytes X (Byte.x04 :: b) = Ok pk ->
     step KS c s (OpImport (RBytes b) (Some (INymPk true))) = (Ok (KNymPublic pk), s)) /\
  (s_publicNymFromBytes X b = Err -> s_publicNymFromBytes X (Byte.x04 :: b) = Err ->
     step KS c s (OpImport (RBytes b) (Some (INymPk true))) = (Err, s)).
Proof.
  intros U X M e c S KS s b N NE. rewrite (@import_step _ X M e c S KS s _ (INymPk true) _ N eq_refl eq_refl). unfold h_NymPublicKeyImporter.
  rewrite raw_ok by exact NE. cbn [ibind]. split; [|split].
  - intros pk E. rewrite E. reflexivity.
  - intros pk E E'. rewrite E, E'. reflexivity.
  - intros E E'. rewrite E, E'. reflexivity.
Qed.
Print Assumptions C65_nym_public_forms.
(** the aries parser wants the prefix: points written without it are accepted as well *)
Example C65_nym_public_forms_example :
  New xX xM false true = Ok xcsp /\ is_ok (arPublicNymFromBytes toy_amcl (tl (g1_bytes toy_amcl (f5 : G1 toy_amcl)))) = false /\
  is_ok (arPublicNymFromBytes toy_amcl (Byte.x04 :: tl (g1_bytes toy_amcl (f5 : G1 toy_amcl)))) = true /\ tl (g1_bytes toy_amcl (f5 : G1 toy_amcl)) <> [].
Proof. split; [exact xcsp_new|]. split; [vm_compute; reflexivity|]. split; [vm_compute; reflexivity|]. vm_compute. discriminate. Qed.

(** issuer keys of the dlog scheme, under the round-trip law of the protobuf codec *)
Theorem C65_issuer_secret : forall C (H : hasher C) (T : translator C) c_ipk c_ik c_req c_cred c_sig c_nsig c_cri EC (EE : ecenv EC) sha256 e c S (KS : keystore _ S) s k b names,
  let X := dlog_scheme H T c_ipk c_ik c_req c_cred c_sig c_nsig c_cri EE sha256 in
  let M := dlog_math T EE sha256 in
  New X M false e = Ok c -> round_trips c_ik k -> b <> [] ->
  key_bytes X M (KIssuerSecret (Some (Some k) : u_isk (dlogU C EC)) true) = Ok b ->
  step KS c s (OpImport (RBytes b) (Some (IIssuer true names))) = (Ok (KIssuerSecret (Some (Some k) : u_isk (dlogU C EC)) e), s).
Proof.
  intros C H T c_ipk c_ik c_req c_cred c_sig c_nsig c_cri EC EE sha256 e c S KS s k b names X M N (b' & R1 & R2) NE B.
  cbn in B. unfold brSecretKeyBytes in B. rewrite R1 in B. injection B as <-.
  rewrite (@import_step _ X M e c S KS s _ (IIssuer true names) _ N eq_refl eq_refl). unfold h_IssuerKeyImporter.
  rewrite raw_ok by exact NE. cbn [ibind]. cbn [s_issuerKeyFromBytes X dlog_scheme]. unfold brNewKeyFromBytes. rewrite R2. reflexivity.
Qed.
Print Assumptions C65_issuer_secret.

Lemma setHash_idem C (H : hasher C) enc0 k k' : setHash H enc0 k = Ok k' -> setHash H enc0 k' = Ok k'.
Proof. unfold setHash. destruct (enc0 (with_hash k [])) eqn:E; [|discriminate]. intros [= <-]. cbn. change (with_hash (with_hash k (zr_bytes C (H b))) []) with (with_hash k []). rewrite E. reflexivity. Qed.
Lemma checkIPK_idem C (H : hasher C) (T : translator C) enc0 k k' : checkIPK H T enc0 k = Ok k' -> setHash H enc0 k' = Ok k' /\ checkIPK H T enc0 k' = Ok k'.
Proof.
  unfold checkIPK. intro E. apply bind_ok in E. destruct E as [pd [E1 E]]. apply bind_ok in E. destruct E as [[] [E2 E]].
  pose proof (setHash_idem E) as I. split; [exact I|].
  assert (W : exists h, k' = with_hash k h). { unfold setHash in E. destruct (enc0 (with_hash k [])); [|discriminate]. injection E as <-. eauto. }
  destruct W as [h ->]. change (checkIPK_first T (with_hash k h)) with (checkIPK_first T k). rewrite E1. cbn [bind].
  change (ip_c (with_hash k h)) with (ip_c k). rewrite E2. cbn [bind]. exact I.
Qed.

(** a public key that was accepted once is accepted again, with the same result *)
Theorem C65_issuer_public : forall C (H : hasher C) (T : translator C) c_ipk c_ik c_req c_cred c_sig c_nsig c_cri EC (EE : ecenv EC) sha256 e c S (KS : keystore _ S) s k raw b names req rh eid ski,
  let X := dlog_scheme H T c_ipk c_ik c_req c_cred c_sig c_nsig c_cri EE sha256 in
  let M := dlog_math T EE sha256 in
  New X M false e = Ok c -> brNewPublicKeyFromBytes H T c_ipk raw names = Ok k -> round_trips c_ipk k -> b <> [] -> req = 0%Z ->
  key_bytes X M (KIssuerPublic (Some (Some k) : u_ipk (dlogU C EC))) = Ok b ->
  step KS c s (OpImport (RBytes b) (Some (IIssuerPk true names req rh eid ski None))) = (Ok (KIssuerPublic (Some (Some k) : u_ipk (dlogU C EC))), s).
Proof.
  intros C H T c_ipk c_ik c_req c_cred c_sig c_nsig c_cri EC EE sha256 e c S KS s k raw b names req rh eid ski X M N A (b' & R1 & R2) NE RQ B.
  cbn in B. unfold brPublicKeyBytes in B. rewrite R1 in B. injection B as <-. subst req.
  apply (proj1 (recover_ok _ _)) in A. apply bind_ok in A. destruct A as [k0 [_ A]]. apply bind_ok in A. destruct A as [k1 [_ A]].
  apply bind_ok in A. destruct A as [k2 [A2 A]]. apply bind_ok in A. destruct A as [[] [A3 A]]. injection A as ->.
  destruct (checkIPK_idem A2) as [I1 I2].
  rewrite (@import_step _ X M e c S KS s _ (IIssuerPk true names 0 rh eid ski None) _ N eq_refl eq_refl). unfold h_IssuerPublicKeyImporter.
  rewrite raw_ok by exact NE. cbn [ibind]. cbn [s_issuerPkFromBytes X dlog_scheme]. unfold dlogPk. rewrite R2. cbn [opt_err kinded ibind].
  rewrite I1. cbn [kinded ibind]. rewrite I2. cbn [kinded ibind].
  destruct (length names =? 0); [reflexivity|]. apply bind_ok in A3. destruct A3 as [[] [A4 A5]]. rewrite A4, A5. reflexivity.
Qed.
Print Assumptions C65_issuer_public.

(** revocation secret keys, under the corresponding law of the ECDSA library *)
Theorem C65_revocation_secret : forall C (H : hasher C) (T : translator C) c_ipk c_ik c_req c_cred c_sig c_nsig c_cri EC (EE : ecenv EC) sha256 e c S (KS : keystore _ S) s k b,
  let X := dlog_scheme H T c_ipk c_ik c_req c_cred c_sig c_nsig c_cri EE sha256 in
  let M := dlog_math T EE sha256 in
  New X M false e = Ok c -> ee_of_bytes EE (ee_bytes EE k) = k -> b <> [] ->
  key_bytes X M (KRevSecret (k : u_esk (dlogU C EC)) true) = Ok b ->
  step KS c s (OpImport (RBytes b) (Some (IRev true))) = (Ok (KRevSecret (k : u_esk (dlogU C EC)) e), s).
Proof.
  intros C H T c_ipk c_ik c_req c_cred c_sig c_nsig c_cri EC EE sha256 e c S KS s k b X M N R NE B.
  injection B as <-. rewrite (@import_step _ X M e c S KS s _ (IRev true) _ N eq_refl eq_refl). unfold h_RevocationKeyImporter.
  rewrite raw_ok by exact NE. cbn. rewrite R. reflexivity.
Qed.
Print Assumptions C65_revocation_secret.

(** Pseudonym secret keys do not: Bytes() is the scalar alone, the importers want scalar and point. *)
Theorem C65_nym_secret_refuted : forall C (OK : CurveOk C) (H : hasher C) (T : translator C) c_ipk c_ik c_req c_cred c_sig c_nsig c_cri EC (EE : ecenv EC) sha256 e c S (KS : keystore _ S) s ski sk pk b,
  let X := dlog_scheme H T c_ipk c_ik c_req c_cred c_sig c_nsig c_cri EE sha256 in
  let M := dlog_math T EE sha256 in
  0 < coord_size C -> New X M false e = Ok c -> key_bytes X M (KNymSecret ski sk pk true) = Ok b ->
  step KS c s (OpImport (RBytes b) (Some (INym true))) = (Err, s).
Proof.
  intros C OK H T c_ipk c_ik c_req c_cred c_sig c_nsig c_cri EC EE sha256 e c S KS s ski sk pk b X M CS N B.
  injection B as <-. rewrite (@import_step _ X M e c S KS s _ (INym true) _ N eq_refl eq_refl). unfold h_NymKeyImporter.
  rewrite raw_ok by (apply (zb_nonempty OK)). cbn [ibind]. cbn [s_nymFromBytes X dlog_scheme]. unfold brNymFromBytes, makeNymFromBytes.
  cbn [m_zrBytes M dlog_math math_of].
  destruct (slice (zr_bytes C sk) 0 (scalar_size C)); [|reflexivity|reflexivity]. cbn [bind].
  unfold slice at 1. rewrite (ok_zr_len OK).
  replace ((scalar_size C <=? scalar_size C + coord_size C) && (scalar_size C + coord_size C <=? scalar_size C)) with false; [reflexivity|].
  symmetry. apply andb_false_iff. right. apply Nat.leb_gt. lia.
Qed.
Print Assumptions C65_nym_secret_refuted.
Theorem C65_nym_secret_aries_refuted : forall C (OK : CurveOk C) (HG : bytes -> G1 C) (H : hasher C) T hkdf c_cred c_sig c_nsig c_cri EC (EE : ecenv EC) sha256 e c S (KS : keystore _ S) s ski sk pk b,
  let X := aries_scheme HG H hkdf c_cred c_sig c_nsig c_cri EE sha256 in
  let M := aries_math T EE sha256 in
  New X M false e = Ok c -> key_bytes X M (KNymSecret ski sk pk true) = Ok b ->
  step KS c s (OpImport (RBytes b) (Some (INym true))) = (Err, s).
Proof.
  intros C OK HG H T hkdf c_cred c_sig c_nsig c_cri EC EE sha256 e c S KS s ski sk pk b X M N B.
  injection B as <-. rewrite (@import_step _ X M e c S KS s _ (INym true) _ N eq_refl eq_refl). unfold h_NymKeyImporter.
  rewrite raw_ok by (apply (zb_nonempty OK)). cbn [ibind]. cbn [s_nymFromBytes X aries_scheme]. unfold arNymFromBytes.
  cbn [m_zrBytes M aries_math math_of]. rewrite (ok_zr_len OK). pose proof (ok_g1_size OK) as GS.
  replace (scalar_size C =? scalar_size C + g1_size C) with false; [reflexivity|]. symmetry. apply Nat.eqb_neq. lia.
Qed.
Print Assumptions C65_nym_secret_aries_refuted.

(** Revocation public keys do not either, as far as PEM and PKIX DER are different formats: Bytes()
    returns DER, the importer wants PEM. *)
Theorem C65_revocation_public_refuted : forall U (X : scheme U) (M : mathops U) e c S (KS : keystore U S) s pk b,
  New X M false e = Ok c -> key_bytes X M (KRevPublic pk) = Ok b -> m_pemEpk M b = None ->
  step KS c s (OpImport (RBytes b) (Some (IRevPk true))) = (Err, s).
Proof.
  intros U X M e c S KS s pk b N B P. rewrite (@import_step _ X M e c S KS s _ (IRevPk true) _ N eq_refl eq_refl).
  unfold h_RevocationPublicKeyImporter. destruct b; [reflexivity|]. cbn [raw_bytes ibind]. rewrite P. reflexivity.
Qed.
Print Assumptions C65_revocation_public_refuted.

Lemma slice_left (a b : bytes) : slice (a ++ b) 0 (length a) = Ok a.
Proof.
  unfold slice. rewrite app_length. replace (length a <=? length a + length b) with true by (symmetry; apply Nat.leb_le; lia).
  cbn [Nat.leb andb skipn]. rewrite Nat.sub_0_r, firstn_app, Nat.sub_diag, firstn_all, firstn_O, app_nil_r. reflexivity.
Qed.
Lemma slice_right (a b : bytes) : slice_from (a ++ b) (length a) = Ok b.
Proof.
  unfold slice_from, slice. rewrite app_length. replace (length a <=? length a + length b) with true by (symmetry; apply Nat.leb_le; lia).
  rewrite Nat.leb_refl. cbn [andb]. rewrite skipn_app, skipn_all, Nat.sub_diag. cbn [app skipn]. rewrite firstn_all2 by lia. reflexivity.
Qed.

(** What does import is the secret scalar followed by the bytes of the public key. *)
Theorem C65_nym_pair_partial : forall C (OK : CurveOk C) (HG : bytes -> G1 C) (H : hasher C) hkdf c_cred c_sig c_nsig c_cri EC (EE : ecenv EC) sha256 e c S (KS : keystore _ S) s sk pk b1 b2,
  let X := aries_scheme HG H hkdf c_cred c_sig c_nsig c_cri EE sha256 in
  let M := aries_math (Gurvy C) EE sha256 in
  let k := newNymSecretKey M sk pk in
  New X M false e = Ok c -> key_bytes X M (k true) = Ok b1 -> key_bytes X M (KNymPublic pk) = Ok b2 ->
  step KS c s (OpImport (RBytes (b1 ++ b2)) (Some (INym true))) = (Ok (k e), s).
Proof.
  intros C OK HG H hkdf c_cred c_sig c_nsig c_cri EC EE sha256 e c S KS s sk pk b1 b2 X M k N B1 B2.
  injection B1 as <-. assert (E0 : b2 = g1_bytes C pk) by (injection B2 as <-; apply halves_app). clear B2. subst b2.
  rewrite (@import_step _ X M e c S KS s _ (INym true) _ N eq_refl eq_refl). unfold h_NymKeyImporter. cbn [m_zrBytes M aries_math math_of].
  pose proof (ok_zr_len OK sk) as LZ. pose proof (ok_g1_len OK pk) as LG. pose proof (ok_g1_size OK) as GS.
  rewrite raw_ok by (intro E; apply (f_equal (@length byte)) in E; rewrite app_length, LG in E; cbn in E; lia).
  cbn [ibind]. cbn [s_nymFromBytes X aries_scheme]. unfold arNymFromBytes. rewrite app_length, LZ, LG, Nat.eqb_refl. cbn [guard bind].
  rewrite <- LZ, slice_left, slice_right. cbn [bind]. rewrite (ok_g1_rt OK). cbn [opt_err bind].
  rewrite (ok_zr_rt OK). reflexivity.
Qed.
Print Assumptions C65_nym_pair_partial.

(** on the toy CSP: the user key and the pseudonym's public key come back, the pseudonym's secret key
    and the revocation public key do not *)
Definition reimport (k : key xU) (o : impopts xU) : res (rtype * bytes * res bytes) :=
  let* b := key_bytes xX xM k in
  let* k' := fst (step xKS xcsp xdisk (OpImport (RBytes b) (Some o))) in Ok (view k').
Example C65_example :
  reimport xuser (IUser true) = Ok (view xuser) /\ reimport xpub (INymPk true) = Ok (view xpub) /\
  reimport xipk (IIssuerPk true tnames 0 0 0 0 None) = Ok (view xipk) /\
  reimport xnym (INym true) = Err /\ reimport (KRevPublic (str "k" : u_epk xU)) (IRevPk true) = Err.
Proof. repeat split; vm_compute; reflexivity. Qed.

(** ** C17 through the CSP: an issuer public key that KeyImport accepts has been checked *)
Theorem C17_csp : forall C (H : hasher C) (T : translator C) c_ipk c_ik c_req c_cred c_sig c_nsig c_cri EC (EE : ecenv EC) sha256 e c S (KS : keystore _ S) s raw names req rh eid ski b k o s',
  let X := dlog_scheme H T c_ipk c_ik c_req c_cred c_sig c_nsig c_cri EE sha256 in
  let M := dlog_math T EE sha256 in
  New X M false e = Ok c ->
  KeyImport KS c s (RBytes raw) (Some (IIssuerPk true names req rh eid ski b)) = (IOk (k, o), s') ->
  exists ipk, k = KIssuerPublic (Some (Some ipk) : u_ipk (dlogU C EC)) /\ s' = s /\
    brNewPublicKeyFromBytes H T c_ipk raw names = Ok ipk /\ checkIPK H T (enc c_ipk) ipk = Ok ipk /\ (names <> [] -> ip_names ipk = names).
Proof.
  intros C H T c_ipk c_ik c_req c_cred c_sig c_nsig c_cri EC EE sha256 e c S KS s raw names req rh eid ski b k o s' X M N E.
  destruct (new_tables N) as (_ & _ & I & _). clear N. unfold KeyImport in E. cbn [itype] in E. rewrite I in E. cbn [wired_csp imps] in E.
  unfold h_IssuerPublicKeyImporter in E. destruct raw as [|x raw]; [discriminate E|]. cbn [raw_bytes ibind X dlog_scheme s_issuerPkFromBytes] in E.
  pose proof (dlogPk_res H T c_ipk (x :: raw) names) as Q. destruct (dlogPk H T c_ipk (x :: raw) names) as [ipk| |]; [|discriminate E|discriminate E].
  cbn [res_of] in Q. symmetry in Q. exists ipk. destruct (C17_import_checked Q) as [Q1 Q2].
  assert (R : k = KIssuerPublic (Some (Some ipk) : u_ipk (dlogU C EC)) /\ s' = s).
  { cbn [ibind] in E. destruct (req =? 0)%Z; [|destruct (plain _) as [x0| |]; [|discriminate E|discriminate E]];
      cbn [ibind fst i_ephemeral persist] in E; injection E as <- _ <-; split; reflexivity. }
  split; [exact (proj1 R)|]. split; [exact (proj2 R)|]. split; [exact Q|]. split; [exact Q1|exact Q2].
Qed.
Print Assumptions C17_csp.
Lemma names_match_range attributes : forall i names, i + length attributes <= length names -> names_match i attributes names <> Panic.
Proof.
  induction attributes as [|a l IH]; intros i names L; cbn [names_match length] in *; [discriminate|].
  unfold nth_res. destruct (nth_error names i) as [n|] eqn:E; [|apply nth_error_None in E; lia]. cbn [bind].
  destruct (bytes_eqb n a); cbn [guard bind]; [apply IH; lia|discriminate].
Qed.
Lemma names_match_iff attributes names : length attributes = length names ->
  (names_match 0 attributes names = Ok tt <-> attributes = names) /\ names_match 0 attributes names <> Panic.
Proof.
  intro L. split; [|apply names_match_range; lia]. rewrite (names_match_ok attributes [] names). split.
  - intros [rest ->]. rewrite app_length in L. destruct rest; [|cbn in L; lia]. rewrite app_nil_r. reflexivity.
  - intros ->. exists []. rewrite app_nil_r. reflexivity.
Qed.
(** Why an import failed: once a key is importable without naming attributes, naming a wrong number of them and naming the
    wrong ones are told apart. *)
Theorem C17_kinds : forall C (H : hasher C) (T : translator C) c_ipk c_ik c_req c_cred c_sig c_nsig c_cri EC (EE : ecenv EC) sha256 e c S (KS : keystore _ S) s raw names ipk,
  let X := dlog_scheme H T c_ipk c_ik c_req c_cred c_sig c_nsig c_cri EE sha256 in
  let import names := fst (KeyImport KS c s (RBytes raw) (Some (IIssuerPk true names 0 0 0 0 None))) in
  let outcome := let+ r := import names in IOk (fst r) in
  New X (dlog_math T EE sha256) false e = Ok c ->
  (let+ r := import [] in IOk (fst r)) = IOk (KIssuerPublic (Some (Some ipk) : u_ipk (dlogU C EC))) -> names <> [] ->
  (length names <> length (ip_names ipk) -> outcome = IErr NumAttributesError) /\
  (length names = length (ip_names ipk) -> names <> ip_names ipk -> outcome = IErr AttributeNameError) /\
  (names = ip_names ipk -> outcome = IOk (KIssuerPublic (Some (Some ipk) : u_ipk (dlogU C EC)))).
Proof.
  intros C H T c_ipk c_ik c_req c_cred c_sig c_nsig c_cri EC EE sha256 e c S KS s raw names ipk X import outcome N E NE.
  destruct (new_tables N) as (_ & _ & I & _). clear N.
  assert (IM : forall l, raw <> [] -> (let+ r := import l in IOk (fst r)) = (let+ k := dlogPk H T c_ipk raw l in IOk (KIssuerPublic (Some (Some k) : u_ipk (dlogU C EC))))).
  { intros l NR. unfold import, KeyImport. cbn [itype]. rewrite I. cbn [wired_csp imps]. unfold h_IssuerPublicKeyImporter.
    destruct raw as [|x raw']; [congruence|]. cbn [raw_bytes ibind X dlog_scheme s_issuerPkFromBytes]. destruct (dlogPk H T c_ipk (x :: raw') l); reflexivity. }
  assert (NR : raw <> []).
  { intros ->. unfold import, KeyImport in E. cbn [itype] in E. rewrite I in E. discriminate E. }
  unfold outcome. rewrite (IM [] NR) in E. rewrite (IM names NR). clear IM I import outcome. unfold dlogPk in E |- *.
  destruct (kinded UnmarshallingError _) as [k1| |]; [|discriminate E|discriminate E]. cbn [ibind] in E |- *.
  destruct (kinded HashError _) as [k2| |]; [|discriminate E|discriminate E]. cbn [ibind] in E |- *.
  destruct (kinded ValidationError _) as [k3| |]; [|discriminate E|discriminate E]. cbn [ibind length Nat.eqb] in E |- *.
  assert (k3 = ipk) as -> by (injection E as E; exact E). clear E.
  replace (length names =? 0) with false by (destruct names; [congruence|reflexivity]).
  pose proof (@names_match_iff names (ip_names ipk)) as NM.
  split; [|split].
  - intro Q. apply Nat.eqb_neq in Q. rewrite Q. reflexivity.
  - intros Q Q'. rewrite Q, Nat.eqb_refl. cbn [guard kinded ibind]. specialize (NM Q). destruct (names_match 0 names (ip_names ipk)) as [u| |]; [exfalso; apply Q'|reflexivity|].
    + destruct u. apply NM. reflexivity.
    + exfalso. apply (proj2 NM). reflexivity.
  - intros ->. rewrite Nat.eqb_refl. cbn [guard kinded ibind]. rewrite (proj2 (proj1 (NM eq_refl)) eq_refl). reflexivity.
Qed.
Print Assumptions C17_kinds.
(** the key of the toy issuer is accepted by the CSP, with its names and without; with others it is not *)
Example C17_csp_example :
  New xX xM false true = Ok xcsp /\
  let import names := is_ok (res_of (fst (KeyImport xKS xcsp xdisk (RBytes bpkraw) (Some (IIssuerPk true names 0 0 0 0 None))))) in
  import tnames = true /\ import [] = true /\ import (rev tnames) = false.
Proof. split; [exact xcsp_new|]. split; [vm_compute; reflexivity|]. split; vm_compute; reflexivity. Qed.

Example C17_kinds_example :
  let kind names := match fst (KeyImport xKS xcsp xdisk (RBytes bpkraw) (Some (IIssuerPk true names 0 0 0 0 None))) with IErr k => Some k | _ => None end in
  kind (str "OU" :: tnames) = Some NumAttributesError /\ kind (rev tnames) = Some AttributeNameError /\ kind tnames = None /\ kind [] = None.
Proof. split; [|split; [|split]]; vm_compute; reflexivity. Qed.

(** ** C12 through the CSP: a raw commitment is audited as what it was announced to be *)
(** the two audits accept no other kind of audit, and a commitment to an enrollment id is never taken
    for one to a revocation handle *)
Theorem C12_audit_kinds : forall C (H : hasher C) (T : translator C) c_ipk c_ik c_req c_cred c_sig c_nsig c_cri EC (EE : ecenv EC) sha256 e c sig msg idx v r i k,
  let X := dlog_scheme H T c_ipk c_ik c_req c_cred c_sig c_nsig c_cri EE sha256 in
  New X (dlog_math T EE sha256) false e = Ok c ->
  csp_Verify c (Some k) sig msg (Some (SEidAudit AuditOther idx v r i)) <> accepted /\
  csp_Verify c (Some k) sig msg (Some (SRhAudit AuditOther idx v r i)) <> accepted /\
  csp_Verify c (Some k) sig msg (Some (SRhAudit AuditExpectEidNym idx v r i)) <> accepted.
Proof.
  intros C H T c_ipk c_ik c_req c_cred c_sig c_nsig c_cri EC EE sha256 e c sig msg idx v r i k X N.
  rewrite !(csp_verify_spec _ _ _ _ N). clear N. destruct (length sig =? 0); [repeat split; discriminate|].
  destruct k; try (repeat split; discriminate). cbn [deciding X dlog_scheme s_auditEid s_auditRh]. unfold brAuditNymEid, brAuditNymRh.
  destruct pk as [[k|]|]; repeat split; discriminate.
Qed.
Print Assumptions C12_audit_kinds.
Theorem C12_audit_kinds_aries : forall C (HG : bytes -> G1 C) (H : hasher C) T hkdf c_cred c_sig c_nsig c_cri EC (EE : ecenv EC) sha256 e c sig msg idx v r i k,
  let X := aries_scheme HG H hkdf c_cred c_sig c_nsig c_cri EE sha256 in
  New X (aries_math T EE sha256) false e = Ok c ->
  csp_Verify c (Some k) sig msg (Some (SEidAudit AuditOther idx v r i)) <> accepted /\
  csp_Verify c (Some k) sig msg (Some (SRhAudit AuditOther idx v r i)) <> accepted /\
  csp_Verify c (Some k) sig msg (Some (SRhAudit AuditExpectEidNym idx v r i)) <> accepted.
Proof.
  intros C HG H T hkdf c_cred c_sig c_nsig c_cri EC EE sha256 e c sig msg idx v r i k X N.
  rewrite !(csp_verify_spec _ _ _ _ N). clear N. destruct (length sig =? 0); [repeat split; discriminate|].
  destruct k; try (repeat split; discriminate). cbn [deciding X aries_scheme s_auditEid s_auditRh]. unfold arAuditNymEid, arAuditNymRh, arAudit.
  destruct r as [r|]; destruct pk as [[k|]|]; repeat split; discriminate.
Qed.
Print Assumptions C12_audit_kinds_aries.
