(** A concrete CSP: the dlog scheme on the toy curve, with toy codecs, ECDSA and JSON; used to show
    that the hypotheses of the property theorems are satisfiable. *)
From Verif Require Import Base Curve Bbs Aries ToyBbs ToyAries Dlog Bridge BridgeFacts Translator Toy ToyDlog ToyCodec PropsBridge Csp CspInst CspSpec CspFacts.
Unset Strict Implicit.

(** secret keys are byte strings and their own public keys; PKIX is the identity and PEM adds a byte *)
Definition xEC : ecdsa :=
  {| ec_sk := bytes; ec_pk := bytes; ec_sign := fun k d => Some (k ++ d); ec_verify := fun k d s => bytes_eqb s (k ++ d) |}.
Definition xpem (k : bytes) : bytes := Byte.x50 :: k.
Definition xEE : ecenv xEC :=
  {| ee_bytes := (fun k => k) : ec_sk xEC -> bytes; ee_of_bytes := (fun k => k) : bytes -> ec_sk xEC;
     ee_public := (fun k => k) : ec_sk xEC -> ec_pk xEC; ee_point := (fun k => k) : ec_pk xEC -> bytes;
     ee_pkix := (fun k => Some k) : ec_pk xEC -> option bytes;
     ee_pem := (fun b => match b with Byte.x50 :: k => Some k | _ => None end) : bytes -> option (ec_pk xEC) |}.

Definition s_ik : serial IssuerKey :=
  s_iso (s_pair s_bytes (s_opt s_ipk)) (fun k => (ik_isk k, ik_ipk k)) (fun p => {| ik_isk := fst p; ik_ipk := snd p |}).
Lemma s_ik_ok : serial_ok s_ik.
Proof. unfold s_ik. apply s_iso_ok; [apply s_pair_ok; [exact s_bytes_ok|apply s_opt_ok; exact s_ipk_ok]|]. intros []; reflexivity. Qed.

Definition xU := dlogU tC xEC.
Definition xX : scheme xU :=
  dlog_scheme tH tT (tcodec s_ipk) (tcodec s_ik) (tcodec s_req) (tcodec s_cred) (tcodec s_sig) (tcodec s_nsig) (tcodec s_cri) xEE bsha.
Definition xM : mathops xU := dlog_math tT xEE bsha.

Lemma xM_ok : math_ok xM.
Proof. split; [exact (ok_zr_rt tOK)|exact (tr_g1 tTO)]. Qed.

(** entries as framed byte strings: every byte is preceded by 1, the end is marked by 0; no strict
    prefix of an encoding is one *)
Fixpoint frame (b : bytes) : bytes := match b with [] => [Byte.x00] | x :: r => Byte.x01 :: x :: frame r end.
Fixpoint unframe (b : bytes) : option bytes :=
  match b with
  | [Byte.x00] => Some []
  | Byte.x01 :: x :: r => match unframe r with Some l => Some (x :: l) | None => None end
  | _ => None
  end.
Lemma unframe_frame b : unframe (frame b) = Some b.
Proof. induction b as [|x r IH]; [reflexivity|]. cbn. rewrite IH. reflexivity. Qed.
Lemma unframe_prefix b : forall n, n < length (frame b) -> unframe (firstn n (frame b)) = None.
Proof.
  induction b as [|x r IH]; intros n L.
  - cbn in L. replace n with 0 by lia. reflexivity.
  - destruct n as [|[|n]]; [reflexivity|reflexivity|]. cbn. cbn in L. rewrite IH by lia. reflexivity.
Qed.

Definition s_bool : serial bool := s_iso s_byte (fun b : bool => if b then Byte.x01 else Byte.x00) (fun x => byte_eqb x Byte.x01).
Lemma s_bool_ok : serial_ok s_bool.
Proof. apply s_iso_ok; [exact s_byte_ok|]. intros []; reflexivity. Qed.
Definition s_nentry : serial nym_entry :=
  s_iso (s_pair (s_pair s_bytes s_bytes) (s_pair (s_opt s_ecp) s_bool)) (fun e => ((ne_ski e, ne_sk e), (ne_pk e, ne_exportable e)))
    (fun p => {| ne_ski := fst (fst p); ne_sk := snd (fst p); ne_pk := fst (snd p); ne_exportable := snd (snd p) |}).
Lemma s_nentry_ok : serial_ok s_nentry.
Proof.
  apply s_iso_ok; [|intros []; reflexivity].
  apply s_pair_ok; [apply s_pair_ok; exact s_bytes_ok|apply s_pair_ok; [apply s_opt_ok; exact s_ecp_ok|exact s_bool_ok]].
Qed.
Definition s_uentry : serial user_entry :=
  s_iso (s_pair s_bytes s_bool) (fun e => (ue_sk e, ue_exportable e)) (fun p => {| ue_sk := fst p; ue_exportable := snd p |}).
Lemma s_uentry_ok : serial_ok s_uentry.
Proof. apply s_iso_ok; [|intros []; reflexivity]. apply s_pair_ok; [exact s_bytes_ok|exact s_bool_ok]. Qed.
Definition s_entry : serial entry :=
  s_iso (s_pair (s_opt s_nentry) (s_opt s_uentry)) (fun e => (e_nym e, e_user e)) (fun p => {| e_nym := fst p; e_user := snd p |}).
Lemma s_entry_ok : serial_ok s_entry.
Proof. apply s_iso_ok; [|intros []; reflexivity]. apply s_pair_ok; apply s_opt_ok; [exact s_nentry_ok|exact s_uentry_ok]. Qed.

Definition xjson : codec entry :=
  {| enc := fun e => Some (frame (ser s_entry e));
     dec := fun b => match unframe b with Some l => dec (tcodec s_entry) l | None => None end |}.
Lemma xjson_rt e : round_trips xjson e.
Proof.
  exists (frame (ser s_entry e)). split; [reflexivity|]. cbn [dec xjson]. rewrite unframe_frame.
  destruct (tcodec_rt s_entry_ok e) as [b [E1 E2]]. cbn in E1. injection E1 as <-. exact E2.
Qed.
Lemma xjson_prefix e b n : enc xjson e = Some b -> n < length b -> dec xjson (firstn n b) = None.
Proof. intros [= <-] L. cbn [dec xjson]. rewrite unframe_prefix; [reflexivity|exact L]. Qed.

(** the key store on an empty disk *)
Definition xdisk : disk := {| dk_files := fun _ => None; dk_faults := [] |}.
Definition xKS : keystore xU disk := KVSStore xM (FileBased xjson).
Lemma xKS_map : map_store (fun d => dk_faults d = []) xKS (kvs_ident xX xM).
Proof. apply kvs_map_store; [apply file_kvs_ok; exact xjson_rt|exact xM_ok]. Qed.

Definition xcsp : CSP xU := match New xX xM false true with Ok c => c | _ => NewImpl xU end.
Lemma xcsp_new : New xX xM false true = Ok xcsp.
Proof. unfold xcsp. destruct (new_wired xX xM true) as [c [E _]]. rewrite E. reflexivity. Qed.

Definition xdraw : u_draw xU :=
  {| dd_issuer := tIR; dd_zr := (fun i => nth i [f21; f22; f23; f24] f5) : nat -> Zr tC; dd_sig := tR f25; dd_esk := Some (str "k") : option (ec_sk xEC) |}.
Definition xipk : key xU := KIssuerPublic (Some (Some bipk) : u_ipk xU).
Definition xuser : key xU := KUserSecret (tsk : u_zr xU) true.
(** import and store the user key, derive and store a pseudonym, derive one without storing it, import garbage *)
Definition xops : list (op xU) :=
  [OpImport (RBytes (zr_bytes tC tsk)) (Some (IUser false));
   OpDeriv xdraw (Some xuser) (Some (DNym false (Some xipk)));
   OpDeriv xdraw (Some xuser) (Some (DNym true (Some xipk)));
   OpImport (RBytes (str "garbage")) (Some (IUser false))].
Definition xnym : key xU := newNymSecretKey xM (f21 : u_zr xU) (gmul2 (f19 : G1 tC) tsk (f23 : G1 tC) f21 : u_g1 xU) true.

(** the aries CSP on the 32-byte toy curve *)
Definition yU := ariesU toy32 xEC.
Definition yX : scheme yU :=
  aries_scheme hg32 h32 (fun b => b) xa_ccred xa_csig xa_cnsig xa_ccri xEE bsha.
Definition yM : mathops yU := aries_math (Gurvy toy32) xEE bsha.
Definition ycsp : CSP yU := match New yX yM false true with Ok c => c | _ => NewImpl yU end.
Lemma ycsp_new : New yX yM false true = Ok ycsp.
Proof. unfold ycsp. destruct (new_wired yX yM true) as [c [E _]]. rewrite E. reflexivity. Qed.
Definition yipk : key yU := KIssuerPublic (xa_key : u_ipk yU).
