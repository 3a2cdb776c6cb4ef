(** A concrete MSP: dlog on the toy curve with toy codecs; used to show that the hypotheses of the
    property theorems are satisfiable. *)
From Verif Require Import Base Curve Bbs Aries ToyBbs ToyAries Dlog Bridge BridgeFacts Translator Toy ToyDlog ToyCodec PropsBridge
  Csp CspInst CspSpec CspFacts ToyCsp Msp MspSpec MspFacts.
Unset Strict Implicit.

Definition s_role : serial role_msg :=
  s_iso (s_pair s_bytes s_Z) (fun r => (ro_mspid r, ro_role r)) (fun p => {| ro_mspid := fst p; ro_role := snd p |}).
Definition s_ou : serial ou_msg :=
  s_iso (s_pair s_bytes (s_pair s_bytes s_bytes)) (fun o => (ou_mspid o, (ou_id o, ou_certifiers o)))
    (fun p => {| ou_mspid := fst p; ou_id := fst (snd p); ou_certifiers := snd (snd p) |}).
Definition s_si : serial serialized :=
  s_iso (s_pair s_bytes s_bytes) (fun s => (si_mspid s, si_bytes s)) (fun p => {| si_mspid := fst p; si_bytes := snd p |}).
Definition s_ii : serial idemix_serialized :=
  s_iso (s_pair (s_pair (s_opt s_bytes) (s_opt s_bytes)) (s_pair s_bytes (s_pair s_bytes s_bytes)))
    (fun i => ((ii_nymx i, ii_nymy i), (ii_ou i, (ii_role i, ii_proof i))))
    (fun p => {| ii_nymx := fst (fst p); ii_nymy := snd (fst p); ii_ou := fst (snd p); ii_role := fst (snd (snd p)); ii_proof := snd (snd (snd p)) |}).
Definition s_signer : serial signer_config :=
  s_iso (s_pair (s_pair (s_pair s_bytes s_bytes) (s_pair s_bytes s_Z)) (s_pair (s_pair s_bytes s_bytes) (s_pair s_bytes s_bytes)))
    (fun s => (((sc_cred s, sc_sk s), (sc_ou s, sc_role s)), ((sc_eid s, sc_cri s), (sc_rh s, sc_curve s))))
    (fun p => {| sc_cred := fst (fst (fst p)); sc_sk := snd (fst (fst p)); sc_ou := fst (snd (fst p)); sc_role := snd (snd (fst p));
                 sc_eid := fst (fst (snd p)); sc_cri := snd (fst (snd p)); sc_rh := fst (snd (snd p)); sc_curve := snd (snd (snd p)) |}).
Definition s_conf : serial msp_config :=
  s_iso (s_pair (s_pair s_bytes s_bytes) (s_pair (s_pair (s_opt s_signer) s_bytes) (s_pair s_Z s_bytes)))
    (fun f => ((cf_name f, cf_ipk f), ((cf_signer f, cf_revpk f), (cf_epoch f, cf_curve f))))
    (fun p => {| cf_name := fst (fst p); cf_ipk := snd (fst p); cf_signer := fst (fst (snd p)); cf_revpk := snd (fst (snd p));
                 cf_epoch := fst (snd (snd p)); cf_curve := snd (snd (snd p)) |}).
Definition s_principal : serial principal :=
  s_iso (s_pair s_Z s_bytes) (fun p => (pr_class p, pr_bytes p)) (fun p => {| pr_class := fst p; pr_bytes := snd p |}).

Lemma s_role_ok : serial_ok s_role. Proof. unfold s_role. serial_tac. intros []; reflexivity. Qed.
Lemma s_ou_ok : serial_ok s_ou. Proof. unfold s_ou. serial_tac. intros []; reflexivity. Qed.
Lemma s_si_ok : serial_ok s_si. Proof. unfold s_si. serial_tac. intros []; reflexivity. Qed.
Lemma s_ii_ok : serial_ok s_ii. Proof. unfold s_ii. serial_tac. intros []; reflexivity. Qed.
Lemma s_signer_ok : serial_ok s_signer. Proof. unfold s_signer. serial_tac. intros []; reflexivity. Qed.
Lemma s_conf_ok : serial_ok s_conf.
Proof. unfold s_conf. repeat first [exact s_signer_ok | exact s_bytes_ok | exact s_Z_ok | apply s_iso_ok | apply s_pair_ok | apply s_opt_ok]. intros []; reflexivity. Qed.

(** combined principals; an encoding that is not longer than its parts is refused *)
Definition mcomb : codec (list principal) :=
  {| enc := enc (tcodec (s_list s_principal));
     dec := fun b => match dec (tcodec (s_list s_principal)) b with
                     | Some ps => if forallb (fun p => length (pr_bytes p) <? length b) ps then Some ps else None
                     | None => None
                     end |}.
Definition mCD : codecs :=
  {| c_role := tcodec s_role; c_ou := tcodec s_ou; c_si := tcodec s_si; c_ii := tcodec s_ii; c_comb := mcomb; c_anon := tcodec s_Z;
     c_conf := tcodec s_conf; c_signer := tcodec s_signer |}.
Lemma mCD_shorter : nested_shorter mCD.
Proof.
  intros b ps p D I. cbn [c_comb mCD dec mcomb] in D.
  destruct (dec (tcodec (s_list s_principal)) b) as [ps'|]; [|discriminate D].
  destruct (forallb _ ps') eqn:F; [|discriminate D]. injection D as <-.
  rewrite forallb_forall in F. apply Nat.ltb_lt. exact (F p I).
Qed.
Lemma mCD_ok : codecs_ok (fun _ => True) mCD.
Proof.
  split; intros; apply tcodec_rt;
    first [exact s_role_ok|exact s_ou_ok|exact s_si_ok|exact s_ii_ok|exact s_signer_ok|exact s_conf_ok].
Qed.

Definition mE : env xU :=
  {| ev_aries := false; ev_pack := fun cid => if bytes_eqb cid FP256BN_AMCL then Some (xX, xM) else None |}.

(** the CA of PropsBridge.v, a revocation authority with key "k", and a signer with role ADMIN *)
Definition mcri : bytes := from_ok [] (brRevSign (EC := xEC) tT (tcodec s_cri) bsha (Some (str "k" : ec_sk xEC)) [] 0 0 f1).
Definition msigner : signer_config :=
  {| sc_cred := bcredraw; sc_sk := zr_bytes tC tsk; sc_ou := str "ou"; sc_role := 2; sc_eid := str "id"; sc_cri := mcri; sc_rh := str "rh"; sc_curve := [] |}.
Definition mname : bytes := str "Org1MSP".
Definition mconf (sg : option signer_config) : msp_config :=
  {| cf_name := mname; cf_ipk := bpkraw; cf_signer := sg; cf_revpk := xpem (str "k"); cf_epoch := 0; cf_curve := [] |}.
Definition mraw (f : msp_config) : bytes := ser s_conf f.
Definition m0 : msp xU := NewIdemixMsp xU 2.
Definition mset := setup_at mCD mE 0 m0 xdraw xdraw (Some (IDEMIX, mraw (mconf (Some msigner)))).
Definition m1 : msp xU := snd mset.
(* unfold these names before anything else when comparing terms *)
Strategy expand [mset m1 mraw].
Example mset_ok : fst mset = Ok tt.
Proof. vm_compute. reflexivity. Qed.
Lemma pair_eta {A B} (p : A * B) a : fst p = a -> p = (a, snd p).
Proof. intros <-. destruct p. reflexivity. Qed.
Lemma mset_eq : mset = (Ok tt, m1).
Proof. exact (pair_eta mset_ok). Qed.

Definition mbare : identity xU :=
  {| i_nym := KNymPublic (gzero : u_g1 xU); i_raw := []; i_msp := 0; i_id := []; i_role := {| ro_mspid := []; ro_role := 0 |};
     i_ou := {| ou_mspid := []; ou_id := []; ou_certifiers := [] |}; i_proof := [] |}.
Definition msig : signing xU :=
  match p_signer m1 with
  | Some s => s
  | None => {| g_identity := mbare; g_cred := []; g_user := KOther 0; g_nym := KOther 0; g_eid := [] |}
  end.
Definition mid : identity xU := g_identity msig.
Definition mheap : heap xU := [m1].
Example mvalid : Validate mheap 0 (IdSigning msig) = Ok tt.
Proof. vm_compute. reflexivity. Qed.
Lemma m1_signer : p_signer m1 = Some msig.
Proof.
  assert (S : match p_signer m1 with Some _ => true | None => false end = true) by (vm_compute; reflexivity).
  unfold msig. destruct (p_signer m1); [reflexivity|discriminate S].
Qed.
Definition mbipk : u_ipk xU := Some (Some bipk).
Definition mbrpk : u_epk xU := str "k".
Lemma m1_keys : p_name m1 = mname /\ p_version m1 = 2%Z.
Proof. split; vm_compute; reflexivity. Qed.
