(** Properties of idemixgen: C56, C57. *)
From Coq Require Import Lia.
From Verif Require Import Base Curve Algebra Spec Dlog DlogSpec Bridge BridgeFacts Translator TranslatorFacts Toy ToyDlog ToyCodec Csp CspInst ToyCsp RunSpec RunFacts Msp MspSpec MspFacts ToyMsp
  PropsBridge PropsMsp Idemixgen GenSpec GenFacts GenDlog.
Unset Strict Implicit.

(** ** C57: the tool does not change files that exist.
    The states reached by [steps false] are those a crash can leave, with failing calls; [preserved]
    covers every file and directory, under ca/, msp/ and user/ or elsewhere. *)
Theorem C57_keygen_partial : forall resolve out keys rev f f' g,
  tree f -> steps false (f, ca_keygen resolve out keys rev) (f', g) -> preserved f f'.
Proof.
  intros resolve out keys rev f f' g T S.
  assert (K : kept (fun _ => False) f f'); [|intros q n E; exact (K q n E ltac:(tauto))].
  apply (steps_safe (X := fun _ => False) (f0 := f) S); cbn [fst snd].
  - unfold ca_keygen. destruct keys as [[isk ipk]| |], rev as [[rsk rpk]|]; cbn; try exact I. repeat (split; [tauto|]; intros []); cbn; try exact I; repeat (intros []; cbn; try exact I).
  - unfold ca_keygen. destruct keys as [[isk ipk]| |], rev as [[rsk rpk]|]; cbn; try exact I.
    split; [exact I|]. intros NC. split; [exact I|]. intros NM. unfold at2.
    repeat first [ exact I | (intros [|]; cbn) | split; [left; apply (none_two _ T); assumption|] ].
  - intros q n E _. exact E.
Qed.
Print Assumptions C57_keygen_partial.

(** signerconfig: everything but the two public files under msp/ of the output directory, and these
    too if the CA's directory is the output directory *)
Theorem C57_signerconfig_partial : forall resolve sk (parse : bytes -> option sk) generate fl f f' g,
  tree f -> steps false (f, signerconfig resolve parse generate fl) (f', g) ->
  (forall q n, f q = Some n -> q <> resolve (fl_output fl) ++ [str "msp"; str "IssuerPublicKey"] ->
     q <> resolve (fl_output fl) ++ [str "msp"; str "RevocationPublicKey"] -> f' q = Some n) /\
  (fl_cainput fl = [] \/ fl_cainput fl = fl_output fl -> preserved f f').
Proof.
  intros resolve sk parse generate fl f f' g T S. set (o := resolve (fl_output fl)). split.
  - set (X := fun q => q = o ++ [n_msp; n_ipk] \/ q = o ++ [n_msp; n_revpk]).
    assert (K : kept X f f'); [|intros q n E N1 N2; apply (K q n E); intros [->| ->]; [exact (N1 eq_refl)|exact (N2 eq_refl)]].
    apply (steps_safe (X := X) (f0 := f) S); cbn [fst snd].
    + unfold signerconfig. cbn. repeat first [ exact I | (intros [|]; cbn) | destruct (parse _); cbn | destruct (generate _ _ _ _); cbn | destruct (bytes_eqb _ (fl_output fl)); cbn ].
      all: try (split; [intros [E|E]; apply app_inv_head in E; discriminate E|]; repeat first [ exact I | (intros [|]; cbn) ]).
      all: destruct (bytes_eqb _ (fl_output fl)); cbn; repeat first [ exact I | (intros [|]; cbn) ].
    + unfold signerconfig. cbn.
      repeat first [ exact I | (intros [|]; cbn) | destruct (parse _); cbn | destruct (generate _ _ _ _); cbn ].
      all: try (split; [exact I|]; intros NU; repeat first [ exact I | (intros [|]; cbn) | split; [left; apply (none_two _ T); assumption|] ]).
      all: destruct (bytes_eqb _ (fl_output fl)); cbn; repeat first [ exact I | (intros [|]; cbn) | split; [right; unfold X; tauto|] ].
    + intros q n E _. exact E.
  - intros CI.
    assert (CA : (if bytes_eqb (fl_cainput fl) [] then fl_output fl else fl_cainput fl) = fl_output fl).
    { destruct (bytes_eqb (fl_cainput fl) []) eqn:E; [reflexivity|]. destruct CI as [X|X]; [rewrite X in E; discriminate|exact X]. }
    assert (K : kept (fun _ => False) f f'); [|intros q n E; exact (K q n E ltac:(tauto))].
    apply (steps_safe (X := fun _ => False) (f0 := f) S); cbn [fst snd].
    + unfold signerconfig. cbn. rewrite CA, bytes_eqb_refl. repeat first [ exact I | (intros [|]; cbn) | destruct (parse _); cbn | destruct (generate _ _ _ _); cbn ].
      all: try (split; [tauto|]; repeat first [ exact I | (intros [|]; cbn) ]).
    + unfold signerconfig. cbn. rewrite CA, bytes_eqb_refl.
      repeat first [ exact I | (intros [|]; cbn) | destruct (parse _); cbn | destruct (generate _ _ _ _); cbn ].
      all: try (split; [exact I|]; intros NU; repeat first [ exact I | (intros [|]; cbn) | split; [left; apply (none_two _ T); assumption|] ]).
    + intros q n E _. exact E.
Qed.
Print Assumptions C57_signerconfig_partial.

(** ** file systems to test with *)
Definition of_list (l : list (path * node)) : fs := fun q => match find (fun e => path_eqb q (fst e)) l with Some e => Some (snd e) | None => None end.
Definition treeb (l : list (path * node)) : bool :=
  match of_list l [] with Some Dir => true | _ => false end &&
  forallb (fun e => match fst e with [] => true | p => match of_list l (parent p) with Some Dir => true | _ => false end end) l.
Lemma tree_of_list l : treeb l = true -> tree (of_list l).
Proof.
  unfold treeb. intros E. apply Bool.andb_true_iff in E. destruct E as [E1 E2]. split.
  - destruct (of_list l []) as [[|b]|]; [reflexivity|discriminate|discriminate].
  - intros p x N. rewrite forallb_forall in E2. unfold of_list in N at 1.
    destruct (find (fun e => path_eqb (p ++ [x]) (fst e)) l) as [e|] eqn:F; [|contradiction].
    apply find_some in F. destruct F as [F1 F2]. apply path_eqb_eq in F2. specialize (E2 e F1). destruct e as [pe ne]. cbn [fst] in F2, E2. subst pe.
    rewrite <- (parent_snoc p x). destruct (p ++ [x]) as [|c r] eqn:Z; [destruct p; discriminate|]. destruct (of_list l (parent (c :: r))) as [[|b]|]; [reflexivity|discriminate|discriminate].
Qed.
(** a CA in directory "a", another MSP in directory "b" *)
Definition here (d : bytes) : path := [d].
Definition gA := str "a".
Definition gB := str "b".
Definition two_dirs : list (path * node) :=
  [([], Dir); ([gA], Dir); ([gA; n_ca], Dir); ([gA; n_ca; n_isk], File (str "iskA")); ([gA; n_ca; n_ipk], File (str "ipkA"));
   ([gA; n_ca; n_revkey], File (str "rskA")); ([gA; n_msp], Dir); ([gA; n_msp; n_revpk], File (str "rpkA")); ([gA; n_msp; n_ipk], File (str "ipkA"));
   ([gB], Dir); ([gB; n_msp], Dir); ([gB; n_msp; n_ipk], File (str "ipkB")); ([gB; n_msp; n_revpk], File (str "rpkB"))].
Definition gflags (ca : bytes) : flags := {| fl_output := gB; fl_cainput := ca; fl_ou := str "ou"; fl_admin := false; fl_eid := str "e"; fl_rh := [] |}.
Definition gparse (b : bytes) : option bytes := Some b.
Definition ggen (r : Z) (isk ipk : bytes) (rk : bytes) : res bytes := Ok (isk ++ ipk ++ rk).

Example C57_keygen_example :
  tree (of_list two_dirs) /\ of_list two_dirs [gA; n_ca; n_isk] = Some (File (str "iskA")) /\
  (* refused in a directory with an MSP *)
  (let r := exec (of_list two_dirs) (ca_keygen here gB (Ok (str "k", str "pk")) (Some (str "r", str "rp"))) in
   snd r = false /\ fst r [gB; n_ca] = None) /\
  (* writes into a new directory *)
  (let r := exec (of_list two_dirs) (ca_keygen here (str "c") (Ok (str "k", str "pk")) (Some (str "r", str "rp"))) in
   snd r = true /\ fst r [str "c"; n_ca; n_isk] = Some (File (str "k")) /\ fst r [str "c"; n_msp; n_ipk] = Some (File (str "pk"))).
Proof. split; [apply tree_of_list; vm_compute; reflexivity|]. repeat split. Qed.

(** The full claim is false.  With --ca-input other than --output, a signerconfig that succeeds has
    put the public keys of that CA in place of those under msp/. *)
Theorem C57_overwrites : forall resolve sk (parse : bytes -> option sk) generate fl f f',
  exec f (signerconfig resolve parse generate fl) = (f', true) -> fl_cainput fl <> [] -> fl_cainput fl <> fl_output fl ->
  exists ipk, f (resolve (fl_cainput fl) ++ [str "ca"; str "IssuerPublicKey"]) = Some (File ipk) /\
              f' (resolve (fl_output fl) ++ [str "msp"; str "IssuerPublicKey"]) = Some (File ipk).
Proof.
  intros resolve sk parse generate fl f f' E N1 N2. unfold signerconfig in E.
  replace (bytes_eqb (fl_cainput fl) []) with false in E by (symmetry; destruct (bytes_eqb (fl_cainput fl) []) eqn:Z; [apply bytes_eqb_eq in Z; contradiction|reflexivity]).
  replace (bytes_eqb (fl_cainput fl) (fl_output fl)) with false in E
    by (symmetry; destruct (bytes_eqb (fl_cainput fl) (fl_output fl)) eqn:Z; [apply bytes_eqb_eq in Z; contradiction|reflexivity]).
  cbv zeta in E. unfold at2 in E.
  apply exec_read_inv in E. destruct E as [isk [_ E]]. apply exec_read_inv in E. destruct E as [ipk [Ei E]].
  apply exec_read_inv in E. destruct E as [rk [_ E]]. destruct (parse rk); [|discriminate E].
  apply exec_read_inv in E. destruct E as [rpk [_ E]]. destruct (generate _ _ _ _) as [cfg| |]; try discriminate E.
  apply exec_not_exist_inv in E. destruct E as [_ E]. apply exec_mkdir_inv, exec_write_inv, exec_mkdir_inv, exec_write_inv, exec_write_inv in E.
  exists ipk. split; [exact Ei|].
  injection E as <-. apply fput_same.
Qed.
Print Assumptions C57_overwrites.

Theorem C57_refuted :
  exists fl f q b b' f', tree f /\ steps false (f, signerconfig here gparse ggen fl) (f', Done true) /\
    q = here (fl_output fl) ++ [str "msp"; str "IssuerPublicKey"] /\ f q = Some (File b) /\ f' q = Some (File b') /\ b <> b'.
Proof.
  pose proof (exec_steps (of_list two_dirs) (signerconfig here gparse ggen (gflags gA))) as S.
  change (snd (exec (of_list two_dirs) (signerconfig here gparse ggen (gflags gA)))) with true in S.
  exists (gflags gA), (of_list two_dirs), [gB; n_msp; n_ipk], (str "ipkB"), (str "ipkA"), (fst (exec (of_list two_dirs) (signerconfig here gparse ggen (gflags gA)))).
  split; [apply tree_of_list; vm_compute; reflexivity|]. split; [exact S|]. split; [reflexivity|]. split; [reflexivity|]. split; [vm_compute; reflexivity|discriminate].
Qed.
Print Assumptions C57_refuted.

(** A Stat that fails for another reason than absence counts as absence: then ca-keygen replaces the
    issuer's secret key. *)
Theorem C57_stat_refuted :
  exists out keys rev f q b b' f', tree f /\ steps true (f, ca_keygen here out keys rev) (f', Done true) /\
    q = here out ++ [str "ca"; str "IssuerSecretKey"] /\ f q = Some (File b) /\ f' q = Some (File b') /\ b <> b'.
Proof.
  eexists gA, (Ok (str "k", str "pk")), (Some (str "r", str "rp")), (of_list two_dirs), _, (str "iskA"), (str "k"), _.
  split; [apply tree_of_list; vm_compute; reflexivity|]. split; [|split; [reflexivity|split; [reflexivity|split; [|discriminate]]]].
  - unfold ca_keygen. eapply steps_more; [apply s_stat_fail; reflexivity|]. eapply steps_more; [apply s_stat_fail; reflexivity|].
    eapply steps_more; [apply s_mkdir; reflexivity|]. eapply steps_more; [apply s_mkdir; reflexivity|].
    do 5 (eapply steps_more; [apply s_write; reflexivity|]). apply steps_refl.
  - vm_compute. reflexivity.
Qed.
Print Assumptions C57_stat_refuted.

(** Two ca-keygen processes on one directory, without any fault: both succeed, and the secret key of
    one is stored with the public key of the other. *)
Theorem C57_race_refuted : forall isk1 ipk1 rsk1 rpk1 isk2 ipk2 rsk2 rpk2,
  exists out f f', tree f /\ f (here out) = None /\
    both (f, (ca_keygen here out (Ok (isk1, ipk1)) (Some (rsk1, rpk1)), ca_keygen here out (Ok (isk2, ipk2)) (Some (rsk2, rpk2))))
         (f', (Done true, Done true)) /\
    f' (here out ++ [str "ca"; str "IssuerSecretKey"]) = Some (File isk1) /\ f' (here out ++ [str "ca"; str "IssuerPublicKey"]) = Some (File ipk2).
Proof.
  intros. exists gA, (of_list [([], Dir)]). eexists. split; [apply tree_of_list; vm_compute; reflexivity|]. split; [reflexivity|].
  split.
  - unfold ca_keygen.
    do 2 (eapply both_left; [apply s_stat|]; match goal with |- context [match of_list _ ?p with _ => _ end] => change (of_list [([], Dir)] p) with (@None node) end; cbv iota).
    do 2 (eapply both_right; [apply s_stat|]; match goal with |- context [match of_list _ ?p with _ => _ end] => change (of_list [([], Dir)] p) with (@None node) end; cbv iota).
    do 2 (eapply both_right; [apply s_mkdir; reflexivity|]; cbn [must]).
    do 2 (eapply both_left; [apply s_mkdir; reflexivity|]; cbn [must]).
    eapply both_right; [apply s_write; reflexivity|]; cbn [must].
    do 5 (eapply both_left; [apply s_write; reflexivity|]; cbn [must]).
    do 4 (eapply both_right; [apply s_write; reflexivity|]; cbn [must]).
    apply both_refl.
  - split; reflexivity.
Qed.
Print Assumptions C57_race_refuted.

(** ** C56: the directory idemixgen writes is accepted by Setup.
    dlog, with the curve Setup takes when the configuration names none.  The draws avoid the values for
    which a credential or proof is degenerate (probability about 3/r); protobuf reads no fields from the
    empty string; [parse] and [ee_pem] read the PEM encodings ca-keygen writes. *)
Theorem C56_dlog_partial : forall CD C (OK : CurveOk C) (H : hasher C) (T : translator C) (TO : TrOk T) utf8 c_ipk c_ik c_req c_cred c_sig c_nsig c_cri EC (EE : ecenv EC) sha256
    (E : env (dlogU C EC)) h l m d1 d2 resolve parse f fl name (R : IssuerRand C) (A : cadraw C) (rk : ec_sk EC) pk rskraw rpk,
  let X := dlog_scheme H T c_ipk c_ik c_req c_cred c_sig c_nsig c_cri EE sha256 in
  let M := dlog_math T EE sha256 in
  let out := resolve (fl_output fl) in
  let generate := GenerateSignerConfig H T c_ipk c_cred c_cri (EC := EC) sha256 CD (fl_ou fl) (fl_eid fl) (fl_rh fl) A in
  codec_ok (canon_ipk utf8) c_ipk -> codec_ok canon_cred c_cred -> codec_ok canon_cri c_cri -> codec_ok canon_sig c_sig -> codec_ok (fun _ => True) c_nsig ->
  codec_ok (canon_signer utf8) (c_signer CD) -> codec_ok (canon_conf utf8) (c_conf CD) ->
  nothing_is no_ipk_msg c_ipk -> nothing_is no_credential c_cred -> nothing_is no_signature c_sig -> nothing_is no_nymsig c_nsig ->
  Forall utf8 attribute_names -> utf8 [] -> utf8 name -> utf8 (fl_ou fl) -> utf8 (fl_eid fl) -> utf8 (fl_rh fl) ->
  (* revocation keys *)
  (forall d, exists s, ec_sign (e := EC) rk d = Some s) -> parse rskraw = Some rk -> rpk <> [] -> ee_pem EE rpk = Some pk ->
  (* flags and file system *)
  fl_ou fl <> [] -> fl_eid fl <> [] -> fl_cainput fl = [] \/ fl_cainput fl = fl_output fl ->
  tree f -> clear_way f out -> f (out ++ [str "ca"]) = None -> f (out ++ [str "msp"]) = None -> f (out ++ [str "user"]) = None ->
  (* draws *)
  ir_barg1 R <> z0 -> (ir_isk R + ca_e A)%zr <> z0 ->
  credential_exponent R (ca_sk A) (ca_s A) [H (fl_ou fl); zr_of_Z C (if fl_admin fl then 2 else 1); H (fl_eid fl); H (fl_rh fl)] <> z0 -> rd_r1 (dd_sig d2) <> z0 ->
  (* the MSP *)
  ev_aries E = false -> ev_pack E (str "FP256BN_AMCL") = Some (X, M) -> nth_error h l = Some m ->
  exists f1 f2 conf h' m' s,
    exec f (ca_keygen resolve (fl_output fl) (GenerateIssuerKey H T c_ipk R) (Some (rskraw, rpk))) = (f1, true) /\
    exec f1 (signerconfig resolve parse generate fl) = (f2, true) /\
    GetIdemixMspConfigWithType resolve CD f2 (fl_output fl) name IDEMIX = Ok conf /\
    Setup CD E h l d1 d2 (Some conf) = (Ok tt, h') /\
    nth_error h' l = Some m' /\ p_name m' = name /\ GetDefaultSigningIdentity m' = Ok s /\
    ou_id (i_ou (g_identity s)) = fl_ou fl /\ ro_role (i_role (g_identity s)) = (if fl_admin fl then MSPRole_ADMIN else MSPRole_MEMBER) /\
    Validate h' l (IdSigning s) = Ok tt /\
    forall d msg, exists sig, id_Sign h' s d msg = Ok sig /\ id_Verify h' (g_identity s) msg sig = Ok tt.
Proof.
  intros CD C OK H T TO utf8 c_ipk c_ik c_req c_cred c_sig c_nsig c_cri EC EE sha256 E h l m d1 d2 resolve parse f fl name R A rk pk rskraw rpk X M out generate
    CI CC CR CG CN CS CF ZI ZC ZS ZN UN U0 Un Uo Ue Ur SG Pa Nr Pem No Ne In Tr Cw Nca Nmsp Nuser Hb NE ND NZ EA EP L.
  destruct (issuer_files OK H TO CI UN Hb) as (ipk & ipkraw & K1 & K2 & K3 & K4 & K5 & K6).
  set (role := GetRoleMaskFromIdemixRole (if fl_admin fl then ADMIN else MEMBER)).
  assert (Rv : role = (if fl_admin fl then 2 else 1)%Z) by (unfold role; destruct (fl_admin fl); reflexivity).
  rewrite <- Rv in ND. assert (Ir : int32 role) by (rewrite Rv; destruct (fl_admin fl); unfold int32; lia).
  destruct (signer_file OK TO (c_ipk := c_ipk) sha256 CC CR CS No Ne Ir Uo Ue Ur U0 SG NE ND K3 K5 K6) as
    (cfg & sg & cred & Ap & G1 & G2 & Csg & S1 & S2 & S3 & S4 & S5 & S6 & S7 & S8 & S9 & S10 & S11 & S12).
  set (f1 := after_keygen f out (zr_bytes C (ir_isk R)) ipkraw rskraw rpk).
  destruct (after_keygen_reads f out (zr_bytes C (ir_isk R)) ipkraw rskraw rpk) as (R1 & R2 & R3 & R4 & R5). fold f1 in R1, R2, R3, R4, R5.
  set (f2 := after_signer f1 out cfg). destruct (after_signer_reads f1 out cfg) as [R6 R7]. fold f2 in R6, R7.
  set (cf := {| cf_name := name; cf_ipk := ipkraw; cf_signer := Some sg; cf_revpk := rpk; cf_epoch := 0; cf_curve := [] |}).
  assert (Ccf : canon_conf utf8 cf) by (split; [exact Un|split; [exact U0|split; [unfold int64; cbn; lia|exact Csg]]]).
  destruct (CF cf Ccf) as (raw & F1 & F2).
  assert (Ni : ipkraw <> []) by (intros Z; rewrite Z in K3; rewrite (ZI _ K3) in K5; discriminate K5).
  assert (Nc : sc_cred sg <> []) by (intros Z; rewrite Z in S7; rewrite (ZC _ S7) in S10; discriminate S10).
  set (mrole := if checkRole (sc_role sg) ADMIN then MSPRole_ADMIN else MSPRole_MEMBER).
  assert (Mr : mrole = if fl_admin fl then MSPRole_ADMIN else MSPRole_MEMBER) by (unfold mrole; rewrite S3, Rv; destruct (fl_admin fl); reflexivity).
  assert (Rr : getIdemixRoleFromMSPRoleValue mrole = sc_role sg) by (rewrite Mr, S3, Rv; destruct (fl_admin fl); reflexivity).
  rewrite <- S2, <- S3, <- S4 in S11.
  destruct (ready_made OK TO (c_ik := c_ik) (c_req := c_req) d1 CG CR CN EA EP L F2 Ni K4 K6 K5 Nr Pem S1 Nc eq_refl Rr S11 S12 S7 S8 S9 S10 NZ) as [h' SE].
  destruct (@C66_dlog_partial CD C OK H T TO c_ipk c_ik c_req c_cred c_sig c_nsig c_cri EC EE sha256 E h l m d1 d2 IDEMIX raw cf sg h' cred Ap rk [] 0 (ca_wsk A)
              CG CR ltac:(unfold int64; lia) CN ZS ZN) as (m' & s & M1 & M2 & M3 & M4 & M5 & M6 & M7); try assumption; try reflexivity.
  { intros cid p E1 E2. rewrite EA in E1. injection E1 as <-. fold X M. rewrite EP in E2. injection E2 as <-. reflexivity. }
  exists f1, f2, (IDEMIX, raw), h', m', s.
  split; [rewrite K1; apply (exec_keygen (resolve := resolve) _ _ _ _ Tr Cw Nca Nmsp)|].
  split.
  { apply (exec_signerconfig (resolve := resolve) (fl := fl) (isk := zr_bytes C (ir_isk R)) (ipk := ipkraw) (rsk := rskraw) (rpk := rpk) (k := rk) (cfg := cfg)); try assumption.
    - apply after_keygen_clear. exact Cw.
    - unfold f1. change (resolve (fl_output fl)) with out. rewrite after_keygen_user. exact Nuser.
    - unfold f1. change (resolve (fl_output fl)) with out. rewrite after_keygen_user. apply (none_two _ Tr). exact Nuser. }
  split.
  { unfold GetIdemixMspConfigWithType, at2, read_file. cbn [Z.ltb Z.compare IDEMIX negb guard bind]. change (resolve (fl_output fl)) with out.
    rewrite R7, R5. cbn [opt_err bind]. rewrite R7, R4. cbn [opt_err bind]. rewrite R6, G2. cbn [opt_err bind]. fold cf. rewrite F1. reflexivity. }
  split; [exact SE|]. split; [exact M1|]. split; [exact M3|]. split; [exact M2|]. split; [rewrite M4; exact S2|]. split; [rewrite M5; exact Mr|].
  split; [exact M6|exact M7].
Qed.
Print Assumptions C56_dlog_partial.

Definition gcadraw : cadraw tC := {| ca_sk := tsk; ca_ni := f5; ca_rsk := f12; ca_e := f4; ca_s := f6; ca_wsk := f1 |}.
Definition gfl (admin : bool) : flags := {| fl_output := gA; fl_cainput := []; fl_ou := str "ou"; fl_admin := admin; fl_eid := str "id"; fl_rh := str "rh" |}.
Definition gempty : fs := of_list [([], Dir)].
Definition gkeys := GenerateIssuerKey tH tT (tcodec s_ipk) tIR.
Definition ggenerate (fl : flags) := GenerateSignerConfig tH tT (tcodec s_ipk) (tcodec s_cred) (tcodec s_cri) (EC := xEC) bsha mCD (fl_ou fl) (fl_eid fl) (fl_rh fl) gcadraw.
Definition gparse_pem : bytes -> option (ec_sk xEC) := ee_pem xEE.

(** the hypotheses, and the whole run *)
Example C56_example : forall admin : bool,
  codec_ok (canon_ipk (fun _ => True)) (tcodec s_ipk) /\ codec_ok canon_cred (tcodec s_cred) /\ codec_ok canon_cri (tcodec s_cri) /\
  codec_ok canon_sig (tcodec s_sig) /\ codec_ok (fun _ => True) (tcodec s_nsig) /\
  codec_ok (canon_signer (fun _ => True)) (c_signer mCD) /\ codec_ok (canon_conf (fun _ => True)) (c_conf mCD) /\
  nothing_is no_ipk_msg (tcodec s_ipk) /\ nothing_is no_credential (tcodec s_cred) /\ nothing_is no_signature (tcodec s_sig) /\ nothing_is no_nymsig (tcodec s_nsig) /\
  (forall d : bytes, exists s : bytes, ec_sign (e := xEC) (str "k" : ec_sk xEC) d = Some s) /\ gparse_pem (xpem (str "k")) = Some (str "k" : ec_sk xEC) /\
  ee_pem xEE (xpem (str "k")) = Some (str "k" : ec_pk xEC) /\
  tree gempty /\ clear_way gempty (here gA) /\ gempty (here gA ++ [str "ca"]) = None /\ gempty (here gA ++ [str "msp"]) = None /\ gempty (here gA ++ [str "user"]) = None /\
  ir_barg1 tIR <> z0 /\ zadd (ir_isk tIR) (ca_e gcadraw) <> z0 /\
  credential_exponent tIR (ca_sk gcadraw) (ca_s gcadraw) [tH (str "ou"); zr_of_Z tC (if admin then 2 else 1); tH (str "id"); tH (str "rh")] <> z0 /\
  rd_r1 (dd_sig xdraw) <> z0 /\ ev_aries mE = false /\ ev_pack mE (str "FP256BN_AMCL") = Some (xX, xM) /\
  (let f1 := exec gempty (ca_keygen here gA gkeys (Some (xpem (str "k"), xpem (str "k")))) in
   let f2 := exec (fst f1) (signerconfig here gparse_pem (ggenerate (gfl admin)) (gfl admin)) in
   snd f1 = true /\ snd f2 = true /\
   match GetIdemixMspConfigWithType here mCD (fst f2) gA (str "Org1MSP") IDEMIX with
   | Ok conf => fst (Setup mCD mE [m0] 0 xdraw xdraw (Some conf)) = Ok tt
   | _ => False
   end).
Proof.
  intros admin.
  split; [intros x _; apply (tcodec_rt s_ipk_ok)|]. split; [intros x _; apply (tcodec_rt s_cred_ok)|]. split; [intros x _; apply (tcodec_rt s_cri_ok)|].
  split; [intros x _; apply (tcodec_rt s_sig_ok)|]. split; [intros x _; apply (tcodec_rt s_nsig_ok)|].
  split; [intros x _; apply (tcodec_rt s_signer_ok)|]. split; [intros x _; apply (tcodec_rt s_conf_ok)|].
  split; [intros x D; discriminate D|]. split; [intros x D; discriminate D|]. split; [intros x D; discriminate D|]. split; [intros x D; discriminate D|].
  split; [intros d; eexists; reflexivity|]. split; [reflexivity|]. split; [reflexivity|].
  split; [apply tree_of_list; vm_compute; reflexivity|].
  split; [intros [|[|i]] b; discriminate|]. split; [reflexivity|]. split; [reflexivity|]. split; [reflexivity|].
  split; [discriminate|]. split; [vm_compute; discriminate|]. split; [destruct admin; vm_compute; discriminate|]. split; [discriminate|].
  split; [reflexivity|]. split; [reflexivity|].
  cbv zeta. split; [vm_compute; reflexivity|]. split; [destruct admin; vm_compute; reflexivity|].
  destruct admin; vm_compute; reflexivity.
Qed.

(** The configuration read from the directory names no curve, whatever --curve was: Setup takes
    FP256BN_AMCL (and BLS12_381_BBS for an aries MSP, where idemixgen's default is FP256BN_AMCL). *)
Theorem C56_no_curve : forall utf8 U CD (E : env U) resolve f dir name ty conf,
  codec_ok (canon_conf utf8) (c_conf CD) -> utf8 name -> utf8 [] ->
  (forall raw sg, dec (c_signer CD) raw = Some sg -> canon_signer utf8 sg) ->
  GetIdemixMspConfigWithType resolve CD f dir name ty = Ok conf ->
  exists cf, dec (c_conf CD) (snd conf) = Some cf /\
    configured_curve (ev_aries E) (cf_curve cf) = Some (if ev_aries E then str "BLS12_381_BBS" else str "FP256BN_AMCL").
Proof.
  intros utf8 U CD E resolve f dir name ty conf CF Un U0 CS G. unfold GetIdemixMspConfigWithType in G.
  apply bind_ok in G. destruct G as [[] [_ G]]. apply bind_ok in G. destruct G as [ipk [_ G]]. apply bind_ok in G. destruct G as [rpk [_ G]].
  apply bind_ok in G. destruct G as [sg [Gs G]]. apply bind_ok in G. destruct G as [b [Gb G]]. injection G as <-. cbn [snd].
  match type of Gb with opt_err (enc _ ?c) = _ => destruct (CF c) as (b' & B1 & B2) end.
  - split; [exact Un|]. split; [exact U0|]. split; [unfold int64; cbn; lia|]. cbn [cf_signer]. destruct sg as [sg|]; [|exact I].
    destruct (read_file f _) as [raw|]; [|discriminate Gs]. apply bind_ok in Gs. destruct Gs as [s [Gs1 Gs]]. injection Gs as ->.
    destruct (dec (c_signer CD) raw) eqn:D; [|discriminate Gs1]. injection Gs1 as ->. exact (CS _ _ D).
  - rewrite B1 in Gb. injection Gb as <-. eexists. split; [exact B2|]. cbn [cf_curve]. destruct (ev_aries E); reflexivity.
Qed.
Print Assumptions C56_no_curve.

(** With another --curve (here one with the encodings of the gurvy curves) both commands succeed and
    the directory is well formed, but Setup refuses the configuration read from it. *)
Definition gIR : IssuerRand toy_gurvy :=
  {| ir_isk := f7 : Zr toy_gurvy; ir_attrs := fun i => nth i [f5; f11; f13; f17] f1 : Zr toy_gurvy; ir_hsk := f19; ir_hrand := f23; ir_barg1 := f2; ir_r := f29 |}.
Definition gcadraw2 : cadraw toy_gurvy := {| ca_sk := f3 : Zr toy_gurvy; ca_ni := f5; ca_rsk := f12; ca_e := f4; ca_s := f6; ca_wsk := f1 |}.
Theorem C56_curve_refuted : forall admin,
  gurvy_style toy_gurvy /\
  let fl := gfl admin in
  let keys := GenerateIssuerKey (toy_hash [] []) (Gurvy toy_gurvy) (tcodec s_ipk) gIR in
  let generate := GenerateSignerConfig (toy_hash [] []) (Gurvy toy_gurvy) (tcodec s_ipk) (tcodec s_cred) (tcodec s_cri) (EC := xEC) bsha mCD (fl_ou fl) (fl_eid fl) (fl_rh fl) gcadraw2 in
  let f1 := exec gempty (ca_keygen here gA keys (Some (xpem (str "k"), xpem (str "k")))) in
  let f2 := exec (fst f1) (signerconfig here gparse_pem generate fl) in
  snd f1 = true /\ snd f2 = true /\
  match GetIdemixMspConfigWithType here mCD (fst f2) gA (str "Org1MSP") IDEMIX with
  | Ok conf => fst (Setup mCD mE [m0] 0 xdraw xdraw (Some conf)) = Err
  | _ => False
  end.
Proof.
  intros admin. split; [split; reflexivity|]. cbv zeta. split; [vm_compute; reflexivity|]. split; [destruct admin; vm_compute; reflexivity|].
  destruct admin; vm_compute; reflexivity.
Qed.
Print Assumptions C56_curve_refuted.
