(** * The run of idemixgen and the MSP with the encodings of the code (C56)
    C56 is about arbitrary codecs; with the protobuf encoding of Proto.v nothing has to be assumed about them. *)
From Verif Require Import Base Curve Algebra Spec Dlog DlogSpec Translator TranslatorFacts Bridge BridgeFacts Bbs BbsSpec Aries AriesSpec Csp CspSpec CspInst RunSpec
  Msp MspSpec Idemixgen GenSpec Proto ProtoFacts PropsGen PropsMspAries PropsProto.
Unset Strict Implicit.
Local Open Scope zr_scope.

Theorem C56_dlog_wire_partial : forall C (OK : CurveOk C) (H : hasher C) (T : translator C) (TO : TrOk T) EC (EE : ecenv EC) sha256
    (E : env (dlogU C EC)) h l m d1 d2 resolve parse f fl name (R : IssuerRand C) (A : cadraw C) (rk : ec_sk EC) pk rskraw rpk,
  let X := dlog_scheme H T pb_ipk pb_ik pb_req pb_cred pb_sig pb_nsig pb_cri EE sha256 in
  let M := dlog_math T EE sha256 in
  let out := resolve (fl_output fl) in
  let generate := GenerateSignerConfig H T pb_ipk pb_cred pb_cri (EC := EC) sha256 pb_msp (fl_ou fl) (fl_eid fl) (fl_rh fl) A in
  utf8 name -> utf8 (fl_ou fl) -> utf8 (fl_eid fl) -> utf8 (fl_rh fl) ->
  (* revocation keys *)
  (forall d, exists s, ec_sign (e := EC) rk d = Some s) -> parse rskraw = Some rk -> rpk <> [] -> ee_pem EE rpk = Some pk ->
  (* flags and file system *)
  fl_ou fl <> [] -> fl_eid fl <> [] -> fl_cainput fl = [] \/ fl_cainput fl = fl_output fl ->
  tree f -> clear_way f out -> f (out ++ [str "ca"]) = None -> f (out ++ [str "msp"]) = None -> f (out ++ [str "user"]) = None ->
  (* draws *)
  ir_barg1 R <> z0 -> (ir_isk R + ca_e A)%zr <> z0 ->
  credential_exponent R (ca_sk A) (ca_s A) [H (fl_ou fl); zr_of_Z C (if fl_admin fl then 2 else 1); H (fl_eid fl); H (fl_rh fl)] <> z0 -> rd_r1 (dd_sig d2) <> z0 ->
  (* the MSP *)
  ev_aries E = false -> ev_pack E (str "FP256BN_AMCL") = Some (X, M) -> nth_error h l = Some m ->
  exists f1 f2 conf h' m' s,
    exec f (ca_keygen resolve (fl_output fl) (GenerateIssuerKey H T pb_ipk R) (Some (rskraw, rpk))) = (f1, true) /\
    exec f1 (signerconfig resolve parse generate fl) = (f2, true) /\
    GetIdemixMspConfigWithType resolve pb_msp f2 (fl_output fl) name IDEMIX = Ok conf /\
    Setup pb_msp E h l d1 d2 (Some conf) = (Ok tt, h') /\
    nth_error h' l = Some m' /\ p_name m' = name /\ GetDefaultSigningIdentity m' = Ok s /\
    ou_id (i_ou (g_identity s)) = fl_ou fl /\ ro_role (i_role (g_identity s)) = (if fl_admin fl then MSPRole_ADMIN else MSPRole_MEMBER) /\
    Validate h' l (IdSigning s) = Ok tt /\
    forall d msg, exists sig, id_Sign h' s d msg = Ok sig /\ id_Verify h' (g_identity s) msg sig = Ok tt.
Proof.
  intros. destruct C78_read_back as ((L1 & _ & L3 & L4 & L5 & L6 & L7) & _ & (_ & L8 & L9 & _) & (N1 & N2 & N3 & N4 & N5 & N6 & _) & U1 & U2).
  eapply (@C56_dlog_partial pb_msp C OK H T TO utf8 pb_ipk pb_ik pb_req pb_cred pb_sig pb_nsig pb_cri EC EE sha256); eauto; intros ? Q; congruence.
Qed.
Print Assumptions C56_dlog_wire_partial.

Theorem C56_aries_wire_partial : forall C (OK : CurveOk C) (HG : bytes -> G1 C) (H : hasher C) hkdf EC (EE : ecenv EC) sha256 (T : translator C)
    (E : env (ariesU C EC)) h l m d1 d2 resolve parse f fl name seed key (A : caadraw C) (rk : ec_sk EC) pk rskraw rpk,
  let X := aries_scheme HG H hkdf pb_acred pb_asig pb_ansig pb_acri EE sha256 in
  let M := aries_math T EE sha256 in
  let out := resolve (fl_output fl) in
  let generate := GenerateSignerConfigAries HG H pb_acred pb_acri (EC := EC) sha256 pb_msp (fl_ou fl) (fl_eid fl) (fl_rh fl) A in
  bls_sizes C ->
  utf8 name -> utf8 (fl_ou fl) -> utf8 (fl_eid fl) -> utf8 (fl_rh fl) ->
  (* revocation keys *)
  (forall d, exists s, ec_sign (e := EC) rk d = Some s) -> parse rskraw = Some rk -> rpk <> [] -> ee_pem EE rpk = Some pk ->
  (* flags and file system *)
  fl_ou fl <> [] -> fl_eid fl <> [] -> fl_cainput fl = [] \/ fl_cainput fl = fl_output fl ->
  tree f -> clear_way f out -> f (out ++ [str "ca"]) = None -> f (out ++ [str "msp"]) = None -> f (out ++ [str "user"]) = None ->
  (* draws *)
  length seed = 32 -> arNewKey HG H hkdf attribute_names seed = Ok key -> zadd (is_sk key) (aa_e A) <> z0 -> pr_r1 (rn_pok (ad_sig d2)) <> z0 ->
  (* the MSP *)
  ev_aries E = true -> ev_pack E (str "BLS12_381_BBS") = Some (X, M) -> nth_error h l = Some m ->
  exists f1 f2 conf h' m' s,
    exec f (ca_keygen resolve (fl_output fl) (GenerateIssuerKeyAries HG H hkdf seed) (Some (rskraw, rpk))) = (f1, true) /\
    exec f1 (signerconfig resolve parse generate fl) = (f2, true) /\
    GetIdemixMspConfigWithType resolve pb_msp f2 (fl_output fl) name IDEMIX_ARIES = Ok conf /\
    Setup pb_msp E h l d1 d2 (Some conf) = (Ok tt, h') /\
    nth_error h' l = Some m' /\ p_name m' = name /\ GetDefaultSigningIdentity m' = Ok s /\
    ou_id (i_ou (g_identity s)) = fl_ou fl /\ ro_role (i_role (g_identity s)) = (if fl_admin fl then MSPRole_ADMIN else MSPRole_MEMBER) /\
    Validate h' l (IdSigning s) = Ok tt /\
    forall d msg, exists sig, id_Sign h' s d msg = Ok sig /\ id_Verify h' (g_identity s) msg sig = Ok tt.
Proof.
  intros. destruct C78_read_back as (_ & (L1 & L2 & L3 & L4) & (_ & L8 & L9 & _) & (_ & _ & _ & _ & _ & _ & N1 & N2 & N3 & N4) & _ & U2).
  eapply (@C56_aries_partial pb_msp C OK HG H hkdf pb_acred pb_asig pb_ansig pb_acri EC EE sha256 T utf8); eauto; intros ? Q; congruence.
Qed.
Print Assumptions C56_aries_wire_partial.

(** the run on the toy curve, in protobuf *)
From Verif Require Import Toy ToyDlog ToyCodec ToyCsp ToyMsp PropsBridge.
Definition vX := dlog_scheme tH tT pb_ipk pb_ik pb_req pb_cred pb_sig pb_nsig pb_cri xEE bsha.
Definition vE : env xU := {| ev_aries := false; ev_pack := fun id => if bytes_eqb id (str "FP256BN_AMCL") then Some (vX, xM) else None |}.
Example C56_wire_example : forall admin : bool,
  utf8 (str "Org1MSP") /\ utf8 (fl_ou (gfl admin)) /\ utf8 (fl_eid (gfl admin)) /\ utf8 (fl_rh (gfl admin)) /\ ev_pack vE (str "FP256BN_AMCL") = Some (vX, xM) /\
  (let generate := GenerateSignerConfig tH tT pb_ipk pb_cred pb_cri (EC := xEC) bsha pb_msp (str "ou") (str "id") (str "rh") gcadraw in
   let f1 := exec gempty (ca_keygen here gA (GenerateIssuerKey tH tT pb_ipk tIR) (Some (xpem (str "k"), xpem (str "k")))) in
   let f2 := exec (fst f1) (signerconfig here gparse_pem generate (gfl admin)) in
   snd f1 = true /\ snd f2 = true /\
   match GetIdemixMspConfigWithType here pb_msp (fst f2) gA (str "Org1MSP") IDEMIX with
   | Ok conf => fst (Setup pb_msp vE [m0] 0 xdraw xdraw (Some conf)) = Ok tt
   | _ => False
   end).
Proof.
  intro admin. do 5 (split; [reflexivity|]). cbv zeta. split; [vm_compute; reflexivity|]. split; [destruct admin; vm_compute; reflexivity|].
  destruct admin; vm_compute; reflexivity.
Qed.
