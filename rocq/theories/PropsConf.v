(** * Configurations on disk (C86, C87) and what is left of the accessors of MSPs and identities (C53, C73) *)
From Verif Require Import Base Curve Algebra Spec Bbs BbsSpec Aries AriesSpec ToyBbs ToyAries Dlog DlogSpec DlogComplete DlogAudit Bridge BridgeFacts
  Translator TranslatorFacts Toy ToyDlog ToyCodec PropsBridge Csp CspInst CspSpec CspFacts PropsCsp ToyCsp RunSpec RunFacts
  Msp MspId MspSpec MspFacts ToyMsp PropsMsp PropsMspId Idemixgen GenSpec GenFacts GenDlog PropsGen PropsMspAries.
Unset Strict Implicit.

(** ** C53: well-formedness *)
(** IsWellFormed accepts exactly the identities whose inner bytes can be decoded; every identity the MSP reads is one of
    them, and so is everything Serialize writes. *)
Theorem C53_wellformed : forall U CD utf8 (X : scheme U) (M : mathops U) (h : heap U) l (m : msp U) ipk r,
  codecs_ok utf8 CD -> nth_error h l = Some m -> ready X M m ipk r ->
  (forall s, IsWellFormed CD (Some s) = Ok tt <-> exists ii, dec (c_ii CD) (si_bytes s) = Some ii) /\
  (forall s, IsWellFormed CD (Some s) <> Panic) /\
  (forall raw i, DeserializeIdentity CD X M l m raw = Ok i -> exists s, dec (c_si CD) raw = Some s /\ IsWellFormed CD (Some s) = Ok tt).
Proof.
  intros U CD utf8 X M h l m ipk r CO L R. split; [|split].
  - intro s. unfold IsWellFormed. cbn [deref bind]. destruct (dec (c_ii CD) (si_bytes s)) as [ii|]; cbn [opt_err bind].
    + split; [intros _; exists ii; reflexivity|reflexivity].
    + split; [discriminate|intros [ii E]; discriminate E].
  - intro s. unfold IsWellFormed. cbn [deref bind]. destruct (dec (c_ii CD) (si_bytes s)); discriminate.
  - intros raw i E. unfold DeserializeIdentity in E. destruct (dec (c_si CD) raw) as [s|]; [|discriminate E]. cbn [opt_err bind] in E.
    exists s. split; [reflexivity|]. apply bind_ok in E. destruct E as [_ [_ E]]. unfold DeserializeIdentityInternal in E.
    unfold IsWellFormed. cbn [deref bind]. destruct (dec (c_ii CD) (si_bytes s)); [reflexivity|discriminate E].
Qed.
Print Assumptions C53_wellformed.

(** ** C73: MSPs and identities *)
(** GetVersion is the version the MSP was made with, whatever happens to it later.  GetType is the idemix type for every
    MSP, also for an aries MSP, whose configurations have another type. *)
Theorem C73_msp : forall U CD (E : nat -> env U) (versions : list Z) (events : list (event U)) h ids,
  fold_left (after CD E) events (map (NewIdemixMsp U) versions, []) = (h, ids) ->
  length h = length versions /\
  forall l m v, nth_error versions l = Some v -> nth_error h l = Some m -> msp_GetVersion m = v /\ msp_GetType m = 1%Z.
Proof.
  intros U CD E versions events.
  assert (G : forall events (h0 : heap U) ids0 h ids, fold_left (after CD E) events (h0, ids0) = (h, ids) ->
    map (fun m => p_version m) h = map (fun m => p_version m) h0).
  { clear events. induction events as [|e events IH]; intros h0 ids0 h ids F.
    - cbn [fold_left] in F. injection F as <- <-. reflexivity.
    - cbn [fold_left] in F. destruct (after CD E (h0, ids0) e) as [h1 ids1] eqn:A. rewrite (IH _ _ _ _ F). clear F IH.
      destruct e as [l d1 d2 conf|l|l X M raw]; cbn [after] in A.
      + injection A as <- _. unfold Setup. destruct (nth_error h0 l) as [m|] eqn:L; [|reflexivity].
        destruct (setup_at CD (E l) l m d1 d2 conf) as [r m'] eqn:S. destruct (setup_keeps S) as [V _]. cbn [snd].
        clear S. revert l L. induction h0 as [|x h0 IH]; intros l L; [reflexivity|]. destruct l as [|l]; cbn [put map].
        * cbn in L. injection L as <-. rewrite V. reflexivity.
        * f_equal. exact (IH l L).
      + destruct (let* m := deref (nth_error h0 l) in GetDefaultSigningIdentity m); injection A as <- _; reflexivity.
      + destruct (let* m := deref (nth_error h0 l) in DeserializeIdentity CD X M l m raw); injection A as <- _; reflexivity. }
  intros h ids F. apply G in F. rewrite map_map in F.
  assert (V : map (fun m : msp U => p_version m) h = versions) by (rewrite F; apply map_id).
  split; [rewrite <- V, map_length; reflexivity|]. intros l m v N L. split; [|reflexivity].
  rewrite <- V, nth_error_map, L in N. injection N as N. exact N.
Qed.
Print Assumptions C73_msp.

(** After a successful Setup the MSP is named as the configuration says. *)
Theorem C73_name : forall U CD (E : env U) h l d1 d2 ty raw h',
  Setup CD E h l d1 d2 (Some (ty, raw)) = (Ok tt, h') ->
  exists cf m', dec (c_conf CD) raw = Some cf /\ nth_error h' l = Some m' /\ msp_GetIdentifier m' = Ok (cf_name cf).
Proof.
  intros U CD E h l d1 d2 ty raw h' S. unfold Setup in S. destruct (nth_error h l) as [m|] eqn:L; [|discriminate S].
  destruct (setup_at CD E l m d1 d2 (Some (ty, raw))) as [r m'] eqn:A. injection S as -> <-.
  assert (P : nth_error (put h l m') l = Some m').
  { clear A. revert l L. induction h as [|x h IH]; intros l L; [destruct l; discriminate L|]. destruct l as [|l]; [reflexivity|]. exact (IH l L). }
  destruct (setup_renames A) as [[_ N]|(ty' & raw' & cf & Q & D & NM & _)].
  - exfalso. specialize (N ty raw eq_refl). unfold setup_at in A. rewrite N in A. discriminate A.
  - injection Q as <- <-. exists cf, m'. split; [exact D|]. split; [exact P|]. unfold msp_GetIdentifier. rewrite NM. reflexivity.
Qed.
Print Assumptions C73_name.

(** Validate of an identity is the check of its proof, under the keys of the identity's MSP, for the unit and the role the
    identity shows. *)
Theorem C73_validate : forall U (X : scheme U) (M : mathops U) (h : heap U) (i : identity U) m ipk r,
  nth_error h (i_msp i) = Some m -> ready X M m ipk r ->
  (id_Validate h i = Ok tt <-> i_proof i <> [] /\
     s_verify X ipk (i_proof i) [] (claims (ou_id (i_ou i)) (ro_role (i_role i))) 3 2 0 (Some r) 0 Basic None = Ok tt).
Proof.
  intros U X M h i m ipk r L R. rewrite <- (verifyProof_ready i R). unfold id_Validate, Validate, GetMSPIdentifier. rewrite L. cbn [deref bind].
  rewrite L. cbn [deref bind]. rewrite bytes_eqb_refl. cbn [guard bind]. reflexivity.
Qed.
Print Assumptions C73_validate.

(** The public version of a signing identity is an identity that cannot sign, with the same identifier, units, bytes,
    validity and verdicts. *)
Theorem C73_public_version : forall U CD (X : scheme U) (M : mathops U) (h : heap U) (s : signing U),
  exists i, id_GetPublicVersion s = IdPlain i /\ id_GetIdentifier i = id_GetIdentifier (g_identity s) /\
    id_GetOrganizationalUnits X M h i = id_GetOrganizationalUnits X M h (g_identity s) /\ Serialize CD h i = Serialize CD h (g_identity s) /\
    (forall l, Validate h l (id_GetPublicVersion s) = Validate h l (IdSigning s)) /\
    (forall msg sig, id_Verify h i msg sig = id_Verify h (g_identity s) msg sig).
Proof. intros U CD X M h s. exists (g_identity s). repeat (split; [reflexivity|]). reflexivity. Qed.
Print Assumptions C73_public_version.

Example C73_more_example : (exists ipk r, ready xX xM m1 ipk r) /\ id_Validate mheap mid = Ok tt /\
  id_Validate mheap {| i_nym := i_nym mid; i_raw := i_raw mid; i_msp := i_msp mid; i_id := i_id mid; i_role := i_role mid;
                       i_ou := {| ou_mspid := mname; ou_id := str "ou2"; ou_certifiers := ou_certifiers (i_ou mid) |}; i_proof := i_proof mid |} = Err /\
  IsWellFormed mCD (Some {| si_mspid := str "x"; si_bytes := str "not an identity" |}) = Err.
Proof. split; [exact toy_ready|]. split; [vm_compute; reflexivity|]. split; vm_compute; reflexivity. Qed.

(** ** C86: reading a directory *)
(** GetIdemixMspConfigWithType succeeds exactly if the type is not negative, both public keys can be read, and the signer
    configuration is absent or can be decoded; the configuration then holds exactly what was read.  It never panics. *)
Theorem C86_reading : forall resolve CD (f : fs) (dir name : bytes) (ty : Z),
  let file d n := f (resolve dir ++ [str d; str n]) in
  GetIdemixMspConfigWithType resolve CD f dir name ty <> Panic /\
  forall conf, GetIdemixMspConfigWithType resolve CD f dir name ty = Ok conf <->
    (0 <= ty)%Z /\ exists ipk rpk signer raw,
      file "msp"%string "IssuerPublicKey"%string = Some (File ipk) /\ file "msp"%string "RevocationPublicKey"%string = Some (File rpk) /\
      match signer with
      | Some sg => exists b, file "user"%string "SignerConfig"%string = Some (File b) /\ dec (c_signer CD) b = Some sg
      | None => forall b, file "user"%string "SignerConfig"%string <> Some (File b)
      end /\
      enc (c_conf CD) {| cf_name := name; cf_ipk := ipk; cf_signer := signer; cf_revpk := rpk; cf_epoch := 0; cf_curve := [] |} = Some raw /\
      conf = (ty, raw).
Proof.
  intros resolve CD f dir name ty file. unfold GetIdemixMspConfigWithType, read_file, at2.
  change (f (resolve dir ++ [n_msp; n_ipk])) with (file "msp"%string "IssuerPublicKey"%string).
  change (f (resolve dir ++ [n_msp; n_revpk])) with (file "msp"%string "RevocationPublicKey"%string).
  change (f (resolve dir ++ [n_user; n_signer])) with (file "user"%string "SignerConfig"%string). split.
  - destruct (ty <? 0)%Z; [discriminate|]. cbn [negb guard bind].
    destruct (file "msp"%string "IssuerPublicKey"%string) as [[|ipk]|]; cbn [opt_err bind]; try discriminate.
    destruct (file "msp"%string "RevocationPublicKey"%string) as [[|rpk]|]; cbn [opt_err bind]; try discriminate.
    destruct (file "user"%string "SignerConfig"%string) as [[|b]|]; cbn [opt_err bind]; try (destruct (enc _ _); discriminate).
    destruct (dec (c_signer CD) b); cbn [opt_err bind]; [|discriminate]. destruct (enc _ _); discriminate.
  - intro conf. split.
    + intro E. apply bind_ok in E. destruct E as [u [G E]]. assert (G' : negb (ty <? 0)%Z = true) by (destruct (negb (ty <? 0)%Z); [reflexivity|discriminate G]). split; [lia|].
      destruct (file "msp"%string "IssuerPublicKey"%string) as [[|ipk]|]; cbn [opt_err bind] in E; try discriminate E.
      destruct (file "msp"%string "RevocationPublicKey"%string) as [[|rpk]|]; cbn [opt_err bind] in E; try discriminate E.
      apply bind_ok in E. destruct E as [sg [S E]]. apply bind_ok in E. destruct E as [raw [R E]].
      exists ipk, rpk, sg, raw. split; [reflexivity|]. split; [reflexivity|]. split.
      * destruct (file "user"%string "SignerConfig"%string) as [[|b]|]; try (injection S as <-; intro; discriminate).
        destruct (dec (c_signer CD) b) as [s|] eqn:D; [|discriminate S]. injection S as <-. exists b. split; [reflexivity|exact D].
      * split; [destruct (enc _ _); [injection R as ->; reflexivity|discriminate R]|]. injection E as <-. reflexivity.
    + intros [G (ipk & rpk & sg & raw & F1 & F2 & F3 & R & ->)]. rewrite F1, F2. replace (ty <? 0)%Z with false by lia. cbn [negb guard opt_err bind].
      destruct sg as [sg|].
      * destruct F3 as [b [F3 D]]. rewrite F3, D. cbn [opt_err bind]. rewrite R. reflexivity.
      * destruct (file "user"%string "SignerConfig"%string) as [[|b]|]; [|destruct (F3 b eq_refl)|]; cbn [opt_err bind]; rewrite R; reflexivity.
Qed.
Print Assumptions C86_reading.

Definition g_after (admin : bool) : fs :=
  fst (exec (fst (exec gempty (ca_keygen here gA gkeys (Some (xpem (str "k"), xpem (str "k")))))) (signerconfig here gparse_pem (ggenerate (gfl admin)) (gfl admin))).
Example C86_example :
  is_ok (GetIdemixMspConfigWithType here mCD (g_after true) gA (str "Org1MSP") IDEMIX) = true /\
  is_ok (GetIdemixMspConfigWithType here mCD (g_after true) gA (str "Org1MSP") (-1)) = false /\
  is_ok (GetIdemixMspConfigWithType here mCD gempty gA (str "Org1MSP") IDEMIX) = false.
Proof. split; [|split]; vm_compute; reflexivity. Qed.

(** ** C87: what a generated signer configuration contains *)
Lemma not_empty (b : bytes) : bytes_eqb b [] = false -> b <> [].
Proof. intros E ->. discriminate E. Qed.

(** Full claim: a signer configuration is only written for a non-empty organizational unit and enrollment id; it holds the
    unit, role, enrollment id and revocation handle asked for and a credential on them that verifies for the user secret in
    it under the issuer public key it was made for.
    dlog: proved when the issuer secret key belongs to the public key ([b_w B = g2^isk]) and the credential's exponent is
    drawn such that [isk + e] is not zero.  Missing, because false: other secret keys, see below. *)
Theorem C87_dlog_partial : forall CD C (OK : CurveOk C) (H : hasher C) (T : translator C) (TO : TrOk T) utf8 c_ipk c_cred c_cri EC sha256
    ou eid rh (A : cadraw C) role (isk : Zr C) ipkraw (rk : ec_sk EC) b,
  codec_ok (canon_signer utf8) (c_signer CD) -> codec_ok canon_cred c_cred ->
  utf8 ou -> utf8 eid -> utf8 rh -> utf8 [] -> int32 role ->
  GenerateSignerConfig H T c_ipk c_cred c_cri sha256 CD ou eid rh A role (zr_bytes C isk) ipkraw rk = Ok b ->
  ou <> [] /\ eid <> [] /\
  exists sg ipk, dec (c_signer CD) b = Some sg /\ dec c_ipk ipkraw = Some ipk /\
    sc_ou sg = ou /\ sc_role sg = role /\ sc_eid sg = eid /\ sc_rh sg = rh /\ sc_sk sg = zr_bytes C (ca_sk A) /\ sc_curve sg = [] /\
    forall B, ipk_bases T ipk B -> b_w B = genG2 C ⊗ isk -> zadd isk (ca_e A) <> z0 -> length (ip_names ipk) <= length (b_attrs B) ->
      brCredVerify H T c_cred (Some (ca_sk A)) (Some (Some ipk)) (sc_cred sg) (gen_attrs ou role eid rh) = Ok tt.
Proof.
  intros CD C OK H T TO utf8 c_ipk c_cred c_cri EC sha256 ou eid rh A role isk ipkraw rk b CS CC Uo Ue Ur U0 Ir G. unfold GenerateSignerConfig in G.
  destruct (bytes_eqb ou []) eqn:No; [discriminate G|]. destruct (bytes_eqb eid []) eqn:Ne; [discriminate G|]. cbn [negb guard bind] in G.
  split; [exact (not_empty No)|]. split; [exact (not_empty Ne)|].
  destruct (dec c_ipk ipkraw) as [ipk|]; [|discriminate G]. cbn [opt_err bind] in G.
  apply bind_ok in G. destruct G as [req [Q G]]. apply bind_ok in G. destruct G as [cred [D G]]. apply bind_ok in G. destruct G as [craw [S1 G]].
  apply bind_ok in G. destruct G as [cri [_ G]]. apply bind_ok in G. destruct G as [criraw [_ G]].
  set (sg := {| sc_cred := craw; sc_sk := _ |}) in G.
  assert (Csg : canon_signer utf8 sg) by (repeat (split; [assumption|]); exact Ir).
  destruct (CS _ Csg) as (b' & G1 & G2). rewrite G1 in G. injection G as ->.
  exists sg, ipk. split; [exact G2|]. split; [reflexivity|]. do 6 (split; [reflexivity|]). intros B HB W NE LB.
  set (vals := [H ou; zr_of_int C role; H eid; H rh]) in *. set (nonce := zr_bytes C (ca_ni A)) in *.
  assert (Ln : length nonce = scalar_size C) by apply (ok_zr_len OK).
  destruct (@credRequest_ok C OK H T TO (ca_sk A) nonce ipk (ca_rsk A) _ HB ltac:(lia)) as (req' & Q1 & Q2 & Q3 & Q4).
  change (newCredRequest H T (ca_sk A) (@Some bytes nonce) ipk (ca_rsk A) = Ok req') in Q1.
  rewrite Q in Q1. apply (f_equal (fun r => match r with Ok x => x | _ => req end)) in Q1. cbv beta iota in Q1. subst req'.
  set (key := {| ik_isk := zr_bytes C isk; ik_ipk := Some ipk |}) in *.
  assert (Lv : length vals = length (ip_names ipk)).
  { unfold newCredential in D. cbn [deref bind ik_ipk key] in D. apply bind_ok in D. destruct D as [? [_ D]]. apply bind_ok in D. destruct D as [? [D _]].
    destruct (Nat.eqb_spec (length vals) (length (ip_names ipk))); [assumption|discriminate D]. }
  destruct (@newCredential_ok C OK H T TO key ipk B isk req (ca_sk A) vals (ca_e A) (ca_s A) eq_refl eq_refl HB W Q2 Q3 Lv ltac:(lia) NE) as (cred' & Ap & D1 & D2 & D3 & D4).
  rewrite D in D1. apply (f_equal (fun r => match r with Ok x => x | _ => cred end)) in D1. cbv beta iota in D1. subst cred'.
  assert (At : cr_attrs cred = map (fun a => Some (zr_bytes C a)) vals) by exact (newCredential_canonical D).
  assert (Ccred : canon_cred cred).
  { unfold canon_cred. rewrite At. apply Forall_forall. intros o Ho. apply in_map_iff in Ho. destruct Ho as (i & <- & _). discriminate. }
  destruct (CC _ Ccred) as (craw' & S1' & S2). rewrite S1' in S1. injection S1 as ->.
  apply (proj2 (recover_ok _ _)). cbn [sc_cred sg]. rewrite S2. cbn [opt_err bind].
  rewrite (proj2 (attrs_match_iff H cred _ 0)); [exact D2|].
  intros i a Hi. right. cbn [Nat.add]. rewrite At.
  destruct i as [|[|[|[|i]]]]; cbn in Hi; [injection Hi as <-..|destruct i; discriminate Hi]; eexists _, _; (split; [reflexivity|split; [reflexivity|reflexivity]]).
Qed.
Print Assumptions C87_dlog_partial.

Definition c_ipkraw : bytes := match gkeys with Ok (_, p) => p | _ => [] end.
Definition c_config (isk : Zr tC) (ou eid : bytes) : res bytes :=
  GenerateSignerConfig tH tT (tcodec s_ipk) (tcodec s_cred) (tcodec s_cri) (EC := xEC) bsha mCD ou eid (str "rh") gcadraw 2 (zr_bytes tC isk) c_ipkraw (str "k" : ec_sk xEC).
(** does the credential in a configuration verify under the issuer key it was made for *)
Definition c_valid (b : bytes) : bool :=
  match dec (c_signer mCD) b, dec (tcodec s_ipk) c_ipkraw with
  | Some sg, Some ipk => is_ok (brCredVerify tH tT (tcodec s_cred) (Some (ca_sk gcadraw)) (Some (Some ipk)) (sc_cred sg) (gen_attrs (str "ou") 2 (str "id") (str "rh")))
  | _, _ => false
  end.

Example C87_dlog_example : int32 2 /\ ir_isk tIR <> f2 /\
  match c_config (ir_isk tIR) (str "ou") (str "id") with Ok b => c_valid b = true | _ => False end /\
  c_config (ir_isk tIR) (str "ou") [] = Err /\ c_config (ir_isk tIR) [] (str "id") = Err.
Proof. split; [unfold int32; lia|]. split; [discriminate|]. split; [vm_compute; reflexivity|]. split; vm_compute; reflexivity. Qed.

(** With a secret key that does not belong to the public key a configuration is written all the same, and its credential
    does not verify. *)
Theorem C87_dlog_refuted : exists isk b, c_config isk (str "ou") (str "id") = Ok b /\ c_valid b = false.
Proof.
  assert (E : match c_config f2 (str "ou") (str "id") with Ok b => negb (c_valid b) | _ => false end = true) by (vm_compute; reflexivity).
  exists f2. destruct (c_config f2 (str "ou") (str "id")) as [b| |]; [|discriminate E|discriminate E].
  exists b. split; [reflexivity|]. destruct (c_valid b); [discriminate E|reflexivity].
Qed.
Print Assumptions C87_dlog_refuted.

(** aries: the credential of every configuration that is written verifies under the public key that belongs to the secret
    key.  Partial: the public key in the file is not looked at. *)
Theorem C87_aries_partial : forall CD C (OK : CurveOk C) (HG : bytes -> G1 C) (H : hasher C) utf8 c_cred c_cri EC sha256
    ou eid rh (A : caadraw C) role iskraw ipkraw (rk : ec_sk EC) b,
  codec_ok (canon_signer utf8) (c_signer CD) -> utf8 ou -> utf8 eid -> utf8 rh -> utf8 [] -> int32 role ->
  GenerateSignerConfigAries HG H c_cred c_cri sha256 CD ou eid rh A role iskraw ipkraw rk = Ok b ->
  ou <> [] /\ eid <> [] /\
  exists sg key, dec (c_signer CD) b = Some sg /\ arNewKeyFromBytes HG iskraw [str "OU"; str "Role"; str "EnrollmentID"; str "RevocationHandle"] = Ok key /\
    sc_ou sg = ou /\ sc_role sg = role /\ sc_eid sg = eid /\ sc_rh sg = rh /\ sc_sk sg = zr_bytes C (aa_sk A) /\ sc_curve sg = [] /\
    arCredVerify H c_cred (aa_sk A) (Some (Some (is_pub key))) (sc_cred sg) (gen_attrs ou role eid rh) = Ok tt.
Proof.
  intros CD C OK HG H utf8 c_cred c_cri EC sha256 ou eid rh A role iskraw ipkraw rk b CS Uo Ue Ur U0 Ir G. unfold GenerateSignerConfigAries in G.
  destruct (bytes_eqb ou []) eqn:No; [discriminate G|]. destruct (bytes_eqb eid []) eqn:Ne; [discriminate G|]. cbn [negb guard bind] in G.
  split; [exact (not_empty No)|]. split; [exact (not_empty Ne)|].
  apply bind_ok in G. destruct G as [key [K G]]. apply bind_ok in G. destruct G as [[cr bl] [_ G]]. apply bind_ok in G. destruct G as [? [_ G]].
  apply bind_ok in G. destruct G as [c1 [_ G]]. apply bind_ok in G. destruct G as [c2 [_ G]]. apply bind_ok in G. destruct G as [[] [V G]].
  apply bind_ok in G. destruct G as [criraw [_ G]].
  set (sg := {| sc_cred := c2; sc_sk := _ |}) in G.
  assert (Csg : canon_signer utf8 sg) by (repeat (split; [assumption|]); exact Ir).
  destruct (CS _ Csg) as (b' & G1 & G2). rewrite G1 in G. injection G as ->.
  exists sg, key. split; [exact G2|]. split; [exact K|]. do 6 (split; [reflexivity|]). exact V.
Qed.
Print Assumptions C87_aries_partial.

Theorem C87_aries_refuted : forall CD C (HG : bytes -> G1 C) (H : hasher C) c_cred c_cri EC sha256
    ou eid rh (A : caadraw C) role iskraw ipkraw1 ipkraw2 (rk : ec_sk EC),
  GenerateSignerConfigAries HG H c_cred c_cri sha256 CD ou eid rh A role iskraw ipkraw1 rk =
  GenerateSignerConfigAries HG H c_cred c_cri sha256 CD ou eid rh A role iskraw ipkraw2 rk.
Proof. reflexivity. Qed.
Print Assumptions C87_aries_refuted.

Definition w_isk : bytes := match GenerateIssuerKeyAries hg32 h32 (fun b => b) wseed with Ok (k, _) => k | _ => [] end.
Example C87_aries_example : int32 2 /\
  is_ok (wgenerate (gfl true) 2 w_isk [] (str "k" : ec_sk xEC)) = true /\
  is_ok (GenerateSignerConfigAries hg32 h32 xa_ccred xa_ccri (EC := xEC) bsha mCD [] (str "id") (str "rh") wcadraw 2 w_isk [] (str "k" : ec_sk xEC)) = false.
Proof. split; [unfold int32; lia|]. split; vm_compute; reflexivity. Qed.
