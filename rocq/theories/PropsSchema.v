(** * The encodings follow the .proto files (C81) *)
From Verif Require Import Base Curve Dlog Translator Bridge BridgeFacts Bbs Aries AriesSpec Msp MspSpec GenSpec RunSpec Proto ProtoFacts Schema PropsProto.
Unset Strict Implicit.
Local Open Scope Z_scope.

(** ** writing *)
Lemma occurs_app i a b : occurs i (a ++ b) = occurs i a ++ occurs i b.
Proof. unfold occurs. rewrite filter_app, map_app. reflexivity. Qed.
Lemma occurs_bytes i j b : occurs i (w_bytes j b) = if j =? i then match b with [] => [] | _ => [WLen b] end else [].
Proof. unfold occurs. destruct b; cbn; destruct (j =? i); reflexivity. Qed.
Lemma occurs_obytes i j o : occurs i (w_obytes j o) = if j =? i then match nilbytes o with [] => [] | _ => [WLen (nilbytes o)] end else [].
Proof. destruct o as [b|]; [cbn [w_obytes nilbytes]; exact (occurs_bytes i j b)|]. cbn. destruct (j =? i); reflexivity. Qed.
Lemma occurs_list i j l : occurs i (w_list j l) = if j =? i then map WLen l else [].
Proof. unfold occurs, w_list. induction l as [|b l IH]; cbn; [destruct (j =? i); reflexivity|]. destruct (j =? i); cbn [map snd]; [f_equal; exact IH|exact IH]. Qed.
Lemma occurs_int i j z : occurs i (w_int j z) = if j =? i then (if z =? 0 then [] else [WVar (z mod 2 ^ 64)]) else [].
Proof. unfold w_int, occurs. destruct (z =? 0); cbn [filter map fst snd]; destruct (j =? i); reflexivity. Qed.
Lemma occurs_msg i j o : occurs i (w_msg j o) = if j =? i then match o with Some fs => [WLen (print fs)] | None => [] end else [].
Proof. unfold occurs. destruct o; cbn; destruct (j =? i); reflexivity. Qed.

Definition numbered (P : Z -> Prop) (fs : fields) : Prop := Forall (fun f => P (fst f)) fs.
Lemma num_bytes (P : Z -> Prop) j b : P j -> numbered P (w_bytes j b).
Proof. destruct b; repeat constructor; assumption. Qed.
Lemma num_obytes (P : Z -> Prop) j o : P j -> numbered P (w_obytes j o).
Proof. destruct o; [apply num_bytes|constructor]. Qed.
Lemma num_list (P : Z -> Prop) j l : P j -> numbered P (w_list j l).
Proof. intro. induction l; constructor; assumption. Qed.
Lemma num_int (P : Z -> Prop) j z : P j -> numbered P (w_int j z).
Proof. unfold w_int. destruct (z =? 0); repeat constructor; assumption. Qed.
Lemma num_msg (P : Z -> Prop) j o : P j -> numbered P (w_msg j o).
Proof. destruct o; repeat constructor; assumption. Qed.
Lemma num_app (P : Z -> Prop) a b : numbered P a -> numbered P b -> numbered P (a ++ b).
Proof. intros A B. apply Forall_app. split; assumption. Qed.
Ltac numbers := repeat apply num_app; first [apply num_bytes | apply num_obytes | apply num_list | apply num_int | apply num_msg]; cbn; tauto.
Ltac occ := repeat first [rewrite occurs_app | rewrite occurs_bytes | rewrite occurs_obytes | rewrite occurs_list | rewrite occurs_int | rewrite occurs_msg];
  cbn [Z.eqb Pos.eqb app]; rewrite ?app_nil_r.

Lemma laid X (L : table X) m fs : Forall field_ok fs -> numbered (fun n => In n (map fst L)) fs -> Forall (field_fits m fs) L -> laid_out L m (print fs).
Proof.
  intros F N W. exists fs. split; [exact (parse_print F)|]. split; [|exact W]. intros n v I. exact (proj1 (Forall_forall _ _) N (n, v) I).
Qed.
Ltac plain_ := unfold field_fits; cbn [fst snd]; occ; try reflexivity.

Ltac rows0 := repeat (apply Forall_cons; [plain_|]); apply Forall_nil.
Lemma ecp_laid e : laid_out ECP_ e (print (w_ecp e)).
Proof. apply laid; unfold w_ecp; [fields_ok|numbers|rows0]. Qed.
Lemma ecp2_laid e : laid_out ECP2_ e (print (w_ecp2 e)).
Proof. apply laid; unfold w_ecp2; [fields_ok|numbers|rows0]. Qed.
Lemma nonrev_laid e : laid_out NonRevocationProof_ e (print (w_nonrev e)).
Proof. apply laid; unfold w_nonrev; [fields_ok|numbers|rows0]. Qed.
Lemma aalg_laid e : laid_out AAlg_ e (print (w_int 1 e)).
Proof. apply laid; [fields_ok|numbers|rows0]. Qed.

(** a submessage *)
Lemma part_laid X Y (get : X -> option Y) (L : table Y) (w : Y -> fields) j m fs :
  (forall y, laid_out L y (print (w y))) -> occurs j fs = match option_map w (get m) with Some gs => [WLen (print gs)] | None => [] end ->
  field_fits m fs (j, part get L).
Proof.
  intros W E. unfold field_fits, part. cbn [fst snd]. destruct (get m) as [y|]; cbn [option_map] in *; [|exact E]. exists (print (w y)). split; [exact E|apply W].
Qed.
Ltac parts := first
  [ apply (@part_laid _ _ _ _ _ _ _ _ ecp_laid); occ; reflexivity
  | apply (@part_laid _ _ _ _ _ _ _ _ ecp2_laid); occ; reflexivity
  | apply (@part_laid _ _ _ _ _ _ _ _ nonrev_laid); occ; reflexivity
  | apply (@part_laid _ _ _ _ _ _ _ _ aalg_laid); occ; reflexivity
  | plain_ ].
Ltac rows := repeat (apply Forall_cons; [parts|]); apply Forall_nil.
Lemma attr_nym_laid e : laid_out AttrNym_ e (print (w_attr_nym e)).
Proof. apply laid; unfold w_attr_nym; [fields_ok|numbers|rows]. Qed.

Lemma some_eq X (a b : X) : Some a = Some b -> b = a.
Proof. congruence. Qed.
Lemma written X (L : table X) (w : X -> option fields) (r : fields -> option X) (W : forall m fs, w m = Some fs -> laid_out L m (print fs)) :
  forall m b, enc (pb w r) m = Some b -> laid_out L m b.
Proof. intros m b E. cbn [pb enc] in E. destruct (w m) as [fs|] eqn:Q; [|discriminate]. injection E as <-. exact (W m fs Q). Qed.

Lemma ipk_laid m fs : w_ipk m = Some fs -> laid_out IssuerPublicKey_ m (print fs).
Proof.
  unfold w_ipk. destruct (forallb utf8_ok (ip_names m)); [|discriminate]. intro E; apply some_eq in E; subst fs.
  apply laid; [fields_ok|numbers|]. unfold IssuerPublicKey_. do 3 (apply Forall_cons; [parts|]). apply Forall_cons; [|rows].
  unfold field_fits. cbn [fst snd]. occ. eexists. split; [reflexivity|].
  induction (ip_hattrs m) as [|o l IH]; cbn [map]; constructor; [|exact IH]. destruct o as [e|]; [exact (ecp_laid e)|]. exact (ecp_laid {| ex := []; ey := [] |}).
Qed.
Lemma ik_laid m fs : w_ik m = Some fs -> laid_out IssuerKey_ m (print fs).
Proof.
  unfold w_ik. destruct (ik_ipk m) as [k|] eqn:Q.
  - destruct (w_ipk k) as [gs|] eqn:W; [|discriminate]. intro E; apply some_eq in E; subst fs. apply laid; [fields_ok|numbers|].
    apply Forall_cons; [plain_|]. apply Forall_cons; [|apply Forall_nil]. unfold field_fits, part. cbn [fst snd]. rewrite Q. cbn [option_map]. exists (print gs).
    split; [occ; reflexivity|exact (ipk_laid W)].
  - intro E; apply some_eq in E; subst fs. apply laid; [fields_ok|numbers|]. apply Forall_cons; [plain_|]. apply Forall_cons; [|apply Forall_nil].
    unfold field_fits, part. cbn [fst snd]. rewrite Q. cbn [option_map]. occ. reflexivity.
Qed.
Lemma signer_laid m fs : w_signer m = Some fs -> laid_out SignerConfig_ m (print fs).
Proof.
  unfold w_signer. destruct (utf8_ok (sc_ou m) && utf8_ok (sc_eid m) && utf8_ok (sc_rh m) && utf8_ok (sc_curve m)); [|discriminate]. intro E; apply some_eq in E; subst fs.
  apply laid; [fields_ok|numbers|rows].
Qed.
Lemma conf_laid m fs : w_conf m = Some fs -> laid_out MSPConfig_ m (print fs).
Proof.
  unfold w_conf. destruct (utf8_ok (cf_name m) && utf8_ok (cf_curve m)); [|discriminate].
  destruct (cf_signer m) as [s|] eqn:Q.
  - destruct (w_signer s) as [gs|] eqn:W; cbn [option_map]; [|discriminate]. intro E; apply some_eq in E; subst fs. apply laid; [fields_ok|numbers|].
    do 2 (apply Forall_cons; [plain_|]). apply Forall_cons; [|rows]. unfold field_fits, part. cbn [fst snd]. rewrite Q. cbn [option_map]. exists (print gs).
    split; [occ; reflexivity|exact (signer_laid W)].
  - intro E; apply some_eq in E; subst fs. apply laid; [fields_ok|numbers|].
    do 2 (apply Forall_cons; [plain_|]). apply Forall_cons; [|rows]. unfold field_fits, part. cbn [fst snd]. rewrite Q. cbn [option_map]. occ. reflexivity.
Qed.
Lemma principal_laid m : laid_out MSPPrincipal_ m (print (w_principal m)).
Proof. apply laid; unfold w_principal; [fields_ok|numbers|rows]. Qed.
Lemma comb_laid m : laid_out CombinedPrincipal_ m (print (w_comb m)).
Proof.
  apply laid; unfold w_comb; [fields_ok|numbers|]. apply Forall_cons; [|apply Forall_nil]. unfold field_fits. cbn [fst snd]. occ. eexists. split; [reflexivity|].
  induction m as [|p l IH]; cbn [map]; constructor; [apply principal_laid|exact IH].
Qed.

(** ** reading *)
Definition len_of (v : wval) : list bytes := match v with WLen b => [b] | _ => [] end.
Definition var_of (v : wval) : list Z := match v with WVar z => [z] | _ => [] end.
Lemma lens_occurs i fs : lens i fs = flat_map len_of (occurs i fs).
Proof.
  unfold lens, occurs. induction fs as [|[n v] fs IH]; [reflexivity|]. cbn [flat_map filter fst]. rewrite IH. destruct v; destruct (n =? i); reflexivity.
Qed.
Lemma vars_occurs i fs : vars i fs = flat_map var_of (occurs i fs).
Proof.
  unfold vars, occurs. induction fs as [|[n v] fs IH]; [reflexivity|]. cbn [flat_map filter fst]. rewrite IH. destruct v; destruct (n =? i); reflexivity.
Qed.
Lemma lens_of_map l : flat_map len_of (map WLen l) = l.
Proof. induction l as [|b l IH]; [reflexivity|]. cbn. rewrite IH. reflexivity. Qed.

Section Rows.
  Variable X : Type.
  Variable m : X.
  Variable fs : fields.
  Lemma bytes_lens n get : field_fits m fs (n, KBytes get) -> lens n fs = match get m with [] => [] | _ => [get m] end.
  Proof. unfold field_fits. cbn [fst snd]. intro E. rewrite lens_occurs, E. destruct (get m); reflexivity. Qed.
  Lemma bytes_row n get : field_fits m fs (n, KBytes get) -> r_bytes n fs = get m.
  Proof. intro E. unfold r_bytes. rewrite (bytes_lens E), last_bytes. reflexivity. Qed.
  Lemma obytes_row n get : field_fits m fs (n, KBytes (fun x => nilbytes (get x))) -> get m <> Some [] -> r_obytes n fs = get m.
  Proof. intros E N. unfold r_obytes. rewrite (bytes_row E). destruct (get m) as [[|c b]|]; [contradiction|reflexivity|reflexivity]. Qed.
  Lemma string_row n get : field_fits m fs (n, KBytes get) -> utf8 (get m) -> r_string n fs = Some (get m).
  Proof. intros E U. unfold r_string, r_strings. rewrite (bytes_lens E), (one_utf8 U), last_bytes. reflexivity. Qed.
  Lemma repeated_row n get : field_fits m fs (n, KRepeated get) -> lens n fs = get m.
  Proof. unfold field_fits. cbn [fst snd]. intro E. rewrite lens_occurs, E. apply lens_of_map. Qed.
  Lemma int_vars n get : field_fits m fs (n, KInt get) -> vars n fs = if get m =? 0 then [] else [get m mod 2 ^ 64].
  Proof. unfold field_fits. cbn [fst snd]. intro E. rewrite vars_occurs, E. destruct (get m =? 0); reflexivity. Qed.
  Lemma int32_row n get : field_fits m fs (n, KInt get) -> int32 (get m) -> r_int 32 n fs = get m.
  Proof. intros E I. unfold r_int. rewrite (int_vars E). exact (int32_ok I). Qed.
  Lemma int64_row n get : field_fits m fs (n, KInt get) -> int64 (get m) -> r_int 64 n fs = get m.
  Proof. intros E I. unfold r_int. rewrite (int_vars E). exact (int64_ok I). Qed.
  Definition reads {Y} (L : table Y) (r : fields -> option Y) (K : Y -> Prop) : Prop :=
    forall y gs, K y -> Forall (field_fits y gs) L -> r gs = Some y.
  Lemma part_row n Y (get : X -> option Y) L r K : reads L r K -> field_fits m fs (n, part get L) -> (forall y, get m = Some y -> K y) ->
    r_msg r n fs = Some (get m).
  Proof.
    intros R E Ky. unfold field_fits, part in E. cbn [fst snd] in E. unfold r_msg. rewrite lens_occurs. destruct (get m) as [y|]; cbn [option_map] in E.
    - destruct E as (b & E & gs & P & _ & F). rewrite E. cbn [flat_map len_of app all_some]. rewrite P. cbn [concat]. rewrite app_nil_r, (R y gs (Ky y eq_refl) F). reflexivity.
    - rewrite E. reflexivity.
  Qed.
  Lemma parts_row n Y Z (get : X -> list Z) (f : Z -> Y) L r K : reads L r K -> field_fits m fs (n, KMessages (fun x => map (fun z => laid_out L (f z)) (get x))) ->
    Forall (fun z => K (f z)) (get m) -> r_msgs r n fs = Some (map f (get m)).
  Proof.
    intros R E Ky. unfold field_fits in E. cbn [fst snd] in E. destruct E as (bs & E & F). unfold r_msgs. rewrite lens_occurs, E, lens_of_map. clear E.
    revert bs F. induction Ky as [|z l Kz _ IH]; intros bs F; cbn [map] in F; inversion F as [|P b Ps bs' Q F']; subst; [reflexivity|].
    destruct Q as (gs & Pb & _ & G).
    cbn [all_some map]. rewrite Pb, (R _ gs Kz G), (IH _ F'). reflexivity.
  Qed.
End Rows.

Lemma read X (L : table X) w r K : reads L r K -> forall m b, K m -> laid_out L m b -> dec (pb w r) b = Some m.
Proof. intros R m b Km (fs & P & _ & F). cbn [pb dec]. rewrite P. exact (R m fs Km F). Qed.

Ltac rows_of F :=
  repeat match type of F with Forall _ (_ :: _) => let E := fresh "R" in pose proof (Forall_inv F) as E; apply Forall_inv_tail in F end; clear F.
Ltac use_rows :=
  repeat match goal with
  | R : field_fits _ _ (?n, KBytes _) |- context [r_bytes ?n _] => rewrite (bytes_row R)
  | R : field_fits _ _ (?n, KBytes _) |- context [r_obytes ?n _] => rewrite (obytes_row R) by assumption
  | R : field_fits _ _ (?n, KBytes _) |- context [r_string ?n _] => rewrite (string_row R) by first [assumption | reflexivity]
  | R : field_fits _ _ (?n, KRepeated _) |- context [lens ?n _] => rewrite (repeated_row R)
  | R : field_fits _ _ (?n, KInt _) |- context [r_int 32 ?n _] => rewrite (int32_row R) by assumption
  | R : field_fits _ _ (?n, KInt _) |- context [r_int 64 ?n _] => rewrite (int64_row R) by assumption
  end.
Definition any {X} (x : X) : Prop := True.
Lemma any_all X Y (g : X -> option Y) m : forall y, g m = Some y -> any y.
Proof. intros. exact I. Qed.

Lemma ecp_reads : reads ECP_ r_ecp any.
Proof. intros m fs _ F. unfold ECP_ in F. rows_of F. unfold r_ecp. use_rows. destruct m; reflexivity. Qed.
Lemma ecp2_reads : reads ECP2_ r_ecp2 any.
Proof. intros m fs _ F. unfold ECP2_ in F. rows_of F. unfold r_ecp2. use_rows. destruct m; reflexivity. Qed.
Ltac use_parts :=
  repeat match goal with
  | R : field_fits _ _ (?n, part _ _) |- context [r_msg r_ecp ?n _] => rewrite (part_row ecp_reads R (fun _ _ => I))
  | R : field_fits _ _ (?n, part _ _) |- context [r_msg r_ecp2 ?n _] => rewrite (part_row ecp2_reads R (fun _ _ => I))
  end.
Lemma ipk_reads : reads IssuerPublicKey_ r_ipk (canon_ipk utf8).
Proof.
  intros m fs [K1 K2] F. unfold IssuerPublicKey_ in F. rows_of F. unfold r_ipk, r_strings. use_rows.
  assert (U : forallb utf8_ok (ip_names m) = true). { apply forallb_forall. intros x I. exact (proj1 (Forall_forall _ _) K1 x I). }
  rewrite U. use_parts.
  rewrite (@parts_row _ m fs 4 _ _ ip_hattrs (fun o => match o with Some e => e | None => {| ex := []; ey := [] |} end) _ _ _ ecp_reads R2) by (apply Forall_forall; intros; exact I).
  destruct m as [n h1 h2 ha w b1 b2 c s h]. cbn in *. do 2 f_equal.
  clear - K2. induction K2 as [|o l N _ IH]; [reflexivity|]. cbn [map]. rewrite IH. destruct o; [reflexivity|contradiction].
Qed.
Lemma ik_reads : reads IssuerKey_ r_ik (fun k => forall p, ik_ipk k = Some p -> canon_ipk utf8 p).
Proof. intros m fs K F. unfold IssuerKey_ in F. rows_of F. unfold r_ik. use_rows. rewrite (part_row ipk_reads R0 K). destruct m; reflexivity. Qed.
Lemma cred_reads : reads Credential_ r_cred canon_cred.
Proof. intros m fs K F. unfold Credential_ in F. rows_of F. unfold r_cred. use_rows. use_parts. change nilbytes with or_nil. rewrite (some_nil K). destruct m; reflexivity. Qed.
Lemma req_reads : reads CredRequest_ r_req canon_req.
Proof. intros m fs K F. unfold canon_req in K. unfold CredRequest_ in F. rows_of F. unfold r_req. use_rows. use_parts. destruct m; reflexivity. Qed.
Lemma attr_nym_reads : reads AttrNym_ r_attr_nym (fun a => an_s a <> Some []).
Proof. intros m fs K F. unfold AttrNym_ in F. rows_of F. unfold r_attr_nym. use_rows. use_parts. destruct m; reflexivity. Qed.
Lemma nonrev_reads : reads NonRevocationProof_ r_nonrev (fun n => int32 (nr_alg n)).
Proof. intros m fs K F. unfold NonRevocationProof_ in F. rows_of F. unfold r_nonrev. use_rows. destruct m; reflexivity. Qed.
Lemma sig_reads : reads Signature_ r_sig canon_sig.
Proof.
  intros m fs (K1 & K2 & K3 & K4) F. unfold Signature_ in F. rows_of F. unfold r_sig. use_rows. use_parts.
  rewrite (part_row nonrev_reads R15 K4), (part_row attr_nym_reads R16 K1), (part_row attr_nym_reads R17 K2). destruct m; reflexivity.
Qed.
Lemma nsig_reads : reads NymSignature_ r_nsig any.
Proof. intros m fs _ F. unfold NymSignature_ in F. rows_of F. unfold r_nsig. use_rows. destruct m; reflexivity. Qed.
Lemma cri_reads : reads CRI_ r_cri canon_cri.
Proof. intros m fs [K1 K2] F. unfold CRI_ in F. rows_of F. unfold r_cri. use_rows. use_parts. destruct m; reflexivity. Qed.
Lemma acred_reads : reads ACredential_ r_acred canon_acred.
Proof. intros m fs K F. unfold canon_acred in K. unfold ACredential_ in F. rows_of F. unfold r_acred. use_rows. destruct m; reflexivity. Qed.
Lemma aalg_reads : reads AAlg_ r_alg int32.
Proof. intros m fs K F. unfold AAlg_ in F. rows_of F. unfold r_alg. use_rows. reflexivity. Qed.
Lemma asig_reads : reads ASignature_ r_asig canon_asig.
Proof.
  intros m fs (K1 & K2 & K3 & K4) F. unfold ASignature_ in F. rows_of F. unfold r_asig. use_rows. rewrite (part_row aalg_reads R12 K4). destruct m; reflexivity.
Qed.
Lemma acri_reads : reads ACRI_ r_acri canon_acri.
Proof. intros m fs [K1 K2] F. unfold ACRI_ in F. rows_of F. unfold r_acri. use_rows. destruct m; reflexivity. Qed.
Lemma ansig_reads : reads ANymSignature_ r_ansig any.
Proof. intros m fs _ F. unfold ANymSignature_ in F. rows_of F. unfold r_ansig. use_rows. destruct m; reflexivity. Qed.

Lemma signer_reads : reads SignerConfig_ r_signer (canon_signer utf8).
Proof. intros m fs (K1 & K2 & K3 & K4 & K5) F. unfold SignerConfig_ in F. rows_of F. unfold r_signer. use_rows. destruct m; reflexivity. Qed.
Lemma conf_reads : reads MSPConfig_ r_conf (canon_conf utf8).
Proof.
  intros m fs (K1 & K2 & K3 & K4) F. unfold MSPConfig_ in F. rows_of F. unfold r_conf. use_rows. rewrite (part_row signer_reads R1); [destruct m; reflexivity|].
  intros s E. rewrite E in K4. exact K4.
Qed.
Definition canon_ii (i : idemix_serialized) : Prop := ii_nymx i <> Some [] /\ ii_nymy i <> Some [].
Lemma ii_reads : reads SerializedIdemixIdentity_ r_ii canon_ii.
Proof. intros m fs [K1 K2] F. unfold SerializedIdemixIdentity_ in F. rows_of F. unfold r_ii. use_rows. destruct m; reflexivity. Qed.
Lemma role_reads : reads MSPRole_ r_role (fun r => utf8 (ro_mspid r) /\ int32 (ro_role r)).
Proof. intros m fs [K1 K2] F. unfold MSPRole_ in F. rows_of F. unfold r_role. use_rows. destruct m; reflexivity. Qed.
Lemma ou_reads : reads OrganizationUnit_ r_ou (fun o => utf8 (ou_mspid o) /\ utf8 (ou_id o)).
Proof. intros m fs [K1 K2] F. unfold OrganizationUnit_ in F. rows_of F. unfold r_ou. use_rows. destruct m; reflexivity. Qed.
Lemma si_reads : reads SerializedIdentity_ r_si (fun s => utf8 (si_mspid s)).
Proof. intros m fs K F. unfold SerializedIdentity_ in F. rows_of F. unfold r_si. use_rows. destruct m; reflexivity. Qed.
Lemma principal_reads : reads MSPPrincipal_ r_principal (fun p => int32 (pr_class p)).
Proof. intros m fs K F. unfold MSPPrincipal_ in F. rows_of F. unfold r_principal. use_rows. destruct m; reflexivity. Qed.
Lemma comb_reads : reads CombinedPrincipal_ r_comb (Forall (fun p => int32 (pr_class p))).
Proof.
  intros m fs K F. unfold CombinedPrincipal_ in F. rows_of F. unfold r_comb.
  rewrite (@parts_row _ m fs 1 _ _ (fun l => l) (fun p => p) _ _ _ principal_reads R K). rewrite map_id. reflexivity.
Qed.
Lemma anon_reads : reads MSPIdentityAnonymity_ r_alg int32.
Proof. intros m fs K F. unfold MSPIdentityAnonymity_ in F. rows_of F. unfold r_alg. use_rows. reflexivity. Qed.

Lemma follow X (L : table X) w r K : (forall m fs, w m = Some fs -> laid_out L m (print fs)) -> reads L r K -> follows (pb w r) L K.
Proof. intros W R. split; [exact (@written _ _ _ r W)|exact (@read _ _ w _ _ R)]. Qed.
Ltac easy_rows w := let E := fresh "E" in intros ? ? E; apply some_eq in E; subst; unfold w; apply laid; [fields_ok|numbers|].

(** ** C81: the bytes of every message follow the .proto files *)
Theorem C81_formats :
  (follows pb_ipk IssuerPublicKey_ (canon_ipk utf8) /\ follows pb_ik IssuerKey_ (fun k => forall p, ik_ipk k = Some p -> canon_ipk utf8 p) /\
   follows pb_cred Credential_ canon_cred /\ follows pb_req CredRequest_ canon_req /\ follows pb_sig Signature_ canon_sig /\
   follows pb_nsig NymSignature_ (fun _ => True) /\ follows pb_cri CRI_ canon_cri) /\
  (follows pb_acred ACredential_ canon_acred /\ follows pb_asig ASignature_ canon_asig /\ follows pb_acri ACRI_ canon_acri /\
   follows pb_ansig ANymSignature_ (fun _ => True)) /\
  (follows (c_ii pb_msp) SerializedIdemixIdentity_ (fun i => ii_nymx i <> Some [] /\ ii_nymy i <> Some []) /\
   follows (c_signer pb_msp) SignerConfig_ (canon_signer utf8) /\ follows (c_conf pb_msp) MSPConfig_ (canon_conf utf8)) /\
  (follows (c_role pb_msp) MSPRole_ (fun r => utf8 (ro_mspid r) /\ int32 (ro_role r)) /\
   follows (c_ou pb_msp) OrganizationUnit_ (fun o => utf8 (ou_mspid o) /\ utf8 (ou_id o)) /\
   follows (c_si pb_msp) SerializedIdentity_ (fun s => utf8 (si_mspid s)) /\
   follows (c_comb pb_msp) CombinedPrincipal_ (Forall (fun p => int32 (pr_class p))) /\ follows (c_anon pb_msp) MSPIdentityAnonymity_ int32).
Proof.
  repeat match goal with |- _ /\ _ => split end.
  - exact (follow ipk_laid ipk_reads).
  - exact (follow ik_laid ik_reads).
  - apply follow; [easy_rows w_cred; rows|exact cred_reads].
  - apply follow; [easy_rows w_req; rows|exact req_reads].
  - apply follow; [easy_rows w_sig|exact sig_reads]. repeat (apply Forall_cons; [first [parts; fail | apply (@part_laid _ _ _ _ _ _ _ _ attr_nym_laid); occ; reflexivity]|]); apply Forall_nil.
  - apply follow; [easy_rows w_nsig; rows|exact nsig_reads].
  - apply follow; [easy_rows w_cri; rows|exact cri_reads].
  - apply follow; [easy_rows w_acred; rows|exact acred_reads].
  - apply follow; [easy_rows w_asig; rows|exact asig_reads].
  - apply follow; [easy_rows w_acri; rows|exact acri_reads].
  - apply follow; [easy_rows w_ansig; rows|exact ansig_reads].
  - apply follow; [easy_rows w_ii; rows|exact ii_reads].
  - exact (follow signer_laid signer_reads).
  - exact (follow conf_laid conf_reads).
  - apply follow; [|exact role_reads]. intros m fs. unfold w_role. destruct (utf8_ok (ro_mspid m)); [|discriminate]. intro E. apply some_eq in E. subst fs. apply laid; [fields_ok|numbers|rows].
  - apply follow; [|exact ou_reads]. intros m fs. unfold w_ou. destruct (utf8_ok (ou_mspid m) && utf8_ok (ou_id m)); [|discriminate]. intro E. apply some_eq in E. subst fs. apply laid; [fields_ok|numbers|rows].
  - apply follow; [|exact si_reads]. intros m fs. unfold w_si. destruct (utf8_ok (si_mspid m)); [|discriminate]. intro E. apply some_eq in E. subst fs. apply laid; [fields_ok|numbers|rows].
  - apply follow; [|exact comb_reads]. intros m fs E. apply some_eq in E. subst fs. apply comb_laid.
  - apply follow; [easy_rows w_ansig; rows|exact anon_reads].
Qed.
Print Assumptions C81_formats.

(** bytes written by another program, with the fields in another order *)
Example C81_example :
  let m := {| ns_c := str "c"; ns_ssk := []; ns_srnym := str "r"; ns_nonce := str "nn" |} in
  let b := [Byte.x22; Byte.x02] ++ str "nn" ++ [Byte.x0a; Byte.x01] ++ str "c" ++ [Byte.x1a; Byte.x01] ++ str "r" in
  laid_out NymSignature_ m b /\ enc pb_nsig m <> Some b /\ dec pb_nsig b = Some m.
Proof.
  intros m b. assert (L : laid_out NymSignature_ m b).
  { exists [(4, WLen (str "nn")); (1, WLen (str "c")); (3, WLen (str "r"))]. split; [reflexivity|]. split.
    - intros n v I. cbn in I. cbn. intuition congruence.
    - repeat (apply Forall_cons; [reflexivity|]). apply Forall_nil. }
  split; [exact L|]. split; [discriminate|]. reflexivity.
Qed.
