(** * The files of the key store as bytes: JSON (C80)
    The theorems about the file-based key store (C46, C48, C75) are about arbitrary codecs with the laws [json_ok];
    here they are proved of the encoding the code uses (Json.v). *)
From Verif Require Import Base Curve Dlog Bridge Csp CspSpec CspInst Bbs Aries ToyBbs ToyAries Toy ToyDlog ToyCodec ToyCsp StoreConc StoreConcFacts PropsStore Json JsonFacts.
Unset Strict Implicit.

(** ** C80: a stored entry is read back, and a file that is not completely written is not read *)
Theorem C80_read_back : forall e : entry, exists b, enc go_json e = Some b /\ dec go_json b = Some e.
Proof. exact json_round_trips. Qed.
Print Assumptions C80_read_back.

(** [f] is the file [b] cut off, or with bytes not yet written, which read as zero, or both *)
Theorem C80_incomplete : forall (e : entry) (b f : bytes), enc go_json e = Some b -> f <> b -> length f <= length b ->
  (forall i c, nth_error f i = Some c -> c = Byte.x00 \/ nth_error b i = Some c) -> dec go_json f = None.
Proof. intros e b f E N L D. injection E as <-. exact (json_damaged L N D). Qed.
Print Assumptions C80_incomplete.

(** nor is one with anything but blanks behind the entry, such as the end of an older, longer entry *)
Theorem C80_overlong : forall (e : entry) (b rest : bytes), enc go_json e = Some b -> (exists c, In c rest /\ ~ In c (str " " ++ [Byte.x09; Byte.x0a; Byte.x0d])) ->
  dec go_json (b ++ rest) = None.
Proof.
  intros e b rest E [c [I N]]. injection E as <-. apply json_trailing. clear e. induction rest as [|x r IH]; [destruct I|]. cbn [skip].
  destruct (blank x) eqn:B; [|discriminate]. destruct I as [->|I]; [|exact (IH I)]. exfalso. apply N. unfold blank in B.
  destruct (byte_eqb_spec c Byte.x20) as [->|]; [left; reflexivity|]. destruct (byte_eqb_spec c Byte.x09) as [->|]; [right; left; reflexivity|].
  destruct (byte_eqb_spec c Byte.x0a) as [->|]; [right; right; left; reflexivity|]. destruct (byte_eqb_spec c Byte.x0d) as [->|]; [right; right; right; left; reflexivity|discriminate].
Qed.
Print Assumptions C80_overlong.

(** the laws assumed by C75 *)
Theorem C80_laws : json_ok go_json.
Proof. split; [exact C80_read_back|]. split; [reflexivity|exact C80_incomplete]. Qed.
Print Assumptions C80_laws.

(** With JSON nothing has to be assumed for the loss of keys in C75_stored_refuted: for every user key, stored
    at the same time as exportable and as not exportable. *)
Theorem C75_stored_json_refuted : forall U (X : scheme U) (M : mathops U) (sk : u_zr U),
  let i := key_ski X M (KUserSecret sk true) in
  exists s b1 b2, reached M go_json s /\ sh_calls s = [Store (KUserSecret sk false) (hex i) b2 WDone; Store (KUserSecret sk true) (hex i) b1 WDone] /\
    forall fs, GetKey (KVSStore M (FileBased go_json)) {| dk_files := sh_files s; dk_faults := fs |} i = Err.
Proof.
  intros U X M sk i. pose (entry_of := fun x => {| e_nym := None; e_user := Some {| ue_sk := m_zrBytes M sk; ue_exportable := x |} |}).
  destruct (@C75_stored_refuted U X M go_json sk (j_entry (entry_of true)) (j_entry (entry_of false)) eq_refl eq_refl) as [s Q].
  - assert (W : exists p, j_entry (entry_of true) = p ++ str "true}}" /\ j_entry (entry_of false) = p ++ str "false}}").
    { unfold entry_of, j_entry, j_object, j_user, j_object. cbn [e_nym e_user ue_sk ue_exportable app j_list j_bool]. unfold j_member, j_string.
      exists ([Byte.x7b; Byte.x22] ++ str "UserSecretKey" ++ [Byte.x22; Byte.x3a; Byte.x7b; Byte.x22] ++ str "Sk" ++ [Byte.x22; Byte.x3a] ++ j_bytes (m_zrBytes M sk) ++ [Byte.x2c; Byte.x22] ++ str "Exportable" ++ [Byte.x22; Byte.x3a]).
      split; repeat (progress (cbn [app]; rewrite <- ?app_assoc)); reflexivity. }
    destruct W as [p [W1 W2]].
    assert (S : skipn (length (j_entry (entry_of true))) (j_entry (entry_of false)) = str "}").
    { rewrite W1, W2, app_length, skipn_app, skipn_all2 by lia. replace (length p + length (str "true}}") - length p) with (length (str "true}}")) by lia. reflexivity. }
    rewrite S. apply (@C80_overlong (entry_of true)); [reflexivity|]. exists Byte.x7d. split; [left; reflexivity|]. intros [I|[I|[I|[I|[]]]]]; discriminate.
  - exists s, (j_entry (entry_of true)), (j_entry (entry_of false)). exact Q.
Qed.
Print Assumptions C75_stored_json_refuted.

(** texts as Go writes them, and what of other texts is read *)
Definition juser : entry := {| e_nym := None; e_user := Some {| ue_sk := str "Man"; ue_exportable := true |} |}.
Definition jnym : entry :=
  {| e_nym := Some {| ne_ski := str "M"; ne_sk := str "Ma"; ne_pk := Some {| ex := str "light work."; ey := [] |}; ne_exportable := false |}; e_user := None |}.
Definition quotes (s : string) : bytes := map (fun c => if byte_eqb c Byte.x27 then Byte.x22 else c) (str s).
Example C80_example :
  enc go_json juser = Some (quotes "{'UserSecretKey':{'Sk':'TWFu','Exportable':true}}") /\
  enc go_json jnym = Some (quotes "{'NymSecretKey':{'Ski':'TQ==','Sk':'TWE=','Pk':{'x':'bGlnaHQgd29yay4='},'Exportable':false}}") /\
  dec go_json (quotes " { 'usersecretkey' : { 'Other' : [ -1.5e+3 , null , {} ] , 'SK' : 'TWFu' , 'exportable' : true } } ") = Some juser /\
  dec go_json (quotes "{'UserSecretKey':{'Sk':[77,97,110],'Exportable':true}}") = Some juser /\
  map (fun s => match dec go_json (quotes s) with Some _ => true | None => false end)
    ["{'UserSecretKey':{'Sk':'TWFu','Exportable':true}"; "{'UserSecretKey':{'Sk':'TWFu','Exportable':true}}}"; "{'UserSecretKey':{'Sk':'TWF','Exportable':true}}";
     "{'UserSecretKey':{'Sk':'TWFu','Exportable':1}}"; "{'UserSecretKey':{'Sk':'TWFu',}}"; "{'UserSecretKey':01}"; "[]"; ""; "null"; "{}"]%string
    = [false; false; false; false; false; false; false; false; true; true].
Proof. repeat split; vm_compute; reflexivity. Qed.
(** the key is lost for instance on the toy universe *)
Example C75_stored_json_example : j_entry {| e_nym := None; e_user := Some {| ue_sk := m_zrBytes xM (tsk : u_zr xU); ue_exportable := true |} |} <> [].
Proof. discriminate. Qed.
