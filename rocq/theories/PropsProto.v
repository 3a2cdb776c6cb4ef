(** * Messages as bytes: protobuf (C78, C79)
    The other theorems are about arbitrary codecs and assume what they need of them; here is the
    encoding the code uses (Proto.v). *)
From Verif Require Import Base Curve Dlog Translator Bridge BridgeFacts Bbs Aries AriesSpec Msp MspSpec GenSpec RunSpec Proto ProtoFacts
  Toy ToyDlog ToyBbs ToyCodec ToyAries PropsBridge PropsAries.
Unset Strict Implicit.

(** ** C78: what is encoded is read back *)
(** Every message whose integers fit their types, whose strings are UTF-8, and in which nil and empty are not mixed up is
    read back as it was written, and the empty string is the message without fields.  These are the hypotheses of all
    other theorems about the codecs. *)
Theorem C78_read_back :
  (codec_ok (canon_ipk utf8) pb_ipk /\ codec_ok (fun k => forall p, ik_ipk k = Some p -> canon_ipk utf8 p) pb_ik /\ codec_ok canon_req pb_req /\
   codec_ok canon_cred pb_cred /\ codec_ok canon_sig pb_sig /\ codec_ok (fun _ => True) pb_nsig /\ codec_ok canon_cri pb_cri) /\
  (codec_ok canon_acred pb_acred /\ codec_ok canon_asig pb_asig /\ codec_ok (fun _ => True) pb_ansig /\ codec_ok canon_acri pb_acri) /\
  (codecs_ok utf8 pb_msp /\ codec_ok (canon_signer utf8) (c_signer pb_msp) /\ codec_ok (canon_conf utf8) (c_conf pb_msp) /\
   codec_ok (Forall (fun p => int32 (pr_class p))) (c_comb pb_msp) /\ codec_ok int32 (c_anon pb_msp)) /\
  (dec pb_ipk [] = Some no_ipk_msg /\ dec pb_req [] = Some no_request /\ dec pb_cred [] = Some no_credential /\ dec pb_cri [] = Some no_cri /\
   dec pb_nsig [] = Some no_nymsig /\ dec pb_sig [] = Some no_signature /\ dec pb_acred [] = Some no_acredential /\
   dec pb_ansig [] = Some no_anymsig /\ dec pb_acri [] = Some no_acri /\ dec pb_asig [] = Some no_asignature) /\
  Forall utf8 attribute_names /\ utf8 [].
Proof.
  split; [|split; [|split; [|split; [|split]]]].
  - exact (conj ipk_codec (conj ik_codec (conj req_codec (conj cred_codec (conj sig_codec (conj nsig_codec cri_codec)))))).
  - exact (conj acred_codec (conj asig_codec (conj ansig_codec acri_codec))).
  - split; [exact msp_codecs|]. split; [|split; [|split; [exact comb_codec|exact anon_codec]]].
    + intros s (U1 & U2 & U3 & U4 & I). exact (ok_signer msp_codecs U1 U2 U3 U4 I).
    + intros c (U1 & U2 & I & S). refine (ok_conf msp_codecs U1 U2 I _). intros s E. rewrite E in S. exact S.
  - repeat split; reflexivity.
  - repeat constructor.
  - reflexivity.
Qed.
Print Assumptions C78_read_back.

(** The principals inside a combined principal are shorter than the message (needed for C50, C74). *)
Theorem C78_nested : nested_shorter pb_msp.
Proof. intros b ps p. apply comb_inside. Qed.
Print Assumptions C78_nested.
Example C78_nested_example : match dec (c_comb pb_msp) [Byte.x0a; Byte.x05; Byte.x08; Byte.x01; Byte.x12; Byte.x01; Byte.x6b] with
  | Some l => map (fun p => (pr_class p, pr_bytes p)) l = [(1%Z, str "k")] | None => False end.
Proof. vm_compute. reflexivity. Qed.

(** Known encodings: the varint 150 and the string "testing" of the protobuf documentation, a negative number, and
    a credential revocation record. *)
Example C78_documented :
  print [(1%Z, WVar 150)] = [Byte.x08; Byte.x96; Byte.x01] /\
  print [(2%Z, WLen (str "testing"))] = [Byte.x12; Byte.x07] ++ str "testing" /\
  enc pb_acri {| acri_epoch := -2; acri_epochpk := str "k"; acri_sig := []; acri_alg := 0 |} =
    Some [Byte.x08; Byte.xfe; Byte.xff; Byte.xff; Byte.xff; Byte.xff; Byte.xff; Byte.xff; Byte.xff; Byte.xff; Byte.x01; Byte.x12; Byte.x01; Byte.x6b] /\
  parse [Byte.x08; Byte.x96; Byte.x81; Byte.x00] = Some [(1%Z, WVar 150)] /\
  parse [Byte.x08; Byte.x96; Byte.x81] = None /\ parse [Byte.x00; Byte.x00] = None /\ parse [Byte.x0c] = None /\ parse [Byte.x12; Byte.x02; Byte.x00] = None /\
  map utf8_ok [str "idemix"; [Byte.xc3; Byte.xa9]; [Byte.xe2; Byte.x82; Byte.xac]; [Byte.xf0; Byte.x9f; Byte.x98; Byte.x80]; [Byte.xc0; Byte.x80]; [Byte.xed; Byte.xa0; Byte.x80]; [Byte.xf4; Byte.x90; Byte.x80; Byte.x80]; [Byte.xff]]
    = [true; true; true; true; false; false; false; false].
Proof. repeat split; vm_compute; reflexivity. Qed.
(** the laws have instances: the messages of the toy run are read back through protobuf *)
Example C78_example :
  (match enc pb_sig (from_ok no_signature (match dec (tcodec s_sig) bsigraw with Some s => Ok s | None => Err end)) with
   | Some b => match dec pb_sig b with Some s => option_map ex (sg_aprime s) | None => None end
   | None => None end) =
  option_map ex (match dec (tcodec s_sig) bsigraw with Some s => sg_aprime s | None => None end) /\
  canon_ipk utf8 bipk /\ (exists b, enc pb_ipk bipk = Some b /\ dec pb_ipk b = Some bipk).
Proof.
  assert (K : canon_ipk utf8 bipk).
  { split; [apply Forall_forall; intros x I|apply Forall_forall; intros x I].
    - apply (proj1 (forallb_forall utf8_ok (ip_names bipk))); [vm_compute; reflexivity|exact I].
    - assert (Q : forallb (fun o => match o with Some _ => true | None => false end) (ip_hattrs bipk) = true) by (vm_compute; reflexivity).
      pose proof (proj1 (forallb_forall _ _) Q x I) as W. destruct x; discriminate. }
  split; [vm_compute; reflexivity|]. split; [exact K|exact (ipk_codec K)].
Qed.

(** ** C79: full claim: from an accepted signature nobody can make another byte string that is accepted for the
    same message, key and attributes.  False for all four kinds of signatures: a field with an unknown number, here
    100 with any payload, may be appended. *)
Definition junk (payload : bytes) : bytes := [Byte.xa2; Byte.x06] ++ varint (Z.of_nat (length payload)) ++ payload.
Lemma junk_field payload : junk payload = print_field (100%Z, WLen payload).
Proof. reflexivity. Qed.
Lemma junk_ok payload : field_ok (100%Z, WLen payload).
Proof. split; [cbn; lia|exact I]. Qed.

Theorem C79_refuted : forall payload : bytes, junk payload <> [] /\
  (forall C (H : hasher C) (T : translator C) ipk sig digest attributes rhI eidI revpk (rev : revpk) ep vt meta,
     brVerify H T pb_sig ipk sig digest attributes rhI eidI rev ep vt meta = Ok tt ->
     brVerify H T pb_sig ipk (sig ++ junk payload) digest attributes rhI eidI rev ep vt meta = Ok tt) /\
  (forall C (H : hasher C) (T : translator C) ipk Nym sig digest,
     brNymVerify H T pb_nsig ipk Nym sig digest = Ok tt -> brNymVerify H T pb_nsig ipk Nym (sig ++ junk payload) digest = Ok tt) /\
  (forall C (H : hasher C) key sig msg attributes rhI eidI skI v (meta : option (Metadata C)),
     arVerify H pb_asig key sig msg attributes rhI eidI skI v meta = Ok tt ->
     arVerify H pb_asig key (sig ++ junk payload) msg attributes rhI eidI skI v meta = Ok tt) /\
  (forall C (H : hasher C) key (Nym : G1 C) sig digest skI,
     arNymVerify H pb_ansig key Nym sig digest skI = Ok tt -> arNymVerify H pb_ansig key Nym (sig ++ junk payload) digest skI = Ok tt).
Proof.
  intro payload. split; [discriminate|]. rewrite junk_field. split; [|split; [|split]].
  - intros C H T ipk sig digest attributes rhI eidI revpk rev ep vt meta E. unfold brVerify in *. destruct ipk as [k|]; [|discriminate]. cbn [opt_err bind] in *.
    destruct (dec pb_sig sig) as [s|] eqn:D; [|discriminate]. unfold pb_sig in *. rewrite (dec_unknown (fun fs => @sig_unknown 100 _ fs ltac:(lia)) (junk_ok payload) D). exact E.
  - intros C H T ipk Nym sig digest E. unfold brNymVerify in *. destruct ipk as [k|]; [|discriminate]. cbn [opt_err bind] in *.
    destruct (dec pb_nsig sig) as [s|] eqn:D; [|discriminate]. unfold pb_nsig in *. rewrite (dec_unknown (fun fs => @nsig_unknown 100 _ fs ltac:(lia)) (junk_ok payload) D). exact E.
  - intros C H key sig msg attributes rhI eidI skI v meta E. unfold arVerify, arVerify_first in *. destruct (assert_ptr key) as [k| |]; try discriminate. cbn [bind] in *.
    destruct (dec pb_asig sig) as [s|] eqn:D; [|discriminate]. unfold pb_asig in *. rewrite (dec_unknown (fun fs => @asig_unknown 100 _ fs ltac:(lia)) (junk_ok payload) D). exact E.
  - intros C H key Nym sig digest skI E. unfold arNymVerify in *. destruct (assert_ptr key) as [k| |]; try discriminate. cbn [bind] in *.
    destruct (dec pb_ansig sig) as [s|] eqn:D; [|discriminate]. unfold pb_ansig in *. rewrite (dec_unknown (fun fs => @ansig_unknown 100 _ fs ltac:(lia)) (junk_ok payload) D). exact E.
Qed.
Print Assumptions C79_refuted.

(** signatures accepted in their protobuf encoding, plain and with junk; cut off inside the junk they are refused *)
Definition pb_bsig : bytes := match dec (tcodec s_sig) bsigraw with Some s => from_ok [] (opt_err (enc pb_sig s)) | None => [] end.
Definition pb_xasig : bytes := match dec xa_csig xa_sig_hidden with Some s => from_ok [] (opt_err (enc pb_asig s)) | None => [] end.
Example C79_example :
  map (fun b => is_ok (brVerify tH tT pb_sig (Some (Some bipk)) b tmsg bshow 3 2 tt 5 ExpectEidNymRhNym None))
    [pb_bsig; pb_bsig ++ junk (str "x"); pb_bsig ++ [Byte.xa2; Byte.x06; Byte.x01]] = [true; true; false] /\
  map (fun b => is_ok (arVerify h32 pb_asig xa_key b (str "message") xa_hidden 2 1 0 ExpectStandard None))
    [pb_xasig; pb_xasig ++ junk (str "x"); pb_xasig ++ [Byte.xa2; Byte.x06; Byte.x01]] = [true; true; false].
Proof. split; vm_compute; reflexivity. Qed.
