(** * The message formats, as tables of the .proto files
    A table lists the fields of a message with their numbers; [laid_out L m b] says that [b] is an encoding of [m]
    with the fields of [L], in any order.  Independent of the reading and writing functions of Proto.v except for
    [parse], which splits a byte string into fields. *)
From Verif Require Import Base Dlog Bridge Bbs Aries Msp Proto.
Unset Strict Implicit.
Local Open Scope Z_scope.

(** the values with number [n], in order *)
Definition occurs (n : Z) (fs : fields) : list wval := map snd (filter (fun f => fst f =? n) fs).

(** how the field of a message [m : X] is encoded; submessages are given by the predicate their bytes satisfy *)
Inductive kind (X : Type) :=
| KBytes (get : X -> bytes)                       (* bytes and string: left out when empty *)
| KRepeated (get : X -> list bytes)               (* repeated bytes and string *)
| KInt (get : X -> Z)                             (* int32, int64, enum: left out when zero; 64 bits, two's complement *)
| KMessage (get : X -> option (bytes -> Prop))
| KMessages (get : X -> list (bytes -> Prop)).
Arguments KBytes {X}. Arguments KRepeated {X}. Arguments KInt {X}. Arguments KMessage {X}. Arguments KMessages {X}.
Definition table (X : Type) := list (Z * kind X).

Definition field_fits {X} (m : X) (fs : fields) (r : Z * kind X) : Prop :=
  match snd r with
  | KBytes get => occurs (fst r) fs = match get m with [] => [] | _ => [WLen (get m)] end
  | KRepeated get => occurs (fst r) fs = map WLen (get m)
  | KInt get => occurs (fst r) fs = if get m =? 0 then [] else [WVar (get m mod 2 ^ 64)]
  | KMessage get => match get m with None => occurs (fst r) fs = [] | Some P => exists b, occurs (fst r) fs = [WLen b] /\ P b end
  | KMessages get => exists bs, occurs (fst r) fs = map WLen bs /\ Forall2 (fun (P : bytes -> Prop) b => P b) (get m) bs
  end.
Definition laid_out {X} (L : table X) (m : X) (b : bytes) : Prop :=
  exists fs, parse b = Some fs /\ (forall n v, In (n, v) fs -> In n (map fst L)) /\ Forall (field_fits m fs) L.

Definition nilbytes (o : option bytes) : bytes := match o with Some b => b | None => [] end.
Definition part {X Y} (get : X -> option Y) (L : table Y) : kind X := KMessage (fun m => option_map (laid_out L) (get m)).

(** /repo/bccsp/schemes/dlog/crypto/translator/amcl/amcl.proto 20-32 *)
Definition ECP_ : table ecp := [(1, KBytes ex); (2, KBytes ey)].
Definition ECP2_ : table ecp2 := [(1, KBytes exa); (2, KBytes exb); (3, KBytes eya); (4, KBytes eyb)].

(** /repo/bccsp/schemes/dlog/crypto/idemix.proto *)
Definition IssuerPublicKey_ : table IssuerPublicKey :=
  [(1, KRepeated ip_names); (2, part ip_hsk ECP_); (3, part ip_hrand ECP_);
   (4, KMessages (fun k => map (fun o => laid_out ECP_ (match o with Some e => e | None => {| ex := []; ey := [] |} end)) (ip_hattrs k)));
   (5, part ip_w ECP2_); (6, part ip_barg1 ECP_); (7, part ip_barg2 ECP_); (8, KBytes ip_c); (9, KBytes ip_s); (10, KBytes ip_hash)].
Definition IssuerKey_ : table IssuerKey := [(1, KBytes ik_isk); (2, part ik_ipk IssuerPublicKey_)].
Definition Credential_ : table Credential :=
  [(1, part cr_a ECP_); (2, part cr_b ECP_); (3, KBytes cr_e); (4, KBytes cr_s); (5, KRepeated (fun c => map nilbytes (cr_attrs c)))].
Definition CredRequest_ : table CredRequest :=
  [(1, part rq_nym ECP_); (2, KBytes (fun r => nilbytes (rq_nonce r))); (3, KBytes rq_c); (4, KBytes rq_s)].
(** EIDNym and RHNym *)
Definition AttrNym_ : table AttrNym := [(1, part an_nym ECP_); (2, KBytes (fun a => nilbytes (an_s a)))].
(** non_revocation_proof is never set *)
Definition NonRevocationProof_ : table NonRevocationProof := [(1, KInt nr_alg); (2, KBytes (fun _ => []))].
Definition Signature_ : table Dlog.Signature :=
  [(1, part sg_aprime ECP_); (2, part sg_abar ECP_); (3, part sg_bprime ECP_); (4, KBytes sg_c); (5, KBytes sg_ssk); (6, KBytes sg_se);
   (7, KBytes sg_sr2); (8, KBytes sg_sr3); (9, KBytes sg_ssprime); (10, KRepeated sg_sattrs); (11, KBytes sg_nonce); (12, part sg_nym ECP_);
   (13, KBytes sg_srnym); (14, part sg_epochpk ECP2_); (15, KBytes sg_pksig); (16, KInt sg_epoch);
   (17, part sg_nonrev NonRevocationProof_); (18, part sg_eid AttrNym_); (19, part sg_rh AttrNym_)].
Definition NymSignature_ : table NymSignature := [(1, KBytes ns_c); (2, KBytes ns_ssk); (3, KBytes ns_srnym); (4, KBytes ns_nonce)].
(** revocation_data is never set *)
Definition CRI_ : table CRI :=
  [(1, KInt cri_epoch); (2, part cri_epochpk ECP2_); (3, KBytes cri_sig); (4, KInt cri_alg); (5, KBytes (fun _ => []))].

(** /repo/bccsp/schemes/aries/cred.proto; the signature's NonRevocationProof is its algorithm *)
Definition ACredential_ : table ACredential := [(1, KBytes ac_cred); (2, KRepeated ac_attrs); (3, KInt ac_skpos)].
Definition AAlg_ : table Z := [(1, KInt (fun z => z)); (2, KBytes (fun _ => []))].
Definition ASignature_ : table ASignature :=
  [(1, KBytes as_main); (2, KBytes as_nonce); (3, KBytes as_nym); (4, KBytes as_nym_proof); (5, KBytes as_eid); (6, KBytes as_eid_proof);
   (7, KInt as_eid_idx); (8, KBytes as_rh); (9, KBytes as_rh_proof); (10, KInt as_rh_idx); (11, KBytes as_epoch_pk); (12, KBytes as_pk_sig);
   (13, KInt as_epoch); (14, part as_alg AAlg_)].
Definition ACRI_ : table ACRI :=
  [(1, KInt acri_epoch); (2, KBytes acri_epochpk); (3, KBytes acri_sig); (4, KInt acri_alg); (5, KBytes (fun _ => []))].
Definition ANymSignature_ : table ANymSignature := [(1, KBytes ans_main); (2, KBytes ans_nonce)].

(** /repo/msp/config/identities.proto, msp_config.proto; the fields schema are never set *)
Definition SerializedIdemixIdentity_ : table idemix_serialized :=
  [(1, KBytes (fun i => nilbytes (ii_nymx i))); (2, KBytes (fun i => nilbytes (ii_nymy i))); (3, KBytes ii_ou); (4, KBytes ii_role);
   (5, KBytes ii_proof); (6, KBytes (fun _ => []))].
Definition SignerConfig_ : table signer_config :=
  [(1, KBytes sc_cred); (2, KBytes sc_sk); (3, KBytes sc_ou); (4, KInt sc_role); (5, KBytes sc_eid); (6, KBytes sc_cri); (7, KBytes sc_rh);
   (8, KBytes sc_curve); (9, KBytes (fun _ => []))].
Definition MSPConfig_ : table msp_config :=
  [(1, KBytes cf_name); (2, KBytes cf_ipk); (3, part cf_signer SignerConfig_); (4, KBytes cf_revpk); (5, KInt cf_epoch); (6, KBytes cf_curve);
   (7, KBytes (fun _ => []))].

(** github.com/hyperledger/fabric-protos-go-apiv2/msp *)
Definition MSPRole_ : table role_msg := [(1, KBytes ro_mspid); (2, KInt ro_role)].
Definition OrganizationUnit_ : table ou_msg := [(1, KBytes ou_mspid); (2, KBytes ou_id); (3, KBytes ou_certifiers)].
Definition SerializedIdentity_ : table serialized := [(1, KBytes si_mspid); (2, KBytes si_bytes)].
Definition MSPPrincipal_ : table principal := [(1, KInt pr_class); (2, KBytes pr_bytes)].
Definition CombinedPrincipal_ : table (list principal) := [(1, KMessages (fun l => map (laid_out MSPPrincipal_) l))].
Definition MSPIdentityAnonymity_ : table Z := [(1, KInt (fun z => z))].

(** Writing puts every field where the table says, and every byte string laid out like this, by whatever program, is
    read as the message, if [K] says that it has one form only. *)
Definition follows {X} (c : codec X) (L : table X) (K : X -> Prop) : Prop :=
  (forall m b, enc c m = Some b -> laid_out L m b) /\ (forall m b, K m -> laid_out L m b -> dec c b = Some m).
