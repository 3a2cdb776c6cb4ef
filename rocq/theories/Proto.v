(** * Protocol buffers: the encoding of the messages of this repository
    Models what proto.Marshal and proto.Unmarshal of google.golang.org/protobuf v1.36.11 (go.mod) do with
    the messages of /repo/bccsp/schemes/dlog/crypto/idemix.proto, .../translator/amcl/amcl.proto,
    /repo/bccsp/schemes/aries/cred.proto, /repo/msp/config/*.proto and the messages of
    fabric-protos-go-apiv2/msp that /repo/msp uses.  The theorems of the other files are about
    arbitrary codecs; here is the one the code uses.
    Simplifications: groups may be nested to any depth (the library stops at 10000 levels);
    lengths are unbounded; unknown fields are skipped and not kept (no code of the repository encodes a
    message it has decoded). *)
From Verif Require Import Base Dlog Bridge Aries Msp.
Unset Strict Implicit.
Local Open Scope Z_scope.

(** ** varints *)
Definition zb (b : byte) : Z := Z.of_N (Byte.to_N b).

(** protowire.AppendVarint *)
Fixpoint varint_ (fuel : nat) (z : Z) : bytes :=
  match fuel with
  | O => []
  | S n => if z <? 128 then [byte_of_Z z] else byte_of_Z (z mod 128 + 128) :: varint_ n (z / 128)
  end.
Definition varint (z : Z) : bytes := varint_ (S (Z.to_nat (Z.log2 z))) z.

(** the value of the varint at the front, the number of its bytes, and the rest *)
Fixpoint read_varint (b : bytes) : option (Z * nat * bytes) :=
  match b with
  | [] => None
  | c :: r =>
      if zb c <? 128 then Some (zb c, 1%nat, r)
      else match read_varint r with
           | Some (v, k, r') => Some (zb c - 128 + 128 * v, S k, r')
           | None => None
           end
  end.

(** protowire.ConsumeVarint: at most ten bytes, at most 64 bits *)
Definition consume_varint (b : bytes) : option (Z * bytes) :=
  match read_varint b with
  | Some (v, k, r) => if (k <=? 10)%nat && (v <? 2 ^ 64) then Some (v, r) else None
  | None => None
  end.

(** protowire.ConsumeBytes.  A length of more than ten bytes is an error of ConsumeVarint; since the model's
    byte strings are unbounded it is read here if it has no superfluous bytes (it is then over
    2^70, so that for strings that fit into memory the result is an error just the same). *)
Definition consume_bytes (b : bytes) : option (bytes * bytes) :=
  match read_varint b with
  | Some (v, k, r) =>
      if ((k <=? 10)%nat || (k =? length (varint v))%nat) && (v <=? Z.of_nat (length r))
      then Some (firstn (Z.to_nat v) r, skipn (Z.to_nat v) r) else None
  | None => None
  end.

Definition consume_fixed (n : nat) (b : bytes) : option (bytes * bytes) :=
  if (n <=? length b)%nat then Some (firstn n b, skipn n b) else None.

(** ** fields *)
Inductive wval := WVar (v : Z) | W64 (b : bytes) | WLen (b : bytes) | WGroup | W32 (b : bytes).
Definition fields := list (Z * wval).

(** the rest after the end of group [num] (protowire.ConsumeFieldValue on StartGroupType) *)
Fixpoint skip_group (fuel : nat) (num : Z) (b : bytes) : option bytes :=
  match fuel with
  | O => None
  | S f =>
      match consume_varint b with
      | None => None
      | Some (tag, r) =>
          let n := tag / 8 in
          if (n <? 1) || (2 ^ 31 - 1 <? n) then None else
          match tag mod 8 with
          | 0 => match consume_varint r with Some (_, r') => skip_group f num r' | None => None end
          | 1 => match consume_fixed 8 r with Some (_, r') => skip_group f num r' | None => None end
          | 2 => match consume_bytes r with Some (_, r') => skip_group f num r' | None => None end
          | 3 => match skip_group f n r with Some r' => skip_group f num r' | None => None end
          | 4 => if n =? num then Some r else None
          | 5 => match consume_fixed 4 r with Some (_, r') => skip_group f num r' | None => None end
          | _ => None
          end
      end
  end.

Definition consume_value (num typ : Z) (b : bytes) : option (wval * bytes) :=
  match typ with
  | 0 => match consume_varint b with Some (v, r) => Some (WVar v, r) | None => None end
  | 1 => match consume_fixed 8 b with Some (v, r) => Some (W64 v, r) | None => None end
  | 2 => match consume_bytes b with Some (v, r) => Some (WLen v, r) | None => None end
  | 3 => match skip_group (length b) num b with Some r => Some (WGroup, r) | None => None end
  | 5 => match consume_fixed 4 b with Some (v, r) => Some (W32 v, r) | None => None end
  | _ => None
  end.

(** the loop of MessageInfo.unmarshalPointer: tags and values until the end; field numbers are 1 .. 2^29-1 *)
Fixpoint parse_ (fuel : nat) (b : bytes) : option fields :=
  match b with
  | [] => Some []
  | _ :: _ =>
      match fuel with
      | O => None
      | S f =>
          match consume_varint b with
          | None => None
          | Some (tag, r) =>
              let n := tag / 8 in
              if (n <? 1) || (2 ^ 29 - 1 <? n) then None else
              match consume_value n (tag mod 8) r with
              | None => None
              | Some (v, r') => match parse_ f r' with Some fs => Some ((n, v) :: fs) | None => None end
              end
          end
      end
  end.
Definition parse (b : bytes) : option fields := parse_ (length b) b.

Definition print_field (f : Z * wval) : bytes :=
  match f with
  | (n, WVar v) => varint (n * 8) ++ varint v
  | (n, W64 b) => varint (n * 8 + 1) ++ b
  | (n, WLen b) => varint (n * 8 + 2) ++ varint (Z.of_nat (length b)) ++ b
  | (n, WGroup) => varint (n * 8 + 3) ++ varint (n * 8 + 4)
  | (n, W32 b) => varint (n * 8 + 5) ++ b
  end.
Definition print (fs : fields) : bytes := concat (map print_field fs).

(** ** UTF-8, which Marshal and Unmarshal require of string fields (utf8.Valid) *)
Definition cont (b : byte) : bool := (128 <=? zb b) && (zb b <=? 191).
Definition within (lo hi : Z) (b : byte) : bool := (lo <=? zb b) && (zb b <=? hi).
Fixpoint utf8_ok (b : bytes) : bool :=
  match b with
  | [] => true
  | c :: r =>
      if zb c <? 128 then utf8_ok r else
      match r with
      | [] => false
      | c1 :: r1 =>
          if within 194 223 c then cont c1 && utf8_ok r1 else
          match r1 with
          | [] => false
          | c2 :: r2 =>
              if within 224 239 c
              then within (if zb c =? 224 then 160 else 128) (if zb c =? 237 then 159 else 191) c1 && cont c2 && utf8_ok r2 else
              match r2 with
              | [] => false
              | c3 :: r3 =>
                  within 240 244 c && within (if zb c =? 240 then 144 else 128) (if zb c =? 244 then 143 else 191) c1
                  && cont c2 && cont c3 && utf8_ok r3
              end
          end
      end
  end.
Definition utf8 (b : bytes) : Prop := utf8_ok b = true.

(** ** writing fields: proto3 leaves out zero values; fields are written in the order of their numbers *)
Definition w_bytes (i : Z) (b : bytes) : fields := match b with [] => [] | _ => [(i, WLen b)] end.
Definition w_obytes (i : Z) (o : option bytes) : fields := match o with Some b => w_bytes i b | None => [] end.
Definition w_list (i : Z) (l : list bytes) : fields := map (fun b => (i, WLen b)) l.
Definition w_int (i z : Z) : fields := if z =? 0 then [] else [(i, WVar (z mod 2 ^ 64))].
Definition w_msg (i : Z) (o : option fields) : fields := match o with Some fs => [(i, WLen (print fs))] | None => [] end.
(** a nil element of a repeated field is written as an empty one *)
Definition or_empty (o : option fields) : fields := match o with Some fs => fs | None => [] end.
Definition or_nil (o : option bytes) : bytes := match o with Some b => b | None => [] end.

(** ** reading fields: the last value of a singular field counts, the parts of a singular message are merged,
    a value of the wrong wire type is treated as an unknown field *)
Definition lens (i : Z) (fs : fields) : list bytes :=
  flat_map (fun f => match f with (n, WLen b) => if n =? i then [b] else [] | _ => [] end) fs.
Definition vars (i : Z) (fs : fields) : list Z :=
  flat_map (fun f => match f with (n, WVar v) => if n =? i then [v] else [] | _ => [] end) fs.

Definition signed (w z : Z) : Z := let m := z mod 2 ^ w in if m <? 2 ^ (w - 1) then m else m - 2 ^ w.

Definition r_bytes (i : Z) (fs : fields) : bytes := last (lens i fs) [].
Definition r_obytes (i : Z) (fs : fields) : option bytes := match r_bytes i fs with [] => None | b => Some b end.
Definition r_int (w i : Z) (fs : fields) : Z := signed w (last (vars i fs) 0).
Definition r_strings (i : Z) (fs : fields) : option (list bytes) :=
  if forallb utf8_ok (lens i fs) then Some (lens i fs) else None.
Definition r_string (i : Z) (fs : fields) : option bytes :=
  match r_strings i fs with Some l => Some (last l []) | None => None end.

Fixpoint all_some {X Y} (f : X -> option Y) (l : list X) : option (list Y) :=
  match l with
  | [] => Some []
  | x :: l' => match f x, all_some f l' with Some y, Some ys => Some (y :: ys) | _, _ => None end
  end.
Definition r_msg {X} (read : fields -> option X) (i : Z) (fs : fields) : option (option X) :=
  match lens i fs with
  | [] => Some None
  | l => match all_some parse l with
         | Some ls => match read (concat ls) with Some x => Some (Some x) | None => None end
         | None => None
         end
  end.
Definition r_msgs {X} (read : fields -> option X) (i : Z) (fs : fields) : option (list X) :=
  all_some (fun b => match parse b with Some fs => read fs | None => None end) (lens i fs).

Definition pb {X} (write : X -> option fields) (read : fields -> option X) : codec X :=
  {| enc := fun x => match write x with Some fs => Some (print fs) | None => None end;
     dec := fun b => match parse b with Some fs => read fs | None => None end |}.

Local Notation "'let?' x ':=' m 'in' k" := (match m with Some x => k | None => None end)
  (at level 200, x name, m at level 100, k at level 200).

(** ** amcl.proto 20-23 ECP, 27-32 ECP2 *)
Definition w_ecp (e : ecp) : fields := w_bytes 1 (ex e) ++ w_bytes 2 (ey e).
Definition r_ecp (fs : fields) : option ecp := Some {| ex := r_bytes 1 fs; ey := r_bytes 2 fs |}.
Definition w_ecp2 (e : ecp2) : fields := w_bytes 1 (exa e) ++ w_bytes 2 (exb e) ++ w_bytes 3 (eya e) ++ w_bytes 4 (eyb e).
Definition r_ecp2 (fs : fields) : option ecp2 := Some {| exa := r_bytes 1 fs; exb := r_bytes 2 fs; eya := r_bytes 3 fs; eyb := r_bytes 4 fs |}.

(** ** idemix.proto *)
(** 25-36 IssuerPublicKey *)
Definition w_ipk (k : IssuerPublicKey) : option fields :=
  if forallb utf8_ok (ip_names k) then
    Some (w_list 1 (ip_names k) ++ w_msg 2 (option_map w_ecp (ip_hsk k)) ++ w_msg 3 (option_map w_ecp (ip_hrand k))
      ++ w_list 4 (map (fun o => print (or_empty (option_map w_ecp o))) (ip_hattrs k)) ++ w_msg 5 (option_map w_ecp2 (ip_w k))
      ++ w_msg 6 (option_map w_ecp (ip_barg1 k)) ++ w_msg 7 (option_map w_ecp (ip_barg2 k))
      ++ w_bytes 8 (ip_c k) ++ w_bytes 9 (ip_s k) ++ w_bytes 10 (ip_hash k))
  else None.
Definition r_ipk (fs : fields) : option IssuerPublicKey :=
  let? names := r_strings 1 fs in
  let? hsk := r_msg r_ecp 2 fs in
  let? hrand := r_msg r_ecp 3 fs in
  let? hattrs := r_msgs r_ecp 4 fs in
  let? w := r_msg r_ecp2 5 fs in
  let? barg1 := r_msg r_ecp 6 fs in
  let? barg2 := r_msg r_ecp 7 fs in
  Some {| ip_names := names; ip_hsk := hsk; ip_hrand := hrand; ip_hattrs := map Some hattrs; ip_w := w; ip_barg1 := barg1;
          ip_barg2 := barg2; ip_c := r_bytes 8 fs; ip_s := r_bytes 9 fs; ip_hash := r_bytes 10 fs |}.
Definition pb_ipk : codec IssuerPublicKey := pb w_ipk r_ipk.

(** 41-44 IssuerKey *)
Definition w_ik (k : IssuerKey) : option fields :=
  match ik_ipk k with
  | None => Some (w_bytes 1 (ik_isk k))
  | Some p => let? fs := w_ipk p in Some (w_bytes 1 (ik_isk k) ++ w_msg 2 (Some fs))
  end.
Definition r_ik (fs : fields) : option IssuerKey :=
  let? ipk := r_msg r_ipk 2 fs in Some {| ik_isk := r_bytes 1 fs; ik_ipk := ipk |}.
Definition pb_ik : codec IssuerKey := pb w_ik r_ik.

(** 49-55 Credential *)
Definition w_cred (c : Credential) : fields :=
  w_msg 1 (option_map w_ecp (cr_a c)) ++ w_msg 2 (option_map w_ecp (cr_b c)) ++ w_bytes 3 (cr_e c) ++ w_bytes 4 (cr_s c)
  ++ w_list 5 (map or_nil (cr_attrs c)).
Definition r_cred (fs : fields) : option Credential :=
  let? a := r_msg r_ecp 1 fs in
  let? b := r_msg r_ecp 2 fs in
  Some {| cr_a := a; cr_b := b; cr_e := r_bytes 3 fs; cr_s := r_bytes 4 fs; cr_attrs := map Some (lens 5 fs) |}.
Definition pb_cred : codec Credential := pb (fun c => Some (w_cred c)) r_cred.

(** 62-67 CredRequest *)
Definition w_req (r : CredRequest) : fields :=
  w_msg 1 (option_map w_ecp (rq_nym r)) ++ w_obytes 2 (rq_nonce r) ++ w_bytes 3 (rq_c r) ++ w_bytes 4 (rq_s r).
Definition r_req (fs : fields) : option CredRequest :=
  let? nym := r_msg r_ecp 1 fs in
  Some {| rq_nym := nym; rq_nonce := r_obytes 2 fs; rq_c := r_bytes 3 fs; rq_s := r_bytes 4 fs |}.
Definition pb_req : codec CredRequest := pb (fun r => Some (w_req r)) r_req.

(** 72-75 EIDNym, 80-83 RHNym *)
Definition w_attr_nym (a : AttrNym) : fields := w_msg 1 (option_map w_ecp (an_nym a)) ++ w_obytes 2 (an_s a).
Definition r_attr_nym (fs : fields) : option AttrNym :=
  let? nym := r_msg r_ecp 1 fs in Some {| an_nym := nym; an_s := r_obytes 2 fs |}.

(** 114-117 NonRevocationProof; field 2 is not in the model *)
Definition w_nonrev (n : NonRevocationProof) : fields := w_int 1 (nr_alg n).
Definition r_nonrev (fs : fields) : option NonRevocationProof := Some {| nr_alg := r_int 32 1 fs |}.

(** 91-111 Signature *)
Definition w_sig (s : Signature) : fields :=
  w_msg 1 (option_map w_ecp (sg_aprime s)) ++ w_msg 2 (option_map w_ecp (sg_abar s)) ++ w_msg 3 (option_map w_ecp (sg_bprime s))
  ++ w_bytes 4 (sg_c s) ++ w_bytes 5 (sg_ssk s) ++ w_bytes 6 (sg_se s) ++ w_bytes 7 (sg_sr2 s) ++ w_bytes 8 (sg_sr3 s)
  ++ w_bytes 9 (sg_ssprime s) ++ w_list 10 (sg_sattrs s) ++ w_bytes 11 (sg_nonce s) ++ w_msg 12 (option_map w_ecp (sg_nym s))
  ++ w_bytes 13 (sg_srnym s) ++ w_msg 14 (option_map w_ecp2 (sg_epochpk s)) ++ w_bytes 15 (sg_pksig s) ++ w_int 16 (sg_epoch s)
  ++ w_msg 17 (option_map w_nonrev (sg_nonrev s)) ++ w_msg 18 (option_map w_attr_nym (sg_eid s)) ++ w_msg 19 (option_map w_attr_nym (sg_rh s)).
Definition r_sig (fs : fields) : option Signature :=
  let? aprime := r_msg r_ecp 1 fs in
  let? abar := r_msg r_ecp 2 fs in
  let? bprime := r_msg r_ecp 3 fs in
  let? nym := r_msg r_ecp 12 fs in
  let? epochpk := r_msg r_ecp2 14 fs in
  let? nonrev := r_msg r_nonrev 17 fs in
  let? eid := r_msg r_attr_nym 18 fs in
  let? rh := r_msg r_attr_nym 19 fs in
  Some {| sg_aprime := aprime; sg_abar := abar; sg_bprime := bprime; sg_c := r_bytes 4 fs; sg_ssk := r_bytes 5 fs; sg_se := r_bytes 6 fs;
          sg_sr2 := r_bytes 7 fs; sg_sr3 := r_bytes 8 fs; sg_ssprime := r_bytes 9 fs; sg_sattrs := lens 10 fs; sg_nonce := r_bytes 11 fs;
          sg_nym := nym; sg_srnym := r_bytes 13 fs; sg_epochpk := epochpk; sg_pksig := r_bytes 15 fs; sg_epoch := r_int 64 16 fs;
          sg_nonrev := nonrev; sg_eid := eid; sg_rh := rh |}.
Definition pb_sig : codec Signature := pb (fun s => Some (w_sig s)) r_sig.

(** 124-133 NymSignature *)
Definition w_nsig (s : NymSignature) : fields :=
  w_bytes 1 (ns_c s) ++ w_bytes 2 (ns_ssk s) ++ w_bytes 3 (ns_srnym s) ++ w_bytes 4 (ns_nonce s).
Definition r_nsig (fs : fields) : option NymSignature :=
  Some {| ns_c := r_bytes 1 fs; ns_ssk := r_bytes 2 fs; ns_srnym := r_bytes 3 fs; ns_nonce := r_bytes 4 fs |}.
Definition pb_nsig : codec NymSignature := pb (fun s => Some (w_nsig s)) r_nsig.

(** 135-150 CredentialRevocationInformation; field 5 is not in the model *)
Definition w_cri (c : CRI) : fields :=
  w_int 1 (cri_epoch c) ++ w_msg 2 (option_map w_ecp2 (cri_epochpk c)) ++ w_bytes 3 (cri_sig c) ++ w_int 4 (cri_alg c).
Definition r_cri (fs : fields) : option CRI :=
  let? epk := r_msg r_ecp2 2 fs in
  Some {| cri_epoch := r_int 64 1 fs; cri_epochpk := epk; cri_sig := r_bytes 3 fs; cri_alg := r_int 32 4 fs |}.
Definition pb_cri : codec CRI := pb (fun c => Some (w_cri c)) r_cri.

(** ** cred.proto *)
(** 14-18 Credential *)
Definition w_acred (c : ACredential) : fields := w_bytes 1 (ac_cred c) ++ w_list 2 (ac_attrs c) ++ w_int 3 (ac_skpos c).
Definition r_acred (fs : fields) : option ACredential :=
  Some {| ac_cred := r_bytes 1 fs; ac_attrs := lens 2 fs; ac_skpos := r_int 32 3 fs |}.
Definition pb_acred : codec ACredential := pb (fun c => Some (w_acred c)) r_acred.

(** 21-38 Signature, 41-44 NonRevocationProof *)
Definition w_asig (s : ASignature) : fields :=
  w_bytes 1 (as_main s) ++ w_bytes 2 (as_nonce s) ++ w_bytes 3 (as_nym s) ++ w_bytes 4 (as_nym_proof s) ++ w_bytes 5 (as_eid s)
  ++ w_bytes 6 (as_eid_proof s) ++ w_int 7 (as_eid_idx s) ++ w_bytes 8 (as_rh s) ++ w_bytes 9 (as_rh_proof s) ++ w_int 10 (as_rh_idx s)
  ++ w_bytes 11 (as_epoch_pk s) ++ w_bytes 12 (as_pk_sig s) ++ w_int 13 (as_epoch s) ++ w_msg 14 (option_map (w_int 1) (as_alg s)).
Definition r_alg (fs : fields) : option Z := Some (r_int 32 1 fs).
Definition r_asig (fs : fields) : option ASignature :=
  let? alg := r_msg r_alg 14 fs in
  Some {| as_main := r_bytes 1 fs; as_nonce := r_bytes 2 fs; as_nym := r_bytes 3 fs; as_nym_proof := r_bytes 4 fs; as_eid := r_bytes 5 fs;
          as_eid_proof := r_bytes 6 fs; as_eid_idx := r_int 32 7 fs; as_rh := r_bytes 8 fs; as_rh_proof := r_bytes 9 fs;
          as_rh_idx := r_int 32 10 fs; as_epoch_pk := r_bytes 11 fs; as_pk_sig := r_bytes 12 fs; as_epoch := r_int 64 13 fs; as_alg := alg |}.
Definition pb_asig : codec ASignature := pb (fun s => Some (w_asig s)) r_asig.

(** 46-61 CredentialRevocationInformation *)
Definition w_acri (c : ACRI) : fields :=
  w_int 1 (acri_epoch c) ++ w_bytes 2 (acri_epochpk c) ++ w_bytes 3 (acri_sig c) ++ w_int 4 (acri_alg c).
Definition r_acri (fs : fields) : option ACRI :=
  Some {| acri_epoch := r_int 64 1 fs; acri_epochpk := r_bytes 2 fs; acri_sig := r_bytes 3 fs; acri_alg := r_int 32 4 fs |}.
Definition pb_acri : codec ACRI := pb (fun c => Some (w_acri c)) r_acri.

(** 63-66 NymSignature *)
Definition w_ansig (s : ANymSignature) : fields := w_bytes 1 (ans_main s) ++ w_bytes 2 (ans_nonce s).
Definition r_ansig (fs : fields) : option ANymSignature := Some {| ans_main := r_bytes 1 fs; ans_nonce := r_bytes 2 fs |}.
Definition pb_ansig : codec ANymSignature := pb (fun s => Some (w_ansig s)) r_ansig.

(** ** msp/config/identities.proto 16-38 SerializedIdemixIdentity, msp_config.proto 14-65 IdemixMSPConfig and
    IdemixMSPSignerConfig; the fields schema (6, 7, 9) are checked to be UTF-8 and left out *)
Definition w_ii (i : idemix_serialized) : fields :=
  w_obytes 1 (ii_nymx i) ++ w_obytes 2 (ii_nymy i) ++ w_bytes 3 (ii_ou i) ++ w_bytes 4 (ii_role i) ++ w_bytes 5 (ii_proof i).
Definition r_ii (fs : fields) : option idemix_serialized :=
  let? _ := r_string 6 fs in
  Some {| ii_nymx := r_obytes 1 fs; ii_nymy := r_obytes 2 fs; ii_ou := r_bytes 3 fs; ii_role := r_bytes 4 fs; ii_proof := r_bytes 5 fs |}.

Definition w_signer (s : signer_config) : option fields :=
  if utf8_ok (sc_ou s) && utf8_ok (sc_eid s) && utf8_ok (sc_rh s) && utf8_ok (sc_curve s) then
    Some (w_bytes 1 (sc_cred s) ++ w_bytes 2 (sc_sk s) ++ w_bytes 3 (sc_ou s) ++ w_int 4 (sc_role s) ++ w_bytes 5 (sc_eid s)
      ++ w_bytes 6 (sc_cri s) ++ w_bytes 7 (sc_rh s) ++ w_bytes 8 (sc_curve s))
  else None.
Definition r_signer (fs : fields) : option signer_config :=
  let? ou := r_string 3 fs in
  let? eid := r_string 5 fs in
  let? rh := r_string 7 fs in
  let? curve := r_string 8 fs in
  let? _ := r_string 9 fs in
  Some {| sc_cred := r_bytes 1 fs; sc_sk := r_bytes 2 fs; sc_ou := ou; sc_role := r_int 32 4 fs; sc_eid := eid; sc_cri := r_bytes 6 fs;
          sc_rh := rh; sc_curve := curve |}.

Definition w_conf (c : msp_config) : option fields :=
  if utf8_ok (cf_name c) && utf8_ok (cf_curve c) then
    let? sg := match cf_signer c with None => Some None | Some s => option_map Some (w_signer s) end in
    Some (w_bytes 1 (cf_name c) ++ w_bytes 2 (cf_ipk c) ++ w_msg 3 sg ++ w_bytes 4 (cf_revpk c) ++ w_int 5 (cf_epoch c) ++ w_bytes 6 (cf_curve c))
  else None.
Definition r_conf (fs : fields) : option msp_config :=
  let? name := r_string 1 fs in
  let? sg := r_msg r_signer 3 fs in
  let? curve := r_string 6 fs in
  let? _ := r_string 7 fs in
  Some {| cf_name := name; cf_ipk := r_bytes 2 fs; cf_signer := sg; cf_revpk := r_bytes 4 fs; cf_epoch := r_int 64 5 fs; cf_curve := curve |}.

(** ** the messages of fabric-protos-go-apiv2/msp: MSPRole, OrganizationUnit, SerializedIdentity, MSPPrincipal,
    CombinedPrincipal, MSPIdentityAnonymity *)
Definition w_role (r : role_msg) : option fields :=
  if utf8_ok (ro_mspid r) then Some (w_bytes 1 (ro_mspid r) ++ w_int 2 (ro_role r)) else None.
Definition r_role (fs : fields) : option role_msg :=
  let? m := r_string 1 fs in Some {| ro_mspid := m; ro_role := r_int 32 2 fs |}.
Definition w_ou (o : ou_msg) : option fields :=
  if utf8_ok (ou_mspid o) && utf8_ok (ou_id o) then Some (w_bytes 1 (ou_mspid o) ++ w_bytes 2 (ou_id o) ++ w_bytes 3 (ou_certifiers o)) else None.
Definition r_ou (fs : fields) : option ou_msg :=
  let? m := r_string 1 fs in
  let? u := r_string 2 fs in
  Some {| ou_mspid := m; ou_id := u; ou_certifiers := r_bytes 3 fs |}.
Definition w_si (s : serialized) : option fields :=
  if utf8_ok (si_mspid s) then Some (w_bytes 1 (si_mspid s) ++ w_bytes 2 (si_bytes s)) else None.
Definition r_si (fs : fields) : option serialized :=
  let? m := r_string 1 fs in Some {| si_mspid := m; si_bytes := r_bytes 2 fs |}.
Definition w_principal (p : principal) : fields := w_int 1 (pr_class p) ++ w_bytes 2 (pr_bytes p).
Definition r_principal (fs : fields) : option principal := Some {| pr_class := r_int 32 1 fs; pr_bytes := r_bytes 2 fs |}.
Definition w_comb (l : list principal) : fields := w_list 1 (map (fun p => print (w_principal p)) l).
Definition r_comb (fs : fields) : option (list principal) := r_msgs r_principal 1 fs.

Definition pb_msp : codecs :=
  {| c_role := pb w_role r_role; c_ou := pb w_ou r_ou; c_si := pb w_si r_si; c_ii := pb (fun i => Some (w_ii i)) r_ii;
     c_comb := pb (fun l => Some (w_comb l)) r_comb; c_anon := pb (fun z => Some (w_int 1 z)) r_alg;
     c_conf := pb w_conf r_conf; c_signer := pb w_signer r_signer |}.
