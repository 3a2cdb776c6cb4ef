(** Model of the command line tool idemixgen (tools/idemixgen) and of the reading of the directory
    it writes (msp/idemixmsp.go 880-948).

    The tool is a sequence of system calls on a file system; [prog] is that sequence, [exec] runs it
    without faults, and [step] runs it one call at a time so that faults, crashes and other processes
    can be expressed.  Simplifications: permissions, file modes and links are not modelled (a failing
    call is a fault); kingpin has parsed the flags; a panic ends the process like os.Exit(1). *)
From Verif Require Import Base Curve Dlog Bridge Bbs Aries Csp CspInst Msp.
Unset Strict Implicit.

(** ** File system *)
Inductive node := Dir | File (content : bytes).
(** a location, as the list of names from the root *)
Definition path := list bytes.
Definition fs := path -> option node.

Fixpoint path_eqb (p q : path) : bool :=
  match p, q with
  | [], [] => true
  | a :: p, b :: q => bytes_eqb a b && path_eqb p q
  | _, _ => false
  end.
Fixpoint prefix (p q : path) : bool :=
  match p, q with
  | [], _ => true
  | a :: p, b :: q => bytes_eqb a b && prefix p q
  | _, _ => false
  end.
Definition fput (f : fs) (p : path) (n : node) : fs := fun q => if path_eqb q p then Some n else f q.
Definition parent (p : path) : path := removelast p.

(** os.WriteFile opens with O_WRONLY|O_CREATE|O_TRUNC *)
Definition writable (f : fs) (p : path) : bool :=
  match p with
  | [] => false
  | _ => match f (parent p), f p with Some Dir, Some Dir => false | Some Dir, _ => true | _, _ => false end
  end.
(** os.MkdirAll, up to the first [n] names of [p]; it fails at a file *)
Definition no_file_above (f : fs) (p : path) (n : nat) : bool :=
  forallb (fun i => match f (firstn i p) with Some (File _) => false | _ => true end) (seq 0 (S n)).
Definition mkdirs (f : fs) (p : path) (n : nat) : fs :=
  fun q => match f q with
           | None => if prefix q p && (length q <=? n) then Some Dir else None
           | x => x
           end.

(** ** Programs *)
Inductive prog :=
| Done (ok : bool)                                      (* return of main, or os.Exit(1) *)
| Stat (p : path) (k : bool -> prog)                    (* os.Stat: err == nil *)
| MkdirAll (p : path) (k : bool -> prog)
| WriteFile (p : path) (b : bytes) (k : bool -> prog)
| ReadFile (p : path) (k : option bytes -> prog).

(** main.go 283-288 handleError *)
Definition must (k : prog) : bool -> prog := fun ok => if ok then k else Done false.
Definition must_read (k : bytes -> prog) : option bytes -> prog := fun r => match r with Some b => k b | None => Done false end.
(** main.go 274-280 checkDirectoryNotExists *)
Definition must_not_exist (p : path) (k : prog) : prog := Stat p (fun e => if e then Done false else k).

Definition mkdir_all (p : path) (k : prog) : prog := MkdirAll p (must k).
(** main.go 223-226 writeFile *)
Definition write_file (p : path) (b : bytes) (k : prog) : prog := WriteFile p b (must k).
Definition read_or_exit (p : path) (k : bytes -> prog) : prog := ReadFile p (must_read k).
Notation "'do!' c ; k" := (c k) (at level 200, c at level 10, k at level 200, only parsing).
Notation "'let!' x := c ; k" := (c (fun x => k)) (at level 200, x name, c at level 10, k at level 200, only parsing).

(** without faults *)
Fixpoint exec (f : fs) (g : prog) : fs * bool :=
  match g with
  | Done ok => (f, ok)
  | Stat p k => exec f (k (match f p with Some _ => true | None => false end))
  | MkdirAll p k => if no_file_above f p (length p) then exec (mkdirs f p (length p)) (k true) else exec f (k false)
  | WriteFile p b k => if writable f p then exec (fput f p (File b)) (k true) else exec f (k false)
  | ReadFile p k => exec f (k (match f p with Some (File b) => Some b | _ => None end))
  end.

(** with faults: any call may fail, MkdirAll after making some of the directories, WriteFile before
    opening the file or after writing the first [n] bytes.  With [lie], Stat may fail on a path that
    exists.  A crash is the end of a sequence of steps. *)
Inductive step (lie : bool) : fs * prog -> fs * prog -> Prop :=
| s_stat f p k : step lie (f, Stat p k) (f, k (match f p with Some _ => true | None => false end))
| s_stat_fail f p k : lie = true -> step lie (f, Stat p k) (f, k false)
| s_mkdir f p k : no_file_above f p (length p) = true -> step lie (f, MkdirAll p k) (mkdirs f p (length p), k true)
| s_mkdir_none f p k : step lie (f, MkdirAll p k) (f, k false)
| s_mkdir_fail f p k n : n <= length p -> no_file_above f p n = true -> step lie (f, MkdirAll p k) (mkdirs f p n, k false)
| s_write f p b k : writable f p = true -> step lie (f, WriteFile p b k) (fput f p (File b), k true)
| s_write_fail f p b k n : writable f p = true -> step lie (f, WriteFile p b k) (fput f p (File (firstn n b)), k false)
| s_open_fail f p b k : step lie (f, WriteFile p b k) (f, k false)
| s_read f p b k : f p = Some (File b) -> step lie (f, ReadFile p k) (f, k (Some b))
| s_read_fail f p k : step lie (f, ReadFile p k) (f, k None).
Inductive steps (lie : bool) : fs * prog -> fs * prog -> Prop :=
| steps_refl x : steps lie x x
| steps_more x y z : step lie x y -> steps lie y z -> steps lie x z.

(** ** main.go *)
(** main.go 33-35, idemixmsp.go 897-903 *)
Definition n_ca := str "ca".
Definition n_msp := str "msp".
Definition n_user := str "user".
Definition n_isk := str "IssuerSecretKey".
Definition n_revkey := str "RevocationKey".
Definition n_ipk := str "IssuerPublicKey".
Definition n_revpk := str "RevocationPublicKey".
Definition n_signer := str "SignerConfig".

(** main.go 48-75: the flags of signerconfig, and --output *)
Record flags := { fl_output : bytes; fl_cainput : bytes; fl_ou : bytes; fl_admin : bool; fl_eid : bytes; fl_rh : bytes }.

Section Main.
  (** where a directory name given on the command line is *)
  Variable resolve : bytes -> path.
  Definition at2 (dir a b : bytes) : path := resolve dir ++ [a; b].

  (** main.go 129-165 ca-keygen; [keys] are the issuer's keys, [rev] the PEM encodings of the
      revocation keys (None if an encoding fails) *)
  Definition ca_keygen (out : bytes) (keys : res (bytes * bytes)) (rev : option (bytes * bytes)) : prog :=
    match keys, rev with
    | Ok (isk, ipk), Some (rsk, rpk) =>
        do! (must_not_exist (resolve out ++ [n_ca]));
        do! (must_not_exist (resolve out ++ [n_msp]));
        do! (mkdir_all (resolve out ++ [n_ca]));
        do! (mkdir_all (resolve out ++ [n_msp]));
        do! (write_file (at2 out n_ca n_isk) isk);
        do! (write_file (at2 out n_ca n_revkey) rsk);
        do! (write_file (at2 out n_ca n_ipk) ipk);
        do! (write_file (at2 out n_msp n_revpk) rpk);
        do! (write_file (at2 out n_msp n_ipk) ipk);
        Done true
    | _, _ => Done false
    end.

  (** main.go 167-215 signerconfig and 231-272; [parse] decodes the PEM block and the private key,
      [generate] is GenerateSignerConfig or GenerateSignerConfigAries applied to role mask, issuer
      secret and public key and revocation key *)
  Definition signerconfig {sk : Type} (parse : bytes -> option sk) (generate : Z -> bytes -> bytes -> sk -> res bytes) (fl : flags) : prog :=
    let out := fl_output fl in
    let ca := if bytes_eqb (fl_cainput fl) [] then out else fl_cainput fl in
    let roleMask := GetRoleMaskFromIdemixRole (if fl_admin fl then ADMIN else MEMBER) in
    let! isk := (read_or_exit (at2 ca n_ca n_isk));
    let! ipk := (read_or_exit (at2 ca n_ca n_ipk));
    let! rskraw := (read_or_exit (at2 ca n_ca n_revkey));
    match parse rskraw with
    | None => Done false
    | Some rsk =>
        let! rpk := (read_or_exit (at2 ca n_msp n_revpk));
        match generate roleMask isk ipk rsk with
        | Ok config =>
            do! (must_not_exist (resolve out ++ [n_user]));
            do! (mkdir_all (resolve out ++ [n_user]));
            do! (write_file (at2 out n_user n_signer) config);
            if bytes_eqb ca out then Done true
            else
              do! (mkdir_all (resolve out ++ [n_msp]));
              do! (write_file (at2 out n_msp n_revpk) rpk);
              do! (write_file (at2 out n_msp n_ipk) ipk);
              Done true
        | _ => Done false
        end
    end.

  (** ** idemixmsp.go 911-948 GetIdemixMspConfigWithType and 880-893 readFile *)
  Definition read_file (f : fs) (p : path) : option bytes := match f p with Some (File b) => Some b | _ => None end.
  Definition GetIdemixMspConfigWithType (CD : codecs) (f : fs) (dir : bytes) (id : bytes) (ty : Z) : res (Z * bytes) :=
    let* _ := guard (negb (ty <? 0)%Z) in
    let* ipk := opt_err (read_file f (at2 dir n_msp n_ipk)) in
    let* revpk := opt_err (read_file f (at2 dir n_msp n_revpk)) in
    let* sg := match read_file f (at2 dir n_user n_signer) with
               | None => Ok None
               | Some b => let* s := opt_err (dec (c_signer CD) b) in Ok (Some s)
               end in
    let* b := opt_err (enc (c_conf CD) {| cf_name := id; cf_ipk := ipk; cf_signer := sg; cf_revpk := revpk; cf_epoch := 0; cf_curve := [] |}) in
    Ok (ty, b).
End Main.

(** ** tools/idemixgen/idemixca *)
Section DlogCA.
  Variable C : Curve.
  Variable H : hasher C.
  Variable T : translator C.
  Variable c_ipk : codec IssuerPublicKey.
  Variable c_cred : codec Credential.
  Variable c_cri : codec CRI.
  Variable EC : ecdsa.
  Variable sha256 : bytes -> bytes.
  Variable CD : codecs.

  (** idemixca.go 29-42 *)
  Definition GenerateIssuerKey (R : IssuerRand C) : res (bytes * bytes) :=
    let* key := newIssuerKey H T (enc c_ipk) attribute_names R in
    let* ipk := deref (ik_ipk key) in
    let* b := opt_err (enc c_ipk ipk) in
    Ok (ik_isk key, b).

  (** the draws of GenerateSignerConfig in program order *)
  Record cadraw := { ca_sk : Zr C; ca_ni : Zr C; ca_rsk : Zr C; ca_e : Zr C; ca_s : Zr C; ca_wsk : Zr C }.

  (** idemixca.go 47-129.  The role mask is an int32 for both roles. *)
  Definition GenerateSignerConfig (ou eid rh : bytes) (R : cadraw) (roleMask : Z) (isk ipkraw : bytes) (revKey : ec_sk EC) : res bytes :=
    let* _ := guard (negb (bytes_eqb ou [])) in
    let* _ := guard (negb (bytes_eqb eid [])) in
    let attrs := [H ou; zr_of_int C roleMask; H eid; H rh] in
    let* ipk := opt_err (dec c_ipk ipkraw) in
    let key := {| ik_isk := isk; ik_ipk := Some ipk |} in
    let* msg := newCredRequest H T (ca_sk R) (Some (zr_bytes C (ca_ni R))) ipk (ca_rsk R) in
    let* cred := newCredential H T key msg attrs (ca_e R) (ca_s R) in
    let* credBytes := opt_err (enc c_cred cred) in
    let* cri := createCRI T c_cri (EC := EC) sha256 (Some revKey) 0 0 (ca_wsk R) in
    let* criBytes := opt_err (enc c_cri cri) in
    opt_err (enc (c_signer CD) {| sc_cred := credBytes; sc_sk := zr_bytes C (ca_sk R); sc_ou := ou; sc_role := roleMask; sc_eid := eid;
                                  sc_cri := criBytes; sc_rh := rh; sc_curve := [] |}).
End DlogCA.

Section AriesCA.
  Variable C : Curve.
  Variable HG : bytes -> G1 C.
  Variable H : hasher C.
  Variable hkdf : bytes -> bytes.
  Variable c_cred : codec ACredential.
  Variable c_cri : codec ACRI.
  Variable EC : ecdsa.
  Variable sha256 : bytes -> bytes.
  Variable CD : codecs.

  (** iedmixca_aries.go 31-54 *)
  Definition GenerateIssuerKeyAries (seed : bytes) : res (bytes * bytes) :=
    let* key := arNewKey HG H hkdf attribute_names seed in
    Ok (arSecretKeyBytes key, arPublicKeyBytes (is_pub key)).

  (** the draws of GenerateSignerConfigAries in program order *)
  Record caadraw := { aa_sk : Zr C; aa_ni : Zr C; aa_blind : Zr C; aa_bl : nat -> Zr C; aa_e : Zr C; aa_s : Zr C; aa_wsk : Zr C }.

  (** iedmixca_aries.go 59-166; the issuer public key file is not read *)
  Definition GenerateSignerConfigAries (ou eid rh : bytes) (R : caadraw) (roleMask : Z) (iskraw ipkraw : bytes) (revKey : ec_sk EC) : res bytes :=
    let* _ := guard (negb (bytes_eqb ou [])) in
    let* _ := guard (negb (bytes_eqb eid [])) in
    let* isk := arNewKeyFromBytes HG iskraw attribute_names in
    let ipk := Some (Some (is_pub isk)) in
    let attrs := [ {| at_type := BytesAttr; at_value := VBytes ou |}; {| at_type := IntAttr; at_value := VInt roleMask |};
                   {| at_type := BytesAttr; at_value := VBytes eid |}; {| at_type := BytesAttr; at_value := VBytes rh |} ] in
    let ni := zr_bytes C (aa_ni R) in
    let* '(cr, blinding) := arBlind HG H 0 (aa_sk R) ipk ni (aa_blind R) (aa_bl R) in
    let* _ := arBlindVerify HG H 0 cr ipk ni in
    let* cred := arCredSign HG H c_cred 0 (Some (Some isk)) cr attrs (aa_e R) (aa_s R) in
    let* cred := arUnblind C c_cred cred blinding in
    let* _ := arCredVerify H c_cred (aa_sk R) ipk cred attrs in
    let* cri := arRevSign (C := C) (EC := EC) sha256 c_cri (Some revKey) [] 0 0 (aa_wsk R) in
    opt_err (enc (c_signer CD) {| sc_cred := cred; sc_sk := zr_bytes C (aa_sk R); sc_ou := ou; sc_role := roleMask; sc_eid := eid;
                                  sc_cri := cri; sc_rh := rh; sc_curve := [] |}).
End AriesCA.
