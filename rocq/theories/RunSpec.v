(** Vocabulary for honest runs through the CSP (C67): the messages protobuf reads from the empty
    string, and the options an application passes.  Nothing here is used by the model. *)
From Verif Require Import Base Curve Dlog Bridge Aries Csp.
Unset Strict Implicit.

(** proto3: the empty byte string, if it decodes at all, decodes to the message without fields *)
Definition nothing_is X (z : X) (c : codec X) : Prop := forall x, dec c [] = Some x -> x = z.
Definition no_ipk_msg : IssuerPublicKey :=
  {| ip_names := []; ip_hsk := None; ip_hrand := None; ip_hattrs := []; ip_w := None; ip_barg1 := None; ip_barg2 := None; ip_c := []; ip_s := []; ip_hash := [] |}.
Definition no_request : CredRequest := {| rq_nym := None; rq_nonce := None; rq_c := []; rq_s := [] |}.
Definition no_credential : Credential := {| cr_a := None; cr_b := None; cr_e := []; cr_s := []; cr_attrs := [] |}.
Definition no_cri : CRI := {| cri_epoch := 0; cri_epochpk := None; cri_sig := []; cri_alg := 0 |}.
Definition no_nymsig : NymSignature := {| ns_c := []; ns_ssk := []; ns_srnym := []; ns_nonce := [] |}.
Definition no_signature : Signature :=
  {| sg_aprime := None; sg_abar := None; sg_bprime := None; sg_c := []; sg_ssk := []; sg_se := []; sg_sr2 := []; sg_sr3 := [];
     sg_ssprime := []; sg_sattrs := []; sg_nonce := []; sg_nym := None; sg_srnym := []; sg_epochpk := None; sg_pksig := [];
     sg_epoch := 0; sg_nonrev := None; sg_eid := None; sg_rh := None |}.
Definition no_acredential : ACredential := {| ac_cred := []; ac_attrs := []; ac_skpos := 0 |}.
Definition no_anymsig : ANymSignature := {| ans_main := []; ans_nonce := [] |}.
Definition no_acri : ACRI := {| acri_epoch := 0; acri_epochpk := []; acri_sig := []; acri_alg := 0 |}.
Definition no_asignature : ASignature :=
  {| as_main := []; as_nonce := []; as_nym := []; as_nym_proof := []; as_eid := []; as_eid_proof := []; as_eid_idx := 0;
     as_rh := []; as_rh_proof := []; as_rh_idx := 0; as_epoch_pk := []; as_pk_sig := []; as_epoch := 0; as_alg := None |}.

Section Opts.
  Variable U : universe.
  (** what a signer passes: its pseudonym, the issuer key, the credential, the attributes shown or
      hidden, the revocation information *)
  Definition signing (nym ipk : key U) (cred : bytes) (shown : list attribute) (rh eid : Z) (cri : bytes) (epoch : Z) (st : SignatureType) : signer_opts U :=
    {| so_nym := Some nym; so_ipk := Some ipk; so_cred := cred; so_attrs := shown; so_rh := rh; so_eid := eid; so_sk := 0; so_cri := cri;
       so_epoch := epoch; so_revpk := None; so_sigtype := st; so_meta := None; so_vertype := BestEffort |}.
  (** what a verifier passes: the attributes it expects, the authority's key, the epoch, what it
      expects of the signature, and metadata if it has some *)
  Definition verifying (shown : list attribute) (rh eid : Z) (rpk : option (key U)) (epoch : Z) (vt : VerificationType) (meta : option (u_meta U)) : signer_opts U :=
    {| so_nym := None; so_ipk := None; so_cred := []; so_attrs := shown; so_rh := rh; so_eid := eid; so_sk := 0; so_cri := [];
       so_epoch := epoch; so_revpk := rpk; so_sigtype := Standard; so_meta := meta; so_vertype := vt |}.
  (** pseudonym signatures; the signer gives its pseudonym, the verifier only the issuer key *)
  Definition nym_opts_for (nym : option (key U)) (ipk : key U) : nym_opts U :=
    {| no_nym := nym; no_ipk := Some ipk; no_smartcard := false; no_card := None; no_nymeid := None; no_nymg1 := None; no_rnym := None; no_sk := 0 |}.
End Opts.

(** a presentation shows or hides each certified attribute *)
Definition shows (shown certified : list attribute) : Prop :=
  Forall2 (fun sh a => at_type sh = HiddenAttr \/ sh = a) shown certified.
