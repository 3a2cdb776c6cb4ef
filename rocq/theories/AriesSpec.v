(** Specification vocabulary for the aries scheme, independent of the code in
    /repo/bccsp/schemes/aries (beyond its message and key types). *)
From Verif Require Import Base Curve Spec Dlog Bridge BridgeFacts Bbs BbsSpec Aries.
Unset Strict Implicit.

(** The public key of an issuer with [n] attributes: the generators of BBS+ for [n]+1 messages,
    the first being the user's secret. *)
Definition issuer_key (C : Curve) (HG : bytes -> G1 C) (pk : G2 C) (n : nat) : AIssuerPublicKey C :=
  {| ip_pk := pk;
     ip_key := {| pg_h0 := gen0 HG pk (n + 1); pg_h := gens HG pk (n + 1); pg_w := pk; pg_count := n + 1 |};
     ip_n := n |}.

(** The base of message [i] (0 is the secret, i+1 is attribute i). *)
Definition base_at (C : Curve) (HG : bytes -> G1 C) (pk : G2 C) (n i : nat) : G1 C := nth i (gens HG pk (n + 1)) gzero.

(** A disclosed attribute states the scalar [v]. *)
Definition attr_states (C : Curve) (H : hasher C) (a : attribute) (v : Zr C) : Prop :=
  match at_type a, at_value a with
  | BytesAttr, VBytes b => v = H b
  | IntAttr, VInt z => v = zr_of_Z C z
  | _, _ => False
  end.
(** An attribute is hidden, or states the certified scalar. *)
Definition attr_agrees (C : Curve) (H : hasher C) (a : attribute) (v : Zr C) : Prop :=
  at_type a = HiddenAttr \/ attr_states H a v.

(** Which verification types are meant to accept which signature types. *)
Definition aries_compatible (st : SignatureType) (vt : VerificationType) : bool :=
  match st, vt with
  | Standard, (Basic | BestEffort | ExpectStandard) => true
  | EidNym, (BestEffort | ExpectEidNym) => true
  | EidNymRhNym, (BestEffort | ExpectEidNymRhNym) => true
  | Smartcard, ExpectSmartcard => true
  | SmartcardNoNyms, ExpectSmartcardNoNyms => true
  | _, _ => false
  end.

(** Messages that survive protobuf encoding: the integer fields fit their types. *)
Definition canon_acred (c : ACredential) : Prop := int32 (ac_skpos c).
Definition canon_asig (s : ASignature) : Prop :=
  int32 (as_eid_idx s) /\ int32 (as_rh_idx s) /\ int64 (as_epoch s) /\ (forall a, as_alg s = Some a -> int32 a).

(** A credential message: BBS+ signature (A, e, s) and certified scalars, secret at [0]. *)
Definition credential_of (C : Curve) (A : G1 C) (e s : Zr C) (vals : list (Zr C)) : ACredential :=
  {| ac_cred := g1_comp C A ++ zr_bytes C e ++ zr_bytes C s; ac_attrs := map (zr_bytes C) vals; ac_skpos := 0%Z |}.

(** [resp] answers the challenge [c] for the statement "x = product of bases^secrets" and first
    message [t]: t = product of bases^resp * x^c. *)
Definition answers (C : Curve) (bases : list (G1 C)) (x t : G1 C) (c : Zr C) (resp : list (Zr C)) : Prop :=
  t = gdot bases resp ⊕ (x ⊗ c).

(** A smartcard after [m] calls of NymEid. *)
Fixpoint nym_eids (C : Curve) (m : nat) (sc : Card C) : Card C :=
  match m with
  | O => sc
  | S m' => fst (scNymEid (nym_eids m' sc))
  end.
Definition int16 (z : Z) : Prop := (-32768 <= z <= 32767)%Z.

(** Audit data a signer may supply for a message [value] with base [h]: none, or a commitment to
    [value] with its opening. *)
Definition audit_for (C : Curve) (h0 h : G1 C) (value : Zr C) (d : option (AuditData C)) : Prop :=
  d = None \/ exists r, d = Some {| au_nym := Some ((h0 ⊗ r) ⊕ (h ⊗ value)); au_rand := Some r; au_attr := Some value |}.

(** Signature types that carry a commitment to the enrollment id / revocation handle. *)
Definition has_eid (st : SignatureType) : bool := match st with EidNym | EidNymRhNym | Smartcard => true | _ => false end.
Definition has_rh (st : SignatureType) : bool := match st with EidNymRhNym => true | _ => false end.
(** Signature types for which the enrollment id / revocation handle must be hidden. *)
Definition hides_rh (st : SignatureType) : bool := match st with EidNymRhNym | Smartcard => true | _ => false end.

(** Two runs of Verify whose signatures share the first message: the points and commitments the
    prover sends before the challenge. *)
Definition same_first (C : Curve) (f1 f2 : AVerFirst C) : Prop :=
  vf_key f1 = vf_key f2 /\ vf_ms f1 = vf_ms f2 /\ vf_revealed f1 = vf_revealed f2 /\ vf_nym f1 = vf_nym f2 /\
  sp_aprime (vf_sp f1) = sp_aprime (vf_sp f2) /\ sp_abar (vf_sp f1) = sp_abar (vf_sp f2) /\ sp_d (vf_sp f1) = sp_d (vf_sp f2) /\
  pf_comm (sp_vc1 (vf_sp f1)) = pf_comm (sp_vc1 (vf_sp f2)) /\ pf_comm (sp_vc2 (vf_sp f1)) = pf_comm (sp_vc2 (vf_sp f2)) /\
  option_map (@pf_comm C) (vf_nymp f1) = option_map (@pf_comm C) (vf_nymp f2) /\
  option_map (fun p => (pf_comm (fst p), snd p)) (vf_eid f1) = option_map (fun p => (pf_comm (fst p), snd p)) (vf_eid f2) /\
  option_map (fun p => (pf_comm (fst p), snd p)) (vf_rh f1) = option_map (fun p => (pf_comm (fst p), snd p)) (vf_rh f2).

(** Number of hidden messages before position [i] among the messages of the proof; for
    smartcards message 0 is not part of the proof. *)
Definition hidden_before (sc : bool) (revealed : list nat) (i : nat) : nat :=
  length (filter (fun j => negb (existsb (Nat.eqb j) (if sc then 0 :: revealed else revealed))) (seq 0 i)).

(** Every proof carries exactly one response per base ([n] attributes). *)
Definition one_response_each (C : Curve) (n : nat) (sc : bool) (f : AVerFirst C) : Prop :=
  length (pf_resp (sp_vc1 (vf_sp f))) = 2 /\
  length (pf_resp (sp_vc2 (vf_sp f))) = 2 + hidden_before sc (vf_revealed f) (n + 1) /\
  (forall p, vf_nymp f = Some p -> length (pf_resp p) = 2) /\
  (forall p, vf_eid f = Some p -> length (pf_resp (fst p)) = 2) /\
  (forall p, vf_rh f = Some p -> length (pf_resp (fst p)) = 2).

(** The message vector extracted from two accepted signatures: the given messages at the disclosed
    positions, the extracted ones elsewhere, and 0 for the secret of a smartcard. *)
Definition extracted (C : Curve) (n : nat) (sc : bool) (f1 f2 : AVerFirst C) (c1 c2 : Zr C) : list (Zr C) :=
  weave 0 (n + 1) (vf_revealed f1) (map (@sm_fr C) (vf_ms f1))
    ((if sc then [z0] else []) ++ extract_hidden c1 c2 (pf_resp (sp_vc2 (vf_sp f1))) (pf_resp (sp_vc2 (vf_sp f2)))).

(** Equality of draws of Signer.Sign together with the pseudonym's randomness (blinding factors are
    a function of the position). *)
Definition adraws_eq (C : Curve) (x y : Zr C * ASigRand C) : Prop :=
  fst x = fst y /\ pr_r1 (rn_pok (snd x)) = pr_r1 (rn_pok (snd y)) /\ pr_r2 (rn_pok (snd x)) = pr_r2 (rn_pok (snd y)) /\
  (forall j, pr_bl1 (rn_pok (snd x)) j = pr_bl1 (rn_pok (snd y)) j) /\ (forall j, pr_bl2 (rn_pok (snd x)) j = pr_bl2 (rn_pok (snd y)) j) /\
  rn_nym (snd x) = rn_nym (snd y) /\ rn_eid (snd x) = rn_eid (snd y) /\ rn_rh (snd x) = rn_rh (snd y) /\ rn_nonce (snd x) = rn_nonce (snd y).

(** Draws for which the randomised credential is not degenerate: r1 is invertible and the point
    d = b^r1 * h0^-r2 is not by accident the base of the enrollment id or revocation handle. *)
Definition usable_draws (C : Curve) (HG : bytes -> G1 C) (pk : G2 C) (n : nat) (st : SignatureType) (eid rh : nat)
    (s sk : Zr C) (vals : list (Zr C)) (x : Zr C * ASigRand C) : Prop :=
  let r1 := pr_r1 (rn_pok (snd x)) in let r2 := pr_r2 (rn_pok (snd x)) in
  let d := (bbs_base (gen0 HG pk (n + 1)) (gens HG pk (n + 1)) s (sk :: vals) ⊗ r1) ⊖ (gen0 HG pk (n + 1) ⊗ r2) in
  r1 <> z0 /\ (has_eid st = true -> d <> base_at HG pk n (S eid)) /\ (has_rh st = true -> d <> base_at HG pk n (S rh)).

(** A presentation: a fresh pseudonym, then a signature with no caller-supplied audit data. *)
Definition ar_present (C : Curve) (H : hasher C) (c_cred : codec ACredential) (c_sig : codec ASignature) (c_cri : codec ACRI)
    (credBytes : bytes) (sk : Zr C) (key : iface (AIssuerPublicKey C)) (attributes : list attribute) (msg : bytes)
    (rh eid : nat) (criRaw : bytes) (st : SignatureType) (x : Zr C * ASigRand C) : res bytes :=
  let* '(Nym, RNym) := arMakeNym 0 sk key (fst x) in
  let* '(b, m) := arSign H c_cred c_sig c_cri credBytes sk Nym RNym key attributes msg (Z.of_nat rh) (Z.of_nat eid) criRaw st None (snd x) in
  Ok b.
