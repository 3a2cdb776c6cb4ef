(** Specifications for the properties of the CSP (C44 - C49).  Nothing here is used by the model. *)
From Verif Require Import Base Curve Dlog Bridge Csp.
Unset Strict Implicit.

Section Spec.
  Variable U : universe.

  (** The combinations of key and options for which the CSP has a verifier *)
  Inductive verifier_wired : key U -> sigopts U -> Prop :=
  | vw_signature pk o : verifier_wired (KIssuerPublic pk) (SSigner o)
  | vw_audit_eid pk t i e r s : verifier_wired (KIssuerPublic pk) (SEidAudit t i e r s)
  | vw_audit_rh pk t i e r s : verifier_wired (KIssuerPublic pk) (SRhAudit t i e r s)
  | vw_request pk i n : verifier_wired (KIssuerPublic pk) (SRequest i n)
  | vw_blind pk i n b : verifier_wired (KIssuerPublic pk) (SBlind i n b)
  | vw_nym pk o : verifier_wired (KNymPublic pk) (SNym o)
  | vw_credential sk e attrs i : verifier_wired (KUserSecret sk e) (SCred attrs i)
  | vw_cri pk ep alg h : verifier_wired (KRevPublic pk) (SCri ep alg h).

  (** What the verdict of a scheme is asked about: the operation of [X] that decides whether
      [signature] is valid under a key and options.  [None]: no operation. *)
  Definition deciding (X : scheme U) (k : key U) (signature digest : bytes) (o : sigopts U) : option (res unit) :=
    match k, o with
    | KIssuerPublic pk, SSigner so =>
        match so_revpk so with
        | None => Some (s_verify X pk signature digest (so_attrs so) (so_rh so) (so_eid so) (so_sk so) None (so_epoch so) (so_vertype so) (so_meta so))
        | Some (KRevPublic r) => Some (s_verify X pk signature digest (so_attrs so) (so_rh so) (so_eid so) (so_sk so) (Some r) (so_epoch so) (so_vertype so) (so_meta so))
        | Some _ => None
        end
    | KIssuerPublic pk, SEidAudit t i e r s => Some (s_auditEid X pk i s signature e r t)
    | KIssuerPublic pk, SRhAudit t i e r s => Some (s_auditRh X pk i s signature e r t)
    | KIssuerPublic pk, SRequest _ nonce => match s_request X with Some h => Some (cq_verify h signature pk nonce) | None => None end
    | KIssuerPublic pk, SBlind _ nonce _ => match s_blind X with Some h => Some (bq_verify h signature pk nonce) | None => None end
    | KNymPublic nym, SNym no =>
        match no_ipk no with
        | Some (KIssuerPublic pk) =>
            if no_smartcard no
            then match s_card X, no_nymeid no with Some h, Some ne => Some (cs_verify h pk ne signature digest) | _, _ => None end
            else Some (s_nymVerify X pk nym signature digest (no_sk no))
        | _ => None
        end
    | KUserSecret sk _, SCred attrs (Some (KIssuerPublic pk)) => Some (s_credVerify X sk pk signature attrs)
    | KRevPublic pk, SCri epoch alg _ => Some (s_revVerify X pk signature epoch alg)
    | _, _ => None
    end.

  (** ** Histories of key operations *)
  Inductive op :=
  | OpGen (d : u_draw U) (o : option genopts)
  | OpDeriv (d : u_draw U) (k : option (key U)) (o : option (dervopts U))
  | OpImport (raw : rawval) (o : option (impopts U)).

  (** the call asks for a key that is not to be stored: the Temporary field of its options *)
  Definition op_ephemeral (x : op) : bool :=
    match x with
    | OpGen _ (Some (GIssuer t _ | GUser t | GRevocation t | GOther _ t)) => t
    | OpDeriv _ _ (Some (DNym t _ | DOther _ t)) => t
    | OpImport _ (Some (IIssuerPk t _ _ _ _ _ _ | IIssuer t _ | IUser t | INymPk t | INym t | IRevPk t | IRev t | IOther _ t)) => t
    | _ => true
    end.

  Section Run.
    Variable S : Type.
    Variable KS : keystore U S.
    Variable c : CSP U.

    (** one call: what the caller gets, and the key store afterwards *)
    Definition step (s : S) (x : op) : res (key U) * S :=
      match x with
      | OpGen d o => KeyGen KS c s d o
      | OpDeriv d k o => KeyDeriv KS c s d k o
      | OpImport raw o => let '(r, s') := KeyImport KS c s raw o in (res_of (let+ x := r in IOk (fst x)), s')
      end.

    (** the calls with their results, oldest first, and the final key store *)
    Fixpoint run (s : S) (ops : list op) : list (op * res (key U)) * S :=
      match ops with
      | [] => ([], s)
      | x :: rest =>
          let '(r, s1) := step s x in
          let '(h, s2) := run s1 rest in
          ((x, r) :: h, s2)
      end.

    (** the final store is the initial one with the persisted keys stored in order *)
    Fixpoint stored_all (s : S) (ks : list (key U)) : option S :=
      match ks with
      | [] => Some s
      | k :: rest => match ks_store KS s k with (s', true) => stored_all s' rest | _ => None end
      end.
  End Run.

  (** the keys returned by the successful non-ephemeral calls, oldest first *)
  Fixpoint persisted (h : list (op * res (key U))) : list (key U) :=
    match h with
    | [] => []
    | (x, Ok k) :: rest => if op_ephemeral x then persisted rest else k :: persisted rest
    | _ :: rest => persisted rest
    end.

  (** all keys returned to the caller *)
  Fixpoint returned (h : list (op * res (key U))) : list (key U) :=
    match h with
    | [] => []
    | (_, Ok k) :: rest => k :: returned rest
    | _ :: rest => returned rest
    end.

  (** A key store that behaves like a map from identifiers to keys in the states satisfying [inv]:
      [ident] gives the identifier under which a key goes, [None] if the store refuses it; a failing
      StoreKey changes nothing. *)
  Record map_store (S : Type) (inv : S -> Prop) (KS : keystore U S) (ident : key U -> option bytes) : Prop := {
    ms_inv : forall s k s' ok, inv s -> ks_store KS s k = (s', ok) -> inv s';
    ms_fail : forall s k s', inv s -> ks_store KS s k = (s', false) -> s' = s;
    ms_put : forall s k s', inv s -> ks_store KS s k = (s', true) ->
               exists i, ident k = Some i /\ ks_get KS s' i = Ok k /\ forall j, j <> i -> ks_get KS s' j = ks_get KS s j
  }.

  (** the last key of a list that goes under identifier [i] *)
  Fixpoint last_under (ident : key U -> option bytes) (i : bytes) (ks : list (key U)) : option (key U) :=
    match ks with
    | [] => None
    | k :: rest =>
        match last_under ident i rest with
        | Some k' => Some k'
        | None => match ident k with Some j => if bytes_eqb j i then Some k else None | None => None end
        end
    end.

  (** The identifiers KVSStore uses: a user secret key goes under its SKI, a pseudonym key under the
      SKI of its public key; other keys are not stored. *)
  Definition kvs_ident (X : scheme U) (M : mathops U) (k : key U) : option bytes :=
    match k with
    | KUserSecret _ _ => Some (key_ski X M k)
    | KNymSecret _ _ pk _ => Some (key_ski X M (KNymPublic pk))
    | _ => None
    end.

  (** A key-value store (keystore/kvs) that behaves like a map in the states satisfying [inv] *)
  Record kvs_ok (S : Type) (inv : S -> Prop) (KV : kvs S) : Prop := {
    kv_inv : forall s i e s' ok, inv s -> kv_put KV s i e = (s', ok) -> inv s';
    kv_fail : forall s i e s', inv s -> kv_put KV s i e = (s', false) -> s' = s;
    kv_same : forall s i e s', inv s -> kv_put KV s i e = (s', true) -> kv_get KV s' i = Some e;
    kv_other : forall s i e s', inv s -> kv_put KV s i e = (s', true) -> forall j, j <> i -> kv_get KV s' j = kv_get KV s j
  }.
  (** scalars and points survive being written to an entry *)
  Record math_ok (M : mathops U) : Prop := {
    mo_zr : forall x, m_zrOfBytes M (m_zrBytes M x) = x;
    mo_g1 : forall P, m_g1FromProto M (Some (m_g1ToProto M P)) = Ok P
  }.

  (** the flag of a secret key object; false for public keys *)
  Definition exportable_secret (k : key U) : bool :=
    match k with KIssuerSecret _ e | KUserSecret _ e | KNymSecret _ _ _ e | KRevSecret _ e => e | _ => false end.

  (** ** Registrations *)
  Inductive interface := IKeyGenerator | IKeyImporter | IKeyDeriver | ISigner | IVerifier.
  (** the interface by which a wrapper is registered: the first one it implements *)
  Definition role_of (w : wrapper U) : option interface :=
    match w_gen w, w_imp w, w_der w, w_sig w, w_ver w with
    | Some _, _, _, _, _ => Some IKeyGenerator
    | None, Some _, _, _, _ => Some IKeyImporter
    | None, None, Some _, _, _ => Some IKeyDeriver
    | None, None, None, Some _, _ => Some ISigner
    | None, None, None, None, Some _ => Some IVerifier
    | _, _, _, _, _ => None
    end.

  (** a history of AddWrapper calls on a fresh CSP; failing calls leave it as it is *)
  Definition registrations_of := list (option rtype * option (wrapper U)).
  Fixpoint register (c : CSP U) (h : registrations_of) : CSP U :=
    match h with
    | [] => c
    | (t, w) :: rest => register (match AddWrapper c t w with Ok c' => c' | _ => c end) rest
    end.

  (** the wrapper most recently registered for a type under an interface *)
  Fixpoint in_charge (h : registrations_of) (t : rtype) (i : interface) : option (wrapper U) :=
    match h with
    | [] => None
    | (t', w) :: rest =>
        match in_charge rest t i with
        | Some w' => Some w'
        | None =>
            match t', w with
            | Some t', Some w =>
                if rtype_eq_dec t' t then
                  match role_of w, i with
                  | Some IKeyGenerator, IKeyGenerator | Some IKeyImporter, IKeyImporter | Some IKeyDeriver, IKeyDeriver
                  | Some ISigner, ISigner | Some IVerifier, IVerifier => Some w
                  | _, _ => None
                  end
                else None
            | _, _ => None
            end
        end
    end.
  Definition obind {A B} (x : option A) (f : A -> option B) : option B := match x with Some a => f a | None => None end.
End Spec.
