(** Model of calls on an MSP object while another goroutine runs Setup on it (msp/idemixmsp.go).

    The code takes no lock: Setup assigns the fields of the object one after the other, and the other methods load each field
    when they need it.  Setup is a list of assignments and a call a program of loads, both in the order of the source text, and
    an execution interleaves them.  Simplifications: one Setup at a time and one other call; loads and assignments are atomic
    and seen in order (the Go memory model promises less); the identity belongs to the MSP object the call is made on.  Go
    does not fix the order in which the operands of one expression are loaded. *)
From Verif Require Import Base Curve Dlog Bridge Csp Msp.
Unset Strict Implicit.

Section Conc.
  Variable U : universe.
  Variable CD : codecs.
  Variable E : env U.

  (** ** Setup *)
  (** an assignment to a field: idemixmsp.go 253 name, 291-293 csp, 332 ipk, 342 revocationPK, 431 signer *)
  Inductive write := WName (n : bytes) | WCsp (c : option (CSP U)) | WIpk (k : key U) | WRevpk (k : key U) | WSigner (s : signing U).
  Definition apply_write (m : msp U) (w : write) : msp U :=
    match w with WName n => set_name m n | WCsp c => set_csp m c | WIpk k => set_ipk m k | WRevpk k => set_revpk m k | WSigner s => set_signer m s end.

  (** 351-438 *)
  Definition signer_writes (X : scheme U) (M : mathops U) (c : CSP U) (l : nat) (m : msp U) (d1 d2 : u_draw U) (ipk : key U) (sg : signer_config) : list write :=
    match setup_signer X M c l m d1 d2 ipk sg with
    | (Ok _, m') => match p_signer m' with Some s => [WSigner s] | None => [] end
    | _ => []
    end.
  (** 240-439 *)
  Definition setup_writes (l : nat) (m : msp U) (d1 d2 : u_draw U) (conf : option (Z * bytes)) : list write :=
    match conf with
    | None => []
    | Some (ty, raw) =>
        match dec (c_conf CD) raw with
        | None => []
        | Some cf =>
            WName (cf_name cf) ::
            if negb (ty =? (if ev_aries E then IDEMIX_ARIES else IDEMIX))%Z then []
            else match curve_id E (cf_curve cf) with
            | None => []
            | Some cid =>
                match ev_pack E cid with
                | None => []
                | Some (X, M) =>
                    match New X M false true with
                    | Err => [WCsp None] | Panic => []
                    | Ok c =>
                        WCsp (Some c) ::
                        match import c (cf_ipk cf) (IIssuerPk true attribute_names 0 0 0 0 None) with
                        | IOk ipk =>
                            WIpk ipk ::
                            match import c (cf_revpk cf) (IRevPk true) with
                            | IOk revpk =>
                                WRevpk revpk ::
                                match cf_signer cf with
                                | None => []
                                | Some sg => signer_writes X M c l (fold_left apply_write [WName (cf_name cf); WCsp (Some c); WIpk ipk; WRevpk revpk] m) d1 d2 ipk sg
                                end
                            | _ => []
                            end
                        | _ => []
                        end
                    end
                end
            end
        end
    end.

  (** ** Other calls *)
  (** a program that loads fields of the object *)
  Inductive prog :=
  | Done (r : res unit)
  | LdName (k : bytes -> prog) | LdVersion (k : Z -> prog) | LdCsp (k : option (CSP U) -> prog)
  | LdIpk (k : option (key U) -> prog) | LdRevpk (k : option (key U) -> prog).

  Definition check (b : bool) (p : prog) : prog := if b then p else Done Err.
  Definition need {A} (o : option A) (k : A -> prog) : prog := match o with Some a => k a | None => Done Err end.
  Fixpoint andthen (p q : prog) : prog :=
    match p with
    | Done (Ok _) => q
    | Done r => Done r
    | LdName k => LdName (fun x => andthen (k x) q)
    | LdVersion k => LdVersion (fun x => andthen (k x) q)
    | LdCsp k => LdCsp (fun x => andthen (k x) q)
    | LdIpk k => LdIpk (fun x => andthen (k x) q)
    | LdRevpk k => LdRevpk (fun x => andthen (k x) q)
    end.

  (** the object as far as it has been loaded *)
  Definition loaded (c : option (CSP U)) (ipk revpk : option (key U)) : msp U :=
    {| p_csp := c; p_version := 0; p_ipk := ipk; p_signer := None; p_name := []; p_revpk := revpk |}.

  (** 537-561 verifyProof *)
  Definition verify_prog (i : identity U) : prog :=
    LdCsp (fun c => LdIpk (fun ipk => LdRevpk (fun revpk => Done (verifyProof (loaded c ipk revpk) i)))).
  (** 518-535 Validate: the name is loaded for the identity and for the MSP *)
  Definition validate_prog (i : identity U) : prog :=
    LdName (fun n => LdName (fun n' => check (bytes_eqb n n') (verify_prog i))).
  (** 819-856 Serialize, and the comparison with a principal *)
  Definition identity_prog (i : identity U) (b : bytes) : prog :=
    LdName (fun n => Done (let* s := Serialize CD [set_name (loaded None None None) n]
                                       {| i_nym := i_nym i; i_raw := i_raw i; i_msp := 0; i_id := i_id i; i_role := i_role i; i_ou := i_ou i; i_proof := i_proof i |} in
                           guard (bytes_eqb s b))).
  (** 574-704 satisfiesPrincipalValidated *)
  Fixpoint satisfies_prog (fuel : nat) (i : identity U) (p : principal) : prog :=
    if (pr_class p =? P_ROLE)%Z then
      need (dec (c_role CD) (pr_bytes p)) (fun r =>
        LdName (fun n => check (bytes_eqb (ro_mspid r) n)
          (if (ro_role r =? MSPRole_MEMBER)%Z then Done (Ok tt)
           else if (ro_role r =? MSPRole_ADMIN)%Z then Done (guard (ro_role (i_role i) =? MSPRole_ADMIN)%Z)
           else if (ro_role r =? MSPRole_PEER)%Z then
             LdVersion (fun v => check (negb (v >=? MSPv1_3)%Z) (LdVersion (fun v => Done (guard (v >=? MSPv1_3)%Z))))
           else if (ro_role r =? MSPRole_CLIENT)%Z then LdVersion (fun v => Done (guard (v >=? MSPv1_3)%Z))
           else Done Err)))
    else if (pr_class p =? P_IDENTITY)%Z then identity_prog i (pr_bytes p)
    else if (pr_class p =? P_ORGANIZATION_UNIT)%Z then
      need (dec (c_ou CD) (pr_bytes p)) (fun o =>
        LdName (fun n => check (bytes_eqb (ou_mspid o) n) (Done (guard (bytes_eqb (ou_id o) (ou_id (i_ou i)))))))
    else if (pr_class p =? P_COMBINED)%Z then
      LdVersion (fun v => check (negb (v <=? MSPv1_1)%Z)
        (need (dec (c_comb CD) (pr_bytes p)) (fun ps => check (negb (length ps =? 0))
          (match fuel with
           | O => Done Err
           | S fuel => fold_right (fun cp q => andthen (satisfies_prog fuel i cp) q) (Done (Ok tt)) ps
           end))))
    else if (pr_class p =? P_ANONYMITY)%Z then
      LdVersion (fun v => check (negb (v <=? MSPv1_1)%Z) (need (dec (c_anon CD) (pr_bytes p)) (fun a => Done (guard (a =? ANONYMOUS)%Z))))
    else Done Err.
  (** 563-570 SatisfiesPrincipal *)
  Definition principal_prog (i : identity U) (p : principal) : prog :=
    andthen (validate_prog i) (satisfies_prog (length (pr_bytes p)) i p).
  (** 797-813 Verify *)
  Definition signature_prog (i : identity U) (msg sig : bytes) : prog :=
    LdCsp (fun c => LdIpk (fun ipk => Done (id_Verify [loaded c ipk None]
      {| i_nym := i_nym i; i_raw := i_raw i; i_msp := 0; i_id := i_id i; i_role := i_role i; i_ou := i_ou i; i_proof := i_proof i |} msg sig))).

  (** the calls that decide about an identity, and what they return when they run alone (Msp.v) *)
  Inductive call := CValidate | CSatisfiesPrincipal (p : principal) | CVerify (msg sig : bytes).
  Definition prog_of (i : identity U) (c : call) : prog :=
    match c with CValidate => validate_prog i | CSatisfiesPrincipal p => principal_prog i p | CVerify msg sig => signature_prog i msg sig end.
  Definition result (h : heap U) (i : identity U) (c : call) : res unit :=
    match c with
    | CValidate => Validate h (i_msp i) (IdPlain i)
    | CSatisfiesPrincipal p => SatisfiesPrincipal CD h (i_msp i) (IdPlain i) (Some p)
    | CVerify msg sig => id_Verify h i msg sig
    end.

  (** ** Executions *)
  (** the call alone, on an object in state [m] *)
  Fixpoint alone (m : msp U) (p : prog) : res unit :=
    match p with
    | Done r => r
    | LdName k => alone m (k (p_name m)) | LdVersion k => alone m (k (p_version m)) | LdCsp k => alone m (k (p_csp m))
    | LdIpk k => alone m (k (p_ipk m)) | LdRevpk k => alone m (k (p_revpk m))
    end.
  (** the call and the assignments [ws]: the scheduler picks who goes next, [true] for Setup; when its choices are used up
      the call runs to its end *)
  Fixpoint during (choices : list bool) (ws : list write) (m : msp U) (p : prog) : res unit :=
    match choices with
    | [] => alone m p
    | true :: cs => match ws with [] => during cs [] m p | w :: ws => during cs ws (apply_write m w) p end
    | false :: cs =>
        match p with
        | Done r => r
        | LdName k => during cs ws m (k (p_name m)) | LdVersion k => during cs ws m (k (p_version m)) | LdCsp k => during cs ws m (k (p_csp m))
        | LdIpk k => during cs ws m (k (p_ipk m)) | LdRevpk k => during cs ws m (k (p_revpk m))
        end
    end.

  (** 464-516, 745-763 DeserializeIdentity: the name is loaded for the comparison ([n]), then the CSP ([c]), and then the name
      again for the identifier of the identity ([n']) *)
  Definition read_loads (X : scheme U) (M : mathops U) (l : nat) (raw n : bytes) (c : option (CSP U)) (n' : bytes) : res (identity U) :=
    let* s := opt_err (dec (c_si CD) raw) in
    let* _ := guard (bytes_eqb (si_mspid s) n) in
    DeserializeIdentityInternal CD X M l (set_name (loaded c None None) n') (si_bytes s).
  (** the call and the assignments [ws]: its loads happen when the first [k1], [k2] and [k3] assignments have been made *)
  Definition read_during (X : scheme U) (M : mathops U) (l : nat) (raw : bytes) (ws : list write) (m : msp U) (k1 k2 k3 : nat) : res (identity U) :=
    let after k := fold_left apply_write (firstn k ws) m in
    read_loads X M l raw (p_name (after k1)) (p_csp (after k2)) (p_name (after k3)).
End Conc.
