(** A concrete run of the dlog scheme on the toy curve; used to show that the hypotheses of
    the property theorems are satisfiable by non-trivial values. *)
From Verif Require Import Base Curve Toy Spec Dlog DlogSpec Translator TranslatorFacts.

Definition tC : Curve := toy_amcl.
Definition tH : hasher tC := toy_hash [Byte.x04] [].
Definition tT : translator tC := Fp256bn tC.
Definition tOK : CurveOk tC := toy_ok [Byte.x04] [].

Lemma tTO : TrOk tT.
Proof.
  split.
  - apply (fp_g1_rt tOK); [reflexivity|]. intro P. reflexivity.
  - apply (fp_g2_rt tOK). reflexivity.
Qed.

(** proto.Marshal stand-in: the concatenation of the attribute names and points *)
Definition tmarshal (k : IssuerPublicKey) : option bytes :=
  Some (concat (ip_names k) ++ concat (map (fun o => match o with Some e => ex e ++ ey e | None => [] end)
         (ip_hsk k :: ip_hrand k :: ip_hattrs k)) ++ ip_c k ++ ip_s k ++ ip_hash k).

Definition tnames : list bytes := [str "OU"; str "Role"; str "EnrollmentID"; str "RevocationHandle"].
Definition tIR : IssuerRand tC :=
  {| ir_isk := f7 : Zr tC; ir_attrs := fun i => nth i [f5; f11; f13; f17] f1 : Zr tC; ir_hsk := f19; ir_hrand := f23;
     ir_barg1 := f2; ir_r := f29 |}.
Definition from_ok {A} (d : A) (r : res A) : A := match r with Ok a => a | _ => d end.

Lemma from_ok_eq {A} (d : A) r : is_ok r = true -> r = Ok (from_ok d r).
Proof. destruct r; [reflexivity|discriminate|discriminate]. Qed.

Definition tkey : IssuerKey := from_ok {| ik_isk := []; ik_ipk := None |} (newIssuerKey tH tT tmarshal tnames tIR).
Definition tipk0 : IssuerPublicKey :=
  {| ip_names := []; ip_hsk := None; ip_hrand := None; ip_hattrs := []; ip_w := None; ip_barg1 := None; ip_barg2 := None;
     ip_c := []; ip_s := []; ip_hash := [] |}.
Definition tipk : IssuerPublicKey := match ik_ipk tkey with Some k => k | None => tipk0 end.

Example tkey_made : newIssuerKey tH tT tmarshal tnames tIR = Ok tkey /\ ik_ipk tkey = Some tipk.
Proof. vm_compute. split; reflexivity. Qed.

Definition tB : Bases tC := {| b_hsk := f19 : G1 tC; b_hrand := f23; b_attrs := [f5; f11; f13; f17] : list (G1 tC); b_w := f7 |}.
Example tipk_bases : ipk_bases tT tipk tB.
Proof. vm_compute. repeat split; reflexivity. Qed.

(** two users *)
Definition tsk : Zr tC := f3.
Definition tattrs : list (Zr tC) := [f1; f2; f8; f9].
Definition treq : CredRequest :=
  from_ok {| rq_nym := None; rq_nonce := None; rq_c := []; rq_s := [] |} (newCredRequest tH tT tsk (Some [Byte.x07]) tipk f12).
Definition tcred0 : Credential := {| cr_a := None; cr_b := None; cr_e := []; cr_s := []; cr_attrs := [] |}.
Definition tcred : Credential := from_ok tcred0 (newCredential tH tT tkey treq tattrs f4 f6).
Example tcred_ok : verCredential tT tcred tsk tipk = Ok tt.
Proof. vm_compute. reflexivity. Qed.
Example tcred_means : cred_means tT tcred (f7 : G1 tC) f4 f6 tattrs.
Proof. vm_compute. repeat split; reflexivity. Qed.

(** a second user whose credential agrees on the disclosed attribute (the OU) *)
Definition tsk2 : Zr tC := f20.
Definition tattrs2 : list (Zr tC) := [f1; f15; f16; f18].
Definition treq2 : CredRequest :=
  from_ok {| rq_nym := None; rq_nonce := None; rq_c := []; rq_s := [] |} (newCredRequest tH tT tsk2 (Some [Byte.x09]) tipk f22).
Definition tcred2 : Credential := from_ok tcred0 (newCredential tH tT tkey treq2 tattrs2 f14 f16).
Example tcred2_ok : verCredential tT tcred2 tsk2 tipk = Ok tt.
Proof. vm_compute. reflexivity. Qed.

(** disclose the OU, hide role, enrollment id and revocation handle *)
Definition tdisc : bytes := [Byte.x01; Byte.x00; Byte.x00; Byte.x00].
Definition tvals : list (option (Zr tC)) := [Some (f1 : Zr tC); None; None; None].
Definition tmsg : bytes := str "hello".
Definition tcri : CRI := {| cri_epoch := 5; cri_epochpk := Some (g2_to_proto tT (f1 : G2 tC)); cri_sig := []; cri_alg := 0 |}.
Definition tR (nonce : zp) : SigRand tC :=
  {| rd_r1 := f2 : Zr tC; rd_r2 := f3; rd_nonce := nonce; rd_rsk := f5; rd_re := f6; rd_rr2 := f7; rd_rr3 := f8;
     rd_rsprime := f9; rd_rrnym := f10; rd_rattrs := fun i => nth i [f11; f12; f13] f0 : Zr tC; rd_eid := f14; rd_r_eid := f15;
     rd_rh := f16; rd_r_rh := f17 |}.
Definition trnym : Zr tC := f21.
Definition tnym : G1 tC := gmul2 (f19 : G1 tC) tsk (f23 : G1 tC) trnym.
Definition tsig0 : Signature :=
  {| sg_aprime := None; sg_abar := None; sg_bprime := None; sg_c := []; sg_ssk := []; sg_se := []; sg_sr2 := []; sg_sr3 := [];
     sg_ssprime := []; sg_sattrs := []; sg_nonce := []; sg_nym := None; sg_srnym := []; sg_epochpk := None; sg_pksig := [];
     sg_epoch := 0; sg_nonrev := None; sg_eid := None; sg_rh := None |}.
Definition tsign (st : SignatureType) : Signature * option (Metadata tC) :=
  from_ok (tsig0, None)
    (NewSignature tH tT (Some tcred) (Some tsk) (Some tnym) (Some trnym) (Some tipk) tdisc tmsg 3 2 (Some tcri) (tR f25) st None).
Definition tver (h : hasher tC) (sig : Signature) (vt : VerificationType) (meta : option (Metadata tC)) : res unit :=
  Ver h tT sig tdisc (Some tipk) tmsg tvals 3 2 tt 5 vt meta.

Example tsign_ok : forall st, In st [Standard; EidNym; EidNymRhNym] ->
  NewSignature tH tT (Some tcred) (Some tsk) (Some tnym) (Some trnym) (Some tipk) tdisc tmsg 3 2 (Some tcri) (tR f25) st None
  = Ok (tsign st).
Proof. intros st [<-|[<-|[<-|[]]]]; apply from_ok_eq; vm_compute; reflexivity. Qed.

Example tver_ok :
  tver tH (fst (tsign EidNymRhNym)) ExpectEidNymRhNym (snd (tsign EidNymRhNym)) = Ok tt /\
  tver tH (fst (tsign EidNym)) ExpectEidNym None = Ok tt /\
  tver tH (fst (tsign Standard)) Basic None = Ok tt.
Proof. vm_compute. repeat split; reflexivity. Qed.
