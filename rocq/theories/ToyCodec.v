(** A concrete self-delimiting encoding of messages, used only to show that the codec
    hypotheses of the theorems are satisfiable (the real code uses protobuf). *)
From Verif Require Import Base Dlog Bridge.
Unset Strict Implicit.

Definition parser (X : Type) := bytes -> option (X * bytes).
Record serial (X : Type) := { ser : X -> bytes; par : parser X }.
Definition serial_ok X (s : serial X) : Prop := forall x r, par s (ser s x ++ r) = Some (x, r).

Definition tcodec X (s : serial X) : codec X :=
  {| enc := fun x => Some (ser s x);
     dec := fun b => match par s b with Some (x, []) => Some x | _ => None end |}.

Lemma tcodec_rt X (s : serial X) : serial_ok s -> forall x, round_trips (tcodec s) x.
Proof.
  intros Hs x. exists (ser s x). split; [reflexivity|]. cbn. specialize (Hs x []). rewrite app_nil_r in Hs. rewrite Hs. reflexivity.
Qed.

Lemma tcodec_dec X (s : serial X) : serial_ok s -> forall x, dec (tcodec s) (ser s x) = Some x.
Proof. intros Hs x. destruct (tcodec_rt Hs x) as [b [B1 B2]]. cbn in B1. injection B1 as <-. exact B2. Qed.

(** x01-prefixed items, x00-terminated *)
Fixpoint ser_list {X} (f : X -> bytes) (l : list X) : bytes :=
  match l with [] => [Byte.x00] | x :: l' => Byte.x01 :: f x ++ ser_list f l' end.
Fixpoint par_list {X} (p : parser X) (fuel : nat) (b : bytes) : option (list X * bytes) :=
  match fuel with
  | 0 => None
  | S n => match b with
           | Byte.x00 :: r => Some ([], r)
           | Byte.x01 :: r =>
               match p r with
               | Some (x, r') => match par_list p n r' with Some (l, r'') => Some (x :: l, r'') | None => None end
               | None => None
               end
           | _ => None
           end
  end.
Definition s_list {X} (s : serial X) : serial (list X) :=
  {| ser := ser_list (ser s); par := fun b => par_list (par s) (length b) b |}.

Lemma par_list_ok X (s : serial X) : serial_ok s -> forall l n r, length l < n -> par_list (par s) n (ser_list (ser s) l ++ r) = Some (l, r).
Proof.
  intros Hs. induction l as [|x l IH]; intros n r L; destruct n as [|n]; try lia; cbn [ser_list app par_list]; [reflexivity|].
  rewrite <- app_assoc. rewrite Hs. rewrite IH by (cbn in L; lia). reflexivity.
Qed.

Lemma ser_list_len X (f : X -> bytes) l : length l < length (ser_list f l).
Proof. induction l as [|x l IH]; cbn; [lia|]. rewrite app_length. lia. Qed.

Lemma s_list_ok X (s : serial X) : serial_ok s -> serial_ok (s_list s).
Proof.
  intros Hs x r. cbn. apply par_list_ok; [exact Hs|]. rewrite app_length. pose proof (ser_list_len (ser s) x). lia.
Qed.

Definition s_byte : serial byte := {| ser := fun b => [b]; par := fun l => match l with b :: r => Some (b, r) | [] => None end |}.
Lemma s_byte_ok : serial_ok s_byte.
Proof. intros x r. reflexivity. Qed.

Definition s_bytes : serial bytes := s_list s_byte.
Lemma s_bytes_ok : serial_ok s_bytes.
Proof. exact (s_list_ok s_byte_ok). Qed.

Definition s_pair {X Y} (s : serial X) (t : serial Y) : serial (X * Y) :=
  {| ser := fun p => ser s (fst p) ++ ser t (snd p);
     par := fun b => match par s b with
                     | Some (x, r) => match par t r with Some (y, r') => Some ((x, y), r') | None => None end
                     | None => None end |}.
Lemma s_pair_ok X Y (s : serial X) (t : serial Y) : serial_ok s -> serial_ok t -> serial_ok (s_pair s t).
Proof. intros Hs Ht [x y] r. cbn. rewrite <- app_assoc, Hs, Ht. reflexivity. Qed.

Definition s_opt {X} (s : serial X) : serial (option X) :=
  {| ser := fun o => match o with None => [Byte.x00] | Some x => Byte.x01 :: ser s x end;
     par := fun b => match b with
                     | Byte.x00 :: r => Some (None, r)
                     | Byte.x01 :: r => match par s r with Some (x, r') => Some (Some x, r') | None => None end
                     | _ => None end |}.
Lemma s_opt_ok X (s : serial X) : serial_ok s -> serial_ok (s_opt s).
Proof. intros Hs [x|] r; cbn; [rewrite Hs|]; reflexivity. Qed.

(** transport along an isomorphism *)
Definition s_iso {X Y} (s : serial X) (f : Y -> X) (g : X -> Y) : serial Y :=
  {| ser := fun y => ser s (f y);
     par := fun b => match par s b with Some (x, r) => Some (g x, r) | None => None end |}.
Lemma s_iso_ok X Y (s : serial X) (f : Y -> X) (g : X -> Y) : serial_ok s -> (forall y, g (f y) = y) -> serial_ok (s_iso s f g).
Proof. intros Hs Hg y r. cbn. rewrite Hs, Hg. reflexivity. Qed.

(** integers, one item per unit *)
Definition s_Z : serial Z :=
  s_iso (s_pair s_byte (s_list s_byte))
    (fun z => (if (z <? 0)%Z then Byte.x01 else Byte.x00, repeat Byte.x00 (Z.abs_nat z)))
    (fun p => if byte_eqb (fst p) Byte.x00 then Z.of_nat (length (snd p)) else (- Z.of_nat (length (snd p)))%Z).
Lemma s_Z_ok : serial_ok s_Z.
Proof.
  apply s_iso_ok.
  - apply s_pair_ok; [exact s_byte_ok|exact (s_list_ok s_byte_ok)].
  - intro z. cbn [fst snd]. rewrite repeat_length. destruct (z <? 0)%Z eqn:E; cbn; lia.
Qed.

Definition s_ecp : serial ecp := s_iso (s_pair s_bytes s_bytes) (fun e => (ex e, ey e)) (fun p => {| ex := fst p; ey := snd p |}).
Definition s_ecp2 : serial ecp2 :=
  s_iso (s_pair (s_pair s_bytes s_bytes) (s_pair s_bytes s_bytes)) (fun e => ((exa e, exb e), (eya e, eyb e)))
    (fun p => {| exa := fst (fst p); exb := snd (fst p); eya := fst (snd p); eyb := snd (snd p) |}).

Ltac serial_tac :=
  repeat first [ exact s_bytes_ok | exact s_Z_ok | exact s_byte_ok | apply s_iso_ok | apply s_pair_ok | apply s_opt_ok | apply s_list_ok ].
Lemma s_ecp_ok : serial_ok s_ecp.
Proof. unfold s_ecp. serial_tac. intros []; reflexivity. Qed.
Lemma s_ecp2_ok : serial_ok s_ecp2.
Proof. unfold s_ecp2. serial_tac. intros []; reflexivity. Qed.

Ltac serial_tac2 :=
  repeat first [ exact s_bytes_ok | exact s_Z_ok | exact s_ecp_ok | exact s_ecp2_ok | apply s_iso_ok | apply s_pair_ok | apply s_opt_ok | apply s_list_ok ].

Definition s_ipk : serial IssuerPublicKey :=
  s_iso (s_pair (s_pair (s_pair (s_list s_bytes) (s_opt s_ecp)) (s_pair (s_opt s_ecp) (s_list (s_opt s_ecp))))
                (s_pair (s_pair (s_opt s_ecp2) (s_opt s_ecp)) (s_pair (s_opt s_ecp) (s_pair s_bytes (s_pair s_bytes s_bytes)))))
    (fun k => (((ip_names k, ip_hsk k), (ip_hrand k, ip_hattrs k)), ((ip_w k, ip_barg1 k), (ip_barg2 k, (ip_c k, (ip_s k, ip_hash k))))))
    (fun p => {| ip_names := fst (fst (fst p)); ip_hsk := snd (fst (fst p)); ip_hrand := fst (snd (fst p)); ip_hattrs := snd (snd (fst p));
                 ip_w := fst (fst (snd p)); ip_barg1 := snd (fst (snd p)); ip_barg2 := fst (snd (snd p));
                 ip_c := fst (snd (snd (snd p))); ip_s := fst (snd (snd (snd (snd p)))); ip_hash := snd (snd (snd (snd (snd p)))) |}).
Lemma s_ipk_ok : serial_ok s_ipk.
Proof. unfold s_ipk. serial_tac2. intros []; reflexivity. Qed.

Definition s_req : serial CredRequest :=
  s_iso (s_pair (s_pair (s_opt s_ecp) (s_opt s_bytes)) (s_pair s_bytes s_bytes))
    (fun m => ((rq_nym m, rq_nonce m), (rq_c m, rq_s m)))
    (fun p => {| rq_nym := fst (fst p); rq_nonce := snd (fst p); rq_c := fst (snd p); rq_s := snd (snd p) |}).
Lemma s_req_ok : serial_ok s_req.
Proof. unfold s_req. serial_tac2. intros []; reflexivity. Qed.

Definition s_cred : serial Credential :=
  s_iso (s_pair (s_pair (s_opt s_ecp) (s_opt s_ecp)) (s_pair s_bytes (s_pair s_bytes (s_list (s_opt s_bytes)))))
    (fun m => ((cr_a m, cr_b m), (cr_e m, (cr_s m, cr_attrs m))))
    (fun p => {| cr_a := fst (fst p); cr_b := snd (fst p); cr_e := fst (snd p); cr_s := fst (snd (snd p)); cr_attrs := snd (snd (snd p)) |}).
Lemma s_cred_ok : serial_ok s_cred.
Proof. unfold s_cred. serial_tac2. intros []; reflexivity. Qed.

Definition s_an : serial AttrNym :=
  s_iso (s_pair (s_opt s_ecp) (s_opt s_bytes)) (fun m => (an_nym m, an_s m)) (fun p => {| an_nym := fst p; an_s := snd p |}).
Lemma s_an_ok : serial_ok s_an.
Proof. unfold s_an. serial_tac2. intros []; reflexivity. Qed.

Definition s_nrp : serial NonRevocationProof := s_iso s_Z nr_alg (fun z => {| nr_alg := z |}).
Lemma s_nrp_ok : serial_ok s_nrp.
Proof. unfold s_nrp. serial_tac2. intros []; reflexivity. Qed.

Definition s_sig : serial Signature :=
  s_iso (s_pair (s_opt s_ecp) (s_pair (s_opt s_ecp) (s_pair (s_opt s_ecp)
        (s_pair s_bytes (s_pair s_bytes (s_pair s_bytes (s_pair s_bytes (s_pair s_bytes (s_pair s_bytes
        (s_pair (s_list s_bytes) (s_pair s_bytes (s_pair (s_opt s_ecp) (s_pair s_bytes (s_pair (s_opt s_ecp2) (s_pair s_bytes
        (s_pair s_Z (s_pair (s_opt s_nrp) (s_pair (s_opt s_an) (s_opt s_an)))))))))))))))))))
    (fun s => (sg_aprime s, (sg_abar s, (sg_bprime s, (sg_c s, (sg_ssk s, (sg_se s, (sg_sr2 s, (sg_sr3 s, (sg_ssprime s,
              (sg_sattrs s, (sg_nonce s, (sg_nym s, (sg_srnym s, (sg_epochpk s, (sg_pksig s, (sg_epoch s, (sg_nonrev s,
              (sg_eid s, sg_rh s)))))))))))))))))))
    (fun p => let '(a, (b, (c, (d, (e, (f, (g, (h, (i, (j, (k, (l, (m, (n, (o, (q, (r, (t, u)))))))))))))))))) := p in
       {| sg_aprime := a; sg_abar := b; sg_bprime := c; sg_c := d; sg_ssk := e; sg_se := f; sg_sr2 := g; sg_sr3 := h; sg_ssprime := i;
          sg_sattrs := j; sg_nonce := k; sg_nym := l; sg_srnym := m; sg_epochpk := n; sg_pksig := o; sg_epoch := q; sg_nonrev := r;
          sg_eid := t; sg_rh := u |}).
Lemma s_sig_ok : serial_ok s_sig.
Proof.
  unfold s_sig. apply s_iso_ok; [|intros []; reflexivity].
  repeat (apply s_pair_ok; [first [exact s_bytes_ok|exact s_Z_ok|exact (s_opt_ok s_ecp_ok)|exact (s_opt_ok s_ecp2_ok)
    |exact (s_list_ok s_bytes_ok)|exact (s_opt_ok s_nrp_ok)|exact (s_opt_ok s_an_ok)]|]). exact (s_opt_ok s_an_ok).
Qed.

Definition s_nsig : serial NymSignature :=
  s_iso (s_pair (s_pair s_bytes s_bytes) (s_pair s_bytes s_bytes)) (fun m => ((ns_c m, ns_ssk m), (ns_srnym m, ns_nonce m)))
    (fun p => {| ns_c := fst (fst p); ns_ssk := snd (fst p); ns_srnym := fst (snd p); ns_nonce := snd (snd p) |}).
Lemma s_nsig_ok : serial_ok s_nsig.
Proof. unfold s_nsig. serial_tac2. intros []; reflexivity. Qed.

Definition s_cri : serial CRI :=
  s_iso (s_pair (s_pair s_Z (s_opt s_ecp2)) (s_pair s_bytes s_Z)) (fun m => ((cri_epoch m, cri_epochpk m), (cri_sig m, cri_alg m)))
    (fun p => {| cri_epoch := fst (fst p); cri_epochpk := snd (fst p); cri_sig := fst (snd p); cri_alg := snd (snd p) |}).
Lemma s_cri_ok : serial_ok s_cri.
Proof. unfold s_cri. serial_tac2. intros []; reflexivity. Qed.

Definition s_acri : serial ACRI :=
  s_iso (s_pair (s_pair s_Z s_bytes) (s_pair s_bytes s_Z)) (fun m => ((acri_epoch m, acri_epochpk m), (acri_sig m, acri_alg m)))
    (fun p => {| acri_epoch := fst (fst p); acri_epochpk := snd (fst p); acri_sig := fst (snd p); acri_alg := snd (snd p) |}).
Lemma s_acri_ok : serial_ok s_acri.
Proof. unfold s_acri. serial_tac2. intros []; reflexivity. Qed.
