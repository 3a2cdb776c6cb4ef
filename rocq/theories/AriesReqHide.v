(** aries: requests, pseudonyms and pseudonym signatures do not determine the user's secret. *)
From Verif Require Import Base Curve Algebra Spec Dlog DlogSound Bridge BridgeFacts Bbs BbsSpec BbsFacts BbsProof BbsComplete
  Aries AriesSpec AriesIssue AriesNym.
From Coq Require Import Field Ring.
Unset Strict Implicit.

Section ReqHide.
  Context {C : Curve} (OK : CurveOk C).
  Variable HG : bytes -> G1 C.
  Variable H : hasher C.
  Let KO := ok_zr OK.
  Let GO1 := ok_g1 OK.
  Add Field Kf_rqh : (sok_field KO).
  Notation zr := (zcar (Zr C)).
  Notation g1 := (gcar (G1 C)).
  Notation g2 := (gcar (G2 C)).
  Variable BS : bls_sizes C.
  Let S32 : scalar_size C = frCompressedSize := proj1 BS.
  Local Open Scope zr_scope.

  (** the bytes of a request *)
  Lemma blind_bytes pk n k sk s bl nonce : (Z.of_nat (n + 1) <= 4294967295)%Z -> k <= n ->
    exists req, arBlind HG H (Z.of_nat k) sk (Some (Some (issuer_key HG pk n))) nonce s bl = Ok (req, zr_bytes C s) /\
      blindedBytes (request HG H pk n k sk s bl nonce) = Ok req.
  Proof.
    intros B L. unfold arBlind. cbn [assert_ptr bind ip_n ip_pk issuer_key]. rewrite one_at_ok by lia. cbn [bind].
    unfold blindMessagesZr. rewrite app_length. cbn [length]. rewrite !repeat_length.
    replace (k + S (n + 1 - k - 1))%nat with (n + 1)%nat by lia. rewrite (toPKwG_ok OK) by exact B. cbn [bind pg_h pg_h0].
    rewrite pairs_one by (rewrite (gens_length); lia). cbn [bind]. rewrite (build_ok OK) by discriminate. cbn [bind map fst snd length seq].
    rewrite (finish_ok OK) by (try discriminate; reflexivity). cbn [bind pc_comm]. unfold generateProof. cbn [pc_blind pc_comm].
    rewrite responses_ok by reflexivity. cbn [bind].
    destruct (@blinded_rt C OK HG BS (request HG H pk n k sk s bl nonce)) as [x [E P]].
    { unfold request. cbn [bl_proof pf_resp]. rewrite resp_length by reflexivity. cbn [length]. lia. }
    change (nth k (gens HG pk (n + 1)) gzero) with (base_at HG pk n k).
    exists x. split; [|exact E]. unfold request in E at 1. cbv zeta in E. rewrite E. cbn [bind]. reflexivity.
  Qed.

  (** the challenge of a request *)
  Definition req_challenge (pk : g2) (n k : nat) (sk s b0 b1 : zr) (nonce : bytes) : zr :=
    let bases := [gen0 HG pk (n + 1); base_at HG pk n k] in
    H (g1_bytes C (gdot bases [s; sk]) ++ g1_bytes C (gdot bases [b0; b1]) ++ nonce).

  Definition two (b0 b1 : zr) (i : nat) : zr := match i with O => b0 | _ => b1 end.

  Lemma request_same pk n k sk1 sk2 d s b0 b1 nonce :
    base_at HG pk n k ⊗ (sk1 - sk2) = gen0 HG pk (n + 1) ⊗ d ->
    let c := req_challenge pk n k sk1 s b0 b1 nonce in
    request HG H pk n k sk2 (s + d) (two (b0 + c * d) (b1 + c * (sk2 - sk1))) nonce = request HG H pk n k sk1 s (two b0 b1) nonce /\
    req_challenge pk n k sk2 (s + d) (b0 + c * d) (b1 + c * (sk2 - sk1)) nonce = c.
  Proof.
    intros Hd c.
    assert (E1 : gdot [gen0 HG pk (n + 1); base_at HG pk n k] [s + d; sk2] = gdot [gen0 HG pk (n + 1); base_at HG pk n k] [s; sk1]).
    { cbn [gdot]. eapply (glin1 OK) with (k := - z1); [exact Hd|]. gnorm KO GO1; ring. }
    assert (E2 : gdot [gen0 HG pk (n + 1); base_at HG pk n k] [b0 + c * d; b1 + c * (sk2 - sk1)]
               = gdot [gen0 HG pk (n + 1); base_at HG pk n k] [b0; b1]).
    { cbn [gdot]. eapply (glin1 OK) with (k := - c); [exact Hd|]. gnorm KO GO1; ring. }
    split.
    - unfold request, two. cbv zeta. rewrite E1, E2. fold (req_challenge pk n k sk1 s b0 b1 nonce). fold c.
      f_equal. f_equal. cbn [resp combine map fst snd]. f_equal; [ring|]. f_equal. ring.
    - unfold req_challenge at 1. cbv zeta. rewrite E1, E2. reflexivity.
  Qed.

  Lemma request_hiding pk n k sk1 sk2 nonce : (Z.of_nat (n + 1) <= 4294967295)%Z -> k <= n -> gen0 HG pk (n + 1) <> gzero ->
    let request sk (x : zr * zr * zr) := let '(s, b0, b1) := x in
      arBlind HG H (Z.of_nat k) sk (Some (Some (issuer_key HG pk n))) nonce s (two b0 b1) in
    exists f g : zr * zr * zr -> zr * zr * zr,
      (forall x, g (f x) = x) /\ (forall y, f (g y) = y) /\
      (forall x, exists req b1 b2, request sk1 x = Ok (req, b1) /\ request sk2 (f x) = Ok (req, b2)).
  Proof.
    intros B L NZ rq. destruct (gok_cyclic GO1 (base_at HG pk n k ⊗ (sk1 - sk2)) NZ) as [d Hd].
    assert (Hd' : base_at HG pk n k ⊗ (sk2 - sk1) = gen0 HG pk (n + 1) ⊗ (- d)).
    { eapply (glin1 OK) with (k := - z1); [exact Hd|]. gnorm KO GO1; ring. }
    pose (move := fun (a b e : zr) (x : zr * zr * zr) => let '(s, b0, b1) := x in
      let c := req_challenge pk n k a s b0 b1 nonce in (s + e, b0 + c * e, b1 + c * (b - a))).
    exists (move sk1 sk2 d), (move sk2 sk1 (- d)). split; [|split].
    - intros [[s b0] b1]. unfold move. rewrite (proj2 (@request_same pk n k sk1 sk2 d s b0 b1 nonce Hd)).
      f_equal; [f_equal|]; ring.
    - intros [[s b0] b1]. unfold move. rewrite (proj2 (@request_same pk n k sk2 sk1 (- d) s b0 b1 nonce Hd')).
      f_equal; [f_equal|]; ring.
    - intros [[s b0] b1]. unfold move, rq.
      destruct (blind_bytes pk sk1 s (two b0 b1) nonce B L) as (r1 & E1 & R1).
      set (c := req_challenge pk n k sk1 s b0 b1 nonce).
      destruct (blind_bytes pk sk2 (s + d) (two (b0 + c * d) (b1 + c * (sk2 - sk1))) nonce B L) as (r2 & E2 & R2).
      unfold c in R2. rewrite (proj1 (@request_same pk n k sk1 sk2 d s b0 b1 nonce Hd)), R1 in R2. injection R2 as <-.
      exists r1, (zr_bytes C s), (zr_bytes C (s + d)). split; [exact E1|exact E2].
  Qed.

  (** ** pseudonyms and pseudonym signatures *)
  Variable c_nsig : codec ANymSignature.

  Lemma ar_nymsig_hiding pk n k sk1 sk2 digest : k <= n -> (forall s, round_trips c_nsig s) -> gen0 HG pk (n + 1) <> gzero ->
    let key := Some (Some (issuer_key HG pk n)) in
    exists d : zr, forall r nonce b0 b1 : zr, exists Nym sig c,
      arMakeNym (Z.of_nat k) sk1 key r = Ok (Nym, r) /\ arMakeNym (Z.of_nat k) sk2 key (r + d) = Ok (Nym, r + d) /\
      arNymSign H c_nsig (Z.of_nat k) sk1 Nym r key digest nonce (two b0 b1) = Ok sig /\
      arNymSign H c_nsig (Z.of_nat k) sk2 Nym (r + d) key digest nonce (two (b0 + c * d) (b1 + c * (sk2 - sk1))) = Ok sig.
  Proof.
    intros L RT NZ key. destruct (gok_cyclic GO1 (base_at HG pk n k ⊗ (sk1 - sk2)) NZ) as [d Hd].
    exists d. intros r nonce b0 b1. set (h0 := gen0 HG pk (n + 1)) in *. set (h := base_at HG pk n k) in *.
    exists ((h0 ⊗ r) ⊕ (h ⊗ sk1)).
    destruct (nymSign_ok OK HG H BS pk sk1 r digest nonce (two b0 b1) L RT) as (sig & E & _). cbv zeta in E. fold h0 h in E. fold key in E.
    exists sig.
    assert (EN : (h0 ⊗ (r + d)) ⊕ (h ⊗ sk2) = (h0 ⊗ r) ⊕ (h ⊗ sk1)).
    { eapply (glin1 OK) with (k := - z1); [exact Hd|]. gnorm KO GO1; ring. }
    set (Nym := (h0 ⊗ r) ⊕ (h ⊗ sk1)) in *.
    set (c := challenge2 H (nymSigLabel ++ g1_bytes C Nym ++ committedBytes {| pc_bases := [h0; h]; pc_blind := [b0; b1]; pc_comm := gdot [h0; h] [b0; b1] |} ++ digest) (zr_bytes C nonce)).
    exists c. split; [exact (makeNym_ok OK HG BS pk sk1 r L)|]. split; [rewrite <- EN; exact (makeNym_ok OK HG BS pk sk2 (r + d) L)|].
    split; [exact E|]. rewrite <- E. clear E. unfold arNymSign. unfold key. cbn [assert_ptr bind issuer_key ip_key pg_h0 pg_h].
    rewrite (base_lookup HG BS pk L). cbn [bind]. fold h0 h. rewrite !(finish_ok OK) by (try discriminate; reflexivity). cbn [bind].
    assert (E2 : gdot [h0; h] [b0 + c * d; b1 + c * (sk2 - sk1)] = gdot [h0; h] [b0; b1]).
    { cbn [gdot]. eapply (glin1 OK) with (k := - c); [exact Hd|]. gnorm KO GO1; ring. }
    cbn [two]. rewrite E2. unfold committedBytes at 1 2. cbn [pc_bases pc_comm]. 
    change (g1_bytes C Nym ++ (concat (map (g1_bytes C) [h0; h]) ++ g1_bytes C (gdot [h0; h] [b0; b1])) ++ digest)
      with (g1_bytes C Nym ++ committedBytes {| pc_bases := [h0; h]; pc_blind := [b0; b1]; pc_comm := gdot [h0; h] [b0; b1] |} ++ digest).
    fold c. unfold generateProof. cbn [pc_blind pc_comm]. rewrite !responses_ok by reflexivity. cbn [bind].
    replace (resp c [b0 + c * d; b1 + c * (sk2 - sk1)] [r + d; sk2]) with (resp c [b0; b1] [r; sk1]); [reflexivity|].
    cbn [resp combine map fst snd]. f_equal; [ring|]. f_equal. ring.
  Qed.
End ReqHide.
