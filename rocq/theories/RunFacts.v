(** Lemmas for honest runs through the CSP (C67): what each call on a CSP made by New comes to, and
    that honest messages are not encoded as the empty string. *)
From Verif Require Import Base Curve Algebra Spec Dlog DlogSpec DlogFacts DlogComplete Bridge BridgeFacts Csp CspInst CspSpec CspFacts RunSpec.
Unset Strict Implicit.

Section Calls.
  Variable U : universe.
  Variable X : scheme U.
  Variable M : mathops U.
  Variable e : bool.
  Variable c : CSP U.
  Hypothesis N : New X M false e = Ok c.
  Variable S : Type.
  Variable KS : keystore U S.
  Variable s : S.

  Lemma call_gen_issuer d names k : s_newIssuerKey X d names = Ok k ->
    KeyGen KS c s d (Some (GIssuer true names)) = (Ok (KIssuerSecret k e), s).
  Proof.
    intros E. destruct (new_tables N) as (G & _). clear N. unfold KeyGen. cbn [gtype]. rewrite G. cbn [wired_csp gens h_IssuerKeyGen].
    rewrite E. reflexivity.
  Qed.
  Lemma call_gen_user d k : s_newUserKey X d = Ok k -> KeyGen KS c s d (Some (GUser true)) = (Ok (KUserSecret k e), s).
  Proof.
    intros E. destruct (new_tables N) as (G & _). clear N. unfold KeyGen. cbn [gtype]. rewrite G. cbn [wired_csp gens]. unfold h_UserKeyGen.
    rewrite E. reflexivity.
  Qed.
  Lemma call_gen_revocation d k : s_revNewKey X d = Ok k -> KeyGen KS c s d (Some (GRevocation true)) = (Ok (KRevSecret k e), s).
  Proof.
    intros E. destruct (new_tables N) as (G & _). clear N. unfold KeyGen. cbn [gtype]. rewrite G. cbn [wired_csp gens]. unfold h_RevocationKeyGen.
    rewrite E. reflexivity.
  Qed.
  Lemma call_derive d sk x pk nym r : s_makeNym X d sk pk = Ok (nym, r) ->
    KeyDeriv KS c s d (Some (KUserSecret sk x)) (Some (DNym true (Some (KIssuerPublic pk)))) = (Ok (newNymSecretKey M r nym e), s).
  Proof.
    intros E. destruct (new_tables N) as (_ & D & _). clear N. unfold KeyDeriv. cbn [ktype]. rewrite D. cbn [wired_csp ders h_NymKeyDerivation].
    rewrite E. reflexivity.
  Qed.
  Lemma call_import_issuer raw names rh eid sk b pk : raw <> [] -> s_issuerPkFromBytes X raw names = IOk pk ->
    KeyImport KS c s (RBytes raw) (Some (IIssuerPk true names 0 rh eid sk b)) = (IOk (KIssuerPublic pk, IIssuerPk true names 0 rh eid sk b), s).
  Proof.
    intros NE E. destruct (new_tables N) as (_ & _ & I & _). clear N. unfold KeyImport. cbn [itype]. rewrite I. cbn [wired_csp imps]. unfold h_IssuerPublicKeyImporter.
    destruct raw as [|x raw]; [contradiction|]. cbn [raw_bytes ibind]. rewrite E. reflexivity.
  Qed.

  Lemma call_sign d sk x so pk ski nsk npk y msg sigma md :
    so_ipk so = Some (KIssuerPublic pk) -> so_nym so = Some (KNymSecret ski nsk npk y) ->
    s_sign X d (so_cred so) sk npk nsk pk (so_attrs so) msg (so_rh so) (so_eid so) (so_cri so) (so_sigtype so) (so_meta so) = Ok (sigma, md) ->
    exists so', csp_Sign c d (Some (KUserSecret sk x)) msg (Some (SSigner so)) = Ok (sigma, Some (SSigner so')) /\ so_meta so' = md.
  Proof.
    intros E1 E2 E. destruct (new_tables N) as (_ & _ & _ & G & _). clear N. unfold csp_Sign. cbn [opt_err bind ktype]. rewrite G.
    cbn [wired_csp sigs h_SignerMultiplexer h_Signer opt_err bind]. rewrite E1, E2, E. cbn [bind]. eexists. split; reflexivity.
  Qed.
  Lemma call_sign_nym d sk x no pk ski nsk npk y msg sigma :
    no_ipk no = Some (KIssuerPublic pk) -> no_nym no = Some (KNymSecret ski nsk npk y) -> no_smartcard no = false ->
    s_nymSign X d sk npk nsk pk msg = Ok sigma ->
    csp_Sign c d (Some (KUserSecret sk x)) msg (Some (SNym no)) = Ok (sigma, Some (SNym no)).
  Proof.
    intros E1 E2 E3 E. destruct (new_tables N) as (_ & _ & _ & G & _). clear N. unfold csp_Sign. cbn [opt_err bind ktype]. rewrite G.
    cbn [wired_csp sigs h_SignerMultiplexer h_NymSigner opt_err bind]. rewrite E1, E3, E2, E. reflexivity.
  Qed.
  Lemma call_sign_request h d sk x pk nonce msg b : s_request X = Some h -> cq_sign h d sk pk nonce = Ok b ->
    csp_Sign c d (Some (KUserSecret sk x)) msg (Some (SRequest (Some (KIssuerPublic pk)) nonce)) = Ok (b, Some (SRequest (Some (KIssuerPublic pk)) nonce)).
  Proof.
    intros E1 E. destruct (new_tables N) as (_ & _ & _ & G & _). clear N. unfold csp_Sign. cbn [opt_err bind ktype]. rewrite G.
    cbn [wired_csp sigs h_SignerMultiplexer h_CredentialRequestSigner opt_err bind]. rewrite E1. cbn [deref bind]. rewrite E. reflexivity.
  Qed.
  Lemma call_sign_blind h d sk x pk nonce b0 msg b bl : s_blind X = Some h -> bq_blind h d sk pk nonce = Ok (b, bl) ->
    csp_Sign c d (Some (KUserSecret sk x)) msg (Some (SBlind (Some (KIssuerPublic pk)) nonce b0)) = Ok (b, Some (SBlind (Some (KIssuerPublic pk)) nonce bl)).
  Proof.
    intros E1 E. destruct (new_tables N) as (_ & _ & _ & G & _). clear N. unfold csp_Sign. cbn [opt_err bind ktype]. rewrite G.
    cbn [wired_csp sigs h_SignerMultiplexer h_BlindCredentialRequestSigner opt_err bind]. rewrite E1. cbn [deref bind]. rewrite E. reflexivity.
  Qed.
  Lemma call_sign_credential d k x req attrs i b : s_credSign X d k req attrs = Ok b ->
    csp_Sign c d (Some (KIssuerSecret k x)) req (Some (SCred attrs i)) = Ok (b, Some (SCred attrs i)).
  Proof.
    intros E. destruct (new_tables N) as (_ & _ & _ & G & _). clear N. unfold csp_Sign. cbn [opt_err bind ktype]. rewrite G.
    cbn [wired_csp sigs h_CredentialSigner opt_err bind]. rewrite E. reflexivity.
  Qed.
  Lemma call_sign_cri d k x epoch alg handles msg b : s_revSign X d k handles epoch alg = Ok b ->
    csp_Sign c d (Some (KRevSecret k x)) msg (Some (SCri epoch alg handles)) = Ok (b, Some (SCri epoch alg handles)).
  Proof.
    intros E. destruct (new_tables N) as (_ & _ & _ & G & _). clear N. unfold csp_Sign. cbn [opt_err bind ktype]. rewrite G.
    cbn [wired_csp sigs h_CriSigner opt_err bind]. rewrite E. reflexivity.
  Qed.

  Lemma call_verify k sig msg o : sig <> [] -> deciding X k sig msg o = Some (Ok tt) -> csp_Verify c (Some k) sig msg (Some o) = accepted.
  Proof.
    intros NE E. rewrite (csp_verify_spec _ _ _ _ N). destruct (length sig =? 0) eqn:L; [apply Nat.eqb_eq, length_zero_iff_nil in L; contradiction|].
    rewrite E. reflexivity.
  Qed.
  Lemma call_verify_iff k sig msg o r : sig <> [] -> deciding X k sig msg o = Some r ->
    (csp_Verify c (Some k) sig msg (Some o) = accepted <-> r = Ok tt).
  Proof.
    intros NE E. rewrite (csp_verify_spec _ _ _ _ N). destruct (length sig =? 0) eqn:L; [apply Nat.eqb_eq, length_zero_iff_nil in L; contradiction|].
    rewrite E. destruct r as [[]| |]; split; intros Q; first [reflexivity|discriminate Q].
  Qed.
End Calls.

Lemma enc_nonempty X (z : X) (c : codec X) x raw : nothing_is z c -> round_trips c x -> enc c x = Some raw -> x <> z -> raw <> [].
Proof. intros Z (b & E1 & E2) E NZ ->. rewrite E in E1. injection E1 as <-. exact (NZ (Z _ E2)). Qed.

Section DlogMessages.
  Variable C : Curve.
  Hypothesis OK : CurveOk C.
  Variable H : hasher C.
  Variable T : translator C.

  Lemma setHash_hsk m k k' : setHash H m k = Ok k' -> ip_hsk k' = ip_hsk k.
  Proof. unfold setHash. destruct (m (with_hash k [])); intros E; [|discriminate]. injection E as <-. reflexivity. Qed.
  Lemma ipk_nonempty (c_ipk : codec IssuerPublicKey) names R key ipk raw names' : nothing_is no_ipk_msg c_ipk ->
    brNewKey H T c_ipk names R = Ok key -> ik_ipk key = Some ipk -> brNewPublicKeyFromBytes H T c_ipk raw names' = Ok ipk -> raw <> [].
  Proof.
    intros Z K Ek E ->. apply (proj1 (recover_ok _ _)) in E. apply bind_ok in E. destruct E as [k [E1 E]].
    assert (D : dec c_ipk [] = Some k) by (destruct (dec c_ipk []); [injection E1 as ->; reflexivity|discriminate]).
    rewrite (Z _ D) in E. apply bind_ok in E. destruct E as [k1 [E2 E]]. apply bind_ok in E. destruct E as [k2 [E3 E]].
    apply bind_ok in E. destruct E as [[] [_ E]]. injection E as ->.
    unfold checkIPK in E3. apply bind_ok in E3. destruct E3 as [? [_ E3]]. apply bind_ok in E3. destruct E3 as [? [_ E3]].
    pose proof (eq_trans (setHash_hsk E3) (setHash_hsk E2)) as Q. cbn [no_ipk_msg ip_hsk] in Q.
    apply (proj1 (recover_ok _ _)) in K. unfold newIssuerKey in K. apply bind_ok in K. destruct K as [? [_ K]]. apply bind_ok in K. destruct K as [? [_ K]].
    apply bind_ok in K. destruct K as [k3 [K1 K]]. injection K as <-. cbn [ik_ipk] in Ek. injection Ek as ->.
    pose proof (setHash_hsk K1) as Q'. rewrite Q in Q'. discriminate Q'.
  Qed.

  Lemma credVerify_shows (c_cred : codec Credential) sk ipk raw attributes shown : shows shown attributes ->
    brCredVerify H T c_cred sk ipk raw attributes = Ok tt -> brCredVerify H T c_cred sk ipk raw shown = Ok tt.
  Proof.
    intros Sh E. apply (proj1 (recover_ok _ _)) in E. apply recover_ok.
    apply bind_ok in E. destruct E as [k [E1 E]]. rewrite E1. cbn [bind]. apply bind_ok in E. destruct E as [cr [E2 E]]. rewrite E2. cbn [bind].
    apply bind_ok in E. destruct E as [[] [E3 E]]. replace (attrs_match H 0 shown cr) with (Ok tt); [exact E|]. symmetry.
    apply attrs_match_iff. intros i a Ha.
    assert (Q : exists b, nth_error attributes i = Some b /\ (at_type a = HiddenAttr \/ a = b)).
    { clear -Sh Ha. revert i Ha. induction Sh as [|x y l1 l2 P Sh IH]; intros [|i] Ha; try discriminate Ha.
      - cbn in Ha. injection Ha as <-. exists y. split; [reflexivity|exact P].
      - exact (IH i Ha). }
    destruct Q as (b & Hb & [Hh| ->]); [left; exact Hh|]. exact (proj1 (attrs_match_iff H cr attributes 0) E3 i b Hb).
  Qed.

  Lemma request_nonempty (c_req : codec CredRequest) raw ipk nonce : nothing_is no_request c_req ->
    brRequestVerify H T c_req raw (Some (Some ipk)) nonce = Ok tt -> raw <> [].
  Proof.
    intros Z E ->. apply (proj1 (recover_ok _ _)) in E. apply bind_ok in E. destruct E as [req [E1 E]].
    assert (D : dec c_req [] = Some req) by (destruct (dec c_req []); [injection E1 as ->; reflexivity|discriminate]).
    rewrite (Z _ D) in E. cbn [opt_err deref bind] in E. apply bind_ok in E. destruct E as [[] [E2 E]].
    apply bind_ok in E. destruct E as [[] [E3 E]].
    apply guard_ok, Nat.eqb_eq in E3. cbn [ob no_request rq_nonce] in E.
    destruct nonce as [|x l]; [pose proof (scalar_pos OK); cbn in E3; lia|discriminate E].
  Qed.

  Lemma credential_issued (c_req : codec CredRequest) (c_cred : codec Credential) key req attributes vals E S raw :
    codec_ok canon_cred c_cred -> nothing_is no_credential c_cred -> map (attr_scalar H) attributes = map Some vals ->
    brCredSign H T c_req c_cred key req attributes E S = Ok raw ->
    raw <> [] /\ exists cred, dec c_cred raw = Some cred /\ cr_attrs cred = map (fun a => Some (zr_bytes C a)) vals.
  Proof.
    intros CC Z Ev R. apply (proj1 (recover_ok _ _)) in R. apply bind_ok in R. destruct R as [k [_ R]]. apply bind_ok in R. destruct R as [rq [_ R]].
    rewrite (issue_values Ev) in R. cbn [bind] in R. apply bind_ok in R. destruct R as [k' [_ R]]. apply bind_ok in R. destruct R as [cred [R Ec]].
    pose proof (newCredential_canonical R) as At.
    assert (Cc : canon_cred cred).
    { unfold canon_cred. rewrite At. apply Forall_forall. intros o Ho. apply in_map_iff in Ho. destruct Ho as (i & <- & _). discriminate. }
    assert (Ee : enc c_cred cred = Some raw) by (destruct (enc c_cred cred); [injection Ec as ->; reflexivity|discriminate]).
    split.
    - apply (enc_nonempty Z (CC _ Cc) Ee). intros ->. unfold newCredential in R. repeat (apply bind_ok in R; destruct R as [? [? R]]). discriminate R.
    - exists cred. split; [|exact At]. destruct (CC _ Cc) as (b & B1 & B2). rewrite Ee in B1. injection B1 as <-. exact B2.
  Qed.

  Lemma cri_nonempty (c_cri : codec CRI) EC sha256 (pk : option (ec_pk EC)) raw ep alg : nothing_is no_cri c_cri ->
    brRevVerify c_cri sha256 pk raw ep alg = Ok tt -> raw <> [].
  Proof.
    intros Z E ->. apply (proj1 (recover_ok _ _)) in E. apply bind_ok in E. destruct E as [cri [E1 E]].
    assert (D : dec c_cri [] = Some cri) by (destruct (dec c_cri []); [injection E1 as ->; reflexivity|discriminate]).
    rewrite (Z _ D) in E. unfold verifyEpochPK in E. apply bind_ok in E. destruct E as [? [_ E]]. discriminate E.
  Qed.

  Lemma cri_created (c_cri : codec CRI) EC sha256 (rk : ec_sk EC) handles epoch w raw : codec_ok canon_cri c_cri -> int64 epoch ->
    brRevSign T c_cri sha256 (Some rk) handles epoch 0 w = Ok raw -> forall x, dec c_cri raw = Some x -> int64 (cri_epoch x).
  Proof.
    intros CV Hep V1 x Dx. apply (proj1 (recover_ok _ _)) in V1. apply bind_ok in V1. destruct V1 as [y [V1 Ey]].
    unfold createCRI in V1. cbn [opt_err bind Z.eqb] in V1. apply bind_ok in V1. destruct V1 as [? [_ V1]]. apply bind_ok in V1. destruct V1 as [? [_ V1]]. injection V1 as <-.
    match type of Ey with opt_err (enc c_cri ?y) = _ => destruct (CV y) as (b & Y1 & Y2); [split; [exact Hep|clear; unfold int32; cbn [cri_alg]; lia]|] end.
    rewrite Y1 in Ey. injection Ey as ->. rewrite Dx in Y2. injection Y2 as ->. exact Hep.
  Qed.

  Lemma nymsig_nonempty (c_nsig : codec NymSignature) sk Nym RNym ipk digest n r1 r2 raw :
    codec_ok (fun _ => True) c_nsig -> nothing_is no_nymsig c_nsig ->
    brNymSign H T c_nsig sk Nym RNym ipk digest n r1 r2 = Ok raw -> raw <> [].
  Proof.
    intros CN Z E. apply (proj1 (recover_ok _ _)) in E. apply bind_ok in E. destruct E as [k [_ E]]. apply bind_ok in E. destruct E as [sig [E Ee]].
    assert (Q : enc c_nsig sig = Some raw) by (destruct (enc c_nsig sig); [injection Ee as ->; reflexivity|discriminate]).
    apply (enc_nonempty Z (CN sig I) Q). intros ->. unfold newNymSignature in E. destruct sk, Nym, RNym, k; try discriminate E.
    repeat (apply bind_ok in E; destruct E as [? [? E]]). injection E as E _. exact (zb_nonempty OK E).
  Qed.

  Lemma sig_nonempty (c_cred : codec Credential) (c_sig : codec Signature) (c_cri : codec CRI) craw sk Nym RNym ipk attributes msg rh eid criRaw R st meta raw md :
    codec_ok canon_sig c_sig -> nothing_is no_signature c_sig -> (forall cri, dec c_cri criRaw = Some cri -> int64 (cri_epoch cri)) ->
    brSign H T c_cred c_sig c_cri craw (Some sk) (Some Nym) (Some RNym) (Some (Some ipk)) attributes msg rh eid criRaw R st meta = Ok (raw, md) -> raw <> [].
  Proof.
    intros CS Z Ep E. apply (proj1 (recover_ok _ _)) in E. cbn [opt_err bind] in E. apply bind_ok in E. destruct E as [cred [_ E]].
    apply bind_ok in E. destruct E as [cri [Ec E]].
    assert (D : dec c_cri criRaw = Some cri) by (destruct (dec c_cri criRaw); [injection Ec as ->; reflexivity|discriminate]).
    apply bind_ok in E. destruct E as [[sig md'] [E Ee]]. cbn [fst snd] in Ee. apply bind_ok in Ee. destruct Ee as [b [Ee Eb]]. injection Eb as -> _.
    assert (Q : enc c_sig sig = Some raw) by (destruct (enc c_sig sig); [injection Ee as ->; reflexivity|discriminate]).
    apply (enc_nonempty Z (CS sig (sig_canonical OK E (Ep _ D))) Q). intros ->.
    assert (F : exists P we wr, finalise H T cred sk Nym RNym ipk (sign_disclosure attributes) msg rh eid cri P R we wr meta = Ok (no_signature, md')).
    { unfold NewSignature in E. destruct st; try discriminate; inv_all; eauto. }
    destruct F as (P & we & wr & F). unfold finalise in F. repeat (apply bind_ok in F; destruct F as [? [? F]]). discriminate F.
  Qed.
End DlogMessages.

(** ** aries *)
From Verif Require Import Bbs BbsSpec BbsFacts BbsProof Aries AriesSpec AriesIssue AriesVerify.

Section AriesMessages.
  Variable C : Curve.
  Hypothesis OK : CurveOk C.
  Variable HG : bytes -> G1 C.
  Variable H : hasher C.

  Lemma g2c_pos (P : G2 C) : g2_comp C P <> [].
  Proof.
    intros E. pose proof (ok_g2c_len OK P) as L. rewrite E in L. cbn [length] in L.
    assert (Q : forall x, g2_comp C x = []) by (intros x; apply length_zero_iff_nil; rewrite (ok_g2c_len OK); symmetry; exact L).
    apply (ok_gen2 OK). pose proof (ok_g2c_rt OK (genG2 C)) as A. pose proof (ok_g2c_rt OK gzero) as B. rewrite Q in A, B. congruence.
  Qed.
  Lemma g2_pos (P : G2 C) : g2_bytes C P <> [].
  Proof.
    intros E. pose proof (ok_g2_len OK P) as L. rewrite E in L. cbn [length] in L.
    assert (Q : forall x, g2_bytes C x = []) by (intros x; apply length_zero_iff_nil; rewrite (ok_g2_len OK); symmetry; exact L).
    apply (ok_gen2 OK). pose proof (ok_g2_rt OK (genG2 C)) as A. pose proof (ok_g2_rt OK gzero) as B. rewrite Q in A, B. congruence.
  Qed.

  Lemma parseProofG1_nil : parseProofG1 C [] = Err.
  Proof. unfold parseProofG1. cbn [length]. replace (g1_csize C + 4 <=? 0) with false; [reflexivity|]. symmetry. apply Nat.leb_gt. lia. Qed.
  Lemma blinded_nonempty skIdx raw ipk nonce : arBlindVerify HG H skIdx raw ipk nonce = Ok tt -> raw <> [].
  Proof.
    intros E ->. unfold arBlindVerify in E. apply bind_ok in E. destruct E as [k [_ E]]. apply bind_ok in E. destruct E as [bm [_ E]].
    apply bind_ok in E. destruct E as [b [E _]]. unfold parseBlindedMessages in E.
    apply bind_ok in E. destruct E as [[] [G E]]. apply guard_ok, Nat.leb_le in G. cbn [length] in G.
    assert (Z : g1_csize C = 0) by lia. rewrite Z in E. cbn [Nat.add] in E.
    apply bind_ok in E. destruct E as [? [_ E]]. apply bind_ok in E. destruct E as [? [_ E]]. apply bind_ok in E. destruct E as [? [_ E]].
    apply bind_ok in E. destruct E as [? [_ E]]. apply bind_ok in E. destruct E as [b3 [S E]].
    assert (b3 = []) by (cbn in S; injection S as <-; reflexivity). subst b3. rewrite parseProofG1_nil in E. discriminate E.
  Qed.
  Lemma acred_nonempty (c_cred : codec ACredential) raw c : nothing_is no_acredential c_cred -> dec c_cred raw = Some c -> ac_cred c <> [] -> raw <> [].
  Proof. intros Z D N ->. rewrite (Z _ D) in N. apply N. reflexivity. Qed.
  Lemma anymsig_nonempty (c_nsig : codec ANymSignature) key Nym raw msg i : nothing_is no_anymsig c_nsig ->
    arNymVerify H c_nsig key Nym raw msg i = Ok tt -> raw <> [].
  Proof.
    intros Z E ->. unfold arNymVerify in E. apply bind_ok in E. destruct E as [k [_ E]]. apply bind_ok in E. destruct E as [sg [D E]].
    assert (Q : dec c_nsig [] = Some sg) by (destruct (dec c_nsig []); [injection D as ->; reflexivity|discriminate D]).
    rewrite (Z _ Q) in E. cbn [no_anymsig ans_main] in E. rewrite parseProofG1_nil in E. discriminate E.
  Qed.
  Lemma asig_nonempty (c_sig : codec ASignature) key raw msg attrs rh eid i v m : nothing_is no_asignature c_sig ->
    arVerify H c_sig key raw msg attrs rh eid i v m = Ok tt -> raw <> [].
  Proof.
    intros Z E ->. unfold arVerify in E. apply bind_ok in E. destruct E as [f [E _]]. unfold arVerify_first in E.
    apply bind_ok in E. destruct E as [k [_ E]]. apply bind_ok in E. destruct E as [sg [D E]].
    assert (Q : dec c_sig [] = Some sg) by (destruct (dec c_sig []); [injection D as ->; reflexivity|discriminate D]).
    rewrite (Z _ Q) in E. discriminate E.
  Qed.
  Lemma acri_created (c_cri : codec ACRI) EC sha256 (rk : ec_sk EC) handles epoch w raw : nothing_is no_acri c_cri -> codec_ok canon_acri c_cri -> int64 epoch ->
    arRevSign (C := C) sha256 c_cri (Some rk) handles epoch 0 w = Ok raw ->
    raw <> [] /\ exists cri, dec c_cri raw = Some cri /\ acri_alg cri = 0%Z /\ int64 (acri_epoch cri).
  Proof.
    intros Z CR Hep Rv. unfold arRevSign in Rv. cbn [opt_err bind Z.eqb] in Rv. apply bind_ok in Rv. destruct Rv as [b [Eb Rv]]. apply bind_ok in Rv. destruct Rv as [sb [_ Rv]].
    match type of Rv with opt_err (enc _ ?m) = _ => destruct (CR m) as (raw' & E1 & E2); [split; [exact Hep|clear; unfold int32; cbn; lia]|]; rewrite E1 in Rv; injection Rv as -> end.
    split; [|eexists; split; [exact E2|]; split; [reflexivity|exact Hep]].
    intros ->. pose proof (Z _ E2) as Q. injection Q as _ Q _. exact (g2_pos Q).
  Qed.

  Lemma shows_agrees shown attributes vals : shows shown attributes -> Forall2 (attr_states H) attributes vals -> Forall2 (attr_agrees H) shown vals.
  Proof.
    intros Sh. revert vals. induction Sh as [|x y l1 l2 P Sh IH]; intros vals F; inversion F; subst; constructor; [|apply IH; assumption].
    destruct P as [P| ->]; [left; exact P|right; assumption].
  Qed.
  Lemma states_typed attributes vals : Forall2 (attr_states H) attributes vals -> Forall typed attributes.
  Proof. induction 1 as [|a v l l' Hx _ IH]; constructor; [|exact IH]. intro E. unfold attr_states in Hx. rewrite E in Hx. exact Hx. Qed.
  Lemma shows_typed shown attributes : shows shown attributes -> Forall typed attributes -> Forall typed shown.
  Proof.
    induction 1 as [|x y l1 l2 P Sh IH]; intros F; constructor; inversion F; subst; [|apply IH; assumption].
    destruct P as [P| ->]; [unfold typed; rewrite P; discriminate|assumption].
  Qed.
  Lemma shows_length shown attributes : shows shown attributes -> length shown = length attributes.
  Proof. induction 1; cbn; congruence. Qed.
End AriesMessages.
