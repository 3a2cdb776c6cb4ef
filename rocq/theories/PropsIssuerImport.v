(** * Importing issuer secret keys (C93)

    KeyImport checks issuer public keys (C17_csp).  This file says what it does with issuer secret keys. *)
From Verif Require Import Base Curve Algebra Spec Dlog DlogSpec Translator TranslatorFacts Bridge BridgeFacts Bbs BbsSpec BbsProof Aries AriesSpec Csp CspSpec CspInst CspFacts
  Proto ProtoFacts Toy ToyDlog ToyBbs ToyCodec ToyAries ToyCsp PropsBridge PropsProto PropsCsp.
Unset Strict Implicit.

(** dlog: every byte string that is an encoded issuer key is imported, and no other; the key store is not touched. *)
Theorem C93_dlog_partial : forall C (H : hasher C) (T : translator C) c_ipk c_ik c_req c_cred c_sig c_nsig c_cri EC (EE : ecenv EC) sha256 e c S (KS : keystore _ S) s raw names,
  let X := dlog_scheme H T c_ipk c_ik c_req c_cred c_sig c_nsig c_cri EE sha256 in
  New X (dlog_math T EE sha256) false e = Ok c ->
  step KS c s (OpImport (RBytes raw) (Some (IIssuer true names))) =
    (match raw with
     | [] => Err
     | _ => match dec c_ik raw with Some k => Ok (KIssuerSecret (Some (Some k) : u_isk (dlogU C EC)) e) | None => Err end
     end, s).
Proof.
  intros C H T c_ipk c_ik c_req c_cred c_sig c_nsig c_cri EC EE sha256 e c S KS s raw names X N.
  rewrite (@import_step _ X _ e c S KS s raw (IIssuer true names) _ N eq_refl eq_refl). f_equal. unfold h_IssuerKeyImporter.
  destruct raw as [|x raw]; [reflexivity|]. cbn [raw_bytes ibind X dlog_scheme s_issuerKeyFromBytes]. unfold brNewKeyFromBytes.
  destruct (dec c_ik (x :: raw)); reflexivity.
Qed.
Print Assumptions C93_dlog_partial.
(** So the names in the request are not compared with those in the key, and nothing is checked of its public part: the key
    with the secret [sk] and the public part [ipk] is imported for all names, whatever [ipk] is. *)
Theorem C93_dlog_refuted : forall C (H : hasher C) (T : translator C) c_ipk c_req c_cred c_sig c_nsig c_cri EC (EE : ecenv EC) sha256 e c S (KS : keystore _ S) s sk ipk,
  let X := dlog_scheme H T c_ipk pb_ik c_req c_cred c_sig c_nsig c_cri EE sha256 in
  let key := {| ik_isk := sk; ik_ipk := Some ipk |} in
  New X (dlog_math T EE sha256) false e = Ok c -> canon_ipk utf8 ipk -> sk <> [] ->
  exists raw, forall names, step KS c s (OpImport (RBytes raw) (Some (IIssuer true names))) = (Ok (KIssuerSecret (Some (Some key) : u_isk (dlogU C EC)) e), s).
Proof.
  intros C H T c_ipk c_req c_cred c_sig c_nsig c_cri EC EE sha256 e c S KS s sk ipk X key N K NE.
  destruct (ik_codec (x := key)) as (raw & _ & D); [intros p [= <-]; exact K|]. exists raw. intro names.
  rewrite (C93_dlog_partial KS s raw names N). rewrite D. destruct raw; [|reflexivity].
  exfalso. cbn in D. injection D as D _. apply NE. symmetry. exact D.
Qed.
Print Assumptions C93_dlog_refuted.

(** aries: the secret key is a scalar, and the public key of the imported key is computed from it for the number of names in
    the request. *)
Theorem C93_aries : forall C (HG : bytes -> G1 C) (H : hasher C) hkdf c_cred c_sig c_nsig c_cri EC (EE : ecenv EC) sha256 (T : translator C) e c S (KS : keystore _ S) s raw names k s',
  let X := aries_scheme HG H hkdf c_cred c_sig c_nsig c_cri EE sha256 in
  New X (aries_math T EE sha256) false e = Ok c ->
  step KS c s (OpImport (RBytes raw) (Some (IIssuer true names))) = (Ok k, s') ->
  s' = s /\ length raw = 32 /\ exists isk, k = KIssuerSecret (Some (Some isk) : u_isk (ariesU C EC)) e /\
    is_sk isk = zr_of_bytes C raw /\ ip_pk (is_pub isk) = genG2 C ⊗ is_sk isk /\ ip_n (is_pub isk) = length names.
Proof.
  intros C HG H hkdf c_cred c_sig c_nsig c_cri EC EE sha256 T e c S KS s raw names k s' X N E.
  rewrite (@import_step _ X _ e c S KS s raw (IIssuer true names) _ N eq_refl eq_refl) in E. injection E as E <-. clear N. split; [reflexivity|].
  unfold h_IssuerKeyImporter in E. destruct raw as [|x raw]; [discriminate E|]. cbn [raw_bytes ibind X aries_scheme s_issuerKeyFromBytes] in E.
  destruct (arNewKeyFromBytes HG (x :: raw) names) as [isk| |] eqn:A; try discriminate E. cbn in E. injection E as <-.
  unfold arNewKeyFromBytes, unmarshalPrivateKey in A. apply bind_ok in A. destruct A as [sk [U A]]. apply bind_ok in A. destruct A as [key [_ A]].
  apply bind_ok in U. destruct U as [u [G U]]. apply guard_ok in G. injection U as <-.
  split; [apply Nat.eqb_eq; exact G|]. exists isk. split; [reflexivity|]. injection A as <-. split; [reflexivity|]. split; reflexivity.
Qed.
Print Assumptions C93_aries.

(** the toy issuer's public part with its names doubled fails the check of public keys and is imported with a secret key *)
Example C93_example :
  let bad := {| ip_names := ip_names tipk ++ ip_names tipk; ip_hsk := ip_hsk tipk; ip_hrand := ip_hrand tipk; ip_hattrs := ip_hattrs tipk; ip_w := ip_w tipk;
                ip_barg1 := ip_barg1 tipk; ip_barg2 := ip_barg2 tipk; ip_c := ip_c tipk; ip_s := ip_s tipk; ip_hash := ip_hash tipk |} in
  let raw := match enc pb_ik {| ik_isk := [Byte.x01]; ik_ipk := Some bad |} with Some b => b | None => [] end in
  forallb utf8_ok (ip_names bad) = true /\ forallb (fun o => match o with Some _ => true | None => false end) (ip_hattrs bad) = true /\
  is_ok (checkIPK tH tT (enc pb_ipk) bad) = false /\
  is_ok (brNewKeyFromBytes pb_ik raw []) = true /\ is_ok (brNewKeyFromBytes pb_ik (Byte.xff :: raw) []) = false.
Proof. split; [vm_compute; reflexivity|]. split; [vm_compute; reflexivity|]. split; [vm_compute; reflexivity|]. split; vm_compute; reflexivity. Qed.
Example C93_aries_example :
  let n raw := match fst (step (KVSStore yM (FileBased xjson)) ycsp xdisk (OpImport (RBytes raw) (Some (IIssuer true [str "a"; str "b"])))) with
               | Ok (KIssuerSecret k _) => match (k : iface (AIssuerSecretKey toy32)) with Some (Some i) => Some (ip_n (is_pub i)) | _ => None end
               | _ => None
               end in
  New yX yM false true = Ok ycsp /\ n (repeat Byte.x03 32) = Some 2 /\ n (repeat Byte.x03 31) = None.
Proof. split; [exact ycsp_new|]. split; vm_compute; reflexivity. Qed.

(** ** C65 for the keys of the aries scheme *)
(** An issuer secret key that was generated or imported for a list of names comes back from its bytes when as many names
    are given: the bytes carry the scalar only. *)
Theorem C65_issuer_secret_aries : forall C (OK : CurveOk C) (HG : bytes -> G1 C) (H : hasher C) hkdf c_cred c_sig c_nsig c_cri EC (EE : ecenv EC) sha256 (T : translator C) e c S (KS : keystore _ S) s d names k b names',
  let X := aries_scheme HG H hkdf c_cred c_sig c_nsig c_cri EE sha256 in
  let M := aries_math T EE sha256 in
  bls_sizes C -> New X M false e = Ok c ->
  (fst (step KS c s (OpGen d (Some (GIssuer true names)))) = Ok k \/ (exists raw, fst (step KS c s (OpImport (RBytes raw) (Some (IIssuer true names)))) = Ok k)) ->
  key_bytes X M k = Ok b -> length names' = length names ->
  step KS c s (OpImport (RBytes b) (Some (IIssuer true names'))) = (Ok k, s).
Proof.
  intros C OK HG H hkdf c_cred c_sig c_nsig c_cri EC EE sha256 T e c S KS s d names k b names' X M BS N O B L.
  assert (Q : exists isk, k = KIssuerSecret (Some (Some isk) : u_isk (ariesU C EC)) e /\
      exists key, toPublicKeyWithGenerators HG (publicKey (is_sk isk)) (length names + 1) = Ok key /\
        is_pub isk = {| ip_pk := publicKey (is_sk isk); ip_key := key; ip_n := length names |}).
  { destruct O as [G|[raw G]].
    - destruct (new_tables N) as (TG & _). cbn [step KeyGen gtype] in G. rewrite TG in G. cbn [wired_csp gens] in G. unfold h_IssuerKeyGen in G.
      cbn [X aries_scheme s_newIssuerKey] in G. destruct (arNewKey HG H hkdf names (ad_seed d)) as [isk| |] eqn:A; try discriminate G.
      cbn in G. injection G as <-. exists isk. split; [reflexivity|].
      unfold arNewKey in A. apply bind_ok in A. destruct A as [[pk sk] [A1 A]]. apply bind_ok in A. destruct A as [key [A2 A]]. injection A as <-.
      unfold generateKeyPair in A1. apply bind_ok in A1. destruct A1 as [u [_ A1]]. injection A1 as <- <-. exists key. split; [exact A2|reflexivity].
    - rewrite (@import_step _ X _ e c S KS s raw (IIssuer true names) _ N eq_refl eq_refl) in G. cbn [fst] in G.
      unfold h_IssuerKeyImporter in G. destruct raw as [|x raw]; [discriminate G|]. cbn [raw_bytes ibind X aries_scheme s_issuerKeyFromBytes] in G.
      destruct (arNewKeyFromBytes HG (x :: raw) names) as [isk| |] eqn:A; try discriminate G. cbn in G. injection G as <-. exists isk. split; [reflexivity|].
      unfold arNewKeyFromBytes in A. apply bind_ok in A. destruct A as [sk [_ A]]. apply bind_ok in A. destruct A as [key [A2 A]]. injection A as <-.
      exists key. split; [exact A2|reflexivity]. }
  destruct Q as (isk & -> & key & K & P). cbn [key_bytes] in B. destruct e; [|discriminate B]. cbn in B. injection B as <-.
  rewrite (@import_step _ X _ true c S KS s _ (IIssuer true names') _ N eq_refl eq_refl). unfold h_IssuerKeyImporter, arSecretKeyBytes.
  rewrite raw_ok by (apply (zb_nonempty OK)). cbn [ibind X aries_scheme s_issuerKeyFromBytes]. unfold arNewKeyFromBytes, unmarshalPrivateKey.
  rewrite (ok_zr_len OK), (proj1 BS), Nat.eqb_refl. cbn [guard bind]. rewrite (ok_zr_rt OK), L, K. cbn [bind].
  rewrite <- P. destruct isk as [p q]. reflexivity.
Qed.
Print Assumptions C65_issuer_secret_aries.

(** An issuer public key that was imported for a list of names, or belongs to such a secret key, comes back from its bytes
    when as many names are given. *)
Theorem C65_issuer_public_aries : forall C (OK : CurveOk C) (HG : bytes -> G1 C) (H : hasher C) hkdf c_cred c_sig c_nsig c_cri EC (EE : ecenv EC) sha256 (T : translator C) e c S (KS : keystore _ S) s raw names k b names',
  let X := aries_scheme HG H hkdf c_cred c_sig c_nsig c_cri EE sha256 in
  let M := aries_math T EE sha256 in
  New X M false e = Ok c ->
  (fst (step KS c s (OpImport (RBytes raw) (Some (IIssuerPk true names 0 0 0 0 None)))) = Ok k \/
   (exists sk, fst (step KS c s (OpImport (RBytes raw) (Some (IIssuer true names)))) = Ok sk /\ key_public X M sk = Ok k)) ->
  key_bytes X M k = Ok b -> b <> [] -> length names' = length names ->
  step KS c s (OpImport (RBytes b) (Some (IIssuerPk true names' 0 0 0 0 None))) = (Ok k, s).
Proof.
  intros C OK HG H hkdf c_cred c_sig c_nsig c_cri EC EE sha256 T e c S KS s raw names k b names' X M N O B NE L.
  assert (Q : exists pk key, k = KIssuerPublic (Some (Some {| ip_pk := pk; ip_key := key; ip_n := length names |}) : u_ipk (ariesU C EC)) /\
      toPublicKeyWithGenerators HG pk (length names + 1) = Ok key).
  { destruct O as [G|(sk & G & P)].
    - rewrite (@import_step _ X _ e c S KS s raw (IIssuerPk true names 0 0 0 0 None) _ N eq_refl eq_refl) in G. cbn [fst] in G.
      unfold h_IssuerPublicKeyImporter in G. destruct raw as [|x raw]; [discriminate G|]. cbn [raw_bytes ibind X aries_scheme s_issuerPkFromBytes] in G.
      destruct (arNewPublicKeyFromBytes HG (x :: raw) names) as [ipk| |] eqn:A; try discriminate G. cbn in G. injection G as <-.
      unfold arNewPublicKeyFromBytes in A. apply bind_ok in A. destruct A as [pk [_ A]]. apply bind_ok in A. destruct A as [key [A2 A]]. injection A as <-.
      exists pk, key. split; [reflexivity|exact A2].
    - rewrite (@import_step _ X _ e c S KS s raw (IIssuer true names) _ N eq_refl eq_refl) in G. cbn [fst] in G.
      unfold h_IssuerKeyImporter in G. destruct raw as [|x raw]; [discriminate G|]. cbn [raw_bytes ibind X aries_scheme s_issuerKeyFromBytes] in G.
      destruct (arNewKeyFromBytes HG (x :: raw) names) as [isk| |] eqn:A; try discriminate G. cbn in G. injection G as <-.
      unfold arNewKeyFromBytes in A. apply bind_ok in A. destruct A as [sk0 [_ A]]. apply bind_ok in A. destruct A as [key [A2 A]]. injection A as <-.
      cbn in P. injection P as <-. exists (publicKey sk0), key. split; [reflexivity|exact A2]. }
  destruct Q as (pk & key & -> & K). cbn in B. injection B as <-.
  rewrite (@import_step _ X _ e c S KS s _ (IIssuerPk true names' 0 0 0 0 None) _ N eq_refl eq_refl). unfold h_IssuerPublicKeyImporter, arPublicKeyBytes. cbn [ip_pk].
  rewrite raw_ok by exact NE.
  cbn [ibind X aries_scheme s_issuerPkFromBytes]. unfold arNewPublicKeyFromBytes. rewrite (BbsProof.unmarshalPK_enc OK). cbn [bind]. rewrite L, K. reflexivity.
Qed.
Print Assumptions C65_issuer_public_aries.

(** revocation secret keys, under the corresponding law of the ECDSA library *)
Theorem C65_revocation_secret_aries : forall C (HG : bytes -> G1 C) (H : hasher C) hkdf c_cred c_sig c_nsig c_cri EC (EE : ecenv EC) sha256 (T : translator C) e c S (KS : keystore _ S) s k b,
  let X := aries_scheme HG H hkdf c_cred c_sig c_nsig c_cri EE sha256 in
  let M := aries_math T EE sha256 in
  New X M false e = Ok c -> ee_of_bytes EE (ee_bytes EE k) = k -> b <> [] ->
  key_bytes X M (KRevSecret (k : u_esk (ariesU C EC)) true) = Ok b ->
  step KS c s (OpImport (RBytes b) (Some (IRev true))) = (Ok (KRevSecret (k : u_esk (ariesU C EC)) e), s).
Proof.
  intros C HG H hkdf c_cred c_sig c_nsig c_cri EC EE sha256 T e c S KS s k b X M N R NE B.
  injection B as <-. rewrite (@import_step _ X M e c S KS s _ (IRev true) _ N eq_refl eq_refl). unfold h_RevocationKeyImporter.
  rewrite raw_ok by exact NE. cbn. rewrite R. reflexivity.
Qed.
Print Assumptions C65_revocation_secret_aries.

(** on the toy CSP: a key made from 32 bytes, exported and imported under other names has the same bytes and attributes *)
Example C65_aries_example :
  let import raw o := fst (step (KVSStore yM (FileBased xjson)) ycsp xdisk (OpImport (RBytes raw) (Some o))) in
  let out (k : res (key yU)) := let* x := k in key_bytes yX yM x in
  let raw := repeat Byte.x00 31 ++ [Byte.x03] in
  let sk := import raw (IIssuer true [str "a"; str "b"]) in
  let pk := let* x := sk in key_public yX yM x in
  bls_sizes toy32 /\ New yX yM false true = Ok ycsp /\ is_ok sk = true /\ is_ok pk = true /\ is_ok (out pk) = true /\
  out sk = Ok raw /\ (let* b := out sk in out (import b (IIssuer true [str "c"; str "d"]))) = Ok raw /\
  (let* b := out pk in out (import b (IIssuerPk true [str "c"; str "d"] 0 0 0 0 None))) = out pk.
Proof. split; [exact toy32_sizes|]. split; [exact ycsp_new|]. repeat split; vm_compute; reflexivity. Qed.
