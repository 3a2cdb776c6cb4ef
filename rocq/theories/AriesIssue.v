(** Issuance, credential verification and pseudonym signatures of the aries scheme. *)
From Verif Require Import Base Curve Algebra Spec Dlog Bridge BridgeFacts Bbs BbsSpec BbsFacts BbsProof BbsComplete Aries AriesSpec.
From Coq Require Import Field Ring.
Unset Strict Implicit.

Lemma one_at_ok A n i (x d : A) : i < n -> one_at n (Z.of_nat i) x d = Ok (repeat d i ++ x :: repeat d (n - i - 1)).
Proof.
  intro L. unfold one_at. replace ((0 <=? Z.of_nat i) && (Z.of_nat i <? Z.of_nat n))%Z with true by lia.
  rewrite Nat2Z.id. f_equal. replace n with (i + S (n - i - 1)) at 1 by lia.
  rewrite repeat_app. cbn [repeat]. rewrite <- (repeat_length d i) at 3. rewrite set_nth_app. reflexivity.
Qed.

Lemma one_at_inv A n i (x d : A) l : one_at n i x d = Ok l -> exists k, i = Z.of_nat k /\ k < n /\ l = repeat d k ++ x :: repeat d (n - k - 1).
Proof.
  intro E. assert (B : (0 <= i < Z.of_nat n)%Z).
  { unfold one_at in E. destruct ((0 <=? i) && (i <? Z.of_nat n))%Z eqn:B; [lia|discriminate]. }
  exists (Z.to_nat i). rewrite <- (Z2Nat.id i) in E by lia. rewrite one_at_ok in E by lia. injection E as <-.
  repeat split; lia.
Qed.

Lemma znth_ok A (l : list A) i x : znth l i = Ok x <-> exists k, i = Z.of_nat k /\ nth_error l k = Some x.
Proof.
  unfold znth. destruct (i <? 0)%Z eqn:N.
  - split; [discriminate|]. intros [k [-> _]]. lia.
  - rewrite nth_res_ok. split.
    + intro E. exists (Z.to_nat i). rewrite Z2Nat.id by lia. auto.
    + intros [k [-> E]]. rewrite Nat2Z.id. exact E.
Qed.

Lemma znth_at A (l : list A) k x : nth_error l k = Some x -> znth l (Z.of_nat k) = Ok x.
Proof. intro E. apply znth_ok. eauto. Qed.

Lemma zsplit_ok A (l : list A) k : k <= length l -> zsplit l (Z.of_nat k) = Ok (firstn k l, skipn k l).
Proof. intro L. unfold zsplit. replace ((0 <=? Z.of_nat k) && (Z.of_nat k <=? Z.of_nat (length l)))%Z with true by lia. rewrite Nat2Z.id. reflexivity. Qed.

Section Issue.
  Context {C : Curve} (OK : CurveOk C).
  Variable HG : bytes -> G1 C.
  Variable H : hasher C.
  Let KO := ok_zr OK.
  Let GO1 := ok_g1 OK.
  Add Field Kf_ari : (sok_field KO).
  Notation zr := (zcar (Zr C)).
  Notation g1 := (gcar (G1 C)).
  Notation g2 := (gcar (G2 C)).

  Lemma issuer_key_from HGx (pk : g2) n : (Z.of_nat (n + 1) <= 4294967295)%Z ->
    toPublicKeyWithGenerators HGx pk (n + 1) = Ok (ip_key (issuer_key HGx pk n)).
  Proof. intro B. rewrite (toPKwG_ok OK) by exact B. reflexivity. Qed.

  (** ** bases selected by a bitmap / by non-nil messages *)
  Lemma bitmap_none : forall (hs : list g1) n, bitmap_bases hs (repeat false n) = Ok [].
  Proof. intros hs n. revert hs. induction n; intros [|h hs]; cbn; try reflexivity; rewrite IHn; reflexivity. Qed.
  Lemma bitmap_one : forall k (hs : list g1) n, k < length hs ->
    bitmap_bases hs (repeat false k ++ true :: repeat false n) = Ok [nth k hs gzero].
  Proof.
    induction k as [|k IH]; intros [|h hs] n L; cbn [length] in L; try lia; cbn [repeat app bitmap_bases nth].
    - rewrite bitmap_none. reflexivity.
    - rewrite IH by lia. reflexivity.
  Qed.
  Lemma pairs_none : forall (hs : list g1) n, blind_pairs hs (repeat None n) = Ok [].
  Proof. intros hs n. revert hs. induction n; intros [|h hs]; cbn; try reflexivity; rewrite IHn; reflexivity. Qed.
  Lemma pairs_one : forall k (hs : list g1) n (x : zr), k < length hs ->
    blind_pairs hs (repeat None k ++ Some x :: repeat None n) = Ok [(nth k hs gzero, x)].
  Proof.
    induction k as [|k IH]; intros [|h hs] n x L; cbn [length] in L; try lia; cbn [repeat app blind_pairs nth].
    - rewrite pairs_none. reflexivity.
    - rewrite IH by lia. reflexivity.
  Qed.

  (** ** messages of the issuer *)
  Lemma ar_value_states a v : attr_states H a v -> ar_value H a = Ok (Some v).
  Proof. unfold attr_states, ar_value. destruct (at_type a); try tauto; destruct (at_value a); try tauto; intros ->; reflexivity. Qed.

  Fixpoint number (i : nat) (vs : list zr) : list (SignatureMessage C) :=
    match vs with
    | [] => []
    | v :: vs' => {| sm_fr := v; sm_idx := i |} :: number (S i) vs'
    end.

  Lemma number_fr vs : forall i, map (@sm_fr C) (number i vs) = vs.
  Proof. induction vs as [|v vs IH]; intro i; cbn; [|rewrite IH]; reflexivity. Qed.
  Lemma number_length vs : forall i, length (number i vs) = length vs.
  Proof. induction vs as [|v vs IH]; intro i; cbn; [|rewrite IH]; reflexivity. Qed.
  Lemma number_numbered vs : forall i, numbered i (number i vs).
  Proof.
    unfold numbered. induction vs as [|v vs IH]; intro i; [reflexivity|]. cbn [number map length seq].
    rewrite number_length. rewrite <- (number_length vs (S i)), <- IH. reflexivity.
  Qed.
  Lemma number_app a b : forall i, number i (a ++ b) = number i a ++ number (i + length a) b.
  Proof.
    induction a as [|x a IH]; intro i; cbn [app number length].
    - rewrite Nat.add_0_r. reflexivity.
    - rewrite IH. do 3 f_equal. lia.
  Qed.

  Lemma to_messages_states attrs vals : Forall2 (attr_states H) attrs vals -> forall i, to_messages H i attrs = Ok (number i vals).
  Proof.
    induction 1 as [|a v attrs vals Hd Tl IH]; intro i; [reflexivity|]. cbn [to_messages number].
    rewrite (ar_value_states Hd). cbn [bind]. rewrite IH. reflexivity.
  Qed.

  Lemma to_messages_app a b : forall i ma mb, to_messages H i a = Ok ma -> to_messages H (i + length a) b = Ok mb ->
    to_messages H i (a ++ b) = Ok (ma ++ mb).
  Proof.
    induction a as [|x a IH]; intros i ma mb E1 E2; cbn [app to_messages length] in *.
    - injection E1 as <-. rewrite Nat.add_0_r in E2. exact E2.
    - apply bind_ok in E1. destruct E1 as [v [E1 E3]]. apply bind_ok in E3. destruct E3 as [ms [E3 E4]]. injection E4 as <-.
      rewrite E1. cbn [bind]. rewrite (IH (S i) ms mb E3) by (rewrite <- E2; f_equal; lia). cbn [bind]. destruct v; reflexivity.
  Qed.

  Lemma Forall2_split A B (P : A -> B -> Prop) l l' k : Forall2 P l l' -> Forall2 P (firstn k l) (firstn k l') /\ Forall2 P (skipn k l) (skipn k l').
  Proof.
    intro F. revert k. induction F as [|x y l l' Hd Tl IH]; intros [|k]; cbn [firstn skipn]; split; try constructor; try assumption; apply IH.
  Qed.

  Lemma Forall2_len A B (P : A -> B -> Prop) l l' : Forall2 P l l' -> length l = length l'.
  Proof. induction 1; cbn; congruence. Qed.

  Lemma issue_messages attrs vals k : Forall2 (attr_states H) attrs vals -> k <= length vals ->
    attributesToSignatureMessage H attrs (Z.of_nat k)
    = Ok (number 0 (firstn k vals) ++ number (S k) (skipn k vals)).
  Proof.
    intros F L. pose proof (Forall2_len F) as LL. unfold attributesToSignatureMessage. rewrite zsplit_ok by lia. cbn [bind].
    destruct (Forall2_split k F) as [F1 F2]. cbn [app].
    rewrite (to_messages_app (a := firstn k attrs) (b := hidden_attr :: skipn k attrs) (to_messages_states F1 0) (mb := number (S k) (skipn k vals))).
    - reflexivity.
    - cbn [to_messages]. change (ar_value H hidden_attr) with (Ok (@None zr)). cbn [bind]. rewrite firstn_length_le by lia. cbn [Nat.add].
      rewrite (to_messages_states F2). reflexivity.
  Qed.

  (** lookups of consecutive bases at an offset *)
  Lemma lookup_app (hs : list g1) (a b : list (SignatureMessage C)) ra rb f :
    map_res f a = Ok ra -> map_res f b = Ok rb -> map_res (B := g1 * zr) f (a ++ b) = Ok (ra ++ rb).
  Proof.
    revert ra. induction a as [|x a IH]; intros ra E1 E2; cbn [map_res app] in *.
    - injection E1 as <-. exact E2.
    - apply bind_ok in E1. destruct E1 as [y [E1 E3]]. apply bind_ok in E3. destruct E3 as [r [E3 E4]]. injection E4 as <-.
      rewrite E1. cbn [bind]. rewrite (IH r E3 E2). reflexivity.
  Qed.

  Lemma combine_firstn k : forall (hs : list g1) (vals : list zr), combine hs (firstn k vals) = combine (firstn k hs) (firstn k vals).
  Proof.
    induction k as [|k IH]; intros hs vals; [destruct hs; reflexivity|]. destruct hs as [|h hs], vals as [|v vals]; cbn; try reflexivity. f_equal. apply IH.
  Qed.

  Lemma gdot_insert (hs : list g1) (vals : list zr) (x : zr) k : k <= length vals -> length hs = length vals + 1 ->
    gdot hs (firstn k vals ++ x :: skipn k vals)
    = gdot (firstn k hs) (firstn k vals) ⊕ (nth k hs gzero ⊗ x) ⊕ gdot (skipn (S k) hs) (skipn k vals).
  Proof.
    intros L LL. rewrite <- (firstn_skipn k hs) at 1. rewrite (gdot_app GO1) by (rewrite !firstn_length; lia).
    assert (E : skipn k hs = nth k hs gzero :: skipn (S k) hs).
    { clear - L LL. revert hs vals L LL. induction k as [|k IH]; intros [|h hs] vals L LL; cbn [length] in *; try lia; [reflexivity|].
      cbn [skipn nth]. destruct vals as [|v vals]; cbn [length] in *; [lia|]. rewrite (IH hs vals) by lia. reflexivity. }
    rewrite E. cbn [gdot]. gnorm KO GO1; ring.
  Qed.

  Variable BS : bls_sizes C.
  Let S32 : scalar_size C = frCompressedSize := proj1 BS.

  (** ** Blind and BlindVerify *)
  Definition request_enc (c t : g1) (p : ProofG1 C) : bytes :=
    g1_comp C c ++ g1_comp C t ++ g1_comp C (pf_comm p) ++ uint32ToBytes (Z.of_nat (length (pf_resp p))) ++ concat (map (zr_bytes C) (pf_resp p)).

  Lemma blinded_rt b : (Z.of_nat (length (pf_resp (bl_proof b))) <= 4294967295)%Z ->
    exists x, blindedBytes b = Ok x /\ parseBlindedMessages C x = Ok b.
  Proof.
    intro B. destruct (proofG1_rt OK S32 B) as [pb [E [_ P]]]. unfold blindedBytes. rewrite E. cbn [bind]. eexists. split; [reflexivity|].
    unfold parseBlindedMessages. cbv zeta. rewrite !app_length, !(ok_g1c_len OK).
    replace (2 * g1_csize C <=? g1_csize C + (g1_csize C + length pb)) with true by lia. cbn [guard bind].
    rewrite slice_head by apply (ok_g1c_len OK). cbn [bind]. rewrite (ok_g1c_rt OK). cbn [opt_err bind].
    rewrite slice_at by (rewrite ?(ok_g1c_len OK); reflexivity). cbn [bind]. rewrite (ok_g1c_rt OK). cbn [opt_err bind].
    rewrite app_assoc, slice_from_at by (rewrite app_length, !(ok_g1c_len OK); reflexivity). cbn [bind].
    specialize (P []). rewrite app_nil_r in P. rewrite P. destruct b; reflexivity.
  Qed.

  (** what the user sends *)
  Definition request (pk : g2) (n k : nat) (sk s : zr) (bl : nat -> zr) (nonce : bytes) : BlindedMessages C :=
    let bases := [gen0 HG pk (n + 1); base_at HG pk n k] in
    let c := gdot bases [s; sk] in
    let t := gdot bases [bl 0; bl 1] in
    {| bl_c := c; bl_pokc := t;
       bl_proof := {| pf_comm := t; pf_resp := resp (H (g1_bytes C c ++ g1_bytes C t ++ nonce)) [bl 0; bl 1] [s; sk] |} |}.

  Lemma blind_ok pk n k sk s bl nonce : (Z.of_nat (n + 1) <= 4294967295)%Z -> k <= n ->
    exists req, arBlind HG H (Z.of_nat k) sk (Some (Some (issuer_key HG pk n))) nonce s bl = Ok (req, zr_bytes C s) /\
      parseBlindedMessages C req = Ok (request pk n k sk s bl nonce).
  Proof.
    intros B L. unfold arBlind. cbn [assert_ptr bind ip_n ip_pk issuer_key]. rewrite one_at_ok by lia. cbn [bind].
    unfold blindMessagesZr. rewrite app_length. cbn [length]. rewrite !repeat_length.
    replace (k + S (n + 1 - k - 1)) with (n + 1) by lia. rewrite (toPKwG_ok OK) by exact B. cbn [bind pg_h pg_h0].
    rewrite pairs_one by (rewrite (gens_length); lia). cbn [bind]. rewrite (build_ok OK) by discriminate. cbn [bind map fst snd length seq].
    rewrite (finish_ok OK) by (try discriminate; reflexivity). cbn [bind pc_comm]. unfold generateProof. cbn [pc_blind pc_comm].
    rewrite responses_ok by reflexivity. cbn [bind].
    destruct (@blinded_rt (request pk n k sk s bl nonce)) as [x [E P]].
    { unfold request. cbn [bl_proof pf_resp]. rewrite resp_length by reflexivity. cbn [length]. lia. }
    change (nth k (gens HG pk (n + 1)) gzero) with (base_at HG pk n k).
    unfold request in E at 1. cbv zeta in E. rewrite E. cbn [bind]. exists x. split; [reflexivity|exact P].
  Qed.

  (** BlindVerify on a parsed request *)
  Lemma blindVerify_iff pk n k req nonce : (Z.of_nat (n + 1) <= 4294967295)%Z -> k <= n ->
    arBlindVerify HG H (Z.of_nat k) req (Some (Some (issuer_key HG pk n))) nonce = Ok tt <->
    exists b, parseBlindedMessages C req = Ok b /\ 2 <= length (pf_resp (bl_proof b)) /\
      gdot [gen0 HG pk (n + 1); base_at HG pk n k; bl_c b]
        (pf_resp (bl_proof b) ++ [H (g1_bytes C (bl_c b) ++ g1_bytes C (bl_pokc b) ++ nonce)]) = pf_comm (bl_proof b).
  Proof.
    intros B L. unfold arBlindVerify. cbn [assert_ptr bind ip_n ip_pk issuer_key]. rewrite one_at_ok by lia. cbn [bind].
    unfold verifyBlinding, blindVerifyProof. rewrite app_length. cbn [length]. rewrite !repeat_length.
    replace (k + S (n + 1 - k - 1)) with (n + 1) by lia. rewrite (toPKwG_ok OK) by exact B. cbn [bind pg_h pg_h0].
    rewrite bitmap_one by (rewrite gens_length; lia). cbn [bind]. change (nth k (gens HG pk (n + 1)) gzero) with (base_at HG pk n k).
    rewrite bind_ok. split.
    - intros [b [E V]]. apply (proofG1Verify_inv OK) in V. exists b. split; [exact E|exact V].
    - intros [b [E [L2 V]]]. exists b. split; [exact E|]. apply (proofG1Verify_ok OK); assumption.
  Qed.

  Lemma request_verifies pk n k sk s bl nonce req : (Z.of_nat (n + 1) <= 4294967295)%Z -> k <= n ->
    parseBlindedMessages C req = Ok (request pk n k sk s bl nonce) ->
    arBlindVerify HG H (Z.of_nat k) req (Some (Some (issuer_key HG pk n))) nonce = Ok tt.
  Proof.
    intros B L P. apply blindVerify_iff; [assumption..|]. exists (request pk n k sk s bl nonce). split; [exact P|].
    split; [unfold request; cbn [bl_proof pf_resp]; rewrite resp_length by reflexivity; reflexivity|].
    unfold request. cbn [bl_c bl_pokc bl_proof pf_resp pf_comm].
    set (c := H _). cbn [resp combine map fst snd app gdot]. gnorm KO GO1; ring.
  Qed.

  (** ** BlindSign *)
  Lemma blindSign_ok sk e s' n k (vals : list zr) (c : g1) : length vals = n -> vals <> [] -> k <= n -> (Z.of_nat (n + 1) <= 4294967295)%Z ->
    let pk := genG2 C ⊗ sk in
    let hs := gens HG pk (n + 1) in
    blindSign HG (number 0 (firstn k vals) ++ number (S k) (skipn k vals)) (n + 1) c (zr_bytes C sk) e s'
    = Ok (sig_enc ((genG1 C ⊕ c ⊕ (gen0 HG pk (n + 1) ⊗ s') ⊕ gdot (firstn k hs) (firstn k vals) ⊕ gdot (skipn (S k) hs) (skipn k vals))
                   ⊗ zinv (zadd sk e)) e s').
  Proof.
    intros LV NE L B pk hs. unfold blindSign, unmarshalPrivateKey. rewrite (ok_zr_len OK), S32, Nat.eqb_refl. cbn [guard bind].
    rewrite (ok_zr_rt OK). unfold publicKey. fold pk. rewrite (toPKwG_ok OK) by exact B. cbn [bind].
    rewrite app_length, !number_length, <- app_length, firstn_skipn.
    replace (length vals =? 0) with false by (destruct vals; [congruence|reflexivity]). cbn [negb guard bind pg_h].
    fold hs. assert (LH : length hs = n + 1) by apply gens_length.
    set (f := fun m : SignatureMessage C => _). assert (E1 : map_res f (number 0 (firstn k vals)) = Ok (combine (firstn k hs) (firstn k vals))).
    { unfold f. rewrite (lookup_bases (C := C) (hs := hs) (k := 0)); [|apply number_numbered|rewrite number_length, firstn_length; lia].
      rewrite number_fr. cbn [skipn]. f_equal. apply combine_firstn. }
    assert (E2 : map_res f (number (S k) (skipn k vals)) = Ok (combine (skipn (S k) hs) (skipn k vals))).
    { unfold f. rewrite (lookup_bases (C := C) (hs := hs) (k := S k)); [|apply number_numbered|rewrite number_length, skipn_length; lia].
      rewrite number_fr. reflexivity. }
    rewrite (lookup_app hs E1 E2). cbn [bind]. rewrite (build_ok OK).
    2:{ intro X. apply app_eq_nil in X. destruct X as [_ X]. discriminate. }
    cbn [bind]. unfold signWithKeyB, publicKey. fold pk. rewrite (toPKwG_ok OK) by exact B. cbn [bind pg_h0].
    rewrite (signatureBytes_enc OK S32). cbn [si_a si_e si_s]. do 3 f_equal.
    rewrite !map_app. cbn [map fst snd].
    rewrite (gdot_app GO1) by (rewrite !app_length, !map_length; reflexivity).
    rewrite (gdot_app GO1) by (rewrite !map_length; reflexivity). rewrite !gdot_combine. cbn [gdot]. rewrite (ok_of_Z_1 OK).
    gnorm KO GO1; ring.
  Qed.

  (** ** Sign, Unblind *)
  Variable c_cred : codec ACredential.

  Lemma cred_attrs_full (ms : list (SignatureMessage C)) n : length ms = n -> cred_attrs n ms = Ok (map (zr_bytes C) (map (@sm_fr C) ms)).
  Proof.
    intros <-. unfold cred_attrs. rewrite Nat.ltb_irrefl, Nat.sub_diag. cbn [repeat]. rewrite app_nil_r, map_map. reflexivity.
  Qed.

  Lemma issue_fr (vals : list zr) k :
    map (@sm_fr C) (number 0 (firstn k vals) ++ number (S k) (skipn k vals)) = vals.
  Proof. rewrite map_app, !number_fr, firstn_skipn. reflexivity. Qed.

  (** the secret inserted at position [k] *)
  Definition with_secret (k : nat) (sk : zr) (vals : list zr) : list zr := firstn k vals ++ sk :: skipn k vals.

  Lemma credSign_ok isk e s' n k attrs vals req b : length vals = n -> vals <> [] -> k <= n -> (Z.of_nat (n + 1) <= 4294967295)%Z ->
    Forall2 (attr_states H) attrs vals -> parseBlindedMessages C req = Ok b ->
    let pk := genG2 C ⊗ isk in
    let hs := gens HG pk (n + 1) in
    arCredSign HG H c_cred (Z.of_nat k) (Some (Some {| is_pub := issuer_key HG pk n; is_sk := isk |})) req attrs e s'
    = opt_err (enc c_cred {|
        ac_cred := sig_enc ((genG1 C ⊕ bl_c b ⊕ (gen0 HG pk (n + 1) ⊗ s') ⊕ gdot (firstn k hs) (firstn k vals) ⊕ gdot (skipn (S k) hs) (skipn k vals))
                   ⊗ zinv (zadd isk e)) e s';
        ac_attrs := map (zr_bytes C) vals; ac_skpos := 0 |}).
  Proof.
    intros LV NE L B F P pk hs. unfold arCredSign. cbn [assert_ptr bind is_sk]. rewrite P. cbn [bind].
    rewrite (issue_messages F) by lia. cbn [bind]. rewrite (Forall2_len F), LV, (blindSign_ok isk e s' (bl_c b) LV NE L B). cbn [bind].
    rewrite cred_attrs_full by (rewrite app_length, !number_length, <- app_length, firstn_skipn; exact LV). cbn [bind].
    rewrite issue_fr. reflexivity.
  Qed.

  Lemma unblind_ok A e s0 s vals k out : dec c_cred out = Some {| ac_cred := sig_enc A e s0; ac_attrs := map (zr_bytes C) vals; ac_skpos := k |} ->
    arUnblind C c_cred out (zr_bytes C s)
    = opt_err (enc c_cred {| ac_cred := sig_enc A e (zadd s0 s); ac_attrs := map (zr_bytes C) vals; ac_skpos := k |}).
  Proof.
    intro D. unfold arUnblind. rewrite D. cbn [opt_err bind ac_cred]. unfold unblindSign. rewrite (parse_sig_enc OK S32). cbn [bind].
    rewrite (signatureBytes_enc OK S32). cbn [si_a si_e si_s bind ac_attrs ac_skpos]. rewrite (ok_zr_rt OK). reflexivity.
  Qed.

  (** the signature issued for a request is valid on the attributes with the secret inserted *)
  Lemma issued_valid isk e s s' sk n k vals : length vals = n -> k <= n -> zadd isk e <> z0 ->
    let pk := genG2 C ⊗ isk in
    let hs := gens HG pk (n + 1) in
    let c := gdot [gen0 HG pk (n + 1); base_at HG pk n k] [s; sk] in
    bbs_signature pk (gen0 HG pk (n + 1)) hs
      ((genG1 C ⊕ c ⊕ (gen0 HG pk (n + 1) ⊗ s') ⊕ gdot (firstn k hs) (firstn k vals) ⊕ gdot (skipn (S k) hs) (skipn k vals)) ⊗ zinv (zadd isk e))
      e (zadd s' s) (with_secret k sk vals).
  Proof.
    intros LV L NZ pk hs c. assert (LH : length hs = n + 1) by apply gens_length.
    assert (EB : genG1 C ⊕ c ⊕ (gen0 HG pk (n + 1) ⊗ s') ⊕ gdot (firstn k hs) (firstn k vals) ⊕ gdot (skipn (S k) hs) (skipn k vals)
            = bbs_base (gen0 HG pk (n + 1)) hs (zadd s' s) (with_secret k sk vals)).
    { unfold bbs_base, with_secret. rewrite gdot_insert by lia. unfold c, base_at. fold hs. cbn [gdot]. gnorm KO GO1; ring. }
    rewrite EB. unfold bbs_signature. apply (sign_valid OK). exact NZ.
  Qed.

  (** ** Cred.Verify *)
  Definition typed (a : attribute) : Prop := at_type a <> OtherAttr.

  Lemma ar_value_agrees a v x : typed a -> ar_value H a = Ok v ->
    (match v with Some y => guard (zeqb y x) | None => Ok tt end = Ok tt) <-> attr_agrees H a x.
  Proof.
    unfold typed, ar_value, attr_agrees, attr_states. destruct (at_type a); intros T E; try congruence.
    - injection E as <-. split; [left; reflexivity|reflexivity].
    - destruct (at_value a); try discriminate. injection E as <-. rewrite guard_ok, (sok_eqb KO).
      split; [intros ->; right; reflexivity|intros [X|X]; congruence].
    - destruct (at_value a); try discriminate. injection E as <-. rewrite guard_ok, (sok_eqb KO).
      split; [intros ->; right; reflexivity|intros [X|X]; congruence].
  Qed.

  Lemma agrees_value a x : attr_agrees H a x -> exists v, ar_value H a = Ok v.
  Proof.
    unfold attr_agrees, attr_states, ar_value. intros [E|E]; [rewrite E; eauto|].
    destruct (at_type a); try tauto; destruct (at_value a); try tauto; eauto.
  Qed.

  (** no position left for the secret *)
  Lemma cred_messages_past n : forall j k sk attrs attributes, (k < Z.of_nat j)%Z -> Forall typed attributes ->
    forall sm, cred_messages H n j k sk attrs attributes = Ok sm <->
    n <= length attrs /\ n <= length attributes /\
    Forall2 (attr_agrees H) (firstn n attributes) (firstn n (map (zr_of_bytes C) attrs)) /\
    sm = number j (firstn n (map (zr_of_bytes C) attrs)).
  Proof.
    induction n as [|n IH]; intros j k sk attrs attributes L T sm; cbn [cred_messages firstn number].
    - split; [intro E; injection E as <-; repeat split; try lia; constructor|intros (_ & _ & _ & ->); reflexivity].
    - replace (Z.of_nat j =? k)%Z with false by lia. destruct attrs as [|a attrs]; [cbn; split; [discriminate|lia]|].
      destruct attributes as [|t attributes]; [cbn; split; [discriminate|lia]|]. cbn [map firstn length number].
      inversion T as [|? ? T1 T2]; subst. rewrite bind_ok. split.
      + intros [v [E1 E]]. apply bind_ok in E. destruct E as [[] [E2 E]]. apply bind_ok in E. destruct E as [ms [E3 E]]. injection E as <-.
        apply (ar_value_agrees (zr_of_bytes C a) T1 E1) in E2. apply IH in E3; [|lia|assumption]. destruct E3 as (A1 & A2 & A3 & ->).
        repeat split; try lia. constructor; assumption.
      + intros (A1 & A2 & A3 & ->). inversion A3 as [|? ? ? ? X1 X2]; subst.
        destruct (agrees_value X1) as [v E1]. exists v. split; [exact E1|].
        rewrite (proj2 (ar_value_agrees (zr_of_bytes C a) T1 E1) X1). cbn [bind].
        rewrite (proj2 (IH (S j) k sk attrs attributes ltac:(lia) T2 (number (S j) (firstn n (map (zr_of_bytes C) attrs))))).
        * reflexivity.
        * repeat split; try lia. exact X2.
  Qed.

  Lemma cred_messages_iff n : forall j k sk attrs attributes, length attributes = n -> Forall typed attributes ->
    forall sm, cred_messages H (S n) j (Z.of_nat j + k) sk attrs attributes = Ok sm <->
    (0 <= k <= Z.of_nat n)%Z /\ n <= length attrs /\
    Forall2 (attr_agrees H) attributes (firstn n (map (zr_of_bytes C) attrs)) /\
    sm = number j (with_secret (Z.to_nat k) sk (firstn n (map (zr_of_bytes C) attrs))).
  Proof.
    assert (HIT : forall m j sk attrs attributes sm, length attributes = m -> Forall typed attributes ->
      (cred_messages H (S m) j (Z.of_nat j + 0) sk attrs attributes = Ok sm <->
       m <= length attrs /\ Forall2 (attr_agrees H) attributes (firstn m (map (zr_of_bytes C) attrs)) /\
       sm = number j (with_secret 0 sk (firstn m (map (zr_of_bytes C) attrs))))).
    { intros m j sk attrs attributes sm LA T. cbn [cred_messages]. replace (Z.of_nat j =? Z.of_nat j + 0)%Z with true by lia.
      unfold with_secret. cbn [firstn skipn app number]. rewrite bind_ok. split.
      - intros [ms [E1 E]]. injection E as <-. apply cred_messages_past in E1; [|lia|assumption]. destruct E1 as (A1 & A2 & A3 & ->).
        rewrite firstn_all2 in A3 by lia. auto.
      - intros (A1 & A3 & ->). exists (number (S j) (firstn m (map (zr_of_bytes C) attrs))). split; [|reflexivity].
        apply cred_messages_past; [lia|assumption|]. repeat split; try lia. rewrite firstn_all2 by lia. exact A3. }
    induction n as [|n IH]; intros j k sk attrs attributes LA T sm.
    - destruct (Z.eq_dec k 0) as [->|NZ].
      + rewrite HIT by assumption. cbn. split; intros; repeat split; intuition lia.
      + split; [|intros (B & _); lia]. cbn [cred_messages]. replace (Z.of_nat j =? Z.of_nat j + k)%Z with false by lia.
        destruct attributes; [|discriminate]. destruct attrs; discriminate.
    - destruct (Z.eq_dec k 0) as [->|NZ].
      + rewrite HIT by assumption. split; [intros (A1 & A2 & A3)|intros (_ & A1 & A2 & A3)]; repeat split; try assumption; lia.
      + remember (S n) as n1 eqn:En1. cbn [cred_messages]. replace (Z.of_nat j =? Z.of_nat j + k)%Z with false by lia.
        destruct attributes as [|t attributes]; [cbn in LA; lia|]. cbn [length] in LA.
        destruct attrs as [|a attrs]; [split; [discriminate|cbn; lia]|]. inversion T as [|? ? T1 T2]; subst. rewrite bind_ok.
        replace (Z.of_nat j + k)%Z with (Z.of_nat (S j) + (k - 1))%Z by lia. cbn [map firstn length].
        assert (WS : forall x l, (0 <= k - 1)%Z -> with_secret (Z.to_nat k) sk (x :: l) = x :: with_secret (Z.to_nat (k - 1)) sk l).
        { intros x l P. unfold with_secret. replace (Z.to_nat k) with (S (Z.to_nat (k - 1))) by lia. reflexivity. }
        split.
        * intros [v [E1 E]]. apply bind_ok in E. destruct E as [[] [E2 E]]. apply bind_ok in E. destruct E as [ms [E3 E]]. injection E as <-.
          apply (ar_value_agrees (zr_of_bytes C a) T1 E1) in E2. apply IH in E3; [|lia|assumption]. destruct E3 as (A0 & A1 & A3 & ->).
          rewrite WS by lia. repeat split; try lia. constructor; assumption.
        * intros (A0 & A1 & A3 & ->). inversion A3 as [|? ? ? ? X1 X2]; subst.
          destruct (agrees_value X1) as [v E1]. exists v. split; [exact E1|].
          rewrite (proj2 (ar_value_agrees (zr_of_bytes C a) T1 E1) X1). cbn [bind]. rewrite WS by lia. cbn [number].
          rewrite (proj2 (IH (S j) (k - 1)%Z sk attrs attributes ltac:(lia) T2 (number (S j) (with_secret (Z.to_nat (k - 1)) sk (firstn n (map (zr_of_bytes C) attrs)))))).
          -- reflexivity.
          -- repeat split; try lia. exact X2.
  Qed.

  Lemma with_secret_length k sk vals : k <= length vals -> length (with_secret k sk vals) = S (length vals).
  Proof. intro L. unfold with_secret. rewrite app_length, firstn_length. cbn [length]. rewrite skipn_length. lia. Qed.

  Lemma credVerify_iff sk pk n credBytes attributes : length attributes = n -> Forall typed attributes ->
    arCredVerify H c_cred sk (Some (Some (issuer_key HG pk n))) credBytes attributes = Ok tt <->
    exists c sg k, dec c_cred credBytes = Some c /\ parseSignature C (ac_cred c) = Ok sg /\ ac_skpos c = Z.of_nat k /\ k <= n /\
      n <= length (ac_attrs c) /\
      let certified := firstn n (map (zr_of_bytes C) (ac_attrs c)) in
      Forall2 (attr_agrees H) attributes certified /\
      bbs_signature pk (gen0 HG pk (n + 1)) (gens HG pk (n + 1)) (si_a sg) (si_e sg) (si_s sg) (with_secret k sk certified).
  Proof.
    intros LA T. unfold arCredVerify. cbn [assert_ptr bind issuer_key ip_key pg_h]. rewrite gens_length, Nat.add_1_r. split.
    - intro E. apply bind_ok in E. destruct E as [c [E1 E]]. destruct (dec c_cred credBytes) as [c'|] eqn:D; [|discriminate].
      cbn in E1. injection E1 as ->. apply bind_ok in E. destruct E as [sg [E2 E]]. apply bind_ok in E. destruct E as [sm [E3 E]].
      change (ac_skpos c) with (Z.of_nat 0 + ac_skpos c)%Z in E3.
      apply cred_messages_iff in E3; [|assumption..]. destruct E3 as (B & A1 & A3 & ->).
      apply (signatureVerify_iff OK) in E; [|apply number_numbered]. destruct E as [_ E]. cbn [pg_w pg_h0 pg_h] in E. rewrite number_fr in E.
      exists c, sg, (Z.to_nat (ac_skpos c)). repeat split; try assumption; lia.
    - intros (c & sg & k & D & P & K & L & A1 & A3 & V). rewrite D. cbn [opt_err bind]. rewrite P. cbn [bind].
      change (ac_skpos c) with (Z.of_nat 0 + ac_skpos c)%Z.
      rewrite (proj2 (cred_messages_iff 0 (ac_skpos c) sk (ac_attrs c) LA T (number 0 (with_secret (Z.to_nat (ac_skpos c)) sk (firstn n (map (zr_of_bytes C) (ac_attrs c))))))).
      + cbn [bind]. apply (signatureVerify_iff OK); [apply number_numbered|]. cbn [pg_w pg_h0 pg_h]. rewrite number_fr, number_length, gens_length, K, Nat2Z.id.
        split; [|exact V]. rewrite with_secret_length; rewrite firstn_length, map_length; lia.
      + repeat split; try assumption; lia.
  Qed.
End Issue.
