(** What the Fiat-Shamir inputs of the dlog scheme are, as plain concatenations. *)
From Verif Require Import Base Curve Algebra Spec Dlog.

Section Data.
  Context {C : Curve} (OK : CurveOk C).
  Variable H : hasher C.
  Notation zr := (zcar (Zr C)).
  Notation g1 := (gcar (G1 C)).
  Notation g2 := (gcar (G2 C)).

  Definition pts (l : list g1) : bytes := concat (map (g1_bytes C) l).

  Lemma pts_length l : length (pts l) = length l * g1_size C.
  Proof.
    induction l as [|p l IH]; cbn [pts map concat length] in *; [reflexivity|].
    unfold pts in *. cbn [map concat]. rewrite app_length, IH, (ok_g1_len OK). lia.
  Qed.

  Lemma pts_inj l : forall l', length l = length l' -> pts l = pts l' -> l = l'.
  Proof.
    induction l as [|p l IH]; intros [|p' l'] L E; try discriminate; [reflexivity|].
    unfold pts in E. cbn [map concat] in E. apply app_inj_len in E; [|rewrite !(ok_g1_len OK); reflexivity].
    destruct E as [E1 E2]. apply (g1_bytes_inj OK) in E1. f_equal; auto.
  Qed.

  Definition nym_list (x : option (g1 * g1)) : list g1 := match x with Some (n, t) => [n; t] | None => [] end.

  Definition sig_points (t1 t2 t3 APrime ABar BPrime Nym : g1) (eid rh : option (g1 * g1)) : list g1 :=
    [t1; t2; t3; APrime; ABar; BPrime; Nym] ++ nym_list eid ++ nym_list rh.

  Definition sig_string (t1 t2 t3 APrime ABar BPrime Nym : g1) (eid rh : option (g1 * g1))
      (hash disclosure msg : bytes) : bytes :=
    (sig_label C eid rh ++ pts (sig_points t1 t2 t3 APrime ABar BPrime Nym eid rh))
    ++ fit (scalar_size C) hash ++ disclosure ++ msg.

  Lemma nym_pts_concat x : concat (nym_pts C x) = pts (nym_list x).
  Proof. destruct x as [[n t]|]; reflexivity. Qed.

  Lemma sig_data_ok t1 t2 t3 APrime ABar BPrime Nym eid rh hash disclosure msg :
    (rh <> None -> eid <> None) ->
    sig_data C t1 t2 t3 APrime ABar BPrime Nym eid rh hash disclosure msg
    = Ok (sig_string t1 t2 t3 APrime ABar BPrime Nym eid rh hash disclosure msg).
  Proof.
    intro Hr. unfold sig_data.
    set (srcs := _ ++ _ ++ _).
    assert (Ec : concat srcs = sig_label C eid rh ++ pts (sig_points t1 t2 t3 APrime ABar BPrime Nym eid rh)).
    { unfold srcs, sig_points. rewrite !concat_app. unfold pts at 1. rewrite !map_app, !concat_app.
      change (concat (map (g1_bytes C) (nym_list eid))) with (pts (nym_list eid)).
      change (concat (map (g1_bytes C) (nym_list rh))) with (pts (nym_list rh)).
      rewrite !nym_pts_concat. cbn [concat map app]. rewrite <- ?app_assoc. rewrite !app_nil_l. reflexivity. }
    assert (El : length (concat srcs) = length (sig_label C eid rh) + sig_npts C eid rh * g1_size C).
    { rewrite Ec, app_length, pts_length. f_equal. f_equal. unfold sig_points, sig_npts.
      destruct eid as [[n t]|], rh as [[n' t']|]; try reflexivity. exfalso. apply Hr; congruence. }
    rewrite append_all_new by lia. cbn [bind].
    replace (_ + _ - length (concat srcs)) with (scalar_size C + length disclosure + length msg) by lia.
    rewrite tail_block. unfold sig_string. rewrite Ec. reflexivity.
  Qed.

  Lemma sig_string_length t1 t2 t3 APrime ABar BPrime Nym eid rh hash disclosure msg :
    2 * scalar_size C <= length (sig_string t1 t2 t3 APrime ABar BPrime Nym eid rh hash disclosure msg).
  Proof.
    unfold sig_string. rewrite !app_length, pts_length, fit_length.
    pose proof (ok_sizes OK). unfold sig_points. rewrite app_length. cbn [length]. nia.
  Qed.

  Lemma challenge_ok pd nonce : 2 * scalar_size C <= length pd ->
    challenge H pd nonce = Ok (H (zr_bytes C (H pd) ++ zr_bytes C nonce)).
  Proof.
    intro L. unfold challenge. rewrite rehash_buf_ok; [reflexivity|exact L| |]; apply (ok_zr_len OK).
  Qed.

  Definition nymsig_string (t Nym : g1) (hash msg : bytes) : bytes :=
    (signLabel ++ pts [t; Nym]) ++ fit (scalar_size C) hash ++ msg.

  Lemma nymsig_data_ok t Nym hash msg :
    nymsig_data C t Nym hash msg = Ok (nymsig_string t Nym hash msg).
  Proof.
    unfold nymsig_data. set (srcs := [_; _; _]).
    assert (Ec : concat srcs = signLabel ++ pts [t; Nym]) by reflexivity.
    assert (El : length (concat srcs) = length signLabel + 2 * g1_size C).
    { rewrite Ec, app_length, pts_length. reflexivity. }
    rewrite append_all_new by lia. cbn [bind].
    replace (_ + _ - length (concat srcs)) with (scalar_size C + length msg) by lia.
    rewrite tail_block2. reflexivity.
  Qed.

  Lemma nymsig_string_length t Nym hash msg :
    2 * scalar_size C <= length (nymsig_string t Nym hash msg).
  Proof.
    unfold nymsig_string. rewrite !app_length, pts_length, fit_length. pose proof (ok_sizes OK). cbn [length]. lia.
  Qed.

  Definition credreq_string (t HSk Nym : g1) (nonce hash : bytes) : bytes :=
    (credRequestLabel ++ pts [t; HSk; Nym] ++ nonce) ++ fit (2 * scalar_size C - length nonce) hash.

  Lemma credreq_data_ok t HSk Nym nonce hash : length nonce <= 2 * scalar_size C ->
    credreq_data C t HSk Nym nonce hash = Ok (credreq_string t HSk Nym nonce hash).
  Proof.
    intro L. unfold credreq_data. set (srcs := [_; _; _; _; _]).
    assert (Ec : concat srcs = credRequestLabel ++ pts [t; HSk; Nym] ++ nonce).
    { unfold srcs, pts. cbn [concat map app]. rewrite <- ?app_assoc. rewrite !app_nil_r, !app_nil_l. reflexivity. }
    assert (El : length (concat srcs) = length credRequestLabel + 3 * g1_size C + length nonce).
    { rewrite Ec, !app_length, pts_length. cbn [length]. lia. }
    rewrite append_all_new by lia. cbn [bind fst snd].
    rewrite copy_at_ok by (rewrite app_length; lia).
    unfold credreq_string. rewrite <- Ec.
    set (pre := concat srcs) in *.
    set (n := 2 * scalar_size C - length nonce).
    replace (_ + _ - length pre) with n by (unfold n; lia).
    rewrite app_length, zeros_length.
    rewrite firstn_app, firstn_all, Nat.sub_diag, firstn_O, app_nil_r.
    replace (length pre + n - length pre) with n by lia.
    rewrite skipn_app, skipn_all2 by lia. cbn [app].
    replace (length pre + length hash - length pre) with (length hash) by lia.
    rewrite skipn_zeros. reflexivity.
  Qed.

  (** A nonce longer than two scalars makes the buffer overflow: a panic. *)
  Lemma credreq_data_long t HSk Nym nonce hash : 2 * scalar_size C < length nonce ->
    credreq_data C t HSk Nym nonce hash = Panic.
  Proof.
    intro L. unfold credreq_data.
    change [credRequestLabel; g1_bytes C t; g1_bytes C HSk; g1_bytes C Nym; nonce]
      with ([credRequestLabel; g1_bytes C t; g1_bytes C HSk; g1_bytes C Nym] ++ [nonce]).
    set (srcs := [credRequestLabel; g1_bytes C t; g1_bytes C HSk; g1_bytes C Nym]).
    assert (App : forall l l' st, append_all st (l ++ l') = bind (append_all st l) (fun st => append_all st l')).
    { induction l as [|x l IH]; intros l' st; cbn [app append_all bind]; [reflexivity|].
      destruct (append_bytes st x); cbn [bind]; auto. }
    rewrite App.
    assert (Ec : concat srcs = credRequestLabel ++ pts [t; HSk; Nym]).
    { unfold srcs, pts. cbn [concat map app]. reflexivity. }
    assert (El : length (concat srcs) = length credRequestLabel + 3 * g1_size C).
    { rewrite Ec, !app_length, pts_length. cbn [length]. lia. }
    rewrite append_all_new by lia. cbn [bind append_all].
    unfold append_bytes. cbn [fst snd].
    rewrite copy_at_ok by (rewrite app_length; lia). cbn [bind fst snd].
    unfold copy_at.
    match goal with |- (if ?b then _ else _) = _ => destruct b eqn:E end; [|reflexivity].
    exfalso. apply Nat.leb_le in E. rewrite !app_length, !firstn_length, skipn_length, !app_length, zeros_length in E. lia.
  Qed.

  Definition issuer_string (t1 : g2) (t2 BarG1 : g1) (W : g2) (BarG2 : g1) : bytes :=
    g2_bytes C t1 ++ g1_bytes C t2 ++ g2_bytes C (genG2 C) ++ g1_bytes C BarG1 ++ g2_bytes C W ++ g1_bytes C BarG2.

  Lemma issuer_data_ok t1 t2 BarG1 W BarG2 :
    issuer_data C t1 t2 BarG1 W BarG2 = Ok (issuer_string t1 t2 BarG1 W BarG2).
  Proof.
    unfold issuer_data. set (srcs := [_; _; _; _; _; _]).
    assert (Ec : concat srcs = issuer_string t1 t2 BarG1 W BarG2).
    { unfold srcs, issuer_string. cbn [concat]. rewrite app_nil_r. reflexivity. }
    assert (El : length (concat srcs) = 3 * g1_size C + 3 * g2_size C).
    { rewrite Ec. unfold issuer_string. rewrite !app_length, !(ok_g1_len OK), !(ok_g2_len OK). lia. }
    rewrite append_all_new by lia. cbn [bind fst]. rewrite El, Nat.sub_diag. cbn [zeros repeat].
    rewrite app_nil_r, Ec. reflexivity.
  Qed.

  Lemma issuer_string_inj t1 t2 b w b2 t1' t2' b' w' b2' :
    issuer_string t1 t2 b w b2 = issuer_string t1' t2' b' w' b2' ->
    t1 = t1' /\ t2 = t2' /\ b = b' /\ w = w' /\ b2 = b2'.
  Proof.
    unfold issuer_string. intro E.
    repeat (apply app_inj_len in E; [|rewrite ?(ok_g1_len OK), ?(ok_g2_len OK); reflexivity];
            let E1 := fresh "E1" in destruct E as [E1 E]).
    repeat match goal with
    | X : g1_bytes C _ = g1_bytes C _ |- _ => apply (g1_bytes_inj OK) in X
    | X : g2_bytes C _ = g2_bytes C _ |- _ => apply (g2_bytes_inj OK) in X
    end. auto.
  Qed.

  Lemma sig_string_points t1 t2 t3 a b c n eid rh t1' t2' t3' a' b' c' n' eid' rh' hash disc msg hash' disc' msg' :
    is_some eid = is_some eid' -> is_some rh = is_some rh' ->
    sig_string t1 t2 t3 a b c n eid rh hash disc msg = sig_string t1' t2' t3' a' b' c' n' eid' rh' hash' disc' msg' ->
    (t1, t2, t3, a, b, c, n, eid, rh) = (t1', t2', t3', a', b', c', n', eid', rh') /\
    fit (scalar_size C) hash = fit (scalar_size C) hash' /\ disc ++ msg = disc' ++ msg'.
  Proof.
    intros He Hr E.
    assert (El : sig_label C eid rh = sig_label C eid' rh').
    { destruct eid, eid', rh, rh'; cbn in He, Hr; try discriminate; reflexivity. }
    assert (En : length (sig_points t1 t2 t3 a b c n eid rh) = length (sig_points t1' t2' t3' a' b' c' n' eid' rh')).
    { unfold sig_points. destruct eid as [[]|], eid' as [[]|], rh as [[]|], rh' as [[]|]; cbn in He, Hr; try discriminate; reflexivity. }
    unfold sig_string in E. rewrite El in E.
    apply app_inj_len in E; [|rewrite !app_length, !pts_length, En; reflexivity].
    destruct E as [E1 E2]. apply app_inv_head in E1. apply pts_inj in E1; [|exact En].
    apply app_inj_len in E2; [|rewrite !fit_length; reflexivity]. destruct E2 as [E2 E3].
    split; [|auto].
    unfold sig_points in E1.
    destruct eid as [[]|], eid' as [[]|], rh as [[]|], rh' as [[]|]; cbn in He, Hr; try discriminate;
      cbn [app nym_list] in E1; inversion E1; reflexivity.
  Qed.
End Data.
