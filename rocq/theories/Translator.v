(** Model of /repo/bccsp/schemes/dlog/crypto/translator/amcl: the three translators
    between curve points and their protobuf form. *)
From Verif Require Import Base Curve Dlog.

Section Translators.
  Variable C : Curve.

  (** split a byte string in two / four parts of length len/2, len/4 (the last one takes
      the remainder): bytes[:l], bytes[l:] *)
  Definition halves (b : bytes) : ecp :=
    let l := length b / 2 in {| ex := firstn l b; ey := skipn l b |}.
  Definition quarters (b : bytes) : ecp2 :=
    let l := length b / 4 in
    {| exa := firstn l b; exb := firstn l (skipn l b); eya := firstn l (skipn (2 * l) b); eyb := skipn (3 * l) b |}.

  (** fp256bn.go 19-31, 101-113: g1.Bytes()[1:] cut in two *)
  Definition fp_g1_to (P : G1 C) : ecp := halves (tl (g1_bytes C P)).

  (** fp256bn.go 42-58, 124-140 G1FromProto *)
  Definition fp_g1_from (e : option ecp) : res (G1 C) :=
    match e with
    | None => Err
    | Some e =>
        let* _ := guard ((length (ex e) =? coord_size C) && (length (ey e) =? coord_size C)) in
        let l := length (ex e) in
        let* b := copy_at (zeros (l * 2 + 1)) 0 [Byte.x04] in
        let* b := copy_at b 1 (ex e) in
        let* b := copy_at b (l + 1) (ey e) in
        opt_err (g1_of_bytes C b)
    end.

  (** fp256bn.go 33-40, 115-122, gurvy.go 29-36 G1FromRawBytes *)
  Definition from_raw (f : option ecp -> res (G1 C)) (raw : bytes) : res (G1 C) := f (Some (halves raw)).

  (** fp256bn.go 60-74 Fp256bn.G2ToProto, gurvy.go 47-57 *)
  Definition fp_g2_to (P : G2 C) : ecp2 := quarters (g2_bytes C P).

  (** fp256bn.go 76-93 Fp256bn.G2FromProto *)
  Definition coords_ok (e : ecp2) : bool :=
    (length (exa e) =? coord_size C) && (length (exb e) =? coord_size C)
    && (length (eya e) =? coord_size C) && (length (eyb e) =? coord_size C).

  (** copy(bytes[lo:hi], src): at most hi-lo bytes are copied *)
  Definition copy_between (b : bytes) (lo hi : nat) (src : bytes) : res bytes :=
    let* _ := slice b lo hi in copy_at b lo (firstn (hi - lo) src).

  Definition fill4 (l : nat) (e : ecp2) : res bytes :=
    let* b := copy_between (zeros (l * 4)) 0 l (exa e) in
    let* b := copy_between b l (2 * l) (exb e) in
    let* b := copy_between b (2 * l) (3 * l) (eya e) in
    copy_at b (3 * l) (eyb e).

  Definition fp_g2_from (e : option ecp2) : res (G2 C) :=
    match e with
    | None => Err
    | Some e =>
        let* _ := guard (coords_ok e) in
        let* b := fill4 (length (exa e)) e in
        opt_err (g2_of_bytes C b)
    end.

  (** fp256bn.go 142-156 Fp256bnMiracl.G2ToProto *)
  Definition mir_g2_to (P : G2 C) : ecp2 := quarters (tl (g2_bytes C P)).

  (** fp256bn.go 158-174 Fp256bnMiracl.G2FromProto *)
  Definition mir_g2_from (e : option ecp2) : res (G2 C) :=
    match e with
    | None => Err
    | Some e =>
        let* _ := guard (coords_ok e) in
        let l := length (exa e) in
        let* b := copy_at (zeros (1 + l * 4)) 0 [Byte.x04] in
        let* b := copy_at b 1 (exa e) in
        let* b := copy_at b (1 + l) (exb e) in
        let* b := copy_at b (1 + 2 * l) (eya e) in
        let* b := copy_at b (1 + 3 * l) (eyb e) in
        opt_err (g2_of_bytes C b)
    end.

  (** gurvy.go 17-27 G1ToProto *)
  Definition gur_g1_to (P : G1 C) : ecp := halves (g1_bytes C P).

  (** gurvy.go 38-45 G1FromProto: a nil argument is dereferenced *)
  Definition gur_g1_from (e : option ecp) : res (G1 C) :=
    let* e := deref e in
    let l := length (ex e) in
    let* b := copy_at (zeros (l * 2)) 0 (ex e) in
    let* b := copy_at b l (ey e) in
    opt_err (g1_of_bytes C b).

  (** gurvy.go 59-67 G2FromProto *)
  Definition gur_g2_from (e : option ecp2) : res (G2 C) :=
    let* e := deref e in
    let* b := fill4 (length (exa e)) e in
    opt_err (g2_of_bytes C b).

  Definition Fp256bn : translator C :=
    {| g1_to_proto := fp_g1_to; g1_from_proto := fp_g1_from; g1_from_raw := from_raw fp_g1_from;
       g2_to_proto := fp_g2_to; g2_from_proto := fp_g2_from |}.
  Definition Fp256bnMiracl : translator C :=
    {| g1_to_proto := fp_g1_to; g1_from_proto := fp_g1_from; g1_from_raw := from_raw fp_g1_from;
       g2_to_proto := mir_g2_to; g2_from_proto := mir_g2_from |}.
  Definition Gurvy : translator C :=
    {| g1_to_proto := gur_g1_to; g1_from_proto := gur_g1_from; g1_from_raw := from_raw gur_g1_from;
       g2_to_proto := fp_g2_to; g2_from_proto := gur_g2_from |}.
End Translators.
Arguments fp_g1_to {C}.
Arguments fp_g2_to {C}.
Arguments mir_g2_to {C}.
Arguments gur_g1_to {C}.
Arguments from_raw {C}.
