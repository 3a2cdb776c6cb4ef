(** * JSON: the encoding of the entries of the file-based key store
    Models what json.Marshal and json.Unmarshal (encoding/json of the Go release named in go.mod) do with the
    type entry of /repo/bccsp/keystore/kvsbased.go 25-41; the other theorems are about arbitrary codecs of
    entries.
    Simplifications: any depth of nesting (the library stops at 10000); the elements of an array read
    into a byte slice must be numbers (the library lets null leave an element as it was); nil and empty byte
    slices are the same value, written as the empty string (Go writes nil as null, which is read as nil). *)
From Verif Require Import Base Dlog Bridge Csp.
Unset Strict Implicit.
Local Open Scope Z_scope.

Definition jz (b : byte) : Z := Z.of_N (Byte.to_N b).
Definition between (lo hi : Z) (b : byte) : bool := (lo <=? jz b) && (jz b <=? hi).

(** ** base64.StdEncoding *)
Definition alphabet : bytes := str "ABCDEFGHIJKLMNOPQRSTUVWXYZabcdefghijklmnopqrstuvwxyz0123456789+/".
Definition digit64 (v : Z) : byte := nth (Z.to_nat v) alphabet Byte.x41.
Definition value64 (c : byte) : option Z :=
  if between 65 90 c then Some (jz c - 65) else
  if between 97 122 c then Some (jz c - 71) else
  if between 48 57 c then Some (jz c + 4) else
  if jz c =? 43 then Some 62 else if jz c =? 47 then Some 63 else None.

Fixpoint base64 (b : bytes) : bytes :=
  match b with
  | x :: y :: z :: r =>
      [digit64 (jz x / 4); digit64 (jz x mod 4 * 16 + jz y / 16); digit64 (jz y mod 16 * 4 + jz z / 64); digit64 (jz z mod 64)] ++ base64 r
  | [x; y] => [digit64 (jz x / 4); digit64 (jz x mod 4 * 16 + jz y / 16); digit64 (jz y mod 16 * 4); Byte.x3d]
  | [x] => [digit64 (jz x / 4); digit64 (jz x mod 4 * 16); Byte.x3d; Byte.x3d]
  | [] => []
  end.

(** Decode: line ends are skipped, the last group may be padded, the unused bits of a padded group are ignored *)
Fixpoint groups64 (b : bytes) : option bytes :=
  match b with
  | [] => Some []
  | c1 :: c2 :: c3 :: c4 :: r =>
      match value64 c1, value64 c2 with
      | Some v1, Some v2 =>
          match value64 c3, value64 c4 with
          | Some v3, Some v4 =>
              option_map (fun l => [byte_of_Z (v1 * 4 + v2 / 16); byte_of_Z (v2 mod 16 * 16 + v3 / 4); byte_of_Z (v3 mod 4 * 64 + v4)] ++ l) (groups64 r)
          | Some v3, None =>
              match r with
              | [] => if byte_eqb c4 Byte.x3d then Some [byte_of_Z (v1 * 4 + v2 / 16); byte_of_Z (v2 mod 16 * 16 + v3 / 4)] else None
              | _ => None
              end
          | None, _ =>
              match r with
              | [] => if byte_eqb c3 Byte.x3d && byte_eqb c4 Byte.x3d then Some [byte_of_Z (v1 * 4 + v2 / 16)] else None
              | _ => None
              end
          end
      | _, _ => None
      end
  | _ => None
  end.
Definition unbase64 (b : bytes) : option bytes := groups64 (filter (fun c => negb (byte_eqb c Byte.x0a || byte_eqb c Byte.x0d)) b).

(** ** values *)
Inductive json := JNull | JBool (b : bool) | JNum (text : bytes) | JStr (s : bytes) | JArr (l : list json) | JObj (l : list (bytes * json)).

Definition blank (c : byte) : bool := byte_eqb c Byte.x20 || byte_eqb c Byte.x09 || byte_eqb c Byte.x0a || byte_eqb c Byte.x0d.
Fixpoint skip (b : bytes) : bytes := match b with c :: r => if blank c then skip r else b | [] => [] end.

(** the literal [w] at the front *)
Fixpoint literal (w b : bytes) : option bytes :=
  match w, b with
  | [], _ => Some b
  | x :: w', y :: b' => if byte_eqb x y then literal w' b' else None
  | _ :: _, [] => None
  end.

(** numbers: the longest prefix of the form -?(0|[1-9][0-9]* )(.[0-9]+)?([eE][+-]?[0-9]+)? *)
Definition is_digit (c : byte) : bool := between 48 57 c.
Fixpoint digits (b : bytes) : bytes * bytes :=
  match b with c :: r => if is_digit c then let '(d, r') := digits r in (c :: d, r') else ([], b) | [] => ([], []) end.
Definition some_digits (b : bytes) : option (bytes * bytes) := match digits b with ([], _) => None | p => Some p end.
Definition sign (cs : list byte) (b : bytes) : bytes * bytes :=
  match b with c :: r => if existsb (byte_eqb c) cs then ([c], r) else ([], b) | [] => ([], []) end.
Definition integer (b : bytes) : option (bytes * bytes) :=
  match b with
  | c :: r => if byte_eqb c Byte.x30 then Some ([c], r) else some_digits b
  | [] => None
  end.
Definition fraction (b : bytes) : option (bytes * bytes) :=
  match b with
  | c :: r => if byte_eqb c Byte.x2e then option_map (fun '(d, r') => (c :: d, r')) (some_digits r) else Some ([], b)
  | [] => Some ([], [])
  end.
Definition exponent (b : bytes) : option (bytes * bytes) :=
  match b with
  | c :: r =>
      if byte_eqb c Byte.x65 || byte_eqb c Byte.x45
      then let '(s, r1) := sign [Byte.x2b; Byte.x2d] r in option_map (fun '(d, r') => (c :: s ++ d, r')) (some_digits r1)
      else Some ([], b)
  | [] => Some ([], [])
  end.
Definition number (b : bytes) : option (bytes * bytes) :=
  let '(s, r0) := sign [Byte.x2d] b in
  match integer r0 with
  | Some (i, r1) =>
      match fraction r1 with
      | Some (f, r2) => match exponent r2 with Some (e, r3) => Some (s ++ i ++ f ++ e, r3) | None => None end
      | None => None
      end
  | None => None
  end.

(** strings: the text up to the closing quote (the scanner refuses control characters and unknown escapes) *)
Definition hex_value (c : byte) : option Z :=
  if between 48 57 c then Some (jz c - 48) else if between 97 102 c then Some (jz c - 87) else if between 65 70 c then Some (jz c - 55) else None.
Definition is_hex (c : byte) : bool := match hex_value c with Some _ => true | None => false end.
Fixpoint text (b : bytes) : option (bytes * bytes) :=
  match b with
  | [] => None
  | c :: r =>
      if byte_eqb c Byte.x22 then Some ([], r) else
      if byte_eqb c Byte.x5c then
        match r with
        | e :: r1 =>
            if existsb (byte_eqb e) (str """\/bfnrt") then option_map (fun '(t, r') => (c :: e :: t, r')) (text r1) else
            if byte_eqb e Byte.x75 then
              match r1 with
              | h1 :: h2 :: h3 :: h4 :: r2 =>
                  if is_hex h1 && is_hex h2 && is_hex h3 && is_hex h4
                  then option_map (fun '(t, r') => (c :: e :: h1 :: h2 :: h3 :: h4 :: t, r')) (text r2) else None
              | _ => None
              end
            else None
        | [] => None
        end
      else if jz c <? 32 then None else option_map (fun '(t, r') => (c :: t, r')) (text r)
  end.

(** what the text stands for (unquote): escapes are replaced, bytes that are not UTF-8 and lone surrogates
    become U+FFFD *)
Definition replacement : bytes := [Byte.xef; Byte.xbf; Byte.xbd].
Definition rune (z : Z) : bytes :=
  if z <? 128 then [byte_of_Z z] else
  if z <? 2048 then [byte_of_Z (192 + z / 64); byte_of_Z (128 + z mod 64)] else
  if z <? 65536 then [byte_of_Z (224 + z / 4096); byte_of_Z (128 + z / 64 mod 64); byte_of_Z (128 + z mod 64)] else
  [byte_of_Z (240 + z / 262144); byte_of_Z (128 + z / 4096 mod 64); byte_of_Z (128 + z / 64 mod 64); byte_of_Z (128 + z mod 64)].
Definition hex4 (h1 h2 h3 h4 : byte) : Z :=
  let v c := match hex_value c with Some z => z | None => 0 end in v h1 * 4096 + v h2 * 256 + v h3 * 16 + v h4.
Definition escaped (e : byte) : byte :=
  if byte_eqb e Byte.x62 then Byte.x08 else if byte_eqb e Byte.x66 then Byte.x0c else if byte_eqb e Byte.x6e then Byte.x0a else
  if byte_eqb e Byte.x72 then Byte.x0d else if byte_eqb e Byte.x74 then Byte.x09 else e.
(** the low half of a surrogate pair at the front *)
Definition low_surrogate (b : bytes) : option (Z * bytes) :=
  match b with
  | s :: u :: h1 :: h2 :: h3 :: h4 :: r =>
      if byte_eqb s Byte.x5c && byte_eqb u Byte.x75 && (56320 <=? hex4 h1 h2 h3 h4) && (hex4 h1 h2 h3 h4 <=? 57343)
      then Some (hex4 h1 h2 h3 h4, r) else None
  | _ => None
  end.
(** the number of bytes of the UTF-8 character at the front, or 0 (utf8.DecodeRune) *)
Definition cont8 (b : byte) : bool := between 128 191 b.
Definition char_size (b : bytes) : nat :=
  match b with
  | c :: r =>
      if jz c <? 128 then 1%nat else
      match r with
      | c1 :: r1 =>
          if between 194 223 c then if cont8 c1 then 2%nat else 0%nat else
          match r1 with
          | c2 :: r2 =>
              if between 224 239 c
              then if between (if jz c =? 224 then 160 else 128) (if jz c =? 237 then 159 else 191) c1 && cont8 c2 then 3%nat else 0%nat else
              match r2 with
              | c3 :: _ =>
                  if between 240 244 c && between (if jz c =? 240 then 144 else 128) (if jz c =? 244 then 143 else 191) c1 && cont8 c2 && cont8 c3
                  then 4%nat else 0%nat
              | [] => 0%nat
              end
          | [] => 0%nat
          end
      | [] => 0%nat
      end
  | [] => 0%nat
  end.
Fixpoint unquote (fuel : nat) (t : bytes) : bytes :=
  match fuel with
  | O => []
  | S n =>
      match t with
      | [] => []
      | c :: r =>
          if byte_eqb c Byte.x5c then
            match r with
            | u :: h1 :: h2 :: h3 :: h4 :: r' =>
                if byte_eqb u Byte.x75 then
                  let z := hex4 h1 h2 h3 h4 in
                  if (55296 <=? z) && (z <=? 57343)
                  then match (if z <? 56320 then low_surrogate r' else None) with
                       | Some (l, r'') => rune (65536 + (z - 55296) * 1024 + (l - 56320)) ++ unquote n r''
                       | None => replacement ++ unquote n r'
                       end
                  else rune z ++ unquote n r'
                else escaped u :: unquote n (h1 :: h2 :: h3 :: h4 :: r')
            | u :: r' => escaped u :: unquote n r'
            | [] => []
            end
          else match char_size t with
               | O => replacement ++ unquote n r
               | k => firstn k t ++ unquote n (skipn k t)
               end
      end
  end.
Definition quoted (b : bytes) : option (bytes * bytes) :=
  match b with
  | c :: r => if byte_eqb c Byte.x22 then match text r with Some (t, r') => Some (unquote (length t) t, r') | None => None end else None
  | [] => None
  end.

(** a value, the members of an object after the brace or a comma, the elements of an array *)
Fixpoint value (fuel : nat) (b : bytes) : option (json * bytes) :=
  match fuel with
  | O => None
  | S n =>
      match skip b with
      | [] => None
      | c :: r =>
          if byte_eqb c Byte.x7b then
            match literal [Byte.x7d] (skip r) with
            | Some r' => Some (JObj [], r')
            | None => option_map (fun '(l, r') => (JObj l, r')) (members n r)
            end
          else if byte_eqb c Byte.x5b then
            match literal [Byte.x5d] (skip r) with
            | Some r' => Some (JArr [], r')
            | None => option_map (fun '(l, r') => (JArr l, r')) (elements n r)
            end
          else if byte_eqb c Byte.x22 then option_map (fun '(s, r') => (JStr s, r')) (quoted (c :: r))
          else if byte_eqb c Byte.x74 then option_map (fun r' => (JBool true, r')) (literal (str "true") (c :: r))
          else if byte_eqb c Byte.x66 then option_map (fun r' => (JBool false, r')) (literal (str "false") (c :: r))
          else if byte_eqb c Byte.x6e then option_map (fun r' => (JNull, r')) (literal (str "null") (c :: r))
          else option_map (fun '(t, r') => (JNum t, r')) (number (c :: r))
      end
  end
with members (fuel : nat) (b : bytes) : option (list (bytes * json) * bytes) :=
  match fuel with
  | O => None
  | S n =>
      match quoted (skip b) with
      | Some (k, r) =>
          match literal [Byte.x3a] (skip r) with
          | Some r1 =>
              match value n r1 with
              | Some (v, r2) =>
                  match skip r2 with
                  | c :: r3 =>
                      if byte_eqb c Byte.x2c then option_map (fun '(l, r') => ((k, v) :: l, r')) (members n r3) else
                      if byte_eqb c Byte.x7d then Some ([(k, v)], r3) else None
                  | [] => None
                  end
              | None => None
              end
          | None => None
          end
      | None => None
      end
  end
with elements (fuel : nat) (b : bytes) : option (list json * bytes) :=
  match fuel with
  | O => None
  | S n =>
      match value n b with
      | Some (v, r2) =>
          match skip r2 with
          | c :: r3 =>
              if byte_eqb c Byte.x2c then option_map (fun '(l, r') => (v :: l, r')) (elements n r3) else
              if byte_eqb c Byte.x5d then Some ([v], r3) else None
          | [] => None
          end
      | None => None
      end
  end.
(** a text is one value with blanks around it; of two nested calls at least one consumes a byte, so that the fuel is
    enough (JsonFacts.v, value_fuel) *)
Definition parse_json (b : bytes) : option json :=
  match value (S (length b + length b)) b with
  | Some (v, r) => match skip r with [] => Some v | _ => None end
  | None => None
  end.

(** ** reading into structs *)
(** Names of fields are compared exactly or with letters folded; besides the letters themselves U+017F folds
    to S and U+212A to K. *)
Fixpoint folded (b : bytes) : bytes :=
  match b with
  | [] => []
  | c :: r =>
      let other := (if between 97 122 c then byte_of_Z (jz c - 32) else c) :: folded r in
      match r with
      | d :: r' =>
          if byte_eqb c Byte.xc5 && byte_eqb d Byte.xbf then Byte.x53 :: folded r' else
          match r' with
          | e :: r'' => if byte_eqb c Byte.xe2 && byte_eqb d Byte.x84 && byte_eqb e Byte.xaa then Byte.x4b :: folded r'' else other
          | [] => other
          end
      | [] => other
      end
  end.
(** the field of a struct meant by a key: no two names of one struct here are equal when folded *)
Definition names (field : string) (k : bytes) : bool := bytes_eqb (folded k) (folded (str field)).

(** decode the members one after the other into the value so far *)
Fixpoint fold_members {X} (step : X -> bytes -> json -> option X) (l : list (bytes * json)) (x : X) : option X :=
  match l with
  | [] => Some x
  | (k, v) :: l' => match step x k v with Some x' => fold_members step l' x' | None => None end
  end.

Definition uint8 (j : json) : option byte :=
  match j with
  | JNum t => if forallb is_digit t && (fold_left (fun a c => a * 10 + (jz c - 48)) t 0 <? 256) then Some (byte_of_Z (fold_left (fun a c => a * 10 + (jz c - 48)) t 0)) else None
  | _ => None
  end.
Fixpoint uint8s (l : list json) : option bytes :=
  match l with [] => Some [] | j :: l' => match uint8 j, uint8s l' with Some b, Some bs => Some (b :: bs) | _, _ => None end end.
Definition read_bytes (old : bytes) (j : json) : option bytes :=
  match j with JNull => Some [] | JStr s => unbase64 s | JArr l => uint8s l | _ => None end.
Definition read_bool (old : bool) (j : json) : option bool :=
  match j with JNull => Some old | JBool b => Some b | _ => None end.
(** a pointer to a struct: null makes it nil, an object is decoded into the struct it points to or a new one *)
Definition read_struct {X} (zero : X) (step : X -> bytes -> json -> option X) (old : option X) (j : json) : option (option X) :=
  match j with
  | JNull => Some None
  | JObj l => option_map (@Some _) (fold_members step l (match old with Some x => x | None => zero end))
  | _ => None
  end.

(** /repo/bccsp/schemes/dlog/crypto/translator/amcl/amcl.pb.go 32-38 *)
Definition ecp_member (p : ecp) (k : bytes) (j : json) : option ecp :=
  if names "x" k then option_map (fun b => {| ex := b; ey := ey p |}) (read_bytes (ex p) j) else
  if names "y" k then option_map (fun b => {| ex := ex p; ey := b |}) (read_bytes (ey p) j) else Some p.
(** kvsbased.go 25-30 *)
Definition nym_member (n : nym_entry) (k : bytes) (j : json) : option nym_entry :=
  if names "Ski" k then option_map (fun b => {| ne_ski := b; ne_sk := ne_sk n; ne_pk := ne_pk n; ne_exportable := ne_exportable n |}) (read_bytes (ne_ski n) j) else
  if names "Sk" k then option_map (fun b => {| ne_ski := ne_ski n; ne_sk := b; ne_pk := ne_pk n; ne_exportable := ne_exportable n |}) (read_bytes (ne_sk n) j) else
  if names "Pk" k then option_map (fun p => {| ne_ski := ne_ski n; ne_sk := ne_sk n; ne_pk := p; ne_exportable := ne_exportable n |}) (read_struct {| ex := []; ey := [] |} ecp_member (ne_pk n) j) else
  if names "Exportable" k then option_map (fun b => {| ne_ski := ne_ski n; ne_sk := ne_sk n; ne_pk := ne_pk n; ne_exportable := b |}) (read_bool (ne_exportable n) j) else
  Some n.
(** 32-35 *)
Definition user_member (u : user_entry) (k : bytes) (j : json) : option user_entry :=
  if names "Sk" k then option_map (fun b => {| ue_sk := b; ue_exportable := ue_exportable u |}) (read_bytes (ue_sk u) j) else
  if names "Exportable" k then option_map (fun b => {| ue_sk := ue_sk u; ue_exportable := b |}) (read_bool (ue_exportable u) j) else
  Some u.
(** 37-40 *)
Definition no_nym_entry : nym_entry := {| ne_ski := []; ne_sk := []; ne_pk := None; ne_exportable := false |}.
Definition no_user_entry : user_entry := {| ue_sk := []; ue_exportable := false |}.
Definition entry_member (e : entry) (k : bytes) (j : json) : option entry :=
  if names "NymSecretKey" k then option_map (fun n => {| e_nym := n; e_user := e_user e |}) (read_struct no_nym_entry nym_member (e_nym e) j) else
  if names "UserSecretKey" k then option_map (fun u => {| e_nym := e_nym e; e_user := u |}) (read_struct no_user_entry user_member (e_user e) j) else
  Some e.
(** Unmarshal into &entry{} (kvsbased.go 58); null changes nothing *)
Definition read_entry (j : json) : option entry :=
  match j with
  | JNull => Some {| e_nym := None; e_user := None |}
  | JObj l => fold_members entry_member l {| e_nym := None; e_user := None |}
  | _ => None
  end.

(** ** writing *)
Definition j_string (s : bytes) : bytes := [Byte.x22] ++ s ++ [Byte.x22].
Definition j_member (k : string) (v : bytes) : bytes := j_string (str k) ++ [Byte.x3a] ++ v.
Fixpoint j_list (l : list bytes) : bytes := match l with [] => [] | [x] => x | x :: l' => x ++ [Byte.x2c] ++ j_list l' end.
Definition j_object (l : list bytes) : bytes := [Byte.x7b] ++ j_list l ++ [Byte.x7d].
Definition j_bytes (b : bytes) : bytes := j_string (base64 b).
Definition j_bool (b : bool) : bytes := if b then str "true" else str "false".
Definition j_ecp (p : ecp) : bytes :=
  j_object (match ex p with [] => [] | x => [j_member "x" (j_bytes x)] end ++ match ey p with [] => [] | y => [j_member "y" (j_bytes y)] end).
Definition j_nym (n : nym_entry) : bytes :=
  j_object [j_member "Ski" (j_bytes (ne_ski n)); j_member "Sk" (j_bytes (ne_sk n));
            j_member "Pk" (match ne_pk n with Some p => j_ecp p | None => str "null" end); j_member "Exportable" (j_bool (ne_exportable n))].
Definition j_user (u : user_entry) : bytes :=
  j_object [j_member "Sk" (j_bytes (ue_sk u)); j_member "Exportable" (j_bool (ue_exportable u))].
Definition j_entry (e : entry) : bytes :=
  j_object (match e_nym e with Some n => [j_member "NymSecretKey" (j_nym n)] | None => [] end
            ++ match e_user e with Some u => [j_member "UserSecretKey" (j_user u)] | None => [] end).

Definition go_json : codec entry :=
  {| enc := fun e => Some (j_entry e); dec := fun b => match parse_json b with Some j => read_entry j | None => None end |}.
