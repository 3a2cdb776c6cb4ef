(** Slices that share memory.  The rest of the model passes byte strings by value; this file models the functions that write
    into memory of their caller or hand out memory of their own.  A Go slice is a window of an array of the heap. *)
From Verif Require Import Base Curve Dlog Bbs Translator Bridge Csp.
From Coq Require Import Sorting.Permutation Sorting.Sorted.
Unset Strict Implicit.

Section Mem.
  Variable A : Type.
  (** arrays are numbered by their position *)
  Definition heap := list (list A).
  (** array, offset, length and capacity of a slice (the Go specification, "Slice types") *)
  Record slice := { sl_arr : nat; sl_off : nat; sl_len : nat; sl_cap : nat }.

  Definition array (h : heap) (a : nat) : list A := nth a h [].
  Definition cell (h : heap) (a i : nat) : option A := nth_error (array h a) i.
  Definition view (h : heap) (s : slice) : list A := firstn (sl_len s) (skipn (sl_off s) (array h (sl_arr s))).
  (** a slice lies inside an array *)
  Definition lies_in (h : heap) (s : slice) : Prop :=
    sl_len s <= sl_cap s /\ sl_off s + sl_cap s <= length (array h (sl_arr s)).

  (** storing [xs] into the cells from [i] of array [a] *)
  Definition splice (l : list A) (i : nat) (xs : list A) : list A := firstn i l ++ xs ++ skipn (i + length xs) l.
  Fixpoint update (h : heap) (a : nat) (l : list A) : heap :=
    match h, a with
    | [], _ => []
    | _ :: h', O => l :: h'
    | x :: h', S a' => x :: update h' a' l
    end.
  Definition store (h : heap) (a i : nat) (xs : list A) : heap := update h a (splice (array h a) i xs).
  (** make([]A, len, cap) filled with [xs]; [spare] are the cells between length and capacity *)
  Definition alloc (h : heap) (xs spare : list A) : heap * slice :=
    (h ++ [xs ++ spare], {| sl_arr := length h; sl_off := 0; sl_len := length xs; sl_cap := length xs + length spare |}).

  (** append(s, xs...): in place when the capacity suffices, into a new array otherwise ([spare]: what the new array has
      beyond the result, which the Go specification leaves open) *)
  Definition go_append (h : heap) (s : slice) (xs spare : list A) : heap * slice :=
    if sl_len s + length xs <=? sl_cap s
    then (store h (sl_arr s) (sl_off s + sl_len s) xs,
          {| sl_arr := sl_arr s; sl_off := sl_off s; sl_len := sl_len s + length xs; sl_cap := sl_cap s |})
    else alloc h (view h s ++ xs) spare.
End Mem.

(** sort.Ints(s) *)
Definition go_sort (h : heap Z) (s : slice) : heap Z := store h (sl_arr s) (sl_off s) (sortInts (view h s)).

Section Code.
  Variable C : Curve.
  Variable HG : bytes -> G1 C.
  Variable H : hasher C.

  (** bbs/keys.go 194-233 (GenerateKeyPair, generateOKM) with the seed in memory; [None] is the nil slice *)
  Definition hGenerateKeyPair (hkdf : bytes -> bytes) (h : heap byte) (seed : option slice) (rnd spare : bytes) : res (gcar (G2 C) * zcar (Zr C)) * heap byte :=
    let len := match seed with Some s => sl_len s | None => 0 end in
    if (len =? 0) || (len =? frCompressedSize)
    then
      let '(h', ikm) := match seed with
                        | Some s => go_append h s [b0] spare
                        | None => alloc h (rnd ++ [b0]) []
                        end in
      let sk := H (hkdf (view h' ikm)) in
      (Ok (publicKey sk, sk), h')
    else (Err, h).

  (** bbs/bbs12381g2pub.go 167-217 (DeriveProofZr) with the indexes in memory.  After the call to sort.Ints only the order of
      the statements differs from [deriveProofZr], which sorts the list it is given: sorting again changes nothing. *)
  Definition hDeriveProofZr (messages : list (SignatureMessage C)) (sigBytes nonce pubKeyBytes : bytes) (h : heap Z) (revealedIndexes : slice) (R : PoKRand C)
      : res bytes * heap Z :=
    if sl_len revealedIndexes =? 0 then (Err, h)
    else let h' := go_sort h revealedIndexes in
         (deriveProofZr HG H messages sigBytes nonce pubKeyBytes (view h' revealedIndexes) R, h').
End Code.

(** translator/amcl/fp256bn.go 19-31, 101-113 and gurvy.go 17-26 (G1ToProto): [raw] is the array that Bytes() has filled, [skip]
    1 for fp256bn and 0 for gurvy; X and Y are two slices of it, and the capacity of X reaches to its end *)
Definition hG1ToProto (h : heap byte) (raw spare : bytes) (skip : nat) : heap byte * slice * slice :=
  let '(h', s) := alloc h raw spare in
  let l := Nat.div2 (length raw - skip) in
  (h', {| sl_arr := sl_arr s; sl_off := skip; sl_len := l; sl_cap := sl_cap s - skip |},
       {| sl_arr := sl_arr s; sl_off := skip + l; sl_len := length raw - skip - l; sl_cap := sl_cap s - skip - l |}).

(** bccsp/handlers/nym.go 88-92 (nymPublicKey.Bytes): append(ecp.X, ecp.Y...) *)
Definition hNymPublicBytes (h : heap byte) (raw spare more : bytes) (skip : nat) : heap byte * slice :=
  let '(h', x, y) := hG1ToProto h raw spare skip in
  go_append h' x (view h' y) more.

(** bccsp/handlers/nym.go 54-59 (NymSecretKey.SKI): a copy of the field *)
Definition hNymSecretSki (h : heap byte) (ski : slice) : heap byte * slice := alloc h (view h ski) [].

(** an issuer public key of the dlog scheme in memory: its Hash field is the slice [hash]
    (bccsp/schemes/dlog/bridge/issuer.go 25-27, handlers/issuer.go 70-72: Hash and SKI return the field) *)
Record hIssuerPublicKey := { hi_key : IssuerPublicKey; hi_hash : slice }.
Definition hi_value (h : heap byte) (k : hIssuerPublicKey) : IssuerPublicKey := with_hash (hi_key k) (view h (hi_hash k)).
Definition hIssuerSki (h : heap byte) (k : hIssuerPublicKey) : heap byte * slice := (h, hi_hash k).

(** bccsp/schemes/dlog/crypto/issuerkey.go 36-117 (newIssuerKey, reached from KeyGen through handlers/issuer.go 102): the key
    keeps the slice of attribute names it was given (line 56) *)
Record hNamedKey := { hn_key : IssuerKey; hn_names : slice }.
Definition with_names (ipk : IssuerPublicKey) (names : list bytes) : IssuerPublicKey :=
  {| ip_names := names; ip_hsk := ip_hsk ipk; ip_hrand := ip_hrand ipk; ip_hattrs := ip_hattrs ipk; ip_w := ip_w ipk; ip_barg1 := ip_barg1 ipk;
     ip_barg2 := ip_barg2 ipk; ip_c := ip_c ipk; ip_s := ip_s ipk; ip_hash := ip_hash ipk |}.
Definition hn_value (h : heap bytes) (k : hNamedKey) : IssuerKey :=
  {| ik_isk := ik_isk (hn_key k); ik_ipk := option_map (fun p => with_names p (view h (hn_names k))) (ik_ipk (hn_key k)) |}.
Definition hNewIssuerKey C (H : hasher C) (T : translator C) marshal (h : heap bytes) (names : slice) (R : IssuerRand C) : res hNamedKey :=
  let* k := newIssuerKey H T marshal (view h names) R in Ok {| hn_key := k; hn_names := names |}.
