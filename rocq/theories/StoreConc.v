(** Concurrent use of the file-based key store: any number of goroutines or processes calling StoreKey and
    GetKey on one directory.  The steps are those of os.WriteFile (open with O_TRUNC, then writes at the
    offset of its own file descriptor) and os.ReadFile (reads at the offset of its own descriptor, until end of file),
    one byte at a time; a system call on several bytes is a sequence of such steps. *)
From Verif Require Import Base Curve Bbs Aries Dlog Bridge Csp.
Unset Strict Implicit.

(** write(2) of the byte [c] at offset [off]: a gap is filled with zeros *)
Definition write_at (f : bytes) (off : nat) (c : byte) : bytes :=
  firstn off (f ++ repeat b0 (off - length f)) ++ c :: skipn (S off) f.

Section StoreConc.
  Variable U : universe.
  Variable M : mathops U.
  Variable json : codec entry.

  (** kvs/filebased.go 39-52 after json.Marshal: before the open, after writing some bytes, returned *)
  Inductive writer := WStart | WAt (off : nat) | WDone | WFailed.
  (** 54-68: before the open, after reading some bytes, returned, returned because the operating system could not read *)
  Inductive reader := RStart | RAt (buf : bytes) | RDone (r : res (key U)) | RFailed.
  (** a call of StoreKey (kvsbased.go 91-122) with the file name and content it computed, or of GetKey (56-89) *)
  Inductive call := Store (k : key U) (id content : bytes) (w : writer) | Read (ski : bytes) (r : reader).
  (** the directory and all calls made so far *)
  Record shared := { sh_files : dir; sh_calls : list call }.

  (** kvsbased.go 60-89: what GetKey makes of the content of a file *)
  Definition key_of_file (ski content : bytes) : res (key U) :=
    kvs_GetKey M (FileBased json) {| dk_files := fun n => if bytes_eqb n (hex ski) then Some content else None; dk_faults := [] |} ski.

  (** one call advances *)
  Inductive advance : dir -> call -> dir -> call -> Prop :=
  | adv_open d k id b : advance d (Store k id b WStart) (dput d id []) (Store k id b (WAt 0))
  | adv_write d k id b n c f : nth_error b n = Some c -> d id = Some f ->
      advance d (Store k id b (WAt n)) (dput d id (write_at f n c)) (Store k id b (WAt (S n)))
  | adv_close d k id b : advance d (Store k id b (WAt (length b))) d (Store k id b WDone)
  | adv_fail d k id b w : w = WStart \/ (exists n, w = WAt n) -> advance d (Store k id b w) d (Store k id b WFailed)
  | adv_ropen d ski f : d (hex ski) = Some f -> advance d (Read ski RStart) d (Read ski (RAt []))
  | adv_rmissing d ski : d (hex ski) = None -> advance d (Read ski RStart) d (Read ski (RDone Err))
  | adv_read d ski buf f c : d (hex ski) = Some f -> nth_error f (length buf) = Some c ->
      advance d (Read ski (RAt buf)) d (Read ski (RAt (buf ++ [c])))
  | adv_eof d ski buf f : d (hex ski) = Some f -> length f <= length buf ->
      advance d (Read ski (RAt buf)) d (Read ski (RDone (key_of_file ski buf)))
  | adv_rfail d ski r : r = RStart \/ (exists buf, r = RAt buf) -> advance d (Read ski r) d (Read ski RFailed).

  (** a new call, or a step of one in progress *)
  Inductive sstep : shared -> shared -> Prop :=
  | st_store s k id e b : key_entry M k = Some (id, e) -> enc json e = Some b ->
      sstep s {| sh_files := sh_files s; sh_calls := Store k id b WStart :: sh_calls s |}
  | st_get s ski : sstep s {| sh_files := sh_files s; sh_calls := Read ski RStart :: sh_calls s |}
  | st_advance d l1 c l2 d' c' : advance d c d' c' ->
      sstep {| sh_files := d; sh_calls := l1 ++ c :: l2 |} {| sh_files := d'; sh_calls := l1 ++ c' :: l2 |}.

  (** the histories that start with an empty directory *)
  Inductive reached : shared -> Prop :=
  | reached_start : reached {| sh_files := fun _ => None; sh_calls := [] |}
  | reached_step s s' : reached s -> sstep s s' -> reached s'.
End StoreConc.
Arguments RStart {U}.
Arguments RAt {U} buf.
Arguments RFailed {U}.
