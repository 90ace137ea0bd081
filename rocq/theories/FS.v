(* Files as used by the stores: std::fs, positioned_io (read_exact_at,
   write_all_at), io::copy, tempfile, memmap2.
   Simplifications: a flat directory from full path strings to inodes; the only
   IO errors are missing file, existing file (create_new), permission (read-only
   inode or read-only handle) and short read; sync is a no-op here (Stop.v and
   Props_Power.v give it a meaning for power losses); no size limits. *)
From Coq Require Import String Ascii List Arith Bool Lia Init.Byte.
From Verif Require Import Base.
Import ListNotations.

(* the contents and the permission bits that disk.rs 446-459 and level_cache.rs 86-97
   depend on *)
Record inode : Type := { i_data : list byte; i_ro : bool }.

(* what the paths of disk.rs 48-63, level_cache.rs 158-186, mmap.rs 33-48 name *)
Record fs : Type := {
  fs_dir : string -> option nat;
  fs_ino : nat -> inode;
  fs_next : nat
}.

(* an open File: inode and access mode (all handles can read) *)
(* disk.rs 32, level_cache.rs 36, mmap.rs 17 *)
Record handle : Type := { h_ino : nat; h_write : bool }.

(* no file exists; used for examples and by VecStore (vec.rs), which touches no file *)
Definition fs_empty : fs := {|
  fs_dir := fun _ => None;
  fs_ino := fun _ => {| i_data := []; i_ro := false |};
  fs_next := 0
|}.

(* the bytes behind disk.rs 32 *)
Definition fs_data (f : fs) (i : nat) : list byte := i_data (fs_ino f i).

(* replaced contents, as by disk.rs 546 *)
Definition fs_set_data (f : fs) (i : nat) (d : list byte) : fs := {|
  fs_dir := fs_dir f;
  fs_ino := fun k => if k =? i then {| i_data := d; i_ro := i_ro (fs_ino f i) |}
                     else fs_ino f k;
  fs_next := fs_next f
|}.

(* Path::exists *)
(* disk.rs 51, 444; level_cache.rs 84, 161, 263; mmap.rs 36, 80 *)
Definition fs_exists (f : fs) (p : string) : bool :=
  match fs_dir f p with Some _ => true | None => false end.

(* a new file, as by disk.rs 59, 77 *)
Definition fs_alloc (f : fs) : nat * fs :=
  let i := fs_next f in
  (i, {| fs_dir := fs_dir f;
         fs_ino := fun k => if k =? i then {| i_data := []; i_ro := false |}
                            else fs_ino f k;
         fs_next := S i |}).

(* OpenOptions::new().write(true).read(true).create_new(true).open(p) *)
(* disk.rs 56-60, level_cache.rs 166-170, mmap.rs 41-45 *)
Definition fs_create_new (p : string) : SM fs handle := fun f =>
  if fs_exists f p then (Err "file exists", f)
  else
    let '(i, f1) := fs_alloc f in
    (Ok {| h_ino := i; h_write := true |},
     {| fs_dir := fun q => if String.eqb q p then Some i else fs_dir f1 q;
        fs_ino := fs_ino f1;
        fs_next := fs_next f1 |}).

(* tempfile::tempfile() / NamedTempFile whose path is dropped: an anonymous inode.
   Simplification for MmapStore: the name under which NamedTempFile briefly
   exists is not modelled. *)
(* disk.rs 77, level_cache.rs 203, mmap.rs 64 *)
Definition fs_tempfile : SM fs handle := fun f =>
  let '(i, f1) := fs_alloc f in (Ok {| h_ino := i; h_write := true |}, f1).

(* OpenOptions::new().read(true).open(p), File::open *)
(* disk.rs 246-248, 454-456, 497; level_cache.rs 92-94, 271-273, 612-614, 646, 679;
   store/mod.rs 56 *)
Definition fs_open_ro (f : fs) (p : string) : res handle :=
  match fs_dir f p with
  | None => Err "no such file"
  | Some i => Ok {| h_ino := i; h_write := false |}
  end.

(* OpenOptions::new().write(true).read(true).open(p) *)
(* disk.rs 252-255, 446; level_cache.rs 86, 265, 618-621; mmap.rs 83 *)
Definition fs_open_rw (f : fs) (p : string) : res handle :=
  match fs_dir f p with
  | None => Err "no such file"
  | Some i => if i_ro (fs_ino f i) then Err "permission denied"
              else Ok {| h_ino := i; h_write := true |}
  end.

(* file.metadata()?.len() *)
(* disk.rs 281-283, 461-462, 498-499; level_cache.rs 99-100, 278-279, 605-606, 647-648;
   mmap.rs 93-94 *)
Definition fs_size (f : fs) (h : handle) : nat := List.length (fs_data f (h_ino h)).

(* remove_file *)
(* disk.rs 293, level_cache.rs 430, merkle.rs 1394-1396 *)
Definition fs_remove (p : string) : SM fs unit := fun f =>
  if fs_exists f p then
    (Ok tt, {| fs_dir := fun q => if String.eqb q p then None else fs_dir f q;
               fs_ino := fs_ino f; fs_next := fs_next f |})
  else (Err "no such file", f).

(* ReadAt::read_exact_at(off, buf) with buf.len() = n *)
(* disk.rs 513, 528; level_cache.rs 745, 767, 846; store/mod.rs 62 *)
Definition fs_read_exact_at (f : fs) (h : handle) (off n : nat) : res (list byte) :=
  if n =? 0 then Ok []
  else if off + n <=? fs_size f h then Ok (sub (fs_data f (h_ino h)) off n)
  else Err "failed to fill whole buffer".

(* one byte of such a read, on its own: a read that other writes interleave with *)
(* disk.rs 513 inside the workers of disk.rs 347-353; level_cache.rs 767 inside 484-490
   *)
Definition fs_read_byte (f : fs) (h : handle) (off : nat) : res byte :=
  match nth_error (fs_data f (h_ino h)) off with
  | Some x => Ok x
  | None => Err "failed to fill whole buffer"
  end.

(* WriteAt::write_all_at(off, buf); writing past the end fills with zeros; an empty
   buffer makes no system call, so it also succeeds on a read-only handle *)
(* disk.rs 546, level_cache.rs 865 *)
Definition fs_write_all_at (h : handle) (off : nat) (d : list byte) : SM fs unit :=
  fun f =>
    if List.length d =? 0 then (Ok tt, f)
    else if h_write h then
      let c := fs_data f (h_ino h) in
      let c := resize c (Nat.max (List.length c) (off + List.length d)) x00 in
      (Ok tt, fs_set_data f (h_ino h) (overwrite c off d))
    else (Err "bad file descriptor", f).

(* File::set_len *)
(* disk.rs 63, 78, 266, 271; level_cache.rs 186, 204, 629; mmap.rs 48, 65 *)
Definition fs_set_len (h : handle) (n : nat) : SM fs unit :=
  fun f =>
    if h_write h then
      (Ok tt, fs_set_data f (h_ino h) (resize (fs_data f (h_ino h)) n x00))
    else (Err "invalid argument", f).

(* std::io::copy(reader, writer): read up to a buffer's worth, write it all,
   until a read returns 0 bytes.  The k-th read asks for [S (sizes k)] bytes;
   [sizes] is arbitrary, covering any buffer size and the copy_file_range path.
   Returns the number of bytes written. *)
(* disk.rs 261, level_cache.rs 626 *)
Fixpoint copy_loop (fuel : nat) (sizes : nat -> nat) (k : nat)
    (r w : handle) (rpos wpos written : nat) : SM fs nat := fun f =>
  match fuel with
  | 0 => (Diverge, f)
  | S fl =>
      let d := sub (fs_data f (h_ino r)) rpos (S (sizes k)) in
      if List.length d =? 0 then (Ok written, f)
      else
        sbind (fs_write_all_at w wpos d)
          (fun _ => copy_loop fl sizes (S k) r w (rpos + List.length d)
                      (wpos + List.length d) (written + List.length d)) f
  end.
(* disk.rs 246-261, level_cache.rs 612-626: both handles have been positioned by seek *)
Definition fs_copy (sizes : nat -> nat) (r w : handle) (rpos wpos : nat) : SM fs nat :=
  fun f => copy_loop (S (fs_size f r)) sizes 0 r w rpos wpos 0 f.

(* MmapOptions::new().offset(off).len(n).map_mut(&file): needs a writable handle.
   Simplification: zero-length maps succeed. *)
(* disk.rs 327-333, level_cache.rs 464-470, mmap.rs 50, 67, 104, 276 *)
Definition fs_map_mut (h : handle) : res unit :=
  if h_write h then Ok tt else Err "permission denied (mmap)".

(* store through a shared writable map at absolute file offset [off]; touching
   bytes behind the end of the file is SIGBUS *)
(* disk.rs 372, level_cache.rs 509, mmap.rs 123, 144, 176, 195 *)
Definition fs_map_write (h : handle) (off : nat) (d : list byte) : SM fs unit :=
  fun f =>
    let c := fs_data f (h_ino h) in
    if (List.length d =? 0) || (off + List.length d <=? List.length c) then
      (Ok tt, fs_set_data f (h_ino h) (overwrite c off d))
    else (Panic "SIGBUS", f).

(* load through a map *)
(* mmap.rs 213, 228, 249 *)
Definition fs_map_read (f : fs) (h : handle) (off n : nat) : res (list byte) :=
  if (n =? 0) || (off + n <=? fs_size f h) then Ok (sub (fs_data f (h_ino h)) off n)
  else Panic "SIGBUS".

(* StoreConfig, store/mod.rs 121-135 *)
Record StoreConfig : Type := {
  sc_path : string;
  sc_id : string;
  sc_size : option nat;
  sc_rows_to_discard : nat
}.

(* Path::join of a relative component.  PathBuf is a plain string. *)
(* store/mod.rs 178 *)
Definition path_join (p q : string) : string :=
  match p with
  | EmptyString => q
  | _ =>
      if String.eqb (String.substring (String.length p - 1) 1 p) "/"
      then (p ++ q)%string else (p ++ "/" ++ q)%string
  end.

(* store/mod.rs 177-182; DEFAULT_STORE_CONFIG_DATA_VERSION = 2 (line 94),
   formatted "{:0>2}" *)
Definition data_path (path id : string) : string :=
  path_join path ("sc-02-data-" ++ id ++ ".dat")%string.
(* disk.rs 48, level_cache.rs 158, mmap.rs 33 *)
Definition cfg_path (c : StoreConfig) : string := data_path (sc_path c) (sc_id c).

(* store/mod.rs 184-197 *)
Definition from_config (c : StoreConfig) (id : string) (size : option nat) : StoreConfig := {|
  sc_path := sc_path c;
  sc_id := id;
  sc_size := match size with Some s => Some s | None => sc_size c end;
  sc_rows_to_discard := sc_rows_to_discard c
|}.
