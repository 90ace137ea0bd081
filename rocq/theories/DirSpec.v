(* Specification: a directory holding trees, as seen by programs that build, open,
   compact and delete them one after the other; and the sessions themselves in terms
   of the model. *)
From Coq Require Import String List Arith Bool Lia Init.Byte.
From Verif Require Import Base Element Hash Sizing FS Sched Store DiskStore LevelCache ProofModel Tree BuildLoop ChunkFacts Spec FileSpec BuiltFacts ProofSpec ProofFacts TreeProofs StoreLaws StoreSpec TreeFacts TreeObs Builders.
Import ListNotations.

Section Spec.
  Context {E : Type} (EO : ElementOps E) (A : AlgOps E) (b : nat).
  Local Notation bl := (e_byte_len EO).

  (* what is known about the file at a path *)
  Inductive entry : Type :=
  | Full (leaves : list E)                            (* a complete tree *)
  | Packed (keep : bool) (R : nat) (leaves : list E)  (* R rows above the leaves dropped; leaves kept or not *)
  | Raw (bytes : list byte)                           (* a file put there from outside *)
  | Unknown.                                          (* a left-over of a failed call, or a damaged file *)
  Definition dir : Type := string -> option entry.
  Definition upd (s : dir) (p : string) (o : option entry) : dir := fun q => if String.eqb q p then o else s q.

  (* version 1 with no row dropped is the complete tree *)
  Definition pack (keep : bool) (R : nat) (leaves : list E) : entry :=
    if keep && (R =? 0) then Full leaves else Packed keep R leaves.

  (* what a program sees of an open tree *)
  Record view : Type := { v_leafs : nat; v_len : nat; v_rows : nat; v_root : E; v_read : nat -> res E; v_prove : nat -> res (proof E) }.
  Inductive answer : Type :=
  | Opened (v : view) | Done | Refused | Crashed.

  Inductive request : Type :=
  | Build (c : StoreConfig) (leaves : list E)
  | BuildBytes (c : StoreConfig) (leaves : list E)
  | BuildPacked (c : StoreConfig) (leaves : list E)
  | BuildPackedBytes (c : StoreConfig) (leaves : list E)
  | Put (p : string) (bytes : list byte)
  | Open (c : StoreConfig) (n : nat)
  | OpenPacked (c : StoreConfig) (n : nat)
  | OpenReplica (c : StoreConfig) (n : nat) (replica : string)
  | Compact (c : StoreConfig) (n v : nat)
  | Delete (c : StoreConfig).

  Definition full (n d : nat) : Prop := 1 <= d /\ n = b ^ d.
  Definition root_of (leaves : list E) (r : E) : Prop := exists d, full (List.length leaves) d /\ MRoot (h_node A) b d leaves r.

  (* the view is that of the tree over these leaves *)
  Definition shape (leaves : list E) (v : view) : Prop :=
    exists d, full (List.length leaves) d /\ v_leafs v = List.length leaves /\ v_len v = geom b d /\ v_rows v = d + 1 /\
      MRoot (h_node A) b d leaves (v_root v).
  Definition reads (leaves : list E) (v : view) : Prop := forall k x, nth_error leaves k = Some x -> v_read v k = Ok x.
  Definition proves (leaves : list E) (v : view) : Prop := forall k x, nth_error leaves k = Some x ->
    exists p, v_prove v k = Ok p /\ pf_item p = Ok x /\ pf_root p = Ok (v_root v) /\
      (b = 2 \/ height_agnostic A -> validate EO A b p = Ok true).
  Definition tells (leaves : list E) (v : view) : Prop := shape leaves v /\ reads leaves v /\ proves leaves v.
  (* for trees without their lower rows, proofs if no more rows than the default are missing *)
  Definition tells_packed (R : nat) (leaves : list E) (v : view) : Prop :=
    shape leaves v /\ reads leaves v /\ (R <= default_rows_to_discard (List.length leaves) b -> proves leaves v).

  (* the replica file begins with the leaves *)
  Definition supplies (e : option entry) (leaves : list E) : Prop :=
    match e with
    | Some (Full l) | Some (Packed true _ l) => l = leaves
    | Some (Raw bytes) => firstn (List.length leaves * bl) bytes = encode EO leaves
    | _ => False
    end.

  Definition left_over (o : option entry) : Prop := o = None \/ o = Some Unknown.

  (* building from data with DiskStore: an existing tree of that size is used as it is *)
  Inductive build_spec (s : dir) (c : StoreConfig) (leaves : list E) : answer -> dir -> Prop :=
  | B_free d v : s (cfg_path c) = None -> full (List.length leaves) d -> tells leaves v ->
      build_spec s c leaves (Opened v) (upd s (cfg_path c) (Some (Full leaves)))
  | B_bad o : s (cfg_path c) = None -> (forall d, ~ full (List.length leaves) d) -> left_over o ->
      build_spec s c leaves Refused (upd s (cfg_path c) o)
  | B_same old v : s (cfg_path c) = Some (Full old) -> List.length leaves = List.length old -> tells old v ->
      build_spec s c leaves (Opened v) s
  | B_other old : s (cfg_path c) = Some (Full old) -> List.length leaves <> List.length old ->
      build_spec s c leaves Refused s
  | B_packed keep R old : s (cfg_path c) = Some (Packed keep R old) -> build_spec s c leaves Refused s
  | B_truncated R old v : s (cfg_path c) = Some (Packed false R old) -> root_of old (v_root v) -> build_spec s c leaves (Opened v) s
  | B_raw bytes a : s (cfg_path c) = Some (Raw bytes) -> build_spec s c leaves a s
  | B_unknown a : s (cfg_path c) = Some Unknown -> build_spec s c leaves a s.

  Inductive bytes_spec (s : dir) (c : StoreConfig) (leaves : list E) : answer -> dir -> Prop :=
  | BB_free d v : s (cfg_path c) = None -> full (List.length leaves) d -> tells leaves v ->
      bytes_spec s c leaves (Opened v) (upd s (cfg_path c) (Some (Full leaves)))
  | BB_bad o : s (cfg_path c) = None -> (forall d, ~ full (List.length leaves) d) -> left_over o ->
      bytes_spec s c leaves Refused (upd s (cfg_path c) o)
  | BB_taken e : s (cfg_path c) = Some e -> bytes_spec s c leaves Refused s.

  (* LevelCacheStore keeps the upper rows only *)
  Inductive packed_spec (s : dir) (c : StoreConfig) (leaves : list E) : answer -> dir -> Prop :=
  | BP_free d v : s (cfg_path c) = None -> full (List.length leaves) d -> sc_rows_to_discard c < d -> shape leaves v ->
      packed_spec s c leaves (Opened v) (upd s (cfg_path c) (Some (Packed false (sc_rows_to_discard c) leaves)))
  | BP_bad o : s (cfg_path c) = None -> (forall d, full (List.length leaves) d -> d <= sc_rows_to_discard c) -> left_over o ->
      packed_spec s c leaves Refused (upd s (cfg_path c) o)
  | BP_taken e a : s (cfg_path c) = Some e -> packed_spec s c leaves a s.

  Inductive open_spec (s : dir) (c : StoreConfig) (n : nat) : answer -> Prop :=
  | O_none : s (cfg_path c) = None -> open_spec s c n Refused
  | O_full leaves v : s (cfg_path c) = Some (Full leaves) -> n = List.length leaves -> tells leaves v -> open_spec s c n (Opened v)
  | O_size leaves : s (cfg_path c) = Some (Full leaves) -> n <> List.length leaves -> open_spec s c n Refused
  | O_packed keep R leaves : s (cfg_path c) = Some (Packed keep R leaves) -> open_spec s c n Refused
  | O_truncated R leaves v : s (cfg_path c) = Some (Packed false R leaves) -> root_of leaves (v_root v) -> open_spec s c n (Opened v)
  | O_raw bytes a : s (cfg_path c) = Some (Raw bytes) -> open_spec s c n a
  | O_unknown a : s (cfg_path c) = Some Unknown -> open_spec s c n a.

  (* the entry is the one the parameters of the call describe *)
  Definition matching (e : entry) (keep : bool) (c : StoreConfig) (n : nat) (leaves : list E) : Prop :=
    e = pack keep (sc_rows_to_discard c) leaves /\ n = List.length leaves.

  Inductive open_packed_spec (s : dir) (c : StoreConfig) (n : nat) : answer -> Prop :=
  | OP_none : s (cfg_path c) = None -> open_packed_spec s c n Refused
  | OP_ok e leaves v : s (cfg_path c) = Some e -> matching e true c n leaves -> tells_packed (sc_rows_to_discard c) leaves v ->
      open_packed_spec s c n (Opened v)
  | OP_other e a : s (cfg_path c) = Some e -> (forall leaves, ~ matching e true c n leaves) -> open_packed_spec s c n a.

  Inductive open_replica_spec (s : dir) (c : StoreConfig) (n : nat) (rp : string) : answer -> Prop :=
  | OR_none : s (cfg_path c) = None \/ s rp = None -> open_replica_spec s c n rp Refused
  | OR_ok e leaves v : s (cfg_path c) = Some e -> matching e false c n leaves -> supplies (s rp) leaves ->
      tells_packed (sc_rows_to_discard c) leaves v -> open_replica_spec s c n rp (Opened v)
  | OR_other e a : s (cfg_path c) = Some e -> (forall leaves, matching e false c n leaves -> ~ supplies (s rp) leaves) ->
      open_replica_spec s c n rp a.

  Inductive compact_spec (s : dir) (c : StoreConfig) (n v : nat) : answer -> dir -> Prop :=
  | C_none : s (cfg_path c) = None -> compact_spec s c n v Refused s
  | C_ok leaves d : s (cfg_path c) = Some (Full leaves) -> n = List.length leaves -> full n d -> sc_rows_to_discard c < d ->
      compact_spec s c n v Done (upd s (cfg_path c) (Some (pack (v =? 1) (sc_rows_to_discard c) leaves)))
  | C_rows leaves d : s (cfg_path c) = Some (Full leaves) -> n = List.length leaves -> full n d -> d <= sc_rows_to_discard c ->
      compact_spec s c n v Refused s
  | C_size leaves : s (cfg_path c) = Some (Full leaves) -> n <> List.length leaves -> compact_spec s c n v Refused s
  | C_packed R leaves : s (cfg_path c) = Some (Packed true R leaves) -> compact_spec s c n v Refused s
  | C_truncated R leaves a o : s (cfg_path c) = Some (Packed false R leaves) -> o = s (cfg_path c) \/ o = Some Unknown ->
      compact_spec s c n v a (upd s (cfg_path c) o)
  | C_raw bytes a o : s (cfg_path c) = Some (Raw bytes) -> o = s (cfg_path c) \/ o = Some Unknown ->
      compact_spec s c n v a (upd s (cfg_path c) o)
  | C_unknown a : s (cfg_path c) = Some Unknown -> compact_spec s c n v a s.

  Inductive allowed (s : dir) : request -> answer -> dir -> Prop :=
  | A_build c leaves a s' : build_spec s c leaves a s' -> allowed s (Build c leaves) a s'
  | A_bytes c leaves a s' : bytes_spec s c leaves a s' -> allowed s (BuildBytes c leaves) a s'
  | A_packed c leaves a s' : packed_spec s c leaves a s' -> allowed s (BuildPacked c leaves) a s'
  | A_packed_bytes c leaves a s' : s (cfg_path c) = None -> packed_spec s c leaves a s' -> allowed s (BuildPackedBytes c leaves) a s'
  | A_packed_over c leaves e a : s (cfg_path c) = Some e -> allowed s (BuildPackedBytes c leaves) a (upd s (cfg_path c) (Some Unknown))
  | A_put p bytes : s p = None -> allowed s (Put p bytes) Done (upd s p (Some (Raw bytes)))
  | A_put_taken p bytes e : s p = Some e -> allowed s (Put p bytes) Refused s
  | A_open c n a : open_spec s c n a -> allowed s (Open c n) a s
  | A_open_packed c n a : open_packed_spec s c n a -> allowed s (OpenPacked c n) a s
  | A_open_replica c n rp a : open_replica_spec s c n rp a -> allowed s (OpenReplica c n rp) a s
  | A_compact c n v a s' : compact_spec s c n v a s' -> allowed s (Compact c n v) a s'
  | A_delete c e : s (cfg_path c) = Some e -> allowed s (Delete c) Done (upd s (cfg_path c) None)
  | A_delete_none c : s (cfg_path c) = None -> allowed s (Delete c) Refused s.

  Inductive allowed_all (s : dir) : list (request * answer) -> dir -> Prop :=
  | AA_nil : allowed_all s [] s
  | AA_step q a s1 l s2 : allowed s q a s1 -> allowed_all s1 l s2 -> allowed_all s ((q, a) :: l) s2.

  (* ------------------------------------------------------------------ *)
  (* the sessions *)
  Definition view_of (SO : StoreOps E) (pr : mtree (st_t SO) E -> fs -> nat -> res (proof E)) (t : mtree (st_t SO) E) (f : fs) : view := {|
    v_leafs := mt_leafs t; v_len := mt_len SO t; v_rows := mt_row_count t; v_root := mt_root t;
    v_read := mt_read_at SO 0 0 t f; v_prove := pr t f |}.
  Definition reply (SO : StoreOps E) (pr : mtree (st_t SO) E -> fs -> nat -> res (proof E))
      (r : res (mtree (st_t SO) E) * fs) : answer * fs :=
    (match fst r with Ok t => Opened (view_of SO pr t (snd r)) | Err _ => Refused | _ => Crashed end, snd r).
  Definition reply_done {X} (r : res X * fs) : answer * fs :=
    (match fst r with Ok _ => Done | Err _ => Refused | _ => Crashed end, snd r).

  Local Notation DO := (disk_store EO).
  Local Notation LO := (lc_store EO).
  Definition reply_disk (r : res (mtree (st_t DO) E) * fs) : answer * fs := reply DO (gen_proof DO b 0 0) r.
  Definition reply_lc (en : env) (r : res (mtree (st_t LO) E) * fs) : answer * fs :=
    reply LO (fun t f i => gen_cached_proof EO LO A en b 0 0 t f i None) r.

  (* the usual way to open a stored tree: the store's new_from_disk (store/mod.rs 215-216), then
     MerkleTree::from_data_store (merkle.rs 379-422) *)
  Definition open_disk (c : StoreConfig) (n : nat) : SM fs (mtree (st_t DO) E) :=
    let! size := slift (get_merkle_tree_len n b) in
    let! s := disk_new_from_disk EO size b c in
    from_data_store DO b 0 0 s n.
  Definition open_lc (c : StoreConfig) (n : nat) : SM fs (mtree (st_t LO) E) :=
    let! size := slift (get_merkle_tree_len n b) in
    let! s := lc_new_from_disk EO size b c in
    from_data_store LO b 0 0 s n.
  (* as from_store_configs_and_replica does for each configuration, merkle.rs 240-262 *)
  Definition open_replica (c : StoreConfig) (n : nat) (rp : string) : SM fs (mtree (st_t LO) E) :=
    let! size := slift (get_merkle_tree_len n b) in
    let! f := sget in
    let! r := slift (er_new_from_path f rp) in
    let! s := lc_new_from_disk_with_reader EO size b c r in
    from_data_store LO b 0 0 s n.
  (* compact on an opened tree, merkle.rs 1374-1381 *)
  Definition open_compact (sizes : nat -> nat) (c : StoreConfig) (n v : nat) : SM fs bool :=
    let! t := open_disk c n in
    fun f => let '(x, (_, f')) := mt_compact DO b sizes c v (t, f) in (x, f').
  (* a file created by somebody else *)
  Definition put (p : string) (bytes : list byte) : SM fs unit :=
    let! h := fs_create_new p in fs_write_all_at h 0 bytes.

  Inductive serves (f : fs) : request -> answer * fs -> Prop :=
  | S_new en c xs : chunk_ok en b -> serves f (Build c (map (h_leaf A) xs)) (reply_disk (mt_new_with_config EO DO A en b xs c f))
  | S_par en c xs : chunk_ok en b -> 0 < p_block (env_params en) ->
      serves f (Build c (map (h_leaf A) xs)) (reply_disk (from_par_iter_with_config EO DO A en b xs c f))
  | S_data en c xs : chunk_ok en b ->
      serves f (Build c (map (fun x => h_leaf A (hash_of A x)) xs)) (reply_disk (from_data_with_config EO DO A en b xs c f))
  | S_bytes en c els : chunk_ok en b -> serves f (BuildBytes c els) (reply_disk (from_byte_slice_with_config EO DO A en b (encode EO els) c f))
  | S_lc_new en c xs : chunk_ok en b -> serves f (BuildPacked c (map (h_leaf A) xs)) (reply_lc en (mt_new_with_config EO LO A en b xs c f))
  | S_lc_par en c xs : chunk_ok en b -> 0 < p_block (env_params en) ->
      serves f (BuildPacked c (map (h_leaf A) xs)) (reply_lc en (from_par_iter_with_config EO LO A en b xs c f))
  | S_lc_data en c xs : chunk_ok en b ->
      serves f (BuildPacked c (map (fun x => h_leaf A (hash_of A x)) xs)) (reply_lc en (from_data_with_config EO LO A en b xs c f))
  | S_lc_bytes en c els : chunk_ok en b ->
      serves f (BuildPackedBytes c els) (reply_lc en (from_byte_slice_with_config EO LO A en b (encode EO els) c f))
  | S_put p bytes : serves f (Put p bytes) (reply_done (put p bytes f))
  | S_open c n : serves f (Open c n) (reply_disk (open_disk c n f))
  | S_open_packed en c n : chunk_ok en b -> serves f (OpenPacked c n) (reply_lc en (open_lc c n f))
  | S_open_replica en c n rp : chunk_ok en b -> serves f (OpenReplica c n rp) (reply_lc en (open_replica c n rp f))
  | S_compact sizes c n v : serves f (Compact c n v) (reply_done (open_compact sizes c n v f))
  | S_delete c : serves f (Delete c) (reply_done (mt_delete DO c f))
  | S_lc_delete c : serves f (Delete c) (reply_done (mt_delete LO c f)).

  Inductive serves_all (f : fs) : list (request * answer) -> fs -> Prop :=
  | SA_nil : serves_all f [] f
  | SA_step q a f1 l f2 : serves f q (a, f1) -> serves_all f1 l f2 -> serves_all f ((q, a) :: l) f2.

  (* ------------------------------------------------------------------ *)
  (* the directory describes the file system *)
  Definition holds (e : entry) (i : inode) : Prop :=
    match e with
    | Full leaves => exists d els, 1 <= d /\ Layout (h_node A) b d leaves els /\ i_data i = encode EO els /\ i_ro i = false
    | Packed keep R leaves => exists d els, R < d /\ Layout (h_node A) b d leaves els /\ i_ro i = false /\
        i_data i = encode EO ((if keep then leaves else []) ++ skipn (row_off b d (S R)) els) /\ keep && (R =? 0) = false
    | Raw bytes => i_data i = bytes
    | Unknown => True
    end.
  Definition describes (s : dir) (f : fs) : Prop :=
    fs_ok f /\ forall p, match s p, file_at f p with
                         | None, None => True
                         | Some e, Some i => holds e i
                         | _, _ => False
                         end.
End Spec.
Arguments entry E : clear implicits.
Arguments dir E : clear implicits.
Arguments view E : clear implicits.
Arguments answer E : clear implicits.
Arguments request E : clear implicits.
