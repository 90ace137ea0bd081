(* src/merkle.rs: MerkleTree *)
From Coq Require Import String List Arith Bool Lia Init.Byte.
From Verif Require Import Base Element Hash Sizing FS Sched Store VecStore DiskStore LevelCache ProofModel.
Import ListNotations.

(* merkle.rs 80-90, 140-171.  Type-level arities are arguments of the methods. *)
Inductive mdata (S C : Type) : Type :=
| BaseTree (s : S)
| SubTree (l : list C)
| TopTree (l : list C).
Arguments BaseTree {S C} _.
Arguments SubTree {S C} _.
Arguments TopTree {S C} _.
(* merkle.rs 138-169 *)
Inductive mtree (S E : Type) : Type := mk_tree {
  mt_data : mdata S (mtree S E);
  mt_leafs : nat;
  mt_len_field : nat;
  mt_row_count : nat;
  mt_root : E
}.
Arguments mk_tree {S E} _ _ _ _ _.
Arguments mt_data {S E} _.
Arguments mt_leafs {S E} _.
Arguments mt_len_field {S E} _.
Arguments mt_row_count {S E} _.
Arguments mt_root {S E} _.

(* anyhow's .context(..) keeps the outcome kind; .expect(..) panics on Err *)
(* e.g. merkle.rs 1630, 1802 *)
Definition expect {A} (r : res A) (m : string) : res A :=
  match r with Err _ => Panic m | r => r end.
(* e.g. merkle.rs 1630, 1802 *)
Definition sexpect {St A} (m : SM St A) (msg : string) : SM St A := fun s =>
  let '(r, s') := m s in (expect r msg, s').

(* run an operation on a freshly created store owned by the constructor *)
(* e.g. merkle.rs 1801-1803 *)
Definition with_store {T A} (s : T) (m : SM (T * fs) A) : SM fs (A * T) := fun f =>
  match m (s, f) with
  | (Ok a, (s', f')) => (Ok (a, s'), f')
  | (Err e, (_, f')) => (Err e, f')
  | (Panic e, (_, f')) => (Panic e, f')
  | (Diverge, (_, f')) => (Diverge, f')
  end.

Section Tree.
  Context {E : Type} (EO : ElementOps E) (SO : StoreOps E).
  Let T := st_t SO.
  Let bl := e_byte_len EO.
  Variable A : AlgOps E.
  Variable en : env.

  (* merkle.rs 1361-1369 *)
  Definition mt_len (t : mtree T E) : nat :=
    match mt_data t with
    | BaseTree s => st_len SO s
    | _ => mt_len_field t
    end.

  (* merkle.rs 1399-1407 *)
  Definition mt_is_empty (t : mtree T E) : bool :=
    match mt_data t with
    | BaseTree s => st_is_empty SO s
    | _ => true
    end.

  (* merkle.rs 93-98: data.store() *)
  Definition mt_store (t : mtree T E) : option T :=
    match mt_data t with BaseTree s => Some s | _ => None end.
  (* merkle.rs 110-116 *)
  Definition mt_sub_trees (t : mtree T E) : res (list (mtree T E)) :=
    match mt_data t with
    | TopTree l => Ok l
    | _ => Err "sub trees are required to be initialised"
    end.
  (* merkle.rs 119-124 *)
  Definition mt_base_trees (t : mtree T E) : res (list (mtree T E)) :=
    match mt_data t with
    | SubTree l => Ok l
    | _ => Err "base trees are required to be initialised"
    end.

  (* Store::last, store/mod.rs 248-250 *)
  Definition store_last (s : T) (f : fs) : res E :=
    do i <- checked_sub (st_len SO s) 1; st_read_at SO (s, f) i.

  (* populate_data, merkle.rs 2013-2050; items are Result<E>.  [buf] is the byte
     buffer, [a] the reused hasher. *)
  Fixpoint populate_loop (block : nat) (items : list (res E)) (a : a_state A)
      (buf : list byte) : SM (T * fs) (list byte) :=
    match items with
    | [] => sret buf
    | it :: r =>
        let! item := slift it in
        let a := a_reset A a in
        let '(h, a) := a_leaf A a item in
        let buf := buf ++ e_as_ref EO h in
        if block * bl <=? List.length buf then
          let! st := sget in
          let! _ := st_copy_from_slice SO buf (st_len SO (fst st)) in
          populate_loop block r a []
        else populate_loop block r a buf
    end.
  (* merkle.rs 2013-2050 *)
  Definition populate_data (items : list (res E)) : SM (T * fs) unit :=
    let! st := sget in
    if negb (st_is_empty SO (fst st)) then sret tt
    else
      let! buf := populate_loop (p_block (env_params en)) items (a_default A) [] in
      let! st := sget in
      let! _ := st_copy_from_slice SO buf (st_len SO (fst st)) in
      st_sync SO.

  (* merkle.rs 2074-2078: the bytes of one block, hasher reused within the block *)
  Fixpoint block_bytes (items : list E) (a : a_state A) : list byte :=
    match items with
    | [] => []
    | x :: r =>
        let '(h, a) := a_leaf A (a_reset A a) x in
        e_as_ref EO h ++ block_bytes r a
    end.

  (* populate_data_par, merkle.rs 2052-2087 *)
  Definition populate_data_par (items : list E) : SM (T * fs) unit :=
    let! st := sget in
    if negb (st_is_empty SO (fst st)) then sret tt
    else
      let block := p_block (env_params en) in
      let blocks := chunks block items in
      let! _ := run_tasks (List.length blocks)
                  (fun k _ => do blk <- rnth blocks k; Ok (block_bytes blk (a_default A)))
                  (fun k buf => st_copy_from_slice SO buf (block * k))
                  (env_pop en) in
      st_sync SO.

  Variables b sub_a top_a : nat.      (* BaseTreeArity, SubTreeArity, TopTreeArity *)

  (* the checks common to all populating constructors:
     merkle.rs 1618-1630, 1656-1668, 1725-1737, 1763-1775 *)
  Definition leafs_checks (leafs : nat) : res (nat * nat) :=
    do _ <- ensure (1 <? leafs) "not enough leaves";
    do _ <- ensure (next_pow2 leafs =? leafs) "size MUST be a power of 2";
    do _ <- ensure (next_pow2 b =? b) "branches MUST be a power of 2";
    do size <- get_merkle_tree_len leafs b;
    Ok (size, get_merkle_tree_row_count leafs b).

  (* e.g. merkle.rs 1805-1816 *)
  Definition mk_base (s : T) (leafs len row_count : nat) (root : E) : mtree T E :=
    mk_tree (BaseTree s) leafs len row_count root.

  (* merkle.rs 1722-1755.  An iterator is its size_hint().1 and its items. *)
  Definition try_from_iter (hint : option nat) (items : list (res E)) : SM fs (mtree T E) :=
    let! leafs := slift (match hint with
                         | Some n => Ok n
                         | None => Err "could not get size hint from iterator"
                         end) in
    let! (size, row_count) := slift (leafs_checks leafs) in
    let! data := st_new SO size in
    let! (_, data) := with_store data (populate_data items) in
    let! (root, data) := with_store data (st_build SO en A b leafs row_count None) in
    sret (mk_base data leafs size row_count root).

  (* merkle.rs 1760-1817; populate_data(..).expect(..) *)
  Definition try_from_iter_with_config (hint : option nat) (items : list (res E))
      (c : StoreConfig) : SM fs (mtree T E) :=
    let! leafs := slift (match hint with
                         | Some n => Ok n
                         | None => Err "could not get size hint from iterator"
                         end) in
    let! (size, row_count) := slift (leafs_checks leafs) in
    let! data := st_new_with_config SO size b c in
    if st_loaded_from_disk SO data then
      let! root := sreads (store_last data) in
      sret (mk_base data leafs size row_count root)
    else
      let! (_, data) := with_store data (sexpect (populate_data items) "failed to populate data") in
      let! (root, data) := with_store data (st_build SO en A b leafs row_count (Some c)) in
      sret (mk_base data leafs size row_count root).

  (* merkle.rs 334-339: new(data) with data an exactly sized list *)
  Definition mt_new (items : list E) : SM fs (mtree T E) :=
    try_from_iter (Some (List.length items)) (map Ok items).
  (* merkle.rs 341-347 *)
  Definition mt_new_with_config (items : list E) (c : StoreConfig) : SM fs (mtree T E) :=
    try_from_iter_with_config (Some (List.length items)) (map Ok items) c.

  (* the mapping closure of merkle.rs 354-358: a.reset(); x.hash(&mut a); a.hash() *)
  Fixpoint hash_items (items : list hval) (a : a_state A) : list E :=
    match items with
    | [] => []
    | x :: r =>
        let '(h, a) := a_hash A (hash_into A (a_reset A a) x) in
        h :: hash_items r a
    end.
  (* merkle.rs 350-359 *)
  Definition from_data (items : list hval) : SM fs (mtree T E) :=
    try_from_iter (Some (List.length items)) (map Ok (hash_items items (a_default A))).
  (* merkle.rs 362-375 *)
  Definition from_data_with_config (items : list hval) (c : StoreConfig) : SM fs (mtree T E) :=
    try_from_iter_with_config (Some (List.length items))
      (map Ok (hash_items items (a_default A))) c.

  (* merkle.rs 1611-1647: S::new(..).expect(..) *)
  Definition from_par_iter (items : list E) : SM fs (mtree T E) :=
    let leafs := List.length items in
    let! (size, row_count) := slift (leafs_checks leafs) in
    let! data := sexpect (st_new SO size) "failed to create data store" in
    let! (_, data) := with_store data (populate_data_par items) in
    let! (root, data) := with_store data (st_build SO en A b leafs row_count None) in
    sret (mk_base data leafs size row_count root).

  (* merkle.rs 1650-1707 *)
  Definition from_par_iter_with_config (items : list E) (c : StoreConfig) : SM fs (mtree T E) :=
    let leafs := List.length items in
    let! (size, row_count) := slift (leafs_checks leafs) in
    let! data := st_new_with_config SO size b c in
    if st_loaded_from_disk SO data then
      let! root := sreads (store_last data) in
      sret (mk_base data leafs size row_count root)
    else
      let! (_, data) := with_store data (populate_data_par items) in
      let! (root, data) := with_store data (st_build SO en A b leafs row_count (Some c)) in
      sret (mk_base data leafs size row_count root).

  (* merkle.rs 1541-1580 *)
  Definition from_byte_slice (leafs_bytes : list byte) : SM fs (mtree T E) :=
    let! _ := slift (ensure (List.length leafs_bytes mod bl =? 0) "not a multiple of byte_len") in
    let leafs := List.length leafs_bytes / bl in
    let! (size, row_count) := slift (leafs_checks leafs) in
    let! data := st_new_from_slice SO size leafs_bytes in
    let! (root, data) := with_store data (st_build SO en A b leafs row_count None) in
    sret (mk_base data leafs size row_count root).

  (* merkle.rs 1499-1538 *)
  Definition from_byte_slice_with_config (leafs_bytes : list byte) (c : StoreConfig)
    : SM fs (mtree T E) :=
    let! _ := slift (ensure (List.length leafs_bytes mod bl =? 0) "not a multiple of byte_len") in
    let leafs := List.length leafs_bytes / bl in
    let! (size, row_count) := slift (leafs_checks leafs) in
    let! data := st_new_from_slice_with_config SO size b leafs_bytes c in
    let! (root, data) := with_store data (st_build SO en A b leafs row_count (Some c)) in
    sret (mk_base data leafs size row_count root).

  (* merkle.rs 379-422, for arities (b, sub_, top) *)
  Definition from_data_store (sub_ top : nat) (data : T) (leafs : nat) : SM fs (mtree T E) :=
    let! _ := slift (ensure (sub_ =? 0) "Data stores must not have sub-tree layers") in
    let! _ := slift (ensure (top =? 0) "Data stores must not have a top layer") in
    let! _ := slift (ensure (next_pow2 leafs =? leafs) "leafs MUST be a power of 2") in
    let! _ := slift (ensure (next_pow2 b =? b) "branches MUST be a power of 2") in
    let! tree_len := slift (get_merkle_tree_len leafs b) in
    let! _ := slift (ensure (tree_len =? st_len SO data) "Inconsistent tree data") in
    let! valid := slift (is_merkle_tree_size_valid leafs b) in
    let! _ := slift (ensure valid "MerkleTree size is invalid given the arity") in
    let! root := sreads (store_last data) in
    sret (mk_base data leafs tree_len (get_merkle_tree_row_count leafs b) root).

  (* checks of merkle.rs 429-448, 473-492 *)
  Definition tree_slice_checks (sub_ top : nat) (data : list byte) (leafs : nat) : res nat :=
    do _ <- ensure (sub_ =? 0) "Data slice must not have sub-tree layers";
    do _ <- ensure (top =? 0) "Data slice must not have a top layer";
    do tree_len <- get_merkle_tree_len leafs b;
    do _ <- ensure (tree_len =? List.length data / bl) "Inconsistent tree data";
    do valid <- is_merkle_tree_size_valid leafs b;
    do _ <- ensure valid "MerkleTree size is invalid given the arity";
    Ok tree_len.

  (* merkle.rs 425-465 *)
  Definition from_tree_slice (sub_ top : nat) (data : list byte) (leafs : nat) : SM fs (mtree T E) :=
    let! tree_len := slift (tree_slice_checks sub_ top data leafs) in
    let! store := st_new_from_slice SO tree_len data in
    let! root := sreads (store_last store) in
    sret (mk_base store leafs tree_len (get_merkle_tree_row_count leafs b) root).

  (* merkle.rs 468-511 *)
  Definition from_tree_slice_with_config (sub_ top : nat) (data : list byte) (leafs : nat)
      (c : StoreConfig) : SM fs (mtree T E) :=
    let! tree_len := slift (tree_slice_checks sub_ top data leafs) in
    let! store := st_new_from_slice_with_config SO tree_len b data c in
    let! root := sreads (store_last store) in
    sret (mk_base store leafs tree_len (get_merkle_tree_row_count leafs b) root).

  (* merkle.rs 524-533, 590-599: trees.iter().all(|mt| f mt == f trees[0]) *)
  Definition all_same (f : mtree T E -> nat) (trees : list (mtree T E)) : bool :=
    match trees with
    | [] => true
    | t0 :: _ => forallb (fun t => f t =? f t0) trees
    end.
  (* merkle.rs 611 *)
  Definition sum_by (f : mtree T E -> nat) (trees : list (mtree T E)) : nat :=
    fold_left (fun acc t => acc + f t) trees 0.

  (* merkle.rs 517-577.  sub_ > 0 makes the branch "sub_tree_layer_nodes == 0" dead. *)
  Definition from_trees (sub_ : nat) (trees : list (mtree T E)) : res (mtree T E) :=
    do _ <- ensure (0 <? sub_) "Cannot use from_trees if not constructing a structure with sub-trees";
    do _ <- ensure (all_same mt_row_count trees) "All passed in trees must have the same row_count";
    do _ <- ensure (all_same mt_len trees) "All passed in trees must have the same length";
    do _ <- ensure (List.length trees =? sub_) "Length of trees MUST equal the number of sub tree layer nodes";
    do t0 <- rnth trees 0;
    Ok (mk_tree (SubTree trees)
          (sum_by mt_leafs trees)
          (mt_len t0 * List.length trees + 1)
          (mt_row_count t0 + 1)
          (fst (a_multi_node A (a_default A) (map mt_root trees) 1))).

  (* merkle.rs 583-636 *)
  Definition from_sub_trees (top : nat) (trees : list (mtree T E)) : res (mtree T E) :=
    do _ <- ensure (0 <? top) "Cannot use from_sub_trees if not constructing a structure with sub-trees";
    do _ <- ensure (all_same mt_row_count trees) "All passed in trees must have the same row_count";
    do _ <- ensure (all_same mt_len trees) "All passed in trees must have the same length";
    do _ <- ensure (List.length trees =? top) "Length of trees MUST equal the number of top layer nodes";
    do t0 <- rnth trees 0;
    Ok (mk_tree (TopTree trees)
          (sum_by mt_leafs trees)
          (mt_len t0 * List.length trees + 1)
          (mt_row_count t0 + 1)
          (fst (a_multi_node A (a_default A) (map mt_root trees) 1))).

  (* merkle.rs 671-674: k times split_off(len - sub_), pushed; reversed afterwards *)
  Fixpoint split_groups (k sub_ : nat) (trees : list (mtree T E)) : res (list (list (mtree T E))) :=
    match k with
    | 0 => Ok []
    | S k' =>
        do cut <- checked_sub (List.length trees) sub_;
        do r <- split_groups k' sub_ (firstn cut trees);
        Ok (skipn cut trees :: r)
    end.

  (* merkle.rs 643-708 *)
  Definition from_sub_trees_as_trees (sub_ top : nat) (trees : list (mtree T E)) : res (mtree T E) :=
    do _ <- ensure (0 <? top) "Cannot use from_sub_trees if not constructing a structure with sub-trees";
    do _ <- ensure (all_same mt_row_count trees) "All passed in trees must have the same row_count";
    do _ <- ensure (all_same mt_len trees) "All passed in trees must have the same length";
    do _ <- ensure (List.length trees =? top * sub_) "Length of trees MUST equal the number of top layer nodes";
    do groups <- split_groups top sub_ trees;
    do sub_trees <- rmap (from_trees sub_) (rev groups);
    do t0 <- rnth sub_trees 0;
    Ok (mk_tree (TopTree sub_trees)
          (sum_by mt_leafs sub_trees)
          (sum_by mt_len sub_trees + 1)
          (mt_row_count t0 + 1)
          (fst (a_multi_node A (a_default A) (map mt_root sub_trees) 1))).

  (* for x in l { trees.push(f(x)?) } *)
  (* e.g. merkle.rs 718-723 *)
  Fixpoint smap {St X Y} (f : X -> SM St Y) (l : list X) : SM St (list Y) :=
    match l with
    | [] => sret []
    | x :: r => let! y := f x in let! ys := smap f r in sret (y :: ys)
    end.

  (* merkle.rs 714-726 *)
  Definition from_slices (sub_ : nat) (tree_data : list (list byte)) (leafs : nat) : SM fs (mtree T E) :=
    let! trees := smap (fun d => from_tree_slice 0 0 d leafs) tree_data in
    slift (from_trees sub_ trees).

  (* merkle.rs 733-750; configs[i] panics when there are too few *)
  Definition from_slices_with_configs (sub_ : nat) (tree_data : list (list byte)) (leafs : nat)
      (configs : list StoreConfig) : SM fs (mtree T E) :=
    let! trees := smap (fun '(i, d) =>
                     let! c := slift (rnth configs i) in
                     from_tree_slice_with_config 0 0 d leafs c)
                   (combine (seq 0 (List.length tree_data)) tree_data) in
    slift (from_trees sub_ trees).

  (* merkle.rs 757-769 *)
  Definition from_stores (sub_ leafs : nat) (stores : list T) : SM fs (mtree T E) :=
    let! trees := smap (fun s => from_data_store 0 0 s leafs) stores in
    slift (from_trees sub_ trees).

  (* merkle.rs 776-795 *)
  Definition from_store_configs (sub_ leafs : nat) (configs : list StoreConfig) : SM fs (mtree T E) :=
    let! trees := smap (fun c =>
                     let! size := slift (get_merkle_tree_len leafs b) in
                     let! data := st_new_with_config SO size b c in
                     from_data_store 0 0 data leafs) configs in
    slift (from_trees sub_ trees).

  (* merkle.rs 803-825: configs.len() / tree_count panics for tree_count = 0 *)
  Definition from_sub_tree_store_configs (sub_ top leafs : nat) (configs : list StoreConfig)
    : SM fs (mtree T E) :=
    if top =? 0 then slift (Panic "attempt to divide by zero")
    else
      let n := List.length configs / top in
      let! trees := smap (fun k => from_store_configs sub_ leafs (sub configs (k * n) n)) (seq 0 top) in
      slift (from_sub_trees top trees).

  (* merkle.rs 1432-1469.  [fuel] bounds the nesting (TopTree -> SubTree -> BaseTree). *)
  Fixpoint mt_read_at_n (fuel : nat) (sub_ top : nat) (t : mtree T E) (f : fs) (i : nat) : res E :=
    match fuel with
    | 0 => Diverge
    | S fuel' =>
        let compound (arity : nat) (sub' : nat) (l : list (mtree T E)) (msg : string) :=
          do _ <- ensure (arity =? List.length l) msg;
          if (arity =? 0) || (mt_leafs t / arity =? 0) then Panic "attempt to divide by zero"
          else
            do tree <- rnth l (i / (mt_leafs t / arity));
            if mt_leafs tree =? 0 then Panic "attempt to calculate the remainder with a divisor of zero"
            else mt_read_at_n fuel' sub' 0 tree f (i mod mt_leafs tree) in
        match mt_data t with
        | TopTree l => compound top sub_ l "Top layer tree shape mis-match"%string
        | SubTree l => compound sub_ 0 l "Sub-tree shape mis-match"%string
        | BaseTree s => st_read_at SO (s, f) i
        end
    end.
  (* merkle.rs 1432-1469 *)
  Definition mt_read_at (t : mtree T E) (f : fs) (i : nat) : res E :=
    mt_read_at_n 3 sub_a top_a t f i.

  (* merkle.rs 1471-1478 *)
  Definition mt_read_range (t : mtree T E) (f : fs) (s e : nat) : res (list E) :=
    do _ <- ensure (s <? e) "start must be less than end";
    match mt_store t with
    | Some st => st_read_range SO (st, f) s e
    | None => Err "data store is required to be initialised"
    end.
  (* merkle.rs 1480-1487 *)
  Definition mt_read_range_into (t : mtree T E) (f : fs) (s e : nat) (buf : list byte) : res (list byte) :=
    do _ <- ensure (s <? e) "start must be less than end";
    match mt_store t with
    | Some st => st_read_range_into SO (st, f) s e buf
    | None => Err "data store is required to be initialised"
    end.
  (* merkle.rs 1490-1496 *)
  Definition mt_read_into (t : mtree T E) (f : fs) (pos : nat) (buf : list byte) : res (list byte) :=
    match mt_store t with
    | Some st => st_read_into SO (st, f) pos buf
    | None => Err "data store is required to be initialised"
    end.

  (* an operation on the store of a base tree (store_mut().context(..)) *)
  (* merkle.rs 1374-1390 *)
  Definition mt_on_store {X} (m : SM (T * fs) X) : SM (mtree T E * fs) X := fun tf =>
    let '(t, f) := tf in
    match mt_data t with
    | BaseTree s =>
        let '(r, (s', f')) := m (s, f) in
        (r, (mk_tree (BaseTree s') (mt_leafs t) (mt_len_field t) (mt_row_count t) (mt_root t), f'))
    | _ => (Err "data store is required to be initialised", tf)
    end.
  (* merkle.rs 1374-1381 *)
  Definition mt_compact (sizes : nat -> nat) (c : StoreConfig) (version : nat) : SM (mtree T E * fs) bool :=
    mt_on_store (st_compact SO sizes b c version).
  (* merkle.rs 1384-1390 *)
  Definition mt_reinit : SM (mtree T E * fs) unit := mt_on_store (st_reinit SO).
  (* merkle.rs 1394-1396 *)
  Definition mt_delete (c : StoreConfig) : SM fs unit := st_delete SO c.

  (* merkle.rs 966-973: read the siblings k of j, k in hash_index..hash_index + b *)
  Fixpoint read_siblings (rd : nat -> res E) (j : nat) (ks : list nat) : res (list E) :=
    match ks with
    | [] => Ok []
    | k :: r =>
        if k =? j then read_siblings rd j r
        else do x <- rd k; do xs <- read_siblings rd j r; Ok (x :: xs)
    end.

  (* merkle.rs 965-981: while base + 1 < self.len(); returns lemma and path produced *)
  Fixpoint proof_loop (fuel : nat) (rd : nat -> nat -> res E) (shift len base width j level : nat)
    : res (list E * list nat) :=
    match fuel with
    | 0 => Diverge
    | S f =>
        if base + 1 <? len then
          let hash_index := j / b * b in
          do sib <- read_siblings (fun k => rd level (base + k)) j (seq hash_index b);
          do (lemma, path) <- proof_loop f rd shift len (base + width)
                                (Nat.shiftr width shift) (Nat.shiftr j shift) (S level);
          Ok (sib ++ lemma, (j mod b) :: path)
        else Ok ([], [])
    end.

  (* merkle.rs 932-998: gen_proof on a base tree with arities (b, sub_, top).
     read_at on a base tree is the store's read_at.  [rd] of proof_loop ignores
     the level here. *)
  Definition gen_proof_base (sub_ top : nat) (t : mtree T E) (s : T) (f : fs) (i : nat)
    : res (proof E) :=
    do _ <- ensure (i <? mt_leafs t) "out of bounds";
    let width := mt_leafs t in
    do _ <- ensure (width =? next_pow2 width) "Must be a power of 2 tree";
    do _ <- ensure (b =? next_pow2 b) "branches must be a power of 2";
    do ll <- get_merkle_proof_lemma_len (mt_row_count t) b;
    do rc1 <- checked_sub (mt_row_count t) 1;
    do _ <- ensure (sub_ =? 0) "Data slice must not have sub-tree layers";
    do _ <- ensure (top =? 0) "Data slice must not have a top layer";
    do item <- st_read_at SO (s, f) i;
    do (sibs, path) <- proof_loop (S (mt_len t)) (fun _ idx => st_read_at SO (s, f) idx)
                         (log2_pow2 b) (mt_len t) 0 width i 0;
    let lemma := item :: sibs ++ [mt_root t] in
    do _ <- ensure (List.length lemma =? ll) "Invalid proof lemma length";
    do _ <- ensure (List.length path =? rc1) "Invalid proof path length";
    proof_new b 0 0 None lemma path.

  (* merkle.rs 904-917, 1032-1041, 1082-1091: roots of the other trees *)
  Definition other_roots (l : list (mtree T E)) (arity tree_index : nat) : res (list E) :=
    rmap (fun k => do t <- rnth l k; Ok (mt_root t))
      (filter (fun k => negb (k =? tree_index)) (seq 0 arity)).

  (* merkle.rs 862-924 with the recursive gen_proof passed in *)
  Definition gen_sub_tree_proof (rec : mtree T E -> nat -> res (proof E))
      (sub_ top : nat) (t : mtree T E) (i : nat) (top_layer : bool) (arity : nat) : res (proof E) :=
    do _ <- ensure (negb (arity =? 0)) "Invalid sub-tree arity";
    if mt_leafs t / arity =? 0 then Panic "attempt to divide by zero"
    else
      let tree_index := i / (mt_leafs t / arity) in
      do l <- (if top_layer then mt_sub_trees t else mt_base_trees t);
      do _ <- ensure (arity =? List.length l) "tree shape mis-match";
      do tree <- rnth l tree_index;
      if mt_leafs tree =? 0 then Panic "attempt to calculate the remainder with a divisor of zero"
      else
        do sp <- rec tree (i mod mt_leafs tree);
        do roots <- other_roots l arity tree_index;
        proof_new b top sub_ (Some sp) (roots ++ [mt_root t]) [tree_index].

  (* merkle.rs 928-1000 *)
  Fixpoint gen_proof_n (fuel : nat) (sub_ top : nat) (t : mtree T E) (f : fs) (i : nat)
    : res (proof E) :=
    match fuel with
    | 0 => Diverge
    | S fuel' =>
        match mt_data t with
        | TopTree _ =>
            gen_sub_tree_proof (fun t' i' => gen_proof_n fuel' sub_ 0 t' f i') sub_ top t i true top
        | SubTree _ =>
            gen_sub_tree_proof (fun t' i' => gen_proof_n fuel' 0 0 t' f i') sub_ top t i false sub_
        | BaseTree s => gen_proof_base sub_ top t s f i
        end
    end.
  (* merkle.rs 928-1000 *)
  Definition gen_proof (t : mtree T E) (f : fs) (i : nat) : res (proof E) :=
    gen_proof_n 3 sub_a top_a t f i.
End Tree.

(* ------------------------------------------------------------------ *)
(* Proofs through partial trees *)
Section Cached.
  Context {E : Type} (EO : ElementOps E) (SO : StoreOps E).
  Let T := st_t SO.
  Let bl := e_byte_len EO.
  Variable A : AlgOps E.
  Variable en : env.
  Variables b sub_a top_a : nat.

  Let VO := vec_store EO.

  (* merkle.rs 828-856 *)
  Definition build_partial_tree (data : list E) (leafs row_count : nat) (f : fs)
    : res (mtree (list E) E) :=
    match vec_build EO en A b leafs row_count None (data, f) with
    | (Ok root, (data, _)) =>
        do tree_len <- get_merkle_tree_len leafs b;
        do _ <- ensure (tree_len =? List.length data) "Inconsistent tree data";
        do valid <- is_merkle_tree_size_valid leafs b;
        do _ <- ensure valid "MerkleTree size is invalid given the arity";
        Ok (mk_tree (BaseTree data) leafs tree_len row_count root)
    | (Err m, _) => Err m
    | (Panic m, _) => Panic m
    | (Diverge, _) => Diverge
    end.

  (* merkle.rs 1300-1332: the while loop of gen_proof_with_partial_tree *)
  Fixpoint partial_loop (fuel : nat) (rd rdp : nat -> res E) (shift len data_width cis : nat)
      (base width j partial_base segment_width segment_shift : nat)
    : res (list E * list nat) :=
    match fuel with
    | 0 => Diverge
    | S fl =>
        if base + 1 <? len then
          let hash_index := j / b * b in
          do sib <- read_siblings
                      (fun k =>
                         let read_index := base + k in
                         if (read_index <? data_width) || (cis <=? read_index) then rd (base + k)
                         else
                           do ri <- checked_sub (partial_base + k) segment_shift;
                           rdp ri) j (seq hash_index b);
          do (lemma, path) <- partial_loop fl rd rdp shift len data_width cis
                                (base + width) (Nat.shiftr width shift) (Nat.shiftr j shift)
                                (partial_base + segment_width) (Nat.shiftr segment_width shift)
                                (Nat.shiftr segment_shift shift);
          Ok (sib ++ lemma, (j mod b) :: path)
        else Ok ([], [])
    end.

  (* merkle.rs 1229-1353 *)
  Definition gen_proof_with_partial_tree (sub_ top : nat) (t : mtree T E) (s : T) (f : fs)
      (i rows_to_discard : nat) (pt : mtree (list E) E) : res (proof E) :=
    do _ <- ensure (i <? mt_leafs t) "out of bounds";
    let width := mt_leafs t in
    do _ <- ensure (width =? next_pow2 width) "Must be a power of 2 tree";
    do _ <- ensure (b =? next_pow2 b) "branches must be a power of 2";
    let data_width := width in
    do total_size <- get_merkle_tree_len data_width b;
    do cache_size <- get_merkle_tree_cache_size (mt_leafs t) b rows_to_discard;
    do cis <- checked_sub total_size cache_size;
    do cached_leafs <- get_merkle_tree_leafs cache_size b;
    do _ <- ensure (cached_leafs =? next_pow2 cached_leafs) "Cached leafs size must be a power of 2";
    let segment_width := width / cached_leafs in
    if segment_width =? 0 then Panic "attempt to divide by zero"
    else
      let segment_start := i / segment_width * segment_width in
      do ll <- get_merkle_proof_lemma_len (mt_row_count t) b;
      do rc1 <- checked_sub (mt_row_count t) 1;
      do _ <- ensure (sub_ =? 0) "Data slice must not have sub-tree layers";
      do _ <- ensure (top =? 0) "Data slice must not have a top layer";
      do item <- st_read_at SO (s, f) i;
      do (sibs, path) <-
         partial_loop (S (mt_len SO t)) (fun idx => st_read_at SO (s, f) idx)
           (fun idx => mt_read_at VO 0 0 pt f idx)
           (log2_pow2 b) (mt_len SO t) data_width cis 0 width i 0 segment_width segment_start;
      let lemma := item :: sibs ++ [mt_root t] in
      do _ <- ensure (List.length lemma =? ll) "Invalid proof lemma length";
      do _ <- ensure (List.length path =? rc1) "Invalid proof path length";
      proof_new b 0 0 None lemma path.

  (* merkle.rs 1120-1222: base tree arm of gen_cached_proof *)
  Definition gen_cached_proof_base (sub_ top : nat) (t : mtree T E) (s : T) (f : fs)
      (i : nat) (rows : option nat) : res (proof E) :=
    do _ <- ensure (i <? mt_leafs t) "out of bounds";
    let leafs := mt_leafs t in
    do _ <- ensure (leafs =? next_pow2 leafs) "The size of the data layer must be a power of 2";
    do total_size <- get_merkle_tree_len leafs b;
    let rows_to_discard :=
      match rows with
      | Some r => Nat.min r (default_rows_to_discard leafs b)
      | None => default_rows_to_discard leafs b
      end in
    do cache_size <- get_merkle_tree_cache_size leafs b rows_to_discard;
    do _ <- ensure (cache_size <? total_size) "Generate a partial proof with all data available?";
    do cached_leafs <- get_merkle_tree_leafs cache_size b;
    do _ <- ensure (cached_leafs =? next_pow2 cached_leafs)
              "The size of the cached leafs must be a power of 2";
    let cache_row_count := get_merkle_tree_row_count cached_leafs b in
    do prc <- checked_sub (mt_row_count t) cache_row_count;
    let partial_row_count := prc + 1 in
    let segment_width := leafs / cached_leafs in
    if segment_width =? 0 then Panic "attempt to divide by zero"
    else
      let segment_start := i / segment_width * segment_width in
      let segment_end := segment_start + segment_width in
      do data_copy <- st_read_range_into SO (s, f) segment_start segment_end
                        (repeat x00 (segment_width * bl));
      do partial_store <- fst (vec_new_from_slice EO segment_width data_copy f);
      do _ <- ensure (List.length partial_store =? segment_width) "Inconsistent store length";
      do _ <- get_merkle_tree_len segment_width b;
      do pt <- build_partial_tree partial_store segment_width partial_row_count f;
      do _ <- ensure (partial_row_count =? mt_row_count pt) "Inconsistent partial tree row_count";
      gen_proof_with_partial_tree sub_ top t s f i rows_to_discard pt.

  (* merkle.rs 1004-1050 and 1054-1100 with the recursive call passed in; the
     two functions differ only in the kind of children *)
  Definition gen_cached_compound_proof (rec : mtree T E -> nat -> res (proof E))
      (sub_ top arity : nat) (children : res (list (mtree T E))) (t : mtree T E) (i : nat)
    : res (proof E) :=
    do _ <- ensure (negb (arity =? 0)) "Invalid tree arity";
    do _ <- ensure (i <? mt_leafs t) "out of bounds";
    do trees <- children;
    if mt_leafs t / arity =? 0 then Panic "attempt to divide by zero"
    else
      let tree_index := i / (mt_leafs t / arity) in
      do tree <- rnth trees tree_index;
      if mt_leafs tree =? 0 then Panic "attempt to calculate the remainder with a divisor of zero"
      else
        do sp <- rec tree (i mod mt_leafs tree);
        do roots <- other_roots SO trees arity tree_index;
        proof_new b top sub_ (Some sp) (roots ++ [mt_root t]) [tree_index].

  (* merkle.rs 1111-1225 *)
  Fixpoint gen_cached_proof_n (fuel : nat) (sub_ top : nat) (t : mtree T E) (f : fs)
      (i : nat) (rows : option nat) : res (proof E) :=
    match fuel with
    | 0 => Diverge
    | S fuel' =>
        match mt_data t with
        | TopTree _ =>
            gen_cached_compound_proof (fun t' i' => gen_cached_proof_n fuel' sub_ 0 t' f i' rows)
              sub_ top top (mt_sub_trees SO t) t i
        | SubTree _ =>
            gen_cached_compound_proof (fun t' i' => gen_cached_proof_n fuel' 0 0 t' f i' rows)
              sub_ top sub_ (mt_base_trees SO t) t i
        | BaseTree s => gen_cached_proof_base sub_ top t s f i rows
        end
    end.
  (* merkle.rs 1111-1226 *)
  Definition gen_cached_proof (t : mtree T E) (f : fs) (i : nat) (rows : option nat) : res (proof E) :=
    gen_cached_proof_n 3 sub_a top_a t f i rows.
End Cached.

(* ------------------------------------------------------------------ *)
(* Level-cache trees over a replica file *)
Section Replica.
  Context {E : Type} (EO : ElementOps E).
  Variable A : AlgOps E.
  Let LO := lc_store EO.
  Variable b : nat.

  (* merkle.rs 212-221 *)
  Definition set_external_reader_path (path : string) : SM (mtree lc_t E * fs) unit := fun tf =>
    let '(t, f) := tf in
    match mt_data t with
    | BaseTree s =>
        match er_new_from_path f path with
        | Ok r => (Ok tt, (mk_tree (BaseTree (lc_set_external_reader s r)) (mt_leafs t)
                             (mt_len_field t) (mt_row_count t) (mt_root t), f))
        | Err m => (Err m, tf)
        | Panic m => (Panic m, tf)
        | Diverge => (Diverge, tf)
        end
    | _ => (Err "store data required", tf)
    end.

  (* merkle.rs 230-266 *)
  Definition from_store_configs_and_replica (sub_ leafs : nat) (configs : list StoreConfig)
      (rc : ReplicaConfig) : SM fs (mtree lc_t E) :=
    let! _ := slift (ensure (List.length configs =? List.length (rc_offsets rc))
                       "Config and Replica offset lists lengths are invalid") in
    let! trees := smap (fun '(i, c) =>
                     let! size := slift (get_merkle_tree_len leafs b) in
                     let! f := sget in
                     let! r := slift (er_new_from_config f rc i) in
                     let! data := lc_new_from_disk_with_reader EO size b c r in
                     from_data_store LO b 0 0 data leafs)
                   (combine (seq 0 (List.length configs)) configs) in
    slift (from_trees LO A sub_ trees).

  (* merkle.rs 275-321 *)
  Definition from_sub_tree_store_configs_and_replica (sub_ top leafs : nat)
      (configs : list StoreConfig) (rc : ReplicaConfig) : SM fs (mtree lc_t E) :=
    let! _ := slift (ensure (List.length configs =? List.length (rc_offsets rc))
                       "Config and Replica offset lists lengths are invalid") in
    if top =? 0 then slift (Panic "attempt to divide by zero")
    else
      let n := List.length configs / top in
      let! trees := smap (fun k =>
                       from_store_configs_and_replica sub_ leafs (sub configs (k * n) n)
                         {| rc_path := rc_path rc; rc_offsets := sub (rc_offsets rc) (k * n) n |})
                     (seq 0 top) in
      slift (from_sub_trees LO A top trees).
End Replica.
