# Formal model of filecoin-project/merkletree in Rocq (Coq 8.16.1)

## 1. Layout

`rocq/theories/`

| file | models / contains |
|------|-------------------|
| `Base.v` | results (`Ok/Err/Panic/Diverge`), list slices, chunks, overwriting |
| `Hash.v` | `src/hash.rs`, `src/hash_impl.rs`: hasher streams, `Algorithm`, `Hashable` |
| `Element.v` | `Element` trait of `src/merkle.rs`, `[u8;32]` instance |
| `Sizing.v` | size functions of `src/merkle.rs` 1837-2011, `default_rows_to_discard` |
| `FS.v` | files, directory, handles, positioned IO, `io::copy` |
| `Sched.v` | interleaving semantics for the rayon worker tasks |
| `Store.v` | `Store` trait and its default methods (`src/store/mod.rs`) |
| `VecStore.v`, `DiskStore.v`, `MmapStore.v`, `LevelCache.v` | the four stores |
| `ProofModel.v` | `src/proof.rs` |
| `LcDebug.v` | `Debug` of `LevelCacheStore` (`src/store/level_cache.rs` 61-72), one-line form |
| `ProofEq.v` | the derived `PartialEq` of `Proof` (`src/proof.rs` 18-33) |
| `Tree.v` | `MerkleTree` (`src/merkle.rs`) |
| `Iter.v` | parallel iterators over stores (`src/store/mod.rs` 427-628) |
| `Machine.v` | the size functions again, in 64-bit arithmetic (wrapping / overflow-checked) |
| `Addr64.v` | index and byte addressing of the file-backed stores, in 64-bit arithmetic |
| `Faults.v` | the stores again, with methods that may fail at any call (disk full, EIO, ...) |
| `Stop.v` | `DiskStore` again, in a process that is killed at a chosen point of a build |
| `LcStop.v` | the same for `LevelCacheStore`, with kill points inside front truncation |
| `MmStop.v` | the same for `MmapStore`, with kill points inside every copy into its map |
| `CompactIo.v` | `DiskStore::compact` again, with operations that may fail |
| `Deref.v` | the `Deref` views of `VecStore` and `MmapStore` |
| `Race.v` | the constructor of `DiskStore` as system calls of several processes |
| `Float.v` | the `f64` expression of `get_merkle_tree_row_count` in IEEE binary64 (Flocq) |
| `Spec.v` | the independent specification: recursive Merkle root, rows, layout, collisions |
| `ProofSpec.v`, `StoreSpec.v`, `ArraySpec.v`, `FileSpec.v` | further small specifications: ancestors of a leaf, stores as arrays, operation lists, operations on files |
| `ListFacts`, `SpecFacts`, `SizingFacts`, `SchedFacts`, `ByteFacts`, `HashFacts`, `FileFacts` | lemmas about lists, specification, sizes, schedules, hashing, files |
| `StoreLaws`, `RowFacts`, `ChunkFacts`, `BuildFacts`, `BuildLoop`, `MapLayer` | the build loop over an abstract lawful store; row tasks under arbitrary schedules |
| `VecFacts`, `DiskFacts`, `MmapFacts` | the three stores meet the laws |
| `PopFacts`, `TreeFacts`, `TreeObs`, `Builders`, `BuiltFacts` | population, the constructors, what a built tree shows, later file-system changes |
| `ProofFacts`, `TreeProofs`, `CompoundFacts`, `CompoundTrees`, `CompoundGroups`, `CompoundBuilt` | generated proofs, validation, soundness, compound trees |
| `CachedFacts`, `CachedTrees`, `CachedBuilt` | `gen_cached_proof` |
| `FrameFacts`, `CompactFacts`, `CompactTrees` | which files change; compaction |
| `LcReads`, `LcTrees`, `LcBuild`, `LcCreate` | level-cache stores: reads, proofs, direct builds |
| `ArrayFacts`, `ArrayStart`, `ReopenFacts`, `ReplicaFacts`, `RebuildFacts` | operation sequences, reopening, replica files, rebuilding compound trees |
| `AgainFacts`, `FaultFacts`, `OwnFile` | tree objects after compaction; runs with failures compared with runs without; files a constructor may change |
| `StopFacts` | what a killed build leaves in its file; opening a file of the right length |
| `Recompact` | compaction of any file of the right length, finished or killed, and repeated |
| `CompactIoFacts`, `RaceFacts` | invariants of the last two |
| `HashTree`, `HashTreeFacts` | specification of hash trees of any shape and of the claims of a proof object of any shape (C83) |
| `ChunkAny` | construction with a chunk size the arity does not divide, compared with one it divides |
| `DirSpec`, `DirFacts` | a directory of trees as a map from paths to entries, the sessions in terms of the model; every session answers as the map allows |
| `MachineFacts`, `AddrFacts`, `Ln2`, `FloatFacts` | 64-bit arithmetic, bounds on logarithms, binary64 |
| `Cases.v` | concrete element types, algorithms and environments for the examples |
| `Props_*.v` | the property theorems, each with `Print Assumptions` and a concrete case meeting its hypotheses |

Models contain no proofs; proofs are in `*Facts.v`; statements in `Props_*.v`.

## 2. Modelling decisions

* A fallible Rust call returns `res A := Ok a | Err msg | Panic msg | Diverge`. `ensure!`/`bail!`/`?`
  are `Err`; index out of bounds, `expect`, `unimplemented!`, SIGBUS are `Panic`; a `while`
  loop that exhausts its fuel is `Diverge` (theorems state the result is not `Diverge`, or that
  it is `Diverge` for every fuel).
* `usize` is `nat`, unbounded, in the main model (C52 relates it to 64-bit arithmetic in a separate file).
* The type-level arities `BaseTreeArity/SubTreeArity/TopTreeArity` are `nat` arguments.
* `Element` is a record: carrier, byte length, `as_ref`, `from_slice`, default, equality. Laws
  (positive byte length, `as_ref` has that length, `from_slice (as_ref e) = e`, `from_slice` total on
  slices of the right length, boolean equality is equality) are hypotheses on the user's `Element` impl, and are
  proved for the byte-array instance.
* `Algorithm` is a record with its own state; `leaf`, `node`, `multi_node`, `reset` are fields
  (they can be overridden), with the trait's default bodies provided separately. The only law assumed is
  that `reset` re-establishes the default state.
* Files: a directory (path -> inode), inodes holding a byte list and a read-only bit. Stores hold a
  handle (inode + writable). All store operations thread the file system, so aliasing by path is modelled.
  In the main model IO fails only for the modelled reasons (missing file, read-only, short read). `Faults.v` adds
  arbitrary failures (disk full, EIO, a panicking worker): an oracle may replace any call of a store method by an error or a panic that
  leaves an arbitrary store and file system behind (C65, C66). `Stop.v` kills the process after the creation of the file, after any byte of
  a copy of leaves, at the call of `sync`, or after any byte step of the workers on any row; what it has handed to the operating system stays (C71). `LcStop.v` does so for `LevelCacheStore` and also kills between two pieces of a front truncation (C74). `MmStop.v` does so for `MmapStore`, inside any copy into its map (C75). In `CompactIo.v` each operation of `DiskStore::compact` may fail (C81). A power loss (C73, C78) may also undo, byte by byte, what was
  written since the last `sync`; the directory entry is taken as durable, and `sync` in `compact` (disk.rs 280) and in `LevelCacheStore` has no such meaning in the model.
* Memory maps are views of the inode's bytes (MAP_SHARED). Touching a mapped page behind EOF is a `Panic` (SIGBUS);
  page granularity is ignored.
* rayon: the tasks of the default `process_layer` (`VecStore`, `MmapStore`) and of `populate_data_par` are run under an explicit
  schedule (a list of task numbers); every task takes two atomic steps (read under the read lock, write under the write lock).
  `DiskStore` and `LevelCacheStore` write through a memory map without a lock: there a schedule is a list of (task, byte) pairs, and a task
  reads and writes its bytes one at a time in any order. Schedules are arbitrary arguments, completed to run every task.
* `io::copy` copies in pieces whose sizes are given by an arbitrary argument.
* Compile-time constants (`SMALL_TREE_BUILD`, `BUILD_CHUNK_NODES`, `BUILD_DATA_BLOCK_SIZE`) are fields of a
  parameter record; theorems hold for all positive values, `real_params` is the crate's setting.
* Not modelled: serde, Debug/Clone impls (except C98), logging, `Vec` capacity hints, the sha2 dev-dependency,
  `fsync` durability, except in C73, C78, C93 and C94 (elsewhere a crash is a process stop with all issued writes visible, in order).

## 3. Properties: outcome and method

(Ids as in `properties.jsonl`; `MANIFEST.json` has the theorem names.  "Refuted" means: a theorem whose name ends in
`_refuted` exhibits an execution of the modelled code that violates the property; the part that does hold is then in
the `_partial` theorems.)

* C01, C02 proved: the row list is defined by folding `chunks b`; each store's `build` writes exactly these rows (loop invariant
  over levels), and the rows satisfy the recursive relation `MRoot` of `Spec.v`.
* C03 partial: guards and build loop for non-full sizes. `MmapStore` panics instead of returning an error on some non-full sizes.
* C04 proved through the common `StoreLaws`.
* C05, C06 proved: invariant over the set of finished tasks (of written bytes, for the memory-mapped layers) for arbitrary schedules.
* C07 proved: both algorithms against the same row list for arbitrary parameters.
* C08 proved: induction over the iterator with the buffer as accumulator.
* C09 partial: `try_from_iter` proved; `try_from_iter_with_config` panics (refuted).
* C10 partial: never a tree; the `with_config` constructors may panic.
* C11-C14 proved: loop invariant of `gen_proof` (position `j` in row `r`), then `validate` recomputes the ancestors.
* C15-C17, C20 proved: induction on the level; hash equality gives equal children or an explicit collision.
* C18 proved: structural analysis of `validate`.
* C19 partial: arity-2 base trees proved; refuted for arity 4 and for compound trees (a height-dependent algorithm distinguishes them). `Props_HeightExact.v` decides every generated proof: base trees validate for every algorithm with two branches or one level, and otherwise only through a collision; each compound layer adds the condition that its roots hash alike with heights 0 and 1.
* C21 partial: base trees proved; compound trees and `VecStore` panic (refuted).
* C22 partial: `DiskStore` proved; `read_range_into` is unimplemented for Vec and Mmap (refuted by
  witness, and `C22_panics*`: every in-range request panics on every base, sub and top tree over them).
* C23 partial: proved up to `default_rows_to_discard`; deeper caches never answer (refuted).
* C24 partial: one exception, characterised exactly and refuted (boundary test `start <= data_width` of version 1 stores). `C24_exact`: the proof returned there has its third entry replaced by the first cached node.
* C25 proved; C26 partial (version 2 and some reopening checks refuted): in-place forward copy with arbitrary piece sizes, stopped after any piece. C26_exact lists the states of the file: the new bytes up to some position, the old ones from there on, or the finished file.
* C27 proved: loop invariant of the level-cache build with front truncation.
* C28 partial: refuted at the boundary index and for ranges crossing it. `C28_exact`: the answer of `read_range` for every pair of bounds.
* C29, C31-C33 proved, C30 partial (arity 2 accepts even lengths), C34 partial (arity 1 loops for ever), C35 partial
  (`from_sub_trees` with `SubTreeArity` 0): arithmetic induction.
* C36, C37 proved: arbitrary operation lists refine a plain array.
* C38 partial (byte-slice constructor refuses existing files), C39 partial (`DiskStore` believes a file of the right length; `C39_exact`: the outcome for every file),
  C40 partial (`VecStore` accepts surplus bytes): constructors over the file model.
* C41-C43 proved, C44 partial (mismatching arity parameters): unfolding of the compound constructors.
* C45 partial: base trees proved, compound refuted; the proof of the base tree inside validates with the data (two and three layers), and which data the outer proof accepts is given exactly (`Props_Exact.v`, `Props_ExactC.v`).
* C46 proved, C47 partial (tuples of strings; `C47_exact`: which types have injective streams): byte stream injectivity.
* C48 proved: induction over the split tree and consumption order.
* C49, C50 proved, C51 partial (`MmapStore::delete` does nothing): file-model invariants over operation sequences.
* C52 partial: 64-bit model in `N`, equal to the `nat` model for every addressable tree; one overflow with checks on.
* C53 partial: C23 with external reader offsets.
* C54 partial: Flocq model of the binary64 computation; one exception (arity 2^21, 2^42 leaves).
* C55 proved as C01 without the leaf hash.
* C56 proved: every way to rebuild a compound tree gives the tree it was made from.
* C57 partial: the failing call creates the file it misses (refuted). C57_exact gives the outcome for every state of the files (DiskStore): only the lengths matter, and the first file that is not of the right length decides. C57_repeat: with k missing files the first k calls fail and call k + 1 returns a tree of zeros in their place.
* C58 partial: `read_range_into` unimplemented for two stores, `is_empty` of compound trees (refuted).
* C59 proved: `reinit` of trees.
* C60 partial: 64-bit addressing; without overflow checks out-of-range indices wrap into the store (refuted). In release mode the behaviour at every index is given exactly for reads and ranges of all three stores and for writes of DiskStore and MmapStore (`Props_AddrExact.v`).
* C61 partial: one exact lemma per proof layer, induction over the nesting; refuted for hand-made layers (unchecked lengths). C61_tamper_exact (`Props_UniqueExact.v`): in an object whose layers have their siblings and a root, replacing one node either leaves the looked-at part alone (and validation succeeds) or makes validation fail, up to collisions.
* C62 partial: after `compact` the object keeps stale sizes; reads, proofs and a second compaction from the exact state it is left in; node indices shift (refuted).
* C63 partial: induction over histories of constructions and deletions (unlinked files stay readable through open handles); `MmapStore::delete` does nothing (refuted).
* C64 partial: the checks compared with the constructors for arbitrary files; `LevelCacheStore::new_from_disk` does not look at the length (refuted).
* C65 proved: simulation between a store whose methods may fail and the plain store; the relation is closed under every combinator of the model.
* C66 partial: same simulation with returned errors only; two kinds of constructor call `expect` (refuted). `C66_exact`: those two `expect` messages are the only panics that appear.
* C67 proved: a frame (set of paths that may change) for every store method, closed under the combinators of the constructors.
* C68 proved: forward simulation between the file system and a map from paths to entries; a case per request and kind of entry.
* C69 proved: a construction with an unsuitable chunk size agrees with one with a suitable chunk size, or returns an error; instantiated at 1024/4096.
* C70 proved: footprints of the workers and their disjointness; the invariant of C05 over single bytes, for unfinished schedules.
* C71 partial: an invariant of the file (each byte zero or the finished tree's) through copies and unfinished schedules; a constructor that finds a file of the right length believes it (refuted: the tree after a kill).
* C72: compaction seen on bytes only; source and target regions are disjoint (or identical, version 1 with nothing dropped), so `firstn target ++ skipn source` of the file is unchanged by a killed copy and a repetition computes it again.
* C73 partial: contents since the sync = contents at the kill points from `sync` on (C71), all of which begin with the leaves; refuted for the nodes, which are written after the last sync. `from_byte_slice_with_config` never syncs. C73_exact (`Props_PowerExact.v`): the files that can be left are exactly those of full length with the leaves in place and every other byte zero or final; C73_believed: what a construction over such a file returns.
* C74 partial: the invariant of C71 relative to the rows already cut off, and one for the copy inside a front truncation (each byte zero, or at its old or new place); the file length decides what the checks say.
* C75: one invariant for a row being written (rows below complete, bytes of that row finished or zero), kept by every single byte of every copy; the constructors of C39 then never trust the file.
* C76 partial: the calls are compared with a two-pointer specification; while a failed read goes on failing, the error flag implies an unreadable index inside the range, so the flag never matters. Refuted for a read that fails only once. `Props_IterExact.v`: the closed form of every run (a range that becomes two unbounded counters at the first failure), correctness of the first hi - lo calls whatever fails, and exactly when it panics.
* C77 partial: a 'field is kept' predicate closed under bind, copies and the byte schedules. Refuted for MmapStore and for the constructor with a reader.
* C78 partial: contents since the start = kill points of C72, mixed byte by byte; with the old length what a repetition needs is intact. Refuted when the truncation is written out before the copied bytes.
* C79 proved for every StoreOps value, with nothing assumed of it: the path of a generated proof depends on the index only, its root is the one the tree carries, so C15 applies. For compound trees the bottom proof is checked first.
* C80 partial: the reads are the reader's answer with the count dropped. Refuted: a reader that reports 0 bytes is believed and the leaves read as zeros (level_cache.rs 718-731, 820-830).
* C81 partial: an error is returned, the file stays repairable (also through the same object, whose recorded length follows the truncation only), version 1 keeps serving the leaves. Refuted: after a failed copy the tree object serves moved bytes as its first nodes without an error. `Props_CompactIoExact.v`: C81_exact says what the file holds and what the object reads at every index after any history of failures; C81_kept_partial: the kept rows read right or are refused; C81_proofs_partial: a proof that validates is right.
* C82 partial: an invariant of all interleavings (one creator, whose progress determines the file; all others read only). Refuted: a process that opens the file after its length is set and before the data are written gets a store of zeros. `C82_alone`: a process on its own is the constructor of `DiskStore.v`. A paused builder looks like a killed one, so what a second process can open later is C71. C82_exact (`Props_OpenRaceExact.v`): at every moment the file is missing, empty, or full-length with a prefix of the creator's data followed by zeros, and every opened store reads exactly those bytes; C82_reads says which elements are then right.
* C83 proved: proof objects of any shape against library trees of any shape. The spec is a tree of nodes (`htree`) whose value is computed with the bytes C46 gives; a proof object is read as an address in it. The collision alternative names the two byte strings. Two side results show the limits: `C83_item_refuted` (validate alone accepts a shorter proof whose item is an inner node) and `C83_unit_layer_refuted` (with a layer of one child, a proof object validates with any data as its outer item).
* C84 proved: the two `Deref` views against the reads and the specified layout. A map whose file was cut by another handle (`C84_mmap_cut`): the view and reads past the cut fault, reads before it return the bytes.
* `Props_Exact.v` closes the cases the partial theorems of C21, C30, C44, C45 and C61 leave out: it says what the code does there for every input, not only at the refuting witness.
* C85 partial: base proofs as the constructor accepts them, and nested proofs whose layers hold exactly siblings and root (as gen_proof returns them). Refuted: the constructor does not check a layer's length and nodes that are not hashed may be anything. `Props_UniqueExact.v` gives the exact freedom: `trim` keeps the base proof and, per layer, the siblings, last node and first position; validation is a function of `trim p` for objects with enough nodes (C85_trim), and two accepted objects of one claim have equal `trim` or exhibit a collision (C85_exact).
* C86 proved: `MRoot` of a slice depends on the slice only; positions of a proof written as (row, sibling) coordinates; the rows of a one-leaf change are compared with the path of that leaf.
* `Props_Sizes.v` does the same for C03 and C10: `C03_mmap_exact` says for which leaf counts the constructors over MmapStore return a tree, an error or panic (three equivalences); `C10_vec`, `C10_disk`, `C10_mmap` say for which pairs of hint and item count the iterator constructors return an error and for which they panic.
* `Props_Rows.v` states the second half of C05 directly: at the end of every schedule prefix, each task that reads now, or has read, has its complete piece of the row below (lock-level steps for Vec and Mmap, byte-level steps for Disk and LevelCache).
* C87 proved: a relational argument. Two stores that give the same answers at the positions in `looked_at` (ReadsFacts.v) run through gen_proof / gen_cached_proof in step; the partial tree is a function of the bytes of the segment. Nothing is assumed about the contents, so errors and panics are covered too.
* C88 partial: the other process is a tree with its own handle on the same inode; the moments are the states of C26_exact. Every read is decided by the bytes there (C88_reads); kept rows are right or errors, version-1 leaves always right; leaves under version 2 and the discarded rows are not (refuted). C88_proofs lets every read fall at a moment of its own.
* C89 proved (Props_Height.v): the climb of validate is compared with the tree from the root down as pairs (height, nodes). A pair that differs while the digests agree is the collision; if there is none, the depth, all siblings and the path are those of gen_proof, and the heights force arity 2 or a single level. No hypothesis of collision freedom is made over all inputs (it could not hold for fixed-length elements); C89_exactly restricts it to the calls at hand, C89_depth to heights below a bound.
* C90 proved (Props_RootLast.v), from the files C71_left, C74_left and C75_left describe: a root that is neither zero nor missing was written by the last row, so all rows below are complete. C90_power_refuted shows that this is no way to tell after a power loss (witness: leaf hashes and root on the disk, the six nodes between zero; the file is one C73_exact allows). A second constructor call over a LevelCacheStore file is not covered (it reads the root at another offset, C74_retry_believes); new_from_disk is.
* C91 proved (Props_Binds.v): the hash trees of C83 with equal values are equal trees or their byte strings clash, by induction on one of them; a tree determines its list of arities. Extends C20 (base trees of one size) to pairs of any shapes and to compound trees. A base tree of arity b over two levels and b trees of b leaves are one shape here and do share their roots (C91_case). C91_verbatim_refuted: without the leaf hash the claim across shapes fails.
* C92 proved (Props_Life.v): C03, C23, C27, C11 and C45 composed into one statement from the data to the verifier's answer; `speaks_for` is the verifier's view of a proof. The condition on the algorithm is C19's (validate counts heights by lemma length), the cap on the discard depth C23's.
* C93 partial (Props_LcPower.v): the power-loss model of C73 over the kill points of C74. The only sync is before the rows are hashed and removed, so nothing of the finished file is certain (refuted); a file of final length that holds leaves instead of the cached rows is a possible outcome and is opened with a leaf as its root (`C93_wrong_cache`). What holds: the length is that after losing some number of rows, every byte is zero or a byte of the tree at one of its places, and files that have not their final length are refused.
* C94 partial (Props_MmPower.v): the same over the kill points of C75 and the finished state. `MmapStore` has the trait's empty `sync` and never flushes its map, so nothing is certain (refuted: an empty file or zeros only are possible after a returned build, `C94_lost`). What holds: the file is empty, or has full length with each byte zero or that of the finished tree; building with items at the path fails, `from_byte_slice_with_config` repairs a file of full length and fails at an empty one; `new_from_disk` believes any file of full length (`C94_open_believes`). That the directory entry itself may be lost (no file at all) is not part of this model.
* C95 proved (ProofEq.v, Props_ProofEq.v): the derived `PartialEq` of `Proof`, field by field. `==` decides equality, so `==` proofs get the same verdict from every verifier; library proofs of one data set are `==` exactly if they are for the same leaf, across stores for base trees and within one compound tree; valid proofs of one shape, path and root are `==` or show a collision.
* C96 proved (Props_Twin.v): the scenario of `test_levelcache_direct_build_from_iter`/`_from_slice` (test_legacy.rs) for all inputs: a complete tree on disk, a level-cache tree of the same leaves at a configuration derived by `from_config`, the file of the former as replica of the latter. Composition of C03, C27, C67.
* C97 proved (Props_Farm.v): the scenario of `test_compound_levelcache_tree_from_store_configs` (test_legacy.rs) for all inputs, two and three layers: level-cache trees built one after another at free paths, opened together over one replica file. C27 and C67 establish the hypothesis `replica_ok` of C53, which C53 states about the files alone.
* C98 partial (LcDebug.v, Props_LcDebug.v): `Debug` of `LevelCacheStore` prints `len` under the name `elem_len` (level_cache.rs 65; refuted, on the store of a tree just built); the other five names have their values, and the text determines these five. Only the one-line form `{:?}` is modelled.
* C99 partial (Props_StoreSize.v): the cached `store_size` equals the size of the file from the constructors on, through any run of the operations of `ArraySpec`, and for every tree built on disk. After `compact` it keeps the size of the full tree while the file is cut (`C99_compact`: at least one element too large when anything was dropped; `C99_push`: `push` then appends behind the root, after which no `is_consistent` takes the file); building with a level cache cuts the base row off the file (`front_truncate`, level_cache.rs 565), so there it is stale at once, by at least the base row (`C99_lc_build`, Props_LcSize.v; refuted for both), and `write_at` then succeeds behind the end of the file (`C99_lc_write`: the file stops being a level-cache file, and a write at the index of the root makes `DiskStore::is_consistent` true).

## 4. Trusted base

* Coq 8.16.1 kernel (including its `vm_compute` conversion, used in the concrete cases).
* The axioms listed in section 5 for the theorems about C54; nothing for the others.
* The reading of the Rust source into the model. Every definition cites its lines; simplifications are stated there and in section 2.
* Modelled: `src/hash.rs`, `src/hash_impl.rs`, `src/proof.rs` (1-236), `src/merkle.rs` (1-2087) and all of `src/store/*.rs`,
  except what follows.
* Not modelled: `Debug` (except of `LevelCacheStore`, C98), `Clone`, `PartialEq` (except of `Proof`, C95) and serde impls, logging, `Vec` capacities and allocation failure, `fsync` (except C73, C78, C93, C94)
  durability, retries of failed I/O calls and distinct failures inside one store method (`Faults.v`), page granularity of maps, other processes changing the files during an operation,
  rayon's thread pool (only the orders of its steps), the tests (`src/test_legacy.rs`, `test` modules, `tests/`, `benches/`), the sha2 dev-dependency.
* `usize` is unbounded in the main model (64-bit size functions: `Machine.v`, C52; addressing: `Addr64.v`, C60); the floating-point row count is exact in the main model
  (C54 says where that is right: everywhere for power-of-two leaf counts except arity 2^21 with 2^42 leaves).
* Preconditions on user code: `ElementLaws` (a lawful `Element`), `AlgLaws` (`reset` gives the default state), `ln_spec` (the platform's
  `f64::ln` is correctly rounded; C54 only).

## 5. Print Assumptions

Each `Props_*.v` file ends its theorems with `Print Assumptions`. The outcome:

* every theorem named in `MANIFEST.json` except those of C54: *Closed under the global context*;
* `C54_partial`, `C54_pow2_partial`, `C54_refuted`, `C54_arities`, `C54_model_partial`, `C54_other_leafs`, `C54_special`:
  `ClassicalDedekindReals.sig_forall_dec`, `ClassicalDedekindReals.sig_not_dec`,
  `FunctionalExtensionality.functional_extensionality_dep`, `Classical_Prop.classic` (standard library, from the reals and Flocq).

`coqchk` over the whole development additionally lists, because Flocq and the reals are loaded, the standard library's
opaque module parameters `Coq.Reals.Rdefinitions.RbaseSymbolsImpl.*` and `Coq.ssr.ssrunder.Under_rel.*`; no theorem depends on them as axioms
beyond the list above.
