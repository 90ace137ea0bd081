{
 "claims": [
  {
   "property": "C01",
   "status": "proved",
   "theorems": [
    "C01_root",
    "C01_new"
   ],
   "note": "All eight populating constructors over Vec, Disk and Mmap stores (with_config variants on a fresh path), any lawful algorithm, any schedule and size constants."
  },
  {
   "property": "C02",
   "status": "proved",
   "theorems": [
    "C02_layout"
   ],
   "note": ""
  },
  {
   "property": "C03",
   "status": "partial",
   "theorems": [
    "C03_exact_partial",
    "C03_vec_disk",
    "C03_mmap_exact",
    "C03_bad_arity",
    "C03_full_refuted"
   ],
   "note": "The claim holds as stated for Vec and Disk. MmapStore panics instead of returning an error exactly for n = m*b^q, 1<m<b, m a power of two, n at most the small-tree threshold (C03_mmap_exact: equivalences for Ok, Err and Panic; witness: 8 leaves, arity 4)."
  },
  {
   "property": "C04",
   "status": "proved",
   "theorems": [
    "C04_stores_agree",
    "C04_level_cache"
   ],
   "note": "Vec, Disk and Mmap stores: the trees agree on every observation. LevelCacheStore (constructors with config at a fresh path): same root, leafs, len, row_count whenever it succeeds, and it fails only when no row would be left to cache."
  },
  {
   "property": "C05",
   "status": "proved",
   "theorems": [
    "C05_schedule_independent",
    "C05_locked_rows",
    "C05_mapped_rows"
   ],
   "note": "Same tree for every schedule (C05_schedule_independent). No task observes a partially written row: C05_locked_rows (Vec, Mmap: atomic reads and writes under the lock) and C05_mapped_rows (Disk, LevelCache: single bytes through the map) hold at every point of every interleaving."
  },
  {
   "property": "C06",
   "status": "proved",
   "theorems": [
    "C06_par_equals_seq",
    "C06_par_equals_seq_config"
   ],
   "note": ""
  },
  {
   "property": "C07",
   "status": "proved",
   "theorems": [
    "C07_algorithms_agree"
   ],
   "note": ""
  },
  {
   "property": "C08",
   "status": "proved",
   "theorems": [
    "C08_populate"
   ],
   "note": ""
  },
  {
   "property": "C09",
   "status": "partial",
   "theorems": [
    "C09_first_error_partial",
    "C09_no_tree",
    "C09_config_panics",
    "C09_full_refuted"
   ],
   "note": "try_from_iter returns the first error; try_from_iter_with_config panics (populate_data(..).expect(..))."
  },
  {
   "property": "C10",
   "status": "partial",
   "theorems": [
    "C10_lying_hint_partial",
    "C10_vec",
    "C10_disk",
    "C10_mmap",
    "C10_no_hint",
    "C10_full_refuted"
   ],
   "note": "Never a tree. Error value for Vec always and for Disk with try_from_iter. Exact outcome for all pairs of hint and item count: try_from_iter_with_config over Disk and both constructors over Mmap panic exactly if the hint is an accepted leaf count and the items exceed the store made for it; error otherwise."
  },
  {
   "property": "C11",
   "status": "proved",
   "theorems": [
    "C11_proofs_validate"
   ],
   "note": "All constructors of type builder over Vec, Disk and Mmap stores."
  },
  {
   "property": "C12",
   "status": "proved",
   "theorems": [
    "C12_complete"
   ],
   "note": "Compound trees over base trees built by any constructor of the Vec, Disk and Mmap stores."
  },
  {
   "property": "C13",
   "status": "proved",
   "theorems": [
    "C13_complete_nested",
    "C13_complete_flat"
   ],
   "note": "Both three-layer constructors."
  },
  {
   "property": "C14",
   "status": "proved",
   "theorems": [
    "C14_base",
    "C14_sub",
    "C14_top"
   ],
   "note": "Base, two- and three-layer trees."
  },
  {
   "property": "C15",
   "status": "proved",
   "theorems": [
    "C15_sound",
    "C15_sound_witness"
   ],
   "note": ""
  },
  {
   "property": "C16",
   "status": "proved",
   "theorems": [
    "C16_sound_sub",
    "C16_sound_top"
   ],
   "note": "The collision is exhibited: nodes hashed by validate against nodes of the tree."
  },
  {
   "property": "C17",
   "status": "proved",
   "theorems": [
    "C17_tamper"
   ],
   "note": ""
  },
  {
   "property": "C18",
   "status": "proved",
   "theorems": [
    "C18_total",
    "C18_bad_child_index"
   ],
   "note": ""
  },
  {
   "property": "C19",
   "status": "partial",
   "theorems": [
    "C19_binary_partial",
    "C19_heights",
    "C19_full_refuted",
    "C19_compound_refuted",
    "C19_base_exact",
    "C19_sub_exact",
    "C19_top_exact"
   ],
   "note": "False in the code: validate uses height m*(b-1) where the builder uses m, and 0 where from_trees uses 1. Proved for arity 2 base trees; refuted in general and for compound trees. The *_exact theorems give the outcome of validate on every generated proof, for every algorithm."
  },
  {
   "property": "C20",
   "status": "proved",
   "theorems": [
    "C20_root_binds"
   ],
   "note": ""
  },
  {
   "property": "C21",
   "status": "partial",
   "theorems": [
    "C21_base_proofs",
    "C21_compound_cached",
    "C21_zero_arity",
    "C21_read_at",
    "C21_full_refuted",
    "C21_compound_refuted",
    "C21_compound_panics",
    "C21_vec_panics"
   ],
   "note": "Errors proved for base gen_proof / gen_cached_proof, compound trees asked through arity 0, and file-backed read_at; refuted: VecStore::read_at and compound gen_proof / read_at panic. C21_compound_panics, C21_vec_panics: the panics are for every out-of-range index."
  },
  {
   "property": "C22",
   "status": "partial",
   "theorems": [
    "C22_disk_partial",
    "C22_disk_sub_partial",
    "C22_disk_top_partial",
    "C22_refuted",
    "C22_panics",
    "C22_panics_sub",
    "C22_panics_top"
   ],
   "note": "Proved for every tree over a DiskStore (base, two- and three-layer), every index and every rows value. False for VecStore and MmapStore: read_range_into is unimplemented!() there and gen_cached_proof panics (C22_refuted). Level-cache stores are C23. C22_panics*: over those two stores every in-range request panics, for base, two- and three-layer trees."
  },
  {
   "property": "C23",
   "status": "partial",
   "theorems": [
    "C23_opens",
    "C23_reader",
    "C23_partial",
    "C23_refuted"
   ],
   "note": "Proved for every tree, both formats and every discard depth up to default_rows_to_discard. For deeper compaction (admitted by compact) gen_cached_proof caps its argument and every request fails (C23_refuted, with a 512-leaf instance C23_refuted_case)."
  },
  {
   "property": "C24",
   "status": "partial",
   "theorems": [
    "C24_partial",
    "C24_refuted",
    "C24_exact"
   ],
   "note": "Proved for every reopened store, index and rows value with one exception, which is shown to give an invalid proof (C24_refuted): version 1, arity 2, one row discarded, rows = Some 0, leaf 2 or 3. The theorem gives equality with the original proof, which validates by C11. C24_exact: in the exception the proof handed out is the original one with its third entry replaced by the first cached node."
  },
  {
   "property": "C25",
   "status": "proved",
   "theorems": [
    "C25_compact",
    "C25_refused"
   ],
   "note": "Any version number, any chunking of io::copy."
  },
  {
   "property": "C26",
   "status": "partial",
   "theorems": [
    "C26_leaves_v1_partial",
    "C26_detected_partial",
    "C26_stopped_late",
    "C26_refuted",
    "C26_exact"
   ],
   "note": "Stop at any point of the copy. Version 1 keeps the leaves, and the level-cache checks (is_consistent_v1, is_consistent, new_from_disk_with_reader) accept only the completed file. False otherwise (C26_refuted): version 2 overwrites leaves, and DiskStore::is_consistent/new_from_disk and LevelCacheStore::new_from_disk accept a half-compacted file. C26_exact: the states of the file are exactly the new bytes up to a position and the old ones from there on, and the finished file."
  },
  {
   "property": "C27",
   "status": "proved",
   "theorems": [
    "C27_build",
    "C27_as_compacted",
    "C27_proofs"
   ],
   "note": "All four constructors that take a config, at a path without a file. C27_proofs: with a reader over the leaves the tree also yields the proofs of the full tree."
  },
  {
   "property": "C28",
   "status": "partial",
   "theorems": [
    "C28_ranges_partial",
    "C28_elements_partial",
    "C28_refuted",
    "C28_exact"
   ],
   "note": "Proved for reads of kept positions, reads starting inside discarded rows and reads beyond the end; with an external reader single-element reads are exact. False for version 1 at the first discarded index, and for ranges running from the leaves into discarded rows (C28_refuted). C28_exact gives the answer of read_range for every pair of bounds: refused, panic (backwards), cached rows, leaves followed by cached rows (version 1), or whatever the external reader delivers."
  },
  {
   "property": "C29",
   "status": "proved",
   "theorems": [
    "C29_tree_len",
    "C29_tree_len_errors"
   ],
   "note": ""
  },
  {
   "property": "C30",
   "status": "partial",
   "theorems": [
    "C30_leafs_inverse_partial",
    "C30_leafs_of_len",
    "C30_full_refuted",
    "C30_arity2"
   ],
   "note": "The code accepts even lengths for arity 2, so the full statement is refuted with a witness. C30_arity2: exactly which lengths are accepted for arity 2."
  },
  {
   "property": "C31",
   "status": "proved",
   "theorems": [
    "C31_cache_size",
    "C31_cache_size_errors"
   ],
   "note": ""
  },
  {
   "property": "C32",
   "status": "proved",
   "theorems": [
    "C32_row_count"
   ],
   "note": ""
  },
  {
   "property": "C33",
   "status": "proved",
   "theorems": [
    "C33_default_rows"
   ],
   "note": ""
  },
  {
   "property": "C34",
   "status": "partial",
   "theorems": [
    "C34_size_valid_partial",
    "C34_arity1_refuted",
    "C34_arity1_exact",
    "C34_full_refuted"
   ],
   "note": "Arity 1 makes the code loop forever, so totality is refuted; proved for every other arity. C34_arity1_exact: what arity 1 does for every n."
  },
  {
   "property": "C35",
   "status": "partial",
   "theorems": [
    "C35_base",
    "C35_sub",
    "C35_top",
    "C35_top_over_base_exact",
    "C35_full_refuted"
   ],
   "note": "Proved for base, two- and three-layer trees; refuted for from_sub_trees with SubTreeArity 0, where the two lengths never agree (C35_top_over_base_exact)."
  },
  {
   "property": "C36",
   "status": "proved",
   "theorems": [
    "C36_spec_put",
    "C36_vec",
    "C36_disk",
    "C36_mmap",
    "C36_level_cache",
    "C36_level_cache_new"
   ],
   "note": "Sequences of write_at/copy_from_slice/push simulate a plain array from every constructor. LevelCache made with a config is read through the internal reader, as the property says; C36_level_cache_new covers the config-less constructor."
  },
  {
   "property": "C37",
   "status": "proved",
   "theorems": [
    "C37_disk_write",
    "C37_level_cache_write",
    "C37_mmap_write",
    "C37_disk_read",
    "C37_mmap_read",
    "C37_level_cache_read",
    "C37_vec_read",
    "C37_oversized_buffer_refuted"
   ],
   "note": "All histories. Extra finding: read_into/read_range_into of Disk and LevelCache fill the whole buffer, so an oversized buffer receives bytes behind the requested range (C37_oversized_buffer_refuted); the range itself is always inside len()."
  },
  {
   "property": "C38",
   "status": "partial",
   "theorems": [
    "C38_reopen",
    "C38_again_partial",
    "C38_bytes_refuted",
    "C38_again_refuted"
   ],
   "note": "new_from_disk + from_data_store: proved for both stores. Calling the same with_config constructor again on a DiskStore: proved for all constructors except from_byte_slice_with_config, which the code makes fail on any existing file (C38_bytes_refuted, C38_again_refuted)."
  },
  {
   "property": "C39",
   "status": "partial",
   "theorems": [
    "C39_mmap_partial",
    "C39_bytes_partial",
    "C39_size_partial",
    "C39_exact",
    "C39_right_root",
    "C39_refuted"
   ],
   "note": "False for DiskStore: new_with_config gives the file its full length before any data is written, and a file of that length is believed (C39_refuted). Proved: MmapStore (any file contents), the DiskStore byte-slice constructor (any file contents), and for the other DiskStore constructors the exact outcome for every file: refused, or taken for the tree with its last element as root (C39_exact), so the root is right just when the file ends in it (C39_right_root)."
  },
  {
   "property": "C40",
   "status": "partial",
   "theorems": [
    "C40_roundtrip",
    "C40_roundtrip_config",
    "C40_equal_store",
    "C40_reject_files_partial",
    "C40_reject_partial",
    "C40_tail_refuted",
    "C40_reject_refuted"
   ],
   "note": "Round trips proved in full. Rejection proved in full for DiskStore and MmapStore; VecStore accepts up to byte_len - 1 surplus bytes (C40_tail_refuted, C40_reject_refuted), and nothing worse (C40_reject_partial)."
  },
  {
   "property": "C41",
   "status": "proved",
   "theorems": [
    "C41_sub",
    "C41_top",
    "C41_rejected"
   ],
   "note": ""
  },
  {
   "property": "C42",
   "status": "proved",
   "theorems": [
    "C42_flat_nested",
    "C42_wrong_count"
   ],
   "note": ""
  },
  {
   "property": "C43",
   "status": "proved",
   "theorems": [
    "C43_sub",
    "C43_top",
    "C43_top_flat"
   ],
   "note": ""
  },
  {
   "property": "C44",
   "status": "partial",
   "theorems": [
    "C44_consistent_partial",
    "C44_full_refuted",
    "C44_from_trees_exact",
    "C44_top_over_base_exact"
   ],
   "note": "False in the code for inconsistent arity type parameters (from_trees with TopTreeArity > 0); proved for consistent ones. C44_from_trees_exact, C44_top_over_base_exact: what happens for every inconsistent pair of arities."
  },
  {
   "property": "C45",
   "status": "partial",
   "theorems": [
    "C45_base",
    "C45_innermost_partial",
    "C45_three_partial",
    "C45_compound_refuted",
    "C45_compound_item",
    "C45_three_item"
   ],
   "note": "Proved for base trees; for compound trees item() is a sibling root, so validate_with_data returns Ok(false) (refuted); the innermost proof does validate with the data, for two and three layers. C45_compound_item and C45_three_item: which data the outer proof accepts."
  },
  {
   "property": "C46",
   "status": "proved",
   "theorems": [
    "C46_streams",
    "C46_separation",
    "C46_cross_collision"
   ],
   "note": ""
  },
  {
   "property": "C47",
   "status": "partial",
   "theorems": [
    "C47_streams",
    "C47_writes",
    "C47_int_bytes",
    "C47_injective_partial",
    "C47_exact",
    "C47_collisions",
    "C47_full_refuted"
   ],
   "note": "The streams are the documented ones and fixed-width integers are injective. The last clause is false for some types, e.g. (String, String) (C47_full_refuted). C47_exact decides it for every type: streams are injective exactly when tuples have at most one component of variable size and slice elements have a fixed non-zero size; C47_collisions gives colliding values for all other types."
  },
  {
   "property": "C48",
   "status": "proved",
   "theorems": [
    "C48_iteration",
    "C48_built"
   ],
   "note": ""
  },
  {
   "property": "C49",
   "status": "proved",
   "theorems": [
    "C49_sequences",
    "C49_round_trip"
   ],
   "note": "Arbitrary sequences of updates, compact and reinit against an abstract mapped/unmapped array."
  },
  {
   "property": "C50",
   "status": "proved",
   "theorems": [
    "C50_disk_writes",
    "C50_level_cache_writes",
    "C50_disk_reads",
    "C50_level_cache_reads",
    "C50_level_cache_reader_reads",
    "C50_mmap_panics"
   ],
   "note": "For arbitrary operation sequences (write_at, copy_from_slice, push, compact, build, reinit, sync) the file system is unchanged and every operation that would write fails. A zero-length copy_from_slice succeeds without touching the file. MmapStore panics when asked to open a read-only file."
  },
  {
   "property": "C51",
   "status": "partial",
   "theorems": [
    "C51_disk",
    "C51_mmap",
    "C51_level_cache",
    "C51_disk_delete",
    "C51_level_cache_delete",
    "C51_mmap_delete_refuted",
    "C51_paths"
   ],
   "note": "Proved for Disk and LevelCache and, except for delete, for Mmap. MmapStore::delete is a no-op returning Ok, so the delete clause is false for Mmap (C51_mmap_delete_refuted)."
  },
  {
   "property": "C52",
   "status": "partial",
   "theorems": [
    "C52_operations",
    "C52_wrapping",
    "C52_no_overflow_partial",
    "C52_no_overflow_wide",
    "C52_refuted",
    "C52_len",
    "C52_size_valid",
    "C52_row_count",
    "C52_compound",
    "C52_leafs",
    "C52_leafs_endless"
   ],
   "note": "64-bit model of every size function (Machine.v, wrapping and overflow-checked modes). Wrapping: the unbounded value for every full tree whose bytes are addressable. With overflow checks: the same, no overflow, for every such tree except the binary tree with 2^63 one-byte leaves, where 2*leafs and leafs*branches overflow (C52_refuted). Also agreement on arbitrary inputs, and get_merkle_tree_leafs looping for ever on some huge invalid lengths (C52_leafs_endless)."
  },
  {
   "property": "C53",
   "status": "partial",
   "theorems": [
    "C53_sub_partial",
    "C53_top_partial",
    "C53_mismatch",
    "C53_refuted"
   ],
   "note": "Shape, root, leaf reads and cached proofs equal those of the full compound tree for any number of trees, offsets, sizes and discard depths up to default_rows_to_discard. Deeper caches give no cached proof at all (C53_refuted, the cap already seen in C23)."
  },
  {
   "property": "C54",
   "status": "partial",
   "theorems": [
    "C54_partial",
    "C54_pow2_partial",
    "C54_refuted",
    "C54_arities",
    "C54_model_partial",
    "C54_other_leafs",
    "C54_special"
   ],
   "note": "Flocq binary64, any ln meeting ln_spec (correct rounding; ln_cr shows one exists). True for every power-of-two leaf count and arity below 2^64 except arity 2^21 with 2^42 leaves, where the quotient of the rounded logarithms is just below 3 and the result is 2 (C54_refuted). No exception for arities up to 2^20 (C54_arities). Uses the standard library axioms of the classical reals."
  },
  {
   "property": "C55",
   "status": "proved",
   "theorems": [
    "C55_byte_slice",
    "C55_same_as_new",
    "C55_bad_length"
   ],
   "note": ""
  },
  {
   "property": "C56",
   "status": "proved",
   "theorems": [
    "C56_slices",
    "C56_slices_configs",
    "C56_stores",
    "C56_store_configs",
    "C56_sub_tree_store_configs",
    "C56_reopen",
    "C56_count"
   ],
   "note": "Sources over Vec, Disk and Mmap stores; targets over any of the three (slices), any store showing the elements (stores), Disk and Mmap files (configs)."
  },
  {
   "property": "C57",
   "status": "partial",
   "theorems": [
    "C57_partial",
    "C57_refuted",
    "C57_exact",
    "C57_repeat"
   ],
   "note": "The first half is C57_partial. The second half is false: the failing call creates the missing file at full length (zeros), so repeating the call returns a tree of zero bytes (C57_refuted). C57_exact states the outcome for every state of the files (DiskStore), C57_repeat that k missing files cost exactly k failing calls."
  },
  {
   "property": "C58",
   "status": "partial",
   "theorems": [
    "C58_read_into",
    "C58_read_range_into_partial",
    "C58_compound",
    "C58_refuted",
    "C58_unimplemented",
    "C58_is_empty_refuted"
   ],
   "note": "read_into is proved for the three stores (one-element buffers), read_range_into for DiskStore. Vec and Mmap stores panic in read_range_into (unimplemented!), and is_empty is true for every compound tree."
  },
  {
   "property": "C59",
   "status": "proved",
   "theorems": [
    "C59_mmap",
    "C59_others"
   ],
   "note": "Vec, Disk and level-cache stores: reinit is the identity."
  },
  {
   "property": "C60",
   "status": "partial",
   "theorems": [
    "C60_disk_partial",
    "C60_mmap_partial",
    "C60_level_cache_partial",
    "C60_checked_partial",
    "C60_wrapped",
    "C60_wrapped_mmap",
    "C60_wrapped_level_cache",
    "C60_wrapped_range",
    "C60_wrapped_write",
    "C60_bytes_partial",
    "C60_refuted",
    "C60_tree_refuted",
    "C60_write_refuted",
    "C60_write_check_refuted"
   ],
   "note": "Accesses whose byte address is below 2^64 (all in-bounds ones) equal the main model in both modes; with overflow checks every other read panics. False without them: byte addresses wrap, so any DiskStore with two or more elements of two or more bytes serves some index beyond its end (2^59 reads leaf 0 for 32-byte elements), and a write there overwrites element 0; the last index of the address space passes the capacity check of DiskStore::write_at for every capacity. One-byte elements are safe. C60_wrapped* give the release-mode outcome at every index exactly: element reads and ranges of DiskStore, MmapStore and LevelCacheStore, writes of DiskStore and MmapStore."
  },
  {
   "property": "C61",
   "status": "partial",
   "theorems": [
    "C61_layer",
    "C61_total_partial",
    "C61_tamper_partial",
    "C61_generated",
    "C61_library",
    "C61_panics",
    "C61_ignored",
    "C61_total_refuted",
    "C61_tamper_refuted",
    "C61_layers_exact",
    "C61_tamper_exact"
   ],
   "note": "Holds for proofs whose layers have the lengths gen_proof produces (so for all proofs of library trees). False for everything Proof::new accepts: it checks nothing about compound layers; an empty path or too few siblings make validate panic, and nodes between the siblings and the root are ignored. C61_layers_exact: the outcome of validate for every layer whatever is in it. C61_tamper_exact: replacing a node succeeds exactly for nodes validation does not look at."
  },
  {
   "property": "C62",
   "status": "partial",
   "theorems": [
    "C62_reads",
    "C62_leaves_partial",
    "C62_no_proofs",
    "C62_again",
    "C62_nothing_dropped",
    "C62_refuted"
   ],
   "note": "Root and sizes kept, every index characterised, no proofs and no second compaction once something was dropped, all proved. The node part is false: with version 2 leaf indices (with version 1 inner indices) read as nodes of upper rows (C62_refuted)."
  },
  {
   "property": "C63",
   "status": "partial",
   "theorems": [
    "C63_disk_removes",
    "C63_level_cache_removes",
    "C63_gone",
    "C63_rebuild",
    "C63_rebuild_level_cache",
    "C63_alive",
    "C63_mmap_refuted"
   ],
   "note": "Everything proved for DiskStore and LevelCacheStore, C63_alive also for VecStore and MmapStore (file handles stay valid after unlinking, as on Unix). False for MmapStore, whose delete leaves the file and so keeps the configuration occupied (C63_mmap_refuted)."
  },
  {
   "property": "C64",
   "status": "partial",
   "theorems": [
    "C64_disk",
    "C64_reader",
    "C64_v1_partial",
    "C64_v1_refuted",
    "C64_built",
    "C64_compacted",
    "C64_exclusive"
   ],
   "note": "Equivalence proved for DiskStore and for the reader variant; for version 1 only one direction: LevelCacheStore::new_from_disk opens files of every length (C64_v1_refuted). Kinds of built and compacted files and exclusiveness proved."
  },
  {
   "property": "C65",
   "status": "proved",
   "theorems": [
    "C65_construct",
    "C65_no_faults",
    "C65_tree",
    "C65_access",
    "C65_proof"
   ],
   "note": "All constructors that go through a store, on all four stores, with an adversarial oracle that may fail any store call; C65_no_faults shows the failing stores are the plain stores when the oracle never fires."
  },
  {
   "property": "C66",
   "status": "partial",
   "theorems": [
    "C66_returned_partial",
    "C66_no_panic_partial",
    "C66_access",
    "C66_exact",
    "C66_create_panics",
    "C66_create_returned",
    "C66_refuted"
   ],
   "note": "Holds for every constructor except those calling expect; try_from_iter_with_config (also new_with_config, from_data_with_config) and from_par_iter panic on an I/O error (refuted). C66_exact: for every constructor the result is that of a run without failures, an error, or the panic of its one expect; C66_create_panics shows it for every store."
  },
  {
   "property": "C67",
   "status": "proved",
   "theorems": [
    "C67_disk",
    "C67_mmap",
    "C67_level_cache",
    "C67_vec",
    "C67_replica",
    "C67_names",
    "C67_from_config",
    "C67_derived"
   ],
   "note": "All nine constructors with configurations, any input and any outcome, for the four stores; replica constructors change nothing. Different ids in one directory name different files; an id with a slash can name a file of another directory (C67_slash)."
  },
  {
   "property": "C68",
   "status": "proved",
   "theorems": [
    "C68_step",
    "C68_history",
    "C68_undisturbed",
    "C68_compacted"
   ],
   "note": "refinement: the file system is described by a map from paths to entries before and after every session. Sessions run one after the other (no two programs at once); what a file nobody described holds (Raw, Unknown) is left open by the specification, and a file truncated by compaction version other than 1 may be opened as a complete tree of fewer leaves, with the same root."
  },
  {
   "property": "C69",
   "status": "proved",
   "theorems": [
    "C69_any_chunk",
    "C69_root",
    "C69_refused",
    "C69_refused_disk",
    "C69_refused_level_cache",
    "C69_crate",
    "C69_element"
   ],
   "note": "C69_any_chunk removes the hypothesis on the chunk size (chunk_ok) from all theorems about trees that were built. MmapStore may panic instead of returning an error for leaf counts that are no power of the arity (C03)."
  },
  {
   "property": "C70",
   "status": "proved",
   "theorems": [
    "C70_race_free",
    "C70_no_torn_reads"
   ],
   "note": "read_footprint, read_length, write_length, write_footprint tie the sets to the steps of the model; C70_case is a run stopped with one worker reading and one writing."
  },
  {
   "property": "C71",
   "status": "partial",
   "theorems": [
    "C71_left",
    "C71_create_retry_partial",
    "C71_bytes_retry_partial",
    "C71_retry_believes",
    "C71_recover",
    "C71_retry_refuted"
   ],
   "note": "C71_left: what is left, for every kill point. C71_recover: delete, then build. The claim about a later construction (C71_retry_full) is false in the code: a file of the right length is believed (C71_retry_believes says exactly what is returned; C71_retry_refuted has the witness). What holds of it: the empty file is refused (C71_create_retry_partial) and from_byte_slice_with_config refuses every file (C71_bytes_retry_partial)."
  },
  {
   "property": "C72",
   "status": "proved",
   "theorems": [
    "C72_repeat",
    "C72_other_version"
   ],
   "note": "Kill after any piece of the copy with arbitrary piece sizes (so after any byte) or after the truncation; repeated any number of times. C72_other_version: switching from version 2 to version 1 in between loses the leaves."
  },
  {
   "property": "C73",
   "status": "partial",
   "theorems": [
    "C73_synced",
    "C73_leaves_partial",
    "C73_reopen_partial",
    "C73_exact",
    "C73_believed",
    "C73_refuted",
    "C73_bytes_never_syncs"
   ],
   "note": "False as stated: the only sync is after the leaves, so nodes and root may be lost although the build returned Ok, and the reopened file is believed (C73_refuted); the leaves and the file length survive (C73_leaves_partial). C73_exact: the set of files that can be left, as an equivalence. from_byte_slice_with_config never syncs."
  },
  {
   "property": "C74",
   "status": "partial",
   "theorems": [
    "C74_left",
    "C74_consistent",
    "C74_open",
    "C74_only_root",
    "C74_retry_partial",
    "C74_bytes_retry_partial",
    "C74_retry_believes",
    "C74_open_believes",
    "C74_recover",
    "C74_retry_refuted",
    "C74_detect_refuted"
   ],
   "note": "C74_left: what is left, for every kill point. C74_consistent, C74_open: exactly which kill points is_consistent and the opening constructor notice; one kind is accepted (a row above the discarded ones was being hashed), so the detection claim (C74_detect_full) is false in the code: C74_open_believes says what is then read, C74_detect_refuted has the witness; C74_only_root: no kill point is accepted when all rows below the root are discarded. The claim about a later construction (C74_retry_full) is false too (C74_retry_refuted; C74_retry_believes says exactly what is returned). What holds of it: once the leaves are cut off, or with the empty file, the call is refused and changes nothing (C74_retry_partial), and from_byte_slice_with_config refuses every file (C74_bytes_retry_partial). C74_recover: delete, then build."
  },
  {
   "property": "C75",
   "status": "proved",
   "theorems": [
    "C75_left",
    "C75_killed",
    "C75_retry",
    "C75_items_retry",
    "C75_bytes_repair",
    "C75_open_believes",
    "C75_delete_keeps"
   ],
   "note": "C75_left: what is left, for every kill point. C75_retry: no later with_config construction returns anything but the tree of its data. C75_items_retry: the constructors taking items never succeed there; C75_bytes_repair: from_byte_slice_with_config does, and repairs the file, unless the file has no size yet. C75_open_believes: new_from_disk with from_data_store shows the unfinished file. C75_delete_keeps: MmapStore::delete does not remove it."
  },
  {
   "property": "C76",
   "status": "partial",
   "theorems": [
    "C76_stable_partial",
    "C76_first_partial",
    "C76_enough_partial",
    "C76_exact",
    "C76_panic_exact",
    "C76_outside",
    "C76_panics",
    "C76_refuted",
    "C76_enough_sharp_refuted"
   ],
   "note": "Proved when a read that failed goes on failing, for every order of calls and every pattern of unreadable elements (C76_stable_partial), up to and including the first failing call however reads change (C76_first_partial), and for as many calls as the range has elements whatever fails and when (C76_enough_partial). Refuted in general: after a read that failed once (the file was cut and restored), is_done is false for ever, so the iterator runs past its range into the other half (C76_outside) or subtracts below 0 (C76_panics). C76_exact gives the answers of every run, C76_panic_exact exactly when it panics."
  },
  {
   "property": "C77",
   "status": "partial",
   "theorems": [
    "C77_disk_partial",
    "C77_lc_partial",
    "C77_mmap",
    "C77_reader",
    "C77_refuted"
   ],
   "note": "Proved for DiskStore and for the Store constructors of LevelCacheStore. Refuted for MmapStore, which always answers false (C77_mmap), and for LevelCacheStore::new_from_disk_with_reader, which sets the flag to false (C77_reader)."
  },
  {
   "property": "C78",
   "status": "partial",
   "theorems": [
    "C78_left",
    "C78_repeat_partial",
    "C78_returned_partial",
    "C78_wrong_cache",
    "C78_refuted"
   ],
   "note": "C78_left: the file has its old or new length and each byte is the old or the new one. With the old length a repetition finishes the compaction (C78_repeat_partial), and nothing is lost after compact has returned (C78_returned_partial). Refuted otherwise: compact syncs only after the truncation, so the truncation may survive without the copied bytes; the rows are lost and LevelCacheStore opens the file with a wrong root (C78_wrong_cache)."
  },
  {
   "property": "C79",
   "status": "proved",
   "theorems": [
    "C79_proofs",
    "C79_opened",
    "C79_opened_compound",
    "C79_roots"
   ],
   "note": ""
  },
  {
   "property": "C80",
   "status": "partial",
   "theorems": [
    "C80_reads_partial",
    "C80_proofs_partial",
    "C80_refuted"
   ],
   "note": "Errors of the reader are returned. False for short reads: the byte count returned by the callback is not looked at; a reader that reports 0 bytes makes every leaf read as zeros."
  },
  {
   "property": "C81",
   "status": "partial",
   "theorems": [
    "C81_error_partial",
    "C81_retry_partial",
    "C81_leaves_partial",
    "C81_exact",
    "C81_kept_partial",
    "C81_proofs_partial",
    "C81_refuted"
   ],
   "note": "Errors are reported and the compaction can be repeated on the same object or a reopened one; version 1 keeps serving the leaves. The clause that the object answers as before is false in the code (C81_refuted): after a failed copy it serves moved bytes. C81_exact gives its answer at every index after every history; the kept rows read right or are refused, and a proof that validates is right."
  },
  {
   "property": "C82",
   "status": "partial",
   "theorems": [
    "C82_alone",
    "C82_one_partial",
    "C82_unique_partial",
    "C82_others_partial",
    "C82_existing_partial",
    "C82_ends_partial",
    "C82_refuted",
    "C82_exact",
    "C82_reads"
   ],
   "note": "All clauses but one are proved for every interleaving. That an opened store holds the creator's data is false (C82_refuted): the file is visible with its full length before the data are written. C82_exact states what is there and what is read at every moment of every interleaving, C82_reads which elements are then right."
  },
  {
   "property": "C83",
   "status": "proved",
   "theorems": [
    "C83_node",
    "C83_data",
    "C83_outer",
    "C83_item_refuted",
    "C83_unit_layer_refuted"
   ],
   "note": "For algorithms keeping the default leaf/node/multi_node over a streaming hasher. The refuted side statements show what does not hold: validate alone does not make the item a leaf (shorter proofs), and layers with a single child do not bind the outer item."
  },
  {
   "property": "C84",
   "status": "proved",
   "theorems": [
    "C84_vec_reads",
    "C84_vec_tree",
    "C84_mmap_unmapped",
    "C84_mmap_reads",
    "C84_mmap_tree",
    "C84_mmap_cut"
   ],
   "note": ""
  },
  {
   "property": "C85",
   "status": "partial",
   "theorems": [
    "C85_base",
    "C85_partial",
    "C85_library",
    "C85_refuted",
    "C85_exact",
    "C85_trim"
   ],
   "note": "Full for base proofs and for nested proofs with exact layers (all that gen_proof returns). False for nested objects with extra nodes in a layer: witness in C85_refuted. C85_exact and C85_trim: for every accepted object, which parts are determined and that validation looks at nothing else."
  },
  {
   "property": "C86",
   "status": "proved",
   "theorems": [
    "C86_node",
    "C86_outside",
    "C86_path",
    "C86_own",
    "C86_other"
   ],
   "note": "Base trees of the three general-purpose stores, all constructors."
  },
  {
   "property": "C87",
   "status": "proved",
   "theorems": [
    "C87_full",
    "C87_cached",
    "C87_reader",
    "C87_segment",
    "C87_count",
    "C87_children"
   ],
   "note": "C87_full and C87_cached are relational and hold for any store contents; C87_reader and C87_segment are the level-cache cases."
  },
  {
   "property": "C88",
   "status": "partial",
   "theorems": [
    "C88_opened",
    "C88_reads",
    "C88_kept_partial",
    "C88_leaves_partial",
    "C88_proofs",
    "C88_refuted",
    "C88_refuted_v1"
   ],
   "note": "Kept rows read right or as errors, version-1 leaves always right, validating proofs are right whatever moments the reads fall at. False for the leaves while version 2 runs and for the discarded rows: they read as other nodes without an error (C88_refuted, C88_refuted_v1)."
  },
  {
   "property": "C89",
   "status": "proved",
   "theorems": [
    "C89_pinned",
    "C89_exactly",
    "C89_depth",
    "C89_wide"
   ],
   "note": "Base trees, every arity, depth and proof object made by Proof::new."
  },
  {
   "property": "C90",
   "status": "proved",
   "theorems": [
    "C90_disk",
    "C90_level_cache",
    "C90_mmap",
    "C90_power_refuted"
   ],
   "note": "All kill points of the three file-backed builds; C90_power_refuted is the contrast: the same check does not suffice after a power loss."
  },
  {
   "property": "C91",
   "status": "proved",
   "theorems": [
    "C91_elements",
    "C91_determined",
    "C91_data",
    "C91_same_shape",
    "C91_verbatim_refuted"
   ],
   "note": "C91_verbatim_refuted is a contrast: the leaf hash is a needed hypothesis. C91_data asks that writing nothing leaves a fresh hasher as it is."
  },
  {
   "property": "C92",
   "status": "proved",
   "theorems": [
    "C92_compacted",
    "C92_replica",
    "C92_direct"
   ],
   "note": "The whole chain from data to the verifier's answer, for compaction to version 1, compaction with a replica, and a direct level-cache build."
  },
  {
   "property": "C93",
   "status": "partial",
   "theorems": [
    "C93_left_partial",
    "C93_noticed_partial",
    "C93_refuted",
    "C93_wrong_cache",
    "C93_bytes_never_syncs"
   ],
   "note": "False as stated: LevelCacheStore::build never syncs after the leaves, so rows may be lost although the build returned Ok (C93_refuted), and the file may be accepted with a leaf as its root (C93_wrong_cache). Proved: what such a file can contain (C93_left_partial) and that it is refused unless it has the final length (C93_noticed_partial)."
  },
  {
   "property": "C94",
   "status": "partial",
   "theorems": [
    "C94_left_partial",
    "C94_again",
    "C94_open_believes",
    "C94_lost",
    "C94_refuted"
   ],
   "note": "False as stated: MmapStore never flushes its map, so a returned build may leave an empty file or zeros (C94_lost, C94_refuted). Proved: what such a file can contain (C94_left_partial), that later builds do not use it and from_byte_slice_with_config repairs a file of full length and fails at an empty one (C94_again), and that opening believes any file of full length (C94_open_believes). Loss of the directory entry is not modelled."
  },
  {
   "property": "C95",
   "status": "proved",
   "theorems": [
    "C95_decides",
    "C95_verdict",
    "C95_base",
    "C95_sub",
    "C95_top",
    "C95_unique"
   ],
   "note": "The derived PartialEq of Proof. C95_base: two trees in any stores; C95_sub and C95_top: within one compound tree of two or three layers."
  },
  {
   "property": "C96",
   "status": "proved",
   "theorems": [
    "C96_twin"
   ],
   "note": "Any two of the constructors with configurations (items, parallel iterator, data, bytes); validity of the proofs for arity 2 or hash functions that ignore the height (C19)."
  },
  {
   "property": "C97",
   "status": "proved",
   "theorems": [
    "C97_succeed",
    "C97_built",
    "C97_sub",
    "C97_top"
   ],
   "note": "Two and three layers, each tree built by any constructor with a configuration (items, parallel iterator, data, bytes); C97_succeed: every such build succeeds; C97_built: such builds exist."
  },
  {
   "property": "C98",
   "status": "partial",
   "theorems": [
    "C98_fields_partial",
    "C98_text_partial",
    "C98_names",
    "C98_refuted"
   ],
   "note": "The name elem_len is printed with the value of len (refuted); all other names have their values and the text determines those."
  },
  {
   "property": "C99",
   "status": "partial",
   "theorems": [
    "C99_disk_partial",
    "C99_lc_partial",
    "C99_tree_partial",
    "C99_compact",
    "C99_push",
    "C99_lc_build",
    "C99_lc_write",
    "C99_refuted"
   ],
   "note": "Equal from the constructors on, through any run of operations, and for trees built on disk. False after compact and for trees built with a level cache, where the cached size stays that of the full tree (refuted with witnesses; C99_compact and C99_lc_build say what it is for every such tree, C99_push and C99_lc_write that push on a compacted store and write_at on a level-cache store then write behind the end of the file; after the former no consistency check takes the file, after the latter it is no level-cache file, but with the index of the root one of the size of the whole tree)."
  }
 ]
}
