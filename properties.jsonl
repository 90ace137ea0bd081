{"id": "C01", "title": "Root of a freshly built tree is the Merkle root of its leaves", "statement": "When MerkleTree::new / try_from_iter (and the _with_config variants on a fresh path) returns Ok(tree), tree.root() is the recursively defined arity-b Merkle root of the leaf hashes A::leaf(x) of the input, in input order: the root over b^(d+1) leaves is multi_node of the roots of the b consecutive blocks of b^d leaves.", "quantifier": "all element types, hash algorithms, arities, tree depths, inputs, and the Vec, Disk and Mmap stores", "why_tests_cant": "tests compare against roots of a handful of fixed data sets and sizes", "anchors": ["src/merkle.rs::MerkleTree::new", "src/merkle.rs::MerkleTree::try_from_iter", "src/store/mod.rs::Store::build", "src/store/disk.rs::DiskStore::build"]}
{"id": "C02", "title": "Stored layout and random access", "statement": "After a successful build the tree holds exactly len() elements: the leaves first, then every upper row in order, the root last; read_at(i) returns element i of that sequence (so leaf i for i < leafs()), read_range(s,e) returns the elements s..e of it, and len() / row_count() / leafs() have the documented values.", "quantifier": "all inputs, arities, depths, indices and the Vec, Disk and Mmap stores", "why_tests_cant": "indices and sizes are sampled in tests", "anchors": ["src/merkle.rs::MerkleTree::read_at", "src/merkle.rs::MerkleTree::read_range", "src/merkle.rs::MerkleTree::len", "src/store/mod.rs::Store::build_small_tree"]}
{"id": "C03", "title": "Construction succeeds exactly on full trees", "statement": "For an arity that is a power of two and at least 2, building from n elements returns Ok exactly when n is a positive power of the arity (up to the store's documented chunk-size limit on the arity); every other n gives an error value - not a panic, not an endless loop, not a tree over padded or truncated data.", "quantifier": "all n, all arities and all stores", "why_tests_cant": "the rejected sizes are infinitely many; tests try a few", "anchors": ["src/merkle.rs::MerkleTree::try_from_iter", "src/merkle.rs::get_merkle_tree_len", "src/store/mod.rs::Store::build"]}
{"id": "C04", "title": "Every store gives the same tree", "statement": "Building from the same elements with VecStore, DiskStore and MmapStore gives trees with equal root, leafs, len, row_count and equal results of read_at for every index; LevelCacheStore gives the same root, leafs, len and row_count.", "quantifier": "all inputs, arities and depths", "why_tests_cant": "agreement is only checked on a few data sets", "anchors": ["src/store/vec.rs", "src/store/disk.rs", "src/store/mmap.rs", "src/store/level_cache.rs"]}
{"id": "C05", "title": "Parallel row hashing is schedule independent", "statement": "For every interleaving of the worker tasks that read a chunk of a row and write the hashed chunk of the next row, a successful build ends with the same store contents and root, and no task observes a partially written row.", "quantifier": "all thread schedules, all rows, all chunk sizes, all stores", "why_tests_cant": "a test observes one schedule per run", "anchors": ["src/store/mod.rs::Store::process_layer", "src/store/disk.rs::DiskStore::process_layer", "src/store/level_cache.rs::LevelCacheStore::process_layer"]}
{"id": "C06", "title": "Parallel construction equals sequential construction", "statement": "FromIndexedParallelIterator::from_par_iter over a sequence gives the same tree as try_from_iter over the same sequence, whatever the order in which the worker threads deliver their blocks.", "quantifier": "all inputs, block orders and stores", "why_tests_cant": "block order depends on the scheduler; small inputs use a single block", "anchors": ["src/merkle.rs::populate_data_par", "src/merkle.rs::FromIndexedParallelIterator"]}
{"id": "C07", "title": "Small-tree and large-tree build algorithms agree", "statement": "The result of building does not depend on which of the two build algorithms is chosen nor on the chunk size: for every value of the threshold and chunk-size constants (chunk a multiple of the arity) the contents and root are the same.", "quantifier": "all thresholds, chunk sizes, inputs", "why_tests_cant": "the constants are fixed at compile time, so tests see one setting", "anchors": ["src/store/mod.rs::SMALL_TREE_BUILD", "src/store/mod.rs::BUILD_CHUNK_NODES", "src/store/mod.rs::Store::build_small_tree", "src/store/mod.rs::Store::build"]}
{"id": "C08", "title": "Buffered population preserves order for every block size", "statement": "populate_data stores leaf(x0), leaf(x1), ... in iterator order with nothing lost, duplicated or reordered, for every block size and every number of items.", "quantifier": "all block sizes and item counts", "why_tests_cant": "the block boundary (262144 items) is not crossed by unit tests", "anchors": ["src/merkle.rs::populate_data", "src/merkle.rs::BUILD_DATA_BLOCK_SIZE"]}
{"id": "C09", "title": "The first iterator error is returned", "statement": "If the input iterator yields an error, try_from_iter and try_from_iter_with_config return that first error as documented, and no tree.", "quantifier": "all iterators, all positions of the error", "why_tests_cant": "position of the error and the amount already flushed vary", "anchors": ["src/merkle.rs::MerkleTree::try_from_iter", "src/merkle.rs::MerkleTree::try_from_iter_with_config", "src/merkle.rs::populate_data"]}
{"id": "C10", "title": "A lying size hint never yields a wrong tree", "statement": "If the iterator yields a number of items different from the upper bound of its size hint, construction returns an error instead of a tree over padded, truncated or misplaced leaves.", "quantifier": "all iterators and hints", "why_tests_cant": "pathological iterators are not in the tests", "anchors": ["src/merkle.rs::MerkleTree::try_from_iter", "src/store/mod.rs::Store::build"]}
{"id": "C11", "title": "Completeness of base-tree proofs", "statement": "For every tree built by the library over a single store and every i < leafs(), gen_proof(i) returns Ok(p) and p.validate::<A>() returns Ok(true), for algorithms whose multi_node does not depend on the height argument and, for arity 2, for every algorithm.", "quantifier": "all trees, indices, algorithms and arities", "why_tests_cant": "tests enumerate leaves of a few trees with two hash functions", "anchors": ["src/merkle.rs::MerkleTree::gen_proof", "src/proof.rs::Proof::validate"]}
{"id": "C12", "title": "Completeness of compound-tree proofs", "statement": "For every compound tree made by from_trees from sub-trees built by the library and every i < leafs(), gen_proof(i) returns Ok(p) with p.validate::<A>() = Ok(true).", "quantifier": "all sub-tree counts, sizes, arities, indices, height-agnostic algorithms", "why_tests_cant": "tests use a few arity triples", "anchors": ["src/merkle.rs::MerkleTree::from_trees", "src/merkle.rs::MerkleTree::gen_sub_tree_proof", "src/proof.rs::Proof::validate_sub_tree_proof"]}
{"id": "C13", "title": "Completeness of compound-compound-tree proofs", "statement": "For every three-layer tree made by from_sub_trees or from_sub_trees_as_trees and every i < leafs(), gen_proof(i) returns Ok(p) with p.validate::<A>() = Ok(true).", "quantifier": "all arity triples, sizes, indices, height-agnostic algorithms", "why_tests_cant": "tests use a few arity triples", "anchors": ["src/merkle.rs::MerkleTree::from_sub_trees", "src/merkle.rs::MerkleTree::from_sub_trees_as_trees"]}
{"id": "C14", "title": "A generated proof speaks about the requested leaf", "statement": "The proof returned by gen_proof(i) has item() equal to leaf i (innermost proof for compound trees), root() equal to tree.root(), a path that is the little-endian base-b digit string of the leaf index (followed by the sub-tree and top-tree indices in the enclosing proofs), and lemma/path lengths 2+(b-1)(row_count-1) and row_count-1.", "quantifier": "all trees and indices", "why_tests_cant": "a validating proof of the wrong leaf would pass every existing test", "anchors": ["src/merkle.rs::MerkleTree::gen_proof", "src/proof.rs::Proof::item", "src/proof.rs::Proof::path", "src/merkle.rs::get_merkle_proof_lemma_len"]}
{"id": "C15", "title": "Soundness of base-tree proofs", "statement": "If any proof object validates, carries the root of a tree of the library, and has as many levels as the tree, then its item is the leaf of that tree at the index its path spells, or two different node lists with the same multi_node hash can be computed from the proof and the tree.", "quantifier": "all proof objects (arbitrary lemma and path contents), all trees", "why_tests_cant": "forged proofs cannot be enumerated", "anchors": ["src/proof.rs::Proof::validate", "src/proof.rs::Proof::new"]}
{"id": "C16", "title": "Soundness of compound-tree proofs", "statement": "If any nested proof object of the same shape as the tree validates and carries the root of a compound (two- or three-layer) tree, its innermost item is the leaf of the tree at the index spelt by the nested paths, or a multi_node collision can be computed.", "quantifier": "all nested proof objects, all compound trees", "why_tests_cant": "forged proofs cannot be enumerated", "anchors": ["src/proof.rs::Proof::validate_sub_tree_proof", "src/proof.rs::Proof::validate"]}
{"id": "C17", "title": "Tampering with a valid proof is detected", "statement": "Replacing any single element of the lemma of a validating proof by a different one makes validate return Ok(false), or yields a multi_node collision.", "quantifier": "all valid base proofs, all positions, all replacement values", "why_tests_cant": "the tests flip one random position per proof", "anchors": ["src/proof.rs::Proof::validate", "src/proof.rs::Proof::lemma_mut"]}
{"id": "C18", "title": "Validation is total on well-formed proofs", "statement": "validate returns Ok(_) - no panic, no error - on every base proof accepted by Proof::new whatever its lemma and path contain, and returns Ok(false) when a path component is not a child index below the arity.", "quantifier": "all lemma and path values", "why_tests_cant": "malformed path values are never generated by tests", "anchors": ["src/proof.rs::Proof::validate", "src/proof.rs::Proof::new"]}
{"id": "C19", "title": "Validation hashes nodes as construction does", "statement": "validate recomputes every parent by the same multi_node call (same nodes, same height argument) the builder used, so proofs validate for every Algorithm, including one whose multi_node depends on the height argument.", "quantifier": "all algorithms, arities and layers", "why_tests_cant": "both test algorithms ignore the height", "anchors": ["src/proof.rs::Proof::validate", "src/proof.rs::Proof::validate_sub_tree_proof", "src/merkle.rs::MerkleTree::from_trees", "src/store/mod.rs::Store::build"]}
{"id": "C20", "title": "The root binds the leaves", "statement": "Two trees of equal arity and leaf count with equal roots have equal leaves, or a multi_node collision can be computed from them.", "quantifier": "all pairs of trees", "why_tests_cant": "pairs cannot be enumerated", "anchors": ["src/merkle.rs::MerkleTree::root", "src/store/mod.rs::Store::build"]}
{"id": "C21", "title": "Out-of-range indices are rejected with an error", "statement": "gen_proof(i), gen_cached_proof(i, _) and read_at(i) with i >= leafs() (len() for base read_at) return an error rather than a value or a panic.", "quantifier": "all trees, all indices, all stores", "why_tests_cant": "only a few indices are tried, mostly in range", "anchors": ["src/merkle.rs::MerkleTree::gen_proof", "src/merkle.rs::MerkleTree::gen_sub_tree_proof", "src/merkle.rs::MerkleTree::read_at", "src/store/vec.rs::VecStore::read_at"]}
{"id": "C22", "title": "Cached proofs equal full proofs on a complete store", "statement": "On a tree whose store holds every node, gen_cached_proof(i, r) returns exactly the proof gen_proof(i) returns, for every i < leafs() and every r (None or Some(k)).", "quantifier": "all trees, indices and rows_to_discard values", "why_tests_cant": "the two code paths use different index arithmetic that agrees only for some sampled sizes in tests", "anchors": ["src/merkle.rs::MerkleTree::gen_cached_proof", "src/merkle.rs::MerkleTree::gen_proof_with_partial_tree"]}
{"id": "C23", "title": "Cached proofs from a level-cache store equal the original proofs", "statement": "After compacting a full on-disk tree (version 1, or version 2 plus an external reader holding the leaves) and opening it as a LevelCacheStore with the same configuration, from_data_store gives a tree with the same root/leafs/len/row_count, and gen_cached_proof(i, Some(rows_to_discard)) (or None at the default) equals the proof of the original tree, for every leaf.", "quantifier": "all trees, discard depths, indices, both formats", "why_tests_cant": "tests cover a few (size, arity, discard) triples", "anchors": ["src/store/disk.rs::DiskStore::compact", "src/store/level_cache.rs::LevelCacheStore::new_from_disk", "src/store/level_cache.rs::LevelCacheStore::new_from_disk_with_reader", "src/merkle.rs::MerkleTree::gen_cached_proof"]}
{"id": "C24", "title": "A cached proof is never wrong, whatever rows_to_discard is passed", "statement": "On a level-cache tree gen_cached_proof(i, r) either returns a proof that validates against the tree's root or an error, for every r, also when r differs from the value the store was compacted with.", "quantifier": "all r, all level-cache stores", "why_tests_cant": "tests always pass the matching value", "anchors": ["src/merkle.rs::MerkleTree::gen_cached_proof", "src/store/level_cache.rs::LevelCacheStore::read_at"]}
{"id": "C25", "title": "Compaction keeps exactly the leaves/cached rows", "statement": "compact(config, v) on a full on-disk tree succeeds for every admissible rows_to_discard and leaves the file holding (v1) the leaves followed by the rows above the discarded ones, (v2) only those rows, byte for byte; inadmissible settings are refused before the file is touched.", "quantifier": "all trees, discard depths, versions and copy buffer sizes", "why_tests_cant": "copying within one file is only exercised for a few geometries", "anchors": ["src/store/disk.rs::DiskStore::compact"]}
{"id": "C26", "title": "Compaction and crashes", "statement": "If the process stops at any point of a compaction, the leaf data can still be read back from the file, and a store that was only partially compacted is not mistaken for a complete one when reopened.", "quantifier": "all crash points, all copy chunkings, both versions", "why_tests_cant": "crash points are not injected by tests", "anchors": ["src/store/disk.rs::DiskStore::compact", "src/store/disk.rs::DiskStore::new_from_disk", "src/store/disk.rs::DiskStore::is_consistent"]}
{"id": "C27", "title": "Direct level-cache build keeps exactly the top rows", "statement": "Building with LevelCacheStore and a config yields the true Merkle root, and leaves a file containing exactly the rows above the discarded ones (what version-2 compaction of a DiskStore tree would leave), which is_consistent accepts.", "quantifier": "all inputs, arities, admissible discard depths", "why_tests_cant": "in-place truncation between rows is only exercised on a few geometries", "anchors": ["src/store/level_cache.rs::LevelCacheStore::build", "src/store/level_cache.rs::LevelCacheStore::front_truncate"]}
{"id": "C28", "title": "Discarded rows are never served", "statement": "A LevelCacheStore read (read_at, read_range, read_into, read_range_into) touching an element of a discarded row returns an error; every successful read returns the elements of the original tree.", "quantifier": "all stores, all ranges", "why_tests_cant": "tests read only retained positions", "anchors": ["src/store/level_cache.rs::LevelCacheStore::read_at", "src/store/level_cache.rs::LevelCacheStore::store_read_range", "src/store/level_cache.rs::LevelCacheStore::store_read_into"]}
{"id": "C29", "title": "Tree length formula", "statement": "For arity b a power of two >= 2 and n = b^k >= b leaves get_merkle_tree_len returns Ok(1+b+...+b^k); arities that are not powers of two and n < b are errors.", "quantifier": "all n and b", "why_tests_cant": "infinite domain", "anchors": ["src/merkle.rs::get_merkle_tree_len"]}
{"id": "C30", "title": "Leaf count and tree length are inverse", "statement": "get_merkle_tree_leafs(len,b) returns Ok(n) exactly when len is the length of a full arity-b tree with n leaves, and an error for every other len.", "quantifier": "all lengths and arities", "why_tests_cant": "infinite domain; tests try a dozen values", "anchors": ["src/merkle.rs::get_merkle_tree_leafs", "src/merkle.rs::get_merkle_tree_len"]}
{"id": "C31", "title": "Cache size formula", "statement": "get_merkle_tree_cache_size(b^k,b,r) is the number of nodes above the r discarded rows, 1+b+...+b^(k-1-r), for r < k; otherwise it is an error.", "quantifier": "all k, b, r", "why_tests_cant": "infinite domain", "anchors": ["src/merkle.rs::get_merkle_tree_cache_size"]}
{"id": "C32", "title": "Row count formula", "statement": "get_merkle_tree_row_count(b^k,b) = k+1 for every arity b >= 2 that is a power of two.", "quantifier": "all k and b", "why_tests_cant": "infinite domain; floating point logarithm", "anchors": ["src/merkle.rs::get_merkle_tree_row_count"]}
{"id": "C33", "title": "Default discard depth is always usable", "statement": "default_rows_to_discard(n,b) is accepted by get_merkle_tree_cache_size for every full tree with at least two rows, leaves at least the root cached, and never exceeds the per-arity constant.", "quantifier": "all tree sizes and arities", "why_tests_cant": "infinite domain", "anchors": ["src/store/mod.rs::StoreConfig::default_rows_to_discard", "src/merkle.rs::get_merkle_tree_cache_size"]}
{"id": "C34", "title": "Size validity check", "statement": "is_merkle_tree_size_valid(n,b) returns, for every n and b, and returns true exactly when b is a power of two, and n is a power of b.", "quantifier": "all n and b", "why_tests_cant": "infinite domain, includes termination", "anchors": ["src/merkle.rs::is_merkle_tree_size_valid"]}
{"id": "C35", "title": "Generic length function agrees with constructed trees", "statement": "get_merkle_tree_len_generic::<B,S,T>(n) equals len() of the base / compound / compound-compound tree actually constructed from base trees with n leaves.", "quantifier": "all arity triples and n", "why_tests_cant": "tests check three triples", "anchors": ["src/merkle.rs::get_merkle_tree_len_generic", "src/merkle.rs::MerkleTree::from_trees", "src/merkle.rs::MerkleTree::from_sub_trees"]}
{"id": "C36", "title": "Stores behave like arrays", "statement": "Any sequence of write_at, copy_from_slice and push that returns Ok leaves a Vec, Disk, Mmap or freshly created LevelCache store (the latter read internally) with the contents of a plain array under the same updates: last write wins, other positions unchanged, gaps hold the default/zero element, len is the highest written position + 1.", "quantifier": "all operation sequences", "why_tests_cant": "histories cannot be enumerated", "anchors": ["src/store/mod.rs::Store", "src/store/vec.rs", "src/store/disk.rs", "src/store/mmap.rs"]}
{"id": "C37", "title": "Capacity and bounds are enforced", "statement": "A write beyond the capacity of a file-backed store is refused (error, or panic for mmap) and changes nothing; a read at or beyond len() never returns data.", "quantifier": "all histories, offsets and lengths", "why_tests_cant": "boundary positions are sampled", "anchors": ["src/store/disk.rs::DiskStore::store_copy_from_slice", "src/store/disk.rs::DiskStore::push", "src/store/disk.rs::DiskStore::read_at", "src/store/mmap.rs::MmapStore::push"]}
{"id": "C38", "title": "Reopening a persisted tree", "statement": "A tree built with a config on a DiskStore or MmapStore, dropped, and opened again with new_from_disk + from_data_store (or, for DiskStore, by calling the same with_config constructor again) has the same root, leafs, len, row_count, reads and proofs.", "quantifier": "all trees", "why_tests_cant": "tests cover some sizes", "anchors": ["src/store/disk.rs::DiskStore::new_from_disk", "src/store/mmap.rs::MmapStore::new_from_disk", "src/merkle.rs::MerkleTree::from_data_store", "src/merkle.rs::MerkleTree::try_from_iter_with_config"]}
{"id": "C39", "title": "An interrupted build is not mistaken for a finished one", "statement": "If construction with a config fails or is interrupted after the file was created, constructing again with the same config does not return a tree whose root differs from the Merkle root of the data.", "quantifier": "all interruption points", "why_tests_cant": "interruption is not tested", "anchors": ["src/store/disk.rs::DiskStore::new_with_config", "src/merkle.rs::MerkleTree::try_from_iter_with_config"]}
{"id": "C40", "title": "Serialised trees round-trip", "statement": "Serialising all elements of a tree and calling from_tree_slice (or from_tree_slice_with_config on a fresh path, or from_data_store over an equal store) returns a tree with identical root, leafs, len, row_count, reads and proofs; input whose length does not fit leafs and arity is rejected.", "quantifier": "all trees, all stores except LevelCache", "why_tests_cant": "sampled in tests", "anchors": ["src/merkle.rs::MerkleTree::from_tree_slice", "src/merkle.rs::MerkleTree::from_tree_slice_with_config", "src/merkle.rs::MerkleTree::from_data_store"]}
{"id": "C41", "title": "Compound tree metadata", "statement": "A tree made by from_trees / from_sub_trees reports leafs = sum of leafs, len = children * child len + 1, row_count = child row_count + 1, and root = multi_node(children's roots in the given order, 1); children of different shape or a wrong number of children are rejected with an error.", "quantifier": "all child lists and arities", "why_tests_cant": "sampled in tests", "anchors": ["src/merkle.rs::MerkleTree::from_trees", "src/merkle.rs::MerkleTree::from_sub_trees"]}
{"id": "C42", "title": "Flat and nested compound construction agree", "statement": "from_sub_trees_as_trees(trees) equals from_sub_trees applied to the list of from_trees of the consecutive groups of SubTreeArity trees: same structure, root, len, leafs and row_count, and same error behaviour.", "quantifier": "all tree lists and arities", "why_tests_cant": "grouping is done back to front and reversed; only small groupings are tested", "anchors": ["src/merkle.rs::MerkleTree::from_sub_trees_as_trees"]}
{"id": "C43", "title": "Leaf addressing in compound trees", "statement": "read_at(i) on a compound or compound-compound tree returns leaf number i of the concatenation of the leaves of its base trees in order.", "quantifier": "all trees and indices", "why_tests_cant": "tests of compound read_at are sampled", "anchors": ["src/merkle.rs::MerkleTree::read_at"]}
{"id": "C44", "title": "Every accepted compound shape is provable", "statement": "Every compound tree a constructor returns Ok for generates validating proofs for all its leaves, whatever combination of arity type parameters it was built with.", "quantifier": "all arity triples and constructors", "why_tests_cant": "only sensible arity combinations are tested", "anchors": ["src/merkle.rs::MerkleTree::from_trees", "src/merkle.rs::MerkleTree::from_sub_trees", "src/proof.rs::Proof::sub_tree_root"]}
{"id": "C45", "title": "Validating with the leaf data", "statement": "For a tree built by from_data and proof p of leaf i, p.validate_with_data(data_i) = Ok(true); for other data it is Ok(false) unless the leaf hashes collide. The same holds for compound trees.", "quantifier": "all data types, trees and leaves", "why_tests_cant": "sampled in tests, never on compound trees", "anchors": ["src/proof.rs::Proof::validate_with_data", "src/merkle.rs::MerkleTree::from_data"]}
{"id": "C46", "title": "Leaf/interior domain separation", "statement": "Under the default leaf/node/multi_node of Algorithm, the byte streams hashed for a leaf and for an interior node are never equal, the stream of an interior node determines the list of its children, node(l,r,_) hashes the same stream as multi_node([l,r],_), and the stream does not depend on the height.", "quantifier": "all elements and child lists", "why_tests_cant": "infinite domain", "anchors": ["src/hash.rs::Algorithm::leaf", "src/hash.rs::Algorithm::node", "src/hash.rs::Algorithm::multi_node"]}
{"id": "C47", "title": "Hashable encodings", "statement": "Hashing a value feeds the hasher the documented byte stream: fixed-width integers give injective streams, arrays/slices of integers give the concatenation of their elements' streams, tuples the concatenation of their components; and distinct values of one type never feed equal streams.", "quantifier": "all values", "why_tests_cant": "infinite domain", "anchors": ["src/hash_impl.rs::impl_write", "src/hash_impl.rs::impl_hash_tuple", "src/hash.rs::Hashable::hash_slice"]}
{"id": "C48", "title": "Parallel iteration over a store yields each element once, in order", "statement": "Whatever way a VecStore/DiskStore parallel iterator is split and whatever mixture of next and next_back drains each part, the collected elements are exactly the store's elements in order, each once.", "quantifier": "all split trees and front/back consumption orders", "why_tests_cant": "rayon chooses splits dynamically", "anchors": ["src/store/mod.rs::impl_parallel_iter"]}
{"id": "C49", "title": "MmapStore compact and reinit", "statement": "compact on an MmapStore releases the mapping without losing data: reads fail until reinit (or a write, which re-maps) and afterwards every read returns what it did before.", "quantifier": "all store contents and operation sequences", "why_tests_cant": "histories cannot be enumerated", "anchors": ["src/store/mmap.rs::MmapStore::compact", "src/store/mmap.rs::MmapStore::reinit", "src/store/mmap.rs::MmapStore::write_at"]}
{"id": "C50", "title": "Read-only files", "statement": "A DiskStore or LevelCacheStore opened on a read-only file serves the same reads as on a writable one; every write attempt is an error and the file never changes.", "quantifier": "all contents and operation sequences", "why_tests_cant": "tests open a few files", "anchors": ["src/store/disk.rs::DiskStore::new_from_disk_with_path", "src/store/level_cache.rs::LevelCacheStore::new_from_disk"]}
{"id": "C51", "title": "Stores touch only their own file", "statement": "Operations of a store created with a config modify only the file at that config's data path; delete removes exactly that file; different ids in one directory give different paths.", "quantifier": "all file systems and operations", "why_tests_cant": "absence of effects on other files is not tested", "anchors": ["src/store/mod.rs::StoreConfig::data_path", "src/store/disk.rs::DiskStore::delete", "src/store/disk.rs::DiskStore::compact"]}
{"id": "C52", "title": "Machine arithmetic does not change the results", "statement": "Whenever the tree (len * element size in bytes) fits in the 64-bit address range, the size functions evaluated in wrapping 64-bit arithmetic return what they return over unbounded integers, and none of their operations overflows.", "quantifier": "all sizes and arities", "why_tests_cant": "overflow boundaries are not tested", "anchors": ["src/merkle.rs::get_merkle_tree_len", "src/merkle.rs::get_merkle_tree_leafs", "src/merkle.rs::get_merkle_tree_cache_size"]}
{"id": "C53", "title": "Several trees over one replica file", "statement": "from_store_configs_and_replica / from_sub_tree_store_configs_and_replica give a compound level-cache tree whose i-th base tree reads its leaves at the i-th offset of the replica: reads and cached proofs equal those of the compound tree over the original full trees.", "quantifier": "all numbers of trees, offsets, sizes and discard depths", "why_tests_cant": "sampled in tests", "anchors": ["src/merkle.rs::MerkleTree::from_store_configs_and_replica", "src/merkle.rs::MerkleTree::from_sub_tree_store_configs_and_replica", "src/store/mod.rs::ExternalReader::read"]}
{"id": "C54", "title": "Floating-point row count is exact", "statement": "For every power-of-two arity b >= 4 and leaf count b^k representable in 64 bits, the binary64 computation (b*n).log(b) as usize, with a correctly rounded natural logarithm, yields k+1.", "quantifier": "all 64-bit sizes and arities", "why_tests_cant": "rounding makes exactness non-obvious; tests check a few sizes", "anchors": ["src/merkle.rs::get_merkle_tree_row_count"]}
{"id": "C55", "title": "from_byte_slice stores leaves verbatim", "statement": "from_byte_slice(bytes) (and with_config on a fresh path) builds the tree whose leaves are the elements decoded from the bytes, without applying the leaf hash, and equals the tree new() builds from elements whose leaf hashes are those bytes; byte counts that are not a multiple of the element size are rejected.", "quantifier": "all inputs and stores", "why_tests_cant": "sampled in tests", "anchors": ["src/merkle.rs::MerkleTree::from_byte_slice", "src/merkle.rs::MerkleTree::from_byte_slice_with_config"]}
{"id": "C56", "title": "Compound trees from serialised base trees, stores and files", "statement": "from_slices, from_slices_with_configs (fresh distinct paths), from_stores, from_store_configs and from_sub_tree_store_configs, applied to the serialised bytes / stores / files of base trees, give a compound tree with the same root, sizes, leaves and proofs as the compound tree over the original base trees, part k becoming base tree k; the number of parts is checked. Base trees built at configured paths can be reopened as the same compound tree.", "quantifier": "all base trees, arities, numbers of parts, stores and file systems", "why_tests_cant": "order of parts and equality of all proofs are only sampled", "anchors": ["src/merkle.rs::MerkleTree::from_slices", "src/merkle.rs::MerkleTree::from_slices_with_configs", "src/merkle.rs::MerkleTree::from_stores", "src/merkle.rs::MerkleTree::from_store_configs", "src/merkle.rs::MerkleTree::from_sub_tree_store_configs"]}
{"id": "C57", "title": "Compound trees are not opened over missing files", "statement": "from_store_configs succeeds only if every configured file exists with exactly the length of a base tree, and then changes nothing; a call that failed because a file is missing keeps failing when repeated.", "quantifier": "all file systems, configurations and sizes", "why_tests_cant": "missing files are not tested", "anchors": ["src/merkle.rs::MerkleTree::from_store_configs", "src/store/disk.rs::DiskStore::new_with_config", "src/store/mmap.rs::MmapStore::new_with_config"]}
{"id": "C58", "title": "Byte access to trees", "statement": "read_into / read_range_into return exactly the bytes of the elements read_at / read_range return and nothing outside the tree, is_empty tells whether the tree has no nodes, and compound trees refuse store access without any change.", "quantifier": "all trees, positions, stores", "why_tests_cant": "only sampled in tests", "anchors": ["src/merkle.rs::MerkleTree::read_into", "src/merkle.rs::MerkleTree::read_range_into", "src/merkle.rs::MerkleTree::is_empty", "src/store/disk.rs::DiskStore::read_into"]}
{"id": "C59", "title": "Unmapping and mapping again a tree", "statement": "compact on a tree over an MmapStore keeps root and sizes, makes every node read fail instead of returning data, and reinit restores the identical tree; reinit changes nothing over the other stores.", "quantifier": "all trees", "why_tests_cant": "tests check one tree", "anchors": ["src/merkle.rs::MerkleTree::compact", "src/merkle.rs::MerkleTree::reinit", "src/store/mmap.rs::MmapStore::reinit"]}
{"id": "C60", "title": "Bounds checks in machine arithmetic", "statement": "In 64-bit arithmetic, with or without overflow checks, every access of a file-backed store within its bounds behaves as over unbounded integers, and every access at or beyond its length (capacity, for writes) is refused.", "quantifier": "all stores, 64-bit indices, ranges", "why_tests_cant": "tests never use indices whose byte address exceeds 2^64", "anchors": ["src/store/disk.rs::DiskStore::read_at", "src/store/disk.rs::DiskStore::write_at", "src/store/mmap.rs::MmapStore::read_at", "src/store/level_cache.rs::LevelCacheStore::read_at"]}
{"id": "C61", "title": "Nested proofs are checked completely", "statement": "On every nested proof object the constructor accepts, at any depth, validate returns Ok (no panic), and replacing any single node of any layer of a validating one makes validate return Ok(false) or exhibits two different node lists with the same multi_node hash.", "quantifier": "all nested proofs, layers, replaced nodes", "why_tests_cant": "tests only alter a few positions of a few generated proofs", "anchors": ["src/proof.rs::Proof::new", "src/proof.rs::Proof::validate", "src/proof.rs::Proof::validate_sub_tree_proof"]}
{"id": "C62", "title": "A tree object after its compaction", "statement": "After a successful compaction the tree object keeps its root, leaf count and row count, every node it returns is the one the original tree has at that index, no proof comes out of it that does not validate, and a further compaction is refused without touching the file unless nothing had been dropped.", "quantifier": "all trees over a DiskStore, rows to discard, store versions, indices, second compactions", "why_tests_cant": "tests reopen the file after compacting and never use the object again", "anchors": ["src/merkle.rs::MerkleTree::compact", "src/store/disk.rs::DiskStore::compact", "src/merkle.rs::MerkleTree::read_at", "src/merkle.rs::MerkleTree::gen_proof"]}
{"id": "C63", "title": "Deleting and building again", "statement": "delete removes exactly the file of the configuration (an error if there is none); afterwards the tree cannot be opened, building at the same configuration yields the tree of the new data, and every tree object made earlier, the deleted one included, keeps answering reads and proofs correctly through any later constructions and deletions.", "quantifier": "all histories of constructions and deletions, all stores, all data", "why_tests_cant": "tests delete temporary directories, never through the tree, and never use an object afterwards", "anchors": ["src/merkle.rs::MerkleTree::delete", "src/store/disk.rs::DiskStore::delete", "src/store/level_cache.rs::LevelCacheStore::delete", "src/store/mmap.rs::MmapStore::delete"]}
{"id": "C64", "title": "Consistency checks and opening agree", "statement": "DiskStore::is_consistent, LevelCacheStore::is_consistent_v1 and is_consistent return Ok(true) exactly when the corresponding constructor (new_from_disk of each store, new_from_disk_with_reader) opens the file; files of built and of compacted trees pass the check of their own kind, and no file is taken for two different kinds.", "quantifier": "all files, sizes, arities, rows to discard", "why_tests_cant": "tests only check files just written", "anchors": ["src/store/disk.rs::DiskStore::is_consistent", "src/store/level_cache.rs::LevelCacheStore::is_consistent", "src/store/level_cache.rs::LevelCacheStore::is_consistent_v1", "src/store/level_cache.rs::LevelCacheStore::new_from_disk", "src/store/level_cache.rs::LevelCacheStore::new_from_disk_with_reader"]}
{"id": "C65", "title": "I/O failures are never swallowed", "statement": "Let any method of the store fail, with an error or a panic, at any call and leave anything behind. If a constructor of MerkleTree nevertheless returns a tree, then it did exactly what it does when nothing fails: same tree, same files; in particular the root is the Merkle root of the leaves. A proof, cached proof or read that is returned is the one returned when nothing fails, and such a proof validates for the requested leaf.", "quantifier": "all four stores, all constructors, all failure patterns, all inputs, all schedules", "why_tests_cant": "I/O errors are not injected by the tests; there are infinitely many places and states in which one can occur", "anchors": ["src/store/mod.rs::Store::build", "src/store/disk.rs::DiskStore::process_layer", "src/store/level_cache.rs::LevelCacheStore::build", "src/merkle.rs::populate_data", "src/merkle.rs::populate_data_par", "src/merkle.rs::MerkleTree::try_from_iter", "src/merkle.rs::MerkleTree::gen_proof", "src/merkle.rs::MerkleTree::gen_cached_proof"]}
{"id": "C66", "title": "I/O errors are returned as errors", "statement": "When store methods fail only by returning errors, every constructor of MerkleTree, every read and every proof generation gives either the result of a run without failures or an error; it does not panic because of an I/O error.", "quantifier": "all four stores, all constructors, all patterns of returned errors", "why_tests_cant": "I/O errors are not injected by the tests", "anchors": ["src/merkle.rs::MerkleTree::try_from_iter_with_config", "src/merkle.rs::MerkleTree::from_par_iter", "src/merkle.rs::MerkleTree::from_par_iter_with_config", "src/merkle.rs::MerkleTree::gen_proof"]}
{"id": "C67", "title": "Constructors keep to their own files", "statement": "A call of any MerkleTree constructor that takes store configurations changes, creates or removes no file except at the paths of those configurations, whether it succeeds, returns an error or panics; over VecStore and when opening trees over replicas no file changes at all.", "quantifier": "all stores, all nine constructors with configurations, all inputs (failing iterators, slices of any size, wrong leaf counts, any arity, occupied paths), all file systems and schedules", "why_tests_cant": "tests look at the file of the tree they build, not at every other file, and not after failed constructions", "anchors": ["src/merkle.rs::MerkleTree::try_from_iter_with_config", "src/merkle.rs::MerkleTree::from_tree_slice_with_config", "src/merkle.rs::MerkleTree::from_slices_with_configs", "src/merkle.rs::MerkleTree::from_sub_tree_store_configs", "src/store/disk.rs::DiskStore::new_with_config", "src/store/mmap.rs::MmapStore::new_with_config", "src/store/level_cache.rs::LevelCacheStore::new_with_config"]}
{"id": "C68", "title": "A directory of trees over many sessions", "statement": "Over any sequence of sessions that build trees (from elements, data, parallel iterators or byte slices, over DiskStore or LevelCacheStore), open them complete, compacted or over a replica, compact them, delete them, and put other files there, the directory behaves as a map from paths to trees: every answer is the one the entry at the path determines, requests at one path never affect another, a tree answers with the shape, root, leaves and proofs of the leaves it was built from until somebody compacts, deletes or overwrites it, and a compacted tree answers so through the level cache.", "quantifier": "all finite sequences of requests, all paths and configurations, all leaf lists, all compaction versions and discards, all schedules, all algorithms with the laws of C01, all power-of-two arities", "why_tests_cant": "tests run one constructor after one other on fresh temporary directories; interactions between many sessions and files form an unbounded set", "anchors": ["src/merkle.rs::MerkleTree::new_with_config", "src/merkle.rs::MerkleTree::from_data_store", "src/merkle.rs::MerkleTree::compact", "src/merkle.rs::MerkleTree::delete", "src/store/disk.rs::DiskStore::new_from_disk", "src/store/disk.rs::DiskStore::compact", "src/store/level_cache.rs::LevelCacheStore::new_from_disk", "src/store/level_cache.rs::LevelCacheStore::new_from_disk_with_reader"]}
{"id": "C69", "title": "Every chunk size, and the crate's own constants", "statement": "For every positive chunk size (BUILD_CHUNK_NODES), whether or not the arity divides it, a construction that returns a tree returns the Merkle tree of its leaves; if the arity does not divide the chunk size, stores refuse with an error (DiskStore and LevelCacheStore always, the others above the small-tree threshold). With the crate's constants 1024 and 4096, VecStore, DiskStore and MmapStore return a tree exactly when the arity is at most 4096 and the leaf count is a positive power of it. The crate's element type [u8; 32] satisfies the laws the other properties assume.", "quantifier": "all power-of-two arities (including those above 4096), all chunk sizes and thresholds, all leaf lists, constructors, schedules and algorithms", "why_tests_cant": "the constants are fixed at compile time and tests use arities 2, 4 and 8", "anchors": ["src/store/mod.rs::BUILD_CHUNK_NODES", "src/store/mod.rs::SMALL_TREE_BUILD", "src/store/mod.rs::Store::process_layer", "src/store/disk.rs::DiskStore::process_layer", "src/store/level_cache.rs::LevelCacheStore::process_layer", "src/merkle.rs::Element"]}
{"id": "C70", "title": "Workers writing through a memory map do not race", "statement": "DiskStore and LevelCacheStore let the workers of one row read the file and write a shared map of the same file without a lock. No byte a worker may write is read or written by another worker, nor read by itself; so at every point of every interleaving of single byte reads and writes, whatever a worker has read is what the file held when the row was started, whatever it is writing is the hash of that, and none has failed.", "quantifier": "all interleavings of single-byte steps, stopped anywhere; all rows, offsets, arities, chunk sizes, element sizes, algorithms", "why_tests_cant": "a race shows only under particular timings; a test run sees one", "anchors": ["src/store/disk.rs::DiskStore::process_layer", "src/store/level_cache.rs::LevelCacheStore::process_layer"]}
{"id": "C71", "title": "A build whose process is killed", "statement": "If the process of a DiskStore build is killed at any point, the file at the configured path is the only path it changed; either it is empty (killed before its length was set), or it has the length of the finished tree, every byte is zero or the finished tree's byte, all rows before the one being hashed are complete, and everything after that row is zero. A later construction at the same configuration never returns a wrong tree, and deleting the file first always allows a correct build.", "quantifier": "all kill points (after creation, after any byte of any copy of leaves, after any step of any interleaving of the workers on any row), all with_config constructors, arities, leaf lists, chunk sizes, schedules, element types, algorithms", "why_tests_cant": "the moment of death has as many values as there are bytes and interleavings; the tests never kill a build", "anchors": ["src/store/disk.rs::DiskStore::new_with_config", "src/store/disk.rs::DiskStore::process_layer", "src/store/disk.rs::DiskStore::new_from_disk", "src/merkle.rs::populate_data", "src/merkle.rs::populate_data_par", "src/merkle.rs::MerkleTree::try_from_iter_with_config"]}
{"id": "C72", "title": "A killed compaction can be repeated", "statement": "If the compaction of an on-disk tree is killed at any point, and any number of attempts to repeat it (reopen the file with new_from_disk, compact with the same configuration and version) are killed as well, then a further attempt that is left alone ends with exactly the bytes of an uninterrupted compaction in the file; it is refused only if the file already holds them. No other file is changed.", "quantifier": "all built DiskStore trees, discard depths, both versions, kill points, numbers of attempts, copy chunkings", "why_tests_cant": "the copy reads and writes the same file; that no byte still needed is ever overwritten, for any geometry and any kill point, is beyond examples", "anchors": ["src/store/disk.rs::DiskStore::compact", "src/store/disk.rs::DiskStore::new_from_disk"]}
{"id": "C73", "title": "A power loss after a build", "statement": "If the power fails after a DiskStore build has returned, the file still holds the tree: reopening it gives the same leaves and the same nodes. (A power loss may undo, byte by byte, anything written since the last sync of the file.)", "quantifier": "all item-wise with_config constructors, arities, leaf lists, schedules, element types, algorithms; every byte-wise mixture of the contents the file had since the last sync", "why_tests_cant": "tests cannot take the power away; every mixture of contents since the last sync is allowed", "anchors": ["src/merkle.rs::populate_data", "src/merkle.rs::populate_data_par", "src/store/disk.rs::DiskStore::sync", "src/store/disk.rs::DiskStore::build", "src/merkle.rs::MerkleTree::from_byte_slice_with_config"]}
{"id": "C74", "title": "A LevelCacheStore build whose process is killed", "statement": "If the process dies at any point of a LevelCacheStore build at a free path (before the file has its size, inside a copy of leaves, at the sync, after any worker step on any row, or while a row is being removed), only that file is touched and every byte of it is zero or a byte of the finished tree at the place the build had put it; the finished rows are complete. is_consistent and new_from_disk_with_reader then tell the file from a finished one. A later construction at the same configuration fails or returns the right tree; after delete it succeeds as on a free path.", "quantifier": "all with_config constructors, arities, leaf lists, numbers of rows to discard, kill points, schedules, copy chunkings, element types, algorithms", "why_tests_cant": "the kill points are every byte step of every worker and every piece of every front truncation; tests only see builds that return", "anchors": ["src/store/level_cache.rs::LevelCacheStore::build", "src/store/level_cache.rs::LevelCacheStore::front_truncate", "src/store/level_cache.rs::LevelCacheStore::new_with_config", "src/store/level_cache.rs::LevelCacheStore::new_from_disk_with_reader", "src/store/level_cache.rs::LevelCacheStore::is_consistent", "src/merkle.rs::populate_data"]}
{"id": "C75", "title": "A MmapStore build whose process is killed", "statement": "If the process dies at any point of a MmapStore build at a free path (before the file has its size, or inside any copy into the map, after any of its bytes in any order), only that file is touched; if it has its size, all rows below the one being written are complete, nothing but zeros follows that row, and each byte in between is zero or the byte of the finished tree. Any later construction with a with_config constructor at that path, for whatever data, fails or returns the tree of its data; from_byte_slice_with_config for as many leaves succeeds. new_from_disk and from_data_store accept the unfinished file and show its content.", "quantifier": "all with_config constructors, arities, leaf lists, kill points, subsets and orders of the bytes of the interrupted copy, schedules, chunk and block sizes, element types, algorithms", "why_tests_cant": "the kill points are every byte of every copy of every worker under every schedule; tests only see builds that return", "anchors": ["src/store/mmap.rs::MmapStore::new_with_config", "src/store/mmap.rs::MmapStore::write_at", "src/store/mmap.rs::MmapStore::copy_from_slice", "src/store/mmap.rs::MmapStore::new_from_slice_with_config", "src/store/mmap.rs::MmapStore::new_from_disk", "src/store/mmap.rs::MmapStore::delete", "src/store/mod.rs::Store::process_layer", "src/store/mod.rs::Store::build_small_tree"]}
{"id": "C76", "title": "Iteration when reads fail", "statement": "Whatever reads fail, the iterator of a store over a range answers every call of next and next_back with the next unread element of its range from that end if it can be read and with None otherwise; it never panics and never leaves its range.", "quantifier": "all stores whose read_at does not panic, all ranges, all sequences of next and next_back calls, all patterns of unreadable elements", "why_tests_cant": "tests iterate over healthy stores only; the interplay of the error flag with calls from both ends needs every pattern of failures", "anchors": ["src/store/mod.rs::impl_parallel_iter", "src/store/disk.rs::DiskStore::read_at"]}
{"id": "C77", "title": "loaded_from_disk tells where the contents came from", "statement": "After every constructor of a file-backed store, loaded_from_disk() is true exactly when the contents are those of a file that existed before the call; no later call on the store (write_at, copy_from_slice, push, compact, reinit, sync, build) changes the answer, whether it succeeds or fails.", "quantifier": "all file-backed stores, constructors, sizes, data, configurations, file systems, store states, algorithms, schedules", "why_tests_cant": "MerkleTree's constructors branch on this flag to decide between building and failing; tests only see a few call sequences", "anchors": ["src/store/disk.rs::DiskStore::new_with_config", "src/store/disk.rs::DiskStore::loaded_from_disk", "src/store/level_cache.rs::LevelCacheStore::new_with_config", "src/store/level_cache.rs::LevelCacheStore::new_from_disk_with_reader", "src/store/mmap.rs::MmapStore::loaded_from_disk"]}
{"id": "C78", "title": "A power loss during a compaction", "statement": "If the power fails while the file of a built DiskStore tree is being compacted (any subset of the bytes and of the length change written since the compaction began may be lost), then opening the file again and repeating the compaction ends with the bytes of an uninterrupted compaction; after compact has returned the file holds those bytes whatever happens.", "quantifier": "all arities, leaf lists, discard depths, both store versions, io::copy piece sizes, subsets of lost bytes and lost length, further killed attempts", "why_tests_cant": "which writes reach the disk first is up to the operating system; no test can enumerate the subsets, and tests never lose power", "anchors": ["src/store/disk.rs::DiskStore::compact", "src/store/disk.rs::DiskStore::sync", "src/store/level_cache.rs::LevelCacheStore::new_from_disk"]}
{"id": "C79", "title": "Proofs from damaged stores and untrusted replicas", "statement": "Whatever the store, the files or the external reader of a tree answer: if the counts and roots the tree carries are the right ones for its leaves and gen_proof or gen_cached_proof returns a proof for index i that validates, then the item of the proof is leaf i, or two different node lists with the same multi_node hash can be computed from the proof and the tree. Opened trees (from_data_store, from_trees, from_sub_trees) carry the right counts whatever the store holds.", "quantifier": "all stores and reader callbacks (arbitrary answers), all file contents, base, compound and compound-compound trees, all indices and rows_to_discard arguments", "why_tests_cant": "tests read back what they wrote; corrupted files and lying readers cannot be enumerated", "anchors": ["src/merkle.rs::MerkleTree::gen_proof", "src/merkle.rs::MerkleTree::gen_cached_proof", "src/store/mod.rs::ExternalReader::read", "src/proof.rs::Proof::validate"]}
{"id": "C80", "title": "Failing and short reads of an external reader", "statement": "A read of a leaf through an external reader returns an error when the reader returns an error or reports fewer bytes than were asked for, and the bytes delivered otherwise; no cached proof is made from a failed read.", "quantifier": "all reader callbacks, level-cache stores, positions and ranges starting in the leaf row", "why_tests_cant": "the only reader the tests use reads a complete local file with read_exact", "anchors": ["src/store/mod.rs::ExternalReader::read", "src/store/level_cache.rs::LevelCacheStore::store_read_range", "src/store/level_cache.rs::LevelCacheStore::store_read_into"]}
{"id": "C81", "title": "A compaction in which an input/output operation fails", "statement": "Whichever operation of DiskStore::compact fails (open, seek, the copy after any number of bytes, set_len, sync, metadata): an error is returned; the tree object still answers as before the call; and after any number of such calls, on the same object or on reopened ones, a call that is left alone brings the file to exactly the bytes of an undisturbed compaction, being refused only if the file already holds them. Other files are not touched.", "quantifier": "all trees over a DiskStore, rows to discard, store versions, histories of failing calls, piece sizes of the copies", "why_tests_cant": "no test can make one operation of compact fail, and failures come in arbitrary sequences", "anchors": ["src/store/disk.rs::DiskStore::compact", "src/store/disk.rs::DiskStore::new_from_disk", "src/merkle.rs::MerkleTree::compact"]}
{"id": "C82", "title": "Several processes open a store at one path at once", "statement": "When any number of processes call DiskStore::new_from_slice_with_config for the same free path, their system calls interleaved in any order: at most one gets a new store and the file then holds exactly its data followed by zeros; every other process gets an error or a store on that same file holding that data; no other file changes; no process waits for another. If the path already holds a file nothing is changed.", "quantifier": "all sets of processes, sizes, data, interleavings of system calls, cuttings of the writes, file systems", "why_tests_cant": "tests do not run two processes, and a scheduler cannot be made to try all interleavings", "anchors": ["src/store/disk.rs::DiskStore::new_with_config", "src/store/disk.rs::DiskStore::new_from_slice_with_config", "src/store/disk.rs::DiskStore::new_from_disk_with_path"]}
{"id": "C83", "title": "Validated data are leaves whatever the shape of the proof object", "statement": "Under the default leaf/node/multi_node of Algorithm over a streaming hasher: if any proof object at all (any nesting, number of levels, layer counts) validates and carries the root of a base, two-layer or three-layer tree, then its innermost item is the value of the node of the tree at the address its paths spell; if moreover data y validates at the innermost layer, the address has exactly the tree's depth and y is the datum at that position; if validate_with_data holds for the object itself and all layers have two or more children, y is one of the data. Otherwise two different byte strings with equal hash are found, one hashed by the validation and one hashed in the tree.", "quantifier": "all proof objects, trees, arities, element types, hash functions, data", "why_tests_cant": "tests only validate generated proofs and a few altered ones of the tree's own shape; forged objects of other shapes (shorter, longer, nested differently) are not tried", "anchors": ["src/proof.rs::Proof::validate", "src/proof.rs::Proof::validate_with_data", "src/proof.rs::Proof::validate_sub_tree_proof", "src/hash.rs::Algorithm::leaf", "src/hash.rs::Algorithm::multi_node"]}
{"id": "C84", "title": "Deref views of VecStore and MmapStore", "statement": "The slice a VecStore dereferences to holds exactly the elements its reads return, for a built tree all nodes row by row. The bytes an MmapStore dereferences to are those its reads decode, for a tree built at a free path the encodings of all nodes row by row and nothing else; dereferencing panics exactly when the store has no map, in particular after compact.", "quantifier": "all stores, file systems, ranges, arities, leaf lists and algorithms", "why_tests_cant": "tests use the views implicitly on a few built stores; unmapped stores and the relation to every read are not covered", "anchors": ["src/store/vec.rs::VecStore::deref", "src/store/mmap.rs::MmapStore::deref", "src/store/mmap.rs::MmapStore::compact"]}
{"id": "C85", "title": "One proof per claim", "statement": "Any two validating proof objects the constructor accepts that have the same root, the same nesting and the same child positions are the same object, or at some step validate hashes two different node lists at the same height to one value. In particular the proof gen_proof returns is the only one of its claim.", "quantifier": "all pairs of proof objects, nestings, arities, algorithms, leaf lists", "why_tests_cant": "tests alter single nodes of a few proofs; differences in many nodes and layers at once are not tried", "anchors": ["src/proof.rs::Proof::new", "src/proof.rs::Proof::validate", "src/merkle.rs::MerkleTree::gen_proof"]}
{"id": "C86", "title": "A node depends only on the leaves below it", "statement": "In two trees of one size and arity, the node k of row r is the same whenever the leaves below it are. Replacing one leaf leaves all nodes not above it unchanged and changes every node above it (or exhibits a hash collision between two child lists of the trees). Of the proof of that leaf only the leaf and the root change, and the new root is what climbing from the new leaf with the old siblings gives; of the proof of any other leaf exactly one sibling and the root can change.", "quantifier": "all leaf lists, positions, arities, sizes, algorithms, constructors, pairs of stores, schedules", "why_tests_cant": "tests compare roots and validate proofs; a build that mixes in a neighbouring chunk consistently would still validate its own proofs", "anchors": ["src/store/mod.rs::Store::build", "src/store/disk.rs::DiskStore::process_layer", "src/merkle.rs::MerkleTree::gen_proof"]}
{"id": "C87", "title": "A proof reads no more than it contains", "statement": "gen_proof is decided by leaf i and the (b-1)*d siblings on its path; gen_cached_proof by one aligned segment of leaves, the siblings of row 0 and those of the rows that are not rebuilt. In particular a level-cache tree consults its external reader only inside the segment of leaf i, so a reader that fails or panics elsewhere gives the same proof, and holding that segment of the replica suffices for the proof of the original tree. In a tree of trees the other children matter only through their roots.", "quantifier": "all stores and store contents (also damaged ones), readers, arities, sizes, leaves, row arguments, compound trees", "why_tests_cant": "tests always supply the complete replica and intact siblings, so extra reads never show", "anchors": ["src/merkle.rs::MerkleTree::gen_proof", "src/merkle.rs::MerkleTree::gen_cached_proof", "src/merkle.rs::MerkleTree::gen_proof_with_partial_tree", "src/store/level_cache.rs::LevelCacheStore::store_read_into"]}
{"id": "C88", "title": "Reading a tree while another process compacts it", "statement": "While one process compacts the file of an on-disk tree, another process that opened the tree before reads, at every moment, the right value of every node or an error; for version 1 every leaf reads right at every moment. Whatever moments its reads fall at, a proof it generates that validates is a proof of the leaf asked for (or exhibits a hash collision).", "quantifier": "all built DiskStore trees, discard depths, both versions, moments of the compaction, copy chunkings, node positions, interleavings of reads", "why_tests_cant": "the reads of one process fall between the writes of another; the interesting states exist for microseconds", "anchors": ["src/store/disk.rs::DiskStore::compact", "src/store/disk.rs::DiskStore::read_at", "src/merkle.rs::MerkleTree::gen_proof"]}
{"id": "C89", "title": "A height-mixing hash pins the depth of a proof", "statement": "For a base tree and any proof object Proof::new accepts, of whatever depth: if it validates and carries the root, it is exactly the proof gen_proof makes for the leaf its path spells, or a multi_node call made by validate collides with a multi_node call of the builder that differs from it in height or nodes. For arity 2, when digests of different heights differ, no proof of another depth validates. For larger arities and two or more levels every validating proof exhibits such a collision, because the heights validate passes differ from those of the builder.", "quantifier": "all base trees, stores, builders, algorithms, arities, depths, proof objects accepted by Proof::new", "why_tests_cant": "tests use algorithms that drop the height and only proofs of the right depth", "anchors": ["src/proof.rs::Proof::validate", "src/proof.rs::Proof::new", "src/hash.rs::Algorithm::multi_node", "src/merkle.rs::MerkleTree::gen_proof"]}
{"id": "C90", "title": "A killed build that shows the right root is complete", "statement": "If the process of a build over a DiskStore, LevelCacheStore or MmapStore is killed at any point and a tree opened over the file it leaves has the Merkle root of the leaves of that build, and that root is not what zero bytes decode to, then every node of the opened tree reads as in the finished tree (for LevelCacheStore every node above the discarded rows): the root is written only after every other row. This is a matter of killed processes: after a power loss the root can be on the disk while other nodes are not.", "quantifier": "all kill points (between and inside writes, all worker schedules), leaves, algorithms, arities, depths, chunk sizes, discard counts, readers; any call with any data that finds the file again", "why_tests_cant": "no test kills a build, and the kill points and schedules cannot be enumerated", "anchors": ["src/store/disk.rs::DiskStore::process_layer", "src/store/level_cache.rs::LevelCacheStore::process_layer", "src/store/mmap.rs::MmapStore::new_from_disk", "src/store/mod.rs::Store::build", "src/merkle.rs::MerkleTree::from_data_store"]}
{"id": "C91", "title": "A root binds shape and data across all shapes of trees", "statement": "Under the default leaf/node/multi_node of Algorithm over a streaming hasher: two trees with equal roots, each base, two-layer or three-layer, of any arities, depths and counts, over any stores, have the same arities from the root down and the same elements in the same order (for trees over data of one readable type: the same data), or two different byte strings with equal hash were hashed when they were built. Conversely arities and elements determine the root. For any algorithm, also one that mixes in the height, two trees of one shape, compound ones included, with equal roots have equal leaves or two different node lists were hashed alike at one height. The leaf hash is needed: trees over elements stored as they are (from_byte_slice) of different sizes can share a root without a collision.", "quantifier": "all pairs of trees, shapes, stores, builders, arities, element types, hash functions, data", "why_tests_cant": "quantifies over pairs of trees and all hash functions; tests compare a handful of roots", "anchors": ["src/hash.rs::Algorithm::leaf", "src/hash.rs::Algorithm::multi_node", "src/merkle.rs::MerkleTree::from_trees", "src/merkle.rs::MerkleTree::from_sub_trees", "src/merkle.rs::MerkleTree::from_byte_slice"]}
{"id": "C92", "title": "From data to an accepted proof over the life of a tree", "statement": "Data whose number is a full tree are built with from_data_with_config on disk at a free path, compacted with a discard depth that leaves a row and is at most the default, opened as a LevelCacheStore in a later process (version 1 from the file alone, other versions over a replica file that starts with the leaves) and wrapped by from_data_store: every step succeeds, the opened tree has the Merkle root of the data, and gen_cached_proof makes for every datum a proof with this root, whose path is the datum's index, which validates and which validate_with_data accepts for exactly the data with the datum's leaf hash. The same for trees built directly over a LevelCacheStore with a replica attached afterwards. For arity 2 any algorithm; for larger arities one that ignores the height (C19).", "quantifier": "all data, arities, depths, discard depths up to the default, paths, file systems, copy piece sizes, chunk sizes and schedules, element types, algorithms", "why_tests_cant": "tests follow single sizes and configurations through the steps; the composition for all data, replicas and schedules needs the invariants between the steps", "anchors": ["src/merkle.rs::MerkleTree::from_data_with_config", "src/store/disk.rs::DiskStore::compact", "src/store/level_cache.rs::LevelCacheStore::new_from_disk", "src/store/level_cache.rs::LevelCacheStore::new_from_disk_with_reader", "src/merkle.rs::MerkleTree::from_data_store", "src/merkle.rs::MerkleTree::gen_cached_proof", "src/proof.rs::Proof::validate_with_data"]}
{"id": "C93", "title": "A power loss after a LevelCacheStore build", "statement": "If the power fails after a LevelCacheStore build from items has returned, the file still holds the cached rows. (A power loss may undo, byte by byte, anything written since the last sync of the file, and changes of its length.)", "quantifier": "all element types, algorithms, arities, depths, discard depths, schedules, copy piece sizes, and all subsets of lost bytes", "why_tests_cant": "tests never lose power; the mixtures of old and new bytes are exponentially many", "anchors": ["src/store/level_cache.rs::LevelCacheStore::build", "src/store/level_cache.rs::LevelCacheStore::front_truncate", "src/store/level_cache.rs::LevelCacheStore::sync", "src/store/level_cache.rs::LevelCacheStore::is_consistent", "src/merkle.rs::populate_data"]}
{"id": "C94", "title": "A power loss after a MmapStore build", "statement": "If the power fails after a MmapStore build at a fresh path has returned, the file still holds the tree. (A power loss may undo, byte by byte, anything written since the file was created, and changes of its length.) Whatever is left, building again with items at that path never silently uses it, and from_byte_slice_with_config replaces it or fails.", "quantifier": "all element types, algorithms, arities, depths, schedules, and all subsets of lost bytes", "why_tests_cant": "tests never lose power; the mixtures of old and new bytes are exponentially many", "anchors": ["src/store/mod.rs::Store::sync", "src/store/mmap.rs::MmapStore::new_with_config", "src/store/mmap.rs::MmapStore::new_from_disk", "src/store/mmap.rs::MmapStore::copy_from_slice", "src/store/mmap.rs::MmapStore::new_from_slice_with_config"]}
{"id": "C95", "title": "Comparing proofs", "statement": "The derived == of Proof is true exactly for proofs that agree in all parts, including nested proofs; == proofs get the same verdict under every algorithm and arity. Proofs generated from trees of the same leaves are == exactly if they were asked for the same index, whatever stores hold the trees and however they were built; the same within a compound tree. Two valid proofs of one shape and path for one root are == or exhibit a collision of the hash.", "quantifier": "all proofs, element types, algorithms, arities, trees, stores, schedules and indices", "why_tests_cant": "tests compare a few proofs of one tree; the statement is about all pairs", "anchors": ["src/proof.rs::Proof", "src/proof.rs::Proof::validate", "src/merkle.rs::MerkleTree::gen_proof"]}
{"id": "C96", "title": "A tree and its level-cache twin in one directory", "statement": "Build a complete tree on disk at a free path, then, with any constructor, a level-cache tree of the same leaves at a configuration derived from the first by from_config with another name, and let the first tree's file serve as the second's external leaf file. Then both builds succeed, the second leaves the first's file as it was, both trees have the Merkle root of the leaves and the same shape, and the cached proofs of the second are the proofs of the first, which are valid if the arity is two or the hash ignores the height. (The discard count is below the depth and at most the default.)", "quantifier": "all element types, algorithms, arities, depths, leaves, discard counts up to the default, pairs of constructors with configurations, schedules, file systems with both paths free", "why_tests_cant": "the tests do this for a few sizes and XOR128 and check a few indices", "anchors": ["src/store/mod.rs::StoreConfig::from_config", "src/store/level_cache.rs::LevelCacheStore::build", "src/merkle.rs::MerkleTree::set_external_reader_path", "src/merkle.rs::MerkleTree::gen_cached_proof", "src/merkle.rs::MerkleTree::gen_proof"]}
{"id": "C97", "title": "Compound trees over level caches built in one directory", "statement": "Given a replica file that holds the leaves of several base trees at known offsets, build a level-cache tree for each, one after another, with any constructors, at paths that are free. Then all builds succeed if the paths differ and a row is left to cache in each, and from_store_configs_and_replica and from_sub_tree_store_configs_and_replica over these configurations give trees with the root, shape and leaves of the compound tree over any other store, whose cached proofs (discard counts at most the default) are the proofs of that tree, valid if the hash ignores the height.", "quantifier": "all element types, algorithms, arities, depths, numbers of trees, leaves, discard counts, constructors, schedules, replica offsets, file systems", "why_tests_cant": "the tests do this for two shapes with XOR128 and one discard count", "anchors": ["src/merkle.rs::MerkleTree::from_store_configs_and_replica", "src/merkle.rs::MerkleTree::from_sub_tree_store_configs_and_replica", "src/store/level_cache.rs::LevelCacheStore::build", "src/store/level_cache.rs::LevelCacheStore::new_from_disk_with_reader", "src/merkle.rs::MerkleTree::gen_cached_proof"]}
{"id": "C98", "title": "The Debug text of a LevelCacheStore", "statement": "The text that {:?} prints for a LevelCacheStore gives every field it names with the value of that field, and two stores print alike only if the named fields agree.", "quantifier": "all stores (any lengths, sizes, flags), all element types", "why_tests_cant": "no test looks at the Debug output; the value under elem_len looks plausible for any one store", "anchors": ["src/store/level_cache.rs::LevelCacheStore::fmt"]}
{"id": "C99", "title": "store_size is the size of the file", "statement": "The size that a DiskStore or a LevelCacheStore caches, returns from store_size() and checks writes against is the size of its file, for every store returned by a constructor or opened from a file, after any sequence of operations, and for the store of every built or compacted tree.", "quantifier": "all stores and files, all sequences of successful and failing operations, all element types, leaf counts, arities and compactions", "why_tests_cant": "the tests compare store_size() or the file length only for the few stores they build; a stale size is used silently in the bound checks of push and of writes", "anchors": ["src/store/disk.rs::DiskStore::store_size", "src/store/disk.rs::DiskStore::compact", "src/store/level_cache.rs::LevelCacheStore::store_size", "src/store/level_cache.rs::LevelCacheStore::build"]}
