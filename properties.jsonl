{"id": "C01", "title": "DenseTree behaves as a finite map", "statement": "A DenseTree behaves like a map from usize keys below 64^DEPTH to values: after any history of insert / get_or_insert / remove / get calls, each call returns exactly what the same call on a mathematical map would return (remove returns the removed value, get the last inserted one, other keys are never disturbed), at every depth >= 2 (depth 1 `remove` is C36).", "quantifier": "every depth, every finite sequence of operations with every key and value", "why_tests_cant": "The interesting states (node reallocation at every capacity doubling, swap_remove renumbering, node deletion chains, re-creation) arise from unbounded histories; tests sample a few.", "anchors": ["src/dense_tree.rs: DenseTree::{insert,get_or_insert,remove}, HibitTree::data", "src/dense_tree/node.rs: NodePtr::{insert,remove,new}", "src/hibit_tree.rs: HibitTree::get"]}
{"id": "C02", "title": "SparseTree behaves as a finite map", "statement": "A SparseTree behaves like a map from usize keys below WIDTH^DEPTH to values, for any history of insert / get_or_insert / remove / get / get_mut / get_or_default calls, as long as the number of simultaneously live blocks per level stays below what the level's index type can express (the configs width_64 and width_128 guarantee this for any history with fewer than 2^32-1 live elements).", "quantifier": "every width, depth and index-width configuration, every finite history", "why_tests_cant": "Block reuse through the intrusive free list, swap_remove renumbering and empty-block deletion interleave in unboundedly many ways.", "anchors": ["src/sparse_tree.rs: SparseTree::{insert,get_or_insert,get_or_insert_impl,remove,get_mut,get_or_default}, HibitTree::data", "src/level/intrusive_list_level.rs", "src/level_block/block.rs", "src/config.rs"]}
{"id": "C03", "title": "DenseTree iteration is sorted and complete", "statement": "Iterating a DenseTree yields every stored (key, value) pair exactly once, in strictly ascending key order, and nothing else, then ends.", "quantifier": "every reachable DenseTree of every depth", "why_tests_cant": "Needs all shapes of hierarchy and all bit patterns.", "anchors": ["src/iter.rs: Iter::next", "src/dense_tree.rs: Cursor", "src/bit_queue.rs"]}
{"id": "C04", "title": "SparseTree iteration is sorted and complete", "statement": "Iterating a SparseTree yields every stored (key, value) pair exactly once, in strictly ascending key order, and nothing else, then ends.", "quantifier": "every reachable SparseTree of every width/depth (SparseTrees: within C02's condition on links; what happens beyond it is C28 and C64)", "why_tests_cant": "Needs all shapes of hierarchy and all bit patterns, including after block reuse.", "anchors": ["src/iter.rs: Iter::next", "src/sparse_tree.rs: Cursor", "src/bit_queue.rs: ArrayBitQueue"]}
{"id": "C05", "title": "Unordered key/value enumeration equals the map", "statement": "key_values() of both containers yields exactly the stored pairs, each once (in unspecified order), without duplicates or placeholders.", "quantifier": "every reachable container (SparseTrees: within C02's condition on links; what happens beyond it is C28 and C64)", "why_tests_cant": "swap_remove keeps two parallel vectors in step over unbounded histories.", "anchors": ["src/dense_tree.rs: DenseTree::key_values", "src/sparse_tree.rs: SparseTree::key_values"]}
{"id": "C06", "title": "Out-of-range keys are rejected, exactly, and without damage", "statement": "insert, get_or_insert, remove, get, get_mut panic exactly for keys >= min(WIDTH^DEPTH, usize::MAX), and a rejected call leaves the container's content unchanged; every smaller key is accepted.", "quantifier": "every key (any usize), every width/depth, every reachable container (SparseTrees: within C02's condition on links; what happens beyond it is C28 and C64)", "why_tests_cant": "Boundary behaviour has to hold for every width/depth combination and every state.", "anchors": ["src/hibit_tree.rs: impl From<usize> for Index"]}
{"id": "C07", "title": "Keys and hierarchy paths are in bijection, in order", "statement": "Splitting a key into its per-level indices and recombining them gives the key back; every path of in-range level indices is the path of exactly one key; and numeric order of keys equals lexicographic order of paths.", "quantifier": "every width that is a power of two, every depth, every key", "why_tests_cant": "Shift/mask arithmetic over the full key space.", "anchors": ["src/lib.rs: level_indices, data_block_index"]}
{"id": "C08", "title": "index_range describes the accepted keys", "statement": "HibitTree::index_range() is computed without overflow and contains exactly the keys that the container accepts.", "quantifier": "every width/depth supported by the configs", "why_tests_cant": "Arithmetic at the extremes of the configuration space (256^8 = 2^64).", "anchors": ["src/hibit_tree.rs: HibitTree::index_range, impl From<usize> for Index"]}
{"id": "C09", "title": "intersection is key intersection", "statement": "intersection(a,b): get(k) is Some((x,y)) exactly when a.get(k)=Some(x) and b.get(k)=Some(y); iteration yields exactly these pairs in ascending key order.", "quantifier": "all operand trees (containers or lazy views), all keys", "why_tests_cant": "False-positive nodes in the AND-ed hierarchy may occur at any depth in any combination.", "anchors": ["src/ops/intersection.rs: Intersection, Cursor"]}
{"id": "C10", "title": "union is key union", "statement": "union(a,b): get(k) is Some((a.get(k), b.get(k))) when either is Some and None otherwise; iteration yields exactly these in ascending key order.", "quantifier": "all operand trees, all keys", "why_tests_cant": "One side may lack nodes at any level of the path; all combinations matter.", "anchors": ["src/ops/union.rs: Union, Cursor"]}
{"id": "C11", "title": "map keeps keys and transforms values", "statement": "map(t,f): get(k) = f applied to t.get(k); iteration yields the same keys in the same order with f applied.", "quantifier": "all trees, all functions, all keys", "why_tests_cant": "Quantifies over functions.", "anchors": ["src/ops/map.rs: MappedHibitTree"]}
{"id": "C12", "title": "multi_intersection is n-ary key intersection", "statement": "multi_intersection over at least one and at most 32 trees: get(k) yields the values of all trees in order iff all contain k, else None; iteration agrees with get and is in ascending key order. (Zero trees and >32 trees are covered by explicit findings.)", "quantifier": "all sequences of trees, all keys", "why_tests_cant": "Any number of operands and any mix of partially overlapping hierarchies.", "anchors": ["src/ops/_multi_intersection.rs: MultiIntersection, Cursor"]}
{"id": "C13", "title": "multi_union is n-ary key union", "statement": "multi_union over at most 32 trees: get(k) yields, in order, the values of those trees that contain k, None if there are none; iteration agrees with get and is in ascending key order.", "quantifier": "all sequences of trees, all keys, every depth", "why_tests_cant": "Per-level bookkeeping of non-empty subtrees must be right for every selection history.", "anchors": ["src/ops/_multi_union.rs: MultiUnion, Cursor"]}
{"id": "C14", "title": "multi_map_fold folds the present values", "statement": "multi_map_fold(t, init, f): get(k) = fold of f over the values t yields at k starting from init, and iteration yields the same.", "quantifier": "all trees with iterator data, all fold functions", "why_tests_cant": "Quantifies over functions and trees.", "anchors": ["src/ops/multi_map_fold.rs: MultiMapFold"]}
{"id": "C15", "title": "Lazy compositions are transparent", "statement": "For any nesting of map / union / intersection / multi_union / multi_intersection / multi_map_fold over containers, iteration of the composed view yields exactly the pairs (k, v) with get(k)=Some(v), in ascending order of k.", "quantifier": "all finite nestings of the combinators over all containers", "why_tests_cant": "Unbounded expression trees.", "anchors": ["src/ops/mod.rs", "src/iter.rs", "src/hibit_tree.rs"]}
{"id": "C16", "title": "Exact hierarchies have no empty branches", "statement": "In a tree that declares EXACT_HIERARCHY, the mask of every node reached from the root has a bit set iff some stored key lies below that child; in particular removing the last key below a node removes the node.", "quantifier": "every reachable DenseTree / SparseTree, and every map/union view of exact trees", "why_tests_cant": "An invariant over all histories.", "anchors": ["src/hibit_tree.rs: HibitTree::EXACT_HIERARCHY", "src/dense_tree.rs: remove", "src/sparse_tree.rs: remove", "src/ops/union.rs", "src/ops/map.rs"]}
{"id": "C17", "title": "Materializing an exact tree copies its content", "statement": "DenseTree::from_sparse_hierarchy / materialize of a tree declaring EXACT_HIERARCHY has exactly the same get / iteration, and the resulting DenseTree keeps behaving like a map under any further history.", "quantifier": "every exact tree of 64-bit width, all further histories", "why_tests_cant": "Quantifies over trees and over the histories executed afterwards.", "anchors": ["src/dense_tree/from.rs: from_exact_sparse_hierarchy, make_terminal_node", "src/hibit_tree.rs: materialize"]}
{"id": "C18", "title": "Materializing a non-exact tree copies its content", "statement": "DenseTree::from_sparse_hierarchy of a tree that does not declare EXACT_HIERARCHY (e.g. an intersection) is defined behaviour, has exactly the same content, and the resulting DenseTree keeps behaving like a map under further operations.", "quantifier": "every non-exact tree of 64-bit width, all further histories", "why_tests_cant": "Depends on which branches turn out empty; later mutation needs histories.", "anchors": ["src/dense_tree/from.rs: from_sparse_hierarchy", "src/dense_tree/node.rs: NodePtr::from_parts"]}
{"id": "C19", "title": "DenseTree never touches invalid memory and never leaks nodes", "statement": "No operation on a DenseTree reads or writes a freed node, an out-of-bounds slot, an uninitialised slot, or the shared static empty nodes; every node allocated is reachable from the root, and dropping the tree frees each of them exactly once.", "quantifier": "every history at depth >= 2, followed by drop", "why_tests_cant": "Memory errors depend on reallocation patterns and are silent in most test runs.", "anchors": ["src/dense_tree/node.rs", "src/dense_tree.rs: drop_impl, remove, get_or_insert_impl"]}
{"id": "C20", "title": "Primitive bit queue enumerates set bits in order", "statement": "A 64-bit bit queue yields the set bit indices in ascending order, each once; `current` is the next index (64 when empty); `trim_to(n)` removes exactly the indices below n; `filled`/`empty` hold all/no bits.", "quantifier": "every u64 and every n", "why_tests_cant": "2^64 masks x all positions.", "anchors": ["src/bit_queue.rs: PrimitiveBitQueue, saturating_shl", "src/bit_utils.rs: OneBitsIter"]}
{"id": "C21", "title": "Array bit queue enumerates set bits in order", "statement": "A 128/256-bit bit queue yields the set bit indices in ascending order, each once, under any interleaving of next and trim_to; traverse visits the remaining indices in order; `current` is the next index.", "quantifier": "every mask and every sequence of next / trim_to calls", "why_tests_cant": "Word-boundary crossings with interleaved trims.", "anchors": ["src/bit_queue.rs: ArrayBitQueue"]}
{"id": "C22", "title": "get_or_default", "statement": "On a SparseTree over a Default value type, get_or_default(k) returns the stored value if present and the default value otherwise, for every in-range key.", "quantifier": "every reachable tree, every key (SparseTrees: within C02's condition on links; what happens beyond it is C28 and C64)", "why_tests_cant": "The placeholder at slot 0 must survive every history.", "anchors": ["src/sparse_tree.rs: get_or_default, remove"]}
{"id": "C23", "title": "Unchecked accessors agree with checked ones", "statement": "For a key that is present, get_unchecked / data_unchecked / get_mut_unchecked return the same value get / get_mut do, without undefined behaviour.", "quantifier": "all trees including all lazy views, all present keys (SparseTrees: within C02's condition on links; what happens beyond it is C28 and C64)", "why_tests_cant": "Undefined behaviour is invisible to tests.", "anchors": ["src/hibit_tree.rs: HibitTree::get_unchecked", "data_unchecked in src/dense_tree.rs, src/sparse_tree.rs, src/ops/*"]}
{"id": "C24", "title": "Cursor protocol: re-selection is stateless", "statement": "After any history of select_level_node calls, selecting a node path level by level and then reading data(i) gives exactly the element under that path and i, independent of earlier selections; select of a non-existent child yields an empty mask; the unchecked selection agrees with the checked one on existing nodes.", "quantifier": "all trees including lazy views, all selection histories (SparseTrees: within C02's condition on links; what happens beyond it is C28 and C64)", "why_tests_cant": "Cursors keep per-level state; stale state bugs need particular selection orders.", "anchors": ["src/hibit_tree.rs: HibitTreeCursor", "src/ops/_multi_union.rs: Cursor", "src/ops/_multi_intersection.rs: Cursor"]}
{"id": "C25", "title": "SparseTree reuses freed blocks", "statement": "The number of blocks a SparseTree holds at each level never exceeds one more than the largest number of blocks that were simultaneously needed at that level; freed blocks are handed out again and are empty when reused.", "quantifier": "every history (SparseTrees: within C02's condition on links; what happens beyond it is C28 and C64)", "why_tests_cant": "Leaks accumulate only over long insert/remove histories.", "anchors": ["src/level/intrusive_list_level.rs: insert_empty_block, pop_empty_block, push_empty_block"]}
{"id": "C26", "title": "DenseTree node capacity arithmetic never overflows", "statement": "A node of a DenseTree never needs more than 65 slots, its u8 len/cap counters never overflow, and capacity is always at least the number of used slots.", "quantifier": "every history", "why_tests_cant": "Capacity sequences depend on how the tree was built (insert vs materialize).", "anchors": ["src/dense_tree/node.rs: NodePtr::{insert,raw_new,from_parts}"]}
{"id": "C27", "title": "A panicking value constructor leaves the map intact", "statement": "If the value constructor used by get_or_insert panics, the container still behaves as the map it was before the call, and further operations are memory-safe.", "quantifier": "every reachable container, every key (SparseTrees: within C02's condition on links; what happens beyond it is C28 and C64)", "why_tests_cant": "Panic-safety must hold at every state.", "anchors": ["src/dense_tree.rs: get_or_insert_impl", "src/sparse_tree.rs: get_or_insert_impl"]}
{"id": "C28", "title": "No silent loss through narrow index types", "statement": "An inserted element is never lost: with every predefined configuration of SparseTree, insert(k,v) followed by get(k) returns v, however many blocks/elements exist.", "quantifier": "every config::width_* x depth_*, every reachable tree", "why_tests_cant": "Truncation by `as` cast appears only when a level is completely full (256 or 65536 blocks).", "anchors": ["src/config.rs", "src/utils/primitive.rs", "src/level_block/block.rs: insert", "src/sparse_tree.rs: get_or_insert_impl"]}
{"id": "C29", "title": "Iteration terminates and stays finished", "statement": "An iterator over any tree returns None after finitely many items, and keeps returning None afterwards.", "quantifier": "all trees and lazy views", "why_tests_cant": "Termination for all inputs.", "anchors": ["src/iter.rs: Iter::next"]}
{"id": "C30", "title": "Bit-block operations are a set of indices", "statement": "set_bit / get_bit / count_ones / traverse_bits / iteration of 64/128/256-bit blocks behave as operations on a finite set of indices; set_bit returns the previous membership; traversal is in ascending order and stops right after the callback says Break. SIZE is the number of indices: exactly the indices below it can be set.", "quantifier": "all masks, all indices, all callbacks", "why_tests_cant": "2^256 masks; arbitrary callbacks.", "anchors": ["src/bit_block.rs: BitBlock", "src/bit_utils.rs"]}
{"id": "C31", "title": "Compile-time range loops visit the range", "statement": "The internal const_for / const_for_rev helpers visit exactly the integers of from..to in (reverse) order, stopping on Break.", "quantifier": "all from <= to, all callbacks", "why_tests_cant": "Every instantiation; only from = 0 is exercised.", "anchors": ["src/const_utils/const_int.rs: ConstIntVisitor, iterate_as_range, iterate_as_range_rev, const_for, const_for_rev", "src/const_utils/const_loop.rs"]}
{"id": "C32", "title": "Every stored value is dropped exactly once", "statement": "Over the lifetime of a container, each value moved in is either returned by remove, replaced by insert (dropped then), or dropped when the container is dropped, exactly once; the internal placeholder value of a constructed container is dropped once, with it.", "quantifier": "every history followed by drop (SparseTrees: within C02's condition on links; what happens beyond it is C28 and C64)", "why_tests_cant": "Double drops/leaks depend on the history.", "anchors": ["src/dense_tree.rs: drop_impl, remove, insert", "src/sparse_tree.rs: drop_impl, remove, insert", "src/req_default.rs"]}
{"id": "C33", "title": "Mutable access changes only its target", "statement": "get_mut / get_or_insert hand out a reference to the value of exactly the requested key: writing through it changes get(k) for that key only; key_values_mut exposes each stored value exactly once.", "quantifier": "every reachable tree, every key, every written value (SparseTrees: within C02's condition on links; what happens beyond it is C28 and C64)", "why_tests_cant": "Aliasing of slots over all histories.", "anchors": ["src/sparse_tree.rs: get_mut, get_or_insert, key_values_mut", "src/dense_tree.rs: get_or_insert"]}
{"id": "C34", "title": "History independence", "statement": "Two containers whose histories produce the same abstract map are observationally equal: same get for all keys, same ordered iteration, same key/value set.", "quantifier": "all pairs of histories (SparseTrees: within C02's condition on links; what happens beyond it is C28 and C64)", "why_tests_cant": "Pairs of unbounded histories.", "anchors": ["src/dense_tree.rs", "src/sparse_tree.rs", "src/iter.rs"]}
{"id": "C35", "title": "DenseTree and SparseTree are interchangeable", "statement": "Running the same history on a DenseTree and on a 64-wide SparseTree of equal depth gives the same answers and the same ordered iteration.", "quantifier": "all histories, all depths >= 2 (SparseTrees: within C02's condition on links; what happens beyond it is C28 and C64)", "why_tests_cant": "Needs all histories.", "anchors": ["src/dense_tree.rs", "src/sparse_tree.rs"]}
{"id": "C36", "title": "Depth-1 DenseTree supports removal", "statement": "DenseTree<T,1>::remove(k) of a present key is defined behaviour and returns the value.", "quantifier": "all depth-1 trees", "why_tests_cant": "Undefined behaviour may look like success in a test run.", "anchors": ["src/dense_tree.rs: remove"]}
{"id": "C37", "title": "Item iterators of multi_union / multi_intersection are honest iterators", "statement": "The per-key item iterators handed out by multi_intersection and multi_union (through get_unchecked and through cursors) return the operands' values in operand order via next() and then None forever; consuming the rest with fold() instead, after any number of next() calls, visits exactly the remaining items; size_hint brackets the number of remaining items, and is exact for multi_intersection.", "quantifier": "any number of operands, any interleaving of next() with a final fold()", "why_tests_cant": "next, fold and size_hint are three separate implementations that must agree for every operand list and stopping point.", "anchors": ["src/ops/_multi_intersection.rs: DataUnchecked, CursorData", "src/ops/_multi_union.rs: DataUnchecked, CursorData"]}
{"id": "C38", "title": "A panicking T::default during construction is safe", "statement": "If T::default panics inside SparseTree::default / new, the panic propagates and no value that was never constructed is dropped.", "quantifier": "all configurations", "why_tests_cant": "Undefined behaviour during unwinding may look like success in a test run.", "anchors": ["src/sparse_tree.rs: Default::default, Drop", "src/req_default.rs: DefaultInit"]}
{"id": "C39", "title": "DenseTree loses no element, however many it holds", "statement": "insert(k, v) on a DenseTree that holds any number of elements makes get(k) return v (the u32 element index never wraps).", "quantifier": "every reachable tree, including ones with 2^32 elements", "why_tests_cant": "Nobody runs a test with 2^32 elements.", "anchors": ["src/dense_tree.rs: DataIndex, get_or_insert_impl"]}
{"id": "C40", "title": "Bit queues work for every primitive width", "statement": "EmptyBitQueue, PrimitiveBitQueue<P> and ArrayBitQueue<P,N> for P = u8/u16/u32/u64: under any interleaving of next and trim_to they yield the set bit indices in ascending order, each once; traverse and for_each visit exactly the remaining indices in order (traverse stopping after Break); current is the next index (capacity when empty).", "quantifier": "every P, N >= 1, every content, every sequence of calls and every callback", "why_tests_cant": "The in-crate users only exercise u64; the public generic types promise all widths.", "anchors": ["src/bit_queue.rs: EmptyBitQueue, PrimitiveBitQueue, ArrayBitQueue", "src/bit_utils.rs", "src/utils/primitive.rs: Primitive"]}
{"id": "C41", "title": "Iteration cost: an iteration selects each needed node once and nothing else", "statement": "Draining the iterator of a container or lazy view selects every node at most once and every node that contains an element; for trees that declare EXACT_HIERARCHY it selects no other node but the root, so at most 1 + (depth-1) * (number of yielded elements) nodes. The iteration of an intersection selects exactly the nodes that both operands' iterations select, of a union those that either selects, of multi_intersection / multi_union likewise, and map / multi_map_fold do not change the set. In a nesting that declares EXACT_HIERARCHY (no panicked constructor) every single call of next, after any number of calls, selects at most depth - 1 nodes.", "quantifier": "every reachable container or nested view, every content", "why_tests_cant": "The promised O(output) behaviour ('never traverses non-intersecting branches') is about all contents; tests observe results, not the set of visited nodes.", "anchors": ["src/iter.rs: Iter::new, Iter::next", "src/hibit_tree.rs: EXACT_HIERARCHY", "src/ops/intersection.rs", "src/ops/union.rs", "src/ops/_multi_intersection.rs", "src/ops/_multi_union.rs"]}
{"id": "C42", "title": "A lazy expression over containers is the same expression over finite maps", "statement": "Take any nesting of map, multi_map_fold, union, intersection, multi_union, multi_intersection and materialize over DenseTrees and SparseTrees, each produced by its own history of public calls. get and iteration of the expression return exactly what one gets by replacing every container by the finite map of its history and every operation by the map operation; e.g. the README's sparse dot product is the sum over the common keys.", "quantifier": "every expression shape, every history of every container, every key", "why_tests_cant": "End-to-end: composes all containers' histories with all view nestings.", "anchors": ["src/ops/*.rs", "src/iter.rs: Iter", "src/dense_tree/from.rs", "src/dense_tree.rs", "src/sparse_tree.rs", "examples/readme_sparse_vec_dot.rs"]}
{"id": "C43", "title": "Lazy operations obey set algebra", "statement": "As observed by iteration (keys, order and values): intersection and union are commutative, associative and commute with map, maps fuse, multi_intersection of two trees is their intersection. The key sets also obey absorption and both distributive laws, multi_union of two trees has the keys of their union (and its values when no multi_union lies below a union or multi_union), and reordering the operands of multi_* does not change the keys.", "quantifier": "every pair / triple / list of reachable views, any nesting", "why_tests_cant": "Universally quantified equations between different programs.", "anchors": ["src/ops/intersection.rs", "src/ops/union.rs", "src/ops/map.rs", "src/ops/_multi_intersection.rs", "src/ops/_multi_union.rs"]}
{"id": "C44", "title": "A panicking element destructor does not break the containers", "statement": "insert over an element whose destructor panics unwinds with the old element dropped once and the new one stored, the tree staying usable; dropping a tree one of whose elements' destructors panics drops every element at most once and then unwinds.", "quantifier": "every history of either container, every set of elements with panicking destructors (SparseTrees: within C02's condition on links; what happens beyond it is C28 and C64)", "why_tests_cant": "Double drops during unwinding are undefined behaviour that a test run may not notice, and the panic may come from any element.", "anchors": ["src/dense_tree.rs: drop_impl, get_or_insert_impl", "src/sparse_tree.rs: drop_impl, get_or_insert_impl"]}
{"id": "C45", "title": "A panic of the source during materialize reaches the caller safely", "statement": "If the mapping function of a view (or any source tree) panics while it is materialized, the panic propagates to the caller without undefined behaviour and nothing allocated for the copy is left behind; if it never panics on an element the copy holds exactly its results.", "quantifier": "every nested view, every function, every element on which it panics", "why_tests_cant": "The partially built vectors exist only during the unwinding; a test sees a panic either way.", "anchors": ["src/dense_tree/from.rs: from_sparse_hierarchy", "src/ops/map.rs"]}
{"id": "C46", "title": "DenseTree's memory follows its content", "statement": "After any history of calls (without panicking constructors) a DenseTree holds exactly one allocation for its root and one per non-empty subtree, so removing elements gives the memory of emptied subtrees back; its two vectors hold the elements and one placeholder; each allocation is at most 1040 bytes. A tree materialized from an exact source holds the same nodes.", "quantifier": "every history, every depth, every materialized view", "why_tests_cant": "Leaks of emptied nodes show only for particular insert/remove orders.", "anchors": ["src/dense_tree.rs: get_or_insert_impl, remove, get_branch", "src/dense_tree/node.rs", "src/dense_tree/from.rs"]}
{"id": "C47", "title": "Node slots stay inside their allocation", "statement": "For both child types and every capacity, the header fields and every child slot below the capacity lie inside the allocated layout, are disjoint and aligned; the static empty node offers one slot of either type; layout sizes do not overflow.", "quantifier": "every child type, capacity, slot index and aligned base address", "why_tests_cant": "Out-of-bounds and misaligned accesses need not crash a test.", "anchors": ["src/dense_tree/node.rs: NodeHeaderN, layout, children_addr_offset, children_ptr, EmptyNode"]}
{"id": "C48", "title": "A panicking mapping or folding function costs only the element it panics on", "statement": "While a map or multi_map_fold over any view is read with get or iterated, a panic of the user's function, caught by the caller, loses exactly the element it was called for: the same iterator then continues with the following elements in order and ends normally, and get of every other key is unaffected.", "quantifier": "all views, all partial functions, any number of next calls", "why_tests_cant": "An iterator that stores its position after calling user code would repeat or skip elements only when a panic hits at a particular level boundary.", "anchors": ["src/iter.rs: Iter::next", "src/ops/map.rs", "src/ops/multi_map_fold.rs"]}
{"id": "C49", "title": "A tree implemented by the client composes with the library's", "statement": "A client's own implementation of HibitTree and HibitTreeCursor (e.g. a generative tree) whose methods keep the traits' contract - every protocol session of its cursor succeeds and returns the masks a fresh cursor finds, masks announce every element, terminal masks announce nothing else, data agrees between tree and cursor - can stand wherever a container can: get, get_unchecked and iteration agree on it, every lazy operation over it and containers keeps the same contract, and materialize copies it if it declares EXACT_HIERARCHY.", "quantifier": "every implementation of the two traits that keeps the contract, every nested expression over such trees and containers", "why_tests_cant": "The space of client implementations is open; a test can try only particular ones.", "anchors": ["src/hibit_tree.rs: HibitTree, HibitTreeCursor", "src/iter.rs", "src/ops", "src/dense_tree/from.rs"]}
{"id": "C50", "title": "User functions with side effects are called when and only when an element is looked up", "statement": "A mapping or folding function that counts, logs or changes shared state sees exactly these calls: get(k) evaluates the expression once for k, m calls of next evaluate it once for each of the first m keys in ascending order and nothing afterwards, materialize once for every key in ascending order, and creating an iterator or selecting nodes evaluates nothing. Evaluating for a key calls a map's function once iff its source has the key, a fold's init once and its function once per operand element in operand order, and evaluates both operands of an intersection and of a union, left before right (so the left operand of an intersection is evaluated even for keys the right one lacks, when the intersection is asked for such a key by get or by an enclosing union). Without intersections no function is called for an absent key.", "quantifier": "all nested expressions of map, multi_map_fold, intersection and union over closure-free views, all stateful functions, all states, any number of next calls", "why_tests_cant": "Call counts depend on which operand holds which key at every level; a test fixes one expression and one content.", "anchors": ["src/ops/map.rs", "src/ops/multi_map_fold.rs", "src/ops/intersection.rs", "src/ops/union.rs", "src/iter.rs: Iter::next", "src/dense_tree/from.rs", "src/utils/function.rs"]}
{"id": "C51", "title": "User functions may panic and have side effects in any operand: each access evaluates its key once and a panic costs only that element", "statement": "With functions that change state and may panic anywhere in an expression - in map, in multi_map_fold, in a function that consumes the data iterator of multi_intersection or multi_union (also partly), and inside the operands of all of these - get(k) evaluates the expression once for k, m calls of next (the caller catching the panics) evaluate it once for each of the first m keys in order, each panic losing only its own element, and nothing is evaluated past the end. A present key gives an element unless one of its functions panics; an absent key gives none. The evaluation of a key is given exactly: which functions run, in which order, on what, and that a panic ends it at once. The data iterators of the multi operations evaluate their operands lazily, one per item consumed, except in get, which evaluates them all first.", "quantifier": "all nested expressions of map, intersection, union, multi_intersection and multi_union with consumers, all functions, all states, all panic points, any number of next calls", "why_tests_cant": "Every function can panic at every call; a test has one schedule of panics and one expression.", "anchors": ["src/ops/map.rs", "src/ops/multi_map_fold.rs", "src/ops/_multi_intersection.rs: data, DataUnchecked, CursorData", "src/ops/_multi_union.rs: data, DataUnchecked, CursorData", "src/ops/intersection.rs", "src/ops/union.rs", "src/iter.rs: Iter::next"]}
{"id": "C52", "title": "get, get_unchecked and iteration make the same calls for a key", "statement": "For a present key, get, get_unchecked and the iterator call the same user functions in the same order and return the same element, whatever the functions do to shared state.", "quantifier": "all nested expressions, all stateful and panicking functions, all keys", "why_tests_cant": "Differences in call order show only with functions that observe the order.", "anchors": ["src/ops/_multi_intersection.rs: data, DataUnchecked, CursorData", "src/ops/_multi_union.rs: data, DataUnchecked, CursorData", "src/ops/multi_map_fold.rs"]}
{"id": "C53", "title": "The public compile-time helpers compute what they say: integer steps, split_last, conditional types", "statement": "Stepping a compile-time integer up or down and back returns it, leaving 0..=9 panics, the saturating decrement of 0 is 0; splitting the last element off a compile-time-sized array moves every element exactly once (all but the last in order, and the last) and never reads outside the array; a conditional type runs exactly the initialiser of its side, once, and every later get, get_mut and clone sees a value of that side only.", "quantifier": "all integers 0..=9, all arrays and element values, all initialisers, all histories of clone and mutation", "why_tests_cant": "The helpers use unchecked reads and casts between types; only values of the other type would expose a mistake.", "anchors": ["src/const_utils/const_int.rs: ConstInteger, ConstUsize, inc, dec, sat_dec", "src/const_utils/const_array.rs: split_last", "src/const_utils/cond_type.rs: CondType", "src/const_utils/const_bool.rs", "src/utils/array.rs: from_fn"]}
{"id": "C54", "title": "A level block is a map from index to non-zero value", "statement": "For Block and SmallBlock, every history of get_or_zero, get_or_insert, insert, remove_unchecked and set_unchecked whose calls keep the trait's safety requirements returns what a map from index to non-zero value returns, the mask announces exactly the present indices, is_empty tells whether there are none, moving from the small to the full-size array changes nothing observable, a panicking closure leaves the block unchanged, and an empty block whose first word served as free-list link is itself again after restore_empty.", "quantifier": "every mask width, every small capacity up to 255, every history of calls, every panic of a closure", "why_tests_cant": "Shifting a packed array and keeping per-word counts goes wrong only for particular combinations of word, fill level and order of calls.", "anchors": ["src/level_block/mod.rs: HiBlock", "src/level_block/block.rs: Block", "src/level_block/small_block.rs: SmallBlock, BigSmallArray"]}
{"id": "C55", "title": "A clustered level block is a map from index to non-zero value", "statement": "For ClusterBlock, every history of get_or_zero, get_or_insert, insert, remove_unchecked and set_unchecked whose calls keep the trait's safety requirements returns what a map from index to non-zero value returns, and the mask announces exactly the present indices.", "quantifier": "every mask width, every history of calls", "why_tests_cant": "A wrong shift inside a packed sub-block shows only for particular insertion orders.", "anchors": ["src/level_block/cluster_block.rs: ClusterBlock"]}
{"id": "C56", "title": "materialize evaluates every element once, in key order, up to the first panic, and the copy holds the results", "statement": "With functions that change state and may panic anywhere in an expression over trees with 64-way nodes, materialize (of a source that has an element, declares an exact hierarchy or has depth 1) evaluates the keys of the iteration once each in ascending order up to the first panic; without a panic the copy holds exactly the computed elements (get, iteration, key_values, drop) and - for exact sources and depth 1 - goes on as an ordinary tree; after a panic no later key is evaluated and, for element types without destructor, the panic reaches the caller in the state it left.", "quantifier": "all nested expressions of map, intersection, union, multi_intersection and multi_union with consumers, all functions, states and panic points, all contents below 2^32 elements", "why_tests_cant": "The position of a panic and the order of the calls range over all contents and expressions.", "anchors": ["src/dense_tree/from.rs", "src/hibit_tree.rs: materialize", "src/ops/map.rs", "src/ops/multi_map_fold.rs", "src/ops/_multi_intersection.rs: CursorData", "src/ops/_multi_union.rs: CursorData"]}
{"id": "C57", "title": "multi_union and multi_intersection work with any clonable operand iterator", "statement": "The client's iterator over the operand trees is cloned and iterated again by every operation. Whatever the clones yield (an iterator may share state between its clones), get, get_unchecked, iteration, cursors and materialize behave as if the operands were the trees that the first clone of the call yielded, and never misbehave.", "quantifier": "all operand iterators (every sequence of clones, each yielding any finite list of trees), all trees, all operations", "why_tests_cant": "Tests pass slice iterators, whose clones agree; a client's iterator is arbitrary safe code.", "anchors": ["src/ops/_multi_intersection.rs: data, data_unchecked, Cursor, CursorData", "src/ops/_multi_union.rs: data, data_unchecked, Cursor, CursorData"]}
{"id": "C58", "title": "The item iterators of multi_intersection and multi_union report their length correctly for any operand iterator", "statement": "Whatever size_hint the client's operand iterator gives, as long as it is a correct one, the bounds of the item iterators bracket the number of items still to come; the item iterators of multi_intersection, which implement ExactSizeIterator, report exactly that number through len().", "quantifier": "all trees, all keys, all correct size_hint functions, any number of items consumed before", "why_tests_cant": "Tests pass slice iterators, whose size_hint is exact.", "anchors": ["src/ops/_multi_intersection.rs: DataUnchecked, CursorData, ExactSizeIterator", "src/ops/_multi_union.rs: DataUnchecked, CursorData"]}
{"id": "C59", "title": "A level is an allocator of blocks", "statement": "For Level and IntrusiveListLevel over any block type of the crate: insert_empty_block returns an index other than 0 that is not in use and whose block is empty; blocks in use keep exactly what was last written to them, whatever is inserted, removed or written elsewhere; a removed block is handed out again before a new one is made (last removed first), so there are never more blocks than were in use at one time, plus block 0; block 0 stays the empty block; and the two kinds of level give the same answers to every history.", "quantifier": "every block type and mask width, every history of insert_empty_block, remove_empty_block_unchecked (of an empty block in use), reads and writes", "why_tests_cant": "The intrusive list lives inside the free blocks; a wrong link or a block not restored shows only after particular orders of removal and reuse.", "anchors": ["src/level/level.rs: Level", "src/level/intrusive_list_level.rs: IntrusiveListLevel", "src/level/single_block_level.rs: SingleBlockLevel", "src/lib.rs: Empty, MaybeEmptyIntrusive"]}
{"id": "C60", "title": "The example programs of the README compute what they say", "statement": "For any content in place of the literals: the multi-type example visits exactly the users with both an age and a name, ascending, with the closure's value; the sparse-vector example computes the dot product of the two vectors (in ascending order of the keys); the vector of blocks of examples/sparse_vector.rs behaves as a vector of 16384 numbers and its dot is their dot product; the store example finds the first store that has every good in the wanted amount, or none if there is none.", "quantifier": "all lists of assignments with keys in range, all depths 1 to 5, all element types and operations (laws as stated in each theorem), up to 32 goods", "why_tests_cant": "The examples run one literal input each; the users rely on the pattern for their own data.", "anchors": ["examples/readme_multi_type_example.rs", "examples/readme_sparse_vec_dot.rs", "examples/readme_store_example.rs", "examples/sparse_vector.rs: SparseVector::set, mul, dot", "README.md"]}
{"id": "C61", "title": "Access, insertion and removal touch a number of memory cells that depends on the depth alone", "statement": "There is no rebalancing and no scan over stored elements: get reads at most D+2 cells of a DenseTree (D+1 of a SparseTree), insert and get_or_insert read and write at most 4D+5 (2D+2), remove at most 3D+4 (2D+8), where a cell is one node/block or one element of the value and key vectors; the outcome is determined by those cells and the header, and every other cell stays as it was - whatever and how much else the tree holds. get and get_unchecked of a lazy operation cost the sum of the operands' costs, and so does each cursor step (2 cells per container), in every nesting; an iteration looks at 2 cells per container for each node it selects and each leaf it returns, so at most 2 * (1 + depth * leaves) per container if the nesting declares EXACT_HIERARCHY (and no constructor panicked); under intersections (and maps and multi_intersections, nested at will) the elements of any such operand bound it in place of the leaves, so the smallest operand decides. (The reallocation of a growing Vec, which moves the vector as a whole, is not counted.) Reading the first m elements of a nesting that declares EXACT_HIERARCHY looks at 2(1 + m*depth) cells per container at most. materialize reads no more than a whole iteration of the same nesting is allowed to: 2 cells per container for each node selected (for an exact nesting: each node of the copy) and each value of the copy; so the smallest operand decides here as well.", "quantifier": "all trees (any content, any size, any state on which the call returns; in particular after every legal history), all keys and values, all depths and widths", "why_tests_cant": "A test observes the time or the result for particular contents; that no other memory is read or written is a statement about all other contents.", "anchors": ["src/dense_tree/dense_tree.rs: get_or_insert_impl, remove", "src/sparse_tree.rs: get_or_insert_impl, remove", "src/hibit_tree.rs: get", "src/level/intrusive_list_level.rs", "README.md"]}
{"id": "C62", "title": "The heap arrays of level blocks: clones are independent, nothing leaks, nothing is freed twice", "statement": "A program that creates, uses, clones, overwrites and drops any number of small level blocks (small_block.rs) behaves as if every variable held its own map: a clone is unaffected by what happens to its original and vice versa, also when their values have moved to a heap array; no freed array is accessed or freed again; every live array belongs to exactly one variable, and when all blocks are dropped no array is left. The union inside a block always knows which of its variants is live.", "quantifier": "all programs (sequences of creations, method calls, clones, assignments and drops), all mask widths and small-array capacities; all layouts the compiler may choose for the union's tuples", "why_tests_cant": "Which block owns which allocation depends on the whole history of clones and moves; leaks and double frees are invisible to assertions on results; the layout is the compiler's choice.", "anchors": ["src/level_block/small_block.rs: BigSmallArray, Clone, Drop, is_small, insert_unchecked, get_or_zero, remove_unchecked, set_unchecked"]}
{"id": "C63", "title": "Keys work the same on every word size", "statement": "On a target with any word size (usize of 16, 32, 64 bits) and any supported width and depth, in debug and release builds: exactly the keys below width^depth (and below usize::MAX) are accepted, get of an accepted key follows the key's digits and answers as on a 64-bit target, and iteration reports the same keys.", "quantifier": "all word sizes, widths, depths, keys, build modes, trees", "why_tests_cant": "Tests run on one host; whether a shift amount exceeds the word depends on target, width and depth together.", "anchors": ["src/lib.rs: level_indices, data_block_index", "src/hibit_tree.rs: Index::from, get, index_range", "src/config.rs"]}
{"id": "C64", "title": "SparseTree never touches invalid memory", "statement": "No sequence of safe calls on a SparseTree of any predefined configuration (creation, insert, get_or_insert, remove, get, get_mut, get_or_default, key_values, iteration, drop) is undefined behaviour.", "quantifier": "every width and depth of config.rs, every finite history of safe calls, every key", "why_tests_cant": "The unchecked accesses rely on every link naming the right block; a link that does not fit its index type shows only after hundreds of insertions in particular subtrees, and undefined behaviour is not an observable assertion.", "anchors": ["src/sparse_tree.rs: get_or_insert_impl, remove, Cursor::data_unchecked", "src/config.rs", "src/iter.rs: Iter::next"]}
{"id": "C65", "title": "DenseTrees in one memory do not disturb each other, whatever the allocator does", "statement": "A program that creates, uses and drops any number of DenseTrees (of various depths), and collects lazy expressions over them (any nesting of map, union, intersection, multi_union, multi_intersection and multi_map_fold) into new DenseTrees with materialize, behaves as if each were an independent finite map: every call returns what the map would, every value is dropped exactly once, get, iteration, key_values and lazy expressions over several of the trees report exactly the content, memory that is not the trees' is never modified, and once all trees are dropped every block has been returned. This holds under any allocator that only hands out free addresses: freed addresses may be reused at once, also by another tree, and realloc may stay in place or move.", "quantifier": "all programs (interleavings of creations, calls and drops), all allocators, all contents of the rest of the memory, all depths (removal from depth 2 up, see C36), fewer than 2^32 elements per tree; expressions with 1 to 32 operands per multi operation (multi_union: up to 32, depth > 1, not an operand of a union, see C13 and C15); an expression that does not declare EXACT_HIERARCHY (anything containing an intersection, depth > 1) has an element when it is collected, and nothing is inserted into or removed from what was collected from it (finding C18)", "why_tests_cant": "Which block gets which address depends on the allocator and on the whole interleaving; a stale pointer shows only when its address has been reused.", "anchors": ["src/dense_tree/node.rs: NodePtr::new, insert, drop", "src/dense_tree/dense_tree.rs: get_or_insert_impl, remove, Drop", "src/ops/intersection.rs"]}
