# DESIGN: a Rocq (Coq 8.16.1) model of tower120/hibit_tree

## 1. What the code is
`hibit_tree` = hierarchical-bitmap sparse containers: `SparseTree` (vectors of
fixed-size blocks per level + intrusive free lists), `DenseTree` (heap nodes with
popcount-packed children), lazy set operations over a common trait
(`HibitTree`/`HibitTreeCursor`), an ordered iterator (`Iter`), and a
materializer (lazy tree -> `DenseTree`).

## 2. Modelling conventions
* `usize`/`u64` values are `N`; where the code masks, shifts or truncates, the
  model does too (mod 2^64, `as u8/u16/u32`, masked shift amounts).
* Every fallible function returns `res A := Ok a | Panic | UB | OutOfFuel`
  (Base.v). `UB` stands for every violated `unsafe` precondition: dangling
  pointer, out-of-bounds slot, uninitialised slot, wrong element type, write to
  static memory, `unreachable_unchecked`, `unwrap_unchecked` on `None`, drop of a
  never-constructed value. `Panic` is every panic, including arithmetic overflow
  (debug build) and a failed `assert!`/`debug_assert!`. `OutOfFuel` is not a
  behaviour of the program: it marks a loop that ran out of the model's fuel, and
  no theorem accepts it as an outcome. A theorem `op .. = Ok ..` therefore
  includes memory safety and panic freedom (of the model).
* `&mut self` functions return the new state; a function that drops values
  returns the values it dropped.
* Loops are structural recursion over levels/words, or fuel. Where fuel is needed
  a theorem either fixes enough fuel in the modelled function (`bits_for_each 65`)
  or states the result for every sufficiently large fuel.
* A bit mask is a `list N` of 64-bit words (1, 2 or 4 words); GenQueue.v has the
  queues over u8/u16/u32/u64 words.
* DenseTree heap: `gmap N node` + fresh address counter; addresses are never
  reused and `realloc` always moves (the adversarial case for stale pointers).
* Traits become records of functions (`tree`, Hierarchy.v), generic ops are
  functions from records to records, as in Rust monomorphisation.
* User closures (`map`, folds, `T::default`, constructors) are Coq functions:
  total, deterministic and stateless, except that a value constructor may panic
  (`None`), that C45/C48 let the outermost `map`/fold function panic, and that
  Effects.v (C50) lets `map`/fold functions read and change a state, and that PEffects.v (C51) lets every function do both. `traverse`/`for_each`/`fold` callbacks carry arbitrary state.
* Specification side (Spec.v): a history is a list of calls, a tree stands for a
  `gmap N V`, an expression over views for a map computed by gmap operations.
  The property theorems (Properties*.v) mention only the model's public functions
  and this specification; the invariants do not appear in them.

## 3. Where things are
| file | content |
|------|---------|
| Base | `res`, checked / unchecked indexing |
| BitUtils, BitUtilsProofs, BitLaws | src/bit_utils.rs, src/bit_block.rs |
| BitQueue, BitQueueProofs, QueueClient | src/bit_queue.rs over u64 |
| GenQueue, QueueCurrent | src/bit_queue.rs, src/bit_utils.rs over any primitive width, EmptyBitQueue, for_each; the exact value of ArrayBitQueue::current |
| LevelIndices(Proofs) | src/hibit_tree.rs: Index, index_range, level_indices, data_block_index |
| ConstLoops | src/const_utils/const_int.rs, const_loop.rs |
| Hierarchy, Lawful, IterProofs, IterCost | HibitTree / HibitTreeCursor traits, provided methods, src/iter.rs; laws of a tree |
| Ops, OpsProofs, MultiProofs, MultiIters | src/ops/*.rs and the item iterators of multi_* |
| Dense, DenseNode, DenseShape, DenseProofs, DenseRemove, DenseTree, DenseDrop, DenseLaws, DenseHistory, DenseLimit | src/dense_tree.rs, src/dense_tree/node.rs |
| Materialize, MaterializeProofs, MaterializeLaws, MaterializeViews, MaterializeEmpty | src/dense_tree/from.rs |
| Sparse, SparseVec, SparseShape, SparseProofs, SparseOps, SparseTree, SparseLaws, SparseBlocks, SparseReuse, SparseHistory, SparseOverflow, SparseNoRemove, SparseLevelsTuple, PropertiesLevelTuple | src/sparse_tree.rs, src/sparse_tree_levels.rs, src/level/*.rs, src/level_block/block.rs, src/req_default.rs |
| Spec, SpecLaws, Client, TreeClient, Generic, Compose, ViewLaws, CostLaws, Denote, Algebra | specification, histories, expressions over views, cost of iteration, set algebra |
| PanicSafety, MaterializeUnwind, IterPanic | unwinding: panicking destructors; panics of the source during materialize; of mapped functions during iteration |
| Contract, UserTree | the contract of a client's own implementation of the traits; a storage-free example |
| PEffects, PEffectsLaws | user functions with side effects and panics in any position: model, evaluator `pev`, proofs |
| PMaterialize, PMaterializeLaws | materialize over such expressions, with unwinding |
| PEffectsAll, PMaterializeAll | the same for every nesting, incl. unions over multi_unions: evaluator `pxev` |
| RepoTests | model validation, no claim rests on it: the deterministic unit tests of /repo transcribed call by call and run on the model |
| MaterializeLeak | the same materialize with the raw nodes it allocates tracked, to count what a panic leaks |
| MultiOperands | multi_* over a client iterator whose clones need not agree; its size_hint |
| ConstUtils | compile-time integers, split_last, CondType |
| AllViews, AllAlgebra | every nesting incl. unions over multi_unions: what `get` answers and what cursors report |
| Levels, LevelSpec, LevelProofs | src/level: Level, IntrusiveListLevel, SingleBlockLevel for any block; the allocator they refine |
| WorldSpec, DenseWorld, DenseWorldSim, DenseWorldMat, DenseWorldLaws, TreeTransfer, MultiUnionRef | src/dense_tree/*.rs with several trees in one memory and an arbitrary allocator; specification, model, simulation, invariant |
| Programs, ProgramProofs | the README's and examples/ programs with their literals made parameters |
| Footprint, DenseFootprint, SparseFootprint, ViewFootprint | which memory cells a call reads and writes: footprint calculus and the footprints of the containers' calls |
| CursorFootprint, IterFootprint | the same of cursors over every nesting (multi_union included) and of whole iterations |
| MatFootprint, MatFootprintSparse | the memory that `materialize` reads of its source |
| IterLatency | the selections of a single call of `next` over an exact tree |
| UncheckedCursor | cursors of the library under any mix of checked and unchecked selections |
| SmallBlock | `level_block/small_block.rs`, `level_block/cluster_block.rs`, the deprecated `Block::get_or_insert` |
| WordSize | the key arithmetic of `lib.rs` and `hibit_tree.rs` for any word size |
| SmallBlockMemory, SmallBlockMemorySpec, SmallBlockMemoryProofs | the union of SmallBlock as memory: boxes, clone, drop, tag bytes; programs over many blocks |
| SmallBlockSpec, SmallBlockProofs, ClusterBlockProofs | a block as a finite map; refinement proofs |
| Effects, EffectsLaws, EffectsMat, MaterializeOrder | user functions with side effects: model, evaluator `ev`, proofs |
| DenseMemory, NodeLayout | allocated nodes; byte layout of nodes |
| Findings, Examples | counterexamples; concrete instances |
| Properties* | the property theorems and, beside each, an Example meeting its hypotheses |

## 4. Per property: what is modelled, how it is proved, which theorems
Statements are in properties.jsonl, status and remarks in MANIFEST.json.

| id | property | modelled | proof | theorems (prefix `Cnn_`) | status |
|--|--|--|--|--|--|
| C01 | DenseTree behaves as a finite map | DenseTree over an explicit heap of nodes | ghost map path -> address as invariant; refinement to gmap by induction over histories | dense_map, dense_map_small, dense_get | proved |
| C02 | SparseTree behaves as a finite map | SparseTree: per-level vectors with free lists, index width per level | ghost path -> block map and ghost free list; refinement to gmap by induction over histories | folds_as_written, sparse_map, sparse_map_narrow, sparse_map_small, sparse_get | proved |
| C03 | DenseTree iteration is sorted and complete | Iter over the DenseTree cursor | generic iterator theorem over any lawful tree, instantiated | dense_iter | proved |
| C04 | SparseTree iteration is sorted and complete | Iter over the SparseTree cursor | same generic theorem | sparse_iter | proved |
| C05 | Unordered key/value enumeration equals the map | key_values of both containers | permutation with map_to_list from the invariants | dense_key_values, sparse_key_values | proved |
| C06 | Out-of-range keys are rejected, exactly, and without damage | Index::from / TryFrom and callers | decision rule, plus unchanged state inside C01/C02 | dense_rejects, dense_accepts, sparse_rejects, sparse_accepts | proved |
| C07 | Keys and hierarchy paths are in bijection, in order | level_indices, data_block_index | positional arithmetic, induction on depth | split_join, path_unique, order, no_overflow | proved |
| C08 | index_range describes the accepted keys | index_range | arithmetic; counterexample at 256^8 | index_range_partial, index_range_refuted | partial |
| C09 | intersection is key intersection | ops/intersection.rs | lawful-tree record preserved by the operator | intersection_get, intersection_iter | proved |
| C10 | union is key union | ops/union.rs | same | all_nestings_union, union_get, union_iter | proved |
| C11 | map keeps keys and transforms values | ops/map.rs | same | map_get, map_iter | proved |
| C12 | multi_intersection is n-ary key intersection | ops/_multi_intersection.rs with its ArrayVec of 32 | same; direct induction on operands for get | multi_intersection_get, multi_intersection_iter, zero_trees_refuted, too_many_panic, multi_intersection_get_any_count, multi_intersection_get_unchecked_any_count | proved |
| C13 | multi_union is n-ary key union | ops/_multi_union.rs | same | all_nestings_multi_union, multi_union_get_partial, multi_union_iter_partial, depth1_refuted, too_many_panic, multi_union_get_any_count, multi_union_get_unchecked_any_count | partial |
| C14 | multi_map_fold folds the present values | ops/multi_map_fold.rs | same | multi_map_fold_get, multi_map_fold_iter | proved |
| C15 | Lazy compositions are transparent | any nesting of all operators | induction over an inductive syntax of views; the nestings with a multi_union below a union: a second law record that tracks what the cursor reports besides what get answers (AllViews.v) | all_nestings_iter, all_nestings_agree, union_of_multi_union_exactly, views_iter_partial, views_get_total, union_of_multi_union_refuted | partial |
| C16 | Exact hierarchies have no empty branches | cursor masks | exactness up to the keys of panicked constructors, a set carried by the ghost invariants (DenseShape.exact, Lawful.hierarchy_exact), preserved by the exact operators | all_nestings_exact, mixed_selections_exact, dense_panic_refuted, materialize_refuted, sparse_panic_refuted, exact_upto_panics, exact_partial | partial |
| C17 | Materializing an exact tree copies its content | dense_tree/from.rs, exact branch | recursion over the cursor; the result satisfies the DenseTree invariant | all_nestings_materialize, materialize, materialize_exact, few_small | proved |
| C18 | Materializing a non-exact tree copies its content | dense_tree/from.rs, non-exact branch | weaker invariant (len off by one) enough for reads and drop; counterexamples | all_nestings_materialize_partial, all_nestings_failure_exactly, materialize_partial, materialize_depth1, failure, failure_exactly, intersection_failure_exactly, empty_refuted, insert_refuted, remove_refuted | partial |
| C19 | DenseTree never touches invalid memory and never leaks nodes | heap model | dom(heap) = image of the ghost map; drop empties the heap | dense_memory | proved |
| C20 | Primitive bit queue enumerates set bits in order | PrimitiveBitQueue | testbit reasoning; any history against a sorted list | queue_content, primitive_queue | proved |
| C21 | Array bit queue enumerates set bits in order | ArrayBitQueue | same | array_queue_partial, current_refuted, current_actual | partial |
| C22 | get_or_default | get_or_default and the like | corollary of invariants | get_or_default | proved |
| C23 | Unchecked accessors agree with checked ones | get_unchecked, get_mut_unchecked | corollary of invariants | all_nestings_get_unchecked, sparse_get_mut_unchecked, get_unchecked | proved |
| C24 | Cursor protocol: re-selection is stateless | cursors of containers and views | relation cursor state / selected path, after any history of selections; any mix of checked and unchecked ones: UncheckedCursor.v, PropertiesCursor.v | all_nestings_cursor, mixed_selections, mixed_sessions_agree, mixed_data_is_get, dense_mixed, sparse_mixed, stale_mask_wrong_element_refuted, stale_mask_refuted, cursor_partial, absent_child, unchecked_then_data_refuted, multi_union_data_refuted | partial |
| C25 | SparseTree reuses freed blocks | IntrusiveListLevel | vector length against the peak number of live blocks | block_reuse, no_value_holes, reused_blocks_empty | proved |
| C26 | DenseTree node capacity arithmetic never overflows | NodePtr len/cap (u8) | invariant conjunct | dense_capacity | proved |
| C27 | A panicking value constructor leaves the map intact | get_or_insert_impl with a failing constructor | weaker invariant without exactness | dense_panic, sparse_panic | proved |
| C28 | No silent loss through narrow index types | index truncation | guarded theorem; exact characterisation: the insertion whose link does not fit writes only blocks no lookup reads (frame argument, SparseOverflow.v), so lookups are unchanged; counterexamples for width 256 | insert_exact, get_or_insert_exact, refuted_wrong_value, refuted_reappears, insert_get_partial, insert_get_narrow_partial, refuted_depth1, refuted_depth2 | partial |
| C29 | Iteration terminates and stays finished | Iter | measure on remaining bits | all_nestings_iter_finishes, iter_finishes | proved |
| C30 | Bit-block operations are a set of indices | bit_block.rs, bit_utils.rs | testbit reasoning against gset | members, set_bit, get_bit, observe, and_or, zero, size | proved |
| C31 | Compile-time range loops visit the range | const loops | induction; counterexamples | const_for_partial, const_for_rev_partial, const_for_actual, const_for_rev_actual, const_loop, const_loop_rev, const_for_refuted, const_for_rev_refuted | partial |
| C32 | Every stored value is dropped exactly once | values dropped by every call | multiset accounting through histories | dense_drops, sparse_drops | proved |
| C33 | Mutable access changes only its target | get_mut, key_values_mut, get_or_insert | corollaries of invariants | dense_get_or_insert, dense_key_values_mut, sparse_get_mut, sparse_get_or_insert, sparse_key_values_mut | proved |
| C34 | History independence | both containers | corollary of C01-C05 | dense_history, sparse_history | proved |
| C35 | DenseTree and SparseTree are interchangeable | both containers | corollary of C01-C05 | dense_sparse | proved |
| C36 | Depth-1 DenseTree supports removal | DenseTree depth 1 | counterexample for every tree and key | dense_remove_depth1_refuted | partial |
| C37 | Item iterators of multi_union / multi_intersection are honest iterators | DataUnchecked / CursorData iterators as state machines | induction on operands | multi_intersection_unchecked_items, multi_union_unchecked_items, multi_intersection_cursor_items, multi_union_cursor_items | proved |
| C38 | A panicking T::default during construction is safe | SparseTree::default with a panicking T::default | counterexample | default_panic_refuted | partial |
| C39 | DenseTree loses no element, however many it holds | u32 data index | invariant at the boundary; existence of such histories by counting keys | dense_insert_get_partial, dense_full_refuted, dense_full_exists | partial |
| C40 | Bit queues work for every primitive width | bit queues over u8/u16/u32/u64 | testbit reasoning parametric in the width | content, history_partial, current_actual | partial |
| C41 | Iteration cost: an iteration selects each needed node once and nothing else | observer tree whose cursor logs selections, generic iterator | ghost log = preorder walk invariant (IterCost), view laws (CostLaws); per call: loop unrolling (IterLatency) | all_nestings_visits, next, visits, intersection, union, map, multi_map_fold, multi_intersection, multi_union | proved |
| C42 | A lazy expression over containers is the same expression over finite maps | denotation of expressions into gmap | structural induction over expressions from the per-operation laws (Denote) | all_nestings_get, denotation, expression, dot_product | proved |
| C43 | Lazy operations obey set algebra | the same | equations between denoted maps (Algebra), and between gives / sees for every nesting (AllAlgebra) | all_intersection_comm, all_union_comm, all_intersection_assoc, all_union_assoc, all_map_map, all_intersection_map, all_union_map, all_absorb_union, all_absorb_intersection, all_distribute, all_distribute_union, all_multi_intersection_two, all_multi_union_two, all_multi_intersection_perm, all_multi_union_perm, multi_union_two_values_refuted, intersection_comm, union_comm, map_map, intersection_map, intersection_assoc, absorb_union, absorb_intersection, distribute, multi_intersection_two, multi_union_two, multi_intersection_perm, multi_union_perm | proved |
| C44 | A panicking element destructor does not break the containers | Rust unwinding rules; drop_impl, insert with destructors that may panic | counting panicking destructors over the element multiset, refinement of insert (PanicSafety) | dense_insert_partial, sparse_insert_partial, dense_drop_actual, sparse_drop_actual, dense_drop_refuted, sparse_drop_refuted | partial |
| C45 | A panic of the source during materialize reaches the caller safely | from.rs followed through unwinding; map with a partial function | erasure to the plain model + simulation against the total map (MaterializeUnwind) | all_nestings_any_closure_actual, any_closure_actual, every_panic_leaks_actual, leak_refuted, no_panic_partial, panic_plain_partial, panic_actual, any_source_actual, refuted | partial |
| C46 | DenseTree's memory follows its content | heap model of the nodes | bijection between allocated nodes and key prefixes from the shape invariant (DenseMemory) | dense_nodes, dense_nodes_panics, dense_vectors, dense_bytes, materialize_nodes | proved |
| C47 | Node slots stay inside their allocation | repr(C) layout of NodeHeaderN, `layout` | arithmetic (NodeLayout) | slots, empty_node, size | proved |
| C48 | A panicking mapping or folding function costs only the element it panics on | iter.rs next with the state at a panic; map.rs, multi_map_fold.rs with partial functions | simulation of the iteration of the source | map_iter, map_get, fold_iter, fold_get | proved |
| C49 | A tree implemented by the client composes with the library's | hibit_tree.rs traits as an interface: any implementation that keeps the contract of Contract.v (VUser), and a storage-free example (UserTree.v) | the contract implies the internal laws; conversely every reached expression keeps it | expressions_keep_contract, view_supported, contract_is_enough, dense, sparse, map, multi_map_fold, intersection, union, multi_intersection, multi_union, get, get_data, iter, get_unchecked, materialize | proved |
| C50 | User functions with side effects are called when and only when an element is looked up | the data methods of map, multi_map_fold, intersection and union, Iter::next and from_sparse_hierarchy with user functions that run in a state (Effects.v) | induction over the expression (each access evaluates its key), then the iterator and builder invariants; the specification `ev` is a compositional evaluator per key | get, get_out_of_range, get_unchecked, iter, materialize, present, absent, materialize_order, only_elements_of_the_result_refuted | proved |
| C51 | User functions may panic and have side effects in any operand: each access evaluates its key once and a panic costs only that element | the data methods of all six lazy operations and Iter::next with user functions that run in a state and may panic, each tree value carrying its own functions, data iterators of multi_* lazy where the code is (PEffects.v) | induction over the expression (each of the four data methods follows the evaluator `pev`), then the iterator invariant; PEffectsAll.v repeats it without restriction on the nesting | get, get_out_of_range, get_unchecked, iter, present, absent, fold, all_nestings_get, all_nestings_get_unchecked, all_nestings_iter, all_nestings_present, all_nestings_absent | proved |
| C52 | get, get_unchecked and iteration make the same calls for a key | as C51 | induction over expressions with closure-free multi operands; the general claim is refuted | same_calls_partial, same_calls_refuted, all_nestings_refuted | partial |
| C53 | The public compile-time helpers compute what they say: integer steps, split_last, conditional types | compile-time integers as numbers, arrays as lists with checked reads, CondType as tagged memory where reading the other tag is UB | case analysis; induction over the read loop; induction over histories of a CondType | inc, dec, round_trip, sat_dec_partial, sat_dec_refuted, closed, split_last, split_last_empty_refuted, cond_new, cond_panics, cond | partial |
| C54 | A level block is a map from index to non-zero value | Block and SmallBlock with unchecked reads, ptr::copy with bounds, the union as a tagged sum, u8 counters with overflow; specification: a finite map (SmallBlockSpec.v) | refinement invariant (array position = number of mask bits below the index; counters = bits below the word), induction over the history | block, block_panicking_closure_refuted, small_block_exactly, small_block_partial, small_block_one_word_partial, small_block_remove_refuted, small_block_insert_refuted, park_and_restore, small_park_and_restore | partial |
| C55 | A clustered level block is a map from index to non-zero value | ClusterBlock with its packed sub-blocks and the ArrayVec of four | refinement invariant per sub-block, induction over the history; counterexamples by computation | cluster_block_partial, cluster_block_overwrites, get_or_insert_never_gets_refuted, descending_insert_loses_refuted, fifth_sub_block_refuted, unimplemented_refuted | partial |
| C56 | materialize evaluates every element once, in key order, up to the first panic, and the copy holds the results | from.rs over the expressions of PEffects.v, followed through unwinding (PMaterialize.v) | simulation against the closure-free copy, which fixes the order of the keys; then the invariant of the copy with its elements replaced; the simulation is generic in the evaluator, so PMaterializeAll.v uses it for every nesting | all_nestings_materialize, all_nestings_until_panic, materialize, until_panic | proved |
| C57 | multi_union and multi_intersection work with any clonable operand iterator | the clones of the client's operand iterator as unrelated lists, multi_* over them (MultiOperands.v) | simulation against multi_* over the first list (cursor relation), lifted through iteration, cursors and materialize; undefined behaviour of a shrinking iterator for all reached trees | multi_union, multi_union_iterates, multi_intersection_partial, shrinking_refuted, shrinking_example_refuted, other_trees_refuted, multi_union_example | partial |
| C58 | The item iterators of multi_intersection and multi_union report their length correctly for any operand iterator | size_hint of the client's iterator as a function, `ExactSizeIterator::len` (MultiOperands.v) | from the item-iterator theorems of C37 | multi_intersection_bounds, multi_union_bounds, len_partial, cursor_len, get_len, len_refuted | partial |
| C59 | A level is an allocator of blocks | src/level, generic in the block (Levels.v) | refinement of a separate allocator specification (LevelSpec.v); the intrusive list as an inductive chain through the parked blocks | level, intrusive_list, interchangeable, insert_fresh, blocks, same_as_tree, single | proved |
| C60 | The example programs of the README compute what they say | the programs in examples/ and the README (Programs.v) | the general theorems about histories and views (Denote.v) instantiated; sums over sparse keys | users, readme_dot, readme_dot_vectors, readme_dot_Z, sparse_vector_lanes, sparse_vector_dot, sparse_vector_dot_Z, sparse_vector_out_of_range, store_partial, store_none, store_single, store_refuted | partial |
| C61 | Access, insertion and removal touch a number of memory cells that depends on the depth alone | get, get_or_insert_impl and remove of both containers as functions on memory cells | footprint calculus (Footprint.v: reads, writes, sequencing), induction over the levels; the free list touches one block per level; cursors of every nesting as a state with references to the operands (multi_union), whole iterations via the observer of C41; materialize by induction over its recursion, nodes of the copy as the counter (MatFootprint) | dense_get, dense_insert, dense_get_or_insert, dense_remove, sparse_get, sparse_insert, sparse_get_or_insert, sparse_remove, dense_every_insert, dense_every_remove, sparse_every_insert, sparse_every_remove, get, get_unchecked, dense_costs, sparse_costs, map_costs, multi_map_fold_costs, intersection_costs, union_costs, multi_intersection_costs, multi_union_costs, expression_get, expression_get_unchecked, expression_cursor, iteration, exact_iteration, intersection_iteration, restricted_iteration, first_elements, materialize, materialize_sparse, materialize_restricted | proved |
| C62 | The heap arrays of level blocks: clones are independent, nothing leaks, nothing is freed twice | BigSmallArray as a pointer into a heap of boxes or inline data; clone, drop, every method; client programs over any number of blocks; the bytes of the union under an arbitrary tuple layout | ownership invariant (each box has exactly one owner) preserved by every statement, on top of the C54 refinement | blocks_exactly, no_leak_no_double_free, clones_are_independent, tag_partial, tag_refuted | partial |
| C63 | Keys work the same on every word size | level_indices, data_block_index, Index::from, index_range and get with usize of W bits, debug and release | induction over the levels, for arbitrary W; the 64-bit model is the instance W = 64 | paths_partial, get_partial, index_range_partial, refuted | partial |
| C64 | SparseTree never touches invalid memory | unchecked accesses are UB in the model | all safe calls return Ok while links fit (C02, C04, C05, C32 together); without removals for every history: invariant that every link, truncated or not, is below the length of what it indexes; counterexamples by computation at width 256 | sparse_memory_safe_partial, sparse_memory_safe_small_partial, no_remove_memory_safe_partial, refuted_iter, refuted_alias, refuted_get | partial |
| C65 | DenseTrees in one memory do not disturb each other, whatever the allocator does | several trees in one memory, arbitrary allocator (DenseWorld.v) | renaming simulation: each tree in shared memory is the image of a private-heap tree under an injective address map; ownership invariant (every block belongs to the rest of the memory or to exactly one tree); for multi_union the cursor, which in the code holds references to its operands, is replaced by one that looks them up in the source (MultiUnionRef.v, proved to answer alike) | many_trees, alive, contract, get, iter, key_values, expression, foreign_memory, no_leak, memory | proved |

## 5. Trusted base
* Coq 8.16.1's kernel (incl. its `vm_compute` reduction) and the fidelity of the
  model to the Rust source: every model definition cites the file and lines it
  transcribes and says where it simplifies.
* Axioms: `Print Assumptions` answers "Closed under the global context" for every
  theorem named in MANIFEST.json (rerun with `tools/print_assumptions.sh`). The
  seven `Coq.ssr.ssrunder` constants that a whole-library listing shows come from
  ssreflect's module-sealed `Under_rel`, loaded by std++; no theorem depends on them.
* Libraries: Coq's standard library and std++ (lists, gmap).

## 6. What is modelled and what is not
Modelled function by function: everything in bit_utils.rs, bit_block.rs,
bit_queue.rs, hibit_tree.rs (Index, indices, provided methods, cursor/iter
constructors), iter.rs, dense_tree.rs, dense_tree/node.rs, dense_tree/from.rs,
sparse_tree.rs, sparse_tree_levels.rs, level/*.rs, level_block/block.rs,
ops/{intersection,union,map,multi_map_fold,_multi_intersection,_multi_union}.rs,
the const loops, req_default.rs; the widths and depths of config.rs as parameters.

Heap addresses: Dense.v gives each tree a private heap with fresh addresses; DenseWorld.v repeats
the allocating functions of insert, get_or_insert, default, drop and materialize in one shared memory with an
arbitrary allocator (address reuse, realloc in place) and C65 carries the results over.

Not modelled:
* allocator failure, the Rust
  aliasing model (stacked/tree borrows), `Send`/`Sync`, lifetimes and borrow
  checking (references are read at the time they are produced);
* type-level plumbing: GATs, `Borrowable`, `Take`, `Function` wrappers
  (arrays are lists of the right length; CondType and split_last are in ConstUtils.v);
* panicking destructors only in insert and drop (C44); a destructor that panics while `materialize` unwinds;
* targets with 32-bit `usize`, except the key arithmetic (C63); SIMD code (bit blocks are word arrays; `wide` types
  are assumed to behave as word-wise and/or);
* `SmallBlock` and `ClusterBlock` inside a tree (no public configuration uses them; they are
  modelled on their own, C54, C55, C62), files that are not
  compiled (`ref_or_val.rs`, `sparse_hierarchy_orig.rs`), benches, tests.
Debug and release builds differ only in overflow checks and debug assertions: the
model panics there; the theorems `= Ok` show these points are not reached.

## 7. Findings (claims that are false of the code; each has a `_refuted` theorem)
1. A DenseTree materialized from a non-exact view (depth >= 2) is corrupted: `from_parts` stores `len` without the default child; the next insert or remove is undefined behaviour or loses data (C18_insert_refuted, C18_remove_refuted).
2. Materializing a non-exact view (depth >= 2) whose cursor announces no path to the bottom is undefined behaviour (C18_empty_refuted).
3. A materialized DenseTree may have empty terminal nodes, although `EXACT_HIERARCHY = true` (C16_materialize_refuted).
4. `DenseTree<T, 1>::remove` is undefined behaviour for every key (C36).
5. `SparseTree` of width 256 indexes level blocks by u8: with 256 live blocks in a level it silently loses elements and then answers with other keys' values; a lost element comes back when another is removed (C28_refuted_*).
6. `index_range` overflows for width 256 depth 8 (C08_index_range_refuted).
7. `multi_intersection` of zero trees: `get` answers `Some` of nothing for every key while iteration yields nothing (C12_zero_trees_refuted).
8. `multi_union` of depth-1 trees: `todo!()` (C13_depth1_refuted).
9. More than 32 trees in multi_*: panic (C12_too_many_panic, C13_too_many_panic).
10. `multi_intersection` cursor: unchecked selection followed by `data()` (C24_unchecked_then_data_refuted).
11. `ArrayBitQueue::current` is not the next index (C21_current_refuted).
12. `const_for` / `const_for_rev` do not visit their range when `from > 0` (C31_*_refuted).
13. A panicking value constructor leaves empty nodes: the hierarchy is no longer exact (C16_*_panic_refuted).
14. `union` over a `multi_union`: iteration yields keys that are not in the set (C15_union_of_multi_union_refuted). With `multi_map_fold` in between it also starts (calls `init` of) the fold of the operand that lacks the key, which `get` does not (C52_all_nestings_refuted); see also C43_multi_union_two_values_refuted.
15. `SparseTree::default` with a panicking `T::default`: undefined behaviour (C38).
16. `DenseTree` loses the 2^32-th element (C39).
17. Dropping a `DenseTree` or `SparseTree` exactly one of whose elements has a panicking destructor drops elements twice: undefined behaviour (C44_*_drop_refuted).
18. A panic of the source while it is materialized drops the uninitialised slot 0 of the element vector: undefined behaviour if the element type has a destructor (C45_refuted).
19. A union over an intersection calls the mapping function of the intersection's left operand for keys that the right operand lacks (C50_only_elements_of_the_result_refuted); harmless for pure functions.
20. `get` of a folded `multi_union` / `multi_intersection` evaluates all operands before the fold starts, `get_unchecked` and iteration alternate: closures of the operands and the fold run in a different order (C52_same_calls_refuted); harmless for pure functions.
21. `ConstInteger::sat_dec` ("saturating decrement") of 0 panics: it returns `Self::Dec::default()` although the type `SatDec` is 0 (C53_sat_dec_refuted; const_int.rs:86-88).
22. The safe `ConstArray::split_last` of an empty array reads out of bounds (compiles for zero-sized element types only; C53_split_last_empty_refuted; const_array.rs:26-38).
23. `SmallBlock::remove_unchecked` of an index outside the last mask word, while the small array is exactly full, copies one value from behind the array: `len` is computed after the bit is cleared, from counters that still include it (C54_small_block_remove_refuted; small_block.rs:351-357). The type is not used by any public configuration.
24. `SmallBlock::insert` is the trait's `todo!()` (C54_small_block_insert_refuted).
25. `Block::get_or_insert` sets the mask bit before it calls the closure: a panic leaves an announced index without value (C54_block_panicking_closure_refuted; block.rs:89-91; the method is deprecated and unused).
26. `ClusterBlock::get_or_insert` tests the bit after masking it off and shifts nothing: a present index is inserted again, inserting below a present index loses its value; a fifth sub-block panics; the other methods are `todo!()` (C55_*_refuted; cluster_block.rs:216-240).
27. `multi_intersection` clones the client's operand iterator for every call and reads as many trees as its cursor was made from with `next().unwrap_unchecked()`: an iterator whose later clones yield fewer trees (safe code: clones may share a `Cell`) is undefined behaviour (C57_shrinking_refuted), and so is one whose later clones yield other trees (C57_other_trees_refuted; _multi_intersection.rs:371-383, 408-420, 485). `multi_union` keeps the references and is not affected (C57_multi_union).
28. The iterator returned by `multi_intersection(..).get_unchecked(..)` implements `ExactSizeIterator` for every operand iterator, but forwards its `size_hint`: with a `Filter` of trees `len()` panics (C58_len_refuted; _multi_intersection.rs:307-316).
29. `multi_intersection` cursor: `data()` after an unchecked terminal selection uses the mask of the last *checked* terminal selection; it then answers an element stored under another key, or reads out of bounds (C24_stale_mask_wrong_element_refuted, C24_stale_mask_refuted). Strengthens 10.
30. README and examples/readme_store_example.rs: `zip(amounts, mins).find(|(amount, min)| min <= amount).is_some()` accepts a store as soon as one good suffices, not all (C60_store_refuted; with one carrot in store 0 it buys 20 oranges where there are 4).
31. `SmallBlock`'s union keeps its tag in the first field of a Rust-layout tuple; the compiler may place that field elsewhere, and `is_small` of a fresh block then reads an uninitialised byte (C62_tag_refuted; small_block.rs:9-22, 75-77).
32. On 32-bit targets width_64 deeper than 6, width_128 deeper than 5 and width_256 deeper than 4 do not work: debug builds panic (shift overflow) at every access, release builds compute out-of-range indices and a lookup in an empty SparseTree reads behind a block's array (C63_refuted; lib.rs:234-238).
33. A panic during `materialize` leaks every node allocated so far (C45_every_panic_leaks_actual, C45_leak_refuted; from.rs:40, 77, 120).
34. **Undefined behaviour from safe code**: `SparseTree<width_256::depth_1, _>` with 256 elements: `iter()` unwraps a missing element unchecked (C64_refuted_iter; sparse_tree.rs:451, 713-717, config.rs). At depth 2 a second insertion into the lost subtree aliases another subtree's block; removing through the alias frees it while in use, and iteration reads the free-list link as a mask (C64_refuted_alias). With aliased elements and removals `get` of a key that was never removed reads past the value vector (C64_refuted_get).

## 8. Testing the theorems against wrong programs
`seeded/LOG.jsonl`: each line is one realistic bug put into a copy of the model,
with the first lemmas that no longer compile and the property theorems whose
concrete instances became false. A bug that left every theorem provable would show
as an entry without failures (none, except edits logged as equivalent programs).
