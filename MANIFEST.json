{
 "claims": [
  {
   "property": "C01",
   "status": "proved",
   "theorems": [
    "C01_dense_map",
    "C01_dense_map_small",
    "C01_dense_get"
   ],
   "note": "Any finite history of insert/get_or_insert/remove/get (incl. panicking constructors and out-of-range keys), any depth 1..9 (2..9 if it removes), while fewer than 2^32-1 elements are stored (u32 data index; void up to depth 5)."
  },
  {
   "property": "C02",
   "status": "proved",
   "theorems": [
    "C02_folds_as_written",
    "C02_sparse_map",
    "C02_sparse_map_narrow",
    "C02_sparse_map_small",
    "C02_sparse_get"
   ],
   "note": "Any finite history, any width/depth; the hypothesis on live blocks is the one in the statement, discharged for width_64/width_128 below 2^32-1 elements."
  },
  {
   "property": "C03",
   "status": "proved",
   "theorems": [
    "C03_dense_iter"
   ],
   "note": "Draining the iterator after any legal history."
  },
  {
   "property": "C04",
   "status": "proved",
   "theorems": [
    "C04_sparse_iter"
   ],
   "note": "Draining the iterator after any legal history."
  },
  {
   "property": "C05",
   "status": "proved",
   "theorems": [
    "C05_dense_key_values",
    "C05_sparse_key_values"
   ],
   "note": "Both containers."
  },
  {
   "property": "C06",
   "status": "proved",
   "theorems": [
    "C06_dense_rejects",
    "C06_dense_accepts",
    "C06_sparse_rejects",
    "C06_sparse_accepts"
   ],
   "note": "Rejection for every tree state; acceptance after every legal history; an in-history rejected call leaves the map alone (part of C01/C02)."
  },
  {
   "property": "C07",
   "status": "proved",
   "theorems": [
    "C07_split_join",
    "C07_path_unique",
    "C07_order",
    "C07_no_overflow"
   ],
   "note": "All widths, depths and keys."
  },
  {
   "property": "C08",
   "status": "partial",
   "theorems": [
    "C08_index_range_partial",
    "C08_index_range_refuted"
   ],
   "note": "Proved for every width/depth except width 256 depth 8, where the computation overflows: C08_index_range_refuted."
  },
  {
   "property": "C09",
   "status": "proved",
   "theorems": [
    "C09_intersection_get",
    "C09_intersection_iter"
   ],
   "note": "Over any nesting of views."
  },
  {
   "property": "C10",
   "status": "proved",
   "theorems": [
    "C10_all_nestings_union",
    "C10_union_get",
    "C10_union_iter"
   ],
   "note": "get over any nesting (C10_all_nestings_union); iteration over any nesting whose operands have honest cursor data (the `true` index). What the iteration of a union over a MultiUnion yields instead: C15_all_nestings_iter, C15_union_of_multi_union_exactly, C15_union_of_multi_union_refuted."
  },
  {
   "property": "C11",
   "status": "proved",
   "theorems": [
    "C11_map_get",
    "C11_map_iter"
   ],
   "note": "Over any nesting of views."
  },
  {
   "property": "C12",
   "status": "proved",
   "theorems": [
    "C12_multi_intersection_get",
    "C12_multi_intersection_iter",
    "C12_zero_trees_refuted",
    "C12_too_many_panic",
    "C12_multi_intersection_get_any_count",
    "C12_multi_intersection_get_unchecked_any_count"
   ],
   "note": "1..32 trees; get/get_unchecked also for any larger number. Zero trees: C12_zero_trees_refuted; more than 32: C12_too_many_panic."
  },
  {
   "property": "C13",
   "status": "partial",
   "theorems": [
    "C13_all_nestings_multi_union",
    "C13_multi_union_get_partial",
    "C13_multi_union_iter_partial",
    "C13_depth1_refuted",
    "C13_too_many_panic",
    "C13_multi_union_get_any_count",
    "C13_multi_union_get_unchecked_any_count"
   ],
   "note": "get/get_unchecked proved for every depth and any number of trees (get panics exactly when more than 32 have the key); iteration proved for depth >= 2 and at most 32 trees. Depth 1 get_unchecked path is todo!(): C13_depth1_refuted; more than 32 trees panic: C13_too_many_panic."
  },
  {
   "property": "C14",
   "status": "proved",
   "theorems": [
    "C14_multi_map_fold_get",
    "C14_multi_map_fold_iter"
   ],
   "note": "Over any nesting of views."
  },
  {
   "property": "C15",
   "status": "partial",
   "theorems": [
    "C15_all_nestings_iter",
    "C15_all_nestings_agree",
    "C15_union_of_multi_union_exactly",
    "C15_views_iter_partial",
    "C15_views_get_total",
    "C15_union_of_multi_union_refuted"
   ],
   "note": "Proved for all nestings in which union/multi_union operands have honest cursor data; the excluded nesting (union over multi_union) really fails: C15_union_of_multi_union_refuted. For every nesting without exception: the keys are exactly those get finds, ascending, and the value yielded is the one `sees` computes (C15_all_nestings_iter); agreement with get characterised: C15_all_nestings_agree, C15_union_of_multi_union_exactly."
  },
  {
   "property": "C16",
   "status": "partial",
   "theorems": [
    "C16_all_nestings_exact",
    "C16_mixed_selections_exact",
    "C16_dense_panic_refuted",
    "C16_materialize_refuted",
    "C16_sparse_panic_refuted",
    "C16_exact_upto_panics",
    "C16_exact_partial"
   ],
   "note": "C16_exact_upto_panics: for all reached exact trees, including materialized ones, a child without elements is announced only if it contains a key for which a value constructor panicked; so exact in every subtree without such keys (C16_exact_partial). The unconditional claim is false with a panicking constructor (C16_dense_panic_refuted, C16_sparse_panic_refuted) and for a DenseTree materialized from a non-exact source (C16_materialize_refuted)."
  },
  {
   "property": "C17",
   "status": "proved",
   "theorems": [
    "C17_all_nestings_materialize",
    "C17_materialize",
    "C17_materialize_exact",
    "C17_few_small"
   ],
   "note": "Any view of one-word masks with fewer than 2^32 elements (void up to depth 5); get, iteration, key_values, every further legal history, drop, and exactness of the copy."
  },
  {
   "property": "C18",
   "status": "partial",
   "theorems": [
    "C18_all_nestings_materialize_partial",
    "C18_all_nestings_failure_exactly",
    "C18_materialize_partial",
    "C18_materialize_depth1",
    "C18_failure",
    "C18_failure_exactly",
    "C18_intersection_failure_exactly",
    "C18_empty_refuted",
    "C18_insert_refuted",
    "C18_remove_refuted"
   ],
   "note": "Proved: reading and dropping the copy when the source has an element (or depth 1); everything at depth 1; failure only for sources without elements, and exactly when the iteration of the source reaches no node of the last level (C18_failure_exactly; in terms of keys for intersections: C18_intersection_failure_exactly). The rest is false: C18_empty_refuted, C18_insert_refuted, C18_remove_refuted."
  },
  {
   "property": "C19",
   "status": "proved",
   "theorems": [
    "C19_dense_memory"
   ],
   "note": "No UB in any legal history, no leak after drop."
  },
  {
   "property": "C20",
   "status": "proved",
   "theorems": [
    "C20_queue_content",
    "C20_primitive_queue"
   ],
   "note": ""
  },
  {
   "property": "C21",
   "status": "partial",
   "theorems": [
    "C21_array_queue_partial",
    "C21_current_refuted",
    "C21_current_actual"
   ],
   "note": "All observations proved except `current`, which is wrong: C21_current_refuted. What it returns instead is proved exactly, for every history: C21_current_actual."
  },
  {
   "property": "C22",
   "status": "proved",
   "theorems": [
    "C22_get_or_default"
   ],
   "note": ""
  },
  {
   "property": "C23",
   "status": "proved",
   "theorems": [
    "C23_all_nestings_get_unchecked",
    "C23_sparse_get_mut_unchecked",
    "C23_get_unchecked"
   ],
   "note": ""
  },
  {
   "property": "C24",
   "status": "partial",
   "theorems": [
    "C24_all_nestings_cursor",
    "C24_mixed_selections",
    "C24_mixed_sessions_agree",
    "C24_mixed_data_is_get",
    "C24_dense_mixed",
    "C24_sparse_mixed",
    "C24_stale_mask_wrong_element_refuted",
    "C24_stale_mask_refuted",
    "C24_cursor_partial",
    "C24_absent_child",
    "C24_unchecked_then_data_refuted",
    "C24_multi_union_data_refuted"
   ],
   "note": "Proved for checked selections after any history of selections, and for unchecked selections of existing nodes followed by a checked terminal selection; reading data() after unchecked selection fails for MultiIntersection/MultiUnion: C24_unchecked_then_data_refuted, C24_multi_union_data_refuted. C24_all_nestings_cursor says what data() answers for every nesting, index and absent key; C24_mixed_selections allows any mix of checked and unchecked selections for every expression built from the library's own cursors: data() is right if the last selection was checked, and unconditionally when no bare multi_intersection is asked (C24_mixed_data_is_get, C24_dense_mixed, C24_sparse_mixed); the condition is needed (C24_stale_mask_refuted: out-of-bounds read; C24_stale_mask_wrong_element_refuted)."
  },
  {
   "property": "C25",
   "status": "proved",
   "theorems": [
    "C25_block_reuse",
    "C25_no_value_holes",
    "C25_reused_blocks_empty"
   ],
   "note": ""
  },
  {
   "property": "C26",
   "status": "proved",
   "theorems": [
    "C26_dense_capacity"
   ],
   "note": ""
  },
  {
   "property": "C27",
   "status": "proved",
   "theorems": [
    "C27_dense_panic",
    "C27_sparse_panic"
   ],
   "note": ""
  },
  {
   "property": "C28",
   "status": "partial",
   "theorems": [
    "C28_insert_exact",
    "C28_get_or_insert_exact",
    "C28_refuted_wrong_value",
    "C28_refuted_reappears",
    "C28_insert_get_partial",
    "C28_insert_get_narrow_partial",
    "C28_refuted_depth1",
    "C28_refuted_depth2"
   ],
   "note": "Exact for every width: the element is found again iff the links fit (C28_insert_exact, C28_get_or_insert_exact: otherwise the call completes and every lookup answers as before); so it holds for width_64/width_128 below 2^32 elements, and is refuted for width_256: lost (C28_refuted_depth1, C28_refuted_depth2), then another key's value (C28_refuted_wrong_value)."
  },
  {
   "property": "C29",
   "status": "proved",
   "theorems": [
    "C29_all_nestings_iter_finishes",
    "C29_iter_finishes"
   ],
   "note": ""
  },
  {
   "property": "C30",
   "status": "proved",
   "theorems": [
    "C30_members",
    "C30_set_bit",
    "C30_get_bit",
    "C30_observe",
    "C30_and_or",
    "C30_zero",
    "C30_size"
   ],
   "note": ""
  },
  {
   "property": "C31",
   "status": "partial",
   "theorems": [
    "C31_const_for_partial",
    "C31_const_for_rev_partial",
    "C31_const_for_actual",
    "C31_const_for_rev_actual",
    "C31_const_loop",
    "C31_const_loop_rev",
    "C31_const_for_refuted",
    "C31_const_for_rev_refuted"
   ],
   "note": "const_loop! proved; const_for/const_for_rev proved for the ranges the code base uses and what they really do characterised for all; the general claim is refuted."
  },
  {
   "property": "C32",
   "status": "proved",
   "theorems": [
    "C32_dense_drops",
    "C32_sparse_drops"
   ],
   "note": "Every history followed by drop, both containers."
  },
  {
   "property": "C33",
   "status": "proved",
   "theorems": [
    "C33_dense_get_or_insert",
    "C33_dense_key_values_mut",
    "C33_sparse_get_mut",
    "C33_sparse_get_or_insert",
    "C33_sparse_key_values_mut"
   ],
   "note": ""
  },
  {
   "property": "C34",
   "status": "proved",
   "theorems": [
    "C34_dense_history",
    "C34_sparse_history"
   ],
   "note": ""
  },
  {
   "property": "C35",
   "status": "proved",
   "theorems": [
    "C35_dense_sparse"
   ],
   "note": ""
  },
  {
   "property": "C36",
   "status": "partial",
   "theorems": [
    "C36_dense_remove_depth1_refuted"
   ],
   "note": "The property is false: DenseTree<T,1>::remove is UB for every in-range key (C36_dense_remove_depth1_refuted)."
  },
  {
   "property": "C37",
   "status": "proved",
   "theorems": [
    "C37_multi_intersection_unchecked_items",
    "C37_multi_union_unchecked_items",
    "C37_multi_intersection_cursor_items",
    "C37_multi_union_cursor_items"
   ],
   "note": "Over the iterators of get_unchecked (any number of operands) and of cursors (after any allowed sequence of selections)."
  },
  {
   "property": "C38",
   "status": "partial",
   "theorems": [
    "C38_default_panic_refuted"
   ],
   "note": "The property is false: C38_default_panic_refuted."
  },
  {
   "property": "C39",
   "status": "partial",
   "theorems": [
    "C39_dense_insert_get_partial",
    "C39_dense_full_refuted",
    "C39_dense_full_exists"
   ],
   "note": "Proved below 2^32-1 elements (so always up to depth 5); false for the 2^32-th element of a deeper tree, whatever the history: C39_dense_full_refuted, and such histories exist: C39_dense_full_exists."
  },
  {
   "property": "C40",
   "status": "partial",
   "theorems": [
    "C40_content",
    "C40_history_partial",
    "C40_current_actual"
   ],
   "note": "Everything except ArrayBitQueue::current, which is wrong (C21_current_refuted); what it returns instead is proved exactly (C40_current_actual)."
  },
  {
   "property": "C41",
   "status": "proved",
   "theorems": [
    "C41_all_nestings_visits",
    "C41_next",
    "C41_visits",
    "C41_intersection",
    "C41_union",
    "C41_map",
    "C41_multi_map_fold",
    "C41_multi_intersection",
    "C41_multi_union"
   ],
   "note": "Selections are observed by running the generic iterator on a tree whose cursor logs every selection (IterCost.v). C41_next: each single call of next (IterLatency.v)."
  },
  {
   "property": "C42",
   "status": "proved",
   "theorems": [
    "C42_all_nestings_get",
    "C42_denotation",
    "C42_expression",
    "C42_dot_product"
   ],
   "note": "get for every nesting (C42_all_nestings_get); the denoted map and iteration for the nestings of C15 (no union/multi_union over a multi_union), 1..32 operands, materialize of non-exact sources read-only (C18)."
  },
  {
   "property": "C43",
   "status": "proved",
   "theorems": [
    "C43_all_intersection_comm",
    "C43_all_union_comm",
    "C43_all_intersection_assoc",
    "C43_all_union_assoc",
    "C43_all_map_map",
    "C43_all_intersection_map",
    "C43_all_union_map",
    "C43_all_absorb_union",
    "C43_all_absorb_intersection",
    "C43_all_distribute",
    "C43_all_distribute_union",
    "C43_all_multi_intersection_two",
    "C43_all_multi_union_two",
    "C43_all_multi_intersection_perm",
    "C43_all_multi_union_perm",
    "C43_multi_union_two_values_refuted",
    "C43_intersection_comm",
    "C43_union_comm",
    "C43_map_map",
    "C43_intersection_map",
    "C43_intersection_assoc",
    "C43_absorb_union",
    "C43_absorb_intersection",
    "C43_distribute",
    "C43_multi_intersection_two",
    "C43_multi_union_two",
    "C43_multi_intersection_perm",
    "C43_multi_union_perm"
   ],
   "note": "C43_all_*: for every nesting; the others for the nestings of C15. The proviso on the values of multi_union is needed: C43_multi_union_two_values_refuted."
  },
  {
   "property": "C44",
   "status": "partial",
   "theorems": [
    "C44_dense_insert_partial",
    "C44_sparse_insert_partial",
    "C44_dense_drop_actual",
    "C44_sparse_drop_actual",
    "C44_dense_drop_refuted",
    "C44_sparse_drop_refuted"
   ],
   "note": "Replacement proved for both containers. Dropping characterised exactly for every history and every set of panicking destructors; with exactly one it is undefined behaviour: C44_dense_drop_refuted, C44_sparse_drop_refuted."
  },
  {
   "property": "C45",
   "status": "partial",
   "theorems": [
    "C45_all_nestings_any_closure_actual",
    "C45_any_closure_actual",
    "C45_every_panic_leaks_actual",
    "C45_leak_refuted",
    "C45_no_panic_partial",
    "C45_panic_plain_partial",
    "C45_panic_actual",
    "C45_any_source_actual",
    "C45_refuted"
   ],
   "note": "Proved when the function does not panic on an element, or the elements have no destructor; otherwise it is always undefined behaviour (C45_panic_actual, C45_any_source_actual, C45_refuted). And every panic leaks all nodes allocated so far (C45_every_panic_leaks_actual, C45_leak_refuted)."
  },
  {
   "property": "C46",
   "status": "proved",
   "theorems": [
    "C46_dense_nodes",
    "C46_dense_nodes_panics",
    "C46_dense_vectors",
    "C46_dense_bytes",
    "C46_materialize_nodes"
   ],
   "note": "Allocations counted in the heap model; exact count without panicking constructors, lower and upper bound (present keys, present and panicked keys) with them."
  },
  {
   "property": "C47",
   "status": "proved",
   "theorems": [
    "C47_slots",
    "C47_empty_node",
    "C47_size"
   ],
   "note": "64-bit target; that accesses stay below the capacity and use the right type is part of C19."
  },
  {
   "property": "C48",
   "status": "proved",
   "theorems": [
    "C48_map_iter",
    "C48_map_get",
    "C48_fold_iter",
    "C48_fold_get"
   ],
   "note": "The panicking function is the outermost operation; selections never call user code."
  },
  {
   "property": "C49",
   "status": "proved",
   "theorems": [
    "C49_expressions_keep_contract",
    "C49_view_supported",
    "C49_contract_is_enough",
    "C49_dense",
    "C49_sparse",
    "C49_map",
    "C49_multi_map_fold",
    "C49_intersection",
    "C49_union",
    "C49_multi_intersection",
    "C49_multi_union",
    "C49_get",
    "C49_get_data",
    "C49_iter",
    "C49_get_unchecked",
    "C49_materialize"
   ],
   "note": "The contract (Contract.v) is stated by calls of the trait methods; the library's containers and expressions keep it themselves."
  },
  {
   "property": "C50",
   "status": "proved",
   "theorems": [
    "C50_get",
    "C50_get_out_of_range",
    "C50_get_unchecked",
    "C50_iter",
    "C50_materialize",
    "C50_present",
    "C50_absent",
    "C50_materialize_order",
    "C50_only_elements_of_the_result_refuted"
   ],
   "note": "The exact set, order and multiplicity of calls is given by the specification ev (EffectsLaws.v); C50_only_elements_of_the_result_refuted shows a call for an element that is not part of the result (finding 19). Closures inside the operands of multi_intersection/multi_union, and panics: C51."
  },
  {
   "property": "C51",
   "status": "proved",
   "theorems": [
    "C51_get",
    "C51_get_out_of_range",
    "C51_get_unchecked",
    "C51_iter",
    "C51_present",
    "C51_absent",
    "C51_fold",
    "C51_all_nestings_get",
    "C51_all_nestings_get_unchecked",
    "C51_all_nestings_iter",
    "C51_all_nestings_present",
    "C51_all_nestings_absent"
   ],
   "note": "Functions, panics and state in every position; the specification pev (PEffectsLaws.v) gives the calls of one evaluation exactly, for each of the three ways to ask for an element. C51_all_nestings_*: the same with no restriction on the nesting (pxev, PEffectsAll.v)."
  },
  {
   "property": "C52",
   "status": "partial",
   "theorems": [
    "C52_same_calls_partial",
    "C52_same_calls_refuted",
    "C52_all_nestings_refuted"
   ],
   "note": "Proved for expressions in which the operands of multi_intersection/multi_union have no closures of their own (C52_same_calls_partial). Otherwise the claim is false: get evaluates all operands before the fold starts, get_unchecked and iteration alternate (C52_same_calls_refuted, finding 20), and in unions over multi_unions even the sets of calls differ (C52_all_nestings_refuted)."
  },
  {
   "property": "C53",
   "status": "partial",
   "theorems": [
    "C53_inc",
    "C53_dec",
    "C53_round_trip",
    "C53_sat_dec_partial",
    "C53_sat_dec_refuted",
    "C53_closed",
    "C53_split_last",
    "C53_split_last_empty_refuted",
    "C53_cond_new",
    "C53_cond_panics",
    "C53_cond"
   ],
   "note": "Proved for inc/dec, the type SatDec, split_last of 1..9 elements and CondType. False as stated at two points: the method sat_dec of 0 panics (C53_sat_dec_refuted), and split_last of an empty array of a zero-sized type reads out of bounds (C53_split_last_empty_refuted)."
  },
  {
   "property": "C54",
   "status": "partial",
   "theorems": [
    "C54_block",
    "C54_block_panicking_closure_refuted",
    "C54_small_block_exactly",
    "C54_small_block_partial",
    "C54_small_block_one_word_partial",
    "C54_small_block_remove_refuted",
    "C54_small_block_insert_refuted",
    "C54_park_and_restore",
    "C54_small_park_and_restore"
   ],
   "note": "Block: proved for every history without a panicking closure (C54_block). SmallBlock: behaviour given exactly for every history (C54_small_block_exactly); it is the map except where the full claim is false: insert is todo!(), removing an index outside the last mask word while exactly cap indices are present is undefined behaviour, and a panicking closure leaves Block announcing an index without value (three _refuted theorems)."
  },
  {
   "property": "C55",
   "status": "partial",
   "theorems": [
    "C55_cluster_block_partial",
    "C55_cluster_block_overwrites",
    "C55_get_or_insert_never_gets_refuted",
    "C55_descending_insert_loses_refuted",
    "C55_fifth_sub_block_refuted",
    "C55_unimplemented_refuted"
   ],
   "note": "Proved for get_or_zero and get_or_insert in ascending order per sub-block with at most four sub-blocks, and exactly for re-inserting a present index (overwrites). False otherwise: an existing index is inserted again, inserting below a present index loses its value, a fifth sub-block panics, remove/set/insert are todo!() (_refuted theorems)."
  },
  {
   "property": "C56",
   "status": "proved",
   "theorems": [
    "C56_all_nestings_materialize",
    "C56_all_nestings_until_panic",
    "C56_materialize",
    "C56_until_panic"
   ],
   "note": "The unwinding itself is undefined behaviour for element types with a destructor: that claim is C45 (C45_any_closure_actual, finding 18). C56_all_nestings_*: every nesting."
  },
  {
   "property": "C57",
   "status": "partial",
   "theorems": [
    "C57_multi_union",
    "C57_multi_union_iterates",
    "C57_multi_intersection_partial",
    "C57_shrinking_refuted",
    "C57_shrinking_example_refuted",
    "C57_other_trees_refuted",
    "C57_multi_union_example"
   ],
   "note": "Full claim proved for multi_union. For multi_intersection it is false of the code: a clone that ends early is read past its end (C57_shrinking_refuted, finding 27); proved when every later clone begins with the trees of the first. Clones that yield other trees in place of the first are undefined behaviour as well (C57_other_trees_refuted, depth 1; at larger depth the cursor would hold pointers into another tree: not modelled)."
  },
  {
   "property": "C58",
   "status": "partial",
   "theorems": [
    "C58_multi_intersection_bounds",
    "C58_multi_union_bounds",
    "C58_len_partial",
    "C58_cursor_len",
    "C58_get_len",
    "C58_len_refuted"
   ],
   "note": "Bounds proved for all. len() is false of the code for inexact operand iterators (C58_len_refuted, finding 28); proved for exact ones, and always for the iterators of get and of cursors."
  },
  {
   "property": "C59",
   "status": "proved",
   "theorems": [
    "C59_level",
    "C59_intrusive_list",
    "C59_interchangeable",
    "C59_insert_fresh",
    "C59_blocks",
    "C59_same_as_tree",
    "C59_single"
   ],
   "note": "C59_level and C59_intrusive_list: every legal history refines the allocator of LevelSpec.v; C59_insert_fresh, C59_interchangeable; C59_blocks: Block, SmallBlock and ClusterBlock meet the laws; C59_same_as_tree links to the levels of the SparseTree model."
  },
  {
   "property": "C60",
   "status": "partial",
   "theorems": [
    "C60_users",
    "C60_readme_dot",
    "C60_readme_dot_vectors",
    "C60_readme_dot_Z",
    "C60_sparse_vector_lanes",
    "C60_sparse_vector_dot",
    "C60_sparse_vector_dot_Z",
    "C60_sparse_vector_out_of_range",
    "C60_store_partial",
    "C60_store_none",
    "C60_store_single",
    "C60_store_refuted"
   ],
   "note": "C60_users, C60_readme_dot (no laws), C60_readme_dot_vectors and C60_sparse_vector_dot (dot product over all indices), C60_sparse_vector_lanes (no associativity, as f32), for any content; C60_store_partial: the first store with all goods and at least ONE amount sufficient; \"every amount\" is false: C60_store_refuted."
  },
  {
   "property": "C61",
   "status": "proved",
   "theorems": [
    "C61_dense_get",
    "C61_dense_insert",
    "C61_dense_get_or_insert",
    "C61_dense_remove",
    "C61_sparse_get",
    "C61_sparse_insert",
    "C61_sparse_get_or_insert",
    "C61_sparse_remove",
    "C61_dense_every_insert",
    "C61_dense_every_remove",
    "C61_sparse_every_insert",
    "C61_sparse_every_remove",
    "C61_get",
    "C61_get_unchecked",
    "C61_dense_costs",
    "C61_sparse_costs",
    "C61_map_costs",
    "C61_multi_map_fold_costs",
    "C61_intersection_costs",
    "C61_union_costs",
    "C61_multi_intersection_costs",
    "C61_multi_union_costs",
    "C61_expression_get",
    "C61_expression_get_unchecked",
    "C61_expression_cursor",
    "C61_iteration",
    "C61_exact_iteration",
    "C61_intersection_iteration",
    "C61_restricted_iteration",
    "C61_first_elements",
    "C61_materialize",
    "C61_materialize_sparse",
    "C61_materialize_restricted"
   ],
   "note": "Footprint theorems: existence of a set F of at most the stated number of cells such that any tree agreeing on F (and the header) gives the same answer and the same changes and no other cell changes. C61_*_every_insert/remove: along every legal history. C61_*_costs: the lazy operations and cursor steps, compositionally; C61_expression_*: every nesting (multi_union included): get, get_unchecked, any session of a cursor; C61_iteration/C61_exact_iteration/C61_intersection_iteration/C61_restricted_iteration: a whole iteration. C61_first_elements: the first m calls of next. C61_materialize, C61_materialize_sparse, C61_materialize_restricted: the reads of a copy (exact, not exact, restricted by an operand)."
  },
  {
   "property": "C62",
   "status": "partial",
   "theorems": [
    "C62_blocks_exactly",
    "C62_no_leak_no_double_free",
    "C62_clones_are_independent",
    "C62_tag_partial",
    "C62_tag_refuted"
   ],
   "note": "C62_blocks_exactly / C62_no_leak_no_double_free / C62_clones_are_independent hold of every program, for a compiler that puts the union tag where is_small looks for it. False in general: Rust does not fix the layout of tuples, and with the box before the tag is_small of a fresh block reads an uninitialised byte (C62_tag_refuted; C62_tag_partial for the other layouts). The failures of C54 (remove from an exactly full small array, insert) are part of the specification run."
  },
  {
   "property": "C63",
   "status": "partial",
   "theorems": [
    "C63_paths_partial",
    "C63_get_partial",
    "C63_index_range_partial",
    "C63_refuted"
   ],
   "note": "True for every hierarchy whose root shift is smaller than the word (C63_paths_partial, C63_get_partial, C63_index_range_partial; C63_configurations: all configurations on 64 bits; on 32 bits width_64 up to depth 6, width_128 up to 5, width_256 up to 4). False for the deeper configurations on 32 bits: debug builds panic at every access, release builds read behind the block arrays (C63_refuted)."
  },
  {
   "property": "C64",
   "status": "partial",
   "theorems": [
    "C64_sparse_memory_safe_partial",
    "C64_sparse_memory_safe_small_partial",
    "C64_no_remove_memory_safe_partial",
    "C64_refuted_iter",
    "C64_refuted_alias",
    "C64_refuted_get"
   ],
   "note": "Proved for every history whose links fit, without condition for width_64 up to depth 5 and width_128 up to depth 4. The rest is false: at width_256, 256 insertions and iter() (depth 1: C64_refuted_iter), or removal through an aliased link (depth 2: C64_refuted_alias), are undefined behaviour; with removals even get() is (C64_refuted_get). Without removals all calls except iteration are safe in every configuration (C64_no_remove_memory_safe_partial)."
  },
  {
   "property": "C65",
   "status": "proved",
   "theorems": [
    "C65_many_trees",
    "C65_alive",
    "C65_contract",
    "C65_get",
    "C65_iter",
    "C65_key_values",
    "C65_expression",
    "C65_foreign_memory",
    "C65_no_leak",
    "C65_memory"
   ],
   "note": "Every interleaving of any number of trees, every allocator, any other memory content: outcomes, drops, contract of the whole hierarchy (so C49 and all views), get, iteration, key_values, every nesting of map, union, intersection, multi_union, multi_intersection and multi_map_fold over the trees of the memory, materialize of such an expression into the same memory in mid-program (results of expressions that do not declare EXACT_HIERARCHY are then read, updated through references and dropped), foreign memory untouched, everything returned, and in between exactly the nodes the keys need (C65_memory, programs without panicking constructors and without collected non-exact expressions). By a renaming simulation to the private-heap model."
  }
 ]
}