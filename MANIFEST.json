{
 "claims": [
  {
   "property": "C01",
   "status": "partial",
   "theorems": [
    "C01_navigation",
    "C01_reachable_partial",
    "C01_navigation_calls_partial",
    "C01_refuted"
   ],
   "note": "false of the code after the buggy calls excluded by `safe`; proved for every history of safe calls, and for every heap that stores a forest"
  },
  {
   "property": "C02",
   "status": "proved",
   "theorems": [
    "C02_create_child"
   ],
   "note": ""
  },
  {
   "property": "C03",
   "status": "proved",
   "theorems": [
    "C03_create_sibling"
   ],
   "note": ""
  },
  {
   "property": "C04",
   "status": "proved",
   "theorems": [
    "C04_interrupting_parent"
   ],
   "note": ""
  },
  {
   "property": "C05",
   "status": "proved",
   "theorems": [
    "C05_interrupting_child"
   ],
   "note": ""
  },
  {
   "property": "C06",
   "status": "partial",
   "theorems": [
    "C06_replace_partial",
    "C06_last_exact",
    "C06_refuted"
   ],
   "note": "false of the code when the node is childless and the last but not first sibling, unless the tree left is deallocated; proved otherwise; C06_last_exact says exactly what happens in that case"
  },
  {
   "property": "C07",
   "status": "partial",
   "theorems": [
    "C07_detach_partial",
    "C07_last_exact",
    "C07_refuted",
    "C07_panic_refuted"
   ],
   "note": "false of the code for the last of several siblings, unless the tree left is deallocated; proved otherwise; C07_last_exact says exactly what happens in that case"
  },
  {
   "property": "C08",
   "status": "partial",
   "theorems": [
    "C08_C10_move_partial",
    "C08_last_exact_partial",
    "C08_last_place_exact",
    "C08_last_place_only",
    "C08_outcome",
    "C08_refuted",
    "C08_last_place_refuted"
   ],
   "note": "false of the code for the last of several siblings and for moves below the node itself; proved otherwise; C08_last_exact_partial says what happens to the last of several siblings, C08_last_place_exact when it is moved to the last place it already has; C08_outcome: every move returns, and which ones are refused"
  },
  {
   "property": "C09",
   "status": "partial",
   "theorems": [
    "C09_acyclic_partial",
    "C09_loop_never_detected",
    "C09_root_move_noop",
    "C09_below_exact",
    "C09_refuted"
   ],
   "note": "false of the code: the loop check is never run; acyclicity proved for safe calls; C09_below_exact: the exact effect of every move below the moved node, a cycle"
  },
  {
   "property": "C10",
   "status": "partial",
   "theorems": [
    "C08_C10_move_partial",
    "C10_last_exact",
    "C10_whole_single",
    "C10_whole_kept_exact",
    "C10_whole_lost_exact",
    "C10_refuted",
    "C10_stale_root_refuted"
   ],
   "note": "false of the code when the moved node is the last of several siblings or the root of a tree of several nodes; proved otherwise (C10_whole_single: a tree of one node); C10_last_exact says exactly what happens to the last of several siblings, C10_whole_kept_exact and C10_whole_lost_exact what happens to a whole tree with and without a Tree handle on it"
  },
  {
   "property": "C11",
   "status": "partial",
   "theorems": [
    "C11_failed_edit_partial",
    "C11_same_exact",
    "C11_other_exact",
    "C11_whole_kept_exact",
    "C11_whole_lost_exact",
    "C11_refuted",
    "C11_self_refuted"
   ],
   "note": "false of the code for moves next to a root or next to the node itself; proved for every other failing edit; C11_same_exact, C11_other_exact and the C11_whole_ theorems say exactly what those failing moves have done"
  },
  {
   "property": "C12",
   "status": "proved",
   "theorems": [
    "C12_depth_first",
    "C12_link_traverser",
    "C12_orders",
    "shape_total"
   ],
   "note": ""
  },
  {
   "property": "C13",
   "status": "proved",
   "theorems": [
    "C13_reverse",
    "C13_reverse_of_forward"
   ],
   "note": ""
  },
  {
   "property": "C14",
   "status": "proved",
   "theorems": [
    "C14_children",
    "C14_siblings",
    "C14_root_siblings",
    "C14_ancestors",
    "C14_anc_total"
   ],
   "note": ""
  },
  {
   "property": "C15",
   "status": "partial",
   "theorems": [
    "C15_one_direction_partial",
    "C15_stable_dfs_refuted",
    "C15_stable_dfs_ends_refuted",
    "C15_stable_siblings_refuted",
    "C15_preceding_stable_refuted",
    "C15_siblings_exact",
    "C15_root_siblings_exact",
    "C15_depth_first_exact",
    "C15_until_they_meet",
    "C15_when_they_met"
   ],
   "note": "false of the code: stable iterators do not stop where the two ends meet, nor at the top level node; proved for one-directional use on whole trees; the *_exact theorems say for every schedule of calls at the two ends what each of them returns, and C15_until_they_meet that up to the moment the ends meet that is what a double ended iterator should return"
  },
  {
   "property": "C16",
   "status": "proved",
   "theorems": [
    "C16_shallow",
    "C16_deque_meaning"
   ],
   "note": ""
  },
  {
   "property": "C17",
   "status": "proved",
   "theorems": [
    "C17_breadth_first",
    "C17_allocating",
    "C17_peek",
    "C17_every_node_once"
   ],
   "note": ""
  },
  {
   "property": "C18",
   "status": "partial",
   "theorems": [
    "C18_size_hints_partial",
    "C18_shallow_exact",
    "C18_shallow_hint_refuted",
    "C18_link_exact",
    "C18_link_hint_refuted",
    "C18_stable_siblings_exact",
    "C18_stable_root_siblings_exact",
    "C18_stable_depth_first_exact",
    "C18_stable_until_they_meet",
    "C18_stable_one_end",
    "C18_stable_hint_refuted"
   ],
   "note": "false of the code for one bound of the shallow traverser, for the internal link traverser, and for the stable iterators once their ends have met (or, for preceding siblings, at once); every wrong hint is given exactly, for every schedule"
  },
  {
   "property": "C19",
   "status": "proved",
   "theorems": [
    "C19_try_eq",
    "C19_nodes",
    "C19_trees",
    "C19_exact",
    "C19_node_eq",
    "C19_tree_eq"
   ],
   "note": "any two heaps / any two handles; the answer depends on the two subtrees only; exactly which of several possible answers"
  },
  {
   "property": "C20",
   "status": "proved",
   "theorems": [
    "C20_events",
    "C20_roundtrip",
    "C20_equal"
   ],
   "note": "every subtree of every reachable state, events read without interleaved edits"
  },
  {
   "property": "C21",
   "status": "proved",
   "theorems": [
    "C21_build",
    "C21_exclusive",
    "C21_build_locked",
    "C21_build_tree",
    "C21_observers",
    "C21_close_zero",
    "C21_with_root",
    "C21_with_root_refuted",
    "C21_failed_close_refuted"
   ],
   "note": "every event sequence for a new builder; with_root for every sequence on a root and every sequence inside a non-root node; with_root on a non-root node leaves the subtree (refuted); a failing close(n) moves the current node (refuted)"
  },
  {
   "property": "C22",
   "status": "partial",
   "theorems": [
    "C22_clone_subtree",
    "C22_clone_tree",
    "C22_clone_equal",
    "C22_clone_insert_partial",
    "C22_inside_exact",
    "C22_no_place",
    "C22_self_refuted",
    "C22_diverges_refuted",
    "C22_error_refuted"
   ],
   "note": "false of the code for clone_insert inside the source (an extra node or no end) and on errors (a partial copy stays); proved for every other place, and C22_inside_exact says exactly what happens at every place inside the source"
  },
  {
   "property": "C23",
   "status": "proved",
   "theorems": [
    "C23_exclusive",
    "C23_acquire_token",
    "C23_acquire_bundle",
    "C23_any_exclusive",
    "C23_any_acquire_token",
    "C23_any_acquire_bundle",
    "any_history"
   ],
   "note": "the _any_ theorems hold after every history of calls whatsoever, also after calls that corrupt the links"
  },
  {
   "property": "C24",
   "status": "proved",
   "theorems": [
    "C24_balance",
    "C24_release_never_panics",
    "C24_reacquire",
    "C24_any_balance",
    "C24_any_release",
    "C24_any_release_token"
   ],
   "note": "the _any_ theorems hold after every history of calls whatsoever"
  },
  {
   "property": "C25",
   "status": "partial",
   "theorems": [
    "C25_detach_partial",
    "C25_move_partial",
    "C25_any_flow"
   ],
   "note": "that detaches and moves succeed with these counts: for safe ones; that the counts follow the nodes: every call after every history"
  },
  {
   "property": "C26",
   "status": "partial",
   "theorems": [
    "C26_wrong_grant",
    "C26_frozen_partial",
    "C26_every_call_partial",
    "C26_refuted",
    "C26_any_wrong_grant",
    "C26_any_no_authority"
   ],
   "note": "false of the code after a detach of the last of several siblings: an edit of one tree then writes into a frozen one; proved for every call (also damaging ones, all five links of every node) in states of undamaged histories; the grant checks themselves are proved for every history"
  },
  {
   "property": "C27",
   "status": "partial",
   "theorems": [
    "C27_kept_alive_partial",
    "C27_handles_valid_partial",
    "C27_refuted",
    "C27_any_handle",
    "C27_any_hands"
   ],
   "note": "false of the code when a whole tree is moved; proved for safe calls; after every history a handle never dangles"
  },
  {
   "property": "C28",
   "status": "partial",
   "theorems": [
    "C28_drop_partial",
    "C28_no_garbage_partial",
    "C28_all_dropped_partial",
    "C28_refuted",
    "C28_last_place_refuted",
    "C28_any_trees"
   ],
   "note": "false of the code after a move that creates a cycle or of a last child to the last place; proved for safe calls; tree cores never outlive their handles after any history"
  },
  {
   "property": "C29",
   "status": "partial",
   "theorems": [
    "C29_same_tree_partial",
    "C29_queries_partial",
    "C29_tree_root_partial",
    "C29_refuted",
    "C29_any_queries"
   ],
   "note": "false of the code after a failed move; proved for safe calls; the queries answer from the recorded membership after any history"
  },
  {
   "property": "C30",
   "status": "partial",
   "theorems": [
    "C30_weak_node_partial",
    "C30_weak_tree_partial",
    "C30_no_resurrection",
    "C30_refuted",
    "C30_any_weak_tree",
    "C30_any_weak_node_partial",
    "C30_any_no_resurrection"
   ],
   "note": "false of the code after a move that creates a cycle; proved for safe calls; TreeWeak and no resurrection for every history"
  },
  {
   "property": "C31",
   "status": "partial",
   "theorems": [
    "C31_pretty_partial",
    "C31_items",
    "C31_line_count",
    "C31_pieces",
    "C31_failing_display",
    "C31_failing_sink",
    "C31_empty_refuted"
   ],
   "note": "every subtree and every text, also with Display implementations and sinks that fail; a node with an empty text gets no item (refuted)"
  },
  {
   "property": "C32",
   "status": "partial",
   "theorems": [
    "C32_handle_ops_partial",
    "C32_refuted"
   ],
   "note": "false of the code after a whole tree was moved; proved for safe calls"
  },
  {
   "property": "C33",
   "status": "partial",
   "theorems": [
    "C33_close_current",
    "C33_close_current_end",
    "C33_event_close_current_refuted",
    "C33_event_close_current_partial"
   ],
   "note": "traversers: proved; DftEvent::close_current diverges when the next event is an Open"
  },
  {
   "property": "C34",
   "status": "proved",
   "theorems": [
    "C34_next_prev_inverse"
   ],
   "note": ""
  },
  {
   "property": "C35",
   "status": "proved",
   "theorems": [
    "C35_data",
    "C35_write",
    "C35_any_data",
    "C35_any_write"
   ],
   "note": "every history"
  },
  {
   "property": "C36",
   "status": "partial",
   "theorems": [
    "C36_footprint_partial",
    "C36_every_call_partial",
    "C36_refuted"
   ],
   "note": "every call, also the damaging ones, in states of undamaged histories keeps all links of the nodes of other trees; false once damage has been done (refuted)"
  },
  {
   "property": "C37",
   "status": "partial",
   "theorems": [
    "C37_no_panic_partial",
    "C37_documented_panic_partial",
    "C37_every_call_partial",
    "C37_refuted",
    "C37_any_calm"
   ],
   "note": "every call in states of undamaged histories panics exactly where documented and terminates; false once damage has been done (refuted); calls that follow no links never panic after any history"
  },
  {
   "property": "C38",
   "status": "proved",
   "theorems": [
    "C38_collect",
    "C38_equal"
   ],
   "note": "every subtree of every reachable state; events read while the new tree is built"
  },
  {
   "property": "C39",
   "status": "proved",
   "theorems": [
    "C39_tree_node_macro",
    "C39_tree_macro"
   ],
   "note": "every written tree; the expansion of the macros is modelled as a function of the written tree (token matching by rustc is not)"
  },
  {
   "property": "C40",
   "status": "partial",
   "theorems": [
    "C40_node",
    "C40_subtree_partial",
    "C40_tree",
    "C40_weak_node",
    "C40_weak_tree",
    "C40_frozen_refuted"
   ],
   "note": "debug_print_subtree of a FrozenNode is headed Node (refuted); the documents are modelled, not their layout by the standard Formatter"
  },
  {
   "property": "C41",
   "status": "partial",
   "theorems": [
    "C41_depth_first_partial",
    "C41_reverse_depth_first_partial",
    "C41_linear_partial",
    "C41_linear_fixed_partial"
   ],
   "note": "every interleaving with safe calls of other code"
  },
  {
   "property": "C42",
   "status": "partial",
   "theorems": [
    "C42_frozen_traversal_partial",
    "C42_children_partial",
    "C42_siblings_partial",
    "C42_root_siblings_partial",
    "C42_depth_first_partial",
    "C42_breadth_first_partial"
   ],
   "note": "every iterator of FrozenNode, every interleaving with safe calls of other code, every schedule of the two ends (for the stable iterators these behave as in C15_*_exact)"
  },
  {
   "property": "C43",
   "status": "partial",
   "theorems": [
    "C43_shallow_partial",
    "C43_drop",
    "C43_bound_only",
    "C43_refuted"
   ],
   "note": "every call in every reachable state (including the damaging ones and grafts, for which everything freed during the call counts) runs with at most one node destructor at a time; in states after links were damaged later drops do nest (refuted)"
  },
  {
   "property": "C44",
   "status": "proved",
   "theorems": [
    "C44_panics_iff",
    "C44_clone_subtree",
    "C44_clone_tree",
    "C44_clone_insert",
    "C44_clone_insert_inside",
    "C44_clone_insert_no_place",
    "C44_new_hot_tree"
   ],
   "note": "every such call in every reachable state; clone_insert_subtree at every place (inside the source it may also never return); == is C19"
  },
  {
   "property": "C45",
   "status": "partial",
   "theorems": [
    "C45_queries_partial",
    "C45_one_answer",
    "C45_ill_typed",
    "C45_tree_ptr_eq",
    "C45_first_last_child_partial",
    "C45_first_last_sibling_partial",
    "C45_into_plain_partial",
    "C45_after_refused_move",
    "C45_refuted"
   ],
   "note": "every question in every reachable state; after a refused move is_root panics in a debug build (refuted)"
  },
  {
   "property": "C46",
   "status": "partial",
   "theorems": [
    "C46_any_counts",
    "C46_num_children_partial"
   ],
   "note": "every history; num_children: every reachable state"
  },
  {
   "property": "C47",
   "status": "proved",
   "theorems": [
    "C47_call",
    "C47_calls",
    "C47_data",
    "C47_history"
   ],
   "note": "every state, reachable or not"
  },
  {
   "property": "C48",
   "status": "proved",
   "theorems": [
    "C48_damage_iff",
    "C48_damaging_returns",
    "C48_sound_consistent",
    "C48_reach_iff"
   ],
   "note": "the states of all _partial theorems (reach) are exactly the states of the histories in which no damage was done"
  },
  {
   "property": "C49",
   "status": "proved",
   "theorems": [
    "C49_separate",
    "C49_undisturbed",
    "C49_alone",
    "C49_confined",
    "C49_confined_effect"
   ],
   "note": "every interleaving, damaging calls included; where the call runs for ever in the share alone (NoFuel) C49_alone says nothing, and C49_confined_effect shows that safe calls never do"
  },
  {
   "property": "C50",
   "status": "proved",
   "theorems": [
    "C50_next",
    "C50_start",
    "C50_clone",
    "C50_clone_place",
    "C50_drop",
    "C50_exhausted",
    "C50_no_root"
   ],
   "note": "every iterator of src/traverse.rs, in every state any history leads to (damaged links included); about calls that return"
  },
  {
   "property": "C51",
   "status": "proved",
   "theorems": [
    "C51_each_call",
    "C51_push_events",
    "C51_questions",
    "C51_finish",
    "C51_abandoned",
    "C51_private"
   ],
   "note": "builders made by TreeBuilder::new; with_root is C21"
  },
  {
   "property": "C52",
   "status": "partial",
   "theorems": [
    "C52_unwrap",
    "C52_create_undone_partial",
    "C52_move_back_partial",
    "C52_detach_back_partial",
    "C52_refuted"
   ],
   "note": "C52_unwrap is complete; the others exclude a node that is the last of several siblings when it is taken away (defect 1: C52_refuted), and detaching and moving back is for leaves (defect of moving a whole tree, C10)"
  },
  {
   "property": "C53",
   "status": "partial",
   "theorems": [
    "C53_drop_several_partial",
    "C53_drop_order_partial"
   ],
   "note": "for histories without the damaging calls of C48 (after those, links can keep or lose nodes: C27_refuted, C28_refuted)"
  },
  {
   "property": "C54",
   "status": "proved",
   "theorems": [
    "C54_nodes",
    "C54_trees"
   ],
   "note": "states reached without the damaging calls of C48"
  },
  {
   "property": "C55",
   "status": "proved",
   "theorems": [
    "C55_fused",
    "C55_fused_handles"
   ],
   "note": "every state of every iterator, reachable or not; both the node-level iterators and those with the handles they own"
  },
  {
   "property": "C56",
   "status": "proved",
   "theorems": [
    "C56_indifferent",
    "C56_not_invented"
   ],
   "note": "every history of the calls of step, from any state (C56_indifferent) or from the start"
  },
  {
   "property": "C57",
   "status": "proved",
   "theorems": [
    "C57_constant",
    "C57_questions",
    "C57_num_children"
   ],
   "note": "nodes touched, not machine steps; every state, reachable or not; creation and bundling when they succeed (a failing one drops a handle)"
  },
  {
   "property": "C58",
   "status": "partial",
   "theorems": [
    "C58_readable",
    "C58_create",
    "C58_interrupt_parent",
    "C58_interrupt_child",
    "C58_replace",
    "C58_detach",
    "C58_move_partial",
    "C58_graft_partial",
    "C58_clone_insert_partial",
    "C58_determined",
    "C58_refuted",
    "C58_graft_refuted"
   ],
   "note": "moves: not below the node itself (C09), not of a last child to the place it has (refuted), and of a root with children into another tree only while a Tree handle keeps its own (refuted otherwise); inserting a clone: outside the source (C22_inside_exact); the others without restriction in every reachable state"
  }
 ]
}