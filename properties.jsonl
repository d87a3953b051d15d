{"id": "C01", "title": "Neighbour accessors describe one ordered tree", "statement": "For any two nodes: x is the parent() of c iff c is produced by iterating first_child()/next_sibling() from x; last_child() is the last such child; prev_sibling() is the inverse of next_sibling(); is_root/is_first_sibling/is_last_sibling/has_* agree with the corresponding Option accessor; num_children() equals the number of children. A root has no parent and no siblings.", "quantifier": "every heap of nodes reachable by any history of API calls (edits, handle clones and drops), every node in it", "why_tests_cant": "The neighbour pointers are four redundant mutable links per node updated by hand in a dozen edit routines; agreement in all reachable link configurations is an invariant over histories.", "anchors": ["src/node/internal.rs: parent_link, prev_sibling_link, next_sibling_link, first_child_link, last_child_link, is_first_sibling, is_last_sibling, has_children", "src/node/plain.rs: Node accessors"]}
{"id": "C02", "title": "Creating a first/last child inserts exactly one leaf", "statement": "create_as_first_child(d)/create_as_last_child(d) (and try_create_node_as FirstChild/LastChild) always succeed; afterwards the children of the receiver are the new node followed by (resp. preceded by) the old children in the same order, the new node has data d and no children, it belongs to the receiver's tree, and no other node's children, parent or data change.", "quantifier": "every well-formed forest, every receiver node, every data value", "why_tests_cant": "Needs all sibling-list lengths and positions, and a frame condition over every other node.", "anchors": ["src/node/edit.rs: create_as_first_child, create_as_last_child, OrphanRoot::insert_as_first_child_of, insert_as_last_child_of", "src/node/plain.rs: try_create_as_first_child, create_as_first_child"]}
{"id": "C03", "title": "Creating an adjacent sibling inserts at exactly that position", "statement": "try_create_as_prev_sibling/next_sibling on a non-root node x insert one new leaf immediately before/after x among the parent's children and change nothing else; on a root node they return SiblingsWithoutParent and the forest is unchanged.", "quantifier": "every well-formed forest, every receiver (root, first, middle, last, only child), every data value", "why_tests_cant": "All positions in all sibling lists of unbounded length plus frame and error-atomicity.", "anchors": ["src/node/edit.rs: try_create_as_prev_sibling, try_create_as_next_sibling, OrphanRoot::insert, insert_between"]}
{"id": "C04", "title": "create_as_interrupting_parent wraps exactly one node", "statement": "The new node takes the receiver's place among the receiver's siblings (or becomes the tree's root when the receiver was the root, and Tree::root() then returns it), its only child is the receiver, the receiver's subtree is unchanged, nothing else changes.", "quantifier": "every well-formed forest, every receiver", "why_tests_cant": "The routine inserts then detaches and re-inserts; correctness depends on every sibling configuration.", "anchors": ["src/node/edit.rs: create_as_interrupting_parent", "src/tree.rs: TreeCore::replace_root"]}
{"id": "C05", "title": "create_as_interrupting_child adopts all children in order", "statement": "The receiver's only child becomes the new node; the new node's children are the receiver's former children in the same order; num_children of both are right; nothing else changes.", "quantifier": "every well-formed forest, every receiver with any number of children", "why_tests_cant": "Loop over an unbounded child list rewriting parents.", "anchors": ["src/node/edit.rs: create_as_interrupting_child"]}
{"id": "C06", "title": "try_replace_with_children splices the children in place", "statement": "For a non-root node x the parent's child list becomes the old list with x replaced by x's children in order, and x becomes the root of a fresh single-node tree. For a root with exactly one child, that child becomes the root of the tree. For a root without children EmptyTree, with several SiblingsWithoutParent is returned and nothing changes.", "quantifier": "every well-formed forest, every receiver", "why_tests_cant": "Eight link-update branches whose correctness depends on neighbours; violated in one branch.", "anchors": ["src/node/edit.rs: try_replace_with_children", "src/node/plain.rs: try_replace_with_children"]}
{"id": "C07", "title": "detach_subtree splits a tree in two", "statement": "After detach_subtree on a non-root x: x is the root of a new tree whose shape and data equal x's former subtree; the former parent's children are the old ones without x in the same order; every other node is unchanged; all nodes of the subtree (and no others) now belong to the new tree. On a root nothing changes.", "quantifier": "every well-formed forest, every receiver", "why_tests_cant": "Requires all sibling positions and a frame condition; violated for last-but-not-only children.", "anchors": ["src/node/edit.rs: detach_subtree, OrphanRoot::new_by_unlink, create_new_tree, set_memberships_of_descendants_and_self"]}
{"id": "C08", "title": "Moving a subtree inside its tree", "statement": "try_detach_insert_subtree with a destination in the same tree that is not inside the moved subtree removes the node from its old place and inserts it at the requested place; subtree shape and data, and every other node's relative order, are unchanged.", "quantifier": "every well-formed forest, every (node, destination) pair", "why_tests_cant": "Quadratically many position combinations of unbounded size.", "anchors": ["src/node/edit.rs: detach_and_move_inside_same_tree, OrphanRoot::insert", "src/node/plain.rs: try_detach_insert_subtree"]}
{"id": "C09", "title": "No operation makes a node its own ancestor", "statement": "try_detach_insert_subtree to a destination inside the moved subtree is rejected with AncestorDescendantLoop and leaves the forest unchanged; hence ancestors() always terminates at a root.", "quantifier": "every well-formed forest, every (node, destination inside its subtree) pair", "why_tests_cant": "Absence of cycles is a global inductive invariant; the check is skipped for every non-root node.", "anchors": ["src/node/edit.rs: OrphanRoot::new_by_unlink, insert_as_first_child_of, insert_as_last_child_of, insert_between, is_ancestor_of, detach_and_move_inside_same_tree"]}
{"id": "C10", "title": "Moving a subtree to another tree", "statement": "try_detach_insert_subtree with a destination in another tree: both child lists are as expected, the moved nodes (and only they) now belong to the destination tree, and the source tree keeps its other nodes.", "quantifier": "every well-formed forest with several trees, every non-root/root node and destination", "why_tests_cant": "Interaction of links, memberships, tree reference counts and drop of the source tree.", "anchors": ["src/node/edit.rs: detach_and_move_to_another_tree, set_memberships_of_descendants_and_self", "src/node/membership.rs: set_tree_core", "src/tree.rs: Drop for TreeCore"]}
{"id": "C11", "title": "Failed edits change nothing", "statement": "Whenever a hierarchy edit returns Err, the forest (children lists, parents, tree memberships, data, locks) is the same as before the call.", "quantifier": "every edit operation, every state and arguments for which it returns Err", "why_tests_cant": "Atomicity over all failing calls.", "anchors": ["src/node/edit.rs: OrphanRoot::insert, try_replace_with_children, detach_and_move_*", "src/node.rs: HierarchyError"]}
{"id": "C12", "title": "Depth-first traversal is the bracketed preorder of the subtree", "statement": "Collecting depth_first_traverse() from x yields Open(x), the traversals of the children in order, Close(x): each node of the subtree opens and closes exactly once, properly nested, nothing outside the subtree is visited, and the iterator is fused.", "quantifier": "every well-formed forest and start node", "why_tests_cant": "Unbounded trees; stop condition depends on structure above the start node.", "anchors": ["src/traverse/depth_first.rs: DepthFirstTraverser, DftEvent::next", "src/node/internal.rs: DepthFirstLinkTraverser"]}
{"id": "C13", "title": "Reverse depth-first traversal is the exact reverse", "statement": "Collecting depth_first_reverse_traverse() from x is the reverse of collecting depth_first_traverse() from x.", "quantifier": "every well-formed forest and start node", "why_tests_cant": "Relates two independent pointer-walking algorithms on all trees.", "anchors": ["src/traverse/depth_first.rs: ReverseDepthFirstTraverser, DftEvent::prev"]}
{"id": "C14", "title": "Sibling, children and ancestor iterators enumerate exactly the right nodes in order", "statement": "children() = child list; siblings() = all siblings incl. self in order; following_siblings_or_self/following_siblings, preceding_siblings_or_self/preceding_siblings and their reverse variants, and ancestors/ancestors_or_self enumerate exactly the nodes named, in the documented order, then stop; count_* equal the lengths.", "quantifier": "every well-formed forest and start node", "why_tests_cant": "All list lengths and positions.", "anchors": ["src/traverse/siblings.rs: SiblingsTraverser, ReverseSiblingsTraverser", "src/traverse/ancestors.rs: AncestorsTraverser", "src/node/plain.rs: children, siblings, following_siblings, preceding_siblings_reverse, count_children"]}
{"id": "C15", "title": "Stable (double-ended) traversers deliver each item exactly once", "statement": "For the stable depth-first and stable sibling iterators on frozen nodes: under any interleaving of next() and next_back(), front items followed by reversed back items form exactly the expected sequence, each item once, then None.", "quantifier": "every frozen tree, start node, every interleaving of next/next_back", "why_tests_cant": "All schedules of the two ends on all trees.", "anchors": ["src/traverse/depth_first.rs: StableDepthFirstTraverser", "src/traverse/siblings.rs: StableSiblingsTraverser", "src/node/frozen.rs: *_stable"]}
{"id": "C16", "title": "Shallow depth-first traversal with maximum depth", "statement": "shallow_depth_first_traverse(max_depth) yields exactly the subsequence of the full depth-first events whose node is at depth <= max_depth (with the right depth), from either end, each once.", "quantifier": "every frozen tree, start node, max depth, every interleaving of next/next_back", "why_tests_cant": "All depths, trees and schedules.", "anchors": ["src/traverse/depth_first.rs: StableShallowDepthFirstTraverser"]}
{"id": "C17", "title": "Breadth-first traversals enumerate level order", "statement": "breadth_first_traverse and allocating_breadth_first_traverse yield every node of the subtree exactly once, ordered by depth and then by document order, tagged with its depth.", "quantifier": "every tree and start node", "why_tests_cant": "Non-allocating variant re-walks the tree per level; termination and completeness for all shapes.", "anchors": ["src/traverse/breadth_first.rs: BreadthFirstTraverser, AllocatingBreadthFirstTraverser"]}
{"id": "C18", "title": "size_hint is a true bound", "statement": "For every iterator in traverse/, at every point of its consumption, lower <= number of remaining items and remaining <= upper when given.", "quantifier": "every iterator state reachable on every tree", "why_tests_cant": "All positions in all trees; violated by one iterator.", "anchors": ["src/traverse/*.rs: size_hint", "src/node/internal.rs: DepthFirstLinkTraverser::size_hint"]}
{"id": "C19", "title": "try_eq decides structural equality", "statement": "On unborrowed subtrees try_eq(a,b) is Ok(true) iff the subtrees have the same shape and pairwise equal data in preorder (for a reflexive data equality when a and b are the same node), Ok(false) otherwise; it never depends on siblings/ancestors of the roots; an Err occurs only if some node's data is mutably borrowed.", "quantifier": "all pairs of subtrees of any two trees", "why_tests_cant": "Quantifies over all pairs of trees.", "anchors": ["src/node/internal.rs: NodeCoreLink::try_eq", "src/node/plain.rs: Node::try_eq", "src/tree.rs: Tree::try_eq"]}
{"id": "C20", "title": "Serialization round-trips", "statement": "Collecting to_events() from any node and rebuilding with the builder (FromIterator) yields a fresh tree equal (try_eq) to the source subtree; the event sequence begins with Open, has no two adjacent Close events and omits nothing.", "quantifier": "every subtree, every data", "why_tests_cant": "All trees.", "anchors": ["src/serial.rs: TreeSerializeIter, TreeBuilder, FromIterator impls"]}
{"id": "C21", "title": "TreeBuilder accepts exactly well-formed event sequences", "statement": "Feeding an arbitrary event sequence to TreeBuilder: it returns a tree iff the sequence is one well-bracketed tree possibly with trailing Closes omitted; otherwise RootNotOpened / RootClosed precisely; the built tree is the one the sequence denotes. close(0) is a no-op.", "quantifier": "every finite sequence of Open(d)/Close(n) events", "why_tests_cant": "All sequences, including malformed ones.", "anchors": ["src/serial.rs: TreeBuilder::open, close, push_event, finish, is_root_closed, with_root, TreeBuildError"]}
{"id": "C22", "title": "Cloning a subtree", "statement": "try_clone_subtree yields a new independent tree equal to the source; try_clone_insert_subtree inserts an equal copy at the destination; the source subtree and all other nodes are unchanged. It fails with BorrowNodeData iff some node of the subtree is mutably borrowed.", "quantifier": "every source subtree, every destination", "why_tests_cant": "All trees/destinations, including destinations inside the source.", "anchors": ["src/node/edit.rs: try_clone_insert_subtree", "src/node/plain.rs: try_clone_subtree, try_clone_insert_subtree"]}
{"id": "C23", "title": "Edit grants and prohibitions are mutually exclusive", "statement": "At no time do a live grant (token or HotNode) and a live prohibition (token or FrozenNode) for the same tree coexist; acquiring one succeeds iff no lock of the other kind is live on that tree.", "quantifier": "every history of acquire/clone/bundle/extract/drop/edit calls", "why_tests_cant": "Invariant over all histories of lock tokens shared by many handles.", "anchors": ["src/tree/lock.rs: HierarchyLockManager, LockAggregatorForNode, HierarchyEditGrant, HierarchyEditProhibition", "src/node/membership.rs: acquire_edit_grant, acquire_edit_prohibition, decrement_edit_lock_count"]}
{"id": "C24", "title": "Lock bookkeeping balances", "statement": "The lock count of a live tree is always exactly the number of live tokens plus the number of nodes having at least one live HotNode/FrozenNode; releasing never panics; once all lock holders are dropped either kind of lock can be acquired again.", "quantifier": "every history", "why_tests_cant": "Counting invariant over histories.", "anchors": ["src/tree/lock.rs: release_grant, release_prohibition, release_any_lock, decrement_count"]}
{"id": "C25", "title": "Locks follow nodes across trees", "statement": "When a subtree changes tree, each of its nodes that has live HotNodes takes exactly one grant with it: the new tree gains as many grants as the old tree loses, other holders are unaffected, and the transfer never fails for a fresh tree or a destination that is granted.", "quantifier": "every history with detach/move", "why_tests_cant": "Loop over subtree with per-node transfer.", "anchors": ["src/tree/lock.rs: transfer_single_lock_to", "src/node/membership.rs: set_tree_core"]}
{"id": "C26", "title": "Structure changes only under a valid grant; frozen trees are immutable", "statement": "Every structural edit on a tree panics without effect unless a live grant for that tree is supplied; while a prohibition or FrozenNode is alive for a tree no call changes that tree's hierarchy.", "quantifier": "every history and edit call", "why_tests_cant": "Safety over all histories.", "anchors": ["src/node/plain.rs: try_create_*, detach_subtree, try_detach_insert_subtree", "src/tree/lock.rs: panic_if_invalid_for_node"]}
{"id": "C27", "title": "Any handle keeps the whole tree alive", "statement": "While any Node/HotNode/FrozenNode/Tree handle to any part of a tree exists, every node of that tree stays allocated and reachable, regardless of which other handles are dropped.", "quantifier": "every history of clones, drops, edits", "why_tests_cant": "Memory lifetime over histories with weak and strong links.", "anchors": ["src/node/membership.rs: MembershipCore, increment_tree_refcount, decrement_tree_refcount", "src/tree.rs: Drop for TreeCore", "src/node/internal.rs: NodeLink"]}
{"id": "C28", "title": "No leaks: the last handle frees the tree", "statement": "When the last Node/HotNode/FrozenNode/Tree handle of a tree is dropped, every node of the tree and its core are deallocated, and no node of any other tree is.", "quantifier": "every tree shape, every order of dropping", "why_tests_cant": "Reference cycles parent/child/tree; all shapes and orders.", "anchors": ["src/tree.rs: Drop for TreeCore", "src/node/membership.rs: decrement_tree_refcount"]}
{"id": "C29", "title": "Tree membership agrees with structure", "statement": "Two nodes belong to the same tree (belongs_to_same_tree / tree().ptr_eq) iff they have the same topmost ancestor; tree().root() is that ancestor.", "quantifier": "every reachable state", "why_tests_cant": "Memberships are per-node copies updated by traversal loops.", "anchors": ["src/node/membership.rs: set_tree_core, ptr_eq_tree_core", "src/node/internal.rs: belongs_to_same_tree, tree_core", "src/tree.rs: root_link"]}
{"id": "C30", "title": "Weak references", "statement": "NodeWeak::upgrade / TreeWeak::upgrade succeed iff the node's tree still has some live handle (resp. node is still allocated), and return the same node; weak references never keep anything alive.", "quantifier": "every history", "why_tests_cant": "Lifetime over histories.", "anchors": ["src/node/plain.rs: NodeWeak::upgrade, downgrade", "src/tree.rs: TreeWeak::upgrade"]}
{"id": "C31", "title": "Pretty printing draws exactly the tree", "statement": "The pretty-printed text of a subtree is one item per node in preorder with the documented `|-- `, `` `-- ``, `|   ` and blank prefixes, a node being drawn as last iff it is the last sibling below the printed root, multi-line data being continued with the right prefix. If the formatting of a datum or the formatter written to fails, the result is that error and what has been written is the beginning of that text.", "quantifier": "every subtree, every data text (including multi-line and empty)", "why_tests_cant": "Streaming state machine with partial indents on arbitrary strings.", "anchors": ["src/node/debug_print/pretty.rs: IndentWriter, DebugPrettyPrint"]}
{"id": "C32", "title": "Dropping, cloning and navigating handles never changes any structure", "statement": "Handle operations (clone, drop, navigation, downgrade, upgrade, lock acquire/release, bundling) leave the children lists, parents, data and memberships of all still-alive nodes unchanged.", "quantifier": "every history", "why_tests_cant": "Frame condition over histories, including tree-core drop.", "anchors": ["src/node/plain.rs: Node", "src/tree.rs: Drop for TreeCore", "src/node/internal.rs: NodeLink"]}
{"id": "C33", "title": "Skipping to the end of a node", "statement": "DftEvent::close_current/close_next-style skipping returns the Close event of the current node.", "quantifier": "every tree and event", "why_tests_cant": "Unbounded subtree skipped; loop termination.", "anchors": ["src/traverse/depth_first.rs: DftEvent::close_current"]}
{"id": "C34", "title": "DftEvent next and prev are inverse", "statement": "For any event e of a well-formed tree, e.next() = Some(f) iff f.prev() = Some(e); next is None only at Close(root of tree), prev is None only at Open(root of tree).", "quantifier": "every tree and event", "why_tests_cant": "All events of all trees.", "anchors": ["src/traverse/depth_first.rs: DftEvent::next, DftEvent::prev"]}
{"id": "C35", "title": "Edits never touch data", "statement": "No hierarchy edit, traversal or handle operation changes the data of an existing node.", "quantifier": "every operation, every state", "why_tests_cant": "Frame condition.", "anchors": ["src/node/edit.rs: all", "src/node/internal.rs: NodeCore"]}
{"id": "C36", "title": "Edits are local", "statement": "A structural edit changes the parent, children or siblings of nodes only where its description says: every node outside the edited parents, the moved node and the new node keeps its parent and its list of children, and every other tree is untouched.", "quantifier": "every edit call in every reachable state", "why_tests_cant": "Frame condition over all nodes of all trees.", "anchors": ["src/node/edit.rs: all", "src/node/internal.rs: NodeLink setters"]}
{"id": "C37", "title": "Calls return", "statement": "Every call of the API returns a value or an error; it panics exactly when documented (missing or wrong grant, edit of a tree whose grant is for another tree), never because of an internal inconsistency, and never loops forever.", "quantifier": "every call in every reachable state", "why_tests_cant": "Panics guarded by internal invariants (expect, unreachable), loops over sibling and parent chains.", "anchors": ["src/node/edit.rs: all", "src/node/internal.rs: NodeLink", "src/node/membership.rs: MembershipCore", "src/tree/lock.rs: HierarchyLockManager"]}
{"id": "C38", "title": "Rebuilding from depth-first events", "statement": "Collecting the events of a depth-first traversal of a node into Result<Node, TreeBuildError> succeeds exactly if no node of the subtree is mutably borrowed, and then gives a new tree with the same shape and equal data, leaving everything else unchanged; otherwise the error is BorrowData and nothing changes.", "quantifier": "every reachable state, every node and its subtree", "why_tests_cant": "All shapes, all sizes, all borrow states.", "anchors": ["src/serial.rs: FromIterator<DftEvent<Node<T>>>, push_dft_events_impl, TryFrom<DftEvent<..>> for Event"]}
{"id": "C39", "title": "The macros build exactly the written tree", "statement": "tree_node!(data, [descendants]) never panics and evaluates to the root of a new tree whose shape and data are exactly the written ones; tree! evaluates to the Tree of it; no other node, tree, lock or handle is affected.", "quantifier": "every written tree of every size and depth, every reachable state", "why_tests_cant": "All nestings.", "anchors": ["src/macros.rs: tree_node!, tree!"]}
{"id": "C40", "title": "Debug printing shows exactly what is there", "statement": "The Debug output of a Node, FrozenNode or HotNode shows the name of its type, its data (or <borrowed>), truthfully whether it has a parent, siblings and children, and the lock count of its tree; debug_print_subtree and Tree::debug_print show exactly the nodes of the subtree, in order; a weak reference prints its target if it is alive and <dropped> otherwise. Printing never panics and changes nothing.", "quantifier": "every reachable state, every handle", "why_tests_cant": "All shapes, all lock and borrow states.", "anchors": ["src/node/debug_print/debug.rs: DebugPrintNodeLocal, DebugPrintSubtree, DebugPrintSubtreeChildren, DebugPrintSubtreeDescendant", "src/tree/debug_print.rs: DebugPrintTreeLocal, DebugPrintTree", "src/node/plain.rs: Debug for NodeWeak", "src/tree.rs: Debug for Tree, TreeWeak"]}
{"id": "C41", "title": "Iterators survive edits", "statement": "A depth-first, reverse depth-first, ancestors or siblings iterator over Node handles may be interleaved with any other calls, including edits, moves and drops of the nodes it is about to visit: no call of next panics or dangles, each returns a live handle on the node the iterator stands at, then the iterator stands at the next item of the forest as it is at that moment; the iterator changes nothing but handles. If the part being iterated over keeps its shape, the items are exactly those of that shape.", "quantifier": "every interleaving of next with arbitrary calls on everything the iterator does not own, every start", "why_tests_cant": "All interleavings.", "anchors": ["src/traverse/depth_first.rs: DftEvent::next, DftEvent::prev, DepthFirstTraverser, ReverseDepthFirstTraverser", "src/traverse/ancestors.rs: AncestorsTraverser", "src/traverse/siblings.rs: SiblingsTraverser, ReverseSiblingsTraverser"]}
{"id": "C42", "title": "Frozen iterators are stable", "statement": "Every iterator over FrozenNode handles (children, siblings, depth-first and breadth-first, one- and double-ended where offered) yields exactly the items of the tree as it was when the iteration began, whatever other code does between the calls: a one-ended iterator yields them in order, each once; a double-ended one yields from its two ends what the same schedule of ends yields on an untouched tree. It keeps the tree frozen while it lives and lets go of it at the end.", "quantifier": "every interleaving, every schedule of next and next_back, every depth limit", "why_tests_cant": "All interleavings.", "anchors": ["src/traverse/depth_first.rs: StableShallowDepthFirstTraverser, StableDepthFirstTraverser", "src/traverse/siblings.rs: StableSiblingsTraverser", "src/traverse/breadth_first.rs: NonAllocatingBreadthFirstTraverser, AllocatingBreadthFirstTraverser", "src/node/frozen.rs: FrozenNode"]}
{"id": "C43", "title": "Dropping does not recurse", "statement": "Dropping a handle, including the last one of a tree, and every other call that frees nodes, runs the destructors of nodes one after the other, never one inside another: the call stack needed does not grow with the depth or width of the tree.", "quantifier": "every reachable state, every call, trees of every depth and width", "why_tests_cant": "A test drops a few shapes; the claim is for every shape and every pattern of remaining handles.", "anchors": ["src/tree.rs: impl Drop for TreeCore", "src/node/internal.rs: NodeCore", "src/membership.rs: decrement_tree_refcount"]}
{"id": "C44", "title": "Panicking methods panic exactly when documented", "statement": "create_node_as, create_as_prev_sibling, create_as_next_sibling, replace_with_children, detach_insert_subtree, borrow_data, borrow_data_mut, clone_subtree, clone_tree, clone_insert_subtree and cloning a grant panic exactly if there is no place for the node (next to a root or next to itself), the root to be replaced has not exactly one child, the data is exclusively borrowed, or the grant is of another tree; otherwise they return the result of the try_ variant. HotNode::new_tree never panics.", "quantifier": "every reachable state, every such call with every argument", "why_tests_cant": "All shapes, positions and borrow states.", "anchors": ["src/node/plain.rs: create_node_as, replace_with_children, detach_insert_subtree, borrow_data, borrow_data_mut, clone_subtree, clone_insert_subtree", "src/node/hot.rs: the same, HotNode::new_tree", "src/node/frozen.rs: borrow_data, clone_subtree", "src/tree.rs: clone_tree", "src/tree/lock.rs: Clone for HierarchyEditGrant"]}
{"id": "C45", "title": "Queries through handles tell the truth", "statement": "is_root, has_prev_sibling, has_next_sibling, has_children, num_children, has_one_child, has_multiple_children, count_children, count_preceding_siblings, count_following_siblings, count_ancestors, ptr_eq, belongs_to, belongs_to_same_tree and is_valid_for_node never panic, also in a debug build, and answer as the child lists and trees say, through Node, HotNode and FrozenNode alike; first_last_child and first_last_sibling give handles on the two ends; Node::from gives the lock back and keeps the node.", "quantifier": "every reachable state, every handle and every question", "why_tests_cant": "All shapes, positions and kinds of handles; the debug assertion in is_root compares two redundant records.", "anchors": ["src/node/plain.rs, src/node/hot.rs, src/node/frozen.rs: is_root, has_*, count_*, num_children, ptr_eq, belongs_to, belongs_to_same_tree, first_last_child, first_last_sibling, From", "src/tree/lock.rs: is_valid_for_node"]}
{"id": "C46", "title": "Counters cannot overflow", "statement": "The reference count and the lock count of a node, and the count of edit grants or prohibitions of a tree, never exceed the number of handles, grants and prohibitions alive; num_children is less than the number of nodes alive. So the machine integers holding them do not overflow before memory is exhausted, and the checked additions never panic.", "quantifier": "every history of calls, also after calls that damage the links (children: every reachable state)", "why_tests_cant": "Histories of every length.", "anchors": ["src/node/membership.rs: increment_tree_refcount, increment_nonzero_tree_refcount", "src/tree/lock.rs: acquire_grant, acquire_prohibition, increment_nonzero_count", "src/node/internal.rs: num_children_add"]}
{"id": "C47", "title": "Hierarchy and data are independent", "statement": "No call that builds, navigates or edits the hierarchy, or manages handles or locks, looks at the data of a node or at whether that data is borrowed (not even exclusively): in two states that differ only there, even in the type of the data, it returns the same answer, or panics in both, and leaves states that again differ only there. A call on the data changes nothing but data and borrows. So the calls on data can be left out of any history without changing the answers of the others.", "quantifier": "every state whatsoever, every call, every history; all data and all borrow states", "why_tests_cant": "All data values and types, all patterns of outstanding borrows.", "anchors": ["src/node/internal.rs: NodeCore, data", "src/node/plain.rs, src/node/hot.rs, src/node/frozen.rs: all methods on the hierarchy, borrow_data, borrow_data_mut", "src/node/edit.rs"]}
{"id": "C48", "title": "Exactly these calls damage the structure", "statement": "As long as no call has damaged the structure (the links always formed ordered forests whose roots are the ones the trees name), a call leaves it undamaged, except: detaching, or removing when childless, or moving the last of several siblings while something else keeps the tree it leaves; moving a node below itself; moving a non-root node next to a root; moving a whole tree to another tree when it has several nodes, or a Tree handle keeps it, or the place is next to a root. Each of these calls returns normally and always does damage. While no damage is done handles, reference counts and locks are in order, too.", "quantifier": "every history of calls, every call", "why_tests_cant": "Every history; and the list of harmful calls is shown complete and minimal.", "anchors": ["src/node/edit.rs: detach_subtree, try_replace_with_children, detach_and_move_to_another_tree, detach_and_move_inside_same_tree", "src/node/internal.rs: IntraTreeLinkBuilder", "src/node/plain.rs, src/node/hot.rs: all methods"]}
{"id": "C49", "title": "Parties that share no handles do not notice each other", "statement": "If two parts of a program never use each other's handles, then, whatever they do and in whatever order, no node or tree of one ever refers to one of the other; no call of one changes a node, link, datum, borrow, count, lock or handle of the other; and a call answers, panics and acts exactly as if the other part did not exist. Calls that damage links damage only what their own part owns: as long as the other part makes no such call, all guarantees hold for it.", "quantifier": "every interleaving of calls of two (or more) parts, damaging calls included", "why_tests_cant": "All interleavings and all histories of both parts.", "anchors": ["src/node/edit.rs, src/node/internal.rs, src/node/membership.rs, src/tree.rs, src/tree/lock.rs: all functions", "src/node/plain.rs, src/node/hot.rs, src/node/frozen.rs: all methods"]}
{"id": "C50", "title": "Every handle an iterator makes has exactly one owner", "statement": "Every call of next or next_back of every iterator and traverser, every method that makes an iterator, and every clone of one accounts for every handle: each handle that exists afterwards is either an item given to the caller, or owned by exactly one iterator, or was there before and is untouched; everything else the call made on the way is dropped again. Dropping an iterator half way releases exactly what it owns, and an iterator that has returned None owns nothing, so it keeps no node alive and no hierarchy locked. A clone of an iterator stands where the original stands, with handles of its own on the same nodes, and peek() shows what next() then gives. This holds whatever has happened to the links.", "quantifier": "every iterator, every state of it, every state of the hierarchy any history leads to", "why_tests_cant": "All iterator positions in all states, damaged ones included.", "anchors": ["src/traverse/ancestors.rs, src/traverse/breadth_first.rs, src/traverse/depth_first.rs, src/traverse/siblings.rs: all iterators and their Iterator, DoubleEndedIterator, Clone impls", "src/node/frozen.rs, src/node/plain.rs, src/node/hot.rs: children, siblings, depth_first_traverse, breadth_first_traverse and their variants"]}
{"id": "C51", "title": "A tree under construction is private", "statement": "A TreeBuilder used call by call, while other code does anything at all with its own handles: each open, close, push_event and push_events is accepted or refused exactly as the events accepted so far demand and never panics; is_root_available and is_root_closed tell the truth; finish at any moment gives one new tree of exactly the data given, open nodes closed; dropping the builder at any moment leaves nothing behind; other code can neither reach the tree nor is anything of its own changed. A close of too many nodes is refused after closing all open nodes but the root.", "quantifier": "every state any calls have led to, every interleaving of builder calls with arbitrary calls of other code, refused events included", "why_tests_cant": "All interleavings and all event sequences, continued after errors.", "anchors": ["src/serial.rs: TreeBuilder::open, close, push_event, push_events, is_root_closed, is_root_available, finish"]}
{"id": "C52", "title": "Edits can be undone", "statement": "A node put between a node and its parent (or above a root), or between a node and its children, is taken out again by replacing it with its children; a new leaf is taken out by detaching or replacing it. Afterwards it is alone in a tree of its own and everything else - every link, order, membership, tree root, datum and handle - is exactly as before it was added. A node moved anywhere outside its own subtree, in its tree or into another one, and then moved back to its place (named through its parent or a neighbour) leaves no trace at all; so does a leaf that was detached and moved back.", "quantifier": "every reachable state, every node, every way of naming the place, every later authorisation", "why_tests_cant": "Two-call sequences in all states; equality of everything observable.", "anchors": ["src/node/hot.rs, src/node/plain.rs, src/node/edit.rs: create_as_interrupting_parent, create_as_interrupting_child, try_replace_with_children, detach_subtree, detach_and_move_inside_same_tree, detach_and_move_to_another_tree, try_detach_move_subtree, create_as_*"]}
{"id": "C53", "title": "The order of drops does not matter", "statement": "Dropping several handles (nodes, trees, tokens, weak ones, in any mixture and any order) always succeeds. What is left depends on the set of handles dropped only: trees that some remaining strong handle refers to are exactly as before - links, data, root - and all others are deallocated completely. Scopes ending in a different order cannot be told apart afterwards.", "quantifier": "every reachable state, every set of handles, every order of dropping them", "why_tests_cant": "All permutations of all sets of handles.", "anchors": ["src/tree.rs, src/membership.rs, src/node/internal.rs: Drop impls, Membership::drop, NodeCoreLink reference counting", "src/tree/lock.rs: drop of grants and prohibitions"]}
{"id": "C54", "title": "Equality of nodes and trees is an equivalence relation", "statement": "As the Eq implementations promise: every node and every tree equals itself (also while data is mutably borrowed, and even if its data does not equal itself); a.try_eq(b) and b.try_eq(a) give the same answer or both fail, and == panics exactly where try_eq fails; if a equals b and b equals c then a equals c. The data type need only provide a symmetric and transitive comparison.", "quantifier": "every reachable state, all handles, every symmetric and transitive comparison of the data", "why_tests_cant": "All pairs and triples of subtrees, nested ones and borrowed data included.", "anchors": ["src/node/plain.rs, src/node/hot.rs, src/node/frozen.rs, src/tree.rs: try_eq, impl PartialEq, impl Eq", "src/node/internal.rs: NodeCoreLink::try_eq"]}
{"id": "C55", "title": "Iterators are fused", "statement": "Once next() (or next_back(), of a double-ended iterator) of an iterator of the library has returned None, next() and next_back() return None for ever, whatever is done to the trees in between, have no effect at all, and size_hint() is (0, Some(0)). That is what the FusedIterator implementations promise; it also holds of the allocating breadth-first traverser and (except for size_hint, which it does not define) of the serializing iterator.", "quantifier": "every iterator type, every state it can be in, every state of the trees at every call", "why_tests_cant": "An iterator can be resumed after arbitrary edits; tests only drain iterators over fixed trees.", "anchors": ["src/traverse/*.rs: impl Iterator, DoubleEndedIterator, FusedIterator", "src/node/internal.rs: DepthFirstLinkTraverser", "src/serial.rs: TreeSerializeIter"]}
{"id": "C56", "title": "Data is passed through", "statement": "The library neither compares, changes nor invents data. If every datum given to a history of calls is replaced by its image under any function whatever (which may merge data), every call returns, fails or panics exactly as before, answers that carry data carry the images, and the resulting trees are the same with the images in their nodes. Every datum that a node holds or an answer carries was given to some earlier call.", "quantifier": "every state, every history of calls, every function on data", "why_tests_cant": "Quantifies over pairs of histories and all functions on data; a comparison or default hidden in one path would only show for particular data.", "anchors": ["src/node/internal.rs, src/node/edit.rs, src/node/plain.rs, src/node/hot.rs, src/node/frozen.rs, src/tree.rs, src/tree/lock.rs, src/node/membership.rs: all functions, generic in T"]}
{"id": "C57", "title": "Constant-time calls touch a constant number of nodes", "statement": "As documented ('O(1) operation if the destination is inside the same tree', num_children 'O(1)'): moving a subtree inside its tree, creating a node, interrupting a parent edge, navigating, cloning, locking, bundling, reading, writing and borrowing depend on and change a bounded number of nodes (at most 93, counted with repetition), in trees of any size and even after damage: in every other state that agrees on those nodes the call does the same to them, gives the same answer, and leaves all other nodes alone. num_children depends on one node, the other questions that do not count by walking on at most five.", "quantifier": "every state whatever (reachable or not), every call except those that visit a subtree or all children or may deallocate", "why_tests_cant": "A test can time a few trees; that the cost is bounded for all trees is a statement about all of them.", "anchors": ["src/node/plain.rs, src/node/hot.rs: documentation of detach_insert_subtree, num_children", "src/node/edit.rs: detach_insert_subtree, create_node_as, create_as_interrupting_parent", "src/node/internal.rs: NodeCoreLink links and counts"]}
{"id": "C58", "title": "Edits of trees are edits of their documents", "statement": "The events of depth_first_traverse spell out a subtree as a document with a pair of brackets (Open, Close) per node. Every edit is an edit of documents: creating a node inserts one pair at the requested place of every document that has this place and changes no other; an interrupting parent puts a pair around the node's segment, an interrupting child a pair around all that is within the node; replacing a node by its children takes its pair away and keeps what is between; detaching cuts the segment of the node out of every document in which it stands; a move cuts it out and pastes it, unchanged, into every document that has the destination. Inserting a clone of a subtree pastes a document of the same shape with the same data and new nodes. Nodes deallocated by the call excepted, that determines the document of every node of every tree after the call.", "quantifier": "every reachable state, every edit (moves: not below the node itself, not of a root, not of a last child to the place it has), every node of every tree", "why_tests_cant": "The claim is about all nodes of all trees at once and every shape; a test compares one traversal of one tree.", "anchors": ["src/node/edit.rs: create_node_as, create_as_interrupting_parent, create_as_interrupting_child, replace_with_children, detach_subtree, detach_insert_subtree", "src/traverse/depth_first.rs: DepthFirstTraverser", "src/node/plain.rs, src/node/hot.rs: the edit methods"]}
