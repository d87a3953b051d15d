# Regenerates /verif/properties.jsonl (kept as a script so the list can grow).
import json
P=[]
def p(id,title,statement,quantifier,why,anchors):
    P.append(dict(id=id,title=title,statement=statement,quantifier=quantifier,why_tests_cant=why,anchors=anchors))
E="src/node/edit.rs"; I="src/node/internal.rs"; PL="src/node/plain.rs"; M="src/node/membership.rs"; L="src/tree/lock.rs"; T="src/tree.rs"; S="src/serial.rs"
p("C01","Neighbour accessors describe one ordered tree",
  "For any two nodes: x is the parent() of c iff c is produced by iterating first_child()/next_sibling() from x; last_child() is the last such child; prev_sibling() is the inverse of next_sibling(); is_root/is_first_sibling/is_last_sibling/has_* agree with the corresponding Option accessor; num_children() equals the number of children. A root has no parent and no siblings.",
  "every heap of nodes reachable by any history of API calls (edits, handle clones and drops), every node in it",
  "The neighbour pointers are four redundant mutable links per node updated by hand in a dozen edit routines; agreement in all reachable link configurations is an invariant over histories.",
  [I+": parent_link, prev_sibling_link, next_sibling_link, first_child_link, last_child_link, is_first_sibling, is_last_sibling, has_children", PL+": Node accessors"])
p("C02","Creating a first/last child inserts exactly one leaf",
  "create_as_first_child(d)/create_as_last_child(d) (and try_create_node_as FirstChild/LastChild) always succeed; afterwards the children of the receiver are the new node followed by (resp. preceded by) the old children in the same order, the new node has data d and no children, it belongs to the receiver's tree, and no other node's children, parent or data change.",
  "every well-formed forest, every receiver node, every data value","Needs all sibling-list lengths and positions, and a frame condition over every other node.",
  [E+": create_as_first_child, create_as_last_child, OrphanRoot::insert_as_first_child_of, insert_as_last_child_of", PL+": try_create_as_first_child, create_as_first_child"])
p("C03","Creating an adjacent sibling inserts at exactly that position",
  "try_create_as_prev_sibling/next_sibling on a non-root node x insert one new leaf immediately before/after x among the parent's children and change nothing else; on a root node they return SiblingsWithoutParent and the forest is unchanged.",
  "every well-formed forest, every receiver (root, first, middle, last, only child), every data value","All positions in all sibling lists of unbounded length plus frame and error-atomicity.",
  [E+": try_create_as_prev_sibling, try_create_as_next_sibling, OrphanRoot::insert, insert_between"])
p("C04","create_as_interrupting_parent wraps exactly one node",
  "The new node takes the receiver's place among the receiver's siblings (or becomes the tree's root when the receiver was the root, and Tree::root() then returns it), its only child is the receiver, the receiver's subtree is unchanged, nothing else changes.",
  "every well-formed forest, every receiver","The routine inserts then detaches and re-inserts; correctness depends on every sibling configuration.",
  [E+": create_as_interrupting_parent", T+": TreeCore::replace_root"])
p("C05","create_as_interrupting_child adopts all children in order",
  "The receiver's only child becomes the new node; the new node's children are the receiver's former children in the same order; num_children of both are right; nothing else changes.",
  "every well-formed forest, every receiver with any number of children","Loop over an unbounded child list rewriting parents.",
  [E+": create_as_interrupting_child"])
p("C06","try_replace_with_children splices the children in place",
  "For a non-root node x the parent's child list becomes the old list with x replaced by x's children in order, and x becomes the root of a fresh single-node tree. For a root with exactly one child, that child becomes the root of the tree. For a root without children EmptyTree, with several SiblingsWithoutParent is returned and nothing changes.",
  "every well-formed forest, every receiver","Eight link-update branches whose correctness depends on neighbours; violated in one branch.",
  [E+": try_replace_with_children", PL+": try_replace_with_children"])
p("C07","detach_subtree splits a tree in two",
  "After detach_subtree on a non-root x: x is the root of a new tree whose shape and data equal x's former subtree; the former parent's children are the old ones without x in the same order; every other node is unchanged; all nodes of the subtree (and no others) now belong to the new tree. On a root nothing changes.",
  "every well-formed forest, every receiver","Requires all sibling positions and a frame condition; violated for last-but-not-only children.",
  [E+": detach_subtree, OrphanRoot::new_by_unlink, create_new_tree, set_memberships_of_descendants_and_self"])
p("C08","Moving a subtree inside its tree",
  "try_detach_insert_subtree with a destination in the same tree that is not inside the moved subtree removes the node from its old place and inserts it at the requested place; subtree shape and data, and every other node's relative order, are unchanged.",
  "every well-formed forest, every (node, destination) pair","Quadratically many position combinations of unbounded size.",
  [E+": detach_and_move_inside_same_tree, OrphanRoot::insert", PL+": try_detach_insert_subtree"])
p("C09","No operation makes a node its own ancestor",
  "try_detach_insert_subtree to a destination inside the moved subtree is rejected with AncestorDescendantLoop and leaves the forest unchanged; hence ancestors() always terminates at a root.",
  "every well-formed forest, every (node, destination inside its subtree) pair","Absence of cycles is a global inductive invariant; the check is skipped for every non-root node.",
  [E+": OrphanRoot::new_by_unlink, insert_as_first_child_of, insert_as_last_child_of, insert_between, is_ancestor_of, detach_and_move_inside_same_tree"])
p("C10","Moving a subtree to another tree",
  "try_detach_insert_subtree with a destination in another tree: both child lists are as expected, the moved nodes (and only they) now belong to the destination tree, and the source tree keeps its other nodes.",
  "every well-formed forest with several trees, every non-root/root node and destination","Interaction of links, memberships, tree reference counts and drop of the source tree.",
  [E+": detach_and_move_to_another_tree, set_memberships_of_descendants_and_self", M+": set_tree_core", T+": Drop for TreeCore"])
p("C11","Failed edits change nothing",
  "Whenever a hierarchy edit returns Err, the forest (children lists, parents, tree memberships, data, locks) is the same as before the call.",
  "every edit operation, every state and arguments for which it returns Err","Atomicity over all failing calls.",
  [E+": OrphanRoot::insert, try_replace_with_children, detach_and_move_*", "src/node.rs: HierarchyError"])
p("C12","Depth-first traversal is the bracketed preorder of the subtree",
  "Collecting depth_first_traverse() from x yields Open(x), the traversals of the children in order, Close(x): each node of the subtree opens and closes exactly once, properly nested, nothing outside the subtree is visited, and the iterator is fused.",
  "every well-formed forest and start node","Unbounded trees; stop condition depends on structure above the start node.",
  ["src/traverse/depth_first.rs: DepthFirstTraverser, DftEvent::next", I+": DepthFirstLinkTraverser"])
p("C13","Reverse depth-first traversal is the exact reverse",
  "Collecting depth_first_reverse_traverse() from x is the reverse of collecting depth_first_traverse() from x.",
  "every well-formed forest and start node","Relates two independent pointer-walking algorithms on all trees.",
  ["src/traverse/depth_first.rs: ReverseDepthFirstTraverser, DftEvent::prev"])
p("C14","Sibling, children and ancestor iterators enumerate exactly the right nodes in order",
  "children() = child list; siblings() = all siblings incl. self in order; following_siblings_or_self/following_siblings, preceding_siblings_or_self/preceding_siblings and their reverse variants, and ancestors/ancestors_or_self enumerate exactly the nodes named, in the documented order, then stop; count_* equal the lengths.",
  "every well-formed forest and start node","All list lengths and positions.",
  ["src/traverse/siblings.rs: SiblingsTraverser, ReverseSiblingsTraverser","src/traverse/ancestors.rs: AncestorsTraverser",PL+": children, siblings, following_siblings, preceding_siblings_reverse, count_children"])
p("C15","Stable (double-ended) traversers deliver each item exactly once",
  "For the stable depth-first and stable sibling iterators on frozen nodes: under any interleaving of next() and next_back(), front items followed by reversed back items form exactly the expected sequence, each item once, then None.",
  "every frozen tree, start node, every interleaving of next/next_back","All schedules of the two ends on all trees.",
  ["src/traverse/depth_first.rs: StableDepthFirstTraverser","src/traverse/siblings.rs: StableSiblingsTraverser","src/node/frozen.rs: *_stable"])
p("C16","Shallow depth-first traversal with maximum depth",
  "shallow_depth_first_traverse(max_depth) yields exactly the subsequence of the full depth-first events whose node is at depth <= max_depth (with the right depth), from either end, each once.",
  "every frozen tree, start node, max depth, every interleaving of next/next_back","All depths, trees and schedules.",
  ["src/traverse/depth_first.rs: StableShallowDepthFirstTraverser"])
p("C17","Breadth-first traversals enumerate level order",
  "breadth_first_traverse and allocating_breadth_first_traverse yield every node of the subtree exactly once, ordered by depth and then by document order, tagged with its depth.",
  "every tree and start node","Non-allocating variant re-walks the tree per level; termination and completeness for all shapes.",
  ["src/traverse/breadth_first.rs: BreadthFirstTraverser, AllocatingBreadthFirstTraverser"])
p("C18","size_hint is a true bound",
  "For every iterator in traverse/, at every point of its consumption, lower <= number of remaining items and remaining <= upper when given.",
  "every iterator state reachable on every tree","All positions in all trees; violated by one iterator.",
  ["src/traverse/*.rs: size_hint", I+": DepthFirstLinkTraverser::size_hint"])
p("C19","try_eq decides structural equality",
  "On unborrowed subtrees try_eq(a,b) is Ok(true) iff the subtrees have the same shape and pairwise equal data in preorder (for a reflexive data equality when a and b are the same node), Ok(false) otherwise; it never depends on siblings/ancestors of the roots; an Err occurs only if some node's data is mutably borrowed.",
  "all pairs of subtrees of any two trees","Quantifies over all pairs of trees.",
  [I+": NodeCoreLink::try_eq", PL+": Node::try_eq", T+": Tree::try_eq"])
p("C20","Serialization round-trips",
  "Collecting to_events() from any node and rebuilding with the builder (FromIterator) yields a fresh tree equal (try_eq) to the source subtree; the event sequence begins with Open, has no two adjacent Close events and omits nothing.",
  "every subtree, every data","All trees.",
  [S+": TreeSerializeIter, TreeBuilder, FromIterator impls"])
p("C21","TreeBuilder accepts exactly well-formed event sequences",
  "Feeding an arbitrary event sequence to TreeBuilder: it returns a tree iff the sequence is one well-bracketed tree possibly with trailing Closes omitted; otherwise RootNotOpened / RootClosed precisely; the built tree is the one the sequence denotes. close(0) is a no-op.",
  "every finite sequence of Open(d)/Close(n) events","All sequences, including malformed ones.",
  [S+": TreeBuilder::open, close, push_event, finish, is_root_closed, with_root, TreeBuildError"])
p("C22","Cloning a subtree",
  "try_clone_subtree yields a new independent tree equal to the source; try_clone_insert_subtree inserts an equal copy at the destination; the source subtree and all other nodes are unchanged. It fails with BorrowNodeData iff some node of the subtree is mutably borrowed.",
  "every source subtree, every destination","All trees/destinations, including destinations inside the source.",
  [E+": try_clone_insert_subtree", PL+": try_clone_subtree, try_clone_insert_subtree"])
p("C23","Edit grants and prohibitions are mutually exclusive",
  "At no time do a live grant (token or HotNode) and a live prohibition (token or FrozenNode) for the same tree coexist; acquiring one succeeds iff no lock of the other kind is live on that tree.",
  "every history of acquire/clone/bundle/extract/drop/edit calls","Invariant over all histories of lock tokens shared by many handles.",
  [L+": HierarchyLockManager, LockAggregatorForNode, HierarchyEditGrant, HierarchyEditProhibition", M+": acquire_edit_grant, acquire_edit_prohibition, decrement_edit_lock_count"])
p("C24","Lock bookkeeping balances",
  "The lock count of a live tree is always exactly the number of live tokens plus the number of nodes having at least one live HotNode/FrozenNode; releasing never panics; once all lock holders are dropped either kind of lock can be acquired again.",
  "every history","Counting invariant over histories.",
  [L+": release_grant, release_prohibition, release_any_lock, decrement_count"])
p("C25","Locks follow nodes across trees",
  "When a subtree changes tree, each of its nodes that has live HotNodes takes exactly one grant with it: the new tree gains as many grants as the old tree loses, other holders are unaffected, and the transfer never fails for a fresh tree or a destination that is granted.",
  "every history with detach/move","Loop over subtree with per-node transfer.",
  [L+": transfer_single_lock_to", M+": set_tree_core"])
p("C26","Structure changes only under a valid grant; frozen trees are immutable",
  "Every structural edit on a tree panics without effect unless a live grant for that tree is supplied; while a prohibition or FrozenNode is alive for a tree no call changes that tree's hierarchy.",
  "every history and edit call","Safety over all histories.",
  [PL+": try_create_*, detach_subtree, try_detach_insert_subtree", L+": panic_if_invalid_for_node"])
p("C27","Any handle keeps the whole tree alive",
  "While any Node/HotNode/FrozenNode/Tree handle to any part of a tree exists, every node of that tree stays allocated and reachable, regardless of which other handles are dropped.",
  "every history of clones, drops, edits","Memory lifetime over histories with weak and strong links.",
  [M+": MembershipCore, increment_tree_refcount, decrement_tree_refcount", T+": Drop for TreeCore", I+": NodeLink"])
p("C28","No leaks: the last handle frees the tree",
  "When the last Node/HotNode/FrozenNode/Tree handle of a tree is dropped, every node of the tree and its core are deallocated, and no node of any other tree is.",
  "every tree shape, every order of dropping","Reference cycles parent/child/tree; all shapes and orders.",
  [T+": Drop for TreeCore", M+": decrement_tree_refcount"])
p("C29","Tree membership agrees with structure",
  "Two nodes belong to the same tree (belongs_to_same_tree / tree().ptr_eq) iff they have the same topmost ancestor; tree().root() is that ancestor.",
  "every reachable state","Memberships are per-node copies updated by traversal loops.",
  [M+": set_tree_core, ptr_eq_tree_core", I+": belongs_to_same_tree, tree_core", T+": root_link"])
p("C30","Weak references",
  "NodeWeak::upgrade / TreeWeak::upgrade succeed iff the node's tree still has some live handle (resp. node is still allocated), and return the same node; weak references never keep anything alive.",
  "every history","Lifetime over histories.",
  [PL+": NodeWeak::upgrade, downgrade", T+": TreeWeak::upgrade"])
p("C31","Pretty printing draws exactly the tree",
  "The pretty-printed text of a subtree is one item per node in preorder with the documented `|-- `, `` `-- ``, `|   ` and blank prefixes, a node being drawn as last iff it is the last sibling below the printed root, multi-line data being continued with the right prefix. If the formatting of a datum or the formatter written to fails, the result is that error and what has been written is the beginning of that text.",
  "every subtree, every data text (including multi-line and empty)","Streaming state machine with partial indents on arbitrary strings.",
  ["src/node/debug_print/pretty.rs: IndentWriter, DebugPrettyPrint"])
p("C32","Dropping, cloning and navigating handles never changes any structure",
  "Handle operations (clone, drop, navigation, downgrade, upgrade, lock acquire/release, bundling) leave the children lists, parents, data and memberships of all still-alive nodes unchanged.",
  "every history","Frame condition over histories, including tree-core drop.",
  [PL+": Node", T+": Drop for TreeCore", I+": NodeLink"])
p("C33","Skipping to the end of a node",
  "DftEvent::close_current/close_next-style skipping returns the Close event of the current node.",
  "every tree and event","Unbounded subtree skipped; loop termination.",
  ["src/traverse/depth_first.rs: DftEvent::close_current"])
p("C34","DftEvent next and prev are inverse",
  "For any event e of a well-formed tree, e.next() = Some(f) iff f.prev() = Some(e); next is None only at Close(root of tree), prev is None only at Open(root of tree).",
  "every tree and event","All events of all trees.",
  ["src/traverse/depth_first.rs: DftEvent::next, DftEvent::prev"])
p("C35","Edits never touch data",
  "No hierarchy edit, traversal or handle operation changes the data of an existing node.",
  "every operation, every state","Frame condition.",
  [E+": all", I+": NodeCore"])
p("C36","Edits are local",
  "A structural edit changes the parent, children or siblings of nodes only where its description says: every node outside the edited parents, the moved node and the new node keeps its parent and its list of children, and every other tree is untouched.",
  "every edit call in every reachable state","Frame condition over all nodes of all trees.",
  [E+": all", I+": NodeLink setters"])
p("C37","Calls return",
  "Every call of the API returns a value or an error; it panics exactly when documented (missing or wrong grant, edit of a tree whose grant is for another tree), never because of an internal inconsistency, and never loops forever.",
  "every call in every reachable state","Panics guarded by internal invariants (expect, unreachable), loops over sibling and parent chains.",
  [E+": all", I+": NodeLink", M+": MembershipCore", L+": HierarchyLockManager"])
p("C38","Rebuilding from depth-first events",
  "Collecting the events of a depth-first traversal of a node into Result<Node, TreeBuildError> succeeds exactly if no node of the subtree is mutably borrowed, and then gives a new tree with the same shape and equal data, leaving everything else unchanged; otherwise the error is BorrowData and nothing changes.",
  "every reachable state, every node and its subtree","All shapes, all sizes, all borrow states.",
  ["src/serial.rs: FromIterator<DftEvent<Node<T>>>, push_dft_events_impl, TryFrom<DftEvent<..>> for Event"])
p("C39","The macros build exactly the written tree",
  "tree_node!(data, [descendants]) never panics and evaluates to the root of a new tree whose shape and data are exactly the written ones; tree! evaluates to the Tree of it; no other node, tree, lock or handle is affected.",
  "every written tree of every size and depth, every reachable state","All nestings.",
  ["src/macros.rs: tree_node!, tree!"])
p("C40","Debug printing shows exactly what is there",
  "The Debug output of a Node, FrozenNode or HotNode shows the name of its type, its data (or <borrowed>), truthfully whether it has a parent, siblings and children, and the lock count of its tree; debug_print_subtree and Tree::debug_print show exactly the nodes of the subtree, in order; a weak reference prints its target if it is alive and <dropped> otherwise. Printing never panics and changes nothing.",
  "every reachable state, every handle","All shapes, all lock and borrow states.",
  ["src/node/debug_print/debug.rs: DebugPrintNodeLocal, DebugPrintSubtree, DebugPrintSubtreeChildren, DebugPrintSubtreeDescendant", "src/tree/debug_print.rs: DebugPrintTreeLocal, DebugPrintTree", "src/node/plain.rs: Debug for NodeWeak", "src/tree.rs: Debug for Tree, TreeWeak"])
p("C41","Iterators survive edits",
  "A depth-first, reverse depth-first, ancestors or siblings iterator over Node handles may be interleaved with any other calls, including edits, moves and drops of the nodes it is about to visit: no call of next panics or dangles, each returns a live handle on the node the iterator stands at, then the iterator stands at the next item of the forest as it is at that moment; the iterator changes nothing but handles. If the part being iterated over keeps its shape, the items are exactly those of that shape.",
  "every interleaving of next with arbitrary calls on everything the iterator does not own, every start","All interleavings.",
  ["src/traverse/depth_first.rs: DftEvent::next, DftEvent::prev, DepthFirstTraverser, ReverseDepthFirstTraverser", "src/traverse/ancestors.rs: AncestorsTraverser", "src/traverse/siblings.rs: SiblingsTraverser, ReverseSiblingsTraverser"])
p("C42","Frozen iterators are stable",
  "Every iterator over FrozenNode handles (children, siblings, depth-first and breadth-first, one- and double-ended where offered) yields exactly the items of the tree as it was when the iteration began, whatever other code does between the calls: a one-ended iterator yields them in order, each once; a double-ended one yields from its two ends what the same schedule of ends yields on an untouched tree. It keeps the tree frozen while it lives and lets go of it at the end.",
  "every interleaving, every schedule of next and next_back, every depth limit","All interleavings.",
  ["src/traverse/depth_first.rs: StableShallowDepthFirstTraverser, StableDepthFirstTraverser", "src/traverse/siblings.rs: StableSiblingsTraverser", "src/traverse/breadth_first.rs: NonAllocatingBreadthFirstTraverser, AllocatingBreadthFirstTraverser", "src/node/frozen.rs: FrozenNode"])
p("C43","Dropping does not recurse",
"Dropping a handle, including the last one of a tree, and every other call that frees nodes, runs the destructors of nodes one after the other, never one inside another: the call stack needed does not grow with the depth or width of the tree.",
"every reachable state, every call, trees of every depth and width",
"A test drops a few shapes; the claim is for every shape and every pattern of remaining handles.",
["src/tree.rs: impl Drop for TreeCore", "src/node/internal.rs: NodeCore", "src/membership.rs: decrement_tree_refcount"])
p("C44","Panicking methods panic exactly when documented",
  "create_node_as, create_as_prev_sibling, create_as_next_sibling, replace_with_children, detach_insert_subtree, borrow_data, borrow_data_mut, clone_subtree, clone_tree, clone_insert_subtree and cloning a grant panic exactly if there is no place for the node (next to a root or next to itself), the root to be replaced has not exactly one child, the data is exclusively borrowed, or the grant is of another tree; otherwise they return the result of the try_ variant. HotNode::new_tree never panics.",
  "every reachable state, every such call with every argument","All shapes, positions and borrow states.",
  ["src/node/plain.rs: create_node_as, replace_with_children, detach_insert_subtree, borrow_data, borrow_data_mut, clone_subtree, clone_insert_subtree", "src/node/hot.rs: the same, HotNode::new_tree", "src/node/frozen.rs: borrow_data, clone_subtree", "src/tree.rs: clone_tree", "src/tree/lock.rs: Clone for HierarchyEditGrant"])
p("C45","Queries through handles tell the truth",
  "is_root, has_prev_sibling, has_next_sibling, has_children, num_children, has_one_child, has_multiple_children, count_children, count_preceding_siblings, count_following_siblings, count_ancestors, ptr_eq, belongs_to, belongs_to_same_tree and is_valid_for_node never panic, also in a debug build, and answer as the child lists and trees say, through Node, HotNode and FrozenNode alike; first_last_child and first_last_sibling give handles on the two ends; Node::from gives the lock back and keeps the node.",
  "every reachable state, every handle and every question","All shapes, positions and kinds of handles; the debug assertion in is_root compares two redundant records.",
  ["src/node/plain.rs, src/node/hot.rs, src/node/frozen.rs: is_root, has_*, count_*, num_children, ptr_eq, belongs_to, belongs_to_same_tree, first_last_child, first_last_sibling, From", "src/tree/lock.rs: is_valid_for_node"])
p("C46","Counters cannot overflow",
  "The reference count and the lock count of a node, and the count of edit grants or prohibitions of a tree, never exceed the number of handles, grants and prohibitions alive; num_children is less than the number of nodes alive. So the machine integers holding them do not overflow before memory is exhausted, and the checked additions never panic.",
  "every history of calls, also after calls that damage the links (children: every reachable state)","Histories of every length.",
  ["src/node/membership.rs: increment_tree_refcount, increment_nonzero_tree_refcount", "src/tree/lock.rs: acquire_grant, acquire_prohibition, increment_nonzero_count", "src/node/internal.rs: num_children_add"])
p("C47","Hierarchy and data are independent",
  "No call that builds, navigates or edits the hierarchy, or manages handles or locks, looks at the data of a node or at whether that data is borrowed (not even exclusively): in two states that differ only there, even in the type of the data, it returns the same answer, or panics in both, and leaves states that again differ only there. A call on the data changes nothing but data and borrows. So the calls on data can be left out of any history without changing the answers of the others.",
  "every state whatsoever, every call, every history; all data and all borrow states","All data values and types, all patterns of outstanding borrows.",
  ["src/node/internal.rs: NodeCore, data", "src/node/plain.rs, src/node/hot.rs, src/node/frozen.rs: all methods on the hierarchy, borrow_data, borrow_data_mut", "src/node/edit.rs"])
p("C48","Exactly these calls damage the structure",
  "As long as no call has damaged the structure (the links always formed ordered forests whose roots are the ones the trees name), a call leaves it undamaged, except: detaching, or removing when childless, or moving the last of several siblings while something else keeps the tree it leaves; moving a node below itself; moving a non-root node next to a root; moving a whole tree to another tree when it has several nodes, or a Tree handle keeps it, or the place is next to a root. Each of these calls returns normally and always does damage. While no damage is done handles, reference counts and locks are in order, too.",
  "every history of calls, every call","Every history; and the list of harmful calls is shown complete and minimal.",
  ["src/node/edit.rs: detach_subtree, try_replace_with_children, detach_and_move_to_another_tree, detach_and_move_inside_same_tree", "src/node/internal.rs: IntraTreeLinkBuilder", "src/node/plain.rs, src/node/hot.rs: all methods"])
p("C49","Parties that share no handles do not notice each other",
  "If two parts of a program never use each other's handles, then, whatever they do and in whatever order, no node or tree of one ever refers to one of the other; no call of one changes a node, link, datum, borrow, count, lock or handle of the other; and a call answers, panics and acts exactly as if the other part did not exist. Calls that damage links damage only what their own part owns: as long as the other part makes no such call, all guarantees hold for it.",
  "every interleaving of calls of two (or more) parts, damaging calls included","All interleavings and all histories of both parts.",
  ["src/node/edit.rs, src/node/internal.rs, src/node/membership.rs, src/tree.rs, src/tree/lock.rs: all functions", "src/node/plain.rs, src/node/hot.rs, src/node/frozen.rs: all methods"])
p("C50","Every handle an iterator makes has exactly one owner",
  "Every call of next or next_back of every iterator and traverser, every method that makes an iterator, and every clone of one accounts for every handle: each handle that exists afterwards is either an item given to the caller, or owned by exactly one iterator, or was there before and is untouched; everything else the call made on the way is dropped again. Dropping an iterator half way releases exactly what it owns, and an iterator that has returned None owns nothing, so it keeps no node alive and no hierarchy locked. A clone of an iterator stands where the original stands, with handles of its own on the same nodes, and peek() shows what next() then gives. This holds whatever has happened to the links.",
  "every iterator, every state of it, every state of the hierarchy any history leads to","All iterator positions in all states, damaged ones included.",
  ["src/traverse/ancestors.rs, src/traverse/breadth_first.rs, src/traverse/depth_first.rs, src/traverse/siblings.rs: all iterators and their Iterator, DoubleEndedIterator, Clone impls", "src/node/frozen.rs, src/node/plain.rs, src/node/hot.rs: children, siblings, depth_first_traverse, breadth_first_traverse and their variants"])
p("C51","A tree under construction is private",
  "A TreeBuilder used call by call, while other code does anything at all with its own handles: each open, close, push_event and push_events is accepted or refused exactly as the events accepted so far demand and never panics; is_root_available and is_root_closed tell the truth; finish at any moment gives one new tree of exactly the data given, open nodes closed; dropping the builder at any moment leaves nothing behind; other code can neither reach the tree nor is anything of its own changed. A close of too many nodes is refused after closing all open nodes but the root.",
  "every state any calls have led to, every interleaving of builder calls with arbitrary calls of other code, refused events included","All interleavings and all event sequences, continued after errors.",
  ["src/serial.rs: TreeBuilder::open, close, push_event, push_events, is_root_closed, is_root_available, finish"])
p("C52","Edits can be undone",
  "A node put between a node and its parent (or above a root), or between a node and its children, is taken out again by replacing it with its children; a new leaf is taken out by detaching or replacing it. Afterwards it is alone in a tree of its own and everything else - every link, order, membership, tree root, datum and handle - is exactly as before it was added. A node moved anywhere outside its own subtree, in its tree or into another one, and then moved back to its place (named through its parent or a neighbour) leaves no trace at all; so does a leaf that was detached and moved back.",
  "every reachable state, every node, every way of naming the place, every later authorisation","Two-call sequences in all states; equality of everything observable.",
  ["src/node/hot.rs, src/node/plain.rs, src/node/edit.rs: create_as_interrupting_parent, create_as_interrupting_child, try_replace_with_children, detach_subtree, detach_and_move_inside_same_tree, detach_and_move_to_another_tree, try_detach_move_subtree, create_as_*"])
p("C53","The order of drops does not matter",
  "Dropping several handles (nodes, trees, tokens, weak ones, in any mixture and any order) always succeeds. What is left depends on the set of handles dropped only: trees that some remaining strong handle refers to are exactly as before - links, data, root - and all others are deallocated completely. Scopes ending in a different order cannot be told apart afterwards.",
  "every reachable state, every set of handles, every order of dropping them","All permutations of all sets of handles.",
  ["src/tree.rs, src/membership.rs, src/node/internal.rs: Drop impls, Membership::drop, NodeCoreLink reference counting", "src/tree/lock.rs: drop of grants and prohibitions"])
p("C54","Equality of nodes and trees is an equivalence relation",
  "As the Eq implementations promise: every node and every tree equals itself (also while data is mutably borrowed, and even if its data does not equal itself); a.try_eq(b) and b.try_eq(a) give the same answer or both fail, and == panics exactly where try_eq fails; if a equals b and b equals c then a equals c. The data type need only provide a symmetric and transitive comparison.",
  "every reachable state, all handles, every symmetric and transitive comparison of the data","All pairs and triples of subtrees, nested ones and borrowed data included.",
  ["src/node/plain.rs, src/node/hot.rs, src/node/frozen.rs, src/tree.rs: try_eq, impl PartialEq, impl Eq", "src/node/internal.rs: NodeCoreLink::try_eq"])
p("C55","Iterators are fused",
  "Once next() (or next_back(), of a double-ended iterator) of an iterator of the library has returned None, next() and next_back() return None for ever, whatever is done to the trees in between, have no effect at all, and size_hint() is (0, Some(0)). That is what the FusedIterator implementations promise; it also holds of the allocating breadth-first traverser and (except for size_hint, which it does not define) of the serializing iterator.",
  "every iterator type, every state it can be in, every state of the trees at every call","An iterator can be resumed after arbitrary edits; tests only drain iterators over fixed trees.",
  ["src/traverse/*.rs: impl Iterator, DoubleEndedIterator, FusedIterator", "src/node/internal.rs: DepthFirstLinkTraverser", "src/serial.rs: TreeSerializeIter"])
p("C56","Data is passed through",
  "The library neither compares, changes nor invents data. If every datum given to a history of calls is replaced by its image under any function whatever (which may merge data), every call returns, fails or panics exactly as before, answers that carry data carry the images, and the resulting trees are the same with the images in their nodes. Every datum that a node holds or an answer carries was given to some earlier call.",
  "every state, every history of calls, every function on data","Quantifies over pairs of histories and all functions on data; a comparison or default hidden in one path would only show for particular data.",
  ["src/node/internal.rs, src/node/edit.rs, src/node/plain.rs, src/node/hot.rs, src/node/frozen.rs, src/tree.rs, src/tree/lock.rs, src/node/membership.rs: all functions, generic in T"])
p("C57","Constant-time calls touch a constant number of nodes",
  "As documented ('O(1) operation if the destination is inside the same tree', num_children 'O(1)'): moving a subtree inside its tree, creating a node, interrupting a parent edge, navigating, cloning, locking, bundling, reading, writing and borrowing depend on and change a bounded number of nodes (at most 93, counted with repetition), in trees of any size and even after damage: in every other state that agrees on those nodes the call does the same to them, gives the same answer, and leaves all other nodes alone. num_children depends on one node, the other questions that do not count by walking on at most five.",
  "every state whatever (reachable or not), every call except those that visit a subtree or all children or may deallocate","A test can time a few trees; that the cost is bounded for all trees is a statement about all of them.",
  ["src/node/plain.rs, src/node/hot.rs: documentation of detach_insert_subtree, num_children", "src/node/edit.rs: detach_insert_subtree, create_node_as, create_as_interrupting_parent", "src/node/internal.rs: NodeCoreLink links and counts"])
p("C58","Edits of trees are edits of their documents",
  "The events of depth_first_traverse spell out a subtree as a document with a pair of brackets (Open, Close) per node. Every edit is an edit of documents: creating a node inserts one pair at the requested place of every document that has this place and changes no other; an interrupting parent puts a pair around the node's segment, an interrupting child a pair around all that is within the node; replacing a node by its children takes its pair away and keeps what is between; detaching cuts the segment of the node out of every document in which it stands; a move cuts it out and pastes it, unchanged, into every document that has the destination. Inserting a clone of a subtree pastes a document of the same shape with the same data and new nodes. Nodes deallocated by the call excepted, that determines the document of every node of every tree after the call.",
  "every reachable state, every edit (moves: not below the node itself, not of a root, not of a last child to the place it has), every node of every tree","The claim is about all nodes of all trees at once and every shape; a test compares one traversal of one tree.",
  ["src/node/edit.rs: create_node_as, create_as_interrupting_parent, create_as_interrupting_child, replace_with_children, detach_subtree, detach_insert_subtree", "src/traverse/depth_first.rs: DepthFirstTraverser", "src/node/plain.rs, src/node/hot.rs: the edit methods"])
import io
open("/verif/properties.jsonl","w").write("".join(json.dumps(x,ensure_ascii=False)+"\n" for x in P))
print(len(P))
