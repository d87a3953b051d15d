# Formal model of lo48576/dendron in Coq 8.16.1

This file is the plan and the record: what is modelled, how each property is
stated and proved, what is trusted, and what was found to be wrong in the code.

## 1. Shape of the model (`rocq/theories`)

| file | models | of |
|------|--------|----|
| `Base.v` | `run A` = `Ret a` / `Panic` / `NoFuel`, its bind | - |
| `Heap.v` | node records and the neighbour accessors | `node/internal.rs` |
| `Edit.v` | link surgery | `node/edit.rs` |
| `Traverse.v` | all iterators and their `size_hint`s | `traverse/*.rs`, `node/internal.rs` |
| `System.v` | tree cores, memberships, locks, handles, `Drop`, the API as `step : sys -> op -> run (sys * out)` | `node/{plain,hot,frozen}.rs`, `node/membership.rs`, `tree.rs`, `tree/lock.rs` |
| `Depth.v` | the freeing calls again, with a bound on nested node destructors (stack) | `tree.rs`, drop glue of `internal.rs` |
| `Serial.v` | `try_eq`, `to_events`, `TreeBuilder`, cloning of subtrees | `serial.rs`, parts of `edit.rs`/`internal.rs` |
| `Serial2.v` | collecting `DftEvent`s into a tree, `tree_node!`, `tree!` (the expansion as a function of the written tree) | `serial.rs`, `macros.rs` |
| `Debug.v` | the `Debug` printers, as documents handed to `Formatter` | `node/debug_print/debug.rs`, `tree/debug_print.rs` |
| `HIter.v`, `HIter2.v` | the iterators again, as owners of handles: every clone, navigation and drop they make is a call of `step` | `traverse/*.rs` |
| `Pretty.v`, `PrettySink.v` | pretty printer, writing to a buffer and to any sink that can fail | `node/debug_print/pretty.rs` |

* **Store**: a finite map from node identities to node records with exactly the
  fields of `NodeCore`/`Neighbors` (`internal.rs:14-47`): data,
  the borrow flag of the data, `parent` (weak), `first_child` (strong),
  `next_sibling` (strong), `prev_sibling_cyclic` (weak), `num_children`,
  membership.  A `Weak` is an identity that may be absent from the map; upgrading
  is looking it up.  Identities are never reused (an allocator may reuse
  addresses, but nothing compares the address of a freed node).
* **Strong counts** are not stored but computed: a node is referenced by the
  strong links of the store, by tree cores (`root`), by the user's handles and by
  local variables of the running call (`pins`).  `release` frees a node exactly
  when nothing refers to it any more, and cascades as drop glue does.
* **Panics** are the value `Panic` (after which nothing is claimed).
  `debug_assert!`s are modelled as panics (debug build); where a theorem says a
  call returns, none fires, so it covers the release build as well.
* **Loops** that are not structurally recursive use fuel computed from the size of
  the store; `NoFuel` is a separate value, and theorems that say a call returns
  say `Ret`.  The refutations about non-termination show `NoFuel` for *every*
  fuel.
* **Handles** are entries of `s_hands`, named by numbers; a call names the handles
  it uses.  A call that Rust's type checker would reject (handle of another type,
  moved-out handle) is answered by `OutIll` without effect.

## 1a. Coverage, function by function

Every public function of the crate, and the part of the model that stands for it. Where a row names several node
types the code has one copy per type and the model one definition with the kind of handle as a parameter (differences
between the copies are modelled: see the comments in `Api.v` and `System.v`).

| code | model | claims |
|------|-------|--------|
| `Node::new_tree`, `HotNode::new_tree` | `OpNewTree`, `step_new_hot_tree` | C02, C44 |
| `Clone` of `Node`, `HotNode`, `FrozenNode`, `Tree`, the weak handles; `try_clone` of tokens | `OpClone` | C23, C46 |
| `Drop` of all of these, of `TreeCore` and the node drop glue | `OpDrop`, `release`, `drop_tree_if_dead`, `Depth.v` | C27, C28, C43, C53 |
| `downgrade`, `upgrade` (nodes, trees) | `OpDowngrade`, `OpUpgrade` | C30 |
| `plain`, `From<HotNode>`, `From<FrozenNode>` | `OpPlain`, `step_into_plain` | C24, C44 |
| `bundle_new_hierarchy_edit_{grant,prohibition}` | `OpBundle` | C23, C24 |
| `bundle_hierarchy_edit_{grant,prohibition}` | `OpBundleWith` | C24, C37 |
| `extract_hierarchy_edit_{grant,prohibition}`, `grant_hierarchy_edit`, `prohibit_hierarchy_edit` | `OpExtract`, `OpLock` | C23, C24 |
| `is_valid_for_node`, `panic_if_invalid_for_node` | `QValid`, `with_auth` | C26, C37, C45 |
| `try_borrow_data(_mut)`, `borrow_data(_mut)`, the life of `Ref`/`RefMut` | `OpGet`, `OpSet`, `OpBorrow`, `pcall` | C35, C44 |
| `ptr_eq`, `ptr_eq_plain`, `belongs_to`, `belongs_to_same_tree`, `tree`, `Tree::root`, `Tree::ptr_eq` | `ask`, `tree_ptr_eq`, `OpTree`, `OpRoot` | C29, C45 |
| `is_root`, `root`, `parent`, `prev_sibling`, `next_sibling`, `first_sibling`, `last_sibling`, `first_child`, `last_child` | `OpNav`, `ask_is_root` | C01, C45 |
| `first_last_sibling`, `first_last_child` | `step_first_last_sibling`, `step_first_last_child` | C45 |
| `has_prev_sibling`, `has_next_sibling`, `has_children`, `has_one_child`, `has_multiple_children`, `num_children`, `count_children`, `count_preceding_siblings`, `count_following_siblings`, `count_ancestors` | `ask`, `count_*` | C01, C45 |
| `depth_first_traverse`, `depth_first_reverse_traverse` and their `next`, `peek`, `close_current`, `with_start`, `with_next_event` | `dfs_*`, `rdfs_*`, `hdfs_*` | C12, C13, C33, C41, C42 |
| `children(_reverse)`, `ancestors(_or_self)`, `siblings(_reverse)`, `preceding_siblings(_or_self)_reverse`, `following_siblings(_or_self)` | `*_it`, `hsib_*` | C14, C42 |
| `depth_first_traverse_stable`, `shallow_depth_first_traverse_stable`, `children_stable`, `siblings_stable`, `preceding_siblings(_or_self)_stable`, `following_siblings(_or_self)_stable` | `sdfs_*`, `sh_*`, `ssib_*`, `hsdfs_*`, `hsh_*`, `hss_*` | C15, C16, C41, C42 |
| `non_allocating_breadth_first_traverse_stable`, `allocating_breadth_first_traverse_stable` | `nbf_*`, `abf_*`, `hnbf_*`, `habf_*` | C17, C41, C42 |
| `size_hint` of all iterators; `Clone` and `Drop` of iterators | `*_size_hint`, `*_clone`, `*_owns` | C18, C50 |
| `DftEvent::{next, prev, close_current, into_value, into_open, into_close, map}` | `dft_next`, `dft_prev`, `ev_*`, `into_*` | C12, C34 |
| `(try_)create_node_as`, `create_as_{first,last}_child`, `(try_)create_as_{prev,next}_sibling` | `OpCreate`, `pstep` | C02, C03, C44 |
| `create_as_interrupting_parent`, `create_as_interrupting_child` | `OpInterruptParent`, `OpInterruptChild` | C04, C05 |
| `(try_)replace_with_children` | `OpReplace` | C06 |
| `detach_subtree` | `OpDetach` | C07 |
| `(try_)detach_insert_subtree` | `OpMove` | C08-C11 |
| `(try_)clone_subtree`, `(try_)clone_insert_subtree`, `(try_)clone_tree` | `clone_subtree`, `clone_insert_subtree`, `clone_tree`, `pclone_*` | C22, C44 |
| `try_eq`, `==` (nodes, trees) | `node_try_eq`, `tree_try_eq`, `eq_expect` | C19, C54 |
| `to_events`, `TreeSerializeIter`, `TryFrom<DftEvent>` for `Event` | `ser_next`, `dft_event` | C20 |
| `TreeBuilder::{new, with_root, is_root_closed, is_root_available, open, close, push_event(s), finish, finish_opt}`, `FromIterator<Event>` | `b_*`, `build`, `build_locked`, `build_tree` | C21, C51 |
| `push_dft_event(s)`, `FromIterator<DftEvent>` | `push_dfts`, `collect_dfts` | C38 |
| `tree_node!`, `tree!` | `tree_node_macro`, `tree_macro` | C39 |
| `debug_pretty_print` | `Pretty.v`, `PrettySink.v` | C31 |
| `Debug` of handles, `debug_print_local`, `debug_print_subtree`, `Tree::debug_print` | `Debug.v` | C40 |

Left out because they contain no logic of their own: `InsertAs::{map, as_ref}` and `Event::map` (apply a function to
the value inside), `DftEvent::{as_value, as_value_mut}` (borrow of it), `capacity`, `shrink_to_fit`, `shrink_to` of the
breadth-first queue (`VecDeque`'s), `Display`/`source` of the errors, `Hash`/`Eq` derives of the plain enums.

## 2. Specification

`Spec.v`, `SysSpec.v`, `ApiSpec.v`, `GenSpec.v`, `IterSpec.v`, `SerialSpec.v`,
`Serial2Spec.v`, `PrettySpec.v`, `DebugSpec.v`, `HIterSpec.v`, `HIter2Spec.v`, `OwnSpec.v`, `FrameSpec.v`, `BuilderSpec.v`, `MisledSpec.v` contain no reference to how calls are implemented: a forest is a
map from a node to the ordered list of its children; `wf` says each node is the
child of at most one node, at most once, and that nothing is below itself; `rep`
gives the meaning of the five neighbour fields; `stores s K` is both.  Results of
calls are stated by `adds`, `reshapes`, `splits`, `carries`, `drops`, `gives`, ...
(ApiSpec).  Iterator results are stated by the inductive `rose` trees and the
relation `enumerates` (the sequence an iterator delivers, then `None` for ever).

Two notions of history:

* `reach s`: reached by calls that are `safe`, i.e. do not run into one of the
  defects of section 5 (detach/move of the last of several siblings out of a tree that
  stays alive, replacing such a node when childless, moving below itself, moving a
  whole tree of several nodes, or one kept by a `Tree` handle, into another one, moving next to a root).  Every other call of the API, in any order
  and number, is allowed.  For these histories everything documented is proved.
  C48 shows that these are exactly the histories in which the links have always
  formed forests agreeing with the tree cores: each excluded call does damage, no
  other call does.
* `any s`: reached by *any* calls that returned, and additionally by arbitrary
  corruption of the links in between (`scrambled`).  For these the properties
  that do not depend on the links (locks, memberships, handles, weak references,
  data) are proved.  The arbitrary corruption makes the result independent of
  how exactly the defects damage the links, in particular of strong links that
  are overwritten in a damaged state.  In damaged states `Drop` may run for ever
  on a cycle; it is proved never to panic.

## 3. Properties

Each `Prop*.v` contains only statements closed by a lemma, `Print Assumptions`,
and a concrete instance of the hypotheses (`*_nonvacuous`).

| id | theorems in | how |
|----|------------|-----|
| C01 | `PropNav`, `PropEdit` | accessors against `rep`; `reach_stores` by induction over histories |
| C02-C05 | `PropEdit` | refinement `rep h K -> rep h' K'` per edit, frame by equality of `K'` off the edited entries |
| C06-C08, C10 | `PropEdit`, `PropMisled` | same under `safe`; `_refuted` histories for the rest; `PropMisled`: the exact effect on the last of several siblings (everything right but one link; which accessors answer wrongly, and what) by commuting that one write with the rest of the call |
| C09, C11 | `PropEdit` | acyclicity is part of `wf`; `_refuted` for loops and failing moves |
| C12-C18, C33, C34 | `PropTraverse` | `enumerates`, induction over rose trees, any interleaving of the two ends for double-ended iterators |
| C15 (exact) | `LooseSpec`, `PropStable` | both ends walk chains of `next`/`prev` steps (`LooseFacts.chain`) which do not know about each other; any schedule by induction |
| C19-C22 | `PropSerial` | lockstep of two traversals; builder against a recursive reference on event lists; clone = serialise + build; a copy placed inside its source: the event list being read is followed while it grows (`BuildFacts13`-`16`), divergence because the distance to the end never shrinks |
| C23-C26 | `PropLock`, `PropAny` | counting invariant (`hinv`) over all histories |
| C27-C30, C32, C35-C37 | `PropLife`, `PropAny` | liveness invariant (`sinv`, `finv`, `hinv`) over all histories |
| C31 | `PropPretty` | printer state machine against a recursive reference; an implementation of `Display` that fails at any node: what has been written until then; a sink that fails: `tells`, the two printers write the same pieces (`PrettySinkFacts`) |
| C38, C39 | `PropSerial2` | as C21/C22: the growing tree is an invariant of builder and macro |
| C40 | `PropDebug` | recursion over siblings against the rose tree; accessors against `rep`; count by `hinv` |
| C41 | `PropIter` | per call of `next`, for the forest of the moment; `others` = any number of safe calls not given the iterator's handles |
| C42 | `PropIter`, `PropIter2` | the frozen handles of the iterator exclude edits of the tree, so the remaining items stay an infix of the events of the tree at the start; `HIter2Facts` does this once for two ends that do not watch each other, instantiated for siblings and events; the breadth-first iterators by an invariant on the inner traverser or the queue, with the distinctness of handles from C50 |
| C43 | `PropDepth` | `Depth.v` repeats the freeing functions with a bound on nested node destructors; the loop invariants of the ordinary proofs show that only nodes without children and following siblings are freed |
| C08, C09, C11 (misdirected moves) | `PropMove` | every move of a non-root node: when it is refused, what a refused one leaves, what a move below itself makes, the last place |
| C10, C11 (whole trees) | `PropGraft` | invariant of the loop that hands the nodes over one by one, with or without the old tree core |
| C44 | `PropQuery` | `Api.v`: `expect` of the fallible calls; the effect theorems say when these return an error |
| C45 | `PropQuery` | `Api.v`: each query as written for each kind of handle, with the debug assertion; the accessor facts of `rep` and `inv` |
| C46 | `PropCount` | each counter is the cardinality of a set of handles (`hinv`) or of children (`rep`) |
| C47 | `BareSpec`, `PropBare` | erasing the data (`bares`) commutes with every function of the model (`BareFacts`), for every state |
| C48 | `SafeSpec`, `PropSafe` | each exact theorem about a call excluded by `safe` (C06-C11) contradicts `sinv` of the result (`SafeExact`); so `reach` = histories without damage |
| C49 | `FrameSpec`, `PropFrame` | `FrameFacts`: for every function of the model, running it on the caller's share of the state and then adding the rest is running it on the whole, for every state in which the shares do not refer to each other; `FrameFacts2`: induction over interleavings |
| C50 | `OwnSpec`, `CloneSpec`, `PropOwn` | `HIter2.v`: the iterators with the handles they hold, clones and drops at the places where the code has them; one rule `turns` (handles taken in, handles given out, all other handles untouched) proved for clone/drop/navigation in `any` state and composed along each function |
| C51 | `PropBuilder` | `BuilderFacts`: simulation of the builder by the machine `answer` (a stack of open nodes) in a state that holds nothing else; `BuilderFacts2`: the same calls in the whole state act on the builder's share only (C49's `sep_step`), and other code's calls leave that share alone |
| C52 | `UndoSpec`, `PropUndo` | `UndoFacts`: the effect records `adds` and `splits` of C02-C07 composed, with list lemmas (substitute then splice, insert then remove); `UndoFacts2`: two moves composed, the trees left being kept by the handles on the anchors |
| C53 | `DropSpec`, `PropDrop` | `DropFacts`: induction over the list of handles with the effect of one drop (C28); what is left is a function of the set |
| C54 | `PropEq` | `EqFacts3`: symmetry from the exact answer of C19 (the definition is symmetric and the answer unique), transitivity by induction over the three subtrees |
| C55 | `FusedSpec`, `PropFused` | by cases on the state of each iterator; the breadth-first ones by what is left of their root or queue after a `None` |
| C56 | `DataSpec`, `PropData` | `DataFacts`: one equation per function of Heap, Edit and System (it commutes with replacing the data); provenance by taking the data from the subset type of the data given |
| C57 | `LocalSpec`, `PropLocal` | `LocalFacts`: a small calculus of programs that read and write single nodes (`loc`: at most k of them), closed under reads, writes and composition; a tactic takes the reads out of each function one by one. No function is redefined, except that the branches a brief call does not take are cut off (`step'`). The bound for moves rests on the loop check not being run (defect of C09): a check that walks the ancestors would break the documented O(1) |
| C58 | `DocSpec`, `PropDoc`, `PropDoc2` | `DocFacts`: documents of forests as an inductive relation; a node's place in a document as a context with a hole; `DocFacts2`: each edit of the forest (C02-C08) fills the hole differently; `DocFacts3`: the calls, trees deallocated by the call being restrictions of the forest; `DocFacts4`: the states left by the defect of C06/C07 read the same, because a forward traversal does not use the damaged link; the descriptions determine the new document; `DocFacts5`: whole trees (C10); `DocFacts6`: copies (C22) |
| C26, C36, C37 (every call) | `AsideSpec`, `PropSafe` | `EveryFacts`: for each damaging call the exact theorem shows that the other trees keep every link; combined with the effect of the safe calls |

Properties that are false of the code have status `partial`: the strongest true
part found is proved, and the failing case is proved to fail (`_refuted`).

## 4. Trusted base

* Coq 8.16.1's kernel, including its VM (used by `vm_compute` on concrete
  histories in refutations and non-vacuity examples; `coqchk` re-checks them
  without the VM).
* `Print Assumptions` is run under every property theorem and answers "Closed
  under the global context" for all of them: no axioms.
* `coqchk` lists seven constants `Coq.ssr.ssrunder.Under_rel.*` as axioms of the
  loaded libraries (opaque module-type parameters of the standard library's ssr
  plugin, loaded by std++); no theorem here depends on them.
* std++'s definitions (`gmap`, list functions) are ordinary Coq code.
* The correspondence of the Rust text and the Gallina definitions is by reading;
  every definition cites file and lines.

## 5. Defects found in the code

1. **Unlinking the last of several siblings** (edit.rs:93-98): the first sibling's
   cyclic `prev` link is not updated.  Afterwards `last_child()` of the parent
   returns the detached node (`C01_refuted`, `C07_refuted`), or panics once it is
   freed (`C07_panic_refuted`); a later append links the new node to the detached
   one, even in a frozen tree (`C26_refuted`).  `C07_last_exact`, `C08_last_exact_partial`,
   `C10_last_exact` (PropMisled) say exactly what is wrong: one link, read by
   `last_child`, `last_sibling` and, if the node has got a next sibling elsewhere,
   `prev_sibling` of the first child.  Harmless iff the tree left behind is deallocated
   in the same call.  Moving the last child to the last place of its own parent (which should be a
   no-op) makes it its own next sibling: it is no child any more and leaks
   (`C08_last_place_refuted`, `C28_last_place_refuted`).  Nodes chained behind a
   detached one are freed recursively (`C43_refuted`).
2. **`try_replace_with_children`** on a childless node that is the last of several
   siblings (edit.rs:676-678): the same (`C06_refuted`, `C06_last_exact`).
3. **Loop check skipped**: `new_by_unlink` reports `is_newly_created: true`
   (edit.rs:108), so moving a non-root node below itself succeeds and makes a cycle
   (`C09_refuted`, `C09_loop_never_detected`); the cycle leaks (`C28_refuted`), and
   `NodeWeak::upgrade` of its nodes panics (`C30_refuted`).
4. Moving the **root inside its own tree** silently does nothing and returns `Ok`
   (edit.rs:343-347) (`C09_root_move_noop`).
5. **Failing moves are not undone**: the node stays detached (`C11_refuted`,
   `C11_self_refuted`); with a destination in another tree its membership has
   changed as well (`C29_refuted`).  `C11_same_exact`, `C11_other_exact`, `C08_outcome`
   (PropMove) say exactly which moves fail and what they leave.
6. **Moving a whole tree into another tree** leaves the old `TreeCore.root`; the old
   core is dropped in the middle of the move and frees children (`C10_refuted`,
   `C27_refuted`); with a `Tree` handle kept, its `root()` is a node of another
   tree (`C10_stale_root_refuted`), and dropping it wipes links of the other tree
   (`C32_refuted`).  `PropGraft`: a tree of one node without `Tree` handle is moved
   properly (`C10_whole_single`); `C10_whole_kept_exact`, `C11_whole_kept_exact`: what
   the move of a tree kept by a `Tree` handle has done; `C10_whole_lost_exact`,
   `C11_whole_lost_exact`: what that of any other tree has done: the root arrives alone
   (with the number of children it had), nodes without a handle are freed, nodes with
   one are left with stale links to their parent and previous sibling.
7. **`DftEvent::close_current(&self)`** loops for ever if the next event is an
   `Open` (`C33_event_close_current_refuted`).
8. **`StableDepthFirstTraverser`** does not stop at the start node when that is not
   the root of its tree, and its ends do not meet (`C15_*_refuted`).
9. **`StableSiblingsTraverser`**: the two ends do not meet; `preceding_siblings_stable`
   drops the first sibling instead of the node itself (`C15_*_refuted`).
10. **`size_hint`**: the shallow traverser announces exactly 2 for (Open n, Close n)
    even if n has children; the link traverser over-announces; the stable iterators' hints are wrong once the two ends have met, and for preceding
    siblings from the start (`C18_*_refuted`, `C18_stable_*_exact`).
11. **`TreeBuilder::with_root(non-root)`**: closing the start node moves to its
    parent, later opens go outside (`C21_with_root_refuted`); a failing `close(n)`
    leaves the builder moved (`C21_failed_close_refuted`; exactly how far: `answer` in C51).
12. **`try_clone_insert_subtree`** into the source itself copies the nodes being
    created, possibly for ever (`C22_self_refuted`, `C22_diverges_refuted`).  `C22_inside_exact`:
    before the first child of the source the result has one childless copy of the source too
    many; at every other place inside the source the call never returns, unless a node that
    comes before the place is mutably borrowed.  On a borrow error the partial copy stays
    (`C22_error_refuted`).
13. **Pretty printer**: a node with empty text gets no line at all
    (`C31_empty_refuted`).
14. **`debug_print_subtree` of a `FrozenNode`** is headed `Node` (debug.rs:139)
    (`C40_frozen_refuted`).
15. **`is_root()` after a refused move**: the node has no parent but is not the root of its tree, so
    the `debug_assert_eq!` in `is_root` fails (`C45_after_refused_move`, `C45_refuted`).
16. Not modelled, seen by reading: `try_clone` of a lock token panics rather than
    returning `Err` on overflow.

## 6. Not modelled

* Memory allocation failure; overflow of `usize`/`isize` counters (C46: no
  counter exceeds the number of live handles or nodes).
* That a handle cannot be dropped while a `Ref` or `RefMut` got through it is kept: in
  the model it can, so the theorems cover more histories than Rust admits.
* User code called by the library (`PartialEq`, `Clone`, `Display`, `Drop` of `T`)
  is pure and total; it does not re-enter the library. Exception: for the pretty printer
  a `Display` or `Debug` that fails is modelled, and a sink that fails
  (C31); such an implementation passes errors of the sink on.
* Unwinding: a panic is terminal.
* Threads: the types are `!Send`/`!Sync` (`Rc`), so calls are sequential.
* The layout of `Debug` documents by `core::fmt`; `Display` of errors.
* The panicking wrappers (`create_node_as`, `borrow_data`, `clone_subtree`, ...) are
  the `try_` functions followed by `expect` (`Api.v`, C44).
