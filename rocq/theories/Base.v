(** * Base: identities, errors, outcomes.

    Shared vocabulary of the model.  No proofs here. *)
From stdpp Require Export prelude gmap.

(** A node identity: the address of an [Rc<NodeCore<T>>] allocation
    (internal.rs:53-56).  [ptr_eq] (internal.rs:71) is equality of identities.
    Identities are never reused by the model. *)
Definition nid := nat.

(** A tree identity: the address of an [Rc<TreeCore<T>>] (tree.rs:30). *)
Definition tid := nat.

(** [HierarchyError] (node.rs:32-61). *)
Inductive herr :=
| AncestorDescendantLoop
| EmptyTree
| SiblingsWithoutParent
| BorrowNodeData.

(** Outcome of running a piece of code: it returns, it panics (an [expect],
    [assert!], [debug_assert!] or [unreachable!] fires), or the fuel given to a
    loop ran out.  [NoFuel] never stands for a normal result. *)
Inductive run (A : Type) : Type :=
| Ret (a : A)
| Panic
| NoFuel.
Arguments Ret {A} a.
Arguments Panic {A}.
Arguments NoFuel {A}.

Global Instance run_ret : MRet run := fun A a => Ret a.
Global Instance run_bind : MBind run := fun A B f m =>
  match m with Ret a => f a | Panic => Panic | NoFuel => NoFuel end.
Global Instance run_fmap : FMap run := fun A B f m =>
  match m with Ret a => Ret (f a) | Panic => Panic | NoFuel => NoFuel end.

(** [debug_assert!(b)]/[assert!(b)]. *)
Definition assertb (b : bool) : run unit := if b then Ret tt else Panic.

(** Result of a fallible operation, [Result<A, HierarchyError>]. *)
Inductive hres (A : Type) : Type :=
| HOk (a : A)
| HErr (e : herr).
Arguments HOk {A} a.
Arguments HErr {A} e.

Global Instance herr_eq_dec : EqDecision herr.
Proof. solve_decision. Defined.
Global Instance hres_eq_dec {A} `{EqDecision A} : EqDecision (hres A).
Proof. solve_decision. Defined.

(** [InsertAs<NodeCoreLink>] (anchor.rs:21-32). *)
Inductive insert_as :=
| FirstChildOf (p : nid)
| LastChildOf (p : nid)
| PreviousSiblingOf (s : nid)
| NextSiblingOf (s : nid).

(** [AdoptAs] (anchor.rs:7-16). *)
Inductive adopt_as := AFirstChild | ALastChild | APreviousSibling | ANextSibling.
