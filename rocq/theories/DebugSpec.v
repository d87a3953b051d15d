(** * DebugSpec: what the [Debug] documents must show.  Independent of Debug.v
    except for the type of documents. *)
From Verif Require Export Debug SerialSpec.
Local Open Scope string_scope.

Section DebugSpec.
Context {T : Type}.
Implicit Types (h : heap T) (s : sys T) (K : forest).

(** The data, or a mark if it is mutably borrowed. *)
Definition shows_data h (x : nid) (d : doc T) : Prop :=
  (exists v, readable h x v /\ d = DData v) \/ (borrowed h x /\ d = DRaw "<borrowed>").

(** The whole subtree, in order. *)
Inductive shows h : rose nid -> doc T -> Prop :=
| shows_intro x ts d ds : shows_data h x d -> Forall2 (shows h) ts ds ->
    shows h (Rose x ts) (DStruct "Node" [("data", d); ("children", DList ds)]).

(** The lock state of the tree [t]: the number of edit grants, or minus the number of
    prohibitions, in the hands of the user. *)
Definition shows_lock s (t : tid) (d : doc T) : Prop :=
  exists g p, holders s (s_hands s) Hot t g /\ holders s (s_hands s) Frozen t p /\ (g = 0 \/ p = 0) /\
    d = DStruct "HierarchyLockManager" [("num_grants", DStruct "Cell" [("value", DNum (Z.of_nat g - Z.of_nat p))])].
Definition shows_tree s (t : tid) (d : doc T) : Prop :=
  exists l, shows_lock s t l /\ d = DStruct "Tree" [("lock_manager", l)].

(** "Some(_)" or "None". *)
Definition shows_presence (P : Prop) (d : doc T) : Prop := (P /\ d = DRaw "Some(_)") \/ (~ P /\ d = DRaw "None").

(** One node: its data, which neighbours it has, its tree. *)
Definition shows_node s K (name : string) (x : nid) (d : doc T) : Prop :=
  exists dd dp dprev dnext dfirst dt t,
    d = DStruct name [("data", dd); ("parent", dp); ("prev_sibling", dprev); ("next_sibling", dnext); ("first_child", dfirst); ("tree", dt)] /\
    shows_data (s_nodes s) x dd /\
    shows_presence (exists p, child_of K p x) dp /\
    shows_presence (exists p ks i y, K !! p = Some ks /\ ks !! i = Some y /\ ks !! S i = Some x) dprev /\
    shows_presence (exists p ks i y, K !! p = Some ks /\ ks !! i = Some x /\ ks !! S i = Some y) dnext /\
    shows_presence (exists c, child_of K x c) dfirst /\
    tree_of s x = Some t /\ shows_tree s t dt.
End DebugSpec.
