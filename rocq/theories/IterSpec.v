(** * IterSpec: what it means for an iterator to enumerate a list, and the event
    lists of ordered trees.  Independent of the code. *)
From Verif Require Export Traverse Spec.

(** The results of [n] successive calls of [nx]. *)
Fixpoint calls {S I} (nx : S -> run (option I * S)) (n : nat) (s : S) : run (list (option I)) :=
  match n with
  | 0 => Ret []
  | Datatypes.S n' => '(r, s') ← nx s; l ← calls nx n' s'; Ret (r :: l)
  end.

(** The state after [n] calls. *)
Fixpoint after {S I} (nx : S -> run (option I * S)) (n : nat) (s : S) : run S :=
  match n with
  | 0 => Ret s
  | Datatypes.S n' => '(_, s') ← nx s; after nx n' s'
  end.

(** From state [s], the calls of [nx] return the elements of [l] in order and
    then [None] for ever. *)
Definition enumerates {S I} (nx : S -> run (option I * S)) (s : S) (l : list I) : Prop :=
  forall n, calls nx n s = Ret (map (fun i => l !! i) (seq 0 n)).

(** A schedule of calls on both ends: [true] is [next], [false] is [next_back]. *)
Fixpoint sched {S I} (nf nb : S -> run (option I * S)) (s : S) (bs : list bool) : run (list (option I)) :=
  match bs with
  | [] => Ret []
  | b :: bs' => '(r, s') ← (if b then nf s else nb s); l ← sched nf nb s' bs'; Ret (r :: l)
  end.

(** What a schedule must return on a sequence [l]: [true] takes the first
    remaining item, [false] the last remaining one. *)
Fixpoint deque {I} (l : list I) (bs : list bool) : list (option I) :=
  match bs with
  | [] => []
  | true :: bs' => head l :: deque (tail l) bs'
  | false :: bs' => last l :: deque (take (length l - 1) l) bs'
  end.

Definition double_ended {S I} (nf nb : S -> run (option I * S)) (s : S) (l : list I) : Prop :=
  forall bs, sched nf nb s bs = Ret (deque l bs).

(** [hint] is a correct bound for [n] remaining items. *)
Definition bounds (hint : nat * option nat) (n : nat) : Prop :=
  fst hint <= n /\ match snd hint with Some u => n <= u | None => True end.

(** At every point of the enumeration of [l] the size hint is correct. *)
Definition hints_ok {S I} (nx : S -> run (option I * S)) (hint : S -> run (nat * option nat))
    (s : S) (l : list I) : Prop :=
  forall n, exists s' b, after nx n s = Ret s' /\ hint s' = Ret b /\ bounds b (length l - n).

(** The state after a schedule of calls on both ends; size hints at all such states. *)
Fixpoint after2 {S I} (nf nb : S -> run (option I * S)) (s : S) (bs : list bool) : run S :=
  match bs with
  | [] => Ret s
  | b :: bs' => '(_, s') ← (if b then nf s else nb s); after2 nf nb s' bs'
  end.
Definition hints_ok2 {S I} (nf nb : S -> run (option I * S)) (hint : S -> run (nat * option nat))
    (s : S) (l : list I) : Prop :=
  forall bs, exists s' b, after2 nf nb s bs = Ret s' /\ hint s' = Ret b /\ bounds b (length l - length bs).

(** A constructor that yields an iterator enumerating [l]. *)
Definition starts {S I} (r : run S) (nx : S -> run (option I * S)) (l : list I) : Prop :=
  exists s, r = Ret s /\ enumerates nx s l.

(** ** Event lists *)

(** The bracketed preorder of a tree. *)
Fixpoint dfs_events {A} (t : rose A) : list (dft A) :=
  match t with Rose x ts => Open x :: concat (map dfs_events ts) ++ [Close x] end.

(** The nodes of a tree, children before their parents.  (Parents before their
    children: [rose_nodes], Spec.v.) *)
Fixpoint rose_post {A} (t : rose A) : list A :=
  match t with Rose x ts => concat (map rose_post ts) ++ [x] end.

(** Labelling nodes with their depth, starting at [d]. *)
Fixpoint rose_depths {A} (d : nat) (t : rose A) : rose (A * nat) :=
  match t with Rose x ts => Rose (x, d) (map (rose_depths (S d)) ts) end.

(** Removing everything deeper than [m] (no limit if [None]). *)
Fixpoint rose_cut {A} (m : option nat) (t : rose A) : rose A :=
  match t with
  | Rose x ts => Rose x (match m with
                         | Some 0 => []
                         | Some (S m') => map (rose_cut (Some m')) ts
                         | None => map (rose_cut None) ts
                         end)
  end.

(** Height: the largest depth of a node. *)
Fixpoint rose_height {A} (t : rose A) : nat :=
  match t with Rose _ ts => list_max (map (fun t => S (rose_height t)) ts) end.

(** Nodes by depth, from depth [d] on, each tagged with its depth. *)
Definition level_order {A} (d : nat) (t : rose A) : list (A * nat) :=
  concat (map (fun d => map (fun x => (x, d)) (rose_level d t)) (seq d (S (rose_height t)))).
