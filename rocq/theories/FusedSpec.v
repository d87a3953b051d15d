(** * FusedSpec: what it means for an iterator to be fused (C55).
    Specification only.  [std::iter::FusedIterator]: after a call has returned [None], every later call returns [None] too.
    Here: whatever happened to the trees in between, and for a double-ended iterator whichever end is asked. *)
From Verif Require Export Base.

(** An iterator over a heap: the methods [ns] take the heap and the state of the iterator; [hint] is its [size_hint]. *)
Definition fused {H S I : Type} (ns : list (H -> S -> run (option I * S))) (hint : S -> run (nat * option nat)) : Prop :=
  forall n h st st', n ∈ ns -> n h st = Ret (None, st') ->
    (forall m h2, m ∈ ns -> m h2 st' = Ret (None, st')) /\ hint st' = Ret (0, Some 0).

(** An iterator that owns handles: the methods also return the state of the program, which a call after the end leaves as it is. *)
Definition fused_h {H S I : Type} (ns : list (H -> S -> run (H * option I * S))) : Prop :=
  forall n h h' st st', n ∈ ns -> n h st = Ret (h', None, st') -> forall m h2, m ∈ ns -> m h2 st' = Ret (h2, None, st').
