(** * LooseSpec: two cursors that do not watch each other (C15). *)
From Verif Require Import IterSpec Spec.

(** One end goes through [lf], the other one through [lb], each on its own; as soon as one of them has come to the end, nothing more is returned at either. *)
Fixpoint loose {I} (lf lb : list I) (bs : list bool) : list (option I) :=
  match bs with
  | [] => []
  | b :: bs' =>
      match lf, lb with
      | x :: lf', y :: lb' => if b then Some x :: loose lf' lb bs' else Some y :: loose lf lb' bs'
      | _, _ => None :: loose lf lb bs'
      end
  end.
(** The iterator made by [start] behaves so, for every schedule of calls at both ends. *)
Definition loosely {S I} (start : run S) (nf nb : S -> run (option I * S)) (lf lb : list I) : Prop :=
  exists s, start = Ret s /\ forall bs, sched nf nb s bs = Ret (loose lf lb bs).

(** What is before either end after a schedule of calls. *)
Fixpoint loose_left {I} (lf lb : list I) (bs : list bool) : list I * list I :=
  match bs with
  | [] => (lf, lb)
  | b :: bs' =>
      match lf, lb with
      | x :: lf', y :: lb' => if b then loose_left lf' lb bs' else loose_left lf lb' bs'
      | _, _ => loose_left lf lb bs'
      end
  end.
(** The size hint is computed from the two items to be returned next: one item is left if they are the same, at least two otherwise. *)
Definition loose_hint {I} `{EqDecision I} (l : list I * list I) : nat * option nat :=
  match l with (x :: _, y :: _) => if decide (x = y) then (1, Some 1) else (2, None) | _ => (0, Some 0) end.
Definition hinted {S I} `{EqDecision I} (start : run S) (nf nb : S -> run (option I * S)) (hint : S -> nat * option nat) (lf lb : list I) : Prop :=
  exists s, start = Ret s /\ forall bs, exists s', after2 nf nb s bs = Ret s' /\ hint s' = loose_hint (loose_left lf lb bs).

(** What is left of [l] after a schedule of calls at both ends of a double-ended iterator that watches both. *)
Fixpoint deque_left {I} (l : list I) (bs : list bool) : list I :=
  match bs with
  | [] => l
  | true :: bs' => deque_left (tail l) bs'
  | false :: bs' => deque_left (take (length l - 1) l) bs'
  end.
