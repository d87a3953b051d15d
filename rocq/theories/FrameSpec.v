(** * FrameSpec: two parties that share no handles (C49).

    The identities of nodes, trees and handles are numbers handed out one after the
    other.  [p n] tells which of two parties obtained the number [n]: it was handed
    out during a call made by that party. *)
From Verif Require Import Heap System SysSpec ApiSpec HIterSpec Spec.

Section FrameSpec.
Context {T : Type}.
Implicit Types (s : sys T) (p : nat -> bool) (b : bool).

(** What belongs to the party [b]: its nodes, trees and handles, exactly as they are. *)
Definition share p b s : sys T :=
  mkSys (filter (fun kv => p kv.1 = b) (s_nodes s)) (filter (fun kv => p kv.1 = b) (s_trees s))
        (filter (fun kv => p kv.1 = b) (s_hands s)) (s_fresh s).

(** The node record refers to the node or tree [y]. *)
Definition refers (nd : node T) (y : nat) : Prop :=
  n_parent nd = Some y \/ n_first nd = Some y \/ n_next nd = Some y \/ n_prev nd = Some y \/
  n_mem nd = MWeak (Some y) \/ exists rc lk, n_mem nd = MStrong y rc lk.

(** Nothing of one party refers to anything of the other one, not even weakly. *)
Record parted p s : Prop := {
  pt_nodes : forall (x : nid) nd y, s_nodes s !! x = Some nd -> refers nd y -> p y = p x;
  pt_trees : forall (t : tid) tr, s_trees s !! t = Some tr -> p (t_root tr) = p t;
  pt_hands : forall i hd, s_hands s !! i = Some hd -> p (hand_target hd) = p i;
}.

(** The call [o] uses handles of the party [b] only. *)
Definition call_of p b (o : op T) : Prop := forall i, i ∈ op_args o -> p i = b.
(** From now on, all new identities go to the party [b]. *)
Definition turn p s b : nat -> bool := fun n => if n <? s_fresh s then p n else b.

(** Any interleaving of calls of two parties, none of which ever uses a handle of the other. *)
Inductive parties : (nat -> bool) -> sys T -> Prop :=
| parties_init p : parties p init
| parties_step p s b o s' r : parties p s -> call_of p b o -> step s o = Ret (s', r) -> parties (turn p s b) s'.

(** The same, where the calls of the party [true] are safe ones, judged by its share alone.  Those of the
    party [false] are arbitrary: they may damage whatever that party has. *)
Inductive half_safe : (nat -> bool) -> sys T -> Prop :=
| half_init p : half_safe p init
| half_careful p s K o s' r : half_safe p s -> call_of p true o -> stores (share p true s) K -> safe (share p true s) K o ->
    step s o = Ret (s', r) -> half_safe (turn p s true) s'
| half_careless p s o s' r : half_safe p s -> call_of p false o -> step s o = Ret (s', r) -> half_safe (turn p s false) s'.

(** The rest of the state is as it was, but for the counter of identities. *)
Definition untouched s u : Prop := s_nodes u = s_nodes s /\ s_trees u = s_trees s /\ s_hands u = s_hands s.
End FrameSpec.
