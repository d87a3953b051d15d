(** * DropSpec: what is left when several handles have been dropped. *)
From Verif Require Export ApiSpec Spec.

Section DropSpec.
Context {T : Type}.
Implicit Types (s : sys T) (K : forest).

(** [s'] is [s] without the handles in [l]: the trees some other handle keeps are exactly as they were, the others
    are deallocated with all their nodes. *)
Record released s K (l : list nat) s' : Prop := {
  rl_hands : forall j, s_hands s' !! j = if decide (j ∈ l) then None else s_hands s !! j;
  rl_links : exists K', stores s' K' /\ only (fun y => exists t, tree_of s y = Some t /\ tree_held s (s_hands s') t) K K';
  rl_kept : forall y t, tree_of s y = Some t -> tree_held s (s_hands s') t -> payload s' y = payload s y /\ tree_of s' y = Some t;
  rl_roots : forall t, tree_held s (s_hands s') t -> t_root <$> s_trees s' !! t = t_root <$> s_trees s !! t;
  rl_freed : forall t, ~ tree_held s (s_hands s') t -> s_trees s' !! t = None /\ forall y, tree_of s y = Some t -> s_nodes s' !! y = None;
}.
End DropSpec.
