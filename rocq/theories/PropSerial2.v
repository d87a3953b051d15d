(** * PropSerial2: trees built from depth-first traversal events (C38) and by the
    macros (C39).  See SerialSpec.v for [builds], [builds_as], [unaffected],
    Serial2Spec.v for [written_root]. *)
From Verif Require Import Heap Edit System SysSpec ApiSpec ApiFacts Serial2Spec EqFacts SerFacts BracketFacts BuildFacts8 BuildFacts10 BuildFacts11 IterFacts RoseFacts ApiFacts3 Demo Examples PropSerial Spec.

(** ** C38 *)
(** Collecting the events of a depth-first traversal of a node into a [Result]:
    success exactly if no node of the subtree is mutably borrowed, and then a new
    tree with the same shape and data, nothing else changed; otherwise a
    [BorrowData] error and no trace. *)
Theorem C38_collect : forall (T : Type) (s : sys T) K x t, reach s -> stores s K -> shape K x t ->
  exists s' o, collect_dfts s x = Ret (s', o) /\
  match o with
  | inl i => (forall y, y ∈ rose_nodes t -> ~ borrowed (s_nodes s) y) /\ exists td, data_tree (s_nodes s) t td /\ builds s s' i td
  | inr e => e = BorrowData /\ (exists y, y ∈ rose_nodes t /\ borrowed (s_nodes s) y) /\ unaffected s s'
  end.
Proof. exact @collect_dfts_ok. Qed.
Print Assumptions C38_collect.
(** The new tree compares equal with the original. *)
Theorem C38_equal : forall (T : Type) (eqb : T -> T -> bool) (s : sys T) K x t s' i, (forall d, eqb d d = true) ->
  reach s -> stores s K -> shape K x t -> collect_dfts s x = Ret (s', inl i) ->
  exists n, s_hands s' !! i = Some (HNode Plain n) /\ n <> x /\
    try_eq eqb (s_nodes s') x n = Ret (Some true) /\ try_eq eqb (s_nodes s') n x = Ret (Some true).
Proof.
  intros T eqb s K x t s' i He R Hst Hs E. destruct (collect_dfts_ok s K x t R Hst Hs) as (s2 & o & E2 & H).
  rewrite E in E2. injection E2 as <- <-. destruct H as (Hb & td & Htd & B).
  destruct (copy_equal eqb s K s' i td x t _ He Hst Hs Htd Hb B) as (n & u & Hi & _ & Hn & E1 & E3). exists n. auto.
Qed.
Print Assumptions C38_equal.
Example C38_nonvacuous : reach demo /\ stores demo demoK /\ shape demoK 4 sh4 /\
  match collect_dfts demo 4 with
  | Ret (s', inl i) => s_hands s' !! i = Some (HNode Plain 22) /\ forest_of (s_nodes s') !! 22 = Some [27; 30] /\
      payload s' 27 = Some (110, Lent 0) /\ payload s' 30 = Some (112, Lent 0)
  | _ => False end.
Proof. split; [exact demo_reach|]. split; [exact demo_stores|]. split; [exact demo_sh4|]. vm_compute. done. Qed.
(** With a node of the subtree mutably borrowed. *)
Example C38_nonvacuous_borrowed : let sb := after (demo_ops ++ [OpBorrow 13 TakeMut]) in
  reach sb /\ stores sb (forest_of (s_nodes sb)) /\ shape (forest_of (s_nodes sb)) 4 sh4 /\ borrowed (s_nodes sb) 12 /\
  match collect_dfts sb 4 with Ret (s', inr BorrowData) => s_nodes s' !! 22 = None /\ s_trees s' !! 23 = None | _ => False end.
Proof.
  split; [apply after_reach|]. split; [apply after_stores|]. split; [repeat (constructor; try (vm_compute; reflexivity))|].
  split; [|vm_compute; done]. eexists. split; vm_compute; reflexivity.
Qed.

(** ** C39 *)
(** [tree_node!] gives a [Node] on the root of a new tree that is exactly the
    written one; nothing else changes; it never panics. *)
Theorem C39_tree_node_macro : forall (T : Type) (s : sys T) d (l : option (list (item T))), reach s ->
  exists s' i, tree_node_macro s d l = Ret (s', i) /\ builds s s' i (written_root d l).
Proof. exact @tree_node_macro_ok. Qed.
Print Assumptions C39_tree_node_macro.
(** [tree!] gives the [Tree] of it. *)
Theorem C39_tree_macro : forall (T : Type) (s : sys T) d (l : option (list (item T))), reach s ->
  exists s' j, tree_macro s d l = Ret (s', j) /\ builds_as (fun _ u => HTree u) s s' j (written_root d l).
Proof. exact @tree_macro_ok. Qed.
Print Assumptions C39_tree_macro.
(** The example of the documentation (macros.rs:34-58). *)
Definition written_example : list (item nat) := [ILeaf 1; INode 2 [ILeaf 3; ILeaf 4]; ILeaf 5].
Example C39_nonvacuous : reach demo /\
  written_root 0 (Some written_example) = Rose 0 [Rose 1 []; Rose 2 [Rose 3 []; Rose 4 []]; Rose 5 []] /\
  match tree_node_macro demo 0 (Some written_example) with
  | Ret (s', i) => match s_hands s' !! i with
      | Some (HNode Plain n) => match forest_of (s_nodes s') !! n with
          | Some [a; b; c] => forest_of (s_nodes s') !! a = Some [] /\ payload s' b = Some (2, Lent 0) /\
              match forest_of (s_nodes s') !! b with Some [e; f] => payload s' e = Some (3, Lent 0) | _ => False end
          | _ => False end
      | _ => False end
  | _ => False end.
Proof. split; [exact demo_reach|]. vm_compute. done. Qed.
