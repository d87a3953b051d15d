(** * PropMisled: what the calls excluded from C06, C07, C08 and C10 do instead.

    [x] is the last of several siblings [f :: m ++ [x]] below [p].  Detaching it, removing it
    (when childless) or moving it away has the effect promised, except that afterwards
    the previous-sibling link of the first remaining sibling still names [x]
    ([misled]).  [misled_answers] says what each accessor then returns.  If the tree that [x]
    left is deallocated in the same call ([alone]), nothing is wrong; otherwise the
    links form no forest any more. *)
From Verif Require Import Heap Edit System SysSpec ApiSpec HeapFacts MisledSpec Misled8 NavFacts2 ApiFacts ApiFacts2 ApiFacts3 Demo Spec.

Theorem C07_last_exact : forall (T : Type) (s : sys T) K a k x p f m,
  reach s -> stores s K -> receiver s a k x -> K !! p = Some (f :: m ++ [x]) ->
  exists s' g t t' K2, step s (OpDetach a) = Ret (s', OutUnit) /\ tree_of s x = Some t /\
    splits s (<[p := f :: m]> K) x t t' g K2 /\ (forall tr, shape K x tr -> shape K2 x tr) /\
    misled g f x s' /\ misled_answers g K2 f x s' /\
    (alone s K x -> s' = g) /\ (~ alone s K x -> K2 = <[p := f :: m]> K /\ forall K', ~ stores s' K').
Proof. exact @detach_exact. Qed.
Print Assumptions C07_last_exact.
Example C07_last_nonvacuous : reach demo /\ stores demo demoK /\ receiver demo (ByHot 9) Hot 8 /\
  demoK !! 0 = Some (4 :: [6] ++ [8]) /\ ~ alone demo demoK 8.
Proof.
  split; [exact demo_reach|]. split; [exact demo_stores|]. split; [by vm_compute|]. split; [by vm_compute|].
  intros A. destruct (A 1 ltac:(by vm_compute)) as [_ B]. pose proof (B 3 Hot 0 ltac:(by vm_compute) ltac:(by vm_compute)) as C. revert C.
  apply (not_above_ok 20 (s_nodes demo)); [apply demo_stores|by vm_compute].
Qed.

(** Both cases occur: here only 8 and its child are held, and the rest goes away. *)
Definition held8 := after (demo_ops ++ [OpDrop 3; OpDrop 5; OpDrop 7; OpDrop 11; OpDrop 13]).
Example C07_last_alone_nonvacuous : reach held8 /\ stores held8 (forest_of (s_nodes held8)) /\ receiver held8 (ByHot 9) Hot 8 /\
  forest_of (s_nodes held8) !! 0 = Some (4 :: [6] ++ [8]) /\ alone held8 (forest_of (s_nodes held8)) 8.
Proof.
  split; [apply after_reach|]. split; [apply after_stores|]. split; [by vm_compute|]. split; [by vm_compute|].
  intros t Et. assert (t = 1) as ->. { vm_compute in Et. congruence. } clear Et.
  assert (map_to_list (s_hands held8) = [(15, HNode Hot 14); (19, HNode Hot 16); (9, HNode Hot 8); (21, HNode Hot 20)]) as A by (by vm_compute).
  assert (forall i hd, s_hands held8 !! i = Some hd -> hd = HNode Hot 14 \/ hd = HNode Hot 16 \/ hd = HNode Hot 8 \/ hd = HNode Hot 20) as B.
  { intros i hd Hi. apply elem_of_map_to_list in Hi. rewrite A in Hi. clear -Hi. set_solver. }
  split.
  - intros i Hi. destruct (B i _ Hi) as [C|[C|[C|C]]]; discriminate C.
  - intros i k y Hi Hy. destruct (B i _ Hi) as [C|[C|[C|C]]]; injection C as -> ->.
    + econstructor; [constructor|]. exists [14]. split; [by vm_compute|]. by apply elem_of_list_singleton.
    + exfalso. assert (bool_decide (tree_of held8 16 = Some 1) = false) as D by (by vm_compute). apply bool_decide_eq_false in D. exact (D Hy).
    + constructor.
    + exfalso. assert (bool_decide (tree_of held8 20 = Some 1) = false) as D by (by vm_compute). apply bool_decide_eq_false in D. exact (D Hy).
Qed.

Theorem C06_last_exact : forall (T : Type) (s : sys T) K a k x p f m,
  reach s -> stores s K -> receiver s a k x -> K !! p = Some (f :: m ++ [x]) -> K !! x = Some [] ->
  exists s' g t t' K2, step s (OpReplace a) = Ret (s', OutUnit) /\ tree_of s x = Some t /\
    splits s (<[p := f :: m]> K) x t t' g K2 /\ misled g f x s' /\ misled_answers g K2 f x s' /\
    (alone s K x -> s' = g) /\ (~ alone s K x -> K2 = <[p := f :: m]> K /\ forall K', ~ stores s' K').
Proof. exact @replace_exact. Qed.
Print Assumptions C06_last_exact.
Example C06_last_nonvacuous : reach demo /\ stores demo demoK /\ receiver demo (ByHot 13) Hot 12 /\
  demoK !! 4 = Some (10 :: [] ++ [12]) /\ demoK !! 12 = Some [].
Proof. split; [exact demo_reach|]. split; [exact demo_stores|]. split; [by vm_compute|]. split; by vm_compute. Qed.

Theorem C10_last_exact : forall (T : Type) (s : sys T) K a k x ad j y p f m,
  reach s -> stores s K -> receiver s a k x -> s_hands s !! j = Some (HNode Hot y) ->
  K !! p = Some (f :: m ++ [x]) -> tree_of s x <> tree_of s y -> has_place K ad y ->
  exists s' g t t' K2 K3, step s (OpMove a ad j) = Ret (s', OutUnit) /\ tree_of s x = Some t /\ tree_of s y = Some t' /\
    carries s (<[p := f :: m]> K) x t t' g K2 /\ attached K2 x (dest_of ad y) K3 /\ stores g K3 /\
    (forall tr, shape K x tr -> shape K3 x tr) /\ misled g f x s' /\ misled_answers g K3 f x s' /\
    (alone s K x -> s' = g) /\ (~ alone s K x -> K2 = <[p := f :: m]> K /\ forall K', ~ stores s' K').
Proof. exact @move_other_exact. Qed.
Print Assumptions C10_last_exact.
Example C10_last_nonvacuous : reach demo /\ stores demo demoK /\ receiver demo (ByHot 9) Hot 8 /\ s_hands demo !! 21 = Some (HNode Hot 20) /\
  demoK !! 0 = Some (4 :: [6] ++ [8]) /\ tree_of demo 8 <> tree_of demo 20 /\ has_place demoK APreviousSibling 20.
Proof.
  split; [exact demo_reach|]. split; [exact demo_stores|]. split; [by vm_compute|]. split; [by vm_compute|]. split; [by vm_compute|].
  split; [by vm_compute|]. apply kid_b_ok; by vm_compute.
Qed.

(** Inside the same tree; [f'] is the new first child of [p]. *)
Theorem C08_last_exact_partial : forall (T : Type) (s : sys T) K a k x ad j y p f m,
  reach s -> stores s K -> receiver s a k x -> s_hands s !! j = Some (HNode Hot y) ->
  K !! p = Some (f :: m ++ [x]) -> tree_of s x = tree_of s y -> ~ below K x y -> has_place K ad y ->
  exists K' ks', moved K x (dest_of ad y) K' /\ K' !! p = Some ks' /\ (forall tr, shape K x tr -> shape K' x tr) /\
  (last ks' <> Some x ->
   exists s' g f', step s (OpMove a ad j) = Ret (s', OutUnit) /\ head ks' = Some f' /\ reshapes s g K' /\
    misled g f' x s' /\ misled_answers g K' f' x s' /\ forall K'', ~ stores s' K'').
Proof. exact @move_same_exact. Qed.
Print Assumptions C08_last_exact_partial.
Example C08_last_nonvacuous : reach demo /\ stores demo demoK /\ receiver demo (ByHot 9) Hot 8 /\ s_hands demo !! 5 = Some (HNode Hot 4) /\
  demoK !! 0 = Some (4 :: [6] ++ [8]) /\ tree_of demo 8 = tree_of demo 4 /\ ~ below demoK 8 4 /\ has_place demoK AFirstChild 4.
Proof.
  split; [exact demo_reach|]. split; [exact demo_stores|]. split; [by vm_compute|]. split; [by vm_compute|]. split; [by vm_compute|].
  split; [by vm_compute|]. split; [apply (not_above_ok 20 (s_nodes demo)); [apply demo_stores|by vm_compute]|exact Logic.I].
Qed.

(** The case left out, moving the last child to the last place below its own parent, a no-op
    for a user: the node becomes its own next sibling, is not among the children any
    more, and is never deallocated. *)
Theorem C08_last_place_refuted : exists (s : sys nat) K a k x j p ks s',
  reach s /\ stores s K /\ receiver s a k x /\ s_hands s !! j = Some (HNode Hot p) /\ K !! p = Some ks /\ last ks = Some x /\
  step s (OpMove a ALastChild j) = Ret (s', OutUnit) /\ next_sibling_link (s_nodes s') x = Some x /\
  (forall c, c ∈ removelast ks -> next_sibling_link (s_nodes s') c <> Some x).
Proof.
  exists demo, demoK, (ByHot 9), Hot, 8, 3, 0, [4; 6; 8], (nxt demo (OpMove (ByHot 9) ALastChild 3)).
  split; [exact demo_reach|]. split; [exact demo_stores|]. split; [by vm_compute|]. split; [by vm_compute|]. split; [by vm_compute|].
  split; [by vm_compute|]. split; [apply nxt_ok; by vm_compute|]. split; [by vm_compute|].
  intros c Hc. simpl in Hc. apply elem_of_cons in Hc as [->|Hc]; [by vm_compute|]. apply elem_of_list_singleton in Hc as ->. by vm_compute.
Qed.
Print Assumptions C08_last_place_refuted.

Theorem C28_last_place_refuted : exists (os : list (op nat)) s rs,
  steps init os = Ret (s, rs) /\ s_hands s = ∅ /\ exists x, is_Some (s_nodes s !! x).
Proof.
  pose (os := demo_ops ++ [OpMove (ByHot 9) ALastChild 3; OpDrop 3; OpDrop 5; OpDrop 7; OpDrop 9; OpDrop 11; OpDrop 13; OpDrop 15; OpDrop 19; OpDrop 21]).
  exists os, (ran os), (outs os). split; [apply ran_ok; by vm_compute|]. split; [apply map_to_list_empty_iff; by vm_compute|].
  exists 8. apply alive_spec. by vm_compute.
Qed.
Print Assumptions C28_last_place_refuted.
