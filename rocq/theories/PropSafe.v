(** * PropSafe: which calls damage the structure (C48); what also the damaging ones respect (C26, C36, C37).

    The theorems named [_partial] are about [reach], the states reached by calls that are [safe].  Here the same
    states are described without naming any call: they are those of the histories in which the links have
    always formed a forest agreeing with the tree cores.  So nothing more than necessary is excluded. *)
From Verif Require Import Heap System SysSpec ApiSpec SafeSpec SafeExact AsideSpec EveryFacts ApiFacts2 ApiFacts3 Demo PropLock PropMisled PropMove PropLife Spec.

(** In a state of a sound history a call that returns leaves the structure undamaged exactly if it is not one of the listed ones. *)
Theorem C48_damage_iff : forall (T : Type) (s : sys T) (K : forest) (o : op T) (u : sys T) (r : out T),
  sound s -> stores s K -> step s o = Ret (u, r) -> (undamaged u <-> ~ damaging s K o).
Proof. exact @sound_damage. Qed.
Print Assumptions C48_damage_iff.
(** The listed calls do return - they neither panic nor run for ever - and have done damage. *)
Theorem C48_damaging_returns : forall (T : Type) (s : sys T) (K : forest) (o : op T),
  sound s -> stores s K -> damaging s K o -> exists (u : sys T) (r : out T), step s o = Ret (u, r) /\ ~ undamaged u.
Proof. exact @sound_runs. Qed.
Print Assumptions C48_damaging_returns.
(** As long as no damage is done, everything else is in order, too: handles, reference counts and locks ([inv]). *)
Theorem C48_sound_consistent : forall (T : Type) (s : sys T), sound s -> exists K : forest, inv s K.
Proof. exact @sound_inv. Qed.
Print Assumptions C48_sound_consistent.
(** The histories the other theorems are about. *)
Theorem C48_reach_iff : forall (T : Type) (s : sys T), reach s <-> sound s.
Proof. exact @reach_sound. Qed.
Print Assumptions C48_reach_iff.

Example C48_nonvacuous : sound demo /\ stores demo demoK /\
  damaging demo demoK (OpDetach (ByHot 9)) /\ damaging demo demoK (OpMove (ByHot 5) ALastChild 13) /\ damaging demo demoK (OpMove (ByHot 19) AFirstChild 7) /\
  ~ damaging demo demoK (OpDetach (ByHot 5)) /\ match step demo (OpDetach (ByHot 5)) with Ret (_, OutUnit) => true | _ => false end = true.
Proof.
  split; [apply reach_sound; exact demo_reach|]. split; [exact demo_stores|]. split.
  { exists Hot, 8. destruct C07_last_nonvacuous as (_ & _ & A & B & C). split; [exact A|]. split; [|exact C]. exists 0, [4; 6; 8]. split; [exact B|]. done. }
  split.
  { exists Hot, 4, 12. split; [split; [done|by vm_compute]|]. split; [by vm_compute|]. left. split; [exists 0, [4; 6; 8]; split; [by vm_compute|set_solver]|].
    right. left. econstructor; [constructor|]. exists [10; 12]. split; [by vm_compute|set_solver]. }
  split.
  { exists Hot, 16, 6. split; [split; [done|by vm_compute]|]. split; [by vm_compute|]. right. split; [apply top_b_ok; by vm_compute|]. split; [by vm_compute|].
    left. by vm_compute. }
  split; [|by vm_compute].
  intros (k & x & [_ Hx] & (q & ks & Hq & Hl & Hh) & _). assert (x = 4) as ->. { assert (s_hands demo !! 5 = Some (HNode Hot 4)) as E by (by vm_compute). congruence. }
  assert (child_of demoK q 4) as Hc. { exists ks. split; [exact Hq|]. by apply NavFacts.elem_of_last. }
  assert (q = 0) as ->. { apply (wf_uniq _ (proj2 demo_stores) q 0 4 Hc). exists [4; 6; 8]. split; [by vm_compute|]. apply elem_of_list_here. }
  assert (demoK !! 0 = Some [4; 6; 8]) as E by (by vm_compute). pose proof (Some_inj _ _ (eq_trans (eq_sym Hq) E)) as Z. rewrite Z in Hl. discriminate Hl.
Qed.

(** ** C36, for every call in a reachable state, also the damaging ones
    Not covered: calls made after damage has been done. *)
Theorem C36_every_call_partial : forall (T : Type) (s : sys T) (o : op T) (u : sys T) (r : out T) (v : tid),
  reach s -> step s o = Ret (u, r) -> is_Some (s_trees s !! v) -> ~ touches s o v -> aside s v u.
Proof. exact @aside_every. Qed.
Print Assumptions C36_every_call_partial.
(** ** C26: a tree with a living prohibition or frozen handle *)
Theorem C26_every_call_partial : forall (T : Type) (s : sys T) (o : op T) (u : sys T) (r : out T) (v : tid),
  reach s -> step s o = Ret (u, r) -> is_Some (s_trees s !! v) -> some_lock s Frozen v -> aside s v u.
Proof. exact @frozen_every. Qed.
Print Assumptions C26_every_call_partial.
(** ** C37: panics, for every call in a reachable state *)
Theorem C37_every_call_partial : forall (T : Type) (s : sys T) (o : op T), reach s ->
  (step s o = Panic <-> must_panic s o /\ well_typed s o) /\ step s o <> NoFuel.
Proof. exact @panic_every. Qed.
Print Assumptions C37_every_call_partial.

(** A damaging call beside a frozen tree of two nodes; it does touch its own tree. *)
Example C36_every_nonvacuous : reach frozen_demo /\ some_lock frozen_demo Frozen 23 /\ is_Some (s_trees frozen_demo !! 23) /\
  tree_of frozen_demo 26 = Some 23 /\ fparent (s_nodes frozen_demo) 26 = Some 22 /\
  match step frozen_demo (OpDetach (ByHot 9)) with Ret (u, OutUnit) => bool_decide (fnext (s_nodes u) 6 = None /\ fprev (s_nodes u) 4 = Some 8 /\ fparent (s_nodes u) 8 = None) | _ => false end = true /\
  ~ touches frozen_demo (OpDetach (ByHot 9)) 23 /\ touches frozen_demo (OpDetach (ByHot 9)) 1 /\ last_not_first frozenK 8.
Proof.
  split; [exact frozen_reach|]. split; [left; exists 31; split; [done|by vm_compute]|]. split; [vm_compute; eauto|].
  split; [by vm_compute|]. split; [by vm_compute|]. split; [by vm_compute|]. split; [|split].
  - intros (k & x & [-> Hx] & E). assert (s_hands frozen_demo !! 9 = Some (HNode Hot 8)) as Z by (by vm_compute). assert (x = 8) as -> by congruence.
    assert (tree_of frozen_demo 8 = Some 1) as Z2 by (by vm_compute). congruence.
  - exists Hot, 8. split; [split; [done|by vm_compute]|by vm_compute].
  - exists 0, [4; 6; 8]. split; [by vm_compute|]. done.
Qed.

(** ** After damage neither holds any more. *)
(** C36: the last child 8 of 0 is detached and becomes the root of a tree of its own; appending a child to 0 then writes a link of 8. *)
Theorem C36_refuted : exists (os : list (op nat)) (s : sys nat) (rs : list (out nat)) (o : op nat) (u : sys nat) (r : out nat) (v : tid) (x : nid),
  steps init os = Ret (s, rs) /\ step s o = Ret (u, r) /\ is_Some (s_trees s !! v) /\ ~ touches s o v /\
  tree_of s x = Some v /\ next_sibling_link (s_nodes s) x = None /\ is_Some (next_sibling_link (s_nodes u) x).
Proof.
  pose (os := demo_ops ++ [OpDetach (ByHot 9)]). pose (o := OpCreate (ByHot 3) 125 ALastChild : op nat).
  exists os, (ran os), (outs os), o, (nxt (ran os) o), (nxt_out (ran os) o), 22, 8.
  split; [apply ran_ok; by vm_compute|]. split; [apply nxt_ok; by vm_compute|]. split; [vm_compute; eauto|]. split.
  - intros (k & x & [-> Hx] & E). assert (s_hands (ran os) !! 3 = Some (HNode Hot 0)) as Z by (by vm_compute). assert (x = 0) as -> by congruence.
    assert (tree_of (ran os) 0 = Some 1) as Z2 by (by vm_compute). congruence.
  - split; [by vm_compute|]. split; [by vm_compute|]. vm_compute. eauto.
Qed.
Print Assumptions C36_refuted.
(** C37: a panic nobody asked for. *)
Theorem C37_refuted : exists (os : list (op nat)) (s : sys nat) (rs : list (out nat)) (o : op nat),
  steps init os = Ret (s, rs) /\ well_typed s o /\ ~ must_panic s o /\ step s o = Panic.
Proof.
  exists PropLife.leak_ops, (ran PropLife.leak_ops), (outs PropLife.leak_ops), (OpUpgrade 9). split; [apply ran_ok; by vm_compute|].
  split; [|split; [exact (fun F => F)|by vm_compute]]. left. exists 6. by vm_compute.
Qed.
Print Assumptions C37_refuted.
