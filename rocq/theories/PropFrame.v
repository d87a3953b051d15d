(** * PropFrame: parties that share no handles do not notice each other (C49).

    [parties p s] (FrameSpec.v): the state [s] is reached by any interleaving of calls of two parties,
    with no restriction on the calls but that neither party uses a handle the other one obtained; [p n] says
    who obtained the identity [n].  With more than two parties, take one of them and all the rest. *)
From Verif Require Import Heap System HIterSpec SysSpec ApiSpec ApiFacts2 ApiFacts3 ApiFacts10 FrameSpec FrameFacts FrameFacts2 Demo Spec.

(** Nothing of one party ever refers to anything of the other: its nodes are in its own trees, next to its own nodes. *)
Theorem C49_separate : forall (T : Type) (p : nat -> bool) (s : sys T), parties p s -> parted p s.
Proof. intros T p s H. exact (proj1 (parties_two p s H)). Qed.
Print Assumptions C49_separate.
(** No call, not even one that damages links, changes anything that belongs to the other party:
    no node (links, data, loans, reference counts), no tree (root, locks), no handle. *)
Theorem C49_undisturbed : forall (T : Type) (p : nat -> bool) (s : sys T) (b : bool) (o : op T) (s' : sys T) (r : out T),
  parties p s -> call_of p b o -> step s o = Ret (s', r) ->
  untouched (share p (negb b) s) (share (turn p s b) (negb b) s').
Proof.
  intros T p s b o s' r H C E. destruct (parties_two p s H) as [P B]. destruct (sep_step p s b o P B C) as [A _].
  exact (proj2 (proj2 (proj2 (A _ E)))).
Qed.
Print Assumptions C49_undisturbed.
(** And no call depends on what belongs to the other party: if it returns or panics where the other party does
    not exist, it does so here, with the same answer and the same effect on the party's own share. *)
Theorem C49_alone : forall (T : Type) (p : nat -> bool) (s : sys T) (b : bool) (o : op T), parties p s -> call_of p b o ->
  match step (share p b s) o with
  | Ret (u, r) => exists s', step s o = Ret (s', r) /\ u = share (turn p s b) b s'
  | Panic => step s o = Panic
  | NoFuel => True
  end.
Proof.
  intros T p s b o H C. destruct (parties_two p s H) as [P B]. destruct (sep_step p s b o P B C) as [_ [A|A]]; rewrite A; [exact Logic.I|].
  destruct (step s o) as [[s' r]| |] eqn:E; cbn [ronr fst snd]; [exists s'; split; reflexivity|reflexivity|exact Logic.I].
Qed.
Print Assumptions C49_alone.
(** However much damage one party does to its own trees ([half_safe]): if the calls of the other one are safe,
    what belongs to it is what a program could have that runs alone and makes safe calls only.  So all the
    theorems about such programs hold for it. *)
Theorem C49_confined : forall (T : Type) (p : nat -> bool) (s : sys T), half_safe p s -> reach (share p true s).
Proof. exact @half_reach. Qed.
Print Assumptions C49_confined.
(** In particular its next safe call returns, or panics as documented, and has the documented effect. *)
Theorem C49_confined_effect : forall (T : Type) (p : nat -> bool) (s : sys T) (K : forest) (o : op T),
  half_safe p s -> call_of p true o -> stores (share p true s) K -> safe (share p true s) K o -> well_typed (share p true s) o ->
  (step s o = Panic <-> must_panic (share p true s) o) /\
  (~ must_panic (share p true s) o -> exists s' r, step s o = Ret (s', r) /\
     half_safe (turn p s true) s' /\ effect (share p true s) K o (share (turn p s true) true s') r).
Proof.
  intros T p s K o H C Hst Hs W. pose proof (half_reach p s H) as R. pose proof (C49_alone T p s true o (half_parties p s H) C) as A.
  destruct (panic_iff _ K o R Hst Hs) as [Pi Nf]. split.
  - split; intros M.
    + destruct (step (share p true s) o) as [[u r]| |] eqn:E; [|by apply Pi|done]. destruct A as (s' & A & _). rewrite M in A. discriminate A.
    + rewrite (proj2 Pi (conj M W)) in A. exact A.
  - intros M. destruct (reach_effect _ K o R Hst Hs W M) as (u & r & E & _ & F). rewrite E in A. destruct A as (s' & A & ->).
    exists s', r. split; [exact A|]. split; [exact (half_careful p s K o s' r H C Hst Hs A)|exact F].
Qed.
Print Assumptions C49_confined_effect.

(** ** Two parties at work *)
Fixpoint two_steps (p : nat -> bool) (s : sys nat) (os : list (bool * op nat)) : option ((nat -> bool) * sys nat) :=
  match os with
  | [] => Some (p, s)
  | (b, o) :: os' =>
      if forallb (fun i => eqb (p i) b) (op_args o) && (negb b || safe_b (share p true s) o) then
        match step s o with Ret (s1, _) => two_steps (turn p s b) s1 os' | _ => None end
      else None
  end.
Lemma two_steps_ok os : forall p s q u, half_safe p s -> two_steps p s os = Some (q, u) -> half_safe q u.
Proof.
  induction os as [|[b o] os IH]; intros p s q u H E; cbn [two_steps] in E.
  { apply Some_inj in E. injection E as <- <-. exact H. }
  destruct (forallb _ _ && _) eqn:G; [|discriminate E]. apply andb_true_iff in G as [G1 G2].
  destruct (step s o) as [[s1 r]| |] eqn:Es; try discriminate E.
  assert (call_of p b o) as C. { intros i Hi. rewrite forallb_forall in G1. apply eqb_prop, G1, elem_of_list_In, Hi. }
  eapply IH; [|exact E]. destruct b.
  - destruct (reach_stores _ (half_reach p s H)) as [K HK]. cbn in G2. eapply half_careful; [exact H|exact C|exact HK|by apply safe_b_ok|exact Es].
  - eapply half_careless; [exact H|exact C|exact Es].
Qed.
(** Party [false] has the tree 4 -> [8; 12; 16], damages it by detaching 16, and creates 19 there: 16, now in a tree of
    its own, is the previous sibling of 19.  Meanwhile party [true] builds 0 -> [10; 14] in its own tree. *)
Definition duo_ops : list (bool * op nat) :=
  [ (true, OpNewTree 100); (true, OpBundle Hot 2); (false, OpNewTree 104); (false, OpBundle Hot 6);
    (false, OpCreate (ByHot 7) 108 ALastChild); (true, OpCreate (ByHot 3) 110 ALastChild); (false, OpCreate (ByHot 7) 112 ALastChild);
    (true, OpCreate (ByHot 3) 114 ALastChild); (false, OpCreate (ByHot 7) 116 ALastChild); (false, OpDetach (ByHot 17));
    (false, OpCreate (ByHot 7) 119 ALastChild) ].
Definition duo : (nat -> bool) * sys nat := match two_steps (fun _ => true) init duo_ops with Some r => r | None => (fun _ => true, init) end.
Lemma duo_half : half_safe duo.1 duo.2.
Proof.
  unfold duo. destruct (two_steps _ init duo_ops) as [[q u]|] eqn:E; [|exact (half_init _)].
  exact (two_steps_ok duo_ops _ init q u (half_init _) E).
Qed.
Example C49_nonvacuous : half_safe duo.1 duo.2 /\ parties duo.1 duo.2 /\
  fprev (s_nodes duo.2) 19 = Some 16 /\ tree_of duo.2 19 = Some 5 /\ tree_of duo.2 16 = Some 18 /\
  (* a safe call of the careful party, and a damaging one of the careless party *)
  call_of (T := nat) duo.1 true (OpDetach (ByHot 11)) /\ safe_b (share duo.1 true duo.2) (OpDetach (ByHot 11)) = true /\
  nxt_out duo.2 (OpDetach (ByHot 11)) = OutUnit /\ nxt_out (share duo.1 true duo.2) (OpDetach (ByHot 11)) = OutUnit /\
  call_of (T := nat) duo.1 false (OpDetach (ByHot 20)) /\ nxt_out duo.2 (OpDetach (ByHot 20)) = OutUnit /\
  size (s_nodes (share duo.1 true duo.2)) = 3 /\ size (s_nodes duo.2) = 8 /\
  (* the careful party cannot use a handle of the other one *)
  ~ call_of (T := nat) duo.1 true (OpDrop 20).
Proof.
  split; [exact duo_half|]. split; [exact (half_parties _ _ duo_half)|]. split; [by vm_compute|]. split; [by vm_compute|]. split; [by vm_compute|].
  split; [intros i Hi; cbn in Hi; apply elem_of_list_singleton in Hi as ->; by vm_compute|]. split; [by vm_compute|]. split; [by vm_compute|]. split; [by vm_compute|].
  split; [intros i Hi; cbn in Hi; apply elem_of_list_singleton in Hi as ->; by vm_compute|]. split; [by vm_compute|]. split; [by vm_compute|]. split; [by vm_compute|].
  intros H. specialize (H 20 ltac:(cbn; set_solver)). vm_compute in H. discriminate H.
Qed.
