(** * PropDoc: edits of trees are edits of their documents (C58).

    [reads s r E]: the depth-first traversal from [r] gives the events [E].  The theorems say what every edit
    does to the document of every node [r] of every tree; DocSpec.v. *)
From Verif Require Import Heap Traverse System SysSpec ApiSpec IterSpec IterFacts DocSpec DocFacts DocFacts2 DocFacts3 DocFacts4 Demo Examples Spec.

Theorem C58_create : forall (T : Type) (s : sys T) a k x d ad s' i, reach s -> receiver s a k x -> step s (OpCreate a d ad) = Ret (s', OutHandle i) ->
  exists n, s_hands s' !! i = Some (HNode k n) /\ s_nodes s !! n = None /\ payload s' n = Some (d, Lent 0) /\ reads s' n [Open n; Close n] /\
    forall r E, is_Some (s_nodes s !! r) -> reads s r E -> exists E', pasted [Open n; Close n] x E ad E' /\ reads s' r E'.
Proof. exact @doc_create. Qed.
Print Assumptions C58_create.

Theorem C58_interrupt_parent : forall (T : Type) (s : sys T) a k x d, reach s -> receiver s a k x ->
  exists s' n i, step s (OpInterruptParent a d) = Ret (s', OutHandle i) /\ s_hands s' !! i = Some (HNode k n) /\ s_nodes s !! n = None /\ payload s' n = Some (d, Lent 0) /\
    (forall E, reads s x E -> reads s' n (Open n :: E ++ [Close n])) /\
    forall r E, is_Some (s_nodes s !! r) -> reads s r E -> exists E', wrapped n x E E' /\ reads s' r E'.
Proof. exact @doc_wrap. Qed.
Print Assumptions C58_interrupt_parent.

Theorem C58_interrupt_child : forall (T : Type) (s : sys T) a k x d, reach s -> receiver s a k x ->
  exists s' n i, step s (OpInterruptChild a d) = Ret (s', OutHandle i) /\ s_hands s' !! i = Some (HNode k n) /\ s_nodes s !! n = None /\ payload s' n = Some (d, Lent 0) /\
    (forall M, reads s x (Open x :: M ++ [Close x]) -> reads s' n (Open n :: M ++ [Close n])) /\
    forall r E, is_Some (s_nodes s !! r) -> reads s r E -> exists E', lined n x E E' /\ reads s' r E'.
Proof. exact @doc_line. Qed.
Print Assumptions C58_interrupt_child.

(** Also of the last of several siblings: the link that is then wrong (C06, C07) is not used by a forward traversal. *)
Theorem C58_replace : forall (T : Type) (s : sys T) a k x s', reach s -> receiver s a k x -> step s (OpReplace a) = Ret (s', OutUnit) ->
  forall r E, is_Some (s_nodes s !! r) -> is_Some (s_nodes s' !! r) -> reads s r E -> exists E', unwrapped x E E' /\ reads s' r E'.
Proof. exact @doc_replace_any. Qed.
Print Assumptions C58_replace.

Theorem C58_detach : forall (T : Type) (s : sys T) a k x, reach s -> receiver s a k x ->
  exists s', step s (OpDetach a) = Ret (s', OutUnit) /\
  forall r E, is_Some (s_nodes s !! r) -> is_Some (s_nodes s' !! r) -> reads s r E -> exists E', cut x E E' /\ reads s' r E'.
Proof. exact @doc_detach_any. Qed.
Print Assumptions C58_detach.

(** A move cuts the segment of [x] out of every document it stands in and then pastes it into every document that has the
    destination. *)
Theorem C58_move_partial : forall (T : Type) (s : sys T) K a k x ad j y, reach s -> stores s K -> receiver s a k x -> s_hands s !! j = Some (HNode Hot y) ->
  (exists p, child_of K p x) -> ~ below K x y -> has_place K ad y -> ~ stays_last K x ad y ->
  exists s', step s (OpMove a ad j) = Ret (s', OutUnit) /\
  forall S, reads s x S -> reads s' x S /\
  forall r E, is_Some (s_nodes s !! r) -> is_Some (s_nodes s' !! r) -> reads s r E ->
    exists E1 E', cut x E E1 /\ pasted S y E1 ad E' /\ reads s' r E'.
Proof. exact @doc_move_any. Qed.
Print Assumptions C58_move_partial.

(** The descriptions used above leave no choice: the old document and the arguments of the call determine the new one. *)
Theorem C58_determined : forall (T : Type) (s : sys T) r E, reach s -> is_Some (s_nodes s !! r) -> reads s r E ->
  (forall S y ad E1 E2, pasted S y E ad E1 -> pasted S y E ad E2 -> E1 = E2) /\
  (forall n x E1 E2, wrapped n x E E1 -> wrapped n x E E2 -> E1 = E2) /\
  (forall n x E1 E2, lined n x E E1 -> lined n x E E2 -> E1 = E2) /\
  (forall x E1 E2, unwrapped x E E1 -> unwrapped x E E2 -> E1 = E2) /\
  (forall x E1 E2, cut x E E1 -> cut x E E2 -> E1 = E2) /\
  (forall x S y ad Ea Eb E1 E2, cut x E Ea -> pasted S y Ea ad E1 -> cut x E Eb -> pasted S y Eb ad E2 -> E1 = E2).
Proof. exact @doc_determined. Qed.
Print Assumptions C58_determined.

(** ** Concrete cases *)
Definition doc0 : doc := [Open 0; Open 4; Open 10; Close 10; Open 12; Close 12; Close 4; Open 6; Close 6; Open 8; Open 14; Close 14; Close 8; Close 0].
Definition doc0_t : rose nid := Rose 0 [Rose 4 [Rose 10 []; Rose 12 []]; Rose 6 []; Rose 8 [Rose 14 []]].
Lemma demo_reads : reads demo 0 doc0.
Proof.
  apply (docs_reads demo demoK); [exact demo_stores|]. change doc0 with (dfs_events doc0_t). apply docs_of_shape.
  unfold doc0_t. repeat (constructor; try (vm_compute; reflexivity)).
Qed.
Example C58_nonvacuous : reach demo /\ stores demo demoK /\ receiver demo (ByHot 7) Hot 6 /\ s_hands demo !! 9 = Some (HNode Hot 8) /\
  (exists p, child_of demoK p 6) /\ ~ below demoK 6 8 /\ has_place demoK AFirstChild 8 /\ ~ stays_last demoK 6 AFirstChild 8 /\ reads demo 0 doc0 /\
  cut 6 doc0 [Open 0; Open 4; Open 10; Close 10; Open 12; Close 12; Close 4; Open 8; Open 14; Close 14; Close 8; Close 0] /\
  pasted [Open 6; Close 6] 8 [Open 0; Open 4; Open 10; Close 10; Open 12; Close 12; Close 4; Open 8; Open 14; Close 14; Close 8; Close 0] AFirstChild
    [Open 0; Open 4; Open 10; Close 10; Open 12; Close 12; Close 4; Open 8; Open 6; Close 6; Open 14; Close 14; Close 8; Close 0].
Proof.
  split; [exact demo_reach|]. split; [exact demo_stores|]. split; [by vm_compute|]. split; [by vm_compute|]. split; [apply kid_b_ok; by vm_compute|].
  split; [apply (not_above_ok 20 (s_nodes demo)); [apply demo_stores|by vm_compute]|]. split; [exact Logic.I|].
  split. { intros (p & f & m & _ & [[F _]|[F _]]); done. } split; [exact demo_reads|]. split.
  - apply (cut_out 6 doc0 [Open 0; Open 4; Open 10; Close 10; Open 12; Close 12; Close 4] [] [Open 8; Open 14; Close 14; Close 8; Close 0]). done.
  - by apply (p_first [Open 6; Close 6] 8 _ [Open 0; Open 4; Open 10; Close 10; Open 12; Close 12; Close 4] [Open 14; Close 14] [Close 0]).
Qed.

(** The case left out is false of the code: moving the last child 8 of 0 to the last place among the children of 0, where
    it is already, makes it vanish from the document of 0. *)
Theorem C58_refuted : exists (s : sys nat) K a k x ad j y s' r E E', reach s /\ stores s K /\ receiver s a k x /\ s_hands s !! j = Some (HNode Hot y) /\
  (exists p, child_of K p x) /\ ~ below K x y /\ has_place K ad y /\ step s (OpMove a ad j) = Ret (s', OutUnit) /\
  reads s r E /\ Open x ∈ E /\ Open y ∈ E /\ reads s' r E' /\ Open y ∈ E' /\ Open x ∉ E'.
Proof.
  exists demo, demoK, (ByHot 9), Hot, 8, ALastChild, 3, 0, (nxt demo (OpMove (ByHot 9) ALastChild 3)), 0, doc0.
  exists [Open 0; Open 4; Open 10; Close 10; Open 12; Close 12; Close 4; Open 6; Close 6; Close 0].
  split; [exact demo_reach|]. split; [exact demo_stores|]. split; [by vm_compute|]. split; [by vm_compute|]. split; [apply kid_b_ok; by vm_compute|].
  split; [apply (not_above_ok 20 (s_nodes demo)); [apply demo_stores|by vm_compute]|]. split; [exact Logic.I|]. split; [apply nxt_ok; by vm_compute|].
  split; [exact demo_reads|]. split; [by apply (bool_decide_unpack _); vm_compute|]. split; [by apply (bool_decide_unpack _); vm_compute|].
  split; [|split; by apply (bool_decide_unpack _); vm_compute].
  unfold reads. apply run_enumerates. by vm_compute.
Qed.
Print Assumptions C58_refuted.
