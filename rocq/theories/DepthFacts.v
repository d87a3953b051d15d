(** * DepthFacts: a bounded stack changes nothing but overflows. *)
From Verif Require Import Heap Edit Traverse System Depth.

Definition agrees {A} (a b : run A) : Prop := a = NoFuel \/ a = b.

Section DepthFacts.
Context {T : Type}.
Implicit Types (s : sys T) (h : heap T).

Lemma agrees_refl {A} (a : run A) : agrees a a.
Proof. by right. Qed.
Lemma agrees_bind {A B} (a b : run A) (f g : A -> run B) : agrees a b -> (forall v, agrees (f v) (g v)) ->
  agrees (mbind f a) (mbind g b).
Proof. intros [->| ->] H; [by left|]. destruct b; cbn [mbind run_bind]; [apply H|by right|by right]. Qed.

Lemma release_mono pins : forall m n s x, n <= m -> agrees (release n pins s x) (release m pins s x).
Proof.
  induction m as [|m IH]; intros n s x Hn.
  { assert (n = 0) as -> by lia. apply agrees_refl. }
  destruct n as [|n].
  { simpl. destruct (s_nodes s !! x); [|apply agrees_refl]. destruct (referenced s pins x); [apply agrees_refl|by left]. }
  simpl. destruct (s_nodes s !! x) as [nd|]; [|apply agrees_refl]. destruct (referenced s pins x); [apply agrees_refl|].
  destruct (n_mem nd); [|apply agrees_refl]. apply agrees_bind.
  - destruct (n_first nd); [|apply agrees_refl]. apply IH. lia.
  - intros s2. destruct (n_next nd); [|apply agrees_refl]. apply IH. lia.
Qed.
Lemma upto_release n s pins x : agrees (release_upto n s pins x) (release_all s pins x).
Proof. apply release_mono. lia. Qed.

Lemma upto_teardown n pins : forall fuel s e, agrees (teardown_upto n fuel pins s e) (teardown fuel pins s e).
Proof.
  induction fuel as [|f IH]; intros s e; cbn [teardown_upto teardown]; destruct e as [cur|]; try apply agrees_refl.
  destruct cur as [w|w]; [apply IH|]. apply agrees_bind.
  - destruct (parent_link (s_nodes s) w); [|apply agrees_refl]. cbv zeta. destruct (ffirst _ _); [|apply agrees_refl]. apply upto_release.
  - intros s1. apply agrees_bind; [apply upto_release|]. intros s2. apply IH.
Qed.
Lemma upto_drop_tree n pins tpins s t : agrees (drop_tree_upto n pins tpins s t) (drop_tree_if_dead pins tpins s t).
Proof.
  unfold drop_tree_upto, drop_tree_if_dead. destruct (s_trees s !! t); [|apply agrees_refl].
  destruct (tree_referenced s tpins t); [apply agrees_refl|]. apply agrees_bind; [apply upto_teardown|]. intros s1. apply upto_release.
Qed.
Lemma upto_decr n s x : agrees (decr_ref_upto n s x) (decr_ref s x).
Proof.
  unfold decr_ref_upto, decr_ref. destruct (n_memb s x) as [[o|t [|[|rc]] lk]|]; try apply agrees_refl.
  apply agrees_bind; [apply agrees_refl|]. intros _. apply upto_drop_tree.
Qed.
Lemma upto_drop_link n s i x : agrees (drop_link_upto n s i x) (drop_link s i x).
Proof. apply agrees_bind; [apply upto_decr|]. intros s1. apply upto_release. Qed.
Lemma upto_drop_node n s i k x : agrees (drop_node_upto n s i k x) (drop_node s i k x).
Proof. apply agrees_bind; [apply agrees_refl|]. intros s1. apply upto_drop_link. Qed.
Lemma upto_create n s k x d ad : agrees (create_node_upto n s k x d ad) (create_node_as s k x d ad).
Proof.
  apply agrees_bind; [apply agrees_refl|]. intros t. apply agrees_bind; [apply agrees_refl|]. intros [[s1 m] i].
  apply agrees_bind; [apply agrees_refl|]. intros [h' [u|e]]; [apply agrees_refl|].
  apply agrees_bind; [apply upto_drop_node|]. intros s3. apply agrees_refl.
Qed.
Lemma upto_set_tree_core n s pins tpins x t' : agrees (set_tree_core_upto n s pins tpins x t') (set_tree_core s pins tpins x t').
Proof.
  unfold set_tree_core_upto, set_tree_core. destruct (n_memb s x) as [[o|t rc lk]|]; try apply agrees_refl.
  destruct (if Nat.eqb lk 0 then Some s else transfer_lock s t t'); [|apply agrees_refl].
  apply agrees_bind; [apply upto_drop_tree|]. intros s2. apply agrees_refl.
Qed.
Lemma upto_memberships n tpins t' : forall fuel s st, agrees (set_memberships_upto n fuel s tpins st t') (set_memberships fuel s tpins st t').
Proof.
  induction fuel as [|f IH]; intros s st; cbn [set_memberships_upto set_memberships]; (apply agrees_bind; [apply agrees_refl|]); intros [ev st'].
  - apply agrees_refl.
  - destruct ev as [e|]; [|apply agrees_refl]. apply agrees_bind.
    + destruct e; [apply upto_set_tree_core|apply agrees_refl].
    + intros [s1|]; [|apply agrees_refl]. apply agrees_bind; [apply upto_release|]. intros s2. apply IH.
Qed.
Lemma upto_create_new_tree n s tpins x : agrees (create_new_tree_upto n s tpins x) (create_new_tree s tpins x).
Proof. apply agrees_bind; [apply upto_memberships|]. intros o. apply agrees_refl. Qed.
Lemma upto_detach n s x : agrees (detach_upto n s x) (detach_subtree s x).
Proof.
  unfold detach_upto, detach_subtree. destruct (is_root (s_nodes s) x); [apply agrees_refl|].
  apply agrees_bind; [apply agrees_refl|]. intros [h' b]. apply upto_create_new_tree.
Qed.
Lemma upto_replace n s x : agrees (replace_upto n s x) (replace_node s x).
Proof.
  apply agrees_bind; [apply agrees_refl|]. intros t. apply agrees_bind; [apply agrees_refl|]. intros [h' [o|e]]; [|apply agrees_refl].
  apply agrees_bind; [apply upto_create_new_tree|]. intros s3. apply agrees_bind; [apply upto_drop_tree|]. intros s4. apply agrees_refl.
Qed.
Lemma upto_move_other n s x dest t' : agrees (move_other_upto n s x dest t') (move_to_another_tree s x dest t').
Proof.
  apply agrees_bind; [apply agrees_refl|]. intros [h1 b]. apply agrees_bind; [apply upto_memberships|]. intros o. apply agrees_refl.
Qed.
Lemma upto_move n s x ad y : agrees (move_upto n s x ad y) (move_subtree s x ad y).
Proof.
  apply agrees_bind; [apply agrees_refl|]. intros t. apply agrees_bind; [apply agrees_refl|]. intros t'.
  destruct (decide (t = t')); [apply agrees_refl|]. apply upto_move_other.
Qed.
Lemma upto_auth s a f g : (forall k x, agrees (f k x) (g k x)) -> agrees (with_auth s a f) (with_auth s a g).
Proof.
  intros H. unfold with_auth. destruct a as [i|i g0].
  - destruct (s_hands s !! i) as [[[]| | | | |]|]; try apply agrees_refl. apply H.
  - destruct (s_hands s !! i) as [[[]| | | | |]|]; try apply agrees_refl.
    destruct (s_hands s !! g0) as [[| | | | |]|]; try apply agrees_refl.
    apply agrees_bind; [apply agrees_refl|]. intros t0. destruct (decide _); [apply H|apply agrees_refl].
Qed.

Lemma upto_step n s o : agrees (step_upto n s o) (step s o).
Proof.
  destruct o; try apply agrees_refl; cbn [step_upto step].
  - destruct (s_hands s !! i) as [[k x|t| | | |]|]; try apply agrees_refl.
    + apply agrees_bind; [apply upto_drop_node|]. intros s1. apply agrees_refl.
    + apply agrees_bind; [apply upto_drop_tree|]. intros s1. apply agrees_refl.
  - destruct (s_hands s !! i) as [[[] x|t| | | |]|]; try apply agrees_refl. destruct (is_lock_kind k); [|apply agrees_refl].
    apply agrees_bind; [apply agrees_refl|]. intros [s1|]; [apply agrees_refl|].
    apply agrees_bind; [apply upto_drop_node|]. intros s1. apply agrees_refl.
  - apply upto_auth. intros k x. apply agrees_bind; [apply upto_create|]. intros r. apply agrees_refl.
  - apply upto_auth. intros k x. apply agrees_bind; [apply upto_replace|]. intros r. apply agrees_refl.
  - apply upto_auth. intros k x. apply agrees_bind; [apply upto_detach|]. intros r. apply agrees_refl.
  - destruct (s_hands s !! j) as [[[] y|t| | | |]|]; try apply agrees_refl.
    apply upto_auth. intros k x. apply agrees_bind; [apply upto_move|]. intros r. apply agrees_refl.
Qed.

(** Hence it is enough not to overflow. *)
Lemma agrees_ret {A} (a b : run A) v : agrees a b -> a = Ret v -> a = b.
Proof. intros [E|E] Hr; [rewrite E in Hr; discriminate Hr|exact E]. Qed.
Lemma agrees_not {A} (a b : run A) : agrees a b -> a <> NoFuel -> a = b.
Proof. intros [E|E] Hr; [done|exact E]. Qed.

(** ** Releases that free at most one node *)

Lemma upto_fuel n h : exists m, Nat.min (S n) (walk_fuel h) = S m.
Proof. unfold walk_fuel. simpl. eauto. Qed.

Lemma upto_noop n s pins x : referenced s pins x = true -> release_upto n s pins x = Ret s.
Proof.
  intros H. unfold release_upto. destruct (Nat.min _ _); simpl; (destruct (s_nodes s !! x); [|done]); by rewrite H.
Qed.
Lemma upto_dead n s pins x : s_nodes s !! x = None -> release_upto n s pins x = Ret s.
Proof. intros H. unfold release_upto. destruct (Nat.min _ _); simpl; by rewrite H. Qed.
Lemma upto_free n s pins x nd m : s_nodes s !! x = Some nd -> referenced s pins x = false ->
  n_first nd = None -> n_next nd = None -> n_mem nd = MWeak m ->
  release_upto (S n) s pins x = Ret (with_nodes s (delete x (s_nodes s))).
Proof.
  intros H1 H2 H3 H4 H5. unfold release_upto. destruct (upto_fuel n (s_nodes s)) as [q ->]. simpl.
  by rewrite H1, H2, H5, H3, H4.
Qed.
(** A node without children and following siblings. *)
Lemma upto_bare n s pins x nd : s_nodes s !! x = Some nd -> n_first nd = None -> n_next nd = None -> release_upto (S n) s pins x <> NoFuel.
Proof.
  intros H1 H3 H4. unfold release_upto. destruct (upto_fuel n (s_nodes s)) as [q ->]. simpl. rewrite H1, H3, H4.
  destruct (referenced s pins x); [discriminate|]. destruct (n_mem nd); discriminate.
Qed.

End DepthFacts.
