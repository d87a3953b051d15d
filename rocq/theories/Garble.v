(** * Garble: the insertion of a node does not look at nodes it is not connected with. *)
From Verif Require Import Heap Edit HeapFacts Spec.

Section Garble.
Context {T : Type}.
Implicit Types (h : heap T).

(** Every node [y] is changed by [g y]. *)
Definition garble (g : nid -> node T -> node T) h : heap T := map_imap (fun y nd => Some (g y nd)) h.
Lemma garble_lookup g h y : garble g h !! y = g y <$> h !! y.
Proof. unfold garble. rewrite map_lookup_imap. by destruct (h !! y). Qed.
Lemma garble_size g h : size (garble g h) = size h.
Proof.
  rewrite <-!size_dom. f_equal. apply set_eq. intros y. rewrite !elem_of_dom, garble_lookup. by rewrite fmap_is_Some.
Qed.

Variable (g : nid -> node T -> node T).
Definition tidy (y : nid) : Prop := forall nd, g y nd = nd.
Definition recount (c : nat) (nd : node T) : node T :=
  mkNode (n_data nd) (n_lend nd) (n_parent nd) (n_first nd) (n_next nd) (n_prev nd) c (n_mem nd).
Definition calm (y : nid) : Prop := tidy y \/ exists c, forall nd, g y nd = recount c nd.

Lemma gb_alter h y (f : node T -> node T) : (forall nd, g y (f nd) = f (g y nd)) -> alter f y (garble g h) = garble g (alter f y h).
Proof.
  intros H. apply map_eq. intros z. rewrite garble_lookup. destruct (decide (z = y)) as [->|Hz].
  - rewrite !lookup_alter, garble_lookup. destruct (h !! y); simpl; [by rewrite H|done].
  - rewrite !lookup_alter_ne by done. by rewrite garble_lookup.
Qed.
Lemma gb_set_parent h y v : calm y -> set_parent (garble g h) y v = garble g (set_parent h y v).
Proof. intros Hc. apply gb_alter. intros nd. destruct Hc as [Hc|[c Hc]]; rewrite !Hc; done. Qed.
Lemma gb_set_prev h y v : calm y -> set_prev (garble g h) y v = garble g (set_prev h y v).
Proof. intros Hc. apply gb_alter. intros nd. destruct Hc as [Hc|[c Hc]]; rewrite !Hc; done. Qed.
Lemma gb_set_next h y v : calm y -> set_next (garble g h) y v = garble g (set_next h y v).
Proof. intros Hc. apply gb_alter. intros nd. destruct Hc as [Hc|[c Hc]]; rewrite !Hc; done. Qed.
Lemma gb_set_first h y v : calm y -> set_first (garble g h) y v = garble g (set_first h y v).
Proof. intros Hc. apply gb_alter. intros nd. destruct Hc as [Hc|[c Hc]]; rewrite !Hc; done. Qed.
Lemma gb_nca h y v : tidy y -> num_children_add (garble g h) y v = garble g (num_children_add h y v).
Proof.
  intros Hc. unfold num_children_add. assert (fnch (garble g h) y = fnch h y) as ->.
  { unfold fnch. rewrite garble_lookup. destruct (h !! y); [|done]. simpl. by rewrite Hc. }
  apply gb_alter. intros nd. by rewrite !Hc.
Qed.

Lemma gb_parent h y : calm y -> fparent (garble g h) y = fparent h y.
Proof. intros Hc. unfold fparent. rewrite garble_lookup. destruct (h !! y) as [nd|]; [|done]. simpl. destruct Hc as [Hc|[c Hc]]; by rewrite Hc. Qed.
Lemma gb_first h y : calm y -> ffirst (garble g h) y = ffirst h y.
Proof. intros Hc. unfold ffirst. rewrite garble_lookup. destruct (h !! y) as [nd|]; [|done]. simpl. destruct Hc as [Hc|[c Hc]]; by rewrite Hc. Qed.
Lemma gb_next h y : calm y -> fnext (garble g h) y = fnext h y.
Proof. intros Hc. unfold fnext. rewrite garble_lookup. destruct (h !! y) as [nd|]; [|done]. simpl. destruct Hc as [Hc|[c Hc]]; by rewrite Hc. Qed.
Lemma gb_prev h y : calm y -> fprev (garble g h) y = fprev h y.
Proof. intros Hc. unfold fprev. rewrite garble_lookup. destruct (h !! y) as [nd|]; [|done]. simpl. destruct Hc as [Hc|[c Hc]]; by rewrite Hc. Qed.
Lemma gb_alive h y : alive (garble g h) y = alive h y.
Proof. unfold alive. apply bool_decide_ext. by rewrite garble_lookup, fmap_is_Some. Qed.
Lemma gb_upgrade h o : upgrade (garble g h) o = upgrade h o.
Proof. destruct o as [y|]; [|done]. simpl. by rewrite gb_alive. Qed.
Lemma gb_parent_link h y : calm y -> parent_link (garble g h) y = parent_link h y.
Proof. intros Hc. unfold parent_link. by rewrite gb_parent, gb_upgrade. Qed.
Lemma gb_prev_cyclic h y : calm y -> prev_sibling_cyclic_link (garble g h) y = prev_sibling_cyclic_link h y.
Proof. intros Hc. unfold prev_sibling_cyclic_link. by rewrite gb_prev, gb_upgrade. Qed.

(** The nodes connected with the place. *)
Variable (Q : nid -> Prop).
Hypothesis (HQ : forall y, Q y -> calm y).
Definition roams h : Prop := forall y z, Q y ->
  fparent h y = Some z \/ ffirst h y = Some z \/ fnext h y = Some z \/ fprev h y = Some z -> Q z.
Lemma up_some h o y : upgrade h o = Some y -> o = Some y.
Proof. destruct o as [z|]; [|done]. simpl. destruct (alive h z); [|done]. congruence. Qed.

Lemma gb_ancestor h n fuel o : roams h -> (forall y, o = Some y -> Q y) -> is_ancestor_of fuel (garble g h) n o = is_ancestor_of fuel h n o.
Proof.
  intros HR. revert o. induction fuel as [|fuel IH]; intros [a|] Ho; try done. simpl. destruct (decide (n = a)); [done|].
  rewrite gb_parent_link by auto. apply IH. intros y Hy. apply (HR a y); [auto|]. left. by eapply up_some.
Qed.
Lemma gb_loop h n b p : roams h -> Q p -> loop_check (garble g h) n b p = loop_check h n b p.
Proof.
  intros HR Hp. unfold loop_check, walk_fuel. destruct b; [done|]. rewrite garble_size. apply gb_ancestor; [done|]. by intros y [= <-].
Qed.
Lemma gb_first_last h p : roams h -> Q p -> first_last_child_link (garble g h) p = first_last_child_link h p.
Proof.
  intros HR Hp. unfold first_last_child_link, first_child_link. rewrite gb_first by auto. destruct (ffirst h p) as [f|] eqn:E; [|done].
  rewrite gb_prev_cyclic; [done|]. apply HQ, (HR p f Hp). auto.
Qed.
Lemma gb_prev_sibling h y : roams h -> Q y -> prev_sibling_link (garble g h) y = prev_sibling_link h y.
Proof.
  intros HR Hy. unfold prev_sibling_link. rewrite gb_prev_cyclic by auto. destruct (prev_sibling_cyclic_link h y) as [c| |] eqn:E; [|done|done].
  cbn [mbind run_bind]. rewrite gb_next; [done|]. apply HQ, (HR y c Hy). right. right. right.
  unfold prev_sibling_cyclic_link in E. destruct (upgrade h (fprev h y)) as [z|] eqn:Eu; [|done]. injection E as <-. by eapply up_some.
Qed.

Definition after (r : run (heap T * hres unit)) : run (heap T * hres unit) :=
  '(h', e) ← r; Ret (garble g h', e).

Lemma fl_Q h p f l : roams h -> Q p -> first_last_child_link h p = Ret (Some (f, l)) -> Q f /\ Q l.
Proof.
  intros HR Hp. unfold first_last_child_link, first_child_link. destruct (ffirst h p) as [f'|] eqn:E; [|done].
  unfold prev_sibling_cyclic_link. destruct (upgrade h (fprev h f')) as [l'|] eqn:Eu; [|done]. cbn [mbind run_bind]. intros [= -> ->].
  assert (Q f) as Hf by (apply (HR p f Hp); auto). split; [done|]. apply (HR f l Hf). right. right. right. by eapply up_some.
Qed.

Lemma gb_first_child h n b p : roams h -> Q n -> Q p -> tidy p ->
  insert_as_first_child_of (garble g h) n b p = after (insert_as_first_child_of h n b p).
Proof.
  intros HR Hn Hp Ht. unfold insert_as_first_child_of, after. rewrite gb_loop, gb_first_last by done.
  destruct (loop_check h n b p) as [[|]| |]; [done| |done|done]. cbn [mbind run_bind].
  destruct (first_last_child_link h p) as [[[f l]|]| |] eqn:E; [| |done|done]; cbn [mbind run_bind].
  - destruct (fl_Q _ _ _ _ HR Hp E) as [Hf Hl]. unfold connect_adjacent_siblings.
    rewrite !gb_set_prev, !gb_set_next, gb_set_parent, gb_set_first, gb_nca by auto. done.
  - rewrite gb_set_prev, gb_set_parent, gb_set_first, gb_nca by auto. done.
Qed.
Lemma gb_last_child h n b p : roams h -> Q n -> Q p -> tidy p ->
  insert_as_last_child_of (garble g h) n b p = after (insert_as_last_child_of h n b p).
Proof.
  intros HR Hn Hp Ht. unfold insert_as_last_child_of, after. rewrite gb_loop, gb_first_last by done.
  destruct (loop_check h n b p) as [[|]| |]; [done| |done|done]. cbn [mbind run_bind].
  destruct (first_last_child_link h p) as [[[f l]|]| |] eqn:E; [| |done|done]; cbn [mbind run_bind].
  - destruct (fl_Q _ _ _ _ HR Hp E) as [Hf Hl]. unfold connect_adjacent_siblings.
    rewrite !gb_set_prev, ?gb_set_next, ?gb_set_prev, gb_set_parent, gb_nca by auto. done.
  - rewrite gb_set_prev, gb_set_first, gb_set_parent, gb_nca by auto. done.
Qed.
Lemma gb_between h n p a c : roams h -> Q n -> tidy p -> Q a -> Q c ->
  insert_between (garble g h) n p a c = (h' ← insert_between h n p a c; Ret (garble g h')).
Proof.
  intros HR Hn Ht Ha Hc. unfold insert_between, next_sibling_link. rewrite !gb_parent_link, gb_next, gb_prev_sibling by auto.
  unfold assertb. destruct (opt_is (parent_link h a) p); [|done]. destruct (opt_is (parent_link h c) p); [|done].
  destruct (opt_is (fnext h a) c); [|done]. cbn [mbind run_bind]. destruct (prev_sibling_link h c) as [q| |]; [|done|done]. cbn [mbind run_bind].
  destruct (opt_is q a); [|done]. cbn [mbind run_bind].
  rewrite gb_set_parent, !gb_next, !gb_set_next, !gb_prev, !gb_set_prev, gb_nca by auto. done.
Qed.
Lemma gb_insert h n b dest : roams h -> Q n -> Q (dest_anchor dest) ->
  (match dest with FirstChildOf p | LastChildOf p => tidy p | PreviousSiblingOf a | NextSiblingOf a => forall p, parent_link h a = Some p -> tidy p end) ->
  insert_orphan (garble g h) n b dest = after (insert_orphan h n b dest).
Proof.
  intros HR Hn Ha Ht. destruct dest as [p|p|a|a]; simpl in Ha; cbn [insert_orphan].
  - by apply gb_first_child.
  - by apply gb_last_child.
  - rewrite gb_parent_link by auto. destruct (parent_link h a) as [p|] eqn:Ep; [|done]. specialize (Ht p eq_refl).
    assert (Q p) as Hp by (apply (HR a p Ha); left; by eapply up_some).
    rewrite gb_prev_sibling by auto. destruct (prev_sibling_link h a) as [[q|]| |] eqn:Eq; [| |done|done]; cbn [mbind run_bind].
    + rewrite gb_between; [unfold after; by destruct (insert_between h n p q a)|done|done|done| |done].
      apply (HR a q Ha). right. right. right. unfold prev_sibling_link, prev_sibling_cyclic_link in Eq.
      destruct (upgrade h (fprev h a)) as [z|] eqn:Eu; [|done]. cbn [mbind run_bind] in Eq. destruct (fnext h z); [|done]. injection Eq as <-. by eapply up_some.
    + by apply gb_first_child.
  - rewrite gb_parent_link by auto. destruct (parent_link h a) as [p|] eqn:Ep; [|done]. specialize (Ht p eq_refl).
    assert (Q p) as Hp by (apply (HR a p Ha); left; by eapply up_some).
    unfold next_sibling_link. rewrite gb_next by auto. destruct (fnext h a) as [q|] eqn:Eq.
    + rewrite gb_between; [unfold after; by destruct (insert_between h n p a q)|done|done|done|done|]. apply (HR a q Ha). auto.
    + by apply gb_last_child.
Qed.
End Garble.
