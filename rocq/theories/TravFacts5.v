(** * TravFacts5: iterator constructors, counts, and the defective iterators. *)
From Verif Require Import IterSpec Spec HeapFacts SpecFacts NavFacts NavFacts2 EditFacts2 EditFacts3 RoseFacts AdjFacts IterFacts TravFacts TravFacts2 TravFacts3 TravFacts4 Examples.

Local Arguments count_successors : simpl never.
Section C14.
Context {T : Type}.
Implicit Types (h : heap T) (K : forest).

Lemma children_its h K x ks : rep h K -> wf K -> K !! x = Some ks ->
  enumerates (sib_next h) (children_it h x) ks /\
  starts (children_reverse_it h x) (rsib_next h) (rev ks) /\
  count_children h x = Ret (length ks).
Proof.
  intros Hr Hw Hx.
  assert (enumerates (sib_next h) (children_it h x) ks) as H1.
  { unfold children_it. rewrite (first_child_rep _ _ _ _ Hr Hx). by eapply (sib_enum h K x []). }
  split_and!; [done| |].
  - unfold starts, children_reverse_it. rewrite (last_child_rep _ _ _ _ Hr Hw Hx). eexists. split; [done|].
    eapply (rsib_enum h K x ks []); [done|done|]. by rewrite app_nil_r.
  - unfold count_children. eapply (count_enum _ (sib_next h)); [done|done|done|].
    unfold walk_fuel. pose proof (children_length_le _ _ _ _ Hr Hw Hx). lia.
Qed.

Lemma sibling_its h K p l1 c l2 : rep h K -> wf K -> K !! p = Some (l1 ++ c :: l2) ->
  enumerates (sib_next h) (following_siblings_or_self_it c) (c :: l2) /\
  starts (following_siblings_it h c) (sib_next h) l2 /\
  enumerates (rsib_next h) (preceding_siblings_or_self_reverse_it c) (c :: rev l1) /\
  starts (preceding_siblings_reverse_it h c) (rsib_next h) (rev l1) /\
  enumerates (sib_next h) (siblings_it h c) (l1 ++ c :: l2) /\
  starts (siblings_reverse_it h c) (rsib_next h) (rev (l1 ++ c :: l2)) /\
  count_following_siblings h c = Ret (length l2) /\
  count_preceding_siblings h c = Ret (length l1).
Proof.
  intros Hr Hw Hp. pose proof (split_child_of _ _ _ _ _ Hp) as Hc.
  pose proof (children_length_le _ _ _ _ Hr Hw Hp) as Hlen. rewrite app_length in Hlen. simpl in Hlen.
  assert (enumerates (sib_next h) (Some c) (c :: l2)) as H1 by (exact (sib_enum h K p l1 (c :: l2) Hr Hp)).
  assert (enumerates (rsib_next h) (Some c) (c :: rev l1)) as H2.
  { pose proof (rsib_enum h K p (l1 ++ [c]) l2 Hr Hw) as H2. rewrite last_snoc, rev_app_distr in H2. apply H2.
    by rewrite <-app_assoc. }
  destruct (children_its h K p _ Hr Hw Hp) as (H3 & H4 & _).
  split_and!; try done.
  - by apply skip1_enum in H1.
  - by apply skip1_enum in H2.
  - unfold siblings_it. by rewrite (parent_link_child _ _ _ _ Hr Hc).
  - unfold siblings_reverse_it. by rewrite (parent_link_child _ _ _ _ Hr Hc).
  - unfold count_following_siblings. eapply (count_enum _ (sib_next h)); [done|done| |unfold walk_fuel; lia].
    unfold next_sibling_link. rewrite (fnext_split _ _ _ _ _ _ Hr Hp).
    apply (sib_enum h K p (l1 ++ [c])); [done|]. by rewrite <-app_assoc.
  - unfold count_preceding_siblings. rewrite (prev_sibling_split _ _ _ _ _ _ Hr Hw Hp). cbn.
    rewrite <-rev_length. eapply (count_enum _ (rsib_next h)); [done|done| |unfold walk_fuel; rewrite rev_length; lia].
    by eapply rsib_enum.
Qed.

Lemma top_sibling_its h K x : rep h K -> wf K -> is_top K x ->
  enumerates (sib_next h) (following_siblings_or_self_it x) [x] /\
  starts (following_siblings_it h x) (sib_next h) [] /\
  enumerates (rsib_next h) (preceding_siblings_or_self_reverse_it x) [x] /\
  starts (preceding_siblings_reverse_it h x) (rsib_next h) [] /\
  enumerates (sib_next h) (siblings_it h x) [x] /\
  starts (siblings_reverse_it h x) (rsib_next h) [x] /\
  count_following_siblings h x = Ret 0 /\
  count_preceding_siblings h x = Ret 0.
Proof.
  intros Hr Hw Hx.
  pose proof (sib_enum_top h K x Hr Hx) as H1. pose proof (rsib_enum_top h K x Hr Hx) as H2.
  split_and!; try done.
  - by apply skip1_enum in H1.
  - by apply skip1_enum in H2.
  - unfold siblings_it. by rewrite (parent_link_top _ _ _ Hr Hx).
  - unfold siblings_reverse_it. rewrite (parent_link_top _ _ _ Hr Hx). eexists; eauto.
  - unfold count_following_siblings, next_sibling_link. by rewrite (fnext_top _ _ _ Hr Hx).
  - unfold count_preceding_siblings. by rewrite (prev_sibling_top _ _ _ Hr Hx).
Qed.

Lemma ancestor_its h K x l : rep h K -> wf K -> is_Some (K !! x) -> anc K x l ->
  enumerates (anc_next h) (ancestors_or_self_it x) (x :: l) /\
  starts (ancestors_it h x) (anc_next h) l /\
  count_ancestors h x = Ret (length l).
Proof.
  intros Hr Hw Hx Ha. pose proof (anc_enum h K x l Hr Ha) as H1. split_and!; [done|by apply skip1_enum in H1|].
  unfold count_ancestors. destruct (enumerates_inv _ _ _ H1) as (s' & E & H2). simpl in E, H2.
  assert (parent_link h x = s') as -> by congruence.
  eapply (count_enum _ (anc_next h)); [done|done|done|].
  unfold walk_fuel. rewrite (rep_size _ _ Hr). pose proof (anc_length K x l Hw Hx Ha). lia.
Qed.

(** Every size hint of these iterators is correct. *)
Lemma simple_hints h :
  (forall s l, enumerates (sib_next h) s l -> hints_ok (sib_next h) (fun s => Ret (opt_size_hint s)) s l) /\
  (forall s l, enumerates (rsib_next h) s l -> hints_ok (rsib_next h) (fun s => Ret (opt_size_hint s)) s l) /\
  (forall s l, enumerates (anc_next h) s l -> hints_ok (anc_next h) (fun s => Ret (opt_size_hint s)) s l).
Proof. split_and!; [apply sib_hints|apply rsib_hints|apply anc_hints]. Qed.

(** [DftEvent::close_current] loops for ever when the next event is an [Open]. *)
Lemma ev_close_diverges h e y fuel d : dft_next h e = Some (Open y) -> ev_close_current fuel h e d = NoFuel.
Proof. intros E. revert d. induction fuel as [|f IH]; intros d; simpl; [done|]. by rewrite E. Qed.
Lemma ev_close_close h e y fuel : dft_next h e = Some (Close y) -> ev_close_current (S fuel) h e 0 = Ret (Some y).
Proof. intros E. simpl. by rewrite E. Qed.

Lemma stable_dir h K p l1 c l2 : rep h K -> wf K -> K !! p = Some (l1 ++ c :: l2) ->
  starts (following_siblings_or_self_stable_it h c) (ssib_next h) (c :: l2) /\
  starts (preceding_siblings_or_self_stable_it h c) (ssib_next_back h) (c :: rev l1) /\
  starts (siblings_stable_it h c) (ssib_next h) (l1 ++ c :: l2) /\
  starts (siblings_stable_it h c) (ssib_next_back h) (rev (l1 ++ c :: l2)) /\
  starts (children_stable_it h p) (ssib_next h) (l1 ++ c :: l2) /\
  starts (children_stable_it h p) (ssib_next_back h) (rev (l1 ++ c :: l2)) /\
  starts (following_siblings_stable_it h c) (ssib_next h) l2.
Proof.
  intros Hr Hw Hp. pose proof (split_child_of _ _ _ _ _ Hp) as Hc.
  assert ((l1 ++ c :: l2) !! length l1 = Some c) as Hi by (by rewrite lookup_app_r, Nat.sub_diag).
  destruct (sibling_facts h K p _ _ _ Hr Hw Hp Hi) as (_ & _ & _ & _ & _ & _ & Hf & Hl & _).
  pose proof (children_stable_enum h K p _ Hr Hw Hp) as H5.
  assert (starts (children_stable_it h p) (ssib_next_back h) (rev (l1 ++ c :: l2))) as H6.
  { unfold starts, children_stable_it. unfold first_last_child_link.
    rewrite (first_child_rep _ _ _ _ Hr Hp). pose proof (last_child_rep h K p _ Hr Hw Hp) as Hlc.
    unfold last_child_link in Hlc. rewrite (first_child_rep _ _ _ _ Hr Hp) in Hlc.
    destruct (list_snoc_inv (l1 ++ c :: l2)) as [E|(l' & z & E)]; [by destruct l1|]. rewrite E in *.
    destruct (head (l' ++ [z])) as [f|] eqn:Ef; [|by destruct l'].
    destruct (prev_sibling_cyclic_link h f) as [q| |]; cbn in *; try done. rewrite last_snoc in Hlc. simplify_eq.
    eexists. split; [done|]. rewrite rev_app_distr. by eapply ssib_back_walk. }
  split_and!; [| | | |done|done|].
  - unfold starts, following_siblings_or_self_stable_it. rewrite Hl. eexists. split; [done|]. by eapply ssib_walk.
  - unfold starts, preceding_siblings_or_self_stable_it. rewrite Hf. eexists. split; [done|]. by eapply ssib_back_walk.
  - unfold siblings_stable_it. by rewrite (parent_link_child _ _ _ _ Hr Hc).
  - unfold siblings_stable_it. by rewrite (parent_link_child _ _ _ _ Hr Hc).
  - unfold following_siblings_stable_it, following_siblings_or_self_stable_it. rewrite Hl. cbn.
    pose proof (ssib_walk h K p l1 c l2 (default c (last (l1 ++ c :: l2))) Hr Hp) as H1.
    by apply skip1_enum in H1.
Qed.

(** Size hints of the shallow traverser at every state reachable from both ends. *)
Lemma sh_hints h K max x t : rep h K -> wf K -> shape K x t -> forall bs, exists s' b,
  after2 (sh_next h max) (sh_next_back h max) (sh_start (Some x)) bs = Ret s' /\ sh_size_hint s' = Ret b /\
  b.1 <= length (dfs_events (rose_depths 0 (rose_cut max t))) - length bs /\
  match b.2 with
  | Some u => u = 2 \/ length (dfs_events (rose_depths 0 (rose_cut max t))) - length bs <= u
  | None => True
  end.
Proof.
  intros Hr Hw Hs bs. pose proof (Psh_start h K max x t Hr Hw Hs) as HP. revert HP.
  generalize (sh_start (Some x)) as s. generalize (dfs_events (rose_depths 0 (rose_cut max t))) as l.
  induction bs as [|b bs IH]; intros l s HP.
  - destruct (sh_hint h K max s l HP) as (b & Eb & H1 & H2). exists s, b. simpl. rewrite Nat.sub_0_r. done.
  - assert (exists s' r l', (if b then sh_next h max s else sh_next_back h max s) = Ret (r, s') /\ Psh h K max s' l' /\ length l' = length l - 1)
      as (s' & r & l' & Es & HP' & Hlen).
    { destruct b.
      - destruct (Psh_next h K max s l Hr Hw HP) as (s' & Es & H'). exists s', (head l), (tail l). split_and!; [done|done|]. destruct l; simpl; lia.
      - destruct (Psh_next_back h K max s l Hr Hw HP) as (s' & Es & H'). eexists s', _, _. split_and!; [done|done|]. rewrite take_length. lia. }
    destruct (IH _ _ HP') as (s2 & hb & E2 & Eb & H1 & H2). exists s2, hb. cbn. rewrite Es. cbn. split_and!; [done|done| |].
    + simpl. lia.
    + simpl. destruct hb as [lo [u|]]; simpl in *; [|done]. destruct H2; [by left|right; lia].
Qed.

End C14.

(** ** Shapes of the example tree *)
Ltac shape := repeat (constructor; try (vm_compute; reflexivity)).
Definition ext : rose nid := Rose 0 [Rose 1 [Rose 4 []; Rose 5 []]; Rose 2 []; Rose 3 [Rose 6 []]].
Lemma ex_shape0 : shape exK 0 ext.
Proof. unfold ext. shape. Qed.
Lemma ex_shape1 : shape exK 1 (Rose 1 [Rose 4 []; Rose 5 []]).
Proof. shape. Qed.

Lemma omap_concat_events {A B} (f : dft A -> option B) (l : list (list (dft A))) : omap f (concat l) = concat (map (omap f) l).
Proof. induction l as [|k l IH]; [done|]. cbn [concat map]. rewrite omap_app. by rewrite IH. Qed.
Lemma events_orders {A} (t : rose A) : omap into_open (dfs_events t) = rose_nodes t /\ omap into_close (dfs_events t) = rose_post t.
Proof.
  induction t as [x ts IH] using rose_ind2. cbn [dfs_events rose_nodes rose_post].
  change (omap into_open (Open x :: concat (map dfs_events ts) ++ [Close x])) with (x :: omap into_open (concat (map dfs_events ts) ++ [Close x])).
  change (omap into_close (Open x :: concat (map dfs_events ts) ++ [Close x])) with (omap into_close (concat (map dfs_events ts) ++ [Close x])).
  rewrite !omap_app, !omap_concat_events, !map_map. change (omap into_open [Close x]) with (@nil A). change (omap into_close [Close x]) with [x]. rewrite app_nil_r.
  split; [f_equal|]; f_equal; [|f_equal].
  - apply map_ext_in. intros u Hu. rewrite Forall_forall in IH. apply IH. by apply elem_of_list_In.
  - apply map_ext_in. intros u Hu. rewrite Forall_forall in IH. apply IH. by apply elem_of_list_In.
Qed.
