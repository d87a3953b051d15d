(** * TravFacts: depth-first traversers on a heap that stores a forest. *)
From Verif Require Import IterSpec Spec HeapFacts SpecFacts NavFacts NavFacts2 EditFacts2 RoseFacts AdjFacts IterFacts.

Section Trav.
Context {T : Type}.
Implicit Types (h : heap T) (K : forest).

(** Previous sibling and last child as partial functions. *)
Definition lastf h x : option nid := match last_child_link h x with Ret o => o | _ => None end.
Definition prevf h x : option nid := match prev_sibling_link h x with Ret o => o | _ => None end.

Lemma lastf_ok h K x : rep h K -> wf K -> is_Some (K !! x) -> last_child_link h x = Ret (lastf h x).
Proof. intros Hr Hw [ks Hx]. unfold lastf. by rewrite (last_child_rep _ _ _ _ Hr Hw Hx). Qed.
Lemma prevf_ok h K x : rep h K -> wf K -> is_Some (K !! x) -> prev_sibling_link h x = Ret (prevf h x).
Proof.
  intros Hr Hw Hx. unfold prevf. destruct (top_or_child K x Hx) as [Ht|[p Hp]].
  - by rewrite (prev_sibling_top _ _ _ Hr Ht).
  - destruct (child_of_split _ _ _ Hp) as (l1 & l2 & Hk). by rewrite (prev_sibling_split _ _ _ _ _ _ Hr Hw Hk).
Qed.

Notation hadj h := (g_adj (first_child_link h) (lastf h) (next_sibling_link h) (prevf h) (parent_link h)).
Notation hcoh h := (coh (first_child_link h) (lastf h) (next_sibling_link h) (prevf h) (parent_link h)).

Lemma shape_coh h K x t : rep h K -> wf K -> shape K x t -> hcoh h t.
Proof.
  intros Hr Hw. revert x. induction t as [z ts IH] using rose_ind2. intros x Hs.
  inversion Hs as [? ? Hk Hf]; subst. constructor.
  - rewrite (first_child_rep _ _ _ _ Hr Hk). by destruct ts.
  - unfold lastf. rewrite (last_child_rep _ _ _ _ Hr Hw Hk). apply (fmap_last rose_root).
  - intros l1 c l2 ->. rewrite map_app in Hk. simpl in Hk. split_and!.
    + unfold next_sibling_link. rewrite (fnext_split _ _ _ _ _ _ Hr Hk). by destruct l2.
    + unfold prevf. rewrite (prev_sibling_split _ _ _ _ _ _ Hr Hw Hk). apply (fmap_last rose_root).
    + eapply parent_link_child; [done|]. by eapply split_child_of.
  - clear Hs Hk. induction Hf as [|t ts Ht _ IHts]; [constructor|]. inversion IH; subst. constructor; [eauto|auto].
Qed.

Lemma shape_adj h K x t : rep h K -> wf K -> shape K x t -> adj (hadj h) (dfs_events t).
Proof. intros. by eapply coh_adj, shape_coh. Qed.

Lemma shape_events_nodup K x t : wf K -> shape K x t -> NoDup (dfs_events t).
Proof. intros. by eapply dfs_events_nodup, shape_nodup. Qed.

Lemma dft_next_g h e : dft_next h e = g_next (first_child_link h) (next_sibling_link h) (parent_link h) e.
Proof. by destruct e. Qed.
Lemma dft_prev_g h K e : rep h K -> wf K -> is_Some (K !! ev_val e) ->
  dft_prev h e = Ret (g_prev (lastf h) (prevf h) (parent_link h) e).
Proof.
  intros Hr Hw Hx. destruct e as [x|x]; simpl in *.
  - by rewrite (prevf_ok _ _ _ Hr Hw Hx).
  - by rewrite (lastf_ok _ _ _ Hr Hw Hx).
Qed.

(** *** Forward traversers *)
Lemma dfs_walk h start e l : adj (hadj h) (e :: l) -> NoDup (e :: l) -> last (e :: l) = Some (Close start) ->
  enumerates (dfs_next h) (Some (e, start)) (e :: l).
Proof.
  revert e. induction l as [|b l IH]; intros e Ha Hn Hl.
  - simpl in Hl. simplify_eq. eapply enumerates_cons with (s' := None); [|by apply enumerates_nil].
    simpl. by rewrite decide_True.
  - rewrite adj_cons in Ha. destruct Ha as [Hab Ha]. destruct (Hab b eq_refl) as [Hs _].
    eapply enumerates_cons with (s' := Some (b, start)).
    + simpl. rewrite decide_False, dft_next_g, Hs; [done|]. intros ->.
      apply NoDup_cons in Hn as [Hn _]. apply Hn. change (last (b :: l) = Some (Close start)) in Hl.
      by apply elem_of_last in Hl.
    + apply IH; [done|by apply NoDup_cons in Hn as [_ ?]|done].
Qed.

Lemma dfs_enum h K x t : rep h K -> wf K -> shape K x t ->
  enumerates (dfs_next h) (dfs_start (Some x)) (dfs_events t).
Proof.
  intros Hr Hw Hs. pose proof (shape_adj _ _ _ _ Hr Hw Hs) as Ha. pose proof (shape_events_nodup _ _ _ Hw Hs) as Hn.
  pose proof (last_events t) as Hl. pose proof (shape_root _ _ _ Hs) as Hx. subst x.
  destruct t as [x ts]. by apply dfs_walk.
Qed.

Lemma link_walk h start e l : adj (hadj h) (e :: l ++ [Close start]) -> NoDup (e :: l ++ [Close start]) ->
  enumerates (link_dfs_next h) (Some (e, start)) (e :: l).
Proof.
  revert e. induction l as [|b l IH]; intros e Ha Hn.
  - rewrite adj_cons in Ha. destruct Ha as [Ha _]. destruct (Ha _ eq_refl) as [Hs _].
    apply NoDup_cons in Hn as [Hn _].
    eapply enumerates_cons with (s' := Some (Close start, start)).
    + simpl. rewrite decide_False by set_solver. by rewrite dft_next_g, Hs.
    + eapply enumerates_none with (s' := None); [|by apply enumerates_nil]. simpl. by rewrite decide_True.
  - rewrite adj_cons in Ha. destruct Ha as [Hab Ha]. destruct (Hab b eq_refl) as [Hs _].
    apply NoDup_cons in Hn as [Hn Hn'].
    eapply enumerates_cons with (s' := Some (b, start)).
    + simpl. rewrite decide_False by set_solver. by rewrite dft_next_g, Hs.
    + by apply IH.
Qed.

Lemma link_dfs_enum h K x ts : rep h K -> wf K -> shape K x (Rose x ts) ->
  enumerates (link_dfs_next h) (dfs_start (Some x)) (Open x :: concat (map dfs_events ts)).
Proof.
  intros Hr Hw Hs. apply link_walk.
  - exact (shape_adj _ _ _ _ Hr Hw Hs).
  - exact (shape_events_nodup _ _ _ Hw Hs).
Qed.

(** *** Backward traverser *)
Lemma rdfs_walk h K start l e : rep h K -> wf K -> (forall e', e' ∈ l ++ [e] -> is_Some (K !! ev_val e')) ->
  adj (hadj h) (l ++ [e]) -> NoDup (l ++ [e]) -> head (l ++ [e]) = Some (Open start) ->
  enumerates (rdfs_next h) (Some (e, start)) (rev (l ++ [e])).
Proof.
  intros Hr Hw. revert e. induction l as [|b l IH] using rev_ind; intros e Hd Ha Hn Hl.
  - simpl in *. simplify_eq. eapply enumerates_cons with (s' := None); [|by apply enumerates_nil].
    simpl. by rewrite decide_True.
  - rewrite rev_app_distr. simpl.
    rewrite adj_app in Ha. destruct Ha as (Ha & _ & Hab).
    destruct (Hab b e) as [_ Hs]; [by rewrite last_snoc|done|].
    eapply enumerates_cons with (s' := Some (b, start)).
    + simpl. rewrite decide_False.
      * rewrite (dft_prev_g _ _ _ Hr Hw); [|apply Hd; set_solver]. rewrite Hs. done.
      * intros ->. apply NoDup_app in Hn as (_ & Hn & _). apply (Hn (Open start)); [|set_solver].
        destruct l; simpl in Hl; simplify_eq; set_solver.
    + apply IH; [|done| |].
      * intros e' He'. apply Hd. set_solver.
      * by apply NoDup_app in Hn as (? & _ & _).
      * destruct l; done.
Qed.

Lemma shape_events_dom K x t e : wf K -> shape K x t -> e ∈ dfs_events t -> is_Some (K !! ev_val e).
Proof.
  intros Hw Hs He. apply dfs_events_elem in He. eapply below_dom; [done| |by eapply shape_nodes].
  destruct Hs as [? ? Hk _]. by exists (map rose_root ts).
Qed.

Lemma rdfs_enum h K x t : rep h K -> wf K -> shape K x t ->
  enumerates (rdfs_next h) (rdfs_start (Some x)) (rev (dfs_events t)).
Proof.
  intros Hr Hw Hs. pose proof (shape_adj _ _ _ _ Hr Hw Hs) as Ha. pose proof (shape_events_nodup _ _ _ Hw Hs) as Hn.
  pose proof (fun e => shape_events_dom _ _ _ e Hw Hs) as Hd.
  pose proof (shape_root _ _ _ Hs) as Hx. subst x. destruct t as [x ts].
  apply (rdfs_walk _ K _ (Open x :: concat (map dfs_events ts)) (Close x)); try done.
Qed.

(** *** [DftEvent::next] and [prev] *)
Lemma adj_lookup {E} (R : E -> E -> Prop) l i a b : adj R l -> l !! i = Some a -> l !! S i = Some b -> R a b.
Proof.
  revert i. induction l as [|c l IH]; intros i Ha Hi Hj; [done|]. rewrite adj_cons in Ha. destruct Ha as [Hh Ha].
  destruct i as [|i]; simpl in *.
  - simplify_eq. apply Hh. by destruct l.
  - by apply (IH i).
Qed.

Lemma event_position h K e : rep h K -> wf K -> is_Some (K !! ev_val e) ->
  exists r t i, is_top K r /\ shape K r t /\ dfs_events t !! i = Some e.
Proof.
  intros Hr Hw Hx. destruct (top_exists K _ Hw Hx) as (r & Ht & Hb).
  destruct (shape_exists K r Hw) as [t Hs]; [by destruct Ht|].
  exists r, t. assert (e ∈ dfs_events t) as He by (by apply dfs_events_elem, (shape_nodes K r)).
  apply elem_of_list_lookup in He as [i Hi]. by exists i.
Qed.

Lemma events_last_index (r : nid) (t : rose nid) i e : NoDup (dfs_events t) -> rose_root t = r ->
  dfs_events t !! i = Some e -> dfs_events t !! S i = None -> e = Close r.
Proof.
  intros Hn Hr Hi Hj. pose proof (last_events t) as Hl. rewrite last_lookup in Hl.
  apply lookup_lt_Some in Hi as Hlt. apply lookup_ge_None in Hj.
  replace (pred (length (dfs_events t))) with i in Hl by lia. rewrite Hi in Hl. by simplify_eq.
Qed.

Lemma dft_next_none h K e : rep h K -> wf K -> is_Some (K !! ev_val e) ->
  (dft_next h e = None <-> exists r, is_top K r /\ e = Close r).
Proof.
  intros Hr Hw Hx. split.
  - intros E. destruct e as [x|x]; simpl in *; [by destruct (first_child_link h x)|].
    destruct (next_sibling_link h x); [done|]. exists x. split; [|done].
    destruct (top_or_child K x Hx) as [?|[p Hp]]; [done|].
    by rewrite (parent_link_child _ _ _ _ Hr Hp) in E.
  - intros (r & Ht & ->). simpl. unfold next_sibling_link.
    by rewrite (fnext_top _ _ _ Hr Ht), (parent_link_top _ _ _ Hr Ht).
Qed.

Lemma dft_prev_none h K e : rep h K -> wf K -> is_Some (K !! ev_val e) ->
  (dft_prev h e = Ret None <-> exists r, is_top K r /\ e = Open r).
Proof.
  intros Hr Hw Hx. split.
  - intros E. destruct e as [x|x]; simpl in *.
    + exists x. split; [|done]. destruct (top_or_child K x Hx) as [?|[p Hp]]; [done|].
      rewrite (prevf_ok _ _ _ Hr Hw Hx) in E. cbn in E. rewrite (parent_link_child _ _ _ _ Hr Hp) in E.
      by destruct (prevf h x).
    + rewrite (lastf_ok _ _ _ Hr Hw Hx) in E. cbn in E. by destruct (lastf h x).
  - intros (r & Ht & ->). simpl. rewrite (prev_sibling_top _ _ _ Hr Ht). cbn.
    by rewrite (parent_link_top _ _ _ Hr Ht).
Qed.

Lemma dft_inverse h K e f : rep h K -> wf K -> is_Some (K !! ev_val e) -> is_Some (K !! ev_val f) ->
  (dft_next h e = Some f <-> dft_prev h f = Ret (Some e)).
Proof.
  intros Hr Hw He Hf. split; intros E.
  - destruct (event_position h K e Hr Hw He) as (r & t & i & Ht & Hs & Hi).
    destruct (dfs_events t !! S i) as [f'|] eqn:Hj.
    + pose proof (adj_lookup _ _ _ _ _ (shape_adj _ _ _ _ Hr Hw Hs) Hi Hj) as [H1 H2].
      rewrite dft_next_g, H1 in E. simplify_eq. by rewrite (dft_prev_g _ _ _ Hr Hw Hf), H2.
    + assert (e = Close r) as ->.
      { eapply events_last_index; [by eapply shape_events_nodup|by eapply shape_root|done|done]. }
      assert (dft_next h (Close r) = None) as E' by (eapply dft_next_none; eauto). by rewrite E' in E.
  - destruct (event_position h K f Hr Hw Hf) as (r & t & j & Ht & Hs & Hj).
    destruct j as [|i].
    + destruct t as [z ts]. pose proof (shape_root _ _ _ Hs) as Hz. simpl in Hz, Hj. simplify_eq.
      assert (dft_prev h (Open r) = Ret None) as E' by (eapply dft_prev_none; eauto). by rewrite E' in E.
    + destruct (dfs_events t !! i) as [e'|] eqn:Hi; [|apply lookup_lt_Some in Hj; apply lookup_ge_None in Hi; lia].
      pose proof (adj_lookup _ _ _ _ _ (shape_adj _ _ _ _ Hr Hw Hs) Hi Hj) as [H1 H2].
      rewrite (dft_prev_g _ _ _ Hr Hw Hf), H2 in E. simplify_eq. by rewrite dft_next_g.
Qed.

End Trav.
