(** * TravFacts2: size hints, skipping, siblings, ancestors. *)
From Verif Require Import IterSpec Spec HeapFacts SpecFacts NavFacts NavFacts2 EditFacts2 EditFacts3 RoseFacts AdjFacts IterFacts TravFacts.

Section Trav.
Context {T : Type}.
Implicit Types (h : heap T) (K : forest).
Notation hadj h := (g_adj (first_child_link h) (lastf h) (next_sibling_link h) (prevf h) (parent_link h)).

(** *** Size hints of the depth-first traversers *)
Definition Pdfs h start (s : dfs_state) (l : list (dft nid)) : Prop :=
  match s with
  | None => l = []
  | Some (e, st) => st = start /\ head l = Some e /\ adj (hadj h) l /\ NoDup l /\ last l = Some (Close start)
  end.

Lemma Pdfs_step h start s l : Pdfs h start s l ->
  exists s', dfs_next h s = Ret (head l, s') /\ Pdfs h start s' (tail l).
Proof.
  destruct s as [[e st]|]; simpl; [|intros ->; by exists None].
  intros (-> & Hh & Ha & Hn & Hl). destruct l as [|e' l]; simplify_eq/=.
  rewrite NoDup_cons in Hn. destruct Hn as [Hne Hn]. destruct Ha as [Hab Ha].
  destruct l as [|b l].
  - simplify_eq/=. exists None. rewrite decide_True by done. done.
  - change (last (b :: l) = Some (Close start)) in Hl.
    assert (e <> Close start). { intros ->. apply Hne. by apply elem_of_last in Hl. }
    rewrite decide_False by done. destruct Hab as [Hs _]. rewrite dft_next_g, Hs.
    exists (Some (b, start)). done.
Qed.

Lemma Pdfs_start h K x t : rep h K -> wf K -> shape K x t -> Pdfs h x (dfs_start (Some x)) (dfs_events t).
Proof.
  intros Hr Hw Hs. simpl. split_and!; [done| | | |].
  - rewrite head_events. by rewrite (shape_root _ _ _ Hs).
  - by eapply shape_adj.
  - by eapply shape_events_nodup.
  - rewrite last_events. by rewrite (shape_root _ _ _ Hs).
Qed.

Lemma nodup_head_last {A} (l : list A) a : NoDup l -> head l = Some a -> last l = Some a -> length l = 1.
Proof.
  destruct l as [|b [|c l]]; try done. intros Hn [= ->] Hl. apply NoDup_cons in Hn as [Hn _].
  change (last (c :: l) = Some a) in Hl. by apply elem_of_last in Hl.
Qed.
Lemma head_last_ge2 {A} (l : list A) a b : head l = Some a -> last l = Some b -> a <> b -> 2 <= length l.
Proof. destruct l as [|c [|d l]]; simpl; intros; simplify_eq; [lia]. Qed.

Lemma dfs_hints h K x t : rep h K -> wf K -> shape K x t ->
  hints_ok (dfs_next h) (fun s => Ret (dfs_size_hint s)) (dfs_start (Some x)) (dfs_events t).
Proof.
  intros Hr Hw Hs. apply (hints_ok_intro (Pdfs h x)); [by eapply Pdfs_start| |by apply Pdfs_step].
  intros [[e st]|] l; simpl; [|intros ->; exists (0, Some 0); split; [done|]; split; simpl; lia].
  intros (-> & Hh & _ & Hn & Hl). eexists. split; [done|]. destruct e as [y|y]; simpl.
  - split; [|done]. simpl. eapply head_last_ge2; eauto.
  - destruct (decide (y = x)) as [->|Hne].
    + rewrite (nodup_head_last l (Close x)) by done. split; simpl; lia.
    + split; [|done]. simpl. destruct l; [done|]. simpl. lia.
Qed.

Definition Prdfs h K start (s : dfs_state) (l : list (dft nid)) : Prop :=
  match s with
  | None => l = []
  | Some (e, st) => st = start /\ head l = Some e /\ adj (hadj h) (rev l) /\ NoDup l /\ last l = Some (Open start) /\
                    (forall e', e' ∈ l -> is_Some (K !! ev_val e'))
  end.

Lemma Prdfs_step h K start s l : rep h K -> wf K -> Prdfs h K start s l ->
  exists s', rdfs_next h s = Ret (head l, s') /\ Prdfs h K start s' (tail l).
Proof.
  intros Hr Hw. destruct s as [[e st]|]; simpl; [|intros ->; by exists None].
  intros (-> & Hh & Ha & Hn & Hl & Hd). destruct l as [|e' l]; simplify_eq/=.
  rewrite NoDup_cons in Hn. destruct Hn as [Hne Hn].
  destruct l as [|b l].
  - simplify_eq/=. exists None. rewrite decide_True by done. done.
  - change (last (b :: l) = Some (Open start)) in Hl.
    assert (e <> Open start). { intros ->. apply Hne. by apply elem_of_last in Hl. }
    rewrite decide_False by done. simpl in Ha. rewrite adj_app in Ha. destruct Ha as (Ha & _ & Hab).
    destruct (Hab b e) as [_ Hs]; [by rewrite last_snoc|done|].
    rewrite (dft_prev_g _ _ _ Hr Hw); [|apply Hd; set_solver]. rewrite Hs. cbn.
    exists (Some (b, start)). split; [done|]. simpl. split_and!; try done. set_solver.
Qed.

Lemma last_rev {A} (l : list A) : last (rev l) = head l.
Proof. destruct l as [|a l]; [done|]. simpl. by rewrite last_snoc. Qed.
Lemma head_rev {A} (l : list A) : head (rev l) = last l.
Proof. rewrite <-(last_rev (rev l)), rev_involutive. done. Qed.

Lemma Prdfs_start h K x t : rep h K -> wf K -> shape K x t -> Prdfs h K x (rdfs_start (Some x)) (rev (dfs_events t)).
Proof.
  intros Hr Hw Hs. simpl. split_and!; [done| | | | |].
  - rewrite head_rev, last_events. by rewrite (shape_root _ _ _ Hs).
  - rewrite rev_involutive. by eapply shape_adj.
  - rewrite <-reverse_rev || idtac. apply NoDup_ListNoDup, NoDup_rev, NoDup_ListNoDup. by eapply shape_events_nodup.
  - rewrite last_rev, head_events. by rewrite (shape_root _ _ _ Hs).
  - intros e He. eapply shape_events_dom; [done|done|]. by apply elem_of_list_In, in_rev, elem_of_list_In in He.
Qed.

Lemma rdfs_hints h K x t : rep h K -> wf K -> shape K x t ->
  hints_ok (rdfs_next h) (fun s => Ret (rdfs_size_hint s)) (rdfs_start (Some x)) (rev (dfs_events t)).
Proof.
  intros Hr Hw Hs. apply (hints_ok_intro (Prdfs h K x)); [by eapply Prdfs_start| |by intros; apply Prdfs_step].
  intros [[e st]|] l; simpl; [|intros ->; exists (0, Some 0); split; [done|]; split; simpl; lia].
  intros (-> & Hh & _ & Hn & Hl & _). eexists. split; [done|]. destruct e as [y|y]; simpl.
  - destruct (decide (y = x)) as [->|Hne].
    + rewrite (nodup_head_last l (Open x)) by done. split; simpl; lia.
    + split; [|done]. simpl. destruct l; [done|]. simpl. lia.
  - split; [|done]. simpl. eapply head_last_ge2; eauto.
Qed.

(** *** Skipping to the close of the current node *)
Lemma close_skip {S A} (nx : S -> run (option (dft A) * S)) (t : rose A) : forall r fuel s d,
  enumerates nx s (dfs_events t ++ r) ->
  exists s', enumerates nx s' r /\
    close_current nx (length (dfs_events t) + fuel) s d = close_current nx fuel s' d.
Proof.
  induction t as [x ts IH] using rose_ind2. intros r fuel s d He. simpl in He.
  destruct (enumerates_inv _ _ _ He) as (s1 & E1 & H1). simpl in H1.
  assert (exists s2, enumerates nx s2 (Close x :: r) /\
    close_current nx (length (concat (map dfs_events ts)) + (1 + fuel)) s1 (Datatypes.S d) =
    close_current nx (1 + fuel) s2 (Datatypes.S d)) as (s2 & H2 & E2).
  { clear He E1. rewrite <-app_assoc in H1. simpl in H1.
    revert s1 H1. induction IH as [|t ts Ht _ IHts]; intros s1 H1; cbn [map concat].
    - exists s1. done.
    - simpl in H1. rewrite <-app_assoc in H1.
      destruct (Ht _ (length (concat (map dfs_events ts)) + (1 + fuel)) _ (Datatypes.S d) H1) as (s2 & H2 & E2).
      destruct (IHts _ H2) as (s3 & H3 & E3). exists s3. split; [done|].
      rewrite app_length, <-Nat.add_assoc, E2. done. }
  destruct (enumerates_inv _ _ _ H2) as (s3 & E3 & H3). simpl in H3. exists s3. split; [done|].
  simpl. rewrite E1. cbn. rewrite app_length, <-Nat.add_assoc. simpl. simpl in E2. rewrite E2, E3. done.
Qed.

Lemma close_skip_list {S A} (nx : S -> run (option (dft A) * S)) (ts : list (rose A)) : forall r fuel s d,
  enumerates nx s (concat (map dfs_events ts) ++ r) ->
  exists s', enumerates nx s' r /\
    close_current nx (length (concat (map dfs_events ts)) + fuel) s d = close_current nx fuel s' d.
Proof.
  induction ts as [|t ts IH]; intros r fuel s d H; simpl in *.
  - exists s. done.
  - rewrite <-app_assoc in H.
    destruct (close_skip nx t _ (length (concat (map dfs_events ts)) + fuel) _ d H) as (s2 & H2 & E2).
    destruct (IH _ fuel _ d H2) as (s3 & H3 & E3). exists s3. split; [done|].
    rewrite app_length, <-Nat.add_assoc, E2. done.
Qed.

Lemma close_current_more {S A} (nx : S -> run (option (dft A) * S)) : forall fuel k s d r,
  close_current nx fuel s d = Ret r -> close_current nx (fuel + k) s d = Ret r.
Proof.
  induction fuel as [|f IH]; intros k s d r E; [done|]. simpl in *.
  destruct (nx s) as [[o s']| |]; cbn in *; try done.
  destruct o as [[a|a]|]; [by apply IH| |done]. destruct d; [done|by apply IH].
Qed.

Lemma close_current_ok {S A} (nx : S -> run (option (dft A) * S)) (ts : list (rose A)) y r s fuel :
  enumerates nx s (concat (map dfs_events ts) ++ Close y :: r) ->
  length (concat (map dfs_events ts)) < fuel ->
  exists s', close_current nx fuel s 0 = Ret (Some y, s') /\ enumerates nx s' r.
Proof.
  intros H Hf. destruct (close_skip_list nx ts _ 1 _ 0 H) as (s2 & H2 & E2).
  destruct (enumerates_inv _ _ _ H2) as (s3 & E3 & H3). simpl in H3. exists s3. split; [|done].
  replace fuel with (length (concat (map dfs_events ts)) + 1 + (fuel - (length (concat (map dfs_events ts)) + 1))) by lia.
  apply close_current_more. rewrite E2. simpl. rewrite E3. done.
Qed.

Lemma close_current_end {S A} (nx : S -> run (option (dft A) * S)) s fuel :
  enumerates nx s [] -> 0 < fuel -> exists s', close_current nx fuel s 0 = Ret (None, s') /\ enumerates nx s' [].
Proof.
  intros H Hf. destruct fuel; [lia|]. destruct (enumerates_inv _ _ _ H) as (s3 & E3 & H3). exists s3.
  simpl in *. rewrite E3. done.
Qed.

(** *** Siblings and ancestors *)
Lemma sib_none h : enumerates (sib_next h) None [].
Proof. by apply enumerates_nil. Qed.
Lemma rsib_none h : enumerates (rsib_next h) None [].
Proof. by apply enumerates_nil. Qed.
Lemma anc_none h : enumerates (anc_next h) None [].
Proof. by apply enumerates_nil. Qed.

Lemma sib_enum h K p l1 l2 : rep h K -> K !! p = Some (l1 ++ l2) -> enumerates (sib_next h) (head l2) l2.
Proof.
  intros Hr. revert l1. induction l2 as [|c l2 IH]; intros l1 Hp; [apply sib_none|].
  eapply enumerates_cons with (s' := head l2).
  - simpl. unfold next_sibling_link. by rewrite (fnext_split _ _ _ _ _ _ Hr Hp).
  - apply (IH (l1 ++ [c])). by rewrite <-app_assoc.
Qed.
Lemma sib_enum_top h K x : rep h K -> is_top K x -> enumerates (sib_next h) (Some x) [x].
Proof.
  intros Hr Hx. eapply enumerates_cons; [|apply sib_none]. simpl. unfold next_sibling_link.
  by rewrite (fnext_top _ _ _ Hr Hx).
Qed.
Lemma rsib_enum h K p l1 l2 : rep h K -> wf K -> K !! p = Some (l1 ++ l2) -> enumerates (rsib_next h) (last l1) (rev l1).
Proof.
  intros Hr Hw. revert l2. induction l1 as [|c l1 IH] using rev_ind; intros l2 Hp; [apply rsib_none|].
  rewrite rev_app_distr, last_snoc. rewrite <-app_assoc in Hp. simpl in *.
  eapply enumerates_cons with (s' := last l1).
  - simpl. by rewrite (prev_sibling_split _ _ _ _ _ _ Hr Hw Hp).
  - by eapply IH.
Qed.
Lemma rsib_enum_top h K x : rep h K -> is_top K x -> enumerates (rsib_next h) (Some x) [x].
Proof.
  intros Hr Hx. eapply enumerates_cons; [|apply rsib_none]. simpl.
  by rewrite (prev_sibling_top _ _ _ Hr Hx).
Qed.
Lemma anc_enum h K x l : rep h K -> anc K x l -> enumerates (anc_next h) (Some x) (x :: l).
Proof.
  intros Hr. induction 1 as [x Hx|x p l Hp Hl IH].
  - eapply enumerates_cons; [|apply anc_none]. simpl. by rewrite (parent_link_top _ _ _ Hr Hx).
  - eapply enumerates_cons; [|exact IH]. simpl. by rewrite (parent_link_child _ _ _ _ Hr Hp).
Qed.

Lemma skip1_enum {S I} (nx : S -> run (option I * S)) s l : enumerates nx s l -> starts (skip1 nx s) nx (tail l).
Proof.
  intros H. destruct (enumerates_inv _ _ _ H) as (s' & E & H'). exists s'. unfold skip1. rewrite E. done.
Qed.

Lemma opt_hints (nx : option nid -> run (option nid * option nid)) s l :
  (forall s l, enumerates nx s l -> match s with Some _ => l <> [] | None => l = [] end) ->
  enumerates nx s l -> hints_ok nx (fun s => Ret (opt_size_hint s)) s l.
Proof.
  intros Hne H. apply (hints_ok_intro (enumerates nx)); [done| |].
  - intros s1 l1 H1. specialize (Hne _ _ H1). eexists. split; [done|]. destruct s1; simpl.
    + split; [|done]. simpl. destruct l1; [done|]. simpl; lia.
    + subst. split; simpl; lia.
  - intros s1 l1 H1. destruct (enumerates_inv _ _ _ H1) as (s' & E & H'). eauto.
Qed.
Lemma sib_hints h s l : enumerates (sib_next h) s l -> hints_ok (sib_next h) (fun s => Ret (opt_size_hint s)) s l.
Proof.
  apply opt_hints. intros [x|] l' H; specialize (H 1); simpl in H; destruct l'; by simplify_eq/=.
Qed.
Lemma rsib_hints h s l : enumerates (rsib_next h) s l -> hints_ok (rsib_next h) (fun s => Ret (opt_size_hint s)) s l.
Proof.
  apply opt_hints. intros [x|] l' H; specialize (H 1); simpl in H; destruct l'; simplify_eq/=; try done;
  by destruct (prev_sibling_link h x); simplify_eq/=.
Qed.
Lemma anc_hints h s l : enumerates (anc_next h) s l -> hints_ok (anc_next h) (fun s => Ret (opt_size_hint s)) s l.
Proof.
  apply opt_hints. intros [x|] l' H; specialize (H 1); simpl in H; destruct l'; by simplify_eq/=.
Qed.

(** Counting. *)
Lemma count_enum (f : nid -> run (option nid)) nx s l fuel :
  (forall x, nx (Some x) = (y ← f x; Ret (Some x, y))) -> nx None = Ret (None, None) ->
  enumerates nx s l -> length l <= fuel -> count_successors f fuel s = Ret (length l).
Proof.
  intros Hs Hn. revert s l. induction fuel as [|fuel IH]; intros s l H Hl;
    destruct (enumerates_inv _ _ _ H) as (s' & E & H'); destruct s as [x|].
  - rewrite Hs in E. destruct l; [|simpl in Hl; lia]. destruct (f x); simplify_eq/=.
  - rewrite Hn in E. destruct l; by simplify_eq/=.
  - rewrite Hs in E. simpl. destruct (f x) as [y| |] eqn:Ef; cbn in E; simplify_eq/=.
    destruct l as [|z l]; simplify_eq/=. rewrite (IH _ l); [done|done|lia].
  - rewrite Hn in E. destruct l; by simplify_eq/=.
Qed.

End Trav.
