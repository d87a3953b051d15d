(** * TravFacts3: the shallow depth-first traverser. *)
From Verif Require Import IterSpec Spec HeapFacts SpecFacts NavFacts NavFacts2 EditFacts2 RoseFacts AdjFacts IterFacts TravFacts TravFacts2.

Local Arguments sh_forward : simpl never.
Local Arguments sh_backward : simpl never.

Section Sh.
Context {T : Type}.
Implicit Types (h : heap T) (K : forest) (max : option nat).

(** Neighbour functions of the depth-limited, depth-labelled tree. *)
Definition s_first h max (v : nid * nat) : option (nid * nat) :=
  if decide (max = Some v.2) then None else (fun c => (c, S v.2)) <$> first_child_link h v.1.
Definition s_last h max (v : nid * nat) : option (nid * nat) :=
  if decide (max = Some v.2) then None else (fun c => (c, S v.2)) <$> lastf h v.1.
Definition s_next h (v : nid * nat) : option (nid * nat) := (fun c => (c, v.2)) <$> next_sibling_link h v.1.
Definition s_prev h (v : nid * nat) : option (nid * nat) := (fun c => (c, v.2)) <$> prevf h v.1.
Definition s_parent h (v : nid * nat) : option (nid * nat) :=
  match v.2 with 0 => None | S d => (fun c => (c, d)) <$> parent_link h v.1 end.

Notation sadj h max := (g_adj (s_first h max) (s_last h max) (s_next h) (s_prev h) (s_parent h)).
Notation scoh h max := (coh (s_first h max) (s_last h max) (s_next h) (s_prev h) (s_parent h)).
Notation hcoh h := (coh (first_child_link h) (lastf h) (next_sibling_link h) (prevf h) (parent_link h)).

Lemma cut_root {A} m (t : rose A) : rose_root (rose_cut m t) = rose_root t.
Proof. by destruct t. Qed.
Lemma depths_root {A} d (t : rose A) : rose_root (rose_depths d t) = (rose_root t, d).
Proof. by destruct t. Qed.

Definition cut_below (m : option nat) : option nat := match m with Some (S m') => Some m' | _ => None end.

Lemma cut_unfold {A} m x (ts : list (rose A)) :
  rose_cut m (Rose x ts) = Rose x (if decide (m = Some 0) then [] else map (rose_cut (cut_below m)) ts).
Proof. destruct m as [[|m]|]; done. Qed.

Lemma coh_cut h max t : forall d m, hcoh h t -> max = (fun m => d + m) <$> m -> scoh h max (rose_depths d (rose_cut m t)).
Proof.
  induction t as [x ts IH] using rose_ind2. intros d m Hc Hm.
  inversion Hc as [? ? Hf Hl Hs Hk]; subst x0 ts0. rewrite cut_unfold. simpl rose_depths.
  destruct (decide (m = Some 0)) as [->|Hm0].
  { assert (max = Some d) as -> by (rewrite Hm; simpl; f_equal; lia).
    constructor; simpl.
    - unfold s_first. simpl. by rewrite decide_True.
    - unfold s_last. simpl. by rewrite decide_True.
    - intros l1 c l2 E. by destruct l1.
    - constructor. }
  assert (max <> Some d) as Hmd. { rewrite Hm. destruct m as [m|]; simpl; [|done]. intros [= E]. apply Hm0. f_equal. lia. }
  set (F := fun t : rose nid => rose_depths (S d) (rose_cut (cut_below m) t)).
  assert (map (rose_depths (S d)) (map (rose_cut (cut_below m)) ts) = F <$> ts) as -> by (by rewrite map_map).
  assert (forall t, rose_root (F t) = (rose_root t, S d)) as HF.
  { intros t. unfold F. by rewrite depths_root, cut_root. }
  constructor.
  - unfold s_first. simpl. rewrite decide_False, Hf by done. destruct ts; simpl; [done|]. by rewrite HF.
  - unfold s_last. simpl. rewrite decide_False, Hl by done. rewrite fmap_last. destruct (last ts); simpl; [|done]. by rewrite HF.
  - intros l1 c l2 E. apply fmap_app_inv in E as (k1 & k2' & -> & E2 & ->).
    symmetry in E2. apply fmap_cons_inv in E2 as (c' & k2 & -> & -> & ->) || (destruct k2' as [|c' k2]; simpl in E2; [done|]; injection E2 as <- <-).
    destruct (Hs k1 c' k2 eq_refl) as (Hn & Hp & Hpa). rewrite HF. unfold s_next, s_prev, s_parent. simpl.
    rewrite Hn, Hp, Hpa. split_and!; [|  |done].
    + destruct k2; simpl; [done|]. by rewrite HF.
    + rewrite fmap_last. destruct (last k1); simpl; [|done]. by rewrite HF.
  - rewrite Forall_fmap. rewrite Forall_forall in *. intros t Ht. simpl. unfold F. apply IH; [done|by apply Hk|].
    rewrite Hm. destruct m as [[|m]|]; simpl; [done| |done]. f_equal. lia.
Qed.

(** Nodes of the cut and labelled tree. *)
Lemma nodes_depths {A} (t : rose A) d : map fst (rose_nodes (rose_depths d t)) = rose_nodes t.
Proof.
  revert d. induction t as [x ts IH] using rose_ind2. intros d. simpl. f_equal.
  rewrite concat_map. f_equal. rewrite !map_map. apply map_ext_in. intros t Ht.
  rewrite Forall_forall in IH. apply IH. by apply elem_of_list_In.
Qed.
Lemma nodes_cut {A} (t : rose A) m : sublist (rose_nodes (rose_cut m t)) (rose_nodes t).
Proof.
  revert m. induction t as [x ts IH] using rose_ind2. intros m. rewrite cut_unfold. simpl. constructor.
  destruct (decide _); [apply sublist_nil_l|]. rewrite map_map.
  induction IH as [|t ts Ht _ IHts]; simpl; [constructor|]. by apply sublist_app.
Qed.
Lemma events_map {A B} (f : A -> B) (t : rose A) : map (ev_map f) (dfs_events t) = dfs_events (rose_map f t).
Proof.
  induction t as [x ts IH] using rose_ind2. simpl. rewrite map_app. simpl. f_equal. f_equal.
  rewrite concat_map. f_equal. rewrite !map_map. apply map_ext_in. intros t Ht.
  rewrite Forall_forall in IH. apply IH. by apply elem_of_list_In.
Qed.
Lemma nodes_map {A B} (f : A -> B) (t : rose A) : rose_nodes (rose_map f t) = map f (rose_nodes t).
Proof.
  induction t as [x ts IH] using rose_ind2. simpl. f_equal.
  rewrite concat_map. f_equal. rewrite !map_map. apply map_ext_in. intros t Ht.
  rewrite Forall_forall in IH. apply IH. by apply elem_of_list_In.
Qed.

Lemma sublist_NoDup' {A} (l k : list A) : NoDup k -> sublist l k -> NoDup l.
Proof.
  intros Hn Hs. induction Hs as [|x l k Hs IH|x l k Hs IH]; [constructor| |].
  - apply NoDup_cons in Hn as [Hx Hn]. constructor; [|by apply IH].
    intros Hin. apply Hx. eapply elem_of_submseteq; [done|]. by apply sublist_submseteq.
  - apply NoDup_cons in Hn as [_ Hn]. by apply IH.
Qed.

(** *** The iteration invariant *)
Definition Psh h K max (s : sh_state) (l : list (dft (nid * nat))) : Prop :=
  match s with
  | None => l = []
  | Some (e, eb) => head l = Some e /\ last l = Some eb /\ adj (sadj h max) l /\ NoDup (map (ev_map fst) l) /\
                    (forall e, e ∈ l -> is_Some (K !! (ev_val e).1))
  end.

Lemma Psh_start h K max x t : rep h K -> wf K -> shape K x t ->
  Psh h K max (sh_start (Some x)) (dfs_events (rose_depths 0 (rose_cut max t))).
Proof.
  intros Hr Hw Hs. simpl. set (t' := rose_depths 0 (rose_cut max t)).
  assert (rose_root t' = (x, 0)) as Ht' by (unfold t'; by rewrite depths_root, cut_root, (shape_root _ _ _ Hs)).
  assert (forall v, v ∈ rose_nodes t' -> v.1 ∈ rose_nodes t) as Hsub.
  { intros v Hv. eapply elem_of_submseteq; [|apply sublist_submseteq, nodes_cut].
    rewrite <-(nodes_depths (rose_cut max t) 0). by apply elem_of_list_fmap_1. }
  split_and!.
  - by rewrite head_events, Ht'.
  - by rewrite last_events, Ht'.
  - apply coh_adj. apply coh_cut; [by eapply shape_coh|]. destruct max; done.
  - rewrite events_map. apply dfs_events_nodup. rewrite nodes_map. unfold t'. rewrite nodes_depths.
    eapply sublist_NoDup'; [|apply nodes_cut]. by eapply shape_nodup.
  - intros e He. apply dfs_events_elem in He. eapply below_dom; [done| |].
    + inversion Hs; subst. eauto.
    + eapply shape_nodes; [done|]. by apply Hsub.
Qed.

Lemma sh_same_single e : sh_same e e = Ret true.
Proof. destruct e as [[x d]|[x d]]; simpl; rewrite decide_True, bool_decide_eq_true_2 by done; done. Qed.
Lemma sh_same_diff e eb : ev_map fst e <> ev_map fst eb -> sh_same e eb = Ret false.
Proof. destruct e as [[x d]|[x d]], eb as [[y d']|[y d']]; simpl; intros H; try done; rewrite decide_False; [done|congruence|done|congruence]. Qed.

Lemma Psh_diff l (e eb b : dft (nid * nat)) l' : l = e :: b :: l' -> NoDup (map (ev_map fst) l) -> last l = Some eb ->
  ev_map fst e <> ev_map fst eb.
Proof.
  intros -> Hn Hl E. change (last (b :: l') = Some eb) in Hl.
  change (NoDup (ev_map fst e :: map (ev_map fst) (b :: l'))) in Hn. apply NoDup_cons in Hn as [Hn _]. apply Hn.
  rewrite E. apply elem_of_list_fmap_1. by apply elem_of_last.
Qed.

Lemma sh_forward_step h max e eb b : sh_same e eb = Ret false -> sadj h max e b ->
  sh_forward h max (Some (e, eb)) = Ret (Some b).
Proof.
  intros Es [Hs _]. unfold sh_forward. rewrite Es. cbn.
  destruct e as [[x d]|[x d]]; simpl in Hs; unfold s_first, s_next, s_parent in Hs; simpl in Hs.
  - destruct (decide (max = Some d)); [by simplify_eq|]. destruct (first_child_link h x); by simplify_eq/=.
  - destruct (next_sibling_link h x); simpl in Hs; [by simplify_eq|].
    destruct d as [|d]; [done|]. destruct (parent_link h x); by simplify_eq/=.
Qed.
Lemma sh_backward_step h K max e eb b : rep h K -> wf K -> is_Some (K !! (ev_val eb).1) ->
  sh_same e eb = Ret false -> sadj h max b eb ->
  sh_backward h max (Some (e, eb)) = Ret (Some b).
Proof.
  intros Hr Hw Hx Es [_ Hs]. unfold sh_backward. rewrite Es. cbn.
  destruct eb as [[x d]|[x d]]; simpl in Hs, Hx; unfold s_last, s_prev, s_parent in Hs; simpl in Hs.
  - rewrite (prevf_ok _ _ _ Hr Hw Hx). cbn. destruct (prevf h x); simpl in Hs; [by simplify_eq|].
    destruct d as [|d]; [done|]. destruct (parent_link h x); by simplify_eq/=.
  - destruct (decide (max = Some d)); [by simplify_eq|]. rewrite (lastf_ok _ _ _ Hr Hw Hx). cbn.
    destruct (lastf h x); by simplify_eq/=.
Qed.

Lemma Psh_next h K max s l : rep h K -> wf K -> Psh h K max s l ->
  exists s', sh_next h max s = Ret (head l, s') /\ Psh h K max s' (tail l).
Proof.
  intros Hr Hw. destruct s as [[e eb]|]; simpl; [|intros ->; by exists None].
  intros (Hh & Hl & Ha & Hn & Hd). destruct l as [|e' l]; simplify_eq/=.
  destruct l as [|b l].
  - simplify_eq/=. exists None. unfold sh_forward. rewrite sh_same_single. done.
  - pose proof (Psh_diff _ _ _ _ _ eq_refl Hn Hl) as Hdiff. destruct Ha as [Hab Ha].
    exists (Some (b, eb)).
    rewrite (sh_forward_step h max e eb b (sh_same_diff _ _ Hdiff) Hab). cbn. split; [done|].
    simpl. split_and!; [done|exact Hl|apply Ha|apply Ha| |].
    + by apply NoDup_cons in Hn as [_ ?].
    + intros e' He'. apply Hd. set_solver.
Qed.

Lemma Psh_next_back h K max s l : rep h K -> wf K -> Psh h K max s l ->
  exists s', sh_next_back h max s = Ret (last l, s') /\ Psh h K max s' (take (length l - 1) l).
Proof.
  intros Hr Hw. destruct s as [[e eb]|]; simpl; [|intros ->; by exists None].
  intros (Hh & Hl & Ha & Hn & Hd).
  destruct (list_snoc_inv l) as [->|(l' & z & ->)]; [done|]. rewrite last_snoc in *. simplify_eq.
  rewrite app_length. simpl. rewrite Nat.add_sub, take_app.
  destruct (list_snoc_inv l') as [->|(l2 & b & ->)].
  - simplify_eq/=. exists None. unfold sh_backward. rewrite sh_same_single. done.
  - assert (ev_map fst e <> ev_map fst eb) as Hdiff.
    { intros E. rewrite map_app in Hn. apply NoDup_app in Hn as (_ & Hn & _).
      apply (Hn (ev_map fst e)); [|rewrite E; set_solver].
      apply elem_of_list_fmap_1. destruct l2; simplify_eq/=; set_solver. }
    rewrite adj_app in Ha. destruct Ha as (Ha & _ & Hab).
    exists (Some (e, b)).
    rewrite (sh_backward_step h K max e eb b Hr Hw); [|apply Hd; set_solver|by apply sh_same_diff|apply Hab; [by rewrite last_snoc|done]].
    cbn. split; [done|]. split_and!.
    + by destruct l2.
    + by rewrite last_snoc.
    + done.
    + rewrite map_app in Hn. by apply NoDup_app in Hn as (? & _ & _).
    + intros e' He'. apply Hd. set_solver.
Qed.

Lemma sh_double h K max x t : rep h K -> wf K -> shape K x t ->
  double_ended (sh_next h max) (sh_next_back h max) (sh_start (Some x)) (dfs_events (rose_depths 0 (rose_cut max t))).
Proof.
  intros Hr Hw Hs. apply (double_ended_intro (Psh h K max)); [by apply Psh_start| |].
  - intros; by apply Psh_next.
  - intros; by apply Psh_next_back.
Qed.

(** *** Size hint *)
Definition lv_before (e : dft (nid * nat)) : nat := match e with Open v => v.2 | Close v => S v.2 end.
Definition lv_after (e : dft (nid * nat)) : nat := match e with Open v => S v.2 | Close v => v.2 end.

Lemma sadj_level h max a b : sadj h max a b -> lv_after a = lv_before b.
Proof.
  intros [Hs _]. destruct a as [[x d]|[x d]]; simpl in Hs; unfold s_first, s_next, s_parent in Hs; simpl in Hs.
  - destruct (decide _); [by simplify_eq|]. destruct (first_child_link h x); by simplify_eq/=.
  - destruct (next_sibling_link h x); [by simplify_eq/=|]. destruct d; [done|]. destruct (parent_link h x); by simplify_eq/=.
Qed.

Lemma adj_levels h max m : forall a b, adj (sadj h max) (a :: m ++ [b]) ->
  lv_after a <= lv_before b + length m /\ lv_before b <= lv_after a + length m /\
  exists k, lv_before b + length m = lv_after a + 2 * k.
Proof.
  induction m as [|c m IH]; intros a b H.
  - simpl in H. destruct H as [H _]. apply sadj_level in H. simpl. split_and!; try lia. exists 0. lia.
  - rewrite <-app_comm_cons in H. rewrite adj_cons in H. destruct H as [Hac H].
    pose proof (sadj_level _ _ _ _ (Hac c eq_refl)) as Hlv. destruct (IH _ _ H) as (H1 & H2 & k & H3). simpl.
    assert (lv_after c = S (lv_before c) \/ S (lv_after c) = lv_before c) as [Hc|Hc] by (destruct c; simpl; lia).
    + split_and!; try lia. exists (S k). lia.
    + split_and!; try lia. exists k. lia.
Qed.

Lemma open_close_adjacent h max x y d d' : sadj h max (Open (x, d)) (Close (y, d')) -> x = y.
Proof.
  intros [Hs _]. simpl in Hs. unfold s_first in Hs. simpl in Hs.
  destruct (decide _); [by simplify_eq|]. destruct (first_child_link h x); by simplify_eq/=.
Qed.

(** The size hint: the lower bound always holds; the upper bound holds unless it
    is the bound 2 given for (Open x, Close x). *)
Lemma sh_hint h K max s l : Psh h K max s l ->
  exists b, sh_size_hint s = Ret b /\ fst b <= length l /\
    match snd b with Some u => u = 2 \/ length l <= u | None => True end.
Proof.
  destruct s as [[e eb]|]; simpl; [|intros ->; exists (0, Some 0); simpl; split_and!; auto].
  intros (Hh & Hl & Ha & Hn & _). destruct l as [|e' l]; simplify_eq/=.
  destruct (list_snoc_inv l) as [->|(m & z & ->)].
  { simplify_eq/=. destruct eb as [[x d]|[x d]]; rewrite decide_True, bool_decide_eq_true_2 by done; cbn;
      exists (1, Some 1); simpl; split_and!; auto; lia. }
  assert (z = eb) as ->. { rewrite app_comm_cons, last_snoc in Hl. by simplify_eq. }
  destruct (adj_levels _ _ _ _ _ Ha) as (H1 & H2 & k & H3). rewrite app_length. simpl.
  assert (ev_map fst e <> ev_map fst eb) as Hdiff.
  { intros E. apply NoDup_cons in Hn as [Hn _]. apply Hn. rewrite E, map_app. set_solver. }
  destruct e as [[x d]|[x d]], eb as [[y d']|[y d']]; simpl in *.
  - rewrite decide_False by congruence. eexists. split; [done|]. simpl. split; [|done].
    destruct (Nat.ltb_spec d' d); [lia|]. destruct (Nat.eqb_spec d d'); lia.
  - destruct (Nat.ltb_spec d' d); [eexists; split; [done|]; simpl; split; [lia|done]|].
    destruct (Nat.eqb_spec d d'); [|eexists; split; [done|]; simpl; split; [lia|done]].
    destruct (decide (x = y)); (eexists; split; [done|]; simpl; split); [lia|by left| |done].
    destruct m as [|c m]; [|simpl in *; destruct k as [|[|k]]; lia].
    destruct Ha as [Ha _]. by apply open_close_adjacent in Ha.
  - destruct (Nat.ltb_spec d' d); [eexists; split; [done|]; simpl; split; [lia|done]|].
    destruct (Nat.eqb_spec d d'); (eexists; split; [done|]; simpl; split; [lia|done]).
  - rewrite decide_False by congruence. eexists. split; [done|]. simpl. split; [|done].
    destruct (Nat.ltb_spec d' d); [lia|]. destruct (Nat.eqb_spec d d'); lia.
Qed.

End Sh.
