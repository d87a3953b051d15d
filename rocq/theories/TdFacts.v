(** * TdFacts: the tree destructor frees exactly the nodes of its tree. *)
From Verif Require Import Heap System SysSpec HeapFacts SpecFacts NavFacts EditFacts EditFacts2 EditFacts3 IterSpec RoseFacts Spec.

(** Events of a subtree, as a number of turns of the loop. *)
Notation turns t := (length (dfs_events t)).

Section Td.
Context {T : Type}.
Implicit Types (h : heap T) (s : sys T).

(** Every node has at most one owning link. *)
Definition owned1 h : Prop :=
  (forall y1 y2 v, fnext h y1 = Some v -> fnext h y2 = Some v -> y1 = y2) /\
  (forall y1 y2 v, ffirst h y1 = Some v -> ffirst h y2 = Some v -> y1 = y2) /\
  (forall y1 y2 v, ffirst h y1 = Some v -> fnext h y2 = Some v -> False).

(** Nothing outside the heap refers to [v]. *)
Definition unheld s (v : nid) : Prop :=
  (forall i k, s_hands s !! i <> Some (HNode k v)) /\
  (forall t tr, s_trees s !! t = Some tr -> t_root tr <> v).

Lemma existsb_map_false {V} `{EqDecision K, Countable K} (m : gmap K V) (f : K * V -> bool) :
  existsb f (map_to_list m) = false <-> forall k v, m !! k = Some v -> f (k, v) = false.
Proof.
  split.
  - intros H0 k v Hk. destruct (f (k, v)) eqn:E; [|done].
    assert (existsb f (map_to_list m) = true) as H1; [|by rewrite H0 in H1].
    apply existsb_exists. exists (k, v). split; [|done].
    by apply elem_of_list_In, elem_of_map_to_list.
  - intros H0. destruct (existsb f (map_to_list m)) eqn:E; [|done].
    apply existsb_exists in E as ([k v] & Hin & E).
    apply elem_of_list_In, elem_of_map_to_list in Hin. by rewrite (H0 _ _ Hin) in E.
Qed.

Lemma existsb_map_true {V} `{EqDecision K, Countable K} (m : gmap K V) (f : K * V -> bool) :
  existsb f (map_to_list m) = true <-> exists k v, m !! k = Some v /\ f (k, v) = true.
Proof.
  rewrite existsb_exists. split.
  - intros ([k v] & Hin & E). apply elem_of_list_In, elem_of_map_to_list in Hin. eauto.
  - intros (k & v & Hk & E). exists (k, v). split; [|done]. by apply elem_of_list_In, elem_of_map_to_list.
Qed.

Lemma opt_is_true o x : opt_is o x = true <-> o = Some x.
Proof. destruct o; simpl; [rewrite bool_decide_eq_true|]; naive_solver. Qed.

Lemma field_first h y v : ffirst h y = Some v <-> exists nd, h !! y = Some nd /\ n_first nd = Some v.
Proof. unfold ffirst. destruct (h !! y); simpl; naive_solver. Qed.
Lemma field_next h y v : fnext h y = Some v <-> exists nd, h !! y = Some nd /\ n_next nd = Some v.
Proof. unfold fnext. destruct (h !! y); simpl; naive_solver. Qed.

Lemma referenced_true s pins x :
  referenced s pins x = true <->
  x ∈ pins \/ (exists i k, s_hands s !! i = Some (HNode k x)) \/
  (exists y, ffirst (s_nodes s) y = Some x \/ fnext (s_nodes s) y = Some x) \/
  (exists t tr, s_trees s !! t = Some tr /\ t_root tr = x).
Proof.
  unfold referenced. rewrite !orb_true_iff, !existsb_map_true, bool_decide_eq_true.
  split.
  - intros [[[H|(i & hd & H1 & H2)]|(y & nd & H1 & H2)]|(t & tr & H1 & H2)].
    + by left.
    + right; left. destruct hd; simpl in H2; try discriminate H2. apply bool_decide_eq_true in H2. naive_solver.
    + right; right; left. exists y. simpl in H2. rewrite orb_true_iff, !opt_is_true in H2.
      rewrite field_first, field_next. naive_solver.
    + right; right; right. apply bool_decide_eq_true in H2. naive_solver.
  - intros [H|[(i & k & H)|[(y & H)|(t & tr & H1 & H2)]]].
    + auto.
    + left; left; right. exists i, (HNode k x). split; [done|]. simpl. by apply bool_decide_eq_true.
    + left; right. rewrite field_first, field_next in H.
      destruct H as [(nd & H1 & H2)|(nd & H1 & H2)]; exists y, nd; simpl; rewrite orb_true_iff, !opt_is_true; auto.
    + right. exists t, tr. simpl. rewrite bool_decide_eq_true. auto.
Qed.

Lemma referenced_false s pins x :
  x ∉ pins -> unheld s x ->
  (forall y, ffirst (s_nodes s) y <> Some x) -> (forall y, fnext (s_nodes s) y <> Some x) ->
  referenced s pins x = false.
Proof.
  intros H1 [H2 H2'] H3 H4. apply not_true_is_false. rewrite referenced_true.
  naive_solver.
Qed.

Lemma release_noop s pins x : referenced s pins x = true -> release_all s pins x = Ret s.
Proof.
  intros H. unfold release_all, walk_fuel. simpl.
  destruct (s_nodes s !! x); [|done]. by rewrite H.
Qed.

Lemma release_dead s pins x : s_nodes s !! x = None -> release_all s pins x = Ret s.
Proof. intros H. unfold release_all, walk_fuel. simpl. by rewrite H. Qed.

Lemma release_free s pins x nd m : s_nodes s !! x = Some nd -> referenced s pins x = false ->
  n_first nd = None -> n_next nd = None -> n_mem nd = MWeak m ->
  release_all s pins x = Ret (with_nodes s (delete x (s_nodes s))).
Proof.
  intros H1 H2 H3 H4 H5. unfold release_all, walk_fuel. simpl.
  by rewrite H1, H2, H5, H3, H4.
Qed.

(** Heap after the turn [Close v]. *)
Definition cut h (pins : list nid) (v p : nid) (nx : option nid) : heap T :=
  let h2 := set_first (set_next h v None) p nx in
  if decide (v ∈ pins) then h2 else delete v h2.

(** A subtree in the heap, as the destructor sees it. *)
Fixpoint tds h (p : option nid) (nx : option nid) (t : rose nid) {struct t} : Prop :=
  match t with
  | Rose v ts =>
      (exists nd m, h !! v = Some nd /\ n_parent nd = p /\ n_next nd = nx /\
         n_first nd = head (map rose_root ts) /\ n_mem nd = MWeak m) /\
      (fix go ts := match ts with
       | [] => True
       | t :: ts' => tds h (Some v) (head (map rose_root ts')) t /\ go ts'
       end) ts
  end.
Fixpoint tdl h (v : nid) (ts : list (rose nid)) : Prop :=
  match ts with
  | [] => True
  | t :: ts' => tds h (Some v) (head (map rose_root ts')) t /\ tdl h v ts'
  end.

Lemma tds_unfold h p nx v ts : tds h p nx (Rose v ts) <->
  (exists nd m, h !! v = Some nd /\ n_parent nd = p /\ n_next nd = nx /\
     n_first nd = head (map rose_root ts) /\ n_mem nd = MWeak m) /\ tdl h v ts.
Proof.
  simpl. assert (forall l, (fix go ts := match ts with
       | [] => True
       | t :: ts' => tds h (Some v) (head (map rose_root ts')) t /\ go ts'
       end) l <-> tdl h v l) as E; [|by rewrite E].
  induction l as [|a l IH]; simpl; [done|]. by rewrite IH.
Qed.

Lemma tds_frame h h' : forall t p nx, tds h p nx t -> (forall y, y ∈ rose_nodes t -> h' !! y = h !! y) -> tds h' p nx t.
Proof.
  induction t as [v ts IH] using rose_ind2. intros p nx H Hf.
  rewrite tds_unfold in H |- *. destruct H as [(nd & m & H1 & H2) H3].
  split. { exists nd, m. split; [|done]. rewrite Hf; [done|]. simpl. by left. }
  assert (forall y, y ∈ concat (map rose_nodes ts) -> h' !! y = h !! y) as Hf'.
  { intros y Hy. apply Hf. simpl. by right. }
  clear -IH H3 Hf'. induction ts as [|t ts IHl]; [done|]. simpl in *.
  inversion IH; subst. destruct H3 as [H3 H4]. split.
  - apply H1; [done|]. intros y Hy. apply Hf'. set_solver.
  - apply IHl; [done..|]. intros y Hy. apply Hf'. set_solver.
Qed.

Lemma tdl_frame h h' v ts : tdl h v ts -> (forall y, y ∈ concat (map rose_nodes ts) -> h' !! y = h !! y) -> tdl h' v ts.
Proof.
  induction ts as [|t ts IH]; [done|]. simpl. intros [H1 H2] Hf. split.
  - eapply tds_frame; [done|]. intros y Hy. apply Hf. set_solver.
  - apply IH; [done|]. intros y Hy. apply Hf. set_solver.
Qed.

Lemma owned1_cut h pins v p : owned1 h -> ffirst h p = Some v -> is_Some (h !! v) ->
  owned1 (cut h pins v p (fnext h v)).
Proof.
  intros (A & B & C) Hpv Hv.
  set (h2 := set_first (set_next h v None) p (fnext h v)).
  assert (alive h p = true) as Hap.
  { unfold alive. apply bool_decide_eq_true. unfold ffirst in Hpv. destruct (h !! p); [eauto|done]. }
  assert (alive h v = true) as Hav by (by apply bool_decide_eq_true).
  assert (owned1 h2) as H2.
  { unfold h2. split_and!; intros y1 y2 w; hs; rewrite ?Hap, ?Hav; intros E1 E2; simplify_eq; try eauto; try naive_solver. }
  unfold cut. fold h2. destruct (decide (v ∈ pins)); [done|].
  assert (forall y w, fnext (delete v h2) y = Some w -> fnext h2 y = Some w) as N.
  { intros y w. unfold fnext. destruct (decide (y = v)) as [->|]; [by rewrite lookup_delete|by rewrite lookup_delete_ne]. }
  assert (forall y w, ffirst (delete v h2) y = Some w -> ffirst h2 y = Some w) as F.
  { intros y w. unfold ffirst. destruct (decide (y = v)) as [->|]; [by rewrite lookup_delete|by rewrite lookup_delete_ne]. }
  destruct H2 as (A' & B' & C'). split_and!; naive_solver.
Qed.

Section Walk.
Context (s : sys T) (pins : list nid).

Lemma with_nodes_nodes h : s_nodes (with_nodes s h) = h.
Proof. done. Qed.

Lemma close_turn h v p nd m fuel :
  owned1 h -> unheld s v -> h !! v = Some nd -> n_parent nd = Some p -> n_first nd = None -> n_mem nd = MWeak m ->
  ffirst h p = Some v -> p <> v -> n_next nd <> Some v ->
  teardown (S fuel) pins (with_nodes s h) (Some (Close v)) =
  teardown fuel pins (with_nodes s (cut h pins v p (n_next nd)))
    (Some (match n_next nd with Some y => Open y | None => Close p end)).
Proof.
  intros Ho Hu Hv Hp Hf Hm Hpv Hne Hnx.
  assert (is_Some (h !! p)) as [np Hnp] by (unfold ffirst in Hpv; destruct (h !! p); [eauto|done]).
  assert (alive h p = true) as Hap by (unfold alive; apply bool_decide_eq_true; eauto).
  assert (fnext h v = n_next nd) as Hfn by (unfold fnext; by rewrite Hv).
  assert (parent_link h v = Some p) as Hpl.
  { unfold parent_link, fparent. rewrite Hv. simpl. rewrite Hp. simpl. by rewrite Hap. }
  set (nxt := match n_next nd with Some y => Open y | None => Close p end).
  assert (dft_next h (Close v) = Some nxt) as Hdn.
  { simpl. unfold next_sibling_link. rewrite Hfn, Hpl. unfold nxt. by destruct (n_next nd). }
  cbn -[release_all dft_next]. rewrite Hdn, Hpl, Hfn.
  assert (ffirst (set_next h v None) p = Some v) as -> by (hs; done).
  rewrite release_noop by (apply referenced_true; left; simpl; set_solver). cbn -[release_all].
  set (h2 := set_first (set_next h v None) p (n_next nd)).
  assert (v <> ev_val nxt) as Hvn. { unfold nxt. destruct (n_next nd); simpl; congruence. }
  unfold cut. fold h2. destruct (decide (v ∈ pins)) as [Hin|Hin].
  - rewrite release_noop; [done|]. apply referenced_true. left. set_solver.
  - assert (exists nd2, h2 !! v = Some nd2 /\ n_first nd2 = None /\ n_next nd2 = None /\ n_mem nd2 = MWeak m) as (nd2 & E2 & E3 & E4 & E5).
    { unfold h2, set_first, set_next. rewrite lookup_alter_ne, lookup_alter by done. rewrite Hv. simpl. eexists; split_and!; [done|..]; done. }
    erewrite (release_free _ _ v nd2 m); [done|exact E2| |done..].
    apply referenced_false; [set_solver| | |].
    + split; [apply Hu|apply Hu].
    + intros y. simpl. unfold h2. rewrite ffirst_set_first, ffirst_set_next.
      destruct (decide (y = p)) as [->|Hyp]; [rewrite alive_set_next, Hap; done|].
      intros E. destruct Ho as (_ & B & _). apply Hyp. by apply (B _ _ _ E Hpv).
    + intros y. simpl. unfold h2. rewrite fnext_set_first, fnext_set_next.
      destruct (decide (y = v)) as [->|Hyv]; [by destruct (alive h v)|].
      intros E. destruct Ho as (_ & _ & C). by eapply C.
Qed.

(** Result of tearing down the subtrees with nodes [L] below [p]: they are
    gone, or isolated if pinned; the rest is untouched but for [p]'s first child. *)
Definition torn h h' (L : list nid) : Prop :=
  (forall y, y ∈ L -> y ∉ pins -> h' !! y = None) /\
  (forall y, y ∈ L -> y ∈ pins -> exists nd nd', h !! y = Some nd /\ h' !! y = Some nd' /\
     n_first nd' = None /\ n_next nd' = None /\ n_mem nd' = n_mem nd).
Definition first_only h h' (p : nid) (f : option nid) : Prop :=
  exists np, h !! p = Some np /\ h' !! p = Some (mkNode (n_data np) (n_lend np) (n_parent np) f
                                    (n_next np) (n_prev np) (n_nch np) (n_mem np)).

Lemma cut_other h v p nx y : y <> v -> y <> p -> cut h pins v p nx !! y = h !! y.
Proof.
  intros H1 H2. unfold cut, set_first, set_next.
  destruct (decide (v ∈ pins)); rewrite ?lookup_delete_ne, !lookup_alter_ne by done; done.
Qed.

Definition td_ok (t : rose nid) : Prop := forall h p nx fuel,
  tds h (Some p) nx t -> owned1 h -> (forall y, y ∈ rose_nodes t -> unheld s y) ->
  ffirst h p = Some (rose_root t) -> p ∉ rose_nodes t -> NoDup (rose_nodes t) ->
  (forall y, nx = Some y -> y ∉ rose_nodes t) ->
  exists h', teardown (turns t + fuel) pins (with_nodes s h) (Some (Open (rose_root t))) =
    teardown fuel pins (with_nodes s h') (Some (match nx with Some y => Open y | None => Close p end)) /\
    owned1 h' /\ torn h h' (rose_nodes t) /\ first_only h h' p nx /\
    (forall y, y ∉ rose_nodes t -> y <> p -> h' !! y = h !! y).

Lemma td_kids v ts : forall h fuel, Forall td_ok ts ->
  tdl h v ts -> owned1 h -> (forall y, y ∈ concat (map rose_nodes ts) -> unheld s y) ->
  ffirst h v = head (map rose_root ts) -> is_Some (h !! v) -> v ∉ concat (map rose_nodes ts) ->
  NoDup (concat (map rose_nodes ts)) ->
  exists h', teardown (length (concat (map dfs_events ts)) + fuel) pins (with_nodes s h)
      (Some (match head (map rose_root ts) with Some y => Open y | None => Close v end)) =
    teardown fuel pins (with_nodes s h') (Some (Close v)) /\
    owned1 h' /\ torn h h' (concat (map rose_nodes ts)) /\ first_only h h' v None /\
    (forall y, y ∉ concat (map rose_nodes ts) -> y <> v -> h' !! y = h !! y).
Proof.
  induction ts as [|t ts IHl]; intros h fuel HF Htl Ho Hu Hf Hv Hvn Hnd.
    { exists h. split_and!; [done|done|split; set_solver| |done].
      destruct Hv as [nd Hv]. exists nd. split; [done|]. unfold ffirst in Hf. rewrite Hv in Hf. simpl in Hf.
      rewrite Hv. f_equal. destruct nd; simpl in *; congruence. }
    inversion HF as [|? ? Ht HF']; subst. simpl in Htl, Hu, Hf, Hvn, Hnd |- *.
    destruct Htl as [Ht1 Htl]. apply NoDup_app in Hnd as (Hnd1 & Hdis & Hnd2).
    rewrite app_length, <-Nat.add_assoc.
    destruct (Ht h v (head (map rose_root ts)) (length (concat (map dfs_events ts)) + fuel)) as (h1 & E1 & Ho1 & Htn1 & Hfo1 & Hr1); [done|done| |done|set_solver|done| |].
    { intros y Hy. apply Hu. set_solver. }
    { intros y Hy Hy'. apply (Hdis _ Hy'). destruct ts as [|t2 ts]; simplify_eq/=. destruct t2; simpl in *. simplify_eq. set_solver. }
    rewrite E1.
    destruct Hfo1 as (nv & Hnv & Hnv1).
    destruct (IHl h1 fuel) as (h2 & E2 & Ho2 & Htn2 & Hfo2 & Hr2); [done| |done| | | | |done|].
    { eapply tdl_frame; [done|]. intros y Hy. apply Hr1; [intros Hy'; by apply (Hdis _ Hy')|]. intros ->. set_solver. }
    { intros y Hy. apply Hu. set_solver. }
    { unfold ffirst. by rewrite Hnv1. }
    { eauto. }
    { set_solver. }
    exists h2. split; [exact E2|]. split; [done|]. split_and!.
    - destruct Htn1 as [P1 P2], Htn2 as [Q1 Q2]. split.
      + intros y Hy Hpin. apply elem_of_app in Hy as [Hy|Hy]; [|by apply Q1].
        rewrite Hr2; [by apply P1|by apply Hdis|]. intros ->. set_solver.
      + intros y Hy Hpin. apply elem_of_app in Hy as [Hy|Hy].
        * destruct (P2 _ Hy Hpin) as (a & b & A1 & A2 & A3). exists a, b. split; [done|]. split; [|done].
          rewrite Hr2; [done|by apply Hdis|]. intros ->. set_solver.
        * destruct (Q2 _ Hy Hpin) as (a & b & A1 & A2 & A3). exists a, b. split; [|done].
          rewrite <-A1. symmetry. apply Hr1; [intros Hy'; by apply (Hdis _ Hy')|]. intros ->. set_solver.
    - destruct Hfo2 as (nv2 & A1 & A2). rewrite Hnv1 in A1. simplify_eq. exists nv. split; [done|]. rewrite A2. done.
    - intros y Hy Hyv. rewrite Hr2, Hr1; [done|set_solver|done|set_solver|done]. 
Qed.

Lemma td_rose t : td_ok t.
Proof.
  induction t as [v ts IH] using rose_ind2. intros h p nx fuel Ht Ho Hu Hpv Hp Hnd Hnx.
  rewrite tds_unfold in Ht. destruct Ht as [(nd & m & Hv & Hpar & Hnext & Hfirst & Hmem) Htl].
  simpl in Hpv, Hp, Hnd, Hnx, Hu |- *. apply NoDup_cons in Hnd as [Hvn Hnd].
  assert (p <> v) as Hpv' by set_solver.
  rewrite app_length. simpl. rewrite <-Nat.add_assoc. simpl.
  assert (ffirst h v = head (map rose_root ts)) as Hfv by (unfold ffirst; by rewrite Hv).
  assert (dft_next h (Open v) = Some (match head (map rose_root ts) with Some y => Open y | None => Close v end)) as Hdn.
  { simpl. unfold first_child_link. rewrite Hfv. by destruct (head (map rose_root ts)). }
  destruct (td_kids v ts h (S fuel) IH Htl Ho) as (h1 & E1 & Ho1 & Htn1 & Hfo1 & Hr1); [|done|eauto|done|done|].
  { intros y Hy. apply Hu. by right. }
  cbn in Hdn. rewrite Hdn, E1. clear IH E1 Hdn.
  destruct Hfo1 as (nv & Hnv & Hnv1). rewrite Hv in Hnv. symmetry in Hnv. simplify_eq.
  assert (p ∉ concat (map rose_nodes ts)) as Hpc by set_solver.
  assert (h1 !! p = h !! p) as Hp1 by (by apply Hr1).
  erewrite (close_turn h1 v p _ m fuel Ho1); [|apply Hu; by left|exact Hnv1|done|done|done| |done|].
  2: { unfold ffirst in *. by rewrite Hp1. }
  2: { simpl. intros E. apply (Hnx v E). by left. }
  simpl. eexists. split; [done|].
  assert (fnext h1 v = n_next nd) as Hfn1 by (unfold fnext; by rewrite Hnv1).
  split_and!.
  - rewrite <-Hfn1. apply owned1_cut; [done| |eauto]. unfold ffirst in *. by rewrite Hp1.
  - destruct Htn1 as [P1 P2]. split.
    + intros y Hy Hpin. apply elem_of_cons in Hy as [->|Hy].
      { unfold cut. rewrite decide_False by done. apply lookup_delete. }
      rewrite cut_other; [by apply P1|by intros ->|by intros ->].
    + intros y Hy Hpin. apply elem_of_cons in Hy as [->|Hy].
      { exists nd. eexists. split; [done|]. unfold cut. rewrite decide_True by done.
        unfold set_first, set_next. rewrite lookup_alter_ne, lookup_alter, Hnv1 by done. simpl. done. }
      rewrite cut_other; [by apply P2|by intros ->|by intros ->].
  - unfold ffirst in Hpv. destruct (h !! p) as [np|] eqn:Hnp; [|done]. exists np. split; [done|].
    unfold cut. destruct (decide (v ∈ pins)).
    + unfold set_first, set_next. rewrite lookup_alter, lookup_alter_ne, Hp1 by done. done.
    + rewrite lookup_delete_ne by done. unfold set_first, set_next. rewrite lookup_alter, lookup_alter_ne, Hp1 by done. done.
  - intros y Hy Hyp. apply not_elem_of_cons in Hy as [Hy1 Hy2]. rewrite cut_other by done. by apply Hr1.
Qed.

End Walk.
End Td.
