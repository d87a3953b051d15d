(** * TravFacts4: breadth-first traversers and stable sibling iterators. *)
From Verif Require Import IterSpec Spec HeapFacts SpecFacts NavFacts NavFacts2 EditFacts2 EditFacts3 RoseFacts AdjFacts IterFacts TravFacts TravFacts2 TravFacts3.

Local Arguments sh_next : simpl never.

(** ** Levels *)
Section Levels.
Context {A : Type}.
Implicit Types (t : rose A) (ts : list (rose A)).

(** Subtrees rooted at depth [k]. *)
Fixpoint rose_subs (k : nat) t : list (rose A) :=
  match k with
  | 0 => [t]
  | S k' => concat (map (rose_subs k') (rose_kids t))
  end.

Lemma level_subs k t : rose_level k t = map rose_root (rose_subs k t).
Proof.
  revert t. induction k as [|k IH]; intros t; [by destruct t|]. simpl. rewrite concat_map, map_map.
  f_equal. apply map_ext. done.
Qed.
Lemma concat_map_concat {B C} (f : B -> list C) (ls : list (list B)) :
  concat (map f (concat ls)) = concat (map (fun l => concat (map f l)) ls).
Proof. induction ls as [|l ls IH]; simpl; [done|]. by rewrite map_app, concat_app, IH. Qed.
Lemma subs_S k t : rose_subs (S k) t = concat (map rose_kids (rose_subs k t)).
Proof.
  revert t. induction k as [|k IH]; intros t.
  - simpl. rewrite app_nil_r. induction (rose_kids t) as [|u us IHu]; simpl; [done|]. by f_equal.
  - change (rose_subs (S (S k)) t) with (concat (map (rose_subs (S k)) (rose_kids t))).
    change (rose_subs (S k) t) with (concat (map (rose_subs k) (rose_kids t))).
    rewrite concat_map_concat, map_map. f_equal. apply map_ext. intros u. apply IH.
Qed.

Lemma list_max_ge l n : n ∈ l -> n <= list_max l.
Proof.
  intros H. pose proof (proj1 (list_max_le l (list_max l)) (Nat.le_refl _)) as Hf.
  rewrite List.Forall_forall in Hf. apply Hf. by apply elem_of_list_In.
Qed.

Lemma subs_deep k t : rose_height t < k -> rose_subs k t = [].
Proof.
  revert k. induction t as [x ts IH] using rose_ind2. intros [|k] Hk; [lia|].
  cbn [rose_subs rose_kids]. cbn [rose_height] in Hk.
  assert (forall t, t ∈ ts -> rose_height t < k) as Hlt.
  { intros t Ht. assert (S (rose_height t) <= list_max (map (fun t => S (rose_height t)) ts)); [|lia].
    apply list_max_ge. apply elem_of_list_fmap. eauto. }
  clear Hk. induction IH as [|t ts Ht _ IHts]; simpl; [done|].
  rewrite Ht by (apply Hlt; set_solver). apply IHts. intros; apply Hlt; set_solver.
Qed.
Lemma level_deep k t : rose_height t < k -> rose_level k t = [].
Proof. intros H. by rewrite level_subs, subs_deep. Qed.

Lemma level_order_step d t : level_order d t = map (fun x => (x, d)) (rose_level d t) ++ level_order (S d) t.
Proof.
  unfold level_order. rewrite (seq_S (rose_height t) (S d)), map_app, concat_app. cbn [seq map concat].
  rewrite (level_deep (S d + rose_height t)) by lia. simpl. by rewrite !app_nil_r.
Qed.
Lemma level_order_end d t : rose_height t < d -> level_order d t = [].
Proof.
  intros H. unfold level_order. generalize (S (rose_height t)) as n. intros n. revert d H.
  induction n as [|n IH]; intros d H; simpl; [done|]. rewrite level_deep by done. apply IH. lia.
Qed.

Lemma subs_empty_next d t : rose_subs d t = [] -> rose_subs (S d) t = [].
Proof. rewrite subs_S. by intros ->. Qed.
Lemma level_order_empty d t : rose_level d t = [] -> level_order d t = [].
Proof.
  rewrite level_subs. intros H%map_eq_nil. unfold level_order.
  generalize (S (rose_height t)) as n. intros n. revert d H.
  induction n as [|n IH]; intros d H; simpl; [done|]. rewrite level_subs, H. simpl.
  apply IH. by apply subs_empty_next.
Qed.

(** The level order of a list of trees. *)
Inductive forder : nat -> list (rose A) -> list (A * nat) -> Prop :=
| forder_nil d : forder d [] []
| forder_cons d ts l : forder (S d) (concat (map rose_kids ts)) l ->
    forder d ts (map (fun x => (x, d)) (map rose_root ts) ++ l).

Lemma forder_level d t : forder d (rose_subs d t) (level_order d t).
Proof.
  destruct (Nat.le_gt_cases d (rose_height t)) as [Hle|Hgt].
  - remember (S (rose_height t) - d) as n eqn:En. revert d Hle En. induction n as [|n IH]; intros d Hle En; [lia|].
    rewrite level_order_step, level_subs. constructor. rewrite <-subs_S.
    destruct (decide (S d <= rose_height t)).
    + apply IH; lia.
    + rewrite subs_deep, level_order_end by lia. constructor.
  - rewrite subs_deep, level_order_end by lia. constructor.
Qed.
Lemma forder_inv d ts l : forder d ts l -> exists l', l = map (fun x => (x, d)) (map rose_root ts) ++ l' /\
  forder (S d) (concat (map rose_kids ts)) l'.
Proof. inversion 1; subst; [exists []; split; [done|constructor]|eauto]. Qed.
Lemma forder_nil_inv d l : forder d [] l -> l = [].
Proof. intros H. remember [] as ts eqn:E. induction H as [|d ts l H IH]; [done|]. subst. simpl in *. by apply IH. Qed.

(** Level order lists every node exactly once. *)
Lemma flatten_kids (ts : list (rose A)) : 
  concat (map rose_nodes ts) ≡ₚ map rose_root ts ++ concat (map rose_nodes (concat (map rose_kids ts))).
Proof.
  induction ts as [|[x us] ts IH]; simpl; [done|]. constructor. rewrite map_app, concat_app, IH.
  apply Permutation_app_swap_app.
Qed.
Lemma forder_perm d ts l : forder d ts l -> map fst l ≡ₚ concat (map rose_nodes ts).
Proof.
  induction 1 as [|d ts l H IH]; [done|]. rewrite map_app, (map_map _ fst). simpl. rewrite map_id, IH. by rewrite <-flatten_kids.
Qed.
Lemma level_order_perm t : map fst (level_order 0 t) ≡ₚ rose_nodes t.
Proof. rewrite (forder_perm _ _ _ (forder_level 0 t)). simpl. by rewrite app_nil_r. Qed.

End Levels.

Lemma opens_app d l1 l2 : opens_at_depth d (l1 ++ l2) = opens_at_depth d l1 ++ opens_at_depth d l2.
Proof. apply omap_app. Qed.

Lemma opens_cut (t : rose nid) : forall d k,
  opens_at_depth (d + k) (dfs_events (rose_depths d (rose_cut (Some k) t))) = rose_level k t.
Proof.
  induction t as [x ts IH] using rose_ind2. intros d [|k].
  - simpl. rewrite decide_True by lia. done.
  - cbn [rose_cut rose_depths dfs_events rose_level rose_kids].
    change (opens_at_depth (d + S k) (Open (x, d) :: ?l)) with
      (match (if decide (d = d + S k) then Some x else None) with Some y => y :: opens_at_depth (d + S k) l | None => opens_at_depth (d + S k) l end).
    rewrite decide_False by lia. rewrite opens_app. simpl. rewrite app_nil_r, !map_map.
    replace (d + S k) with (S d + k) by lia.
    induction IH as [|t ts Ht _ IHts]; [done|]. cbn [map concat]. rewrite opens_app, Ht, IHts. done.
Qed.

Local Arguments level_order : simpl never.
Local Arguments abf_next : simpl never.
Local Arguments collect_it : simpl never.
Local Arguments opens_at_depth : simpl never.
Section Bfs.
Context {T : Type}.
Implicit Types (h : heap T) (K : forest).

Lemma nodes_le_size h K x t : rep h K -> wf K -> shape K x t -> length (rose_nodes t) <= size h.
Proof.
  intros Hr Hw Hs. rewrite (rep_size _ _ Hr). apply NoDup_dom_length; [by eapply shape_nodup|].
  intros y Hy. eapply below_dom; [done| |by eapply shape_nodes]. inversion Hs; subst; eauto.
Qed.
Lemma cut_events_fuel h K x t m d : rep h K -> wf K -> shape K x t ->
  length (dfs_events (rose_depths d (rose_cut m t))) < dfs_fuel h.
Proof.
  intros Hr Hw Hs. rewrite dfs_events_length. unfold dfs_fuel.
  pose proof (nodes_le_size _ _ _ _ Hr Hw Hs) as Hsz.
  assert (length (rose_nodes (rose_depths d (rose_cut m t))) = length (rose_nodes (rose_cut m t))) as ->.
  { rewrite <-(nodes_depths (rose_cut m t) d). by rewrite map_length. }
  pose proof (sublist_length _ _ (nodes_cut t m)). lia.
Qed.

Lemma find_enum h d : forall fuel s l, enumerates (sh_next h (Some d)) s l -> length l < fuel ->
  exists s' l', find_at_depth fuel h d s = Ret (head (opens_at_depth d l), s') /\
    enumerates (sh_next h (Some d)) s' l' /\ opens_at_depth d l' = tail (opens_at_depth d l) /\ length l' <= length l.
Proof.
  induction fuel as [|fuel IH]; intros s l H Hf; [lia|].
  destruct (enumerates_inv _ _ _ H) as (s1 & E & H1). simpl. rewrite E. cbn.
  destruct l as [|e l]; [by exists s1, []|]. cbn in H1, Hf. simpl head.
  destruct e as [[x d']|v].
  - destruct (decide (d' = d)) as [->|Hne].
    + exists s1, l. unfold opens_at_depth. cbn. rewrite decide_True by done. split_and!; [done|done|done|lia].
    + destruct (IH s1 l H1) as (s2 & l2 & E2 & H2 & H3 & H4); [lia|]. exists s2, l2.
      rewrite E2. unfold opens_at_depth in *. cbn. rewrite decide_False by done. split_and!; [done|done|done|lia].
  - destruct (IH s1 l H1) as (s2 & l2 & E2 & H2 & H3 & H4); [lia|]. exists s2, l2.
    rewrite E2. cbn. split_and!; [done|done|done|lia].
Qed.

(** *** Non-allocating *)
Definition Pnbf h x t (s : nbf_state) (l : list (nid * nat)) : Prop :=
  match nbf_root s with
  | None => l = []
  | Some y => y = x /\ exists li, enumerates (sh_next h (Some (nbf_depth s))) (nbf_inner s) li /\ length li < dfs_fuel h /\
      l = map (fun x => (x, nbf_depth s)) (opens_at_depth (nbf_depth s) li) ++ level_order (S (nbf_depth s)) t
  end.

Lemma sh_level h K x t d : rep h K -> wf K -> shape K x t -> exists li,
  enumerates (sh_next h (Some d)) (sh_start (Some x)) li /\ length li < dfs_fuel h /\ opens_at_depth d li = rose_level d t.
Proof.
  intros Hr Hw Hs. exists (dfs_events (rose_depths 0 (rose_cut (Some d) t))). split_and!.
  - eapply double_ended_enumerates. by eapply sh_double.
  - by eapply cut_events_fuel.
  - apply (opens_cut t 0 d).
Qed.

Lemma Pnbf_step h K x t s l : rep h K -> wf K -> shape K x t -> Pnbf h x t s l ->
  exists s', nbf_next h s = Ret (head l, s') /\ Pnbf h x t s' (tail l).
Proof.
  intros Hr Hw Hs. destruct s as [inner [y|] d]; unfold Pnbf, nbf_next; cbn [nbf_root nbf_depth nbf_inner].
  2: { intros ->. eexists. split; [done|]. done. }
  intros (-> & li & He & Hf & ->).
  destruct (find_enum h d _ _ _ He Hf) as (s1 & l1 & E1 & H1 & Ho1 & Hlen1). rewrite E1. cbn.
  destruct (opens_at_depth d li) as [|z zs] eqn:Eo; cbn.
  - destruct (sh_level h K x t (S d) Hr Hw Hs) as (li2 & He2 & Hf2 & Ho2).
    destruct (find_enum h (S d) _ _ _ He2 Hf2) as (s2 & l2 & E2 & H2 & Ho3 & Hlen2). 
    cbn in E2. rewrite E2. cbn. rewrite level_order_step, <-Ho2.
    destruct (opens_at_depth (S d) li2) as [|z zs] eqn:Eo2; cbn.
    + assert (level_order (S (S d)) t = []) as ->.
      { apply level_order_empty. rewrite level_subs. rewrite subs_empty_next; [done|].
        symmetry in Ho2. rewrite level_subs in Ho2. by apply map_eq_nil in Ho2. }
      eexists. split; done.
    + eexists. split; [done|]. cbn. split; [done|]. exists l2. split_and!; [done|lia|].
      cbn in Ho3. by rewrite Ho3.
  - eexists. split; [done|]. cbn. split; [done|]. exists l1. split_and!; [done|lia|].
    cbn in Ho1. by rewrite Ho1.
Qed.

Lemma nbf_start_P h K x t d : rep h K -> wf K -> shape K x t -> Pnbf h x t (nbf_start x d) (level_order d t).
Proof.
  intros Hr Hw Hs. unfold Pnbf. cbn. split; [done|].
  destruct (sh_level h K x t d Hr Hw Hs) as (li & He & Hf & Ho). exists li. split_and!; [done|done|].
  by rewrite Ho, level_order_step.
Qed.
Lemma nbf_enum h K x t d : rep h K -> wf K -> shape K x t -> enumerates (nbf_next h) (nbf_start x d) (level_order d t).
Proof.
  intros Hr Hw Hs. apply (enumerates_intro (Pnbf h x t)); [by eapply nbf_start_P|]. intros; by eapply Pnbf_step.
Qed.
Lemma nbf_hints h K x t d : rep h K -> wf K -> shape K x t ->
  hints_ok (nbf_next h) (fun s => Ret (nbf_size_hint s)) (nbf_start x d) (level_order d t).
Proof.
  intros Hr Hw Hs. apply (hints_ok_intro (Pnbf h x t)); [by eapply nbf_start_P| |intros; by eapply Pnbf_step].
  intros s l HP. eexists. split; [done|]. unfold nbf_size_hint, Pnbf in *. destruct (nbf_root s); [split; simpl; [lia|done]|].
  subst. split; simpl; lia.
Qed.

(** *** Allocating *)
Lemma ssib_walk h K p l1 c l2 y : rep h K -> K !! p = Some (l1 ++ c :: l2) ->
  enumerates (ssib_next h) (Some (c, y)) (c :: l2).
Proof.
  intros Hr. revert l1 c. induction l2 as [|b l2 IH]; intros l1 c Hp.
  - eapply enumerates_cons with (s' := None); [|by apply enumerates_nil].
    simpl. unfold next_sibling_link. by rewrite (fnext_split _ _ _ _ _ _ Hr Hp).
  - eapply enumerates_cons with (s' := Some (b, y)).
    + simpl. unfold next_sibling_link. by rewrite (fnext_split _ _ _ _ _ _ Hr Hp).
    + apply (IH (l1 ++ [c])). by rewrite <-app_assoc.
Qed.
Lemma children_stable_enum h K p ks : rep h K -> wf K -> K !! p = Some ks ->
  starts (children_stable_it h p) (ssib_next h) ks.
Proof.
  intros Hr Hw Hp. unfold starts, children_stable_it. rewrite (first_last_rep _ _ _ _ Hr Hw Hp).
  eexists. split; [done|]. destruct ks as [|c ks]; [by apply enumerates_nil|].
  by apply (ssib_walk h K p []).
Qed.

Definition Pabf K (s : abf_state) (l : list (nid * nat)) : Prop :=
  (abf_queue s = [] /\ l = []) \/
  exists us vs l', abf_queue s = map Some (map rose_root us) ++ None :: map Some (map rose_root vs) /\
    (forall t, t ∈ us ++ vs -> shape K (rose_root t) t) /\
    l = map (fun x => (x, abf_depth s)) (map rose_root us) ++ l' /\
    forder (S (abf_depth s)) (vs ++ concat (map rose_kids us)) l'.

Lemma shape_kids K x t u : shape K x t -> u ∈ rose_kids t -> shape K (rose_root u) u.
Proof. intros Hs Hu. inversion Hs as [? ts Hk Hf]; subst. rewrite Forall_forall in Hf. by apply Hf. Qed.

Lemma abf_loop_node h K fuel d u us vs l' : rep h K -> wf K ->
  (forall t, t ∈ (u :: us) ++ vs -> shape K (rose_root t) t) ->
  forder (S d) (vs ++ concat (map rose_kids (u :: us))) l' ->
  exists s', abf_loop (S fuel) h (map Some (map rose_root (u :: us)) ++ None :: map Some (map rose_root vs)) d =
    Ret (Some (rose_root u, d), s') /\ Pabf K s' (map (fun x => (x, d)) (map rose_root us) ++ l').
Proof.
  intros Hr Hw Hsh Hfo. cbn.
  assert (shape K (rose_root u) u) as Hu by (apply Hsh; set_solver). destruct u as [x ks].
  inversion Hu as [? ? Hk Hf Eu]; subst. cbn [rose_root] in *.
  destruct (children_stable_enum h K _ _ Hr Hw Hk) as (s0 & -> & He). cbn.
  rewrite (collect_enumerates _ _ _ _ He); cbn.
  2: { unfold walk_fuel. pose proof (children_length_le _ _ _ _ Hr Hw Hk). lia. }
  eexists. split; [done|]. right. exists us, (vs ++ ks), l'. cbn. split_and!.
  - rewrite <-app_assoc. simpl. by rewrite !map_app.
  - intros t Ht. rewrite !elem_of_app in Ht. destruct Ht as [Ht|[Ht|Ht]]; [apply Hsh; set_solver..|].
    rewrite Forall_forall in Hf. by apply Hf.
  - done.
  - rewrite <-app_assoc. exact Hfo.
Qed.

Lemma Pabf_step h K s l : rep h K -> wf K -> Pabf K s l ->
  exists s', abf_next h s = Ret (head l, s') /\ Pabf K s' (tail l).
Proof.
  intros Hr Hw [[Hq ->]|(us & vs & l' & Hq & Hsh & -> & Hfo)]; unfold abf_next; destruct s as [q d]; cbn [abf_queue abf_depth] in *; subst q.
  { eexists. split; [done|]. by left. }
  destruct us as [|u us].
  - cbn [map concat app] in *. rewrite app_nil_r in Hfo. destruct vs as [|v vs].
    + apply forder_nil_inv in Hfo as ->. eexists. split; [done|]. by left.
    + destruct (forder_inv _ _ _ Hfo) as (l2 & -> & Hfo2).
      destruct (abf_loop_node h K 1 (S d) v vs [] l2 Hr Hw) as (s' & E & HP).
      { intros t Ht. apply Hsh. set_solver. }
      { done. }
      exists s'. split; [|done].
      change (abf_loop 3 h (None :: map Some (map rose_root (v :: vs))) d) with
        (abf_loop 2 h (map Some (map rose_root (v :: vs)) ++ [None]) (S d)).
      done.
  - apply (abf_loop_node h K 2 d u us vs l' Hr Hw Hsh Hfo).
Qed.

Lemma shape_subs K x t k : shape K x t -> forall u, u ∈ rose_subs k t -> shape K (rose_root u) u.
Proof.
  intros Hs. induction k as [|k IH]; intros u Hu.
  - simpl in Hu. apply elem_of_list_singleton in Hu as ->. by rewrite (shape_root _ _ _ Hs).
  - rewrite subs_S in Hu. apply elem_of_concat_map in Hu as (v & Hv & Hu). eapply shape_kids; [by apply IH|done].
Qed.

Lemma abf_start_P h K x t d : rep h K -> wf K -> shape K x t ->
  exists s, abf_start h x d = Ret s /\ Pabf K s (level_order d t).
Proof.
  intros Hr Hw Hs.
  assert (abf_start h x d = Ret (mkAbf (map Some (map rose_root (rose_subs d t)) ++ [None]) d)) as E.
  { unfold abf_start. destruct d as [|d].
    - simpl. by rewrite (shape_root _ _ _ Hs).
    - destruct (sh_level h K x t (S d) Hr Hw Hs) as (li & He & Hf & Ho).
      rewrite (collect_enumerates _ _ _ _ He Hf). cbn - [rose_subs]. by rewrite Ho, level_subs. }
  eexists. split; [exact E|]. right. exists (rose_subs d t), [], (level_order (S d) t). cbn. split_and!.
  - done.
  - intros u Hu. rewrite app_nil_r in Hu. by eapply shape_subs.
  - by rewrite level_order_step, level_subs.
  - rewrite <-subs_S. apply forder_level.
Qed.
Lemma abf_enum h K x t d : rep h K -> wf K -> shape K x t -> starts (abf_start h x d) (abf_next h) (level_order d t).
Proof.
  intros Hr Hw Hs. destruct (abf_start_P h K x t d Hr Hw Hs) as (s & E & HP). exists s. split; [done|].
  apply (enumerates_intro (Pabf K)); [done|]. intros; by eapply Pabf_step.
Qed.

Lemma forder_length d (ts : list (rose nid)) l : forder d ts l -> length ts <= length l.
Proof. inversion 1; subst; simpl; [lia|]. rewrite app_length, !map_length. lia. Qed.

Lemma abf_hint_P K s l : Pabf K s l -> bounds (abf_size_hint s) (length l).
Proof.
  intros [[Hq ->]|(us & vs & l' & Hq & Hsh & -> & Hfo)]; unfold abf_size_hint; rewrite Hq; [split; simpl; lia|].
  rewrite !app_length. simpl. rewrite !map_length.
  pose proof (forder_length _ _ _ Hfo) as Hl. rewrite app_length in Hl.
  destruct (Nat.leb_spec (length us + S (length vs)) 1).
  - destruct us; [|simpl in *; lia]. destruct vs; [|simpl in *; lia]. simpl in *.
    apply forder_nil_inv in Hfo as ->. split; simpl; lia.
  - split; simpl; [lia|done].
Qed.
Lemma abf_peek_P K s l : Pabf K s l -> abf_peek s = Ret (head l).
Proof.
  intros [[Hq ->]|(us & vs & l' & Hq & Hsh & -> & Hfo)]; unfold abf_peek; rewrite Hq; [done|].
  destruct us as [|u us]; simpl; [|done]. simpl in Hfo. rewrite app_nil_r in Hfo.
  destruct vs as [|v vs]; simpl; [by apply forder_nil_inv in Hfo as ->|].
  destruct (forder_inv _ _ _ Hfo) as (l2 & -> & _). done.
Qed.
Lemma abf_hints h K x t d : rep h K -> wf K -> shape K x t ->
  exists s, abf_start h x d = Ret s /\ hints_ok (abf_next h) (fun s => Ret (abf_size_hint s)) s (level_order d t).
Proof.
  intros Hr Hw Hs. destruct (abf_start_P h K x t d Hr Hw Hs) as (s & E & HP). exists s. split; [done|].
  apply (hints_ok_intro (Pabf K)); [done| |intros; by eapply Pabf_step].
  intros s1 l1 H1. eexists. split; [done|]. by eapply abf_hint_P.
Qed.
(** At every point [peek] is what the next call of [next] returns. *)
Lemma abf_peeks h K x t d n : rep h K -> wf K -> shape K x t ->
  exists s s', abf_start h x d = Ret s /\ after (abf_next h) n s = Ret s' /\ abf_peek s' = Ret (level_order d t !! n).
Proof.
  intros Hr Hw Hs. destruct (abf_start_P h K x t d Hr Hw Hs) as (s & E & HP). exists s.
  assert (exists s', after (abf_next h) n s = Ret s' /\ Pabf K s' (drop n (level_order d t))) as (s' & E' & HP').
  { clear E. revert s HP. generalize (level_order d t). induction n as [|n IH]; intros l s HP; cbn.
    - exists s. by rewrite drop_0.
    - destruct (Pabf_step h K s l Hr Hw HP) as (s1 & -> & HP1). cbn. destruct (IH _ _ HP1) as (s2 & E2 & HP2).
      exists s2. split; [done|]. destruct l; simpl in *; [by rewrite drop_nil in HP2|done]. }
  exists s'. split_and!; [done|done|]. rewrite (abf_peek_P _ _ _ HP'). f_equal.
  replace n with (n + 0) at 2 by lia. rewrite <-lookup_drop. by destruct (drop n (level_order d t)).
Qed.

(** *** Stable siblings, one direction only *)
Lemma ssib_back_walk h K p l1 c l2 y : rep h K -> wf K -> K !! p = Some (l1 ++ c :: l2) ->
  enumerates (ssib_next_back h) (Some (y, c)) (c :: rev l1).
Proof.
  intros Hr Hw. revert c l2. induction l1 as [|b l1 IH] using rev_ind; intros c l2 Hp.
  - eapply enumerates_cons with (s' := None); [|by apply enumerates_nil].
    simpl. by rewrite (prev_sibling_split _ _ _ _ _ _ Hr Hw Hp).
  - rewrite rev_app_distr. simpl. eapply enumerates_cons with (s' := Some (y, b)).
    + simpl. rewrite (prev_sibling_split _ _ _ _ _ _ Hr Hw Hp). by rewrite last_snoc.
    + rewrite <-app_assoc in Hp. by eapply IH.
Qed.

(** *** Stable depth-first traversal of a whole tree, one direction only *)
Lemma sdfs_forward h K x t : rep h K -> wf K -> is_top K x -> shape K x t ->
  enumerates (sdfs_next h) (sdfs_start (Some x)) (dfs_events t).
Proof.
  intros Hr Hw Hx Hs. pose proof (shape_adj _ _ _ _ Hr Hw Hs) as Ha. pose proof (last_events t) as Hl.
  pose proof (head_events t) as Hh. rewrite (shape_root _ _ _ Hs) in *. simpl. generalize (Close x) at 1 as eb.
  revert Ha Hl Hh. generalize (Open x) as e. generalize (dfs_events t) as l. intros l.
  induction l as [|a l IH]; intros e Ha Hl Hh eb; [done|]. simpl in Hh. simplify_eq.
  destruct l as [|b l].
  - simplify_eq/=. eapply enumerates_cons with (s' := None); [|by apply enumerates_nil]. simpl.
    unfold next_sibling_link. by rewrite (fnext_top _ _ _ Hr Hx), (parent_link_top _ _ _ Hr Hx).
  - rewrite adj_cons in Ha. destruct Ha as [Hab Ha]. destruct (Hab b eq_refl) as [Hn _].
    eapply enumerates_cons with (s' := Some (b, eb)).
    + simpl. change (dft_next h e) with (dft_next h e). rewrite dft_next_g, Hn. done.
    + by apply IH.
Qed.
Lemma sdfs_backward h K x t : rep h K -> wf K -> is_top K x -> shape K x t ->
  enumerates (sdfs_next_back h) (sdfs_start (Some x)) (rev (dfs_events t)).
Proof.
  intros Hr Hw Hx Hs. pose proof (shape_adj _ _ _ _ Hr Hw Hs) as Ha.
  pose proof (last_events t) as Hl. pose proof (head_events t) as Hh.
  pose proof (fun e => shape_events_dom _ _ _ e Hw Hs) as Hd.
  rewrite (shape_root _ _ _ Hs) in *. simpl. generalize (Open x) at 1 as eb.
  revert Ha Hl Hh Hd. generalize (Close x) as e. generalize (dfs_events t) as l. intros l.
  induction l as [|a l IH] using rev_ind; intros e Ha Hl Hh Hd eb; [done|]. rewrite last_snoc in Hl. simplify_eq.
  rewrite rev_app_distr. simpl.
  destruct (list_snoc_inv l) as [->|(l' & b & ->)].
  - simplify_eq/=. eapply enumerates_cons with (s' := None); [|by apply enumerates_nil]. simpl.
    rewrite (prev_sibling_top _ _ _ Hr Hx). cbn. by rewrite (parent_link_top _ _ _ Hr Hx).
  - rewrite adj_app in Ha. destruct Ha as (Ha & _ & Hab).
    destruct (Hab b e) as [_ Hn]; [by rewrite last_snoc|done|].
    eapply enumerates_cons with (s' := Some (eb, b)).
    + simpl. rewrite (dft_prev_g _ _ _ Hr Hw) by (apply Hd; set_solver). rewrite Hn. done.
    + apply IH; [done|by rewrite last_snoc|by destruct l'|]. intros; apply Hd; set_solver.
Qed.

End Bfs.
