(** * AdjFacts: the successor relation on events follows the event list of a tree. *)
From Verif Require Import IterSpec Spec SpecFacts RoseFacts.

(** Consecutive elements of a list are related. *)
Fixpoint adj {E} (R : E -> E -> Prop) (l : list E) : Prop :=
  match l with
  | [] => True
  | a :: l' => match l' with [] => True | b :: _ => R a b end /\ adj R l'
  end.

Section Adj.
Context {E : Type} (R : E -> E -> Prop).
Lemma adj_app l1 l2 : adj R (l1 ++ l2) <->
  adj R l1 /\ adj R l2 /\ (forall a b, last l1 = Some a -> head l2 = Some b -> R a b).
Proof.
  induction l1 as [|a l1 IH]; simpl.
  - split; [|naive_solver]. intros; split_and!; [done|done|]. by intros ? ? [=].
  - rewrite IH. destruct l1 as [|b l1]; simpl.
    + split.
      * intros (H1 & _ & H2 & _). split_and!; try done. intros c d Hc Hd. simplify_eq. destruct l2; by simplify_eq/=.
      * intros (_ & H2 & H3). split_and!; try done. destruct l2 as [|c l2]; [done|]. by apply H3.
    + change (last (a :: b :: l1)) with (last (b :: l1)). tauto.
Qed.
Lemma adj_cons a l : adj R (a :: l) <-> (forall b, head l = Some b -> R a b) /\ adj R l.
Proof. simpl. destruct l; simpl; naive_solver. Qed.
End Adj.

Lemma adj_impl {E} (R R' : E -> E -> Prop) l : (forall a b, R a b -> R' a b) -> adj R l -> adj R' l.
Proof. intros HR. induction l as [|a [|b l] IH]; simpl in *; naive_solver. Qed.

Lemma last_concat_nonempty {X} (ls : list (list X)) l : last ls = Some l -> l <> [] -> last (concat ls) = last l.
Proof.
  induction ls as [|l1 ls IH]; [done|]. intros Hl Hne. simpl. rewrite last_app.
  destruct ls as [|l2 ls]; [by simplify_eq/=; rewrite ?last_nil; destruct (last l)|].
  rewrite IH by done. destruct (last l) eqn:El; [done|]. by apply last_None in El.
Qed.
Lemma head_concat_nonempty {X} (ls : list (list X)) l : head ls = Some l -> l <> [] -> head (concat ls) = head l.
Proof. destruct ls as [|l1 ls]; [done|]. intros [= ->] Hne. simpl. by destruct l. Qed.

Section Coh.
Context {A : Type} (first last_ nexts prevs parent : A -> option A).

Definition g_next (e : dft A) : option (dft A) :=
  match e with
  | Open x => match first x with Some c => Some (Open c) | None => Some (Close x) end
  | Close x => match nexts x with Some s => Some (Open s)
               | None => match parent x with Some p => Some (Close p) | None => None end end
  end.
Definition g_prev (e : dft A) : option (dft A) :=
  match e with
  | Close x => match last_ x with Some c => Some (Close c) | None => Some (Open x) end
  | Open x => match prevs x with Some s => Some (Close s)
               | None => match parent x with Some p => Some (Open p) | None => None end end
  end.
Definition g_adj (a b : dft A) : Prop := g_next a = Some b /\ g_prev b = Some a.

(** The tree agrees with the neighbour functions. *)
Inductive coh : rose A -> Prop :=
| coh_intro x ts :
    first x = rose_root <$> head ts ->
    last_ x = rose_root <$> last ts ->
    (forall l1 c l2, ts = l1 ++ c :: l2 ->
       nexts (rose_root c) = rose_root <$> head l2 /\
       prevs (rose_root c) = rose_root <$> last l1 /\
       parent (rose_root c) = Some x) ->
    Forall coh ts ->
    coh (Rose x ts).

Lemma head_events (t : rose A) : head (dfs_events t) = Some (Open (rose_root t)).
Proof. by destruct t. Qed.
Lemma last_events (t : rose A) : last (dfs_events t) = Some (Close (rose_root t)).
Proof. destruct t as [x ts]. simpl. rewrite app_comm_cons. by rewrite last_snoc. Qed.
Lemma events_ne (t : rose A) : dfs_events t <> [].
Proof. by destruct t. Qed.

Lemma head_fevents (ts : list (rose A)) t : head ts = Some t ->
  head (concat (map dfs_events ts)) = Some (Open (rose_root t)).
Proof.
  intros H. rewrite (head_concat_nonempty _ (dfs_events t)); [apply head_events| |apply events_ne].
  destruct ts; by simplify_eq/=.
Qed.
Lemma last_fevents (ts : list (rose A)) t : last ts = Some t ->
  last (concat (map dfs_events ts)) = Some (Close (rose_root t)).
Proof.
  intros H. rewrite (last_concat_nonempty _ (dfs_events t)); [apply last_events| |apply events_ne].
  change (map dfs_events ts) with (dfs_events <$> ts). rewrite fmap_last, H. done.
Qed.

Lemma coh_adj t : coh t -> adj g_adj (dfs_events t).
Proof.
  induction t as [x ts IH] using rose_ind2. intros Hc. inversion Hc as [? ? Hf Hl Hs Hk]; subst.
  simpl dfs_events. rewrite adj_cons. 
  assert (adj g_adj (concat (map dfs_events ts))) as Hin.
  { clear Hc Hf Hl. rewrite Forall_forall in IH, Hk.
    assert (forall t, t ∈ ts -> adj g_adj (dfs_events t)) as IH' by (intros; by apply IH, Hk).
    clear IH Hk.
    assert (forall l1 c d l2, ts = l1 ++ c :: d :: l2 -> g_adj (Close (rose_root c)) (Open (rose_root d))) as Hs'.
    { intros l1 c d l2 ->. unfold g_adj. simpl.
      destruct (Hs l1 c (d :: l2) eq_refl) as (-> & _ & _). simpl.
      destruct (Hs (l1 ++ [c]) d l2) as (_ & -> & _); [by rewrite <-app_assoc|].
      by rewrite last_snoc. }
    clear Hs. induction ts as [|t ts IHts]; [done|].
    simpl. apply adj_app. split_and!.
    - apply IH'. set_solver.
    - apply IHts; [intros; apply IH'; set_solver|]. intros l1 c d l2 ->. by apply (Hs' (t :: l1) c d l2).
    - intros a b Ha Hb. rewrite last_events in Ha. simplify_eq.
      destruct ts as [|t2 ts]; [done|]. rewrite (head_fevents _ t2) in Hb by done. simplify_eq.
      by apply (Hs' [] t t2 ts). }
  split.
  - intros b Hb. unfold g_adj. simpl. rewrite Hf. destruct ts as [|t ts].
    + simpl in *. simplify_eq. simpl. rewrite Hl. done.
    + assert (b = Open (rose_root t)) as ->.
      { simpl in Hb. destruct t as [y us]; simpl in *. by simplify_eq. }
      simpl. destruct (Hs [] t ts eq_refl) as (_ & -> & ->). done.
  - apply adj_app. split_and!; [done|done|]. intros a b Ha Hb. simpl in Hb. simplify_eq.
    destruct (last ts) as [t|] eqn:El.
    + rewrite (last_fevents _ t El) in Ha. simplify_eq. unfold g_adj. simpl. rewrite Hl. simpl.
      apply last_Some in El as [l1 ->]. destruct (Hs l1 t [] eq_refl) as (-> & _ & ->). done.
    + apply last_None in El. subst. done.
Qed.
End Coh.
