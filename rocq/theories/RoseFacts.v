(** * RoseFacts: induction on trees, and facts about event lists. *)
From Verif Require Import IterSpec Spec SpecFacts.

Section RoseInd.
Context {A : Type} (P : rose A -> Prop).
Hypothesis H : forall x ts, Forall P ts -> P (Rose x ts).
Fixpoint rose_ind2 (t : rose A) : P t :=
  match t with
  | Rose x ts => H x ts ((fix go ts : Forall P ts :=
      match ts with
      | [] => Forall_nil_2 _
      | t :: ts => Forall_cons_2 _ _ _ (rose_ind2 t) (go ts)
      end) ts)
  end.
End RoseInd.

Implicit Types (K : forest).

(** Well-founded recursion gives the subtree of every node. *)
Lemma shape_exists K x : wf K -> is_Some (K !! x) -> exists t, shape K x t.
Proof.
  intros Hw. induction (wf_acyclic _ Hw x) as [x _ IH]. intros [ks Hx].
  assert (exists ts, map rose_root ts = ks /\ Forall (fun t => shape K (rose_root t) t) ts) as (ts & <- & Hts).
  { assert (forall c, c ∈ ks -> exists t, shape K c t) as Hc.
    { intros c Hin. assert (child_of K x c) as Hcx by (by exists ks). apply IH; [done|].
      eapply wf_dom; eauto. }
    clear -Hc. induction ks as [|c ks IH]; [exists []; done|].
    destruct (IH ltac:(intros; apply Hc; set_solver)) as (ts & <- & Hts).
    destruct (Hc c ltac:(set_solver)) as [t Ht].
    assert (rose_root t = c) as Hrt by (by inversion Ht).
    exists (t :: ts). simpl. rewrite Hrt. split; [done|]. constructor; [by rewrite Hrt|done]. }
  exists (Rose x ts). by constructor.
Qed.

Lemma shape_root K x t : shape K x t -> rose_root t = x.
Proof. by destruct 1. Qed.

Lemma shape_unique K x t1 t2 : shape K x t1 -> shape K x t2 -> t1 = t2.
Proof.
  revert x t2. induction t1 as [y ts IH] using rose_ind2. intros x t2 H1 H2.
  inversion H1 as [? ? Hk1 Hf1]; subst. inversion H2 as [? ts2 Hk2 Hf2]; subst.
  f_equal. clear H1 H2. rewrite Hk1 in Hk2. injection Hk2 as Hm. clear Hk1.
  revert ts2 Hf2 Hm. induction ts as [|t ts IHts]; intros [|t2 ts2] Hf2 Hm; try done.
  simpl in Hm. injection Hm as Hr Hm.
  inversion IH; inversion Hf1; inversion Hf2; simplify_eq. f_equal.
  - eapply (H1 (rose_root t)); [done|]. by rewrite Hr.
  - by apply IHts.
Qed.

(** The nodes of the tree of [x] are the nodes below [x]. *)
Lemma below_trans_l K a b c : child_of K a b -> below K b c -> below K a c.
Proof. intros Hab H. induction H; [eapply below_step; [constructor|done]|by eapply below_step]. Qed.
Lemma below_inv_l K a c : below K a c -> a = c \/ exists b, child_of K a b /\ below K b c.
Proof.
  induction 1 as [|p c Hb IH Hc]; [by left|]. right. destruct IH as [->|(b & Hab & Hbp)].
  - exists c. split; [done|constructor].
  - exists b. split; [done|]. by eapply below_step.
Qed.

Lemma elem_of_concat_map {A B} (f : A -> list B) l y : y ∈ concat (map f l) <-> exists a, a ∈ l /\ y ∈ f a.
Proof.

  induction l as [|a l IH]; simpl.
  - split; [by intros ?%elem_of_nil|]. by intros (a & ?%elem_of_nil & _).
  - rewrite elem_of_app, IH. split.
    + intros [H|(b & Hb & H)]; [exists a|exists b]; set_solver.
    + intros (b & [->|Hb]%elem_of_cons & H); [by left|right; by exists b].
Qed.

Lemma shape_nodes K x t y : shape K x t -> (y ∈ rose_nodes t <-> below K x y).
Proof.
  revert x. induction t as [z ts IH] using rose_ind2. intros x Hs. inversion Hs as [? ? Hk Hf]; simplify_eq.
  rewrite Forall_forall in IH, Hf. simpl. rewrite elem_of_cons, elem_of_concat_map. split.
  - intros [->|(t & Ht & Hy)]; [constructor|].
    apply (IH t Ht _ (Hf t Ht)) in Hy. eapply below_trans_l; [|done].
    exists (map rose_root ts). split; [done|]. by apply elem_of_list_fmap_1.
  - intros Hb%below_inv_l. destruct Hb as [<-|(b & (ks & Hk' & Hb) & Hy)]; [by left|right].
    simplify_eq. apply elem_of_list_fmap in Hb as (t & -> & Ht). exists t. split; [done|].
    by apply (IH t Ht _ (Hf t Ht)).
Qed.

Lemma below_dom K a x : wf K -> is_Some (K !! a) -> below K a x -> is_Some (K !! x).
Proof. intros Hw Ha Hb. destruct Hb; [done|]. by eapply wf_dom. Qed.

(** Two children of the same list with a common descendant are equal. *)
Lemma below_common K p q x : wf K -> below K p x -> below K q x -> below K p q \/ below K q p.
Proof.
  intros Hw Hp. revert q. induction Hp as [|a c Ha IH Hc]; intros q Hq; [by right|].
  inversion Hq as [|b c' Hb Hc']; simplify_eq.
  - left. by eapply below_step.
  - assert (a = b) as -> by (eapply wf_uniq; eauto). by apply IH.
Qed.
Lemma below_antisym_child K p c : wf K -> child_of K p c -> ~ below K c p.
Proof.
  intros Hw. revert c. induction (wf_acyclic _ Hw p) as [p _ IH]. intros c Hc Hb.
  apply below_inv_l in Hb as [->|(b & Hcb & Hbp)].
  - by eapply (IH p Hc p Hc); constructor.
  - apply (IH c Hc b Hcb). by eapply below_step.
Qed.
Lemma siblings_disjoint K p c d x : wf K -> child_of K p c -> child_of K p d ->
  below K c x -> below K d x -> c = d.
Proof.
  intros Hw Hc Hd Hcx Hdx.
  assert (forall c d, child_of K p c -> child_of K p d -> below K c d -> c = d) as Haux.
  { clear -Hw. intros c d Hc Hd Hb. inversion Hb as [|q d' Hb' Hq]; simplify_eq; [done|].
    assert (q = p) as -> by (eapply wf_uniq; eauto). by destruct (below_antisym_child K p c). }
  destruct (below_common K c d x Hw Hcx Hdx); [by apply Haux|symmetry; by apply Haux].
Qed.

Lemma NoDup_concat_map {A B} (f : A -> list B) l :
  (forall a, a ∈ l -> NoDup (f a)) ->
  (forall i j a b y, l !! i = Some a -> l !! j = Some b -> y ∈ f a -> y ∈ f b -> i = j) ->
  NoDup (concat (map f l)).
Proof.
  induction l as [|a l IH]; intros H1 H2; simpl; [constructor|].
  apply NoDup_app. split_and!.
  - apply H1. set_solver.
  - intros y Hy (b & Hb & Hyb)%elem_of_concat_map. apply elem_of_list_lookup in Hb as [j Hj].
    by specialize (H2 0 (S j) a b y eq_refl Hj Hy Hyb).
  - apply IH.
    + intros b Hb. apply H1. set_solver.
    + intros i j b c y Hi Hj Hyb Hyc. specialize (H2 (S i) (S j) b c y Hi Hj Hyb Hyc). lia.
Qed.

Lemma shape_nodup K x t : wf K -> shape K x t -> NoDup (rose_nodes t).
Proof.
  intros Hw. revert x. induction t as [z ts IH] using rose_ind2. intros x Hs.
  inversion Hs as [? ? Hk Hf]; simplify_eq. rewrite Forall_forall in IH, Hf. simpl.
  assert (forall t, t ∈ ts -> child_of K z (rose_root t)) as Hc.
  { intros t Ht. exists (map rose_root ts). split; [done|]. by apply elem_of_list_fmap_1. }
  constructor.
  - intros (t & Ht & Hz)%elem_of_concat_map.
    eapply (below_antisym_child K z (rose_root t)); [done|by apply Hc|].
    by eapply shape_nodes; [apply Hf|].
  - apply NoDup_concat_map.
    + intros t Ht. eapply IH; [done|by apply Hf].
    + intros i j a b y Hi Hj Hya Hyb.
      pose proof (elem_of_list_lookup_2 _ _ _ Hi) as Hai. pose proof (elem_of_list_lookup_2 _ _ _ Hj) as Hbj.
      assert (rose_root a = rose_root b) as Hab.
      { eapply siblings_disjoint; [done|by apply Hc|by apply Hc| |].
        - by eapply shape_nodes; [apply Hf|].
        - by eapply shape_nodes; [apply Hf|]. }
      eapply (NoDup_lookup (map rose_root ts)); [by eapply wf_nodup| |].
      * rewrite list_lookup_fmap, Hi. done.
      * rewrite list_lookup_fmap, Hj. simpl. by f_equal.
Qed.

(** ** Event lists *)
Section Events.
Context {A : Type}.
Implicit Types (t : rose A).

Lemma dfs_events_elem t (e : dft A) : e ∈ dfs_events t <-> ev_val e ∈ rose_nodes t.
Proof.
  induction t as [x ts IH] using rose_ind2. rewrite Forall_forall in IH. simpl.
  rewrite !elem_of_cons, elem_of_app, !elem_of_concat_map, elem_of_list_singleton. split.
  - intros [->|[(t & Ht & He)| ->]]; [by left| |by left]. right. exists t. split; [done|]. by apply IH.
  - intros [Hx|(t & Ht & He)].
    + destruct e; simpl in Hx; subst; [by left|by right; right].
    + right; left. exists t. split; [done|]. by apply IH.
Qed.

Lemma dfs_events_nodup t : NoDup (rose_nodes t) -> NoDup (dfs_events t).
Proof.
  induction t as [x ts IH] using rose_ind2. rewrite Forall_forall in IH. simpl.
  rewrite NoDup_cons. intros [Hx Hn]. 
  assert (forall e : dft A, e ∈ concat (map dfs_events ts) -> ev_val e ∈ concat (map rose_nodes ts)) as Hsub.
  { intros e (t & Ht & He)%elem_of_concat_map. apply elem_of_concat_map. exists t. split; [done|].
    by apply dfs_events_elem. }
  constructor.
  - rewrite elem_of_app, elem_of_list_singleton. intros [H|H]; [|done]. by apply Hsub in H.
  - apply NoDup_app. split_and!.
    + clear Hx Hsub. induction ts as [|t ts IHts]; simpl in *; [constructor|].
      apply NoDup_app in Hn as (Hn1 & Hn2 & Hn3). apply NoDup_app. split_and!.
      * apply IH; [set_solver|done].
      * intros e He1 (t2 & Ht2 & He2)%elem_of_concat_map.
        apply (Hn2 (ev_val e)); [by apply dfs_events_elem|].
        apply elem_of_concat_map. exists t2. split; [done|]. by apply dfs_events_elem.
      * apply IHts; [|done]. intros; apply IH; set_solver.
    + intros e He ->%elem_of_list_singleton. by apply Hsub in He.
    + apply NoDup_singleton.
Qed.

Lemma dfs_events_length t : length (dfs_events t) = 2 * length (rose_nodes t).
Proof.
  induction t as [x ts IH] using rose_ind2. simpl. rewrite app_length. simpl.
  enough (length (concat (map dfs_events ts)) = 2 * length (concat (map rose_nodes ts))) by lia.
  induction IH as [|t ts Ht _ IHts]; simpl; [done|]. rewrite !app_length. lia.
Qed.

End Events.
