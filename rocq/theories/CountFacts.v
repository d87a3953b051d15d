(** * CountFacts: the counters are bounded by the number of handles and nodes. *)
From Verif Require Import Heap System SysSpec SpecFacts SysFacts ApiSpec ApiFacts2 ApiFacts3 GenSpec GenFacts GenFacts3 GenFacts5 GenFacts7 Spec.

Section CountFacts.
Context {T : Type}.
Implicit Types (s : sys T) (hm : gmap nat handle).

Lemma held_le hm (l : list nat) : NoDup l -> (forall i, i ∈ l -> is_Some (hm !! i)) -> length l <= size hm.
Proof.
  intros Hn H. rewrite <- size_dom. rewrite <- (size_list_to_set (C := gset nat) l Hn).
  apply subseteq_size. intros i. rewrite elem_of_list_to_set, elem_of_dom. apply H.
Qed.
Lemma card_le hm (P : nat -> Prop) n : card P n -> (forall i, P i -> is_Some (hm !! i)) -> n <= size hm.
Proof. intros (l & Hn & Hl & <-) H. apply held_le; [done|]. intros i Hi. by apply H, Hl. Qed.
Lemma card_sub (P Q : nat -> Prop) a b : card P a -> card Q b -> (forall i, P i -> Q i) -> a <= b.
Proof.
  intros (l & Hn & Hl & <-) (l' & Hn' & Hl' & <-) H. apply submseteq_length, NoDup_submseteq; [done|].
  intros i Hi. by apply Hl', H, Hl.
Qed.
Lemma pick_handles hm k (l : list nid) : NoDup l -> (forall x, x ∈ l -> exists i, hm !! i = Some (HNode k x)) ->
  exists li : list nat, NoDup li /\ length li = length l /\ forall i, i ∈ li -> exists x, x ∈ l /\ hm !! i = Some (HNode k x).
Proof.
  induction l as [|x l IH]; intros Hn H; [exists []; split; [constructor|]; split; [done|]; intros i Hi; by apply elem_of_nil in Hi|].
  apply NoDup_cons in Hn as [Hx Hn]. destruct IH as (li & Hni & Hlen & Hli); [done|intros y Hy; apply H; by right|].
  destruct (H x) as [i Hi]; [by left|]. exists (i :: li). split; [|split].
  - apply NoDup_cons. split; [|done]. intros F. destruct (Hli i F) as (y & Hy & Hiy). rewrite Hi in Hiy. injection Hiy as <-. by apply Hx.
  - simpl. by rewrite Hlen.
  - intros j Hj. apply elem_of_cons in Hj as [->|Hj]; [exists x; split; [by left|done]|].
    destruct (Hli j Hj) as (y & Hy & Hjy). exists y. split; [by right|done].
Qed.
Lemma holders_le s hm k t n : holders s hm k t n -> n <= size hm.
Proof.
  intros (a & b & (la & Hna & Hla & <-) & (lb & Hnb & Hlb & <-) & ->).
  destruct (pick_handles hm k lb Hnb) as (li & Hni & Hlen & Hli). { intros x Hx. apply Hlb in Hx as (_ & _ & H). exact H. }
  replace (length la + length lb) with (length (la ++ li)) by (rewrite app_length; f_equal; exact Hlen). apply held_le.
  - apply NoDup_app. split; [done|]. split; [|done]. intros i Hi F. apply Hla in Hi as [Hk Hi]. destruct (Hli i F) as (x & _ & Hx).
    rewrite Hi in Hx. by destruct k.
  - intros i Hi. apply elem_of_app in Hi as [Hi|Hi]; [apply Hla in Hi as [_ Hi]; by eexists|]. destruct (Hli i Hi) as (x & _ & Hx). by eexists.
Qed.

Lemma any_counts s : any s ->
  (forall x t rc lk, n_memb s x = Some (MStrong t rc lk) -> 0 < rc /\ lk <= rc <= size (s_hands s)) /\
  (forall t tr, s_trees s !! t = Some tr -> (Z.abs (t_cnt tr) <= Z.of_nat (size (s_hands s)))%Z).
Proof.
  intros H. pose proof (g_h _ _ (any_ok s H)) as Hh. split.
  - intros x t rc lk Hx. destruct (h_strong _ _ Hh _ _ _ _ Hx) as (_ & Hp & Hrc & Hlk). split; [done|]. split.
    + apply (card_sub _ _ _ _ Hlk Hrc). intros i (k & _ & Hi). by exists k.
    + apply (card_le _ _ _ Hrc). intros i [k Hi]. by eexists.
  - intros t tr Ht. destruct (h_lock _ _ Hh _ _ Ht) as (g & p & Hg & Hp & -> & H0).
    pose proof (holders_le _ _ _ _ _ Hg). pose proof (holders_le _ _ _ _ _ Hp). lia.
Qed.
Lemma reach_nch s x nd : reach s -> s_nodes s !! x = Some nd -> n_nch nd < size (s_nodes s).
Proof.
  intros R Hx. destruct (reach_stores s R) as [K [Hrep Hwf]].
  assert (exists ks, K !! x = Some ks) as [ks Hk]. { apply (rep_dom _ _ Hrep). by eexists. }
  pose proof (rep_nch _ _ Hrep _ _ Hk) as Hn. unfold fnch in Hn. rewrite Hx in Hn. simpl in Hn.
  cut (length (x :: ks) <= size (s_nodes s)). { simpl. lia. }
  rewrite <- size_dom. rewrite <- (size_list_to_set (C := gset nat) (x :: ks)).
  - apply subseteq_size. intros y. rewrite elem_of_list_to_set, elem_of_dom. intros Hy. apply (rep_dom _ _ Hrep).
    apply elem_of_cons in Hy as [->|Hy]; [by eexists|]. apply (wf_dom _ Hwf x). by exists ks.
  - apply NoDup_cons. split; [|by eapply wf_nodup]. intros F. apply (child_irrefl K x Hwf). by exists ks.
Qed.
End CountFacts.
Lemma any_counts' : forall (T : Type) (s : sys T), any s ->
  (forall (x : nid) nd (t : tid) rc lk, s_nodes s !! x = Some nd -> n_mem nd = MStrong t rc lk ->
    0 < rc /\ lk <= rc /\ rc <= size (s_hands s)) /\
  (forall (t : tid) tr, s_trees s !! t = Some tr -> (Z.abs (t_cnt tr) <= Z.of_nat (size (s_hands s)))%Z).
Proof.
  intros T s H. destruct (any_counts s H) as [H1 H2]. split; [|exact H2]. intros x nd t rc lk Hx Hm.
  destruct (H1 x t rc lk) as [A [B C]]; [unfold n_memb; rewrite Hx; simpl; by rewrite Hm|]. done.
Qed.
