(** * Misled6: detaching, replacing and moving the last of several siblings, exactly. *)
From Verif Require Import Heap Edit Traverse System SysSpec CardFacts HeapFacts SpecFacts NavFacts NavFacts2 EditFacts EditFacts2 EditFacts3 EditFacts4 EditFacts5 IterSpec RoseFacts AdjFacts TravFacts TdFacts TdFacts2 SysFacts SysFacts2 SysFacts3 SysFacts4 SysFacts5 SysFacts6 SysFacts7 SysFacts8 SysFacts9 SysFacts10 SysFacts11 SysFacts12 SysFacts13 SysFacts14 SysFacts15 Misled Misled2 Misled3 Misled4 Misled5 ApiSpec MisledSpec ApiFacts ApiFacts2 ApiFacts3 ApiFacts6 Spec.

Section Misled6.
Context {T : Type}.
Implicit Types (h : heap T) (s g : sys T) (K : forest).

Lemma sp_misled g f x : misled g f x (sp f (Some x) g).
Proof.
  split; try done.
  - intros y Hy. unfold sp. simpl. rewrite sp_look. destruct (s_nodes g !! y); simpl; [|done]. by destruct (decide (y = f)).
  - unfold sp. simpl. rewrite sp_look. destruct (s_nodes g !! f); simpl; [|done]. by destruct (decide (f = f)).
Qed.

(** The wrong link is a real defect: no forest is stored. *)
Lemma nostore g K p f ks x K' : stores g K -> K !! p = Some ks -> head ks = Some f -> last ks <> Some x ->
  stores (sp f (Some x) g) K' -> False.
Proof.
  intros [R W] Hp Hf Hl [R' W'].
  assert (is_Some (K' !! p)) as [ks' Hp'].
  { apply (rep_dom _ _ R'). unfold sp. simpl. rewrite sp_look. apply fmap_is_Some. apply (rep_dom _ _ R). eauto. }
  pose proof (rep_first _ _ R' p ks' Hp') as H1. unfold sp in H1. simpl in H1. rewrite sp_first, (rep_first _ _ R p ks Hp), Hf in H1.
  pose proof (rep_nch _ _ R' p ks' Hp') as H2. unfold sp in H2. simpl in H2. rewrite sp_fnch, (rep_nch _ _ R p ks Hp) in H2.
  pose proof (rep_linked _ _ R p ks Hp) as L. pose proof (rep_linked _ _ R' p ks' Hp') as L'.
  assert (ks' = ks) as ->.
  { assert (forall i, ks' !! i = ks !! i) as Hi; [|by apply list_eq].
    induction i as [|i IH].
    - rewrite <- !head_lookup. congruence.
    - destruct (ks !! i) as [c|] eqn:Ec.
      + destruct (L i c Ec) as (_ & A & _). destruct (L' i c IH) as (_ & B & _). unfold sp in B. simpl in B. rewrite sp_next in B. congruence.
      + apply lookup_ge_None_1 in Ec. rewrite !lookup_ge_None_2; [done|lia|lia]. }
  destruct (L' 0 f) as (_ & _ & B); [by rewrite <- head_lookup|]. simpl in B. apply Hl. rewrite <- B. unfold fprev, sp. simpl. rewrite sp_look.
  assert (is_Some (s_nodes g !! f)) as [nd Hnd].
  { apply (rep_dom _ _ R). apply (wf_dom _ W p f). exists ks. split; [done|]. by apply head_Some_elem_of. }
  rewrite Hnd. simpl. by destruct (decide (f = f)).
Qed.

Lemma below_dec K x y : wf K -> is_Some (K !! x) -> below K x y \/ ~ below K x y.
Proof.
  intros W Hx. destruct (shape_exists K x W Hx) as [tr Hs]. destruct (decide (y ∈ rose_nodes tr)) as [Hi|Hi].
  - left. by apply (shape_nodes K x tr).
  - right. intros Hb. apply Hi. by apply (shape_nodes K x tr).
Qed.

(** If the rest of the tree goes away, nothing held it. *)
Lemma gone_alone s K x K1 t t' g K2 K3 : inv s K -> unlinked K x K1 -> tree_of s x = Some t -> is_Some (K !! x) ->
  carries s K1 x t t' g K2 -> inv g K3 -> ~ tree_held g (s_hands g) t -> alone s K x.
Proof.
  intros H Hu Et Hx C I Hno t1 Et1. assert (t1 = t) as -> by congruence. pose proof (inv_wf s K H) as W.
  assert (s_hands g = s_hands s) as Eh by (exact (cy_hands _ _ _ _ _ _ _ C)).
  split.
  - intros i Hi. apply Hno. left. exists i. by rewrite Eh.
  - intros i k y Hi Hy. destruct (below_dec K x y W Hx) as [Hb|Hb]; [exact Hb|exfalso].
    apply Hno. right. exists i, k, y. split; [by rewrite Eh|]. rewrite <- Hy. apply (cy_out _ _ _ _ _ _ _ C).
    + intros Hb1. apply Hb. by apply (unlinked_below K x K1 y W Hu).
    + eapply handle_alive; [exact I|]. rewrite Eh. exact Hi.
Qed.

Lemma last_not_in K p f m x : wf K -> K !! p = Some (f :: m ++ [x]) -> x ∉ f :: m.
Proof.
  intros W Hp Hin. assert (NoDup (f :: m ++ [x])) as Hn by (by apply (wf_nodup _ W p)).
  change (f :: m ++ [x]) with ((f :: m) ++ [x]) in Hn. apply NoDup_app in Hn as (_ & Hd & _). apply (Hd x Hin). by apply elem_of_list_singleton.
Qed.

(** [g] is the correct result of taking the last child away, [s'] the actual one; they
    agree if the tree left behind is deallocated; otherwise [s'] stores no forest. *)
Lemma rehomed_exact s K x p f m t t' g K2 : inv s K -> K !! p = Some (f :: m ++ [x]) -> tree_of s x = Some t -> is_Some (K !! x) ->
  rehomed s (<[p := f :: m]> K) x t t' g K2 ->
  (alone s K x -> sp f (Some x) g = g) /\ (~ alone s K x -> K2 = <[p := f :: m]> K /\ forall K', ~ stores (sp f (Some x) g) K').
Proof.
  intros H Hp Et Hx R. pose proof (inv_wf s K H) as W. pose proof (last_unlinked K p f m x W Hp) as Hu. split.
  - intros A. eapply rehomed_alone; [exact H|exact Hu|exact R|exact Et|exact A| |].
    + by eapply first_outside.
    + by eapply sibling_tree.
  - intros Hna. pose proof (carried_carries _ _ _ _ _ _ _ _ (rh_inv _ _ _ _ _ _ _ R) (rh_carried _ _ _ _ _ _ _ R)) as C.
    destruct (cy_rest _ _ _ _ _ _ _ C) as [(_ & _ & ->)|(Hno & _ & _)].
    + split; [done|]. intros K' Hst'. eapply (nostore g _ p f (f :: m) x K'); [apply inv_stores; exact (rh_inv _ _ _ _ _ _ _ R)|by rewrite lookup_insert|done| |exact Hst'].
      intros Hl. apply (last_not_in K p f m x W Hp). by apply elem_of_last.
    + exfalso. apply Hna. eapply gone_alone; [exact H|exact Hu|exact Et|exact Hx|exact C|exact (rh_inv _ _ _ _ _ _ _ R)|exact Hno].
Qed.

End Misled6.
