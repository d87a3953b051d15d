(** * Misled2: unlinking the last of several siblings does everything right except the
    previous-sibling link of the first sibling, which keeps naming the unlinked node. *)
From Verif Require Import Heap Edit System SysSpec HeapFacts SpecFacts NavFacts EditFacts EditFacts2 Misled Spec.

Section Misled2.
Context {T : Type}.
Implicit Types (h : heap T) (K : forest).

(** [h1] is [h] with [x], the last child of [p], cut off, and nothing else changed. *)
Record cut h (p : nid) (ks : list nid) (x : nid) h1 : Prop := {
  cut_alive : forall y, alive h1 y = alive h y;
  cut_first : forall y, ffirst h1 y = ffirst h y;
  cut_nch : forall y, fnch h1 y = if decide (y = p) then length ks else fnch h y;
  cut_parent : forall y, fparent h1 y = if decide (y = x) then None else fparent h y;
  cut_next : forall y, fnext h1 y = if decide (y = x \/ last ks = Some y) then None else fnext h y;
  cut_prev : forall y, fprev h1 y = if decide (y = x) then Some x else fprev h y;
  cut_meta : same_meta h h1;
}.

Lemma cut_rep h K p f m x h1 : rep h K -> wf K -> K !! p = Some (f :: m ++ [x]) -> cut h p (f :: m) x h1 ->
  exists h', rep h' (<[p := f :: m]> K) /\ same_meta h h' /\ h1 = set_prev h' f (Some x).
Proof.
  intros Hr Hw Hp [C1 C2 C3 C4 C5 C6 C7]. exists (set_prev h1 f (last (f :: m))).
  pose proof (wf_nodup _ Hw _ _ Hp) as Hnd. pose proof (rep_linked _ _ Hr _ _ Hp) as Hl.
  assert (child_of K p x) as Hpx. { exists (f :: m ++ [x]). split; [done|]. apply elem_of_list_further. set_solver. }
  assert (p <> x) as Hne. { intros <-. eapply child_irrefl; eauto. }
  assert (child_of K p f) as Hpf. { exists (f :: m ++ [x]). split; [done|]. left. }
  assert (alive h1 f = true) as Haf. { rewrite C1. eapply rep_child_alive; eauto. }
  change (f :: m ++ [x]) with ((f :: m) ++ [x]) in *.
  assert (x ∉ f :: m) as Hx. { apply NoDup_app in Hnd as (_ & Hd & _). intros Hin. apply (Hd x Hin). left. }
  assert (f <> x) as Hfx. { intros ->. apply Hx. left. }
  assert (forall q c, q <> p -> child_of K q c -> c ∉ (f :: m) ++ [x]) as Hoth.
  { intros q c Hq Hqc Hin. apply Hq. eapply wf_uniq; [done|done|]. by exists ((f :: m) ++ [x]). }
  split; [|split].
  - eapply rep_update; [exact Hr|rewrite Hp; eauto| | | | | | |].
    + apply alive_dom. intros y. hs. apply C1.
    + intros y Hy. hs. rewrite C2, C3, decide_False by done. done.
    + intros q c Hq Hqc. pose proof (Hoth q c Hq Hqc) as Hc.
      assert (c <> x) by (intros ->; apply Hc; set_solver). assert (c <> f) by (intros ->; apply Hc; left).
      assert (last (f :: m) <> Some c). { intros E. apply last_Some_elem_of in E. apply Hc. set_solver. }
      hs. rewrite C4, C5, C6, !decide_False by (try done; by intros [?|?]). done.
    + hs. rewrite C2. by rewrite (rep_first _ _ Hr _ _ Hp).
    + hs. by rewrite C3, decide_True.
    + apply linked_chain. intros i c Hi. assert (c ∈ f :: m) as Hc by (by eapply elem_of_list_lookup_2).
      assert (c <> x) by (by intros ->). destruct (Hl i c) as (L1 & L2 & L3). { by apply lookup_app_l_Some. }
      rewrite fparent_set_prev, fnext_set_prev, fprev_set_prev, C4, C5, C6, !(decide_False (P := c = x)) by done.
      split; [done|]. split.
      * destruct (decide (c = x \/ last (f :: m) = Some c)) as [[?|E]|Hn]; [done| |].
        -- assert (i = pred (length (f :: m))) as ->.
           { rewrite last_lookup in E. eapply NoDup_lookup; [|exact Hi|exact E]. by apply NoDup_app in Hnd as (? & _). }
           symmetry. apply lookup_ge_None. simpl. lia.
        -- rewrite L2. destruct (decide (S i < length (f :: m))) as [Hlt|Hge]; [by apply lookup_app_l|].
           exfalso. apply Hn. right. rewrite last_lookup. apply lookup_lt_Some in Hi as Hi'. rewrite <-Hi. f_equal. lia.
      * destruct i as [|i].
        -- injection Hi as ->. rewrite decide_True by done. by rewrite Haf.
        -- assert (c <> f). { intros ->. assert (S i = 0); [|done]. eapply NoDup_lookup; [|exact Hi|done]. by apply NoDup_app in Hnd as (? & _). }
           rewrite decide_False by done. rewrite L3. apply lookup_app_l. apply lookup_lt_Some in Hi. simpl in *. lia.
    + intros y Hy. destruct (top_update _ _ _ _ _ Hp Hy) as [Hy1 Hy2].
      destruct (decide (y = x)) as [->|Hyx].
      * hs. rewrite C4, C5, C6, !decide_True by auto. done.
      * assert (y ∉ (f :: m) ++ [x]) as Hy3. { intros [?|Hyx1]%elem_of_app; [done|]. by apply elem_of_list_singleton in Hyx1. }
        assert (y <> f) by (intros ->; apply Hy3; left).
        assert (last (f :: m) <> Some y). { intros E. apply last_Some_elem_of in E. done. }
        hs. rewrite C4, C5, C6, !decide_False by (try done; by intros [?|?]). apply (rep_top _ _ Hr), Hy2. done.
  - intros y. hs. apply C7.
  - symmetry. unfold set_prev. rewrite <-alter_compose. apply alter_id. intros nd Hnd1.
    assert (fprev h1 f = Some x) as E. { rewrite C6, decide_False by done. destruct (Hl 0 f eq_refl) as (_ & _ & ->). by rewrite last_snoc. }
    unfold fprev in E. rewrite Hnd1 in E. simpl in E. destruct nd; simpl in *. by subst.
Qed.

Lemma unlink_cut h K p f m x : rep h K -> wf K -> K !! p = Some (f :: m ++ [x]) ->
  exists h1, new_by_unlink h x = Ret (h1, true) /\ cut h p (f :: m) x h1.
Proof.
  intros Hr Hw Hp. change (f :: m ++ [x]) with ((f :: m) ++ x :: []) in Hp.
  pose proof (split_child_of _ _ _ _ _ Hp) as Hpn.
  unfold new_by_unlink, next_sibling_link.
  rewrite (is_root_child _ _ _ _ Hr Hpn), (parent_link_child _ _ _ _ Hr Hpn), (prev_sibling_split _ _ _ _ _ _ Hr Hw Hp),
    (psc_split _ _ _ _ _ _ Hr Hw Hp), (is_first_split _ _ _ _ _ _ Hr Hw Hp), (fnext_split _ _ _ _ _ _ Hr Hp).
  pose proof (rep_nch _ _ Hr _ _ Hp) as Hk. rewrite app_length in Hk. simpl in Hk.
  assert (alive h x = true) as Hax by (eapply rep_child_alive; eauto).
  assert (alive h p = true) as Hap by (eapply rep_alive; eauto).
  assert (p <> x) as Hne. { intros <-. eapply child_irrefl; eauto. }
  simpl. unfold num_children_sub.
  replace (Nat.ltb 0 (fnch h p)) with true by (symmetry; apply Nat.ltb_lt; lia).
  replace (Nat.leb 1 (fnch h p)) with true by (symmetry; apply Nat.leb_le; lia). simpl.
  destruct (last (f :: m)) as [a|] eqn:El; [|by apply last_None in El].
  assert (alive h a = true) as Haa. { eapply rep_child_alive; [done|done|]. exists ((f :: m) ++ [x]). split; [done|]. apply last_Some_elem_of in El. set_solver. }
  assert (a <> x) as Hax2.
  { intros ->. apply last_Some_elem_of in El. pose proof (wf_nodup _ Hw _ _ Hp) as Hnd. apply NoDup_app in Hnd as (_ & Hd & _). apply (Hd x El). left. }
  eexists. split; [reflexivity|]. split.
  - intros y. hs; done.
  - intros y. hs; done.
  - intros y. hs; rewrite ?Hap; simpl; try done. lia.
  - intros y. hs; rewrite ?Hax; done.
  - intros y. rewrite El. destruct (decide (y = x)) as [->|].
    + rewrite (decide_True (P := x = x \/ _)) by auto. hs. by rewrite Hax.
    + destruct (decide (y = a)) as [->|].
      * rewrite (decide_True (P := a = x \/ _)) by auto. hs. by rewrite Haa.
      * rewrite (decide_False (P := y = x \/ _)) by (intros [?|?]; congruence). hs; done.
  - intros y. hs; rewrite ?Hax; done.
  - intros y. hs; done.
Qed.

Lemma replace_cut h K p f m x : rep h K -> wf K -> K !! p = Some (f :: m ++ [x]) -> K !! x = Some [] ->
  exists h1, replace_with_children h x = Ret (h1, HOk None) /\ cut h p (f :: m) x h1.
Proof.
  intros Hr Hw Hp Hx. change (f :: m ++ [x]) with ((f :: m) ++ x :: []) in Hp.
  pose proof (split_child_of _ _ _ _ _ Hp) as Hpn.
  pose proof (rep_nch _ _ Hr _ _ Hp) as Hk. rewrite app_length in Hk. simpl in Hk.
  pose proof (rep_nch _ _ Hr _ _ Hx) as Hkx. pose proof (rep_first _ _ Hr _ _ Hx) as Hfx. simpl in Hkx, Hfx.
  assert (alive h x = true) as Hax by (eapply rep_child_alive; eauto).
  assert (alive h p = true) as Hap by (eapply rep_alive; eauto).
  assert (p <> x) as Hne. { intros <-. eapply child_irrefl; eauto. }
  destruct (last (f :: m)) as [a|] eqn:El; [|by apply last_None in El].
  assert (alive h a = true) as Haa. { eapply rep_child_alive; [done|done|]. exists ((f :: m) ++ [x]). split; [done|]. apply last_Some_elem_of in El. set_solver. }
  assert (a <> x) as Hax2.
  { intros ->. apply last_Some_elem_of in El. pose proof (wf_nodup _ Hw _ _ Hp) as Hnd. apply NoDup_app in Hnd as (_ & Hd & _). apply (Hd x El). left. }
  assert (a <> p) as Hapne. { intros ->. apply last_Some_elem_of in El. eapply (child_irrefl K p Hw). exists ((f :: m) ++ [x]). split; [done|]. set_solver. }
  unfold replace_with_children. rewrite (parent_link_child _ _ _ _ Hr Hpn).
  unfold replace_with_children_nonroot, first_child_link, next_sibling_link. rewrite Hfx. unfold walk_fuel. cbn [reparent_chain mbind run_bind].
  rewrite (prev_sibling_split _ _ _ _ _ _ Hr Hw Hp), (fnext_split _ _ _ _ _ _ Hr Hp). rewrite El. cbn [mbind run_bind head].
  unfold num_children_sub. rewrite !fnch_set_next.
  replace (Nat.ltb 0 (fnch h p)) with true by (symmetry; apply Nat.ltb_lt; lia).
  replace (Nat.leb 1 (fnch h p)) with true by (symmetry; apply Nat.leb_le; lia). cbn [mbind run_bind assertb].
  eexists. split; [reflexivity|]. unfold disconnect. split.
  - intros y. hs; done.
  - intros y. hs; rewrite ?Hax; done.
  - intros y. destruct (decide (y = x)) as [->|].
    + rewrite (decide_False (P := x = p)) by done. hs. by rewrite Hax, Hkx.
    + hs; rewrite ?Hap, ?Hkx; simpl; try done. lia.
  - intros y. hs; rewrite ?Hax; done.
  - intros y. rewrite El. destruct (decide (y = x)) as [->|].
    + rewrite (decide_True (P := x = x \/ _)) by auto. hs. by rewrite Hax.
    + destruct (decide (y = a)) as [->|].
      * rewrite (decide_True (P := a = x \/ _)) by auto. hs. by rewrite Haa.
      * rewrite (decide_False (P := y = x \/ _)) by (intros [?|?]; congruence). hs; done.
  - intros y. hs; rewrite ?Hax; done.
  - intros y. hs; done.
Qed.

End Misled2.
