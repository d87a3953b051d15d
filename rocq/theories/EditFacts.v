(** * EditFacts: the link surgery refines edits of child lists. *)
From Verif Require Import Heap Edit Spec HeapFacts SpecFacts NavFacts.

Section Facts.
Context {T : Type}.
Implicit Types (h : heap T) (K : forest).

Lemma alive_dom h h' :
  (forall x, alive h' x = alive h x) -> forall x, is_Some (h' !! x) <-> is_Some (h !! x).
Proof. intros H x. rewrite <-!alive_spec. by rewrite H. Qed.

(** Allocation of an orphan. *)
Lemma rep_alloc h K n d m :
  rep h K -> wf K -> K !! n = None -> rep (alloc h n d m) (<[n := []]> K).
Proof.
  intros Hr Hw Hn. split.
  - intros x. rewrite <-alive_spec, alive_alloc. destruct (decide (x = n)) as [->|].
    + rewrite lookup_insert. naive_solver eauto.
    + rewrite lookup_insert_ne by done. rewrite alive_spec. apply (rep_dom _ _ Hr).
  - intros x ks. rewrite ffirst_alloc. destruct (decide (x = n)) as [->|].
    + rewrite lookup_insert. by intros [= <-].
    + rewrite lookup_insert_ne by done. apply (rep_first _ _ Hr).
  - intros x ks. rewrite fnch_alloc. destruct (decide (x = n)) as [->|].
    + rewrite lookup_insert. by intros [= <-].
    + rewrite lookup_insert_ne by done. apply (rep_nch _ _ Hr).
  - intros x ks. destruct (decide (x = n)) as [->|].
    + rewrite lookup_insert. intros [= <-]. intros i c. by rewrite lookup_nil.
    + rewrite lookup_insert_ne by done. intros Hx. apply linked_chain.
      eapply chain_frame; [|eapply rep_chain; eauto]. intros c Hc.
      rewrite fparent_alloc, fprev_alloc, fnext_alloc.
      assert (is_Some (K !! c)) as [? ?] by (eapply wf_dom; [done|]; exists ks; eauto).
      rewrite !decide_False by congruence. done.
  - intros x [Hx Htop]. rewrite fparent_alloc, fprev_alloc, fnext_alloc.
    destruct (decide (x = n)) as [->|]; [done|].
    apply (rep_top _ _ Hr). split; [by rewrite lookup_insert_ne in Hx|].
    intros p Hc. apply (Htop p). apply child_of_insert. right. split; [|done].
    intros ->. destruct Hc as (ks & ? & ?). congruence.
Qed.

(** Common facts about the nodes involved in an insertion. *)
Lemma attach_facts h K p ks n :
  rep h K -> wf K -> K !! p = Some ks -> is_top K n ->
  alive h n = true /\ alive h p = true /\ n ∉ ks /\ NoDup ks /\
  fnch h p = length ks /\ chain h p (default p (last ks)) ks None /\
  (forall c, c ∈ ks -> alive h c = true) /\
  (forall x c, x <> p -> child_of K x c -> c <> n /\ c ∉ ks) /\
  fnext h n = None.
Proof.
  intros Hr Hw Hp Hn. split_and!.
  - eapply rep_alive; [done|]; apply Hn.
  - eapply rep_alive; eauto.
  - intros ?; destruct Hn as [_ Hn]; apply (Hn p); eapply child_intro; eauto.
  - eapply wf_nodup; eauto.
  - eapply rep_nch; eauto.
  - eapply rep_chain; eauto.
  - intros c Hc. eapply rep_child_alive; [done|done|]. eapply child_intro; eauto.
  - intros x c Hx Hxc. split.
    + intros ->. destruct Hn as [_ Hn]. eapply Hn; eauto.
    + intros Hin. apply Hx. eapply wf_uniq; [done|done|]. eapply child_intro; eauto.
  - eapply fnext_top; eauto.
Qed.

(** Inserting as the first child. *)
Lemma insert_first_ok h K p ks n :
  rep h K -> wf K -> K !! p = Some ks -> is_top K n ->
  exists h', insert_as_first_child_of h n true p = Ret (h', HOk tt) /\
             rep h' (<[p := n :: ks]> K) /\ same_meta h h'.
Proof.
  intros Hr Hw Hp Hn.
  unfold insert_as_first_child_of, loop_check. simpl.
  rewrite (first_last_rep _ _ _ _ Hr Hw Hp). simpl.
  eexists; split; [done|].
  destruct (attach_facts _ _ _ _ _ Hr Hw Hp Hn) as (Han & Hap & Hnk & Hnd & Hk & Hc & Hka & Hoth & Hnx).
  destruct ks as [|f m].
  - split; [|intros x; hs; done].
    eapply rep_update; [done|eauto| | | | | | |].
    + apply alive_dom. intros x. hs; done.
    + intros x Hx. hs; done.
    + intros x c Hx Hxc. destruct (Hoth _ _ Hx Hxc). hs; done.
    + hs. rewrite Hap. done.
    + hs. rewrite Hap. simpl in *. lia.
    + rewrite chain_cons. simpl. hs. rewrite Han. done.
    + intros x Hx. destruct (top_update _ _ _ _ _ Hp Hx) as [Hx1 Hx2].
      assert (x <> n) by ls. hs. apply (rep_top _ _ Hr), Hx2. ls.
  - assert (alive h f = true) as Haf by (apply Hka; ls).
    split; [|intros x; hs; done].
    eapply rep_update; [done|eauto| | | | | | |].
    + apply alive_dom. intros x. hs; done.
    + intros x Hx. hs; done.
    + intros x c Hx Hxc. destruct (Hoth _ _ Hx Hxc). assert (c <> f) by ls. hs; done.
    + hs. rewrite Hap. done.
    + hs. rewrite Hap. simpl in *. lia.
    + rewrite chain_cons in Hc. destruct Hc as (C1 & C2 & C3 & C4).
      apply NoDup_cons in Hnd as [Hfm Hnd].
      rewrite !chain_cons.
      rewrite (last_default_cons n n), (last_default_cons f f). simpl default.
      assert (n <> f) by ls.
      split_and!; try (hs; rewrite ?Han, ?Haf, ?Hap; simpl; done).
      eapply chain_frame; [|exact C4]. intros c Hc.
      assert (c <> f) by ls. assert (c <> n) by ls. hs; done.
    + intros x Hx. destruct (top_update _ _ _ _ _ Hp Hx) as [Hx1 Hx2].
      assert (x <> n) by ls. assert (x <> f) by ls.
      hs. apply (rep_top _ _ Hr), Hx2. ls.
Qed.

(** Inserting as the last child. *)
Lemma insert_last_ok h K p ks n :
  rep h K -> wf K -> K !! p = Some ks -> is_top K n ->
  exists h', insert_as_last_child_of h n true p = Ret (h', HOk tt) /\
             rep h' (<[p := ks ++ [n]]> K) /\ same_meta h h'.
Proof.
  intros Hr Hw Hp Hn.
  unfold insert_as_last_child_of, loop_check. simpl.
  rewrite (first_last_rep _ _ _ _ Hr Hw Hp). simpl.
  eexists; split; [done|].
  destruct (attach_facts _ _ _ _ _ Hr Hw Hp Hn) as (Han & Hap & Hnk & Hnd & Hk & Hc & Hka & Hoth & Hnx).
  destruct ks as [|f m].
  - split; [|intros x; hs; done].
    eapply rep_update; [done|eauto| | | | | | |].
    + apply alive_dom. intros x. hs; done.
    + intros x Hx. hs; done.
    + intros x c Hx Hxc. destruct (Hoth _ _ Hx Hxc). hs; done.
    + hs. rewrite Hap. done.
    + hs. rewrite Hap. simpl in *. lia.
    + simpl. rewrite chain_cons. simpl. hs. rewrite Han. done.
    + intros x Hx. destruct (top_update _ _ _ _ _ Hp Hx) as [Hx1 Hx2].
      assert (x <> n) by ls. hs. apply (rep_top _ _ Hr), Hx2. ls.
  - assert (alive h f = true) as Haf by (apply Hka; ls).
    set (z := default f (last m)) in *.
    assert (z ∈ f :: m) as Hz.
    { unfold z. destruct (last m) eqn:E; simpl; [apply elem_of_last in E|]; ls. }
    assert (alive h z = true) as Haz by auto.
    assert (n <> z) by ls. assert (n <> f) by ls.
    split; [|intros x; hs; done].
    eapply rep_update; [done|eauto| | | | | | |].
    + apply alive_dom. intros x. hs; done.
    + intros x Hx. hs; done.
    + intros x c Hx Hxc. destruct (Hoth _ _ Hx Hxc). assert (c <> f) by ls.
      assert (c <> z) by ls. hs; done.
    + hs. rewrite (rep_first _ _ Hr _ _ Hp). done.
    + hs. rewrite Hap, app_length. simpl in *. lia.
    + rewrite last_snoc. cbn [default].
      destruct (list_snoc_inv m) as [->|(m' & z' & ->)].
      * (* one child: f = z *)
        simpl in z. subst z.
        rewrite chain_cons in Hc. destruct Hc as (C1 & C2 & C3 & _). simpl.
        rewrite !chain_cons. simpl. split_and!; hs; rewrite ?Haf, ?Han; done.
      * assert (z = z') as Ez by (unfold z; by rewrite last_snoc). clearbody z. subst z.
        rewrite chain_cons in Hc. destruct Hc as (C1 & C2 & C3 & C4).
        apply NoDup_cons in Hnd as [Hfm Hnd].
        rewrite NoDup_app in Hnd. destruct Hnd as (Hnd1 & Hnd2 & _).
        rewrite chain_app, chain_cons in C4. destruct C4 as (D1 & E1 & E2 & E3 & _).
        assert (f <> z') by ls.
        simpl app. rewrite chain_cons. rewrite <-app_assoc, !chain_app. simpl app.
        rewrite !chain_cons.
        split_and!; try (hs; rewrite ?Haf, ?Han, ?Haz, ?Hap; simpl; done).
        -- hs. destruct m'; done.
        -- simpl hd_or in *. eapply chain_frame; [|exact D1]. intros c Hc.
           assert (c <> f) by ls. assert (c <> n) by ls.
           assert (c <> z') by ls. hs; done.
    + intros x Hx. destruct (top_update _ _ _ _ _ Hp Hx) as [Hx1 Hx2].
      assert (x <> n) by ls. assert (x <> f) by ls. assert (x <> z) by ls.
      hs. apply (rep_top _ _ Hr), Hx2. ls.
Qed.

(** Inserting between two adjacent siblings. *)
Lemma insert_between_ok h K p l1 a b l2 n :
  rep h K -> wf K -> K !! p = Some (l1 ++ a :: b :: l2) -> is_top K n ->
  exists h', insert_between h n p a b = Ret h' /\
             rep h' (<[p := l1 ++ a :: n :: b :: l2]> K) /\ same_meta h h'.
Proof.
  intros Hr Hw Hp Hn.
  destruct (attach_facts _ _ _ _ _ Hr Hw Hp Hn) as (Han & Hap & Hnk & Hnd & Hk & Hc & Hka & Hoth & Hnx).
  assert (K !! p = Some ((l1 ++ [a]) ++ b :: l2)) as Hp' by (by rewrite <-app_assoc).
  unfold insert_between, next_sibling_link.
  rewrite (parent_link_child _ _ _ _ Hr (split_child_of _ _ _ _ _ Hp)).
  rewrite (parent_link_child _ _ _ _ Hr (split_child_of _ _ _ _ _ Hp')).
  rewrite (fnext_split _ _ _ _ _ _ Hr Hp).
  rewrite (prev_sibling_split _ _ _ _ _ _ Hr Hw Hp'). rewrite last_snoc.
  unfold opt_is. simpl. rewrite !bool_decide_eq_true_2 by done. simpl.
  eexists; split; [done|].
  assert (alive h a = true) as Haa by (apply Hka; ls).
  assert (alive h b = true) as Hab by (apply Hka; ls).
  assert (n <> a) by ls. assert (n <> b) by ls.
  rewrite chain_app, !chain_cons in Hc.
  destruct Hc as (C1 & A1 & A2 & A3 & B1 & B2 & B3 & C2).
  apply NoDup_app in Hnd as (Hnd1 & Hdis & Hnd2).
  apply NoDup_cons in Hnd2 as [Hna Hnd2]. apply NoDup_cons in Hnd2 as [Hnb Hnd2].
  assert (a <> b) by ls.
  split; [|intros x; hs; done].
  eapply rep_update; [done|eauto| | | | | | |].
  - apply alive_dom. intros x. hs; done.
  - intros x Hx. hs; done.
  - intros x c Hx Hxc. destruct (Hoth _ _ Hx Hxc). assert (c <> a) by ls.
    assert (c <> b) by ls. hs; done.
  - hs. rewrite (rep_first _ _ Hr _ _ Hp). by destruct l1.
  - hs. rewrite Hap, Hk, !app_length. simpl. lia.
  - replace (last (l1 ++ a :: n :: b :: l2)) with (last (l1 ++ a :: b :: l2)) by (by rewrite !last_app_cons).
    rewrite chain_app, !chain_cons.
    split_and!; try (hs; rewrite ?Haa, ?Han, ?Hab, ?Hap; simpl; done).
    + eapply chain_frame; [|exact C1]. intros c Hc. assert (c <> a) by ls.
      assert (c <> b) by ls. assert (c <> n) by ls. hs; done.
    + eapply chain_frame; [|exact C2]. intros c Hc. assert (c <> a) by ls.
      assert (c <> b) by ls. assert (c <> n) by ls. hs; done.
  - intros x Hx. destruct (top_update _ _ _ _ _ Hp Hx) as [Hx1 Hx2].
    assert (x <> n) by ls. assert (x <> a) by ls. assert (x <> b) by ls.
    hs. apply (rep_top _ _ Hr), Hx2. ls.
Qed.

(** Unlinking.  [l1 = [] \/ l2 <> []]: the node is the first or not the last of
    its siblings. *)
Lemma unlink_ok h K p l1 n l2 :
  rep h K -> wf K -> K !! p = Some (l1 ++ n :: l2) -> (l1 = [] \/ l2 <> []) ->
  exists h', new_by_unlink h n = Ret (h', true) /\
             rep h' (<[p := l1 ++ l2]> K) /\ same_meta h h'.
Proof.
  intros Hr Hw Hp Hside.
  pose proof (split_child_of _ _ _ _ _ Hp) as Hpn.
  unfold new_by_unlink, next_sibling_link.
  rewrite (is_root_child _ _ _ _ Hr Hpn).
  rewrite (parent_link_child _ _ _ _ Hr Hpn).
  rewrite (prev_sibling_split _ _ _ _ _ _ Hr Hw Hp).
  rewrite (psc_split _ _ _ _ _ _ Hr Hw Hp).
  rewrite (is_first_split _ _ _ _ _ _ Hr Hw Hp).
  rewrite (fnext_split _ _ _ _ _ _ Hr Hp). simpl.
  pose proof (rep_nch _ _ Hr _ _ Hp) as Hk. rewrite app_length in Hk. simpl in Hk.
  assert (alive h n = true) as Han by (eapply rep_child_alive; eauto).
  assert (alive h p = true) as Hap by (eapply rep_alive; eauto).
  pose proof (wf_nodup _ Hw _ _ Hp) as Hnd.
  pose proof (rep_chain _ _ _ _ Hr Hp) as Hc.
  assert (forall c, c ∈ l1 ++ n :: l2 -> alive h c = true) as Hka.
  { intros c Hcin. eapply rep_child_alive; [done|done|]. eapply child_intro; eauto. }
  assert (n <> p) as Hnp. { intros ->. eapply child_irrefl; eauto. }
  assert (forall x c, x <> p -> child_of K x c -> c ∉ l1 ++ n :: l2) as Hoth.
  { intros x c Hx Hxc Hin. apply Hx. eapply wf_uniq; [done|done|]. eapply child_intro; eauto. }
  assert (forall (b : bool) (ha : heap T), ha = (if b then set_first h p (head l2) else h) ->
    (fnch ha p = fnch h p)) as Hfn. { intros [] ha ->; by hs. }
  unfold num_children_sub.
  rewrite !(Hfn _ _ eq_refl).
  replace (Nat.ltb 0 (fnch h p)) with true by (symmetry; apply Nat.ltb_lt; lia).
  replace (Nat.leb 1 (fnch h p)) with true by (symmetry; apply Nat.leb_le; lia). simpl.
  eexists; split; [done|].
  rewrite chain_app, chain_cons in Hc. destruct Hc as (C1 & N1 & N2 & N3 & C2).
  apply NoDup_app in Hnd as (Hnd1 & Hdis & Hnd2). apply NoDup_cons in Hnd2 as [Hnl2 Hnd2].
  destruct (list_snoc_inv l1) as [->|(l1' & a & ->)].
  - (* first child *)
    destruct l2 as [|b l2].
    + (* only child *)
      simpl. split; [|intros x; hs; done].
      eapply rep_update; [done|eauto| | | | | | |].
      * apply alive_dom. intros x. hs; done.
      * intros x Hx. hs; done.
      * intros x c Hx Hxc. pose proof (Hoth _ _ Hx Hxc). assert (c <> n) by ls. hs; done.
      * hs. by rewrite Hap.
      * hs. rewrite Hap. simpl in *. lia.
      * done.
      * intros x Hx. destruct (top_update _ _ _ _ _ Hp Hx) as [Hx1 Hx2].
        destruct (decide (x = n)) as [->|]; [hs; rewrite Han; done|].
        hs; apply (rep_top _ _ Hr), Hx2; ls.
    + assert (alive h b = true) as Hab by (apply Hka; ls).
      assert (n <> b) by ls.
      rewrite chain_cons in C2. destruct C2 as (B1 & B2 & B3 & C2).
      apply NoDup_cons in Hnd2 as [Hnb Hnd2].
      simpl. split; [|intros x; hs; done].
      eapply rep_update; [done|eauto| | | | | | |].
      * apply alive_dom. intros x. hs; done.
      * intros x Hx. hs; done.
      * intros x c Hx Hxc. pose proof (Hoth _ _ Hx Hxc). assert (c <> n) by ls.
        assert (c <> b) by ls. hs; done.
      * hs. by rewrite Hap.
      * hs. rewrite Hap. simpl in *. lia.
      * rewrite chain_cons. rewrite (last_default_cons b b). simpl default.
        split_and!; try (hs; rewrite ?Hab; simpl; done).
        -- eapply chain_frame; [|exact C2]. intros c Hc. assert (c <> n) by ls.
           assert (c <> b) by ls. hs; done.
      * intros x Hx. destruct (top_update _ _ _ _ _ Hp Hx) as [Hx1 Hx2].
        destruct (decide (x = n)) as [->|]; [hs; rewrite Han; done|].
        assert (x <> b) by ls.
        hs; apply (rep_top _ _ Hr), Hx2; ls.
  - (* middle child *)
    destruct l2 as [|b l2]; [destruct Hside as [H|H]; [by destruct l1'|done]|].
    assert (alive h b = true) as Hab by (apply Hka; ls).
    assert (alive h a = true) as Haa by (apply Hka; ls).
    assert (n <> b) by ls. assert (n <> a) by ls.
    assert (a <> b) by ls.
    rewrite chain_cons in C2. destruct C2 as (B1 & B2 & B3 & C2).
    rewrite chain_app, chain_cons in C1. destruct C1 as (C1 & A1 & A2 & A3 & _).
    apply NoDup_cons in Hnd2 as [Hnb Hnd2].
    apply NoDup_app in Hnd1 as (Hnd1 & Hdis1 & _).
    rewrite last_snoc. simpl.
    replace (match l1' ++ [a] with [] => true | _ :: _ => false end) with false by (by destruct l1').
    split; [|intros x; hs; done].
    eapply rep_update; [done|eauto| | | | | | |].
    + apply alive_dom. intros x. hs; done.
    + intros x Hx. hs; done.
    + intros x c Hx Hxc. pose proof (Hoth _ _ Hx Hxc). assert (c <> n) by ls.
      assert (c <> b) by ls. assert (c <> a) by ls. hs; done.
    + hs. rewrite (rep_first _ _ Hr _ _ Hp). by destruct l1'.
    + hs. rewrite Hap, Hk, !app_length. simpl. lia.
    + replace (last ((l1' ++ [a]) ++ b :: l2)) with (last ((l1' ++ [a]) ++ n :: b :: l2))
        by (rewrite !last_app_cons; done).
      rewrite !chain_app, !chain_cons. rewrite last_snoc. simpl default.
      split_and!; try (hs; rewrite ?Hab, ?Haa; simpl; done).
      -- eapply chain_frame; [|exact C1]. intros c Hc. assert (c <> n) by ls.
         assert (c <> b) by ls. assert (c <> a) by ls. hs; done.
      -- eapply chain_frame; [|exact C2]. intros c Hc. assert (c <> n) by ls.
         assert (c <> b) by ls. assert (c <> a) by ls. hs; done.
    + intros x Hx. destruct (top_update _ _ _ _ _ Hp Hx) as [Hx1 Hx2].
      destruct (decide (x = n)) as [->|]; [hs; rewrite Han; done|].
      assert (x <> b) by ls. assert (x <> a) by ls.
      hs; apply (rep_top _ _ Hr), Hx2; ls.
Qed.

End Facts.
