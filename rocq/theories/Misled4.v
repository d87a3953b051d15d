(** * Misled4: inserting a node into a heap with one misleading previous-sibling link. *)
From Verif Require Import Heap Edit System HeapFacts SpecFacts NavFacts EditFacts EditFacts2 Misled Misled2 Spec.

Section Misled4.
Context {T : Type}.
Implicit Types (h : heap T) (K : forest).

Definition hsp (f : nid) (v : option nid) (r : run (heap T * hres unit)) : run (heap T * hres unit) :=
  '(h', o) ← r; Ret (set_prev h' f v, o).

Section One.
Variables (f : nid) (v : option nid).

Lemma sp_set_prev h x w : x <> f -> set_prev (set_prev h f v) x w = set_prev (set_prev h x w) f v.
Proof. intros Hn. unfold set_prev. by rewrite alter_commute. Qed.
Lemma sp_set_parent h x w : set_parent (set_prev h f v) x w = set_prev (set_parent h x w) f v.
Proof. unfold set_parent, set_prev. by apply alter_swap. Qed.
Lemma sp_set_nch h x w : set_nch (set_prev h f v) x w = set_prev (set_nch h x w) f v.
Proof. unfold set_nch, set_prev. by apply alter_swap. Qed.
Lemma sp_fnch h x : fnch (set_prev h f v) x = fnch h x.
Proof. unfold fnch. rewrite sp_look. destruct (h !! x); simpl; [by destruct (decide _)|done]. Qed.
Lemma sp_nca h x k : num_children_add (set_prev h f v) x k = set_prev (num_children_add h x k) f v.
Proof. unfold num_children_add. by rewrite sp_fnch, sp_set_nch. Qed.
Lemma sp_fprev h x : x <> f -> fprev (set_prev h f v) x = fprev h x.
Proof. intros Hn. unfold fprev. rewrite sp_look. by destruct (h !! x); simpl; rewrite ?decide_False. Qed.
Lemma sp_upgrade h w : upgrade (set_prev h f v) w = upgrade h w.
Proof. unfold upgrade. destruct w; [|done]. by rewrite sp_alive. Qed.
Lemma sp_cyclic h x : x <> f -> prev_sibling_cyclic_link (set_prev h f v) x = prev_sibling_cyclic_link h x.
Proof. intros Hn. unfold prev_sibling_cyclic_link. by rewrite sp_fprev, sp_upgrade. Qed.
Lemma sp_prev_sibling h x : x <> f -> prev_sibling_link (set_prev h f v) x = prev_sibling_link h x.
Proof.
  intros Hn. unfold prev_sibling_link. rewrite sp_cyclic by done. destruct (prev_sibling_cyclic_link h x); [|done|done]. simpl. by rewrite sp_next.
Qed.
Lemma sp_cas h a b : b <> f -> connect_adjacent_siblings (set_prev h f v) a b = set_prev (connect_adjacent_siblings h a b) f v.
Proof. intros Hn. unfold connect_adjacent_siblings. by rewrite sp_set_prev, sp_set_next. Qed.
Lemma sp_fl h p : ffirst h p <> Some f -> first_last_child_link (set_prev h f v) p = first_last_child_link h p.
Proof.
  intros Hn. unfold first_last_child_link, first_child_link. rewrite sp_first. destruct (ffirst h p) as [c|]; [|done]. rewrite sp_cyclic; [done|]. intros ->. done.
Qed.
Lemma sp_loop h n b p : loop_check (set_prev h f v) n b p = loop_check h n b p.
Proof.
  unfold loop_check, walk_fuel. rewrite sp_size. destruct b; [done|]. generalize (S (size h)). intros k. generalize (Some p).
  induction k as [|k IH]; intros [q|]; simpl; try done. destruct (decide (n = q)); [done|]. by rewrite sp_parent_link.
Qed.

Lemma sp_insert_first h n b p : n <> f -> ffirst h p <> Some f ->
  insert_as_first_child_of (set_prev h f v) n b p = hsp f v (insert_as_first_child_of h n b p).
Proof.
  intros Hn Hf. unfold insert_as_first_child_of. rewrite sp_loop, sp_fl by done. destruct (loop_check h n b p) as [[]| |]; [done| |done|done].
  cbn [mbind run_bind]. unfold first_last_child_link, first_child_link. destruct (ffirst h p) as [c|].
  - destruct (prev_sibling_cyclic_link h c) as [l| |]; [|done|done]. cbn [mbind run_bind].
    rewrite sp_set_prev, sp_cas, sp_set_parent, sp_set_first, sp_nca by (done || (intros ->; done)). done.
  - cbn [mbind run_bind]. rewrite sp_set_prev, sp_set_parent, sp_set_first, sp_nca by done. done.
Qed.
Lemma sp_insert_last h n b p : n <> f -> ffirst h p <> Some f ->
  insert_as_last_child_of (set_prev h f v) n b p = hsp f v (insert_as_last_child_of h n b p).
Proof.
  intros Hn Hf. unfold insert_as_last_child_of. rewrite sp_loop, sp_fl by done. destruct (loop_check h n b p) as [[]| |]; [done| |done|done].
  cbn [mbind run_bind]. unfold first_last_child_link, first_child_link. destruct (ffirst h p) as [c|].
  - destruct (prev_sibling_cyclic_link h c) as [l| |]; [|done|done]. cbn [mbind run_bind].
    rewrite sp_set_prev, sp_cas, sp_set_parent, sp_nca by (done || (intros ->; done)). done.
  - cbn [mbind run_bind]. rewrite sp_set_prev, sp_set_first, sp_set_parent, sp_nca by done. done.
Qed.
Lemma sp_insert_between h n p a b : n <> f -> b <> f ->
  insert_between (set_prev h f v) n p a b = (h' ← insert_between h n p a b; Ret (set_prev h' f v)).
Proof.
  intros Hn Hb. unfold insert_between, next_sibling_link. rewrite !sp_parent_link, sp_next, sp_prev_sibling by done.
  unfold assertb. destruct (opt_is (parent_link h a) p); [|done]. destruct (opt_is (parent_link h b) p); [|done].
  destruct (opt_is (fnext h a) b); [|done]. cbn [mbind run_bind]. destruct (prev_sibling_link h b) as [q| |]; [|done|done]. cbn [mbind run_bind].
  destruct (opt_is q a); [|done]. cbn [mbind run_bind].
  rewrite sp_set_parent, !sp_next, !sp_set_next, !sp_fprev, !sp_set_prev, sp_nca by done. done.
Qed.

End One.

(** The first of the siblings is misleading: the new first sibling inherits the link. *)
Lemma set_prev_twice h a v w : set_prev (set_prev h a v) a w = set_prev h a w.
Proof. unfold set_prev. rewrite <-alter_compose. by apply alter_ext. Qed.
Lemma sp_insert_first_same h n p f x : n <> f -> ffirst h p = Some f -> alive h f = true -> alive h x = true ->
  (exists l, prev_sibling_cyclic_link h f = Ret l) ->
  insert_as_first_child_of (set_prev h f (Some x)) n true p = hsp n (Some x) (insert_as_first_child_of h n true p).
Proof.
  intros Hn Hf Haf Hax [l Hl]. unfold insert_as_first_child_of, loop_check. cbn [mbind run_bind].
  unfold first_last_child_link, first_child_link. rewrite sp_first, Hf, Hl. cbn [mbind run_bind].
  assert (prev_sibling_cyclic_link (set_prev h f (Some x)) f = Ret x) as ->.
  { unfold prev_sibling_cyclic_link. rewrite sp_upgrade, fprev_set_prev, decide_True, Haf by done. unfold upgrade. by rewrite Hax. }
  cbn [mbind run_bind hsp]. unfold hsp. cbn [mbind run_bind]. unfold connect_adjacent_siblings.
  assert (set_prev (set_prev (set_prev h f (Some x)) n (Some x)) f (Some n) = set_prev (set_prev (set_prev h n (Some l)) f (Some n)) n (Some x)) as ->.
  { rewrite (sp_set_prev f (Some x)) by done. rewrite set_prev_twice. rewrite <-(sp_set_prev n (Some x)) by done. by rewrite set_prev_twice. }
  by rewrite sp_set_next, sp_set_parent, sp_set_first, sp_nca.
Qed.

Lemma ffirst_rep h K p ks : rep h K -> K !! p = Some ks -> ffirst h p = head ks.
Proof. intros Hr. apply (rep_first _ _ Hr). Qed.

(** Three cases: the siblings at the destination are others; the destination is neither
    the first nor the last place among the same siblings; it is the first place. *)
Lemma misled_insert h K n dest K' pd ks ks' f v : rep h K -> wf K -> is_top K n -> attached K n dest K' -> dest_parent K dest pd ->
  K !! pd = Some ks -> K' !! pd = Some ks' -> n <> f ->
  (f ∉ ks \/ (head ks = Some f /\ head ks' = Some f /\ last ks' <> Some n)) ->
  insert_orphan (set_prev h f v) n true dest = hsp f v (insert_orphan h n true dest).
Proof.
  intros Hr Hw Hn Ha Hdp Hks Hks' Hnf Hc. pose proof (ffirst_rep _ _ _ _ Hr Hks) as Hfst.
  inversion Ha as [q l Hp|q l Hp|s q l Hp Hs|s q l Hp Hs]; subst; simpl in *; subst.
  - assert (l = ks) as -> by congruence. rewrite lookup_insert in Hks'. injection Hks' as <-.
    apply sp_insert_first; [done|]. rewrite Hfst. intros E. destruct Hc as [Hc|(_ & E2 & _)]; [|by injection E2]. apply Hc. destruct ks; [done|]. injection E as ->. left.
  - assert (l = ks) as -> by congruence. rewrite lookup_insert in Hks'. injection Hks' as <-.
    apply sp_insert_last; [done|]. rewrite Hfst. intros E. destruct Hc as [Hc|(_ & _ & E2)]; [|by rewrite last_snoc in E2]. apply Hc. destruct ks; [done|]. injection E as ->. left.
  - assert (pd = q) as -> by (eapply wf_uniq; [exact Hw|exact Hdp|exists l; done]). assert (l = ks) as -> by congruence.
    rewrite lookup_insert in Hks'. injection Hks' as <-.
    rewrite sp_parent_link, (parent_link_child _ _ _ _ Hr Hdp).
    pose proof Hs as Hs'. apply elem_of_list_split in Hs' as (l1 & l2 & ->).
    assert (s ∉ l1) as Hsl. { pose proof (wf_nodup _ Hw _ _ Hp) as Hnd. apply NoDup_app in Hnd. naive_solver ls. }
    rewrite ins_before_split in Hc by done.
    assert (s <> f) as Hsf.
    { intros ->. destruct Hc as [Hc|(E1 & E2 & _)]; [done|]. destruct l1 as [|a l1]; [by injection E2|]. injection E1 as ->. apply Hsl. left. }
    rewrite sp_prev_sibling by done. rewrite (prev_sibling_split _ _ _ _ _ _ Hr Hw Hp). cbn [mbind run_bind].
    destruct (last l1) as [a|] eqn:El.
    + rewrite sp_insert_between by done. unfold hsp. by destruct (insert_between h n q a s).
    + apply last_None in El as ->. apply sp_insert_first; [done|]. rewrite Hfst. simpl. congruence.
  - assert (pd = q) as -> by (eapply wf_uniq; [exact Hw|exact Hdp|exists l; done]). assert (l = ks) as -> by congruence.
    rewrite lookup_insert in Hks'. injection Hks' as <-.
    rewrite sp_parent_link, (parent_link_child _ _ _ _ Hr Hdp). unfold next_sibling_link. rewrite sp_next.
    pose proof Hs as Hs'. apply elem_of_list_split in Hs' as (l1 & l2 & ->).
    assert (s ∉ l1) as Hsl. { pose proof (wf_nodup _ Hw _ _ Hp) as Hnd. apply NoDup_app in Hnd. naive_solver ls. }
    rewrite ins_after_split in Hc by done. rewrite (fnext_split _ _ _ _ _ _ Hr Hp). destruct l2 as [|b l2]; cbn [head].
    + apply sp_insert_last; [done|]. rewrite Hfst. intros E. destruct Hc as [Hc|(_ & _ & E2)].
      * apply Hc. destruct l1 as [|a l1]; injection E as ->; left.
      * apply E2. by rewrite last_app_cons.
    + assert (b <> f) as Hbf.
      { intros ->. destruct Hc as [Hc|(E1 & _ & _)]; [apply Hc; set_solver|]. pose proof (wf_nodup _ Hw _ _ Hp) as Hnd.
        apply NoDup_app in Hnd as (_ & Hd & Hnd). destruct l1 as [|a l1].
        - injection E1 as ->. apply NoDup_cons in Hnd as [Hnd _]. apply Hnd. left.
        - injection E1 as ->. apply (Hd f); [left|right; left]. }
      rewrite sp_insert_between by done. unfold hsp. by destruct (insert_between h n q s b).
Qed.

Lemma misled_insert_first h K n dest K' pd ks ks' f : rep h K -> wf K -> is_top K n -> attached K n dest K' -> dest_parent K dest pd ->
  K !! pd = Some ks -> K' !! pd = Some ks' -> n <> f -> head ks = Some f -> head ks' = Some n ->
  insert_orphan (set_prev h f (Some n)) n true dest = hsp n (Some n) (insert_orphan h n true dest).
Proof.
  intros Hr Hw Hn Ha Hdp Hks Hks' Hnf Hh Hh'. pose proof (ffirst_rep _ _ _ _ Hr Hks) as Hfst. rewrite Hh in Hfst.
  assert (child_of K pd f) as Hcf. { exists ks. split; [done|]. destruct ks; [done|]. injection Hh as ->. left. }
  assert (alive h f = true) as Haf by (eapply rep_child_alive; eauto).
  assert (alive h n = true) as Han. { destruct Hn as [Hn _]. by eapply rep_alive. }
  assert (exists l, prev_sibling_cyclic_link h f = Ret l) as Hcy.
  { destruct ks as [|f' m]; [done|]. injection Hh as ->. rewrite (psc_split h K pd [] f m Hr Hw Hks). eauto. }
  assert (insert_as_first_child_of (set_prev h f (Some n)) n true pd = hsp n (Some n) (insert_as_first_child_of h n true pd)) as Hres
    by (by apply sp_insert_first_same).
  inversion Ha as [q l Hp|q l Hp|s q l Hp Hs|s q l Hp Hs]; subst; simpl in *; subst.
  - done.
  - assert (l = ks) as -> by congruence. rewrite lookup_insert in Hks'. injection Hks' as <-. destruct ks; [done|]. injection Hh as ->. by injection Hh' as ->.
  - assert (pd = q) as -> by (eapply wf_uniq; [exact Hw|exact Hdp|exists l; done]). assert (l = ks) as -> by congruence.
    rewrite lookup_insert in Hks'. injection Hks' as <-.
    destruct ks as [|f' m]; [done|]. injection Hh as ->. simpl in Hh'. destruct (decide (f = s)) as [<-|Hne]; [|by injection Hh' as ->].
    rewrite sp_parent_link, (parent_link_child _ _ _ _ Hr Hdp). rewrite (prev_sibling_split h K q [] f m Hr Hw Hks). cbn [mbind run_bind last].
    assert (prev_sibling_link (set_prev h f (Some n)) f = Ret None) as ->.
    { unfold prev_sibling_link, prev_sibling_cyclic_link. rewrite sp_upgrade, fprev_set_prev, decide_True, Haf by done. unfold upgrade. rewrite Han.
      cbn [mbind run_bind]. rewrite sp_next. by rewrite (proj1 (proj2 (rep_top _ _ Hr n Hn))). }
    done.
  - assert (pd = q) as -> by (eapply wf_uniq; [exact Hw|exact Hdp|exists l; done]). assert (l = ks) as -> by congruence.
    rewrite lookup_insert in Hks'. injection Hks' as <-. destruct ks as [|f' m]; [done|]. injection Hh as ->. simpl in Hh'. destruct (decide (f = s)); by injection Hh' as ->.
Qed.

End Misled4.
