(** * OwnFacts2: constructors, clones and the breadth-first iterators. *)
From Verif Require Import HIter HIter2 OwnSpec HeapFacts SysFacts GenSpec GenFacts3 GenFacts5 HIterFacts QueryFacts OwnFacts Spec.

Section OwnFacts2.
Context {T : Type}.
Implicit Types (s : sys T) (i j : nat) (a b c f : list nat).

Ltac bi E p E1 := match type of E with mbind _ ?m = _ => destruct m as [p| |] eqn:E1; [cbn [mbind run_bind] in E|discriminate E|discriminate E] end.

Lemma memonly_refl (h : heap T) : memonly h h. Proof. intros x. done. Qed.
Lemma memonly_trans (h1 h2 h3 : heap T) : memonly h1 h2 -> memonly h2 h3 -> memonly h1 h3.
Proof. intros A B x. by rewrite (B x), (A x). Qed.
Lemma new_hand_links s k y s1 j : new_node_hand s k y = Ret (s1, j) -> memonly (s_nodes s) (s_nodes s1).
Proof.
  unfold new_node_hand. destruct (incr_ref s y) as [s0|] eqn:E0; [|discriminate].
  assert (memonly (s_nodes s) (s_nodes s0)) as M.
  { revert E0. unfold incr_ref. destruct (n_memb s y) as [[[t|]|t rc lk]|]; try discriminate; [destruct (tree_alive s t); [|discriminate]|]; intros [= <-]; apply memonly_set_mem. }
  intros E. bi E s2 E2. injection E as <- _. cbn. eapply memonly_trans; [exact M|]. clear -E2. unfold acquire_expect, acquire in E2.
  destruct k; [injection E2 as <-; apply memonly_refl| |];
    (destruct (n_memb s0 y) as [[[t|]|t rc lk]|]; try discriminate E2; destruct (s_trees s0 !! t) as [tr|] eqn:Et; [|discriminate E2]; cbn [mbind run_bind] in E2;
     lazymatch type of E2 with context [if ?c then _ else _] => destruct c end; [|discriminate E2]; destruct lk as [|lk];
     [unfold lock_tree in E2; rewrite Et in E2; lazymatch type of E2 with context [if ?c then _ else _] => destruct c end; cbn [mbind run_bind] in E2;
       [discriminate E2|injection E2 as <-; apply memonly_set_mem]
     |cbn [mbind run_bind] in E2; injection E2 as <-; apply memonly_set_mem]).
Qed.
Lemma new_hand_keeps s k y s1 j i hd : any s -> new_node_hand s k y = Ret (s1, j) -> s_hands s !! i = Some hd -> s_hands s1 !! i = Some hd.
Proof.
  intros H E Hi. destruct (new_node_hand_good _ _ _ _ _ _ (any_ok s H) E) as (_ & _ & -> & D & _). rewrite D.
  rewrite lookup_insert_ne; [exact Hi|]. intros F. pose proof (good_fresh _ _ (any_ok s H)) as Hf. rewrite F, Hi in Hf. discriminate Hf.
Qed.
Lemma t_first_last s i s' fl : any s -> step_first_last_child s i = Ret (s', fl) -> turns [] s (hss_owns fl) s'.
Proof.
  intros H E. unfold step_first_last_child in E.
  assert (N : Ret (s, None) = Ret (s', fl) -> turns [] s (hss_owns fl) s'). { intros [= <- <-]. apply t_done; [exact H|apply owned_nil|done]. }
  destruct (s_hands s !! i) as [[k x|t|t|t|x|t]|] eqn:Hi; try exact (N E). bi E o E1. destruct o as [[y z]|]; [|exact (N E)]. clear N.
  unfold two_hands in E. bi E p E2. destruct p as [s1 j1]. bi E p E3. destruct p as [s2 j2]. injection E as <- <-.
  unfold first_last_child_link in E1. destruct (first_child_link (s_nodes s) x) as [g|] eqn:Ef; [|discriminate E1]. bi E1 l E4. injection E1 as -> ->.
  assert (S1 : step s (OpNav NFirstChild i) = Ret (s1, OutHandle j1)). { cbn [step]. rewrite Hi. simpl nav_target. rewrite Ef. cbn [mbind run_bind]. rewrite E2. done. }
  assert (H1 : any s1) by exact (any_step _ _ _ _ H S1).
  assert (S2 : step s1 (OpNav NLastChild i) = Ret (s2, OutHandle j2)).
  { cbn [step]. rewrite (new_hand_keeps _ _ _ _ _ _ _ H E2 Hi). pose proof (new_hand_links _ _ _ _ _ E2) as M. simpl nav_target. unfold last_child_link, first_child_link.
    destruct (memonly_fields _ _ x M) as (_ & -> & _). unfold first_child_link in Ef. rewrite Ef. unfold prev_sibling_cyclic_link, upgrade in *.
    destruct (memonly_fields _ _ y M) as (_ & _ & _ & -> & _). destruct (fprev (s_nodes s) y) as [w|]; [|discriminate E4].
    destruct (memonly_fields _ _ w M) as (_ & _ & _ & _ & _ & Hw). 
    assert (alive (s_nodes s1) w = alive (s_nodes s) w) as ->.
    { destruct (alive (s_nodes s) w) eqn:B.
      - apply alive_spec. apply Hw. by apply alive_spec.
      - destruct (alive (s_nodes s1) w) eqn:A; [|done]. apply alive_spec in A. apply Hw in A. apply alive_spec in A. congruence. }
    destruct (alive (s_nodes s) w); [|discriminate E4]. injection E4 as ->. cbn [mbind run_bind]. rewrite E3. done. }
  assert (T1 : turns [] s [j1] s1). { eapply (t_nav s NFirstChild i s1 (Some j1) H). unfold h_nav. by rewrite S1. }
  assert (T2 : turns [] s1 [j2] s2). { eapply (t_nav s1 NLastChild i s2 (Some j2) H1). unfold h_nav. by rewrite S2. }
  eapply t_new; [apply owned_nil|exact T1|]. intros _ O1. eapply t_new; [exact O1|exact T2|]. intros H2 O2. apply t_done; [exact H2|exact O2|]. apply Permutation_swap.
Qed.

(** ** Constructors *)
Lemma own_dfs_start : takes any (@hdfs_start T) hdfs_owns.
Proof.
  intros s i s' st H O E. unfold hdfs_start in E. bi E p E1. destruct p as [s1 j]. injection E as <- <-.
  eapply t_new; [exact O|exact (t_clone _ _ _ _ H E1)|]. intros H1 O1. by apply t_done.
Qed.
Lemma own_rdfs_start : takes any (@hrdfs_start T) hdfs_owns.
Proof.
  intros s i s' st H O E. unfold hrdfs_start in E. bi E p E1. destruct p as [s1 j]. injection E as <- <-.
  eapply t_new; [exact O|exact (t_clone _ _ _ _ H E1)|]. intros H1 O1. by apply t_done.
Qed.
Lemma own_sh_start : takes any (@hsh_start T) hsh_owns.
Proof.
  intros s i s' st H O E. unfold hsh_start in E. bi E p E1. destruct p as [s1 j]. injection E as <- <-.
  eapply t_new; [exact O|exact (t_clone _ _ _ _ H E1)|]. intros H1 O1. by apply t_done.
Qed.
Lemma own_children : makes any (@hchildren_stable T) hss_owns.
Proof.
  intros s i s' st H E. unfold hchildren_stable in E. bi E p E1. destruct p as [s1 j]. bi E p E2. destruct p as [s2 fl]. bi E s3 E3. injection E as <- <-.
  eapply t_new; [apply owned_nil|exact (t_clone _ _ _ _ H E1)|]. intros H1 O1. eapply t_new; [exact O1|exact (t_first_last _ _ _ _ H1 E2)|]. intros H2 O2.
  eapply (t_rm (hss_owns fl)); [exact H2|exact O2|symmetry; exact (Permutation_cons_append _ j)|exact E3|]. intros H3 O3. by apply t_done.
Qed.
Lemma own_following_self : makes any (@hfollowing_or_self_stable T) hss_owns.
Proof.
  intros s i s' st H E. unfold hfollowing_or_self_stable in E. bi E p E1. destruct p as [s1 j]. bi E p E2. destruct p as [s2 k]. injection E as <- <-.
  eapply t_new; [apply owned_nil|exact (t_clone _ _ _ _ H E1)|]. intros H1 O1. eapply t_new; [exact O1|exact (t_nav1 _ _ _ _ _ H1 E2)|]. intros H2 O2.
  apply t_done; [exact H2|exact O2|]. apply Permutation_swap.
Qed.
Lemma own_preceding_self : makes any (@hpreceding_or_self_stable T) hss_owns.
Proof.
  intros s i s' st H E. unfold hpreceding_or_self_stable in E. bi E p E1. destruct p as [s1 j]. bi E p E2. destruct p as [s2 k]. injection E as <- <-.
  eapply t_new; [apply owned_nil|exact (t_nav1 _ _ _ _ _ H E1)|]. intros H1 O1. eapply t_new; [exact O1|exact (t_clone _ _ _ _ H1 E2)|]. intros H2 O2.
  apply t_done; [exact H2|exact O2|]. apply Permutation_swap.
Qed.
Lemma own_siblings : makes any (@hsiblings_stable T) hss_owns.
Proof.
  intros s i s' st H E. unfold hsiblings_stable in E. bi E p E1. destruct p as [s1 o]. pose proof (t_nav _ _ _ _ _ H E1) as T1. destruct o as [q|].
  - bi E p E2. destruct p as [s2 st2]. bi E s3 E3. injection E as <- <-. eapply t_new; [apply owned_nil|exact T1|]. intros H1 O1.
    eapply t_new; [exact O1|exact (own_children _ _ _ _ H1 E2)|]. intros H2 O2.
    eapply (t_rm (hss_owns st2)); [exact H2|exact O2|symmetry; exact (Permutation_cons_append _ q)|exact E3|]. intros H3 O3. by apply t_done.
  - eapply t_new; [apply owned_nil|exact T1|]. intros H1 O1. exact (own_following_self _ _ _ _ H1 E).
Qed.
Lemma t_skip s st s' st' : any s -> owned (hss_owns st) s -> hss_skip s st = Ret (s', st') -> turns (hss_owns st) s (hss_owns st') s'.
Proof.
  intros H O E. unfold hss_skip in E. bi E p E1. destruct p as [[s1 r] st1]. bi E s2 E2. injection E as <- <-.
  pose proof (own_ss_next _ _ _ _ _ H O E1) as T1. eapply (t_step []); [exact O|by rewrite app_nil_r|exact T1|]. rewrite app_nil_r. intros H1 O1.
  destruct r as [j|]; [|injection E2 as <-; by apply t_done]. eapply (t_rm (hss_owns st1)); [exact H1|exact O1|apply Permutation_refl|exact E2|]. intros H2 O2. by apply t_done.
Qed.
Lemma own_preceding : makes any (@hpreceding_stable T) hss_owns.
Proof.
  intros s i s' st H E. unfold hpreceding_stable in E. bi E p E1. destruct p as [s1 st1].
  eapply t_new; [apply owned_nil|exact (own_preceding_self _ _ _ _ H E1)|]. rewrite app_nil_r. intros H1 O1. exact (t_skip _ _ _ _ H1 O1 E).
Qed.
Lemma own_following : makes any (@hfollowing_stable T) hss_owns.
Proof.
  intros s i s' st H E. unfold hfollowing_stable in E. bi E p E1. destruct p as [s1 st1].
  eapply t_new; [apply owned_nil|exact (own_following_self _ _ _ _ H E1)|]. rewrite app_nil_r. intros H1 O1. exact (t_skip _ _ _ _ H1 O1 E).
Qed.
Lemma own_sdfs_start : makes any (@hsdfs_start T) hsdfs_owns.
Proof.
  intros s i s' st H E. unfold hsdfs_start in E. bi E p E1. destruct p as [s1 j]. bi E p E2. destruct p as [s2 k]. injection E as <- <-.
  eapply t_new; [apply owned_nil|exact (t_clone _ _ _ _ H E1)|]. intros H1 O1. eapply t_new; [exact O1|exact (t_clone _ _ _ _ H1 E2)|]. intros H2 O2.
  by apply t_done.
Qed.

(** ** Breadth first *)
Lemma t_find fuel d : forall s st s' r st', any s -> owned (hsh_owns st) s -> h_find fuel d s st = Ret (s', r, st') ->
  turns (hsh_owns st) s (option_list r ++ hsh_owns st') s'.
Proof.
  induction fuel as [|fuel IH]; intros s st s' r st' H O E; [discriminate E|]. cbn [h_find] in E. bi E p E1. destruct p as [[s1 o] st1].
  pose proof (own_sh_next _ _ _ _ _ _ H O E1) as T1. eapply (t_step []); [exact O|by rewrite app_nil_r|exact T1|]. rewrite app_nil_r. intros H1 O1.
  destruct o as [[[j d']|[j d']]|].
  - destruct (decide (d' = d)); [injection E as <- <- <-; by apply t_done|]. bi E s2 E2.
    eapply (t_rm (hsh_owns st1)); [exact H1|exact O1|apply Permutation_refl|exact E2|]. intros H2 O2. exact (IH _ _ _ _ _ H2 O2 E).
  - bi E s2 E2. eapply (t_rm (hsh_owns st1)); [exact H1|exact O1|apply Permutation_refl|exact E2|]. intros H2 O2. exact (IH _ _ _ _ _ H2 O2 E).
  - injection E as <- <- <-. by apply t_done.
Qed.
Lemma t_opens fuel d : forall s st s' l, any s -> owned (hsh_owns st) s -> h_opens fuel d s st = Ret (s', l) -> turns (hsh_owns st) s l s'.
Proof.
  induction fuel as [|fuel IH]; intros s st s' l H O E; [discriminate E|]. cbn [h_opens] in E. bi E p E1. destruct p as [[s1 o] st1].
  pose proof (own_sh_next _ _ _ _ _ _ H O E1) as T1. eapply (t_step []); [exact O|by rewrite app_nil_r|exact T1|]. rewrite app_nil_r. intros H1 O1.
  assert (R : forall j s2 e, o = Some e -> (ev_val e).1 = j -> h_drop s1 j = Ret s2 -> h_opens fuel d s2 st1 = Ret (s', l) ->
    turns (match o with Some i => [(ev_val i).1] | None => [] end ++ hsh_owns st1) s1 l s').
  { intros j s2 e Ho Hj E2 E3. rewrite Ho in *. simpl in O1. rewrite Hj in *. eapply (t_rm (hsh_owns st1)); [exact H1|exact O1|apply Permutation_refl|exact E2|].
    intros H2 O2. exact (IH _ _ _ _ H2 O2 E3). }
  destruct o as [[[j d']|[j d']]|].
  - destruct (decide (d' = d)).
    + bi E p E2. destruct p as [s2 l2]. injection E as <- <-. simpl in *.
      assert (owned (hsh_owns st1) s1) as O2. { destruct O1 as [N A]. split; [by apply NoDup_cons in N as [_ N]|]. intros k Hk. apply A. by right. }
      pose proof (IH _ _ _ _ H1 O2 E2) as T2. eapply (t_step [j]); [exact O1| |exact T2|]; [apply Permutation_cons_append|].
      intros H3 O3. apply t_done; [exact H3|exact O3|]. symmetry. apply Permutation_cons_append.
    + bi E s2 E2. by eapply R.
  - bi E s2 E2. by eapply R.
  - injection E as <- <-. assert (st1 = None) as ->.
    { destruct st as [[x y]|]; [|by injection E1]. exfalso. unfold hsh_next in E1. bi E1 p E2. destruct p as [s2 o]. destruct o; [discriminate E1|]. bi E1 s3 E3. discriminate E1. }
    by apply t_done.
Qed.
Lemma own_nbf_start : makes any (fun s (p : nat * nat) => @hnbf_start T s p.1 p.2) hnbf_owns.
Proof.
  intros s [i d] s' st H E. cbn [fst snd] in E. unfold hnbf_start in E. bi E p E1. destruct p as [s1 k]. bi E p E2. destruct p as [s2 k2]. bi E p E3. destruct p as [s3 inner]. injection E as <- <-.
  eapply t_new; [apply owned_nil|exact (t_clone _ _ _ _ H E1)|]. intros H1 O1. eapply t_new; [exact O1|exact (t_clone _ _ _ _ H1 E2)|]. intros H2 O2.
  assert (Ok : owned [k2] s2). { destruct O2 as [N A]. split; [apply NoDup_singleton|]. intros j ->%elem_of_list_singleton. apply A. left. }
  eapply (t_step [k]); [exact O2|apply Permutation_refl|exact (own_sh_start _ _ _ _ H2 Ok E3)|]. intros H3 O3. by apply t_done.
Qed.
Lemma owned_app_l a b s : owned (a ++ b) s -> owned a s.
Proof. intros [N A]. split; [by apply NoDup_app in N as [N _]|]. intros j Hj. apply A. apply elem_of_app. by left. Qed.
Lemma own_nbf_next : passes any (@hnbf_next T) hnbf_owns (fun p => [p.1]).
Proof.
  intros s st s' r st' H O E. change (turns (hnbf_owns st) s (match r with Some i => [i.1] | None => [] end ++ hnbf_owns st') s').
  destruct st as [inner [root|] d]; unfold hnbf_next in E; cbn [hnbf_root hnbf_inner hnbf_depth] in E; [|injection E as <- <- <-; by apply t_done].
  bi E p E1. destruct p as [[s1 r1] inner1]. unfold hnbf_owns in *. cbn [hnbf_root hnbf_inner hnbf_depth option_list] in *.
  pose proof (t_find _ _ _ _ _ _ _ H (owned_app_l _ _ _ O) E1) as T1. eapply (t_step [root]); [exact O|apply Permutation_refl|exact T1|]. intros H1 O1.
  destruct r1 as [i|].
  - injection E as <- <- <-. by apply t_done.
  - bi E p E2. destruct p as [s2 k]. bi E p E3. destruct p as [s3 inner2]. bi E s4 E4. bi E p E5. destruct p as [[s5 r2] inner3].
    eapply t_new; [exact O1|exact (t_clone _ _ _ _ H1 E2)|]. intros H2 O2. simpl app in O2. simpl app.
    eapply (t_step (hsh_owns inner1 ++ [root])); [exact O2|apply (Permutation_refl ([k] ++ _))|exact (own_sh_start _ _ _ _ H2 (owned_app_l [k] _ _ O2) E3)|].
    intros H3 O3. eapply (t_step (hsh_owns inner2 ++ [root]) _ s3 (hsh_owns inner1) [] s4); [exact O3| | |].
    { rewrite !app_assoc. apply Permutation_app; [apply Permutation_app_comm|done]. }
    { apply t_drops; [exact H3| |exact E4]. destruct O3 as [N A]. rewrite app_assoc in N. apply NoDup_app in N as [N _]. apply NoDup_app in N as (_ & _ & N).
      split; [exact N|]. intros j Hj. apply A. clear -Hj. set_solver. }
    intros H4 O4. simpl app in *. eapply (t_step [root]); [exact O4|apply Permutation_refl| |].
    { exact (t_find _ _ _ _ _ _ _ H4 (owned_app_l _ _ _ O4) E5). }
    intros H5 O5. destruct r2 as [i|].
    + injection E as <- <- <-. by apply t_done.
    + bi E s6 E6. injection E as <- <- <-. eapply (t_rm (hsh_owns inner3)); [exact H5|exact O5|symmetry; apply Permutation_cons_append|exact E6|].
      intros H6 O6. apply t_done; [exact H6|exact O6|]. simpl. by rewrite app_nil_r.
Qed.
Lemma omap_some (l : list nat) : omap id (map Some l) = l.
Proof. induction l as [|x l IH]; [done|]. exact (f_equal (cons x) IH). Qed.
Lemma omap_app_id (l k : list (option nat)) : omap id (l ++ k) = omap id l ++ omap id k.
Proof. induction l as [|[x|] l IH]; [done|exact (f_equal (cons x) IH)|exact IH]. Qed.
Lemma own_abf_start : makes any (fun s (p : nat * nat) => @habf_start T s p.1 p.2) habf_owns.
Proof.
  intros s [i d] s' st H E. cbn [fst snd] in E. unfold habf_start in E. bi E p E1. destruct p as [s1 k].
  eapply t_new; [apply owned_nil|exact (t_clone _ _ _ _ H E1)|]. intros H1 O1. destruct d as [|d]; [injection E as <- <-; by apply t_done|].
  bi E p E2. destruct p as [s2 st2]. bi E p E3. destruct p as [s3 l]. injection E as <- <-.
  eapply (t_step []); [exact O1|done|exact (own_sh_start _ _ _ _ H1 O1 E2)|]. rewrite app_nil_r. intros H2 O2.
  pose proof (t_opens _ _ _ _ _ _ H2 O2 E3) as T3. unfold habf_owns. cbn [habf_queue]. rewrite omap_app_id, omap_some. simpl. by rewrite app_nil_r.
Qed.
Lemma t_collect fuel : forall s st s' l, any s -> owned (hss_owns st) s -> hss_collect fuel s st = Ret (s', l) -> turns (hss_owns st) s l s'.
Proof.
  induction fuel as [|fuel IH]; intros s st s' l H O E; [discriminate E|]. cbn [hss_collect] in E. bi E p E1. destruct p as [[s1 o] st1].
  pose proof (own_ss_next _ _ _ _ _ H O E1) as T1. eapply (t_step []); [exact O|by rewrite app_nil_r|exact T1|]. rewrite app_nil_r. intros H1 O1.
  destruct o as [j|].
  - bi E p E2. destruct p as [s2 l2]. injection E as <- <-. simpl in *.
    assert (owned (hss_owns st1) s1) as O2. { destruct O1 as [N A]. split; [by apply NoDup_cons in N as [_ N]|]. intros k Hk. apply A. by right. }
    pose proof (IH _ _ _ _ H1 O2 E2) as T2. eapply (t_step [j]); [exact O1| |exact T2|]; [apply Permutation_cons_append|].
    intros H3 O3. apply t_done; [exact H3|exact O3|]. symmetry. apply Permutation_cons_append.
  - injection E as <- <-. assert (st1 = None) as ->.
    { destruct st as [[x y]|]; [|by injection E1]. exfalso. unfold hss_next, hpair_next in E1. bi E1 p E2. destruct p as [s2 o]. destruct o; [discriminate E1|]. bi E1 s3 E3. discriminate E1. }
    by apply t_done.
Qed.
Lemma t_abf_loop fuel : forall s q d s' r st', any s -> owned (omap id q) s -> habf_loop fuel s q d = Ret (s', r, st') ->
  turns (omap id q) s (match r with Some i => [i.1] | None => [] end ++ habf_owns st') s'.
Proof.
  induction fuel as [|fuel IH]; intros s q d s' r st' H O E; [discriminate E|]. cbn [habf_loop] in E. destruct q as [|[i|] q].
  - injection E as <- <- <-. by apply t_done.
  - bi E p E1. destruct p as [s1 st1]. bi E p E2. destruct p as [s2 cs]. injection E as <- <- <-. simpl in O. unfold habf_owns. cbn [habf_queue fst].
    rewrite omap_app_id, omap_some. eapply t_new; [exact O|exact (own_children _ _ _ _ H E1)|]. intros H1 O1.
    eapply (t_step (i :: omap id q)); [exact O1|apply Permutation_refl|exact (t_collect _ _ _ _ _ H1 (owned_app_l _ _ _ O1) E2)|]. intros H2 O2.
    apply t_done; [exact H2|exact O2|]. rewrite Permutation_app_comm. done.
  - assert (O' : owned (omap id q) s) by exact O. destruct q as [|o q].
    + injection E as <- <- <-. by apply t_done.
    + assert (omap id ((o :: q) ++ [None]) = omap id (o :: q)) as Eq by (by rewrite omap_app_id, app_nil_r).
      change (omap id (None :: o :: q)) with (omap id (o :: q)). rewrite <- Eq. apply (IH s _ (S d)); [exact H|by rewrite Eq|exact E].
Qed.
Lemma own_abf_next : passes any (@habf_next T) habf_owns (fun p => [p.1]).
Proof. intros s st s' r st' H O E. exact (t_abf_loop 3 s _ _ s' r st' H O E). Qed.

(** ** Clones *)
Lemma t_clone_opt s o s' o' : any s -> h_clone_opt s o = Ret (s', o') -> turns [] s (option_list o') s'.
Proof.
  intros H E. destruct o as [i|]; [|injection E as <- <-; apply t_done; [exact H|apply owned_nil|done]].
  simpl in E. bi E p E1. destruct p as [s1 j]. injection E as <- <-. exact (t_clone _ _ _ _ H E1).
Qed.
Lemma t_ev_clone s e s' e' : any s -> ev_clone s e = Ret (s', e') -> turns [] s [ev_val e'] s'.
Proof. intros H E. destruct e as [i|i]; simpl in E; bi E p E1; destruct p as [s1 j]; injection E as <- <-; exact (t_clone _ _ _ _ H E1). Qed.
Lemma t_evd_clone s e s' e' : any s -> evd_clone s e = Ret (s', e') -> turns [] s [(ev_val e').1] s'.
Proof. intros H E. destruct e as [[i d]|[i d]]; simpl in E; bi E p E1; destruct p as [s1 j]; injection E as <- <-; exact (t_clone _ _ _ _ H E1). Qed.
Lemma t_pair_clone {A B} (ca : sys T -> A -> run (sys T * A)) (cb : sys T -> B -> run (sys T * B)) (va : A -> nat) (vb : B -> nat) s o s' o' :
  (forall s e s' e', any s -> ca s e = Ret (s', e') -> turns [] s [va e'] s') -> (forall s e s' e', any s -> cb s e = Ret (s', e') -> turns [] s [vb e'] s') ->
  any s -> pair_clone ca cb s o = Ret (s', o') -> turns [] s (match o' with Some (x, y) => [va x; vb y] | None => [] end) s'.
Proof.
  intros CA CB H E. destruct o as [[x y]|]; [|injection E as <- <-; apply t_done; [exact H|apply owned_nil|done]].
  simpl in E. bi E p E1. destruct p as [s1 x']. bi E p E2. destruct p as [s2 y']. injection E as <- <-.
  eapply t_new; [apply owned_nil|exact (CA _ _ _ _ H E1)|]. intros H1 O1. eapply t_new; [exact O1|exact (CB _ _ _ _ H1 E2)|]. intros H2 O2.
  apply t_done; [exact H2|exact O2|]. apply Permutation_swap.
Qed.
Lemma own_dfs_clone : makes any (@hdfs_clone T) hdfs_owns.
Proof.
  intros s o s' o' H E. pose proof (t_pair_clone _ _ ev_val (fun i => i) s o s' o' t_ev_clone t_clone H E) as X. destruct o' as [[x y]|]; exact X.
Qed.
Lemma own_sib_clone : makes any (@hsib_clone T) hsib_owns.
Proof. intros s o s' o' H E. exact (t_clone_opt s o s' o' H E). Qed.
Lemma own_ss_clone : makes any (@hss_clone T) hss_owns.
Proof. intros s o s' o' H E. pose proof (t_pair_clone _ _ hss_val hss_val s o s' o' t_clone t_clone H E) as X. destruct o' as [[x y]|]; exact X. Qed.
Lemma own_sdfs_clone : makes any (@hsdfs_clone T) hsdfs_owns.
Proof. intros s o s' o' H E. pose proof (t_pair_clone _ _ ev_val ev_val s o s' o' t_ev_clone t_ev_clone H E) as X. destruct o' as [[x y]|]; exact X. Qed.
Lemma own_sh_clone : makes any (@hsh_clone T) hsh_owns.
Proof. intros s o s' o' H E. pose proof (t_pair_clone _ _ dv dv s o s' o' t_evd_clone t_evd_clone H E) as X. destruct o' as [[x y]|]; exact X. Qed.
Lemma own_nbf_clone : makes any (@hnbf_clone T) hnbf_owns.
Proof.
  intros s st s' st' H E. unfold hnbf_clone in E. bi E p E1. destruct p as [s1 inner]. bi E p E2. destruct p as [s2 root]. injection E as <- <-.
  eapply t_new; [apply owned_nil|exact (own_sh_clone _ _ _ _ H E1)|]. rewrite app_nil_r. intros H1 O1.
  eapply t_new; [exact O1|exact (t_clone_opt _ _ _ _ H1 E2)|]. intros H2 O2. apply t_done; [exact H2|exact O2|]. apply Permutation_app_comm.
Qed.
Lemma t_queue_clone q : forall s s' q', any s -> queue_clone s q = Ret (s', q') -> turns [] s (omap id q') s'.
Proof.
  induction q as [|o q IH]; intros s s' q' H E; [injection E as <- <-; apply t_done; [exact H|apply owned_nil|done]|].
  cbn [queue_clone] in E. bi E p E1. destruct p as [s1 o1]. bi E p E2. destruct p as [s2 q2]. injection E as <- <-.
  eapply t_new; [apply owned_nil|exact (t_clone_opt _ _ _ _ H E1)|]. rewrite app_nil_r. intros H1 O1.
  eapply t_new; [exact O1|exact (IH _ _ _ H1 E2)|]. intros H2 O2. apply t_done; [exact H2|exact O2|]. rewrite Permutation_app_comm. by destruct o1.
Qed.
Lemma own_abf_clone : makes any (@habf_clone T) habf_owns.
Proof. intros s st s' st' H E. unfold habf_clone in E. bi E p E1. destruct p as [s1 q]. injection E as <- <-. exact (t_queue_clone _ _ _ _ H E1). Qed.
Lemma own_abf_peek : makes any (@habf_peek T) (fun o => match o with Some p => [p.1] | None => [] end).
Proof.
  intros s st s' o H E. unfold habf_peek in E.
  assert (N : Ret (s, None) = Ret (s', o) -> turns [] s (match o with Some p => [p.1] | None => [] end) s'). { intros [= <- <-]. apply t_done; [exact H|apply owned_nil|done]. }
  destruct (habf_queue st) as [|[i|] q]; [exact (N E)| |destruct q as [|[i|] q]; [exact (N E)| |discriminate E]];
    bi E p E1; destruct p as [s1 j]; injection E as <- <-; exact (t_clone _ _ _ _ H E1).
Qed.
End OwnFacts2.

Section Ends.
Context {T : Type}.
Implicit Types (s : sys T).
Ltac bi E p E1 := match type of E with mbind _ ?m = _ => destruct m as [p| |] eqn:E1; [cbn [mbind run_bind] in E|discriminate E|discriminate E] end.
Lemma end_dfs s st s' st' : hdfs_next s st = Ret (s', None, st') \/ hrdfs_next s st = Ret (s', None, st') -> st' = None /\ s' = s.
Proof.
  intros [E|E]; (destruct st as [[e start]|]; [|by injection E]); exfalso; unfold hdfs_next, hrdfs_next in E; bi E fi E1; (destruct fi; [bi E s1 E2; discriminate E|]);
    bi E p E2; destruct p as [s1 [o|]]; try discriminate E; bi E s2 E3; discriminate E.
Qed.
Lemma end_sib v s st s' st' : hsib_next v s st = Ret (s', None, st') -> st' = None /\ s' = s.
Proof. intros E. destruct st as [i|]; [|by injection E]. exfalso. unfold hsib_next in E. bi E p E1. by destruct p. Qed.
Lemma end_pair {I} (g k : sys T -> I -> run (sys T * option I)) v s st s' st' :
  hpair_next g v s st = Ret (s', None, st') \/ hpair_back k v s st = Ret (s', None, st') -> st' = None /\ s' = s.
Proof.
  intros [E|E]; (destruct st as [[x y]|]; [|by injection E]); exfalso; unfold hpair_next, hpair_back in E; bi E p E2; destruct p as [s1 [o|]]; try discriminate E; bi E s2 E3; discriminate E.
Qed.
Lemma end_sh max s st s' st' : hsh_next max s st = Ret (s', None, st') \/ hsh_next_back max s st = Ret (s', None, st') -> st' = None /\ s' = s.
Proof.
  intros [E|E]; (destruct st as [[x y]|]; [|by injection E]); exfalso; unfold hsh_next, hsh_next_back in E; bi E p E2; destruct p as [s1 [o|]]; try discriminate E; bi E s2 E3; discriminate E.
Qed.
Lemma end_find fuel d : forall s st s' st', h_find fuel d s st = Ret (s', None, st') -> st' = None.
Proof.
  induction fuel as [|fuel IH]; intros s st s' st' E; [discriminate E|]. cbn [h_find] in E. bi E p E1. destruct p as [[s1 o] st1]. destruct o as [[[j d']|[j d']]|].
  - destruct (decide (d' = d)); [discriminate E|]. bi E s2 E2. by eapply IH.
  - bi E s2 E2. by eapply IH.
  - injection E as <- <-. exact (proj1 (end_sh (Some d) s st s1 st1 (or_introl E1))).
Qed.
(** Reachable states of the iterator: without the root node there is nothing left. *)
Definition nbf_sane (st : hnbf_state) : Prop := hnbf_root st = None -> hnbf_inner st = None.
Lemma nbf_sane_start s i d s' st : hnbf_start s i d = Ret (s', st) -> nbf_sane st.
Proof. intros E. unfold hnbf_start in E. bi E p E1. destruct p as [s1 k]. bi E p E2. destruct p as [s2 k2]. bi E p E3. destruct p as [s3 inner]. injection E as <- <-. intros F. discriminate F. Qed.
Lemma nbf_sane_next s st s' r st' : nbf_sane st -> hnbf_next s st = Ret (s', r, st') -> nbf_sane st' /\ (r = None -> hnbf_owns st' = []).
Proof.
  intros N E. destruct st as [inner [root|] d]; unfold hnbf_next in E; cbn [hnbf_root hnbf_inner hnbf_depth] in E.
  2:{ injection E as <- <- <-. split; [exact N|]. intros _. pose proof (N eq_refl) as F. cbn in F. rewrite F. done. }
  bi E p E1. destruct p as [[s1 r1] inner1]. destruct r1 as [i|]; [injection E as <- <- <-; split; [intros F; discriminate F|discriminate]|].
  bi E p E2. destruct p as [s2 k]. bi E p E3. destruct p as [s3 inner2]. bi E s4 E4. bi E p E5. destruct p as [[s5 r2] inner3]. destruct r2 as [i|].
  - injection E as <- <- <-. split; [intros F; discriminate F|discriminate].
  - bi E s6 E6. injection E as <- <- <-. rewrite (end_find _ _ _ _ _ _ E5). split; [done|]. intros _. done.
Qed.
Lemma end_abf_loop fuel : forall s q d s' st', habf_loop fuel s q d = Ret (s', None, st') -> habf_owns st' = [] /\ s' = s.
Proof.
  induction fuel as [|fuel IH]; intros s q d s' st' E; [discriminate E|]. cbn [habf_loop] in E. destruct q as [|[i|] q].
  - by injection E as <- <-.
  - bi E p E1. destruct p as [s1 st1]. bi E p E2. destruct p as [s2 cs]. discriminate E.
  - destruct q as [|o q]; [by injection E as <- <-|]. exact (IH s _ _ s' st' E).
Qed.
End Ends.
