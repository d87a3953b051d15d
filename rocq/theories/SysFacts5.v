(** * SysFacts5: steps of the API that only touch handles, data or borrow flags. *)
From Verif Require Import Heap System SysSpec CardFacts HeapFacts SpecFacts NavFacts NavFacts2 EditFacts EditFacts2 EditFacts3 IterSpec RoseFacts TdFacts TdFacts2 SysFacts SysFacts2 SysFacts3 SysFacts4 Spec.

Section SysFacts5.
Context {T : Type}.
Implicit Types (h : heap T) (s : sys T) (hm : gmap nat handle).

(** The user got one more handle; nothing else changed. *)
Definition gained s s' (K : forest) (hd : handle) : Prop :=
  inv s' K /\ quiet s s' /\ s_hands s' = <[s_fresh s := hd]> (s_hands s) /\ s_fresh s' = S (s_fresh s).

Lemma inv_alive s K x : inv s K -> is_Some (s_nodes s !! x) <-> is_Some (K !! x).
Proof. intros H. apply (rep_dom _ _ (s_rep _ _ (i_s _ _ H))). Qed.

Lemma handle_alive s K i k x : inv s K -> s_hands s !! i = Some (HNode k x) -> is_Some (s_nodes s !! x).
Proof. intros H Hi. exact (h_node _ _ (i_h _ _ H) _ _ _ Hi). Qed.

Lemma handle_tree s K i k x : inv s K -> s_hands s !! i = Some (HNode k x) ->
  exists t tr, tree_of s x = Some t /\ s_trees s !! t = Some tr /\ below K (t_root tr) x /\ tree_core s x = Ret t /\ link_tree_core s x = Ret t.
Proof.
  intros H Hi. destruct (sinv_tree _ _ _ (i_s _ _ H) (handle_alive _ _ _ _ _ H Hi)) as (t & tr & A & B & C).
  destruct (hinv_handle_strong _ _ _ _ _ (i_h _ _ H) Hi) as (t1 & rc & lk & Hm & _ & _ & _ & E).
  assert (t1 = t) as -> by congruence. exists t, tr. unfold tree_core, link_tree_core. by rewrite Hm.
Qed.

Lemma tree_core_ok s K x t : inv s K -> tree_of s x = Some t -> is_Some (s_nodes s !! x) -> tree_core s x = Ret t.
Proof.
  intros H Ht Hx. destruct (alive_tree _ _ _ H Hx) as (t1 & E & Hta). assert (t1 = t) as -> by congruence.
  unfold tree_core, tree_of in *. destruct (n_memb s x) as [[o|t1 rc lk]|]; simplify_eq; [|done].
  unfold tree_alive. by rewrite bool_decide_true.
Qed.

Lemma nav_ok s K v x : inv s K -> is_Some (s_nodes s !! x) ->
  exists o, nav_target s v x = Ret o /\ nav_spec K v x o /\ forall y, o = Some y -> is_Some (s_nodes s !! y) /\ tree_of s y = tree_of s x.
Proof.
  intros H Hx. pose proof (s_rep _ _ (i_s _ _ H)) as Hr. pose proof (s_wf _ _ (i_s _ _ H)) as Hw.
  pose proof (s_child _ _ (i_s _ _ H)) as Hc.
  assert (forall p ks c, K !! p = Some ks -> c ∈ ks -> is_Some (s_nodes s !! c) /\ tree_of s c = tree_of s p) as Hk.
  { intros p ks c Hp Hin. assert (child_of K p c) as Hpc by (by exists ks). split; [|by apply Hc].
    apply (inv_alive _ _ _ H). by eapply wf_dom. }
  pose proof Hx as Hx'. apply (inv_alive _ _ _ H) in Hx'. destruct Hx' as [kx Hkx].
  destruct (children_facts _ _ _ _ Hr Hw Hkx) as (C1 & C2 & _).
  assert (is_Some (K !! x)) as Hxk by eauto.
  destruct v; unfold nav_target.
  - destruct (sinv_tree _ _ _ (i_s _ _ H) Hx) as (t & tr & A & B & C). rewrite (tree_core_ok _ _ _ _ H A Hx). cbn [mbind run_bind].
    rewrite B. exists (Some (t_root tr)). split; [done|]. destruct (s_root _ _ (i_s _ _ H) _ _ B) as [D1 D2].
    split; [exists (t_root tr); done|]. intros y [= <-]. split; [|congruence]. apply (inv_alive _ _ _ H). apply D1.
  - exists (parent_link (s_nodes s) x). split; [done|]. destruct (top_or_child K x Hxk) as [Ht|[p Hp]].
    + rewrite (parent_link_top _ _ _ Hr Ht). split; [done|]. intros y Hy. discriminate Hy.
    + rewrite (parent_link_child _ _ _ _ Hr Hp). split; [done|]. intros y [= <-]. split; [|symmetry; by apply Hc].
      apply (inv_alive _ _ _ H). destruct Hp as (ks & Hp & _). eauto.
  - destruct (top_or_child K x Hxk) as [Ht|(p & ks & Hp & Hin)].
    + destruct (top_facts _ _ _ Hr Hw Ht) as (_ & _ & -> & _). exists None. split; [done|]. split; [by left|]. intros y Hy. discriminate Hy.
    + apply elem_of_list_lookup in Hin as [i Hi]. destruct (sibling_facts _ _ _ _ _ _ Hr Hw Hp Hi) as (_ & -> & _).
      eexists. split; [done|]. split; [right; exists p, ks, i; done|]. intros y Hy. destruct i as [|i]; [done|].
      destruct (Hk p ks y Hp) as [A B]; [by eapply elem_of_list_lookup_2|]. split; [done|].
      rewrite B. symmetry. apply Hc. exists ks. split; [done|]. by eapply elem_of_list_lookup_2.
  - destruct (top_or_child K x Hxk) as [Ht|(p & ks & Hp & Hin)].
    + destruct (top_facts _ _ _ Hr Hw Ht) as (_ & -> & _ & _). exists None. split; [done|]. split; [by left|]. intros y Hy. discriminate Hy.
    + apply elem_of_list_lookup in Hin as [i Hi]. destruct (sibling_facts _ _ _ _ _ _ Hr Hw Hp Hi) as (-> & _ & _).
      eexists. split; [done|]. split; [right; exists p, ks, i; done|]. intros y Hy.
      destruct (Hk p ks y Hp) as [A B]; [by eapply elem_of_list_lookup_2|]. split; [done|].
      rewrite B. symmetry. apply Hc. exists ks. split; [done|]. by eapply elem_of_list_lookup_2.
  - destruct (top_or_child K x Hxk) as [Ht|(p & ks & Hp & Hin)].
    + destruct (top_facts _ _ _ Hr Hw Ht) as (_ & _ & _ & _ & _ & _ & _ & -> & _). exists (Some x). split; [done|]. split; [by left|]. by intros y [= <-].
    + apply elem_of_list_lookup in Hin as [i Hi]. destruct (sibling_facts _ _ _ _ _ _ Hr Hw Hp Hi) as (_ & _ & _ & _ & _ & _ & -> & _).
      cbn [mbind run_bind]. assert (x ∈ ks) as Hin by (by eapply elem_of_list_lookup_2).
      destruct ks as [|f m]; [done|]. simpl. exists (Some f). split; [done|]. split; [right; exists p, (f :: m); done|].
      intros y [= <-]. destruct (Hk p (f :: m) f Hp) as [A B]; [ls|]. split; [done|].
      rewrite B. symmetry. apply Hc. by exists (f :: m).
  - destruct (top_or_child K x Hxk) as [Ht|(p & ks & Hp & Hin)].
    + destruct (top_facts _ _ _ Hr Hw Ht) as (_ & _ & _ & _ & _ & _ & _ & _ & -> & _). exists (Some x). split; [done|]. split; [by left|]. by intros y [= <-].
    + apply elem_of_list_lookup in Hin as [i Hi]. destruct (sibling_facts _ _ _ _ _ _ Hr Hw Hp Hi) as (_ & _ & _ & _ & _ & _ & _ & -> & _).
      cbn [mbind run_bind]. assert (x ∈ ks) as Hin by (by eapply elem_of_list_lookup_2).
      destruct (last ks) as [l|] eqn:El; [|apply last_None in El; subst; by apply elem_of_nil in Hin]. simpl.
      exists (Some l). split; [done|]. split; [right; exists p, ks; done|].
      intros y [= <-]. destruct (Hk p ks l Hp) as [A B]; [by apply elem_of_last|]. split; [done|].
      rewrite B. symmetry. apply Hc. by exists ks.
  - rewrite C1. eexists. split; [done|]. split; [by exists kx|]. intros y Hy. eapply Hk; [done|]. destruct kx; simplify_eq/=. ls.
  - rewrite C2. eexists. split; [done|]. split; [by exists kx|]. intros y Hy. eapply Hk; [done|]. by apply elem_of_last.
Qed.

Lemma step_nav s K v i k x : inv s K -> s_hands s !! i = Some (HNode k x) ->
  exists o, nav_spec K v x o /\
    match o with
    | None => step s (OpNav v i) = Ret (s, OutNone)
    | Some y => exists s', step s (OpNav v i) = Ret (s', OutHandle (s_fresh s)) /\ gained s s' K (HNode k y)
    end.
Proof.
  intros H Hi. pose proof (handle_alive _ _ _ _ _ H Hi) as Hx.
  destruct (nav_ok s K v x H Hx) as (o & E & Hs & Hy). exists o. split; [done|]. unfold step. rewrite Hi, E. cbn [mbind run_bind].
  destruct o as [y|]; [|done]. destruct (Hy y eq_refl) as [Hya Hyt].
  destruct (alive_tree _ _ _ H Hx) as (t & Ht & _).
  destruct (new_node_hand_ok s K k y t H Hya) as (s' & E2 & A).
  - congruence.
  - destruct (decide (k = Plain)); [by left|right]. by eapply handle_excl.
  - rewrite E2. cbn [mbind run_bind ret_hand fst snd]. exists s'. done.
Qed.

(** Handles that are not counted can be added freely. *)
Lemma gain_uncounted s K hd : inv s K -> counted hd = false -> hand_target hd < s_fresh s ->
  (forall t, hd = HTree t -> is_Some (s_trees s !! t)) -> gained s (add_hand s hd) K hd.
Proof.
  intros H Hc Hl Ht. pose proof (hands_fresh _ _ H) as Hfr. split; [|split; [apply quiet_add_hand, framed_refl|done]].
  apply (inv_add_hand s); [done|apply framed_refl| |done].
  eapply hinv_uncounted; [apply H|..].
  - intros i hd1 Hc1. rewrite insert_hand_iff by done. split; [|naive_solver]. intros [[_ ->]|]; [congruence|done].
  - intros i t. rewrite insert_hand_iff by done. intros [[_ E]|E]; [by apply Ht|]. exact (h_tree _ _ (i_h _ _ H) _ _ E).
Qed.

Lemma gain_inert s K hd : inv s K -> inert s hd -> hand_target hd < s_fresh s -> gained s (add_hand s hd) K hd.
Proof.
  intros H Hc Hl. pose proof (hands_fresh _ _ H) as Hfr. split; [|split; [apply quiet_add_hand, framed_refl|done]].
  apply (inv_add_hand s); [done|apply framed_refl| |done].
  eapply hinv_inert; [apply H|]. intros i hd1 Hc1. rewrite insert_hand_iff by done. split; [|naive_solver].
  intros [[_ ->]|]; done.
Qed.

Lemma step_tree s K i k x : inv s K -> s_hands s !! i = Some (HNode k x) ->
  exists s' t, tree_of s x = Some t /\ step s (OpTree i) = Ret (s', OutHandle (s_fresh s)) /\ gained s s' K (HTree t).
Proof.
  intros H Hi. destruct (handle_tree _ _ _ _ _ H Hi) as (t & tr & A & B & _ & C & _).
  eexists _, t. split; [done|]. unfold step. rewrite Hi, C. cbn [mbind run_bind]. split; [done|].
  apply gain_uncounted; [done|done| |].
  - simpl. by apply (f_memb _ (i_f _ _ H) x).
  - intros u [= <-]. eauto.
Qed.

Lemma step_root s K i t : inv s K -> s_hands s !! i = Some (HTree t) ->
  exists s' tr, s_trees s !! t = Some tr /\ is_top K (t_root tr) /\
    step s (OpRoot i) = Ret (s', OutHandle (s_fresh s)) /\ gained s s' K (HNode Plain (t_root tr)).
Proof.
  intros H Hi. destruct (h_tree _ _ (i_h _ _ H) _ _ Hi) as [tr Htr]. destruct (s_root _ _ (i_s _ _ H) _ _ Htr) as [A B].
  destruct (new_node_hand_ok s K Plain (t_root tr) t H) as (s' & E2 & C).
  - apply (inv_alive _ _ _ H). apply A.
  - done.
  - by left.
  - exists s', tr. split; [done|]. split; [done|]. unfold step. rewrite Hi, Htr, E2. done.
Qed.

(** Locking a tree: succeeds iff nobody holds the opposite lock. *)
Lemma step_lock s K k i t : inv s K -> s_hands s !! i = Some (HTree t) -> k <> Plain ->
  (holders s (s_hands s) (opp k) t 0 /\ exists s', step s (OpLock k i) = Ret (s', OutHandle (s_fresh s)) /\ gained s s' K (token k t)) \/
  (exists n, holders s (s_hands s) (opp k) t (S n) /\ step s (OpLock k i) = Ret (s, OutLockErr)).
Proof.
  intros H Hi Hk. pose proof (h_tree _ _ (i_h _ _ H) _ _ Hi) as Hta. pose proof (hands_fresh _ _ H) as Hfr.
  assert (step s (OpLock k i) = match lock_tree s k t with None => Ret (s, OutLockErr)
         | Some s1 => Ret (add_hand s1 (token k t), OutHandle (s_fresh s1)) end) as E.
  { unfold step. rewrite Hi. unfold new_token. by destruct k. }
  destruct (lock_tree_ok s (s_hands s) (s_fresh s) k t (i_h _ _ H) Hfr Hk Hta) as [(A & s1 & B & C & D)|(n & A & B)].
  - left. split; [done|]. rewrite E, B. rewrite (fr_fresh _ _ D). eexists. split; [done|].
    split; [|split; [by apply quiet_add_hand|]].
    + eapply inv_add_hand; [done|done|done|]. pose proof (f_trees _ (i_f _ _ H) _ Hta). by destruct k.
    + simpl. by rewrite (fr_hands _ _ D), (fr_fresh _ _ D).
  - right. exists n. split; [done|]. by rewrite E, B.
Qed.

Lemma step_extract s K i k x t : inv s K -> s_hands s !! i = Some (HNode k x) -> k <> Plain -> tree_of s x = Some t ->
  exists s', step s (OpExtract i) = Ret (s', OutHandle (s_fresh s)) /\ gained s s' K (token k t).
Proof.
  intros H Hi Hk Ht. pose proof (hands_fresh _ _ H) as Hfr.
  destruct (handle_tree _ _ _ _ _ H Hi) as (t1 & tr & A & B & _ & C & _). assert (t1 = t) as -> by congruence.
  pose proof (handle_excl _ _ _ _ _ _ H Hi Hk Ht) as H0.
  destruct (lock_tree_ok s (s_hands s) (s_fresh s) k t (i_h _ _ H) Hfr Hk ltac:(eauto)) as [(_ & s1 & B1 & C1 & D)|(n & A1 & _)].
  2: { pose proof (holders_unique _ _ _ _ _ _ H0 A1). lia. }
  assert (step s (OpExtract i) = Ret (add_hand s1 (token k t), OutHandle (s_fresh s1))) as E.
  { unfold step. rewrite Hi. destruct k; [done|..]; simpl is_lock_kind; cbv iota; rewrite C; cbn [mbind run_bind]; unfold new_token; rewrite B1; done. }
  rewrite E, (fr_fresh _ _ D). eexists. split; [done|].
  split; [|split; [by apply quiet_add_hand|]].
  - eapply inv_add_hand; [done|done|done|]. pose proof (f_memb _ (i_f _ _ H) _ _ Ht). by destruct k.
  - simpl. by rewrite (fr_hands _ _ D), (fr_fresh _ _ D).
Qed.

(** Cloning. *)
Lemma step_clone_node s K i k x : inv s K -> s_hands s !! i = Some (HNode k x) ->
  exists s', step s (OpClone i) = Ret (s', OutHandle (s_fresh s)) /\ gained s s' K (HNode k x).
Proof.
  intros H Hi. destruct (clone_node_ok _ _ _ _ _ H Hi) as (s' & E & A). exists s'. unfold step. rewrite Hi, E. done.
Qed.

Lemma clone_token_ok s K i k t : inv s K -> s_hands s !! i = Some (token k t) -> k <> Plain ->
  exists s', clone_token s k t (token k t) = Ret (s', OutHandle (s_fresh s)) /\ gained s s' K (token k t).
Proof.
  intros H Hi Hk. pose proof (hands_fresh _ _ H) as Hfr.
  assert (hand_target (token k t) < s_fresh s) as Hlt. { by apply (f_hands _ (i_f _ _ H) _ _ Hi). }
  unfold clone_token, tree_alive. case_bool_decide as Hta.
  - pose proof (token_excl _ _ _ _ _ H Hi Hk Hta) as H0.
    destruct (lock_tree_ok s (s_hands s) (s_fresh s) k t (i_h _ _ H) Hfr Hk Hta) as [(_ & s1 & B1 & C1 & D)|(n & A1 & _)].
    2: { pose proof (holders_unique _ _ _ _ _ _ H0 A1). lia. }
    rewrite B1, (fr_fresh _ _ D). eexists. split; [done|]. split; [by eapply inv_add_hand|]. split; [by apply quiet_add_hand|].
    simpl. by rewrite (fr_hands _ _ D), (fr_fresh _ _ D).
  - eexists. split; [done|]. apply gain_inert; [done| |done].
    assert (s_trees s !! t = None) as E by (destruct (s_trees s !! t); [exfalso; eauto|done]). by destruct k.
Qed.

Lemma step_clone s K i hd : inv s K -> s_hands s !! i = Some hd ->
  exists s', step s (OpClone i) = Ret (s', OutHandle (s_fresh s)) /\ gained s s' K hd.
Proof.
  intros H Hi. destruct hd as [k x|t|t|t|x|t].
  - by eapply step_clone_node.
  - unfold step. rewrite Hi. eexists. split; [done|]. apply gain_uncounted; [done|done|by apply (f_hands _ (i_f _ _ H) _ _ Hi)|].
    intros u [= <-]. exact (h_tree _ _ (i_h _ _ H) _ _ Hi).
  - unfold step. rewrite Hi. exact (clone_token_ok s K i Hot t H Hi ltac:(done)).
  - unfold step. rewrite Hi. exact (clone_token_ok s K i Frozen t H Hi ltac:(done)).
  - unfold step. rewrite Hi. eexists. split; [done|]. apply gain_inert; [done|done|by apply (f_hands _ (i_f _ _ H) _ _ Hi)].
  - unfold step. rewrite Hi. eexists. split; [done|]. apply gain_inert; [done|done|by apply (f_hands _ (i_f _ _ H) _ _ Hi)].
Qed.

Lemma step_plain s K i k x : inv s K -> s_hands s !! i = Some (HNode k x) -> k <> Plain ->
  exists s', step s (OpPlain i) = Ret (s', OutHandle (s_fresh s)) /\ gained s s' K (HNode Plain x).
Proof.
  intros H Hi Hk. destruct (hinv_handle_strong _ _ _ _ _ (i_h _ _ H) Hi) as (t & rc & lk & Hm & [tr Htr] & C1 & C2 & Ht).
  destruct (new_node_hand_ok s K Plain x t H (handle_alive _ _ _ _ _ H Hi) Ht (or_introl eq_refl)) as (s' & E & A).
  exists s'. split; [|done]. unfold step. rewrite Hi. destruct k; [done|..]; simpl is_lock_kind; cbv iota.
  all: assert (clone_node s Plain x = new_node_hand s Plain x) as ->; [|by rewrite E].
  all: unfold clone_node, new_node_hand, incr_ref, incr_nonzero_ref, acquire_expect, acquire; cbn [mbind run_bind]; by rewrite Hm.
Qed.

Lemma step_downgrade s K i : inv s K ->
  (forall x, s_hands s !! i = Some (HNode Plain x) ->
    exists s', step s (OpDowngrade i) = Ret (s', OutHandle (s_fresh s)) /\ gained s s' K (HNodeWeak x)) /\
  (forall t, s_hands s !! i = Some (HTree t) ->
    exists s', step s (OpDowngrade i) = Ret (s', OutHandle (s_fresh s)) /\ gained s s' K (HTreeWeak t)).
Proof.
  intros H. split; intros x Hi; unfold step; rewrite Hi; eexists; (split; [done|]).
  - apply gain_inert; [done|done|]. by apply (f_hands _ (i_f _ _ H) _ _ Hi).
  - apply gain_inert; [done|done|]. by apply (f_hands _ (i_f _ _ H) _ _ Hi).
Qed.

Lemma step_upgrade s K i : inv s K ->
  (forall x, s_hands s !! i = Some (HNodeWeak x) ->
    if alive (s_nodes s) x
    then exists s', step s (OpUpgrade i) = Ret (s', OutHandle (s_fresh s)) /\ gained s s' K (HNode Plain x)
    else step s (OpUpgrade i) = Ret (s, OutNone)) /\
  (forall t, s_hands s !! i = Some (HTreeWeak t) ->
    if tree_alive s t
    then exists s', step s (OpUpgrade i) = Ret (s', OutHandle (s_fresh s)) /\ gained s s' K (HTree t)
    else step s (OpUpgrade i) = Ret (s, OutNone)).
Proof.
  intros H. split; intros x Hi; unfold step; rewrite Hi.
  - unfold alive. case_bool_decide as Hx; [|done]. destruct (alive_tree _ _ _ H Hx) as (t & Ht & _).
    destruct (new_node_hand_ok s K Plain x t H Hx Ht (or_introl eq_refl)) as (s' & E & A). rewrite E. exists s'. done.
  - unfold tree_alive. case_bool_decide as Hx; [|done]. eexists. split; [done|].
    apply gain_uncounted; [done|done|by apply (f_hands _ (i_f _ _ H) _ _ Hi)|]. by intros u [= <-].
Qed.

End SysFacts5.
