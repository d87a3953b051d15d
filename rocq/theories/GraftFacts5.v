(** * GraftFacts5: the outcome of every move. *)
From Verif Require Import Heap System SysSpec SpecFacts SysFacts5 ApiSpec ApiFacts ApiFacts2 ApiFacts3 ApiFacts7 MoveSpec MoveFacts GraftSpec GraftFacts2 GraftFacts4 Spec.

Section GraftFacts5.
Context {T : Type}.
Implicit Types (s : sys T) (K : forest).

Lemma tree_handle_dec s (t : tid) : (exists i, s_hands s !! i = Some (HTree t)) \/ (forall i, s_hands s !! i <> Some (HTree t)).
Proof.
  destruct (existsb (fun kv : nat * handle => match kv.2 with HTree u => bool_decide (u = t) | _ => false end) (map_to_list (s_hands s))) eqn:E.
  - left. apply existsb_exists in E. destruct E as ((i & hd) & Hin & H). apply elem_of_list_In, elem_of_map_to_list in Hin.
    cbn in H. destruct hd; try discriminate H. apply bool_decide_eq_true_1 in H. subst. by exists i.
  - right. intros i Hi. enough (existsb (fun kv : nat * handle => match kv.2 with HTree u => bool_decide (u = t) | _ => false end) (map_to_list (s_hands s)) = true) by congruence.
    apply existsb_exists. exists (i, HTree t). split; [by apply elem_of_list_In, elem_of_map_to_list|]. cbn. by apply bool_decide_eq_true_2.
Qed.

Lemma move_total s K a k x ad j y : reach s -> stores s K -> receiver s a k x -> s_hands s !! j = Some (HNode Hot y) ->
  exists s' r, step s (OpMove a ad j) = Ret (s', r) /\
    ((refused_move s K x ad y /\ r = OutErr SiblingsWithoutParent) \/ (~ refused_move s K x ad y /\ r = OutUnit)).
Proof.
  intros R Hst Hr Hj. pose proof (reach_stores_inv s K R Hst) as H. pose proof (inv_wf s K H) as W.
  pose proof (handle_alive s K j Hot y H Hj) as Hya. pose proof (proj1 (inv_alive s K y H) Hya) as HKy.
  destruct (receiver_facts s K a k x H Hr) as (i & t & Hi & Et & Ht & _ & Hxa & _). pose proof (proj1 (inv_alive s K x H) Hxa) as HKx.
  destruct (SpecFacts.top_or_child K x HKx) as [Htop|[p Hp]].
  - destruct (decide (tree_of s x = tree_of s y)) as [He|He].
    + exists s, OutUnit. split; [by apply (move_root_same s K a k x ad j y)|]. right. split; [|done]. intros [_ F]. by apply F.
    + destruct (ApiFacts7.handle_tree s K j Hot y R Hst Hj) as (t' & ? & ? & _ & Et' & _).
      assert (t <> t') as Hne by congruence.
      assert (y <> x) as Hyx by congruence.
      destruct (has_place_dec K ad y W HKy) as [Hp|[Hty Had]].
      * assert (~ refused_move s K x ad y) as Hn.
        { intros [[Had [?|[_ Hy]]] _]; [done|]. destruct Had as [-> | ->]; destruct Hp as [q Hq]; by apply (Hy q). }
        destruct (tree_handle_dec s t) as [[i' Hi']|Hno].
        -- destruct (graft_kept s K a k x ad j y t t' i' R Hst Hr Hj Htop Et Et' Hne Hi' Hp) as (s' & _ & E & _). exists s', OutUnit. split; [exact E|by right].
        -- destruct (graft_lost s K a k x ad j y t t' R Hst Hr Hj Htop Et Et' Hne Hno Hp) as (s' & _ & _ & E & _). exists s', OutUnit. split; [exact E|by right].
      * assert (no_place K x ad y) as Hn by (split; [tauto|by right]).
        assert (refused_move s K x ad y) as Hre by (split; [exact Hn|]; by intros [_ F]).
        destruct (tree_handle_dec s t) as [[i' Hi']|Hno].
        -- destruct (graft_kept_refused s K a k x ad j y t t' i' R Hst Hr Hj Htop Et Et' Hne Hi' Hn) as (s' & E & _). exists s', (OutErr SiblingsWithoutParent). split; [exact E|by left].
        -- destruct (graft_lost_refused s K a k x ad j y t t' R Hst Hr Hj Htop Et Et' Hne Hno Hn) as (s' & _ & E & _). exists s', (OutErr SiblingsWithoutParent). split; [exact E|by left].
  - destruct (move_outcome s K a k x ad j y p R Hst Hr Hj Hp) as (s' & r & E & [[Hn Hre]|[Hn Hre]]); exists s', r; (split; [exact E|]).
    + left. split; [|exact Hre]. split; [exact Hn|]. intros [[_ F] _]. by apply (F p).
    + right. split; [|exact Hre]. intros [F _]. by apply Hn.
Qed.
End GraftFacts5.
