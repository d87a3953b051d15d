(** * SysFacts4: operations that only touch handles. *)
From Verif Require Import Heap System SysSpec CardFacts HeapFacts SpecFacts NavFacts EditFacts EditFacts2 EditFacts3 IterSpec RoseFacts TdFacts TdFacts2 SysFacts SysFacts2 SysFacts3 Spec.

Section SysFacts4.
Context {T : Type}.
Implicit Types (h : heap T) (s : sys T) (hm : gmap nat handle).

Lemma hands_fresh s K : inv s K -> s_hands s !! s_fresh s = None.
Proof.
  intros H. destruct (s_hands s !! s_fresh s) as [hd|] eqn:E; [|done].
  apply (f_hands _ (i_f _ _ H)) in E. lia.
Qed.

Lemma insert_mono hm i hd : hm !! i = None -> forall j hd', hm !! j = Some hd' -> <[i := hd]> hm !! j = Some hd'.
Proof. intros Hi j hd' Hj. rewrite lookup_insert_ne; [done|]. intros <-. congruence. Qed.

Lemma inv_add_hand s s1 K hd : inv s K -> framed s s1 -> hinv s1 (<[s_fresh s := hd]> (s_hands s)) ->
  hand_target hd < s_fresh s -> inv (add_hand s1 hd) K.
Proof.
  intros H F Hh Hhd. unfold add_hand. rewrite (fr_hands _ _ F), (fr_fresh _ _ F).
  apply (mk_inv s1).
  - eapply framed_sinv; [apply H|done].
  - done.
  - intros t Ht. rewrite (framed_held _ _ _ _ F). eapply tree_held_mono; [apply insert_mono; by eapply hands_fresh|].
    apply (i_held _ _ H). by apply (framed_tree_alive _ _ _ F).
  - eapply framed_finv; [apply H|done].
  - intros i hd1. simpl. rewrite insert_hand_iff by (by eapply hands_fresh). intros [[-> ->]|Hi]; [lia|].
    apply (f_hands _ (i_f _ _ H)) in Hi. lia.
  - rewrite (fr_fresh _ _ F). lia.
Qed.

Lemma quiet_add_hand s s1 hd : framed s s1 -> quiet s (add_hand s1 hd).
Proof. intros []. by split. Qed.

Lemma alive_tree s K x : inv s K -> is_Some (s_nodes s !! x) -> exists t, tree_of s x = Some t /\ is_Some (s_trees s !! t).
Proof. intros H Hx. destruct (sinv_tree _ _ _ (i_s _ _ H) Hx) as (t & tr & A & B & _). eauto. Qed.

Lemma new_node_hand_ok s K k x t : inv s K -> is_Some (s_nodes s !! x) -> tree_of s x = Some t ->
  (k = Plain \/ holders s (s_hands s) (opp k) t 0) ->
  exists s', new_node_hand s k x = Ret (s', s_fresh s) /\ inv s' K /\ quiet s s' /\
    s_hands s' = <[s_fresh s := HNode k x]> (s_hands s) /\ s_fresh s' = S (s_fresh s).
Proof.
  intros H Hx Ht Hk. destruct (alive_tree _ _ _ H Hx) as (t1 & E & Hta). assert (t1 = t) as -> by congruence. clear E.
  pose proof (hands_fresh _ _ H) as Hfr.
  destruct (incr_ref_ok s (s_hands s) (s_fresh s) x t (i_h _ _ H) Hfr Hx Ht Hta) as (s1 & rc & lk & E1 & _ & Hh1 & F1).
  unfold new_node_hand. rewrite E1.
  assert (x < s_fresh s) as Hxf by (by apply (f_nodes _ (i_f _ _ H))).
  destruct (decide (k = Plain)) as [->|Hkp].
  { unfold acquire_expect, acquire. cbn [mbind run_bind]. rewrite (fr_fresh _ _ F1). eexists. split; [done|].
    split; [by eapply inv_add_hand|]. split; [by apply quiet_add_hand|]. simpl. by rewrite (fr_hands _ _ F1), (fr_fresh _ _ F1). }
  destruct Hk as [|Hk]; [done|].
  destruct (acquire_ok s1 (<[s_fresh s := HNode Plain x]> (s_hands s)) (s_fresh s) k x t Hh1) as [(_ & s2 & E2 & Hh2 & F2)|(n & Hn & _)].
  - by rewrite lookup_insert.
  - done.
  - by rewrite (fr_tree _ _ F1).
  - unfold acquire_expect. rewrite E2. cbn [mbind run_bind]. pose proof (framed_trans _ _ _ F1 F2) as F.
    rewrite (fr_fresh _ _ F). eexists. split; [done|]. rewrite insert_insert in Hh2.
    split; [by eapply inv_add_hand|]. split; [by apply quiet_add_hand|]. simpl. by rewrite (fr_hands _ _ F), (fr_fresh _ _ F).
  - exfalso. assert (holders s1 (<[s_fresh s := HNode Plain x]> (s_hands s)) (opp k) t 0) as H0.
    { eapply holders_ext; [exact Hk|..].
      - intros i. unfold token_holder. rewrite insert_hand_iff by done. split; [naive_solver|].
        intros [A [[_ B]|B]]; [|done]. by destruct k.
      - intros y. unfold node_holder. rewrite (fr_tree _ _ F1). setoid_rewrite (insert_hand_iff _ _ _ _ _ Hfr). split; [naive_solver|].
        intros (A & B & j & [[_ C]|C]); [by destruct k|naive_solver]. }
    pose proof (holders_unique _ _ _ _ _ _ H0 Hn). lia.
Qed.

Lemma put_mem_twice s x m m' : put_mem (put_mem s x m) x m' = put_mem s x m'.
Proof.
  unfold put_mem, set_mem, with_nodes. simpl. f_equal. rewrite <-alter_compose. apply alter_ext. done.
Qed.

(** Holding a handle of kind [k] on a node of the tree excludes the other kind. *)
Lemma handle_excl s K i k x t : inv s K -> s_hands s !! i = Some (HNode k x) -> k <> Plain -> tree_of s x = Some t ->
  holders s (s_hands s) (opp k) t 0.
Proof.
  intros H Hi Hk Ht. destruct (hinv_handle_strong _ _ _ _ _ (i_h _ _ H) Hi) as (t1 & rc & lk & Hm & [tr Htr] & _ & _ & E).
  assert (t1 = t) as -> by congruence.
  eapply lock_ok_excl; [exact (h_lock _ _ (i_h _ _ H) _ _ Htr)|done|]. right. exists x. split_and!; eauto.
Qed.
Lemma token_excl s K i k t : inv s K -> s_hands s !! i = Some (token k t) -> k <> Plain -> is_Some (s_trees s !! t) ->
  holders s (s_hands s) (opp k) t 0.
Proof.
  intros H Hi Hk [tr Htr].
  eapply lock_ok_excl; [exact (h_lock _ _ (i_h _ _ H) _ _ Htr)|done|]. left. exists i. done.
Qed.

(** Cloning a handle is the same as making a new one. *)
Lemma clone_node_new s K i k x : inv s K -> s_hands s !! i = Some (HNode k x) ->
  clone_node s k x = new_node_hand s k x.
Proof.
  intros H Hi. destruct (hinv_handle_strong _ _ _ _ _ (i_h _ _ H) Hi) as (t & rc & lk & Hm & [tr Htr] & C1 & C2 & Ht).
  assert (is_Some (s_nodes s !! x)) as Hx by (by eapply n_memb_alive).
  unfold clone_node, new_node_hand, incr_ref. rewrite Hm. destruct (decide (k = Plain)) as [->|Hk].
  { unfold incr_nonzero_ref, acquire_expect, acquire. cbn [mbind run_bind]. by rewrite Hm. }
  assert (exists lk', lk = S lk') as [lk' ->].
  { destruct lk; [|eauto]. exfalso. apply (card_0 _ C2 i). by exists k. }
  assert (Hexp : forall A (a b : A), match k with Plain => a | _ => b end = b) by (by destruct k).
  rewrite Hexp. unfold incr_nonzero_lock. rewrite Hm. cbn [mbind run_bind]. unfold incr_nonzero_ref.
  rewrite n_memb_put by done. rewrite decide_True by done. cbn [mbind run_bind]. rewrite put_mem_twice.
  unfold acquire_expect, acquire. rewrite Hexp. rewrite n_memb_put by done. rewrite decide_True by done.
  simpl s_trees. rewrite Htr. pose proof (handle_excl _ _ _ _ _ _ H Hi Hk Ht) as H0.
  destruct (h_lock _ _ (i_h _ _ H) _ _ Htr) as (g & p & Hg & Hp & Hc & Hz).
  assert ((match k with Hot => (0 <=? t_cnt tr)%Z | _ => (t_cnt tr <=? 0)%Z end) = true) as ->.
  { destruct k; [done|..]; simpl in H0.
    - pose proof (holders_unique _ _ _ _ _ _ H0 Hp). apply Z.leb_le. lia.
    - pose proof (holders_unique _ _ _ _ _ _ H0 Hg). apply Z.leb_le. lia. }
  cbn [mbind run_bind]. rewrite put_mem_twice. done.
Qed.

Lemma clone_node_ok s K i k x : inv s K -> s_hands s !! i = Some (HNode k x) ->
  exists s', clone_node s k x = Ret (s', s_fresh s) /\ inv s' K /\ quiet s s' /\
    s_hands s' = <[s_fresh s := HNode k x]> (s_hands s) /\ s_fresh s' = S (s_fresh s).
Proof.
  intros H Hi. rewrite (clone_node_new _ _ _ _ _ H Hi).
  destruct (hinv_handle_strong _ _ _ _ _ (i_h _ _ H) Hi) as (t & rc & lk & Hm & _ & _ & _ & Ht).
  eapply new_node_hand_ok; [done|by eapply n_memb_alive|done|].
  destruct (decide (k = Plain)); [by left|right]. by eapply handle_excl.
Qed.

Lemma quiet_refl s : quiet s s.
Proof. by split. Qed.
Lemma quiet_trans s1 s2 s3 : quiet s1 s2 -> quiet s2 s3 -> quiet s1 s3.
Proof.
  intros [A1 A2 A3] [B1 B2 B3]. split.
  - intros x. by rewrite B1, A1.
  - intros x. by rewrite B2, A2.
  - intros t. by rewrite B3, A3.
Qed.

Lemma decr_lock_local s s' x t : decr_lock s x = Ret s' -> tree_of s x = Some t ->
  (forall y, y <> x -> s_nodes s' !! y = s_nodes s !! y) /\ (forall u, u <> t -> s_trees s' !! u = s_trees s !! u).
Proof.
  unfold decr_lock, tree_of. destruct (n_memb s x) as [[o|t1 rc lk]|]; try done. intros E [= ->].
  assert (forall m y, y <> x -> s_nodes (put_mem s x m) !! y = s_nodes s !! y) as Hm.
  { intros m y Hy. unfold put_mem, set_mem. simpl. by rewrite lookup_alter_ne. }
  destruct lk as [|[|lk]]; [done| |simplify_eq; split; [by apply Hm|done]].
  unfold release_any in E. simpl in E. destruct (s_trees s !! t) as [tr|]; [|done].
  assert (exists z, s' = put_cnt (put_mem s x (MStrong t rc 0)) t z) as [z ->].
  { destruct (t_cnt tr); simplify_eq; eauto. }
  split; [apply Hm|]. intros u Hu. unfold put_cnt. simpl. by rewrite lookup_alter_ne.
Qed.

(** What a dropped handle leaves behind. *)
Definition dropped s s' (K : forest) (t : tid) (i : nat) (K' : forest) : Prop :=
  (tree_held s (delete i (s_hands s)) t /\ K' = K /\ quiet s s') \/
  (~ tree_held s (delete i (s_hands s)) t /\ freed s s' K t K').

Lemma drop_node_ok s K i k x t : inv s K -> s_hands s !! i = Some (HNode k x) -> tree_of s x = Some t ->
  exists s' K', drop_node s i k x = Ret s' /\ inv s' K' /\ s_hands s' = delete i (s_hands s) /\ s_fresh s' = s_fresh s /\
    dropped s s' K t i K'.
Proof.
  intros H Hi Ht. unfold drop_node. destruct (decide (k = Plain)) as [->|Hk].
  { cbn [mbind run_bind]. exact (drop_link_ok s K (s_hands s) i x t (i_s _ _ H) (i_h _ _ H) Hi eq_refl Ht (i_held _ _ H) (i_f _ _ H)). }
  assert (Hexp : forall A (a b : A), match k with Plain => a | _ => b end = b) by (by destruct k).
  rewrite Hexp.
  destruct (decr_lock_ok s (s_hands s) i k x (i_h _ _ H) Hi Hk) as (s1 & E & Hh1 & F1). rewrite E. cbn [mbind run_bind].
  destruct (drop_link_ok s1 K (<[i := HNode Plain x]> (s_hands s)) i x t) as (s' & K' & E2 & Hi2 & Hhs & Hfr & Hd).
  - eapply framed_sinv; [apply H|done].
  - done.
  - by rewrite lookup_insert.
  - by rewrite (fr_hands _ _ F1), delete_insert_delete.
  - by rewrite (fr_tree _ _ F1).
  - intros u Hu. rewrite (framed_held _ _ _ _ F1). destruct (i_held _ _ H u) as [(j & Hj)|(j & k1 & y & Hj & Hy)].
    + by apply (framed_tree_alive _ _ _ F1).
    + left. exists j. rewrite lookup_insert_ne; [done|]. intros <-. congruence.
    + right. destruct (decide (j = i)) as [->|].
      * exists i, Plain, x. rewrite lookup_insert. split; [done|]. congruence.
      * exists j, k1, y. by rewrite lookup_insert_ne.
  - eapply framed_finv; [apply H|done].
  - exists s', K'. rewrite E2. split; [done|]. split; [done|]. rewrite Hhs, Hfr, (fr_hands _ _ F1), (fr_fresh _ _ F1).
    split; [done|]. split; [done|]. rewrite delete_insert_delete in Hd. unfold dropped.
    rewrite (framed_held _ _ _ _ F1) in Hd. destruct Hd as [(A & B & C)|(A & B)]; [left|right].
    + split_and!; [done|done|]. eapply quiet_trans; [by apply framed_quiet|done].
    + split; [done|]. destruct B as (tr & L & B1 & B2 & B3 & B4 & B5 & B6 & B7).
      destruct (decr_lock_local _ _ _ _ E Ht) as [D1 D2].
      destruct (s_trees s !! t) as [tr0|] eqn:Etr.
      2: { pose proof (fr_root _ _ F1 t) as X. by rewrite B1, Etr in X. }
      pose proof (fr_root _ _ F1 t) as X. rewrite B1, Etr in X. simpl in X. injection X as X.
      exists tr0, L. rewrite <-X. split_and!; [done|done|done|done| |done|].
      * intros u Hu. rewrite B5 by done. by apply D2.
      * intros y Hy. rewrite B7 by done. apply D1. intros ->. apply Hy, B2. rewrite X.
        apply (sinv_below _ _ _ _ _ (i_s _ _ H) Etr). split; [|done]. exact (h_node _ _ (i_h _ _ H) _ _ _ Hi).
Qed.

End SysFacts4.
