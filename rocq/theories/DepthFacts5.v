(** * DepthFacts5: dropping handles and failing creation on a bounded stack. *)
From Verif Require Import Heap Edit Traverse System Depth SysSpec CardFacts HeapFacts SpecFacts NavFacts NavFacts2 EditFacts EditFacts2 EditFacts3 IterSpec RoseFacts TdFacts TdFacts2 SysFacts SysFacts2 SysFacts3 SysFacts4 SysFacts5 SysFacts6 SysFacts7 SysFacts8 DepthFacts DepthFacts2 DepthFacts3 Spec.

Section DepthFacts5.
Context {T : Type}.
Implicit Types (h : heap T) (s : sys T) (hm : gmap nat handle).

Lemma upto_drop_sinv n s K t tr pins tpins : sinv s K -> hinv s (s_hands s) -> s_trees s !! t = Some tr ->
  drop_tree_upto (S n) pins tpins s t = drop_tree_if_dead pins tpins s t.
Proof.
  intros Hs Hh Htr. apply (upto_tree_gen n s K t tr pins tpins (s_rep _ _ Hs) (s_wf _ _ Hs) Hh Htr (proj1 (s_root _ _ Hs _ _ Htr))).
  - intros y Hy. apply (sinv_below _ _ _ _ _ Hs Htr) in Hy as [_ Hy]. exact Hy.
  - intros t2 tr2 Ht2 Hb. apply (sinv_below _ _ _ _ _ Hs Htr) in Hb as [_ Hb]. destruct (s_root _ _ Hs _ _ Ht2) as [_ E]. congruence.
Qed.

Lemma upto_drop_link_ok n s K hm i x t :
  sinv s K -> hinv s hm -> hm !! i = Some (HNode Plain x) -> delete i (s_hands s) = delete i hm -> tree_of s x = Some t ->
  drop_link_upto (S n) s i x = drop_link s i x.
Proof.
  intros Hs Hh Hi Ehm Ht.
  destruct (hinv_handle_strong _ _ _ _ _ Hh Hi) as (t1 & rc & lk & Hm & [tr Htr] & C1 & C2 & E).
  assert (t1 = t) as -> by congruence. clear E.
  destruct (decr_mem_ok _ _ _ _ _ _ _ Hh Hi Hm) as (Hlk & Hh1 & F1).
  assert (is_Some (s_nodes s !! x)) as Hx by (by eapply n_memb_alive).
  set (m := match rc with 0 => MWeak (Some t) | S _ => MStrong t rc lk end) in *.
  set (s1 := put_mem (del_hand s i) x m).
  assert (hinv s1 (s_hands s1)) as Hh1'.
  { unfold s1. simpl. rewrite Ehm. destruct Hh1 as [A1 A2 A3 A4 A5]. split; done. }
  assert (sinv s1 K) as Hs1. { pose proof (framed_sinv _ _ _ Hs F1) as [A B C D E]. split; done. }
  assert (release_upto (S n) s1 [] x = release_all s1 [] x) as Hrel.
  { eapply agrees_ret; [apply upto_release|]. apply upto_noop.
    eapply (pinv_referenced _ _ noX); [by apply sinv_pinv| |by intros []].
    unfold s1, put_mem, set_mem. simpl. rewrite lookup_alter. by destruct Hx as [? ->]. }
  unfold drop_link_upto, drop_link, decr_ref_upto, decr_ref. change (n_memb (del_hand s i) x) with (n_memb s x). rewrite Hm. destruct rc as [|rc].
  2: exact Hrel.
  rewrite (Hlk eq_refl). simpl Nat.eqb. cbn [assertb mbind run_bind].
  change (put_mem (del_hand s i) x (MWeak (Some t))) with s1.
  rewrite (upto_drop_sinv n s1 K t tr [x] [] Hs1 Hh1' Htr).
  destruct (tree_referenced s1 [] t) eqn:Href.
  { unfold drop_tree_if_dead. change (s_trees s1) with (s_trees s). rewrite Htr, Href. cbn [mbind run_bind]. exact Hrel. }
  destruct (drop_tree_gen s1 K t tr [x] []) as (h' & E & (S1 & S2 & S3) & Hh2 & Hw2).
  { apply Hs1. } { apply Hs1. } { exact Hh1'. } { exact Htr. } { exact (proj1 (s_root _ _ Hs1 _ _ Htr)). }
  { intros y Hy. apply (sinv_below _ _ _ _ _ Hs1 Htr) in Hy as [_ Hy]. exact Hy. }
  { intros t2 tr2 Ht2 Hb. apply (sinv_below _ _ _ _ _ Hs1 Htr) in Hb as [_ Hb].
    destruct (s_root _ _ Hs1 _ _ Ht2) as [_ E]. congruence. }
  { exact Href. }
  rewrite E. cbn [mbind run_bind].
  assert (below K (t_root tr) x) as Hbx. { apply (sinv_below _ _ _ _ _ Hs Htr). done. }
  destruct (S3 x Hbx) as (nd & nd' & E1 & E2 & E3 & E4 & E5); [ls|].
  apply agrees_not; [apply upto_release|]. exact (upto_bare n (mkSys h' (delete t (s_trees s1)) (s_hands s1) (s_fresh s1)) [] x nd' E2 E3 E4).
Qed.

Lemma upto_drop_node_ok n s K i k x : inv s K -> s_hands s !! i = Some (HNode k x) -> drop_node_upto (S n) s i k x = drop_node s i k x.
Proof.
  intros H Hi. destruct (handle_tree s K i k x H Hi) as (t & tr & Ht & Htr & _). unfold drop_node_upto, drop_node.
  destruct (decide (k = Plain)) as [->|Hk].
  { cbn [mbind run_bind]. exact (upto_drop_link_ok n s K (s_hands s) i x t (i_s _ _ H) (i_h _ _ H) Hi eq_refl Ht). }
  assert (Hexp : forall A (a b : A), match k with Plain => a | _ => b end = b) by (by destruct k).
  rewrite Hexp.
  destruct (decr_lock_ok s (s_hands s) i k x (i_h _ _ H) Hi Hk) as (s1 & E & Hh1 & F1). rewrite E. cbn [mbind run_bind].
  apply (upto_drop_link_ok n s1 K (<[i := HNode Plain x]> (s_hands s)) i x t).
  - eapply framed_sinv; [apply H|done].
  - done.
  - by rewrite lookup_insert.
  - by rewrite (fr_hands _ _ F1), delete_insert_delete.
  - by rewrite (fr_tree _ _ F1).
Qed.

Lemma upto_step_drop n s K i : inv s K -> step_upto (S n) s (OpDrop i) = step s (OpDrop i).
Proof.
  intros H. cbn [step_upto step]. destruct (s_hands s !! i) as [[k x|t| | | |]|] eqn:Hi; try reflexivity.
  - by rewrite (upto_drop_node_ok n s K i k x H Hi).
  - destruct (h_tree _ _ (i_h _ _ H) _ _ Hi) as [tr Htr].
    assert (hinv (del_hand s i) (s_hands (del_hand s i))) as Hh1.
    { assert (hinv s (delete i (s_hands s))) as [A B C D E]; [|split; done]. eapply hinv_uncounted; [apply H|..].
      - intros j hd Hc. rewrite lookup_delete_Some. split; [tauto|]. intros Hj. split; [|done]. intros <-. rewrite Hi in Hj. by simplify_eq.
      - intros j u. rewrite lookup_delete_Some. intros [_ Hj]. exact (h_tree _ _ (i_h _ _ H) _ _ Hj). }
    assert (sinv (del_hand s i) K) as Hs1. { destruct (i_s _ _ H) as [A B C D E]. split; done. }
    by rewrite (upto_drop_sinv n (del_hand s i) K t tr [] [] Hs1 Hh1 Htr).
Qed.

Lemma upto_step_bundle n s K k i : inv s K -> step_upto (S n) s (OpBundle k i) = step s (OpBundle k i).
Proof.
  intros H. cbn [step_upto step]. destruct (s_hands s !! i) as [[[] x|t| | | |]|] eqn:Hi; try reflexivity.
  destruct (is_lock_kind k); [|reflexivity]. by rewrite (upto_drop_node_ok n s K i Plain x H Hi).
Qed.

(** A refused creation frees the new node only. *)
Lemma upto_create_err qq s K k x t d ad : inv s K -> is_Some (s_nodes s !! x) -> tree_of s x = Some t ->
  is_top K x -> (ad = APreviousSibling \/ ad = ANextSibling) -> tree_held s (s_hands s) t ->
  create_node_upto (S qq) s k x d ad = create_node_as s k x d ad.
Proof.
  intros H Hx Ht Htop Had Hheld. pose proof (i_s _ _ H) as Hs. pose proof (s_wf _ _ Hs) as Hw.
  destruct (alive_tree s K x H Hx) as (t0 & Ht0 & Hta). assert (t0 = t) as -> by congruence.
  apply agrees_not; [apply upto_create|].
  unfold create_node_upto. rewrite (tree_core_ok s K x t H Ht Hx). simpl.
  set (n := s_fresh s : nid).
  assert (s_nodes s !! n = None) as Hn. { destruct (s_nodes s !! n) eqn:E; [|done]. assert (n < s_fresh s); [|lia]. apply (f_nodes _ (i_f _ _ H)). eauto. }
  unfold new_orphan. fold n.
  set (s0 := with_fresh (with_nodes s (alloc (s_nodes s) n d (MWeak (Some t)))) (S n)).
  assert (n_memb s0 n = Some (MWeak (Some t))) as Hm0. { unfold n_memb. simpl. unfold alloc. by rewrite lookup_insert. }
  unfold incr_ref. rewrite Hm0. unfold tree_alive. rewrite bool_decide_true by done.
  set (s1 := put_mem s0 n (MStrong t 1 0)). simpl.
  assert (K !! n = None) as HKn. { destruct (K !! n) eqn:E; [|done]. assert (is_Some (s_nodes s !! n)) as [? ?] by (apply (inv_alive s K n H); eauto). congruence. }
  assert (rep (s_nodes s1) (<[n := []]> K)) as Hrep.
  { eapply rep_memonly; [|apply memonly_set_mem]. apply rep_alloc; [apply Hs|done|done]. }
  assert (is_top (<[n := []]> K) x) as Htop1.
  { destruct Htop as [A B]. split.
    - destruct (decide (x = n)) as [->|]; [rewrite lookup_insert; eauto|by rewrite lookup_insert_ne].
    - intros q. rewrite child_of_insert. intros [[_ Hc]|[_ Hc]]; [by apply elem_of_nil in Hc|by apply (B q)]. }
  change (set_mem (alloc (s_nodes s) n d (MWeak (Some t))) n (MStrong t 1 0)) with (s_nodes s1).
  rewrite (insert_orphan_sibling_of_top (s_nodes s1) (<[n := []]> K) n true x (dest_of ad x) Hrep Htop1) by (destruct Had as [->| ->]; auto).
  simpl. unfold drop_node_upto, drop_link_upto. simpl.
  set (sd := del_hand (with_nodes (add_hand s1 (HNode Plain n)) (s_nodes s1)) (S n)).
  assert (s_hands sd = s_hands s) as Ehd.
  { unfold sd. simpl. rewrite delete_insert; [done|]. destruct (s_hands s !! S n) eqn:E; [|done]. apply (f_hands _ (i_f _ _ H)) in E. lia. }
  assert (n_memb sd n = Some (MStrong t 1 0)) as Hmd.
  { change (n_memb sd n) with (n_memb s1 n). unfold s1. rewrite n_memb_put by (by eapply n_memb_alive). by rewrite decide_True. }
  change (s_fresh s1) with (S n). fold sd.
  match goal with |- context [decr_ref_upto _ ?a n] => change a with sd end. unfold decr_ref_upto. rewrite Hmd. simpl.
  set (se := put_mem sd n (MWeak (Some t))).
  assert (tree_referenced se [] t = true) as Href.
  { apply tree_referenced_iff. right. destruct Hheld as [(i & Hi)|(i & k1 & y & Hi & Hy)].
    - left. exists i. change (s_hands se) with (s_hands sd). by rewrite Ehd.
    - right. assert (y <> n) as Hyn. { intros ->. unfold tree_of, n_memb in Hy. by rewrite Hn in Hy. }
      destruct (hinv_handle_strong s (s_hands s) i k1 y (i_h _ _ H) Hi) as (t1 & rc & lk & E & _ & _ & _ & E2).
      assert (t1 = t) as -> by congruence. exists y, (S rc), lk.
      unfold n_memb, se, sd, s1, s0, put_mem, set_mem, alloc. simpl. rewrite !lookup_alter_ne, lookup_insert_ne by done. exact E. }
  unfold drop_tree_upto. destruct Hta as [tr Htr]. change (s_trees se) with (s_trees s). rewrite Htr, Href. simpl.
  assert (exists nd, s_nodes se !! n = Some nd /\ n_first nd = None /\ n_next nd = None /\ n_mem nd = MWeak (Some t)) as (nd & End & Hf & Hnx & Hmm).
  { unfold se, sd, s1, s0, put_mem, set_mem, alloc. simpl. eexists. rewrite !lookup_alter, lookup_insert. simpl. done. }
  assert (forall y, y <> n -> s_nodes se !! y = s_nodes s !! y) as Hno.
  { intros y Hy. unfold se, sd, s1, s0, put_mem, set_mem, alloc. simpl. by rewrite !lookup_alter_ne, lookup_insert_ne by done. }
  pose proof (upto_bare qq se [] n nd End Hf Hnx) as Hb. destruct (release_upto (S qq) se [] n); [discriminate|discriminate|done].
Qed.

Lemma upto_create_ok qq s k x d ad s' i : create_node_as s k x d ad = Ret (s', HOk i) ->
  create_node_upto (S qq) s k x d ad = create_node_as s k x d ad.
Proof.
  unfold create_node_upto, create_node_as. destruct (tree_core s x); [|done..]. cbn [mbind run_bind].
  destruct (new_orphan s d a) as [[[s1 m] j]| |]; [|done..]. cbn [mbind run_bind].
  destruct (insert_orphan _ _ _ _) as [[h' [u|e]]| |]; [done| |done..]. cbn [mbind run_bind].
  destruct (drop_node _ _ _ _); cbn [mbind run_bind]; intros E; discriminate E.
Qed.

End DepthFacts5.
