(** * GenFacts4: handles, reference counts and locks agree whatever the links are:
    creation and change of tree. *)
From Verif Require Import Heap Edit Traverse System SysSpec CardFacts HeapFacts SysFacts SysFacts2 SysFacts3 SysFacts4 SysFacts6 SysFacts7 SysFacts9 SysFacts11 SysFacts14 GenSpec GenFacts GenFacts2 GenFacts3 Spec.

Section GenFacts4.
Context {T : Type}.
Implicit Types (h : heap T) (s : sys T) (hm : gmap nat handle) (P : tid -> Prop).
Notation swept := GenFacts.swept.
Tactic Notation "sb" hyp(E) ident(a) ident(E1) := cbv beta zeta delta [mbind run_bind] in E;
  match type of E with match ?m with _ => _ end = _ => destruct m as [a| |] eqn:E1; cbv beta iota zeta delta [mbind run_bind] in E; [|discriminate E|discriminate E] end.

(** ** Creation *)
Lemma alloc_good s (n : nid) d (t : tid) P : good s P -> s_nodes s !! n = None -> n < s_fresh s -> t < s_fresh s -> (forall i k, s_hands s !! i <> Some (HNode k n)) ->
  good (with_nodes s (alloc (s_nodes s) n d (MWeak (Some t)))) P.
Proof.
  intros H Hn Hnf Htf Hnh. set (s0 := with_nodes s (alloc (s_nodes s) n d (MWeak (Some t)))).
  assert (forall y, y <> n -> s_nodes s0 !! y = s_nodes s !! y) as Hno. { intros y Hy. simpl. unfold alloc. by rewrite lookup_insert_ne. }
  assert (n_memb s0 n = Some (MWeak (Some t))) as Hmn. { unfold n_memb. simpl. unfold alloc. by rewrite lookup_insert. }
  assert (forall y, y <> n -> n_memb s0 y = n_memb s y) as Hmo. { intros y Hy. unfold n_memb. by rewrite Hno. }
  assert (forall y, y <> n -> tree_of s0 y = tree_of s y) as Hto. { intros y Hy. unfold tree_of. by rewrite Hmo. }
  destruct H as [[A1 A2 A3 A4 A5] [B1 B2 B3 B4] C]. split.
  - change (s_hands s0) with (s_hands s). split.
    + intros x o Hx. destruct (decide (x = n)) as [->|Hne].
      * rewrite Hmn in Hx. simplify_eq. split; [eauto|]. intros i [k Hk]. by apply (Hnh i k).
      * rewrite Hmo in Hx by done. by apply A1.
    + intros x u rc lk Hx. destruct (decide (x = n)) as [->|Hne]; [congruence|]. rewrite Hmo in Hx by done. exact (A2 _ _ _ _ Hx).
    + intros i k x Hi. assert (x <> n) by (intros ->; by apply (Hnh i k)). rewrite Hno by done. by eapply A3.
    + exact A4.
    + intros u tr Hu. eapply lock_ok_ext; [exact (A5 u tr Hu)|done|]. intros k x. unfold node_holder.
      split; intros (D1 & D2 & i & D3); assert (x <> n) by (intros ->; by apply (Hnh i k)); rewrite Hto in * by done; eauto.
  - split; simpl.
    + intros x Hx. destruct (decide (x = n)) as [->|Hne]; [done|]. apply B1. by rewrite <-Hno.
    + exact B2.
    + exact B3.
    + intros x u. destruct (decide (x = n)) as [->|Hne]; [unfold tree_of; rewrite Hmn; intros [= <-]; done|]. rewrite Hto by done. apply B4.
  - intros u Hu. destruct (C u Hu) as [[A|(i & k & x & Hi & Hx)]|A]; [left; by left| |by right]. left. right. exists i, k, x. split; [done|].
    rewrite Hto; [done|]. intros ->. by apply (Hnh i k).
Qed.
Lemma fresh_good s P k : good s P -> s_fresh s <= k -> good (with_fresh s k) P.
Proof.
  intros H Hk. apply (mk_good s); [apply H|apply H|apply H| |done]. intros i hd Hi. apply (good_hand_lt _ _ _ _ H) in Hi. lia.
Qed.
Record made s s1 (n i : nat) (t : tid) : Prop := {
  m_ok : ok s1;
  m_ev : evolves s s1;
  m_n : s_fresh s <= n;
  m_i : s_hands s !! i = None;
  m_hands : s_hands s1 = <[i := HNode Plain n]> (s_hands s);
  m_tree : tree_of s1 n = Some t;
  m_lt : i < s_fresh s1;
}.
(** Allocating the node [n] in a tree and taking a handle on it. *)
Lemma alloc_hand s0 (n : nid) d (t : tid) s1 : ok s0 -> s_nodes s0 !! n = None -> n < s_fresh s0 -> is_Some (s_trees s0 !! t) -> (forall i k, s_hands s0 !! i <> Some (HNode k n)) ->
  incr_ref (with_nodes s0 (alloc (s_nodes s0) n d (MWeak (Some t)))) n = Some s1 ->
  ok (add_hand s1 (HNode Plain n)) /\ s_hands (add_hand s1 (HNode Plain n)) = <[s_fresh s0 := HNode Plain n]> (s_hands s0) /\ tree_of s1 n = Some t /\
  s_fresh s1 = s_fresh s0 /\ s_trees s1 = s_trees s0 /\ forall y, y <> n -> s_nodes s1 !! y = s_nodes s0 !! y.
Proof.
  intros H Hn Hnf Hta Hnh E. assert (t < s_fresh s0) as Htf by (by apply (f_trees _ (g_f _ _ H))).
  pose proof (alloc_good s0 n d t _ H Hn Hnf Htf Hnh) as G. set (s2 := with_nodes s0 _) in *.
  assert (n_memb s2 n = Some (MWeak (Some t))) as Hmn. { unfold n_memb. simpl. unfold alloc. by rewrite lookup_insert. }
  destruct (incr_ref_ok s2 (s_hands s2) (s_fresh s2) n t (g_h _ _ G) (good_fresh _ _ G)) as (s1' & rc & lk & E' & Es1 & Hh1 & F).
  { by eapply n_memb_alive. } { unfold tree_of. by rewrite Hmn. } { exact Hta. }
  assert (s1' = s1) as -> by congruence. destruct (add_hand_good s2 s1 (HNode Plain n) _ G F Hh1 Hnf) as (A & B & C & D).
  split; [exact A|]. split; [exact C|]. split; [rewrite (fr_tree _ _ F); unfold tree_of; by rewrite Hmn|]. rewrite Es1. split; [done|]. split; [done|].
  intros y Hy. unfold put_mem, set_mem. simpl. rewrite lookup_alter_ne by done. unfold alloc. by rewrite lookup_insert_ne.
Qed.
Lemma new_orphan_good s d (t : tid) s1 n i : ok s -> is_Some (s_trees s !! t) -> new_orphan s d t = Ret (s1, n, i) -> made s s1 n i t.
Proof.
  intros H Hta. unfold new_orphan. set (n0 := s_fresh s). set (s0 := with_fresh s (S n0)).
  change (with_fresh (with_nodes s (alloc (s_nodes s) n0 d (MWeak (Some t)))) (S n0)) with (with_nodes s0 (alloc (s_nodes s0) n0 d (MWeak (Some t)))).
  destruct (incr_ref _ n0) as [s2|] eqn:E; [|discriminate]. intros [= <- <- <-].
  assert (s_nodes s !! n0 = None) as Hn. { destruct (s_nodes s !! n0) eqn:E1; [|done]. assert (n0 < s_fresh s); [|lia]. apply (f_nodes _ (g_f _ _ H)). eauto. }
  assert (forall i k, s_hands s !! i <> Some (HNode k n0)) as Hnh. { intros i k Hi. apply (good_hand_lt _ _ _ _ H) in Hi. simpl in Hi. lia. }
  destruct (alloc_hand s0 n0 d t s2) as (A & B & C & D & D2 & D3); [apply fresh_good; [done|lia]|exact Hn|simpl; lia|exact Hta|exact Hnh|exact E|].
  rewrite D. change (s_fresh s0) with (S n0). split.
  - exact A.
  - split; simpl.
    + rewrite D. simpl. lia.
    + intros y Hy Hya. unfold payload. simpl. rewrite D3; [done|]. unfold n0. lia.
    + intros u Hu. by rewrite D2.
  - done.
  - destruct (s_hands s !! S n0) eqn:E1; [|done]. apply (good_hand_lt _ _ _ _ H) in E1. lia.
  - exact B.
  - exact C.
  - simpl. rewrite D. simpl. lia.
Qed.
Lemma tree_core_alive s x t : hinv s (s_hands s) -> tree_core s x = Ret t -> tree_of s x = Some t /\ is_Some (s_trees s !! t).
Proof.
  intros H. unfold tree_core, tree_of. destruct (n_memb s x) as [[[u|]|u rc lk]|] eqn:E; try discriminate.
  - unfold tree_alive. case_bool_decide; [|discriminate]. by intros [= ->].
  - intros [= ->]. split; [done|]. by destruct (h_strong _ _ H _ _ _ _ E).
Qed.
Lemma new_tree_part s (x : nid) : forall t', good s (fun _ => False) -> s_fresh s <= t' -> x < S t' ->
  good (with_fresh (with_trees s (<[t' := mkTree x 0]> (s_trees s))) (S t')) (fun u => u = t').
Proof.
  intros t' H Hf Hx. assert (forall (u : tid), is_Some (s_trees s !! u) -> u < t') as Hlt. { intros u Hu. apply (f_trees _ (g_f _ _ H)) in Hu. lia. } split.
  - simpl. apply hinv_new_tree.
    + apply H.
    + destruct (s_trees s !! t') eqn:E; [|done]. assert (t' < t'); [|lia]. apply Hlt. eauto.
    + intros k i [_ Hi]. apply (good_hand_lt _ _ _ _ H) in Hi. destruct k; simpl in Hi; lia.
    + intros y Hy. apply (f_memb _ (g_f _ _ H)) in Hy. lia.
  - destruct (g_f _ _ H) as [B1 B2 B3 B4]. split; simpl.
    + intros y Hy. apply B1 in Hy. lia.
    + intros u Hu. destruct (decide (u = t')) as [->|]; [lia|]. rewrite lookup_insert_ne in Hu by done. apply B2 in Hu. lia.
    + intros i hd Hi. apply B3 in Hi. lia.
    + intros y u Hy. change (tree_of s y = Some u) in Hy. apply B4 in Hy. lia.
  - intros u. simpl. destruct (decide (u = t')) as [->|]; [by right|]. rewrite lookup_insert_ne by done. intros Hu.
    destruct (g_k _ _ H u Hu) as [A|[]]. by left.
Qed.
Lemma new_tree_good s d s' i : ok s -> new_tree s d = (s', i) -> ok s' /\ evolves s s' /\ s_hands s !! i = None /\ exists n, s_hands s' = <[i := HNode Plain n]> (s_hands s).
Proof.
  intros H. unfold new_tree. set (n := s_fresh s). set (t := S n).
  set (s0 := with_fresh (with_trees s (<[t := mkTree n 0]> (s_trees s))) (S t)).
  assert (good s0 (fun u => u = t)) as G0 by (apply new_tree_part; [done|unfold t; lia|unfold t; lia]).
  assert (s_nodes s !! n = None) as Hn. { destruct (s_nodes s !! n) eqn:E1; [|done]. assert (n < s_fresh s); [|lia]. apply (f_nodes _ (g_f _ _ H)). eauto. }
  assert (forall i k, s_hands s !! i <> Some (HNode k n)) as Hnh. { intros j k Hi. apply (good_hand_lt _ _ _ _ H) in Hi. simpl in Hi. lia. }
  assert (good (with_nodes s0 (alloc (s_nodes s0) n d (MWeak (Some t)))) (fun u => u = t)) as G1. { apply alloc_good; [exact G0|exact Hn|simpl; unfold t; lia|simpl; lia|exact Hnh]. }
  set (s1 := with_nodes s0 (alloc (s_nodes s0) n d (MWeak (Some t)))) in *.
  assert (n_memb s1 n = Some (MWeak (Some t))) as Hmn. { unfold n_memb. simpl. unfold alloc. by rewrite lookup_insert. }
  destruct (incr_ref_ok s1 (s_hands s1) (s_fresh s1) n t (g_h _ _ G1) (good_fresh _ _ G1)) as (s2 & rc & lk & E' & Es2 & Hh1 & F).
  { by eapply n_memb_alive. } { unfold tree_of. by rewrite Hmn. } { simpl. rewrite lookup_insert. eauto. }
  assert (s2 = put_mem s1 n (MStrong t 1 0)) as Es2'. { unfold incr_ref in E'. rewrite Hmn in E'. unfold tree_alive in E'. simpl in E'. rewrite lookup_insert in E'. by injection E' as <-. }
  destruct (add_hand_good s1 s2 (HNode Plain n) _ G1 F Hh1) as (A & B & C & D); [simpl; unfold t; lia|].
  assert (s2 = mkSys (alloc (s_nodes s) n d (MStrong t 1 0)) (<[t := mkTree n 0]> (s_trees s)) (s_hands s) (S t)) as Es3.
  { rewrite Es2'. unfold put_mem, with_nodes, s1, s0. simpl. f_equal. unfold set_mem, alloc. by rewrite alter_insert. }
  rewrite <-Es3. intros [= <- <-]. assert (s_fresh s2 = S t) as Ef by (by rewrite Es3). rewrite Ef. split; [|split; [|split]].
  - destruct A as [A1 A2 A3]. split; [exact A1|exact A2|]. intros u Hu. destruct (A3 u Hu) as [X| ->]; [by left|]. left. right.
    exists (s_fresh s1), Plain, n. rewrite C, lookup_insert. split; [done|]. change (tree_of s2 n = Some t). rewrite (fr_tree _ _ F). unfold tree_of. by rewrite Hmn.
  - split.
    + rewrite D. simpl. unfold t. lia.
    + intros y Hy _. unfold payload. simpl. rewrite Es3. simpl. unfold alloc. rewrite lookup_insert_ne; [done|]. unfold n. lia.
    + intros u Hu. simpl. rewrite Es3. simpl. rewrite lookup_insert_ne; [done|]. unfold t. lia.
  - destruct (s_hands s !! S t) eqn:E1; [|done]. apply (good_hand_lt _ _ _ _ H) in E1. unfold t in *. lia.
  - exists n. exact C.
Qed.
Lemma hands_good s s1 i k (n : nid) : ok s -> s_hands s !! i = Some (HNode Plain n) -> framed s s1 -> hinv s1 (<[i := HNode k n]> (s_hands s)) -> ok (with_hands s1 (<[i := HNode k n]> (s_hands s1))).
Proof.
  intros H Hi F Hh. unfold with_hands. rewrite (fr_hands _ _ F), (fr_fresh _ _ F). apply (mk_good s1).
  - done.
  - intros u Hu. rewrite (framed_held _ _ _ _ F). apply (framed_tree_alive _ _ _ F) in Hu. left.
    destruct (g_k _ _ H u Hu) as [[(j & Hj)|(j & k1 & y & Hj & Hy)]|[]].
    + left. exists j. rewrite lookup_insert_ne; [done|]; intros <-; congruence.
    + right. destruct (decide (j = i)) as [->|]; [exists i, k, n; rewrite lookup_insert; split; [done|congruence]|]. exists j, k1, y. by rewrite lookup_insert_ne.
  - eapply framed_finv; [apply H|done].
  - intros j hd. destruct (decide (j = i)) as [->|].
    + rewrite lookup_insert. intros [= <-]. exact (good_hand_lt _ _ _ _ H Hi).
    + rewrite lookup_insert_ne by done. apply (good_hand_lt _ _ _ _ H).
  - by rewrite (fr_fresh _ _ F).
Qed.
Lemma upgrade_new_good s i (n : nid) k s' : ok s -> s_hands s !! i = Some (HNode Plain n) -> upgrade_new s i n k = Ret s' ->
  ok s' /\ evolves s s' /\ s_hands s' = <[i := HNode k n]> (s_hands s).
Proof.
  intros H Hi E. unfold upgrade_new in E. sb E s1 E1. injection E as <-. destruct (decide (k = Plain)) as [->|Hk].
  { unfold acquire_expect, acquire in E1. cbn [mbind run_bind] in E1. injection E1 as <-. rewrite insert_id by done.
    assert (with_hands s (s_hands s) = s) as -> by (by destruct s). split; [done|]. split; [apply evolves_refl|done]. }
  destruct (hinv_handle_strong _ _ _ _ _ (g_h _ _ H) Hi) as (t & rc & lk & Hm & _ & _ & _ & Ht).
  unfold acquire_expect in E1. destruct (acquire_ok s (s_hands s) i k n t (g_h _ _ H) Hi Hk Ht) as [(_ & s2 & E2 & Hh2 & F2)|(m & Hn & E2)]; rewrite E2 in E1; cbn [mbind run_bind] in E1; [|discriminate].
  injection E1 as <-. split; [by apply (hands_good s)|]. split; [|simpl; by rewrite (fr_hands _ _ F2)].
  apply (framed_evolves s s2); [done|]. by rewrite (fr_fresh _ _ F2).
Qed.

(** ** Change of tree *)
Lemma release_trees : forall fuel pins s x s', release fuel pins s x = Ret s' -> s_trees s' = s_trees s.
Proof.
  induction fuel as [|f IH]; intros pins s x s'; cbn [release]; destruct (s_nodes s !! x) as [nd|] eqn:Ex; try (intros [= <-]; reflexivity).
  - destruct (referenced s pins x); [intros [= <-]; reflexivity|discriminate].
  - destruct (referenced s pins x) eqn:Er; [intros [= <-]; reflexivity|]. destruct (n_mem nd) as [o|t0 rc0 lk0] eqn:Em; [|discriminate].
    set (s1 := with_nodes s (delete x (s_nodes s))).
    destruct (match n_first nd with Some c => release f pins s1 c | None => Ret s1 end) as [s2| |] eqn:E2; cbn [mbind run_bind]; try discriminate.
    assert (s_trees s2 = s_trees s) as W2. { destruct (n_first nd); [by apply IH in E2|]. by injection E2 as <-. }
    rewrite <-W2. destruct (n_next nd); [apply IH|]. by intros [= <-].
Qed.
Lemma release_all_trees pins s x s' : release_all s pins x = Ret s' -> s_trees s' = s_trees s.
Proof. apply release_trees. Qed.
Lemma teardown_trees : forall fuel pins s next s', teardown fuel pins s next = Ret s' -> s_trees s' = s_trees s.
Proof.
  induction fuel as [|f IH]; intros pins s next s'; cbn [teardown]; destruct next as [cur|]; try (intros [= <-]; reflexivity).
  destruct cur as [v|v]; [apply IH|].
  destruct (match parent_link (s_nodes s) v with Some p => _ | None => Ret s end) as [s1| |] eqn:E1; cbn [mbind run_bind]; try discriminate.
  assert (s_trees s1 = s_trees s) as W1.
  { destruct (parent_link (s_nodes s) v) as [p|]; [|by injection E1 as <-]. destruct (ffirst _ p); [|by injection E1 as <-]. by apply release_all_trees in E1. }
  destruct (release_all s1 _ v) as [s2| |] eqn:E2; cbn [mbind run_bind]; try discriminate. intros E3.
  apply IH in E3. rewrite E3. apply release_all_trees in E2. congruence.
Qed.
Lemma drop_tree_pinned pins tpins s (t u : tid) s' : u ∈ tpins -> drop_tree_if_dead pins tpins s t = Ret s' -> is_Some (s_trees s !! u) -> is_Some (s_trees s' !! u).
Proof.
  intros Hu. unfold drop_tree_if_dead. destruct (s_trees s !! t) as [tr|] eqn:Et; [|by intros [= <-]].
  destruct (tree_referenced s tpins t) eqn:Er; [by intros [= <-]|].
  destruct (teardown _ pins s _) as [s1| |] eqn:E1; cbn [mbind run_bind]; try discriminate. intros E2 Ha.
  rewrite (release_all_trees _ _ _ _ E2). simpl. rewrite (teardown_trees _ _ _ _ _ E1). rewrite lookup_delete_ne; [done|]. intros <-.
  assert (tree_referenced s tpins t = true) as X by (apply tree_referenced_iff; by left). congruence.
Qed.

(** A loop giving nodes to the tree [t']: nodes with a handle stay there. *)
Record settled s s' (t' : tid) : Prop := {
  st_hands : s_hands s' = s_hands s;
  st_fresh : s_fresh s' = s_fresh s;
  st_ev : evolves s s';
  st_alive : is_Some (s_trees s' !! t');
  st_stay : forall i k z, s_hands s !! i = Some (HNode k z) -> tree_of s z = Some t' -> tree_of s' z = Some t';
}.
Lemma settled_trans s1 s2 s3 t' : settled s1 s2 t' -> settled s2 s3 t' -> settled s1 s3 t'.
Proof.
  intros [A1 A2 A3 A4 A5] [B1 B2 B3 B4 B5]. split; [congruence|congruence|by eapply evolves_trans|done|].
  intros i k z Hi Hz. apply (B5 i k); [congruence|]. by eapply A5.
Qed.
Lemma settled_refl s t' : is_Some (s_trees s !! t') -> settled s s t'.
Proof. intros. split; auto using evolves_refl. Qed.
Lemma swept_settled s s' t' : hinv s (s_hands s) -> swept s s' -> is_Some (s_trees s' !! t') -> settled s s' t'.
Proof.
  intros H W Ha. split; [apply W|apply W|exact (swept_evolves _ _ W)|done|]. intros i k z Hi Hz. by rewrite (swept_tree s s' i k z).
Qed.
Lemma retreed_settled s s' y t' : retreed s s' y t' -> is_Some (s_trees s !! t') -> settled s s' t'.
Proof.
  intros R Ha. assert (forall t, is_Some (s_trees s' !! t) <-> is_Some (s_trees s !! t)) as Hal.
  { intros t. pose proof (rt_root _ _ _ _ R t) as E. destruct (s_trees s' !! t), (s_trees s !! t); try done; split; eauto. }
  split; [apply R|apply R| |by apply Hal|].
  - split; [by rewrite (rt_fresh _ _ _ _ R)| |].
    + intros z _ _. apply memonly_payload. apply R.
    + intros t _. apply Hal.
  - intros i k z _ Hz. destruct (decide (z = y)) as [->|Hne]; [apply R|]. by rewrite (rt_tree _ _ _ _ _ R).
Qed.
Lemma retreed_finv s s' y t' : finv s -> retreed s s' y t' -> t' < s_fresh s -> finv s'.
Proof.
  intros [A B C D] R Ht. split; rewrite (rt_fresh _ _ _ _ R).
  - intros x Hx. apply A. destruct (memonly_fields _ _ x (rt_mem _ _ _ _ R)) as (_ & _ & _ & _ & _ & X). by apply X.
  - intros t Hx. apply B. pose proof (rt_root _ _ _ _ R t) as E. destruct (s_trees s' !! t), (s_trees s !! t); try done; eauto.
  - rewrite (rt_hands _ _ _ _ R). exact C.
  - intros x t Hx. destruct (decide (x = y)) as [->|Hne]; [rewrite (rt_y _ _ _ _ R) in Hx; congruence|]. rewrite (rt_tree _ _ _ _ _ R Hne) in Hx. by apply (D x).
Qed.

Lemma set_tree_core_good s pins tpins (x : nid) (t' : tid) s' : good s (fun u => u ∈ tpins) -> t' ∈ tpins -> is_Some (s_trees s !! t') ->
  set_tree_core s pins tpins x t' = Ret (Some s') -> good s' (fun u => u ∈ tpins) /\ settled s s' t' /\ ((exists i k, s_hands s !! i = Some (HNode k x)) -> tree_of s' x = Some t').
Proof.
  intros H Hin Ha. unfold set_tree_core. assert (t' < s_fresh s) as Htf by (by apply (f_trees _ (g_f _ _ H))).
  assert (forall t u s1, retreed s s1 x t' -> tree_of s x = Some t -> u <> t -> tree_held s (s_hands s) u -> tree_held s1 (s_hands s1) u) as Hheld.
  { intros t u s1 R Ht Hne [A|(i & k & z & Hi & Hz)]; rewrite ?(rt_hands _ _ _ _ R); [by left|]. right. exists i, k, z. split; [done|].
    rewrite (rt_tree _ _ _ _ _ R); [done|]. intros ->. congruence. }
  destruct (n_memb s x) as [[o|t rc lk]|] eqn:Em; [| |discriminate].
  - intros [= <-]. destruct (retree_weak s (s_hands s) x o t' (g_h _ _ H) Em) as [Hh R]. set (s1 := put_mem s x (MWeak (Some t'))) in *.
    destruct (h_weak _ _ (g_h _ _ H) _ _ Em) as [_ Hno]. assert (forall i k, s_hands s !! i <> Some (HNode k x)) as Hno' by (intros i k Hi; apply (Hno i); by exists k).
    split; [|split].
    + split; [by rewrite (rt_hands _ _ _ _ R)|exact (retreed_finv _ _ _ _ (g_f _ _ H) R Htf)|]. intros u Hu. destruct (g_k _ _ H u Hu) as [[A|(i & k & z & Hi & Hz)]|A]; [left; by left| |by right].
      left. right. exists i, k, z. split; [done|]. rewrite (rt_tree _ _ _ _ _ R); [done|]. intros ->. by apply (Hno' i k).
    + by eapply retreed_settled.
    + intros (i & k & Hi). by apply Hno' in Hi.
  - destruct (if Nat.eqb lk 0 then Some s else transfer_lock s t t') as [s0|] eqn:Etr; [|discriminate].
    destruct (retree_any s (s_hands s) x t t' rc lk s0 (g_h _ _ H) Em Ha Etr) as [Hh R]. set (s1 := put_mem s0 x (MStrong t' rc lk)) in *.
    destruct (drop_tree_if_dead pins tpins s1 t) as [s2| |] eqn:E2; cbn [mbind run_bind]; try discriminate. intros [= <-].
    assert (tree_of s x = Some t) as Ht by (unfold tree_of; by rewrite Em).
    assert (is_Some (s_trees s1 !! t')) as Ha1. { exact (st_alive _ _ _ (retreed_settled _ _ _ _ R Ha)). }
    assert (hinv s1 (s_hands s1)) as Hh1 by (by rewrite (rt_hands _ _ _ _ R)).
    destruct (drop_tree_kept pins tpins s1 t s2 (fun u => u ∈ tpins)) as [W K2]; [exact Hh1|done| |exact E2|].
    { intros u Hu. destruct (decide (u = t)) as [->|Hne]; [right; by left|]. destruct (g_k _ _ H u) as [A|A]; [|left; by eapply Hheld|right; by right].
      pose proof (rt_root _ _ _ _ R u) as E. destruct (s_trees s1 !! u), (s_trees s !! u); try done; eauto. }
    pose proof (drop_tree_pinned _ _ _ _ _ _ Hin E2 Ha1) as Ha2. split; [|split].
    + split; [exact (swept_hinv _ _ Hh1 W)|exact (swept_finv _ _ (retreed_finv _ _ _ _ (g_f _ _ H) R Htf) W)|exact K2].
    + eapply settled_trans; [by eapply retreed_settled|]. by apply swept_settled.
    + intros (i & k & Hi). rewrite (swept_tree s1 s2 i k x); [apply R|exact Hh1|exact W|]. by rewrite (rt_hands _ _ _ _ R).
Qed.
Lemma set_memberships_good : forall fuel s tpins st (t' : tid) s', good s (fun u => u ∈ tpins) -> t' ∈ tpins -> is_Some (s_trees s !! t') ->
  set_memberships fuel s tpins st t' = Ret (Some s') -> good s' (fun u => u ∈ tpins) /\ settled s s' t' /\
  forall x start, st = Some (Open x, start) -> (exists i k, s_hands s !! i = Some (HNode k x)) -> tree_of s' x = Some t'.
Proof.
  induction fuel as [|f IH]; intros s tpins st t' s' H Hin Ha; cbn [set_memberships]; destruct (link_dfs_next (s_nodes s) st) as [[ev st']| |] eqn:Ed; cbv beta iota zeta delta [mbind run_bind]; try discriminate.
  - destruct ev; [discriminate|]. intros [= <-]. split; [done|]. split; [by apply settled_refl|]. intros x start ->. exfalso. unfold link_dfs_next in Ed. case_decide; discriminate.
  - destruct ev as [e|].
    2:{ intros [= <-]. split; [done|]. split; [by apply settled_refl|]. intros x start ->. exfalso. unfold link_dfs_next in Ed. case_decide; discriminate. }
    set (held := ev_pin (option_map fst st')). destruct (match e with Open y => _ | Close _ => Ret (Some s) end) as [[s1|]| |] eqn:E1; try discriminate.
    assert (good s1 (fun u => u ∈ tpins) /\ settled s s1 t' /\ ((exists y, e = Open y /\ exists i k, s_hands s !! i = Some (HNode k y)) -> tree_of s1 (ev_val e) = Some t')) as (G1 & S1 & X1).
    { destruct e as [y|y].
      - destruct (set_tree_core_good _ _ _ _ _ _ H Hin Ha E1) as (A & B & C). split; [exact A|]. split; [exact B|]. intros (y' & [= <-] & Hy). by apply C.
      - injection E1 as <-. split; [done|]. split; [by apply settled_refl|]. by intros (y' & [=] & _). }
    destruct (release_all s1 held (ev_val e)) as [s2| |] eqn:E2; try discriminate. pose proof (release_all_swept _ _ _ _ E2) as W2.
    assert (is_Some (s_trees s2 !! t')) as Ha2. { rewrite (release_all_trees _ _ _ _ E2). apply S1. }
    pose proof (swept_settled _ _ _ (g_h _ _ G1) W2 Ha2) as S2. intros E3.
    destruct (IH s2 tpins st' t' s' (swept_good _ _ _ G1 W2) Hin Ha2 E3) as (G3 & S3 & _). split; [exact G3|]. pose proof (settled_trans _ _ _ _ S2 S3) as S23.
    split; [by eapply settled_trans|]. intros x start -> (i & k & Hi). unfold link_dfs_next in Ed. case_decide; [discriminate|]. injection Ed as <- _.
    apply (st_stay _ _ _ S23 i k); [by rewrite (st_hands _ _ _ S1)|]. apply X1. eauto.
Qed.
Lemma set_subtree_tree_good s tpins x (t' : tid) s' : good s (fun u => u ∈ t' :: tpins) -> is_Some (s_trees s !! t') -> (exists i k, s_hands s !! i = Some (HNode k x)) ->
  set_subtree_tree s tpins x t' = Ret (Some s') -> good s' (fun u => u ∈ tpins) /\ settled s s' t' /\ tree_of s' x = Some t'.
Proof.
  intros H Ha (i & k & Hi) E. destruct (set_memberships_good _ _ _ _ _ _ H (elem_of_list_here _ _) Ha E) as (G & St & X). specialize (X x x eq_refl ltac:(eauto)).
  split; [|by split]. destruct G as [A B C]. split; [exact A|exact B|]. intros u Hu. destruct (C u Hu) as [D|D]; [by left|]. apply elem_of_cons in D as [->|D]; [|by right].
  left. right. exists i, k, x. by rewrite (st_hands _ _ _ St).
Qed.
Lemma create_new_tree_good s tpins (x : nid) s' : good s (fun u => u ∈ tpins) -> x < s_fresh s -> (exists i k, s_hands s !! i = Some (HNode k x)) ->
  create_new_tree s tpins x = Ret s' -> good s' (fun u => u ∈ tpins) /\ evolves s s' /\ s_hands s' = s_hands s.
Proof.
  intros H Hx Hi E. unfold create_new_tree in E. set (s1 := with_fresh _ _) in E. sb E r E1. destruct r as [s2|]; [|discriminate]. injection E as <-.
  destruct (set_subtree_tree_good s1 tpins x (s_fresh s) s2) as (A & B & C).
  - assert (forall (u : tid), is_Some (s_trees s !! u) -> u < s_fresh s) as Hlt. { intros u Hu. by apply (f_trees _ (g_f _ _ H)) in Hu. } split.
    + unfold s1. simpl. apply hinv_new_tree.
      * apply H.
      * destruct (s_trees s !! s_fresh s) eqn:E; [|done]. assert (s_fresh s < s_fresh s); [|lia]. apply Hlt. eauto.
      * intros k i [_ Hi2]. apply (good_hand_lt _ _ _ _ H) in Hi2. destruct k; simpl in Hi2; lia.
      * intros y Hy. apply (f_memb _ (g_f _ _ H)) in Hy. lia.
    + destruct (g_f _ _ H) as [B1 B2 B3 B4]. split; simpl.
      * intros y Hy. apply B1 in Hy. lia.
      * intros u Hu. destruct (decide (u = s_fresh s)) as [->|]; [lia|]. rewrite lookup_insert_ne in Hu by done. apply B2 in Hu. lia.
      * intros i hd Hi2. apply B3 in Hi2. lia.
      * intros y u Hy. change (tree_of s y = Some u) in Hy. apply B4 in Hy. lia.
    + intros u. unfold s1. simpl. destruct (decide (u = s_fresh s)) as [->|]; [intros _; right; apply elem_of_list_here|]. rewrite lookup_insert_ne by done. intros Hu.
      destruct (g_k _ _ H u Hu) as [A|A]; [by left|right; by apply elem_of_list_further].
  - unfold s1. simpl. rewrite lookup_insert. eauto.
  - exact Hi.
  - exact E1.
  - split; [exact A|]. split; [|by rewrite (st_hands _ _ _ B)]. eapply evolves_trans; [|exact (st_ev _ _ _ B)]. split; simpl; [lia|done|].
    intros t Ht. rewrite lookup_insert_ne; [done|lia].
Qed.
End GenFacts4.
