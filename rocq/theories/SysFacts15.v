(** * SysFacts15: replacing a node by its children, moving to another tree. *)
From Verif Require Import Heap Edit System SysSpec CardFacts HeapFacts SpecFacts NavFacts NavFacts2 EditFacts EditFacts2 EditFacts3 EditFacts4 EditFacts5 IterSpec RoseFacts AdjFacts TravFacts TdFacts TdFacts2 SysFacts SysFacts2 SysFacts3 SysFacts4 SysFacts5 SysFacts6 SysFacts7 SysFacts8 SysFacts9 SysFacts10 SysFacts11 SysFacts12 SysFacts13 SysFacts14 Spec.

Section SysFacts15.
Context {T : Type}.
Implicit Types (h : heap T) (s : sys T) (hm : gmap nat handle) (K : forest).

Lemma mid_extE (s0 : sys T) K0 x ro t0 t' s K D E E' : mid s0 K0 x ro t0 t' s K D E -> (forall u, u ∈ E -> u ∈ E') -> mid s0 K0 x ro t0 t' s K D E'.
Proof.
  intros [M1 M2 M3 M4 M5 M6 M7 M8 M9 M10 M11 M12 M13 M14] H. split; try assumption.
  intros u Hu Hn. apply M12; [done|]. intros Hin. by apply Hn, H.
Qed.

Lemma drop_tpins s pins (t t' : tid) : t <> t' -> drop_tree_if_dead pins [] s t = drop_tree_if_dead pins [t'] s t.
Proof.
  intros Hne. unfold drop_tree_if_dead. destruct (s_trees s !! t); [|done].
  assert (tree_referenced s [] t = tree_referenced s [t'] t) as ->; [|done].
  apply eq_true_iff_eq. rewrite !tree_referenced_iff, elem_of_list_singleton, elem_of_nil. naive_solver.
Qed.

Lemma finish_replace s K x t0 : stray s K x t0 ->
  exists s3 s4 t' K', create_new_tree s [t0] x = Ret s3 /\ drop_tree_if_dead [] [] s3 t0 = Ret s4 /\ rehomed s K x t0 t' s4 K'.
Proof.
  intros S. destruct (shape_exists K x (p_wf _ _ _ (st_pinv _ _ _ _ S)) (proj1 (st_top _ _ _ _ S))) as [ro Hro].
  destruct (create_new_tree_ok _ _ _ _ [t0] ro S Hro) as (s1 & s3 & K3 & Es1 & E & B & M).
  set (t' := s_fresh s : tid) in *.
  apply (mid_extE _ _ _ _ _ _ _ _ _ _ [t0; t']) in M.
  2:{ intros u [->|[->|Hu]%elem_of_cons]%elem_of_cons; [right; by left|by left|by apply elem_of_nil in Hu]. }
  destruct (mid_drop s1 K x ro t0 t' B s3 K3 (rose_nodes ro) [t'] [] M) as (s4 & K4 & E4 & M4).
  - by left.
  - intros Hu%elem_of_list_singleton. by apply (b_ne _ _ _ _ _ B).
  - intros z Hz. by apply elem_of_nil in Hz.
  - exists s3, s4, t', K4. split; [done|]. split.
    + rewrite (drop_tpins s3 [] t0 t'); [exact E4|apply B].
    + exact (mid_rehomed s K x t0 ro s1 s4 K4 S Hro Es1 B M4).
Qed.

Lemma rehomed_transfer s s1 K x t0 t' s' K' : s_hands s1 = s_hands s -> (forall y, tree_of s1 y = tree_of s y) -> (forall y, payload s1 y = payload s y) ->
  (forall u, is_Some (s_trees s1 !! u) <-> is_Some (s_trees s !! u)) ->
  rehomed s1 K x t0 t' s' K' -> rehomed s K x t0 t' s' K'.
Proof.
  intros E1 E2 E3 E4 [[A1 A2 A3 A4 A5 A6 A7] B C D G1 G2]. split; [|exact B| |exact D|by rewrite <-E1|intros y; rewrite <-E2; apply G2].
  - split.
    + by rewrite <-E1.
    + exact A2.
    + intros y Hy Ha. by rewrite <-E2, A3.
    + intros y Hy. by rewrite <-E3, A4.
    + intros u Hu1 Hu2. rewrite <-E4. by apply A5.
    + exact A6.
    + destruct A7 as [A7|(B1 & B2 & L0 & B3 & B4)]; [by left|right]. split; [done|]. split; [done|]. exists L0. split; [|done].
      intros y. rewrite B3. by rewrite E2.
  - destruct (s_trees s !! t') eqn:E; [|done]. assert (is_Some (s_trees s1 !! t')) as [? ?] by (apply E4; eauto). congruence.
Qed.

Lemma splice_elem x cs ks (c : nid) : NoDup ks -> x ∈ ks -> (c ∈ splice x cs ks <-> c ∈ cs \/ (c ∈ ks /\ c <> x)).
Proof.
  intros Hnd Hx. induction ks as [|y l IH]; [by apply elem_of_nil in Hx|]. simpl.
  apply NoDup_cons in Hnd as [Hy Hnd]. destruct (decide (y = x)) as [->|Hne].
  - rewrite elem_of_app, !elem_of_cons. split; [intros [?|Hc]; [by left|right]|intros [?|[[->|Hc] Hcx]]; auto; done].
    split; [by right|]. by intros ->.
  - apply elem_of_cons in Hx as [->|Hx]; [done|]. rewrite !elem_of_cons, (IH Hnd Hx). split.
    + intros [->|[?|[Hc1 Hc2]]]; auto.
    + intros [?|[[->|Hc1] Hc2]]; auto.
Qed.

(** ** Replacing *)
Lemma replace_child_step s K i k x t0 p ks cs : inv s K -> s_hands s !! i = Some (HNode k x) -> tree_of s x = Some t0 -> thawed s (s_hands s) t0 ->
  K !! p = Some ks -> x ∈ ks -> K !! x = Some cs -> (head ks = Some x \/ last ks <> Some x \/ cs <> []) ->
  exists s' t' K', replace_node s x = Ret (s', HOk tt) /\ rehomed s (<[x := []]> (<[p := splice x cs ks]> K)) x t0 t' s' K'.
Proof.
  intros H Hi Ht Hth Hp Hx Hcs Hok. pose proof (i_s _ _ H) as Hs. pose proof (s_wf _ _ Hs) as Hw.
  destruct (replace_child_ok (s_nodes s) K p ks x cs (s_rep _ _ Hs) Hw Hp Hx Hcs Hok) as (h' & E & Hr & Hw' & Htop & M).
  set (K1 := <[x := []]> (<[p := splice x cs ks]> K)) in *.
  assert (child_of K p x) as Hpx by (by exists ks).
  assert (p <> x) as Hpne. { intros ->. apply (below_antisym_child _ _ _ Hw Hpx). constructor. }
  assert (forall q c, child_of K1 q c <-> (q = p /\ child_of K x c) \/ (q <> x /\ c <> x /\ child_of K q c)) as Hch.
  { intros q c. unfold K1. rewrite !child_of_insert. rewrite (splice_elem x cs ks c (wf_nodup _ Hw _ _ Hp) Hx). split.
    - intros [[_ Hc]|[Hq [[-> [Hc|[Hc1 Hc2]]]|[Hq2 Hc]]]]; [by apply elem_of_nil in Hc|left|right|right].
      + split; [done|by exists cs].
      + split; [done|]. split; [done|by exists ks].
      + split; [done|]. split; [|done]. intros ->. apply Hq2. by apply (wf_uniq _ Hw q p x).
    - intros [[-> Hc]|(Hq & Hc1 & Hc)].
      + right. split; [done|]. left. split; [done|]. left. destruct Hc as (l & Hl & Hc). congruence.
      + right. split; [done|]. destruct (decide (q = p)) as [->|]; [left|by right]. split; [done|]. right. split; [|done].
        destruct Hc as (l & Hl & Hc). congruence. }
  assert (forall y, is_Some (K1 !! y) <-> is_Some (K !! y)) as Hdom.
  { intros y. unfold K1. rewrite !is_Some_insert. split; [intros [->|[->|?]]; [rewrite Hcs; eauto|rewrite Hp; eauto|done]|auto]. }
  assert (forall t tr, s_trees s !! t = Some tr -> t_root tr <> x) as Hroot.
  { intros t tr Htr E1. destruct (s_root _ _ Hs _ _ Htr) as [[_ A] _]. apply (A p). by rewrite E1. }
  assert (stray (with_nodes s h') K1 x t0) as S.
  { destruct (handle_tree s K i k x H Hi) as (t1 & tr & A1 & A2 & _). assert (t1 = t0) as -> by congruence. split.
    - eapply pinv_relink; [apply sinv_pinv; exact Hs|done|done|done|..].
      + intros q c Hc. apply Hch in Hc as [[-> Hc]|(_ & _ & Hc)]; [|by apply (s_child _ _ Hs)].
        rewrite (s_child _ _ Hs _ _ Hc). by apply (s_child _ _ Hs).
      + intros y [Hy1 Hy2]. destruct (decide (x = y)) as [|Hne]; [by left|right]. split; [|by intros []].
        split; [by apply Hdom|]. intros q Hq. destruct (decide (q = x)) as [->|Hqx].
        * apply (Hy2 p). apply Hch. by left.
        * apply (Hy2 q). apply Hch. right. done.
      + intros t tr1 Htr. destruct (s_root _ _ Hs _ _ Htr) as [[B1 B2] _]. split; [by apply Hdom|].
        intros q Hq. apply Hch in Hq as [[-> Hc]|(_ & _ & Hc)]; [by apply (B2 x)|by apply (B2 q)].
    - done.
    - by rewrite relink_tree_of.
    - simpl. rewrite A2. eauto.
    - exact Hroot.
    - apply hinv_relink; [apply H|done].
    - intros u Hu1. rewrite held_relink by done. by apply (i_held _ _ H).
    - apply finv_relink; [apply H|done].
    - destruct Hth as [B1 B2]. split; [exact B1|]. intros y. unfold node_holder. rewrite relink_tree_of by done. apply B2.
    - simpl. eauto. }
  destruct (finish_replace _ _ _ _ S) as (s3 & s4 & t' & K' & E3 & E4 & R).
  exists s4, t', K'. split.
  - unfold replace_node. destruct (handle_tree s K i k x H Hi) as (t1 & tr & A1 & A2 & _ & A4 & _). assert (t1 = t0) as -> by congruence.
    rewrite A4. simpl. rewrite E. simpl. rewrite E3. simpl. rewrite E4. done.
  - eapply rehomed_relink; [exact M|exact R].
Qed.

Lemma replace_root_step s K i k x t0 c : inv s K -> s_hands s !! i = Some (HNode k x) -> tree_of s x = Some t0 -> thawed s (s_hands s) t0 ->
  is_top K x -> K !! x = Some [c] ->
  exists s' t' K', replace_node s x = Ret (s', HOk tt) /\ rehomed s (<[x := []]> K) x t0 t' s' K' /\
    (is_Some (s_trees s' !! t0) -> t_root <$> s_trees s' !! t0 = Some c).
Proof.
  intros H Hi Ht Hth Hxt Hc. pose proof (i_s _ _ H) as Hs. pose proof (s_wf _ _ Hs) as Hw.
  destruct (replace_root_ok (s_nodes s) K x c (s_rep _ _ Hs) Hw Hxt Hc) as (h' & E & Hr & Hw' & Htopc & Htop & M).
  set (K1 := <[x := []]> K) in *.
  assert (child_of K x c) as Hxc by (exists [c]; split; [done|by left]).
  assert (c <> x) as Hcx. { intros ->. by apply (proj2 Hxt x). }
  assert (forall q y, child_of K1 q y <-> q <> x /\ child_of K q y) as Hch.
  { intros q y. unfold K1. rewrite child_of_insert. split; [intros [[_ Hy]|[? ?]]; [by apply elem_of_nil in Hy|done]|intros [? ?]; by right]. }
  assert (forall y, is_Some (K1 !! y) <-> is_Some (K !! y)) as Hdom.
  { intros y. unfold K1. rewrite !is_Some_insert. split; [intros [->|?]; [rewrite Hc; eauto|done]|auto]. }
  destruct (s_top _ _ Hs x Hxt) as (t1 & tr0 & A1 & A2 & A3). assert (t1 = t0) as -> by congruence.
  set (s1 := put_root (with_nodes s h') t0 c).
  assert (s_trees s1 !! t0 = Some (mkTree c (t_cnt tr0))) as Hst. { unfold s1. rewrite put_root_lookup, decide_True by done. simpl. by rewrite A2. }
  assert (forall u, u <> t0 -> s_trees s1 !! u = s_trees s !! u) as Hso. { intros u Hu. unfold s1. by rewrite put_root_lookup, decide_False. }
  assert (forall u, is_Some (s_trees s1 !! u) <-> is_Some (s_trees s !! u)) as Hal.
  { intros u. destruct (decide (u = t0)) as [->|]; [rewrite Hst, A2; split; eauto|by rewrite Hso]. }
  assert (forall y, tree_of s1 y = tree_of s y) as Htree. { intros y. change (tree_of (with_nodes s h') y = tree_of s y). by apply relink_tree_of. }
  assert (tree_of s c = Some t0) as Htc. { rewrite <-Ht. by apply (s_child _ _ Hs). }
  assert (stray s1 K1 x t0) as S.
  { split.
    - split.
      + done.
      + done.
      + intros q y Hy. rewrite !Htree. apply Hch in Hy as [_ Hy]. by apply (s_child _ _ Hs).
      + intros y Hy. destruct (decide (x = y)) as [|Hne]; [by left|right]. rewrite Htree. destruct (decide (y = c)) as [->|Hyc].
        * exists t0. eexists. split; [done|]. split; [exact Hst|done].
        * destruct Hy as [Hy1 Hy2]. destruct (s_top _ _ Hs y) as (u & tr & B1 & B2 & B3).
          { split; [by apply Hdom|]. intros q Hq. destruct (decide (q = x)) as [->|Hqx].
            - destruct Hq as (l & Hl & Hq). rewrite Hc in Hl. injection Hl as <-. apply elem_of_list_singleton in Hq. done.
            - apply (Hy2 q). by apply Hch. }
          exists u, tr. split; [done|]. split; [|done]. rewrite Hso; [done|]. intros ->. assert (tr = tr0) as -> by congruence. congruence.
      + intros u tr Hu. rewrite Htree. destruct (decide (u = t0)) as [->|Hne].
        * rewrite Hst in Hu. injection Hu as <-. done.
        * rewrite Hso in Hu by done. destruct (s_root _ _ Hs _ _ Hu) as [[B1 B2] B3]. split; [|done].
          split; [by apply Hdom|]. intros q Hq. apply Hch in Hq as [_ Hq]. by apply (B2 q).
    - done.
    - by rewrite Htree.
    - rewrite Hst. eauto.
    - intros u tr Hu. destruct (decide (u = t0)) as [->|Hne].
      + rewrite Hst in Hu. injection Hu as <-. done.
      + rewrite Hso in Hu by done. intros E1. destruct (s_root _ _ Hs _ _ Hu) as [_ B3]. congruence.
    - apply hinv_put_root. apply hinv_relink; [apply H|done].
    - intros u Hu. apply Hal in Hu. change (tree_held (with_nodes s h') (s_hands s) u). rewrite held_relink by done. by apply (i_held _ _ H).
    - destruct (finv_relink s h' (i_f _ _ H) M) as [B1 B2 B3 B4]. split; [exact B1| |exact B3|exact B4]. intros u Hu. apply B2. by apply Hal.
    - destruct Hth as [B1 B2]. split; [exact B1|]. intros y. unfold node_holder. rewrite Htree. apply B2.
    - simpl. eauto. }
  destruct (finish_replace _ _ _ _ S) as (s3 & s4 & t' & K' & E3 & E4 & R).
  exists s4, t', K'. split; [|split].
  - unfold replace_node. destruct (handle_tree s K i k x H Hi) as (t1 & tr & B1 & B2 & _ & B4 & _). assert (t1 = t0) as -> by congruence.
    rewrite B4. simpl. rewrite E. simpl. fold s1. rewrite E3. simpl. rewrite E4. done.
  - eapply (rehomed_transfer s s1); [done|exact Htree| |exact Hal|exact R].
    intros y. change (payload (with_nodes s h') y = payload s y). by apply relink_payload.
  - intros [tr Htr]. pose proof (i_s _ _ (rh_inv _ _ _ _ _ _ _ R)) as Hs'. destruct (s_root _ _ Hs' _ _ Htr) as [B1 B2].
    rewrite Htr. simpl. f_equal. assert (K' = K1) as ->.
    { destruct (ca_fate _ _ _ _ _ _ _ (rh_carried _ _ _ _ _ _ _ R)) as [[_ ?]|(E0 & _)]; [done|congruence]. }
    destruct (s_top _ _ Hs' c Htopc) as (u & tr1 & C1 & C2 & C3).
    assert (tree_of s4 c = Some t0) as C4.
    { rewrite (ca_out _ _ _ _ _ _ _ (rh_carried _ _ _ _ _ _ _ R)); [by rewrite Htree| |].
      - intros Hb. assert (x = c) by (by eapply below_top). done.
      - apply (inv_alive s4 K1 c (rh_inv _ _ _ _ _ _ _ R)). apply Htopc. }
    assert (u = t0) as -> by congruence. congruence.
Qed.

Lemma replace_err s K i k x t0 ks : inv s K -> s_hands s !! i = Some (HNode k x) -> tree_of s x = Some t0 ->
  is_top K x -> K !! x = Some ks -> length ks <> 1 ->
  replace_node s x = Ret (s, HErr (if decide (ks = []) then EmptyTree else SiblingsWithoutParent)).
Proof.
  intros H Hi Ht Hx Hks Hl. unfold replace_node. destruct (handle_tree s K i k x H Hi) as (t1 & tr & A1 & A2 & _ & A4 & _).
  rewrite A4. simpl. rewrite (replace_root_err _ _ _ _ (s_rep _ _ (i_s _ _ H)) (s_wf _ _ (i_s _ _ H)) Hx Hks Hl). simpl. by destruct s.
Qed.

(** ** Moving below or beside a node of another tree *)
(** Once [x] is cut off ([h'] stores the forest [K1] without it). *)
(** The first half of a move to another tree: the node is cut off and its subtree gets the
    new membership. *)
Lemma move_carry s K i k x t0 j ky y t' K1 h' : inv s K -> s_hands s !! i = Some (HNode k x) -> tree_of s x = Some t0 -> thawed s (s_hands s) t0 ->
  s_hands s !! j = Some (HNode ky y) -> tree_of s y = Some t' -> thawed s (s_hands s) t' -> t0 <> t' ->
  unlinked K x K1 -> rep h' K1 -> same_meta (s_nodes s) h' ->
  exists ro s2 K2, shape K1 x ro /\ set_subtree_tree (with_nodes s h') [] x t' = Ret (Some s2) /\
    before_loop (with_nodes s h') K1 x t0 t' /\ mid (with_nodes s h') K1 x ro t0 t' s2 K2 (rose_nodes ro) [t'] /\
    carried s K1 x t0 t' s2 K2 /\ stray (with_nodes s h') K1 x t0.
Proof.
  intros H Hi Ht Hth Hj Hty Hth' Hne Hu Hr M. pose proof (i_s _ _ H) as Hs. pose proof (s_wf _ _ Hs) as Hw.
  destruct (unlinked_wf _ _ _ Hw Hu) as [Hw1 Htop].
  pose proof (unlink_stray s K i k x t0 h' K1 H Hi Ht Hth Hu Hr Hw1 M) as S.
  set (s0 := with_nodes s h') in *.
  destruct (shape_exists K1 x Hw1 (proj1 Htop)) as [ro Hro].
  pose proof (st_pinv _ _ _ _ S) as P.
  assert (is_Some (s_trees s !! t')) as Hta. { destruct (handle_tree s K j ky y H Hj) as (t1 & tr & A1 & A2 & _). assert (t1 = t') as -> by congruence. rewrite A2. eauto. }
  assert (before_loop s0 K1 x t0 t') as B.
  { split.
    - apply P.
    - intros z Hz. destruct (p_top _ _ _ P z Hz) as [->|?]; [by left|by right].
    - intros u tr Hu1. right. split; [by eapply S|]. by apply P.
    - done.
    - apply S. }
  assert (forall z, tree_of s0 z = tree_of s z) as Htree. { intros z. by apply relink_tree_of. }
  assert (mid s0 K1 x ro t0 t' s0 K1 [] [t']) as M0.
  { split.
    - done.
    - done.
    - done.
    - done.
    - intros z Hz. rewrite decide_False by apply not_elem_of_nil. apply (shape_nodes _ _ _ _ Hro) in Hz.
      rewrite <-(st_tree _ _ _ _ S). by apply (below_tree _ _ _ _ _ P).
    - done.
    - left. split; [done|]. split; [intros z; done|done].
    - apply S.
    - apply S.
    - destruct Hth' as [B1 B2]. split; [exact B1|]. intros z. unfold node_holder. rewrite Htree. apply B2.
    - done.
    - intros u Hu1 _. by apply (st_held _ _ _ _ S).
    - done.
    - done. }
  destruct (set_subtree_ok s0 K1 x ro t0 t' B [] M0) as (s2 & K2 & E2 & M2).
  assert (forall z, z ∈ rose_nodes ro <-> below K1 x z) as HL. { intros z. by apply (shape_nodes K1 x). }
  assert (carried s K1 x t0 t' s2 K2) as C.
  { apply (carried_relink s h'); [done|]. split.
    - apply M2.
    - intros z Hz. apply HL in Hz. rewrite (m_in _ _ _ _ _ _ _ _ _ _ M2 z Hz). by rewrite decide_True.
    - intros z Hz Ha. apply (m_out _ _ _ _ _ _ _ _ _ _ M2); [by rewrite HL|done].
    - intros z Hz. by eapply (mid_payload s0 K1 x ro t0 t').
    - intros u Hu1 Hu2. by apply (mid_trees s0 K1 x ro t0 t' _ _ _ _ u M2).
    - apply M2.
    - eapply (mid_fate s0 K1 x ro t0 t' B Hw1 Htop); [exact M2|exact Hr|apply S]. }
  exists ro, s2, K2. split; [exact Hro|]. split; [exact E2|]. split; [exact B|]. split; [exact M2|]. split; [exact C|exact S].
Qed.

Lemma move_other_core s K i k x t0 j ky y t' ad K1 h' : inv s K -> s_hands s !! i = Some (HNode k x) -> tree_of s x = Some t0 -> thawed s (s_hands s) t0 ->
  s_hands s !! j = Some (HNode ky y) -> tree_of s y = Some t' -> thawed s (s_hands s) t' -> t0 <> t' ->
  unlinked K x K1 -> rep h' K1 -> same_meta (s_nodes s) h' -> adoptable K ad y ->
  exists s2 K2 K3 h3, set_subtree_tree (with_nodes s h') [] x t' = Ret (Some s2) /\
    insert_orphan (s_nodes s2) x true (dest_of ad y) = Ret (h3, HOk tt) /\ carried s K1 x t0 t' (with_nodes s2 h3) K2 /\
    attached K2 x (dest_of ad y) K3 /\ inv (with_nodes s2 h3) K3 /\
    rep (s_nodes s2) K2 /\ wf K2 /\ is_top K2 x /\ (forall q c, dest_parent K2 (dest_of ad y) q -> child_of K2 q c -> tree_of s2 c = Some t') /\
    (forall z, ~ below K1 x z -> is_Some (K2 !! z) -> tree_of s2 z = tree_of s z).
Proof.
  intros H Hi Ht Hth Hj Hty Hth' Hne Hu Hr M Had. pose proof (i_s _ _ H) as Hs. pose proof (s_wf _ _ Hs) as Hw.
  destruct (unlinked_wf _ _ _ Hw Hu) as [Hw1 Htop].
  destruct (move_carry s K i k x t0 j ky y t' K1 h' H Hi Ht Hth Hj Hty Hth' Hne Hu Hr M) as (ro & s2 & K2 & Hro & E2 & B & M2 & C & S).
  set (s0 := with_nodes s h') in *.
  pose proof (st_pinv _ _ _ _ S) as P.
  assert (forall z, tree_of s0 z = tree_of s z) as Htree. { intros z. by apply relink_tree_of. }
  pose proof (mid_pinv s0 K1 x ro t0 t' B Hw1 Htop Hro s2 K2 [t'] M2) as P2.
  assert (forall z, z ∈ rose_nodes ro <-> below K1 x z) as HL. { intros z. by apply (shape_nodes K1 x). }
  assert (forall z, z ∈ rose_nodes ro <-> below K2 x z) as HL2. { intros z. apply (shape_nodes _ _ _ _ (m_shape _ _ _ _ _ _ _ _ _ _ M2)). }
  destruct (unlinked_child K x K1 Hw Hu) as (Hch1 & Hdom1 & q0 & Hq0).
  assert (is_Some (K1 !! y)) as HyK1. { apply Hdom1. apply (inv_alive s K y H). by eapply handle_alive. }
  assert (~ below K1 x y) as Hnb. { intros Hb. apply (below_tree _ _ _ _ _ P) in Hb. rewrite !Htree in Hb. congruence. }
  (* survivors of the old tree's end *)
  assert (forall z, is_Some (K1 !! z) -> tree_of s z <> Some t0 \/ below K1 x z -> is_Some (K2 !! z)) as Hsurv.
  { intros z Hz Hor. destruct (ca_fate _ _ _ _ _ _ _ C) as [[_ ->]|(_ & _ & L0 & HL0 & ->)]; [done|].
    rewrite prune_lookup, decide_False; [done|]. intros Hin. apply HL0 in Hin as (_ & ? & ?). by destruct Hor. }
  assert (forall p c, child_of K1 p c -> tree_of s p <> Some t0 -> child_of K2 p c) as Hsurvc.
  { intros p c Hpc Hp. destruct (ca_fate _ _ _ _ _ _ _ C) as [[_ ->]|(_ & _ & L0 & HL0 & ->)]; [done|].
    apply prune_child. split; [|done]. intros Hin. apply HL0 in Hin as (_ & _ & ?). done. }
  assert (is_Some (K2 !! y)) as HyK2. { apply Hsurv; [done|]. left. congruence. }
  assert (adoptable K2 ad y) as Had2.
  { destruct ad; simpl in *; try done; destruct Had as [p Hp]; exists p; (apply Hsurvc; [apply Hch1; split; [done|intros ->; congruence]|]);
      rewrite <-(s_child _ _ Hs _ _ Hp); congruence. }
  destruct (adoptable_attached K2 ad y x HyK2 Had2) as [K3 Hatt].
  destruct (attached_child K2 x _ K3 (m_wf _ _ _ _ _ _ _ _ _ _ M2) Hatt) as (p & Hp & HpK & Hch & Hdom).
  assert (~ below K2 x y) as Hnb2 by (by rewrite <-HL2, HL).
  assert (~ below K2 x p) as Hnbp.
  { intros Hb. destruct ad; simpl in Hp; subst; try done; apply Hnb2; by econstructor. }
  destruct (insert_orphan_ok (s_nodes s2) K2 x (dest_of ad y) K3 p true (m_rep _ _ _ _ _ _ _ _ _ _ M2) (m_wf _ _ _ _ _ _ _ _ _ _ M2) (m_top _ _ _ _ _ _ _ _ _ _ M2) Hatt Hp Hnbp)
    as (h3 & E3 & Hr3 & Hw3 & M3).
  assert (is_Some (s_nodes s2 !! y)) as Hya2. { by apply (rep_dom _ _ (m_rep _ _ _ _ _ _ _ _ _ _ M2)). }
  assert (tree_of s2 y = Some t') as Hty2. { rewrite (ca_out _ _ _ _ _ _ _ C y Hnb Hya2). done. }
  assert (tree_of s2 x = Some t') as Htx2. { apply (ca_in _ _ _ _ _ _ _ C). constructor. }
  assert (forall q, dest_parent K2 (dest_of ad y) q -> tree_of s2 q = tree_of s2 x) as Hd.
  { intros q Hq. assert (q = p) as -> by (eapply dest_parent_det; [apply M2|done|done]). rewrite Htx2.
    destruct ad; simpl in Hp; subst; try done; rewrite <-(p_child _ _ _ P2 _ _ Hp); done. }
  assert (forall t tr, s_trees s2 !! t = Some tr -> t_root tr <> x) as Hroot2.
  { intros t tr Htr E1. pose proof (p_root _ _ _ P2 _ _ Htr) as [_ Hm]. rewrite E1 in Hm. assert (t = t') as -> by congruence.
    assert (t_root <$> s_trees s2 !! t' = t_root <$> s_trees s0 !! t') as E4.
    { destruct (m_kept _ _ _ _ _ _ _ _ _ _ M2) as [(_ & _ & A3)|(q & L0 & A1 & A2 & _ & A4 & A5 & A6 & A7)]; [apply A3|by apply A7]. }
    rewrite Htr in E4. destruct (s_trees s0 !! t') as [tr'|] eqn:E5; [|done]. injection E4 as E4.
    apply (st_root _ _ _ _ S _ _ E5). congruence. }
  pose proof (attach_pinv s2 K2 x _ K3 h3 P2 (m_top _ _ _ _ _ _ _ _ _ _ M2) Hroot2 Hatt Hd Hr3 Hw3 M3) as Hs3.
  exists s2, K2, K3, h3. split; [exact E2|]. split; [exact E3|]. split; [|split; [|split; [|split; [|split; [|split; [|split]]]]]].
  - destruct C as [C1 C2 C3 C4 C5 C6 C7]. split; [exact C1| | | |exact C5|exact C6|].
    + intros z Hz. rewrite relink_tree_of by done. by apply C2.
    + intros z Hz Ha. rewrite relink_tree_of by done. apply C3; [done|]. by apply (relink_alive _ _ z M3).
    + intros z Ha. rewrite relink_payload by done. apply C4. by apply (relink_alive _ _ z M3).
    + destruct C7 as [C7|(D1 & D2 & D3)]; [by left|right]. split; [done|]. split; [|done].
      change (s_hands (with_nodes s2 h3)) with (s_hands s2). by rewrite held_relink.
  - done.
  - split.
    + exact Hs3.
    + apply hinv_relink; [apply M2|done].
    + intros u Hu1. change (tree_held (with_nodes s2 h3) (s_hands s2) u). rewrite held_relink by done.
      destruct (decide (u = t')) as [->|Hne1].
      * right. exists j, ky, y. rewrite (m_hands _ _ _ _ _ _ _ _ _ _ M2). done.
      * apply (m_held _ _ _ _ _ _ _ _ _ _ M2); [done|]. by intros ?%elem_of_list_singleton.
    + apply finv_relink; [|done]. eapply (mid_finv s0 K1 x ro t0 t'); [exact M2|apply S| |].
      * apply (f_trees _ (st_f _ _ _ _ S)). destruct (handle_tree s K j ky y H Hj) as (t1 & tr & A1 & A2 & _). assert (t1 = t') as -> by congruence. unfold s0. simpl. rewrite A2. eauto.
      * apply (f_trees _ (st_f _ _ _ _ S)). apply S.
  - apply M2.
  - apply M2.
  - apply M2.
  - intros q c Hq Hqc. rewrite (p_child _ _ _ P2 _ _ Hqc), (Hd q Hq). exact Htx2.
  - intros z Hz Ha. rewrite <-(Htree z). apply (m_out _ _ _ _ _ _ _ _ _ _ M2); [by rewrite HL|]. by apply (rep_dom _ _ (m_rep _ _ _ _ _ _ _ _ _ _ M2)).
Qed.

Lemma move_other_ok s K i k x t0 j ky y t' ad K1 : inv s K -> s_hands s !! i = Some (HNode k x) -> tree_of s x = Some t0 -> thawed s (s_hands s) t0 ->
  s_hands s !! j = Some (HNode ky y) -> tree_of s y = Some t' -> thawed s (s_hands s) t' -> t0 <> t' ->
  unlinked K x K1 -> ~ last_not_first K x -> adoptable K ad y ->
  exists s' K2 K3, move_to_another_tree s x (dest_of ad y) t' = Ret (s', HOk tt) /\ carried s K1 x t0 t' s' K2 /\
    attached K2 x (dest_of ad y) K3 /\ inv s' K3.
Proof.
  intros H Hi Ht Hth Hj Hty Hth' Hne Hu Hl Had. pose proof (i_s _ _ H) as Hs. pose proof (s_wf _ _ Hs) as Hw.
  destruct (unlink_any (s_nodes s) K x K1 (s_rep _ _ Hs) Hw Hu Hl) as (h' & E & Hr & Hw1 & Htop & M).
  destruct (move_other_core s K i k x t0 j ky y t' ad K1 h' H Hi Ht Hth Hj Hty Hth' Hne Hu Hr M Had) as (s2 & K2 & K3 & h3 & E2 & E3 & C & A & I & _).
  exists (with_nodes s2 h3), K2, K3. split; [|done]. unfold move_to_another_tree. rewrite E. cbn [mbind run_bind]. rewrite E2. cbn [mbind run_bind]. by rewrite E3.
Qed.

End SysFacts15.
