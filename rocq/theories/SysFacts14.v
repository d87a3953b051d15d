(** * SysFacts14: detaching, replacing, moving to another tree. *)
From Verif Require Import Heap Edit System SysSpec CardFacts HeapFacts SpecFacts NavFacts NavFacts2 EditFacts EditFacts2 EditFacts3 EditFacts4 EditFacts5 IterSpec RoseFacts AdjFacts TravFacts TdFacts TdFacts2 SysFacts SysFacts2 SysFacts3 SysFacts4 SysFacts5 SysFacts6 SysFacts7 SysFacts8 SysFacts9 SysFacts10 SysFacts11 SysFacts12 SysFacts13 Spec.

Section SysFacts14.
Context {T : Type}.
Implicit Types (h : heap T) (s : sys T) (hm : gmap nat handle) (K : forest).

(** The subtree of [x], a top of [K] that was in the tree [t0], now belongs to
    [t']; data and all other memberships are untouched; the rest of [t0] is freed
    when nothing holds it any more. *)
Record carried s K (x : nid) (t0 t' : tid) s' K' : Prop := {
  ca_hands : s_hands s' = s_hands s;
  ca_in : forall y, below K x y -> tree_of s' y = Some t';
  ca_out : forall y, ~ below K x y -> is_Some (s_nodes s' !! y) -> tree_of s' y = tree_of s y;
  ca_payload : forall y, is_Some (s_nodes s' !! y) -> payload s' y = payload s y;
  ca_trees : forall u, u <> t0 -> u <> t' -> (is_Some (s_trees s' !! u) <-> is_Some (s_trees s !! u));
  ca_dest : is_Some (s_trees s' !! t');
  ca_fate : old_tree_fate s K x t0 s' K';
}.

Lemma carried_relink s h K x t0 t' s' K' : same_meta (s_nodes s) h -> carried (with_nodes s h) K x t0 t' s' K' -> carried s K x t0 t' s' K'.
Proof.
  intros M [A1 A2 A3 A4 A5 A6 A7]. split; [exact A1|exact A2| | |exact A5|exact A6|].
  - intros y Hy Ha. rewrite (A3 y Hy Ha). by apply relink_tree_of.
  - intros y Hy. rewrite (A4 y Hy). by apply relink_payload.
  - destruct A7 as [A7|(B1 & B2 & L0 & B3 & B4)]; [by left|right]. split; [done|]. split; [done|]. exists L0. split; [|done].
    intros y. rewrite B3. by rewrite relink_tree_of.
Qed.

(** A subtree that has been cut out but not yet given a tree. *)
Record stray s K (x : nid) (t0 : tid) : Prop := {
  st_pinv : pinv s K (eq x);
  st_top : is_top K x;
  st_tree : tree_of s x = Some t0;
  st_alive : is_Some (s_trees s !! t0);
  st_root : forall t tr, s_trees s !! t = Some tr -> t_root tr <> x;
  st_hinv : hinv s (s_hands s);
  st_held : forall u, is_Some (s_trees s !! u) -> tree_held s (s_hands s) u;
  st_f : finv s;
  st_thaw : thawed s (s_hands s) t0;
  st_hand : exists i k, s_hands s !! i = Some (HNode k x);
}.

Lemma hinv_new_tree s hm (t' : tid) x : hinv s hm -> s_trees s !! t' = None -> (forall k i, ~ token_holder hm k t' i) -> (forall y, tree_of s y <> Some t') ->
  forall f, hinv (with_fresh (with_trees s (<[t' := mkTree x 0]> (s_trees s))) f) hm.
Proof.
  intros [A B C D E] Hn Htok Hmem f. set (s1 := with_fresh _ f).
  assert (forall u, is_Some (s_trees s !! u) -> is_Some (s_trees s1 !! u)) as Hal.
  { intros u Hu. unfold s1. simpl. destruct (decide (u = t')) as [->|]; [rewrite lookup_insert; eauto|by rewrite lookup_insert_ne]. }
  split.
  - exact A.
  - intros y u rc lk Hy. destruct (B _ _ _ _ Hy) as (B1 & B2). split; [by apply Hal|exact B2].
  - exact C.
  - intros i u Hi. apply Hal. by eapply D.
  - intros u tr. unfold s1. simpl. destruct (decide (u = t')) as [->|Hne].
    + rewrite lookup_insert. intros [= <-].
      assert (forall k, holders s1 hm k t' 0) as X0.
      { intros k. exists 0, 0. split; [|split; [|done]]; apply card_none; [apply Htok|]. intros y (_ & Hy & _). by apply (Hmem y). }
      exists 0, 0. split; [apply X0|]. split; [apply X0|]. split; [done|by left].
    + rewrite lookup_insert_ne by done. intros Hu. exact (E u tr Hu).
Qed.

Lemma create_new_tree_ok s K x t0 tp ro : stray s K x t0 -> shape K x ro ->
  exists s1 s' K', s1 = with_fresh (with_trees s (<[s_fresh s := mkTree x 0]> (s_trees s))) (S (s_fresh s)) /\
    create_new_tree s tp x = Ret s' /\ before_loop s1 K x t0 (s_fresh s) /\
    mid s1 K x ro t0 (s_fresh s) s' K' (rose_nodes ro) (s_fresh s :: tp).
Proof.
  intros S Hsh. set (t' := s_fresh s : tid). set (s1 := with_fresh (with_trees s (<[t' := mkTree x 0]> (s_trees s))) (Datatypes.S t')).
  pose proof (st_f _ _ _ _ S) as [F1 F2 F3 F4].
  assert (s_trees s !! t' = None) as Hn. { destruct (s_trees s !! t') eqn:E; [|done]. assert (t' < s_fresh s); [|unfold t' in *; lia]. apply F2. eauto. }
  assert (forall k i, ~ token_holder (s_hands s) k t' i) as Htok. { intros k i [_ Hi]. apply F3 in Hi as [_ Hi]. destruct k; simpl in Hi; unfold t' in Hi; lia. }
  assert (forall y, tree_of s y <> Some t') as Hmem. { intros y Hy. apply F4 in Hy. unfold t' in Hy. lia. }
  assert (t0 <> t') as Hne. { intros ->. by apply (Hmem x), S. }
  assert (forall u, u <> t' -> s_trees s1 !! u = s_trees s !! u) as Hto. { intros u Hu. simpl. by rewrite lookup_insert_ne. }
  assert (s_trees s1 !! t' = Some (mkTree x 0)) as Htn. { simpl. by rewrite lookup_insert. }
  assert (forall y, tree_of s1 y = tree_of s y) as Htree by done.
  pose proof (st_pinv _ _ _ _ S) as P.
  assert (before_loop s1 K x t0 t') as B.
  { split.
    - intros p c Hc. rewrite !Htree. by apply P.
    - intros y Hy. destruct (p_top _ _ _ P y Hy) as [->|(u & tr & A1 & A2 & A3)]; [by left|right]. exists u, tr. rewrite Htree, Hto; [done|].
      intros ->. congruence.
    - intros u tr Hu. destruct (decide (u = t')) as [->|Hu1].
      + rewrite Htn in Hu. injection Hu as <-. by left.
      + right. rewrite Hto in Hu by done. split; [by eapply S|]. rewrite Htree. by apply P.
    - done.
    - apply S. }
  assert (mid s1 K x ro t0 t' s1 K [] (t' :: tp)) as M.
  { split.
    - apply P.
    - apply P.
    - apply S.
    - done.
    - intros y Hy. rewrite decide_False by apply not_elem_of_nil. rewrite Htree. apply (shape_nodes _ _ _ _ Hsh) in Hy.
      rewrite <-(st_tree _ _ _ _ S). by apply (below_tree _ _ _ _ _ P).
    - done.
    - left. split; [done|]. split; [intros y; done|done].
    - simpl. apply hinv_new_tree; [apply S|done|done|done].
    - apply S.
    - split; [apply Htok|]. intros y (_ & Hy & _). by apply (Hmem y).
    - rewrite Htn. eauto.
    - intros u Hu Hnot. assert (u <> t') by (intros ->; apply Hnot; by left). rewrite Hto in Hu by done. by apply (st_held _ _ _ _ S).
    - done.
    - done. }
  destruct (set_subtree_ok s1 K x ro t0 t' B tp M) as (s' & K' & E & M').
  exists s1, s', K'. split; [done|]. split; [|split; [exact B|exact M']].
  transitivity (r ← set_subtree_tree s1 tp x t'; match r with Some s2 => Ret s2 | None => Panic end); [done|]. by rewrite E.
Qed.

(** [x] has become the root of a new tree. *)
Record rehomed s K (x : nid) (t0 t' : tid) s' K' : Prop := {
  rh_carried : carried s K x t0 t' s' K';
  rh_inv : inv s' K';
  rh_new : s_trees s !! t' = None;
  rh_root : t_root <$> s_trees s' !! t' = Some x;
  rh_unm : forall j hd, s_hands s !! j = Some hd -> hand_target hd <> t';
  rh_unused : forall y, tree_of s y <> Some t';
}.

Lemma rehomed_relink s h K x t0 t' s' K' : same_meta (s_nodes s) h -> rehomed (with_nodes s h) K x t0 t' s' K' -> rehomed s K x t0 t' s' K'.
Proof. intros M [A B C D E F]. split; [by eapply carried_relink|exact B|exact C|exact D|exact E|].
  intros y. rewrite <- (relink_tree_of s h y M). apply F. Qed.

Lemma mid_rehomed s K x t0 ro s1 s' K' : stray s K x t0 -> shape K x ro ->
  s1 = with_fresh (with_trees s (<[s_fresh s := mkTree x 0]> (s_trees s))) (S (s_fresh s)) ->
  before_loop s1 K x t0 (s_fresh s) ->
  mid s1 K x ro t0 (s_fresh s) s' K' (rose_nodes ro) [s_fresh s] -> rehomed s K x t0 (s_fresh s) s' K'.
Proof.
  intros S Hsh Es1 B M. set (t' := s_fresh s : tid) in *. pose proof (st_pinv _ _ _ _ S) as P. pose proof (p_wf _ _ _ P) as Hw.
  pose proof (st_f _ _ _ _ S) as [F1 F2 F3 F4].
  assert (s_trees s !! t' = None) as Hn. { destruct (s_trees s !! t') eqn:E; [|done]. assert (t' < s_fresh s); [|unfold t' in *; lia]. apply F2. eauto. }
  assert (forall u, u <> t' -> s_trees s1 !! u = s_trees s !! u) as Hto. { intros u Hu. rewrite Es1. simpl. by rewrite lookup_insert_ne. }
  assert (s_trees s1 !! t' = Some (mkTree x 0)) as Htn. { rewrite Es1. simpl. by rewrite lookup_insert. }
  assert (forall y, tree_of s1 y = tree_of s y) as Htree by (by rewrite Es1).
  assert (forall y, payload s1 y = payload s y) as Hpay by (by rewrite Es1).
  assert (s_hands s1 = s_hands s) as Hhd by (by rewrite Es1).
  assert (t0 <> t') as Hne by apply B.
  assert (forall y, y ∈ rose_nodes ro <-> below K x y) as HL. { intros y. by apply (shape_nodes K x). }
  assert (t_root <$> s_trees s' !! t' = Some x) as Hroot.
  { assert (t_root <$> s_trees s' !! t' = t_root <$> s_trees s1 !! t') as ->; [|by rewrite Htn].
    destruct (m_kept _ _ _ _ _ _ _ _ _ _ M) as [(_ & _ & A3)|(q & L0 & A1 & A2 & _ & A4 & A5 & A6 & A7)]; [apply A3|by apply A7]. }
  pose proof (mid_pinv s1 K x ro t0 t' B Hw (st_top _ _ _ _ S) Hsh s' K' [t'] M) as P'.
  assert (sinv s' K') as Hs'.
  { apply sinv_pinv. destruct P' as [Q1 Q2 Q3 Q4 Q5]. split; [exact Q1|exact Q2|exact Q3| |exact Q5].
    intros y Hy. right. destruct (Q4 y Hy) as [<-|?]; [|done].
    destruct (s_trees s' !! t') as [tr|] eqn:E; [|done]. exists t', tr. injection Hroot as Hroot. split; [|done].
    rewrite <-Hroot. by apply (Q5 t' tr). }
  split.
  - split.
    + by rewrite (m_hands _ _ _ _ _ _ _ _ _ _ M).
    + intros y Hy. apply HL in Hy. rewrite (m_in _ _ _ _ _ _ _ _ _ _ M y Hy). by rewrite decide_True.
    + intros y Hy Ha. rewrite <-Htree. apply (m_out _ _ _ _ _ _ _ _ _ _ M); [by rewrite HL|done].
    + intros y Hy. rewrite <-Hpay. by eapply (mid_payload s1 K x ro t0 t').
    + intros u Hu1 Hu2. rewrite <-(Hto u Hu2). by apply (mid_trees s1 K x ro t0 t' _ _ _ _ u M).
    + apply M.
    + assert (old_tree_fate s1 K x t0 s' K') as [Fa|(F5 & F6 & L0 & F7 & F8)].
      { eapply (mid_fate s1 K x ro t0 t' B Hw (st_top _ _ _ _ S)); [exact M| |].
        - rewrite Es1. apply P.
        - rewrite (Hto t0 Hne). apply S. }
      * by left.
      * right. split; [done|]. split; [done|]. exists L0. split; [|done]. intros y. rewrite F7. by rewrite Htree.
  - split.
    + exact Hs'.
    + apply (m_hinv _ _ _ _ _ _ _ _ _ _ M).
    + intros u Hu. destruct (decide (u = t')) as [->|Hu1].
      * right. destruct (st_hand _ _ _ _ S) as (i & k & Hi). exists i, k, x. rewrite (m_hands _ _ _ _ _ _ _ _ _ _ M), Hhd.
        split; [done|]. assert (x ∈ rose_nodes ro) as Hx by (apply HL; constructor). rewrite (m_in _ _ _ _ _ _ _ _ _ _ M x Hx). by rewrite decide_True.
      * apply (m_held _ _ _ _ _ _ _ _ _ _ M); [done|]. by intros ?%elem_of_list_singleton.
    + eapply (mid_finv s1 K x ro t0 t'); [exact M| | |].
      * split; rewrite Es1; simpl.
        -- intros y Hy. specialize (F1 y Hy). lia.
        -- intros u Hu. destruct (decide (u = t')) as [->|Hu1]; [unfold t'; lia|]. fold t' in Hu. rewrite lookup_insert_ne in Hu by done. specialize (F2 u Hu). lia.
        -- intros i hd Hi. destruct (F3 _ _ Hi). lia.
        -- intros y u Hy. specialize (F4 _ _ Hy). lia.
      * rewrite Es1. simpl. unfold t'. lia.
      * rewrite Es1. simpl. pose proof (F2 t0 (st_alive _ _ _ _ S)). lia.
  - exact Hn.
  - exact Hroot.
  - intros j hd Hj. destruct (F3 _ _ Hj). unfold t'. lia.
  - intros y Hy. specialize (F4 _ _ Hy). unfold t' in *. lia.
Qed.

(** ** Detaching *)
Lemma unlink_stray s K i k x t0 h' K1 : inv s K -> s_hands s !! i = Some (HNode k x) -> tree_of s x = Some t0 -> thawed s (s_hands s) t0 ->
  unlinked K x K1 -> rep h' K1 -> wf K1 -> same_meta (s_nodes s) h' -> stray (with_nodes s h') K1 x t0.
Proof.
  intros H Hi Ht Hth Hu Hr Hw M. destruct (unlink_pinv s K x K1 h' (i_s _ _ H) Hu Hr Hw M) as (P & Htop & Hroot).
  destruct (handle_tree s K i k x H Hi) as (t1 & tr & A1 & A2 & _). assert (t1 = t0) as -> by congruence. split.
  - exact P.
  - done.
  - by rewrite relink_tree_of.
  - simpl. rewrite A2. eauto.
  - exact Hroot.
  - apply hinv_relink; [apply H|done].
  - intros u Hu1. rewrite held_relink by done. by apply (i_held _ _ H).
  - apply finv_relink; [apply H|done].
  - destruct Hth as [B1 B2]. split; [exact B1|]. intros y. unfold node_holder. rewrite relink_tree_of by done. apply B2.
  - simpl. eauto.
Qed.

Lemma is_root_spec s K x : inv s K -> is_Some (s_nodes s !! x) -> (is_root (s_nodes s) x = true <-> is_top K x).
Proof.
  intros H Hx. pose proof (i_s _ _ H) as Hs. assert (is_Some (K !! x)) as HxK by (by apply (inv_alive s K x H)).
  unfold is_root. change (upgrade (s_nodes s) (fparent (s_nodes s) x)) with (parent_link (s_nodes s) x).
  destruct (top_or_child K x (s_wf _ _ Hs) HxK) as [Ht|[p Hp]].
  - unfold parent_link. rewrite (proj1 (rep_top _ _ (s_rep _ _ Hs) x Ht)). done.
  - rewrite (parent_link_child _ _ _ _ (s_rep _ _ Hs) Hp). split; [done|]. intros [_ Ht]. by apply Ht in Hp.
Qed.

Lemma detach_ok s K i k x t0 K1 : inv s K -> s_hands s !! i = Some (HNode k x) -> tree_of s x = Some t0 -> thawed s (s_hands s) t0 ->
  unlinked K x K1 -> ~ last_not_first K x ->
  exists s' t' K', detach_subtree s x = Ret s' /\ rehomed s K1 x t0 t' s' K'.
Proof.
  intros H Hi Ht Hth Hu Hl. pose proof (i_s _ _ H) as Hs.
  destruct (unlink_any (s_nodes s) K x K1 (s_rep _ _ Hs) (s_wf _ _ Hs) Hu Hl) as (h' & E & Hr & Hw & Htop & M).
  pose proof (unlink_stray s K i k x t0 h' K1 H Hi Ht Hth Hu Hr Hw M) as S.
  destruct (shape_exists K1 x Hw (proj1 Htop)) as [ro Hro].
  destruct (create_new_tree_ok _ _ _ _ [] ro S Hro) as (s1 & s' & K' & Es1 & E' & B & M').
  exists s', (s_fresh s), K'. split.
  - unfold detach_subtree. destruct (is_root (s_nodes s) x) eqn:Er.
    + apply (is_root_spec s K x H) in Er; [|by eapply handle_alive]. destruct Hu as (q & ks & Hq & Hin & _). exfalso. apply (proj2 Er q). by exists ks.
    + rewrite E. simpl. done.
  - eapply rehomed_relink; [exact M|]. exact (mid_rehomed (with_nodes s h') K1 x t0 ro s1 s' K' S Hro Es1 B M').
Qed.

Lemma detach_root s K x : inv s K -> is_Some (s_nodes s !! x) -> is_top K x -> detach_subtree s x = Ret s.
Proof. intros H Hx Ht. unfold detach_subtree. by rewrite (proj2 (is_root_spec s K x H Hx) Ht). Qed.

End SysFacts14.
