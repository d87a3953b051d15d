(** * SysFacts7: data access, new trees, node creation. *)
From Verif Require Import Heap Edit System SysSpec CardFacts HeapFacts SpecFacts NavFacts NavFacts2 EditFacts EditFacts2 EditFacts3 IterSpec RoseFacts TdFacts TdFacts2 SysFacts SysFacts2 SysFacts3 SysFacts4 SysFacts5 SysFacts6 Spec.

Section SysFacts7.
Context {T : Type}.
Implicit Types (h : heap T) (s : sys T) (hm : gmap nat handle).

(** ** Changing links only *)
Lemma relink_memb s h' x : same_meta (s_nodes s) h' -> n_memb (with_nodes s h') x = n_memb s x.
Proof.
  intros H. specialize (H x). unfold n_memb, fmeta in *. simpl.
  destruct (h' !! x), (s_nodes s !! x); simpl in *; simplify_eq; congruence.
Qed.
Lemma relink_tree_of s h' x : same_meta (s_nodes s) h' -> tree_of (with_nodes s h') x = tree_of s x.
Proof. intros H. unfold tree_of. by rewrite relink_memb. Qed.
Lemma relink_alive h h' x : same_meta h h' -> is_Some (h' !! x) <-> is_Some (h !! x).
Proof.
  intros H. specialize (H x). unfold fmeta in H. destruct (h' !! x), (h !! x); try done; split; intros [? ?]; eauto; done.
Qed.

Lemma hinv_relink s hm h' : hinv s hm -> same_meta (s_nodes s) h' -> hinv (with_nodes s h') hm.
Proof.
  intros [H1 H2 H3 H4 H5] M. split.
  - intros x o. rewrite relink_memb by done. apply H1.
  - intros x t rc lk. rewrite relink_memb by done. apply H2.
  - intros i k x Hi. simpl. rewrite relink_alive by done. by eapply H3.
  - done.
  - intros t tr Ht. eapply lock_ok_ext; [exact (H5 t tr Ht)|done|]. intros k x. unfold node_holder. by rewrite relink_tree_of.
Qed.

Lemma finv_relink s h' : finv s -> same_meta (s_nodes s) h' -> finv (with_nodes s h').
Proof.
  intros [H1 H2 H3 H4] M. split; try done.
  - intros x. simpl. rewrite relink_alive by done. apply H1.
  - intros x t. rewrite relink_tree_of by done. apply H4.
Qed.

Lemma held_relink s hm h' t : same_meta (s_nodes s) h' -> (tree_held (with_nodes s h') hm t <-> tree_held s hm t).
Proof. intros M. unfold tree_held. split; (intros [?|(i & k & x & A & B)]; [by left|right]); exists i, k, x; rewrite relink_tree_of in *; done. Qed.

Lemma pinv_relink s K X h' K' (X' : nid -> Prop) : pinv s K X -> rep h' K' -> wf K' -> same_meta (s_nodes s) h' ->
  (forall p c, child_of K' p c -> tree_of s c = tree_of s p) ->
  (forall x, is_top K' x -> X' x \/ (is_top K x /\ ~ X x)) ->
  (forall t tr, s_trees s !! t = Some tr -> is_top K' (t_root tr)) ->
  pinv (with_nodes s h') K' X'.
Proof.
  intros H Hr Hw M Hc Ht Hroot. split; [done|done|..].
  - intros p c Hpc. rewrite !relink_tree_of by done. by apply Hc.
  - intros x Hx. destruct (Ht x Hx) as [?|[Hx1 Hn]]; [by left|right].
    destruct (p_top _ _ _ H x Hx1) as [|(t & tr & A)]; [done|]. exists t, tr. by rewrite relink_tree_of.
  - intros t tr Htr. rewrite relink_tree_of by done. split; [by eapply Hroot|]. by apply (p_root _ _ _ H).
Qed.

Lemma attached_child K n dest K' : wf K -> attached K n dest K' ->
  exists p, dest_parent K dest p /\ is_Some (K !! p) /\ (forall q c, child_of K' q c <-> child_of K q c \/ (q = p /\ c = n)) /\
    (forall x, is_Some (K' !! x) <-> is_Some (K !! x)).
Proof.
  intros Hw Ha. destruct (attached_perm _ _ _ _ Hw Ha) as (p & ks & ks' & Hp & Hk & -> & Hperm). exists p.
  split; [done|]. split; [eauto|]. split.
  - intros q c. rewrite child_of_insert. rewrite Hperm, elem_of_cons. split.
    + intros [[-> [->|Hc]]|[Hne Hc]]; [by right|left; by exists ks|by left].
    + intros [(l & Hl & Hc)|[-> ->]]; [|left; auto]. destruct (decide (q = p)) as [->|]; [left|right].
      * rewrite Hk in Hl. simplify_eq. auto.
      * split; [done|]. by exists l.
  - intros x. destruct (decide (x = p)) as [->|]; [rewrite lookup_insert; split; eauto|by rewrite lookup_insert_ne].
Qed.

Lemma unlinked_child K n K' : wf K -> unlinked K n K' ->
  (forall q c, child_of K' q c <-> child_of K q c /\ c <> n) /\ (forall x, is_Some (K' !! x) <-> is_Some (K !! x)) /\
  (exists q, child_of K q n).
Proof.
  intros Hw Hu. destruct (unlinked_split _ _ _ Hw Hu) as (p & l1 & l2 & Hp & -> & H1 & H2).
  assert (child_of K p n) as Hpn by (exists (l1 ++ n :: l2); split; [done|ls]). split_and!.
  - intros q c. rewrite child_of_insert. split.
    + intros [[-> Hc]|[Hne Hc]].
      * split; [exists (l1 ++ n :: l2); split; [done|ls]|]. intros ->. apply elem_of_app in Hc as [|]; done.
      * split; [done|]. intros ->. apply Hne. by eapply wf_uniq.
    + intros [(l & Hl & Hc) Hcn]. destruct (decide (q = p)) as [->|]; [left|right].
      * rewrite Hp in Hl. simplify_eq. split; [done|]. ls.
      * split; [done|]. by exists l.
  - intros x. destruct (decide (x = p)) as [->|]; [rewrite lookup_insert; split; eauto|by rewrite lookup_insert_ne].
  - eauto.
Qed.

(** Attaching the stray top [n] restores the structure. *)
Lemma attach_pinv s K n dest K' h' : pinv s K (eq n) -> is_top K n -> (forall t tr, s_trees s !! t = Some tr -> t_root tr <> n) ->
  attached K n dest K' -> (forall p, dest_parent K dest p -> tree_of s p = tree_of s n) ->
  rep h' K' -> wf K' -> same_meta (s_nodes s) h' -> sinv (with_nodes s h') K'.
Proof.
  intros H Hn Hroot Ha Hd Hr Hw M. destruct (attached_child _ _ _ _ (p_wf _ _ _ H) Ha) as (p & Hp & _ & Hch & Hdom).
  apply sinv_pinv. eapply pinv_relink; [exact H|done|done|done|..].
  - intros q c. rewrite Hch. intros [Hc|[-> ->]]; [by apply (p_child _ _ _ H)|]. symmetry. by apply Hd.
  - intros x [Hx1 Hx2]. right. rewrite Hdom in Hx1. split; [split; [done|]|].
    + intros q Hq. apply (Hx2 q). rewrite Hch. by left.
    + intros <-. apply (Hx2 p). rewrite Hch. by right.
  - intros t tr Ht. destruct (p_root _ _ _ H _ _ Ht) as [[A B] _]. split; [by rewrite Hdom|].
    intros q. rewrite Hch. intros [Hc|[-> E]]; [by apply (B q)|]. by apply (Hroot _ _ Ht).
Qed.

(** Unlinking [n] makes it a stray top. *)
Lemma unlink_pinv s K n K' h' : sinv s K -> unlinked K n K' -> rep h' K' -> wf K' -> same_meta (s_nodes s) h' ->
  pinv (with_nodes s h') K' (eq n) /\ is_top K' n /\ (forall t tr, s_trees s !! t = Some tr -> t_root tr <> n).
Proof.
  intros H Hu Hr Hw M. destruct (unlinked_child _ _ _ (s_wf _ _ H) Hu) as (Hch & Hdom & q0 & Hq0).
  assert (forall t tr, s_trees s !! t = Some tr -> t_root tr <> n) as Hroot.
  { intros t tr Ht E. destruct (s_root _ _ H _ _ Ht) as [[_ B] _]. rewrite E in B. by apply (B q0). }
  split_and!; [|by eapply unlinked_wf; [apply H|]|done].
  eapply pinv_relink; [by apply sinv_pinv|done|done|done|..].
  - intros p c. rewrite Hch. intros [Hc _]. by apply (s_child _ _ H).
  - intros x [Hx1 Hx2]. destruct (decide (n = x)) as [|Hne]; [by left|right]. split; [|by intros []].
    split; [by rewrite <-Hdom|]. intros q Hq. apply (Hx2 q). rewrite Hch. auto.
  - intros t tr Ht. destruct (s_root _ _ H _ _ Ht) as [[A B] _]. split; [by rewrite Hdom|].
    intros q. rewrite Hch. intros [Hc _]. by apply (B q).
Qed.

(** ** Allocation of an orphan *)

Lemma relink_payload s h' x : same_meta (s_nodes s) h' -> payload (with_nodes s h') x = payload s x.
Proof.
  intros H. specialize (H x). unfold payload, fmeta in *. simpl.
  destruct (h' !! x), (s_nodes s !! x); simpl in *; simplify_eq; congruence.
Qed.
Lemma memonly_payload s s' x : memonly (s_nodes s) (s_nodes s') -> payload s' x = payload s x.
Proof.
  intros H. specialize (H x). unfold payload. destruct (s_nodes s' !! x), (s_nodes s !! x); simpl in *; try done.
  unfold links in H. simplify_eq. congruence.
Qed.

Lemma no_target s K (x : nid) : inv s K -> s_fresh s <= x -> forall i hd, s_hands s !! i = Some hd -> hand_target hd <> x.
Proof. intros H Hx i hd Hi E. pose proof (proj2 (f_hands _ (i_f _ _ H) _ _ Hi)). lia. Qed.

Record orphaned s s1 K (n : nid) (t : tid) (d : T) : Prop := {
  o_fresh : s_fresh s1 = S (S n);
  o_n : n = s_fresh s;
  o_pinv : pinv s1 (<[n := []]> K) (eq n);
  o_root : forall t tr, s_trees s1 !! t = Some tr -> t_root tr <> n;
  o_hinv : hinv s1 (s_hands s1);
  o_hands : s_hands s1 = <[S n := HNode Plain n]> (s_hands s);
  o_held : forall u, is_Some (s_trees s1 !! u) -> tree_held s1 (s_hands s1) u;
  o_finv : finv s1;
  o_trees : s_trees s1 = s_trees s;
  o_tree_n : tree_of s1 n = Some t;
  o_tree : forall y, y <> n -> tree_of s1 y = tree_of s y;
  o_nodes : forall y, y <> n -> s_nodes s1 !! y = s_nodes s !! y;
  o_data : payload s1 n = Some (d, Lent 0);
  o_new : K !! n = None;
}.

Lemma new_orphan_ok s K d t : inv s K -> is_Some (s_trees s !! t) ->
  exists s1, new_orphan s d t = Ret (s1, s_fresh s, S (s_fresh s)) /\ orphaned s s1 K (s_fresh s) t d.
Proof.
  intros H Hta. set (n := s_fresh s : nid).
  set (s0 := with_fresh (with_nodes s (alloc (s_nodes s) n d (MWeak (Some t)))) (S n)).
  assert (s_nodes s !! n = None) as Hn.
  { destruct (s_nodes s !! n) eqn:E; [|done]. assert (n < s_fresh s); [|lia]. apply (f_nodes _ (i_f _ _ H)). eauto. }
  assert (K !! n = None) as HKn.
  { destruct (K !! n) eqn:E; [|done]. assert (is_Some (s_nodes s !! n)) as [? ?] by (apply (inv_alive s K n H); eauto). congruence. }
  assert (forall y, y <> n -> s_nodes s0 !! y = s_nodes s !! y) as Hno. { intros y Hy. simpl. unfold alloc. by rewrite lookup_insert_ne. }
  assert (n_memb s0 n = Some (MWeak (Some t))) as Hmn. { unfold n_memb. simpl. unfold alloc. by rewrite lookup_insert. }
  assert (forall y, y <> n -> n_memb s0 y = n_memb s y) as Hmo. { intros y Hy. unfold n_memb. by rewrite Hno. }
  assert (forall y, y <> n -> tree_of s0 y = tree_of s y) as Hto. { intros y Hy. unfold tree_of. by rewrite Hmo. }
  assert (forall i k, s_hands s !! i <> Some (HNode k n)) as Hnh.
  { intros i k Hi. by apply (no_target s K n H (le_n _) _ _ Hi). }
  assert (hinv s0 (s_hands s)) as Hh0.
  { destruct (i_h _ _ H) as [A1 A2 A3 A4 A5]. split.
    - intros x o Hx. destruct (decide (x = n)) as [->|Hne].
      + rewrite Hmn in Hx. simplify_eq. split; [eauto|]. intros i [k Hk]. by apply (Hnh i k).
      + rewrite Hmo in Hx by done. by apply A1.
    - intros x u rc lk Hx. destruct (decide (x = n)) as [->|Hne]; [congruence|]. rewrite Hmo in Hx by done. exact (A2 _ _ _ _ Hx).
    - intros i k x Hi. assert (x <> n) by (intros ->; by apply (Hnh i k)). rewrite Hno by done. by eapply A3.
    - exact A4.
    - intros u tr Hu. eapply lock_ok_ext; [exact (A5 u tr Hu)|done|]. intros k x. unfold node_holder.
      split; intros (B1 & B2 & i & B3); assert (x <> n) by (intros ->; by apply (Hnh i k)); rewrite Hto in * by done; eauto. }
  assert (s_hands s !! S n = None) as HfS.
  { destruct (s_hands s !! S n) eqn:E; [|done]. apply (f_hands _ (i_f _ _ H)) in E. lia. }
  destruct (incr_ref_ok s0 (s_hands s) (S n) n t Hh0 HfS) as (s1 & rc & lk & E & Es1 & Hh1 & F).
  { by eapply n_memb_alive. } { unfold tree_of. by rewrite Hmn. } { done. }
  exists (add_hand s1 (HNode Plain n)). unfold new_orphan. fold n. fold s0. rewrite E. rewrite (fr_fresh _ _ F). change (s_fresh s0) with (S n).
  split; [done|].
  assert (s_trees s1 = s_trees s) as Htr by (by rewrite Es1).
  assert (s_hands s1 = s_hands s) as Hhd by (by rewrite Es1).
  assert (s_fresh s1 = S n) as Hfr by (by rewrite Es1).
  assert (forall y, y <> n -> s_nodes s1 !! y = s_nodes s !! y) as Hn1.
  { intros y Hy. rewrite Es1. unfold put_mem, set_mem. simpl. rewrite lookup_alter_ne by done. by apply Hno. }
  assert (forall y, tree_of (add_hand s1 (HNode Plain n)) y = tree_of s1 y) as Hadd by done.
  assert (wf K) as Hw by apply (i_s _ _ H).
  split.
  - simpl. by rewrite Hfr.
  - done.
  - assert (pinv s0 (<[n := []]> K) (eq n)) as Hp0.
    { split.
      - apply rep_alloc; [apply (i_s _ _ H)|done|done].
      - by apply wf_new.
      - intros p c. rewrite child_of_insert. intros [[-> Hc]|[Hne Hc]]; [by apply elem_of_nil in Hc|].
        assert (c <> n). { intros ->. destruct (wf_dom _ Hw _ _ Hc) as [? E1]. congruence. }
        rewrite !Hto by done. by apply (s_child _ _ (i_s _ _ H)).
      - intros x [Hx1 Hx2]. destruct (decide (n = x)) as [->|Hne]; [by left|right]. rewrite lookup_insert_ne in Hx1 by done.
        rewrite Hto by done. apply (s_top _ _ (i_s _ _ H)). split; [done|]. intros p Hp. apply (Hx2 p).
        apply child_of_insert. right. split; [|done]. intros ->. destruct Hp as (ks & Hp & _). congruence.
      - intros u tr Hu. destruct (s_root _ _ (i_s _ _ H) u tr Hu) as [[A1 A2] B].
        assert (t_root tr <> n) as Hne by (intros E1; rewrite E1 in A1; destruct A1; congruence).
        rewrite Hto by done. split; [|done]. split; [by rewrite lookup_insert_ne|].
        intros p. rewrite child_of_insert. intros [[_ Hc]|[_ Hc]]; [by apply elem_of_nil in Hc|]. by apply (A2 p). }
    pose proof (framed_pinv _ _ _ _ Hp0 F) as [B1 B2 B3 B4 B5]. split; done.
  - intros u tr. simpl. rewrite Htr. intros Hu E1. destruct (s_root _ _ (i_s _ _ H) u tr Hu) as [[A1 A2] B]. rewrite E1 in A1. destruct A1; congruence.
  - simpl. rewrite Hhd, Hfr. destruct Hh1 as [B1 B2 B3 B4 B5]. split; done.
  - simpl. by rewrite Hhd, Hfr.
  - intros u. simpl. rewrite Htr, Hhd, Hfr. intros Hu. destruct (i_held _ _ H u Hu) as [(j & Hj)|(j & k1 & y & Hj & Hy)].
    + left. exists j. rewrite lookup_insert_ne; [done|]. intros <-. congruence.
    + right. exists j, k1, y. rewrite lookup_insert_ne by (intros <-; congruence). split; [done|]. rewrite Hadd, (fr_tree _ _ F), Hto; [done|].
      intros ->. by apply (Hnh j k1).
  - destruct (i_f _ _ H) as [A1 A2 A3 A4]. fold n in A1, A2, A3, A4. split; simpl; rewrite ?Hfr.
    + intros x Hx. destruct (decide (x = n)) as [->|Hne]; [lia|]. rewrite Hn1 in Hx by done. specialize (A1 x Hx). lia.
    + rewrite Htr. intros u Hu. specialize (A2 u Hu). lia.
    + rewrite Hhd. intros j hd. rewrite insert_hand_iff by done. intros [[-> ->]|Hj]; [simpl; lia|]. destruct (A3 _ _ Hj). lia.
    + intros x u. rewrite Hadd, (fr_tree _ _ F). destruct (decide (x = n)) as [->|Hne].
      * unfold tree_of. rewrite Hmn. intros [= <-]. specialize (A2 t Hta). lia.
      * rewrite Hto by done. intros Hx. specialize (A4 _ _ Hx). lia.
  - done.
  - rewrite Hadd, (fr_tree _ _ F). unfold tree_of. by rewrite Hmn.
  - intros y Hy. by rewrite Hadd, (fr_tree _ _ F), Hto.
  - intros y Hy. simpl. by apply Hn1.
  - assert (payload (add_hand s1 (HNode Plain n)) n = payload s0 n) as ->. { apply memonly_payload. apply F. }
    unfold payload. simpl. unfold alloc. by rewrite lookup_insert.
  - done.
Qed.

End SysFacts7.
