(** * ApiFacts3: consequences of the effect of each call. *)
From Verif Require Import Heap Edit System SysSpec CardFacts HeapFacts SpecFacts NavFacts NavFacts2 EditFacts EditFacts2 EditFacts3 EditFacts4 EditFacts5 IterSpec RoseFacts AdjFacts TravFacts TdFacts TdFacts2 SysFacts SysFacts2 SysFacts3 SysFacts4 SysFacts5 SysFacts6 SysFacts7 SysFacts8 SysFacts9 SysFacts10 SysFacts11 SysFacts12 SysFacts13 SysFacts14 SysFacts15 ApiSpec ApiFacts ApiFacts2 Spec.

Section ApiFacts3.
Context {T : Type}.
Implicit Types (h : heap T) (s : sys T) (hm : gmap nat handle).

Lemma reach_stores s : reach s -> exists K, stores s K.
Proof. intros H. destruct (reach_inv s H) as [K I]. exists K. by apply inv_stores. Qed.

(** The master theorem for reachable states. *)
Lemma reach_effect s K o : reach s -> stores s K -> safe s K o -> well_typed s o -> ~ must_panic s o ->
  exists s' r, step s o = Ret (s', r) /\ reach s' /\ effect s K o s' r.
Proof.
  intros H Hst Hs Hw Hp. destruct (step_effect s K o (reach_stores_inv s K H Hst) Hs Hw) as [[A _]|[_ (s' & r & K' & E & I & Ef)]]; [done|].
  exists s', r. split; [exact E|]. split; [by eapply reach_step|exact Ef].
Qed.
Lemma reach_panic s K o : reach s -> stores s K -> safe s K o -> must_panic s o -> well_typed s o -> step s o = Panic.
Proof.
  intros H Hst Hs Hp Hw. destruct (step_effect s K o (reach_stores_inv s K H Hst) Hs Hw) as [[_ A]|[A _]]; [exact A|done].
Qed.
Lemma reach_safe_step s K o s' r : reach s -> stores s K -> safe s K o -> step s o = Ret (s', r) ->
  reach s' /\ ((r = OutIll /\ s' = s) \/ (well_typed s o /\ effect s K o s' r)).
Proof.
  intros H Hst Hs E. split; [by eapply reach_step|]. destruct (well_typed_dec s o) as [Hw|Hw].
  - right. split; [exact Hw|]. destruct (step_effect s K o (reach_stores_inv s K H Hst) Hs Hw) as [[_ A]|[_ (s1 & r1 & K' & E' & I & Ef)]]; [congruence|].
    rewrite E' in E. inversion E. subst. exact Ef.
  - left. rewrite (step_ill s o Hw) in E. inversion E. done.
Qed.

(** ** Edits *)
Lemma receiver_tree s K a k x : reach s -> stores s K -> receiver s a k x -> exists t, tree_of s x = Some t.
Proof. intros H Hst Hr. destruct (receiver_facts s K a k x (reach_stores_inv s K H Hst) Hr) as (_ & t & _ & Et & _). eauto. Qed.

Lemma attached_first K n p K' : attached K n (FirstChildOf p) K' -> exists ks, K !! p = Some ks /\ K' = <[p := n :: ks]> K.
Proof. inversion 1; subst; eauto. Qed.
Lemma attached_last K n p K' : attached K n (LastChildOf p) K' -> exists ks, K !! p = Some ks /\ K' = <[p := ks ++ [n]]> K.
Proof. inversion 1; subst; eauto. Qed.
Lemma attached_before K n y K' : attached K n (PreviousSiblingOf y) K' -> exists p ks, K !! p = Some ks /\ y ∈ ks /\ K' = <[p := ins_before y n ks]> K.
Proof. inversion 1; subst; eauto. Qed.
Lemma attached_after K n y K' : attached K n (NextSiblingOf y) K' -> exists p ks, K !! p = Some ks /\ y ∈ ks /\ K' = <[p := ins_after y n ks]> K.
Proof. inversion 1; subst; eauto. Qed.

Lemma fresh_not s K n x ks : stores s K -> s_nodes s !! n = None -> K !! x = Some ks -> n <> x.
Proof. intros [R _] Hn Hx ->. assert (is_Some (s_nodes s !! x)) as [? ?]; [|congruence]. apply (rep_dom _ _ R). eauto. Qed.

Lemma create_effect s K a k x d ad : reach s -> stores s K -> receiver s a k x ->
  exists s' r t, step s (OpCreate a d ad) = Ret (s', r) /\ tree_of s x = Some t /\
  ((has_place K ad x /\ exists n i K', r = OutHandle i /\
      attached (<[n := []]> K) n (dest_of ad x) K' /\ adds s s' K' t n d k i) \/
   (~ has_place K ad x /\ r = OutErr SiblingsWithoutParent /\
      s_nodes s' = s_nodes s /\ s_trees s' = s_trees s /\ s_hands s' = s_hands s)).
Proof.
  intros H Hst Hr. destruct (reach_effect s K (OpCreate a d ad) H Hst) as (s' & r & E & _ & Ef).
  { exact I. } { by eapply receiver_typed. } { by eapply receiver_not_unauth. }
  exists s', r. destruct Ef as [[]|[[]|(k' & x' & t & Hr' & Et & C)]]. destruct (receiver_unique _ _ _ _ _ _ Hr Hr') as [-> ->].
  exists t. split; [exact E|]. split; [exact Et|]. exact C.
Qed.

Lemma create_child_ok s K a k x ks d : reach s -> stores s K -> receiver s a k x -> K !! x = Some ks ->
  (exists s' n i t, step s (OpCreate a d AFirstChild) = Ret (s', OutHandle i) /\ tree_of s x = Some t /\
     adds s s' (<[x := n :: ks]> (<[n := []]> K)) t n d k i) /\
  (exists s' n i t, step s (OpCreate a d ALastChild) = Ret (s', OutHandle i) /\ tree_of s x = Some t /\
     adds s s' (<[x := ks ++ [n]]> (<[n := []]> K)) t n d k i).
Proof.
  intros H Hst Hr Hx. split.
  - destruct (create_effect s K a k x d AFirstChild H Hst Hr) as (s' & r & t & E & Et & [(_ & n & i & K' & -> & At & A)|[[] _]]); [|done].
    exists s', n, i, t. split; [exact E|]. split; [exact Et|]. apply attached_first in At as (ks' & Hks & ->).
    pose proof (fresh_not s K n x ks Hst (ad_new _ _ _ _ _ _ _ _ A) Hx) as Hne. rewrite lookup_insert_ne in Hks by done.
    assert (ks' = ks) as -> by congruence. exact A.
  - destruct (create_effect s K a k x d ALastChild H Hst Hr) as (s' & r & t & E & Et & [(_ & n & i & K' & -> & At & A)|[[] _]]); [|done].
    exists s', n, i, t. split; [exact E|]. split; [exact Et|]. apply attached_last in At as (ks' & Hks & ->).
    pose proof (fresh_not s K n x ks Hst (ad_new _ _ _ _ _ _ _ _ A) Hx) as Hne. rewrite lookup_insert_ne in Hks by done.
    assert (ks' = ks) as -> by congruence. exact A.
Qed.

Lemma create_sibling_ok s K a k x p ks d : reach s -> stores s K -> receiver s a k x -> K !! p = Some ks -> x ∈ ks ->
  (exists s' n i t, step s (OpCreate a d APreviousSibling) = Ret (s', OutHandle i) /\ tree_of s x = Some t /\
     adds s s' (<[p := ins_before x n ks]> (<[n := []]> K)) t n d k i) /\
  (exists s' n i t, step s (OpCreate a d ANextSibling) = Ret (s', OutHandle i) /\ tree_of s x = Some t /\
     adds s s' (<[p := ins_after x n ks]> (<[n := []]> K)) t n d k i).
Proof.
  intros H Hst Hr Hp Hin.
  assert (forall q ks', (<[q := ks']> K) !! p = (<[q := ks']> K) !! p) as _ by done.
  assert (forall n p' ks', s_nodes s !! n = None -> (<[n := []]> K : forest) !! p' = Some ks' -> x ∈ ks' -> p' = p /\ ks' = ks) as Hu.
  { intros n p' ks' Hn Hp' Hin'. pose proof (fresh_not s K n p ks Hst Hn Hp) as Hne.
    destruct (decide (p' = n)) as [->|Hne']; [rewrite lookup_insert in Hp'; inversion Hp'; subst; by apply elem_of_nil in Hin'|].
    rewrite lookup_insert_ne in Hp' by done. assert (p' = p) as ->. { apply (wf_uniq _ (proj2 Hst) p' p x); eexists; eauto. }
    split; [done|congruence]. }
  assert (has_place K APreviousSibling x) as Hpl by (exists p, ks; done).
  split.
  - destruct (create_effect s K a k x d APreviousSibling H Hst Hr) as (s' & r & t & E & Et & [(_ & n & i & K' & -> & At & A)|[Hn _]]); [|done].
    exists s', n, i, t. split; [exact E|]. split; [exact Et|]. apply attached_before in At as (p' & ks' & Hks & Hin' & ->).
    destruct (Hu n p' ks' (ad_new _ _ _ _ _ _ _ _ A) Hks Hin') as [-> ->]. exact A.
  - destruct (create_effect s K a k x d ANextSibling H Hst Hr) as (s' & r & t & E & Et & [(_ & n & i & K' & -> & At & A)|[Hn _]]); [|done].
    exists s', n, i, t. split; [exact E|]. split; [exact Et|]. apply attached_after in At as (p' & ks' & Hks & Hin' & ->).
    destruct (Hu n p' ks' (ad_new _ _ _ _ _ _ _ _ A) Hks Hin') as [-> ->]. exact A.
Qed.

Lemma create_sibling_root s K a k x d ad : reach s -> stores s K -> receiver s a k x -> is_top K x ->
  ad = APreviousSibling \/ ad = ANextSibling ->
  exists s', step s (OpCreate a d ad) = Ret (s', OutErr SiblingsWithoutParent) /\
    s_nodes s' = s_nodes s /\ s_trees s' = s_trees s /\ s_hands s' = s_hands s.
Proof.
  intros H Hst Hr Htop Had. destruct (create_effect s K a k x d ad H Hst Hr) as (s' & r & t & E & Et & [(Hp & _)|(_ & -> & C)]).
  - exfalso. destruct Had as [-> | ->]; destruct Hp as [p Hp]; by apply (proj2 Htop p).
  - exists s'. split; [exact E|exact C].
Qed.

Lemma stores_parent s K x p q ks ks' : stores s K -> K !! p = Some ks -> x ∈ ks -> K !! q = Some ks' -> x ∈ ks' -> q = p /\ ks' = ks.
Proof.
  intros [_ W] Hp Hin Hq Hin'. assert (q = p) as ->. { apply (wf_uniq _ W q p x); eexists; eauto. } split; [done|congruence].
Qed.
Lemma top_no_parent K x p ks : is_top K x -> K !! p = Some ks -> x ∈ ks -> False.
Proof. intros [_ Ht] Hp Hin. apply (Ht p). exists ks. done. Qed.

Lemma interrupt_parent_api s K a k x d : reach s -> stores s K -> receiver s a k x ->
  (forall p ks, K !! p = Some ks -> x ∈ ks -> exists s' n i t, step s (OpInterruptParent a d) = Ret (s', OutHandle i) /\ tree_of s x = Some t /\
     adds s s' (<[n := [x]]> (<[p := subst_child x n ks]> K)) t n d k i) /\
  (is_top K x -> exists s' n i t, step s (OpInterruptParent a d) = Ret (s', OutHandle i) /\ tree_of s x = Some t /\
     adds s s' (<[n := [x]]> K) t n d k i /\ t_root <$> s_trees s' !! t = Some n).
Proof.
  intros H Hst Hr. destruct (reach_effect s K (OpInterruptParent a d) H Hst) as (s' & r & E & Hr' & Ef).
  { exact I. } { by eapply receiver_typed. } { by eapply receiver_not_unauth. }
  destruct Ef as [[]|[[]|(k' & x' & t & n & i & Hrc & Et & -> & C)]]. destruct (receiver_unique _ _ _ _ _ _ Hr Hrc) as [-> ->].
  split.
  - intros p ks Hp Hin. exists s', n, i, t. split; [exact E|]. split; [exact Et|]. destruct C as [[Htop _]|(q & ks' & Hq & Hin' & A)].
    + exfalso. by eapply top_no_parent.
    + destruct (stores_parent s K x p q ks ks' Hst Hp Hin Hq Hin') as [-> ->]. exact A.
  - intros Htop. exists s', n, i, t. split; [exact E|]. split; [exact Et|]. destruct C as [[_ A]|(q & ks' & Hq & Hin' & A)].
    + split; [exact A|]. pose proof (reach_stores_inv s' _ Hr' (ad_stores _ _ _ _ _ _ _ _ A)) as I'.
      assert (is_top (<[n := [x]]> K) n) as Hn.
      { split; [rewrite lookup_insert; eauto|]. intros p (ks & Hp & Hin). destruct (decide (p = n)) as [->|Hne].
        - rewrite lookup_insert in Hp. inversion Hp. subst ks. apply elem_of_list_singleton in Hin. subst x.
          destruct Htop as [[? Hx] _]. by apply (fresh_not s K n n _ Hst (ad_new _ _ _ _ _ _ _ _ A) Hx).
        - rewrite lookup_insert_ne in Hp by done. assert (is_Some (K !! n)) as [? Hx]. { apply (wf_dom _ (proj2 Hst) p n). exists ks. done. }
          by apply (fresh_not s K n n _ Hst (ad_new _ _ _ _ _ _ _ _ A) Hx). }
      destruct (s_top _ _ (i_s _ _ I') n Hn) as (t1 & tr & Et1 & Htr & Hroot). assert (t1 = t) as ->. { pose proof (ad_tree _ _ _ _ _ _ _ _ A) as B. congruence. }
      by rewrite Htr; simpl; rewrite Hroot.
    + exfalso. by eapply top_no_parent.
Qed.

Lemma interrupt_child_api s K a k x ks d : reach s -> stores s K -> receiver s a k x -> K !! x = Some ks ->
  exists s' n i t, step s (OpInterruptChild a d) = Ret (s', OutHandle i) /\ tree_of s x = Some t /\
    adds s s' (<[x := [n]]> (<[n := ks]> K)) t n d k i.
Proof.
  intros H Hst Hr Hx. destruct (reach_effect s K (OpInterruptChild a d) H Hst) as (s' & r & E & Hr' & Ef).
  { exact I. } { by eapply receiver_typed. } { by eapply receiver_not_unauth. }
  destruct Ef as [[]|[[]|(k' & x' & t & n & i & ks' & Hrc & Et & -> & Hx' & C)]]. destruct (receiver_unique _ _ _ _ _ _ Hr Hrc) as [-> ->].
  assert (ks' = ks) as -> by congruence. exists s', n, i, t. split; [exact E|]. split; [exact Et|exact C].
Qed.

Lemma replace_api s K a k x cs : reach s -> stores s K -> receiver s a k x -> K !! x = Some cs ->
  (forall p ks, K !! p = Some ks -> x ∈ ks -> (last_not_first K x -> cs = [] -> alone s K x) ->
     exists s' t t' K2, step s (OpReplace a) = Ret (s', OutUnit) /\ tree_of s x = Some t /\
       splits s (<[x := []]> (<[p := splice x cs ks]> K)) x t t' s' K2) /\
  (forall c, is_top K x -> cs = [c] -> exists s' t t' K2, step s (OpReplace a) = Ret (s', OutUnit) /\ tree_of s x = Some t /\
       splits s (<[x := []]> K) x t t' s' K2 /\ (is_Some (s_trees s' !! t) -> t_root <$> s_trees s' !! t = Some c)) /\
  (is_top K x -> cs = [] -> step s (OpReplace a) = Ret (s, OutErr EmptyTree)) /\
  (is_top K x -> 1 < length cs -> step s (OpReplace a) = Ret (s, OutErr SiblingsWithoutParent)).
Proof.
  intros H Hst Hr Hx.
  assert ((last_not_first K x -> cs = [] -> alone s K x) -> exists s' r t, step s (OpReplace a) = Ret (s', r) /\ tree_of s x = Some t /\
     ((exists p ks t' K2, K !! p = Some ks /\ x ∈ ks /\ r = OutUnit /\
          splits s (<[x := []]> (<[p := splice x cs ks]> K)) x t t' s' K2) \/
       (is_top K x /\ exists c t' K2, cs = [c] /\ r = OutUnit /\
          splits s (<[x := []]> K) x t t' s' K2 /\
          (is_Some (s_trees s' !! t) -> t_root <$> s_trees s' !! t = Some c)) \/
       (is_top K x /\ cs = [] /\ r = OutErr EmptyTree /\ s' = s) \/
       (is_top K x /\ 1 < length cs /\ r = OutErr SiblingsWithoutParent /\ s' = s))) as G.
  { intros Hsafe. destruct (reach_effect s K (OpReplace a) H Hst) as (s' & r & E & Hr' & Ef).
    { intros k' x' Hrc. destruct (receiver_unique _ _ _ _ _ _ Hr Hrc) as [-> ->]. intros Hl. rewrite Hx. intros e. apply (Hsafe Hl). congruence. }
    { by eapply receiver_typed. } { by eapply receiver_not_unauth. }
    destruct Ef as [[]|[[]|(k' & x' & t & cs' & Hrc & Et & Hx' & C)]]. destruct (receiver_unique _ _ _ _ _ _ Hr Hrc) as [-> ->].
    assert (cs' = cs) as -> by congruence. exists s', r, t. split; [exact E|]. split; [exact Et|exact C]. }
  assert (is_top K x -> last_not_first K x -> cs = [] -> alone s K x) as Hsafe.
  { intros Htop (q & ks & Hq & Hl & _). exfalso. apply (top_no_parent K x q ks Htop Hq). by apply last_Some_elem_of. }
  split_and!.
  - intros p ks Hp Hin Hs. destruct (G Hs) as (s' & r & t & E & Et & [(q & ks' & t' & K2 & Hq & Hin' & -> & S)|[(Htop & _)|[(Htop & _)|(Htop & _)]]]).
    + destruct (stores_parent s K x p q ks ks' Hst Hp Hin Hq Hin') as [-> ->]. exists s', t, t', K2. done.
    + exfalso. by eapply top_no_parent.
    + exfalso. by eapply top_no_parent.
    + exfalso. by eapply top_no_parent.
  - intros c Htop Hc. destruct (G (Hsafe Htop)) as (s' & r & t & E & Et & [(q & ks' & t' & K2 & Hq & Hin' & -> & S)|[(_ & c' & t' & K2 & Hc' & -> & S)|[(_ & Hc' & _)|(_ & Hc' & _)]]]).
    + exfalso. by eapply top_no_parent.
    + assert (c' = c) as -> by congruence. exists s', t, t', K2. done.
    + congruence.
    + exfalso. rewrite Hc in Hc'. simpl in Hc'. lia.
  - intros Htop Hc. destruct (G (Hsafe Htop)) as (s' & r & t & E & Et & [(q & ks' & t' & K2 & Hq & Hin' & -> & S)|[(_ & c' & t' & K2 & Hc' & -> & S)|[(_ & Hc' & -> & ->)|(_ & Hc' & _)]]]).
    + exfalso. by eapply top_no_parent.
    + congruence.
    + exact E.
    + exfalso. rewrite Hc in Hc'. simpl in Hc'. lia.
  - intros Htop Hc. destruct (G (Hsafe Htop)) as (s' & r & t & E & Et & [(q & ks' & t' & K2 & Hq & Hin' & -> & S)|[(_ & c' & t' & K2 & Hc' & -> & S)|[(_ & Hc' & -> & ->)|(_ & Hc' & -> & ->)]]]).
    + exfalso. by eapply top_no_parent.
    + exfalso. rewrite Hc' in Hc. simpl in Hc. lia.
    + exfalso. rewrite Hc' in Hc. simpl in Hc. lia.
    + exact E.
Qed.

Lemma detach_api s K a k x : reach s -> stores s K -> receiver s a k x ->
  (is_top K x -> step s (OpDetach a) = Ret (s, OutUnit)) /\
  (forall p ks, K !! p = Some ks -> x ∈ ks -> (last_not_first K x -> alone s K x) ->
     exists s' t t' K2, step s (OpDetach a) = Ret (s', OutUnit) /\ tree_of s x = Some t /\
       splits s (<[p := without x ks]> K) x t t' s' K2).
Proof.
  intros H Hst Hr.
  assert ((last_not_first K x -> alone s K x) -> exists s' t, step s (OpDetach a) = Ret (s', OutUnit) /\ tree_of s x = Some t /\
       ((is_top K x /\ s' = s) \/
       (exists K1 t' K2, unlinked K x K1 /\ splits s K1 x t t' s' K2))) as G.
  { intros Hsafe. destruct (reach_effect s K (OpDetach a) H Hst) as (s' & r & E & Hr' & Ef).
    { intros k' x' Hrc. by destruct (receiver_unique _ _ _ _ _ _ Hr Hrc) as [-> ->]. }
    { by eapply receiver_typed. } { by eapply receiver_not_unauth. }
    destruct Ef as [[]|[[]|(k' & x' & t & Hrc & Et & -> & C)]]. destruct (receiver_unique _ _ _ _ _ _ Hr Hrc) as [-> ->].
    exists s', t. split; [exact E|]. split; [exact Et|exact C]. }
  split.
  - intros Htop. destruct G as (s' & t & E & Et & [[_ ->]|(K1 & t' & K2 & (q & ks & Hq & Hin & _) & _)]).
    { intros (q & ks & Hq & Hl & _). exfalso. apply (top_no_parent K x q ks Htop Hq). by apply last_Some_elem_of. }
    + exact E.
    + exfalso. by eapply top_no_parent.
  - intros p ks Hp Hin Hs. destruct (G Hs) as (s' & t & E & Et & [[Htop _]|(K1 & t' & K2 & (q & ks' & Hq & Hin' & ->) & S)]).
    + exfalso. by eapply top_no_parent.
    + destruct (stores_parent s K x p q ks ks' Hst Hp Hin Hq Hin') as [-> ->]. exists s', t, t', K2. done.
Qed.

Lemma move_api s K a k x ad j y : reach s -> stores s K -> receiver s a k x -> s_hands s !! j = Some (HNode Hot y) ->
  (exists p, child_of K p x) -> (last_not_first K x -> alone s K x) -> ~ below K x y -> has_place K ad y ->
  exists s' t t', step s (OpMove a ad j) = Ret (s', OutUnit) /\ tree_of s x = Some t /\ tree_of s y = Some t' /\
    (t = t' -> exists K', moved K x (dest_of ad y) K' /\ reshapes s s' K') /\
    (t <> t' -> exists K1 K2 K3, unlinked K x K1 /\ carries s K1 x t t' s' K2 /\ attached K2 x (dest_of ad y) K3 /\ stores s' K3).
Proof.
  intros H Hst Hr Hj Hp Hl Hb Hpl. destruct (reach_effect s K (OpMove a ad j) H Hst) as (s' & r & E & Hr' & Ef).
  { intros k' x' y' Hrc Hj'. destruct (receiver_unique _ _ _ _ _ _ Hr Hrc) as [-> ->]. assert (y' = y) as -> by congruence. right. by left. }
  { split; [by eapply receiver_typed|by exists y]. }
  { intros [Hu _]. revert Hu. by eapply receiver_not_unauth. }
  destruct Ef as [[]|[[]|(k' & x' & y' & t & t' & Hrc & Hj' & Et & Et' & -> & C)]]. destruct (receiver_unique _ _ _ _ _ _ Hr Hrc) as [-> ->].
  assert (y' = y) as -> by congruence. exists s', t, t'. split; [exact E|]. split; [exact Et|]. split; [exact Et'|].
  destruct C as [(Htop & _)|[(e & C)|(ne & C)]].
  - destruct Hp as [p Hp]. exfalso. by apply (proj2 Htop p).
  - split; [intros _; exact C|done].
  - split; [done|intros _]. destruct C as (K1 & K2 & K3 & [Hu|(Htop & _)] & C); [by exists K1, K2, K3|].
    destruct Hp as [p Hp]. exfalso. by apply (proj2 Htop p).
Qed.
Lemma below_leaf K x z : K !! x = Some [] -> below K x z -> z = x.
Proof.
  intros Hk. induction 1 as [|p c Hb IH Hc]; [done|]. subst. destruct Hc as (ks & Hks & Hin). rewrite Hk in Hks. injection Hks as <-. by apply not_elem_of_nil in Hin.
Qed.
(** A tree of one node, not kept by a [Tree] handle, is given to another tree. *)
Lemma graft_leaf_api s K a k x ad j y t t' : reach s -> stores s K -> receiver s a k x -> s_hands s !! j = Some (HNode Hot y) ->
  is_top K x -> K !! x = Some [] -> tree_of s x = Some t -> tree_of s y = Some t' -> t <> t' -> (forall i, s_hands s !! i <> Some (HTree t)) -> has_place K ad y ->
  exists s' K', step s (OpMove a ad j) = Ret (s', OutUnit) /\ reach s' /\ carries s K x t t' s' K /\ attached K x (dest_of ad y) K' /\ stores s' K' /\ s_trees s' !! t = None.
Proof.
  intros H Hst Hr Hj Htop Hk Ht Ht' Hne Hno Hpl.
  assert (forall i k z, s_hands s !! i = Some (HNode k z) -> tree_of s z = Some t -> below K x z) as Hbel.
  { pose proof (reach_stores_inv s K H Hst) as I. intros i kk z Hi Hz. destruct (s_top _ _ (i_s _ _ I) x Htop) as (u & tr & A1 & A2 & A3).
    assert (u = t) as -> by congruence. rewrite <-A3. apply (sinv_below _ _ _ _ _ (i_s _ _ I) A2). split; [|done]. by eapply handle_alive. }
  destruct (reach_effect s K (OpMove a ad j) H Hst) as (s' & r & E & Hr' & Ef).
  { intros k' x' y' Hrc Hj'. destruct (receiver_unique _ _ _ _ _ _ Hr Hrc) as [-> ->]. assert (y' = y) as -> by congruence. right. right.
    split; [done|]. split; [done|]. split; [congruence|]. split; [|done]. intros u Hu. assert (u = t) as -> by congruence. split; [exact Hno|exact Hbel]. }
  { split; [by eapply receiver_typed|by exists y]. }
  { intros [Hu _]. revert Hu. by eapply receiver_not_unauth. }
  destruct Ef as [[]|[[]|(k' & x' & y' & u & u' & Hrc & Hj' & Et & Et' & -> & C)]]. destruct (receiver_unique _ _ _ _ _ _ Hr Hrc) as [-> ->].
  assert (y' = y) as -> by congruence. assert (u = t) as -> by congruence. assert (u' = t') as -> by congruence.
  destruct C as [(_ & e & _)|[(e & _)|(_ & K1 & K2 & K3 & [(q & ks & Hq & Hin & _)|(_ & _ & ->)] & C & At & St)]]; [done|done|exfalso; by eapply top_no_parent|].
  destruct (cy_rest _ _ _ _ _ _ _ C) as [(B1 & _)|(B1 & B2 & B3)].
  - exfalso. destruct B1 as [[i Hi]|(i & kk & z & Hi & Hz)]; rewrite (cy_hands _ _ _ _ _ _ _ C) in Hi; [by eapply Hno|].
    destruct (decide (z = x)) as [->|Hzx].
    + assert (below K x x) as Hb by constructor. rewrite (cy_in _ _ _ _ _ _ _ C x Hb) in Hz. congruence.
    + assert (~ below K x z) as Hb by (intros Hb; by apply Hzx, (below_leaf K x z Hk)). apply Hb. apply (Hbel i kk z Hi). rewrite <-(cy_out _ _ _ _ _ _ _ C z Hb); [done|].
      pose proof (reach_stores_inv s' K3 Hr' St) as I'. apply (handle_alive s' K3 i kk z I'). by rewrite (cy_hands _ _ _ _ _ _ _ C).
  - assert (K2 = K) as ->.
    { apply map_eq. intros z. destruct (B3 z) as [X1 X2]. destruct (K !! z) eqn:Ez.
      - apply X1. destruct (decide (tree_of s z = Some t)) as [Hz|Hz]; [left|by right].
        pose proof (reach_stores_inv s K H Hst) as I. destruct (s_top _ _ (i_s _ _ I) x Htop) as (u & tr & A1 & A2 & A3).
        assert (u = t) as -> by congruence. rewrite <-A3. apply (sinv_below _ _ _ _ _ (i_s _ _ I) A2). split; [|done]. apply (inv_alive s K z I). eauto.
      - destruct (decide (tree_of s z = Some t)) as [Hz|Hz].
        + apply X2. intros [Hb|Hz']; [|done]. apply (below_leaf K x z Hk) in Hb as ->. congruence.
        + apply X1. by right. }
    by exists s', K3.
Qed.
Lemma move_root_same s K a k x ad j y : reach s -> stores s K -> receiver s a k x -> s_hands s !! j = Some (HNode Hot y) ->
  is_top K x -> tree_of s x = tree_of s y -> step s (OpMove a ad j) = Ret (s, OutUnit).
Proof.
  intros H Hst Hr Hj Htop Het. destruct (reach_effect s K (OpMove a ad j) H Hst) as (s' & r & E & Hr' & Ef).
  { intros k' x' y' Hrc Hj'. destruct (receiver_unique _ _ _ _ _ _ Hr Hrc) as [-> ->]. assert (y' = y) as -> by congruence. by left. }
  { split; [by eapply receiver_typed|by exists y]. }
  { intros [Hu _]. revert Hu. by eapply receiver_not_unauth. }
  destruct Ef as [[]|[[]|(k' & x' & y' & t & t' & Hrc & Hj' & Et & Et' & -> & C)]]. destruct (receiver_unique _ _ _ _ _ _ Hr Hrc) as [-> ->].
  assert (y' = y) as -> by congruence. destruct C as [(_ & _ & ->)|[(_ & K' & (K1 & (q & ks & Hq & Hin & _) & _) & _)|(ne & _)]].
  - exact E.
  - exfalso. by eapply top_no_parent.
  - congruence.
Qed.
End ApiFacts3.
