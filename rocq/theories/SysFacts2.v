(** * SysFacts2: acquiring and releasing locks. *)
From Verif Require Import Heap System SysSpec CardFacts HeapFacts SpecFacts NavFacts EditFacts3 SysFacts Spec.

Section SysFacts2.
Context {T : Type}.
Implicit Types (h : heap T) (s : sys T) (hm : gmap nat handle).

Lemma tree_cnt_put s t z u : s_trees (put_cnt s t z) !! u =
  if decide (u = t) then (fun tr => mkTree (t_root tr) z) <$> s_trees s !! u else s_trees s !! u.
Proof.
  simpl. destruct (decide (u = t)) as [->|]; [by rewrite lookup_alter|by rewrite lookup_alter_ne].
Qed.

(** Changing the kind of one handle between plain and [k]. *)
Lemma relabel_iff hm i k x (Hi : exists k0, hm !! i = Some (HNode k0 x)) :
  forall y j, node_handle (<[i := HNode k x]> hm) y j <-> node_handle hm y j.
Proof.
  intros y j. unfold node_handle. destruct (decide (j = i)) as [->|].
  - rewrite lookup_insert. destruct Hi as [k0 ->]. naive_solver.
  - by rewrite lookup_insert_ne.
Qed.

Lemma relabel_token hm i k x k' t j (Hi : exists k0, hm !! i = Some (HNode k0 x)) :
  token_holder (<[i := HNode k x]> hm) k' t j <-> token_holder hm k' t j.
Proof.
  unfold token_holder. destruct (decide (j = i)) as [->|].
  - rewrite lookup_insert. destruct Hi as [k0 ->]. split; intros [_ B]; exfalso; destruct k'; discriminate B.
  - by rewrite lookup_insert_ne.
Qed.

Lemma holder_lock s hm k t x : node_holder s hm k t x -> exists i, lock_handle hm x i.
Proof. intros (H1 & _ & i & Hi). exists i, k. done. Qed.

(** All hot and frozen handles on the nodes of a tree agree. *)
Lemma lock_ok_excl s hm t tr k : lock_ok s hm t tr -> k <> Plain ->
  (exists j, token_holder hm k t j) \/ (exists x, node_holder s hm k t x) -> holders s hm (opp k) t 0.
Proof.
  intros (g & p & Hg & Hp & _ & H) Hk Hx.
  assert (forall n, holders s hm k t n -> 0 < n) as Hn.
  { intros n Hn. destruct Hx as [[j Hj]|[x Hx]]; [by eapply holders_pos_token|by eapply holders_pos_node]. }
  destruct k; [done|..]; simpl; specialize (Hn _ ltac:(eassumption)); destruct H as [->| ->]; (lia || done).
Qed.

(** [put_mem] on a node with a handle of kind going from plain to [k]. *)
Lemma acquire_ok s hm i k x t :
  hinv s hm -> hm !! i = Some (HNode Plain x) -> k <> Plain -> tree_of s x = Some t ->
  (holders s hm (opp k) t 0 /\ exists s', acquire s k x = Ret (Some s') /\
     hinv s' (<[i := HNode k x]> hm) /\ framed s s') \/
  (exists n, holders s hm (opp k) t (S n) /\ acquire s k x = Ret None).
Proof.
  intros H Hi Hk Ht.
  destruct (hinv_handle_strong _ _ _ _ _ H Hi) as (t1 & rc & lk & Hm & [tr Htr] & C1 & C2 & E).
  assert (t = t1) as -> by congruence. clear E.
  destruct (h_lock _ _ H _ _ Htr) as (g & p & Hg & Hp & Hc & Hz).
  assert (exists a b, holders s hm k t1 a /\ holders s hm (opp k) t1 b /\ (a = 0 \/ b = 0) /\
    t_cnt tr = match k with Hot => (Z.of_nat a - Z.of_nat b)%Z | _ => (Z.of_nat b - Z.of_nat a)%Z end) as (a & b & Ha & Hb & Hab & Hcnt).
  { destruct k; [done|..]; simpl; [exists g, p|exists p, g]; split_and!; try done; tauto. }
  assert ((match k with Hot => (0 <=? t_cnt tr)%Z | _ => (t_cnt tr <=? 0)%Z end) = true <-> b = 0) as Hacq.
  { rewrite Hcnt. destruct k; [done|..]; rewrite Z.leb_le; lia. }
  assert (acquire s k x = if (match k with Hot => (0 <=? t_cnt tr)%Z | _ => (t_cnt tr <=? 0)%Z end) then
     match lk with 0 => Ret (Some (put_mem (put_cnt s t1 (match k with Hot => (t_cnt tr + 1)%Z | _ => (t_cnt tr - 1)%Z end)) x (MStrong t1 (S rc) 1)))
      | S _ => Ret (Some (put_mem s x (MStrong t1 (S rc) (S lk)))) end else Ret None) as Eacq.
  { unfold acquire. rewrite Hm, Htr. unfold lock_tree. rewrite Htr. destruct k; [done|..].
    - destruct (0 <=? t_cnt tr)%Z eqn:E1; [|done]. destruct lk; [|done]. rewrite (proj2 (Z.ltb_ge _ _)); [done|]. by apply Z.leb_le.
    - destruct (t_cnt tr <=? 0)%Z eqn:E1; [|done]. destruct lk; [|done]. rewrite (proj2 (Z.ltb_ge _ _)); [done|]. by apply Z.leb_le. }
  destruct b as [|b].
  2: { right. exists b. split; [done|]. rewrite Eacq. clear Eacq.
       destruct (match k with Hot => (0 <=? t_cnt tr)%Z | _ => (t_cnt tr <=? 0)%Z end); [|done].
       destruct Hacq as [X _]. specialize (X eq_refl). lia. }
  left. split; [done|]. rewrite Eacq. rewrite (proj2 Hacq eq_refl).
  assert (exists k0, hm !! i = Some (HNode k0 x)) as Hi0 by eauto.
  assert (forall y j, lock_handle (<[i := HNode k x]> hm) y j <-> (j = i /\ y = x) \/ lock_handle hm y j) as L.
  { intros y j. unfold lock_handle. destruct (decide (j = i)) as [->|].
    - rewrite lookup_insert, Hi. naive_solver.
    - rewrite lookup_insert_ne by done. naive_solver. }
  assert (~ lock_handle hm x i) as Hnl. { intros (k1 & Hk1 & E1). rewrite Hi in E1. by simplify_eq. }
  assert (forall k1 u y, (node_holder s (<[i := HNode k x]> hm) k1 u y <-> (k1 = k /\ u = t1 /\ y = x) \/ node_holder s hm k1 u y)) as NH.
  { intros k1 u y. unfold node_holder. split.
    - intros (A & B & j & C). destruct (decide (j = i)) as [->|].
      + rewrite lookup_insert in C. simplify_eq. by left.
      + rewrite lookup_insert_ne in C by done. right. eauto.
    - intros [(-> & -> & ->)|(A & B & j & C)].
      + split_and!; [done|done|]. exists i. by rewrite lookup_insert.
      + split_and!; [done|done|]. exists j. rewrite lookup_insert_ne; [done|]. intros <-. congruence. }
  assert (is_Some (s_nodes s !! x)) as Hx by (by eapply n_memb_alive).
  set (z := match k with Hot => (t_cnt tr + 1)%Z | _ => (t_cnt tr - 1)%Z end).
  (* the two cases share everything except the lock counts *)
  assert (forall s1 lk1, framed s s1 -> s_nodes s1 = s_nodes s -> lk1 = S lk ->
     (forall u tr1, s_trees s1 !! u = Some tr1 -> lock_ok s (<[i := HNode k x]> hm) u tr1) ->
     hinv (put_mem s1 x (MStrong t1 (S rc) lk1)) (<[i := HNode k x]> hm) /\ framed s (put_mem s1 x (MStrong t1 (S rc) lk1))) as Common.
  { intros s1 lk1 F Hs1 -> HL.
    assert (n_memb s1 x = Some (MStrong t1 (S rc) lk)) as Hm1. { unfold n_memb. by rewrite Hs1. }
    assert (framed s1 (put_mem s1 x (MStrong t1 (S rc) (S lk)))) as F1. { by eapply put_mem_framed. }
    assert (framed s (put_mem s1 x (MStrong t1 (S rc) (S lk)))) as F2 by (by eapply framed_trans).
    split; [|done]. assert (is_Some (s_nodes s1 !! x)) as Hx1 by (by rewrite Hs1).
    assert (forall y, n_memb s1 y = n_memb s y) as Nm. { intros y. unfold n_memb. by rewrite Hs1. }
    split.
    - intros y o. rewrite n_memb_put, Nm by done. destruct (decide (y = x)) as [->|]; [done|]. intros Hy.
      destruct (h_weak _ _ H _ _ Hy) as [A B]. split; [done|]. intros j. rewrite relabel_iff by done. apply B.
    - intros y u rc1 lk1. rewrite n_memb_put, Nm by done. rewrite (framed_tree_alive _ _ _ F2).
      destruct (decide (y = x)) as [->|].
      + intros E1. simplify_eq. split_and!; [eauto|lia| |].
        * eapply card_ext; [done|]. intros j. by rewrite relabel_iff.
        * eapply (card_add _ _ _ i); [done|done|]. intros j. rewrite L. naive_solver.
      + intros Hy. destruct (h_strong _ _ H _ _ _ _ Hy) as (A & B & C & D). split_and!; [done|done| |].
        * eapply card_ext; [done|]. intros j. by rewrite relabel_iff.
        * eapply card_ext; [done|]. intros j. rewrite L. naive_solver.
    - intros j k1 y Hj. rewrite (framed_alive _ _ _ F2). destruct (decide (j = i)) as [->|].
      + rewrite lookup_insert in Hj. by simplify_eq.
      + rewrite lookup_insert_ne in Hj by done. exact (h_node _ _ H _ _ _ Hj).
    - intros j u Hj. rewrite (framed_tree_alive _ _ _ F2). destruct (decide (j = i)) as [->|].
      + by rewrite lookup_insert in Hj.
      + rewrite lookup_insert_ne in Hj by done. exact (h_tree _ _ H _ _ Hj).
    - intros u tr1 Hu. eapply lock_ok_ext; [apply HL; exact Hu|done|].
      intros k1 y. unfold node_holder. by rewrite (fr_tree _ _ F2). }
  destruct lk as [|lk].
  - eexists. split; [done|]. apply Common; [apply put_cnt_framed|done|done|].
    intros u tr1. rewrite tree_cnt_put. destruct (decide (u = t1)) as [->|].
    + rewrite Htr. intros E1. simpl in E1. simplify_eq.
      assert (~ node_holder s hm k t1 x) as Hnx.
      { intros (_ & _ & j & Hj). apply (card_0 _ C2 j). by exists k. }
      assert (holders s (<[i := HNode k x]> hm) k t1 (S a)) as Ha'.
      { eapply holders_add_node; [exact Ha|exact Hnx|..].
        - intros j. by rewrite relabel_token.
        - intros y. rewrite NH. naive_solver. }
      assert (holders s (<[i := HNode k x]> hm) (opp k) t1 0) as Hb'.
      { eapply holders_ext; [exact Hb|..].
        - intros j. by rewrite relabel_token.
        - intros y. rewrite NH. destruct k; naive_solver. }
      destruct k; [done|..]; simpl in *.
      * exists (S a), 0. split_and!; try done; [|by right]. unfold z; simpl; lia.
      * exists 0, (S a). split_and!; try done; [|by left]. unfold z; simpl; lia.
    + intros Hu. eapply lock_ok_ext; [exact (h_lock _ _ H _ _ Hu)|..].
      * intros k1 j. by rewrite relabel_token.
      * intros k1 y. rewrite NH. naive_solver.
  - eexists. split; [done|]. apply Common; [apply framed_refl|done|done|].
    intros u tr1 Hu. eapply lock_ok_ext; [exact (h_lock _ _ H _ _ Hu)|..].
    + intros k1 j. by rewrite relabel_token.
    + intros k1 y. rewrite NH. split; [naive_solver|]. intros [(-> & -> & ->)|]; [|done].
      destruct (card_S _ _ C2) as (j & k2 & Hk2 & Hj).
      assert (k2 = k) as ->; [|split_and!; eauto]. destruct (decide (k2 = k)) as [|Hne]; [done|exfalso].
      apply (proj2 (holders_0 _ _ _ _ Hb) x). split_and!; [by destruct k|done|]. exists j.
      rewrite Hj. f_equal. f_equal. by destruct k, k2.
Qed.

(** A node with lock handles has them all of one kind. *)
Lemma same_kind s hm i j k k2 x : hinv s hm -> hm !! i = Some (HNode k x) -> k <> Plain ->
  hm !! j = Some (HNode k2 x) -> k2 <> Plain -> k2 = k.
Proof.
  intros H Hi Hk Hj Hk2. destruct (decide (k2 = k)) as [|Hne]; [done|exfalso].
  destruct (hinv_handle_strong _ _ _ _ _ H Hi) as (t & rc & lk & Hm & [tr Htr] & _ & _ & Ht).
  assert (holders s hm (opp k) t 0) as H0.
  { eapply lock_ok_excl; [exact (h_lock _ _ H _ _ Htr)|done|]. right. exists x. split_and!; eauto. }
  apply (proj2 (holders_0 _ _ _ _ H0) x). split_and!; [by destruct k|done|]. exists j.
  rewrite Hj. f_equal. f_equal. by destruct k, k2.
Qed.

Lemma decr_lock_ok s hm i k x :
  hinv s hm -> hm !! i = Some (HNode k x) -> k <> Plain ->
  exists s', decr_lock s x = Ret s' /\ hinv s' (<[i := HNode Plain x]> hm) /\ framed s s'.
Proof.
  intros H Hi Hk.
  destruct (hinv_handle_strong _ _ _ _ _ H Hi) as (t & rc & lk & Hm & [tr Htr] & C1 & C2 & Ht).
  destruct (h_lock _ _ H _ _ Htr) as (g & p & Hg & Hp & Hc & Hz).
  assert (node_holder s hm k t x) as Hxh by (split_and!; eauto).
  assert (exists a, holders s hm k t (S a) /\ holders s hm (opp k) t 0 /\
    t_cnt tr = match k with Hot => (Z.of_nat (S a))%Z | _ => (- Z.of_nat (S a))%Z end) as (a & Ha & Hb & Hcnt).
  { destruct k; [done|..]; simpl.
    - pose proof (holders_pos_node _ _ _ _ _ _ Hg Hxh) as Hpos. destruct g as [|g]; [lia|]. exists g.
      assert (p = 0) as -> by lia. split_and!; (done || lia).
    - pose proof (holders_pos_node _ _ _ _ _ _ Hp Hxh) as Hpos. destruct p as [|p]; [lia|]. exists p.
      assert (g = 0) as -> by lia. split_and!; (done || lia). }
  assert (exists k0, hm !! i = Some (HNode k0 x)) as Hi0 by eauto.
  assert (lock_handle hm x i) as Hli by (by exists k).
  assert (forall y j, lock_handle (<[i := HNode Plain x]> hm) y j <-> j <> i /\ lock_handle hm y j) as L.
  { intros y j. unfold lock_handle. destruct (decide (j = i)) as [->|].
    - rewrite lookup_insert. naive_solver.
    - rewrite lookup_insert_ne by done. naive_solver. }
  destruct (card_remove _ (lock_handle (<[i := HNode Plain x]> hm) x) _ _ C2 Hli (L x)) as (m & -> & C2').
  set (z := match k with Hot => (t_cnt tr - 1)%Z | _ => (t_cnt tr + 1)%Z end).
  assert (decr_lock s x = Ret (match m with 0 => put_cnt (put_mem s x (MStrong t (S rc) m)) t z
     | S _ => put_mem s x (MStrong t (S rc) m) end)) as Edec.
  { unfold decr_lock. rewrite Hm. destruct m; [|done]. unfold release_any. simpl s_trees. rewrite Htr.
    rewrite Hcnt. unfold z. rewrite Hcnt. by destruct k. }
  assert (is_Some (s_nodes s !! x)) as Hx by (by eapply n_memb_alive).
  rewrite Edec. eexists. split; [done|].
  assert (forall s1 : sys T, framed s s1 ->
     (forall y, n_memb s1 y = n_memb (put_mem s x (MStrong t (S rc) m)) y) ->
     (forall u tr1, s_trees s1 !! u = Some tr1 -> lock_ok s (<[i := HNode Plain x]> hm) u tr1) ->
     hinv s1 (<[i := HNode Plain x]> hm) /\ framed s s1) as Common.
  { intros s1 F Nm HL. split; [|done]. split.
    - intros y o. rewrite Nm, n_memb_put by done. destruct (decide (y = x)) as [->|]; [done|]. intros Hy.
      destruct (h_weak _ _ H _ _ Hy) as [A B]. split; [done|]. intros j. rewrite relabel_iff by done. apply B.
    - intros y u rc1 lk1. rewrite Nm, n_memb_put by done. rewrite (framed_tree_alive _ _ _ F).
      destruct (decide (y = x)) as [->|].
      + intros E1. simplify_eq. split_and!; [eauto|lia| |done].
        eapply card_ext; [done|]. intros j. by rewrite relabel_iff.
      + intros Hy. destruct (h_strong _ _ H _ _ _ _ Hy) as (A & B & C & D). split_and!; [done|done| |].
        * eapply card_ext; [done|]. intros j. by rewrite relabel_iff.
        * eapply card_ext; [done|]. intros j. rewrite L. split; [|naive_solver]. intros Hl. split; [|done].
          intros ->. destruct Hl as (k1 & _ & Hl). rewrite Hi in Hl. by simplify_eq.
    - intros j k1 y Hj. rewrite (framed_alive _ _ _ F). destruct (decide (j = i)) as [->|].
      + rewrite lookup_insert in Hj. by simplify_eq.
      + rewrite lookup_insert_ne in Hj by done. exact (h_node _ _ H _ _ _ Hj).
    - intros j u Hj. rewrite (framed_tree_alive _ _ _ F). destruct (decide (j = i)) as [->|].
      + by rewrite lookup_insert in Hj.
      + rewrite lookup_insert_ne in Hj by done. exact (h_tree _ _ H _ _ Hj).
    - intros u tr1 Hu. eapply lock_ok_ext; [apply HL; exact Hu|done|].
      intros k1 y. unfold node_holder. by rewrite (fr_tree _ _ F). }
  assert (forall k1 u y, y <> x \/ k1 <> k \/ m <> 0 ->
     (node_holder s (<[i := HNode Plain x]> hm) k1 u y <-> node_holder s hm k1 u y)) as NH.
  { intros k1 u y Hor. unfold node_holder. split.
    - intros (A & B & j & C). destruct (decide (j = i)) as [->|].
      + rewrite lookup_insert in C. by simplify_eq.
      + rewrite lookup_insert_ne in C by done. eauto.
    - intros (A & B & j & C). split_and!; [done|done|]. destruct (decide (j = i)) as [->|].
      + rewrite Hi in C. simplify_eq. destruct m as [|m]; [naive_solver|].
        destruct (card_S _ _ C2') as (j & Hj). destruct Hj as (k2 & Hk2 & Hj). exists j.
        assert (j <> i) as Hji by (intros ->; rewrite lookup_insert in Hj; by simplify_eq).
        rewrite lookup_insert_ne in * by done. rewrite Hj. f_equal. f_equal. by eapply same_kind.
      + exists j. by rewrite lookup_insert_ne. }
  assert (framed s (put_mem s x (MStrong t (S rc) m))) as F1. { by eapply put_mem_framed. }
  destruct m as [|m].
  - apply Common; [eapply framed_trans; [exact F1|apply put_cnt_framed]|done|].
    intros u tr1. rewrite tree_cnt_put. simpl s_trees. destruct (decide (u = t)) as [->|].
    + rewrite Htr. intros E1. simpl in E1. simplify_eq.
      destruct (holders_remove_node s s hm (<[i := HNode Plain x]> hm) k t _ x Ha Hxh) as (a' & Ea & Ha').
      { intros j. by rewrite relabel_token. }
      { intros y. destruct (decide (y = x)) as [->|Hne].
        - split; [|naive_solver]. intros (_ & _ & j & Hj). exfalso. apply (card_0 _ C2' j). by exists k.
        - rewrite NH by (by left). naive_solver. }
      assert (a' = a) as -> by congruence.
      assert (holders s (<[i := HNode Plain x]> hm) (opp k) t 0) as Hb'.
      { eapply holders_ext; [exact Hb|..].
        - intros j. by rewrite relabel_token.
        - intros y. rewrite NH; [done|]. right. left. by destruct k. }
      destruct k; [done|..]; simpl in *.
      * exists a, 0. split_and!; try done; [|by right]. unfold z; simpl; lia.
      * exists 0, a. split_and!; try done; [|by left]. unfold z; simpl; lia.
    + intros Hu. eapply lock_ok_ext; [exact (h_lock _ _ H _ _ Hu)|..].
      * intros k1 j. by rewrite relabel_token.
      * intros k1 y. destruct (decide (y = x)) as [->|]; [|by rewrite NH by (by left)].
        unfold node_holder. split; intros (A & B & _); congruence.
  - apply Common; [exact F1|done|].
    intros u tr1 Hu. eapply lock_ok_ext; [exact (h_lock _ _ H _ _ Hu)|..].
    + intros k1 j. by rewrite relabel_token.
    + intros k1 y. rewrite NH; [done|]. naive_solver.
Qed.

(** Tokens. *)
Lemma lock_tree_ok s hm i k t :
  hinv s hm -> hm !! i = None -> k <> Plain -> is_Some (s_trees s !! t) ->
  (holders s hm (opp k) t 0 /\ exists s', lock_tree s k t = Some s' /\
     hinv s' (<[i := token k t]> hm) /\ framed s s') \/
  (exists n, holders s hm (opp k) t (S n) /\ lock_tree s k t = None).
Proof.
  intros H Hi Hk [tr Htr].
  destruct (h_lock _ _ H _ _ Htr) as (g & p & Hg & Hp & Hc & Hz).
  assert (exists a b, holders s hm k t a /\ holders s hm (opp k) t b /\ (a = 0 \/ b = 0) /\
    t_cnt tr = match k with Hot => (Z.of_nat a - Z.of_nat b)%Z | _ => (Z.of_nat b - Z.of_nat a)%Z end) as (a & b & Ha & Hb & Hab & Hcnt).
  { destruct k; [done|..]; simpl; [exists g, p|exists p, g]; split_and!; try done; tauto. }
  set (z := match k with Hot => (t_cnt tr + 1)%Z | _ => (t_cnt tr - 1)%Z end).
  assert (lock_tree s k t = match b with 0 => Some (put_cnt s t z) | S _ => None end) as El.
  { unfold lock_tree, z. rewrite Htr. destruct k; [done|..].
    - destruct b; [rewrite (proj2 (Z.ltb_ge _ _)) by lia|rewrite (proj2 (Z.ltb_lt _ _)) by lia]; done.
    - destruct b; [rewrite (proj2 (Z.ltb_ge _ _)) by lia|rewrite (proj2 (Z.ltb_lt _ _)) by lia]; done. }
  destruct b as [|b]; [left; split; [done|]|right; eauto].
  rewrite El. eexists. split; [done|]. split; [|apply put_cnt_framed].
  assert (counted (token k t) = true) as Hct by (by destruct k).
  assert (forall y j, node_handle (<[i := token k t]> hm) y j <-> node_handle hm y j) as N.
  { intros y j. unfold node_handle. setoid_rewrite (insert_hand_iff _ _ _ _ _ Hi). split; [|naive_solver].
    intros (k1 & [[_ E]|E]); [by destruct k|eauto]. }
  assert (forall y j, lock_handle (<[i := token k t]> hm) y j <-> lock_handle hm y j) as L.
  { intros y j. unfold lock_handle. setoid_rewrite (insert_hand_iff _ _ _ _ _ Hi). split; [|naive_solver].
    intros (k1 & Hk1 & [[_ E]|E]); [by destruct k|eauto]. }
  assert (forall k1 u y, node_holder (put_cnt s t z) (<[i := token k t]> hm) k1 u y <-> node_holder s hm k1 u y) as NH.
  { intros k1 u y. unfold node_holder. rewrite (fr_tree _ _ (put_cnt_framed s t z)).
    setoid_rewrite (insert_hand_iff _ _ _ _ _ Hi). split; [|naive_solver].
    intros (A & B & j & [[_ E]|E]); [by destruct k|eauto]. }
  assert (forall k1 u j, token_holder (<[i := token k t]> hm) k1 u j <-> (j = i /\ k1 = k /\ u = t) \/ token_holder hm k1 u j) as TH.
  { intros k1 u j. unfold token_holder. rewrite insert_hand_iff by done. split.
    - intros (A & [[B C]|B]); [left|by right]. split; [done|]. destruct k, k1; simpl in C; simplify_eq; done.
    - naive_solver. }
  split.
  - intros y o Hy. destruct (h_weak _ _ H _ _ Hy) as [A B]. split; [done|]. intros j. rewrite N. apply B.
  - intros y u rc lk Hy. destruct (h_strong _ _ H _ _ _ _ Hy) as (A & B & C & D).
    rewrite (framed_tree_alive _ _ _ (put_cnt_framed s t z)). split_and!; [done|done| |].
    + eapply card_ext; [done|]. intros j. by rewrite N.
    + eapply card_ext; [done|]. intros j. by rewrite L.
  - intros j k1 y. rewrite insert_hand_iff by done. intros [[_ E]|E]; [by destruct k|]. exact (h_node _ _ H _ _ _ E).
  - intros j u. rewrite insert_hand_iff by done. intros [[_ E]|E]; [by destruct k|].
    rewrite (framed_tree_alive _ _ _ (put_cnt_framed s t z)). exact (h_tree _ _ H _ _ E).
  - intros u tr1. rewrite tree_cnt_put. destruct (decide (u = t)) as [->|].
    + rewrite Htr. intros E1. simpl in E1. simplify_eq.
      assert (holders (put_cnt s t z) (<[i := token k t]> hm) k t (S a)) as Ha'.
      { eapply (holders_add_token s _ hm _ _ _ _ i); [exact Ha|intros [_ E]; congruence|..].
        - intros j. rewrite TH. naive_solver.
        - intros y. by rewrite NH. }
      assert (holders (put_cnt s t z) (<[i := token k t]> hm) (opp k) t 0) as Hb'.
      { eapply holders_ext; [exact Hb|..].
        - intros j. rewrite TH. destruct k; naive_solver.
        - intros y. by rewrite NH. }
      destruct k; [done|..]; simpl in *.
      * exists (S a), 0. split_and!; try done; [|by right]. unfold z; simpl; lia.
      * exists 0, (S a). split_and!; try done; [|by left]. unfold z; simpl; lia.
    + intros Hu. eapply lock_ok_ext; [exact (h_lock _ _ H _ _ Hu)|..].
      * intros k1 j. rewrite TH. naive_solver.
      * intros k1 y. by rewrite NH.
Qed.

Lemma unlock_tree_ok s hm i k t :
  hinv s hm -> hm !! i = Some (token k t) -> k <> Plain -> is_Some (s_trees s !! t) ->
  exists s', unlock_tree s k t = Ret s' /\ hinv s' (delete i hm) /\ framed s s'.
Proof.
  intros H Hi Hk [tr Htr].
  destruct (h_lock _ _ H _ _ Htr) as (g & p & Hg & Hp & Hc & Hz).
  assert (token_holder hm k t i) as Hti by done.
  assert (exists a, holders s hm k t (S a) /\ holders s hm (opp k) t 0 /\
    t_cnt tr = match k with Hot => (Z.of_nat (S a))%Z | _ => (- Z.of_nat (S a))%Z end) as (a & Ha & Hb & Hcnt).
  { destruct k; [done|..]; simpl.
    - pose proof (holders_pos_token _ _ _ _ _ _ Hg Hti) as Hpos. destruct g as [|g]; [lia|]. exists g.
      assert (p = 0) as -> by lia. split_and!; (done || lia).
    - pose proof (holders_pos_token _ _ _ _ _ _ Hp Hti) as Hpos. destruct p as [|p]; [lia|]. exists p.
      assert (g = 0) as -> by lia. split_and!; (done || lia). }
  set (z := match k with Hot => (t_cnt tr - 1)%Z | _ => (t_cnt tr + 1)%Z end).
  assert (unlock_tree s k t = Ret (put_cnt s t z)) as El.
  { unfold unlock_tree, z. rewrite Htr, Hcnt. destruct k; done. }
  rewrite El. eexists. split; [done|]. split; [|apply put_cnt_framed].
  assert (forall y j, node_handle (delete i hm) y j <-> node_handle hm y j) as N.
  { intros y j. unfold node_handle. setoid_rewrite lookup_delete_Some. split; [naive_solver|].
    intros (k1 & E). exists k1. split; [|done]. intros ->. rewrite Hi in E. by destruct k. }
  assert (forall y j, lock_handle (delete i hm) y j <-> lock_handle hm y j) as L.
  { intros y j. unfold lock_handle. setoid_rewrite lookup_delete_Some. split; [naive_solver|].
    intros (k1 & Hk1 & E). exists k1. split_and!; [done| |done]. intros ->. rewrite Hi in E. by destruct k. }
  assert (forall k1 u y, node_holder (put_cnt s t z) (delete i hm) k1 u y <-> node_holder s hm k1 u y) as NH.
  { intros k1 u y. unfold node_holder. rewrite (fr_tree _ _ (put_cnt_framed s t z)).
    setoid_rewrite lookup_delete_Some. split; [naive_solver|].
    intros (A & B & j & E). split_and!; [done|done|]. exists j. split; [|done]. intros ->. rewrite Hi in E. by destruct k. }
  assert (forall k1 u j, token_holder (delete i hm) k1 u j <-> j <> i /\ token_holder hm k1 u j) as TH.
  { intros k1 u j. unfold token_holder. rewrite lookup_delete_Some. naive_solver. }
  split.
  - intros y o Hy. destruct (h_weak _ _ H _ _ Hy) as [A B]. split; [done|]. intros j. rewrite N. apply B.
  - intros y u rc lk Hy. destruct (h_strong _ _ H _ _ _ _ Hy) as (A & B & C & D).
    rewrite (framed_tree_alive _ _ _ (put_cnt_framed s t z)). split_and!; [done|done| |].
    + eapply card_ext; [done|]. intros j. by rewrite N.
    + eapply card_ext; [done|]. intros j. by rewrite L.
  - intros j k1 y. rewrite lookup_delete_Some. intros [_ E]. exact (h_node _ _ H _ _ _ E).
  - intros j u. rewrite lookup_delete_Some. intros [_ E].
    rewrite (framed_tree_alive _ _ _ (put_cnt_framed s t z)). exact (h_tree _ _ H _ _ E).
  - intros u tr1. rewrite tree_cnt_put. destruct (decide (u = t)) as [->|].
    + rewrite Htr. intros E1. simpl in E1. simplify_eq.
      destruct (holders_remove_token s (put_cnt s t z) hm (delete i hm) k t _ i Ha Hti) as (a' & Ea & Ha').
      { intros j. by rewrite TH. }
      { intros y. by rewrite NH. }
      assert (a' = a) as -> by congruence.
      assert (holders (put_cnt s t z) (delete i hm) (opp k) t 0) as Hb'.
      { eapply holders_ext; [exact Hb|..].
        - intros j. rewrite TH. split; [|naive_solver]. intros A. split; [|done]. intros ->. destruct A as [_ A].
          rewrite Hi in A. destruct k; simpl in A; simplify_eq; done.
        - intros y. by rewrite NH. }
      destruct k; [done|..]; simpl in *.
      * exists a, 0. split_and!; try done; [|by right]. unfold z; simpl; lia.
      * exists 0, a. split_and!; try done; [|by left]. unfold z; simpl; lia.
    + intros Hu. eapply lock_ok_ext; [exact (h_lock _ _ H _ _ Hu)|..].
      * intros k1 j. rewrite TH. split; [|naive_solver]. intros A. split; [|done]. intros ->. destruct A as [A1 A].
        rewrite Hi in A. destruct k, k1; simpl in A; simplify_eq; done.
      * intros k1 y. by rewrite NH.
Qed.

(** Tokens of a tree that no longer exists take no part in anything. *)
Definition inert s (hd : handle) : Prop :=
  match hd with
  | HNode _ _ | HTree _ => False
  | HGrant t | HProhib t => s_trees s !! t = None
  | _ => True
  end.

Lemma hinv_inert s hm hm' : hinv s hm ->
  (forall i hd, ~ inert s hd -> (hm' !! i = Some hd <-> hm !! i = Some hd)) -> hinv s hm'.
Proof.
  intros [H1 H2 H3 H4 H5] E.
  assert (forall x i, node_handle hm x i <-> node_handle hm' x i) as N.
  { intros x i. unfold node_handle. split; intros (k & Hk); exists k; apply E; by try intros []. }
  assert (forall x i, lock_handle hm x i <-> lock_handle hm' x i) as L.
  { intros x i. unfold lock_handle. split; intros (k & Hn & Hk); exists k; split; try done; apply E; by try intros []. }
  split.
  - intros x o Hx. destruct (H1 _ _ Hx) as [A B]. split; [done|]. intros i. rewrite <-N. apply B.
  - intros x t rc lk Hx. destruct (H2 _ _ _ _ Hx) as (A & B & C & D). split_and!; [done|done|by eapply card_ext|by eapply card_ext].
  - intros i k x Hi. eapply H3. apply E; [by intros []|done].
  - intros i t Hi. eapply H4. apply E; [by intros []|done].
  - intros t tr Htr. eapply lock_ok_ext; [by apply H5|..].
    + intros k i. unfold token_holder. rewrite E; [done|]. destruct k; simpl; congruence.
    + intros k x. unfold node_holder. split; intros (A & B & i & C); (split_and!; [done|done|]); exists i; apply E; by try intros [].
Qed.

End SysFacts2.
