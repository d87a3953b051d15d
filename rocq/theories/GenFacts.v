(** * GenFacts: handles, reference counts and locks agree whatever the links are:
    deallocation. *)
From Verif Require Import Heap Edit System SysSpec CardFacts HeapFacts SysFacts SysFacts2 SysFacts3 SysFacts6 SysFacts7 SysFacts9 SysFacts11 GenSpec Spec.

Section GenFacts.
Context {T : Type}.
Implicit Types (h : heap T) (s : sys T) (hm : gmap nat handle).

(** ** Link changes and deallocation *)
Record swept s s' : Prop := {
  sw_hands : s_hands s' = s_hands s;
  sw_fresh : s_fresh s' = s_fresh s;
  sw_cnt : forall (t : tid) tr', s_trees s' !! t = Some tr' -> exists tr, s_trees s !! t = Some tr /\ t_cnt tr' = t_cnt tr;
  sw_dead : forall (t : tid), is_Some (s_trees s !! t) -> s_trees s' !! t = None ->
    (forall i, s_hands s !! i <> Some (HTree t)) /\ forall x rc lk, n_memb s x <> Some (MStrong t rc lk);
  sw_nodes : forall y : nid, is_Some (s_nodes s' !! y) -> fmeta (s_nodes s') y = fmeta (s_nodes s) y;
  sw_kept : forall y : nid, is_Some (s_nodes s !! y) -> (exists i k, s_hands s !! i = Some (HNode k y)) \/ (exists t rc lk, n_memb s y = Some (MStrong t rc lk)) -> is_Some (s_nodes s' !! y);
}.
Lemma fmeta_memb s s' y : fmeta (s_nodes s') y = fmeta (s_nodes s) y -> n_memb s' y = n_memb s y.
Proof. unfold fmeta, n_memb. destruct (s_nodes s' !! y), (s_nodes s !! y); simpl; congruence. Qed.
Lemma fmeta_payload s s' y : fmeta (s_nodes s') y = fmeta (s_nodes s) y -> payload s' y = payload s y.
Proof. unfold fmeta, payload. destruct (s_nodes s' !! y), (s_nodes s !! y); simpl; congruence. Qed.
Lemma fmeta_alive s s' y : fmeta (s_nodes s') y = fmeta (s_nodes s) y -> is_Some (s_nodes s' !! y) -> is_Some (s_nodes s !! y).
Proof. unfold fmeta. destruct (s_nodes s' !! y), (s_nodes s !! y); simpl; intros E [? ?]; eauto; discriminate. Qed.
Lemma fmeta_tree s s' y : fmeta (s_nodes s') y = fmeta (s_nodes s) y -> tree_of s' y = tree_of s y.
Proof. intros E. unfold tree_of. by rewrite (fmeta_memb _ _ _ E). Qed.
Lemma swept_refl s : swept s s.
Proof. split; eauto. intros t [tr E] E'. congruence. Qed.
Lemma swept_memb s s' y m : swept s s' -> n_memb s' y = Some m -> n_memb s y = Some m.
Proof. intros W E. rewrite <-(fmeta_memb s s'); [done|]. apply (sw_nodes _ _ W). by eapply n_memb_alive. Qed.
Lemma swept_strong s s' y t rc lk : swept s s' -> n_memb s y = Some (MStrong t rc lk) -> n_memb s' y = Some (MStrong t rc lk).
Proof.
  intros W E. rewrite (fmeta_memb s s'); [done|]. apply (sw_nodes _ _ W). apply (sw_kept _ _ W); [by eapply n_memb_alive|]. right. eauto.
Qed.
Lemma swept_trans s1 s2 s3 : swept s1 s2 -> swept s2 s3 -> swept s1 s3.
Proof.
  intros A B. split.
  - by rewrite (sw_hands _ _ B), (sw_hands _ _ A).
  - by rewrite (sw_fresh _ _ B), (sw_fresh _ _ A).
  - intros t tr3 E3. destruct (sw_cnt _ _ B t tr3 E3) as (tr2 & E2 & ->). exact (sw_cnt _ _ A t tr2 E2).
  - intros t H1 H3. destruct (s_trees s2 !! t) as [tr|] eqn:E2; [|by apply (sw_dead _ _ A)].
    destruct (sw_dead _ _ B t) as [C D]; [eauto|done|]. rewrite (sw_hands _ _ A) in C. split; [done|].
    intros x rc lk E. apply (D x rc lk). by eapply swept_strong.
  - intros y Hy. rewrite (sw_nodes _ _ B y Hy). apply (sw_nodes _ _ A). eapply fmeta_alive; [apply (sw_nodes _ _ B y Hy)|done].
  - intros y Hy C. apply (sw_kept _ _ B); [by apply (sw_kept _ _ A)|]. rewrite (sw_hands _ _ A). destruct C as [C|(t & rc & lk & C)]; [by left|].
    right. exists t, rc, lk. by eapply swept_strong.
Qed.
Lemma swept_tree s s' i k x : hinv s (s_hands s) -> swept s s' -> s_hands s !! i = Some (HNode k x) -> tree_of s' x = tree_of s x.
Proof. intros H W Hi. apply fmeta_tree, (sw_nodes _ _ W), (sw_kept _ _ W); [by eapply h_node|eauto]. Qed.
Lemma swept_hinv s s' : hinv s (s_hands s) -> swept s s' -> hinv s' (s_hands s').
Proof.
  intros H W. assert (forall i k x, s_hands s !! i = Some (HNode k x) -> tree_of s' x = tree_of s x) as Ht by (intros i k x; by apply swept_tree). destruct H as [A B C D E]. rewrite (sw_hands _ _ W). split.
  - intros x o Hx. apply A. by eapply swept_memb.
  - intros x t rc lk Hx. assert (n_memb s x = Some (MStrong t rc lk)) as Hx0 by (by eapply swept_memb).
    destruct (B x t rc lk Hx0) as (Hs & ?). split; [|done]. destruct (s_trees s' !! t) eqn:Et; [eauto|].
    destruct (sw_dead _ _ W t Hs Et) as [_ F]. by apply F in Hx0.
  - intros i k x Hi. apply (sw_kept _ _ W); [by eapply C|eauto].
  - intros i t Hi. destruct (s_trees s' !! t) eqn:Et; [eauto|]. destruct (sw_dead _ _ W t) as [F _]; [by eapply D|done|]. by apply F in Hi.
  - intros t tr' Htr. destruct (sw_cnt _ _ W t tr' Htr) as (tr & Htr0 & Ec). destruct (E t tr Htr0) as (g & p & Hg & Hp & ? & ?).
    assert (forall k x, node_holder s (s_hands s) k t x <-> node_holder s' (s_hands s) k t x) as Hn.
    { intros k x. unfold node_holder. split; intros (N1 & N2 & i & N3); (split; [done|]); (split; [|eauto]).
      - rewrite (Ht i k x); done.
      - rewrite <-(Ht i k x); done. }
    exists g, p. split; [by eapply holders_ext; [exact Hg|done|apply Hn]|]. split; [by eapply holders_ext; [exact Hp|done|apply Hn]|]. split; [congruence|done].
Qed.
Lemma swept_finv s s' : finv s -> swept s s' -> finv s'.
Proof.
  intros [A B C D] W. split; rewrite ?(sw_fresh _ _ W), ?(sw_hands _ _ W).
  - intros x Hx. apply A. eapply fmeta_alive; [by apply (sw_nodes _ _ W)|done].
  - intros t [tr Ht]. destruct (sw_cnt _ _ W t tr Ht) as (tr0 & E & _). apply B. eauto.
  - exact C.
  - intros x t Hx. apply (D x). rewrite <-(fmeta_tree s s'); [done|]. apply (sw_nodes _ _ W).
    unfold tree_of, n_memb in Hx. destruct (s_nodes s' !! x); [eauto|done].
Qed.
Lemma swept_held s s' t : hinv s (s_hands s) -> swept s s' -> tree_held s (s_hands s) t -> tree_held s' (s_hands s') t.
Proof.
  intros H W. rewrite (sw_hands _ _ W). intros [?|(i & k & x & Hi & Hx)]; [by left|]. right. exists i, k, x. split; [done|].
  by rewrite (swept_tree s s' i k x).
Qed.
Lemma swept_alive s s' t : swept s s' -> is_Some (s_trees s' !! t) -> is_Some (s_trees s !! t).
Proof. intros W [tr E]. destruct (sw_cnt _ _ W t tr E) as (tr0 & -> & _). eauto. Qed.
Lemma swept_evolves s s' : swept s s' -> evolves s s'.
Proof.
  intros W. split.
  - by rewrite (sw_fresh _ _ W).
  - intros y _ Hy. apply fmeta_payload. by apply (sw_nodes _ _ W).
  - intros t _. by apply swept_alive.
Qed.
Lemma evolves_refl s : evolves s s.
Proof. split; auto. Qed.
Lemma evolves_trans s1 s2 s3 : evolves s1 s2 -> evolves s2 s3 -> evolves s1 s3.
Proof.
  intros [A1 B1 C1] [A2 B2 C2]. split.
  - lia.
  - intros y Hy H3. assert (payload s3 y = payload s2 y) as E by (apply B2; [lia|done]). rewrite E. apply B1; [done|].
    revert E. unfold payload. destruct H3 as [nd ->]. destruct (s_nodes s2 !! y); [eauto|done].
  - intros t Ht H3. apply C1; [done|]. apply C2; [lia|done].
Qed.
Lemma same_meta_swept s h' : same_meta (s_nodes s) h' -> swept s (with_nodes s h').
Proof.
  intros M. split; try done.
  - intros t tr' E. eauto.
  - intros t [tr E] E'. simpl in E'. congruence.
  - intros y Hy _. simpl. by apply relink_alive with (h := s_nodes s).
Qed.
Lemma put_root_swept s t x : swept s (put_root s t x).
Proof.
  split; try done.
  - intros u tr' E. simpl in E. rewrite lookup_alter_Some in E. destruct E as [(-> & tr & E & ->)|[_ E]]; eauto.
  - intros u [tr E] E'. simpl in E'. rewrite lookup_alter_None in E'. congruence.
Qed.
Lemma scrambled_swept s s' : hinv s (s_hands s) -> scrambled s s' -> swept s s'.
Proof.
  intros H [A B C D E]. split; try done.
  - intros t tr' Ht. specialize (C t). rewrite Ht in C. destruct (s_trees s !! t) as [tr|]; [|done]. exists tr. simpl in C. split; [done|congruence].
  - intros t [tr Ht] Ht'. specialize (C t). by rewrite Ht, Ht' in C.
  - intros y Hy [(i & k & Hi)|(t & rc & lk & Hm)]; [by eapply E|]. destruct (strong_held s _ _ _ _ _ H Hm) as (i & k & Hi). by eapply E.
Qed.

(** ** Deallocation *)
Lemma referenced_hand s pins x i k : s_hands s !! i = Some (HNode k x) -> referenced s pins x = true.
Proof.
  intros Hi. unfold referenced. apply orb_true_intro. left. apply orb_true_intro. left. apply orb_true_intro. right.
  apply existsb_exists. exists (i, HNode k x). split; [by apply elem_of_list_In, elem_of_map_to_list|]. simpl. by apply bool_decide_eq_true.
Qed.
Lemma release_swept : forall fuel pins s x s', release fuel pins s x = Ret s' -> swept s s'.
Proof.
  induction fuel as [|f IH]; intros pins s x s'; cbn [release]; destruct (s_nodes s !! x) as [nd|] eqn:Ex; try (intros [= <-]; apply swept_refl).
  - destruct (referenced s pins x); [intros [= <-]; apply swept_refl|discriminate].
  - destruct (referenced s pins x) eqn:Er; [intros [= <-]; apply swept_refl|]. destruct (n_mem nd) as [o|t0 rc0 lk0] eqn:Em; [|discriminate].
    set (s1 := with_nodes s (delete x (s_nodes s))).
    assert (swept s s1) as W1.
    { split; try done.
      - intros t tr' E. eauto.
      - intros t [tr E] E'. simpl in E'. congruence.
      - intros y [nd' Hy]. unfold fmeta. simpl in *. rewrite lookup_delete_Some in Hy. destruct Hy as [Hn Hy]. by rewrite lookup_delete_ne.
      - intros y Hy C. simpl. destruct (decide (y = x)) as [->|Hn]; [exfalso|by rewrite lookup_delete_ne].
        destruct C as [(i & k & Hi)|(t & rc & lk & Hm)].
        + by rewrite (referenced_hand s pins x i k Hi) in Er.
        + unfold n_memb in Hm. rewrite Ex in Hm. simpl in Hm. congruence. }
    destruct (match n_first nd with Some c => release f pins s1 c | None => Ret s1 end) as [s2| |] eqn:E2; cbn [mbind run_bind]; try discriminate.
    assert (swept s1 s2) as W2.
    { destruct (n_first nd); [by eapply IH|]. injection E2 as <-. apply swept_refl. }
    intros E3. eapply swept_trans; [exact W1|]. eapply swept_trans; [exact W2|].
    destruct (n_next nd); [by eapply IH|]. injection E3 as <-. apply swept_refl.
Qed.
Lemma release_all_swept s pins x s' : release_all s pins x = Ret s' -> swept s s'.
Proof. apply release_swept. Qed.
Lemma meta_set_next h x w : same_meta h (set_next h x w).
Proof. intros y. unfold fmeta, set_next. destruct (decide (x = y)) as [->|]; [rewrite lookup_alter|by rewrite lookup_alter_ne]. by destruct (h !! y). Qed.
Lemma meta_set_first h x w : same_meta h (set_first h x w).
Proof. intros y. unfold fmeta, set_first. destruct (decide (x = y)) as [->|]; [rewrite lookup_alter|by rewrite lookup_alter_ne]. by destruct (h !! y). Qed.
Lemma meta_set_prev h x w : same_meta h (set_prev h x w).
Proof. intros y. unfold fmeta, set_prev. destruct (decide (x = y)) as [->|]; [rewrite lookup_alter|by rewrite lookup_alter_ne]. by destruct (h !! y). Qed.
Lemma meta_set_parent h x w : same_meta h (set_parent h x w).
Proof. intros y. unfold fmeta, set_parent. destruct (decide (x = y)) as [->|]; [rewrite lookup_alter|by rewrite lookup_alter_ne]. by destruct (h !! y). Qed.
Lemma meta_set_nch h x w : same_meta h (set_nch h x w).
Proof. intros y. unfold fmeta, set_nch. destruct (decide (x = y)) as [->|]; [rewrite lookup_alter|by rewrite lookup_alter_ne]. by destruct (h !! y). Qed.
Lemma meta_trans h1 h2 h3 : same_meta h1 h2 -> same_meta h2 h3 -> same_meta h1 h3.
Proof. intros H1 H2 x. by rewrite H2, H1. Qed.
Lemma meta_refl h : same_meta h h.
Proof. done. Qed.

Lemma teardown_swept : forall fuel pins s next s', teardown fuel pins s next = Ret s' -> swept s s'.
Proof.
  induction fuel as [|f IH]; intros pins s next s'; cbn [teardown]; destruct next as [cur|]; try (intros [= <-]; apply swept_refl).
  destruct cur as [v|v]; [apply IH|].
  destruct (match parent_link (s_nodes s) v with Some p => _ | None => Ret s end) as [s1| |] eqn:E1; cbn [mbind run_bind]; try discriminate.
  assert (swept s s1) as W1.
  { destruct (parent_link (s_nodes s) v) as [p|]; [|injection E1 as <-; apply swept_refl].
    set (h2 := set_first (set_next (s_nodes s) v None) p (fnext (s_nodes s) v)) in *.
    assert (swept s (with_nodes s h2)) as W2.
    { apply same_meta_swept. eapply meta_trans; [apply meta_set_next|apply meta_set_first]. }
    destruct (ffirst _ p); [|injection E1 as <-; exact W2]. eapply swept_trans; [exact W2|]. by eapply release_all_swept. }
  destruct (release_all s1 _ v) as [s2| |] eqn:E2; cbn [mbind run_bind]; try discriminate. intros E3.
  eapply swept_trans; [exact W1|]. eapply swept_trans; [by eapply release_all_swept|]. by eapply IH.
Qed.

Definition kept s (P : tid -> Prop) : Prop := forall u, is_Some (s_trees s !! u) -> tree_held s (s_hands s) u \/ P u.
Lemma swept_keeps s s' P : hinv s (s_hands s) -> swept s s' -> kept s P -> kept s' P.
Proof. intros H W Hk u Hu. destruct (Hk u) as [A|A]; [by eapply swept_alive|left; by eapply swept_held|by right]. Qed.

Lemma drop_tree_gen_ok pins tpins s t s' : drop_tree_if_dead pins tpins s t = Ret s' -> swept s s' /\
  (is_Some (s_trees s' !! t) -> tree_referenced s tpins t = true).
Proof.
  unfold drop_tree_if_dead. destruct (s_trees s !! t) as [tr|] eqn:Et.
  2:{ intros [= <-]. split; [apply swept_refl|]. rewrite Et. intros [? ?]. discriminate. }
  destruct (tree_referenced s tpins t) eqn:Er; [intros [= <-]; split; [apply swept_refl|done]|].
  destruct (teardown _ pins s _) as [s1| |] eqn:E1; cbn [mbind run_bind]; try discriminate.
  pose proof (teardown_swept _ _ _ _ _ E1) as W1. intros E2.
  assert ((forall i, s_hands s !! i <> Some (HTree t)) /\ forall x rc lk, n_memb s x <> Some (MStrong t rc lk)) as [N1 N2].
  { split; intros; intros F; assert (tree_referenced s tpins t = true) as X by (apply tree_referenced_iff; eauto 10); congruence. }
  assert (swept s1 (with_trees s1 (delete t (s_trees s1)))) as W2.
  { split; try done.
    - intros u tr' E. simpl in E. rewrite lookup_delete_Some in E. destruct E as [_ E]. eauto.
    - intros u [tr1 Eu] E. simpl in E. rewrite lookup_delete_None in E. destruct E as [<-|E]; [|congruence].
      rewrite (sw_hands _ _ W1). split; [done|]. intros x rc lk F. apply (N2 x rc lk). by eapply swept_memb. }
  pose proof (release_all_swept _ _ _ _ E2) as W3. split; [by eapply swept_trans; [|eapply swept_trans]|].
  intros Ht. apply (swept_alive _ _ _ W3) in Ht. simpl in Ht. rewrite lookup_delete in Ht. destruct Ht as [? ?]. discriminate.
Qed.
Lemma drop_tree_kept pins tpins s t s' (P : tid -> Prop) : hinv s (s_hands s) -> (forall u, u ∈ tpins -> P u) ->
  kept s (fun u => u = t \/ P u) -> drop_tree_if_dead pins tpins s t = Ret s' -> swept s s' /\ kept s' P.
Proof.
  intros H HP Hk E. destruct (drop_tree_gen_ok _ _ _ _ _ E) as [W Hr]. split; [done|]. intros u Hu.
  assert (tree_held s (s_hands s) u \/ P u -> tree_held s' (s_hands s') u \/ P u) as Hmove.
  { intros [A|A]; [left; by eapply swept_held|by right]. }
  destruct (Hk u) as [A|[->|A]]; [by eapply swept_alive|auto| |auto].
  apply Hmove. apply Hr, tree_referenced_iff in Hu as [A|[A|(x & rc & lk & A)]]; [by right; apply HP|left; by left|left].
  destruct (strong_held s _ _ _ _ _ H A) as (i & k & Hi). right. exists i, k, x. split; [done|]. unfold tree_of. by rewrite A.
Qed.

(** ** Giving a node to another tree *)
Definition sg (k : kind) : Z := match k with Frozen => (-1)%Z | _ => 1%Z end.
Lemma lock_ok_kind s hm t tr k n : k <> Plain -> lock_ok s hm t tr -> holders s hm k t (S n) -> holders s hm (opp k) t 0 /\ t_cnt tr = (sg k * Z.of_nat (S n))%Z.
Proof.
  intros Hk (g & p & Hg & Hp & E & D) Hn. destruct k; [done| |]; simpl.
  - assert (g = S n) as -> by (by eapply holders_unique). assert (p = 0) as -> by lia. split; [done|]. lia.
  - assert (p = S n) as -> by (by eapply holders_unique). assert (g = 0) as -> by lia. split; [done|]. lia.
Qed.
Lemma lock_ok_intro s hm t tr k n : k <> Plain -> holders s hm k t n -> holders s hm (opp k) t 0 -> t_cnt tr = (sg k * Z.of_nat n)%Z -> lock_ok s hm t tr.
Proof.
  intros Hk Hn H0 E. destruct k; [done| |]; simpl in *.
  - exists n, 0. split; [done|]. split; [done|]. split; [lia|by right].
  - exists 0, n. split; [done|]. split; [done|]. split; [lia|by left].
Qed.
(** What a successful transfer of the lock of a node does. *)
Lemma transfer_inv s (t t' : tid) k n tr tr' s1 : k <> Plain -> t <> t' -> s_trees s !! t = Some tr -> s_trees s !! t' = Some tr' -> t_cnt tr = (sg k * Z.of_nat (S n))%Z ->
  transfer_lock s t t' = Some s1 ->
  s1 = put_cnt (put_cnt s t' (t_cnt tr' + sg k)) t (t_cnt tr - sg k) /\ (0 <= sg k * t_cnt tr')%Z.
Proof.
  intros Hk Hne E E' Ec. unfold transfer_lock, lock_tree. rewrite E, E'. destruct (t_cnt tr) as [|pz|pz] eqn:Ez; [destruct k; simpl in *; lia| |]; cbn [mbind option_bind].
  - assert (k = Hot) as -> by (destruct k; [done|done|simpl in *; lia]). destruct (t_cnt tr' <? 0)%Z eqn:El; [discriminate|]. apply Z.ltb_ge in El.
    simpl. rewrite lookup_alter_ne by done. rewrite E. intros [= <-]. rewrite Ez. split; [done|]. simpl. lia.
  - assert (k = Frozen) as -> by (destruct k; [done|simpl in *; lia|done]). destruct (0 <? t_cnt tr')%Z eqn:El; [discriminate|]. apply Z.ltb_ge in El.
    simpl. rewrite lookup_alter_ne by done. rewrite E. intros [= <-]. rewrite Ez. split; [|simpl; lia].
    unfold put_cnt. simpl. f_equal.
Qed.
Lemma transfer_same s (t : tid) tr s1 : s_trees s !! t = Some tr -> transfer_lock s t t = Some s1 -> s1 = s.
Proof.
  intros E. destruct s as [ns ts hs f]. simpl in *. assert (forall z1 z2, z2 = t_cnt tr -> alter (fun tr => mkTree (t_root tr) z2) t (alter (fun tr => mkTree (t_root tr) z1) t ts) = ts) as Halt.
  { intros z1 z2 ->. rewrite <-alter_compose. apply map_eq. intros u. destruct (decide (u = t)) as [->|]; [rewrite lookup_alter, E; simpl; by destruct tr|by rewrite lookup_alter_ne]. }
  unfold transfer_lock, lock_tree. simpl. rewrite E. destruct (t_cnt tr) as [|pz|pz] eqn:Ez; [by intros [= <-]| |].
  - simpl. rewrite lookup_alter, E. simpl. intros [= <-]. unfold put_cnt, with_trees. simpl. f_equal. apply Halt. lia.
  - simpl. rewrite lookup_alter, E. simpl. intros [= <-]. unfold put_cnt, with_trees. simpl. f_equal. apply Halt. lia.
Qed.
Lemma put_mem_same s x m : n_memb s x = Some m -> put_mem s x m = s.
Proof.
  intros E. destruct s as [ns ts hs f]. unfold put_mem, with_nodes, n_memb in *. simpl in *. f_equal. unfold set_mem.
  apply map_eq. intros u. destruct (decide (u = x)) as [->|]; [|by rewrite lookup_alter_ne]. rewrite lookup_alter.
  destruct (ns !! x) as [[]|] eqn:En; [|done]. simpl in *. by injection E as ->.
Qed.

Lemma retree_any s hm y (t t' : tid) rc lk s1 : hinv s hm -> n_memb s y = Some (MStrong t rc lk) -> is_Some (s_trees s !! t') ->
  (if Nat.eqb lk 0 then Some s else transfer_lock s t t') = Some s1 ->
  hinv (put_mem s1 y (MStrong t' rc lk)) hm /\ retreed s (put_mem s1 y (MStrong t' rc lk)) y t'.
Proof.
  intros H Hy Ht' Etr. assert (is_Some (s_nodes s !! y)) as Hya by (by eapply n_memb_alive).
  destruct (h_strong _ _ H _ _ _ _ Hy) as ([tr Htr] & Hrc & Hc1 & Hc2). destruct Ht' as [tr' Htr'].
  assert (tree_of s y = Some t) as Hyt by (unfold tree_of; by rewrite Hy).
  destruct (decide (t = t')) as [<-|Hne].
  { assert (s1 = s) as -> by (destruct lk; simpl in Etr; [congruence|by eapply transfer_same]).
    rewrite put_mem_same by done. split; [done|]. split; try done. }
  destruct lk as [|lk].
  - (* no lock on y *)
    simpl in Etr. injection Etr as <-. set (s' := put_mem s y (MStrong t' rc 0)).
    assert (forall z, n_memb s' z = if decide (z = y) then Some (MStrong t' rc 0) else n_memb s z) as Hm by (intros; by apply n_memb_put).
    assert (forall z, z <> y -> tree_of s' z = tree_of s z) as Hto. { intros z Hz. unfold tree_of. by rewrite Hm, decide_False. }
    assert (forall k i, k <> Plain -> hm !! i <> Some (HNode k y)) as Hnl.
    { intros k i Hk Hi. destruct Hc2 as (l & _ & Hl & E0). destruct l; [|done]. assert (i ∈ @nil nat) as X by (apply Hl; exists k; done). by apply elem_of_nil in X. }
    split.
    + destruct H as [A B C D E]. split.
      * intros x o1. rewrite Hm. case_decide; [done|apply A].
      * intros x u rc1 lk1. rewrite Hm. case_decide; [|apply B]. intros [= <- <- <-]. subst. eauto.
      * intros i k x Hi. simpl. unfold set_mem. apply C in Hi.
        destruct (decide (x = y)) as [->|]; [rewrite lookup_alter, fmap_is_Some; done|by rewrite lookup_alter_ne].
      * exact D.
      * intros u tru Hu. eapply lock_ok_ext; [exact (E u tru Hu)|done|]. intros k x. unfold node_holder.
        split; intros (C1 & C2 & i & C3); (assert (x <> y) by (intros ->; by apply (Hnl k i))); rewrite Hto in * by done; eauto.
    + split; try done.
      * apply memonly_set_mem.
      * unfold tree_of. by rewrite Hm, decide_True.
      * intros z Hz. by rewrite Hm, decide_False.
  - (* the lock of y moves along *)
    simpl in Etr. destruct (card_S _ _ Hc2) as (i0 & k0 & Hk0 & Hi0).
    assert (node_holder s hm k0 t y) as Hold by (split; [done|split; [done|eauto]]).
    assert (forall k, k <> Plain -> forall i, hm !! i = Some (HNode k y) -> k = k0) as Hkind.
    { intros k Hk i Hi. exact (same_kind s hm i0 i k0 k y H Hi0 Hk0 Hi Hk). }
    pose proof (h_lock _ _ H t tr Htr) as L. pose proof (h_lock _ _ H t' tr' Htr') as L'. fold (lock_ok s hm t tr) in L. fold (lock_ok s hm t' tr') in L'.
    assert (exists n, holders s hm k0 t (S n)) as [n Hn].
    { destruct L as (g & p & Hg & Hp & _). destruct k0; [done| |].
      - pose proof (holders_pos_node _ _ _ _ _ _ Hg Hold). destruct g; [lia|eauto].
      - pose proof (holders_pos_node _ _ _ _ _ _ Hp Hold). destruct p; [lia|eauto]. }
    destruct (lock_ok_kind _ _ _ _ _ _ Hk0 L Hn) as [Hop Ecnt].
    destruct (transfer_inv s t t' k0 n tr tr' s1 Hk0 Hne Htr Htr' Ecnt Etr) as [-> Hpos]. clear Etr.
    assert (exists n', holders s hm k0 t' n' /\ holders s hm (opp k0) t' 0 /\ t_cnt tr' = (sg k0 * Z.of_nat n')%Z) as (n' & Hn' & Hop' & Ecnt').
    { destruct L' as (g & p & Hg & Hp & E & D). destruct k0; [done| |]; simpl in *.
      - exists g. assert (p = 0) as -> by lia. split; [done|]. split; [done|lia].
      - exists p. assert (g = 0) as -> by lia. split; [done|]. split; [done|lia]. }
    set (s1 := put_cnt (put_cnt s t' (t_cnt tr' + sg k0)) t (t_cnt tr - sg k0)).
    set (s' := put_mem s1 y (MStrong t' rc (S lk))).
    assert (forall z, n_memb s' z = if decide (z = y) then Some (MStrong t' rc (S lk)) else n_memb s z) as Hm.
    { intros z. unfold s'. by rewrite n_memb_put. }
    assert (forall z, z <> y -> tree_of s' z = tree_of s z) as Hto. { intros z Hz. unfold tree_of. by rewrite Hm, decide_False. }
    assert (tree_of s' y = Some t') as Hty. { unfold tree_of. by rewrite Hm, decide_True. }
    assert (forall u, s_trees s' !! u = if decide (u = t) then Some (mkTree (t_root tr) (t_cnt tr - sg k0)) else if decide (u = t') then Some (mkTree (t_root tr') (t_cnt tr' + sg k0)) else s_trees s !! u) as Htrs.
    { intros u. change (s_trees s') with (s_trees s1). unfold s1. rewrite tree_cnt_put.
      rewrite !tree_cnt_put. destruct (decide (u = t)) as [->|].
      - rewrite decide_False by done. by rewrite Htr.
      - destruct (decide (u = t')) as [->|]; [by rewrite Htr'|done]. }
    assert (forall u, is_Some (s_trees s' !! u) <-> is_Some (s_trees s !! u)) as Hal.
    { intros u. rewrite Htrs. repeat case_decide; subst; rewrite ?Htr, ?Htr'; split; eauto. }
    assert (forall k u z, u <> t -> u <> t' -> (node_holder s' hm k u z <-> node_holder s hm k u z)) as Hnh.
    { intros k u z Hu1 Hu2. unfold node_holder. destruct (decide (z = y)) as [->|]; [|by rewrite Hto].
      rewrite Hty, Hyt. split; intros (? & ? & _); congruence. }
    assert (forall k z, node_holder s' hm k t z <-> z <> y /\ node_holder s hm k t z) as Hnh0.
    { intros k z. unfold node_holder. destruct (decide (z = y)) as [->|Hz].
      - rewrite Hty. split; [intros (? & ? & _); congruence|by intros [? _]].
      - rewrite Hto by done. split; [done|]. by intros [_ ?]. }
    assert (forall k z, k <> Plain -> (node_holder s' hm k t' z <-> (z = y /\ k = k0) \/ node_holder s hm k t' z)) as Hnh1.
    { intros k z Hk. destruct (decide (z = y)) as [->|Hz].
      - split.
        + intros (_ & _ & i & Hi). left. split; [done|]. by eapply Hkind.
        + intros [[_ ->]|(_ & ? & _)]; [|congruence]. split; [done|]. split; [done|eauto].
      - unfold node_holder. rewrite Hto by done. split; [auto|]. by intros [[? _]|?]. }
    assert (opp k0 <> Plain) as Hopk by (by destruct k0). assert (opp k0 <> k0) as Hopn by (by destruct k0).
    split.
    + destruct H as [A B C D E]. split.
      * intros x o1. rewrite Hm. case_decide; [done|apply A].
      * intros x u rc1 lk1. rewrite Hm. rewrite Hal. case_decide; [|apply B]. intros [= <- <- <-]. subst. rewrite Htr'. eauto.
      * intros i k x Hi. simpl. unfold set_mem. apply C in Hi.
        destruct (decide (x = y)) as [->|]; [rewrite lookup_alter, fmap_is_Some; done|by rewrite lookup_alter_ne].
      * intros i u Hi. apply Hal. by eapply D.
      * intros u tru Hu. rewrite Htrs in Hu. destruct (decide (u = t)) as [->|Hu0]; [|destruct (decide (u = t')) as [->|Hu1]].
        -- injection Hu as <-. destruct (holders_remove_node s s' hm hm k0 t (S n) y Hn Hold) as (m & Em & Hg2); [done|apply Hnh0|].
           apply (lock_ok_intro s' hm t _ k0 m Hk0 Hg2).
           { eapply holders_ext; [exact Hop|done|]. intros z. rewrite Hnh0. split; [|by intros [_ ?]]. intros Hz. by apply (holders_0 _ _ _ _ Hop) in Hz. }
           simpl. destruct k0; [done| |]; simpl in *; lia.
        -- injection Hu as <-. apply (lock_ok_intro s' hm t' _ k0 (S n') Hk0).
           { eapply (holders_add_node s s' hm hm k0 t' n' y Hn'); [|done|].
             - intros (_ & ? & _). congruence.
             - intros z. rewrite Hnh1 by done. clear. naive_solver. }
           { eapply holders_ext; [exact Hop'|done|]. intros z. rewrite Hnh1 by done. clear -Hopn. naive_solver. }
           simpl. destruct k0; [done| |]; simpl in *; lia.
        -- eapply lock_ok_ext; [exact (E u tru Hu)|done|]. intros k x. symmetry. by apply Hnh.
    + split; try done.
      * apply memonly_set_mem.
      * intros u. rewrite Htrs. repeat case_decide; subst; rewrite ?Htr, ?Htr'; done.
      * intros z Hz. by rewrite Hm, decide_False.
Qed.
End GenFacts.
