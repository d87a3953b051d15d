(** * SysFacts6: bundling, dropping, data access, new trees. *)
From Verif Require Import Heap System SysSpec CardFacts HeapFacts SpecFacts NavFacts NavFacts2 EditFacts EditFacts2 EditFacts3 IterSpec RoseFacts TdFacts TdFacts2 SysFacts SysFacts2 SysFacts3 SysFacts4 SysFacts5 Spec.

Section SysFacts6.
Context {T : Type}.
Implicit Types (h : heap T) (s : sys T) (hm : gmap nat handle).

Lemma card_rename P Q n i j : card P n -> ~ P j ->
  (forall y, Q y <-> (y = j /\ P i) \/ (y <> i /\ P y)) -> card Q n.
Proof.
  intros C Hj HQ. destruct (decide (i = j)) as [->|Hij].
  { eapply card_ext; [done|]. intros y. rewrite HQ. split; [|naive_solver]. intros Hy. right. split; [|done]. by intros ->. }
  assert (P i \/ ~ P i) as [Hi|Hi].
  { destruct C as (l & _ & Hl & _). destruct (decide (i ∈ l)); [left|right]; by rewrite <-Hl. }
  - destruct (card_remove P (fun y => y <> i /\ P y) n i C Hi) as (m & -> & C'); [done|].
    eapply (card_add _ _ _ j); [exact C'|naive_solver|]. intros y. rewrite HQ. naive_solver.
  - eapply card_ext; [done|]. intros y. rewrite HQ. split; [|naive_solver]. intros Hy. right. split; [|done]. by intros ->.
Qed.

Lemma rename_iff hm i j hd : hm !! i = Some hd -> hm !! j = None ->
  forall y hd', <[j := hd]> (delete i hm) !! y = Some hd' <-> (y = j /\ hm !! i = Some hd') \/ (y <> i /\ hm !! y = Some hd').
Proof.
  intros Hi Hj y hd'. assert (i <> j) as Hij by (intros ->; congruence). destruct (decide (y = j)) as [->|].
  - rewrite lookup_insert, Hi. split; [by left|]. intros [[_ E]|[_ E]]; [done|congruence].
  - rewrite lookup_insert_ne by done. rewrite lookup_delete_Some. naive_solver.
Qed.

Lemma hinv_rename s hm i j hd : hinv s hm -> hm !! i = Some hd -> hm !! j = None ->
  hinv s (<[j := hd]> (delete i hm)).
Proof.
  intros H Hi Hj. pose proof (rename_iff hm i j hd Hi Hj) as R.
  assert (forall (F : handle -> Prop) (y : nat), (exists k, F k /\ <[j := hd]> (delete i hm) !! y = Some k) <->
     (y = j /\ exists k, F k /\ hm !! i = Some k) \/ (y <> i /\ exists k, F k /\ hm !! y = Some k)) as RF.
  { intros F y. setoid_rewrite R. naive_solver. }
  assert (forall x y, node_handle (<[j := hd]> (delete i hm)) x y <-> (y = j /\ node_handle hm x i) \/ (y <> i /\ node_handle hm x y)) as N.
  { intros x y. unfold node_handle. setoid_rewrite R. naive_solver. }
  assert (forall x y, lock_handle (<[j := hd]> (delete i hm)) x y <-> (y = j /\ lock_handle hm x i) \/ (y <> i /\ lock_handle hm x y)) as L.
  { intros x y. unfold lock_handle. setoid_rewrite R. naive_solver. }
  split.
  - intros x o Hx. destruct (h_weak _ _ H _ _ Hx) as [A B]. split; [done|]. intros y. rewrite N. naive_solver.
  - intros x t rc lk Hx. destruct (h_strong _ _ H _ _ _ _ Hx) as (A & B & C & D). split_and!; [done|done| |].
    + eapply (card_rename _ _ _ i j); [done| |]. { intros [k Hk]. congruence. } apply N.
    + eapply (card_rename _ _ _ i j); [done| |]. { intros (k & _ & Hk). congruence. } apply L.
  - intros y k x. rewrite R. intros [[_ E]|[_ E]]; exact (h_node _ _ H _ _ _ E).
  - intros y t. rewrite R. intros [[_ E]|[_ E]]; exact (h_tree _ _ H _ _ E).
  - intros t tr Ht. destruct (h_lock _ _ H _ _ Ht) as (g & p & Hg & Hp & Hz).
    assert (forall k n, holders s hm k t n -> holders s (<[j := hd]> (delete i hm)) k t n) as Hh.
    { intros k n (a & b & C1 & C2 & ->). exists a, b. split_and!; [| |done].
      - eapply (card_rename _ _ _ i j); [done| |]. { intros [_ Hk]. congruence. }
        intros y. unfold token_holder. rewrite R. naive_solver.
      - eapply card_ext; [done|]. intros x. unfold node_holder. setoid_rewrite R. split.
        + intros (A & B & y & C). split_and!; [done|done|]. destruct (decide (y = i)) as [->|]; [exists j|exists y]; naive_solver.
        + intros (A & B & y & [[_ C]|[_ C]]); eauto. }
    exists g, p. split; [by apply Hh|]. split; [by apply Hh|]. done.
Qed.

(** A handle replaced by another one under a new number. *)
Definition exchanged s s' (K : forest) (i : nat) (hd : handle) : Prop :=
  inv s' K /\ quiet s s' /\ s_hands s' = <[s_fresh s := hd]> (delete i (s_hands s)) /\ s_fresh s' = S (s_fresh s).

Lemma acquire_exchange s K i k x t s1 : inv s K -> s_hands s !! i = Some (HNode Plain x) -> tree_of s x = Some t ->
  hinv s1 (<[i := HNode k x]> (s_hands s)) -> framed s s1 ->
  exchanged s (add_hand (del_hand s1 i) (HNode k x)) K i (HNode k x).
Proof.
  intros H Hi Ht Hh F. pose proof (hands_fresh _ _ H) as Hfr.
  assert (i <> s_fresh s) as Hne by (intros ->; congruence).
  assert (x < s_fresh s) as Hx. { by apply (f_hands _ (i_f _ _ H) _ _ Hi). }
  unfold exchanged, add_hand, del_hand, with_hands, with_fresh. simpl.
  rewrite (fr_hands _ _ F), (fr_fresh _ _ F). split; [|split; [destruct F; by split|done]].
  apply (mk_inv s1).
  - eapply framed_sinv; [apply H|done].
  - rewrite <-(delete_insert_delete (s_hands s) i (HNode k x)). eapply hinv_rename; [done|by rewrite lookup_insert|by rewrite lookup_insert_ne].
  - intros u Hu. rewrite (framed_held _ _ _ _ F). apply (framed_tree_alive _ _ _ F) in Hu.
    destruct (i_held _ _ H u Hu) as [(j & Hj)|(j & k1 & y & Hj & Hy)].
    + left. exists j. rewrite lookup_insert_ne; [rewrite lookup_delete_ne; [done|]|]; intros <-; congruence.
    + right. destruct (decide (j = i)) as [->|].
      * exists (s_fresh s), k, x. rewrite lookup_insert. split; [done|]. congruence.
      * exists j, k1, y. rewrite lookup_insert_ne; [by rewrite lookup_delete_ne|]. intros <-. congruence.
  - eapply framed_finv; [apply H|done].
  - intros j hd. destruct (decide (j = s_fresh s)) as [->|].
    + rewrite lookup_insert. intros [= <-]. simpl. lia.
    + rewrite lookup_insert_ne by done. rewrite lookup_delete_Some. intros [_ Hj].
      destruct (f_hands _ (i_f _ _ H) _ _ Hj). lia.
  - rewrite (fr_fresh _ _ F). lia.
Qed.

(** Bundling a new lock: succeeds iff nobody holds the opposite one; the plain
    handle is consumed in both cases. *)
Lemma step_bundle s K k i x t : inv s K -> s_hands s !! i = Some (HNode Plain x) -> k <> Plain -> tree_of s x = Some t ->
  (holders s (s_hands s) (opp k) t 0 /\ exists s', step s (OpBundle k i) = Ret (s', OutHandle (s_fresh s)) /\ exchanged s s' K i (HNode k x)) \/
  (exists n, holders s (s_hands s) (opp k) t (S n) /\ exists s' K', step s (OpBundle k i) = Ret (s', OutLockErr) /\
     inv s' K' /\ s_hands s' = delete i (s_hands s) /\ s_fresh s' = s_fresh s /\ dropped s s' K t i K').
Proof.
  intros H Hi Hk Ht.
  assert (is_lock_kind k = true) as Hlk by (by destruct k).
  destruct (acquire_ok s (s_hands s) i k x t (i_h _ _ H) Hi Hk Ht) as [(A & s1 & B & C & D)|(n & A & B)].
  - left. split; [done|]. unfold step. rewrite Hi, Hlk, B. cbn [mbind run_bind]. rewrite (fr_fresh _ _ D). eexists. split; [done|].
    by eapply acquire_exchange.
  - right. exists n. split; [done|]. destruct (drop_node_ok s K i Plain x t H Hi Ht) as (s' & K' & E & R).
    exists s', K'. unfold step. rewrite Hi, Hlk, B. cbn [mbind run_bind]. rewrite E. done.
Qed.

Lemma step_bundle_with s K k i j x t : inv s K -> s_hands s !! i = Some (HNode Plain x) -> k <> Plain ->
  s_hands s !! j = Some (token k t) -> tree_of s x = Some t ->
  exists s', step s (OpBundleWith i j) = Ret (s', OutHandle (s_fresh s)) /\ exchanged s s' K i (HNode k x).
Proof.
  intros H Hi Hk Hj Ht. destruct (handle_tree _ _ _ _ _ H Hi) as (t1 & tr & A & B & _ & C & _). assert (t1 = t) as -> by congruence.
  pose proof (token_excl _ _ _ _ _ H Hj Hk ltac:(eauto)) as H0.
  destruct (acquire_ok s (s_hands s) i k x t (i_h _ _ H) Hi Hk Ht) as [(_ & s1 & B1 & C1 & D)|(n & A1 & _)].
  2: { pose proof (holders_unique _ _ _ _ _ _ H0 A1). lia. }
  exists (add_hand (del_hand s1 i) (HNode k x)). split; [|by eapply acquire_exchange].
  unfold step. rewrite Hi, Hj. destruct k; [done|..]; simpl token; cbv iota beta; rewrite C; cbn [mbind run_bind];
    rewrite decide_True by done; unfold acquire_expect; rewrite B1; cbn [mbind run_bind]; by rewrite (fr_fresh _ _ D).
Qed.

(** Using a token of another tree panics. *)
Lemma step_bundle_with_bad s K k i j x t t' : inv s K -> s_hands s !! i = Some (HNode Plain x) -> k <> Plain ->
  s_hands s !! j = Some (token k t') -> tree_of s x = Some t -> t <> t' -> step s (OpBundleWith i j) = Panic.
Proof.
  intros H Hi Hk Hj Ht Hne. destruct (handle_tree _ _ _ _ _ H Hi) as (t1 & tr & A & B & _ & C & _). assert (t1 = t) as -> by congruence.
  unfold step. rewrite Hi, Hj. destruct k; [done|..]; simpl token; cbv iota beta; rewrite C; cbn [mbind run_bind];
    by rewrite decide_False.
Qed.

(** ** Dropping *)
Lemma drop_tree_hand_ok s K i t : inv s K -> s_hands s !! i = Some (HTree t) ->
  exists s' K', step s (OpDrop i) = Ret (s', OutUnit) /\ inv s' K' /\ s_hands s' = delete i (s_hands s) /\ s_fresh s' = s_fresh s /\
    dropped s s' K t i K'.
Proof.
  intros H Hi. unfold step. rewrite Hi. destruct (h_tree _ _ (i_h _ _ H) _ _ Hi) as [tr Htr].
  set (s1 := del_hand s i).
  assert (hinv s1 (s_hands s1)) as Hh1.
  { assert (hinv s (delete i (s_hands s))) as [A B C D E]; [|split; done]. eapply hinv_uncounted; [apply H|..].
    - intros j hd Hc. rewrite lookup_delete_Some. split; [tauto|]. intros Hj. split; [|done]. intros <-. rewrite Hi in Hj. by simplify_eq.
    - intros j u. rewrite lookup_delete_Some. intros [_ Hj]. exact (h_tree _ _ (i_h _ _ H) _ _ Hj). }
  assert (sinv s1 K) as Hs1. { destruct (i_s _ _ H) as [A B C D E]. split; done. }
  assert (forall u, u <> t -> is_Some (s_trees s !! u) -> tree_held s1 (s_hands s1) u) as Hheld1.
  { intros u Hu Hus. destruct (i_held _ _ H u Hus) as [(j & Hj)|(j & k & y & Hj & Hy)].
    - left. exists j. simpl. rewrite lookup_delete_ne; [done|]. intros <-. congruence.
    - right. exists j, k, y. simpl. rewrite lookup_delete_ne; [done|]. intros <-. rewrite Hi in Hj. by simplify_eq. }
  assert (finv s1) as Hf1.
  { destruct (i_f _ _ H) as [A B C D]. split; try done. intros j hd. simpl. rewrite lookup_delete_Some. intros [_ Hj]. by apply C. }
  destruct (tree_referenced s1 [] t) eqn:Href.
  - unfold drop_tree_if_dead. change (s_trees s1) with (s_trees s). rewrite Htr, Href. cbn [mbind run_bind].
    apply referenced_held in Href; [|done]. exists s1, K. split; [done|]. split.
    { split; [exact Hs1|exact Hh1| |exact Hf1]. intros u Hu. destruct (decide (u = t)) as [->|]; [done|by apply Hheld1]. }
    split; [done|]. split; [done|]. left. split_and!; [done|done|]. by split.
  - destruct (drop_tree_gen s1 K t tr [] []) as (h' & E & (S1 & S2 & S3) & Hh2 & Hw2).
    { apply Hs1. } { apply Hs1. } { exact Hh1. } { exact Htr. } { exact (proj1 (s_root _ _ Hs1 _ _ Htr)). }
    { intros y Hy. apply (sinv_below _ _ _ _ _ Hs1 Htr) in Hy as [_ Hy]. exact Hy. }
    { intros t2 tr2 Ht2 Hb. apply (sinv_below _ _ _ _ _ Hs1 Htr) in Hb as [_ Hb].
      destruct (s_root _ _ Hs1 _ _ Ht2) as [_ E]. congruence. }
    { exact Href. }
    rewrite E. cbn [mbind run_bind].
    destruct (below_list K (t_root tr) (s_wf _ _ Hs1)) as (L & _ & HL). { apply (s_root _ _ Hs1 _ _ Htr). }
    assert (forall y, y ∉ L -> h' !! y = s_nodes s !! y) as Hout. { intros y Hy. rewrite HL in Hy. by rewrite S1. }
    assert (forall y, y ∈ L -> h' !! y = None) as Hin. { intros y Hy. apply HL in Hy. apply S2; [done|]. ls. }
    eexists _, (prune K L). split; [done|]. split; [|split; [done|split; [done|]]].
    + split.
      * apply sinv_pinv. exact (sweep_pinv s1 K noX t tr L h' (s_hands s1) (s_fresh s1) (proj1 (sinv_pinv s1 K) Hs1) Htr HL Hout Hin).
      * exact Hh2.
      * intros u Hu. simpl in Hu. destruct Hu as [tru Hu]. apply lookup_delete_Some in Hu as [Hut Hu].
        destruct (Hheld1 u) as [(j & Hj)|(j & k & y & Hj & Hy)]; [done|eauto|left; by exists j|].
        right. exists j, k, y. split; [done|]. rewrite <-Hy. unfold tree_of, n_memb. simpl. rewrite Hout; [done|].
        intros Hyl. apply HL in Hyl. by destruct (proj2 (Hw2 y Hyl) j k).
      * destruct Hf1 as [A B C D]. split; try done.
        -- intros y Hy. apply A. simpl in Hy. destruct (decide (y ∈ L)) as [Hyl|Hyl]; [rewrite Hin in Hy by done; by destruct Hy|].
           by rewrite Hout in Hy.
        -- intros u [tru Hu]. apply B. simpl in Hu. apply lookup_delete_Some in Hu as [_ Hu]. eauto.
        -- intros y u Hy. apply (D y u). rewrite <-Hy. unfold tree_of, n_memb in *. simpl in *.
           destruct (decide (y ∈ L)) as [Hyl|Hyl]; [|by rewrite Hout]. rewrite Hin in Hy by done. done.
    + right. split; [change (~ tree_held s1 (s_hands s1) t); rewrite <-(referenced_held s1) by done; by rewrite Href|].
      exists tr, L. split_and!; [done|done|done| | |done|done]; simpl; [by rewrite lookup_delete|]. intros u Hu. by rewrite lookup_delete_ne.
Qed.

Lemma mk_inv_del s s1 K i : inv s K -> framed s s1 -> hinv s1 (delete i (s_hands s)) ->
  (forall k x, s_hands s !! i <> Some (HNode k x)) -> (forall t, s_hands s !! i <> Some (HTree t)) ->
  inv (del_hand s1 i) K /\ quiet s (del_hand s1 i) /\ s_hands (del_hand s1 i) = delete i (s_hands s) /\ s_fresh (del_hand s1 i) = s_fresh s.
Proof.
  intros H F Hh Hn Ht. unfold del_hand, with_hands. simpl. rewrite (fr_hands _ _ F). split; [|split; [destruct F; by split|split; [done|by apply F]]].
  apply (mk_inv s1).
  - eapply framed_sinv; [apply H|done].
  - done.
  - intros u Hu. rewrite (framed_held _ _ _ _ F). apply (framed_tree_alive _ _ _ F) in Hu.
    destruct (i_held _ _ H u Hu) as [(j & Hj)|(j & k1 & y & Hj & Hy)].
    + left. exists j. rewrite lookup_delete_ne; [done|]. intros <-. by destruct (Ht u).
    + right. exists j, k1, y. rewrite lookup_delete_ne; [done|]. intros <-. by destruct (Hn k1 y).
  - eapply framed_finv; [apply H|done].
  - rewrite (fr_fresh _ _ F). intros j hd. rewrite lookup_delete_Some. intros [_ Hj]. by apply (f_hands _ (i_f _ _ H)).
  - lia.
Qed.

(** Dropping a token or a weak reference. *)
Lemma drop_light s K i hd : inv s K -> s_hands s !! i = Some hd ->
  (forall k x, hd <> HNode k x) -> (forall t, hd <> HTree t) ->
  exists s', step s (OpDrop i) = Ret (s', OutUnit) /\ inv s' K /\ quiet s s' /\ s_hands s' = delete i (s_hands s) /\ s_fresh s' = s_fresh s.
Proof.
  intros H Hi Hn Ht.
  assert (forall k x, s_hands s !! i <> Some (HNode k x)) as Hn' by (intros k x E; rewrite Hi in E; simplify_eq; by destruct (Hn k x)).
  assert (forall t, s_hands s !! i <> Some (HTree t)) as Ht' by (intros t E; rewrite Hi in E; simplify_eq; by destruct (Ht t)).
  assert (inert s hd -> inv (del_hand s i) K /\ quiet s (del_hand s i) /\ s_hands (del_hand s i) = delete i (s_hands s) /\ s_fresh (del_hand s i) = s_fresh s) as Hin.
  { intros Hin. apply mk_inv_del; [done|apply framed_refl| |done|done]. eapply hinv_inert; [apply H|].
    intros j hd1 Hc. rewrite lookup_delete_Some. split; [tauto|]. intros Hj. split; [|done]. intros <-. congruence. }
  assert (forall k t, k <> Plain -> hd = token k t -> exists s', drop_token s k t i = Ret s' /\
     inv s' K /\ quiet s s' /\ s_hands s' = delete i (s_hands s) /\ s_fresh s' = s_fresh s) as Htok.
  { intros k t Hk ->. unfold drop_token, tree_alive. case_bool_decide as Hta.
    - destruct (unlock_tree_ok s (s_hands s) i k t (i_h _ _ H) Hi Hk Hta) as (s1 & E & Hh & F). rewrite E. cbn [mbind run_bind].
      eexists. split; [done|]. by apply mk_inv_del.
    - cbn [mbind run_bind]. eexists. split; [done|]. apply Hin.
      assert (s_trees s !! t = None) as E by (destruct (s_trees s !! t); [exfalso; eauto|done]). by destruct k. }
  unfold step. rewrite Hi. destruct hd as [k x|t|t|t|x|t].
  - by destruct (Hn k x).
  - by destruct (Ht t).
  - destruct (Htok Hot t ltac:(done) eq_refl) as (s' & E & R). rewrite E. exists s'. done.
  - destruct (Htok Frozen t ltac:(done) eq_refl) as (s' & E & R). rewrite E. exists s'. done.
  - eexists. split; [done|]. by apply Hin.
  - eexists. split; [done|]. by apply Hin.
Qed.

End SysFacts6.
