(** * BareFacts: the code never looks at the data. *)
From Verif Require Import Heap Edit Traverse System SysSpec ApiSpec Spec BareSpec.

Section BareFacts.
Context {T : Type}.
Implicit Types (h : heap T) (s : sys T) (x y n p : nid).

Definition bare_node (nd : node T) : node unit :=
  mkNode tt (Lent 0) (n_parent nd) (n_first nd) (n_next nd) (n_prev nd) (n_nch nd) (n_mem nd).
Definition bare h : heap unit := bare_node <$> h.
Definition bares s : sys unit := mkSys (bare (s_nodes s)) (s_trees s) (s_hands s) (s_fresh s).
Definition bare_op (o : op T) : op unit :=
  match o with
  | OpNewTree _ => OpNewTree tt
  | OpClone i => OpClone i | OpDrop i => OpDrop i | OpNav v i => OpNav v i | OpTree i => OpTree i | OpRoot i => OpRoot i
  | OpLock k i => OpLock k i | OpBundle k i => OpBundle k i | OpBundleWith i j => OpBundleWith i j | OpPlain i => OpPlain i
  | OpExtract i => OpExtract i | OpDowngrade i => OpDowngrade i | OpUpgrade i => OpUpgrade i
  | OpCreate a _ ad => OpCreate a tt ad | OpInterruptParent a _ => OpInterruptParent a tt | OpInterruptChild a _ => OpInterruptChild a tt
  | OpReplace a => OpReplace a | OpDetach a => OpDetach a | OpMove a ad j => OpMove a ad j
  | OpGet i => OpGet i | OpSet i _ => OpSet i tt | OpBorrow i b => OpBorrow i b
  end.
(** A datum is mapped to something that depends on [b]: so results that do not depend on [b] are not data. *)
Definition bare_out (b : bool) (r : out T) : out unit :=
  match r with
  | OutHandle i => OutHandle i | OutNone => OutNone | OutUnit => OutUnit | OutErr e => OutErr e | OutLockErr => OutLockErr
  | OutBorrowErr => OutBorrowErr | OutData _ => if b then OutNone else OutUnit | OutIll => OutIll
  end.

Definition on1 {A B C : Type} (f : A -> B) (p : A * C) : B * C := (f p.1, p.2).
Definition onr {A B} (f : A -> B) (r : run A) : run B := match r with Ret a => Ret (f a) | Panic => Panic | NoFuel => NoFuel end.
Definition ono {A B} (f : A -> B) (r : option A) : option B := match r with Some a => Some (f a) | None => None end.

Lemma b_look h x : bare h !! x = ono bare_node (h !! x).
Proof. unfold bare. rewrite lookup_fmap. by destruct (h !! x). Qed.

Lemma b_alive h x : alive (bare h) x = alive h x.
Proof. unfold alive. rewrite b_look. by destruct (h !! x). Qed.
Lemma b_fparent h x : fparent (bare h) x = fparent h x. Proof. unfold fparent. rewrite b_look. by destruct (h !! x). Qed.
Lemma b_ffirst h x : ffirst (bare h) x = ffirst h x. Proof. unfold ffirst. rewrite b_look. by destruct (h !! x). Qed.
Lemma b_fnext h x : fnext (bare h) x = fnext h x. Proof. unfold fnext. rewrite b_look. by destruct (h !! x). Qed.
Lemma b_fprev h x : fprev (bare h) x = fprev h x. Proof. unfold fprev. rewrite b_look. by destruct (h !! x). Qed.
Lemma b_fnch h x : fnch (bare h) x = fnch h x. Proof. unfold fnch. rewrite b_look. by destruct (h !! x). Qed.
Lemma b_size h : size (bare h) = size h. Proof. apply map_size_fmap. Qed.

Lemma b_alter h x (f : node unit -> node unit) (g : node T -> node T) :
  (forall nd, f (bare_node nd) = bare_node (g nd)) -> alter f x (bare h) = bare (alter g x h).
Proof. intros H. unfold bare. apply map_eq. intros y. rewrite lookup_fmap. destruct (decide (y = x)) as [->|].
  - rewrite !lookup_alter, lookup_fmap. destruct (h !! x); simpl; by rewrite ?H.
  - rewrite !lookup_alter_ne, lookup_fmap by done. done. Qed.
Lemma b_set_parent h x w : set_parent (bare h) x w = bare (set_parent h x w). Proof. by apply b_alter. Qed.
Lemma b_set_first h x w : set_first (bare h) x w = bare (set_first h x w). Proof. by apply b_alter. Qed.
Lemma b_set_next h x w : set_next (bare h) x w = bare (set_next h x w). Proof. by apply b_alter. Qed.
Lemma b_set_prev h x w : set_prev (bare h) x w = bare (set_prev h x w). Proof. by apply b_alter. Qed.
Lemma b_set_nch h x w : set_nch (bare h) x w = bare (set_nch h x w). Proof. by apply b_alter. Qed.
Lemma b_set_mem h x w : set_mem (bare h) x w = bare (set_mem h x w). Proof. by apply b_alter. Qed.
Lemma b_alloc h n d m : alloc (bare h) n tt m = bare (alloc h n d m).
Proof. unfold alloc, bare. by rewrite fmap_insert. Qed.
Lemma b_delete h x : delete x (bare h) = bare (delete x h). Proof. unfold bare. by rewrite fmap_delete. Qed.
Hint Rewrite b_alive b_fparent b_ffirst b_fnext b_fprev b_fnch b_size b_set_parent b_set_first b_set_next b_set_prev b_set_nch b_set_mem b_delete : er.

(** Goals [f (bare h) = onr g (f h)]. *)
Lemma er_bind {A B C D} (g : A -> B) (f : C -> D) (m : run A) (m' : run B) (k : A -> run C) (k' : B -> run D) :
  m' = onr g m -> (forall a, k' (g a) = onr f (k a)) -> mbind k' m' = onr f (mbind k m).
Proof. intros -> H. destruct m; cbn [mbind run_bind onr]; [apply H|done|done]. Qed.
Lemma er_bind_eq {A C D} (f : C -> D) (m m' : run A) (k : A -> run C) (k' : A -> run D) :
  m' = m -> (forall a, k' a = onr f (k a)) -> mbind k' m' = onr f (mbind k m).
Proof. intros -> H. destruct m; cbn [mbind run_bind onr]; [apply H|done|done]. Qed.
Lemma er_bind_id {A C} (m m' : run A) (k k' : A -> run C) : m' = m -> (forall a, k' a = k a) -> mbind k' m' = mbind k m.
Proof. intros -> H. destruct m; cbn [mbind run_bind onr]; [apply H|done|done]. Qed.

Definition ono' := @ono (sys T) (sys unit) bares.
Ltac er_intro := first [intros [[? ?] ?] | intros [? ?] | intros ?].
Ltac er_bind_tac :=
  first
  [ match goal with
    | |- @mbind _ _ _ _ _ _ = @mbind _ _ _ _ _ _ => apply er_bind_id; [|er_intro]
    | |- mbind _ _ = onr _ (mbind _ _) => first
        [ apply er_bind_eq; [|er_intro]
        | apply (er_bind bare); [|er_intro]
        | apply (er_bind bares); [|er_intro]
        | apply (er_bind (on1 bare)); [|er_intro]
        | apply (er_bind (on1 bares)); [|er_intro]
        | apply (er_bind (ono bares)); [|er_intro]
        | apply (er_bind (on1 (on1 bares))); [|er_intro] ]
    end ].
Ltac er_step := first
  [ reflexivity
  | progress unfold next_sibling_link, first_child_link
  | progress autorewrite with er
  | progress cbn [mret run_ret onr on1 ono fst snd]
  | er_bind_tac
  | match goal with
    | |- match ?x with _ => _ end = _ => lazymatch x with context [bare] => fail | context [bares] => fail | _ => destruct x end
    | |- context [match ?x with _ => _ end] => lazymatch x with context [match _ with _ => _ end] => fail | context [bare] => fail | context [bares] => fail | _ => destruct x end
    end ].
Ltac er := repeat er_step.

Lemma b_upgrade h w : upgrade (bare h) w = upgrade h w. Proof. unfold upgrade. er. Qed.
Hint Rewrite b_upgrade : er.
Lemma b_parent_link h x : parent_link (bare h) x = parent_link h x. Proof. unfold parent_link. er. Qed.
Lemma b_is_root h x : is_root (bare h) x = is_root h x. Proof. unfold is_root. er. Qed.
Lemma b_cyclic h x : prev_sibling_cyclic_link (bare h) x = prev_sibling_cyclic_link h x. Proof. unfold prev_sibling_cyclic_link. er. Qed.
Lemma b_next_sibling h x : next_sibling_link (bare h) x = next_sibling_link h x. Proof. unfold next_sibling_link. er. Qed.
Lemma b_first_child h x : first_child_link (bare h) x = first_child_link h x. Proof. unfold first_child_link. er. Qed.
Hint Rewrite b_parent_link b_is_root b_cyclic : er.
Lemma b_prev_sibling h x : prev_sibling_link (bare h) x = prev_sibling_link h x. Proof. unfold prev_sibling_link. er. Qed.
Lemma b_last_child h x : last_child_link (bare h) x = last_child_link h x. Proof. unfold last_child_link. er. Qed.
Lemma b_last_weak h x : last_child_link_weak (bare h) x = last_child_link_weak h x. Proof. unfold last_child_link_weak. er. Qed.
Lemma b_first_last h x : first_last_child_link (bare h) x = first_last_child_link h x. Proof. unfold first_last_child_link. er. Qed.
Lemma b_is_last h x : is_last_sibling (bare h) x = is_last_sibling h x. Proof. unfold is_last_sibling. er. Qed.
Hint Rewrite b_prev_sibling b_last_child b_last_weak b_first_last b_is_last : er.
Lemma b_is_first h x : is_first_sibling (bare h) x = is_first_sibling h x. Proof. unfold is_first_sibling. er. Qed.
Lemma b_first_sibling h x : first_sibling (bare h) x = first_sibling h x. Proof. unfold first_sibling. er. Qed.
Lemma b_last_sibling h x : last_sibling (bare h) x = last_sibling h x. Proof. unfold last_sibling. er. Qed.
Lemma b_connect h x y : connect_adjacent_siblings (bare h) x y = bare (connect_adjacent_siblings h x y). Proof. unfold connect_adjacent_siblings. er. Qed.
Lemma b_add h x v : num_children_add (bare h) x v = bare (num_children_add h x v). Proof. unfold num_children_add. er. Qed.
Lemma b_sub h x v : num_children_sub (bare h) x v = onr bare (num_children_sub h x v). Proof. unfold num_children_sub. er. Qed.
Hint Rewrite b_is_first b_first_sibling b_last_sibling b_connect b_add b_sub : er.

(** Edit.v *)
Lemma b_unlink h x : new_by_unlink (bare h) x = onr (on1 bare) (new_by_unlink h x). Proof. unfold new_by_unlink. er. Qed.
Lemma b_anc f h x o : is_ancestor_of f (bare h) x o = is_ancestor_of f h x o.
Proof. revert o. induction f as [|f IH]; intros o; cbn [is_ancestor_of]; er. apply IH. Qed.
Hint Rewrite b_unlink b_anc : er.
Lemma b_loop_check h n b p : loop_check (bare h) n b p = loop_check h n b p. Proof. unfold loop_check, walk_fuel. er. Qed.
Hint Rewrite b_loop_check : er.
Lemma b_first_of h n b p : insert_as_first_child_of (bare h) n b p = onr (on1 bare) (insert_as_first_child_of h n b p). Proof. unfold insert_as_first_child_of. er. Qed.
Lemma b_last_of h n b p : insert_as_last_child_of (bare h) n b p = onr (on1 bare) (insert_as_last_child_of h n b p). Proof. unfold insert_as_last_child_of. er. Qed.
Lemma b_between h n p x y : insert_between (bare h) n p x y = onr bare (insert_between h n p x y). Proof. unfold insert_between. er. Qed.
Hint Rewrite b_first_of b_last_of b_between : er.
Lemma b_insert h n b d : insert_orphan (bare h) n b d = onr (on1 bare) (insert_orphan h n b d). Proof. unfold insert_orphan. er. Qed.
Hint Rewrite b_insert : er.
Lemma b_move_same h n d : move_inside_same_tree (bare h) n d = onr (on1 bare) (move_inside_same_tree h n d). Proof. unfold move_inside_same_tree. er. Qed.
Hint Rewrite b_move_same : er.
Lemma b_int_parent h x n : interrupt_parent (bare h) x n = onr (on1 bare) (interrupt_parent h x n). Proof. unfold interrupt_parent. er. Qed.
Lemma b_reparent f h c p : reparent_chain f (bare h) c p = onr bare (reparent_chain f h c p).
Proof. revert h c. induction f as [|f IH]; intros h c; cbn [reparent_chain]; er. apply IH. Qed.
Hint Rewrite b_int_parent b_reparent : er.
Lemma b_int_child h x n : interrupt_child (bare h) x n = onr bare (interrupt_child h x n). Proof. unfold interrupt_child, walk_fuel. er. Qed.
Lemma b_replace_nonroot h x p : replace_with_children_nonroot (bare h) x p = onr bare (replace_with_children_nonroot h x p). Proof. unfold replace_with_children_nonroot, walk_fuel. er. Qed.
Lemma b_disconnect h x : disconnect (bare h) x = bare (disconnect h x). Proof. unfold disconnect. er. Qed.
Hint Rewrite b_int_child b_replace_nonroot b_disconnect : er.
Lemma b_replace h x : replace_with_children (bare h) x = onr (on1 bare) (replace_with_children h x). Proof. unfold replace_with_children. er. Qed.
Hint Rewrite b_replace : er.
Lemma b_dft_next h e : dft_next (bare h) e = dft_next h e. Proof. unfold dft_next. er. Qed.
Hint Rewrite b_dft_next : er.
Lemma b_link_dfs h st : link_dfs_next (bare h) st = link_dfs_next h st. Proof. unfold link_dfs_next. er. Qed.
Lemma b_dfs_fuel h : dfs_fuel (bare h) = dfs_fuel h. Proof. unfold dfs_fuel, walk_fuel. er. Qed.
Hint Rewrite b_link_dfs b_dfs_fuel : er.

(** System.v *)
Lemma b_nodes s : s_nodes (bares s) = bare (s_nodes s). Proof. reflexivity. Qed.
Lemma b_trees s : s_trees (bares s) = s_trees s. Proof. reflexivity. Qed.
Lemma b_hands s : s_hands (bares s) = s_hands s. Proof. reflexivity. Qed.
Lemma b_fresh s : s_fresh (bares s) = s_fresh s. Proof. reflexivity. Qed.
Lemma b_with_nodes s h : with_nodes (bares s) (bare h) = bares (with_nodes s h). Proof. reflexivity. Qed.
Lemma b_with_trees s m : with_trees (bares s) m = bares (with_trees s m). Proof. reflexivity. Qed.
Lemma b_with_hands s m : with_hands (bares s) m = bares (with_hands s m). Proof. reflexivity. Qed.
Lemma b_with_fresh s m : with_fresh (bares s) m = bares (with_fresh s m). Proof. reflexivity. Qed.
Lemma b_add_hand s hd : add_hand (bares s) hd = bares (add_hand s hd). Proof. reflexivity. Qed.
Lemma b_del_hand s i : del_hand (bares s) i = bares (del_hand s i). Proof. reflexivity. Qed.
Lemma b_memb s x : n_memb (bares s) x = n_memb s x.
Proof. unfold n_memb. rewrite b_nodes, b_look. by destruct (s_nodes s !! x). Qed.
Hint Rewrite b_nodes b_trees b_hands b_fresh b_with_nodes b_with_trees b_with_hands b_with_fresh b_add_hand b_del_hand b_memb : er.
Lemma b_put_mem s x m : put_mem (bares s) x m = bares (put_mem s x m). Proof. unfold put_mem. er. Qed.
Lemma b_put_cnt s x m : put_cnt (bares s) x m = bares (put_cnt s x m). Proof. unfold put_cnt. er. Qed.
Lemma b_put_root s x m : put_root (bares s) x m = bares (put_root s x m). Proof. unfold put_root. er. Qed.
Hint Rewrite b_put_mem b_put_cnt b_put_root : er.

Lemma existsb_eq {A B} (f : A -> bool) (g : B -> bool) (l : list A) (l' : list B) :
  ((exists a, a ∈ l /\ f a = true) <-> (exists b, b ∈ l' /\ g b = true)) -> existsb f l = existsb g l'.
Proof. intros H. apply eq_true_iff_eq. rewrite !existsb_exists. setoid_rewrite <- elem_of_list_In. exact H. Qed.
Lemma b_existsb h (f : nid * node unit -> bool) (g : nid * node T -> bool) :
  (forall x nd, f (x, bare_node nd) = g (x, nd)) -> existsb f (map_to_list (bare h)) = existsb g (map_to_list h).
Proof. intros H. apply existsb_eq. split.
  - intros ([x ne] & Hi & Hf). apply elem_of_map_to_list in Hi. rewrite b_look in Hi. destruct (h !! x) as [nd|] eqn:E; [|done].
    injection Hi as <-. exists (x, nd). split; [by apply elem_of_map_to_list|]. by rewrite <- H.
  - intros ([x nd] & Hi & Hf). apply elem_of_map_to_list in Hi. exists (x, bare_node nd). split; [|by rewrite H].
    apply elem_of_map_to_list. by rewrite b_look, Hi. Qed.
Lemma b_referenced s l x : referenced (bares s) l x = referenced s l x.
Proof. unfold referenced. autorewrite with er. f_equal. f_equal. by apply b_existsb. Qed.
Lemma b_tree_referenced s l x : tree_referenced (bares s) l x = tree_referenced s l x.
Proof. unfold tree_referenced. autorewrite with er. f_equal. by apply b_existsb. Qed.
Lemma b_release f l s x : release f l (bares s) x = onr bares (release f l s x).
Proof. revert s x. induction f as [|f IH]; intros s x; cbn [release]; rewrite b_nodes, b_look, b_referenced;
  (destruct (s_nodes s !! x) as [nd|] eqn:E; cbn [ono]; [|reflexivity]); (destruct (referenced s l x); [reflexivity|]); [reflexivity|].
  cbn [bare_node n_mem n_first n_next]. destruct (n_mem nd); [|reflexivity]. cbn zeta. rewrite b_delete, b_with_nodes.
  apply (er_bind bares).
  - destruct (n_first nd); [apply IH|reflexivity].
  - intros a. destruct (n_next nd); [apply IH|reflexivity]. Qed.
Lemma b_release_all l s x : release_all (bares s) l x = onr bares (release_all s l x).
Proof. unfold release_all, walk_fuel. rewrite b_nodes, b_size. apply b_release. Qed.
Hint Rewrite b_referenced b_tree_referenced b_release_all : er.
Lemma b_teardown f l s e : teardown f l (bares s) e = onr bares (teardown f l s e).
Proof. revert s e. induction f as [|f IH]; intros s e; cbn [teardown]; er; apply IH. Qed.
Hint Rewrite b_teardown : er.
Lemma b_drop_tree l tl s t : drop_tree_if_dead l tl (bares s) t = onr bares (drop_tree_if_dead l tl s t).
Proof. unfold drop_tree_if_dead. er. Qed.
Lemma b_tree_alive s t : tree_alive (bares s) t = tree_alive s t. Proof. reflexivity. Qed.
Hint Rewrite b_drop_tree b_tree_alive : er.
Lemma b_tree_core s x : tree_core (bares s) x = tree_core s x. Proof. unfold tree_core. er. Qed.
Lemma b_link_core s x : link_tree_core (bares s) x = link_tree_core s x. Proof. unfold link_tree_core. er. Qed.
Lemma b_incr_ref s x : incr_ref (bares s) x = ono bares (incr_ref s x). Proof. unfold incr_ref. er. Qed.
Lemma b_incr_nonzero s x : incr_nonzero_ref (bares s) x = onr bares (incr_nonzero_ref s x). Proof. unfold incr_nonzero_ref. er. Qed.
Lemma b_decr_ref s x : decr_ref (bares s) x = onr bares (decr_ref s x). Proof. unfold decr_ref. er. Qed.
Lemma b_lock_tree s k t : lock_tree (bares s) k t = ono bares (lock_tree s k t). Proof. unfold lock_tree. er. Qed.
Lemma b_unlock_tree s k t : unlock_tree (bares s) k t = onr bares (unlock_tree s k t). Proof. unfold unlock_tree. er. Qed.
Lemma b_release_any s t : release_any (bares s) t = onr bares (release_any s t). Proof. unfold release_any. er. Qed.
Hint Rewrite b_tree_core b_link_core b_incr_ref b_incr_nonzero b_decr_ref b_lock_tree b_unlock_tree b_release_any : er.
Lemma b_transfer s t u : transfer_lock (bares s) t u = ono bares (transfer_lock s t u).
Proof. unfold transfer_lock. rewrite b_trees. destruct (s_trees s !! t) as [tr|]; [|reflexivity].
  destruct (t_cnt tr); [reflexivity| |]; rewrite b_lock_tree; (destruct (lock_tree s _ u) as [s1|]; [|reflexivity]); simpl; by destruct (s_trees s1 !! t). Qed.
Lemma b_acquire s k x : acquire (bares s) k x = onr (ono bares) (acquire s k x). Proof. unfold acquire. er. Qed.
Hint Rewrite b_transfer b_acquire : er.
Lemma b_acquire_expect s k x : acquire_expect (bares s) k x = onr bares (acquire_expect s k x). Proof. unfold acquire_expect. er. Qed.
Lemma b_incr_lock s x : incr_nonzero_lock (bares s) x = onr bares (incr_nonzero_lock s x). Proof. unfold incr_nonzero_lock. er. Qed.
Lemma b_decr_lock s x : decr_lock (bares s) x = onr bares (decr_lock s x). Proof. unfold decr_lock. er. Qed.
Hint Rewrite b_acquire_expect b_incr_lock b_decr_lock : er.
Lemma b_new_hand s k x : new_node_hand (bares s) k x = onr (on1 bares) (new_node_hand s k x). Proof. unfold new_node_hand. er. Qed.
Lemma b_drop_link s i x : drop_link (bares s) i x = onr bares (drop_link s i x). Proof. unfold drop_link. er. Qed.
Hint Rewrite b_new_hand b_drop_link : er.
Lemma b_drop_node s i k x : drop_node (bares s) i k x = onr bares (drop_node s i k x). Proof. unfold drop_node. er. Qed.
Lemma b_clone_node s k x : clone_node (bares s) k x = onr (on1 bares) (clone_node s k x). Proof. unfold clone_node. er. Qed.
Lemma b_new_tree s d : new_tree (bares s) tt = on1 bares (new_tree s d).
Proof. unfold new_tree. cbn zeta. rewrite b_nodes, b_trees, b_hands, b_fresh, (b_alloc _ _ d). reflexivity. Qed.
Lemma b_new_orphan s d t : new_orphan (bares s) tt t = onr (on1 (on1 bares)) (new_orphan s d t).
Proof. unfold new_orphan. cbn zeta. autorewrite with er. rewrite (b_alloc _ _ d). er. Qed.
Lemma b_upgrade_new s i n k : upgrade_new (bares s) i n k = onr bares (upgrade_new s i n k). Proof. unfold upgrade_new. er. Qed.
Hint Rewrite b_drop_node b_clone_node b_new_tree b_upgrade_new : er.
Lemma b_create s k x d ad : create_node_as (bares s) k x tt ad = onr (on1 bares) (create_node_as s k x d ad).
Proof. unfold create_node_as. er. apply b_new_orphan. Qed.
Lemma b_create_ip s k x d : create_interrupting_parent (bares s) k x tt = onr (on1 bares) (create_interrupting_parent s k x d).
Proof. unfold create_interrupting_parent. er. apply b_new_orphan. Qed.
Lemma b_create_ic s k x d : create_interrupting_child (bares s) k x tt = onr (on1 bares) (create_interrupting_child s k x d).
Proof. unfold create_interrupting_child. er. apply b_new_orphan. Qed.
Lemma b_set_core s l tl x t : set_tree_core (bares s) l tl x t = onr (ono bares) (set_tree_core s l tl x t).
Proof. unfold set_tree_core. er. Qed.
Hint Rewrite b_set_core : er.
Lemma b_set_membs f s tl st t : set_memberships f (bares s) tl st t = onr (ono bares) (set_memberships f s tl st t).
Proof. revert s st. induction f as [|f IH]; intros s st; cbn [set_memberships]; er; apply IH. Qed.
Hint Rewrite b_set_membs : er.
Lemma b_set_subtree s tl x t : set_subtree_tree (bares s) tl x t = onr (ono bares) (set_subtree_tree s tl x t). Proof. unfold set_subtree_tree. er. Qed.
Hint Rewrite b_set_subtree : er.
Lemma b_create_tree s tl x : create_new_tree (bares s) tl x = onr bares (create_new_tree s tl x). Proof. unfold create_new_tree. er. Qed.
Hint Rewrite b_create_tree : er.
Lemma b_detach s x : detach_subtree (bares s) x = onr bares (detach_subtree s x). Proof. unfold detach_subtree. er. Qed.
Lemma b_replace_node s x : replace_node (bares s) x = onr (on1 bares) (replace_node s x). Proof. unfold replace_node. er. Qed.
Lemma b_move_other s x d t : move_to_another_tree (bares s) x d t = onr (on1 bares) (move_to_another_tree s x d t). Proof. unfold move_to_another_tree. er. Qed.
Hint Rewrite b_detach b_replace_node b_move_other : er.
Lemma b_move s x ad y : move_subtree (bares s) x ad y = onr (on1 bares) (move_subtree s x ad y). Proof. unfold move_subtree. er. Qed.
Lemma b_nav s v x : nav_target (bares s) v x = nav_target s v x. Proof. unfold nav_target. er. Qed.
Hint Rewrite b_move b_nav : er.

Definition bare_res (b : bool) (r : sys T * out T) : sys unit * out unit := (bares r.1, bare_out b r.2).
Definition hier_op (o : op T) : Prop := data_call o = false.

Lemma b_ill b s : ill (bares s) = onr (bare_res b) (ill s). Proof. reflexivity. Qed.
Lemma b_ret_hand b (r : sys T * nat) : ret_hand (on1 bares r) = onr (bare_res b) (ret_hand r). Proof. reflexivity. Qed.
Lemma b_out_of b (r : sys T * hres unit) : out_of (on1 bares r) = onr (bare_res b) (out_of r). Proof. destruct r as [s [|]]; reflexivity. Qed.
Lemma b_out_of_hand b (r : sys T * hres nat) : out_of_hand (on1 bares r) = onr (bare_res b) (out_of_hand r). Proof. destruct r as [s [|]]; reflexivity. Qed.
Lemma b_clone_token b s k t hd : clone_token (bares s) k t hd = onr (bare_res b) (clone_token s k t hd).
Proof. unfold clone_token. rewrite b_tree_alive, b_lock_tree. destruct (tree_alive s t); [|reflexivity]. by destruct (lock_tree s k t). Qed.
Lemma b_drop_token s k t i : drop_token (bares s) k t i = onr bares (drop_token s k t i). Proof. unfold drop_token. er. Qed.
Lemma b_new_token b s k t : new_token (bares s) k t = onr (bare_res b) (new_token s k t).
Proof. unfold new_token. rewrite b_lock_tree. destruct k; [reflexivity| |]; by destruct (lock_tree s _ t). Qed.
Lemma b_auth b s a f g : (forall k x, f k x = onr (bare_res b) (g k x)) -> with_auth (bares s) a f = onr (bare_res b) (with_auth s a g).
Proof. intros H. unfold with_auth. rewrite b_hands. destruct a as [i|i j].
  - destruct (s_hands s !! i) as [[[] | | | | |]|]; try apply b_ill. apply H.
  - destruct (s_hands s !! i) as [[[] | | | | |]|]; try apply b_ill. destruct (s_hands s !! j) as [[]|]; try apply b_ill.
    rewrite b_tree_core. apply er_bind_eq; [done|]. intros t'. destruct (decide _); [apply H|reflexivity]. Qed.

Lemma b_step b s o : hier_op o -> step (bares s) (bare_op o) = onr (bare_res b) (step s o).
Proof. intros Ho. destruct o; try done; cbn [step bare_op]; rewrite ?b_hands.
  - rewrite (b_new_tree _ d). apply b_ret_hand.
  - destruct (s_hands s !! i) as [[]|]; try reflexivity; try apply b_clone_token.
    rewrite b_clone_node. apply (er_bind (on1 bares)); [done|]. apply b_ret_hand.
  - destruct (s_hands s !! i) as [[]|]; try reflexivity; autorewrite with er; apply (er_bind bares); try reflexivity.
    + apply b_drop_token.
    + apply b_drop_token.
  - destruct (s_hands s !! i) as [[]|]; try reflexivity. rewrite b_nav. apply er_bind_eq; [done|]. intros [y|]; [|reflexivity].
    rewrite b_new_hand. apply (er_bind (on1 bares)); [done|]. apply b_ret_hand.
  - destruct (s_hands s !! i) as [[]|]; try reflexivity. rewrite b_tree_core. apply er_bind_eq; [done|]. reflexivity.
  - destruct (s_hands s !! i) as [[]|]; try reflexivity. rewrite b_trees. destruct (s_trees s !! t); [|reflexivity].
    rewrite b_new_hand. apply (er_bind (on1 bares)); [done|]. apply b_ret_hand.
  - destruct (s_hands s !! i) as [[]|]; try reflexivity. apply b_new_token.
  - destruct (s_hands s !! i) as [[[]| | | | |]|]; try reflexivity. destruct (is_lock_kind k); [|reflexivity].
    rewrite b_acquire. apply (er_bind (ono bares)); [done|]. intros [s1|]; [reflexivity|]. cbn [ono]. rewrite b_drop_node.
    apply (er_bind bares); [done|]. reflexivity.
  - destruct (s_hands s !! i) as [[[]| | | | |]|]; try reflexivity. destruct (s_hands s !! j) as [[]|]; try reflexivity.
    + rewrite b_tree_core. apply er_bind_eq; [done|]. intros t'. destruct (decide _); [|reflexivity]. rewrite b_acquire_expect.
      apply (er_bind bares); [done|]. reflexivity.
    + rewrite b_tree_core. apply er_bind_eq; [done|]. intros t'. destruct (decide _); [|reflexivity]. rewrite b_acquire_expect.
      apply (er_bind bares); [done|]. reflexivity.
  - destruct (s_hands s !! i) as [[]|]; try reflexivity. destruct (is_lock_kind k); [|reflexivity].
    rewrite b_clone_node. apply (er_bind (on1 bares)); [done|]. apply b_ret_hand.
  - destruct (s_hands s !! i) as [[]|]; try reflexivity. destruct (is_lock_kind k); [|reflexivity].
    rewrite b_tree_core. apply er_bind_eq; [done|]. intros t'. rewrite (b_new_token b). apply (er_bind (bare_res b)); [done|].
    intros [s1 []]; try reflexivity. by destruct b.
  - destruct (s_hands s !! i) as [[[]| | | | |]|]; reflexivity.
  - destruct (s_hands s !! i) as [[]|]; try reflexivity.
    + rewrite b_nodes, b_alive. destruct (alive _ _); [|reflexivity]. rewrite b_new_hand. apply (er_bind (on1 bares)); [done|]. apply b_ret_hand.
    + rewrite b_tree_alive. destruct (tree_alive _ _); reflexivity.
  - apply b_auth. intros k x. rewrite (b_create _ _ _ d). apply (er_bind (on1 bares)); [done|]. apply b_out_of_hand.
  - apply b_auth. intros k x. rewrite (b_create_ip _ _ _ d). apply (er_bind (on1 bares)); [done|]. apply b_ret_hand.
  - apply b_auth. intros k x. rewrite (b_create_ic _ _ _ d). apply (er_bind (on1 bares)); [done|]. apply b_ret_hand.
  - apply b_auth. intros k x. rewrite b_replace_node. apply (er_bind (on1 bares)); [done|]. apply b_out_of.
  - apply b_auth. intros k x. rewrite b_detach. apply (er_bind bares); [done|]. reflexivity.
  - destruct (s_hands s !! j) as [[[]| | | | |]|]; try reflexivity. apply b_auth. intros k y. rewrite b_move.
    apply (er_bind (on1 bares)); [done|]. apply b_out_of.
Qed.
End BareFacts.

Section BareMain.
Context {T U : Type}.
Implicit Types (s : sys T) (u : sys U).

Lemma bare_node_eq (nd : node T) (ne : node U) :
  bare_node nd = bare_node ne <-> n_parent nd = n_parent ne /\ n_first nd = n_first ne /\ n_next nd = n_next ne /\ n_prev nd = n_prev ne /\ n_nch nd = n_nch ne /\ n_mem nd = n_mem ne.
Proof. unfold bare_node. split.
  - intros [= -> -> -> -> -> ->]. repeat split.
  - intros (-> & -> & -> & -> & -> & ->). reflexivity. Qed.

Lemma alike_bares s u : alike s u <-> bares s = bares u.
Proof. split.
  - intros [A B C D E]. unfold bares. rewrite C, D, E. f_equal. apply map_eq. intros x. rewrite !b_look. specialize (A x). specialize (B x).
    destruct (s_nodes s !! x) as [nd|], (s_nodes u !! x) as [ne|]; cbn [ono].
    + f_equal. apply bare_node_eq. by apply B.
    + destruct (proj1 A (mk_is_Some _ _ eq_refl)). done.
    + destruct (proj2 A (mk_is_Some _ _ eq_refl)). done.
    + done.
  - intros H. injection H as Hn Ht Hh Hf.
    assert (L : forall x, ono bare_node (s_nodes s !! x) = ono bare_node (s_nodes u !! x)) by (intros x; rewrite <- !b_look; by rewrite Hn).
    constructor; try done.
    + intros x. specialize (L x). destruct (s_nodes s !! x), (s_nodes u !! x); cbn [ono] in L; try discriminate L; split; intros [? ?]; eauto; done.
    + intros x nd ne E1 E2. specialize (L x). rewrite E1, E2 in L. apply bare_node_eq. exact (Some_inj _ _ L).
Qed.

Lemma same_call_bare (o : op T) (o' : op U) : same_call o o' -> hier_op o /\ hier_op o' /\ bare_op o = bare_op o'.
Proof. destruct o, o'; try done; simpl; naive_solver. Qed.
Lemma same_out_bare (r : out T) (r' : out U) : (forall d, r <> OutData d) -> (forall b, bare_out b r = bare_out b r') -> same_out r r'.
Proof. intros D H. pose proof (H true) as H1. pose proof (H false) as H2. destruct r, r'; simpl in *; try done; try (by injection H1); by eapply D. Qed.

End BareMain.

Lemma hier_no_data {T} (s u : sys T) (o : op T) d : hier_op o -> step s o = Ret (u, OutData d) -> False.
Proof. intros Ho E. pose proof (b_step true s o Ho) as A. pose proof (b_step false s o Ho) as B. rewrite E in A, B. rewrite A in B. discriminate B. Qed.

Lemma ret_inj {A} (a b : A) : Ret a = Ret b -> a = b. Proof. congruence. Qed.
Lemma bare_eq {T U} (s : sys T) (u : sys U) o o' : alike s u -> same_call o o' -> same_run same_result (step s o) (step u o').
Proof. intros A C. apply alike_bares in A. destruct (same_call_bare o o' C) as (Ho & Ho' & Eo).
  assert (K : forall b, onr (bare_res b) (step s o) = onr (bare_res b) (step u o')).
  { intros b. rewrite <- (b_step b s o Ho), <- (b_step b u o' Ho'). by rewrite A, Eo. }
  destruct (step s o) as [[s1 r]| |] eqn:E, (step u o') as [[u1 r']| |]; try (by specialize (K true)); cbn [same_run onr] in *.
  split; cbn [fst snd].
  - apply alike_bares. exact (f_equal fst (ret_inj _ _ (K true))).
  - apply same_out_bare; [intros d Ed; subst r; exact (hier_no_data s s1 o d Ho E)|]. intros b. exact (f_equal snd (ret_inj _ _ (K b))). Qed.

Lemma bare_steps {T U} (os : list (op T)) (os' : list (op U)) : Forall2 same_call os os' -> forall (s : sys T) (u : sys U), alike s u ->
  same_run same_results (steps s os) (steps u os').
Proof. induction 1 as [|o o' os os' C _ IH]; intros s u A; cbn [steps].
  - split; [done|constructor].
  - pose proof (bare_eq s u o o' A C) as K. destruct (step s o) as [[s1 r]| |], (step u o') as [[u1 r']| |]; cbn [same_run] in K; try done.
    destruct K as [K1 K2]. cbn [mbind run_bind]. specialize (IH s1 u1 K1).
    destruct (steps s1 os) as [[s2 rs]| |], (steps u1 os') as [[u2 rs']| |]; cbn [same_run] in IH; try done.
    cbn [mbind run_bind same_run]. destruct IH as [I1 I2]. split; [done|]. by constructor. Qed.

(** The calls on the data. *)
Lemma alike_refl {T} (s : sys T) : alike s s. Proof. by apply alike_bares. Qed.
Lemma bare_data_call {T} (s u : sys T) o r : data_call o = true -> step s o = Ret (u, r) -> alike s u.
Proof. intros D E. apply alike_bares. destruct o; try discriminate D; cbn [step] in E.
  - destruct (s_hands s !! i) as [[]|]; try (by injection E as <- _). destruct (s_nodes s !! x); [|done]. by injection E as <- _.
  - destruct (s_hands s !! i) as [[]|]; try (by injection E as <- _). destruct (s_nodes s !! x) as [nd|]; [|done].
    destruct (negb (n_free nd)); [by injection E as <- _|]. injection E as <- _. unfold bares, with_nodes. cbn [s_nodes s_trees s_hands s_fresh]. f_equal.
    unfold set_data, bare. apply map_eq. intros y. rewrite !lookup_fmap. destruct (decide (y = x)) as [->|]; [|by rewrite lookup_alter_ne].
    rewrite lookup_alter. by destruct (s_nodes s !! x).
  - destruct (s_hands s !! i) as [[]|]; try (by injection E as <- _). destruct (s_nodes s !! x) as [nd|]; [|done].
    destruct (lend b (n_lend nd)) as [l|]; [|by injection E as <- _]. injection E as <- _. unfold bares, with_nodes. cbn [s_nodes s_trees s_hands s_fresh]. f_equal.
    unfold set_lend, bare. apply map_eq. intros y. rewrite !lookup_fmap. destruct (decide (y = x)) as [->|]; [|by rewrite lookup_alter_ne].
    rewrite lookup_alter. by destruct (s_nodes s !! x).
Qed.

Lemma same_call_hier {T} (o : op T) : data_call o = false -> same_call o o.
Proof. destruct o; try done. Qed.

Lemma bare_history {T} (os : list (op T)) : forall (s s' u : sys T) rs, alike s u -> steps s os = Ret (s', rs) ->
  exists u' rs', steps u (hierarchy_calls os) = Ret (u', rs') /\ alike s' u' /\ Forall2 same_out (hierarchy_answers os rs) rs'.
Proof. induction os as [|o os IH]; intros s s' u rs A E; cbn [steps] in E.
  - injection E as <- <-. exists u, []. split; [done|]. split; [done|constructor].
  - destruct (step s o) as [[s1 r]| |] eqn:E1; cbn [mbind run_bind] in E; try discriminate E.
    destruct (steps s1 os) as [[s2 rs1]| |] eqn:E2; cbn [mbind run_bind] in E; try discriminate E. injection E as <- <-.
    unfold hierarchy_calls, hierarchy_answers. destruct (data_call o) eqn:D.
    + assert (A1 : alike s1 u). { apply alike_bares. apply alike_bares in A. pose proof (bare_data_call _ _ _ _ D E1) as A2. apply alike_bares in A2. congruence. }
      destruct (IH s1 s2 u rs1 A1 E2) as (u' & rs' & H1 & H2 & H3). exists u', rs'. cbn [List.filter zip_with]. rewrite D. cbn [negb]. cbn [List.filter combine fst map]. rewrite D. done.
    + pose proof (bare_eq s u o o A (same_call_hier o D)) as K. rewrite E1 in K. destruct (step u o) as [[u1 r']| |] eqn:E3; cbn [same_run] in K; try done.
      destruct K as [K1 K2]. cbn [fst snd] in *. destruct (IH s1 s2 u1 rs1 K1 E2) as (u' & rs' & H1 & H2 & H3). exists u', (r' :: rs'). cbn [List.filter combine fst map]. rewrite D. cbn [negb steps map snd].
      unfold hierarchy_calls in H1. rewrite E3. cbn [mbind run_bind]. rewrite H1. cbn [mbind run_bind]. split; [done|]. split; [done|]. by constructor. Qed.
