(** * DataFacts: no function looks at the data. *)
From Verif Require Import Heap Edit Traverse System DataSpec.

Section Data.
Context {T U : Type} (f : T -> U).
Implicit Types (h : heap T) (s : sys T) (x y n p : nid) (t : tid).
Notation D := (data_heap f).
Notation DS := (data_sys f).
Notation R g := (replaced g).
Definition fstm {A} (r : heap T * A) : heap U * A := (D r.1, r.2).
Definition sfst {A} (r : sys T * A) : sys U * A := (DS r.1, r.2).
Definition sfst3 {A B} (r : sys T * A * B) : sys U * A * B := (DS r.1.1, r.1.2, r.2).

Lemma dl h x : D h !! x = option_map (data_node f) (h !! x).
Proof. unfold data_heap. by rewrite lookup_fmap. Qed.
Ltac fld := intros; unfold fparent, ffirst, fnext, fprev, fnch, alive; rewrite ?dl; 
  match goal with |- context [?h !! ?x] => destruct (h !! x) end; reflexivity.
Lemma d_alive h x : alive (D h) x = alive h x.
Proof. unfold alive. rewrite dl. destruct (h !! x); reflexivity. Qed.
Lemma d_fparent h x : fparent (D h) x = fparent h x. Proof. fld. Qed.
Lemma d_ffirst h x : ffirst (D h) x = ffirst h x. Proof. fld. Qed.
Lemma d_fnext h x : fnext (D h) x = fnext h x. Proof. fld. Qed.
Lemma d_fprev h x : fprev (D h) x = fprev h x. Proof. fld. Qed.
Lemma d_fnch h x : fnch (D h) x = fnch h x. Proof. fld. Qed.
Lemma d_size h : size (D h) = size h.
Proof. unfold data_heap. by rewrite map_size_fmap. Qed.
Lemma d_walk h : walk_fuel (D h) = walk_fuel h. Proof. unfold walk_fuel. by rewrite d_size. Qed.
Lemma d_dfs_fuel h : dfs_fuel (D h) = dfs_fuel h. Proof. unfold dfs_fuel. by rewrite ?d_size, ?d_walk. Qed.

Lemma d_alter h x (g : node T -> node T) (g' : node U -> node U) :
  (forall nd, g' (data_node f nd) = data_node f (g nd)) -> alter g' x (D h) = D (alter g x h).
Proof. intros H. apply map_eq. intros y. rewrite dl. destruct (decide (x = y)) as [-> | N].
  - rewrite !lookup_alter, dl. destruct (h !! y); cbn; [by rewrite H|done].
  - by rewrite !lookup_alter_ne, dl by done. Qed.
Ltac alt := intros; apply d_alter; reflexivity.
Lemma d_set_parent h x w : set_parent (D h) x w = D (set_parent h x w). Proof. alt. Qed.
Lemma d_set_prev h x w : set_prev (D h) x w = D (set_prev h x w). Proof. alt. Qed.
Lemma d_set_next h x w : set_next (D h) x w = D (set_next h x w). Proof. alt. Qed.
Lemma d_set_first h x w : set_first (D h) x w = D (set_first h x w). Proof. alt. Qed.
Lemma d_set_nch h x w : set_nch (D h) x w = D (set_nch h x w). Proof. alt. Qed.
Lemma d_set_mem h x w : set_mem (D h) x w = D (set_mem h x w). Proof. alt. Qed.
Lemma d_set_lend h x w : set_lend (D h) x w = D (set_lend h x w). Proof. alt. Qed.
Lemma d_set_data h x d : set_data (D h) x (f d) = D (set_data h x d). Proof. alt. Qed.
Lemma d_alloc h n d m : alloc (D h) n (f d) m = D (alloc h n d m).
Proof. unfold alloc, data_heap. by rewrite fmap_insert. Qed.
Lemma d_delete h x : delete x (D h) = D (delete x h).
Proof. unfold data_heap. by rewrite fmap_delete. Qed.

Hint Rewrite d_alive d_fparent d_ffirst d_fnext d_fprev d_fnch d_size d_walk d_dfs_fuel d_set_parent
  d_set_prev d_set_next d_set_first d_set_nch d_set_mem d_set_lend d_set_data d_alloc d_delete : dat.

Ltac go1 := first
  [ reflexivity
  | match goal with q : prod _ _ |- _ => destruct q end
  | progress cbn [mbind run_bind option_bind replaced fst snd fstm sfst sfst3 option_map]
  | progress autorewrite with dat
  | progress unfold mbind, run_bind, option_bind, replaced, fstm, sfst, sfst3
  | match goal with
    | |- context [match ?e with _ => _ end] =>
        lazymatch e with context [match _ with _ => _ end] => fail | _ => destruct e end
    end ].
Ltac go := repeat go1.

Lemma rbind {A B C E} (g : A -> B) (g' : C -> E) (m : run A) (k : B -> run E) (k' : A -> run C) :
  (forall a, k (g a) = R g' (k' a)) -> mbind k (R g m) = R g' (mbind k' m).
Proof. intros H. destruct m; cbn; [apply H|reflexivity..]. Qed.
Lemma rbind_id {A C E} (g' : C -> E) (m : run A) (k : A -> run E) (k' : A -> run C) :
  (forall a, k a = R g' (k' a)) -> mbind k m = R g' (mbind k' m).
Proof. intros H. destruct m; cbn; [apply H|reflexivity..]. Qed.

(** ** Reading *)
Lemma d_upgrade h w : upgrade (D h) w = upgrade h w. Proof. unfold upgrade. go. Qed.
Hint Rewrite d_upgrade : dat.
Lemma d_parent h x : parent_link (D h) x = parent_link h x. Proof. unfold parent_link. go. Qed.
Lemma d_is_root h x : is_root (D h) x = is_root h x. Proof. unfold is_root. go. Qed.
Lemma d_cyc h x : prev_sibling_cyclic_link (D h) x = prev_sibling_cyclic_link h x. Proof. unfold prev_sibling_cyclic_link. go. Qed.
Hint Rewrite d_parent d_is_root d_cyc : dat.
Lemma d_nextl h x : next_sibling_link (D h) x = next_sibling_link h x. Proof. unfold next_sibling_link. go. Qed.
Lemma d_firstl h x : first_child_link (D h) x = first_child_link h x. Proof. unfold first_child_link. go. Qed.
Hint Rewrite d_nextl d_firstl : dat.
Lemma d_prevl h x : prev_sibling_link (D h) x = prev_sibling_link h x. Proof. unfold prev_sibling_link. go. Qed.
Lemma d_lastl h x : last_child_link (D h) x = last_child_link h x. Proof. unfold last_child_link. go. Qed.
Lemma d_lastw h x : last_child_link_weak (D h) x = last_child_link_weak h x. Proof. unfold last_child_link_weak. go. Qed.
Lemma d_fll h x : first_last_child_link (D h) x = first_last_child_link h x. Proof. unfold first_last_child_link. go. Qed.
Lemma d_isfirst h x : is_first_sibling (D h) x = is_first_sibling h x. Proof. unfold is_first_sibling, is_last_sibling. go. Qed.
Hint Rewrite d_prevl d_lastl d_lastw d_fll d_isfirst : dat.
Lemma d_firsts h x : first_sibling (D h) x = first_sibling h x. Proof. unfold first_sibling. go. Qed.
Lemma d_lasts h x : last_sibling (D h) x = last_sibling h x. Proof. unfold last_sibling. go. Qed.
Lemma d_dft h e : dft_next (D h) e = dft_next h e. Proof. unfold dft_next. go. Qed.
Hint Rewrite d_firsts d_lasts d_dft : dat.
Lemma d_ldfs h st : link_dfs_next (D h) st = link_dfs_next h st. Proof. unfold link_dfs_next. go. Qed.
Hint Rewrite d_ldfs : dat.

(** ** Editing *)
Lemma d_connect h a b : connect_adjacent_siblings (D h) a b = D (connect_adjacent_siblings h a b).
Proof. unfold connect_adjacent_siblings. go. Qed.
Lemma d_add h x v : num_children_add (D h) x v = D (num_children_add h x v). Proof. unfold num_children_add. go. Qed.
Lemma d_sub h x v : num_children_sub (D h) x v = R D (num_children_sub h x v). Proof. unfold num_children_sub. go. Qed.
Hint Rewrite d_connect d_add d_sub : dat.
Lemma d_unlink h n : new_by_unlink (D h) n = R fstm (new_by_unlink h n).
Proof. unfold new_by_unlink. go. Qed.
Hint Rewrite d_unlink : dat.
Lemma d_anc k : forall h n o, is_ancestor_of k (D h) n o = is_ancestor_of k h n o.
Proof. induction k as [|k IH]; intros h n [a|]; cbn [is_ancestor_of]; rewrite ?d_parent, ?IH; reflexivity. Qed.
Lemma d_loop h n b p : loop_check (D h) n b p = loop_check h n b p.
Proof. unfold loop_check. by rewrite d_walk, d_anc. Qed.
Hint Rewrite d_anc d_loop : dat.
Lemma d_ifirst h n b p : insert_as_first_child_of (D h) n b p = R fstm (insert_as_first_child_of h n b p).
Proof. unfold insert_as_first_child_of. go. Qed.
Lemma d_ilast h n b p : insert_as_last_child_of (D h) n b p = R fstm (insert_as_last_child_of h n b p).
Proof. unfold insert_as_last_child_of. go. Qed.
Lemma d_between h n p a b : insert_between (D h) n p a b = R D (insert_between h n p a b).
Proof. unfold insert_between. go. Qed.
Hint Rewrite d_ifirst d_ilast d_between : dat.
Lemma d_orphan h n b d : insert_orphan (D h) n b d = R fstm (insert_orphan h n b d).
Proof. unfold insert_orphan. go. Qed.
Hint Rewrite d_orphan : dat.
Lemma d_move1 h n d : move_inside_same_tree (D h) n d = R fstm (move_inside_same_tree h n d).
Proof. unfold move_inside_same_tree. go. Qed.
Hint Rewrite d_move1 : dat.
Lemma d_ipar h a n : interrupt_parent (D h) a n = R fstm (interrupt_parent h a n).
Proof. unfold interrupt_parent. go. Qed.
Lemma d_chain k : forall h c p, reparent_chain k (D h) c p = R D (reparent_chain k h c p).
Proof. induction k as [|k IH]; intros h [c|] p; cbn [reparent_chain]; cbv zeta; rewrite ?d_set_parent, ?d_nextl, ?IH; reflexivity. Qed.
Hint Rewrite d_ipar d_chain : dat.
Lemma d_ichild h a n : interrupt_child (D h) a n = R D (interrupt_child h a n).
Proof. unfold interrupt_child. cbv zeta. autorewrite with dat. apply rbind. intros. go. Qed.
Lemma d_rwc1 h a p : replace_with_children_nonroot (D h) a p = R D (replace_with_children_nonroot h a p).
Proof. unfold replace_with_children_nonroot. cbv zeta. autorewrite with dat. apply rbind. intros. go. Qed.
Lemma d_disc h a : disconnect (D h) a = D (disconnect h a).
Proof. unfold disconnect. go. Qed.
Hint Rewrite d_ichild d_rwc1 d_disc : dat.
Lemma d_rwc h a : replace_with_children (D h) a = R fstm (replace_with_children h a).
Proof. unfold replace_with_children. go. Qed.
Hint Rewrite d_rwc : dat.

Ltac gob := repeat first [
    progress autorewrite with dat
  | progress cbv zeta
  | apply rbind; intros | apply rbind_id; intros
  | reflexivity
  | match goal with q : prod _ _ |- _ => destruct q end
  | progress cbn [option_map fstm sfst sfst3 fst snd]
  | match goal with |- match ?e with _ => _ end = _ =>
      lazymatch e with context [match _ with _ => _ end] => fail | option_map _ ?e' => destruct e' | _ => destruct e end end
  | match goal with |- mbind _ (match ?e with _ => _ end) = _ => destruct e end
  | progress cbn [mbind run_bind] ].
(** ** The system *)
Lemma d_nodes s : s_nodes (DS s) = D (s_nodes s). Proof. reflexivity. Qed.
Lemma d_trees s : s_trees (DS s) = s_trees s. Proof. reflexivity. Qed.
Lemma d_hands s : s_hands (DS s) = s_hands s. Proof. reflexivity. Qed.
Lemma d_fresh s : s_fresh (DS s) = s_fresh s. Proof. reflexivity. Qed.
Lemma d_wnodes s h : with_nodes (DS s) (D h) = DS (with_nodes s h). Proof. reflexivity. Qed.
Lemma d_wtrees s m : with_trees (DS s) m = DS (with_trees s m). Proof. reflexivity. Qed.
Lemma d_whands s m : with_hands (DS s) m = DS (with_hands s m). Proof. reflexivity. Qed.
Lemma d_wfresh s m : with_fresh (DS s) m = DS (with_fresh s m). Proof. reflexivity. Qed.
Lemma d_addh s hd : add_hand (DS s) hd = DS (add_hand s hd). Proof. reflexivity. Qed.
Lemma d_delh s i : del_hand (DS s) i = DS (del_hand s i). Proof. reflexivity. Qed.
Lemma d_putcnt s t z : put_cnt (DS s) t z = DS (put_cnt s t z). Proof. reflexivity. Qed.
Lemma d_putroot s t z : put_root (DS s) t z = DS (put_root s t z). Proof. reflexivity. Qed.
Lemma d_talive s t : tree_alive (DS s) t = tree_alive s t. Proof. reflexivity. Qed.
Lemma d_putmem s x m : put_mem (DS s) x m = DS (put_mem s x m).
Proof. unfold put_mem. by rewrite d_nodes, d_set_mem, d_wnodes. Qed.
Lemma d_memb s x : n_memb (DS s) x = n_memb s x.
Proof. unfold n_memb. rewrite d_nodes, dl. destruct (s_nodes s !! x); reflexivity. Qed.
Hint Rewrite d_nodes d_trees d_hands d_fresh d_wnodes d_wtrees d_whands d_wfresh d_addh d_delh d_putcnt d_putroot
  d_talive d_putmem d_memb : dat.

Lemma d_existsb h (P : nid * node T -> bool) (Q : nid * node U -> bool) :
  (forall k nd, Q (k, data_node f nd) = P (k, nd)) -> existsb Q (map_to_list (D h)) = existsb P (map_to_list h).
Proof. intros H. apply eq_true_iff_eq. rewrite !existsb_exists. split.
  - intros ((k & nd) & I%elem_of_list_In & E). apply elem_of_map_to_list in I. rewrite dl in I.
    destruct (h !! k) as [nd'|] eqn:L; [|discriminate I]. injection I as <-. exists (k, nd').
    split; [by apply elem_of_list_In, elem_of_map_to_list|by rewrite <- H].
  - intros ((k & nd) & I%elem_of_list_In & E). apply elem_of_map_to_list in I. exists (k, data_node f nd).
    split; [apply elem_of_list_In, elem_of_map_to_list; rewrite dl; by rewrite I|by rewrite H]. Qed.
Lemma d_ref s pins x : referenced (DS s) pins x = referenced s pins x.
Proof. unfold referenced. rewrite d_nodes, d_hands, d_trees. f_equal. f_equal. apply d_existsb. reflexivity. Qed.
Lemma d_tref s pins t : tree_referenced (DS s) pins t = tree_referenced s pins t.
Proof. unfold tree_referenced. rewrite d_nodes, d_hands. f_equal. apply d_existsb. reflexivity. Qed.
Hint Rewrite d_ref d_tref : dat.

Lemma d_release k : forall pins s x, release k pins (DS s) x = R DS (release k pins s x).
Proof. induction k as [|k IH]; intros pins s x; cbn [release]; rewrite d_ref, d_nodes, dl.
  - destruct (s_nodes s !! x) as [nd|]; cbn [option_map]; [|reflexivity]. destruct (referenced s pins x); reflexivity.
  - destruct (s_nodes s !! x) as [nd|]; cbn [option_map]; [|reflexivity]. destruct (referenced s pins x); [reflexivity|].
    cbn [data_node n_mem n_first n_next]. destruct (n_mem nd); [|reflexivity]. cbv zeta. rewrite d_delete, d_wnodes.
    destruct (n_first nd) as [c|].
    + rewrite IH. destruct (release k pins _ c) as [s2| |]; cbn [replaced mbind run_bind]; [|reflexivity..].
      destruct (n_next nd); [apply IH|reflexivity].
    + cbn [replaced mbind run_bind]. destruct (n_next nd); [apply IH|reflexivity]. Qed.
Lemma d_rela s pins x : release_all (DS s) pins x = R DS (release_all s pins x).
Proof. unfold release_all. by rewrite d_nodes, d_walk, d_release. Qed.
Hint Rewrite d_rela : dat.
Lemma d_teardown k : forall pins s e, teardown k pins (DS s) e = R DS (teardown k pins s e).
Proof. induction k as [|k IH]; intros pins s [[v|v]|]; cbn [teardown]; cbv zeta; try reflexivity.
  - rewrite d_nodes, d_dft. apply IH.
  - rewrite d_nodes, d_dft, d_parent. destruct (parent_link (s_nodes s) v) as [p|].
    + rewrite d_fnext, d_set_next, d_ffirst, d_set_first, d_wnodes. destruct (ffirst _ p) as [o|].
      * rewrite d_rela. destruct (release_all _ _ o) as [s1| |]; cbn [replaced mbind run_bind]; [|reflexivity..].
        rewrite d_rela. destruct (release_all s1 _ v) as [s2| |]; cbn [replaced mbind run_bind]; [apply IH|reflexivity..].
      * cbn [replaced mbind run_bind]. rewrite d_rela.
        destruct (release_all _ _ v) as [s2| |]; cbn [replaced mbind run_bind]; [apply IH|reflexivity..].
    + cbn [replaced mbind run_bind]. rewrite d_rela.
      destruct (release_all _ _ v) as [s2| |]; cbn [replaced mbind run_bind]; [apply IH|reflexivity..]. Qed.
Hint Rewrite d_teardown : dat.
Lemma d_dropt pins tp s t : drop_tree_if_dead pins tp (DS s) t = R DS (drop_tree_if_dead pins tp s t).
Proof. unfold drop_tree_if_dead. go. Qed.
Hint Rewrite d_dropt : dat.
Lemma d_tcore s x : tree_core (DS s) x = tree_core s x. Proof. unfold tree_core. go. Qed.
Lemma d_ltcore s x : link_tree_core (DS s) x = link_tree_core s x. Proof. unfold link_tree_core. go. Qed.
Lemma d_incr s x : incr_ref (DS s) x = option_map DS (incr_ref s x). Proof. unfold incr_ref. go. Qed.
Lemma d_incrn s x : incr_nonzero_ref (DS s) x = R DS (incr_nonzero_ref s x). Proof. unfold incr_nonzero_ref. go. Qed.
Lemma d_decr s x : decr_ref (DS s) x = R DS (decr_ref s x). Proof. unfold decr_ref. go. Qed.
Lemma d_lock s k t : lock_tree (DS s) k t = option_map DS (lock_tree s k t). Proof. unfold lock_tree. go. Qed.
Lemma d_unlock s k t : unlock_tree (DS s) k t = R DS (unlock_tree s k t). Proof. unfold unlock_tree. go. Qed.
Lemma d_relany s t : release_any (DS s) t = R DS (release_any s t). Proof. unfold release_any. go. Qed.
Hint Rewrite d_tcore d_ltcore d_incr d_incrn d_decr d_lock d_unlock d_relany : dat.
Lemma d_transfer s t t' : transfer_lock (DS s) t t' = option_map DS (transfer_lock s t t'). 
Proof. unfold transfer_lock. rewrite d_trees. destruct (s_trees s !! t) as [tr|]; [|reflexivity]. destruct (t_cnt tr); [reflexivity|..];
  rewrite d_lock; (destruct (lock_tree s _ t') as [s1|]; [|reflexivity]); unfold mbind, option_bind; cbn [option_map];
  rewrite d_trees; destruct (s_trees s1 !! t); reflexivity. Qed.
Lemma d_acq s k x : acquire (DS s) k x = R (option_map DS) (acquire s k x). 
Proof. unfold acquire. rewrite d_memb. destruct k; [reflexivity|..]; (destruct (n_memb s x) as [[|u rc lk]|]; try reflexivity);
  rewrite d_trees; (destruct (s_trees s !! u) as [tr|]; [|reflexivity]); cbv zeta.
  - destruct (0 <=? t_cnt tr)%Z; [|reflexivity]. destruct lk; rewrite ?d_lock, ?d_putmem; [|reflexivity].
    destruct (lock_tree s _ u); [|reflexivity]. cbn [option_map]. by rewrite d_putmem.
  - destruct (t_cnt tr <=? 0)%Z; [|reflexivity]. destruct lk; rewrite ?d_lock, ?d_putmem; [|reflexivity].
    destruct (lock_tree s _ u); [|reflexivity]. cbn [option_map]. by rewrite d_putmem. Qed.
Hint Rewrite d_transfer d_acq : dat.
Lemma d_acqe s k x : acquire_expect (DS s) k x = R DS (acquire_expect s k x). Proof. unfold acquire_expect. gob. Qed.
Lemma d_incl s x : incr_nonzero_lock (DS s) x = R DS (incr_nonzero_lock s x). Proof. unfold incr_nonzero_lock. gob. Qed.
Lemma d_decl s x : decr_lock (DS s) x = R DS (decr_lock s x). Proof. unfold decr_lock. gob. Qed.
Hint Rewrite d_acqe d_incl d_decl : dat.
Lemma d_newhand s k x : new_node_hand (DS s) k x = R sfst (new_node_hand s k x). Proof. unfold new_node_hand. gob. Qed.
Lemma d_dlink s i x : drop_link (DS s) i x = R DS (drop_link s i x). Proof. unfold drop_link. gob. Qed.
Hint Rewrite d_newhand d_dlink : dat.
Lemma d_dnode s i k x : drop_node (DS s) i k x = R DS (drop_node s i k x). Proof. unfold drop_node. gob. Qed.
Lemma d_cnode s k x : clone_node (DS s) k x = R sfst (clone_node s k x). Proof. unfold clone_node. gob. Qed.
Lemma d_newt s d : new_tree (DS s) (f d) = sfst (new_tree s d).
Proof. unfold new_tree. cbv zeta. rewrite d_nodes, d_alloc. reflexivity. Qed.
Hint Rewrite d_dnode d_cnode d_newt : dat.
Lemma d_newo s d t : new_orphan (DS s) (f d) t = R sfst3 (new_orphan s d t).
Proof. unfold new_orphan. cbv zeta. gob. Qed.
Lemma d_upn s i n k : upgrade_new (DS s) i n k = R DS (upgrade_new s i n k). Proof. unfold upgrade_new. gob. Qed.
Hint Rewrite d_newo d_upn : dat.
Lemma d_create s k x d ad : create_node_as (DS s) k x (f d) ad = R sfst (create_node_as s k x d ad).
Proof. unfold create_node_as. gob. Qed.
Lemma d_cip s k x d : create_interrupting_parent (DS s) k x (f d) = R sfst (create_interrupting_parent s k x d).
Proof. unfold create_interrupting_parent. gob. destruct b; gob. Qed.
Lemma d_cic s k x d : create_interrupting_child (DS s) k x (f d) = R sfst (create_interrupting_child s k x d).
Proof. unfold create_interrupting_child. gob. Qed.
Hint Rewrite d_create d_cip d_cic : dat.
Lemma d_stc s pins tp x t : set_tree_core (DS s) pins tp x t = R (option_map DS) (set_tree_core s pins tp x t).
Proof. unfold set_tree_core. gob. destruct (lk =? 0); [gob|]. destruct (transfer_lock s t0 t); gob. Qed.
Hint Rewrite d_stc : dat.
Lemma d_setm k : forall s tp st t, set_memberships k (DS s) tp st t = R (option_map DS) (set_memberships k s tp st t).
Proof. induction k as [|k IH]; intros s tp st t; cbn [set_memberships].
  - go.
  - rewrite d_nodes, d_ldfs. destruct (link_dfs_next (s_nodes s) st) as [[[e|] st']| |]; cbn [mbind run_bind]; try reflexivity.
    cbv zeta.
    destruct e as [y|y].
    + rewrite d_stc. destruct (set_tree_core s _ tp y t) as [[s1|]| |]; cbn [mbind run_bind replaced option_map]; try reflexivity.
      rewrite d_rela. destruct (release_all s1 _ _); cbn [mbind run_bind replaced]; [apply IH|reflexivity..].
    + cbn [mbind run_bind replaced option_map]. rewrite d_rela.
      destruct (release_all s _ _); cbn [mbind run_bind replaced]; [apply IH|reflexivity..]. Qed.
Hint Rewrite d_setm : dat.
Lemma d_sst s tp x t : set_subtree_tree (DS s) tp x t = R (option_map DS) (set_subtree_tree s tp x t).
Proof. unfold set_subtree_tree. gob. Qed.
Hint Rewrite d_sst : dat.
Lemma d_cnt s tp x : create_new_tree (DS s) tp x = R DS (create_new_tree s tp x).
Proof. unfold create_new_tree. gob. Qed.
Hint Rewrite d_cnt : dat.
Lemma d_detach s x : detach_subtree (DS s) x = R DS (detach_subtree s x).
Proof. unfold detach_subtree. gob. Qed.
Lemma d_replace s x : replace_node (DS s) x = R sfst (replace_node s x).
Proof. unfold replace_node. gob. destruct a0; gob. Qed.
Lemma d_moveto s x d t : move_to_another_tree (DS s) x d t = R sfst (move_to_another_tree s x d t).
Proof. unfold move_to_another_tree. gob. Qed.
Hint Rewrite d_detach d_replace d_moveto : dat.
Lemma d_move s x ad y : move_subtree (DS s) x ad y = R sfst (move_subtree s x ad y).
Proof. unfold move_subtree. gob. Qed.
Lemma d_nav s v x : nav_target (DS s) v x = nav_target s v x.
Proof. unfold nav_target. gob. Qed.
Hint Rewrite d_move d_nav : dat.

Definition both (r : sys T * out T) : sys U * out U := (DS r.1, data_out f r.2).
Lemma d_ill s : ill (DS s) = R both (ill s). Proof. reflexivity. Qed.
Lemma d_ctok s k t hd : clone_token (DS s) k t hd = R both (clone_token s k t hd).
Proof. unfold clone_token. rewrite d_talive, d_lock. destruct (tree_alive s t); [|reflexivity]. destruct (lock_tree s k t); reflexivity. Qed.
Lemma d_dtok s k t i : drop_token (DS s) k t i = R DS (drop_token s k t i).
Proof. unfold drop_token. rewrite d_talive, d_unlock. destruct (tree_alive s t); [|reflexivity]. apply rbind. intros. reflexivity. Qed.
Lemma d_ntok s k t : new_token (DS s) k t = R both (new_token s k t).
Proof. unfold new_token. destruct k; [reflexivity|..]; rewrite d_lock; destruct (lock_tree s _ t); reflexivity. Qed.
Lemma d_rhand r : ret_hand (sfst r) = R both (ret_hand r). Proof. reflexivity. Qed.
Lemma d_rhand' s i : ret_hand (DS s, i) = R both (ret_hand (s, i)). Proof. reflexivity. Qed.
Lemma d_outof r : out_of (sfst r) = R both (out_of r). Proof. destruct r as [s [a|e]]; reflexivity. Qed.
Lemma d_outofh r : out_of_hand (sfst r) = R both (out_of_hand r). Proof. destruct r as [s [a|e]]; reflexivity. Qed.
Lemma d_auth s a g g' : (forall k x, g' k x = R both (g k x)) -> with_auth (DS s) a g' = R both (with_auth s a g).
Proof. intros H. unfold with_auth. rewrite d_hands. destruct a as [i|i j].
  - destruct (s_hands s !! i) as [[[]| | | | |]|]; try reflexivity. apply H.
  - destruct (s_hands s !! i) as [[[]| | | | |]|]; try reflexivity.
    destruct (s_hands s !! j) as [[[]| | | | |]|]; try reflexivity. rewrite d_tcore.
    destruct (tree_core s x) as [u| |]; cbn [mbind run_bind]; try reflexivity. destruct (decide (u = t)); [apply H|reflexivity]. Qed.
Hint Rewrite d_ill d_ctok d_dtok d_ntok d_rhand d_outof d_outofh : dat.

Lemma d_bind {A B} (g : A -> B) (m : run A) (k : B -> run (sys U * out U)) (k' : A -> run (sys T * out T)) :
  (forall a, k (g a) = R both (k' a)) -> mbind k (R g m) = R both (mbind k' m).
Proof. intros H. destruct m; cbn; [apply H|reflexivity..]. Qed.
Lemma d_bind_id {A} (m : run A) (k : A -> run (sys U * out U)) (k' : A -> run (sys T * out T)) :
  (forall a, k a = R both (k' a)) -> mbind k m = R both (mbind k' m).
Proof. intros H. destruct m; cbn; [apply H|reflexivity..]. Qed.

Theorem d_step s (o : op T) : step (DS s) (data_op f o) = R both (step s o).
Proof.
  destruct o; cbn [step data_op]; rewrite ?d_hands.
  - rewrite d_newt. apply d_rhand.
  - destruct (s_hands s !! i) as [[]|]; try reflexivity; try apply d_ctok. rewrite d_cnode. apply d_bind. apply d_rhand.
  - destruct (s_hands s !! i) as [[]|]; try reflexivity; rewrite ?d_dnode, ?d_delh, ?d_dropt, ?d_dtok; apply d_bind; reflexivity.
  - destruct (s_hands s !! i) as [[]|]; try reflexivity. rewrite d_nav. apply d_bind_id. intros [y|]; [|reflexivity].
    rewrite d_newhand. apply d_bind. apply d_rhand.
  - destruct (s_hands s !! i) as [[]|]; try reflexivity. rewrite d_tcore. apply d_bind_id. reflexivity.
  - destruct (s_hands s !! i) as [[]|]; try reflexivity. rewrite d_trees. destruct (s_trees s !! t); [|reflexivity].
    rewrite d_newhand. apply d_bind. apply d_rhand.
  - destruct (s_hands s !! i) as [[]|]; try reflexivity. apply d_ntok.
  - destruct (s_hands s !! i) as [[[]| | | | |]|]; try reflexivity. destruct (is_lock_kind k); [|reflexivity]. rewrite d_acq. apply d_bind.
    intros [s1|]; [reflexivity|]. rewrite d_dnode. apply d_bind. reflexivity.
  - destruct (s_hands s !! i) as [[[]| | | | |]|]; try reflexivity. destruct (s_hands s !! j) as [[]|]; try reflexivity;
      rewrite d_tcore; apply d_bind_id; intros u; destruct (decide (u = t)); try reflexivity; rewrite d_acqe; apply d_bind; reflexivity.
  - destruct (s_hands s !! i) as [[]|]; try reflexivity. destruct (is_lock_kind k); [|reflexivity]. rewrite d_cnode. apply d_bind. apply d_rhand.
  - destruct (s_hands s !! i) as [[]|]; try reflexivity. destruct (is_lock_kind k); [|reflexivity]. rewrite d_tcore. apply d_bind_id. intros u.
    rewrite d_ntok. apply d_bind. intros [s1 []]; reflexivity.
  - destruct (s_hands s !! i) as [[[]| | | | |]|]; reflexivity.
  - destruct (s_hands s !! i) as [[]|]; try reflexivity.
    + rewrite d_nodes, d_alive. destruct (alive (s_nodes s) x); [|reflexivity]. rewrite d_newhand. apply d_bind. apply d_rhand.
    + rewrite d_talive. destruct (tree_alive s t); reflexivity.
  - apply d_auth. intros. rewrite d_create. apply d_bind. apply d_outofh.
  - apply d_auth. intros. rewrite d_cip. apply d_bind. apply d_rhand.
  - apply d_auth. intros. rewrite d_cic. apply d_bind. apply d_rhand.
  - apply d_auth. intros. rewrite d_replace. apply d_bind. apply d_outof.
  - apply d_auth. intros. rewrite d_detach. apply d_bind. reflexivity.
  - destruct (s_hands s !! j) as [[[]| | | | |]|]; try reflexivity. apply d_auth. intros. rewrite d_move. apply d_bind. apply d_outof.
  - destruct (s_hands s !! i) as [[]|]; try reflexivity. rewrite d_nodes, dl. destruct (s_nodes s !! x) as [nd|]; [|reflexivity].
    cbn. unfold n_mut. cbn. destruct (n_lend nd); reflexivity.
  - destruct (s_hands s !! i) as [[]|]; try reflexivity. rewrite d_nodes, dl. destruct (s_nodes s !! x) as [nd|]; [|reflexivity].
    cbn [option_map]. unfold n_free. cbn [n_lend data_node]. destruct (n_lend nd) as [[|?]|]; cbn [negb]; try reflexivity.
    rewrite d_set_data. reflexivity.
  - destruct (s_hands s !! i) as [[]|]; try reflexivity. rewrite d_nodes, dl. destruct (s_nodes s !! x) as [nd|]; [|reflexivity].
    cbn [option_map data_node n_lend]. destruct (lend b (n_lend nd)); [|reflexivity]. rewrite d_set_lend. reflexivity.
Qed.

Theorem d_steps (os : list (op T)) : forall s,
  steps (DS s) (map (data_op f) os) = R (fun r => (DS r.1, map (data_out f) r.2)) (steps s os).
Proof. induction os as [|o os IH]; intros s; [reflexivity|]. cbn [steps map]. rewrite d_step.
  destruct (step s o) as [[s1 r]| |]; cbn [replaced mbind run_bind both fst snd]; [|reflexivity..]. rewrite IH.
  destruct (steps s1 os) as [[s2 rs]| |]; reflexivity. Qed.
Lemma d_init : DS init = init. Proof. unfold data_sys, init, data_heap. cbn. by rewrite fmap_empty. Qed.
End Data.
