(** * LocalFacts2: locality of the calls. *)
From Verif Require Import Heap Edit Traverse System LocalSpec LocalFacts.
From Coq Require Import Lia.

Ltac evs := unfold n_memb, add_hand, del_hand, put_mem, put_cnt, put_root, ret_hand, out_of, out_of_hand, ill, with_hands, with_trees, with_nodes, with_fresh; cbv beta zeta; cbn [mbind run_bind option_bind opt_is fst snd s_nodes s_trees s_hands s_fresh with_nodes with_trees with_hands with_fresh
  add_hand del_hand put_mem put_cnt put_root n_memb ret_hand out_of out_of_hand ill].
Ltac stp := first [ret | step1; evs].
Ltac stps := repeat stp.

Section S.
Context {T : Type} (tr : gmap tid tree) (ha : gmap nat handle) (fr : nat).
Implicit Types (h : heap T) (x n : nid).
Notation S h := (mkSys h tr ha fr).
Ltac go := evs; stps.
Lemma r_memb x : rdl 1 (fun h : heap T => n_memb (S h) x).
Proof. apply (rdl_map (fun o : option (node T) => n_mem <$> o)), rdl_lookup. Qed.
Lemma r_tcore x : rdl 1 (fun h : heap T => tree_core (S h) x).
Proof. intros h. exists [x]. split; [done|]. intros g Ag. unfold tree_core, n_memb, tree_alive. cbn [s_nodes s_trees]. by rewrite (Ag x); [|by left]. Qed.
Lemma r_ltcore x : rdl 1 (fun h : heap T => link_tree_core (S h) x).
Proof. apply (rdl_map (fun o : option membership => match o with Some (MStrong t _ _) => Ret t | _ => Panic end)), r_memb. Qed.
Lemma l_incrn x : loc mks 2 (fun h : heap T => incr_nonzero_ref (S h) x).
Proof. unfold incr_nonzero_ref. go. Qed.
Lemma l_incl x : loc mks 2 (fun h : heap T => incr_nonzero_lock (S h) x).
Proof. unfold incr_nonzero_lock. go. Qed.
Lemma l_acqe k x : loc mks 2 (fun h : heap T => acquire_expect (S h) k x).
Proof. unfold acquire_expect, acquire, lock_tree. go. Qed.
Lemma l_newhand k x : loc mks2 4 (fun h : heap T => new_node_hand (S h) k x).
Proof. unfold new_node_hand, incr_ref, tree_alive, acquire_expect, acquire, lock_tree. go. Qed.
Lemma l_cnode k x : loc mks2 4 (fun h : heap T => clone_node (S h) k x).
Proof. unfold clone_node, incr_nonzero_lock, incr_nonzero_ref. go. Qed.
Lemma l_upn i n k : loc mks 2 (fun h : heap T => upgrade_new (S h) i n k).
Proof. unfold upgrade_new, acquire_expect, acquire, lock_tree. go. Qed.
Lemma l_nav v x : rdl 5 (fun h : heap T => nav_target (S h) v x).
Proof. unfold nav_target. cbv zeta. cbn [s_nodes s_trees]. destruct v.
  - apply (rdl_map (fun o : run tid => t ← o; match tr !! t with Some tr => Ret (Some (t_root tr)) | None => Panic end)). eapply rdl_mono; [apply r_tcore|lia].
  - apply (rdl_map (fun o : option nid => Ret o)). eapply rdl_mono; [apply r_parent|lia].
  - eapply rdl_mono; [apply r_prev|lia].
  - apply (rdl_map (fun o : option nid => Ret o)). eapply rdl_mono; [apply r_next|lia].
  - apply (rdl_map (fun o : run nid => y ← o; Ret (Some y))). eapply rdl_mono; [apply r_firsts|lia].
  - apply (rdl_map (fun o : run nid => y ← o; Ret (Some y))). eapply rdl_mono; [apply r_lasts|lia].
  - apply (rdl_map (fun o : option nid => Ret o)). eapply rdl_mono; [apply r_first|lia].
  - eapply rdl_mono; [apply r_last|lia]. Qed.
End S.


Section Ops.
Context {T : Type}.
Implicit Types (s : sys T) (h : heap T) (x n : nid).

(** The calls without the parts that a [brief] call does not reach. *)
Definition create' s (k : kind) x (d : T) (ad : adopt_as) : run (sys T * hres nat) :=
  t ← tree_core s x;
  '(s1, n, i) ← new_orphan s d t;
  '(h', r) ← insert_orphan (s_nodes s1) n true (dest_of ad x);
  let s2 := with_nodes s1 h' in
  match (r : hres unit) with
  | HErr e => Ret (s2, HErr e)
  | HOk _ => s3 ← upgrade_new s2 i n k; Ret (s3, HOk i)
  end.
Definition move' s x (ad : adopt_as) y : run (sys T * hres unit) :=
  t ← link_tree_core s x;
  t' ← link_tree_core s y;
  if decide (t = t') then
    '(h', r) ← move_inside_same_tree (s_nodes s) x (dest_of ad y);
    Ret (with_nodes s h', r)
  else Panic.
Definition step' s (o : op T) : run (sys T * out T) :=
  match o with
  | OpCreate a d ad => with_auth s a (fun k x => r ← create' s k x d ad; out_of_hand r)
  | OpBundle k i =>
      match s_hands s !! i with
      | Some (HNode Plain x) =>
          if is_lock_kind k then
            r ← acquire s k x;
            match r with
            | Some s1 => Ret (add_hand (del_hand s1 i) (HNode k x), OutHandle (s_fresh s1))
            | None => Ret (s, OutLockErr)
            end
          else ill s
      | _ => ill s
      end
  | OpMove a ad j =>
      match s_hands s !! j with
      | Some (HNode Hot y) => with_auth s a (fun _ x => r ← move' s x ad y; out_of r)
      | _ => ill s
      end
  | OpDrop _ | OpReplace _ | OpDetach _ | OpInterruptChild _ _ => Panic
  | _ => step s o
  end.

Lemma l_create tr ha fr k x d ad : loc mks2 60 (fun h => create' (mkSys h tr ha fr) k x d ad).
Proof. unfold create', new_orphan, incr_ref, tree_alive. eapply (loc_rd' mks2 (fun h v => mbind _ v)); [apply r_tcore|cbn; lia|]. cbn [Nat.sub]. intros [t| |]; [|ret..].
  assert (forall n i tr ha fr, loc mks2 30 (fun h => '(h', r) ← insert_orphan h n true (dest_of ad x);
     let s2 := mkSys h' tr ha fr in
     match (r : hres unit) with HErr e => Ret (s2, HErr e) | HOk _ => s3 ← upgrade_new s2 i n k; Ret (s3, HOk i) end)) as B.
  { intros n i tr1 ha1 fr1. eapply (bind2 mks2 (fun h => insert_orphan h n true (dest_of ad x))); [apply l_orphan|cbn; lia|]. intros [u|e]; evs; [|ret].
    eapply (binds mks2 (fun h => upgrade_new (mkSys h tr1 ha1 fr1) i n k)); [apply l_upn|cbn; lia|]. intros tr2 ha2 fr2. ret. }
  evs. unfold alloc. stps.
  all: match goal with |- loc ?mk _ (fun h => mbind ?K (insert_orphan (@?W h) ?n ?b ?d)) =>
    eapply (loc_pre mk W (fun h => mbind K (insert_orphan h n b d))); [cbv beta; pwt|cbn; lia|cbn [Nat.sub]] end.
  all: (eapply loc_mono; [apply B|cbn; lia]).
Qed.
Lemma l_cip tr ha fr k x d : loc mks2 90 (fun h => create_interrupting_parent (mkSys h tr ha fr) k x d).
Proof. unfold create_interrupting_parent, new_orphan, incr_ref, tree_alive. eapply (loc_rd' mks2 (fun h v => mbind _ v)); [apply r_tcore|cbn; lia|]. cbn [Nat.sub]. intros [t| |]; [|ret..].
  assert (forall n i tr ha fr, loc mks2 84 (fun h => '(h', b) ← interrupt_parent h x n;
     let s3 := if (b : bool) then put_root (mkSys h' tr ha fr) t n else mkSys h' tr ha fr in
     s4 ← upgrade_new s3 i n k; Ret (s4, i))) as B.
  { intros n i tr1 ha1 fr1. eapply (bind2 mks2 (fun h => interrupt_parent h x n)); [apply l_ipar|cbn; lia|]. intros []; evs.
    - eapply (binds mks2 (fun h => upgrade_new (mkSys h _ ha1 fr1) i n k)); [apply l_upn|cbn; lia|]. intros tr2 ha2 fr2. ret.
    - eapply (binds mks2 (fun h => upgrade_new (mkSys h tr1 ha1 fr1) i n k)); [apply l_upn|cbn; lia|]. intros tr2 ha2 fr2. ret. }
  evs. unfold alloc. stps.
  all: match goal with |- loc ?mk _ (fun h => mbind ?K (interrupt_parent (@?W h) ?n ?b)) =>
    eapply (loc_pre mk W (fun h => mbind K (interrupt_parent h n b))); [cbv beta; pwt|cbn; lia|cbn [Nat.sub]] end.
  all: (eapply loc_mono; [apply B|cbn; lia]).
Qed.
Lemma l_mv tr ha fr x ad y : loc mks2 60 (fun h => move' (mkSys h tr ha fr) x ad y).
Proof. unfold move'. eapply (loc_rd' mks2 (fun h v => mbind _ v)); [apply r_ltcore|cbn; lia|]. cbn [Nat.sub]. intros [t| |]; [|ret..]. evs.
  eapply (loc_rd' mks2 (fun h v => mbind _ v)); [apply r_ltcore|cbn; lia|]. cbn [Nat.sub]. intros [t'| |]; [|ret..]. evs.
  destruct (decide (t = t')); [|ret]. eapply (bind2 mks2 (fun h => move_inside_same_tree h x _)); [apply l_move|cbn; lia|]. intros r. ret. Qed.
Lemma l_auth tr ha fr a k (g : kind -> nid -> sys T -> run (sys T * out T)) :
  (forall kd x, loc mks2 k (fun h => g kd x (mkSys h tr ha fr))) -> loc mks2 (S k) (fun h => with_auth (mkSys h tr ha fr) a (fun kd x => g kd x (mkSys h tr ha fr))).
Proof. intros H. unfold with_auth. cbn [s_hands]. destruct a as [i|i j].
  - destruct (ha !! i) as [[[]| | | | |]|]; try (eapply loc_mono; [apply H|lia]); unfold ill; ret.
  - destruct (ha !! i) as [[[]| | | | |]|]; try (unfold ill; ret). destruct (ha !! j) as [[]|]; try (unfold ill; ret).
    eapply (loc_rd' mks2 (fun h v => mbind _ v)); [apply r_tcore|lia|]. intros [u| |]; [|ret..]. evs. destruct (decide (u = t)); [|ret].
    eapply loc_mono; [apply H|lia]. Qed.
Lemma ret_hand_l tr ha fr k (m : sys T -> run (sys T * nat)) : loc mks2 k (fun h => m (mkSys h tr ha fr)) ->
  loc mks2 k (fun h => r ← m (mkSys h tr ha fr); ret_hand r).
Proof. intros H. eapply (binds2 mks2 (fun h => m (mkSys h tr ha fr)) _ k); [exact H|lia|]. intros. unfold ret_hand. cbn [fst snd]. ret. Qed.
Lemma out_of_l tr ha fr k (m : sys T -> run (sys T * hres unit)) : loc mks2 k (fun h => m (mkSys h tr ha fr)) ->
  loc mks2 k (fun h => r ← m (mkSys h tr ha fr); out_of r).
Proof. intros H. eapply (binds2 mks2 (fun h => m (mkSys h tr ha fr)) _ k); [exact H|lia|]. intros. unfold out_of. cbn [fst snd]. ret. Qed.
Lemma out_of_hand_l tr ha fr k (m : sys T -> run (sys T * hres nat)) : loc mks2 k (fun h => m (mkSys h tr ha fr)) ->
  loc mks2 k (fun h => r ← m (mkSys h tr ha fr); out_of_hand r).
Proof. intros H. eapply (binds2 mks2 (fun h => m (mkSys h tr ha fr)) _ k); [exact H|lia|]. intros. unfold out_of_hand. cbn [fst snd]. ret. Qed.
Theorem l_step tr ha fr o : loc mks2 91 (fun h => step' (mkSys h tr ha fr) o).
Proof.
  destruct o; cbn [step' step s_hands].
  - unfold new_tree, alloc. evs. ret.
  - destruct (ha !! i) as [[]|]; try (evs; ret).
    + apply (ret_hand_l _ _ _ _ (fun s => clone_node s k x)). eapply loc_mono; [apply l_cnode|lia].
    + unfold clone_token, tree_alive, lock_tree. evs. stps.
    + unfold clone_token, tree_alive, lock_tree. evs. stps.
  - apply loc_panic.
  - destruct (ha !! i) as [[]|]; try (evs; ret).
    eapply (loc_rd' mks2 (fun h v => mbind _ v)); [apply l_nav|lia|]. intros [[y|]| |]; evs; [|ret..].
    apply (ret_hand_l _ _ _ _ (fun s => new_node_hand s k y)). eapply loc_mono; [apply l_newhand|lia].
  - destruct (ha !! i) as [[]|]; try (evs; ret).
    eapply (loc_rd' mks2 (fun h v => mbind _ v)); [apply r_tcore|lia|]. intros [t| |]; [|ret..]. evs. ret.
  - destruct (ha !! i) as [[]|]; try (evs; ret). cbn [s_trees]. destruct (tr !! t) as [q|]; [|ret].
    apply (ret_hand_l _ _ _ _ (fun s => new_node_hand s Plain (t_root q))). eapply loc_mono; [apply l_newhand|lia].
  - destruct (ha !! i) as [[]|]; try (evs; ret). unfold new_token, lock_tree. evs. stps.
  - destruct (ha !! i) as [[[]| | | | |]|]; try (evs; ret). destruct (is_lock_kind k); [|evs; ret]. unfold acquire, lock_tree. evs. stps.
  - destruct (ha !! i) as [[[]| | | | |]|]; try (evs; ret). destruct (ha !! j) as [[]|]; try (evs; ret);
      (eapply (loc_rd' mks2 (fun h v => mbind _ v)); [apply r_tcore|lia|]; intros [u| |]; [|ret..]; evs; destruct (decide (u = t)); [|ret];
       eapply (binds mks2 (fun h => acquire_expect (mkSys h tr ha fr) _ x)); [apply l_acqe|lia|]; intros; evs; ret).
  - destruct (ha !! i) as [[]|]; try (evs; ret). destruct (is_lock_kind k); [|evs; ret].
    apply (ret_hand_l _ _ _ _ (fun s => clone_node s Plain x)). eapply loc_mono; [apply l_cnode|lia].
  - destruct (ha !! i) as [[]|]; try (evs; ret). destruct (is_lock_kind k); [|evs; ret].
    eapply (loc_rd' mks2 (fun h v => mbind _ v)); [apply r_tcore|lia|]. intros [u| |]; [|ret..]. unfold new_token, lock_tree. evs. stps.
  - destruct (ha !! i) as [[[]| | | | |]|]; evs; ret.
  - destruct (ha !! i) as [[]|]; try (evs; ret).
    + evs. step1. step1; [|ret]. apply (ret_hand_l _ _ _ _ (fun s => new_node_hand s Plain x)). eapply loc_mono; [apply l_newhand|cbn; lia].
    + unfold tree_alive. evs. stps.
  - apply (l_auth tr ha fr a 90 (fun k x s => r ← create' s k x d ad; out_of_hand r)). intros. apply (out_of_hand_l _ _ _ _ (fun s => create' s kd x d ad)). eapply loc_mono; [apply l_create|lia].
  - apply (l_auth tr ha fr a 90 (fun k x s => r ← create_interrupting_parent s k x d; ret_hand r)). intros.
    apply (ret_hand_l _ _ _ _ (fun s => create_interrupting_parent s kd x d)). apply l_cip.
  - apply loc_panic.
  - apply loc_panic.
  - apply loc_panic.
  - destruct (ha !! j) as [[[]| | | | |]|]; try (evs; ret).
    apply (l_auth tr ha fr a 90 (fun k y s => r ← move' s y ad x; out_of r)). intros. apply (out_of_l _ _ _ _ (fun s => move' s x0 ad x)). eapply loc_mono; [apply l_mv|lia].
  - destruct (ha !! i) as [[]|]; try (evs; ret). evs. stps.
  - destruct (ha !! i) as [[]|]; try (evs; ret). evs. stps.
  - destruct (ha !! i) as [[]|]; try (evs; ret). evs. stps.
Qed.
End Ops.

Section Final.
Context {T : Type}.
Implicit Types (s : sys T) (x n : nid) (o : op T).

Lemma with_auth_out s a (f g : kind -> nid -> run (sys T * out T)) s' j :
  (forall k x, f k x = Ret (s', OutHandle j) -> g k x = Ret (s', OutHandle j)) ->
  with_auth s a f = Ret (s', OutHandle j) -> with_auth s a g = Ret (s', OutHandle j).
Proof. intros H. unfold with_auth, ill. destruct a as [i|i i'].
  - destruct (s_hands s !! i) as [[[]| | | | |]|]; try discriminate. apply H.
  - destruct (s_hands s !! i) as [[[]| | | | |]|]; try discriminate. destruct (s_hands s !! i') as [[]|]; try discriminate.
    destruct (tree_core s x) as [u| |]; cbn [mbind run_bind]; try discriminate. destruct (decide (u = t)); [apply H|discriminate]. Qed.
Lemma create_same s k x d ad s' j : (r ← create_node_as s k x d ad; out_of_hand r) = Ret (s', OutHandle j) <->
  (r ← create' s k x d ad; out_of_hand r) = Ret (s', OutHandle j).
Proof. unfold create_node_as, create'. destruct (tree_core s x) as [t| |]; cbn [mbind run_bind]; [|done..].
  destruct (new_orphan s d t) as [[[s1 n] i]| |]; cbn [mbind run_bind]; [|done..].
  destruct (insert_orphan (s_nodes s1) n true (dest_of ad x)) as [[h' [u|e]]| |]; cbn [mbind run_bind]; [done| |done..].
  unfold out_of_hand. cbn [fst snd]. split; [|discriminate]. destruct (drop_node _ i Plain n); cbn [mbind run_bind fst snd]; discriminate. Qed.
Lemma create_same' s a d ad s' j :
  step s (OpCreate a d ad) = Ret (s', OutHandle j) <-> step' s (OpCreate a d ad) = Ret (s', OutHandle j).
Proof. cbn [step step']. split; apply with_auth_out; intros kd x; apply create_same. Qed.
Lemma bundle_same s k i s' j :
  step s (OpBundle k i) = Ret (s', OutHandle j) <-> step' s (OpBundle k i : op T) = Ret (s', OutHandle j).
Proof. cbn [step step']. destruct (s_hands s !! i) as [[[]| | | | |]|]; try done. destruct (is_lock_kind k); [|done].
  destruct (acquire s k x) as [[s1|]| |]; cbn [mbind run_bind]; try done. split; [|discriminate].
  destruct (drop_node s i Plain x); cbn [mbind run_bind]; discriminate. Qed.
Lemma move_same s x ad y t : in_tree s x t -> in_tree s y t -> move_subtree s x ad y = move' s x ad y.
Proof. intros (nx & rx & lx & Ex & Mx) (ny & ry & ly & Ey & My). unfold move_subtree, move', link_tree_core, n_memb. rewrite Ex, Ey.
  cbn [fmap option_fmap option_map]. rewrite Mx, My. cbn [mbind run_bind]. destruct (decide (t = t)); [done|contradiction]. Qed.

Lemma touches_loc s o l0 : length l0 <= 2 -> step s o = step' s o ->
  (forall s2, same_on l0 s s2 -> (forall s' r, step' s o = Ret (s', r) -> exists s2', step' s2 o = Ret (s2', r)) -> step s2 o = step' s2 o) ->
  touches 93 s o.
Proof. intros L0 E H. destruct s as [h tr ha fr]. destruct (l_step tr ha fr o h) as (l & Hl & Hc). exists (l0 ++ l). split; [rewrite app_length; lia|].
  intros [g tr2 ha2 fr2] (E1 & E2 & E3 & Ag). cbn [s_nodes s_trees s_hands s_fresh] in E1, E2, E3, Ag. subst tr2 ha2 fr2.
  pose proof (agree_app _ _ _ _ Ag) as [A0 A1]. rewrite E.
  assert (same_on l0 (mkSys h tr ha fr) (mkSys g tr ha fr)) as SO by (split; [done|]; split; [done|]; split; [done|exact A0]).
  destruct Hc as [(h' & [[[tr' ha'] fr'] r] & E1 & K1 & N)|(b & E1 & N)].
  - destruct (N g A1) as (g' & E2 & A' & K2). rewrite (H _ SO), E1, E2.
    + unfold mks2, mks. cbn [fst snd]. split; [done|]. split; [split; [done|split; [done|split; [done|]]]|split].
      * cbn [s_nodes]. intros x Hx. destruct (decide (x ∈ l)) as [I|I]; [by apply A'|]. rewrite K1, K2 by exact I. by apply Ag.
      * intros x [_ Nx]%not_elem_of_app. by apply K1.
      * intros x [_ Nx]%not_elem_of_app. by apply K2.
    + intros s' r' Er. rewrite E1 in Er. injection Er as <- <-. eexists. exact E2.
  - rewrite (H _ SO), E1, (N g A1); [by destruct b|]. intros s' r' Er. rewrite E1 in Er. by destruct b. Qed.

Theorem constant s o : brief s o -> touches 93 s o.
Proof. intros B. destruct o; try contradiction;
    try (apply (touches_loc s _ []); [cbn; lia|reflexivity|intros; reflexivity]).
  - destruct B as (s' & j & E). pose proof (proj1 (bundle_same _ _ _ _ _) E) as E'. apply (touches_loc s _ []); [cbn; lia|by rewrite E, E'|].
    intros s2 _ H. destruct (H _ _ E') as [s2' E2]. rewrite E2. by apply bundle_same.
  - destruct B as (s' & j & E). pose proof (proj1 (create_same' _ _ _ _ _ _) E) as E'. apply (touches_loc s _ []); [cbn; lia|by rewrite E, E'|].
    intros s2 _ H. destruct (H _ _ E') as [s2' E2]. rewrite E2. by apply create_same'.
  - destruct B as (x & y & t & [kx Hx] & [ky Hy] & Tx & Ty).
    assert (forall s2, s_hands s2 = s_hands s -> in_tree s2 x t -> in_tree s2 y t -> step s2 (OpMove a ad j) = step' s2 (OpMove a ad j)) as M.
    { intros s2 Eh Tx2 Ty2. cbn [step step']. rewrite Eh, Hy. destruct ky; try reflexivity. unfold with_auth. rewrite Eh. destruct a as [i|i g]; cbn [receiver] in Hx; rewrite Hx.
      - destruct kx; try reflexivity. by rewrite (move_same s2 x ad y t Tx2 Ty2).
      - destruct kx; try reflexivity. destruct (s_hands s !! g) as [[]|]; try reflexivity. destruct (tree_core s2 x) as [u| |]; cbn [mbind run_bind]; try reflexivity.
        destruct (decide (u = t0)); [|reflexivity]. by rewrite (move_same s2 x ad y t Tx2 Ty2). }
    apply (touches_loc s _ [x; y]); [cbn; lia|by apply M|]. intros s2 (_ & Eh & _ & Ag) _. apply M; [by symmetry| |].
    + destruct Tx as (nd & rc & lk & E & F). exists nd, rc, lk. split; [|exact F]. rewrite <- Ag; [exact E|by left].
    + destruct Ty as (nd & rc & lk & E & F). exists nd, rc, lk. split; [|exact F]. rewrite <- Ag; [exact E|by right; left].
Qed.
End Final.
