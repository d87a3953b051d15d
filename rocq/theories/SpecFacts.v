(** * SpecFacts: forests, chains of siblings, the representation relation. *)
From Verif Require Import Heap Spec HeapFacts.

(** ** Lists *)

Lemma last_default_cons {A} (x d : A) (l : list A) : last (x :: l) = Some (default x (last l)).
Proof. revert x. induction l as [|y l IH]; intros x; [done|]. rewrite last_cons_cons, IH. done. Qed.

Lemma list_snoc_inv {A} (l : list A) : l = [] \/ exists l' z, l = l' ++ [z].
Proof. destruct (decide (l = [])) as [->|H]; [by left|right].
  destruct (exists_last H) as (l' & z & ->). eauto. Qed.

Lemma without_split (n : nid) l1 l2 :
  n ∉ l1 -> n ∉ l2 -> without n (l1 ++ n :: l2) = l1 ++ l2.
Proof.
  intros H1 H2. unfold without. rewrite filter_app, filter_cons_False by (intros ?; done).
  f_equal.
  - induction l1 as [|x l1 IH]; [done|]. rewrite filter_cons_True by set_solver. f_equal. set_solver.
  - induction l2 as [|x l2 IH]; [done|]. rewrite filter_cons_True by set_solver. f_equal. set_solver.
Qed.

Lemma ins_before_split a n l1 l2 : a ∉ l1 -> ins_before a n (l1 ++ a :: l2) = l1 ++ n :: a :: l2.
Proof.
  induction l1 as [|x l1 IH]; simpl; intros H.
  - by rewrite decide_True.
  - rewrite decide_False by set_solver. f_equal. apply IH. set_solver.
Qed.
Lemma ins_after_split a n l1 l2 : a ∉ l1 -> ins_after a n (l1 ++ a :: l2) = l1 ++ a :: n :: l2.
Proof.
  induction l1 as [|x l1 IH]; simpl; intros H.
  - by rewrite decide_True.
  - rewrite decide_False by set_solver. f_equal. apply IH. set_solver.
Qed.
Lemma splice_split a r l1 l2 : a ∉ l1 -> splice a r (l1 ++ a :: l2) = l1 ++ r ++ l2.
Proof.
  induction l1 as [|x l1 IH]; simpl; intros H.
  - by rewrite decide_True.
  - rewrite decide_False by set_solver. f_equal. apply IH. set_solver.
Qed.

(** ** Well-formed forests *)

Lemma child_intro (K : forest) p ks c : K !! p = Some ks -> c ∈ ks -> child_of K p c.
Proof. intros. exists ks. done. Qed.

Lemma child_of_insert (K : forest) p ks x c :
  child_of (<[p := ks]> K) x c <-> (x = p /\ c ∈ ks) \/ (x <> p /\ child_of K x c).
Proof.
  unfold child_of. split.
  - intros (ks0 & H & Hc). destruct (decide (x = p)) as [->|Hne].
    + rewrite lookup_insert in H. simplify_eq. auto.
    + rewrite lookup_insert_ne in H by done. right. eauto.
  - intros [[-> Hc]|[Hne (ks0 & H & Hc)]].
    + exists ks. by rewrite lookup_insert.
    + exists ks0. by rewrite lookup_insert_ne.
Qed.

Lemma top_update (K : forest) p ks ks' x :
  K !! p = Some ks -> is_top (<[p := ks']> K) x ->
  x ∉ ks' /\ (x ∉ ks -> is_top K x).
Proof.
  intros Hp [Hx1 Hx2]. split.
  - intros Hin. apply (Hx2 p), child_of_insert. by left.
  - intros Hnin. split.
    + destruct (decide (x = p)) as [->|]; [eauto|]. by rewrite lookup_insert_ne in Hx1.
    + intros q Hq. apply (Hx2 q), child_of_insert.
      destruct (decide (q = p)) as [->|]; [|by right].
      destruct Hq as (? & ? & ?). simplify_eq. done.
Qed.

Lemma child_irrefl K x : wf K -> ~ child_of K x x.
Proof.
  intros Hwf. pose proof (wf_acyclic _ Hwf x) as Hacc.
  induction Hacc as [x _ IH]. intros Hc. eapply IH; eauto.
Qed.

Lemma below_trans K a b c : below K a b -> below K b c -> below K a c.
Proof. intros Hab Hbc. induction Hbc; eauto using below. Qed.

Lemma below_child_inv K a x : below K a x -> a = x \/ exists c, child_of K a c /\ below K c x.
Proof.
  induction 1 as [|p c Hap IH Hpc]; [by left|]. right.
  destruct IH as [->|(d & Had & Hdp)].
  - exists c. split; [done|apply below_refl].
  - exists d. split; [done|]. eapply below_step; eauto.
Qed.

Lemma below_parent_inv K a x : below K a x -> a = x \/ exists p, child_of K p x /\ below K a p.
Proof. destruct 1; eauto. Qed.

(** No node is below one of its own children. *)
Lemma no_cycle K p c : wf K -> child_of K p c -> ~ below K c p.
Proof.
  intros Hwf. revert p c. intros p.
  pose proof (wf_acyclic _ Hwf p) as Hacc.
  induction Hacc as [p _ IH]. intros c Hpc Hb.
  destruct (below_child_inv _ _ _ Hb) as [->|(d & Hcd & Hdp)].
  - by eapply child_irrefl.
  - apply (IH c Hpc d Hcd). eapply below_step; eauto.
Qed.

Lemma below_antisym K a b : wf K -> below K a b -> below K b a -> a = b.
Proof.
  intros Hwf Hab Hba. destruct (below_child_inv _ _ _ Hab) as [->|(c & Hac & Hcb)]; [done|].
  exfalso. eapply (no_cycle K a c); eauto using below_trans.
Qed.

(** Two comparable positions: ancestors of a node form a chain. *)
Lemma below_linear K a b x : wf K -> below K a x -> below K b x -> below K a b \/ below K b a.
Proof.
  intros Hwf Hax. revert b. induction Hax as [|p c Hap IH Hpc]; intros b Hbx; [by right|].
  destruct (below_parent_inv _ _ _ Hbx) as [->|(q & Hqc & Hbq)].
  - left. eapply below_step; eauto.
  - assert (q = p) as -> by (eapply wf_uniq; eauto). auto.
Qed.

Lemma below_top_unique K a b x : wf K -> is_top K a -> is_top K b -> below K a x -> below K b x -> a = b.
Proof.
  intros Hwf Ha Hb Hax Hbx.
  destruct (below_linear _ _ _ _ Hwf Hax Hbx) as [H|H];
    destruct (below_parent_inv _ _ _ H) as [|(q & Hq & _)]; try done.
  - destruct Hb as [_ Hb]. by destruct (Hb q).
  - destruct Ha as [_ Ha]. by destruct (Ha q).
Qed.

Lemma below_alive K a x : wf K -> is_Some (K !! a) -> below K a x -> is_Some (K !! x).
Proof. intros Hwf Ha Hb. destruct Hb; [done|]. eapply wf_dom; eauto. Qed.

Lemma wf_new K n : wf K -> K !! n = None -> wf (<[n := []]> K).
Proof.
  intros Hwf Hn. split.
  - intros p c. rewrite child_of_insert. intros [[-> H]|[Hne H]]; [set_solver|].
    destruct (wf_dom _ Hwf _ _ H) as [ks Hks].
    destruct (decide (c = n)) as [->|]; [by rewrite lookup_insert|].
    rewrite lookup_insert_ne by done. eauto.
  - intros p ks. destruct (decide (p = n)) as [->|].
    + rewrite lookup_insert. intros [= <-]. constructor.
    + rewrite lookup_insert_ne by done. apply wf_nodup; done.
  - intros p q c. rewrite !child_of_insert.
    intros [[-> ?]|[? ?]] [[-> ?]|[? ?]]; try set_solver. eapply wf_uniq; eauto.
  - intros x. pose proof (wf_acyclic _ Hwf x) as Hacc. induction Hacc as [x _ IH].
    constructor. intros c. rewrite child_of_insert. intros [[_ H]|[_ H]]; [set_solver|auto].
Qed.

Lemma is_top_new K n : wf K -> K !! n = None -> is_top (<[n := []]> K) n.
Proof.
  intros Hwf Hn. split; [rewrite lookup_insert; eauto|].
  intros p. rewrite child_of_insert. intros [[_ H]|[_ H]]; [set_solver|].
  destruct (wf_dom _ Hwf _ _ H). congruence.
Qed.

(** Adding top node [n] to the children of [p], at any position. *)
Lemma wf_attach K p ks n ks' :
  wf K -> K !! p = Some ks -> is_top K n -> ~ below K n p -> ks' ≡ₚ n :: ks ->
  wf (<[p := ks']> K).
Proof.
  intros Hwf Hp [Hn Htop] Hnb Hperm.
  assert (n ∉ ks) as Hnks. { intros Hin. apply (Htop p). exists ks. done. }
  assert (forall x c, child_of (<[p := ks']> K) x c <-> child_of K x c \/ (x = p /\ c = n)) as Hch.
  { intros x c. rewrite child_of_insert, Hperm. split.
    - intros [[-> H]|[? ?]]; [|by left]. apply elem_of_cons in H as [->|H]; [by right|left].
      exists ks. done.
    - intros [(ks0 & Hx & Hc)|[-> ->]]; [|left; set_solver].
      destruct (decide (x = p)) as [->|]; [left|right; split; [done|exists ks0; done]].
      simplify_eq. split; [done|set_solver]. }
  split.
  - intros x c. rewrite Hch. intros [H|[-> ->]].
    + destruct (decide (c = p)) as [->|]; [rewrite lookup_insert; eauto|].
      rewrite lookup_insert_ne by done. eapply wf_dom; eauto.
    + destruct (decide (n = p)) as [->|]; [rewrite lookup_insert; eauto|].
      rewrite lookup_insert_ne by done. done.
  - intros x l. destruct (decide (x = p)) as [->|].
    + rewrite lookup_insert. intros [= <-]. rewrite Hperm. constructor; [done|].
      eapply wf_nodup; eauto.
    + rewrite lookup_insert_ne by done. eapply wf_nodup; eauto.
  - intros x y c. rewrite !Hch. intros [H1|[-> ->]] [H2|[-> H2]]; try done.
    + eapply wf_uniq; eauto.
    + subst. exfalso. eapply Htop; eauto.
    + exfalso. eapply Htop; eauto.
  - (* subtree of n first *)
    assert (forall x, below K n x -> Acc (fun c p0 => child_of (<[p := ks']> K) p0 c) x) as Hsub.
    { intros x. pose proof (wf_acyclic _ Hwf x) as Hacc. induction Hacc as [x _ IH].
      intros Hb. constructor. intros c. rewrite Hch. intros [H|[-> ->]]; [|done].
      apply IH; [done|]. eapply below_step; eauto. }
    intros x. pose proof (wf_acyclic _ Hwf x) as Hacc. induction Hacc as [x _ IH].
    constructor. intros c. rewrite Hch. intros [H|[-> ->]]; [auto|].
    apply Hsub. apply below_refl.
Qed.

(** Removing child [n] of [p]. *)
Lemma wf_detach K p ks n ks' :
  wf K -> K !! p = Some ks -> ks ≡ₚ n :: ks' ->
  wf (<[p := ks']> K) /\ is_top (<[p := ks']> K) n.
Proof.
  intros Hwf Hp Hperm.
  pose proof (wf_nodup _ Hwf _ _ Hp) as Hnd. rewrite Hperm in Hnd.
  apply NoDup_cons in Hnd as [Hn Hnd].
  assert (child_of K p n) as Hpn. { exists ks. split; [done|]. rewrite Hperm. set_solver. }
  assert (forall x c, child_of (<[p := ks']> K) x c <-> child_of K x c /\ c <> n) as Hch.
  { intros x c. rewrite child_of_insert. split.
    - intros [[-> H]|[? ?]].
      + split; [|set_solver]. exists ks. split; [done|]. rewrite Hperm. set_solver.
      + split; [done|]. intros ->. assert (x = p) by (eapply wf_uniq; eauto). done.
    - intros [(ks0 & Hx & Hc) Hne]. destruct (decide (x = p)) as [->|].
      + left. simplify_eq. rewrite Hperm in Hc. set_solver.
      + right. split; [done|]. exists ks0. done. }
  split; [split|].
  - intros x c. rewrite Hch. intros [H _].
    destruct (decide (c = p)) as [->|]; [rewrite lookup_insert; eauto|].
    rewrite lookup_insert_ne by done. eapply wf_dom; eauto.
  - intros x l. destruct (decide (x = p)) as [->|].
    + rewrite lookup_insert. by intros [= <-].
    + rewrite lookup_insert_ne by done. eapply wf_nodup; eauto.
  - intros x y c. rewrite !Hch. intros [? _] [? _]. eapply wf_uniq; eauto.
  - intros x. pose proof (wf_acyclic _ Hwf x) as Hacc. induction Hacc as [x _ IH].
    constructor. intros c. rewrite Hch. intros [H _]. auto.
  - split.
    + destruct (decide (n = p)) as [->|]; [rewrite lookup_insert; eauto|].
      rewrite lookup_insert_ne by done. eapply wf_dom; eauto.
    + intros x. rewrite Hch. naive_solver.
Qed.

(** ** Chains of siblings (proof device: [linked] as a doubly linked segment) *)

Section Chain.
Context {T : Type}.
Implicit Types (h : heap T).

Fixpoint chain h (p pv : nid) (l : list nid) (nx : option nid) : Prop :=
  match l with
  | [] => True
  | c :: l' =>
      fparent h c = Some p /\ fprev h c = Some pv /\
      fnext h c = match l' with [] => nx | d :: _ => Some d end /\
      chain h p c l' nx
  end.

Definition hd_or (l : list nid) (nx : option nid) : option nid :=
  match l with [] => nx | d :: _ => Some d end.

Lemma chain_cons h p pv c l nx :
  chain h p pv (c :: l) nx <->
  fparent h c = Some p /\ fprev h c = Some pv /\ fnext h c = hd_or l nx /\ chain h p c l nx.
Proof. done. Qed.

Lemma chain_app h p pv l1 l2 nx :
  chain h p pv (l1 ++ l2) nx <->
  chain h p pv l1 (hd_or l2 nx) /\ chain h p (default pv (last l1)) l2 nx.
Proof.
  revert pv. induction l1 as [|c l1 IH]; intros pv.
  - simpl. naive_solver.
  - rewrite <-app_comm_cons, !chain_cons, IH.
    rewrite (last_default_cons c pv). simpl.
    replace (hd_or (l1 ++ l2) nx) with (hd_or l1 (hd_or l2 nx)) by (by destruct l1).
    naive_solver.
Qed.

Lemma chain_frame h h' p pv l nx :
  (forall c, c ∈ l -> fparent h' c = fparent h c /\ fprev h' c = fprev h c /\ fnext h' c = fnext h c) ->
  chain h p pv l nx -> chain h' p pv l nx.
Proof.
  revert pv. induction l as [|c l IH]; intros pv Hf; [done|].
  rewrite !chain_cons. intros (H1 & H2 & H3 & H4).
  destruct (Hf c) as (E1 & E2 & E3); [set_solver|].
  rewrite E1, E2, E3. split_and!; try done. apply IH; [|done]. intros d Hd. apply Hf. set_solver.
Qed.

Arguments chain : simpl never.

Lemma chain_linked_aux h p pv l nx :
  chain h p pv l nx <->
  (forall i c, l !! i = Some c ->
     fparent h c = Some p /\
     fnext h c = (match l !! S i with Some d => Some d | None => nx end) /\
     fprev h c = match i with 0 => Some pv | S j => l !! j end).
Proof.
  revert pv. induction l as [|c l IH]; intros pv.
  - split; [|done]. intros _ i c. by rewrite lookup_nil.
  - rewrite chain_cons, IH. split.
    + intros (H1 & H2 & H3 & H4) [|i] d; simpl.
      * intros [= <-]. split_and!; try done. rewrite H3. by destruct l.
      * intros Hd. destruct (H4 _ _ Hd) as (E1 & E2 & E3). split_and!; [done|done|].
        rewrite E3. by destruct i.
    + intros H. destruct (H 0 c eq_refl) as (E1 & E2 & E3). split_and!; [done|done| |].
      * rewrite E2. by destruct l.
      * intros i d Hd. destruct (H (S i) d Hd) as (F1 & F2 & F3). split_and!; [done|done|].
        rewrite F3. by destruct i.
Qed.

Lemma linked_chain h p l : linked h p l <-> chain h p (default p (last l)) l None.
Proof.
  rewrite chain_linked_aux. unfold linked.
  assert (forall i (c : nid), l !! i = Some c -> Some (default p (last l)) = last l) as Hl.
  { intros i c Hc. destruct (last l) eqn:E; [done|]. apply last_None in E as ->. by rewrite lookup_nil in Hc. }
  split; intros H i c Hc; destruct (H i c Hc) as (E1 & E2 & E3); split_and!; try done.
  - rewrite E2. by destruct (l !! S i).
  - rewrite E3. destruct i; [|done]. symmetry; eauto.
  - rewrite E2. by destruct (l !! S i).
  - rewrite E3. destruct i; [|done]. eauto.
Qed.

Lemma rep_alive h K x : rep h K -> is_Some (K !! x) -> alive h x = true.
Proof. intros Hr Hx. apply alive_spec, (rep_dom _ _ Hr), Hx. Qed.

Lemma rep_chain h K p ks : rep h K -> K !! p = Some ks -> chain h p (default p (last ks)) ks None.
Proof. intros Hr Hp. apply linked_chain. eapply rep_linked; eauto. Qed.

(** Changing one child list. *)
Lemma rep_update h h' (K : forest) p ks' :
  rep h K -> is_Some (K !! p) ->
  (forall x, is_Some (h' !! x) <-> is_Some (h !! x)) ->
  (forall x, x <> p -> ffirst h' x = ffirst h x /\ fnch h' x = fnch h x) ->
  (forall x c, x <> p -> child_of K x c ->
     fparent h' c = fparent h c /\ fprev h' c = fprev h c /\ fnext h' c = fnext h c) ->
  ffirst h' p = head ks' -> fnch h' p = length ks' ->
  chain h' p (default p (last ks')) ks' None ->
  (forall x, is_top (<[p := ks']> K) x ->
     fparent h' x = None /\ fnext h' x = None /\ fprev h' x = Some x) ->
  rep h' (<[p := ks']> K).
Proof.
  intros Hr Hp Hdom Hoth Hch Hf Hn Hc Htop. split.
  - intros x. rewrite Hdom, (rep_dom _ _ Hr).
    destruct (decide (x = p)) as [->|]; [rewrite lookup_insert; naive_solver eauto|].
    by rewrite lookup_insert_ne.
  - intros x ks. destruct (decide (x = p)) as [->|].
    + rewrite lookup_insert. by intros [= <-].
    + rewrite lookup_insert_ne by done. intros Hx. destruct (Hoth x) as [-> _]; [done|].
      eapply rep_first; eauto.
  - intros x ks. destruct (decide (x = p)) as [->|].
    + rewrite lookup_insert. by intros [= <-].
    + rewrite lookup_insert_ne by done. intros Hx. destruct (Hoth x) as [_ ->]; [done|].
      eapply rep_nch; eauto.
  - intros x ks. destruct (decide (x = p)) as [->|].
    + rewrite lookup_insert. intros [= <-]. by apply linked_chain.
    + rewrite lookup_insert_ne by done. intros Hx. apply linked_chain.
      eapply chain_frame; [|eapply rep_chain; eauto].
      intros c Hcin. eapply Hch; [done|]. exists ks. done.
  - done.
Qed.

(** [rep] determines the forest. *)
Lemma hd_or_None l : hd_or l None = head l.
Proof. by destruct l. Qed.

Lemma chain_inj h p1 pv1 l1 p2 pv2 l2 :
  head l1 = head l2 -> chain h p1 pv1 l1 None -> chain h p2 pv2 l2 None -> l1 = l2.
Proof.
  revert pv1 pv2 l2. induction l1 as [|c l1 IH]; intros pv1 pv2 [|d l2]; try done.
  rewrite !chain_cons. simpl. intros [= <-] (_ & _ & H1 & H2) (_ & _ & H3 & H4). f_equal.
  eapply IH; [|done|done]. rewrite hd_or_None in H1, H3. congruence.
Qed.

Lemma rep_inj h K1 K2 : rep h K1 -> rep h K2 -> K1 = K2.
Proof.
  intros H1 H2. apply map_eq. intros x.
  destruct (K1 !! x) as [l1|] eqn:E1, (K2 !! x) as [l2|] eqn:E2; try done.
  - f_equal. eapply (chain_inj h x _ l1 x _ l2).
    + pose proof (rep_first _ _ H1 _ _ E1). pose proof (rep_first _ _ H2 _ _ E2). congruence.
    + apply (rep_chain _ K1); done.
    + apply (rep_chain _ K2); done.
  - exfalso. assert (is_Some (K2 !! x)) as [? ?] by (apply (rep_dom _ _ H2), (rep_dom _ _ H1); eauto). congruence.
  - exfalso. assert (is_Some (K1 !! x)) as [? ?] by (apply (rep_dom _ _ H1), (rep_dom _ _ H2); eauto). congruence.
Qed.

(** Position of a child: everything the links say about it. *)
Lemma rep_split h K p l1 c l2 :
  rep h K -> K !! p = Some (l1 ++ c :: l2) ->
  fparent h c = Some p /\
  fnext h c = head l2 /\
  fprev h c = Some (default (default c (last l2)) (last l1)).
Proof.
  intros Hr Hp. pose proof (rep_chain _ _ _ _ Hr Hp) as Hc.
  apply chain_app in Hc as [_ Hc]. rewrite chain_cons in Hc. destruct Hc as (H1 & H2 & H3 & _).
  rewrite hd_or_None in H3. split_and!; try done. rewrite H2. f_equal.
  destruct (last l1) eqn:E; [done|]. simpl.
  rewrite last_app. rewrite (last_default_cons c c). done.
Qed.

End Chain.
Global Arguments chain : simpl never.

Lemma child_of_split K p c : child_of K p c -> exists l1 l2, K !! p = Some (l1 ++ c :: l2).
Proof. intros (ks & Hp & Hc). apply elem_of_list_split in Hc as (l1 & l2 & ->). eauto. Qed.
Lemma split_child_of (K : forest) p l1 c l2 : K !! p = Some (l1 ++ c :: l2) -> child_of K p c.
Proof. intros H. exists (l1 ++ c :: l2). split; [done|set_solver]. Qed.

(** A node is a child or top: decidable because the forest is finite. *)
Lemma top_or_child (K : forest) x : is_Some (K !! x) -> is_top K x \/ exists p, child_of K p x.
Proof.
  intros Hx.
  destruct (decide (map_Exists (fun _ ks => x ∈ ks) K)) as [H|H].
  - right. destruct H as (p & ks & Hp & Hin). exists p, ks. done.
  - left. split; [done|]. intros p (ks & Hp & Hin). apply H. exists p, ks. done.
Qed.
