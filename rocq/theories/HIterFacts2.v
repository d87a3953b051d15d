(** * HIterFacts2: traversing a subtree that keeps its shape. *)
From Verif Require Import HIter HIterSpec SpecFacts RoseFacts HIterFacts Spec.

Section HIterFacts2.
Context {T : Type}.
Implicit Types (s : sys T) (K : forest).

Lemma walks_yield {S I C} (nx : sys T -> S -> run (sys T * option I * S)) owns denotes (moves : forest -> C -> option C -> Prop) (stays : forest -> Prop) :
  (forall K c a b, wf K -> moves K c a -> moves K c b -> a = b) ->
  forall (l : list C) s st,
  (forall K l1 c l2, stays K -> wf K -> l = l1 ++ c :: l2 -> moves K c (head l2)) ->
  walks nx owns denotes moves (Datatypes.S (length l)) s st (head l) ->
  yields_while nx owns denotes stays s st l.
Proof.
  intros Hdet l. induction l as [|c l IH]; intros s st Hl Hw; simpl; intros s1 K1 Ho Hst Hs.
  - destruct (Hw s1 K1 Ho Hst) as (s2 & r & st' & E & R & U & Er & Es & _). exists s2, r, st'. by repeat split.
  - destruct (Hw s1 K1 Ho Hst) as (s2 & r & st' & E & R & U & i & c' & Er & D & M & _ & W). exists s2, r, st'.
    split; [exact E|]. split; [exact R|]. split; [exact U|]. exists i. split; [exact Er|]. split; [exact D|].
    assert (c' = head l) as ->.
    { eapply Hdet; [exact (proj2 Hst)|exact M|]. exact (Hl K1 [] c l Hs (proj2 Hst) eq_refl). }
    apply IH; [|exact W]. intros K l1 c1 l2 HK HwK ->. exact (Hl K (c :: l1) c1 l2 HK HwK eq_refl).
Qed.

(** ** Moves are determined *)
Lemma sibling_pos K p q ks ks' n m (x : nid) : wf K -> K !! p = Some ks -> K !! q = Some ks' -> ks !! n = Some x -> ks' !! m = Some x ->
  p = q /\ ks = ks' /\ n = m.
Proof.
  intros Hw Hp Hq Hn Hm. assert (p = q) as ->.
  { eapply (wf_uniq K Hw); eapply child_intro; [exact Hp|by eapply elem_of_list_lookup_2|exact Hq|by eapply elem_of_list_lookup_2]. }
  assert (ks = ks') as -> by congruence. split; [done|]. split; [done|]. eapply NoDup_lookup; [by eapply (wf_nodup K Hw)|exact Hn|exact Hm].
Qed.
Lemma nav_spec_det K v x a b : wf K -> nav_spec K v x a -> nav_spec K v x b -> a = b.
Proof.
  intros Hw. destruct v; simpl.
  - intros (r & -> & A & B) (q & -> & C & D). f_equal. by eapply below_top_unique.
  - destruct a as [p|], b as [q|]; intros A B; try done.
    + f_equal. by eapply (wf_uniq K Hw). + exfalso. exact (proj2 B p A). + exfalso. exact (proj2 A q B).
  - intros [[A ->]|(p & ks & n & Hp & Hn & ->)] [[B ->]|(q & ks' & m & Hq & Hm & ->)].
    + done. + exfalso. apply (proj2 A q). eapply child_intro; [exact Hq|by eapply elem_of_list_lookup_2].
    + exfalso. apply (proj2 B p). eapply child_intro; [exact Hp|by eapply elem_of_list_lookup_2].
    + destruct (sibling_pos K p q ks ks' n m x Hw Hp Hq Hn Hm) as (-> & -> & ->). done.
  - intros [[A ->]|(p & ks & n & Hp & Hn & ->)] [[B ->]|(q & ks' & m & Hq & Hm & ->)].
    + done. + exfalso. apply (proj2 A q). eapply child_intro; [exact Hq|by eapply elem_of_list_lookup_2].
    + exfalso. apply (proj2 B p). eapply child_intro; [exact Hp|by eapply elem_of_list_lookup_2].
    + destruct (sibling_pos K p q ks ks' n m x Hw Hp Hq Hn Hm) as (-> & -> & ->). done.
  - intros [[A ->]|(p & ks & Hp & Hn & ->)] [[B ->]|(q & ks' & Hq & Hm & ->)].
    + done. + exfalso. apply (proj2 A q). eapply child_intro; [exact Hq|exact Hm].
    + exfalso. apply (proj2 B p). eapply child_intro; [exact Hp|exact Hn].
    + assert (p = q) as -> by (eapply (wf_uniq K Hw); eapply child_intro; [exact Hp|exact Hn|exact Hq|exact Hm]). congruence.
  - intros [[A ->]|(p & ks & Hp & Hn & ->)] [[B ->]|(q & ks' & Hq & Hm & ->)].
    + done. + exfalso. apply (proj2 A q). eapply child_intro; [exact Hq|exact Hm].
    + exfalso. apply (proj2 B p). eapply child_intro; [exact Hp|exact Hn].
    + assert (p = q) as -> by (eapply (wf_uniq K Hw); eapply child_intro; [exact Hp|exact Hn|exact Hq|exact Hm]). congruence.
  - intros (ks & A & ->) (ks' & B & ->). congruence.
  - intros (ks & A & ->) (ks' & B & ->). congruence.
Qed.
Lemma mid_child K p l1 (x : nid) l2 : K !! p = Some (l1 ++ x :: l2) -> child_of K p x.
Proof. apply split_child_of. Qed.
Lemma mid_pos K p q l1 (x : nid) l2 k1 k2 : wf K -> K !! p = Some (l1 ++ x :: l2) -> K !! q = Some (k1 ++ x :: k2) -> p = q /\ l1 = k1 /\ l2 = k2.
Proof.
  intros Hw Hp Hq. destruct (sibling_pos K p q _ _ (length l1) (length k1) x Hw Hp Hq) as (-> & E & En);
    [by apply list_lookup_middle|by apply list_lookup_middle|].
  apply app_inj_1 in E as [-> E]; [|exact En]. injection E as ->. done.
Qed.
Lemma ev_succ_det K e a b : wf K -> ev_succ K e a -> ev_succ K e b -> a = b.
Proof.
  intros Hw A B. inversion A as [x c ks H1|x H1|x p l1 y l2 H1|x p l1 H1|x H1]; subst; inversion B as [x' c' ks' H2|x' H2|x' q k1 y' k2 H2|x' q k1 H2|x' H2]; subst; try done.
  - rewrite H1 in H2. injection H2 as -> _. done.
  - rewrite H1 in H2. discriminate H2.
  - rewrite H1 in H2. discriminate H2.
  - destruct (mid_pos _ _ _ _ _ _ _ _ Hw H1 H2) as (_ & _ & E). injection E as -> _. done.
  - destruct (mid_pos _ _ _ _ _ _ _ _ Hw H1 H2) as (_ & _ & E). discriminate E.
  - exfalso. exact (proj2 H2 p (mid_child _ _ _ _ _ H1)).
  - destruct (mid_pos _ _ _ _ _ _ _ _ Hw H1 H2) as (_ & _ & E). discriminate E.
  - destruct (mid_pos _ _ _ _ _ _ _ _ Hw H1 H2) as (-> & _). done.
  - exfalso. exact (proj2 H2 p (mid_child _ _ _ _ _ H1)).
  - exfalso. exact (proj2 H1 q (mid_child _ _ _ _ _ H2)).
  - exfalso. exact (proj2 H1 q (mid_child _ _ _ _ _ H2)).
Qed.
Lemma mid2 {A} (l1 : list A) y x l2 : l1 ++ y :: x :: l2 = (l1 ++ [y]) ++ x :: l2. Proof. by rewrite <- app_assoc. Qed.
Lemma ev_pred_det K e a b : wf K -> ev_pred K e a -> ev_pred K e b -> a = b.
Proof.
  intros Hw A B. inversion A as [x c ks H1|x H1|x p l1 y l2 H1|x p l2 H1|x H1]; subst; inversion B as [x' c' ks' H2|x' H2|x' q k1 y' k2 H2|x' q k2 H2|x' H2]; subst; try done.
  - rewrite H1 in H2. injection H2 as H2. apply app_inj_tail in H2 as [_ ->]. done.
  - rewrite H1 in H2. injection H2 as H2. by destruct ks.
  - rewrite H1 in H2. injection H2 as H2. by destruct ks'.
  - rewrite mid2 in H1, H2. destruct (mid_pos _ _ _ _ _ _ _ _ Hw H1 H2) as (_ & E & _). apply app_inj_tail in E as [_ ->]. done.
  - rewrite mid2 in H1. destruct (mid_pos K p q _ x l2 [] k2 Hw H1 H2) as (_ & E & _). by destruct l1.
  - exfalso. rewrite mid2 in H1. exact (proj2 H2 p (mid_child _ _ _ _ _ H1)).
  - rewrite mid2 in H2. destruct (mid_pos K q p _ x k2 [] l2 Hw H2 H1) as (_ & E & _). by destruct k1.
  - destruct (mid_pos K p q [] x l2 [] k2 Hw H1 H2) as (-> & _). done.
  - exfalso. exact (proj2 H2 p (mid_child K p [] x l2 H1)).
  - exfalso. rewrite mid2 in H2. exact (proj2 H1 q (mid_child _ _ _ _ _ H2)).
  - exfalso. exact (proj2 H1 q (mid_child K q [] x k2 H2)).
Qed.
Lemma dfs_moves_det K c a b : wf K -> dfs_moves K c a -> dfs_moves K c b -> a = b.
Proof. intros Hw A B. inversion A; subst; inversion B; subst; try done. f_equal. by eapply ev_succ_det. Qed.
Lemma rdfs_moves_det K c a b : wf K -> rdfs_moves K c a -> rdfs_moves K c b -> a = b.
Proof. intros Hw A B. inversion A; subst; inversion B; subst; try done. f_equal. by eapply ev_pred_det. Qed.

(** ** The events of a subtree are visited in order *)
(** Consecutive elements of [l] are related, and the last of them to [o]. *)
Fixpoint path {C} (m : C -> option C -> Prop) (l : list C) (o : option C) : Prop :=
  match l with [] => True | c :: l' => m c (match l' with [] => o | d :: _ => Some d end) /\ path m l' o end.
Lemma path_app {C} (m : C -> option C -> Prop) l1 l2 o : path m (l1 ++ l2) o <-> path m l1 (match l2 with [] => o | d :: _ => Some d end) /\ path m l2 o.
Proof.
  induction l1 as [|c l1 IH]; simpl; [tauto|]. rewrite IH. destruct l1; simpl; tauto.
Qed.
Lemma path_split {C} (m : C -> option C -> Prop) l1 c l2 : path m (l1 ++ c :: l2) None -> m c (head l2).
Proof. rewrite path_app. intros [_ [H _]]. by destruct l2. Qed.

Definition lab (r : nid) (e : dft nid) : dft nid * nid := (e, r).
Lemma events_cons {A} (t : rose A) : exists l, dfs_events t = Open (rose_root t) :: l.
Proof. destruct t. by eexists. Qed.
Lemma dfs_path K r : wf K -> forall t x, shape K x t -> below K r x ->
  forall o, dfs_moves K (Close x, r) o -> path (dfs_moves K) (map (lab r) (dfs_events t)) o.
Proof.
  intros Hw t. induction t as [z ts IH] using rose_ind2. intros x Hs Hb o Ho.
  inversion Hs as [? ? Hk Hf]; subst. rename z into x. simpl.
  assert (forall us (vs : list (rose nid)), ts = us ++ vs ->
    path (dfs_moves K) (map (lab r) (concat (map dfs_events vs) ++ [Close x])) o) as Hp.
  { intros us vs. revert us. induction vs as [|v vs IHv]; intros us E; [by simpl|]. simpl map. simpl concat.
    rewrite <- app_assoc, map_app, path_app. split; [|apply (IHv (us ++ [v])); by rewrite <- app_assoc].
    rewrite Forall_forall in IH, Hf.
    assert (v ∈ ts) as Hv by (rewrite E; clear; set_solver).
    assert (child_of K x (rose_root v)) as Hc. { eapply child_intro; [exact Hk|]. apply elem_of_list_fmap_1. exact Hv. }
    apply (IH v Hv (rose_root v) (Hf v Hv)); [eapply below_trans; [exact Hb|]; eapply below_step; [constructor|exact Hc]|].
    assert (Close (rose_root v) <> Close r) as Hne.
    { intros [= Er]. rewrite Er in Hc. exact (no_cycle K x r Hw Hc Hb). }
    destruct vs as [|w vs].
    - simpl. apply (dm_next K _ r (Some (Close x)) Hne). apply (es_parent K (rose_root v) x (map rose_root us)).
      rewrite Hk, E. by rewrite map_app.
    - simpl map. simpl concat. destruct (events_cons w) as [l ->]. simpl.
      apply (dm_next K _ r (Some (Open (rose_root w))) Hne). apply (es_sibling K (rose_root v) x (map rose_root us) _ (map rose_root vs)).
      rewrite Hk, E. by rewrite map_app. }
  split; [|exact (Hp [] ts eq_refl)].
  destruct ts as [|v vs].
  - simpl. apply (dm_next K (Open x) r (Some (Close x))); [done|by constructor].
  - simpl. destruct (events_cons v) as [l ->]. simpl. apply (dm_next K (Open x) r (Some (Open (rose_root v)))); [done|].
    eapply es_child. exact Hk.
Qed.
Lemma rdfs_path K r : wf K -> forall t x, shape K x t -> below K r x ->
  forall o, rdfs_moves K (Open x, r) o -> path (rdfs_moves K) (map (lab r) (reverse (dfs_events t))) o.
Proof.
  intros Hw t. induction t as [z ts IH] using rose_ind2. intros x Hs Hb o Ho.
  inversion Hs as [? ? Hk Hf]; subst. rename z into x. simpl. rewrite reverse_cons, reverse_app. simpl.
  assert (forall us (vs : list (rose nid)), ts = us ++ vs ->
    path (rdfs_moves K) (map (lab r) (reverse (concat (map dfs_events us)) ++ [Open x])) o) as Hp.
  { intros us. induction us as [|v us IHu] using rev_ind; intros vs E; [by simpl|].
    rewrite (map_app dfs_events), concat_app, reverse_app. simpl. rewrite app_nil_r, <- app_assoc, map_app, path_app.
    split; [|apply (IHu (v :: vs)); by rewrite E, <- app_assoc].
    rewrite Forall_forall in IH, Hf.
    assert (v ∈ ts) as Hv by (rewrite E; clear; set_solver).
    assert (child_of K x (rose_root v)) as Hc. { eapply child_intro; [exact Hk|]. apply elem_of_list_fmap_1. exact Hv. }
    apply (IH v Hv (rose_root v) (Hf v Hv)); [eapply below_trans; [exact Hb|]; eapply below_step; [constructor|exact Hc]|].
    assert (Open (rose_root v) <> Open r) as Hne.
    { intros [= Er]. rewrite Er in Hc. exact (no_cycle K x r Hw Hc Hb). }
    destruct (list_snoc_inv us) as [->|(us' & w & ->)].
    - simpl. apply (rm_next K _ r (Some (Open x)) Hne). apply (ep_parent K (rose_root v) x (map rose_root vs)).
      rewrite Hk, E. done.
    - rewrite (map_app dfs_events), concat_app, reverse_app. simpl. rewrite app_nil_r.
      assert (exists l, reverse (dfs_events w) = Close (rose_root w) :: l) as [l ->].
      { destruct w as [y ws]. simpl. rewrite reverse_cons, reverse_app. simpl. by eexists. }
      simpl. apply (rm_next K _ r (Some (Close (rose_root w))) Hne). apply (ep_sibling K (rose_root v) x (map rose_root us') _ (map rose_root vs)).
      rewrite Hk, E, <- !app_assoc. simpl. by rewrite map_app. }
  split; [|exact (Hp ts [] (eq_sym (app_nil_r ts)))].
  destruct (list_snoc_inv ts) as [->|(us & v & ->)].
  - simpl. apply (rm_next K (Close x) r (Some (Open x))); [done|by constructor].
  - rewrite (map_app dfs_events), concat_app, reverse_app. simpl. rewrite app_nil_r.
    assert (exists l, reverse (dfs_events v) = Close (rose_root v) :: l) as [l ->].
    { destruct v as [y ws]. simpl. rewrite reverse_cons, reverse_app. simpl. by eexists. }
    simpl. apply (rm_next K (Close x) r (Some (Close (rose_root v)))); [done|].
    apply (ep_child K x _ (map rose_root us)). rewrite Hk. by rewrite map_app.
Qed.

Lemma hdfs_yields k s i x t : reach s -> s_hands s !! i = Some (HNode k x) ->
  exists s1 st, hdfs_start s i = Ret (s1, st) /\ reach s1 /\ same_view s s1 /\ extends s s1 /\
    (forall n, walks hdfs_next hdfs_owns (on k) dfs_moves n s1 st (Some (Open x, x))) /\
    (rose_root t = x -> yields_while hdfs_next hdfs_owns (on k) (fun K => shape K x t) s1 st (map (lab x) (dfs_events t))).
Proof.
  intros H Hi. destruct (hdfs_start_ok s i k x H Hi) as (s1 & st & E & R & V & X & A). exists s1, st.
  split; [exact E|]. split; [exact R|]. split; [exact V|]. split; [exact X|].
  split; [intros n; by apply hdfs_walks|]. intros Hx. eapply walks_yield; [apply dfs_moves_det| |].
  - intros K l1 c l2 Hs Hw El. apply (path_split _ l1). rewrite <- El. apply (dfs_path K x Hw t x Hs); [constructor|constructor].
  - destruct (events_cons t) as [l ->]. rewrite Hx. by apply hdfs_walks.
Qed.
Lemma hrdfs_yields k s i x t : reach s -> s_hands s !! i = Some (HNode k x) ->
  exists s1 st, hrdfs_start s i = Ret (s1, st) /\ reach s1 /\ same_view s s1 /\ extends s s1 /\
    (forall n, walks hrdfs_next hdfs_owns (on k) rdfs_moves n s1 st (Some (Close x, x))) /\
    (rose_root t = x -> yields_while hrdfs_next hdfs_owns (on k) (fun K => shape K x t) s1 st (map (lab x) (reverse (dfs_events t)))).
Proof.
  intros H Hi. destruct (hrdfs_start_ok s i k x H Hi) as (s1 & st & E & R & V & X & A). exists s1, st.
  split; [exact E|]. split; [exact R|]. split; [exact V|]. split; [exact X|].
  split; [intros n; by apply hrdfs_walks|]. intros Hx. eapply walks_yield; [apply rdfs_moves_det| |].
  - intros K l1 c l2 Hs Hw El. apply (path_split _ l1). rewrite <- El. apply (rdfs_path K x Hw t x Hs); [constructor|constructor].
  - assert (head (map (lab x) (reverse (dfs_events t))) = Some (Close x, x)) as ->.
    { destruct t as [z ts]. simpl in Hx. subst z. simpl. rewrite reverse_cons, reverse_app. done. }
    by apply hrdfs_walks.
Qed.
End HIterFacts2.
