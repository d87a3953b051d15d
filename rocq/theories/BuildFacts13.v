(** * BuildFacts13: a subtree that grows inside another one, and reading it. *)
From Verif Require Import SerialSpec NavFacts SpecFacts RoseFacts AdjFacts IterFacts TravFacts TravFacts4 TdFacts2 EqFacts SerFacts BracketFacts ApiFacts ApiFacts2 ApiFacts3 ApiFacts6 ApiFacts7 ApiFacts8 BuildFacts BuildFacts2 BuildFacts3 BuildFacts4 BuildFacts5 BuildFacts6 BuildFacts7 Spec.

(** ** Replacing a leaf *)
Fixpoint plant (n : nid) (t0 t : rose nid) : rose nid :=
  match t with Rose y ts => if decide (y = n) then t0 else Rose y (map (plant n t0) ts) end.
Definition plant_ev (n : nid) (l0 : list (dft nid)) (e : dft nid) : list (dft nid) :=
  match e with
  | Open a => if decide (a = n) then l0 else [Open a]
  | Close a => if decide (a = n) then [] else [Close a]
  end.

Lemma plant_events (K : forest) n t0 : K !! n = Some [] -> forall t y, shape K y t -> dfs_events (plant n t0 t) = concat (map (plant_ev n (dfs_events t0)) (dfs_events t)).
Proof.
  intros Hn. induction t as [z ts IH] using rose_ind2. intros y Hs. inversion Hs as [? ? Hz Hts E1]; subst y ts0 x. cbn [plant dfs_events map concat plant_ev].
  destruct (decide (z = n)) as [->|Hne].
  - rewrite Hn in Hz. injection Hz as Hz. destruct ts; [|done]. simpl. rewrite decide_True by done. by rewrite !app_nil_r.
  - cbn [dfs_events]. rewrite map_app, concat_app. simpl. rewrite decide_False by done. simpl. f_equal. f_equal.
    clear Hs Hz Hne. induction IH as [|t ts Ht IHs IHt]; [done|].
    apply Forall_cons in Hts as [Hk Hks]. simpl. rewrite map_app, concat_app, (Ht _ Hk). f_equal. by apply IHt.
Qed.

Lemma plant_root n t0 t : rose_root t0 = n -> rose_root (plant n t0 t) = rose_root t.
Proof. intros H. destruct t as [z ts]. simpl. destruct (decide (z = n)) as [->|]; done. Qed.
Lemma plant_shape (K K' : forest) n t0 : shape K' n t0 -> forall t y, shape K y t -> (forall z, z ∈ rose_nodes t -> z <> n -> K' !! z = K !! z) -> shape K' y (plant n t0 t).
Proof.
  intros H0. assert (rose_root t0 = n) as Hr0 by (inversion H0; done).
  induction t as [z ts IH] using rose_ind2. intros y Hs Hag. inversion Hs as [? ? Hz Hts E1]; subst y ts0 x. cbn [plant].
  destruct (decide (z = n)) as [->|Hne]; [done|]. constructor.
  { rewrite (Hag z); [|by constructor|done]. rewrite Hz. f_equal. rewrite map_map. apply map_ext. intros t. symmetry. by apply plant_root. }
  assert (forall w, w ∈ concat (map rose_nodes ts) -> w <> n -> K' !! w = K !! w) as Hag' by (intros w Hw; apply Hag; cbn [rose_nodes]; by right).
  clear Hs Hz Hne Hag. induction IH as [|t ts Ht IHs IHt]; [constructor|].
  apply Forall_cons in Hts as [Hk Hks]. simpl in Hag'. simpl. constructor.
  - rewrite plant_root by done. apply Ht; [done|]. intros w Hw. apply Hag'. apply elem_of_app. by left.
  - apply IHt; [done|]. intros w Hw. apply Hag'. apply elem_of_app. by right.
Qed.

Lemma plant_ev_other n l0 l : (forall e, e ∈ l -> ev_val e <> n) -> concat (map (plant_ev n l0) l) = l.
Proof.
  induction l as [|e l IH]; intros H; [done|]. simpl. rewrite IH by (intros e' He'; apply H; by right).
  assert (ev_val e <> n) as He by (apply H; left). destruct e as [a|a]; simpl in *; by rewrite decide_False.
Qed.

Lemma plant_ok2 (K K' : forest) x t1 n t0 P Q : wf K -> shape K x t1 -> K !! n = Some [] -> dfs_events t1 = P ++ Open n :: Close n :: Q ->
  shape K' n t0 -> (forall z, is_Some (K !! z) -> z <> n -> K' !! z = K !! z) ->
  exists t, shape K' x t /\ dfs_events t = P ++ dfs_events t0 ++ Q.
Proof.
  intros Hw Hs Hn He H0 Hag. exists (plant n t0 t1). split.
  - eapply plant_shape; [exact H0|exact Hs|]. intros z Hz. apply Hag. apply (shape_nodes K x t1 z Hs) in Hz. eapply below_dom; [done| |exact Hz]. inversion Hs; subst. eauto.
  - rewrite (plant_events K n t0 Hn t1 x Hs), He, map_app, concat_app. simpl. rewrite !decide_True by done.
    pose proof (shape_events_nodup K x t1 Hw Hs) as Hnd. rewrite He in Hnd. apply NoDup_app in Hnd as (Hnd1 & Hnd2 & Hnd3).
    apply NoDup_cons in Hnd3 as [Hn1 Hnd3]. apply NoDup_cons in Hnd3 as [Hn2 _].
    rewrite !plant_ev_other; [done|..].
    + intros [a|a] Ha; simpl; intros ->; [apply Hn1; by right|by apply Hn2].
    + intros [a|a] Ha; simpl; intros ->; apply (Hnd2 _ Ha); [left|right; left].
Qed.

(** The leaf among the events. *)
Lemma leaf_events (K : forest) n : K !! n = Some [] -> forall t y, shape K y t -> n ∈ rose_nodes t -> exists P Q, dfs_events t = P ++ Open n :: Close n :: Q.
Proof.
  intros Hn. induction t as [z ts IH] using rose_ind2. intros y Hs Hin. inversion Hs as [? ? Hz Hts E1]; subst y ts0 x. cbn [dfs_events].
  cbn [rose_nodes] in Hin. apply elem_of_cons in Hin as [->|Hin].
  - rewrite Hn in Hz. injection Hz as Hz. destruct ts; [|done]. by exists [], [].
  - assert (exists P Q, concat (map dfs_events ts) = P ++ Open n :: Close n :: Q) as (P & Q & ->).
    { clear Hs Hz. induction IH as [|t ts Ht IHs IHt]; [by apply elem_of_nil in Hin|].
      apply Forall_cons in Hts as [Hk Hks]. simpl in *. apply elem_of_app in Hin as [Hin|Hin].
      - destruct (Ht _ Hk Hin) as (P & Q & ->). exists P, (Q ++ concat (map dfs_events ts)). by rewrite <-app_assoc.
      - destruct (IHt Hin Hks) as (P & Q & ->). exists (dfs_events t ++ P), Q. by rewrite <-app_assoc. }
    exists (Open z :: P), (Q ++ [Close z]). by rewrite <-app_comm_cons, <-app_assoc.
Qed.

(** ** Nesting *)
Definition is_open {A} (e : dft A) : bool := match e with Open _ => true | Close _ => false end.
Fixpoint opens {A} (l : list (dft A)) : nat := match l with [] => 0 | Open _ :: l => S (opens l) | Close _ :: l => opens l end.
Fixpoint closes {A} (l : list (dft A)) : nat := match l with [] => 0 | Open _ :: l => closes l | Close _ :: l => S (closes l) end.
Lemma opens_app {A} (l m : list (dft A)) : opens (l ++ m) = opens l + opens m.
Proof. induction l as [|[a|a] l IH]; simpl; lia. Qed.
Lemma closes_app {A} (l m : list (dft A)) : closes (l ++ m) = closes l + closes m.
Proof. induction l as [|[a|a] l IH]; simpl; lia. Qed.
Definition all_close {A} (cs : list (dft A)) : Prop := Forall (fun e => exists a : A, e = Close a) cs.
Lemma all_close_count {A} (cs : list (dft A)) : all_close cs -> opens cs = 0 /\ closes cs = length cs.
Proof. induction 1 as [|e cs [a ->] H [IH1 IH2]]; simpl; lia. Qed.
Lemma same_count {A B} (l : list (dft A)) (m : list (dft B)) : map is_open l = map is_open m -> opens l = opens m /\ closes l = closes m.
Proof.
  revert m. induction l as [|[a|a] l IH]; intros [|[b|b] m] E; try done; simpl in E; injection E as E; destruct (IH m E) as [H1 H2]; simpl; lia.
Qed.

Lemma events_balance {A} (t : rose A) : opens (dfs_events t) = closes (dfs_events t).
Proof.
  induction t as [x ts IH] using rose_ind2. cbn [dfs_events opens closes]. rewrite opens_app, closes_app. simpl.
  enough (opens (concat (map dfs_events ts)) = closes (concat (map dfs_events ts))) by lia.
  induction IH as [|t ts Ht IHs IHt]; [done|]. simpl. rewrite opens_app, closes_app. lia.
Qed.
Lemma events_prefix {A} (t : rose A) : forall P Q, dfs_events t = P ++ Q -> closes P <= opens P /\ (P <> [] -> Q <> [] -> closes P < opens P).
Proof.
  induction t as [x ts IH] using rose_ind2. intros P Q E. cbn [dfs_events] in E.
  destruct P as [|e P]; [split; [done|by intros ?]|]. injection E as <- E. cbn [opens closes].
  assert (forall P Q, concat (map dfs_events ts) = P ++ Q -> closes P <= opens P) as Hc.
  { clear E P Q. induction IH as [|t ts Ht IHs IHt]; intros P Q E; simpl in E.
    - symmetry in E. apply app_eq_nil in E as [-> _]. done.
    - apply app_eq_app in E as [l [[E _]|[-> E]]].
      + by apply (Ht P l).
      + rewrite opens_app, closes_app. pose proof (IHt l Q E). pose proof (events_balance t). lia. }
  apply app_eq_app in E as [l [[E ->]|[-> E]]]; [pose proof (Hc _ _ E); split; intros; lia|].
  rewrite opens_app, closes_app. pose proof (events_balance (Rose x ts)) as Hb. cbn [dfs_events opens closes] in Hb. rewrite opens_app, closes_app in Hb. simpl in Hb.
    destruct l as [|e l]; [simpl; pose proof (Hc _ [] (eq_sym (app_nil_r _))); split; intros; lia|].
    injection E as <- E. symmetry in E. apply app_eq_nil in E as [-> ->]. simpl. split; [lia|]. intros _ F. by destruct F.
Qed.

Lemma grown_events {A} (m : A) k t t' : grown m k t t' -> exists L cs, dfs_events t = L ++ cs /\ length cs = S k /\ all_close cs /\ dfs_events t' = L ++ Open m :: Close m :: cs.
Proof.
  induction 1 as [x ts|k x ts t t' H (L & cs & E & Hl & Hc & E')].
  - exists (Open x :: concat (map dfs_events ts)), [Close x]. cbn [dfs_events]. rewrite map_app, concat_app. simpl. rewrite <-app_assoc. split; [done|]. split; [done|]. split; [repeat constructor; eauto|done].
  - exists (Open x :: concat (map dfs_events ts) ++ L), (cs ++ [Close x]). cbn [dfs_events]. rewrite !map_app, !concat_app. simpl. rewrite !app_nil_r, E, E'.
    rewrite <-!app_assoc. split; [done|]. split; [rewrite app_length; simpl; lia|]. split; [|by rewrite <-!app_comm_cons]. apply Forall_app. split; [done|]. repeat constructor. eauto.
Qed.

(** ** Reading one item *)
Lemma at_app x (l r : list (dft nid)) : l <> [] -> at_ x (l ++ r) = at_ x l.
Proof. by destruct l. Qed.
Lemma at_drop_app x j (l r : list (dft nid)) : j < length l -> at_ x (drop j (l ++ r)) = at_ x (drop j l).
Proof. intros H. rewrite drop_app_le by lia. apply at_app. intros E. apply (f_equal length) in E. rewrite drop_length in E. simpl in E. lia. Qed.

Section Read.
Context {T : Type}.
Implicit Types (h : heap T).

Lemma ser_open h K x t pre a l : rep h K -> wf K -> shape K x t -> dfs_events t = pre ++ Open a :: l ->
  exists o, reads h (EOpen a) o /\ ser_next h (at_ x (Open a :: l)) = Ret (Some o, at_ x l).
Proof.
  intros Hr Hw Hs E. unfold ser_next. rewrite (dfs_next_at h K x t pre _ Hr Hw Hs E). cbn [mbind run_bind head tail].
  destruct (try_borrow_spec h a) as (o & Eo & Ho).
  { apply (rep_dom h K Hr). apply (shape_events_dom K x t (Open a) Hw Hs). rewrite E. apply elem_of_app. right. left. }
  rewrite Eo. cbn [mbind run_bind]. exists (option_map EOpen o). split; [|done]. by destruct o.
Qed.

Lemma ser_close h K x t pre cs r : rep h K -> wf K -> shape K x t -> dfs_events t = pre ++ cs ++ r -> all_close cs -> cs <> [] ->
  match r with Close _ :: _ => False | _ => True end ->
  ser_next h (at_ x (cs ++ r)) = Ret (Some (Some (EClose (length cs))), at_ x r).
Proof.
  intros Hr Hw Hs E Hc Hne Hrr. pose proof (ser_next_at h K x t pre (cs ++ r) Hr Hw Hs E) as Hn.
  destruct cs as [|e cs]; [done|]. pose proof Hc as Hc'. inversion Hc' as [|? ? [a ->] Hcs]; subst.
  rewrite (group_closes (Close a :: cs) r Hc Hne Hrr) in Hn. clear Hn.
  unfold ser_next. rewrite (dfs_next_at h K x t pre _ Hr Hw Hs E). cbn [mbind run_bind head tail app].
  rewrite (close_run_at h K x t Hr Hw Hs cs r (pre ++ [Close a]) (walk_fuel h) 1); [done| |done|done|].
  - rewrite E. by rewrite <-app_assoc.
  - pose proof (nodes_length_le h K x t Hr Hw Hs) as HN. unfold walk_fuel.
    enough (length cs <= length (rose_nodes t)) by lia.
    pose proof (shape_events_nodup K x t Hw Hs) as Hn. rewrite E in Hn.
    assert (NoDup cs) as Hnc.
    { apply NoDup_app in Hn as (_ & _ & Hn). apply NoDup_app in Hn as (Hn & _). by apply NoDup_cons in Hn as [_ Hn]. }
    assert (cs = map Close (map ev_val cs)) as Ecs.
    { clear -Hcs. induction Hcs as [|e cs [b ->] Hc IH]; [done|]. simpl. by f_equal. }
    rewrite <-(map_length ev_val cs). apply submseteq_length, NoDup_submseteq.
    + rewrite Ecs in Hnc. by apply NoDup_fmap_1 in Hnc.
    + intros b Hb. apply (dfs_events_elem t (Close b)). rewrite E. apply elem_of_app. right. right. apply elem_of_app. left.
      rewrite Ecs. apply elem_of_list_fmap. eauto.
Qed.
End Read.
