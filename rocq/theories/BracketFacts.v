(** * BracketFacts: bracketed sequences determine trees; extending a tree along its
    rightmost path. *)
From Verif Require Import SerialSpec SpecFacts RoseFacts Spec.

Section Br.
Context {A : Type}.
Implicit Types (t u : rose A).

Lemma brackets_parse : forall t u l m, brackets t ++ l = brackets u ++ m -> t = u /\ l = m.
Proof.
  induction t as [a ts IH] using rose_ind2. intros [b us] l m. simpl. rewrite <-!app_assoc. simpl. intros H.
  injection H as -> H. enough (ts = us /\ l = m) as [-> ->] by done.
  revert us H. induction ts as [|t ts IHts]; intros us H.
  - destruct us as [|[c vs] us]; simpl in H; [|done]. by injection H as ->.
  - destruct us as [|u us]; simpl in H.
    { by destruct t. }
    rewrite <-!app_assoc in H. apply Forall_cons in IH as [IH1 IH2]. apply IH1 in H as [-> H].
    destruct (IHts IH2 us H) as [-> ->]. done.
Qed.

Lemma brackets_ne t : brackets t <> [].
Proof. by destruct t. Qed.

Lemma brackets_closes (l : list (option A)) k j t u : l ++ replicate k None = brackets t -> l ++ replicate j None = brackets u -> k = j /\ t = u.
Proof.
  intros H1 H2. destruct (decide (k <= j)) as [Hle|Hle].
  - replace j with (k + (j - k)) in H2 by lia. rewrite replicate_add, app_assoc, H1 in H2.
    rewrite <-(app_nil_r (brackets u)) in H2. apply brackets_parse in H2 as [-> H2]. destruct (j - k) eqn:E; [|done].
    split; [lia|done].
  - replace k with (j + (k - j)) in H1 by lia. rewrite replicate_add, app_assoc, H2 in H1.
    rewrite <-(app_nil_r (brackets t)) in H1. apply brackets_parse in H1 as [-> H1]. destruct (k - j) eqn:E; [lia|done].
Qed.

(** The node at depth [k] of the rightmost path. *)
Inductive rpath : nat -> rose A -> A -> Prop :=
| rpath_0 x ts : rpath 0 (Rose x ts) x
| rpath_S k x ts t c : rpath k t c -> rpath (S k) (Rose x (ts ++ [t])) c.
(** [t'] is [t] with a new last child [n] of that node. *)
Inductive grown (n : A) : nat -> rose A -> rose A -> Prop :=
| grown_0 x ts : grown n 0 (Rose x ts) (Rose x (ts ++ [Rose n []]))
| grown_S k x ts t t' : grown n k t t' -> grown n (S k) (Rose x (ts ++ [t])) (Rose x (ts ++ [t'])).

Lemma snoc_inj {B} (l m : list B) a b : l ++ [a] = m ++ [b] -> l = m /\ a = b.
Proof. apply app_inj_tail. Qed.

Lemma grown_brackets n k t t' : grown n k t t' -> forall l, l ++ replicate (S k) None = brackets t ->
  (l ++ [Some n]) ++ replicate (S (S k)) None = brackets t'.
Proof.
  induction 1 as [x ts|k x ts t t' H IH]; intros l E.
  - simpl in *. rewrite map_app, concat_app. simpl. rewrite <-!app_assoc. simpl.
    rewrite app_comm_cons in E. apply snoc_inj in E as [-> _]. done.
  - replace (S (S k)) with (S k + 1) in E by lia. rewrite replicate_add, app_assoc in E. simpl in E. rewrite app_comm_cons in E.
    apply (snoc_inj _ _ None None) in E as [E _]. rewrite map_app, concat_app in E. simpl in E. rewrite app_nil_r in E.
    replace (S (S (S k))) with (S (S k) + 1) by lia. rewrite replicate_add, app_assoc.
    change (replicate (A := option A) 1 None) with [None : option A].
    simpl. rewrite map_app, concat_app. simpl. rewrite app_nil_r. rewrite app_comm_cons. f_equal.
    (* peel the front *)
    assert (exists l1, l = (Some x :: concat (map brackets ts)) ++ l1 /\ l1 ++ replicate (S k) None = brackets t) as (l1 & -> & E1).
    { change (l ++ replicate (S k) None = (Some x :: concat (map brackets ts)) ++ brackets t) in E.
      assert (exists l2, brackets t = l2 ++ replicate (S k) None) as [l2 E2].
      { clear -H. induction H as [y us|j y us v v' Hv [l2 IH]].
        - exists (Some y :: concat (map brackets us)). done.
        - simpl. rewrite map_app, concat_app. simpl. rewrite app_nil_r, IH. exists (Some y :: concat (map brackets us) ++ l2).
          rewrite <-!app_assoc, <-app_comm_cons, <-!app_assoc. do 3 f_equal.
          change ((replicate (S j) (None : option A)) ++ replicate 1 None = replicate 1 None ++ replicate (S j) None).
          rewrite <-!replicate_add. f_equal. lia. }
      rewrite E2, app_assoc in E. apply app_inv_tail in E. exists l2. by split. }
    specialize (IH l1 E1). rewrite <-IH. rewrite <-!app_assoc. simpl. done.
Qed.
Lemma grown_rpath n k t t' : grown n k t t' -> rpath (S k) t' n.
Proof. induction 1; repeat constructor; done. Qed.
Lemma rpath_grows n k t c : rpath k t c -> exists t', grown n k t t'.
Proof. induction 1 as [|k x ts t c H [t' IH]]; eexists; constructor; done. Qed.
Lemma rpath_S_inv k x ts t c : rpath (S k) (Rose x (ts ++ [t])) c -> rpath k t c.
Proof.
  intros H. inversion H; subst. match goal with E : _ ++ [_] = _ ++ [_] |- _ => apply snoc_inj in E as [-> ->] end. done.
Qed.
Lemma grown_rpath_old n k t t' c j : grown n k t t' -> j <= k -> rpath j t c -> rpath j t' c.
Proof.
  intros H. revert j. induction H as [x ts|k x ts t t' H IH]; intros j Hj Hr.
  - assert (j = 0) as -> by lia. inversion Hr; subst. constructor.
  - destruct j as [|j]; [inversion Hr; subst; constructor|]. apply rpath_S_inv in Hr.
    constructor. apply IH; [lia|done].
Qed.
Lemma rpath_node k t c : rpath k t c -> c ∈ rose_nodes t.
Proof.
  induction 1; simpl; [set_solver|]. rewrite map_app, concat_app. simpl. set_solver.
Qed.
Lemma rpath_fun k t c c' : rpath k t c -> rpath k t c' -> c = c'.
Proof.
  intros H. revert c'. induction H as [x ts|k x ts t c H IH]; intros c' H'; [by inversion H'|].
  apply rpath_S_inv in H'. by apply IH.
Qed.
End Br.

Lemma grown_rel {A B} (R : A -> B -> Prop) a b k t t' u : rose_rel R t u -> grown a k t t' -> R a b ->
  exists u', grown b k u u' /\ rose_rel R t' u'.
Proof.
  intros Hr Hg Hab. revert u Hr. induction Hg as [x ts|k x ts t t' H IH]; intros u Hr; inversion Hr as [? y ? us Hxy Hf]; subst.
  - exists (Rose y (us ++ [Rose b []])). split; [constructor|]. constructor; [done|]. apply Forall2_app; [done|].
    constructor; [|constructor]. constructor; [done|constructor].
  - apply Forall2_app_inv_l in Hf as (us1 & us2 & H1 & H2 & ->). apply Forall2_cons_inv_l in H2 as (v & vs & H2 & H3 & ->).
    apply Forall2_nil_inv_l in H3 as ->. destruct (IH v H2) as (v' & Hv1 & Hv2). exists (Rose y (us1 ++ [v'])).
    split; [by constructor|]. constructor; [done|]. apply Forall2_app; [done|]. by repeat constructor.
Qed.
Lemma rpath_rel {A B} (R : A -> B -> Prop) k t u c : rose_rel R t u -> rpath k t c -> exists d, rpath k u d.
Proof.
  intros Hr H. revert u Hr. induction H as [x ts|k x ts t c H IH]; intros u Hr; inversion Hr as [? y ? us Hxy Hf]; subst.
  - exists y. constructor.
  - apply Forall2_app_inv_l in Hf as (us1 & us2 & H1 & H2 & ->). apply Forall2_cons_inv_l in H2 as (v & vs & H2 & H3 & ->).
    apply Forall2_nil_inv_l in H3 as ->. destruct (IH v H2) as (d & Hd). exists d. by constructor.
Qed.

(** ** On stored forests *)
Lemma rpath_parent K k : forall x t c, shape K x t -> rpath (S k) t c -> exists p, rpath k t p /\ child_of K p c.
Proof.
  induction k as [|k IH]; intros x t c Hs Hr; inversion Hs as [? ts Hk Hf]; subst; inversion Hr as [|? ? us v ? Hv]; subst.
  - exists x. split; [constructor|]. exists (map rose_root (us ++ [v])). split; [done|]. rewrite map_app. simpl.
    inversion Hv; subst. simpl. set_solver.
  - apply Forall_app in Hf as [_ Hf]. apply Forall_cons in Hf as [Hf _]. destruct (IH _ _ _ Hf Hv) as (p & H1 & H2).
    exists p. split; [by constructor|done].
Qed.
Lemma rpath_not_root K k x t c : wf K -> shape K x t -> rpath (S k) t c -> c <> x.
Proof.
  intros Hw Hs Hr ->. pose proof (shape_nodup K x t Hw Hs) as Hn. inversion Hs as [? ts Hk Hf]; subst.
  inversion Hr as [|? ? us v ? Hv]; subst. simpl in Hn. apply NoDup_cons in Hn as [Hn _]. apply Hn.
  rewrite map_app, concat_app. simpl. apply rpath_node in Hv. set_solver.
Qed.

Lemma shape_grown K k c n ks : forall x t, wf K -> shape K x t -> rpath k t c -> K !! c = Some ks -> K !! n = None ->
  exists t', grown n k t t' /\ shape (<[c := ks ++ [n]]> (<[n := []]> K)) x t'.
Proof.
  set (K' := <[c := ks ++ [n]]> (<[n := []]> K)).
  intros x t Hw Hs Hr Hc Hn.
  assert (n <> c) as Hnc by congruence.
  assert (forall z tz, shape K z tz -> c ∉ rose_nodes tz -> shape K' z tz) as Hframe.
  { intros z tz Hz Hcz. revert z Hz Hcz. induction tz as [z0 ts IH] using rose_ind2. intros z Hz Hcz.
    inversion Hz as [? ? Hk Hf]; subst. simpl in Hcz. apply not_elem_of_cons in Hcz as [Hcz1 Hcz2]. constructor.
    - unfold K'. rewrite lookup_insert_ne by congruence. rewrite lookup_insert_ne; [done|]. intros ->. congruence.
    - rewrite Forall_forall in *. intros t0 Ht0. apply IH; [done|by apply Hf|]. intros Hin. apply Hcz2.
      apply elem_of_concat_map. eauto. }
  revert x t Hs Hr. induction k as [|k IH]; intros x t Hs Hr; inversion Hs as [? ts Hk Hf]; subst.
  - inversion Hr; subst. exists (Rose c (ts ++ [Rose n []])). split; [constructor|].
    pose proof (shape_nodup K _ _ Hw Hs) as Hnd. simpl in Hnd. apply NoDup_cons in Hnd as [Hnd _].
    assert (ks = map rose_root ts) as -> by congruence. constructor.
    + unfold K'. rewrite lookup_insert, map_app. done.
    + apply Forall_app. split.
      * rewrite Forall_forall in *. intros t0 Ht0. apply Hframe; [by apply Hf|]. intros Hin. apply Hnd.
        apply elem_of_concat_map. eauto.
      * constructor; [|constructor]. simpl. constructor; [|constructor]. unfold K'.
        rewrite lookup_insert_ne by congruence. by rewrite lookup_insert.
  - inversion Hr as [|? ? us v ? Hv]; subst.
    pose proof (shape_nodup K _ _ Hw Hs) as Hnd. pose proof (rpath_not_root K k x _ c Hw Hs Hr) as Hcx.
    pose proof (rpath_node _ _ _ Hv) as Hcv.
    apply Forall_app in Hf as [Hf1 Hf2]. apply Forall_cons in Hf2 as [Hf2 _].
    destruct (IH _ _ Hf2 Hv) as (v' & Hg & Hv'). exists (Rose x (us ++ [v'])). split; [by constructor|].
    assert (rose_root v' = rose_root v) as Hrt by (by destruct Hg). constructor.
    + unfold K'. rewrite lookup_insert_ne by done. rewrite lookup_insert_ne by congruence. rewrite Hk, !map_app. simpl. by rewrite Hrt.
    + apply Forall_app. split.
      * rewrite Forall_forall in *. intros t0 Ht0. apply Hframe; [by apply Hf1|].
        simpl in Hnd. apply NoDup_cons in Hnd as [_ Hnd]. rewrite map_app, concat_app in Hnd. simpl in Hnd. rewrite app_nil_r in Hnd.
        apply NoDup_app in Hnd as (_ & Hnd & _). intros Hin. apply (Hnd c); [|done]. apply elem_of_concat_map. eauto.
      * constructor; [|constructor]. by rewrite Hrt.
Qed.
Lemma grown_nodes {A} (n : A) k t t' : grown n k t t' -> forall y, y ∈ rose_nodes t' <-> y = n \/ y ∈ rose_nodes t.
Proof.
  induction 1 as [x ts|k x ts t t' H IH]; intros y; simpl; rewrite !map_app, !concat_app; simpl.
  - set_solver.
  - rewrite !app_nil_r, !elem_of_cons, !elem_of_app, IH. tauto.
Qed.
