(** * BuildFacts: the tree builder. *)
From Verif Require Import SerialSpec NavFacts SpecFacts RoseFacts EqFacts BracketFacts ApiFacts ApiFacts2 ApiFacts3 ApiFacts6 ApiFacts7 ApiFacts8 Spec.

(** ** A tree with the subtrees [ts0] put before the other children of the root *)
Definition full (ts0 : list (rose nid)) (t : rose nid) : rose nid := match t with Rose x us => Rose x (ts0 ++ us) end.
Lemma full_nil t : full [] t = t.
Proof. by destruct t. Qed.
Lemma full_nodes ts0 t y : y ∈ rose_nodes t -> y ∈ rose_nodes (full ts0 t).
Proof. destruct t as [x us]. simpl. rewrite map_app, concat_app, !elem_of_cons, elem_of_app. tauto. Qed.
Lemma full_rpath ts0 k t c : rpath k t c -> rpath k (full ts0 t) c.
Proof. intros H. destruct H; simpl; [constructor|]. rewrite app_assoc. by constructor. Qed.
Lemma full_rpath_inv ts0 k t c c' : rpath k t c -> rpath k (full ts0 t) c' -> rpath k t c'.
Proof. intros H H'. by rewrite (rpath_fun _ _ _ _ H' (full_rpath ts0 k t c H)). Qed.
Lemma rpath_pred {A} k (t : rose A) c : rpath (S k) t c -> exists p, rpath k t p.
Proof.
  revert t. induction k as [|k IH]; intros t H; [destruct t; eexists; constructor|].
  inversion H as [|k' x ts u v Hu]; subst. destruct (IH u Hu) as [p Hp]. exists p. by constructor.
Qed.
Lemma full_grown ts0 n k t c t1 : rpath k t c -> grown n k (full ts0 t) t1 -> exists t', t1 = full ts0 t' /\ grown n k t t'.
Proof.
  intros Hr Hg. destruct Hr as [x ts|k x ts t c Hr]; simpl in Hg.
  - inversion Hg; subst. exists (Rose x (ts ++ [Rose n []])). simpl. rewrite app_assoc. split; [done|constructor].
  - rewrite app_assoc in Hg. inversion Hg as [|k' x' ts' u u' Hu]; subst.
    match goal with E : _ ++ [_] = _ ++ [_] |- _ => apply app_inj_tail in E as [-> ->] end.
    exists (Rose x (ts ++ [u'])). simpl. rewrite app_assoc. split; [done|by constructor].
Qed.
Lemma full_root ts0 K x t : shape K x (full ts0 t) -> rose_root t = x.
Proof. destruct t. simpl. by inversion 1. Qed.

Section Build.
Context {T : Type} {ts0 : list (rose nid)} {b0 : lending}.
Implicit Types (s : sys T) (K : forest) (td : rose T).

(** [s] (forest [K]) is [s0] (forest [K0]) with the descendants in [t0] grown
    below the node [r], after its older children, the roots of [ts0]; [b0]: how the
    data of [r] is lent. *)
Record grew (hm : gmap nat handle) s0 K0 (r : nid) s K (t0 : rose nid) td : Prop := {
  g_reach : reach s;
  g_stores : stores s K;
  g_shape : shape K r (full ts0 t0);
  g_data : rose_rel (fun x d => payload s x = Some (d, if decide (x = r) then b0 else Lent 0)) t0 td;
  g_root : is_Some (K0 !! r);
  g_old : forall y, is_Some (K0 !! y) -> y <> r -> K !! y = K0 !! y;
  g_new : forall y, y ∈ rose_nodes t0 -> y = r \/ K0 !! y = None;
  g_all : forall y, is_Some (K !! y) -> is_Some (K0 !! y) \/ y ∈ rose_nodes t0;
  g_payload : forall y, is_Some (K0 !! y) -> payload s y = payload s0 y;
  g_tree : forall y, is_Some (K0 !! y) -> tree_of s y = tree_of s0 y;
  g_unk : forall y, y ∈ rose_nodes t0 -> y = r \/ forall j hd, hm !! j = Some hd -> hand_target hd <> y;
  g_trees : forall u : tid, is_Some (s_trees s !! u) <-> is_Some (s_trees s0 !! u);
}.

Lemma grew_alive hm s0 K0 r s K t0 td y : grew hm s0 K0 r s K t0 td -> is_Some (K0 !! y) -> is_Some (K !! y).
Proof.
  intros G Hy. destruct (decide (y = r)) as [->|Hn].
  - pose proof (g_shape _ _ _ _ _ _ _ _ G) as Hs. inversion Hs; subst. eauto.
  - rewrite (g_old _ _ _ _ _ _ _ _ G y Hy Hn). done.
Qed.
Lemma grew_node hm s0 K0 r s K t0 td y : grew hm s0 K0 r s K t0 td -> y ∈ rose_nodes t0 -> is_Some (K !! y).
Proof.
  intros G Hy. pose proof (g_shape _ _ _ _ _ _ _ _ G) as Hs. apply (full_nodes ts0), (shape_nodes K r _ y Hs) in Hy.
  eapply below_dom; [apply (g_stores _ _ _ _ _ _ _ _ G)| |exact Hy]. inversion Hs; subst. eauto.
Qed.

Lemma grew_view hm s0 K0 r s K t0 td s' : grew hm s0 K0 r s K t0 td -> same_view s s' -> reach s' -> grew hm s0 K0 r s' K t0 td.
Proof.
  intros G V R. constructor.
  - exact R.
  - apply (sv_stores _ _ V). exact (g_stores _ _ _ _ _ _ _ _ G).
  - exact (g_shape _ _ _ _ _ _ _ _ G).
  - eapply rose_rel_mono; [|exact (g_data _ _ _ _ _ _ _ _ G)]. intros a b H. by rewrite (sv_payload _ _ V).
  - exact (g_root _ _ _ _ _ _ _ _ G).
  - exact (g_old _ _ _ _ _ _ _ _ G).
  - exact (g_new _ _ _ _ _ _ _ _ G).
  - exact (g_all _ _ _ _ _ _ _ _ G).
  - intros y Hy. rewrite (sv_payload _ _ V). by apply (g_payload _ _ _ _ _ _ _ _ G).
  - intros y Hy. rewrite (sv_tree _ _ V). by apply (g_tree _ _ _ _ _ _ _ _ G).
  - exact (g_unk _ _ _ _ _ _ _ _ G).
  - intros u. rewrite <-(g_trees _ _ _ _ _ _ _ _ G u). pose proof (sv_trees _ _ V u) as H.
    destruct (s_trees s' !! u), (s_trees s !! u); simpl in H; try done; rewrite !is_Some_alt; done.
Qed.

Lemma rose_rel_mono_in {A B} (R R' : A -> B -> Prop) : forall t u, rose_rel R t u -> (forall a b, a ∈ rose_nodes t -> R a b -> R' a b) -> rose_rel R' t u.
Proof.
  induction t as [a ts IH] using rose_ind2. intros u H HR. inversion H as [? b ? us Hab Hf]; subst.
  constructor; [apply HR; [simpl; set_solver|done]|]. simpl in HR.
  assert (forall x b, x ∈ concat (map rose_nodes ts) -> R x b -> R' x b) as HR' by (intros x y Hx; apply HR; set_solver).
  clear -IH Hf HR'. induction Hf as [|t v ts us Htv Hf IHf]; [constructor|].
  apply Forall_cons in IH as [H1 H2]. simpl in HR'. constructor.
  - apply H1; [done|]. intros x b Hx. apply HR'. apply elem_of_app. by left.
  - apply IHf; [done|]. intros x b Hx. apply HR'. apply elem_of_app. by right.
Qed.

Lemma grew_create hm s0 K0 r s K t0 td k cur ks t n d kd i s' : grew hm s0 K0 r s K t0 td -> rpath k t0 cur -> K !! cur = Some ks ->
  (forall j hd, hm !! j = Some hd -> s_hands s !! j = Some hd) ->
  adds s s' (<[cur := ks ++ [n]]> (<[n := []]> K)) t n d kd i -> reach s' ->
  exists t0' td', grew hm s0 K0 r s' (<[cur := ks ++ [n]]> (<[n := []]> K)) t0' td' /\ grown n k t0 t0' /\ grown d k td td'.
Proof.
  intros G Hr Hk Hhm A R. set (K' := <[cur := ks ++ [n]]> (<[n := []]> K)) in *.
  destruct (g_stores _ _ _ _ _ _ _ _ G) as [Hrep Hw].
  assert (K !! n = None) as Hn.
  { destruct (K !! n) eqn:E; [|done]. assert (is_Some (s_nodes s !! n)) as [? ?]; [|rewrite (ad_new _ _ _ _ _ _ _ _ A) in *; done].
    apply (rep_dom _ _ Hrep). eauto. }
  destruct (shape_grown K k cur n ks r _ Hw (g_shape _ _ _ _ _ _ _ _ G) (full_rpath ts0 k t0 cur Hr) Hk Hn) as (t1' & Hg1 & Hs').
  destruct (full_grown ts0 n k t0 cur t1' Hr Hg1) as (t0' & -> & Hg).
  assert (forall y, is_Some (K !! y) -> payload s' y = payload s y) as Hp.
  { intros y Hy. apply (ad_payload_other _ _ _ _ _ _ _ _ A). intros ->. rewrite Hn in Hy. by destruct Hy. }
  assert (rose_rel (fun x d => payload s' x = Some (d, if decide (x = r) then b0 else Lent 0)) t0 td) as Hrel.
  { eapply rose_rel_mono_in; [exact (g_data _ _ _ _ _ _ _ _ G)|]. intros a b Ha Hab. rewrite Hp; [done|]. by eapply grew_node. }
  assert (payload s' n = Some (d, if decide (n = r) then b0 else Lent 0)) as Hdn.
  { rewrite decide_False; [exact (ad_data _ _ _ _ _ _ _ _ A)|]. intros ->.
    destruct (grew_alive _ _ _ _ _ _ _ _ r G (g_root _ _ _ _ _ _ _ _ G)). congruence. }
  destruct (grown_rel _ n d k t0 t0' td Hrel Hg Hdn) as (td' & Hgd & Hrel').
  exists t0', td'. split; [|done].
  assert (n <> cur) as Hnc by congruence.
  assert (forall y, y <> n -> y <> cur -> K' !! y = K !! y) as HK.
  { intros y H1 H2. unfold K'. rewrite lookup_insert_ne by done. by rewrite lookup_insert_ne. }
  constructor.
  - exact R.
  - exact (ad_stores _ _ _ _ _ _ _ _ A).
  - exact Hs'.
  - exact Hrel'.
  - exact (g_root _ _ _ _ _ _ _ _ G).
  - intros y Hy Hyr. rewrite <-(g_old _ _ _ _ _ _ _ _ G y Hy Hyr). apply HK.
    + intros ->. pose proof (grew_alive _ _ _ _ _ _ _ _ n G Hy) as [? ?]. congruence.
    + intros ->. destruct (g_new _ _ _ _ _ _ _ _ G cur (rpath_node _ _ _ Hr)) as [->|H]; [done|]. rewrite H in Hy. by destruct Hy.
  - intros y Hy. apply (grown_nodes n k t0 t0' Hg) in Hy as [->|Hy]; [|by apply (g_new _ _ _ _ _ _ _ _ G)].
    right. destruct (K0 !! n) eqn:E; [|done]. destruct (grew_alive _ _ _ _ _ _ _ _ n G ltac:(eauto)). congruence.
  - intros y Hy. destruct (decide (y = n)) as [->|H1]; [right; apply (grown_nodes n k t0 t0' Hg); by left|].
    assert (is_Some (K !! y)) as Hy'.
    { destruct (decide (y = cur)) as [->|H2]; [eauto|]. by rewrite <-HK. }
    destruct (g_all _ _ _ _ _ _ _ _ G y Hy') as [H|H]; [by left|right]. apply (grown_nodes n k t0 t0' Hg). by right.
  - intros y Hy. rewrite Hp by (by eapply grew_alive). by apply (g_payload _ _ _ _ _ _ _ _ G).
  - intros y Hy. rewrite (ad_tree_other _ _ _ _ _ _ _ _ A).
    + by apply (g_tree _ _ _ _ _ _ _ _ G).
    + intros ->. pose proof (grew_alive _ _ _ _ _ _ _ _ n G Hy) as [? ?]. congruence.
  - intros y Hy. apply (grown_nodes n k t0 t0' Hg) in Hy as [->|Hy]; [|by apply (g_unk _ _ _ _ _ _ _ _ G)].
    right. intros j hd Hj. apply (ad_unknown _ _ _ _ _ _ _ _ A j hd). by apply Hhm.
  - intros u. rewrite (ad_trees _ _ _ _ _ _ _ _ A). apply (g_trees _ _ _ _ _ _ _ _ G).
Qed.
End Build.
