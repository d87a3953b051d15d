(** * GraftFacts3: giving away a whole tree that nothing but node handles keeps: the old tree core dies in the middle. *)
From Verif Require Import Heap Edit System SysSpec CardFacts HeapFacts SpecFacts NavFacts NavFacts2 EditFacts EditFacts2 EditFacts3 EditFacts4 EditFacts5 IterSpec RoseFacts AdjFacts TravFacts TdFacts TdFacts2 SysFacts SysFacts2 SysFacts3 SysFacts4 SysFacts5 SysFacts6 SysFacts7 SysFacts8 SysFacts9 SysFacts10 SysFacts11 SysFacts12 SysFacts13 SysFacts14 SysFacts15 GraftFacts TearFacts ApiSpec Spec.

Section Graft.
Context {T : Type}.
Implicit Types (h : heap T) (s : sys T) (hm : gmap nat handle) (K : forest).

Section Events.
Variables (h : heap T) (K : forest) (x : nid) (ro : rose nid).
Hypothesis (Hrep : rep h K) (Hwf : wf K) (Hsh : shape K x ro).

Lemma ev_step pre e b rest : dfs_events ro = pre ++ e :: b :: rest -> dft_next h e = Some b.
Proof.
  intros Hev. pose proof (shape_adj _ _ _ _ Hrep Hwf Hsh) as Hadj. rewrite Hev in Hadj. rewrite adj_app in Hadj. destruct Hadj as (_ & Hadj & _).
  rewrite adj_cons in Hadj. destruct Hadj as [Hadj _]. destruct (Hadj b eq_refl) as [Hnext _]. by rewrite dft_next_g.
Qed.
Lemma ev_not_last pre e rest : dfs_events ro = pre ++ e :: rest -> e <> Close x -> exists b rest', rest = b :: rest'.
Proof.
  intros Hev He. destruct rest as [|b rest]; [|by eauto]. exfalso. apply He.
  pose proof (last_events ro) as X. rewrite Hev in X. rewrite last_snoc in X. rewrite (shape_root _ _ _ Hsh) in X. congruence.
Qed.
Lemma ev_in pre e rest : dfs_events ro = pre ++ e :: rest -> below K x (ev_val e).
Proof. intros Hev. apply (shape_nodes _ _ _ _ Hsh), dfs_events_elem. rewrite Hev. apply elem_of_app. right. by left. Qed.

Lemma ev_nest n : forall pre rest v, length rest <= n ->
  (dfs_events ro = pre ++ Open v :: rest -> Close v ∈ rest) /\
  (forall p, dfs_events ro = pre ++ Close v :: rest -> child_of K p v -> v <> x -> Close p ∈ rest).
Proof.
  induction n as [|n IH]; intros pre rest v Hn.
  - destruct rest; [|simpl in Hn; lia]. split.
    + intros Hev. destruct (ev_not_last _ _ _ Hev) as (? & ? & ?); [done|done].
    + intros p Hev _ Hx. destruct (ev_not_last _ _ _ Hev) as (? & ? & ?); [congruence|done].
  - assert (forall pre' rest' c p, dfs_events ro = pre' ++ Open c :: rest' -> length rest' <= n -> child_of K p c -> c <> x -> Close p ∈ rest') as Hsub.
    { intros pre' rest' c p Hev Hl Hc Hcx. destruct (IH pre' rest' c Hl) as [H1 _]. specialize (H1 Hev).
      apply elem_of_list_split in H1 as (r1 & r2 & ->). rewrite app_length in Hl. simpl in Hl.
      apply elem_of_app. right. right.
      destruct (IH (pre' ++ Open c :: r1) r2 c) as [_ H2]; [lia|]. eapply H2; [|exact Hc|exact Hcx]. rewrite Hev. by rewrite <-app_assoc. }
    split.
    + intros Hev. destruct (ev_not_last _ _ _ Hev) as (b & rest' & ->); [done|].
      pose proof (ev_step _ _ _ _ Hev) as Hnx. simpl in Hnx. unfold first_child_link in Hnx. destruct (ffirst h v) as [c|] eqn:Ef.
      * injection Hnx as <-. right. simpl in Hn.
        assert (child_of K v c) as Hc.
        { assert (is_Some (K !! v)) as [ks Hk]. { apply (rep_dom _ _ Hrep). unfold ffirst in Ef. destruct (h !! v); [eauto|done]. }
          rewrite (rep_first _ _ Hrep _ _ Hk) in Ef. exists ks. split; [done|]. destruct ks; [done|]. injection Ef as ->. by left. }
        eapply (Hsub (pre ++ [Open v]) rest' c v); [by rewrite Hev, <-app_assoc|lia|exact Hc|].
        intros ->. pose proof (ev_in _ _ _ Hev) as Hb. simpl in Hb. by eapply (no_cycle K v x).
      * injection Hnx as <-. by left.
    + intros p Hev Hc Hx. destruct (ev_not_last _ _ _ Hev) as (b & rest' & ->); [congruence|].
      pose proof (ev_step _ _ _ _ Hev) as Hnx. simpl in Hnx. rewrite (parent_link_child _ _ _ _ Hrep Hc) in Hnx. unfold next_sibling_link in Hnx.
      destruct (fnext h v) as [w|] eqn:Ef.
      * injection Hnx as <-. right. simpl in Hn.
        assert (child_of K p w) as Hcw.
        { destruct Hc as (ks & Hk & Hin). apply elem_of_list_lookup in Hin as [i Hi]. destruct (rep_linked _ _ Hrep _ _ Hk i v Hi) as (_ & E & _).
          rewrite Ef in E. exists ks. split; [done|]. by eapply elem_of_list_lookup_2. }
        eapply (Hsub (pre ++ [Close v]) rest' w p); [by rewrite Hev, <-app_assoc|lia|exact Hcw|].
        intros ->. pose proof (ev_in _ _ _ Hev) as Hb. simpl in Hb. inversion Hb as [|q c Hbq Hcq]; subst; [done|].
        rewrite (wf_uniq _ Hwf _ _ _ Hcq Hc) in Hbq. by eapply (no_cycle K p x).
      * injection Hnx as <-. by left.
Qed.
Lemma ev_open_close pre rest v : dfs_events ro = pre ++ Open v :: rest -> Close v ∈ rest.
Proof. apply (ev_nest (length rest)). done. Qed.
Lemma ev_close_close pre rest v p : dfs_events ro = pre ++ Close v :: rest -> child_of K p v -> v <> x -> Close p ∈ rest.
Proof. intros Hev Hc Hx. eapply (proj2 (ev_nest (length rest) pre rest v ltac:(done)) p); done. Qed.
End Events.

Section Lost.
Variables (s0 : sys T) (K : forest) (x : nid) (ro : rose nid) (t0 t' : tid).
Hypothesis (Hrep : rep (s_nodes s0) K) (Hwf : wf K) (Htop : is_top K x) (Hsh : shape K x ro) (Hne : t0 <> t').
Hypothesis (Hhand : exists i k, s_hands s0 !! i = Some (HNode k x)).
Hypothesis (Hno : forall i, s_hands s0 !! i <> Some (HTree t0)).
Hypothesis (Htr : exists tr, s_trees s0 !! t0 = Some tr /\ t_root tr = x).
Hypothesis (Hall : forall z, is_Some (s_nodes s0 !! z) -> tree_of s0 z = Some t0 -> z ∈ rose_nodes ro).
Hypothesis (Hroots : forall (u : tid) tr, s_trees s0 !! u = Some tr -> u <> t0 -> t_root tr ∉ rose_nodes ro).
Notation gm := (gm s0 ro t0 t').

Definition handed (v : nid) : Prop := exists i k, s_hands s0 !! i = Some (HNode k v).

(** What is left after the old tree core died: outside the tree nothing changed; of the tree, the nodes with
    handles (and those of [X]) are left, without children and following siblings. *)
Record wrecked s (X : list nid) : Prop := {
  w_hands : s_hands s = s_hands s0;
  w_fresh : s_fresh s = s_fresh s0;
  w_t0 : s_trees s !! t0 = None;
  w_roots : forall u : tid, u <> t0 -> t_root <$> s_trees s !! u = t_root <$> s_trees s0 !! u;
  w_out : forall y, y ∉ rose_nodes ro -> s_nodes s !! y = s_nodes s0 !! y;
  w_gone : forall y, y ∈ rose_nodes ro -> ~ handed y -> y ∉ X -> s_nodes s !! y = None;
  w_kept : forall y, y ∈ rose_nodes ro -> handed y \/ y ∈ X ->
    links <$> s_nodes s !! y = (fun nd => links (bare nd)) <$> s_nodes s0 !! y;
  w_weak : forall y, y ∈ rose_nodes ro -> ~ handed y -> y ∈ X -> exists o, n_memb s y = Some (MWeak o);
  w_tree : forall y, y ∈ rose_nodes ro -> handed y -> tree_of s y = Some t';
}.

Lemma gm_handed s D y : gm s D -> y ∈ rose_nodes ro -> (handed y <-> exists t rc lk, n_memb s y = Some (MStrong t rc lk)).
Proof.
  intros M Hy. pose proof (g_in _ _ _ _ _ _ M y Hy) as Ht. pose proof (g_hinv _ _ _ _ _ _ M) as Hh. rewrite (g_hands _ _ _ _ _ _ M) in Hh. split.
  - intros (i & k & Hi). unfold tree_of in Ht. destruct (n_memb s y) as [[o|t rc lk]|] eqn:Em; [|eauto|done].
    destruct (h_weak _ _ Hh y o Em) as [_ F]. exfalso. apply (F i). by exists k.
  - intros (t & rc & lk & Hm). destruct (h_strong _ _ Hh _ _ _ _ Hm) as (_ & Hp & (l & _ & Hl & Hlen) & _).
    destruct l as [|i l]; [simpl in Hlen; lia|]. destruct (proj1 (Hl i) ltac:(by left)) as [k Hi]. by exists i, k.
Qed.
Lemma handed_dec y : handed y \/ ~ handed y.
Proof.
  destruct (existsb (fun kv : nat * handle => hand_on y kv.2) (map_to_list (s_hands s0))) eqn:E.
  - left. apply existsb_map_true in E as (i & hd & Hi & Hh). destruct hd as [k z|?|?|?|?|?]; try done. apply bool_decide_eq_true in Hh as ->. by exists i, k.
  - right. intros (i & k & Hi). rewrite existsb_map_false in E. specialize (E i _ Hi). simpl in E. by apply bool_decide_eq_false in E.
Qed.
Lemma gm_weak s D y : gm s D -> y ∈ rose_nodes ro -> ~ handed y -> exists o, n_memb s y = Some (MWeak o).
Proof.
  intros M Hy Hn. rewrite (gm_handed s D y M Hy) in Hn. pose proof (g_in _ _ _ _ _ _ M y Hy) as Ht. unfold tree_of in Ht.
  destruct (n_memb s y) as [[o|t rc lk]|] eqn:Em; [eauto| |done]. exfalso. apply Hn. eauto.
Qed.

(** Some handed node has not changed trees yet. *)
Definition pending (D : list nid) : Prop := exists y, y ∈ rose_nodes ro /\ handed y /\ y ∉ D.
Lemma list_some (l : list nid) (P : nid -> Prop) : (forall y, y ∈ l -> P y \/ ~ P y) -> (exists y, y ∈ l /\ P y) \/ (forall y, y ∈ l -> ~ P y).
Proof.
  induction l as [|a l IH]; intros H; [right; intros y Hy; by apply elem_of_nil in Hy|].
  destruct (H a) as [Ha|Ha]; [by left|left; exists a; split; [by left|done]|].
  destruct IH as [(y & Hy & Hp)|Hr]; [intros y Hy; apply H; by right|left; exists y; split; [by right|done]|].
  right. intros y [->|Hy]%elem_of_cons; [done|by apply Hr].
Qed.
Lemma pending_dec D : pending D \/ ~ pending D.
Proof.
  destruct (list_some (rose_nodes ro) (fun y => handed y /\ y ∉ D)) as [(y & Hy & A & B)|F].
  - intros y Hy. destruct (handed_dec y) as [H|H]; [|right; by intros [? _]].
    destruct (decide (y ∈ D)); [right; by intros [_ ?]|by left].
  - left. by exists y.
  - right. intros (y & Hy & A & B). by apply (F y Hy).
Qed.
Lemma pending_ext D D' : (forall y, y ∈ D <-> y ∈ D') -> pending D -> pending D'.
Proof. intros H (y & A & B & C). exists y. split; [done|]. split; [done|]. by rewrite <-H. Qed.

Lemma gm_ref s D : gm s D -> (tree_referenced s [t'] t0 = true <-> pending D).
Proof.
  intros M. rewrite tree_referenced_iff. split.
  - intros [Hin|[[i Hi]|(z & rc & lk & Hm)]].
    + apply elem_of_list_singleton in Hin. done.
    + rewrite (g_hands _ _ _ _ _ _ M) in Hi. by apply Hno in Hi.
    + assert (z ∈ rose_nodes ro) as Hz.
      { destruct (decide (z ∈ rose_nodes ro)) as [|Hz]; [done|]. rewrite (g_out _ _ _ _ _ _ M z Hz) in Hm.
        apply Hall; [|unfold tree_of; by rewrite Hm]. unfold n_memb in Hm. destruct (s_nodes s0 !! z); [eauto|done]. }
      exists z. split; [done|]. split; [apply (gm_handed s D z M Hz); eauto|]. intros HD.
      pose proof (g_in _ _ _ _ _ _ M z Hz) as Ht. rewrite decide_True in Ht by done. unfold tree_of in Ht. rewrite Hm in Ht. congruence.
  - intros (y & Hy & Hh & HD). right. right. exists y. apply (gm_handed s D y M Hy) in Hh as (t & rc & lk & Hm).
    pose proof (g_in _ _ _ _ _ _ M y Hy) as Ht. rewrite decide_False in Ht by done. unfold tree_of in Ht. rewrite Hm in Ht. injection Ht as ->. eauto.
Qed.

(** ** The way out *)
Lemma w_fields s X y : wrecked s X -> y ∈ rose_nodes ro -> handed y \/ y ∈ X ->
  fnext (s_nodes s) y = None /\ ffirst (s_nodes s) y = None /\ fparent (s_nodes s) y = fparent (s_nodes s0) y /\ is_Some (s_nodes s !! y).
Proof.
  intros W Hy Hk. pose proof (w_kept _ _ W y Hy Hk) as E. unfold fnext, ffirst, fparent.
  assert (is_Some (s_nodes s0 !! y)) as [nd0 E0].
  { apply (rep_dom _ _ Hrep). apply (shape_nodes _ _ _ _ Hsh) in Hy. exact (below_alive K x y Hwf (proj1 Htop) Hy). }
  rewrite E0 in E |- *. destruct (s_nodes s !! y) as [nd|]; [|discriminate E]. simpl in E. unfold links in E. simpl in E. injection E as _ _ E1 E2 E3 _ _.
  simpl. rewrite E1, E2, E3. eauto.
Qed.
Lemma w_ext s X X' : wrecked s X -> (forall y, y ∈ rose_nodes ro -> handed y \/ y ∈ X <-> handed y \/ y ∈ X') -> wrecked s X'.
Proof.
  intros [A1 A2 A3 A4 A5 A6 A7 A8 A9] H. split; try assumption.
  - intros y Hy Hh HX. apply A6; [done|done|]. intros F. destruct (proj1 (H y Hy) (or_intror F)); done.
  - intros y Hy HX. apply A7; [done|]. by apply H.
  - intros y Hy Hh HX. apply A8; [done|done|]. by destruct (proj2 (H y Hy) (or_intror HX)).
Qed.

Lemma w_release s X pins v : wrecked s X -> handed v -> release_all s pins v = Ret s.
Proof. intros W Hv. apply release_noop, referenced_true. right. left. rewrite (w_hands _ _ W). exact Hv. Qed.

Lemma below_parent v : v ∈ rose_nodes ro -> v <> x -> exists p, child_of K p v /\ p ∈ rose_nodes ro.
Proof.
  intros Hv Hx. apply (shape_nodes _ _ _ _ Hsh) in Hv. inversion Hv as [|p c Hb Hc]; subst; [done|]. exists p. split; [done|]. by apply (shape_nodes _ _ _ _ Hsh).
Qed.

Lemma climb n : forall pre rest v s fuel, length rest <= n -> dfs_events ro = pre ++ Close v :: rest -> length rest < fuel ->
  wrecked s [] -> handed v -> set_memberships fuel s [t'] (Some (Close v, x)) t' = Ret (Some s).
Proof.
  induction n as [|n IH]; intros pre rest v s fuel Hn Hev Hf W Hv; (destruct fuel as [|fuel]; [lia|]);
    (destruct (decide (v = x)) as [->|Hvx]; [simpl; by rewrite decide_True by done|]).
  - destruct (ev_not_last K x ro Hsh _ _ _ Hev) as (? & ? & ->); [congruence|]. simpl in Hn. lia.
  - assert (v ∈ rose_nodes ro) as Hvr. { apply (shape_nodes _ _ _ _ Hsh). exact (ev_in K x ro Hsh _ _ _ Hev). }
    destruct (below_parent v Hvr Hvx) as (p & Hc & Hp).
    destruct (w_fields s [] v W Hvr (or_introl Hv)) as (E1 & _ & E3 & _).
    rewrite (fparent_child _ _ _ _ Hrep Hc) in E3.
    pose proof (w_release s [] (ev_pin (Some (Close p))) v W Hv) as R1. pose proof (w_release s [] [] v W Hv) as R2.
    cbn [set_memberships]. unfold link_dfs_next. rewrite decide_False by congruence.
    cbn [mbind run_bind dft_next]. unfold next_sibling_link, parent_link. rewrite E1, E3. unfold upgrade.
    destruct (alive (s_nodes s) p) eqn:Ea.
    + cbn [ev_pin ev_val] in R1. cbn [mbind run_bind option_map fst ev_pin ev_val]. rewrite R1. cbn [mbind run_bind].
      pose proof (ev_close_close _ K x ro Hrep Hwf Hsh _ _ _ _ Hev Hc Hvx) as Hin.
      apply elem_of_list_split in Hin as (r1 & r2 & ->). rewrite app_length in Hn, Hf. simpl in Hn, Hf.
      apply (IH (pre ++ Close v :: r1) r2 p); [lia| |lia|exact W|].
      * rewrite Hev. by rewrite <-app_assoc.
      * apply alive_spec in Ea. destruct (handed_dec p) as [|Hd]; [done|].
        rewrite (w_gone _ _ W p Hp Hd ltac:(apply not_elem_of_nil)) in Ea. by destruct Ea.
    + cbn [mbind run_bind option_map fst ev_pin ev_val]. rewrite R2. cbn [mbind run_bind]. by destruct fuel.
Qed.

Definition handed_list : list nid :=
  filter (fun y => existsb (fun kv : nat * handle => hand_on y kv.2) (map_to_list (s_hands s0)) = true) (rose_nodes ro).
Lemma handed_list_ok y : y ∈ handed_list <-> y ∈ rose_nodes ro /\ handed y.
Proof.
  unfold handed_list. rewrite elem_of_list_filter, existsb_map_true. split.
  - intros [(i & hd & Hi & Hh) Hy]. split; [done|]. destruct hd as [k z|?|?|?|?|?]; try done. apply bool_decide_eq_true in Hh as ->. by exists i, k.
  - intros [Hy (i & k & Hi)]. split; [|done]. exists i, (HNode k y). split; [done|]. simpl. by apply bool_decide_eq_true.
Qed.

Lemma memonly_node h h' y : links <$> h' !! y = links <$> h !! y -> n_mem <$> h' !! y = n_mem <$> h !! y -> h' !! y = h !! y.
Proof.
  destruct (h' !! y) as [[a1 a2 a3 a4 a5 a6 a7 a8]|], (h !! y) as [[b1 b2 b3 b4 b5 b6 b7 b8]|]; simpl; try done.
  unfold links. simpl. intros [= -> -> -> -> -> -> ->] [= ->]. done.
Qed.
Lemma n_memb_mem s y : n_memb s y = n_mem <$> s_nodes s !! y.
Proof. unfold n_memb. by destruct (s_nodes s !! y). Qed.

(** The tree core dies: [y], which had the last strong membership, and [b] are still held by the loop. *)
Lemma tear_here s1 D y b : gm s1 D -> ~ pending D -> handed y -> b ∈ rose_nodes ro ->
  exists s2, drop_tree_if_dead [y; b] [t'] s1 t0 = Ret s2 /\ wrecked s2 [b].
Proof.
  intros M Hnp Hy Hb. pose proof (gm_rep _ _ _ _ _ Hrep _ _ M) as R1.
  destruct Htr as (tr & Htr0 & Hroot).
  assert (exists tr1, s_trees s1 !! t0 = Some tr1 /\ t_root tr1 = x) as (tr1 & Htr1 & Hrt1).
  { pose proof (g_root _ _ _ _ _ _ M t0) as E. rewrite Htr0 in E. destruct (s_trees s1 !! t0) as [tr1|]; [|done]. injection E as E. exists tr1. split; [done|congruence]. }
  assert (x ∈ rose_nodes ro) as Hxr by (apply (shape_nodes _ _ _ _ Hsh); constructor).
  destruct (tear_tree s1 K x t0 tr1 [y; b] [t'] (b :: handed_list) R1 Hwf Htop Htr1 Hrt1) as (h' & E & F1 & F2 & F3).
  - intros v [->|Hv]%elem_of_cons; [left; by right; left|]. apply handed_list_ok in Hv as [_ Hv]. right. rewrite (g_hands _ _ _ _ _ _ M). exact Hv.
  - intros z Hz HzL. apply (shape_nodes _ _ _ _ Hsh) in Hz.
    assert (z <> b) as Hzb by (intros ->; apply HzL; by left).
    assert (~ handed z) as Hzh. { intros X. apply HzL. right. by apply handed_list_ok. }
    split; [|split].
    + intros [->|[->|F%elem_of_nil]%elem_of_cons]%elem_of_cons; done.
    + split.
      * rewrite (g_hands _ _ _ _ _ _ M). intros i k Hi. apply Hzh. by exists i, k.
      * intros t tr2 Ht Er. pose proof (g_root _ _ _ _ _ _ M t) as Eq. rewrite Ht in Eq. destruct (s_trees s0 !! t) as [tr3|] eqn:E3; [|done].
        injection Eq as Eq. destruct (decide (t = t0)) as [->|Htt].
        -- rewrite Htr0 in E3. injection E3 as <-. apply Hzh. rewrite <-Er, Eq, Hroot. exact Hhand.
        -- apply (Hroots t tr3 E3 Htt). by rewrite <-Eq, Er.
    + destruct (gm_weak s1 D z M Hz Hzh) as [o Hm]. rewrite n_memb_mem in Hm. unfold weak_node. destruct (s_nodes s1 !! z) as [nd|]; [|done].
      injection Hm as Hm. eauto.
  - right. by apply handed_list_ok.
  - destruct (tree_referenced s1 [t'] t0) eqn:Er; [|done]. exfalso. by apply Hnp, (gm_ref s1 D M).
  - eexists. split; [exact E|].
    assert (forall z, z ∈ rose_nodes ro -> handed z \/ z ∈ [b] -> h' !! z = bare <$> s_nodes s1 !! z) as F3'.
    { intros z Hz Hk. apply F3; [by apply (shape_nodes _ _ _ _ Hsh)|]. destruct Hk as [Hk|Hk]; [right; by apply handed_list_ok|].
      apply elem_of_list_singleton in Hk as ->. by left. }
    split.
    + apply M.
    + apply M.
    + simpl. by rewrite lookup_delete.
    + intros u Hu. simpl. rewrite lookup_delete_ne by done. apply M.
    + intros z Hz. simpl. rewrite F1 by (intros F; apply Hz; by apply (shape_nodes _ _ _ _ Hsh)).
      apply memonly_node; [apply M|]. rewrite <-!n_memb_mem. by apply M.
    + intros z Hz Hzh HzX. simpl. apply F2; [by apply (shape_nodes _ _ _ _ Hsh)|]. intros [->|Hl]%elem_of_cons; [apply HzX; by left|].
      apply handed_list_ok in Hl as [_ Hl]. done.
    + intros z Hz Hk. simpl. rewrite (F3' z Hz Hk). pose proof (g_mem _ _ _ _ _ _ M z) as Em.
      destruct (s_nodes s1 !! z) as [nd|], (s_nodes s0 !! z) as [nd0|]; try done. simpl in *. unfold links in *. simpl. by injection Em as -> -> -> _ _ -> ->.
    + intros z Hz Hzh HzX. destruct (gm_weak s1 D z M Hz Hzh) as [o Hm]. exists o. rewrite n_memb_mem in *. simpl. rewrite (F3' z Hz (or_intror HzX)).
      destruct (s_nodes s1 !! z); [|done]. exact Hm.
    + intros z Hz Hzh. assert (z ∈ D) as HzD. { destruct (decide (z ∈ D)); [done|]. exfalso. apply Hnp. by exists z. }
      pose proof (g_in _ _ _ _ _ _ M z Hz) as Et. rewrite decide_True in Et by done. rewrite <-Et. unfold tree_of. rewrite !n_memb_mem. simpl. rewrite (F3' z Hz (or_introl Hzh)).
      by destruct (s_nodes s1 !! z).
Qed.

Lemma put_mem_nodes s c m z : s_nodes (put_mem s c m) !! z = if decide (z = c) then (fun nd => mkNode (n_data nd) (n_lend nd) (n_parent nd) (n_first nd) (n_next nd) (n_prev nd) (n_nch nd) m) <$> s_nodes s !! z else s_nodes s !! z.
Proof.
  unfold put_mem, set_mem. simpl. destruct (decide (z = c)) as [->|Hz]; [by rewrite lookup_alter|by rewrite lookup_alter_ne].
Qed.

(** The node held by the loop, if it has no handle, is freed by the loop two turns later. *)
Lemma drop_held s c p fuel : wrecked s [c] -> c ∈ rose_nodes ro -> child_of K p c -> handed p -> ~ handed c ->
  exists s', set_memberships (S (S fuel)) s [t'] (Some (Open c, x)) t' = set_memberships fuel s' [t'] (Some (Close p, x)) t' /\ wrecked s' [].
Proof.
  intros W Hc Hpc Hp Hnc.
  assert (p ∈ rose_nodes ro /\ c <> x) as [Hpr Hcx].
  { split; [|intros ->; by apply (proj2 Htop p)]. apply (shape_nodes _ _ _ _ Hsh) in Hc. inversion Hc as [|q z Hb Hq]; subst; [exfalso; by apply (proj2 Htop p)|].
    rewrite <-(wf_uniq _ Hwf _ _ _ Hq Hpc). by apply (shape_nodes _ _ _ _ Hsh). }
  assert (p <> c) as Hpc' by (intros ->; by eapply child_irrefl).
  assert (c ∈ [c]) as Hcc by (by left).
  destruct (w_fields s [c] c W Hc (or_intror Hcc)) as (E1 & E2 & E3 & [nd Hnd]). rewrite (fparent_child _ _ _ _ Hrep Hpc) in E3.
  destruct (w_fields s [c] p W Hpr (or_introl Hp)) as (_ & _ & _ & Hap).
  destruct (w_weak _ _ W c Hc Hnc Hcc) as [o Hm].
  set (s3 := put_mem s c (MWeak (Some t'))).
  assert (forall z, z <> c -> s_nodes s3 !! z = s_nodes s !! z) as N3 by (intros z Hz; unfold s3; rewrite put_mem_nodes; by rewrite decide_False by done).
  assert (exists nd3, s_nodes s3 !! c = Some nd3 /\ n_first nd3 = None /\ n_next nd3 = None /\ n_parent nd3 = Some p /\ n_mem nd3 = MWeak (Some t')) as (nd3 & Hc3 & D1 & D2 & D3 & D4).
  { unfold s3. rewrite put_mem_nodes, decide_True, Hnd by done. eexists. split; [reflexivity|]. unfold fnext, ffirst, fparent in *. rewrite Hnd in *. simpl in *. done. }
  assert (release_all s3 [c] c = Ret s3) as Rel1 by (apply release_noop, referenced_true; left; by left).
  assert (referenced s3 [p] c = false) as Href.
  { apply referenced_false.
    - intros F%elem_of_list_singleton. congruence.
    - split.
      + intros i k Hi. apply Hnc. exists i, k. rewrite <-(w_hands _ _ W). exact Hi.
      + intros u tr Hu Er. change (s_trees s !! u = Some tr) in Hu. destruct (decide (u = t0)) as [->|Hut]; [rewrite (w_t0 _ _ W) in Hu; done|].
        pose proof (w_roots _ _ W u Hut) as Eq. rewrite Hu in Eq. destruct (s_trees s0 !! u) as [tr0|] eqn:E0; [|done]. injection Eq as Eq.
        apply (Hroots u tr0 E0 Hut). by rewrite <-Eq, Er.
    - intros z Hz. destruct (decide (z ∈ rose_nodes ro)) as [Hzr|Hzr].
      + destruct (decide (z = c)) as [->|Hzc]; [unfold ffirst in Hz; rewrite Hc3 in Hz; simpl in Hz; congruence|].
        destruct (handed_dec z) as [Hzh|Hzh].
        * destruct (w_fields s [c] z W Hzr (or_introl Hzh)) as (_ & X & _). unfold ffirst in *. rewrite N3 in Hz by done. congruence.
        * unfold ffirst in Hz. rewrite N3 in Hz by done. rewrite (w_gone _ _ W z Hzr Hzh) in Hz; [done|]. by intros F%elem_of_list_singleton.
      + assert (ffirst (s_nodes s0) z = Some c) as Hz0. { unfold ffirst in *. rewrite N3 in Hz by (by intros ->). by rewrite (w_out _ _ W z Hzr) in Hz. }
        assert (child_of K z c) as Hzc.
        { assert (is_Some (K !! z)) as [ks Hk]. { apply (rep_dom _ _ Hrep). unfold ffirst in Hz0. destruct (s_nodes s0 !! z); [eauto|done]. }
          rewrite (rep_first _ _ Hrep _ _ Hk) in Hz0. exists ks. split; [done|]. destruct ks; [done|]. injection Hz0 as ->. by left. }
        apply Hzr. by rewrite (wf_uniq _ Hwf _ _ _ Hzc Hpc).
    - intros z Hz. destruct (decide (z ∈ rose_nodes ro)) as [Hzr|Hzr].
      + destruct (decide (z = c)) as [->|Hzc]; [unfold fnext in Hz; rewrite Hc3 in Hz; simpl in Hz; congruence|].
        destruct (handed_dec z) as [Hzh|Hzh].
        * destruct (w_fields s [c] z W Hzr (or_introl Hzh)) as (X & _). unfold fnext in *. rewrite N3 in Hz by done. congruence.
        * unfold fnext in Hz. rewrite N3 in Hz by done. rewrite (w_gone _ _ W z Hzr Hzh) in Hz; [done|]. by intros F%elem_of_list_singleton.
      + assert (fnext (s_nodes s0) z = Some c) as Hz0. { unfold fnext in *. rewrite N3 in Hz by (by intros ->). by rewrite (w_out _ _ W z Hzr) in Hz. }
        destruct (fnext_inv _ _ _ _ Hrep Hwf Hz0) as (q & ks & i & Hk & Hi1 & Hi2).
        assert (q = p) as -> by (apply (wf_uniq _ Hwf q p c); [exists ks; split; [done|by eapply elem_of_list_lookup_2]|done]).
        apply Hzr. apply (shape_nodes _ _ _ _ Hsh). econstructor; [by apply (shape_nodes _ _ _ _ Hsh)|]. exists ks. split; [done|]. by eapply elem_of_list_lookup_2. }
  set (s4 := with_nodes s3 (delete c (s_nodes s3))).
  assert (release_all s3 [p] c = Ret s4) as Rel2. { eapply release_free; [exact Hc3|exact Href|done|done|exact D4]. }
  exists s4. split.
  - cbn [set_memberships]. unfold link_dfs_next. rewrite decide_False by done. cbn [mbind run_bind dft_next]. unfold first_child_link. rewrite E2.
    cbn [option_map fst ev_pin ev_val]. unfold set_tree_core. rewrite Hm. cbn [mbind run_bind]. fold s3. rewrite Rel1. cbn [mbind run_bind].
    rewrite decide_False by congruence. cbn [mbind run_bind dft_next]. unfold next_sibling_link, parent_link.
    replace (fnext (s_nodes s3) c) with (None (A := nid)) by (unfold fnext; by rewrite Hc3).
    replace (fparent (s_nodes s3) c) with (Some p) by (unfold fparent; by rewrite Hc3). unfold upgrade.
    assert (alive (s_nodes s3) p = true) as -> by (apply alive_spec; by rewrite N3).
    cbn [mbind run_bind option_map fst ev_pin ev_val]. rewrite Rel2. reflexivity.
  - assert (forall z, s_nodes s4 !! z = if decide (z = c) then None else s_nodes s !! z) as N4.
    { intros z. unfold s4. simpl. destruct (decide (z = c)) as [->|Hz]; [by rewrite lookup_delete|]. rewrite lookup_delete_ne by done. by apply N3. }
    split.
    + apply W.
    + apply W.
    + apply W.
    + apply W.
    + intros z Hz. rewrite N4, decide_False by (by intros ->). by apply W.
    + intros z Hz Hh _. rewrite N4. destruct (decide (z = c)) as [|Hzc]; [done|]. apply (w_gone _ _ W z Hz Hh). by intros F%elem_of_list_singleton.
    + intros z Hz [Hh|F]; [|by apply elem_of_nil in F]. rewrite N4, decide_False by (by intros ->). apply (w_kept _ _ W z Hz). by left.
    + intros z _ _ F. by apply elem_of_nil in F.
    + intros z Hz Hh. rewrite <-(w_tree _ _ W z Hz Hh). unfold tree_of. rewrite !n_memb_mem, N4, decide_False; [done|]. by intros ->.
Qed.

Lemma opens_snoc pre y : forall z, z ∈ y :: opens pre <-> z ∈ opens (pre ++ [Open y]).
Proof. intros z. rewrite elem_of_cons, !elem_opens, elem_of_app, elem_of_list_singleton. split; [intros [->|?]; auto|intros [?|[= ->]]; auto]. Qed.
Lemma opens_close pre y : forall z, z ∈ opens pre <-> z ∈ opens (pre ++ [Close y]).
Proof. intros z. rewrite !elem_opens, elem_of_app, elem_of_list_singleton. split; [auto|intros [?|?]; done]. Qed.
Lemma ev_fresh pre y rest : dfs_events ro = pre ++ Open y :: rest -> y ∉ opens pre.
Proof.
  intros Hev. pose proof (shape_events_nodup _ _ _ Hwf Hsh) as Hnd. rewrite Hev in Hnd. rewrite elem_opens. intros Hy.
  apply NoDup_app in Hnd as (_ & Hnd & _). apply (Hnd _ Hy). by left.
Qed.

Lemma lost_loop : forall rest pre e s fuel, dfs_events ro = pre ++ e :: rest -> gm s (opens pre) -> pending (opens pre) -> length rest < fuel ->
  exists s', set_memberships fuel s [t'] (Some (e, x)) t' = Ret (Some s') /\ wrecked s' [].
Proof.
  induction rest as [|b rest IH]; intros pre e s fuel Hev M Hp Hf; (destruct fuel as [|fuel]; [simpl in Hf; lia|]).
  - exfalso. destruct Hp as (y & Hy & _ & Hn). apply Hn. rewrite elem_opens.
    assert (Open y ∈ dfs_events ro) as X by (by apply dfs_events_elem). rewrite Hev in X. apply elem_of_app in X as [X|X]; [done|].
    apply elem_of_list_singleton in X. destruct (decide (e = Close x)) as [->|He]; [done|]. destruct (ev_not_last K x ro Hsh _ _ _ Hev He) as (? & ? & ?). done.
  - assert (b :: rest = [] \/ length rest < fuel) as [?|Hf'] by (right; simpl in Hf; lia); [done|].
    assert (dfs_events ro = (pre ++ [e]) ++ b :: rest) as Hev' by (by rewrite Hev, <-app_assoc).
    destruct e as [y|y].
    + assert (y ∈ rose_nodes ro) as Hy. { apply (shape_nodes _ _ _ _ Hsh). exact (ev_in K x ro Hsh _ _ _ Hev). }
      pose proof (ev_fresh _ _ _ Hev) as HyD.
      destruct (pending_dec (y :: opens pre)) as [Hp'|Hp'].
      * destruct (gm_turn s0 K x ro t0 t' Hrep Hwf Htop Hsh Hne Hhand [t'] pre (Open y) b rest s fuel Hev M) as (s1 & -> & M1 & _).
        { intros y' s1 [= <-] M1 _. apply (gm_ref s1 _ M1). eapply pending_ext; [apply opens_snoc|exact Hp']. }
        apply (IH (pre ++ [Open y])); [exact Hev'|exact M1| |exact Hf']. eapply pending_ext; [apply opens_snoc|exact Hp'].
      * assert (handed y) as Hyh.
        { destruct Hp as (z & Hz & Hzh & HzD). destruct (decide (z = y)) as [->|Hzy]; [done|]. exfalso. apply Hp'. exists z. split; [done|]. split; [done|].
          by intros [?|?]%elem_of_cons. }
        destruct (gm_put s0 ro t0 t' Hne s (opens pre) y M Hy HyD) as (s1 & M1 & Es).
        assert (below K x (ev_val b)) as Hbb by exact (ev_in K x ro Hsh _ _ _ Hev').
        destruct (tear_here s1 _ y (ev_val b) M1 Hp' Hyh (proj2 (shape_nodes _ _ _ _ Hsh) Hbb)) as (s2 & E2 & W).
        pose proof (gm_rep _ _ _ _ _ Hrep _ _ M) as R.
        pose proof (ev_step (s_nodes s) K x ro R Hwf Hsh _ _ _ _ Hev) as Hnx.
        pose proof (ev_step (s_nodes s0) K x ro Hrep Hwf Hsh _ _ _ _ Hev) as Hnx0.
        destruct (proj1 (gm_handed s _ y M Hy) Hyh) as (u & rc & lk & Hmy).
        assert (set_memberships (S fuel) s [t'] (Some (Open y, x)) t' = set_memberships fuel s2 [t'] (Some (b, x)) t') as ->.
        { cbn [set_memberships]. unfold link_dfs_next. rewrite decide_False by done. cbn [mbind run_bind]. rewrite Hnx. cbn [option_map fst ev_pin ev_val].
          rewrite Es, Hmy, E2. cbn [mbind run_bind]. rewrite (w_release s2 _ [ev_val b] y W Hyh). reflexivity. }
        destruct b as [c|c].
        -- assert (child_of K y c) as Hc.
           { simpl in Hnx0. unfold first_child_link in Hnx0. destruct (ffirst (s_nodes s0) y) as [c'|] eqn:Ef; [|discriminate Hnx0]. injection Hnx0 as ->.
             assert (is_Some (K !! y)) as [ks Hk]. { apply (rep_dom _ _ Hrep). unfold ffirst in Ef. destruct (s_nodes s0 !! y); [eauto|done]. }
             rewrite (rep_first _ _ Hrep _ _ Hk) in Ef. exists ks. split; [done|]. destruct ks; [done|]. injection Ef as ->. by left. }
           assert (c ∈ rose_nodes ro) as Hcr by (by apply (shape_nodes _ _ _ _ Hsh)).
           assert (~ handed c) as Hnc.
           { intros Hch. apply Hp'. exists c. split; [done|]. split; [done|]. rewrite (opens_snoc pre y c). exact (ev_fresh _ _ _ Hev'). }
           pose proof (ev_open_close _ K x ro Hrep Hwf Hsh _ _ _ Hev') as Hcc. apply elem_of_list_split in Hcc as (r1 & r2 & Er).
           assert (dfs_events ro = ((pre ++ [Open y]) ++ Open c :: r1) ++ Close c :: r2) as Hev2 by (rewrite Hev', Er; by rewrite <-!app_assoc).
           assert (c <> x) as Hcx by (intros ->; by apply (proj2 Htop y)).
           pose proof (ev_close_close _ K x ro Hrep Hwf Hsh _ _ _ _ Hev2 Hc Hcx) as Hyy. apply elem_of_list_split in Hyy as (r3 & r4 & Er2).
           assert (dfs_events ro = (((pre ++ [Open y]) ++ Open c :: r1) ++ Close c :: r3) ++ Close y :: r4) as Hev3 by (rewrite Hev2, Er2; by rewrite <-!app_assoc).
           subst rest r2. rewrite !app_length in Hf'. simpl in Hf'. rewrite app_length in Hf'. simpl in Hf'.
           destruct fuel as [|[|fuel]]; [lia|lia|].
           destruct (drop_held s2 c y fuel W Hcr Hc Hyh Hnc) as (s4 & -> & W4). exists s4. split; [|exact W4].
           eapply (climb (length r4)); [done|exact Hev3|lia|exact W4|exact Hyh].
        -- assert (c = y) as ->. { simpl in Hnx0. destruct (first_child_link (s_nodes s0) y); congruence. }
           assert (wrecked s2 []) as W0.
           { eapply w_ext; [exact W|]. intros z Hz. split; [|intros [?|F]; [by left|by apply elem_of_nil in F]]. intros [?|F]; [by left|].
             apply elem_of_list_singleton in F as ->. left. exact Hyh. }
           exists s2. split; [|exact W0]. eapply (climb (length rest)); [done|exact Hev'|exact Hf'|exact W0|exact Hyh].
    + destruct (gm_turn s0 K x ro t0 t' Hrep Hwf Htop Hsh Hne Hhand [t'] pre (Close y) b rest s fuel Hev M) as (s1 & -> & M1 & _); [by intros ? ? [=]|].
      apply (IH (pre ++ [Close y])); [exact Hev'|exact M1| |exact Hf']. eapply pending_ext; [apply opens_close|exact Hp].
Qed.

Lemma lost_subtree : gm s0 [] -> exists s', set_subtree_tree s0 [] x t' = Ret (Some s') /\ wrecked s' [].
Proof.
  intros M. pose proof (head_events ro) as Hh. rewrite (shape_root _ _ _ Hsh) in Hh.
  destruct (dfs_events ro) as [|e rest] eqn:Eev; [done|]. injection Hh as ->.
  unfold set_subtree_tree. apply (lost_loop rest []); [exact Eev|exact M| |].
  - exists x. split; [apply (shape_nodes _ _ _ _ Hsh); constructor|]. split; [exact Hhand|apply not_elem_of_nil].
  - pose proof (dfs_events_length ro) as Hl. rewrite Eev in Hl. simpl in Hl.
    pose proof (nodes_length_le _ _ _ _ Hrep Hwf Hsh). unfold dfs_fuel. lia.
Qed.
End Lost.
End Graft.
