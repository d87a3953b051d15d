(** * BuilderFacts: the builder call by call (C51). *)
From Verif Require Import SerialSpec NavFacts SpecFacts RoseFacts EqFacts SerFacts BracketFacts HIterSpec FrameSpec FrameFacts FrameFacts2 BuilderSpec ApiFacts ApiFacts2 ApiFacts3 ApiFacts6 ApiFacts7 ApiFacts8 BuildFacts BuildFacts2 BuildFacts3 BuildFacts4 BuildFacts5 Spec.
Notation started := BuildFacts4.started.

(** ** Frames *)
Section Frames.
Context {T : Type}.
Implicit Types (f : frame (T := T)) (fs : list (frame (T := T))) (r : rose T).
Fixpoint plug r fs : rose T := match fs with [] => r | (d, ts) :: fs' => plug (Rose d (ts ++ [r])) fs' end.
Definition node_of f : rose T := Rose f.1 f.2.
Lemma iter_in {A} (g : A -> A) n x : Nat.iter (S n) g x = Nat.iter n g (g x).
Proof. induction n as [|n IH]; [reflexivity|]. exact (f_equal g IH). Qed.
Lemma close_done : forall fs f, Nat.iter (S (length fs)) close_one (Opened f fs) = Done (plug (node_of f) fs).
Proof. induction fs as [|[d ts] fs IH]; intros [e us]; [reflexivity|]. cbn [length]. rewrite iter_in. cbn [close_one]. apply IH. Qed.
Lemma close_open : forall j fs f, j <= length fs -> exists f' fs', Nat.iter j close_one (Opened f fs) = Opened f' fs' /\
  length fs' = length fs - j /\ plug (node_of f') fs' = plug (node_of f) fs.
Proof. induction j as [|j IH]; intros fs f L; [exists f, fs; split; [reflexivity|split; [lia|reflexivity]]|].
  destruct fs as [|[d ts] fs]; [cbn in L; lia|]. destruct f as [e us]. rewrite iter_in. cbn [close_one].
  destruct (IH fs (d, ts ++ [Rose e us])) as (f' & fs' & E & L' & P); [cbn in L; lia|]. exists f', fs'. split; [exact E|]. split; [cbn; lia|exact P]. Qed.
Lemma made_open f fs : tree_made (Opened f fs) = Some (plug (node_of f) fs).
Proof. cbn [tree_made]. by rewrite close_done. Qed.
Lemma grown_plug d : forall fs k r g, (forall t', grown d k r t' -> t' = g) -> forall t', grown d (length fs + k) (plug r fs) t' -> t' = plug g fs.
Proof. induction fs as [|[e us] fs IH]; intros k r g H t' G; [exact (H t' G)|]. cbn [plug length] in *. eapply IH; [|replace (length fs + S k) with (S (length fs) + k) by lia; exact G].
  clear t' G. intros t' G. inversion G; subst. lazymatch goal with E : _ ++ [_] = _ ++ [_] |- _ => apply app_inj_tail in E as [-> ->] end. lazymatch goal with G' : grown d k _ _ |- _ => by rewrite (H _ G') end. Qed.
Lemma grown_here d f fs t' : grown d (length fs) (plug (node_of f) fs) t' -> t' = plug (node_of (d, [])) (f :: fs).
Proof. intros G. destruct f as [e us]. cbn [plug]. eapply (grown_plug d fs 0); [|by rewrite Nat.add_0_r]. clear. intros t' G. inversion G; subst. reflexivity. Qed.
End Frames.

(** ** The builder alone *)
Section Alone.
Context {T : Type}.
Local Notation grew := (@BuildFacts.grew T [] (Lent 0)).
Implicit Types (s u v : sys T) (K : forest) (td : rose T) (b : builder) (e : event T).
Notation one n := (<[n := []]> (∅ : forest)).
Inductive alone : sys T -> builder -> progress (T := T) -> Prop :=
| al_none u : reach u -> void u -> alone u b_new Nothing
| al_open v s1 (n : nid) t u K t0 p c cur f fs : void v -> started v ∅ s1 n t -> grew ∅ s1 (one n) n u K t0 (plug (node_of f) fs) ->
    held u ∅ p c n cur -> rpath (length fs) t0 cur -> alone u (mkBuilder (Some p) (Some c)) (Opened f fs)
| al_done v s1 (n : nid) t u K t0 p td : void v -> started v ∅ s1 n t -> grew ∅ s1 (one n) n u K t0 td ->
    s_hands u = <[p := HNode Plain n]> ∅ -> alone u (mkBuilder (Some p) None) (Done td).

Lemma void_stores u : reach u -> void u -> stores u ∅.
Proof. intros R (E & _). destruct (reach_stores u R) as [K HK]. assert (K = ∅) as ->; [|exact HK]. apply map_eq. intros y. rewrite lookup_empty.
  destruct (K !! y) eqn:Ey; [|reflexivity]. exfalso. assert (is_Some (s_nodes u !! y)) as [? A] by (apply (alive_known u K y HK); eauto). rewrite E in A. done. Qed.
Lemma alone_reach u b m : alone u b m -> reach u.
Proof. intros [? H|? ? ? ? ? ? ? ? ? ? ? ? ? ? G|? ? ? ? ? ? ? ? ? ? ? G]; [exact H|exact (g_reach _ _ _ _ _ _ _ _ G)|exact (g_reach _ _ _ _ _ _ _ _ G)]. Qed.
Lemma alone_other u b m u' : alone u b m -> untouched u u' -> reach u' -> alone u' b m.
Proof. intros A (U1 & U2 & U3) R.
  assert (same_view u u') as V.
  { split.
    - intros K HK. unfold stores in *. rewrite U1. exact HK.
    - intros x. unfold tree_of, n_memb. by rewrite U1.
    - intros x. unfold payload. by rewrite U1.
    - intros t. by rewrite U2. }
  destruct A as [u _ (V1 & V2 & V3)|v s1 n t u K t0 p c cur f fs Hv St G Hh Hr|v s1 n t u K t0 p td Hv St G Hh].
  - apply al_none; [exact R|]. split; [congruence|split; congruence].
  - eapply al_open; [exact Hv|exact St|exact (grew_view _ _ _ _ _ _ _ _ u' G V R)| |exact Hr]. unfold held in *. rewrite U3. exact Hh.
  - eapply al_done; [exact Hv|exact St|exact (grew_view _ _ _ _ _ _ _ _ u' G V R)|]. rewrite U3. exact Hh. Qed.

Lemma alone_open u b m d : alone u b m -> exists u' b', b_open u b d = Ret (u', b', (answer m (EOpen d)).2) /\ alone u' b' (answer m (EOpen d)).1.
Proof. intros A. destruct A as [u R Hv|v s1 n t u K t0 p c cur f fs Hv St G Hh Hr|v s1 n t u K t0 p td Hv St G Hh].
  - destruct (start_ok u ∅ d R (void_stores u R Hv)) as (u1 & p & c & n & t & E & St & Hh & G).
    exists u1, (mkBuilder (Some p) (Some c)). split; [exact E|]. cbn [answer fst]. pose proof (proj2 (proj2 Hv)) as Hz. rewrite Hz in *.
    eapply (al_open u u1 n t u1 _ (Rose n []) p c n (d, []) []); [exact Hv|exact St|exact G|exact Hh|constructor].
  - destruct (open_ok _ _ _ _ _ _ _ _ _ _ _ _ d G Hh Hr) as (u' & K' & t0' & td' & n' & c' & E & G' & Hh' & G1 & G2 & _).
    exists u', (mkBuilder (Some p) (Some c')). split; [exact E|]. cbn [answer fst]. apply grown_here in G2 as ->.
    eapply al_open; [exact Hv|exact St|exact G'|exact Hh'|]. exact (grown_rpath _ _ _ _ G1).
  - exists u, (mkBuilder (Some p) None). split; [reflexivity|]. eapply al_done; [exact Hv|exact St|exact G|exact Hh]. Qed.

Lemma alone_close u b m j : alone u b m -> exists u' b', b_close u b j = Ret (u', b', (answer m (EClose j)).2) /\ alone u' b' (answer m (EClose j)).1.
Proof. intros A. destruct j as [|j]; [exists u, b; split; [by destruct m|by destruct m]|].
  destruct A as [u R Hv|v s1 n t u K t0 p c cur f fs Hv St G Hh Hr|v s1 n t u K t0 p td Hv St G Hh].
  - exists u, b_new. split; [reflexivity|]. by apply al_none.
  - destruct (close_ok _ _ _ _ _ _ _ _ _ _ _ _ j G Hh Hr) as (C1 & C2 & _ & C4). destruct (started_top _ _ _ _ _ St) as [Htop Hwf].
    cbn [answer]. destruct (Nat.leb_spec (S j) (S (length fs))) as [L|L].
    + destruct (decide (j = length fs)) as [->|Hne].
      * destruct (C2 eq_refl (grew_top _ _ _ _ _ _ _ _ G Htop)) as (u' & E & G' & Hh' & _). exists u', (mkBuilder (Some p) None). split; [exact E|].
        cbn [fst]. rewrite close_done. eapply al_done; [exact Hv|exact St|exact G'|exact Hh'].
      * destruct C1 as (u' & c' & cur' & E & G' & Hh' & Hr'); [lia|]. exists u', (mkBuilder (Some p) (Some c')). split; [exact E|]. cbn [fst].
        destruct (close_open (S j) fs f) as (f' & fs' & -> & L' & P); [lia|]. rewrite <- P in G'. eapply al_open; [exact Hv|exact St|exact G'|exact Hh'|by rewrite L'].
    + destruct C4 as (u' & c' & E & G' & Hh'); [lia|]. exists u', (mkBuilder (Some p) (Some c')). split; [exact E|]. cbn [fst].
      destruct (close_open (length fs) fs f) as (f' & fs' & -> & L' & P); [lia|]. rewrite <- P in G'. eapply al_open; [exact Hv|exact St|exact G'|exact Hh'|].
      rewrite L', Nat.sub_diag. pose proof (shape_root K n t0 (g_shape0 _ _ _ _ _ _ _ _ G)) as Ht. destruct t0 as [x ts]. cbn in Ht. subst x. constructor.
  - exists u, (mkBuilder (Some p) None). split; [reflexivity|]. eapply al_done; [exact Hv|exact St|exact G|exact Hh]. Qed.
Lemma alone_push u b m e : alone u b m -> exists u' b', b_push u b e = Ret (u', b', (answer m e).2) /\ alone u' b' (answer m e).1.
Proof. destruct e as [d|j]; [apply alone_open|apply alone_close]. Qed.

Lemma alone_tree v s1 (n : nid) t u K t0 td p : void v -> started v ∅ s1 n t -> grew ∅ s1 (one n) n u K t0 td -> s_hands u = <[p := HNode Plain n]> ∅ -> just_tree u p td.
Proof. intros Hv St G Hh. pose proof (proj2 (proj2 Hv)) as Hz.
  destruct (grew_builds v ∅ s1 n t u K t0 td p St) as [R (n' & t' & t1 & K1 & K' & S1 & S2 & H1 & H2 & H3 & H4 & H5 & H6 & H7 & H8 & H9 & H10 & H11)].
  { rewrite Hz. exact G. } { by rewrite Hz, lookup_empty. } { by rewrite Hz. }
  split; [exact R|]. assert (K1 = ∅) as ->.
  { apply map_eq. intros y. rewrite lookup_empty. destruct (K1 !! y) eqn:Ey; [|reflexivity]. exfalso.
    assert (is_Some (s_nodes v !! y)) as [? A] by (apply (alive_known v K1 y S1); eauto). rewrite (proj1 Hv) in A. done. }
  exists n', t', t1, K'. split; [exact S2|]. split; [rewrite H2, Hz; reflexivity|]. split; [exact H3|]. split; [exact H4|]. split; [exact H5|].
  split; [|split].
  - intros y. rewrite H9. split; [intros [[? F]|F]; [by rewrite lookup_empty in F|exact F]|by right].
  - intros y Hy. exact (proj2 (proj2 (H6 y Hy))).
  - intros w. rewrite H11. split; [intros [F|[? F]]; [exact F|by rewrite (proj1 (proj2 Hv)) in F]|by left]. Qed.
Lemma alone_finish u b m : alone u b m -> match tree_made m with
  | None => b_finish u b = Ret (u, inr RootNotOpened)
  | Some td => exists u' i, b_finish u b = Ret (u', inl i) /\ just_tree u' i td end.
Proof. intros A. destruct A as [u R Hv|v s1 n t u K t0 p c cur f fs Hv St G Hh Hr|v s1 n t u K t0 p td Hv St G Hh].
  - reflexivity.
  - rewrite made_open. pose proof (rpath_node _ _ _ Hr) as Hcur.
    destruct (drop_held u K c p Hot Plain cur n (g_reach _ _ _ _ _ _ _ _ G) (g_stores _ _ _ _ _ _ _ _ G) (held_c _ _ _ _ _ _ Hh) (held_p _ _ _ _ _ _ Hh)) as (u' & E & R' & V & Hh').
    { by destruct Hh as (_ & _ & _ & ?). } { by apply (grew_tree _ _ _ _ _ _ _ _ cur G). }
    exists u', p. unfold b_finish. cbn [b_root b_cur drop_opt]. rewrite E. split; [reflexivity|].
    eapply alone_tree; [exact Hv|exact St|exact (grew_view _ _ _ _ _ _ _ _ u' G V R')|]. rewrite Hh'. destruct Hh as (-> & _ & H & ?). apply delete_insert. by rewrite lookup_insert_ne.
  - exists u, p. split; [reflexivity|]. eapply alone_tree; [exact Hv|exact St|exact G|exact Hh]. Qed.
Lemma view_void v u : void v -> reach v -> unaffected v u -> void u.
Proof. intros (V1 & V2 & V3) Rv (R & V & Hh). pose proof (void_stores v Rv (conj V1 (conj V2 V3))) as HK. apply (sv_stores _ _ V) in HK.
  split; [|split].
  - apply map_eq. intros y. rewrite lookup_empty. destruct (s_nodes u !! y) eqn:Ey; [|reflexivity]. exfalso.
    assert (is_Some ((∅ : forest) !! y)) as [? A] by (apply (alive_known u ∅ y HK); eauto). by rewrite lookup_empty in A.
  - apply map_eq. intros y. rewrite lookup_empty. pose proof (sv_trees _ _ V y) as A. rewrite V2, lookup_empty in A. by destruct (s_trees u !! y).
  - by rewrite Hh. Qed.
Lemma alone_drop u b m : alone u b m -> exists u', b_drop u b = Ret u' /\ void u'.
Proof. intros A. destruct A as [u R Hv|v s1 n t u K t0 p c cur f fs Hv St G Hh Hr|v s1 n t u K t0 p td Hv St G Hh].
  - exists u. split; [reflexivity|exact Hv].
  - destruct (started_top _ _ _ _ _ St) as [Htop Hwf]. pose proof (proj2 (proj2 Hv)) as Hz.
    assert (exists pre, BuildFacts3.phase (ts0 := []) (b0 := Lent 0) ∅ s1 (one n) n p pre u (mkBuilder (Some p) (Some c))) as [pre Hp].
    { destruct (rpath_rel _ _ _ _ _ (g_data0 _ _ _ _ _ _ _ _ G) Hr) as [d Hd].
      assert (forall k (t : rose T) d, rpath k t d -> exists pre, pre ++ replicate (S k) None = brackets t) as Q.
      { clear. intros k t d H. induction H as [x ts|k x ts t c H [pre IH]]; [exists (Some x :: concat (map brackets ts)); reflexivity|].
        exists (Some x :: concat (map brackets ts) ++ pre). replace (S (S k)) with (S k + 1) by lia. rewrite replicate_add, app_assoc. cbn [brackets app].
        rewrite map_app, concat_app. cbn [map concat]. rewrite app_nil_r, <- IH, !app_assoc. reflexivity. }
      destruct (Q _ _ _ Hd) as [pre Hpre]. exists pre. eapply ph_open; [exact G|exact Hh|exact Hr|exact Hpre]. }
    rewrite <- Hz in Hp. destruct (drop_new_ok v ∅ s1 n t p pre u _ St Hp Htop) as (u' & E & U). exists u'. split; [exact E|].
    exact (view_void v u' Hv (st_reach _ _ _ _ _ St) U).
  - destruct (started_top _ _ _ _ _ St) as [Htop Hwf]. pose proof (proj2 (proj2 Hv)) as Hz.
    assert (BuildFacts3.phase (ts0 := []) (b0 := Lent 0) ∅ s1 (one n) n p (brackets td) u (mkBuilder (Some p) None)) as Hp.
    { eapply ph_closed; [exact G|exact Hh|apply lookup_empty|exact Htop|reflexivity]. }
    rewrite <- Hz in Hp. destruct (drop_new_ok v ∅ s1 n t p _ u _ St Hp Htop) as (u' & E & U). exists u'. split; [exact E|].
    exact (view_void v u' Hv (st_reach _ _ _ _ _ St) U). Qed.
End Alone.
