(** * EqFacts: [try_eq] decides equality of subtrees. *)
From Verif Require Import SerialSpec SpecFacts RoseFacts AdjFacts IterFacts TravFacts TravFacts4 TdFacts2 Spec.

(** Events of two trees compared pairwise. *)
Definition ev_rel {A B} (R : A -> B -> Prop) (e : dft A) (f : dft B) : Prop :=
  match e, f with Open a, Open b => R a b | Close _, Close _ => True | _, _ => False end.

Lemma rose_rel_events {A B} (R : A -> B -> Prop) : forall t u l m,
  Forall2 (ev_rel R) (dfs_events t ++ l) (dfs_events u ++ m) <-> rose_rel R t u /\ Forall2 (ev_rel R) l m.
Proof.
  induction t as [a ts IH] using rose_ind2. intros [b us] l m. simpl. rewrite <-!app_assoc. simpl. split.
  - intros H. apply Forall2_cons_1 in H as [Hab H]. simpl in Hab.
    enough (Forall2 (rose_rel R) ts us /\ Forall2 (ev_rel R) l m) as [H1 H2] by (split; [constructor|]; done).
    clear Hab. revert us H. induction ts as [|t ts IHts]; intros us H.
    + destruct us as [|[c vs] us]; simpl in H; [|by apply Forall2_cons_1 in H as [[] _]].
      apply Forall2_cons_1 in H as [_ H]. by split.
    + destruct us as [|u us]; simpl in H.
      { destruct t as [c vs]; simpl in H. by apply Forall2_cons_1 in H as [[] _]. }
      rewrite <-!app_assoc in H. apply Forall_cons in IH as [IH1 IH2]. apply IH1 in H as [H1 H2].
      destruct (IHts IH2 us H2) as [H3 H4]. split; [by constructor|done].
  - intros [Hr Hl]. inversion Hr as [? ? ? ? Hab Hf]; subst. constructor; [done|]. clear Hr.
    induction Hf as [|t u ts us Htu Hf IHf]; simpl; [by constructor|]. rewrite <-!app_assoc.
    apply Forall_cons in IH as [IH1 IH2]. apply IH1. split; [done|]. by apply IHf.
Qed.

Section Loop.
Context {T U : Type} (eqb : T -> U -> bool) (h1 : heap T) (h2 : heap U).
Definition eqr (a b : nid) : Prop := exists d e, data_is h1 a d /\ data_is h2 b e /\ eqb d e = true.
Definition eqrr (a b : nid) : Prop := exists d e, readable h1 a d /\ readable h2 b e /\ eqb d e = true.

Definition verdict (l m : list (dft nid)) (r : option bool) : Prop :=
  match r with
  | Some true => Forall2 (ev_rel eqrr) l m
  | Some false => ~ Forall2 (ev_rel eqr) l m
  | None => (exists z, Open z ∈ l /\ borrowed h1 z) \/ (exists z, Open z ∈ m /\ borrowed h2 z)
  end.

Lemma try_borrow_spec {V} (h : heap V) x : is_Some (h !! x) ->
  exists r, try_borrow h x = Ret r /\ match r with Some d => readable h x d | None => borrowed h x end.
Proof.
  intros [nd Hx]. unfold try_borrow. rewrite Hx. eexists. split; [done|].
  destruct (n_mut nd) eqn:E; [by exists nd|]. split; [by exists nd|]. intros (nd' & Hn & Hm). congruence.
Qed.

Lemma verdict_cons e f l m r : ev_rel eqrr e f -> verdict l m r -> verdict (e :: l) (f :: m) r.
Proof.
  intros He Hv. destruct r as [[|]|]; simpl in *; [by constructor| |].
  - intros H. by apply Forall2_cons_1 in H as [_ H].
  - destruct Hv as [(z & Hz & Hb)|(z & Hz & Hb)]; [left|right]; exists z; split; try done; by apply elem_of_cons; right.
Qed.

Lemma eq_loop_spec : forall fuel l m st1 st2,
  enumerates (link_dfs_next h1) st1 l -> enumerates (link_dfs_next h2) st2 m -> length l < fuel ->
  (forall e, e ∈ l -> is_Some (h1 !! ev_val e)) -> (forall e, e ∈ m -> is_Some (h2 !! ev_val e)) ->
  exists r, eq_loop eqb fuel h1 h2 st1 st2 = Ret r /\ verdict l m r.
Proof.
  induction fuel as [|f IH]; intros l m st1 st2 H1 H2 Hf D1 D2; [lia|].
  apply enumerates_inv in H1 as (st1' & E1 & H1). apply enumerates_inv in H2 as (st2' & E2 & H2).
  simpl. rewrite E1. simpl. rewrite E2. simpl.
  destruct l as [|e l], m as [|g m]; simpl in *.
  - exists (Some true). by split; [|constructor].
  - exists (Some false). split; [done|]. intros H. inversion H.
  - exists (Some false). split; [by destruct e|]. intros H. inversion H.
  - assert (forall r, eq_loop eqb f h1 h2 st1' st2' = Ret r -> True) as _ by done.
    destruct (IH l m st1' st2' H1 H2 ltac:(lia) ltac:(intros; apply D1; set_solver) ltac:(intros; apply D2; set_solver))
      as (r & Er & Hv).
    destruct e as [a|a], g as [b|b]; simpl.
    + destruct (try_borrow_spec h1 a) as (ra & Ea & Ra); [apply (D1 (Open a)); set_solver|]. rewrite Ea. simpl.
      destruct ra as [da|]; [|exists None; split; [done|]; left; exists a; split; [set_solver|done]].
      destruct (try_borrow_spec h2 b) as (rb & Eb & Rb); [apply (D2 (Open b)); set_solver|]. rewrite Eb. simpl.
      destruct rb as [db|]; [|exists None; split; [done|]; right; exists b; split; [set_solver|done]].
      destruct (eqb da db) eqn:E.
      * exists r. split; [done|]. apply verdict_cons; [|done]. by exists da, db.
      * exists (Some false). split; [done|]. intros H. apply Forall2_cons_1 in H as [(d & e & (n1 & Hn1 & Hd) & (n2 & Hn2 & He) & Hde) _].
        destruct Ra as [(n1' & Hn1' & Hd') _], Rb as [(n2' & Hn2' & He') _]. congruence.
    + exists (Some false). split; [done|]. intros H. by apply Forall2_cons_1 in H as [[] _].
    + exists (Some false). split; [done|]. intros H. by apply Forall2_cons_1 in H as [[] _].
    + exists r. split; [done|]. by apply verdict_cons.
Qed.
End Loop.

Lemma shape_top_events K x t : shape K x t -> exists ts, t = Rose x ts.
Proof. intros H. inversion H; subst. eauto. Qed.

Lemma try_eq_apart_ok {T U} (eqb : T -> U -> bool) (h1 : heap T) (h2 : heap U) K1 K2 x y t1 t2 :
  rep h1 K1 -> wf K1 -> rep h2 K2 -> wf K2 -> shape K1 x t1 -> shape K2 y t2 ->
  exists r, try_eq_apart eqb h1 h2 x y = Ret r /\
    match r with
    | Some true => rose_rel (eqrr eqb h1 h2) t1 t2
    | Some false => ~ rose_rel (eqr eqb h1 h2) t1 t2
    | None => (exists z, z ∈ rose_nodes t1 /\ borrowed h1 z) \/ (exists z, z ∈ rose_nodes t2 /\ borrowed h2 z)
    end.
Proof.
  intros R1 W1 R2 W2 S1 S2. destruct (shape_top_events _ _ _ S1) as [ts ->]. destruct (shape_top_events _ _ _ S2) as [us ->].
  pose proof (link_dfs_enum h1 K1 x ts R1 W1 S1) as E1. pose proof (link_dfs_enum h2 K2 y us R2 W2 S2) as E2.
  assert (forall V (h : heap V) K z vs e, rep h K -> wf K -> shape K z (Rose z vs) -> e ∈ Open z :: concat (map dfs_events vs) ->
    is_Some (h !! ev_val e) /\ e ∈ dfs_events (Rose z vs)) as Hd.
  { intros V h K z vs e Hr Hw Hs He. assert (e ∈ dfs_events (Rose z vs)) as He'.
    { simpl. apply elem_of_cons in He as [->|He]; [by left|]. apply elem_of_cons. right. apply elem_of_app. by left. }
    split; [|done]. apply (rep_dom h K Hr). by apply (shape_events_dom K z _ e Hw Hs He'). }
  destruct (eq_loop_spec eqb h1 h2 (dfs_fuel h1) _ _ _ _ E1 E2) as (r & Er & Hv).
  { pose proof (dfs_events_length (Rose x ts)) as HL. rewrite (app_comm_cons _ _ (Open x)) in HL || simpl in HL.
    simpl in HL. rewrite app_length in HL. simpl in HL. pose proof (nodes_length_le h1 K1 x _ R1 W1 S1) as HN.
    simpl. unfold dfs_fuel. simpl in HN. lia. }
  { intros e He. by eapply (Hd T h1 K1). }
  { intros e He. by eapply (Hd U h2 K2). }
  exists r. split; [done|].
  assert (forall R : nid -> nid -> Prop, Forall2 (ev_rel R) (Open x :: concat (map dfs_events ts)) (Open y :: concat (map dfs_events us)) <->
     rose_rel R (Rose x ts) (Rose y us)) as HR.
  { intros R. pose proof (rose_rel_events R (Rose x ts) (Rose y us) [] []) as H. rewrite !app_nil_r in H. simpl in H. split.
    - intros HF. apply H. change (Forall2 (ev_rel R) ((Open x :: concat (map dfs_events ts)) ++ [Close x]) ((Open y :: concat (map dfs_events us)) ++ [Close y])).
      apply Forall2_app; [done|]. by repeat constructor.
    - intros HF. destruct H as [_ H]. assert (Forall2 (ev_rel R) [] []) as HN by constructor. specialize (H (conj HF HN)).
      change (Forall2 (ev_rel R) ((Open x :: concat (map dfs_events ts)) ++ [Close x]) ((Open y :: concat (map dfs_events us)) ++ [Close y])) in H.
      apply Forall2_app_inv in H as [H _]; [done|]. apply Forall2_length in H. rewrite !app_length in H. simpl in H. simpl. lia. }
  destruct r as [[|]|]; simpl in Hv.
  - by apply HR.
  - rewrite <-HR. done.
  - destruct Hv as [(z & Hz & Hb)|(z & Hz & Hb)]; [left|right]; exists z; (split; [|done]).
    + apply (dfs_events_elem _ (Open z)). by eapply (Hd T h1 K1).
    + apply (dfs_events_elem _ (Open z)). by eapply (Hd U h2 K2).
Qed.

Lemma rose_rel_mono {A B} (R R' : A -> B -> Prop) : (forall a b, R a b -> R' a b) -> forall t u, rose_rel R t u -> rose_rel R' t u.
Proof.
  intros HR. induction t as [a ts IH] using rose_ind2. intros u H. inversion H as [? b ? us Hab Hf]; subst.
  constructor; [by apply HR|]. clear -IH Hf. induction Hf; [constructor|].
  apply Forall_cons in IH as [H1 H2]. constructor; [by apply H1|by apply IHHf].
Qed.
Lemma rose_rel_nodes {A B} (R : A -> B -> Prop) : forall t u, rose_rel R t u -> Forall2 R (rose_nodes t) (rose_nodes u).
Proof.
  induction t as [a ts IH] using rose_ind2. intros u H. inversion H as [? b ? us Hab Hf]; subst. simpl. constructor; [done|].
  clear -IH Hf. induction Hf; simpl; [constructor|]. apply Forall_cons in IH as [H1 H2]. apply Forall2_app; [by apply H1|by apply IHHf].
Qed.

Lemma try_eq_apart_answer {T U} (eqb : T -> U -> bool) (h1 : heap T) (h2 : heap U) K1 K2 x y t1 t2 :
  rep h1 K1 -> wf K1 -> rep h2 K2 -> wf K2 -> shape K1 x t1 -> shape K2 y t2 ->
  exists r, try_eq_apart eqb h1 h2 x y = Ret r /\ eq_answer eqb h1 h2 t1 t2 r.
Proof.
  intros R1 W1 R2 W2 S1 S2. destruct (try_eq_apart_ok eqb h1 h2 K1 K2 x y t1 t2 R1 W1 R2 W2 S1 S2) as (r & Er & Hr).
  exists r. split; [done|]. destruct r as [[|]|]; simpl.
  - split.
    + eapply rose_rel_mono; [|exact Hr]. intros a b (d & e & [Ha _] & [Hb _] & E). by exists d, e.
    + apply rose_rel_nodes in Hr. split; intros z Hz.
      * apply elem_of_list_lookup in Hz as [i Hi]. destruct (Forall2_lookup_l _ _ _ _ _ Hr Hi) as (b & _ & d & e & [_ Hn] & _). done.
      * apply elem_of_list_lookup in Hz as [i Hi]. destruct (Forall2_lookup_r _ _ _ _ _ Hr Hi) as (b & _ & d & e & _ & [_ Hn] & _). done.
  - done.
  - intros [H1 H2]. destruct Hr as [(z & Hz & Hb)|(z & Hz & Hb)]; [by apply (H1 z)|by apply (H2 z)].
Qed.
