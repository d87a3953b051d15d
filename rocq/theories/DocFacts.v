(** * DocFacts: documents of forests. *)
From Verif Require Import Heap Traverse System SpecFacts RoseFacts IterSpec DocSpec EditFacts2 Spec.

(** The document of a list of siblings. *)
Inductive docs (K : forest) : list nid -> doc -> Prop :=
| docs_nil : docs K [] []
| docs_cons x ks cs m rest : K !! x = Some cs -> docs K cs m -> docs K ks rest -> docs K (x :: ks) (Open x :: m ++ Close x :: rest).

Lemma docs_of_shape K : forall t x, shape K x t -> docs K [x] (dfs_events t).
Proof.
  fix IH 1. intros [z ts] x H. inversion H as [? ? Hk Hf]; subst. cbn [dfs_events].
  assert (docs K (map rose_root ts) (concat (map dfs_events ts))) as D.
  { clear H Hk. induction ts as [|t ts IHts]; [constructor|]. inversion Hf as [|? ? Ht Hf']; subst. cbn [map concat].
    specialize (IH t _ Ht). specialize (IHts Hf'). inversion IH as [|? ? cs m rest Hc Hm Hr E1 E2]; subst. inversion Hr; subst.
    cbn. rewrite <- app_assoc. cbn. econstructor; eassumption. }
  econstructor; [exact Hk|exact D|constructor].
Qed.
Lemma docs_fun K ks m : docs K ks m -> forall m', docs K ks m' -> m = m'.
Proof.
  induction 1 as [|x ks cs m rest Hc Hm IHm Hr IHr]; intros m' D; inversion D as [|? ? cs' m1 rest' Hc' Hm' Hr']; subst; [done|].
  assert (cs' = cs) as -> by congruence. rewrite (IHm _ Hm'), (IHr _ Hr'). done.
Qed.
Lemma docs_shapes K ks m : docs K ks m -> exists ts, map rose_root ts = ks /\ Forall (fun t => shape K (rose_root t) t) ts /\ m = concat (map dfs_events ts).
Proof.
  induction 1 as [|x ks cs m rest Hc Hm (ts & E1 & F1 & ->) Hr (us & E2 & F2 & ->)]; [by exists []|].
  exists (Rose x ts :: us). split; [cbn; by rewrite E2|]. split.
  - constructor; [|exact F2]. constructor; [by rewrite E1|exact F1].
  - cbn. by rewrite <- app_assoc.
Qed.
Lemma docs_shape K x E : docs K [x] E -> exists t, shape K x t /\ E = dfs_events t.
Proof.
  intros D. destruct (docs_shapes _ _ _ D) as (ts & E1 & F & ->). destruct ts as [|t [|]]; try done. injection E1 as <-.
  inversion F; subst. exists t. split; [done|]. cbn. by rewrite app_nil_r.
Qed.
Lemma docs_exist K x : wf K -> is_Some (K !! x) -> exists E, docs K [x] E.
Proof. intros Hw Hx. destruct (shape_exists K x Hw Hx) as [t Ht]. eexists. by eapply docs_of_shape. Qed.
Lemma docs_nodup K x E : wf K -> docs K [x] E -> NoDup E.
Proof. intros Hw D. destruct (docs_shape _ _ _ D) as (t & Ht & ->). by eapply dfs_events_nodup, shape_nodup. Qed.
Lemma docs_app K k1 m1 k2 m2 : docs K k1 m1 -> docs K k2 m2 -> docs K (k1 ++ k2) (m1 ++ m2).
Proof.
  induction 1 as [|x ks cs m rest Hc Hm IHm Hr IHr]; intros D; [done|]. cbn. rewrite <- app_assoc. cbn. econstructor; [eassumption..|by apply IHr].
Qed.
Lemma docs_app_inv K k1 k2 m : docs K (k1 ++ k2) m -> exists m1 m2, m = m1 ++ m2 /\ docs K k1 m1 /\ docs K k2 m2.
Proof.
  revert m. induction k1 as [|x k1 IH]; intros m D; [exists [], m; by split_and!; [|constructor|]|].
  inversion D as [|? ? cs m1 rest Hc Hm Hr]; subst. destruct (IH _ Hr) as (a & b & -> & D1 & D2).
  exists (Open x :: m1 ++ Close x :: a), b. split; [cbn; by rewrite <- app_assoc|]. split; [by econstructor|done].
Qed.
Lemma docs_agree K K' ks m : docs K ks m -> (forall y, Open y ∈ m -> K' !! y = K !! y) -> docs K' ks m.
Proof.
  induction 1 as [|x ks cs m rest Hc Hm IHm Hr IHr]; intros Ha; [constructor|]. econstructor.
  - rewrite Ha; [exact Hc|]. apply elem_of_list_here.
  - apply IHm. intros y Hy. apply Ha. right. apply elem_of_app. by left.
  - apply IHr. intros y Hy. apply Ha. right. apply elem_of_app. right. by right.
Qed.
Lemma docs_dom K ks m y : docs K ks m -> Open y ∈ m -> is_Some (K !! y).
Proof.
  induction 1 as [|x ks cs m rest Hc Hm IHm Hr IHr]; intros Hy; [by apply elem_of_nil in Hy|].
  apply elem_of_cons in Hy as [[= ->]|Hy]; [by eexists|]. apply elem_of_app in Hy as [Hy|Hy]; [by apply IHm|].
  apply elem_of_cons in Hy as [Hy|Hy]; [done|by apply IHr].
Qed.
Lemma docs_close K ks m y : docs K ks m -> (Close y ∈ m <-> Open y ∈ m).
Proof.
  induction 1 as [|x ks cs m rest Hc Hm IHm Hr IHr]; [by rewrite !elem_of_nil|].
  rewrite !elem_of_cons, !elem_of_app, !elem_of_cons, IHm, IHr. split.
  - intros [F|[H|[[= ->]|H]]]; [done|auto..].
  - intros [[= ->]|[H|[F|H]]]; [auto..|done|auto].
Qed.
(** Everything in the document hangs below its row, and every child of a node in it is in it. *)
Lemma docs_up K ks m y : docs K ks m -> Open y ∈ m -> y ∈ ks \/ exists q, child_of K q y /\ Open q ∈ m.
Proof.
  induction 1 as [|x ks cs m rest Hc Hm IHm Hr IHr]; intros Hy; [by apply elem_of_nil in Hy|].
  apply elem_of_cons in Hy as [[= ->]|Hy]; [left; apply elem_of_list_here|]. apply elem_of_app in Hy as [Hy|Hy].
  - right. destruct (IHm Hy) as [Hi|(q & Hq & Hqm)].
    + exists x. split; [by exists cs|apply elem_of_list_here].
    + exists q. split; [done|]. right. apply elem_of_app. by left.
  - apply elem_of_cons in Hy as [Hy|Hy]; [done|]. destruct (IHr Hy) as [Hi|(q & Hq & Hqm)]; [left; by right|].
    right. exists q. split; [done|]. right. apply elem_of_app. right. by right.
Qed.

(** A node of a document, with the document as a context for what is within it. *)
Lemma docs_hole K ks E x : docs K ks E -> Open x ∈ E -> exists A M B cs, E = A ++ Open x :: M ++ Close x :: B /\ K !! x = Some cs /\ docs K cs M /\
  (x ∉ ks -> A <> []) /\
  forall K' cs' M', K' !! x = Some cs' -> docs K' cs' M' -> (forall y, Open y ∈ A ++ B -> K' !! y = K !! y) -> docs K' ks (A ++ Open x :: M' ++ Close x :: B).
Proof.
  induction 1 as [|z ks cs m rest Hc Hm IHm Hr IHr]; intros Hy; [by apply elem_of_nil in Hy|].
  apply elem_of_cons in Hy as [[= ->]|Hy].
  { exists [], m, rest, cs. split; [done|]. split; [done|]. split; [done|]. split. { intros F. destruct F. apply elem_of_list_here. }
    intros K' cs' M' H1 H2 H3. cbn. econstructor; [exact H1|exact H2|]. eapply docs_agree; [exact Hr|exact H3]. }
  apply elem_of_app in Hy as [Hy|Hy].
  - destruct (IHm Hy) as (A & M & B & c & -> & Hx & HM & _ & Hh).
    exists (Open z :: A), M, (B ++ Close z :: rest), c. split; [cbn; rewrite <- app_assoc; cbn; by rewrite <- app_assoc|].
    split; [done|]. split; [done|]. split; [done|]. intros K' cs' M' H1 H2 H3.
    replace ((Open z :: A) ++ Open x :: M' ++ Close x :: B ++ Close z :: rest) with (Open z :: (A ++ Open x :: M' ++ Close x :: B) ++ Close z :: rest) by (cbn; rewrite <- app_assoc; cbn; by rewrite <- app_assoc).
    econstructor.
    + rewrite H3; [exact Hc|]. apply elem_of_list_here.
    + apply (Hh K' cs'); [done..|]. intros y Hy'. apply H3. right. rewrite elem_of_app in *. rewrite elem_of_app. destruct Hy'; [by left|right; by left].
    + eapply docs_agree; [exact Hr|]. intros y Hy'. apply H3. right. apply elem_of_app. right. apply elem_of_app. right. by right.
  - apply elem_of_cons in Hy as [Hy|Hy]; [done|]. destruct (IHr Hy) as (A & M & B & c & -> & Hx & HM & _ & Hh).
    exists (Open z :: m ++ Close z :: A), M, B, c. split; [cbn; by rewrite <- app_assoc|].
    split; [done|]. split; [done|]. split; [done|]. intros K' cs' M' H1 H2 H3. cbn. rewrite <- app_assoc. cbn. econstructor.
    + rewrite H3; [exact Hc|]. apply elem_of_list_here.
    + eapply docs_agree; [exact Hm|]. intros y Hy'. apply H3. rewrite elem_of_app, elem_of_cons, elem_of_app, elem_of_cons. tauto.
    + apply (Hh K' cs'); [done..|]. intros y Hy'. apply H3. revert Hy'. rewrite !elem_of_app, elem_of_cons, elem_of_app, elem_of_cons. tauto.
Qed.

Lemma app_at {A} (a : A) l1 : forall l2 m1 m2, a ∉ l1 -> a ∉ m1 -> l1 ++ a :: l2 = m1 ++ a :: m2 -> l1 = m1 /\ l2 = m2.
Proof.
  induction l1 as [|b l1 IH]; intros l2 [|c m1] m2 H1 H2 E; cbn in E.
  - by injection E.
  - injection E as -> _. destruct H2. apply elem_of_list_here.
  - injection E as -> _. destruct H1. apply elem_of_list_here.
  - injection E as -> E. destruct (IH l2 m1 m2) as [-> ->]; [| |exact E|done]; intros F; [apply H1|apply H2]; by right.
Qed.
Lemma doc_at x (A M B A' M' B' : doc) : NoDup (A ++ Open x :: M ++ Close x :: B) -> A ++ Open x :: M ++ Close x :: B = A' ++ Open x :: M' ++ Close x :: B' ->
  A' = A /\ M' = M /\ B' = B.
Proof.
  intros Hnd E. pose proof Hnd as Hnd'. rewrite E in Hnd'.
  apply NoDup_app in Hnd as (_ & H1 & H2). apply NoDup_app in Hnd' as (_ & H1' & H2').
  destruct (app_at (Open x) A (M ++ Close x :: B) A' (M' ++ Close x :: B')) as [-> E']; [| |exact E|].
  { intros F. apply (H1 _ F). apply elem_of_list_here. } { intros F. apply (H1' _ F). apply elem_of_list_here. }
  apply NoDup_cons in H2 as [_ H2], H2' as [_ H2']. apply NoDup_app in H2 as (_ & H2 & _), H2' as (_ & H2' & _).
  destruct (app_at (Close x) M B M' B') as [-> ->]; [| |exact E'|done].
  { intros F. apply (H2 _ F). apply elem_of_list_here. } { intros F. apply (H2' _ F). apply elem_of_list_here. }
Qed.

(** The node's own place in the row of its parent. *)
Lemma docs_row K r E q x ks : wf K -> docs K [r] E -> K !! q = Some ks -> x ∈ ks -> Open q ∈ E ->
  exists A M B l1 l2 cs, inside E x A M B /\ ks = l1 ++ x :: l2 /\ x ∉ l1 /\ x ∉ l2 /\ K !! x = Some cs /\ docs K cs M /\ Open q ∈ A /\
  forall K' mid S, K' !! q = Some (l1 ++ mid ++ l2) -> docs K' mid S -> (forall y, Open y ∈ A ++ B -> y <> q -> K' !! y = K !! y) -> docs K' [r] (A ++ S ++ B).
Proof.
  intros Hw D Hq Hin Hqe. pose proof (docs_nodup _ _ _ Hw D) as Hnd. destruct (docs_hole _ _ _ _ D Hqe) as (A & M & B & ks' & -> & Hq' & DM & _ & Hh).
  assert (ks' = ks) as -> by congruence. apply elem_of_list_split in Hin as (l1 & l2 & ->).
  pose proof (wf_nodup _ Hw _ _ Hq) as Hk. apply NoDup_app in Hk as (_ & Hk1 & Hk2). apply NoDup_cons in Hk2 as [Hk2 _].
  destruct (docs_app_inv _ _ _ _ DM) as (m1 & m2 & -> & D1 & D2). inversion D2 as [|? ? cs m rest Hc Hm Hr]; subst.
  exists (A ++ Open q :: m1), m, (rest ++ Close q :: B), l1, l2, cs.
  split. { split; [repeat (rewrite <- app_assoc || cbn [app]); done|by destruct A]. }
  split; [done|]. split. { intros F. apply (Hk1 _ F). apply elem_of_list_here. } split; [done|]. split; [done|]. split; [done|].
  split. { apply elem_of_app. right. apply elem_of_list_here. }
  intros K' mid S H1 H2 H3. replace ((A ++ Open q :: m1) ++ S ++ rest ++ Close q :: B) with (A ++ Open q :: (m1 ++ S ++ rest) ++ Close q :: B) by (repeat (rewrite <- app_assoc || cbn [app]); done).
  assert (Hqm : Open q ∉ m1 /\ Open q ∉ rest /\ Open q ∉ A /\ Open q ∉ B).
  { apply NoDup_app in Hnd as (_ & N1 & N2). apply NoDup_cons in N2 as [N2 _]. rewrite !elem_of_app, !elem_of_cons, !elem_of_app, elem_of_cons in N2.
    split; [tauto|]. split; [tauto|]. split; [|tauto]. intros F. apply (N1 _ F). apply elem_of_list_here. }
  apply (Hh K' (l1 ++ mid ++ l2)); [done| |].
  - apply docs_app; [|apply docs_app; [done|]].
    + eapply docs_agree; [exact D1|]. intros y Hy. apply H3; [rewrite !elem_of_app, !elem_of_cons; tauto|intros ->; tauto].
    + eapply docs_agree; [exact Hr|]. intros y Hy. apply H3; [rewrite !elem_of_app, !elem_of_cons; tauto|intros ->; tauto].
  - intros y Hy. apply H3; [revert Hy; rewrite !elem_of_app, !elem_of_cons; tauto|]. intros ->. rewrite elem_of_app in Hy. tauto.
Qed.

(** [x] stands inside a document exactly when its parent is in it. *)
Lemma inside_parent K r E x A M B : docs K [r] E -> wf K -> inside E x A M B -> exists q ks, K !! q = Some ks /\ x ∈ ks /\ Open q ∈ E.
Proof.
  intros D Hw [-> HA]. destruct (docs_up _ _ _ x D) as [Hi|(q & (ks & Hq & Hin) & Hqe)].
  - apply elem_of_app. right. apply elem_of_list_here.
  - apply elem_of_list_singleton in Hi as ->. exfalso. pose proof (docs_nodup _ _ _ Hw D) as N. destruct (docs_shape _ _ _ D) as ([z ts] & Ht & E1). inversion Ht; subst. cbn [dfs_events] in E1.
    destruct A as [|a A]; [done|]. injection E1 as -> E1. cbn [app] in N. apply NoDup_cons in N as [N _]. apply N. apply elem_of_app. right. apply elem_of_list_here.
  - by exists q, ks.
Qed.
Lemma not_inside_parent K r E x q ks : docs K [r] E -> wf K -> not_inside E x -> K !! q = Some ks -> x ∈ ks -> Open q ∉ E.
Proof. intros D Hw Hn Hq Hx F. destruct (docs_row _ _ _ _ _ _ Hw D Hq Hx F) as (A & M & B & _ & _ & _ & Hi & _). exact (Hn _ _ _ Hi). Qed.
Lemma inside_dec K r E x : docs K [r] E -> wf K -> (exists A M B, inside E x A M B) \/ not_inside E x.
Proof.
  intros D Hw. destruct (decide (Open x ∈ E)) as [Hx|Hx].
  - destruct (docs_hole _ _ _ _ D Hx) as (A & M & B & cs & -> & _ & _ & HA & _). destruct (decide (A = [])) as [->|].
    + right. intros A1 M1 B1 [E1 HA1]. pose proof (docs_nodup _ _ _ Hw D) as N. destruct (doc_at _ _ _ _ _ _ _ N E1) as [-> _]. done.
    + left. exists A, M, B. done.
  - right. intros A M B [-> _]. apply Hx. apply elem_of_app. right. apply elem_of_list_here.
Qed.
