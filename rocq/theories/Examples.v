(** * Examples: concrete forests used as non-vacuity witnesses. *)
From Verif Require Import Heap Edit Spec HeapFacts SpecFacts NavFacts EditFacts EditFacts2.

(** [grow ps]: node 0 is a root; the [i]-th element of [ps] is the parent below
    which node [i+1] is appended.  Data of node [i] is [10 * i]. *)
Fixpoint grow_from (h : heap nat) (K : forest) (n : nid) (ps : list nid) : option (heap nat * forest * nid) :=
  match ps with
  | [] => Some (h, K, n)
  | p :: ps' =>
      match K !! p with
      | None => None
      | Some ks =>
          match insert_orphan (alloc h n (10 * n) (MWeak None)) n true (LastChildOf p) with
          | Ret (h', HOk _) => grow_from h' (<[p := ks ++ [n]]> (<[n := []]> K)) (S n) ps'
          | _ => None
          end
      end
  end.

Definition grow (ps : list nid) : option (heap nat * forest * nid) :=
  grow_from (alloc ∅ 0 0 (MWeak None)) {[0 := []]} 1 ps.

Lemma grow_from_ok ps : forall h K n h' K' n',
  rep h K -> wf K -> (forall x : nid, n <= x -> K !! x = None) ->
  grow_from h K n ps = Some (h', K', n') ->
  rep h' K' /\ wf K' /\ (forall x : nid, n' <= x -> K' !! x = None).
Proof.
  induction ps as [|p ps IH]; intros h K n h' K' n' Hr Hw Hn E; simpl in E.
  { simplify_eq. done. }
  destruct (K !! p) as [ks|] eqn:Hp; [|done].
  assert (K !! n = None) as Hkn by (apply Hn; lia).
  assert (p <> n) as Hpn. { intros Epn. pose proof (Hn p ltac:(lia)) as H0. rewrite Hp in H0. done. }
  assert (rep (alloc h n (10 * n) (MWeak None)) (<[n := []]> K)) as Hr1 by (by apply rep_alloc).
  assert (wf (<[n := []]> K)) as Hw1 by (by apply wf_new).
  assert (is_top (<[n := []]> K) n) as Ht1 by (by apply is_top_new).
  assert (<[n := []]> K !! p = Some ks) as Hp1 by (by rewrite lookup_insert_ne).
  change (insert_as_last_child_of _ n true p) with
    (insert_orphan (alloc h n (10 * n) (MWeak None)) n true (LastChildOf p)) in E.
  destruct (insert_orphan_ok _ _ _ _ _ p true Hr1 Hw1 Ht1 (att_last _ n p ks Hp1)) as (h2 & E2 & Hr2 & Hw2 & _).
  { done. }
  { intros Hb. inversion Hb as [|q c Hb' (ks' & Hq & Hin)]; simplify_eq.
    assert (forall y, below (<[n := []]> K) n y -> y = n) as Hleaf.
    { intros y Hy. induction Hy as [|a b Ha IHa (ks2 & Hks2 & Hin2)]; [done|]. subst a.
      rewrite lookup_insert in Hks2. simplify_eq. set_solver. }
    by apply Hpn, Hleaf. }
  rewrite E2 in E. simpl in E. eapply IH; [exact Hr2|exact Hw2| |exact E].
  intros x Hx. assert (K !! x = None) as H0 by (apply Hn; lia).
  assert (p <> x) by (intros Epx; rewrite <-Epx in H0; rewrite Hp in H0; done).
  rewrite !lookup_insert_ne by (done || lia). done.
Qed.

Lemma wf_empty : wf ∅.
Proof.
  split.
  - intros p c (ks & H & _). by rewrite lookup_empty in H.
  - intros p ks H. by rewrite lookup_empty in H.
  - intros p q c (ks & H & _). by rewrite lookup_empty in H.
  - intros x. constructor. intros y (ks & H & _). by rewrite lookup_empty in H.
Qed.

Lemma rep_empty {T} : rep (∅ : heap T) ∅.
Proof.
  split.
  - intros x. rewrite !lookup_empty. split; intros [? [=]].
  - intros x ks H. by rewrite lookup_empty in H.
  - intros x ks H. by rewrite lookup_empty in H.
  - intros x ks H. by rewrite lookup_empty in H.
  - intros x [[ks H] _]. by rewrite lookup_empty in H.
Qed.

Lemma grow_ok ps h K n : grow ps = Some (h, K, n) -> rep h K /\ wf K.
Proof.
  unfold grow. intros E.
  assert (rep (alloc (∅ : heap nat) 0 0 (MWeak None)) {[0 := []]}) as Hr.
  { rewrite <-insert_empty. apply rep_alloc; [apply rep_empty|apply wf_empty|apply lookup_empty]. }
  assert (wf {[0 := []]}) as Hw.
  { rewrite <-insert_empty. apply wf_new; [apply wf_empty|apply lookup_empty]. }
  assert (forall x : nid, 1 <= x -> ({[0 := []]} : forest) !! x = None) as Hn.
  { intros x Hx. apply lookup_singleton_ne. lia. }
  destruct (grow_from_ok _ _ _ _ _ _ _ Hr Hw Hn E) as (H1 & H2 & _). split; assumption.
Qed.

(** The standard example: 0 -> [1; 2; 3], 1 -> [4; 5], 3 -> [6]. *)
Definition ex : option (heap nat * forest * nid) := grow [0; 0; 0; 1; 1; 3].
Definition exh : heap nat := match ex with Some (h, _, _) => h | None => ∅ end.
Definition exK : forest := match ex with Some (_, K, _) => K | None => ∅ end.

Lemma ex_ok : rep exh exK /\ wf exK.
Proof.
  unfold exh, exK. destruct ex as [[[h K] n]|] eqn:E.
  - exact (grow_ok _ _ _ _ E).
  - vm_compute in E. done.
Qed.

Example ex_shape :
  exK !! 0 = Some [1; 2; 3] /\ exK !! 1 = Some [4; 5] /\ exK !! 2 = Some [] /\
  exK !! 3 = Some [6] /\ exK !! 4 = Some [] /\ exK !! 5 = Some [] /\ exK !! 6 = Some [] /\ exK !! 7 = None.
Proof. vm_compute. done. Qed.

(** Deciding the finitely many facts needed about an example. *)
Lemma child_of_dec_iff (K : forest) p c :
  child_of K p c <-> match K !! p with Some ks => bool_decide (c ∈ ks) = true | None => False end.
Proof.
  unfold child_of. destruct (K !! p); [|naive_solver].
  rewrite bool_decide_eq_true. naive_solver.
Qed.

Lemma is_top_check (K : forest) x :
  bool_decide (is_Some (K !! x)) = true ->
  forallb (fun kv : nid * list nid => bool_decide (x ∉ kv.2)) (map_to_list K) = true ->
  is_top K x.
Proof.
  intros H1 H2. apply bool_decide_eq_true in H1. split; [done|].
  intros p (ks & Hp & Hin). rewrite forallb_forall in H2.
  assert (In (p, ks) (map_to_list K)) as Hi by (apply elem_of_list_In, elem_of_map_to_list; done).
  specialize (H2 _ Hi). simpl in H2. apply bool_decide_eq_true in H2. done.
Qed.

Lemma ex_top0 : is_top exK 0.
Proof. apply is_top_check; vm_compute; reflexivity. Qed.
