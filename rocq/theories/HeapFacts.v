(** * HeapFacts: how field reads see field writes. *)
From Verif Require Import Heap Spec.

Section Facts.
Context {T : Type}.
Implicit Types (h : heap T) (x y : nid).

Lemma alive_spec h x : alive h x = true <-> is_Some (h !! x).
Proof. unfold alive. apply bool_decide_eq_true. Qed.

Lemma alive_some h x nd : h !! x = Some nd -> alive h x = true.
Proof. intros. apply alive_spec. eauto. Qed.

Ltac solve_set :=
  unfold fparent, ffirst, fnext, fprev, fnch, fmeta, alive, set_parent, set_prev,
         set_next, set_first, set_nch, set_mem, set_data, set_lend in *;
  repeat match goal with
  | |- context[decide (?a = ?b)] => destruct (decide (a = b)); subst
  end;
  rewrite ?lookup_alter, ?lookup_alter_ne by congruence;
  try match goal with |- context[?h !! ?x] => destruct (h !! x) eqn:? end;
  simpl; try done;
  try (symmetry; apply bool_decide_eq_true_2; eauto; fail);
  try (symmetry; apply bool_decide_eq_false_2; intros [? ?]; done).

(* same-field reads *)
Lemma fparent_set_parent h x v y :
  fparent (set_parent h x v) y =
  if decide (y = x) then (if alive h x then v else None) else fparent h y.
Proof. solve_set. Qed.
Lemma fprev_set_prev h x v y :
  fprev (set_prev h x v) y =
  if decide (y = x) then (if alive h x then v else None) else fprev h y.
Proof. solve_set. Qed.
Lemma fnext_set_next h x v y :
  fnext (set_next h x v) y =
  if decide (y = x) then (if alive h x then v else None) else fnext h y.
Proof. solve_set. Qed.
Lemma ffirst_set_first h x v y :
  ffirst (set_first h x v) y =
  if decide (y = x) then (if alive h x then v else None) else ffirst h y.
Proof. solve_set. Qed.
Lemma fnch_set_nch h x v y :
  fnch (set_nch h x v) y =
  if decide (y = x) then (if alive h x then v else 0) else fnch h y.
Proof. solve_set. Qed.

(* other-field reads *)
Ltac other := intros; solve_set;
  destruct (decide (_ = _)); subst; rewrite ?lookup_alter, ?lookup_alter_ne by congruence;
  try match goal with |- context[?h !! ?x] => destruct (h !! x) eqn:? end; simpl; try done.

Lemma fld_alter {A} (f : node T -> node T) (g : node T -> A) h x y :
  (forall nd, g (f nd) = g nd) ->
  g <$> alter f x h !! y = g <$> h !! y.
Proof.
  intros Hg. destruct (decide (x = y)) as [->|].
  - rewrite lookup_alter. destruct (h !! y); simpl; [by rewrite Hg|done].
  - by rewrite lookup_alter_ne.
Qed.
Lemma fld_alter_bind {A} (f : node T -> node T) (g : node T -> option A) h x y :
  (forall nd, g (f nd) = g nd) ->
  alter f x h !! y ≫= g = h !! y ≫= g.
Proof.
  intros Hg. destruct (decide (x = y)) as [->|].
  - rewrite lookup_alter. destruct (h !! y); simpl; [by rewrite Hg|done].
  - by rewrite lookup_alter_ne.
Qed.
Ltac fld := first [ apply fld_alter_bind; done
  | unfold fnch; f_equal; apply fld_alter; done
  | apply fld_alter; done ].

Lemma fparent_set_prev h x v y : fparent (set_prev h x v) y = fparent h y. Proof. fld. Qed.
Lemma fparent_set_next h x v y : fparent (set_next h x v) y = fparent h y. Proof. fld. Qed.
Lemma fparent_set_first h x v y : fparent (set_first h x v) y = fparent h y. Proof. fld. Qed.
Lemma fparent_set_nch h x v y : fparent (set_nch h x v) y = fparent h y. Proof. fld. Qed.
Lemma fparent_set_mem h x v y : fparent (set_mem h x v) y = fparent h y. Proof. fld. Qed.
Lemma fparent_set_data h x v y : fparent (set_data h x v) y = fparent h y. Proof. fld. Qed.
Lemma fparent_set_lend h x v y : fparent (set_lend h x v) y = fparent h y. Proof. fld. Qed.

Lemma fprev_set_parent h x v y : fprev (set_parent h x v) y = fprev h y. Proof. fld. Qed.
Lemma fprev_set_next h x v y : fprev (set_next h x v) y = fprev h y. Proof. fld. Qed.
Lemma fprev_set_first h x v y : fprev (set_first h x v) y = fprev h y. Proof. fld. Qed.
Lemma fprev_set_nch h x v y : fprev (set_nch h x v) y = fprev h y. Proof. fld. Qed.
Lemma fprev_set_mem h x v y : fprev (set_mem h x v) y = fprev h y. Proof. fld. Qed.
Lemma fprev_set_data h x v y : fprev (set_data h x v) y = fprev h y. Proof. fld. Qed.
Lemma fprev_set_lend h x v y : fprev (set_lend h x v) y = fprev h y. Proof. fld. Qed.

Lemma fnext_set_parent h x v y : fnext (set_parent h x v) y = fnext h y. Proof. fld. Qed.
Lemma fnext_set_prev h x v y : fnext (set_prev h x v) y = fnext h y. Proof. fld. Qed.
Lemma fnext_set_first h x v y : fnext (set_first h x v) y = fnext h y. Proof. fld. Qed.
Lemma fnext_set_nch h x v y : fnext (set_nch h x v) y = fnext h y. Proof. fld. Qed.
Lemma fnext_set_mem h x v y : fnext (set_mem h x v) y = fnext h y. Proof. fld. Qed.
Lemma fnext_set_data h x v y : fnext (set_data h x v) y = fnext h y. Proof. fld. Qed.
Lemma fnext_set_lend h x v y : fnext (set_lend h x v) y = fnext h y. Proof. fld. Qed.

Lemma ffirst_set_parent h x v y : ffirst (set_parent h x v) y = ffirst h y. Proof. fld. Qed.
Lemma ffirst_set_prev h x v y : ffirst (set_prev h x v) y = ffirst h y. Proof. fld. Qed.
Lemma ffirst_set_next h x v y : ffirst (set_next h x v) y = ffirst h y. Proof. fld. Qed.
Lemma ffirst_set_nch h x v y : ffirst (set_nch h x v) y = ffirst h y. Proof. fld. Qed.
Lemma ffirst_set_mem h x v y : ffirst (set_mem h x v) y = ffirst h y. Proof. fld. Qed.
Lemma ffirst_set_data h x v y : ffirst (set_data h x v) y = ffirst h y. Proof. fld. Qed.
Lemma ffirst_set_lend h x v y : ffirst (set_lend h x v) y = ffirst h y. Proof. fld. Qed.

Lemma fnch_set_parent h x v y : fnch (set_parent h x v) y = fnch h y. Proof. fld. Qed.
Lemma fnch_set_prev h x v y : fnch (set_prev h x v) y = fnch h y. Proof. fld. Qed.
Lemma fnch_set_next h x v y : fnch (set_next h x v) y = fnch h y. Proof. fld. Qed.
Lemma fnch_set_first h x v y : fnch (set_first h x v) y = fnch h y. Proof. fld. Qed.
Lemma fnch_set_mem h x v y : fnch (set_mem h x v) y = fnch h y. Proof. fld. Qed.
Lemma fnch_set_data h x v y : fnch (set_data h x v) y = fnch h y. Proof. fld. Qed.
Lemma fnch_set_lend h x v y : fnch (set_lend h x v) y = fnch h y. Proof. fld. Qed.

Lemma fmeta_set_parent h x v y : fmeta (set_parent h x v) y = fmeta h y. Proof. fld. Qed.
Lemma fmeta_set_prev h x v y : fmeta (set_prev h x v) y = fmeta h y. Proof. fld. Qed.
Lemma fmeta_set_next h x v y : fmeta (set_next h x v) y = fmeta h y. Proof. fld. Qed.
Lemma fmeta_set_first h x v y : fmeta (set_first h x v) y = fmeta h y. Proof. fld. Qed.
Lemma fmeta_set_nch h x v y : fmeta (set_nch h x v) y = fmeta h y. Proof. fld. Qed.

Lemma is_Some_alter (f : node T -> node T) h x y :
  is_Some (alter f x h !! y) <-> is_Some (h !! y).
Proof.
  destruct (decide (x = y)) as [->|].
  - rewrite lookup_alter, fmap_is_Some. done.
  - by rewrite lookup_alter_ne.
Qed.
Lemma alive_alter (f : node T -> node T) h x y : alive (alter f x h) y = alive h y.
Proof. unfold alive. apply bool_decide_ext, is_Some_alter. Qed.

Lemma alive_set_parent h x v y : alive (set_parent h x v) y = alive h y. Proof. apply alive_alter. Qed.
Lemma alive_set_prev h x v y : alive (set_prev h x v) y = alive h y. Proof. apply alive_alter. Qed.
Lemma alive_set_next h x v y : alive (set_next h x v) y = alive h y. Proof. apply alive_alter. Qed.
Lemma alive_set_first h x v y : alive (set_first h x v) y = alive h y. Proof. apply alive_alter. Qed.
Lemma alive_set_nch h x v y : alive (set_nch h x v) y = alive h y. Proof. apply alive_alter. Qed.
Lemma alive_set_mem h x v y : alive (set_mem h x v) y = alive h y. Proof. apply alive_alter. Qed.
Lemma alive_set_data h x v y : alive (set_data h x v) y = alive h y. Proof. apply alive_alter. Qed.
Lemma alive_set_lend h x v y : alive (set_lend h x v) y = alive h y. Proof. apply alive_alter. Qed.

(* compound setters *)
Lemma fparent_cas h a b y : fparent (connect_adjacent_siblings h a b) y = fparent h y.
Proof. unfold connect_adjacent_siblings. by rewrite fparent_set_next, fparent_set_prev. Qed.
Lemma ffirst_cas h a b y : ffirst (connect_adjacent_siblings h a b) y = ffirst h y.
Proof. unfold connect_adjacent_siblings. by rewrite ffirst_set_next, ffirst_set_prev. Qed.
Lemma fnch_cas h a b y : fnch (connect_adjacent_siblings h a b) y = fnch h y.
Proof. unfold connect_adjacent_siblings. by rewrite fnch_set_next, fnch_set_prev. Qed.
Lemma fmeta_cas h a b y : fmeta (connect_adjacent_siblings h a b) y = fmeta h y.
Proof. unfold connect_adjacent_siblings. by rewrite fmeta_set_next, fmeta_set_prev. Qed.
Lemma alive_cas h a b y : alive (connect_adjacent_siblings h a b) y = alive h y.
Proof. unfold connect_adjacent_siblings. by rewrite alive_set_next, alive_set_prev. Qed.
Lemma fnext_cas h a b y : fnext (connect_adjacent_siblings h a b) y =
  if decide (y = a) then (if alive h a then Some b else None) else fnext h y.
Proof. unfold connect_adjacent_siblings. by rewrite fnext_set_next, alive_set_prev, fnext_set_prev. Qed.
Lemma fprev_cas h a b y : fprev (connect_adjacent_siblings h a b) y =
  if decide (y = b) then (if alive h b then Some a else None) else fprev h y.
Proof. unfold connect_adjacent_siblings. by rewrite fprev_set_next, fprev_set_prev. Qed.

Lemma fparent_nca h a v y : fparent (num_children_add h a v) y = fparent h y. Proof. apply fparent_set_nch. Qed.
Lemma fprev_nca h a v y : fprev (num_children_add h a v) y = fprev h y. Proof. apply fprev_set_nch. Qed.
Lemma fnext_nca h a v y : fnext (num_children_add h a v) y = fnext h y. Proof. apply fnext_set_nch. Qed.
Lemma ffirst_nca h a v y : ffirst (num_children_add h a v) y = ffirst h y. Proof. apply ffirst_set_nch. Qed.
Lemma fmeta_nca h a v y : fmeta (num_children_add h a v) y = fmeta h y. Proof. apply fmeta_set_nch. Qed.
Lemma alive_nca h a v y : alive (num_children_add h a v) y = alive h y. Proof. apply alive_set_nch. Qed.
Lemma fnch_nca h a v y : fnch (num_children_add h a v) y =
  if decide (y = a) then (if alive h a then fnch h a + v else 0) else fnch h y.
Proof. apply fnch_set_nch. Qed.

(* allocation *)
Lemma alive_alloc h n d m y : alive (alloc h n d m) y = if decide (y = n) then true else alive h y.
Proof.
  unfold alive, alloc. destruct (decide (y = n)) as [->|].
  - rewrite lookup_insert. apply bool_decide_eq_true_2. eauto.
  - by rewrite lookup_insert_ne.
Qed.
Ltac al := unfold fparent, fprev, fnext, ffirst, fnch, fmeta, alloc;
  destruct (decide _) as [->|]; [by rewrite lookup_insert|by rewrite lookup_insert_ne].
Lemma fparent_alloc h n d m y : fparent (alloc h n d m) y = if decide (y = n) then None else fparent h y.
Proof. al. Qed.
Lemma ffirst_alloc h n d m y : ffirst (alloc h n d m) y = if decide (y = n) then None else ffirst h y.
Proof. al. Qed.
Lemma fnext_alloc h n d m y : fnext (alloc h n d m) y = if decide (y = n) then None else fnext h y.
Proof. al. Qed.
Lemma fprev_alloc h n d m y : fprev (alloc h n d m) y = if decide (y = n) then Some n else fprev h y.
Proof. al. Qed.
Lemma fnch_alloc h n d m y : fnch (alloc h n d m) y = if decide (y = n) then 0 else fnch h y.
Proof. al. Qed.
Lemma fmeta_alloc h n d m y :
  fmeta (alloc h n d m) y = if decide (y = n) then Some (d, Lent 0, m) else fmeta h y.
Proof. al. Qed.

End Facts.

Global Hint Rewrite
  @fparent_set_parent @fprev_set_prev @fnext_set_next @ffirst_set_first @fnch_set_nch
  @fparent_set_prev @fparent_set_next @fparent_set_first @fparent_set_nch @fparent_set_mem @fparent_set_data @fparent_set_lend
  @fprev_set_parent @fprev_set_next @fprev_set_first @fprev_set_nch @fprev_set_mem @fprev_set_data @fprev_set_lend
  @fnext_set_parent @fnext_set_prev @fnext_set_first @fnext_set_nch @fnext_set_mem @fnext_set_data @fnext_set_lend
  @ffirst_set_parent @ffirst_set_prev @ffirst_set_next @ffirst_set_nch @ffirst_set_mem @ffirst_set_data @ffirst_set_lend
  @fnch_set_parent @fnch_set_prev @fnch_set_next @fnch_set_first @fnch_set_mem @fnch_set_data @fnch_set_lend
  @fmeta_set_parent @fmeta_set_prev @fmeta_set_next @fmeta_set_first @fmeta_set_nch
  @alive_set_parent @alive_set_prev @alive_set_next @alive_set_first @alive_set_nch @alive_set_mem @alive_set_data @alive_set_lend
  @fparent_cas @ffirst_cas @fnch_cas @fmeta_cas @alive_cas @fnext_cas @fprev_cas
  @fparent_nca @fprev_nca @fnext_nca @ffirst_nca @fmeta_nca @alive_nca @fnch_nca
  @alive_alloc @fparent_alloc @ffirst_alloc @fnext_alloc @fprev_alloc @fnch_alloc @fmeta_alloc
  : heap.

(** Rewrite every field read over field writes, deciding identity tests. *)
Ltac hs1 :=
  match goal with
  | |- context[fparent ?hh ?y] =>
      lazymatch hh with
      | set_parent ?h ?x ?v => rewrite (fparent_set_parent h x v y)
      | set_prev ?h ?x ?v => rewrite (fparent_set_prev h x v y)
      | set_next ?h ?x ?v => rewrite (fparent_set_next h x v y)
      | set_first ?h ?x ?v => rewrite (fparent_set_first h x v y)
      | set_nch ?h ?x ?v => rewrite (fparent_set_nch h x v y)
      | set_mem ?h ?x ?v => rewrite (fparent_set_mem h x v y)
      | set_data ?h ?x ?v => rewrite (fparent_set_data h x v y)
      | set_lend ?h ?x ?v => rewrite (fparent_set_lend h x v y)
      | connect_adjacent_siblings ?h ?a ?b => rewrite (fparent_cas h a b y)
      | num_children_add ?h ?a ?v => rewrite (fparent_nca h a v y)
      | alloc ?h ?n ?d ?m => rewrite (fparent_alloc h n d m y)
      end
  | |- context[fprev ?hh ?y] =>
      lazymatch hh with
      | set_parent ?h ?x ?v => rewrite (fprev_set_parent h x v y)
      | set_prev ?h ?x ?v => rewrite (fprev_set_prev h x v y)
      | set_next ?h ?x ?v => rewrite (fprev_set_next h x v y)
      | set_first ?h ?x ?v => rewrite (fprev_set_first h x v y)
      | set_nch ?h ?x ?v => rewrite (fprev_set_nch h x v y)
      | set_mem ?h ?x ?v => rewrite (fprev_set_mem h x v y)
      | set_data ?h ?x ?v => rewrite (fprev_set_data h x v y)
      | set_lend ?h ?x ?v => rewrite (fprev_set_lend h x v y)
      | connect_adjacent_siblings ?h ?a ?b => rewrite (fprev_cas h a b y)
      | num_children_add ?h ?a ?v => rewrite (fprev_nca h a v y)
      | alloc ?h ?n ?d ?m => rewrite (fprev_alloc h n d m y)
      end
  | |- context[fnext ?hh ?y] =>
      lazymatch hh with
      | set_parent ?h ?x ?v => rewrite (fnext_set_parent h x v y)
      | set_prev ?h ?x ?v => rewrite (fnext_set_prev h x v y)
      | set_next ?h ?x ?v => rewrite (fnext_set_next h x v y)
      | set_first ?h ?x ?v => rewrite (fnext_set_first h x v y)
      | set_nch ?h ?x ?v => rewrite (fnext_set_nch h x v y)
      | set_mem ?h ?x ?v => rewrite (fnext_set_mem h x v y)
      | set_data ?h ?x ?v => rewrite (fnext_set_data h x v y)
      | set_lend ?h ?x ?v => rewrite (fnext_set_lend h x v y)
      | connect_adjacent_siblings ?h ?a ?b => rewrite (fnext_cas h a b y)
      | num_children_add ?h ?a ?v => rewrite (fnext_nca h a v y)
      | alloc ?h ?n ?d ?m => rewrite (fnext_alloc h n d m y)
      end
  | |- context[ffirst ?hh ?y] =>
      lazymatch hh with
      | set_parent ?h ?x ?v => rewrite (ffirst_set_parent h x v y)
      | set_prev ?h ?x ?v => rewrite (ffirst_set_prev h x v y)
      | set_next ?h ?x ?v => rewrite (ffirst_set_next h x v y)
      | set_first ?h ?x ?v => rewrite (ffirst_set_first h x v y)
      | set_nch ?h ?x ?v => rewrite (ffirst_set_nch h x v y)
      | set_mem ?h ?x ?v => rewrite (ffirst_set_mem h x v y)
      | set_data ?h ?x ?v => rewrite (ffirst_set_data h x v y)
      | set_lend ?h ?x ?v => rewrite (ffirst_set_lend h x v y)
      | connect_adjacent_siblings ?h ?a ?b => rewrite (ffirst_cas h a b y)
      | num_children_add ?h ?a ?v => rewrite (ffirst_nca h a v y)
      | alloc ?h ?n ?d ?m => rewrite (ffirst_alloc h n d m y)
      end
  | |- context[fnch ?hh ?y] =>
      lazymatch hh with
      | set_parent ?h ?x ?v => rewrite (fnch_set_parent h x v y)
      | set_prev ?h ?x ?v => rewrite (fnch_set_prev h x v y)
      | set_next ?h ?x ?v => rewrite (fnch_set_next h x v y)
      | set_first ?h ?x ?v => rewrite (fnch_set_first h x v y)
      | set_nch ?h ?x ?v => rewrite (fnch_set_nch h x v y)
      | set_mem ?h ?x ?v => rewrite (fnch_set_mem h x v y)
      | set_data ?h ?x ?v => rewrite (fnch_set_data h x v y)
      | set_lend ?h ?x ?v => rewrite (fnch_set_lend h x v y)
      | connect_adjacent_siblings ?h ?a ?b => rewrite (fnch_cas h a b y)
      | num_children_add ?h ?a ?v => rewrite (fnch_nca h a v y)
      | alloc ?h ?n ?d ?m => rewrite (fnch_alloc h n d m y)
      end
  | |- context[fmeta ?hh ?y] =>
      lazymatch hh with
      | set_parent ?h ?x ?v => rewrite (fmeta_set_parent h x v y)
      | set_prev ?h ?x ?v => rewrite (fmeta_set_prev h x v y)
      | set_next ?h ?x ?v => rewrite (fmeta_set_next h x v y)
      | set_first ?h ?x ?v => rewrite (fmeta_set_first h x v y)
      | set_nch ?h ?x ?v => rewrite (fmeta_set_nch h x v y)
      | connect_adjacent_siblings ?h ?a ?b => rewrite (fmeta_cas h a b y)
      | num_children_add ?h ?a ?v => rewrite (fmeta_nca h a v y)
      | alloc ?h ?n ?d ?m => rewrite (fmeta_alloc h n d m y)
      end
  | |- context[alive ?hh ?y] =>
      lazymatch hh with
      | set_parent ?h ?x ?v => rewrite (alive_set_parent h x v y)
      | set_prev ?h ?x ?v => rewrite (alive_set_prev h x v y)
      | set_next ?h ?x ?v => rewrite (alive_set_next h x v y)
      | set_first ?h ?x ?v => rewrite (alive_set_first h x v y)
      | set_nch ?h ?x ?v => rewrite (alive_set_nch h x v y)
      | set_mem ?h ?x ?v => rewrite (alive_set_mem h x v y)
      | set_data ?h ?x ?v => rewrite (alive_set_data h x v y)
      | set_lend ?h ?x ?v => rewrite (alive_set_lend h x v y)
      | connect_adjacent_siblings ?h ?a ?b => rewrite (alive_cas h a b y)
      | num_children_add ?h ?a ?v => rewrite (alive_nca h a v y)
      | alloc ?h ?n ?d ?m => rewrite (alive_alloc h n d m y)
      end
  end.
Ltac hs := repeat hs1; repeat (case_decide; simplify_eq; try done; repeat hs1).

(** [set_solver] on the membership facts only. *)
Ltac ls :=
  repeat match goal with
  | H : ?P |- _ =>
      lazymatch P with
      | context[alive] => clear H
      | context[child_of] => clear H
      | context[elem_of] => fail
      | _ <> _ => fail
      | @eq nid _ _ => fail
      | @eq nat _ _ => fail
      | _ => clear H
      end
  end;
  set_solver.
