(** * ApiSpec: what each call of the public API has to do.

    Observables of a state: the stored forest ([stores]), the tree each node
    belongs to ([tree_of]), the data and borrow state of each node ([payload]),
    which trees exist, and the handles of the user.  Nothing here refers to how
    the calls are implemented. *)
From Verif Require Export System SysSpec Spec.

Section ApiSpec.
Context {T : Type}.
Implicit Types (s : sys T) (K : forest) (x : nid) (t : tid).

(** The links of the state form the ordered forest [K]. *)
Definition stores s K : Prop := rep (s_nodes s) K /\ wf K.

(** Nothing but handles, reference counts and locks differs. *)
Record same_view s s' : Prop := {
  sv_stores : forall K, stores s K -> stores s' K;
  sv_tree : forall x, tree_of s' x = tree_of s x;
  sv_payload : forall x, payload s' x = payload s x;
  sv_trees : forall t : tid, t_root <$> s_trees s' !! t = t_root <$> s_trees s !! t;
}.

(** [K'] is [K] restricted to the nodes satisfying [P]. *)
Definition only (P : nid -> Prop) K K' : Prop :=
  forall y, (P y -> K' !! y = K !! y) /\ (~ P y -> K' !! y = None).

(** No handle, not even a weak one or a token, mentions the identity [n]. *)
Definition unknown s (n : nat) : Prop := forall j hd, s_hands s !! j = Some hd -> hand_target hd <> n.

(** The user receives the handle [hd] under the new name [i]; nothing else. *)
Definition gives s s' (i : nat) (hd : handle) : Prop :=
  same_view s s' /\ s_hands s !! i = None /\ s_hands s' = <[i := hd]> (s_hands s).

(** The handle [i] on the tree [t] (or on one of its nodes) is gone; when it was
    the last one the whole tree, and nothing else, is deallocated. *)
Definition drops s K (i : nat) t s' : Prop :=
  s_hands s' = delete i (s_hands s) /\
  ((tree_held s (s_hands s') t /\ same_view s s') \/
   (~ tree_held s (s_hands s') t /\
    (exists K', only (fun y => tree_of s y <> Some t) K K' /\ stores s' K') /\
    (forall y, tree_of s y = Some t -> s_nodes s' !! y = None) /\
    (forall y, tree_of s y <> Some t -> s_nodes s' !! y = s_nodes s !! y) /\
    s_trees s' !! t = None /\ (forall u, u <> t -> s_trees s' !! u = s_trees s !! u))).

(** One node [n] with data [d] is added to the tree [t], giving the forest [K'];
    the user receives the handle [i] of kind [k] on it. *)
Record adds s s' K' t (n : nid) (d : T) (k : kind) (i : nat) : Prop := {
  ad_stores : stores s' K';
  ad_new : s_nodes s !! n = None;
  ad_unknown : unknown s n;
  ad_fresh : s_hands s !! i = None;
  ad_hands : s_hands s' = <[i := HNode k n]> (s_hands s);
  ad_data : payload s' n = Some (d, Lent 0);
  ad_tree : tree_of s' n = Some t;
  ad_payload_other : forall y, y <> n -> payload s' y = payload s y;
  ad_tree_other : forall y, y <> n -> tree_of s' y = tree_of s y;
  ad_trees : forall u : tid, is_Some (s_trees s' !! u) <-> is_Some (s_trees s !! u);
}.

(** Only the child lists change, to [K']. *)
Record reshapes s s' K' : Prop := {
  re_stores : stores s' K';
  re_hands : s_hands s' = s_hands s;
  re_payload : forall y, payload s' y = payload s y;
  re_tree : forall y, tree_of s' y = tree_of s y;
  re_trees : s_trees s' = s_trees s;
}.

(** In the forest [K1] (that of [s] with [x] already cut off from the rest of the
    tree [t]) the nodes below [x] go from the tree [t] to the tree [t'].  If no
    handle keeps [t] any more, what remained of [t] is deallocated. *)
Record carries s K1 x t t' s' K2 : Prop := {
  cy_hands : s_hands s' = s_hands s;
  cy_in : forall y, below K1 x y -> tree_of s' y = Some t';
  cy_out : forall y, ~ below K1 x y -> is_Some (s_nodes s' !! y) -> tree_of s' y = tree_of s y;
  cy_payload : forall y, is_Some (s_nodes s' !! y) -> payload s' y = payload s y;
  cy_trees : forall u, u <> t -> u <> t' -> (is_Some (s_trees s' !! u) <-> is_Some (s_trees s !! u));
  cy_dest : is_Some (s_trees s' !! t');
  cy_rest : (tree_held s' (s_hands s') t /\ is_Some (s_trees s' !! t) /\ K2 = K1) \/
            (~ tree_held s' (s_hands s') t /\ s_trees s' !! t = None /\
             only (fun y => below K1 x y \/ tree_of s y <> Some t) K1 K2);
}.

(** The same, [t'] being a new tree with root [x]. *)
Record splits s K1 x t t' s' K2 : Prop := {
  sp_carries : carries s K1 x t t' s' K2;
  sp_stores : stores s' K2;
  sp_new : s_trees s !! t' = None;
  sp_unknown : unknown s t';
  sp_root : t_root <$> s_trees s' !! t' = Some x;
}.

(** ** Authorisation of an edit *)

(** The call has the receiver [x] (a handle of kind [k]) and is authorised: the
    receiver is hot, or the token grants editing of its tree. *)
Definition receiver s (a : auth) (k : kind) x : Prop :=
  match a with
  | ByHot i => k = Hot /\ s_hands s !! i = Some (HNode Hot x)
  | ByGrant i g => k = Plain /\ s_hands s !! i = Some (HNode Plain x) /\
      exists t, tree_of s x = Some t /\ s_hands s !! g = Some (HGrant t)
  end.

(** A grant for another tree is supplied. *)
Definition unauthorised s (a : auth) : Prop :=
  match a with
  | ByHot _ => False
  | ByGrant i g => exists x t, s_hands s !! i = Some (HNode Plain x) /\
      s_hands s !! g = Some (HGrant t) /\ tree_of s x <> Some t
  end.

(** ** Histories *)

(** A sibling position exists next to [y]. *)
Definition has_place K (ad : adopt_as) (y : nid) : Prop :=
  match ad with AFirstChild | ALastChild => True | _ => exists p, child_of K p y end.

(** Nothing outside the subtree of [x] keeps the tree of [x] alive: once the subtree has
    left it, the rest of that tree is deallocated. *)
Definition alone s K x : Prop :=
  forall t, tree_of s x = Some t ->
    (forall i, s_hands s !! i <> Some (HTree t)) /\
    (forall i k y, s_hands s !! i = Some (HNode k y) -> tree_of s y = Some t -> below K x y).

(** The calls that do not run into one of the defects of the code (see the
    [_refuted] theorems): *)
Definition safe s K (o : op T) : Prop :=
  match o with
  | OpDetach a => forall k x, receiver s a k x -> last_not_first K x -> alone s K x
  | OpReplace a => forall k x, receiver s a k x -> last_not_first K x -> K !! x = Some [] -> alone s K x
  | OpMove a ad j => forall k x y, receiver s a k x -> s_hands s !! j = Some (HNode Hot y) ->
      (is_top K x /\ tree_of s x = tree_of s y) \/
      ((exists p, child_of K p x) /\ (last_not_first K x -> alone s K x) /\ ~ below K x y /\ has_place K ad y) \/
      (is_top K x /\ K !! x = Some [] /\ tree_of s x <> tree_of s y /\ alone s K x /\ has_place K ad y)
  | _ => True
  end.

(** States reachable by such calls from nothing. *)
Inductive reach : sys T -> Prop :=
| reach_init : reach init
| reach_step s K o s' r : reach s -> stores s K -> safe s K o -> step s o = Ret (s', r) -> reach s'.

(** ** The effect of every call *)

(** In [K1] the node [x] hangs below nothing: it was taken off its parent, or it was
    a tree of one node before. *)
Definition apart K x K1 : Prop := unlinked K x K1 \/ (is_top K x /\ K !! x = Some [] /\ K1 = K).

Definition has_lock (k : kind) : Prop := k <> Plain.
Definition opposite (k : kind) : kind := match k with Hot => Frozen | Frozen => Hot | Plain => Plain end.
(** Somebody holds a lock of kind [k] on tree [t]: a token (grant or prohibition), or a
    node handle of that kind on a node of [t]. *)
Definition some_lock s (k : kind) (t : tid) : Prop :=
  (exists i, token_holder (s_hands s) k t i) \/ (exists x, node_holder s (s_hands s) k t x).

(** No live lock of the other kind on [t]. *)
Definition lockable s (k : kind) t : Prop := holders s (s_hands s) (opposite k) t 0.
Definition locked_out s (k : kind) t : Prop := exists n, holders s (s_hands s) (opposite k) t (S n).

(** The node handle [i] is exchanged for the handle [j] of another kind. *)
Definition exchanges s s' (i j : nat) (hd : handle) : Prop :=
  same_view s s' /\ s_hands s !! j = None /\ s_hands s' = <[j := hd]> (delete i (s_hands s)).

(** Handle operations. *)
Definition handle_effect s K (o : op T) s' (r : out T) : Prop :=
  match o with
  | OpClone i => exists hd j, s_hands s !! i = Some hd /\ r = OutHandle j /\ gives s s' j hd
  | OpDrop i => exists hd, s_hands s !! i = Some hd /\ r = OutUnit /\
      match hd with
      | HNode _ x => exists t, tree_of s x = Some t /\ drops s K i t s'
      | HTree t => drops s K i t s'
      | _ => same_view s s' /\ s_hands s' = delete i (s_hands s)
      end
  | OpNav v i => exists k x o, s_hands s !! i = Some (HNode k x) /\ nav_spec K v x o /\
      match o with
      | None => r = OutNone /\ s' = s
      | Some y => exists j, r = OutHandle j /\ gives s s' j (HNode k y)
      end
  | OpTree i => exists k x t j, s_hands s !! i = Some (HNode k x) /\ tree_of s x = Some t /\
      r = OutHandle j /\ gives s s' j (HTree t)
  | OpRoot i => exists t y j, s_hands s !! i = Some (HTree t) /\ is_top K y /\ tree_of s y = Some t /\
      r = OutHandle j /\ gives s s' j (HNode Plain y)
  | OpLock k i => exists t, s_hands s !! i = Some (HTree t) /\ has_lock k /\
      ((lockable s k t /\ exists j, r = OutHandle j /\ gives s s' j (token k t)) \/
       (locked_out s k t /\ r = OutLockErr /\ s' = s))
  | OpBundle k i => exists x t, s_hands s !! i = Some (HNode Plain x) /\ has_lock k /\ tree_of s x = Some t /\
      ((lockable s k t /\ exists j, r = OutHandle j /\ exchanges s s' i j (HNode k x)) \/
       (locked_out s k t /\ r = OutLockErr /\ drops s K i t s'))
  | OpBundleWith i j => exists k x t m, s_hands s !! i = Some (HNode Plain x) /\ has_lock k /\
      tree_of s x = Some t /\ s_hands s !! j = Some (token k t) /\
      r = OutHandle m /\ exchanges s s' i m (HNode k x)
  | OpPlain i => exists k x j, s_hands s !! i = Some (HNode k x) /\ has_lock k /\
      r = OutHandle j /\ gives s s' j (HNode Plain x)
  | OpExtract i => exists k x t j, s_hands s !! i = Some (HNode k x) /\ has_lock k /\ tree_of s x = Some t /\
      r = OutHandle j /\ gives s s' j (token k t)
  | OpDowngrade i => exists j, r = OutHandle j /\
      ((exists x, s_hands s !! i = Some (HNode Plain x) /\ gives s s' j (HNodeWeak x)) \/
       (exists t, s_hands s !! i = Some (HTree t) /\ gives s s' j (HTreeWeak t)))
  | OpUpgrade i =>
      (exists x, s_hands s !! i = Some (HNodeWeak x) /\
         ((is_Some (K !! x) /\ exists j, r = OutHandle j /\ gives s s' j (HNode Plain x)) \/
          (K !! x = None /\ r = OutNone /\ s' = s))) \/
      (exists t, s_hands s !! i = Some (HTreeWeak t) /\
         ((tree_held s (s_hands s) t /\ exists j, r = OutHandle j /\ gives s s' j (HTree t)) \/
          (~ tree_held s (s_hands s) t /\ r = OutNone /\ s' = s)))
  | _ => False
  end.

(** Borrowing rules: [b] is granted and changes the state of lending from [l] to [l']. *)
Definition lends (b : loan) (l l' : lending) : Prop :=
  match b with
  | TakeRef => exists n, l = Lent n /\ l' = Lent (S n)
  | TakeMut => l = Lent 0 /\ l' = LentMut
  | GiveRef => (exists n, l = Lent (S n) /\ l' = Lent n) \/ ((forall n, l <> Lent (S n)) /\ l' = l)
  | GiveMut => (l = LentMut /\ l' = Lent 0) \/ (l <> LentMut /\ l' = l)
  end.

(** Only the data of [x] and the state of its lending change, to [d] and [l]. *)
Definition sets s (x : nid) (d : T) (l : lending) s' : Prop :=
  s_hands s' = s_hands s /\ s_trees s' = s_trees s /\
  (forall K, stores s K -> stores s' K) /\ (forall y, tree_of s' y = tree_of s y) /\
  payload s' x = Some (d, l) /\ forall y, y <> x -> payload s' y = payload s y.

(** Data access. *)
Definition data_effect s (o : op T) s' (r : out T) : Prop :=
  match o with
  | OpGet i => exists k x d l, s_hands s !! i = Some (HNode k x) /\ payload s x = Some (d, l) /\ s' = s /\
      ((l = LentMut /\ r = OutBorrowErr) \/ (l <> LentMut /\ r = OutData d))
  | OpSet i d' => exists k x d l, s_hands s !! i = Some (HNode k x) /\ payload s x = Some (d, l) /\
      ((l <> Lent 0 /\ s' = s /\ r = OutBorrowErr) \/ (l = Lent 0 /\ r = OutUnit /\ sets s x d' l s'))
  | OpBorrow i b => exists k x d l, s_hands s !! i = Some (HNode k x) /\ payload s x = Some (d, l) /\
      (((forall l', ~ lends b l l') /\ s' = s /\ r = OutBorrowErr) \/ (exists l', lends b l l' /\ r = OutUnit /\ sets s x d l' s'))
  | _ => False
  end.

(** Edits of the hierarchy. *)
Definition edit_effect s K (o : op T) s' (r : out T) : Prop :=
  match o with
  | OpNewTree d => exists (n : nid) (t : tid) i, r = OutHandle i /\ s_trees s !! t = None /\ unknown s n /\ unknown s t /\
      s_nodes s !! n = None /\ s_hands s !! i = None /\
      s_hands s' = <[i := HNode Plain n]> (s_hands s) /\
      stores s' (<[n := []]> K) /\ payload s' n = Some (d, Lent 0) /\ tree_of s' n = Some t /\
      (forall y, y <> n -> payload s' y = payload s y /\ tree_of s' y = tree_of s y) /\
      (forall u, is_Some (s_trees s' !! u) <-> u = t \/ is_Some (s_trees s !! u))
  | OpCreate a d ad => exists k x t, receiver s a k x /\ tree_of s x = Some t /\
      ((has_place K ad x /\ exists n i K', r = OutHandle i /\
          attached (<[n := []]> K) n (dest_of ad x) K' /\ adds s s' K' t n d k i) \/
       (~ has_place K ad x /\ r = OutErr SiblingsWithoutParent /\
          s_nodes s' = s_nodes s /\ s_trees s' = s_trees s /\ s_hands s' = s_hands s))
  | OpInterruptParent a d => exists k x t n i, receiver s a k x /\ tree_of s x = Some t /\ r = OutHandle i /\
      ((is_top K x /\ adds s s' (<[n := [x]]> K) t n d k i) \/
       (exists p ks, K !! p = Some ks /\ x ∈ ks /\
          adds s s' (<[n := [x]]> (<[p := subst_child x n ks]> K)) t n d k i))
  | OpInterruptChild a d => exists k x t n i ks, receiver s a k x /\ tree_of s x = Some t /\ r = OutHandle i /\
      K !! x = Some ks /\ adds s s' (<[x := [n]]> (<[n := ks]> K)) t n d k i
  | OpReplace a => exists k x t cs, receiver s a k x /\ tree_of s x = Some t /\ K !! x = Some cs /\
      ((exists p ks t' K2, K !! p = Some ks /\ x ∈ ks /\ r = OutUnit /\
          splits s (<[x := []]> (<[p := splice x cs ks]> K)) x t t' s' K2) \/
       (is_top K x /\ exists c t' K2, cs = [c] /\ r = OutUnit /\
          splits s (<[x := []]> K) x t t' s' K2 /\
          (is_Some (s_trees s' !! t) -> t_root <$> s_trees s' !! t = Some c)) \/
       (is_top K x /\ cs = [] /\ r = OutErr EmptyTree /\ s' = s) \/
       (is_top K x /\ 1 < length cs /\ r = OutErr SiblingsWithoutParent /\ s' = s))
  | OpDetach a => exists k x t, receiver s a k x /\ tree_of s x = Some t /\ r = OutUnit /\
      ((is_top K x /\ s' = s) \/
       (exists K1 t' K2, unlinked K x K1 /\ splits s K1 x t t' s' K2))
  | OpMove a ad j => exists k x y t t', receiver s a k x /\ s_hands s !! j = Some (HNode Hot y) /\
      tree_of s x = Some t /\ tree_of s y = Some t' /\ r = OutUnit /\
      ((is_top K x /\ t = t' /\ s' = s) \/
       (t = t' /\ exists K', moved K x (dest_of ad y) K' /\ reshapes s s' K') \/
       (t <> t' /\ exists K1 K2 K3, apart K x K1 /\ carries s K1 x t t' s' K2 /\
          attached K2 x (dest_of ad y) K3 /\ stores s' K3))
  | _ => False
  end.

Definition effect s K (o : op T) s' (r : out T) : Prop :=
  handle_effect s K o s' r \/ data_effect s o s' r \/ edit_effect s K o s' r.

(** The call is well-typed Rust: the handles exist and are of the right type. *)
Definition typed_auth s (a : auth) : Prop :=
  match a with
  | ByHot i => exists x, s_hands s !! i = Some (HNode Hot x)
  | ByGrant i g => exists x t, s_hands s !! i = Some (HNode Plain x) /\ s_hands s !! g = Some (HGrant t)
  end.
Definition well_typed s (o : op T) : Prop :=
  match o with
  | OpNewTree _ => True
  | OpClone i | OpDrop i => is_Some (s_hands s !! i)
  | OpNav _ i | OpTree i | OpGet i | OpSet i _ | OpBorrow i _ => exists k x, s_hands s !! i = Some (HNode k x)
  | OpRoot i => exists t, s_hands s !! i = Some (HTree t)
  | OpLock k i => has_lock k /\ exists t, s_hands s !! i = Some (HTree t)
  | OpBundle k i => has_lock k /\ exists x, s_hands s !! i = Some (HNode Plain x)
  | OpBundleWith i j => exists x k t, s_hands s !! i = Some (HNode Plain x) /\ has_lock k /\ s_hands s !! j = Some (token k t)
  | OpPlain i | OpExtract i => exists k x, has_lock k /\ s_hands s !! i = Some (HNode k x)
  | OpDowngrade i => (exists x, s_hands s !! i = Some (HNode Plain x)) \/ (exists t, s_hands s !! i = Some (HTree t))
  | OpUpgrade i => (exists x, s_hands s !! i = Some (HNodeWeak x)) \/ (exists t, s_hands s !! i = Some (HTreeWeak t))
  | OpCreate a _ _ | OpInterruptParent a _ | OpInterruptChild a _ | OpReplace a | OpDetach a => typed_auth s a
  | OpMove a _ j => typed_auth s a /\ exists y, s_hands s !! j = Some (HNode Hot y)
  end.

(** The calls that must panic: an edit under a grant of another tree, bundling
    with a token of another tree. *)
Definition must_panic s (o : op T) : Prop :=
  match o with
  | OpCreate a _ _ | OpInterruptParent a _ | OpInterruptChild a _ | OpReplace a | OpDetach a => unauthorised s a
  | OpMove a _ j => unauthorised s a /\ exists y, s_hands s !! j = Some (HNode Hot y)
  | OpBundleWith i j => exists k x t, s_hands s !! i = Some (HNode Plain x) /\ has_lock k /\
      s_hands s !! j = Some (token k t) /\ tree_of s x <> Some t
  | _ => False
  end.

(** The trees an edit may change: that of its receiver, and the destination. *)
Definition touches s (o : op T) t : Prop :=
  match o with
  | OpCreate a _ _ | OpInterruptParent a _ | OpInterruptChild a _ | OpReplace a | OpDetach a =>
      exists k x, receiver s a k x /\ tree_of s x = Some t
  | OpMove a _ j =>
      (exists k x, receiver s a k x /\ tree_of s x = Some t) \/
      (exists y, s_hands s !! j = Some (HNode Hot y) /\ tree_of s y = Some t)
  | _ => False
  end.

(** The calls that only concern handles. *)
Definition handle_op (o : op T) : Prop :=
  match o with
  | OpClone _ | OpDrop _ | OpNav _ _ | OpTree _ | OpRoot _ | OpLock _ _ | OpBundle _ _ | OpBundleWith _ _
  | OpPlain _ | OpExtract _ | OpDowngrade _ | OpUpgrade _ => True
  | _ => False
  end.
(** The calls that write data. *)
Definition writes_data (o : op T) : Prop :=
  match o with OpSet _ _ | OpBorrow _ _ => True | _ => False end.

End ApiSpec.
