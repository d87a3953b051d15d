(** * SerialSpec: equality of ordered trees, bracketed sequences.  Independent of
    the code of serial.rs. *)
From Verif Require Export Serial IterSpec ApiSpec.

(** Same shape and pairwise related labels. *)
Inductive rose_rel {A B} (R : A -> B -> Prop) : rose A -> rose B -> Prop :=
| rose_rel_intro a b ts us : R a b -> Forall2 (rose_rel R) ts us -> rose_rel R (Rose a ts) (Rose b us).

Section Data.
Context {T : Type}.
(** The data of a live node; whether it is mutably borrowed. *)
Definition data_is (h : heap T) (x : nid) (d : T) : Prop := exists nd, h !! x = Some nd /\ n_data nd = d.
Definition borrowed (h : heap T) (x : nid) : Prop := exists nd, h !! x = Some nd /\ n_mut nd = true.
Definition readable (h : heap T) (x : nid) (d : T) : Prop := data_is h x d /\ ~ borrowed h x.

(** [td] is the subtree [t] with each node replaced by its data. *)
Definition data_tree (h : heap T) (t : rose nid) (td : rose T) : Prop := rose_rel (data_is h) t td.
End Data.

(** The subtrees have the same shape and pairwise equal data. *)
Definition equal_data {T U} (eqb : T -> U -> bool) (h1 : heap T) (h2 : heap U) (t1 t2 : rose nid) : Prop :=
  rose_rel (fun a b => exists d e, data_is h1 a d /\ data_is h2 b e /\ eqb d e = true) t1 t2.

(** What [try_eq] must answer for the subtrees [t1] and [t2]. *)
Definition eq_answer {T U} (eqb : T -> U -> bool) (h1 : heap T) (h2 : heap U) (t1 t2 : rose nid) (r : option bool) : Prop :=
  let none_borrowed := (forall z, z ∈ rose_nodes t1 -> ~ borrowed h1 z) /\ (forall z, z ∈ rose_nodes t2 -> ~ borrowed h2 z) in
  match r with
  | Some true => equal_data eqb h1 h2 t1 t2 /\ none_borrowed
  | Some false => ~ equal_data eqb h1 h2 t1 t2
  | None => ~ none_borrowed
  end.

(** Exactly what it answers: the two subtrees are read in parallel, in document order, up to (not including) the closing of
    their roots, as long as the events agree; what comes after the [n] events that agree decides. *)
Definition events_before_end (t : rose nid) : list (dft nid) := removelast (dfs_events t).
Definition event_agrees {T U} (eqb : T -> U -> bool) (h1 : heap T) (h2 : heap U) (e f : dft nid) : Prop :=
  match e, f with
  | Open a, Open b => exists d d', readable h1 a d /\ readable h2 b d' /\ eqb d d' = true
  | Close _, Close _ => True
  | _, _ => False
  end.
Definition eq_exactly {T U} (eqb : T -> U -> bool) (h1 : heap T) (h2 : heap U) (t1 t2 : rose nid) (r : option bool) : Prop :=
  exists n, Forall2 (event_agrees eqb h1 h2) (take n (events_before_end t1)) (take n (events_before_end t2)) /\
    match events_before_end t1 !! n, events_before_end t2 !! n with
    | None, None => r = Some true
    | Some (Open a), Some (Open b) =>
        ((borrowed h1 a \/ borrowed h2 b) /\ r = None) \/
        (exists d d', readable h1 a d /\ readable h2 b d' /\ eqb d d' = false /\ r = Some false)
    | Some (Close _), Some (Close _) => False
    | _, _ => r = Some false
    end.

(** Bracketed sequences: [Some d] opens a node with data [d], [None] closes the
    last opened one. *)
Fixpoint brackets {A} (t : rose A) : list (option A) :=
  match t with Rose x ts => Some x :: concat (map brackets ts) ++ [None] end.

(** [Close(n)] stands for [n] closings. *)
Definition expand {A} (es : list (event A)) : list (option A) :=
  concat (map (fun e => match e with EOpen d => [Some d] | EClose n => replicate n None end) es).

(** The events describe the tree [t], the last [k] closings being omitted. *)
Definition denotes {A} (es : list (event A)) (k : nat) (t : rose A) : Prop :=
  expand es ++ replicate k None = brackets t.

(** No superfluous event: no [Close(0)] and no two [Close] in a row. *)
Definition compact {A} (es : list (event A)) : Prop :=
  (forall i, es !! i <> Some (EClose 0)) /\
  (forall i n m, es !! i = Some (EClose n) -> es !! S i <> Some (EClose m)).

(** Events carrying data instead of nodes, an error for borrowed data. *)
Definition reads {T} (h : heap T) (e : event nid) (r : option (event T)) : Prop :=
  match e with
  | EClose n => r = Some (EClose n)
  | EOpen x => match r with
               | Some (EOpen d) => readable h x d
               | Some (EClose _) => False
               | None => borrowed h x
               end
  end.

(** From [s] to [s'] the user gained exactly one thing: the handle [i], [hd n t],
    where [n] is the root of a new tree [t] with the data tree [td]; nothing else
    changed. *)
Record builds_as {T} (hd : nid -> tid -> handle) (s s' : sys T) (i : nat) (td : rose T) : Prop := {
  bu_reach : reach s';
  bu_new : exists (n : nid) (t : tid) (t0 : rose nid) K K',
    stores s K /\ stores s' K' /\
    s_hands s !! i = None /\ s_hands s' = <[i := hd n t]> (s_hands s) /\
    (* the new tree *)
    is_top K' n /\ shape K' n t0 /\ rose_rel (fun (y : nid) d => payload s' y = Some (d, Lent 0)) t0 td /\
    (forall y : nid, y ∈ rose_nodes t0 -> K !! y = None /\ unknown s y /\ tree_of s' y = Some t) /\
    s_trees s !! t = None /\ unknown s t /\
    (* everything else *)
    (forall y : nid, is_Some (K' !! y) <-> is_Some (K !! y) \/ y ∈ rose_nodes t0) /\
    (forall y : nid, is_Some (K !! y) -> K' !! y = K !! y /\ payload s' y = payload s y /\ tree_of s' y = tree_of s y) /\
    (forall u : tid, is_Some (s_trees s' !! u) <-> u = t \/ is_Some (s_trees s !! u));
}.

(** A plain [Node] on the root, a [HotNode] or [FrozenNode] on it, a [Tree]. *)
Definition builds {T} (s s' : sys T) := builds_as (fun n _ => HNode Plain n) s s'.

(** Nothing at all changed for the user. *)
Definition unaffected {T} (s s' : sys T) : Prop := reach s' /\ same_view s s' /\ s_hands s' = s_hands s.

(** From [s] (forest [K]) to [s'] a copy [t0] with data [td], root [n], was put
    at the destination; nothing else changed, except for the handles. *)
Record grafts {T} (s : sys T) K (n : nid) (dest : insert_as) (t0 : rose nid) (td : rose T) (s' : sys T) : Prop := {
  gr_reach : reach s';
  gr_new : forall y : nid, y ∈ rose_nodes t0 -> K !! y = None /\ unknown s y;
  gr_forest : exists K1 K', attached (<[n := []]> K) n dest K1 /\ stores s' K' /\ shape K' n t0 /\
    (forall y : nid, is_Some (K !! y) -> K' !! y = K1 !! y) /\
    (forall y : nid, is_Some (K' !! y) <-> is_Some (K !! y) \/ y ∈ rose_nodes t0);
  gr_data : rose_rel (fun (y : nid) d => payload s' y = Some (d, Lent 0)) t0 td;
  gr_tree : forall y : nid, y ∈ rose_nodes t0 -> tree_of s' y = tree_of s (dest_anchor dest);
  gr_old : forall y : nid, is_Some (K !! y) -> payload s' y = payload s y /\ tree_of s' y = tree_of s y;
  gr_trees : forall u : tid, is_Some (s_trees s' !! u) <-> is_Some (s_trees s !! u);
}.

(** From [s] (forest [K]) to [s'] new subtrees with the data trees [us] were put
    after the children of [x]; nothing else changed, except for the handles. *)
Record appends {T} (s : sys T) (K : forest) (x : nid) (us : list (rose T)) (s' : sys T) : Prop := {
  ap_reach : reach s';
  ap_forest : exists ks ns (ts : list (rose nid)) (K' : forest), K !! x = Some ks /\ stores s' K' /\ K' !! x = Some (ks ++ ns) /\
    Forall2 (shape K') ns ts /\
    Forall2 (rose_rel (fun (y : nid) d => payload s' y = Some (d, Lent 0))) ts us /\
    (forall t (y : nid), t ∈ ts -> y ∈ rose_nodes t -> K !! y = None /\ unknown s y /\ tree_of s' y = tree_of s x) /\
    (forall y : nid, is_Some (K !! y) -> y <> x -> K' !! y = K !! y) /\
    (forall y : nid, is_Some (K' !! y) <-> is_Some (K !! y) \/ exists t, t ∈ ts /\ y ∈ rose_nodes t);
  ap_old : forall y : nid, is_Some (K !! y) -> payload s' y = payload s y /\ tree_of s' y = tree_of s y;
  ap_trees : forall u : tid, is_Some (s_trees s' !! u) <-> is_Some (s_trees s !! u);
}.

(** [l]: the nodes of the subtree of [x] that precede the place [dest] in document
    order: those before [n] once a leaf [n] has been put there. *)
Definition comes_before (K : forest) (x : nid) (dest : insert_as) (l : list nid) : Prop :=
  exists (n : nid) (K1 : forest) t1 l2, K !! n = None /\ attached (<[n := []]> K) n dest K1 /\ shape K1 x t1 /\ rose_nodes t1 = l ++ n :: l2.

(** [td] is what has been built of [ts] when the building is given up. *)
Definition breaks_off {A} (ts td : rose A) : Prop :=
  exists l k post, l ++ post = brackets ts /\ l ++ replicate k None = brackets td.
