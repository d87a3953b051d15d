(** * PropPretty: the pretty printer (C31).  [shape K x t]: [t] is the subtree of
    [x]; [draw], [printed], [label], [item]: see PrettySpec.v. *)
From Verif Require Import PrettySink PrettySinkSpec PrettySinkFacts Heap Edit System SysSpec ApiSpec ApiFacts Serial SerialSpec BuildFacts5 BuildFacts6 BuildFacts7 BuildFacts8 BuildFacts9 IterFacts ApiFacts3 RoseFacts Demo PropSerial Pretty PrettySpec PrettyFacts PrettyFacts2 Spec.

(** ** C31 *)
(** Printing any subtree of any stored forest ends with the drawing of the tree of
    the texts of its nodes; cutting the output into lines gives the lines of the
    drawing.  [chunks d] are the pieces in which the text of [d] is written. *)
Theorem C31_pretty_partial : forall (T : Type) (chunks : T -> list text) (s : sys T) K x t, stores s K -> shape K x t ->
  exists tt, rose_rel (label chunks (s_nodes s)) t tt /\
    pretty chunks (s_nodes s) x = Ret (printed tt) /\ lines (printed tt) = draw [] [] tt.
Proof. intros T chunks s K x t Hst. exact (pretty_total chunks (s_nodes s) K x t (proj1 Hst) (proj2 Hst)). Qed.
Print Assumptions C31_pretty_partial.
(** The drawing is the sequence of the items of the nodes in document order. *)
Theorem C31_items : forall t, draw [] [] t = concat (zip_with item (marks [] t) (rose_nodes t)) /\ length (marks [] t) = length (rose_nodes t).
Proof. intros t. split; [exact (draw_items t)|exact (marks_length t [])]. Qed.
Print Assumptions C31_items.
(** As many lines as the texts of the nodes have together. *)
Theorem C31_line_count : forall t p1 p2, length (draw p1 p2 t) = length (concat (map lines (rose_nodes t))).
Proof. exact draw_length. Qed.
Print Assumptions C31_line_count.
(** How the text of a datum is cut into pieces does not matter. *)
Theorem C31_pieces : forall (T : Type) (ch1 ch2 : T -> list text) (s : sys T) K x, stores s K -> is_Some (K !! x) ->
  (forall d, concat (ch1 d) = concat (ch2 d)) -> pretty ch1 (s_nodes s) x = pretty ch2 (s_nodes s) x.
Proof. intros T ch1 ch2 s K x Hst. exact (pretty_pieces ch1 ch2 (s_nodes s) K x (proj1 Hst) (proj2 Hst)). Qed.
Print Assumptions C31_pieces.

(** The tree of the documentation (plain.rs:2783-2799), built by events. *)
Definition n1 : text := lit "0" ++ [nl] ++ lit "0".
Definition n2 : text := lit "0" ++ [nl] ++ lit "1".
Definition n3 : text := lit "2" ++ [nl] ++ lit "0".
Definition n4 : text := lit "2" ++ [nl] ++ lit "0" ++ [nl] ++ lit "0".
Definition doc_events : list (event text) :=
  [EOpen (lit "root"); EOpen (lit "0"); EOpen n1; EClose 1; EOpen n2; EClose 2; EOpen (lit "1"); EClose 1;
   EOpen (lit "2"); EOpen n3; EOpen n4].
Definition doc : sys text := run_st init (build init doc_events).
(** Its documented [Display] output (plain.rs:2812-2824). *)
Definition doc_display : list text := map lit
  ["root"; "|-- 0"; "|   |-- 0"; "|   |   0"; "|   `-- 0"; "|       1"; "|-- 1"; "`-- 2"; "    `-- 2"; "        0";
   "        `-- 2"; "            0"; "            0"]%string.
Lemma doc_build : build init doc_events = Ret (doc, inl 4).
Proof. apply run_st_ok. vm_compute. reflexivity. Qed.
Lemma build_reach {T} (s : sys T) es s' i : reach s -> build s es = Ret (s', inl i) -> reach s'.
Proof.
  intros R E. destruct (build_ok s es R) as (s2 & r & E2 & H). rewrite E in E2. injection E2 as <- <-.
  destruct H as (k & td & _ & B). exact (bu_reach _ _ _ _ _ B).
Qed.
Lemma doc_reach : reach doc.
Proof. exact (build_reach _ _ _ _ reach_init doc_build). Qed.
Example C31_nonvacuous : stores doc (forest_of (s_nodes doc)) /\ (exists t, shape (forest_of (s_nodes doc)) 0 t) /\
  pretty (fun d => [d]) (s_nodes doc) 0 = Ret (unlines_open doc_display).
Proof.
  pose proof (reach_forest_of _ doc_reach) as Hst. split; [exact Hst|]. split; [|vm_compute; reflexivity].
  apply shape_exists; [exact (proj2 Hst)|]. vm_compute. eauto.
Qed.

(** An implementation of [Display] that may fail: [show d] are the pieces it writes and
    whether it then succeeds.  The printing succeeds exactly if it does for every node whose
    data can be read; otherwise it breaks off at the first such node in document order, after
    the items of the nodes before it and what was written of its own item. *)
Theorem C31_failing_display : forall (T : Type) (show : T -> list text * bool) (s : sys T) K x t, stores s K -> shape K x t ->
  exists tt, rose_rel (label (fun d => (show d).1) (s_nodes s)) t tt /\
  (((forall y, y ∈ rose_nodes t -> ~ show_fails show (s_nodes s) y) /\ pretty_try show (s_nodes s) x = Ret (printed tt, true)) \/
   exists k y txt, rose_nodes t !! k = Some y /\ rose_nodes tt !! k = Some txt /\
     show_fails show (s_nodes s) y /\ (forall z, z ∈ take k (rose_nodes t) -> ~ show_fails show (s_nodes s) z) /\
     pretty_try show (s_nodes s) x = Ret (broken_off (S k) txt tt, false)).
Proof. intros T show s K x t Hst. exact (pretty_try_total show (s_nodes s) K x t (proj1 Hst) (proj2 Hst)). Qed.
Print Assumptions C31_failing_display.
(** The tree of the documentation, where the text "2" is written but then an error is
    returned: the line of that node is the last one, and left open. *)
Definition fussy (d : text) : list text * bool := ([d], negb (bool_decide (d = lit "2"))).
Example C31_failing_nonvacuous : stores doc (forest_of (s_nodes doc)) /\ (exists t, shape (forest_of (s_nodes doc)) 0 t) /\
  pretty_try fussy (s_nodes doc) 0 = Ret (unlines_open (take 8 doc_display), false) /\
  pretty_try fussy (s_nodes doc) 5 = Ret (unlines_open (map lit ["0"; "|-- 0"; "|   0"; "`-- 0"; "    1"]%string), true).
Proof. split; [exact (proj1 C31_nonvacuous)|]. split; [exact (proj1 (proj2 C31_nonvacuous))|]. split; vm_compute; reflexivity. Qed.

(** The formatter written to may fail too.  There is one list of pieces [l], whatever the sink, that make up the text of C31_failing_display;
    they are written one after the other up to the first that is refused.  So a sink that gives up holds a beginning of the text,
    the result is an error exactly if the sink or a [Display] gave one, and nothing is written after that. *)
Theorem C31_failing_sink : forall (T : Type) (show : T -> list text * bool) (s : sys T) K x t, stores s K -> shape K x t ->
  exists txt b l, pretty_try show (s_nodes s) x = Ret (txt, b) /\ concat l = txt /\
  forall sink, honest sink ->
    pretty_sink sink show (s_nodes s) x = Ret ((feed sink [] l).1, (feed sink [] l).2 && b) /\
    (feed sink [] l).1 `prefix_of` txt /\ ((feed sink [] l).2 = true -> (feed sink [] l).1 = txt).
Proof.
  intros T show s K x t Hst Hsh. destruct (C31_failing_display T show s K x t Hst Hsh) as (tt & _ & D).
  assert (exists txt b, pretty_try show (s_nodes s) x = Ret (txt, b)) as (txt & b & E).
  { destruct D as [[_ E]|(k & y & txt & _ & _ & _ & _ & E)]; eauto. }
  destruct (pretty_tells show _ _ _ _ E) as (l & <- & A). exists (concat l), b, l. split; [exact E|]. split; [reflexivity|].
  intros sink Hs. split; [exact (A sink Hs)|]. split; [exact (feed_prefix sink l Hs [])|exact (feed_ok sink l Hs [])].
Qed.
Print Assumptions C31_failing_sink.
(** A sink with room for [n] bytes: it fills up and then fails. *)
Definition room (n : nat) (o s : text) : text * bool := if length o + length s <=? n then (s, true) else (take (n - length o) s, false).
Lemma room_honest n : honest (room n).
Proof. intros o s. unfold room. destruct (length o + length s <=? n); cbn; [done|]. split; [discriminate|exists (drop (n - length o) s); symmetry; apply take_drop]. Qed.
Example C31_sink_nonvacuous : honest (room 7) /\ stores doc (forest_of (s_nodes doc)) /\ (exists t, shape (forest_of (s_nodes doc)) 0 t) /\
  pretty_sink (room 7) (fun d => ([d], true)) (s_nodes doc) 5 = Ret (lit ("0" ++ String nl "|-- 0")%string, false) /\
  pretty_sink (room 100) (fun d => ([d], true)) (s_nodes doc) 5 = Ret (unlines_open (map lit ["0"; "|-- 0"; "|   0"; "`-- 0"; "    1"]%string), true).
Proof.
  split; [exact (room_honest 7)|]. split; [exact (proj1 C31_nonvacuous)|]. split; [exact (proj1 (proj2 C31_nonvacuous))|]. split; vm_compute; reflexivity.
Qed.

(** What is false: a node whose text is empty gets no item, so that its children
    seem to hang in the air.  Here a root "a" with an only child "" with an only
    child "x" is printed in two lines for three nodes, in the last one of which
    "x" is drawn as a grandchild. *)
Definition gap : sys text := run_st init (build init [EOpen (lit "a"); EOpen []; EOpen (lit "x")]).
Theorem C31_empty_refuted : exists (s : sys text) K x t out, reach s /\ stores s K /\ shape K x t /\
  pretty (fun d => [d]) (s_nodes s) x = Ret out /\ length (rose_nodes t) = 3 /\ lines out = [lit "a"; lit "    `-- x"].
Proof.
  assert (build init [EOpen (lit "a"); EOpen []; EOpen (lit "x")] = Ret (gap, inl 4)) as E by (apply run_st_ok; vm_compute; reflexivity).
  pose proof (build_reach _ _ _ _ reach_init E) as R.
  exists gap, (forest_of (s_nodes gap)), 0, (Rose 0 [Rose 5 [Rose 7 []]]), (unlines_open [lit "a"; lit "    `-- x"]).
  split; [exact R|]. split; [exact (reach_forest_of _ R)|]. split; [|split; [vm_compute; reflexivity|split]].
  - repeat (constructor; try (vm_compute; reflexivity)).
  - reflexivity.
  - vm_compute. reflexivity.
Qed.
Print Assumptions C31_empty_refuted.
