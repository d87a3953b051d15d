(** * PrettySpec: the drawing of a tree of texts, line by line. *)
From Verif Require Export Pretty SerialSpec.

(** The lines of a text, as by [str::lines]: a line feed ends a line; an empty text
    has no line. *)
Fixpoint lines (s : text) : list text :=
  match s with
  | [] => []
  | c :: s' => if decide (c = nl) then [] :: lines s'
               else match lines s' with [] => [[c]] | l :: ls => (c :: l) :: ls end
  end.

(** Does the text leave its last line open? *)
Definition open_ended (s : text) : bool := match last s with Some c => bool_decide (c <> nl) | None => false end.

(** The drawing of a tree.  [p1] is written before the first line of the text of its
    root, [p2] before its other lines and before all lines of the descendants.  The
    children are marked by [|--], the last one by [`--]. *)
Fixpoint draw (p1 p2 : text) (t : rose text) : list text :=
  match t with
  | Rose s ts =>
      match lines s with [] => [] | l :: ls => (p1 ++ l) :: map (fun l => p2 ++ l) ls end ++
      (fix go (ts : list (rose text)) : list text :=
         match ts with
         | [] => []
         | [t] => draw (p2 ++ lit "`-- ") (p2 ++ lit "    ") t
         | t :: ts' => draw (p2 ++ lit "|-- ") (p2 ++ lit "|   ") t ++ go ts'
         end) ts
  end.

(** All lines ended by a line feed; the same without the final one. *)
Definition unlines (ls : list text) : text := concat (map (fun l => l ++ [nl]) ls).
Definition unlines_open (ls : list text) : text := removelast (unlines ls).

(** Does the last of these texts leave its line open? *)
Definition ended (cont : bool) (l : list text) : bool := match last l with Some s => open_ended s | None => cont end.
(** The printed text of a tree of texts: the lines of its drawing, each ended by a line
    feed, the last one only if the text of the last node itself ends so (or is empty). *)
Definition printed (tt : rose text) : text :=
  if ended false (rose_nodes tt) then unlines_open (draw [] [] tt) else unlines (draw [] [] tt).

(** The text printed for the node [y]. *)
Definition label {T} (chunks : T -> list text) (h : heap T) (y : nid) (s : text) : Prop :=
  exists d, data_is h y d /\
    ((~ borrowed h y /\ s = concat (chunks d)) \/ (borrowed h y /\ s = lit "(borrowed)")).

(** The same drawing, node by node.  [marks t]: for every node of [t], in preorder,
    for itself and its ancestors below the root, outermost first: is it the last
    of its siblings? *)
Fixpoint marks {A} (path : list bool) (t : rose A) : list (list bool) :=
  match t with
  | Rose _ ts =>
      path :: (fix go (ts : list (rose A)) : list (list bool) :=
         match ts with
         | [] => []
         | t :: ts' => marks (path ++ [match ts' with [] => true | _ => false end]) t ++ go ts'
         end) ts
  end.
(** What is written before the first and before the other lines of a node. *)
Definition rest_prefix (path : list bool) : text := concat (map (fun b : bool => if b then lit "    " else lit "|   ") path).
Definition first_prefix (path : list bool) : text :=
  match last path with
  | None => []
  | Some b => rest_prefix (removelast path) ++ if b : bool then lit "`-- " else lit "|-- "
  end.
(** The item of a node with the text [s]. *)
Definition item (path : list bool) (s : text) : list text :=
  match lines s with [] => [] | l :: ls => (first_prefix path ++ l) :: map (fun l => rest_prefix path ++ l) ls end.

(** The implementation fails on the data of the node [y]: it is asked to show them (they
    are not exclusively borrowed) and returns an error. *)
Definition show_fails {T} (show : T -> list text * bool) (h : heap T) (y : nid) : Prop :=
  exists d, data_is h y d /\ ~ borrowed h y /\ (show d).2 = false.
(** The lines of the first [n] nodes (in document order) of a tree of texts. *)
Definition first_items (n : nat) (tt : rose text) : list text :=
  concat (zip_with item (take n (marks [] tt)) (take n (rose_nodes tt))).
(** What is written when the printing breaks off in the text [s] of its [n]-th node: the
    items of the first [n] nodes; the last line stays open if [s] leaves it open. *)
Definition broken_off (n : nat) (s : text) (tt : rose text) : text :=
  if open_ended s then unlines_open (first_items n tt) else unlines (first_items n tt).
