(** * PrettySink: the pretty printer (node/debug_print/pretty.rs) writing to a formatter that can fail.

    As [Pretty.v], with every [self.fmt.write_str(..)?] and [self.fmt.write_char(..)?] where it is in the code.  The
    backend is any function: given what it holds already and the piece it is asked to write, what it writes of the piece and
    whether it returns [Ok(())].  Implementations of [Display]/[Debug] are assumed to stop and return the error when a write
    fails (as [write!(..)?] does).  No proofs here. *)
From Verif Require Export Pretty.

Section Sink.
Context (sink : text -> text -> text * bool).

(** A function that may fail; [?]. *)
Definition fmt_result : Type := run (writer * bool).
Definition andthen (m : fmt_result) (f : writer -> fmt_result) : fmt_result :=
  '(w, ok) ← m; if (ok : bool) then f w else Ret (w, false).

(** [self.fmt.write_str(s)] (pretty.rs:145-148, 159, 163, 201). *)
Definition k_put (w : writer) (s : text) : writer * bool :=
  let r := sink (w_out w) s in (mkWriter (w_out w ++ r.1) (w_line w) (w_indents w) (w_pending w), r.2).
Fixpoint k_puts (w : writer) (l : list text) : writer * bool :=
  match l with [] => (w, true) | s :: l' => let r := k_put w s in if r.2 then k_puts r.1 l' else r end.

(** [open_item] (pretty.rs:102-117). *)
Definition k_open_item (w : writer) (last : bool) : writer * bool :=
  let r := if decide (w_line w = BeforeIndent) then (w, true)
           else let r := k_put w [nl] in
                if r.2 then (mkWriter (w_out r.1) BeforeIndent (w_indents r.1) 0, true) else r in
  if r.2 then
    (mkWriter (w_out r.1) (w_line r.1)
      (alter_last (fun b => mkBlock (is_last_item b) false) (w_indents r.1) ++ [mkBlock last true]) (w_pending r.1), true)
  else r.

(** [write_indent_partial] (pretty.rs:133-151). *)
Definition k_indent_partial (w : writer) : writer * bool :=
  let pending := count_while is_all_whitespace (rev (w_indents w)) in
  let to_print := take (length (w_indents w) - pending) (w_indents w) in
  let w1 := mkWriter (w_out w) (w_line w) (w_indents w) pending in
  match last to_print with
  | Some l => k_puts w1 (map as_str (take (length to_print - 1) to_print) ++ [as_str_leading l])
  | None => (w1, true)
  end.

(** [complete_partial_indent] (pretty.rs:154-168). *)
Definition k_complete_indent (w : writer) : fmt_result :=
  _ ← assertb (bool_decide (w_line w = PartialIndent));
  _ ← assertb (Nat.leb (w_pending w) (length (w_indents w)));
  s ← match length (w_indents w) - w_pending w with
      | 0 => Ret []
      | S l => match w_indents w !! l with Some b => Ret [as_str_trailing_spaces b] | None => Panic end
      end;
  let r := k_puts w (s ++ replicate (w_pending w) (lit "    ")) in
  Ret (if r.2 then (mkWriter (w_out r.1) (w_line r.1) (w_indents r.1) 0, true) else r).

(** [write_str] (pretty.rs:172-212). *)
Fixpoint k_write_loop (fuel : nat) (w : writer) (s : text) : fmt_result :=
  match s with
  | [] => Ret (w, true)
  | _ =>
      match fuel with
      | 0 => NoFuel
      | S f =>
          andthen
            (Ret (if decide (w_line w = BeforeIndent) then
                    let r := k_indent_partial w in
                    if r.2 then (mkWriter (w_out r.1) PartialIndent (w_indents r.1) (w_pending r.1), true) else r
                  else (w, true)))
            (fun w1 =>
               let '(content, ends_with_newline, rest) := split_line s in
               andthen
                 match content with
                 | [] => Ret (w1, true)
                 | _ =>
                     _ ← assertb (bool_decide (w_line w1 <> BeforeIndent));
                     andthen (if decide (w_line w1 = PartialIndent) then k_complete_indent w1 else Ret (w1, true))
                       (fun w2 =>
                          let ind := alter_last (fun b => mkBlock (is_last_item b) (is_first_line b && negb ends_with_newline)) (w_indents w2) in
                          let r := k_put (mkWriter (w_out w2) (w_line w2) ind (w_pending w2)) content in
                          Ret (if r.2 then
                                 (mkWriter (w_out r.1) (if (ends_with_newline : bool) then BeforeIndent else Content) (w_indents r.1) (w_pending r.1), true)
                               else r))
                 end
                 (fun w4 => k_write_loop f w4 rest))
      end
  end.
Definition k_write_str (w : writer) (s : text) : fmt_result := k_write_loop (length s) w s.
Fixpoint k_write_chunks (w : writer) (l : list text) : fmt_result :=
  match l with [] => Ret (w, true) | s :: l' => andthen (k_write_str w s) (fun w1 => k_write_chunks w1 l') end.

Context {T : Type} (show : T -> list text * bool).
Implicit Types (h : heap T).

(** The data of a node, or "(borrowed)" (pretty.rs:243-252, 257-265, 280-303). *)
Definition k_write_data h (w : writer) (x : nid) : fmt_result :=
  d ← try_borrow h x;
  match d with
  | Some d => andthen (k_write_chunks w (show d).1) (fun w1 => Ret (w1, (show d).2))
  | None => k_write_str w (lit "(borrowed)")
  end.

(** [prepare_next_node_printing] (pretty.rs:312-335). *)
Fixpoint k_prepare_next (fuel : nat) h (w : writer) (st : dfs_state) : run (option nid * (writer * bool) * dfs_state) :=
  match fuel with
  | 0 => NoFuel
  | S f =>
      '(ev, st1) ← link_dfs_next h st;
      match ev with
      | None => Ret (None, (w, true), st1)
      | Some (Open y) => Ret (Some y, k_open_item w (is_last_sibling h y), st1)
      | Some (Close _) => match close_item w with
                          | Some w1 => k_prepare_next f h w1 st1
                          | None => Ret (None, (w, true), st1)
                          end
      end
  end.

(** The [while let] loop (pretty.rs:255-266, 292-304). *)
Fixpoint k_print_loop (fuel : nat) h (w : writer) (st : dfs_state) : fmt_result :=
  match fuel with
  | 0 => NoFuel
  | S f =>
      '(o, r, st1) ← k_prepare_next (dfs_fuel h) h w st;
      andthen (Ret r) (fun w1 =>
        match o with
        | None => Ret (w1, true)
        | Some y => andthen (k_write_data h w1 y) (fun w2 => k_print_loop f h w2 st1)
        end)
  end.

(** [fmt] of [DebugPrettyPrint] (pretty.rs:236-270, 274-308): what the backend holds in the end, and whether the result is [Ok(())]. *)
Definition pretty_sink h (x : nid) : run (text * bool) :=
  '(_, st) ← link_dfs_next h (dfs_start (Some x));
  '(w, ok) ← andthen (k_write_data h w_new x) (fun w => k_print_loop (dfs_fuel h) h w st);
  Ret (w_out w, ok).
End Sink.
