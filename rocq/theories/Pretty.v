(** * Pretty: the pretty printer of subtrees (node/debug_print/pretty.rs).

    Texts are UTF-8 byte strings (a line feed is the single byte 10).  The
    [Display]/[Debug] implementation of the data is any function giving the pieces
    it writes one after the other ([chunks]) and, in [pretty_try], whether it then
    succeeds.  The underlying formatter (a [String]) is assumed not to fail.  No proofs
    here. *)
From Coq Require Export Ascii String.
From Verif Require Export Serial.

Definition text := list ascii.
Definition lit (s : String.string) : text := String.list_ascii_of_string s.
Arguments lit s%string.
Definition nl : ascii := "010"%char.

(** [IndentedBlockState] (pretty.rs:11-17). *)
Record iblock := mkBlock { is_last_item : bool; is_first_line : bool }.

(** [as_str] (pretty.rs:22). *)
Definition as_str (b : iblock) : text :=
  match is_last_item b, is_first_line b with
  | false, true => lit "|-- "
  | false, false => lit "|   "
  | true, true => lit "`-- "
  | true, false => lit "    "
  end.
(** [as_str_leading] (pretty.rs:33). *)
Definition as_str_leading (b : iblock) : text :=
  match is_last_item b, is_first_line b with
  | false, true => lit "|--"
  | false, false => lit "|"
  | true, true => lit "`--"
  | true, false => lit ""
  end.
(** [as_str_trailing_spaces] (pretty.rs:44). *)
Definition as_str_trailing_spaces (b : iblock) : text :=
  match is_last_item b, is_first_line b with
  | _, true => lit " "
  | false, false => lit "   "
  | true, false => lit "    "
  end.
(** [is_all_whitespace] (pretty.rs:55). *)
Definition is_all_whitespace (b : iblock) : bool := is_last_item b && negb (is_first_line b).

(** [LineState] (pretty.rs:62). *)
Inductive line_state := BeforeIndent | PartialIndent | Content.
Global Instance line_state_eq_dec : EqDecision line_state.
Proof. solve_decision. Defined.

(** [IndentWriter] (pretty.rs:74-83); [w_out] is what has been written to the
    backend formatter; [w_indents] has the innermost block last. *)
Record writer := mkWriter { w_out : text; w_line : line_state; w_indents : list iblock; w_pending : nat }.

(** [new] (pretty.rs:88). *)
Definition w_new : writer := mkWriter [] BeforeIndent [] 0.

Definition w_put (w : writer) (s : text) : writer := mkWriter (w_out w ++ s) (w_line w) (w_indents w) (w_pending w).

(** [indents.last_mut()]. *)
Fixpoint alter_last {A} (f : A -> A) (l : list A) : list A :=
  match l with
  | [] => []
  | [a] => [f a]
  | a :: l' => a :: alter_last f l'
  end.

(** [open_item] (pretty.rs:102-117). *)
Definition open_item (w : writer) (last : bool) : writer :=
  let w1 := if decide (w_line w = BeforeIndent) then w
            else mkWriter (w_out w ++ [nl]) BeforeIndent (w_indents w) 0 in
  mkWriter (w_out w1) (w_line w1)
    (alter_last (fun b => mkBlock (is_last_item b) false) (w_indents w1) ++ [mkBlock last true]) (w_pending w1).

(** [close_item] (pretty.rs:125-130); [None] is [Err(())]. *)
Definition close_item (w : writer) : option writer :=
  match w_indents w with
  | [] => None
  | _ => Some (mkWriter (w_out w) (w_line w) (removelast (w_indents w)) (w_pending w))
  end.

(** [iter().rev().take_while(..).count()]. *)
Fixpoint count_while {A} (f : A -> bool) (l : list A) : nat :=
  match l with [] => 0 | a :: l' => if f a then S (count_while f l') else 0 end.

(** [write_indent_partial] (pretty.rs:133-151). *)
Definition write_indent_partial (w : writer) : writer :=
  let pending := count_while is_all_whitespace (rev (w_indents w)) in
  let to_print := take (length (w_indents w) - pending) (w_indents w) in
  let s := match last to_print with
           | Some l => concat (map as_str (take (length to_print - 1) to_print)) ++ as_str_leading l
           | None => []
           end in
  mkWriter (w_out w ++ s) (w_line w) (w_indents w) pending.

(** [complete_partial_indent] (pretty.rs:154-168). *)
Definition complete_partial_indent (w : writer) : run writer :=
  _ ← assertb (bool_decide (w_line w = PartialIndent));
  _ ← assertb (Nat.leb (w_pending w) (length (w_indents w)));
  s ← match length (w_indents w) - w_pending w with
      | 0 => Ret []
      | S l => match w_indents w !! l with Some b => Ret (as_str_trailing_spaces b) | None => Panic end
      end;
  Ret (mkWriter (w_out w ++ s ++ concat (replicate (w_pending w) (lit "    "))) (w_line w) (w_indents w) 0).

(** [s.find('\n')]: the text up to and including the first line feed, if there is
    one, and the rest. *)
Fixpoint split_line (s : text) : text * bool * text :=
  match s with
  | [] => ([], false, [])
  | c :: s' => if decide (c = nl) then ([c], true, s')
               else let '(a, e, r) := split_line s' in (c :: a, e, r)
  end.

(** [write_str] (pretty.rs:172-212). *)
Fixpoint write_str_loop (fuel : nat) (w : writer) (s : text) : run writer :=
  match s with
  | [] => Ret w
  | _ =>
      match fuel with
      | 0 => NoFuel
      | S f =>
          let w1 := if decide (w_line w = BeforeIndent) then
                      let w' := write_indent_partial w in
                      mkWriter (w_out w') PartialIndent (w_indents w') (w_pending w')
                    else w in
          let '(content, ends_with_newline, rest) := split_line s in
          w4 ← match content with
               | [] => Ret w1
               | _ =>
                   _ ← assertb (bool_decide (w_line w1 <> BeforeIndent));
                   w2 ← (if decide (w_line w1 = PartialIndent) then complete_partial_indent w1 else Ret w1);
                   let ind := alter_last (fun b => mkBlock (is_last_item b) (is_first_line b && negb ends_with_newline)) (w_indents w2) in
                   Ret (mkWriter (w_out w2 ++ content) (if (ends_with_newline : bool) then BeforeIndent else Content) ind (w_pending w2))
               end;
          write_str_loop f w4 rest
      end
  end.
Definition write_str (w : writer) (s : text) : run writer := write_str_loop (length s) w s.

(** [write!(writer, ..)]: the pieces in turn. *)
Fixpoint write_chunks (w : writer) (l : list text) : run writer :=
  match l with [] => Ret w | s :: l' => w1 ← write_str w s; write_chunks w1 l' end.

Section Print.
Context {T : Type} (chunks : T -> list text).
Implicit Types (h : heap T).

(** The data of a node, or "(borrowed)" (pretty.rs:243-252, 257-265, 280-303). *)
Definition write_data h (w : writer) (x : nid) : run writer :=
  d ← try_borrow h x;
  match d with
  | Some d => write_chunks w (chunks d)
  | None => write_str w (lit "(borrowed)")
  end.

(** [prepare_next_node_printing] (pretty.rs:312-335). *)
Fixpoint prepare_next (fuel : nat) h (w : writer) (st : dfs_state) : run (option nid * writer * dfs_state) :=
  match fuel with
  | 0 => NoFuel
  | S f =>
      '(ev, st1) ← link_dfs_next h st;
      match ev with
      | None => Ret (None, w, st1)
      | Some (Open y) => Ret (Some y, open_item w (is_last_sibling h y), st1)
      | Some (Close _) => match close_item w with
                          | Some w1 => prepare_next f h w1 st1
                          | None => Ret (None, w, st1)
                          end
      end
  end.

(** The [while let] loop (pretty.rs:255-266, 292-304). *)
Fixpoint print_loop (fuel : nat) h (w : writer) (st : dfs_state) : run writer :=
  match fuel with
  | 0 => NoFuel
  | S f =>
      '(o, w1, st1) ← prepare_next (dfs_fuel h) h w st;
      match o with
      | None => Ret w1
      | Some y => w2 ← write_data h w1 y; print_loop f h w2 st1
      end
  end.

(** [fmt] of [DebugPrettyPrint] (pretty.rs:236-270, 274-308), the text written. *)
Definition pretty h (x : nid) : run text :=
  '(_, st) ← link_dfs_next h (dfs_start (Some x));
  w ← write_data h w_new x;
  w1 ← print_loop (dfs_fuel h) h w st;
  Ret (w_out w1).
End Print.

(** The same with an implementation of [Display]/[Debug] that may fail: [show d] are the
    pieces it writes and whether it then returns [Ok(())]; an error is passed on by the
    [?] behind every [write!] (pretty.rs:246-262, 283-299). *)
Section Fallible.
Context {T : Type} (show : T -> list text * bool).
Implicit Types (h : heap T).

Definition try_write_data h (w : writer) (x : nid) : run (writer * bool) :=
  d ← try_borrow h x;
  match d with
  | Some d => w1 ← write_chunks w (show d).1; Ret (w1, (show d).2)
  | None => w1 ← write_str w (lit "(borrowed)"); Ret (w1, true)
  end.

(** The [while let] loop (pretty.rs:255-266, 292-304). *)
Fixpoint try_print_loop (fuel : nat) h (w : writer) (st : dfs_state) : run (writer * bool) :=
  match fuel with
  | 0 => NoFuel
  | S f =>
      '(o, w1, st1) ← prepare_next (dfs_fuel h) h w st;
      match o with
      | None => Ret (w1, true)
      | Some y =>
          '(w2, ok) ← try_write_data h w1 y;
          if (ok : bool) then try_print_loop f h w2 st1 else Ret (w2, false)
      end
  end.

(** [fmt] of [DebugPrettyPrint] (pretty.rs:236-270, 274-308): the text written, and
    whether the result is [Ok(())]. *)
Definition pretty_try h (x : nid) : run (text * bool) :=
  '(_, st) ← link_dfs_next h (dfs_start (Some x));
  '(w, ok) ← try_write_data h w_new x;
  if (ok : bool) then '(w1, ok1) ← try_print_loop (dfs_fuel h) h w st; Ret (w_out w1, ok1)
  else Ret (w_out w, false).
End Fallible.
