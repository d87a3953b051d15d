(** * MisledSpec: the one defect of unlinking the last of several siblings. *)
From Verif Require Import Heap System SysSpec ApiSpec Spec.

Section MisledSpec.
Context {T : Type}.
Implicit Types (s g : sys T) (K : forest).

(** [s'] is the state [g], except that the previous-sibling link of the node [f] (if it
    is still allocated) names [x]. *)
Record misled g (f x : nid) s' : Prop := {
  ml_trees : s_trees s' = s_trees g;
  ml_hands : s_hands s' = s_hands g;
  ml_fresh : s_fresh s' = s_fresh g;
  ml_rest : forall y, y <> f -> s_nodes s' !! y = s_nodes g !! y;
  ml_node : s_nodes s' !! f =
    (fun nd => mkNode (n_data nd) (n_lend nd) (n_parent nd) (n_first nd) (n_next nd) (Some x) (n_nch nd) (n_mem nd)) <$> s_nodes g !! f;
}.

(** The questions whose answer is read off that link, [K] being the forest of [g] and [f] a first
    child: the last child of its parent, the last sibling of one of its siblings, and,
    if [x] has a next sibling, the previous sibling of [f]. *)
Definition asks K (f x : nid) (v : nav) (y : nid) : Prop :=
  match v with
  | NLastChild => exists ks, K !! y = Some ks /\ head ks = Some f
  | NLastSibling => exists p ks, K !! p = Some ks /\ head ks = Some f /\ y ∈ ks
  | NPrev => y = f /\ exists p ks i, K !! p = Some ks /\ ks !! i = Some x /\ is_Some (ks !! S i)
  | _ => False
  end.

(** The neighbour accessors in the state [s'], which is [g] misled: the question listed above
    are answered [x], all others as in the forest [K]. *)
Definition misled_answers g K (f x : nid) s' : Prop :=
  forall v i k y, s_hands s' !! i = Some (HNode k y) ->
    (asks K f x v y -> exists s2 g2 j, step s' (OpNav v i) = Ret (s2, OutHandle j) /\ gives g g2 j (HNode k x) /\ misled g2 f x s2) /\
    (~ asks K f x v y -> exists o, nav_spec K v y o /\
      match o with
      | None => step s' (OpNav v i) = Ret (s', OutNone)
      | Some z => exists s2 g2 j, step s' (OpNav v i) = Ret (s2, OutHandle j) /\ gives g g2 j (HNode k z) /\ misled g2 f x s2
      end).

End MisledSpec.
