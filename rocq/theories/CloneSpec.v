(** * CloneSpec: what a clone of an iterator is (C50).  Specification only. *)
From Verif Require Export SysSpec HIter2.

Section CloneSpec.
Context {T : Type}.
Implicit Types (s : sys T).

(** Two handles of the same type on the same node. *)
Definition twin s (i j : nat) : Prop := exists hd, s_hands s !! i = Some hd /\ s_hands s !! j = Some hd.
(** Both [Open] or both [Close]. *)
Definition ev_rel {A B} (R : A -> B -> Prop) (e : dft A) (e' : dft B) : Prop :=
  match e, e' with Open a, Open b => R a b | Close a, Close b => R a b | _, _ => False end.
Definition twin_at s (p q : nat * nat) : Prop := twin s p.1 q.1 /\ p.2 = q.2.

(** The two iterators stand at the same place: their states are the same except that each has its own handles. *)
Definition alike_dfs s : hdfs_state -> hdfs_state -> Prop := option_Forall2 (prod_relation (ev_rel (twin s)) (twin s)).
Definition alike_sib s : option nat -> option nat -> Prop := option_Forall2 (twin s).
Definition alike_ss s : hss_state -> hss_state -> Prop := option_Forall2 (prod_relation (twin s) (twin s)).
Definition alike_sdfs s : hsdfs_state -> hsdfs_state -> Prop := option_Forall2 (prod_relation (ev_rel (twin s)) (ev_rel (twin s))).
Definition alike_sh s : hsh_state -> hsh_state -> Prop := option_Forall2 (prod_relation (ev_rel (twin_at s)) (ev_rel (twin_at s))).
Definition alike_nbf s (a b : hnbf_state) : Prop :=
  alike_sh s (hnbf_inner a) (hnbf_inner b) /\ option_Forall2 (twin s) (hnbf_root a) (hnbf_root b) /\ hnbf_depth a = hnbf_depth b.
Definition alike_abf s (a b : habf_state) : Prop :=
  Forall2 (option_Forall2 (twin s)) (habf_queue a) (habf_queue b) /\ habf_depth a = habf_depth b.

(** A clone is another iterator at the same place. *)
Definition copies {S} (ok : sys T -> Prop) (clone : sys T -> S -> run (sys T * S)) (alike : sys T -> S -> S -> Prop) : Prop :=
  forall s st s' st', ok s -> clone s st = Ret (s', st') -> alike s' st st'.
End CloneSpec.
