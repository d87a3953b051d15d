(** * PropData: the library neither looks at data nor invents any (C56). *)
From Verif Require Import Heap Edit Traverse System DataSpec DataFacts Demo.

Section P.
Context {T : Type} (P : T -> Prop).
Notation val := (fun q : {d : T | P d} => proj1_sig q).

Lemma lift_op (o : op T) : (forall d, d ∈ data_of_op o -> P d) -> exists o', data_op val o' = o.
Proof.
  destruct o; cbn [data_of_op]; intros H.
  1,14,15,16,21: (assert (P d) as p by (apply H; by left)).
  - by exists (OpNewTree (exist _ d p)).
  - by exists (OpCreate a (exist _ d p) ad).
  - by exists (OpInterruptParent a (exist _ d p)).
  - by exists (OpInterruptChild a (exist _ d p)).
  - by exists (OpSet i (exist _ d p)).
  - by exists (OpClone i).
  - by exists (OpDrop i).
  - by exists (OpNav v i).
  - by exists (OpTree i).
  - by exists (OpRoot i).
  - by exists (OpLock k i).
  - by exists (OpBundle k i).
  - by exists (OpBundleWith i j).
  - by exists (OpPlain i).
  - by exists (OpExtract i).
  - by exists (OpDowngrade i).
  - by exists (OpUpgrade i).
  - by exists (OpReplace a).
  - by exists (OpDetach a).
  - by exists (OpMove a ad j).
  - by exists (OpGet i).
  - by exists (OpBorrow i b).
Qed.
Lemma lift_ops (os : list (op T)) : (forall o d, o ∈ os -> d ∈ data_of_op o -> P d) -> exists os', map (data_op val) os' = os.
Proof.
  induction os as [|o os IH]; intros H; [by exists []|].
  destruct (lift_op o) as [o' <-]; [intros d Hd; apply (H o); [by left|done]|].
  destruct IH as [os' <-]; [intros o d Ho Hd; apply (H o); [by right|done]|]. by exists (o' :: os').
Qed.
Lemma provenance (os : list (op T)) s rs : (forall o d, o ∈ os -> d ∈ data_of_op o -> P d) -> steps init os = Ret (s, rs) ->
  (forall r d, r ∈ rs -> d ∈ data_of_out r -> P d) /\ (forall d, holds s d -> P d).
Proof.
  intros H E. destruct (lift_ops os H) as [os' <-]. rewrite <- (d_init (fun q : {d : T | P d} => proj1_sig q)), d_steps in E.
  destruct (steps init os') as [[s' rs']| |]; cbn [replaced] in E; [|discriminate E..]. injection E as <- <-. cbn [fst snd]. split.
  - intros r d Hr Hd. apply elem_of_list_fmap in Hr as (r' & -> & _). destruct r'; cbn in Hd; try by apply elem_of_nil in Hd.
    apply elem_of_list_singleton in Hd as ->. exact (proj2_sig d0).
  - intros d (x & nd & L & <-). cbn [data_sys s_nodes] in L. rewrite dl in L. destruct (s_nodes s' !! x) as [nd'|]; [|discriminate L].
    injection L as <-. exact (proj2_sig (n_data nd')).
Qed.
End P.

Theorem C56_indifferent : forall (T U : Type) (f : T -> U) (s : sys T) (os : list (op T)),
  steps (data_sys f s) (map (data_op f) os) =
  replaced (fun r => (data_sys f r.1, map (data_out f) r.2)) (steps s os).
Proof. intros T U f s os. exact (d_steps f os s). Qed.
Print Assumptions C56_indifferent.

Theorem C56_not_invented : forall (T : Type) (os : list (op T)) s rs, steps init os = Ret (s, rs) ->
  (forall r d, r ∈ rs -> d ∈ data_of_out r -> exists o, o ∈ os /\ d ∈ data_of_op o) /\
  (forall d, holds s d -> exists o, o ∈ os /\ d ∈ data_of_op o).
Proof. intros T os s rs E. exact (provenance (fun d => exists o, o ∈ os /\ d ∈ data_of_op o) os s rs (fun o d Ho Hd => ex_intro _ o (conj Ho Hd)) E). Qed.
Print Assumptions C56_not_invented.

Definition answers {T} (r : run (sys T * list (out T))) : list (out T) := match r with Ret a => a.2 | _ => [] end.
(** All the data of the demo history merged into one: the same handles come back. *)
Example C56_nonvacuous :
  answers (steps (init : sys nat) (demo_ops ++ [OpGet 9])) = map OutHandle [2; 3; 5; 7; 9; 11; 13; 15; 18; 19; 21] ++ [OutData 108] /\
  answers (steps (init : sys bool) (map (data_op (fun _ => true)) (demo_ops ++ [OpGet 9]))) =
    map OutHandle [2; 3; 5; 7; 9; 11; 13; 15; 18; 19; 21] ++ [OutData true].
Proof. split; by vm_compute. Qed.
