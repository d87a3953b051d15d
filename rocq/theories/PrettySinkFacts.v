From Verif Require Import Pretty PrettySink PrettySinkSpec.

Lemma feed_ok sink l : honest sink -> forall o, (feed sink o l).2 = true -> (feed sink o l).1 = o ++ concat l.
Proof.
  intros Hs. induction l as [|s l IH]; intros o; cbn [feed concat]; [by rewrite app_nil_r|].
  destruct (sink o s).2 eqn:E; [|done]. intros F. rewrite (IH _ F). rewrite (proj1 (Hs o s) E). by rewrite app_assoc.
Qed.
Lemma feed_prefix sink l : honest sink -> forall o, (feed sink o l).1 `prefix_of` o ++ concat l.
Proof.
  intros Hs. induction l as [|s l IH]; intros o; cbn [feed concat]; [by rewrite app_nil_r|].
  destruct (sink o s).2 eqn:E.
  - rewrite (proj1 (Hs o s) E), (app_assoc o s). apply IH.
  - cbn. destruct (proj2 (Hs o s)) as [z Ez]. exists (z ++ concat l). rewrite <- (app_assoc o), (app_assoc _ z). by rewrite <- Ez.
Qed.
Lemma feed_app sink l1 l2 : forall o, feed sink o (l1 ++ l2) = if (feed sink o l1).2 then feed sink (feed sink o l1).1 l2 else feed sink o l1.
Proof.
  induction l1 as [|s l IH]; intros o; cbn [feed app]; [done|]. destruct (sink o s).2; [apply IH|done].
Qed.
Lemma feed_all sink l : (forall o s, (sink o s).2 = true) -> forall o, (feed sink o l).2 = true.
Proof. intros A. induction l as [|s l IH]; intros o; cbn [feed]; [done|]. rewrite A. apply IH. Qed.

(** From [w], [k] writes the pieces [l]; it ends at [W] with the result [b] unless a piece is refused. *)
Definition tells (w W : writer) (b : bool) (k : (text -> text -> text * bool) -> fmt_result) (l : list text) : Prop :=
  w_out W = w_out w ++ concat l /\
  forall sink, honest sink -> exists w', k sink = Ret (w', (feed sink (w_out w) l).2 && b) /\ w_out w' = (feed sink (w_out w) l).1 /\
    ((feed sink (w_out w) l).2 = true -> w' = W).

Lemma tells_nil w b : tells w w b (fun _ => Ret (w, b)) [].
Proof. split; [by rewrite app_nil_r|]. intros sink Hs. exists w. done. Qed.
Lemma tells_then w W1 W2 b k1 k2 l1 l2 : tells w W1 true k1 l1 -> tells W1 W2 b (fun sink => k2 sink W1) l2 ->
  tells w W2 b (fun sink => andthen (k1 sink) (k2 sink)) (l1 ++ l2).
Proof.
  intros [O1 A1] [O2 A2]. split; [by rewrite O2, O1, concat_app, app_assoc|]. intros sink Hs.
  destruct (A1 sink Hs) as (w1 & E1 & W & F1). rewrite E1, feed_app. unfold andthen. cbn [mbind run_bind]. rewrite andb_true_r.
  destruct (feed sink (w_out w) l1).2 eqn:Ef.
  - rewrite (F1 eq_refl), (feed_ok sink l1 Hs _ Ef), <- O1. exact (A2 sink Hs).
  - exists w1. rewrite Ef. split; [done|]. split; [exact W|discriminate].
Qed.
Lemma tells_stop w W1 k1 k2 l1 : tells w W1 false k1 l1 -> tells w W1 false (fun sink => andthen (k1 sink) (k2 sink)) l1.
Proof.
  intros [O1 A1]. split; [exact O1|]. intros sink Hs. destruct (A1 sink Hs) as (w1 & E1 & W & F1). exists w1. rewrite E1.
  unfold andthen. cbn [mbind run_bind]. rewrite andb_false_r. done.
Qed.
Lemma tells_ext w W b k k' l : (forall sink, k sink = k' sink) -> tells w W b k l -> tells w W b k' l.
Proof. intros E [O A]. split; [exact O|]. intros sink Hs. rewrite <- E. exact (A sink Hs). Qed.

(** The state of the writer apart from its output. *)
Lemma tells_puts l : forall w, tells w (mkWriter (w_out w ++ concat l) (w_line w) (w_indents w) (w_pending w)) true (fun sink => Ret (k_puts sink w l)) l.
Proof.
  intros w. split; [done|]. intros sink Hs. exists (k_puts sink w l).1. rewrite andb_true_r.
  assert ((k_puts sink w l).2 = (feed sink (w_out w) l).2 /\ w_out (k_puts sink w l).1 = (feed sink (w_out w) l).1 /\
    ((feed sink (w_out w) l).2 = true -> (k_puts sink w l).1 = mkWriter (w_out w ++ concat l) (w_line w) (w_indents w) (w_pending w))) as (A & B & C).
  { revert w. induction l as [|s l IH]; intros w; cbn [k_puts feed concat].
    - split; [done|]. split; [done|]. intros _. rewrite app_nil_r. by destruct w.
    - unfold k_put. cbn. destruct (sink (w_out w) s).2 eqn:E; cbn; [|done].
      destruct (IH (mkWriter (w_out w ++ (sink (w_out w) s).1) (w_line w) (w_indents w) (w_pending w))) as (A & B & C). cbn in A, B, C.
      rewrite A, B. split; [done|]. split; [done|]. intros F. rewrite (C F). rewrite (proj1 (Hs (w_out w) s) E). by rewrite app_assoc. }
  split; [rewrite <- A; by destruct (k_puts sink w l)|]. split; [exact B|exact C].
Qed.
(** A change of the rest of the state after or before the writing. *)
Lemma tells_map w W l (g : writer -> writer) (k : (text -> text -> text * bool) -> writer * bool) : (forall v, w_out (g v) = w_out v) ->
  tells w W true (fun sink => Ret (k sink)) l -> tells w (g W) true (fun sink => Ret (if (k sink).2 then (g (k sink).1, true) else k sink)) l.
Proof.
  intros G [O A]. split; [by rewrite G|]. intros sink Hs. destruct (A sink Hs) as (w1 & E & W1 & F). injection E as E. rewrite E. cbn [fst snd].
  rewrite andb_true_r. destruct (feed sink (w_out w) l).2 eqn:Ef; cbn.
  - exists (g w1). split; [done|]. split; [by rewrite G|]. intros _. f_equal. exact (F eq_refl).
  - exists w1. split; [done|]. split; [done|discriminate].
Qed.
Lemma tells_from w w0 W b k l : w_out w0 = w_out w -> tells w0 W b k l -> tells w W b k l.
Proof. intros E [O A]. split; [by rewrite O, E|]. intros sink Hs. destruct (A sink Hs) as (w1 & B). rewrite E in B. exists w1. exact B. Qed.

Lemma open_item_tells w c : exists l, tells w (open_item w c) true (fun sink => Ret (k_open_item sink w c)) l.
Proof.
  unfold open_item, k_open_item. destruct (decide (w_line w = BeforeIndent)) as [E|E].
  - exists []. cbn. split; [cbn; by rewrite app_nil_r|]. intros sink Hs. eexists. split; [done|]. cbn. done.
  - exists [[nl]].
    assert (tells w (mkWriter (w_out w ++ [nl]) BeforeIndent (w_indents w) 0) true
      (fun sink => Ret (let r := k_put sink w [nl] in if r.2 then (mkWriter (w_out r.1) BeforeIndent (w_indents r.1) 0, true) else r)) [[nl]]) as A.
    { pose proof (tells_map _ _ _ (fun v => mkWriter (w_out v) BeforeIndent (w_indents v) 0) _ (fun _ => eq_refl) (tells_puts [[nl]] w)) as A.
      cbn [concat] in A. rewrite app_nil_r in A. revert A. apply tells_ext. intros sink. cbn [k_puts].
      destruct (k_put sink w [nl]) as [v [|]]; done. }
    exact (tells_map _ _ _ (fun v => mkWriter (w_out v) (w_line v) (alter_last (fun b => mkBlock (is_last_item b) false) (w_indents v) ++ [mkBlock c true]) (w_pending v)) _ (fun _ => eq_refl) A).
Qed.
Lemma indent_tells w : exists l, tells w (write_indent_partial w) true (fun sink => Ret (k_indent_partial sink w)) l.
Proof.
  unfold write_indent_partial, k_indent_partial. set (pending := count_while _ _). set (tp := take _ _). destruct (last tp) as [l|].
  - exists (map as_str (take (length tp - 1) tp) ++ [as_str_leading l]).
    pose proof (tells_puts (map as_str (take (length tp - 1) tp) ++ [as_str_leading l]) (mkWriter (w_out w) (w_line w) (w_indents w) pending)) as A.
    cbn [w_out w_line w_indents w_pending] in A. rewrite concat_app in A at 1. cbn [concat] in A. rewrite app_nil_r in A.
    apply (tells_from w (mkWriter (w_out w) (w_line w) (w_indents w) pending) _ _ _ _ eq_refl). exact A.
  - exists []. rewrite app_nil_r. apply (tells_from w (mkWriter (w_out w) (w_line w) (w_indents w) pending) _ _ _ _ eq_refl). exact (tells_nil _ true).
Qed.
Lemma complete_tells w W : complete_partial_indent w = Ret W -> exists l, tells w W true (fun sink => k_complete_indent sink w) l.
Proof.
  unfold complete_partial_indent, k_complete_indent. destruct (assertb (bool_decide _)); cbn [mbind run_bind]; [|discriminate|discriminate].
  destruct (assertb (Nat.leb _ _)); cbn [mbind run_bind]; [|discriminate|discriminate].
  assert (forall ls ts, concat ls = ts -> Ret (mkWriter (w_out w ++ ts ++ concat (replicate (w_pending w) (lit "    "))) (w_line w) (w_indents w) 0) = Ret W ->
    exists l, tells w W true (fun sink => let r := k_puts sink w (ls ++ replicate (w_pending w) (lit "    ")) in
      Ret (if r.2 then (mkWriter (w_out r.1) (w_line r.1) (w_indents r.1) 0, true) else r)) l) as A.
  { intros ls ts <- [= <-]. eexists.
    pose proof (tells_map _ _ _ (fun v => mkWriter (w_out v) (w_line v) (w_indents v) 0) _ (fun _ => eq_refl) (tells_puts (ls ++ replicate (w_pending w) (lit "    ")) w)) as A.
    cbn [w_out w_line w_indents w_pending] in A. rewrite concat_app in A at 1. exact A. }
  destruct (length (w_indents w) - w_pending w) as [|n].
  - cbn [mbind run_bind]. apply A. done.
  - destruct (w_indents w !! n) as [b|]; cbn [mbind run_bind]; [|discriminate]. apply A. cbn. by rewrite app_nil_r.
Qed.
Definition k_content (sink : text -> text -> text * bool) (e : bool) (content : text) (w1 : writer) : fmt_result :=
  match content with
  | [] => Ret (w1, true)
  | _ =>
      _ ← assertb (bool_decide (w_line w1 <> BeforeIndent));
      andthen (if decide (w_line w1 = PartialIndent) then k_complete_indent sink w1 else Ret (w1, true))
        (fun w2 =>
           let ind := alter_last (fun b => mkBlock (is_last_item b) (is_first_line b && negb e)) (w_indents w2) in
           let r := k_put sink (mkWriter (w_out w2) (w_line w2) ind (w_pending w2)) content in
           Ret (if r.2 then
                  (mkWriter (w_out r.1) (if e then BeforeIndent else Content) (w_indents r.1) (w_pending r.1), true)
                else r))
  end.
Lemma loop_tells fuel : forall w s W, write_str_loop fuel w s = Ret W -> exists l, tells w W true (fun sink => k_write_loop sink fuel w s) l.
Proof.
  induction fuel as [|f IH]; intros w s W; cbn [write_str_loop k_write_loop]; destruct s as [|c s]; try discriminate;
    try (intros [= <-]; exists []; exact (tells_nil w true)).
  set (w1 := if decide (w_line w = BeforeIndent) then _ else _).
  assert (exists l, tells w w1 true (fun sink => Ret (if decide (w_line w = BeforeIndent) then
                    let r := k_indent_partial sink w in
                    if r.2 then (mkWriter (w_out r.1) PartialIndent (w_indents r.1) (w_pending r.1), true) else r
                  else (w, true))) l) as (l1 & A1).
  { unfold w1. destruct (decide (w_line w = BeforeIndent)); [|exists []; exact (tells_nil w true)].
    destruct (indent_tells w) as (l & A). exists l. exact (tells_map _ _ _ (fun v => mkWriter (w_out v) PartialIndent (w_indents v) (w_pending v)) _ (fun _ => eq_refl) A). }
  clearbody w1. destruct (split_line (c :: s)) as [[content e] rest] eqn:Es.
  set (m := match content with [] => Ret w1 | _ => _ end).
  destruct m as [w4| |] eqn:Em; cbn [mbind run_bind]; [|discriminate|discriminate]. intros E.
  destruct (IH _ _ _ E) as (l3 & A3). 
  enough (exists l2, tells w1 w4 true (fun sink => k_content sink e content w1) l2) as (l2 & A2).
  { exists (l1 ++ (l2 ++ l3)). refine (tells_then w w1 W true _ (fun sink w1 => andthen (k_content sink e content w1) (fun w4 => k_write_loop sink f w4 rest)) l1 (l2 ++ l3) A1 _).
    exact (tells_then w1 w4 W true _ (fun sink w4 => k_write_loop sink f w4 rest) l2 l3 A2 A3). }
  subst m. unfold k_content. destruct content as [|c' content]; [injection Em as <-; exists []; exact (tells_nil w1 true)|].
  destruct (assertb _); cbn [mbind run_bind] in Em |- *; [|discriminate Em|discriminate Em].
  destruct (decide (w_line w1 = PartialIndent)).
  - destruct (complete_partial_indent w1) as [w2| |] eqn:Ec; cbn [mbind run_bind] in Em; [|discriminate Em|discriminate Em]. injection Em as <-.
    destruct (complete_tells _ _ Ec) as (l4 & A4). eexists. refine (tells_then w1 w2 _ true _ (fun sink w2 => _) l4 [c' :: content] A4 _).
    set (ind := alter_last _ _).
    pose proof (tells_map _ _ _ (fun v => mkWriter (w_out v) (if e then BeforeIndent else Content) (w_indents v) (w_pending v)) _ (fun _ => eq_refl)
      (tells_puts [c' :: content] (mkWriter (w_out w2) (w_line w2) ind (w_pending w2)))) as A.
    cbn [w_out w_line w_indents w_pending concat] in A. rewrite app_nil_r in A.
    apply (tells_from w2 (mkWriter (w_out w2) (w_line w2) ind (w_pending w2)) _ _ _ _ eq_refl). revert A. apply tells_ext. intros sink. cbn [k_puts].
    destruct (k_put _ _ _) as [v [|]]; done.
  - cbn [mbind run_bind] in Em. injection Em as <-. exists [c' :: content]. unfold andthen. cbn [mbind run_bind].
    set (ind := alter_last _ _).
    pose proof (tells_map _ _ _ (fun v => mkWriter (w_out v) (if e then BeforeIndent else Content) (w_indents v) (w_pending v)) _ (fun _ => eq_refl)
      (tells_puts [c' :: content] (mkWriter (w_out w1) (w_line w1) ind (w_pending w1)))) as A.
    cbn [w_out w_line w_indents w_pending concat] in A. rewrite app_nil_r in A.
    apply (tells_from w1 (mkWriter (w_out w1) (w_line w1) ind (w_pending w1)) _ _ _ _ eq_refl). revert A. apply tells_ext. intros sink. cbn [k_puts].
    destruct (k_put _ _ _) as [v [|]]; done.
Qed.
Lemma chunks_tells ls : forall w W, write_chunks w ls = Ret W -> exists l, tells w W true (fun sink => k_write_chunks sink w ls) l.
Proof.
  induction ls as [|s ls IH]; intros w W; cbn [write_chunks k_write_chunks]; [intros [= <-]; exists []; exact (tells_nil w true)|].
  destruct (write_str w s) as [w1| |] eqn:E1; cbn [mbind run_bind]; [|discriminate|discriminate]. intros E.
  destruct (loop_tells _ _ _ _ E1) as (l1 & A1). destruct (IH _ _ E) as (l2 & A2). exists (l1 ++ l2).
  exact (tells_then w w1 W true _ (fun sink w1 => k_write_chunks sink w1 ls) l1 l2 A1 A2).
Qed.

Section Facts.
Context {T : Type} (show : T -> list text * bool).
Implicit Types (h : heap T).
Lemma data_tells h w x W b : try_write_data show h w x = Ret (W, b) -> exists l, tells w W b (fun sink => k_write_data sink show h w x) l.
Proof.
  unfold try_write_data, k_write_data. destruct (try_borrow h x) as [[d|]| |]; cbn [mbind run_bind]; [| |discriminate|discriminate].
  - destruct (write_chunks w (show d).1) as [w1| |] eqn:E; cbn [mbind run_bind]; [|discriminate|discriminate]. intros [= <- <-].
    destruct (chunks_tells _ _ _ E) as (l & A). exists (l ++ []). exact (tells_then w w1 w1 (show d).2 _ (fun sink w1 => Ret (w1, (show d).2)) l [] A (tells_nil w1 _)).
  - destruct (write_str w _) as [w1| |] eqn:E; cbn [mbind run_bind]; [|discriminate|discriminate]. intros [= <- <-]. exact (loop_tells _ _ _ _ E).
Qed.
Lemma prepare_tells fuel h : forall w st o W st', prepare_next fuel h w st = Ret (o, W, st') -> exists l (r : (text -> text -> text * bool) -> writer * bool),
  (forall sink, k_prepare_next sink fuel h w st = Ret (o, r sink, st')) /\ tells w W true (fun sink => Ret (r sink)) l.
Proof.
  induction fuel as [|f IH]; intros w st o W st'; cbn [prepare_next k_prepare_next]; [discriminate|].
  destruct (link_dfs_next h st) as [[ev st1]| |]; cbn [mbind run_bind]; [|discriminate|discriminate]. destruct ev as [[y|y]|].
  - intros [= <- <- <-]. destruct (open_item_tells w (is_last_sibling h y)) as (l & A). exists l. eexists. split; [intros sink; reflexivity|exact A].
  - unfold close_item. destruct (w_indents w) as [|b bs].
    + intros [= <- <- <-]. exists []. eexists. split; [intros sink; reflexivity|exact (tells_nil w true)].
    + intros E. destruct (IH _ _ _ _ _ E) as (l & r & B & A). exists l, r. split; [exact B|]. revert A. apply tells_from. done.
  - intros [= <- <- <-]. exists []. eexists. split; [intros sink; reflexivity|exact (tells_nil w true)].
Qed.
Lemma print_tells fuel h : forall w st W b, try_print_loop show fuel h w st = Ret (W, b) -> exists l, tells w W b (fun sink => k_print_loop sink show fuel h w st) l.
Proof.
  induction fuel as [|f IH]; intros w st W b; cbn [try_print_loop k_print_loop]; [discriminate|].
  destruct (prepare_next (dfs_fuel h) h w st) as [[[o w1] st1]| |] eqn:E; cbn [mbind run_bind]; [|discriminate|discriminate].
  destruct (prepare_tells _ _ _ _ _ _ _ E) as (l1 & r & B & A1). intros E2.
  enough (exists l2, tells w1 W b (fun sink => match o with None => Ret (w1, true) | Some y => andthen (k_write_data sink show h w1 y) (fun w2 => k_print_loop sink show f h w2 st1) end) l2) as (l2 & A2).
  { exists (l1 ++ l2). eapply tells_ext; [|exact (tells_then w w1 W b _ (fun sink w1 => match o with None => Ret (w1, true) | Some y => andthen (k_write_data sink show h w1 y) (fun w2 => k_print_loop sink show f h w2 st1) end) l1 l2 A1 A2)].
    intros sink. rewrite B. cbn [mbind run_bind]. reflexivity. }
  destruct o as [y|]; [|injection E2 as <- <-; exists []; exact (tells_nil w1 true)].
  destruct (try_write_data show h w1 y) as [[w2 ok]| |] eqn:E3; cbn [mbind run_bind] in E2; [|discriminate E2|discriminate E2].
  destruct (data_tells _ _ _ _ _ E3) as (l3 & A3). destruct ok.
  - destruct (IH _ _ _ _ E2) as (l4 & A4). exists (l3 ++ l4). exact (tells_then w1 w2 W b _ (fun sink w2 => k_print_loop sink show f h w2 st1) l3 l4 A3 A4).
  - injection E2 as <- <-. exists l3. exact (tells_stop _ _ _ _ _ A3).
Qed.
Lemma pretty_tells h x txt b : pretty_try show h x = Ret (txt, b) -> exists l, concat l = txt /\
  forall sink, honest sink -> pretty_sink sink show h x = Ret ((feed sink [] l).1, (feed sink [] l).2 && b).
Proof.
  unfold pretty_try, pretty_sink. destruct (link_dfs_next h _) as [[ev st]| |]; cbn [mbind run_bind]; [|discriminate|discriminate].
  destruct (try_write_data show h w_new x) as [[w ok]| |] eqn:E; cbn [mbind run_bind]; [|discriminate|discriminate].
  destruct (data_tells _ _ _ _ _ E) as (l1 & A1). intros E2.
  enough (exists l W, txt = w_out W /\ tells w_new W b (fun sink => andthen (k_write_data sink show h w_new x) (fun w => k_print_loop sink show (dfs_fuel h) h w st)) l) as (l & W & -> & [O A]).
  { exists l. split; [by rewrite O|]. intros sink Hs. destruct (A sink Hs) as (w' & B & C & _). rewrite B. cbn [mbind run_bind]. by rewrite C. }
  destruct ok.
  - destruct (try_print_loop _ _ _ _ _) as [[w2 ok]| |] eqn:E3; cbn [mbind run_bind] in E2; [|discriminate E2|discriminate E2]. injection E2 as <- <-.
    destruct (print_tells _ _ _ _ _ _ E3) as (l2 & A2). exists (l1 ++ l2), w2. split; [done|].
    exact (tells_then w_new w w2 ok _ (fun sink w => k_print_loop sink show (dfs_fuel h) h w st) l1 l2 A1 A2).
  - injection E2 as <- <-. exists l1, w. split; [done|]. exact (tells_stop _ _ _ _ _ A1).
Qed.
End Facts.
