(** C65: requests do not block each other for ever. *)
From Coq Require Import Permutation.
From Verif Require Import Base Locks LocksProofs.

(** Any number of goroutines, each running any sequence of requests, index
    operations and clean-ups: a state in which nobody can go on is one in which all
    are finished. *)
Theorem C65_no_deadlock_partial ps : Forall (traces c_goroutine) ps ->
  forall sched, stuck (lrun (start ps) sched) -> finished (lrun (start ps) sched).
Proof.
  intros Hp sched Hs. destruct (start_inv c_goroutine ps fits_goroutine Hp) as [W X].
  destruct (run_inv sched _ W X) as [W' X']. now apply stuck_finished.
Qed.

(** However they have been scheduled so far, all can still finish. *)
Theorem C65_can_finish_partial ps : Forall (traces c_goroutine) ps ->
  forall sched, exists sched', finished (lrun (start ps) (sched ++ sched')).
Proof.
  intros Hp sched. destruct (run_on (S (left (lrun (start ps) sched))) (lrun (start ps) sched)) as (sched' & Hs); [lia|].
  exists sched'. rewrite lrun_app in *. rewrite <- lrun_app in *. now apply C65_no_deadlock_partial.
Qed.

(** Every schedule makes progress only so often: at most two steps per lock
    operation; the schedule cannot go on without finishing. *)
Fixpoint moves (s : threads) (sched : list nat) : nat :=
  match sched with
  | [] => 0
  | i :: r => match lstep s i with Some s' => S (moves s' r) | None => moves s r end
  end.
Theorem C65_bounded ps sched :
  moves (start ps) sched <= 2 * length (concat ps).
Proof.
  assert (H : forall sched s, moves s sched <= left s).
  { clear. induction sched as [|i r IH]; intros s; cbn [moves]; [lia|]. destruct (lstep s i) as [s'|] eqn:E; [|apply IH].
    apply step_left in E. specialize (IH s'). lia. }
  specialize (H sched (start ps)). enough (left (start ps) = 2 * length (concat ps)) by lia. clear.
  induction ps as [|p ps IH]; [reflexivity|]. cbn [start map left fold_right concat t_todo t_wait]. rewrite app_length.
  unfold left, start in IH. rewrite IH. lia.
Qed.

(** Dropping the vector cache (Shutdown, Drop and Compress do: index.go:672,
    index.go:644, compress.go:108) takes all shard locks without the maintenance
    lock.  At the same time as the ticker of the cache, each of the two holds a
    shard the other one waits for. *)
Definition A (k : nat) : act := Acq (LShard (N.of_nat k)) MW.
Definition rest (t : list act) : list act := map A (seq 2 (N.to_nat 510)) ++ t.
Definition rels : list act := map (fun k => Rel (LShard (N.of_nat k))) (seq 0 shard_factor).
Definition tick_trace : list act := Acq LMaint MW :: A 0 :: A 1 :: rest (rels ++ [Rel LMaint]).
Definition drop_trace : list act := A 1 :: A 0 :: rest rels.
Lemma factor_two : shard_factor = S (S (N.to_nat 510)).
Proof. vm_compute. reflexivity. Qed.
Lemma tick_ok : traces c_tick tick_trace.
Proof.
  apply T_Alt2. unfold tick_trace, rest, rels.
  refine (eq_ind _ (traces _) (T_Crit LMaint MW c_delete_all _ (T_All shard_factor Skip (seq 0 shard_factor) [] (Permutation_refl _) T_Skip)) _ _).
  cbn [app]. rewrite <- app_assoc, factor_two. reflexivity.
Qed.
Lemma drop_ok : traces c_drop drop_trace.
Proof.
  unfold drop_trace, rest, rels, c_drop, c_delete_all.
  assert (P : Permutation (1 :: 0 :: seq 2 (N.to_nat 510)) (seq 0 shard_factor)) by (rewrite factor_two; apply perm_swap).
  exact (T_All shard_factor Skip _ [] P T_Skip).
Qed.
Lemma drop_stuck k1 k2 :
  stuck (lrun (start [Acq LMaint MW :: A 0 :: A 1 :: k1; A 1 :: A 0 :: k2]) [0; 0; 0; 0; 1; 1; 0; 1]).
Proof. intros [|[|[|i]]]; vm_compute; reflexivity. Qed.
Theorem C65_drop_deadlock_refuted : exists p q sched,
  traces c_tick p /\ traces c_drop q /\ stuck (lrun (start [p; q]) sched) /\ ~ finished (lrun (start [p; q]) sched).
Proof.
  exists tick_trace, drop_trace, [0; 0; 0; 0; 1; 1; 0; 1]. split; [exact tick_ok|]. split; [exact drop_ok|].
  split; [apply drop_stuck|]. intros H.
  assert (E : lrun (start [tick_trace; drop_trace]) [0; 0; 0; 0; 1; 1; 0; 1] =
    [mkT [(LShard 0, MW); (LMaint, MW)] (A 1 :: rest (rels ++ [Rel LMaint])) true; mkT [(LShard 1, MW)] (A 0 :: rest rels) true]).
  { unfold tick_trace, drop_trace. generalize (rest (rels ++ [Rel LMaint])) (rest rels). intros k1 k2. vm_compute. reflexivity. }
  rewrite E in H. specialize (H _ (or_introl eq_refl)). discriminate.
Qed.

(** A clean-up that cannot read the deleted entry point leaves the index locked for
    reading; an insertion then waits for ever. *)
Definition add_trace : list act :=
  [Acq LCompress MR; Acq LDelIns MR; Acq LOnce MW; Acq LIndex MR; Rel LIndex; Acq LIndex MW; Rel LIndex; Rel LOnce;
   Rel LDelIns; Rel LCompress].
Lemma add_ok : traces c_add add_trace.
Proof.
  apply T_Alt2. apply (T_With LCompress MR c_insert [Acq LDelIns MR; Acq LOnce MW; Acq LIndex MR; Rel LIndex; Acq LIndex MW; Rel LIndex; Rel LOnce; Rel LDelIns]).
  apply (T_With LDelIns MR _ [Acq LOnce MW; Acq LIndex MR; Rel LIndex; Acq LIndex MW; Rel LIndex; Rel LOnce]).
  apply (T_Seq _ _ [Acq LOnce MW; Acq LIndex MR; Rel LIndex; Acq LIndex MW; Rel LIndex; Rel LOnce] []); [|apply T_Alt1, T_Skip].
  apply T_Alt2. apply (T_With LOnce MW _ [Acq LIndex MR; Rel LIndex; Acq LIndex MW; Rel LIndex]).
  apply (T_Seq _ _ [Acq LIndex MR; Rel LIndex] [Acq LIndex MW; Rel LIndex]).
  - apply T_Alt1, (T_With LIndex MR Skip []). apply T_Skip.
  - apply T_Alt2. apply (T_With LIndex MW _ []). apply T_Alt1, T_Skip.
Qed.
Theorem C65_leaked_lock_refuted : exists q sched,
  traces c_add q /\ stuck (lrun (start [leak_index; q]) sched) /\ ~ finished (lrun (start [leak_index; q]) sched).
Proof.
  exists add_trace, ([0; 0; 0; 0; 0; 0; 0] ++ [1; 1; 1; 1; 1; 1; 1; 1]). split; [exact add_ok|]. split.
  - intros [|[|[|i]]]; vm_compute; reflexivity.
  - intros H. specialize (H (mkT [(LOnce, MW); (LDelIns, MR); (LCompress, MR)] [Acq LIndex MW; Rel LIndex; Rel LOnce; Rel LDelIns; Rel LCompress] true)).
    vm_compute in H. assert (E := H (or_intror (or_introl eq_refl))). discriminate.
Qed.

(** The hypotheses are met: an insertion that connects a neighbour, and the ticker
    of the vector cache. *)
Lemma vertex_ok v : traces c_vertex [Acq (LVertex v) MW; Rel (LVertex v)].
Proof. apply (T_Any _ v). apply (T_Crit (LVertex v) MW Skip []). apply T_Skip. Qed.
Lemma set_conns_ok v : traces c_set_conns [Acq (LVertex v) MW; Rel (LVertex v)].
Proof. apply (T_Any _ v). apply (T_With (LVertex v) MW Skip []). apply T_Skip. Qed.
Definition connect_trace : list act := [Acq LTomb MR; Rel LTomb; Acq (LVertex 1) MW; Acq (LShard 1) MR; Rel (LShard 1);
  Acq (LShard 2) MR; Rel (LShard 2); Acq (LShard 2) MW; Rel (LShard 2); Rel (LVertex 1)].
Lemma connect_ok : traces c_connect connect_trace.
Proof.
  apply (T_Seq _ _ [Acq LTomb MR; Rel LTomb] [Acq (LVertex 1) MW; Acq (LShard 1) MR; Rel (LShard 1);
    Acq (LShard 2) MR; Rel (LShard 2); Acq (LShard 2) MW; Rel (LShard 2); Rel (LVertex 1)]).
  - apply T_Alt2. apply (T_With LTomb MR Skip []). apply T_Skip.
  - apply T_Alt2. apply (T_Any _ 1%N). apply (T_With (LVertex 1) MW _ [Acq (LShard 1) MR; Rel (LShard 1);
    Acq (LShard 2) MR; Rel (LShard 2); Acq (LShard 2) MW; Rel (LShard 2)]). apply T_Alt2.
    apply (T_Seq _ _ [Acq (LShard 1) MR; Rel (LShard 1); Acq (LShard 2) MR; Rel (LShard 2); Acq (LShard 2) MW; Rel (LShard 2)] []); [|apply T_Alt1, T_Skip].
    apply (T_Seq _ _ [Acq (LShard 1) MR; Rel (LShard 1)] [Acq (LShard 2) MR; Rel (LShard 2); Acq (LShard 2) MW; Rel (LShard 2)]).
    + apply (T_Any _ 1%N). apply (T_Seq _ _ [Acq (LShard 1) MR; Rel (LShard 1)] []); [|apply T_Alt1, T_Skip].
      apply (T_Crit (LShard 1) MR Skip []). apply T_Skip.
    + apply T_Alt2. apply (T_Seq _ _ [Acq (LShard 2) MR; Rel (LShard 2); Acq (LShard 2) MW; Rel (LShard 2)] []); [|apply T_Alt1, T_Skip].
      apply (T_Any _ 2%N). apply (T_Seq _ _ [Acq (LShard 2) MR; Rel (LShard 2)] [Acq (LShard 2) MW; Rel (LShard 2)]).
      * apply (T_Crit (LShard 2) MR Skip []). apply T_Skip.
      * apply T_Alt2. apply (T_Crit (LShard 2) MW Skip []). apply T_Skip.
Qed.
Lemma star1 c t : traces c t -> traces (Star c) t.
Proof. intros H. rewrite <- (app_nil_r t). apply T_Star1; [exact H|apply T_Star0]. Qed.
Lemma op_tick t : traces c_tick t -> traces c_goroutine t.
Proof. intros H. apply star1. do 7 apply T_Alt2. now apply T_Alt1. Qed.
Definition w (l : lock) (m : mode) : list act := [Acq l m; Rel l].
Lemma w_ok l m : traces (With l m Skip) (w l m).
Proof. apply (T_With l m Skip []). apply T_Skip. Qed.
Lemma x_ok l m : traces (Crit l m Skip) (w l m).
Proof. apply (T_Crit l m Skip []). apply T_Skip. Qed.
Lemma then_ok a b t u : traces a t -> traces b u -> traces (Then a b) (t ++ u).
Proof. intros H1 H2. apply T_Seq; [exact H1|]. now apply T_Alt2. Qed.
Definition layer_trace : list act := w LVisited MW ++ ([] ++ (w (LVertex 1) MW ++ w LTomb MR ++ w (LShard 1) MR) ++ w LVisited MW).
Lemma layer_ok : traces c_layer layer_trace.
Proof.
  apply T_Seq; [apply x_ok|]. apply then_ok; [apply T_Star0|]. apply T_Seq; [|apply x_ok].
  apply star1. apply T_Seq; [apply vertex_ok|]. apply star1. apply T_Seq; [apply w_ok|]. apply (T_Any _ 1%N), w_ok.
Qed.
Definition insert_trace : list act :=
  [Acq LDelIns MR] ++ ([] ++ w (LVertex 2) MW ++ w LIndex MR ++ w LIndex MW ++ w (LShard 2) MR ++ [] ++
    ([] ++ layer_trace ++ ([] ++ []) ++ w (LVertex 2) MW ++ connect_trace) ++ w (LVertex 2) MW ++ w LIndex MW) ++ [Rel LDelIns].
Lemma insert_ok : traces c_insert insert_trace.
Proof.
  apply T_With. apply then_ok; [apply T_Alt1, T_Skip|]. apply T_Seq; [apply vertex_ok|]. apply T_Seq; [apply T_Alt2, x_ok|].
  apply then_ok; [apply x_ok|]. apply T_Seq; [apply (T_Any _ 2%N), w_ok|]. apply then_ok; [apply T_Star0|].
  apply then_ok; [|apply T_Seq; [apply vertex_ok|apply x_ok]].
  apply star1. apply then_ok; [apply T_Star0|]. apply then_ok; [exact layer_ok|].
  apply then_ok; [apply T_Seq; apply T_Star0|]. apply then_ok; [apply set_conns_ok|]. apply star1, connect_ok.
Qed.
Definition docs_trace : list act := ([] ++ w LIndices MW) ++ [Acq LCompress MR] ++ insert_trace ++ [Rel LCompress].
Lemma docs_ok : traces c_goroutine docs_trace.
Proof.
  apply star1. do 2 apply T_Alt2. apply T_Alt1. apply then_ok.
  - apply then_ok; [apply T_Alt1, T_Skip|apply x_ok].
  - apply star1. apply T_Alt2. exact (T_With LCompress MR _ _ insert_ok).
Qed.
Example C65_nonvacuous : Forall (traces c_goroutine) [docs_trace; docs_trace; tick_trace] /\
  (exists sched, lrun (start [docs_trace; docs_trace]) sched <> start [docs_trace; docs_trace] /\
     lstep (lrun (start [docs_trace; docs_trace]) sched) 1 = None /\ ~ finished (lrun (start [docs_trace; docs_trace]) sched)).
Proof.
  split.
  - constructor; [exact docs_ok|]. constructor; [exact docs_ok|]. constructor; [|constructor]. apply op_tick, tick_ok.
  - exists [0; 0; 0; 0; 0; 0; 0; 1; 1; 1; 1; 1; 1]. split; [vm_compute; discriminate|]. split; [vm_compute; reflexivity|].
    intros H. specialize (H _ (or_introl eq_refl)). vm_compute in H. discriminate.
Qed.

Print Assumptions C65_no_deadlock_partial.
Print Assumptions C65_can_finish_partial.
Print Assumptions C65_bounded.
Print Assumptions C65_drop_deadlock_refuted.
Print Assumptions C65_leaked_lock_refuted.
