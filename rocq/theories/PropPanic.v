(** C83: a request that panics does not block the others. *)
From Coq Require Import Permutation.
From Verif Require Import Base VCache Locks LocksProofs PropLocks.

(** Any number of goroutines, each serving any sequence of requests, index
    operations and clean-ups, each of which may be broken off by a panic anywhere
    outside the sections that are unlocked without defer: a state in which nobody can
    go on is one in which all are finished. *)
Theorem C83_no_deadlock_partial ps : Forall (served c_any_op) ps ->
  forall sched, stuck (lrun (start ps) sched) -> finished (lrun (start ps) sched).
Proof.
  intros Hp sched Hs.
  assert (Hw : Forall (wf []) ps) by (eapply Forall_impl; [|exact Hp]; intros p; apply served_wf, fits_op).
  destruct (start_wf ps Hw) as [W X]. destruct (run_inv sched _ W X) as [W' X']. now apply stuck_finished.
Qed.

(** However they have been scheduled so far, all can still finish. *)
Theorem C83_can_finish_partial ps : Forall (served c_any_op) ps ->
  forall sched, exists sched', finished (lrun (start ps) (sched ++ sched')).
Proof.
  intros Hp sched. destruct (run_on (S (left (lrun (start ps) sched))) (lrun (start ps) sched)) as (sched' & Hs); [lia|].
  exists sched'. rewrite lrun_app in *. rewrite <- lrun_app in *. now apply C83_no_deadlock_partial.
Qed.

(** A goroutine that is done, however often it panicked, holds no lock. *)
Theorem C83_released_partial ps : Forall (served c_any_op) ps ->
  forall sched t, In t (lrun (start ps) sched) -> t_todo t = [] -> t_held t = [].
Proof.
  intros Hp sched t Ht Hd.
  assert (Hw : Forall (wf []) ps) by (eapply Forall_impl; [|exact Hp]; intros p; apply served_wf, fits_op).
  destruct (start_wf ps Hw) as [W X]. destruct (run_inv sched _ W X) as [W' _].
  rewrite Forall_forall in W'. specialize (W' _ Ht). unfold twf in W'. now rewrite Hd in W'.
Qed.

(** A lookup in the vector cache for an id beyond its 25000 slots panics between
    RLock and RUnlock.  The next tick of the cache that finds it full then waits for
    ever, and so does every later lookup of an id of the same shard, although this one
    is within the cache. *)
Definition get0 : list act := w (LShard 0) MR.
Lemma get0_ok : traces c_get get0.
Proof. apply (T_Any _ 0%N). apply (T_Seq _ _ get0 []); [apply x_ok|apply T_Alt1, T_Skip]. Qed.
Lemma get_stuck k :
  stuck (lrun (start [leak_shard 25088; Acq LMaint MW :: A 0 :: k; get0]) [0; 1; 1; 1; 1; 2]).
Proof. intros [|[|[|[|i]]]]; vm_compute; reflexivity. Qed.
Theorem C83_cache_get_refuted : exists id p q sched,
  (forall (V : Type) (norm : V -> V) mx t, snd (vstep norm (new_vcache mx) (VRead t id)) = Some Panic) /\
  traces c_tick p /\ traces c_get q /\
  stuck (lrun (start [leak_shard id; p; q]) sched) /\
  map (fun t => negb (match t_todo t with [] => true | _ => false end)) (lrun (start [leak_shard id; p; q]) sched) = [false; true; true].
Proof.
  exists 25088%N, tick_trace, get0, [0; 1; 1; 1; 1; 2]. split; [reflexivity|]. split; [exact tick_ok|]. split; [exact get0_ok|].
  split; [apply get_stuck|].
  unfold tick_trace. generalize (A 1 :: rest (rels ++ [Rel LMaint])). intros k. vm_compute. reflexivity.
Qed.

(** The hypotheses are met by an add request whose insertion panics when it puts the
    vector into the vector cache (the 25001st vector of a collection, C34): both
    locks of the index are given back; the goroutine then serves another request. *)
Definition boom_insert : list act :=
  [Acq LDelIns MR] ++ ([] ++ w (LVertex 2) MW ++ w LIndex MR ++ w LIndex MW ++ [Acq (LShard 424) MR] ++ [] ++ [Rel (LShard 424)]) ++ [Rel LDelIns].
Definition boom_docs : list act := ([] ++ w LIndices MW) ++ [Acq LCompress MR] ++ boom_insert ++ [Rel LCompress].
Lemma boom_ok : broken c_any_op boom_docs.
Proof.
  do 2 apply B_Alt2. apply B_Alt1. apply B_Seq2.
  - apply then_ok; [apply T_Alt1, T_Skip|apply x_ok].
  - apply B_Alt2, B_Star1, B_Alt2. apply B_With, B_With. apply B_Seq2; [apply T_Alt1, T_Skip|]. apply B_Alt2.
    apply B_Seq2; [apply vertex_ok|]. apply B_Seq2; [apply T_Alt2, x_ok|]. apply B_Seq2; [apply x_ok|].
    apply B_Alt2, B_Seq1. apply (B_Any _ 424%N). apply (B_With _ _ _ []). apply B_Here.
Qed.
Lemma docs_op : traces c_any_op docs_trace.
Proof.
  do 2 apply T_Alt2. apply T_Alt1. apply then_ok.
  - apply then_ok; [apply T_Alt1, T_Skip|apply x_ok].
  - apply star1. apply T_Alt2. exact (T_With LCompress MR _ _ insert_ok).
Qed.
Example C83_nonvacuous : Forall (served c_any_op) [boom_docs ++ docs_trace ++ []; docs_trace ++ boom_docs ++ []] /\
  (exists sched, lstep (lrun (start [boom_docs; docs_trace]) sched) 0 = None /\
     map t_held (lrun (start [boom_docs; docs_trace]) sched) = [[]; [(LDelIns, MR); (LCompress, MR)]]).
Proof.
  split.
  - constructor; [|constructor; [|constructor]].
    + apply S_Panic; [exact boom_ok|]. apply S_Done; [exact docs_op|apply S_None].
    + apply S_Done; [exact docs_op|]. apply S_Panic; [exact boom_ok|apply S_None].
  - exists ([1; 1; 1; 1; 1] ++ repeat 0 20). split; vm_compute; reflexivity.
Qed.

Print Assumptions C83_no_deadlock_partial.
Print Assumptions C83_can_finish_partial.
Print Assumptions C83_released_partial.
Print Assumptions C83_cache_get_refuted.
