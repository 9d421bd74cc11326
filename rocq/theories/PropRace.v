(** C93: concurrent requests do not access shared memory in conflict. *)
From Coq Require Import Permutation.
From Verif Require Import Base Locks LocksProofs Race RaceProofs.

(** The functions lock as those of Locks.v do. *)
Theorem C93_same_locks t : atraces (AStar a_any_op) t -> traces c_goroutine (locks t).
Proof. intros H. exact (erase_traces _ _ H). Qed.

(** Any number of goroutines, each running any sequence of requests, index operations,
    clean-ups and cache ticks, in any interleaving: no two of them access the map of open
    indices, the tombstones, the reset context or the pool of visited lists in conflict. *)
Definition plain (x : var) : bool := match x with XIndices | XTomb | XReset | XVisited => true | _ => false end.
Theorem C93_guarded_partial ps : Forall (atraces (AStar a_any_op)) ps ->
  forall sched x, In x [XIndices; XTomb; XReset; XVisited] -> ~ race (rrun (rstart ps) sched) x.
Proof.
  intros Hp sched x Hx. apply (race_free plain a_any_op); [safety|exact Hp|].
  repeat destruct Hx as [<-|Hx]; try reflexivity; destruct Hx.
Qed.

(** Without Flush, the vertices. *)
Definition vertices (x : var) : bool := match x with XVertex _ => true | _ => false end.
Theorem C93_vertices_partial ps : Forall (atraces (AStar a_index_op)) ps ->
  forall sched v, ~ race (rrun (rstart ps) sched) (XVertex v).
Proof. intros Hp sched v. apply (race_free vertices a_index_op); [safety|exact Hp|reflexivity]. Qed.

(** Without additions, the slots of the vector cache. *)
Definition slot (x : var) : bool := match x with XSlot _ => true | _ => false end.
Theorem C93_slots_partial ps : Forall (atraces (AStar a_no_add_op)) ps ->
  forall sched k, ~ race (rrun (rstart ps) sched) (XSlot k).
Proof. intros Hp sched k. apply (race_free slot a_no_add_op); [safety|exact Hp|reflexivity]. Qed.

(** Without queries and Flush, the entry point. *)
Definition ep (x : var) : bool := match x with XEp => true | _ => false end.
Theorem C93_entry_point_partial ps : Forall (atraces (AStar a_change_op)) ps ->
  forall sched, ~ race (rrun (rstart ps) sched) XEp.
Proof. intros Hp sched. apply (race_free ep a_change_op); [safety|exact Hp|reflexivity]. Qed.

(** Without clean-ups, the pointer to the guard of the first insertion. *)
Definition once_ (x : var) : bool := match x with XOnce => true | _ => false end.
Theorem C93_first_insertion_partial ps : Forall (atraces (AStar a_no_cleanup_op)) ps ->
  forall sched, ~ race (rrun (rstart ps) sched) XOnce.
Proof. intros Hp sched. apply (race_free once_ a_no_cleanup_op); [safety|exact Hp|reflexivity]. Qed.

(** None of the restrictions can be dropped.  Two queries load the entry point, both
    under the read lock. *)
Ltac seen := cbn [map app fst snd]; reflexivity.
Ltac one := let H := fresh in cbn; intros ? ? H; repeat destruct H as [H|H]; try contradiction; injection H as <- <-; cbn; auto 10.
Definition opened : list ev := [EL (Acq LIndices MW); EA XIndices MR; EL (Rel LIndices)].
Lemma opened_ok : atraces a_open opened.
Proof.
  refine (eq_ind _ (atraces _) (then_go _ _ [] _ (opt_no _) (A_Crit LIndices MW _ _ (at_ (rd XIndices) [(XIndices, MR)] _))) _ _); [one|seen].
Qed.
Definition load_trace : list ev := opened ++ [EL (Acq LIndex MR); EA XEp MW; EL (Rel LIndex)].
Lemma load_ok : atraces a_near load_trace.
Proof.
  refine (eq_ind _ (atraces _) (then_go _ _ _ _ opened_ok
    (then_stop _ _ _ (A_Alt1 _ _ _ (A_With LIndex MR _ _ (at_ (rw XEp) [(XEp, MW)] _))))) _ _); [one|seen].
Qed.
Ltac raced i j :=
  match goal with |- race ?s _ => let s' := eval vm_compute in s in change s with s' end;
  exists i, j; do 6 eexists; split; [discriminate|]; cbn; repeat split; auto.
Theorem C93_queries_race_refuted : exists p sched, atraces a_near p /\ race (rrun (rstart [p; p]) sched) XEp.
Proof.
  exists load_trace, [0; 0; 0; 0; 0; 1; 1; 1; 1; 1]. split; [exact load_ok|]. raced 0 1.
Qed.

(** An addition of a document: the parts of its trace. *)
Definition vertex_trace (v : N) : list ev := [EL (Acq (LVertex v) MW); EA (XVertex v) MW; EL (Rel (LVertex v))].
Lemma vertex_ok v : atraces a_vertex (vertex_trace v).
Proof. apply (A_Any _ v). refine (eq_ind _ (atraces _) (A_Crit (LVertex v) MW _ _ (at_ (rw (XVertex v)) [(XVertex v, MW)] _)) _ _); [one|seen]. Qed.
Definition index_trace : list ev := [EL (Acq LIndex MR); EA XEp MR; EA XMaxl MR; EL (Rel LIndex)].
Lemma index_ok : atraces a_read_index index_trace.
Proof. refine (eq_ind _ (atraces _) (A_Alt2 _ _ _ (A_Crit LIndex MR _ _ (at_ (acc [(XEp, MR); (XMaxl, MR)]) [(XEp, MR); (XMaxl, MR)] _))) _ _); [one|seen]. Qed.
Definition preload_trace (k : N) : list ev := [EL (Acq (LShard k) MR); EA (XSlot k) MW; EL (Rel (LShard k))].
Lemma preload_ok k : atraces a_preload (preload_trace k).
Proof. apply (A_Any _ k). refine (eq_ind _ (atraces _) (A_With (LShard k) MR _ _ (at_ (rw (XSlot k)) [(XSlot k, MW)] _)) _ _); [one|seen]. Qed.
Definition get_trace (k : N) : list ev := [EL (Acq (LShard k) MR); EA (XSlot k) MR; EL (Rel (LShard k))].
Lemma get_ok k : atraces a_get (get_trace k).
Proof. apply (A_Any _ k). refine (eq_ind _ (atraces _) (then_stop _ _ _ (A_Crit (LShard k) MR _ _ (at_ (rd (XSlot k)) [(XSlot k, MR)] _))) _ _); [one|seen]. Qed.
(** The first part of an insertion of document [v], up to the search for neighbours. *)
Definition head_trace (v : N) : list ev :=
  [EL (Acq LCompress MR); EL (Acq LDelIns MR); EA XOnce MR] ++ vertex_trace v ++ index_trace
  ++ [EL (Acq LIndex MW); EL (Rel LIndex)] ++ preload_trace v.
Definition tail_trace (v : N) : list ev :=
  vertex_trace v ++ [EL (Acq LIndex MW); EA XMaxl MR; EA XEp MW; EA XMaxl MW; EL (Rel LIndex); EL (Rel LDelIns); EL (Rel LCompress)].
Lemma add_ok v t : atraces a_neighbors t -> atraces a_add (head_trace v ++ t ++ tail_trace v).
Proof.
  intros T. apply opt_yes.
  refine (eq_ind _ (atraces _) (A_With LCompress MR _ _ (A_With LDelIns MR _ _ (pre_ (rd XOnce) [(XOnce, MR)] _ _ _
    (then_go _ _ [] _ (opt_no _) (A_Seq _ _ _ _ (vertex_ok v) (A_Seq _ _ _ _ index_ok
      (then_go _ _ _ _ (A_Crit LIndex MW _ _ none) (A_Seq _ _ _ _ (preload_ok v)
        (then_go _ _ [] _ (A_Star0 _) (then_go _ _ _ _ T (A_Seq _ _ _ _ (vertex_ok v)
          (A_Crit LIndex MW _ _ (at_ (acc [(XMaxl, MR); (XEp, MW); (XMaxl, MW)]) [(XMaxl, MR); (XEp, MW); (XMaxl, MW)] _))))))))))))) _ _);
    [one|one|].
  unfold head_trace, tail_trace, vertex_trace, index_trace, preload_trace. cbn [map app fst snd]. rewrite <- !app_assoc. cbn [app].
  rewrite <- ?app_assoc. reflexivity.
Qed.
(** The neighbours are searched for: a candidate entry point's vector is read, and
    another entry point looked for (neighbor_connections.go:287). *)
Definition pick_trace (k : N) : list ev := get_trace k ++ [EA XMaxl MR] ++ index_trace.
Lemma pick_ok k : atraces a_neighbors (pick_trace k).
Proof.
  apply once, then_stop, once.
  refine (eq_ind _ (atraces _) (then_go _ _ _ _ (then_stop _ _ _ (get_ok k)) (pre_ (rd XMaxl) [(XMaxl, MR)] _ _ _
    (A_Seq _ _ _ _ index_ok (A_Alt2 _ _ _ (A_Star0 _))))) _ _); [one|seen].
Qed.
Definition add_trace (v k : N) : list ev := head_trace v ++ pick_trace k ++ tail_trace v.
Fixpoint times (n : nat) (i : nat) : list nat := match n with O => [] | S n' => i :: times n' i end.
(** Two additions: one looks for another entry point while the other raises the
    maximum layer. *)
Theorem C93_additions_race_refuted : exists p q sched, atraces a_add p /\ atraces a_add q /\
  race (rrun (rstart [p; q]) sched) XMaxl.
Proof.
  exists (add_trace 1 0), (add_trace 2 0), (times 20 0 ++ times 33 1).
  split; [apply add_ok, pick_ok|]. split; [apply add_ok, pick_ok|]. raced 0 1.
Qed.

(** Two requests that add documents: one writes the vertices of the cache to the store
    while the other finishes the insertion of one of them. *)
Definition flush_trace (v : N) : list ev := opened ++ [EA (XVertex v) MR; EA (XVertex v) MW; EA XEp MR].
Definition docs_trace (v k : N) : list ev := opened ++ add_trace v k.
Lemma flush_ok v : atraces a_add_docs (flush_trace v).
Proof.
  refine (eq_ind _ (atraces _) (then_go _ _ _ _ opened_ok (pre_ (rd XEp) [] _ _ _
    (post_ flush_acc [(XVertex v, MR); (XVertex v, MW); (XEp, MR)] _ _ (A_Star0 _) _))) _ _); [one| |seen].
  unfold flush_acc. intros x m H. cbn in H. destruct H as [H|[H|[H|[]]]]; injection H as <- <-; [left|left|right]; eauto.
Qed.
Lemma docs_ok v k : atraces a_add_docs (docs_trace v k).
Proof.
  refine (eq_ind _ (atraces _) (then_go _ _ _ _ opened_ok (pre_ (rd XEp) [] _ _ _
    (post_ flush_acc [] _ _ (once _ _ (add_ok v _ (pick_ok k))) _))) _ _); [one|one|].
  cbn [map app]. rewrite app_nil_r. reflexivity.
Qed.
Theorem C93_flush_race_refuted : exists p q sched, atraces a_add_docs p /\ atraces a_add_docs q /\
  race (rrun (rstart [p; q]) sched) (XVertex 1).
Proof.
  exists (docs_trace 1 0), (flush_trace 1), (times 31 0 ++ times 5 1).
  split; [apply docs_ok|]. split; [apply flush_ok|]. raced 0 1.
Qed.

(** A query of a collection that has no document yet reads slot 0 (the entry point is 0)
    while the first addition writes it, both under the read lock of the shard. *)
Definition first_trace : list ev :=
  [EL (Acq LCompress MR); EL (Acq LDelIns MR); EA XOnce MR; EL (Acq LOnce MW)] ++ index_trace
  ++ [EL (Acq LIndex MW); EA XEp MW; EA XMaxl MW] ++ preload_trace 0
  ++ [EL (Rel LIndex); EL (Rel LOnce); EL (Rel LDelIns); EL (Rel LCompress)].
Lemma first_ok : atraces a_add first_trace.
Proof.
  apply opt_yes.
  refine (eq_ind _ (atraces _) (A_With LCompress MR _ _ (A_With LDelIns MR _ _ (pre_ (rd XOnce) [(XOnce, MR)] _ _ _
    (then_stop _ _ _ (opt_yes _ _ (A_With LOnce MW _ _ (then_go _ _ _ _ index_ok
      (A_With LIndex MW _ _ (pre_ (acc [(XEp, MW); (XMaxl, MW)]) [(XEp, MW); (XMaxl, MW)] _ _ _ (opt_yes _ _ (preload_ok 0)))))))))))
    _ _); [one|one|seen].
Qed.
Definition query_trace (k : N) : list ev := load_trace ++ [EA XEp MR] ++ get_trace k.
Lemma query_ok k : atraces a_near (query_trace k).
Proof.
  refine (eq_ind _ (atraces _) (then_go _ _ _ _ opened_ok
    (then_go _ _ _ _ (A_Alt1 _ _ _ (A_With LIndex MR _ _ (at_ (rw XEp) [(XEp, MW)] _)))
       (pre_ (rd XEp) [(XEp, MR)] _ _ _ (then_stop _ _ _ (then_stop _ _ _ (get_ok k)))))) _ _); [one|one|seen].
Qed.
Theorem C93_preload_race_refuted : exists p q sched, atraces a_near p /\ atraces a_add q /\
  race (rrun (rstart [p; q]) sched) (XSlot 0).
Proof.
  exists (query_trace 0), first_trace, (times 9 0 ++ times 14 1).
  split; [apply query_ok|]. split; [exact first_ok|]. raced 0 1.
Qed.

(** A clean-up that finds the index empty replaces the guard of the first insertion
    while an addition reads it. *)
Definition cleanup_trace : list ev :=
  [EL (Acq LReset MW); EA XReset MR; EL (Rel LReset);
   EL (Acq LReset MW); EL (Acq LTomb MW); EA XTomb MR; EL (Rel LTomb); EL (Rel LReset)]
  ++ index_trace ++ [EL (Acq LReset MW); EL (Rel LReset)]
  ++ [EL (Acq LReset MW); EL (Acq LIndex MW); EA XReset MW; EA XEp MW; EA XMaxl MW; EA XOnce MW; EL (Rel LReset); EL (Rel LIndex)].
Lemma cleanup_ok : atraces a_cleanup cleanup_trace.
Proof.
  refine (eq_ind _ (atraces _) (A_Seq _ _ _ _ (A_Crit LReset MW _ _ (at_ (rd XReset) [(XReset, MR)] _))
    (then_go _ _ _ _ (A_With LReset MW _ _ (opt_yes _ _ (A_With LTomb MW _ _ (at_ (rd XTomb) [(XTomb, MR)] _))))
      (then_go _ _ _ _ (then_stop _ _ _ index_ok)
        (then_go _ _ _ _ (A_With LReset MW _ _ (A_Star0 _))
          (then_go _ _ [] _ (A_Star0 _)
            (A_Cross LReset LIndex _ _ (at_ (acc [(XReset, MR); (XReset, MW); (XEp, MW); (XMaxl, MW); (XOnce, MW)])
               [(XReset, MW); (XEp, MW); (XMaxl, MW); (XOnce, MW)] _))))))) _ _); [one|one|one|seen].
Qed.
Theorem C93_cleanup_race_refuted : exists p q sched, atraces a_cleanup p /\ atraces a_add q /\
  race (rrun (rstart [p; q]) sched) XOnce.
Proof.
  exists cleanup_trace, first_trace, (times 25 0 ++ times 2 1).
  split; [exact cleanup_ok|]. split; [exact first_ok|].
  raced 0 1.
Qed.

(** The hypotheses of the theorems hold of these goroutines; and a schedule exists in
    which all finish. *)
Example C93_nonvacuous :
  Forall (atraces (AStar a_any_op)) [docs_trace 1 0; query_trace 0; cleanup_trace] /\
  Forall (atraces (AStar a_index_op)) [add_trace 1 0; first_trace; cleanup_trace] /\
  Forall (atraces (AStar a_no_add_op)) [query_trace 0; cleanup_trace] /\
  Forall (atraces (AStar a_change_op)) [add_trace 1 0; first_trace; cleanup_trace] /\
  Forall (atraces (AStar a_no_cleanup_op)) [docs_trace 1 0; flush_trace 1; query_trace 0] /\
  forallb (fun t => match r_todo t with [] => true | _ => false end)
    (rrun (rstart [docs_trace 1 0; query_trace 0; cleanup_trace]) (times 50 0 ++ times 50 1 ++ times 50 2)) = true.
Proof.
  assert (Q := query_ok 0). assert (D := docs_ok 1 0). assert (F := flush_ok 1). assert (A1 := add_ok 1 _ (pick_ok 0)).
  assert (B := first_ok). assert (C := cleanup_ok).
  repeat split; try (vm_compute; reflexivity);
    repeat match goal with |- Forall _ _ => constructor end; apply once;
    repeat first [exact Q | exact D | exact F | exact A1 | exact B | exact C | apply A_Alt1; first [exact Q | exact D | exact F | exact A1 | exact B | exact C] | apply A_Alt2].
Qed.
Print Assumptions C93_same_locks.
Print Assumptions C93_guarded_partial.
Print Assumptions C93_vertices_partial.
Print Assumptions C93_slots_partial.
Print Assumptions C93_entry_point_partial.
Print Assumptions C93_first_insertion_partial.
Print Assumptions C93_queries_race_refuted.
Print Assumptions C93_additions_race_refuted.
Print Assumptions C93_flush_race_refuted.
Print Assumptions C93_preload_race_refuted.
Print Assumptions C93_cleanup_race_refuted.
