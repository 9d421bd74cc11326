(** C19 with the bounded node cache. *)
From Verif Require Import Base F32 PQ PQProofs Graph Search SearchProofs SearchLayer SearchKnn
  SearchCong Insert HeuristicProofs InsertProofs InsertHist InsertTotal InsertDim InsertSmall InsertFacts InsertFind
  Distancer DistancerProofs PropDistancer TestGraph TestInsert PropInsert PropFind
  Persist PersistProofs PersistHist PropPersist NodeRace NodeRaceProofs PropNodeRace EvictProofs.

Lemma evict_pinv h id : pinv h -> pinv (evict h id).
Proof.
  assert (K : forall j v, mget j (h_cache (evict h id)) = Some v -> mget j (h_cache h) = Some v).
  { intros j v X. cbn [evict with_cache h_cache] in X. now apply mdel_some in X. }
  intros [A B C D E F]. constructor; auto; intros; eauto.
Qed.
Lemma run_bounded_pinv evs : forall h, pinv h -> pinv (run_bounded h evs).
Proof.
  induction evs as [|e evs IH]; intros h Hp; cbn [run_bounded fold_left]; [exact Hp|].
  apply IH. destruct e as [e|id]; cbn [bstep]; [now apply ev_step_pinv|now apply evict_pinv].
Qed.

(** As [C19_survives_restart_partial], and between the operations the cache may drop
    any vertices, changed ones included.  What the process shows after the write-back
    is what a new process shows.  (That a dropped change is lost for both is C36.)
    Missing: vertices dropped in the middle of an insertion; for these see
    [C19_dropped_within_partial]. *)
Theorem C19_dropped_between_partial : forall evs keys cnt n,
  let h := run_bounded empty_index evs in
  all_keys h keys -> snd (flush h keys cnt n) = Ok tt ->
  let h' := fst (flush h keys cnt n) in
  let r := restart h' in
  (forall id, option_map (fun v => (v_level v, v_conns v, v_maint v, v_vec v)) (node_by_id r id) =
              option_map (fun v => (v_level v, v_conns v, v_maint v, v_vec v)) (node_by_id h id) /\
              option_map (fun v => (v_level v, v_conns v, v_maint v, v_vec v)) (node_by_id h' id) =
              option_map (fun v => (v_level v, v_conns v, v_maint v, v_vec v)) (node_by_id h id)) /\
  doc_count r = Some cnt /\ h_ep (load_ep r) = h_ep h.
Proof.
  intros evs keys cnt n h Hk Hok h' r.
  destruct (flush_restart h keys cnt n tt (run_bounded_pinv evs _ pinv_empty) Hk Hok) as (V & C & Ep & _). cbv zeta in *.
  split; [|split; [exact C|]].
  - intros id. destruct (V id) as [V1 V2]. split; [exact (content_pview _ _ _ V2)|exact (content_pview _ _ _ V1)].
  - unfold load_ep, r, h'. rewrite Ep. reflexivity.
Qed.
Print Assumptions C19_dropped_between_partial.

(** Thirty vectors written back; one more linked to them; the cache drops two of its
    neighbours, of which the table still has the old version, and a further vector is
    added. *)
Definition evs19b : list bevent :=
  map (fun o => BEv (EvAdd o)) hist30 ++
  [BEv (EvFlush (ids_to 30) 30 40); BEv (EvAdd next_op); BEvict 0; BEvict 7; BEv EvQuery].
Definition sum19b (h : hnsw) : bool :=
  forallb (fun k => memN k (ids_to 40)) (keys_of (h_cache h)) &&
  match snd (flush h (ids_to 40) 31 50) with Ok _ => true | _ => false end &&
  match mget 0 (h_cache h), mget 7 (h_cache h), node_by_id h 0 with None, None, Some _ => true | _, _, _ => false end &&
  Nat.leb 29 (length (h_cache h)).
Lemma evs19b_sum : sum19b (run_bounded empty_index evs19b) = true.
Proof. vm_cast_no_check (eq_refl true). Qed.
Example C19_dropped_between_nonvacuous : let h := run_bounded empty_index evs19b in
  all_keys h (ids_to 40) /\ snd (flush h (ids_to 40) 31 50) = Ok tt /\
  mget 0 (h_cache h) = None /\ node_by_id h 0 <> None /\ 29 <= length (h_cache h).
Proof.
  intros h. pose proof evs19b_sum as H. fold h in H. revert H. generalize h. clear h. intros h H. unfold sum19b in H.
  apply andb_true_iff in H. destruct H as [H H4]. apply andb_true_iff in H. destruct H as [H H3].
  apply andb_true_iff in H. destruct H as [H1 H2]. split; [now apply check_keys|].
  split; [now destruct (snd (flush h (ids_to 40) 31 50)) as [[]| | |]|].
  destruct (mget 0 (h_cache h)); [discriminate|]. destruct (mget 7 (h_cache h)); [discriminate|].
  split; [reflexivity|]. split; [now destruct (node_by_id h 0)|]. now apply Nat.leb_le.
Qed.

(** Step by step: goroutines insert, load, link, flush and search in any interleaving,
    the cache drops any vertex before any step (while an insertion holds it, too) and
    the process restarts any number of times.  If no vertex gets a link or is written
    by another Flush between the moment a Flush marshals it and the moment it marks it
    ([tidy_run]; one request alone is so), then as soon as all cached vertices are
    written, a new process shows the links of every vertex that this one shows.
    Missing: the links here are a list for one layer; entry point and count are above. *)
Theorem C19_dropped_within_partial : forall i os, tidy_run i n_start os -> all_written (nrun n_start os) ->
  forall id, links_of (nstep (nrun n_start os) ORestart) i id = links_of (nrun n_start os) i id.
Proof. intros i os Ht Hw. apply restart_same; [|exact Hw]. apply einv_run; [apply einv_start|exact Ht]. Qed.
Print Assumptions C19_dropped_within_partial.

(** A decision procedure for [tidy_run]. *)
Definition flushing_others (s : nstate) (t id : N) : bool :=
  existsb (fun e => negb (N.eqb (fst e) t) && match snd e with GSnap _ j _ _ => N.eqb j id | GPut _ j _ => N.eqb j id | _ => false end) (n_go s).
Definition tidyb (i0 : N) (s : nstate) (o : nop) : bool :=
  match o with
  | ONew t i id => N.eqb i i0
  | OGet t i id => N.eqb i i0
  | OEvict i id => N.eqb i i0
  | OMarshal t i id => N.eqb i i0 && negb (flushing_others s t id)
  | OLink t x => match mget t (n_go s) with Some (GHolds i id r) => negb (flushingb s id) | _ => true end
  | _ => true
  end.
Fixpoint tidy_runb (i0 : N) (s : nstate) (os : list nop) : bool :=
  match os with
  | [] => true
  | o :: os' => tidyb i0 s o && tidy_runb i0 (nstep s o) os'
  end.
Lemma tidy_check i0 s o : tidyb i0 s o = true -> tidy i0 s o.
Proof.
  destruct o as [t i id|t i id|t|t x|t|t i id|t|t|i id|]; cbn [tidyb tidy]; intros H; auto; try now apply N.eqb_eq.
  - intros i id r t' Hg. rewrite Hg in H. apply Bool.negb_true_iff in H. now apply flushing_check.
  - apply andb_prop in H as [H1 H2]. apply N.eqb_eq in H1. split; [exact H1|]. intros t' Hne (r & Hf).
    apply Bool.negb_true_iff, Bool.not_true_iff_false in H2. apply H2. apply existsb_exists.
    apply N.eqb_neq in Hne.
    destruct Hf as [Hf|(l & Hf)]; apply PropNodeRace.mget_In in Hf; eexists; (split; [exact Hf|]); cbn; now rewrite Hne, N.eqb_refl.
Qed.
Lemma tidy_run_check i0 os : forall s, tidy_runb i0 s os = true -> tidy_run i0 s os.
Proof.
  induction os as [|o os IH]; cbn [tidy_runb tidy_run]; [auto|]. intros s H. apply andb_prop in H as [H1 H2].
  split; [now apply tidy_check|auto].
Qed.

(** Goroutine 1 inserts 1 and holds it while the cache drops it; a search loads and
    publishes 0, which goroutine 1 links to 1; the cache drops 0 before it is linked
    to 2.  Linking puts the held object back. *)
Definition drops : list nop :=
  insert1 9 0 0 ++ flush1 9 0 0 ++ [ONew 1 0 1; OEvict 0 1; OLink 1 0; OEvict 0 0; OGet 2 0 0; OPublish 2; OGet 1 0 0; OLink 1 1;
  OEvict 0 0; OLink 2 2; OMarshal 3 0 0; OEvict 0 0; OPut 3; OGet 1 0 0; OMark 3; ODone 1; ODone 2] ++ flush1 3 0 0 ++ flush1 3 0 1.
Example C19_dropped_within_nonvacuous : tidy_run 0 n_start drops /\ all_written (nrun n_start drops) /\
  links_of (nrun n_start drops) 0 0 = Some [1; 2]%N /\ links_of (nrun n_start drops) 0 1 = Some [0]%N.
Proof.
  split; [apply tidy_run_check; vm_compute; reflexivity|]. split; [apply all_written_check; vm_compute; reflexivity|].
  split; vm_compute; reflexivity.
Qed.
