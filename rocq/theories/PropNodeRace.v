(** C64: concurrent requests lose no links. *)
From Verif Require Import Base NodeRace NodeRaceProofs.

(** Within one process, in a history in which no vertex is put into the node cache
    over another object of the same id, every link ever added to a vertex is among
    the links the vertex shows in the end, whatever else goroutines do between. *)
Theorem C64_links_kept_partial i os : calm_run false i n_start os ->
  forall id x, In (id, x) (added n_start os) ->
  exists l, links_of (nrun n_start os) i id = Some l /\ In x l.
Proof. intros H. exact (proj2 (run_keeps false i os n_start (inv_start false i) H)). Qed.

(** If moreover no link is added to a vertex while a Flush is writing it, and every
    restart finds all changes written, no link is lost over any number of restarts. *)
Theorem C64_links_durable_partial i os : calm_run true i n_start os ->
  forall id x, In (id, x) (added n_start os) ->
  exists l, links_of (nrun n_start os) i id = Some l /\ In x l.
Proof. intros H. exact (proj2 (run_keeps true i os n_start (inv_start true i) H)). Qed.

Lemma mget_In {V} k (v : V) m : mget k m = Some v -> In (k, v) m.
Proof.
  induction m as [|[k' v'] m IH]; cbn; [discriminate|]. destruct (N.eqb_spec k k') as [->|]; [|auto].
  intros [= ->]. now left.
Qed.
Lemma all_written_check s :
  forallb (fun e => forallb (fun e' => match mget (snd e') (n_heap s) with Some o => o_comm o | None => true end) (snd e)) (n_cache s) = true ->
  all_written s.
Proof.
  intros H i id r o Hc Ho. unfold cached, cache_of in Hc. destruct (mget i (n_cache s)) as [c|] eqn:Ec; [|discriminate].
  rewrite forallb_forall in H. specialize (H _ (mget_In _ _ _ Ec)). cbn in H.
  rewrite forallb_forall in H. specialize (H _ (mget_In _ _ _ Hc)). cbn in H. now rewrite Ho in H.
Qed.
(** A decision procedure for [calm_run]. *)
Definition flushingb (s : nstate) (id : N) : bool :=
  existsb (fun e => match snd e with GSnap _ j _ _ => N.eqb j id | GPut _ j _ => N.eqb j id | _ => false end) (n_go s).
Lemma flushing_check s t i id : flushingb s id = false -> ~ flushing s t i id.
Proof.
  intros H (r & Hg). apply Bool.not_true_iff_false in H. apply H. apply existsb_exists.
  destruct Hg as [Hg|(l & Hg)]; apply mget_In in Hg; eexists; (split; [exact Hg|]); cbn; apply N.eqb_refl.
Qed.
Definition writtenb (s : nstate) : bool :=
  forallb (fun e => forallb (fun e' => match mget (snd e') (n_heap s) with Some o => o_comm o | None => true end) (snd e)) (n_cache s).
Definition calmb (durable : bool) (i0 : N) (s : nstate) (o : nop) : bool :=
  match o with
  | ONew t i id => N.eqb i i0 && match links_of s i id with None => true | Some _ => false end
  | OGet t i id => N.eqb i i0
  | OMarshal t i id => N.eqb i i0
  | OPublish t => match mget t (n_go s) with
                  | Some (GLoaded i id l) => match cached s i id with None => true | Some _ => false end
                  | _ => true
                  end
  | OLink t x => negb durable || match mget t (n_go s) with Some (GHolds i id r) => negb (flushingb s id) | _ => true end
  | ORestart => durable && writtenb s
  | OEvict _ _ => false
  | _ => true
  end.
Fixpoint calm_runb (durable : bool) (i0 : N) (s : nstate) (os : list nop) : bool :=
  match os with
  | [] => true
  | o :: os' => calmb durable i0 s o && calm_runb durable i0 (nstep s o) os'
  end.
Lemma calm_check b i0 s o : calmb b i0 s o = true -> calm b i0 s o.
Proof.
  destruct o as [t i id|t i id|t|t x|t|t i id|t|t|i id|]; cbn [calmb calm]; intros H; auto; try discriminate.
  - apply andb_prop in H as [H1 H2]. apply N.eqb_eq in H1. split; [exact H1|]. now destruct (links_of s i id).
  - now apply N.eqb_eq.
  - intros i id l Hg. rewrite Hg in H. now destruct (cached s i id).
  - intros -> i id r t' Hg. rewrite Hg in H. cbn in H. apply Bool.negb_true_iff in H. now apply flushing_check.
  - now apply N.eqb_eq.
  - apply andb_prop in H as [-> H2]. split; [reflexivity|]. now apply all_written_check.
Qed.
Lemma calm_run_check b i0 os : forall s, calm_runb b i0 s os = true -> calm_run b i0 s os.
Proof.
  induction os as [|o os IH]; cbn [calm_runb calm_run]; [auto|]. intros s H. apply andb_prop in H as [H1 H2].
  split; [now apply calm_check|auto].
Qed.

(** A complete flush of vertex [id] by goroutine [t] that nobody interrupts. *)
Definition flush1 (t i id : N) : list nop := [OMarshal t i id; OPut t; OMark t].
Definition insert1 (t i id : N) : list nop := [ONew t i id; ODone t].
Definition links1 (t i id x : N) : list nop := [OGet t i id; OPublish t; OLink t x; ODone t].

(** A search (goroutine 2) loads vertex 7 after a restart; before it puts its copy
    into the cache, an insertion (goroutine 1) loads 7 too and links it to 8.  The
    search's copy then replaces the linked one. *)
Definition search_race : list nop :=
  insert1 1 0 7 ++ flush1 1 0 7 ++ [ORestart; OGet 2 0 7] ++ insert1 1 0 8 ++ links1 1 0 7 8 ++ [OPublish 2; ODone 2].
Theorem C64_search_drops_link_refuted :
  exists os id x, (forall t y, In (OLink t y) os -> t <> 2%N) /\
    In (id, x) (added n_start os) /\ (forall l, links_of (nrun n_start os) 0 id = Some l -> ~ In x l).
Proof.
  exists search_race, 7%N, 8%N. split; [|split].
  - intros t y H. cbn in H. repeat destruct H as [H|H]; try discriminate; [injection H as <- _; discriminate|destruct H].
  - vm_compute. auto.
  - intros l. vm_compute. now intros [= <-].
Qed.

(** An insertion links 7 to 8 between the moment a Flush marshals 7 and the moment
    it marks 7 as written.  All goroutines then finish, and another complete flush
    of every cached vertex follows, so that every vertex counts as written; after a
    restart the link is gone. *)
Definition flush_race : list nop :=
  insert1 1 0 7 ++ [OMarshal 2 0 7; OPut 2] ++ insert1 1 0 8 ++ links1 1 0 7 8 ++ [OMark 2] ++
  flush1 3 0 7 ++ flush1 3 0 8.
Theorem C64_flush_drops_link_refuted :
  exists os id x, calm_run false 0 n_start os /\
    all_written (nrun n_start os) /\ n_go (nrun n_start os) = [] /\ In (id, x) (added n_start os) /\
    (exists l, links_of (nrun n_start os) 0 id = Some l /\ In x l) /\
    (forall l, links_of (nstep (nrun n_start os) ORestart) 0 id = Some l -> ~ In x l).
Proof.
  exists flush_race, 7%N, 8%N. split; [|split; [|split; [|split; [|split]]]].
  - apply calm_run_check. vm_compute. reflexivity.
  - apply all_written_check. vm_compute. reflexivity.
  - vm_compute. reflexivity.
  - vm_compute. auto.
  - exists [8%N]. vm_compute. auto.
  - intros l. vm_compute. now intros [= <-].
Qed.

(** Two requests open the collection at the same time, so that the process has two
    indexes of it.  Links added through index 0 are written, then index 1 writes its
    own copy over them. *)
Definition index_race : list nop :=
  insert1 1 0 7 ++ flush1 1 0 7 ++ [ORestart] ++
  [OGet 2 1 7; OPublish 2; ODone 2] ++ links1 1 0 7 8 ++ flush1 1 0 7 ++ links1 2 1 7 9 ++ flush1 2 1 7 ++ [ORestart].
Theorem C64_two_indexes_drop_link_refuted :
  exists os id x, In (id, x) (added n_start os) /\ (forall i l, links_of (nrun n_start os) i id = Some l -> ~ In x l).
Proof.
  exists index_race, 7%N, 8%N. split; [vm_compute; auto|]. intros i l H. vm_compute in H. injection H as <-.
  intros [H|[]]. discriminate.
Qed.

(** Two requests read the same document count and insert a vertex under the same
    id; the links of the first are gone, within the process. *)
Definition count_race : list nop := insert1 1 0 7 ++ links1 1 0 7 6 ++ insert1 2 0 7.
Theorem C64_same_id_drops_link_refuted :
  exists os id x, In (id, x) (added n_start os) /\ links_of (nrun n_start os) 0 id = Some [].
Proof. exists count_race, 7%N, 6%N. split; vm_compute; auto. Qed.

(** One request alone: the bounded cache drops vertex 7 with its new link before
    Flush runs.  The link is gone, in this process and after Flush and a restart. *)
Definition evict_race : list nop :=
  insert1 1 0 7 ++ flush1 1 0 7 ++ insert1 1 0 8 ++ links1 1 0 7 8 ++ [OEvict 0 7] ++ flush1 1 0 7 ++ flush1 1 0 8.
Theorem C64_evicted_link_refuted :
  exists os id x, In (id, x) (added n_start os) /\ all_written (nrun n_start os) /\
    links_of (nrun n_start os) 0 id = Some [] /\ links_of (nstep (nrun n_start os) ORestart) 0 id = Some [].
Proof.
  exists evict_race, 7%N, 8%N. split; [vm_compute; auto|]. split; [apply all_written_check; vm_compute; reflexivity|].
  split; vm_compute; reflexivity.
Qed.

(** Goroutines 1 and 2 insert 1 and 2 and link them to each other and to 0, step by
    step in turns, while goroutine 3 flushes 0 and reads 1. *)
Definition turns : list nop :=
  insert1 9 0 0 ++ [ONew 1 0 1; ONew 2 0 2; OMarshal 3 0 0; OLink 1 0; OLink 2 0; OPut 3; OLink 2 1; OGet 1 0 0;
   OMark 3; OLink 1 1; OGet 2 0 0; OGet 3 0 1; OLink 2 2; OGet 1 0 2; OLink 1 1].
Definition flush_all : list nop := flush1 3 0 0 ++ flush1 3 0 1 ++ flush1 3 0 2.
(** … and after a restart two goroutines load 0 and 1 and link them to 3. *)
Definition later : list nop :=
  ORestart :: insert1 4 0 3 ++ [OGet 1 0 0; OGet 2 0 1; OPublish 2; OPublish 1; OLink 1 3; OLink 2 3].

Example C64_nonvacuous_process : calm_run false 0 n_start turns /\
  links_of (nrun n_start turns) 0 0 = Some [1%N; 2%N] /\ length (added n_start turns) = 6.
Proof. split; [apply calm_run_check; vm_compute; reflexivity|]. split; vm_compute; reflexivity. Qed.

Definition history : list nop := turns ++ flush_all ++ later.
Example C64_nonvacuous : calm_run true 0 n_start history /\
  links_of (nrun n_start history) 0 0 = Some [1%N; 2%N; 3%N] /\
  links_of (nrun n_start history) 0 1 = Some [0%N; 3%N] /\
  links_of (nrun n_start history) 0 2 = Some [0%N; 1%N; 1%N].
Proof.
  split; [apply calm_run_check; vm_compute; reflexivity|]. split; [|split]; vm_compute; reflexivity.
Qed.

Print Assumptions C64_links_kept_partial.
Print Assumptions C64_links_durable_partial.
Print Assumptions C64_search_drops_link_refuted.
Print Assumptions C64_flush_drops_link_refuted.
Print Assumptions C64_two_indexes_drop_link_refuted.
Print Assumptions C64_same_id_drops_link_refuted.
Print Assumptions C64_evicted_link_refuted.
