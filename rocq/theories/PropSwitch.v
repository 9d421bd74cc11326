(** C72, C73, C74: writing the commit log to several files, backing it up, and
    pausing its maintenance. *)
From Coq Require Import Sorted.
From Verif Require Import Base CommitLog CommitLogFacts CommitLogReplay CommitLogEffect
  CommitLogCondense PropCommitLog LogFiles LogFilesProofs PropLogFiles Switch SwitchProofs.

(** Sorting by falling time stamp, for the examples. *)
Definition by_time_desc (l : list fname) : list fname := rev (by_time l).
Lemma by_time_desc_sorts : rsorts by_time_desc.
Proof.
  intros l. destruct (by_time_sorts l) as [Hp Hs]. unfold by_time_desc. split.
  - transitivity (by_time l); [symmetry; apply Permutation_rev|exact Hp].
  - clear Hp. induction (by_time l) as [|x t IH]; cbn; [constructor|].
    inversion Hs as [|? ? H1 H2]; subst. specialize (IH H1).
    assert (Hle : forall y, In y (rev t) -> (fst x <= fst y)%N).
    { intros y Hy. apply (proj1 (Forall_forall _ _) H2). now apply in_rev. }
    clear - IH Hle. induction (rev t) as [|y r IHr]; cbn; [repeat constructor|].
    inversion IH as [|? ? H1 H2]; subst. constructor.
    + apply IHr; [exact H1|]. intros z Hz. apply Hle. now right.
    + apply Forall_app. split; [exact H2|]. constructor; [|constructor]. apply Hle. now left.
Qed.

(** ** C72: the order of the records *)

(** Full statement: however the log is spread over files, a restart applies the
    records in the order in which they were logged, and loses at most those that
    were not flushed.

    Proved for a clock that never runs backwards and files that are not newer than
    it.  At every moment of every history: the files hold the first [k] records, at
    least all those before the last flush, forced switch or reopening, and a
    start-up restores exactly their state.  If the log was cut inside a record for
    the entry point or the quantizer, C29 says what that record does.  Missing: a
    clock that was set back, refuted below; the maintenance of old files, which is
    C31 and C52. *)
Theorem C72_log_order_partial desc srt max d0 lg0 t0 acts : rsorts desc -> sorts srt ->
  shows d0 lg0 -> no_hidden d0 ->
  (d0 = [] \/ exists f, (snd f = Plain \/ snd f = Condensed) /\ dget f d0 <> None) ->
  (forall f, (snd f = Plain \/ snd f = Condensed) -> dget f d0 <> None ->
     (fst f <= t0)%N /\ (snd f = Condensed -> (fst f < t0)%N)) ->
  Forall op_ok (logged acts) -> Forall op_mem (logged acts) ->
  StronglySorted N.le (t0 :: times acts) ->
  let ops := flat_map snd lg0 ++ logged acts in
  let n0 := length (flat_map snd lg0) in
  exists s0 s k st1 st,
    open_log desc t0 d0 = Ok s0 /\ lrun desc max acts s0 = Ok s
    /\ durable_from n0 n0 acts <= k <= length ops
    /\ apply_all false (firstn k ops) ls_init = Ok st1
    /\ restore srt (cl_dir s) = Ok st
    /\ match nth_error ops k with
       | Some (LSetEp _ _) => st = st1 \/ st = with_ep st1 0 0 true
       | Some (LPq _) => st = st1 \/ exists pq, st = with_pq st1 pq (ls_comp st1)
       | _ => st = st1
       end.
Proof.
  intros Hr Hsrt Hs Hn He Ht Ho Hm Hc ops n0.
  assert (Hlive : forall f, live f = true <-> snd f = Plain \/ snd f = Condensed).
  { intros f. unfold live. destruct (snd f); cbn; intuition discriminate. }
  destruct (open_inv desc t0 d0 lg0 Hr Hs Hn) as (s0 & a & os & c & E0 & H0 & Hb0 & Hf0).
  { destruct He as [He|(f & H1 & H2)]; [now left|right]. exists f. split; [now apply Hlive|exact H2]. }
  { intros f Hl Hf. apply Ht; [now apply Hlive|exact Hf]. }
  destruct (lrun_inv desc max Hr acts s0 a os c t0 n0 n0 H0 Ho Hm Hc) as (s & a' & os' & c' & E & H & Hfl & Hh).
  { unfold n0. rewrite <- Hf0. apply app_length. }
  { unfold n0. rewrite <- Hf0, app_length. exact (held_last _ _ _ _ _ H0 Hb0). }
  destruct (li_restore srt s a' os' c' _ _ Hsrt H Hh) as (k & st1 & st & Hk & A & R & Hcase & _).
  rewrite Hfl, Hf0 in Hk, A, Hcase. fold ops in Hk, A, Hcase. exists s0, s, k, st1, st. repeat (split; [assumption|]).
  destruct Hcase as [->|(o & -> & Htorn)].
  - destruct (nth_error ops k) as [[]|]; auto.
  - destruct o; cbn in Htorn; auto.
Qed.

(** After a flush nothing is missing. *)
Theorem C72_flushed_partial desc srt max d0 lg0 t0 acts : rsorts desc -> sorts srt ->
  shows d0 lg0 -> no_hidden d0 ->
  (d0 = [] \/ exists f, (snd f = Plain \/ snd f = Condensed) /\ dget f d0 <> None) ->
  (forall f, (snd f = Plain \/ snd f = Condensed) -> dget f d0 <> None ->
     (fst f <= t0)%N /\ (snd f = Condensed -> (fst f < t0)%N)) ->
  Forall op_ok (logged acts) -> Forall op_mem (logged acts) ->
  StronglySorted N.le (t0 :: times acts) ->
  exists s0 s st,
    open_log desc t0 d0 = Ok s0 /\ lrun desc max (acts ++ [AFlush]) s0 = Ok s
    /\ apply_all false (flat_map snd lg0 ++ logged acts) ls_init = Ok st
    /\ restore srt (cl_dir s) = Ok st.
Proof.
  intros Hr Hsrt Hs Hn He Ht Ho Hm Hc.
  assert (Hl : logged (acts ++ [AFlush]) = logged acts).
  { unfold logged. rewrite flat_map_app. cbn. apply app_nil_r. }
  assert (Hti : times (acts ++ [AFlush]) = times acts).
  { unfold times. rewrite flat_map_app. cbn. apply app_nil_r. }
  destruct (C72_log_order_partial desc srt max d0 lg0 t0 (acts ++ [AFlush]) Hr Hsrt Hs Hn He Ht)
    as (s0 & s & k & st1 & st & E0 & E & Hk & A & R & Hcase); try rewrite Hl; try rewrite Hti; auto.
  rewrite Hl in *.
  assert (Hd : forall l n m, durable_from n m (l ++ [AFlush]) = n + length (logged l)).
  { clear. unfold logged. induction l as [|x l IH]; intros n m; [cbn; lia|].
    destruct x; cbn [app durable_from flat_map length]; rewrite IH; lia. }
  rewrite Hd, app_length in Hk. assert (Ek : k = length (flat_map snd lg0 ++ logged acts)) by (rewrite app_length; lia).
  rewrite Ek, firstn_all in A. rewrite Ek in Hcase.
  assert (Hnone : nth_error (flat_map snd lg0 ++ logged acts) (length (flat_map snd lg0 ++ logged acts)) = None).
  { now apply nth_error_None. }
  rewrite Hnone in Hcase. subst st. exists s0, s, st1. auto.
Qed.

Definition acts72 : list lact :=
  [ALog (LNode 1 0); ALog (LSetEp 1 0); ASpill 3; ALog (LNode 2 1); AForce 100; ALog (LReplace 2 0 [1]);
   ATick 101; ALog (LLink 1 0 2); AFlush; ATick 101; AReopen 7; ALog (LAddTomb 1); AForce 103; ALog (LSetEp 2 1); ASpill 4]%N.

Example C72_nonvacuous :
  StronglySorted N.le (100%N :: times acts72) /\ durable_from 0 0 acts72 = 6
  /\ exists s0 s, open_log by_time_desc 100 [] = Ok s0 /\ lrun by_time_desc 16 acts72 s0 = Ok s
     /\ map fst (cl_dir s) = [(103, Plain); (101, Plain); (100, Plain)]%N
     /\ match restore by_time (cl_dir s), restore by_time (cl_dir (flush_log s)) with
        | Ok st, Ok st' => map fst (ls_nodes st) = map fst (ls_nodes st') /\ ls_tomb st = [1%N]
                           /\ ls_ep st = 0%N /\ ls_ep st' = 2%N
        | _, _ => False
        end.
Proof.
  split; [repeat constructor; discriminate|]. split; [reflexivity|].
  eexists _, _. split; [reflexivity|]. split; [vm_compute; reflexivity|]. vm_compute. auto.
Qed.

(** Refuted for a clock that was set back between two switches: a vertex is added,
    the log is switched at an earlier second, the vertex is deleted and the log
    flushed; the start-up reads the deletion first and brings the vertex back. *)
Theorem C72_clock_set_back_refuted : exists acts,
  times acts = [99%N] /\ Forall op_ok (logged acts) /\ Forall op_mem (logged acts)
  /\ logged acts = [LNode 1 0; LDelete 1]
  /\ exists s0 s st st', open_log by_time_desc 100 [] = Ok s0 /\ lrun by_time_desc 16 acts s0 = Ok s
       /\ cl_buf s = []
       /\ apply_all false (logged acts) ls_init = Ok st /\ mget 1 (ls_nodes st) = None
       /\ restore by_time (cl_dir s) = Ok st' /\ mget 1 (ls_nodes st') <> None.
Proof.
  exists [ALog (LNode 1 0); AForce 99; ALog (LDelete 1); AFlush].
  split; [reflexivity|]. split; [unfold logged; cbn [flat_map app]; ranges|]. split; [unfold logged; cbn [flat_map app]; ranges|]. split; [reflexivity|].
  eexists _, _, _, _. split; [reflexivity|]. split; [vm_compute; reflexivity|]. split; [reflexivity|].
  split; [reflexivity|]. split; [reflexivity|]. split; [vm_compute; reflexivity|]. vm_compute. discriminate.
Qed.

(** ** C73: backups *)

(** Full statement: after the log was switched, copying the files that ListFiles
    names gives a directory from which a start-up restores the index as it was at
    the switch, whatever is logged while the files are copied.

    Proved when the switch falls in a later second than all earlier ones.  Missing:
    a switch in the same second and a listing beside a half-merged file, both
    refuted below. *)
Theorem C73_backup_partial desc srt max d0 lg0 t0 acts now later : rsorts desc -> sorts srt ->
  shows d0 lg0 -> no_hidden d0 ->
  (d0 = [] \/ exists f, (snd f = Plain \/ snd f = Condensed) /\ dget f d0 <> None) ->
  (forall f, (snd f = Plain \/ snd f = Condensed) -> dget f d0 <> None ->
     (fst f <= t0)%N /\ (snd f = Condensed -> (fst f < t0)%N)) ->
  Forall op_ok (logged acts) -> Forall op_mem (logged acts) ->
  StronglySorted N.le (t0 :: times acts) -> (last (times acts) t0 < now)%N ->
  Forall (fun a => match a with ALog _ | ASpill _ | AFlush => True | _ => False end) later ->
  exists s0 s s1 names d2 s2 b st,
    open_log desc t0 d0 = Ok s0 /\ lrun desc max acts s0 = Ok s
    /\ switch_log true max now None s = (Ok true, s1)
    /\ list_files desc (Some (cl_dir s1)) = Ok (names, d2)
    /\ lrun desc max later (mkCL d2 (cl_act s1) (cl_buf s1)) = Ok s2
    /\ copy_files names (cl_dir s2) = Ok b
    /\ apply_all false (flat_map snd lg0 ++ logged acts) ls_init = Ok st
    /\ restore srt b = Ok st.
Proof.
  intros Hr Hsrt Hs Hn He Ht Ho Hm Hc Hnow Hq.
  assert (Hlive : forall f, live f = true <-> snd f = Plain \/ snd f = Condensed).
  { intros f. unfold live. destruct (snd f); cbn; intuition discriminate. }
  destruct (open_inv desc t0 d0 lg0 Hr Hs Hn) as (s0 & a & os & c & E0 & H0 & Hb0 & Hf0).
  { destruct He as [He|(f & H1 & H2)]; [now left|right]. exists f. split; [now apply Hlive|exact H2]. }
  { intros f Hl Hf. apply Ht; [now apply Hlive|exact Hf]. }
  destruct (lrun_inv desc max Hr acts s0 a os c t0 _ 0 H0 Ho Hm Hc eq_refl) as (s & a' & os' & c' & E & H & Hfl & _).
  { exists 0. cbn. lia. }
  destruct (open_tmp _ _ _ _ Hr E0) as [T0 L0]. destruct (lrun_tmp desc max Hr acts s0 s T0 L0 E) as [T L].
  destruct (li_flush _ _ _ _ _ H) as [Hf Hfb].
  destruct (li_switch _ _ _ _ _ now Hf Hfb) as [(_ & Hact & _)|[Hsw _]]; [lia| |].
  { exfalso. change (cl_act (flush_log s)) with (cl_act s) in Hact.
    destruct (li_time _ _ _ _ _ H (cl_act s) L) as [Hle _]; [rewrite (li_get _ _ _ _ _ H); discriminate|].
    rewrite Hact in Hle. cbn in Hle. lia. }
  change (cl_act (flush_log s)) with (cl_act s) in Hsw.
  destruct (backup_ok desc srt max _ _ now later Hr Hsrt Hsw eq_refl) as (names & d2 & s2 & b & st & L1 & L2 & L3 & L4 & L5).
  { cbn [cl_dir]. apply no_tmp_create; [reflexivity|]. now apply no_tmp_append. }
  { eapply Forall_impl; [|exact Hq]. intros [] Hx; cbn; auto. }
  rewrite flat_snd_last, Hfl, Hf0 in L4.
  exists s0, s. eexists. exists names, d2, s2, b, st. split; [exact E0|]. split; [exact E|].
  split; [unfold switch_log; rewrite andb_false_r; reflexivity|]. auto.
Qed.

Example C73_nonvacuous :
  (last (times acts72) 100 < 110)%N
  /\ exists s0 s s1 names d2 s2 b, open_log by_time_desc 100 [] = Ok s0 /\ lrun by_time_desc 16 acts72 s0 = Ok s
     /\ switch_log true 16 110 None s = (Ok true, s1)
     /\ list_files by_time_desc (Some (cl_dir s1)) = Ok (names, d2)
     /\ names = [(103, Plain); (101, Plain); (100, Plain)]%N
     /\ lrun by_time_desc 16 [ALog (LDelete 1); AFlush; ALog (LNode 9 0); ASpill 2] (mkCL d2 (cl_act s1) (cl_buf s1)) = Ok s2
     /\ copy_files names (cl_dir s2) = Ok b /\ restore by_time b = restore by_time (cl_dir (flush_log s))
     /\ restore by_time b <> restore by_time (cl_dir s2).
Proof.
  split; [reflexivity|]. eexists _, _, _, _, _, _, _.
  split; [reflexivity|]. split; [vm_compute; reflexivity|]. split; [vm_compute; reflexivity|].
  split; [vm_compute; reflexivity|]. split; [reflexivity|]. split; [vm_compute; reflexivity|].
  split; [vm_compute; reflexivity|]. split; [vm_compute; reflexivity|]. vm_compute. discriminate.
Qed.

(** Refuted for a switch in the second in which the active file was made: the
    switch opens the same file again, the listing leaves it out, and the backup is
    empty although two records were flushed. *)
Theorem C73_same_second_refuted : exists acts,
  StronglySorted N.le (100%N :: times acts) /\ last (times acts) 100%N = 100%N
  /\ Forall op_ok (logged acts) /\ Forall op_mem (logged acts)
  /\ exists s0 s s1 st, open_log by_time_desc 100 [] = Ok s0 /\ lrun by_time_desc 16 acts s0 = Ok s
       /\ switch_log true 16 100 None s = (Ok true, s1)
       /\ list_files by_time_desc (Some (cl_dir s1)) = Ok ([], cl_dir s1)
       /\ restore by_time (cl_dir s1) = Ok st /\ mget 1 (ls_nodes st) <> None
       /\ copy_files [] (cl_dir s1) = Ok [] /\ restore by_time [] = Ok ls_init.
Proof.
  exists [ALog (LNode 1 0); ALog (LSetEp 1 0); AFlush]. split; [repeat constructor|]. split; [reflexivity|].
  split; [unfold logged; cbn [flat_map app]; ranges|]. split; [unfold logged; cbn [flat_map app]; ranges|]. eexists _, _, _, _. split; [reflexivity|]. split; [vm_compute; reflexivity|].
  split; [vm_compute; reflexivity|]. split; [vm_compute; reflexivity|]. split; [vm_compute; reflexivity|].
  split; [vm_compute; discriminate|]. split; vm_compute; reflexivity.
Qed.

(** Refuted beside the remains of a merge that failed (commit_log_combiner.go:145-181
    returns on an error and leaves its temporary file): the listing names a file that
    the listing itself has removed, and copying fails. *)
Theorem C73_listed_file_removed_refuted : exists d names d2,
  list_files by_time_desc (Some d) = Ok (names, d2)
  /\ (exists f, In f names /\ dget f d <> None /\ dget f d2 = None)
  /\ copy_files names d2 = Err EOther
  /\ exists st, restore by_time d = Ok st /\ map fst (ls_nodes st) = [2; 1]%N.
Proof.
  exists [((100, Condensed), encode (LNode 1 0)); ((101, Condensed), encode (LNode 2 0));
          ((100, CombinedTmp), encode (LNode 1 0)); ((102, Plain), [])]%N.
  eexists _, _. split; [vm_compute; reflexivity|].
  split; [exists (100%N, CombinedTmp); split; [vm_compute; auto|split; [vm_compute; discriminate|reflexivity]]|].
  split; [vm_compute; reflexivity|]. eexists. split; [vm_compute; reflexivity|]. vm_compute. reflexivity.
Qed.

(** Without a log directory the listing panics.  The indexes of this service have no
    directory: their logger (commit_logger_noop.go:20-111) writes nothing and has an
    empty name and root. *)
Theorem C73_no_directory_refuted : forall desc, list_files desc None = Panic.
Proof. reflexivity. Qed.

(** ** C74: pausing maintenance *)

(** Full statement: if PauseMaintenance reports success all three cycles are stopped,
    if it reports an error all three run.

    Proved when a cycle fails to stop only because the context has expired. *)
Theorem C74_pause_partial rs rc rt : rs <> Some false -> rc <> Some false ->
  pause rs rc rt (mkCyc true true true)
  = if match rs, rc, rt with None, None, None => true | _, _, _ => false end
    then (Ok tt, mkCyc false false false) else (Err EOther, mkCyc true true true).
Proof. destruct rs as [[]|], rc as [[]|], rt as [[]|]; intros H1 H2; try congruence; reflexivity. Qed.

(** Resuming starts all three, whatever was running. *)
Theorem C74_resume y : resume y = mkCyc true true true.
Proof. reflexivity. Qed.

Example C74_nonvacuous :
  pause None None None (mkCyc true true true) = (Ok tt, mkCyc false false false)
  /\ pause (Some true) None None (mkCyc true true true) = (Err EOther, mkCyc true true true)
  /\ pause None None (Some false) (mkCyc true true true) = (Err EOther, mkCyc true true true).
Proof. repeat split; reflexivity. Qed.

(** Refuted when stopping fails for another reason: the error is replaced by that of
    the context, which is none, and success is reported while the log cycles run and
    the clean-up is stopped. *)
Theorem C74_lost_error_refuted : exists rs rc rt,
  pause rs rc rt (mkCyc true true true) = (Ok tt, mkCyc true true false).
Proof. exists (Some false), None, None. reflexivity. Qed.

Print Assumptions C72_log_order_partial.
Print Assumptions C72_flushed_partial.
Print Assumptions C72_clock_set_back_refuted.
Print Assumptions C73_backup_partial.
Print Assumptions C73_same_second_refuted.
Print Assumptions C73_listed_file_removed_refuted.
Print Assumptions C74_pause_partial.
