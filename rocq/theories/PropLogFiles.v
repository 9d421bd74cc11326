(** C31, C52: combining and condensing the files of a commit log. *)
From Coq Require Import Permutation Sorted.
From Verif Require Import Base CommitLog CommitLogFacts CommitLogReplay CommitLogEffect
  CommitLogCondense PropCommitLog LogFiles LogFilesProofs LogIdem LogOver LogFilesCondense.

(** ** Fixtures *)

(** Sorting by time stamp, for the examples: equal time stamps keep their order. *)
Fixpoint put_name (f : fname) (l : list fname) : list fname :=
  match l with
  | [] => [f]
  | g :: t => if (fst f <=? fst g)%N then f :: l else g :: put_name f t
  end.
Definition by_time (l : list fname) : list fname := fold_right put_name [] l.

Lemma put_name_perm f l : Permutation (put_name f l) (f :: l).
Proof.
  induction l as [|g t IH]; cbn; [reflexivity|]. destruct (fst f <=? fst g)%N; [reflexivity|].
  rewrite IH. apply perm_swap.
Qed.

Lemma put_name_sorted f l : StronglySorted (fun a b => (fst a <= fst b)%N) l ->
  StronglySorted (fun a b => (fst a <= fst b)%N) (put_name f l).
Proof.
  induction l as [|g t IH]; cbn; intros H; [repeat constructor|]. inversion H as [|? ? H1 H2]; subst.
  destruct (N.leb_spec (fst f) (fst g)).
  - constructor; [exact H|]. constructor; [assumption|]. apply Forall_forall. intros x Hx.
    apply (proj1 (Forall_forall _ _) H2) in Hx. lia.
  - constructor; [now apply IH|]. apply Forall_forall. intros x Hx.
    apply (Permutation_in _ (put_name_perm f t)) in Hx as [<-|Hx]; [lia|].
    now apply (proj1 (Forall_forall _ _) H2).
Qed.

Lemma by_time_sorts : sorts by_time.
Proof.
  intros l. induction l as [|f l [IH1 IH2]]; cbn; [split; [reflexivity|constructor]|].
  split; [rewrite put_name_perm; now constructor|now apply put_name_sorted].
Qed.

(** The directory that holds the given logs. *)
Definition dir_of (lg : log) : dir := map (fun fo => (fst fo, encode_all (snd fo))) lg.

Lemma dir_of_shows lg : StronglySorted earlier (map fst lg) ->
  Forall (fun fo => live (fst fo) = true) lg ->
  Forall (fun fo => Forall op_ok (snd fo) /\ Forall op_mem (snd fo)) lg ->
  shows (dir_of lg) lg /\ no_hidden (dir_of lg).
Proof.
  intros Hs Hl Ho.
  assert (Hget : forall f, dget f (dir_of lg) = option_map encode_all (lget f lg)).
  { clear. intros f. unfold dir_of. induction lg as [|[g o] lg IH]; cbn; [reflexivity|].
    now destruct (fname_eqb f g). }
  assert (Hkey : map fst (dir_of lg) = map fst lg) by (unfold dir_of; now rewrite map_map).
  assert (Hone : forall t k k', dget (t, k) (dir_of lg) <> None -> dget (t, k') (dir_of lg) <> None -> k = k').
  { intros t k k' H1 H2. apply dget_in in H1, H2. rewrite Hkey in H1, H2. clear - Hs H1 H2.
    induction (map fst lg) as [|x l IH]; [destruct H1|]. inversion Hs as [|? ? S1 S2]; subst.
    destruct H1 as [->|H1], H2 as [H2|H2].
    - congruence.
    - apply (proj1 (Forall_forall _ _) S2) in H2. unfold earlier in H2. cbn in H2. lia.
    - subst x. apply (proj1 (Forall_forall _ _) S2) in H1. unfold earlier in H1. cbn in H1. lia.
    - auto. }
  assert (Hn : no_hidden (dir_of lg)).
  { intros t Ht. destruct (dget (t, Condensed) (dir_of lg)) eqn:E; [|reflexivity].
    assert (Plain = Condensed); [|discriminate]. apply (Hone t); congruence. }
  split; [|exact Hn]. constructor; auto.
  - unfold dirok. rewrite Hkey. now apply earlier_nodup.
  - intros f. rewrite <- Hget. unfold seen. destruct (dget f (dir_of lg)) eqn:E; [|now destruct (_ && _)%bool].
    assert (Hin : In f (map fst lg)) by (rewrite <- Hkey; apply dget_in; congruence).
    apply in_map_iff in Hin as (x & <- & Hx). rewrite (proj1 (Forall_forall _ _) Hl x Hx). cbn [andb].
    rewrite clean_not_hidden; [reflexivity|exact Hn|congruence].
Qed.

Ltac sorted_names := repeat (constructor; [|repeat (constructor; try reflexivity)]); try constructor.

(** ** C31: combining *)

(** Full statement: merging two adjacent condensed logs gives the same replayed
    index, and so does restarting after a crash at any point of the merge.

    An undisturbed run of the combiner ends, the start-up afterwards restores
    exactly the state it would have restored before, and a second run finds
    nothing to do.  [shows d lg]: the files of the directory hold the records
    [lg], in the order of their time stamps. *)
Theorem C31_combine_partial srt th d lg fuel : sorts srt -> shows d lg -> no_hidden d ->
  length lg < fuel ->
  exists ex d' st, combine_all fuel srt th false d = Ok (ex, d')
    /\ restore srt d = Ok st /\ restore srt d' = Ok st
    /\ combine_all 1 srt th false d' = Ok (false, d').
Proof.
  intros Hsrt Hs Hn Hf.
  destruct (combine_all_shows srt th Hsrt fuel false d lg Hs Hn Hf) as (ex & d' & lg' & E & Hs' & Hn' & Hcat).
  destruct (restore_shows srt d lg Hsrt Hs) as (st & A & R).
  destruct (restore_shows srt d' lg' Hsrt Hs') as (st' & A' & R').
  exists ex, d', st. split; [exact E|]. split; [exact R|]. rewrite Hcat, A in A'. injection A' as <-.
  split; [exact R'|].
  clear - E. revert E. generalize false at 1 as e0. revert d. induction fuel as [|fuel IH]; intros d e0 E; [discriminate|].
  cbn [combine_all] in E. unfold get_names in E.
  destruct (first_match th (remove_tmp_combining d) (srt (lives d))) as [m| | |] eqn:Em; unfold lives in Em;
    rewrite Em in E; try discriminate.
  cbn [bind] in E. destruct m as [[f g]|].
  - apply bind_ok in E as (d1 & _ & E). now apply IH in E.
  - injection E as <- <-.
    assert (Hi : remove_tmp_combining (remove_tmp_combining d) = remove_tmp_combining d).
    { unfold remove_tmp_combining. clear. induction d as [|x d IH]; cbn; [reflexivity|].
      destruct (negb _) eqn:Ex; cbn; [now rewrite Ex, IH|exact IH]. }
    cbn [combine_all]. unfold get_names. rewrite Hi, Em. reflexivity.
Qed.

(** Crashes while the merged file is written, any number of them, each followed by
    a start-up: the restored state is exactly the same. *)
Theorem C31_crash_in_merge_partial srt th cs d lg : sorts srt -> shows d lg -> no_hidden d ->
  Forall (fun jk => exists n, snd jk = InMerge n) cs ->
  exists d' st, crash_runs cs srt th d = Ok d' /\ restore srt d = Ok st /\ restore srt d' = Ok st.
Proof.
  intros Hsrt Hs Hn Hcs.
  assert (H : exists d' lg', crash_runs cs srt th d = Ok d' /\ shows d' lg' /\ flat_map snd lg' = flat_map snd lg).
  { revert d lg Hs Hn. induction Hcs as [|[j k] cs [n Hk] Hcs IH]; intros d lg Hs Hn; [exists d, lg; auto|].
    cbn in Hk. subst k. cbn [crash_runs].
    destruct (combine_until_shows srt th Hsrt j d lg Hs Hn (InMerge n)) as (d1 & lg1 & E1 & Hs1 & _ & Hc).
    rewrite E1. cbn [bind]. destruct (restart_shows srt d1 lg1 Hsrt Hs1) as [Hs2 Hn2].
    destruct (IH _ lg1 Hs2 Hn2) as (d' & lg' & E & Hs' & Hl).
    exists d', lg'. split; [exact E|]. split; [exact Hs'|]. rewrite Hl.
    destruct Hc as [Hc|([Hc|Hc] & _)]; [exact Hc|discriminate|discriminate]. }
  destruct H as (d' & lg' & E & Hs' & Hcat).
  destruct (restore_shows srt d lg Hsrt Hs) as (st & A & R).
  destruct (restore_shows srt d' lg' Hsrt Hs') as (st' & A' & R').
  exists d', st. split; [exact E|]. split; [exact R|]. congruence.
Qed.

(** Crashes at any point, any number of them, each followed by a start-up: the
    same index, provided the condensed logs hold only records that set values
    (nodes, replaced lists, entry point, tombstones).  Missing: logs with appended
    links, refuted below. *)
Theorem C31_crash_partial srt th cs d lg : sorts srt -> shows d lg -> no_hidden d ->
  (forall f os, In (f, os) lg -> snd f = Condensed -> Forall sets os) ->
  exists d' st st', crash_runs cs srt th d = Ok d'
    /\ restore srt d = Ok st /\ restore srt d' = Ok st' /\ same_index st st'.
Proof.
  intros Hsrt Hs Hn Hset.
  destruct (crash_runs_shows srt th Hsrt cs d lg Hs Hn Hset) as (d' & lg' & st & st' & E & Hs' & A & A' & Hsame).
  destruct (restore_shows srt d lg Hsrt Hs) as (x & Ax & R).
  destruct (restore_shows srt d' lg' Hsrt Hs') as (y & Ay & R').
  exists d', st, st'. split; [exact E|]. split; [congruence|]. split; [congruence|exact Hsame].
Qed.

(** Three closed logs of a growing index, and the one being written. *)
Definition lg31 : log :=
  [((100, Plain), [LNode 1 0; LSetEp 1 0; LLink 1 0 2]);
   ((200, Plain), [LLink 1 0 3]);
   ((300, Plain), [LNode 3 2; LSetEp 3 2; LReplace 3 0 [1]]);
   ((400, Plain), [LNode 4 0])]%N.

Lemma lg31_ok : shows (dir_of lg31) lg31 /\ no_hidden (dir_of lg31).
Proof.
  apply dir_of_shows.
  - unfold lg31. cbn. sorted_names.
  - repeat (constructor; [reflexivity|]). constructor.
  - unfold lg31. repeat (constructor; [cbn [snd]; ranges|]). constructor.
Qed.

Definition condense1 (d : dir) : res dir := condense_old None (fun l => l) by_time d.

(** Two condensed logs are combined; the crash after the rename leaves the second
    one beside the combined file, and its links are appended twice. *)
Theorem C31_links_twice_refuted : exists lg d,
  shows (dir_of lg) lg /\ no_hidden (dir_of lg)
  /\ (do! d <- condense1 (dir_of lg); condense1 d) = Ok d
  /\ forall k, k = AfterRename \/ k = AfterFirstRemoval ->
     exists d' st st', combine_until 0 k by_time 1000 d = Ok d'
       /\ restore by_time d = Ok st /\ restore by_time d' = Ok st'
       /\ links st 1 0 = [2; 3]%N /\ links st' 1 0 = [2; 3; 3]%N.
Proof.
  exists lg31.
  destruct (do! d <- condense1 (dir_of lg31); condense1 d) as [d| | |] eqn:E; try (vm_compute in E; discriminate).
  exists d. destruct lg31_ok as [H1 H2]. split; [exact H1|]. split; [exact H2|]. split; [reflexivity|].
  vm_compute in E. injection E as <-.
  intros k [->| ->]; do 3 eexists; (split; [vm_compute; reflexivity|]);
    (split; [vm_compute; reflexivity|]); (split; [vm_compute; reflexivity|]); split; reflexivity.
Qed.

(** The same sort with the other order of equal time stamps. *)
Definition by_time_rev (l : list fname) : list fname := by_time (rev l).

Lemma by_time_rev_sorts : sorts by_time_rev.
Proof.
  intros l. destruct (by_time_sorts (rev l)) as [H1 H2]. split; [|exact H2].
  unfold by_time_rev. rewrite H1. apply Permutation_sym, Permutation_rev.
Qed.

(** A failed condensing leaves a partial condensed file beside the combined log
    "100".  The next run of the combiner merges that partial file with the next
    condensed log and renames the result onto "100": the records of the first two
    logs are gone, without any crash.  (The fixer that would delete the partial
    file only runs at start-up.) *)
Theorem C31_leftover_refuted : exists lg d,
  shows (dir_of lg) lg /\ no_hidden (dir_of lg)
  /\ (do! d <- condense1 (dir_of lg); do! d <- condense1 d; do! d <- condense1 d;
      do! r <- combine_all 9 by_time 110 false d;
      condense_old (Some 0) (fun l => l) by_time (snd r)) = Ok d
  /\ exists d' st st', combine_all 9 by_time_rev 1000 false d = Ok (true, d')
       /\ restore by_time d = Ok st /\ restore by_time d' = Ok st'
       /\ present st 1 /\ links st 1 0 = [2; 3]%N /\ ~ present st' 1.
Proof.
  exists lg31.
  destruct (do! d <- condense1 (dir_of lg31); do! d <- condense1 d; do! d <- condense1 d;
      do! r <- combine_all 9 by_time 110 false d;
      condense_old (Some 0) (fun l => l) by_time (snd r)) as [d| | |] eqn:E; try (vm_compute in E; discriminate).
  exists d. destruct lg31_ok as [H1 H2]. split; [exact H1|]. split; [exact H2|]. split; [reflexivity|].
  vm_compute in E. injection E as <-.
  do 3 eexists; (split; [vm_compute; reflexivity|]);
    (split; [vm_compute; reflexivity|]); (split; [vm_compute; reflexivity|]).
  vm_compute. split; [discriminate|]. split; [reflexivity|]. intros H. now apply H.
Qed.

Example C31_nonvacuous :
  sorts by_time /\ shows (dir_of lg31) lg31 /\ no_hidden (dir_of lg31) /\ length lg31 < 5
  /\ (exists d, (do! d <- condense1 (dir_of lg31); condense1 d) = Ok d
      /\ exists d', combine_all 5 by_time 1000 false d = Ok (true, d') /\ length d' = 3)
  /\ let lg := [((100, Condensed), [LNode 1 1; LReplace 1 0 [2]]); ((200, Condensed), [LReplace 1 0 [3]]);
                ((300, Plain), [LLink 1 0 4])]%N in
     shows (dir_of lg) lg /\ no_hidden (dir_of lg)
     /\ (forall f os, In (f, os) lg -> snd f = Condensed -> Forall sets os)
     /\ exists d', crash_runs [(0, InMerge 5); (0, AfterRename); (0, AfterFirstRemoval)] by_time 1000 (dir_of lg) = Ok d'
        /\ exists st, restore by_time d' = Ok st /\ links st 1 0 = [3; 4]%N.
Proof.
  split; [exact by_time_sorts|]. destruct lg31_ok as [H1 H2]. split; [exact H1|]. split; [exact H2|].
  split; [apply Nat.ltb_lt; reflexivity|].
  split; [eexists; split; [vm_compute; reflexivity|]; eexists; split; vm_compute; reflexivity|].
  cbv zeta.
  assert (H : shows (dir_of [((100, Condensed), [LNode 1 1; LReplace 1 0 [2]]); ((200, Condensed), [LReplace 1 0 [3]]);
                ((300, Plain), [LLink 1 0 4])]%N) [((100, Condensed), [LNode 1 1; LReplace 1 0 [2]]); ((200, Condensed), [LReplace 1 0 [3]]);
                ((300, Plain), [LLink 1 0 4])]%N /\ no_hidden (dir_of [((100, Condensed), [LNode 1 1; LReplace 1 0 [2]]); ((200, Condensed), [LReplace 1 0 [3]]);
                ((300, Plain), [LLink 1 0 4])]%N)).
  { apply dir_of_shows.
    - cbn. sorted_names.
    - repeat (constructor; [reflexivity|]). constructor.
    - repeat (constructor; [cbn [snd]; ranges|]). constructor. }
  destruct H as [H3 H4]. split; [exact H3|]. split; [exact H4|].
  split; [|eexists; split; [vm_compute; reflexivity|]; eexists; split; vm_compute; reflexivity].
  intros f os [E|[E|[E|[]]]] Hf; injection E as <- <-; repeat constructor. discriminate.
Qed.

(** ** C52: condensing in the directory *)

(** Full statement: condensing an old log never changes the index restored from
    the directory.

    A run of the condenser: the restored index is the same, provided the log it
    picks only adds and sets (on the index restored from the logs before it) and
    its lists of links fit a record.  The first log that is not condensed is the
    one picked; the other logs stay.  Missing: logs that delete nodes, clear links,
    remove tombstones, reset the index or hold compression data, refuted below
    and under C30. *)
Theorem C52_condense_partial srt ord d lg : sorts srt -> (forall l t, In t (ord l) <-> In t l) ->
  shows d lg -> no_hidden d ->
  (forall a f os b st, lg = a ++ (f, os) :: b -> snd f = Plain -> b <> [] ->
     Forall (fun go : fname * list lop => snd (fst go) = Condensed) a ->
     apply_all false (flat_map snd a) ls_init = Ok st -> additive os st /\ own_short os) ->
  exists d' lg' st st', condense_old None ord srt d = Ok d' /\ shows d' lg' /\ no_hidden d'
    /\ restore srt d = Ok st /\ restore srt d' = Ok st' /\ same_index st st'
    /\ (forall a f os b, lg = a ++ (f, os) :: b -> snd f = Plain -> b <> [] ->
          Forall (fun go : fname * list lop => snd (fst go) = Condensed) a ->
          exists cs, lg' = a ++ ((fst f, Condensed), cs) :: b).
Proof.
  intros Hsrt Hord Hs Hn Hadd.
  destruct (condense_old_shows srt ord d lg Hsrt Hord Hs Hn Hadd)
    as (d' & lg' & st & st' & E & Hs' & Hn' & A & A' & Hsame & _ & Hpick).
  destruct (restore_shows srt d lg Hsrt Hs) as (x & Ax & R).
  destruct (restore_shows srt d' lg' Hsrt Hs') as (y & Ay & R').
  exists d', lg', st, st'. split; [exact E|]. split; [exact Hs'|]. split; [exact Hn'|].
  split; [congruence|]. split; [congruence|]. split; [exact Hsame|exact Hpick].
Qed.

(** A crash while the condensed file is written, after any number of bytes: the
    restored state is exactly the same, and the start-up leaves a directory as
    before, so that the theorems of this file apply again. *)
Theorem C52_condense_crash srt ord n d lg : sorts srt -> (forall l t, In t (ord l) <-> In t l) ->
  shows d lg -> no_hidden d ->
  forall d', condense_old (Some n) ord srt d = Ok d' ->
  exists st, restore srt d = Ok st /\ restore srt d' = Ok st
    /\ shows (restart_dir srt d') lg /\ no_hidden (restart_dir srt d').
Proof.
  intros Hsrt Hord Hs Hn d' E.
  pose proof (condense_crash_shows srt ord n d lg Hsrt Hord Hs Hn d' E) as Hs'.
  destruct (restore_shows srt d lg Hsrt Hs) as (x & Ax & R).
  destruct (restore_shows srt d' lg Hsrt Hs') as (y & Ay & R').
  exists x. split; [exact R|]. split; [congruence|]. now apply restart_shows.
Qed.

(** Checks for concrete logs. *)
Definition adds_check (o : lop) (t : lstate) : bool :=
  match o with
  | LNode id l => if N.eqb l 0 then N.eqb (lev t id) 0 else true
  | LSetEp _ _ | LLink _ _ _ | LReplace _ _ _ | LAddTomb _ | LAddLinks _ _ _ => true
  | LClearAt id _ =>
      match mget id (ls_nodes t) with Some _ => (id <? initial_size)%N | None => false end
  | _ => false
  end.
Fixpoint additive_check (os : list lop) (t : lstate) : bool :=
  match os with
  | [] => true
  | o :: os => adds_check o t && match apply_op false o t with Ok t => additive_check os t | _ => false end
  end.
Lemma additive_check_ok : forall os t, additive_check os t = true -> additive os t.
Proof.
  induction os as [|o os IH]; intros t H; [exact I|]. cbn in *. apply andb_true_iff in H as [H1 H2].
  split; [|intros t' E; rewrite E in H2; now apply IH].
  destruct o; cbn in *; auto; try discriminate.
  - intros ->. cbn in H1. now apply N.eqb_eq.
  - unfold present. destruct (mget id (ls_nodes t)); [|discriminate]. split; [discriminate|now apply N.ltb_lt].
Qed.

Definition short_check (os : list lop) : bool :=
  match apply_all true os ls_init with
  | Ok st => forallb (fun kv => forallb (fun l => (N.of_nat (length l) <? 65536)%N) (lv_conns (snd kv)))
               (ls_nodes st)
  | _ => false
  end.
Lemma short_check_ok os : short_check os = true -> own_short os.
Proof.
  unfold short_check. intros Hc s H. rewrite H in Hc. intros id w l Hg Hin. apply mget_in in Hg.
  pose proof (proj1 (forallb_forall _ _) Hc _ Hg) as Hw. cbn in Hw.
  pose proof (proj1 (forallb_forall _ _) Hw _ Hin) as Hl. now apply N.ltb_lt in Hl.
Qed.

Definition lg52 : log :=
  [((100, Condensed), [LNode 1 1; LReplace 1 0 [2]; LReplace 1 1 []; LAddLinks 3 0 [1]]);
   ((200, Plain), [LLink 1 0 3; LNode 5 2; LSetEp 5 2; LClearAt 3 0; LLink 3 0 5; LReplace 5 1 [1]; LAddTomb 2]);
   ((300, Plain), [LReplace 1 0 [5]; LRemoveTomb 2; LDelete 3])]%N.

Lemma lg52_ok : shows (dir_of lg52) lg52 /\ no_hidden (dir_of lg52).
Proof.
  apply dir_of_shows.
  - unfold lg52. cbn. sorted_names.
  - repeat (constructor; [reflexivity|]). constructor.
  - unfold lg52. repeat (constructor; [cbn [snd]; ranges|]). constructor.
Qed.

(** Condensed on top of earlier logs: a deleted node comes back, removed
    tombstones come back, cleared links come back, a reset is undone. *)
Theorem C52_deletions_lost_refuted : Forall (fun o =>
  let lg := [((100, Plain), [LNode 1 1; LReplace 1 0 [2]; LAddTomb 1]); ((200, Plain), [o]);
             ((300, Plain), [LNode 2 0])]%N in
  shows (dir_of lg) lg /\ no_hidden (dir_of lg)
  /\ exists d st st', (do! d <- condense1 (dir_of lg); condense1 d) = Ok d
       /\ restore by_time (dir_of lg) = Ok st /\ restore by_time d = Ok st' /\ ~ same_index st st')
  [LDelete 1; LRemoveTomb 1; LClear 1; LReset]%N.
Proof.
  assert (Hgo : forall o, op_ok o -> op_mem o ->
    let lg := [((100, Plain), [LNode 1 1; LReplace 1 0 [2]; LAddTomb 1]); ((200, Plain), [o]);
             ((300, Plain), [LNode 2 0])]%N in shows (dir_of lg) lg /\ no_hidden (dir_of lg)).
  { intros o Ho Hm. apply dir_of_shows.
    - cbn. sorted_names.
    - repeat (constructor; [reflexivity|]). constructor.
    - constructor; [cbn [snd]; ranges|]. constructor; [cbn [snd]; auto|].
      constructor; [cbn [snd]; ranges|]. constructor. }
  repeat (apply Forall_cons); [| | | |apply Forall_nil]; cbv zeta.
  - destruct (Hgo (LDelete 1)) as [H1 H2]; [ranges|ranges|]. split; [exact H1|]. split; [exact H2|].
    do 3 eexists. split; [vm_compute; reflexivity|]. split; [vm_compute; reflexivity|].
    split; [vm_compute; reflexivity|]. intros (H & _). specialize (H 1%N). vm_compute in H. discriminate.
  - destruct (Hgo (LRemoveTomb 1)) as [H1 H2]; [ranges|ranges|]. split; [exact H1|]. split; [exact H2|].
    do 3 eexists. split; [vm_compute; reflexivity|]. split; [vm_compute; reflexivity|].
    split; [vm_compute; reflexivity|]. intros (_ & _ & _ & H & _). apply (H 1%N). vm_compute. now left.
  - destruct (Hgo (LClear 1)) as [H1 H2]; [ranges|ranges|]. split; [exact H1|]. split; [exact H2|].
    do 3 eexists. split; [vm_compute; reflexivity|]. split; [vm_compute; reflexivity|].
    split; [vm_compute; reflexivity|]. intros (H & _). specialize (H 1%N). vm_compute in H. discriminate.
  - destruct (Hgo LReset) as [H1 H2]; [ranges|ranges|]. split; [exact H1|]. split; [exact H2|].
    do 3 eexists. split; [vm_compute; reflexivity|]. split; [vm_compute; reflexivity|].
    split; [vm_compute; reflexivity|]. intros (H & _). specialize (H 1%N). vm_compute in H. discriminate.
Qed.

(** A node id of 25000 or more lies outside the slice a fresh reader starts with:
    clearing its links is dropped when the log is condensed on its own. *)
Theorem C52_clear_beyond_refuted : exists lg d st st',
  shows (dir_of lg) lg /\ no_hidden (dir_of lg)
  /\ (do! d <- condense1 (dir_of lg); condense1 d) = Ok d
  /\ restore by_time (dir_of lg) = Ok st /\ restore by_time d = Ok st'
  /\ links st 30000 0 = [] /\ links st' 30000 0 = [1%N].
Proof.
  exists [((100, Plain), [LNode 30000 1; LReplace 30000 0 [1]]); ((200, Plain), [LClearAt 30000 0]);
          ((300, Plain), [LNode 2 0])]%N.
  do 3 eexists.
  assert (H : shows (dir_of [((100, Plain), [LNode 30000 1; LReplace 30000 0 [1]]);
            ((200, Plain), [LClearAt 30000 0]); ((300, Plain), [LNode 2 0])]%N)
          [((100, Plain), [LNode 30000 1; LReplace 30000 0 [1]]); ((200, Plain), [LClearAt 30000 0]);
          ((300, Plain), [LNode 2 0])]%N
          /\ no_hidden (dir_of [((100, Plain), [LNode 30000 1; LReplace 30000 0 [1]]);
            ((200, Plain), [LClearAt 30000 0]); ((300, Plain), [LNode 2 0])]%N)).
  { apply dir_of_shows.
    - cbn. sorted_names.
    - repeat (constructor; [reflexivity|]). constructor.
    - repeat (constructor; [cbn [snd]; ranges|]). constructor. }
  destruct H as [H1 H2]. split; [exact H1|]. split; [exact H2|].
  split; [vm_compute; reflexivity|]. split; [vm_compute; reflexivity|]. split; [vm_compute; reflexivity|].
  split; vm_compute; reflexivity.
Qed.

(** The condensed file is opened for appending: after a failed run the next run
    writes behind the partial file.  The records are read shifted: a length is
    taken from the wrong bytes and the start-up panics. *)
Theorem C52_append_refuted : exists lg n d st,
  shows (dir_of lg) lg /\ no_hidden (dir_of lg)
  /\ (do! d <- condense_old (Some n) (fun l => l) by_time (dir_of lg); condense1 d) = Ok d
  /\ restore by_time (dir_of lg) = Ok st /\ restore by_time d = Panic.
Proof.
  exists lg31, 30. do 2 eexists. destruct lg31_ok as [H1 H2]. split; [exact H1|]. split; [exact H2|].
  split; [vm_compute; reflexivity|]. split; vm_compute; reflexivity.
Qed.

(** A log that ends in the middle of a record is never condensed, and no later
    log is: every run fails on it again and leaves the directory as it is. *)
Theorem C52_torn_log_blocks_refuted : exists d : dir, exists st,
  restore by_time d = Ok st /\ present st 3 /\ length d = 4
  /\ forall stop, condense_old stop (fun l => l) by_time d = Err EOther.
Proof.
  exists (map (fun fo => (fst fo, match fst fo with (100%N, _) => removelast (snd fo) | _ => snd fo end)) (dir_of lg31)).
  eexists. split; [vm_compute; reflexivity|]. split; [vm_compute; discriminate|]. split; [reflexivity|].
  intros stop. vm_compute. reflexivity.
Qed.

Example C52_nonvacuous :
  sorts by_time_rev /\ (forall l t, In t (rev l) <-> @In N t l)
  /\ shows (dir_of lg52) lg52 /\ no_hidden (dir_of lg52)
  /\ (forall a f os b st, lg52 = a ++ (f, os) :: b -> snd f = Plain -> b <> [] ->
        Forall (fun go : fname * list lop => snd (fst go) = Condensed) a ->
        apply_all false (flat_map snd a) ls_init = Ok st -> additive os st /\ own_short os)
  /\ exists d d' st, condense_old None (@rev N) by_time_rev (dir_of lg52) = Ok d
       /\ condense_old (Some 40) (@rev N) by_time_rev (dir_of lg52) = Ok d' /\ length d' = 4
       /\ restore by_time_rev d = Ok st /\ links st 1 0 = [5%N] /\ ls_tomb st = [] /\ ~ present st 3
       /\ ls_ep st = 5%N.
Proof.
  split; [exact by_time_rev_sorts|]. split; [intros; symmetry; apply in_rev|].
  destruct lg52_ok as [H1 H2]. split; [exact H1|]. split; [exact H2|]. split.
  - intros a f os b st E Hf Hb Ha Est. unfold lg52 in E.
    destruct a as [|x a]; [injection E as <- _ _; discriminate|]. injection E as <- E.
    destruct a as [|y a].
    + injection E as <- <- <-. vm_compute in Est. injection Est as <-.
      split; [apply additive_check_ok; vm_compute; reflexivity|apply short_check_ok; vm_compute; reflexivity].
    + injection E as <- E. inversion Ha as [|? ? _ Ha']; subst. inversion Ha' as [|? ? Hy _]; subst. discriminate Hy.
  - do 3 eexists. split; [vm_compute; reflexivity|]. split; [vm_compute; reflexivity|].
    split; [reflexivity|]. split; [vm_compute; reflexivity|]. vm_compute.
    split; [reflexivity|]. split; [reflexivity|]. split; [|reflexivity]. intros H. now apply H.
Qed.

Print Assumptions C31_combine_partial.
Print Assumptions C31_crash_in_merge_partial.
Print Assumptions C31_crash_partial.
Print Assumptions C31_links_twice_refuted.
Print Assumptions C31_leftover_refuted.
Print Assumptions C52_condense_partial.
Print Assumptions C52_condense_crash.
Print Assumptions C52_deletions_lost_refuted.
Print Assumptions C52_clear_beyond_refuted.
Print Assumptions C52_append_refuted.
Print Assumptions C52_torn_log_blocks_refuted.
