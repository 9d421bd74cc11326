(** The directory of commit logs: listing, combining, condensing, and the replay
    at start-up.

    File names are structured: a time stamp and a kind (a name that is not a
    decimal time stamp makes every listing fail, commit_logger.go:156-158).  A
    directory is a list of named contents.  Failing system calls on files that
    exist are not modelled; a missing file is [Err].  The code that restores an
    index (startup.go:50-147) is commented out in the repository; [restore]
    follows the commented text.  The truncation of a torn file
    (startup.go:98-101) changes no later step of the same start-up and is left
    out. *)
From Verif Require Import Base CommitLog.

(** The suffixes used: none; ".condensed" (condensor.go:45); ".combined.tmp"
    (commit_log_combiner.go:120); ".scratch.tmp" (commit_logger.go:210). *)
Inductive kind := Plain | Condensed | CombinedTmp | ScratchTmp.

(** commit_logger.go:35-37 and 247-249: the time stamp and the suffix. *)
Definition fname : Type := (N * kind)%type.

(** A directory, commit_logger.go:39-41. *)
Definition dir : Type := list (fname * list N).

(** Comparison of suffixes and names (Go's [==] on the strings).
    commit_logger.go:206-245. *)
Definition kind_eqb (a b : kind) : bool :=
  match a, b with
  | Plain, Plain | Condensed, Condensed | CombinedTmp, CombinedTmp | ScratchTmp, ScratchTmp => true
  | _, _ => false
  end.
(** commit_logger.go:206-245. *)
Definition fname_eqb (a b : fname) : bool := (N.eqb (fst a) (fst b) && kind_eqb (snd a) (snd b))%bool.

(** os.Open, os.Remove, and writing a whole file (os.Create followed by writes;
    os.Rename onto a name). commit_log_combiner.go:145-170. *)
Fixpoint dget (f : fname) (d : dir) : option (list N) :=
  match d with
  | [] => None
  | (g, c) :: d => if fname_eqb f g then Some c else dget f d
  end.
(** commit_log_combiner.go:183-203. *)
Definition ddel (f : fname) (d : dir) : dir := filter (fun gc => negb (fname_eqb f (fst gc))) d.
(** commit_log_combiner.go:145-203. *)
Definition dput (f : fname) (c : list N) (d : dir) : dir := (f, c) :: ddel f d.

(** commit_logger.go:221-245, removeTmpCombiningFiles: deletes them. *)
Definition remove_tmp_combining (d : dir) : dir :=
  filter (fun gc => negb (kind_eqb (snd (fst gc)) CombinedTmp)) d.

(** commit_logger.go:206-219, removeTmpScratchFiles: leaves them out. *)
Definition remove_tmp_scratch (names : list fname) : list fname :=
  filter (fun f => negb (kind_eqb (snd f) ScratchTmp)) names.

(** commit_logger.go:121-166, getCommitFileNames.  [srt] is sort.Slice by time
    stamp, which leaves the order of equal time stamps open. *)
Definition get_names (srt : list fname -> list fname) (d : dir) : list fname * dir :=
  let d := remove_tmp_combining d in
  (srt (remove_tmp_scratch (map fst d)), d).

(** ** Combining *)

(** commit_log_combiner.go:65-111, combineFirstMatch up to the call of combine:
    the two files to combine. *)
Fixpoint first_match (th : N) (d : dir) (names : list fname) : res (option (fname * fname)) :=
  match names with
  | [] => Ok None
  | f :: rest =>
      if negb (kind_eqb (snd f) Condensed) then first_match th d rest
      else match rest with
           | [] => Ok None
           | g :: _ =>
               if negb (kind_eqb (snd g) Condensed) then first_match th d rest
               else
                 match dget f d with
                 | None => Err EOther
                 | Some c1 =>
                     if (th <? N.of_nat (length c1))%N then first_match th d rest
                     else match dget g d with
                          | None => Err EOther
                          | Some c2 =>
                              if (th <? N.of_nat (length c1) + N.of_nat (length c2))%N
                              then first_match th d rest
                              else Ok (Some (f, g))
                          end
                 end
           end
  end.

(** The three stages of combine (commit_log_combiner.go:113-143).
    mergeFiles, 145-181: the temporary file. *)
Definition tmp_name (f : fname) : fname := (fst f, CombinedTmp).
Definition final_name (f : fname) : fname := (fst f, Plain).

(** commit_log_combiner.go:145-181. *)
Definition merged (d : dir) (f g : fname) : res (list N) :=
  match dget f d, dget g d with
  | Some c1, Some c2 => Ok (c1 ++ c2)
  | _, _ => Err EOther
  end.

(** renameAndCleanUp, 183-203: rename, remove the first, remove the second.
    commit_log_combiner.go:183-203. *)
Definition renamed (d : dir) (f : fname) (c : list N) : dir :=
  dput (final_name f) c (ddel (tmp_name f) d).

(** commit_log_combiner.go:113-143. *)
Definition combine (d : dir) (f g : fname) : res dir :=
  do! c <- merged d f g;
  Ok (ddel g (ddel f (renamed (dput (tmp_name f) c d) f c))).

(** commit_log_combiner.go:41-63, Do. *)
Fixpoint combine_all (fuel : nat) (srt : list fname -> list fname) (th : N) (ex : bool) (d : dir)
  : res (bool * dir) :=
  match fuel with
  | 0 => OutOfFuel
  | S fuel =>
      let '(names, d) := get_names srt d in
      do! m <- first_match th d names;
      match m with
      | None => Ok (ex, d)
      | Some (f, g) => do! d <- combine d f g; combine_all fuel srt th true d
      end
  end.

(** A crash inside combine: while the temporary file is written (after [n]
    bytes), after the rename, after the first removal. commit_log_combiner.go:113-203. *)
Inductive crash := InMerge (n : nat) | AfterRename | AfterFirstRemoval.

(** commit_log_combiner.go:113-203. *)
Definition combine_crash (k : crash) (d : dir) (f g : fname) : res dir :=
  do! c <- merged d f g;
  Ok match k with
     | InMerge n => dput (tmp_name f) (firstn n c) d
     | AfterRename => renamed (dput (tmp_name f) c d) f c
     | AfterFirstRemoval => ddel f (renamed (dput (tmp_name f) c d) f c)
     end.

(** A run of Do that crashes in its [j]-th combination (counted from 0); a run
    with fewer combinations ends normally. commit_log_combiner.go:41-63. *)
Fixpoint combine_until (j : nat) (k : crash) (srt : list fname -> list fname) (th : N) (d : dir)
  : res dir :=
  let '(names, d) := get_names srt d in
  do! m <- first_match th d names;
  match m with
  | None => Ok d
  | Some (f, g) =>
      match j with
      | 0 => combine_crash k d f g
      | S j => do! d <- combine d f g; combine_until j k srt th d
      end
  end.

(** ** Condensing *)

(** commit_logger.go:544-570, condenseOldLogs: the file to condense, the first
    that is not condensed, never the last one. *)
Fixpoint condense_candidate (names : list fname) : option fname :=
  match names with
  | [] | [_] => None
  | f :: rest => if kind_eqb (snd f) Condensed then condense_candidate rest else Some f
  end.

(** condensor.go:32-112 on the directory: the records are appended to the
    ".condensed" file, then the original is removed.  [None] as [stop] is an
    undisturbed run, [Some n] a crash after [n] bytes. *)
Definition condense_file (stop : option nat) (ord : list N -> list N) (f : fname) (d : dir) : res dir :=
  match dget f d with
  | None => Err EOther
  | Some c =>
      match condense ord c with
      | None => Err EOther
      | Some bs =>
          let g := (fst f, Condensed) in
          let old := match dget g d with Some o => o | None => [] end in
          Ok match stop with
             | None => ddel f (dput g (old ++ bs) d)
             | Some n => dput g (old ++ firstn n bs) d
             end
      end
  end.

(** commit_logger.go:544-570. *)
Definition condense_old (stop : option nat) (ord : list N -> list N) (srt : list fname -> list fname)
  (d : dir) : res dir :=
  let '(names, d) := get_names srt d in
  match condense_candidate names with
  | None => Ok d
  | Some f => condense_file stop ord f d
  end.

(** ** Start-up *)

(** corrupt_commit_logs_fixer.go:43-70: a condensed file whose original exists is
    deleted. *)
Definition corrupt (names : list fname) (f : fname) : bool :=
  (kind_eqb (snd f) Condensed && existsb (fname_eqb (fst f, Plain)) names)%bool.
Definition fix_names (names : list fname) : list fname :=
  filter (fun f => negb (corrupt names f)) names.
Definition fix_dir (names : list fname) (d : dir) : dir :=
  fold_left (fun d f => if corrupt names f then ddel f d else d) names d.

(** startup.go:69-111: the logs one after the other; a torn log is accepted. *)
Fixpoint replay (d : dir) (names : list fname) (st : lstate) : res lstate :=
  match names with
  | [] => Ok st
  | f :: rest =>
      match dget f d with
      | None => Err EOther
      | Some c =>
          match deserialize false st c with
          | DDone st _ => replay d rest st
          | DErr st _ REOF | DErr st _ RUnexpectedEOF => replay d rest st
          | DErr _ _ _ => Err EOther
          | DPanic => Panic
          | DFuel => OutOfFuel
          end
      end
  end.

(** startup.go:50-117. *)
Definition restore (srt : list fname -> list fname) (d : dir) : res lstate :=
  let '(names, d) := get_names srt d in
  let fixed := fix_names names in
  replay (fix_dir names d) fixed ls_init.

(** The directory a start-up leaves (startup.go:59-67): temporary files and
    condensed files beside their originals are gone. *)
Definition restart_dir (srt : list fname -> list fname) (d : dir) : dir :=
  let '(names, d) := get_names srt d in fix_dir names d.

(** Several runs of the combiner, each crashing in its [j]-th combination at [k],
    each followed by a start-up.
    Not in the code: runs of commit_log_combiner.go:41-63 and starts one after the
    other. *)
Fixpoint crash_runs (cs : list (nat * crash)) (srt : list fname -> list fname) (th : N) (d : dir)
  : res dir :=
  match cs with
  | [] => Ok d
  | (j, k) :: cs =>
      do! d <- combine_until j k srt th d; crash_runs cs srt th (restart_dir srt d)
  end.
