(** Dropping an index and its commit log (pkg/hnsw/index.go:625-655,
    pkg/hnsw/commit_logger.go:581-600).

    Simplifications.
    - The disk is a list of directories with their paths and their files (the
      directories between the root and a log are left out).
    - The writer of records is that of Switch.v; Close of a closed one fails, because
      os.File.Close does.
    - Between Close and the end of the cycles, the cycles change the files of the log
      in any way ([d_cycles]).
    - The cache that is dropped in between (index.go:640-645) is in Watchers.v. *)
From Coq Require Import String.
From Verif Require Import Base CommitLog LogFiles Switch.
Local Open Scope string_scope.

(** commit_logger.go:39-41 *)
Definition log_dir (root id : string) : string := root ++ "/" ++ id ++ ".hnsw.commitlog.d".

(** The directories of a disk.  Not in the code. *)
Definition disk : Type := list (string * dir).
(** Is the path [p] the directory [q] or below it? Library (os.RemoveAll),
    commit_logger.go:594. *)
Definition below (q p : string) : bool := (String.eqb q p || prefix (q ++ "/") p)%bool.
(** os.RemoveAll that succeeds.  Library, commit_logger.go:594. *)
Definition remove_all (q : string) (d : disk) : disk := filter (fun e => negb (below q (fst e))) d.
(** os.RemoveAll that fails half-way: [keep] tells which files are left in which
    directory.  Library, commit_logger.go:594. *)
Definition remove_some (keep : string -> fname -> bool) (q : string) (d : disk) : disk :=
  map (fun e => if below q (fst e) then (fst e, filter (fun fc => keep (fst e) (fst fc)) (snd e)) else e) d.
(** A change to the files of one directory.  Not in the code. *)
Definition change (q : string) (f : dir -> dir) (d : disk) : disk :=
  map (fun e => if String.eqb q (fst e) then (fst e, f (snd e)) else e) d.
(** os.ReadDir after os.MkdirAll (commit_logger.go:121-131): a directory that is
    missing is made empty. *)
Definition read_dir (q : string) (d : disk) : dir :=
  match find (fun e => String.eqb q (fst e)) d with Some e => snd e | None => [] end.
(** os.Stat (commit_logger.go:593): the directory is there, also if it only holds others. *)
Definition is_there (q : string) (d : disk) : bool := existsb (fun e => below q (fst e)) d.

(** An index that is open: its log (the active file and what is buffered for it,
    whether the file is open), the cycles, the disk
    (commit_logger.go:251-271, index.go:38-160). *)
Record owner := mkOwn { w_act : fname; w_buffered : list N; w_isopen : bool; w_cyc : cycles; w_disk : disk }.

(** What the system answers: Close ([Some n]: fails after [n] bytes), the cycles
    until they are stopped, StopAndWait of each, RemoveAll ([Some keep]: fails). *)
Record dropo := mkDO {
  d_close : option nat; d_cycles : dir -> dir;
  d_rs : stop_result; d_rc : stop_result; d_rt : stop_result;
  d_remove : option (string -> fname -> bool) }.

(** commit_logger.go:581-600, Drop. *)
Definition drop_log (o : dropo) (root id : string) (w : owner) : owner * res unit :=
  let q := log_dir root id in
  if negb (w_isopen w) then (w, Err EOther)
  else
    match d_close o with
    | Some n =>
        (mkOwn (w_act w) (skipn n (w_buffered w)) (w_isopen w) (w_cyc w)
               (change q (append (w_act w) (firstn n (w_buffered w))) (w_disk w)), Err EOther)
    | None =>
        let d := change q (fun f => d_cycles o (append (w_act w) (w_buffered w) f)) (w_disk w) in
        let '(r, y) := shutdown_log (d_rs o) (d_rc o) (w_cyc w) in
        match r with
        | Some _ => (mkOwn (w_act w) [] false y d, Err EOther)
        | None =>
            if is_there q d then
              match d_remove o with
              | Some keep => (mkOwn (w_act w) [] false y (remove_some keep q d), Err EOther)
              | None => (mkOwn (w_act w) [] false y (remove_all q d), Ok tt)
              end
            else (mkOwn (w_act w) [] false y d, Ok tt)
        end
    end.

(** index.go:625-655, Drop; [interval] is cleanupInterval. *)
Definition drop_index (o : dropo) (interval : Z) (root id : string) (w : owner) : owner * res unit :=
  if Z.eqb interval 0 then drop_log o root id w
  else
    let y := w_cyc w in
    let w1 := mkOwn (w_act w) (w_buffered w) (w_isopen w)
                (mkCyc (y_switch y) (y_condense y) (after_stop (d_rt o) (y_clean y))) (w_disk w) in
    match d_rt o with
    | Some _ => (w1, Err EOther)
    | None => drop_log o root id w1
    end.
