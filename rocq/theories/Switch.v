(** The writing side of the commit log: opening, writing, switching to a new file
    (pkg/hnsw/commit_logger.go), and the backup of the files
    (pkg/hnsw/backup.go).

    Simplifications.
    - The writer of records (package commitlog of the weaviate dependency) is not in
      the repository.  It is taken as: a record adds its bytes to a buffer, the
      buffer goes to the end of the active file at any time ([ASpill]), Flush and
      Close write all of it, FileSize is the size of the file.
    - The clock is the argument [now], in seconds as time.Now().Unix() gives it.
    - System calls on files that exist do not fail, except Close in [switch_log].
    - The file name is the path: joining it with the root and taking it relative to
      the root (backup.go:109, 129) is left out.  The listing of a directory
      (filepath.WalkDir, backup.go:97) is the list of its files; the order in which
      a Go map is listed (136-139) is not fixed, so theorems speak of membership.
    - The maintenance cycles belong to the weaviate dependency too: a cycle is
      running or not, Start on a running cycle does nothing, StopAndWait stops the
      cycle or returns an error and leaves it running. *)
From Verif Require Import Base CommitLog LogFiles.

(** commit_logger.go:251-271: the directory, the active file and what is buffered
    for it. *)
Record clog := mkCL { cl_dir : dir; cl_act : fname; cl_buf : list N }.

(** os.OpenFile with O_APPEND|O_CREATE (commit_logger.go:111-112, 533-534). *)
Definition create (f : fname) (d : dir) : dir :=
  match dget f d with Some _ => d | None => dput f [] d end.
(** Writing to a file opened like that. *)
Definition append (f : fname) (bs : list N) (d : dir) : dir :=
  match dget f d with Some c => dput f (c ++ bs) d | None => dput f bs d end.

(** commit_logger.go:170-204, getCurrentCommitLogFileName.  [desc] is sort.Slice by
    falling time stamp.  The emptiness of the listing is tested before the temporary
    files are taken out (176-184); files[0] of an empty slice panics (203). *)
Definition get_current (desc : list fname -> list fname) (d : dir) : res (option fname * dir) :=
  match d with
  | [] => Ok (None, d)
  | _ =>
      let d := remove_tmp_combining d in
      match desc (remove_tmp_scratch (map fst d)) with
      | [] => Panic
      | f :: _ => Ok (Some f, d)
      end
  end.

(** commit_logger.go:94-118, getLatestCommitFileOrCreate, and the logger on it (43-92). *)
Definition open_log (desc : list fname -> list fname) (now : N) (d : dir) : res clog :=
  do! r <- get_current desc d;
  let f := match fst r with Some f => f | None => (now, Plain) end in
  Ok (mkCL (create f (snd r)) f []).

(** commit_logger.go:324-402: a record goes to the writer. *)
Definition log_op (o : lop) (s : clog) : clog :=
  mkCL (cl_dir s) (cl_act s) (cl_buf s ++ encode o).
(** The writer passes on the first [n] buffered bytes. *)
Definition spill (n : nat) (s : clog) : clog :=
  mkCL (append (cl_act s) (firstn n (cl_buf s)) (cl_dir s)) (cl_act s) (skipn n (cl_buf s)).
(** commit_logger.go:602-607. *)
Definition flush_log (s : clog) : clog := spill (length (cl_buf s)) s.

(** commit_logger.go:492-542, switchCommitLogs.  [close] is the outcome of Close
    (511): [None] success, [Some n] a failure after [n] bytes.  FileSize (496-499)
    and FileName (505-508) do not fail. *)
Definition switch_log (force : bool) (max now : N) (close : option nat) (s : clog) : res bool * clog :=
  let size := match dget (cl_act s) (cl_dir s) with Some c => N.of_nat (length c) | None => 0%N end in
  if ((size <=? max)%N && negb force)%bool then (Ok false, s)
  else match close with
       | Some n => (Err EOther, spill n s)
       | None =>
           let f := (now, Plain) in
           (Ok true, mkCL (create f (cl_dir (flush_log s))) f [])
       end.

(** What happens to a commit log: records, writes of the buffer, flushes, the check
    of the size by the cycle (commit_logger.go:460-468), a forced switch
    (SwitchCommitLogs, 487-490), and a new process on the same files after the old
    one flushed its buffer. *)
Inductive lact :=
| ALog (o : lop)
| ASpill (n : nat)
| AFlush
| ATick (now : N)
| AForce (now : N)
| AReopen (now : N).

(** commit_logger.go:324-402, 487-542, 602-607, 43-92. *)
Definition lstep (desc : list fname -> list fname) (max : N) (a : lact) (s : clog) : res clog :=
  match a with
  | ALog o => Ok (log_op o s)
  | ASpill n => Ok (spill n s)
  | AFlush => Ok (flush_log s)
  | ATick now => Ok (snd (switch_log false max now None s))
  | AForce now => Ok (snd (switch_log true max now None s))
  | AReopen now => open_log desc now (cl_dir (flush_log s))
  end.
(** Not in the code: steps one after the other. *)
Fixpoint lrun (desc : list fname -> list fname) (max : N) (l : list lact) (s : clog) : res clog :=
  match l with
  | [] => Ok s
  | a :: l => do! s <- lstep desc max a s; lrun desc max l s
  end.

(** backup.go:90-142, ListFiles: the names and the directory it leaves.  [None] is a
    directory that does not exist: the function given to WalkDir is called with no
    entry and asks it whether it is a directory (98). *)
Definition list_files (desc : list fname -> list fname) (root : option dir) : res (list fname * dir) :=
  match root with
  | None => Panic
  | Some d =>
      let found := map fst (filter (fun fc => match snd fc with [] => false | _ => true end) d) in
      do! r <- get_current desc d;
      Ok (match fst r with
          | Some c => filter (fun f => negb (fname_eqb f c)) found
          | None => found
          end, snd r)
  end.

(** The caller's part: copying the listed files; a file that is not there fails.
    Not in the code: the caller of backup.go:90-142. *)
Fixpoint copy_files (names : list fname) (d : dir) : res dir :=
  match names with
  | [] => Ok []
  | f :: names =>
      match dget f d with
      | None => Err EOther
      | Some c => do! b <- copy_files names d; Ok ((f, c) :: b)
      end
  end.

(** ** Maintenance *)

(** The three cycles: switching and condensing (commit_logger.go:86-87), and the
    clean-up of tombstones (index.go).  [true]: running. *)
Record cycles := mkCyc { y_switch : bool; y_condense : bool; y_clean : bool }.

(** StopAndWait: [None] the cycle is stopped; [Some e] it still runs, [e] tells
    whether the context has an error then.
    Library (cyclemanager), commit_logger.go:412-440. *)
Definition stop_result := option bool.
(** Library, commit_logger.go:412-440. *)
Definition after_stop (r : stop_result) (running : bool) : bool :=
  match r with None => false | Some _ => running end.

(** commit_logger.go:412-454, Shutdown. *)
Definition shutdown_log (rs rc : stop_result) (y : cycles) : stop_result * cycles :=
  let y1 := mkCyc (after_stop rs (y_switch y)) (after_stop rc (y_condense y)) (y_clean y) in
  match rs, rc with
  | Some e1, Some e2 => (Some (e1 || e2)%bool, y1)
  | Some e, None => (Some e, mkCyc (y_switch y1) true (y_clean y1))
  | None, Some e => (Some e, mkCyc true (y_condense y1) (y_clean y1))
  | None, None => (None, y1)
  end.

(** commit_logger.go:404-407. *)
Definition start_log (y : cycles) : cycles := mkCyc true true (y_clean y).

(** backup.go:30-72, PauseMaintenance.  The error of the log is replaced by the
    error of the context (36); errors.Wrap of no error is no error. *)
Definition pause (rs rc rt : stop_result) (y : cycles) : res unit * cycles :=
  let '(r, y) := shutdown_log rs rc y in
  let y := mkCyc (y_switch y) (y_condense y) (after_stop rt (y_clean y)) in
  let log_err := match r with Some true => true | _ => false end in
  let clean_err := match rt with Some _ => true | None => false end in
  if (log_err && clean_err)%bool then (Err EOther, y)
  else if log_err then (Err EOther, mkCyc (y_switch y) (y_condense y) true)
  else if clean_err then (Err EOther, start_log y)
  else (Ok tt, y).

(** backup.go:146-150, ResumeMaintenance. *)
Definition resume (y : cycles) : cycles := start_log (mkCyc (y_switch y) (y_condense y) true).
