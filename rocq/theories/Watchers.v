(** The background goroutines of an index and the calls that end them.

    Each of the two caches of an index has a goroutine that clears it from time
    to time (vector_cache.go:218-231, compressed_vector_cache.go:185-198) and that
    ends when it receives from the cache's channel.  The channel has no buffer
    (vector_cache.go:56, compressed_vector_cache.go:47): the sender waits until the
    goroutine receives.

    Simplifications.
    - A goroutine that clears its cache is not modelled; it comes back to its
      select.  The shard locks it takes are in Locks.v (C65 has the deadlock of a
      clearing goroutine with drop), here they are always free.
    - Of the other locks only compressActionLock is kept: it is the one that is
      held while drop waits.
    - Whatever else a call does succeeds or fails by the choice of the schedule. *)
From Coq Require Import String.
From Verif Require Import Base Client Collections.

(** What a goroutine still has to do: the operations of the functions below on
    compressActionLock (index.go:155), on h.compressed (index.go:152) and on the
    channels.  [PLockW]: Lock has announced itself and waits (library).
    [PChoice]: an error return or not. *)
Inductive prog :=
| PDone
| PRLock (k : prog)
| PRUnlock (k : prog)
| PLock (k : prog)
| PLockW (k : prog)
| PUnlock (k : prog)
| PSetComp (k : prog)          (* h.compressed.Store(true), compress.go:107 *)
| PIfComp (a b : prog)         (* h.compressed.Load() *)
| PStopVec (k : prog)          (* vector_cache.go:201 *)
| PStopCodes (k : prog)        (* compressed_vector_cache.go:170 *)
| PChoice (a b : prog)
| PGo (p k : prog).            (* go func *)

(** Add (insert.go:76-77), SearchByVector (search.go:71-72) and Delete
    (delete.go:32-33). *)
Definition reader_p : prog := PRLock (PRUnlock PDone).
(** compress.go:40-110; errors at lines 41-82 and 103-105. *)
Definition compress_p : prog :=
  PChoice PDone (PLock (PChoice (PUnlock PDone) (PSetComp (PStopVec (PUnlock PDone))))).
(** config_update.go:79-128; [pq]: parsed.PQ.Enabled.  Errors at lines 80-84 and
    102-111. *)
Definition update_p (pq : bool) : prog :=
  PChoice PDone (PIfComp PDone (if pq then PChoice PDone (PGo compress_p PDone) else PDone)).
(** index.go:625-655, Drop; an error at lines 631-638.  What happens to the commit
    log afterwards uses neither channels nor the lock. *)
Definition drop_p : prog := PChoice PDone (PIfComp (PStopCodes PDone) (PStopVec PDone)).
(** index.go:657-676, Shutdown; errors at lines 658-664. *)
Definition shutdown_p : prog := PChoice PDone (PIfComp (PStopCodes PDone) (PStopVec PDone)).

(** Calls of methods of an index (index.go:38, [hnsw]).  The interface the client has
    (index.go:184-192) offers only the first kind. *)
Inductive icall := IRead | IUpdate (pq : bool) | ICompress | IDrop | IShutdown.
(** The functions above. compress.go:40, config_update.go:79, index.go:625, 657. *)
Definition call_p (c : icall) : prog :=
  match c with
  | IRead => reader_p
  | IUpdate pq => update_p pq
  | ICompress => compress_p
  | IDrop => drop_p
  | IShutdown => shutdown_p
  end.

(** An index and the goroutines that run calls on it: h.compressed, whether the
    goroutines of the two caches run, the readers of compressActionLock, whether
    it is locked (index.go:151-155, vector_cache.go:32,
    compressed_vector_cache.go:30). *)
Record ist := mkI {
  i_comp : bool; i_vec : bool; i_codes : bool;
  i_rd : nat; i_wr : bool;
  i_thr : list prog
}.
(** index.go:213-290: a new index, and the calls made on it. *)
Definition new_index (cs : list icall) : ist := mkI false true true 0 false (map call_p cs).

(** Not in the code: a goroutine that waits in Lock (sync.RWMutex, library). *)
Definition waiting (p : prog) : bool := match p with PLockW _ => true | _ => false end.

(** One step of goroutine [g]; [None] if it is finished or blocked.  RLock waits for
    a writer that holds the lock or waits for it, Lock announces itself and waits
    for everybody; a send waits for the goroutine of the cache, which then ends.
    Lines at the constructors of [prog]. *)
Definition istep (w : ist) (g : nat) (b : bool) : option ist :=
  match nth_error (i_thr w) g with
  | None => None
  | Some p =>
      let go k := upd (i_thr w) g k in
      match p with
      | PDone => None
      | PRLock k =>
          if i_wr w || existsb waiting (i_thr w) then None
          else Some (mkI (i_comp w) (i_vec w) (i_codes w) (S (i_rd w)) (i_wr w) (go k))
      | PRUnlock k => Some (mkI (i_comp w) (i_vec w) (i_codes w) (pred (i_rd w)) (i_wr w) (go k))
      | PLock k => Some (mkI (i_comp w) (i_vec w) (i_codes w) (i_rd w) (i_wr w) (go (PLockW k)))
      | PLockW k =>
          if i_wr w || negb (Nat.eqb (i_rd w) 0) then None
          else Some (mkI (i_comp w) (i_vec w) (i_codes w) (i_rd w) true (go k))
      | PUnlock k => Some (mkI (i_comp w) (i_vec w) (i_codes w) (i_rd w) false (go k))
      | PSetComp k => Some (mkI true (i_vec w) (i_codes w) (i_rd w) (i_wr w) (go k))
      | PIfComp a b' => Some (mkI (i_comp w) (i_vec w) (i_codes w) (i_rd w) (i_wr w) (go (if i_comp w then a else b')))
      | PStopVec k =>
          if i_vec w then Some (mkI (i_comp w) false (i_codes w) (i_rd w) (i_wr w) (go k)) else None
      | PStopCodes k =>
          if i_codes w then Some (mkI (i_comp w) (i_vec w) false (i_rd w) (i_wr w) (go k)) else None
      | PChoice a b' => Some (mkI (i_comp w) (i_vec w) (i_codes w) (i_rd w) (i_wr w) (go (if b then b' else a)))
      | PGo q k => Some (mkI (i_comp w) (i_vec w) (i_codes w) (i_rd w) (i_wr w) (go k ++ [q]))
      end
  end.

(** Not in the code: a schedule; who cannot step is passed over. *)
Fixpoint irun (w : ist) (sched : list (nat * bool)) : ist :=
  match sched with
  | [] => w
  | (g, b) :: sched' => irun (match istep w g b with Some w' => w' | None => w end) sched'
  end.
(** Not in the code: used in statements.  [returned]: every call has returned;
    [blocked]: no goroutine can ever step again; [left_running]: background goroutines. *)
Definition returned (w : ist) : Prop := forall p, In p (i_thr w) -> p = PDone.
Definition blocked (w : ist) : Prop := forall g b, istep w g b = None.
Definition left_running (w : ist) : nat := (if i_vec w then 1 else 0) + (if i_codes w then 1 else 0).

(* ------------------------------------------------------------------ *)
(** The process: its pod and the background goroutines of all indexes it has made.
    hnsw.New starts two (index.go:232-235); the client ends none (document.go:210-246
    calls neither Drop nor Shutdown). *)
Record proc := mkPr { pr_pod : pod; pr_bg : nat }.

(** [WPod]: see Collections.v.  [WOpen]: a request on a collection whose document
    database is not open makes an index (document.go:303-334, 470-501, 572-603). *)
Inductive wreq := WPod (q : preq) | WOpen (name : string).

(** One request: document.go:189 calls hnsw.New if all calls before it succeed. *)
Definition proc_step (s : proc) (q : wreq) : proc :=
  match q with
  | WPod q =>
      let (p, r) := pod_step (pr_pod s) q in
      mkPr p (match q, r with
              | PRestart, _ => 0
              | PCreate _ _, Ok200 _ => 2 + pr_bg s
              | _, _ => pr_bg s
              end)
  | WOpen name => mkPr (register (namespaced name) (pr_pod s)) (2 + pr_bg s)
  end.
(** Not in the code: requests one after the other. *)
Definition run_proc (s : proc) (qs : list wreq) : proc := fold_left proc_step qs s.
