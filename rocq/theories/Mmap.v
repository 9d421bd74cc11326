(** Model of the mapped condensor (pkg/hnsw/condensor_mmap.go,
    condensor_mmap_analyzer.go, condensor_mmap_reader.go), which lays a commit log
    out in a file with one region for each node.  Nothing in the service calls it.

    Simplifications: ids and levels are [N] (uint64, uint16 where read), sizes and
    offsets do not overflow an int64; creating, seeking and unmapping files
    succeed; output of spew is left out. *)
From Verif Require Import Base CommitLog.

(** condensor_mmap_analyzer.go:53-57 *)
Record mnode := mkMN { mn_id : N; mn_offset : N; mn_level : N }.

(** sort.Search (standard library; called at condensor_mmap_analyzer.go:30): binary
    search for the first index of which [f] holds. *)
Fixpoint search_loop (fuel : nat) (f : nat -> bool) (i j : nat) : option nat :=
  match fuel with
  | O => None
  | S fuel =>
      if Nat.ltb i j then
        let h := Nat.div2 (i + j) in
        if f h then search_loop fuel f i h else search_loop fuel f (S h) j
      else Some i
  end.
Definition sort_search (n : nat) (f : nat -> bool) : option nat := search_loop (S n) f 0 n.

(** condensor_mmap_analyzer.go:29-48, UpsertNodeMaxLevel.  A node that is inserted
    takes over the offset at its place, which is still 0 for all. *)
Definition upsert (nodes : list mnode) (id level : N) : res (list mnode) :=
  match sort_search (length nodes)
          (fun a => match nth_error nodes a with Some x => (id <=? mn_id x)%N | None => false end) with
  | None => OutOfFuel
  | Some n =>
      match nth_error nodes n with
      | Some x =>
          if N.eqb (mn_id x) id then
            Ok (firstn n nodes ++ mkMN id (mn_offset x) (if (mn_level x <? level)%N then level else mn_level x)
                  :: skipn (S n) nodes)
          else Ok (firstn n nodes ++ mkMN id (mn_offset x) level :: skipn n nodes)
      | None => Ok (firstn n nodes ++ [mkMN id 0 level])
      end
  end.

(** condensor_mmap_analyzer.go:50-51, DeleteNode: empty. *)
Definition delete_node (nodes : list mnode) (id : N) : list mnode := nodes.

(** condensor_mmap_analyzer.go:59-62, Size; [n.maxLevel+1] is a uint16. *)
Definition node_size (conns : N) (n : mnode) : N :=
  (mn_level n * 2 + conns * u16 (mn_level n + 1))%N.

(** io.CopyN to io.Discard (condensor_mmap_analyzer.go:148, 165, 193, 202, 208, 214):
    io.EOF if there is less. *)
Definition discard (k : nat) : rd unit :=
  fun bs => if Nat.leb k (length bs) then inl (tt, skipn k bs) else inr REOF.

(** Outcome of one record. condensor_mmap_analyzer.go:89-128. *)
Inductive mstep := MOk (nodes : list mnode) (rest : list N) | MErr (nodes : list mnode) (e : rerr) | MFuel.
(** Not in the code: assigning to the mapped file. *)
Definition mput (r : res (list mnode)) (k : list mnode -> mstep) : mstep :=
  match r with Ok ns => k ns | _ => MFuel end.

(** condensor_mmap_analyzer.go:131-144, ReadNode *)
Definition m_node (ns : list mnode) (bs : list N) : mstep :=
  match rd_id_level bs with
  | inr e => MErr ns e
  | inl ((id, l), bs) => mput (upsert ns id l) (fun ns => MOk ns bs)
  end.
(** condensor_mmap_analyzer.go:152-171, ReadLink: the node counts after the target
    was skipped. *)
Definition m_link (ns : list mnode) (bs : list N) : mstep :=
  match (rd! x <- rd_id_level; rd! _ <- discard 8; rret x) bs with
  | inr e => MErr ns e
  | inl ((id, l), bs) => mput (upsert ns id l) (fun ns => MOk ns bs)
  end.
(** condensor_mmap_analyzer.go:173-198, ReadLinks: the node counts before. *)
Definition m_links (ns : list mnode) (bs : list N) : mstep :=
  match (rd! x <- rd_id_level; rd! n <- read_u16; rret (x, n)) bs with
  | inr e => MErr ns e
  | inl (((id, l), n), bs) =>
      mput (upsert ns id l) (fun ns =>
        match discard (8 * N.to_nat n) bs with inl (_, bs) => MOk ns bs | inr e => MErr ns e end)
  end.
(** condensor_mmap_analyzer.go:146-150, 200-216: records that are skipped. *)
Definition m_skip (k : nat) (ns : list mnode) (bs : list N) : mstep :=
  match discard k bs with inl (_, bs) => MOk ns bs | inr e => MErr ns e end.
(** condensor_mmap_analyzer.go:218-226, ReadDeleteNode *)
Definition m_delete (ns : list mnode) (bs : list N) : mstep :=
  match read_u64 bs with inr e => MErr ns e | inl (id, bs) => MOk (delete_node ns id) bs end.

(** condensor_mmap_analyzer.go:100-121: one record after its type. *)
Definition mstep_of (ct : N) (ns : list mnode) (bs : list N) : mstep :=
  if N.eqb ct ct_add_node then m_node ns bs
  else if N.eqb ct ct_set_ep then m_skip 10 ns bs
  else if N.eqb ct ct_add_link then m_link ns bs
  else if N.eqb ct ct_replace_links then m_links ns bs
  else if N.eqb ct ct_add_tomb then m_skip 8 ns bs
  else if N.eqb ct ct_remove_tomb then m_skip 8 ns bs
  else if N.eqb ct ct_clear_links then m_skip 8 ns bs
  else if N.eqb ct ct_delete_node then m_delete ns bs
  else if N.eqb ct ct_reset then MOk [] bs
  else MErr ns RBadType.

(** condensor_mmap_analyzer.go:89-129, loop; every round takes the type byte. *)
Fixpoint analyze_loop (fuel : nat) (ns : list mnode) (bs : list N) : mstep :=
  match fuel with
  | O => MFuel
  | S fuel =>
      match bs with
      | [] => MOk ns []
      | ct :: bs =>
          match mstep_of ct ns bs with
          | MOk ns bs => analyze_loop fuel ns bs
          | r => r
          end
      end
  end.
(** condensor_mmap_analyzer.go:74-87, Do *)
Definition analyze (bs : list N) : mstep := analyze_loop (S (length bs)) [] bs.

(** condensor_mmap.go:68-78, calculateOffsets; [at] is the end of the node before.
    The first keeps its offset, which is 0. *)
Fixpoint offsets_from (conns at_ : N) (ns : list mnode) : list mnode :=
  match ns with
  | [] => []
  | n :: ns => let n' := mkMN (mn_id n) at_ (mn_level n) in
               n' :: offsets_from conns (at_ + node_size conns n')%N ns
  end.
Definition calculate_offsets (conns : N) (ns : list mnode) : list mnode :=
  match ns with
  | [] => []
  | n :: ns => n :: offsets_from conns (mn_offset n + node_size conns n)%N ns
  end.

(** condensor_mmap.go:82-89, Size; [None] is -1. *)
Definition index_size (conns : N) (ns : list mnode) : option N :=
  match rev ns with
  | [] => None
  | n :: _ => Some (mn_offset n + node_size conns n)%N
  end.

(** condensor_mmap_reader.go:31-74, Do: the bytes of the scratch file.  A negative
    size fails in Truncate, an empty mapping in Mmap; the loop that should fill the
    file does nothing. *)
Definition read_mmap (conns : N) (ns : list mnode) : res (list N) :=
  match index_size conns ns with
  | None => Err EOther
  | Some n => if N.eqb n 0 then Err EOther else Ok (repeat 0%N (N.to_nat n))
  end.

(** condensor_mmap.go:30-56, Do *)
Definition condense_mmap (conns : N) (bs : list N) : res (list mnode * list N) :=
  match analyze bs with
  | MFuel => OutOfFuel
  | MErr _ _ => Err EOther
  | MOk ns _ =>
      let ns := calculate_offsets conns ns in
      match read_mmap conns ns with Ok f => Ok (ns, f) | Err e => Err e | Panic => Panic | OutOfFuel => OutOfFuel end
  end.
