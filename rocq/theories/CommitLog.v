(** The commit log: record format, deserializer and condensor
    (pkg/hnsw/deserializer.go, condensor.go, maintainance.go, commit_logger.go).

    Bytes are [N] (below 256 where it matters); a file is the list of its bytes.
    Simplified: a [nil] slot of the Nodes slice is an absent key, so [ls_nodes]
    holds the non-nil slots and [ls_len] the length of the slice; floats of the
    product quantizer are kept as their bits; the ssdhelpers values built from
    them are not interpreted; log output is left out; reading a file does not
    fail half way for other reasons than its end; allocation succeeds up to the
    limit of [max_slots]. *)
From Verif Require Import Base.

(** ** Little-endian numbers *)

(** binary.LittleEndian.PutUint16/PutUint64 (condensor.go:114-157, 189-199):
    [k] bytes, low byte first. *)
Fixpoint le_enc (k : nat) (x : N) : list N :=
  match k with
  | O => []
  | S k => (x mod 256)%N :: le_enc k (x / 256)%N
  end.

(** binary.LittleEndian.Uint16/32/64 (deserializer.go:247-249, 573-647). *)
Fixpoint le_dec (bs : list N) : N :=
  match bs with
  | [] => 0%N
  | b :: bs => (b + 256 * le_dec bs)%N
  end.

(** A conversion to uint16 in Go. E.g. deserializer.go:655-664. *)
Definition u16 (x : N) : N := (x mod 65536)%N.

(** ** Errors of reading. deserializer.go:86-100, 565-640. *)
Inductive rerr :=
| REOF              (* io.EOF *)
| RUnexpectedEOF    (* io.ErrUnexpectedEOF *)
| RBadType          (* "unrecognized commit type", deserializer.go:147 *)
| RBadEncoder.      (* "Unsuported encoder type", deserializer.go:551 *)

(** A reading step: a value and the rest of the input, or an error.
    Not in the code: a Read function, deserializer.go:160-560. *)
Definition rd (A : Type) := list N -> (A * list N) + rerr.

(** Not in the code: see [rd]. *)
Definition rret {A} (a : A) : rd A := fun bs => inl (a, bs).
(** Not in the code: [if err != nil { return }], deserializer.go:160-560. *)
Definition rbind {A B} (m : rd A) (f : A -> rd B) : rd B :=
  fun bs => match m bs with inl (a, bs) => f a bs | inr e => inr e end.

Notation "'rd!' x '<-' r ';' k" := (rbind r (fun x => k))
  (at level 200, x name, r at level 100, k at level 200).

(** io.ReadFull: EOF when nothing could be read at all, ErrUnexpectedEOF when
    the input ends inside (standard library; called at deserializer.go:242, 291,
    568, 581, 595, 609, 621, 631, 641). *)
Definition read_full (k : nat) : rd (list N) :=
  fun bs =>
    if Nat.leb k (length bs) then inl (firstn k bs, skipn k bs)
    else match bs with [] => inr REOF | _ => inr RUnexpectedEOF end.

(** deserializer.go:565-576, 606-617, 619-627, 578-604: readUint64, readUint16,
    readByte, readFloat64 and readFloat32 (as bits). *)
Definition read_u64 : rd N := rd! b <- read_full 8; rret (le_dec b).
Definition read_u16 : rd N := rd! b <- read_full 2; rret (le_dec b).
Definition read_byte : rd N := rd! b <- read_full 1; rret (le_dec b).
Definition read_f64 : rd N := read_u64.
Definition read_f32 : rd N := rd! b <- read_full 4; rret (le_dec b).

(** Cutting bytes into 8-byte numbers (deserializer.go:646-648). *)
Fixpoint words (k : nat) (bs : list N) : list N :=
  match k with
  | O => []
  | S k => le_dec (firstn 8 bs) :: words k (skipn 8 bs)
  end.

(** deserializer.go:638-652, readUint64Slice. *)
Definition read_u64s (k : nat) : rd (list N) :=
  rd! b <- read_full (8 * k); rret (words k b).

(** ** The state built by the deserializer *)

(** vertex.go:18-27: id, level, connections per level. *)
Record lvert := mkLvert { lv_id : N; lv_level : N; lv_conns : list (list N) }.

(** ssdhelpers.PQData with raw encoders (deserializer.go:536-543). *)
Inductive pqenc :=
| PTile (fs : list N) (segment dist : N)
| PKMeans (centers : list (list N)).

(** deserializer.go:510-563 (ssdhelpers.PQData). *)
Record pqdata := mkPq {
  pq_dims : N; pq_enc : N; pq_ks : N; pq_m : N; pq_dist : N; pq_bits : bool;
  pq_encoders : list pqenc
}.

(** deserializer.go:31-48, DeserializationResult.  [ls_replaced] is the set of
    (node, level) pairs of LinksReplaced; the zero PQData is [None]. *)
Record lstate := mkLs {
  ls_len : N;
  ls_nodes : nmap lvert;
  ls_ep : N;
  ls_level : N;
  ls_tomb : list N;
  ls_epch : bool;
  ls_pq : option pqdata;
  ls_comp : bool;
  ls_replaced : list (N * N)
}.

(** maintainance.go:21-23. *)
Definition initial_size : N := 25000.
Definition growth_delta : N := 25000.

(** The fresh state of deserializer.go:85-91. *)
Definition ls_init : lstate := mkLs initial_size [] 0 0 [] false None false [].

(** Updates of single fields of the DeserializationResult, deserializer.go:31-48. *)
Definition with_nodes (st : lstate) (len : N) (m : nmap lvert) : lstate :=
  mkLs len m (ls_ep st) (ls_level st) (ls_tomb st) (ls_epch st) (ls_pq st) (ls_comp st)
       (ls_replaced st).

(** Field update, deserializer.go:31-48. *)
Definition with_ep (st : lstate) (ep level : N) (ch : bool) : lstate :=
  mkLs (ls_len st) (ls_nodes st) ep level (ls_tomb st) ch (ls_pq st) (ls_comp st)
       (ls_replaced st).

(** Field update, deserializer.go:31-48. *)
Definition with_tomb (st : lstate) (t : list N) : lstate :=
  mkLs (ls_len st) (ls_nodes st) (ls_ep st) (ls_level st) t (ls_epch st) (ls_pq st)
       (ls_comp st) (ls_replaced st).

(** Field update, deserializer.go:31-48. *)
Definition with_pq (st : lstate) (pq : option pqdata) (c : bool) : lstate :=
  mkLs (ls_len st) (ls_nodes st) (ls_ep st) (ls_level st) (ls_tomb st) (ls_epch st) pq c
       (ls_replaced st).

(** Field update, deserializer.go:31-48. *)
Definition with_replaced (st : lstate) (r : list (N * N)) : lstate :=
  mkLs (ls_len st) (ls_nodes st) (ls_ep st) (ls_level st) (ls_tomb st) (ls_epch st) (ls_pq st)
       (ls_comp st) r.

(** The largest slice of 8-byte pointers Go can make (2^48 bytes of address
    space on linux/amd64); [make] panics beyond.  Exhausting memory before that
    is not modelled. Library; deserializer.go:176-183. *)
Definition max_slots : N := 2 ^ 45.

(** maintainance.go:68-106, growIndexToAccomodateNode: the new length of the
    slice.  The float product of line 84 is the exact quarter, cut to an
    integer, for lengths below 2^51; the sum of line 93 wraps at 2^64. *)
Definition grow_len (len id : N) : res N :=
  if (id <? len)%N then Ok len
  else
    let n1 := if (len <? 4 * growth_delta)%N then (len + growth_delta)%N
              else (len + len / 4)%N in
    let n := if (n1 <=? id)%N then ((id + growth_delta) mod 2 ^ 64)%N else n1 in
    if (max_slots <? n)%N then Panic
    else if (id <? n)%N then Ok n
    else Panic.    (* indexing the grown slice, deserializer.go:178 etc. *)

(** maybeGrowConnectionsForLevel, deserializer.go:655-663.  The new length is
    computed in uint16. *)
Definition maybe_grow (conns : list (list N)) (level : N) : list (list N) :=
  if (N.of_nat (length conns) <=? level)%N then
    let sz := N.to_nat (u16 (level + 1)) in
    firstn sz (conns ++ repeat [] (sz - length conns))
  else conns.

(** make([][]uint64, level+1), again in uint16. deserializer.go:655-664. *)
Definition fresh_conns (level : N) : list (list N) :=
  repeat [] (N.to_nat (u16 (level + 1))).

(** conns[level] = f conns[level]; an index out of range panics. deserializer.go:225-235. *)
Definition at_level (conns : list (list N)) (level : N) (f : list N -> list N)
  : res (list (list N)) :=
  match nth_error conns (N.to_nat level) with
  | None => Panic
  | Some l => Ok (upd conns (N.to_nat level) (f l))
  end.

(** Set insertion for the replace marks (deserializer.go:50-58, 274-282). *)
Definition pair_mem (p : N * N) (l : list (N * N)) : bool :=
  existsb (fun q => (fst p =? fst q)%N && (snd p =? snd q)%N) l.

(** deserializer.go:262-284. *)
Definition mark (id level : N) (st : lstate) : lstate :=
  with_replaced st ((id, level) :: ls_replaced st).

(** ** Effects of the records: the second halves of the Read functions *)

(** deserializer.go:171-186, ReadNode after its two fields. *)
Definition do_node (id level : N) (st : lstate) : res lstate :=
  do! n <- grow_len (ls_len st) id;
  let v := match mget id (ls_nodes st) with
           | None => mkLvert id level (fresh_conns level)
           | Some v => mkLvert (lv_id v) level (maybe_grow (lv_conns v) level)
           end in
  Ok (with_nodes st n (mset id v (ls_nodes st))).

(** deserializer.go:219-235, 254-272, 303-321: find or make the node, grow its
    connections, change the list of the level. *)
Definition do_conns (id level : N) (f : list N -> list N) (st : lstate) : res lstate :=
  do! n <- grow_len (ls_len st) id;
  let v := match mget id (ls_nodes st) with
           | None => mkLvert id 0 (fresh_conns level)
           | Some v => v
           end in
  do! c <- at_level (maybe_grow (lv_conns v) level) level f;
  Ok (with_nodes st n (mset id (mkLvert (lv_id v) (lv_level v) c) (ls_nodes st))).

(** deserializer.go:203-236, ReadLink. *)
Definition do_link (id level target : N) (st : lstate) : res lstate :=
  do_conns id level (fun l => l ++ [target]) st.

(** deserializer.go:287-324, ReadAddLinks. *)
Definition do_add_links (id level : N) (ts : list N) (st : lstate) : res lstate :=
  do_conns id level (fun l => l ++ ts) st.

(** deserializer.go:238-285, ReadLinks. *)
Definition do_replace_links (keep : bool) (id level : N) (ts : list N) (st : lstate)
  : res lstate :=
  do! st <- do_conns id level (fun _ => ts) st;
  Ok (if keep then mark id level st else st).

(** deserializer.go:326-346, tombstones. *)
Definition do_add_tomb (id : N) (st : lstate) : lstate :=
  with_tomb st (if memN id (ls_tomb st) then ls_tomb st else id :: ls_tomb st).
Definition do_remove_tomb (id : N) (st : lstate) : lstate :=
  with_tomb st (filter (fun x => negb (N.eqb x id)) (ls_tomb st)).

(** [int(id) >= len(nodes)] (deserializer.go:356, 384, 442): an id of 2^63 or more
    becomes negative, passes the test and the index panics. *)
Definition beyond (id : N) (st : lstate) : bool :=
  (id <? 2 ^ 63)%N && (ls_len st <=? id)%N.
Definition index_panics (id : N) (st : lstate) : bool := (ls_len st <=? id)%N.

(** deserializer.go:356-367, ReadClearLinks. *)
Definition do_clear_links (id : N) (st : lstate) : res lstate :=
  if beyond id st then Ok st
  else if index_panics id st then Panic
  else match mget id (ls_nodes st) with
       | None => Ok st
       | Some v =>
           Ok (with_nodes st (ls_len st)
                 (mset id (mkLvert (lv_id v) (lv_level v) (map (fun _ => []) (lv_conns v)))
                       (ls_nodes st)))
       end.

(** deserializer.go:384-433, ReadClearLinksAtLevel.  The Connections are never
    nil here (line 416): every vertex of this file is made with a slice. *)
Definition do_clear_links_at (keep : bool) (id level : N) (st : lstate) : res lstate :=
  if beyond id st then Ok st
  else
    let st := if keep then mark id level st else st in
    if index_panics id st then Panic
    else
      match mget id (ls_nodes st), keep with
      | None, false => Ok st
      | v, _ =>
          let v := match v with
                   | None => mkLvert id 0 (fresh_conns level)
                   | Some v => v
                   end in
          do! c <- at_level (maybe_grow (lv_conns v) level) level (fun _ => []);
          let st := with_nodes st (ls_len st)
                      (mset id (mkLvert (lv_id v) (lv_level v) c) (ls_nodes st)) in
          Ok (if keep then mark id level st else st)
      end.

(** deserializer.go:442-448, ReadDeleteNode. *)
Definition do_delete (id : N) (st : lstate) : res lstate :=
  if beyond id st then Ok st
  else if index_panics id st then Panic
  else Ok (with_nodes st (ls_len st) (mdel id (ls_nodes st))).

(** deserializer.go:139-142, the ResetIndex case. *)
Definition do_reset (st : lstate) : lstate :=
  with_nodes (with_ep st 0 0 (ls_epch st)) initial_size [].

(** ** The records *)

(** Result of one record: the new state with the rest of the input and the
    length counted for it, an error with the state it leaves, or a panic.
    deserializer.go:86-157. *)
Inductive rstep :=
| StOk (st : lstate) (rest : list N) (counted : nat)
| StErr (st : lstate) (e : rerr)
| StPanic.

(** Read fields, then apply. deserializer.go:160-450. *)
Definition step_with {A} (st : lstate) (r : rd A) (f : A -> res lstate)
    (counted : A -> nat) (bs : list N) : rstep :=
  match r bs with
  | inr e => StErr st e
  | inl (a, rest) =>
      match f a with
      | Ok st => StOk st rest (counted a)
      | _ => StPanic
      end
  end.

(** deserializer.go:160-170 and 189-201: id and level. *)
Definition rd_id_level : rd (N * N) :=
  rd! id <- read_u64; rd! level <- read_u16; rret (id, level).

(** deserializer.go:203-217. *)
Definition rd_link : rd (N * N * N) :=
  rd! id <- read_u64; rd! level <- read_u16; rd! t <- read_u64; rret (id, level, t).

(** deserializer.go:240-252, 289-301: a 12-byte header and the targets. *)
Definition rd_links : rd (N * N * list N) :=
  rd! h <- read_full 12;
  let id := le_dec (firstn 8 h) in
  let level := le_dec (firstn 2 (skipn 8 h)) in
  let len := le_dec (skipn 10 h) in
  rd! ts <- read_u64s (N.to_nat len);
  rret (id, level, ts).

(** deserializer.go:451-485, ReadTileEncoder; 487-508, ReadKMeansEncoder. *)
Fixpoint rd_many {A} (k : nat) (r : rd A) : rd (list A) :=
  match k with
  | O => rret []
  | S k => rd! x <- r; rd! xs <- rd_many k r; rret (x :: xs)
  end.

(** deserializer.go:451-485. *)
Definition rd_tile : rd pqenc :=
  rd! fs <- rd_many 6 read_f64; rd! seg <- read_u16; rd! d <- read_byte;
  rret (PTile fs seg d).

(** deserializer.go:487-508. *)
Definition rd_kmeans (dims ks m : N) : rd pqenc :=
  rd! cs <- rd_many (N.to_nat ks) (rd_many (N.to_nat (dims / m)) read_f32);
  rret (PKMeans cs).

(** ssdhelpers.UseTileEncoder and UseKMeansEncoder (a dependency, values 0 and
    1; only their difference matters here). deserializer.go:540-556. *)
Definition use_tile : N := 0.
(** deserializer.go:540-556. *)
Definition use_kmeans : N := 1.

(** The header of ReadPQ, deserializer.go:511-543. *)
Definition rd_pq_header : rd pqdata :=
  rd! dims <- read_u16; rd! enc <- read_byte; rd! ks <- read_u16; rd! m <- read_u16;
  rd! dist <- read_byte; rd! bits <- read_byte;
  rret (mkPq dims enc ks m dist (negb (N.eqb bits 0)) []).

(** deserializer.go:540-556. *)
Definition add_encoder (pq : pqdata) (x : pqenc) : pqdata :=
  mkPq (pq_dims pq) (pq_enc pq) (pq_ks pq) (pq_m pq) (pq_dist pq) (pq_bits pq)
       (pq_encoders pq ++ [x]).

(** deserializer.go:553-559: encoders are appended to the state one by one, so an
    error leaves the ones read so far. *)
Fixpoint pq_encoders_loop (k : nat) (r : rd pqenc) (pq : pqdata) (bs : list N)
  : pqdata * (list N + rerr) :=
  match k with
  | O => (pq, inl bs)
  | S k =>
      match r bs with
      | inr e => (pq, inr e)
      | inl (x, bs) => pq_encoders_loop k r (add_encoder pq x) bs
      end
  end.

(** deserializer.go:510-563, ReadPQ; the caller counts 9 bytes whatever the
    encoders took (line 145). *)
Definition step_pq (st : lstate) (bs : list N) : rstep :=
  match rd_pq_header bs with
  | inr e => StErr st e
  | inl (pq, bs) =>
      let st := with_pq st (Some pq) (ls_comp st) in
      let go r :=
        match pq_encoders_loop (N.to_nat (pq_m pq)) r pq bs with
        | (pq, inr e) => StErr (with_pq st (Some pq) (ls_comp st)) e
        | (pq, inl bs) => StOk (with_pq st (Some pq) true) bs 9
        end in
      if N.eqb (pq_enc pq) use_tile then go rd_tile
      else if N.eqb (pq_enc pq) use_kmeans
           then go (rd_kmeans (pq_dims pq) (pq_ks pq) (pq_m pq))
      else StErr st RBadEncoder
  end.

(** The commit types, commit_logger.go:275-288. *)
Definition ct_add_node : N := 0.
Definition ct_set_ep : N := 1.
Definition ct_add_link : N := 2.
Definition ct_replace_links : N := 3.
Definition ct_add_tomb : N := 4.
Definition ct_remove_tomb : N := 5.
Definition ct_clear_links : N := 6.
Definition ct_delete_node : N := 7.
Definition ct_reset : N := 8.
Definition ct_clear_links_at : N := 9.
Definition ct_add_links : N := 10.
Definition ct_add_pq : N := 11.

(** deserializer.go:105-148: one record after its type byte.  In the entry point
    case the fields of the state are set before the error is looked at: a failed
    read leaves entry point 0 on level 0. *)
Definition step (keep : bool) (ct : N) (st : lstate) (bs : list N) : rstep :=
  if N.eqb ct ct_add_node then
    step_with st rd_id_level (fun '(id, l) => do_node id l st) (fun _ => 10) bs
  else if N.eqb ct ct_set_ep then
    match rd_id_level bs with
    | inr e => StErr (with_ep st 0 0 true) e
    | inl ((id, l), rest) => StOk (with_ep st id l true) rest 10
    end
  else if N.eqb ct ct_add_link then
    step_with st rd_link (fun '(id, l, t) => do_link id l t st) (fun _ => 18) bs
  else if N.eqb ct ct_add_links then
    step_with st rd_links (fun '(id, l, ts) => do_add_links id l ts st)
              (fun '(_, _, ts) => 12 + 8 * length ts) bs
  else if N.eqb ct ct_replace_links then
    step_with st rd_links (fun '(id, l, ts) => do_replace_links keep id l ts st)
              (fun '(_, _, ts) => 12 + 8 * length ts) bs
  else if N.eqb ct ct_add_tomb then
    step_with st read_u64 (fun id => Ok (do_add_tomb id st)) (fun _ => 8) bs
  else if N.eqb ct ct_remove_tomb then
    step_with st read_u64 (fun id => Ok (do_remove_tomb id st)) (fun _ => 8) bs
  else if N.eqb ct ct_clear_links then
    step_with st read_u64 (fun id => do_clear_links id st) (fun _ => 8) bs
  else if N.eqb ct ct_clear_links_at then
    step_with st rd_id_level (fun '(id, l) => do_clear_links_at keep id l st) (fun _ => 10) bs
  else if N.eqb ct ct_delete_node then
    step_with st read_u64 (fun id => do_delete id st) (fun _ => 8) bs
  else if N.eqb ct ct_reset then StOk (do_reset st) bs 0
  else if N.eqb ct ct_add_pq then step_pq st bs
  else StErr st RBadType.

(** Outcome of Deserializer.Do: state, valid length and error. deserializer.go:80-82. *)
Inductive dres :=
| DDone (st : lstate) (valid : nat)
| DErr (st : lstate) (valid : nat) (e : rerr)
| DPanic
| DFuel.

(** deserializer.go:80-158, Do.  The end of the input where a type byte should
    be is the normal end. *)
Fixpoint do_loop (fuel : nat) (keep : bool) (st : lstate) (valid : nat) (bs : list N) : dres :=
  match fuel with
  | O => DFuel
  | S fuel =>
      match bs with
      | [] => DDone st valid
      | ct :: bs =>
          match step keep ct st bs with
          | StPanic => DPanic
          | StErr st e => DErr st valid e
          | StOk st bs n => do_loop fuel keep st (valid + (1 + n)) bs
          end
      end
  end.

(** Every round takes at least the type byte. deserializer.go:80-158. *)
Definition deserialize (keep : bool) (st : lstate) (bs : list N) : dres :=
  do_loop (S (length bs)) keep st 0 bs.

(** ** Operations and their encoding *)

(** The operations of the CommitLogger interface (index.go:162-182) and the
    record types above. *)
Inductive lop :=
| LNode (id level : N)
| LSetEp (id level : N)
| LLink (id level target : N)
| LReplace (id level : N) (ts : list N)
| LAddTomb (id : N)
| LRemoveTomb (id : N)
| LClear (id : N)
| LDelete (id : N)
| LReset
| LClearAt (id level : N)
| LAddLinks (id level : N) (ts : list N)
| LPq (pq : pqdata).

(** Encoders of the product quantizer, as ReadTileEncoder and ReadKMeansEncoder
    expect them. deserializer.go:451-508. *)
Definition enc_pqenc (x : pqenc) : list N :=
  match x with
  | PTile fs seg d => flat_map (le_enc 8) fs ++ le_enc 2 seg ++ le_enc 1 d
  | PKMeans cs => flat_map (flat_map (le_enc 4)) cs
  end.

(** The bytes of a record.  AddNode, SetEntryPointMaxLevel, AddLinkAtLevel,
    ReplaceLinksAtLevel, AddLinksAtLevel and AddTombstone as the condensor writes
    them (condensor.go:159-229: AddNode 159-166, SetLinksAtLevel 168-187 with the
    cut to 65535 targets, AddLinksAtLevel 189-202 without one, AddLinkAtLevel
    204-212, SetEntryPointWithMaxLayer 214-221, AddTombstone 223-229).  The other
    kinds are written by the commitlog dependency only, which is not in the
    repository; their layout here is the one the deserializer expects. *)
Definition encode (o : lop) : list N :=
  match o with
  | LNode id l => [ct_add_node] ++ le_enc 8 id ++ le_enc 2 l
  | LSetEp id l => [ct_set_ep] ++ le_enc 8 id ++ le_enc 2 l
  | LLink id l t => [ct_add_link] ++ le_enc 8 id ++ le_enc 2 l ++ le_enc 8 t
  | LReplace id l ts =>
      let n := Nat.min (length ts) (N.to_nat 65535) in
      [ct_replace_links] ++ le_enc 8 id ++ le_enc 2 l ++ le_enc 2 (N.of_nat n)
      ++ flat_map (le_enc 8) (firstn n ts)
  | LAddTomb id => [ct_add_tomb] ++ le_enc 8 id
  | LRemoveTomb id => [ct_remove_tomb] ++ le_enc 8 id
  | LClear id => [ct_clear_links] ++ le_enc 8 id
  | LDelete id => [ct_delete_node] ++ le_enc 8 id
  | LReset => [ct_reset]
  | LClearAt id l => [ct_clear_links_at] ++ le_enc 8 id ++ le_enc 2 l
  | LAddLinks id l ts =>
      [ct_add_links] ++ le_enc 8 id ++ le_enc 2 l ++ le_enc 2 (N.of_nat (length ts))
      ++ flat_map (le_enc 8) ts
  | LPq pq =>
      [ct_add_pq] ++ le_enc 2 (pq_dims pq) ++ le_enc 1 (pq_enc pq) ++ le_enc 2 (pq_ks pq)
      ++ le_enc 2 (pq_m pq) ++ le_enc 1 (pq_dist pq) ++ [if pq_bits pq then 1%N else 0%N]
      ++ flat_map enc_pqenc (pq_encoders pq)
  end.

(** Not in the code: the bytes of several operations (commit_logger.go:324-402). *)
Definition encode_all (os : list lop) : list N := flat_map encode os.

(** The effect of an operation on the state (independent of the bytes): the
    second halves above. deserializer.go:160-450. *)
Definition apply_op (keep : bool) (o : lop) (st : lstate) : res lstate :=
  match o with
  | LNode id l => do_node id l st
  | LSetEp id l => Ok (with_ep st id l true)
  | LLink id l t => do_link id l t st
  | LReplace id l ts => do_replace_links keep id l ts st
  | LAddTomb id => Ok (do_add_tomb id st)
  | LRemoveTomb id => Ok (do_remove_tomb id st)
  | LClear id => do_clear_links id st
  | LDelete id => do_delete id st
  | LReset => Ok (do_reset st)
  | LClearAt id l => do_clear_links_at keep id l st
  | LAddLinks id l ts => do_add_links id l ts st
  | LPq pq => Ok (with_pq st (Some pq) true)
  end.

(** Not in the code: operations one after the other. *)
Fixpoint apply_all (keep : bool) (os : list lop) (st : lstate) : res lstate :=
  match os with
  | [] => Ok st
  | o :: os => do! st <- apply_op keep o st; apply_all keep os st
  end.

(** ** The condensor *)

(** Nodes in the order of the slice (condensor.go:55): ascending ids. *)
Fixpoint insert_node (k : N) (v : lvert) (l : list (N * lvert)) : list (N * lvert) :=
  match l with
  | [] => [(k, v)]
  | (k', v') :: t => if (k <=? k')%N then (k, v) :: l else (k', v') :: insert_node k v t
  end.

(** The order in which condensor.go:55 visits res.Nodes. *)
Definition in_order (m : nmap lvert) : list (N * lvert) :=
  fold_right (fun kv acc => insert_node (fst kv) (snd kv) acc) [] m.

(** condensor.go:70-82: the lists of links, level by level; [i] is the level.
    The level is converted to uint16 for the lookup and in both writers. *)
Fixpoint links_ops (rep : list (N * N)) (id : N) (i : nat) (conns : list (list N))
  : list lop :=
  match conns with
  | [] => []
  | l :: conns =>
      let lv := u16 (N.of_nat i) in
      (if pair_mem (id, lv) rep then LReplace id lv l else LAddLinks id lv l)
      :: links_ops rep id (S i) conns
  end.

(** condensor.go:61-82, one node. *)
Definition node_ops (rep : list (N * N)) (v : lvert) : list lop :=
  (if (0 <? lv_level v)%N then [LNode (lv_id v) (u16 (lv_level v))] else [])
  ++ links_ops rep (lv_id v) 0 (lv_conns v).

(** condensor.go:55-97: all records written.  The tombstones come in the order
    [ts] of the map iteration. *)
Definition condensed_ops (st : lstate) (ts : list N) : list lop :=
  flat_map (fun kv => node_ops (ls_replaced st) (snd kv)) (in_order (ls_nodes st))
  ++ (if ls_epch st then [LSetEp (ls_ep st) (u16 (ls_level st))] else [])
  ++ map LAddTomb ts.

(** condensor.go:32-112, Do: what is appended to the ".condensed" file, [None]
    when the log cannot be read to its end.  The tombstone order comes from the
    oracle [ord]. *)
Definition condense (ord : list N -> list N) (bs : list N) : option (list N) :=
  match deserialize true ls_init bs with
  | DDone st _ => Some (encode_all (condensed_ops st (ord (ls_tomb st))))
  | _ => None
  end.
