(** Model of one collection as the client and the HTTP handlers use it:
    AddDocuments, GetNearDocuments, GetNearDocumentsByVector, GetDocument
    (pkg/document/document.go:287-678) and the document handlers
    (adapters/handlers/documents.go).

    Simplifications.
    - The dependency fairOS-dfs is not in the repository; its calls are oracles
      that succeed or fail.  A successful DocPut stores the document under its
      "id" property, replacing one that has the same id (the id is the primary
      key of the document store); DocFind gives a stored document that matches.
    - The document cache (document.go:45,163) is the vector source of the index;
      as in [Insert] its answers are arbitrary, so it is not part of the state.
    - The body decoder is left out: a request body is a value of [jval], numbers
      are their text (JsonNum.v).
    - Requests on one collection run one after the other, except in [two_adds].
    - fmt.Println and metrics are left out; of the log only the errors of skipped
      documents are kept. *)
From Coq Require Import String Ascii.
From Verif Require Import Base F32 JsonNum PQ Graph Search Insert InsertHist Persist.
Local Open Scope string_scope.

(** Go values inside a decoded body: encoding/json with UseNumber gives nil,
    bool, json.Number, string, []interface{}, map[string]interface{};
    [JVec] is a []float32, which only Go callers can pass (document.go:384).
    [JNum s]: the text of the number literal. *)
Inductive jval :=
| JNull
| JBool (b : bool)
| JNum (s : string)
| JStr (s : string)
| JArr (l : list jval)
| JObj (l : list (string * jval))
| JVec (v : list f32).

(** document.go:58. *)
Definition props := list (string * jval).

(** Go map access: [None] is a missing key. document.go:349-402. *)
Fixpoint pget (k : string) (p : props) : option jval :=
  match p with
  | [] => None
  | (k', x) :: p' => if String.eqb k k' then Some x else pget k p'
  end.
(** documents.go:67-68. *)
Definition pdel (k : string) (p : props) : props :=
  filter (fun kx => negb (String.eqb k (fst kx))) p.
(** document.go:346-350, 418, 428. *)
Definition pset (k : string) (x : jval) (p : props) : props := (k, x) :: pdel k p.

(** document.Document (document.go:56-59); [None] is a nil pointer. *)
Record docin := mkDoc { di_id : string; di_props : props }.

(** A stored document: its id, its "hnswId" property, its other properties.
    [sd_vec] is not stored by the code; it remembers the vector under which the
    document was indexed, to state what pairing means. document.go:56-59, 418-438. *)
Record sdoc := mkSD { sd_id : string; sd_hnsw : Z; sd_props : props; sd_vec : option vec }.

(** One collection: its index with the key-value table inside, whether the
    client's [indices] map holds the index (document.go:337), whether the
    session has the document database open (document.go:299), the documents,
    and the errors that AddDocuments wrote to the log (document.go:378, 388, 414,
    421, 434), newest first. *)
Record coll := mkC {
  c_h : hnsw; c_reg : bool; c_open : bool; c_docs : list sdoc; c_log : list err }.

(** Not in the code: replaces the index, document.go:42. *)
Definition with_h (st : coll) (h : hnsw) : coll :=
  mkC h (c_reg st) (c_open st) (c_docs st) (c_log st).
(** c.logger.Errorf, document.go:378-440. *)
Definition logged (st : coll) (e : err) : coll :=
  mkC (c_h st) (c_reg st) (c_open st) (c_docs st) (e :: c_log st).

(** fairOS-dfs DocPut: the id is the primary key. Library, called at document.go:438. *)
Definition put_doc (d : sdoc) (ds : list sdoc) : list sdoc :=
  d :: filter (fun x => negb (String.eqb (sd_id d) (sd_id x))) ds.

(** Answers of the outside world while one document is added: the insertion's
    oracles and layer, the vectoriser (document.go:412; [Ok None] is the nil
    vector that rest/vectorizer.go:59-61 returns without an error), json.Marshal
    (432) and DocPut (438). *)
Record dorc := mkD {
  do_env : ienv;
  do_lvl : nat;
  do_corpi : string -> res (option vec);
  do_marshal : bool;
  do_docput : bool
}.

(** document.go:354-374: the elements of a []interface{}. *)
Fixpoint vector_of (l : list jval) : option vec :=
  match l with
  | [] => Some []
  | JNum s :: l' =>
      match f32_of_num s, vector_of l' with
      | Some x, Some v => Some (x :: v)
      | _, _ => None
      end
  | _ => None
  end.

(** document.go:400-406: [dt.(string)] panics if the property is not a string. *)
Fixpoint vector_text (p : props) (keys : list string) : res string :=
  match keys with
  | [] => Ok ""
  | k :: keys' =>
      match pget k p with
      | None => vector_text p keys'
      | Some (JStr s) => do! r <- vector_text p keys'; Ok (s ++ " " ++ r)
      | Some _ => Panic
      end
  end.

(** document.go:432-442.  [Ok]: on to the next document; [Err]: AddDocuments
    returns. *)
Definition store_doc (o : dorc) (st : coll) (d : sdoc) : coll * res unit :=
  if negb (do_marshal o) then (logged st EMarshal, Ok tt)
  else if do_docput o then (mkC (c_h st) (c_reg st) (c_open st) (put_doc d (c_docs st)) (c_log st), Ok tt)
  else (st, Err EStore).

(** document.go:375-383, 385-393, 418-426, then 432-442: index the vector, then
    store the document.  A failing Add is logged and the document skipped. *)
Definition add_indexed (o : dorc) (st : coll) (indexId : N) (d : docin) (p : props) (v : vec)
  : coll * N * res unit :=
  match add (do_env o) (c_h st) indexId v (do_lvl o) with
  | (h', Ok _) =>
      let (st', r) := store_doc o (with_h st h') (mkSD (di_id d) (Z.of_N indexId) p (Some v)) in
      (st', N.succ indexId, r)
  | (h', Err e) => (logged (with_h st h') e, indexId, Ok tt)
  | (h', Panic) => (with_h st h', indexId, Panic)
  | (h', OutOfFuel) => (with_h st h', indexId, OutOfFuel)
  end.

(** document.go:345-444: one round of the loop.  [lookup]: a vectoriser is
    configured. *)
Definition add_doc (lookup : bool) (keys : list string) (st : coll) (indexId : N)
  (d : option docin) (o : dorc) : coll * N * res unit :=
  match d with
  | None => (st, indexId, Panic)
  | Some d =>
      let p := pset "id" (JStr (di_id d)) (di_props d) in
      match pget "vector" p with
      | Some (JArr l) =>
          match vector_of l with
          | None => (st, indexId, Err EVecFormat)
          | Some v => add_indexed o st indexId d (pdel "vector" p) v
          end
      | Some (JVec v) => add_indexed o st indexId d (pdel "vector" p) v
      | Some (JBool _) | Some (JNum _) | Some (JStr _) | Some (JObj _) =>
          (st, indexId, Err EVecFormat)
      | Some JNull | None =>
          match vector_text p keys with
          | Ok text =>
              if String.eqb text "" then
                let (st', r) := store_doc o st (mkSD (di_id d) (-1) p None) in (st', indexId, r)
              else if negb lookup then (st, indexId, Err ENoVectorizer)
              else match do_corpi o text with
                   | Ok (Some v) => add_indexed o st indexId d p v
                   | Ok None => (st, indexId, Panic)
                   | Err _ => (logged st EVectorizer, indexId, Ok tt)
                   | Panic => (st, indexId, Panic)
                   | OutOfFuel => (st, indexId, OutOfFuel)
                   end
          | Err e => (st, indexId, Err e)
          | Panic => (st, indexId, Panic)
          | OutOfFuel => (st, indexId, OutOfFuel)
          end
      end
  end.

(** document.go:345-444 *)
Fixpoint add_loop (lookup : bool) (keys : list string) (st : coll) (indexId : N)
  (docs : list (option docin * dorc)) : coll * N * res unit :=
  match docs with
  | [] => (st, indexId, Ok tt)
  | (d, o) :: docs' =>
      match add_doc lookup keys st indexId d o with
      | (st', indexId', Ok _) => add_loop lookup keys st' indexId' docs'
      | r => r
      end
  end.

(** Answers of the outside world to one request: KVCount or OpenKVTable
    succeeds (document.go:292-298), IsDBOpened succeeds (299), DocOpen succeeds
    (330); indexCache.Keys() at the time of Flush and the number of successful
    puts (445); CommitPodFeeds succeeds (449). *)
Record rorc := mkR {
  r_kvopen : bool;
  r_isopen : bool;
  r_docopen : bool;
  r_keys : hnsw -> list N;
  r_puts : nat;
  r_commit : bool
}.

(** document.go:291-334, 458-501, 560-603: a closed collection gets a new index,
    then the document database is opened. *)
Definition open_coll (R : rorc) (st : coll) : coll * res unit :=
  if negb (r_kvopen R) then (st, Err EStore)
  else if negb (r_isopen R) then (st, Err EStore)
  else if c_open st then (st, Ok tt)
  else
    let h := restart (c_h st) in
    if r_docopen R then (mkC h true true (c_docs st) (c_log st), Ok tt)
    else (mkC h true false (c_docs st) (c_log st), Err EStore).

(** document.go:339-344 *)
Definition first_id (h : hnsw) : N := match doc_count h with Some n => n | None => 0 end.

(** document.go:445-453 *)
Definition finish_add (R : rorc) (st : coll) (indexId : N) : coll * res unit :=
  match flush (c_h st) (r_keys R (c_h st)) indexId (r_puts R) with
  | (h', Ok _) => (with_h st h', if r_commit R then Ok tt else Err EStore)
  | (h', Err e) => (with_h st h', Err e)
  | (h', Panic) => (with_h st h', Panic)
  | (h', OutOfFuel) => (with_h st h', OutOfFuel)
  end.

(** document.go:287-454.  Without a registered index, line 339 calls a method of
    a nil interface. *)
Definition add_documents (R : rorc) (lookup : bool) (keys : list string)
  (docs : list (option docin * dorc)) (st : coll) : coll * res unit :=
  match open_coll R st with
  | (st1, Ok _) =>
      if negb (c_reg st1) then (st1, Panic)
      else
        match add_loop lookup keys st1 (first_id (c_h st1)) docs with
        | (st2, indexId, Ok _) => finish_add R st2 indexId
        | (st2, _, r) => (st2, r)
        end
  | r => r
  end.

(* ------------------------------------------------------------------ *)
(** Nearest documents. *)

(** document.go:520-523, 616-619: slicing with a negative bound panics. *)
Definition cut_limit (limit : Z) (out : list N * list f32) : res (list N * list f32) :=
  if negb (Z.eqb limit 0) && Z.ltb limit (Z.of_nat (length (fst out))) then
    if Z.ltb limit 0 then Panic
    else Ok (firstn (Z.to_nat limit) (fst out), firstn (Z.to_nat limit) (snd out))
  else Ok out.

(** document.go:524-548, 621-644: one goroutine per id; [order] is the order in
    which they finish.  A goroutine writes its own slot or sends one error. *)
Fixpoint run_fetch (find : nat -> N -> res sdoc) (ids : list N) (order : list nat)
  (slots : list (option sdoc)) (errs : list err) : list (option sdoc) * list err :=
  match order with
  | [] => (slots, errs)
  | i :: order' =>
      match nth_error ids i with
      | None => run_fetch find ids order' slots errs
      | Some id =>
          match find i id with
          | Ok d => run_fetch find ids order' (upd slots i (Some d)) errs
          | Err e => run_fetch find ids order' slots (errs ++ [e])
          | _ => run_fetch find ids order' slots (errs ++ [EOther])
          end
      end
  end.

(** document.go:550-554, 646-650: the channel is closed once all goroutines are
    done; the first error received is returned. *)
Definition fetch_docs (find : nat -> N -> res sdoc) (ids : list N) (order : list nat)
  : res (list (option sdoc)) :=
  match run_fetch find ids order (repeat None (length ids)) [] with
  | (_, e :: _) => Err e
  | (slots, []) => Ok slots
  end.

(** DocFind("hnswId=<id>", 1) (document.go:531-542): [ok i = false] if the call
    of goroutine [i] fails; among several matching documents [pick] decides. *)
Definition matching (ds : list sdoc) (id : N) : list sdoc :=
  filter (fun d => Z.eqb (sd_hnsw d) (Z.of_N id)) ds.
Definition doc_find (ok : nat -> bool) (pick : nat -> nat) (ds : list sdoc) (i : nat) (id : N)
  : res sdoc :=
  if negb (ok i) then Err EStore
  else match matching ds id with
       | [] => Err EDocNotFound
       | d :: l => Ok (nth (pick i) (d :: l) d)
       end.

(** Oracles of one nearest request: those of opening, the search environment,
    the fetches. Not in the code: what document.go:456-650 is answered. *)
Record qorc := mkQ {
  q_open : rorc;
  q_env : env;
  q_order : list nat;
  q_ok : nat -> bool;
  q_pick : nat -> nat
}.

(** document.go:512-554, 608-650 *)
Definition near_docs (Q : qorc) (st : coll) (q : vec) (maxd : f32) (ef limit : Z)
  : coll * res (list (option sdoc) * list f32) :=
  if negb (c_reg st) then (st, Panic)
  else
    let st1 := with_h st (load_ep (c_h st)) in
    (st1,
     do! out <- knn_max_dist (q_env Q) (c_h st1) q maxd ef None;
     do! out' <- cut_limit limit out;
     do! docs <- fetch_docs (doc_find (q_ok Q) (q_pick Q) (c_docs st1)) (fst out') (q_order Q);
     Ok (docs, snd out')).

(** document.go:557-651 *)
Definition near_by_vector (Q : qorc) (st : coll) (q : vec) (maxd : f32) (limit : Z)
  : coll * res (list (option sdoc) * list f32) :=
  match open_coll (q_open Q) st with
  | (st1, Ok _) => near_docs Q st1 q maxd 800 limit
  | (st1, Err e) => (st1, Err e)
  | (st1, Panic) => (st1, Panic)
  | (st1, OutOfFuel) => (st1, OutOfFuel)
  end.

(** document.go:456-555; [corpi] is the vectoriser's answer for the query text,
    [lookup] whether one is configured. *)
Definition near_by_text (Q : qorc) (lookup : bool) (corpi : res (option vec)) (st : coll)
  (maxd : f32) (limit : Z) : coll * res (list (option sdoc) * list f32) :=
  match open_coll (q_open Q) st with
  | (st1, Ok _) =>
      if negb lookup then (st1, Err ENoVectorizer)
      else match corpi with
           | Ok (Some q) => near_docs Q st1 q maxd limit limit
           | Ok None => (if c_reg st1 then with_h st1 (load_ep (c_h st1)) else st1, Panic)
           | Err e => (st1, Err e)
           | Panic => (st1, Panic)
           | OutOfFuel => (st1, OutOfFuel)
           end
  | (st1, Err e) => (st1, Err e)
  | (st1, Panic) => (st1, Panic)
  | (st1, OutOfFuel) => (st1, OutOfFuel)
  end.

(** document.go:653-678, for the "id" property: the database is opened without
    registering an index. *)
Definition get_document (R : rorc) (find_ok : bool) (id : string) (st : coll) : coll * res sdoc :=
  if negb (r_isopen R) then (st, Err EStore)
  else if negb (c_open st) && negb (r_docopen R) then (st, Err EStore)
  else
    let st1 := mkC (c_h st) (c_reg st) true (c_docs st) (c_log st) in
    if negb find_ok then (st1, Err EStore)
    else match find (fun d => String.eqb id (sd_id d)) (c_docs st) with
         | Some d => (st1, Ok d)
         | None => (st1, Err EDocNotFound)
         end.

(** document.go:146-208 on a collection that exists: the tables are kept
    (AlreadyPresent and AlreadyOpened are ignored), a fresh index is registered. *)
Definition recreate (st : coll) : coll := mkC (restart (c_h st)) true true (c_docs st) (c_log st).

(** The first CreateCollection. document.go:146-208. *)
Definition new_coll : coll := mkC empty_index true true [] [].

(** A new process: no index registered, no database open (document.go:61-97). *)
Definition restart_coll (st : coll) : coll := mkC (restart (c_h st)) false false (c_docs st) (c_log st).

(* ------------------------------------------------------------------ *)
(** Histories of requests on one collection.  A process that dies inside a
    request is a request that fails at that point, followed by [QRestart].
    Requests, adapters/handlers/documents.go:13-141. *)
Inductive creq :=
| QAdd (R : rorc) (lookup : bool) (keys : list string) (docs : list (option docin * dorc))
| QVec (Q : qorc) (q : vec) (maxd : f32) (limit : Z)
| QText (Q : qorc) (lookup : bool) (corpi : res (option vec)) (maxd : f32) (limit : Z)
| QGet (R : rorc) (find_ok : bool) (id : string)
| QCreate
| QRestart.

(** Not in the code: one request, document.go:287-678. *)
Definition req_step (st : coll) (q : creq) : coll :=
  match q with
  | QAdd R lookup keys docs => fst (add_documents R lookup keys docs st)
  | QVec Q v d l => fst (near_by_vector Q st v d l)
  | QText Q lk c d l => fst (near_by_text Q lk c st d l)
  | QGet R ok id => fst (get_document R ok id st)
  | QCreate => recreate st
  | QRestart => restart_coll st
  end.

(** Not in the code: requests one after the other. *)
Fixpoint run_reqs (st : coll) (qs : list creq) : coll :=
  match qs with
  | [] => st
  | q :: qs' => run_reqs (req_step st q) qs'
  end.

(** Two AddDocuments calls at the same time (net/http serves each request in
    its own goroutine; the client takes no lock around lines 339-445): both read
    the count, then their documents alternate as [sched] says ([true]: the first
    one), then both flush. *)
Fixpoint two_loops (keys : list string) (sched : list bool) (st : coll) (i j : N)
  (a b : list (option docin * dorc)) : coll * N * N :=
  match sched with
  | [] => (st, i, j)
  | true :: sched' =>
      match a with
      | [] => two_loops keys sched' st i j a b
      | (d, o) :: a' =>
          match add_doc true keys st i d o with
          | (st', i', _) => two_loops keys sched' st' i' j a' b
          end
      end
  | false :: sched' =>
      match b with
      | [] => two_loops keys sched' st i j a b
      | (d, o) :: b' =>
          match add_doc true keys st j d o with
          | (st', j', _) => two_loops keys sched' st' i j' a b'
          end
      end
  end.
Definition two_adds (R1 R2 : rorc) (keys : list string) (sched : list bool)
  (a b : list (option docin * dorc)) (st : coll) : coll * res unit * res unit :=
  let c := first_id (c_h st) in
  match two_loops keys sched st c c a b with
  | (st1, i, j) =>
      let (st2, r1) := finish_add R1 st1 i in
      let (st3, r2) := finish_add R2 st2 j in (st3, r1, r2)
  end.

(* ------------------------------------------------------------------ *)
(** The HTTP handlers. *)

(** models.Document in a request body; [None] is a JSON null. models/document.go:20-28. *)
Record rawdoc := mkRaw { rd_id : string; rd_props : jval }.

(** What the caller of the API sees: a 200 with the message or payload, a 400, or
    nothing (the handler panicked; net/http closes the connection).
    adapters/handlers/documents.go:13-141. *)
Inductive response (A : Type) :=
| Ok200 (a : A)
| Bad400 (e : err)
| Crash
| Diverge.
Arguments Ok200 {A} a.
Arguments Bad400 {A} e.
Arguments Crash {A}.
Arguments Diverge {A}.

(** documents.go:26-36: a document whose properties are no object stays nil; a
    null document panics. *)
Fixpoint raw_docs (l : list (option rawdoc)) : option (list (option docin)) :=
  match l with
  | [] => Some []
  | None :: _ => None
  | Some r :: l' =>
      match raw_docs l' with
      | None => None
      | Some ds =>
          Some (match rd_props r with JObj p => Some (mkDoc (rd_id r) p) | _ => None end :: ds)
      end
  end.

(** documents.go:13-42; the payload is the number in "Added %d documents".
    [orcs] are the oracles of the documents, one each. *)
Definition handle_add (R : rorc) (lookup : bool) (orcs : list dorc)
  (name : string) (docs : option (list (option rawdoc))) (keys : option (list string))
  (st : coll) : coll * response nat :=
  if String.eqb name "" then (st, Bad400 EOther)
  else match docs, keys with
       | None, _ => (st, Bad400 EOther)
       | _, None => (st, Bad400 EOther)
       | Some rs, Some ks =>
           match raw_docs rs with
           | None => (st, Crash)
           | Some ds =>
               match add_documents R lookup ks (combine ds orcs) st with
               | (st', Ok _) => (st', Ok200 (length ds))
               | (st', Err e) => (st', Bad400 e)
               | (st', Panic) => (st', Crash)
               | (st', OutOfFuel) => (st', Diverge)
               end
           end
       end.
