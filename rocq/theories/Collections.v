(** Model of the collection requests: CreateCollection, DeleteCollection and
    GetCollections of the client (pkg/document/document.go:146-285) and their
    handlers (adapters/handlers/collections.go), on the pod that holds all
    collections.

    Simplifications.
    - fairOS-dfs is not in the repository.  Its calls are oracles that succeed or
      fail; a failing call changes nothing.  A successful DocCreate or
      CreateKVTable of a name that exists changes nothing (the AlreadyPresent
      errors, which the code ignores); DocDelete and DeleteKVTable remove the
      name with its content; DocList gives the indexes that DocCreate was given.
    - Which databases the session has open is not recorded: every call of
      CreateCollection ends with an open database or an error.
    - The two goroutines of DeleteCollection touch different stores, so their
      order is irrelevant.  The client's lock makes the calls sequential. *)
From Coq Require Import String Ascii DecimalString DecimalN.
From Verif Require Import Base F32 PQ Graph Search Insert InsertHist Persist Client.
Local Open Scope string_scope.

(** Go maps with string keys. *)
Section Assoc.
  Context {A : Type}.
  (** E.g. document.go:337. *)
  Fixpoint aget (k : string) (m : list (string * A)) : option A :=
    match m with
    | [] => None
    | (k', x) :: m' => if String.eqb k k' then Some x else aget k m'
    end.
  (** E.g. document.go:243. *)
  Definition adel (k : string) (m : list (string * A)) : list (string * A) :=
    filter (fun kx => negb (String.eqb k (fst kx))) m.
  (** E.g. document.go:205. *)
  Definition aset (k : string) (x : A) (m : list (string * A)) : list (string * A) := (k, x) :: adel k m.
End Assoc.

(** collection.IndexType of fairOS-dfs: the four types that the service can ask
    for (collections.go:22-29), and the others. *)
Inductive ity := IStr | INum | IMap | IList | IOther.
Definition imap := list (string * ity).

(** The content of a key-value table: nodes, "entrypoint", "count".
    insert.go:133, 147, 159. *)
Record kvtab := mkT { t_nodes : nmap vertex; t_ep : option N; t_count : option N }.

(** The pod and the client's map of indexes: document databases with their
    indexes and documents, key-value tables, the keys of [c.indices]
    (document.go:49). *)
Record pod := mkP {
  p_docs : list (string * (imap * list sdoc));
  p_kv : list (string * kvtab);
  p_idx : list string
}.

(** document.go:29,158,220 *)
Definition namespace : string := "fave_".
Definition namespaced (name : string) : string := namespace ++ name.

(** Answers while one collection is created: user logged in and pod open
    (document.go:150-155), DocCreate (168), CreateKVTable (173), DocOpen (178),
    OpenKVTable (183), hnsw.New (189). *)
Record corc := mkCO {
  co_session : bool; co_pod : bool;
  co_doccreate : bool; co_kvcreate : bool; co_docopen : bool; co_kvopen : bool; co_new : bool }.

(** document.go:168-171 *)
Definition doc_create (ns : string) (idx : imap) (p : pod) : pod :=
  match aget ns (p_docs p) with
  | Some _ => p
  | None => mkP (aset ns (idx, []) (p_docs p)) (p_kv p) (p_idx p)
  end.
(** document.go:173-176 *)
Definition kv_create (ns : string) (p : pod) : pod :=
  match aget ns (p_kv p) with
  | Some _ => p
  | None => mkP (p_docs p) (aset ns (mkT [] None None) (p_kv p)) (p_idx p)
  end.
(** document.go:204-206 *)
Definition register (ns : string) (p : pod) : pod :=
  mkP (p_docs p) (p_kv p) (ns :: remove string_dec ns (p_idx p)).

(** document.go:146-208 *)
Definition create_collection (w : corc) (name : string) (idx : imap) (p : pod) : pod * res unit :=
  if negb (co_session w && co_pod w) then (p, Err EOther)
  else
    let ns := namespaced name in
    if negb (co_doccreate w) then (p, Err EStore)
    else
      let p1 := doc_create ns (aset "hnswId" INum idx) p in
      if negb (co_kvcreate w) then (p1, Err EStore)
      else
        let p2 := kv_create ns p1 in
        if negb (co_docopen w && co_kvopen w && co_new w) then (p2, Err EStore)
        else (register ns p2, Ok tt).

(** Answers while one collection is deleted: logged in and pod open, DocDelete
    (document.go:226), DeleteKVTable (236). *)
Record xorc := mkXO { xo_session : bool; xo_pod : bool; xo_docdel : bool; xo_kvdel : bool }.

(** document.go:210-246: the errors of lines 226 and 236 are only logged. *)
Definition delete_collection (w : xorc) (name : string) (p : pod) : pod * res unit :=
  if negb (xo_session w && xo_pod w) then (p, Err EOther)
  else
    let ns := namespaced name in
    (mkP (if xo_docdel w then adel ns (p_docs p) else p_docs p)
         (if xo_kvdel w then adel ns (p_kv p) else p_kv p)
         (remove string_dec ns (p_idx p)), Ok tt).

(** strings.HasPrefix and strings.TrimPrefix. Library, document.go:264. *)
Definition has_prefix (pre s : string) : bool := prefix pre s.
(** Library, document.go:279. *)
Definition trim_prefix (pre s : string) : string :=
  if prefix pre s then substring (String.length pre) (String.length s - String.length pre) s else s.

(** document.go:248-285; [ok]: DocList succeeds. *)
Definition get_collections (session podopen ok : bool) (p : pod) : res (list (string * imap)) :=
  if negb (session && podopen) then Err EOther
  else if negb ok then Err EStore
  else Ok (map (fun d => (trim_prefix namespace (fst d), fst (snd d)))
               (filter (fun d => has_prefix namespace (fst d)) (p_docs p))).

(* ------------------------------------------------------------------ *)
(** The HTTP handlers. *)

(** collections.go:21-33.  [None]: rejected; [Some None]: accepted without an
    index; [Some (Some t)]: an index of type [t]. *)
Definition field_type (s : string) : option (option ity) :=
  if String.eqb s "string" then Some (Some IStr)
  else if String.eqb s "number" then Some (Some INum)
  else if String.eqb s "map" then Some (Some IMap)
  else if String.eqb s "list" then Some (Some IList)
  else if String.eqb s "bytes" then Some None
  else None.

(** collections.go:19-34: a nil element panics at line 21; [Err]: "Wrong index
    type". *)
Fixpoint index_map (l : list (option (string * string))) (m : imap) : res imap :=
  match l with
  | [] => Ok m
  | None :: _ => Panic
  | Some (f, t) :: l' =>
      match field_type t with
      | None => Err EOther
      | Some None => index_map l' m
      | Some (Some ty) => index_map l' (aset f ty m)
      end
  end.

(** models.Collection in a request body: [None] for absent or null indexes; an
    element is FieldName and FieldType, or null. models/collection.go:20-27. *)
Record cbody := mkB { b_name : string; b_indexes : option (list (option (string * string))) }.

(** collections.go:11-45 *)
Definition handle_create (w : corc) (b : cbody) (p : pod) : pod * response unit :=
  if String.eqb (b_name b) "" then (p, Bad400 EOther)
  else match b_indexes b with
       | None => (p, Bad400 EOther)
       | Some l =>
           match index_map l [] with
           | Err e => (p, Bad400 e)
           | Panic => (p, Crash)
           | OutOfFuel => (p, Diverge)
           | Ok m =>
               match create_collection w (b_name b) m p with
               | (p', Ok _) => (p', Ok200 tt)
               | (p', Err e) => (p', Bad400 e)
               | (p', Panic) => (p', Crash)
               | (p', OutOfFuel) => (p', Diverge)
               end
           end
       end.

(** collections.go:47-53 *)
Definition handle_delete (w : xorc) (name : string) (p : pod) : pod * response unit :=
  match delete_collection w name p with
  | (p', Ok _) => (p', Ok200 tt)
  | (p', Err e) => (p', Bad400 e)
  | (p', Panic) => (p', Crash)
  | (p', OutOfFuel) => (p', Diverge)
  end.

(** collections.go:66-88 *)
Definition type_name (t : ity) : option string :=
  match t with
  | IStr => Some "string" | INum => Some "number" | IMap => Some "map" | IList => Some "list"
  | IOther => None
  end.
Fixpoint index_list (m : imap) : list (string * string) :=
  match m with
  | [] => []
  | (f, t) :: m' => match type_name t with
                    | Some s => (f, s) :: index_list m'
                    | None => index_list m'
                    end
  end.
(** collections.go:55-92; the order of a Go map is arbitrary, here it is that of
    the list. *)
Definition handle_list (session podopen ok : bool) (p : pod)
  : response (list (string * list (string * string))) :=
  match get_collections session podopen ok p with
  | Ok l => Ok200 (map (fun c => (fst c, index_list (snd c))) l)
  | Err e => Bad400 e
  | Panic => Crash
  | OutOfFuel => Diverge
  end.

(* ------------------------------------------------------------------ *)
(** Histories.  [PForeign]: another program that shares the pod creates a
    document database.  [PUse]: a request on an existing collection leaves these
    documents and this table behind ([Client]).  [PRestart]: a new process.
    adapters/handlers/collections.go:11-90. *)
Inductive preq :=
| PCreate (w : corc) (b : cbody)
| PDelete (w : xorc) (name : string)
| PForeign (name : string) (idx : imap)
| PUse (name : string) (ds : list sdoc) (t : kvtab)
| PRestart.

(** Not in the code: one request. *)
Definition pod_step (p : pod) (q : preq) : pod * response unit :=
  match q with
  | PCreate w b => handle_create w b p
  | PDelete w name => handle_delete w name p
  | PForeign name idx => (doc_create name idx p, Ok200 tt)
  | PUse name ds t =>
      match aget (namespaced name) (p_docs p), aget (namespaced name) (p_kv p) with
      | Some (idx, _), Some _ =>
          (mkP (aset (namespaced name) (idx, ds) (p_docs p)) (aset (namespaced name) t (p_kv p)) (p_idx p), Ok200 tt)
      | _, _ => (p, Bad400 EStore)
      end
  | PRestart => (mkP (p_docs p) (p_kv p) [], Ok200 tt)
  end.

(** Not in the code: requests one after the other. *)
Fixpoint run_pod (p : pod) (qs : list preq) : pod :=
  match qs with
  | [] => p
  | q :: qs' => run_pod (fst (pod_step p q)) qs'
  end.

(** Not in the code: an empty pod. *)
Definition new_pod : pod := mkP [] [] [].

(** The collection as [Client] sees it, right after CreateCollection registered
    a fresh index over its table (index.go:213-290). *)
Definition coll_of (p : pod) (name : string) : option coll :=
  let ns := namespaced name in
  match aget ns (p_docs p), aget ns (p_kv p) with
  | Some (_, ds), Some t =>
      Some (mkC (mkH [] (t_nodes t) (t_ep t) (t_count t) 0 0 [] false)
                (if in_dec string_dec ns (p_idx p) then true else false) true ds [])
  | _, _ => None
  end.

(* ------------------------------------------------------------------ *)
(** The key of the document cache: fmt.Sprintf("%s/%s/%d", c.pod,
    namespacedCollection, id) (document.go:163, 305, 381, 391, 424, 472, 574).
    %d of a uint64 prints decimal digits, "0" for zero. *)
Definition decimal (n : N) : string := NilZero.string_of_uint (N.to_uint n).
Definition cache_key (podname name : string) (id : N) : string :=
  podname ++ "/" ++ namespaced name ++ "/" ++ decimal id.
