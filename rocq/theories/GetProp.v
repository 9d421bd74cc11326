(** Reading a document by any of its properties.

    [Client.get_document] is the case of the property "id".  Here the expression that
    the client hands to the document store is kept as text, and the store's DocFind
    (fairOS-dfs, library) is an arbitrary function of the expression and the stored
    documents; [None]: an error. *)
From Coq Require Import String Ascii.
From Verif Require Import Base F32 JsonNum PQ Graph Search Insert InsertHist Persist Client Collections Handlers Bind.
Local Open Scope string_scope.

(** document.go:666-669 *)
Definition find_expr (property value : string) : string :=
  if negb (String.eqb property "") && negb (String.eqb value "") then property ++ "=" ++ value else "".

(** document.go:653-678; [F]: DocFind with limit 1. *)
Definition get_by (R : rorc) (F : string -> list sdoc -> option (list sdoc)) (property value : string) (st : coll)
  : coll * res sdoc :=
  if negb (r_isopen R) then (st, Err EStore)
  else if negb (c_open st) && negb (r_docopen R) then (st, Err EStore)
  else
    let st1 := mkC (c_h st) (c_reg st) true (c_docs st) (c_log st) in
    match F (find_expr property value) (c_docs st) with
    | None => (st1, Err EStore)
    | Some [] => (st1, Err EDocNotFound)
    | Some (d :: _) => (st1, Ok d)
    end.

(** documents.go:120-142 *)
Definition handle_get_by (R : rorc) (F : string -> list sdoc -> option (list sdoc)) (name property value : string)
  (st : coll) : coll * response rdoc :=
  if String.eqb name "" then (st, Bad400 EOther)
  else
    match get_by R F property value st with
    | (st', Ok d) =>
        (st', match reread_props (stored_props d) with
              | None => Bad400 EMarshal
              | Some r => Ok200 (mkRD (id_of r) (rdel "vector" (rdel "id" r)))
              end)
    | (st', Err e) => (st', Bad400 e)
    | (st', Panic) => (st', Crash)
    | (st', OutOfFuel) => (st', Diverge)
    end.

(** documents.go:120-142 behind fave_get_documents_parameters.go:52-77; a request the
    parameters of which do not bind is answered with 422 (here [Bad400], as in Bind.v). *)
Definition serve_get_by (R : rorc) (F : string -> list sdoc -> option (list sdoc)) (qs : list (string * string))
  (st : coll) : coll * response rdoc :=
  match bind_get qs with
  | None => (st, Bad400 EOther)
  | Some (c, p, v) => handle_get_by R F c p v st
  end.
