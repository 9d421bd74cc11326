(** Model of the responses of the document handlers: nearest documents by text
    and by vector, and get document (adapters/handlers/documents.go:44-142).

    Simplifications.
    - A response body is a value, not its text.  The id of a response is not
      checked to be a UUID, nor is it by the code.
    - Status codes: the code answers a failed get request with the 400 response of
      another operation (documents.go:126-132); here it is a 400.
    - GetDocument is modelled for the property "id" ([Client]). *)
From Coq Require Import String.
From Verif Require Import Base F32 JsonNum PQ Graph Search Insert InsertHist Persist Client.
Local Open Scope string_scope.

(** What encoding/json makes of a stored document: numbers are float64
    (documents.go:60, 100, 130).  [RDist]: a distance, a float32. *)
Inductive rval :=
| RNull
| RBool (b : bool)
| RNum (x : f64)
| RStr (s : string)
| RArr (l : list rval)
| RObj (l : list (string * rval))
| RDist (x : f32).

(** documents.go:59. *)
Definition rprops := list (string * rval).

(** Go map access and delete. documents.go:65. *)
Fixpoint rget (k : string) (p : rprops) : option rval :=
  match p with
  | [] => None
  | (k', x) :: p' => if String.eqb k k' then Some x else rget k p'
  end.
(** documents.go:67-68. *)
Definition rdel (k : string) (p : rprops) : rprops :=
  filter (fun kx => negb (String.eqb k (fst kx))) p.

(** json.Marshal (document.go:432) followed by json.Unmarshal (documents.go:60):
    a number keeps its text in the store and is read as a float64; [None] is the
    error for a number beyond its range.  A []float32 cannot come from a request
    body; it is left out. *)
Fixpoint reread (j : jval) : option rval :=
  match j with
  | JNull => Some RNull
  | JBool b => Some (RBool b)
  | JNum s => match f64_of_num s with Some x => Some (RNum x) | None => None end
  | JStr s => Some (RStr s)
  | JArr l =>
      match (fix go (l : list jval) : option (list rval) :=
               match l with
               | [] => Some []
               | x :: l' => match reread x, go l' with
                            | Some y, Some r => Some (y :: r)
                            | _, _ => None
                            end
               end) l with
      | Some r => Some (RArr r)
      | None => None
      end
  | JObj l =>
      match (fix go (l : list (string * jval)) : option rprops :=
               match l with
               | [] => Some []
               | (k, x) :: l' => match reread x, go l' with
                                 | Some y, Some r => Some ((k, y) :: r)
                                 | _, _ => None
                                 end
               end) l with
      | Some r => Some (RObj r)
      | None => None
      end
  | JVec _ => None
  end.

(** The properties of a stored document as the store returns them: "hnswId" is
    the index id (document.go:350, 418, 428; "-1" without one). *)
Definition stored_props (d : sdoc) : props := pset "hnswId" (JNum (int_text (sd_hnsw d))) (sd_props d).

(** documents.go:59-63: the properties of one document, or the error. *)
Fixpoint reread_props (p : props) : option rprops :=
  match p with
  | [] => Some []
  | (k, x) :: p' => match reread x, reread_props p' with
                    | Some y, Some r => Some ((k, y) :: r)
                    | _, _ => None
                    end
  end.

(** models.Document in a response. models/document.go:20-28. *)
Record rdoc := mkRD { ro_id : string; ro_props : rprops }.

(** documents.go:65, 105, 135: fmt.Sprintf("%s", props["id"]); the
    stored "id" is a string. *)
Definition id_of (p : rprops) : string := match rget "id" p with Some (RStr s) => s | _ => "" end.

(** documents.go:59-71, 99-111: one document with its distance. *)
Definition show_near (d : sdoc) (x : f32) : option rdoc :=
  match reread_props (stored_props d) with
  | None => None
  | Some r => Some (mkRD (id_of r) (("distance", RDist x) :: rdel "distance" (rdel "vector" (rdel "id" r))))
  end.

(** documents.go:57-72, 97-112.  [dists\[i\]] panics if there are fewer distances
    than documents; a nil document cannot be unmarshalled. *)
Fixpoint show_all (docs : list (option sdoc)) (dists : list f32) : res (list rdoc) :=
  match docs with
  | [] => Ok []
  | None :: _ => Err EMarshal
  | Some d :: docs' =>
      match reread_props (stored_props d) with
      | None => Err EMarshal
      | Some _ =>
          match dists with
          | [] => Panic
          | x :: dists' =>
              do! r <- show_all docs' dists';
              match show_near d x with Some y => Ok (y :: r) | None => Err EMarshal end
          end
      end
  end.

(** Writing the response: the JSON producer fails on a NaN or infinite distance,
    and the responder panics
    (restapi/operations/fave_get_nearest_documents_responses.go:54-64). *)
Definition writable (r : rdoc) : bool :=
  match rget "distance" (ro_props r) with Some (RDist x) => is_finite_b x | _ => true end.
Definition respond (rs : list rdoc) : response (list rdoc) :=
  if forallb writable rs then Ok200 rs else Crash.

(** documents.go:52-77, 92-117 *)
Definition near_response (r : coll * res (list (option sdoc) * list f32)) : coll * response (list rdoc) :=
  match r with
  | (st, Ok (docs, dists)) =>
      (st, match show_all docs dists with
           | Ok rs => respond rs
           | Err e => Bad400 e
           | Panic => Crash
           | OutOfFuel => Diverge
           end)
  | (st, Err e) => (st, Bad400 e)
  | (st, Panic) => (st, Crash)
  | (st, OutOfFuel) => (st, Diverge)
  end.

(** documents.go:44-78; [text] is the search text, [corpi] the vectoriser's answer. *)
Definition handle_near_text (Q : qorc) (lookup : bool) (corpi : res (option vec)) (name text : string)
  (maxd : f32) (limit : Z) (st : coll) : coll * response (list rdoc) :=
  if String.eqb name "" then (st, Bad400 EOther)
  else if String.eqb text "" then (st, Bad400 EOther)
  else near_response (near_by_text Q lookup corpi st maxd limit).

(** documents.go:80-118; [None]: no vector in the body. *)
Definition handle_near_vector (Q : qorc) (name : string) (q : option vec) (maxd : f32) (limit : Z)
  (st : coll) : coll * response (list rdoc) :=
  if String.eqb name "" then (st, Bad400 EOther)
  else match q with
       | None => (st, Bad400 EOther)
       | Some q => near_response (near_by_vector Q st q maxd limit)
       end.

(** documents.go:120-142 for the property "id". *)
Definition handle_get (R : rorc) (find_ok : bool) (name id : string) (st : coll) : coll * response rdoc :=
  if String.eqb name "" then (st, Bad400 EOther)
  else
    match get_document R find_ok id st with
    | (st', Ok d) =>
        (st', match reread_props (stored_props d) with
              | None => Bad400 EMarshal
              | Some r => Ok200 (mkRD (id_of r) (rdel "vector" (rdel "id" r)))
              end)
    | (st', Err e) => (st', Bad400 e)
    | (st', Panic) => (st', Crash)
    | (st', OutOfFuel) => (st', Diverge)
    end.
