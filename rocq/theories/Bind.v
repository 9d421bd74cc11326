(** Model of how a request becomes the arguments of a handler: the generated
    BindRequest functions (restapi/operations/fave_*_parameters.go), the request
    types with their JSON names and their validation (models/*.go), and the
    handlers behind them.

    Simplifications.
    - The body is a JSON value, not its text; what follows the first value is not
      read by the code either.
    - The JSON consumer (runtime.JSONConsumer, restapi/configure_fave.go:43) is
      encoding/json with UseNumber.  A name of the body stands for the field
      whose JSON name is equal up to the case of ASCII letters (the code also
      takes U+017F for s and U+212A for k).
    - A name that occurs twice: the last one wins; encoding/json would merge the
      second "documents" or "indexes" array into the elements of the first one,
      and a null in a second array leaves the element of the first.
    - strfmt's test of a UUID is a parameter.
    - A request that is not bound is answered with 400 or 422 by the middleware;
      here [Bad400]. *)
From Coq Require Import String Ascii.
From Verif Require Import Base F32 JsonNum Graph Search Persist Client Collections Handlers Vectorizer.
Local Open Scope string_scope.

(** runtime.HasBody and the decoder (fave_add_documents_parameters.go:51-60):
    no body, one that is no JSON, or a value. *)
Inductive hbody := NoBody | Malformed | Body (j : jval).

(** The case of ASCII letters.
    Library, called by the consumer at operations/fave_add_documents_parameters.go:56. *)
Definition lower_char (c : ascii) : ascii :=
  let n := N_of_ascii c in
  if N.leb 65 n && N.leb n 90 then ascii_of_N (n + 32) else c.
(** Library, called by the consumer at operations/fave_add_documents_parameters.go:56. *)
Fixpoint lower (s : string) : string :=
  match s with EmptyString => EmptyString | String c s' => String (lower_char c) (lower s') end.
(** encoding/json: does the member [k] of an object belong to the field [name]?.
    Library, called by the consumer at operations/fave_add_documents_parameters.go:56. *)
Definition is_field (name k : string) : bool := String.eqb (lower name) (lower k).

(** encoding/json into a struct: null changes nothing, members are taken in the
    order of the body, unknown ones ignored ([step] leaves the value).
    Library, called by the consumer at operations/fave_add_documents_parameters.go:56. *)
Fixpoint dec_fields {A : Type} (step : string -> jval -> A -> option A) (l : list (string * jval)) (a : A) : option A :=
  match l with
  | [] => Some a
  | (k, x) :: l' => match step k x a with Some a' => dec_fields step l' a' | None => None end
  end.
(** Library, called by the consumer at operations/fave_add_documents_parameters.go:56. *)
Definition dec_struct {A : Type} (step : string -> jval -> A -> option A) (zero : A) (j : jval) : option A :=
  match j with JNull => Some zero | JObj l => dec_fields step l zero | _ => None end.

(** encoding/json into a string, an int64 (strconv.ParseInt), a float32; null
    leaves the value [cur].
    Library, called by the consumer at operations/fave_add_documents_parameters.go:56. *)
Definition dec_string (cur : string) (j : jval) : option string :=
  match j with JNull => Some cur | JStr s => Some s | _ => None end.
(** Library, called by the consumer at operations/fave_add_documents_parameters.go:56. *)
Definition parse_int (s : string) : option Z :=
  let (neg, s1) := match s with String "-" t => (true, t) | _ => (false, s) end in
  match read_digits s1 0 0 with
  | (n, k, EmptyString) =>
      let z := (if neg then - n else n)%Z in
      if Z.eqb k 0 then None
      else if Z.leb (-9223372036854775808) z && Z.ltb z 9223372036854775808 then Some z else None
  | _ => None
  end.
(** Library, called by the consumer at operations/fave_add_documents_parameters.go:56. *)
Definition dec_int (cur : Z) (j : jval) : option Z :=
  match j with JNull => Some cur | JNum s => parse_int s | _ => None end.
(** Library, called by the consumer at operations/fave_add_documents_parameters.go:56. *)
Definition dec_f32 (cur : f32) (j : jval) : option f32 :=
  match j with JNull => Some cur | JNum s => f32_of_text s | _ => None end.

(** encoding/json into a slice: null is nil, [None].
    Library, called by the consumer at operations/fave_add_documents_parameters.go:56. *)
Fixpoint dec_all {A : Type} (dec : jval -> option A) (l : list jval) : option (list A) :=
  match l with
  | [] => Some []
  | x :: l' => match dec x, dec_all dec l' with Some a, Some r => Some (a :: r) | _, _ => None end
  end.
(** Library, called by the consumer at operations/fave_add_documents_parameters.go:56. *)
Definition dec_slice {A : Type} (dec : jval -> option A) (j : jval) : option (option (list A)) :=
  match j with JNull => Some None | JArr l => match dec_all dec l with Some r => Some (Some r) | None => None end | _ => None end.
(** encoding/json into a pointer to a struct: null is nil.
    Library, called by the consumer at operations/fave_add_documents_parameters.go:56. *)
Definition dec_ptr {A : Type} (dec : jval -> option A) (j : jval) : option (option A) :=
  match j with JNull => Some None | _ => match dec j with Some a => Some (Some a) | None => None end end.

(** encoding/json into an interface{} (models/property.go:11): objects become maps,
    where the last of two equal names stays. *)
Fixpoint uniq (l : list (string * jval)) : list (string * jval) :=
  match l with
  | [] => []
  | (k, x) :: l' => if existsb (fun kx => String.eqb k (fst kx)) l' then uniq l' else (k, x) :: uniq l'
  end.
Fixpoint iface (j : jval) : jval :=
  match j with
  | JArr l => JArr ((fix go (l : list jval) := match l with [] => [] | x :: l' => iface x :: go l' end) l)
  | JObj l => JObj (uniq ((fix go (l : list (string * jval)) :=
                             match l with [] => [] | (k, x) :: l' => (k, iface x) :: go l' end) l))
  | _ => j
  end.

(** models/document.go:19-28; strfmt.UUID reads a string. *)
Definition step_doc (k : string) (x : jval) (d : rawdoc) : option rawdoc :=
  if is_field "id" k then match dec_string (rd_id d) x with Some s => Some (mkRaw s (rd_props d)) | None => None end
  else if is_field "properties" k then Some (mkRaw (rd_id d) (iface x))
  else Some d.
Definition dec_doc (j : jval) : option rawdoc := dec_struct step_doc (mkRaw "" JNull) j.

(** models/add_documents_request.go:20-30 *)
Record add_req := mkAddReq {
  aq_docs : option (list (option rawdoc)); aq_name : string; aq_keys : option (list string) }.
Definition step_add (k : string) (x : jval) (r : add_req) : option add_req :=
  if is_field "documents" k then
    match dec_slice (dec_ptr dec_doc) x with Some l => Some (mkAddReq l (aq_name r) (aq_keys r)) | None => None end
  else if is_field "name" k then
    match dec_string (aq_name r) x with Some s => Some (mkAddReq (aq_docs r) s (aq_keys r)) | None => None end
  else if is_field "propertiesToVectorize" k then
    match dec_slice (dec_string "") x with Some l => Some (mkAddReq (aq_docs r) (aq_name r) l) | None => None end
  else Some r.

(** models/nearest_documents_request.go:18-31 *)
Record text_req := mkTextReq { tq_dist : f32; tq_limit : Z; tq_name : string; tq_text : string }.
Definition step_text (k : string) (x : jval) (r : text_req) : option text_req :=
  if is_field "distance" k then
    match dec_f32 (tq_dist r) x with Some d => Some (mkTextReq d (tq_limit r) (tq_name r) (tq_text r)) | None => None end
  else if is_field "limit" k then
    match dec_int (tq_limit r) x with Some n => Some (mkTextReq (tq_dist r) n (tq_name r) (tq_text r)) | None => None end
  else if is_field "name" k then
    match dec_string (tq_name r) x with Some s => Some (mkTextReq (tq_dist r) (tq_limit r) s (tq_text r)) | None => None end
  else if is_field "text" k then
    match dec_string (tq_text r) x with Some s => Some (mkTextReq (tq_dist r) (tq_limit r) (tq_name r) s) | None => None end
  else Some r.

(** models/nearest_documents_by_vector_request.go:18-31 *)
Record vec_req := mkVecReq { vq_dist : f32; vq_limit : Z; vq_name : string; vq_vec : option vec }.
Definition step_vec (k : string) (x : jval) (r : vec_req) : option vec_req :=
  if is_field "distance" k then
    match dec_f32 (vq_dist r) x with Some d => Some (mkVecReq d (vq_limit r) (vq_name r) (vq_vec r)) | None => None end
  else if is_field "limit" k then
    match dec_int (vq_limit r) x with Some n => Some (mkVecReq (vq_dist r) n (vq_name r) (vq_vec r)) | None => None end
  else if is_field "name" k then
    match dec_string (vq_name r) x with Some s => Some (mkVecReq (vq_dist r) (vq_limit r) s (vq_vec r)) | None => None end
  else if is_field "vector" k then
    match dec_slice (dec_f32 f32_zero) x with Some l => Some (mkVecReq (vq_dist r) (vq_limit r) (vq_name r) l) | None => None end
  else Some r.

(** models/index.go:18-25 and models/collection.go:20-27 *)
Definition step_index (k : string) (x : jval) (r : string * string) : option (string * string) :=
  if is_field "fieldName" k then match dec_string (fst r) x with Some s => Some (s, snd r) | None => None end
  else if is_field "fieldType" k then match dec_string (snd r) x with Some s => Some (fst r, s) | None => None end
  else Some r.
Definition step_coll (k : string) (x : jval) (r : cbody) : option cbody :=
  if is_field "indexes" k then
    match dec_slice (dec_ptr (dec_struct step_index ("", ""))) x with Some l => Some (mkB (b_name r) l) | None => None end
  else if is_field "name" k then
    match dec_string (b_name r) x with Some s => Some (mkB s (b_indexes r)) | None => None end
  else Some r.

(** BindRequest: the body must be there and must fit
    (fave_add_documents_parameters.go:48-84 and the others). *)
Definition bind_body {A : Type} (dec : jval -> option A) (ok : A -> bool) (b : hbody) : option A :=
  match b with
  | Body j => match dec j with Some a => if ok a then Some a else None | None => None end
  | _ => None
  end.

(** models/document.go:31-54, models/add_documents_request.go:33-70: an id is
    empty or a UUID; null documents are passed over. *)
Definition valid_doc (uuid : string -> bool) (d : option rawdoc) : bool :=
  match d with Some r => String.eqb (rd_id r) "" || uuid (rd_id r) | None => true end.
Definition valid_add (uuid : string -> bool) (r : add_req) : bool :=
  match aq_docs r with Some l => forallb (valid_doc uuid) l | None => true end.

(** operations/fave_add_documents_parameters.go:48-84. *)
Definition bind_add (uuid : string -> bool) (b : hbody) : option add_req :=
  bind_body (dec_struct step_add (mkAddReq None "" None)) (valid_add uuid) b.
(** The other request types have no formats to check
    (models/nearest_documents_request.go:34-36,
    models/nearest_documents_by_vector_request.go:34-36, models/collection.go:30-67,
    models/index.go:28-30). *)
Definition bind_text (b : hbody) : option text_req :=
  bind_body (dec_struct step_text (mkTextReq f32_zero 0 "" "")) (fun _ => true) b.
Definition bind_vec (b : hbody) : option vec_req :=
  bind_body (dec_struct step_vec (mkVecReq f32_zero 0 "" None)) (fun _ => true) b.
Definition bind_coll (b : hbody) : option cbody :=
  bind_body (dec_struct step_coll (mkB "" None)) (fun _ => true) b.

(** fave_get_documents_parameters.go:84-140: the last of several values, which must
    not be empty.  [qs]: the decoded query string in its order. *)
Definition bind_param (k : string) (qs : list (string * string)) : option string :=
  match find (fun kv => String.eqb k (fst kv)) (rev qs) with
  | Some (_, v) => if String.eqb v "" then None else Some v
  | None => None
  end.
(** fave_get_documents_parameters.go:52-77 *)
Definition bind_get (qs : list (string * string)) : option (string * string * string) :=
  match bind_param "collection" qs, bind_param "property" qs, bind_param "value" qs with
  | Some c, Some p, Some v => Some (c, p, v)
  | _, _, _ => None
  end.

(* ------------------------------------------------------------------ *)
(** Requests from body to response. *)

(** documents.go:13-42 behind fave_add_documents_parameters.go:48. *)
Definition serve_add (uuid : string -> bool) (R : rorc) (lookup : bool) (orcs : list dorc) (b : hbody)
  (st : coll) : coll * response nat :=
  match bind_add uuid b with
  | None => (st, Bad400 EOther)
  | Some r => handle_add R lookup orcs (aq_name r) (aq_docs r) (aq_keys r) st
  end.
(** documents.go:44-78; [V]: the vectoriser. *)
Definition serve_text (Q : qorc) (lookup : bool) (V : string -> res (option vec)) (b : hbody)
  (st : coll) : coll * response (list rdoc) :=
  match bind_text b with
  | None => (st, Bad400 EOther)
  | Some r => handle_near_text Q lookup (V (tq_text r)) (tq_name r) (tq_text r) (tq_dist r) (tq_limit r) st
  end.
(** documents.go:80-118 *)
Definition serve_vec (Q : qorc) (b : hbody) (st : coll) : coll * response (list rdoc) :=
  match bind_vec b with
  | None => (st, Bad400 EOther)
  | Some r => handle_near_vector Q (vq_name r) (vq_vec r) (vq_dist r) (vq_limit r) st
  end.
(** documents.go:120-142 for the property "id"; another property leaves the model:
    [Diverge]. *)
Definition serve_get (R : rorc) (find_ok : bool) (qs : list (string * string)) (st : coll) : coll * response rdoc :=
  match bind_get qs with
  | None => (st, Bad400 EOther)
  | Some (c, p, v) => if String.eqb p "id" then handle_get R find_ok c v st else (st, Diverge)
  end.
(** collections.go:11-45 *)
Definition serve_create (w : corc) (b : hbody) (p : pod) : pod * response unit :=
  match bind_coll b with
  | None => (p, Bad400 EOther)
  | Some r => handle_create w r p
  end.

(** A history of requests to one collection.
    Not in the code: requests as they come in (restapi/operations/fave_api.go:280-330). *)
Inductive wreq :=
| PAdd (R : rorc) (lookup : bool) (orcs : list dorc) (b : hbody)
| PText (Q : qorc) (lookup : bool) (V : string -> res (option vec)) (b : hbody)
| PVec (Q : qorc) (b : hbody)
| PGet (R : rorc) (find_ok : bool) (qs : list (string * string))
| PRecreate
| PRestart.
(** Not in the code: one request. *)
Definition serve (uuid : string -> bool) (st : coll) (q : wreq) : coll :=
  match q with
  | PAdd R lk o b => fst (serve_add uuid R lk o b st)
  | PText Q lk V b => fst (serve_text Q lk V b st)
  | PVec Q b => fst (serve_vec Q b st)
  | PGet R ok qs => fst (serve_get R ok qs st)
  | PRecreate => recreate st
  | PRestart => restart_coll st
  end.
(** Not in the code: requests one after the other. *)
Fixpoint run_http (uuid : string -> bool) (st : coll) (qs : list wreq) : coll :=
  match qs with
  | [] => st
  | q :: qs' => run_http uuid (serve uuid st q) qs'
  end.

(* ------------------------------------------------------------------ *)
(** The same types written as JSON: swag.WriteJSON (MarshalBinary in
    models/add_documents_request.go:107-112 and the others).  "omitempty" leaves out
    empty strings and zeros; a nil slice is null.  [ftext]: the text of a float32. *)
Definition opt_str (k s : string) : list (string * jval) := if String.eqb s "" then [] else [(k, JStr s)].
Definition slice_json (l : option (list jval)) : jval := match l with Some l => JArr l | None => JNull end.
Definition doc_json (d : option rawdoc) : jval :=
  match d with
  | None => JNull
  | Some r => JObj (opt_str "id" (rd_id r) ++
                    match rd_props r with JNull => [] | x => [("properties", x)] end)
  end.
Definition add_json (r : add_req) : jval :=
  JObj ([("documents", slice_json (option_map (map doc_json) (aq_docs r)))] ++ opt_str "name" (aq_name r) ++
        [("propertiesToVectorize", slice_json (option_map (map JStr) (aq_keys r)))])%list.
Definition num_json (ftext : f32 -> string) (x : f32) : jval := JNum (ftext x).
Definition dist_json (ftext : f32 -> string) (x : f32) : list (string * jval) :=
  match x with S754_zero _ => [] | _ => [("distance", num_json ftext x)] end.
Definition limit_json (n : Z) : list (string * jval) :=
  if Z.eqb n 0 then [] else [("limit", JNum (int_text n))].
Definition text_json (ftext : f32 -> string) (r : text_req) : jval :=
  JObj (dist_json ftext (tq_dist r) ++ limit_json (tq_limit r) ++ opt_str "name" (tq_name r) ++
        opt_str "text" (tq_text r))%list.
Definition vec_json (ftext : f32 -> string) (r : vec_req) : jval :=
  JObj (dist_json ftext (vq_dist r) ++ limit_json (vq_limit r) ++ opt_str "name" (vq_name r) ++
        [("vector", slice_json (option_map (map (num_json ftext)) (vq_vec r)))])%list.
Definition index_json (x : option (string * string)) : jval :=
  match x with
  | None => JNull
  | Some (f, t) => JObj (opt_str "fieldName" f ++ opt_str "fieldType" t)%list
  end.
Definition coll_json (r : cbody) : jval :=
  JObj ([("indexes", slice_json (option_map (map index_json) (b_indexes r)))] ++ opt_str "name" (b_name r))%list.
