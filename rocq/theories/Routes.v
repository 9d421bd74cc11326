(** Model of how a request reaches its handler and which status answers it:
    the table of handlers (restapi/operations/fave_api.go:281-345,
    restapi/configure_fave.go:56-65), the documented operations
    (restapi/embedded_spec.go:37-391), the URL builders
    (restapi/operations/*_urlbuilder.go) and the statuses of the responses
    (restapi/operations/*_parameters.go, *_responses.go).

    Simplifications.
    - go-openapi's router is taken to clean the path and to compare it segment by
      segment with the documented templates; a parameter matches one segment.
      Escaping a path and unescaping it again is the identity on segments.
    - go-openapi's ServeError answers a parse error with 400 and a validation
      error (missing, wrong format) with 422; the first error counts.
    - Content negotiation (406, 415) and the page of the Swagger UI are left out.
    - fave_hello*.go and get_documents.go are generated for operations that are no
      longer documented; of them only the URL of hello and the responses
      GetDocumentsOK and GetDocumentsBadRequest, which the handler uses, occur. *)
From Coq Require Import String Ascii.
From Verif Require Import Base F32 JsonNum PQ Graph Search Insert InsertHist Persist Client Handlers
  Collections Bind.
Local Open Scope string_scope.

(** The operations of embedded_spec.go and their handlers. *)
Inductive op := ORoot | OListColl | OCreate | ODelete | OGet | OAdd | ONearText | ONearVec.

(** embedded_spec.go:39-49, 50-142, 143-192, 193-287, 288-338, 339-389 *)
Definition documented_ops : list (string * string * op) :=
  [("GET", "/", ORoot); ("GET", "/collections", OListColl); ("POST", "/collections", OCreate);
   ("DELETE", "/collections/{collection}", ODelete); ("GET", "/documents", OGet); ("POST", "/documents", OAdd);
   ("POST", "/nearest-documents", ONearText); ("POST", "/nearest-documents-by-vector", ONearVec)].

(** initHandlerCache (fave_api.go:305-344) with the handlers of
    configure_fave.go:56-65: the handler behind each method and path. *)
Definition handler_table : list (string * string * op) :=
  [("POST", "/documents", OAdd); ("POST", "/collections", OCreate);
   ("DELETE", "/collections/{collection}", ODelete); ("GET", "/collections", OListColl);
   ("GET", "/documents", OGet); ("POST", "/nearest-documents", ONearText);
   ("POST", "/nearest-documents-by-vector", ONearVec); ("GET", "", ORoot)].

(** strings.ToUpper on the letters of a method (fave_api.go:284). *)
Definition upper_char (c : ascii) : ascii :=
  let n := nat_of_ascii c in if (97 <=? n)%nat && (n <=? 122)%nat then ascii_of_nat (n - 32) else c.
Fixpoint upper (s : string) : string :=
  match s with EmptyString => EmptyString | String c s' => String (upper_char c) (upper s') end.

(** HandlerFor (fave_api.go:280-293) *)
Definition handler_for (method path : string) : option op :=
  let p := if String.eqb path "/" then "" else path in
  match find (fun e => String.eqb (upper method) (fst (fst e)) && String.eqb p (snd (fst e))) handler_table with
  | Some (_, o) => Some o
  | None => None
  end.

(** The segments between the slashes of a path.
    Library (go-openapi/runtime and net/http), set up at
    restapi/operations/fave_api.go:280-330. *)
Fixpoint segments (s : string) : list string :=
  match s with
  | EmptyString => [""]
  | String c s' =>
      if Ascii.eqb c "/" then "" :: segments s'
      else match segments s' with
           | x :: r => String c x :: r
           | [] => [String c ""]
           end
  end.
(** path.Clean of a rooted path, as its segments.
    Library (go-openapi/runtime and net/http), set up at
    restapi/operations/fave_api.go:280-330. *)
Definition clean_step (stack : list string) (x : string) : list string :=
  if String.eqb x "" || String.eqb x "." then stack
  else if String.eqb x ".." then tl stack else x :: stack.
(** Library (go-openapi/runtime and net/http), set up at
    restapi/operations/fave_api.go:280-330. *)
Definition clean (p : string) : list string := rev (fold_left clean_step (segments p) []).
(** A cleaned path as text.
    Library (go-openapi/runtime and net/http), set up at
    restapi/operations/fave_api.go:280-330. *)
Definition path_text (l : list string) : string :=
  match l with [] => "/" | _ => fold_right (fun x r => "/" ++ x ++ r) "" l end.
(** path.Join of two non-empty parts, the first rooted.
    Library (go-openapi/runtime and net/http), set up at
    restapi/operations/fave_api.go:280-330. *)
Definition path_join (a b : string) : string := path_text (clean (a ++ "/" ++ b)).

(** Whether a path fits a template, and the value of its parameter ("" without).
    Library (go-openapi/runtime and net/http), set up at
    restapi/operations/fave_api.go:280-330. *)
Definition is_param (t : string) : bool := String.prefix "{" t.
(** Library (go-openapi/runtime and net/http), set up at
    restapi/operations/fave_api.go:280-330. *)
Fixpoint match_segs (t p : list string) : option string :=
  match t, p with
  | [], [] => Some ""
  | x :: t', y :: p' =>
      if is_param x then match match_segs t' p' with Some _ => Some y | None => None end
      else if String.eqb x y then match_segs t' p' else None
  | _, _ => None
  end.
(** restapi/embedded_spec.go:37. *)
Definition base_path : string := "/v1".

(** The router (embedded_spec.go:37 for the base path): the operation whose handler
    runs, with its path parameter; [None] is a 404 or 405. *)
Fixpoint route_in (ops : list (string * string * op)) (method path : string) : option (op * string) :=
  match ops with
  | [] => None
  | (m, t, _) :: ops' =>
      match (if String.eqb m method then match_segs (clean (path_join base_path t)) (clean path) else None) with
      | Some v => match handler_for m t with Some o => Some (o, v) | None => route_in ops' method path end
      | None => route_in ops' method path
      end
  end.
Definition route (method path : string) : option (op * string) := route_in documented_ops method path.

(** The URL builders without path parameters
    (fave_add_documents_urlbuilder.go:36-48 and the others). *)
Definition build_fixed (base path : string) : string :=
  path_join (if String.eqb base "" then base_path else base) path.
Definition op_path (o : op) : string :=
  match o with
  | ORoot => "/"
  | OListColl | OCreate => "/collections"
  | ODelete => "/collections/{collection}"
  | OGet | OAdd => "/documents"
  | ONearText => "/nearest-documents"
  | ONearVec => "/nearest-documents-by-vector"
  end.
Definition op_method (o : op) : string :=
  match o with
  | ORoot | OListColl | OGet => "GET"
  | ODelete => "DELETE"
  | OCreate | OAdd | ONearText | ONearVec => "POST"
  end.
(** fave_delete_collection_urlbuilder.go:40-59 *)
Definition build_delete (base name : string) : option string :=
  if String.eqb name "" then None
  else Some (path_join (if String.eqb base "" then base_path else base) ("/collections/" ++ name)).
(** fave_hello_urlbuilder.go:36-48; its own base path is "/". *)
Definition build_hello : string := path_join "/" "/hello".
(** fave_get_documents_urlbuilder.go:52-70: the query; Encode sorts by name. *)
Definition query_part (k v : string) : list (string * string) := if String.eqb v "" then [] else [(k, v)].
Definition build_get_query (c p v : string) : list (string * string) :=
  (query_part "collection" c ++ query_part "property" p ++ query_part "value" v)%list.

(* ------------------------------------------------------------------ *)
(** Statuses. *)

(** embedded_spec.go:43-47, 54-89, 103-140, 155-190, 218-235, 249-285, 299-336, 350-387 *)
Definition documented (o : op) : list N :=
  match o with
  | ORoot => [200]
  | OGet => [200; 400; 404]
  | _ => [200; 400; 401; 403; 422; 500]
  end%N.

(** Why BindRequest fails: Required, NewParseError, or a validation error.
    fave_add_documents_parameters.go:48-84. *)
Inductive bind_fail := FMissing | FParse | FInvalid.
(** Library (go-openapi/errors). *)
Definition fail_status (f : bind_fail) : N :=
  match f with FMissing => 422 | FParse => 400 | FInvalid => 422 end%N.
(** fave_add_documents_parameters.go:48-84 and the others with a body. *)
Definition body_fail {A : Type} (dec : jval -> option A) (ok : A -> bool) (b : hbody) : option bind_fail :=
  match b with
  | NoBody => Some FMissing
  | Malformed => Some FParse
  | Body j => match dec j with None => Some FParse | Some a => if ok a then None else Some FInvalid end
  end.

(** What the responders write (fave_add_documents_responses.go:50-60, 95-105 and
    the others; get_documents_responses.go:50-60, 95-105).  [None]: the handler
    panicked or does not end, so there is no whole response. *)
Definition resp_status {A : Type} (r : response A) : option N :=
  match r with Ok200 _ => Some 200%N | Bad400 _ => Some 400%N | Crash => None | Diverge => None end.
Definition status_of {A : Type} (f : option bind_fail) (r : response A) : option N :=
  match f with Some e => Some (fail_status e) | None => resp_status r end.

(** Each operation's ServeHTTP (fave_add_documents.go:44-58 and the others). *)
Definition status_add (uuid : string -> bool) (R : rorc) (lookup : bool) (orcs : list dorc) (b : hbody)
  (st : coll) : option N :=
  status_of (body_fail (dec_struct step_add (mkAddReq None "" None)) (valid_add uuid) b)
    (snd (serve_add uuid R lookup orcs b st)).
Definition status_text (Q : qorc) (lookup : bool) (V : string -> res (option vec)) (b : hbody) (st : coll)
  : option N :=
  status_of (body_fail (dec_struct step_text (mkTextReq f32_zero 0 "" "")) (fun _ => true) b)
    (snd (serve_text Q lookup V b st)).
Definition status_vec (Q : qorc) (b : hbody) (st : coll) : option N :=
  status_of (body_fail (dec_struct step_vec (mkVecReq f32_zero 0 "" None)) (fun _ => true) b)
    (snd (serve_vec Q b st)).
Definition status_create (w : corc) (b : hbody) (p : pod) : option N :=
  status_of (body_fail (dec_struct step_coll (mkB "" None)) (fun _ => true) b) (snd (serve_create w b p)).
(** fave_get_documents_parameters.go:52-77: a missing or empty parameter. *)
Definition status_get (R : rorc) (find_ok : bool) (qs : list (string * string)) (st : coll) : option N :=
  status_of (match bind_get qs with None => Some FMissing | Some _ => None end)
    (snd (serve_get R find_ok qs st)).
(** The operations without anything to bind: collections.go:47-53, 55-92. *)
Definition status_delete (w : xorc) (name : string) (p : pod) : option N := resp_status (snd (handle_delete w name p)).
Definition status_list (session podopen ok : bool) (p : pod) : option N := resp_status (handle_list session podopen ok p).
(** handler.go:81-83 *)
Definition status_root : option N := Some 200%N.
(** A DELETE request to a path: the router, then the handler; 404 or 405 are not
    told apart. *)
Definition http_delete (w : xorc) (path : string) (p : pod) : pod * option N :=
  match route "DELETE" path with
  | Some (ODelete, name) => (fst (handle_delete w name p), status_delete w name p)
  | _ => (p, Some 404%N)
  end.
