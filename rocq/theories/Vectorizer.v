(** The client of the vectoriser service (pkg/vectorizer/rest/vectorizer.go) and
    how the document client sets it up (document.go:61-97).

    Simplifications.
    - An HTTP exchange is its outcome: no answer, or a status and a body.  http.Post
      has no time limit (vectorizer.go:53); an exchange that never ends is not
      modelled.
    - The body decoder is left out: a body is a JSON value, or [None] if it is no
      JSON.  json.Marshal of the request (vectorizer.go:48-51) cannot fail.
    - ParseFloat with 32 bits rounds correctly; its algorithm is not followed. *)
From Coq Require Import String.
From Verif Require Import Base F32 JsonNum Graph Client.
Local Open Scope string_scope.

(** Library, rest/vectorizer.go:53-61. *)
Inductive http := HFail | HResp (code : N) (body : option jval).

(** encoding/json, a number into a float32: strconv.ParseFloat(s, 32); a value
    beyond the range is an error. Library, called at rest/vectorizer.go:63-66. *)
Definition f32_of_decimal (neg : bool) (m e : Z) : f32 :=
  match m with
  | Zpos p =>
      if (0 <=? e)%Z then
        match (m * 10 ^ e)%Z with
        | Zpos q => binary_round prec32 emax32 neg q 0
        | _ => S754_zero neg
        end
      else
        match (10 ^ (- e))%Z with
        | Zpos q => SFdiv prec32 emax32 (S754_finite neg p 0) (S754_finite false q 0)
        | _ => S754_zero neg
        end
  | _ => S754_zero neg
  end.
(** Library, called at rest/vectorizer.go:63-66. *)
Definition f32_of_text (s : string) : option f32 :=
  match decimal_of s with
  | Some (neg, m, e) =>
      match f32_of_decimal neg m e with
      | S754_infinity _ => None
      | x => Some x
      end
  | None => None
  end.

(** encoding/json into []float32: null leaves an element zero.
    Library, called at rest/vectorizer.go:63-66. *)
Fixpoint floats (l : list jval) : option vec :=
  match l with
  | [] => Some []
  | x :: l' =>
      match (match x with JNum s => f32_of_text s | JNull => Some f32_zero | _ => None end), floats l' with
      | Some y, Some v => Some (y :: v)
      | _, _ => None
      end
  end.
(** Library, called at rest/vectorizer.go:63-66. *)
Definition float_slice (x : jval) : option vec :=
  match x with JNull => Some [] | JArr l => floats l | _ => None end.
(** encoding/json into map[string][]float32: every member must fit, of two equal
    names the last one stays. Library, called at rest/vectorizer.go:63-66. *)
Fixpoint members (l : list (string * jval)) : option (list (string * vec)) :=
  match l with
  | [] => Some []
  | (k, x) :: l' =>
      match float_slice x, members l' with
      | Some v, Some r => Some ((k, v) :: r)
      | _, _ => None
      end
  end.
(** Library, called at rest/vectorizer.go:63-66. *)
Definition result_of (b : jval) : option (list (string * vec)) :=
  match b with JNull => Some [] | JObj l => members l | _ => None end.
(** result["vector"] (vectorizer.go:68); a missing member is a nil slice. *)
Definition last_of (k : string) (l : list (string * vec)) : vec :=
  match find (fun kv => String.eqb k (fst kv)) (rev l) with Some kv => snd kv | None => [] end.

(** vectorizer.go:43-70: Corpi.  With a status other than 200 it returns the nil
    vector and the nil error of the successful exchange (59-61). *)
Definition corpi (r : http) : res (option vec) :=
  match r with
  | HFail => Err EVectorizer
  | HResp code body =>
      if negb (N.eqb code 200) then Ok None
      else match body with
           | None => Err EVectorizer
           | Some b =>
               match result_of b with
               | Some l => Ok (Some (last_of "vector" l))
               | None => Err EVectorizer
               end
           end
  end.

(** vectorizer.go:24-40: NewVectorizer asks for the health of the service. *)
Definition new_vectorizer (health : http) : res unit :=
  match health with
  | HFail => Err EVectorizer
  | HResp code _ => if N.eqb code 200 then Ok tt else Err EVectorizer
  end.
(** document.go:84-91: whether the client has a vectoriser. *)
Definition new_client (url : string) (health : http) : res bool :=
  if String.eqb url "" then Ok false else do! _ <- new_vectorizer health; Ok true.
