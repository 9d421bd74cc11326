(** Model of the index configuration: parsing and validation
    (pkg/hnsw/user_config.go, pq_config.go), updates (config_update.go), the
    required parts of hnsw.Config (config.go) and the search breadth
    (search.go:36-68).

    Simplifications.
    - Errors carry no text.
    - A float64 in the input is represented by the int64 that Go converts it to
      (user_config.go:235).
    - config_update.go works on the UserConfig type of the dependency
      github.com/weaviate/weaviate/entities/vectorindex/hnsw ([ent]), which has
      the same fields as the one in user_config.go; Go treats the two as
      different types.
    - Compression itself (Compress, ssdhelpers) is not modelled. *)
From Coq Require Import String Ascii.
From Verif Require Import Base JsonNum Collections.
Local Open Scope string_scope.

(** Go values inside a decoded configuration.  [CNum s]: a json.Number, which is
    its text; [CFloat z]: a float64 with int64 value [z]; [COther]: nil, slices
    and all other types. user_config.go:214-240. *)
Inductive cval :=
| CNum (s : string)
| CFloat (z : Z)
| CBool (b : bool)
| CStr (s : string)
| CMap (m : list (string * cval))
| COther.

(** user_config.go:236. *)
Definition max_int64 : Z := 9223372036854775807.

(* ------------------------------------------------------------------ *)
(** json.Number.Int64 = strconv.ParseInt(s, 10, 64).
    Library, called at user_config.go:214-245. *)
Inductive parsed := PInt (z : Z) | PRange | PSyntax.

(** The loop of strconv.ParseUint(s, 10, 64): the digit is checked before the
    overflow. Library, called at user_config.go:214-245. *)
Fixpoint parse_uint (s : string) (n : Z) : parsed :=
  match s with
  | EmptyString => PInt n
  | String c s' =>
      match digit c with
      | None => PSyntax
      | Some d =>
          let n' := (10 * n + d)%Z in
          if (18446744073709551616 <=? n')%Z then PRange else parse_uint s' n'
      end
  end.
(** Library, called at user_config.go:214-245. *)
Definition parse_int (s : string) : parsed :=
  let (neg, t) := match s with
                  | String "-" t => (true, t)
                  | String "+" t => (false, t)
                  | _ => (false, s)
                  end in
  match t with
  | EmptyString => PSyntax
  | _ => match parse_uint t 0 with
         | PInt n => if neg then (if (9223372036854775808 <? n)%Z then PRange else PInt (- n))
                     else if (max_int64 <? n)%Z then PRange else PInt n
         | r => r
         end
  end.

(** user_config.go:214-245.  [Some None]: the field is not set; a value of
    another type leaves [asInt64] at 0. *)
Definition int_from_map (m : list (string * cval)) (name : string) : option (option Z) :=
  match aget name m with
  | None => Some None
  | Some (CNum s) => match parse_int s with
                     | PInt z => Some (Some z)
                     | PRange => Some (Some max_int64)
                     | PSyntax => None
                     end
  | Some (CFloat z) => Some (Some z)
  | Some _ => Some (Some 0%Z)
  end.

(** user_config.go:247-281: ill-typed values are ignored. *)
Definition bool_from_map (m : list (string * cval)) (name : string) (dflt : bool) : bool :=
  match aget name m with Some (CBool b) => b | _ => dflt end.
Definition string_from_map (m : list (string * cval)) (name : string) (dflt : string) : string :=
  match aget name m with Some (CStr s) => s | _ => dflt end.

(** pq_config.go:29-42 *)
Record pqconf := mkPQ {
  pq_enabled : bool; pq_bits : bool; pq_segments : Z; pq_centroids : Z;
  pq_encoder : string; pq_distribution : string }.

(** user_config.go:53-66 *)
Record uconf := mkU {
  u_skip : bool; u_cleanup : Z; u_maxconn : Z; u_efc : Z; u_ef : Z;
  u_efmin : Z; u_efmax : Z; u_effactor : Z; u_cachemax : Z; u_flat : Z;
  u_distance : string; u_pq : pqconf }.

(** user_config.go:75-97, 33-44; pq_config.go:20-27 *)
Definition default_pq : pqconf := mkPQ false false 0 256 "kmeans" "log-normal".
Definition defaults : uconf :=
  mkU false 300 64 128 (-1) 100 500 8 1000000000000 40000 "cosine" default_pq.

(** pq_config.go:44-64 *)
Definition valid_encoder (s : string) : bool := String.eqb s "tile" || String.eqb s "kmeans".
Definition valid_distribution (s : string) : bool := String.eqb s "log-normal" || String.eqb s "normal".

(** pq_config.go:66-104: [None] is the error. *)
Definition checked_from_map (valid : string -> bool) (m : list (string * cval)) (name dflt : string)
  : option string :=
  match aget name m with
  | Some (CStr s) => if valid s then Some s else None
  | _ => Some dflt
  end.

(** The value of an optional integer, or the error.
    Not in the code: optionalIntFromMap with its setFn, user_config.go:214-245. *)
Definition int_or (m : list (string * cval)) (name : string) (dflt : Z) : option Z :=
  match int_from_map m name with
  | None => None
  | Some None => Some dflt
  | Some (Some z) => Some z
  end.

(** Not in the code: [if err != nil { return }], user_config.go:101-185. *)
Definition obind {A B} (x : option A) (f : A -> option B) : option B :=
  match x with Some a => f a | None => None end.
Notation "'let?' x := a 'in' b" := (obind a (fun x => b)) (at level 200, x pattern, a at level 100, b at level 200).

(** pq_config.go:106-164 *)
Definition parse_pq (m : list (string * cval)) (pq : pqconf) : option pqconf :=
  match aget "pq" m with
  | Some (CMap pm) =>
      let e := bool_from_map pm "enabled" (pq_enabled pq) in
      let b := bool_from_map pm "bitCompression" (pq_bits pq) in
      let? s := int_or pm "segments" (pq_segments pq) in
      let? c := int_or pm "centroids" (pq_centroids pq) in
      match aget "encoder" pm with
      | Some (CMap em) =>
          let? ty := checked_from_map valid_encoder em "type" (pq_encoder pq) in
          let? di := checked_from_map valid_distribution em "distribution" (pq_distribution pq) in
          Some (mkPQ e b s c ty di)
      | _ => Some (mkPQ e b s c (pq_encoder pq) (pq_distribution pq))
      end
  | _ => Some pq
  end.

(** user_config.go:187-209, 46-49 *)
Definition valid (u : uconf) : bool := (4 <=? u_maxconn u)%Z && (4 <=? u_efc u)%Z.

(** user_config.go:101-185; the argument is [None] for a nil input.  The errors
    do not depend on the order of the fields, only their text does. *)
Definition parse_config (input : option cval) : option uconf :=
  match input with
  | None => Some defaults
  | Some (CMap m) =>
      let? mc := int_or m "maxConnections" (u_maxconn defaults) in
      let? cl := int_or m "cleanupIntervalSeconds" (u_cleanup defaults) in
      let? efc := int_or m "efConstruction" (u_efc defaults) in
      let? ef := int_or m "ef" (u_ef defaults) in
      let? fa := int_or m "dynamicEfFactor" (u_effactor defaults) in
      let? ma := int_or m "dynamicEfMax" (u_efmax defaults) in
      let? mi := int_or m "dynamicEfMin" (u_efmin defaults) in
      let? vc := int_or m "vectorCacheMaxObjects" (u_cachemax defaults) in
      let? fl := int_or m "flatSearchCutoff" (u_flat defaults) in
      let sk := bool_from_map m "skip" (u_skip defaults) in
      let di := string_from_map m "distance" (u_distance defaults) in
      let? pq := parse_pq m (u_pq defaults) in
      let u := mkU sk cl mc efc ef mi ma fa vc fl di pq in
      if valid u then Some u else None
  | Some _ => None
  end.

(* ------------------------------------------------------------------ *)
(** Updates. *)

(** A schema.VectorIndexConfig: the dependency's UserConfig, the package's own, or
    another type. config_update.go:22-31. *)
Inductive vicfg := VEnt (u : uconf) | VOwn (u : uconf) | VElse.

(** config_update.go:22-58: [true] if accepted. *)
Definition validate_update (initial updated : vicfg) : bool :=
  match initial, updated with
  | VEnt a, VEnt b =>
      (u_efc a =? u_efc b)%Z && (u_maxconn a =? u_maxconn b)%Z && (u_cleanup a =? u_cleanup b)%Z
  | _, _ => false
  end.

(** The settings of an index (index.go:234-268), and whether it is compressed. *)
Record settings := mkSet {
  s_maxconn : Z; s_maxconn0 : Z; s_efc : Z; s_cleanup : Z; s_distance : string;
  s_ef : Z; s_efmin : Z; s_efmax : Z; s_effactor : Z; s_flat : Z;
  s_cachemax : Z; s_ccachemax : Z; s_compressed : bool }.

(** index.go:213-275; the distance provider is chosen by the caller. *)
Definition new_settings (u : uconf) (distance : string) : settings :=
  mkSet (u_maxconn u) (2 * u_maxconn u) (u_efc u) (u_cleanup u) distance
        (u_ef u) (u_efmin u) (u_efmax u) (u_effactor u) (u_flat u) (u_cachemax u) (u_cachemax u) false.

(** config_update.go:79-128: new settings, whether compression is started in the
    background, [true] if no error is returned. *)
Definition update_config (s : settings) (updated : vicfg) : settings * bool * bool :=
  match updated with
  | VEnt u =>
      let s' := mkSet (s_maxconn s) (s_maxconn0 s) (s_efc s) (s_cleanup s) (s_distance s)
                      (u_ef u) (u_efmin u) (u_efmax u) (u_effactor u) (u_flat u)
                      (if s_compressed s then s_cachemax s else u_cachemax u)
                      (if s_compressed s then u_cachemax u else s_ccachemax s) (s_compressed s) in
      if negb (s_compressed s) && pq_enabled (u_pq u) then
        if valid_encoder (pq_encoder (u_pq u)) && valid_distribution (pq_distribution (u_pq u))
        then (s', true, true) else (s', false, false)
      else (s', false, true)
  | _ => (s, false, false)
  end.

(* ------------------------------------------------------------------ *)
(** config.go:21-63: the parts of hnsw.Config that Validate looks at; [false] is
    an empty string or nil. *)
Record iconf := mkI { i_id : bool; i_root : bool; i_logger : bool; i_vector : bool; i_distance : bool }.
Definition valid_iconf (c : iconf) : bool :=
  i_id c && i_root c && i_logger c && i_vector c && i_distance c.

(* ------------------------------------------------------------------ *)
(** int64 arithmetic. Go specification; search.go:52-68. *)
Definition wrap64 (z : Z) : Z := ((z + 9223372036854775808) mod 18446744073709551616 - 9223372036854775808)%Z.

(** search.go:52-68 *)
Definition auto_ef (s : settings) (k : Z) : Z :=
  let ef := wrap64 (k * s_effactor s) in
  let ef1 := if (s_efmax s <? ef)%Z then s_efmax s else if (ef <? s_efmin s)%Z then s_efmin s else ef in
  if (ef1 <? k)%Z then k else ef1.
(** search.go:36-50 *)
Definition search_ef (s : settings) (k : Z) : Z :=
  if (s_ef s <? 1)%Z then auto_ef s k
  else if (s_ef s <? k)%Z then k else s_ef s.
