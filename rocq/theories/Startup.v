(** Start-up of the service: settings (adapters/handlers/environment.go,
    defaults.go), the handler (handler.go:32-79), the client's login and pod
    (document.go:61-144) and restapi/configure_fave.go:26-67.

    Simplifications.
    - The file system behind the client (fairOS-dfs) is a dependency: its answers
      are given ([sys]), the calls made to it are recorded.  Of its state only the
      pods are kept; CreatePod adds the pod if it succeeds.
    - Loggers, the configuration of the name service other than its endpoint, and
      the cache of 1000 documents (document.go:93-96; lru.New fails for sizes below
      one only) are left out.
    - The time limit of an hour (configure_fave.go:28) is not modelled. *)
From Coq Require Import String.
From Verif Require Import Base F32 JsonNum Graph Client Vectorizer.
Local Open Scope string_scope.

(** handler.go:21-30. *)
Record hconf := mkH {
  h_verbose : bool; h_bee : string; h_rpc : string; h_stamp : string; h_url : string;
  h_user : string; h_pass : string; h_pod : string
}.

(** environment.go:38-51. *)
Definition enabled (v : string) : bool :=
  if String.eqb v "" then false
  else if (String.eqb v "on" || String.eqb v "enabled" || String.eqb v "1" || String.eqb v "true")%bool then true
  else false.

(** The shape of environment.go:12-35: a variable that is not empty replaces the value. *)
Definition given (v old : string) : string := if String.eqb v "" then old else v.

(** environment.go:7-36; [env] is os.Getenv, which is empty for an unset variable. *)
Definition from_env (env : string -> string) (c : hconf) : hconf :=
  mkH (if enabled (env "VERBOSE") then true else h_verbose c)
      (given (env "BEE_API") (h_bee c)) (given (env "RPC_API") (h_rpc c))
      (given (env "STAMP_ID") (h_stamp c)) (given (env "VECTORIZER_URL") (h_url c))
      (given (env "USER") (h_user c)) (given (env "PASSWORD") (h_pass c)) (given (env "POD") (h_pod c)).

(** defaults.go:3-6. *)
Definition default_bee : string := "http://localhost:1633".
Definition default_stamp : string := "0000000000000000000000000000000000000000000000000000000000000000".

(** defaults.go:8-16. *)
Definition set_defaults (c : hconf) : hconf :=
  mkH (h_verbose c) (if String.eqb (h_bee c) "" then default_bee else h_bee c) (h_rpc c)
      (if String.eqb (h_stamp c) "" then default_stamp else h_stamp c) (h_url c)
      (h_user c) (h_pass c) (h_pod c).

(** The calls that leave the process. document.go:61-97; configure_fave.go:26-67. *)
Inductive call :=
| KDfs (bee stamp rpc : string)
| KHealth (url : string)
| KLogin (user pass : string)
| KExist (pod sid : string)
| KCreate (pod sid : string)
| KOpen (pod sid : string).

(** Not in the code: what the calls answer. *)
Record sys := mkSys {
  y_dfs : res unit; y_health : http; y_login : res string; y_create : res unit; y_open : res unit
}.

(** The client as far as start-up sets it (document.go:38-49): the session, the open
    pod, whether there is a vectoriser. *)
Record started := mkSt { r_sid : string; r_pod : string; r_lookup : bool }.

(** document.go:111-144, OpenPod, with the pods that exist. *)
Definition open_pod (y : sys) (pods : list string) (pod sid : string) : res unit * list call * list string :=
  if String.eqb sid "" then (Err EOther, [], pods)
  else
    let ex := existsb (String.eqb pod) pods in
    let '(r, tr, pods) :=
      if ex then (Ok tt, [KExist pod sid], pods)
      else (y_create y, [KExist pod sid; KCreate pod sid],
            match y_create y with Ok _ => pod :: pods | _ => pods end) in
    match r with
    | Ok _ => (y_open y, tr ++ [KOpen pod sid], pods)%list
    | Err e => (Err e, tr, pods)
    | Panic => (Panic, tr, pods)
    | OutOfFuel => (OutOfFuel, tr, pods)
    end.

(** handler.go:32-79, NewHandler. *)
Definition new_handler (env : string -> string) (y : sys) (pods : list string) (c : hconf)
  : res started * list call * list string :=
  let c := set_defaults (from_env env c) in
  let t1 := [KDfs (h_bee c) (h_stamp c) (h_rpc c)] in
  match y_dfs y with
  | Ok _ =>
      let t2 := (t1 ++ if String.eqb (h_url c) "" then [] else [KHealth (h_url c)])%list in
      match new_client (h_url c) (y_health y) with
      | Ok lk =>
          let t3 := (t2 ++ [KLogin (h_user c) (h_pass c)])%list in
          match y_login y with
          | Ok sid =>
              let '(r, tr, pods) := open_pod y pods (h_pod c) sid in
              (do! _ <- r; Ok (mkSt sid (h_pod c) lk), (t3 ++ tr)%list, pods)
          | Err e => (Err e, t3, pods)
          | Panic => (Panic, t3, pods)
          | OutOfFuel => (OutOfFuel, t3, pods)
          end
      | Err e => (Err e, t2, pods)
      | Panic => (Panic, t2, pods)
      | OutOfFuel => (OutOfFuel, t2, pods)
      end
  | Err e => (Err e, t1, pods)
  | Panic => (Panic, t1, pods)
  | OutOfFuel => (OutOfFuel, t1, pods)
  end.

(** configure_fave.go:47-61: the process ends with code 1, or serves. *)
Inductive boot := Serves (s : started) | Exits (code : N) | Crashes.
Definition boot_up (env : string -> string) (y : sys) (pods : list string) : boot * list call * list string :=
  let '(r, tr, pods) := new_handler env y pods (mkH false "" "" "" "" "" "" "") in
  (match r with Ok s => Serves s | Err _ => Exits 1 | _ => Crashes end, tr, pods).
