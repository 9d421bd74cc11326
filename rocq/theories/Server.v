(** Model of restapi/server.go: listeners, servers and shutdown.

    Simplifications.
    - net.Listen and swag.SplitHostPort are arguments ([listen_os], [split]); of the
      operating system only the list of bound addresses is kept.
    - Serving a connection, logging, the fields of http.Server other than the scheme and
      the listener, and the constants of the TLS configuration (lines 243-263) are left
      out; configureServer and configureTLS do nothing (configure_fave.go:70-79).
    - A goroutine started by Serve is represented by the entry of its server. *)
From Coq Require Import String.
From Verif Require Import Base.
Local Open Scope string_scope.

(** server.go:69-104. Durations and sizes are integers; [s_api] and [s_handler] say
    whether the pointers are set; the listeners are given by their addresses. *)
Record server := mkSrv {
  s_schemes : list string; s_socket : string;
  s_host : string; s_port : Z; s_limit : Z; s_keep : Z; s_read : Z; s_write : Z;
  s_tls_host : string; s_tls_port : Z; s_cert : string; s_key : string; s_ca : string;
  s_tls_limit : Z; s_tls_keep : Z; s_tls_read : Z; s_tls_write : Z;
  s_api : bool; s_handler : bool; s_has : bool;
  s_unixL : option string; s_httpL : option string; s_httpsL : option string
}.

(** server.go:38-42 and 138-151. *)
Definition default_schemes : list string := ["http"].
Definition has_scheme (enabled : list string) (scheme : string) : bool :=
  existsb (String.eqb scheme) (match enabled with [] => default_schemes | _ => enabled end).

(** server.go:334-355: unset TLS settings are those of plain HTTP. *)
Definition inherit (s : server) : server :=
  mkSrv (s_schemes s) (s_socket s) (s_host s) (s_port s) (s_limit s) (s_keep s) (s_read s) (s_write s)
    (if String.eqb (s_tls_host s) "" then s_host s else s_tls_host s) (s_tls_port s) (s_cert s) (s_key s) (s_ca s)
    (if Z.eqb (s_tls_limit s) 0 then s_limit s else s_tls_limit s)
    (if Z.eqb (s_tls_keep s) 0 then s_keep s else s_tls_keep s)
    (if Z.eqb (s_tls_read s) 0 then s_read s else s_tls_read s)
    (if Z.eqb (s_tls_write s) 0 then s_write s else s_tls_write s)
    (s_api s) (s_handler s) (s_has s) (s_unixL s) (s_httpL s) (s_httpsL s).

(** Assignments of lines 362, 375-377, 390-392 and 395. *)
Definition set_unix (s : server) (a : string) : server :=
  mkSrv (s_schemes s) (s_socket s) (s_host s) (s_port s) (s_limit s) (s_keep s) (s_read s) (s_write s)
    (s_tls_host s) (s_tls_port s) (s_cert s) (s_key s) (s_ca s) (s_tls_limit s) (s_tls_keep s) (s_tls_read s) (s_tls_write s)
    (s_api s) (s_handler s) (s_has s) (Some a) (s_httpL s) (s_httpsL s).
Definition set_http (s : server) (h : string) (p : Z) (a : string) : server :=
  mkSrv (s_schemes s) (s_socket s) h p (s_limit s) (s_keep s) (s_read s) (s_write s)
    (s_tls_host s) (s_tls_port s) (s_cert s) (s_key s) (s_ca s) (s_tls_limit s) (s_tls_keep s) (s_tls_read s) (s_tls_write s)
    (s_api s) (s_handler s) (s_has s) (s_unixL s) (Some a) (s_httpsL s).
Definition set_https (s : server) (h : string) (p : Z) (a : string) : server :=
  mkSrv (s_schemes s) (s_socket s) (s_host s) (s_port s) (s_limit s) (s_keep s) (s_read s) (s_write s)
    h p (s_cert s) (s_key s) (s_ca s) (s_tls_limit s) (s_tls_keep s) (s_tls_read s) (s_tls_write s)
    (s_api s) (s_handler s) (s_has s) (s_unixL s) (s_httpL s) (Some a).
Definition set_has (s : server) : server :=
  mkSrv (s_schemes s) (s_socket s) (s_host s) (s_port s) (s_limit s) (s_keep s) (s_read s) (s_write s)
    (s_tls_host s) (s_tls_port s) (s_cert s) (s_key s) (s_ca s) (s_tls_limit s) (s_tls_keep s) (s_tls_read s) (s_tls_write s)
    (s_api s) (s_handler s) true (s_unixL s) (s_httpL s) (s_httpsL s).

Section Net.
  (** net.Listen: with the addresses bound so far, the network and the address asked for;
      the address of the listener, or an error. *)
  Variable listen_os : list string -> string -> string -> option string.
  (** swag.SplitHostPort, and net.JoinHostPort with strconv.Itoa. *)
  Variable split : string -> option (string * Z).
  Variable join : string -> Z -> string.

  (** The server afterwards, the bound addresses, and whether there was no error.
      server.go:329-397. *)
  Definition lres : Type := server * list string * bool.

  (** server.go:357-363. *)
  Definition listen_unix (s : server) (b : list string) : lres :=
    if has_scheme (s_schemes s) "unix" then
      match listen_os b "unix" (s_socket s) with
      | None => (s, b, false)
      | Some a => (set_unix s a, a :: b, true)
      end
    else (s, b, true).
  (** server.go:365-378: the listener stays open when its address cannot be split. *)
  Definition listen_http (s : server) (b : list string) : lres :=
    if has_scheme (s_schemes s) "http" then
      match listen_os b "tcp" (join (s_host s) (s_port s)) with
      | None => (s, b, false)
      | Some a => match split a with
                  | None => (s, a :: b, false)
                  | Some (h, p) => (set_http s h p a, a :: b, true)
                  end
      end
    else (s, b, true).
  (** server.go:380-393. *)
  Definition listen_https (s : server) (b : list string) : lres :=
    if has_scheme (s_schemes s) "https" then
      match listen_os b "tcp" (join (s_tls_host s) (s_tls_port s)) with
      | None => (s, b, false)
      | Some a => match split a with
                  | None => (s, a :: b, false)
                  | Some (h, p) => (set_https s h p a, a :: b, true)
                  end
      end
    else (s, b, true).

  (** server.go:329-397. *)
  Definition listen (s : server) (b : list string) : lres :=
    if s_has s then (s, b, true)
    else
      let s := if has_scheme (s_schemes s) "https" then inherit s else s in
      let '(s, b, ok) := listen_unix s b in
      if negb ok then (s, b, false)
      else let '(s, b, ok) := listen_http s b in
      if negb ok then (s, b, false)
      else let '(s, b, ok) := listen_https s b in
      if negb ok then (s, b, false)
      else (set_has s, b, true).

  (** How Serve ends: an error, os.Exit, or waiting for the shutdown;
      with the servers it has started. server.go:153-326. *)
  Inductive served :=
  | SErr (started : list (string * option string))
  | SExit (started : list (string * option string))
  | SWait (started : list (string * option string)).

  (** tls.LoadX509KeyPair, os.ReadFile and AppendCertsFromPEM. server.go:265-305. *)
  Record certs := mkCerts { c_pair : bool; c_read : bool; c_parse : bool }.

  (** server.go:265-305: the TLS configuration. *)
  Inductive tls := TlsOk | TlsErr | TlsExit.
  Definition tls_config (c : certs) (s : server) : tls :=
    let both := (negb (String.eqb (s_cert s) "") && negb (String.eqb (s_key s) ""))%bool in
    if (both && negb (c_pair c))%bool then TlsErr
    else if (negb (String.eqb (s_ca s) "") && negb (c_read c))%bool then TlsErr
    else if (negb (String.eqb (s_ca s) "") && negb (c_parse c))%bool then TlsErr
    else if both then TlsOk else TlsExit.

  (** server.go:153-326: Serve up to the waiting in line 324. *)
  Definition serve (c : certs) (s : server) (b : list string) : server * list string * served :=
    let '(s, b, ok) := listen s b in
    if negb ok then (s, b, SErr [])
    else if (negb (s_handler s) && negb (s_api s))%bool then (s, b, SErr [])
    else
      let l1 := if has_scheme (s_schemes s) "unix" then [("unix", s_unixL s)] else [] in
      let l2 := if has_scheme (s_schemes s) "http" then [("http", s_httpL s)] else [] in
      if has_scheme (s_schemes s) "https" then
        match tls_config c s with
        | TlsErr => (s, b, SErr (l1 ++ l2))
        | TlsExit => (s, b, SExit (l1 ++ l2))
        | TlsOk => (s, b, SWait (l1 ++ l2 ++ [("https", s_httpsL s)]))
        end
      else (s, b, SWait (l1 ++ l2)).
End Net.

(** server.go:400-405: the flag and how often the channel was closed (twice panics). *)
Definition shutdown (st : Z * nat) : Z * nat :=
  let '(flag, closed) := st in if Z.eqb flag 0 then (1%Z, S closed) else (flag, closed).

(** server.go:489-503: each signal; [interrupted] and the state of [shutdown]. *)
Definition interrupt (st : bool * (Z * nat)) : bool * (Z * nat) :=
  let '(i, sh) := st in if i then (i, sh) else (true, shutdown sh).

(** server.go:440-443: [for range servers { success = success && <-shutdownChan }].
    [arrivals]: the values that the goroutines of lines 423-437 send, in the order of
    sending. The result: success and the values not received; [None] waits for ever. *)
Fixpoint await (n : nat) (success : bool) (arrivals : list bool) : option (bool * list bool) :=
  match n with
  | O => Some (success, arrivals)
  | S n => if success then match arrivals with
                           | [] => None
                           | r :: rest => await n r rest
                           end
           else await n false arrivals
  end.

(** server.go:407-447 after the shutdown channel is closed: whether ServerShutdown is
    called, and how many servers are still shutting down when the function returns. *)
Definition handle_shutdown (n : nat) (arrivals : list bool) : option (bool * nat) :=
  match await n true arrivals with
  | None => None
  | Some (success, rest) => Some (success, length rest)
  end.
