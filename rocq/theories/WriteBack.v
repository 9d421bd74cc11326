(** The write-back of vertices when requests run at the same time: as
    [NodeRace], with whole vertices and with the two ways in which the code
    changes one.  A neighbour is changed under its lock, is marked as not
    written and put back into the node cache (neighbor_connections.go:146-214);
    the vertex that is being added is changed without either (vertex.go:59-80,
    insert.go:219, 233-243, 294).

    A handle is a pointer that a request holds; a request has one for the vertex
    it adds, one for the neighbour it links, one for the vertex its Flush writes.

    Simplifications.
    - One index.
    - What a change does to a vertex is any function of the vertex; [V] is what
      json stores of it (vertex.go:18-27).
    - The bounded node cache drops any vertex at any time ([OEvict]); all store
      calls succeed; json.Marshal reads a vertex in one step (the code does not
      lock it). *)
From Verif Require Import Base.

Section WriteBack.
  Variable V : Type.

  (** vertex.go:18-27; [w_comm] is Committed. *)
  Record wobj := mkW { w_val : V; w_comm : bool }.

  (** What a handle is good for.  [HLoaded]: read from the table and not yet in
      the cache (index.go:610-619); [HOwn]: the vertex being added; [HNode]:
      nodeByID returned it; [HSnap]: Flush has marshalled it (insert.go:129);
      [HPut]: Flush has written it (insert.go:133). *)
  Inductive handle :=
  | HLoaded (id : N) (v : V)
  | HOwn (id r : N)
  | HNode (id r : N)
  | HSnap (id r : N) (v : V)
  | HPut (id r : N).

  (** index.go:217, 610; vertex.go:18-27. *)
  Record wstate := mkWS {
    w_heap : nmap wobj;       (* objects by pointer *)
    w_next : N;               (* the next free pointer *)
    w_cache : nmap N;         (* index.go:217: pointer by id *)
    w_kv : nmap V;            (* the table *)
    w_hand : nmap handle
  }.
  Definition w_start : wstate := mkWS [] 0 [] [] [].

  (** Lines at the constructors. *)
  Inductive wop :=
  | WNew (t id : N) (v : V)                    (* insert.go:271 *)
  | WSet (t : N) (f : V -> V)                  (* vertex.go:59-80, insert.go:219, 294 *)
  | WGet (t id : N)                            (* index.go:600-616 *)
  | WPublish (t : N)                           (* index.go:620 *)
  | WLink (t : N) (f : V -> V) (back : bool)   (* neighbor_connections.go:146-214; [back]: the Add of line 162 or 208 is reached *)
  | WDone (t : N)                              (* the pointer is dropped *)
  | WMarshal (t id : N)                        (* insert.go:121-129 *)
  | WPut (t : N)                               (* insert.go:133 *)
  | WMark (t : N)                              (* insert.go:137-138 *)
  | WEvict (id : N)                            (* golang-lru: the vertex leaves the cache, unwritten *)
  | WRestart.

  (** Not in the code: a request keeps a pointer. *)
  Definition set_hand (s : wstate) (t : N) (g : handle) : wstate :=
    mkWS (w_heap s) (w_next s) (w_cache s) (w_kv s) (mset t g (w_hand s)).
  (** Not in the code: a request drops a pointer. *)
  Definition drop_hand (s : wstate) (t : N) : wstate :=
    mkWS (w_heap s) (w_next s) (w_cache s) (w_kv s) (mdel t (w_hand s)).
  (** insert.go:232-271, index.go:610-620. *)
  Definition fresh_obj (s : wstate) (t id : N) (v : V) (g : handle) : wstate :=
    mkWS (mset (w_next s) (mkW v false) (w_heap s)) (w_next s + 1) (mset id (w_next s) (w_cache s)) (w_kv s)
         (mset t g (w_hand s)).

  (** One step (lines at the constructors); a step that does not fit the handle
      does nothing. Lines at the constructors of [wop]. *)
  Definition wstep (s : wstate) (o : wop) : wstate :=
    match o with
    | WNew t id v => fresh_obj s t id v (HOwn id (w_next s))
    | WSet t f =>
        match mget t (w_hand s) with
        | Some (HOwn id r) =>
            match mget r (w_heap s) with
            | Some o => mkWS (mset r (mkW (f (w_val o)) (w_comm o)) (w_heap s)) (w_next s) (w_cache s) (w_kv s) (w_hand s)
            | None => s
            end
        | _ => s
        end
    | WGet t id =>
        match mget id (w_cache s) with
        | Some r => set_hand s t (HNode id r)
        | None => match mget id (w_kv s) with
                  | Some v => set_hand s t (HLoaded id v)
                  | None => drop_hand s t
                  end
        end
    | WPublish t =>
        match mget t (w_hand s) with
        | Some (HLoaded id v) => fresh_obj s t id v (HNode id (w_next s))
        | _ => s
        end
    | WLink t f back =>
        match mget t (w_hand s) with
        | Some (HNode id r) =>
            match mget r (w_heap s) with
            | Some o => mkWS (mset r (mkW (f (w_val o)) false) (w_heap s)) (w_next s)
                             (if back then mset id r (w_cache s) else w_cache s) (w_kv s) (w_hand s)
            | None => s
            end
        | _ => s
        end
    | WDone t => drop_hand s t
    | WMarshal t id =>
        match mget id (w_cache s) with
        | Some r =>
            match mget r (w_heap s) with
            | Some o => if w_comm o then drop_hand s t else set_hand s t (HSnap id r (w_val o))
            | None => s
            end
        | None => drop_hand s t
        end
    | WPut t =>
        match mget t (w_hand s) with
        | Some (HSnap id r v) => mkWS (w_heap s) (w_next s) (w_cache s) (mset id v (w_kv s)) (mset t (HPut id r) (w_hand s))
        | _ => s
        end
    | WMark t =>
        match mget t (w_hand s) with
        | Some (HPut id r) =>
            match mget r (w_heap s) with
            | Some o => mkWS (mset r (mkW (w_val o) true) (w_heap s)) (w_next s) (mset id r (w_cache s)) (w_kv s) (mdel t (w_hand s))
            | None => s
            end
        | _ => s
        end
    | WEvict id => mkWS (w_heap s) (w_next s) (mdel id (w_cache s)) (w_kv s) (w_hand s)
    | WRestart => mkWS [] 0 [] (w_kv s) []
    end.

  (** Not in the code: steps in an order. *)
  Definition wrun (s : wstate) (os : list wop) : wstate := fold_left wstep os s.

  (** What nodeByID shows (index.go:594-623). *)
  Definition shown (s : wstate) (id : N) : option V :=
    match mget id (w_cache s) with
    | Some r => option_map w_val (mget r (w_heap s))
    | None => mget id (w_kv s)
    end.

  (** A step of a request before its Flush: everything but writing back and
      restarting.  A query (search.go) only loads vertices. *)
  Definition works (o : wop) : bool :=
    match o with WMarshal _ _ | WPut _ | WMark _ | WRestart => false | _ => true end.
  Definition reads (o : wop) : bool :=
    match o with WGet _ _ | WPublish _ | WDone _ | WEvict _ => true | _ => false end.

  (** insert.go:119-139 with handle 0: Flush goes through the keys; before each of
      its steps the cache may drop vertices. *)
  Definition evictions (ids : list N) : list wop := map WEvict ids.
  Fixpoint flush_ops (keys : list N) (drops : list (list N)) : list wop :=
    match keys with
    | [] => []
    | k :: keys' =>
        evictions (nth 0 drops []) ++ [WMarshal 0 k] ++ evictions (nth 1 drops []) ++ [WPut 0] ++
        evictions (nth 2 drops []) ++ [WMark 0] ++ flush_ops keys' (skipn 3 drops)
    end.

  (** The end of a request: its pointers are gone. insert.go:164, 310. *)
  Definition no_hands (s : wstate) : wstate := mkWS (w_heap s) (w_next s) (w_cache s) (w_kv s) [].

  (** Requests one after the other.  [EReq]: additions and then the Flush of the
      vertices that are cached then (document.go:300-447, insert.go:118-139);
      [EFail]: the same, ended by an error (a panic) after [n] steps of the Flush,
      with 0 before it; [EQuery]: a query; [EDrop]: in between the cache drops
      vertices; [ERestart]. *)
  Inductive wevent :=
  | EReq (body : list wop) (drops : list (list N))
  | EFail (body : list wop) (drops : list (list N)) (n : nat)
  | EQuery (body : list wop)
  | EDrop (ids : list N)
  | ERestart.
  Definition worked (s : wstate) (body : list wop) : wstate := no_hands (wrun s (filter works body)).
  Definition wevent_step (s : wstate) (e : wevent) : wstate :=
    match e with
    | EReq body drops =>
        let s1 := worked s body in
        no_hands (wrun s1 (flush_ops (map fst (w_cache s1)) drops))
    | EFail body drops n =>
        let s1 := worked s body in
        no_hands (wrun s1 (firstn n (flush_ops (map fst (w_cache s1)) drops)))
    | EQuery body => no_hands (wrun s (filter reads body))
    | EDrop ids => wrun s (evictions ids)
    | ERestart => wstep s WRestart
    end.
  Definition wevents (s : wstate) (es : list wevent) : wstate := fold_left wevent_step es s.

  (** The same with the entry point and the document count (insert.go:141-199): in
      memory the entry point [x_ep]; in the table [x_kep] and [x_kcnt]. *)
  Record xstate := mkX { x_w : wstate; x_ep : N; x_kep : option N; x_kcnt : option N }.
  Definition x_start : xstate := mkX w_start 0 None None.
  (** insert.go:181-199; 0 if the key is missing. *)
  Definition x_load (x : xstate) : xstate :=
    mkX (x_w x) (match x_kep x with Some e => e | None => 0%N end) (x_kep x) (x_kcnt x).

  (** [XReq]: an acknowledged request for additions after which the entry point is
      [ep] (None: it did not change it; insert.go:88, 297-307) and which gives Flush
      the count [cnt]; [XFail]: ended by an error after [n] steps of writing vertices;
      [XLate]: ended by an error after the entry point was written (insert.go:148-161);
      [XQuery]: LoadEntrypoint and reading; [XRestart]: a new process, entry point 0
      (index.go:213-290). *)
  Inductive xevent :=
  | XReq (body : list wop) (drops : list (list N)) (ep : option N) (cnt : N)
  | XFail (body : list wop) (drops : list (list N)) (n : nat) (ep : option N)
  | XLate (body : list wop) (drops : list (list N)) (ep : option N)
  | XQuery (body : list wop)
  | XDrop (ids : list N)
  | XRestart.
  Definition x_step (x : xstate) (e : xevent) : xstate :=
    match e with
    | XReq body drops ep cnt =>
        let e' := match ep with Some e => e | None => x_ep x end in
        mkX (wevent_step (x_w x) (EReq body drops)) e' (Some e') (Some cnt)
    | XFail body drops n ep =>
        mkX (wevent_step (x_w x) (EFail body drops n)) (match ep with Some e => e | None => x_ep x end) (x_kep x) (x_kcnt x)
    | XLate body drops ep =>
        let e' := match ep with Some e => e | None => x_ep x end in
        mkX (wevent_step (x_w x) (EReq body drops)) e' (Some e') (x_kcnt x)
    | XQuery body =>
        let x' := x_load x in mkX (wevent_step (x_w x') (EQuery body)) (x_ep x') (x_kep x') (x_kcnt x')
    | XDrop ids => mkX (wevent_step (x_w x) (EDrop ids)) (x_ep x) (x_kep x) (x_kcnt x)
    | XRestart => mkX (wevent_step (x_w x) ERestart) 0 (x_kep x) (x_kcnt x)
    end.
  Definition x_run (x : xstate) (es : list xevent) : xstate := fold_left x_step es x.
End WriteBack.

Arguments mkW {V}. Arguments w_val {V}. Arguments w_comm {V}. Arguments mkWS {V}.
Arguments w_heap {V}. Arguments w_next {V}. Arguments w_cache {V}. Arguments w_kv {V}. Arguments w_hand {V}.
Arguments HLoaded {V}. Arguments HOwn {V}. Arguments HNode {V}. Arguments HSnap {V}. Arguments HPut {V}.
Arguments WNew {V}. Arguments WSet {V}. Arguments WGet {V}. Arguments WPublish {V}. Arguments WLink {V}.
Arguments WDone {V}. Arguments WMarshal {V}. Arguments WPut {V}. Arguments WMark {V}. Arguments WEvict {V}. Arguments WRestart {V}.
Arguments wstep {V}. Arguments wrun {V}. Arguments shown {V}. Arguments w_start {V}. Arguments wevents {V}.
Arguments EReq {V}. Arguments EFail {V}. Arguments EQuery {V}. Arguments EDrop {V}. Arguments ERestart {V}. Arguments set_hand {V}. Arguments drop_hand {V}. Arguments fresh_obj {V}.
Arguments works {V}. Arguments reads {V}. Arguments evictions {V}. Arguments flush_ops {V}. Arguments no_hands {V}. Arguments worked {V}. Arguments wevent_step {V}.
Arguments mkX {V}. Arguments x_w {V}. Arguments x_ep {V}. Arguments x_kep {V}. Arguments x_kcnt {V}.
Arguments x_start {V}. Arguments x_load {V}. Arguments x_step {V}. Arguments x_run {V}.
Arguments XReq {V}. Arguments XFail {V}. Arguments XLate {V}. Arguments XQuery {V}. Arguments XDrop {V}. Arguments XRestart {V}.
