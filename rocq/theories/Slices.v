(** Model of the link lists of vertices as Go slices: headers that point into
    arrays, which can be shared (pkg/hnsw/vertex.go), under additions that run at
    the same time (neighbor_connections.go, insert.go).

    Simplifications.
    - Every slice here starts at the first element of its array, so a header is
      an array and a length; the capacity is the length of the array.  A nil
      slice is an empty array of its own.
    - The ratios of vertex.go:67-68 and 93-105 are compared exactly.  In float64
      the outcome is the same for lists shorter than 2^26.
    - A vertex is its Connections; its Level is their number minus one (C15).
    - What an addition chooses, which object the node cache returns for an id,
      and what the heuristic selects, are given by the events; the theorems hold
      for all of them. *)
From Verif Require Import Base.

(** vertex.go:23. *)
Record slice := mkSl { s_arr : nat; s_len : nat }.
(** Go specification (slices). *)
Definition arrays := list (list N).

(** Reading (model only). Not in the code. *)
Definition arr (m : arrays) (a : nat) : list N := nth a m [].
(** Go specification (slices). *)
Definition contents (m : arrays) (s : slice) : list N := firstn (s_len s) (arr m (s_arr s)).
(** Go's cap. vertex.go:65, 83. *)
Definition cap (m : arrays) (s : slice) : nat := length (arr m (s_arr s)).

(** vertex.go:93-110: the new capacity. *)
Definition target (max len : nat) : nat :=
  let t := if Nat.ltb (4 * len) max then max / 4
           else if Nat.ltb (2 * len) max then max / 2
           else if Nat.ltb (4 * len) (3 * max) then 3 * max / 4
           else max in
  if Nat.ltb t (len + 1) then len + 1 else t.

(** vertex.go:83-115 *)
Definition grow (max : nat) (m : arrays) (s : slice) : arrays * slice :=
  if Nat.eqb (s_len s) (cap m s)
  then (m ++ [contents m s ++ repeat 0%N (target max (s_len s) - s_len s)], mkSl (length m) (s_len s))
  else (m, s).

(** vertex.go:82-117; the append of line 116 writes in place, because there is
    room. *)
Definition append_link (max : nat) (m : arrays) (s : slice) (x : N) : arrays * slice :=
  let (m1, s1) := grow max m s in
  (upd m1 (s_arr s1) (upd (arr m1 (s_arr s1)) (s_len s1) x), mkSl (s_arr s1) (S (s_len s1))).

(** neighbor_connections.go:206-214: one append after the other. *)
Fixpoint append_links (max : nat) (m : arrays) (s : slice) (xs : list N) : arrays * slice :=
  match xs with
  | [] => (m, s)
  | x :: xs' => let (m', s') := append_link max m s x in append_links max m' s' xs'
  end.

(** vertex.go:119-121 *)
Definition reset_links (s : slice) : slice := mkSl (s_arr s) 0.

(** vertex.go:65-68: is the list replaced by the one that is given? *)
Definition replaces (oldCap newLen : nat) : bool :=
  Nat.ltb (100 * newLen) (67 * oldCap) || Nat.ltb oldCap newLen.

(** vertex.go:59-80; [n] is the list that is given. *)
Definition set_links (m : arrays) (s n : slice) : arrays * slice :=
  if replaces (cap m s) (s_len n) then (m, n)
  else (upd m (s_arr s) (contents m n ++ skipn (s_len n) (arr m (s_arr s))), mkSl (s_arr s) (s_len n)).

(** The nil slices that make leaves (vertex.go:53). *)
Fixpoint nils (base k : nat) : list slice :=
  match k with O => [] | S k' => mkSl base 0 :: nils (S base) k' end.

(** vertex.go:52-57, called if the level is above that of the vertex
    (neighbor_connections.go:149-152): the old headers are copied. *)
Definition upgrade (m : arrays) (conns : list slice) (l : nat) : arrays * list slice :=
  let k := S l - length conns in
  (m ++ repeat [] k, conns ++ nils (length m) k).

Section Machine.
  Variable M : nat.     (* maximumConnections *)

  (** neighbor_connections.go:238-244 *)
  Definition max_links (l : nat) : nat := match l with O => 2 * M | S _ => M end.

  (** neighbor_connections.go:146-215, under the lock of the neighbour: [id] is
      the new vertex, [sel] what the heuristic selects. *)
  Definition link_back (m : arrays) (conns : list slice) (l : nat) (id : N) (sel : list N) : arrays * list slice :=
    let (m1, c1) := upgrade m conns l in
    match nth_error c1 l with
    | None => (m1, c1)
    | Some s =>
        let (m2, s2) := if Nat.ltb (s_len s) (max_links l)
                        then append_link (max_links l) m1 s id
                        else append_links (max_links l) m1 (reset_links s) sel in
        (m2, upd c1 l s2)
    end.

  (** insert.go:234-243: the lists of a new vertex, from layer [l] up. *)
  Fixpoint fresh_lists (l k base : nat) : arrays * list slice :=
    match k with
    | O => ([], [])
    | S k' => let (m, c) := fresh_lists (S l) k' (S base) in
              (repeat 0%N (max_links l) :: m, mkSl base 0 :: c)
    end.

  (** An addition: its vertex object and id, the layers still to be linked with
      the neighbours it will choose there, the slice it ranges over with the
      position, the ids it has linked back, and its entry points.
      neighbor_connections.go:33-43, 60-136. *)
  Record adder := mkAd {
    g_own : nat;
    g_id : N;
    g_todo : list (nat * list N);
    g_cur : option (nat * slice * nat);
    g_log : list (nat * N);
    g_eps : list N
  }.

  (** vertex.go:18-27. *)
  Record memst := mkM { m_arr : arrays; m_objs : list (list slice); m_add : list adder }.

  (** neighbor_connections.go:73-218, insert.go:232-271, index.go:610-620. *)
  Inductive event :=
  | ENew (id : N) (target : nat) (script : list (nat * list N))   (* a new vertex and its addition *)
  | ELoad (ls : list (list N * list N))     (* a vertex read from the store: links and spare room *)
  | EGo (g : nat) (o : option nat) (sel : nat -> list N).         (* a step of addition [g] *)

  (** Slices over the arrays of a loaded vertex (vertex.go:23, json). *)
  Fixpoint load_lists (ls : list (list N * list N)) (base : nat) : list slice :=
    match ls with
    | [] => []
    | x :: ls' => mkSl base (length (fst x)) :: load_lists ls' (S base)
    end.

  (** One step of an addition (neighbor_connections.go:60-72, 98-136): set the
      links of the next layer; link one neighbour back; leave the layer.  The
      neighbours are read from their array (line 117 and 126). *)
  Definition go (st : memst) (g : nat) (o : option nat) (sel : nat -> list N) : memst :=
    match nth_error (m_add st) g with
    | None => st
    | Some G =>
        match g_cur G with
        | None =>
            match g_todo G with
            | [] => st
            | (l, nbs) :: todo =>
                match nth_error (m_objs st) (g_own G) with
                | None => st
                | Some conns =>
                    match nth_error conns l with
                    | None => st
                    | Some s =>
                        let n := mkSl (length (m_arr st)) (length nbs) in
                        let (m', s') := set_links (m_arr st ++ [nbs]) s n in
                        mkM m' (upd (m_objs st) (g_own G) (upd conns l s'))
                          (upd (m_add st) g (mkAd (g_own G) (g_id G) todo (Some (l, n, 0)) (g_log G) (g_eps G)))
                    end
                end
            end
        | Some (l, n, i) =>
            match nth_error (contents (m_arr st) n) i with
            | Some nb =>
                let G' := mkAd (g_own G) (g_id G) (g_todo G) (Some (l, n, S i)) (g_log G ++ [(l, nb)]) (g_eps G) in
                let skip := mkM (m_arr st) (m_objs st) (upd (m_add st) g G') in
                match o with
                | None => skip
                | Some ob =>
                    if Nat.eqb ob (g_own G) then skip
                    else match nth_error (m_objs st) ob with
                         | None => skip
                         | Some conns =>
                             let (m', c') := link_back (m_arr st) conns l (g_id G) (sel l) in
                             mkM m' (upd (m_objs st) ob c') (upd (m_add st) g G')
                         end
                end
            | None =>
                let ep := match rev (contents (m_arr st) n) with x :: _ => [x] | [] => [] end in
                mkM (m_arr st) (m_objs st)
                  (upd (m_add st) g (mkAd (g_own G) (g_id G) (g_todo G) None (g_log G) (g_eps G ++ ep)))
            end
        end
    end.

  (** Lines at the functions above. *)
  Definition mem_step (st : memst) (e : event) : memst :=
    match e with
    | ENew id t script =>
        let (m, c) := fresh_lists 0 (S t) (length (m_arr st)) in
        mkM (m_arr st ++ m) (m_objs st ++ [c])
            (m_add st ++ [mkAd (length (m_objs st)) id script None [] []])
    | ELoad ls =>
        mkM (m_arr st ++ map (fun x => fst x ++ snd x) ls) (m_objs st ++ [load_lists ls (length (m_arr st))]) (m_add st)
    | EGo g o sel => go st g o sel
    end.

  (** Not in the code: events in an order. *)
  Definition mem_run (evs : list event) : memst := fold_left mem_step evs (mkM [] [] []).

  (* ---------------------------------------------------------------- *)
  (** The same with lists as values.
      Not in the code: the reference with values, for neighbor_connections.go:73-218. *)
  Record vadder := mkVA {
    va_own : nat; va_id : N; va_todo : list (nat * list N);
    va_cur : option (nat * list N * nat); va_log : list (nat * N); va_eps : list N
  }.
  (** Not in the code: the reference with values, for neighbor_connections.go:73-218. *)
  Record valst := mkVS { vs_objs : list (list (list N)); vs_add : list vadder }.

  (** Not in the code: the reference with values, for neighbor_connections.go:73-218. *)
  Definition val_link_back (conns : list (list N)) (l : nat) (id : N) (sel : list N) : list (list N) :=
    let c1 := conns ++ repeat [] (S l - length conns) in
    match nth_error c1 l with
    | None => c1
    | Some cs => upd c1 l (if Nat.ltb (length cs) (max_links l) then cs ++ [id] else sel)
    end.

  (** Not in the code: the reference with values, for neighbor_connections.go:73-218. *)
  Definition val_go (st : valst) (g : nat) (o : option nat) (sel : nat -> list N) : valst :=
    match nth_error (vs_add st) g with
    | None => st
    | Some G =>
        match va_cur G with
        | None =>
            match va_todo G with
            | [] => st
            | (l, nbs) :: todo =>
                match nth_error (vs_objs st) (va_own G) with
                | None => st
                | Some conns =>
                    match nth_error conns l with
                    | None => st
                    | Some _ =>
                        mkVS (upd (vs_objs st) (va_own G) (upd conns l nbs))
                          (upd (vs_add st) g (mkVA (va_own G) (va_id G) todo (Some (l, nbs, 0)) (va_log G) (va_eps G)))
                    end
                end
            end
        | Some (l, nbs, i) =>
            match nth_error nbs i with
            | Some nb =>
                let G' := mkVA (va_own G) (va_id G) (va_todo G) (Some (l, nbs, S i)) (va_log G ++ [(l, nb)]) (va_eps G) in
                let skip := mkVS (vs_objs st) (upd (vs_add st) g G') in
                match o with
                | None => skip
                | Some ob =>
                    if Nat.eqb ob (va_own G) then skip
                    else match nth_error (vs_objs st) ob with
                         | None => skip
                         | Some conns =>
                             mkVS (upd (vs_objs st) ob (val_link_back conns l (va_id G) (sel l))) (upd (vs_add st) g G')
                         end
                end
            | None =>
                let ep := match rev nbs with x :: _ => [x] | [] => [] end in
                mkVS (vs_objs st)
                  (upd (vs_add st) g (mkVA (va_own G) (va_id G) (va_todo G) None (va_log G) (va_eps G ++ ep)))
            end
        end
    end.

  (** Not in the code: the reference with values, for neighbor_connections.go:73-218. *)
  Definition val_step (st : valst) (e : event) : valst :=
    match e with
    | ENew id t script =>
        mkVS (vs_objs st ++ [repeat [] (S t)]) (vs_add st ++ [mkVA (length (vs_objs st)) id script None [] []])
    | ELoad ls => mkVS (vs_objs st ++ [map fst ls]) (vs_add st)
    | EGo g o sel => val_go st g o sel
    end.

  (** Not in the code: the reference with values, for neighbor_connections.go:73-218. *)
  Definition val_run (evs : list event) : valst := fold_left val_step evs (mkVS [] []).

  (** What the memory shows.
      Not in the code: the reference with values, for neighbor_connections.go:73-218. *)
  Definition view_cur (m : arrays) (c : option (nat * slice * nat)) : option (nat * list N * nat) :=
    match c with Some (l, s, i) => Some (l, contents m s, i) | None => None end.
  (** Not in the code: the reference with values, for neighbor_connections.go:73-218. *)
  Definition view_add (m : arrays) (G : adder) : vadder :=
    mkVA (g_own G) (g_id G) (g_todo G) (view_cur m (g_cur G)) (g_log G) (g_eps G).
  (** Not in the code: the reference with values, for neighbor_connections.go:73-218. *)
  Definition view (st : memst) : valst :=
    mkVS (map (map (contents (m_arr st))) (m_objs st)) (map (view_add (m_arr st)) (m_add st)).

  (** What additions do: layers of their vertex, each once, and no more
      neighbours than a layer allows (heuristic.go:23-135). *)
  Definition ev_ok (e : event) : Prop :=
    match e with
    | ENew _ t script =>
        NoDup (map fst script) /\
        Forall (fun x => fst x <= t /\ length (snd x) <= max_links (fst x)) script
    | ELoad _ => True
    | EGo _ _ sel => forall l, length (sel l) <= max_links l
    end.
End Machine.
