(** Model of the pools of working storage that all searches of an index share
    (pkg/hnsw/pools.go, visited/pool.go) and of the functions that take from
    them, as programs that can be interleaved.

    Simplifications.
    - One call of a queue method is one step, so is one access to the visited
      list; the four kinds of pooled objects share a record type.
    - sync.Pool.Get gives any object of the pool or a new one, and Put may drop
      the object: an oracle decides.  Borrow and Return of the visited lists
      (visited/pool.go:40-66) are covered by the same choices.
    - A visited list is the set of ids it marks (C12 shows that the marks and
      versions behave as one).  A list that had to grow is longer than the pool
      allows and is thrown away (visited/pool.go:60), so pooled lists have the
      length [e_vcap].
    - The index a call works on does not change during the call (see C84 for
      queries, C64 for links). *)
From Verif Require Import Base F32 PQ Graph Search Insert.

(** pools.go:21-30: pqCandidates, pqResults, pqHeuristic, pqItemSlice,
    visitedLists; [SNew] is the queue that connectNeighborAtLevel makes itself
    (neighbor_connections.go:179). *)
Inductive slot := SCand | SRes | SHeur | SList | SVis | SNew.

(** Equality of variables (model only). Not in the code. *)
Definition slot_eqb (a b : slot) : bool :=
  match a, b with
  | SCand, SCand | SRes, SRes | SHeur, SHeur | SList, SList | SVis, SVis | SNew, SNew => true
  | _, _ => false
  end.

(** The comparison a queue was made with (queue.go:24-40,
    queue_with_index.go:28-44); none for slices and visited lists. *)
Inductive kind := KMin | KMax | KMinX | KPlain.

(** queue.go:19-22, queue_with_index.go:23-26, visited/list_set.go:23-25. *)
Record obj := mkObj {
  o_kind : kind;
  o_items : list item;    (* queue.go:19-22 *)
  o_x : list itemx;       (* queue_with_index.go:23-26, pqItemSlice *)
  o_ids : list N          (* visited/list_set.go *)
}.

(** The New functions of the pools: pools.go:36-45, 52-60, 81-89, 110-118,
    visited/pool.go:51; neighbor_connections.go:179. *)
Definition kind_of (s : slot) : kind :=
  match s with SCand => KMin | SRes => KMax | SHeur => KMinX | SNew => KMax | SList | SVis => KPlain end.
Definition new_obj (s : slot) : obj := mkObj (kind_of s) [] [] [].

(** queue.go:105-111, queue_with_index.go:109-115: Reset and ResetCap. *)
Definition o_reset (o : obj) : obj := mkObj (o_kind o) [] [] (o_ids o).

(** list_set.go Reset, called by Return (visited/pool.go:63). *)
Definition o_clear (o : obj) : obj := mkObj (o_kind o) (o_items o) (o_x o) [].

(** What Get does with an object of the pool: the queues are reset
    (pools.go:62-71, 91-100, 120-129), slices and lists are not. *)
Definition on_get (s : slot) (o : obj) : obj :=
  match s with SCand | SRes | SHeur => o_reset o | _ => o end.

(** What Put does: the queues and slices go back as they are (pools.go:73-75,
    102-104, 131-133), a visited list is reset. *)
Definition on_put (s : slot) (o : obj) : obj :=
  match s with SVis => o_clear o | _ => o end.

(** pools.go:62-71: the capacity after GetMin or GetMax. *)
Definition cap_get (c want : Z) : Z := if (c <? want)%Z then want else c.

(** Queue operations with the queue's own comparison. queue.go:24-40. *)
Definition qless (o : obj) : item -> item -> bool :=
  match o_kind o with KMin => less_min | _ => less_max end.
(** queue.go:76-83 *)
Definition o_insert (x : item) (o : obj) : obj :=
  mkObj (o_kind o) (pq_insert (qless o) x (o_items o)) (o_x o) (o_ids o).
(** queue.go:85-91 *)
Definition o_top (o : obj) : option (item * list item) := pq_pop (qless o) (o_items o).
Definition o_pop (o : obj) : obj :=
  match o_top o with
  | Some (_, l) => mkObj (o_kind o) l (o_x o) (o_ids o)
  | None => o
  end.
(** queue_with_index.go:80-95; all of them are min queues (pools.go:84). *)
Definition o_insertx (x : itemx) (o : obj) : obj :=
  mkObj (o_kind o) (o_items o) (pq_insert less_minx x (o_x o)) (o_ids o).
Definition o_popx (o : obj) : obj :=
  match pq_pop less_minx (o_x o) with
  | Some (_, l) => mkObj (o_kind o) (o_items o) l (o_ids o)
  | None => o
  end.
(** heuristic.go:116 (append) and 129 (rewind). *)
Definition o_append (x : itemx) (o : obj) : obj := mkObj (o_kind o) (o_items o) (o_x o ++ [x]) (o_ids o).
Definition o_rewind (o : obj) : obj := mkObj (o_kind o) (o_items o) [] (o_ids o).
(** list_set.go Visit. *)
Definition o_mark (id : N) (o : obj) : obj := mkObj (o_kind o) (o_items o) (o_x o) (id :: o_ids o).

(** A program of one goroutine.  [Use s f k] lets [f] work on the object in the
    variable [s] and goes on with what the object was before.
    Not in the code: the calls of pools.go that a function makes, in order. *)
Inductive prog (A : Type) :=
| Ret (a : A)
| Get (s : slot) (cap : Z) (k : prog A)
| Use (s : slot) (f : obj -> obj) (k : obj -> prog A)
| Put (s : slot) (k : prog A).
Arguments Ret {A}. Arguments Get {A}. Arguments Use {A}. Arguments Put {A}.

(** How a function ends without a result.
    Not in the code: error returns and panics, search.go:164-325. *)
Inductive stop := SErr (e : err) | SPanic | SFuel.
(** Not in the code: see [stop]. *)
Definition of_stop {B} (s : stop) : res B :=
  match s with SErr e => Err e | SPanic => Panic | SFuel => OutOfFuel end.

(** Len, Top and Visited: reading only (queue.go:72-74, 93-95). *)
Definition same (o : obj) : obj := o.

Section Programs.
  Context {A : Type}.

  (** Popping a queue until it is empty, e.g. search_with_max_dist.go:66-69. *)
  Fixpoint drain_loop (s : slot) (fuel : nat) (acc : list item) (k : list item -> prog A) : prog A :=
    match fuel with
    | O => k (rev acc)
    | S f => Use s o_pop (fun o =>
        match o_top o with
        | Some (x, _) => drain_loop s f (x :: acc) k
        | None => k (rev acc)
        end)
    end.
  Definition drain_p (s : slot) (k : list item -> prog A) : prog A :=
    Use s same (fun o => drain_loop s (length (o_items o)) [] k).

  Section Layer.
    Variable E : env.
    Variable h : hnsw.
    Variable q : vec.
    Variable ef : Z.
    Variable level : nat.
    Variable allow : option (N -> bool).

    (** search.go:327-351; [detached] as in [Search.visit_eps]. *)
    Fixpoint eps_p (es : list item) (detached : bool) (k : prog A) : prog A :=
      match es with
      | [] => k
      | ep :: es' =>
          let d := detached || negb (N.ltb (it_id ep) (e_vcap E)) in
          Use SVis (fun o => if d then o else o_mark (it_id ep) o) (fun _ =>
          Use SCand (o_insert ep) (fun _ =>
          if negb (allowed level allow (it_id ep)) then eps_p es' d k
          else if has_tombstone h (it_id ep) then eps_p es' d k
          else Use SRes (o_insert ep) (fun _ => eps_p es' d k)))
      end.

    (** search.go:248-254 *)
    Fixpoint fresh_p (conns acc : list N) (k : list N -> prog A) : prog A :=
      match conns with
      | [] => k (rev acc)
      | id :: conns' =>
          Use SVis (fun o => if memN id (o_ids o) then o else o_mark id o) (fun o =>
          if memN id (o_ids o) then fresh_p conns' acc k else fresh_p conns' (id :: acc) k)
      end.

    (** search.go:279-315 *)
    Fixpoint steps_p (nds : list item) (w : f32) (k : f32 -> prog A) : prog A :=
      match nds with
      | [] => k w
      | nd :: nds' =>
          Use SRes same (fun r =>
          if flt (it_dist nd) w || (Z.of_nat (length (o_items r)) <? ef)%Z then
            Use SCand (o_insert nd) (fun _ =>
            if negb (allowed level allow (it_id nd)) then steps_p nds' w k
            else if has_tombstone h (it_id nd) then steps_p nds' w k
            else
              Use SRes (o_insert nd) (fun _ =>
              Use SRes (fun o => if (ef <? Z.of_nat (length (o_items o)))%Z then o_pop o else o) (fun _ =>
              Use SRes same (fun r2 =>
              steps_p nds' (match pq_top (o_items r2) with Some x => it_dist x | None => w end) k))))
          else steps_p nds' w k)
      end.

    (** search.go:198-316 *)
    Fixpoint loop_p (fuel : nat) (w : f32) (kf : stop -> prog A) (k : prog A) : prog A :=
      match fuel with
      | O => kf SFuel
      | S f =>
          Use SCand o_pop (fun o =>
          match o_top o with
          | None => k
          | Some (c, _) =>
              Use SRes same (fun r =>
              if fgt (it_dist c) w && (ef <=? Z.of_nat (length (o_items r)))%Z then k
              else
                match node_by_id h (it_id c) with
                | None => loop_p f w kf k
                | Some v =>
                    if Nat.ltb (v_level v) level then loop_p f w kf k
                    else
                      match conns_at v level with
                      | None => kf SPanic
                      | Some conns =>
                          fresh_p conns [] (fun ids =>
                          steps_p (e_sched E level f (neighbour_dists E h q ids)) w (fun w' =>
                          loop_p f w' kf k))
                      end
                end)
          end)
      end.

    (** search.go:164-325; the results stay in the variable [SRes].  When it
        fails, nothing goes back to the pools (lines 195-197). *)
    Definition layer_p (eps : list item) (kf : stop -> prog A) (k : prog A) : prog A :=
      let es := pq_drain less_min eps in
      Get SVis 0 (Get SCand ef (Get SRes ef
        (eps_p es false
          (Use SRes same (fun r =>
           match worst_dist E h q (o_items r) with
           | Ok w => loop_p (S (length es + length (stored_ids h))) w kf (Put SCand (Put SVis k))
           | Err e => kf (SErr e)
           | Panic => kf SPanic
           | OutOfFuel => kf SFuel
           end))))).
  End Layer.

  Section Knn.
    Variable E : env.
    Variable h : hnsw.

    (** search_with_max_dist.go:41-56 *)
    Fixpoint descend_p (q : vec) (l : nat) (ep : N) (epd : f32) (kf : stop -> prog A) (k : N -> f32 -> prog A) : prog A :=
      match l with
      | O => k ep epd
      | S l' =>
          layer_p E h q 1 l None (pq_insert less_min (mkItem ep epd) []) kf
            (Use SRes o_pop (fun o =>
             match o_top o with
             | Some (best, _) => Put SRes (descend_p q l' (it_id best) (it_dist best) kf k)
             | None => Put SRes (descend_p q l' ep epd kf k)
             end))
      end.

    (** search_with_max_dist.go:22-87 *)
    Definition knn_max_dist_p (q0 : vec) (maxd : f32) (ef : Z) (allow : option (N -> bool))
               (k : res (list N * list f32) -> prog A) : prog A :=
      let q := p_normalize (e_prov E) q0 in
      let kf := fun s => k (of_stop s) in
      match dist_node_vec (e_prov E) h (h_ep h) q with
      | Ok d0 =>
          descend_p q (h_maxl h) (h_ep h) d0 kf (fun ep epd =>
          layer_p E h q ef 0 allow (pq_insert less_min (mkItem ep epd) []) kf
            (drain_p SRes (fun l =>
             let all := rev l in
             let kept := cut all maxd in
             Put SRes (k (Ok (map it_id kept, map it_dist kept ++ repeat f32_zero (length all - length kept)))))))
      | Err e => k (Err e)
      | Panic => k Panic
      | OutOfFuel => k OutOfFuel
      end.

    (** search.go:494-518: pops up to the first entry that is stored and not
        under maintenance. *)
    Fixpoint pick_p (fuel : nat) (k : option item -> prog A) : prog A :=
      match fuel with
      | O => k None
      | S f => Use SRes o_pop (fun o =>
          match o_top o with
          | None => k None
          | Some (x, _) =>
              match node_by_id h (it_id x) with
              | None => pick_p f k
              | Some v => if v_maint v then pick_p f k else k (Some x)
              end
          end)
      end.

    (** search.go:480-521 *)
    Fixpoint descend_maint_p (q : vec) (l : nat) (ep : N) (epd : f32) (kf : stop -> prog A) (k : N -> f32 -> prog A) : prog A :=
      match l with
      | O => k ep epd
      | S l' =>
          layer_p E h q 1 l None (pq_insert less_min (mkItem ep epd) []) kf
            (Use SRes same (fun o => pick_p (length (o_items o)) (fun b =>
             Put SRes
               (match b with
                | Some best => descend_maint_p q l' (it_id best) (it_dist best) kf k
                | None => descend_maint_p q l' ep epd kf k
                end))))
      end.

    (** search.go:528-530 *)
    Fixpoint pop_to_p (fuel : nat) (n : Z) (k : prog A) : prog A :=
      match fuel with
      | O => k
      | S f => Use SRes same (fun o =>
          if (n <? Z.of_nat (length (o_items o)))%Z
          then Use SRes o_pop (fun _ => pop_to_p f n k)
          else k)
      end.

    (** search.go:464-546 *)
    Definition knn_search_p (q : vec) (n ef : Z) (allow : option (N -> bool))
               (k : res (list N * list f32) -> prog A) : prog A :=
      let kf := fun s => k (of_stop s) in
      if is_empty h then k (Ok ([], []))
      else
        match dist_node_vec (e_prov E) h (h_ep h) q with
        | Ok d0 =>
            descend_maint_p q (h_maxl h) (h_ep h) d0 kf (fun ep epd =>
            layer_p E h q ef 0 allow (pq_insert less_min (mkItem ep epd) []) kf
              (if (n <? 0)%Z then k Panic
               else Use SRes same (fun o => pop_to_p (length (o_items o)) n
                 (drain_p SRes (fun l =>
                  let all := rev l in Put SRes (k (Ok (map it_id all, map it_dist all))))))))
        | Err e => k (Err e)
        | Panic => k Panic
        | OutOfFuel => k OutOfFuel
        end.
  End Knn.

  Section Heuristic.
    Variable P : provider.
    Variable get : N -> res vec.
    Variable deny : N -> bool.
    Variable inp : slot.
    Variable max : nat.

    (** heuristic.go:34-40: from the input to closestFirst. *)
    Fixpoint move_p (fuel i : nat) (acc : list N) (k : list N -> prog A) : prog A :=
      match fuel with
      | O => k (rev acc)
      | S f => Use inp o_pop (fun o =>
          match o_top o with
          | None => k (rev acc)
          | Some (x, _) =>
              Use SHeur (o_insertx (mkItemx (it_id x) i (it_dist x))) (fun _ =>
              move_p f (S i) (it_id x :: acc) k)
          end)
      end.

    (** heuristic.go:84-120 *)
    Fixpoint heur_p (vecs : list (option vec)) (fuel : nat) (kf : stop -> prog A) (k : prog A) : prog A :=
      match fuel with
      | O => k
      | S f =>
          Use SList same (fun l =>
          if Nat.leb max (length (o_x l)) then k
          else
            Use SHeur o_popx (fun o =>
            match pq_pop less_minx (o_x o) with
            | None => k
            | Some (c, _) =>
                if deny (ix_id c) then heur_p vecs f kf k
                else
                  match nth_error vecs (ix_index c) with
                  | Some (Some cv) =>
                      Use SList (fun l => if heur_good P vecs cv (ix_dist c) (o_x l) then o_append c l else l) (fun _ =>
                      heur_p vecs f kf k)
                  | Some None => kf (SErr EVectorSource)
                  | None => kf SPanic
                  end
            end))
      end.

    (** heuristic.go:124-126 *)
    Fixpoint back_p (ret : list itemx) (k : prog A) : prog A :=
      match ret with
      | [] => k
      | x :: ret' => Use inp (o_insert (mkItem (ix_id x) (ix_dist x))) (fun _ => back_p ret' k)
      end.

    (** heuristic.go:23-135 *)
    Definition heuristic_p (kf : stop -> prog A) (k : prog A) : prog A :=
      Use inp same (fun o =>
      let n := length (o_items o) in
      if Nat.ltb n max then k
      else
        Get SHeur (Z.of_nat n)
          (move_p n 0 [] (fun ids =>
           match fetch get ids with
           | Ok vecs =>
               Get SList 0
                 (Use SHeur same (fun c =>
                  heur_p vecs (length (o_x c)) kf
                    (Put SHeur
                      (Use SList same (fun l =>
                       back_p (o_x l)
                         (Use SList o_rewind (fun _ => Put SList k)))))))
           | Err e => kf (SErr e)
           | Panic => kf SPanic
           | OutOfFuel => kf SFuel
           end))).
  End Heuristic.

  Section Insert.
    Variable I : ienv.
    Local Notation E := (i_env I).
    Local Notation P := (e_prov (i_env I)).

    (** neighbor_connections.go:73-108 *)
    Definition choose_p (h : hnsw) (nid : N) (q : vec) (level : nat) (ep : N)
               (k : res (N * list N) -> prog A) : prog A :=
      let kf := fun s => k (of_stop s) in
      match pick_ep P h q 4 [] ep with
      | Ok e =>
          layer_p E h q (i_efc I) level None (pq_insert less_min (mkItem (fst e) (snd e)) []) kf
            (heuristic_p P (i_vs I level nid) (fun _ => false) SRes (i_M I) kf
              (drain_p SRes (fun l => Put SRes (k (Ok (fst e, map it_id l))))))
      | Err e => k (Err e)
      | Panic => k Panic
      | OutOfFuel => k OutOfFuel
      end.

    (** neighbor_connections.go:178-190 *)
    Fixpoint cands_p (get : N -> res vec) (nb : N) (cs : list N) (kf : stop -> prog A) (k : prog A) : prog A :=
      match cs with
      | [] => k
      | c :: cs' =>
          match dist_nodes P get c nb with
          | Ok d => Use SNew (o_insert (mkItem c d)) (fun _ => cands_p get nb cs' kf k)
          | Err e => kf (SErr e)
          | Panic => kf SPanic
          | OutOfFuel => kf SFuel
          end
      end.

    (** neighbor_connections.go:162-209; the queue is not from a pool. *)
    Definition reselect_p (nid nb : N) (level : nat) (cs : list N) (k : res (list N) -> prog A) : prog A :=
      let get := i_vs I level nb in
      let kf := fun s => k (of_stop s) in
      match dist_nodes P get nid nb with
      | Ok d =>
          Get SNew (Z.of_nat (S (length cs)))
            (Use SNew (o_insert (mkItem nid d)) (fun _ =>
             cands_p get nb cs kf
               (heuristic_p P get (fun _ => false) SNew (max_conns I level) kf
                 (drain_p SNew (fun l => k (Ok (map it_id l)))))))
      | Err e => k (Err e)
      | Panic => k Panic
      | OutOfFuel => k OutOfFuel
      end.

    (** index.go:391-428 *)
    Fixpoint best_p (h : hnsw) (q : vec) (target n : nat) (ep : N) (k : res N -> prog A) : prog A :=
      let kf := fun s => k (of_stop s) in
      match n with
      | O => k (Ok ep)
      | S n' =>
          match dist_node_vec P h ep q with
          | Ok d =>
              layer_p E h q 1 (target + n) None (pq_insert less_min (mkItem ep d) []) kf
                (Use SRes o_pop (fun o =>
                 match o_top o with
                 | None => Put SRes (best_p h q target n' ep k)
                 | Some (x, _) =>
                     Put SRes
                       (match node_by_id h (it_id x) with
                        | Some v => best_p h q target n' (if v_maint v then ep else it_id x) k
                        | None => best_p h q target n' ep k
                        end)
                 end))
          | Err e => k (Err e)
          | Panic => k Panic
          | OutOfFuel => k OutOfFuel
          end
      end.
  End Insert.
End Programs.

(** The calls that take working storage from the pools, and their results.
    search_with_max_dist.go:22, search.go:464, neighbor_connections.go:73, 138,
    delete.go:443. *)
Inductive call :=
| CMaxDist (E : env) (h : hnsw) (q0 : vec) (maxd : f32) (ef : Z) (allow : option (N -> bool))
| CKnn (E : env) (h : hnsw) (q : vec) (n ef : Z) (allow : option (N -> bool))
| CChoose (J : ienv) (h : hnsw) (nid : N) (q : vec) (level : nat) (ep : N)
| CReselect (J : ienv) (nid nb : N) (level : nat) (cs : list N)
| CBest (J : ienv) (h : hnsw) (q : vec) (target n : nat) (ep : N).

(** The results of the functions at [call]. *)
Inductive outcome :=
| OAnswer (r : res (list N * list f32))
| OChoice (r : res (N * list N))
| OLinks (r : res (list N))
| OEntry (r : res N).

(** The program of a call. The functions at [call]. *)
Definition call_p {A} (c : call) (k : outcome -> prog A) : prog A :=
  match c with
  | CMaxDist E h q0 maxd ef allow => knn_max_dist_p E h q0 maxd ef allow (fun r => k (OAnswer r))
  | CKnn E h q n ef allow => knn_search_p E h q n ef allow (fun r => k (OAnswer r))
  | CChoose J h nid q level ep => choose_p J h nid q level ep (fun r => k (OChoice r))
  | CReselect J nid nb level cs => reselect_p J nid nb level cs (fun r => k (OLinks r))
  | CBest J h q target n ep => best_p J h q target n ep (fun r => k (OEntry r))
  end.

(** A goroutine makes calls one after the other.
    Not in the code: calls one after the other. *)
Fixpoint calls_p (cs : list call) (acc : list outcome) : prog (list outcome) :=
  match cs with
  | [] => Ret (rev acc)
  | c :: cs' => call_p c (fun o => calls_p cs' (o :: acc))
  end.

(* ------------------------------------------------------------------ *)
(** Memory: the objects with their capacities, the pools, and for each
    goroutine its program and its variables. Not in the code: a goroutine. *)
Record thread (A : Type) := mkT { t_prog : prog A; t_var : slot -> option nat }.
Arguments mkT {A}. Arguments t_prog {A}. Arguments t_var {A}.

(** pools.go:21-30. *)
Record world (A : Type) := mkW {
  w_heap : list (Z * obj);
  w_pool : slot -> list nat;
  w_thr : list (thread A);
  w_nil : bool              (* somebody used a variable that was never set *)
}.
Arguments mkW {A}. Arguments w_heap {A}. Arguments w_pool {A}. Arguments w_thr {A}. Arguments w_nil {A}.

(** Assignment to a variable (model only), and taking one out of a pool. Not in the code. *)
Definition set_var {B} (m : slot -> B) (s : slot) (x : B) : slot -> B :=
  fun s' => if slot_eqb s s' then x else m s'.

(** Not in the code: sync.Pool.Get (library). *)
Fixpoint remove_nth {B} (n : nat) (l : list B) : list B :=
  match n, l with
  | _, [] => []
  | O, _ :: l' => l'
  | S n', x :: l' => x :: remove_nth n' l'
  end.

(** One step of goroutine [g]; [n] is what the pool decides: Get takes the
    [n]-th object of the pool, or a new one if there is no such object; Put
    keeps the object if [n] is 0.  After Put the variable still points to the
    object. pools.go:62-158. *)
Definition step {A} (w : world A) (g n : nat) : world A :=
  match nth_error (w_thr w) g with
  | None => w
  | Some t =>
      let next h p t' := mkW h p (upd (w_thr w) g t') (w_nil w) in
      match t_prog t with
      | Ret _ => w
      | Get s cap k =>
          match nth_error (w_pool w s) n with
          | Some r =>
              match nth_error (w_heap w) r with
              | Some (c, o) =>
                  next (upd (w_heap w) r (cap_get c cap, on_get s o))
                       (set_var (w_pool w) s (remove_nth n (w_pool w s)))
                       (mkT k (set_var (t_var t) s (Some r)))
              | None => w
              end
          | None =>
              next (w_heap w ++ [(cap, new_obj s)]) (w_pool w)
                   (mkT k (set_var (t_var t) s (Some (length (w_heap w)))))
          end
      | Use s f k =>
          match t_var t s with
          | Some r =>
              match nth_error (w_heap w) r with
              | Some (c, o) => next (upd (w_heap w) r (c, f o)) (w_pool w) (mkT (k o) (t_var t))
              | None => w
              end
          | None => mkW (w_heap w) (w_pool w) (w_thr w) true
          end
      | Put s k =>
          match t_var t s with
          | Some r =>
              match nth_error (w_heap w) r with
              | Some (c, o) =>
                  next (upd (w_heap w) r (c, on_put s o))
                       (match n with O => set_var (w_pool w) s (w_pool w s ++ [r]) | S _ => w_pool w end)
                       (mkT k (t_var t))
              | None => w
              end
          | None => mkW (w_heap w) (w_pool w) (w_thr w) true
          end
      end
  end.

(** A schedule: who takes the next step, and the choice of the pool.
    Not in the code: see the comment. *)
Fixpoint run {A} (w : world A) (sched : list (nat * nat)) : world A :=
  match sched with
  | [] => w
  | (g, n) :: sched' => run (step w g n) sched'
  end.

(** newPools (pools.go:32-46): the visited pool starts with one list, the
    others are empty. *)
Definition start {A} (ps : list (prog A)) : world A :=
  mkW [(0%Z, new_obj SVis)] (fun s => match s with SVis => [0] | _ => [] end)
      (map (fun p => mkT p (fun _ => None)) ps) false.

(** The result of a goroutine that has finished. Not in the code: see the comment. *)
Definition result {A} (w : world A) (g : nat) : option A :=
  match nth_error (w_thr w) g with
  | Some t => match t_prog t with Ret a => Some a | _ => None end
  | None => None
  end.
