(** Property C88: what acknowledged requests did is in the store, also when requests
    run at the same time. *)
From Verif Require Import Base F32 PQ PQProofs Graph Search SearchProofs SearchLayer SearchKnn
  Insert HeuristicProofs InsertProofs InsertHist InsertTotal InsertFacts
  Distancer DistancerProofs PropDistancer TestGraph TestInsert PropInsert Persist
  WriteBack WriteBackProofs.

(** Any number of requests add, load, link and flush vertices, their steps interleave
    in any order, the node cache drops any vertex before any step, the process restarts
    any number of times.  If between the moment a Flush marshals a vertex and the moment
    it marks it nobody changes it and no other Flush writes it, and no Flush writes a
    vertex before the request that adds it has linked it ([tidy_run]), then as soon as
    all cached vertices are marked as written, a new process shows every vertex with
    exactly the layers, links, vector and maintenance mark that this one shows.
    Missing: runs that are not so, where it is false (below); entry point and count are
    C19. *)
Theorem C88_tidy_partial : forall V os, tidy_run w_start os -> all_written (wrun w_start os) ->
  forall id : N, shown (wstep (wrun (V := V) w_start os) WRestart) id = shown (wrun w_start os) id.
Proof.
  intros V os Ht Hw. assert (I : winv (wrun w_start os)) by (apply winv_run; [apply winv_start|exact Ht]).
  apply in_table_shown; [exact I|]. now apply written_in_table.
Qed.
Print Assumptions C88_tidy_partial.

(** Requests one after the other are always so.  Whatever happened before ([es]: also
    requests that ended with an error before or in the middle of their Flush, restarts,
    queries), when a request has added and linked any vertices in any way and its Flush
    has gone through the cached ones, with the cache dropping vertices before any step
    of either, then after any further requests, queries, drops and restarts ([es'], of
    which no addition ended with an error) a new process shows every vertex as this one. *)
Theorem C88_one_at_a_time : forall V es body drops es',
  forallb (fun e => negb (fails e)) es' = true ->
  let s := wevents (V := V) w_start (es ++ EReq body drops :: es') in
  forall id, shown (wstep s WRestart) id = shown s id.
Proof.
  intros V es body drops es' Hf s id.
  assert (E : s = wevents (wevent_step (wevents w_start es) (EReq body drops)) es').
  { unfold s, wevents. now rewrite fold_left_app. }
  destruct (events_inv es (w_start (V := V)) (winv_start []) (fun t => eq_refl)) as [I Hi].
  destruct (event_inv _ (EReq body drops) I Hi) as [I1 Hi1].
  destruct (events_inv es' _ I1 Hi1) as [I2 Hi2].
  rewrite E. apply in_table_shown; [exact I2|]. apply events_in_table; auto. now apply request_in_table.
Qed.
Print Assumptions C88_one_at_a_time.

(** C19 in full: whatever happened before ([es]: requests acknowledged or ended with an
    error anywhere, queries, restarts, vertices dropped by the cache), after a request
    for additions is acknowledged, with the cache dropping any vertices before any step
    of its work and of its Flush, and after any queries and drops that follow, a new
    process that loads the entry point as a query does shows every vertex as this one
    does, has its entry point and the count that the request wrote. *)
Definition only_reads {V} (e : xevent V) : bool := match e with XQuery _ | XDrop _ => true | _ => false end.
Theorem C19_survives_restart : forall V es body drops ep cnt es',
  forallb only_reads es' = true ->
  let x := x_run (V := V) x_start (es ++ XReq body drops ep cnt :: es') in
  let y := x_load (x_step x XRestart) in
  (forall id, shown (x_w y) id = shown (x_w x) id) /\ x_ep y = x_ep x /\ x_kcnt y = Some cnt /\
  x_ep x = match ep with Some e => e | None => x_ep (x_run x_start es) end.
Proof.
  intros V es body drops ep cnt es' Hes' x y.
  assert (P : forall es, winv (x_w (x_run (V := V) x_start es)) /\ idle (x_w (x_run (V := V) x_start es))).
  { intros l. assert (Q : forall l x, winv (x_w x) /\ idle (x_w x) -> winv (x_w (x_run (V := V) x l)) /\ idle (x_w (x_run x l))).
    { clear. induction l as [|e l IH]; intros x [I Hi]; [auto|]. cbn [x_run fold_left]. apply IH.
      destruct e; cbn [x_step x_w x_load]; now apply event_inv. }
    apply Q. split; [apply winv_start|intros t; reflexivity]. }
  pose (x0 := x_run (V := V) x_start es). pose (x1 := x_step x0 (XReq body drops ep cnt)).
  assert (Ex : x = x_run x1 es') by (unfold x, x_run; now rewrite fold_left_app).
  destruct (P es) as [I0 H0]. fold x0 in I0, H0.
  destruct (event_inv (x_w x0) (EReq body drops) I0 H0) as [I1 H1].
  assert (K : forall l z, forallb only_reads l = true -> winv (x_w z) -> idle (x_w z) -> in_table (x_w z) -> x_kep z = Some (x_ep z) ->
            let z' := x_run (V := V) z l in winv (x_w z') /\ in_table (x_w z') /\ x_kep z' = Some (x_ep z') /\ x_ep z' = x_ep z /\ x_kcnt z' = x_kcnt z).
  { clear. induction l as [|e l IH]; intros z Hl Iz Hz Tz Ez; [cbn; auto|]. cbn [forallb] in Hl. apply andb_prop in Hl as [Hl1 Hl2].
    destruct e as [| | |b|ids|]; try discriminate Hl1; cbn [x_run fold_left].
    - destruct (event_inv (x_w z) (EQuery b) Iz Hz) as [A B].
      pose proof (event_in_table (x_w z) (EQuery b) Iz Hz Tz eq_refl) as C.
      destruct (IH (x_step z (XQuery b)) Hl2 A B C) as (D1 & D2 & D3 & D4 & D5); [cbn [x_step x_load x_kep x_ep]; now rewrite Ez|].
      split; [exact D1|]. split; [exact D2|]. split; [exact D3|]. split; [|exact D5]. etransitivity; [exact D4|]. cbn [x_step x_load x_ep]. now rewrite Ez.
    - destruct (event_inv (x_w z) (EDrop ids) Iz Hz) as [A B].
      pose proof (event_in_table (x_w z) (EDrop ids) Iz Hz Tz eq_refl) as C.
      exact (IH (x_step z (XDrop ids)) Hl2 A B C Ez). }
  destruct (K es' x1 Hes' I1 H1 (request_in_table _ _ _ I0 H0) eq_refl) as (A & B & C & D & F). rewrite <- Ex in A, B, C, D, F.
  split; [exact (in_table_shown _ A B)|]. unfold y. cbn [x_step x_load x_ep x_kep x_kcnt]. rewrite C. split; [reflexivity|].
  split; [rewrite F; reflexivity|]. rewrite D. reflexivity.
Qed.
Print Assumptions C19_survives_restart.

(** ** Examples: a vertex is its list of links *)

Definition link (x : N) (l : list N) : list N := (l ++ [x])%list.
(** insert.go:271, neighbor_connections.go:111-121: request [t] adds [id], with handle
    [t], and links it both ways with [nb], with handle [t + 1]. *)
Definition put_in (t id : N) : list (wop (list N)) := [WNew t id []].
Definition link_both (t id nb : N) : list (wop (list N)) :=
  [WSet t (fun _ => [nb]); WGet (t + 1) nb; WPublish (t + 1); WLink (t + 1) (link id) true; WDone (t + 1); WDone t].
Definition write (t id : N) : list (wop (list N)) := [WMarshal t id; WPut t; WMark t].

(** Decision procedures. *)
Definition flushesb (s : wstate (list N)) (but : option N) (id : N) : bool :=
  existsb (fun e => match but with Some t => negb (N.eqb (fst e) t) | None => true end &&
                    match snd e with HSnap j _ _ => N.eqb j id | HPut j _ => N.eqb j id | _ => false end) (w_hand s).
Definition tidyb (s : wstate (list N)) (o : wop (list N)) : bool :=
  match o with
  | WMarshal t id => negb (flushesb s (Some t) id)
  | WLink t _ _ => match mget t (w_hand s) with Some (HNode id _) => negb (flushesb s None id) | _ => true end
  | WSet t _ => match mget t (w_hand s) with
                | Some (HOwn id r) => negb (flushesb s None id) &&
                    match mget r (w_heap s) with Some x => negb (w_comm x) | None => true end
                | _ => true
                end
  | _ => true
  end.
Fixpoint tidy_runb (s : wstate (list N)) (os : list (wop (list N))) : bool :=
  match os with [] => true | o :: os' => tidyb s o && tidy_runb (wstep s o) os' end.
Lemma mget_In' {V} k (m : nmap V) v : mget k m = Some v -> In (k, v) m.
Proof.
  induction m as [|[k' v'] m IH]; cbn [mget]; [discriminate|]. destruct (N.eqb_spec k k') as [->|]; [intros [= ->]; now left|right; auto].
Qed.
Lemma flushes_check s but id : flushesb s but id = false ->
  forall t, match but with Some t' => t <> t' | None => True end -> ~ flushes s t id.
Proof.
  intros H t Hb (r & Hf). apply Bool.not_true_iff_false in H. apply H. apply existsb_exists.
  assert (Hne : match but with Some t' => negb (N.eqb t t') | None => true end = true).
  { destruct but as [t'|]; [|reflexivity]. apply N.eqb_neq in Hb. now rewrite Hb. }
  destruct Hf as [Hf|(v & Hf)]; apply mget_In' in Hf; eexists; (split; [exact Hf|]); cbn; now rewrite Hne, N.eqb_refl.
Qed.
Lemma tidy_check s o : tidyb s o = true -> tidy s o.
Proof.
  destruct o as [t id v|t f|t id|t|t f b|t|t id|t|t|id|]; cbn [tidyb tidy]; intros H; auto.
  - intros id r Hg. rewrite Hg in H. apply andb_prop in H as [H1 H2]. apply Bool.negb_true_iff in H1. split.
    + intros t'. now apply (flushes_check s None id H1 t').
    + intros x Hx. rewrite Hx in H2. now apply Bool.negb_true_iff in H2.
  - intros id r t' Hg. rewrite Hg in H. apply Bool.negb_true_iff in H. now apply (flushes_check s None id H t').
  - intros t' Hne. apply Bool.negb_true_iff in H. now apply (flushes_check s (Some t) id H t').
Qed.
Lemma tidy_run_check os : forall s, tidy_runb s os = true -> tidy_run s os.
Proof.
  induction os as [|o os IH]; cbn [tidy_runb tidy_run]; [auto|]. intros s H. apply andb_prop in H as [H1 H2].
  split; [now apply tidy_check|auto].
Qed.
Definition all_writtenb (s : wstate (list N)) : bool :=
  forallb (fun e => match mget (snd e) (w_heap s) with Some x => w_comm x | None => true end) (w_cache s).
Lemma all_written_check s : all_writtenb s = true -> all_written s.
Proof.
  unfold all_writtenb. rewrite forallb_forall. intros H id r x Hc Hx. specialize (H _ (mget_In' _ _ _ Hc)).
  cbn [snd] in H. now rewrite Hx in H.
Qed.

(** 0 is stored.  Two requests add 1 and 2 at the same time and link them with 0; the
    Flush of the first meets 2 only after its links are set, and the cache drops 0 in
    between. *)
Definition together : list (wop (list N)) :=
  put_in 1 0 ++ [WDone 1] ++ write 9 0 ++ put_in 1 1 ++ put_in 5 2 ++ [WEvict 0] ++ link_both 1 1 0 ++ link_both 5 2 0 ++
  [WMarshal 8 2; WMarshal 9 1; WPut 9; WPut 8; WGet 3 0; WMark 8] ++ [WMark 9; WDone 3] ++ write 9 0.
Example C88_tidy_nonvacuous : tidy_run w_start together /\ all_written (wrun w_start together) /\
  shown (wrun w_start together) 0 = Some [1; 2]%N /\ shown (wrun w_start together) 1 = Some [0]%N /\
  shown (wrun w_start together) 2 = Some [0]%N.
Proof.
  split; [apply tidy_run_check; vm_compute; reflexivity|]. split; [apply all_written_check; vm_compute; reflexivity|].
  split; [|split]; vm_compute; reflexivity.
Qed.

(** A request that fails in its Flush, with 0 written and 7 not, a restart, two requests, the second of
    which works while the cache drops what it links and flushes while the cache drops
    what it writes, and a query; the cache has dropped 2 before it was linked, and it
    is not there for anybody. *)
Definition es88 : list (wevent (list N)) :=
  [EReq (put_in 1 0) []; EFail (put_in 1 7 ++ link_both 1 7 0) [] 4; ERestart].
Definition es88' : list (wevent (list N)) := [EQuery [WGet 1 0; WPublish 1; WGet 2 5]; EDrop [2%N]; EReq (put_in 1 9 ++ link_both 1 9 2) []].
Definition body88 : list (wop (list N)) :=
  put_in 1 2 ++ [WEvict 2; WSet 1 (link 5); WGet 2 0; WPublish 2; WEvict 0; WLink 2 (link 2) true] ++ put_in 3 5 ++ [WEvict 7].
Definition drops88 : list (list N) := [[]; [5]; []; []; [0; 2]; [5]]%N.
Example C88_one_at_a_time_nonvacuous : forallb (fun e => negb (fails e)) es88' = true /\
  let s := wevents w_start (es88 ++ EReq body88 drops88 :: es88') in
  map (shown s) [0; 5; 7; 2; 9]%N = [Some [7; 2]; Some []; None; None; Some [2]]%N.
Proof. split; vm_compute; reflexivity. Qed.

(** The same histories with entry points and counts. *)
Definition xs88 : list (xevent (list N)) :=
  [XReq (put_in 1 0) [] (Some 0%N) 1; XFail (put_in 1 7 ++ link_both 1 7 0) [] 4 (Some 7%N); XLate (put_in 1 6) [] None; XRestart].
Example C19_survives_restart_nonvacuous :
  let es' := [XQuery [WGet 1 0; WPublish 1; WGet 2 5]; XDrop [5%N]] in
  forallb only_reads es' = true /\
  let x := x_run x_start (xs88 ++ XReq body88 drops88 (Some 2%N) 3 :: es') in
  map (shown (x_w x)) [0; 5; 7; 2]%N = [Some [7; 2]; Some []; Some [0]; None]%N /\ x_ep x = 2%N.
Proof. split; [|split]; vm_compute; reflexivity. Qed.

(** ** Where it is false *)

(** Two requests at the same time: 0 is stored; one request puts vertex 1 into the
    cache; the Flush of another writes it and marks it; the first request links it
    with 0, which changes vertex 1 without unmarking it, and its Flush writes 0 only.
    Both requests are acknowledged and everything is marked as written, but in a new
    process vertex 1 has no links. *)
Definition between : list (wop (list N)) :=
  put_in 1 0 ++ [WDone 1] ++ write 9 0 ++ put_in 1 1 ++ write 8 0 ++ write 8 1 ++ link_both 1 1 0 ++ write 1 0 ++ write 1 1.
Theorem C88_flush_between_refuted : exists os : list (wop (list N)),
  let s := wrun w_start os in
  all_written s /\ w_hand s = [] /\
  shown s 0 = Some [1]%N /\ shown s 1 = Some [0]%N /\
  shown (wstep s WRestart) 0 = Some [1]%N /\ shown (wstep s WRestart) 1 = Some [].
Proof.
  exists between. split; [apply all_written_check; vm_compute; reflexivity|].
  split; [|split; [|split; [|split]]]; vm_compute; reflexivity.
Qed.
Print Assumptions C88_flush_between_refuted.

(** The same with the whole index: an addition (insert.go:219-311 as
    [Insert.insert_linked]) during which the Flush of another request
    (insert.go:118-164) runs right after line 271. *)
Definition insert_flushed (I : ienv) (h : hnsw) (id : N) (q : vec) (target : nat) (keys : list N) (cnt : N) (n : nat) : hnsw * res unit :=
  let h1 := fst (flush (put_node h (new_vertex id q target)) keys cnt n) in
  match best_entrypoint I h1 q target (h_maxl h - target) (h_ep h) with
  | Ok ep =>
      match connect_levels I h1 id q (Nat.min target (h_maxl h)) ep with
      | (h2, Ok _) => (finish_insert h2 id target, Ok tt)
      | r => r
      end
  | Err e => (h1, Err e)
  | Panic => (h1, Panic)
  | OutOfFuel => (h1, OutOfFuel)
  end.

(** Five vectors are stored.  A sixth is added, with two layers; another request
    flushes in between; both are acknowledged.  The process answers a query with all
    six.  A new process starts every search at the sixth vector, which has no links: it
    answers with this one alone, for any bound and any number of results, and the other
    five are lost to all queries. *)
Definition hist88 : list aop :=
  history (ienv_of cosp) (map (fun i => ([Z.of_nat (S (i * 7 mod 11)); Z.of_nat (i * 5 mod 7)], 0)) (seq 0 5)).
Definition keys88 : list N := [0; 1; 2; 3; 4; 5]%N.
Definition J88 : ienv := ienv_of cosp ((5%N, q_of [3; 1]%Z) :: map (fun o => (a_id o, a_vec o)) hist88).

Lemma reach_alone h ep : match node_by_id h ep with Some v => match v_conns v with [] :: _ => true | _ => false end | None => true end = true ->
  forall a c, reach h 0 a c -> a = ep -> c = ep.
Proof.
  intros Hb a c Hr. induction Hr as [|b v cs c Hr IH Hv Hle Hl Hc]; [auto|]. intros Ea. exfalso. apply IH in Ea. subst b.
  rewrite Hv in Hb. unfold conns_at in Hl. destruct (v_conns v) as [|[|x l] ls]; try discriminate. injection Hl as <-. destruct Hc.
Qed.
Definition sum88 (i f : hnsw * res unit) : bool :=
  match snd i, snd f with Ok _, Ok _ => true | _, _ => false end &&
  match near (env_fwd cosp) (fst f) (q_of [1; 1]%Z) (f32_of_Z 2) 10 with Ok (ids, _) => if list_eq_dec N.eq_dec ids [4; 2; 1; 5; 3; 0]%N then true else false | _ => false end &&
  match near (env_fwd cosp) (restart (fst f)) (q_of [1; 1]%Z) (f32_of_Z 2) 10 with Ok (ids, _) => if list_eq_dec N.eq_dec ids [5]%N then true else false | _ => false end &&
  all_nodes (restart (fst f)) (fun id _ => N.ltb id 25500) &&
  N.eqb (h_ep (load_ep (restart (fst f)))) 5 &&
  match node_by_id (load_ep (restart (fst f))) 5 with Some v => match v_conns v with [] :: _ => true | _ => false end | None => true end.
Definition lost88 (i f : hnsw * res unit) : Prop :=
  snd i = Ok tt /\ snd f = Ok tt /\
  (exists ds, near (env_fwd cosp) (fst f) (q_of [1; 1]%Z) (f32_of_Z 2) 10 = Ok ([4; 2; 1; 5; 3; 0]%N, ds)) /\
  (exists ds, near (env_fwd cosp) (restart (fst f)) (q_of [1; 1]%Z) (f32_of_Z 2) 10 = Ok ([5]%N, ds)) /\
  forall E q0 maxd ef out, sched_ok E -> e_prov E = cosp -> e_vcap E = 25500%N ->
    near E (restart (fst f)) q0 maxd ef = Ok out -> forall x, In x (fst out) -> x = 5%N.
Lemma sum88_true :
  let h := fst (flush (fst (run_adds empty_index hist88)) keys88 5 9) in
  let i := insert_flushed J88 h 5 (p_normalize cosp (q_of [3; 1]%Z)) 1 keys88 5 20 in
  let f := flush (fst i) keys88 6 20 in
  sum88 i f = true.
Proof. vm_cast_no_check (eq_refl true). Qed.

Lemma lost_check i f : sum88 i f = true -> lost88 i f.
Proof.
  unfold sum88, lost88. intros H.
  apply andb_prop in H as [H H6]. apply andb_prop in H as [H H5]. apply andb_prop in H as [H H4].
  apply andb_prop in H as [H H3]. apply andb_prop in H as [H1 H2].
  split; [now destruct (snd i) as [[]| | |]|]. split; [destruct (snd i); try discriminate; now destruct (snd f) as [[]| | |]|].
  split; [|split].
  - destruct (near (env_fwd cosp) (fst f) (q_of [1; 1]%Z) (f32_of_Z 2) 10) as [[ids ds]|e| |]; try discriminate.
    destruct (list_eq_dec N.eq_dec ids [4; 2; 1; 5; 3; 0]%N) as [->|]; [eauto|discriminate].
  - destruct (near (env_fwd cosp) (restart (fst f)) (q_of [1; 1]%Z) (f32_of_Z 2) 10) as [[ids ds]|e| |]; try discriminate.
    destruct (list_eq_dec N.eq_dec ids [5]%N) as [->|]; [eauto|discriminate].
  - intros E q0 maxd ef out Hsc HP Hcap Hn x Hin. apply In_nth_error in Hin. destruct Hin as (k & Hk).
    assert (Hsym : prov_sym (e_prov E)) by (rewrite HP; apply known_psym, cosp_known).
    assert (Hsm : ids_small E (load_ep (restart (fst f)))).
    { intros j v Hj. rewrite Hcap. apply N.ltb_lt. exact (all_nodes_spec (restart (fst f)) _ H4 j v Hj). }
    destruct (knn_max_dist_sound E (load_ep (restart (fst f))) Hsc Hsym Hsm q0 maxd ef None out Hn) as (_ & _ & _ & Hso).
    destruct (Hso k x Hk) as (d & _ & _ & Hl & _). cbn [h_maxl load_ep restart with_ep] in Hl.
    apply N.eqb_eq in H5. rewrite H5 in Hl. inversion Hl; subst.
    eapply reach_alone; [exact H6| |reflexivity]. eassumption.
Qed.

Theorem C88_collection_lost_refuted : exists ops J id q target keys,
  Forall (call_ok 25500) ops /\ NoDup (map a_id ops ++ [id]) /\
  let h := fst (flush (fst (run_adds empty_index ops)) keys 5 9) in
  let i := insert_flushed J h id q target keys 5 20 in
  let f := flush (fst i) keys 6 20 in
  snd i = Ok tt /\ snd f = Ok tt /\
  (exists ds, near (env_fwd cosp) (fst f) (q_of [1; 1]%Z) (f32_of_Z 2) 10 = Ok ([4; 2; 1; 5; 3; 0]%N, ds)) /\
  (exists ds, near (env_fwd cosp) (restart (fst f)) (q_of [1; 1]%Z) (f32_of_Z 2) 10 = Ok ([5]%N, ds)) /\
  forall E q0 maxd ef out, sched_ok E -> e_prov E = cosp -> e_vcap E = 25500%N ->
    near E (restart (fst f)) q0 maxd ef = Ok out -> forall x, In x (fst out) -> x = 5%N.
Proof.
  exists hist88, J88, 5%N, (p_normalize cosp (q_of [3; 1]%Z)), 1, keys88.
  split; [apply history_calls; [exact cosp_known|reflexivity]|].
  split; [vm_compute; repeat constructor; cbn; intuition discriminate|].
  intros h i f. exact (lost_check i f sum88_true).
Qed.
Print Assumptions C88_collection_lost_refuted.
