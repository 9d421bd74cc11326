(** Property C79: the graph over histories of requests. *)
From Coq Require Import String DecimalString.
From Verif Require Import Base F32 PQ PQProofs Graph Search SearchProofs SearchLayer SearchKnn
  SearchCong Insert HeuristicProofs InsertProofs InsertHist InsertTotal InsertDim InsertSmall InsertFacts InsertFind
  Distancer DistancerProofs PropDistancer TestGraph TestInsert PropSearch PropInsert PropFind
  Persist PersistProofs PersistHist LRU LRUProofs PropPersist InsertRestart Client ClientProofs ClientSafe ClientFacts ClientReq
  PropClient ClientGraph.
Local Open Scope string_scope.

(** Whatever the requests were and however they ended - failing insertions,
    failing stores, flushes that stopped half-way, restarts - no vertex, neither
    in memory nor as the next process finds it in the table, has more than 60
    links on the ground layer or 30 on another. *)
Theorem C79_degree_bounded : forall qs,
  Forall (fun q => match q with QAdd _ _ _ docs => Forall (fun p => i_M (do_env (snd p)) = 30) docs | _ => True end) qs ->
  forall h, h = c_h (run_reqs new_coll qs) \/ h = restart (c_h (run_reqs new_coll qs)) ->
  forall id v l cs, node_by_id h id = Some v -> nth_error (v_conns v) l = Some cs ->
    length cs <= match l with O => 60 | _ => 30 end.
Proof.
  intros qs H h Hh id v l cs Hv Hl.
  assert (D : dstate 30 (c_h (run_reqs new_coll qs))) by (apply dstate_run; exact H).
  assert (D' : dstate 30 h) by (destruct Hh as [-> | ->]; [exact D|now apply dstate_restart]).
  destruct D' as (_ & D' & _). specialize (D' id v Hv l cs Hl). destruct l; exact D'.
Qed.
Print Assumptions C79_degree_bounded.

(** Full statement: without [whole], i.e. also for histories in which a request
    fails, skips a document, or is acknowledged having indexed nothing; false
    for each of the three (below).

    After histories in which every add request was acknowledged with nothing
    written to the log and something indexed (or did nothing but open the
    collection), in the running process and in the next one: every vertex has
    one list per layer, its id was given out, and each of its links goes to a
    different existing vertex, not itself, that is on that layer; and unless
    there is no vertex the entry point is one. *)
Theorem C79_graph_partial : forall cap qs,
  Forall (link_req cap) qs -> whole new_coll qs ->
  forall h, h = c_h (run_reqs new_coll qs) \/ h = restart (c_h (run_reqs new_coll qs)) ->
  (forall id v, node_by_id h id = Some v ->
     v_id v = id /\ (id < first_id h)%N /\ length (v_conns v) = S (v_level v) /\
     forall l cs, nth_error (v_conns v) l = Some cs -> NoDup cs /\
       forall c, In c cs -> c <> id /\ exists w, node_by_id h c = Some w /\ l <= v_level w) /\
  ((exists id v, node_by_id h id = Some v) -> exists v, node_by_id h (h_ep h) = Some v).
Proof.
  intros cap qs Hl Hw h Hh.
  assert (G : gsteady cap (c_h (run_reqs new_coll qs))).
  { apply gsteady_run; auto. left. repeat split. }
  assert (G' : gsteady cap h) by (destruct Hh as [-> | ->]; [exact G|exact (gsteady_after cap _ true G)]).
  clear G Hh. pose proof (gsteady_winv cap h G') as W. destruct G' as [Hp|Hf].
  - pose proof (pristine_none h Hp) as Hn. split; [intros id v Hv|intros (id & v & Hv)]; rewrite Hn in Hv; discriminate.
  - split.
    + intros id v Hv. split; [exact (w_id _ W id v Hv)|]. split; [exact (gc_dom _ _ _ (gf_core _ _ Hf) id v Hv)|].
      split; [exact (w_len _ W id v Hv)|]. intros l cs Hcs. split; [exact (w_nodup _ W id v l cs Hv Hcs)|].
      intros c Hc. exact (w_link _ W id v l cs c Hv Hcs Hc).
    + intros _. destruct (gc_ep _ _ _ (gf_core _ _ Hf)) as (v & Hv & _). eauto.
Qed.
Print Assumptions C79_graph_partial.

(** Documents with a vector and a layer, for the examples. *)
Definition docl (id : string) (I : ienv) (x : list Z) (l : nat) : option docin * dorc :=
  (Some (mkDoc id [("vector", JArr (map num x))]), mkD I l (fun _ => Err EVectorizer) true true).
Definition name_of (i : nat) : string := NilZero.string_of_int (Z.to_int (Z.of_nat i)).
Definition I29 : ienv := ienv_of cosp (enum 0 (map (fun i => p_normalize cosp (q_of (pt (S i)))) (seq 0 40))).
Definition docs29 : list (option docin * dorc) :=
  map (fun i => docl (name_of i) I29 (pt (S i)) (if Nat.eqb i 1 then 1 else 0)%nat) (seq 0 29).
(** A new process has the vectors of the documents it indexed itself only (C51). *)
Definition Inew : ienv :=
  ienv_of cosp [(29, p_normalize cosp (q_of [3; 4]%Z)); (30, p_normalize cosp (q_of [4; 4]%Z))]%N.

Lemma env_ok_of tab : env_ok 25500 (ienv_of cosp tab).
Proof. split; [apply env_rev_sched|]. split; [apply known_psym, cosp_known|]. split; [reflexivity|]. cbn. lia. Qed.

Definition reqs79 : list creq :=
  [QAdd rok false [] docs29; QVec (qok 2) (q_of [1; 2]%Z) two 2; QRestart; QAdd rok false [] [docl "x" Inew [3; 4]%Z 2];
   QGet rok true "x"; QRestart].
Definition wholeb (st : coll) (q : creq) : bool :=
  match q with
  | QAdd R lk keys docs =>
      let r := add_documents R lk keys docs st in
      match snd r, c_log (fst r), c_log st with
      | Ok tt, [], [] => negb (N.eqb (first_id (c_h (fst r))) 0)
      | _, _, _ => false
      end
  | _ => true
  end.
Fixpoint wholesb (st : coll) (qs : list creq) : bool :=
  match qs with [] => true | q :: qs' => wholeb st q && wholesb (req_step st q) qs' end.
Lemma wholesb_ok qs : forall st, wholesb st qs = true -> whole st qs.
Proof.
  induction qs as [|q qs IH]; intros st H; [exact I|]. cbn [wholesb] in H. apply andb_prop in H. destruct H as [H1 H2].
  split; [|now apply IH]. destruct q as [R lk keys docs| | | | |]; try exact I. cbn [wholeb whole_req] in *. cbv zeta in *. left.
  destruct (add_documents R lk keys docs st) as [s r]. cbn [fst snd] in *.
  destruct r as [[]|e| |]; try discriminate. destruct (c_log s), (c_log st); try discriminate.
  split; [reflexivity|]. split; [reflexivity|]. intros E. rewrite E in H1. discriminate.
Qed.
Definition M30b (q : creq) : bool :=
  match q with QAdd _ _ _ docs => forallb (fun p => Nat.eqb (i_M (do_env (snd p))) 30) docs | _ => true end.

Lemma reqs79_link : Forall (link_req 25500) reqs79.
Proof.
  constructor; [split; [exact rok_ok|]|constructor; [exact I|constructor; [exact I|constructor; [split; [exact rok_ok|]|]]]].
  - apply Forall_map, Forall_forall. intros i _. apply env_ok_of.
  - constructor; [apply env_ok_of|constructor].
  - constructor; [exact I|]. constructor; [exact I|constructor].
Qed.
Example C79_nonvacuous :
  Forall (link_req 25500) reqs79 /\ whole new_coll reqs79 /\ forallb M30b reqs79 = true /\
  length (filter (fun kv => Nat.leb 1 (v_level (snd kv))) (h_kv (c_h (run_reqs new_coll reqs79)))) = 2 /\
  length (h_kv (c_h (run_reqs new_coll reqs79))) = 30.
Proof.
  split; [exact reqs79_link|]. split; [apply wholesb_ok; vm_compute; reflexivity|].
  split; [vm_compute; reflexivity|]. split; vm_compute; reflexivity.
Qed.

(** A vertex of the table that is linked to itself. *)
Definition self_linked (h : hnsw) (id : N) (l : nat) : Prop :=
  exists v cs, node_by_id (restart h) id = Some v /\ nth_error (v_conns v) l = Some cs /\ In id cs.
Definition self_linkedb (h : hnsw) (id : N) (l : nat) : bool :=
  match node_by_id (restart h) id with
  | Some v => match nth_error (v_conns v) l with Some cs => memN id cs | None => false end
  | None => false
  end.
Lemma self_linkedb_ok h id l : self_linkedb h id l = true -> self_linked h id l.
Proof.
  unfold self_linkedb, self_linked. destruct (node_by_id (restart h) id) as [v|]; [|discriminate].
  destruct (nth_error (v_conns v) l) as [cs|] eqn:E; [|discriminate]. intros H. exists v, cs. rewrite E. split; [reflexivity|].
  split; [reflexivity|]. now apply memN_In.
Qed.

(** The answers to the add requests of a history. *)
Definition oks (st : coll) (qs : list creq) : list (option (res unit)) :=
  snd (fold_left (fun a q => (req_step (fst a) q, snd a ++ [match q with
    | QAdd R lk keys docs => Some (snd (add_documents R lk keys docs (fst a))) | _ => None end])%list) qs (st, [])).

(** Acknowledged without having indexed anything: the first flush of an empty
    collection writes the entry point 0, so the index no longer counts as empty
    and the first vector finds itself as the entry point.  Every request
    succeeded and nothing was skipped. *)
Definition reqs79a : list creq := [QAdd rok false [] []; QAdd rok false [] [docv "a" [1; 0]%Z]].
Theorem C79_nothing_indexed_refuted : exists qs,
  Forall (link_req 25500) qs /\ oks new_coll qs = [Some (Ok tt); Some (Ok tt)] /\
  c_log (run_reqs new_coll qs) = [] /\ self_linked (c_h (run_reqs new_coll qs)) 0 0.
Proof.
  exists reqs79a. split; [|split; [vm_compute; reflexivity|split; [vm_compute; reflexivity|]]].
  - constructor; [split; [exact rok_ok|constructor]|]. constructor; [split; [exact rok_ok|]|constructor].
    constructor; [apply env_ok_of|constructor].
  - apply self_linkedb_ok. vm_compute. reflexivity.
Qed.
Print Assumptions C79_nothing_indexed_refuted.

(** A document whose store fails after its vector was indexed: the request ends
    with an error before the count is written, the next request gives out the
    same ids again. *)
Definition badput (id : string) (x : list Z) : option docin * dorc :=
  (fst (docv id x), mkD (do_env ook) 0 (do_corpi ook) true false).
Definition reqs79b : list creq :=
  [QAdd rok false [] [docv "a" [1; 0]%Z; badput "b" [0; 1]%Z]; QAdd rok false [] [docv "a" [1; 0]%Z]].
Theorem C79_failed_request_refuted : exists qs,
  Forall (link_req 25500) qs /\ oks new_coll qs = [Some (Err EStore); Some (Ok tt)] /\
  c_log (run_reqs new_coll qs) = [] /\ self_linked (c_h (run_reqs new_coll qs)) 0 0.
Proof.
  exists reqs79b. split; [|split; [vm_compute; reflexivity|split; [vm_compute; reflexivity|]]].
  - constructor; [split; [exact rok_ok|]|constructor; [split; [exact rok_ok|]|constructor]].
    + constructor; [apply env_ok_of|]. constructor; [apply env_ok_of|constructor].
    + constructor; [apply env_ok_of|constructor].
  - apply self_linkedb_ok. vm_compute. reflexivity.
Qed.
Print Assumptions C79_failed_request_refuted.

(** 29 documents, a restart, then an acknowledged request with three more: the
    insertion of the second fails half-way, when the heuristic needs the vectors
    of the old documents (C51), the third gets the same id.  With [l] = 1 the
    vertex is linked to itself; with [l] = 0 a link of layer 1 leads to a vertex
    of the ground layer.  The graph is stored so. *)
Definition reqs79c (l : nat) : list creq :=
  [QAdd rok false [] docs29; QRestart;
   QAdd rok false [] [docl "x" Inew [3; 4]%Z 2; docl "y" Inew [4; 4]%Z 1; docl "z" Inew [4; 3]%Z l]].
Definition layer_linkb (h : hnsw) (id : N) (l : nat) (c : N) (k : nat) : bool :=
  match node_by_id (restart h) id, node_by_id (restart h) c with
  | Some v, Some w => match nth_error (v_conns v) l with Some cs => memN c cs && Nat.eqb (v_level w) k | None => false end
  | _, _ => false
  end.
Lemma layer_linkb_ok h id l c k : layer_linkb h id l c k = true ->
  exists v cs w, node_by_id (restart h) id = Some v /\ nth_error (v_conns v) l = Some cs /\ In c cs /\
    node_by_id (restart h) c = Some w /\ v_level w = k.
Proof.
  unfold layer_linkb. destruct (node_by_id (restart h) id) as [v|]; [|discriminate].
  destruct (node_by_id (restart h) c) as [w|]; [|discriminate]. destruct (nth_error (v_conns v) l) as [cs|] eqn:E; [|discriminate].
  intros H. apply andb_prop in H. destruct H as [H1 H2]. exists v, cs, w. rewrite E. repeat split; auto.
  - now apply memN_In.
  - now apply Nat.eqb_eq.
Qed.
Lemma reqs79c_link l : Forall (link_req 25500) (reqs79c l).
Proof.
  constructor; [split; [exact rok_ok|]|constructor; [exact I|constructor; [split; [exact rok_ok|]|constructor]]].
  - apply Forall_map, Forall_forall. intros i _. apply env_ok_of.
  - repeat (constructor; [apply env_ok_of|]). constructor.
Qed.
Theorem C79_skipped_document_refuted : exists qs qs',
  Forall (link_req 25500) qs /\ Forall (link_req 25500) qs' /\
  oks new_coll qs = [Some (Ok tt); None; Some (Ok tt)] /\ oks new_coll qs' = [Some (Ok tt); None; Some (Ok tt)] /\
  self_linked (c_h (run_reqs new_coll qs)) 30 1 /\
  exists v cs w, let h := restart (c_h (run_reqs new_coll qs')) in
    node_by_id h 29 = Some v /\ nth_error (v_conns v) 1 = Some cs /\ In 30%N cs /\ node_by_id h 30 = Some w /\ v_level w = 0.
Proof.
  exists (reqs79c 1), (reqs79c 0). split; [apply reqs79c_link|]. split; [apply reqs79c_link|].
  split; [vm_compute; reflexivity|]. split; [vm_compute; reflexivity|].
  split; [apply self_linkedb_ok; vm_compute; reflexivity|]. apply layer_linkb_ok. vm_compute. reflexivity.
Qed.
Print Assumptions C79_skipped_document_refuted.
