(** Properties C19, C20, C21 (write-back, restart, crash) and C35, C36 (bounded
    node cache). *)
From Verif Require Import Base F32 PQ PQProofs Graph Search SearchProofs SearchLayer SearchKnn
  SearchCong Insert HeuristicProofs InsertProofs InsertHist InsertTotal InsertDim InsertSmall InsertFacts InsertFind
  Distancer DistancerProofs PropDistancer TestGraph TestInsert PropInsert PropFind
  Persist PersistProofs PersistHist LRU LRUProofs.

(* ------------------------------------------------------------------ *)
(** C19.  [evs] is any history of additions (failing ones included), queries,
    write-backs that break off anywhere and restarts, starting with an empty
    collection.  If then a write-back of all cached vertices succeeds, a new
    process reads for every id the layer, links and vector that the old one
    has, the same count and, after LoadEntrypoint, the same entry point.
    Missing for the full property: [all_keys] excludes that the node cache
    dropped a dirty vertex before the write-back (C36). *)
Theorem C19_survives_restart_partial : forall evs keys cnt n,
  let h := run_events empty_index evs in
  all_keys h keys -> snd (flush h keys cnt n) = Ok tt ->
  let h' := fst (flush h keys cnt n) in
  let r := restart h' in
  (forall id, option_map (fun v => (v_level v, v_conns v, v_maint v, v_vec v)) (node_by_id r id) =
              option_map (fun v => (v_level v, v_conns v, v_maint v, v_vec v)) (node_by_id h id) /\
              option_map (fun v => (v_level v, v_conns v, v_maint v, v_vec v)) (node_by_id h' id) =
              option_map (fun v => (v_level v, v_conns v, v_maint v, v_vec v)) (node_by_id h id)) /\
  doc_count r = Some cnt /\ h_ep (load_ep r) = h_ep h.
Proof.
  intros evs keys cnt n h Hk Hok h' r. destruct (survives evs keys cnt n tt Hk Hok) as (H1 & H2 & H3).
  split; [|split; [exact H2|exact H3]]. intros id. destruct (H1 id) as [A B]. split; [exact B|exact A].
Qed.
Print Assumptions C19_survives_restart_partial.

Fixpoint keys_of (m : nmap vertex) : list N := match m with [] => [] | (k, _) :: m' => k :: keys_of m' end.
Lemma check_keys h keys : forallb (fun k => memN k keys) (keys_of (h_cache h)) = true -> all_keys h keys.
Proof.
  intros H j v Hv. rewrite forallb_forall in H. apply memN_In. apply H.
  revert Hv. generalize (h_cache h). clear. induction n as [|[k w] m IH]; cbn; [discriminate|].
  destruct (N.eqb_spec j k) as [->|]; [now left|]. right. auto.
Qed.

Definition ids_to (n : nat) : list N := map N.of_nat (seq 0 n).

(** Thirty vectors, written back except for the last puts; a restart; two more
    vectors (one of them fails); a query; then a complete write-back. *)
Definition evs19 : list event :=
  map EvAdd hist30 ++ [EvFlush (ids_to 30) 30 20; EvQuery; EvRestart; EvAdd next_op; EvAdd bad_op; EvQuery].
Definition sum19 (h : hnsw) : bool :=
  forallb (fun k => memN k (ids_to 40)) (keys_of (h_cache h)) &&
  match snd (flush h (ids_to 40) 31 50) with Ok _ => true | _ => false end &&
  Nat.leb 20 (length (h_kv h)) && Nat.leb 2 (length (h_cache h)).
Lemma evs19_sum : sum19 (run_events empty_index evs19) = true.
Proof. vm_cast_no_check (eq_refl true). Qed.
Example C19_nonvacuous : let h := run_events empty_index evs19 in
  all_keys h (ids_to 40) /\ snd (flush h (ids_to 40) 31 50) = Ok tt /\
  20 <= length (h_kv h) /\ 2 <= length (h_cache h).
Proof.
  generalize evs19_sum. generalize (run_events empty_index evs19). cbv zeta. intros h H. unfold sum19 in H.
  repeat (apply andb_true_iff in H; destruct H as [H ?]).
  split; [now apply check_keys|]. split; [destruct (snd (flush h (ids_to 40) 31 50)) as [[]|e| |]; [reflexivity|discriminate..]|].
  split; now apply Nat.leb_le.
Qed.

(* ------------------------------------------------------------------ *)
(** C20.  If no vector is on an upper layer, the set of possible answers (over
    the interleavings of the distance goroutines) is the same in the old and
    the new process.
    Missing: indexes with upper layers, where it is false (below). *)
Theorem C20_same_answers_partial : forall evs keys cnt n E q0 maxd ef out,
  let h := run_events empty_index evs in
  all_keys h keys -> snd (flush h keys cnt n) = Ok tt -> h_maxl h = 0 ->
  let h' := fst (flush h keys cnt n) in
  possible E (load_ep (restart h')) q0 maxd ef None out <-> possible E (load_ep h') q0 maxd ef None out.
Proof. exact (fun evs keys cnt n E q0 maxd ef out => restart_possible evs keys cnt n tt E q0 maxd ef out). Qed.
Print Assumptions C20_same_answers_partial.

(** With upper layers: up to 61 vectors and ef at least their number (the
    client's query by vector uses 800), both processes return all vectors
    within the bound, nearest first. *)
Theorem C20_same_answers_upto_61_partial : forall m cap ops P keys cnt n,
  0 < m -> ops <> [] -> length ops <= 61 -> NoDup (map a_id ops) ->
  Forall (find_call m 30 cap (map a_id ops)) ops ->
  Forall (fun o => e_prov (i_env (a_env o)) = P) ops ->
  let h := run_events empty_index (map EvAdd ops) in
  all_keys h keys -> snd (flush h keys cnt n) = Ok tt ->
  let h' := fst (flush h keys cnt n) in
  forall E q0 maxd ef,
    sched_ok E -> e_prov E = P -> e_vcap E = cap -> length q0 = m -> (Z.of_nat (length ops) <= ef)%Z ->
    (forall o d, In o ops -> p_query P (p_normalize P q0) (p_normalize P (a_vec o)) = Some d -> is_num d = true) ->
    exists out1 out2,
      near E h' q0 maxd ef = Ok out1 /\ near E (restart h') q0 maxd ef = Ok out2 /\
      asc (answer out1) /\ asc (answer out2) /\ NoDup (fst out1) /\ NoDup (fst out2) /\
      map it_id (answer out1) = fst out1 /\ map it_id (answer out2) = fst out2 /\
      (forall x, In x (answer out1) <-> In x (answer out2)) /\
      (forall id d, In (mkItem id d) (answer out1) <->
        flt d f32_zero = false /\ fgt d maxd = false /\ true_dist P h (p_normalize P q0) id d).
Proof.
  exact (fun m cap ops P keys cnt n Hm => restart_upto m 30 cap ops P keys cnt n tt Hm (proj1 (Nat.leb_le 1 30) eq_refl)).
Qed.
Print Assumptions C20_same_answers_upto_61_partial.

(** The forty points of [C18_nonvacuous] (three on upper layers) meet the
    hypotheses on [ops]; the write-back succeeds. *)
Definition sum20 (h : hnsw) : bool :=
  forallb (fun k => memN k (ids_to 40)) (keys_of (h_cache h)) &&
  match snd (flush h (ids_to 40) 40 42) with Ok _ => true | _ => false end &&
  Nat.leb 1 (h_maxl h).
Lemma hist40_sum : sum20 (run_events empty_index (map EvAdd hist40)) = true.
Proof. vm_cast_no_check (eq_refl true). Qed.
Example C20_upto_61_nonvacuous : let h := run_events empty_index (map EvAdd hist40) in
  all_keys h (ids_to 40) /\ snd (flush h (ids_to 40) 40 42) = Ok tt /\ 1 <= h_maxl h.
Proof.
  generalize hist40_sum. generalize (run_events empty_index (map EvAdd hist40)). cbv zeta. intros h H. unfold sum20 in H.
  repeat (apply andb_true_iff in H; destruct H as [H ?]).
  split; [now apply check_keys|]. split; [destruct (snd (flush h (ids_to 40) 40 42)) as [[]|e| |]; [reflexivity|discriminate..]|].
  now apply Nat.leb_le.
Qed.
Example C20_nonvacuous : let h := run_events empty_index [EvAdd (mkA (ienv_of l2p []) 0 (q_of [1; 2]%Z) 0);
      EvAdd (mkA (ienv_of l2p []) 1 (q_of [3; 2]%Z) 0)] in
  all_keys h [1; 0]%N /\ snd (flush h [1; 0]%N 2 4) = Ok tt /\ h_maxl h = 0 /\ length (h_cache h) = 2.
Proof.
  cbv zeta. split; [apply check_keys; vm_compute; reflexivity|]. split; [vm_compute; reflexivity|].
  split; vm_compute; reflexivity.
Qed.

(** False in general: LoadEntrypoint restores the entry point but not the
    maximum layer.  With the client's parameters, 61 copies of [1,0] (the second
    on layer 1) and [0,1] on layer 1: the process that built the index answers
    the query [0,1] with vector 61 first; a new process never returns it,
    whatever the interleaving. *)
Definition hist_up : list aop :=
  history (ienv_of cosp) (([1; 0]%Z, 0) :: ([1; 0]%Z, 1) :: repeat ([1; 0]%Z, 0) 59 ++ [([0; 1]%Z, 1)]).
Definition q01 : vec := q_of [0; 1]%Z.
Definition sum_up (h : hnsw) : bool :=
  forallb (fun k => memN k (ids_to 62)) (keys_of (h_cache h)) &&
  (let f := flush h (ids_to 62) 62 64 in
   match snd f with Ok _ => true | _ => false end &&
   match near (env_rev cosp) (fst f) q01 (f32_of_Z 2) 800 with
   | Ok (x :: _, _) => N.eqb x 61 | _ => false end &&
   match near (env_rev cosp) (restart (fst f)) q01 (f32_of_Z 2) 800 with
   | Ok (ids, _) => Nat.eqb (length ids) 61 | _ => false end &&
   all_nodes (fst f) (fun id _ => N.ltb id 25500) &&
   all_nodes (restart (fst f)) (fun id _ => N.ltb id 25500) &&
   all_nodes (load_ep (restart (fst f))) (fun _ v => match v_conns v with cs :: _ => negb (memN 61 cs) | [] => true end) &&
   N.eqb (h_ep (load_ep (restart (fst f)))) 1).
Lemma hist_up_sum : sum_up (run_events empty_index (map EvAdd hist_up)) = true.
Proof. vm_cast_no_check (eq_refl true). Qed.

Lemma ground_not_reached h a b :
  all_nodes h (fun _ v => match v_conns v with cs :: _ => negb (memN b cs) | [] => true end) = true ->
  a <> b -> ~ reach h 0 a b.
Proof.
  intros H Hne Hr. inversion Hr as [|b' v cs c H1 Hv Hle Hl Hc]; subst; [congruence|].
  pose proof (all_nodes_spec _ _ H _ _ Hv) as Hf. cbv beta in Hf. unfold conns_at in Hl.
  destruct (v_conns v) as [|c0 l]; [discriminate|]. injection Hl as ->.
  apply negb_true_iff, memN_notIn in Hf. contradiction.
Qed.

Theorem C20_same_answers_refuted : exists ops keys,
  Forall (call_ok 25500) ops /\ NoDup (map a_id ops) /\
  Forall (fun o => i_M (a_env o) = 30 /\ i_efc (a_env o) = 60%Z) ops /\
  let h := run_events empty_index (map EvAdd ops) in
  all_keys h keys /\ snd (flush h keys 62 64) = Ok tt /\
  let h' := fst (flush h keys 62 64) in
  (exists ids ds, near (env_rev cosp) h' q01 (f32_of_Z 2) 800 = Ok (61%N :: ids, ds)) /\
  (exists ids ds, near (env_rev cosp) (restart h') q01 (f32_of_Z 2) 800 = Ok (ids, ds) /\ length ids = 61) /\
  forall E maxd ef out, sched_ok E -> e_prov E = cosp -> e_vcap E = 25500%N ->
    near E (restart h') q01 maxd ef = Ok out -> ~ In 61%N (fst out).
Proof.
  exists hist_up, (ids_to 62). split; [apply history_calls; [exact cosp_known|reflexivity]|].
  split; [apply history_nodup|]. split; [apply history_forall; auto|].
  generalize hist_up_sum. cbv zeta. generalize (run_events empty_index (map EvAdd hist_up)). intros h H.
  unfold sum_up in H. apply andb_true_iff in H. destruct H as [Hk H].
  cbv zeta in H. apply andb_true_iff in H. destruct H as [H Hep]. apply andb_true_iff in H. destruct H as [H Hno].
  apply andb_true_iff in H. destruct H as [H Hs2]. apply andb_true_iff in H. destruct H as [H Hs1].
  apply andb_true_iff in H. destruct H as [H Hb]. apply andb_true_iff in H. destruct H as [H Ha].
  split; [now apply check_keys|].
  split; [destruct (snd (flush h (ids_to 62) 62 64)) as [[]|e| |]; [reflexivity|discriminate..]|].
  revert Ha Hb Hs1 Hs2 Hno Hep. generalize (fst (flush h (ids_to 62) 62 64)). intros h' Ha Hb Hs1 Hs2 Hno Hep. clear Hk H.
  split; [|split].
  - destruct (near (env_rev cosp) h' q01 (f32_of_Z 2) 800) as [[[|x ids] ds]|e| |]; try discriminate.
    exists ids, ds. apply N.eqb_eq in Ha. now subst x.
  - destruct (near (env_rev cosp) (restart h') q01 (f32_of_Z 2) 800) as [[ids ds]|e| |]; try discriminate.
    exists ids, ds. split; [reflexivity|now apply Nat.eqb_eq].
  - intros E maxd ef out Hsc HP Hcap Hn Hin. apply In_nth_error in Hin. destruct Hin as (i & Hi).
    assert (Hsym : prov_sym (e_prov E)) by (rewrite HP; apply known_psym, cosp_known).
    assert (Hsm : ids_small E (load_ep (restart h'))).
    { intros j v Hj. rewrite Hcap. apply N.ltb_lt. exact (all_nodes_spec (restart h') _ Hs2 j v Hj). }
    destruct (knn_max_dist_sound E (load_ep (restart h')) Hsc Hsym Hsm q01 maxd ef None out Hn) as (_ & _ & _ & Hso).
    destruct (Hso i 61%N Hi) as (d & _ & _ & Hl & _). cbn [h_maxl load_ep restart with_ep] in Hl.
    apply N.eqb_eq in Hep. rewrite Hep in Hl. inversion Hl; subst.
    revert H. now apply ground_not_reached.
Qed.
Print Assumptions C20_same_answers_refuted.

(* ------------------------------------------------------------------ *)
(** C21.  The first batch (vector 0 first) was written back successfully.
    [later] is any history of additions, queries, restarts and write-backs that
    break off after any number of puts, in any order of the keys; its last event
    may be such a write-back followed by [EvRestart].  A query of the right
    dimension then succeeds and every returned id was given to Add.
    Missing: a crash during the very first write-back (below). *)
Theorem C21_crash_searchable_partial : forall n P o adds keys cnt k later,
  a_id o = 0%N -> 0 < n -> known_provider P ->
  let evs := EvAdd o :: map EvAdd adds ++ EvFlush keys cnt k :: later in
  (forall a, In a (added evs) -> e_prov (i_env (a_env a)) = P /\ length (a_vec a) = n) ->
  covers empty_index evs ->
  snd (flush (run_events empty_index (EvAdd o :: map EvAdd adds)) keys cnt k) = Ok tt ->
  let h := run_events empty_index evs in
  forall E q0 maxd ef, sched_ok E -> e_prov E = P -> ids_small E h -> length q0 = n ->
  exists out, near E h q0 maxd ef = Ok out /\
    forall i id, nth_error (fst out) i = Some id -> exists a d, In a (added evs) /\ a_id a = id /\
      nth_error (snd out) i = Some d /\
      exists v, node_by_id h id = Some v /\ p_query P (p_normalize P q0) (v_vec v) = Some d.
Proof. exact crash_searchable. Qed.
Print Assumptions C21_crash_searchable_partial.

(** Thirty vectors are written back, six more are added, the write-back of 0, 5
    and the new ones breaks off after three puts and the process dies: vectors
    0 and 5 link to vectors that were never written. *)
Definition more6 : list aop :=
  map (fun i => mkA (ienv_of l2p (enum 0 (map (fun i => q_of (pt i)) (seq 0 40)))) (N.of_nat i) (q_of (pt i)) (i mod 2)) (seq 30 6).
Definition evs21 : list event :=
  EvAdd (hd (mkA (ienv_of l2p []) 0 [] 0) hist30) :: map EvAdd (tl hist30) ++
  EvFlush (ids_to 30) 30 32 :: map EvAdd more6 ++ [EvFlush (ids_to 40) 36 3; EvRestart].
Fixpoint check_covers (h : hnsw) (evs : list event) : bool :=
  match evs with
  | [] => true
  | e :: evs' =>
      match e with EvFlush keys _ _ => forallb (fun k => memN k keys) (keys_of (h_cache h)) | _ => true end &&
      check_covers (fst (ev_step h e)) evs'
  end.
Lemma check_covers_ok evs : forall h, check_covers h evs = true -> covers h evs.
Proof.
  induction evs as [|e evs IH]; intros h H; cbn [check_covers covers] in *; [exact I|].
  apply andb_true_iff in H. destruct H as [H1 H2]. split; [|now apply IH].
  destruct e; auto. now apply check_keys.
Qed.
Definition dangling (h : hnsw) : bool :=
  existsb (fun kv => existsb (existsb (fun c => match node_by_id h c with None => true | _ => false end)) (v_conns (snd kv))) (h_kv h).
Lemma evs21_sum : check_covers empty_index evs21 &&
  match snd (flush (run_events empty_index (EvAdd (hd (mkA (ienv_of l2p []) 0 [] 0) hist30) :: map EvAdd (tl hist30))) (ids_to 30) 30 32)
  with Ok _ => true | _ => false end && dangling (run_events empty_index evs21) = true.
Proof. vm_cast_no_check (eq_refl true). Qed.
Example C21_nonvacuous : 
  (forall a, In a (added evs21) -> e_prov (i_env (a_env a)) = l2p /\ length (a_vec a) = 2) /\
  covers empty_index evs21 /\
  snd (flush (run_events empty_index (EvAdd (hd (mkA (ienv_of l2p []) 0 [] 0) hist30) :: map EvAdd (tl hist30))) (ids_to 30) 30 32) = Ok tt /\
  dangling (run_events empty_index evs21) = true.
Proof.
  pose proof evs21_sum as H. apply andb_true_iff in H. destruct H as [H H3].
  apply andb_true_iff in H. destruct H as [H1 H2]. split; [|split; [|split]].
  - assert (H : forallb (fun a => Nat.eqb (length (a_vec a)) 2) (added evs21) = true) by (vm_compute; reflexivity).
    assert (HP : Forall (fun a => e_prov (i_env (a_env a)) = l2p) (added evs21)) by (cbv [evs21 added]; repeat constructor).
    intros a Ha. rewrite Forall_forall in HP. rewrite forallb_forall in H. split; [auto|]. now apply Nat.eqb_eq, H.
  - now apply check_covers_ok.
  - revert H2. generalize (flush (run_events empty_index (EvAdd (hd (mkA (ienv_of l2p []) 0 [] 0) hist30) :: map EvAdd (tl hist30))) (ids_to 30) 30 32).
    intros [h' [[]|e| |]]; cbn; intros; [reflexivity|discriminate..].
  - exact H3.
Qed.

(** False for a crash during the first write-back: when vector 1 was written
    and vector 0 was not, the new process looks for entry point 0 and every
    query fails. *)
Theorem C21_first_batch_refuted : exists ops keys n,
  Forall (call_ok 25500) ops /\ Forall (fun x => x = Ok tt) (snd (run_adds empty_index ops)) /\
  all_keys (run_events empty_index (map EvAdd ops)) keys /\
  let h := run_events empty_index (map EvAdd ops ++ [EvFlush keys 2 n; EvRestart]) in
  (exists v, node_by_id h 1 = Some v) /\
  forall E q0 maxd ef, near E h q0 maxd ef = Err ENodeMissing.
Proof.
  exists (history (ienv_of cosp) [([1; 2]%Z, 0); ([3; 2]%Z, 0)]), [1; 0]%N, 1.
  split; [apply history_calls; [exact cosp_known|reflexivity]|].
  split; [vm_compute; repeat constructor|]. split; [apply check_keys; vm_compute; reflexivity|]. cbv zeta.
  set (h := run_events _ _).
  assert (Hh : (h_kv_ep h = None) /\ (mget 0%N (h_kv h) = None) /\ (exists v, mget 1%N (h_kv h) = Some v) /\ h_cache h = []).
  { split; [vm_compute; reflexivity|]. split; [vm_compute; reflexivity|]. split; [vm_compute; eauto|reflexivity]. }
  destruct Hh as (H1 & H2 & (v & H3) & H4). generalize dependent h. intros h H1 H2 H3 H4.
  split; [exists v; unfold node_by_id; now rewrite H4, H3|].
  intros E q0 maxd ef. unfold near, knn_max_dist, load_ep. rewrite H1. cbn [h_ep with_ep].
  unfold dist_node_vec. change (node_by_id (with_ep h 0 (h_maxl h)) 0) with (node_by_id h 0).
  unfold node_by_id. rewrite H4. cbn [mget]. rewrite H2. reflexivity.
Qed.
Print Assumptions C21_first_batch_refuted.

(* ------------------------------------------------------------------ *)
(** C35.  Starting with any table, every read through the bounded cache gives
    the most recently written version, as long as between two write-backs no
    more than [cap] distinct vertices are touched. *)
Theorem C35_cache_transparent : forall (V : Type) cap (kv : nmap V) ops,
  fits cap [] ops ->
  snd (lrun cap (mkL [] kv) ops) = snd (spec_run (fun k => mget k kv) ops).
Proof.
  intros V cap kv ops Hf. exact (proj1 (run_spec cap ops _ [] _ (linv_open cap kv) Hf)).
Qed.
Print Assumptions C35_cache_transparent.

(** Capacity 2: reads of evicted vertices come from the table. *)
Definition ops35 : list (lop N) :=
  [LPut 1 10; LPut 2 20; LGet 1; LFlush; LGet 3; LPut 4 40; LFlush; LGet 1; LPut 2 21; LFlush; LGet 4; LGet 2]%N.
Example C35_nonvacuous : fits 2 [] ops35 /\
  snd (lrun 2 (mkL [] [(3, 30)]%N) ops35) = [Some 10; Some 30; Some 10; Some 40; Some 21]%N /\
  length (l_cache (fst (lrun 2 (mkL [] [(3, 30)]%N) ops35))) = 2.
Proof. vm_compute. repeat split; auto. Qed.

(** The bound is sharp: one vertex more and a read misses. *)
Example C35_sharp : snd (lrun 2 lempty [LPut 1 10; LPut 2 20; LPut 3 30; LGet 1]%N) = [None].
Proof. vm_compute. reflexivity. Qed.

(* ------------------------------------------------------------------ *)
(** C36.  If the batch touches no more vertices than the cache holds, the
    write-back stores the last version of all of them.
    Missing: larger batches, where it is false (below). *)
Theorem C36_written_back_partial : forall (V : Type) (kv : nmap V) ops,
  fits (N.to_nat node_cache_size) [] ops ->
  forall id, mget id (l_kv (lflush (N.to_nat node_cache_size) (fst (lrun (N.to_nat node_cache_size) (mkL [] kv) ops)))) =
    fst (spec_run (fun k => mget k kv) ops) id.
Proof.
  intros V kv ops Hf. apply (flush_spec (N.to_nat node_cache_size) _ (touched [] ops)).
  exact (proj2 (run_spec _ ops _ [] _ (linv_open _ kv) Hf)).
Qed.
Print Assumptions C36_written_back_partial.

Example C36_nonvacuous : forall n, n <= 10 -> fits (N.to_nat node_cache_size) [] (map (fun i => LPut (N.of_nat i) i) (seq 0 n)).
Proof.
  assert (H : (10 <= N.to_nat node_cache_size)%nat) by (unfold node_cache_size; lia).
  intros n Hn. generalize dependent (N.to_nat node_cache_size). intros c Hc.
  do 11 (destruct n as [|n]; [cbn; repeat split; lia|]). lia.
Qed.

(** Whatever a batch does: if it puts more than 10000 distinct vertices into an
    index that had nothing stored, one of them is not in the table after the
    write-back. *)
Theorem C36_large_batch_loses : forall (V : Type) (ops : list (lop V)) ids,
  no_flush ops -> NoDup ids -> N.to_nat node_cache_size < length ids ->
  ~ (forall i, In i ids -> mget i (l_kv (lflush (N.to_nat node_cache_size)
        (fst (lrun (N.to_nat node_cache_size) lempty ops)))) <> None).
Proof.
  intros V ops ids Hf Hnd Hlt H. pose proof (batch_bound (N.to_nat node_cache_size) ops Hf ids Hnd H). lia.
Qed.
Print Assumptions C36_large_batch_loses.

Theorem C36_all_written_refuted : exists (ops : list (lop N)) ids,
  no_flush ops /\ NoDup ids /\ (forall i, In i ids -> In (LPut i i) ops) /\
  ~ (forall i, In i ids -> mget i (l_kv (lflush (N.to_nat node_cache_size)
        (fst (lrun (N.to_nat node_cache_size) lempty ops)))) <> None).
Proof.
  set (ids := map N.of_nat (seq 0 (N.to_nat 10001))).
  assert (Hn : NoDup ids).
  { unfold ids. apply FinFun.Injective_map_NoDup; [intros a b; apply Nat2N.inj|apply seq_NoDup]. }
  exists (map (fun i => LPut i i) ids), ids.
  assert (Hf : no_flush (map (fun i => LPut i i) ids)).
  { intros H. apply in_map_iff in H. destruct H as (x & Hx & _). discriminate. }
  split; [exact Hf|]. split; [exact Hn|]. split; [intros i Hi; now apply (in_map (fun i => LPut i i))|].
  apply C36_large_batch_loses; [exact Hf|exact Hn|]. unfold ids. rewrite map_length, seq_length. unfold node_cache_size. lia.
Qed.
Print Assumptions C36_all_written_refuted.

(** The same with a cache of two vertices, computed. *)
Example C36_two : mget 1%N (l_kv (lflush 2 (fst (lrun 2 lempty [LPut 1 10; LPut 2 20; LPut 3 30]%N)))) = None /\
  mget 3%N (l_kv (lflush 2 (fst (lrun 2 lempty [LPut 1 10; LPut 2 20; LPut 3 30]%N)))) = Some 30%N.
Proof. vm_compute. auto. Qed.
