(** Properties C06 and C13-C17 about histories of insertions into a fresh index
    ([run_adds empty_index ops]; one operation is one call of Add together with
    its random layer, goroutine schedule and vector-source answers).

    Vocabulary: [call_ok cap o]: any schedule that loses no goroutine result,
    one of the distance providers, visited list of length [cap] above the id;
    [dimension ops]: length of the first non-empty vector; [reuse_ok n ops]: the
    id of a vector of dimension n is not used again later (ids of rejected
    vectors may be); [succeeded ops rs]: the operations whose result was
    success; [possible E h q maxd ef allow out]: some schedule makes the query
    return [out]. *)
From Verif Require Import Base F32 PQ PQProofs Graph Search SearchProofs SearchLayer SearchKnn
  SearchCong Insert HeuristicProofs InsertProofs InsertHist InsertTotal InsertDim InsertSmall
  InsertFacts InsertEp Distancer DistancerProofs PropDistancer TestGraph TestInsert.

Lemma nodup_reuse n ops : NoDup (map a_id ops) -> reuse_ok n ops.
Proof.
  induction ops as [|o ops IH]; intros H; inversion H as [|? ? Hni Hnd]; subst; constructor; [|now apply IH].
  apply Forall_forall. intros o' Ho' _ E. apply Hni. rewrite E. now apply in_map.
Qed.

Lemma history_calls P l : known_provider P -> (N.of_nat (length l) < 25000)%N ->
  Forall (call_ok 25500) (history (ienv_of P) l).
Proof.
  intros HP Hl. apply history_forall. intros I i x t Hi _. unfold call_ok. cbn.
  split; [apply env_rev_sched|]. split; [exact HP|]. split; [reflexivity|]. lia.
Qed.

Lemma l2p_known : known_provider l2p. Proof. constructor; constructor. Qed.
Lemma cosp_known : known_provider cosp. Proof. constructor; constructor. Qed.

Lemma hist70_calls : Forall (call_ok 25500) hist70 /\ reuse_ok (dimension hist70) hist70 /\
  (exists o, In o hist70 /\ a_vec o <> []).
Proof.
  split; [apply history_calls; [exact l2p_known|reflexivity]|].
  split; [apply nodup_reuse, history_nodup|].
  eexists. split; [left; reflexivity|]. vm_compute. discriminate.
Qed.

(* ---- C13 ---- *)
(** No hypothesis but the configured maximum: providers, schedules, ids,
    layers and vector-source answers are arbitrary, insertions may fail. *)
Theorem C13_degree_bounded : forall ops,
  Forall (fun o => i_M (a_env o) = 30) ops ->
  forall id v l cs, node_by_id (fst (run_adds empty_index ops)) id = Some v ->
    nth_error (v_conns v) l = Some cs ->
    length cs <= match l with O => 60 | S _ => 30 end.
Proof.
  exact (fun ops H id v l cs Hv Hl =>
    run_adds_deg 30 ops empty_index H (fun i w Hw => match eq_ind None (fun o => match o with None => True | Some _ => False end) I (Some w) Hw with end) id v Hv l cs Hl).
Qed.
Print Assumptions C13_degree_bounded.

(** One evaluation of the history, shared by the examples below. *)
Definition summary70 (r : hnsw * list (res unit)) : option (option nat) * nat * nat :=
  (option_map (fun v => option_map (@length N) (nth_error (v_conns v) 0)) (node_by_id (fst r) 3),
   h_maxl (fst r), length (succeeded hist70 (snd r))).
Lemma hist70_run : summary70 (run_adds empty_index hist70) = (Some (Some 32), 2, 70).
Proof. vm_cast_no_check (eq_refl (Some (Some 32), 2, 70)). Qed.
Lemma summary70_maxl r x y z : summary70 r = (x, y, z) -> h_maxl (fst r) = y.
Proof. unfold summary70. generalize hist70. intros l [= _ H _]. exact H. Qed.
Lemma summary70_succ r x y z : summary70 r = (x, y, z) -> length (succeeded hist70 (snd r)) = z.
Proof. unfold summary70. generalize hist70. intros l [= _ _ H]. exact H. Qed.

Example C13_nonvacuous : Forall (fun o => i_M (a_env o) = 30) hist70 /\
  exists v cs, node_by_id (fst (run_adds empty_index hist70)) 3 = Some v /\
    nth_error (v_conns v) 0 = Some cs /\ length cs = 32.
Proof.
  split; [apply history_forall; reflexivity|].
  generalize hist70_run. generalize (run_adds empty_index hist70). intros r H. unfold summary70 in H.
  assert (H' := f_equal (fun x => fst (fst x)) H). cbn [fst snd] in H'. clear H.
  destruct (node_by_id _ 3) as [v|]; [|discriminate]. cbn [option_map] in H'.
  destruct (nth_error (v_conns v) 0) as [cs|] eqn:En; [|discriminate]. cbn [option_map] in H'.
  exists v, cs. split; [reflexivity|]. split; [exact En|congruence].
Qed.

(* ---- C14 ---- *)
(** Full statement: without [reuse_ok].  Missing: the ids of insertions that
    failed although the dimension was right; false for them (see below). *)
Theorem C14_links_proper_partial : forall cap ops,
  Forall (call_ok cap) ops -> reuse_ok (dimension ops) ops ->
  let h := fst (run_adds empty_index ops) in
  forall id v l cs, node_by_id h id = Some v -> nth_error (v_conns v) l = Some cs ->
    NoDup cs /\ forall c, In c cs -> c <> id /\ exists w, node_by_id h c = Some w.
Proof.
  exact (fun cap ops H1 H2 id v l cs Hv Hl =>
    let W := hist_winv cap ops H1 H2 in
    conj (w_nodup _ W id v l cs Hv Hl)
         (fun c Hc => let '(conj Hne (ex_intro _ w (conj Hw _))) := w_link _ W id v l cs c Hv Hl Hc in
                      conj Hne (ex_intro _ w Hw))).
Qed.
Print Assumptions C14_links_proper_partial.

Example C14_nonvacuous : Forall (call_ok 25500) hist70 /\ reuse_ok (dimension hist70) hist70.
Proof. destruct hist70_calls as (H1 & H2 & _). auto. Qed.

(** The client reuses the id of a vector whose insertion failed
    (document.go:388-411).  If the failure came from the vector source after
    links to the vector had been made, the next vector with that id ends up
    linked to itself. *)
Definition failing_src : ienv := mkI (env_rev l2p) (fun _ _ _ => Err EVectorSource) 25000 30 60.
Definition hist30 : list aop :=
  history (ienv_of l2p) (map (fun i => (pt i, if Nat.eqb i 1 then 1 else 0)%nat) (seq 0 30)).
Definition good_src : ienv := ienv_of l2p (enum 0 (map (fun i => q_of (pt i)) (seq 0 32))).
Definition hist_reuse (l : nat) : list aop :=
  hist30 ++ [mkA failing_src 30 (q_of [50; 50]%Z) 1; mkA good_src 30 (q_of [5; 5]%Z) l].

Lemma hist_reuse_calls l : Forall (call_ok 25500) (hist_reuse l).
Proof.
  apply Forall_app. split; [apply history_calls; [exact l2p_known|reflexivity]|].
  repeat constructor; cbn; auto using env_rev_sched; try lia; apply env_rev_sched.
Qed.

Theorem C14_id_reuse_refuted : exists ops id v cs,
  Forall (call_ok 25500) ops /\
  snd (run_adds empty_index ops) = repeat (Ok tt) 30 ++ [Err EVectorSource; Ok tt] /\
  node_by_id (fst (run_adds empty_index ops)) id = Some v /\
  nth_error (v_conns v) 1 = Some cs /\ In id cs.
Proof.
  exists (hist_reuse 1), 30%N, (mkV 30 1 [[6; 22]; [1; 30]]%N false (q_of [5; 5]%Z) false), [1; 30]%N.
  split; [apply hist_reuse_calls|]. split; [vm_compute; reflexivity|]. split; [vm_compute; reflexivity|].
  split; [reflexivity|]. right. now left.
Qed.
Print Assumptions C14_id_reuse_refuted.

(* ---- C15 ---- *)
(** Full statement: without [reuse_ok]; false without it (see below). *)
Theorem C15_layers_consistent_partial : forall cap ops,
  Forall (call_ok cap) ops -> reuse_ok (dimension ops) ops ->
  let h := fst (run_adds empty_index ops) in
  forall id v, node_by_id h id = Some v ->
    length (v_conns v) = S (v_level v) /\
    forall l cs c, nth_error (v_conns v) l = Some cs -> In c cs ->
      exists w, node_by_id h c = Some w /\ l <= v_level w /\ l <= v_level v.
Proof.
  intros cap ops H1 H2 h id v Hv. pose proof (hist_winv cap ops H1 H2) as W.
  pose proof (w_len _ W id v Hv) as Hlen. split; [exact Hlen|]. intros l cs c Hl Hc.
  destruct (w_link _ W id v l cs c Hv Hl Hc) as (_ & w & Hw & Hlw). exists w.
  split; [exact Hw|]. split; [exact Hlw|].
  assert (l < length (v_conns v)) by (apply nth_error_Some; congruence). lia.
Qed.
Print Assumptions C15_layers_consistent_partial.

Example C15_nonvacuous : Forall (call_ok 25500) hist70 /\ reuse_ok (dimension hist70) hist70 /\
  h_maxl (fst (run_adds empty_index hist70)) = 2.
Proof.
  destruct hist70_calls as (H1 & H2 & _). split; [exact H1|]. split; [exact H2|].
  exact (summary70_maxl _ _ _ _ hist70_run).
Qed.

(** With a reused id a layer-1 link can lead to a vector that is only on
    layer 0. *)
Theorem C15_id_reuse_refuted : exists ops v cs w,
  Forall (call_ok 25500) ops /\
  node_by_id (fst (run_adds empty_index ops)) 1 = Some v /\
  nth_error (v_conns v) 1 = Some cs /\ In 30%N cs /\
  node_by_id (fst (run_adds empty_index ops)) 30 = Some w /\ v_level w = 0.
Proof.
  exists (hist_reuse 0). set (h := fst (run_adds empty_index (hist_reuse 0))).
  enough (H : match node_by_id h 1, node_by_id h 30 with
              | Some v, Some w => match nth_error (v_conns v) 1 with
                                  | Some cs => memN 30 cs && Nat.eqb (v_level w) 0
                                  | None => false end
              | _, _ => false end = true).
  { destruct (node_by_id h 1) as [v|]; [|discriminate]. destruct (node_by_id h 30) as [w|]; [|discriminate].
    destruct (nth_error (v_conns v) 1) as [cs|] eqn:En; [|discriminate].
    apply andb_true_iff in H. destruct H as [Hm Hl]. apply memN_In in Hm. apply Nat.eqb_eq in Hl.
    exists v, cs, w. split; [apply hist_reuse_calls|]. auto. }
  vm_cast_no_check (eq_refl true).
Qed.
Print Assumptions C15_id_reuse_refuted.

(* ---- C16 ---- *)
(** Arbitrary distances, schedules and vector-source answers.  [fresh [] ops
    rs]: no call uses the id of an earlier call that did not return an error
    (the client reuses the ids of failed calls). *)
Theorem C16_entry_point_dominates : forall ops,
  let r := run_adds empty_index ops in
  fresh [] ops (snd r) -> (exists o, In o ops /\ a_vec o <> []) ->
  (exists v, node_by_id (fst r) (h_ep (fst r)) = Some v /\ v_level v = h_maxl (fst r)) /\
  (forall o, In o (succeeded ops (snd r)) -> exists v, node_by_id (fst r) (a_id o) = Some v /\
     v_level v <= h_maxl (fst r) /\ v_vec v = p_normalize (e_prov (i_env (a_env o))) (a_vec o)).
Proof. exact run_ep. Qed.
Print Assumptions C16_entry_point_dominates.

Lemma nodup_fresh ops : NoDup (map a_id ops) -> forall rs, fresh [] ops rs.
Proof.
  enough (H : forall kept, NoDup (map a_id ops) -> (forall o, In o ops -> ~ In (a_id o) kept) ->
    forall rs, fresh kept ops rs) by (intros Hn rs; apply H; auto).
  induction ops as [|o ops IH]; intros kept Hn Hk [|r rs]; cbn [fresh]; auto.
  inversion Hn as [|? ? Hni Hnd]; subst. split; [apply Hk; now left|]. apply IH; [exact Hnd|].
  intros o' Ho' Hin. apply in_app_or in Hin. destruct Hin as [Hin|Hin]; [exact (Hk o' (or_intror Ho') Hin)|].
  assert (a_id o' = a_id o) by (destruct r; cbn in Hin; intuition). apply Hni. rewrite <- H. now apply in_map.
Qed.

Example C16_nonvacuous : (forall rs, fresh [] hist70 rs) /\
  (exists o, In o hist70 /\ a_vec o <> []) /\
  length (succeeded hist70 (snd (run_adds empty_index hist70))) = 70.
Proof.
  destruct hist70_calls as (_ & _ & H3). split; [apply nodup_fresh, history_nodup|]. split; [exact H3|].
  exact (summary70_succ _ _ _ _ hist70_run).
Qed.
Fixpoint freshb (kept : list N) (ops : list aop) (rs : list (res unit)) : bool :=
  match ops, rs with
  | o :: ops', r :: rs' => negb (memN (a_id o) kept) && freshb (kept ++ kept_by o r) ops' rs'
  | _, _ => true
  end.
Lemma freshb_spec ops : forall kept rs, freshb kept ops rs = true -> fresh kept ops rs.
Proof.
  induction ops as [|o ops IH]; intros kept [|r rs]; cbn [freshb fresh]; auto.
  intros H. apply andb_true_iff in H. destruct H as [H1 H2]. split; [|now apply IH].
  now apply memN_notIn, negb_true_iff.
Qed.
(** A history with a reused id meets the hypothesis, too. *)
Example C16_reuse_nonvacuous :
  fresh [] (hist_reuse 1) (repeat (Ok tt) 30 ++ [Err EVectorSource; Ok tt]) /\
  snd (run_adds empty_index (hist_reuse 1)) = repeat (Ok tt) 30 ++ [Err EVectorSource; Ok tt].
Proof.
  split; [|vm_compute; reflexivity]. apply freshb_spec. vm_compute. reflexivity.
Qed.

(* ---- C17 ---- *)
Theorem C17_wrong_dimension_rejected : forall cap ops o,
  Forall (call_ok cap) (ops ++ [o]) -> reuse_ok (dimension ops) (ops ++ [o]) ->
  (exists o, In o ops /\ a_vec o <> []) ->
  length (a_vec o) <> dimension ops ->
  let h := fst (run_adds empty_index ops) in
  let r := add (a_env o) h (a_id o) (a_vec o) (a_lvl o) in
  (forall u, snd r <> Ok u) /\
  ((a_id o < i_vcsize (a_env o))%N -> exists e, snd r = Err e) /\
  (forall j, j <> a_id o -> node_by_id (fst r) j = node_by_id h j) /\
  (forall j v l cs, node_by_id (fst r) j = Some v -> nth_error (v_conns v) l = Some cs -> ~ In (a_id o) cs) /\
  h_ep (fst r) = h_ep h /\ h_maxl (fst r) = h_maxl h /\
  (forall E q0 maxd ef allow out,
     possible E (fst r) q0 maxd ef allow out <-> possible E h q0 maxd ef allow out).
Proof. exact hist_mismatch. Qed.
Print Assumptions C17_wrong_dimension_rejected.

(** Hence all vectors whose insertion succeeded have one dimension. *)
Theorem C17_one_dimension : forall cap ops,
  Forall (call_ok cap) ops -> reuse_ok (dimension ops) ops ->
  let r := run_adds empty_index ops in
  forall o, In o (succeeded ops (snd r)) -> length (a_vec o) = dimension ops.
Proof. exact succ_dim. Qed.
Print Assumptions C17_one_dimension.

(** The right dimension under a new id is accepted, given a working vector
    source. *)
Theorem C17_right_dimension_accepted : forall cap ops o,
  Forall (call_ok cap) (ops ++ [o]) -> reuse_ok (dimension ops) (ops ++ [o]) ->
  (exists o, In o ops /\ a_vec o <> []) ->
  length (a_vec o) = dimension ops -> (a_id o < i_vcsize (a_env o))%N ->
  (forall l ow id, In id (a_id o :: right_ids (dimension ops) ops) ->
     exists w, i_vs (a_env o) l ow id = Ok w /\ length w = dimension ops) ->
  snd (add (a_env o) (fst (run_adds empty_index ops)) (a_id o) (a_vec o) (a_lvl o)) = Ok tt.
Proof. exact hist_accept. Qed.
Print Assumptions C17_right_dimension_accepted.

Definition bad_op : aop := mkA (ienv_of l2p []) 30 (q_of [1; 2; 3]%Z) 0.
Example C17_nonvacuous : Forall (call_ok 25500) (hist30 ++ [bad_op]) /\
  reuse_ok (dimension hist30) (hist30 ++ [bad_op]) /\
  (exists o, In o hist30 /\ a_vec o <> []) /\ length (a_vec bad_op) <> dimension hist30 /\
  snd (add (a_env bad_op) (fst (run_adds empty_index hist30)) (a_id bad_op) (a_vec bad_op) (a_lvl bad_op))
    = Err EDimMismatch.
Proof.
  split.
  { apply Forall_app. split; [apply history_calls; [exact l2p_known|reflexivity]|].
    constructor; [|constructor]. split; [apply env_rev_sched|].
    split; [exact l2p_known|]. split; reflexivity. }
  split; [apply nodup_reuse, nodupN_spec; vm_compute; reflexivity|].
  split; [eexists; split; [left; reflexivity|vm_compute; discriminate]|].
  split; [vm_compute; discriminate|]. vm_compute. reflexivity.
Qed.

Definition all_src : ienv := mkI (env_rev l2p) (fun _ _ id => Ok (q_of [Z.of_N id; 7]%Z)) 25000 30 60.
Definition next_op : aop := mkA all_src 30 (q_of [4; 7]%Z) 3.
Example C17_accepted_nonvacuous : Forall (call_ok 25500) (hist30 ++ [next_op]) /\
  reuse_ok (dimension hist30) (hist30 ++ [next_op]) /\
  length (a_vec next_op) = dimension hist30 /\ (a_id next_op < i_vcsize (a_env next_op))%N /\
  (forall l ow id, exists w, i_vs (a_env next_op) l ow id = Ok w /\ length w = dimension hist30).
Proof.
  split.
  { apply Forall_app. split; [apply history_calls; [exact l2p_known|reflexivity]|].
    constructor; [|constructor]. split; [apply env_rev_sched|].
    split; [exact l2p_known|]. split; reflexivity. }
  split; [apply nodup_reuse, nodupN_spec; vm_compute; reflexivity|].
  split; [vm_compute; reflexivity|]. split; [vm_compute; reflexivity|].
  intros l ow id. eexists. split; reflexivity.
Qed.

(* ---- C06 ---- *)
(** [small_call n M cap o]: [call_ok], dimension [n], id within the vector
    cache, M links, efConstruction at least M.  [all] lists every inserted
    vector with its distance to the query; the answer is the [ef] nearest of
    them, nearest first, cut to the distance bound. *)
Theorem C06_small_exact_partial : forall n cap ops P,
  0 < n -> ops <> [] -> length ops <= 30 -> NoDup (map a_id ops) ->
  Forall (small_call n 30 cap) ops ->
  Forall (fun o => e_prov (i_env (a_env o)) = P) ops ->
  let h := fst (run_adds empty_index ops) in
  Forall (fun r => r = Ok tt) (snd (run_adds empty_index ops)) /\
  forall E q0 maxd ef,
    sched_ok E -> e_prov E = P -> e_vcap E = cap -> length q0 = n -> (1 <= ef)%Z ->
    (forall o d, In o ops -> p_query P (p_normalize P q0) (p_normalize P (a_vec o)) = Some d -> is_num d = true) ->
    exists all best out,
      knn_max_dist E h q0 maxd ef None = Ok out /\
      NoDup (map it_id all) /\
      (forall id d, In (mkItem id d) all <-> exists o, In o ops /\ a_id o = id /\
         p_query P (p_normalize P q0) (p_normalize P (a_vec o)) = Some d) /\
      kbest (Z.to_nat ef) best all /\ asc best /\
      answer out = filter (within maxd) best.
Proof. exact (fun n cap ops P => small_exact n 30 cap ops P). Qed.
Print Assumptions C06_small_exact_partial.

Definition hist_cos : list aop :=
  history (ienv_of cosp) [([1; 0]%Z, 0); ([0; 1]%Z, 1); ([3; 4]%Z, 0); ([-1; 2]%Z, 3); ([5; 5]%Z, 0); ([2; 7]%Z, 1)].
Example C06_nonvacuous :
  hist_cos <> [] /\ length hist_cos <= 30 /\ NoDup (map a_id hist_cos) /\
  Forall (small_call 2 30 25500) hist_cos /\
  Forall (fun o => e_prov (i_env (a_env o)) = cosp) hist_cos /\
  (forall o d, In o hist_cos ->
     p_query cosp (p_normalize cosp (q_of [1; 3]%Z)) (p_normalize cosp (a_vec o)) = Some d -> is_num d = true) /\
  exists ds, knn_max_dist (env_rev cosp) (fst (run_adds empty_index hist_cos)) (q_of [1; 3]%Z) (f32_of_Z 1) 4 None
    = Ok ([5; 2; 1; 4]%N, ds).
Proof.
  split; [discriminate|]. split; [vm_compute; lia|]. split; [apply history_nodup|]. split.
  { apply history_forall. intros I i x t Hi Hin. cbn [length] in Hi. unfold small_call, call_ok. cbn.
    split; [split; [apply env_rev_sched|split; [exact cosp_known|split; [reflexivity|lia]]]|].
    split; [|split; [lia|split; [reflexivity|lia]]].
    cbn in Hin. repeat (destruct Hin as [E|Hin]; [inversion E; reflexivity|]). destruct Hin. }
  split; [apply history_forall; reflexivity|]. split.
  { intros o d Ho Hd.
    assert (H : forallb (fun o => match p_query cosp (p_normalize cosp (q_of [1; 3]%Z)) (p_normalize cosp (a_vec o)) with
                                  | Some d => is_num d | None => true end) hist_cos = true) by (vm_compute; reflexivity).
    rewrite forallb_forall in H. specialize (H o Ho). rewrite Hd in H. exact H. }
  eexists. vm_compute. reflexivity.
Qed.

(** [within] also drops negative distances (search_with_max_dist.go:74-76).  Cosine distances
    of a vector to itself can be rounded below 0, so an exact match is missing
    from the answer even in a collection of one vector. *)
Theorem C06_exact_match_dropped_refuted : exists v out,
  snd (run_adds empty_index (history (ienv_of cosp) [(v, 0)])) = [Ok tt] /\
  knn_max_dist (env_rev cosp) (fst (run_adds empty_index (history (ienv_of cosp) [(v, 0)])))
    (q_of v) (f32_of_Z 2) 10 None = Ok out /\ fst out = [].
Proof. exists [1; 4]%Z, ([], [f32_zero]). vm_compute. auto. Qed.
Print Assumptions C06_exact_match_dropped_refuted.
