(** Property C18: is every added vector findable? *)
From Verif Require Import Base F32 PQ PQProofs Graph Search SearchProofs SearchLayer SearchKnn
  SearchCong Insert HeuristicProofs InsertProofs InsertHist InsertTotal InsertDim InsertSmall
  InsertFacts InsertFind Distancer DistancerProofs PropDistancer TestGraph TestInsert PropInsert.

(** [find_call n M cap ids o]: [call_ok], dimension [n], id within the vector
    cache, M links, efConstruction at least one, and the vector source answers
    for every id of [ids] with a vector of dimension [n].  Up to 61 vectors
    every insertion succeeds and every vector is connected to the entry point.
    Missing: more than 61 vectors, where it is false (below). *)
Theorem C18_findable_upto_61_partial : forall n cap ops,
  0 < n -> ops <> [] -> length ops <= 61 -> NoDup (map a_id ops) ->
  Forall (find_call n 30 cap (map a_id ops)) ops ->
  let r := run_adds empty_index ops in
  Forall (fun x => x = Ok tt) (snd r) /\
  forall o, In o ops -> reach (fst r) 0 (h_ep (fst r)) (a_id o) /\
    exists v, node_by_id (fst r) (a_id o) = Some v /\ v_vec v = p_normalize (e_prov (i_env (a_env o))) (a_vec o).
Proof. exact (fun n cap ops Hn => find_upto n 30 cap ops Hn (proj1 (Nat.leb_le 1 30) eq_refl)). Qed.
Print Assumptions C18_findable_upto_61_partial.

(** What that means for a query: if ef is at least the number of vectors (the
    client's query by vector uses 800) the answer is exactly the set of
    vectors within the bound, nearest first. *)
Theorem C18_query_upto_61_partial : forall n cap ops P,
  0 < n -> ops <> [] -> length ops <= 61 -> NoDup (map a_id ops) ->
  Forall (find_call n 30 cap (map a_id ops)) ops ->
  Forall (fun o => e_prov (i_env (a_env o)) = P) ops ->
  let h := fst (run_adds empty_index ops) in
  forall E q0 maxd ef,
    sched_ok E -> e_prov E = P -> e_vcap E = cap -> length q0 = n -> (Z.of_nat (length ops) <= ef)%Z ->
    (forall o d, In o ops -> p_query P (p_normalize P q0) (p_normalize P (a_vec o)) = Some d -> is_num d = true) ->
    exists out,
      knn_max_dist E h q0 maxd ef None = Ok out /\ asc (answer out) /\ NoDup (fst out) /\
      map it_id (answer out) = fst out /\
      forall id d, In (mkItem id d) (answer out) <->
        flt d f32_zero = false /\ fgt d maxd = false /\ exists o, In o ops /\ a_id o = id /\
          p_query P (p_normalize P q0) (p_normalize P (a_vec o)) = Some d.
Proof. exact (fun n cap ops P Hn => find_exhaustive n 30 cap ops P Hn (proj1 (Nat.leb_le 1 30) eq_refl)). Qed.
Print Assumptions C18_query_upto_61_partial.

(** Forty points in the plane, three of them on upper layers, meet the
    hypotheses. *)
Definition hist40 : list aop :=
  history (ienv_of cosp) (map (fun i => ([Z.of_nat (S (i * 7 mod 41)); Z.of_nat (i * 5 mod 23)], i mod 13 / 12)) (seq 0 40)).

Example C18_nonvacuous :
  hist40 <> [] /\ length hist40 <= 61 /\ NoDup (map a_id hist40) /\
  Forall (find_call 2 30 25500 (map a_id hist40)) hist40 /\
  Forall (fun o => e_prov (i_env (a_env o)) = cosp) hist40 /\
  (forall o d, In o hist40 ->
     p_query cosp (p_normalize cosp (q_of [1; 3]%Z)) (p_normalize cosp (a_vec o)) = Some d -> is_num d = true) /\
  length (filter (fun o => Nat.ltb 0 (a_lvl o)) hist40) = 3.
Proof.
  split; [discriminate|]. split; [vm_compute; lia|]. split; [apply history_nodup|]. split.
  { apply Forall_forall. intros o Ho.
    assert (Hc : call_ok 25500 o).
    { revert o Ho. apply Forall_forall. apply history_calls; [exact cosp_known|reflexivity]. }
    assert (H : forallb (fun o => Nat.eqb (length (a_vec o)) 2 && N.ltb (a_id o) 25000 &&
                forallb (fun id => match i_vs (a_env o) 0 0%N id with Ok w => Nat.eqb (length w) 2 | _ => false end)
                  (map a_id hist40)) hist40 = true) by (vm_compute; reflexivity).
    rewrite forallb_forall in H. specialize (H o Ho).
    apply andb_true_iff in H. destruct H as [H H3]. apply andb_true_iff in H. destruct H as [H1 H2].
    apply Nat.eqb_eq in H1. apply N.ltb_lt in H2.
    assert (Hx : i_M (a_env o) = 30 /\ i_efc (a_env o) = 60%Z /\ i_vcsize (a_env o) = 25000%N /\
                 forall l ow id, i_vs (a_env o) l ow id = i_vs (a_env o) 0 0%N id).
    { clear Hc H1 H2 H3. revert o Ho. apply Forall_forall. apply history_forall. intros. cbn. auto. }
    destruct Hx as (X1 & X2 & X3 & X4).
    split; [exact Hc|]. split; [exact H1|]. split; [rewrite X3; exact H2|]. split; [exact X1|].
    split; [rewrite X2; lia|]. intros l ow id Hid. rewrite forallb_forall in H3. specialize (H3 id Hid).
    rewrite X4. destruct (i_vs (a_env o) 0 0%N id) as [w| | |]; try discriminate.
    exists w. split; [reflexivity|]. now apply Nat.eqb_eq. }
  split; [apply history_forall; reflexivity|]. split; [|vm_compute; reflexivity].
  intros o d Ho Hd.
  assert (H : forallb (fun o => match p_query cosp (p_normalize cosp (q_of [1; 3]%Z)) (p_normalize cosp (a_vec o)) with
                                | Some d => is_num d | None => true end) hist40 = true) by (vm_compute; reflexivity).
  rewrite forallb_forall in H. specialize (H o Ho). rewrite Hd in H. exact H.
Qed.

(** The bound 61 is tight.  With the client's own parameters (cosine, 30 links,
    efConstruction 60) and two-dimensional vectors: after 61 copies of [1,0]
    the vector [0,1] is added successfully, as number 61, and no stored vector
    links to it.  A query for exactly [0,1], with the largest ef the client
    uses and a distance bound that excludes nothing, does not return it. *)
Definition hist_dup : list aop :=
  history (ienv_of cosp) (repeat ([1; 0]%Z, 0) 61 ++ [([0; 1]%Z, 0)]).

Definition lost (r : hnsw * list (res unit)) : bool :=
  forallb (fun x => match x with Ok _ => true | _ => false end) (snd r) &&
  Nat.eqb (length (snd r)) 62 &&
  N.eqb (h_ep (fst r)) 0 &&
  all_nodes (fst r) (fun _ v => forallb (fun cs => negb (memN 61 cs)) (v_conns v)) &&
  match knn_max_dist (env_rev cosp) (fst r) (q_of [0; 1]%Z) (f32_of_Z 2) 800 None with
  | Ok out => negb (memN 61 (fst out)) && Nat.eqb (length (fst out)) 61
  | _ => false
  end.

Lemma hist_dup_lost : lost (run_adds empty_index hist_dup) = true.
Proof. vm_cast_no_check (eq_refl true). Qed.

Lemma lost_not_reached h l a b : all_nodes h (fun _ v => forallb (fun cs => negb (memN b cs)) (v_conns v)) = true ->
  a <> b -> ~ reach h l a b.
Proof.
  intros H Hne Hr. inversion Hr as [|b' v cs c H1 Hv Hle Hl Hc]; subst; [congruence|].
  pose proof (all_nodes_spec _ _ H _ _ Hv) as Hf. rewrite forallb_forall in Hf.
  unfold conns_at in Hl. specialize (Hf cs (nth_error_In _ _ Hl)).
  apply negb_true_iff, memN_notIn in Hf. contradiction.
Qed.

Theorem C18_every_vector_findable_refuted : exists ops,
  Forall (call_ok 25500) ops /\ NoDup (map a_id ops) /\ length ops = 62 /\
  Forall (fun o => i_M (a_env o) = 30 /\ i_efc (a_env o) = 60%Z) ops /\
  let r := run_adds empty_index ops in
  length (snd r) = 62 /\ Forall (fun x => x = Ok tt) (snd r) /\
  (exists o, nth_error ops 61 = Some o /\ a_id o = 61%N /\ a_vec o = q_of [0; 1]%Z) /\
  ~ reach (fst r) 0 (h_ep (fst r)) 61 /\
  exists out, knn_max_dist (env_rev cosp) (fst r) (q_of [0; 1]%Z) (f32_of_Z 2) 800 None = Ok out /\
    length (fst out) = 61 /\ ~ In 61%N (fst out).
Proof.
  exists hist_dup. split; [apply history_calls; [exact cosp_known|reflexivity]|].
  split; [apply history_nodup|]. split; [reflexivity|]. split; [apply history_forall; auto|].
  generalize hist_dup_lost. cbv zeta. generalize (run_adds empty_index hist_dup). intros r H.
  unfold lost in H. repeat (apply andb_true_iff in H; destruct H as [H ?]).
  rename H0 into Hk, H1 into Hn, H2 into He, H3 into Hl.
  apply Nat.eqb_eq in Hl. apply N.eqb_eq in He. split; [exact Hl|]. split.
  { rewrite forallb_forall in H. apply Forall_forall. intros x Hx. specialize (H x Hx).
    destruct x as [[]|e| |]; [reflexivity|discriminate..]. }
  split; [eexists; split; [reflexivity|split; reflexivity]|].
  split; [rewrite He; now apply lost_not_reached|].
  destruct (knn_max_dist _ _ _ _ _ _) as [out|e| |]; try discriminate.
  apply andb_true_iff in Hk. destruct Hk as [K1 K2]. apply negb_true_iff, memN_notIn in K1. apply Nat.eqb_eq in K2.
  exists out. auto.
Qed.
Print Assumptions C18_every_vector_findable_refuted.
