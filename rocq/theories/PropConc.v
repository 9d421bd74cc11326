(** Property C84: queries that run while vectors are being added. *)
From Verif Require Import Base F32 PQ PQProofs Graph Search SearchProofs SearchLayer SearchKnn
  Insert HeuristicProofs InsertProofs InsertHist InsertTotal InsertDim InsertSmall InsertFacts InsertFind
  Distancer DistancerProofs PropDistancer TestGraph TestInsert PropInsert PropFind
  ConcSearch ConcProofs ConcFind ConcHalf.

(** Whatever the other requests do between the accesses of a query ([W] and [C]
    are arbitrary; ids may change their vectors, vertices may appear and
    vanish): an answer has distinct ids, at most max(ef,1) of them, and each id
    was stored, at some instant, with a vector at the distance that is
    reported, was found without a tombstone, and is within the bound and
    allowed; if all distances are numbers, they ascend. *)
Theorem C84_sound : forall E W C U q0 maxd ef allow out,
  sched_ok E -> prov_sym (e_prov E) -> ids_in E W U ->
  let q := p_normalize (e_prov E) q0 in
  knn_max_dist_at E W C (length U) q0 maxd ef allow = Ok out ->
  NoDup (fst out) /\ length (fst out) <= length (snd out) /\
  (Z.of_nat (length (fst out)) <= Z.max ef 1)%Z /\
  (forall i id, nth_error (fst out) i = Some id ->
     exists d, nth_error (snd out) i = Some d /\
       (exists t v, node_by_id (W t) id = Some v /\ p_query (e_prov E) q (v_vec v) = Some d) /\
       (exists t, has_tombstone (W t) id = false) /\
       flt d f32_zero = false /\ fgt d maxd = false /\
       (forall f, allow = Some f -> f id = true)) /\
  (seen_num (e_prov E) W q -> asc (answer out) /\ map it_id (answer out) = fst out /\
     map it_dist (answer out) = firstn (length (fst out)) (snd out)).
Proof. exact (fun E W C U q0 maxd ef allow out Hsc Hsym Hids => knn_at_sound E W C U Hsc Hsym Hids q0 maxd ef allow out). Qed.
Print Assumptions C84_sound.

(** It ends, and if every vertex has its layers it does not panic. *)
Theorem C84_ends : forall E W C U q0 maxd ef allow,
  sched_ok E -> ids_in E W U ->
  knn_max_dist_at E W C (length U) q0 maxd ef allow <> OutOfFuel /\
  ((forall t, wf_levels (W t)) -> knn_max_dist_at E W C (length U) q0 maxd ef allow <> Panic).
Proof. exact (fun E W C U q0 maxd ef allow Hsc Hids => knn_at_ends E W C U Hsc Hids q0 maxd ef allow). Qed.
Print Assumptions C84_ends.

(** It answers, if the accesses happen in the order of the code, what is stored
    stays stored with its vector, and the entry point has a distance to the
    query. *)
Theorem C84_answers : forall E W C U e q0 maxd ef allow d0,
  sched_ok E -> prov_sym (e_prov E) -> ids_in E W U -> in_order C e ->
  one_vec W -> lasting W -> (forall t, wf_levels (W t)) ->
  dist_node_vec (e_prov E) (W (t_start C)) (h_ep (W (t_ep C))) (p_normalize (e_prov E) q0) = Ok d0 ->
  exists out, knn_max_dist_at E W C (length U) q0 maxd ef allow = Ok out.
Proof.
  exact (fun E W C U e q0 maxd ef allow d0 Hsc Hsym Hids Ho H1 H2 H3 =>
           knn_at_total E W C U Hsc Hsym Hids e Ho H1 H2 H3 q0 maxd ef allow d0).
Qed.
Print Assumptions C84_answers.

(** An index that does not move: the model of the other properties. *)
Theorem C84_same : forall E h C q0 maxd ef allow,
  knn_max_dist_at E (fun _ => h) C (length (stored_ids h)) q0 maxd ef allow = knn_max_dist E h q0 maxd ef allow.
Proof. exact knn_still. Qed.
Print Assumptions C84_same.

(** Up to 61 vectors, added while the query runs: at every instant the index is
    the one after the first [k t] additions ([k] does not decrease), with
    whatever entry point and highest layer the query happens to read (other
    queries overwrite them, C43).  If the entry point it reads is stored and
    ef is at least the number of vectors, the answer contains every vector
    within the bound that was in when the search of the ground layer began,
    and nothing but added vectors at their distances, nearest first.
    Missing: additions seen half done, where it is false (below), and more
    than 61 vectors, where it is false for a still index (C18). *)
Theorem C84_adding_upto_61_partial : forall n cap ops P,
  0 < n -> length ops <= 61 -> NoDup (map a_id ops) ->
  Forall (find_call n 30 cap (map a_id ops)) ops ->
  Forall (fun o => e_prov (i_env (a_env o)) = P) ops ->
  forall (W : nat -> hnsw) (k : nat -> nat),
    (forall t, 1 <= k t <= length ops) -> (forall t t', t <= t' -> k t <= k t') ->
    (forall t, exists ep m, W t = with_ep (fst (run_adds empty_index (firstn (k t) ops))) ep m) ->
  forall E C e q0 maxd ef,
    sched_ok E -> e_prov E = P -> e_vcap E = cap -> length q0 = n -> (Z.of_nat (length ops) <= ef)%Z ->
    (forall o d, In o ops -> p_query P (p_normalize P q0) (p_normalize P (a_vec o)) = Some d -> is_num d = true) ->
    in_order C e ->
    node_by_id (W (t_start C)) (h_ep (W (t_ep C))) <> None ->
    exists out,
      knn_max_dist_at E W C (length ops) q0 maxd ef None = Ok out /\
      asc (answer out) /\ NoDup (fst out) /\ map it_id (answer out) = fst out /\
      (forall o d, In o (firstn (k (e 1)) ops) ->
         p_query P (p_normalize P q0) (p_normalize P (a_vec o)) = Some d ->
         flt d f32_zero = false -> fgt d maxd = false -> In (mkItem (a_id o) d) (answer out)) /\
      (forall id d, In (mkItem id d) (answer out) ->
         flt d f32_zero = false /\ fgt d maxd = false /\ exists o, In o ops /\ a_id o = id /\
           p_query P (p_normalize P q0) (p_normalize P (a_vec o)) = Some d).
Proof.
  intros n cap ops P Hn Hlen Hnd Hops HP W k Hk Hm HW.
  exact (adding_query n 30 cap ops P Hn (proj1 (Nat.leb_le 1 30) eq_refl) Hlen Hnd Hops HP W k Hk Hm HW).
Qed.
Print Assumptions C84_adding_upto_61_partial.

(** Forty vectors (PropFind.hist40): the query starts after the tenth addition
    and reads an old entry point; one vector is added at every instant, while
    the layers are searched. *)
Definition k84 (t : nat) : nat := Nat.min 40 (10 + t).
Definition W84 (t : nat) : hnsw := with_ep (fst (run_adds empty_index (firstn (k84 t) hist40))) 3%N 1.
Definition C84 : clock := mkClock 0 1 2
  (fun l f => match l with 0 => 8 + (42 - f) | 1 => 5 | _ => 3 end)
  (fun l f _ => match l with 0 => 9 + (42 - f) | 1 => 6 | _ => 3 end)
  (fun l f _ => match l with 0 => 9 + (42 - f) | 1 => 6 | _ => 3 end)
  (fun l => match l with 0 => 8 | 1 => 5 | _ => 3 end).
Definition e84 (l : nat) : nat := match l with 0 => 60 | 1 => 7 | S (S _) => 3 end.

Example C84_adding_nonvacuous :
  (forall t, 1 <= k84 t <= length hist40) /\ (forall t t', t <= t' -> k84 t <= k84 t') /\
  in_order C84 e84 /\ node_by_id (W84 (t_start C84)) (h_ep (W84 (t_ep C84))) <> None /\
  k84 (e84 1) = 17 /\ k84 (e84 0) = 40.
Proof.
  assert (L : length hist40 = 40) by (vm_compute; reflexivity).
  split; [intros t; rewrite L; unfold k84; lia|]. split; [intros t t' H; unfold k84; lia|]. split.
  { unfold in_order. split; [|split; [|split; [|split]]].
    - intros [|[|l]]; cbn; lia.
    - intros [|[|l]] f; cbn [e84 C84 t_pop]; lia.
    - intros [|[|l]] f id; cbn [e84 C84 t_dist]; lia.
    - intros [|[|l]] f id; cbn [e84 C84 t_tomb]; lia.
    - intros [|[|l]]; cbn; lia. }
  split; [|split; reflexivity].
  intros H. assert (Hb : match node_by_id (W84 (t_start C84)) (h_ep (W84 (t_ep C84))) with Some _ => true | None => false end = true)
    by (vm_compute; reflexivity). rewrite H in Hb. discriminate.
Qed.

(** The same while the query sees additions half done, as long as none of them
    has linked a layer above the ground: at instant [t] the first [k t] vectors
    are in, and if [p t] is not None the next one is under way, either stored
    without any link yet, whatever its layers, or, if its only layer is the
    ground, with its own links and some of the links back ([index_seen]).
    Nothing is missed that was in when the search of the ground layer began.
    The entry point that the query reads is a vector whose addition was over.
    Missing: two additions under way at once, and additions that have linked
    an upper layer but not the ground, where it is false (below). *)
Theorem C84_half_done_upto_61_partial : forall n cap ops P,
  0 < n -> length ops <= 61 -> NoDup (map a_id ops) ->
  Forall (find_call n 30 cap (map a_id ops)) ops ->
  Forall (fun o => e_prov (i_env (a_env o)) = P) ops ->
  forall (W : nat -> hnsw) (k : nat -> nat) (p : nat -> option (option nat)),
    (forall t, 1 <= k t <= length ops) ->
    (forall t t', t <= t' -> k t < k t' \/ (k t = k t' /\ (p t <> None -> p t' <> None))) ->
    (forall t j o, p t = Some (Some j) -> nth_error ops (k t) = Some o -> a_lvl o = 0) ->
    (forall t, exists ep m, W t = with_ep (index_seen ops (k t) (p t)) ep m) ->
  forall E C e q0 maxd ef,
    sched_ok E -> e_prov E = P -> e_vcap E = cap -> length q0 = n -> (Z.of_nat (length ops) <= ef)%Z ->
    (forall o d, In o ops -> p_query P (p_normalize P q0) (p_normalize P (a_vec o)) = Some d -> is_num d = true) ->
    in_order C e ->
    (exists o, In o (firstn (k (t_start C)) ops) /\ a_id o = h_ep (W (t_ep C))) ->
    exists out,
      knn_max_dist_at E W C (length ops) q0 maxd ef None = Ok out /\
      asc (answer out) /\ NoDup (fst out) /\ map it_id (answer out) = fst out /\
      (forall o d, In o (firstn (k (e 1)) ops) ->
         p_query P (p_normalize P q0) (p_normalize P (a_vec o)) = Some d ->
         flt d f32_zero = false -> fgt d maxd = false -> In (mkItem (a_id o) d) (answer out)) /\
      (forall id d, In (mkItem id d) (answer out) ->
         flt d f32_zero = false /\ fgt d maxd = false /\ exists o, In o ops /\ a_id o = id /\
           p_query P (p_normalize P q0) (p_normalize P (a_vec o)) = Some d).
Proof.
  intros n cap ops P Hn Hlen Hnd Hops HP W k p Hk Hm Hlow HW.
  exact (half_query n 30 cap ops P Hn (proj1 (Nat.leb_le 1 30) eq_refl) Hlen Hnd Hops HP W k p Hk Hm Hlow HW).
Qed.
Print Assumptions C84_half_done_upto_61_partial.

(** The states with some of the links back are states the addition passes
    through: doing the remaining links and leaving maintenance ends it. *)
Theorem C84_half_states_passed : forall I h id q j ep ep' nbs,
  (id < i_vcsize I)%N ->
  let h1 := put_node h (new_vertex id q 0) in
  best_entrypoint I h1 q 0 (h_maxl h) (h_ep h) = Ok ep ->
  choose_neighbours I h1 id q 0 ep = Ok (ep', nbs) ->
  snd (connect_all I (put_node h1 (set_conns (new_vertex id q 0) [nbs])) id 0 (firstn j nbs)) = Ok tt ->
  insert_linked I h id q 0 =
    match connect_all I (insert_seen I h id q 0 (Some j)) id 0 (skipn j nbs) with
    | (h2, Ok _) => (finish_insert h2 id 0, Ok tt)
    | r => r
    end.
Proof. exact (fun I h id q j ep ep' nbs Hv => insert_ground_rest I h id q j Hv ep ep' nbs). Qed.
Print Assumptions C84_half_states_passed.

(** hist40 again; at every odd instant the next addition is half done.  At
    instant 1 the new vertex, number 10, has all its links and two of its
    neighbours link back. *)
Definition k84h (t : nat) : nat := Nat.min 40 (10 + Nat.div2 t).
Definition p84h (t : nat) : option (option nat) :=
  if Nat.even t then None
  else match nth_error hist40 (k84h t) with
       | Some o => if Nat.eqb (a_lvl o) 0 then Some (Some 2) else Some None
       | None => None
       end.
Definition W84h (t : nat) : hnsw := with_ep (index_seen hist40 (k84h t) (p84h t)) 3%N 1.
Definition links84 (h : hnsw) (id : N) : list N :=
  match node_by_id h id with Some v => match conns_at v 0 with Some cs => cs | None => [] end | None => [] end.

Example C84_half_done_nonvacuous :
  (forall t, 1 <= k84h t <= length hist40) /\
  (forall t t', t <= t' -> k84h t < k84h t' \/ (k84h t = k84h t' /\ (p84h t <> None -> p84h t' <> None))) /\
  (forall t j o, p84h t = Some (Some j) -> nth_error hist40 (k84h t) = Some o -> a_lvl o = 0) /\
  (exists o, In o (firstn (k84h (t_start C84)) hist40) /\ a_id o = h_ep (W84h (t_ep C84))) /\
  p84h 1 = Some (Some 2) /\ p84h 5 = Some None /\
  length (links84 (W84h 1) 10%N) = 10 /\
  length (filter (fun b => memN 10%N (links84 (W84h 1) b)) (links84 (W84h 1) 10%N)) = 2.
Proof.
  assert (L : length hist40 = 40) by (vm_compute; reflexivity).
  split; [intros t; rewrite L; unfold k84h; lia|]. split.
  { intros t t' Ht. pose proof (Nat.div2_odd t) as D1. pose proof (Nat.div2_odd t') as D2.
    assert (Hle : Nat.div2 t <= Nat.div2 t') by (destruct (Nat.odd t), (Nat.odd t'); cbn [Nat.b2n] in *; lia).
    destruct (Nat.eq_dec (k84h t) (k84h t')) as [He|Hne]; [right|left; unfold k84h in *; lia].
    split; [exact He|]. intros Hp. unfold p84h in *. rewrite <- Nat.negb_odd in *. rewrite <- He.
    destruct (Nat.odd t) eqn:O1; cbn [negb] in Hp; [|congruence].
    destruct (Nat.odd t') eqn:O2; cbn [negb]; [exact Hp|]. exfalso. cbn [Nat.b2n] in *.
    assert (Hk40 : k84h t = 40) by (unfold k84h in *; lia).
    rewrite Hk40 in Hp.
    destruct (nth_error hist40 40) as [o|] eqn:Eo; [|congruence].
    assert (40 < length hist40) by (apply nth_error_Some; congruence). lia. }
  split.
  { intros t j o Hp Ho. unfold p84h in Hp. destruct (Nat.even t); [discriminate|]. rewrite Ho in Hp.
    destruct (Nat.eqb_spec (a_lvl o) 0) as [H|H]; [exact H|discriminate]. }
  split.
  { destruct (nth_error (firstn (k84h (t_start C84)) hist40) 3) as [o|] eqn:Eo.
    2:{ exfalso. apply nth_error_None in Eo. rewrite firstn_length, L in Eo. vm_compute in Eo. lia. }
    exists o. split; [eapply nth_error_In; eauto|].
    assert (H : match nth_error (firstn (k84h (t_start C84)) hist40) 3 with Some o => N.eqb (a_id o) 3 | None => false end = true)
      by (vm_compute; reflexivity).
    rewrite Eo in H. apply N.eqb_eq in H. exact H. }
  split; [vm_compute; reflexivity|]. split; [vm_compute; reflexivity|]. split; vm_compute; reflexivity.
Qed.

(** An addition seen half done.  Two vectors are stored, the second on layer 1;
    a third is being added on layer 1.  The loop of
    neighbor_connections.go:61-66 links layer 1 first.  A query that gets
    between the two layers reaches the new vertex on layer 1, finds it nearest,
    takes it as the entry to the ground layer, where it has no links yet, and
    answers the new vertex alone: the two vectors that were there before the
    query began, and are there after it, are missing although they are within
    the bound. *)
Definition three : list aop := history (ienv_of cosp) [([1; 0]%Z, 0); ([3; 4]%Z, 1); ([0; 1]%Z, 1)].
Definition env3 : ienv := match three with o :: _ => a_env o | [] => ienv_of cosp [] end.
Definition before3 : hnsw := fst (run_adds empty_index (firstn 2 three)).
Definition vec3 : vec := p_normalize cosp (q_of [0; 1]%Z).
Definition half3 : hnsw := fst (insert_part env3 (with_once before3) 2 vec3 1 1).
Definition after3 : hnsw := fst (run_adds empty_index three).
Definition W3 (t : nat) : hnsw := match t with 0 => before3 | 1 => half3 | _ => after3 end.
Definition C3 : clock := mkClock 0 0 0 (fun _ _ => 1) (fun _ _ _ => 1) (fun _ _ _ => 1) (fun _ => 1).

(** The half-done state is one the addition passes through. *)
Example half3_passed :
  add env3 before3 2 (q_of [0; 1]%Z) 1 = (after3, Ok tt) /\
  exists h' ep, insert_part env3 (with_once before3) 2 vec3 1 1 = (h', Ok ep) /\ h' = half3 /\
    insert_linked env3 (with_once before3) 2 vec3 1 =
      match connect_levels env3 half3 2 vec3 0 ep with
      | (h2, Ok _) => (finish_insert h2 2 1, Ok tt)
      | r => r
      end.
Proof.
  split; [vm_compute; reflexivity|].
  destruct (insert_part env3 (with_once before3) 2 vec3 1 1) as [h' r] eqn:Ei.
  assert (Hr : r = Ok 1%N).
  { change r with (snd (h', r)). rewrite <- Ei. vm_compute. reflexivity. }
  subst r. exists h', 1%N. split; [reflexivity|].
  assert (Hh : h' = half3) by (unfold half3; now rewrite Ei). split; [exact Hh|].
  rewrite <- Hh.
  rewrite (insert_part_rest env3 (with_once before3) 2 vec3 1 1 h' 1%N); [|vm_compute; reflexivity| |exact Ei].
  - assert (Hm : Nat.min 1 (h_maxl (with_once before3)) - 1 = 0) by (vm_compute; reflexivity). now rewrite Hm.
  - assert (Hm : h_maxl (with_once before3) = 1) by (vm_compute; reflexivity). rewrite Hm. cbn. lia.
Qed.

Definition f32_dec (a b : f32) : {a = b} + {a <> b}.
Proof. decide equality; (apply Bool.bool_dec || apply Pos.eq_dec || apply Z.eq_dec). Defined.

Definition has_ids (r : res (list N * list f32)) (ids : list N) : bool :=
  match r with Ok out => Nat.eqb (length (fst out)) (length ids) && forallb (fun id => memN id (fst out)) ids | _ => false end.

Theorem C84_query_during_add_refuted : exists E W C e U q0 maxd ef,
  sched_ok E /\ ids_in E W U /\ one_vec W /\ lasting W /\ (forall t, wf_levels (W t)) /\ in_order C e /\
  (Z.of_nat (length U) <= ef)%Z /\
  (exists t, W t = before3) /\ (exists t, W t = half3) /\ (exists t, W t = after3) /\
  has_ids (knn_max_dist E before3 q0 maxd ef None) [0; 1]%N = true /\
  has_ids (knn_max_dist_at E W C (length U) q0 maxd ef None) [2]%N = true /\
  has_ids (knn_max_dist E after3 q0 maxd ef None) [0; 1; 2]%N = true.
Proof.
  exists (env_rev cosp), W3, C3, (fun _ => 1), [0; 1; 2]%N, (q_of [0; 1]%Z), f32_one, 100%Z.
  set (pv := fun id : N => p_normalize cosp (q_of (if N.eqb id 0 then [1; 0] else if N.eqb id 1 then [3; 4] else [0; 1])%Z)).
  assert (Hb : forall t, all_nodes (W3 t) (fun id v => memN id [0; 1; 2]%N && Nat.ltb (v_level v) (length (v_conns v)) &&
                 if list_eq_dec f32_dec (v_vec v) (pv id) then true else false) = true).
  { intros [|[|t]]; vm_compute; reflexivity. }
  assert (Hn : forall t id v, node_by_id (W3 t) id = Some v ->
    In id [0; 1; 2]%N /\ v_level v < length (v_conns v) /\ v_vec v = pv id).
  { intros t id v Hv. pose proof (Hb t) as H.
    apply (all_nodes_spec _ _ H) in Hv.
    apply andb_true_iff in Hv. destruct Hv as [Hv H3]. apply andb_true_iff in Hv. destruct Hv as [H1 H2].
    apply memN_In in H1. apply Nat.ltb_lt in H2. destruct (list_eq_dec _ _ _) as [He|]; [auto|discriminate]. }
  split; [apply env_rev_sched|]. split.
  { intros t id v Hv. destruct (Hn t id v Hv) as (H1 & _). split; [exact H1|].
    cbn in H1. cbn. destruct H1 as [<-|[<-|[<-|[]]]]; reflexivity. }
  split.
  { intros t t' id v v' Hv Hv'. destruct (Hn t id v Hv) as (_ & _ & ->). destruct (Hn t' id v' Hv') as (_ & _ & ->). reflexivity. }
  split.
  { assert (Hk : forall id t, (if N.ltb id (match t with O => 2%N | S _ => 3%N end) then node_by_id (W3 t) id <> None else node_by_id (W3 t) id = None)).
    { intros id t. destruct (N.ltb_spec id (match t with O => 2%N | S _ => 3%N end)) as [Hl|Hl].
      - assert (Hi : (id = 0 \/ id = 1 \/ (id = 2 /\ t <> 0%nat))%N) by (destruct t; lia).
        destruct Hi as [->|[->|[-> Ht]]]; destruct t as [|[|t]]; try (exfalso; now apply Ht); intros Hx;
        (match type of Hx with ?x = None =>
           assert (Hy : match x with Some _ => true | None => false end = true) by (vm_compute; reflexivity) end);
        rewrite Hx in Hy; discriminate.
      - destruct (node_by_id (W3 t) id) as [v|] eqn:Ev; [|reflexivity].
        destruct (Hn t id v Ev) as (H1 & _). cbn in H1. destruct t as [|t]; [|exfalso; lia].
        assert (id = 2%N) by lia. subst id.
        assert (Hy : match node_by_id (W3 0) 2%N with Some _ => true | None => false end = false) by (vm_compute; reflexivity).
        rewrite Ev in Hy. discriminate. }
    intros t t' id Ht Hs. pose proof (Hk id t) as H1. pose proof (Hk id t') as H2.
    destruct (N.ltb_spec id (match t with O => 2%N | S _ => 3%N end)) as [Hl|Hl]; [|contradiction].
    destruct (N.ltb_spec id (match t' with O => 2%N | S _ => 3%N end)) as [Hl'|Hl']; [exact H2|].
    destruct t, t'; lia. }
  split; [intros t id v Hv; now destruct (Hn t id v Hv) as (_ & H & _)|].
  split; [repeat split; cbn; lia|]. split; [cbn; lia|].
  split; [exists 0; unfold W3; reflexivity|]. split; [exists 1; unfold W3; reflexivity|].
  split; [exists 2; unfold W3; reflexivity|].
  split; [vm_compute; reflexivity|]. split; vm_compute; reflexivity.
Qed.
Print Assumptions C84_query_during_add_refuted.
