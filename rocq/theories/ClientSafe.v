(** Insertion does not panic: neither on a consistent nor on a damaged graph, as
    long as every vertex has one connection list per layer. *)
From Verif Require Import Base F32 PQ PQProofs Graph Search SearchProofs SearchLayer SearchKnn
  Insert HeuristicProofs InsertProofs InsertHist InsertTotal Persist PersistProofs.

Definition safe {A} (r : res A) : Prop := r <> Panic /\ r <> OutOfFuel.

Lemma safe_ok {A} (a : A) : safe (Ok a). Proof. split; discriminate. Qed.
Lemma safe_err {A} e : safe (@Err A e). Proof. split; discriminate. Qed.
#[global] Hint Resolve safe_ok safe_err : core.
Lemma safe_bind {A B} (r : res A) (f : A -> res B) : safe r -> (forall a, r = Ok a -> safe (f a)) -> safe (bind r f).
Proof. destruct r; intros [H1 H2] H; cbn; auto; congruence. Qed.

Section Safe.
  Variable I : ienv.
  Hypothesis Hsc : sched_ok (i_env I).
  Hypothesis Hvs : forall l o id, safe (i_vs I l o id).

  Lemma wfh_levels h : wfh h -> wf_levels h.
  Proof. intros H id v Hv. destruct (H id v Hv) as [_ ->]. lia. Qed.

  Lemma layer_safe h q ef l allow ep : wfh h ->
    safe (search_layer (i_env I) h q ef l allow (pq_insert less_min ep [])).
  Proof.
    intros Hw. rewrite layer_single. apply safe_bind.
    - unfold worst_dist. destruct (pq_top _) as [x|]; [|auto]. destruct (dist_float_node _ _ _ _); auto.
    - intros w _. destruct (loop_total (i_env I) h q ef l allow Hsc (wfh_levels h Hw)
        (S (1 + length (stored_ids h))) (init_state (i_env I) h l allow ep w)
        ltac:(apply init_measure)) as (s & Hs). rewrite Hs. cbn [bind]. auto.
  Qed.

  Lemma fetch_safe get ids : (forall id, safe (get id)) ->
    exists vs, fetch get ids = Ok vs /\ length vs = length ids.
  Proof.
    intros Hg. induction ids as [|id ids (vs & IH & Hl)]; cbn [fetch]; [exists []; auto|].
    destruct (Hg id) as [H1 H2]. destruct (get id); try congruence; rewrite IH; cbn [bind]; eexists; (split; [reflexivity|]); cbn; lia.
  Qed.

  Lemma heur_loop_safe P deny vecs max l : forall ret,
    (forall x, In x l -> ix_index x < length vecs) -> safe (heur_loop P deny vecs max l ret).
  Proof.
    induction l as [|c l IH]; intros ret Hl; cbn [heur_loop]; [auto|].
    destruct (Nat.leb max (length ret)); [auto|].
    assert (Hl' : forall x, In x l -> ix_index x < length vecs) by (intros; apply Hl; now right).
    destruct (deny (ix_id c)); [auto|]. specialize (Hl c (or_introl eq_refl)). apply nth_error_Some in Hl.
    destruct (nth_error vecs (ix_index c)) as [[cv|]|]; auto; congruence.
  Qed.

  Lemma heuristic_safe P get deny input max : (forall id, safe (get id)) -> safe (heuristic P get deny input max).
  Proof.
    intros Hg. unfold heuristic. destruct (Nat.ltb (length input) max); [auto|].
    set (popped := pq_drain less_max input). destruct (fetch_safe get (map it_id popped) Hg) as (vs & -> & Hl). cbn [bind].
    rewrite map_length in Hl. apply safe_bind; [|auto]. apply heur_loop_safe. intros x Hx.
    assert (Hp : Permutation (with_index 0 popped)
      (pq_drain less_minx (fold_left (fun q x => pq_insert less_minx x q) (with_index 0 popped) []))).
    { etransitivity; [|apply drain_perm].
      etransitivity; [|apply fold_insert_perm]. now rewrite app_nil_r. }
    apply (Permutation_in x (Permutation_sym Hp)) in Hx. apply with_index_lt in Hx. cbn in Hx. lia.
  Qed.

  Lemma dist_nodes_safe P get a b : (forall id, safe (get id)) -> safe (dist_nodes P get a b).
  Proof.
    intros Hg. unfold dist_nodes. apply safe_bind; [apply Hg|]. intros va _. destruct va; [auto|].
    apply safe_bind; [apply Hg|]. intros vb _. destruct vb; [auto|]. destruct (p_single P _ _); auto.
  Qed.

  Lemma cand_dists_safe get nb cs : (forall id, safe (get id)) -> forall q, safe (cand_dists I get nb cs q).
  Proof.
    intros Hg. induction cs as [|c cs IH]; intros q; cbn [cand_dists]; [auto|].
    apply safe_bind; [now apply dist_nodes_safe|auto].
  Qed.

  Lemma reselect_safe nid nb l cs : safe (reselect I nid nb l cs).
  Proof.
    unfold reselect. apply safe_bind; [apply dist_nodes_safe, Hvs|]. intros d _.
    apply safe_bind; [apply cand_dists_safe, Hvs|]. intros q _.
    apply safe_bind; [apply heuristic_safe, Hvs|auto].
  Qed.

  Lemma connect_neighbor_safe h nid l nb : wfh h -> safe (snd (connect_neighbor I h nid l nb)).
  Proof.
    intros Hw. unfold connect_neighbor. destruct (node_by_id h nb) as [v|] eqn:Ev; [|apply safe_ok].
    destruct (N.eqb nb nid); [apply safe_ok|]. destruct (has_tombstone h (v_id v)); [apply safe_ok|].
    destruct (Hw nb v Ev) as [_ Hlen]. set (v2 := if Nat.ltb _ l then _ else _).
    assert (H2 : l < length (v_conns v2)).
    { unfold v2. cbn [v_level set_committed]. destruct (Nat.ltb_spec (v_level v) l) as [Hlt|Hge].
      - unfold upgrade_level. cbn [v_conns set_level set_conns set_committed].
        rewrite app_length, firstn_length, repeat_length. lia.
      - cbn. lia. }
    apply nth_error_Some in H2. unfold conns_at, append_conn_at.
    destruct (nth_error (v_conns v2) l) as [cs|]; [|congruence].
    destruct (Nat.ltb (length cs) (max_conns I l)); [apply safe_ok|]. pose proof (reselect_safe nid nb l cs) as [H3 H4].
    destruct (reselect I nid nb l cs); cbn; auto; congruence.
  Qed.

  Lemma connect_neighbor_nid h nid l nb : wfh h ->
    node_by_id (fst (connect_neighbor I h nid l nb)) nid = node_by_id h nid.
  Proof.
    intros Hw. unfold connect_neighbor. destruct (node_by_id h nb) as [v|] eqn:Ev; [|reflexivity].
    destruct (N.eqb_spec nb nid) as [|Hne]; [reflexivity|]. destruct (has_tombstone h (v_id v)); [reflexivity|].
    destruct (Hw nb v Ev) as [Hid _]. set (v2 := if Nat.ltb _ l then _ else _).
    assert (I2 : v_id v2 = nb) by (unfold v2; destruct (Nat.ltb _ l); exact Hid).
    assert (Hput : forall h x, v_id x = nb -> node_by_id (put_node h x) nid = node_by_id h nid).
    { intros g x Hx. unfold node_by_id. rewrite mget_put, Hx. destruct (N.eqb_spec nid nb); [congruence|reflexivity]. }
    assert (Hset : forall k cs, node_by_id (put_node (put_node h v2) (set_conns v2 (upd (v_conns v2) k cs))) nid = node_by_id h nid).
    { intros. rewrite !Hput; auto. }
    destruct (conns_at v2 l) as [cs|] eqn:Ec; [|now apply Hput].
    destruct (Nat.ltb (length cs) (max_conns I l)).
    - unfold append_conn_at. unfold conns_at in Ec. rewrite Ec. apply Hset.
    - destruct (reselect I nid nb l cs); [apply Hset|now apply Hput..].
  Qed.

  Lemma connect_all_safe nid (Q : vec) l nbs : forall h, wfh h ->
    safe (snd (connect_all I h nid l nbs)) /\
    node_by_id (fst (connect_all I h nid l nbs)) nid = node_by_id h nid /\
    wfh (fst (connect_all I h nid l nbs)).
  Proof.
    induction nbs as [|nb nbs IH]; intros h Hw; cbn [connect_all fst snd]; [split; [apply safe_ok|auto]|].
    pose proof (connect_neighbor_safe h nid l nb Hw) as Hs. pose proof (connect_neighbor_nid h nid l nb Hw) as Hn.
    pose proof (connect_neighbor_prel I nid Q h l nb Hw) as Hp.
    destruct (connect_neighbor I h nid l nb) as [h' [[]|e| |]]; cbn [fst snd] in *.
    - destruct (IH h' (prel_wfh nid Q _ _ Hp Hw)) as (A & B & C). split; [exact A|]. split; [congruence|exact C].
    - split; [auto|]. split; [exact Hn|]. now apply (prel_wfh nid Q _ _ Hp).
    - now destruct Hs.
    - now destruct Hs.
  Qed.

  Lemma pick_ep_safe P h q fuel : forall deny cand, safe (pick_ep P h q fuel deny cand).
  Proof.
    induction fuel as [|f IH]; intros deny cand; cbn [pick_ep]; [auto|].
    destruct (node_by_id h cand) as [v|] eqn:Ev; [|apply IH]. apply safe_bind; [|auto].
    unfold dist_node_vec. rewrite Ev. destruct (v_vec v), q; auto; destruct (p_single P _ _); auto.
  Qed.

  Lemma do_at_level_safe (Q : vec) h nid q l ep v : wfh h -> node_by_id h nid = Some v -> l <= v_level v ->
    let r := do_at_level I h nid q l ep in
    safe (snd r) /\ wfh (fst r) /\ exists v', node_by_id (fst r) nid = Some v' /\ v_level v' = v_level v.
  Proof.
    intros Hw Hv Hl. cbv zeta. unfold do_at_level.
    assert (Hc : safe (choose_neighbours I h nid q l ep)).
    { unfold choose_neighbours. apply safe_bind; [apply pick_ep_safe|]. intros e _.
      apply safe_bind; [now apply layer_safe|]. intros r _. apply safe_bind; [apply heuristic_safe, Hvs|auto]. }
    destruct (choose_neighbours I h nid q l ep) as [[ep' nbs]|e| |]; cbn [fst snd]; [| |now destruct Hc..].
    2: { split; [auto|]. split; [exact Hw|]. exists v. split; [exact Hv|reflexivity]. }
    rewrite Hv. destruct (Hw nid v Hv) as [Hid Hlen]. unfold set_conns_at.
    destruct (Nat.ltb_spec l (length (v_conns v))) as [_|]; [|lia].
    set (v' := set_conns v (upd (v_conns v) l nbs)).
    assert (Hv' : node_by_id (put_node h v') nid = Some v').
    { unfold node_by_id. rewrite mget_put. cbn. now rewrite Hid, N.eqb_refl. }
    assert (Hw' : wfh (put_node h v')).
    { intros j x. unfold node_by_id. rewrite mget_put. destruct (N.eqb_spec j (v_id v')) as [->|].
      - intros [= <-]. split; [reflexivity|]. cbn. now rewrite upd_length.
      - apply Hw. }
    destruct (connect_all_safe nid Q l nbs _ Hw') as (A & B & C).
    destruct (connect_all I (put_node h v') nid l nbs) as [h' [[]|e| |]]; cbn [fst snd] in *; [| |now destruct A..].
    - split; [auto|]. split; [exact C|]. exists v'. split; [congruence|reflexivity].
    - split; [auto|]. split; [exact C|]. exists v'. split; [congruence|reflexivity].
  Qed.

  Lemma connect_levels_safe (Q : vec) nid q l : forall h ep v, wfh h -> node_by_id h nid = Some v -> l <= v_level v ->
    safe (snd (connect_levels I h nid q l ep)).
  Proof.
    induction l as [|l IH]; intros h ep v Hw Hv Hl; cbn [connect_levels].
    - destruct (do_at_level_safe Q h nid q 0 ep v Hw Hv Hl) as (A & _).
      destruct (do_at_level I h nid q 0 ep) as [h' [ep'|e| |]]; cbn [snd] in *; auto; now destruct A.
    - destruct (do_at_level_safe Q h nid q (S l) ep v Hw Hv Hl) as (A & B & v' & C & D).
      destruct (do_at_level I h nid q (S l) ep) as [h' [ep'|e| |]]; cbn [fst snd] in *; auto; try now destruct A.
      apply (IH h' ep' v'); auto. lia.
  Qed.

  Lemma best_entrypoint_safe h q target k : wfh h -> forall ep, safe (best_entrypoint I h q target k ep).
  Proof.
    intros Hw. induction k as [|k IH]; intros ep; cbn [best_entrypoint]; [auto|].
    apply safe_bind.
    - unfold dist_node_vec. destruct (node_by_id h ep) as [v|]; [|auto].
      destruct (v_vec v), q; auto; destruct (p_single _ _ _); auto.
    - intros d _. apply safe_bind; [now apply layer_safe|]. intros r _.
      destruct (pq_pop less_max r) as [[x r']|]; [|auto]. destruct (node_by_id h (it_id x)); auto.
  Qed.

  Lemma add_safe h id q0 t : wfh h -> (id < i_vcsize I)%N -> safe (snd (add I h id q0 t)).
  Proof.
    intros Hw Hid. apply N.ltb_lt in Hid. unfold add. destruct q0 as [|x q0']; [apply safe_err|].
    set (Q := p_normalize _ _). unfold insert. destruct (negb (h_once h) && is_empty h).
    - unfold insert_initial. rewrite Hid. apply safe_ok.
    - unfold insert_linked. rewrite Hid. cbn [negb].
      set (h1 := put_node (with_once h) (new_vertex id Q t)).
      assert (Hw1 : wfh h1).
      { intros j y. unfold h1, node_by_id. rewrite mget_put. cbn [new_vertex v_id]. destruct (N.eqb_spec j id) as [->|].
        - intros [= <-]. split; [reflexivity|]. cbn. now rewrite repeat_length.
        - apply Hw. }
      assert (Hv1 : node_by_id h1 id = Some (new_vertex id Q t)).
      { unfold h1, node_by_id. rewrite mget_put. cbn. now rewrite N.eqb_refl. }
      pose proof (best_entrypoint_safe h1 Q t (h_maxl (with_once h) - t) Hw1 (h_ep (with_once h))) as Hb.
      destruct (best_entrypoint I h1 Q t _ _) as [ep|e| |]; [|apply safe_err|now destruct Hb..].
      pose proof (connect_levels_safe Q id Q (Nat.min t (h_maxl (with_once h))) h1 ep _ Hw1 Hv1) as Hc.
      destruct (connect_levels I h1 id Q _ ep) as [h2 [[]|e| |]]; cbn [snd] in *; auto;
        try apply safe_ok; try apply safe_err; (destruct Hc as [X1 X2]; [cbn; lia|congruence]).
  Qed.
End Safe.
