(** How often a layer search evaluates a distance.

    [search_loop_log] is [search_loop] with a log of the ids handed to the
    distance goroutines (search.go:256-277), [search_layer_log] the same for
    the whole layer; erasing the log gives back the functions of Search.v. *)
From Verif Require Import Base F32 PQ PQProofs Graph Search SearchProofs.

Section Count.
  Variable E : env.
  Variable h : hnsw.
  Variable q : vec.
  Variable ef : Z.
  Variable level : nat.
  Variable allow : option (N -> bool).

  (** search.go:198-316 with the log. *)
  Fixpoint search_loop_log (fuel : nat) (s : sst) (log : list N) : res (sst * list N) :=
    match fuel with
    | O => OutOfFuel
    | S f =>
        match pq_pop less_min (s_cands s) with
        | None => Ok (s, log)
        | Some (c, cands') =>
            let s1 := mkS cands' (s_results s) (s_worst s) (s_visited s) in
            if fgt (it_dist c) (s_worst s) && (ef <=? Z.of_nat (length (s_results s)))%Z
            then Ok (s1, log)
            else
              match node_by_id h (it_id c) with
              | None => search_loop_log f s1 log
              | Some v =>
                  if Nat.ltb (v_level v) level then search_loop_log f s1 log
                  else
                    match conns_at v level with
                    | None => Panic
                    | Some conns =>
                        let (ids, vis') := fresh conns (s_visited s) in
                        let nds := e_sched E level f (neighbour_dists E h q ids) in
                        search_loop_log f
                          (fold_left (step_nd h ef level allow) nds
                             (mkS cands' (s_results s) (s_worst s) vis')) (ids ++ log)
                    end
              end
        end
    end.

  (** search.go:164-325 with the log. *)
  Definition search_layer_log (eps : list item) : res (list item * list N) :=
    let es := pq_drain less_min eps in
    let visited := visit_eps E (map it_id es) [] false in
    let (c, r) := fold_left (add_ep h level allow) es ([], []) in
    do! w <- worst_dist E h q r;
    do! s <- search_loop_log (S (length es + length (stored_ids h))) (mkS c r w visited) [];
    Ok (s_results (fst s), snd s).

  Lemma loop_log_erase fuel : forall s log,
    (do! p <- search_loop_log fuel s log; Ok (fst p)) = search_loop E h q ef level allow fuel s.
  Proof.
    induction fuel as [|f IH]; intros s log; cbn [search_loop_log search_loop]; [reflexivity|].
    destruct (pq_pop less_min (s_cands s)) as [[c cands']|]; [|reflexivity].
    destruct (fgt _ _ && _); [reflexivity|].
    destruct (node_by_id h (it_id c)) as [v|]; [|apply IH].
    destruct (Nat.ltb (v_level v) level); [apply IH|].
    destruct (conns_at v level) as [conns|]; [|reflexivity].
    destruct (fresh conns (s_visited s)) as [ids vis']. apply IH.
  Qed.

  Lemma layer_log_erase eps :
    (do! p <- search_layer_log eps; Ok (fst p)) = search_layer E h q ef level allow eps.
  Proof.
    unfold search_layer_log, search_layer. destruct (fold_left _ _ _) as [c r].
    destruct (worst_dist E h q r) as [w|er| |]; cbn [bind]; try reflexivity.
    rewrite <- (loop_log_erase _ _ []).
    destruct (search_loop_log _ _ _) as [[s log]|er| |]; reflexivity.
  Qed.

  Lemma fold_visited nds : forall s,
    s_visited (fold_left (step_nd h ef level allow) nds s) = s_visited s.
  Proof.
    induction nds as [|nd nds IH]; intros s; cbn; [reflexivity|].
    rewrite IH. apply step_visited.
  Qed.

  (** Every logged id is a link of a stored vector on this layer.
      Not in the code: used in the statement about search.go:256-272. *)
  Definition linked (id : N) : Prop :=
    exists b v conns, node_by_id h b = Some v /\ level <= v_level v /\
      conns_at v level = Some conns /\ In id conns.

  Lemma loop_log_once fuel : forall s log s' log',
    NoDup log -> (forall x, In x log -> In x (s_visited s) /\ linked x) ->
    search_loop_log fuel s log = Ok (s', log') ->
    NoDup log' /\ (forall x, In x log' -> linked x) /\
    (forall x, In x log' -> In x log \/ ~ In x (s_visited s)).
  Proof.
    induction fuel as [|f IH]; intros s log s' log' Hnd Hin H; cbn [search_loop_log] in H; [discriminate|].
    assert (Hdone : NoDup log /\ (forall x, In x log -> linked x) /\
                    (forall x, In x log -> In x log \/ ~ In x (s_visited s))).
    { split; [exact Hnd|]. split; [intros x Hx; now apply Hin|auto]. }
    destruct (pq_pop less_min (s_cands s)) as [[c cands']|]; [|inversion H; subst; exact Hdone].
    destruct (fgt _ _ && _); [inversion H; subst; exact Hdone|].
    destruct (node_by_id h (it_id c)) as [v|] eqn:Ev; [|exact (IH (mkS _ _ _ _) _ _ _ Hnd Hin H)].
    destruct (Nat.ltb_spec (v_level v) level) as [|Hlv]; [exact (IH (mkS _ _ _ _) _ _ _ Hnd Hin H)|].
    destruct (conns_at v level) as [conns|] eqn:Ec; [|discriminate].
    destruct (fresh conns (s_visited s)) as [ids vis'] eqn:Ef.
    destruct (fresh_spec _ _ _ _ Ef) as (F1 & F2 & F3 & F4 & _ & _).
    apply IH in H.
    - destruct H as (H1 & H2 & H3). split; [exact H1|]. split; [exact H2|].
      intros x Hx. destruct (H3 x Hx) as [Hl|Hl].
      + apply in_app_or in Hl. destruct Hl as [Hl|Hl]; [right; auto|auto].
      + right. intros Hv. apply Hl. rewrite fold_visited. cbn. apply F4. now right.
    - apply NoDup_app_intro; auto. intros x Hx Hl. apply (F3 x Hx). now apply Hin.
    - intros x Hx. rewrite fold_visited. cbn. apply in_app_or in Hx. destruct Hx as [Hx|Hx].
      + split; [apply F4; auto|]. exists (it_id c), v, conns. auto.
      + destruct (Hin x Hx). split; [apply F4; auto|auto].
  Qed.

  Lemma layer_log_once ep r log :
    search_layer_log (pq_insert less_min ep []) = Ok (r, log) ->
    NoDup log /\ (forall x, In x log -> linked x) /\
    ((it_id ep < e_vcap E)%N -> ~ In (it_id ep) log).
  Proof.
    unfold search_layer_log. change (pq_drain less_min (pq_insert less_min ep [])) with [ep].
    cbn [map visit_eps fold_left orb length]. destruct (add_ep h level allow ([], []) ep) as [c r0].
    intros H. apply bind_Ok in H. destruct H as (w & Hw & H).
    apply bind_Ok in H. destruct H as ([s log'] & Hs & H). inversion H; subst; clear H.
    cbn [fst snd] in *. apply loop_log_once in Hs; [|constructor|intros x []].
    destruct Hs as (H1 & H2 & H3). split; [exact H1|]. split; [exact H2|].
    intros Hlt Hx. destruct (H3 _ Hx) as [[]|Hn]. apply Hn. cbn.
    apply N.ltb_lt in Hlt. rewrite Hlt. cbn. auto.
  Qed.
End Count.
