(** In every history of requests the stored ids stay below the number of slots
    of the vector cache. *)
From Coq Require Import String.
From Verif Require Import Base F32 PQ PQProofs Graph Search SearchProofs SearchLayer SearchKnn
  SearchCong Insert HeuristicProofs InsertProofs InsertHist InsertTotal InsertDim InsertSmall InsertFacts InsertFind
  Distancer DistancerProofs PropDistancer Persist PersistProofs PersistHist Client ClientProofs ClientSafe ClientFacts ClientReq.
Local Open Scope string_scope.

(** Insertions do not reset the once flag. *)
Lemma once_put h v : h_once (put_node h v) = h_once h. Proof. reflexivity. Qed.
Lemma connect_neighbor_once I h nid l nb : h_once (fst (connect_neighbor I h nid l nb)) = h_once h.
Proof.
  unfold connect_neighbor. destruct (node_by_id h nb) as [v|]; [|reflexivity].
  destruct (N.eqb nb nid); [reflexivity|]. destruct (has_tombstone h (v_id v)); [reflexivity|]. cbv zeta.
  set (v2 := if Nat.ltb _ _ then _ else _). clearbody v2. destruct (conns_at v2 l) as [cs|]; [|reflexivity].
  destruct (Nat.ltb _ _).
  - destruct (append_conn_at v2 l nid); reflexivity.
  - destruct (reselect _ _ _ _ _); reflexivity.
Qed.
Lemma connect_all_once I nid l nbs : forall h, h_once (fst (connect_all I h nid l nbs)) = h_once h.
Proof.
  induction nbs as [|nb nbs IH]; intros h; cbn [connect_all]; [reflexivity|].
  pose proof (connect_neighbor_once I h nid l nb) as H.
  destruct (connect_neighbor I h nid l nb) as [h' [u|e| |]]; cbn [fst] in *; auto. rewrite IH. exact H.
Qed.
Lemma do_at_level_once I h nid q l ep : h_once (fst (do_at_level I h nid q l ep)) = h_once h.
Proof.
  unfold do_at_level. destruct (choose_neighbours _ _ _ _ _ _) as [[ep' nbs]|e| |]; try reflexivity.
  destruct (node_by_id h nid) as [v|]; [|reflexivity]. destruct (set_conns_at v l nbs) as [v'|e| |]; try reflexivity.
  pose proof (connect_all_once I nid l nbs (put_node h v')) as H. rewrite once_put in H.
  destruct (connect_all I (put_node h v') nid l nbs) as [h' [u|e| |]]; exact H.
Qed.
Lemma connect_levels_once I nid q l : forall h ep, h_once (fst (connect_levels I h nid q l ep)) = h_once h.
Proof.
  induction l as [|l IH]; intros h ep; cbn [connect_levels]; pose proof (do_at_level_once I h nid q) as H;
    [specialize (H 0 ep)|specialize (H (S l) ep)]; destruct (do_at_level I h nid q _ ep) as [h' [x|e| |]]; cbn [fst] in *; auto.
  rewrite IH. exact H.
Qed.
Lemma finish_once h id t : h_once (finish_insert h id t) = h_once h.
Proof.
  unfold finish_insert. destruct (node_by_id h id); destruct (Nat.ltb _ _); reflexivity.
Qed.
Lemma insert_linked_once I h id q t : h_once (fst (insert_linked I h id q t)) = h_once h.
Proof.
  unfold insert_linked. destruct (negb _); [reflexivity|]. cbv zeta.
  set (h1 := put_node h _). destruct (best_entrypoint _ _ _ _ _ _) as [ep|e| |]; try reflexivity.
  pose proof (connect_levels_once I id q (Nat.min t (h_maxl h)) h1 ep) as H. change (h_once h1) with (h_once h) in H.
  destruct (connect_levels _ _ _ _ _ _) as [h2 [u|e| |]]; cbn [fst] in *; auto. rewrite finish_once. exact H.
Qed.
Lemma add_once I h id q0 t : q0 <> [] -> h_once (fst (add I h id q0 t)) = true.
Proof.
  intros Hq. unfold add. destruct q0 as [|x q]; [congruence|]. unfold insert.
  destruct (negb (h_once h) && is_empty h).
  - unfold insert_initial. destruct (N.ltb id (i_vcsize I)); reflexivity.
  - rewrite insert_linked_once. reflexivity.
Qed.

Section Ids.
  Variable size : N.
  Hypothesis Hsize : (0 < size)%N.
  Definition below (h : hnsw) : Prop := pinv h /\ forall j v, node_by_id h j = Some v -> (j < size)%N.
  Definition ready (h : hnsw) (b : N) : Prop := b = 0%N \/ h_once h = true \/ is_empty h = false.

  Lemma kv_empty h h' : h_kv h' = h_kv h -> h_kv_ep h' = h_kv_ep h -> h_kv_count h' = h_kv_count h -> is_empty h' = is_empty h.
  Proof. intros H1 H2 H3. unfold is_empty. now rewrite H1, H2, H3. Qed.
  Lemma below_add I h id q0 t : i_vcsize I = size -> below h -> ready h id ->
    let r := add I h id q0 t in
    below (fst r) /\ ready (fst r) id /\ (snd r = Ok tt -> ready (fst r) (N.succ id)).
  Proof.
    intros Hv [Hp Hb] Hr. cbv zeta.
    pose proof (add_prel I h id q0 t (pinv_wfh h Hp)) as [HR _].
    pose proof (add_pinv I h id q0 t Hp) as Hp'.
    destruct (pr_kv _ _ _ _ HR) as (K1 & K2 & K3).
    assert (Hrd : forall b, (h_once h = true \/ is_empty h = false) \/ q0 <> [] -> ready (fst (add I h id q0 t)) b).
    { intros b H. destruct q0 as [|x q].
      - right. destruct H as [H|H]; [exact H|congruence].
      - right; left. apply add_once. discriminate. }
    split; [|split].
    - split; [exact Hp'|]. intros j v Hj. destruct (N.ltb_spec id size) as [Hlt|Hge].
      + destruct (prel_back _ _ _ _ _ _ HR Hj) as [[-> _]|(w & Hw & _)]; [exact Hlt|]. now apply (Hb j w).
      + assert (E : node_by_id (fst (add I h id q0 t)) j = node_by_id h j).
        { unfold add. destruct q0 as [|x q]; [reflexivity|]. unfold insert.
          assert (E : negb (h_once h) && is_empty h = false).
          { destruct Hr as [->|[-> | ->]]; [lia|reflexivity|apply andb_false_r]. }
          rewrite E. unfold insert_linked. rewrite Hv. apply N.ltb_ge in Hge. rewrite Hge. reflexivity. }
        rewrite E in Hj. now apply (Hb j v).
    - destruct Hr as [->|Hr]; [now left|apply Hrd; now left].
    - intros H. apply Hrd. right. intros ->. discriminate H.
  Qed.

  Definition orcs_size (docs : list (option docin * dorc)) : Prop :=
    Forall (fun p => i_vcsize (do_env (snd p)) = size) docs.
  Lemma add_indexed_below o st b d p v : i_vcsize (do_env o) = size -> below (c_h st) -> ready (c_h st) b ->
    match add_indexed o st b d p v with (st', b', _) => below (c_h st') /\ ready (c_h st') b' end.
  Proof.
    intros Ho Hb Hr. unfold add_indexed. destruct (below_add (do_env o) (c_h st) b v (do_lvl o) Ho Hb Hr) as (A & B & C). cbv zeta in *.
    destruct (add (do_env o) (c_h st) b v (do_lvl o)) as [h' [[]|e| |]]; cbn [fst snd] in *; auto.
    specialize (C eq_refl). unfold store_doc. destruct (negb (do_marshal o)); [|destruct (do_docput o)];
      cbn [with_h logged c_h]; auto.
  Qed.
  Lemma add_doc_below lookup keys st b d o : i_vcsize (do_env o) = size -> below (c_h st) -> ready (c_h st) b ->
    match add_doc lookup keys st b d o with (st', b', _) => below (c_h st') /\ ready (c_h st') b' end.
  Proof.
    intros Ho Hb Hr. assert (Hs : below (c_h st) /\ ready (c_h st) b) by now split.
    unfold add_doc. destruct d as [d|]; [|exact Hs]. cbv zeta. set (p := pset _ _ _).
    destruct (pget "vector" p) as [[| | | |l| |v]|]; try exact Hs;
      try (destruct (vector_of l); [now apply add_indexed_below|exact Hs]); try now apply add_indexed_below.
    all: destruct (vector_text p keys) as [text|e| |]; try exact Hs; destruct (String.eqb text "");
      [unfold store_doc; destruct (negb (do_marshal o)); [|destruct (do_docput o)]; exact Hs|];
      destruct (negb lookup); [exact Hs|]; destruct (do_corpi o text) as [[v|]|e| |]; try exact Hs; now apply add_indexed_below.
  Qed.
  Lemma add_loop_below lookup keys docs : orcs_size docs -> forall st b, below (c_h st) -> ready (c_h st) b ->
    match add_loop lookup keys st b docs with (st', _, _) => below (c_h st') end.
  Proof.
    induction 1 as [|[d o] docs Ho _ IH]; intros st b Hb Hr; cbn [add_loop]; [exact Hb|].
    pose proof (add_doc_below lookup keys st b d o Ho Hb Hr) as H.
    destruct (add_doc lookup keys st b d o) as [[st1 b1] [[]|e| |]]; destruct H as [H1 H2]; auto.
    now apply IH.
  Qed.
  Lemma below_restart h : below h -> below (restart h).
  Proof.
    intros [Hp Hb]. split; [now apply restart_pinv|]. intros j v Hj. unfold node_by_id in Hj. cbn [restart h_cache h_kv mget] in Hj.
    destruct (kv_node h j v Hj) as (w & Hw). now apply (Hb j w).
  Qed.
  Lemma below_open R st : below (c_h st) -> below (c_h (fst (open_coll R st))).
  Proof.
    intros H. unfold open_coll. destruct (negb (r_kvopen R)); [exact H|]. destruct (negb (r_isopen R)); [exact H|].
    destruct (c_open st); [exact H|]. destruct (r_docopen R); now apply below_restart.
  Qed.
  Lemma below_load h : below h -> below (load_ep h).
  Proof. intros [Hp Hb]. split; [now apply load_ep_pinv|exact Hb]. Qed.
  Lemma below_docs R lookup keys docs st : orcs_size docs -> below (c_h st) -> below (c_h (fst (add_documents R lookup keys docs st))).
  Proof.
    intros Ho Hb. unfold add_documents. pose proof (below_open R st Hb) as Hop.
    destruct (open_coll R st) as [st1 [[]|e| |]]; cbn [fst] in *; auto.
    destruct (negb (c_reg st1)); [exact Hop|].
    assert (Hr : ready (c_h st1) (first_id (c_h st1))).
    { unfold ready, first_id, doc_count. destruct (h_kv_count (c_h st1)) eqn:E; [right; right|now left].
      unfold is_empty. rewrite E. destruct (h_kv (c_h st1)), (h_kv_ep (c_h st1)); reflexivity. }
    pose proof (add_loop_below lookup keys docs Ho st1 (first_id (c_h st1)) Hop Hr) as H.
    destruct (add_loop _ _ _ _ _) as [[st2 b] [[]|e| |]]; auto.
    unfold finish_add. destruct H as [Hp2 Hb2].
    destruct (flush_any (c_h st2) (r_keys R (c_h st2)) b (r_puts R) Hp2) as (F & V & _). cbv zeta in *.
    assert (HF : below (fst (flush (c_h st2) (r_keys R (c_h st2)) b (r_puts R)))).
    { split; [exact F|]. intros j v Hj. specialize (V j). unfold pview in V. rewrite Hj in V.
      destruct (node_by_id (c_h st2) j) as [w|] eqn:E; [now apply (Hb2 j w)|discriminate]. }
    destruct (flush _ _ _ _) as [h' [[]|e| |]]; exact HF.
  Qed.

  Definition req_size (q : creq) : Prop := match q with QAdd _ _ _ docs => orcs_size docs | _ => True end.
  Lemma run_below qs : Forall req_size qs -> forall st, below (c_h st) -> below (c_h (run_reqs st qs)).
  Proof.
    induction 1 as [|q qs Hq _ IH]; intros st Hb; cbn [run_reqs]; [exact Hb|]. apply IH.
    destruct q as [R lk keys docs|Q v maxd limit|Q lk corpi maxd limit|R ok id| |]; cbn [req_step].
    - now apply below_docs.
    - unfold near_by_vector. pose proof (below_open (q_open Q) st Hb) as Ho.
      destruct (open_coll (q_open Q) st) as [st1 [[]|e| |]]; cbn [fst] in *; auto.
      unfold near_docs. destruct (negb (c_reg st1)); [exact Ho|now apply below_load].
    - unfold near_by_text. pose proof (below_open (q_open Q) st Hb) as Ho.
      destruct (open_coll (q_open Q) st) as [st1 [[]|e| |]]; cbn [fst] in *; auto.
      destruct (negb lk); [exact Ho|]. destruct corpi as [[w|]|e| |]; auto.
      + unfold near_docs. destruct (negb (c_reg st1)); [exact Ho|now apply below_load].
      + cbn [fst]. destruct (c_reg st1); [now apply below_load|exact Ho].
    - unfold get_document. destruct (negb (r_isopen R)); [exact Hb|].
      destruct (negb (c_open st) && negb (r_docopen R)); [exact Hb|].
      destruct (negb ok); [exact Hb|]. destruct (find _ _); exact Hb.
    - now apply below_restart.
    - now apply below_restart.
  Qed.
  Lemma new_below : below (c_h new_coll).
  Proof. split; [apply pinv_empty|]. intros j v [=]. Qed.
  Lemma requests_small E qs : Forall req_size qs -> (size <= e_vcap E)%N -> ids_small E (c_h (run_reqs new_coll qs)).
  Proof. intros Hq He j v Hj. destruct (run_below qs Hq _ new_below) as [_ H]. specialize (H j v Hj). lia. Qed.
End Ids.
