(** Proofs about deletion and clean-up. *)
From Verif Require Import Base F32 PQ PQProofs Graph Search SearchProofs SearchLayer SearchKnn
  Insert HeuristicProofs InsertProofs InsertHist Persist Delete.

(** With an empty deny list the functions are those of [Insert]. *)
Lemma connect_levels_deny_nil I : connect_levels_deny I [] = connect_levels I.
Proof. reflexivity. Qed.

(* ------------------------------------------------------------------ *)
(** Where a layer search can get to. *)

Lemma fold_results_in (h : hnsw) ef level allow (C : N -> Prop) nds : forall s,
  (forall x, In x nds -> C (it_id x)) ->
  (forall x, In x (s_cands s) -> C (it_id x)) ->
  (forall x, In x (s_results s) -> C (it_id x) /\ has_tombstone h (it_id x) = false) ->
  let s' := fold_left (step_nd h ef level allow) nds s in
  (forall x, In x (s_cands s') -> C (it_id x)) /\
  (forall x, In x (s_results s') -> C (it_id x) /\ has_tombstone h (it_id x) = false).
Proof.
  induction nds as [|nd nds IH]; intros s Hn Hc Hr; cbn [fold_left]; [auto|].
  apply IH; [intros x Hx; apply Hn; now right| |];
    destruct (step_cases h ef level allow s nd) as [(-> & _)|[(-> & _)|(r2 & (Ht & _) & _ & -> & Hr2)]]; auto;
    cbn [s_cands s_results].
  - intros x Hx. apply insert_In in Hx. destruct Hx as [->|Hx]; [apply Hn; now left|auto].
  - intros x Hx. apply insert_In in Hx. destruct Hx as [->|Hx]; [apply Hn; now left|auto].
  - assert (Hi : forall x, In x (pq_insert less_max nd (s_results s)) ->
      C (it_id x) /\ has_tombstone h (it_id x) = false).
    { intros x Hx. apply insert_In in Hx. destruct Hx as [->|Hx]; [|auto].
      split; [apply Hn; now left|exact Ht]. }
    intros x Hx. apply Hi. destruct Hr2 as [(_ & ->)|(_ & y & Hp)]; [exact Hx|].
    eapply Permutation_in; [symmetry; eapply pop_perm; eauto|]. now right.
Qed.

Lemma layer_in E h q ef level allow (C : N -> Prop) ep r :
  sched_ok E ->
  (forall b v cs c w, C b -> node_by_id h b = Some v -> nth_error (v_conns v) level = Some cs ->
     In c cs -> node_by_id h c = Some w -> C c) ->
  C (it_id ep) ->
  search_layer E h q ef level allow (pq_insert less_min ep []) = Ok r ->
  forall x, In x r -> C (it_id x) /\ has_tombstone h (it_id x) = false.
Proof.
  intros Hsc Hcl Hep. unfold search_layer.
  change (pq_drain less_min (pq_insert less_min ep [])) with [ep].
  set (vis := visit_eps E (map it_id [ep]) [] false).
  destruct (fold_left (add_ep h level allow) [ep] ([], [])) as [c rr] eqn:Ef.
  assert (Hc : forall x, In x c -> C (it_id x)).
  { cbn [fold_left] in Ef. unfold add_ep in Ef. cbn [fst snd] in Ef.
    assert (c = pq_insert less_min ep []).
    { destruct (negb _); [now inversion Ef|]. destruct (has_tombstone _ _); now inversion Ef. }
    subst c. intros x Hx. apply insert_In in Hx. destruct Hx as [->|[]]. exact Hep. }
  assert (Hr : forall x, In x rr -> C (it_id x) /\ has_tombstone h (it_id x) = false).
  { cbn [fold_left] in Ef. unfold add_ep in Ef. cbn [fst snd] in Ef.
    destruct (negb _); [inversion Ef; subst; intros x []|].
    destruct (has_tombstone h (it_id ep)) eqn:Et; inversion Ef; subst; [intros x []|].
    intros x Hx. apply insert_In in Hx. destruct Hx as [->|[]]. auto. }
  intros H. apply bind_Ok in H. destruct H as (w & _ & H).
  apply bind_Ok in H. destruct H as (s & Hs & H). inversion H; subst r.
  edestruct (loop_rule E h q ef level allow (fun s => (forall x, In x (s_cands s) -> C (it_id x)) /\
     (forall x, In x (s_results s) -> C (it_id x) /\ has_tombstone h (it_id x) = false)))
    as (s0 & (_ & H2) & H3 & _); [| | |exact Hs|].
  - intros s1 x cands' (I1 & I2) Hp _ _. cbn. split; [|exact I2].
    intros y Hy. apply I1. eapply Permutation_in; [symmetry; eapply pop_perm; eauto|]. now right.
  - intros s1 x cands' v conns ids vis' f (I1 & I2) Hp _ Hv _ Hcn Hf.
    apply fold_results_in; cbn; [| |exact I2].
    + intros y Hy. eapply Permutation_in in Hy; [|symmetry; apply Hsc].
      apply neighbour_dists_spec in Hy. destruct Hy as (Hy & vy & Hvy & _).
      destruct (fresh_spec _ _ _ _ Hf) as (_ & Hi & _).
      eapply Hcl; [| exact Hv | exact Hcn | apply Hi, Hy | exact Hvy].
      apply I1. eapply Permutation_in; [symmetry; eapply pop_perm; eauto|]. now left.
    + intros y Hy. apply I1. eapply Permutation_in; [symmetry; eapply pop_perm; eauto|]. now right.
  - cbn. auto.
  - rewrite H3. exact H2.
Qed.

(* ------------------------------------------------------------------ *)
(** Vertices stand under their own ids; links never lead into [G] from outside. *)

Definition own (h : hnsw) : Prop := forall id v, node_by_id h id = Some v -> v_id v = id.

Definition sep (G : N -> Prop) (h : hnsw) : Prop :=
  forall id v l cs c, ~ G id -> node_by_id h id = Some v -> nth_error (v_conns v) l = Some cs ->
    In c cs -> ~ G c.

(** A stored vertex outside [G]. *)
Definition okn (G : N -> Prop) (h : hnsw) (id : N) : Prop :=
  ~ G id /\ exists v, node_by_id h id = Some v.

Lemma sep_newl G h h' : sep G h -> newl (fun c => ~ G c) h h' -> sep G h'.
Proof.
  intros Hs Hn id v l cs c Hg Hv Hl Hc.
  destruct (Hn _ _ _ _ _ Hv Hl Hc) as [(v0 & cs0 & H1 & H2 & H3)|H]; [|exact H].
  eapply Hs; eauto.
Qed.

(** Changes of the links only. *)
Record keep (h h' : hnsw) : Prop := {
  kp_fw : forall id v, node_by_id h id = Some v -> exists v', node_by_id h' id = Some v' /\ v_vec v' = v_vec v;
  kp_bw : forall id v', node_by_id h' id = Some v' -> exists v, node_by_id h id = Some v;
  kp_own : own h -> own h';
  kp_kv : h_kv h' = h_kv h /\ h_kv_ep h' = h_kv_ep h /\ h_kv_count h' = h_kv_count h;
  kp_ep : h_ep h' = h_ep h /\ h_maxl h' = h_maxl h;
  kp_tomb : h_tomb h' = h_tomb h /\ h_once h' = h_once h
}.

Lemma keep_refl h : keep h h.
Proof. constructor; auto; [intros id v H; exists v; auto|eauto]. Qed.

Lemma keep_trans h1 h2 h3 : keep h1 h2 -> keep h2 h3 -> keep h1 h3.
Proof.
  intros [F1 B1 O1 K1 E1 T1] [F2 B2 O2 K2 E2 T2]. constructor.
  - intros id v Hv. destruct (F1 _ _ Hv) as (v2 & H2 & V2). destruct (F2 _ _ H2) as (v3 & H3 & V3).
    exists v3. split; congruence.
  - intros id v3 H3. destruct (B2 _ _ H3) as (v2 & H2). eauto.
  - auto.
  - intuition congruence.
  - intuition congruence.
  - intuition congruence.
Qed.

Lemma keep_ext h h' : (forall id, node_by_id h' id = node_by_id h id) ->
  h_kv h' = h_kv h -> h_kv_ep h' = h_kv_ep h -> h_kv_count h' = h_kv_count h ->
  h_ep h' = h_ep h -> h_maxl h' = h_maxl h -> h_tomb h' = h_tomb h -> h_once h' = h_once h -> keep h h'.
Proof.
  intros Hn K1 K2 K3 E1 E2 T1 T2. constructor; auto.
  - intros id v Hv. exists v. rewrite Hn. auto.
  - intros id v. rewrite Hn. eauto.
  - intros Ho id v. rewrite Hn. apply Ho.
Qed.

Lemma keep_put h v v0 : node_by_id h (v_id v) = Some v0 -> v_vec v = v_vec v0 -> keep h (put_node h v).
Proof.
  intros Hv Hvec. constructor; auto.
  - intros id w Hw. rewrite node_put. destruct (N.eqb_spec id (v_id v)) as [->|]; [|eauto].
    exists v. split; congruence.
  - intros id w. rewrite node_put. destruct (N.eqb_spec id (v_id v)) as [->|]; eauto.
  - intros Ho id w. rewrite node_put. destruct (N.eqb_spec id (v_id v)) as [->|]; [|apply Ho].
    intros [= <-]. reflexivity.
Qed.

Lemma okn_keep G h h' id : keep h h' -> okn G h id -> okn G h' id.
Proof. intros K (H1 & v & Hv). destruct (kp_fw _ _ K _ _ Hv) as (v' & H & _). split; eauto. Qed.

(** Replacing a vertex by one whose links are its old ones or in [R]. *)
Lemma newl_put (R : N -> Prop) h v v0 : node_by_id h (v_id v) = Some v0 ->
  (forall l cs c, nth_error (v_conns v) l = Some cs -> In c cs ->
     (exists cs0, nth_error (v_conns v0) l = Some cs0 /\ In c cs0) \/ R c) ->
  newl R h (put_node h v).
Proof.
  intros Hv H j v' l cs' c. rewrite node_put. destruct (N.eqb_spec j (v_id v)) as [->|].
  - intros [= <-] Hn Hc. destruct (H _ _ _ Hn Hc) as [(cs0 & H1 & H2)|HR]; [|auto]. left. eauto.
  - intros H1 H2 H3. left. eauto.
Qed.

Lemma newl_ext R h h' : (forall id, node_by_id h' id = node_by_id h id) -> newl R h h'.
Proof. intros Hn j v' l cs' c. rewrite Hn. intros H1 H2 H3. left. eauto. Qed.

Lemma upgrade_conns v level l cs c : nth_error (v_conns (upgrade_level v level)) l = Some cs -> In c cs ->
  nth_error (v_conns v) l = Some cs.
Proof.
  unfold upgrade_level. cbn [v_conns set_level set_conns]. intros Hn Hc.
  destruct (Nat.ltb_spec l (length (firstn (S level) (v_conns v)))) as [Hlt|Hge].
  - rewrite nth_error_app1 in Hn by lia.
    assert (l < S level). { rewrite firstn_length in Hlt. lia. }
    rewrite nth_error_firstn_lt in Hn by lia. exact Hn.
  - rewrite nth_error_app2 in Hn by lia. apply nth_error_In in Hn.
    apply repeat_spec in Hn. subst. destruct Hc.
Qed.

(* ------------------------------------------------------------------ *)
(** One load. *)
Lemma load_node h x id : node_by_id (load h x) id = node_by_id h id.
Proof.
  unfold load, node_by_id. destruct (mget x (h_cache h)) as [w|] eqn:Ec; [reflexivity|].
  destruct (mget x (h_kv h)) as [v|] eqn:Ek; [|reflexivity].
  cbn [h_cache h_kv with_cache]. rewrite mget_mset. destruct (N.eqb_spec id x) as [->|]; [|reflexivity].
  now rewrite Ec, Ek.
Qed.

Lemma load_keep h x : keep h (load h x).
Proof.
  apply keep_ext; [intros; apply load_node|..];
    unfold load; destruct (mget x (h_cache h)); try reflexivity; destruct (mget x (h_kv h)); reflexivity.
Qed.

Lemma loads_node xs : forall h id, node_by_id (fold_left load xs h) id = node_by_id h id.
Proof. induction xs as [|x xs IH]; intros h id; cbn; [reflexivity|]. now rewrite IH, load_node. Qed.

Lemma loads_keep xs : forall h, keep h (fold_left load xs h).
Proof.
  induction xs as [|x xs IH]; intros h; cbn; [apply keep_refl|].
  eapply keep_trans; [apply load_keep|apply IH].
Qed.

(* ------------------------------------------------------------------ *)
Section Linking.
  Variable I : ienv.
  Variable dl : list N.
  Local Notation E := (i_env I).
  Local Notation P := (e_prov (i_env I)).
  Hypothesis Hsc : sched_ok E.

  Lemma reselect_deny_in nid nb l cs cs' : reselect_deny I dl nid nb l cs = Ok cs' ->
    forall c, In c cs' -> c = nid \/ In c cs.
  Proof.
    unfold reselect_deny. intros H.
    apply bind_Ok in H. destruct H as (d & _ & H).
    apply bind_Ok in H. destruct H as (q & Hq & H).
    apply bind_Ok in H. destruct H as (q' & Hq' & H). inversion H; subst.
    apply cand_dists_ids in Hq. cbn in Hq.
    intros c Hc. apply drain_ids_In in Hc. apply in_map_iff in Hc. destruct Hc as (x & <- & Hx).
    eapply heuristic_In in Hx; eauto. apply (in_map it_id) in Hx.
    apply (Permutation_in _ Hq) in Hx. apply in_app_or in Hx. cbn in Hx. intuition.
  Qed.

  Lemma connect_neighbor_keep h nid l nb : own h ->
    let h' := fst (connect_neighbor_deny I dl h nid l nb) in keep h h' /\ newl (eq nid) h h'.
  Proof.
    intros Ho. unfold connect_neighbor_deny.
    assert (Hself : keep h h /\ newl (eq nid) h h) by (split; [apply keep_refl|apply newl_refl]).
    destruct (node_by_id h nb) as [v|] eqn:Ev; [|exact Hself].
    destruct (N.eqb nb nid); [exact Hself|]. destruct (has_tombstone h (v_id v)); [exact Hself|].
    pose proof (Ho _ _ Ev) as Hid.
    set (v2 := if Nat.ltb _ l then _ else _).
    assert (Hv2 : v_id v2 = nb /\ v_vec v2 = v_vec v).
    { unfold v2. destruct (Nat.ltb _ l); cbn; auto. }
    destruct Hv2 as [Hi2 Hvec2].
    assert (Hc2 : forall l' cs c, nth_error (v_conns v2) l' = Some cs -> In c cs ->
              nth_error (v_conns v) l' = Some cs).
    { intros l' cs c. unfold v2. destruct (Nat.ltb _ l); [|auto].
      intros H1 H2. apply upgrade_conns with (c := c) in H1; auto. }
    assert (Hv2n : node_by_id h (v_id v2) = Some v) by now rewrite Hi2.
    assert (H1 : keep h (put_node h v2) /\ newl (eq nid) h (put_node h v2)).
    { split; [eapply keep_put; eauto|]. apply (newl_put _ _ _ v Hv2n). intros l' cs c Hn Hc. left. eauto. }
    assert (Hput : forall cs0 cs', nth_error (v_conns v2) l = Some cs0 ->
       (forall c, In c cs' -> c = nid \/ In c cs0) ->
       let h' := put_node (put_node h v2) (set_conns v2 (upd (v_conns v2) l cs')) in
       keep h h' /\ newl (eq nid) h h').
    { intros cs0 cs' H0 Hs h'. destruct H1 as [K1 N1].
      assert (Hn : node_by_id (put_node h v2) (v_id (set_conns v2 (upd (v_conns v2) l cs'))) = Some v2).
      { rewrite node_put. cbn. now rewrite N.eqb_refl. }
      split.
      - eapply keep_trans; [exact K1|]. apply (keep_put _ _ _ Hn). reflexivity.
      - eapply newl_trans; [exact N1|]. apply (newl_put _ _ _ _ Hn).
        cbn [v_conns set_conns]. intros l' cs c Hl Hc. rewrite nth_error_upd in Hl.
        destruct (Nat.eqb_spec l l') as [<-|]; [|left; eauto].
        destruct (Nat.ltb l (length (v_conns v2))); [|discriminate]. inversion Hl; subst.
        destruct (Hs c Hc) as [->|]; [now right|left; eauto]. }
    destruct (conns_at v2 l) as [cs|] eqn:Ec; [|exact H1]. unfold conns_at in Ec.
    destruct (Nat.ltb (length cs) (max_conns I l)).
    - unfold append_conn_at. rewrite Ec. cbn [fst]. eapply Hput; [exact Ec|].
      intros c Hc. apply in_app_or in Hc. cbn in Hc. intuition.
    - destruct (reselect_deny I dl nid nb l cs) as [cs'|e| |] eqn:Er; cbn [fst]; try exact H1.
      eapply Hput; [exact Ec|]. eapply reselect_deny_in; eauto.
  Qed.

  Lemma connect_all_keep nid l nbs : forall h, own h ->
    let h' := fst (connect_all_deny I dl h nid l nbs) in keep h h' /\ newl (eq nid) h h'.
  Proof.
    induction nbs as [|nb nbs IH]; intros h Ho; cbn [connect_all_deny].
    - split; [apply keep_refl|apply newl_refl].
    - destruct (connect_neighbor_keep h nid l nb Ho) as [K1 N1].
      destruct (connect_neighbor_deny I dl h nid l nb) as [h1 [[]|e| |]]; cbn [fst] in *; auto.
      destruct (IH h1 (kp_own _ _ K1 Ho)) as [K2 N2].
      split; [eapply keep_trans; eauto|eapply newl_trans; eauto].
  Qed.

  (** The neighbours chosen carry no tombstone. *)
  Lemma choose_live h nid q l ep ep' nbs :
    choose_neighbours_deny I dl h nid q l ep = Ok (ep', nbs) ->
    forall c, In c nbs -> has_tombstone h c = false.
  Proof.
    unfold choose_neighbours_deny. intros H.
    apply bind_Ok in H. destruct H as (e & _ & H).
    apply bind_Ok in H. destruct H as (r & Hr & H).
    apply bind_Ok in H. destruct H as (r' & Hr' & H). inversion H; subst.
    intros c Hc. apply drain_ids_In in Hc. apply in_map_iff in Hc. destruct Hc as (x & <- & Hx).
    eapply heuristic_In in Hx; eauto.
    eapply (layer_in E h q (i_efc I) l None (fun _ => True)); eauto.
  Qed.

  (** They are outside [G] if the entry point is. *)
  Lemma choose_ok G h nid q l ep ep' nbs :
    sep G h -> okn G h ep ->
    choose_neighbours_deny I dl h nid q l ep = Ok (ep', nbs) ->
    ep' = ep /\ forall c, In c nbs -> okn G h c.
  Proof.
    intros Hs (Hg & v & Hv). unfold choose_neighbours_deny. intros H.
    apply bind_Ok in H. destruct H as (e & He & H).
    apply bind_Ok in H. destruct H as (r & Hr & H).
    apply bind_Ok in H. destruct H as (r' & Hr' & H). inversion H; subst.
    assert (He1 : fst e = ep).
    { cbn [pick_ep] in He. rewrite Hv in He. apply bind_Ok in He. destruct He as (d & _ & He).
      inversion He; reflexivity. }
    split; [exact He1|].
    intros c Hc. apply drain_ids_In in Hc. apply in_map_iff in Hc. destruct Hc as (x & <- & Hx).
    eapply heuristic_In in Hx; eauto.
    eapply (layer_in E h q (i_efc I) l None (okn G h)) in Hx; [apply Hx|exact Hsc| | |exact Hr];
      [|cbn [it_id]; rewrite He1; split; eauto].
    intros b vb cs c w (Hb & _) Hvb Hn Hc Hw. split; [|eauto]. eapply Hs; eauto.
  Qed.

  Lemma do_at_level_keep h nid q l ep : own h ->
    let r := do_at_level_deny I dl h nid q l ep in
    keep h (fst r) /\
    forall (R : N -> Prop), R nid ->
      (forall ep' nbs, choose_neighbours_deny I dl h nid q l ep = Ok (ep', nbs) -> forall c, In c nbs -> R c) ->
      newl R h (fst r).
  Proof.
    intros Ho. unfold do_at_level_deny.
    assert (Hself : forall x : res N, keep h (fst (h, x)) /\
      forall (R : N -> Prop), R nid ->
      (forall ep' nbs, choose_neighbours_deny I dl h nid q l ep = Ok (ep', nbs) -> forall c, In c nbs -> R c) ->
      newl R h (fst (h, x))).
    { intros x. split; [apply keep_refl|]. intros. apply newl_refl. }
    destruct (choose_neighbours_deny I dl h nid q l ep) as [[ep' nbs]|e| |] eqn:Ec;
      try (split; [apply keep_refl|intros; apply newl_refl]).
    destruct (node_by_id h nid) as [v|] eqn:Ev; [|split; [apply keep_refl|intros; apply newl_refl]].
    unfold set_conns_at. destruct (Nat.ltb l (length (v_conns v))) eqn:Elt; [|split; [apply keep_refl|intros; apply newl_refl]].
    pose proof (Ho _ _ Ev) as Hid.
    assert (Hn : node_by_id h (v_id (set_conns v (upd (v_conns v) l nbs))) = Some v) by (cbn; now rewrite Hid).
    assert (K1 : keep h (put_node h (set_conns v (upd (v_conns v) l nbs)))).
    { apply (keep_put _ _ _ Hn). reflexivity. }
    destruct (connect_all_keep nid l nbs _ (kp_own _ _ K1 Ho)) as [K2 N2].
    assert (Hres : keep h (fst (connect_all_deny I dl (put_node h (set_conns v (upd (v_conns v) l nbs))) nid l nbs)) /\
      forall (R : N -> Prop), R nid ->
      (forall ep'0 nbs0, Ok (ep', nbs) = Ok (ep'0, nbs0) -> forall c, In c nbs0 -> R c) ->
      newl R h (fst (connect_all_deny I dl (put_node h (set_conns v (upd (v_conns v) l nbs))) nid l nbs))).
    { split; [eapply keep_trans; eauto|]. intros R HR Hc.
      eapply newl_trans; [|eapply newl_weaken; [|exact N2]; intros c <-; exact HR].
      apply (newl_put _ _ _ _ Hn). cbn [v_conns set_conns]. intros l' cs c Hl Hin.
      rewrite nth_error_upd in Hl. destruct (Nat.eqb_spec l l') as [<-|]; [|left; eauto].
      destruct (Nat.ltb l (length (v_conns v))); [|discriminate]. inversion Hl; subst. right. eapply Hc; eauto. }
    destruct (connect_all_deny I dl _ nid l nbs) as [h' [[]|e| |]]; exact Hres.
  Qed.

  Lemma connect_levels_keep nid q l : forall h ep, own h ->
    keep h (fst (connect_levels_deny I dl h nid q l ep)).
  Proof.
    induction l as [|l IH]; intros h ep Ho; cbn [connect_levels_deny].
    - destruct (do_at_level_keep h nid q 0 ep Ho) as [K _].
      destruct (do_at_level_deny I dl h nid q 0 ep) as [h' [ep'|e| |]]; exact K.
    - destruct (do_at_level_keep h nid q (S l) ep Ho) as [K _].
      destruct (do_at_level_deny I dl h nid q (S l) ep) as [h' [ep'|e| |]]; cbn [fst] in *; try exact K.
      eapply keep_trans; [exact K|]. apply IH. exact (kp_own _ _ K Ho).
  Qed.

  (** New links carry no tombstone. *)
  Lemma connect_levels_live (D : N -> Prop) nid q l : forall h ep, own h ->
    (forall c, D c -> has_tombstone h c = true) -> ~ D nid ->
    newl (fun c => ~ D c) h (fst (connect_levels_deny I dl h nid q l ep)).
  Proof.
    assert (Hlev : forall l h ep, own h -> (forall c, D c -> has_tombstone h c = true) -> ~ D nid ->
      newl (fun c => ~ D c) h (fst (do_at_level_deny I dl h nid q l ep))).
    { intros l0 h ep Ho HD Hn. destruct (do_at_level_keep h nid q l0 ep Ho) as [_ HN]. apply HN; [exact Hn|].
      intros ep' nbs Hc c Hin Hd. pose proof (choose_live _ _ _ _ _ _ _ Hc c Hin) as H1.
      rewrite (HD c Hd) in H1. discriminate. }
    induction l as [|l IH]; intros h ep Ho HD Hn; cbn [connect_levels_deny].
    - pose proof (Hlev 0 h ep Ho HD Hn) as N1.
      destruct (do_at_level_deny I dl h nid q 0 ep) as [h' [ep'|e| |]]; exact N1.
    - pose proof (Hlev (S l) h ep Ho HD Hn) as N1.
      destruct (do_at_level_keep h nid q (S l) ep Ho) as [K _].
      destruct (do_at_level_deny I dl h nid q (S l) ep) as [h' [ep'|e| |]]; cbn [fst] in *; try exact N1.
      eapply newl_trans; [exact N1|]. apply IH; [exact (kp_own _ _ K Ho)| |exact Hn].
      intros c Hd. unfold has_tombstone. rewrite (proj1 (kp_tomb _ _ K)). exact (HD c Hd).
  Qed.

  (** New links stay outside [G]. *)
  Lemma connect_levels_sep G nid q l : forall h ep, own h -> sep G h -> okn G h ep -> ~ G nid ->
    newl (fun c => ~ G c) h (fst (connect_levels_deny I dl h nid q l ep)).
  Proof.
    assert (Hlev : forall l h ep, own h -> sep G h -> okn G h ep -> ~ G nid ->
      let r := do_at_level_deny I dl h nid q l ep in
      newl (fun c => ~ G c) h (fst r) /\ forall ep', snd r = Ok ep' -> okn G (fst r) ep').
    { intros l0 h ep Ho Hs Hep Hn r.
      destruct (do_at_level_keep h nid q l0 ep Ho) as [K HN]. split.
      - apply HN; [exact Hn|]. intros ep' nbs Hc c Hin.
        apply (proj2 (choose_ok G _ _ _ _ _ _ _ Hs Hep Hc) c Hin).
      - intros ep2 He. fold r in K.
        assert (Hok : okn G h ep2).
        { unfold r, do_at_level_deny in He.
          destruct (choose_neighbours_deny I dl h nid q l0 ep) as [[ep' nbs]|e| |] eqn:Ec; try discriminate.
          destruct (choose_ok G _ _ _ _ _ _ _ Hs Hep Ec) as [-> Hin].
          destruct (node_by_id h nid) as [v|]; [|discriminate].
          destruct (set_conns_at v l0 nbs) as [v'|e| |]; try discriminate.
          destruct (connect_all_deny I dl _ nid l0 nbs) as [h' [[]|e| |]]; try discriminate.
          cbn in He. inversion He; subst ep2. destruct nbs as [|n nbs]; [exact Hep|].
          cbn [next_ep]. destruct (N.eqb _ _); [exact Hep|]. apply Hin. apply last_In. discriminate. }
        eapply okn_keep; eauto. }
    induction l as [|l IH]; intros h ep Ho Hs Hep Hn; cbn [connect_levels_deny].
    - destruct (Hlev 0 h ep Ho Hs Hep Hn) as [N1 _].
      destruct (do_at_level_deny I dl h nid q 0 ep) as [h' [ep'|e| |]]; exact N1.
    - destruct (Hlev (S l) h ep Ho Hs Hep Hn) as [N1 He].
      destruct (do_at_level_keep h nid q (S l) ep Ho) as [K _].
      destruct (do_at_level_deny I dl h nid q (S l) ep) as [h' [ep'|e| |]]; cbn [fst snd] in *; try exact N1.
      eapply newl_trans; [exact N1|]. apply IH; [exact (kp_own _ _ K Ho)| |auto|exact Hn].
      eapply sep_newl; eauto.
  Qed.

  Lemma best_entrypoint_ok G h q target n : sep G h -> forall ep ep', okn G h ep ->
    best_entrypoint I h q target n ep = Ok ep' -> okn G h ep'.
  Proof.
    intros Hs. induction n as [|n IH]; intros ep ep' Hep H; cbn [best_entrypoint] in H.
    - inversion H; subst; auto.
    - apply bind_Ok in H. destruct H as (d & Hd & H).
      apply bind_Ok in H. destruct H as (r & Hr & H).
      destruct (pq_pop less_max r) as [[x r']|] eqn:Ep; [|eauto].
      destruct (node_by_id h (it_id x)) as [vx|] eqn:Ex; [|eauto].
      destruct (v_maint vx); [eauto|]. eapply IH; [|exact H].
      assert (Hx : In x r) by (eapply Permutation_in; [symmetry; eapply pop_perm; eauto|now left]).
      eapply (layer_in E h q 1 (target + S n) None (okn G h)) in Hx; [apply Hx|exact Hsc| | |exact Hr];
        [|exact Hep].
      intros b vb cs c w (Hb & _) Hvb Hn Hc Hw. split; [|eauto]. eapply Hs; eauto.
  Qed.
End Linking.

(* ------------------------------------------------------------------ *)
(** Clean-up. *)

Lemma insert_asc_In x y l : In y (insert_asc x l) <-> y = x \/ In y l.
Proof.
  induction l as [|z l IH]; cbn; [intuition|].
  destruct (x <? z)%N; [cbn; intuition|]. destruct (N.eqb_spec x z) as [->|]; cbn; [intuition|].
  rewrite IH. intuition.
Qed.

Lemma delete_list_In h x : In x (delete_list h) <-> In x (h_tomb h).
Proof.
  unfold delete_list. induction (h_tomb h) as [|y l IH]; cbn [fold_right]; [reflexivity|].
  rewrite insert_asc_In, IH. cbn. intuition.
Qed.

(** No link of [id] leads into [dl]. *)
Definition clean (dl : list N) (h : hnsw) (id : N) : Prop :=
  forall v l cs c, node_by_id h id = Some v -> nth_error (v_conns v) l = Some cs -> In c cs -> ~ In c dl.

Lemma clean_newl dl h h' id : clean dl h id -> newl (fun c => ~ In c dl) h h' -> clean dl h' id.
Proof.
  intros Hc Hn v l cs c H1 H2 H3.
  destruct (Hn _ _ _ _ _ H1 H2 H3) as [(v0 & cs0 & G1 & G2 & G3)|H]; [|exact H]. eapply Hc; eauto.
Qed.

Lemma points_to_false conns dl : points_to conns dl = false ->
  forall l cs c, nth_error conns l = Some cs -> In c cs -> ~ In c dl.
Proof.
  intros H l cs c Hl Hc Hd. apply Bool.not_true_iff_false in H. apply H.
  unfold points_to. apply existsb_exists. exists cs. split; [eapply nth_error_In; eauto|].
  apply existsb_exists. exists c. split; [exact Hc|]. now apply memN_In.
Qed.

Lemma nth_nils (f : list (list N)) l cs c :
  nth_error (map (fun _ => @nil N) f) l = Some cs -> In c cs -> False.
Proof.
  intros H Hc. apply nth_error_In in H. apply in_map_iff in H. destruct H as (? & <- & _). destruct Hc.
Qed.

Section Clean.
  Variable k : korc.
  Variable dl : list N.
  Hypothesis Hsc : forall n, sched_ok (i_env (k_env k n)).
  Local Notation notD := (fun c => ~ In c dl).

  Lemma set_maint_put (R : N -> Prop) h2 v2 n b : own h2 -> node_by_id h2 n = Some v2 ->
    keep h2 (put_node h2 (set_maint v2 b)) /\ newl R h2 (put_node h2 (set_maint v2 b)).
  Proof.
    intros Ho Hv. pose proof (Ho _ _ Hv) as Hi.
    assert (Hn : node_by_id h2 (v_id (set_maint v2 b)) = Some v2) by (cbn; now rewrite Hi).
    split; [apply (keep_put _ _ _ Hn); reflexivity|].
    apply (newl_put _ _ _ _ Hn). cbn. intros l cs c H1 H2. left. eauto.
  Qed.

  Lemma reassign_spec h n : own h -> (forall c, In c dl -> has_tombstone h c = true) ->
    let r := reassign k dl h n in
    keep h (fst r) /\ newl notD h (fst r) /\
    (snd r = Ok true -> In n dl \/ clean dl (fst r) n).
  Proof.
    intros Ho HD. unfold reassign.
    assert (Hself : keep h h /\ newl notD h h) by (split; [apply keep_refl|apply newl_refl]).
    destruct (k_break_reassign k n); cbn [fst snd].
    { split; [apply Hself|]. split; [apply Hself|discriminate]. }
    destruct (node_by_id h n) as [v|] eqn:Ev; cbn [fst snd].
    2:{ split; [apply Hself|]. split; [apply Hself|]. intros _. right. intros v. congruence. }
    set (hl := load h n). pose proof (load_keep h n) as Kl. fold hl in Kl.
    assert (Nl : newl notD h hl) by (apply newl_ext; intros; apply load_node).
    assert (Evl : node_by_id hl n = Some v) by (unfold hl; now rewrite load_node).
    pose proof (kp_own _ _ Kl Ho) as Hol.
    pose proof (Ho _ _ Ev) as Hid.
    assert (Herr : forall x : res bool, x <> Ok true ->
      keep h (fst (hl, x)) /\ newl notD h (fst (hl, x)) /\ (snd (hl, x) = Ok true -> In n dl \/ clean dl (fst (hl, x)) n)).
    { intros x Hx. cbn. split; [exact Kl|]. split; [exact Nl|congruence]. }
    destruct (memN (v_id v) dl) eqn:Em; cbn [fst snd].
    { split; [exact Kl|]. split; [exact Nl|]. intros _. left. apply memN_In in Em. congruence. }
    assert (Hnd : ~ In n dl) by (rewrite <- Hid; now apply memN_notIn).
    destruct (k_vec k n) as [q|e| |]; try (apply Herr; discriminate).
    destruct (points_to (v_conns v) dl) eqn:Ep; cbn [negb fst snd].
    2:{ split; [exact Kl|]. split; [exact Nl|]. intros _. right.
        intros v0 l cs c H0 H1 H2. assert (v0 = v) by congruence. subst v0.
        eapply points_to_false; eauto. }
    destruct (best_entrypoint (k_env k n) hl q (v_level v) (h_maxl hl - v_level v) (h_ep hl)) as [ep|e| |];
      try (apply Herr; discriminate).
    destruct (N.eqb ep n); cbn [fst snd].
    - assert (Hn : node_by_id hl (v_id (set_conns v (repeat [] (S (v_level v))))) = Some v) by (cbn; now rewrite Hid).
      split; [eapply keep_trans; [exact Kl|apply (keep_put _ _ _ Hn); reflexivity]|].
      assert (Hnil : forall l cs c, nth_error (repeat (@nil N) (S (v_level v))) l = Some cs -> In c cs -> False).
      { intros l cs c H1 H2. apply nth_error_In, repeat_spec in H1. subst. destruct H2. }
      split.
      + eapply newl_trans; [exact Nl|]. apply (newl_put _ _ _ _ Hn).
        intros l cs c H1 H2. cbn [v_conns set_conns] in H1. exfalso. eauto.
      + intros _. right. intros v0 l cs c H0 H1 H2. rewrite node_put in H0. cbn [v_id set_conns] in H0.
        rewrite Hid, N.eqb_refl in H0. inversion H0; subst v0. cbn [v_conns set_conns] in H1. exfalso. eauto.
    - set (v1 := set_maint (set_conns v (map (fun _ => []) (v_conns v))) true).
      assert (Hn : node_by_id hl (v_id v1) = Some v) by (cbn; now rewrite Hid).
      set (h1 := put_node hl v1).
      assert (K1 : keep hl h1) by (apply (keep_put _ _ _ Hn); reflexivity).
      assert (N1 : newl notD hl h1).
      { apply (newl_put _ _ _ _ Hn). cbn [v_conns v1 set_maint set_conns]. intros l cs c H1 H2.
        exfalso. eapply nth_nils; eauto. }
      pose proof (kp_own _ _ K1 Hol) as Ho1.
      assert (HD1 : forall c, In c dl -> has_tombstone h1 c = true).
      { intros c Hc. unfold has_tombstone.
        rewrite (proj1 (kp_tomb _ _ K1)), (proj1 (kp_tomb _ _ Kl)). exact (HD c Hc). }
      assert (C1 : clean dl h1 n).
      { intros v0 l cs c H0 H1 H2. unfold h1 in H0. rewrite node_put in H0. cbn [v_id v1 set_maint set_conns] in H0.
        rewrite Hid, N.eqb_refl in H0. inversion H0; subst v0. cbn [v_conns v1 set_maint set_conns] in H1.
        exfalso. eapply nth_nils; eauto. }
      set (m := Nat.min (v_level v) (h_maxl hl)).
      pose proof (connect_levels_keep (k_env k n) dl n q m h1 ep Ho1) as K2.
      pose proof (connect_levels_live (k_env k n) dl (Hsc n) (fun c => In c dl) n q m h1 ep Ho1 HD1 Hnd) as N2.
      destruct (connect_levels_deny (k_env k n) dl h1 n q m ep) as [h2 [[]|e| |]]; cbn [fst snd] in *;
        try (split; [eapply keep_trans; [exact Kl|]; eapply keep_trans; eauto|];
             split; [eapply newl_trans; [exact Nl|]; eapply newl_trans; eauto|discriminate]).
      pose proof (kp_own _ _ K2 Ho1) as Ho2.
      destruct (node_by_id h2 n) as [v2|] eqn:E2.
      + destruct (set_maint_put notD h2 v2 n false Ho2 E2) as [K3 N3].
        split; [eapply keep_trans; [exact Kl|]; eapply keep_trans; [exact K1|]; eapply keep_trans; eauto|].
        split; [eapply newl_trans; [exact Nl|]; eapply newl_trans; [exact N1|]; eapply newl_trans; eauto|].
        intros _. right. eapply clean_newl; [exact C1|]. eapply newl_trans; eauto.
      + split; [eapply keep_trans; [exact Kl|]; eapply keep_trans; eauto|].
        split; [eapply newl_trans; [exact Nl|]; eapply newl_trans; eauto|].
        intros _. right. eapply clean_newl; [exact C1|exact N2].
  Qed.

  (** Re-linking does not lead into [G], unless a vertex of [G] itself is re-linked. *)
  Definition settled (G : N -> Prop) (h : hnsw) (n : N) : Prop :=
    G n -> In n dl \/ clean dl h n \/ forall q, k_vec k n <> Ok q.

  Lemma reassign_sep G h n : own h -> sep G h -> okn G h (h_ep h) -> settled G h n ->
    newl (fun c => ~ G c) h (fst (reassign k dl h n)).
  Proof.
    intros Ho Hs Hep Hg. unfold reassign.
    destruct (k_break_reassign k n); [apply newl_refl|].
    destruct (node_by_id h n) as [v|] eqn:Ev; [|apply newl_refl].
    set (hl := load h n). pose proof (load_keep h n) as Kl. fold hl in Kl.
    assert (Nl : newl (fun c => ~ G c) h hl) by (apply newl_ext; intros; apply load_node).
    pose proof (kp_own _ _ Kl Ho) as Hol. pose proof (Ho _ _ Ev) as Hid.
    destruct (memN (v_id v) dl) eqn:Em; [exact Nl|].
    assert (Hnd : ~ In n dl) by (rewrite <- Hid; now apply memN_notIn).
    destruct (k_vec k n) as [q|e| |] eqn:Eq; try exact Nl.
    destruct (points_to (v_conns v) dl) eqn:Ep; [|exact Nl]. cbn [negb].
    assert (Hng : ~ G n).
    { intros Hgn. destruct (Hg Hgn) as [H|[H|H]]; [auto| |now apply (H q)].
      unfold points_to in Ep. apply existsb_exists in Ep. destruct Ep as (cs & H1 & H2).
      apply existsb_exists in H2. destruct H2 as (c & H2 & H3). apply memN_In in H3.
      apply In_nth_error in H1. destruct H1 as (l & H1). eapply H; eauto. }
    assert (Hsl : sep G hl) by (eapply sep_newl; eauto).
    assert (Hepl : okn G hl (h_ep hl)).
    { rewrite (proj1 (kp_ep _ _ Kl)). eapply okn_keep; eauto. }
    destruct (best_entrypoint (k_env k n) hl q (v_level v) (h_maxl hl - v_level v) (h_ep hl)) as [ep|e| |] eqn:Eb;
      try exact Nl.
    pose proof (best_entrypoint_ok (k_env k n) (Hsc n) G hl q _ _ Hsl _ _ Hepl Eb) as Hok.
    destruct (N.eqb ep n); cbn [fst].
    - assert (Hn : node_by_id hl (v_id (set_conns v (repeat [] (S (v_level v))))) = Some v).
      { cbn. unfold hl. now rewrite Hid, load_node. }
      eapply newl_trans; [exact Nl|]. apply (newl_put _ _ _ _ Hn).
      intros l cs c H1 H2. cbn [v_conns set_conns] in H1. exfalso.
      apply nth_error_In, repeat_spec in H1. subst. destruct H2.
    - set (v1 := set_maint (set_conns v (map (fun _ => []) (v_conns v))) true).
      assert (Hn : node_by_id hl (v_id v1) = Some v) by (cbn; unfold hl; now rewrite Hid, load_node).
      set (h1 := put_node hl v1).
      assert (K1 : keep hl h1) by (apply (keep_put _ _ _ Hn); reflexivity).
      assert (N1 : newl (fun c => ~ G c) hl h1).
      { apply (newl_put _ _ _ _ Hn). cbn [v_conns v1 set_maint set_conns]. intros l cs c H1 H2.
        exfalso. eapply nth_nils; eauto. }
      pose proof (kp_own _ _ K1 Hol) as Ho1.
      set (m := Nat.min (v_level v) (h_maxl hl)).
      pose proof (connect_levels_keep (k_env k n) dl n q m h1 ep Ho1) as K2.
      pose proof (connect_levels_sep (k_env k n) dl (Hsc n) G n q m h1 ep Ho1
        (sep_newl _ _ _ Hsl N1) (okn_keep _ _ _ _ K1 Hok) Hng) as N2.
      destruct (connect_levels_deny (k_env k n) dl h1 n q m ep) as [h2 [[]|e| |]]; cbn [fst snd] in *;
        try (eapply newl_trans; [exact Nl|]; eapply newl_trans; eauto).
      destruct (node_by_id h2 n) as [v2|] eqn:E2; [|exact N2].
      eapply newl_trans; [exact N2|].
      apply (proj2 (set_maint_put (fun c => ~ G c) h2 v2 n false (kp_own _ _ K2 Ho1) E2)).
  Qed.

  Lemma reassign_from_spec m : forall h n, own h -> (forall c, In c dl -> has_tombstone h c = true) ->
    let r := reassign_from k dl h n m in
    keep h (fst r) /\ newl notD h (fst r) /\
    (snd r = Ok true -> forall j, (n <= j < n + N.of_nat m)%N -> In j dl \/ clean dl (fst r) j) /\
    forall G, sep G h -> okn G h (h_ep h) -> (forall j, settled G h j) -> newl (fun c => ~ G c) h (fst r).
  Proof.
    induction m as [|m IH]; intros h n Ho HD; cbn [reassign_from].
    - cbn. split; [apply keep_refl|]. split; [apply newl_refl|]. split; [intros _ j Hj; lia|]. intros. apply newl_refl.
    - destruct (reassign_spec h n Ho HD) as (K1 & N1 & C1).
      pose proof (fun G => reassign_sep G h n Ho) as S1.
      destruct (reassign k dl h n) as [h1 r1]. cbn [fst snd] in *.
      assert (Hstop : r1 <> Ok true ->
        keep h h1 /\ newl notD h h1 /\ (r1 = Ok true -> forall j, (n <= j < n + N.of_nat (S m))%N -> In j dl \/ clean dl h1 j) /\
        forall G, sep G h -> okn G h (h_ep h) -> (forall j, settled G h j) -> newl (fun c => ~ G c) h h1).
      { intros Hr. split; [exact K1|]. split; [exact N1|]. split; [congruence|]. intros G H1 H2 H3. auto. }
      destruct r1 as [[|]|e| |]; try (apply Hstop; discriminate).
      assert (HD1 : forall c, In c dl -> has_tombstone h1 c = true).
      { intros c Hc. unfold has_tombstone. rewrite (proj1 (kp_tomb _ _ K1)). exact (HD c Hc). }
      destruct (IH h1 (n + 1)%N (kp_own _ _ K1 Ho) HD1) as (K2 & N2 & C2 & S2).
      destruct (reassign_from k dl h1 (n + 1) m) as [h2 r2]. cbn [fst snd] in *.
      split; [eapply keep_trans; eauto|]. split; [eapply newl_trans; eauto|]. split.
      + intros Hr j Hj. destruct (N.eq_dec j n) as [->|Hne].
        * destruct (C1 eq_refl) as [H|H]; [now left|right]. eapply clean_newl; eauto.
        * apply (C2 Hr). lia.
      + intros G H1 H2 H3. eapply newl_trans; [eauto|]. apply S2.
        * eapply sep_newl; eauto.
        * rewrite (proj1 (kp_ep _ _ K1)). eapply okn_keep; eauto.
        * intros j Hg. destruct (H3 j Hg) as [H|[H|H]]; [now left|right; left|auto]. eapply clean_newl; eauto.
  Qed.
End Clean.

(** Removal. *)
Lemma remove_one_node k h id : let h' := fst (remove_one k h id) in
  (forall j, j <> id -> node_by_id h' j = node_by_id h j) /\
  (forall j v, node_by_id h' j = Some v -> node_by_id h j = Some v) /\
  (forall x, In x (h_tomb h') <-> In x (h_tomb h) /\ x <> id) /\
  h_ep h' = h_ep h /\ h_maxl h' = h_maxl h /\ h_kv_ep h' = h_kv_ep h /\ h_cache h' = h_cache h.
Proof.
  unfold remove_one. set (h0 := with_tomb h _).
  assert (Ht : forall x, In x (h_tomb h0) <-> In x (h_tomb h) /\ x <> id).
  { intros x. cbn [h0 with_tomb h_tomb]. rewrite filter_In. destruct (N.eqb_spec x id); cbn; intuition congruence. }
  assert (H0 : forall j, node_by_id h0 j = node_by_id h j) by reflexivity.
  destruct (k_break_remove k id); cbn [fst].
  { split; [auto|]. split; [auto|]. split; [exact Ht|]. auto. }
  destruct (k_delete_fails k id); cbn [fst].
  { split; [auto|]. split; [auto|]. split; [exact Ht|]. auto. }
  assert (Hd : forall j, node_by_id (with_kv h0 (mdel id (h_kv h0)) (h_kv_ep h0) (h_kv_count h0)) j =
     match mget j (h_cache h) with Some v => Some v | None => if N.eqb j id then None else mget j (h_kv h) end).
  { intros j. unfold node_by_id. cbn [h_cache h_kv with_kv h0 with_tomb].
    destruct (mget j (h_cache h)); [reflexivity|]. destruct (N.eqb_spec j id) as [->|Hne].
    - now rewrite mget_mdel_eq.
    - now rewrite mget_mdel_ne by auto. }
  split; [|split; [|split; [exact Ht|auto]]].
  - intros j Hj. rewrite Hd. unfold node_by_id. destruct (mget j (h_cache h)); [reflexivity|].
    destruct (N.eqb_spec j id); [contradiction|reflexivity].
  - intros j v. rewrite Hd. unfold node_by_id. destruct (mget j (h_cache h)); [auto|].
    destruct (N.eqb j id); [discriminate|auto].
Qed.

Lemma remove_all_node k dl : forall h, let h' := fst (remove_all k h dl) in
  (forall j, ~ In j dl -> node_by_id h' j = node_by_id h j) /\
  (forall j v, node_by_id h' j = Some v -> node_by_id h j = Some v) /\
  (forall x, In x (h_tomb h') -> In x (h_tomb h)) /\
  (snd (remove_all k h dl) = Ok tt -> forall x, In x (h_tomb h') -> ~ In x dl) /\
  h_ep h' = h_ep h /\ h_maxl h' = h_maxl h /\ h_kv_ep h' = h_kv_ep h /\ h_cache h' = h_cache h.
Proof.
  induction dl as [|id dl IH]; intros h; cbn [remove_all].
  - cbn. split; [auto|]. split; [auto|]. split; [auto|]. split; [auto|]. auto.
  - pose proof (remove_one_node k h id) as (A1 & A2 & A3 & A4 & A5 & A6 & A7).
    destruct (remove_one k h id) as [h1 [|]]; cbn [fst snd] in *.
    + destruct (IH h1) as (B1 & B2 & B3 & B4 & B5 & B6 & B7 & B8).
      split; [intros j Hj; rewrite B1, A1; [reflexivity|intros ->; apply Hj; now left|intros H; apply Hj; now right]|].
      split; [auto|]. split; [intros x Hx; apply A3; auto|].
      split; [|split; [congruence|split; [congruence|split; congruence]]].
      intros Hr x Hx [->|Hin]; [|eapply B4; eauto]. apply B3, A3 in Hx. tauto.
    + split; [intros j Hj; apply A1; intros ->; apply Hj; now left|].
      split; [auto|]. split; [intros x Hx; apply A3; auto|]. split; [discriminate|]. auto.
Qed.

(** What a clean-up can end in. *)
Definition dense (h : hnsw) : Prop :=
  forall id v, node_by_id h id = Some v -> (id < N.of_nat (kv_count h))%N.

(** The clean-up was interrupted before the removal. *)
Definition broke (k : korc) : Prop :=
  k_break_copy k = true \/ (exists n, k_break_reassign k n = true) \/ k_break_replace k = true.

Lemma reassign_from_break k dl m : forall h n, snd (reassign_from k dl h n m) = Ok false ->
  exists j, k_break_reassign k j = true.
Proof.
  induction m as [|m IH]; intros h n; cbn [reassign_from]; [discriminate|].
  destruct (reassign k dl h n) as [h1 r1] eqn:Er. destruct r1 as [[|]|e| |]; try discriminate; [apply IH|].
  intros _. exists n. unfold reassign in Er.
  destruct (k_break_reassign k n); [reflexivity|].
  destruct (node_by_id h n) as [v|]; [|discriminate].
  destruct (memN (v_id v) dl); [discriminate|].
  destruct (k_vec k n) as [q|e| |]; try discriminate.
  destruct (negb (points_to (v_conns v) dl)); [discriminate|].
  destruct (best_entrypoint _ _ _ _ _ _) as [ep|e| |]; try discriminate.
  destruct (N.eqb ep n); [discriminate|].
  destruct (connect_levels_deny _ _ _ _ _ _ _) as [h2 [u|e| |]]; discriminate.
Qed.

Lemma cleanup_cases k h : (forall n, sched_ok (i_env (k_env k n))) -> own h ->
  let T := fun c => In c (h_tomb h) in
  let '(h', r, l) := cleanup k h in
  exists h1, keep h h1 /\ newl (fun c => ~ T c) h h1 /\
    (forall G, sep G h -> okn G h (h_ep h) -> (forall j, settled k (delete_list h) G h j) -> newl (fun c => ~ G c) h h1) /\
    ((h' = h1 /\ (r = Ok true -> broke k)) \/
     ((dense h -> sep T h1) /\ exists h2 r2, remove_all k h1 (delete_list h) = (h2, r2) /\
        ((r2 = Ok tt /\ r = Ok true /\ h' = reset_if_empty k h2) \/ (r2 <> Ok tt /\ r <> Ok true /\ h' = h2)))).
Proof.
  intros Hsc Ho T. unfold cleanup.
  assert (Hself : forall (r : res bool) (l : locks), (r = Ok true -> broke k) ->
    exists h1, keep h h1 /\ newl (fun c => ~ T c) h h1 /\
    (forall G, sep G h -> okn G h (h_ep h) -> (forall j, settled k (delete_list h) G h j) -> newl (fun c => ~ G c) h h1) /\
    ((h = h1 /\ (r = Ok true -> broke k)) \/
     ((dense h -> sep T h1) /\ exists h2 r2, remove_all k h1 (delete_list h) = (h2, r2) /\
        ((r2 = Ok tt /\ r = Ok true /\ h = reset_if_empty k h2) \/ (r2 <> Ok tt /\ r <> Ok true /\ h = h2))))).
  { intros r l Hl. exists h. split; [apply keep_refl|]. split; [apply newl_refl|].
    split; [intros; apply newl_refl|]. left. auto. }
  destruct (k_break_copy k) eqn:Ebc; [apply Hself; [exact no_locks|discriminate]|].
  destruct (delete_list h) as [|d0 dl0] eqn:Edl; [apply Hself; [exact no_locks|discriminate]|]. rewrite <- Edl in *.
  set (dl := delete_list h) in *. clear d0 dl0 Edl Hself.
  assert (HdT : forall c, In c dl <-> T c) by (intros c; apply delete_list_In).
  unfold reassign_all. destruct (k_count_fails k).
  { exists h. split; [apply keep_refl|]. split; [apply newl_refl|].
    split; [intros; apply newl_refl|]. left. split; [reflexivity|discriminate]. }
  assert (HD : forall c, In c dl -> has_tombstone h c = true).
  { intros c Hc. unfold has_tombstone. apply memN_In. now apply HdT. }
  destruct (reassign_from_spec k dl Hsc (kv_count h) h 0%N Ho HD) as (K1 & N1 & C1 & S1).
  pose proof (reassign_from_break k dl (kv_count h) h 0%N) as Hbr.
  destruct (reassign_from k dl h 0 (kv_count h)) as [h1 r1]. cbn [fst snd] in *.
  assert (N1' : newl (fun c => ~ T c) h h1).
  { eapply newl_weaken; [|exact N1]. intros c Hc Ht. apply Hc. now apply HdT. }
  destruct r1 as [[|]|e| |];
    try (exists h1; split; [exact K1|]; split; [exact N1'|]; split; [exact S1|]; left;
         split; [reflexivity|]; try discriminate; intros _; right; left; apply Hbr; reflexivity).
  set (h1' := fold_left load (k_loads k) h1).
  assert (K1' : keep h h1') by (eapply keep_trans; [exact K1|apply loads_keep]).
  assert (Hn1 : forall id, node_by_id h1' id = node_by_id h1 id) by (intros; apply loads_node).
  assert (N2 : newl (fun c => ~ T c) h h1').
  { eapply newl_trans; [exact N1'|]. now apply newl_ext. }
  assert (S2 : forall G, sep G h -> okn G h (h_ep h) -> (forall j, settled k dl G h j) -> newl (fun c => ~ G c) h h1').
  { intros G A B C. eapply newl_trans; [apply S1; auto|]. now apply newl_ext. }
  assert (Hsep : dense h -> sep T h1').
  { intros Hd id v l cs c Hg Hv Hl Hc Ht. rewrite Hn1 in Hv.
    destruct (kp_bw _ _ K1 _ _ Hv) as (v0 & Hv0).
    destruct (C1 eq_refl id) as [H|H]; [specialize (Hd _ _ Hv0); lia| |].
    - apply Hg. now apply HdT.
    - eapply H; eauto. now apply HdT. }
  assert (Hrep : replace_ep k dl h1' = Ok false -> k_break_replace k = true).
  { unfold replace_ep. destruct (k_break_replace k); [auto|]. destruct (_ && _); discriminate. }
  destruct (replace_ep k dl h1') as [[|]|e| |];
    try (exists h1'; split; [exact K1'|]; split; [exact N2|]; split; [exact S2|]; left;
         split; [reflexivity|]; try discriminate; intros _; right; right; apply Hrep; reflexivity).
  destruct (remove_all k h1' dl) as [h2 r2] eqn:Er.
  destruct r2 as [[]|e| |]; exists h1'; (split; [exact K1'|]; split; [exact N2|]; split; [exact S2|]; right;
    split; [exact Hsep|]; exists h2; eexists; split; [exact Er|]).
  - left. auto.
  - right. split; [discriminate|]. split; [discriminate|reflexivity].
  - right. split; [discriminate|]. split; [discriminate|reflexivity].
  - right. split; [discriminate|]. split; [discriminate|reflexivity].
Qed.

(* ------------------------------------------------------------------ *)
(** Answers. *)

Section Answers.
  Variable E : env.
  Variable h : hnsw.
  Variable G : N -> Prop.
  Hypothesis Hsc : sched_ok E.
  Hypothesis Hs : sep G h.

  Lemma layer_ok q ef l allow ep r : okn G h (it_id ep) ->
    search_layer E h q ef l allow (pq_insert less_min ep []) = Ok r ->
    forall x, In x r -> okn G h (it_id x) /\ has_tombstone h (it_id x) = false.
  Proof.
    intros Hep Hr. eapply (layer_in E h q ef l allow (okn G h)); eauto.
    intros b vb cs c w (Hb & _) Hvb Hn Hc Hw. split; [|eauto]. eapply Hs; eauto.
  Qed.

  Lemma descend_ok q l : forall ep d e, okn G h ep -> descend E h q l ep d = Ok e -> okn G h (fst e).
  Proof.
    induction l as [|l IH]; intros ep d e Hep H; cbn [descend] in H; [inversion H; subst; exact Hep|].
    apply bind_Ok in H. destruct H as (r & Hr & H).
    destruct (pq_pop less_max r) as [[x r']|] eqn:Ep; [|eauto].
    eapply IH; [|exact H]. eapply (layer_ok _ _ _ _ (mkItem ep d)); [exact Hep|exact Hr|].
    eapply Permutation_in; [symmetry; eapply pop_perm; eauto|now left].
  Qed.

  Lemma pick_entry_In rs x : pick_entry h rs = Some x -> In x rs.
  Proof.
    induction rs as [|y rs IH]; cbn [pick_entry]; [discriminate|].
    destruct (node_by_id h (it_id y)) as [v|]; [|intros H; right; auto].
    destruct (v_maint v); [intros H; right; auto|]. intros [= ->]. now left.
  Qed.

  Lemma descend_maint_ok q l : forall ep d e, okn G h ep -> descend_maint E h q l ep d = Ok e -> okn G h (fst e).
  Proof.
    induction l as [|l IH]; intros ep d e Hep H; cbn [descend_maint] in H; [inversion H; subst; exact Hep|].
    apply bind_Ok in H. destruct H as (r & Hr & H).
    destruct (pick_entry h (pq_drain less_max r)) as [x|] eqn:Ep; [|eauto].
    eapply IH; [|exact H]. eapply (layer_ok _ _ _ _ (mkItem ep d)); [exact Hep|exact Hr|].
    apply pick_entry_In in Ep. eapply Permutation_in; [symmetry; apply drain_perm|exact Ep].
  Qed.

  Lemma pop_to_In f : forall r k x, In x (pop_to f r k) -> In x r.
  Proof.
    induction f as [|f IH]; intros r k x; cbn [pop_to]; [auto|].
    destruct (k <? _)%Z; [|auto]. destruct (pq_pop less_max r) as [[y r']|] eqn:Ep; [|auto].
    intros Hx. apply IH in Hx. eapply Permutation_in; [symmetry; eapply pop_perm; eauto|now right].
  Qed.

  Lemma knn_max_dist_ok q0 maxd ef allow ids ds : okn G h (h_ep h) ->
    knn_max_dist E h q0 maxd ef allow = Ok (ids, ds) ->
    forall id, In id ids -> okn G h id /\ has_tombstone h id = false.
  Proof.
    intros Hep H. unfold knn_max_dist in H.
    apply bind_Ok in H. destruct H as (d & _ & H).
    apply bind_Ok in H. destruct H as (e & He & H).
    apply bind_Ok in H. destruct H as (r & Hr & H). inversion H; subst.
    intros id Hid. apply in_map_iff in Hid. destruct Hid as (x & <- & Hx).
    apply cut_sub in Hx. destruct Hx as [Hx _]. apply in_rev in Hx.
    eapply (layer_ok _ _ _ _ (mkItem (fst e) (snd e))); [|exact Hr|].
    - eapply descend_ok; eauto.
    - eapply Permutation_in; [symmetry; apply drain_perm|exact Hx].
  Qed.

  Lemma knn_search_ok q k ef allow ids ds : okn G h (h_ep h) ->
    knn_search E h q k ef allow = Ok (ids, ds) ->
    forall id, In id ids -> okn G h id /\ has_tombstone h id = false.
  Proof.
    intros Hep H. unfold knn_search in H. destruct (is_empty h); [inversion H; subst; intros id []|].
    apply bind_Ok in H. destruct H as (d & _ & H).
    apply bind_Ok in H. destruct H as (e & He & H).
    apply bind_Ok in H. destruct H as (r & Hr & H).
    destruct (k <? 0)%Z; [discriminate|]. inversion H; subst.
    intros id Hid. apply in_map_iff in Hid. destruct Hid as (x & <- & Hx).
    apply in_rev in Hx.
    eapply (layer_ok _ _ _ _ (mkItem (fst e) (snd e))); [|exact Hr|].
    - eapply descend_maint_ok; eauto.
    - eapply pop_to_In. eapply Permutation_in; [symmetry; apply drain_perm|exact Hx].
  Qed.
End Answers.

(* ------------------------------------------------------------------ *)
(** Adding. *)

Lemma newl_put_new (R : N -> Prop) h v :
  (forall l cs c, nth_error (v_conns v) l = Some cs -> In c cs -> False) -> newl R h (put_node h v).
Proof.
  intros H j v' l cs' c. rewrite node_put. destruct (N.eqb_spec j (v_id v)) as [->|].
  - intros [= <-] Hn Hc. exfalso. eauto.
  - intros H1 H2 H3. left. eauto.
Qed.

Lemma own_put h v : own h -> own (put_node h v).
Proof.
  intros Ho id w. rewrite node_put. destruct (N.eqb_spec id (v_id v)) as [->|]; [|apply Ho].
  intros [= <-]. reflexivity.
Qed.

Lemma okn_put G h v id : okn G h id -> okn G (put_node h v) id.
Proof.
  intros (H1 & w & Hw). split; [exact H1|]. rewrite node_put. destruct (N.eqb id (v_id v)); eauto.
Qed.

Lemma nth_repeat_nil n l (cs : list N) c : nth_error (repeat (@nil N) n) l = Some cs -> In c cs -> False.
Proof. intros H1 H2. apply nth_error_In, repeat_spec in H1. subst. destruct H2. Qed.

Lemma add_sep I G h id q0 t : sched_ok (i_env I) -> own h -> sep G h -> okn G h (h_ep h) -> ~ G id ->
  let h' := fst (add I h id q0 t) in
  own h' /\ sep G h' /\ okn G h' (h_ep h') /\ h_tomb h' = h_tomb h /\ (h_ep h' = h_ep h \/ h_ep h' = id).
Proof.
  intros Hsc Ho Hs Hep Hid. unfold add. destruct q0 as [|a q0]; [cbn; auto 6|].
  set (q := p_normalize _ _). unfold insert. set (hh := with_once h).
  assert (Hn : forall j, node_by_id hh j = node_by_id h j) by reflexivity.
  change (h_once h) with (h_once h). destruct (negb (h_once h) && is_empty h).
  - unfold insert_initial. set (v := mkV id 0 [[]] false q false).
    set (h' := put_node (with_ep hh id 0) v).
    assert (A : own h' /\ sep G h' /\ okn G h' (h_ep h') /\ h_tomb h' = h_tomb h /\ (h_ep h' = h_ep h \/ h_ep h' = id)).
    { split; [apply own_put; exact Ho|]. split.
      - eapply sep_newl; [exact Hs|]. eapply (newl_trans _ h (with_ep hh id 0)); [apply newl_ext; reflexivity|].
        apply newl_put_new. cbn [v_conns v]. intros l cs c H1 H2.
        destruct l as [|l]; cbn in H1; [inversion H1; subst; destruct H2|destruct l; discriminate].
      - split; [|cbn; auto]. cbn [h' h_ep put_node with_cache with_ep]. split; [exact Hid|].
        exists v. unfold h'. rewrite node_put. cbn. now rewrite N.eqb_refl. }
    destruct (N.ltb id (i_vcsize I)); exact A.
  - unfold insert_linked. destruct (negb (N.ltb id (i_vcsize I))).
    { cbn [fst]. split; [exact Ho|]. split; [exact Hs|]. split; [exact Hep|]. cbn; auto. }
    set (h1 := put_node hh (new_vertex id q t)).
    assert (Ho1 : own h1) by (apply own_put; exact Ho).
    assert (N1 : newl (fun c => ~ G c) hh h1).
    { apply newl_put_new. cbn [v_conns new_vertex]. intros l cs c. apply nth_repeat_nil. }
    assert (Hs1 : sep G h1) by (eapply sep_newl; [exact Hs|exact N1]).
    assert (Hep1 : okn G h1 (h_ep h)) by (apply okn_put; exact Hep).
    change (h_ep hh) with (h_ep h). change (h_maxl hh) with (h_maxl h).
    assert (A1 : own h1 /\ sep G h1 /\ okn G h1 (h_ep h1) /\ h_tomb h1 = h_tomb h /\ (h_ep h1 = h_ep h \/ h_ep h1 = id)).
    { split; [exact Ho1|]. split; [exact Hs1|]. split; [exact Hep1|]. cbn; auto. }
    destruct (best_entrypoint I h1 q t (h_maxl h - t) (h_ep h)) as [ep|e| |] eqn:Eb; try exact A1.
    pose proof (best_entrypoint_ok I Hsc G h1 q _ _ Hs1 _ _ Hep1 Eb) as Hok.
    rewrite <- connect_levels_deny_nil.
    pose proof (connect_levels_keep I [] id q (Nat.min t (h_maxl h)) h1 ep Ho1) as K2.
    pose proof (connect_levels_sep I [] Hsc G id q (Nat.min t (h_maxl h)) h1 ep Ho1 Hs1 Hok Hid) as N2.
    assert (A2 : forall h2, keep h1 h2 -> newl (fun c => ~ G c) h1 h2 ->
      own h2 /\ sep G h2 /\ okn G h2 (h_ep h2) /\ h_tomb h2 = h_tomb h /\ (h_ep h2 = h_ep h \/ h_ep h2 = id)).
    { intros h2 K N. split; [exact (kp_own _ _ K Ho1)|]. split; [eapply sep_newl; eauto|].
      assert (h_ep h2 = h_ep h) by (rewrite (proj1 (kp_ep _ _ K)); reflexivity).
      split; [rewrite H; eapply okn_keep; eauto|].
      split; [rewrite (proj1 (kp_tomb _ _ K)); reflexivity|auto]. }
    destruct (connect_levels_deny I [] h1 id q (Nat.min t (h_maxl h)) ep) as [h2 [[]|e| |]]; cbn [fst] in *; auto.
    assert (Hv2 : exists v2, node_by_id h2 id = Some v2).
    { destruct (kp_fw _ _ K2 id (new_vertex id q t)) as (v2 & H & _); [|eauto].
      unfold h1. rewrite node_put. cbn. now rewrite N.eqb_refl. }
    destruct Hv2 as [v2 Hv2]. unfold finish_insert. rewrite Hv2.
    destruct (set_maint_put (fun c => ~ G c) h2 v2 id false (kp_own _ _ K2 Ho1) Hv2) as [K3 N3].
    set (h3 := put_node h2 (set_maint v2 false)) in *.
    destruct (A2 h3 (keep_trans _ _ _ K2 K3) (newl_trans _ _ _ _ N2 N3)) as (B1 & B2 & B3 & B4 & B5).
    destruct (Nat.ltb (h_maxl h3) t); [|auto].
    split; [exact B1|]. split; [exact B2|]. split; [|cbn [with_ep h_ep h_tomb]; auto].
    split; [exact Hid|]. destruct (kp_fw _ _ K3 _ _ Hv2) as (v3 & H3 & _). exists v3. exact H3.
Qed.

(* ------------------------------------------------------------------ *)
(** Flush changes no link. *)

Definition eqc (h h' : hnsw) : Prop :=
  (forall id, option_map stored (node_by_id h' id) = option_map stored (node_by_id h id)) /\
  h_ep h' = h_ep h /\ h_maxl h' = h_maxl h /\ h_tomb h' = h_tomb h /\ h_once h' = h_once h.

Lemma eqc_refl h : eqc h h.
Proof. repeat split; auto. Qed.

Lemma eqc_trans h1 h2 h3 : eqc h1 h2 -> eqc h2 h3 -> eqc h1 h3.
Proof.
  intros (A1 & A2 & A3 & A4 & A5) (B1 & B2 & B3 & B4 & B5).
  split; [intros; now rewrite B1|]. repeat split; congruence.
Qed.

Lemma eqc_node h h' id v' : eqc h h' -> node_by_id h' id = Some v' ->
  exists v, node_by_id h id = Some v /\ v_conns v = v_conns v' /\ v_id v = v_id v' /\ v_vec v = v_vec v'.
Proof.
  intros (A & _) H. specialize (A id). rewrite H in A. cbn in A.
  destruct (node_by_id h id) as [v|]; [|discriminate]. exists v. split; [reflexivity|].
  cbn in A. inversion A. auto.
Qed.

Lemma eqc_sym h h' : eqc h h' -> eqc h' h.
Proof. intros (A1 & A2 & A3 & A4 & A5). split; [intros; now rewrite A1|]. repeat split; congruence. Qed.

Definition puts_now (h : hnsw) (w : kvput) : Prop :=
  match w with
  | PutNode v => option_map stored (node_by_id h (v_id v)) = Some (stored v)
  | _ => True
  end.

Lemma put_eqc h w : puts_now h w -> eqc h (mark_put (do_put h w) w).
Proof.
  destruct w as [v|e|c]; intros H; [|split; [reflexivity|repeat split]..].
  cbn [puts_now mark_put] in *. cbn [do_put].
  set (h1 := with_kv h (mset (v_id v) (stored v) (h_kv h)) (h_kv_ep h) (h_kv_count h)).
  change (h_cache h1) with (h_cache h).
  destruct (mget (v_id v) (h_cache h)) as [w|] eqn:Ec.
  - split; [|repeat split]. intros id. rewrite node_put. cbn [v_id set_committed].
    destruct (N.eqb_spec id (v_id v)) as [->|Hne].
    + rewrite H. reflexivity.
    + unfold node_by_id. cbn [h1 h_cache h_kv with_kv]. rewrite mget_mset.
      destruct (N.eqb_spec id (v_id v)); [contradiction|reflexivity].
  - split; [|repeat split]. intros id. unfold node_by_id in *. cbn [h1 h_cache h_kv with_kv]. rewrite mget_mset.
    destruct (N.eqb_spec id (v_id v)) as [->|Hne]; [|reflexivity].
    rewrite Ec in *. rewrite H. reflexivity.
Qed.

Lemma puts_now_eqc h h' w : eqc h h' -> puts_now h w -> puts_now h' w.
Proof. intros (A & _). destruct w; cbn; auto. now rewrite A. Qed.

Lemma puts_eqc ws : forall h, Forall (puts_now h) ws -> eqc h (fold_left (fun h w => mark_put (do_put h w) w) ws h).
Proof.
  induction ws as [|w ws IH]; intros h H; cbn [fold_left]; [apply eqc_refl|].
  inversion H; subst. pose proof (put_eqc h w H2) as E1. eapply eqc_trans; [exact E1|]. apply IH.
  eapply Forall_impl; [|exact H3]. intros a. now apply puts_now_eqc.
Qed.

Lemma node_puts_now h keys : own h -> Forall (puts_now h) (fst (node_puts h keys)).
Proof.
  intros Ho. induction keys as [|k keys IH]; cbn [node_puts]; [constructor|].
  destruct (node_by_id h k) as [v|] eqn:Ev; [|exact IH]. destruct (v_committed v); [exact IH|].
  destruct (json_ok v); [|constructor].
  destruct (node_puts h keys) as [ws ok]. cbn [fst] in *. constructor; [|exact IH].
  cbn. now rewrite (Ho _ _ Ev), Ev.
Qed.

Lemma flush_eqc h keys cnt n : own h -> eqc h (fst (flush h keys cnt n)).
Proof.
  intros Ho. unfold flush, flush_plan. pose proof (node_puts_now h keys Ho) as F.
  destruct (node_puts h keys) as [ws ok]. cbn [fst] in F.
  assert (F' : Forall (puts_now h) (ws ++ [PutEp (h_ep h); PutCount cnt])).
  { apply Forall_app. split; [exact F|]. constructor; [exact Logic.I|]. constructor; [exact Logic.I|constructor]. }
  assert (Hf : forall l, Forall (puts_now h) l -> Forall (puts_now h) (firstn n l)).
  { intros l. rewrite !Forall_forall. intros H x Hx. apply H.
    rewrite <- (firstn_skipn n l). apply in_or_app. now left. }
  destruct ok; cbn [fst]; apply puts_eqc; auto.
Qed.

Lemma eqc_sep G h h' : eqc h h' -> own h -> sep G h -> okn G h (h_ep h) ->
  own h' /\ sep G h' /\ okn G h' (h_ep h').
Proof.
  intros E Ho Hs (Hg & v & Hv). split; [|split].
  - intros id v' H. destruct (eqc_node _ _ _ _ E H) as (w & Hw & _ & Hi & _). rewrite <- Hi. eauto.
  - intros id v' l cs c Hn H Hl Hc. destruct (eqc_node _ _ _ _ E H) as (w & Hw & Hcs & _).
    rewrite <- Hcs in Hl. eapply Hs; eauto.
  - destruct E as (A & B & _). rewrite B. split; [exact Hg|]. specialize (A (h_ep h)). rewrite Hv in A.
    destruct (node_by_id h' (h_ep h)); [eauto|discriminate].
Qed.

(* ------------------------------------------------------------------ *)
(** Delete. *)

Lemma add_tombs_In ids : forall t x,
  In x (fold_left (fun t id => if memN id t then t else id :: t) ids t) <-> In x t \/ In x ids.
Proof.
  induction ids as [|i ids IH]; intros t x; cbn [fold_left]; [cbn; tauto|].
  rewrite IH. destruct (memN i t) eqn:Em; cbn; [|tauto].
  apply memN_In in Em. split; [tauto|]. intros [H|[->|H]]; auto.
Qed.

Lemma delete_one_spec h id : let h' := delete_one h id in
  (forall j, node_by_id h' j = node_by_id h j) /\ h_tomb h' = h_tomb h /\
  (h_ep h <> id -> h_ep h' = h_ep h) /\
  h_kv h' = h_kv h /\ h_kv_ep h' = h_kv_ep h /\ h_kv_count h' = h_kv_count h.
Proof.
  unfold delete_one. destruct (node_by_id h id) as [v|]; [|cbn; auto 6].
  pose proof (load_keep h id) as K. pose proof (load_node h id) as Hn.
  set (hl := load h id) in *. destruct K as [_ _ _ (A1 & A2 & A3) (B1 & _) (C1 & _)].
  destruct (N.eqb_spec (h_ep hl) id) as [He|He].
  - split; [exact Hn|]. split; [exact C1|]. split; [intros; congruence|auto].
  - split; [exact Hn|]. split; [exact C1|]. split; [intros; exact B1|auto].
Qed.

Lemma delete_spec h ids : let h' := delete h ids in
  (forall j, node_by_id h' j = node_by_id h j) /\
  (forall x, In x (h_tomb h') <-> In x (h_tomb h) \/ In x ids) /\
  (~ In (h_ep h) ids -> h_ep h' = h_ep h) /\
  h_kv h' = h_kv h /\ h_kv_ep h' = h_kv_ep h /\ h_kv_count h' = h_kv_count h.
Proof.
  unfold delete.
  assert (Hf : forall l h0, let h' := fold_left delete_one l h0 in
    (forall j, node_by_id h' j = node_by_id h0 j) /\ h_tomb h' = h_tomb h0 /\
    (~ In (h_ep h0) l -> h_ep h' = h_ep h0) /\
    h_kv h' = h_kv h0 /\ h_kv_ep h' = h_kv_ep h0 /\ h_kv_count h' = h_kv_count h0).
  { induction l as [|i l IH]; intros h0; cbn [fold_left]; [cbn; auto 6|].
    destruct (delete_one_spec h0 i) as (A1 & A2 & A3 & A4 & A5 & A6).
    destruct (IH (delete_one h0 i)) as (B1 & B2 & B3 & B4 & B5 & B6).
    split; [intros; now rewrite B1|]. split; [congruence|].
    split; [|split; [congruence|split; congruence]].
    intros Hn. assert (h_ep (delete_one h0 i) = h_ep h0) by (apply A3; intros Hx; apply Hn; left; congruence).
    rewrite <- H. apply B3. rewrite H. intros Hi. apply Hn. now right. }
  destruct (Hf ids (add_tombstones h ids)) as (A1 & A2 & A3 & A4).
  split; [intros j; rewrite A1; reflexivity|]. split; [|split; [exact A3|exact A4]].
  intros x. rewrite A2. unfold add_tombstones. cbn [h_tomb with_tomb]. apply add_tombs_In.
Qed.

(* ------------------------------------------------------------------ *)
(** Histories in which deleted ids stay away. *)

(** The ids deleted in a history. *)
Definition deleted_ids (evs : list devent) : list N :=
  flat_map (fun e => match e with DDelete ids => ids | _ => [] end) evs.

(** [D]: the ids deleted so far.  No deleted id is added again; the entry point
    is not deleted, and a query does not load a deleted one from the table; there
    is no restart.  At a clean-up the table counts more entries than every stored
    id and has an entry point; a vertex removed by an earlier clean-up that is
    still in the node cache has no vector any more or no link to a vertex to be
    removed now.  Interruptions and errors of the clean-up are free. *)
Definition orderly (D : list N) (h : hnsw) (e : devent) : Prop :=
  match e with
  | DEv (EvAdd o) => sched_ok (i_env (a_env o)) /\ ~ In (a_id o) D
  | DEv EvQuery => let ep := match h_kv_ep h with Some e => e | None => 0%N end in
                   ~ In ep D /\ node_by_id h ep <> None
  | DEv (EvFlush _ _ _) => True
  | DEv EvRestart => False
  | DDelete ids => ~ In (h_ep h) ids
  | DCleanup k =>
      (forall n, sched_ok (i_env (k_env k n))) /\ dense h /\
      h_kv_ep h <> None /\ k_empty_fails k = false /\
      (forall n v, In n D -> ~ In n (h_tomb h) -> node_by_id h n = Some v ->
         (forall cs c, In cs (v_conns v) -> In c cs -> ~ In c (h_tomb h)) \/ forall q, k_vec k n <> Ok q)
  end.

Fixpoint orderly_run (D : list N) (h : hnsw) (evs : list devent) : Prop :=
  match evs with
  | [] => True
  | e :: evs => orderly D h e /\ orderly_run (D ++ deleted_ids [e]) (dstep h e) evs
  end.

(** The invariant: some set [G] of removed ids is cut off. *)
Definition away (D : list N) (h : hnsw) : Prop :=
  exists G : N -> Prop, own h /\ sep G h /\
    (forall x, In x D -> G x \/ In x (h_tomb h)) /\ (forall x, G x -> In x D) /\
    (forall x, In x (h_tomb h) -> In x D) /\
    ~ In (h_ep h) D /\ exists v, node_by_id h (h_ep h) = Some v.

Lemma away_step D h e : away D h -> orderly D h e -> away (D ++ deleted_ids [e]) (dstep h e).
Proof.
  intros (G & Ho & Hs & HD & HG & HT & Hnep & v & Hv) Hor.
  assert (Hep : okn G h (h_ep h)) by (split; [intros H; apply Hnep, HG, H|eauto]).
  assert (Happ : forall x : N, In x (D ++ []) <-> In x D) by (intros x; now rewrite app_nil_r).
  destruct e as [[o| |keys cnt n|]|ids|k]; cbn [dstep ev_step fst deleted_ids flat_map orderly] in *.
  - destruct Hor as [Hsc Hid].
    destruct (add_sep (a_env o) G h (a_id o) (a_vec o) (a_lvl o) Hsc Ho Hs Hep) as (B1 & B2 & B3 & B4 & B5).
    { intros H. apply Hid, HG, H. }
    exists G. rewrite app_nil_r, B4. split; [exact B1|]. split; [exact B2|]. split; [exact HD|].
    split; [exact HG|]. split; [exact HT|]. split; [|apply B3]. destruct B5 as [->| ->]; auto.
  - destruct Hor as [Hn Hst]. exists G. rewrite app_nil_r.
    split; [exact Ho|]. split; [exact Hs|]. split; [exact HD|].
    split; [exact HG|]. split; [exact HT|]. split; [exact Hn|].
    change (h_ep (load_ep h)) with (match h_kv_ep h with Some e => e | None => 0%N end).
    destruct (node_by_id h (match h_kv_ep h with Some e => e | None => 0%N end)) as [w|] eqn:Ew; [|congruence].
    exists w. exact Ew.
  - pose proof (flush_eqc h keys cnt n Ho) as E. destruct (eqc_sep G h _ E Ho Hs Hep) as (B1 & B2 & B3).
    destruct E as (_ & E1 & _ & E2 & _).
    exists G. rewrite app_nil_r, E2. split; [exact B1|]. split; [exact B2|]. split; [exact HD|].
    split; [exact HG|]. split; [exact HT|]. split; [now rewrite E1|apply B3].
  - contradiction.
  - destruct (delete_spec h ids) as (A1 & A2 & A3 & _). rewrite app_nil_r.
    exists G. split; [intros j w; rewrite A1; apply Ho|].
    split; [intros id w l cs c Hn; rewrite A1; apply Hs, Hn|].
    split; [intros x Hx; rewrite A2; apply in_app_or in Hx; destruct Hx as [Hx|Hx]; [destruct (HD x Hx)|]; auto|].
    split; [intros x Hx; apply in_or_app; left; auto|].
    split; [intros x Hx; rewrite A2 in Hx; apply in_or_app; destruct Hx; auto|].
    rewrite A3 by exact Hor. split; [|exists v; now rewrite A1].
    intros H. apply in_app_or in H. tauto.
  - destruct Hor as (Hsc & Hd & Hk & He & Hgh). rewrite app_nil_r.
    pose proof (cleanup_cases k h Hsc Ho) as C. cbv zeta in C.
    destruct (cleanup k h) as [[h' r] l]. cbn [fst].
    destruct C as (h1 & K1 & N1 & S1 & C).
    assert (Hset : forall j, settled k (delete_list h) G h j).
    { intros j Hj. destruct (in_dec N.eq_dec j (h_tomb h)) as [Hi|Hi]; [left; now apply delete_list_In|right].
      destruct (node_by_id h j) as [w|] eqn:Ew.
      - destruct (Hgh j w (HG j Hj) Hi Ew) as [H|H]; [left|now right].
        intros w' l0 cs c H0 H1 H2 H3. assert (w' = w) by congruence. subst w'.
        apply (H cs c); [eapply nth_error_In; eauto|exact H2|now apply delete_list_In].
      - left. intros w. congruence. }
    pose proof (S1 G Hs Hep Hset) as NG.
    pose proof (sep_newl _ _ _ Hs NG) as Hs1.
    pose proof (kp_own _ _ K1 Ho) as Ho1.
    pose proof (proj1 (kp_tomb _ _ K1)) as Ht1.
    pose proof (proj1 (kp_ep _ _ K1)) as Hep1.
    destruct (kp_fw _ _ K1 _ _ Hv) as (v1 & Hv1 & _).
    destruct C as [(-> & _)|(Hsep & h2 & r2 & Er & C)].
    + exists G. rewrite Ht1, Hep1. split; [exact Ho1|]. split; [exact Hs1|]. split; [exact HD|].
      split; [exact HG|]. split; [exact HT|]. split; [exact Hnep|eauto].
    + specialize (Hsep Hd).
      destruct (remove_all_node k (delete_list h) h1) as (R1 & R2 & R3 & _ & R5 & _ & R7 & _).
      rewrite Er in R1, R2, R3, R5, R7. cbn [fst] in *.
      assert (Hkeep : h' = h2).
      { destruct C as [(_ & _ & ->)|(_ & _ & ->)]; [|reflexivity].
        unfold reset_if_empty, is_empty. rewrite He, R7. destruct (kp_kv _ _ K1) as (_ & -> & _).
        destruct (h_kv_ep h); [|congruence]. destruct (h_kv h2); reflexivity. }
      subst h'. clear C.
      exists (fun x => G x \/ In x (h_tomb h)).
      split; [intros j w Hw; apply Ho1, R2, Hw|].
      split; [intros id w l0 cs c Hn Hw Hl Hc [Hg|Ht]|].
      * eapply (Hs1 id); eauto.
      * eapply (Hsep id); eauto.
      * split; [intros x Hx; left; auto|].
        split; [intros x [Hx|Hx]; auto|].
        split; [intros x Hx; apply HT; rewrite <- Ht1; auto|].
        rewrite R5, Hep1. split; [exact Hnep|].
        exists v1. rewrite R1; [exact Hv1|]. intros Hi. apply delete_list_In in Hi. apply Hnep. auto.
Qed.

Lemma away_run evs : forall D h, away D h -> orderly_run D h evs -> away (D ++ deleted_ids evs) (drun h evs).
Proof.
  induction evs as [|e evs IH]; intros D h Ha Ho.
  - cbn. now rewrite app_nil_r.
  - destruct Ho as [H1 H2]. cbn [drun]. specialize (IH _ _ (away_step _ _ _ Ha H1) H2).
    rewrite <- app_assoc in IH.
    assert (Heq : deleted_ids [e] ++ deleted_ids evs = deleted_ids (e :: evs)).
    { unfold deleted_ids. cbn [flat_map]. now rewrite app_nil_r. }
    rewrite Heq in IH. exact IH.
Qed.

Lemma away_start h : own h -> (exists v, node_by_id h (h_ep h) = Some v) -> ~ In (h_ep h) (h_tomb h) -> away (h_tomb h) h.
Proof.
  intros Ho Hv Hn. exists (fun _ => False). split; [exact Ho|]. split; [intros ? ? ? ? ? _ _ _ _ []|].
  split; [auto|]. split; [contradiction|]. auto.
Qed.

Lemma away_knn D E h q maxd ef allow ids ds : away D h -> sched_ok E ->
  knn_max_dist E h q maxd ef allow = Ok (ids, ds) -> forall id, In id ids -> ~ In id D.
Proof.
  intros (G & Ho & Hs & HD & HG & HT & Hnep & Hv) Hsc H id Hid Hd.
  destruct (knn_max_dist_ok E h G Hsc Hs q maxd ef allow ids ds) with (id := id) as ((H1 & _) & H2); auto.
  { split; auto. }
  destruct (HD id Hd) as [Hg|Ht]; [auto|]. unfold has_tombstone in H2. apply memN_notIn in H2. auto.
Qed.

Lemma away_search D E h q k ef allow ids ds : away D h -> sched_ok E ->
  knn_search E h q k ef allow = Ok (ids, ds) -> forall id, In id ids -> ~ In id D.
Proof.
  intros (G & Ho & Hs & HD & HG & HT & Hnep & Hv) Hsc H id Hid Hd.
  destruct (knn_search_ok E h G Hsc Hs q k ef allow ids ds) with (id := id) as ((H1 & _) & H2); auto.
  { split; auto. }
  destruct (HD id Hd) as [Hg|Ht]; [auto|]. unfold has_tombstone in H2. apply memN_notIn in H2. auto.
Qed.

(** Without clean-up and restart the tombstones stay. *)
Definition no_cleanup (e : devent) : bool :=
  match e with DCleanup _ | DEv EvRestart => false | _ => true end.

Lemma add_tomb I h id q t : h_tomb (fst (add I h id q t)) = h_tomb h.
Proof.
  assert (Hn : forall nid nb l h, h_tomb (fst (connect_neighbor I h nid l nb)) = h_tomb h).
  { intros nid nb l h0. unfold connect_neighbor. destruct (node_by_id h0 nb) as [v|]; [|reflexivity].
    destruct (N.eqb nb nid); [reflexivity|]. destruct (has_tombstone h0 (v_id v)); [reflexivity|].
    cbv zeta. destruct (conns_at _ l) as [cs|]; [|reflexivity].
    destruct (Nat.ltb (length cs) _); [destruct (append_conn_at _ l nid); reflexivity|].
    destruct (reselect I nid nb l cs); reflexivity. }
  assert (Ha : forall nid l nbs h, h_tomb (fst (connect_all I h nid l nbs)) = h_tomb h).
  { intros nid l nbs. induction nbs as [|nb nbs IH]; intros h0; cbn [connect_all]; [reflexivity|].
    specialize (Hn nid nb l h0). destruct (connect_neighbor I h0 nid l nb) as [h1 [u|e| |]]; cbn [fst] in *; auto.
    now rewrite IH. }
  assert (Hl : forall nid q l h ep, h_tomb (fst (do_at_level I h nid q l ep)) = h_tomb h).
  { intros nid q0 l h0 ep. unfold do_at_level. destruct (choose_neighbours I h0 nid q0 l ep) as [[ep' nbs]|e| |]; try reflexivity.
    destruct (node_by_id h0 nid) as [v|]; [|reflexivity]. destruct (set_conns_at v l nbs) as [v'|e| |]; try reflexivity.
    pose proof (Ha nid l nbs (put_node h0 v')) as H1.
    destruct (connect_all I (put_node h0 v') nid l nbs) as [h1 [u|e| |]]; exact H1. }
  assert (Hc : forall nid q l h ep, h_tomb (fst (connect_levels I h nid q l ep)) = h_tomb h).
  { intros nid q0 l. induction l as [|l IH]; intros h0 ep; cbn [connect_levels].
    - specialize (Hl nid q0 0 h0 ep). destruct (do_at_level I h0 nid q0 0 ep) as [h1 [u|e| |]]; exact Hl.
    - specialize (Hl nid q0 (S l) h0 ep). destruct (do_at_level I h0 nid q0 (S l) ep) as [h1 [u|e| |]]; cbn [fst] in *; auto.
      now rewrite IH. }
  unfold add. destruct q as [|a q]; [reflexivity|]. unfold insert.
  destruct (negb (h_once h) && is_empty h).
  - unfold insert_initial. destruct (N.ltb id _); reflexivity.
  - unfold insert_linked. destruct (negb _); [reflexivity|].
    destruct (best_entrypoint I _ _ t _ _) as [ep|e| |]; try reflexivity.
    match goal with |- context [connect_levels I ?h1 ?n ?q ?m ?ep] =>
      pose proof (Hc n q m h1 ep) as H1; destruct (connect_levels I h1 n q m ep) as [h2 [u|e| |]] end;
      cbn [fst] in *; auto.
    unfold finish_insert. destruct (node_by_id h2 id); destruct (Nat.ltb _ t); exact H1.
Qed.

Lemma puts_tomb ws : forall h, h_tomb (fold_left (fun h w => mark_put (do_put h w) w) ws h) = h_tomb h.
Proof.
  induction ws as [|w ws IH]; intros h; cbn [fold_left]; [reflexivity|]. rewrite IH.
  destruct w; try reflexivity. cbn [mark_put do_put]. destruct (mget _ _); reflexivity.
Qed.

Lemma dstep_tomb h e : no_cleanup e = true -> forall x,
  In x (h_tomb (dstep h e)) <-> In x (h_tomb h) \/ In x (deleted_ids [e]).
Proof.
  intros Hc x. destruct e as [[o| |keys cnt n|]|ids|k]; try discriminate; cbn [dstep ev_step fst deleted_ids flat_map].
  - rewrite add_tomb. cbn. tauto.
  - cbn. tauto.
  - unfold flush. destruct (flush_plan h keys cnt) as [ws ok]. cbn [fst]. rewrite puts_tomb. cbn. tauto.
  - rewrite app_nil_r. apply (delete_spec h ids).
Qed.

Lemma drun_tomb evs : forall h, forallb no_cleanup evs = true -> forall x,
  In x (h_tomb (drun h evs)) <-> In x (h_tomb h) \/ In x (deleted_ids evs).
Proof.
  induction evs as [|e evs IH]; intros h Hc x; cbn [drun forallb] in *; [cbn; tauto|].
  apply andb_prop in Hc. destruct Hc as [H1 H2]. rewrite IH, dstep_tomb by auto.
  unfold deleted_ids. cbn [flat_map]. rewrite app_nil_r, in_app_iff. tauto.
Qed.

(** The locks a clean-up leaves. *)
Lemma cleanup_locks k h : (forall n, sched_ok (i_env (k_env k n))) -> own h ->
  (forall id, In id (h_tomb h) -> k_delete_fails k id = false) ->
  (In (h_ep h) (h_tomb h) -> node_by_id h (h_ep h) <> None) ->
  snd (cleanup k h) = no_locks.
Proof.
  intros Hsc Ho Hdel Hep. unfold cleanup. destruct (k_break_copy k); [reflexivity|].
  destruct (delete_list h) as [|d0 dl0] eqn:Edl; [reflexivity|]. rewrite <- Edl in *.
  set (dl := delete_list h) in *. clear d0 dl0 Edl.
  unfold reassign_all. destruct (k_count_fails k); [reflexivity|].
  assert (HdT : forall c, In c dl <-> In c (h_tomb h)) by (intros c; apply delete_list_In).
  assert (HD : forall c, In c dl -> has_tombstone h c = true).
  { intros c Hc. unfold has_tombstone. apply memN_In. now apply HdT. }
  destruct (reassign_from_spec k dl Hsc (kv_count h) h 0%N Ho HD) as (K1 & _).
  destruct (reassign_from k dl h 0 (kv_count h)) as [h1 r1]. cbn [fst snd] in *.
  destruct r1 as [[|]|e| |]; try reflexivity.
  assert (K2 : keep h (fold_left load (k_loads k) h1)) by (eapply keep_trans; [exact K1|apply loads_keep]).
  set (h2 := fold_left load (k_loads k) h1) in *.
  unfold replace_ep. destruct (k_break_replace k); [reflexivity|].
  rewrite (proj1 (kp_ep _ _ K2)).
  assert (Hm : memN (h_ep h) dl && match node_by_id h2 (h_ep h) with None => true | Some _ => false end = false).
  { destruct (memN (h_ep h) dl) eqn:Em; [|reflexivity]. apply memN_In, HdT in Em. specialize (Hep Em).
    destruct (node_by_id h (h_ep h)) as [v|] eqn:Ev; [|congruence].
    destruct (kp_fw _ _ K2 _ _ Ev) as (v' & -> & _). reflexivity. }
  rewrite Hm.
  assert (Hr : forall l h0, (forall id, In id l -> k_delete_fails k id = false) -> snd (remove_all k h0 l) = Ok tt).
  { induction l as [|i l IH]; intros h0 Hl; cbn [remove_all]; [reflexivity|].
    unfold remove_one. destruct (k_break_remove k i); [apply IH; intros; apply Hl; now right|].
    rewrite (Hl i) by now left. apply IH. intros; apply Hl; now right. }
  specialize (Hr dl h2). destruct (remove_all k h2 dl) as [h3 r3]. cbn [snd] in Hr.
  rewrite Hr; [reflexivity|]. intros id Hid. apply Hdel. now apply HdT.
Qed.

(** A successful Add stores the vector. *)
Lemma add_stores I h id q0 t : own h -> snd (add I h id q0 t) = Ok tt ->
  exists v, node_by_id (fst (add I h id q0 t)) id = Some v /\ v_vec v = p_normalize (e_prov (i_env I)) q0.
Proof.
  intros Ho. unfold add. destruct q0 as [|a q0]; [discriminate|]. set (q := p_normalize _ _).
  unfold insert. set (hh := with_once h). destruct (negb (h_once h) && is_empty h).
  - unfold insert_initial. destruct (N.ltb id (i_vcsize I)); [|discriminate]. intros _. cbn [fst].
    rewrite node_put. cbn [v_id]. rewrite N.eqb_refl. eexists. split; reflexivity.
  - unfold insert_linked. destruct (negb (N.ltb id (i_vcsize I))); [discriminate|].
    set (h1 := put_node hh (new_vertex id q t)).
    assert (Ho1 : own h1) by (apply own_put; exact Ho).
    assert (Hv1 : node_by_id h1 id = Some (new_vertex id q t)).
    { unfold h1. rewrite node_put. cbn [v_id new_vertex]. now rewrite N.eqb_refl. }
    destruct (best_entrypoint I h1 q t (h_maxl hh - t) (h_ep hh)) as [ep|e| |]; try discriminate.
    rewrite <- connect_levels_deny_nil.
    pose proof (connect_levels_keep I [] id q (Nat.min t (h_maxl hh)) h1 ep Ho1) as K2.
    destruct (connect_levels_deny I [] h1 id q (Nat.min t (h_maxl hh)) ep) as [h2 [[]|e| |]]; try discriminate.
    intros _. cbn [fst] in *. destruct (kp_fw _ _ K2 _ _ Hv1) as (v2 & Hv2 & Hvec).
    unfold finish_insert. rewrite Hv2.
    assert (Hid : v_id v2 = id) by (apply (kp_own _ _ K2 Ho1); exact Hv2).
    assert (H3 : node_by_id (put_node h2 (set_maint v2 false)) id = Some (set_maint v2 false)).
    { rewrite node_put. cbn [v_id set_maint]. now rewrite Hid, N.eqb_refl. }
    exists (set_maint v2 false). split; [|exact Hvec].
    destruct (Nat.ltb _ t); [rewrite node_with_ep|]; exact H3.
Qed.
