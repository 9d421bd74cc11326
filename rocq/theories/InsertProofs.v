(** Structural invariants of insertion: degree bounds, link integrity, layer
    consistency, entry point. *)
From Verif Require Import Base F32 PQ PQProofs Graph Search SearchProofs SearchLayer SearchKnn
  Insert HeuristicProofs.

Lemma node_put h v id :
  node_by_id (put_node h v) id = if N.eqb id (v_id v) then Some v else node_by_id h id.
Proof.
  unfold node_by_id, put_node. cbn [h_cache with_cache h_kv]. rewrite mget_mset.
  destruct (N.eqb id (v_id v)); reflexivity.
Qed.

Lemma node_put_eq h v : node_by_id (put_node h v) (v_id v) = Some v.
Proof. rewrite node_put, N.eqb_refl. reflexivity. Qed.

Lemma node_put_ne h v id : id <> v_id v -> node_by_id (put_node h v) id = node_by_id h id.
Proof. intros H. rewrite node_put. destruct (N.eqb_spec id (v_id v)); congruence. Qed.

Lemma node_with_ep h e l id : node_by_id (with_ep h e l) id = node_by_id h id.
Proof. reflexivity. Qed.

Lemma node_with_once h id : node_by_id (with_once h) id = node_by_id h id.
Proof. reflexivity. Qed.

(* ------------------------------------------------------------------ *)
(** Degree bounds. *)
Section Degree.
  Variable M : nat.

  Definition cap_of (level : nat) : nat := match level with O => 2 * M | S _ => M end.

  Definition degs (v : vertex) : Prop :=
    forall l cs, nth_error (v_conns v) l = Some cs -> length cs <= cap_of l.

  Definition deg_ok (h : hnsw) : Prop :=
    forall id v, node_by_id h id = Some v -> degs v.

  Lemma deg_put h v : deg_ok h -> degs v -> deg_ok (put_node h v).
  Proof.
    intros Hh Hv id w. rewrite node_put. destruct (N.eqb id (v_id v)); [|apply Hh].
    intros E; inversion E; subst; exact Hv.
  Qed.

  Lemma degs_committed v b : degs v -> degs (set_committed v b).
  Proof. exact (fun H => H). Qed.

  Lemma degs_maint v b : degs v -> degs (set_maint v b).
  Proof. exact (fun H => H). Qed.

  Lemma degs_upgrade v l : degs v -> degs (upgrade_level v l).
  Proof.
    intros H l' cs. unfold upgrade_level. cbn [v_conns set_level set_conns].
    intros Hn. destruct (Nat.ltb_spec l' (length (firstn (S l) (v_conns v)))) as [Hlt|Hge].
    - rewrite nth_error_app1 in Hn by lia.
      assert (l' < S l). { rewrite firstn_length in Hlt. lia. }
      rewrite nth_error_firstn_lt in Hn by lia. eauto.
    - rewrite nth_error_app2 in Hn by lia. apply nth_error_In in Hn.
      apply repeat_spec in Hn. subst. cbn. lia.
  Qed.

  Lemma degs_upd v l cs : degs v -> length cs <= cap_of l -> degs (set_conns v (upd (v_conns v) l cs)).
  Proof.
    intros H Hc l' cs'. cbn [v_conns set_conns]. rewrite nth_error_upd.
    destruct (Nat.eqb_spec l l') as [<-|Hne]; [|apply H].
    destruct (Nat.ltb _ _); [|discriminate]. intros E; inversion E; subst; auto.
  Qed.

  Variable I : ienv.
  Hypothesis HM : i_M I = M.

  Lemma max_conns_cap l : max_conns I l = cap_of l.
  Proof. unfold max_conns, cap_of. rewrite HM. destruct l; reflexivity. Qed.

  Lemma reselect_deg nid nb l cs cs' : reselect I nid nb l cs = Ok cs' -> length cs' <= cap_of l.
  Proof.
    unfold reselect. intros H.
    apply bind_Ok in H. destruct H as (d & _ & H).
    apply bind_Ok in H. destruct H as (q & _ & H).
    apply bind_Ok in H. destruct H as (q' & Hq & H). inversion H; subst.
    rewrite map_length, drain_length. apply heuristic_spec in Hq. rewrite max_conns_cap in Hq. tauto.
  Qed.

  Lemma connect_neighbor_deg h nid l nb : deg_ok h -> deg_ok (fst (connect_neighbor I h nid l nb)).
  Proof.
    intros Hh. unfold connect_neighbor.
    destruct (node_by_id h nb) as [v|] eqn:Ev; [|exact Hh].
    destruct (N.eqb nb nid); [exact Hh|]. destruct (has_tombstone h (v_id v)); [exact Hh|].
    set (v2 := if Nat.ltb _ l then _ else _).
    assert (H2 : degs v2).
    { unfold v2. destruct (Nat.ltb _ l); [apply degs_upgrade|]; apply degs_committed; eapply Hh; eauto. }
    assert (H1 : deg_ok (put_node h v2)) by now apply deg_put.
    destruct (conns_at v2 l) as [cs|] eqn:Ec; [|exact H1].
    destruct (Nat.ltb_spec (length cs) (max_conns I l)) as [Hlt|Hge].
    - unfold append_conn_at. unfold conns_at in Ec. rewrite Ec. cbn [fst].
      apply deg_put; [exact H1|]. apply degs_upd; [exact H2|].
      rewrite app_length. cbn. rewrite max_conns_cap in Hlt. lia.
    - destruct (reselect I nid nb l cs) as [cs'|e| |] eqn:Er; cbn [fst]; try exact H1.
      apply deg_put; [exact H1|]. apply degs_upd; [exact H2|]. now apply reselect_deg in Er.
  Qed.

  Lemma connect_all_deg nid l nbs : forall h, deg_ok h -> deg_ok (fst (connect_all I h nid l nbs)).
  Proof.
    induction nbs as [|nb nbs IH]; intros h Hh; cbn [connect_all]; [exact Hh|].
    pose proof (connect_neighbor_deg h nid l nb Hh) as H.
    destruct (connect_neighbor I h nid l nb) as [h' [[]|e| |]]; cbn [fst] in *; auto.
  Qed.

  Lemma choose_deg h nid q l ep ep' nbs :
    choose_neighbours I h nid q l ep = Ok (ep', nbs) -> length nbs <= M.
  Proof.
    unfold choose_neighbours. intros H.
    apply bind_Ok in H. destruct H as (e & _ & H).
    apply bind_Ok in H. destruct H as (r & _ & H).
    apply bind_Ok in H. destruct H as (r' & Hr & H). inversion H; subst.
    rewrite map_length, drain_length. apply heuristic_spec in Hr. tauto.
  Qed.

  Lemma do_at_level_deg h nid q l ep : deg_ok h -> deg_ok (fst (do_at_level I h nid q l ep)).
  Proof.
    intros Hh. unfold do_at_level.
    destruct (choose_neighbours I h nid q l ep) as [[ep' nbs]|e| |] eqn:Ec; try exact Hh.
    destruct (node_by_id h nid) as [v|] eqn:Ev; [|exact Hh].
    unfold set_conns_at. destruct (Nat.ltb l (length (v_conns v))); [|exact Hh].
    assert (H1 : deg_ok (put_node h (set_conns v (upd (v_conns v) l nbs)))).
    { apply deg_put; [exact Hh|]. apply degs_upd; [eapply Hh; eauto|].
      apply choose_deg in Ec. destruct l; cbn; lia. }
    pose proof (connect_all_deg nid l nbs _ H1) as H.
    destruct (connect_all I _ nid l nbs) as [h' [[]|e| |]]; exact H.
  Qed.

  Lemma connect_levels_deg nid q l : forall h ep, deg_ok h -> deg_ok (fst (connect_levels I h nid q l ep)).
  Proof.
    induction l as [|l IH]; intros h ep Hh; cbn [connect_levels].
    - pose proof (do_at_level_deg h nid q 0 ep Hh) as H.
      destruct (do_at_level I h nid q 0 ep) as [h' [ep'|e| |]]; exact H.
    - pose proof (do_at_level_deg h nid q (S l) ep Hh) as H.
      destruct (do_at_level I h nid q (S l) ep) as [h' [ep'|e| |]]; cbn [fst] in *; auto.
  Qed.

  Lemma degs_new id q t : degs (new_vertex id q t).
  Proof.
    intros l cs. unfold new_vertex. cbn [v_conns]. intros H. apply nth_error_In, repeat_spec in H.
    subst. cbn. lia.
  Qed.

  Lemma add_deg h id q0 t : deg_ok h -> deg_ok (fst (add I h id q0 t)).
  Proof.
    intros Hh. unfold add. destruct q0 as [|x q0]; [exact Hh|]. unfold insert.
    assert (Hh1 : deg_ok (with_once h)) by exact Hh.
    destruct (negb (h_once h) && is_empty h).
    - unfold insert_initial. set (h' := put_node _ _).
      assert (deg_ok h').
      { apply deg_put; [exact Hh|]. intros l cs. cbn. destruct l as [|l]; cbn.
        - intros E; inversion E; cbn; lia.
        - destruct l; discriminate. }
      destruct (N.ltb id (i_vcsize I)); assumption.
    - unfold insert_linked. destruct (negb (N.ltb id (i_vcsize I))); [exact Hh|].
      set (h1 := put_node _ _). assert (H1 : deg_ok h1) by (apply deg_put; [exact Hh|apply degs_new]).
      destruct (best_entrypoint I h1 _ t _ _) as [ep|e| |]; try exact H1.
      pose proof (connect_levels_deg id (p_normalize (e_prov (i_env I)) (x :: q0))
        (Nat.min t (h_maxl (with_once h))) h1 ep H1) as H2.
      destruct (connect_levels I h1 id _ _ ep) as [h2 [[]|e| |]]; cbn [fst] in *; auto.
      unfold finish_insert. set (h3 := match node_by_id h2 id with Some _ => _ | None => _ end).
      assert (H3 : deg_ok h3).
      { unfold h3. destruct (node_by_id h2 id) as [v|] eqn:Ev; [|exact H2].
        apply deg_put; [exact H2|]. apply degs_maint. eapply H2; eauto. }
      destruct (Nat.ltb (h_maxl h3) t); exact H3.
  Qed.
End Degree.

(* ------------------------------------------------------------------ *)
(** Link integrity and layer consistency. *)

(** [winv]: every vertex is stored under its own id, has exactly one link list
    per layer up to its own, and every link leads to another stored vertex that
    exists on that layer; no list has a duplicate. *)
Record winv (h : hnsw) : Prop := {
  w_id : forall id v, node_by_id h id = Some v -> v_id v = id;
  w_len : forall id v, node_by_id h id = Some v -> length (v_conns v) = S (v_level v);
  w_link : forall id v l cs c, node_by_id h id = Some v -> nth_error (v_conns v) l = Some cs ->
    In c cs -> c <> id /\ exists w, node_by_id h c = Some w /\ l <= v_level w;
  w_nodup : forall id v l cs, node_by_id h id = Some v -> nth_error (v_conns v) l = Some cs -> NoDup cs
}.

(** No link on a layer up to [l] leads to [nid]. *)
Definition unlinked_upto (l : nat) (nid : N) (h : hnsw) : Prop :=
  forall id v l' cs, node_by_id h id = Some v -> l' <= l ->
    nth_error (v_conns v) l' = Some cs -> ~ In nid cs.

(** No link at all leads to [nid]. *)
Definition unlinked (nid : N) (h : hnsw) : Prop :=
  forall id v l cs, node_by_id h id = Some v -> nth_error (v_conns v) l = Some cs -> ~ In nid cs.

(** What linking on layer [l] may change: only link lists of layer [l] (and
    the Committed flag). *)
Record lrel (l : nat) (h h' : hnsw) : Prop := {
  lr_fw : forall id v, node_by_id h id = Some v -> exists v', node_by_id h' id = Some v' /\
    v_level v' = v_level v /\ v_vec v' = v_vec v /\ v_maint v' = v_maint v /\
    (forall l', l' <> l -> nth_error (v_conns v') l' = nth_error (v_conns v) l');
  lr_bw : forall id v', node_by_id h' id = Some v' -> exists v, node_by_id h id = Some v;
  lr_kv : h_kv h' = h_kv h /\ h_kv_ep h' = h_kv_ep h /\ h_kv_count h' = h_kv_count h;
  lr_ep : h_ep h' = h_ep h /\ h_maxl h' = h_maxl h;
  lr_tomb : h_tomb h' = h_tomb h /\ h_once h' = h_once h
}.

(** Every link of [h'] is a link of [h] or leads into [R]. *)
Definition newl (R : N -> Prop) (h h' : hnsw) : Prop :=
  forall j v' l cs' c, node_by_id h' j = Some v' -> nth_error (v_conns v') l = Some cs' -> In c cs' ->
    (exists v cs, node_by_id h j = Some v /\ nth_error (v_conns v) l = Some cs /\ In c cs) \/ R c.

Lemma newl_refl R h : newl R h h.
Proof. intros j v' l cs' c H1 H2 H3. left. eauto. Qed.

Lemma newl_trans R h1 h2 h3 : newl R h1 h2 -> newl R h2 h3 -> newl R h1 h3.
Proof.
  intros N1 N2 j v' l cs' c H1 H2 H3. destruct (N2 _ _ _ _ _ H1 H2 H3) as [(v & cs & A1 & A2 & A3)|HR];
    [|auto]. eapply N1; eauto.
Qed.

Lemma newl_weaken (R R' : N -> Prop) h1 h2 : (forall c, R c -> R' c) -> newl R h1 h2 -> newl R' h1 h2.
Proof. intros Hw N1 j v' l cs' c H1 H2 H3. destruct (N1 _ _ _ _ _ H1 H2 H3); auto. Qed.

Lemma lrel_refl l h : lrel l h h.
Proof. constructor; auto. intros id v H. exists v. auto. eauto. Qed.

Lemma lrel_trans l h1 h2 h3 : lrel l h1 h2 -> lrel l h2 h3 -> lrel l h1 h3.
Proof.
  intros [F1 B1 K1 E1 T1] [F2 B2 K2 E2 T2]. constructor.
  - intros id v Hv. destruct (F1 _ _ Hv) as (v2 & Hv2 & L2 & V2 & M2 & C2).
    destruct (F2 _ _ Hv2) as (v3 & Hv3 & L3 & V3 & M3 & C3). exists v3.
    repeat split; try congruence. intros l' Hl. rewrite C3, C2; auto.
  - intros id v3 H3. destruct (B2 _ _ H3) as (v2 & H2). eauto.
  - intuition congruence.
  - intuition congruence.
  - intuition congruence.
Qed.

(** Replacing the list of layer [l] of one stored vertex. *)
Lemma lrel_put h l v cs b : node_by_id h (v_id v) = Some v ->
  lrel l h (put_node h (set_conns (set_committed v b) (upd (v_conns v) l cs))).
Proof.
  intros Hv. constructor; try (split; [|split]; reflexivity); try (split; reflexivity).
  - intros id w Hw. rewrite node_put. cbn [v_id set_conns set_committed].
    destruct (N.eqb_spec id (v_id v)) as [->|Hne].
    + rewrite Hv in Hw. inversion Hw; subst. eexists; split; [reflexivity|]. cbn.
      repeat split. intros l' Hl. apply nth_error_upd_ne. congruence.
    + exists w. auto.
  - intros id v'. rewrite node_put. cbn [v_id set_conns set_committed].
    destruct (N.eqb_spec id (v_id v)) as [->|Hne]; eauto.
Qed.

Lemma winv_put_conns h l v cs b : winv h -> node_by_id h (v_id v) = Some v ->
  NoDup cs -> (forall c, In c cs -> c <> v_id v /\ exists w, node_by_id h c = Some w /\ l <= v_level w) ->
  winv (put_node h (set_conns (set_committed v b) (upd (v_conns v) l cs))).
Proof.
  intros [Wi Wl Wk Wn] Hv Hnd Hcs.
  set (v' := set_conns _ _).
  assert (Hst : forall c w, node_by_id h c = Some w -> exists w', node_by_id (put_node h v') c = Some w' /\
            v_level w' = v_level w).
  { intros c w Hw. rewrite node_put. cbn. destruct (N.eqb_spec c (v_id v)) as [->|]; [|eauto].
    rewrite Hv in Hw. inversion Hw; subst. eexists; split; [reflexivity|]. reflexivity. }
  constructor.
  - intros id w. rewrite node_put. cbn. destruct (N.eqb_spec id (v_id v)) as [->|]; [|apply Wi].
    intros E; inversion E; subst. reflexivity.
  - intros id w. rewrite node_put. cbn [v_id v' set_conns set_committed].
    destruct (N.eqb_spec id (v_id v)) as [->|]; [|apply Wl].
    intros E; inversion E; subst. cbn. rewrite upd_length. eapply Wl; eauto.
  - intros id w l' cs' c. rewrite node_put. cbn [v_id v' set_conns set_committed].
    intros Hw Hn Hc.
    assert (HH : c <> id /\ exists w0, node_by_id h c = Some w0 /\ l' <= v_level w0).
    { destruct (N.eqb_spec id (v_id v)) as [->|Hne].
      - inversion Hw; subst. cbn in Hn. rewrite nth_error_upd in Hn.
        destruct (Nat.eqb_spec l l') as [<-|Hne]; [|eapply Wk; eauto].
        destruct (Nat.ltb _ _); [|discriminate]. inversion Hn; subst. auto.
      - eapply Wk; eauto. }
    destruct HH as [H1 (w0 & H2 & H3)]. split; [exact H1|].
    destruct (Hst _ _ H2) as (w' & Hw' & L'). exists w'. split; [exact Hw'|lia].
  - intros id w l' cs'. rewrite node_put. cbn [v_id v' set_conns set_committed].
    destruct (N.eqb_spec id (v_id v)) as [->|]; [|apply Wn].
    intros E; inversion E; subst. cbn. rewrite nth_error_upd.
    destruct (Nat.eqb l l'); [|eapply Wn; eauto].
    destruct (Nat.ltb _ _); [|discriminate]. intros E2; inversion E2; subst; auto.
Qed.

Lemma ids_small_lrel E l h h' : lrel l h h' -> ids_small E h -> ids_small E h'.
Proof. intros Hr Hs id v' Hv. destruct (lr_bw _ _ _ Hr _ _ Hv) as (v & H). eauto. Qed.

Lemma unlinked_lrel l l' nid h h' : lrel l h h' -> l' < l -> unlinked_upto l' nid h -> unlinked_upto l' nid h'.
Proof.
  intros Hr Hlt Hu id v' l2 cs Hv' Hl2 Hn.
  destruct (lr_bw _ _ _ Hr _ _ Hv') as (v & Hv).
  destruct (lr_fw _ _ _ Hr _ _ Hv) as (v2 & Hv2 & _ & _ & _ & Hc).
  rewrite Hv' in Hv2. inversion Hv2; subst v2.
  eapply Hu; eauto. rewrite <- Hc; [exact Hn|lia].
Qed.

Lemma upd_same {A} (l : list A) i x : nth_error l i = Some x -> upd l i x = l.
Proof.
  revert i; induction l as [|a l IH]; intros [|i]; cbn; try discriminate; auto.
  - intros E; inversion E; auto.
  - intros H. now rewrite IH.
Qed.

Lemma upd_upd {A} (l : list A) i x y : upd (upd l i x) i y = upd l i y.
Proof. revert i; induction l as [|a l IH]; intros [|i]; cbn; auto. now rewrite IH. Qed.

Lemma put_put h v w : v_id v = v_id w -> forall id,
  node_by_id (put_node (put_node h v) w) id = node_by_id (put_node h w) id.
Proof. intros Hid id. rewrite !node_put. rewrite Hid. destruct (N.eqb id (v_id w)); reflexivity. Qed.

Lemma last_In {A} (l : list A) d : l <> [] -> In (last l d) l.
Proof.
  intros H. rewrite (app_removelast_last d H) at 2. apply in_or_app. right. now left.
Qed.

Section Structure.
  Variable I : ienv.
  Local Notation E := (i_env I).
  Local Notation P := (e_prov (i_env I)).
  Hypothesis Hsc : sched_ok E.
  Hypothesis Hsym : prov_sym P.

  Lemma reach_level h l ep c vep : winv h ->
    node_by_id h ep = Some vep -> l <= v_level vep -> reach h l ep c ->
    exists w, node_by_id h c = Some w /\ l <= v_level w.
  Proof.
    intros W Hep Hl Hr. induction Hr as [|b v conns c Hr IH Hb Hlb Hc Hin]; [eauto|].
    eapply (w_link _ W) in Hin; eauto. tauto.
  Qed.

  Lemma reach_not_new h l ep c nid : unlinked_upto l nid h -> ep <> nid -> reach h l ep c -> c <> nid.
  Proof.
    intros Hu Hne Hr. induction Hr as [|b v conns c Hr IH Hb Hlb Hc Hin]; [exact Hne|].
    intros ->. eapply Hu; eauto.
  Qed.

  Lemma pick_ep_stored h q f deny ep v e : node_by_id h ep = Some v ->
    pick_ep P h q (S f) deny ep = Ok e -> fst e = ep /\ true_dist P h q ep (snd e).
  Proof.
    intros Hv. cbn [pick_ep]. rewrite Hv. intros H. apply bind_Ok in H.
    destruct H as (d & Hd & H). inversion H; subst. cbn. split; auto.
    eapply dist_node_vec_spec; eauto.
  Qed.

  (** The chosen neighbours are distinct stored vertices of that layer, none of
      them the new vertex. *)
  Lemma choose_sound h nid q l ep vep ep' nbs :
    winv h -> ids_small E h -> unlinked_upto l nid h -> ep <> nid ->
    node_by_id h ep = Some vep -> l <= v_level vep ->
    choose_neighbours I h nid q l ep = Ok (ep', nbs) ->
    ep' = ep /\ NoDup nbs /\
    (forall c, In c nbs -> c <> nid /\ exists w, node_by_id h c = Some w /\ l <= v_level w) /\
    (forall c, In c nbs -> reach h l ep c).
  Proof.
    intros W Hs Hu Hne Hep Hl H. unfold choose_neighbours in H.
    apply bind_Ok in H. destruct H as (e & He & H).
    apply bind_Ok in H. destruct H as (r & Hr & H).
    apply bind_Ok in H. destruct H as (r' & Hr' & H). inversion H; subst; clear H.
    destruct (pick_ep_stored _ _ _ _ _ _ _ Hep He) as [H1 H2].
    assert (Hls := layer_sound E h q (i_efc I) l None (mkItem (fst e) (snd e)) r Hsc).
    cbn [it_id it_dist] in Hls. rewrite H1 in Hls.
    destruct Hls as (Hin & Hnd & _); auto.
    { eapply Hs; eauto. }
    { rewrite H1 in Hr. exact Hr. }
    split; [exact H1|]. split.
    - apply drain_ids_NoDup. eapply heuristic_NoDup; eauto.
    - assert (Hre : forall c, In c (map it_id (pq_drain less_max r')) -> reach h l ep c).
      { intros c Hc. apply drain_ids_In in Hc. apply in_map_iff in Hc.
        destruct Hc as (x & <- & Hx). eapply heuristic_In in Hx; eauto. apply (Hin x Hx). }
      split; [|exact Hre]. intros c Hc. specialize (Hre c Hc). split.
      + eapply reach_not_new; eauto.
      + eapply reach_level; eauto.
  Qed.

  Lemma cand_dists_ids get nb conns : forall q q',
    cand_dists I get nb conns q = Ok q' -> Permutation (map it_id q') (conns ++ map it_id q).
  Proof.
    induction conns as [|c conns IH]; intros q q' H; cbn in H; [inversion H; auto|].
    apply bind_Ok in H. destruct H as (d & _ & H). rewrite (IH _ _ H).
    rewrite <- (Permutation_map it_id (insert_perm less_max (mkItem c d) q)). cbn.
    symmetry. apply Permutation_middle.
  Qed.

  Lemma reselect_sound nid nb l cs cs' :
    reselect I nid nb l cs = Ok cs' -> NoDup cs -> ~ In nid cs ->
    NoDup cs' /\ (forall c, In c cs' -> c = nid \/ In c cs).
  Proof.
    unfold reselect. intros H Hnd Hni.
    apply bind_Ok in H. destruct H as (d & _ & H).
    apply bind_Ok in H. destruct H as (q & Hq & H).
    apply bind_Ok in H. destruct H as (q' & Hq' & H). inversion H; subst.
    apply cand_dists_ids in Hq. cbn in Hq.
    assert (Hqn : NoDup (map it_id q)).
    { rewrite Hq. rewrite Permutation_app_comm. cbn. constructor; auto. }
    split.
    - apply drain_ids_NoDup. eapply heuristic_NoDup; eauto.
    - intros c Hc. apply drain_ids_In in Hc. apply in_map_iff in Hc. destruct Hc as (x & <- & Hx).
      eapply heuristic_In in Hx; eauto. apply (in_map it_id) in Hx.
      apply (Permutation_in _ Hq) in Hx. apply in_app_or in Hx. cbn in Hx. intuition.
  Qed.

  (** Relevant state during the linking of [nid] on layer [l]. *)
  Record linking (nid : N) (l : nat) (h : hnsw) : Prop := {
    lk_w : winv h;
    lk_s : ids_small E h;
    lk_n : exists v, node_by_id h nid = Some v /\ l <= v_level v
  }.

  Lemma lrel_ext l h h' h'' : (forall id, node_by_id h'' id = node_by_id h' id) ->
    h_kv h'' = h_kv h' -> h_kv_ep h'' = h_kv_ep h' -> h_kv_count h'' = h_kv_count h' ->
    h_ep h'' = h_ep h' -> h_maxl h'' = h_maxl h' -> h_tomb h'' = h_tomb h' -> h_once h'' = h_once h' ->
    lrel l h h' -> lrel l h h''.
  Proof.
    intros Hn K1 K2 K3 E1 E2 T1 T2 [F B K EE T]. constructor.
    - intros id v. rewrite Hn. apply F.
    - intros id v. rewrite Hn. apply B.
    - intuition congruence.
    - intuition congruence.
    - intuition congruence.
  Qed.

  Lemma winv_ext h h' : (forall id, node_by_id h' id = node_by_id h id) -> winv h -> winv h'.
  Proof.
    intros Hn [Wi Wl Wk Wn]. constructor.
    - intros id v. rewrite Hn. apply Wi.
    - intros id v. rewrite Hn. apply Wl.
    - intros id v l cs c. rewrite Hn. intros H1 H2 H3. rewrite Hn. eapply Wk; eauto.
    - intros id v l cs. rewrite Hn. apply Wn.
  Qed.

  (** Connecting one neighbour keeps the invariants, whatever happens. *)
  Lemma connect_neighbor_inv h nid l nb v cs :
    linking nid l h -> nb <> nid -> node_by_id h nb = Some v -> l <= v_level v ->
    nth_error (v_conns v) l = Some cs -> ~ In nid cs ->
    let h' := fst (connect_neighbor I h nid l nb) in
    linking nid l h' /\ lrel l h h' /\ newl (eq nid) h h' /\
    (forall j, j <> nb -> node_by_id h' j = node_by_id h j).
  Proof.
    intros [W S Nn] Hne Hv Hl Hcs Hni. unfold connect_neighbor. rewrite Hv.
    destruct (N.eqb_spec nb nid) as [|_]; [contradiction|].
    assert (Hself : linking nid l h /\ lrel l h h /\ newl (eq nid) h h /\
      (forall j, j <> nb -> node_by_id h j = node_by_id h j)).
    { split; [constructor; auto|]. split; [apply lrel_refl|]. split; [apply newl_refl|auto]. }
    destruct (has_tombstone h (v_id v)); [exact Hself|].
    cbn [v_level set_committed].
    destruct (Nat.ltb_spec (v_level v) l) as [Hlt|_]; [lia|].
    pose proof (w_id _ W _ _ Hv) as Hid.
    assert (Hcomm : forall cs', put_node h (set_conns (set_committed v false) (upd (v_conns v) l cs')) =
       put_node h (set_conns (set_committed v false) (upd (v_conns v) l cs'))) by reflexivity.
    assert (Hput : forall cs', NoDup cs' ->
       (forall c, In c cs' -> c = nid \/ In c cs) ->
       forall h', (forall id, node_by_id h' id =
          node_by_id (put_node h (set_conns (set_committed v false) (upd (v_conns v) l cs'))) id) ->
       h_kv h' = h_kv h -> h_kv_ep h' = h_kv_ep h -> h_kv_count h' = h_kv_count h ->
       h_ep h' = h_ep h -> h_maxl h' = h_maxl h -> h_tomb h' = h_tomb h -> h_once h' = h_once h ->
       linking nid l h' /\ lrel l h h' /\ newl (eq nid) h h' /\
       (forall j, j <> nb -> node_by_id h' j = node_by_id h j)).
    { intros cs' Hnd Hsub h' Hext K1 K2 K3 E1 E2 T1 T2.
      assert (Hv' : node_by_id h (v_id v) = Some v) by now rewrite Hid.
      assert (Hlr : lrel l h h').
      { eapply lrel_ext with (h' := put_node h (set_conns (set_committed v false) (upd (v_conns v) l cs')));
          auto. now apply lrel_put. }
      split; [|split; [exact Hlr|]].
      - constructor.
        + eapply winv_ext; [exact Hext|]. apply winv_put_conns; auto.
          intros c Hc. destruct (Hsub c Hc) as [->|Hin].
          * destruct Nn as (vn & Hvn & Hln). split; [congruence|eauto].
          * rewrite Hid. eapply (w_link _ W); eauto.
        + eapply ids_small_lrel; eauto.
        + destruct Nn as (vn & Hvn & Hln). destruct (lr_fw _ _ _ Hlr _ _ Hvn) as (vn' & Hvn' & Lv & _).
          exists vn'. split; [exact Hvn'|lia].
      - split; [|intros j Hj; rewrite Hext; apply node_put_ne; cbn; congruence].
        intros j v' l' cs2 c Hj Hn Hc. rewrite Hext, node_put in Hj. cbn [v_id set_conns set_committed] in Hj.
        destruct (N.eqb_spec j (v_id v)) as [->|Hj2]; [|left; eauto].
        inversion Hj; subst v'. cbn in Hn. rewrite nth_error_upd in Hn.
        destruct (Nat.eqb_spec l l') as [<-|Hl']; [|left; eauto].
        destruct (Nat.ltb _ _); [|discriminate]. inversion Hn; subst cs2.
        destruct (Hsub c Hc) as [->|Hc']; [now right|left; eauto]. }
    assert (Hh1 : linking nid l (put_node h (set_committed v false)) /\
       lrel l h (put_node h (set_committed v false)) /\
       newl (eq nid) h (put_node h (set_committed v false)) /\
       (forall j, j <> nb -> node_by_id (put_node h (set_committed v false)) j = node_by_id h j)).
    { apply (Hput cs); auto.
      - eapply (w_nodup _ W); eauto.
      - intros id. f_equal. f_equal. cbn. unfold set_conns, set_committed. cbn. f_equal.
        symmetry. now apply upd_same. }
    unfold conns_at. cbn [v_conns set_committed]. rewrite Hcs.
    destruct (Nat.ltb (length cs) (max_conns I l)).
    - unfold append_conn_at. cbn [v_conns set_committed]. rewrite Hcs. cbn [fst].
      apply (Hput (cs ++ [nid])); try reflexivity.
      + apply NoDup_app_intro; [eapply (w_nodup _ W); eauto|repeat constructor; tauto|].
        intros x Hx [<-|[]]. auto.
      + intros c Hc. apply in_app_or in Hc. cbn in Hc. intuition.
      + intros id. apply put_put. reflexivity.
    - destruct (reselect I nid nb l cs) as [cs'|e| |] eqn:Er; cbn [fst]; try exact Hh1.
      destruct (reselect_sound _ _ _ _ _ Er) as [Hn1 Hn2]; auto.
      { eapply (w_nodup _ W); eauto. }
      apply (Hput cs'); try reflexivity; auto. intros id. apply put_put. reflexivity.
  Qed.

  Lemma connect_all_inv nid l nbs : forall h,
    linking nid l h -> NoDup nbs ->
    (forall c, In c nbs -> c <> nid /\ exists v cs, node_by_id h c = Some v /\ l <= v_level v /\
       nth_error (v_conns v) l = Some cs /\ ~ In nid cs) ->
    let h' := fst (connect_all I h nid l nbs) in
    linking nid l h' /\ lrel l h h' /\ newl (eq nid) h h'.
  Proof.
    induction nbs as [|nb nbs IH]; intros h Hlk Hnd Hc; cbn [connect_all].
    - split; [exact Hlk|]. split; [apply lrel_refl|apply newl_refl].
    - inversion Hnd as [|x y Hni Hnd']; subst.
      destruct (Hc nb (or_introl eq_refl)) as (Hne & v & cs & Hv & Hl & Hcs & Hnin).
      pose proof (connect_neighbor_inv h nid l nb v cs Hlk Hne Hv Hl Hcs Hnin) as (L1 & R1 & E1 & O1).
      destruct (connect_neighbor I h nid l nb) as [h1 [[]|e| |]]; cbn [fst] in *; try (split; auto; fail).
      destruct (IH h1 L1 Hnd') as (L2 & R2 & E2).
      + intros c Hin. destruct (Hc c (or_intror Hin)) as (Hne' & v' & cs' & Hv' & Hl' & Hcs' & Hnin').
        split; [exact Hne'|]. exists v', cs'. rewrite O1 by (intros ->; contradiction). auto.
      + split; [exact L2|]. split; [eapply lrel_trans; eauto|eapply newl_trans; eauto].
  Qed.

  Lemma next_ep_cases nid ep nbs : (forall c, In c nbs -> c <> nid) ->
    (nbs = [] /\ next_ep nid ep nbs = ep) \/ In (next_ep nid ep nbs) nbs.
  Proof.
    intros H. destruct nbs as [|n nbs]; [left; auto|right]. cbn [next_ep].
    assert (Hi : In (last (n :: nbs) n) (n :: nbs)).
    { apply last_In. discriminate. }
    destruct (N.eqb_spec (last (n :: nbs) n) nid) as [E|]; [|exact Hi].
    exfalso. eapply H; eauto.
  Qed.

  (** One layer of linking. *)
  Lemma do_at_level_inv h nid q l ep vep :
    linking nid l h -> unlinked_upto l nid h -> ep <> nid ->
    node_by_id h ep = Some vep -> l <= v_level vep ->
    let r := do_at_level I h nid q l ep in
    linking nid l (fst r) /\ lrel l h (fst r) /\
    newl (fun c => c = nid \/ reach h l ep c) h (fst r) /\
    (forall ep', snd r = Ok ep' -> ep' <> nid /\
       exists v', node_by_id (fst r) ep' = Some v' /\ l <= v_level v').
  Proof.
    intros Hlk Hu Hne Hep Hl. unfold do_at_level.
    assert (Hself : forall r : res N, (forall ep', r <> Ok ep') ->
      linking nid l (fst (h, r)) /\ lrel l h (fst (h, r)) /\
      newl (fun c => c = nid \/ reach h l ep c) h (fst (h, r)) /\
      (forall ep', snd (h, r) = Ok ep' -> ep' <> nid /\
         exists v', node_by_id (fst (h, r)) ep' = Some v' /\ l <= v_level v')).
    { intros r Hr. cbn. split; [exact Hlk|]. split; [apply lrel_refl|].
      split; [apply newl_refl|]. intros ep' E. edestruct Hr; eauto. }
    destruct Hlk as [W S (vn & Hvn & Hln)] eqn:HH. clear HH.
    destruct (choose_neighbours I h nid q l ep) as [[ep' nbs]|e| |] eqn:Ec;
      try (apply Hself; discriminate).
    destruct (choose_sound _ _ _ _ _ _ _ _ W S Hu Hne Hep Hl Ec) as (-> & Hnd & Hin & Hre).
    rewrite Hvn. unfold set_conns_at.
    pose proof (w_len _ W _ _ Hvn) as Hlen. pose proof (w_id _ W _ _ Hvn) as Hid.
    destruct (Nat.ltb_spec l (length (v_conns vn))) as [_|Hge]; [|lia].
    assert (Heq : put_node h (set_conns vn (upd (v_conns vn) l nbs)) =
              put_node h (set_conns (set_committed vn (v_committed vn)) (upd (v_conns vn) l nbs))) by reflexivity.
    assert (Hvn' : node_by_id h (v_id vn) = Some vn) by now rewrite Hid.
    pose proof (lrel_put h l vn nbs (v_committed vn) Hvn') as R1. rewrite <- Heq in R1.
    assert (W1 : winv (put_node h (set_conns vn (upd (v_conns vn) l nbs)))).
    { rewrite Heq. apply winv_put_conns; auto. rewrite Hid. exact Hin. }
    set (h1 := put_node h _) in *.
    assert (Hlk1 : linking nid l h1).
    { constructor; auto.
      - eapply ids_small_lrel; eauto.
      - exists (set_conns vn (upd (v_conns vn) l nbs)). split; [|exact Hln].
        unfold h1. rewrite node_put. cbn [v_id set_conns]. now rewrite Hid, N.eqb_refl. }
    assert (E1 : newl (fun c => c = nid \/ reach h l ep c) h h1).
    { intros j v' l' cs2 c Hj Hn Hc. unfold h1 in Hj. rewrite node_put in Hj. cbn [v_id set_conns] in Hj.
      destruct (N.eqb_spec j (v_id vn)) as [->|Hj2]; [|left; eauto].
      inversion Hj; subst v'. cbn in Hn. rewrite nth_error_upd in Hn.
      destruct (Nat.eqb_spec l l') as [<-|Hl']; [|left; eauto].
      destruct (Nat.ltb _ _); [|discriminate]. inversion Hn; subst cs2. right. right. auto. }
    destruct (connect_all_inv nid l nbs h1 Hlk1 Hnd) as (L2 & R2 & E2).
    { intros c Hc. destruct (Hin c Hc) as (Hcn & w & Hw & Hlw). split; [exact Hcn|].
      pose proof (w_len _ W _ _ Hw) as Hlw2.
      destruct (nth_error (v_conns w) l) as [cs|] eqn:En.
      2:{ apply nth_error_None in En. lia. }
      exists w, cs. unfold h1. rewrite node_put_ne by (cbn; congruence).
      repeat split; auto. eapply Hu; eauto. }
    destruct (connect_all I h1 nid l nbs) as [h2 [[]|e| |]]; cbn [fst snd] in *;
      (split; [exact L2|]; split; [eapply lrel_trans; eauto|]; split;
       [eapply newl_trans; [exact E1|]; eapply newl_weaken; [|exact E2]; auto|]; try discriminate).
    intros ep2 Eq2; inversion Eq2; subst ep2; clear Eq2.
    assert (R : lrel l h h2) by (eapply lrel_trans; eauto).
    destruct (next_ep_cases nid ep nbs) as [[-> ->]|Hi].
    - intros c Hc. now apply Hin.
    - split; [exact Hne|]. destruct (lr_fw _ _ _ R _ _ Hep) as (v' & Hv' & Lv & _). exists v'. split; [auto|lia].
    - destruct (Hin _ Hi) as (Hcn & w & Hw & Hlw). split; [exact Hcn|].
      destruct (lr_fw _ _ _ R _ _ Hw) as (v' & Hv' & Lv & _). exists v'. split; [auto|lia].
  Qed.

  (** What linking on all layers may change: link lists and the Committed
      flag. *)
  Record grel (h h' : hnsw) : Prop := {
    gr_fw : forall id v, node_by_id h id = Some v -> exists v', node_by_id h' id = Some v' /\
      v_level v' = v_level v /\ v_vec v' = v_vec v /\ v_maint v' = v_maint v;
    gr_bw : forall id v', node_by_id h' id = Some v' -> exists v, node_by_id h id = Some v;
    gr_kv : h_kv h' = h_kv h /\ h_kv_ep h' = h_kv_ep h /\ h_kv_count h' = h_kv_count h;
    gr_ep : h_ep h' = h_ep h /\ h_maxl h' = h_maxl h;
    gr_tomb : h_tomb h' = h_tomb h /\ h_once h' = h_once h
  }.

  Lemma grel_refl h : grel h h.
  Proof. constructor; auto. intros id v H. exists v. auto. eauto. Qed.

  Lemma grel_lrel l h1 h2 h3 : lrel l h1 h2 -> grel h2 h3 -> grel h1 h3.
  Proof.
    intros [F1 B1 K1 E1 T1] [F2 B2 K2 E2 T2]. constructor.
    - intros id v Hv. destruct (F1 _ _ Hv) as (v2 & Hv2 & L2 & V2 & M2 & C2).
      destruct (F2 _ _ Hv2) as (v3 & Hv3 & L3 & V3 & M3). exists v3. repeat split; congruence.
    - intros id v3 H3. destruct (B2 _ _ H3) as (v2 & H2). eauto.
    - intuition congruence.
    - intuition congruence.
    - intuition congruence.
  Qed.

  Lemma connect_levels_inv nid q l : forall h ep vep,
    linking nid l h -> unlinked_upto l nid h -> ep <> nid ->
    node_by_id h ep = Some vep -> l <= v_level vep ->
    let r := connect_levels I h nid q l ep in
    winv (fst r) /\ ids_small E (fst r) /\ grel h (fst r).
  Proof.
    induction l as [|l IH]; intros h ep vep Hlk Hu Hne Hep Hl; cbn [connect_levels].
    - pose proof (do_at_level_inv h nid q 0 ep vep Hlk Hu Hne Hep Hl) as ([W1 S1 N1] & R1 & _ & _).
      assert (G1 : grel h (fst (do_at_level I h nid q 0 ep))) by (eapply grel_lrel; eauto using grel_refl).
      destruct (do_at_level I h nid q 0 ep) as [h' [ep'|e| |]]; cbn [fst] in *; auto.
    - pose proof (do_at_level_inv h nid q (S l) ep vep Hlk Hu Hne Hep Hl) as ([W1 S1 N1] & R1 & _ & Hok).
      assert (G1 : grel h (fst (do_at_level I h nid q (S l) ep))) by (eapply grel_lrel; eauto using grel_refl).
      destruct (do_at_level I h nid q (S l) ep) as [h' [ep'|e| |]]; cbn [fst snd] in *; auto.
      destruct (Hok ep' eq_refl) as (Hne' & v' & Hv' & Hl').
      destruct (IH h' ep' v') as (W2 & S2 & G2); auto.
      + constructor; auto. destruct N1 as (v & Hv & Hlv). exists v. split; [auto|lia].
      + eapply unlinked_lrel; eauto. intros id v l2 cs Hv Hl2. eapply Hu; eauto.
      + lia.
      + split; [exact W2|]. split; [exact S2|]. eapply grel_lrel; eauto.
  Qed.

  (** The descent of an insertion stays on the layers above the target. *)
  Lemma best_entrypoint_sound h q target n : forall ep vep ep',
    winv h -> ids_small E h -> node_by_id h ep = Some vep -> target + n <= v_level vep ->
    best_entrypoint I h q target n ep = Ok ep' ->
    exists v', node_by_id h ep' = Some v' /\ target <= v_level v' /\ (n <> 0 -> target < v_level v') /\
      (ep' = ep \/ exists l j v cs, target < l /\ node_by_id h j = Some v /\
          nth_error (v_conns v) l = Some cs /\ In ep' cs).
  Proof.
    induction n as [|n IH]; intros ep vep ep' W S Hep Hl H; cbn [best_entrypoint] in H.
    - inversion H; subst. exists vep. repeat split; auto; lia.
    - apply bind_Ok in H. destruct H as (d & Hd & H).
      apply bind_Ok in H. destruct H as (r & Hr & H).
      assert (Hkeep : forall e, best_entrypoint I h q target n ep = Ok e -> e = ep' ->
        exists v', node_by_id h ep' = Some v' /\ target <= v_level v' /\ (Datatypes.S n <> 0 -> target < v_level v') /\
          (ep' = ep \/ exists l j v cs, target < l /\ node_by_id h j = Some v /\
              nth_error (v_conns v) l = Some cs /\ In ep' cs)).
      { intros e He ->. destruct n as [|n].
        - cbn in He. inversion He; subst. exists vep. repeat split; auto; lia.
        - destruct (IH ep vep ep' W S Hep ltac:(lia) He) as (v' & H1 & H2 & H3 & H4).
          exists v'. repeat split; auto. }
      destruct (pq_pop less_max r) as [[x r']|] eqn:Ep; [|eapply Hkeep; eauto].
      destruct (node_by_id h (it_id x)) as [vx|] eqn:Ex; [|eapply Hkeep; eauto].
      destruct (v_maint vx) eqn:Em; [eapply Hkeep; eauto|].
      apply dist_node_vec_spec in Hd; [|exact Hsym].
      assert (Hls := layer_sound E h q 1 (target + Datatypes.S n) None (mkItem ep d) r Hsc).
      cbn [it_id it_dist] in Hls. destruct Hls as (Hin & _ & _); auto.
      { eapply S; eauto. }
      assert (Hx : In x r).
      { eapply Permutation_in; [symmetry; eapply pop_perm; eauto|now left]. }
      destruct (Hin x Hx) as (_ & Hre & _).
      destruct (reach_level _ _ _ _ _ W Hep Hl Hre) as (w & Hw & Hlw).
      assert (vx = w) by congruence. subst w.
      destruct (IH (it_id x) vx ep' W S Hw ltac:(lia) H) as (v' & H1 & H2 & H3 & H4).
      exists v'. split; [exact H1|]. split; [exact H2|]. split.
      + destruct n as [|n]; [|intros _; apply H3; lia]. cbn in H. inversion H; subst.
        rewrite H1 in Hw. inversion Hw; subst. lia.
      + destruct H4 as [->|H4]; [|auto].
        inversion Hre as [|b v conns c Hr2 Hb Hlb Hc Hin2]; subst; [left; auto|].
        right. exists (target + Datatypes.S n), b, v, conns. repeat split; auto. lia.
  Qed.

  (* ---------------------------------------------------------------- *)
  (** Whole insertions. *)

  (** The entry point is stored on the top layer. *)
  Definition ep_top (h : hnsw) : Prop :=
    exists v, node_by_id h (h_ep h) = Some v /\ h_maxl h <= v_level v.

  (** Nothing is stored and nothing was inserted yet. *)
  Definition pristine (h : hnsw) : Prop :=
    h_cache h = [] /\ h_kv h = [] /\ h_kv_ep h = None /\ h_kv_count h = None /\ h_once h = false.

  Definition built (h : hnsw) : Prop :=
    winv h /\ ids_small E h /\ ep_top h /\ (h_once h = true \/ is_empty h = false).

  Lemma pristine_empty h : pristine h -> is_empty h = true /\ forall id, node_by_id h id = None.
  Proof.
    intros (H1 & H2 & H3 & H4 & H5). unfold is_empty, node_by_id. rewrite H1, H2, H3, H4. auto.
  Qed.

  Lemma winv_put_new h id q t : winv h -> unlinked id h -> winv (put_node h (new_vertex id q t)).
  Proof.
    intros [Wi Wl Wk Wn] Hu. constructor.
    - intros j v. rewrite node_put. cbn [v_id new_vertex]. destruct (N.eqb_spec j id) as [->|]; [|apply Wi].
      intros [= <-]; reflexivity.
    - intros j v. rewrite node_put. cbn [v_id new_vertex]. destruct (N.eqb_spec j id) as [->|]; [|apply Wl].
      intros [= <-]. apply repeat_length.
    - intros j v l cs c. rewrite node_put. cbn [v_id new_vertex]. destruct (N.eqb_spec j id) as [->|Hj].
      + intros [= <-]. unfold new_vertex; cbn [v_conns]; intros Hn Hc. apply nth_error_In, repeat_spec in Hn.
        subst cs. destruct Hc.
      + intros Hv Hn Hc. destruct (Wk _ _ _ _ _ Hv Hn Hc) as (H1 & w & H2 & H3).
        split; [exact H1|]. exists w. split; [|exact H3]. rewrite node_put_ne; [exact H2|].
        cbn. intros ->. exact (Hu _ _ _ _ Hv Hn Hc).
    - intros j v l cs. rewrite node_put. cbn [v_id new_vertex]. destruct (N.eqb_spec j id) as [->|]; [|apply Wn].
      intros [= <-]. unfold new_vertex; cbn [v_conns]; intros Hn. apply nth_error_In, repeat_spec in Hn.
      subst cs. constructor.
  Qed.

  Lemma unlinked_put_new h id q t : unlinked id h -> unlinked id (put_node h (new_vertex id q t)).
  Proof.
    intros Hu j v l cs. rewrite node_put. cbn [v_id new_vertex]. destruct (N.eqb_spec j id) as [->|Hj].
    - intros [= <-]. unfold new_vertex; cbn [v_conns]; intros Hn. apply nth_error_In, repeat_spec in Hn.
      subst cs. auto.
    - apply Hu.
  Qed.

  Lemma ids_small_put h v : ids_small E h -> (v_id v < e_vcap E)%N -> ids_small E (put_node h v).
  Proof.
    intros Hs Hv j w. rewrite node_put. destruct (N.eqb_spec j (v_id v)) as [->|]; [auto|apply Hs].
  Qed.

  Lemma winv_set_maint h v b : winv h -> node_by_id h (v_id v) = Some v -> winv (put_node h (set_maint v b)).
  Proof.
    intros [Wi Wl Wk Wn] Hv.
    assert (Hn : forall j w, node_by_id (put_node h (set_maint v b)) j = Some w ->
       exists w0, node_by_id h j = Some w0 /\ v_id w = v_id w0 /\ v_level w = v_level w0 /\ v_conns w = v_conns w0).
    { intros j w. rewrite node_put. cbn. destruct (N.eqb_spec j (v_id v)) as [->|]; [|eauto].
      intros E; inversion E; subst. exists v. auto. }
    assert (Hn2 : forall j w, node_by_id h j = Some w ->
       exists w0, node_by_id (put_node h (set_maint v b)) j = Some w0 /\ v_level w0 = v_level w).
    { intros j w Hw. rewrite node_put. cbn. destruct (N.eqb_spec j (v_id v)) as [->|]; [|eauto].
      rewrite Hv in Hw. inversion Hw; subst. eexists; split; [reflexivity|reflexivity]. }
    constructor.
    - intros j w Hw. destruct (Hn _ _ Hw) as (w0 & H0 & -> & _). eauto.
    - intros j w Hw. destruct (Hn _ _ Hw) as (w0 & H0 & _ & -> & ->). eauto.
    - intros j w l cs c Hw Hl Hc. destruct (Hn _ _ Hw) as (w0 & H0 & _ & _ & E). rewrite E in Hl.
      destruct (Wk _ _ _ _ _ H0 Hl Hc) as (H1 & x & H2 & H3). split; [exact H1|].
      destruct (Hn2 _ _ H2) as (x0 & Hx & Lx). exists x0. split; [auto|lia].
    - intros j w l cs Hw Hl. destruct (Hn _ _ Hw) as (w0 & H0 & _ & _ & E). rewrite E in Hl. eauto.
  Qed.

  (** What one insertion of [id] may do to the other vertices and to the rest
      of the state. *)
  Record arel (id : N) (h h' : hnsw) : Prop := {
    ar_fw : forall j v, j <> id -> node_by_id h j = Some v -> exists v', node_by_id h' j = Some v' /\
      v_level v' = v_level v /\ v_vec v' = v_vec v /\ v_maint v' = v_maint v;
    ar_bw : forall j v', j <> id -> node_by_id h' j = Some v' -> exists v, node_by_id h j = Some v;
    ar_kv : h_kv h' = h_kv h /\ h_kv_ep h' = h_kv_ep h /\ h_kv_count h' = h_kv_count h;
    ar_tomb : h_tomb h' = h_tomb h
  }.

  (** One insertion into a built index, with an id nothing links to. *)
  Lemma insert_linked_inv h id q t :
    winv h -> ids_small E h -> ep_top h -> unlinked id h -> h_ep h <> id -> (id < e_vcap E)%N ->
    let r := insert_linked I h id q t in
    winv (fst r) /\ ids_small E (fst r) /\ ep_top (fst r) /\ arel id h (fst r) /\
    h_once (fst r) = h_once h /\
    h_maxl h <= h_maxl (fst r) /\
    (snd r = Ok tt -> (exists v, node_by_id (fst r) id = Some v /\ v_level v = t /\ v_vec v = q /\
        v_maint v = false /\ t <= h_maxl (fst r))) /\
    ((h_ep (fst r) = h_ep h /\ h_maxl (fst r) = h_maxl h) \/
     (snd r = Ok tt /\ h_ep (fst r) = id /\ h_maxl (fst r) = t)).
  Proof.
    intros W S (vep & Hep & Hmax) Hu Hne Hsm. unfold insert_linked.
    assert (Hstay : forall r : res unit, (forall u, r <> Ok u) ->
      winv (fst (h, r)) /\ ids_small E (fst (h, r)) /\ ep_top (fst (h, r)) /\ arel id h (fst (h, r)) /\
      h_once (fst (h, r)) = h_once h /\ h_maxl h <= h_maxl (fst (h, r)) /\
      (snd (h, r) = Ok tt -> (exists v, node_by_id (fst (h, r)) id = Some v /\ v_level v = t /\
        v_vec v = q /\ v_maint v = false /\ t <= h_maxl (fst (h, r)))) /\
      ((h_ep (fst (h, r)) = h_ep h /\ h_maxl (fst (h, r)) = h_maxl h) \/
       (snd (h, r) = Ok tt /\ h_ep (fst (h, r)) = id /\ h_maxl (fst (h, r)) = t))).
    { intros r Hr. cbn [fst snd]. split; [exact W|]. split; [exact S|]. split; [exists vep; auto|].
      split; [constructor; eauto|]. split; [auto|]. split; [lia|]. split; [|auto].
      intros E; edestruct Hr; eauto. }
    destruct (negb (N.ltb id (i_vcsize I))); [apply Hstay; discriminate|].
    set (h1 := put_node h (new_vertex id q t)).
    assert (W1 : winv h1) by now apply winv_put_new.
    assert (S1 : ids_small E h1) by now apply ids_small_put.
    assert (U1 : unlinked id h1) by now apply unlinked_put_new.
    assert (Hep1 : node_by_id h1 (h_ep h) = Some vep).
    { unfold h1. rewrite node_put_ne; auto. }
    assert (Hn1 : node_by_id h1 id = Some (new_vertex id q t)) by (apply (node_put_eq h (new_vertex id q t))).
    assert (A1 : arel id h h1).
    { constructor; auto; unfold h1.
      - intros j v Hj Hv. exists v. rewrite node_put_ne; auto.
      - intros j v Hj. rewrite node_put_ne; eauto. }
    assert (Hstay1 : forall r : res unit, (forall u, r <> Ok u) ->
      winv (fst (h1, r)) /\ ids_small E (fst (h1, r)) /\ ep_top (fst (h1, r)) /\ arel id h (fst (h1, r)) /\
      h_once (fst (h1, r)) = h_once h /\ h_maxl h <= h_maxl (fst (h1, r)) /\
      (snd (h1, r) = Ok tt -> (exists v, node_by_id (fst (h1, r)) id = Some v /\ v_level v = t /\
        v_vec v = q /\ v_maint v = false /\ t <= h_maxl (fst (h1, r)))) /\
      ((h_ep (fst (h1, r)) = h_ep h /\ h_maxl (fst (h1, r)) = h_maxl h) \/
       (snd (h1, r) = Ok tt /\ h_ep (fst (h1, r)) = id /\ h_maxl (fst (h1, r)) = t))).
    { intros r Hr. cbn [fst snd]. split; [exact W1|]. split; [exact S1|].
      split; [exists vep; auto|]. split; [exact A1|]. split; [auto|]. split; [cbn; lia|].
      split; [intros E; edestruct Hr; eauto|auto]. }
    destruct (best_entrypoint I h1 q t (h_maxl h - t) (h_ep h)) as [ep|e| |] eqn:Eb;
      try (apply Hstay1; discriminate).
    assert (Hbest : exists v', node_by_id h1 ep = Some v' /\ Nat.min t (h_maxl h) <= v_level v' /\ ep <> id).
    { destruct (Nat.leb_spec (h_maxl h) t) as [Hle|Hgt].
      - replace (h_maxl h - t) with 0 in Eb by lia. cbn in Eb. inversion Eb; subst.
        exists vep. repeat split; auto. lia.
      - destruct (best_entrypoint_sound h1 q t (h_maxl h - t) (h_ep h) vep ep W1 S1 Hep1 ltac:(lia) Eb)
          as (v' & H1 & H2 & H3 & H4). exists v'. split; [exact H1|]. split; [lia|].
        destruct H4 as [->|(l & j & v & cs & _ & Hj & Hn & Hin)]; [exact Hne|].
        intros ->. eapply U1; eauto. }
    destruct Hbest as (vb & Hvb & Hlb & Hneb).
    assert (Hlk : linking id (Nat.min t (h_maxl h)) h1).
    { constructor; auto. exists (new_vertex id q t). split; [exact Hn1|]. cbn. lia. }
    assert (Huu : unlinked_upto (Nat.min t (h_maxl h)) id h1) by (intros j v l cs Hv _; now apply (U1 j)).
    pose proof (connect_levels_inv id q (Nat.min t (h_maxl h)) h1 ep vb Hlk Huu Hneb Hvb Hlb) as (W2 & S2 & G2).
    destruct (connect_levels I h1 id q (Nat.min t (h_maxl h)) ep) as [h2 r2] eqn:Ec. cbn [fst] in W2, S2, G2.
    assert (A2 : arel id h h2).
    { constructor.
      - intros j v Hj Hv. destruct (gr_fw _ _ G2 j v) as (v' & H1 & H2 & H3 & H4); [|exists v'; auto].
        unfold h1. rewrite node_put_ne; auto.
      - intros j v Hj Hv. destruct (gr_bw _ _ G2 j v Hv) as (v' & H1). unfold h1 in H1.
        rewrite node_put_ne in H1; eauto.
      - exact (gr_kv _ _ G2).
      - exact (proj1 (gr_tomb _ _ G2)). }
    destruct (gr_ep _ _ G2) as [G2e G2m]. destruct (gr_tomb _ _ G2) as [_ G2o].
    cbn [h1 put_node with_cache h_ep h_maxl h_once] in G2e, G2m, G2o.
    assert (Hep2 : exists v, node_by_id h2 (h_ep h) = Some v /\ h_maxl h <= v_level v).
    { destruct (gr_fw _ _ G2 _ _ Hep1) as (v' & H1 & H2 & _). exists v'. split; [auto|lia]. }
    assert (Hstay2 : forall r : res unit, (forall u, r <> Ok u) ->
      winv (fst (h2, r)) /\ ids_small E (fst (h2, r)) /\ ep_top (fst (h2, r)) /\ arel id h (fst (h2, r)) /\
      h_once (fst (h2, r)) = h_once h /\ h_maxl h <= h_maxl (fst (h2, r)) /\
      (snd (h2, r) = Ok tt -> (exists v, node_by_id (fst (h2, r)) id = Some v /\ v_level v = t /\
        v_vec v = q /\ v_maint v = false /\ t <= h_maxl (fst (h2, r)))) /\
      ((h_ep (fst (h2, r)) = h_ep h /\ h_maxl (fst (h2, r)) = h_maxl h) \/
       (snd (h2, r) = Ok tt /\ h_ep (fst (h2, r)) = id /\ h_maxl (fst (h2, r)) = t))).
    { intros r Hr. cbn [fst snd]. split; [exact W2|]. split; [exact S2|].
      split; [unfold ep_top; rewrite G2e, G2m; exact Hep2|]. split; [exact A2|].
      split; [exact G2o|]. split; [lia|]. split; [intros E; edestruct Hr; eauto|auto]. }
    destruct r2 as [[]|e| |]; try (apply Hstay2; discriminate). clear Hstay Hstay1 Hstay2.
    cbn [fst snd].
    destruct (gr_fw _ _ G2 _ _ Hn1) as (vn & Hvn & Ln & Vn & Mn).
    cbn [new_vertex v_level v_vec v_maint] in Ln, Vn, Mn.
    pose proof (w_id _ W2 _ _ Hvn) as Hidn.
    unfold finish_insert. rewrite Hvn. set (h3 := put_node h2 (set_maint vn false)).
    assert (W3 : winv h3). { apply winv_set_maint; auto. now rewrite Hidn. }
    assert (S3 : ids_small E h3). { apply ids_small_put; auto. cbn. now rewrite Hidn. }
    assert (Hn3 : node_by_id h3 id = Some (set_maint vn false)).
    { unfold h3. rewrite node_put. cbn. rewrite Hidn, N.eqb_refl. reflexivity. }
    assert (A3 : arel id h h3).
    { destruct A2 as [F2 B2 K2 T2]. constructor; unfold h3.
      - intros j v Hj Hv. rewrite node_put_ne by (cbn; congruence). auto.
      - intros j v Hj. rewrite node_put_ne by (cbn; congruence). exact (B2 j v Hj).
      - exact K2.
      - exact T2. }
    assert (Hm3 : h_maxl h3 = h_maxl h) by exact G2m.
    assert (He3 : h_ep h3 = h_ep h) by exact G2e.
    destruct (Nat.ltb_spec (h_maxl h3) t) as [Hlt|Hge].
    - split; [apply (winv_ext h3); [reflexivity|exact W3]|]. split; [exact S3|]. split.
      { exists (set_maint vn false). cbn. split; [exact Hn3|]. cbn. lia. }
      split; [destruct A3; constructor; auto|]. split; [exact G2o|]. split; [cbn; lia|]. split.
      + intros _. exists (set_maint vn false). cbn. repeat split; auto.
      + right. auto.
    - split; [exact W3|]. split; [exact S3|]. split.
      { unfold ep_top. rewrite He3, Hm3. unfold h3. rewrite node_put_ne by (cbn; congruence). exact Hep2. }
      split; [exact A3|]. split; [exact G2o|]. split; [lia|]. split.
      + intros _. exists (set_maint vn false). cbn. repeat split; auto.
      + left. auto.
  Qed.
End Structure.
