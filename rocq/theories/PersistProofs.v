(** Proofs about the write-back model: which vertices a history leaves in the
    node cache and in the key-value table. *)
From Verif Require Import Base F32 PQ PQProofs Graph Search SearchProofs SearchLayer SearchKnn
  SearchCong Insert HeuristicProofs InsertProofs InsertHist Persist.

(** Invariant of an index over its table, for every history. *)
Record pinv (h : hnsw) : Prop := {
  pi_kvid : forall j v, mget j (h_kv h) = Some v -> v_id v = j;
  pi_cid : forall j v, mget j (h_cache h) = Some v -> v_id v = j;
  pi_kvunc : forall j v, mget j (h_kv h) = Some v -> v_committed v = false;
  pi_clean : forall j v, mget j (h_cache h) = Some v -> v_committed v = true ->
    mget j (h_kv h) = Some (stored v);
  pi_kvlen : forall j v, mget j (h_kv h) = Some v -> length (v_conns v) = S (v_level v);
  pi_clen : forall j v, mget j (h_cache h) = Some v -> length (v_conns v) = S (v_level v)
}.

Lemma pinv_id h j v : pinv h -> node_by_id h j = Some v -> v_id v = j.
Proof.
  intros H. unfold node_by_id. destruct (mget j (h_cache h)) eqn:E; [intros [= <-]; eapply pi_cid; eauto|].
  eapply pi_kvid; eauto.
Qed.
Lemma pinv_len h j v : pinv h -> node_by_id h j = Some v -> length (v_conns v) = S (v_level v).
Proof.
  intros H. unfold node_by_id. destruct (mget j (h_cache h)) eqn:E; [intros [= <-]; eapply pi_clen; eauto|].
  eapply pi_kvlen; eauto.
Qed.

(* ------------------------------------------------------------------ *)
(** Insertion only puts dirty vertices into the cache. *)
Record prel (nid : N) (Q : vec) (h h' : hnsw) : Prop := {
  pr_kv : h_kv h' = h_kv h /\ h_kv_ep h' = h_kv_ep h /\ h_kv_count h' = h_kv_count h;
  pr_tomb : h_tomb h' = h_tomb h;
  pr_new : forall j v, mget j (h_cache h') = Some v ->
    mget j (h_cache h) = Some v \/
    (v_committed v = false /\ v_id v = j /\ length (v_conns v) = S (v_level v) /\
     (j = nid /\ v_vec v = Q \/ exists w, node_by_id h j = Some w /\ v_vec v = v_vec w));
  pr_keep : forall j v, mget j (h_cache h) = Some v -> exists v', mget j (h_cache h') = Some v'
}.

Lemma prel_refl nid Q h : prel nid Q h h.
Proof. constructor; auto. intros j v Hv. eauto. Qed.

Lemma prel_node nid Q h h' j v : prel nid Q h h' -> node_by_id h j = Some v ->
  exists v', node_by_id h' j = Some v'.
Proof.
  intros [(K & _) _ _ Hk]. unfold node_by_id. rewrite K.
  destruct (mget j (h_cache h)) as [w|] eqn:E.
  - intros _. destruct (Hk j w E) as (v' & ->). eauto.
  - intros H. destruct (mget j (h_cache h')); eauto.
Qed.

Lemma prel_back nid Q h h' j v : prel nid Q h h' -> node_by_id h' j = Some v ->
  j = nid /\ v_vec v = Q \/ exists w, node_by_id h j = Some w /\ v_vec v = v_vec w.
Proof.
  intros [(K & _) _ Hn Hk]. unfold node_by_id. rewrite K.
  destruct (mget j (h_cache h')) as [w|] eqn:E.
  - intros [= <-]. destruct (Hn j w E) as [E1|(_ & _ & _ & H)]; [rewrite E1; eauto|].
    unfold node_by_id in H. exact H.
  - destruct (mget j (h_cache h)) as [w|] eqn:E1; [|eauto].
    destruct (Hk j w E1) as (v' & E2). congruence.
Qed.

Lemma prel_trans nid Q h1 h2 h3 : prel nid Q h1 h2 -> prel nid Q h2 h3 -> prel nid Q h1 h3.
Proof.
  intros H12 H23. pose proof H12 as [(A1 & A2 & A3) T1 N1 K1]. pose proof H23 as [(B1 & B2 & B3) T2 N2 K2].
  constructor.
  - repeat split; congruence.
  - congruence.
  - intros j v Hv. destruct (N2 j v Hv) as [H|(C & Hi & L & H)]; [exact (N1 j v H)|]. right.
    split; [exact C|]. split; [exact Hi|]. split; [exact L|]. destruct H as [H|(w & Hw & Hvec)]; [now left|].
    destruct (prel_back _ _ _ _ _ _ H12 Hw) as [[H1 H2]|(w1 & Hw1 & Hv1)]; [left; split; congruence|]. right. exists w1. split; congruence.
  - intros j v Hv. destruct (K1 j v Hv) as (v2 & Hv2). exact (K2 j v2 Hv2).
Qed.

Lemma mget_put h v j : mget j (h_cache (put_node h v)) = if N.eqb j (v_id v) then Some v else mget j (h_cache h).
Proof. cbn. exact (mget_mset j (v_id v) v (h_cache h)). Qed.

Lemma prel_put nid Q h v : v_committed v = false -> length (v_conns v) = S (v_level v) ->
  (v_id v = nid /\ v_vec v = Q \/ exists w, node_by_id h (v_id v) = Some w /\ v_vec v = v_vec w) ->
  prel nid Q h (put_node h v).
Proof.
  intros C L H. constructor; auto.
  - intros j x. rewrite mget_put. destruct (N.eqb_spec j (v_id v)) as [->|]; [|auto].
    intros [= <-]. auto.
  - intros j x Hx. rewrite mget_put. destruct (N.eqb j (v_id v)); eauto.
Qed.

(** The vertex [nid] is cached and dirty. *)
Definition dirty (nid : N) (h : hnsw) : Prop :=
  exists v, mget nid (h_cache h) = Some v /\ v_committed v = false.

Lemma prel_dirty nid Q h h' : prel nid Q h h' -> dirty nid h -> dirty nid h'.
Proof.
  intros [_ _ N K] (v & Hv & Hc). destruct (K nid v Hv) as (v' & Hv'). exists v'. split; [exact Hv'|].
  destruct (N nid v' Hv') as [E|(C & _)]; [congruence|exact C].
Qed.

Section Rel.
  Variable I : ienv.
  Variable nid : N.
  Variable Q : vec.

  Definition wfh (h : hnsw) : Prop :=
    forall j v, node_by_id h j = Some v -> v_id v = j /\ length (v_conns v) = S (v_level v).

  Lemma prel_wfh h h' : prel nid Q h h' -> wfh h -> wfh h'.
  Proof.
    intros Hp Hw j v. pose proof Hp as [(Hk & _) _ Hnew _]. unfold node_by_id. rewrite Hk.
    destruct (mget j (h_cache h')) as [w|] eqn:E.
    - intros [= <-]. destruct (Hnew j w E) as [E1|(_ & Hi & L & _)]; [|auto].
      apply Hw. unfold node_by_id. now rewrite E1.
    - destruct (mget j (h_cache h)) as [w|] eqn:E1.
      + destruct (pr_keep _ _ _ _ Hp j w E1) as (v' & E2). congruence.
      + intros Hv. apply Hw. unfold node_by_id. now rewrite E1.
  Qed.

  Lemma connect_neighbor_prel h l nb : wfh h -> prel nid Q h (fst (connect_neighbor I h nid l nb)).
  Proof.
    intros Hw. unfold connect_neighbor. destruct (node_by_id h nb) as [v|] eqn:Ev; [|apply prel_refl].
    destruct (N.eqb_spec nb nid); [apply prel_refl|]. destruct (has_tombstone h (v_id v)); [apply prel_refl|].
    destruct (Hw nb v Ev) as [Hid Hlen].
    set (v2 := if Nat.ltb _ l then _ else _).
    assert (H2 : v_id v2 = nb /\ v_vec v2 = v_vec v /\ v_committed v2 = false /\
                 length (v_conns v2) = S (v_level v2)).
    { unfold v2. cbn [v_level set_committed]. destruct (Nat.ltb_spec (v_level v) l) as [Hlt|Hge]; [|cbn; auto].
      unfold upgrade_level. cbn [v_id v_vec v_committed v_conns v_level set_level set_conns set_committed].
      rewrite app_length, firstn_length, repeat_length. repeat split; auto. lia. }
    destruct H2 as (I2 & V2 & C2 & L2).
    assert (E1 : prel nid Q h (put_node h v2)).
    { apply prel_put; auto. right. exists v. rewrite I2. auto. }
    assert (Hset : forall k cs, prel nid Q h (put_node (put_node h v2) (set_conns v2 (upd (v_conns v2) k cs)))).
    { intros k cs. eapply prel_trans; [exact E1|]. apply prel_put; cbn; auto; [now rewrite upd_length|].
      right. exists v2. split; [apply node_put_eq|reflexivity]. }
    destruct (conns_at v2 l) as [cs|] eqn:Ec; [|exact E1].
    destruct (Nat.ltb (length cs) (max_conns I l)).
    - unfold append_conn_at. unfold conns_at in Ec. rewrite Ec. apply Hset.
    - destruct (reselect I nid nb l cs); [apply Hset|exact E1..].
  Qed.

  Lemma connect_all_prel l nbs : forall h, wfh h -> prel nid Q h (fst (connect_all I h nid l nbs)).
  Proof.
    induction nbs as [|nb nbs IH]; intros h Hw; cbn [connect_all]; [apply prel_refl|].
    pose proof (connect_neighbor_prel h l nb Hw) as H.
    destruct (connect_neighbor I h nid l nb) as [h' [[]|e| |]]; cbn [fst] in *; auto.
    eapply prel_trans; [exact H|]. apply IH. now apply (prel_wfh _ _ H).
  Qed.

  Lemma do_at_level_prel h q l ep : wfh h -> dirty nid h -> prel nid Q h (fst (do_at_level I h nid q l ep)).
  Proof.
    intros Hw (v0 & Hv0 & Hc0). unfold do_at_level.
    destruct (choose_neighbours I h nid q l ep) as [[ep' nbs]|e| |]; try apply prel_refl.
    destruct (node_by_id h nid) as [v|] eqn:Ev; [|apply prel_refl].
    assert (v = v0) by (unfold node_by_id in Ev; rewrite Hv0 in Ev; congruence). subst v0.
    destruct (Hw nid v Ev) as [Hid Hlen].
    unfold set_conns_at. destruct (Nat.ltb l (length (v_conns v))); [|apply prel_refl].
    assert (E1 : prel nid Q h (put_node h (set_conns v (upd (v_conns v) l nbs)))).
    { apply prel_put; cbn; auto; [now rewrite upd_length|]. right. exists v. now rewrite Hid. }
    pose proof (connect_all_prel l nbs _ (prel_wfh _ _ E1 Hw)) as H.
    destruct (connect_all I _ nid l nbs) as [h' [[]|e| |]]; cbn [fst] in *; eapply prel_trans; eauto.
  Qed.

  Lemma connect_levels_prel q l : forall h ep, wfh h -> dirty nid h ->
    prel nid Q h (fst (connect_levels I h nid q l ep)).
  Proof.
    induction l as [|l IH]; intros h ep Hw Hd; cbn [connect_levels].
    - pose proof (do_at_level_prel h q 0 ep Hw Hd) as H.
      destruct (do_at_level I h nid q 0 ep) as [h' [ep'|e| |]]; exact H.
    - pose proof (do_at_level_prel h q (S l) ep Hw Hd) as H.
      destruct (do_at_level I h nid q (S l) ep) as [h' [ep'|e| |]]; cbn [fst] in *; auto.
      eapply prel_trans; [exact H|]. apply IH; [now apply (prel_wfh _ _ H)|now apply (prel_dirty _ _ _ _ H)].
  Qed.

  (** The entry point of the result is the old one or [nid]. *)
  Lemma connect_levels_ep q l : forall h ep, h_ep (fst (connect_levels I h nid q l ep)) = h_ep h.
  Proof.
    assert (Hn : forall h l nb, h_ep (fst (connect_neighbor I h nid l nb)) = h_ep h).
    { intros h l0 nb. unfold connect_neighbor. destruct (node_by_id h nb); [|reflexivity].
      destruct (N.eqb nb nid); [reflexivity|]. destruct (has_tombstone h _); [reflexivity|].
      destruct (conns_at _ l0); [|reflexivity]. destruct (Nat.ltb _ _).
      - destruct (append_conn_at _ _ _); reflexivity.
      - destruct (reselect _ _ _ _ _); reflexivity. }
    assert (Ha : forall l nbs h, h_ep (fst (connect_all I h nid l nbs)) = h_ep h).
    { intros l0. induction nbs as [|nb nbs IH]; intros h; cbn [connect_all]; [reflexivity|].
      specialize (Hn h l0 nb). destruct (connect_neighbor I h nid l0 nb) as [h' [[]|e| |]]; cbn [fst] in *; auto.
      rewrite IH. exact Hn. }
    assert (Hd : forall h l ep, h_ep (fst (do_at_level I h nid q l ep)) = h_ep h).
    { intros h l0 ep. unfold do_at_level. destruct (choose_neighbours _ _ _ _ _ _) as [[ep' nbs]|e| |]; try reflexivity.
      destruct (node_by_id h nid) as [v|]; [|reflexivity].
      destruct (set_conns_at v l0 nbs) as [v'|e| |]; try reflexivity.
      specialize (Ha l0 nbs (put_node h v')). destruct (connect_all _ _ _ _ _) as [h' [[]|e| |]]; exact Ha. }
    induction l as [|l IH]; intros h ep; cbn [connect_levels].
    - specialize (Hd h 0 ep). destruct (do_at_level _ _ _ _ _ _) as [h' [ep'|e| |]]; exact Hd.
    - specialize (Hd h (S l) ep). destruct (do_at_level _ _ _ _ _ _) as [h' [ep'|e| |]]; cbn [fst] in *; auto.
      rewrite IH. exact Hd.
  Qed.
End Rel.

Lemma add_prel I h id q0 t : wfh h ->
  let Q := p_normalize (e_prov (i_env I)) q0 in
  prel id Q h (fst (add I h id q0 t)) /\
  (h_ep (fst (add I h id q0 t)) = h_ep h \/
   h_ep (fst (add I h id q0 t)) = id /\ exists v, mget id (h_cache (fst (add I h id q0 t))) = Some v).
Proof.
  intros Hw. cbv zeta. set (Q := p_normalize _ _). unfold add. destruct q0 as [|x q0']; [split; [apply prel_refl|now left]|].
  change (p_normalize (e_prov (i_env I)) (x :: q0')) with Q.
  assert (Ho : prel id Q h (with_once h)) by (constructor; auto; intros j v Hv; eauto).
  unfold insert. destruct (negb (h_once h) && is_empty h).
  - unfold insert_initial. set (v := mkV id 0 [[]] false Q false).
    assert (E : prel id Q h (put_node (with_ep (with_once h) id 0) v)).
    { constructor; auto.
      - intros j w Hj. rewrite mget_put in Hj. change (v_id v) with id in Hj.
        destruct (N.eqb_spec j id) as [->|]; [|now left]. injection Hj as <-. right. cbn. auto 10.
      - intros j w Hj. rewrite mget_put. destruct (N.eqb j (v_id v)); eauto. }
    assert (Hg : mget id (h_cache (put_node (with_ep (with_once h) id 0) v)) = Some v).
    { rewrite mget_put. cbn. now rewrite N.eqb_refl. }
    destruct (N.ltb id (i_vcsize I)); cbn [fst]; (split; [exact E|right; split; [reflexivity|eauto]]).
  - unfold insert_linked. destruct (negb (N.ltb id (i_vcsize I))); [split; [exact Ho|now left]|].
    set (v := new_vertex id Q t).
    set (h1 := put_node (with_once h) v).
    assert (E1 : prel id Q h h1).
    { eapply prel_trans; [exact Ho|]. apply prel_put; cbn; auto. now rewrite repeat_length. }
    assert (Hd1 : dirty id h1).
    { exists v. split; [|reflexivity]. unfold h1. rewrite mget_put. cbn. now rewrite N.eqb_refl. }
    pose proof (prel_wfh id Q _ _ E1 Hw) as Hw1.
    destruct (best_entrypoint I h1 Q t _ _) as [ep|e| |]; cbn [fst]; try (split; [exact E1|now left]).
    pose proof (connect_levels_prel I id Q Q (Nat.min t (h_maxl (with_once h))) h1 ep Hw1 Hd1) as H.
    pose proof (connect_levels_ep I id Q (Nat.min t (h_maxl (with_once h))) h1 ep) as Hep.
    destruct (connect_levels I h1 id Q _ ep) as [h2 [[]|e| |]]; cbn [fst] in *;
      try (split; [eapply prel_trans; eauto|left; rewrite Hep; reflexivity]).
    assert (E2 : prel id Q h h2) by (eapply prel_trans; eauto).
    pose proof (prel_dirty _ _ _ _ H Hd1) as (w & Hw2 & Cw).
    unfold finish_insert.
    assert (Hnode : node_by_id h2 id = Some w) by (unfold node_by_id; now rewrite Hw2).
    rewrite Hnode. destruct (prel_wfh id Q _ _ E2 Hw id w Hnode) as [Hid Hlen].
    assert (E3 : prel id Q h (put_node h2 (set_maint w false))).
    { eapply prel_trans; [exact E2|]. apply prel_put; cbn; auto. right. exists w. now rewrite Hid. }
    assert (Hg : exists x, mget id (h_cache (put_node h2 (set_maint w false))) = Some x).
    { rewrite mget_put. cbn. rewrite Hid, N.eqb_refl. eauto. }
    destruct (Nat.ltb _ t).
    + split; [|right; split; [reflexivity|exact Hg]].
      destruct E3 as [K T Nw Kp]. constructor; auto.
    + split; [exact E3|]. left. cbn. exact Hep.
Qed.

Lemma pinv_wfh h : pinv h -> wfh h.
Proof. intros H j v Hv. split; [eapply pinv_id; eauto|eapply pinv_len; eauto]. Qed.

Lemma prel_pinv nid Q h h' : prel nid Q h h' -> pinv h -> pinv h'.
Proof.
  intros [(K & _) _ Nw _] [P1 P2 P3 P4 P5 P6]. constructor; rewrite ?K; auto.
  - intros j v Hv. destruct (Nw j v Hv) as [E|(_ & Hi & _)]; eauto.
  - intros j v Hv C. destruct (Nw j v Hv) as [E|(C' & _)]; [eauto|congruence].
  - intros j v Hv. destruct (Nw j v Hv) as [E|(_ & _ & L & _)]; eauto.
Qed.

(* ------------------------------------------------------------------ *)
(** Writing back. *)

(** The vertex as a new process would read it, if it were written now. *)
Definition pview (h : hnsw) (j : N) : option vertex := option_map stored (node_by_id h j).

Lemma stored_stored v : stored (stored v) = stored v.
Proof. reflexivity. Qed.

Lemma stored_id v : v_committed v = false -> stored v = v.
Proof. destruct v as [i l c m w k]; cbn. intros ->. reflexivity. Qed.

Definition put_of (h0 : hnsw) (w : kvput) : Prop :=
  match w with PutNode v => pview h0 (v_id v) = Some (stored v) | _ => True end.

Definition put_step (h : hnsw) (w : kvput) : hnsw := mark_put (do_put h w) w.

(** Effect of one successful put. *)
Lemma put_step_spec h w : pinv h -> put_of h w ->
  (match w with PutNode v => length (v_conns v) = S (v_level v) | _ => True end) ->
  pinv (put_step h w) /\ (forall j, pview (put_step h w) j = pview h j) /\
  (forall j, mget j (h_kv (put_step h w)) =
     match w with
     | PutNode v => if N.eqb j (v_id v) then Some (stored v) else mget j (h_kv h)
     | _ => mget j (h_kv h)
     end) /\
  (h_kv_ep (put_step h w) = match w with PutEp e => Some e | _ => h_kv_ep h end) /\
  (h_kv_count (put_step h w) = match w with PutCount n => Some n | _ => h_kv_count h end) /\
  (h_ep (put_step h w) = h_ep h /\ h_maxl (put_step h w) = h_maxl h /\ h_tomb (put_step h w) = h_tomb h /\
   h_once (put_step h w) = h_once h) /\
  (forall j, mget j (h_cache h) = None <-> mget j (h_cache (put_step h w)) = None).
Proof.
  intros Hp Hw Hlen. destruct w as [v|e|n]; unfold put_step; cbn [do_put mark_put].
  2:{ split; [destruct Hp; constructor; auto|]. repeat split; auto. }
  2:{ split; [destruct Hp; constructor; auto|]. repeat split; auto. }
  set (g := with_kv h (mset (v_id v) (stored v) (h_kv h)) (h_kv_ep h) (h_kv_count h)).
  assert (Hkv : forall j, mget j (h_kv g) = if N.eqb j (v_id v) then Some (stored v) else mget j (h_kv h)).
  { intros j. exact (mget_mset j (v_id v) (stored v) (h_kv h)). }
  change (h_cache g) with (h_cache h).
  destruct (mget (v_id v) (h_cache h)) as [c|] eqn:Ec.
  - assert (Hc : forall j, mget j (h_cache (put_node g (set_committed v true))) =
              if N.eqb j (v_id v) then Some (set_committed v true) else mget j (h_cache h)).
    { intros j. rewrite mget_put. reflexivity. }
    assert (Hkv' : forall j, mget j (h_kv (put_node g (set_committed v true))) =
              if N.eqb j (v_id v) then Some (stored v) else mget j (h_kv h)) by exact Hkv.
    split; [|split; [|split; [exact Hkv'|split; [reflexivity|split; [reflexivity|split; [repeat split|]]]]]].
    + destruct Hp as [P1 P2 P3 P4 P5 P6]. constructor; intros j x; rewrite ?Hkv', ?Hc;
        destruct (N.eqb_spec j (v_id v)) as [->|Hj]; eauto; intros [= <-]; auto.
    + intros j. unfold pview, node_by_id. rewrite Hc, Hkv'.
      destruct (N.eqb_spec j (v_id v)) as [->|Hj]; [|reflexivity]. cbn [option_map].
      cbn [put_of] in Hw. unfold pview, node_by_id in Hw. rewrite Ec in Hw. rewrite Ec. rewrite Hw. reflexivity.
    + intros j. rewrite Hc. destruct (N.eqb_spec j (v_id v)) as [->|Hj]; [|tauto]. rewrite Ec.
      split; discriminate.
  - split; [|split; [|split; [exact Hkv|split; [reflexivity|split; [reflexivity|split; [repeat split|tauto]]]]]].
    + destruct Hp as [P1 P2 P3 P4 P5 P6]. constructor; cbn [h_cache g with_kv]; intros j x; rewrite ?Hkv; eauto.
      * destruct (N.eqb_spec j (v_id v)) as [->|Hj]; eauto; intros [= <-]; auto.
      * destruct (N.eqb_spec j (v_id v)) as [->|Hj]; eauto; intros [= <-]; auto.
      * destruct (N.eqb_spec j (v_id v)) as [->|Hj]; eauto. change (h_cache g) with (h_cache h). congruence.
      * destruct (N.eqb_spec j (v_id v)) as [->|Hj]; eauto; intros [= <-]; auto.
    + intros j. unfold pview, node_by_id. rewrite Hkv. change (h_cache g) with (h_cache h).
      destruct (N.eqb_spec j (v_id v)) as [->|Hj]; [|reflexivity].
      rewrite Ec. cbn [put_of] in Hw. unfold pview, node_by_id in Hw. rewrite Ec in Hw. rewrite Hw. reflexivity.
Qed.

Definition put_len (w : kvput) : Prop :=
  match w with PutNode v => length (v_conns v) = S (v_level v) | _ => True end.

Lemma puts_spec ws : forall h, pinv h -> Forall (put_of h) ws -> Forall put_len ws ->
  let h' := fold_left put_step ws h in
  pinv h' /\ (forall j, pview h' j = pview h j) /\
  (forall j, (mget j (h_kv h') = mget j (h_kv h) /\ (forall v, In (PutNode v) ws -> v_id v <> j)) \/
             ((exists v, In (PutNode v) ws /\ v_id v = j) /\ mget j (h_kv h') = pview h j)) /\
  (h_kv_ep h' = h_kv_ep h \/ exists e, In (PutEp e) ws /\ h_kv_ep h' = Some e) /\
  (h_ep h' = h_ep h /\ h_maxl h' = h_maxl h /\ h_tomb h' = h_tomb h /\ h_once h' = h_once h) /\
  (forall j, mget j (h_cache h) = None <-> mget j (h_cache h') = None).
Proof.
  induction ws as [|w ws IH]; intros h Hp Hof Hlen; cbn [fold_left].
  { cbv zeta. split; [exact Hp|]. split; [reflexivity|]. split; [intros j; left; split; [reflexivity|intros v []]|].
    split; [now left|]. split; [auto|]. tauto. }
  inversion Hof as [|? ? O1 O2]; inversion Hlen as [|? ? L1 L2]; subst.
  destruct (put_step_spec h w Hp O1 L1) as (Hp1 & V1 & K1 & Ep1 & _ & (A1 & A2 & A3 & A4) & C1).
  assert (O2' : Forall (put_of (put_step h w)) ws).
  { eapply Forall_impl; [|exact O2]. intros [v|e|n]; cbn; auto. now rewrite V1. }
  destruct (IH _ Hp1 O2' L2) as (Hp2 & V2 & K2 & Ep2 & (B1 & B2 & B3 & B4) & C2). cbv zeta.
  split; [exact Hp2|]. split; [intros j; now rewrite V2|]. split; [|split; [|split]].
  - intros j. destruct (K2 j) as [[K Hno]|[(v & Hin & Hv) K]].
    + rewrite K, K1. destruct w as [v|e|n]; [|left; split; [reflexivity|intros v [X|X]; [discriminate|auto]]..].
      destruct (N.eqb_spec j (v_id v)) as [->|Hj].
      * right. split; [exists v; split; [now left|reflexivity]|]. cbn in O1. now rewrite O1.
      * left. split; [reflexivity|]. intros x [X|X]; [injection X as <-; congruence|auto].
    + right. split; [exists v; split; [now right|exact Hv]|]. rewrite K. apply V1.
  - destruct Ep2 as [E|(e & Hin & E)]; [|right; exists e; split; [now right|exact E]].
    rewrite E, Ep1. destruct w as [v|e|n]; auto. right. exists e. split; [now left|reflexivity].
  - repeat split; congruence.
  - intros j. rewrite C1. apply C2.
Qed.

Lemma node_puts_spec h keys : pinv h ->
  Forall (put_of h) (fst (node_puts h keys)) /\ Forall put_len (fst (node_puts h keys)) /\
  (forall v, In (PutNode v) (fst (node_puts h keys)) -> node_by_id h (v_id v) = Some v) /\
  (forall e, ~ In (PutEp e) (fst (node_puts h keys))) /\ (forall c, ~ In (PutCount c) (fst (node_puts h keys))) /\
  (snd (node_puts h keys) = true -> forall k v, In k keys -> node_by_id h k = Some v ->
     v_committed v = true \/ In (PutNode v) (fst (node_puts h keys))) /\
  (snd (node_puts h keys) = false -> exists k v, In k keys /\ node_by_id h k = Some v /\ json_ok v = false).
Proof.
  intros Hp. induction keys as [|k keys IH]; cbn [node_puts].
  { cbn. repeat split; auto; try discriminate; try (intros; tauto). }
  destruct IH as (I1 & I2 & I2b & I3 & I4 & I5 & I6).
  destruct (node_by_id h k) as [v|] eqn:Ev.
  2:{ split; [exact I1|]. split; [exact I2|]. split; [exact I2b|]. split; [exact I3|]. split; [exact I4|].
      split; [intros H j x [<-|Hj] Hx; [congruence|eauto]|].
      intros H. destruct (I6 H) as (j & x & Hj & Hx). exists j, x. split; [now right|exact Hx]. }
  destruct (v_committed v) eqn:Ec.
  { split; [exact I1|]. split; [exact I2|]. split; [exact I2b|]. split; [exact I3|]. split; [exact I4|].
    split; [intros H j x [<-|Hj] Hx; [left; congruence|eauto]|].
    intros H. destruct (I6 H) as (j & x & Hj & Hx). exists j, x. split; [now right|exact Hx]. }
  destruct (json_ok v) eqn:Ej.
  2:{ cbn. repeat split; auto; try discriminate; try (intros; tauto).
      exists k, v. auto. }
  destruct (node_puts h keys) as [ws ok]. cbn [fst snd] in *.
  pose proof (pinv_id h k v Hp Ev) as Hid.
  split; [constructor; [|exact I1]; cbn; rewrite Hid; unfold pview; now rewrite Ev|].
  split; [constructor; [eapply pinv_len; eauto|exact I2]|].
  split; [intros x [X|X]; [injection X as <-; now rewrite Hid|auto]|].
  split; [intros e [X|X]; [discriminate|exact (I3 e X)]|].
  split; [intros e [X|X]; [discriminate|exact (I4 e X)]|].
  split; [intros H j x [<-|Hj] Hx; [right; left; congruence|]|].
  { destruct (I5 H j x Hj Hx); auto. right. now right. }
  intros H. destruct (I6 H) as (j & x & Hj & Hx). exists j, x. split; [now right|exact Hx].
Qed.

Lemma Forall_firstn {A} (P : A -> Prop) n l : Forall P l -> Forall P (firstn n l).
Proof. intros H. revert n. induction H; intros [|n]; cbn; constructor; auto. Qed.

Lemma In_firstn {A} (x : A) n l : In x (firstn n l) -> In x l.
Proof. intros H. rewrite <- (firstn_skipn n l). apply in_or_app. now left. Qed.

Lemma flush_plan_spec h keys cnt : pinv h ->
  Forall (put_of h) (fst (flush_plan h keys cnt)) /\ Forall put_len (fst (flush_plan h keys cnt)).
Proof.
  intros Hp. destruct (node_puts_spec h keys Hp) as (H1 & H2 & _). unfold flush_plan.
  destruct (node_puts h keys) as [ws ok]. cbn [fst] in *. destruct ok; cbn [fst]; [|auto].
  split; apply Forall_app; (split; [assumption|repeat constructor]).
Qed.

(** Any write-back, complete or not. *)
Lemma flush_any h keys cnt n : pinv h ->
  let h' := fst (flush h keys cnt n) in
  pinv h' /\ (forall j, pview h' j = pview h j) /\
  (forall j, mget j (h_kv h') = mget j (h_kv h) \/ mget j (h_kv h') = pview h j) /\
  (h_kv_ep h' = h_kv_ep h \/ h_kv_ep h' = Some (h_ep h)) /\
  (h_ep h' = h_ep h /\ h_maxl h' = h_maxl h /\ h_tomb h' = h_tomb h /\ h_once h' = h_once h) /\
  (forall j, mget j (h_cache h) = None <-> mget j (h_cache h') = None).
Proof.
  intros Hp. destruct (flush_plan_spec h keys cnt Hp) as [Ho Hl]. cbv zeta. unfold flush.
  destruct (node_puts_spec h keys Hp) as (_ & _ & _ & N1 & _).
  assert (Hep : forall e, In (PutEp e) (fst (flush_plan h keys cnt)) -> e = h_ep h).
  { intros e. unfold flush_plan. destruct (node_puts h keys) as [ws ok]. cbn [fst] in *.
    destruct ok; cbn [fst]; [|intros H; destruct (N1 e H)]. intros H. apply in_app_or in H.
    destruct H as [H|[H|[H|[]]]]; [destruct (N1 e H)|congruence|discriminate]. }
  destruct (flush_plan h keys cnt) as [ws ok]. cbn [fst] in *.
  change (fun h0 w => mark_put (do_put h0 w) w) with put_step.
  destruct (puts_spec (firstn n ws) h Hp (Forall_firstn _ n _ Ho) (Forall_firstn _ n _ Hl))
    as (A & B & C & D & Ee & F).
  split; [exact A|]. split; [exact B|].
  split; [intros j; destruct (C j) as [[X _]|[_ X]]; auto|].
  split; [|auto]. destruct D as [D|(e & Hin & D)]; [now left|right].
  rewrite D. f_equal. apply Hep. eapply In_firstn; eauto.
Qed.

(** A successful write-back. *)
Lemma flush_ok h keys cnt n u : pinv h -> (forall j v, mget j (h_cache h) = Some v -> In j keys) ->
  snd (flush h keys cnt n) = Ok u ->
  let h' := fst (flush h keys cnt n) in
  (forall j, mget j (h_kv h') = pview h j) /\ h_kv_ep h' = Some (h_ep h) /\ h_kv_count h' = Some cnt.
Proof.
  intros Hp Hk Hok. cbv zeta.
  destruct (flush_plan_spec h keys cnt Hp) as [Ho Hl].
  destruct (node_puts_spec h keys Hp) as (_ & _ & Hn & _ & _ & Hall & _).
  revert Hok Ho Hl. unfold flush. unfold flush_plan. destruct (node_puts h keys) as [ws ok]. cbn [fst snd] in *.
  destruct ok; cbn [fst snd].
  2:{ destruct (Nat.ltb n (length ws)); discriminate. }
  destruct (Nat.ltb_spec n (length (ws ++ [PutEp (h_ep h); PutCount cnt]))) as [|Hge]; [discriminate|].
  intros _ Ho Hl. rewrite firstn_all2 by exact Hge.
  change (fun h0 w => mark_put (do_put h0 w) w) with put_step.
  destruct (puts_spec _ h Hp Ho Hl) as (A & B & C & D & Ee & F).
  split; [|].
  - intros j. destruct (C j) as [[X Hno]|[_ X]]; [|exact X]. rewrite X.
    unfold pview, node_by_id. destruct (mget j (h_cache h)) as [v|] eqn:E.
    + cbn [option_map]. destruct (v_committed v) eqn:Ec; [exact (pi_clean h Hp j v E Ec)|]. exfalso.
      assert (Hj : node_by_id h j = Some v) by (unfold node_by_id; now rewrite E).
      destruct (Hall eq_refl j v (Hk j v E) Hj) as [|Hin]; [congruence|].
      apply (Hno v); [apply in_or_app; now left|]. exact (pinv_id h j v Hp Hj).
    + destruct (mget j (h_kv h)) as [v|] eqn:E2; [|reflexivity]. cbn [option_map].
      rewrite stored_id; [reflexivity|]. exact (pi_kvunc h Hp j v E2).
  - rewrite fold_left_app. cbn [fold_left].
    set (g := fold_left put_step ws h). unfold put_step. cbn. split; reflexivity.
Qed.

Lemma load_ep_pinv h : pinv h -> pinv (load_ep h).
Proof. intros [P1 P2 P3 P4 P5 P6]. constructor; auto. Qed.

Lemma restart_pinv h : pinv h -> pinv (restart h).
Proof. intros [P1 P2 P3 P4 P5 P6]. constructor; auto; cbn; discriminate. Qed.

Lemma ev_step_pinv h e : pinv h -> pinv (fst (ev_step h e)).
Proof.
  intros Hp. destruct e as [o| |keys cnt n|]; cbn [ev_step].
  - eapply prel_pinv; [exact (proj1 (add_prel _ h _ _ _ (pinv_wfh h Hp)))|exact Hp].
  - now apply load_ep_pinv.
  - exact (proj1 (flush_any h keys cnt n Hp)).
  - now apply restart_pinv.
Qed.

Lemma run_events_pinv evs : forall h, pinv h -> pinv (run_events h evs).
Proof. induction evs as [|e evs IH]; intros h Hp; cbn [run_events]; [exact Hp|]. apply IH. now apply ev_step_pinv. Qed.

Lemma pinv_empty : pinv empty_index.
Proof. constructor; cbn; discriminate. Qed.
