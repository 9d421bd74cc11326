(** The entry point through insertion histories, with no assumption on
    distances, schedules or the vector source, and with ids of failed
    insertions reused freely. *)
From Verif Require Import Base F32 PQ PQProofs Graph Search SearchProofs SearchLayer SearchKnn
  Insert HeuristicProofs InsertProofs InsertHist.

Definition ids_ok (h : hnsw) : Prop := forall j v, node_by_id h j = Some v -> v_id v = j.

(** Linking [nid] on layers up to [m]: vectors stay, layers only rise and not
    above [m], that of [nid] stays. *)
Record erel (m : nat) (nid : N) (h h' : hnsw) : Prop := {
  er_ids : ids_ok h -> ids_ok h';
  er_fw : ids_ok h -> forall j v, node_by_id h j = Some v -> exists v', node_by_id h' j = Some v' /\
    v_vec v' = v_vec v /\ v_level v <= v_level v' <= Nat.max (v_level v) m /\
    (j = nid -> v_level v' = v_level v);
  er_ep : h_ep h' = h_ep h /\ h_maxl h' = h_maxl h /\ h_once h' = h_once h
}.

Lemma erel_refl m nid h : erel m nid h h.
Proof. constructor; auto. intros _ j v Hv. exists v. repeat split; auto; lia. Qed.

Lemma erel_trans m nid h1 h2 h3 : erel m nid h1 h2 -> erel m nid h2 h3 -> erel m nid h1 h3.
Proof.
  intros [I1 F1 (E1 & M1 & O1)] [I2 F2 (E2 & M2 & O2)]. constructor; auto.
  - intros Hi j v Hv. destruct (F1 Hi j v Hv) as (v2 & Hv2 & V2 & L2 & N2).
    destruct (F2 (I1 Hi) j v2 Hv2) as (v3 & Hv3 & V3 & L3 & N3).
    exists v3. split; [exact Hv3|]. split; [congruence|]. split; [lia|]. intros E. rewrite (N3 E). auto.
  - repeat split; congruence.
Qed.

Lemma erel_mono m m' nid h h' : m <= m' -> erel m nid h h' -> erel m' nid h h'.
Proof.
  intros Hm [I F E]. constructor; auto. intros Hi j v Hv. destruct (F Hi j v Hv) as (v' & H1 & H2 & H3 & H4).
  exists v'. split; [exact H1|]. split; [exact H2|]. split; [lia|exact H4].
Qed.

Lemma erel_put m nid h v w :
  node_by_id h (v_id v) = Some v -> v_id w = v_id v -> v_vec w = v_vec v ->
  v_level v <= v_level w <= Nat.max (v_level v) m -> (v_id v = nid -> v_level w = v_level v) ->
  erel m nid h (put_node h w).
Proof.
  intros Hv Hid Hvec Hlev Hn. constructor.
  - intros Hi j x. rewrite node_put. destruct (N.eqb_spec j (v_id w)) as [->|]; [|apply Hi].
    intros [= <-]. reflexivity.
  - intros Hi j x Hx. rewrite node_put. destruct (N.eqb_spec j (v_id w)) as [->|Hj].
    + rewrite Hid in Hx. rewrite Hx in Hv. injection Hv as ->. exists w.
      split; [reflexivity|]. split; [exact Hvec|]. split; [exact Hlev|]. intros E. apply Hn. congruence.
    + exists x. repeat split; auto; lia.
  - auto.
Qed.

Section Ep.
  Variable I : ienv.

  Lemma connect_neighbor_erel h nid l nb : ids_ok h -> erel l nid h (fst (connect_neighbor I h nid l nb)).
  Proof.
    intros Hi. unfold connect_neighbor. destruct (node_by_id h nb) as [v|] eqn:Ev; [|apply erel_refl].
    destruct (N.eqb_spec nb nid) as [|Hne]; [apply erel_refl|].
    destruct (has_tombstone h (v_id v)); [apply erel_refl|].
    pose proof (Hi nb v Ev) as Hid.
    set (v2 := if Nat.ltb _ l then _ else _).
    assert (H2 : v_id v2 = nb /\ v_vec v2 = v_vec v /\ v_level v <= v_level v2 <= Nat.max (v_level v) l).
    { unfold v2. cbn [v_level set_committed]. destruct (Nat.ltb_spec (v_level v) l); cbn; repeat split; auto; lia. }
    destruct H2 as (I2 & V2 & L2).
    assert (E1 : erel l nid h (put_node h v2)).
    { apply (erel_put l nid h v v2); try congruence; lia. }
    assert (Hput : node_by_id (put_node h v2) (v_id v2) = Some v2) by apply node_put_eq.
    assert (Hset : forall cs, erel l nid h (put_node (put_node h v2) (set_conns v2 cs))).
    { intros cs. eapply erel_trans; [exact E1|]. apply (erel_put l nid _ v2); auto; cbn; lia. }
    destruct (conns_at v2 l) as [cs|] eqn:Ec; [|exact E1].
    destruct (Nat.ltb (length cs) (max_conns I l)).
    - unfold append_conn_at. unfold conns_at in Ec. rewrite Ec. apply Hset.
    - destruct (reselect I nid nb l cs); [apply Hset|exact E1..].
  Qed.

  Lemma connect_all_erel nid l nbs : forall h, ids_ok h -> erel l nid h (fst (connect_all I h nid l nbs)).
  Proof.
    induction nbs as [|nb nbs IH]; intros h Hi; cbn [connect_all]; [apply erel_refl|].
    pose proof (connect_neighbor_erel h nid l nb Hi) as H.
    destruct (connect_neighbor I h nid l nb) as [h' [[]|e| |]]; cbn [fst] in *; auto.
    eapply erel_trans; [exact H|]. apply IH. now apply (er_ids _ _ _ _ H).
  Qed.

  Lemma do_at_level_erel h nid q l ep : ids_ok h -> erel l nid h (fst (do_at_level I h nid q l ep)).
  Proof.
    intros Hi. unfold do_at_level.
    destruct (choose_neighbours I h nid q l ep) as [[ep' nbs]|e| |]; try apply erel_refl.
    destruct (node_by_id h nid) as [v|] eqn:Ev; [|apply erel_refl].
    unfold set_conns_at. destruct (Nat.ltb l (length (v_conns v))); [|apply erel_refl].
    pose proof (Hi nid v Ev) as Hid.
    assert (E1 : erel l nid h (put_node h (set_conns v (upd (v_conns v) l nbs)))).
    { apply (erel_put l nid h v); cbn; auto; try congruence; lia. }
    pose proof (connect_all_erel nid l nbs _ (er_ids _ _ _ _ E1 Hi)) as H.
    destruct (connect_all I _ nid l nbs) as [h' [[]|e| |]]; cbn [fst] in *; eapply erel_trans; eauto.
  Qed.

  Lemma connect_levels_erel nid q l : forall h ep, ids_ok h -> erel l nid h (fst (connect_levels I h nid q l ep)).
  Proof.
    induction l as [|l IH]; intros h ep Hi; cbn [connect_levels].
    - pose proof (do_at_level_erel h nid q 0 ep Hi) as H.
      destruct (do_at_level I h nid q 0 ep) as [h' [ep'|e| |]]; exact H.
    - pose proof (do_at_level_erel h nid q (S l) ep Hi) as H.
      destruct (do_at_level I h nid q (S l) ep) as [h' [ep'|e| |]]; cbn [fst] in *; auto.
      eapply erel_trans; [exact H|]. apply (erel_mono l); [lia|]. apply IH. now apply (er_ids _ _ _ _ H).
  Qed.
End Ep.

(** State after insertions of which [kept] did not return an error and [succ]
    succeeded. *)
Record estate (kept : list N) (succ : list aop) (h : hnsw) : Prop := {
  es_ids : ids_ok h;
  es_ep : exists v, node_by_id h (h_ep h) = Some v /\ v_level v = h_maxl h;
  es_epk : In (h_ep h) kept;
  es_succ : forall o, In o succ -> In (a_id o) kept /\ exists v, node_by_id h (a_id o) = Some v /\
    v_level v <= h_maxl h /\ v_vec v = p_normalize (e_prov (i_env (a_env o))) (a_vec o);
  es_once : h_once h = true
}.

Definition kept_by {A} (o : aop) (r : res A) : list N := match r with Err _ => [] | _ => [a_id o] end.
Definition succ_by {A} (o : aop) (r : res A) : list aop := match r with Ok _ => [o] | _ => [] end.

Lemma add_estate kept succ h o :
  estate kept succ h -> ~ In (a_id o) kept ->
  let r := add (a_env o) h (a_id o) (a_vec o) (a_lvl o) in
  estate (kept ++ kept_by o (snd r)) (succ ++ succ_by o (snd r)) (fst r).
Proof.
  intros Hst Hni. pose proof Hst as [Hi (vep & Hep & Hml) Hk Su O]. cbv zeta.
  assert (Hsame : forall r : res unit, (forall u, r <> Ok u) ->
     forall h', estate kept succ h' -> estate (kept ++ kept_by o r) (succ ++ succ_by o r) h').
  { intros r Hr h' [A1 A2 A3 A4 A5]. destruct r as [u| | |]; [edestruct Hr; reflexivity|..];
      cbn; rewrite ?app_nil_r; constructor; auto; try (apply in_or_app; auto);
      intros o' Ho'; destruct (A4 o' Ho') as (B1 & B2); split; auto; apply in_or_app; auto. }
  unfold add. destruct (a_vec o) as [|x q0] eqn:Eq; [apply Hsame; [discriminate|exact Hst]|]. rewrite <- Eq.
  unfold insert. rewrite O. cbn [negb andb]. set (q := p_normalize _ _). unfold insert_linked.
  assert (Hst' : estate kept succ (with_once h)).
  { constructor; auto. exists vep. auto. }
  destruct (negb _); [apply Hsame; [discriminate|exact Hst']|].
  set (h1 := put_node (with_once h) (new_vertex (a_id o) q (a_lvl o))).
  assert (Hne : h_ep h <> a_id o) by (intros E; apply Hni; rewrite <- E; exact Hk).
  assert (Hi1 : ids_ok h1).
  { intros j v. unfold h1. rewrite node_put. cbn [v_id new_vertex].
    destruct (N.eqb_spec j (a_id o)) as [->|]; [intros [= <-]; reflexivity|apply Hi]. }
  assert (Hold : forall j, j <> a_id o -> node_by_id h1 j = node_by_id h j).
  { intros j Hj. unfold h1. rewrite node_put_ne by exact Hj. reflexivity. }
  assert (H1 : estate kept succ h1).
  { constructor; auto.
    - exists vep. rewrite Hold by exact Hne. auto.
    - intros o' Ho'. destruct (Su o' Ho') as (B1 & v & B2). split; [exact B1|]. exists v.
      rewrite Hold; [exact B2|]. intros E. apply Hni. rewrite <- E. exact B1. }
  cbn [h_maxl with_once h_ep].
  destruct (best_entrypoint _ h1 q (a_lvl o) (h_maxl h - a_lvl o) (h_ep h)) as [ep|e| |];
    try (apply Hsame; [discriminate|exact H1]).
  pose proof (connect_levels_erel (a_env o) (a_id o) q (Nat.min (a_lvl o) (h_maxl h)) h1 ep Hi1) as R.
  destruct (connect_levels (a_env o) h1 (a_id o) q (Nat.min (a_lvl o) (h_maxl h)) ep) as [h2 rr]. cbn [fst] in R.
  pose proof R as [RI RF (RE & RM & RO)]. specialize (RF Hi1). specialize (RI Hi1).
  cbn [h1 put_node with_cache h_ep h_maxl h_once with_once] in RE, RM, RO.
  assert (H2 : estate kept succ h2).
  { destruct H1 as [_ (v1 & Hv1 & Hl1) _ Su1 _]. constructor; auto.
    - destruct (RF _ _ Hv1) as (v' & Hv' & _ & L' & _). exists v'. cbn in Hv', Hl1. rewrite RE, RM. split; [exact Hv'|lia].
    - rewrite RE. exact Hk.
    - intros o' Ho'. destruct (Su1 o' Ho') as (B1 & v & B2 & B3 & B4). split; [exact B1|].
      destruct (RF _ _ B2) as (v' & C1 & C2 & C3 & _). exists v'. split; [exact C1|]. cbn in B3. rewrite RM.
      split; [lia|congruence]. }
  destruct rr as [[]|e| |]; cbn [fst snd]; try (apply Hsame; [discriminate|exact H2]).
  cbn [kept_by succ_by].
  destruct (RF (a_id o) (new_vertex (a_id o) q (a_lvl o)) (node_put_eq _ _)) as (vn & Hvn & Vn & _ & Ln).
  specialize (Ln eq_refl). cbn in Vn, Ln.
  unfold finish_insert. rewrite Hvn.
  set (h3 := put_node h2 (set_maint vn false)).
  assert (Hidn : v_id vn = a_id o) by now apply RI.
  assert (Hn3 : node_by_id h3 (a_id o) = Some (set_maint vn false)).
  { unfold h3. rewrite node_put. cbn [v_id set_maint]. now rewrite Hidn, N.eqb_refl. }
  assert (Ho3 : forall j, j <> a_id o -> node_by_id h3 j = node_by_id h2 j).
  { intros j Hj. unfold h3. apply node_put_ne. cbn. congruence. }
  assert (Hi3 : ids_ok h3).
  { intros j v. unfold h3. rewrite node_put. cbn [v_id set_maint].
    destruct (N.eqb_spec j (v_id vn)) as [->|]; [intros [= <-]; reflexivity|apply RI]. }
  destruct H2 as [_ (v2 & Hv2 & Hl2) _ Su2 O2].
  assert (Hsucc : forall m, h_maxl h2 <= m -> a_lvl o <= m -> forall o', In o' (succ ++ [o]) ->
     In (a_id o') (kept ++ [a_id o]) /\ exists v, node_by_id h3 (a_id o') = Some v /\ v_level v <= m /\
       v_vec v = p_normalize (e_prov (i_env (a_env o'))) (a_vec o')).
  { intros m M1 M2 o' Ho'. apply in_app_or in Ho'. destruct Ho' as [Ho'|[<-|[]]].
    - destruct (Su2 o' Ho') as (B1 & v & B2 & B3 & B4). split; [apply in_or_app; now left|].
      exists v. rewrite Ho3 by (intros E; apply Hni; rewrite <- E; exact B1). split; [exact B2|]. split; [lia|exact B4].
    - split; [apply in_or_app; right; now left|]. eexists. split; [exact Hn3|]. cbn. split; [lia|exact Vn]. }
  change (h_maxl h3) with (h_maxl h2).
  destruct (Nat.ltb_spec (h_maxl h2) (a_lvl o)) as [Hlt|Hge]; (constructor; [exact Hi3| | | |exact O2]).
  - exists (set_maint vn false). cbn [h_ep with_ep h_maxl]. split; [exact Hn3|exact Ln].
  - cbn. apply in_or_app. right. now left.
  - apply (Hsucc (a_lvl o)); lia.
  - exists v2. change (h_ep h3) with (h_ep h2). change (h_maxl h3) with (h_maxl h2).
    rewrite Ho3; [auto|]. rewrite RE. exact Hne.
  - change (h_ep h3) with (h_ep h2). rewrite RE. apply in_or_app. now left.
  - apply (Hsucc (h_maxl h2)); lia.
Qed.

(** No call uses the id of an earlier call that did not return an error. *)
Fixpoint fresh (kept : list N) (ops : list aop) (rs : list (res unit)) : Prop :=
  match ops, rs with
  | o :: ops', r :: rs' => ~ In (a_id o) kept /\ fresh (kept ++ kept_by o r) ops' rs'
  | _, _ => True
  end.

Lemma succeeded_by o ops r rs : succeeded (o :: ops) (r :: rs) = succ_by o r ++ succeeded ops rs.
Proof. destruct r; reflexivity. Qed.

Lemma run_estate ops : forall kept succ h, estate kept succ h ->
  fresh kept ops (snd (run_adds h ops)) ->
  exists kept', estate kept' (succ ++ succeeded ops (snd (run_adds h ops))) (fst (run_adds h ops)).
Proof.
  induction ops as [|o ops IH]; intros kept succ h Hst Hf; cbn [run_adds fst snd].
  { exists kept. cbn. rewrite app_nil_r. exact Hst. }
  cbn [run_adds snd fresh] in Hf. destruct Hf as [Hni Hf].
  rewrite succeeded_by, app_assoc. eapply IH; [|exact Hf]. now apply add_estate.
Qed.

Lemma run_ep ops :
  let r := run_adds empty_index ops in
  fresh [] ops (snd r) -> (exists o, In o ops /\ a_vec o <> []) ->
  (exists v, node_by_id (fst r) (h_ep (fst r)) = Some v /\ v_level v = h_maxl (fst r)) /\
  (forall o, In o (succeeded ops (snd r)) -> exists v, node_by_id (fst r) (a_id o) = Some v /\
     v_level v <= h_maxl (fst r) /\ v_vec v = p_normalize (e_prov (i_env (a_env o))) (a_vec o)).
Proof.
  cbv zeta. intros Hf Hne.
  enough (H : exists kept, estate kept (succeeded ops (snd (run_adds empty_index ops))) (fst (run_adds empty_index ops))).
  { destruct H as (kept & [_ Hep _ Su _]). split; [exact Hep|]. intros o Ho. exact (proj2 (Su o Ho)). }
  induction ops as [|o ops IH]; [destruct Hne as (? & [] & _)|].
  cbn [run_adds snd fst fresh] in *. destruct Hf as [_ Hf].
  destruct (a_vec o) as [|x q0] eqn:Eq.
  { cbn [add fst snd kept_by app] in Hf |- *. rewrite succeeded_by. cbn [succ_by app]. apply IH; [exact Hf|].
    destruct Hne as (o' & [<-|Hin] & Hv); [congruence|eauto]. }
  rewrite <- Eq in *. rewrite succeeded_by.
  assert (Hadd : add (a_env o) empty_index (a_id o) (a_vec o) (a_lvl o) =
    insert_initial (a_env o) (with_once empty_index) (a_id o) (p_normalize (e_prov (i_env (a_env o))) (a_vec o))).
  { unfold add. rewrite Eq. reflexivity. }
  set (q := p_normalize _ _) in Hadd.
  set (h0 := put_node (with_ep (with_once empty_index) (a_id o) 0) (mkV (a_id o) 0 [[]] false q false)).
  assert (Hn0 : forall j, node_by_id h0 j = if N.eqb j (a_id o) then Some (mkV (a_id o) 0 [[]] false q false) else None).
  { intros j. unfold h0. rewrite node_put. cbn [v_id]. destruct (N.eqb j (a_id o)); reflexivity. }
  assert (H0 : forall s, (forall o', In o' s -> o' = o) -> estate [a_id o] s h0).
  { intros s Hs. constructor.
    - intros j v. rewrite Hn0. destruct (N.eqb_spec j (a_id o)) as [->|]; [intros [= <-]; reflexivity|discriminate].
    - eexists. rewrite Hn0. cbn [h0 h_ep put_node with_cache with_ep]. rewrite N.eqb_refl. split; reflexivity.
    - now left.
    - intros o' Ho'. rewrite (Hs o' Ho'). split; [now left|]. eexists. rewrite Hn0, N.eqb_refl.
      split; [reflexivity|]. cbn. split; [lia|reflexivity].
    - reflexivity. }
  unfold insert_initial in Hadd. fold h0 in Hadd.
  destruct (N.ltb (a_id o) (i_vcsize (a_env o))); rewrite Hadd in *; cbn [fst snd kept_by succ_by app] in *.
  - apply (run_estate ops [a_id o] [o]); [|exact Hf]. apply H0. intros o' [<-|[]]. reflexivity.
  - apply (run_estate ops [a_id o] []); [|exact Hf]. apply H0. intros o' [].
Qed.
