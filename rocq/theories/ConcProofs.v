(** Theorems about a query over a moving index (ConcSearch.v).  The proofs follow
    SearchProofs.v, SearchLayer.v and SearchKnn.v. *)
From Verif Require Import Base F32 PQ PQProofs Graph Search SearchProofs SearchLayer SearchKnn ConcSearch.
From Coq Require Import Sorting.Sorted.

(* ------------------------------------------------------------------ *)
(** Specification vocabulary. *)

(** At one of the instants [T], [id] is stored and its distance to the query is
    [d]. *)
Definition seen_dist (T : nat -> Prop) (P : provider) (W : nat -> hnsw) (q : vec) (id : N) (d : f32) : Prop :=
  exists t, T t /\ true_dist P (W t) q id d.

(** An id has one vector. *)
Definition one_vec (W : nat -> hnsw) : Prop := forall t t' id v v',
  node_by_id (W t) id = Some v -> node_by_id (W t') id = Some v' -> v_vec v = v_vec v'.

(** At most the ids of [U] are ever stored, and they fit the visited list. *)
Definition ids_in (E : env) (W : nat -> hnsw) (U : list N) : Prop := forall t id v,
  node_by_id (W t) id = Some v -> In id U /\ (id < e_vcap E)%N.

(** Every distance that can be computed for the query is a number. *)
Definition seen_num (P : provider) (W : nat -> hnsw) (q : vec) : Prop :=
  forall t id d, true_dist P (W t) q id d -> is_num d = true.

Section Layer.
  Variable E : env.
  Variable W : nat -> hnsw.
  Variable C : clock.
  Variable T : nat -> Prop.
  Variable U : list N.
  Variable q : vec.
  Variable ef : Z.
  Variable level : nat.
  Variable allow : option (N -> bool).

  Local Notation P := (e_prov E).
  Local Notation n := (length U).
  Local Notation step := (step_at W C ef level allow).
  Local Notation loop := (search_loop_at E W C q ef level allow).
  Local Notation tdist := (seen_dist T P W q).
  Local Notation layer ep := (search_layer_at E W C n q ef level allow (pq_insert less_min ep [])).

  (** Some check found no tombstone, and the id is allowed. *)
  Definition ok_at (id : N) : Prop :=
    (exists f, has_tombstone (W (t_tomb C level f id)) id = false) /\ allowed level allow id = true.

  Hypothesis Hsc : sched_ok E.
  Hypothesis Hone : one_vec W.
  Hypothesis Hids : ids_in E W U.
  Hypothesis HT : forall f id, T (t_dist C level f id).

  Lemma tdist_fun id d d' : tdist id d -> tdist id d' -> d = d'.
  Proof.
    intros (t & _ & v & Hv & Hd) (t' & _ & v' & Hv' & Hd').
    rewrite (Hone _ _ _ _ _ Hv Hv') in Hd. congruence.
  Qed.

  Lemma tdist_U id d : tdist id d -> In id U.
  Proof. intros (t & _ & v & Hv & _). now apply (Hids _ _ _ Hv). Qed.

  Lemma tdist_cap id d : tdist id d -> (id < e_vcap E)%N.
  Proof. intros (t & _ & v & Hv & _). now apply (Hids _ _ _ Hv). Qed.

  Lemma nds_spec f ids x :
    In x (neighbour_dists_at E W C q level f ids) <->
    In (it_id x) ids /\ true_dist P (W (t_dist C level f (it_id x))) q (it_id x) (it_dist x).
  Proof.
    induction ids as [|i ids IH]; cbn; [tauto|].
    destruct (dist_float_node E _ q i) as [d|] eqn:Ed.
    - apply dist_float_node_spec in Ed. cbn. rewrite IH. split.
      + intros [<-|[H1 H2]]; cbn; auto.
      + intros [[->|H1] H2]; [left|auto].
        destruct Ed as (v & Hv & Hd), H2 as (v' & Hv' & Hd').
        destruct x as [xi xd]; cbn in *. congruence.
    - rewrite IH. split; [intros [H1 H2]; auto|]. intros [[->|H1] H2]; [|auto].
      apply dist_float_node_spec in H2. congruence.
  Qed.

  Lemma nds_seen f ids x : In x (neighbour_dists_at E W C q level f ids) ->
    In (it_id x) ids /\ tdist (it_id x) (it_dist x).
  Proof. intros H. apply nds_spec in H. destruct H as [H1 H2]. split; [exact H1|]. exists (t_dist C level f (it_id x)). split; [apply HT|exact H2]. Qed.

  Lemma nds_ids f ids : NoDup ids -> NoDup (map it_id (neighbour_dists_at E W C q level f ids)).
  Proof.
    induction ids as [|i ids IH]; cbn; intros H; [constructor|].
    inversion H; subst. destruct (dist_float_node E _ q i) as [d|]; [|auto].
    cbn. constructor; [|auto]. intros Hin. apply in_map_iff in Hin. destruct Hin as (x & Hx & Hin).
    apply nds_spec in Hin. destruct Hin as [Hin _]. congruence.
  Qed.

  Lemma step_at_visited f s nd : s_visited (step f s nd) = s_visited s.
  Proof. apply step_visited. Qed.

  (* ---------------------------------------------------------------- *)
  (** The entry into the loop. *)
  Definition res0 (ep : item) : list item :=
    if allowed level allow (it_id ep) &&
       negb (has_tombstone (W (t_tomb C level (S (1 + n)) (it_id ep))) (it_id ep)) then [ep] else [].
  Definition vis0 (ep : item) : list N := if N.ltb (it_id ep) (e_vcap E) then [it_id ep] else [].
  Definition st0 (ep : item) (w : f32) : sst := mkS [ep] (res0 ep) w (vis0 ep).

  Lemma layer_single ep :
    layer ep = (do! w <- worst_dist E (W (t_worst C level)) q (res0 ep);
                do! s <- loop (S (1 + n)) (st0 ep w);
                Ok (s_results s)).
  Proof.
    unfold search_layer_at, st0, res0, vis0.
    change (pq_insert less_min ep []) with [ep].
    change (pq_drain less_min [ep]) with [ep].
    cbn [map visit_eps fold_left orb length]. unfold add_ep. cbn [fst snd].
    change (1 + n) with (S n).
    destruct (allowed level allow (it_id ep)); cbn [negb andb];
      [|destruct (N.ltb (it_id ep) (e_vcap E)); cbn [negb]; reflexivity].
    destruct (has_tombstone _ (it_id ep)); cbn [negb];
      destruct (N.ltb (it_id ep) (e_vcap E)); cbn [negb]; reflexivity.
  Qed.

  Lemma res0_cases ep :
    (res0 ep = [ep] /\ ok_at (it_id ep)) \/
    (res0 ep = [] /\ (allowed level allow (it_id ep) = false \/
       has_tombstone (W (t_tomb C level (S (1 + n)) (it_id ep))) (it_id ep) = true)).
  Proof.
    unfold res0. destruct (allowed level allow (it_id ep)) eqn:Ea; cbn [andb];
      [|right; split; auto; fail].
    destruct (has_tombstone _ (it_id ep)) eqn:Et; cbn [negb]; [right; auto|left].
    split; [reflexivity|]. split; [eauto|exact Ea].
  Qed.

  (* ---------------------------------------------------------------- *)
  (** Soundness. *)
  Record linv (s : sst) : Prop := {
    li_cg : forall x, In x (s_cands s) -> tdist (it_id x) (it_dist x);
    li_rg : forall x, In x (s_results s) -> tdist (it_id x) (it_dist x);
    li_cv : forall x, In x (s_cands s) -> In (it_id x) (s_visited s);
    li_rv : forall x, In x (s_results s) -> In (it_id x) (s_visited s);
    li_cnd : NoDup (map it_id (s_cands s));
    li_rnd : NoDup (map it_id (s_results s));
    li_rok : forall x, In x (s_results s) -> ok_at (it_id x);
    li_rlen : (Z.of_nat (length (s_results s)) <= Z.max ef 1)%Z
  }.

  Lemma linv_step f s nd :
    linv s -> tdist (it_id nd) (it_dist nd) -> In (it_id nd) (s_visited s) -> ~ ids_of s (it_id nd) ->
    linv (step f s nd) /\ (forall id, ids_of (step f s nd) id -> ids_of s id \/ id = it_id nd).
  Proof.
    intros [Hcg Hrg Hcv Hrv Hcn Hrn Hro Hrl] Hg Hv Hn. unfold ids_of, step_at in *.
    destruct (step_cases (W (t_tomb C level f (it_id nd))) ef level allow s nd)
      as [(-> & _)|[(-> & _)|(r2 & Hok & Hor & -> & Hr2)]].
    - split; [constructor; auto|]. intros id Hid. tauto.
    - split.
      + constructor; cbn; auto.
        * intros x Hx. apply insert_In in Hx. destruct Hx as [->|Hx]; auto.
        * intros x Hx. apply insert_In in Hx. destruct Hx as [->|Hx]; auto.
        * apply insert_NoDup; auto.
      + cbn. intros id [Hid|Hid]; [|auto]. apply in_insert_ids in Hid. tauto.
    - assert (Hsub : forall x, In x r2 -> x = nd \/ In x (s_results s)).
      { intros x Hx. destruct Hr2 as [[_ ->]|[_ (y & Hy)]].
        - now apply insert_In in Hx.
        - apply (pop_sub _ _ _ _ Hy) in Hx. now apply insert_In in Hx. }
      split.
      + constructor; cbn.
        * intros x Hx. apply insert_In in Hx. destruct Hx as [->|Hx]; auto.
        * intros x Hx. destruct (Hsub x Hx) as [->|Hx']; auto.
        * intros x Hx. apply insert_In in Hx. destruct Hx as [->|Hx]; auto.
        * intros x Hx. destruct (Hsub x Hx) as [->|Hx']; auto.
        * apply insert_NoDup; auto.
        * assert (Hni : NoDup (map it_id (pq_insert less_max nd (s_results s)))) by (apply insert_NoDup; auto).
          destruct Hr2 as [[_ ->]|[_ (y & Hy)]]; [exact Hni|]. eapply pop_NoDup; eauto.
        * intros x Hx. destruct (Hsub x Hx) as [->|Hx']; [|auto]. destruct Hok as [Hk1 Hk2].
          split; [eauto|exact Hk2].
        * destruct Hr2 as [[Hle ->]|[_ (y & Hy)]].
          -- rewrite insert_length. lia.
          -- apply pop_length in Hy. rewrite insert_length in Hy. lia.
      + cbn. intros id [Hid|Hid].
        * apply in_insert_ids in Hid. tauto.
        * apply in_map_iff in Hid. destruct Hid as (x & <- & Hx).
          destruct (Hsub x Hx) as [->|Hx']; [auto|]. left; right. now apply in_map.
  Qed.

  Definition news (s : sst) (nds : list item) : Prop :=
    forall x, In x nds -> tdist (it_id x) (it_dist x) /\ In (it_id x) (s_visited s) /\ ~ ids_of s (it_id x).

  Lemma news_step f s nd nds : linv s -> news s (nd :: nds) -> ~ In (it_id nd) (map it_id nds) ->
    linv (step f s nd) /\ news (step f s nd) nds.
  Proof.
    intros Hs Hin Hn1. destruct (Hin nd (or_introl eq_refl)) as (Hg & Hv & Hni).
    destruct (linv_step f s nd Hs Hg Hv Hni) as [Hs' Hids']. split; [exact Hs'|].
    intros x Hx. destruct (Hin x (or_intror Hx)) as (Hgx & Hvx & Hnx).
    rewrite step_at_visited. split; [exact Hgx|]. split; [exact Hvx|].
    intros Hc. apply Hids' in Hc. destruct Hc as [Hc|Hc]; [tauto|].
    apply Hn1. rewrite <- Hc. now apply in_map.
  Qed.

  Lemma fold_steps_at f (J : sst -> Prop) nds : forall s,
    linv s -> J s ->
    (forall s nd, In nd nds -> linv s -> J s -> In (it_id nd) (s_visited s) ->
       ~ ids_of s (it_id nd) -> J (step f s nd)) ->
    news s nds -> NoDup (map it_id nds) ->
    linv (fold_left (step f) nds s) /\ J (fold_left (step f) nds s) /\
    s_visited (fold_left (step f) nds s) = s_visited s.
  Proof.
    induction nds as [|nd nds IH]; intros s Hs HJ HJs Hin Hnd; cbn; [auto|].
    cbn in Hnd. inversion Hnd as [|? ? Hn1 Hn2]; subst.
    destruct (news_step f s nd nds Hs Hin Hn1) as [Hs' Hin'].
    destruct (Hin nd (or_introl eq_refl)) as (Hg & Hv & Hni).
    destruct (IH (step f s nd)) as (H1 & H2 & H3); auto.
    - apply HJs; auto. now left.
    - intros s1 nd1 Hi. apply HJs. now right.
    - rewrite step_at_visited in H3. auto.
  Qed.

  Lemma expand_prem_at s c cands' v conns ids vis' f :
    linv s -> pq_pop less_min (s_cands s) = Some (c, cands') ->
    fresh conns (s_visited s) = (ids, vis') ->
    node_by_id (W (t_pop C level f)) (it_id c) = Some v -> conns_at v level = Some conns ->
    let nds := e_sched E level f (neighbour_dists_at E W C q level f ids) in
    let s1 := mkS cands' (s_results s) (s_worst s) vis' in
    linv s1 /\ news s1 nds /\ NoDup (map it_id nds).
  Proof.
    intros [Hcg Hrg Hcv Hrv Hcn Hrn Hro Hrl] Hpop Hf Hv Hc nds s1.
    destruct (fresh_spec _ _ _ _ Hf) as (Hnd & Hinc & Hfr & Hvis & Hcc & _).
    split; [|split].
    - constructor; cbn; auto.
      + intros x Hx. apply Hcg. eapply pop_sub; eauto.
      + intros x Hx. apply Hvis. right. apply Hcv. eapply pop_sub; eauto.
      + intros x Hx. apply Hvis. auto.
      + eapply pop_NoDup; eauto.
    - intros x Hx. unfold nds in Hx.
      eapply Permutation_in in Hx; [|symmetry; apply Hsc].
      apply nds_seen in Hx. destruct Hx as [Hx1 Hx2]. cbn. split; [exact Hx2|].
      split; [apply Hvis; now left|]. intros [Hb|Hb]; cbn in Hb;
        apply in_map_iff in Hb; destruct Hb as (y & Hy & Hb); apply (Hfr _ Hx1); rewrite <- Hy.
      + apply Hcv. eapply pop_sub; eauto.
      + auto.
    - eapply Permutation_map_NoDup; [apply Hsc|]. now apply nds_ids.
  Qed.

  Lemma linv_skip s c cands' :
    linv s -> pq_pop less_min (s_cands s) = Some (c, cands') ->
    linv (mkS cands' (s_results s) (s_worst s) (s_visited s)).
  Proof.
    intros [Hcg Hrg Hcv Hrv Hcn Hrn Hro Hrl] Hpop. constructor; cbn; auto.
    - intros x Hx. apply Hcg. eapply pop_sub; eauto.
    - intros x Hx. apply Hcv. eapply pop_sub; eauto.
    - eapply pop_NoDup; eauto.
  Qed.

  (** Loop rule: an invariant [J] on top of [linv]. *)
  Lemma loop_rule_at (J : sst -> Prop) :
    (forall s c cands' f, linv s -> J s -> pq_pop less_min (s_cands s) = Some (c, cands') ->
       (node_by_id (W (t_pop C level f)) (it_id c) = None \/
        exists v, node_by_id (W (t_pop C level f)) (it_id c) = Some v /\ v_level v < level) ->
       J (mkS cands' (s_results s) (s_worst s) (s_visited s))) ->
    (forall s c cands' v conns ids vis' f, linv s -> J s ->
       pq_pop less_min (s_cands s) = Some (c, cands') ->
       node_by_id (W (t_pop C level f)) (it_id c) = Some v -> level <= v_level v ->
       conns_at v level = Some conns -> fresh conns (s_visited s) = (ids, vis') ->
       let nds := e_sched E level f (neighbour_dists_at E W C q level f ids) in
       let s1 := mkS cands' (s_results s) (s_worst s) vis' in
       linv s1 -> news s1 nds -> NoDup (map it_id nds) ->
       J (fold_left (step f) nds s1)) ->
    forall fuel s s', linv s -> J s -> loop fuel s = Ok s' ->
      exists s0, linv s0 /\ J s0 /\ s_results s' = s_results s0 /\
        (s_cands s0 = [] \/ (ef <= Z.of_nat (length (s_results s0)))%Z).
  Proof.
    intros Hskip Hexp. induction fuel as [|f IH]; intros s s' Hs HJ Hrun; [discriminate|].
    cbn [search_loop_at] in Hrun. destruct (pq_pop less_min (s_cands s)) as [[c cands']|] eqn:Epop.
    - destruct (_ && _) eqn:Ebr.
      + inversion Hrun; subst. cbn. exists s. split; [exact Hs|]. split; [exact HJ|]. split; [reflexivity|]. right.
        apply andb_true_iff in Ebr. destruct Ebr as [E1 E2]. now apply Z.leb_le in E2.
      + destruct (node_by_id (W (t_pop C level f)) (it_id c)) as [v|] eqn:Ev.
        * destruct (Nat.ltb_spec (v_level v) level) as [Hl|Hl].
          -- eapply IH; [| |exact Hrun]; [eapply linv_skip; eauto|eapply Hskip; eauto].
          -- destruct (conns_at v level) as [conns|] eqn:Ec; [|discriminate].
             destruct (fresh conns (s_visited s)) as [ids vis'] eqn:Ef.
             destruct (expand_prem_at s c cands' v conns ids vis' f Hs Epop Ef Ev Ec) as (Ha & Hb & Hd).
             eapply IH; [| |exact Hrun].
             ++ apply (fold_steps_at f (fun _ => True)); auto.
             ++ eapply Hexp; eauto.
        * eapply IH; [| |exact Hrun]; [eapply linv_skip; eauto|eapply Hskip; eauto].
    - inversion Hrun; subst. apply pop_None in Epop. exists s'. auto.
  Qed.

  Lemma st0_linv ep w : tdist (it_id ep) (it_dist ep) -> linv (st0 ep w).
  Proof.
    intros Hd. unfold st0, vis0. pose proof (tdist_cap _ _ Hd) as Hv. apply N.ltb_lt in Hv. rewrite Hv.
    destruct (res0_cases ep) as [[-> Hok]|[-> Hok]]; constructor; cbn.
    all: try (intros x [<-|[]]; auto; fail).
    all: try (repeat constructor; cbn; tauto).
    all: try (intros x []; fail).
    all: lia.
  Qed.

  Lemma layer_inv ep r (J : sst -> Prop) :
    (forall s c cands' f, linv s -> J s -> pq_pop less_min (s_cands s) = Some (c, cands') ->
       (node_by_id (W (t_pop C level f)) (it_id c) = None \/
        exists v, node_by_id (W (t_pop C level f)) (it_id c) = Some v /\ v_level v < level) ->
       J (mkS cands' (s_results s) (s_worst s) (s_visited s))) ->
    (forall s c cands' v conns ids vis' f, linv s -> J s ->
       pq_pop less_min (s_cands s) = Some (c, cands') ->
       node_by_id (W (t_pop C level f)) (it_id c) = Some v -> level <= v_level v ->
       conns_at v level = Some conns -> fresh conns (s_visited s) = (ids, vis') ->
       let nds := e_sched E level f (neighbour_dists_at E W C q level f ids) in
       let s1 := mkS cands' (s_results s) (s_worst s) vis' in
       linv s1 -> news s1 nds -> NoDup (map it_id nds) ->
       J (fold_left (step f) nds s1)) ->
    (forall w, worst_dist E (W (t_worst C level)) q (res0 ep) = Ok w -> J (st0 ep w)) ->
    tdist (it_id ep) (it_dist ep) -> layer ep = Ok r ->
    exists s0, linv s0 /\ J s0 /\ r = s_results s0 /\
      (s_cands s0 = [] \/ (ef <= Z.of_nat (length (s_results s0)))%Z).
  Proof.
    intros Hskip Hexp Hinit Hd Hr. rewrite layer_single in Hr.
    apply bind_Ok in Hr. destruct Hr as (w & Hw & Hr).
    apply bind_Ok in Hr. destruct Hr as (s & Hl & Hr). inversion Hr; subst.
    eapply (loop_rule_at J Hskip Hexp); [|apply Hinit; exact Hw|exact Hl].
    now apply st0_linv.
  Qed.

  Lemma layer_sound_at ep r : tdist (it_id ep) (it_dist ep) -> layer ep = Ok r ->
    (forall x, In x r -> tdist (it_id x) (it_dist x) /\ ok_at (it_id x)) /\
    NoDup (map it_id r) /\ (Z.of_nat (length r) <= Z.max ef 1)%Z.
  Proof.
    intros Hd Hr.
    destruct (layer_inv ep r (fun _ => True)) as (s0 & [Hcg Hrg Hcv Hrv Hcn Hrn Hro Hrl] & _ & -> & _); auto.
  Qed.

  (* ---------------------------------------------------------------- *)
  (** Termination. *)
  Definition rest_of (vis : list N) : list N :=
    filter (fun x => negb (memN x vis)) (nodup N.eq_dec U).
  Definition meas (s : sst) : nat := length (s_cands s) + length (rest_of (s_visited s)).

  Lemma rest_fresh conns vis ids vis' f :
    fresh conns vis = (ids, vis') ->
    length (rest_of vis') + length (neighbour_dists_at E W C q level f ids) <= length (rest_of vis).
  Proof.
    intros Hf. destruct (fresh_spec _ _ _ _ Hf) as (Hnd & Hinc & Hfr & Hvis & _).
    rewrite <- (map_length it_id (neighbour_dists_at E W C q level f ids)), <- app_length.
    apply NoDup_incl_length.
    - apply NoDup_app_intro.
      + apply NoDup_filter. apply NoDup_nodup.
      + now apply nds_ids.
      + intros x Hx Hy. apply filter_In in Hx. destruct Hx as [_ Hx].
        apply negb_true_iff, memN_notIn in Hx. apply Hx, Hvis. left.
        apply in_map_iff in Hy. destruct Hy as (y & <- & Hy).
        apply nds_seen in Hy. tauto.
    - intros x Hx. apply in_app_or in Hx. unfold rest_of. rewrite filter_In, negb_true_iff, memN_notIn.
      destruct Hx as [Hx|Hx].
      + apply filter_In in Hx. destruct Hx as [Hx1 Hx2]. apply negb_true_iff, memN_notIn in Hx2.
        split; [exact Hx1|]. intros Hv. apply Hx2, Hvis. now right.
      + apply in_map_iff in Hx. destruct Hx as (y & <- & Hy).
        apply nds_seen in Hy. destruct Hy as [Hy1 Hy2].
        split; [apply nodup_In; eapply tdist_U; eauto|auto].
  Qed.

  Lemma fold_cands_at f nds : forall s,
    length (s_cands (fold_left (step f) nds s)) <= length nds + length (s_cands s) /\
    s_visited (fold_left (step f) nds s) = s_visited s.
  Proof.
    induction nds as [|nd nds IH]; intros s; cbn; [auto|].
    destruct (IH (step f s nd)) as [H1 H2].
    pose proof (step_cands_length (W (t_tomb C level f (it_id nd))) ef level allow s nd) as H3.
    fold (step f s nd) in H3. rewrite step_at_visited in H2. split; [lia|exact H2].
  Qed.

  (** Whatever the states are, the loop ends; it can only fail by a vertex
      without the list of its layer. *)
  Lemma loop_ends : forall fuel s, meas s < fuel ->
    loop fuel s <> OutOfFuel /\ (forall e, loop fuel s <> Err e) /\
    ((forall t, wf_levels (W t)) -> loop fuel s <> Panic).
  Proof.
    induction fuel as [|f IH]; intros s Hm; [lia|]. cbn [search_loop_at].
    destruct (pq_pop less_min (s_cands s)) as [[c cands']|] eqn:Epop;
      [|split; [discriminate|split; [discriminate|intros _; discriminate]]].
    destruct (_ && _) eqn:Ebr; [split; [discriminate|split; [discriminate|intros _; discriminate]]|].
    pose proof (pop_length _ _ _ _ Epop) as Hlen.
    assert (Hskip : meas (mkS cands' (s_results s) (s_worst s) (s_visited s)) < f).
    { unfold meas in *. cbn in *. lia. }
    destruct (node_by_id (W (t_pop C level f)) (it_id c)) as [v|] eqn:Ev; [|apply IH; exact Hskip].
    destruct (Nat.ltb_spec (v_level v) level) as [Hl|Hl]; [apply IH; exact Hskip|].
    destruct (conns_at v level) as [conns|] eqn:Ec.
    - destruct (fresh conns (s_visited s)) as [ids vis'] eqn:Ef. apply IH.
      pose proof (rest_fresh _ _ _ _ f Ef) as Hu.
      destruct (fold_cands_at f (e_sched E level f (neighbour_dists_at E W C q level f ids))
                  (mkS cands' (s_results s) (s_worst s) vis')) as [H1 H2].
      unfold meas in *. rewrite H2. cbn [s_cands s_visited] in *.
      pose proof (Permutation_length (Hsc level f (neighbour_dists_at E W C q level f ids))). lia.
    - split; [discriminate|split; [discriminate|]]. intros Hwf.
      exfalso. unfold conns_at in Ec. apply nth_error_None in Ec.
      specialize (Hwf _ _ _ Ev). lia.
  Qed.

  Lemma st0_meas ep w : meas (st0 ep w) < S (1 + n).
  Proof.
    unfold meas, st0, rest_of. cbn [s_cands s_visited length].
    match goal with |- context [length (filter ?f ?l)] => pose proof (filter_length_le f l) end.
    assert (length (nodup N.eq_dec U) <= length U).
    { apply NoDup_incl_length; [apply NoDup_nodup|]. intros x Hx. now apply nodup_In in Hx. }
    lia.
  Qed.

  Lemma worst_total ep : tdist (it_id ep) (it_dist ep) ->
    node_by_id (W (t_worst C level)) (it_id ep) <> None ->
    worst_dist E (W (t_worst C level)) q (res0 ep) = Ok (it_dist ep) \/
    worst_dist E (W (t_worst C level)) q (res0 ep) = Ok f32_max.
  Proof.
    intros (t & _ & v & Hv & Hd) Hn.
    destruct (res0_cases ep) as [[-> _]|[-> _]]; cbn; [left|right; reflexivity].
    destruct (node_by_id (W (t_worst C level)) (it_id ep)) as [v'|] eqn:Ev; [|congruence].
    unfold dist_float_node. rewrite Ev, <- (Hone _ _ _ _ _ Hv Ev), Hd. reflexivity.
  Qed.

  Lemma layer_total_at ep : (forall t, wf_levels (W t)) -> tdist (it_id ep) (it_dist ep) ->
    node_by_id (W (t_worst C level)) (it_id ep) <> None -> exists r, layer ep = Ok r.
  Proof.
    intros Hwf Hd Hn. rewrite layer_single.
    assert (Hw : exists w, worst_dist E (W (t_worst C level)) q (res0 ep) = Ok w).
    { destruct (worst_total ep Hd Hn) as [->| ->]; eauto. }
    destruct Hw as (w & ->). cbn [bind].
    destruct (loop_ends _ _ (st0_meas ep w)) as (H1 & H2 & H3). specialize (H3 Hwf).
    destruct (loop (S (1 + n)) (st0 ep w)) as [s|e| |]; [cbn; eauto|now specialize (H2 e)|congruence|congruence].
  Qed.

  Lemma layer_ends ep : layer ep <> OutOfFuel /\ ((forall t, wf_levels (W t)) -> layer ep <> Panic).
  Proof.
    rewrite layer_single.
    destruct (worst_dist E _ q (res0 ep)) as [w|e| |] eqn:Ew; cbn [bind].
    - destruct (loop_ends _ _ (st0_meas ep w)) as (H1 & H2 & H3).
      destruct (loop (S (1 + n)) (st0 ep w)) as [s|e| |]; cbn [bind].
      + split; [discriminate|intros _; discriminate].
      + split; [discriminate|intros _; discriminate].
      + split; [discriminate|]. intros Hwf. now specialize (H3 Hwf).
      + congruence.
    - split; [discriminate|intros _; discriminate].
    - exfalso. revert Ew. unfold worst_dist. destruct (pq_top _); [|discriminate].
      destruct (dist_float_node _ _ _ _); discriminate.
    - exfalso. revert Ew. unfold worst_dist. destruct (pq_top _); [|discriminate].
      destruct (dist_float_node _ _ _ _); discriminate.
  Qed.

  (* ---------------------------------------------------------------- *)
  (** Heap order of the results. *)
  Section Ordered.
    Hypothesis Hnum : seen_num P W q.

    Definition rheap (s : sst) : Prop := heap less_max (s_results s).

    Lemma rheap_step f s nd : linv s -> rheap s -> numItem nd -> rheap (step f s nd).
    Proof.
      intros Hs Hr Hn. unfold rheap, step_at in *.
      assert (Hnr : allP numItem (s_results s)).
      { intros x Hx. destruct (li_rg _ Hs x Hx) as (t & _ & Hx2). eapply Hnum; eauto. }
      destruct (step_cases (W (t_tomb C level f (it_id nd))) ef level allow s nd)
        as [(-> & _)|[(-> & _)|(r2 & _ & _ & -> & Hr2)]]; auto.
      assert (Hr' : heap less_max (pq_insert less_max nd (s_results s))).
      { eapply insert_heap; eauto using less_max_asym, less_max_trans. }
      cbn [s_results]. destruct Hr2 as [[_ ->]|[_ (y & Hy)]]; [exact Hr'|].
      eapply pop_heap; eauto using less_max_asym, less_max_trans. now apply insert_allP.
    Qed.

    Lemma layer_heap_at ep r : tdist (it_id ep) (it_dist ep) -> layer ep = Ok r ->
      heap less_max r /\ allP numItem r.
    Proof.
      intros Hd Hr. destruct (layer_inv ep r rheap) as (s0 & H1 & H2 & -> & _); auto.
      - intros s c cands' v conns ids vis' f Hs Hh Hp Hv Hl Hc Hf nds s1 Hs1 Hnew Hnd.
        apply (fold_steps_at f rheap nds s1); auto.
        intros s2 nd Hi Hs2 Hh2 _ _. apply rheap_step; auto.
        destruct (Hnew nd Hi) as ((t & _ & Hx) & _). eapply Hnum; eauto.
      - intros w _. unfold rheap, st0. cbn [s_results].
        assert (H1 : forall (less : item -> item -> bool) x, heap less [x]).
        { intros less x c Hc a b Ha Hb. destruct c; [lia|]. destruct c; discriminate. }
        destruct (res0_cases ep) as [[-> _]|[-> _]]; [apply H1|apply nil_heap].
      - split; [exact H2|]. intros x Hx. destruct (li_rg _ H1 x Hx) as (t & _ & Hx2). eapply Hnum; eauto.
    Qed.
  End Ordered.

  (* ---------------------------------------------------------------- *)
  (** Completeness: what a state [h1] links from the entry point is found, if
      every access of this layer finds at least the vertices and links of
      [h1], and ef is at least the number of ids. *)
  Definition extends (h1 h : hnsw) : Prop := forall id v,
    node_by_id h1 id = Some v -> exists v', node_by_id h id = Some v' /\ v_vec v' = v_vec v /\
      (level <= v_level v -> level <= v_level v' /\
       forall conns, conns_at v level = Some conns ->
         exists conns', conns_at v' level = Some conns' /\ incl conns conns').

  Lemma layer_found ep r h1 :
    tdist (it_id ep) (it_dist ep) ->
    (forall f, extends h1 (W (t_pop C level f))) ->
    (forall f id, extends h1 (W (t_dist C level f id))) ->
    (forall f id, node_by_id h1 id <> None -> has_tombstone (W (t_tomb C level f id)) id = false) ->
    (forall id v, node_by_id h1 id = Some v -> exists d, p_query P q (v_vec v) = Some d) ->
    (Z.of_nat n <= ef)%Z -> layer ep = Ok r ->
    forall id d, reach h1 level (it_id ep) id -> true_dist P h1 q id d ->
      allowed level allow id = true -> In (mkItem id d) r.
  Proof.
    intros Hd Hpop Hdis Htomb Hall Hlen Hr.
    assert (Hseen : forall id d, true_dist P h1 q id d -> forall f, true_dist P (W (t_dist C level f id)) q id d).
    { intros id d (v & Hv & Hx) f. destruct (Hdis f id id v Hv) as (v' & Hv' & Hvec & _).
      exists v'. split; [exact Hv'|]. now rewrite Hvec. }
    assert (Htd : forall id d, true_dist P h1 q id d -> tdist id d).
    { intros id d H. exists (t_dist C level 0 id). split; [apply HT|now apply Hseen]. }
    (* with ef results every id is a result *)
    assert (Hcover : forall s, linv s -> (ef <= Z.of_nat (length (s_results s)))%Z ->
              forall id d, tdist id d -> In (mkItem id d) (s_results s)).
    { intros s Hs Hle id d Ht.
      assert (Hincl : incl U (map it_id (s_results s))).
      { apply NoDup_length_incl.
        - exact (li_rnd _ Hs).
        - rewrite map_length. lia.
        - intros x Hx. apply in_map_iff in Hx. destruct Hx as (y & <- & Hy).
          eapply tdist_U, (li_rg _ Hs y Hy). }
      specialize (Hincl id (tdist_U _ _ Ht)). apply in_map_iff in Hincl.
      destruct Hincl as (y & Hy1 & Hy2). pose proof (li_rg _ Hs y Hy2) as Hy3.
      destruct y as [yi yd]; cbn in *; subst yi. now rewrite (tdist_fun _ _ _ Ht Hy3). }
    pose (expanded := fun (vis : list N) id => forall v conns, node_by_id h1 id = Some v ->
            level <= v_level v -> conns_at v level = Some conns -> incl conns vis).
    pose (J := fun s =>
      In (it_id ep) (s_visited s) /\
      (forall id d, In id (s_visited s) -> true_dist P h1 q id d -> allowed level allow id = true ->
                    In (mkItem id d) (s_results s)) /\
      (forall id d, In id (s_visited s) -> true_dist P h1 q id d ->
                    In id (map it_id (s_cands s)) \/ expanded (s_visited s) id)).
    destruct (layer_inv ep r J) as (s0 & Hs0 & (Hj0 & Hj1 & Hj2) & -> & Hex); auto.
    - (* skip *)
      intros s1 c cands' f Hs1 (Hj0 & Hj1 & Hj2) Hp Hn. split; [exact Hj0|]. split; [exact Hj1|].
      cbn [s_visited s_cands]. intros id d Hid Ht. destruct (Hj2 id d Hid Ht) as [Hc|Hx]; [|auto].
      destruct (N.eq_dec id (it_id c)) as [->|Hne].
      + right. intros v conns Hv1 Hl1 Hc1. destruct (Hpop f _ _ Hv1) as (v' & Hv' & _ & Hlv).
        destruct Hn as [Hn|(v2 & Hn1 & Hn2)]; [congruence|].
        rewrite Hv' in Hn1. injection Hn1 as <-. destruct (Hlv Hl1). lia.
      + left. pose proof (pop_perm _ _ _ _ Hp) as Hpm. apply (Permutation_map it_id) in Hpm.
        apply (Permutation_in _ Hpm) in Hc. cbn in Hc. destruct Hc as [Hc|Hc]; [congruence|exact Hc].
    - (* expand *)
      intros s1 c cands' v conns ids vis' f Hs1 (Hj0 & Hj1 & Hj2) Hp Hv1 Hl1 Hc Hf nds s2 Hs2 Hin Hnd.
      destruct (fresh_spec _ _ _ _ Hf) as (Hfd & Hfi & Hff & Hfv & Hfc & _).
      assert (Hgen : forall todo s, linv s -> s_visited s = vis' -> news s todo -> NoDup (map it_id todo) ->
        (forall id d, In id vis' -> true_dist P h1 q id d -> allowed level allow id = true ->
           In (mkItem id d) (s_results s) \/ In (mkItem id d) todo) ->
        (forall id d, In id vis' -> true_dist P h1 q id d ->
           In id (map it_id (s_cands s)) \/ In (mkItem id d) todo \/ expanded vis' id) ->
        J (fold_left (step f) todo s)).
      { induction todo as [|nd todo IH]; intros s3 Hs3 Hvis Htodo Hndt Ha Hb2; cbn [fold_left].
        - split; [rewrite Hvis; apply Hfv; right; exact Hj0|]. rewrite Hvis. split.
          + intros id d Hi1 Hi2 Hi3. destruct (Ha id d Hi1 Hi2 Hi3) as [Hx|[]]; exact Hx.
          + intros id d Hi1 Hi2. destruct (Hb2 id d Hi1 Hi2) as [Hx|[[]|Hx]]; auto.
        - destruct (Htodo nd (or_introl eq_refl)) as (Hg & Hvi & Hni).
          inversion Hndt as [|? ? Hn1 Hn2]; subst.
          destruct (news_step f s3 nd todo Hs3 Htodo Hn1) as [Hs4 Hnew4].
          assert (Hroom : (Z.of_nat (length (s_results s3)) < ef)%Z).
          { destruct (Z.lt_ge_cases (Z.of_nat (length (s_results s3))) ef) as [Hlt|Hge]; [exact Hlt|].
            exfalso. apply Hni. right.
            change (it_id nd) with (it_id (mkItem (it_id nd) (it_dist nd))). apply in_map.
            eapply Hcover; eauto. }
          assert (Hcs : s_cands (step f s3 nd) = pq_insert less_min nd (s_cands s3) /\
                        (forall x, In x (s_results s3) -> In x (s_results (step f s3 nd))) /\
                        (node_by_id h1 (it_id nd) <> None -> allowed level allow (it_id nd) = true ->
                         In nd (s_results (step f s3 nd)))).
          { unfold step_at.
            destruct (step_cases (W (t_tomb C level f (it_id nd))) ef level allow s3 nd)
              as [(Hs & _ & Hle)|[(Hs & Hno)|(r2 & Hok & _ & Hs & Hr2)]]; [lia| |]; rewrite Hs; cbn.
            - split; [reflexivity|]. split; [auto|]. intros Hk1 Hk2.
              rewrite (Htomb f (it_id nd) Hk1) in Hno. destruct Hno; congruence.
            - destruct Hr2 as [[_ ->]|[Hlt _]]; [|lia]. split; [reflexivity|].
              split; [intros x Hx; apply insert_In; auto|intros _ _; apply insert_In; auto]. }
          destruct Hcs as (Hcs1 & Hcs2 & Hcs3).
          apply IH; auto.
          + now rewrite step_at_visited.
          + intros id d Hi1 Hi2 Hi3. destruct (Ha id d Hi1 Hi2 Hi3) as [Hx|[Hx|Hx]]; auto.
            left. subst nd. apply Hcs3; [|exact Hi3]. destruct Hi2 as (v0 & Hv0 & _). cbn. congruence.
          + intros id d Hi1 Hi2. rewrite Hcs1.
            destruct (Hb2 id d Hi1 Hi2) as [Hx|[[Hx|Hx]|Hx]]; auto.
            * left. apply in_insert_ids. auto.
            * left. apply in_insert_ids. subst nd. auto. }
      apply Hgen; auto.
      + intros id d Hi1 Hi2 Hi3. apply Hfv in Hi1. destruct Hi1 as [Hi1|Hi1].
        * right. unfold nds. eapply Permutation_in; [apply Hsc|]. apply nds_spec. cbn. auto.
        * left. cbn. auto.
      + intros id d Hi1 Hi2. apply Hfv in Hi1. destruct Hi1 as [Hi1|Hi1].
        * right; left. unfold nds. eapply Permutation_in; [apply Hsc|]. apply nds_spec. cbn. auto.
        * destruct (N.eq_dec id (it_id c)) as [->|Hne].
          -- right; right. intros v' conns' Hv' Hl' Hc' x Hx.
             destruct (Hpop f _ _ Hv') as (v2 & Hv2 & _ & Hlv). rewrite Hv1 in Hv2. injection Hv2 as <-.
             destruct (Hlv Hl') as [_ Hcn]. destruct (Hcn _ Hc') as (cn2 & Hcn2 & Hinc).
             rewrite Hc in Hcn2. injection Hcn2 as <-. auto.
          -- destruct (Hj2 id d Hi1 Hi2) as [Hx|Hx].
             ++ left. cbn. pose proof (pop_perm _ _ _ _ Hp) as Hpm. apply (Permutation_map it_id) in Hpm.
                apply (Permutation_in _ Hpm) in Hx. cbn in Hx. destruct Hx as [Hx|Hx]; [congruence|exact Hx].
             ++ right; right. intros v' conns' Hv' Hl' Hc' x Hxc. apply Hfv. right. eapply Hx; eauto.
    - (* init *)
      intros w _. unfold J, st0, vis0. pose proof (tdist_cap _ _ Hd) as Hv. apply N.ltb_lt in Hv. rewrite Hv.
      cbn. split; [now left|]. split.
      + intros id d [<-|[]] Ht Hal. destruct (res0_cases ep) as [[-> _]|[_ [Hn|Hn]]]; [|congruence|].
        * left. destruct ep as [ei ed]; cbn in *. f_equal. eapply tdist_fun; eauto.
        * exfalso. rewrite Htomb in Hn; [discriminate|]. destruct Ht as (v0 & Hv0 & _). congruence.
      + intros id d [<-|[]] _. auto.
    - destruct Hex as [Hex|Hex].
      + intros id d Hre Ht Hal. apply Hj1; auto. clear Hal Ht d.
        induction Hre as [|b v conns c Hre IH Hvb Hlv Hcb Hin]; [exact Hj0|].
        destruct (Hall _ _ Hvb) as (db & Hdb).
        destruct (Hj2 b db IH) as [Hx|Hx]; [exists v; auto|rewrite Hex in Hx; destruct Hx|].
        eapply Hx; eauto.
      + intros id d _ Ht _. eapply Hcover; eauto.
  Qed.
End Layer.

(* ------------------------------------------------------------------ *)
(** Whole queries. *)

(** [e l] is the instant at which the search of layer [l] is over; the search
    of layer [l] runs between [e (S l)] and [e l], the ground layer last. *)
Definition in_order (C : clock) (e : nat -> nat) : Prop :=
  (forall l, t_ep C <= t_start C <= t_maxl C /\ t_maxl C <= e l /\ e (S l) <= e l) /\
  (forall l f, e (S l) <= t_pop C l f <= e l) /\
  (forall l f id, e (S l) <= t_dist C l f id <= e l) /\
  (forall l f id, e (S l) <= t_tomb C l f id <= e l) /\
  (forall l, e (S l) <= t_worst C l <= e l).

(** What is stored stays stored. *)
Definition lasting (W : nat -> hnsw) : Prop := forall t t' id,
  t <= t' -> node_by_id (W t) id <> None -> node_by_id (W t') id <> None.

Section Knn.
  Variable E : env.
  Variable W : nat -> hnsw.
  Variable C : clock.
  Variable U : list N.
  Local Notation P := (e_prov E).
  Local Notation n := (length U).

  Hypothesis Hsc : sched_ok E.
  Hypothesis Hsym : prov_sym P.
  Hypothesis Hids : ids_in E W U.

  Local Notation any := (fun _ : nat => True).
  Local Notation by_ e := (fun t : nat => t <= e).

  Lemma descend_seen q l : forall ep epd e d,
    seen_dist any P W q ep epd -> descend_at E W C n q l ep epd = Ok (e, d) ->
    seen_dist any P W q e d.
  Proof.
    induction l as [|l IH]; intros ep epd e d Hd Hr; cbn [descend_at] in Hr.
    - inversion Hr; subst. exact Hd.
    - apply bind_Ok in Hr. destruct Hr as (res & Hl & Hr).
      destruct (layer_sound_at E W C any U q 1 (S l) None Hsc Hids (fun _ _ => Logic.I) (mkItem ep epd) res Hd Hl)
        as (Hin & _ & _).
      destruct (pq_pop less_max res) as [[best rest]|] eqn:Ep; [|eapply IH; eauto].
      assert (Hb : In best res).
      { eapply Permutation_in; [symmetry; apply (pop_perm _ _ _ _ Ep)|now left]. }
      destruct (Hin best Hb) as (Hb1 & _). eapply IH; eauto.
  Qed.

  Lemma descend_ends q l : forall ep epd,
    descend_at E W C n q l ep epd <> OutOfFuel /\
    ((forall t, wf_levels (W t)) -> descend_at E W C n q l ep epd <> Panic).
  Proof.
    induction l as [|l IH]; intros ep epd; cbn [descend_at]; [split; [discriminate|intros _; discriminate]|].
    destruct (layer_ends E W C any U q 1 (S l) None Hsc Hids (fun _ _ => Logic.I) (mkItem ep epd)) as [H1 H2].
    destruct (search_layer_at E W C n q 1 (S l) None _) as [res|er| |]; cbn [bind].
    - destruct (pq_pop less_max res) as [[best rest]|]; apply IH.
    - split; [discriminate|intros _; discriminate].
    - split; [discriminate|]. intros Hwf. now specialize (H2 Hwf).
    - congruence.
  Qed.

  Section Query.
    Variables (q0 : vec) (maxd : f32) (ef : Z) (allow : option (N -> bool)).
    Local Notation q := (p_normalize P q0).

    Lemma knn_at_inv out :
      knn_max_dist_at E W C n q0 maxd ef allow = Ok out ->
      exists d0 e d res,
        true_dist P (W (t_start C)) q (h_ep (W (t_ep C))) d0 /\
        descend_at E W C n q (h_maxl (W (t_maxl C))) (h_ep (W (t_ep C))) d0 = Ok (e, d) /\
        search_layer_at E W C n q ef 0 allow (pq_insert less_min (mkItem e d) []) = Ok res /\
        answer out = cut (rev (pq_drain less_max res)) maxd /\
        fst out = map it_id (answer out) /\
        (exists rest, snd out = map it_dist (answer out) ++ rest) /\
        length (snd out) = length res.
    Proof.
      unfold knn_max_dist_at. cbv zeta. intros H.
      apply bind_Ok in H. destruct H as (d0 & H0 & H).
      apply bind_Ok in H. destruct H as ([e d] & H1 & H). cbn [fst snd] in H.
      apply bind_Ok in H. destruct H as (res & H2 & H). inversion H; subst.
      exists d0, e, d, res. apply dist_node_vec_spec in H0; [|exact Hsym].
      rewrite answer_map. cbn [fst snd].
      split; [exact H0|]. split; [exact H1|]. split; [exact H2|].
      split; [reflexivity|]. split; [reflexivity|]. split; [eauto|].
      rewrite app_length, map_length, repeat_length.
      pose proof (cut_length (rev (pq_drain less_max res)) maxd) as Hc.
      rewrite <- (Permutation_length (rev_drain_perm res)) in *. lia.
    Qed.

    Lemma knn_at_ends :
      knn_max_dist_at E W C n q0 maxd ef allow <> OutOfFuel /\
      ((forall t, wf_levels (W t)) -> knn_max_dist_at E W C n q0 maxd ef allow <> Panic).
    Proof.
      unfold knn_max_dist_at. cbv zeta.
      destruct (dist_node_vec P (W (t_start C)) (h_ep (W (t_ep C))) q) as [d0|er| |] eqn:E0; cbn [bind].
      - destruct (descend_ends q (h_maxl (W (t_maxl C))) (h_ep (W (t_ep C))) d0) as [H1 H2].
        destruct (descend_at E W C n q (h_maxl (W (t_maxl C))) (h_ep (W (t_ep C))) d0) as [[e d]|er| |]; cbn [bind fst snd].
        + destruct (layer_ends E W C any U q ef 0 allow Hsc Hids (fun _ _ => Logic.I) (mkItem e d)) as [H3 H4].
          destruct (search_layer_at E W C n q ef 0 allow _) as [res|er| |]; cbn [bind].
          * split; [discriminate|intros _; discriminate].
          * split; [discriminate|intros _; discriminate].
          * split; [discriminate|]. intros Hwf. now specialize (H4 Hwf).
          * congruence.
        + split; [discriminate|intros _; discriminate].
        + split; [discriminate|]. intros Hwf. now specialize (H2 Hwf).
        + congruence.
      - split; [discriminate|intros _; discriminate].
      - exfalso. revert E0. unfold dist_node_vec. destruct (node_by_id _ _) as [v|]; [|discriminate].
        destruct (v_vec v); [discriminate|]. destruct q; [discriminate|].
        destruct (p_single _ _ _); discriminate.
      - exfalso. revert E0. unfold dist_node_vec. destruct (node_by_id _ _) as [v|]; [|discriminate].
        destruct (v_vec v); [discriminate|]. destruct q; [discriminate|].
        destruct (p_single _ _ _); discriminate.
    Qed.

    Lemma knn_at_sound out :
      knn_max_dist_at E W C n q0 maxd ef allow = Ok out ->
      NoDup (fst out) /\ length (fst out) <= length (snd out) /\
      (Z.of_nat (length (fst out)) <= Z.max ef 1)%Z /\
      (forall i id, nth_error (fst out) i = Some id ->
         exists d, nth_error (snd out) i = Some d /\
           (exists t, true_dist P (W t) q id d) /\
           (exists t, has_tombstone (W t) id = false) /\
           flt d f32_zero = false /\ fgt d maxd = false /\
           (forall f, allow = Some f -> f id = true)) /\
      (seen_num P W q -> asc (answer out) /\ map it_id (answer out) = fst out /\
         map it_dist (answer out) = firstn (length (fst out)) (snd out)).
    Proof.
      intros H. destruct (knn_at_inv out H) as (d0 & e & d & res & H0 & H1 & H2 & H3 & H4 & (rest & H5) & H6).
      assert (He : seen_dist any P W q e d).
      { eapply descend_seen; [|exact H1]. exists (t_start C). auto. }
      destruct (layer_sound_at E W C any U q ef 0 allow Hsc Hids (fun _ _ => Logic.I) (mkItem e d) res He H2)
        as (Hin & Hnd & Hlen).
      assert (Hdr : Permutation res (rev (pq_drain less_max res))) by apply rev_drain_perm.
      assert (Hsub : forall x, In x (answer out) -> In x res /\ within maxd x = true).
      { intros x Hx. rewrite H3 in Hx. apply cut_sub in Hx. destruct Hx as [Hx1 Hx2]. split; [|exact Hx2].
        eapply Permutation_in; [symmetry; exact Hdr|exact Hx1]. }
      assert (Hal : length (answer out) <= length res).
      { rewrite H3. rewrite (Permutation_length Hdr). apply cut_length. }
      split; [|split; [|split; [|split]]].
      - rewrite H4, H3. apply cut_NoDup. eapply Permutation_map_NoDup; eauto.
      - rewrite H4, map_length. lia.
      - rewrite H4, map_length. lia.
      - intros i id Hi. rewrite H4 in Hi. rewrite nth_error_map in Hi.
        destruct (nth_error (answer out) i) as [x|] eqn:Ex; [|discriminate].
        cbn in Hi. inversion Hi; subst id.
        exists (it_dist x). split.
        + rewrite H5. rewrite nth_error_app1 by (rewrite map_length; apply nth_error_Some; congruence).
          rewrite nth_error_map, Ex. reflexivity.
        + apply nth_error_In in Ex. destruct (Hsub x Ex) as [Hx Hw].
          destruct (Hin x Hx) as ((t & _ & Hx1) & (f0 & Hx2) & Hx3).
          unfold within in Hw. apply andb_true_iff in Hw. rewrite !negb_true_iff in Hw.
          destruct Hw as [Hw1 Hw2].
          split; [eauto|]. split; [eauto|]. split; [exact Hw1|].
          split; [exact Hw2|]. intros f ->. exact Hx3.
      - intros Hnum.
        destruct (layer_heap_at E W C any U q ef 0 allow Hsc Hids (fun _ _ => Logic.I) Hnum (mkItem e d) res He H2)
          as [Hh Hn].
        destruct (drain_max_asc res Hh Hn) as [Ha _]. split; [|split].
        + rewrite H3. now apply cut_asc.
        + now symmetry.
        + rewrite H4, H5, map_length, firstn_app, map_length.
          rewrite <- (map_length it_dist (answer out)), firstn_all.
          replace (_ - _) with 0 by lia. cbn. now rewrite app_nil_r.
    Qed.
  End Query.

  (* ---------------------------------------------------------------- *)
  (** With accesses in order. *)
  Variable e : nat -> nat.
  Hypothesis Ho : in_order C e.
  Hypothesis Hone : one_vec W.

  Lemma widen q l id d : seen_dist (by_ (e (S l))) P W q id d -> seen_dist (by_ (e l)) P W q id d.
  Proof.
    destruct Ho as (Ho1 & _). intros (t & Ht & Hx). exists t. split; [|exact Hx].
    destruct (Ho1 l) as (_ & _ & Hx2). lia.
  Qed.

  Lemma dist_by l f id : t_dist C l f id <= e l.
  Proof. destruct Ho as (_ & _ & Ho2 & _). now apply Ho2. Qed.

  Lemma descend_by q l : forall ep epd e' d,
    seen_dist (by_ (e (S l))) P W q ep epd -> descend_at E W C n q l ep epd = Ok (e', d) ->
    seen_dist (by_ (e 1)) P W q e' d.
  Proof.
    induction l as [|l IH]; intros ep epd e' d Hd Hr; cbn [descend_at] in Hr.
    - inversion Hr; subst. exact Hd.
    - apply bind_Ok in Hr. destruct Hr as (res & Hl & Hr).
      destruct (layer_sound_at E W C (by_ (e (S l))) U q 1 (S l) None Hsc Hids
                  (dist_by (S l)) (mkItem ep epd) res (widen _ _ _ _ Hd) Hl) as (Hin & _ & _).
      destruct (pq_pop less_max res) as [[best rest]|] eqn:Ep; [|eapply IH; [apply (widen _ _ _ _ Hd)|exact Hr]].
      assert (Hb : In best res).
      { eapply Permutation_in; [symmetry; apply (pop_perm _ _ _ _ Ep)|now left]. }
      destruct (Hin best Hb) as (Hb1 & _). eapply IH; eauto.
  Qed.

  Hypothesis Hlast : lasting W.
  Hypothesis Hwf : forall t, wf_levels (W t).

  Lemma worst_present q l id d : seen_dist (by_ (e (S l))) P W q id d ->
    node_by_id (W (t_worst C l)) id <> None.
  Proof.
    destruct Ho as (_ & _ & _ & _ & Ho5). intros (t & Ht & v & Hv & _).
    apply (Hlast t); [specialize (Ho5 l); lia|congruence].
  Qed.

  Lemma descend_total_at q l : forall ep epd, seen_dist (by_ (e (S l))) P W q ep epd ->
    exists e' d, descend_at E W C n q l ep epd = Ok (e', d).
  Proof.
    induction l as [|l IH]; intros ep epd Hd; cbn [descend_at]; [eauto|].
    destruct (layer_total_at E W C (by_ (e (S l))) U q 1 (S l) None Hsc Hone Hids (dist_by (S l)) (mkItem ep epd)
                Hwf (widen _ _ _ _ Hd)) as (res & Hl); [eapply worst_present; exact Hd|].
    rewrite Hl. cbn [bind].
    destruct (layer_sound_at E W C (by_ (e (S l))) U q 1 (S l) None Hsc Hids
                (dist_by (S l)) (mkItem ep epd) res (widen _ _ _ _ Hd) Hl) as (Hin & _ & _).
    destruct (pq_pop less_max res) as [[best rest]|] eqn:Ep; [|apply IH; apply widen; exact Hd].
    apply IH. apply Hin. eapply Permutation_in; [symmetry; apply (pop_perm _ _ _ _ Ep)|now left].
  Qed.

  Lemma start_by q d : true_dist P (W (t_start C)) q (h_ep (W (t_ep C))) d ->
    forall l, seen_dist (by_ (e l)) P W q (h_ep (W (t_ep C))) d.
  Proof.
    destruct Ho as (Ho1 & _). intros Hd l. exists (t_start C). split; [|exact Hd].
    specialize (Ho1 l). lia.
  Qed.

  Lemma knn_at_total q0 maxd ef allow d0 :
    dist_node_vec P (W (t_start C)) (h_ep (W (t_ep C))) (p_normalize P q0) = Ok d0 ->
    exists out, knn_max_dist_at E W C n q0 maxd ef allow = Ok out.
  Proof.
    intros H0. unfold knn_max_dist_at. cbv zeta. rewrite H0. cbn [bind].
    pose proof (dist_node_vec_spec _ _ _ _ _ Hsym H0) as Hd.
    destruct (descend_total_at _ (h_maxl (W (t_maxl C))) _ _ (start_by _ _ Hd (S _))) as (e' & d & Hde).
    rewrite Hde. cbn [bind fst snd].
    pose proof (descend_by _ _ _ _ _ _ (start_by _ _ Hd (S _)) Hde) as He.
    destruct (layer_total_at E W C (by_ (e 0)) U (p_normalize P q0) ef 0 allow Hsc Hone Hids (dist_by 0) (mkItem e' d)
                Hwf (widen _ _ _ _ He)) as (res & Hl); [eapply worst_present; exact He|].
    rewrite Hl. cbn. eauto.
  Qed.

  (** Nothing is missed that was there when the search of the ground layer
      began, if from then on nothing is taken away. *)
  Lemma knn_at_found q0 maxd ef allow out :
    let q := p_normalize P q0 in
    let h1 := W (e 1) in
    seen_num P W q ->
    (forall t, e 1 <= t <= e 0 -> extends 0 h1 (W t)) ->
    (forall t id, e 1 <= t <= e 0 -> node_by_id h1 id <> None -> has_tombstone (W t) id = false) ->
    (forall id v, node_by_id h1 id = Some v -> exists d, p_query P q (v_vec v) = Some d) ->
    (forall a b va vb, node_by_id h1 a = Some va -> node_by_id h1 b = Some vb -> reach h1 0 a b) ->
    (Z.of_nat n <= ef)%Z ->
    knn_max_dist_at E W C n q0 maxd ef allow = Ok out ->
    forall id d, true_dist P h1 q id d -> (forall f, allow = Some f -> f id = true) ->
      flt d f32_zero = false -> fgt d maxd = false -> In (mkItem id d) (answer out).
  Proof.
    intros q h1 Hnum Hext Htomb Hall Hconn Hef H id d Ht Hal Hw1 Hw2.
    destruct (knn_at_inv q0 maxd ef allow out H) as (d0 & e' & d' & res & H0 & H1 & H2 & H3 & _).
    pose proof (descend_by _ _ _ _ _ _ (start_by _ _ H0 (S _)) H1) as He.
    pose proof Ho as (_ & Ho2 & Ho3 & Ho4 & _).
    assert (Hst : exists ve, node_by_id h1 e' = Some ve).
    { destruct He as (t & Ht1 & v & Hv & _).
      assert (Hp : node_by_id h1 e' <> None) by (apply (Hlast t); [exact Ht1|congruence]).
      destruct (node_by_id h1 e') as [ve|]; [eauto|congruence]. }
    destruct Hst as (ve & Hve).
    assert (Hin : In (mkItem id d) res).
    { eapply (layer_found E W C (by_ (e 0)) U q ef 0 allow Hsc Hone Hids (dist_by 0) (mkItem e' d') res h1).
      - apply widen. exact He.
      - intros f. apply Hext. apply Ho2.
      - intros f j. apply Hext. apply Ho3.
      - intros f j Hj. apply Htomb; [apply Ho4|exact Hj].
      - exact Hall.
      - exact Hef.
      - exact H2.
      - destruct Ht as (v & Hv & _). eapply Hconn; eauto.
      - exact Ht.
      - cbn. destruct allow as [f|]; [auto|reflexivity]. }
    destruct (layer_heap_at E W C (by_ (e 0)) U q ef 0 allow Hsc Hids (dist_by 0) Hnum (mkItem e' d') res
                (widen _ _ _ _ He) H2) as [Hh Hn].
    destruct (drain_max_asc res Hh Hn) as [Ha Hna].
    rewrite H3, cut_filter by assumption. apply filter_In. split.
    - eapply Permutation_in; [apply rev_drain_perm|exact Hin].
    - unfold within. cbn [it_dist]. rewrite Hw1, Hw2. reflexivity.
  Qed.
End Knn.

(* ------------------------------------------------------------------ *)
(** An index that does not move: the function is Search.knn_max_dist. *)
Section Still.
  Variable E : env.
  Variable h : hnsw.
  Variable C : clock.
  Local Notation W := (fun _ : nat => h).
  Local Notation n := (length (stored_ids h)).

  Lemma nds_still q level f ids : neighbour_dists_at E W C q level f ids = neighbour_dists E h q ids.
  Proof. induction ids as [|i ids IH]; cbn; [reflexivity|]. now rewrite IH. Qed.

  Lemma loop_still q ef level allow fuel : forall s,
    search_loop_at E W C q ef level allow fuel s = search_loop E h q ef level allow fuel s.
  Proof.
    induction fuel as [|f IH]; intros s; cbn [search_loop_at search_loop]; [reflexivity|].
    destruct (pq_pop less_min (s_cands s)) as [[c cands']|]; [|reflexivity].
    destruct (_ && _); [reflexivity|].
    destruct (node_by_id h (it_id c)) as [v|]; [|apply IH].
    destruct (Nat.ltb _ _); [apply IH|].
    destruct (conns_at v level) as [conns|]; [|reflexivity].
    destruct (fresh conns (s_visited s)) as [ids vis']. rewrite nds_still. apply IH.
  Qed.

  Lemma layer_still q ef level allow eps :
    search_layer_at E W C n q ef level allow eps = search_layer E h q ef level allow eps.
  Proof.
    unfold search_layer_at, search_layer.
    change (fun cr ep => add_ep h level allow cr ep) with (add_ep h level allow).
    destruct (fold_left (add_ep h level allow) (pq_drain less_min eps) ([], [])) as [c r].
    destruct (worst_dist E h q r) as [w| | |]; cbn [bind]; auto. now rewrite loop_still.
  Qed.

  Lemma descend_still q l : forall ep epd, descend_at E W C n q l ep epd = descend E h q l ep epd.
  Proof.
    induction l as [|l IH]; intros ep epd; cbn [descend_at descend]; [reflexivity|].
    rewrite layer_still.
    destruct (search_layer E h q 1 (S l) None (pq_insert less_min (mkItem ep epd) [])) as [res| | |]; cbn [bind]; auto.
    destruct (pq_pop less_max res) as [[best rest]|]; apply IH.
  Qed.

  Lemma knn_still q0 maxd ef allow :
    knn_max_dist_at E W C n q0 maxd ef allow = knn_max_dist E h q0 maxd ef allow.
  Proof.
    unfold knn_max_dist_at, knn_max_dist. cbv zeta.
    destruct (dist_node_vec (e_prov E) h (h_ep h) (p_normalize (e_prov E) q0)) as [d0| | |]; cbn [bind]; auto.
    rewrite descend_still.
    destruct (descend E h (p_normalize (e_prov E) q0) (h_maxl h) (h_ep h) d0) as [e| | |]; cbn [bind]; auto.
    now rewrite layer_still.
  Qed.
End Still.
