(** Searches by count and by distance on an index that has been written back. *)
From Coq Require Import String Sorted.
From Verif Require Import Base F32 PQ PQProofs Graph Search SearchProofs SearchLayer SearchKnn SearchCong
  Insert HeuristicProofs InsertProofs InsertHist InsertTotal InsertDim InsertSmall InsertFacts InsertFind
  Distancer DistancerProofs PropDistancer Persist PersistProofs PersistHist Config ConfigProofs SearchDist SearchDistProofs.

Lemma reach_content h h' l a b : (forall id, content h' id = content h id) -> reach h l a b -> reach h' l a b.
Proof.
  intros Hc Hr. induction Hr as [|b v cs c H1 IH Hv Hl Hcs Hin]; [constructor|].
  pose proof (Hc b) as E. unfold content in E. rewrite Hv in E.
  destruct (node_by_id h' b) as [v'|] eqn:Ev; [|discriminate]. cbn in E. injection E as E1 E2 E3 E4.
  eapply reach_step; [exact IH|exact Ev|lia| |exact Hin]. unfold conns_at in *. now rewrite E2.
Qed.

Lemma stored_node h id : In id (stored_ids h) -> exists v, node_by_id h id = Some v.
Proof.
  unfold stored_ids, node_by_id. intros H. destruct (mget id (h_cache h)) as [v|] eqn:E; [eauto|].
  apply in_app_or in H. destruct H as [H|H]; [|now apply mget_in_keys].
  apply mget_in_keys in H. destruct H as (v & Hv). congruence.
Qed.

(** What holds of the index. *)
Record ready_index (cap : N) (P : provider) (ops : list aop) (q : vec) (h : hnsw) : Prop := {
  ri_full : is_empty h = false;
  ri_wf : wf_levels h;
  ri_small : ids_below cap h;
  ri_conn : forall a va b vb, node_by_id h a = Some va -> node_by_id h b = Some vb -> reach h 0 a b;
  ri_ep : exists d0, dist_node_vec P h (h_ep h) q = Ok d0;
  ri_dist : forall id d, true_dist P h q id d <-> exists o, In o ops /\ a_id o = id /\ p_query P q (p_normalize P (a_vec o)) = Some d;
  ri_all : forall id v, node_by_id h id = Some v -> exists d, p_query P q (v_vec v) = Some d;
  ri_tomb : h_tomb h = [];
  ri_count : length (nodup N.eq_dec (stored_ids h)) <= length ops;
  ri_sym : prov_sym P
}.

Lemma ready_after n M cap ops P keys cnt k :
  0 < n -> 1 <= M -> ops <> [] -> length ops <= 2 * M + 1 -> NoDup (map a_id ops) ->
  Forall (find_call n M cap (map a_id ops)) ops ->
  Forall (fun o => e_prov (i_env (a_env o)) = P) ops ->
  let h := fst (run_adds empty_index ops) in
  all_keys h keys -> snd (flush h keys cnt k) = Ok tt ->
  forall h' q0, h' = fst (flush h keys cnt k) \/ h' = restart (fst (flush h keys cnt k)) /\ In 0%N (map a_id ops) ->
    length q0 = n -> ready_index cap P ops (p_normalize P q0) h'.
Proof.
  intros Hn HM Hne Hlen Hnd Hops HP h Hk Hok h' q0 Hh' Hq.
  destruct (find_state n M cap ops Hn HM Hne Hlen Hnd Hops) as (_ & Hst). cbv zeta in Hst. fold h in Hst.
  destruct Hst as [(D & HDi & Hd & HDs) _ Hg]. rewrite Forall_forall in HP.
  assert (HkP : known_provider P).
  { destruct ops as [|o ops']; [congruence|]. inversion Hops as [|? ? ((_ & Hkk & _) & _) _]; subst.
    rewrite <- (HP o (or_introl eq_refl)). exact Hkk. }
  assert (Hp : pinv h) by (unfold h; rewrite <- run_events_adds; apply run_events_pinv, pinv_empty).
  destruct (flush_restart h keys cnt k tt Hp Hk Hok) as (V & _ & Ke & He & Hm & Ht). cbv zeta in *.
  set (hf := fst (flush h keys cnt k)) in *. cbn [restart h_kv_ep] in Ke.
  assert (Hc : forall id, content h' id = content h id).
  { intros id. apply content_pview. destruct Hh' as [->|[-> _]]; apply V. }
  assert (Hin : forall o, In o ops -> exists v, node_by_id h (a_id o) = Some v /\ v_vec v = p_normalize P (a_vec o)).
  { intros o Ho. destruct (d_succ _ _ _ _ _ Hd o Ho) as (_ & _ & v & Hv & _ & Hvec & _). rewrite (HP o Ho) in Hvec. eauto. }
  assert (Hout : forall j v, node_by_id h j = Some v -> exists o, In o ops /\ a_id o = j).
  { intros j v Hj. apply HDs, HDi, in_map_iff in Hj. destruct Hj as (o & Eo & Ho). eauto. }
  assert (Hbw : forall id v', node_by_id h' id = Some v' -> exists v, node_by_id h id = Some v /\
    v_level v = v_level v' /\ v_conns v = v_conns v' /\ v_vec v = v_vec v').
  { intros id v' Hv'. specialize (Hc id). unfold content in Hc. rewrite Hv' in Hc.
    destruct (node_by_id h id) as [v|]; [|discriminate]. cbn in Hc. injection Hc as C1 C2 C3 C4. exists v. auto. }
  assert (Hfw : forall id v, node_by_id h id = Some v -> exists v', node_by_id h' id = Some v' /\
    v_level v' = v_level v /\ v_conns v' = v_conns v /\ v_vec v' = v_vec v).
  { intros id v Hv. specialize (Hc id). unfold content in Hc. rewrite Hv in Hc.
    destruct (node_by_id h' id) as [v'|]; [|discriminate]. cbn in Hc. injection Hc as C1 C2 C3 C4. exists v'. auto. }
  set (q := p_normalize P q0). assert (Hql : length q = n) by (unfold q; now rewrite (known_len P HkP)).
  assert (Hsym : prov_sym P) by now apply known_psym.
  assert (Hdimv : forall id v, node_by_id h id = Some v -> length (v_vec v) = n).
  { intros id v Hv. exact (d_dim _ _ _ _ _ Hd id v (HDs _ _ Hv) Hv). }
  assert (Hep : exists v, node_by_id h' (h_ep h') = Some v).
  { destruct Hh' as [E|[E H0]].
    - destruct (d_ep _ _ _ _ _ Hd) as (v & Hv & _). destruct (Hfw _ _ Hv) as (v' & Hv' & _). assert (Eep : h_ep h' = h_ep h) by (rewrite E; exact He). rewrite Eep. eauto.
    - apply in_map_iff in H0. destruct H0 as (o & Eo & Ho). destruct (Hin o Ho) as (v & Hv & _). rewrite Eo in Hv.
      destruct (Hfw _ _ Hv) as (v' & Hv' & _). assert (Eep : h_ep h' = 0%N) by (rewrite E; reflexivity). rewrite Eep. eauto. }
  constructor.
  - unfold is_empty. destruct Hh' as [->|[-> _]]; cbn [restart h_kv h_kv_ep h_kv_count]; rewrite Ke; destruct (h_kv hf); reflexivity.
  - intros id v' Hv'. destruct (Hbw _ _ Hv') as (v & Hv & E1 & E2 & _). rewrite <- E1, <- E2.
    exact (winv_wf n Hn h (d_w _ _ _ _ _ Hd) id v Hv).
  - intros id v' Hv'. destruct (Hbw _ _ Hv') as (v & Hv & _). exact (d_small _ _ _ _ _ Hd id v Hv).
  - intros a va b vb Ha Hb. destruct (Hbw _ _ Ha) as (wa & Wa & _), (Hbw _ _ Hb) as (wb & Wb & _).
    apply (reach_content h); [exact Hc|]. eapply Hg; eauto; discriminate.
  - destruct Hep as (v & Hv). destruct (Hbw _ _ Hv) as (w & Hw & _ & _ & Ew).
    destruct (dist_node_vec_total (Insert.mkI (mkEnv P cap (fun _ _ xs => xs)) (fun _ _ _ => Panic) 0 0 0) (known_dim P HkP) n Hn h'
              (h_ep h') v q Hv ltac:(rewrite <- Ew; eapply Hdimv; exact Hw) Hql) as (d0 & Hd0).
    cbn [i_env e_prov] in Hd0. eauto.
  - intros id d. split.
    + intros (v' & Hv' & Hpq). destruct (Hbw _ _ Hv') as (v & Hv & _ & _ & Ev). destruct (Hout id v Hv) as (o & Ho & Eo). exists o.
      split; [exact Ho|]. split; [exact Eo|]. destruct (Hin o Ho) as (v2 & Hv2 & Hvv). rewrite Eo, Hv in Hv2. injection Hv2 as <-.
      now rewrite <- Hvv, Ev.
    + intros (o & Ho & <- & Hpq). destruct (Hin o Ho) as (v & Hv & Hvv). destruct (Hfw _ _ Hv) as (v' & Hv' & _ & _ & Ev).
      exists v'. split; [exact Hv'|]. now rewrite Ev, Hvv.
  - intros id v' Hv'. destruct (Hbw _ _ Hv') as (v & Hv & _ & _ & Ev). pose proof (known_dim P HkP) as Hdm.
    destruct (proj1 (Hdm (v_vec v') q)) as (dc & Hdc); [rewrite <- Ev, (Hdimv _ _ Hv); now symmetry|].
    exists dc. rewrite <- Hdc. symmetry. apply Hsym.
  - destruct Hh' as [->|[-> _]]; [rewrite Ht; apply (d_tomb _ _ _ _ _ Hd)|reflexivity].
  - rewrite <- (map_length a_id). apply NoDup_incl_length; [apply NoDup_nodup|]. intros id Hid. apply nodup_In in Hid.
    apply stored_node in Hid. destruct Hid as (v' & Hv'). destruct (Hbw _ _ Hv') as (v & Hv & _).
    destruct (Hout id v Hv) as (o & Ho & <-). now apply in_map.
  - exact Hsym.
Qed.

(** Before the first write-back the store is empty. *)
Lemma unflushed_empty n M cap ops :
  0 < n -> 1 <= M -> ops <> [] -> length ops <= 2 * M + 1 -> NoDup (map a_id ops) ->
  Forall (find_call n M cap (map a_id ops)) ops -> is_empty (fst (run_adds empty_index ops)) = true.
Proof.
  intros Hn HM Hne Hlen Hnd Hops. destruct (find_state n M cap ops Hn HM Hne Hlen Hnd Hops) as (_ & Hst). cbv zeta in Hst.
  destruct Hst as [(D & _ & Hd & _) _ _]. destruct (d_kv _ _ _ _ _ Hd) as (A & B & C). unfold is_empty. now rewrite A, B, C.
Qed.

Section Ready.
  Variables (cap : N) (P : provider) (ops : list aop) (q0 : vec) (h : hnsw).
  Hypothesis R : ready_index cap P ops (p_normalize P q0) h.
  Hypothesis Hnum : forall o d, In o ops -> p_query P (p_normalize P q0) (p_normalize P (a_vec o)) = Some d -> is_num d = true.

  Lemma ready_num : dists_num P h (p_normalize P q0).
  Proof. intros id d Hd. apply (ri_dist _ _ _ _ _ R) in Hd. destruct Hd as (o & Ho & _ & Hp). eapply Hnum; eauto. Qed.
  Lemma ready_tomb id : has_tombstone h id = false.
  Proof. unfold has_tombstone. now rewrite (ri_tomb _ _ _ _ _ R). Qed.

  Lemma ready_knn E s forbid k : sched_ok E -> e_prov E = P -> e_vcap E = cap -> (0 <= k)%Z -> (Z.of_nat (length ops) <= search_ef s k)%Z ->
    exists out all, search_by_vector E h s forbid q0 k None = Ok out /\ map it_id (answer out) = fst out /\ map it_dist (answer out) = snd out /\
      asc (answer out) /\ NoDup (map it_id all) /\
      (forall id d, In (mkItem id d) all <-> exists o, In o ops /\ a_id o = id /\ p_query P (p_normalize P q0) (p_normalize P (a_vec o)) = Some d) /\
      kbest (Z.to_nat k) (answer out) all.
  Proof.
    intros Hsc HE Hcap Hk Hef. unfold search_by_vector. rewrite HE.
    assert (Hsy : prov_sym (e_prov E)) by (rewrite HE; apply (ri_sym _ _ _ _ _ R)).
    assert (Hsm : ids_small E h) by (unfold ids_small; rewrite Hcap; apply (ri_small _ _ _ _ _ R)).
    destruct (ri_ep _ _ _ _ _ R) as (d0 & Hd0).
    destruct (knn_search_total E h Hsc Hsy Hsm (p_normalize P q0) k (search_ef s k) None d0 (ri_wf _ _ _ _ _ R) Hk) as (out & Ho); [now rewrite HE|].
    destruct (knn_search_sound E h Hsc Hsy Hsm _ _ _ _ _ Ho) as (_ & _ & _ & _ & A & B & C). rewrite HE in C.
    pose proof (ri_count _ _ _ _ _ R) as Hct.
    destruct (knn_exact h q0 P (ri_sym _ _ _ _ _ R) E k (search_ef s k) None out (fun _ => True) HE Hsc Hsm ready_num (ri_full _ _ _ _ _ R)
      (ri_all _ _ _ _ _ R) (ri_conn _ _ _ _ _ R) ltac:(lia) ltac:(intros id; split; [auto|discriminate]) Ho) as (all & N1 & N2 & N3).
    exists out, all. split; [exact Ho|]. split; [exact A|]. split; [exact B|]. split; [apply C, ready_num|]. split; [exact N1|]. split; [|exact N3].
    intros id d. rewrite N2. cbn [it_id it_dist]. rewrite <- (ri_dist _ _ _ _ _ R). split; [tauto|]. intros H. split; [exact H|].
    split; [apply ready_tomb|exact I].
  Qed.

  Lemma ready_distance Es s forbid delta target maxlimit :
    (forall i, sched_ok (Es i)) -> (forall i, e_prov (Es i) = P) -> (forall i, e_vcap (Es i) = cap) -> length ops <= 100 ->
    is_num target = true ->
    exists out, search_by_distance Es h s forbid delta q0 target maxlimit None = Ok out /\
      map it_id (answer out) = fst out /\ map it_dist (answer out) = snd out /\
      (forall id d, In (mkItem id d) (answer out) ->
         (exists o, In o ops /\ a_id o = id /\ p_query P (p_normalize P q0) (p_normalize P (a_vec o)) = Some d) /\
         (fle d target = true \/ delta d target = true)) /\
      NoDup (fst out) /\ asc (answer out) /\
      forall o d, In o ops -> p_query P (p_normalize P q0) (p_normalize P (a_vec o)) = Some d -> fle d target = true ->
        In (mkItem (a_id o) d) (answer out).
  Proof.
    intros Hsc HE Hcap Hlen Ht.
    assert (Hsm : forall i, ids_small (Es i) h) by (intros i; unfold ids_small; rewrite Hcap; apply (ri_small _ _ _ _ _ R)).
    pose proof (ri_sym _ _ _ _ _ R) as Hsy. pose proof ready_num as Hn. pose proof (ri_count _ _ _ _ _ R) as Hct.
    assert (Hal : forall l : list N, None = Some l -> NoDup l) by discriminate.
    destruct (ri_ep _ _ _ _ _ R) as (d0 & Hd0).
    assert (Htot : exists out, search_by_distance Es h s forbid delta q0 target maxlimit None = Ok out).
    { assert (Hs : forall i k, (0 <= k)%Z -> exists out, search_by_vector (Es i) h s forbid q0 k None = Ok out).
      { intros i k Hk. unfold search_by_vector. rewrite HE.
        apply (knn_search_total (Es i) h (Hsc i) ltac:(rewrite HE; exact Hsy) (Hsm i) (p_normalize P q0) k _ None d0 (ri_wf _ _ _ _ _ R) Hk).
        now rewrite HE. }
      pose proof (by_distance_no_fuel Es h s forbid delta q0 target maxlimit None P HE Hsc Hsm Hsy Hal) as Hnf.
      unfold search_by_distance in *.
      assert (Hl : forall fuel i p acc, pok p -> dp_loop Es h s forbid delta q0 target maxlimit None fuel i p acc = OutOfFuel \/
                exists r, dp_loop Es h s forbid delta q0 target maxlimit None fuel i p acc = Ok r).
      { induction fuel as [|f IH]; intros i p acc Hp; [now left|]. cbn [dp_loop].
        destruct (Hs i (dp_total p)) as (out & Ho); [destruct Hp as (A & B & C); lia|]. rewrite Ho. cbn [bind].
        unfold dp_round. pose proof (search_shape Es h s forbid q0 None P HE Hsc Hsm Hsy Hal i _ out Ho) as (L & _).
        rewrite (slice_spec p out Hp L). cbn [bind]. destruct (firstn _ _) as [|x0 l0]; cbn [bind fst snd]; [eauto|].
        destruct (fle _ _); [|eauto]. destruct (dp_reached _ _); [eauto|]. apply IH. now apply pok_iterate. }
      destruct (Hl (S (S (length (stored_ids h)))) 0 dp_init [] pok_init) as [E|(r & E)]; rewrite E in *; cbn [bind] in *; [congruence|eauto]. }
    destruct Htot as (out & Ho). exists out. split; [exact Ho|].
    destruct (by_distance_sound Es h s forbid delta q0 target maxlimit None P out HE Hsc Hsm Hsy Hal Hn Ho) as (A & B & C & D).
    split; [exact A|]. split; [exact B|]. split.
    { intros id d Hx. destruct (C _ Hx) as ((C1 & _) & C2). split; [|exact C2]. now apply (ri_dist _ _ _ _ _ R). }
    assert (Hok : small_ok h s q0 P \/ flat_ok s forbid None).
    { left. split; [apply (ri_full _ _ _ _ _ R)|]. split; [apply (ri_all _ _ _ _ _ R)|]. split; [apply (ri_conn _ _ _ _ _ R)|].
      intros k Hk. pose proof (search_ef_ge s k). lia. }
    destruct (by_distance_exact Es h s forbid delta q0 target maxlimit None P out HE Hsc Hsm Hsy Hal Hn Hok (or_intror (Nat.le_trans _ _ _ Hct Hlen)) Ht Ho)
      as (F1 & F2 & F3).
    split; [exact F1|]. split; [exact F2|]. intros o d Hin Hp Hf. apply F3; [|exact Hf]. split; [|split; [apply ready_tomb|discriminate]].
    apply (ri_dist _ _ _ _ _ R). cbn [it_id it_dist]. eauto.
  Qed.
End Ready.
