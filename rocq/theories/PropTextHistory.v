(** Property C67 for every limit after a history of requests. *)
From Coq Require Import String Sorted.
From Verif Require Import Base F32 PQ PQProofs Graph Search SearchProofs SearchLayer SearchKnn
  SearchCong Insert HeuristicProofs InsertProofs InsertHist InsertTotal InsertDim InsertSmall InsertFacts InsertFind
  Distancer DistancerProofs PropDistancer TestGraph TestInsert PropSearch PropInsert PropFind
  Persist PersistProofs PersistHist LRU LRUProofs PropPersist InsertRestart Collections
  Client ClientProofs ClientSafe ClientFacts ClientReq PropClient VCache VCacheProofs VCacheFacts ClientIds ClientSmall ClientMany
  Vectorizer VectorizerProofs PropVectorizer PropHistory PropTextLimit ClientComplete.
Local Open Scope nat_scope.

(** The nearest documents in a state whose ground layer is complete. *)
Lemma cinv_near_docs n cap P ds st :
  0 < n -> ds <> [] -> NoDup (map (fun d => di_id (vd_doc d)) ds) -> known_provider P ->
  Forall (fun d => e_prov (i_env (do_env (vd_orc d))) = P) ds -> cinv n cap ds st -> c_reg st = true ->
  forall E q maxd limit, sched_ok E -> e_prov E = P -> e_vcap E = cap -> length q = n -> (1 <= limit)%Z ->
    (forall d x, In d ds -> p_query P (p_normalize P q) (p_normalize P (vd_vec d)) = Some x -> is_num x = true) ->
    exists m, forall Q, q_env Q = E -> Permutation (q_order Q) (seq 0 m) -> (forall i, q_ok Q i = true) ->
      exists docs dists, snd (near_docs Q st q maxd limit limit) = Ok (docs, dists) /\ length docs = m /\
        limit_answer P ds q maxd limit docs dists.
Proof.
  intros Hn Hne Hids HkP HP [[I1 I2 I3] Hco0] Hreg E q0 maxd limit Hsc HEP Hcap Hq Hlim Hnum.
  pose proof (complete_after n cap ds st false (Build_minv _ _ _ _ I1 I2 I3) Hco0) as Hco. cbn [after_step] in Hco.
  destruct (I3 Hne) as [Hms _]. destruct (mstate_after n cap _ _ false Hms) as [(D & Hc & Hm) _]. cbn [after_step] in Hc, Hm.
  clear Hms. pose proof (c_g _ _ _ _ _ Hc) as Hg. rewrite Forall_forall in HP.
  set (h := load_ep (c_h st)) in *.
  assert (Hnode : forall i d, nth_error ds i = Some d -> exists v, node_by_id h (N.of_nat i) = Some v /\ v_vec v = p_normalize P (vd_vec d)).
  { intros i d Hi. pose proof (ops_of_nth ds 0 i d Hi) as Ho. rewrite N.add_0_l in Ho.
    destruct (g_succ _ _ _ _ _ Hg _ Ho) as (_ & v & Hv & Hvec). cbn [a_id a_env a_vec] in *. exists v.
    split; [exact Hv|]. rewrite Hvec. f_equal. apply HP. eapply nth_error_In; eauto. }
  assert (Hin : forall j v, node_by_id h j = Some v -> exists i d, nth_error ds i = Some d /\ j = N.of_nat i).
  { intros j v Hv. apply (mg_all _ _ _ _ _ Hm), (mg_in _ _ _ _ _ Hm), in_map_iff in Hv. destruct Hv as (o & <- & Ho).
    destruct (ops_of_in _ _ _ Ho) as (i & d & Hi & ->). exists i, d. auto. }
  pose proof (known_psym P HkP) as Hsym.
  assert (Hcov : covered st).
  { intros i v Hv. change (node_by_id h i = Some v) in Hv. destruct (Hin _ _ Hv) as (k & d & Hk' & ->).
    exists (stored (N.of_nat k) d). rewrite I1. split; [|reflexivity].
    apply (docs_after_in ds 0 [] k d Hids Hk'). }
  assert (Hsm : ids_small E h).
  { intros j v Hj. rewrite Hcap. apply (g_small _ _ _ _ _ Hg j v). exact Hj. }
  assert (HsymE : prov_sym (e_prov E)) by (rewrite HEP; exact Hsym).
  set (q := p_normalize P q0) in *.
  assert (Hql : length q = n) by (unfold q; now rewrite (known_len P HkP)).
  assert (Htd : forall id d, true_dist P h q id d <-> exists o, In o (ops_of 0 ds) /\ a_id o = id /\
         p_query P q (p_normalize P (a_vec o)) = Some d).
  { intros id d. split.
    - intros (v & Hv & Hpq). destruct (Hin id v Hv) as (i & dd & Hi & ->). destruct (Hnode i dd Hi) as (w & Hw & Ew).
      assert (w = v) by congruence. subst w. eexists. split; [exact (ops_of_nth ds 0 i dd Hi)|]. cbn [a_id a_vec].
      split; [now rewrite N.add_0_l|]. now rewrite <- Ew.
    - intros (o & Ho & <- & Hpq). destruct (ops_of_in _ _ _ Ho) as (i & dd & Hi & ->). cbn [a_id a_vec] in *. rewrite N.add_0_l.
      destruct (Hnode i dd Hi) as (v & Hv & Ev). exists v. split; [exact Hv|]. now rewrite Ev. }
  destruct (g_ep _ _ _ _ _ Hg) as (vep & Hep & _).
  destruct (dist_node_vec_total (mkI E (fun _ _ _ => Panic) 0 0 0) ltac:(cbn; rewrite HEP; now apply known_dim) n Hn h
              (h_ep h) vep q Hep (g_dim _ _ _ _ _ Hg _ _ (mg_all _ _ _ _ _ Hm _ _ Hep) Hep) Hql) as (d0 & Hd0).
  cbn [i_env] in Hd0.
  pose proof (g_p _ _ _ _ _ Hg) as Hp.
  assert (Hwf : wf_levels h).
  { intros j v Hj. rewrite (pinv_len h j v Hp Hj). lia. }
  destruct (knn_max_dist_total E h Hsc HsymE Hsm q0 maxd limit None d0 Hwf) as ([ids dists] & Hkn).
  { rewrite HEP. rewrite HEP in Hd0. exact Hd0. }
  destruct (knn_max_dist_sound E h Hsc HsymE Hsm q0 maxd limit None _ Hkn) as (S1 & S2 & S3 & _). cbn [fst snd] in *.
  destruct (knn_max_dist_complete E h Hsc HsymE Hsm q0 maxd limit None (ids, dists)) as (all & best & A1 & A2 & A3 & A4 & A5); auto.
  - rewrite HEP. fold q. intros id dd Hdd. apply Htd in Hdd. destruct Hdd as (o & Ho & _ & Hp0).
    destruct (ops_of_in _ _ _ Ho) as (i & d & Hi & ->). cbn [a_vec] in Hp0. eapply Hnum; eauto. eapply nth_error_In; eauto.
  - intros id. unfold has_tombstone. rewrite (mg_t _ _ _ _ _ Hm). reflexivity.
  - intros a va Ha. unfold conns_at. pose proof (pinv_len h a va Hp Ha) as Hla.
    destruct (nth_error (v_conns va) 0) as [cs|] eqn:En.
    2:{ apply nth_error_None in En. lia. }
    exists cs. split; [reflexivity|]. intros b vb Hb.
    destruct (N.eq_dec b a) as [->|Hba]; [now left|right].
    destruct (Hco a b va vb Ha Hb) as (v & cs' & B1 & B2 & B3); try congruence.
  - exists (length ids). apply (limit_docs P ds E st q0 maxd limit all best ids dists); auto; [lia|].
    intros id d. rewrite (A2 (mkItem id d)). cbn [it_id it_dist]. rewrite HEP. apply Htd.
Qed.

(** A history of acknowledged add requests of at most 30 documents in total, with
    vectors or by text, and of queries, reads and restarts: a query by text answers the
    nearest documents, for every limit above zero.
    Missing: more than 30 documents. *)
Theorem C67_history_limit_partial : forall n cap P (V : string -> http) hs,
  let ds := hist_docs hs in
  0 < n -> ds <> [] -> length ds <= 30 -> NoDup (map (fun d => di_id (vd_doc d)) ds) ->
  Forall (fun d => e_prov (i_env (do_env (vd_orc d))) = P) ds ->
  Forall (fun d => (30 <= i_efc (do_env (vd_orc d)))%Z) ds ->
  Forall (many_call n 30 cap (map a_id (ops_of 0 ds))) (ops_of 0 ds) -> hist_ok new_coll hs ->
  let st := run_reqs new_coll (hist_reqs hs) in
  (c_open st = true -> c_reg st = true) ->
  forall E text q maxd limit, sched_ok E -> e_prov E = P -> e_vcap E = cap ->
    corpi (V text) = Ok (Some q) -> length q = n -> (1 <= limit)%Z ->
    (forall d x, In d ds -> p_query P (p_normalize P q) (p_normalize P (vd_vec d)) = Some x -> is_num x = true) ->
    exists m, forall Q, q_env Q = E ->
      r_kvopen (q_open Q) = true -> r_isopen (q_open Q) = true -> r_docopen (q_open Q) = true ->
      Permutation (q_order Q) (seq 0 m) -> (forall i, q_ok Q i = true) ->
      exists docs dists, snd (near_by_text Q true (corpi (V text)) st maxd limit) = Ok (docs, dists) /\ length docs = m /\
        limit_answer P ds q maxd limit docs dists.
Proof.
  intros n cap P V hs ds Hn Hne Hlen Hids HP Hefc Hf Hok st Hregst E text q maxd limit Hsc HEP Hcap Hc Hq Hlim Hnum.
  assert (HkP : known_provider P).
  { destruct ds as [|d ds']; [congruence|]. inversion Hf as [|? ? ((_ & Hkk & _) & _) _]; subst. cbn [a_env] in Hkk.
    inversion HP as [|? ? HPd _]; subst. now rewrite <- HPd. }
  assert (Hw : Forall (wide 30) (ops_of 0 ds)).
  { apply Forall_forall. intros o Ho. destruct (ops_of_in _ _ _ Ho) as (i & d & Hi & ->). rewrite Forall_forall in Hefc.
    unfold wide. cbn [a_env]. apply Hefc. eapply nth_error_In; eauto. }
  assert (Hm : cinv n cap ds st).
  { apply (cinv_run n cap (map a_id (ops_of 0 ds)) hs Hn [] new_coll); auto; [|apply incl_refl].
    split; [constructor; try reflexivity; congruence|]. intros a b va vb [=]. }
  assert (Hm1 : cinv n cap ds (mkC (c_h st) true true (c_docs st) (c_log st))) by now apply cinv_same.
  assert (Hm2 : cinv n cap ds (mkC (restart (c_h st)) true true (c_docs st) (c_log st))) by now apply (cinv_after n cap ds st true).
  destruct (cinv_near_docs n cap P ds _ Hn Hne Hids HkP HP Hm1 eq_refl E q maxd limit Hsc HEP Hcap Hq Hlim Hnum) as (m1 & K1).
  destruct (cinv_near_docs n cap P ds _ Hn Hne Hids HkP HP Hm2 eq_refl E q maxd limit Hsc HEP Hcap Hq Hlim Hnum) as (m2 & K2).
  exists (if c_open st then m1 else m2). intros Q HQ O1 O2 O3 Hperm Hfok.
  unfold near_by_text, open_coll. rewrite O1, O2, O3, Hc. cbn [negb].
  destruct (c_open st) eqn:Eo.
  - cbn [fst snd]. specialize (K1 Q HQ Hperm Hfok).
    assert (Est : mkC (c_h st) true true (c_docs st) (c_log st) = st).
    { specialize (Hregst eq_refl). clearbody st. destruct st; cbn in *; congruence. }
    rewrite Est in K1. exact K1.
  - exact (K2 Q HQ Hperm Hfok).
Qed.
Print Assumptions C67_history_limit_partial.

(** The history of [C67_history_nonvacuous]: limit 1 gives the nearest of the two
    documents within the distance. *)
Example C67_history_limit_nonvacuous :
  hist_docs hist67 = ds67 /\ hist_ok new_coll hist67 /\ Forall (fun d => (30 <= i_efc (do_env (vd_orc d)))%Z) ds67 /\
  Forall (many_call 2 30 25500 (map a_id (ops_of 0 ds67))) (ops_of 0 ds67) /\
  c_open (run_reqs new_coll (hist_reqs hist67)) = true /\ c_reg (run_reqs new_coll (hist_reqs hist67)) = true /\
  answer_ids (snd (near_by_text (qok 1) true (corpi (V67 "apples"%string)) (run_reqs new_coll (hist_reqs hist67)) half 1)) = Some [Some "a"%string].
Proof.
  destruct C67_history_nonvacuous as (H1 & H2 & _). split; [exact H1|]. split; [exact H2|].
  split; [apply C67_text_limit_nonvacuous|]. split.
  { destruct C67_nonvacuous as (_ & _ & Hf & _). revert Hf. apply Forall_impl.
    intros o (F1 & F2 & F3 & F4 & F5 & F6). repeat (split; [assumption|]). left. exact F6. }
  split; [vm_compute; reflexivity|]. split; vm_compute; reflexivity.
Qed.
