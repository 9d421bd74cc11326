(** What a new process sees of an index that was written back. *)
From Verif Require Import Base F32 PQ PQProofs Graph Search SearchProofs SearchLayer SearchKnn
  SearchCong Insert HeuristicProofs InsertProofs InsertHist InsertTotal InsertDim InsertSmall InsertFacts InsertFind
  Distancer DistancerProofs PropDistancer Persist PersistProofs.

(** [Keys()] of the node cache: every cached id is listed (in any order, and
    possibly with ids that were only loaded from the table). *)
Definition all_keys (h : hnsw) (keys : list N) : Prop :=
  forall j v, mget j (h_cache h) = Some v -> In j keys.

(** Everything that is read of a vertex. *)
Definition content (h : hnsw) (id : N) : option (nat * list (list N) * bool * vec) :=
  option_map (fun v => (v_level v, v_conns v, v_maint v, v_vec v)) (node_by_id h id).

Lemma content_pview h h' id : pview h' id = pview h id -> content h' id = content h id.
Proof.
  unfold pview, content. destruct (node_by_id h' id) as [v'|], (node_by_id h id) as [v|]; cbn; try discriminate; auto.
  intros [= H1 H2 H3 H4 H5]. congruence.
Qed.

Lemma content_look h h' id : content h' id = content h id -> look h' id = look h id.
Proof.
  unfold content, look. destruct (node_by_id h' id) as [v'|], (node_by_id h id) as [v|]; cbn; try discriminate; auto.
  intros [= H1 H2 H3 H4]. congruence.
Qed.

Lemma flush_restart h keys cnt n u : pinv h -> all_keys h keys -> snd (flush h keys cnt n) = Ok u ->
  let h' := fst (flush h keys cnt n) in
  (forall id, pview h' id = pview h id /\ pview (restart h') id = pview h id) /\
  doc_count (restart h') = Some cnt /\ h_kv_ep (restart h') = Some (h_ep h) /\ h_ep h' = h_ep h /\
  h_maxl h' = h_maxl h /\ h_tomb h' = h_tomb h.
Proof.
  intros Hp Hk Hok. cbv zeta.
  destruct (flush_any h keys cnt n Hp) as (_ & V & _ & _ & (A1 & A2 & A3 & _) & _).
  destruct (flush_ok h keys cnt n u Hp Hk Hok) as (K & Ke & Kc). split; [|repeat split; auto].
  intros id. split; [apply V|]. unfold pview at 1, node_by_id. cbn [restart h_cache h_kv mget]. rewrite K.
  unfold pview. destruct (node_by_id h id); reflexivity.
Qed.

Lemma survives evs keys cnt n u : let h := run_events empty_index evs in
  all_keys h keys -> snd (flush h keys cnt n) = Ok u ->
  let h' := fst (flush h keys cnt n) in
  let r := restart h' in
  (forall id, content h' id = content h id /\ content r id = content h id) /\
  doc_count r = Some cnt /\ h_ep (load_ep r) = h_ep h.
Proof.
  intros h Hk Hok. destruct (flush_restart h keys cnt n u (run_events_pinv evs _ pinv_empty) Hk Hok)
    as (V & C & Ep & _). cbv zeta in *.
  split; [|split; [exact C|]].
  - intros id. destruct (V id) as [V1 V2]. split; now apply content_pview.
  - unfold load_ep. rewrite Ep. reflexivity.
Qed.

Lemma ev_tomb h e : pinv h -> h_tomb h = [] -> h_tomb (fst (ev_step h e)) = [].
Proof.
  intros Hp Ht. destruct e as [o| |keys cnt n|]; cbn [ev_step]; auto.
  - rewrite (pr_tomb _ _ _ _ (proj1 (add_prel (a_env o) h (a_id o) (a_vec o) (a_lvl o) (pinv_wfh h Hp)))). exact Ht.
  - destruct (flush_any h keys cnt n Hp) as (_ & _ & _ & _ & (_ & _ & E & _) & _). now rewrite E.
Qed.
Lemma run_tomb evs : forall h, pinv h -> h_tomb h = [] -> h_tomb (run_events h evs) = [].
Proof.
  induction evs as [|e evs IH]; intros h Hp Ht; cbn [run_events]; auto.
  apply IH; [now apply ev_step_pinv|now apply ev_tomb].
Qed.

(* ------------------------------------------------------------------ *)
(** Same answers after a restart. *)

(** If no vector is on an upper layer. *)
Lemma restart_possible evs keys cnt n u E q0 maxd ef out : let h := run_events empty_index evs in
  all_keys h keys -> snd (flush h keys cnt n) = Ok u -> h_maxl h = 0 ->
  let h' := fst (flush h keys cnt n) in
  possible E (load_ep (restart h')) q0 maxd ef None out <-> possible E (load_ep h') q0 maxd ef None out.
Proof.
  intros h Hk Hok Hm.
  pose proof (run_events_pinv evs _ pinv_empty) as Hp. fold h in Hp.
  destruct (flush_restart h keys cnt n u Hp Hk Hok) as (V & _ & Ep & _ & Hm' & Ht). cbv zeta in *.
  set (h' := fst (flush h keys cnt n)) in *. change (h_kv_ep (restart h')) with (h_kv_ep h') in Ep.
  apply (possible_look E (load_ep h') (load_ep (restart h')) (fun _ => True)); auto.
  - intros j _. apply content_look, content_pview. destruct (V j) as [V1 V2].
    change (pview (restart h') j = pview h' j). congruence.
  - cbn. rewrite Ht. symmetry. now apply run_tomb; [apply pinv_empty|].
  - cbn. rewrite Hm'. symmetry. exact Hm.
Qed.

Lemma look_reach h h' a b : (forall j, look h' j = look h j) -> reach h 0 a b -> reach h' 0 a b.
Proof.
  intros Hl. induction 1 as [|b v cs c _ IH Hv Hlv Hc Hin]; [constructor|].
  destruct (look_cases h h' b (Hl b)) as [[_ X]|(v' & w & X2 & X3 & HL & HC & _)]; [congruence|].
  replace w with v in * by congruence.
  eapply reach_step; eauto; [rewrite HL; exact Hlv|]. unfold conns_at in *. now rewrite HC.
Qed.

(** Any index whose ground layer is connected, searched with ef at least the
    number of vectors. *)
Lemma connected_exhaustive h n P E ids q0 maxd ef :
  wfh h -> h_tomb h = [] -> known_provider P -> sched_ok E -> e_prov E = P -> 0 < n -> length q0 = n ->
  (forall id v, node_by_id h id = Some v -> In id ids /\ (id < e_vcap E)%N /\ length (v_vec v) = n) ->
  (forall a b va vb, node_by_id h a = Some va -> node_by_id h b = Some vb -> reach h 0 a b) ->
  (exists v, node_by_id h (h_ep h) = Some v) ->
  (Z.of_nat (length ids) <= ef)%Z ->
  dists_num P h (p_normalize P q0) ->
  exists out, knn_max_dist E h q0 maxd ef None = Ok out /\ asc (answer out) /\ NoDup (fst out) /\
    map it_id (answer out) = fst out /\
    forall id d, In (mkItem id d) (answer out) <->
      flt d f32_zero = false /\ fgt d maxd = false /\ true_dist P h (p_normalize P q0) id d.
Proof.
  intros Hw Ht HkP Hsc HEP Hn Hq Hst Hg (vep & Hep) Hef Hnum.
  set (q := p_normalize P q0) in *.
  assert (Hql : length q = n) by (unfold q; now rewrite (known_len P HkP)).
  assert (Hsm : ids_small E h) by (intros id v Hv; apply (Hst id v Hv)).
  assert (Hsym : prov_sym (e_prov E)) by (rewrite HEP; now apply known_psym).
  destruct (dist_node_vec_total (mkI E (fun _ _ _ => Panic) 0 0 0) ltac:(cbn; rewrite HEP; now apply known_dim) n Hn h
              (h_ep h) vep q Hep (proj2 (proj2 (Hst _ _ Hep))) Hql) as (d0 & Hd0).
  cbn [i_env] in Hd0.
  assert (Hwf : wf_levels h) by (intros id v Hv; destruct (Hw id v Hv); lia).
  destruct (knn_max_dist_total E h Hsc Hsym Hsm q0 maxd ef None d0 Hwf) as (out & Hk).
  { rewrite HEP. rewrite HEP in Hd0. exact Hd0. }
  assert (Hnum' : dists_num (e_prov E) h (p_normalize (e_prov E) q0)) by (rewrite HEP; exact Hnum).
  assert (Hall : forall id v, node_by_id h id = Some v ->
            exists d, p_query (e_prov E) (p_normalize (e_prov E) q0) (v_vec v) = Some d).
  { rewrite HEP. fold q. intros id v Hv. pose proof (known_dim P HkP) as Hdm.
    destruct (Hst id v Hv) as (_ & _ & Hvl).
    destruct (proj1 (Hdm (v_vec v) q)) as (dc & Hdc); [congruence|].
    exists dc. rewrite <- Hdc. symmetry. rewrite HEP in Hsym. apply Hsym. }
  destruct (knn_max_dist_sorted E h Hsc Hsym Hsm q0 maxd ef None out Hnum' Hk) as (Ha & Hm & Hds).
  destruct (knn_max_dist_sound E h Hsc Hsym Hsm q0 maxd ef None out Hk) as (Hnd1 & _ & _ & Hso).
  exists out. split; [exact Hk|]. split; [exact Ha|]. split; [exact Hnd1|]. split; [exact Hm|]. intros id d. split.
  - intros Hi. apply In_nth_error in Hi. destruct Hi as (i & Hi).
    assert (H1 : nth_error (fst out) i = Some id) by (rewrite <- Hm, nth_error_map, Hi; reflexivity).
    destruct (Hso i id H1) as (d' & H2 & H3 & _ & H4 & H5 & _).
    assert (H6 : nth_error (firstn (length (fst out)) (snd out)) i = Some d) by (rewrite <- Hds, nth_error_map, Hi; reflexivity).
    rewrite nth_firstn in H6 by (apply nth_error_Some; congruence). rewrite H2 in H6. injection H6 as ->.
    split; [exact H4|]. split; [exact H5|]. rewrite HEP in H3. exact H3.
  - intros (Hz & Hmx & Ho).
    destruct (knn_max_dist_exhaustive_ex E h Hsc Hsym Hsm q0 maxd ef None out Hnum' Hall Hk) as (e & ve & Hve & _ & Hex).
    apply (Hex ids).
    + intros i v _ Hv. apply (Hst i v Hv).
    + exact Hef.
    + destruct Ho as (v & Hv & _). eapply Hg; eauto.
    + rewrite HEP. exact Ho.
    + unfold has_tombstone. rewrite Ht. reflexivity.
    + discriminate.
    + now apply within_spelled.
Qed.

Lemma restart_exhaustive evs keys cnt n u m P E ids q0 maxd ef : let h := run_events empty_index evs in
  all_keys h keys -> snd (flush h keys cnt n) = Ok u ->
  known_provider P -> sched_ok E -> e_prov E = P -> 0 < m -> length q0 = m ->
  (forall id v, node_by_id h id = Some v -> In id ids /\ (id < e_vcap E)%N /\ length (v_vec v) = m) ->
  (forall a b va vb, node_by_id h a = Some va -> node_by_id h b = Some vb -> reach h 0 a b) ->
  (exists v, node_by_id h (h_ep h) = Some v) ->
  (Z.of_nat (length ids) <= ef)%Z ->
  dists_num P h (p_normalize P q0) ->
  let h' := fst (flush h keys cnt n) in
  exists out1 out2,
    near E h' q0 maxd ef = Ok out1 /\ near E (restart h') q0 maxd ef = Ok out2 /\
    asc (answer out1) /\ asc (answer out2) /\ NoDup (fst out1) /\ NoDup (fst out2) /\
    map it_id (answer out1) = fst out1 /\ map it_id (answer out2) = fst out2 /\
    (forall x, In x (answer out1) <-> In x (answer out2)) /\
    (forall id d, In (mkItem id d) (answer out1) <->
      flt d f32_zero = false /\ fgt d maxd = false /\ true_dist P h (p_normalize P q0) id d).
Proof.
  intros h Hk Hok HkP Hsc HEP Hm Hq Hst Hg Hep Hef Hnum. cbv zeta.
  pose proof (run_events_pinv evs _ pinv_empty) as Hp. fold h in Hp.
  destruct (flush_restart h keys cnt n u Hp Hk Hok) as (V & _ & Ep & He & _ & Ht). cbv zeta in *.
  set (h' := fst (flush h keys cnt n)) in *. change (h_kv_ep (restart h')) with (h_kv_ep h') in Ep.
  assert (Ht0 : h_tomb h' = []) by (rewrite Ht; now apply run_tomb; [apply pinv_empty|]).
  assert (Hp' : pinv h') by exact (proj1 (flush_any h keys cnt n Hp)).
  assert (Hgen : forall g, pinv g -> h_tomb g = [] -> (forall j, pview g j = pview h j) -> h_kv_ep g = Some (h_ep h) ->
     exists out, near E g q0 maxd ef = Ok out /\ asc (answer out) /\ NoDup (fst out) /\
       map it_id (answer out) = fst out /\
       forall id d, In (mkItem id d) (answer out) <->
         flt d f32_zero = false /\ fgt d maxd = false /\ true_dist P h (p_normalize P q0) id d).
  { intros g Hpg Htg Hv Hkg.
    assert (Hl : forall j, look (load_ep g) j = look h j) by (intros j; exact (content_look _ _ _ (content_pview _ _ _ (Hv j)))).
    assert (Htr : forall q id d, true_dist P (load_ep g) q id d <-> true_dist P h q id d).
    { intros q id d. destruct (look_cases _ _ id (Hl id)) as [[X1 X2]|(v & w & X1 & X2 & _ & _ & X3)];
        unfold true_dist; rewrite X1, X2; split; intros (y & Hy & Hd); try discriminate;
        injection Hy as <-; eexists; (split; [reflexivity|congruence]). }
    assert (Hback : forall j v, node_by_id (load_ep g) j = Some v -> exists w, node_by_id h j = Some w /\ v_vec v = v_vec w).
    { intros j v Hj. destruct (look_cases _ _ j (Hl j)) as [[X1 X2]|(v1 & w & X1 & X2 & _ & _ & X3)]; [congruence|].
      exists w. split; [exact X2|]. congruence. }
    destruct (connected_exhaustive (load_ep g) m P E ids q0 maxd ef) as (out & H1 & H2 & H3 & H4 & H5); auto.
    - apply pinv_wfh. now apply load_ep_pinv.
    - intros id v Hv'. destruct (Hback id v Hv') as (w & Hw & ->). exact (Hst id w Hw).
    - intros a b va vb Ha Hb. destruct (Hback _ _ Ha) as (wa & Hwa & _), (Hback _ _ Hb) as (wb & Hwb & _).
      apply (look_reach h); [exact Hl|]. eapply Hg; eauto.
    - destruct Hep as (v & Hv'). unfold load_ep at 2. rewrite Hkg. cbn [h_ep with_ep].
      destruct (look_cases _ _ (h_ep h) (Hl (h_ep h))) as [[X1 X2]|(v1 & w & X1 & _)]; [congruence|eauto].
    - intros id d Hd. apply Htr in Hd. eapply Hnum; eauto.
    - exists out. split; [exact H1|]. split; [exact H2|]. split; [exact H3|]. split; [exact H4|].
      intros id d. rewrite H5, Htr. reflexivity. }
  destruct (Hgen h' Hp' Ht0 (fun j => proj1 (V j)) Ep) as (o1 & A1 & A2 & A3 & A4 & A5).
  destruct (Hgen (restart h') (restart_pinv _ Hp') eq_refl (fun j => proj2 (V j)) Ep) as (o2 & B1 & B2 & B3 & B4 & B5).
  exists o1, o2. repeat (split; [assumption|]). split; [|exact A5].
  intros [id d]. rewrite A5, B5. reflexivity.
Qed.

(* ------------------------------------------------------------------ *)
(** Crashes. *)

Fixpoint covers (h : hnsw) (evs : list event) : Prop :=
  match evs with
  | [] => True
  | e :: evs' => match e with EvFlush keys _ _ => all_keys h keys | _ => True end /\
                 covers (fst (ev_step h e)) evs'
  end.

Definition added (evs : list event) : list aop :=
  flat_map (fun e => match e with EvAdd o => [o] | _ => [] end) evs.

(** From the first acknowledged batch on. *)
Record sinv (h : hnsw) : Prop := {
  si_p : pinv h;
  si_zero : exists v, mget 0%N (h_kv h) = Some v;
  si_kvep : exists e v, h_kv_ep h = Some e /\ mget e (h_kv h) = Some v;
  si_ep : exists v, node_by_id h (h_ep h) = Some v
}.

Definition dom (D : N -> vec -> Prop) (h : hnsw) : Prop :=
  (forall j v, mget j (h_kv h) = Some v -> D j (v_vec v)) /\
  (forall j v, mget j (h_cache h) = Some v -> D j (v_vec v)).

Lemma dom_node D h j v : dom D h -> node_by_id h j = Some v -> D j (v_vec v).
Proof.
  intros [H1 H2]. unfold node_by_id. destruct (mget j (h_cache h)) eqn:E; [intros [= <-]; eauto|eauto].
Qed.

Lemma pview_node h j v : pview h j = Some v -> exists w, node_by_id h j = Some w /\ v_vec v = v_vec w.
Proof.
  unfold pview. destruct (node_by_id h j) as [w|]; [|discriminate]. intros [= <-]. exists w. auto.
Qed.

Lemma dom_step (D : N -> vec -> Prop) h e : pinv h -> dom D h ->
  (forall o, e = EvAdd o -> D (a_id o) (p_normalize (e_prov (i_env (a_env o))) (a_vec o))) ->
  dom D (fst (ev_step h e)).
Proof.
  intros Hp Hd HD. destruct e as [o| |keys cnt n|]; cbn [ev_step].
  - destruct (add_prel (a_env o) h (a_id o) (a_vec o) (a_lvl o) (pinv_wfh h Hp)) as [Hr _].
    pose proof Hr as [(K & _) _ Hn _]. destruct Hd as [D1 D2]. split; [rewrite K; exact D1|].
    intros j v Hv. destruct (Hn j v Hv) as [E|(_ & _ & _ & [[-> Hq]|(w & Hw & Hq)])]; [eauto| |].
    + rewrite Hq. now apply HD.
    + rewrite Hq. eapply dom_node; eauto. split; assumption.
  - exact Hd.
  - destruct (flush_any h keys cnt n Hp) as (Hp' & V & K & _). cbn [fst] in *. split.
    + intros j v Hv. destruct (K j) as [E|E]; rewrite E in Hv; [now apply (proj1 Hd)|].
      apply pview_node in Hv. destruct Hv as (w & Hw & ->). eapply dom_node; eauto.
    + intros j v Hv.
      assert (Hn : pview (fst (flush h keys cnt n)) j = Some (stored v)) by (unfold pview, node_by_id; now rewrite Hv).
      rewrite V in Hn. apply pview_node in Hn. destruct Hn as (w & Hw & E). cbn in E. rewrite E. eapply dom_node; eauto.
  - destruct Hd as [D1 D2]. split; [exact D1|]. cbn. discriminate.
Qed.

Lemma kv_kept h keys cnt n j v : pinv h -> mget j (h_kv h) = Some v ->
  exists v', mget j (h_kv (fst (flush h keys cnt n))) = Some v'.
Proof.
  intros Hp Hv. destruct (flush_any h keys cnt n Hp) as (_ & _ & K & _).
  destruct (K j) as [E|E]; rewrite E; [eauto|]. unfold pview, node_by_id.
  destruct (mget j (h_cache h)); cbn; eauto. rewrite Hv. cbn. eauto.
Qed.

(** The entry point is written after all vertices. *)
Lemma flush_kvep h keys cnt n : pinv h -> all_keys h keys ->
  h_kv_ep (fst (flush h keys cnt n)) = h_kv_ep h \/
  h_kv_ep (fst (flush h keys cnt n)) = Some (h_ep h) /\
  forall j, mget j (h_kv (fst (flush h keys cnt n))) = pview h j.
Proof.
  intros Hp Hk. destruct (flush_plan_spec h keys cnt Hp) as [Ho Hl].
  destruct (node_puts_spec h keys Hp) as (_ & _ & Hid & N1 & _ & Hall & _).
  revert Ho Hl. unfold flush, flush_plan. destruct (node_puts h keys) as [ws ok]. cbn [fst snd] in *.
  change (fun h0 w => mark_put (do_put h0 w) w) with put_step.
  assert (Hshort : forall k ws', Forall (put_of h) ws' -> Forall put_len ws' -> (forall e, ~ In (PutEp e) ws') ->
            h_kv_ep (fold_left put_step (firstn k ws') h) = h_kv_ep h).
  { intros k ws' H1 H2 H3.
    destruct (puts_spec (firstn k ws') h Hp (Forall_firstn _ k _ H1) (Forall_firstn _ k _ H2)) as (_ & _ & _ & D & _).
    destruct D as [D|(e & Hin & _)]; [exact D|]. destruct (H3 e). eapply In_firstn; eauto. }
  destruct ok; cbn [fst snd]; intros Ho Hl; [|left; now apply Hshort].
  destruct (Nat.leb_spec n (length ws)) as [Hle|Hgt].
  - left. rewrite firstn_app. replace (n - length ws) with 0 by lia. cbn [firstn]. rewrite app_nil_r.
    apply Hshort; auto; [apply Forall_app in Ho; tauto|apply Forall_app in Hl; tauto].
  - right.
    destruct (puts_spec (firstn n (ws ++ [PutEp (h_ep h); PutCount cnt])) h Hp (Forall_firstn _ n _ Ho) (Forall_firstn _ n _ Hl))
      as (_ & _ & C & _). split.
    + rewrite firstn_app, firstn_all2 by lia. rewrite fold_left_app.
      destruct (n - length ws) as [|[|k]] eqn:Ek; [lia|reflexivity|]. cbn [firstn].
      destruct k; reflexivity.
    + intros j. destruct (C j) as [[X Hno]|[_ X]]; [|exact X]. rewrite X.
      unfold pview, node_by_id. destruct (mget j (h_cache h)) as [v|] eqn:E.
      * cbn [option_map]. destruct (v_committed v) eqn:Ec; [exact (pi_clean h Hp j v E Ec)|]. exfalso.
        assert (Hj : node_by_id h j = Some v) by (unfold node_by_id; now rewrite E).
        destruct (Hall eq_refl j v (Hk j v E) Hj) as [|Hin]; [congruence|].
        apply (Hno v); [|exact (pinv_id h j v Hp Hj)]. rewrite firstn_app, firstn_all2 by lia. apply in_or_app. now left.
      * destruct (mget j (h_kv h)) as [v|] eqn:E2; [|reflexivity]. cbn [option_map].
        rewrite stored_id; [reflexivity|]. exact (pi_kvunc h Hp j v E2).
Qed.

Lemma node_pview h g j : (forall i, pview g i = pview h i) -> (exists v, node_by_id h j = Some v) ->
  exists v, node_by_id g j = Some v.
Proof.
  intros H (v & Hv). specialize (H j). unfold pview in H. rewrite Hv in H.
  destruct (node_by_id g j); [eauto|discriminate].
Qed.

Lemma kv_node h j v : mget j (h_kv h) = Some v -> exists w, node_by_id h j = Some w.
Proof. intros H. unfold node_by_id. destruct (mget j (h_cache h)); eauto. Qed.

Lemma sinv_step h e : sinv h -> (match e with EvFlush keys _ _ => all_keys h keys | _ => True end) ->
  sinv (fst (ev_step h e)).
Proof.
  intros [Hp (v0 & Hz) (e0 & w0 & He & Hw) Hep] Hc. destruct e as [o| |keys cnt n|]; cbn [ev_step].
  - destruct (add_prel (a_env o) h (a_id o) (a_vec o) (a_lvl o) (pinv_wfh h Hp)) as [Hr Hr2].
    pose proof Hr as [(K1 & K2 & _) _ _ _]. constructor.
    + eapply prel_pinv; eauto.
    + rewrite K1. eauto.
    + rewrite K1, K2. eauto.
    + destruct Hr2 as [E|[E (v & Hv)]]; rewrite E.
      * destruct Hep as (v & Hv). eapply prel_node; eauto.
      * exists v. unfold node_by_id. now rewrite Hv.
  - cbn [fst]. constructor; [now apply load_ep_pinv|cbn; eauto|cbn; eauto|].
    unfold load_ep. rewrite He. exact (kv_node h e0 w0 Hw).
  - destruct (flush_any h keys cnt n Hp) as (Hp' & V & K & _ & (A & _) & _). cbn [fst] in *. constructor.
    + exact Hp'.
    + eapply kv_kept; eauto.
    + destruct (flush_kvep h keys cnt n Hp Hc) as [E|[E K2]].
      * destruct (kv_kept h keys cnt n e0 w0 Hp Hw) as (w & Hw'). rewrite E. eauto.
      * destruct Hep as (v & Hv). exists (h_ep h), (stored v). split; [exact E|]. rewrite K2. unfold pview. now rewrite Hv.
    + rewrite A. exact (node_pview h _ _ V Hep).
  - cbn [fst]. constructor; [now apply restart_pinv|cbn; eauto|cbn; eauto|]. cbn. unfold node_by_id. cbn. eauto.
Qed.

Lemma sinv_run evs : forall h, sinv h -> covers h evs -> sinv (run_events h evs).
Proof.
  induction evs as [|e evs IH]; intros h Hs Hc; cbn [run_events]; [exact Hs|]. destruct Hc as [H1 H2].
  apply IH; [now apply sinv_step|exact H2].
Qed.

Lemma dom_run (D : N -> vec -> Prop) evs : forall h, pinv h -> dom D h ->
  (forall o, In o (added evs) -> D (a_id o) (p_normalize (e_prov (i_env (a_env o))) (a_vec o))) ->
  dom D (run_events h evs).
Proof.
  induction evs as [|e evs IH]; intros h Hp Hd HD; cbn [run_events]; [exact Hd|].
  apply IH; [now apply ev_step_pinv| |].
  - apply dom_step; auto. intros o ->. apply HD. now left.
  - intros o Ho. apply HD. cbn [added flat_map]. apply in_or_app. now right.
Qed.

Lemma run_events_app evs1 evs2 : forall h, run_events h (evs1 ++ evs2) = run_events (run_events h evs1) evs2.
Proof. induction evs1 as [|e evs1 IH]; intros h; cbn; auto. Qed.

Lemma covers_app evs1 evs2 : forall h, covers h (evs1 ++ evs2) <-> covers h evs1 /\ covers (run_events h evs1) evs2.
Proof.
  induction evs1 as [|e evs1 IH]; intros h; cbn [app covers run_events]; [tauto|].
  rewrite IH. tauto.
Qed.

(** The first batch: additions only, the first of them of id 0. *)
Lemma first_batch o adds : a_id o = 0%N -> a_vec o <> [] ->
  let h := run_events empty_index (EvAdd o :: map EvAdd adds) in
  pinv h /\ (exists v, node_by_id h 0 = Some v) /\ (exists v, node_by_id h (h_ep h) = Some v) /\
  h_kv h = [] /\ h_kv_ep h = None.
Proof.
  intros Hid Hv. cbv zeta. cbn [run_events ev_step].
  set (h0 := fst (add (a_env o) empty_index (a_id o) (a_vec o) (a_lvl o))).
  assert (H0 : pinv h0 /\ (exists v, node_by_id h0 0 = Some v) /\ (exists v, node_by_id h0 (h_ep h0) = Some v) /\
    h_kv h0 = [] /\ h_kv_ep h0 = None).
  { split.
    - exact (ev_step_pinv empty_index (EvAdd o) pinv_empty).
    - unfold h0, add. rewrite Hid. destruct (a_vec o) as [|x q]; [congruence|].
      unfold insert. cbn [h_once empty_index negb andb]. change (is_empty empty_index) with true. cbn iota.
      unfold insert_initial. destruct (N.ltb 0 (i_vcsize (a_env o))); cbn [fst];
        repeat split; eexists; unfold node_by_id; cbn; reflexivity. }
  revert H0. generalize h0. clear. induction adds as [|a adds IH]; intros h H; cbn [map run_events]; [exact H|].
  apply IH. destruct H as (Hp & (v0 & H0) & (v & He) & Hk & Hke). cbn [ev_step].
  destruct (add_prel (a_env a) h (a_id a) (a_vec a) (a_lvl a) (pinv_wfh h Hp)) as [Hr Hr2].
  pose proof Hr as [(K1 & K2 & _) _ _ _]. split; [eapply prel_pinv; eauto|].
  split; [eapply prel_node; eauto|]. split; [|split; congruence].
  destruct Hr2 as [E|[E (w & Hw)]]; rewrite E; [eapply prel_node; eauto|].
  exists w. unfold node_by_id. now rewrite Hw.
Qed.

(** After the first batch was written back, whatever happens later. *)
Lemma crash_searchable n P o adds keys cnt k later :
  a_id o = 0%N -> 0 < n -> known_provider P ->
  let evs := EvAdd o :: map EvAdd adds ++ EvFlush keys cnt k :: later in
  (forall a, In a (added evs) -> e_prov (i_env (a_env a)) = P /\ length (a_vec a) = n) ->
  covers empty_index evs ->
  snd (flush (run_events empty_index (EvAdd o :: map EvAdd adds)) keys cnt k) = Ok tt ->
  let h := run_events empty_index evs in
  forall E q0 maxd ef, sched_ok E -> e_prov E = P -> ids_small E h -> length q0 = n ->
  exists out, near E h q0 maxd ef = Ok out /\
    forall i id, nth_error (fst out) i = Some id -> exists a d, In a (added evs) /\ a_id a = id /\
      nth_error (snd out) i = Some d /\
      exists v, node_by_id h id = Some v /\ p_query P (p_normalize P q0) (v_vec v) = Some d.
Proof.
  intros Hid Hn HkP evs Hdim Hcov Hok. cbv zeta. intros E q0 maxd ef Hsc HEP Hsm Hq.
  assert (Hvec : a_vec o <> []).
  { destruct (Hdim o) as [_ H]; [now left|]. intros E0. rewrite E0 in H. cbn in H. lia. }
  destruct (first_batch o adds Hid Hvec) as (Hp1 & Hz1 & He1 & Hk1 & Hke1). cbv zeta in *.
  set (b1 := EvAdd o :: map EvAdd adds) in *.
  set (h1 := run_events empty_index b1) in *.
  assert (Eevs : evs = b1 ++ EvFlush keys cnt k :: later) by reflexivity.
  rewrite Eevs, covers_app in Hcov. destruct Hcov as [_ [Hk Hcov]]. fold h1 in Hk, Hcov.
  destruct (flush_ok h1 keys cnt k tt Hp1 Hk Hok) as (K & Ke & Kc). cbv zeta in *.
  set (D := fun (i : N) (v : vec) => length v = n /\ exists a, In a (added evs) /\ a_id a = i).
  assert (S1 : sinv (fst (flush h1 keys cnt k))).
  { destruct (flush_any h1 keys cnt k Hp1) as (Hp' & V & _ & _ & (A & _) & _). constructor; auto.
    - rewrite K. destruct Hz1 as (v & Hv). unfold pview. rewrite Hv. cbn. eauto.
    - destruct He1 as (v & Hv). exists (h_ep h1), (stored v). split; [exact Ke|]. rewrite K. unfold pview. now rewrite Hv.
    - rewrite A. exact (node_pview h1 _ _ V He1). }
  pose proof (sinv_run later _ S1 Hcov) as S2.
  assert (Eh : run_events empty_index evs = run_events (fst (flush h1 keys cnt k)) later).
  { rewrite Eevs, run_events_app. reflexivity. }
  set (h := run_events empty_index evs) in *. rewrite <- Eh in S2.
  assert (HD : dom D h).
  { apply dom_run; [exact pinv_empty|split; cbn; discriminate|]. intros a Ha. destruct (Hdim a Ha) as [EP El].
    split; [|eauto]. rewrite EP, (known_len P HkP). exact El. }
  destruct S2 as [Hp _ (e & w & Hke & Hw) _].
  set (q := p_normalize P q0).
  assert (Hql : length q = n) by (unfold q; now rewrite (known_len P HkP)).
  destruct (kv_node h e w Hw) as (ve & Hve).
  assert (Hsym : prov_sym (e_prov E)) by (rewrite HEP; now apply known_psym).
  assert (Hep : h_ep (load_ep h) = e) by (unfold load_ep; rewrite Hke; reflexivity).
  assert (Hve' : node_by_id (load_ep h) (h_ep (load_ep h)) = Some ve) by (rewrite Hep; exact Hve).
  destruct (dist_node_vec_total (mkI E (fun _ _ _ => Panic) 0 0 0) ltac:(cbn; rewrite HEP; now apply known_dim) n Hn (load_ep h)
              _ ve q Hve' (proj1 (dom_node D h e ve HD Hve)) Hql) as (d0 & Hd0).
  cbn [i_env] in Hd0.
  assert (Hwf : wf_levels (load_ep h)).
  { intros j v Hv. rewrite (pinv_len h j v Hp Hv). lia. }
  assert (Hsm' : ids_small E (load_ep h)) by exact Hsm.
  destruct (knn_max_dist_total E (load_ep h) Hsc Hsym Hsm' q0 maxd ef None d0 Hwf) as (out & Hkn).
  { rewrite HEP. rewrite HEP in Hd0. exact Hd0. }
  exists out. split; [exact Hkn|]. intros i id Hi.
  destruct (knn_max_dist_sound E (load_ep h) Hsc Hsym Hsm' q0 maxd ef None out Hkn) as (_ & _ & _ & Hso).
  destruct (Hso i id Hi) as (d & Hd & (v & Hv & Hdv) & _). rewrite HEP in Hdv.
  destruct (dom_node D h id v HD Hv) as (_ & a & Ha & Hai). exists a, d. repeat split; auto. exists v. auto.
Qed.

Lemma run_events_adds ops : forall h, run_events h (map EvAdd ops) = fst (run_adds h ops).
Proof. induction ops as [|o ops IH]; intros h; cbn [map run_events ev_step run_adds fst]; [reflexivity|]. apply IH. Qed.

(** Up to 61 vectors, searched with ef at least their number. *)
Lemma restart_upto m M cap ops P keys cnt n u :
  0 < m -> 1 <= M -> ops <> [] -> length ops <= 2 * M + 1 -> NoDup (map a_id ops) ->
  Forall (find_call m M cap (map a_id ops)) ops ->
  Forall (fun o => e_prov (i_env (a_env o)) = P) ops ->
  let h := run_events empty_index (map EvAdd ops) in
  all_keys h keys -> snd (flush h keys cnt n) = Ok u ->
  let h' := fst (flush h keys cnt n) in
  forall E q0 maxd ef,
    sched_ok E -> e_prov E = P -> e_vcap E = cap -> length q0 = m -> (Z.of_nat (length ops) <= ef)%Z ->
    (forall o d, In o ops -> p_query P (p_normalize P q0) (p_normalize P (a_vec o)) = Some d -> is_num d = true) ->
    exists out1 out2,
      near E h' q0 maxd ef = Ok out1 /\ near E (restart h') q0 maxd ef = Ok out2 /\
      asc (answer out1) /\ asc (answer out2) /\ NoDup (fst out1) /\ NoDup (fst out2) /\
      map it_id (answer out1) = fst out1 /\ map it_id (answer out2) = fst out2 /\
      (forall x, In x (answer out1) <-> In x (answer out2)) /\
      (forall id d, In (mkItem id d) (answer out1) <->
        flt d f32_zero = false /\ fgt d maxd = false /\ true_dist P h (p_normalize P q0) id d).
Proof.
  intros Hm HM Hne Hlen Hnd Hops HP h Hk Hok h' E q0 maxd ef Hsc HEP Hcap Hq Hef Hnum.
  destruct (find_state m M cap ops Hm HM Hne Hlen Hnd Hops) as (_ & Hst). cbv zeta in Hst.
  assert (Eh : h = fst (run_adds empty_index ops)) by apply run_events_adds.
  rewrite <- Eh in Hst. destruct Hst as [(D & HDi & Hd & HDs) _ Hg].
  rewrite Forall_forall in HP.
  assert (HkP : known_provider P).
  { destruct ops as [|o ops]; [congruence|]. inversion Hops as [|? ? ((_ & Hkk & _) & _) _]; subst.
    rewrite <- (HP o (or_introl eq_refl)). exact Hkk. }
  apply (restart_exhaustive (map EvAdd ops) keys cnt n u m P E (map a_id ops) q0 maxd ef); auto; fold h.
  - intros id v Hv. split; [apply HDi; eauto|]. split; [rewrite Hcap; apply (d_small _ _ _ _ _ Hd id v Hv)|].
    apply (d_dim _ _ _ _ _ Hd id v (HDs _ _ Hv) Hv).
  - intros a b va vb Ha Hb. eapply Hg; eauto; discriminate.
  - destruct (d_ep _ _ _ _ _ Hd) as (v & Hv & _). eauto.
  - now rewrite map_length.
  - intros id d (v & Hv & Hp). pose proof (HDs _ _ Hv) as Hi. apply HDi, in_map_iff in Hi. destruct Hi as (o & Eo & Ho).
    destruct (d_succ _ _ _ _ _ Hd o Ho) as (_ & _ & w & Hw & _ & Hvec & _).
    rewrite Eo, Hv in Hw. injection Hw as <-. rewrite Hvec, (HP o Ho) in Hp. eapply Hnum; eauto.
Qed.
