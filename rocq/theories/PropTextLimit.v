(** Property C67 for every limit: the nearest documents are answered by text. *)
From Coq Require Import String Sorted.
From Verif Require Import Base F32 PQ PQProofs Graph Search SearchProofs SearchLayer SearchKnn
  SearchCong Insert HeuristicProofs InsertProofs InsertHist InsertTotal InsertDim InsertSmall InsertFacts InsertFind
  Distancer DistancerProofs PropDistancer TestGraph TestInsert PropSearch PropInsert PropFind
  Persist PersistProofs PersistHist PropPersist InsertRestart Collections
  Client ClientProofs ClientSafe ClientFacts ClientReq PropClient VCache VCacheFacts ClientIds ClientSmall
  Vectorizer VectorizerProofs PropVectorizer.
Local Open Scope nat_scope.

(** Up to M vectors, written back: the ground layer is complete, also after a
    restart, so every breadth gives the nearest vectors. *)
Lemma small_flushed m M cap ops P keys cnt n u :
  0 < m -> ops <> [] -> length ops <= M -> NoDup (map a_id ops) ->
  Forall (small_call m M cap) ops -> Forall (fun o => e_prov (i_env (a_env o)) = P) ops ->
  let h := run_events empty_index (map EvAdd ops) in
  all_keys h keys -> snd (flush h keys cnt n) = Ok u ->
  let h' := fst (flush h keys cnt n) in
  forall g, g = h' \/ g = restart h' ->
  forall E q0 maxd ef, sched_ok E -> e_prov E = P -> e_vcap E = cap -> length q0 = m -> (1 <= ef)%Z ->
    (forall o d, In o ops -> p_query P (p_normalize P q0) (p_normalize P (a_vec o)) = Some d -> is_num d = true) ->
    prov_sym P /\ ids_small E g /\ exists all best out, near E g q0 maxd ef = Ok out /\
      NoDup (fst out) /\ length (fst out) <= length (snd out) /\ (Z.of_nat (length (fst out)) <= ef)%Z /\
      NoDup (map it_id all) /\
      (forall id d, In (mkItem id d) all <-> exists o, In o ops /\ a_id o = id /\
         p_query P (p_normalize P q0) (p_normalize P (a_vec o)) = Some d) /\
      kbest (Z.to_nat ef) best all /\ asc best /\ answer out = filter (within maxd) best.
Proof.
  intros Hm Hne Hlen Hnd Hops HP h Hk Hok h' g Hg E q0 maxd ef Hsc HEP Hcap Hq Hef Hnum.
  destruct (run_small_from_empty m M cap ops Hm (small_calls _ _ _ _ Hops) Hnd Hlen) as [_ Hst].
  specialize (Hst Hne). cbv zeta in Hst.
  assert (Eh : h = fst (run_adds empty_index ops)) by apply run_events_adds. rewrite <- Eh in Hst.
  destruct (sstate_stored _ _ _ _ Hst) as [Hin Hout]. pose proof Hst as [(D & HDi & Hd & HDs) Hco].
  rewrite Forall_forall in HP.
  assert (HkP : known_provider P).
  { destruct ops as [|o ops]; [congruence|]. inversion Hops as [|? ? ((_ & Hkk & _) & _) _]; subst.
    rewrite <- (HP o (or_introl eq_refl)). exact Hkk. }
  assert (HsymP : prov_sym P) by now apply known_psym.
  pose proof (run_events_pinv (map EvAdd ops) _ pinv_empty) as Hp. fold h in Hp.
  destruct (flush_restart h keys cnt n u Hp Hk Hok) as (V & _ & Ep & _ & _ & Ht). cbv zeta in *. fold h' in V, Ep, Ht.
  change (h_kv_ep (restart h')) with (h_kv_ep h') in Ep.
  assert (Hp' : pinv h') by exact (proj1 (flush_any h keys cnt n Hp)).
  assert (Hgg : pinv g /\ h_tomb g = [] /\ (forall j, pview g j = pview h j) /\ h_kv_ep g = Some (h_ep h)).
  { destruct Hg as [-> | ->].
    - split; [exact Hp'|]. split; [rewrite Ht; now apply run_tomb; [apply pinv_empty|]|]. split; [|exact Ep]. intros j. apply V.
    - split; [now apply restart_pinv|]. split; [reflexivity|]. split; [|exact Ep]. intros j. apply V. }
  destruct Hgg as (Hpg & Htg & Hv & Hkg).
  assert (Hl : forall j, look (load_ep g) j = look h j) by (intros j; exact (content_look _ _ _ (content_pview _ _ _ (Hv j)))).
  assert (Hback : forall j v, node_by_id (load_ep g) j = Some v ->
     exists w, node_by_id h j = Some w /\ v_conns v = v_conns w /\ v_vec v = v_vec w).
  { intros j v Hj. destruct (look_cases _ _ j (Hl j)) as [[X1 X2]|(v1 & w & X1 & X2 & _ & X3 & X4)]; [congruence|].
    exists w. rewrite X1 in Hj. injection Hj as <-. auto. }
  set (q := p_normalize P q0) in *.
  assert (Hql : length q = m) by (unfold q; now rewrite (known_len P HkP)).
  assert (Htd : forall id d, true_dist P (load_ep g) q id d <-> exists o, In o ops /\ a_id o = id /\
         p_query P q (p_normalize P (a_vec o)) = Some d).
  { intros id d. split.
    - intros (v0 & Hv0 & Hpq). destruct (Hback id v0 Hv0) as (v & Hvh & _ & Evv). rewrite Evv in Hpq.
      destruct (Hout id v Hvh) as (o & Ho & Eo). exists o. split; [exact Ho|]. split; [exact Eo|].
      destruct (Hin o Ho) as (v' & Hv' & Hvv). rewrite Eo, Hvh in Hv'. injection Hv' as <-. rewrite (HP o Ho) in Hvv.
      now rewrite <- Hvv.
    - intros (o & Ho & <- & Hpq). destruct (Hin o Ho) as (v & Hvh & Hvv).
      destruct (look_cases _ _ (a_id o) (Hl (a_id o))) as [[X1 X2]|(v1 & w & X1 & X2 & _ & _ & X4)]; [congruence|].
      exists v1. split; [exact X1|]. assert (w = v) by congruence. subst w. rewrite X4, Hvv, (HP o Ho). exact Hpq. }
  assert (Hsm : ids_small E (load_ep g)).
  { intros j v Hj. destruct (Hback j v Hj) as (w & Hw & _). rewrite Hcap. apply (d_small _ _ _ _ _ Hd j w Hw). }
  split; [exact HsymP|]. split; [exact Hsm|].
  assert (Hsym : prov_sym (e_prov E)) by (rewrite HEP; exact HsymP).
  destruct (d_ep _ _ _ _ _ Hd) as (vep & Hep & _).
  assert (Hepg : h_ep (load_ep g) = h_ep h) by (unfold load_ep; rewrite Hkg; reflexivity).
  destruct (look_cases _ _ (h_ep h) (Hl (h_ep h))) as [[X1 X2]|(ve & w & X1 & X2 & _ & _ & X4)]; [congruence|].
  assert (w = vep) by congruence. subst w. rewrite <- Hepg in X1.
  destruct (dist_node_vec_total (mkI E (fun _ _ _ => Panic) 0 0 0) ltac:(cbn; rewrite HEP; now apply known_dim) m Hm (load_ep g)
              (h_ep (load_ep g)) ve q X1 ltac:(rewrite X4; apply (d_dim _ _ _ _ _ Hd _ _ (d_epD _ _ _ _ _ Hd) Hep)) Hql) as (d0 & Hd0).
  cbn [i_env] in Hd0.
  assert (Hwf : wf_levels (load_ep g)).
  { intros j v Hj. rewrite (pinv_len g j v Hpg Hj). lia. }
  destruct (knn_max_dist_total E (load_ep g) Hsc Hsym Hsm q0 maxd ef None d0 Hwf) as (out & Hkn).
  { rewrite HEP. rewrite HEP in Hd0. exact Hd0. }
  destruct (knn_max_dist_sound E (load_ep g) Hsc Hsym Hsm q0 maxd ef None out Hkn) as (S1 & S2 & S3 & _).
  destruct (knn_max_dist_complete E (load_ep g) Hsc Hsym Hsm q0 maxd ef None out) as (all & best & A1 & A2 & A3 & A4 & A5); auto.
  - rewrite HEP. fold q. intros id dd Hdd. apply Htd in Hdd. destruct Hdd as (o & Ho & _ & Hp0). eapply Hnum; eauto.
  - intros id. unfold has_tombstone. change (h_tomb (load_ep g)) with (h_tomb g). rewrite Htg. reflexivity.
  - intros a va Ha. destruct (Hback a va Ha) as (wa & Hwa & Ec & _). unfold conns_at. rewrite Ec.
    pose proof (w_len _ (d_w _ _ _ _ _ Hd) a wa Hwa) as Hla.
    destruct (nth_error (v_conns wa) 0) as [cs|] eqn:En.
    2:{ apply nth_error_None in En. lia. }
    exists cs. split; [reflexivity|]. intros b vb Hb. destruct (Hback b vb Hb) as (wb & Hwb & _).
    destruct (N.eq_dec b a) as [->|Hba]; [now left|right].
    destruct (Hco a b wa wb Hwa Hwb) as (v & cs' & B1 & B2 & B3); try congruence.
  - exists all, best, out. split; [exact Hkn|]. split; [exact S1|]. split; [exact S2|]. split; [lia|]. split; [exact A1|]. split; [|auto].
    intros id d. rewrite (A2 (mkItem id d)). cbn [it_id it_dist]. rewrite HEP. apply Htd.
Qed.

Lemma NoDup_map_by {A B C} (f : A -> B) (g : A -> C) l : NoDup (map g l) ->
  (forall a b, In a l -> In b l -> f a = f b -> g a = g b) -> NoDup (map f l).
Proof.
  induction l as [|a l IH]; cbn [map]; [constructor|]. intros Hn Hi. inversion Hn as [|? ? H1 H2]; subst. constructor.
  - intros Hf. apply in_map_iff in Hf. destruct Hf as (b & Hb & Hbl). apply H1. apply in_map_iff. exists b.
    split; [|exact Hbl]. apply Hi; [now right|now left|exact Hb].
  - apply IH; [exact H2|]. intros x y Hx Hy. apply Hi; now right.
Qed.

Lemma sorted_filter {A} (R : A -> A -> Prop) f l : StronglySorted R l -> StronglySorted R (filter f l).
Proof.
  induction 1 as [|a l Hs IH Hall]; cbn [filter]; [constructor|]. destruct (f a); [|exact IH]. constructor; [exact IH|].
  rewrite Forall_forall in *. intros x Hx. apply filter_In in Hx. apply Hall. tauto.
Qed.

(** What an answer with a limit is: different documents with their distances, in
    ascending order; and for a document within the distance that is not listed there
    are as many other documents as the limit, none of them farther, of which all
    with a computed distance that is not negative are listed. *)
Definition limit_answer (P : provider) (ds : list vdoc) (q : vec) (maxd : f32) (limit : Z)
  (docs : list (option sdoc)) (dists : list f32) : Prop :=
  (Z.of_nat (length docs) <= limit)%Z /\
  (forall i o, nth_error docs i = Some o -> exists s d x, o = Some s /\ In d ds /\ sd_id s = di_id (vd_doc d) /\
     nth_error dists i = Some x /\ p_query P (p_normalize P q) (p_normalize P (vd_vec d)) = Some x /\
     flt x f32_zero = false /\ fgt x maxd = false) /\
  (forall i j s t, nth_error docs i = Some (Some s) -> nth_error docs j = Some (Some t) -> sd_id s = sd_id t -> i = j) /\
  (forall i j x y, i < j < length docs -> nth_error dists i = Some x -> nth_error dists j = Some y -> flt y x = false) /\
  (forall d x, In d ds -> p_query P (p_normalize P q) (p_normalize P (vd_vec d)) = Some x ->
     flt x f32_zero = false -> fgt x maxd = false ->
     (exists i s, nth_error docs i = Some (Some s) /\ sd_id s = di_id (vd_doc d) /\ nth_error dists i = Some x) \/
     exists others, NoDup others /\ Z.of_nat (length others) = limit /\ ~ In (di_id (vd_doc d)) others /\
       forall name, In name others -> exists e y, In e ds /\ di_id (vd_doc e) = name /\
         p_query P (p_normalize P q) (p_normalize P (vd_vec e)) = Some y /\ flt x y = false /\
         (flt y f32_zero = false -> exists i s, nth_error docs i = Some (Some s) /\ sd_id s = name /\ nth_error dists i = Some y)).

(** From the nearest vectors to the nearest documents. *)
Lemma limit_docs P ds E s1 q maxd limit all best ids dists :
  NoDup (map (fun d => di_id (vd_doc d)) ds) -> sched_ok E -> e_prov E = P ->
  (forall d x, In d ds -> p_query P (p_normalize P q) (p_normalize P (vd_vec d)) = Some x -> is_num x = true) ->
  covered s1 -> c_reg s1 = true -> c_docs s1 = docs_after 0 ds [] ->
  prov_sym P -> ids_small E (c_h s1) -> (1 <= limit)%Z ->
  near E (c_h s1) q maxd limit = Ok (ids, dists) -> NoDup ids -> length ids <= length dists -> (Z.of_nat (length ids) <= limit)%Z ->
  NoDup (map it_id all) ->
  (forall id d, In (mkItem id d) all <-> exists o, In o (ops_of 0 ds) /\ a_id o = id /\
     p_query P (p_normalize P q) (p_normalize P (a_vec o)) = Some d) ->
  kbest (Z.to_nat limit) best all -> asc best -> answer (ids, dists) = filter (within maxd) best ->
  forall Q, q_env Q = E -> Permutation (q_order Q) (seq 0 (length ids)) -> (forall i, q_ok Q i = true) ->
  exists docs dists, snd (near_docs Q s1 q maxd limit limit) = Ok (docs, dists) /\ length docs = length ids /\
    limit_answer P ds q maxd limit docs dists.
Proof.
  intros Hids Hsc HEP Hnum Hcs Hreg Hdcs Hsym Hsm Hlim N1 N2 N3 N4 A1 A2 A3 A4 A5 Q HQ Hperm Hfok.
  assert (Hni : near_ids (q_env Q) (c_h s1) q maxd limit limit = Ok (ids, dists)).
  { unfold near_ids, near in *. rewrite HQ, N1. cbn [bind]. unfold cut_limit. cbn [fst snd].
    replace (Z.ltb limit _) with false; [now rewrite andb_false_r|]. symmetry. apply Z.ltb_ge. lia. }
  destruct (near_docs_found Q s1 q maxd limit limit ids dists Hcs) as (docs & K & L); auto.
  { rewrite HQ. exact Hsc. }
  { rewrite HQ, HEP. exact Hsym. }
  { rewrite HQ. exact Hsm. }
  exists docs, dists. split; [exact K|]. split; [exact L|].
  assert (Hperm' : Permutation (q_order Q) (seq 0 (length docs))) by (rewrite L; exact Hperm).
  destruct (near_docs_spec Q s1 q maxd limit limit docs dists K Hperm') as (ids' & I1 & I2 & I3).
  assert (ids' = ids) by congruence. subst ids'. rewrite Hdcs in I3.
  assert (Hall : forall id x, In (mkItem id x) all <-> exists k d, id = N.of_nat k /\ nth_error ds k = Some d /\
            p_query P (p_normalize P q) (p_normalize P (vd_vec d)) = Some x).
  { intros id x. rewrite A2. split.
    - intros (o & Ho & Eo & Hx). destruct (ops_of_in _ _ _ Ho) as (i & d & Hi & ->). cbn [a_id a_vec] in *. exists i, d. rewrite N.add_0_l in Eo. auto.
    - intros (k & d & -> & Hk & Hx). eexists. split; [exact (ops_of_nth ds 0 k d Hk)|]. cbn [a_id a_vec]. rewrite N.add_0_l. auto. }
  destruct A3 as (dropped & B1 & B2 & B3).
  assert (Hba : forall it, In it best -> In it all).
  { intros it Hi. apply (Permutation_in _ (Permutation_sym B1)). apply in_or_app. now left. }
  assert (Hasc : asc (answer (ids, dists))) by (rewrite A5; apply sorted_filter; exact A4).
  assert (Hpos : forall i id x, nth_error ids i = Some id -> nth_error dists i = Some x -> nth_error (answer (ids, dists)) i = Some (mkItem id x)).
  { intros i id x H1 H2. unfold answer. cbn [fst snd]. now rewrite nth_error_map, (nth_combine _ _ _ _ _ H1 H2). }
  assert (Hdoc : forall i o, nth_error docs i = Some o -> exists k d x, o = Some (stored (N.of_nat k) d) /\ nth_error ds k = Some d /\
          nth_error ids i = Some (N.of_nat k) /\ nth_error dists i = Some x).
  { intros i o Hi. assert (i < length docs) by (apply nth_error_Some; congruence).
    destruct (nth_error ids i) as [id|] eqn:E1; [|apply nth_error_None in E1; lia].
    destruct (nth_error dists i) as [x|] eqn:E2; [|apply nth_error_None in E2; lia].
    destruct (I3 i id E1) as (d & D1 & D2 & D3). apply docs_after_inv in D2. destruct D2 as [[]|(k & d' & K1 & K2)].
    exists k, d', x. subst d. cbn [stored sd_hnsw] in D3. rewrite N.add_0_l in *. repeat split; auto; [congruence|f_equal; lia]. }
  assert (Hlist : forall k d x, nth_error ds k = Some d -> In (mkItem (N.of_nat k) x) best -> flt x f32_zero = false -> fgt x maxd = false ->
     exists i s, nth_error docs i = Some (Some s) /\ sd_id s = di_id (vd_doc d) /\ nth_error dists i = Some x).
  { intros k d x Hk Hb H0 Hm.
    assert (Hin : In (mkItem (N.of_nat k) x) (answer (ids, dists))).
    { rewrite A5. apply filter_In. split; [exact Hb|]. unfold within. cbn [it_dist]. now rewrite H0, Hm. }
    apply In_nth_error in Hin. destruct Hin as (i & Hi). unfold answer in Hi. cbn [fst snd] in Hi. rewrite nth_error_map in Hi.
    destruct (nth_error (combine ids dists) i) as [[a b]|] eqn:Ec; [|discriminate]. injection Hi as -> ->.
    apply nth_combine_inv in Ec. cbn [fst snd] in Ec. destruct Ec as [E1 E2].
    destruct (I3 i _ E1) as (s & S1 & S2 & S3). exists i, s. split; [exact S1|]. split; [|exact E2].
    apply docs_after_inv in S2. destruct S2 as [[]|(k' & d' & K1 & ->)]. cbn [stored sd_hnsw sd_id] in *.
    assert (k' = k) by lia. subst k'. congruence. }
  assert (Hsame : forall k k' d d', nth_error ds k = Some d -> nth_error ds k' = Some d' -> di_id (vd_doc d) = di_id (vd_doc d') -> k = k').
  { intros k k' d d' Hk Hk' Hd. apply (proj1 (NoDup_nth_error _) Hids); [rewrite map_length; apply nth_error_Some; congruence|].
    rewrite !nth_error_map, Hk, Hk'. cbn. congruence. }
  split; [rewrite L; exact N4|]. split; [|split; [|split]].
  - intros i o Hi. destruct (Hdoc i o Hi) as (k & d & x & -> & Hk & J1 & J2). exists (stored (N.of_nat k) d), d, x.
    split; [reflexivity|]. split; [eapply nth_error_In; eauto|]. split; [reflexivity|]. split; [exact J2|].
    pose proof (nth_error_In _ _ (Hpos i _ x J1 J2)) as Hin. rewrite A5 in Hin. apply filter_In in Hin. destruct Hin as [Hin Hw].
    apply Hba, Hall in Hin. destruct Hin as (k' & d' & Ek & Hk' & Hx). assert (k' = k) by lia. subst k'.
    assert (d' = d) by congruence. subst d'. unfold within in Hw. cbn [it_dist] in Hw. apply andb_prop in Hw. destruct Hw as [W1 W2].
    apply negb_true_iff in W1, W2. auto.
  - intros i j s t Hi Hj Hst'. destruct (Hdoc i _ Hi) as (k & d & x & [= ->] & Hk & J1 & J2).
    destruct (Hdoc j _ Hj) as (k' & d' & x' & [= ->] & Hk' & J1' & J2'). cbn [stored sd_id] in Hst'.
    pose proof (Hsame _ _ _ _ Hk Hk' Hst'). subst k'.
    apply (proj1 (NoDup_nth_error _) N2); [apply nth_error_Some; congruence|congruence].
  - intros i j x y Hij Hx Hy.
    destruct (nth_error ids i) as [a|] eqn:E1; [|apply nth_error_None in E1; lia].
    destruct (nth_error ids j) as [b|] eqn:E2; [|apply nth_error_None in E2; lia].
    exact (sorted_nth _ _ Hasc i j _ _ (proj1 Hij) (Hpos i a x E1 Hx) (Hpos j b y E2 Hy)).
  - intros d x Hd Hx H0 Hm. apply In_nth_error in Hd. destruct Hd as (k & Hk).
    assert (Hina : In (mkItem (N.of_nat k) x) all) by (apply Hall; eauto).
    pose proof (Permutation_in _ B1 Hina) as Hbd. apply in_app_or in Hbd. destruct Hbd as [Hb|Hdr]; [left; eauto|right].
    set (name := fun it => match nth_error ds (N.to_nat (it_id it)) with Some d => di_id (vd_doc d) | None => ""%string end).
    assert (Hname : forall it, In it all -> exists k d, it_id it = N.of_nat k /\ nth_error ds k = Some d /\ name it = di_id (vd_doc d) /\
              p_query P (p_normalize P q) (p_normalize P (vd_vec d)) = Some (it_dist it)).
    { intros [id y] Hi. apply Hall in Hi. destruct Hi as (k' & d' & -> & Hk' & Hy). exists k', d'. cbn [it_id it_dist].
      unfold name. cbn [it_id]. rewrite Nat2N.id, Hk'. auto. }
    assert (Hnb : NoDup (map it_id best)).
    { pose proof (Permutation_NoDup (Permutation_map it_id B1) A1) as X. rewrite map_app in X. now apply NoDup_app_l in X. }
    exists (map name best). split; [|split; [|split]].
    + apply (NoDup_map_by name it_id); [exact Hnb|]. intros a b Ha Hb He.
      destruct (Hname a (Hba _ Ha)) as (ka & da & X1 & X2 & X3 & _), (Hname b (Hba _ Hb)) as (kb & db & Y1 & Y2 & Y3 & _).
      rewrite X1, Y1. f_equal. apply (Hsame _ _ da db X2 Y2). rewrite <- X3, <- Y3. exact He.
    + rewrite map_length, B2. pose proof (Permutation_length B1) as X. rewrite app_length in X.
      assert (0 < length dropped) by (destruct dropped; [destruct Hdr|cbn; lia]). lia.
    + intros Hi. apply in_map_iff in Hi. destruct Hi as (it & Hit & Hb).
      destruct (Hname it (Hba _ Hb)) as (k' & d' & X1 & X2 & X3 & _).
      assert (k' = k) by (apply (Hsame _ _ d' d X2 Hk); rewrite <- X3; exact Hit). subst k'.
      pose proof (Permutation_NoDup (Permutation_map it_id B1) A1) as X. rewrite map_app in X.
      refine (NoDup_app_disj _ _ (N.of_nat k) X _ _); [rewrite <- X1; now apply in_map|].
      exact (in_map it_id _ _ Hdr).
    + intros s Hi. apply in_map_iff in Hi. destruct Hi as (it & <- & Hb).
      destruct (Hname it (Hba _ Hb)) as (k' & d' & X1 & X2 & X3 & X4). exists d', (it_dist it).
      split; [eapply nth_error_In; eauto|]. split; [now symmetry|]. split; [exact X4|].
      pose proof (B3 it _ Hb Hdr) as Hle. cbn [it_dist] in Hle. split; [exact Hle|]. intros Hz.
      rewrite X3. apply (Hlist k' d'); auto.
      * destruct it as [id y]. cbn [it_id it_dist] in *. now rewrite <- X1.
      * destruct (fgt (it_dist it) maxd) eqn:Eg; [|reflexivity]. exfalso.
        change (flt maxd (it_dist it) = true) in Eg. change (flt maxd x = false) in Hm.
        assert (flt maxd x = true); [|congruence].
        apply (flt_le_trans maxd (it_dist it) x); auto.
        -- exact (proj1 (flt_num _ _ Eg)).
        -- apply (Hnum d'); [eapply nth_error_In; eauto|exact X4].
        -- apply (Hnum d); [eapply nth_error_In; eauto|exact Hx].
Qed.

(** One add request of at most 30 documents, with vectors or by text, to a new
    collection: a query by text answers the nearest documents, for every limit
    above zero, also after a restart.
    Missing: more than 30 documents, several add requests. *)
Theorem C67_text_limit_partial : forall n cap P (V : string -> http) R keys ds,
  0 < n -> ds <> [] -> length ds <= 30 -> NoDup (map (fun d => di_id (vd_doc d)) ds) -> Forall (vt_ok true keys) ds ->
  Forall (fun d => e_prov (i_env (do_env (vd_orc d))) = P) ds ->
  Forall (fun d => (30 <= i_efc (do_env (vd_orc d)))%Z) ds ->
  Forall (find_call n 30 cap (map a_id (ops_of 0 ds))) (ops_of 0 ds) -> rorc_ok R ->
  snd (add_documents R true keys (map vd_pair ds) new_coll) = Ok tt ->
  let st := fst (add_documents R true keys (map vd_pair ds) new_coll) in
  forall st', st' = st \/ st' = restart_coll st ->
  forall E text q maxd limit, sched_ok E -> e_prov E = P -> e_vcap E = cap ->
    corpi (V text) = Ok (Some q) -> length q = n -> (1 <= limit)%Z ->
    (forall d x, In d ds -> p_query P (p_normalize P q) (p_normalize P (vd_vec d)) = Some x -> is_num x = true) ->
    exists m, forall Q, q_env Q = E ->
      r_kvopen (q_open Q) = true -> r_isopen (q_open Q) = true -> r_docopen (q_open Q) = true ->
      Permutation (q_order Q) (seq 0 m) -> (forall i, q_ok Q i = true) ->
      exists docs dists, snd (near_by_text Q true (corpi (V text)) st' maxd limit) = Ok (docs, dists) /\ length docs = m /\
        limit_answer P ds q maxd limit docs dists.
Proof.
  intros n cap P V R keys ds Hn Hne Hlen Hids Hvd HP Hefc Hf HR Hok st st' Hst E text q maxd limit Hsc HEP Hcap Hc Hq Hlim Hnum.
  destruct (one_request n cap P R true keys ds Hn Hne ltac:(lia) Hvd HP Hf Hok) as (Hfl & Hstate). cbv zeta in *.
  set (h := run_events empty_index (map EvAdd (ops_of 0 ds))) in *.
  assert (Hne' : ops_of 0 ds <> []) by (destruct ds; [congruence|discriminate]).
  assert (Hnd : NoDup (map a_id (ops_of 0 ds))) by (rewrite ops_of_ids; apply NoDup_shift).
  rewrite Forall_forall in HP, Hefc.
  assert (HP' : Forall (fun o => e_prov (i_env (a_env o)) = P) (ops_of 0 ds)).
  { apply Forall_forall. intros o Ho. destruct (ops_of_in _ _ _ Ho) as (i & d & Hi & ->). cbn [a_env]. apply HP. eapply nth_error_In; eauto. }
  assert (Hsmall : Forall (small_call n 30 cap) (ops_of 0 ds)).
  { rewrite Forall_forall in *. intros o Ho. destruct (Hf o Ho) as (F1 & F2 & F3 & F4 & _). split; [exact F1|]. split; [exact F2|].
    split; [exact F3|]. split; [exact F4|]. destruct (ops_of_in _ _ _ Ho) as (i & d & Hi & ->). cbn [a_env].
    apply Hefc. eapply nth_error_In; eauto. }
  assert (Hcov : covered st).
  { subst st. apply add_documents_covered; [apply pinv_empty|intros i v [=]|]. split; [exact Hok|]. split.
    - rewrite Hstate. reflexivity.
    - split; [|intros; reflexivity]. rewrite map_map. cbn [vd_pair fst option_map].
      rewrite <- (map_map (fun d => di_id (vd_doc d)) Some). apply FinFun.Injective_map_NoDup; [intros a b [=]; auto|exact Hids]. }
  assert (Hch : c_h st = fst (flush h (r_keys R h) (N.of_nat (length ds)) (r_puts R))) by (unfold st; rewrite Hstate; reflexivity).
  assert (Hmain : forall s1, c_h s1 = c_h st \/ c_h s1 = restart (c_h st) -> covered s1 -> c_reg s1 = true -> c_docs s1 = docs_after 0 ds [] ->
     exists m, forall Q, q_env Q = E -> Permutation (q_order Q) (seq 0 m) -> (forall i, q_ok Q i = true) ->
     exists docs dists, snd (near_docs Q s1 q maxd limit limit) = Ok (docs, dists) /\ length docs = m /\ limit_answer P ds q maxd limit docs dists).
  { intros s1 Hh Hcs Hreg Hdcs. rewrite Hch in Hh.
    destruct (small_flushed n 30 cap (ops_of 0 ds) P (r_keys R h) (N.of_nat (length ds)) (r_puts R) tt Hn Hne'
       ltac:(rewrite ops_of_length; exact Hlen) Hnd Hsmall HP' (HR h) Hfl (c_h s1) Hh E q maxd limit Hsc HEP Hcap Hq Hlim)
      as (Hsym & Hsm & all & best & [ids dists] & N1 & N2 & N3 & N4 & A1 & A2 & A3 & A4 & A5).
    { intros o x Ho Hx. destruct (ops_of_in _ _ _ Ho) as (i & d & Hi & ->). cbn [a_vec] in Hx. apply (Hnum d x); auto. eapply nth_error_In; eauto. }
    cbn [fst snd] in *. exists (length ids). eapply limit_docs; eauto. }
  unfold near_by_text. rewrite Hc. cbn [negb].
  destruct Hst as [->| ->].
  - destruct (Hmain st) as (m & Hm); auto; try (unfold st; rewrite Hstate; reflexivity).
    exists m. intros Q HQ O1 O2 O3 Hperm Hfok. unfold open_coll. rewrite O1, O2.
    assert (c_open st = true) as -> by (unfold st; rewrite Hstate; reflexivity). cbn [negb]. exact (Hm Q HQ Hperm Hfok).
  - set (s2 := mkC (restart (c_h st)) true true (c_docs st) (c_log st)).
    destruct (Hmain s2) as (m & Hm); auto.
    + now apply (covered_restart (restart_coll st)), (covered_restart st).
    + unfold s2, st. now rewrite Hstate.
    + exists m. intros Q HQ O1 O2 O3 Hperm Hfok. unfold open_coll. rewrite O1, O2, O3. cbn [negb restart_coll c_open].
      exact (Hm Q HQ Hperm Hfok).
Qed.
Print Assumptions C67_text_limit_partial.

(** The hypotheses are met by the documents of [C67_nonvacuous]; limit 1 gives the
    nearest of the two documents within the distance. *)
Example C67_text_limit_nonvacuous :
  length ds67 <= 30 /\ NoDup (map (fun d => di_id (vd_doc d)) ds67) /\
  Forall (fun d => (30 <= i_efc (do_env (vd_orc d)))%Z) ds67 /\
  Forall (fun d => e_prov (i_env (do_env (vd_orc d))) = cosp) ds67 /\
  answer_ids (snd (near_by_text (qok 1) true (corpi (V67 "apples"%string))
    (restart_coll (fst (add_documents rok true ["colour"; "thing"]%string (map vd_pair ds67) new_coll))) half 1)) = Some [Some "a"%string] /\
  answer_ids (snd (near_by_text (qok 2) true (corpi (V67 "apples"%string))
    (restart_coll (fst (add_documents rok true ["colour"; "thing"]%string (map vd_pair ds67) new_coll))) half 2)) = Some [Some "a"; Some "c"]%string.
Proof.
  split; [cbn; lia|]. split; [repeat constructor; cbn; intuition discriminate|].
  split; [repeat (constructor; [cbn; lia|]); constructor|]. split; [repeat constructor|]. split; vm_compute; reflexivity.
Qed.
