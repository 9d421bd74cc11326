(** Facts about insertion histories, in the form used by the properties. *)
From Verif Require Import Base F32 PQ PQProofs Graph Search SearchProofs SearchLayer SearchKnn
  SearchCong Insert HeuristicProofs InsertProofs InsertHist InsertTotal InsertDim InsertSmall
  Distancer DistancerProofs PropDistancer.

Lemma known_dim P : known_provider P -> prov_dim P.
Proof.
  intros HP a b. destruct (known_error P a b HP) as [H1 _]. split.
  - intros H. destruct (p_single P a b) as [d|]; [eauto|]. exfalso. now apply H1.
  - intros (d & Hd). destruct (Nat.eq_dec (length a) (length b)) as [|Hn]; [assumption|].
    apply H1 in Hn. congruence.
Qed.

Lemma known_len P : known_provider P -> prov_len P.
Proof. intros [] v; cbn; auto using normalize_length. Qed.

Lemma known_psym P : known_provider P -> prov_sym P.
Proof. intros HP a b. destruct (known_sym P a b HP) as (_ & H1 & H2). congruence. Qed.

(** A call as the client makes it: any interleaving of the goroutines, one of
    the providers, the id below the visited list's length [cap]. *)
Definition call_ok (cap : N) (o : aop) : Prop :=
  sched_ok (i_env (a_env o)) /\ known_provider (e_prov (i_env (a_env o))) /\
  e_vcap (i_env (a_env o)) = cap /\ (a_id o < cap)%N.

Lemma call_dop cap o : call_ok cap o -> dop_ok cap o.
Proof.
  intros (H1 & H2 & H3 & H4). split; [|split; [now apply known_dim|now apply known_len]].
  unfold op_ok. auto using known_psym.
Qed.

Lemma calls_dop cap ops : Forall (call_ok cap) ops -> Forall (dop_ok cap) ops.
Proof. apply Forall_impl, call_dop. Qed.

Lemma hist_winv cap ops : Forall (call_ok cap) ops -> reuse_ok (dimension ops) ops ->
  winv (fst (run_adds empty_index ops)).
Proof.
  intros H1 H2. destruct (run_adds_history cap ops (calls_dop _ _ H1) H2) as [(Hp & _)|(D & _ & Hd)].
  - apply winv_none. apply pristine_empty. exact Hp.
  - apply (d_w _ _ _ _ _ Hd).
Qed.

Lemma succ_In ops : forall rs o, In o (succeeded ops rs) -> In o ops.
Proof.
  induction ops as [|o' ops IH]; intros [|[]rs] o; cbn; try tauto; intros H;
    try (destruct H as [->|H]; [now left|]); right; eauto.
Qed.

Lemma dimension_zero ops : dimension ops = 0 -> forall o, In o ops -> a_vec o = [].
Proof.
  induction ops as [|o ops IH]; cbn; [tauto|]. intros H o' [<-|Ho'].
  - destruct (a_vec o); [reflexivity|discriminate].
  - destruct (a_vec o); [auto|discriminate].
Qed.

Lemma succ_dim cap ops : Forall (call_ok cap) ops -> reuse_ok (dimension ops) ops ->
  let r := run_adds empty_index ops in
  forall o, In o (succeeded ops (snd r)) -> length (a_vec o) = dimension ops.
Proof.
  intros H1 H2. destruct (run_adds_history cap ops (calls_dop _ _ H1) H2) as [(_ & _ & E)|(D & _ & Hd)].
  - cbv zeta. rewrite E. intros o [].
  - cbv zeta. intros o Ho. now destruct (d_succ _ _ _ _ _ Hd o Ho).
Qed.

(** Once a non-empty vector was given, the index is no longer empty. *)
Lemma run_adds_once ops : forall h, h_once h = true -> h_once (fst (run_adds h ops)) = true.
Proof.
  induction ops as [|o ops IH]; intros h Hh; cbn [run_adds fst]; [exact Hh|]. apply IH.
  unfold add. destruct (a_vec o); [exact Hh|]. unfold insert.
  assert (Ho : h_once (with_once h) = true) by reflexivity.
  destruct (negb (h_once h) && is_empty h).
  - unfold insert_initial. destruct (N.ltb _ _); reflexivity.
  - assert (Hca : forall id l nbs h0, h_once h0 = true -> h_once (fst (connect_all (a_env o) h0 id l nbs)) = true).
    { intros id l. induction nbs as [|nb nbs IHn]; intros h0 H0; cbn [connect_all]; [exact H0|].
      assert (Hcn : h_once (fst (connect_neighbor (a_env o) h0 id l nb)) = true).
      { unfold connect_neighbor. destruct (node_by_id h0 nb); [|exact H0]. destruct (N.eqb nb id); [exact H0|].
        destruct (has_tombstone _ _); [exact H0|]. destruct (conns_at _ _); [|exact H0].
        destruct (Nat.ltb (length _) _); [|destruct (reselect _ _ _ _ _); exact H0].
        destruct (append_conn_at _ _ _); exact H0. }
      destruct (connect_neighbor (a_env o) h0 id l nb) as [h1 [[]|e| |]]; cbn [fst] in *; auto. }
    assert (Hdl : forall id q l ep h0, h_once h0 = true -> h_once (fst (do_at_level (a_env o) h0 id q l ep)) = true).
    { intros id q l ep h0 H0. unfold do_at_level. destruct (choose_neighbours _ _ _ _ _ _) as [[e n]|e| |]; try exact H0.
      destruct (node_by_id h0 id) as [w|]; [|exact H0]. destruct (set_conns_at w l n) as [w2|e1| |]; try exact H0.
      specialize (Hca id l n (put_node h0 w2) H0).
      destruct (connect_all _ _ _ _ _) as [h1 [[]|e1| |]]; exact Hca. }
    assert (Hcl : forall id q l ep h0, h_once h0 = true -> h_once (fst (connect_levels (a_env o) h0 id q l ep)) = true).
    { intros id q. induction l as [|l IHl]; intros ep h0 H0; cbn [connect_levels].
      - specialize (Hdl id q 0 ep h0 H0). destruct (do_at_level _ _ _ _ _ _) as [h1 [ep1|e| |]]; exact Hdl.
      - specialize (Hdl id q (S l) ep h0 H0). destruct (do_at_level _ _ _ _ _ _) as [h1 [ep1|e| |]]; cbn [fst] in *; auto. }
    unfold insert_linked. destruct (negb _); [exact Ho|].
    destruct (best_entrypoint _ _ _ _ _ _) as [ep|e| |]; try exact Ho.
    match goal with |- context [connect_levels ?a ?b ?c ?d ?l ?e] =>
      pose proof (Hcl c d l e b Ho) as Hx; destruct (connect_levels a b c d l e) as [h1 [[]|e1| |]] end;
      cbn [fst] in *; auto.
    unfold finish_insert. destruct (node_by_id h1 (a_id o)); destruct (Nat.ltb _ _); exact Hx.
Qed.

Lemma hist_nonempty ops : (exists o, In o ops /\ a_vec o <> []) -> forall h,
  h_once (fst (run_adds h ops)) = true.
Proof.
  induction ops as [|o ops IH]; intros (o' & Hin & Hv) h; [destruct Hin|]. cbn [run_adds fst].
  destruct (a_vec o) as [|x q] eqn:Eq.
  - rewrite add_empty_vec. cbn [fst]. apply IH. destruct Hin as [<-|Hin]; [congruence|eauto].
  - apply run_adds_once. pose proof (run_adds_once [o]) as Hg. cbn [run_adds fst] in Hg. rewrite Eq in Hg.
    specialize (Hg (with_once h) eq_refl).
    assert (E : h_once (fst (add (a_env o) h (a_id o) (x :: q) (a_lvl o))) = true).
    { unfold add, insert in *. cbn [h_once with_once negb andb] in Hg. destruct (negb (h_once h) && is_empty h).
      - unfold insert_initial. destruct (N.ltb _ _); reflexivity.
      - exact Hg. }
    exact E.
Qed.

Lemma hist_dstate cap ops : Forall (call_ok cap) ops -> reuse_ok (dimension ops) ops ->
  (exists o, In o ops /\ a_vec o <> []) ->
  let r := run_adds empty_index ops in
  exists D, incl D (right_ids (dimension ops) ops) /\
    dstate (dimension ops) cap D (succeeded ops (snd r)) (fst r).
Proof.
  intros H1 H2 H3. destruct (run_adds_history cap ops (calls_dop _ _ H1) H2) as [(Hp & _)|H]; [|exact H].
  exfalso. destruct Hp as (_ & _ & _ & _ & Ho). rewrite (hist_nonempty ops H3) in Ho. discriminate.
Qed.

Lemma hist_ep cap ops : Forall (call_ok cap) ops -> reuse_ok (dimension ops) ops ->
  (exists o, In o ops /\ a_vec o <> []) ->
  let r := run_adds empty_index ops in
  (exists v, node_by_id (fst r) (h_ep (fst r)) = Some v /\ v_level v = h_maxl (fst r)) /\
  (forall o, In o (succeeded ops (snd r)) -> exists v, node_by_id (fst r) (a_id o) = Some v /\
     v_level v <= h_maxl (fst r) /\ v_vec v = p_normalize (e_prov (i_env (a_env o))) (a_vec o)).
Proof.
  intros H1 H2 H3. destruct (hist_dstate cap ops H1 H2 H3) as (D & _ & Hd). split.
  - apply (d_ep _ _ _ _ _ Hd).
  - intros o Ho. destruct (d_succ _ _ _ _ _ Hd o Ho) as (_ & _ & v & A & B & C & _). eauto.
Qed.

Lemma reuse_snoc n ops o : reuse_ok n (ops ++ [o]) ->
  reuse_ok n ops /\ ~ In (a_id o) (right_ids n ops).
Proof.
  induction ops as [|o' ops IH]; intros H.
  { split; [constructor|]. intros []. }
  inversion H as [|? ? Hf Hr]; subst. rewrite Forall_forall in Hf.
  destruct (IH Hr) as [I1 I2]. split.
  - constructor; [|exact I1]. apply Forall_forall. intros x Hx. apply Hf. apply in_or_app. auto.
  - unfold right_ids. cbn [filter]. destruct (Nat.eqb_spec (length (a_vec o')) n) as [He|]; [|exact I2].
    cbn [map]. intros [E|Hin]; [|exact (I2 Hin)]. refine (Hf o _ He E). apply in_or_app. right. now left.
Qed.

Lemma hist_mismatch cap ops o : Forall (call_ok cap) (ops ++ [o]) ->
  reuse_ok (dimension ops) (ops ++ [o]) -> (exists o, In o ops /\ a_vec o <> []) ->
  length (a_vec o) <> dimension ops ->
  let h := fst (run_adds empty_index ops) in
  let r := add (a_env o) h (a_id o) (a_vec o) (a_lvl o) in
  (forall u, snd r <> Ok u) /\
  ((a_id o < i_vcsize (a_env o))%N -> exists e, snd r = Err e) /\
  (forall j, j <> a_id o -> node_by_id (fst r) j = node_by_id h j) /\
  (forall j v l cs, node_by_id (fst r) j = Some v -> nth_error (v_conns v) l = Some cs -> ~ In (a_id o) cs) /\
  h_ep (fst r) = h_ep h /\ h_maxl (fst r) = h_maxl h /\
  (forall E q0 maxd ef allow out,
     possible E (fst r) q0 maxd ef allow out <-> possible E h q0 maxd ef allow out).
Proof.
  intros H1 H2 H3 H4. apply Forall_app in H1. destruct H1 as [H1 H1'].
  inversion H1' as [|? ? Ho _]; subst. destruct (reuse_snoc _ _ _ H2) as [H2a H2b].
  destruct (hist_dstate cap ops H1 H2a H3) as (D & HD & Hd).
  assert (Hni : ~ In (a_id o) D) by (intros Hin; apply H2b; auto).
  destruct (add_wrong _ cap D _ _ o Hd (call_dop _ _ Ho) H4 Hni) as (Hd' & R1 & R2 & R3 & R4 & R5).
  cbv zeta. split; [exact R1|]. split; [exact R2|]. split; [exact R3|]. split.
  { exact (unlinked_lin D _ _ (d_lin _ _ _ _ _ Hd') Hni). }
  split; [exact R4|]. split; [exact R5|].
  intros E q0 maxd ef allow out. apply (possible_agree E _ _ (fun j => j <> a_id o)); auto.
  - intros j v l cs c Hj Hv Hl Hc ->. apply Hni. eapply (d_lin _ _ _ _ _ Hd); eauto.
  - rewrite (d_tomb _ _ _ _ _ Hd'). symmetry. apply (d_tomb _ _ _ _ _ Hd).
  - intros E1. apply Hni. rewrite <- E1. apply (d_epD _ _ _ _ _ Hd).
Qed.

Lemma hist_accept cap ops o : Forall (call_ok cap) (ops ++ [o]) ->
  reuse_ok (dimension ops) (ops ++ [o]) -> (exists o, In o ops /\ a_vec o <> []) ->
  length (a_vec o) = dimension ops -> (a_id o < i_vcsize (a_env o))%N ->
  (forall l ow id, In id (a_id o :: right_ids (dimension ops) ops) ->
     exists w, i_vs (a_env o) l ow id = Ok w /\ length w = dimension ops) ->
  snd (add (a_env o) (fst (run_adds empty_index ops)) (a_id o) (a_vec o) (a_lvl o)) = Ok tt.
Proof.
  intros H1 H2 H3 H4 H5 H6. apply Forall_app in H1. destruct H1 as [H1 H1'].
  inversion H1' as [|? ? Ho _]; subst. destruct (reuse_snoc _ _ _ H2) as [H2a H2b].
  destruct (hist_dstate cap ops H1 H2a H3) as (D & HD & Hd).
  assert (Hni : ~ In (a_id o) D) by (intros Hin; apply H2b; auto).
  assert (Hn : 0 < dimension ops).
  { destruct (dimension ops) eqn:E; [|lia]. destruct H3 as (o' & Ho' & Hv).
    exfalso. apply Hv. eapply dimension_zero; eauto. }
  destruct (add_right _ cap D _ _ o Hd (call_dop _ _ Ho) Hn H4 Hni) as (D' & _ & _ & _ & R).
  apply R; [exact H5|]. left. intros l ow id [<-|Hin]; apply H6; [now left|right; auto].
Qed.

(** Exact search in a small collection. *)
Definition small_call (n M : nat) (cap : N) (o : aop) : Prop :=
  call_ok cap o /\ length (a_vec o) = n /\ (a_id o < i_vcsize (a_env o))%N /\
  i_M (a_env o) = M /\ (Z.of_nat M <= i_efc (a_env o))%Z.

Lemma small_calls n M cap ops : Forall (small_call n M cap) ops -> Forall (small_op n M cap) ops.
Proof. apply Forall_impl. intros o (H1 & H). split; [now apply call_dop|exact H]. Qed.

Lemma small_exact n M cap ops P :
  0 < n -> ops <> [] -> length ops <= M -> NoDup (map a_id ops) ->
  Forall (small_call n M cap) ops ->
  Forall (fun o => e_prov (i_env (a_env o)) = P) ops ->
  let h := fst (run_adds empty_index ops) in
  Forall (fun r => r = Ok tt) (snd (run_adds empty_index ops)) /\
  forall E q0 maxd ef,
    sched_ok E -> e_prov E = P -> e_vcap E = cap -> length q0 = n -> (1 <= ef)%Z ->
    (forall o d, In o ops -> p_query P (p_normalize P q0) (p_normalize P (a_vec o)) = Some d -> is_num d = true) ->
    exists all best out,
      knn_max_dist E h q0 maxd ef None = Ok out /\
      NoDup (map it_id all) /\
      (forall id d, In (mkItem id d) all <-> exists o, In o ops /\ a_id o = id /\
         p_query P (p_normalize P q0) (p_normalize P (a_vec o)) = Some d) /\
      kbest (Z.to_nat ef) best all /\ asc best /\
      answer out = filter (within maxd) best.
Proof.
  intros Hn Hne Hlen Hnd Hops HP. cbv zeta.
  destruct (run_small_from_empty n M cap ops Hn (small_calls _ _ _ _ Hops) Hnd Hlen) as [Hok Hst].
  specialize (Hst Hne). split; [exact Hok|]. cbv zeta in Hst. set (h := fst (run_adds empty_index ops)) in *.
  intros E q0 maxd ef Hsc HEP Hcap Hq Hef Hnum.
  destruct (sstate_stored _ _ _ _ Hst) as [Hin Hout]. pose proof Hst as [(D & HDi & Hd & HDs) Hco].
  rewrite Forall_forall in HP.
  assert (HkP : known_provider P).
  { destruct ops as [|o ops]; [congruence|]. inversion Hops as [|? ? ((_ & Hk & _) & _) _]; subst.
    rewrite <- (HP o (or_introl eq_refl)). exact Hk. }
  set (q := p_normalize P q0) in *.
  assert (Hql : length q = n) by (unfold q; now rewrite (known_len P HkP)).
  assert (Hsm : ids_small E h) by (unfold ids_small; rewrite Hcap; apply (d_small _ _ _ _ _ Hd)).
  assert (Hsym : prov_sym (e_prov E)) by (rewrite HEP; now apply known_psym).
  assert (Htd : forall id d, true_dist P h q id d <-> exists o, In o ops /\ a_id o = id /\
         p_query P q (p_normalize P (a_vec o)) = Some d).
  { intros id d. split.
    - intros (v & Hv & Hp). destruct (Hout id v Hv) as (o & Ho & Eo). exists o. split; [exact Ho|]. split; [exact Eo|].
      destruct (Hin o Ho) as (v' & Hv' & Hvv). rewrite Eo, Hv in Hv'. injection Hv' as <-. rewrite (HP o Ho) in Hvv.
      now rewrite <- Hvv.
    - intros (o & Ho & <- & Hp). destruct (Hin o Ho) as (v & Hv & Hvv). exists v. split; [exact Hv|].
      rewrite Hvv, (HP o Ho). exact Hp. }
  destruct (d_ep _ _ _ _ _ Hd) as (vep & Hep & Hml).
  destruct (dist_node_vec_total (mkI E (fun _ _ _ => Panic) 0 0 0) ltac:(cbn; rewrite HEP; now apply known_dim) n Hn h
              (h_ep h) vep q Hep (d_dim _ _ _ _ _ Hd _ _ (d_epD _ _ _ _ _ Hd) Hep) Hql) as (d0 & Hd0).
  cbn [i_env] in Hd0.
  assert (Hwf : wf_levels h) by (apply (winv_wf n Hn), (d_w _ _ _ _ _ Hd)).
  destruct (knn_max_dist_total E h Hsc Hsym Hsm q0 maxd ef None d0 Hwf) as (out & Hk).
  { rewrite HEP. rewrite HEP in Hd0. exact Hd0. }
  destruct (knn_max_dist_complete E h Hsc Hsym Hsm q0 maxd ef None out) as (all & best & A1 & A2 & A3 & A4 & A5); auto.
  - rewrite HEP. fold q. intros id dd Ht. apply Htd in Ht. destruct Ht as (o & Ho & _ & Hp').
    eapply Hnum; eauto.
  - intros id. unfold has_tombstone. rewrite (d_tomb _ _ _ _ _ Hd). reflexivity.
  - intros a va Ha. pose proof (w_len _ (d_w _ _ _ _ _ Hd) a va Ha) as Hla.
    destruct (nth_error (v_conns va) 0) as [cs|] eqn:En.
    2:{ apply nth_error_None in En. lia. }
    exists cs. split; [exact En|]. intros b vb Hb. destruct (N.eq_dec b a) as [->|Hba]; [now left|right].
    destruct (Hco a b va vb Ha Hb) as (v & cs' & B1 & B2 & B3); try congruence.
  - exists all, best, out. split; [exact Hk|]. split; [exact A1|]. split; [|auto].
    intros id d. rewrite (A2 (mkItem id d)). cbn [it_id it_dist]. rewrite HEP. apply Htd.
Qed.
