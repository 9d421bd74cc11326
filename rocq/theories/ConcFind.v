(** Lemmas for queries over an index to which vectors are being added. *)
From Verif Require Import Base F32 PQ PQProofs Graph Search SearchProofs SearchLayer SearchKnn
  Insert HeuristicProofs InsertProofs InsertHist InsertTotal InsertDim InsertSmall InsertFacts InsertFind
  Distancer DistancerProofs PropDistancer ConcSearch ConcProofs.

(** [insert_part] is a state that [insert_linked] passes through. *)
Lemma connect_some_rest I nid q k : forall h l ep h' ep', k <= l ->
  connect_some I h nid q l k ep = (h', Ok ep') ->
  connect_levels I h nid q l ep = connect_levels I h' nid q (l - k) ep'.
Proof.
  induction k as [|k IH]; intros h l ep h' ep' Hk H; cbn [connect_some] in H.
  - injection H as <- <-. now rewrite Nat.sub_0_r.
  - destruct l as [|l]; [lia|]. cbn [connect_levels].
    destruct (do_at_level I h nid q (S l) ep) as [h1 [ep1|e1| |]]; try discriminate.
    replace (S l - 1) with l in H by lia.
    rewrite (IH h1 l ep1 h' ep' ltac:(lia) H). reflexivity.
Qed.

Lemma insert_part_rest I h id q t k h' ep' : (id < i_vcsize I)%N -> k <= Nat.min t (h_maxl h) ->
  insert_part I h id q t k = (h', Ok ep') ->
  insert_linked I h id q t =
    match connect_levels I h' id q (Nat.min t (h_maxl h) - k) ep' with
    | (h2, Ok _) => (finish_insert h2 id t, Ok tt)
    | r => r
    end.
Proof.
  intros Hv Hk. unfold insert_part, insert_linked. apply N.ltb_lt in Hv. rewrite Hv. cbn [negb].
  destruct (best_entrypoint I _ q t (h_maxl h - t) (h_ep h)) as [ep|e| |]; try discriminate.
  intros H. rewrite (connect_some_rest I id q k _ _ ep h' ep' Hk H). reflexivity.
Qed.

(* ------------------------------------------------------------------ *)
Lemma nodup_firstn {A} (l : list A) k : NoDup l -> NoDup (firstn k l).
Proof.
  revert k. induction l as [|a l IH]; intros [|k] H; cbn; try constructor.
  - inversion H as [|? ? H1 H2]; subst. intros Hi. apply H1.
    rewrite <- (firstn_skipn k l). apply in_or_app. now left.
  - inversion H; subst. now apply IH.
Qed.

Lemma run_adds_snoc ops o : forall h,
  fst (run_adds h (ops ++ [o])) = fst (add (a_env o) (fst (run_adds h ops)) (a_id o) (a_vec o) (a_lvl o)).
Proof. induction ops as [|x ops IH]; intros h; cbn; [reflexivity|]. apply IH. Qed.

Lemma firstn_snoc {A} (l : list A) k x : nth_error l k = Some x -> firstn (S k) l = firstn k l ++ [x].
Proof.
  revert k. induction l as [|a l IH]; intros [|k] H; try discriminate.
  - injection H as ->. reflexivity.
  - cbn [firstn app]. f_equal. now apply IH.
Qed.

Section Adding.
  Variables (n M : nat) (cap : N) (ops : list aop) (P : provider).
  Hypothesis Hn : 0 < n.
  Hypothesis HM : 1 <= M.
  Hypothesis Hlen : length ops <= 2 * M + 1.
  Hypothesis Hnd : NoDup (map a_id ops).
  Hypothesis Hops : Forall (find_call n M cap (map a_id ops)) ops.
  Hypothesis HP : Forall (fun o => e_prov (i_env (a_env o)) = P) ops.

  (** The index after the first [k] additions. *)
  Definition after (k : nat) : hnsw := fst (run_adds empty_index (firstn k ops)).

  Lemma firstn_sub k o : In o (firstn k ops) -> In o ops.
  Proof. intros H. rewrite <- (firstn_skipn k ops). apply in_or_app. now left. Qed.

  Lemma after_state k : 1 <= k <= length ops -> fstate n cap (firstn k ops) (after k).
  Proof.
    intros Hk. unfold after.
    assert (Hl : length (firstn k ops) = k) by (rewrite firstn_length; lia).
    apply (find_state n M cap (firstn k ops)); auto.
    - intros E. rewrite E in Hl. cbn in Hl. lia.
    - lia.
    - rewrite <- firstn_map. now apply nodup_firstn.
    - rewrite Forall_forall in Hops |- *. intros o Ho.
      destruct (Hops o (firstn_sub k o Ho)) as (H1 & H2 & H3 & H4 & H5 & H6).
      repeat (split; [assumption|]). intros l ow id Hid. apply H6.
      apply in_map_iff in Hid. destruct Hid as (x & <- & Hx). apply in_map. eapply firstn_sub; eauto.
  Qed.

  Lemma after_keeps1 k : 1 <= k < length ops -> keeps (after k) (after (S k)).
  Proof.
    intros Hk. destruct (nth_error ops k) as [o|] eqn:Eo; [|apply nth_error_None in Eo; lia].
    unfold after. rewrite (firstn_snoc _ _ _ Eo), run_adds_snoc.
    assert (Hl : length (firstn k ops) = k) by (rewrite firstn_length; lia).
    assert (Ho : In o ops) by (eapply nth_error_In; eauto).
    apply (add_find n M cap (map a_id ops) (firstn k ops) _ o Hn HM (after_state k ltac:(lia))).
    - rewrite Forall_forall in Hops. auto.
    - intros Hi. assert (Hd : NoDup (map a_id (firstn (S k) ops))).
      { rewrite <- firstn_map. now apply nodup_firstn. }
      rewrite (firstn_snoc _ _ _ Eo), map_app in Hd. cbn in Hd. apply NoDup_remove_2 in Hd.
      rewrite app_nil_r in Hd. contradiction.
    - rewrite <- (firstn_snoc _ _ _ Eo). intros j Hj. apply in_map_iff in Hj. destruct Hj as (x & <- & Hx).
      apply in_map. eapply firstn_sub; eauto.
    - lia.
  Qed.

  Lemma after_keeps k k' : 1 <= k -> k <= k' -> k' <= length ops -> keeps (after k) (after k').
  Proof.
    intros Hk Hle. induction Hle as [|k' Hle IH]; intros Hk'; [intros a b H; exact H|].
    intros a b H. apply after_keeps1; [lia|]. apply IH; [lia|exact H].
  Qed.

  (** Stored are exactly the vectors added so far. *)
  Lemma after_node k o : 1 <= k <= length ops -> In o (firstn k ops) ->
    exists v, node_by_id (after k) (a_id o) = Some v /\ v_vec v = p_normalize P (a_vec o).
  Proof.
    intros Hk Ho. destruct (after_state k Hk) as [(D & _ & Hd & _) _ _].
    destruct (d_succ _ _ _ _ _ Hd o Ho) as (_ & _ & v & Hv & _ & Hvv & _).
    rewrite Forall_forall in HP. rewrite (HP o (firstn_sub k o Ho)) in Hvv. eauto.
  Qed.

  Lemma after_only k id v : 1 <= k <= length ops -> node_by_id (after k) id = Some v ->
    exists o, In o (firstn k ops) /\ a_id o = id /\ v_vec v = p_normalize P (a_vec o).
  Proof.
    intros Hk Hv. destruct (after_state k Hk) as [(D & HDi & Hd & HDs) _ _].
    pose proof (HDi _ (HDs _ _ Hv)) as Hi. apply in_map_iff in Hi. destruct Hi as (o & <- & Ho).
    destruct (after_node k o Hk Ho) as (v' & Hv' & Hvv). exists o. rewrite Hv in Hv'. injection Hv' as <-. auto.
  Qed.

  Lemma same_op o o' : In o ops -> In o' ops -> a_id o = a_id o' -> o = o'.
  Proof.
    clear -Hnd. induction ops as [|x l IH]; [intros []|]. cbn in Hnd. inversion Hnd as [|? ? H1 H2]; subst.
    intros [->|Ho] [->|Ho'] He; auto.
    - exfalso. apply H1. rewrite He. now apply in_map.
    - exfalso. apply H1. rewrite <- He. now apply in_map.
  Qed.

  Lemma firstn_more k k' o : k <= k' -> In o (firstn k ops) -> In o (firstn k' ops).
  Proof.
    intros Hk Ho. replace k with (Nat.min k k') in Ho by lia. rewrite <- firstn_firstn in Ho.
    rewrite <- (firstn_skipn k (firstn k' ops)). apply in_or_app. now left.
  Qed.

  (* ---------------------------------------------------------------- *)
  (** The moving index: at instant [t] the first [k t] vectors are in; the entry
      point and the highest layer that a query reads may be anything. *)
  Variable W : nat -> hnsw.
  Variable k : nat -> nat.
  Hypothesis Hk : forall t, 1 <= k t <= length ops.
  Hypothesis Hmono : forall t t', t <= t' -> k t <= k t'.
  Hypothesis HW : forall t, exists ep m, W t = with_ep (after (k t)) ep m.

  Lemma W_node t id : node_by_id (W t) id = node_by_id (after (k t)) id.
  Proof. destruct (HW t) as (ep & m & ->). reflexivity. Qed.

  Lemma W_one : one_vec W.
  Proof.
    intros t t' id v v' Hv Hv'. rewrite W_node in Hv, Hv'.
    destruct (after_only _ _ _ (Hk t) Hv) as (o & Ho & Ei & ->).
    destruct (after_only _ _ _ (Hk t') Hv') as (o' & Ho' & Ei' & ->).
    rewrite (same_op o o'); eauto using firstn_sub. congruence.
  Qed.

  Lemma W_ids E : e_vcap E = cap -> ids_in E W (map a_id ops).
  Proof.
    intros Hc t id v Hv. rewrite W_node in Hv. split.
    - destruct (after_only _ _ _ (Hk t) Hv) as (o & Ho & <- & _). apply in_map. eapply firstn_sub; eauto.
    - destruct (after_state _ (Hk t)) as [(D & _ & Hd & _) _ _]. rewrite Hc. eapply (d_small _ _ _ _ _ Hd); eauto.
  Qed.

  Lemma W_lasting : lasting W.
  Proof.
    intros t t' id Ht Hs. rewrite W_node in *. destruct (node_by_id (after (k t)) id) as [v|] eqn:Ev; [|congruence].
    destruct (after_only _ _ _ (Hk t) Ev) as (o & Ho & <- & _).
    destruct (after_node (k t') o (Hk t') (firstn_more _ _ _ (Hmono _ _ Ht) Ho)) as (v' & Hv' & _). congruence.
  Qed.

  Lemma W_wf t : wf_levels (W t).
  Proof.
    intros id v Hv. rewrite W_node in Hv. destruct (after_state _ (Hk t)) as [(D & _ & Hd & _) _ _].
    exact (winv_wf n Hn _ (d_w _ _ _ _ _ Hd) id v Hv).
  Qed.

  Lemma W_tomb t id : has_tombstone (W t) id = false.
  Proof.
    destruct (after_state _ (Hk t)) as [(D & _ & Hd & _) _ _]. destruct (HW t) as (ep & m & ->).
    unfold has_tombstone. cbn. rewrite (d_tomb _ _ _ _ _ Hd). reflexivity.
  Qed.

  Lemma W_extends t t' : t <= t' -> extends 0 (W t) (W t').
  Proof.
    intros Ht id v Hv.
    assert (Hs : node_by_id (W t') id <> None) by (apply (W_lasting t t' id Ht); congruence).
    destruct (node_by_id (W t') id) as [v'|] eqn:Ev'; [|congruence].
    exists v'. split; [reflexivity|]. split; [symmetry; exact (W_one _ _ _ _ _ Hv Ev')|]. intros _.
    split; [lia|]. intros conns Hc. pose proof (W_wf t' id v' Ev') as Hl.
    destruct (conns_at v' 0) as [conns'|] eqn:Ec'.
    2:{ unfold conns_at in Ec'. apply nth_error_None in Ec'. lia. }
    exists conns'. split; [reflexivity|]. intros b Hb.
    rewrite W_node in Hv, Ev'.
    assert (Hg : glink (after (k t)) id b) by (exists v, conns; auto).
    apply (after_keeps (k t) (k t')) in Hg; [|apply Hk|now apply Hmono|apply Hk].
    destruct Hg as (v2 & c2 & Hv2 & Hc2 & Hb2). rewrite Ev' in Hv2. injection Hv2 as <-.
    unfold conns_at in Ec'. rewrite Ec' in Hc2. injection Hc2 as <-. exact Hb2.
  Qed.

  Lemma W_connected t a b va vb : node_by_id (W t) a = Some va -> node_by_id (W t) b = Some vb -> reach (W t) 0 a b.
  Proof.
    intros Ha Hb. pose proof (after_state _ (Hk t)) as [_ _ Hg].
    rewrite W_node in Ha, Hb.
    assert (H : reach (after (k t)) 0 a b) by (eapply Hg; eauto; discriminate).
    apply (reach_mono (after (k t)) (W t)); [|exact H]. intros x y (v & cs & Hv & Hc & Hi).
    exists v, cs. rewrite W_node. auto.
  Qed.

  Lemma W_true E t q id d : e_prov E = P ->
    true_dist (e_prov E) (W t) q id d <->
    exists o, In o (firstn (k t) ops) /\ a_id o = id /\ p_query P q (p_normalize P (a_vec o)) = Some d.
  Proof.
    intros HEP. rewrite HEP. split.
    - intros (v & Hv & Hd). rewrite W_node in Hv.
      destruct (after_only _ _ _ (Hk t) Hv) as (o & Ho & Ei & Hvv). rewrite Hvv in Hd. eauto.
    - intros (o & Ho & <- & Hd). destruct (after_node _ o (Hk t) Ho) as (v & Hv & Hvv).
      exists v. rewrite W_node, Hvv. auto.
  Qed.

  Theorem adding_query E C e q0 maxd ef :
    sched_ok E -> e_prov E = P -> e_vcap E = cap -> length q0 = n -> (Z.of_nat (length ops) <= ef)%Z ->
    (forall o d, In o ops -> p_query P (p_normalize P q0) (p_normalize P (a_vec o)) = Some d -> is_num d = true) ->
    in_order C e ->
    node_by_id (W (t_start C)) (h_ep (W (t_ep C))) <> None ->
    exists out,
      knn_max_dist_at E W C (length ops) q0 maxd ef None = Ok out /\
      asc (answer out) /\ NoDup (fst out) /\ map it_id (answer out) = fst out /\
      (forall o d, In o (firstn (k (e 1)) ops) ->
         p_query P (p_normalize P q0) (p_normalize P (a_vec o)) = Some d ->
         flt d f32_zero = false -> fgt d maxd = false -> In (mkItem (a_id o) d) (answer out)) /\
      (forall id d, In (mkItem id d) (answer out) ->
         flt d f32_zero = false /\ fgt d maxd = false /\ exists o, In o ops /\ a_id o = id /\
           p_query P (p_normalize P q0) (p_normalize P (a_vec o)) = Some d).
  Proof.
    intros Hsc HEP Hcap Hq Hef Hnum Ho Hst.
    assert (HkP : known_provider P).
    { rewrite Forall_forall in Hops, HP. destruct ops as [|o l]; [specialize (Hk 0); cbn in Hk; lia|].
      destruct (Hops o (or_introl eq_refl)) as ((_ & Hkn & _) & _). rewrite (HP o (or_introl eq_refl)) in Hkn. exact Hkn. }
    assert (Hsym : prov_sym (e_prov E)) by (rewrite HEP; now apply known_psym).
    set (q := p_normalize P q0) in *.
    assert (Hql : length q = n) by (unfold q; now rewrite (known_len P HkP)).
    pose proof (W_ids E Hcap) as Hids.
    assert (Hvl : forall t id v, node_by_id (W t) id = Some v -> length (v_vec v) = n).
    { intros t id v Hv. rewrite W_node in Hv. destruct (after_only _ _ _ (Hk t) Hv) as (o & Hoo & _ & ->).
      rewrite (known_len P HkP). rewrite Forall_forall in Hops.
      destruct (Hops o (firstn_sub _ _ Hoo)) as (_ & Hx & _). exact Hx. }
    destruct (node_by_id (W (t_start C)) (h_ep (W (t_ep C)))) as [vep|] eqn:Hep; [|congruence].
    destruct (dist_node_vec_total (mkI E (fun _ _ _ => Panic) 0 0 0) ltac:(cbn; rewrite HEP; now apply known_dim) n Hn
                (W (t_start C)) (h_ep (W (t_ep C))) vep q Hep (Hvl _ _ _ Hep) Hql) as (d0 & Hd0).
    cbn [i_env] in Hd0.
    assert (Hlm : length ops = length (map a_id ops)) by now rewrite map_length.
    rewrite Hlm.
    destruct (knn_at_total E W C (map a_id ops) Hsc Hsym Hids e Ho W_one W_lasting W_wf q0 maxd ef None d0) as (out & Hout).
    { rewrite HEP in Hd0 |- *. exact Hd0. }
    assert (Hsn : seen_num (e_prov E) W (p_normalize (e_prov E) q0)).
    { rewrite HEP. fold q. intros t id d Ht. rewrite <- HEP in Ht at 1. apply (W_true E t q id d HEP) in Ht.
      destruct Ht as (o & Hoo & _ & Hd). eapply Hnum; [|exact Hd]. eapply firstn_sub; eauto. }
    destruct (knn_at_sound E W C (map a_id ops) Hsc Hsym Hids q0 maxd ef None out Hout) as (S1 & _ & _ & S2 & S3).
    destruct (S3 Hsn) as (S4 & S5 & S6).
    exists out. split; [exact Hout|]. split; [exact S4|]. split; [exact S1|]. split; [exact S5|]. split.
    - intros o d Hoo Hd Hz Hm.
      refine (knn_at_found E W C (map a_id ops) Hsc Hsym Hids e Ho W_one W_lasting W_wf q0 maxd ef None out Hsn
                _ _ _ _ _ Hout (a_id o) d _ _ Hz Hm).
      + intros t Ht. apply W_extends. lia.
      + intros t id _ _. apply W_tomb.
      + intros id v Hv. rewrite HEP. fold q. pose proof (known_dim P HkP) as Hdm.
        destruct (proj1 (Hdm (v_vec v) q)) as (dc & Hdc); [now rewrite Hql, (Hvl _ _ _ Hv)|].
        exists dc. rewrite <- Hdc. symmetry. rewrite HEP in Hsym. apply Hsym.
      + intros a b va vb Ha Hb. eapply W_connected; eauto.
      + rewrite map_length. exact Hef.
      + rewrite HEP. fold q. rewrite <- HEP at 1. apply (W_true E (e 1) q (a_id o) d HEP). eauto.
      + discriminate.
    - intros id d Hi. apply In_nth_error in Hi. destruct Hi as (i & Hi).
      assert (H1 : nth_error (fst out) i = Some id) by (rewrite <- S5, nth_error_map, Hi; reflexivity).
      destruct (S2 i id H1) as (d' & H2 & (t & H3) & _ & H4 & H5 & _).
      assert (H6 : nth_error (firstn (length (fst out)) (snd out)) i = Some d)
        by (rewrite <- S6, nth_error_map, Hi; reflexivity).
      rewrite nth_firstn in H6 by (apply nth_error_Some; congruence). rewrite H2 in H6. injection H6 as ->.
      split; [exact H4|]. split; [exact H5|].
      rewrite HEP in H3. fold q in H3. rewrite <- HEP in H3 at 1. apply (W_true E t q id d HEP) in H3.
      destruct H3 as (o & Hoo & Ei & Hd). exists o. split; [eapply firstn_sub; eauto|]. auto.
  Qed.
End Adding.
