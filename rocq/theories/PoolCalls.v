(** The programs of [Pools] use the pools properly and yield what the functions
    of [Search] and [Insert] say. *)
From Verif Require Import Base F32 PQ Graph Search Insert Pools PQProofs PoolProofs.
From Coq Require Import Lia.

Definition qmin (l : list item) : obj := mkObj KMin l [] [].
Definition qmax (l : list item) : obj := mkObj KMax l [] [].
Definition qx (l : list itemx) : obj := mkObj KMinX [] l [].
Definition sl (l : list itemx) : obj := mkObj KPlain [] l [].
Definition vl (l : list N) : obj := mkObj KPlain [] [] l.

Lemma o_top_max l : o_top (qmax l) = pq_pop less_max l.
Proof. reflexivity. Qed.
Lemma o_pop_max l : o_pop (qmax l) = match pq_pop less_max l with Some (_, l') => qmax l' | None => qmax l end.
Proof. unfold o_pop. rewrite o_top_max. destruct (pq_pop less_max l) as [[x l']|]; reflexivity. Qed.
Lemma o_top_min l : o_top (qmin l) = pq_pop less_min l.
Proof. reflexivity. Qed.
Lemma o_pop_min l : o_pop (qmin l) = match pq_pop less_min l with Some (_, l') => qmin l' | None => qmin l end.
Proof. unfold o_pop. rewrite o_top_min. destruct (pq_pop less_min l) as [[x l']|]; reflexivity. Qed.

Ltac slots := repeat first [rewrite set_same | rewrite set_other by (congruence || discriminate)].

Section Good.
  Context {A : Type}.
  Variable a : A.

  (** Whatever happened before, the program goes on well. *)
  Definition fine (p : prog A) : Prop := forall H m, good p H m a.

  (* -------------------------------------------------------------- *)
  Lemma drain_loop_good s (k : list item -> prog A) : forall fuel acc H m l,
    H s = true -> m s = qmax l ->
    (forall m' l', m' s = qmax l' -> good (k (rev acc ++ drain_f less_max fuel l)) H m' a) ->
    good (drain_loop s fuel acc k) H m a.
  Proof.
    induction fuel as [|f IH]; intros acc H m l HH Hm Hk; cbn.
    - cbn in Hk. rewrite app_nil_r in Hk. eapply Hk; eauto.
    - split; auto. rewrite Hm, o_top_max, o_pop_max. cbn in Hk.
      destruct (pq_pop less_max l) as [[x l']|].
      + apply IH with (l := l'); auto; [now slots|]. intros m' l'' Hm'. cbn. rewrite <- app_assoc. eapply Hk; eauto.
      + rewrite app_nil_r in Hk. eapply Hk. now slots.
  Qed.

  Lemma drain_good s (k : list item -> prog A) H m l :
    H s = true -> m s = qmax l ->
    (forall m' l', m' s = qmax l' -> good (k (pq_drain less_max l)) H m' a) ->
    good (drain_p s k) H m a.
  Proof.
    intros HH Hm Hk. cbn [drain_p good]. split; auto. rewrite Hm. cbn [o_items qmax].
    apply drain_loop_good with (l := l); [exact HH|now slots|exact Hk].
  Qed.

  Lemma put_res (k : prog A) H m l : H SRes = true -> m SRes = qmax l -> fine k -> good (Put SRes k) H m a.
  Proof. intros HH Hm Hk. cbn. rewrite Hm. auto. Qed.

  (* -------------------------------------------------------------- *)
  (** The three variables of searchLayerByVector. *)
  Record st3 (H : slot -> bool) (m : slot -> obj) (c r : list item) (v : list N) : Prop := {
    s3_hv : H SVis = true; s3_hc : H SCand = true; s3_hr : H SRes = true;
    s3_v : m SVis = vl v; s3_c : m SCand = qmin c; s3_r : m SRes = qmax r
  }.
  Lemma st3_vis H m c r v v' : st3 H m c r v -> st3 H (set_var m SVis (vl v')) c r v'.
  Proof. intros []. constructor; auto; now slots. Qed.
  Lemma st3_cand H m c r v c' : st3 H m c r v -> st3 H (set_var m SCand (qmin c')) c' r v.
  Proof. intros []. constructor; auto; now slots. Qed.
  Lemma st3_res H m c r v r' : st3 H m c r v -> st3 H (set_var m SRes (qmax r')) c r' v.
  Proof. intros []. constructor; auto; now slots. Qed.

  Section Layer.
    Variable E : env.
    Variable h : hnsw.
    Variable q : vec.
    Variable ef : Z.
    Variable level : nat.
    Variable allow : option (N -> bool).

    Lemma eps_good (k : prog A) : forall es d H m c r v,
      st3 H m c r v ->
      (forall m', st3 H m' (fst (fold_left (add_ep h level allow) es (c, r)))
                           (snd (fold_left (add_ep h level allow) es (c, r)))
                           (visit_eps E (map it_id es) v d) -> good k H m' a) ->
      good (eps_p E h level allow es d k) H m a.
    Proof.
      induction es as [|ep es IH]; intros d H m c r v Hs Hk; [apply Hk; exact Hs|].
      cbn [eps_p good]. split; [apply Hs|]. rewrite (s3_v _ _ _ _ _ Hs).
      set (d' := d || negb (N.ltb (it_id ep) (e_vcap E))) in *.
      assert (H1 : st3 H (set_var m SVis (if d' then vl v else o_mark (it_id ep) (vl v))) c r
                      (if d' then v else it_id ep :: v)).
      { destruct d'; apply (st3_vis _ _ _ _ _ _ Hs). }
      revert H1. generalize (set_var m SVis (if d' then vl v else o_mark (it_id ep) (vl v))). intros m1 H1.
      split; [apply H1|]. rewrite (s3_c _ _ _ _ _ H1).
      pose proof (st3_cand _ _ _ _ _ (pq_insert less_min ep c) H1) as H2.
      change (o_insert ep (qmin c)) with (qmin (pq_insert less_min ep c)).
      cbn [fold_left map visit_eps] in Hk. fold d' in Hk.
      unfold add_ep at 2 4 in Hk. cbn [fst snd] in Hk.
      destruct (negb (allowed level allow (it_id ep))); [eapply IH; eauto|].
      destruct (has_tombstone h (it_id ep)); [eapply IH; eauto|].
      cbn [good]. split; [apply H2|]. rewrite (s3_r _ _ _ _ _ H2).
      change (o_insert ep (qmax r)) with (qmax (pq_insert less_max ep r)).
      eapply IH; [apply (st3_res _ _ _ _ _ (pq_insert less_max ep r) H2)|]. exact Hk.
    Qed.

    Lemma fresh_good (k : list N -> prog A) : forall conns acc H m c r v,
      st3 H m c r v ->
      (forall m', st3 H m' c r (snd (fresh conns v)) -> good (k (rev acc ++ fst (fresh conns v))) H m' a) ->
      good (fresh_p conns acc k) H m a.
    Proof.
      induction conns as [|id conns IH]; intros acc H m c r v Hs Hk.
      - cbn in *. rewrite app_nil_r in Hk. auto.
      - cbn [fresh_p good]. split; [apply Hs|]. rewrite (s3_v _ _ _ _ _ Hs). cbn [o_ids vl].
        cbn [fresh] in Hk. destruct (memN id v).
        + eapply IH; eauto. apply st3_vis with (v := v); exact Hs.
        + destruct (fresh conns (id :: v)) as [ids v'] eqn:Ef. cbn [fst snd] in Hk.
          eapply IH; [apply (st3_vis _ _ _ _ _ (id :: v) Hs)|]. rewrite Ef. cbn [fst snd rev].
          rewrite <- app_assoc. exact Hk.
    Qed.

    Lemma steps_good (k : f32 -> prog A) : forall nds w H m c r v,
      st3 H m c r v ->
      (forall s, fold_left (step_nd h ef level allow) nds (mkS c r w v) = s -> forall m',
         st3 H m' (s_cands s) (s_results s) (s_visited s) -> good (k (s_worst s)) H m' a) ->
      good (steps_p h ef level allow nds w k) H m a.
    Proof.
      induction nds as [|nd nds IH]; intros w H m c r v Hs Hk; [exact (Hk _ eq_refl m Hs)|].
      cbn [steps_p good]. split; [apply Hs|]. rewrite (s3_r _ _ _ _ _ Hs).
      change (same (qmax r)) with (qmax r). pose proof (st3_res _ _ _ _ _ r Hs) as H1.
      revert H1. generalize (set_var m SRes (qmax r)). intros m1 H1. cbn [o_items qmax].
      cbn [fold_left] in Hk. unfold step_nd at 2 in Hk. cbn [s_worst s_results s_cands s_visited] in Hk.
      destruct (flt (it_dist nd) w || (Z.of_nat (length r) <? ef)%Z); [|eapply IH; eauto].
      cbn [good]. split; [apply H1|]. rewrite (s3_c _ _ _ _ _ H1).
      change (o_insert nd (qmin c)) with (qmin (pq_insert less_min nd c)).
      pose proof (st3_cand _ _ _ _ _ (pq_insert less_min nd c) H1) as H2.
      revert H2. generalize (set_var m1 SCand (qmin (pq_insert less_min nd c))). intros m2 H2.
      destruct (negb (allowed level allow (it_id nd))); [eapply IH; eauto|].
      destruct (has_tombstone h (it_id nd)); [eapply IH; eauto|].
      cbn [good]. split; [apply H2|]. rewrite (s3_r _ _ _ _ _ H2).
      change (o_insert nd (qmax r)) with (qmax (pq_insert less_max nd r)).
      pose proof (st3_res _ _ _ _ _ (pq_insert less_max nd r) H2) as H3.
      revert H3. generalize (set_var m2 SRes (qmax (pq_insert less_max nd r))). intros m3 H3.
      split; [apply H3|]. rewrite (s3_r _ _ _ _ _ H3). cbn [o_items qmax].
      set (r1 := pq_insert less_max nd r) in *.
      set (r2 := if (ef <? Z.of_nat (length r1))%Z
                 then match pq_pop less_max r1 with Some (_, r') => r' | None => r1 end else r1) in *.
      assert (E2 : (if (ef <? Z.of_nat (length r1))%Z then o_pop (mkObj KMax r1 [] []) else mkObj KMax r1 [] []) = qmax r2).
      { unfold r2. destruct (ef <? _)%Z; auto. fold (qmax r1). rewrite o_pop_max.
        destruct (pq_pop less_max r1) as [[? ?]|]; reflexivity. }
      change (qmax r1) with (mkObj KMax r1 [] []). rewrite E2.
      pose proof (st3_res _ _ _ _ _ r2 H3) as H4.
      revert H4. generalize (set_var m3 SRes (qmax r2)). intros m4 H4.
      split; [apply H4|]. rewrite (s3_r _ _ _ _ _ H4).
      change (same (qmax r2)) with (qmax r2). cbn [o_items qmax].
      eapply IH; [apply (st3_res _ _ _ _ _ r2 H4)|]. exact Hk.
    Qed.

    Lemma loop_good (kf : stop -> prog A) (k : prog A) : forall fuel w H m c r v,
      st3 H m c r v ->
      (forall s, search_loop E h q ef level allow fuel (mkS c r w v) = Ok s ->
         forall m', st3 H m' (s_cands s) (s_results s) (s_visited s) -> good k H m' a) ->
      (forall st, search_loop E h q ef level allow fuel (mkS c r w v) = of_stop st -> fine (kf st)) ->
      good (loop_p E h q ef level allow fuel w kf k) H m a.
    Proof.
      induction fuel as [|f IH]; intros w H m c r v Hs Hk Hf.
      - apply (Hf SFuel). reflexivity.
      - cbn [loop_p good]. split; [apply Hs|]. rewrite (s3_c _ _ _ _ _ Hs), o_top_min, o_pop_min.
        cbn [search_loop s_cands s_results s_worst s_visited] in Hk, Hf.
        destruct (pq_pop less_min c) as [[x c']|].
        2:{ eapply Hk; [reflexivity|]. apply (st3_cand _ _ _ _ _ c Hs). }
        pose proof (st3_cand _ _ _ _ _ c' Hs) as H1.
        revert H1. generalize (set_var m SCand (qmin c')). intros m1 H1.
        cbn [good]. split; [apply H1|]. rewrite (s3_r _ _ _ _ _ H1).
        change (same (qmax r)) with (qmax r). pose proof (st3_res _ _ _ _ _ r H1) as H2.
        revert H2. generalize (set_var m1 SRes (qmax r)). intros m2 H2. cbn [o_items qmax].
        destruct (fgt (it_dist x) w && (ef <=? Z.of_nat (length r))%Z); [eapply Hk; eauto; reflexivity|].
        destruct (node_by_id h (it_id x)) as [vx|]; [|eapply IH; eauto].
        destruct (Nat.ltb (v_level vx) level); [eapply IH; eauto|].
        destruct (conns_at vx level) as [conns|]; [|apply (Hf SPanic); reflexivity].
        destruct (fresh conns v) as [ids v'] eqn:Ef.
        eapply fresh_good; [exact H2|]. rewrite Ef. cbn [fst snd rev app]. intros m3 H3.
        eapply steps_good; [exact H3|]. intros s Es m4 H4. rewrite Es in Hk, Hf.
        destruct s as [sc sr sw sv]. eapply IH; [exact H4| |]; assumption.
    Qed.

    Lemma layer_good (eps : list item) (kf : stop -> prog A) (k : prog A) H m :
      (forall r, search_layer E h q ef level allow eps = Ok r ->
         forall H' m', H' SRes = true -> m' SRes = qmax r -> good k H' m' a) ->
      (forall st, search_layer E h q ef level allow eps = of_stop st -> fine (kf st)) ->
      good (layer_p E h q ef level allow eps kf k) H m a.
    Proof.
      intros Hk Hf. unfold layer_p. cbn [good].
      set (H1 := set_var (set_var (set_var H SVis true) SCand true) SRes true).
      set (m1 := set_var (set_var (set_var m SVis (new_obj SVis)) SCand (new_obj SCand)) SRes (new_obj SRes)).
      assert (Hs : st3 H1 m1 [] [] []) by (constructor; unfold H1, m1; now slots).
      clearbody H1 m1. eapply eps_good; [exact Hs|]. intros m2 H2.
      unfold search_layer in Hk, Hf.
      destruct (fold_left (add_ep h level allow) (pq_drain less_min eps) ([], [])) as [c r]. cbn [fst snd] in H2.
      cbn [good]. split; [apply H2|]. rewrite (s3_r _ _ _ _ _ H2).
      change (same (qmax r)) with (qmax r). pose proof (st3_res _ _ _ _ _ r H2) as H3.
      revert H3. generalize (set_var m2 SRes (qmax r)). intros m3 H3. cbn [o_items qmax].
      destruct (worst_dist E h q r) as [w|e| |] eqn:Ew; cbn [bind] in Hk, Hf.
      - eapply loop_good; [exact H3| |].
        + intros s Hls m4 H4. rewrite Hls in Hk. cbn [bind] in Hk.
          cbn [good]. split; [apply H4|]. rewrite (s3_c _ _ _ _ _ H4). split; [reflexivity|].
          slots. split; [apply H4|]. rewrite (s3_v _ _ _ _ _ H4). split; [reflexivity|].
          eapply Hk; [reflexivity| |apply H4]. slots. apply H4.
        + intros st Hst. apply Hf. rewrite Hst. destruct st; reflexivity.
      - apply (Hf (SErr e)). reflexivity.
      - apply (Hf SPanic). reflexivity.
      - apply (Hf SFuel). reflexivity.
    Qed.
  End Layer.

  (* -------------------------------------------------------------- *)
  Lemma use_pop_res (k : obj -> prog A) H m l :
    H SRes = true -> m SRes = qmax l ->
    (forall m' l', m' SRes = qmax l' -> good (k (qmax l)) H m' a) ->
    good (Use SRes o_pop k) H m a.
  Proof.
    intros HH Hm Hk. cbn. split; auto. rewrite Hm, o_pop_max.
    destruct (pq_pop less_max l) as [[x l']|]; eapply Hk; now slots.
  Qed.

  Section Knn.
    Variable E : env.
    Variable h : hnsw.

    Lemma descend_good q (kf : stop -> prog A) (k : N -> f32 -> prog A) : forall l ep epd H m,
      (forall x, descend E h q l ep epd = Ok x -> fine (k (fst x) (snd x))) ->
      (forall st, descend E h q l ep epd = of_stop st -> fine (kf st)) ->
      good (descend_p E h q l ep epd kf k) H m a.
    Proof.
      induction l as [|l IH]; intros ep epd H m Hk Hf; [apply (Hk (ep, epd)); reflexivity|].
      cbn [descend_p]. cbn [descend] in Hk, Hf. eapply layer_good.
      - intros r Hr H' m' HH Hm. rewrite Hr in Hk, Hf. cbn [bind] in Hk, Hf.
        eapply use_pop_res; eauto. intros m2 l2 Hm2. rewrite o_top_max.
        destruct (pq_pop less_max r) as [[best ?]|]; eapply put_res; eauto; intros ? ?; apply IH; auto.
      - intros st Hst. apply Hf. rewrite Hst. destruct st; reflexivity.
    Qed.

    Lemma maxdist_good q0 maxd ef allow (k : res (list N * list f32) -> prog A) :
      fine (k (knn_max_dist E h q0 maxd ef allow)) ->
      fine (knn_max_dist_p E h q0 maxd ef allow k).
    Proof.
      intros Hk H m. unfold knn_max_dist in Hk. unfold knn_max_dist_p.
      destruct (dist_node_vec (e_prov E) h (h_ep h) (p_normalize (e_prov E) q0)) as [d0|e| |]; cbn [bind] in Hk; try apply Hk.
      eapply descend_good.
      - intros x Hx H1 m1. rewrite Hx in Hk. cbn [bind] in Hk. eapply layer_good.
        + intros r Hr H2 m2 HH Hm. rewrite Hr in Hk. cbn [bind] in Hk.
          eapply drain_good; eauto. intros m3 l3 Hm3. eapply put_res; eauto.
        + intros st Hst. rewrite Hst in Hk. destruct st; exact Hk.
      - intros st Hst. rewrite Hst in Hk. destruct st; exact Hk.
    Qed.

    Lemma pick_good (k : option item -> prog A) : forall fuel H m l,
      H SRes = true -> m SRes = qmax l ->
      (forall m' l', m' SRes = qmax l' -> good (k (pick_entry h (drain_f less_max fuel l))) H m' a) ->
      good (pick_p h fuel k) H m a.
    Proof.
      induction fuel as [|f IH]; intros H m l HH Hm Hk; [eapply Hk; eauto|].
      cbn [pick_p good]. split; auto. rewrite Hm, o_top_max, o_pop_max. cbn [drain_f] in Hk.
      destruct (pq_pop less_max l) as [[x l']|]; cbn [pick_entry] in Hk.
      - destruct (node_by_id h (it_id x)) as [v|].
        + destruct (v_maint v).
          * eapply IH; eauto. now slots.
          * eapply Hk. now slots.
        + eapply IH; eauto. now slots.
      - eapply Hk. now slots.
    Qed.

    Lemma descend_maint_good q (kf : stop -> prog A) (k : N -> f32 -> prog A) : forall l ep epd H m,
      (forall x, descend_maint E h q l ep epd = Ok x -> fine (k (fst x) (snd x))) ->
      (forall st, descend_maint E h q l ep epd = of_stop st -> fine (kf st)) ->
      good (descend_maint_p E h q l ep epd kf k) H m a.
    Proof.
      induction l as [|l IH]; intros ep epd H m Hk Hf; [apply (Hk (ep, epd)); reflexivity|].
      cbn [descend_maint_p]. cbn [descend_maint] in Hk, Hf. eapply layer_good.
      - intros r Hr H' m' HH Hm. rewrite Hr in Hk, Hf. cbn [bind] in Hk, Hf.
        cbn [good]. split; auto. rewrite Hm. cbn [o_items qmax same].
        eapply pick_good; [auto|slots; reflexivity|]. intros m2 l2 Hm2.
        fold (pq_drain less_max r). eapply put_res; eauto.
        destruct (pick_entry h (pq_drain less_max r)) as [best|]; intros ? ?; apply IH; auto.
      - intros st Hst. apply Hf. rewrite Hst. destruct st; reflexivity.
    Qed.

    Lemma pop_to_good n (k : prog A) : forall fuel H m l,
      H SRes = true -> m SRes = qmax l ->
      (forall m', m' SRes = qmax (pop_to fuel l n) -> good k H m' a) ->
      good (pop_to_p fuel n k) H m a.
    Proof.
      induction fuel as [|f IH]; intros H m l HH Hm Hk; [apply Hk; exact Hm|].
      cbn [pop_to_p good]. split; auto. rewrite Hm. change (same (qmax l)) with (qmax l). change (o_items (qmax l)) with l.
      cbn [pop_to] in Hk. destruct (n <? Z.of_nat (length l))%Z eqn:En.
      - cbn [good]. split; auto. slots. rewrite o_pop_max.
        destruct (pq_pop less_max l) as [[x l']|] eqn:Ep.
        + eapply IH; eauto. now slots.
        + destruct l; [|discriminate]. apply IH with (l := []); [exact HH|now slots|].
          intros m' Hm'. apply Hk. rewrite Hm'. f_equal.
          destruct f; cbn; auto. destruct (n <? 0)%Z; reflexivity.
      - apply Hk. now slots.
    Qed.

    Lemma knn_good q n ef allow (k : res (list N * list f32) -> prog A) :
      fine (k (knn_search E h q n ef allow)) ->
      fine (knn_search_p E h q n ef allow k).
    Proof.
      intros Hk H m. unfold knn_search in Hk. unfold knn_search_p.
      destruct (is_empty h); [apply Hk|].
      destruct (dist_node_vec (e_prov E) h (h_ep h) q) as [d0|e| |]; cbn [bind] in Hk; try apply Hk.
      eapply descend_maint_good.
      - intros x Hx H1 m1. rewrite Hx in Hk. cbn [bind] in Hk. eapply layer_good.
        + intros r Hr H2 m2 HH Hm. rewrite Hr in Hk. cbn [bind] in Hk.
          destruct (n <? 0)%Z; [apply Hk|].
          cbn [good]. split; auto. rewrite Hm. cbn [o_items qmax same].
          eapply pop_to_good; [auto|slots; reflexivity|]. intros m3 Hm3.
          eapply drain_good; eauto. intros m4 l4 Hm4. eapply put_res; eauto.
        + intros st Hst. rewrite Hst in Hk. destruct st; exact Hk.
      - intros st Hst. rewrite Hst in Hk. destruct st; exact Hk.
    Qed.
  End Knn.

  (* -------------------------------------------------------------- *)
  Section Heuristic.
    Variable P : provider.
    Variable get : N -> res vec.
    Variable deny : N -> bool.
    Variable inp : slot.
    Variable max : nat.
    Hypothesis Hinp : inp = SRes \/ inp = SNew.

    Lemma inp_not s : s = SHeur \/ s = SList -> s <> inp.
    Proof. intros [->| ->]; destruct Hinp as [-> | ->]; discriminate. Qed.
    Lemma inp_not' s : s = SHeur \/ s = SList -> inp <> s.
    Proof. intros Hs E. apply (inp_not s Hs). auto. Qed.

    Lemma move_good (k : list N -> prog A) : forall fuel i acc H m l c,
      length l = fuel -> H inp = true -> H SHeur = true -> m inp = qmax l -> m SHeur = qx c ->
      (forall m', m' inp = qmax [] ->
         m' SHeur = qx (fold_left (fun q x => pq_insert less_minx x q) (with_index i (drain_f less_max fuel l)) c) ->
         good (k (rev acc ++ map it_id (drain_f less_max fuel l))) H m' a) ->
      good (move_p inp fuel i acc k) H m a.
    Proof.
      pose proof (inp_not SHeur (or_introl eq_refl)) as N1. pose proof (inp_not' SHeur (or_introl eq_refl)) as N2.
      induction fuel as [|f IH]; intros i acc H m l c Hl HI HH Hm Hc Hk.
      - destruct l; [|discriminate]. cbn in *. rewrite app_nil_r in Hk. apply Hk; auto.
      - cbn [move_p good]. split; auto. rewrite Hm, o_top_max, o_pop_max. cbn [drain_f] in Hk.
        destruct (pq_pop less_max l) as [[x l']|] eqn:Ep.
        2:{ destruct l; discriminate. }
        pose proof (pop_length _ _ _ _ Ep) as Hl'. cbn [good]. split; auto. slots. rewrite Hc.
        change (o_insertx (mkItemx (it_id x) i (it_dist x)) (qx c))
          with (qx (pq_insert less_minx (mkItemx (it_id x) i (it_dist x)) c)).
        eapply IH with (l := l'); auto; [lia|now slots|now slots|].
        intros m' H1 H2. cbn [rev map with_index fold_left] in *. rewrite <- app_assoc. apply Hk; auto.
    Qed.

    Lemma heur_good_p vecs (kf : stop -> prog A) (k : prog A) : forall fuel H m c ret,
      H inp = true -> H SHeur = true -> H SList = true ->
      m inp = qmax [] -> m SHeur = qx c -> m SList = sl ret ->
      (forall r, heur_loop P deny vecs max (drain_f less_minx fuel c) ret = Ok r ->
         forall m' c', m' inp = qmax [] -> m' SHeur = qx c' -> m' SList = sl r -> good k H m' a) ->
      (forall st, heur_loop P deny vecs max (drain_f less_minx fuel c) ret = of_stop st -> fine (kf st)) ->
      good (heur_p P deny max vecs fuel kf k) H m a.
    Proof.
      pose proof (inp_not SHeur (or_introl eq_refl)) as N1. pose proof (inp_not' SHeur (or_introl eq_refl)) as N2.
      pose proof (inp_not SList (or_intror eq_refl)) as N3. pose proof (inp_not' SList (or_intror eq_refl)) as N4.
      induction fuel as [|f IH]; intros H m c ret HI HH HL Hm Hc Hr Hk Hf.
      - eapply Hk; eauto. reflexivity.
      - cbn [heur_p good]. split; auto. rewrite Hr. change (same (sl ret)) with (sl ret). cbn [o_x sl].
        cbn [drain_f] in Hk, Hf.
        destruct (Nat.leb max (length ret)) eqn:El.
        { eapply Hk with (c' := c); [|now slots|now slots|now slots].
          destruct (pq_pop less_minx c) as [[x c']|]; cbn [heur_loop]; rewrite ?El; reflexivity. }
        cbn [good]. split; auto. slots. rewrite Hc. unfold o_popx. cbn [o_x o_kind o_items o_ids qx].
        destruct (pq_pop less_minx c) as [[x c']|] eqn:Ep.
        2:{ eapply Hk with (c' := c); [reflexivity|now slots|now slots|now slots]. }
        cbn [heur_loop] in Hk, Hf. rewrite El in Hk, Hf.
        change (mkObj KMinX [] c' []) with (qx c').
        destruct (deny (ix_id x)).
        { eapply IH with (c := c') (ret := ret); auto; now slots. }
        destruct (nth_error vecs (ix_index x)) as [[cv|]|].
        + cbn [good]. split; auto. slots. change (mkObj KPlain [] ret []) with (sl ret). cbn [o_x sl].
          eapply IH with (c := c') (ret := if heur_good P vecs cv (ix_dist x) ret then ret ++ [x] else ret); auto; slots; auto.
          destruct (heur_good P vecs cv (ix_dist x) ret); reflexivity.
        + apply (Hf (SErr EVectorSource)). reflexivity.
        + apply (Hf SPanic). reflexivity.
    Qed.

    Lemma back_good (k : prog A) : forall ret H m l c,
      H inp = true -> m inp = qmax l -> m SList = c ->
      (forall m', m' inp = qmax (fold_left (fun q x => pq_insert less_max (mkItem (ix_id x) (ix_dist x)) q) ret l) ->
         m' SList = c -> good k H m' a) ->
      good (back_p inp ret k) H m a.
    Proof.
      pose proof (inp_not' SList (or_intror eq_refl)) as N4.
      induction ret as [|x ret IH]; intros H m l c HI Hm Hc Hk; [apply Hk; auto|].
      cbn [back_p good]. split; auto. rewrite Hm.
      eapply IH with (l := pq_insert less_max (mkItem (ix_id x) (ix_dist x)) l); [auto|slots; reflexivity|slots; exact Hc|exact Hk].
    Qed.

    Lemma heuristic_good (kf : stop -> prog A) (k : prog A) H m l :
      H inp = true -> m inp = qmax l ->
      (forall r, heuristic P get deny l max = Ok r ->
         forall H' m', H' inp = true -> m' inp = qmax r -> good k H' m' a) ->
      (forall st, heuristic P get deny l max = of_stop st -> fine (kf st)) ->
      good (heuristic_p P get deny inp max kf k) H m a.
    Proof.
      pose proof (inp_not SHeur (or_introl eq_refl)) as N1. pose proof (inp_not' SHeur (or_introl eq_refl)) as N2.
      pose proof (inp_not SList (or_intror eq_refl)) as N3. pose proof (inp_not' SList (or_intror eq_refl)) as N4.
      intros HI Hm Hk Hf. unfold heuristic_p. cbn [good]. split; auto. rewrite Hm.
      change (same (qmax l)) with (qmax l). cbn [o_items qmax].
      unfold heuristic in Hk, Hf. destruct (Nat.ltb (length l) max).
      { eapply Hk; eauto. now slots. }
      cbn [good]. eapply move_good with (l := l) (c := []); auto; try (slots; auto; reflexivity).
      intros m1 Hm1 Hc1. cbn [rev app]. fold (pq_drain less_max l) in Hc1 |- *.
      destruct (fetch get (map it_id (pq_drain less_max l))) as [vecs|e| |]; cbn [bind] in Hk, Hf.
      - cbn [good]. slots. split; auto. rewrite Hc1.
        set (c := fold_left (fun q x => pq_insert less_minx x q) (with_index 0 (pq_drain less_max l)) []) in *.
        change (same (qx c)) with (qx c). cbn [o_x qx].
        eapply heur_good_p with (c := c) (ret := []); try (slots; auto; reflexivity).
        + fold (pq_drain less_minx c). intros r Hr m2 c2 Hi2 Hc2 Hl2. rewrite Hr in Hk. cbn [bind] in Hk.
          cbn [good]. slots. split; auto. rewrite Hc2. split; [reflexivity|]. split; auto.
          rewrite Hl2. change (same (sl r)) with (sl r). cbn [o_x sl].
          eapply back_good with (l := []) (c := sl r); [now slots|now slots|now slots|].
          intros m3 Hm3 Hl3. cbn [good]. slots. split; auto. split; auto. rewrite Hl3. split; [reflexivity|].
          eapply Hk; [reflexivity|now slots|now slots].
        + fold (pq_drain less_minx c). intros st Hst. apply Hf. rewrite Hst. destruct st; reflexivity.
      - apply (Hf (SErr e)). reflexivity.
      - apply (Hf SPanic). reflexivity.
      - apply (Hf SFuel). reflexivity.
    Qed.
  End Heuristic.

  (* -------------------------------------------------------------- *)
  Section Insert.
    Variable I : ienv.

    Lemma choose_good h nid q level ep (k : res (N * list N) -> prog A) :
      fine (k (choose_neighbours I h nid q level ep)) ->
      fine (choose_p I h nid q level ep k).
    Proof.
      intros Hk H m. unfold choose_neighbours in Hk. unfold choose_p.
      destruct (pick_ep (e_prov (i_env I)) h q 4 [] ep) as [e|e| |]; cbn [bind] in Hk; try apply Hk.
      eapply layer_good.
      - intros r Hr H1 m1 HH Hm. rewrite Hr in Hk. cbn [bind] in Hk.
        eapply heuristic_good; eauto.
        + intros r2 Hr2 H2 m2 HH2 Hm2. rewrite Hr2 in Hk. cbn [bind] in Hk.
          eapply drain_good; eauto. intros m3 l3 Hm3. eapply put_res; eauto.
        + intros st Hst. rewrite Hst in Hk. destruct st; exact Hk.
      - intros st Hst. rewrite Hst in Hk. destruct st; exact Hk.
    Qed.

    Lemma cands_good get nb (kf : stop -> prog A) (k : prog A) : forall cs H m l,
      H SNew = true -> m SNew = qmax l ->
      (forall r, cand_dists I get nb cs l = Ok r -> forall m', m' SNew = qmax r -> good k H m' a) ->
      (forall st, cand_dists I get nb cs l = of_stop st -> fine (kf st)) ->
      good (cands_p I get nb cs kf k) H m a.
    Proof.
      induction cs as [|c cs IH]; intros H m l HH Hm Hk Hf; [eapply Hk; eauto; reflexivity|].
      cbn [cands_p]. cbn [cand_dists] in Hk, Hf.
      destruct (dist_nodes (e_prov (i_env I)) get c nb) as [d|e| |]; cbn [bind] in Hk, Hf.
      - cbn [good]. split; auto. rewrite Hm. eapply IH; eauto. slots. reflexivity.
      - apply (Hf (SErr e)). reflexivity.
      - apply (Hf SPanic). reflexivity.
      - apply (Hf SFuel). reflexivity.
    Qed.

    Lemma reselect_good nid nb level cs (k : res (list N) -> prog A) :
      fine (k (reselect I nid nb level cs)) ->
      fine (reselect_p I nid nb level cs k).
    Proof.
      intros Hk H m. unfold reselect in Hk. unfold reselect_p.
      destruct (dist_nodes (e_prov (i_env I)) (i_vs I level nb) nid nb) as [d|e| |]; cbn [bind] in Hk; try apply Hk.
      cbn [good]. split; [now slots|].
      eapply cands_good with (l := pq_insert less_max (mkItem nid d) []); [now slots|now slots| |].
      - intros r Hr m1 Hm1. rewrite Hr in Hk. cbn [bind] in Hk.
        eapply heuristic_good with (l := r); [auto|now slots|exact Hm1| |].
        + intros r2 Hr2 H2 m2 HH2 Hm2. rewrite Hr2 in Hk. cbn [bind] in Hk.
          eapply drain_good; eauto.
        + intros st Hst. rewrite Hst in Hk. destruct st; exact Hk.
      - intros st Hst. rewrite Hst in Hk. destruct st; exact Hk.
    Qed.

    Lemma best_good h q target (k : res N -> prog A) : forall n ep,
      fine (k (best_entrypoint I h q target n ep)) ->
      fine (best_p I h q target n ep k).
    Proof.
      induction n as [|n IH]; intros ep Hk H m; [apply Hk|].
      cbn [best_p]. cbn [best_entrypoint] in Hk.
      destruct (dist_node_vec (e_prov (i_env I)) h ep q) as [d|e| |]; cbn [bind] in Hk; try apply Hk.
      eapply layer_good.
      - intros r Hr H1 m1 HH Hm. rewrite Hr in Hk. cbn [bind] in Hk.
        eapply use_pop_res; eauto. intros m2 l2 Hm2. rewrite o_top_max.
        destruct (pq_pop less_max r) as [[x ?]|].
        + eapply put_res; eauto. destruct (node_by_id h (it_id x)); apply IH; exact Hk.
        + eapply put_res; eauto.
      - intros st Hst. rewrite Hst in Hk. destruct st; exact Hk.
    Qed.
  End Insert.
End Good.

(** What a call gives when nobody else is there. *)
Definition direct (c : call) : outcome :=
  match c with
  | CMaxDist E h q0 maxd ef allow => OAnswer (knn_max_dist E h q0 maxd ef allow)
  | CKnn E h q n ef allow => OAnswer (knn_search E h q n ef allow)
  | CChoose J h nid q level ep => OChoice (choose_neighbours J h nid q level ep)
  | CReselect J nid nb level cs => OLinks (reselect J nid nb level cs)
  | CBest J h q target n ep => OEntry (best_entrypoint J h q target n ep)
  end.

Lemma call_good {A} (a : A) c (k : outcome -> prog A) : fine a (k (direct c)) -> fine a (call_p c k).
Proof.
  destruct c; cbn [direct call_p]; intros Hk.
  - apply maxdist_good with (k := fun r => k (OAnswer r)). exact Hk.
  - apply knn_good with (k := fun r => k (OAnswer r)). exact Hk.
  - apply choose_good with (k := fun r => k (OChoice r)). exact Hk.
  - apply reselect_good with (k := fun r => k (OLinks r)). exact Hk.
  - apply best_good with (k := fun r => k (OEntry r)). exact Hk.
Qed.

Lemma calls_good : forall cs acc, fine (rev acc ++ map direct cs) (calls_p cs acc).
Proof.
  induction cs as [|c cs IH]; intros acc.
  - intros H m. cbn. now rewrite app_nil_r.
  - cbn [calls_p map]. apply call_good. specialize (IH (direct c :: acc)). cbn [rev] in IH.
    rewrite <- app_assoc in IH. exact IH.
Qed.
