(** When an insertion succeeds: right dimension and a working vector source (or
    few vectors).  When it is rejected: wrong dimension. *)
From Verif Require Import Base F32 PQ PQProofs Graph Search SearchProofs SearchLayer SearchKnn
  Insert HeuristicProofs InsertProofs InsertHist.

(** A distance exists exactly for vectors of equal length (C40). *)
Definition prov_dim (P : provider) : Prop :=
  forall a b, length a = length b <-> exists d, p_single P a b = Some d.

Lemma fetch_total get ids : (forall id, In id ids -> exists w, get id = Ok w) ->
  exists vs, fetch get ids = Ok vs /\ length vs = length ids /\ Forall (fun o => o <> None) vs.
Proof.
  induction ids as [|id ids IH]; intros H; cbn [fetch]; [exists []; auto|].
  destruct (H id (or_introl eq_refl)) as (w & ->).
  destruct IH as (vs & -> & Hl & Hf); [intros; apply H; now right|].
  cbn [bind]. exists (Some w :: vs). cbn. repeat split; auto. constructor; [discriminate|exact Hf].
Qed.

Lemma heur_loop_total P deny vecs max l : forall ret,
  (forall x, In x l -> ix_index x < length vecs) -> Forall (fun o => o <> None) vecs ->
  exists out, heur_loop P deny vecs max l ret = Ok out.
Proof.
  induction l as [|c l IH]; intros ret Hl Hf; cbn [heur_loop]; [eauto|].
  destruct (Nat.leb max (length ret)); [eauto|].
  assert (Hl' : forall x, In x l -> ix_index x < length vecs) by (intros; apply Hl; now right).
  destruct (deny (ix_id c)); [auto|].
  specialize (Hl c (or_introl eq_refl)).
  destruct (nth_error vecs (ix_index c)) as [[cv|]|] eqn:En.
  - auto.
  - rewrite Forall_forall in Hf. apply nth_error_In in En. edestruct Hf; eauto.
  - apply nth_error_None in En. lia.
Qed.

Lemma with_index_lt l : forall i x, In x (with_index i l) -> ix_index x < i + length l.
Proof.
  induction l as [|a l IH]; intros i x; cbn; [tauto|]. intros [<-|H]; [cbn; lia|].
  apply IH in H. lia.
Qed.

Lemma heuristic_total P get deny input max :
  length input < max \/ (forall id, In id (map it_id input) -> exists w, get id = Ok w) ->
  exists r, heuristic P get deny input max = Ok r.
Proof.
  intros H. unfold heuristic. destruct (Nat.ltb_spec (length input) max) as [Hlt|Hge]; [eauto|].
  destruct H as [H|H]; [lia|].
  set (popped := pq_drain less_max input).
  destruct (fetch_total get (map it_id popped)) as (vs & Hv & Hl & Hf).
  { intros id Hid. apply H. unfold popped in Hid. now apply drain_ids_In in Hid. }
  rewrite Hv. cbn [bind].
  destruct (heur_loop_total P deny vs max
     (pq_drain less_minx (fold_left (fun q x => pq_insert less_minx x q) (with_index 0 popped) [])) [])
     as (out & Ho); [|exact Hf|].
  - intros x Hx. apply (Permutation_in _ (Permutation_sym (drain_perm less_minx _))) in Hx.
    apply (Permutation_in _ (Permutation_sym (fold_insert_perm less_minx _ _))) in Hx. rewrite app_nil_r in Hx.
    apply with_index_lt in Hx. rewrite Hl, map_length. lia.
  - rewrite Ho. cbn [bind]. eauto.
Qed.

Section Total.
  Variable I : ienv.
  Local Notation E := (i_env I).
  Local Notation P := (e_prov (i_env I)).
  Hypothesis Hsc : sched_ok E.
  Hypothesis Hsym : prov_sym P.
  Hypothesis Hdim : prov_dim P.

  (** Ids of the vectors of dimension [n]. *)
  Variable n : nat.
  Hypothesis Hn : 0 < n.
  Variable D : list N.

  (** Every link leads into [D]; every stored vector of [D] has dimension [n]. *)
  Definition lin (h : hnsw) : Prop :=
    forall j v l cs c, node_by_id h j = Some v -> nth_error (v_conns v) l = Some cs -> In c cs -> In c D.
  Definition ldim (h : hnsw) : Prop :=
    forall j v, In j D -> node_by_id h j = Some v -> length (v_vec v) = n.

  Lemma reach_D h l ep c : lin h -> In ep D -> reach h l ep c -> In c D.
  Proof.
    intros HL Hep Hr. induction Hr as [|b v conns c Hr IH Hb Hlb Hc Hin]; [exact Hep|].
    eapply HL; eauto.
  Qed.

  Lemma lin_newl h h' R : lin h -> newl R h h' -> (forall c, R c -> In c D) -> lin h'.
  Proof.
    intros HL HN HR j v l cs c Hj Hl Hc.
    destruct (HN _ _ _ _ _ Hj Hl Hc) as [(v0 & cs0 & H1 & H2 & H3)|Hr]; [eapply HL; eauto|auto].
  Qed.

  Lemma ldim_lrel l h h' : ldim h -> lrel l h h' -> ldim h'.
  Proof.
    intros HL HR j v Hj Hv. destruct (lr_bw _ _ _ HR _ _ Hv) as (v0 & H0).
    destruct (lr_fw _ _ _ HR _ _ H0) as (v1 & H1 & _ & V & _). rewrite Hv in H1. inversion H1; subst.
    rewrite V. eauto.
  Qed.

  Lemma dist_node_vec_total h id v q :
    node_by_id h id = Some v -> length (v_vec v) = n -> length q = n ->
    exists d, dist_node_vec P h id q = Ok d.
  Proof.
    intros Hv Hl Hq. unfold dist_node_vec. rewrite Hv.
    destruct (proj1 (Hdim (v_vec v) q)) as (d & Hd); [congruence|]. rewrite Hd.
    destruct (v_vec v); [cbn in Hl; lia|]. destruct q; [cbn in Hq; lia|]. eauto.
  Qed.

  Lemma winv_wf h : winv h -> wf_levels h.
  Proof. intros W id v Hv. rewrite (w_len _ W _ _ Hv). lia. Qed.

  (** The descent of an insertion succeeds. *)
  Lemma best_entrypoint_total h q target k : forall ep vep,
    winv h -> ids_small E h -> lin h -> ldim h -> length q = n ->
    In ep D -> node_by_id h ep = Some vep -> target + k <= v_level vep ->
    exists ep', best_entrypoint I h q target k ep = Ok ep' /\ In ep' D.
  Proof.
    induction k as [|k IH]; intros ep vep W Hs HL HD Hq Hep Hv Hlev; cbn [best_entrypoint]; [eauto|].
    destruct (dist_node_vec_total h ep vep q Hv (HD _ _ Hep Hv) Hq) as (d & Hd). rewrite Hd. cbn [bind].
    apply dist_node_vec_spec in Hd; [|exact Hsym].
    destruct (layer_total E h q 1 (target + S k) None (mkItem ep d) Hsc (winv_wf h W) Hd) as (r & Hr).
    rewrite Hr. cbn [bind].
    assert (Hself : exists ep', best_entrypoint I h q target k ep = Ok ep' /\ In ep' D)
      by (eapply IH; eauto; lia).
    destruct (pq_pop less_max r) as [[x r']|] eqn:Ep; [|exact Hself].
    destruct (node_by_id h (it_id x)) as [vx|] eqn:Ex; [|exact Hself].
    destruct (v_maint vx); [exact Hself|].
    destruct (layer_sound E h q 1 (target + S k) None (mkItem ep d) r Hsc Hd) as (Hin & _ & _); auto.
    { eapply Hs; eauto. }
    assert (Hx : In x r).
    { eapply Permutation_in; [symmetry; eapply pop_perm; eauto|now left]. }
    destruct (Hin x Hx) as (_ & Hre & _). cbn [it_id] in Hre.
    destruct (reach_level _ _ _ _ _ W Hv Hlev Hre) as (w & Hw & Hlw).
    assert (vx = w) by congruence. subst w.
    eapply IH; eauto; [eapply reach_D; eauto|lia].
  Qed.

  (** The vector source knows the vectors of [D], or there are so few of them
      that no selection is needed. *)
  Hypothesis Hvs :
    (forall l o id, In id D -> exists w, i_vs I l o id = Ok w /\ length w = n) \/
    length D <= i_M I.

  Lemma subset_length (l : list N) x : NoDup l -> incl l D -> In x D -> ~ In x l -> length l < length D.
  Proof.
    intros Hnd Hi Hx Hnx. assert (H : length (x :: l) <= length D); [|cbn in H; lia].
    apply NoDup_incl_length; [constructor; auto|]. intros y [<-|Hy]; auto.
  Qed.

  Lemma choose_total h nid q l ep vep :
    winv h -> ids_small E h -> lin h -> ldim h -> length q = n -> In nid D ->
    unlinked_upto l nid h -> ep <> nid -> In ep D ->
    node_by_id h ep = Some vep -> l <= v_level vep ->
    exists nbs, choose_neighbours I h nid q l ep = Ok (ep, nbs).
  Proof.
    intros W Hs HL HD Hq Hnid Hu Hne Hep Hv Hlev. unfold choose_neighbours. cbn [pick_ep]. rewrite Hv.
    destruct (dist_node_vec_total h ep vep q Hv (HD _ _ Hep Hv) Hq) as (d & Hd). rewrite Hd.
    cbn [bind fst snd].
    apply dist_node_vec_spec in Hd; [|exact Hsym].
    destruct (layer_total E h q (i_efc I) l None (mkItem ep d) Hsc (winv_wf h W) Hd) as (r & Hr).
    rewrite Hr. cbn [bind].
    destruct (layer_sound E h q (i_efc I) l None (mkItem ep d) r Hsc Hd) as (Hin & Hnd & _); auto.
    { eapply Hs; eauto. }
    assert (HinD : forall id, In id (map it_id r) -> In id D /\ id <> nid).
    { intros id Hid. apply in_map_iff in Hid. destruct Hid as (x & <- & Hx).
      destruct (Hin x Hx) as (_ & Hre & _). cbn in Hre. split; [eapply reach_D; eauto|].
      eapply reach_not_new; eauto. }
    destruct (heuristic_total P (i_vs I l nid) (fun _ => false) r (i_M I)) as (r' & Hr').
    { destruct Hvs as [Hvs'|Hsmall].
      - right. intros id Hid. destruct (Hvs' l nid id) as (w & Hw & _); [|eauto]. now apply HinD.
      - left. enough (length (map it_id r) < length D) by (rewrite map_length in *; lia).
        apply (subset_length _ nid); auto.
        + intros id Hid. now apply HinD.
        + intros Hid. now apply HinD in Hid. }
    rewrite Hr'. cbn [bind]. eauto.
  Qed.

  Lemma dist_nodes_total get a b wa wb :
    get a = Ok wa -> get b = Ok wb -> length wa = n -> length wb = n ->
    exists d, dist_nodes P get a b = Ok d.
  Proof.
    intros Ha Hb La Lb. unfold dist_nodes. rewrite Ha, Hb. cbn [bind].
    destruct (proj1 (Hdim wa wb)) as (d & Hd); [congruence|]. rewrite Hd.
    destruct wa; [cbn in La; lia|]. destruct wb; [cbn in Lb; lia|]. eauto.
  Qed.

  Lemma cand_dists_total get nb cs : forall q,
    (forall c, In c (nb :: cs) -> exists w, get c = Ok w /\ length w = n) ->
    exists q', cand_dists I get nb cs q = Ok q'.
  Proof.
    induction cs as [|c cs IH]; intros q H; cbn [cand_dists]; [eauto|].
    destruct (H c) as (wc & Hc & Lc); [right; now left|].
    destruct (H nb) as (wb & Hb & Lb); [now left|].
    destruct (dist_nodes_total get c nb wc wb) as (d & Hd); auto. rewrite Hd. cbn [bind].
    apply IH. intros x [<-|Hx]; apply H; [now left|right; now right].
  Qed.

  Lemma reselect_total nid nb l cs :
    (forall c, In c (nid :: nb :: cs) -> exists w, i_vs I l nb c = Ok w /\ length w = n) ->
    exists cs', reselect I nid nb l cs = Ok cs'.
  Proof.
    intros H. unfold reselect.
    destruct (H nid) as (wn & Hwn & Ln); [now left|].
    destruct (H nb) as (wb & Hwb & Lb); [right; now left|].
    destruct (dist_nodes_total (i_vs I l nb) nid nb wn wb) as (d & Hd); auto. rewrite Hd. cbn [bind].
    destruct (cand_dists_total (i_vs I l nb) nb cs (pq_insert less_max (mkItem nid d) [])) as (q & Hq).
    { intros c Hc. apply H. right. exact Hc. }
    rewrite Hq. cbn [bind].
    destruct (heuristic_total P (i_vs I l nb) (fun _ => false) q (max_conns I l)) as (q' & Hq').
    { right. intros id Hid. apply cand_dists_ids in Hq. apply (Permutation_in _ Hq) in Hid.
      destruct (H id) as (w & Hw & _); [|eauto].
      apply in_app_or in Hid. cbn in Hid. destruct Hid as [Hid|[<-|[]]]; cbn; auto. }
    rewrite Hq'. cbn [bind]. eauto.
  Qed.

  Lemma connect_neighbor_total h nid l nb v cs :
    linking I nid l h -> nb <> nid -> node_by_id h nb = Some v -> l <= v_level v ->
    nth_error (v_conns v) l = Some cs -> ~ In nid cs ->
    lin h -> In nid D -> In nb D ->
    snd (connect_neighbor I h nid l nb) = Ok tt.
  Proof.
    intros [W S Nn] Hne Hv Hl Hcs Hni HL Hnid Hnb. unfold connect_neighbor. rewrite Hv.
    destruct (N.eqb_spec nb nid) as [|_]; [contradiction|].
    destruct (has_tombstone h (v_id v)); [reflexivity|].
    cbn [v_level set_committed]. destruct (Nat.ltb_spec (v_level v) l) as [Hlt|_]; [lia|].
    unfold conns_at. cbn [v_conns set_committed]. rewrite Hcs.
    destruct (Nat.ltb_spec (length cs) (max_conns I l)) as [Hlt|Hge].
    { unfold append_conn_at. cbn [v_conns set_committed]. rewrite Hcs. reflexivity. }
    destruct Hvs as [Hvs'|Hsmall].
    - destruct (reselect_total nid nb l cs) as (cs' & ->); [|reflexivity].
      intros c [<-|[<-|Hc]]; apply Hvs'; auto. eapply HL; eauto.
    - exfalso. assert (length cs < length D).
      { apply (subset_length _ nid); auto.
        - eapply (w_nodup _ W); eauto.
        - intros c Hc. eapply HL; eauto. }
      unfold max_conns in Hge. destruct l; lia.
  Qed.

  Lemma connect_all_total nid l nbs : forall h,
    linking I nid l h -> NoDup nbs ->
    (forall c, In c nbs -> c <> nid /\ In c D /\ exists v cs, node_by_id h c = Some v /\ l <= v_level v /\
       nth_error (v_conns v) l = Some cs /\ ~ In nid cs) ->
    lin h -> In nid D ->
    snd (connect_all I h nid l nbs) = Ok tt.
  Proof.
    induction nbs as [|nb nbs IH]; intros h Hlk Hnd Hc HL Hnid; cbn [connect_all]; [reflexivity|].
    inversion Hnd as [|x y Hni Hnd']; subst.
    destruct (Hc nb (or_introl eq_refl)) as (Hne & HnD & v & cs & Hv & Hl & Hcs & Hnin).
    pose proof (connect_neighbor_inv I h nid l nb v cs Hlk Hne Hv Hl Hcs Hnin) as (L1 & R1 & E1 & O1).
    pose proof (connect_neighbor_total h nid l nb v cs Hlk Hne Hv Hl Hcs Hnin HL Hnid HnD) as Ht.
    destruct (connect_neighbor I h nid l nb) as [h1 [[]|e| |]]; cbn [fst snd] in *; try discriminate.
    apply (IH h1 L1 Hnd'); auto.
    - intros c Hin. destruct (Hc c (or_intror Hin)) as (Hne' & HcD & v' & cs' & Hv' & Hl' & Hcs' & Hnin').
      split; [exact Hne'|]. split; [exact HcD|]. exists v', cs'. rewrite O1 by (intros ->; contradiction). auto.
    - eapply lin_newl; eauto. intros c <-. exact Hnid.
  Qed.

  Lemma next_ep_D nid ep nbs : In ep D -> (forall c, In c nbs -> In c D) -> In (next_ep nid ep nbs) D.
  Proof.
    intros Hep Hc. destruct nbs as [|a nbs]; [exact Hep|]. cbn [next_ep].
    destruct (N.eqb _ nid); [exact Hep|]. apply Hc. apply last_In. discriminate.
  Qed.

  Lemma do_at_level_total h nid q l ep vep :
    linking I nid l h -> unlinked_upto l nid h -> ep <> nid ->
    node_by_id h ep = Some vep -> l <= v_level vep ->
    lin h -> ldim h -> length q = n -> In nid D -> In ep D ->
    let r := do_at_level I h nid q l ep in
    (exists ep', snd r = Ok ep' /\ In ep' D) /\ lin (fst r) /\ ldim (fst r).
  Proof.
    intros Hlk Hu Hne Hep Hl HL HD Hq Hnid HepD.
    pose proof (do_at_level_inv I Hsc Hsym h nid q l ep vep Hlk Hu Hne Hep Hl) as (_ & R & NW & _).
    assert (HL' : lin (fst (do_at_level I h nid q l ep))).
    { eapply lin_newl; eauto. intros c [->|Hr]; [exact Hnid|eapply reach_D; eauto]. }
    assert (HD' : ldim (fst (do_at_level I h nid q l ep))) by (eapply ldim_lrel; eauto).
    split; [|split; auto]. clear HL' HD' R NW.
    destruct Hlk as [W S (vn & Hvn & Hln)] eqn:HH. clear HH.
    destruct (choose_total h nid q l ep vep) as (nbs & Ec); auto.
    destruct (choose_sound I Hsc Hsym _ _ _ _ _ _ _ _ W S Hu Hne Hep Hl Ec) as (_ & Hnd & Hin & Hre).
    unfold do_at_level. rewrite Ec, Hvn. unfold set_conns_at.
    pose proof (w_len _ W _ _ Hvn) as Hlen. pose proof (w_id _ W _ _ Hvn) as Hid.
    destruct (Nat.ltb_spec l (length (v_conns vn))) as [_|Hge]; [|lia].
    assert (Heq : put_node h (set_conns vn (upd (v_conns vn) l nbs)) =
              put_node h (set_conns (set_committed vn (v_committed vn)) (upd (v_conns vn) l nbs))) by reflexivity.
    assert (Hvn' : node_by_id h (v_id vn) = Some vn) by now rewrite Hid.
    pose proof (lrel_put h l vn nbs (v_committed vn) Hvn') as R1. rewrite <- Heq in R1.
    assert (W1 : winv (put_node h (set_conns vn (upd (v_conns vn) l nbs)))).
    { rewrite Heq. apply winv_put_conns; auto. rewrite Hid. exact Hin. }
    set (h1 := put_node h _) in *.
    assert (Hlk1 : linking I nid l h1).
    { constructor; auto.
      - eapply ids_small_lrel; eauto.
      - exists (set_conns vn (upd (v_conns vn) l nbs)). split; [|exact Hln].
        unfold h1. rewrite node_put. cbn [v_id set_conns]. now rewrite Hid, N.eqb_refl. }
    assert (HL1 : lin h1).
    { intros j v' l' cs2 c Hj Hc1 Hc2. unfold h1 in Hj. rewrite node_put in Hj. cbn [v_id set_conns] in Hj.
      destruct (N.eqb_spec j (v_id vn)) as [->|Hj2]; [|eapply HL; eauto].
      inversion Hj; subst v'. cbn in Hc1. rewrite nth_error_upd in Hc1.
      destruct (Nat.eqb_spec l l') as [<-|Hl']; [|eapply HL; eauto].
      destruct (Nat.ltb _ _); [|discriminate]. inversion Hc1; subst cs2. exact (reach_D h l ep c HL HepD (Hre c Hc2)). }
    assert (Ht : snd (connect_all I h1 nid l nbs) = Ok tt).
    { apply connect_all_total; auto. intros c Hc. destruct (Hin c Hc) as (Hcn & w & Hw & Hlw).
      split; [exact Hcn|]. split; [exact (reach_D h l ep c HL HepD (Hre c Hc))|].
      pose proof (w_len _ W _ _ Hw) as Hlw2.
      destruct (nth_error (v_conns w) l) as [cs|] eqn:En.
      2:{ apply nth_error_None in En. lia. }
      exists w, cs. unfold h1. rewrite node_put_ne by (cbn; congruence).
      repeat split; auto. eapply Hu; eauto. }
    destruct (connect_all I h1 nid l nbs) as [h2 [[]|e| |]]; cbn [snd] in *; try discriminate.
    exists (next_ep nid ep nbs). split; [reflexivity|]. apply next_ep_D; auto.
    intros c Hc. exact (reach_D h l ep c HL HepD (Hre c Hc)).
  Qed.

  Lemma connect_levels_total nid q l : forall h ep vep,
    linking I nid l h -> unlinked_upto l nid h -> ep <> nid ->
    node_by_id h ep = Some vep -> l <= v_level vep ->
    lin h -> ldim h -> length q = n -> In nid D -> In ep D ->
    let r := connect_levels I h nid q l ep in
    snd r = Ok tt /\ lin (fst r) /\ ldim (fst r).
  Proof.
    induction l as [|l IH]; intros h ep vep Hlk Hu Hne Hep Hl HL HD Hq Hnid HepD; cbn [connect_levels].
    - pose proof (do_at_level_total h nid q 0 ep vep Hlk Hu Hne Hep Hl HL HD Hq Hnid HepD)
        as ((ep' & He & Hd) & HL' & HD').
      destruct (do_at_level I h nid q 0 ep) as [h' [x|e| |]]; cbn [fst snd] in *; try discriminate. auto.
    - pose proof (do_at_level_total h nid q (S l) ep vep Hlk Hu Hne Hep Hl HL HD Hq Hnid HepD)
        as ((ep' & He & Hd) & HL' & HD').
      pose proof (do_at_level_inv I Hsc Hsym h nid q (S l) ep vep Hlk Hu Hne Hep Hl) as ([W1 S1 N1] & R1 & _ & Hok).
      destruct (do_at_level I h nid q (S l) ep) as [h' [x|e| |]]; cbn [fst snd] in *; try discriminate.
      inversion He; subst x. destruct (Hok ep' eq_refl) as (Hne' & v' & Hv' & Hl').
      apply (IH h' ep' v'); auto; try lia.
      + constructor; auto. destruct N1 as (v & Hv & Hlv). exists v. split; [auto|lia].
      + eapply unlinked_lrel; eauto. intros id v l2 cs Hv Hl2. eapply Hu; eauto.
  Qed.

  (** An insertion of the right dimension succeeds. *)
  Lemma insert_linked_total h id q t :
    winv h -> ids_small E h -> ep_top h -> unlinked id h -> h_ep h <> id -> (id < e_vcap E)%N ->
    (id < i_vcsize I)%N -> lin h ->
    (forall j v, In j D -> j <> id -> node_by_id h j = Some v -> length (v_vec v) = n) ->
    length q = n -> In id D -> In (h_ep h) D ->
    let r := insert_linked I h id q t in
    snd r = Ok tt /\ lin (fst r) /\ ldim (fst r).
  Proof.
    intros W S (vep & Hep & Hmax) Hu Hne Hsm Hvc HL HD Hq Hid HepD. unfold insert_linked.
    apply N.ltb_lt in Hvc. rewrite Hvc. cbn [negb].
    set (h1 := put_node h (new_vertex id q t)).
    assert (W1 : winv h1) by now apply winv_put_new.
    assert (S1 : ids_small E h1) by now apply ids_small_put.
    assert (U1 : unlinked id h1) by now apply unlinked_put_new.
    assert (Hep1 : node_by_id h1 (h_ep h) = Some vep).
    { unfold h1. rewrite node_put_ne; auto. }
    assert (Hn1 : node_by_id h1 id = Some (new_vertex id q t)) by (apply (node_put_eq h (new_vertex id q t))).
    assert (HL1 : lin h1).
    { intros j v l cs c. unfold h1. rewrite node_put. cbn [v_id new_vertex].
      destruct (N.eqb_spec j id) as [->|Hj]; [|apply HL].
      intros [= <-]. unfold new_vertex; cbn [v_conns]; intros Hx Hc. apply nth_error_In, repeat_spec in Hx.
      subst cs. destruct Hc. }
    assert (HD1 : ldim h1).
    { intros j v Hj. unfold h1. rewrite node_put. cbn [v_id new_vertex].
      destruct (N.eqb_spec j id) as [->|Hj2]; [|now apply HD]. intros [= <-]. exact Hq. }
    assert (Hb : exists ep, best_entrypoint I h1 q t (h_maxl h - t) (h_ep h) = Ok ep /\ In ep D).
    { destruct (Nat.leb_spec (h_maxl h) t) as [Hle|Hgt].
      - replace (h_maxl h - t) with 0 by lia. cbn. eauto.
      - eapply best_entrypoint_total; eauto. lia. }
    destruct Hb as (ep & Eb & HepD'). rewrite Eb.
    assert (Hbest : exists v', node_by_id h1 ep = Some v' /\ Nat.min t (h_maxl h) <= v_level v' /\ ep <> id).
    { destruct (Nat.leb_spec (h_maxl h) t) as [Hle|Hgt].
      - replace (h_maxl h - t) with 0 in Eb by lia. cbn in Eb. inversion Eb; subst.
        exists vep. repeat split; auto. lia.
      - destruct (best_entrypoint_sound I Hsc Hsym h1 q t (h_maxl h - t) (h_ep h) vep ep W1 S1 Hep1 ltac:(lia) Eb)
          as (v' & H1 & H2 & H3 & H4). exists v'. split; [exact H1|]. split; [lia|].
        destruct H4 as [->|(l & j & v & cs & _ & Hj & Hx & Hin)]; [exact Hne|].
        intros ->. eapply U1; eauto. }
    destruct Hbest as (vb & Hvb & Hlb & Hneb).
    assert (Hlk : linking I id (Nat.min t (h_maxl h)) h1).
    { constructor; auto. exists (new_vertex id q t). split; [exact Hn1|]. cbn. lia. }
    assert (Huu : unlinked_upto (Nat.min t (h_maxl h)) id h1) by (intros j v l cs Hv _; now apply (U1 j)).
    pose proof (connect_levels_total id q (Nat.min t (h_maxl h)) h1 ep vb Hlk Huu Hneb Hvb Hlb HL1 HD1 Hq Hid HepD')
      as (T2 & L2 & D2).
    pose proof (connect_levels_inv I Hsc Hsym id q (Nat.min t (h_maxl h)) h1 ep vb Hlk Huu Hneb Hvb Hlb) as (W2 & S2 & G2).
    destruct (connect_levels I h1 id q (Nat.min t (h_maxl h)) ep) as [h2 [[]|e| |]]; cbn [fst snd] in *; try discriminate.
    split; [reflexivity|].
    destruct (gr_fw _ _ G2 _ _ Hn1) as (vn & Hvn & Ln & Vn & Mn).
    pose proof (w_id _ W2 _ _ Hvn) as Hidn.
    unfold finish_insert. rewrite Hvn. set (h3 := put_node h2 (set_maint vn false)).
    assert (H3 : lin h3 /\ ldim h3).
    { split.
      - intros j v l cs c. unfold h3. rewrite node_put. cbn [v_id set_maint]. rewrite Hidn.
        destruct (N.eqb_spec j id) as [->|Hj]; [|apply L2].
        intros [= <-]. cbn. eapply L2; eauto.
      - intros j v Hj. unfold h3. rewrite node_put. cbn [v_id set_maint]. rewrite Hidn.
        destruct (N.eqb_spec j id) as [->|Hj2]; [|now apply D2].
        intros [= <-]. cbn. eapply D2; eauto. }
    destruct (Nat.ltb (h_maxl h3) t); exact H3.
  Qed.
End Total.

(** A vector of another dimension than the entry point's is rejected and only
    its own vertex is written. *)
Lemma insert_linked_mismatch I h id q t vep :
  prov_dim (e_prov (i_env I)) -> node_by_id h (h_ep h) = Some vep -> h_ep h <> id ->
  length q <> length (v_vec vep) -> (id < i_vcsize I)%N ->
  exists e, insert_linked I h id q t = (put_node h (new_vertex id q t), Err e).
Proof.
  intros Hdim Hep Hne Hlen Hvc. unfold insert_linked.
  apply N.ltb_lt in Hvc. rewrite Hvc. cbn [negb].
  set (h1 := put_node h (new_vertex id q t)).
  assert (Hep1 : node_by_id h1 (h_ep h) = Some vep) by (unfold h1; rewrite node_put_ne; auto).
  assert (Hd : exists e, dist_node_vec (e_prov (i_env I)) h1 (h_ep h) q = Err e).
  { unfold dist_node_vec. rewrite Hep1. destruct (v_vec vep) as [|x vv] eqn:Ev; [eauto|].
    destruct q as [|y q]; [eauto|].
    destruct (p_single _ (x :: vv) (y :: q)) as [d|] eqn:Ed; [|eauto].
    exfalso. apply Hlen. symmetry. apply Hdim. eauto. }
  destruct Hd as (e & Hd).
  destruct (h_maxl h - t) as [|k] eqn:Ek.
  - cbn [best_entrypoint].
    assert (Hc : forall l, do_at_level I h1 id q l (h_ep h) = (h1, Err e)).
    { intros l. unfold do_at_level, choose_neighbours. cbn [pick_ep]. rewrite Hep1, Hd. reflexivity. }
    destruct (Nat.min t (h_maxl h)) as [|l]; cbn [connect_levels]; rewrite Hc; eauto.
  - cbn [best_entrypoint]. rewrite Hd. cbn [bind]. eauto.
Qed.
