(** While there are at most maximumConnections vectors, the ground layer is a
    complete graph. *)
From Verif Require Import Base F32 PQ PQProofs Graph Search SearchProofs SearchLayer SearchKnn
  SearchCong Insert HeuristicProofs InsertProofs InsertHist InsertTotal InsertDim.

(** [a]'s ground-layer list contains [b]. *)
Definition glink (h : hnsw) (a b : N) : Prop :=
  exists v cs, node_by_id h a = Some v /\ nth_error (v_conns v) 0 = Some cs /\ In b cs.

(** Any two stored vertices other than [x] are linked on the ground layer. *)
Definition complete_but (x : option N) (h : hnsw) : Prop :=
  forall a b va vb, node_by_id h a = Some va -> node_by_id h b = Some vb -> a <> b ->
    Some a <> x -> Some b <> x -> glink h a b.

Lemma glink_lrel l h h' a b : lrel (S l) h h' -> glink h a b -> glink h' a b.
Proof.
  intros R (v & cs & Hv & Hl & Hin). destruct (lr_fw _ _ _ R _ _ Hv) as (v' & Hv' & _ & _ & _ & Hc).
  exists v', cs. rewrite Hc by lia. auto.
Qed.

Lemma complete_lrel l x h h' : lrel (S l) h h' -> complete_but x h -> complete_but x h'.
Proof.
  intros R Hc a b va vb Ha Hb Hne Hax Hbx.
  destruct (lr_bw _ _ _ R _ _ Ha) as (va0 & Ha0). destruct (lr_bw _ _ _ R _ _ Hb) as (vb0 & Hb0).
  eapply glink_lrel; eauto.
Qed.

Section Small.
  Variable I : ienv.
  Local Notation E := (i_env I).
  Local Notation P := (e_prov (i_env I)).
  Hypothesis Hsc : sched_ok E.
  Hypothesis Hsym : prov_sym P.
  Hypothesis Hdim : prov_dim P.
  Variable n : nat.
  Hypothesis Hn : 0 < n.
  Variable D : list N.
  Hypothesis HM : length D <= i_M I.
  Hypothesis Hefc : (Z.of_nat (i_M I) <= i_efc I)%Z.

  (** The new vertex is appended to a short list. *)
  Lemma connect_neighbor_short h nid l nb v cs :
    h_tomb h = [] -> nb <> nid -> node_by_id h nb = Some v -> v_id v = nb -> l <= v_level v ->
    nth_error (v_conns v) l = Some cs -> length cs < max_conns I l ->
    exists h', connect_neighbor I h nid l nb = (h', Ok tt) /\
      (forall j, j <> nb -> node_by_id h' j = node_by_id h j) /\
      node_by_id h' nb = Some (set_conns (set_committed v false) (upd (v_conns v) l (cs ++ [nid]))).
  Proof.
    intros HT Hne Hv Hid Hl Hcs Hlen. unfold connect_neighbor. rewrite Hv.
    destruct (N.eqb_spec nb nid) as [|_]; [contradiction|].
    unfold has_tombstone. rewrite HT. cbn [memN existsb v_level set_committed].
    destruct (Nat.ltb_spec (v_level v) l) as [Hlt|_]; [lia|].
    unfold conns_at. cbn [v_conns set_committed]. rewrite Hcs.
    apply Nat.ltb_lt in Hlen. rewrite Hlen.
    unfold append_conn_at. cbn [v_conns set_committed]. rewrite Hcs.
    eexists. split; [reflexivity|]. split.
    - intros j Hj. rewrite !node_put_ne by (cbn; congruence). reflexivity.
    - rewrite node_put. cbn [v_id set_conns set_committed]. rewrite Hid, N.eqb_refl. reflexivity.
  Qed.

  Lemma connect_all_short nid l nbs : forall h,
    linking I nid l h -> h_tomb h = [] -> NoDup nbs -> lin D h -> In nid D ->
    (forall c, In c nbs -> c <> nid /\ In c D /\ exists v cs, node_by_id h c = Some v /\ l <= v_level v /\
       nth_error (v_conns v) l = Some cs /\ ~ In nid cs) ->
    exists h', connect_all I h nid l nbs = (h', Ok tt) /\
      (forall j, ~ In j nbs -> node_by_id h' j = node_by_id h j) /\
      (forall c, In c nbs -> exists v cs v' cs', node_by_id h c = Some v /\ nth_error (v_conns v) l = Some cs /\
         node_by_id h' c = Some v' /\ nth_error (v_conns v') l = Some cs' /\ In nid cs' /\ incl cs cs').
  Proof.
    induction nbs as [|nb nbs IH]; intros h Hlk HT Hnd HL Hnid Hc; cbn [connect_all].
    { exists h. split; [reflexivity|]. split; [auto|]. intros c []. }
    inversion Hnd as [|x y Hni Hnd']; subst.
    destruct (Hc nb (or_introl eq_refl)) as (Hne & HnD & v & cs & Hv & Hl & Hcs & Hnin).
    pose proof (connect_neighbor_inv I h nid l nb v cs Hlk Hne Hv Hl Hcs Hnin) as (L1 & R1 & E1 & O1).
    assert (Hlen : length cs < max_conns I l).
    { assert (length cs < length D).
      { apply (subset_length I n Hn D (or_intror HM) cs nid); auto.
        - eapply (w_nodup _ (lk_w _ _ _ _ Hlk)); eauto.
        - intros c Hcc. eapply HL; eauto. }
      unfold max_conns. destruct l; lia. }
    destruct (connect_neighbor_short h nid l nb v cs HT Hne Hv (w_id _ (lk_w _ _ _ _ Hlk) _ _ Hv) Hl Hcs Hlen)
      as (h1 & Hcn & Ho & Hnb).
    rewrite Hcn in *. cbn [fst] in *.
    assert (HT1 : h_tomb h1 = []) by (rewrite (proj1 (lr_tomb _ _ _ R1)); exact HT).
    assert (HL1 : lin D h1) by (eapply lin_newl; eauto; intros c <-; exact Hnid).
    destruct (IH h1 L1 HT1 Hnd' HL1 Hnid) as (h2 & Hca & H1 & H2).
    { intros c Hin. destruct (Hc c (or_intror Hin)) as (Hne' & HcD & v' & cs' & Hv' & R).
      split; [exact Hne'|]. split; [exact HcD|]. exists v', cs'. rewrite Ho by (intros ->; contradiction). auto. }
    exists h2. split; [exact Hca|]. split.
    - intros j Hj. rewrite H1 by (intros Hin; apply Hj; now right). apply Ho. intros ->. apply Hj. now left.
    - intros c [<-|Hin].
      + exists v, cs, (set_conns (set_committed v false) (upd (v_conns v) l (cs ++ [nid]))), (cs ++ [nid]).
        split; [exact Hv|]. split; [exact Hcs|]. split; [rewrite H1 by exact Hni; exact Hnb|].
        cbn [v_conns set_conns]. split.
        { apply nth_error_upd_eq. apply nth_error_Some. congruence. }
        split; [apply in_or_app; right; now left|]. apply incl_appl, incl_refl.
      + destruct (H2 c Hin) as (v0 & cs0 & v1 & cs1 & A1 & A2 & A3). exists v0, cs0, v1, cs1.
        rewrite Ho in A1 by (intros ->; contradiction). auto.
  Qed.

  (** On a complete ground layer all stored vertices are chosen. *)
  Lemma choose_all h nid q ep vep :
    winv h -> ids_small E h -> lin D h -> (forall j v, node_by_id h j = Some v -> In j D /\ length (v_vec v) = n) ->
    length q = n -> In nid D -> h_tomb h = [] ->
    unlinked_upto 0 nid h -> ep <> nid -> node_by_id h ep = Some vep ->
    complete_but (Some nid) h ->
    exists nbs, choose_neighbours I h nid q 0 ep = Ok (ep, nbs) /\
      (forall c v, node_by_id h c = Some v -> c <> nid -> In c nbs).
  Proof.
    intros W Hs HL HD Hq Hnid HT Hu Hne Hep Hco.
    assert (HD' : ldim n D h) by (intros j v _ Hj; exact (proj2 (HD j v Hj))).
    assert (HepD : In ep D) by exact (proj1 (HD _ _ Hep)).
    unfold choose_neighbours. cbn [pick_ep]. rewrite Hep.
    destruct (dist_node_vec_total I Hdim n Hn h ep vep q Hep (HD' _ _ HepD Hep) Hq) as (d & Hd). rewrite Hd.
    cbn [bind fst snd]. apply dist_node_vec_spec in Hd; [|exact Hsym].
    destruct (layer_total E h q (i_efc I) 0 None (mkItem ep d) Hsc (winv_wf n Hn h W) Hd) as (r & Hr).
    rewrite Hr. cbn [bind].
    destruct (layer_sound E h q (i_efc I) 0 None (mkItem ep d) r Hsc Hd) as (Hin & Hnd & _); auto.
    { eapply Hs; eauto. }
    assert (Hlen : length r < i_M I).
    { enough (length (map it_id r) < length D) by (rewrite map_length in *; lia).
      apply (subset_length I n Hn D (or_intror HM) _ nid); auto.
      - intros id Hid. apply in_map_iff in Hid. destruct Hid as (x & <- & Hx).
        destruct (Hin x Hx) as (_ & Hre & _). exact (reach_D D h 0 ep (it_id x) HL HepD Hre).
      - intros Hid. apply in_map_iff in Hid. destruct Hid as (x & E & Hx).
        destruct (Hin x Hx) as (_ & Hre & _).
        exact (reach_not_new h 0 ep (it_id x) nid Hu Hne Hre E). }
    unfold heuristic. apply Nat.ltb_lt in Hlen. rewrite Hlen. cbn [bind]. eexists. split; [reflexivity|].
    intros c v Hc Hcn.
    assert (Hq2 : exists dc, p_query P q (v_vec v) = Some dc).
    { destruct (proj1 (Hdim (v_vec v) q)) as (dc & Hdc); [rewrite Hq; apply (HD c v Hc)|].
      exists dc. rewrite <- Hdc. symmetry. apply Hsym. }
    destruct Hq2 as (dc & Hdc).
    assert (Hre : reach h 0 ep c).
    { destruct (N.eq_dec ep c) as [->|Hec]; [constructor|].
      destruct (Hco ep c vep v Hep Hc Hec) as (v0 & cs & H0 & Hcs & Hi); try congruence.
      eapply reach_step; [constructor|exact H0|lia|exact Hcs|exact Hi]. }
    apply drain_ids_In. change c with (it_id (mkItem c dc)). apply in_map.
    apply (layer_exhaustive E h q (i_efc I) 0 None (mkItem ep d) r D Hsc Hd); auto.
    - eapply Hs; eauto.
    - intros id w Hw. destruct (proj1 (Hdim (v_vec w) q)) as (dw & Hdw); [rewrite Hq; apply (HD id w Hw)|].
      exists dw. rewrite <- Hdw. symmetry. apply Hsym.
    - intros id d2 Hr2 _. cbn in Hr2. exact (reach_D D h 0 ep id HL HepD Hr2).
    - lia.
    - exists v. auto.
    - split; [|reflexivity]. unfold has_tombstone. rewrite HT. reflexivity.
  Qed.

  Lemma do_at_level_complete h nid q ep vep :
    linking I nid 0 h -> unlinked_upto 0 nid h -> ep <> nid ->
    node_by_id h ep = Some vep -> lin D h ->
    (forall j v, node_by_id h j = Some v -> In j D /\ length (v_vec v) = n) ->
    length q = n -> h_tomb h = [] -> complete_but (Some nid) h ->
    complete_but None (fst (do_at_level I h nid q 0 ep)).
  Proof.
    intros Hlk Hu Hne Hep HL HD Hq HT Hco.
    pose proof Hlk as [W S (vn & Hvn & Hln)].
    assert (Hnid : In nid D) by exact (proj1 (HD _ _ Hvn)).
    destruct (choose_all h nid q ep vep W S HL HD Hq Hnid HT Hu Hne Hep Hco) as (nbs & Ec & Hall).
    destruct (choose_sound I Hsc Hsym _ _ _ _ _ _ _ _ W S Hu Hne Hep (Nat.le_0_l _) Ec) as (_ & Hnd & Hin & Hre).
    unfold do_at_level. rewrite Ec, Hvn. unfold set_conns_at.
    pose proof (w_len _ W _ _ Hvn) as Hlen. pose proof (w_id _ W _ _ Hvn) as Hid.
    destruct (Nat.ltb_spec 0 (length (v_conns vn))) as [_|Hge]; [|lia].
    assert (Heq : put_node h (set_conns vn (upd (v_conns vn) 0 nbs)) =
              put_node h (set_conns (set_committed vn (v_committed vn)) (upd (v_conns vn) 0 nbs))) by reflexivity.
    assert (Hvn' : node_by_id h (v_id vn) = Some vn) by now rewrite Hid.
    pose proof (lrel_put h 0 vn nbs (v_committed vn) Hvn') as R1. rewrite <- Heq in R1.
    assert (W1 : winv (put_node h (set_conns vn (upd (v_conns vn) 0 nbs)))).
    { rewrite Heq. apply winv_put_conns; auto. rewrite Hid. exact Hin. }
    set (h1 := put_node h _) in *.
    assert (Hn1 : node_by_id h1 nid = Some (set_conns vn (upd (v_conns vn) 0 nbs))).
    { unfold h1. rewrite node_put. cbn [v_id set_conns]. now rewrite Hid, N.eqb_refl. }
    assert (Ho1 : forall j, j <> nid -> node_by_id h1 j = node_by_id h j).
    { intros j Hj. unfold h1. apply node_put_ne. cbn. congruence. }
    assert (Hlk1 : linking I nid 0 h1).
    { constructor; auto; [eapply ids_small_lrel; eauto|]. exists (set_conns vn (upd (v_conns vn) 0 nbs)). auto. }
    assert (HnbD : forall c, In c nbs -> In c D).
    { intros c Hc. destruct (Hin c Hc) as (_ & w & Hw & _). exact (proj1 (HD _ _ Hw)). }
    assert (HL1 : lin D h1).
    { intros j v' l' cs2 c Hj Hc1 Hc2. unfold h1 in Hj. rewrite node_put in Hj. cbn [v_id set_conns] in Hj.
      destruct (N.eqb_spec j (v_id vn)) as [->|Hj2]; [|eapply HL; eauto].
      inversion Hj; subst v'. cbn [v_conns set_conns] in Hc1. rewrite nth_error_upd in Hc1.
      destruct (Nat.eqb_spec 0 l') as [<-|Hl']; [|eapply HL; eauto].
      destruct (Nat.ltb _ _); [|discriminate]. inversion Hc1; subst cs2. auto. }
    destruct (connect_all_short nid 0 nbs h1 Hlk1) as (h2 & Hca & Hout & Hinn); auto.
    { intros c Hc. destruct (Hin c Hc) as (Hcn & w & Hw & Hlw). split; [exact Hcn|]. split; [auto|].
      pose proof (w_len _ W _ _ Hw) as Hlw2.
      destruct (nth_error (v_conns w) 0) as [cs|] eqn:En.
      2:{ apply nth_error_None in En. lia. }
      exists w, cs. rewrite Ho1 by exact Hcn. repeat split; auto. eapply Hu; eauto. }
    rewrite Hca. cbn [fst].
    assert (Hst : forall j v, node_by_id h2 j = Some v -> exists v0, node_by_id h j = Some v0).
    { intros j v Hj. destruct (in_dec N.eq_dec j nbs) as [Hi|Hi].
      - destruct (Hin j Hi) as (_ & w & Hw & _). eauto.
      - rewrite (Hout j Hi) in Hj. destruct (N.eq_dec j nid) as [->|Hjn]; [eauto|]. rewrite (Ho1 j Hjn) in Hj. eauto. }
    intros a b va vb Ha Hb Hab _ _.
    destruct (Hst a va Ha) as (va0 & Ha0). destruct (Hst b vb Hb) as (vb0 & Hb0).
    destruct (N.eq_dec a nid) as [->|Han].
    - assert (Hni : ~ In nid nbs) by (intros Hi; destruct (Hin nid Hi) as [Hx _]; congruence).
      rewrite (Hout nid Hni), Hn1 in Ha. inversion Ha; subst va.
      exists (set_conns vn (upd (v_conns vn) 0 nbs)), nbs.
      split; [rewrite (Hout nid Hni); exact Hn1|]. split; [cbn [v_conns set_conns]; apply nth_error_upd_eq; lia|].
      eapply Hall; eauto.
    - assert (Hanb : In a nbs) by (eapply Hall; eauto).
      destruct (Hinn a Hanb) as (v & cs & v' & cs' & B1 & B2 & B3 & B4 & B5 & B6).
      exists v', cs'. split; [exact B3|]. split; [exact B4|].
      destruct (N.eq_dec b nid) as [->|Hbn]; [exact B5|]. apply B6.
      destruct (Hco a b va0 vb0 Ha0 Hb0 Hab) as (v0 & cs0 & C1 & C2 & C3); try congruence.
      rewrite (Ho1 a Han) in B1. rewrite C1 in B1. inversion B1; subst v0. rewrite C2 in B2. inversion B2; subst. exact C3.
  Qed.

  Lemma connect_levels_complete nid q l : forall h ep vep,
    linking I nid l h -> unlinked_upto l nid h -> ep <> nid ->
    node_by_id h ep = Some vep -> l <= v_level vep -> lin D h ->
    (forall j v, node_by_id h j = Some v -> In j D /\ length (v_vec v) = n) ->
    length q = n -> h_tomb h = [] -> complete_but (Some nid) h ->
    complete_but None (fst (connect_levels I h nid q l ep)).
  Proof.
    induction l as [|l IH]; intros h ep vep Hlk Hu Hne Hep Hl HL HD Hq HT Hco; cbn [connect_levels].
    - pose proof (do_at_level_complete h nid q ep vep Hlk Hu Hne Hep HL HD Hq HT Hco) as H.
      destruct (do_at_level I h nid q 0 ep) as [h' [x|e| |]]; exact H.
    - assert (HDl : ldim n D h) by (intros j v _ Hj; exact (proj2 (HD j v Hj))).
      assert (Hnid : In nid D).
      { destruct (lk_n _ _ _ _ Hlk) as (vn & Hvn & _). exact (proj1 (HD _ _ Hvn)). }
      assert (HepD : In ep D) by exact (proj1 (HD _ _ Hep)).
      pose proof (do_at_level_total I Hsc Hsym Hdim n Hn D (or_intror HM) h nid q (S l) ep vep
                    Hlk Hu Hne Hep Hl HL HDl Hq Hnid HepD) as ((ep' & He & HepD') & HL' & HD').
      pose proof (do_at_level_inv I Hsc Hsym h nid q (S l) ep vep Hlk Hu Hne Hep Hl) as ([W1 S1 N1] & R1 & _ & Hok).
      destruct (do_at_level I h nid q (S l) ep) as [h' [x|e| |]]; cbn [fst snd] in *; try discriminate.
      inversion He; subst x. destruct (Hok ep' eq_refl) as (Hne' & v' & Hv' & Hl').
      apply (IH h' ep' v'); auto; try lia.
      + constructor; auto. destruct N1 as (v & Hv & Hlv). exists v. split; [auto|lia].
      + eapply unlinked_lrel; eauto. intros id v l2 cs Hv Hl2. eapply Hu; eauto.
      + intros j v Hj. destruct (lr_bw _ _ _ R1 _ _ Hj) as (v0 & H0). pose proof (proj1 (HD _ _ H0)) as HjD.
        split; [exact HjD|exact (HD' j v HjD Hj)].
      + rewrite (proj1 (lr_tomb _ _ _ R1)). exact HT.
      + eapply complete_lrel; eauto.
  Qed.

  Lemma insert_linked_complete h id q t :
    winv h -> ids_small E h -> ep_top h -> unlinked id h -> h_ep h <> id -> (id < e_vcap E)%N ->
    (id < i_vcsize I)%N -> lin D h ->
    (forall j v, node_by_id h j = Some v -> In j D /\ j <> id /\ length (v_vec v) = n) ->
    length q = n -> In id D -> h_tomb h = [] -> complete_but None h ->
    complete_but None (fst (insert_linked I h id q t)).
  Proof.
    intros W S (vep & Hep & Hmax) Hu Hne Hsm Hvc HL HD Hq Hid HT Hco. unfold insert_linked.
    apply N.ltb_lt in Hvc. rewrite Hvc. cbn [negb].
    set (h1 := put_node h (new_vertex id q t)).
    assert (W1 : winv h1) by now apply winv_put_new.
    assert (S1 : ids_small E h1) by now apply ids_small_put.
    assert (U1 : unlinked id h1) by now apply unlinked_put_new.
    assert (Hep1 : node_by_id h1 (h_ep h) = Some vep).
    { unfold h1. rewrite node_put_ne; auto. }
    assert (Hn1 : node_by_id h1 id = Some (new_vertex id q t)) by (apply (node_put_eq h (new_vertex id q t))).
    assert (HL1 : lin D h1).
    { intros j v l cs c. unfold h1. rewrite node_put. cbn [v_id new_vertex].
      destruct (N.eqb_spec j id) as [->|Hj]; [|apply HL].
      intros [= <-]. unfold new_vertex; cbn [v_conns]; intros Hx Hc. apply nth_error_In, repeat_spec in Hx.
      subst cs. destruct Hc. }
    assert (HD1 : forall j v, node_by_id h1 j = Some v -> In j D /\ length (v_vec v) = n).
    { intros j v. unfold h1. rewrite node_put. cbn [v_id new_vertex].
      destruct (N.eqb_spec j id) as [->|Hj2]; [intros [= <-]; auto|].
      intros Hj. destruct (HD j v Hj) as (A1 & _ & A2). auto. }
    assert (HDl : ldim n D h1) by (intros j v _ Hj; exact (proj2 (HD1 j v Hj))).
    assert (HepD : In (h_ep h) D) by exact (proj1 (HD1 _ _ Hep1)).
    assert (Hco1 : complete_but (Some id) h1).
    { intros a b va vb Ha Hb Hab Hax Hbx. unfold h1 in Ha, Hb.
      rewrite node_put_ne in Ha, Hb by (cbn; congruence).
      destruct (Hco a b va vb Ha Hb Hab) as (v & cs & B1 & B2 & B3); try discriminate.
      exists v, cs. split; [|auto]. unfold h1. rewrite node_put_ne; [exact B1|cbn; congruence]. }
    assert (Hb : exists ep, best_entrypoint I h1 q t (h_maxl h - t) (h_ep h) = Ok ep /\ In ep D).
    { destruct (Nat.leb_spec (h_maxl h) t) as [Hle|Hgt].
      - replace (h_maxl h - t) with 0 by lia. cbn. eauto.
      - eapply (best_entrypoint_total I Hsc Hsym Hdim n Hn D); eauto. lia. }
    destruct Hb as (ep & Eb & HepD'). rewrite Eb.
    assert (Hbest : exists v', node_by_id h1 ep = Some v' /\ Nat.min t (h_maxl h) <= v_level v' /\ ep <> id).
    { destruct (Nat.leb_spec (h_maxl h) t) as [Hle|Hgt].
      - replace (h_maxl h - t) with 0 in Eb by lia. cbn in Eb. inversion Eb; subst.
        exists vep. repeat split; auto. lia.
      - destruct (best_entrypoint_sound I Hsc Hsym h1 q t (h_maxl h - t) (h_ep h) vep ep W1 S1 Hep1 ltac:(lia) Eb)
          as (v' & H1 & H2 & H3 & H4). exists v'. split; [exact H1|]. split; [lia|].
        destruct H4 as [->|(l & j & v & cs & _ & Hj & Hx & Hin)]; [exact Hne|].
        intros ->. eapply U1; eauto. }
    destruct Hbest as (vb & Hvb & Hlb & Hneb).
    assert (Hlk : linking I id (Nat.min t (h_maxl h)) h1).
    { constructor; auto. exists (new_vertex id q t). split; [exact Hn1|]. cbn. lia. }
    assert (Huu : unlinked_upto (Nat.min t (h_maxl h)) id h1) by (intros j v l cs Hv _; now apply (U1 j)).
    pose proof (connect_levels_complete id q (Nat.min t (h_maxl h)) h1 ep vb Hlk Huu Hneb Hvb Hlb HL1 HD1 Hq HT Hco1) as C2.
    pose proof (connect_levels_inv I Hsc Hsym id q (Nat.min t (h_maxl h)) h1 ep vb Hlk Huu Hneb Hvb Hlb) as (W2 & _).
    destruct (connect_levels I h1 id q (Nat.min t (h_maxl h)) ep) as [h2 [[]|e| |]]; cbn [fst] in *; auto.
    unfold finish_insert. destruct (node_by_id h2 id) as [vn|] eqn:Hvn.
    2:{ destruct (Nat.ltb (h_maxl h2) t); exact C2. }
    set (h3 := put_node h2 (set_maint vn false)).
    pose proof (w_id _ W2 _ _ Hvn) as Hidn.
    assert (C3 : complete_but None h3).
    { intros a b va vb2 Ha Hb Hab _ _.
      assert (Hold : forall j v, node_by_id h3 j = Some v -> exists v0, node_by_id h2 j = Some v0).
      { intros j v. unfold h3. rewrite node_put. cbn [v_id set_maint]. rewrite Hidn.
        destruct (N.eqb_spec j id) as [->|]; eauto. }
      destruct (Hold _ _ Ha) as (va0 & Ha0). destruct (Hold _ _ Hb) as (vb0 & Hb0).
      destruct (C2 a b va0 vb0 Ha0 Hb0 Hab) as (v & cs & B1 & B2 & B3); try discriminate.
      unfold h3. exists (if N.eqb a id then set_maint v false else v), cs.
      rewrite node_put. cbn [v_id set_maint]. rewrite Hidn.
      destruct (N.eqb_spec a id) as [->|]; [|auto]. rewrite Hvn in B1. inversion B1; subst. auto. }
    destruct (Nat.ltb (h_maxl h3) t); exact C3.
  Qed.
End Small.

(** State after the insertion of [done] (at most [i_M] vectors of dimension
    [n]) into an empty index. *)
Record sstate (n : nat) (cap : N) (done : list aop) (h : hnsw) : Prop := {
  ss_d : exists D, incl D (map a_id done) /\ dstate n cap D done h /\
    (forall j v, node_by_id h j = Some v -> In j D);
  ss_c : complete_but None h
}.

(** Requirements on one call for a collection of at most [M] vectors of
    dimension [n]. *)
Definition small_op (n M : nat) (cap : N) (o : aop) : Prop :=
  dop_ok cap o /\ length (a_vec o) = n /\ (a_id o < i_vcsize (a_env o))%N /\
  i_M (a_env o) = M /\ (Z.of_nat M <= i_efc (a_env o))%Z.

Lemma add_small n M cap done h o :
  0 < n -> sstate n cap done h -> small_op n M cap o -> ~ In (a_id o) (map a_id done) ->
  length done < M ->
  let r := add (a_env o) h (a_id o) (a_vec o) (a_lvl o) in
  snd r = Ok tt /\ sstate n cap (done ++ [o]) (fst r).
Proof.
  intros Hn [(D & HDi & Hd & HDs) Hc] (Hdop & Hlen & Hvc & HM & Hefc) Hni Hlt.
  assert (HniD : ~ In (a_id o) D) by (intros H; apply Hni; auto).
  assert (HlD : length D <= length done).
  { rewrite <- (map_length a_id done). apply NoDup_incl_length; [apply (d_nd _ _ _ _ _ Hd)|exact HDi]. }
  assert (Hsrc : src_ok n (a_id o :: D) (a_env o)) by (right; rewrite HM; cbn; lia).
  destruct (add_right n cap D done h o Hd Hdop Hn Hlen HniD) as (D' & H1 & H2 & H3 & H4).
  specialize (H4 Hvc Hsrc). cbv zeta in H3, H4 |- *. split; [exact H4|]. rewrite H4 in H3.
  pose proof Hdop as ((Hsc & Hsym & Hcap & Hidc) & Hdim & Hpl).
  pose proof Hd as [W S Nd L Dm EpD (vep & Hep & Hml) Su O T K].
  assert (S' : ids_small (i_env (a_env o)) (with_once h)).
  { unfold ids_small. rewrite Hcap. exact S. }
  assert (W' : winv (with_once h)) by (apply (winv_ext h); [reflexivity|exact W]).
  assert (Ep' : ep_top (with_once h)) by (exists vep; cbn; split; [exact Hep|lia]).
  assert (Hu : unlinked (a_id o) (with_once h)).
  { intros j v l cs Hj Hl Hin. apply HniD. eapply L; eauto. }
  assert (Hne : h_ep (with_once h) <> a_id o) by (intros E; apply HniD; rewrite <- E; exact EpD).
  assert (L' : lin (a_id o :: D) (with_once h)).
  { intros j v l cs c Hj Hl Hin. right. eapply L; eauto. }
  unfold add in *. destruct (a_vec o) as [|x q0] eqn:Eq; [cbn in Hlen; lia|]. rewrite <- Eq in *.
  unfold insert in *. rewrite O in *. cbn [negb andb] in *.
  set (q := p_normalize _ _) in *.
  assert (Hq : length q = n) by (unfold q; now rewrite Hpl).
  assert (Hidc' : (a_id o < e_vcap (i_env (a_env o)))%N) by now rewrite Hcap.
  pose proof (insert_linked_inv (a_env o) Hsc Hsym (with_once h) (a_id o) q (a_lvl o)
                W' S' Ep' Hu Hne Hidc') as (W2 & S2 & Ep2 & A2 & _).
  constructor.
  - exists D'. split.
    { intros j Hj. rewrite map_app, in_app_iff. apply H2 in Hj. cbn. destruct Hj as [<-|Hj]; auto. }
    split; [exact H3|]. intros j v Hj.
    destruct (N.eq_dec j (a_id o)) as [->|Hjo].
    + assert (HH : In o (done ++ [o])) by (apply in_or_app; right; now left).
      exact (proj1 (proj2 (d_succ _ _ _ _ _ H3 o HH))).
    + destruct (ar_bw _ _ _ A2 j v Hjo Hj) as (v0 & Hv0). apply H1. eapply HDs. exact Hv0.
  - apply (insert_linked_complete (a_env o) Hsc Hsym Hdim n Hn (a_id o :: D)); auto.
    + rewrite HM. cbn. lia.
    + rewrite HM. exact Hefc.
    + intros j v Hj. change (node_by_id h j = Some v) in Hj. pose proof (HDs j v Hj) as HjD.
      split; [now right|]. split; [intros ->; contradiction|]. eapply Dm; eauto.
    + now left.
Qed.

Lemma run_small n M cap ops : 0 < n -> forall h done,
  sstate n cap done h -> Forall (small_op n M cap) ops -> NoDup (map a_id (done ++ ops)) ->
  length (done ++ ops) <= M ->
  let r := run_adds h ops in
  Forall (fun x => x = Ok tt) (snd r) /\ sstate n cap (done ++ ops) (fst r).
Proof.
  intros Hn. induction ops as [|o ops IH]; intros h done Hst Hok Hnd Hlen; cbn [run_adds].
  { rewrite app_nil_r. split; [constructor|exact Hst]. }
  inversion Hok as [|? ? Ho Hok']; subst. rewrite app_length in Hlen. cbn in Hlen.
  assert (Hni : ~ In (a_id o) (map a_id done)).
  { rewrite map_app in Hnd. cbn in Hnd. apply NoDup_remove_2 in Hnd. intros H. apply Hnd, in_or_app. auto. }
  destruct (add_small n M cap done h o Hn Hst Ho Hni ltac:(lia)) as [E1 S1].
  set (r := add (a_env o) h (a_id o) (a_vec o) (a_lvl o)) in *. cbn [fst snd].
  destruct (IH (fst r) (done ++ [o]) S1 Hok') as [E2 S2].
  { now rewrite <- app_assoc. }
  { rewrite <- app_assoc, app_length. cbn. lia. }
  rewrite <- app_assoc in S2. split; [constructor; auto|exact S2].
Qed.

Lemma run_small_from_empty n M cap ops :
  0 < n -> Forall (small_op n M cap) ops -> NoDup (map a_id ops) -> length ops <= M ->
  let r := run_adds empty_index ops in
  Forall (fun x => x = Ok tt) (snd r) /\ (ops <> [] -> sstate n cap ops (fst r)).
Proof.
  intros Hn Hok Hnd Hlen. destruct ops as [|o ops]; [split; [constructor|congruence]|].
  inversion Hok as [|? ? Ho Hok']; subst. pose proof Ho as (Hdop & Hl & Hvc & _).
  assert (Hne : a_vec o <> []) by (destruct (a_vec o); [cbn in Hl; lia|discriminate]).
  destruct (add_first cap empty_index o pristine_empty_index eq_refl Hdop Hne) as (Hd & Hr & Honly).
  specialize (Hr Hvc). cbv zeta in Hd, Hr, Honly. cbn [run_adds].
  set (r := add (a_env o) empty_index (a_id o) (a_vec o) (a_lvl o)) in *. cbn [fst snd].
  rewrite Hr in Hd. rewrite Hl in Hd.
  assert (Hst : sstate n cap [o] (fst r)).
  { constructor.
    - exists [a_id o]. split; [cbn; apply incl_refl|]. split; [exact Hd|].
      intros j v Hj. left. symmetry. apply Honly. congruence.
    - intros a b va vb Ha Hb Hab _ _. exfalso. apply Hab.
      rewrite (Honly a), (Honly b) by congruence. reflexivity. }
  destruct (run_small n M cap ops Hn (fst r) [o] Hst Hok' Hnd Hlen) as [E2 S2].
  split; [constructor; auto|]. intros _. exact S2.
Qed.

(** What is stored after such a history. *)
Lemma sstate_stored n cap ops h : sstate n cap ops h ->
  (forall o, In o ops -> exists v, node_by_id h (a_id o) = Some v /\
     v_vec v = p_normalize (e_prov (i_env (a_env o))) (a_vec o)) /\
  (forall j v, node_by_id h j = Some v -> exists o, In o ops /\ a_id o = j).
Proof.
  intros [(D & HDi & Hd & HDs) _]. split.
  - intros o Ho. destruct (d_succ _ _ _ _ _ Hd o Ho) as (_ & _ & v & Hv & _ & Hvec & _). eauto.
  - intros j v Hj. apply HDs, HDi, in_map_iff in Hj. destruct Hj as (o & E & Ho). eauto.
Qed.
