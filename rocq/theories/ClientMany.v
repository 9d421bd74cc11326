(** Histories of requests with up to 61 documents: several add requests, queries,
    reads and restarts in between, then an exact answer. *)
From Coq Require Import String Sorted.
From Verif Require Import Base F32 PQ PQProofs Graph Search SearchProofs SearchLayer SearchKnn
  SearchCong Insert HeuristicProofs InsertProofs InsertHist InsertTotal InsertDim InsertSmall InsertFacts InsertFind
  Distancer DistancerProofs PropDistancer TestGraph TestInsert PropSearch PropInsert PropFind
  Persist PersistProofs PersistHist LRU LRUProofs PropPersist InsertRestart Collections
  Client ClientProofs ClientSafe ClientFacts ClientReq PropClient VCache VCacheProofs VCacheFacts ClientIds ClientSmall.

(** As [find_call]; the vector source knows [ids], or there are at most [M] of them
    (then it is not asked). *)
Definition many_call (n M : nat) (cap : N) (ids : list N) (o : aop) : Prop :=
  call_ok cap o /\ length (a_vec o) = n /\ (a_id o < i_vcsize (a_env o))%N /\
  i_M (a_env o) = M /\ (1 <= i_efc (a_env o))%Z /\
  ((forall l ow id, In id ids -> exists w, i_vs (a_env o) l ow id = Ok w /\ length w = n) \/ length ids <= M).

(** The index between two calls. *)
Record mgraph (n : nat) (cap : N) (done : list aop) (D : list N) (h : hnsw) : Prop := {
  mg_in : incl D (map a_id done);
  mg_all : forall j v, node_by_id h j = Some v -> In j D;
  mg_t : h_tomb h = [];
  mg_m : mutual h;
  mg_g : grounded None h
}.

Lemma glink_content h h' a b : (forall id, content h' id = content h id) -> glink h' a b -> glink h a b.
Proof.
  intros Hc (v & cs & Hv & Hcs & Hb). specialize (Hc a). unfold content in Hc. rewrite Hv in Hc.
  destruct (node_by_id h a) as [w|] eqn:Hw; [|discriminate]. cbn in Hc. injection Hc as _ C2 _ _. exists w, cs. rewrite <- C2. auto.
Qed.
Lemma mgraph_content n cap done D h h' : (forall id, content h' id = content h id) -> h_tomb h' = [] ->
  mgraph n cap done D h -> mgraph n cap done D h'.
Proof.
  intros Hc Ht [H1 H2 _ Hm Hg].
  assert (Hc' : forall id, content h id = content h' id) by (intros; symmetry; apply Hc).
  assert (Hbw : forall j v, node_by_id h' j = Some v -> exists w, node_by_id h j = Some w).
  { intros j v Hv. specialize (Hc j). unfold content in Hc. rewrite Hv in Hc. destruct (node_by_id h j); [eauto|discriminate]. }
  constructor; auto.
  - intros j v Hv. destruct (Hbw j v Hv) as (w & Hw). eauto.
  - intros a b Hab. apply (glink_content h' h b a Hc'), Hm, (glink_content h h' a b Hc Hab).
  - intros a b va vb Ha Hb Xa Xb. destruct (Hbw _ _ Ha) as (wa & Wa). destruct (Hbw _ _ Hb) as (wb & Wb).
    apply (reach_mono h h'); [intros x y Hxy; now apply (glink_content h' h x y Hc')|]. eapply Hg; eauto.
Qed.

Lemma many_add n M cap ids done D h o :
  0 < n -> 1 <= M -> gstate n cap D done h -> mgraph n cap done D h -> many_call n M cap ids o ->
  ~ In (a_id o) (map a_id done) -> NoDup (map a_id (done ++ [o])) -> incl (map a_id (done ++ [o])) ids ->
  length done <= 2 * M ->
  let r := add (a_env o) h (a_id o) (a_vec o) (a_lvl o) in
  snd r = Ok tt /\ gstate n cap (a_id o :: D) (done ++ [o]) (fst r) /\ mgraph n cap (done ++ [o]) (a_id o :: D) (fst r).
Proof.
  intros Hn HM1 Hg [HDi HDs HT Hmu Hgr] (Hcall & Hlen & Hvc & HM & Hefc & Hvs) Hni Hnd Hids Hlt.
  pose proof (call_dop _ _ Hcall) as Hdop.
  assert (HniD : ~ In (a_id o) D) by (intros H; apply Hni; auto).
  assert (HinD : incl (a_id o :: D) ids).
  { intros j [<-|Hj]; apply Hids; rewrite map_app, in_app_iff; cbn; auto. }
  assert (Hgood : good_op n cap ids o).
  { split; [exact Hdop|]. split; [exact Hlen|]. split; [exact Hvc|]. destruct Hvs as [Hvs|Hvs]; [now left|right; lia]. }
  pose proof Hg as [P W S Nd L Dm EpD (vep & Hep & Hml) B (Z1 & v0 & Hz) Su].
  destruct (gstate_add n cap D ids done h o Hn Hg Hgood) as [G1 G2]; auto.
  { intros j Hj. apply HinD. now right. }
  { apply HinD. now left. }
  cbv zeta in *. split; [exact G1|]. split; [exact G2|].
  assert (Hsrc : src_ok n (a_id o :: D) (a_env o)).
  { apply (src_ok_incl n _ ids); auto; [now constructor|]. destruct Hgood as (_ & _ & _ & Hs). exact Hs. }
  assert (HlD : length D <= length done).
  { rewrite <- (map_length a_id done). now apply NoDup_incl_length. }
  pose proof (ev_tomb h (EvAdd o) P HT) as HT2. cbn [ev_step] in HT2.
  pose proof Hdop as ((Hsc & Hsym & Hcap & Hidc) & Hdim & Hpl).
  unfold add in *. destruct (a_vec o) as [|x q0] eqn:Eq; [cbn in Hlen; lia|]. rewrite <- Eq in *.
  unfold insert in *. assert (Hb : negb (h_once h) && is_empty h = false) by (destruct B as [-> | ->]; [reflexivity|apply andb_false_r]).
  rewrite Hb in *. set (q := p_normalize _ _) in *.
  assert (Hq : length q = n) by (unfold q; now rewrite Hpl).
  assert (S' : ids_small (i_env (a_env o)) (with_once h)).
  { unfold ids_small. rewrite Hcap. exact S. }
  assert (W' : winv (with_once h)) by (apply (winv_ext h); [reflexivity|exact W]).
  assert (Ep' : ep_top (with_once h)) by (exists vep; cbn; split; [exact Hep|lia]).
  assert (Hu : unlinked (a_id o) (with_once h)).
  { intros j v l cs Hj Hl Hin. apply HniD. eapply L; eauto. }
  assert (Hne : h_ep (with_once h) <> a_id o) by (intros E; apply HniD; rewrite <- E; exact EpD).
  assert (L' : lin (a_id o :: D) (with_once h)).
  { intros j v l cs c Hj Hl Hin. right. eapply L; eauto. }
  assert (Hidc' : (a_id o < e_vcap (i_env (a_env o)))%N) by now rewrite Hcap.
  pose proof (insert_linked_inv (a_env o) Hsc Hsym (with_once h) (a_id o) q (a_lvl o)
                W' S' Ep' Hu Hne Hidc') as (W2 & S2 & Ep2 & A2 & _).
  assert (Hgm : let h' := fst (insert_linked (a_env o) (with_once h) (a_id o) q (a_lvl o)) in mutual h' /\ grounded None h').
  { apply (insert_linked_ground (a_env o) Hsc Hsym Hdim n Hn (a_id o :: D)); auto.
    - lia.
    - rewrite HM. cbn. lia.
    - intros j v Hj. change (node_by_id h j = Some v) in Hj. pose proof (HDs j v Hj) as HjD.
      split; [now right|]. split; [intros ->; contradiction|]. eapply Dm; eauto.
    - now left.
    - intros a b va vb Ha Hb2 Hax Hbx. apply (reach_mono h (with_once h)); [intros x0 y0 Hxy; exact Hxy|]. eapply Hgr; eauto. }
  destruct Hgm as [Hm2 Hg2]. constructor; auto.
  - intros j [<-|Hj]; rewrite map_app, in_app_iff; cbn; auto.
  - intros j v Hj. destruct (N.eq_dec j (a_id o)) as [->|Hjo]; [now left|].
    destruct (ar_bw _ _ _ A2 j v Hjo Hj) as (w & Hw). right. eapply HDs. exact Hw.
Qed.

Lemma many_adds n M cap ids ops : 0 < n -> 1 <= M -> forall h done D,
  gstate n cap D done h -> mgraph n cap done D h -> Forall (many_call n M cap ids) ops ->
  NoDup (map a_id (done ++ ops)) -> incl (map a_id (done ++ ops)) ids -> length (done ++ ops) <= 2 * M + 1 ->
  let r := run_adds h ops in
  Forall (fun x => x = Ok tt) (snd r) /\
  exists D', gstate n cap D' (done ++ ops) (fst r) /\ mgraph n cap (done ++ ops) D' (fst r).
Proof.
  intros Hn HM. induction ops as [|o ops IH]; intros h done D Hg Hm Hok Hnd Hids Hlen; cbn [run_adds].
  { rewrite app_nil_r. split; [constructor|]. exists D. auto. }
  inversion Hok as [|? ? Ho Hok']; subst. rewrite app_length in Hlen. cbn in Hlen.
  assert (Hni : ~ In (a_id o) (map a_id done)).
  { rewrite map_app in Hnd. cbn in Hnd. apply NoDup_remove_2 in Hnd. intros H. apply Hnd, in_or_app. auto. }
  assert (Eap : done ++ o :: ops = (done ++ [o]) ++ ops) by (now rewrite <- app_assoc).
  assert (Hi1 : incl (map a_id (done ++ [o])) ids).
  { intros j Hj. apply Hids. rewrite Eap, map_app. apply in_or_app. now left. }
  assert (Hnd1 : NoDup (map a_id (done ++ [o]))).
  { rewrite Eap, map_app in Hnd. now apply NoDup_app_l in Hnd. }
  destruct (many_add n M cap ids done D h o Hn HM Hg Hm Ho Hni Hnd1 Hi1 ltac:(lia)) as (E1 & G1 & M1).
  set (r := add (a_env o) h (a_id o) (a_vec o) (a_lvl o)) in *. cbn [fst snd].
  destruct (IH (fst r) (done ++ [o]) (a_id o :: D) G1 M1 Hok') as (E2 & D' & G2 & M2).
  { now rewrite <- app_assoc. }
  { now rewrite <- app_assoc. }
  { rewrite <- app_assoc, app_length. cbn. lia. }
  rewrite <- app_assoc in G2, M2. split; [constructor; auto|]. exists D'. auto.
Qed.

Lemma many_first n M cap ids ops : 0 < n -> 1 <= M -> ops <> [] -> (forall o l, ops = o :: l -> a_id o = 0%N) ->
  Forall (many_call n M cap ids) ops -> NoDup (map a_id ops) -> incl (map a_id ops) ids -> length ops <= 2 * M + 1 ->
  let r := run_adds empty_index ops in
  Forall (fun x => x = Ok tt) (snd r) /\
  exists D', gstate n cap D' ops (fst r) /\ mgraph n cap ops D' (fst r).
Proof.
  intros Hn HM Hne Hz Hok Hnd Hids Hlen. destruct ops as [|o ops]; [congruence|].
  inversion Hok as [|? ? Ho Hok']; subst. pose proof Ho as (Hcall & Hl & Hvc & _).
  pose proof (Hz o ops eq_refl) as H0.
  destruct (gstate_first n cap o Hn (call_dop _ _ Hcall) Hl Hvc H0) as (E1 & G1). cbv zeta in *.
  assert (Hne' : a_vec o <> []) by (destruct (a_vec o); [cbn in Hl; lia|discriminate]).
  destruct (add_first cap empty_index o pristine_empty_index eq_refl (call_dop _ _ Hcall) Hne') as (Hd & _ & Honly).
  cbv zeta in *. rewrite E1 in Hd. cbn [run_adds].
  pose proof (ev_tomb empty_index (EvAdd o) pinv_empty eq_refl) as HT. cbn [ev_step] in HT.
  set (r := add (a_env o) empty_index (a_id o) (a_vec o) (a_lvl o)) in *. cbn [fst snd].
  assert (Hm : mgraph n cap [o] [a_id o] (fst r)).
  { constructor.
    - cbn. apply incl_refl.
    - intros j v Hj. left. symmetry. apply Honly. congruence.
    - exact HT.
    - intros a b (v & cs & Hv & Hc & Hb). exfalso.
      destruct (w_link _ (d_w _ _ _ _ _ Hd) _ _ _ _ _ Hv Hc Hb) as (Hba & w & Hw & _).
      apply Hba. rewrite (Honly a), (Honly b) by congruence. reflexivity.
    - intros a b va vb Ha Hb _ _. rewrite (Honly a), (Honly b) by congruence. constructor. }
  destruct (many_adds n M cap ids ops Hn HM (fst r) [o] [a_id o] G1 Hm Hok' Hnd Hids Hlen) as (E2 & D' & G2 & M2).
  split; [constructor; auto|]. exists D'. auto.
Qed.

(** The index after a write-back, queries and restarts. *)
Definition mstate (n : nat) (cap : N) (ops : list aop) (h : hnsw) : Prop :=
  exists D, cstate n cap D ops h /\ mgraph n cap ops D h.

Lemma mstate_flush n cap D ops h keys cnt k : gstate n cap D ops h -> mgraph n cap ops D h -> all_keys h keys ->
  snd (flush h keys cnt k) = Ok tt ->
  mstate n cap ops (fst (flush h keys cnt k)) /\ h_kv_count (fst (flush h keys cnt k)) = Some cnt.
Proof.
  intros Hg Hm Hk Hok. pose proof (g_p _ _ _ _ _ Hg) as Hp.
  destruct (flush_restart h keys cnt k tt Hp Hk Hok) as (V & Cn & _ & _ & _ & Ht). cbv zeta in *.
  split; [|exact Cn]. exists D. split; [now apply gstate_flush|].
  apply (mgraph_content n cap ops D h); auto.
  - intros id. apply content_pview, V.
  - rewrite Ht. apply (mg_t _ _ _ _ _ Hm).
Qed.
Lemma mstate_after n cap ops h b : mstate n cap ops h ->
  mstate n cap ops (after_step h b) /\ h_kv_count (after_step h b) = h_kv_count h.
Proof.
  intros (D & Hc & Hm). split; [|destruct b; reflexivity]. exists D. split; [now apply cstate_after|].
  apply (mgraph_content n cap ops D h); auto.
  - intros id. apply content_pview. destruct b; [|reflexivity]. cbn [after_step].
    unfold pview at 1, node_by_id. cbn [restart h_cache h_kv mget]. rewrite (c_kv _ _ _ _ _ Hc).
    unfold pview. destruct (node_by_id h id); reflexivity.
  - destruct b; [reflexivity|exact (mg_t _ _ _ _ _ Hm)].
Qed.

Lemma ops_of_app ds1 ds2 : forall b, ops_of b (ds1 ++ ds2)%list = (ops_of b ds1 ++ ops_of (b + N.of_nat (length ds1)) ds2)%list.
Proof.
  induction ds1 as [|d ds1 IH]; intros b; cbn [app ops_of length]; [now rewrite N.add_0_r|]. rewrite IH.
  cbn [app]. do 3 f_equal. lia.
Qed.
Lemma docs_after_app ds1 ds2 : forall b dcs, docs_after b (ds1 ++ ds2)%list dcs =
  docs_after (b + N.of_nat (length ds1)) ds2 (docs_after b ds1 dcs).
Proof.
  induction ds1 as [|d ds1 IH]; intros b dcs; cbn [app docs_after length]; [now rewrite N.add_0_r|]. rewrite IH. f_equal. lia.
Qed.

(** Requests of a history: acknowledged add requests of documents, and others. *)
Inductive hreq := HAdd (R : rorc) (lookup : bool) (keys : list string) (ds : list vdoc) | HOther (q : creq).
Definition hreq_req (q : hreq) : creq :=
  match q with HAdd R lookup keys ds => QAdd R lookup keys (map vd_pair ds) | HOther q => q end.
Definition hreq_docs (q : hreq) : list vdoc := match q with HAdd _ _ _ ds => ds | HOther _ => [] end.
Definition hist_docs (hs : list hreq) : list vdoc := flat_map hreq_docs hs.
Definition hist_reqs (hs : list hreq) : list creq := map hreq_req hs.
Definition hreq_ok (st : coll) (q : hreq) : Prop :=
  match q with
  | HAdd R lookup keys ds => ds <> [] /\ rorc_ok R /\ Forall (vt_ok lookup keys) ds /\
                             snd (add_documents R lookup keys (map vd_pair ds) st) = Ok tt
  | HOther (QAdd _ _ _ _) => False
  | HOther _ => True
  end.
Fixpoint hist_ok (st : coll) (hs : list hreq) : Prop :=
  match hs with [] => True | q :: hs' => hreq_ok st q /\ hist_ok (req_step st (hreq_req q)) hs' end.

Lemma hist_vt hs : forall st r d, hist_ok st hs -> In r hs -> In d (hreq_docs r) ->
  match r with HAdd _ lookup keys _ => vt_ok lookup keys d | HOther _ => False end.
Proof.
  induction hs as [|q hs IH]; intros st r d Hok Hin Hd; [destruct Hin|]. destruct Hok as [Hq Hok]. destruct Hin as [->|Hin]; [|eapply IH; eauto].
  destruct r as [R lk ks ds|q]; [|exact Hd]. destruct Hq as (_ & _ & Hv & _). rewrite Forall_forall in Hv. now apply Hv.
Qed.

Record minv (n : nat) (cap : N) (ds : list vdoc) (st : coll) : Prop := {
  mi_docs : c_docs st = docs_after 0 ds [];
  mi_nil : ds = [] -> c_h st = empty_index;
  mi_some : ds <> [] -> mstate n cap (ops_of 0 ds) (c_h st) /\ h_kv_count (c_h st) = Some (N.of_nat (length ds))
}.

Lemma minv_after n cap ds st b reg op lg : minv n cap ds st ->
  minv n cap ds (mkC (after_step (c_h st) b) reg op (c_docs st) lg).
Proof.
  intros [H1 H2 H3]. constructor; cbn [c_h c_docs].
  - exact H1.
  - intros E. rewrite (H2 E). destruct b; reflexivity.
  - intros E. destruct (H3 E) as [M K]. destruct (mstate_after n cap _ _ b M) as [M' K']. now rewrite K'.
Qed.
Lemma minv_same n cap ds st reg op lg : minv n cap ds st -> minv n cap ds (mkC (c_h st) reg op (c_docs st) lg).
Proof. intros [H1 H2 H3]. now constructor. Qed.
Lemma minv_open n cap ds R st : minv n cap ds st -> minv n cap ds (fst (open_coll R st)).
Proof.
  intros H. unfold open_coll. destruct (negb (r_kvopen R)); [exact H|]. destruct (negb (r_isopen R)); [exact H|].
  destruct (c_open st); [exact H|]. destruct (r_docopen R); cbn [fst]; now apply (minv_after n cap ds st true).
Qed.
Lemma minv_near n cap ds Q st q maxd ef limit : minv n cap ds st -> minv n cap ds (fst (near_docs Q st q maxd ef limit)).
Proof.
  intros H. unfold near_docs. destruct (negb (c_reg st)); [exact H|]. cbn [fst]. now apply (minv_after n cap ds st false).
Qed.
Lemma minv_other n cap ds st q : minv n cap ds st -> hreq_ok st (HOther q) -> minv n cap ds (req_step st q).
Proof.
  intros H Hq. destruct q as [R lk keys docs|Q v d l|Q lk c d l|R ok id| |]; cbn [req_step].
  - destruct Hq.
  - unfold near_by_vector. pose proof (minv_open n cap ds (q_open Q) st H) as Ho.
    destruct (open_coll (q_open Q) st) as [s1 [[]|e| |]]; cbn [fst] in *; auto. now apply minv_near.
  - unfold near_by_text. pose proof (minv_open n cap ds (q_open Q) st H) as Ho.
    destruct (open_coll (q_open Q) st) as [s1 [[]|e| |]]; cbn [fst] in *; auto.
    destruct (negb lk); [exact Ho|]. destruct c as [[w|]|e| |]; auto; [now apply minv_near|].
    cbn [fst]. destruct (c_reg s1); [now apply (minv_after n cap ds s1 false)|exact Ho].
  - unfold get_document. destruct (negb (r_isopen R)); [exact H|]. destruct (negb (c_open st) && negb (r_docopen R)); [exact H|].
    destruct (negb ok); [now apply minv_same|]. destruct (find _ _); now apply minv_same.
  - now apply (minv_after n cap ds st true).
  - now apply (minv_after n cap ds st true).
Qed.

Lemma minv_add n cap ids ds R lookup keys ds2 st :
  0 < n -> minv n cap ds st -> hreq_ok st (HAdd R lookup keys ds2) ->
  length (ds ++ ds2)%list <= 61 -> Forall (many_call n 30 cap ids) (ops_of 0 (ds ++ ds2)%list) ->
  incl (map a_id (ops_of 0 (ds ++ ds2)%list)) ids ->
  minv n cap (ds ++ ds2)%list (fst (add_documents R lookup keys (map vd_pair ds2) st)).
Proof.
  intros Hn H (Hne & HR & Hvd & Hok) Hlen Hf Hids. revert Hok. unfold add_documents.
  pose proof (minv_open n cap ds R st H) as [I1 I2 I3].
  destruct (open_coll R st) as [s1 [[]|e| |]]; cbn [fst snd] in *; try discriminate.
  destruct (negb (c_reg s1)) eqn:Ereg; [discriminate|]. apply negb_false_iff in Ereg.
  assert (Hb : first_id (c_h s1) = N.of_nat (length ds)).
  { destruct ds as [|d ds]; [rewrite I2 by reflexivity; reflexivity|].
    destruct (I3 ltac:(discriminate)) as [_ K]. unfold first_id, doc_count. now rewrite K. }
  set (b := first_id (c_h s1)) in *.
  assert (Hnd : NoDup (map a_id (ops_of 0 (ds ++ ds2)%list))) by (rewrite ops_of_ids; apply NoDup_shift).
  assert (Hlen' : length (ops_of 0 (ds ++ ds2)%list) <= 2 * 30 + 1) by (rewrite ops_of_length; lia).
  assert (Hrun : let r := run_adds (c_h s1) (ops_of b ds2) in
     Forall (fun x => x = Ok tt) (snd r) /\
     exists D', gstate n cap D' (ops_of 0 (ds ++ ds2)%list) (fst r) /\ mgraph n cap (ops_of 0 (ds ++ ds2)%list) D' (fst r)).
  { rewrite ops_of_app in *. rewrite N.add_0_l, <- Hb in *. destruct ds as [|d ds].
    - rewrite I2 by reflexivity. cbn [ops_of app] in *. apply (many_first n 30 cap ids); auto; try lia.
      + destruct ds2; [congruence|discriminate].
      + intros o l E. destruct ds2; [congruence|]. cbn [ops_of] in E. injection E as <- _. cbn [a_id]. rewrite Hb. reflexivity.
    - destruct (I3 ltac:(discriminate)) as [(D & Hc & Hm) _].
      apply (many_adds n 30 cap ids _ Hn ltac:(lia) (c_h s1) (ops_of 0 (d :: ds)) D (c_g _ _ _ _ _ Hc) Hm); auto.
      apply Forall_app in Hf. apply Hf. }
  cbv zeta in Hrun. destruct Hrun as (Hall & D' & Hg & Hm).
  rewrite (add_loop_docs lookup keys ds2 Hvd s1 b Hall). unfold finish_add. cbn [c_h].
  destruct (flush _ _ _ _) as [h' [[]|e| |]] eqn:Ef; cbn [snd]; try discriminate.
  destruct (r_commit R); [|discriminate]. intros _.
  destruct (mstate_flush n cap D' _ _ (r_keys R (fst (run_adds (c_h s1) (ops_of b ds2)))) (b + N.of_nat (length ds2))%N (r_puts R) Hg Hm (HR _)) as [Hms Hcnt].
  { now rewrite Ef. }
  rewrite Ef in Hms, Hcnt. cbn [fst] in *. constructor; cbn [with_h c_h c_docs].
  - rewrite docs_after_app, I1, N.add_0_l, Hb. reflexivity.
  - intros E. apply app_eq_nil in E. destruct E as [_ E]. congruence.
  - intros _. split; [exact Hms|]. rewrite Hcnt, app_length. f_equal. lia.
Qed.

Lemma minv_run n cap ids hs : 0 < n -> forall ds st,
  minv n cap ds st -> hist_ok st hs -> length (ds ++ hist_docs hs)%list <= 61 ->
  Forall (many_call n 30 cap ids) (ops_of 0 (ds ++ hist_docs hs)%list) ->
  incl (map a_id (ops_of 0 (ds ++ hist_docs hs)%list)) ids ->
  minv n cap (ds ++ hist_docs hs)%list (run_reqs st (hist_reqs hs)).
Proof.
  intros Hn. induction hs as [|q hs IH]; intros ds st H Hok Hlen Hf Hids; cbn [hist_reqs hist_docs flat_map map run_reqs] in *.
  { rewrite app_nil_r. exact H. }
  destruct Hok as [Hq Hok]. fold (hist_docs hs) in *. rewrite app_assoc in *. apply IH; auto.
  destruct q as [R lk keys ds2|q]; cbn [hreq_req hreq_docs] in *.
  - apply (minv_add n cap ids); auto.
    + rewrite !app_length in *. lia.
    + rewrite ops_of_app in Hf. now apply Forall_app in Hf.
    + rewrite ops_of_app, map_app in Hids. intros j Hj. apply Hids, in_or_app. now left.
  - rewrite app_nil_r. now apply minv_other.
Qed.

(** The nearest documents in such a state. *)
Lemma mstate_near n cap P ds st :
  0 < n -> ds <> [] -> NoDup (map (fun d => di_id (vd_doc d)) ds) -> known_provider P ->
  Forall (fun d => e_prov (i_env (do_env (vd_orc d))) = P) ds -> minv n cap ds st -> c_reg st = true ->
  forall E q maxd ef limit, sched_ok E -> e_prov E = P -> e_vcap E = cap -> length q = n ->
    (Z.of_nat (length ds) <= ef)%Z -> (limit = 0 \/ Z.of_nat (length ds) <= limit)%Z ->
    (forall d x, In d ds -> p_query P (p_normalize P q) (p_normalize P (vd_vec d)) = Some x -> is_num x = true) ->
    exists m, forall Q, q_env Q = E -> Permutation (q_order Q) (seq 0 m) -> (forall i, q_ok Q i = true) ->
      exists docs dists, snd (near_docs Q st q maxd ef limit) = Ok (docs, dists) /\ exact_answer P ds q maxd docs dists.
Proof.
  intros Hn Hne Hids HkP HP [I1 _ I3] Hreg E q maxd ef limit Hsc HEP Hcap Hq Hef Hlim Hnum.
  destruct (I3 Hne) as [Hms _]. destruct (mstate_after n cap _ _ false Hms) as [(D & Hc & Hm) _]. cbn [after_step] in Hc, Hm.
  clear Hms. pose proof (c_g _ _ _ _ _ Hc) as Hg. rewrite Forall_forall in HP.
  set (h := load_ep (c_h st)) in *.
  assert (Hnode : forall i d, nth_error ds i = Some d -> exists v, node_by_id h (N.of_nat i) = Some v /\ v_vec v = p_normalize P (vd_vec d)).
  { intros i d Hi. pose proof (ops_of_nth ds 0 i d Hi) as Ho. rewrite N.add_0_l in Ho.
    destruct (g_succ _ _ _ _ _ Hg _ Ho) as (_ & v & Hv & Hvec). cbn [a_id a_env a_vec] in *. exists v.
    split; [exact Hv|]. rewrite Hvec. f_equal. apply HP. eapply nth_error_In; eauto. }
  assert (Hin : forall j v, node_by_id h j = Some v -> exists i d, nth_error ds i = Some d /\ j = N.of_nat i).
  { intros j v Hv. apply (mg_all _ _ _ _ _ Hm), (mg_in _ _ _ _ _ Hm), in_map_iff in Hv. destruct Hv as (o & <- & Ho).
    destruct (ops_of_in _ _ _ Ho) as (i & d & Hi & ->). exists i, d. auto. }
  destruct (connected_exhaustive h n P E (map a_id (ops_of 0 ds)) q maxd ef) as (out & Hk & Hasc & Hndo & Hmap & Hans); auto.
  - apply pinv_wfh, (g_p _ _ _ _ _ Hg).
  - apply (mg_t _ _ _ _ _ Hm).
  - intros id v Hv. split; [apply (mg_in _ _ _ _ _ Hm), (mg_all _ _ _ _ _ Hm _ _ Hv)|].
    split; [rewrite Hcap; apply (g_small _ _ _ _ _ Hg id v Hv)|].
    apply (g_dim _ _ _ _ _ Hg id v (mg_all _ _ _ _ _ Hm _ _ Hv) Hv).
  - intros a b va vb Ha Hb. eapply (mg_g _ _ _ _ _ Hm); eauto; discriminate.
  - destruct (g_ep _ _ _ _ _ Hg) as (v & Hv & _). eauto.
  - rewrite map_length, ops_of_length. exact Hef.
  - intros id d (v & Hv & Hx). destruct (Hin _ _ Hv) as (i & dd & Hi & ->). destruct (Hnode _ _ Hi) as (w & Hw & Ew).
    rewrite Hv in Hw. injection Hw as <-. rewrite Ew in Hx. eapply Hnum; [eapply nth_error_In; eauto|exact Hx].
  - pose proof (known_psym P HkP) as Hsym.
    assert (Hcov : covered st).
    { intros i v Hv. change (node_by_id h i = Some v) in Hv. destruct (Hin _ _ Hv) as (k & d & Hk' & ->).
      exists (stored (N.of_nat k) d). rewrite I1. split; [|reflexivity].
      apply (docs_after_in ds 0 [] k d Hids Hk'). }
    assert (Hsm : ids_small E (c_h st)).
    { intros j v Hj. rewrite Hcap. apply (g_small _ _ _ _ _ Hg j v). exact Hj. }
    destruct out as [ids dists]. cbn [fst] in *.
    assert (Hfew : length ids <= length ds).
    { rewrite <- (ops_of_length ds 0), <- (map_length a_id). apply NoDup_incl_length; [exact Hndo|].
      intros id Hid. rewrite <- Hmap in Hid. apply in_map_iff in Hid. destruct Hid as ([id' d] & <- & Hin'). cbn [it_id].
      apply Hans in Hin'. destruct Hin' as (_ & _ & v & Hv & _). apply (mg_in _ _ _ _ _ Hm), (mg_all _ _ _ _ _ Hm _ _ Hv). }
    exists (length ids). intros Q HQ Hperm Hfok.
    assert (Hni : near_ids (q_env Q) (c_h st) q maxd ef limit = Ok (ids, dists)).
    { unfold near_ids. rewrite HQ. fold h. rewrite Hk. cbn [bind]. unfold cut_limit. cbn [fst].
      destruct Hlim as [-> |Hlim]; [reflexivity|]. replace (Z.ltb limit _) with false; [now rewrite andb_false_r|].
      symmetry. apply Z.ltb_ge. lia. }
    destruct (near_docs_found Q st q maxd ef limit ids dists Hcov) as (docs & K & L); auto.
    { rewrite HQ. exact Hsc. }
    { rewrite HQ, HEP. exact Hsym. }
    { rewrite HQ. exact Hsm. }
    exists docs, dists. split; [exact K|].
    assert (Hperm' : Permutation (q_order Q) (seq 0 (length docs))) by (rewrite L; exact Hperm).
    destruct (near_docs_spec Q st q maxd ef limit docs dists K Hperm') as (ids' & J1 & J2 & J3).
    assert (ids' = ids) by congruence. subst ids'. rewrite I1 in J3.
    apply (fetched_exact P ds h q maxd ids dists docs); auto.
    rewrite <- HEP in Hsym.
    apply (knn_max_dist_sound E h Hsc Hsym Hsm q maxd ef None (ids, dists) Hk).
Qed.

Lemma history_near n cap P hs :
  let ds := hist_docs hs in
  0 < n -> ds <> [] -> length ds <= 61 -> NoDup (map (fun d => di_id (vd_doc d)) ds) ->
  Forall (fun d => e_prov (i_env (do_env (vd_orc d))) = P) ds ->
  Forall (many_call n 30 cap (map a_id (ops_of 0 ds))) (ops_of 0 ds) -> hist_ok new_coll hs ->
  let st := run_reqs new_coll (hist_reqs hs) in
  forall E q maxd ef limit, sched_ok E -> e_prov E = P -> e_vcap E = cap -> length q = n ->
    (Z.of_nat (length ds) <= ef)%Z -> (limit = 0 \/ Z.of_nat (length ds) <= limit)%Z ->
    (forall d x, In d ds -> p_query P (p_normalize P q) (p_normalize P (vd_vec d)) = Some x -> is_num x = true) ->
    exists m, forall Q st', q_env Q = E -> open_coll (q_open Q) st = (st', Ok tt) -> c_reg st' = true ->
      Permutation (q_order Q) (seq 0 m) -> (forall i, q_ok Q i = true) ->
      exists docs dists, snd (near_docs Q st' q maxd ef limit) = Ok (docs, dists) /\ exact_answer P ds q maxd docs dists.
Proof.
  intros ds Hn Hne Hlen Hids HP Hf Hok st E q maxd ef limit Hsc HEP Hcap Hq Hef Hlim Hnum.
  assert (HkP : known_provider P).
  { destruct ds as [|d ds']; [congruence|]. inversion Hf as [|? ? ((_ & Hkk & _) & _) _]; subst. cbn [a_env] in Hkk.
    inversion HP as [|? ? HPd _]; subst. now rewrite <- HPd. }
  assert (Hm : minv n cap ds st).
  { apply (minv_run n cap (map a_id (ops_of 0 ds)) hs Hn [] new_coll); auto; [|apply incl_refl]. constructor; try reflexivity. congruence. }
  assert (Hm1 : minv n cap ds (mkC (c_h st) true true (c_docs st) (c_log st))) by now apply minv_same.
  assert (Hm2 : minv n cap ds (mkC (restart (c_h st)) true true (c_docs st) (c_log st))) by now apply (minv_after n cap ds st true).
  destruct (mstate_near n cap P ds _ Hn Hne Hids HkP HP Hm1 eq_refl E q maxd ef limit Hsc HEP Hcap Hq Hef Hlim Hnum) as (m1 & K1).
  destruct (mstate_near n cap P ds _ Hn Hne Hids HkP HP Hm2 eq_refl E q maxd ef limit Hsc HEP Hcap Hq Hef Hlim Hnum) as (m2 & K2).
  exists (if c_open st then m1 else m2). intros Q st' HQ Ho Hreg Hperm Hfok. revert Ho. unfold open_coll.
  destruct (negb (r_kvopen (q_open Q))); [discriminate|]. destruct (negb (r_isopen (q_open Q))); [discriminate|].
  destruct (c_open st) eqn:Eo.
  - intros [= <-]. specialize (K1 Q HQ Hperm Hfok).
    assert (Est : mkC (c_h st) true true (c_docs st) (c_log st) = st).
    { clearbody st. destruct st; cbn in *; congruence. }
    rewrite Est in K1. exact K1.
  - destruct (r_docopen (q_open Q)); [|discriminate]. intros [= <-]. exact (K2 Q HQ Hperm Hfok).
Qed.
