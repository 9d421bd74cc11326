(** Histories of up to 30 documents: the ground layer stays complete. *)
From Coq Require Import String Sorted.
From Verif Require Import Base F32 PQ PQProofs Graph Search SearchProofs SearchLayer SearchKnn
  SearchCong Insert HeuristicProofs InsertProofs InsertHist InsertTotal InsertDim InsertSmall InsertFacts InsertFind
  Distancer DistancerProofs PropDistancer TestGraph TestInsert PropSearch PropInsert PropFind
  Persist PersistProofs PersistHist LRU LRUProofs PropPersist InsertRestart Collections
  Client ClientProofs ClientSafe ClientFacts ClientReq PropClient VCache VCacheProofs VCacheFacts ClientIds ClientSmall ClientMany
  Vectorizer VectorizerProofs PropVectorizer.
Local Open Scope nat_scope.

Lemma complete_content h h' : (forall id, content h' id = content h id) -> complete_but None h -> complete_but None h'.
Proof.
  intros Hc Hco.
  assert (Hc' : forall id, content h id = content h' id) by (intros; symmetry; apply Hc).
  assert (Hbw : forall j v, node_by_id h' j = Some v -> exists w, node_by_id h j = Some w).
  { intros j v Hv. specialize (Hc j). unfold content in Hc. rewrite Hv in Hc. destruct (node_by_id h j); [eauto|discriminate]. }
  intros a b va vb Ha Hb Hab _ _. destruct (Hbw _ _ Ha) as (wa & Wa). destruct (Hbw _ _ Hb) as (wb & Wb).
  apply (glink_content h' h a b Hc'). eapply Hco; eauto; discriminate.
Qed.

Lemma many_add_complete n M cap ids done D h o :
  0 < n -> gstate n cap D done h -> mgraph n cap done D h -> many_call n M cap ids o -> (Z.of_nat M <= i_efc (a_env o))%Z ->
  ~ In (a_id o) (map a_id done) -> length done < M -> complete_but None h ->
  complete_but None (fst (add (a_env o) h (a_id o) (a_vec o) (a_lvl o))).
Proof.
  intros Hn Hg [HDi HDs HT Hmu Hgr] (Hcall & Hlen & Hvc & HM & _ & _) Hefc Hni Hlt Hco.
  pose proof (call_dop _ _ Hcall) as Hdop.
  assert (HniD : ~ In (a_id o) D) by (intros H; apply Hni; auto).
  pose proof Hg as [P W S Nd L Dm EpD (vep & Hep & Hml) B (Z1 & v0 & Hz) Su].
  assert (HlD : length D <= length done).
  { rewrite <- (map_length a_id done). now apply NoDup_incl_length. }
  pose proof Hdop as ((Hsc & Hsym & Hcap & Hidc) & Hdim & Hpl).
  unfold add. destruct (a_vec o) as [|x q0] eqn:Eq; [cbn in Hlen; lia|]. rewrite <- Eq in *.
  unfold insert. assert (Hb : negb (h_once h) && is_empty h = false) by (destruct B as [-> | ->]; [reflexivity|apply andb_false_r]).
  rewrite Hb. set (q := p_normalize _ _).
  assert (Hq : length q = n) by (unfold q; now rewrite Hpl).
  apply (insert_linked_complete (a_env o) Hsc Hsym Hdim n Hn (a_id o :: D)); auto.
  - rewrite HM. cbn. lia.
  - rewrite HM. exact Hefc.
  - apply (winv_ext h); [reflexivity|exact W].
  - unfold ids_small. rewrite Hcap. exact S.
  - exists vep. cbn. split; [exact Hep|lia].
  - intros j v l cs Hj Hl Hin. apply HniD. eapply L; eauto.
  - intros E. apply HniD. rewrite <- E. exact EpD.
  - now rewrite Hcap.
  - intros j v l cs c Hj Hl Hin. right. eapply L; eauto.
  - intros j v Hj. change (node_by_id h j = Some v) in Hj. pose proof (HDs j v Hj) as HjD.
    split; [now right|]. split; [intros ->; contradiction|]. eapply Dm; eauto.
  - now left.
Qed.

(** The breadth of the searches of an insertion reaches [M] (insert.go:57-79). Not in the
    code: used in statements about sequences of Add. *)
Definition wide (M : nat) (o : aop) : Prop := (Z.of_nat M <= i_efc (a_env o))%Z.

Lemma many_adds_complete n M cap ids ops : 0 < n -> 1 <= M -> forall h done D,
  gstate n cap D done h -> mgraph n cap done D h -> Forall (many_call n M cap ids) ops -> Forall (wide M) ops ->
  NoDup (map a_id (done ++ ops)) -> incl (map a_id (done ++ ops)) ids -> length (done ++ ops) <= M ->
  complete_but None h -> complete_but None (fst (run_adds h ops)).
Proof.
  intros Hn HM. induction ops as [|o ops IH]; intros h done D Hg Hm Hok Hw Hnd Hids Hlen Hco; cbn [run_adds]; [exact Hco|].
  inversion Hok as [|? ? Ho Hok']; subst. inversion Hw as [|? ? Hwo Hw']; subst. rewrite app_length in Hlen. cbn in Hlen.
  assert (Hni : ~ In (a_id o) (map a_id done)).
  { rewrite map_app in Hnd. cbn in Hnd. apply NoDup_remove_2 in Hnd. intros H. apply Hnd, in_or_app. auto. }
  assert (Eap : done ++ o :: ops = (done ++ [o]) ++ ops) by (now rewrite <- app_assoc).
  assert (Hi1 : incl (map a_id (done ++ [o])) ids).
  { intros j Hj. apply Hids. rewrite Eap, map_app. apply in_or_app. now left. }
  assert (Hnd1 : NoDup (map a_id (done ++ [o]))).
  { rewrite Eap, map_app in Hnd. now apply NoDup_app_l in Hnd. }
  destruct (many_add n M cap ids done D h o Hn HM Hg Hm Ho Hni Hnd1 Hi1 ltac:(lia)) as (E1 & G1 & M1).
  pose proof (many_add_complete n M cap ids done D h o Hn Hg Hm Ho Hwo Hni ltac:(lia) Hco) as C1.
  set (r := add (a_env o) h (a_id o) (a_vec o) (a_lvl o)) in *. cbn [fst snd].
  apply (IH (fst r) (done ++ [o]) (a_id o :: D) G1 M1 Hok' Hw'); auto.
  - now rewrite <- app_assoc.
  - now rewrite <- app_assoc.
  - rewrite <- app_assoc, app_length. cbn. lia.
Qed.

Lemma many_first_complete n M cap ids ops : 0 < n -> 1 <= M -> (forall o l, ops = o :: l -> a_id o = 0%N) ->
  Forall (many_call n M cap ids) ops -> Forall (wide M) ops -> NoDup (map a_id ops) -> incl (map a_id ops) ids -> length ops <= M ->
  complete_but None (fst (run_adds empty_index ops)).
Proof.
  intros Hn HM Hz Hok Hw Hnd Hids Hlen. destruct ops as [|o ops]; [intros a b va vb [=]|].
  inversion Hok as [|? ? Ho Hok']; subst. inversion Hw as [|? ? Hwo Hw']; subst. pose proof Ho as (Hcall & Hl & Hvc & _).
  pose proof (Hz o ops eq_refl) as H0.
  destruct (gstate_first n cap o Hn (call_dop _ _ Hcall) Hl Hvc H0) as (E1 & G1). cbv zeta in *.
  assert (Hne' : a_vec o <> []) by (destruct (a_vec o); [cbn in Hl; lia|discriminate]).
  destruct (add_first cap empty_index o pristine_empty_index eq_refl (call_dop _ _ Hcall) Hne') as (Hd & _ & Honly).
  cbv zeta in *. rewrite E1 in Hd.
  destruct (many_first n M cap ids [o] Hn HM ltac:(discriminate)) as (_ & D' & G' & M'); auto.
  { intros o' l' [= <- <-]. exact H0. }
  { cbn. constructor; [intros []|constructor]. }
  { intros j [<-|[]]. apply Hids. now left. }
  { cbn. lia. }
  cbn [run_adds fst] in *.
  set (r := add (a_env o) empty_index (a_id o) (a_vec o) (a_lvl o)) in *.
  apply (many_adds_complete n M cap ids ops Hn HM (fst r) [o] D' G' M' Hok' Hw' Hnd Hids Hlen).
  intros a b va vb Ha Hb Hab. exfalso. apply Hab. rewrite (Honly a), (Honly b) by congruence. reflexivity.
Qed.

(** Over requests. *)
Lemma complete_flush h keys cnt k : pinv h -> complete_but None h -> complete_but None (fst (flush h keys cnt k)).
Proof.
  intros Hp. apply complete_content. intros id. apply content_pview.
  destruct (flush_any h keys cnt k Hp) as (_ & V & _). apply V.
Qed.
Lemma complete_after n cap ds st b : minv n cap ds st -> complete_but None (c_h st) -> complete_but None (after_step (c_h st) b).
Proof.
  intros [_ H2 H3] Hco. destruct ds as [|d ds].
  - rewrite H2 by reflexivity. destruct b; intros x y vx vy [=].
  - destruct (H3 ltac:(discriminate)) as [(D & Hc & _) _]. revert Hco. apply complete_content.
    intros id. apply content_pview. destruct b; [|reflexivity]. cbn [after_step].
    unfold pview at 1, node_by_id. cbn [restart h_cache h_kv mget]. rewrite (c_kv _ _ _ _ _ Hc).
    unfold pview. destruct (node_by_id (c_h st) id); reflexivity.
Qed.
(** As [minv], with a complete ground layer. Not in the code: the state between two
    requests (insert.go:57-79, 118). *)
Definition cinv (n : nat) (cap : N) (ds : list vdoc) (st : coll) : Prop := minv n cap ds st /\ complete_but None (c_h st).

Lemma cinv_after n cap ds st b reg op lg : cinv n cap ds st ->
  cinv n cap ds (mkC (after_step (c_h st) b) reg op (c_docs st) lg).
Proof. intros [H1 H2]. split; [now apply minv_after|]. exact (complete_after n cap ds st b H1 H2). Qed.
Lemma cinv_same n cap ds st reg op lg : cinv n cap ds st -> cinv n cap ds (mkC (c_h st) reg op (c_docs st) lg).
Proof. intros [H1 H2]. split; [now apply minv_same|exact H2]. Qed.
Lemma cinv_open n cap ds R st : cinv n cap ds st -> cinv n cap ds (fst (open_coll R st)).
Proof.
  intros H. unfold open_coll. destruct (negb (r_kvopen R)); [exact H|]. destruct (negb (r_isopen R)); [exact H|].
  destruct (c_open st); [exact H|]. destruct (r_docopen R); cbn [fst]; now apply (cinv_after n cap ds st true).
Qed.
Lemma cinv_near n cap ds Q st q maxd ef limit : cinv n cap ds st -> cinv n cap ds (fst (near_docs Q st q maxd ef limit)).
Proof.
  intros H. unfold near_docs. destruct (negb (c_reg st)); [exact H|]. cbn [fst]. now apply (cinv_after n cap ds st false).
Qed.
Lemma cinv_other n cap ds st q : cinv n cap ds st -> hreq_ok st (HOther q) -> cinv n cap ds (req_step st q).
Proof.
  intros H Hq. destruct q as [R lk keys docs|Q v d l|Q lk c d l|R ok id| |]; cbn [req_step].
  - destruct Hq.
  - unfold near_by_vector. pose proof (cinv_open n cap ds (q_open Q) st H) as Ho.
    destruct (open_coll (q_open Q) st) as [s1 [[]|e| |]]; cbn [fst] in *; auto. now apply cinv_near.
  - unfold near_by_text. pose proof (cinv_open n cap ds (q_open Q) st H) as Ho.
    destruct (open_coll (q_open Q) st) as [s1 [[]|e| |]]; cbn [fst] in *; auto.
    destruct (negb lk); [exact Ho|]. destruct c as [[w|]|e| |]; auto; [now apply cinv_near|].
    cbn [fst]. destruct (c_reg s1); [now apply (cinv_after n cap ds s1 false)|exact Ho].
  - unfold get_document. destruct (negb (r_isopen R)); [exact H|]. destruct (negb (c_open st) && negb (r_docopen R)); [exact H|].
    destruct (negb ok); [now apply cinv_same|]. destruct (find _ _); now apply cinv_same.
  - now apply (cinv_after n cap ds st true).
  - now apply (cinv_after n cap ds st true).
Qed.

Lemma cinv_add n cap ids ds R lookup keys ds2 st :
  0 < n -> cinv n cap ds st -> hreq_ok st (HAdd R lookup keys ds2) ->
  length (ds ++ ds2)%list <= 30 -> Forall (many_call n 30 cap ids) (ops_of 0 (ds ++ ds2)%list) ->
  Forall (wide 30) (ops_of 0 (ds ++ ds2)%list) ->
  incl (map a_id (ops_of 0 (ds ++ ds2)%list)) ids ->
  cinv n cap (ds ++ ds2)%list (fst (add_documents R lookup keys (map vd_pair ds2) st)).
Proof.
  intros Hn H Hreq Hlen Hf Hw Hids. split; [apply (minv_add n cap ids); auto; [apply H|lia]|].
  destruct Hreq as (Hne & HR & Hvd & Hok). revert Hok. unfold add_documents.
  pose proof (cinv_open n cap ds R st H) as [[I1 I2 I3] Hco].
  destruct (open_coll R st) as [s1 [[]|e| |]]; cbn [fst snd] in *; try discriminate.
  destruct (negb (c_reg s1)) eqn:Ereg; [discriminate|]. apply negb_false_iff in Ereg.
  assert (Hb : first_id (c_h s1) = N.of_nat (length ds)).
  { destruct ds as [|d ds]; [rewrite I2 by reflexivity; reflexivity|].
    destruct (I3 ltac:(discriminate)) as [_ K]. unfold first_id, doc_count. now rewrite K. }
  set (b := first_id (c_h s1)) in *.
  assert (Hnd : NoDup (map a_id (ops_of 0 (ds ++ ds2)%list))) by (rewrite ops_of_ids; apply NoDup_shift).
  assert (Hlen' : length (ops_of 0 (ds ++ ds2)%list) <= 30) by (rewrite ops_of_length; lia).
  assert (Hrun : let r := run_adds (c_h s1) (ops_of b ds2) in
     Forall (fun x => x = Ok tt) (snd r) /\ pinv (fst r) /\ complete_but None (fst r)).
  { cbv zeta. rewrite ops_of_app in *. rewrite N.add_0_l, <- Hb in *. destruct ds as [|d ds].
    - rewrite I2 by reflexivity. cbn [ops_of app] in *.
      assert (Hz : forall o l, ops_of b ds2 = o :: l -> a_id o = 0%N).
      { intros o l E. destruct ds2; [congruence|]. cbn [ops_of] in E. injection E as <- _. cbn [a_id]. rewrite Hb. reflexivity. }
      destruct (many_first n 30 cap ids (ops_of b ds2)) as (X1 & D' & X2 & _); auto; try lia.
      { destruct ds2; [congruence|discriminate]. }
      split; [exact X1|]. split; [apply (g_p _ _ _ _ _ X2)|]. apply (many_first_complete n 30 cap ids); auto; lia.
    - destruct (I3 ltac:(discriminate)) as [(D & Hc & Hm) _]. apply Forall_app in Hf, Hw.
      destruct (many_adds n 30 cap ids _ Hn ltac:(lia) (c_h s1) (ops_of 0 (d :: ds)) D (c_g _ _ _ _ _ Hc) Hm (proj2 Hf) Hnd Hids ltac:(lia)) as (X1 & D' & X2 & _).
      split; [exact X1|]. split; [apply (g_p _ _ _ _ _ X2)|].
      apply (many_adds_complete n 30 cap ids _ Hn ltac:(lia) (c_h s1) (ops_of 0 (d :: ds)) D (c_g _ _ _ _ _ Hc) Hm (proj2 Hf) (proj2 Hw)); auto. }
  cbv zeta in Hrun. destruct Hrun as (Hall & Hp & Hc2).
  rewrite (add_loop_docs lookup keys ds2 Hvd s1 b Hall). unfold finish_add. cbn [c_h].
  pose proof (complete_flush (fst (run_adds (c_h s1) (ops_of b ds2))) (r_keys R (fst (run_adds (c_h s1) (ops_of b ds2))))
    (b + N.of_nat (length ds2))%N (r_puts R) Hp Hc2) as Hc3.
  destruct (flush _ _ _ _) as [h' [[]|e| |]] eqn:Ef; cbn [snd fst] in *; try discriminate.
  destruct (r_commit R); [|discriminate]. intros _. exact Hc3.
Qed.

Lemma cinv_run n cap ids hs : 0 < n -> forall ds st,
  cinv n cap ds st -> hist_ok st hs -> length (ds ++ hist_docs hs)%list <= 30 ->
  Forall (many_call n 30 cap ids) (ops_of 0 (ds ++ hist_docs hs)%list) ->
  Forall (wide 30) (ops_of 0 (ds ++ hist_docs hs)%list) ->
  incl (map a_id (ops_of 0 (ds ++ hist_docs hs)%list)) ids ->
  cinv n cap (ds ++ hist_docs hs)%list (run_reqs st (hist_reqs hs)).
Proof.
  intros Hn. induction hs as [|q hs IH]; intros ds st H Hok Hlen Hf Hw Hids; cbn [hist_reqs hist_docs flat_map map run_reqs] in *.
  { rewrite app_nil_r. exact H. }
  destruct Hok as [Hq Hok]. fold (hist_docs hs) in *. rewrite app_assoc in *. apply IH; auto.
  destruct q as [R lk keys ds2|q]; cbn [hreq_req hreq_docs] in *.
  - apply (cinv_add n cap ids); auto.
    + rewrite !app_length in *. lia.
    + rewrite ops_of_app in Hf. now apply Forall_app in Hf.
    + rewrite ops_of_app in Hw. now apply Forall_app in Hw.
    + rewrite ops_of_app, map_app in Hids. intros j Hj. apply Hids, in_or_app. now left.
  - rewrite app_nil_r. now apply cinv_other.
Qed.
