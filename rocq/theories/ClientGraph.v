(** The shape of the graph over histories of requests. *)
From Coq Require Import String.
From Verif Require Import Base F32 PQ PQProofs Graph Search SearchProofs SearchLayer SearchKnn
  SearchCong Insert HeuristicProofs InsertProofs InsertHist InsertTotal InsertDim InsertSmall InsertFacts InsertFind
  Distancer DistancerProofs PropDistancer Persist PersistProofs PersistHist InsertRestart Client ClientProofs.
Local Open Scope list_scope.

(* ------------------------------------------------------------------ *)
(** What every request does to the index. *)
Section Closed.
  Variable J : hnsw -> Prop.
  Variable ok_env : ienv -> Prop.
  Hypothesis J_add : forall I h id q t, ok_env I -> J h -> J (fst (add I h id q t)).
  Hypothesis J_flush : forall h keys cnt n, J h -> J (fst (flush h keys cnt n)).
  Hypothesis J_restart : forall h, J h -> J (restart h).
  Hypothesis J_load : forall h, J h -> J (load_ep h).

  Definition env_req (q : creq) : Prop :=
    match q with QAdd _ _ _ docs => Forall (fun p => ok_env (do_env (snd p))) docs | _ => True end.

  Lemma closed_store o st d : J (c_h st) -> J (c_h (fst (store_doc o st d))).
  Proof. unfold store_doc. destruct (negb (do_marshal o)); [auto|]. destruct (do_docput o); auto. Qed.
  Lemma closed_indexed o st b d p v : ok_env (do_env o) -> J (c_h st) ->
    match add_indexed o st b d p v with (st', _, _) => J (c_h st') end.
  Proof.
    intros He Hj. unfold add_indexed. pose proof (J_add (do_env o) (c_h st) b v (do_lvl o) He Hj) as H.
    destruct (add _ _ _ _ _) as [h' [u|e| |]]; cbn [fst] in H; auto.
    pose proof (closed_store o (with_h st h') (mkSD (di_id d) (Z.of_N b) p (Some v)) H) as Hs.
    destruct (store_doc _ _ _). exact Hs.
  Qed.
  Lemma closed_doc lookup keys st b d o : ok_env (do_env o) -> J (c_h st) ->
    match add_doc lookup keys st b d o with (st', _, _) => J (c_h st') end.
  Proof.
    intros He Hj. unfold add_doc. destruct d as [d|]; [|auto]. cbv zeta. set (p := pset _ _ _).
    destruct (pget _ p) as [[| | | |l| |v]|]; auto; try (destruct (vector_of l); [now apply closed_indexed|auto]); try (now apply closed_indexed);
      (destruct (vector_text p keys) as [text|e| |]; auto; destruct (String.eqb text "");
        [pose proof (closed_store o st (mkSD (di_id d) (-1) p None) Hj) as Hs;
         destruct (store_doc o st (mkSD (di_id d) (-1) p None)); exact Hs|
         destruct (negb lookup); auto; destruct (do_corpi o text) as [[v|]|e| |]; auto; now apply closed_indexed]).
  Qed.
  Lemma closed_loop lookup keys docs : Forall (fun p => ok_env (do_env (snd p))) docs -> forall st b, J (c_h st) ->
    match add_loop lookup keys st b docs with (st', _, _) => J (c_h st') end.
  Proof.
    induction 1 as [|[d o] docs He Hd IH]; intros st b Hj; cbn [add_loop]; [auto|].
    pose proof (closed_doc lookup keys st b d o He Hj) as H. destruct (add_doc lookup keys st b d o) as [[st1 b1] [[]|e| |]]; auto.
    now apply IH.
  Qed.
  Lemma closed_open R st : J (c_h st) -> J (c_h (fst (open_coll R st))).
  Proof.
    intros Hj. unfold open_coll. destruct (negb (r_kvopen R)); [auto|]. destruct (negb (r_isopen R)); [auto|].
    destruct (c_open st); [auto|]. destruct (r_docopen R); cbn [fst c_h]; now apply J_restart.
  Qed.
  Lemma closed_near Q st q maxd ef limit : J (c_h st) -> J (c_h (fst (near_docs Q st q maxd ef limit))).
  Proof. intros Hj. unfold near_docs. destruct (negb (c_reg st)); [auto|]. cbn. now apply J_load. Qed.
  Definition not_add (q : creq) : Prop := match q with QAdd _ _ _ _ => False | _ => True end.
  Lemma closed_other st q : not_add q -> J (c_h st) -> J (c_h (req_step st q)).
  Proof.
    intros Ha Hj. destruct q as [R lk keys docs|Q v d l|Q lk c d l|R ok id| |]; cbn [req_step]; [destruct Ha|..].
    - unfold near_by_vector. pose proof (closed_open (q_open Q) st Hj) as Ho.
      destruct (open_coll (q_open Q) st) as [s1 [[]|e| |]]; cbn [fst] in *; auto. now apply closed_near.
    - unfold near_by_text. pose proof (closed_open (q_open Q) st Hj) as Ho.
      destruct (open_coll (q_open Q) st) as [s1 [[]|e| |]]; cbn [fst] in *; auto.
      destruct (negb lk); [exact Ho|]. destruct c as [[w|]|e| |]; auto; [now apply closed_near|].
      cbn [fst]. destruct (c_reg s1); [now apply J_load|exact Ho].
    - unfold get_document. destruct (negb (r_isopen R)); [exact Hj|]. destruct (negb (c_open st) && negb (r_docopen R)); [exact Hj|].
      destruct (negb ok); [exact Hj|]. destruct (find _ _); exact Hj.
    - now apply J_restart.
    - now apply J_restart.
  Qed.
  Lemma closed_step st q : env_req q -> J (c_h st) -> J (c_h (req_step st q)).
  Proof.
    intros He Hj. destruct q as [R lk keys docs|Q v d l|Q lk c d l|R ok id| |]; try (now apply closed_other).
    cbn [req_step]. unfold add_documents. pose proof (closed_open R st Hj) as Ho.
    destruct (open_coll R st) as [s1 [[]|e| |]]; cbn [fst] in *; auto.
    destruct (negb (c_reg s1)); [auto|].
    pose proof (closed_loop lk keys docs He s1 (first_id (c_h s1)) Ho) as Hl.
    destruct (add_loop _ _ _ _ _) as [[s2 b] [[]|e| |]]; cbn [fst]; auto.
    unfold finish_add. pose proof (J_flush (c_h s2) (r_keys R (c_h s2)) b (r_puts R) Hl) as Hf.
    destruct (flush _ _ _ _) as [h' [[]|e| |]]; exact Hf.
  Qed.
  Lemma closed_run qs : Forall env_req qs -> forall st, J (c_h st) -> J (c_h (run_reqs st qs)).
  Proof. induction 1 as [|q qs Hq Hqs IH]; intros st Hj; cbn [run_reqs]; [exact Hj|]. apply IH. now apply closed_step. Qed.
End Closed.

(** Numbers of links. *)
Definition dstate (M : nat) (h : hnsw) : Prop :=
  pinv h /\ deg_ok M h /\ forall j v, mget j (h_kv h) = Some v -> degs M v.

Lemma pview_degs M h h' : (forall j, pview h' j = pview h j) -> deg_ok M h -> deg_ok M h'.
Proof.
  intros Hv Hd j v Hj. specialize (Hv j). unfold pview in Hv. rewrite Hj in Hv. cbn [option_map] in Hv.
  destruct (node_by_id h j) as [w|] eqn:Hw; [|discriminate]. cbn [option_map] in Hv.
  assert (E : v_conns v = v_conns w).
  { change (v_conns v) with (v_conns (stored v)). change (v_conns w) with (v_conns (stored w)). congruence. }
  intros l cs Hl. rewrite E in Hl. exact (Hd j w Hw l cs Hl).
Qed.

Lemma dstate_add M I h id q t : i_M I = M -> dstate M h -> dstate M (fst (add I h id q t)).
Proof.
  intros HM (Hp & Hd & Hk). split; [now apply add_pinv|]. split; [now apply add_deg|].
  destruct (add_kv I h id q t Hp) as [E _]. rewrite E. exact Hk.
Qed.
Lemma dstate_flush M h keys cnt n : dstate M h -> dstate M (fst (flush h keys cnt n)).
Proof.
  intros (Hp & Hd & Hk). destruct (flush_any h keys cnt n Hp) as (F1 & F2 & F3 & _). split; [exact F1|].
  split; [now apply (pview_degs M h)|]. intros j v Hj. destruct (F3 j) as [E|E]; rewrite E in Hj; [now apply Hk with j|].
  unfold pview in Hj. destruct (node_by_id h j) as [w|] eqn:Hw; [|discriminate]. cbn in Hj. injection Hj as <-. exact (Hd j w Hw).
Qed.
Lemma dstate_restart M h : dstate M h -> dstate M (restart h).
Proof. intros (Hp & Hd & Hk). split; [now apply restart_pinv|]. split; [|exact Hk]. intros j v Hj. apply (Hk j v). exact Hj. Qed.
Lemma dstate_load M h : dstate M h -> dstate M (load_ep h).
Proof. intros (Hp & Hd & Hk). split; [now apply load_ep_pinv|]. split; [|exact Hk]. exact Hd. Qed.
Lemma dstate_run M qs : Forall (env_req (fun I => i_M I = M)) qs -> dstate M (c_h (run_reqs new_coll qs)).
Proof.
  intros H. apply (closed_run (dstate M) (fun I => i_M I = M)); auto.
  - intros. now apply dstate_add.
  - intros. now apply dstate_flush.
  - intros. now apply dstate_restart.
  - intros. now apply dstate_load.
  - split; [apply pinv_empty|]. split; intros j v; [discriminate|]. cbn. discriminate.
Qed.

(* ------------------------------------------------------------------ *)
(** Links. *)
Record gcore (cap b : N) (h : hnsw) : Prop := {
  gc_p : pinv h;
  gc_w : winv h;
  gc_small : ids_below cap h;
  gc_ep : ep_top h;
  gc_built : h_once h = true \/ is_empty h = false;
  gc_zero : exists v, node_by_id h 0 = Some v;
  gc_dom : forall id v, node_by_id h id = Some v -> (id < b)%N
}.
Definition gloop (cap b : N) (h : hnsw) : Prop := pristine h /\ b = 0%N \/ gcore cap b h.

Definition env_ok (cap : N) (I : ienv) : Prop :=
  sched_ok (i_env I) /\ prov_sym (e_prov (i_env I)) /\ e_vcap (i_env I) = cap /\ (i_vcsize I <= cap)%N.

Lemma pristine_pinv h : pristine h -> pinv h.
Proof. intros (H1 & H2 & _). constructor; intros j v; rewrite ?H1, ?H2; discriminate. Qed.

Lemma insert_fits I h id q t : snd (insert I h id q t) = Ok tt -> (id < i_vcsize I)%N.
Proof.
  unfold insert, insert_initial, insert_linked. destruct (N.ltb_spec id (i_vcsize I)) as [H|H]; [auto|].
  destruct (negb (h_once h) && is_empty h); cbn; discriminate.
Qed.

Lemma gloop_add cap b h I v t : env_ok cap I -> gloop cap b h -> snd (add I h b v t) = Ok tt ->
  gcore cap (N.succ b) (fst (add I h b v t)).
Proof.
  intros (Hsc & Hsym & Hcap & Hvc) Hg Hok.
  assert (Hb : (b < cap)%N).
  { unfold add in Hok. destruct v; [discriminate|]. apply insert_fits in Hok. lia. }
  destruct Hg as [[Hp ->]|[P W S Ep B (v0 & Hz) D]].
  - pose proof (add_step cap [] [] h (mkA I 0 v t) (or_introl (conj Hp eq_refl))) as H. cbv zeta in H. cbn [a_env a_id a_vec a_lvl] in H.
    rewrite Hok in H. destruct H as [[_ H]|[W S D Ep Su O]]; [now unfold op_ok; cbn| |discriminate|].
    { intros [_ _ _ (w & Hw & _) _ _]. exfalso. rewrite (proj2 (pristine_empty _ Hp)) in Hw. discriminate. }
    destruct Ep as (w & Hw & Hl).
    constructor; auto.
    + apply add_pinv. now apply pristine_pinv.
    + exists w. split; [exact Hw|lia].
    + destruct (Su (mkA I 0 v t) (or_introl eq_refl)) as (x & Hx & _). exists x. exact Hx.
    + intros id x Hx. destruct (D id x Hx) as [<-|[]]. cbn. lia.
  - assert (Hp' : pinv (fst (add I h b v t))) by now apply add_pinv.
    unfold add in *. destruct v as [|x q0] eqn:Eq; [discriminate|]. rewrite <- Eq in *. clear Eq.
    unfold insert in *. assert (Hbf : negb (h_once h) && is_empty h = false) by (destruct B as [-> | ->]; [reflexivity|apply andb_false_r]).
    rewrite Hbf in *. set (q := p_normalize _ _) in *.
    assert (S' : ids_small (i_env I) (with_once h)) by (unfold ids_small; rewrite Hcap; exact S).
    assert (W' : winv (with_once h)) by (apply (winv_ext h); [reflexivity|exact W]).
    destruct Ep as (vep & Hep & Hml).
    assert (Ep' : ep_top (with_once h)) by (exists vep; cbn; split; [exact Hep|lia]).
    assert (Habs : node_by_id h b = None).
    { destruct (node_by_id h b) as [w|] eqn:Hw; [|reflexivity]. specialize (D b w Hw). lia. }
    assert (Hu : unlinked b (with_once h)) by now apply (unlinked_absent (with_once h)).
    assert (Hne : h_ep (with_once h) <> b) by (cbn; intros E; congruence).
    assert (Hid : (b < e_vcap (i_env I))%N) by now rewrite Hcap.
    pose proof (insert_linked_inv I Hsc Hsym (with_once h) b q t W' S' Ep' Hu Hne Hid) as (W2 & S2 & Ep2 & A2 & O2 & M2 & Ok2 & Er2).
    set (r := insert_linked _ _ _ _ _) in *.
    assert (H0 : 0%N <> b) by (intros E; rewrite <- E in Habs; congruence).
    constructor; auto.
    + unfold ids_below. rewrite <- Hcap. exact S2.
    + destruct (ar_fw _ _ _ A2 0%N v0 H0 Hz) as (w & Hw & _). eauto.
    + intros id w Hw. destruct (N.eq_dec id b) as [->|Hn]; [lia|].
      destruct (ar_bw _ _ _ A2 id w Hn Hw) as (w0 & Hw0). specialize (D id w0 Hw0). lia.
Qed.

(** The loop of AddDocuments writes only new entries to the log. *)
Definition longer (l l' : list err) : Prop := exists k, l' = k ++ l.
Lemma longer_refl l : longer l l. Proof. now exists []. Qed.
Lemma longer_cons e l : longer l (e :: l). Proof. now exists [e]. Qed.
Lemma longer_trans a b c : longer a b -> longer b c -> longer a c.
Proof. intros (k & ->) (k' & ->). exists (k' ++ k). now rewrite app_assoc. Qed.
Lemma longer_length a b : longer a b -> length a <= length b.
Proof. intros (k & ->). rewrite app_length. lia. Qed.
Lemma longer_back a b : longer a b -> longer b a -> a = b.
Proof.
  intros H1 H2. pose proof (longer_length _ _ H1). pose proof (longer_length _ _ H2). destruct H1 as (k & ->).
  rewrite app_length in *. destruct k; [reflexivity|cbn in *; lia].
Qed.
#[local] Hint Resolve longer_refl longer_cons : core.

Lemma store_longer o st d : longer (c_log st) (c_log (fst (store_doc o st d))).
Proof. unfold store_doc. destruct (negb (do_marshal o)); [cbn; auto|]. destruct (do_docput o); cbn; auto. Qed.
Lemma indexed_longer o st b d p v : match add_indexed o st b d p v with (st', _, _) => longer (c_log st) (c_log st') end.
Proof.
  unfold add_indexed. destruct (add _ _ _ _ _) as [h' [u|e| |]]; cbn; auto.
  pose proof (store_longer o (with_h st h') (mkSD (di_id d) (Z.of_N b) p (Some v))) as Hs. destruct (store_doc _ _ _). exact Hs.
Qed.
Lemma doc_longer lookup keys st b d o : match add_doc lookup keys st b d o with (st', _, _) => longer (c_log st) (c_log st') end.
Proof.
  unfold add_doc. destruct d as [d|]; [|auto]. cbv zeta. set (p := pset _ _ _).
  destruct (pget _ p) as [[| | | |l| |v]|]; auto; try (destruct (vector_of l); [apply indexed_longer|auto]); try apply indexed_longer;
    (destruct (vector_text p keys) as [text|e| |]; auto; destruct (String.eqb text "");
      [pose proof (store_longer o st (mkSD (di_id d) (-1) p None)) as Hs;
       destruct (store_doc o st (mkSD (di_id d) (-1) p None)); exact Hs|
       destruct (negb lookup); auto; destruct (do_corpi o text) as [[v|]|e| |]; cbn; auto; apply indexed_longer]).
Qed.
Lemma loop_longer lookup keys docs : forall st b,
  match add_loop lookup keys st b docs with (st', _, _) => longer (c_log st) (c_log st') end.
Proof.
  induction docs as [|[d o] docs IH]; intros st b; cbn [add_loop]; [auto|].
  pose proof (doc_longer lookup keys st b d o) as H. destruct (add_doc lookup keys st b d o) as [[st1 b1] [[]|e| |]]; auto.
  specialize (IH st1 b1). destruct (add_loop lookup keys st1 b1 docs) as [[st2 b2] r]. eapply longer_trans; eauto.
Qed.

Lemma gcore_mono cap b b' h : (b <= b')%N -> gcore cap b h -> gcore cap b' h.
Proof. intros Hb [P W S Ep B Z D]. constructor; auto. intros id v Hv. specialize (D id v Hv). lia. Qed.

Lemma store_h o st d : c_h (fst (store_doc o st d)) = c_h st.
Proof. unfold store_doc. destruct (negb (do_marshal o)); [reflexivity|]. destruct (do_docput o); reflexivity. Qed.

Lemma gloop_indexed cap o st b d p v : env_ok cap (do_env o) -> gloop cap b (c_h st) ->
  match add_indexed o st b d p v with (st', b', r) =>
    r = Ok tt -> c_log st' = c_log st -> gloop cap b' (c_h st') end.
Proof.
  intros He Hg. unfold add_indexed. pose proof (gloop_add cap b (c_h st) (do_env o) v (do_lvl o) He Hg) as H.
  destruct (add _ _ _ _ _) as [h' [[]|e| |]]; cbn [fst snd] in *; try discriminate.
  - pose proof (store_h o (with_h st h') (mkSD (di_id d) (Z.of_N b) p (Some v))) as Hs. destruct (store_doc _ _ _) as [s r].
    cbn [fst with_h c_h] in Hs. intros _ _. right. rewrite Hs. now apply H.
  - intros _ E. exfalso. apply (f_equal (@length _)) in E. cbn in E. lia.
Qed.
Lemma gloop_doc cap lookup keys st b d o : env_ok cap (do_env o) -> gloop cap b (c_h st) ->
  match add_doc lookup keys st b d o with (st', b', r) =>
    r = Ok tt -> c_log st' = c_log st -> gloop cap b' (c_h st') end.
Proof.
  intros He Hg. unfold add_doc. destruct d as [d|]; [|discriminate]. cbv zeta. set (p := pset _ _ _).
  destruct (pget _ p) as [[| | | |l| |v]|]; try discriminate; try (destruct (vector_of l); [now apply gloop_indexed|discriminate]); try (now apply gloop_indexed);
    (destruct (vector_text p keys) as [text|e| |]; try discriminate; destruct (String.eqb text "");
      [pose proof (store_h o st (mkSD (di_id d) (-1) p None)) as Hs;
       destruct (store_doc o st (mkSD (di_id d) (-1) p None)) as [s r]; cbn [fst] in Hs; intros _ _; rewrite Hs; exact Hg|
       destruct (negb lookup); try discriminate; destruct (do_corpi o text) as [[v|]|e| |]; try discriminate; [now apply gloop_indexed|];
       intros _ E; exfalso; apply (f_equal (@length _)) in E; cbn in E; lia]).
Qed.
Lemma gloop_loop cap lookup keys docs : Forall (fun p => env_ok cap (do_env (snd p))) docs -> forall st b, gloop cap b (c_h st) ->
  match add_loop lookup keys st b docs with (st', b', r) =>
    r = Ok tt -> c_log st' = c_log st -> gloop cap b' (c_h st') end.
Proof.
  induction 1 as [|[d o] docs He Hd IH]; intros st b Hg; cbn [add_loop]; [auto|].
  pose proof (gloop_doc cap lookup keys st b d o He Hg) as H. pose proof (doc_longer lookup keys st b d o) as L1.
  destruct (add_doc lookup keys st b d o) as [[st1 b1] [[]|e| |]]; try discriminate.
  specialize (IH st1 b1). pose proof (loop_longer lookup keys docs st1 b1) as L2.
  destruct (add_loop lookup keys st1 b1 docs) as [[st2 b2] r]. intros Hr Hl. rewrite Hl in L2.
  pose proof (longer_back _ _ L1 L2) as E. apply IH; auto; congruence.
Qed.

(** Between two requests: everything is in the table. *)
Record gfull (cap : N) (h : hnsw) : Prop := {
  gf_core : gcore cap (first_id h) h;
  gf_kv : forall id, mget id (h_kv h) = pview h id;
  gf_ep : exists e v, h_kv_ep h = Some e /\ node_by_id h e = Some v /\ h_maxl h <= v_level v
}.
Definition gsteady (cap : N) (h : hnsw) : Prop := pristine h \/ gfull cap h.

Lemma content_back h h' id v' : (forall j, content h' j = content h j) -> node_by_id h' id = Some v' ->
  exists v, node_by_id h id = Some v /\ v_level v = v_level v' /\ v_conns v = v_conns v'.
Proof.
  intros Hc Hv'. specialize (Hc id). unfold content in Hc. rewrite Hv' in Hc.
  destruct (node_by_id h id) as [v|]; [|discriminate]. cbn in Hc. injection Hc as C1 C2 C3 C4. exists v. auto.
Qed.
Lemma gcore_content cap b h h' : gcore cap b h -> pinv h' -> (forall id, content h' id = content h id) ->
  ep_top h' -> (h_once h' = true \/ is_empty h' = false) -> gcore cap b h'.
Proof.
  intros [P W S Ep B (v0 & Hz) D] Hp Hc Het Hb.
  assert (Hc' : forall id, content h id = content h' id) by (intros; symmetry; apply Hc).
  constructor; auto.
  - destruct W as [Wi Wl Wk Wn]. constructor.
    + intros id v Hv. now apply pinv_id with h'.
    + intros id v Hv. destruct (content_back h h' _ _ Hc Hv) as (w & Hw & E1 & E2). rewrite <- E1, <- E2. now apply Wl with id.
    + intros id v l cs c Hv Hl Hcin. destruct (content_back h h' _ _ Hc Hv) as (w & Hw & E1 & E2). rewrite <- E2 in Hl.
      destruct (Wk _ _ _ _ _ Hw Hl Hcin) as (X1 & u & X2 & X3). split; [exact X1|].
      destruct (content_back h' h _ _ Hc' X2) as (u' & U1 & U2 & _). exists u'. split; [exact U1|lia].
    + intros id v l cs Hv Hl. destruct (content_back h h' _ _ Hc Hv) as (w & Hw & E1 & E2). rewrite <- E2 in Hl. eapply Wn; eauto.
  - intros id v Hv. destruct (content_back h h' _ _ Hc Hv) as (w & Hw & _). eapply S; eauto.
  - destruct (content_back h' h _ _ Hc' Hz) as (w & Hw & _). eauto.
  - intros id v Hv. destruct (content_back h h' _ _ Hc Hv) as (w & Hw & _). eapply D; eauto.
Qed.

Lemma gfull_flush cap b h keys k : gcore cap b h -> all_keys h keys -> snd (flush h keys b k) = Ok tt ->
  gfull cap (fst (flush h keys b k)).
Proof.
  intros Hg Hk Hok. pose proof (gc_p _ _ _ Hg) as Hp.
  destruct (flush_restart h keys b k tt Hp Hk Hok) as (V & Cn & Ke & He & Hm & Ht). cbv zeta in *.
  destruct (flush_any h keys b k Hp) as (Hp' & _ & _ & _ & (_ & _ & _ & Ho) & _). cbv zeta in *.
  destruct (flush_ok h keys b k tt Hp Hk Hok) as (K & _). set (h' := fst (flush h keys b k)) in *.
  assert (Hc : forall id, content h' id = content h id) by (intros id; apply content_pview, V).
  assert (Hc' : forall id, content h id = content h' id) by (intros; symmetry; apply Hc).
  destruct (gc_ep _ _ _ Hg) as (v & Hv & Hl).
  destruct (content_back h' h _ _ Hc' Hv) as (v' & Hv' & Hl' & _).
  assert (Ef : first_id h' = b) by (unfold first_id, doc_count; cbn [restart h_kv_count] in Cn; change (h_kv_count h' = Some b) in Cn; now rewrite Cn).
  constructor.
  - rewrite Ef. apply (gcore_content cap b h); auto.
    + exists v'. rewrite He, Hm. split; [exact Hv'|lia].
    + right. unfold is_empty. cbn [restart h_kv_ep] in Ke. rewrite Ke. destruct (h_kv h'); reflexivity.
  - intros id. rewrite K. symmetry. apply V.
  - exists (h_ep h), v'. cbn [restart h_kv_ep] in Ke. rewrite Ke, Hm. repeat split; auto. lia.
Qed.
Lemma gfull_after cap h b : gfull cap h -> gfull cap (after_step h b).
Proof.
  intros [Hg Kv (e & v & Ke & Hv & Hl)]. pose proof (gc_p _ _ _ Hg) as Hp.
  assert (Hemp : forall h2, h_kv_ep h2 = h_kv_ep h -> is_empty h2 = false).
  { intros h2 E. unfold is_empty. rewrite E, Ke. destruct (h_kv h2); reflexivity. }
  destruct b; cbn [after_step].
  - assert (Hpv : forall id, pview (restart h) id = pview h id).
    { intros id. unfold pview at 1, node_by_id. cbn [restart h_cache h_kv mget]. rewrite Kv.
      unfold pview. destruct (node_by_id h id); reflexivity. }
    assert (Hc : forall id, content (restart h) id = content h id) by (intros id; apply content_pview, Hpv).
    assert (Hc' : forall id, content h id = content (restart h) id) by (intros; symmetry; apply Hc).
    destruct (gc_zero _ _ _ Hg) as (v0 & Hz).
    constructor.
    + change (first_id (restart h)) with (first_id h). apply (gcore_content cap _ h); auto.
      * now apply restart_pinv.
      * destruct (content_back _ _ _ _ Hc' Hz) as (w & Hw & _). exists w. cbn [restart h_ep h_maxl]. split; [exact Hw|lia].
    + intros id. rewrite Hpv. apply Kv.
    + destruct (content_back _ _ _ _ Hc' Hv) as (w & Hw & _). exists e, w. cbn [restart h_kv_ep h_maxl]. repeat split; auto. lia.
  - assert (Hep : h_ep (load_ep h) = e) by (unfold load_ep; cbn; now rewrite Ke).
    constructor.
    + change (first_id (load_ep h)) with (first_id h). apply (gcore_content cap _ h); auto.
      * now apply load_ep_pinv.
      * exists v. rewrite Hep. split; [exact Hv|exact Hl].
    + exact Kv.
    + exists e, v. auto.
Qed.
Lemma gsteady_after cap h b : gsteady cap h -> gsteady cap (after_step h b).
Proof.
  intros [(H1 & H2 & H3 & H4 & H5)|H]; [left|right; now apply gfull_after].
  destruct b; cbn; repeat split; auto.
Qed.

(** An add request that was acknowledged, wrote no error to the log and left at
    least one vector in the index, or that did no more than open the collection. *)
Definition whole_req (st : coll) (q : creq) : Prop :=
  match q with
  | QAdd R lookup keys docs =>
      let r := add_documents R lookup keys docs st in
      (snd r = Ok tt /\ c_log (fst r) = c_log st /\ first_id (c_h (fst r)) <> 0%N) \/
      fst r = fst (open_coll R st)
  | _ => True
  end.
Fixpoint whole (st : coll) (qs : list creq) : Prop :=
  match qs with [] => True | q :: qs' => whole_req st q /\ whole (req_step st q) qs' end.
Definition link_req (cap : N) (q : creq) : Prop :=
  match q with QAdd R _ _ docs => rorc_ok R /\ Forall (fun p => env_ok cap (do_env (snd p))) docs | _ => True end.

Lemma gsteady_open cap R st : gsteady cap (c_h st) -> gsteady cap (c_h (fst (open_coll R st))).
Proof. apply (closed_open (gsteady cap)). intros h H. exact (gsteady_after cap h true H). Qed.

Lemma open_log R st : c_log (fst (open_coll R st)) = c_log st.
Proof.
  unfold open_coll. destruct (negb (r_kvopen R)); [auto|]. destruct (negb (r_isopen R)); [auto|].
  destruct (c_open st); [auto|]. destruct (r_docopen R); reflexivity.
Qed.

Lemma gsteady_step cap st q : gsteady cap (c_h st) -> link_req cap q -> whole_req st q -> gsteady cap (c_h (req_step st q)).
Proof.
  intros Hg Hl Hw. destruct q as [R lk keys docs|Q v d l|Q lk c d l|R ok id| |];
    try (apply (closed_other (gsteady cap)); [intros h H; exact (gsteady_after cap h true H)|
      intros h H; exact (gsteady_after cap h false H)|exact I|exact Hg]).
  { cbn [req_step] in *. destruct Hl as [HR Hd]. destruct Hw as [(Hok & Hlog & Hz)|E]; [|rewrite E; now apply gsteady_open].
    revert Hok Hlog Hz. unfold add_documents. pose proof (gsteady_open cap R st Hg) as Ho. pose proof (open_log R st) as El.
    destruct (open_coll R st) as [s1 [[]|e| |]]; cbn [fst snd] in *; try discriminate.
    destruct (negb (c_reg s1)); [discriminate|].
    assert (Hg1 : gloop cap (first_id (c_h s1)) (c_h s1)).
    { destruct Ho as [Hp|Hf]; [left|right; apply Hf]. split; [exact Hp|]. destruct Hp as (_ & _ & _ & Hc & _).
      unfold first_id, doc_count. now rewrite Hc. }
    pose proof (gloop_loop cap lk keys docs Hd s1 _ Hg1) as H.
    destruct (add_loop _ _ _ _ _) as [[s2 b] r]. destruct r as [[]|e| |]; cbn [fst snd]; try discriminate.
    unfold finish_add.
    pose proof (fun Hc => gfull_flush cap b (c_h s2) (r_keys R (c_h s2)) (r_puts R) Hc (HR _)) as Hf.
    pose proof (fun Hp => flush_ok (c_h s2) (r_keys R (c_h s2)) b (r_puts R) tt Hp (HR _)) as Hfo.
    destruct (flush _ _ _ _) as [h' [[]|e| |]]; cbn [fst snd] in *; try discriminate.
    intros _ Hlog Hz. cbn [with_h c_log c_h] in *. right.
    assert (Hgl : gloop cap b (c_h s2)) by (apply H; [reflexivity|congruence]).
    destruct Hgl as [[Hp ->]|Hc]; [|now apply Hf].
    exfalso. apply Hz. destruct (Hfo (pristine_pinv _ Hp) eq_refl) as (_ & _ & Hcn). unfold first_id, doc_count. now rewrite Hcn. }
Qed.

Lemma gsteady_run cap qs : forall st, gsteady cap (c_h st) -> Forall (link_req cap) qs -> whole st qs ->
  gsteady cap (c_h (run_reqs st qs)).
Proof.
  induction qs as [|q qs IH]; intros st Hg Hl Hw; cbn [run_reqs]; [exact Hg|]. inversion Hl; subst. destruct Hw.
  apply IH; auto. now apply gsteady_step.
Qed.

Lemma pristine_none h : pristine h -> forall id, node_by_id h id = None.
Proof. intros H. apply (pristine_empty h H). Qed.
Lemma gsteady_winv cap h : gsteady cap h -> winv h.
Proof. intros [H|H]; [now apply winv_none, pristine_none|apply H]. Qed.
