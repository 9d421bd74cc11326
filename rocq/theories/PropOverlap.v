(** C95: queries have no effect on the additions they run beside. *)
From Coq Require Import String.
From Verif Require Import Base F32 PQ PQProofs Graph Search SearchProofs SearchLayer SearchKnn
  SearchCong Insert HeuristicProofs InsertProofs InsertHist InsertTotal InsertDim InsertSmall InsertFacts InsertFind
  Distancer DistancerProofs PropDistancer TestGraph TestInsert PropSearch PropInsert PropFind
  Persist PersistProofs PersistHist LRU LRUProofs PropPersist InsertRestart Collections CollectionsProofs
  Client ClientProofs ClientSafe ClientFacts ClientReq PropClient VCache VCacheProofs VCacheFacts ClientIds ClientSmall
  PropRequests PropReads Overlap.
Local Open Scope string_scope.

(** Without other requests this is AddDocuments. *)
Theorem C95_alone R lookup keys docs st : add_during R lookup keys [] docs st = add_documents R lookup keys docs st.
Proof.
  assert (L : forall docs st i, loop_during lookup keys [] st i docs = add_loop lookup keys st i docs).
  { induction docs0 as [|[d o] docs' IH]; intros s i; cbn; [reflexivity|].
    destruct (add_doc lookup keys s i d o) as [[s' i'] [u|e| |]]; auto. }
  unfold add_during, add_documents. destruct (open_coll R st) as [st1 [u|e| |]]; try reflexivity.
  destruct (negb (c_reg st1)); [reflexivity|]. now rewrite L.
Qed.

(** What linking a node leaves alone. *)
Definition same (h h' : hnsw) : Prop :=
  h_ep h' = h_ep h /\ h_maxl h' = h_maxl h /\ h_kv_ep h' = h_kv_ep h /\ h_once h' = h_once h.
Lemma same_refl h : same h h.
Proof. repeat split. Qed.
Lemma same_trans a b c : same a b -> same b c -> same a c.
Proof. intros (A1 & A2 & A3 & A4) (B1 & B2 & B3 & B4). repeat split; congruence. Qed.
Lemma connect_same I nid q l : forall h ep, same h (fst (connect_levels I h nid q l ep)).
Proof.
  assert (Hn : forall h l nb, same h (fst (connect_neighbor I h nid l nb))).
  { intros h l0 nb. unfold connect_neighbor. destruct (node_by_id h nb); [|apply same_refl].
    destruct (N.eqb nb nid); [apply same_refl|]. destruct (has_tombstone h _); [apply same_refl|].
    destruct (conns_at _ l0); [|repeat split]. destruct (Nat.ltb _ _).
    - destruct (append_conn_at _ _ _); repeat split.
    - destruct (reselect _ _ _ _ _); repeat split. }
  assert (Ha : forall l nbs h, same h (fst (connect_all I h nid l nbs))).
  { intros l0. induction nbs as [|nb nbs IH]; intros h; cbn [connect_all]; [apply same_refl|].
    specialize (Hn h l0 nb). destruct (connect_neighbor I h nid l0 nb) as [h' [[]|e| |]]; cbn [fst] in *; auto.
    eapply same_trans; [exact Hn|apply IH]. }
  assert (Hd : forall h l ep, same h (fst (do_at_level I h nid q l ep))).
  { intros h l0 ep. unfold do_at_level. destruct (choose_neighbours _ _ _ _ _ _) as [[ep' nbs]|e| |]; try apply same_refl.
    destruct (node_by_id h nid) as [v|]; [|apply same_refl].
    destruct (set_conns_at v l0 nbs) as [v'|e| |]; try apply same_refl.
    specialize (Ha l0 nbs (put_node h v')). destruct (connect_all _ _ _ _ _) as [h' [[]|e| |]]; exact Ha. }
  induction l as [|l IH]; intros h ep; cbn [connect_levels].
  - specialize (Hd h 0 ep). destruct (do_at_level _ _ _ _ _ _) as [h' [ep'|e| |]]; exact Hd.
  - specialize (Hd h (S l) ep). destruct (do_at_level _ _ _ _ _ _) as [h' [ep'|e| |]]; cbn [fst] in *; auto.
    eapply same_trans; [exact Hd|apply IH].
Qed.
Lemma linked_same I h id q t : t <= h_maxl h -> same h (fst (insert_linked I h id q t)).
Proof.
  intros Ht. unfold insert_linked. destruct (negb _); [apply same_refl|]. cbv zeta.
  destruct (best_entrypoint _ _ _ _ _ _) as [ep|e| |]; try (repeat split; fail).
  pose proof (connect_same I id q (Nat.min t (h_maxl h)) (put_node h (new_vertex id q t)) ep) as C.
  destruct (connect_levels _ _ _ _ _ _) as [h2 [u|e| |]]; cbn [fst] in *; try exact C.
  unfold finish_insert. destruct C as (C1 & C2 & C3 & C4).
  assert (S2 : same h (match node_by_id h2 id with Some v => put_node h2 (set_maint v false) | None => h2 end)).
  { destruct (node_by_id h2 id); repeat split; assumption. }
  destruct (Nat.ltb_spec (h_maxl (match node_by_id h2 id with Some v => put_node h2 (set_maint v false) | None => h2 end)) t) as [L|L]; [|exact S2].
  destruct S2 as (_ & S2 & _). lia.
Qed.
(** The state an addition keeps: [i] is the next index id. *)
Definition still (m : nat) (st : coll) (i : N) : Prop :=
  settled st /\ h_maxl (c_h st) = m /\ (is_empty (c_h st) = true -> h_once (c_h st) = false -> i = 0%N /\ m = 0%nat).
Lemma load_iff h : load_ep h = h <-> match h_kv_ep h with Some e => e | None => 0%N end = h_ep h.
Proof. destruct h as [a b c d e f g j]. unfold load_ep, with_ep. cbn. split; [intros [= ->]; reflexivity|intros ->; reflexivity]. Qed.
Lemma add_still m o st i v : still m st i -> do_lvl o <= m ->
  let r := add (do_env o) (c_h st) i v (do_lvl o) in
  (snd r = Ok tt -> still m (with_h st (fst r)) (N.succ i)) /\ ((forall u, snd r <> Ok u) -> still m (with_h st (fst r)) i).
Proof.
  intros (Hs & Hm & He) Hl r. destruct Hs as (Hr & Ho & Hld). apply load_iff in Hld.
  assert (D : (fst r = c_h st /\ forall u, snd r <> Ok u) \/
              (h_once (fst r) = true /\ load_ep (fst r) = fst r /\ h_maxl (fst r) = m)).
  { subst r. unfold add. destruct v as [|x v]; [left; split; [reflexivity|discriminate]|]. right. unfold insert.
    destruct (h_once (c_h st)) eqn:Eo; cbn [negb andb].
    - pose proof (linked_same (do_env o) (with_once (c_h st)) i (p_normalize (e_prov (i_env (do_env o))) (x :: v)) (do_lvl o)) as L.
      destruct L as (L1 & L2 & L3 & L4); [cbn; lia|]. cbn in L1, L2, L3, L4. split; [exact L4|].
      split; [apply load_iff; rewrite L3, L1; exact Hld|congruence].
    - destruct (is_empty (c_h st)) eqn:Ee.
      + destruct (He eq_refl eq_refl) as (-> & E0). unfold insert_initial.
        assert (K : h_kv_ep (c_h st) = None).
        { unfold is_empty in Ee. destruct (h_kv (c_h st)), (h_kv_ep (c_h st)), (h_kv_count (c_h st)); congruence. }
        destruct (N.ltb 0 (i_vcsize (do_env o))); cbn; (split; [reflexivity|]); (split; [apply load_iff; cbn; now rewrite K|congruence]).
      + pose proof (linked_same (do_env o) (with_once (c_h st)) i (p_normalize (e_prov (i_env (do_env o))) (x :: v)) (do_lvl o)) as L.
        destruct L as (L1 & L2 & L3 & L4); [cbn; lia|]. cbn in L1, L2, L3, L4. split; [exact L4|].
        split; [apply load_iff; rewrite L3, L1; exact Hld|congruence]. }
  destruct D as [(D1 & D2)|(D1 & D2 & D3)].
  - split; [intros E; destruct (D2 tt E)|]. intros _. rewrite D1. split; [|split].
    + split; [exact Hr|]. split; [exact Ho|]. apply load_iff. exact Hld.
    + exact Hm.
    + exact He.
  - split; intros _; (split; [split; [exact Hr|split; [exact Ho|exact D2]]|split; [exact D3|cbn; intros _; rewrite D1; discriminate]]).
Qed.
Lemma still_same m st st' i : still m st i -> c_h st' = c_h st -> c_reg st' = c_reg st -> c_open st' = c_open st -> still m st' i.
Proof. intros ((A & B & C) & D & E) H1 H2 H3. unfold still, settled. rewrite H1, H2, H3. auto. Qed.
Lemma store_same o st d : let r := store_doc o st d in c_h (fst r) = c_h st /\ c_reg (fst r) = c_reg st /\ c_open (fst r) = c_open st.
Proof. unfold store_doc. destruct (negb _); [|destruct (do_docput o)]; repeat split. Qed.
Lemma indexed_still m o st i d p v : still m st i -> do_lvl o <= m ->
  still m (fst (fst (add_indexed o st i d p v))) (snd (fst (add_indexed o st i d p v))).
Proof.
  intros S L. destruct (add_still m o st i v S L) as (A & B). unfold add_indexed.
  destruct (add (do_env o) (c_h st) i v (do_lvl o)) as [h' [[]|e| |]]; cbn [fst snd] in *.
  - specialize (A eq_refl).
    destruct (store_same o (with_h st h') (mkSD (di_id d) (Z.of_N i) p (Some v))) as (H1 & H2 & H3).
    destruct (store_doc _ _ _) as [st' r]. cbn [fst snd] in *. now apply (still_same m (with_h st h')).
  - apply (still_same m (with_h st h')); auto. apply B. discriminate.
  - apply B. discriminate.
  - apply B. discriminate.
Qed.
Lemma doc_still m lookup keys st i d o : still m st i -> do_lvl o <= m ->
  still m (fst (fst (add_doc lookup keys st i d o))) (snd (fst (add_doc lookup keys st i d o))).
Proof.
  intros S L. unfold add_doc. destruct d as [d|]; [|exact S].
  assert (T : forall p, still m (fst (fst (match vector_text p keys with
      | Ok text =>
          if String.eqb text "" then
            let (st', r) := store_doc o st (mkSD (di_id d) (-1) p None) in (st', i, r)
          else if negb lookup then (st, i, Err ENoVectorizer)
          else match do_corpi o text with
               | Ok (Some v) => add_indexed o st i d p v
               | Ok None => (st, i, Panic)
               | Err _ => (logged st EVectorizer, i, Ok tt)
               | Panic => (st, i, Panic)
               | OutOfFuel => (st, i, OutOfFuel)
               end
      | Err e => (st, i, Err e)
      | Panic => (st, i, Panic)
      | OutOfFuel => (st, i, OutOfFuel)
      end))) (snd (fst (match vector_text p keys with
      | Ok text =>
          if String.eqb text "" then
            let (st', r) := store_doc o st (mkSD (di_id d) (-1) p None) in (st', i, r)
          else if negb lookup then (st, i, Err ENoVectorizer)
          else match do_corpi o text with
               | Ok (Some v) => add_indexed o st i d p v
               | Ok None => (st, i, Panic)
               | Err _ => (logged st EVectorizer, i, Ok tt)
               | Panic => (st, i, Panic)
               | OutOfFuel => (st, i, OutOfFuel)
               end
      | Err e => (st, i, Err e)
      | Panic => (st, i, Panic)
      | OutOfFuel => (st, i, OutOfFuel)
      end)))).
  { intros p. destruct (vector_text p keys) as [text|e| |]; try exact S. destruct (String.eqb text "").
    - destruct (store_same o st (mkSD (di_id d) (-1) p None)) as (H1 & H2 & H3).
      destruct (store_doc _ _ _) as [st' r]. cbn [fst snd] in *. now apply (still_same m st).
    - destruct (negb lookup); [exact S|]. destruct (do_corpi o text) as [[v|]|e| |]; try exact S.
      now apply indexed_still. }
  destruct (pget "vector" _) as [[| | | |l|v|]|]; try exact S; try apply T.
  - destruct (vector_of l); [|exact S]. now apply indexed_still.
  - now apply indexed_still.
Qed.

(** Queries and reads by id, any number of them, before any of the documents and before
    Flush: the addition ends in the same state with the same answer, provided that no
    document gets above the top layer, and that the entry point in memory is the stored
    one when the request starts (as after every acknowledged request). *)
Lemma run_reads rs : forall st, settled st -> forallb reads rs = true -> run_reqs st rs = st.
Proof.
  induction rs as [|r rs IH]; intros st Hs H; [reflexivity|]. cbn in H. apply andb_true_iff in H as (H1 & H2).
  cbn [run_reqs]. rewrite (reads_settled st r Hs H1). now apply IH.
Qed.
Theorem C95_no_effect_partial R lookup keys rs docs st :
  settled st -> (is_empty (c_h st) = true -> h_maxl (c_h st) = 0%nat) ->
  Forall (fun d => do_lvl (snd d) <= h_maxl (c_h st)) docs ->
  Forall (fun l => forallb reads l = true) rs ->
  add_during R lookup keys rs docs st = add_documents R lookup keys docs st.
Proof.
  intros Hs He Hd Hr.
  assert (L : forall docs st i rs, still (h_maxl (c_h st)) st i -> Forall (fun d => do_lvl (snd d) <= h_maxl (c_h st)) docs ->
    Forall (fun l => forallb reads l = true) rs ->
    loop_during lookup keys rs st i docs = add_loop lookup keys st i docs).
  { clear. induction docs as [|[d o] docs IH]; intros st i rs S Hd Hr; cbn [loop_during add_loop].
    - rewrite run_reads; [reflexivity|apply S|]. destruct Hr; [reflexivity|assumption].
    - rewrite run_reads; [|apply S|destruct Hr; [reflexivity|assumption]].
      inversion_clear Hd as [|? ? H1 H2]. cbn [snd] in H1.
      pose proof (doc_still _ lookup keys st i d o S H1) as S'.
      destruct (add_doc lookup keys st i d o) as [[st' i'] [u|e| |]]; cbn [fst snd] in *; try reflexivity.
      assert (Em : h_maxl (c_h st') = h_maxl (c_h st)) by apply S'.
      apply IH; [rewrite Em; exact S'|rewrite Em; exact H2|]. destruct Hr; cbn [tl]; [constructor|assumption]. }
  unfold add_during, add_documents. pose proof (open_settled R st Hs) as Ho.
  destruct (open_coll R st) as [st1 [u|e| |]]; cbn [fst] in Ho; subst st1; try reflexivity.
  destruct (negb (c_reg st)); [reflexivity|]. rewrite L; [reflexivity| |exact Hd|exact Hr].
  split; [exact Hs|]. split; [reflexivity|]. intros E _. split; [|exact (He E)].
  unfold first_id, doc_count. unfold is_empty in E. destruct (h_kv (c_h st)), (h_kv_ep (c_h st)), (h_kv_count (c_h st)); congruence.
Qed.
Print Assumptions C95_alone.
Print Assumptions C95_no_effect_partial.

(** False when a document becomes the entry point: a query before Flush puts the stored
    entry point back, and Flush stores that one.  The request is acknowledged; with the
    query the last of its 62 documents is never found, now or in a new process, without
    the query it always is. *)
Definition docs62 := (map (vd85 0) (enum 0 (repeat [1; 0]%Z 61)) ++ [vd85 1 (61%N, [0; 1]%Z)])%list.
Definition before_flush : list (list creq) := (repeat [] 62 ++ [[read1]])%list.
Definition check95 (x : coll * res unit) : bool :=
  match snd x with Ok _ => finds 61 false (fst x) && finds 61 false (restart_coll (fst x)) | _ => false end.
Lemma st95_ok : check95 (add_during rok true [] before_flush docs62 new_coll) = true.
Proof. vm_cast_no_check (eq_refl true). Qed.
Lemma same62 : req_step new_coll add62 = fst (add_documents rok true [] docs62 new_coll).
Proof. unfold req_step, add62, docs62. reflexivity. Qed.
Theorem C95_document_lost_refuted : exists R lk keys docs rs, Forall (fun l => forallb reads l = true) rs /\
  snd (add_during R lk keys rs docs new_coll) = Ok tt /\
  found 61 (fst (add_during R lk keys rs docs new_coll)) "61" False /\
  found 61 (restart_coll (fst (add_during R lk keys rs docs new_coll))) "61" False /\
  found 62 (fst (add_documents R lk keys docs new_coll)) "61" True /\
  found 62 (restart_coll (fst (add_documents R lk keys docs new_coll))) "61" True.
Proof.
  exists rok, true, [], docs62, before_flush.
  split; [apply Forall_forall; intros l H; apply in_app_iff in H; destruct H as [H|[<-|[]]]; [apply repeat_spec in H; subst l|]; reflexivity|].
  assert (T : forall n s b (P : Prop), finds n b s = true -> (b = true <-> P) -> found n s "61" P).
  { intros n s b P Hf HP. apply finds_spec in Hf. destruct Hf as (d & x & Ha & Hb & Hc). exists d, x. split; [exact Ha|]. split; [exact Hb|]. tauto. }
  pose proof st95_ok as H. revert H. generalize (add_during rok true [] before_flush docs62 new_coll). intros [st r] H.
  unfold check95 in H. cbn [fst snd] in *. destruct r as [[]| | |]; try discriminate. apply andb_true_iff in H as (H1 & H2).
  split; [reflexivity|]. split; [apply (T _ _ false); [exact H1|]; split; [discriminate|tauto]|].
  split; [apply (T _ _ false); [exact H2|]; split; [discriminate|tauto]|].
  pose proof st85_ok as K. apply andb_true_iff in K as (_ & K).
  rewrite same62 in K. revert K.
  generalize (fst (add_documents rok true [] docs62 new_coll)). intros st' K. unfold check85 in K. cbv zeta in K.
  rewrite !andb_true_iff in K. destruct K as (((((((K1 & K2) & _) & _) & _) & _) & _) & _).
  split; [apply (T _ _ true); [exact K1|tauto]|apply (T _ _ true); [exact K2|tauto]].
Qed.
Print Assumptions C95_document_lost_refuted.

(** The hypotheses of the theorem are met: a second request of two documents on the
    ground layer, with queries before, between and after them; and a new collection. *)
Definition st2 : coll := req_step new_coll req1.
Definition two_docs : list (option docin * dorc) := [docv "d" [1; 2]%Z; docv "e" [2; 1]%Z].
Definition asked : list (list creq) := [[read1]; [QGet rok true "a"; read1]; [read1; read1]].
Example C95_nonvacuous :
  settled st2 /\ is_empty (c_h st2) = false /\ Forall (fun d => do_lvl (snd d) <= h_maxl (c_h st2)) two_docs /\
  Forall (fun l => forallb reads l = true) asked /\ settled new_coll /\ h_maxl (c_h new_coll) = 0%nat /\
  List.length (c_docs (fst (add_during rok true [] asked two_docs st2))) = 5 /\
  snd (add_during rok true [] asked two_docs st2) = Ok tt.
Proof.
  split; [repeat split; vm_compute; reflexivity|]. split; [vm_compute; reflexivity|].
  split; [apply Forall_cons; [vm_compute; lia|apply Forall_cons; [vm_compute; lia|apply Forall_nil]]|]. split; [repeat constructor|]. split; [repeat split|].
  split; [reflexivity|]. split; vm_compute; reflexivity.
Qed.
