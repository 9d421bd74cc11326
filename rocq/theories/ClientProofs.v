(** Proofs about [Client]: ids and pairing of documents and vectors, the fetch
    goroutines, skipped documents. *)
From Coq Require Import String.
From Verif Require Import Base F32 PQ PQProofs Graph Search SearchProofs SearchLayer SearchKnn
  SearchCong Insert HeuristicProofs InsertProofs InsertHist InsertTotal InsertDim InsertSmall InsertFacts InsertFind
  Distancer DistancerProofs PropDistancer Persist PersistProofs PersistHist Client.

(* ------------------------------------------------------------------ *)
(** Fetching the documents. *)

Lemma nth_upd {A} (l : list A) : forall i x j, i < length l ->
  nth_error (upd l i x) j = if Nat.eqb j i then Some x else nth_error l j.
Proof.
  induction l as [|a l IH]; intros i x j Hi; cbn in Hi; [lia|].
  destruct i as [|i], j as [|j]; cbn [upd nth_error Nat.eqb]; auto. apply IH. lia.
Qed.

Section Fetch.
  Variable find : nat -> N -> res sdoc.
  Variable ids : list N.

  Lemma run_fetch_spec order : forall slots errs, length slots = length ids -> NoDup order ->
    let s' := fst (run_fetch find ids order slots errs) in
    let e' := snd (run_fetch find ids order slots errs) in
    length s' = length ids /\
    (forall i, ~ In i order -> nth_error s' i = nth_error slots i) /\
    (forall i id d, In i order -> nth_error ids i = Some id -> find i id = Ok d -> nth_error s' i = Some (Some d)) /\
    (exists l, e' = errs ++ l /\
      (l = [] -> forall i id, In i order -> nth_error ids i = Some id -> exists d, find i id = Ok d) /\
      (forall e, In e l -> exists i id, In i order /\ nth_error ids i = Some id /\ forall d, find i id <> Ok d)).
  Proof.
    induction order as [|i order IH]; intros slots errs Hl Hnd; cbn [run_fetch].
    - cbn [fst snd]. repeat split; auto; [intros i id d []|]. exists []. rewrite app_nil_r.
      split; [reflexivity|]. split; [intros _ i id []|intros e []].
    - inversion Hnd as [|? ? Hni Hnd']; subst.
      destruct (nth_error ids i) as [id|] eqn:Ei.
      + assert (Hlt : i < length ids) by (apply nth_error_Some; congruence).
        assert (Hbad : forall e, (forall d, find i id <> Ok d) ->
          let s' := fst (run_fetch find ids order slots (errs ++ [e])) in
          let e' := snd (run_fetch find ids order slots (errs ++ [e])) in
          length s' = length ids /\
          (forall j, ~ In j (i :: order) -> nth_error s' j = nth_error slots j) /\
          (forall j id d, In j (i :: order) -> nth_error ids j = Some id -> find j id = Ok d ->
             nth_error s' j = Some (Some d)) /\
          (exists l, e' = errs ++ l /\
            (l = [] -> forall j id, In j (i :: order) -> nth_error ids j = Some id -> exists d, find j id = Ok d) /\
            (forall e0, In e0 l -> exists j id, In j (i :: order) /\ nth_error ids j = Some id /\
               forall d, find j id <> Ok d))).
        { intros e Hb. destruct (IH slots (errs ++ [e]) Hl Hnd') as (H1 & H2 & H3 & l & H4 & H5 & H6). cbv zeta.
          split; [exact H1|]. split; [|split].
          - intros j Hj. apply H2. intros X. apply Hj. now right.
          - intros j id0 d [<-|Hj] Hn Hf; [|eauto]. replace id0 with id in Hf by congruence. now apply Hb in Hf.
          - exists (e :: l). rewrite H4, <- app_assoc. split; [reflexivity|]. split; [discriminate|].
            intros e0 [<-|He]; [exists i, id; repeat split; auto; now left|].
            destruct (H6 e0 He) as (j & id0 & A & B & C). exists j, id0. repeat split; auto. now right. }
        destruct (find i id) as [d0|e| |] eqn:Ef; [|apply Hbad; intros; discriminate..].
        destruct (IH (upd slots i (Some d0)) errs) as (H1 & H2 & H3 & l & H4 & H5 & H6); [now rewrite upd_length|exact Hnd'|].
        cbv zeta. split; [exact H1|]. split; [|split].
        * intros j Hj. rewrite H2; [|intros X; apply Hj; now right]. rewrite nth_upd by lia.
          destruct (Nat.eqb_spec j i) as [->|]; [exfalso; apply Hj; now left|reflexivity].
        * intros j id0 d [<-|Hj] Hn Hf; [|eauto]. rewrite H2 by exact Hni. rewrite nth_upd by lia.
          rewrite Nat.eqb_refl. replace id0 with id in Hf by congruence. congruence.
        * exists l. split; [exact H4|]. split.
          -- intros Hl0 j id0 [<-|Hj] Hn; [|eauto]. replace id0 with id by congruence. eauto.
          -- intros e He. destruct (H6 e He) as (j & id0 & A & B & C). exists j, id0. repeat split; auto. now right.
      + destruct (IH slots errs Hl Hnd') as (H1 & H2 & H3 & l & H4 & H5 & H6). cbv zeta.
        split; [exact H1|]. split; [|split].
        * intros j Hj. apply H2. intros X. apply Hj. now right.
        * intros j id0 d [<-|Hj] Hn Hf; [congruence|eauto].
        * exists l. split; [exact H4|]. split.
          -- intros Hl0 j id0 [<-|Hj] Hn; [congruence|eauto].
          -- intros e He. destruct (H6 e He) as (j & id0 & A & B & C). exists j, id0. repeat split; auto. now right.
  Qed.

  Lemma fetch_docs_spec order : Permutation order (seq 0 (length ids)) ->
    match fetch_docs find ids order with
    | Ok slots => length slots = length ids /\
        forall i id, nth_error ids i = Some id ->
          exists d, find i id = Ok d /\ nth_error slots i = Some (Some d)
    | Err _ => exists i id, nth_error ids i = Some id /\ forall d, find i id <> Ok d
    | _ => False
    end.
  Proof.
    intros Hp. assert (Hnd : NoDup order) by (eapply Permutation_NoDup; [symmetry; exact Hp|apply seq_NoDup]).
    destruct (run_fetch_spec order (repeat None (length ids)) [] (repeat_length _ _) Hnd)
      as (H1 & _ & H3 & l & H4 & H5 & H6).
    unfold fetch_docs. destruct (run_fetch find ids order (repeat None (length ids)) []) as [s e]. cbn [fst snd] in *.
    cbn in H4. subst e. destruct l as [|e l].
    - split; [exact H1|]. intros i id Hi.
      assert (Hin : In i order).
      { eapply Permutation_in; [symmetry; exact Hp|]. apply in_seq. split; [lia|]. cbn.
        apply nth_error_Some. congruence. }
      destruct (H5 eq_refl i id Hin Hi) as (d & Hd). exists d. split; [exact Hd|]. eapply H3; eauto.
    - destruct (H6 e (or_introl eq_refl)) as (i & id & _ & A & B). eauto.
  Qed.
End Fetch.

(* ------------------------------------------------------------------ *)
(** One addition. *)

Section Pair.
  Variable P : provider.

  Definition vnode (h : hnsw) (i : N) (q : vec) : Prop :=
    exists v, node_by_id h i = Some v /\ v_vec v = p_normalize P q.
  Definition knode (h : hnsw) (i : N) (q : vec) : Prop :=
    exists v, mget i (h_kv h) = Some v /\ v_vec v = p_normalize P q.

  Lemma add_keeps I h id q0 t j q : pinv h -> j <> id -> vnode h j q ->
    vnode (fst (add I h id q0 t)) j q.
  Proof.
    intros Hp Hj (v & Hv & Hq). destruct (add_prel I h id q0 t (pinv_wfh h Hp)) as [Hr _].
    destruct (prel_node _ _ _ _ _ _ Hr Hv) as (v' & Hv'). exists v'. split; [exact Hv'|].
    destruct (prel_back _ _ _ _ _ _ Hr Hv') as [[X _]|(w & Hw & E)]; [contradiction|]. congruence.
  Qed.

  Lemma add_pinv I h id q0 t : pinv h -> pinv (fst (add I h id q0 t)).
  Proof. intros Hp. eapply prel_pinv; [exact (proj1 (add_prel I h id q0 t (pinv_wfh h Hp)))|exact Hp]. Qed.

  Lemma add_kv I h id q0 t : pinv h -> let h' := fst (add I h id q0 t) in
    h_kv h' = h_kv h /\ h_kv_count h' = h_kv_count h.
  Proof.
    intros Hp. destruct (add_prel I h id q0 t (pinv_wfh h Hp)) as [[(K & _ & C) _ _ _] _]. auto.
  Qed.

  Lemma add_new I h id q0 t u : pinv h -> e_prov (i_env I) = P ->
    snd (add I h id q0 t) = Ok u -> vnode (fst (add I h id q0 t)) id q0.
  Proof.
    intros Hp HP. unfold add. destruct q0 as [|x q0']; [discriminate|]. unfold vnode. rewrite HP.
    set (Q := p_normalize P (x :: q0')). pose proof (pinv_wfh h Hp) as Hw.
    unfold insert. destruct (negb (h_once h) && is_empty h).
    - unfold insert_initial. intros _. exists (mkV id 0 [[]] false Q false). split; [|reflexivity].
      assert (E : node_by_id (put_node (with_ep (with_once h) id 0) (mkV id 0 [[]] false Q false)) id =
                  Some (mkV id 0 [[]] false Q false)).
      { unfold node_by_id. rewrite mget_put. cbn. now rewrite N.eqb_refl. }
      destruct (N.ltb id (i_vcsize I)); exact E.
    - unfold insert_linked. destruct (negb (N.ltb id (i_vcsize I))); [discriminate|].
      set (v := new_vertex id Q t). set (h1 := put_node (with_once h) v).
      assert (Ho : prel id Q h (with_once h)) by (constructor; auto; intros j w Hj; eauto).
      assert (E1 : prel id Q h h1).
      { eapply prel_trans; [exact Ho|]. apply prel_put; cbn; auto. now rewrite repeat_length. }
      assert (Hv1 : node_by_id h1 id = Some v) by (unfold h1, node_by_id; rewrite mget_put; cbn; now rewrite N.eqb_refl).
      assert (Hd1 : dirty id h1).
      { exists v. split; [|reflexivity]. unfold h1. rewrite mget_put. cbn. now rewrite N.eqb_refl. }
      pose proof (prel_wfh id Q _ _ E1 Hw) as Hw1.
      destruct (best_entrypoint I h1 Q t _ _) as [ep|e| |]; try discriminate.
      pose proof (connect_levels_prel I id Q Q (Nat.min t (h_maxl (with_once h))) h1 ep Hw1 Hd1) as H.
      destruct (connect_levels I h1 id Q _ ep) as [h2 [[]|e| |]]; try discriminate. cbn [fst] in *. intros _.
      destruct (prel_node _ _ _ _ _ _ H Hv1) as (v2 & Hv2).
      assert (Hq : v_vec v2 = Q).
      { destruct (prel_back _ _ _ _ _ _ H Hv2) as [[_ X]|(w & Hw' & X)]; [exact X|].
        rewrite X. rewrite Hv1 in Hw'. now injection Hw' as <-. }
      pose proof (prel_wfh id Q _ _ H Hw1 id v2 Hv2) as [Hid _].
      exists (set_maint v2 false). split; [|exact Hq]. unfold finish_insert. rewrite Hv2.
      assert (E : forall e m, node_by_id (with_ep (put_node h2 (set_maint v2 false)) e m) id = Some (set_maint v2 false)).
      { intros e m. unfold node_by_id. cbn. rewrite Hid, N.eqb_refl. reflexivity. }
      destruct (Nat.ltb _ t); [apply E|]. unfold node_by_id. rewrite mget_put. cbn. now rewrite Hid, N.eqb_refl.
  Qed.

  (* ---------------------------------------------------------------- *)
  (** The loop of AddDocuments. *)

  Definition idx_ids (ds : list sdoc) : list Z :=
    map sd_hnsw (filter (fun d => Z.leb 0 (sd_hnsw d)) ds).

  Lemma idx_ids_In ds z : In z (idx_ids ds) <-> exists d, In d ds /\ sd_hnsw d = z /\ (0 <= z)%Z.
  Proof.
    unfold idx_ids. rewrite in_map_iff. split.
    - intros (d & <- & Hd). apply filter_In in Hd. destruct Hd as [H1 H2]. apply Z.leb_le in H2. eauto.
    - intros (d & H1 & <- & H2). exists d. split; [reflexivity|]. apply filter_In. split; [exact H1|now apply Z.leb_le].
  Qed.

  Lemma idx_ids_filter f ds : NoDup (idx_ids ds) -> NoDup (idx_ids (filter f ds)).
  Proof.
    unfold idx_ids. induction ds as [|d ds IH]; cbn [filter map]; [auto|].
    destruct (Z.leb 0 (sd_hnsw d)) eqn:E; cbn [map]; intros H.
    - inversion H as [|? ? Hn Hr]; subst. destruct (f d); cbn [filter map]; rewrite ?E; cbn [map]; [|auto].
      constructor; [|auto]. intros X. apply Hn. apply in_map_iff in X. destruct X as (d' & Hd' & Hi).
      apply filter_In in Hi. destruct Hi as [Hi Hz]. apply filter_In in Hi. destruct Hi as [Hi _].
      rewrite <- Hd'. apply in_map. now apply filter_In.
    - destruct (f d); cbn [filter map]; rewrite ?E; auto.
  Qed.

  Definition lpair (h : hnsw) (b : N) (d : sdoc) : Prop :=
    (0 <= sd_hnsw d)%Z -> exists i q, sd_hnsw d = Z.of_N i /\ (i < b)%N /\ sd_vec d = Some q /\ vnode h i q.

  Record loopinv (st : coll) (b : N) : Prop := {
    li_p : pinv (c_h st);
    li_docs : forall d, In d (c_docs st) -> lpair (c_h st) b d;
    li_nd : NoDup (idx_ids (c_docs st))
  }.

  (** What a prefix of the loop leaves alone. *)
  Record keeps (c : N) (st st' : coll) : Prop := {
    k_kv : h_kv (c_h st') = h_kv (c_h st);
    k_cnt : h_kv_count (c_h st') = h_kv_count (c_h st);
    k_vec : forall j q, (j < c)%N -> vnode (c_h st) j q -> vnode (c_h st') j q
  }.

  Lemma keeps_refl c st : keeps c st st.
  Proof. constructor; auto. Qed.
  Lemma keeps_trans c c' st1 st2 st3 : (c <= c')%N -> keeps c st1 st2 -> keeps c' st2 st3 -> keeps c st1 st3.
  Proof.
    intros Hc [A1 A2 A3] [B1 B2 B3]. constructor; [congruence|congruence|]. intros j q Hj Hv. apply B3; [lia|]. auto.
  Qed.

  Lemma put_doc_inv h reg op ds lg b d : loopinv (mkC h reg op ds lg) b ->
    sd_hnsw d = (-1)%Z \/
    (exists i q, sd_hnsw d = Z.of_N i /\ sd_vec d = Some q /\ vnode h i q /\ (i < b)%N /\
       forall d', In d' ds -> (0 <= sd_hnsw d')%Z -> (sd_hnsw d' < Z.of_N i)%Z) ->
    loopinv (mkC h reg op (put_doc d ds) lg) b.
  Proof.
    intros [H1 H2 H3] Hd. cbn [c_h c_docs] in *. constructor; cbn [c_h c_docs]; [exact H1| |].
    - intros d' [<-|Hin]; [|apply filter_In in Hin; now apply H2].
      intros Hz. destruct Hd as [Hd|(i & q & A & B & C & D & _)]; [lia|]. exists i, q. auto.
    - unfold put_doc, idx_ids. cbn [filter map]. destruct (Z.leb_spec 0 (sd_hnsw d)) as [Hz|Hz]; cbn [map].
      + constructor; [|now apply idx_ids_filter].
        destruct Hd as [Hd|(i & q & A & B & C & D & Hlt)]; [lia|]. intros X.
        apply idx_ids_In in X. destruct X as (d' & Hin & Heq & Hz'). apply filter_In in Hin. destruct Hin as [Hin _].
        specialize (Hlt d' Hin). rewrite Heq in Hlt. specialize (Hlt Hz). lia.
      + now apply idx_ids_filter.
  Qed.

  Lemma add_indexed_inv o st b d p v : loopinv st b -> e_prov (i_env (do_env o)) = P ->
    match add_indexed o st b d p v with
    | (st', b', _) => loopinv st' b' /\ (b <= b')%N /\ keeps b st st'
    end.
  Proof.
    intros [H1 H2 H3] HP. unfold add_indexed.
    pose proof (add_pinv (do_env o) (c_h st) b v (do_lvl o) H1) as Hp'.
    pose proof (add_kv (do_env o) (c_h st) b v (do_lvl o) H1) as [Hk Hc].
    pose proof (add_keeps (do_env o) (c_h st) b v (do_lvl o)) as Hkeep.
    pose proof (add_new (do_env o) (c_h st) b v (do_lvl o)) as Hnew.
    destruct (add (do_env o) (c_h st) b v (do_lvl o)) as [h' r]. cbn [fst snd] in *.
    assert (Hkeep' : forall j q, (j < b)%N -> vnode (c_h st) j q -> vnode h' j q).
    { intros j q Hj. apply Hkeep; auto. lia. }
    assert (HL : forall b', (b <= b')%N -> loopinv (with_h st h') b').
    { intros b' Hb. constructor; cbn [with_h c_h c_docs]; auto. intros d' Hd' Hz.
      destruct (H2 d' Hd' Hz) as (i & q & A & B & C & D). exists i, q. repeat split; auto. lia. }
    assert (HK : keeps b st (with_h st h')) by (constructor; cbn [with_h c_h]; auto).
    destruct r as [u|e| |].
    - unfold store_doc. destruct (do_marshal o); cbn [negb].
      + destruct (do_docput o).
        * split; [|split; [lia|]].
          -- unfold with_h. cbn [c_h c_reg c_open c_docs c_log]. apply put_doc_inv.
             ++ apply HL. lia.
             ++ right. exists b, v. cbn [sd_hnsw sd_vec]. repeat split; auto; [eapply Hnew; eauto|lia|].
                intros d' Hd' Hz. destruct (H2 d' Hd' Hz) as (i & q & A & B & _). lia.
          -- destruct HK as [K1 K2 K3]. constructor; auto.
        * split; [apply HL; lia|]. split; [lia|exact HK].
      + split; [|split; [lia|]].
        * destruct (HL (N.succ b)) as [A1 A2 A3]; [lia|]. constructor; auto.
        * destruct HK as [K1 K2 K3]. constructor; auto.
    - split; [|split; [lia|]].
      + destruct (HL b) as [A1 A2 A3]; [lia|]. constructor; auto.
      + destruct HK as [K1 K2 K3]. constructor; auto.
    - split; [apply HL; lia|]. split; [lia|exact HK].
    - split; [apply HL; lia|]. split; [lia|exact HK].
  Qed.

  Lemma add_doc_inv lookup keys st b d o : loopinv st b -> e_prov (i_env (do_env o)) = P ->
    match add_doc lookup keys st b d o with
    | (st', b', _) => loopinv st' b' /\ (b <= b')%N /\ keeps b st st'
    end.
  Proof.
    intros HL HP. assert (Hs : loopinv st b /\ (b <= b)%N /\ keeps b st st) by (split; [exact HL|split; [lia|apply keeps_refl]]).
    unfold add_doc. destruct d as [d|]; [|exact Hs]. cbv zeta.
    assert (Htext : match (match vector_text (pset "id" (JStr (di_id d)) (di_props d)) keys with
          | Ok text =>
              if String.eqb text "" then
                let (st', r) := store_doc o st (mkSD (di_id d) (-1) (pset "id" (JStr (di_id d)) (di_props d)) None) in
                (st', b, r)
              else if negb lookup then (st, b, Err ENoVectorizer)
              else match do_corpi o text with
                   | Ok (Some v) => add_indexed o st b d (pset "id" (JStr (di_id d)) (di_props d)) v
                   | Ok None => (st, b, Panic)
                   | Err _ => (logged st EVectorizer, b, Ok tt)
                   | Panic => (st, b, Panic)
                   | OutOfFuel => (st, b, OutOfFuel)
                   end
          | Err e => (st, b, Err e)
          | Panic => (st, b, Panic)
          | OutOfFuel => (st, b, OutOfFuel)
          end) with (st', b', _) => loopinv st' b' /\ (b <= b')%N /\ keeps b st st' end).
    { destruct (vector_text _ keys) as [text|e| |]; try exact Hs.
      destruct (String.eqb text "").
      - unfold store_doc. destruct (do_marshal o); cbn [negb].
        + destruct (do_docput o); [|exact Hs]. split; [|split; [lia|constructor; auto]].
          destruct st as [h reg op ds lg]. cbn [c_h c_reg c_open c_docs c_log]. apply put_doc_inv; [exact HL|now left].
        + split; [destruct HL; constructor; auto|split; [lia|constructor; auto]].
      - destruct (negb lookup); [exact Hs|]. destruct (do_corpi o text) as [[v|]|e| |]; try exact Hs.
        + now apply add_indexed_inv.
        + split; [destruct HL; constructor; auto|split; [lia|constructor; auto]]. }
    destruct (pget "vector" _) as [[| | | |l| |v]|]; try exact Hs; try exact Htext.
    - destruct (vector_of l) as [v|]; [now apply add_indexed_inv|exact Hs].
    - now apply add_indexed_inv.
  Qed.

  Definition docs_prov (docs : list (option docin * dorc)) : Prop :=
    Forall (fun p => e_prov (i_env (do_env (snd p))) = P) docs.

  Lemma add_loop_inv lookup keys docs : forall st b, loopinv st b -> docs_prov docs ->
    match add_loop lookup keys st b docs with
    | (st', b', _) => loopinv st' b' /\ (b <= b')%N /\ keeps b st st'
    end.
  Proof.
    induction docs as [|[d o] docs IH]; intros st b HL HP; cbn [add_loop].
    - split; [exact HL|]. split; [lia|apply keeps_refl].
    - inversion HP as [|? ? H1 H2]; subst. pose proof (add_doc_inv lookup keys st b d o HL H1) as H.
      destruct (add_doc lookup keys st b d o) as [[st1 b1] [[]|e| |]]; auto.
      destruct H as (A & B & C). specialize (IH st1 b1 A H2).
      destruct (add_loop lookup keys st1 b1 docs) as [[st2 b2] r]. destruct IH as (A' & B' & C').
      split; [exact A'|]. split; [lia|]. eapply keeps_trans; eauto.
  Qed.

  Lemma add_loop_reg lookup keys docs : forall st b,
    match add_loop lookup keys st b docs with (st', _, _) => c_reg st' = c_reg st /\ c_open st' = c_open st end.
  Proof.
    assert (Hs : forall o st d, c_reg (fst (store_doc o st d)) = c_reg st /\ c_open (fst (store_doc o st d)) = c_open st).
    { intros o st d. unfold store_doc. destruct (negb (do_marshal o)); [auto|]. destruct (do_docput o); auto. }
    assert (Hi : forall o st b d p v, match add_indexed o st b d p v with (st', _, _) =>
       c_reg st' = c_reg st /\ c_open st' = c_open st end).
    { intros o st b d p v. unfold add_indexed. destruct (add _ _ _ _ _) as [h' [u|e| |]]; auto.
      specialize (Hs o (with_h st h') (mkSD (di_id d) (Z.of_N b) p (Some v))). destruct (store_doc _ _ _); exact Hs. }
    induction docs as [|[d o] docs IH]; intros st b; cbn [add_loop]; [auto|].
    assert (H : match add_doc lookup keys st b d o with (st', _, _) => c_reg st' = c_reg st /\ c_open st' = c_open st end).
    { unfold add_doc. destruct d as [d|]; [|auto]. cbv zeta.
      set (p := pset _ _ _).
      destruct (pget _ p) as [[| | | |l| |v]|]; auto; try (destruct (vector_of l); [apply Hi|auto]); try apply Hi;
        (destruct (vector_text p keys) as [text|e| |]; auto; destruct (String.eqb text "");
          [specialize (Hs o st (mkSD (di_id d) (-1) p None));
           destruct (store_doc o st (mkSD (di_id d) (-1) p None)); exact Hs|
           destruct (negb lookup); auto; destruct (do_corpi o text) as [[v|]|e| |]; auto; apply Hi]). }
    destruct (add_doc lookup keys st b d o) as [[st1 b1] [[]|e| |]]; auto.
    specialize (IH st1 b1). destruct (add_loop lookup keys st1 b1 docs) as [[st2 b2] r].
    destruct IH, H. split; congruence.
  Qed.

  (* ---------------------------------------------------------------- *)
  (** Requests. *)

  Definition cpair (h : hnsw) (d : sdoc) : Prop :=
    (0 <= sd_hnsw d)%Z -> exists i q, sd_hnsw d = Z.of_N i /\ (i < first_id h)%N /\ sd_vec d = Some q /\
      vnode h i q /\ knode h i q.

  Record cinv (st : coll) : Prop := {
    ci_p : pinv (c_h st);
    ci_docs : forall d, In d (c_docs st) -> cpair (c_h st) d;
    ci_nd : NoDup (idx_ids (c_docs st))
  }.

  Lemma cinv_with st h : cinv st -> pinv h -> (first_id (c_h st) <= first_id h)%N ->
    (forall i q, (i < first_id (c_h st))%N -> vnode (c_h st) i q -> knode (c_h st) i q -> vnode h i q /\ knode h i q) ->
    forall reg op lg, cinv (mkC h reg op (c_docs st) lg).
  Proof.
    intros [H1 H2 H3] Hp Hf Hk reg op lg. constructor; cbn [c_h c_docs]; auto.
    intros d Hd Hz. destruct (H2 d Hd Hz) as (i & q & A & B & C & D & F).
    destruct (Hk i q B D F). exists i, q. repeat split; auto. lia.
  Qed.

  Lemma cinv_restart st reg op lg : cinv st -> cinv (mkC (restart (c_h st)) reg op (c_docs st) lg).
  Proof.
    intros H. apply cinv_with; [exact H|apply restart_pinv, H|reflexivity|].
    intros i q _ _ (v & Hv & Hq). split; [|exists v; auto]. exists v. split; [exact Hv|exact Hq].
  Qed.

  Lemma open_inv R st : cinv st -> cinv (fst (open_coll R st)) /\ c_docs (fst (open_coll R st)) = c_docs st.
  Proof.
    intros H. unfold open_coll. destruct (negb (r_kvopen R)); [auto|]. destruct (negb (r_isopen R)); [auto|].
    destruct (c_open st); [auto|]. destruct (r_docopen R); cbn [fst c_docs]; (split; [now apply cinv_restart|reflexivity]).
  Qed.

  Lemma first_id_count h h' : h_kv_count h' = h_kv_count h -> first_id h' = first_id h.
  Proof. unfold first_id, doc_count. now intros ->. Qed.

  Lemma pview_vnode h h' i q : pview h' i = pview h i -> vnode h i q -> vnode h' i q.
  Proof.
    unfold pview, vnode. intros E (v & Hv & Hq). rewrite Hv in E. cbn in E.
    destruct (node_by_id h' i) as [w|]; [|discriminate]. exists w. split; [reflexivity|].
    assert (stored w = stored v) by (cbn in E; congruence).
    rewrite <- Hq. change (v_vec w) with (v_vec (stored w)). now rewrite H.
  Qed.

  Lemma pview_knode h i q v : pview h i = Some v -> vnode h i q -> v_vec v = p_normalize P q.
  Proof.
    unfold pview, vnode. intros E (w & Hw & Hq). rewrite Hw in E. cbn in E.
    assert (v = stored w) by congruence. subst v. exact Hq.
  Qed.

  (** The count after a write-back is the old or the new one. *)
  Lemma flush_count h keys cnt n : h_kv_count (fst (flush h keys cnt n)) = h_kv_count h \/
    h_kv_count (fst (flush h keys cnt n)) = Some cnt.
  Proof.
    unfold flush. destruct (flush_plan h keys cnt) as [ws ok] eqn:Ep. cbn [fst].
    assert (Hc : forall c, In (PutCount c) ws -> c = cnt).
    { intros c Hc. assert (Hn : forall ks, ~ In (PutCount c) (fst (node_puts h ks))).
      { induction ks as [|k ks IH]; cbn [node_puts]; [auto|]. destruct (node_by_id h k) as [v|]; [|exact IH].
        destruct (v_committed v); [exact IH|]. destruct (json_ok v); [|auto].
        destruct (node_puts h ks) as [ws0 ok0]. cbn [fst] in *. intros [X|X]; [discriminate|auto]. }
      specialize (Hn keys). unfold flush_plan in Ep. destruct (node_puts h keys) as [ws0 ok0]. cbn [fst] in Hn.
      destruct ok0; injection Ep as <- <-; [|contradiction].
      apply in_app_or in Hc. destruct Hc as [Hc|[Hc|[Hc|[]]]]; [contradiction|discriminate|congruence]. }
    assert (Hc' : forall c, In (PutCount c) (firstn n ws) -> c = cnt) by (intros; apply Hc; eapply In_firstn; eauto).
    clear Ep Hc. revert Hc'. generalize (firstn n ws). clear. intros ws. revert h.
    induction ws as [|w ws IH]; intros h Hc; cbn [fold_left]; [now left|].
    assert (Hw : h_kv_count (mark_put (do_put h w) w) = h_kv_count h \/
                 h_kv_count (mark_put (do_put h w) w) = Some cnt).
    { destruct w as [v|e|c]; cbn; [destruct (mget _ _); auto|auto|]. right. f_equal. apply Hc. now left. }
    destruct (IH (mark_put (do_put h w) w)) as [E|E]; [intros; apply Hc; now right| |]; rewrite E; auto.
  Qed.

  Definition rorc_ok (R : rorc) : Prop := forall h, all_keys h (r_keys R h).

  Lemma add_documents_inv R lookup keys docs st : cinv st -> rorc_ok R -> docs_prov docs ->
    let r := add_documents R lookup keys docs st in
    snd r = Ok tt \/ c_docs (fst r) = c_docs st -> cinv (fst r).
  Proof.
    intros Hc HR HP. cbv zeta. unfold add_documents.
    destruct (open_inv R st Hc) as [Ho Hd]. destruct (open_coll R st) as [st1 [[]|e| |]]; cbn [fst] in *; auto.
    destruct (negb (c_reg st1)); [auto|].
    assert (HL : loopinv st1 (first_id (c_h st1))).
    { destruct Ho as [O1 O2 O3]. constructor; auto. intros d Hin Hz.
      destruct (O2 d Hin Hz) as (i & q & A & B & C & D & _). exists i, q. auto. }
    pose proof (add_loop_inv lookup keys docs st1 _ HL HP) as H.
    destruct (add_loop lookup keys st1 (first_id (c_h st1)) docs) as [[st2 b] r]. destruct H as (L2 & Hb & K2).
    (** a failed request that stored nothing *)
    assert (Hsame : c_docs st2 = c_docs st -> cinv st2).
    { intros E. rewrite <- Hd in E. destruct st2 as [h2 reg2 op2 ds2 lg2]. cbn [c_docs] in E. subst ds2.
      apply cinv_with; cbn [c_h]; [exact Ho|apply L2| |].
      - pose proof (first_id_count _ _ (k_cnt _ _ _ K2)) as X. cbn [c_h] in X. rewrite X. lia.
      - intros i q Hi Hv Hk. split; [now apply (k_vec _ _ _ K2)|]. unfold knode.
        pose proof (k_kv _ _ _ K2) as X. cbn [c_h] in X. rewrite X. exact Hk. }
    destruct r as [[]|e| |]; cbn [fst snd]; [|intros [X|X]; [discriminate|auto]..].
    unfold finish_add. set (keys' := r_keys R (c_h st2)).
    destruct (flush_any (c_h st2) keys' b (r_puts R) (li_p _ _ L2)) as (F1 & F2 & F3 & _).
    pose proof (flush_ok (c_h st2) keys' b (r_puts R)) as F4.
    pose proof (flush_count (c_h st2) keys' b (r_puts R)) as F5.
    destruct (flush (c_h st2) keys' b (r_puts R)) as [h' fr]. cbn [fst snd] in *.
    (** a failed write-back after a request that stored nothing *)
    assert (Hfail : c_docs st2 = c_docs st -> cinv (with_h st2 h')).
    { intros E. specialize (Hsame E). unfold with_h. apply cinv_with; [exact Hsame|exact F1| |].
      - destruct F5 as [X|X]; unfold first_id, doc_count; rewrite X; [lia|].
        fold (doc_count (c_h st2)). fold (first_id (c_h st2)). rewrite (first_id_count _ _ (k_cnt _ _ _ K2)). exact Hb.
      - intros i q Hi Hv Hk. split; [eapply pview_vnode; [apply F2|exact Hv]|].
        destruct (F3 i) as [X|X]; [unfold knode; rewrite X; exact Hk|].
        destruct Hv as (v & Hv & Hq). exists (stored v). split; [|exact Hq]. rewrite X. unfold pview. now rewrite Hv. }
    destruct fr as [[]|e| |]; cbn [fst snd]; [|intros [X|X]; [discriminate|auto]..].
    intros _. destruct (F4 tt (li_p _ _ L2) (HR _) eq_refl) as (G1 & G2 & G3).
    constructor; cbn [with_h c_h c_docs]; [exact F1| |exact (li_nd _ _ L2)].
    intros d Hin Hz. destruct (li_docs _ _ L2 d Hin Hz) as (i & q & A & B & C & D). exists i, q.
    repeat split; auto.
    - unfold first_id, doc_count. rewrite G3. exact B.
    - eapply pview_vnode; [apply F2|exact D].
    - destruct D as (v & Hv & Hq). exists (stored v). split; [|exact Hq]. rewrite G1. unfold pview. now rewrite Hv.
  Qed.

  Lemma cinv_loadep st : cinv st -> cinv (with_h st (load_ep (c_h st))).
  Proof.
    intros H. apply cinv_with; [exact H|apply load_ep_pinv, H|reflexivity|]. intros i q _ Hv Hk. split; [exact Hv|exact Hk].
  Qed.

  Lemma near_docs_inv Q st q maxd ef limit : cinv st ->
    cinv (fst (near_docs Q st q maxd ef limit)) /\ c_docs (fst (near_docs Q st q maxd ef limit)) = c_docs st.
  Proof.
    intros H. unfold near_docs. destruct (negb (c_reg st)); [auto|]. cbn [fst]. split; [now apply cinv_loadep|reflexivity].
  Qed.

  (** The provider of the additions of a request and its keys. *)
  Definition req_ok (q : creq) : Prop :=
    match q with QAdd R _ _ docs => rorc_ok R /\ docs_prov docs | _ => True end.

  (** An add request that succeeded or stored no document. *)
  Definition clean_req (st : coll) (q : creq) : Prop :=
    match q with
    | QAdd R lookup keys docs =>
        snd (add_documents R lookup keys docs st) = Ok tt \/
        c_docs (fst (add_documents R lookup keys docs st)) = c_docs st
    | _ => True
    end.

  Fixpoint clean (st : coll) (qs : list creq) : Prop :=
    match qs with
    | [] => True
    | q :: qs' => clean_req st q /\ clean (req_step st q) qs'
    end.

  Lemma step_inv st q : cinv st -> req_ok q -> clean_req st q -> cinv (req_step st q).
  Proof.
    intros Hc Hq Hcl. destruct q as [R lk keys docs|Q v maxd limit|Q lk corpi maxd limit|R ok id| |]; cbn [req_step].
    - destruct Hq. now apply add_documents_inv.
    - unfold near_by_vector. destruct (open_inv (q_open Q) st Hc) as [Ho _].
      destruct (open_coll (q_open Q) st) as [st1 [[]|e| |]]; cbn [fst] in *; auto.
      now apply near_docs_inv.
    - unfold near_by_text. destruct (open_inv (q_open Q) st Hc) as [Ho _].
      destruct (open_coll (q_open Q) st) as [st1 [[]|e| |]]; cbn [fst] in *; auto.
      destruct (negb lk); [exact Ho|]. destruct corpi as [[v|]|e| |]; auto.
      + now apply near_docs_inv.
      + cbn [fst]. destruct (c_reg st1); [now apply cinv_loadep|exact Ho].
    - unfold get_document. destruct (negb (r_isopen R)); [exact Hc|].
      destruct (negb (c_open st) && negb (r_docopen R)); [exact Hc|].
      assert (H : cinv (mkC (c_h st) (c_reg st) true (c_docs st) (c_log st))) by (destruct Hc; constructor; auto).
      destruct (negb ok); [exact H|]. destruct (find _ _); exact H.
    - now apply cinv_restart.
    - now apply cinv_restart.
  Qed.

  Lemma run_inv qs : forall st, cinv st -> Forall req_ok qs -> clean st qs -> cinv (run_reqs st qs).
  Proof.
    induction qs as [|q qs IH]; intros st Hc Hq Hcl; cbn [run_reqs]; [exact Hc|].
    inversion Hq; subst. destruct Hcl. apply IH; auto. now apply step_inv.
  Qed.

  Lemma cinv_new : cinv new_coll.
  Proof. constructor; cbn; [apply pinv_empty|intros d []|constructor]. Qed.
End Pair.
