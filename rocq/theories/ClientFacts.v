(** Facts about whole requests: skipped documents, answers of nearest queries,
    absence of panics. *)
From Coq Require Import String.
From Verif Require Import Base F32 PQ PQProofs Graph Search SearchProofs SearchLayer SearchKnn
  SearchCong Insert HeuristicProofs InsertProofs InsertHist InsertTotal InsertDim InsertSmall InsertFacts InsertFind
  Distancer DistancerProofs PropDistancer Persist PersistProofs PersistHist Client ClientProofs ClientSafe.

(* ------------------------------------------------------------------ *)
(** Every document of a request is stored or logged. *)

Definition by_id (id : string) (ds : list sdoc) : option sdoc :=
  find (fun d => String.eqb id (sd_id d)) ds.

(** The stored document has the properties of the request, except the vector,
    and no others. *)
Definition faithful (d : docin) (s : sdoc) : Prop :=
  sd_id s = di_id d /\
  (forall k, k <> "vector"%string ->
    pget k (sd_props s) = if String.eqb k "id" then Some (JStr (di_id d)) else pget k (di_props d)) /\
  forall kx, In kx (sd_props s) -> kx = ("id"%string, JStr (di_id d)) \/ In kx (di_props d).

Lemma by_id_put id d ds : by_id id (put_doc d ds) = if String.eqb id (sd_id d) then Some d else by_id id ds.
Proof.
  unfold by_id, put_doc. cbn [find]. destruct (String.eqb_spec id (sd_id d)) as [->|Hne]; [reflexivity|].
  induction ds as [|x ds IH]; cbn [filter find]; [reflexivity|].
  destruct (String.eqb_spec (sd_id d) (sd_id x)) as [E|E]; cbn [negb].
  - rewrite IH. destruct (String.eqb_spec id (sd_id x)); [congruence|reflexivity].
  - cbn [find]. destruct (String.eqb id (sd_id x)); [reflexivity|exact IH].
Qed.

Lemma pget_pdel k k' p : pget k (pdel k' p) = if String.eqb k k' then None else pget k p.
Proof.
  unfold pdel. induction p as [|[k0 x] p IH]; cbn [filter pget fst]; [now destruct (String.eqb k k')|].
  destruct (String.eqb_spec k' k0) as [->|H]; cbn [negb].
  - rewrite IH. destruct (String.eqb_spec k k0); reflexivity.
  - cbn [pget]. destruct (String.eqb_spec k k0) as [->|]; [|exact IH].
    destruct (String.eqb_spec k0 k'); [congruence|reflexivity].
Qed.

Lemma pget_pset k k' x p : pget k (pset k' x p) = if String.eqb k k' then Some x else pget k p.
Proof.
  unfold pset. cbn [pget]. destruct (String.eqb k k') eqn:E; [reflexivity|]. rewrite pget_pdel, E. reflexivity.
Qed.

Definition step_stored (st st' : coll) (d : docin) : Prop :=
  length (c_log st) <= length (c_log st') /\
  (forall id, id <> di_id d -> by_id id (c_docs st') = by_id id (c_docs st)) /\
  (length (c_log st') = length (c_log st) -> exists s, by_id (di_id d) (c_docs st') = Some s /\ faithful d s).

Lemma store_doc_stored o st d s u : faithful d s -> snd (store_doc o st s) = Ok u ->
  step_stored st (fst (store_doc o st s)) d.
Proof.
  intros Hf. pose proof (proj1 Hf) as F1. unfold store_doc, step_stored. destruct (do_marshal o); cbn [negb].
  - destruct (do_docput o); cbn [fst snd c_log c_docs]; [|discriminate]. intros _.
    split; [lia|]. split.
    + intros id Hid. rewrite by_id_put. destruct (String.eqb_spec id (sd_id s)); [congruence|reflexivity].
    + intros _. exists s. rewrite by_id_put, F1, String.eqb_refl. split; [reflexivity|exact Hf].
  - cbn [fst snd logged c_log c_docs]. intros _. split; [cbn; lia|]. split; [auto|]. cbn. lia.
Qed.

Lemma logged_stored st st' e d : c_docs st' = c_docs st -> c_log st' = e :: c_log st -> step_stored st st' d.
Proof. intros H1 H2. unfold step_stored. rewrite H1, H2. cbn. split; [lia|]. split; [auto|lia]. Qed.

Lemma pdel_in k p kx : In kx (pdel k p) -> In kx p.
Proof. unfold pdel. intros H. now apply filter_In in H. Qed.
Lemma pset_id_in d kx : In kx (pset "id" (JStr (di_id d)) (di_props d)) ->
  kx = ("id"%string, JStr (di_id d)) \/ In kx (di_props d).
Proof. unfold pset. intros [<-|H]; [now left|]. right. eapply pdel_in; eauto. Qed.
Lemma faithful_pset d hn v : faithful d (mkSD (di_id d) hn (pset "id" (JStr (di_id d)) (di_props d)) v).
Proof.
  split; [reflexivity|]. split; [intros k Hk; apply pget_pset|]. apply pset_id_in.
Qed.
Lemma faithful_pdel d hn v : faithful d (mkSD (di_id d) hn (pdel "vector" (pset "id" (JStr (di_id d)) (di_props d))) v).
Proof.
  split; [reflexivity|]. split; [|intros kx H; apply pdel_in in H; now apply pset_id_in].
  intros k Hk. cbn [sd_props]. rewrite pget_pdel.
  destruct (String.eqb_spec k "vector"); [contradiction|]. apply pget_pset.
Qed.

Lemma add_indexed_stored o st b d p v st' b' u :
  faithful d (mkSD (di_id d) (Z.of_N b) p (Some v)) ->
  add_indexed o st b d p v = (st', b', Ok u) -> step_stored st st' d.
Proof.
  intros Hf. unfold add_indexed. destruct (add _ _ _ _ _) as [h' [w|e| |]]; try discriminate.
  - pose proof (store_doc_stored o (with_h st h') d _ u Hf) as H.
    destruct (store_doc o (with_h st h') _) as [s2 r]. intros [= <- <- ->]. now apply H.
  - intros [= <- <- _]. now apply (logged_stored st _ e).
Qed.

Lemma add_doc_stored lookup keys st b d o st' b' u :
  add_doc lookup keys st b (Some d) o = (st', b', Ok u) -> step_stored st st' d.
Proof.
  unfold add_doc. cbv zeta. set (p := pset _ _ _).
  assert (Ht : (match vector_text p keys with
          | Ok text =>
              if String.eqb text "" then
                let (st', r) := store_doc o st (mkSD (di_id d) (-1) p None) in (st', b, r)
              else if negb lookup then (st, b, Err ENoVectorizer)
              else match do_corpi o text with
                   | Ok (Some v) => add_indexed o st b d p v
                   | Ok None => (st, b, Panic)
                   | Err _ => (logged st EVectorizer, b, Ok tt)
                   | Panic => (st, b, Panic)
                   | OutOfFuel => (st, b, OutOfFuel)
                   end
          | Err e => (st, b, Err e)
          | Panic => (st, b, Panic)
          | OutOfFuel => (st, b, OutOfFuel)
          end) = (st', b', Ok u) -> step_stored st st' d).
  { destruct (vector_text p keys) as [text|e| |]; try discriminate. destruct (String.eqb text "").
    - pose proof (store_doc_stored o st d _ u (faithful_pset d (-1) None)) as H. fold p in H.
      destruct (store_doc o st _) as [s2 r]. intros [= <- <- ->]. now apply H.
    - destruct (negb lookup); [discriminate|]. destruct (do_corpi o text) as [[v|]|e| |]; try discriminate.
      + apply add_indexed_stored, faithful_pset.
      + intros [= <- <- _]. now apply (logged_stored st _ EVectorizer). }
  destruct (pget "vector" p) as [[| | | |l| |v]|]; try discriminate; try exact Ht.
  - destruct (vector_of l) as [v|]; [|discriminate]. apply add_indexed_stored, faithful_pdel.
  - apply add_indexed_stored, faithful_pdel.
Qed.

Lemma add_loop_stored lookup keys docs : forall st b st' b' u,
  add_loop lookup keys st b docs = (st', b', Ok u) ->
  length (c_log st) <= length (c_log st') /\
  (forall id, (forall d o, In (Some d, o) docs -> di_id d <> id) -> by_id id (c_docs st') = by_id id (c_docs st)) /\
  (length (c_log st') = length (c_log st) ->
   NoDup (map (fun p => option_map di_id (fst p)) docs) ->
   forall d o, In (Some d, o) docs -> exists s, by_id (di_id d) (c_docs st') = Some s /\ faithful d s).
Proof.
  induction docs as [|[[d|] o] docs IH]; intros st b st' b' u; cbn [add_loop].
  - intros [= <- _ _]. split; [lia|]. split; [auto|]. intros _ _ d o [].
  - destruct (add_doc lookup keys st b (Some d) o) as [[s1 b1] [[]|e| |]] eqn:E; try discriminate.
    apply add_doc_stored in E. destruct E as (A1 & A2 & A3). intros H. apply IH in H. destruct H as (B1 & B2 & B3).
    split; [lia|]. split.
    + intros id Hid. rewrite B2; [apply A2|].
      * intros ->. eapply Hid; [now left|reflexivity].
      * intros d' o' Hin. apply (Hid d' o'). now right.
    + intros Hl Hnd. cbn [map fst option_map] in Hnd. inversion Hnd as [|? ? Hni Hnd']; subst.
      intros d' o' [Heq|Hin]; [|apply (B3 ltac:(lia) Hnd' d' o' Hin)]. injection Heq as <- <-.
      destruct (A3 ltac:(lia)) as (s & Hs & Hf). exists s. split; [|exact Hf]. rewrite B2; [exact Hs|].
      intros d' o' Hin Heq. apply Hni. apply in_map_iff. exists (Some d', o'). cbn. split; [congruence|exact Hin].
  - cbn [add_doc]. discriminate.
Qed.

Lemma open_coll_docs R st : c_docs (fst (open_coll R st)) = c_docs st /\ c_log (fst (open_coll R st)) = c_log st.
Proof.
  unfold open_coll. destruct (negb (r_kvopen R)); [auto|]. destruct (negb (r_isopen R)); [auto|].
  destruct (c_open st); [auto|]. destruct (r_docopen R); auto.
Qed.

Lemma finish_add_docs R st b : c_docs (fst (finish_add R st b)) = c_docs st /\ c_log (fst (finish_add R st b)) = c_log st.
Proof. unfold finish_add. destruct (flush _ _ _ _) as [h' [[]|e| |]]; auto. Qed.

Lemma add_documents_stored R lookup keys docs st :
  snd (add_documents R lookup keys docs st) = Ok tt ->
  c_log (fst (add_documents R lookup keys docs st)) = c_log st ->
  NoDup (map (fun p => option_map di_id (fst p)) docs) ->
  forall d o, In (Some d, o) docs ->
    exists s, by_id (di_id d) (c_docs (fst (add_documents R lookup keys docs st))) = Some s /\ faithful d s.
Proof.
  unfold add_documents. destruct (open_coll_docs R st) as [_ O2].
  destruct (open_coll R st) as [st1 [[]|e| |]]; try discriminate. cbn [fst] in *.
  destruct (negb (c_reg st1)); [discriminate|].
  destruct (add_loop lookup keys st1 (first_id (c_h st1)) docs) as [[st2 b] [[]|e| |]] eqn:El; try discriminate.
  destruct (finish_add_docs R st2 b) as [F1 F2]. intros _. rewrite F1, F2. intros Hl.
  apply add_loop_stored in El. destruct El as (_ & _ & H). apply H. rewrite Hl, O2. reflexivity.
Qed.

(* ------------------------------------------------------------------ *)
(** Nearest documents. *)

Lemma cut_limit_cases limit out out' : cut_limit limit out = Ok out' ->
  (out' = out /\ (limit = 0 \/ Z.of_nat (length (fst out)) <= limit)%Z) \/
  ((0 < limit < Z.of_nat (length (fst out)))%Z /\
   out' = (firstn (Z.to_nat limit) (fst out), firstn (Z.to_nat limit) (snd out))).
Proof.
  unfold cut_limit. destruct (Z.eqb_spec limit 0) as [->|Hz]; cbn [negb andb]; [intros [= <-]; auto|].
  destruct (Z.ltb_spec limit (Z.of_nat (length (fst out)))) as [Hl|Hl].
  - destruct (Z.ltb_spec limit 0); [discriminate|]. intros [= <-]. right. split; [lia|reflexivity].
  - intros [= <-]. left. auto.
Qed.

Lemma nth_firstn_lt {A} (l : list A) : forall n i, i < n -> nth_error (firstn n l) i = nth_error l i.
Proof. induction l as [|a l IH]; intros [|n] [|i] H; cbn; auto; try lia. apply IH. lia. Qed.

Lemma cut_limit_spec limit out out' : cut_limit limit out = Ok out' ->
  (limit <> 0 -> Z.of_nat (length (fst out')) <= limit)%Z /\
  length (fst out') <= length (fst out) /\
  (limit = 0%Z -> out' = out) /\
  ((0 < limit)%Z -> length (fst out') = Nat.min (Z.to_nat limit) (length (fst out))) /\
  forall i, i < length (fst out') ->
    nth_error (fst out') i = nth_error (fst out) i /\ nth_error (snd out') i = nth_error (snd out) i.
Proof.
  intros H. destruct (cut_limit_cases limit out out' H) as [[-> Hl]|[Hl ->]]; cbn [fst snd].
  - repeat split; auto; lia.
  - rewrite firstn_length. split; [lia|]. split; [lia|]. split; [lia|]. split; [lia|].
    intros i Hi. split; apply nth_firstn_lt; lia.
Qed.

Lemma doc_find_ok ok pick ds i id d : doc_find ok pick ds i id = Ok d -> In d ds /\ sd_hnsw d = Z.of_N id.
Proof.
  unfold doc_find. destruct (negb (ok i)); [discriminate|]. destruct (matching ds id) as [|d0 l] eqn:E; [discriminate|].
  intros [= <-]. assert (H : In (nth (pick i) (d0 :: l) d0) (matching ds id)).
  { rewrite E. destruct (nth_in_or_default (pick i) (d0 :: l) d0) as [H|H]; [exact H|]. rewrite H. now left. }
  apply filter_In in H. destruct H as [H1 H2]. apply Z.eqb_eq in H2. cbn [nth] in *. auto.
Qed.

(** The ids that a request goes through. *)
Definition near_ids (E : env) (h : hnsw) (q : vec) (maxd : f32) (ef limit : Z) : res (list N * list f32) :=
  bind (knn_max_dist E (load_ep h) q maxd ef None) (cut_limit limit).

Lemma near_docs_spec Q st q maxd ef limit docs dists :
  snd (near_docs Q st q maxd ef limit) = Ok (docs, dists) ->
  Permutation (q_order Q) (seq 0 (length docs)) ->
  exists ids, near_ids (q_env Q) (c_h st) q maxd ef limit = Ok (ids, dists) /\ length docs = length ids /\
    forall i id, nth_error ids i = Some id ->
      exists d, nth_error docs i = Some (Some d) /\ In d (c_docs st) /\ sd_hnsw d = Z.of_N id.
Proof.
  unfold near_docs, near_ids. destruct (negb (c_reg st)); [discriminate|]. cbn [snd].
  change (c_h (with_h st (load_ep (c_h st)))) with (load_ep (c_h st)).
  change (c_docs (with_h st (load_ep (c_h st)))) with (c_docs st).
  destruct (knn_max_dist _ _ _ _ _ _) as [out|e| |]; cbn [bind]; try discriminate.
  destruct (cut_limit limit out) as [[ids ds]|e| |]; cbn [bind fst snd]; try discriminate.
  destruct (fetch_docs _ ids (q_order Q)) as [docs'|e| |] eqn:Ef; cbn [bind]; try discriminate.
  intros [= <- <-] Hp. exists ids. split; [reflexivity|].
  assert (Hlen : length docs' = length ids).
  { unfold fetch_docs in Ef. clear Hp.
    assert (Hl : forall find ids order slots errs, length (fst (run_fetch find ids order slots errs)) = length slots).
    { intros find l order. induction order as [|i order IH]; intros slots errs; cbn [run_fetch]; [reflexivity|].
      destruct (nth_error l i) as [id|]; [|apply IH].
      destruct (find i id); rewrite IH; auto using upd_length. }
    specialize (Hl (doc_find (q_ok Q) (q_pick Q) (c_docs st)) ids (q_order Q) (repeat None (length ids)) []).
    destruct (run_fetch _ ids (q_order Q) _ _) as [s [|e l]]; [|discriminate]. injection Ef as <-. cbn [fst] in Hl.
    rewrite Hl. apply repeat_length. }
  split; [exact Hlen|]. rewrite Hlen in Hp.
  pose proof (fetch_docs_spec (doc_find (q_ok Q) (q_pick Q) (c_docs st)) ids (q_order Q) Hp) as H.
  rewrite Ef in H. destruct H as [_ H]. intros i id Hi. destruct (H i id Hi) as (d & H1 & H2).
  exists d. split; [exact H2|]. now apply doc_find_ok in H1.
Qed.

(** Both queries run [near_docs] on the opened collection. *)
Lemma near_by_vector_open Q st q maxd limit r : snd (near_by_vector Q st q maxd limit) = Ok r ->
  exists st1, open_coll (q_open Q) st = (st1, Ok tt) /\ snd (near_docs Q st1 q maxd 800 limit) = Ok r.
Proof.
  unfold near_by_vector. destruct (open_coll (q_open Q) st) as [st1 [[]|e| |]]; try discriminate. eauto.
Qed.
Lemma near_by_text_open Q lk corpi st maxd limit r : snd (near_by_text Q lk corpi st maxd limit) = Ok r ->
  exists st1 q, open_coll (q_open Q) st = (st1, Ok tt) /\ corpi = Ok (Some q) /\
    snd (near_docs Q st1 q maxd limit limit) = Ok r.
Proof.
  unfold near_by_text. destruct (open_coll (q_open Q) st) as [st1 [[]|e| |]]; try discriminate.
  destruct (negb lk); [discriminate|]. destruct corpi as [[v|]|e| |]; try discriminate. eauto 6.
Qed.

(** What opening does to the index. *)
Lemma open_coll_h R st st1 : open_coll R st = (st1, Ok tt) ->
  c_docs st1 = c_docs st /\
  ((c_open st = true /\ st1 = st) \/ (c_open st = false /\ c_h st1 = restart (c_h st) /\ c_reg st1 = true)).
Proof.
  unfold open_coll. destruct (negb (r_kvopen R)); [discriminate|]. destruct (negb (r_isopen R)); [discriminate|].
  destruct (c_open st); [intros [= <-]; auto|]. destruct (r_docopen R); [|discriminate]. intros [= <-]. cbn. auto.
Qed.

(** A hit is the document whose vector is at the reported distance. *)
Lemma near_docs_pair P Q st q maxd ef limit docs dists :
  cinv P st -> e_prov (q_env Q) = P -> sched_ok (q_env Q) -> prov_sym P -> ids_small (q_env Q) (c_h st) ->
  snd (near_docs Q st q maxd ef limit) = Ok (docs, dists) ->
  Permutation (q_order Q) (seq 0 (length docs)) ->
  forall i, i < length docs -> exists d v x,
    nth_error docs i = Some (Some d) /\ In d (c_docs st) /\ sd_vec d = Some v /\
    nth_error dists i = Some x /\ p_query P (p_normalize P q) (p_normalize P v) = Some x /\ fgt x maxd = false.
Proof.
  intros Hc HP Hsc Hsym Hsm H Hp i Hi.
  destruct (near_docs_spec _ _ _ _ _ _ _ _ H Hp) as (ids & Hids & Hlen & Hdocs).
  unfold near_ids in Hids. destruct (knn_max_dist _ _ _ _ _ _) as [out|e| |] eqn:Ek; cbn [bind] in Hids; try discriminate.
  destruct (cut_limit_spec _ _ _ Hids) as (_ & Hle & _ & _ & Hn). cbn [fst snd] in *.
  assert (Hi' : i < length ids) by lia. destruct (nth_error ids i) as [id|] eqn:Ei; [|apply nth_error_None in Ei; lia].
  destruct (Hdocs i id Ei) as (d & D1 & D2 & D3). destruct (Hn i Hi') as [N1 N2].
  rewrite <- HP in Hsym.
  destruct (knn_max_dist_sound (q_env Q) (load_ep (c_h st)) Hsc Hsym Hsm q maxd ef None out Ek) as (_ & _ & _ & Hs).
  rewrite Ei in N1. symmetry in N1. destruct (Hs i id N1) as (x & X1 & (v & V1 & V2) & _ & _ & X2 & _).
  destruct (ci_docs _ _ Hc d D2) as (i0 & w & W1 & _ & W2 & (v' & V3 & V4) & _); [lia|].
  assert (i0 = id) by lia. subst i0. change (node_by_id (load_ep (c_h st)) id) with (node_by_id (c_h st) id) in V1.
  exists d, w, x. repeat split; auto; [congruence|]. rewrite <- V4. rewrite <- HP. congruence.
Qed.

(** Raising the limit only appends. *)
Lemma near_ids_limit E h q maxd ef l1 l2 ids1 ds1 ids2 ds2 : (0 < l1 <= l2)%Z ->
  near_ids E h q maxd ef l1 = Ok (ids1, ds1) -> near_ids E h q maxd ef l2 = Ok (ids2, ds2) ->
  length ids1 = Nat.min (Z.to_nat l1) (length ids2) /\
  forall i, i < length ids1 -> nth_error ids1 i = nth_error ids2 i /\ nth_error ds1 i = nth_error ds2 i.
Proof.
  intros Hl. unfold near_ids. destruct (knn_max_dist E (load_ep h) q maxd ef None) as [out|e| |]; cbn [bind]; try discriminate.
  intros H1 H2. destruct (cut_limit_spec _ _ _ H1) as (_ & _ & _ & A1 & A2).
  destruct (cut_limit_spec _ _ _ H2) as (_ & _ & _ & B1 & B2). cbn [fst snd] in *.
  rewrite A1, B1 by lia. split; [lia|]. intros i Hi. destruct (A2 i) as [C1 C2]; [lia|].
  destruct (B2 i) as [D1 D2]; [rewrite B1; lia|]. split; congruence.
Qed.

(** No vectors: no answer. *)
Lemma near_docs_empty Q st q maxd ef limit :
  (forall id, node_by_id (c_h st) id = None) -> c_reg st = true ->
  snd (near_docs Q st q maxd ef limit) = Err ENodeMissing.
Proof.
  intros Hn Hr. unfold near_docs. rewrite Hr. cbn [negb snd]. unfold knn_max_dist, dist_node_vec.
  change (node_by_id (c_h (with_h st (load_ep (c_h st))))) with (node_by_id (c_h st)). rewrite Hn. reflexivity.
Qed.

(* ------------------------------------------------------------------ *)
(** Invariants of all histories, also unclean ones. *)

Lemma add_indexed_pinv o st b d p v : pinv (c_h st) ->
  match add_indexed o st b d p v with (st', b', _) => pinv (c_h st') /\ (b <= b' <= N.succ b)%N /\
    h_kv_count (c_h st') = h_kv_count (c_h st) end.
Proof.
  intros Hp. unfold add_indexed. pose proof (add_pinv (do_env o) (c_h st) b v (do_lvl o) Hp) as H.
  pose proof (add_kv (do_env o) (c_h st) b v (do_lvl o) Hp) as [_ Hk].
  destruct (add (do_env o) (c_h st) b v (do_lvl o)) as [h' [u|e| |]]; cbn [fst] in *;
    try (cbn [with_h logged c_h]; split; [exact H|split; [lia|exact Hk]]).
  unfold store_doc. destruct (negb (do_marshal o)); [|destruct (do_docput o)];
    cbn [with_h logged c_h]; (split; [exact H|split; [lia|exact Hk]]).
Qed.

Lemma add_doc_pinv lookup keys st b d o : pinv (c_h st) ->
  match add_doc lookup keys st b d o with (st', b', _) => pinv (c_h st') /\ (b <= b' <= N.succ b)%N /\
    h_kv_count (c_h st') = h_kv_count (c_h st) end.
Proof.
  intros Hp. assert (Hs : pinv (c_h st) /\ (b <= b <= N.succ b)%N /\ h_kv_count (c_h st) = h_kv_count (c_h st))
    by (split; [exact Hp|split; [lia|reflexivity]]).
  unfold add_doc. destruct d as [d|]; [|exact Hs]. cbv zeta. set (p := pset _ _ _).
  destruct (pget "vector" p) as [[| | | |l| |v]|]; try exact Hs;
    try (destruct (vector_of l); [now apply add_indexed_pinv|exact Hs]); try now apply add_indexed_pinv.
  all: destruct (vector_text p keys) as [text|e| |]; try exact Hs; destruct (String.eqb text "");
    [unfold store_doc; destruct (negb (do_marshal o)); [|destruct (do_docput o)]; exact Hs|];
    destruct (negb lookup); [exact Hs|]; destruct (do_corpi o text) as [[v|]|e| |]; try exact Hs; now apply add_indexed_pinv.
Qed.

Lemma add_loop_pinv lookup keys docs : forall st b, pinv (c_h st) ->
  match add_loop lookup keys st b docs with (st', b', _) => pinv (c_h st') end.
Proof.
  induction docs as [|[d o] docs IH]; intros st b Hp; cbn [add_loop]; [exact Hp|].
  pose proof (add_doc_pinv lookup keys st b d o Hp) as H.
  destruct (add_doc lookup keys st b d o) as [[st1 b1] [[]|e| |]]; destruct H as [H _]; auto.
  specialize (IH st1 b1 H). destruct (add_loop lookup keys st1 b1 docs) as [[st2 b2] r]. exact IH.
Qed.

Lemma open_pinv R st : pinv (c_h st) -> pinv (c_h (fst (open_coll R st))).
Proof.
  intros H. unfold open_coll. destruct (negb (r_kvopen R)); [exact H|]. destruct (negb (r_isopen R)); [exact H|].
  destruct (c_open st); [exact H|]. destruct (r_docopen R); now apply restart_pinv.
Qed.

Lemma add_documents_pinv R lookup keys docs st : pinv (c_h st) -> pinv (c_h (fst (add_documents R lookup keys docs st))).
Proof.
  intros Hp. unfold add_documents. pose proof (open_pinv R st Hp) as Ho.
  destruct (open_coll R st) as [st1 [[]|e| |]]; cbn [fst] in *; auto.
  destruct (negb (c_reg st1)); [exact Ho|].
  pose proof (add_loop_pinv lookup keys docs st1 (first_id (c_h st1)) Ho) as H.
  destruct (add_loop _ _ _ _ _) as [[st2 b] [[]|e| |]]; auto.
  unfold finish_add. pose proof (proj1 (flush_any (c_h st2) (r_keys R (c_h st2)) b (r_puts R) H)) as F.
  destruct (flush _ _ _ _) as [h' [[]|e| |]]; exact F.
Qed.

Lemma run_pinv qs : forall st, pinv (c_h st) -> pinv (c_h (run_reqs st qs)).
Proof.
  induction qs as [|q qs IH]; intros st Hp; cbn [run_reqs]; [exact Hp|]. apply IH.
  destruct q as [R lk keys docs|Q v maxd limit|Q lk corpi maxd limit|R ok id| |]; cbn [req_step].
  - now apply add_documents_pinv.
  - unfold near_by_vector. pose proof (open_pinv (q_open Q) st Hp) as Ho.
    destruct (open_coll (q_open Q) st) as [st1 [[]|e| |]]; cbn [fst] in *; auto.
    unfold near_docs. destruct (negb (c_reg st1)); [exact Ho|now apply load_ep_pinv].
  - unfold near_by_text. pose proof (open_pinv (q_open Q) st Hp) as Ho.
    destruct (open_coll (q_open Q) st) as [st1 [[]|e| |]]; cbn [fst] in *; auto.
    destruct (negb lk); [exact Ho|]. destruct corpi as [[w|]|e| |]; auto.
    + unfold near_docs. destruct (negb (c_reg st1)); [exact Ho|now apply load_ep_pinv].
    + cbn [fst]. destruct (c_reg st1); [now apply load_ep_pinv|exact Ho].
  - unfold get_document. destruct (negb (r_isopen R)); [exact Hp|].
    destruct (negb (c_open st) && negb (r_docopen R)); [exact Hp|].
    destruct (negb ok); [exact Hp|]. destruct (find _ _); exact Hp.
  - now apply restart_pinv.
  - now apply restart_pinv.
Qed.

(* ------------------------------------------------------------------ *)
(** Add requests that cannot panic. *)

(** The answers of the outside world are answers: the vectoriser does not return
    a nil vector, the vector source does not panic, the id fits the vector
    cache. *)
Definition orc_fine (size : N) (o : dorc) : Prop :=
  sched_ok (i_env (do_env o)) /\ i_vcsize (do_env o) = size /\
  (forall l ow id, safe (i_vs (do_env o) l ow id)) /\
  (forall t, safe (do_corpi o t) /\ do_corpi o t <> Ok None).

(** A document that is an object and whose text properties are strings. *)
Definition doc_fine (keys : list string) (d : docin) : Prop :=
  (exists x, pget "vector" (di_props d) = Some x /\ x <> JNull) \/
  (forall k, In k keys -> k <> "id"%string ->
     pget k (di_props d) = None \/ exists s, pget k (di_props d) = Some (JStr s)).

Lemma vector_text_safe p keys : (forall k, In k keys -> pget k p = None \/ exists s, pget k p = Some (JStr s)) ->
  exists t, vector_text p keys = Ok t.
Proof.
  induction keys as [|k keys IH]; intros H; cbn [vector_text]; [eauto|].
  destruct IH as (t & Ht); [intros; apply H; now right|].
  destruct (H k (or_introl eq_refl)) as [->|(s & ->)]; [eauto|]. rewrite Ht. cbn [bind]. eauto.
Qed.

Lemma add_indexed_safe size o st b d p v : pinv (c_h st) -> orc_fine size o -> (b < size)%N ->
  safe (snd (add_indexed o st b d p v)).
Proof.
  intros Hp (H1 & H2 & H3 & _) Hb. rewrite <- H2 in Hb.
  pose proof (add_safe (do_env o) H1 H3 (c_h st) b v (do_lvl o) (pinv_wfh _ Hp) Hb) as Hs.
  unfold add_indexed. destruct (add _ _ _ _ _) as [h' [u|e| |]]; cbn [snd] in *; [|apply safe_ok|now destruct Hs..].
  unfold store_doc. destruct (negb (do_marshal o)); [apply safe_ok|]. destruct (do_docput o); [apply safe_ok|apply safe_err].
Qed.

Lemma add_doc_safe size lookup keys st b d o : pinv (c_h st) -> orc_fine size o -> (b < size)%N -> doc_fine keys d ->
  safe (snd (add_doc lookup keys st b (Some d) o)).
Proof.
  intros Hp Ho Hb Hd. unfold add_doc. cbv zeta. set (p := pset _ _ _).
  assert (Ev : pget "vector" p = pget "vector" (di_props d)) by (unfold p; rewrite pget_pset; reflexivity).
  assert (Ht : (pget "vector" p = None \/ pget "vector" p = Some JNull) -> safe (snd (match vector_text p keys with
          | Ok text =>
              if String.eqb text "" then
                let (st', r) := store_doc o st (mkSD (di_id d) (-1) p None) in (st', b, r)
              else if negb lookup then (st, b, Err ENoVectorizer)
              else match do_corpi o text with
                   | Ok (Some v) => add_indexed o st b d p v
                   | Ok None => (st, b, Panic)
                   | Err _ => (logged st EVectorizer, b, Ok tt)
                   | Panic => (st, b, Panic)
                   | OutOfFuel => (st, b, OutOfFuel)
                   end
          | Err e => (st, b, Err e)
          | Panic => (st, b, Panic)
          | OutOfFuel => (st, b, OutOfFuel)
          end))).
  { intros Hv. destruct Hd as [(x & X1 & X2)|Hd]; [exfalso; rewrite <- Ev in X1; destruct Hv; congruence|].
    destruct (vector_text_safe p keys) as (t & ->).
    { intros k Hk. unfold p. rewrite pget_pset. destruct (String.eqb_spec k "id"); [eauto|auto]. }
    destruct (String.eqb t "").
    - unfold store_doc. destruct (negb (do_marshal o)); [apply safe_ok|]. destruct (do_docput o); [apply safe_ok|apply safe_err].
    - destruct (negb lookup); [apply safe_err|]. destruct Ho as (H1 & H2 & H3 & H4). destruct (H4 t) as [[H5 H6] H7].
      destruct (do_corpi o t) as [[v|]|e| |]; try congruence; [|apply safe_ok].
      apply (add_indexed_safe size); [exact Hp| |exact Hb]. split; [exact H1|split; [exact H2|split; [exact H3|exact H4]]]. }
  destruct (pget "vector" p) as [[| | | |l| |v]|] eqn:E; try apply safe_err; try (apply Ht; auto).
  - destruct (vector_of l) as [v|]; [now apply (add_indexed_safe size)|apply safe_err].
  - now apply (add_indexed_safe size).
Qed.

Lemma add_loop_safe size lookup keys docs : forall st b, pinv (c_h st) -> (b + N.of_nat (length docs) <= size)%N ->
  Forall (fun p => orc_fine size (snd p) /\ exists d, fst p = Some d /\ doc_fine keys d) docs ->
  safe (snd (add_loop lookup keys st b docs)).
Proof.
  induction docs as [|[d o] docs IH]; intros st b Hp Hb Hf; cbn [add_loop]; [apply safe_ok|].
  inversion Hf as [|? ? (H1 & d0 & H2 & H3) H4]; subst. cbn [fst snd length] in *. subst d.
  pose proof (add_doc_safe size lookup keys st b d0 o Hp H1 ltac:(lia) H3) as Hs.
  pose proof (add_doc_pinv lookup keys st b (Some d0) o Hp) as Hi.
  destruct (add_doc lookup keys st b (Some d0) o) as [[st1 b1] [[]|e| |]]; cbn [snd] in *; auto.
  destruct Hi as (A & B & _). apply IH; auto. lia.
Qed.

Lemma open_safe R st : safe (snd (open_coll R st)).
Proof.
  unfold open_coll. destruct (negb (r_kvopen R)); [apply safe_err|]. destruct (negb (r_isopen R)); [apply safe_err|].
  destruct (c_open st); [apply safe_ok|]. destruct (r_docopen R); [apply safe_ok|apply safe_err].
Qed.

Lemma flush_safe h keys cnt n : safe (snd (flush h keys cnt n)).
Proof.
  unfold flush. destruct (flush_plan h keys cnt) as [ws ok]. cbn [snd].
  destruct (Nat.ltb n (length ws)); [apply safe_err|]. destruct ok; [apply safe_ok|apply safe_err].
Qed.

Lemma add_documents_safe size R lookup keys docs st : pinv (c_h st) -> (c_open st = true -> c_reg st = true) ->
  (first_id (c_h st) + N.of_nat (length docs) <= size)%N ->
  Forall (fun p => orc_fine size (snd p) /\ exists d, fst p = Some d /\ doc_fine keys d) docs ->
  safe (snd (add_documents R lookup keys docs st)).
Proof.
  intros Hp Hor Hb Hf. unfold add_documents. pose proof (open_pinv R st Hp) as Ho. pose proof (open_safe R st) as Hs.
  destruct (open_coll R st) as [st1 [[]|e| |]] eqn:Eo; cbn [fst snd] in *; auto.
  destruct (open_coll_h R st st1 Eo) as (_ & Hh).
  assert (Hr : c_reg st1 = true /\ first_id (c_h st1) = first_id (c_h st)).
  { destruct Hh as [[A ->]|(A & B & C)]; [auto|]. rewrite B. auto. }
  destruct Hr as [Hr Hfi]. rewrite Hr. cbn [negb].
  pose proof (add_loop_safe size lookup keys docs st1 (first_id (c_h st1)) Ho ltac:(lia) Hf) as Hl.
  destruct (add_loop lookup keys st1 (first_id (c_h st1)) docs) as [[st2 b] [[]|e| |]]; cbn [snd] in *; auto.
  unfold finish_add. pose proof (flush_safe (c_h st2) (r_keys R (c_h st2)) b (r_puts R)) as Hfl.
  destruct (flush _ _ _ _) as [h' [[]|e| |]]; cbn [snd] in *; auto.
  destruct (r_commit R); [apply safe_ok|apply safe_err].
Qed.

(* ------------------------------------------------------------------ *)
(** Every indexed vector has its document. *)

Definition covered (st : coll) : Prop :=
  forall i v, node_by_id (c_h st) i = Some v -> exists d, In d (c_docs st) /\ sd_hnsw d = Z.of_N i.

Lemma by_id_none id ds : by_id id ds = None -> forall d, In d ds -> sd_id d <> id.
Proof.
  unfold by_id. intros H d Hd E. pose proof (find_none _ _ H d Hd) as X. cbn in X. rewrite <- E, String.eqb_refl in X. discriminate.
Qed.

Lemma put_doc_keeps d ds x : by_id (sd_id d) ds = None -> In x ds -> In x (put_doc d ds).
Proof.
  intros H Hx. right. apply filter_In. split; [exact Hx|]. pose proof (by_id_none _ _ H x Hx).
  destruct (String.eqb_spec (sd_id d) (sd_id x)); [congruence|reflexivity].
Qed.

Lemma add_indexed_covered o st b d p v st' b' u : pinv (c_h st) -> covered st ->
  by_id (di_id d) (c_docs st) = None ->
  add_indexed o st b d p v = (st', b', Ok u) -> length (c_log st') = length (c_log st) -> covered st'.
Proof.
  intros Hp Hc Hn. unfold add_indexed.
  pose proof (proj1 (add_prel (do_env o) (c_h st) b v (do_lvl o) (pinv_wfh _ Hp))) as Hr.
  destruct (add _ _ _ _ _) as [h' [w|e| |]]; try discriminate; cbn [fst] in Hr.
  - unfold store_doc. destruct (negb (do_marshal o)).
    { intros [= <- _ _]. cbn. lia. }
    destruct (do_docput o); [|discriminate]. intros [= <- _ _] _ i x. cbn [c_h with_h c_docs]. intros Hx.
    destruct (prel_back _ _ _ _ _ _ Hr Hx) as [[-> _]|(y & Hy & _)].
    + eexists. split; [left; reflexivity|reflexivity].
    + destruct (Hc i y Hy) as (d0 & D1 & D2). exists d0. split; [|exact D2]. now apply put_doc_keeps.
  - intros [= <- _ _]. cbn. lia.
Qed.

Lemma add_doc_covered lookup keys st b d o st' b' u : pinv (c_h st) -> covered st ->
  by_id (di_id d) (c_docs st) = None ->
  add_doc lookup keys st b (Some d) o = (st', b', Ok u) -> length (c_log st') = length (c_log st) -> covered st'.
Proof.
  intros Hp Hc Hn. unfold add_doc. cbv zeta. set (p := pset _ _ _).
  assert (Ht : (match vector_text p keys with
          | Ok text =>
              if String.eqb text "" then
                let (st', r) := store_doc o st (mkSD (di_id d) (-1) p None) in (st', b, r)
              else if negb lookup then (st, b, Err ENoVectorizer)
              else match do_corpi o text with
                   | Ok (Some v) => add_indexed o st b d p v
                   | Ok None => (st, b, Panic)
                   | Err _ => (logged st EVectorizer, b, Ok tt)
                   | Panic => (st, b, Panic)
                   | OutOfFuel => (st, b, OutOfFuel)
                   end
          | Err e => (st, b, Err e)
          | Panic => (st, b, Panic)
          | OutOfFuel => (st, b, OutOfFuel)
          end) = (st', b', Ok u) -> length (c_log st') = length (c_log st) -> covered st').
  { destruct (vector_text p keys) as [text|e| |]; try discriminate. destruct (String.eqb text "").
    - unfold store_doc. destruct (negb (do_marshal o)); [intros [= <- _ _]; cbn; lia|].
      destruct (do_docput o); [|discriminate]. intros [= <- _ _] _ i x Hx. cbn [c_h c_docs] in *.
      destruct (Hc i x Hx) as (d0 & D1 & D2). exists d0. split; [|exact D2]. now apply put_doc_keeps.
    - destruct (negb lookup); [discriminate|]. destruct (do_corpi o text) as [[v|]|e| |]; try discriminate.
      + now apply add_indexed_covered.
      + intros [= <- _ _]. cbn. lia. }
  destruct (pget "vector" p) as [[| | | |l| |v]|]; try discriminate; try exact Ht.
  - destruct (vector_of l) as [v|]; [|discriminate]. now apply add_indexed_covered.
  - now apply add_indexed_covered.
Qed.

Lemma add_loop_covered lookup keys docs : forall st b st' b' u, pinv (c_h st) -> covered st ->
  NoDup (map (fun p => option_map di_id (fst p)) docs) ->
  (forall d o, In (Some d, o) docs -> by_id (di_id d) (c_docs st) = None) ->
  add_loop lookup keys st b docs = (st', b', Ok u) -> length (c_log st') = length (c_log st) -> covered st'.
Proof.
  induction docs as [|[[d|] o] docs IH]; intros st b st' b' u Hp Hc Hnd Hfr; cbn [add_loop].
  - intros [= <- _ _] _. exact Hc.
  - destruct (add_doc lookup keys st b (Some d) o) as [[s1 b1] [[]|e| |]] eqn:E; try discriminate.
    pose proof (add_doc_stored _ _ _ _ _ _ _ _ _ E) as (A1 & A2 & _). intros H Hl.
    pose proof (add_loop_stored _ _ _ _ _ _ _ _ H) as (B1 & _).
    pose proof (add_doc_pinv lookup keys st b (Some d) o Hp) as Hi. rewrite E in Hi. destruct Hi as (Hi & _).
    cbn [map fst option_map] in Hnd. inversion Hnd as [|? ? Hni Hnd']; subst.
    apply (IH s1 b1 st' b' u); auto.
    + apply (add_doc_covered lookup keys st b d o s1 b1 tt Hp Hc); [|exact E|lia]. apply (Hfr d o). now left.
    + intros d' o' Hin. rewrite A2; [apply (Hfr d' o'); now right|].
      intros Heq. apply Hni. apply in_map_iff. exists (Some d', o'). cbn. split; [congruence|exact Hin].
    + lia.
  - cbn [add_doc]. discriminate.
Qed.

Lemma covered_restart st reg op lg : covered st -> covered (mkC (restart (c_h st)) reg op (c_docs st) lg).
Proof.
  intros Hc i v Hv. cbn [c_h c_docs] in *. unfold node_by_id, restart in Hv. cbn in Hv.
  destruct (node_by_id (c_h st) i) as [w|] eqn:E; [exact (Hc i w E)|].
  unfold node_by_id in E. destruct (mget i (h_cache (c_h st))); congruence.
Qed.

Lemma open_covered R st : covered st -> covered (fst (open_coll R st)).
Proof.
  intros H. unfold open_coll. destruct (negb (r_kvopen R)); [exact H|]. destruct (negb (r_isopen R)); [exact H|].
  destruct (c_open st); [exact H|]. destruct (r_docopen R); now apply covered_restart.
Qed.

(** Add requests that succeeded without skipping and whose documents were new. *)
Definition tidy_add (R : rorc) (lookup : bool) (keys : list string) (docs : list (option docin * dorc)) (st : coll) : Prop :=
  snd (add_documents R lookup keys docs st) = Ok tt /\
  c_log (fst (add_documents R lookup keys docs st)) = c_log st /\
  NoDup (map (fun p => option_map di_id (fst p)) docs) /\
  (forall d o, In (Some d, o) docs -> by_id (di_id d) (c_docs st) = None).

Lemma add_documents_covered R lookup keys docs st : pinv (c_h st) -> covered st ->
  tidy_add R lookup keys docs st -> covered (fst (add_documents R lookup keys docs st)).
Proof.
  intros Hp Hc. unfold tidy_add, add_documents. destruct (open_coll_docs R st) as [O1 O2].
  pose proof (open_pinv R st Hp) as Ho. pose proof (open_covered R st Hc) as Hco.
  destruct (open_coll R st) as [st1 [[]|e| |]]; cbn [fst snd] in *; intros (H1 & H2 & H3 & H4); try discriminate.
  destruct (negb (c_reg st1)); [discriminate|].
  pose proof (add_loop_pinv lookup keys docs st1 (first_id (c_h st1)) Ho) as Hpi.
  destruct (add_loop lookup keys st1 (first_id (c_h st1)) docs) as [[st2 b] [[]|e| |]] eqn:El; cbn [fst snd] in *; try discriminate.
  destruct (finish_add_docs R st2 b) as [F1 F2]. rewrite F2 in H2.
  assert (Hc2 : covered st2).
  { eapply add_loop_covered; [exact Ho|exact Hco|exact H3| |exact El|rewrite H2, O2; reflexivity].
    intros d o Hin. rewrite O1. eauto. }
  assert (Hh : forall j, node_by_id (c_h st2) j = None -> node_by_id (c_h (fst (finish_add R st2 b))) j = None).
  { intros j Hj. unfold finish_add. pose proof (proj1 (proj2 (flush_any (c_h st2) (r_keys R (c_h st2)) b (r_puts R) Hpi)) j) as Hv.
    unfold pview in Hv. rewrite Hj in Hv. destruct (flush _ _ _ _) as [h' [[]|e| |]]; cbn [fst with_h c_h] in *;
      destruct (node_by_id h' j); cbn in Hv; congruence. }
  intros i v Hv. rewrite F1. destruct (node_by_id (c_h st2) i) as [w|] eqn:E; [exact (Hc2 i w E)|].
  apply Hh in E. congruence.
Qed.

(** If every hit has a document and no fetch fails, the request succeeds. *)
Lemma near_docs_found Q st q maxd ef limit ids dists :
  covered st -> sched_ok (q_env Q) -> prov_sym (e_prov (q_env Q)) -> ids_small (q_env Q) (c_h st) ->
  c_reg st = true -> near_ids (q_env Q) (c_h st) q maxd ef limit = Ok (ids, dists) ->
  Permutation (q_order Q) (seq 0 (length ids)) -> (forall i, i < length ids -> q_ok Q i = true) ->
  exists docs, snd (near_docs Q st q maxd ef limit) = Ok (docs, dists) /\ length docs = length ids.
Proof.
  intros Hc Hsc Hsym Hsm Hr Hid Hp Hok. unfold near_docs. rewrite Hr. cbn [negb snd].
  change (c_h (with_h st (load_ep (c_h st)))) with (load_ep (c_h st)).
  change (c_docs (with_h st (load_ep (c_h st)))) with (c_docs st).
  unfold near_ids in Hid. destruct (knn_max_dist _ _ _ _ _ _) as [out|e| |] eqn:Ek; cbn [bind] in *; try discriminate.
  rewrite Hid. cbn [bind fst snd].
  pose proof (fetch_docs_spec (doc_find (q_ok Q) (q_pick Q) (c_docs st)) ids (q_order Q) Hp) as Hf.
  destruct (fetch_docs _ ids (q_order Q)) as [docs|e| |]; cbn [bind]; try contradiction.
  - exists docs. split; [reflexivity|exact (proj1 Hf)].
  - exfalso. destruct Hf as (i & id & Hi & Hno).
    destruct (cut_limit_spec _ _ _ Hid) as (_ & _ & _ & _ & Hn). cbn [fst snd] in Hn.
    assert (Hil : i < length ids) by (apply nth_error_Some; congruence).
    destruct (Hn i Hil) as [N1 _]. rewrite Hi in N1. symmetry in N1.
    destruct (knn_max_dist_sound (q_env Q) (load_ep (c_h st)) Hsc Hsym Hsm q maxd ef None out Ek) as (_ & _ & _ & Hs).
    destruct (Hs i id N1) as (x & _ & (v & V1 & _) & _).
    change (node_by_id (load_ep (c_h st)) id) with (node_by_id (c_h st) id) in V1.
    destruct (Hc id v V1) as (d & D1 & D2).
    unfold doc_find in Hno. rewrite (Hok i Hil) in Hno. cbn [negb] in Hno.
    assert (Hm : In d (matching (c_docs st) id)) by (apply filter_In; split; [exact D1|now apply Z.eqb_eq]).
    destruct (matching (c_docs st) id) as [|d0 l]; [destruct Hm|]. now apply (Hno (nth (q_pick Q i) (d0 :: l) d0)).
Qed.

(** A fetch that fails, or a hit without a document, fails the request. *)
Lemma near_docs_hole Q st q maxd ef limit ids dists i id :
  c_reg st = true -> near_ids (q_env Q) (c_h st) q maxd ef limit = Ok (ids, dists) ->
  Permutation (q_order Q) (seq 0 (length ids)) -> nth_error ids i = Some id ->
  (q_ok Q i = false \/ forall d, In d (c_docs st) -> sd_hnsw d <> Z.of_N id) ->
  exists e, snd (near_docs Q st q maxd ef limit) = Err e.
Proof.
  intros Hr Hid Hp Hi Hbad. unfold near_docs. rewrite Hr. cbn [negb snd].
  change (c_h (with_h st (load_ep (c_h st)))) with (load_ep (c_h st)).
  change (c_docs (with_h st (load_ep (c_h st)))) with (c_docs st).
  unfold near_ids in Hid. destruct (knn_max_dist _ _ _ _ _ _) as [out|e| |] eqn:Ek; cbn [bind] in *; try discriminate.
  rewrite Hid. cbn [bind fst snd].
  pose proof (fetch_docs_spec (doc_find (q_ok Q) (q_pick Q) (c_docs st)) ids (q_order Q) Hp) as Hf.
  destruct (fetch_docs _ ids (q_order Q)) as [docs|e| |]; cbn [bind]; try contradiction; [|eauto].
  exfalso. destruct Hf as [_ Hf]. destruct (Hf i id Hi) as (d & D & _).
  destruct Hbad as [Hb|Hb].
  - unfold doc_find in D. rewrite Hb in D. discriminate.
  - apply doc_find_ok in D. destruct D as [D1 D2]. exact (Hb d D1 D2).
Qed.

Lemma ids_small_open R st st1 E : open_coll R st = (st1, Ok tt) -> ids_small E (c_h st) -> ids_small E (c_h st1).
Proof.
  intros Ho Hs. destruct (open_coll_h _ _ _ Ho) as (_ & [[_ ->]|(_ & Hh & _)]); [exact Hs|]. rewrite Hh.
  intros id v Hv. unfold node_by_id, restart in Hv. cbn in Hv.
  destruct (node_by_id (c_h st) id) as [w|] eqn:X; [exact (Hs id w X)|].
  unfold node_by_id in X. destruct (mget id (h_cache (c_h st))); congruence.
Qed.
