(** C66: a vectoriser that fails is reported.  C67: a document is found by its
    text. *)
From Coq Require Import String Sorted.
From Verif Require Import Base F32 JsonNum PQ PQProofs Graph Search SearchProofs Insert InsertHist InsertFind
  Distancer DistancerProofs PropDistancer TestGraph TestInsert PropSearch PropInsert PropFind
  Persist PersistProofs Client ClientProofs ClientSafe ClientFacts ClientReq PropClient VCache VCacheFacts ClientSmall PropRequests
  Handlers Vectorizer VectorizerProofs.
Local Open Scope string_scope.

(** No vector from the vectoriser: it does not answer, or what it answers with
    status 200 is not readable as a non-empty vector. *)
Definition no_vector (r : http) : Prop :=
  (forall code b, r = HResp code b -> code = 200%N) /\ (forall v, corpi r = Ok (Some v) -> v = []).

(** C66, queries by text: the answer is 400, and nothing is changed but that the
    collection is opened and the entry point read. *)
Lemma known_nil P : known_provider P -> p_normalize P [] = [].
Proof. intros [dot [|]|dot [|]|l2 [|]| |]; reflexivity. Qed.
Lemma knn_nil E h maxd ef : p_normalize (e_prov E) [] = [] -> exists e, knn_max_dist E h [] maxd ef None = Err e.
Proof.
  intros Hn. unfold knn_max_dist, dist_node_vec. rewrite Hn. destruct (node_by_id h (h_ep h)) as [v|]; [|eexists; reflexivity].
  destruct (v_vec v); eexists; reflexivity.
Qed.
Lemma corpi_no_vector r : no_vector r -> (exists e, corpi r = Err e) \/ corpi r = Ok (Some []).
Proof.
  intros [H1 H2]. destruct r as [|code b]; [left; eexists; reflexivity|]. rewrite (H1 code b eq_refl) in *.
  cbn [corpi N.eqb Pos.eqb negb] in *. destruct b as [b|]; [|left; eexists; reflexivity].
  destruct (result_of b) as [l|]; [|left; eexists; reflexivity]. right. now rewrite (H2 _ eq_refl).
Qed.
Theorem C66_query_reported_partial : forall r Q lookup name text maxd limit st,
  known_provider (e_prov (q_env Q)) -> no_vector r -> (c_open st = true -> c_reg st = true) ->
  exists e, snd (handle_near_text Q lookup (corpi r) name text maxd limit st) = Bad400 e /\
    let st' := fst (handle_near_text Q lookup (corpi r) name text maxd limit st) in
    c_docs st' = c_docs st /\ (c_open st = true -> c_h st' = c_h st \/ c_h st' = load_ep (c_h st)).
Proof.
  intros r Q lookup name text maxd limit st HP Hr Hreg. unfold handle_near_text.
  destruct (String.eqb name ""); [eexists; split; [reflexivity|split; [reflexivity|now left]]|].
  destruct (String.eqb text ""); [eexists; split; [reflexivity|split; [reflexivity|now left]]|].
  unfold near_by_text, open_coll.
  destruct (r_kvopen (q_open Q)); cbn [negb]; [|eexists; split; [reflexivity|split; [reflexivity|now left]]].
  destruct (r_isopen (q_open Q)); cbn [negb]; [|eexists; split; [reflexivity|split; [reflexivity|now left]]].
  assert (K : forall st1, c_reg st1 = true -> exists e,
     (if negb lookup then (st1, Err ENoVectorizer) else
      match corpi r with
      | Ok (Some q) => near_docs Q st1 q maxd limit limit
      | Ok None => (if c_reg st1 then with_h st1 (load_ep (c_h st1)) else st1, Panic)
      | Err e => (st1, Err e) | Panic => (st1, Panic) | OutOfFuel => (st1, OutOfFuel) end) = (st1, Err e) \/
     (if negb lookup then (st1, Err ENoVectorizer) else
      match corpi r with
      | Ok (Some q) => near_docs Q st1 q maxd limit limit
      | Ok None => (if c_reg st1 then with_h st1 (load_ep (c_h st1)) else st1, Panic)
      | Err e => (st1, Err e) | Panic => (st1, Panic) | OutOfFuel => (st1, OutOfFuel) end) = (with_h st1 (load_ep (c_h st1)), Err e)).
  { intros st1 R1. destruct lookup; cbn [negb]; [|eexists; left; reflexivity].
    destruct (corpi_no_vector r Hr) as [(e & ->)| ->]; [eexists; left; reflexivity|].
    unfold near_docs. rewrite R1. cbn [negb].
    destruct (knn_nil (q_env Q) (c_h (with_h st1 (load_ep (c_h st1)))) maxd limit (known_nil _ HP)) as (e & ->).
    eexists. right. reflexivity. }
  destruct (c_open st) eqn:Eo.
  - destruct (K st (Hreg eq_refl)) as (e & [-> | ->]); (exists e; split; [reflexivity|split; [reflexivity|]]); intros _; [now left|now right].
  - destruct (r_docopen (q_open Q)).
    + destruct (K (mkC (restart (c_h st)) true true (c_docs st) (c_log st)) eq_refl) as (e & [-> | ->]);
        (exists e; split; [reflexivity|split; [reflexivity|discriminate]]).
    + eexists. split; [reflexivity|split; [reflexivity|discriminate]].
Qed.
Print Assumptions C66_query_reported_partial.

(** Any other status crashes the request: Corpi returns neither a vector nor an
    error. *)
Theorem C66_status_crashes_query : forall code body Q name text maxd limit st, code <> 200%N ->
  name <> "" -> text <> "" -> c_open st = true ->
  r_kvopen (q_open Q) = true -> r_isopen (q_open Q) = true ->
  snd (handle_near_text Q true (corpi (HResp code body)) name text maxd limit st) = Crash.
Proof.
  intros code body Q name text maxd limit st Hc Hn Ht Ho H1 H2. unfold handle_near_text, near_by_text, open_coll.
  destruct (String.eqb_spec name ""); [contradiction|]. destruct (String.eqb_spec text ""); [contradiction|].
  rewrite H1, H2, Ho. cbn [negb corpi]. destruct (N.eqb_spec code 200); [contradiction|]. reflexivity.
Qed.
Print Assumptions C66_status_crashes_query.

(** The answers the crash needs exist, and so do those of the first theorem. *)
Definition unavailable : http := HResp 503 (Some (JObj [("error", JStr "busy")])).
Definition bad_body : http := HResp 200 (Some (JObj [("vector", JArr [JStr "x"])])).
Theorem C66_status_crashes_query_refuted : exists r Q name text maxd limit st,
  known_provider (e_prov (q_env Q)) /\ (forall v, corpi r <> Ok (Some v)) /\
  snd (handle_near_text Q true (corpi r) name text maxd limit st) = Crash.
Proof.
  exists unavailable, (qok 3), "c", "hello", two, 3%Z, st1. split; [exact cosp_known|]. split; [intros v; vm_compute; discriminate|].
  apply C66_status_crashes_query; try reflexivity; discriminate.
Qed.
Print Assumptions C66_status_crashes_query_refuted.
Definition no_member : http := HResp 200 (Some (JObj [("embedding", JArr [num 1; num 0])])).
Example C66_nonvacuous : no_vector HFail /\ no_vector bad_body /\ no_vector no_member /\ ~ no_vector unavailable /\
  known_provider (e_prov (q_env (qok 3))) /\
  snd (handle_near_text (qok 3) true (corpi no_member) "c" "hello" two 3 st1) = Bad400 EEmptyVector /\
  snd (handle_near_text (qok 3) true (corpi unavailable) "c" "hello" two 3 st1) = Crash.
Proof.
  split; [split; discriminate|]. split; [split; [now intros ? ? [= <-]|intros v; vm_compute; discriminate]|].
  split; [split; [now intros ? ? [= <-]|intros v; vm_compute; now intros [= <-]]|].
  split; [intros [H _]; specialize (H _ _ eq_refl); discriminate|]. split; [exact cosp_known|].
  split; vm_compute; reflexivity.
Qed.

(** C66, add requests: documents for which the vectoriser gives no vector are
    skipped, and everything else is as if the request did not have them. *)
Definition refused (keys : list string) (p : option docin * dorc) : Prop :=
  exists d t, fst p = Some d /\ by_text keys d t /\ exists r, do_corpi (snd p) t = corpi r /\ no_vector r.
Inductive without (keys : list string) : list (option docin * dorc) -> list (option docin * dorc) -> Prop :=
| wo_nil : without keys [] []
| wo_keep p l l' : without keys l l' -> without keys (p :: l) (p :: l')
| wo_drop p l l' : refused keys p -> without keys l l' -> without keys (p :: l) l'.
Lemma add_doc_refused keys st i p : refused keys p ->
  exists st', add_doc true keys st i (fst p) (snd p) = (st', i, Ok tt) /\ same st' st.
Proof.
  intros (d & t & E & Ht & r & Hr & Hn). rewrite E, (add_doc_text true keys st i d (snd p) t Ht), Hr. cbn [negb].
  destruct (corpi_no_vector r Hn) as [(e & ->)| ->]; [eexists; split; [reflexivity|apply same_log]|].
  unfold add_indexed, add. eexists. split; [reflexivity|]. repeat split.
Qed.
Lemma add_loop_without keys docs docs' : without keys docs docs' -> forall a b i, same a b ->
  sim (add_loop true keys a i docs) (add_loop true keys b i docs').
Proof.
  induction 1 as [|[d o] l l' _ IH|[d o] l l' Hp _ IH]; intros a b i Hs; cbn [add_loop].
  - split; [exact Hs|split; reflexivity].
  - pose proof (add_doc_same true keys a b i d o Hs) as (S1 & S2 & S3).
    destruct (add_doc true keys a i d o) as [[a1 i1] r1]. destruct (add_doc true keys b i d o) as [[b1 i2] r2].
    cbn [fst snd] in *. subst i2 r2. destruct r1; [now apply IH| | |]; (split; [exact S1|split; reflexivity]).
  - destruct (add_doc_refused keys a i (d, o) Hp) as (a1 & E & Hs1). cbn [fst snd] in E. rewrite E. apply IH. now apply (same_trans _ a).
Qed.
Theorem C66_others_unaffected_partial : forall keys docs docs' R st, without keys docs docs' ->
  let x := add_documents R true keys docs st in let y := add_documents R true keys docs' st in
  snd x = snd y /\ c_h (fst x) = c_h (fst y) /\ c_docs (fst x) = c_docs (fst y) /\
  c_reg (fst x) = c_reg (fst y) /\ c_open (fst x) = c_open (fst y).
Proof.
  intros keys docs docs' R st Hw x y. subst x y. unfold add_documents. destruct (open_coll R st) as [s [u|e| |]]; try (repeat split; fail).
  destruct (negb (c_reg s)); [repeat split|].
  destruct (add_loop_without keys docs docs' Hw s s (first_id (c_h s)) (same_refl s)) as (S1 & S2 & S3).
  destruct (add_loop true keys s (first_id (c_h s)) docs) as [[a i] r]. destruct (add_loop true keys s (first_id (c_h s)) docs') as [[b j] r'].
  cbn [fst snd] in *. subst j r'. destruct S1 as (A & B & C & D). destruct r as [u0|e| |]; try (repeat split; assumption).
  unfold finish_add. rewrite A. destruct (flush (c_h b) (r_keys R (c_h b)) i (r_puts R)) as [h' [u1|e| |]]; repeat split; assumption.
Qed.
Print Assumptions C66_others_unaffected_partial.

(** The caller is not told: the request is acknowledged with the number of all
    documents. *)
Definition orc_of (V : string -> http) (tab : list (N * vec)) : dorc := mkD (ienv_of cosp tab) 0 (fun t => corpi (V t)) true true.
Definition down (_ : string) : http := HFail.
Definition raw_text (id text : string) : option rawdoc := Some (mkRaw id (JObj [("text", JStr text)])).
Theorem C66_add_acknowledged_refuted : exists V rs keys id,
  (forall t, no_vector (V t)) /\ In (raw_text id "hello") rs /\
  let r := handle_add rok true (map (fun _ => orc_of V tab2) rs) "c" (Some rs) (Some keys) st1 in
  snd r = Ok200 (length rs) /\ forall s, In s (c_docs (fst r)) -> sd_id s <> id.
Proof.
  exists down, [raw_text "d" "hello"], ["text"], "d". split; [split; discriminate|]. split; [now left|].
  cbv zeta. split; [vm_compute; reflexivity|]. intros s Hs E.
  assert (H : forallb (fun s => negb (String.eqb (sd_id s) "d")) (c_docs (fst (handle_add rok true (map (fun _ => orc_of down tab2) [raw_text "d" "hello"])
     "c" (Some [raw_text "d" "hello"]) (Some ["text"]) st1))) = true) by (vm_compute; reflexivity).
  rewrite forallb_forall in H. specialize (H s Hs). rewrite E in H. discriminate H.
Qed.
Print Assumptions C66_add_acknowledged_refuted.
Theorem C66_status_crashes_add_refuted : exists V rs keys,
  (forall t, V t = unavailable) /\ snd (handle_add rok true (map (fun _ => orc_of V tab2) rs) "c" (Some rs) (Some keys) st1) = Crash.
Proof. exists (fun _ => unavailable), [raw_text "d" "hello"], ["text"]. split; [reflexivity|]. vm_compute. reflexivity. Qed.
Print Assumptions C66_status_crashes_add_refuted.
Example C66_others_nonvacuous : without ["text"] [docv "e" [1; 2]%Z; (Some (mkDoc "d" [("text", JStr "hello")]), orc_of down tab2); docv "f" [2; 1]%Z]
    [docv "e" [1; 2]%Z; docv "f" [2; 1]%Z] /\
  snd (add_documents rok true ["text"] [docv "e" [1; 2]%Z; docv "f" [2; 1]%Z] st1) = Ok tt.
Proof.
  split; [|vm_compute; reflexivity]. apply wo_keep, wo_drop; [|apply wo_keep, wo_nil].
  exists (mkDoc "d" [("text", JStr "hello")]), "hello ". split; [reflexivity|]. split.
  - split; [now left|]. split; [reflexivity|discriminate].
  - exists HFail. split; [reflexivity|split; discriminate].
Qed.

(** At the start: without an address there is no vectoriser, and requests that need
    one are rejected; with one, a vectoriser that is not healthy stops the service. *)
Theorem C66_start : forall url health lk,
  new_client url health = Ok lk <->
  (url = "" /\ lk = false) \/ (url <> "" /\ lk = true /\ exists b, health = HResp 200 b).
Proof.
  intros url health lk. unfold new_client. destruct (String.eqb_spec url "") as [->|Hu].
  - split; [intros [= <-]; now left|]. intros [[_ ->]|[H _]]; [reflexivity|contradiction].
  - destruct health as [|code b]; cbn [new_vectorizer bind].
    + split; [discriminate|]. intros [[H _]|(_ & _ & b & [=])]. contradiction.
    + destruct (N.eqb_spec code 200) as [->|Hc]; cbn [bind].
      * split; [intros [= <-]; right; eauto|]. intros [[H _]|(_ & -> & _)]; [contradiction|reflexivity].
      * split; [discriminate|]. intros [[H _]|(_ & _ & b' & [= H _])]; contradiction.
Qed.
Theorem C66_none_configured : forall V R Q name text maxd limit keys d t docs o st,
  (exists e, snd (handle_near_text Q false V name text maxd limit st) = Bad400 e) /\
  (by_text keys d t -> c_reg st = true -> c_open st = true ->
   exists e, snd (add_documents R false keys ((Some d, o) :: docs) st) = Err e).
Proof.
  intros V R Q name text maxd limit keys d t docs o st. split.
  - unfold handle_near_text, near_by_text, open_coll. destruct (String.eqb name ""); [eexists; reflexivity|].
    destruct (String.eqb text ""); [eexists; reflexivity|]. destruct (r_kvopen _); [|eexists; reflexivity].
    destruct (r_isopen _); [|eexists; reflexivity]. cbn [negb]. destruct (c_open st); [eexists; reflexivity|].
    destruct (r_docopen _); eexists; reflexivity.
  - intros Ht Hr Ho. unfold add_documents, open_coll. destruct (r_kvopen R); [|eexists; reflexivity].
    destruct (r_isopen R); [|eexists; reflexivity]. cbn [negb]. rewrite Ho, Hr. cbn [negb add_loop].
    rewrite (add_doc_text false keys st _ d o t Ht). eexists. reflexivity.
Qed.
Print Assumptions C66_start.
Print Assumptions C66_none_configured.

(** What is read of a good answer: the last member "vector", its numbers as the
    nearest float32s; other members must be arrays of numbers too. *)
Lemma members_app a b : members (a ++ b)%list = match members a, members b with Some x, Some y => Some (x ++ y)%list | _, _ => None end.
Proof.
  induction a as [|[k x] a IH]; cbn [app members]; [destruct (members b); reflexivity|]. rewrite IH.
  destruct (float_slice x); [|reflexivity]. destruct (members a); [|reflexivity]. destruct (members b); reflexivity.
Qed.
Lemma members_keys a r : members a = Some r -> map fst r = map fst a.
Proof.
  revert r. induction a as [|[k x] a IH]; intros r; cbn [members]; [now intros [= <-]|].
  destruct (float_slice x); [|discriminate]. destruct (members a); [|discriminate]. intros [= <-]. cbn. f_equal. now apply IH.
Qed.
Lemma find_none_in {A} (f : A -> bool) l : (forall x, In x l -> f x = false) -> find f l = None.
Proof. induction l as [|a l IH]; cbn; [reflexivity|]. intros H. rewrite (H a (or_introl eq_refl)). apply IH. auto. Qed.
Lemma find_app' {A} (f : A -> bool) a b : find f a = None -> find f (a ++ b)%list = find f b.
Proof. induction a as [|x a IH]; cbn; [reflexivity|]. destruct (f x); [discriminate|exact IH]. Qed.
Theorem C66_answer_read : forall a b ts v,
  members a <> None -> members b <> None -> ~ In "vector" (map fst b) ->
  Forall2 (fun t x => f32_of_text t = Some x) ts v ->
  corpi (HResp 200 (Some (JObj (a ++ ("vector", JArr (map JNum ts)) :: b)%list))) = Ok (Some v).
Proof.
  intros a b ts v Ha Hb Hn Hv. cbn [corpi N.eqb Pos.eqb negb result_of]. rewrite members_app. cbn [members float_slice].
  assert (floats (map JNum ts) = Some v) as ->.
  { clear -Hv. induction Hv as [|t x ts v H _ IH]; cbn [map floats]; [reflexivity|]. now rewrite H, IH. }
  destruct (members a) as [ra|]; [|contradiction]. destruct (members b) as [rb|] eqn:Eb; [|contradiction].
  unfold last_of. rewrite rev_app_distr. cbn [rev]. rewrite <- app_assoc, find_app'; [reflexivity|].
  apply find_none_in. intros [k w] Hin. apply in_rev in Hin. apply String.eqb_neq. cbn [fst]. intros <-. apply Hn.
  rewrite <- (members_keys _ _ Eb). exact (in_map fst _ _ Hin).
Qed.
Print Assumptions C66_answer_read.
Example C66_read_nonvacuous : corpi (HResp 200 (Some (JObj [("vector", JArr [JNull]); ("vector", JArr (map JNum ["1"; "-0.5"]))]))) =
  Ok (Some [f32_of_Z 1; f32_div (f32_of_Z (-1)) (f32_of_Z 2)]).
Proof. vm_compute. reflexivity. Qed.

(* ------------------------------------------------------------------ *)
(** C67.  The text of a document is made of its indexed properties, each followed by
    a space.  A vectoriser that answers each text with one vector ([V]); a new
    collection gets one add request of at most 61 documents, with vectors or by
    text, and answers success.  A query by text returns exactly the documents within
    the distance of the vector of the query text; in particular all documents whose
    text has the same vector as the query text, if their computed distance is not
    negative.  The breadth of the search is the limit, so the limit must reach the
    number of documents. *)
Theorem C67_found_by_text_partial : forall n cap P V R keys ds,
  0 < n -> ds <> [] -> length ds <= 61 -> NoDup (map (fun d => di_id (vd_doc d)) ds) -> Forall (vt_ok true keys) ds ->
  Forall (fun d => do_corpi (vd_orc d) = fun t => corpi (V t)) ds ->
  Forall (fun d => e_prov (i_env (do_env (vd_orc d))) = P) ds ->
  Forall (find_call n 30 cap (map a_id (ops_of 0 ds))) (ops_of 0 ds) -> rorc_ok R ->
  snd (add_documents R true keys (map vd_pair ds) new_coll) = Ok tt ->
  let st := fst (add_documents R true keys (map vd_pair ds) new_coll) in
  forall st', st' = st \/ st' = restart_coll st ->
  forall E text q maxd limit, sched_ok E -> e_prov E = P -> e_vcap E = cap ->
    corpi (V text) = Ok (Some q) -> length q = n -> (Z.of_nat (length ds) <= limit)%Z ->
    (forall d x, In d ds -> p_query P (p_normalize P q) (p_normalize P (vd_vec d)) = Some x -> is_num x = true) ->
    exists m, forall Q, q_env Q = E ->
      r_kvopen (q_open Q) = true -> r_isopen (q_open Q) = true -> r_docopen (q_open Q) = true ->
      Permutation (q_order Q) (seq 0 m) -> (forall i, q_ok Q i = true) ->
      exists docs dists, snd (near_by_text Q true (corpi (V text)) st' maxd limit) = Ok (docs, dists) /\
        (forall i o, nth_error docs i = Some o -> exists s d x, o = Some s /\ In d ds /\ sd_id s = di_id (vd_doc d) /\
           nth_error dists i = Some x /\ p_query P (p_normalize P q) (p_normalize P (vd_vec d)) = Some x /\
           flt x f32_zero = false /\ fgt x maxd = false) /\
        (forall d x, In d ds -> p_query P (p_normalize P q) (p_normalize P (vd_vec d)) = Some x ->
           flt x f32_zero = false -> fgt x maxd = false ->
           exists i s, nth_error docs i = Some (Some s) /\ sd_id s = di_id (vd_doc d) /\ nth_error dists i = Some x) /\
        (forall d t x, In d ds -> by_text keys (vd_doc d) t -> V t = V text ->
           p_query P (p_normalize P q) (p_normalize P q) = Some x -> flt x f32_zero = false -> fgt x maxd = false ->
           exists i s, nth_error docs i = Some (Some s) /\ sd_id s = di_id (vd_doc d)) /\
        (forall i j s t, nth_error docs i = Some (Some s) -> nth_error docs j = Some (Some t) -> sd_id s = sd_id t -> i = j) /\
        (forall i j x y, i < j < length docs -> nth_error dists i = Some x -> nth_error dists j = Some y -> flt y x = false).
Proof.
  intros n cap P V R keys ds Hn Hne Hlen Hids Hvd HV HP Hf HR Hok st st' Hst E text q maxd limit Hsc HEP Hcap Hc Hq Hlim Hnum.
  destruct (request_text n cap P R true keys ds Hn Hne Hlen Hids Hvd HP Hf HR Hok st' Hst E q maxd limit Hsc HEP Hcap Hq Hlim Hnum) as (m & Hm).
  exists m. intros Q HQ O1 O2 O3 Hperm Hfok. destruct (Hm Q HQ O1 O2 O3 Hperm Hfok) as (docs & dists & Hd & _ & A & B & C & D).
  exists docs, dists. rewrite Hc. split; [exact Hd|]. split; [exact A|]. split; [exact B|]. split; [|split; [exact C|exact D]].
  intros d t x Hin (T1 & T2 & T3) Ht Hx H0 H1.
  assert (vd_vec d = q) as Ev.
  { rewrite Forall_forall in Hvd, HV. destruct (Hvd d Hin) as [(K & _)|(_ & _ & (t' & T4 & _ & T5) & _)].
    - destruct T1 as [T1|T1]; rewrite T1 in K; discriminate.
    - rewrite T2 in T4. injection T4 as <-. rewrite (HV d Hin), Ht, Hc in T5. now injection T5 as ->. }
  destruct (B d x Hin) as (i & s & K1 & K2 & _); [now rewrite Ev|exact H0|exact H1|]. eauto.
Qed.
Print Assumptions C67_found_by_text_partial.

(** A vectoriser that tells "hello " from "hello": the query for the very text of the
    document does not find it, the query with a space at the end does. *)
Definition answer_of (l : list Z) : http := HResp 200 (Some (JObj [("vector", JArr (map num l))])).
Definition spaced (t : string) : http := answer_of (if String.eqb t "hello" then [0; 1]%Z else [1; 0]%Z).
Definition td67 (V : string -> http) (id text : string) (l : list Z) : vdoc :=
  mkVD (mkDoc id [("text", JStr text)]) [] (q_of l) (orc_of V (enum 0 [q_of l])).
Definition half : f32 := f32_div (f32_of_Z 1) (f32_of_Z 2).
Theorem C67_same_text_refuted : exists V d text,
  di_props (vd_doc d) = [("text", JStr text)] /\ vt_ok true ["text"] d /\ do_corpi (vd_orc d) = (fun t => corpi (V t)) /\
  let r := add_documents rok true ["text"] [vd_pair d] new_coll in
  snd r = Ok tt /\
  answer_ids (snd (near_by_text (qok 0) true (corpi (V text)) (fst r) half 10)) = Some [] /\
  answer_ids (snd (near_by_text (qok 1) true (corpi (V (text ++ " "))) (fst r) half 10)) = Some [Some (di_id (vd_doc d))].
Proof.
  exists spaced, (td67 spaced "a" "hello" [1; 0]%Z), "hello". split; [reflexivity|]. split.
  { right. split; [reflexivity|]. split; [now left|]. split; [|split; reflexivity]. exists "hello ".
    split; [reflexivity|]. split; [discriminate|]. vm_compute. reflexivity. }
  split; [reflexivity|]. cbv zeta. split; [vm_compute; reflexivity|]. split; vm_compute; reflexivity.
Qed.
Print Assumptions C67_same_text_refuted.

(** Also with one vector for both texts: the computed distance of (1, 4) to itself
    is negative, and negative distances are dropped. *)
Theorem C67_same_vector_refuted : exists V d text,
  di_props (vd_doc d) = [("text", JStr text)] /\ vt_ok true ["text"] d /\ (forall t, V t = V text) /\
  let r := add_documents rok true ["text"] [vd_pair d] new_coll in
  snd r = Ok tt /\ answer_ids (snd (near_by_text (qok 0) true (corpi (V text)) (fst r) two 10)) = Some [].
Proof.
  exists (fun _ => answer_of [1; 4]%Z), (td67 (fun _ => answer_of [1; 4]%Z) "a" "hello" [1; 4]%Z), "hello". split; [reflexivity|]. split.
  { right. split; [reflexivity|]. split; [now left|]. split; [|split; reflexivity]. exists "hello ".
    split; [reflexivity|]. split; [discriminate|]. vm_compute. reflexivity. }
  split; [reflexivity|]. cbv zeta. split; vm_compute; reflexivity.
Qed.
Print Assumptions C67_same_vector_refuted.

(** The hypotheses are met: two documents by text, one with a vector. *)
Definition V67 (t : string) : http := answer_of (if String.eqb t "red apple " then [2; 1]%Z else if String.eqb t "sky " then [0; 1]%Z else [2; 1]%Z).
Definition vecs67 : list vec := map q_of [[2; 1]; [0; 1]; [1; 0]]%Z.
Definition o67 : dorc := orc_of V67 (enum 0 vecs67).
Definition ds67 : list vdoc :=
  [mkVD (mkDoc "a" [("colour", JStr "red"); ("thing", JStr "apple")]) [] (q_of [2; 1]%Z) o67;
   mkVD (mkDoc "b" [("thing", JStr "sky"); ("n", num 3)]) [] (q_of [0; 1]%Z) o67;
   mkVD (mkDoc "c" [("vector", JArr (map num [1; 0]%Z))]) (map num [1; 0]%Z) (q_of [1; 0]%Z) o67].
Lemma vs67 : forall l ow id, In id (map a_id (ops_of 0 ds67)) -> exists w, i_vs (do_env o67) l ow id = Ok w /\ length w = 2.
Proof. intros l ow id [<-|[<-|[<-|[]]]]; (eexists; split; reflexivity). Qed.
Example C67_nonvacuous : Forall (vt_ok true ["colour"; "thing"]) ds67 /\ Forall (fun d => do_corpi (vd_orc d) = fun t => corpi (V67 t)) ds67 /\
  Forall (find_call 2 30 25500 (map a_id (ops_of 0 ds67))) (ops_of 0 ds67) /\
  snd (add_documents rok true ["colour"; "thing"] (map vd_pair ds67) new_coll) = Ok tt /\
  corpi (V67 "apples") = Ok (Some (q_of [2; 1]%Z)) /\
  (forall d x, In d ds67 -> p_query cosp (p_normalize cosp (q_of [2; 1]%Z)) (p_normalize cosp (vd_vec d)) = Some x -> is_num x = true) /\
  answer_ids (snd (near_by_text (qok 2) true (corpi (V67 "apples")) (restart_coll (fst (add_documents rok true ["colour"; "thing"] (map vd_pair ds67) new_coll)))
     half 3)) = Some [Some "a"; Some "c"].
Proof.
  split.
  { constructor; [|constructor; [|constructor; [|constructor]]].
    - right. split; [reflexivity|]. split; [now left|]. split; [|split; reflexivity]. exists "red apple ".
      split; [reflexivity|]. split; [discriminate|vm_compute; reflexivity].
    - right. split; [reflexivity|]. split; [now left|]. split; [|split; reflexivity]. exists "sky ".
      split; [reflexivity|]. split; [discriminate|vm_compute; reflexivity].
    - left. repeat split. }
  split; [repeat constructor|]. split.
  { repeat constructor; try apply env_rev_sched; try exact cosp_known; try exact vs67; try reflexivity; cbn; try lia. }
  split; [vm_compute; reflexivity|]. split; [vm_compute; reflexivity|]. split; [|vm_compute; reflexivity].
  intros d x Hd Hx.
  assert (H : forallb (fun d => match p_query cosp (p_normalize cosp (q_of [2; 1]%Z)) (p_normalize cosp (vd_vec d)) with
                                | Some d => is_num d | None => true end) ds67 = true) by (vm_compute; reflexivity).
  rewrite forallb_forall in H. specialize (H d Hd). rewrite Hx in H. exact H.
Qed.
