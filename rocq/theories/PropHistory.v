(** Exact answers after any history of requests with at most 61 documents. *)
From Coq Require Import Reals Lra String.
From Verif Require Import Base F32 PQ PQProofs Graph Search SearchProofs Insert InsertProofs InsertHist InsertTotal InsertFind
  F32Real F32Err F32Norm F32Cos F32Cmp
  Distancer DistancerProofs PropDistancer TestGraph TestInsert PropSearch PropInsert Persist PersistProofs
  Collections Client ClientProofs ClientSafe ClientFacts ClientReq PropClient VCache VCacheFacts ClientIds ClientSmall
  PropRequests Vectorizer VectorizerProofs PropVectorizer PropNumeric ClientMany.
Local Open Scope R_scope.

(* ------------------------------------------------------------------ *)
(** C26.  A new collection gets a history [hs] of requests: add requests of
    documents with vectors, given or computed from their text, each answered with
    success ([hist_ok]), and in between queries, reads, CreateCollection and
    restarts.  All in all at most 61 documents of distinct ids ([hist_docs]).  Then
    a query by vector, with limit 0 or one that is not too small, returns exactly
    the documents within the distance, each with its own distance, none twice,
    nearest first.  The vector source knows the vectors of all documents, or there
    are at most 30 documents ([many_call]); after a restart it knows none, see C51.
    The collection must not have been opened by a read without its index
    ([c_open st = true -> c_reg st = true]): then the query crashes, see C47.
    Missing: more documents. *)
Theorem C26_history_exact_partial : forall n cap P hs,
  let ds := hist_docs hs in
  (0 < n)%nat -> ds <> [] -> (length ds <= 61)%nat -> NoDup (map (fun d => di_id (vd_doc d)) ds) ->
  Forall (fun d => e_prov (i_env (do_env (vd_orc d))) = P) ds ->
  Forall (many_call n 30 cap (map a_id (ops_of 0 ds))) (ops_of 0 ds) -> hist_ok new_coll hs ->
  let st := run_reqs new_coll (hist_reqs hs) in
  (c_open st = true -> c_reg st = true) ->
  forall E q maxd limit, sched_ok E -> e_prov E = P -> e_vcap E = cap -> length q = n ->
    (limit = 0 \/ Z.of_nat (length ds) <= limit)%Z ->
    (forall d x, In d ds -> p_query P (p_normalize P q) (p_normalize P (vd_vec d)) = Some x -> is_num x = true) ->
    exists m, forall Q, q_env Q = E ->
      r_kvopen (q_open Q) = true -> r_isopen (q_open Q) = true -> r_docopen (q_open Q) = true ->
      Permutation (q_order Q) (seq 0 m) -> (forall i, q_ok Q i = true) ->
      exists docs dists, snd (near_by_vector Q st q maxd limit) = Ok (docs, dists) /\
        (length docs <= length dists)%nat /\
        (forall i o, nth_error docs i = Some o -> exists s d x, o = Some s /\ In d ds /\ sd_id s = di_id (vd_doc d) /\
           nth_error dists i = Some x /\ p_query P (p_normalize P q) (p_normalize P (vd_vec d)) = Some x /\
           flt x f32_zero = false /\ fgt x maxd = false) /\
        (forall d x, In d ds -> p_query P (p_normalize P q) (p_normalize P (vd_vec d)) = Some x ->
           flt x f32_zero = false -> fgt x maxd = false ->
           exists i s, nth_error docs i = Some (Some s) /\ sd_id s = di_id (vd_doc d) /\ nth_error dists i = Some x) /\
        (forall i j s t, nth_error docs i = Some (Some s) -> nth_error docs j = Some (Some t) -> sd_id s = sd_id t -> i = j) /\
        (forall i j x y, (i < j < length docs)%nat -> nth_error dists i = Some x -> nth_error dists j = Some y -> flt y x = false).
Proof.
  intros n cap P hs ds Hn Hne Hlen Hids HP Hf Hok st Hreg E q maxd limit Hsc HEP Hcap Hq Hlim Hnum.
  destruct (history_near n cap P hs Hn Hne Hlen Hids HP Hf Hok E q maxd 800 limit Hsc HEP Hcap Hq ltac:(fold ds; lia) Hlim Hnum) as (m & Hm).
  exists m. intros Q HQ O1 O2 O3 Hperm Hfok. fold st ds in Hm. unfold near_by_vector.
  assert (Ho : exists st', open_coll (q_open Q) st = (st', Ok tt) /\ c_reg st' = true).
  { unfold open_coll. rewrite O1, O2, O3. cbn [negb]. destruct (c_open st); eauto. }
  destruct Ho as (st' & Ho & Hr). rewrite Ho. exact (Hm Q st' HQ Ho Hr Hperm Hfok).
Qed.
Print Assumptions C26_history_exact_partial.

(** Three requests with the five documents [ds5], a query, a read, a restart, a new
    CreateCollection and a query in between. *)
Definition hist26 : list hreq :=
  [HOther (QVec (qok 0) (q_of [1; 0]%Z) two 0); HAdd rok true [] (firstn 2 ds5); HOther (QGet rok true "b"%string);
   HOther (QVec (qok 2) (q_of [0; 1]%Z) two 0); HAdd rok true [] (firstn 1 (skipn 2 ds5)); HOther QRestart;
   HAdd rok true [] (skipn 3 ds5); HOther QCreate; HOther (QVec (qok 2) (q_of [0; 1]%Z) two 2)].
Lemma hist_add st R lk ks ds hs : ds <> [] -> rorc_ok R -> Forall (vt_ok lk ks) ds ->
  snd (add_documents R lk ks (map vd_pair ds) st) = Ok tt -> hist_ok (req_step st (QAdd R lk ks (map vd_pair ds))) hs ->
  hist_ok st (HAdd R lk ks ds :: hs).
Proof. intros. split; [split; [|split; [|split]]; assumption|assumption]. Qed.
Lemma hist_other st q hs : match q with QAdd _ _ _ _ => False | _ => True end -> hist_ok (req_step st q) hs ->
  hist_ok st (HOther q :: hs).
Proof. intros. split; assumption. Qed.
Example C26_history_nonvacuous :
  hist_docs hist26 = ds5 /\ NoDup (map (fun d => di_id (vd_doc d)) ds5) /\ hist_ok new_coll hist26 /\
  Forall (many_call 2 30 25500 (map a_id (ops_of 0 ds5))) (ops_of 0 ds5) /\
  (c_open (run_reqs new_coll (hist_reqs hist26)) = true -> c_reg (run_reqs new_coll (hist_reqs hist26)) = true) /\
  answer_ids (snd (near_by_vector (qok 4) (run_reqs new_coll (hist_reqs hist26))
     (q_of [0; 3]%Z) (f32_div (f32_of_Z 9) (f32_of_Z 10)) 0)) = Some [Some "b"; Some "e"; Some "c"; Some "d"]%string.
Proof.
  split; [reflexivity|]. split; [apply C26_one_request_nonvacuous|].
  assert (Hv : Forall (vt_ok true []) ds5) by apply C26_one_request_nonvacuous.
  split; [|split; [|split; [intros _; vm_compute; reflexivity|vm_compute; reflexivity]]].
  - assert (Hp : forall a k, Forall (vt_ok true []) (firstn a (skipn k ds5))).
    { intros a k. apply Forall_forall. intros d Hd. rewrite Forall_forall in Hv. apply Hv.
      rewrite <- (firstn_skipn k ds5). apply in_or_app. right. rewrite <- (firstn_skipn a (skipn k ds5)). apply in_or_app. now left. }
    apply hist_other; [exact I|]. apply hist_add; [discriminate|exact rok_ok|exact (Hp 2%nat 0%nat)|vm_compute; reflexivity|].
    apply hist_other; [exact I|]. apply hist_other; [exact I|].
    apply hist_add; [discriminate|exact rok_ok|exact (Hp 1%nat 2%nat)|vm_compute; reflexivity|]. apply hist_other; [exact I|].
    apply hist_add; [discriminate|exact rok_ok|exact (Hp 2%nat 3%nat)|vm_compute; reflexivity|].
    apply hist_other; [exact I|]. apply hist_other; [exact I|]. exact I.
  - destruct C26_one_request_nonvacuous as (_ & _ & Hf & _). eapply Forall_impl; [|exact Hf].
    intros o (H1 & H2 & H3 & H4 & H5 & H6).
    split; [exact H1|]. split; [exact H2|]. split; [exact H3|]. split; [exact H4|]. split; [exact H5|]. left. exact H6.
Qed.

(* ------------------------------------------------------------------ *)
(** C60 after such a history, against the exact cosine distances, up to
    eps = (4 n + 24) 2^-24. *)
Theorem C60_history_neighbours_partial : forall n cap dot hs,
  let ds := hist_docs hs in
  dot_impl dot -> (0 < n)%nat -> ds <> [] -> (length ds <= 61)%nat -> NoDup (map (fun d => di_id (vd_doc d)) ds) ->
  Forall (fun d => e_prov (i_env (do_env (vd_orc d))) = cosine_provider dot) ds -> Forall (fun d => moderate (vd_vec d)) ds ->
  Forall (many_call n 30 cap (map a_id (ops_of 0 ds))) (ops_of 0 ds) -> hist_ok new_coll hs ->
  let st := run_reqs new_coll (hist_reqs hs) in
  (c_open st = true -> c_reg st = true) ->
  forall E q maxd limit, sched_ok E -> e_prov E = cosine_provider dot -> e_vcap E = cap -> length q = n ->
    (limit = 0 \/ Z.of_nat (length ds) <= limit)%Z -> moderate q -> f32_valid maxd -> is_finite_b maxd = true ->
    let eps := (4 * INR n + 24) * / 16777216 in
    exists m, forall Q, q_env Q = E ->
      r_kvopen (q_open Q) = true -> r_isopen (q_open Q) = true -> r_docopen (q_open Q) = true ->
      Permutation (q_order Q) (seq 0 m) -> (forall i, q_ok Q i = true) ->
      exists docs dists, snd (near_by_vector Q st q maxd limit) = Ok (docs, dists) /\
        (forall i o, nth_error docs i = Some o -> exists s d x, o = Some s /\ In d ds /\ sd_id s = di_id (vd_doc d) /\
           nth_error dists i = Some x /\ Rabs (rv x - cosdist q (vd_vec d)) <= eps /\ cosdist q (vd_vec d) <= rv maxd + eps) /\
        (forall d, In d ds -> eps <= cosdist q (vd_vec d) <= rv maxd - eps ->
           exists i s, nth_error docs i = Some (Some s) /\ sd_id s = di_id (vd_doc d)) /\
        (forall i j s t, nth_error docs i = Some (Some s) -> nth_error docs j = Some (Some t) -> sd_id s = sd_id t -> i = j) /\
        (forall i j s t d d', (i < j)%nat -> nth_error docs i = Some (Some s) -> nth_error docs j = Some (Some t) ->
           In d ds -> In d' ds -> sd_id s = di_id (vd_doc d) -> sd_id t = di_id (vd_doc d') ->
           cosdist q (vd_vec d) <= cosdist q (vd_vec d') + 2 * eps).
Proof.
  intros n cap dot hs ds Hd Hn Hne Hlen Hids HP Hmod Hf Hok st Hreg E q maxd limit Hsc HEP Hcap Hq Hlim Hqm Vm Fm eps.
  set (P := cosine_provider dot) in *.
  assert (Hq2 : forall d, In d ds -> exists x, p_query P (p_normalize P q) (p_normalize P (vd_vec d)) = Some x /\ f32_valid x /\ fin x /\
            Rabs (rv x - cosdist q (vd_vec d)) <= eps).
  { intros d Hin. rewrite Forall_forall in Hmod. destruct (cosine_query dot q (vd_vec d) Hd Hqm (Hmod d Hin)) as (x & K).
    { apply In_nth_error in Hin. destruct Hin as (i & Hi). apply (ops_of_nth ds 0) in Hi. rewrite Forall_forall in Hf.
      destruct (Hf _ Hi) as (_ & Hl & _). cbn [a_vec] in Hl. congruence. }
    rewrite Hq in K. exists x. exact K. }
  destruct (C26_history_exact_partial n cap P hs Hn Hne Hlen Hids HP Hf Hok Hreg E q maxd limit Hsc HEP Hcap Hq Hlim) as [m Hm].
  { intros d x Hin Hx. destruct (Hq2 d Hin) as (y & Ey & _ & Fy & _). rewrite Hx in Ey. injection Ey as ->. now destruct y. }
  exists m. intros Q HQ H1 H2 H3 H4 H5. destruct (Hm Q HQ H1 H2 H3 H4 H5) as (docs & dists & Hr & Ha).
  exists docs, dists. split; [exact Hr|]. fold ds in Ha. eapply cosine_answer; eauto.
Qed.
Print Assumptions C60_history_neighbours_partial.
Example C60_history_nonvacuous : hist_docs hist26 = ds5 /\ Forall (fun d => moderate (vd_vec d)) ds5.
Proof. split; [reflexivity|apply C60_nonvacuous]. Qed.

(* ------------------------------------------------------------------ *)
(** C67 after such a history: a query by text, where the documents without a vector
    got theirs from the vectoriser [V]. *)
Theorem C67_history_text_partial : forall n cap P V keys hs,
  let ds := hist_docs hs in
  (0 < n)%nat -> ds <> [] -> (length ds <= 61)%nat -> NoDup (map (fun d => di_id (vd_doc d)) ds) ->
  Forall (fun q => match q with HAdd _ lookup keys' _ => lookup = true /\ keys' = keys | HOther _ => True end) hs ->
  Forall (fun d => do_corpi (vd_orc d) = fun t => corpi (V t)) ds ->
  Forall (fun d => e_prov (i_env (do_env (vd_orc d))) = P) ds ->
  Forall (many_call n 30 cap (map a_id (ops_of 0 ds))) (ops_of 0 ds) -> hist_ok new_coll hs ->
  let st := run_reqs new_coll (hist_reqs hs) in
  (c_open st = true -> c_reg st = true) ->
  forall E text q maxd limit, sched_ok E -> e_prov E = P -> e_vcap E = cap ->
    corpi (V text) = Ok (Some q) -> length q = n -> (Z.of_nat (length ds) <= limit)%Z ->
    (forall d x, In d ds -> p_query P (p_normalize P q) (p_normalize P (vd_vec d)) = Some x -> is_num x = true) ->
    exists m, forall Q, q_env Q = E ->
      r_kvopen (q_open Q) = true -> r_isopen (q_open Q) = true -> r_docopen (q_open Q) = true ->
      Permutation (q_order Q) (seq 0 m) -> (forall i, q_ok Q i = true) ->
      exists docs dists, snd (near_by_text Q true (corpi (V text)) st maxd limit) = Ok (docs, dists) /\
        (forall i o, nth_error docs i = Some o -> exists s d x, o = Some s /\ In d ds /\ sd_id s = di_id (vd_doc d) /\
           nth_error dists i = Some x /\ p_query P (p_normalize P q) (p_normalize P (vd_vec d)) = Some x /\
           flt x f32_zero = false /\ fgt x maxd = false) /\
        (forall d x, In d ds -> p_query P (p_normalize P q) (p_normalize P (vd_vec d)) = Some x ->
           flt x f32_zero = false -> fgt x maxd = false ->
           exists i s, nth_error docs i = Some (Some s) /\ sd_id s = di_id (vd_doc d) /\ nth_error dists i = Some x) /\
        (forall d t x, In d ds -> by_text keys (vd_doc d) t -> V t = V text ->
           p_query P (p_normalize P q) (p_normalize P q) = Some x -> flt x f32_zero = false -> fgt x maxd = false ->
           exists i s, nth_error docs i = Some (Some s) /\ sd_id s = di_id (vd_doc d)) /\
        (forall i j s t, nth_error docs i = Some (Some s) -> nth_error docs j = Some (Some t) -> sd_id s = sd_id t -> i = j) /\
        (forall i j x y, (i < j < length docs)%nat -> nth_error dists i = Some x -> nth_error dists j = Some y -> flt y x = false).
Proof.
  intros n cap P V keys hs ds Hn Hne Hlen Hids Hkeys HV HP Hf Hok st Hreg E text q maxd limit Hsc HEP Hcap Hc Hq Hlim Hnum.
  destruct (history_near n cap P hs Hn Hne Hlen Hids HP Hf Hok E q maxd limit limit Hsc HEP Hcap Hq Hlim (or_intror Hlim) Hnum) as (m & Hm).
  exists m. intros Q HQ O1 O2 O3 Hperm Hfok. fold st ds in Hm. unfold near_by_text.
  assert (Ho : exists st', open_coll (q_open Q) st = (st', Ok tt) /\ c_reg st' = true).
  { unfold open_coll. rewrite O1, O2, O3. cbn [negb]. destruct (c_open st); eauto. }
  destruct Ho as (st' & Ho & Hr). rewrite Ho, Hc. cbn [negb].
  destruct (Hm Q st' HQ Ho Hr Hperm Hfok) as (docs & dists & Hd & _ & A & B & C & D).
  exists docs, dists. split; [exact Hd|]. split; [exact A|]. split; [exact B|]. split; [|split; [exact C|exact D]].
  intros d t x Hin (T1 & T2 & T3) Ht Hx H0 H1.
  assert (vd_vec d = q) as Ev.
  { assert (Hvd : vt_ok true keys d).
    { pose proof Hin as Hin'. apply in_flat_map in Hin'. destruct Hin' as (r & Hr1 & Hr2). apply (hist_vt hs new_coll r d Hok Hr1) in Hr2.
      rewrite Forall_forall in Hkeys. specialize (Hkeys r Hr1). destruct r; [|destruct Hr2]. destruct Hkeys as [-> ->]. exact Hr2. }
    rewrite Forall_forall in HV. destruct Hvd as [(K & _)|(_ & _ & (t' & T4 & _ & T5) & _)].
    - destruct T1 as [T1|T1]; rewrite T1 in K; discriminate.
    - rewrite T2 in T4. injection T4 as <-. rewrite (HV d Hin), Ht, Hc in T5. now injection T5 as ->. }
  destruct (B d x Hin) as (i & s & K1 & K2 & _); [now rewrite Ev|exact H0|exact H1|]. eauto.
Qed.
Print Assumptions C67_history_text_partial.
(** The documents [ds67] in two requests with a restart in between. *)
Definition hist67 : list hreq :=
  [HAdd rok true ["colour"; "thing"]%string (firstn 1 ds67); HOther QRestart; HAdd rok true ["colour"; "thing"]%string (skipn 1 ds67)].
Example C67_history_nonvacuous :
  hist_docs hist67 = ds67 /\ hist_ok new_coll hist67 /\
  answer_ids (snd (near_by_text (qok 2) true (corpi (V67 "apples"%string)) (run_reqs new_coll (hist_reqs hist67)) half 3)) = Some [Some "a"; Some "c"]%string.
Proof.
  split; [reflexivity|]. destruct C67_nonvacuous as (Hv & _).
  assert (Hv' : Forall (vt_ok true ["colour"; "thing"]%string) (firstn 1 ds67) /\ Forall (vt_ok true ["colour"; "thing"]%string) (skipn 1 ds67)).
  { apply Forall_app. rewrite firstn_skipn. exact Hv. }
  split; [|vm_compute; reflexivity].
  apply hist_add; [discriminate|exact rok_ok|apply Hv'|vm_compute; reflexivity|]. apply hist_other; [exact I|].
  apply hist_add; [discriminate|exact rok_ok|apply Hv'|vm_compute; reflexivity|exact I].
Qed.
