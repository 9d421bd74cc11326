(** C71: answers to JSON requests against the exact decimal vectors. *)
From Coq Require Import Reals Lra String.
From Flocq Require Import Core.Core.
From Verif Require Import Base F32 F32Real F32Err F32Norm F32Cos F32Cmp JsonNum JsonNumProofs PQ PQProofs Graph Search SearchProofs
  Insert InsertProofs InsertHist InsertTotal InsertFind
  Distancer DistancerProofs PropDistancer TestGraph TestInsert PropSearch PropInsert Persist PersistProofs
  Collections Client ClientProofs ClientSafe ClientFacts ClientReq PropClient VCache VCacheFacts ClientIds ClientSmall
  PropRequests PropNumeric Handlers HandlersProofs Vectorizer NumProofs PropNumbers ClientMany PropHistory Bind BindProofs LitCos EndToEnd.
Local Open Scope string_scope.
Local Open Scope R_scope.

(** The body of a query by vector: POST /nearest-documents-by-vector. *)
Definition j_query (name : string) (dist : lit) (limit : Z) (ql : list lit) : hbody :=
  Body (JObj [("distance", JNum (lit_text dist)); ("limit", JNum (int_text limit)); ("name", JStr name); ("vector", JArr (array_of ql))]).
(** The cosine distance of the vectors as they are written. *)
Definition dist_of (ql : list lit) (d : jdoc) : R := rcos (map lit_value ql) (map lit_value (j_lits d)).

Lemma j_query_bound name dist limit ql md w : f32_of_text (lit_text dist) = Some md ->
  (-9223372036854775808 <= limit < 9223372036854775808)%Z -> dec_slice (dec_f32 f32_zero) (JArr (array_of ql)) = Some (Some w) ->
  bind_vec (j_query name dist limit ql) = Some (mkVecReq md limit name (Some w)).
Proof.
  intros Hd Hl Hw. unfold bind_vec, bind_body, j_query. cbn [dec_struct dec_fields].
  unfold step_vec at 1. change (is_field "distance" "distance") with true. cbv iota. cbn [dec_f32]. rewrite Hd.
  cbn [dec_fields]. unfold step_vec at 1. change (is_field "distance" "limit") with false. change (is_field "limit" "limit") with true.
  cbv iota. cbn [dec_int]. rewrite (parse_int_text limit Hl). cbn [vq_dist vq_limit vq_name vq_vec dec_fields].
  unfold step_vec at 1. change (is_field "distance" "name") with false. change (is_field "limit" "name") with false.
  change (is_field "name" "name") with true. cbv iota. cbn [dec_string vq_dist vq_limit vq_name vq_vec dec_fields].
  unfold step_vec. change (is_field "distance" "vector") with false. change (is_field "limit" "vector") with false.
  change (is_field "name" "vector") with false. change (is_field "vector" "vector") with true. cbv iota. rewrite Hw. reflexivity.
Qed.

(** A new collection gets a history [js] of HTTP requests: add requests of documents
    with decimal vectors, each answered with success, and in between anything else,
    [jhist_ok]; all in all at most 61 documents of distinct ids.  Then a query by
    vector with limit 0, or one that is not too small, is answered with status 200.
    Against the cosine distances of the vectors as they are written in the requests,
    up to eps = (4 n + 34) 2^-24: every document of the answer is one that was sent,
    with its properties and its distance, which is within the asked one; every
    document well within the asked distance is in the answer; none is there twice;
    nearest come first.  Missing: more documents; zero vectors and components beyond
    2^39; documents below the distance eps, which rounding may turn negative. *)
Theorem C71_end_to_end_partial : forall uuid n cap dot js,
  let ds := jdocs js in
  let vs := map j_vdoc ds in
  dot_impl dot -> (0 < n)%nat -> ds <> [] -> (length ds <= 61)%nat -> NoDup (map j_id ds) ->
  Forall (fun d => e_prov (i_env (do_env (j_orc d))) = cosine_provider dot) ds ->
  Forall (many_call n 30 cap (map a_id (ops_of 0 vs))) (ops_of 0 vs) -> jhist_ok uuid n new_coll js ->
  let st := run_http uuid new_coll (jreqs js) in
  (c_open st = true -> c_reg st = true) ->
  forall E name dist limit ql, sched_ok E -> e_prov E = cosine_provider dot -> e_vcap E = cap ->
    name <> "" -> Forall lit_ok ql -> length ql = n -> usual (map lit_value ql) ->
    lit_ok dist -> Rabs (lit_value dist) <= 4 ->
    (limit = 0 \/ Z.of_nat (length ds) <= limit < 9223372036854775808)%Z ->
    let eps := (4 * INR n + 34) * / 16777216 in
    exists m, forall Q, q_env Q = E ->
      r_kvopen (q_open Q) = true -> r_isopen (q_open Q) = true -> r_docopen (q_open Q) = true ->
      Permutation (q_order Q) (seq 0 m) -> (forall i, q_ok Q i = true) ->
      exists rs, snd (serve_vec Q (j_query name dist limit ql) st) = Ok200 rs /\
        (forall r, In r rs -> exists d x, In d ds /\ ro_id r = j_id d /\
           (forall k, ~ reserved k -> shows (j_more d) (ro_props r) k) /\
           rget "distance" (ro_props r) = Some (RDist x) /\ fin x /\
           Rabs (rv x - dist_of ql d) <= eps /\ dist_of ql d <= lit_value dist + eps) /\
        (forall d, In d ds -> eps <= dist_of ql d <= lit_value dist - eps -> exists r, In r rs /\ ro_id r = j_id d) /\
        NoDup (map ro_id rs) /\
        (forall i j r r' d d', (i < j)%nat -> nth_error rs i = Some r -> nth_error rs j = Some r' ->
           In d ds -> In d' ds -> ro_id r = j_id d -> ro_id r' = j_id d' -> dist_of ql d <= dist_of ql d' + 2 * eps).
Proof.
  intros uuid n cap dot js ds vs Hdot Hn Hne Hlen Hids HP Hf Hj st Hreg E name dist limit ql Hsc HEP Hcap Hname Hql Hqn Hqu Hdl Hd4 Hlim eps.
  destruct (j_history uuid n js new_coll Hj) as (hs & Erun & Edocs & Hok). fold ds vs in Edocs. fold st in Erun.
  assert (Hjd : forall d, In d ds -> jdoc_ok uuid n d).
  { clear -Hj. subst ds. revert Hj. generalize new_coll. induction js as [|q js IH]; intros s Hj d Hd; [destruct Hd|].
    destruct Hj as [Hq Hj]. cbn [jdocs flat_map] in Hd. apply in_app_or in Hd. destruct Hd as [Hd|Hd]; [|now apply (IH _ Hj)].
    destruct q as [R lk name keys dd|q]; [|destruct Hd]. destruct Hq as (_ & _ & Hq & _). rewrite Forall_forall in Hq. now apply Hq. }
  assert (Hvc : forall d, In d ds -> Forall2 close (map lit_value (j_lits d)) (vd_vec (j_vdoc d))).
  { intros d Hd. destruct (Hjd d Hd) as (L & _ & U & _). destruct (doc_close _ L U) as (w & Ew & Cw). cbn [j_vdoc vd_vec]. now rewrite Ew. }
  destruct (query_close ql Hql Hqu) as (q & Eq & Cq).
  destruct (lit_close dist Hdl) as (md & Emd & Vmd & Fmd & Cmd).
  { eapply Rle_trans; [exact Hd4|]. replace 4 with (pow2 2) by reflexivity. apply bpow_le. lia. }
  assert (Hmd : Rabs (rv md - lit_value dist) <= 5 * u).
  { eapply Rle_trans; [exact Cmd|]. assert (K : pow2 (-149) <= pow2 (-52)) by (apply bpow_le; lia).
    rewrite u_val. assert (K2 : pow2 (-52) = / 4503599627370496) by reflexivity. rewrite K2 in *. pose proof (Rabs_pos (lit_value dist)). nra. }
  set (P := cosine_provider dot) in *. set (e0 := (4 * INR n + 24) * / 16777216).
  assert (Heps : eps = e0 + 10 * u) by (unfold eps, e0; rewrite u_val; lra).
  assert (Lq : length q = n) by (apply forall2_len in Cq; rewrite map_length in Cq; lia).
  assert (Mq : moderate q) by now apply (close_moderate (map lit_value ql)).
  assert (Hv : forall v, In v vs -> exists d, In d ds /\ v = j_vdoc d).
  { intros v Hin. apply in_map_iff in Hin. destruct Hin as (d & <- & Hd). eauto. }
  assert (Mv : forall d, In d ds -> moderate (vd_vec (j_vdoc d))).
  { intros d Hd. destruct (Hjd d Hd) as (_ & _ & U & _). now apply (close_moderate _ _ U), Hvc. }
  assert (Lv : forall d, In d ds -> length (vd_vec (j_vdoc d)) = n).
  { intros d Hd. destruct (Hjd d Hd) as (_ & L & _). pose proof (forall2_len _ _ _ (Hvc d Hd)) as K. rewrite map_length in K. lia. }
  assert (Hcos : forall d, In d ds -> Rabs (cosdist q (vd_vec (j_vdoc d)) - dist_of ql d) <= 5 * u).
  { intros d Hd. destruct (Hjd d Hd) as (_ & L & U & _). apply close_cos; auto. rewrite !map_length. lia. }
  assert (Hq2 : forall v, In v vs -> exists x, p_query P (p_normalize P q) (p_normalize P (vd_vec v)) = Some x /\ f32_valid x /\ fin x /\
            Rabs (rv x - cosdist q (vd_vec v)) <= e0).
  { intros v Hin. destruct (Hv v Hin) as (d & Hd & ->). destruct (cosine_query dot q (vd_vec (j_vdoc d)) Hdot Mq (Mv d Hd)) as (x & K).
    { rewrite Lv by exact Hd. exact Lq. }
    rewrite Lq in K. exists x. exact K. }
  assert (Hvids : NoDup (map (fun v => di_id (vd_doc v)) vs)).
  { unfold vs. rewrite map_map. cbn [j_vdoc vd_doc di_id]. exact Hids. }
  assert (Hvlen : length vs = length ds) by apply map_length.
  rewrite <- Edocs in Hf, Hq2, Hvids, Hvlen, Hv.
  assert (Hdn : hist_docs hs <> []) by (intros E0; rewrite E0 in Hvlen; destruct ds; [congruence|discriminate]).
  assert (HPv : Forall (fun d => e_prov (i_env (do_env (vd_orc d))) = P) (hist_docs hs)).
  { rewrite Edocs. apply Forall_forall. intros v Hin. rewrite <- Edocs in Hin. destruct (Hv v Hin) as (d & Hd & ->). rewrite Forall_forall in HP. now apply HP. }
  assert (Hlim' : (limit = 0 \/ Z.of_nat (length (hist_docs hs)) <= limit)%Z) by (rewrite Hvlen; lia).
  assert (Hmi : minv n cap (hist_docs hs) st).
  { rewrite Erun. apply (minv_run n cap (map a_id (ops_of 0 (hist_docs hs))) hs Hn [] new_coll); auto; [|cbn [app]; lia|apply incl_refl].
    constructor; try reflexivity. congruence. }
  rewrite Erun in Hreg.
  destruct (C26_history_exact_partial n cap P hs Hn Hdn ltac:(lia) Hvids HPv Hf Hok Hreg E q md limit Hsc HEP Hcap Lq Hlim') as [m Hm].
  { intros d x Hin Hx. destruct (Hq2 d Hin) as (y & Ey & _ & Fy & _). rewrite Hx in Ey. injection Ey as ->. now destruct y. }
  exists m. intros Q HQ H1 H2 H3 H4 H5. destruct (Hm Q HQ H1 H2 H3 H4 H5) as (docs & dists & Hr & Ha).
  assert (Hfmd : is_finite_b md = true) by now rewrite fin_b.
  pose proof (cosine_answer n P (hist_docs hs) q md docs dists Hvids Vmd Hfmd Hq2 Ha) as (A1 & A2 & A3 & A4).
  rewrite <- Erun in Hr. destruct Ha as (Hdl2 & Hb1 & _).
  (* every document of the answer is a stored one *)
  assert (Hst : forall i s, nth_error docs i = Some (Some s) -> exists d b, In d ds /\ (b < 1000)%N /\ s = stored b (j_vdoc d)).
  { intros i s Hi. apply nth_error_In in Hi.
    assert (Hc : In s (c_docs st)).
    { destruct (near_by_vector_open _ _ _ _ _ _ Hr) as (st1 & Ho & Hnd). pose proof (near_docs_in _ _ _ _ _ _ _ _ _ Hnd Hi) as Hin.
      destruct (open_coll_h _ _ _ Ho) as [Ed _]. now rewrite <- Ed. }
    rewrite (mi_docs _ _ _ _ Hmi) in Hc. apply docs_after_inv in Hc. destruct Hc as [[]|(k & v & Hk & ->)].
    destruct (Hv v (nth_error_In _ _ Hk)) as (d & Hd & ->). exists d, (0 + N.of_nat k)%N. split; [exact Hd|]. split; [|reflexivity].
    assert (k < length (hist_docs hs))%nat by (apply nth_error_Some; congruence). lia. }
  destruct (show_all_ok docs dists Hdl2) as (rs & Hrs).
  { intros o Ho. apply In_nth_error in Ho. destruct Ho as (i & Hi). destruct (Hb1 i o Hi) as (s & v & x & -> & _).
    destruct (Hst i s Hi) as (d & b & Hd & Hbd & ->). destruct (stored_rereads uuid n d b (Hjd d Hd) Hbd) as (r & Er). eauto. }
  destruct (show_all_spec _ _ _ Hrs) as [S1 S2].
  assert (Hri : forall i r, nth_error rs i = Some r -> exists s d x, nth_error docs i = Some (Some s) /\ In d ds /\ sd_id s = j_id d /\ ro_id r = j_id d /\
     (forall k, ~ reserved k -> shows (j_more d) (ro_props r) k) /\ nth_error dists i = Some x /\ rget "distance" (ro_props r) = Some (RDist x) /\ fin x).
  { intros i r Hi. pose proof (forall2_nth _ _ _ S1 i) as K. rewrite Hi in K. destruct (nth_error docs i) as [o|] eqn:Eo; [|destruct K].
    destruct K as (s & x0 & -> & Ks). destruct (Hst i s Eo) as (d & b & Hd & _ & ->).
    destruct (show_near_spec _ _ _ _ (stored_faithful d b) Ks) as (B1 & _ & B2). destruct (S2 i r Hi) as (x & Hx & Hg).
    exists (stored b (j_vdoc d)), d, x. split; [reflexivity|]. split; [exact Hd|]. split; [reflexivity|]. split; [exact B1|]. split.
    - intros k Hk. specialize (B2 k Hk). revert B2. unfold shows. cbn [j_vdoc vd_doc di_props]. unfold j_props. cbn [pget].
      unfold reserved in Hk. rewrite (eqb_ne k "vector") by tauto. exact (fun h => h).
    - split; [exact Hx|]. split; [exact Hg|]. destruct (Hb1 i _ Eo) as (s' & v & y & _ & Hin & _ & Hy & Hqy & _).
      rewrite Hx in Hy. injection Hy as <-. destruct (Hq2 v Hin) as (y & Ey & _ & Fy & _). rewrite Hqy in Ey. now injection Ey as ->. }
  assert (Hback : forall i s, nth_error docs i = Some (Some s) -> exists r, nth_error rs i = Some r /\ ro_id r = sd_id s).
  { intros i s Hi. pose proof (forall2_nth _ _ _ S1 i) as K. rewrite Hi in K. destruct (nth_error rs i) as [r|] eqn:Er; [|destruct K].
    exists r. split; [reflexivity|]. destruct (Hri i r Er) as (s' & d & x & Es & _ & I1 & I2 & _). rewrite Hi in Es. injection Es as <-. congruence. }
  assert (Hinj : forall d d', In d ds -> In d' ds -> j_id d = j_id d' -> d = d').
  { clear -Hids. intros d d' Hd Hd' Hi. induction ds as [|a l IH]; [destruct Hd|]. cbn [map] in Hids. inversion Hids as [|? ? Ni Nd]; subst.
    destruct Hd as [->|Hd], Hd' as [->|Hd']; auto; exfalso; apply Ni; [rewrite Hi|rewrite <- Hi]; now apply in_map. }
  exists rs. split; [|split; [|split; [|split]]].
  - unfold serve_vec. rewrite (j_query_bound name dist limit ql md q Emd) by (exact Eq || lia). cbn [vq_name vq_vec vq_dist vq_limit].
    unfold handle_near_vector. destruct (String.eqb_spec name ""); [contradiction|].
    destruct (near_by_vector Q st q md limit) as [s' res]. cbn [snd] in Hr. rewrite Hr. cbn [near_response snd]. rewrite Hrs. unfold respond.
    replace (forallb writable rs) with true; [reflexivity|]. symmetry. apply forallb_forall. intros r Hin. apply In_nth_error in Hin.
    destruct Hin as (i & Hi). destruct (Hri i r Hi) as (s & d & x & _ & _ & _ & _ & _ & _ & Hg & Hfx). unfold writable. rewrite Hg. now rewrite fin_b.
  - intros r Hin. apply In_nth_error in Hin. destruct Hin as (i & Hi). destruct (Hri i r Hi) as (s & d & x & Hs & Hd & I1 & I2 & Hsh & Hx & Hg & Hfx).
    exists d, x. repeat (split; [assumption|]). destruct (A1 i _ Hs) as (s' & v & y & [= <-] & Hin & Hid & Hy & Hye & Hym).
    rewrite Hx in Hy. injection Hy as <-. destruct (Hv v Hin) as (d' & Hd' & ->). cbn [j_vdoc vd_doc di_id] in Hid.
    assert (d = d') by (apply Hinj; congruence). subst d'. specialize (Hcos d Hd). apply Rabs_le_inv in Hcos, Hye, Hmd.
    pose proof u_pos. split; [apply Rabs_le|]; fold e0 in Hye, Hym; lra.
  - intros d Hd [K1 K2]. specialize (Hcos d Hd). apply Rabs_le_inv in Hcos, Hmd. pose proof u_pos.
    destruct (A2 (j_vdoc d)) as (i & s & Hi & Hs).
    { rewrite Edocs. now apply in_map. }
    { fold e0. lra. }
    destruct (Hback i s Hi) as (r & Hr1 & Hr2). exists r. split; [now apply nth_error_In in Hr1|]. rewrite Hr2, Hs. reflexivity.
  - apply NoDup_nth_error. intros i j Hi Hij. rewrite map_length in Hi.
    rewrite !nth_error_map in Hij. destruct (nth_error rs i) as [r|] eqn:Ei; [|apply nth_error_None in Ei; lia].
    destruct (nth_error rs j) as [r'|] eqn:Ej; [|discriminate]. cbn [option_map] in Hij. injection Hij as Hij.
    destruct (Hri i r Ei) as (s & d & x & Hs & _ & I1 & I2 & _). destruct (Hri j r' Ej) as (s' & d' & x' & Hs' & _ & I1' & I2' & _).
    apply (A3 i j s s' Hs Hs'). congruence.
  - intros i j r r' d d' Hlt Hi Hj' Hd Hd' E1 E2. destruct (Hri i r Hi) as (s & c & x & Hs & Hc & I1 & I2 & _).
    destruct (Hri j r' Hj') as (s' & c' & x' & Hs' & Hc' & I1' & I2' & _).
    assert (c = d) by (apply Hinj; congruence). assert (c' = d') by (apply Hinj; congruence). subst c c'.
    specialize (A4 i j s s' (j_vdoc d) (j_vdoc d') Hlt Hs Hs'). rewrite Edocs in A4.
    specialize (A4 (in_map j_vdoc ds d Hd) (in_map j_vdoc ds d' Hd') I1 I1'). fold e0 in A4.
    pose proof (Hcos d Hd) as C1. pose proof (Hcos d' Hd') as C2. apply Rabs_le_inv in C1, C2. pose proof u_pos. lra.
Qed.
Print Assumptions C71_end_to_end_partial.

(** Three documents in two requests, a restart and a refused request in between. *)
Definition tenth (z : Z) : lit := mkLit false [0]%Z (Some [z]) None.
Definition pts71 : list (string * (list lit * nat)) :=
  [("a", ([tenth 1; tenth 0], 0%nat)); ("b", ([tenth 0; tenth 7], 1%nat)); ("c", ([tenth 3; tenth 3], 0%nat))].
Definition uid71 (c : string) : string := ("00000000-0000-4000-8000-00000000000" ++ c)%string.
Definition uuid71 (s : string) : bool := Nat.eqb (String.length s) 36.
Definition tab71 : list (N * vec) :=
  enum 0 (map (fun p => match vector_of (array_of (fst (snd p))) with Some v => v | None => [] end) pts71).
Definition doc71 (p : string * (list lit * nat)) : jdoc :=
  mkJD (uid71 (fst p)) (fst (snd p)) [("name", JStr (fst p)); ("age", JNum "4.20")]
    (mkD (ienv_of cosp tab71) (snd (snd p)) (fun _ => Err EVectorizer) true true).
Definition ds71 : list jdoc := map doc71 pts71.
Definition hist71 : list jreq :=
  [JElse (PAdd rok true [] (Body (JArr []))); JAdd rok true "c" [] (firstn 2 ds71);
   JElse (PGet rok true [("collection", "c"); ("property", "id"); ("value", uid71 "b")]); JElse PRestart;
   JAdd rok true "c" [] (skipn 2 ds71)].
Lemma vs71 : forall l ow id, In id (map a_id (ops_of 0 (map j_vdoc ds71))) -> exists w, i_vs (ienv_of cosp tab71) l ow id = Ok w /\ length w = 2%nat.
Proof. intros l ow id [<-|[<-|[<-|[]]]]; (eexists; split; vm_compute; reflexivity). Qed.
Lemma tenth_ok z : (0 <= z <= 9)%Z -> lit_ok (tenth z).
Proof.
  intros H. unfold lit_ok, tenth, digits_ok. cbn [l_int l_frac l_exp]. split; [split; [discriminate|repeat constructor; lia]|].
  split; [|discriminate]. intros ds [= <-]. split; [discriminate|repeat constructor; lia].
Qed.
Lemma tenth_value z : lit_value (tenth z) = IZR z / 10.
Proof. unfold lit_value, tenth, lit_exp. cbn [l_neg l_int l_frac l_exp length digits_value powerRZ fold_left]. unfold digits_value. cbn [fold_left]. 
  replace (0 * 10 + z)%Z with z by lia. cbn. lra. Qed.
Lemma tenths_usual a b : (0 <= a <= 9)%Z -> (0 <= b <= 9)%Z -> (1 <= a \/ 1 <= b)%Z -> usual (map lit_value [tenth a; tenth b]).
Proof.
  intros Ha Hb H. assert (B : forall z, (0 <= z <= 9)%Z -> Rabs (IZR z / 10) <= pow2 39).
  { intros z [H0 H9]. apply IZR_le in H0, H9. rewrite Rabs_pos_eq by lra. apply Rle_trans with (pow2 0); [cbn; lra|apply bpow_le; lia]. }
  assert (C : forall z, (1 <= z <= 9)%Z -> pow2 (-39) <= Rabs (IZR z / 10)).
  { intros z [H0 H9]. apply IZR_le in H0, H9. rewrite Rabs_pos_eq by lra. apply Rle_trans with (pow2 (-4)); [apply bpow_le; lia|].
    change (pow2 (-4)) with (/ 16). lra. }
  cbn [map]. rewrite !tenth_value. split; [cbn; lia|]. split; [constructor; [now apply B|constructor; [now apply B|constructor]]|].
  destruct H as [H|H]; [left|right; left]; apply C; lia.
Qed.
Lemma doc71_ok : Forall (jdoc_ok uuid71 2) ds71.
Proof.
  apply Forall_forall. intros d Hd. assert (K : exists s a b l, d = doc71 (s, ([tenth a; tenth b], l)) /\ (0 <= a <= 9)%Z /\ (0 <= b <= 9)%Z /\ (1 <= a \/ 1 <= b)%Z /\
    uuid71 (uid71 s) = true).
  { destruct Hd as [<-|[<-|[<-|[]]]]; (eexists _, _, _, _; split; [reflexivity|]; split; [lia|]; split; [lia|]; split; [lia|reflexivity]). }
  destruct K as (s & a & b & l & -> & Ha & Hb & Hab & Hs). unfold jdoc_ok, doc71. cbn [j_lits j_id j_more j_orc fst snd do_marshal do_docput].
  split; [constructor; [now apply tenth_ok|constructor; [now apply tenth_ok|constructor]]|]. split; [reflexivity|]. split; [now apply tenths_usual|]. split.
  { cbn. split; [repeat constructor; cbn; intuition discriminate|]. repeat split. }
  split; [intros k j [[= <- <-]|[[= <- <-]|[]]]; vm_compute; reflexivity|]. split; [now right|]. split; reflexivity.
Qed.
Example C71_end_to_end_nonvacuous :
  jdocs hist71 = ds71 /\ NoDup (map j_id ds71) /\ jhist_ok uuid71 2 new_coll hist71 /\
  Forall (many_call 2 30 25500 (map a_id (ops_of 0 (map j_vdoc ds71)))) (ops_of 0 (map j_vdoc ds71)) /\
  (let st := run_http uuid71 new_coll (jreqs hist71) in c_open st = true -> c_reg st = true) /\
  usual (map lit_value [tenth 1; tenth 9]) /\ lit_ok (tenth 5) /\ Rabs (lit_value (tenth 5)) <= 4 /\
  match snd (serve_vec (qok 2) (j_query "c" (tenth 5) 0 [tenth 1; tenth 9]) (run_http uuid71 new_coll (jreqs hist71))) with
  | Ok200 rs => map ro_id rs = [uid71 "b"; uid71 "c"]
  | _ => False
  end.
Proof.
  split; [reflexivity|]. split; [repeat constructor; cbn; intuition discriminate|].
  split; [|split; [|split; [intros st _; vm_compute; reflexivity|split; [apply tenths_usual; lia|split; [apply tenth_ok; lia|split; [rewrite tenth_value, Rabs_pos_eq; lra|vm_compute; reflexivity]]]]]].
  - pose proof doc71_ok as D. rewrite <- (firstn_skipn 2 ds71) in D. apply Forall_app in D. destruct D as [D1 D2].
    split; [reflexivity|]. split; [split; [discriminate|split; [exact rok_ok|split; [exact D1|vm_compute; reflexivity]]]|].
    split; [exact I|]. split; [exact I|]. split; [split; [discriminate|split; [exact rok_ok|split; [exact D2|vm_compute; reflexivity]]]|exact I].
  - apply Forall_forall. intros o Ho. unfold many_call.
    split; [|split; [|split; [|split; [|split]]]].
    + destruct Ho as [<-|[<-|[<-|[]]]]; repeat constructor; try apply env_rev_sched; try exact cosp_known; try reflexivity; cbn; try lia.
    + destruct Ho as [<-|[<-|[<-|[]]]]; vm_compute; reflexivity.
    + destruct Ho as [<-|[<-|[<-|[]]]]; reflexivity.
    + destruct Ho as [<-|[<-|[<-|[]]]]; reflexivity.
    + destruct Ho as [<-|[<-|[<-|[]]]]; cbn; lia.
    + left. destruct Ho as [<-|[<-|[<-|[]]]]; exact vs71.
Qed.

(** With 62 documents it is false.  Every hypothesis of [C71_end_to_end_partial] but the
    bound holds for one add request with 61 documents of the vector [1, 0] and a last
    one of [3, 4], all of them within the asked distance 2 of the query [0, 1].  It is
    answered with success.  The query with limit 0 is answered with status 200 and two
    documents; the search no longer reaches 60 of the equal vectors. *)
Definition whole (z : Z) : lit := mkLit false [z]%Z None None.
Definition two_digits (i : nat) : string :=
  String (Ascii.ascii_of_nat (48 + i / 10)) (String (Ascii.ascii_of_nat (48 + i mod 10)) "").
Definition lits62 (i : nat) : list lit := if Nat.eqb i 61 then [whole 3; whole 4] else [whole 1; whole 0].
Definition vtab62 : list (N * vec) :=
  enum 0 (map (fun i => match vector_of (array_of (lits62 i)) with Some v => v | None => [] end) (seq 0 62)).
Definition doc62 (i : nat) : jdoc :=
  mkJD ("00000000-0000-4000-8000-0000000000" ++ two_digits i)%string (lits62 i) []
    (mkD (ienv_of cosp vtab62) 0 (fun _ => Err EVectorizer) true true).
Definition jds62 : list jdoc := map doc62 (seq 0 62).
Definition hist62 : list jreq := [JAdd rok true "c" [] jds62].
Definition ask62 (st : coll) : bool :=
  match snd (serve_vec (qok 2) (j_query "c" (whole 2) 0 [whole 0; whole 1]) st) with
  | Ok200 rs => Nat.eqb (length rs) 2
  | _ => false
  end.
Definition sum62 (r : coll * response nat) : bool :=
  match snd r with Ok200 n => Nat.eqb n 62 | _ => false end && c_reg (fst r) && ask62 (fst r).
Lemma hist62_sum : sum62 (serve_add uuid71 rok true (map j_orc jds62) (j_body "c" [] jds62) new_coll) = true.
Proof. vm_cast_no_check (eq_refl true). Qed.
Lemma whole_ok z : (0 <= z <= 9)%Z -> lit_ok (whole z).
Proof.
  intros H. unfold lit_ok, whole, digits_ok. cbn [l_int l_frac l_exp]. split; [split; [discriminate|repeat constructor; lia]|].
  split; discriminate.
Qed.
Lemma whole_value z : lit_value (whole z) = IZR z.
Proof.
  unfold lit_value, whole, lit_exp. cbn [l_neg l_int l_frac l_exp length digits_value powerRZ fold_left]. unfold digits_value. cbn [fold_left].
  replace (0 * 10 + z)%Z with z by lia. cbn. lra.
Qed.
Lemma wholes_usual a b : (0 <= a <= 9)%Z -> (0 <= b <= 9)%Z -> (1 <= a \/ 1 <= b)%Z -> usual (map lit_value [whole a; whole b]).
Proof.
  intros Ha Hb H. assert (B : forall z, (0 <= z <= 9)%Z -> Rabs (IZR z) <= pow2 39).
  { intros z [H0 H9]. apply IZR_le in H0, H9. rewrite Rabs_pos_eq by lra. apply Rle_trans with (pow2 4); [cbn; lra|apply bpow_le; lia]. }
  assert (C : forall z, (1 <= z <= 9)%Z -> pow2 (-39) <= Rabs (IZR z)).
  { intros z [H0 H9]. apply IZR_le in H0, H9. rewrite Rabs_pos_eq by lra. apply Rle_trans with (pow2 0); [apply bpow_le; lia|]. cbn. lra. }
  cbn [map]. rewrite !whole_value. split; [cbn; lia|]. split; [constructor; [now apply B|constructor; [now apply B|constructor]]|].
  destruct H as [H|H]; [left|right; left]; apply C; lia.
Qed.
Lemma lits62_cases i : lits62 i = [whole 3; whole 4] \/ lits62 i = [whole 1; whole 0].
Proof. unfold lits62. destruct (Nat.eqb i 61); auto. Qed.
Lemma doc62_ok : Forall (jdoc_ok uuid71 2) jds62.
Proof.
  apply Forall_forall. intros d Hd. apply in_map_iff in Hd. destruct Hd as (i & <- & _). unfold jdoc_ok, doc62.
  cbn [j_lits j_id j_more j_orc do_marshal do_docput].
  split; [destruct (lits62_cases i) as [-> | ->]; (constructor; [apply whole_ok; lia|constructor; [apply whole_ok; lia|constructor]])|].
  split; [destruct (lits62_cases i) as [-> | ->]; reflexivity|].
  split; [destruct (lits62_cases i) as [-> | ->]; apply wholes_usual; lia|].
  split; [cbn; split; [repeat constructor; intros []|]; repeat split; destruct (lits62_cases i) as [-> | ->]; cbn; tauto|].
  split; [intros k j []|]. split; [right; reflexivity|]. split; reflexivity.
Qed.
Lemma sum62_spec r : sum62 r = true -> snd r = Ok200 62%nat /\ c_reg (fst r) = true /\
  exists rs, snd (serve_vec (qok 2) (j_query "c" (whole 2) 0 [whole 0; whole 1]) (fst r)) = Ok200 rs /\ length rs = 2%nat.
Proof.
  intros HS. unfold sum62 in HS. apply andb_true_iff in HS. destruct HS as [HS H3]. apply andb_true_iff in HS. destruct HS as [H1 H2].
  split; [|split; [exact H2|]].
  - destruct (snd r); try discriminate. apply Nat.eqb_eq in H1. now subst.
  - unfold ask62 in H3. destruct (snd (serve_vec (qok 2) (j_query "c" (whole 2) 0 [whole 0; whole 1]) (fst r))) as [rs|e| |]; try discriminate.
    exists rs. split; [reflexivity|now apply Nat.eqb_eq].
Qed.
Lemma found_two (r : res vec) : match r with Ok w => Nat.eqb (length w) 2 | _ => false end = true ->
  exists w, r = Ok w /\ length w = 2%nat.
Proof. destruct r as [w| | |]; try discriminate. intros H. exists w. split; [reflexivity|now apply Nat.eqb_eq]. Qed.
Theorem C71_62_documents_refuted : exists js,
  let ds := jdocs js in
  let vs := map j_vdoc ds in
  let st := run_http uuid71 new_coll (jreqs js) in
  let ql := [whole 0; whole 1] in
  length ds = 62%nat /\ NoDup (map j_id ds) /\
  Forall (fun d => e_prov (i_env (do_env (j_orc d))) = cosp) ds /\
  Forall (many_call 2 30 25500 (map a_id (ops_of 0 vs))) (ops_of 0 vs) /\ jhist_ok uuid71 2 new_coll js /\
  (c_open st = true -> c_reg st = true) /\
  Forall lit_ok ql /\ usual (map lit_value ql) /\ lit_ok (whole 2) /\
  (forall d, In d ds -> / 5 <= dist_of ql d <= lit_value (whole 2) - 1) /\
  exists rs, snd (serve_vec (qok 2) (j_query "c" (whole 2) 0 ql) st) = Ok200 rs /\ length rs = 2%nat.
Proof.
  exists hist62. cbv zeta. assert (Ed : jdocs hist62 = jds62) by (unfold hist62; cbn [jdocs flat_map jreq_docs]; apply app_nil_r).
  assert (Hvd : forall v, In v (map j_vdoc jds62) -> exists i, (i < 62)%nat /\ v = j_vdoc (doc62 i)).
  { intros v Hv. apply in_map_iff in Hv. destruct Hv as (d & <- & Hd). apply in_map_iff in Hd. destruct Hd as (i & <- & Hi).
    apply in_seq in Hi. exists i. split; [lia|reflexivity]. }
  rewrite !Ed. destruct (sum62_spec _ hist62_sum) as (H1 & H2 & H3).
  split; [unfold jds62; now rewrite map_length, seq_length|]. split.
  { assert (K : (fix nd (l : list string) := match l with [] => true | x :: l' => forallb (fun y => negb (String.eqb x y)) l' && nd l' end) (map j_id jds62) = true)
      by (vm_compute; reflexivity).
    revert K. generalize (map j_id jds62). induction l as [|x l IH]; [constructor|]. intros K. apply andb_true_iff in K. destruct K as [K1 K2].
    constructor; [|now apply IH]. intros Hi. rewrite forallb_forall in K1. specialize (K1 _ Hi). rewrite String.eqb_refl in K1. discriminate. }
  split; [apply Forall_forall; intros d Hd; apply in_map_iff in Hd; destruct Hd as (i & <- & _); reflexivity|]. split.
  { assert (Hids : map a_id (ops_of 0 (map j_vdoc jds62)) = map N.of_nat (seq 0 62)) by (vm_compute; reflexivity).
    rewrite Hids. apply Forall_forall. intros o Ho.
    assert (Hx : a_env o = ienv_of cosp vtab62 /\ length (a_vec o) = 2%nat /\ (a_id o < 62)%N).
    { split; [|split].
      - clear - Ho Hvd. revert Ho. generalize 0%N. revert Hvd. generalize (map j_vdoc jds62).
        induction l as [|v l IH]; intros Hvd b Ho; [destruct Ho|]. cbn in Ho. destruct Ho as [<-|Ho].
        + destruct (Hvd v (or_introl eq_refl)) as (i & _ & ->). reflexivity.
        + eapply IH; [intros w Hw; apply Hvd; now right|exact Ho].
      - clear - Ho Hvd. revert Ho. generalize 0%N. revert Hvd. generalize (map j_vdoc jds62).
        induction l as [|v l IH]; intros Hvd b Ho; [destruct Ho|]. cbn in Ho. destruct Ho as [<-|Ho].
        + destruct (Hvd v (or_introl eq_refl)) as (i & _ & ->). cbn [j_vdoc vd_vec a_vec doc62 j_lits].
          destruct (lits62_cases i) as [-> | ->]; vm_compute; reflexivity.
        + eapply IH; [intros w Hw; apply Hvd; now right|exact Ho].
      - apply (in_map a_id) in Ho. rewrite Hids in Ho. apply in_map_iff in Ho. destruct Ho as (i & <- & Hi). apply in_seq in Hi. lia. }
    destruct Hx as (HI & Hl & Hid). unfold many_call, InsertFacts.call_ok. rewrite HI.
    split; [split; [apply env_rev_sched|]; split; [exact cosp_known|]; split; [reflexivity|]; lia|].
    split; [exact Hl|]. split; [cbn; lia|]. split; [reflexivity|]. split; [cbn; lia|]. left. intros l ow id Hi.
    apply in_map_iff in Hi. destruct Hi as (i & <- & Hi).
    assert (Hs : forallb (fun k => match src_of vtab62 (N.of_nat k) with Ok w => Nat.eqb (length w) 2 | _ => false end) (seq 0 62) = true)
      by (vm_compute; reflexivity).
    rewrite forallb_forall in Hs. exact (found_two _ (Hs i Hi)). }
  split.
  { split; [|exact I]. split; [discriminate|]. split; [exact rok_ok|]. split; [exact doc62_ok|].
    assert (El : length jds62 = 62%nat) by (unfold jds62; now rewrite map_length, seq_length). rewrite El. exact H1. }
  split; [intros _; exact H2|]. split; [constructor; [apply whole_ok; lia|constructor; [apply whole_ok; lia|constructor]]|].
  split; [apply wholes_usual; lia|]. split; [apply whole_ok; lia|]. split.
  { intros d Hd. apply in_map_iff in Hd. destruct Hd as (i & <- & _). unfold dist_of. cbn [doc62 j_lits].
    destruct (lits62_cases i) as [-> | ->]; cbn [map]; rewrite !whole_value; unfold rcos, rnorm; cbn [rdot].
    - replace (0 * 0 + (1 * 1 + 0)) with (1 * 1) by lra. replace (3 * 3 + (4 * 4 + 0)) with (5 * 5) by lra.
      rewrite !sqrt_square by lra. lra.
    - replace (0 * 1 + (1 * 0 + 0)) with 0 by lra. unfold Rdiv. rewrite Rmult_0_l. lra. }
  exact H3.
Qed.
Print Assumptions C71_62_documents_refuted.
