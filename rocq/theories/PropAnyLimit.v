(** Property C71 for every limit: the answers to JSON requests. *)
From Coq Require Import Reals Lra String.
From Flocq Require Import Core.Core.
From Verif Require Import Base F32 F32Real F32Err F32Norm F32Cos F32Cmp JsonNum JsonNumProofs PQ PQProofs Graph Search SearchProofs
  Insert InsertProofs InsertHist InsertTotal InsertFind
  Distancer DistancerProofs PropDistancer TestGraph TestInsert PropSearch PropInsert Persist PersistProofs
  Collections Client ClientProofs ClientSafe ClientFacts ClientReq PropClient VCache VCacheFacts ClientIds ClientSmall
  PropRequests PropNumeric Handlers HandlersProofs Vectorizer NumProofs PropNumbers ClientMany PropHistory Bind BindProofs LitCos EndToEnd PropLimit PropNearest PropEndToEnd.
Local Open Scope string_scope.
Local Open Scope R_scope.

(** As [C71_end_to_end_partial], for any limit above zero: the answer has at most
    as many documents as the limit says, and a document well within the asked
    distance is there, or the answer is as long as that and no document in it is
    farther by more than 2 eps.  Missing: as there. *)
Theorem C71_any_limit_partial : forall uuid n cap dot js,
  let ds := jdocs js in
  let vs := map j_vdoc ds in
  dot_impl dot -> (0 < n)%nat -> ds <> [] -> (length ds <= 61)%nat -> NoDup (map j_id ds) ->
  Forall (fun d => e_prov (i_env (do_env (j_orc d))) = cosine_provider dot) ds ->
  Forall (many_call n 30 cap (map a_id (ops_of 0 vs))) (ops_of 0 vs) -> jhist_ok uuid n new_coll js ->
  let st := run_http uuid new_coll (jreqs js) in
  (c_open st = true -> c_reg st = true) ->
  forall E name dist limit ql, sched_ok E -> e_prov E = cosine_provider dot -> e_vcap E = cap ->
    name <> "" -> Forall lit_ok ql -> length ql = n -> usual (map lit_value ql) ->
    lit_ok dist -> Rabs (lit_value dist) <= 4 -> (0 < limit < 9223372036854775808)%Z ->
    let eps := (4 * INR n + 34) * / 16777216 in
    exists m, (Z.of_nat m <= limit)%Z /\ forall Q, q_env Q = E ->
      r_kvopen (q_open Q) = true -> r_isopen (q_open Q) = true -> r_docopen (q_open Q) = true ->
      Permutation (q_order Q) (seq 0 m) -> (forall i, q_ok Q i = true) ->
      exists rs, snd (serve_vec Q (j_query name dist limit ql) st) = Ok200 rs /\
        (forall r, In r rs -> exists d x, In d ds /\ ro_id r = j_id d /\
           (forall k, ~ reserved k -> shows (j_more d) (ro_props r) k) /\
           rget "distance" (ro_props r) = Some (RDist x) /\ fin x /\
           Rabs (rv x - dist_of ql d) <= eps /\ dist_of ql d <= lit_value dist + eps) /\
        (Z.of_nat (List.length rs) <= limit)%Z /\ NoDup (map ro_id rs) /\
        (forall d, In d ds -> eps <= dist_of ql d <= lit_value dist - eps ->
           (exists r, In r rs /\ ro_id r = j_id d) \/
           Z.of_nat (List.length rs) = limit /\
           forall r d', In r rs -> In d' ds -> ro_id r = j_id d' -> dist_of ql d' <= dist_of ql d + 2 * eps) /\
        (forall i j r r' d d', (i < j)%nat -> nth_error rs i = Some r -> nth_error rs j = Some r' ->
           In d ds -> In d' ds -> ro_id r = j_id d -> ro_id r' = j_id d' -> dist_of ql d <= dist_of ql d' + 2 * eps).
Proof.
  intros uuid n cap dot js ds vs Hdot Hn Hne Hlen Hids HP Hf Hj st Hreg E name dist limit ql Hsc HEP Hcap Hname Hql Hqn Hqu Hdl Hd4 Hlim eps.
  destruct (j_history uuid n js new_coll Hj) as (hs & Erun & Edocs & Hok). fold ds vs in Edocs. fold st in Erun.
  assert (Hjd : forall d, In d ds -> jdoc_ok uuid n d).
  { clear -Hj. subst ds. revert Hj. generalize new_coll. induction js as [|q js IH]; intros s Hj d Hd; [destruct Hd|].
    destruct Hj as [Hq Hj]. cbn [jdocs flat_map] in Hd. apply in_app_or in Hd. destruct Hd as [Hd|Hd]; [|now apply (IH _ Hj)].
    destruct q as [R lk name keys dd|q]; [|destruct Hd]. destruct Hq as (_ & _ & Hq & _). rewrite Forall_forall in Hq. now apply Hq. }
  assert (Hvc : forall d, In d ds -> Forall2 close (map lit_value (j_lits d)) (vd_vec (j_vdoc d))).
  { intros d Hd. destruct (Hjd d Hd) as (L & _ & U & _). destruct (doc_close _ L U) as (w & Ew & Cw). cbn [j_vdoc vd_vec]. now rewrite Ew. }
  destruct (query_close ql Hql Hqu) as (q & Eq & Cq).
  destruct (lit_close dist Hdl) as (md & Emd & Vmd & Fmd & Cmd).
  { eapply Rle_trans; [exact Hd4|]. replace 4 with (pow2 2) by reflexivity. apply bpow_le. lia. }
  assert (Hmd : Rabs (rv md - lit_value dist) <= 5 * u).
  { eapply Rle_trans; [exact Cmd|]. assert (K : pow2 (-149) <= pow2 (-52)) by (apply bpow_le; lia).
    rewrite u_val. assert (K2 : pow2 (-52) = / 4503599627370496) by reflexivity. rewrite K2 in *. pose proof (Rabs_pos (lit_value dist)). nra. }
  set (P := cosine_provider dot) in *. set (e0 := (4 * INR n + 24) * / 16777216).
  assert (Heps : eps = e0 + 10 * u) by (unfold eps, e0; rewrite u_val; lra).
  assert (Lq : length q = n) by (apply forall2_len in Cq; rewrite map_length in Cq; lia).
  assert (Mq : moderate q) by now apply (close_moderate (map lit_value ql)).
  assert (Hv : forall v, In v vs -> exists d, In d ds /\ v = j_vdoc d).
  { intros v Hin. apply in_map_iff in Hin. destruct Hin as (d & <- & Hd). eauto. }
  assert (Mv : forall d, In d ds -> moderate (vd_vec (j_vdoc d))).
  { intros d Hd. destruct (Hjd d Hd) as (_ & _ & U & _). now apply (close_moderate _ _ U), Hvc. }
  assert (Lv : forall d, In d ds -> length (vd_vec (j_vdoc d)) = n).
  { intros d Hd. destruct (Hjd d Hd) as (_ & L & _). pose proof (forall2_len _ _ _ (Hvc d Hd)) as K. rewrite map_length in K. lia. }
  assert (Hcos : forall d, In d ds -> Rabs (cosdist q (vd_vec (j_vdoc d)) - dist_of ql d) <= 5 * u).
  { intros d Hd. destruct (Hjd d Hd) as (_ & L & U & _). apply close_cos; auto. rewrite !map_length. lia. }
  assert (Hq2 : forall v, In v vs -> exists x, p_query P (p_normalize P q) (p_normalize P (vd_vec v)) = Some x /\ f32_valid x /\ fin x /\
            Rabs (rv x - cosdist q (vd_vec v)) <= e0).
  { intros v Hin. destruct (Hv v Hin) as (d & Hd & ->). destruct (cosine_query dot q (vd_vec (j_vdoc d)) Hdot Mq (Mv d Hd)) as (x & K).
    { rewrite Lv by exact Hd. exact Lq. }
    rewrite Lq in K. exists x. exact K. }
  assert (Hvids : NoDup (map (fun v => di_id (vd_doc v)) vs)).
  { unfold vs. rewrite map_map. cbn [j_vdoc vd_doc di_id]. exact Hids. }
  assert (Hvlen : length vs = length ds) by apply map_length.
  rewrite <- Edocs in Hf, Hq2, Hvids, Hvlen, Hv.
  assert (Hdn : hist_docs hs <> []) by (intros E0; rewrite E0 in Hvlen; destruct ds; [congruence|discriminate]).
  assert (HPv : Forall (fun d => e_prov (i_env (do_env (vd_orc d))) = P) (hist_docs hs)).
  { rewrite Edocs. apply Forall_forall. intros v Hin. rewrite <- Edocs in Hin. destruct (Hv v Hin) as (d & Hd & ->). rewrite Forall_forall in HP. now apply HP. }
  assert (Hmi : minv n cap (hist_docs hs) st).
  { rewrite Erun. apply (minv_run n cap (map a_id (ops_of 0 (hist_docs hs))) hs Hn [] new_coll); auto; [|cbn [app]; lia|apply incl_refl].
    constructor; try reflexivity. congruence. }
  rewrite Erun in Hreg.
  destruct (C26_history_limit_partial n cap P hs Hn Hdn ltac:(lia) Hvids HPv Hf Hok Hreg E q md limit Hsc HEP Hcap Lq (proj1 Hlim)) as (m & Hml & Hm).
  { intros d x Hin Hx. destruct (Hq2 d Hin) as (y & Ey & _ & Fy & _). rewrite Hx in Ey. injection Ey as ->. now destruct y. }
  exists m. split; [exact Hml|]. intros Q HQ H1 H2 H3 H4 H5. destruct (Hm Q HQ H1 H2 H3 H4 H5) as (docs & dists & Hr & Hlm & Hb1 & A3 & Hsort & Hb2).
  assert (Hfmd : is_finite_b md = true) by now rewrite fin_b.
  pose proof (cosine_limit n P (hist_docs hs) q md limit docs dists Hvids Vmd Hfmd Hq2 Hb1 Hb2) as (A1 & A2).
  rewrite <- Erun in Hr.
  assert (Hdl2 : (length docs <= length dists)%nat).
  { destruct (Nat.eq_dec (length docs) 0) as [E0|E0]; [lia|].
    destruct (nth_error docs (length docs - 1)) as [o|] eqn:Eo; [|apply nth_error_None in Eo; lia].
    destruct (Hb1 _ o Eo) as (_ & _ & x & _ & _ & _ & Hx & _).
    assert (length docs - 1 < length dists)%nat by (apply nth_error_Some; congruence). lia. }
  (* every document of the answer is a stored one *)
  assert (Hst : forall i s, nth_error docs i = Some (Some s) -> exists d b, In d ds /\ (b < 1000)%N /\ s = stored b (j_vdoc d)).
  { intros i s Hi. apply nth_error_In in Hi.
    assert (Hc : In s (c_docs st)).
    { destruct (near_by_vector_open _ _ _ _ _ _ Hr) as (st1 & Ho & Hnd). pose proof (near_docs_in _ _ _ _ _ _ _ _ _ Hnd Hi) as Hin.
      destruct (open_coll_h _ _ _ Ho) as [Ed _]. now rewrite <- Ed. }
    rewrite (mi_docs _ _ _ _ Hmi) in Hc. apply docs_after_inv in Hc. destruct Hc as [[]|(k & v & Hk & ->)].
    destruct (Hv v (nth_error_In _ _ Hk)) as (d & Hd & ->). exists d, (0 + N.of_nat k)%N. split; [exact Hd|]. split; [|reflexivity].
    assert (k < length (hist_docs hs))%nat by (apply nth_error_Some; congruence). lia. }
  destruct (show_all_ok docs dists Hdl2) as (rs & Hrs).
  { intros o Ho. apply In_nth_error in Ho. destruct Ho as (i & Hi). destruct (Hb1 i o Hi) as (s & v & x & -> & _).
    destruct (Hst i s Hi) as (d & b & Hd & Hbd & ->). destruct (stored_rereads uuid n d b (Hjd d Hd) Hbd) as (r & Er). eauto. }
  destruct (show_all_spec _ _ _ Hrs) as [S1 S2].
  assert (Hri : forall i r, nth_error rs i = Some r -> exists s d x, nth_error docs i = Some (Some s) /\ In d ds /\ sd_id s = j_id d /\ ro_id r = j_id d /\
     (forall k, ~ reserved k -> shows (j_more d) (ro_props r) k) /\ nth_error dists i = Some x /\ rget "distance" (ro_props r) = Some (RDist x) /\ fin x).
  { intros i r Hi. pose proof (forall2_nth _ _ _ S1 i) as K. rewrite Hi in K. destruct (nth_error docs i) as [o|] eqn:Eo; [|destruct K].
    destruct K as (s & x0 & -> & Ks). destruct (Hst i s Eo) as (d & b & Hd & _ & ->).
    destruct (show_near_spec _ _ _ _ (stored_faithful d b) Ks) as (B1 & _ & B2). destruct (S2 i r Hi) as (x & Hx & Hg).
    exists (stored b (j_vdoc d)), d, x. split; [reflexivity|]. split; [exact Hd|]. split; [reflexivity|]. split; [exact B1|]. split.
    - intros k Hk. specialize (B2 k Hk). revert B2. unfold shows. cbn [j_vdoc vd_doc di_props]. unfold j_props. cbn [pget].
      unfold reserved in Hk. rewrite (eqb_ne k "vector") by tauto. exact (fun h => h).
    - split; [exact Hx|]. split; [exact Hg|]. destruct (Hb1 i _ Eo) as (s' & v & y & _ & Hin & _ & Hy & Hqy & _).
      rewrite Hx in Hy. injection Hy as <-. destruct (Hq2 v Hin) as (y & Ey & _ & Fy & _). rewrite Hqy in Ey. now injection Ey as ->. }
  assert (Hback : forall i s, nth_error docs i = Some (Some s) -> exists r, nth_error rs i = Some r /\ ro_id r = sd_id s).
  { intros i s Hi. pose proof (forall2_nth _ _ _ S1 i) as K. rewrite Hi in K. destruct (nth_error rs i) as [r|] eqn:Er; [|destruct K].
    exists r. split; [reflexivity|]. destruct (Hri i r Er) as (s' & d & x & Es & _ & I1 & I2 & _). rewrite Hi in Es. injection Es as <-. congruence. }
  assert (Hinj : forall d d', In d ds -> In d' ds -> j_id d = j_id d' -> d = d').
  { clear -Hids. intros d d' Hd Hd' Hi. induction ds as [|a l IH]; [destruct Hd|]. cbn [map] in Hids. inversion Hids as [|? ? Ni Nd]; subst.
    destruct Hd as [->|Hd], Hd' as [->|Hd']; auto; exfalso; apply Ni; [rewrite Hi|rewrite <- Hi]; now apply in_map. }
  exists rs. split; [|split; [|split; [|split; [|split]]]].
  - unfold serve_vec. rewrite (j_query_bound name dist limit ql md q Emd) by (exact Eq || lia). cbn [vq_name vq_vec vq_dist vq_limit].
    unfold handle_near_vector. destruct (String.eqb_spec name ""); [contradiction|].
    destruct (near_by_vector Q st q md limit) as [s' res]. cbn [snd] in Hr. rewrite Hr. cbn [near_response snd]. rewrite Hrs. unfold respond.
    replace (forallb writable rs) with true; [reflexivity|]. symmetry. apply forallb_forall. intros r Hin. apply In_nth_error in Hin.
    destruct Hin as (i & Hi). destruct (Hri i r Hi) as (s & d & x & _ & _ & _ & _ & _ & _ & Hg & Hfx). unfold writable. rewrite Hg. now rewrite fin_b.
  - intros r Hin. apply In_nth_error in Hin. destruct Hin as (i & Hi). destruct (Hri i r Hi) as (s & d & x & Hs & Hd & I1 & I2 & Hsh & Hx & Hg & Hfx).
    exists d, x. repeat (split; [assumption|]). destruct (A1 i _ Hs) as (s' & v & y & [= <-] & Hin & Hid & Hy & Hye & Hym).
    rewrite Hx in Hy. injection Hy as <-. destruct (Hv v Hin) as (d' & Hd' & ->). cbn [j_vdoc vd_doc di_id] in Hid.
    assert (d = d') by (apply Hinj; congruence). subst d'. specialize (Hcos d Hd). apply Rabs_le_inv in Hcos, Hye, Hmd.
    pose proof u_pos. split; [apply Rabs_le|]; fold e0 in Hye, Hym; lra.
  - apply forall2_len in S1. rewrite <- S1. lia.
  - apply NoDup_nth_error. intros i j Hi Hij. rewrite map_length in Hi.
    rewrite !nth_error_map in Hij. destruct (nth_error rs i) as [r|] eqn:Ei; [|apply nth_error_None in Ei; lia].
    destruct (nth_error rs j) as [r'|] eqn:Ej; [|discriminate]. cbn [option_map] in Hij. injection Hij as Hij.
    destruct (Hri i r Ei) as (s & d & x & Hs & _ & I1 & I2 & _). destruct (Hri j r' Ej) as (s' & d' & x' & Hs' & _ & I1' & I2' & _).
    apply (A3 i j s s' Hs Hs'). congruence.
  - intros d Hd [K1 K2]. pose proof (Hcos d Hd) as C1. apply Rabs_le_inv in C1, Hmd. pose proof u_pos.
    destruct (A2 (j_vdoc d)) as [(i & s & Hi & Hs)|[Hfull Hfar]].
    { rewrite Edocs. now apply in_map. }
    { fold e0. lra. }
    + left. destruct (Hback i s Hi) as (r & Hr1 & Hr2). exists r. split; [now apply nth_error_In in Hr1|]. rewrite Hr2, Hs. reflexivity.
    + right. split; [apply forall2_len in S1; rewrite <- S1; exact Hfull|]. intros r d' Hin Hd' E2.
      apply In_nth_error in Hin. destruct Hin as (i & Hi). destruct (Hri i r Hi) as (s & c & x & Hs & Hc & I1 & I2 & _).
      assert (c = d') by (apply Hinj; congruence). subst c.
      specialize (Hfar i s (j_vdoc d') Hs). rewrite Edocs in Hfar. specialize (Hfar (in_map j_vdoc ds d' Hd') I1). fold e0 in Hfar.
      pose proof (Hcos d' Hd') as C2. apply Rabs_le_inv in C2. lra.
  - intros i j r r' d d' Hlt Hi Hj' Hd Hd' E1 E2. destruct (Hri i r Hi) as (s & c & x & Hs & Hc & I1 & I2 & _ & Hx & _).
    destruct (Hri j r' Hj') as (s' & c' & x' & Hs' & Hc' & I1' & I2' & _ & Hx' & _).
    assert (c = d) by (apply Hinj; congruence). assert (c' = d') by (apply Hinj; congruence). subst c c'.
    assert (G : forall i s d x, nth_error docs i = Some (Some s) -> In d ds -> sd_id s = j_id d -> nth_error dists i = Some x ->
      f32_valid x /\ fin x /\ Rabs (rv x - cosdist q (vd_vec (j_vdoc d))) <= e0).
    { clear i j r r' d d' Hlt Hi Hj' Hd Hd' E1 E2 s x Hs Hc I1 I2 Hx s' x' Hs' Hc' I1' I2' Hx'.
      intros i s d x Hi Hd Is Hx. destruct (Hb1 i _ Hi) as (s1 & v & y & [= <-] & Hin & Hid & Hy & Hqy & _).
      rewrite Hx in Hy. injection Hy as <-. destruct (Hv v Hin) as (d' & Hd' & ->). cbn [j_vdoc vd_doc di_id] in Hid.
      assert (d = d') by (apply Hinj; congruence). subst d'. destruct (Hq2 _ Hin) as (y & Ey & K). rewrite Hqy in Ey. now injection Ey as <-. }
    destruct (G i s d x Hs Hd I1 Hx) as (Vx & Fx & Ex). destruct (G j s' d' x' Hs' Hd' I1' Hx') as (Vy & Fy & Ey).
    assert (Hjl : (j < length docs)%nat) by (apply nth_error_Some; congruence).
    pose proof (Hsort i j x x' (conj Hlt Hjl) Hx Hx') as Hle. apply flt_false in Hle; auto.
    pose proof (Hcos d Hd) as C1. pose proof (Hcos d' Hd') as C2. apply Rabs_le_inv in C1, C2, Ex, Ey. pose proof u_pos. lra.
Qed.
Print Assumptions C71_any_limit_partial.

(** The history of [C71_end_to_end_nonvacuous] with limit 1. *)
Example C71_any_limit_nonvacuous :
  jdocs hist71 = ds71 /\ NoDup (map j_id ds71) /\ jhist_ok uuid71 2 new_coll hist71 /\
  match snd (serve_vec (qok 1) (j_query "c" (tenth 5) 1 [tenth 1; tenth 9]) (run_http uuid71 new_coll (jreqs hist71))) with
  | Ok200 rs => map ro_id rs = [uid71 "b"]
  | _ => False
  end.
Proof. pose proof C71_end_to_end_nonvacuous as (A & B & C & _). split; [exact A|]. split; [exact B|]. split; [exact C|vm_compute; reflexivity]. Qed.
