(** Property C60 for every limit: the true neighbours. *)
From Coq Require Import Reals Lra String.
From Flocq Require Import Core.Raux.
From Verif Require Import Base F32 PQ PQProofs Graph Search SearchProofs Insert InsertProofs InsertHist InsertTotal InsertFind
  F32Real F32Err F32Norm F32Cos F32Cmp
  Distancer DistancerProofs PropDistancer TestGraph TestInsert PropSearch PropInsert Persist PersistProofs
  Collections Client ClientProofs ClientSafe ClientFacts ClientReq PropClient VCache VCacheFacts ClientIds ClientSmall
  PropRequests Vectorizer VectorizerProofs PropVectorizer PropNumeric ClientMany PropHistory PropLimit.
Local Open Scope R_scope.

(** The answer of [C26_history_limit_partial] against the exact cosine distances. *)
Lemma cosine_limit n P (ds : list vdoc) q maxd limit docs (dists : list f32) : let eps := (4 * INR n + 24) * / 16777216 in
  NoDup (map (fun d => di_id (vd_doc d)) ds) -> f32_valid maxd -> is_finite_b maxd = true ->
  (forall d, In d ds -> exists x, p_query P (p_normalize P q) (p_normalize P (vd_vec d)) = Some x /\ f32_valid x /\ fin x /\
            Rabs (rv x - cosdist q (vd_vec d)) <= eps) ->
  (forall i o, nth_error docs i = Some o -> exists s d x, o = Some s /\ In d ds /\ sd_id s = di_id (vd_doc d) /\
     nth_error dists i = Some x /\ p_query P (p_normalize P q) (p_normalize P (vd_vec d)) = Some x /\
     flt x f32_zero = false /\ fgt x maxd = false) ->
  (forall d x, In d ds -> p_query P (p_normalize P q) (p_normalize P (vd_vec d)) = Some x ->
     flt x f32_zero = false -> fgt x maxd = false ->
     (exists i s, nth_error docs i = Some (Some s) /\ sd_id s = di_id (vd_doc d) /\ nth_error dists i = Some x) \/
     Z.of_nat (length docs) = limit /\
     forall i y, (i < length docs)%nat -> nth_error dists i = Some y -> flt x y = false) ->
  (forall i o, nth_error docs i = Some o -> exists s d x, o = Some s /\ In d ds /\ sd_id s = di_id (vd_doc d) /\
     nth_error dists i = Some x /\ Rabs (rv x - cosdist q (vd_vec d)) <= eps /\ cosdist q (vd_vec d) <= rv maxd + eps) /\
  (forall d, In d ds -> eps <= cosdist q (vd_vec d) <= rv maxd - eps ->
     (exists i s, nth_error docs i = Some (Some s) /\ sd_id s = di_id (vd_doc d)) \/
     Z.of_nat (length docs) = limit /\
     forall i s d', nth_error docs i = Some (Some s) -> In d' ds -> sd_id s = di_id (vd_doc d') ->
       cosdist q (vd_vec d') <= cosdist q (vd_vec d) + 2 * eps).
Proof.
  intros eps Hids Vm Fm Hq2 Ha Hb. rewrite fin_b in Fm.
  assert (Hx : forall d x, In d ds -> p_query P (p_normalize P q) (p_normalize P (vd_vec d)) = Some x ->
    f32_valid x /\ fin x /\ Rabs (rv x - cosdist q (vd_vec d)) <= eps).
  { intros d x Hin Ex. destruct (Hq2 d Hin) as (y & Ey & K). rewrite Ex in Ey. injection Ey as ->. exact K. }
  split.
  - intros i o Ho. destruct (Ha i o Ho) as (s & d & x & Hs1 & Hin & Hid & Hxi & Hxq & Hx0 & Hxm).
    destruct (Hx d x Hin Hxq) as (Vx & Fx & Ex). exists s, d, x. split; [exact Hs1|]. split; [exact Hin|]. split; [exact Hid|]. split; [exact Hxi|].
    split; [exact Ex|]. unfold fgt in Hxm. apply flt_false in Hxm; auto. apply Rabs_le_inv in Ex. lra.
  - intros d Hin Hd2. destruct (Hq2 d Hin) as (x & Ex & Vx & Fx & Hxe). apply Rabs_le_inv in Hxe.
    destruct (Hb d x Hin Ex) as [(i & s & K1 & K2 & _)|[K1 K2]].
    + apply flt_false; auto; try reflexivity. change (rv f32_zero) with 0. lra.
    + unfold fgt. apply flt_false; auto. lra.
    + left. exists i, s. auto.
    + right. split; [exact K1|]. intros i s d' Hi Hin' Hsd.
      assert (Hi' : (i < length docs)%nat) by (apply nth_error_Some; congruence).
      destruct (Ha i _ Hi) as (s1 & d1 & y & [= <-] & Hin1 & Hid1 & Hyi & Hyq & _).
      assert (d1 = d').
      { assert (Hinj : forall d d', In d ds -> In d' ds -> di_id (vd_doc d) = di_id (vd_doc d') -> d = d').
        { clear -Hids. induction ds as [|e l IH]; intros d d' H H' E; [destruct H|]. cbn [map] in Hids. inversion Hids as [|? ? N1 N2]; subst.
          destruct H as [->|H], H' as [->|H']; auto; exfalso; apply N1; [rewrite E|rewrite <- E]; now apply (in_map (fun d => di_id (vd_doc d))). }
        apply Hinj; auto; congruence. }
      subst d1. destruct (Hx d' y Hin' Hyq) as (Vy & Fy & Ey). pose proof (K2 i y Hi' Hyi) as Hlt.
      apply flt_false in Hlt; auto. apply Rabs_le_inv in Ey. lra.
Qed.

(** As [C60_history_neighbours_partial], for any limit above zero: a document at an
    exact distance between eps and maxd - eps is listed, or the answer is as long
    as the limit allows and no listed document is farther by more than 2 eps.
    Missing: more than 61 documents; documents within eps of the query
    ([C60_exact_match_refuted]). *)
Theorem C60_history_limit_partial : forall n cap dot hs,
  let ds := hist_docs hs in
  dot_impl dot -> (0 < n)%nat -> ds <> [] -> (length ds <= 61)%nat -> NoDup (map (fun d => di_id (vd_doc d)) ds) ->
  Forall (fun d => e_prov (i_env (do_env (vd_orc d))) = cosine_provider dot) ds -> Forall (fun d => moderate (vd_vec d)) ds ->
  Forall (many_call n 30 cap (map a_id (ops_of 0 ds))) (ops_of 0 ds) -> hist_ok new_coll hs ->
  let st := run_reqs new_coll (hist_reqs hs) in
  (c_open st = true -> c_reg st = true) ->
  forall E q maxd limit, sched_ok E -> e_prov E = cosine_provider dot -> e_vcap E = cap -> length q = n ->
    (0 < limit)%Z -> moderate q -> f32_valid maxd -> is_finite_b maxd = true ->
    let eps := (4 * INR n + 24) * / 16777216 in
    exists m, (Z.of_nat m <= limit)%Z /\ forall Q, q_env Q = E ->
      r_kvopen (q_open Q) = true -> r_isopen (q_open Q) = true -> r_docopen (q_open Q) = true ->
      Permutation (q_order Q) (seq 0 m) -> (forall i, q_ok Q i = true) ->
      exists docs dists, snd (near_by_vector Q st q maxd limit) = Ok (docs, dists) /\ length docs = m /\
        (forall i o, nth_error docs i = Some o -> exists s d x, o = Some s /\ In d ds /\ sd_id s = di_id (vd_doc d) /\
           nth_error dists i = Some x /\ Rabs (rv x - cosdist q (vd_vec d)) <= eps /\ cosdist q (vd_vec d) <= rv maxd + eps) /\
        (forall i j s t, nth_error docs i = Some (Some s) -> nth_error docs j = Some (Some t) -> sd_id s = sd_id t -> i = j) /\
        (forall d, In d ds -> eps <= cosdist q (vd_vec d) <= rv maxd - eps ->
           (exists i s, nth_error docs i = Some (Some s) /\ sd_id s = di_id (vd_doc d)) \/
           Z.of_nat (length docs) = limit /\
           forall i s d', nth_error docs i = Some (Some s) -> In d' ds -> sd_id s = di_id (vd_doc d') ->
             cosdist q (vd_vec d') <= cosdist q (vd_vec d) + 2 * eps).
Proof.
  intros n cap dot hs ds Hd Hn Hne Hlen Hids HP Hmod Hf Hok st Hreg E q maxd limit Hsc HEP Hcap Hq Hlim Hqm Vm Fm eps.
  set (P := cosine_provider dot) in *.
  assert (Hq2 : forall d, In d ds -> exists x, p_query P (p_normalize P q) (p_normalize P (vd_vec d)) = Some x /\ f32_valid x /\ fin x /\
            Rabs (rv x - cosdist q (vd_vec d)) <= eps).
  { intros d Hin. rewrite Forall_forall in Hmod. destruct (cosine_query dot q (vd_vec d) Hd Hqm (Hmod d Hin)) as (x & K).
    { apply In_nth_error in Hin. destruct Hin as (i & Hi). apply (ops_of_nth ds 0) in Hi. rewrite Forall_forall in Hf.
      destruct (Hf _ Hi) as (_ & Hl & _). cbn [a_vec] in Hl. congruence. }
    rewrite Hq in K. exists x. exact K. }
  destruct (C26_history_limit_partial n cap P hs Hn Hne Hlen Hids HP Hf Hok Hreg E q maxd limit Hsc HEP Hcap Hq Hlim) as (m & Hml & Hm).
  { intros d x Hin Hx. destruct (Hq2 d Hin) as (y & Ey & _ & Fy & _). rewrite Hx in Ey. injection Ey as ->. now destruct y. }
  exists m. split; [exact Hml|]. intros Q HQ H1 H2 H3 H4 H5.
  destruct (Hm Q HQ H1 H2 H3 H4 H5) as (docs & dists & Hr & Hl & Ha & Hc & Hs & Hb). fold ds st in Ha, Hb, Hr.
  exists docs, dists. split; [exact Hr|]. split; [exact Hl|].
  destruct (cosine_limit n P ds q maxd limit docs dists Hids Vm Fm Hq2 Ha Hb) as [A1 A2].
  split; [exact A1|]. split; [exact Hc|exact A2].
Qed.
Print Assumptions C60_history_limit_partial.
Example C60_history_limit_nonvacuous : hist_docs hist26 = ds5 /\ Forall (fun d => moderate (vd_vec d)) ds5 /\ length (hist_docs hist26) = 5%nat.
Proof. split; [reflexivity|]. split; [apply C60_nonvacuous|reflexivity]. Qed.
