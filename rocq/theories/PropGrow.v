(** Property C100: further documents take nothing away from an answer. *)
From Coq Require Import String.
From Verif Require Import Base F32 PQ PQProofs Graph Search SearchProofs Insert InsertProofs InsertHist InsertTotal InsertFind
  Distancer DistancerProofs PropDistancer TestGraph TestInsert PropSearch PropInsert Persist PersistProofs
  Collections Client ClientProofs ClientSafe ClientFacts ClientReq PropClient VCache VCacheFacts ClientIds ClientSmall
  PropRequests Vectorizer VectorizerProofs PropVectorizer PropNumeric ClientMany PropHistory PropReads PropOverlap PropOrder.
Local Open Scope nat_scope.

Lemma ordpairs_filter {A} (R : A -> A -> Prop) (f : A -> bool) l : ForallOrdPairs R l -> ForallOrdPairs R (filter f l).
Proof.
  induction 1 as [|a l Ha Hl IH]; cbn [filter]; [constructor|]. destruct (f a); [|exact IH]. constructor; [|exact IH].
  rewrite Forall_forall in *. intros x Hx. apply filter_In in Hx. now apply Ha.
Qed.
Lemma map_fst_filter {A B} (f : A -> bool) (l : list (A * B)) : map fst (filter (fun p => f (fst p)) l) = filter f (map fst l).
Proof. induction l as [|[a b] l IH]; cbn; [reflexivity|]. destruct (f a); cbn; congruence. Qed.

Lemma NoDup_map_inj {A B} (f : A -> B) l : NoDup (map f l) -> forall a b, In a l -> In b l -> f a = f b -> a = b.
Proof.
  induction l as [|x l IH]; cbn [map In]; intros Hn a b Ha Hb E; [destruct Ha|].
  assert (Hx : ~ In (f x) (map f l)) by (inversion Hn; assumption).
  assert (Hn' : NoDup (map f l)) by (inversion Hn; assumption).
  destruct Ha as [<-|Ha], Hb as [<-|Hb]; [reflexivity| | |now apply IH].
  - exfalso. apply Hx. rewrite E. now apply in_map.
  - exfalso. apply Hx. rewrite <- E. now apply in_map.
Qed.

(** An entry with one of the given ids. Not in the code. *)
Definition among (ids : list string) (o : option string) : bool :=
  match o with Some i => existsb (String.eqb i) ids | None => false end.
Lemma among_in ids i : among ids (Some i) = true <-> In i ids.
Proof.
  cbn. rewrite existsb_exists. split; [intros (x & Hx & E); apply String.eqb_eq in E; now subst|].
  intros H. exists i. split; [exact H|apply String.eqb_refl].
Qed.

Lemma lists_grow (S1 S2 : string -> f32 -> Prop) ids docs1 dists1 docs2 dists2 :
  lists_all S1 docs1 dists1 -> lists_all S2 docs2 dists2 -> (forall id x, S1 id x <-> S2 id x /\ In id ids) ->
  length docs1 <= length docs2 /\
  ((forall id id' x x', S2 id x -> S2 id' x' -> id <> id' -> flt x x' = true \/ flt x' x = true) ->
   map (option_map sd_id) docs1 = filter (among ids) (map (option_map sd_id) docs2)).
Proof.
  intros A1 A2 HS.
  assert (Hin : forall p, In p (combine (map (option_map sd_id) docs1) dists1) <->
    In p (filter (fun p => among ids (fst p)) (combine (map (option_map sd_id) docs2) dists2))).
  { intros p. rewrite filter_In. rewrite (entries_in S1 _ _ A1), (entries_in S2 _ _ A2). split.
    - intros (id & x & -> & H). apply HS in H. destruct H as [H Hi]. split; [eauto|]. cbn [fst]. now apply among_in.
    - intros ((id & x & -> & H) & Hi). cbn [fst] in Hi. apply among_in in Hi. exists id, x. split; [reflexivity|]. apply HS. now split. }
  split.
  - rewrite <- (entries_length S1 _ _ A1), <- (entries_length S2 _ _ A2).
    apply NoDup_incl_length; [now apply (entries_nodup S1)|]. intros p Hp. apply Hin in Hp. apply filter_In in Hp. tauto.
  - intros Hd.
    assert (E : combine (map (option_map sd_id) docs1) dists1 =
                filter (fun p => among ids (fst p)) (combine (map (option_map sd_id) docs2) dists2)).
    { apply (ordered_eq (fun p q => flt (snd p) (snd q) = true)); [| | |exact Hin].
      - intros a b H1 H2. rewrite (flt_asym _ _ H1) in H2. discriminate.
      - apply (entries_ordered S1); [exact A1|]. intros id id' x x' H H' Hne. apply HS in H, H'. apply (Hd id id'); tauto.
      - apply ordpairs_filter. now apply (entries_ordered S2). }
    destruct A1 as (L1 & _), A2 as (L2 & _).
    rewrite <- (combine_fst (map (option_map sd_id) docs1) dists1), <- (combine_fst (map (option_map sd_id) docs2) dists2)
      by now rewrite map_length. rewrite E. apply map_fst_filter.
Qed.

(** Two histories of requests ([hist_ok], see C26); every document of the first
    was also added, with the same vector, in the second, for example because the
    second continues the first.  Then the answer after the first lists exactly
    those documents of the answer after the second that the first added, with the
    same distances, and in the same order if no two distances are equal.
    Missing: more than 61 documents; false for them (below). *)
Theorem C100_more_documents_partial : forall n cap P hs1 hs2,
  let ds1 := hist_docs hs1 in let ds2 := hist_docs hs2 in
  0 < n -> ds1 <> [] -> length ds2 <= 61 ->
  NoDup (map (fun d => di_id (vd_doc d)) ds1) -> NoDup (map (fun d => di_id (vd_doc d)) ds2) ->
  incl (map (fun d => (di_id (vd_doc d), vd_vec d)) ds1) (map (fun d => (di_id (vd_doc d), vd_vec d)) ds2) ->
  Forall (fun d => e_prov (i_env (do_env (vd_orc d))) = P) (ds1 ++ ds2) ->
  Forall (many_call n 30 cap (map a_id (ops_of 0 ds1))) (ops_of 0 ds1) -> hist_ok new_coll hs1 ->
  Forall (many_call n 30 cap (map a_id (ops_of 0 ds2))) (ops_of 0 ds2) -> hist_ok new_coll hs2 ->
  let st1 := run_reqs new_coll (hist_reqs hs1) in let st2 := run_reqs new_coll (hist_reqs hs2) in
  (c_open st1 = true -> c_reg st1 = true) -> (c_open st2 = true -> c_reg st2 = true) ->
  forall E1 E2 q maxd limit1 limit2,
    sched_ok E1 -> e_prov E1 = P -> e_vcap E1 = cap -> sched_ok E2 -> e_prov E2 = P -> e_vcap E2 = cap -> length q = n ->
    (limit1 = 0 \/ Z.of_nat (length ds1) <= limit1)%Z -> (limit2 = 0 \/ Z.of_nat (length ds2) <= limit2)%Z ->
    (forall d x, In d ds2 -> p_query P (p_normalize P q) (p_normalize P (vd_vec d)) = Some x -> is_num x = true) ->
    exists m1 m2, forall Q1 Q2, q_env Q1 = E1 -> q_env Q2 = E2 ->
      Forall (fun Q => r_kvopen (q_open Q) = true /\ r_isopen (q_open Q) = true /\ r_docopen (q_open Q) = true /\
                       forall i, q_ok Q i = true) [Q1; Q2] ->
      Permutation (q_order Q1) (seq 0 m1) -> Permutation (q_order Q2) (seq 0 m2) ->
      exists docs1 dists1 docs2 dists2,
        snd (near_by_vector Q1 st1 q maxd limit1) = Ok (docs1, dists1) /\
        snd (near_by_vector Q2 st2 q maxd limit2) = Ok (docs2, dists2) /\
        length docs1 <= length docs2 /\
        (forall id x,
          (exists i s, nth_error docs1 i = Some (Some s) /\ sd_id s = id /\ nth_error dists1 i = Some x) <->
          (exists i s, nth_error docs2 i = Some (Some s) /\ sd_id s = id /\ nth_error dists2 i = Some x) /\
          In id (map (fun d => di_id (vd_doc d)) ds1)) /\
        ((forall d d' x x', In d ds2 -> In d' ds2 -> di_id (vd_doc d) <> di_id (vd_doc d') ->
            p_query P (p_normalize P q) (p_normalize P (vd_vec d)) = Some x ->
            p_query P (p_normalize P q) (p_normalize P (vd_vec d')) = Some x' -> flt x x' = true \/ flt x' x = true) ->
         map (option_map sd_id) docs1 = filter (among (map (fun d => di_id (vd_doc d)) ds1)) (map (option_map sd_id) docs2)).
Proof.
  intros n cap P hs1 hs2 ds1 ds2 Hn Hne Hlen Hids1 Hids2 Hincl HP Hm1 Ho1 Hm2 Ho2 st1 st2 Hr1 Hr2
    E1 E2 q maxd limit1 limit2 S1 P1 C1 S2 P2 C2 Hq L1 L2 Hnum.
  apply Forall_app in HP. destruct HP as [HP1 HP2].
  assert (Hl : length ds1 <= length ds2).
  { rewrite <- (map_length (fun d => (di_id (vd_doc d), vd_vec d)) ds1), <- (map_length (fun d => (di_id (vd_doc d), vd_vec d)) ds2).
    apply NoDup_incl_length; [|exact Hincl]. apply (NoDup_map_inv fst). now rewrite map_map. }
  assert (Hin : forall d, In d ds1 -> exists d', In d' ds2 /\ di_id (vd_doc d') = di_id (vd_doc d) /\ vd_vec d' = vd_vec d).
  { intros d Hd. apply (in_map (fun d => (di_id (vd_doc d), vd_vec d))) in Hd. apply Hincl in Hd.
    apply in_map_iff in Hd. destruct Hd as (d' & [= A B] & C). eauto. }
  assert (Huniq : forall d d', In d ds2 -> In d' ds2 -> di_id (vd_doc d) = di_id (vd_doc d') -> d = d').
  { intros d d' Hd Hd'. exact (NoDup_map_inj (fun d => di_id (vd_doc d)) ds2 Hids2 d d' Hd Hd'). }
  assert (Hne2 : ds2 <> []) by (intros E; rewrite E in Hl; destruct ds1; [now apply Hne|cbn in Hl; lia]).
  assert (Hnum1 : forall d x, In d ds1 -> p_query P (p_normalize P q) (p_normalize P (vd_vec d)) = Some x -> is_num x = true).
  { intros d x Hd Hx. destruct (Hin d Hd) as (d' & A & _ & B). apply (Hnum d' x A). now rewrite B. }
  destruct (C26_history_exact_partial n cap P hs1 Hn Hne ltac:(fold ds1; lia) Hids1 HP1 Hm1 Ho1 Hr1 E1 q maxd limit1 S1 P1 C1 Hq L1 Hnum1) as (m1 & K1).
  destruct (C26_history_exact_partial n cap P hs2 Hn Hne2 Hlen Hids2 HP2 Hm2 Ho2 Hr2 E2 q maxd limit2 S2 P2 C2 Hq L2 Hnum) as (m2 & K2).
  exists m1, m2. intros Q1 Q2 HQ1 HQ2 HQ Hp1 Hp2.
  pose proof (Forall_inv HQ) as (A1 & A2 & A3 & A4). pose proof (Forall_inv (Forall_inv_tail HQ)) as (B1 & B2 & B3 & B4).
  destruct (K1 Q1 HQ1 A1 A2 A3 Hp1 A4) as (docs1 & dists1 & R1 & U1 & U2 & U3 & U4 & U5).
  destruct (K2 Q2 HQ2 B1 B2 B3 Hp2 B4) as (docs2 & dists2 & R2 & V1 & V2 & V3 & V4 & V5).
  exists docs1, dists1, docs2, dists2. split; [exact R1|]. split; [exact R2|].
  set (T := fun (ds : list vdoc) id x => exists d, In d ds /\ di_id (vd_doc d) = id /\
     p_query P (p_normalize P q) (p_normalize P (vd_vec d)) = Some x /\ flt x f32_zero = false /\ fgt x maxd = false).
  assert (A : lists_all (T ds1) docs1 dists1).
  { split; [exact U1|]. split; [|split; [|split; [exact U4|exact U5]]].
    - intros i o Hi. destruct (U2 i o Hi) as (s & d & x & -> & X1 & X2 & X3 & X4). exists s, x. split; [reflexivity|]. split; [exact X3|].
      exists d. now split; [|split].
    - intros id x (d & X1 & <- & X3 & X4 & X5). exact (U3 d x X1 X3 X4 X5). }
  assert (B : lists_all (T ds2) docs2 dists2).
  { split; [exact V1|]. split; [|split; [|split; [exact V4|exact V5]]].
    - intros i o Hi. destruct (V2 i o Hi) as (s & d & x & -> & X1 & X2 & X3 & X4). exists s, x. split; [reflexivity|]. split; [exact X3|].
      exists d. now split; [|split].
    - intros id x (d & X1 & <- & X3 & X4 & X5). exact (V3 d x X1 X3 X4 X5). }
  assert (HT : forall id x, T ds1 id x <-> T ds2 id x /\ In id (map (fun d => di_id (vd_doc d)) ds1)).
  { intros id x. split.
    - intros (d & X1 & <- & X3). split; [|apply in_map_iff; now exists d].
      destruct (Hin d X1) as (d' & Y1 & Y2 & Y3). exists d'. rewrite Y3. now split.
    - intros ((d & X1 & <- & X3) & Hi). apply in_map_iff in Hi. destruct Hi as (d1 & Z1 & Z2).
      destruct (Hin d1 Z2) as (d' & Y1 & Y2 & Y3). rewrite Z1 in Y2. rewrite (Huniq d' d Y1 X1 Y2) in Y3.
      exists d1. rewrite <- Y3. now split; [|split]. }
  destruct (lists_grow (T ds1) (T ds2) _ docs1 dists1 docs2 dists2 A B HT) as [T1 T2]. split; [exact T1|]. split.
  - assert (G : forall S docs dists, lists_all S docs dists -> forall id x,
      (exists i s, nth_error docs i = Some (Some s) /\ sd_id s = id /\ nth_error dists i = Some x) <-> S id x).
    { intros S docs dists (_ & G1 & G2 & _) id x. split; [|apply G2]. intros (i & s & X1 & <- & X3).
      destruct (G1 _ _ X1) as (s' & x' & [= <-] & X4 & X5). rewrite X3 in X4. injection X4 as <-. exact X5. }
    intros id x. rewrite (G _ _ _ A), (G _ _ _ B). apply HT.
  - intros Hd. apply T2. intros id id' x x' (d & X1 & <- & X3 & _) (d' & Y1 & <- & Y3 & _) Hdd. exact (Hd d d' x x' X1 Y1 Hdd X3 Y3).
Qed.
Print Assumptions C100_more_documents_partial.

(** With 62 documents it fails: 60 documents with the vector [1,0] and one with
    [0,1] in a first request, one more with [1,0] in a second, both acknowledged.
    The query for [0,1] with limit 0 and a distance that excludes nothing lists the
    document at distance 0 first after the first request, and not at all after the
    second. *)
Definition pts100 : list (list Z) := (repeat [1; 0]%Z 60 ++ [[0; 1]%Z; [1; 0]%Z])%list.
Definition tab100 : list (N * vec) := enum 0 (map q_of pts100).
Definition vd100 (p : N * list Z) : vdoc :=
  mkVD (mkDoc (decimal (fst p)) [("vector"%string, JArr (map num (snd p)))]) (map num (snd p)) (q_of (snd p))
    (mkD (ienv_of cosp tab100) 0 (fun _ => Err EVectorizer) true true).
Definition ds100 : list vdoc := map vd100 (enum 0 pts100).
Definition acked100 (r : coll * res unit) : bool := match snd r with Ok tt => true | _ => false end.
Definition head100 (st : coll) : bool :=
  match answer_ids (snd (near_by_vector (qok 61) st (q_of [0; 1]%Z) two 0)) with
  | Some (Some i :: l) => Nat.eqb (length l) 60 && String.eqb i "60" | _ => false
  end.
Definition gone100 (st : coll) : bool :=
  match answer_ids (snd (near_by_vector (qok 61) st (q_of [0; 1]%Z) two 0)) with
  | Some l => Nat.eqb (length l) 61 && forallb (fun o => match o with Some i => negb (String.eqb i "60") | None => false end) l
  | None => false
  end.
Definition check100 (r1 : coll * res unit) : bool :=
  acked100 r1 && head100 (fst r1) &&
  (let r2 := add_documents rok true [] (map vd_pair (skipn 61 ds100)) (fst r1) in acked100 r2 && gone100 (fst r2)).
Lemma st100_ok : check100 (add_documents rok true [] (map vd_pair (firstn 61 ds100)) new_coll) = true.
Proof. vm_cast_no_check (eq_refl true). Qed.

Theorem C100_lost_refuted : exists docs1 docs2, length docs1 = 61 /\ length docs2 = 1 /\
  let r1 := add_documents rok true [] docs1 new_coll in
  let r2 := add_documents rok true [] docs2 (fst r1) in
  snd r1 = Ok tt /\ snd r2 = Ok tt /\
  (exists s l dists, snd (near_by_vector (qok 61) (fst r1) (q_of [0; 1]%Z) two 0) = Ok (Some s :: l, dists) /\
     sd_id s = "60"%string /\ length l = 60) /\
  exists l dists, snd (near_by_vector (qok 61) (fst r2) (q_of [0; 1]%Z) two 0) = Ok (l, dists) /\ length l = 61 /\
     Forall (fun o => exists s, o = Some s /\ sd_id s <> "60"%string) l.
Proof.
  exists (map vd_pair (firstn 61 ds100)), (map vd_pair (skipn 61 ds100)).
  split; [vm_compute; reflexivity|]. split; [vm_compute; reflexivity|]. cbv zeta.
  pose proof st100_ok as H. revert H. generalize (add_documents rok true [] (map vd_pair (firstn 61 ds100)) new_coll).
  intros r1 H. unfold check100 in H. cbv zeta in H. revert H.
  generalize (add_documents rok true [] (map vd_pair (skipn 61 ds100)) (fst r1)). intros r2 H.
  rewrite !andb_true_iff in H. destruct H as ((H1 & H2) & H3 & H4).
  assert (K : forall r, acked100 r = true -> snd r = Ok tt).
  { intros r Hr. unfold acked100 in Hr. destruct (snd r) as [[]| | |]; [reflexivity|discriminate..]. }
  split; [now apply K|]. split; [now apply K|]. split.
  - unfold head100 in H2. destruct (snd (near_by_vector (qok 61) (fst r1) _ _ _)) as [[docs dists]|e| |]; cbn [answer_ids] in H2; try discriminate.
    destruct docs as [|[s|] docs]; cbn [map option_map] in H2; try discriminate.
    apply andb_true_iff in H2. destruct H2 as [X1 X2]. apply Nat.eqb_eq in X1. rewrite map_length in X1. apply String.eqb_eq in X2.
    exists s, docs, dists. now split; [|split].
  - unfold gone100 in H4. destruct (snd (near_by_vector (qok 61) (fst r2) _ _ _)) as [[docs dists]|e| |]; cbn [answer_ids] in H4; try discriminate.
    apply andb_true_iff in H4. destruct H4 as [X1 X2]. apply Nat.eqb_eq in X1. rewrite map_length in X1.
    exists docs, dists. split; [reflexivity|]. split; [exact X1|]. rewrite forallb_forall in X2. apply Forall_forall.
    intros o Ho. specialize (X2 _ (in_map (option_map sd_id) _ _ Ho)). destruct o as [s|]; [|discriminate].
    exists s. split; [reflexivity|]. cbn [option_map] in X2. intros E. rewrite E in X2. discriminate.
Qed.
Print Assumptions C100_lost_refuted.

(** The history of C26 up to its second add request, and the whole history with
    the restart and the third request. *)
Definition hist100 : list hreq := firstn 5 hist26.
Example C100_nonvacuous :
  incl (map (fun d => (di_id (vd_doc d), vd_vec d)) (hist_docs hist100))
       (map (fun d => (di_id (vd_doc d), vd_vec d)) (hist_docs hist26)) /\
  length (hist_docs hist100) = 3 /\ length (hist_docs hist26) = 5 /\
  hist_ok new_coll hist100 /\ hist_ok new_coll hist26 /\
  Forall (many_call 2 30 25500 (map a_id (ops_of 0 (hist_docs hist100)))) (ops_of 0 (hist_docs hist100)) /\
  (forall d d' x x', In d ds5 -> In d' ds5 -> di_id (vd_doc d) <> di_id (vd_doc d') -> dist98 d = Some x -> dist98 d' = Some x' ->
     flt x x' = true \/ flt x' x = true) /\
  answer_ids (snd (near_by_vector (qok 2) (run_reqs new_coll (hist_reqs hist100)) (q_of [0; 3]%Z) far9 0)) =
    Some [Some "b"; Some "c"]%string /\
  answer_ids (snd (near_by_vector (qok 4) (run_reqs new_coll (hist_reqs hist26)) (q_of [0; 3]%Z) far9 0)) =
    Some [Some "b"; Some "e"; Some "c"; Some "d"]%string.
Proof.
  assert (E1 : hist_docs hist100 = firstn 3 ds5) by reflexivity.
  assert (E2 : hist_docs hist26 = ds5) by reflexivity.
  assert (Hok : hist_ok new_coll hist26) by apply C26_history_nonvacuous.
  split.
  { rewrite E1, E2. intros x Hx. apply in_map_iff in Hx. destruct Hx as (d & <- & Hd). apply in_map_iff. exists d. split; [reflexivity|].
    rewrite <- (firstn_skipn 3 ds5). apply in_or_app. now left. }
  split; [reflexivity|]. split; [reflexivity|]. split.
  { unfold hist100, hist26 in *. cbn [firstn hist_ok] in Hok |- *. tauto. }
  split; [exact Hok|]. split.
  { rewrite E1. repeat constructor; try apply env_rev_sched; try exact cosp_known; try reflexivity; cbn; try lia; right; cbn; lia. }
  split; [apply C98_nonvacuous|]. split; vm_compute; reflexivity.
Qed.
