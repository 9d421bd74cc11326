(** Property C98: answers do not depend on how the documents were added. *)
From Coq Require Import String.
From Verif Require Import Base F32 PQ PQProofs Graph Search SearchProofs Insert InsertProofs InsertHist InsertTotal InsertFind
  Distancer DistancerProofs PropDistancer TestGraph TestInsert PropSearch PropInsert Persist PersistProofs
  Collections Client ClientProofs ClientSafe ClientFacts ClientReq PropClient VCache VCacheFacts ClientIds ClientSmall
  PropRequests Vectorizer VectorizerProofs PropVectorizer PropNumeric ClientMany PropHistory PropReads PropOverlap.
Local Open Scope nat_scope.

(** Two lists in the order of an asymmetric relation with the same elements. *)
Lemma ordered_eq {A} (R : A -> A -> Prop) : (forall a b, R a b -> ~ R b a) -> forall l1 l2,
  ForallOrdPairs R l1 -> ForallOrdPairs R l2 -> (forall a, In a l1 <-> In a l2) -> l1 = l2.
Proof.
  intros Has. induction l1 as [|a l1 IH]; intros l2 H1 H2 Hin.
  { destruct l2 as [|b l2]; [reflexivity|]. destruct (proj2 (Hin b) (or_introl eq_refl)). }
  destruct l2 as [|b l2]; [destruct (proj1 (Hin a) (or_introl eq_refl))|].
  inversion_clear H1 as [|? ? Ha H1']. inversion_clear H2 as [|? ? Hb H2']. rewrite Forall_forall in Ha, Hb.
  assert (E : a = b).
  { destruct (proj1 (Hin a) (or_introl eq_refl)) as [E|Hi]; [now symmetry|].
    destruct (proj2 (Hin b) (or_introl eq_refl)) as [E|Hj]; [exact E|]. exfalso. exact (Has _ _ (Ha _ Hj) (Hb _ Hi)). }
  subst b. f_equal. apply IH; [exact H1'|exact H2'|]. intros x.
  assert (N1 : ~ In a l1) by (intros H; exact (Has _ _ (Ha _ H) (Ha _ H))).
  assert (N2 : ~ In a l2) by (intros H; exact (Has _ _ (Hb _ H) (Hb _ H))).
  specialize (Hin x). cbn in Hin. split; intros H.
  - destruct (proj1 Hin (or_intror H)) as [<-|]; [contradiction|assumption].
  - destruct (proj2 Hin (or_intror H)) as [<-|]; [contradiction|assumption].
Qed.

Lemma ordpairs_nth {A} (R : A -> A -> Prop) l :
  (forall i j a b, i < j -> nth_error l i = Some a -> nth_error l j = Some b -> R a b) -> ForallOrdPairs R l.
Proof.
  induction l as [|a l IH]; intros H; constructor.
  - apply Forall_forall. intros b Hb. apply In_nth_error in Hb. destruct Hb as (j & Hj).
    exact (H 0 (S j) a b ltac:(lia) eq_refl Hj).
  - apply IH. intros i j x y Hij. exact (H (S i) (S j) x y ltac:(lia)).
Qed.

(** An answer lists exactly [S], nothing twice, in ascending order.
    Not in the code: used in statements about document.go:456-651. *)
Definition lists_all (S : string -> f32 -> Prop) (docs : list (option sdoc)) (dists : list f32) : Prop :=
  length docs <= length dists /\
  (forall i o, nth_error docs i = Some o -> exists s x, o = Some s /\ nth_error dists i = Some x /\ S (sd_id s) x) /\
  (forall id x, S id x -> exists i s, nth_error docs i = Some (Some s) /\ sd_id s = id /\ nth_error dists i = Some x) /\
  (forall i j s t, nth_error docs i = Some (Some s) -> nth_error docs j = Some (Some t) -> sd_id s = sd_id t -> i = j) /\
  (forall i j x y, i < j < length docs -> nth_error dists i = Some x -> nth_error dists j = Some y -> flt y x = false).

Lemma nth_combine {A B} (l : list A) : forall (m : list B) i x y,
  nth_error (combine l m) i = Some (x, y) <-> nth_error l i = Some x /\ nth_error m i = Some y.
Proof.
  induction l as [|a l IH]; intros m i x y; cbn [combine].
  { destruct i; cbn; split; [discriminate|intros [[=] _]|discriminate|intros [[=] _]]. }
  destruct m as [|b m].
  { destruct i; cbn; split; [discriminate|intros [_ [=]]|discriminate|intros [_ [=]]]. }
  destruct i; cbn [nth_error]; [|apply IH]. split; [now intros [= <- <-]|now intros [[= <-] [= <-]]].
Qed.
Lemma combine_fst {A B} (l : list A) : forall (m : list B), length l <= length m -> map fst (combine l m) = l.
Proof. induction l as [|a l IH]; intros [|b m] H; cbn in *; try lia; auto. f_equal. apply IH. lia. Qed.
Lemma combine_snd {A B} (l : list A) : forall (m : list B), length l <= length m -> map snd (combine l m) = firstn (length l) m.
Proof. induction l as [|a l IH]; intros [|b m] H; cbn in *; try lia; auto. f_equal. apply IH. lia. Qed.

Section Lists.
  Variable S : string -> f32 -> Prop.
  Let entries (docs : list (option sdoc)) (dists : list f32) := combine (map (option_map sd_id) docs) dists.
  Lemma entries_nth docs dists i o x : nth_error (entries docs dists) i = Some (o, x) <->
    exists d, nth_error docs i = Some d /\ option_map sd_id d = o /\ nth_error dists i = Some x.
  Proof.
    unfold entries. rewrite nth_combine, nth_error_map. destruct (nth_error docs i) as [d|]; cbn [option_map].
    - split; [intros ([= <-] & H); eauto|intros (d' & [= <-] & <- & H); auto].
    - split; [intros ([=] & _)|intros (d & [=] & _)].
  Qed.
  Lemma entries_in docs dists : lists_all S docs dists -> forall p, In p (entries docs dists) <-> exists id x, p = (Some id, x) /\ S id x.
  Proof.
    intros (_ & H1 & H2 & _) [o x]. split.
    - intros Hin. apply In_nth_error in Hin. destruct Hin as (i & Hi). apply entries_nth in Hi. destruct Hi as (d & Hd & <- & Hx).
      destruct (H1 _ _ Hd) as (s & y & -> & Hy & HS). rewrite Hx in Hy. injection Hy as <-. cbn. eauto.
    - intros (id & y & [= -> ->] & HS). destruct (H2 _ _ HS) as (i & s & K1 & K2 & K3).
      apply (nth_error_In _ i). apply entries_nth. exists (Some s). cbn. now rewrite K2.
  Qed.
  Lemma entries_nodup docs dists : lists_all S docs dists -> NoDup (entries docs dists).
  Proof.
    intros (_ & H1 & _ & H3 & _). apply NoDup_nth_error. intros i j Hi E.
    destruct (nth_error (entries docs dists) i) as [[o x]|] eqn:Ei; [|apply nth_error_None in Ei; lia]. symmetry in E.
    apply entries_nth in Ei, E. destruct Ei as (d & A1 & A2 & _), E as (d' & B1 & B2 & _).
    destruct (H1 _ _ A1) as (s & _ & -> & _), (H1 _ _ B1) as (t & _ & -> & _). cbn in A2, B2.
    apply (H3 i j s t A1 B1). congruence.
  Qed.
  Lemma entries_length docs dists : lists_all S docs dists -> length (entries docs dists) = length docs.
  Proof. intros (H & _). unfold entries. rewrite combine_length, map_length. lia. Qed.
  Lemma entries_ordered docs dists : lists_all S docs dists ->
    (forall id id' x x', S id x -> S id' x' -> id <> id' -> flt x x' = true \/ flt x' x = true) ->
    ForallOrdPairs (fun p q => flt (snd p) (snd q) = true) (entries docs dists).
  Proof.
    intros Ha Hd. pose proof Ha as (H0 & H1 & _ & H3 & H4). apply ordpairs_nth. intros i j [o x] [o' y] Hij Hi Hj. cbn [snd].
    apply entries_nth in Hi, Hj. destruct Hi as (d & A1 & A2 & A3), Hj as (d' & B1 & B2 & B3).
    destruct (H1 _ _ A1) as (s & x1 & -> & K1 & K2), (H1 _ _ B1) as (t & y1 & -> & K3 & K4).
    rewrite A3 in K1. injection K1 as <-. rewrite B3 in K3. injection K3 as <-.
    destruct (Hd _ _ _ _ K2 K4) as [H|H]; [intros E; pose proof (H3 _ _ _ _ A1 B1 E); lia|exact H|].
    rewrite (H4 i j x y) in H; [discriminate|split; [exact Hij|apply nth_error_Some; congruence]|assumption..].
  Qed.

  Lemma lists_same docs1 dists1 docs2 dists2 : lists_all S docs1 dists1 -> lists_all S docs2 dists2 ->
    length docs1 = length docs2 /\
    ((forall id id' x x', S id x -> S id' x' -> id <> id' -> flt x x' = true \/ flt x' x = true) ->
     map (option_map sd_id) docs1 = map (option_map sd_id) docs2 /\
     firstn (length docs1) dists1 = firstn (length docs2) dists2).
  Proof.
    intros A1 A2. assert (Hin : forall p, In p (entries docs1 dists1) <-> In p (entries docs2 dists2)).
    { intros p. rewrite (entries_in _ _ A1), (entries_in _ _ A2). tauto. }
    split.
    - rewrite <- (entries_length _ _ A1), <- (entries_length _ _ A2). apply Nat.le_antisymm; apply NoDup_incl_length;
        try now apply entries_nodup. all: intros p; apply Hin.
    - intros Hd. assert (E : entries docs1 dists1 = entries docs2 dists2).
      { apply (ordered_eq (fun p q => flt (snd p) (snd q) = true)); [|now apply entries_ordered..|exact Hin].
        intros a b H1 H2. rewrite (flt_asym _ _ H1) in H2. discriminate. }
      unfold entries in E. destruct A1 as (L1 & _), A2 as (L2 & _). split.
      + rewrite <- (combine_fst (map (option_map sd_id) docs1) dists1), <- (combine_fst (map (option_map sd_id) docs2) dists2)
          by now rewrite map_length. now rewrite E.
      + rewrite <- (map_length (option_map sd_id) docs1), <- (map_length (option_map sd_id) docs2).
        rewrite <- !combine_snd by now rewrite map_length. now rewrite E.
  Qed.
End Lists.

(* ------------------------------------------------------------------ *)
(** Two histories of requests ([hist_ok], see C26) that add the same documents,
    each with the same vector, in any order, in any requests, with any random
    layers, restarts and queries in between.  Then a query by vector lists the same
    documents with the same distances after both; and the same lists, if no two
    documents have the same distance.
    Missing: more than 61 documents; false for them (below). *)
Theorem C98_same_answers_partial : forall n cap P hs1 hs2,
  let ds1 := hist_docs hs1 in let ds2 := hist_docs hs2 in
  0 < n -> ds1 <> [] -> length ds1 <= 61 -> NoDup (map (fun d => di_id (vd_doc d)) ds1) ->
  Permutation (map (fun d => (di_id (vd_doc d), vd_vec d)) ds1) (map (fun d => (di_id (vd_doc d), vd_vec d)) ds2) ->
  Forall (fun d => e_prov (i_env (do_env (vd_orc d))) = P) (ds1 ++ ds2) ->
  Forall (many_call n 30 cap (map a_id (ops_of 0 ds1))) (ops_of 0 ds1) -> hist_ok new_coll hs1 ->
  Forall (many_call n 30 cap (map a_id (ops_of 0 ds2))) (ops_of 0 ds2) -> hist_ok new_coll hs2 ->
  let st1 := run_reqs new_coll (hist_reqs hs1) in let st2 := run_reqs new_coll (hist_reqs hs2) in
  (c_open st1 = true -> c_reg st1 = true) -> (c_open st2 = true -> c_reg st2 = true) ->
  forall E1 E2 q maxd limit1 limit2,
    sched_ok E1 -> e_prov E1 = P -> e_vcap E1 = cap -> sched_ok E2 -> e_prov E2 = P -> e_vcap E2 = cap -> length q = n ->
    (limit1 = 0 \/ Z.of_nat (length ds1) <= limit1)%Z -> (limit2 = 0 \/ Z.of_nat (length ds1) <= limit2)%Z ->
    (forall d x, In d ds1 -> p_query P (p_normalize P q) (p_normalize P (vd_vec d)) = Some x -> is_num x = true) ->
    exists m1 m2, forall Q1 Q2, q_env Q1 = E1 -> q_env Q2 = E2 ->
      Forall (fun Q => r_kvopen (q_open Q) = true /\ r_isopen (q_open Q) = true /\ r_docopen (q_open Q) = true /\
                       forall i, q_ok Q i = true) [Q1; Q2] ->
      Permutation (q_order Q1) (seq 0 m1) -> Permutation (q_order Q2) (seq 0 m2) ->
      exists docs1 dists1 docs2 dists2,
        snd (near_by_vector Q1 st1 q maxd limit1) = Ok (docs1, dists1) /\
        snd (near_by_vector Q2 st2 q maxd limit2) = Ok (docs2, dists2) /\
        length docs1 = length docs2 /\
        (forall id x,
          (exists i s, nth_error docs1 i = Some (Some s) /\ sd_id s = id /\ nth_error dists1 i = Some x) <->
          (exists i s, nth_error docs2 i = Some (Some s) /\ sd_id s = id /\ nth_error dists2 i = Some x)) /\
        ((forall d d' x x', In d ds1 -> In d' ds1 -> di_id (vd_doc d) <> di_id (vd_doc d') ->
            p_query P (p_normalize P q) (p_normalize P (vd_vec d)) = Some x ->
            p_query P (p_normalize P q) (p_normalize P (vd_vec d')) = Some x' -> flt x x' = true \/ flt x' x = true) ->
         map (option_map sd_id) docs1 = map (option_map sd_id) docs2 /\
         firstn (length docs1) dists1 = firstn (length docs2) dists2).
Proof.
  intros n cap P hs1 hs2 ds1 ds2 Hn Hne Hlen Hids Hperm HP Hm1 Ho1 Hm2 Ho2 st1 st2 Hr1 Hr2
    E1 E2 q maxd limit1 limit2 S1 P1 C1 S2 P2 C2 Hq L1 L2 Hnum.
  apply Forall_app in HP. destruct HP as [HP1 HP2].
  assert (Hl : length ds2 = length ds1).
  { apply Permutation_length in Hperm. now rewrite !map_length in Hperm. }
  assert (Hin : forall d, In d ds2 -> exists d', In d' ds1 /\ di_id (vd_doc d') = di_id (vd_doc d) /\ vd_vec d' = vd_vec d).
  { intros d Hd. apply (in_map (fun d => (di_id (vd_doc d), vd_vec d))) in Hd. apply (Permutation_in _ (Permutation_sym Hperm)) in Hd.
    apply in_map_iff in Hd. destruct Hd as (d' & [= A B] & C). eauto. }
  assert (Hin2 : forall d, In d ds1 -> exists d', In d' ds2 /\ di_id (vd_doc d') = di_id (vd_doc d) /\ vd_vec d' = vd_vec d).
  { intros d Hd. apply (in_map (fun d => (di_id (vd_doc d), vd_vec d))) in Hd. apply (Permutation_in _ Hperm) in Hd.
    apply in_map_iff in Hd. destruct Hd as (d' & [= A B] & C). eauto. }
  assert (Hne2 : ds2 <> []).
  { intros E. apply Hne. destruct ds1; [reflexivity|]. rewrite E in Hl. discriminate. }
  assert (Hids2 : NoDup (map (fun d => di_id (vd_doc d)) ds2)).
  { apply (Permutation_map fst) in Hperm. rewrite !map_map in Hperm. cbn [fst] in Hperm. exact (Permutation_NoDup Hperm Hids). }
  assert (Hnum2 : forall d x, In d ds2 -> p_query P (p_normalize P q) (p_normalize P (vd_vec d)) = Some x -> is_num x = true).
  { intros d x Hd Hx. destruct (Hin d Hd) as (d' & A & _ & B). apply (Hnum d' x A). now rewrite B. }
  destruct (C26_history_exact_partial n cap P hs1 Hn Hne Hlen Hids HP1 Hm1 Ho1 Hr1 E1 q maxd limit1 S1 P1 C1 Hq L1 Hnum) as (m1 & K1).
  destruct (C26_history_exact_partial n cap P hs2 Hn Hne2 ltac:(fold ds2; lia) Hids2 HP2 Hm2 Ho2 Hr2 E2 q maxd limit2 S2 P2 C2 Hq
    ltac:(fold ds2; rewrite Hl; exact L2) Hnum2) as (m2 & K2).
  exists m1, m2. intros Q1 Q2 HQ1 HQ2 HQ Hp1 Hp2.
  pose proof (Forall_inv HQ) as (A1 & A2 & A3 & A4). pose proof (Forall_inv (Forall_inv_tail HQ)) as (B1 & B2 & B3 & B4).
  destruct (K1 Q1 HQ1 A1 A2 A3 Hp1 A4) as (docs1 & dists1 & R1 & U1 & U2 & U3 & U4 & U5).
  destruct (K2 Q2 HQ2 B1 B2 B3 Hp2 B4) as (docs2 & dists2 & R2 & V1 & V2 & V3 & V4 & V5).
  exists docs1, dists1, docs2, dists2. split; [exact R1|]. split; [exact R2|].
  set (S := fun id x => exists d, In d ds1 /\ di_id (vd_doc d) = id /\ p_query P (p_normalize P q) (p_normalize P (vd_vec d)) = Some x /\
     flt x f32_zero = false /\ fgt x maxd = false).
  assert (A : lists_all S docs1 dists1).
  { split; [exact U1|]. split; [|split; [|split; [exact U4|exact U5]]].
    - intros i o Hi. destruct (U2 i o Hi) as (s & d & x & -> & X1 & X2 & X3 & X4). exists s, x. split; [reflexivity|]. split; [exact X3|].
      exists d. now split; [|split].
    - intros id x (d & X1 & <- & X3 & X4 & X5). exact (U3 d x X1 X3 X4 X5). }
  assert (B : lists_all S docs2 dists2).
  { split; [exact V1|]. split; [|split; [|split; [exact V4|exact V5]]].
    - intros i o Hi. destruct (V2 i o Hi) as (s & d & x & -> & X1 & X2 & X3 & X4). exists s, x. split; [reflexivity|]. split; [exact X3|].
      destruct (Hin d X1) as (d' & Y1 & Y2 & Y3). exists d'. rewrite Y3. split; [exact Y1|]. split; [congruence|exact X4].
    - intros id x (d & X1 & <- & X3 & X4 & X5). destruct (Hin2 d X1) as (d' & Y1 & Y2 & Y3). rewrite <- Y3 in X3. rewrite <- Y2.
      exact (V3 d' x Y1 X3 X4 X5). }
  destruct (lists_same S docs1 dists1 docs2 dists2 A B) as [T1 T2]. split; [exact T1|]. split.
  - assert (G : forall docs dists, lists_all S docs dists -> forall id x,
      (exists i s, nth_error docs i = Some (Some s) /\ sd_id s = id /\ nth_error dists i = Some x) <-> S id x).
    { intros docs dists (_ & G1 & G2 & _) id x. split; [|apply G2]. intros (i & s & X1 & <- & X3).
      destruct (G1 _ _ X1) as (s' & x' & [= <-] & X4 & X5). rewrite X3 in X4. injection X4 as <-. exact X5. }
    intros id x. rewrite (G _ _ A), (G _ _ B). tauto.
  - intros Hd. apply T2. intros id id' x x' (d & X1 & <- & X3 & _) (d' & Y1 & <- & Y3 & _) Hdd. exact (Hd d d' x x' X1 Y1 Hdd X3 Y3).
Qed.
Print Assumptions C98_same_answers_partial.

(** With 62 documents the random layers decide: one request with the same
    documents, acknowledged both times, once with all on the ground layer and once
    with the last one on layer 1, lists the last document or does not. *)
Theorem C98_layers_refuted : exists docs1 docs2, map fst docs1 = map fst docs2 /\ length docs1 = 62 /\
  snd (add_documents rok true [] docs1 new_coll) = Ok tt /\ snd (add_documents rok true [] docs2 new_coll) = Ok tt /\
  found 61 (fst (add_documents rok true [] docs1 new_coll)) "61" False /\
  found 62 (fst (add_documents rok true [] docs2 new_coll)) "61" True.
Proof.
  exists (map vd_pair ds62), docs62. split; [vm_compute; reflexivity|]. split; [vm_compute; reflexivity|].
  pose proof st62_lost as H1. apply lost62_spec in H1. destruct H1 as (A1 & A2). split; [exact A1|].
  destruct (A2 _ (or_introl eq_refl)) as (docs & dists & A3 & A4 & A5).
  pose proof st85_ok as K. apply andb_true_iff in K as (K0 & K). rewrite same62 in K. revert K.
  assert (B1 : snd (add_documents rok true [] docs62 new_coll) = Ok tt).
  { unfold acked, add62 in K0. fold docs62 in K0. destruct (snd (add_documents rok true [] docs62 new_coll)) as [[]| | |]; [reflexivity|discriminate..]. }
  split; [exact B1|]. split.
  - exists docs, dists. split; [exact A3|]. split; [exact A4|]. split; [|tauto].
    intros (s & Hs & E). rewrite Forall_forall in A5. destruct (A5 _ Hs) as (s' & [= <-] & Hx). apply Hx. rewrite E. reflexivity.
  - revert K. generalize (fst (add_documents rok true [] docs62 new_coll)). intros st' K. unfold check85 in K. cbv zeta in K.
    rewrite !andb_true_iff in K. destruct K as (((((((K1 & _) & _) & _) & _) & _) & _) & _).
    apply finds_spec in K1. destruct K1 as (d & x & Ha & Hb & Hc). exists d, x. split; [exact Ha|]. split; [exact Hb|]. tauto.
Qed.
Print Assumptions C98_layers_refuted.

(** The five documents of C26 in three requests with a restart in between, and in
    one request in the opposite order. *)
Definition hist98 : list hreq := [HAdd rok true [] (rev ds5)].
Definition far9 : f32 := f32_div (f32_of_Z 9) (f32_of_Z 10).
Definition dist98 (d : vdoc) : option f32 := p_query cosp (p_normalize cosp (q_of [0; 3]%Z)) (p_normalize cosp (vd_vec d)).
Example C98_nonvacuous :
  Permutation (map (fun d => (di_id (vd_doc d), vd_vec d)) (hist_docs hist26))
              (map (fun d => (di_id (vd_doc d), vd_vec d)) (hist_docs hist98)) /\
  hist_ok new_coll hist98 /\
  Forall (many_call 2 30 25500 (map a_id (ops_of 0 (hist_docs hist98)))) (ops_of 0 (hist_docs hist98)) /\
  (forall d d' x x', In d ds5 -> In d' ds5 -> di_id (vd_doc d) <> di_id (vd_doc d') -> dist98 d = Some x -> dist98 d' = Some x' ->
     flt x x' = true \/ flt x' x = true) /\
  answer_ids (snd (near_by_vector (qok 4) (run_reqs new_coll (hist_reqs hist26)) (q_of [0; 3]%Z) far9 0)) =
    Some [Some "b"; Some "e"; Some "c"; Some "d"]%string /\
  answer_ids (snd (near_by_vector (qok 4) (run_reqs new_coll (hist_reqs hist98)) (q_of [0; 3]%Z) far9 0)) =
    Some [Some "b"; Some "e"; Some "c"; Some "d"]%string.
Proof.
  assert (E1 : hist_docs hist26 = ds5) by reflexivity.
  assert (E2 : hist_docs hist98 = rev ds5) by reflexivity.
  assert (Hv : Forall (vt_ok true []) ds5) by apply C26_one_request_nonvacuous.
  split; [rewrite E1, E2, map_rev; apply Permutation_rev|]. split.
  { apply hist_add; [discriminate|exact rok_ok| |vm_compute; reflexivity|exact I].
    apply Forall_forall. intros d Hd. apply in_rev in Hd. rewrite Forall_forall in Hv. now apply Hv. }
  split.
  { rewrite E2. repeat constructor; try apply env_rev_sched; try exact cosp_known; try reflexivity; cbn; try lia; right; cbn; lia. }
  split; [|split; vm_compute; reflexivity].
  assert (H : forallb (fun d => forallb (fun d' => String.eqb (di_id (vd_doc d)) (di_id (vd_doc d')) ||
     match dist98 d, dist98 d' with Some x, Some x' => flt x x' || flt x' x | _, _ => true end) ds5) ds5 = true) by (vm_compute; reflexivity).
  intros d d' x x' Hd Hd' Hi Hx Hx'. rewrite forallb_forall in H. specialize (H d Hd). rewrite forallb_forall in H. specialize (H d' Hd').
  rewrite Hx, Hx' in H. apply orb_true_iff in H. destruct H as [H|H]; [apply String.eqb_eq in H; contradiction|]. now apply orb_true_iff.
Qed.
