(** Property C99, the limit by text, for documents at different distances. *)
From Coq Require Import String Sorted.
From Verif Require Import Base F32 PQ PQProofs Graph Search SearchProofs SearchLayer SearchKnn
  SearchCong Insert HeuristicProofs InsertProofs InsertHist InsertTotal InsertDim InsertSmall InsertFacts InsertFind
  Distancer DistancerProofs PropDistancer TestGraph TestInsert PropSearch PropInsert PropFind
  Persist PersistProofs PersistHist LRU LRUProofs PropPersist InsertRestart Collections
  Client ClientProofs ClientSafe ClientFacts ClientReq PropClient VCache VCacheProofs VCacheFacts ClientIds ClientSmall ClientMany
  Vectorizer VectorizerProofs PropVectorizer PropHistory PropTextLimit ClientComplete PropTextHistory PropCut.
Local Open Scope nat_scope.

(** Sorted lists of the nearest. Not in the code: used in statements about the answers
    of document.go:462-555. *)
Definition nearer (a b : string * f32) : Prop := flt (snd b) (snd a) = false.
Definition nearest (S : string * f32 -> Prop) (limit : nat) (l : list (string * f32)) : Prop :=
  (forall p, In p l -> S p) /\ NoDup l /\ StronglySorted nearer l /\ length l <= limit /\
  (forall p, S p -> In p l \/ length l = limit /\ forall r, In r l -> nearer r p).

Lemma closed_prefix (S : string * f32 -> Prop) l1 : forall l2,
  (forall p r, S p -> S r -> p = r \/ flt (snd p) (snd r) = true \/ flt (snd r) (snd p) = true) ->
  (forall p, In p l2 -> S p) -> incl l1 l2 -> NoDup l1 -> NoDup l2 -> StronglySorted nearer l1 -> StronglySorted nearer l2 ->
  (forall p r, In p l1 -> In r l2 -> flt (snd r) (snd p) = true -> In r l1) -> l1 = firstn (length l1) l2.
Proof.
  induction l1 as [|a t1 IH]; intros l2 HD HS Hi N1 N2 S1 S2 Hc; [reflexivity|].
  destruct l2 as [|b t2]; [destruct (Hi a (or_introl eq_refl))|].
  inversion N1 as [|? ? Na N1']; subst. inversion N2 as [|? ? Nb N2']; subst.
  inversion S1 as [|? ? S1' F1]; subst. inversion S2 as [|? ? S2' F2]; subst. rewrite Forall_forall in F1, F2.
  assert (a = b).
  { destruct (Hi a (or_introl eq_refl)) as [->|Ha]; [reflexivity|].
    destruct (HD a b (HS a (or_intror Ha)) (HS b (or_introl eq_refl))) as [->|[Hab|Hba]]; [reflexivity| |].
    - specialize (F2 a Ha). unfold nearer in F2. congruence.
    - destruct (Hc a b (or_introl eq_refl) (or_introl eq_refl) Hba) as [->|Hb]; [reflexivity|].
      specialize (F1 b Hb). unfold nearer in F1. congruence. }
  subst b. cbn [length firstn]. f_equal. apply IH; auto.
  - intros p Hp. apply HS. now right.
  - intros p Hp. destruct (Hi p (or_intror Hp)) as [<-|]; [contradiction|assumption].
  - intros p r Hp Hr Hlt. destruct (Hc p r (or_intror Hp) (or_intror Hr) Hlt) as [<-|]; [contradiction|assumption].
Qed.

Lemma nearest_prefix (S : string * f32 -> Prop) k1 k2 l1 l2 :
  (forall p r, S p -> S r -> p = r \/ flt (snd p) (snd r) = true \/ flt (snd r) (snd p) = true) ->
  k1 <= k2 -> nearest S k1 l1 -> nearest S k2 l2 -> l1 = firstn (length l1) l2.
Proof.
  intros HD Hk (A1 & A2 & A3 & A4 & A5) (B1 & B2 & B3 & B4 & B5).
  assert (Hdown : forall p r, In p l1 -> In r l2 -> flt (snd r) (snd p) = true -> In r l1).
  { intros p r Hp Hr Hlt. destruct (A5 r (B1 r Hr)) as [|(_ & Hall)]; [assumption|].
    specialize (Hall p Hp). unfold nearer in Hall. congruence. }
  apply (closed_prefix S); auto. intros p Hp. destruct (B5 p (A1 p Hp)) as [|(Hl & Hall)]; [assumption|].
  assert (Hi : incl l2 l1).
  { intros r Hr. specialize (Hall r Hr). unfold nearer in Hall.
    destruct (HD p r (A1 p Hp) (B1 r Hr)) as [<-|[Hx|Hx]]; [exact Hp|congruence|]. exact (Hdown p r Hp Hr Hx). }
  refine (NoDup_length_incl B2 _ Hi p Hp). lia.
Qed.

(** The documents in the distance, by name. Not in the code, as above. *)
Definition in_distance (P : provider) (ds : list vdoc) (q : vec) (maxd : f32) (p : string * f32) : Prop :=
  exists d, In d ds /\ di_id (vd_doc d) = fst p /\ p_query P (p_normalize P q) (p_normalize P (vd_vec d)) = Some (snd p) /\
    flt (snd p) f32_zero = false /\ fgt (snd p) maxd = false.

Lemma limit_nearest P ds q maxd limit docs dists : (1 <= limit)%Z ->
  (forall d x, In d ds -> p_query P (p_normalize P q) (p_normalize P (vd_vec d)) = Some x -> flt x f32_zero = false) ->
  limit_answer P ds q maxd limit docs dists ->
  exists l, map (option_map sd_id) docs = map (fun p => Some (fst p)) l /\ firstn (length docs) dists = map snd l /\
    nearest (in_distance P ds q maxd) (Z.to_nat limit) l.
Proof.
  intros Hlim Hz (H1 & H2 & H3 & H4 & H5).
  set (name := fun o : option sdoc => match o with Some s => sd_id s | None => ""%string end).
  set (l := combine (map name docs) dists).
  assert (Hnth : forall i s x, nth_error docs i = Some (Some s) -> nth_error dists i = Some x -> nth_error l i = Some (sd_id s, x)).
  { intros i s x Hi Hx. apply nth_combine; [|exact Hx]. rewrite nth_error_map, Hi. reflexivity. }
  assert (Hinv : forall i p, nth_error l i = Some p -> exists s d, nth_error docs i = Some (Some s) /\ sd_id s = fst p /\ nth_error dists i = Some (snd p) /\
     In d ds /\ di_id (vd_doc d) = fst p /\ p_query P (p_normalize P q) (p_normalize P (vd_vec d)) = Some (snd p) /\
     flt (snd p) f32_zero = false /\ fgt (snd p) maxd = false).
  { intros i p Hp. apply nth_combine_inv in Hp. destruct Hp as [Hp1 Hp2]. rewrite nth_error_map in Hp1.
    destruct (nth_error docs i) as [o|] eqn:Eo; [|discriminate]. cbn in Hp1. injection Hp1 as Hp1.
    destruct (H2 i o Eo) as (s & d & x & -> & X1 & X2 & X3 & X4 & X5 & X6). cbn [name] in Hp1.
    assert (x = snd p) by congruence. subst x. exists s, d. repeat split; auto; congruence. }
  assert (Hle : length docs <= length dists).
  { destruct (Nat.le_gt_cases (length docs) (length dists)) as [|Hgt]; [assumption|exfalso].
    destruct (nth_error docs (length dists)) as [o|] eqn:Eo; [|apply nth_error_None in Eo; lia].
    destruct (H2 _ _ Eo) as (s & d & x & _ & _ & _ & Hx & _). assert (length dists < length dists) by (apply nth_error_Some; congruence). lia. }
  assert (Hlen : length l = length docs) by (unfold l; rewrite combine_length, map_length; lia).
  assert (Hfst : NoDup (map fst l)).
  { apply NoDup_nth_error. intros i j Hi Hij. rewrite map_length in Hi. rewrite !nth_error_map in Hij.
    destruct (nth_error l i) as [p|] eqn:Ei; [|apply nth_error_None in Ei; lia]. cbn in Hij.
    destruct (nth_error l j) as [r|] eqn:Ej; [|discriminate]. cbn in Hij. injection Hij as Hij.
    destruct (Hinv i p Ei) as (s & _ & Y1 & Y2 & _), (Hinv j r Ej) as (t & _ & Z1 & Z2 & _).
    apply (H3 i j s t); auto. congruence. }
  exists l. split; [|split].
  - apply nth_error_ext'. intros i. rewrite !nth_error_map. destruct (nth_error l i) as [p|] eqn:Ei; cbn [option_map].
    + destruct (Hinv i p Ei) as (s & _ & Y1 & Y2 & _). rewrite Y1. cbn. now rewrite Y2.
    + apply nth_error_None in Ei. rewrite (proj2 (nth_error_None docs i)) by lia. reflexivity.
  - rewrite <- Hlen. apply nth_error_ext'. intros i. rewrite nth_error_map. destruct (nth_error l i) as [p|] eqn:Ei; cbn [option_map].
    + rewrite nth_error_firstn_lt by (apply nth_error_Some; congruence). destruct (Hinv i p Ei) as (s & _ & _ & _ & Y3 & _). exact Y3.
    + apply nth_error_None in Ei. apply nth_error_None. rewrite firstn_length. lia.
  - split; [|split; [|split; [|split]]].
    + intros p Hp. apply In_nth_error in Hp. destruct Hp as (i & Hi). destruct (Hinv i p Hi) as (s & d & _ & _ & _ & Y). exists d. exact Y.
    + eapply NoDup_map_inv; exact Hfst.
    + assert (G : forall i j p r, i < j -> nth_error l i = Some p -> nth_error l j = Some r -> nearer p r).
      { intros i j p r Hij Hi Hj. destruct (Hinv i p Hi) as (_ & _ & _ & _ & Y & _), (Hinv j r Hj) as (_ & _ & _ & _ & Z & _).
        apply (H4 i j); auto. split; [exact Hij|]. rewrite <- Hlen. apply nth_error_Some. congruence. }
      clear - G. induction l as [|a t IH]; constructor.
      * apply IH. intros i j p r Hij Hi Hj. apply (G (S i) (S j)); auto. lia.
      * apply Forall_forall. intros x Hx. apply In_nth_error in Hx. destruct Hx as (i & Hi). apply (G 0 (S i)); auto. lia.
    + lia.
    + intros p (d & D1 & D2 & D3 & D4 & D5). destruct (H5 d (snd p) D1 D3 D4 D5) as [(i & s & Y1 & Y2 & Y3)|(others & O1 & O2 & O3 & O4)].
      * left. apply (nth_error_In l i). rewrite (Hnth i s (snd p) Y1 Y3), Y2, D2. now destruct p.
      * right. assert (Hin : forall nm, In nm others -> exists y, In (nm, y) l /\ flt (snd p) y = false).
        { intros nm Hnm. destruct (O4 nm Hnm) as (e & y & E1 & E2 & E3 & E4 & E5). destruct (E5 (Hz e y E1 E3)) as (i & s & Y1 & Y2 & Y3).
          exists y. split; [|exact E4]. apply (nth_error_In l i). rewrite (Hnth i s y Y1 Y3). now rewrite Y2. }
        assert (Hi : incl others (map fst l)).
        { intros nm Hnm. destruct (Hin nm Hnm) as (y & Hy & _). exact (in_map fst _ _ Hy). }
        pose proof (NoDup_incl_length O1 Hi) as Hll. rewrite map_length in Hll. split; [lia|].
        intros r Hr. assert (Hrn : In (fst r) others).
        { refine (NoDup_length_incl O1 _ Hi (fst r) (in_map fst _ _ Hr)). rewrite map_length. lia. }
        destruct (Hin _ Hrn) as (y & Hy & Hf).
        assert (y = snd r).
        { apply In_nth_error in Hr, Hy. destruct Hr as (i & Er), Hy as (j & Ey).
          assert (i = j); [|subst j; rewrite Er in Ey; injection Ey as ->; reflexivity].
          apply (proj1 (NoDup_nth_error _) Hfst); [rewrite map_length; apply nth_error_Some; congruence|].
          rewrite !nth_error_map, Er, Ey. reflexivity. }
        subst y. exact Hf.
Qed.

(** A history as in [C67_history_limit_partial], and a query to which no two documents
    are equally far and none has a negative computed distance: the answer by text for a
    limit begins the answer for every greater limit.
    Missing: more than 30 documents; equal distances, for which it is false
    ([C99_text_limit_refuted]). *)
Theorem C99_text_limit_partial : forall n cap P (V : string -> http) hs,
  let ds := hist_docs hs in
  0 < n -> ds <> [] -> length ds <= 30 -> NoDup (map (fun d => di_id (vd_doc d)) ds) ->
  Forall (fun d => e_prov (i_env (do_env (vd_orc d))) = P) ds ->
  Forall (fun d => (30 <= i_efc (do_env (vd_orc d)))%Z) ds ->
  Forall (many_call n 30 cap (map a_id (ops_of 0 ds))) (ops_of 0 ds) -> hist_ok new_coll hs ->
  let st := run_reqs new_coll (hist_reqs hs) in
  (c_open st = true -> c_reg st = true) ->
  forall E1 E2 text q maxd limit1 limit2, sched_ok E1 -> e_prov E1 = P -> e_vcap E1 = cap ->
    sched_ok E2 -> e_prov E2 = P -> e_vcap E2 = cap ->
    corpi (V text) = Ok (Some q) -> length q = n -> (1 <= limit1 <= limit2)%Z ->
    (forall d x, In d ds -> p_query P (p_normalize P q) (p_normalize P (vd_vec d)) = Some x ->
       is_num x = true /\ flt x f32_zero = false) ->
    (forall d e x y, In d ds -> In e ds -> di_id (vd_doc d) <> di_id (vd_doc e) ->
       p_query P (p_normalize P q) (p_normalize P (vd_vec d)) = Some x ->
       p_query P (p_normalize P q) (p_normalize P (vd_vec e)) = Some y -> flt x y = true \/ flt y x = true) ->
    exists m1 m2, forall Q1 Q2, q_env Q1 = E1 -> q_env Q2 = E2 ->
      r_kvopen (q_open Q1) = true -> r_isopen (q_open Q1) = true -> r_docopen (q_open Q1) = true ->
      r_kvopen (q_open Q2) = true -> r_isopen (q_open Q2) = true -> r_docopen (q_open Q2) = true ->
      Permutation (q_order Q1) (seq 0 m1) -> (forall i, q_ok Q1 i = true) ->
      Permutation (q_order Q2) (seq 0 m2) -> (forall i, q_ok Q2 i = true) ->
      exists docs1 dists1 docs2 dists2,
        snd (near_by_text Q1 true (corpi (V text)) st maxd limit1) = Ok (docs1, dists1) /\
        snd (near_by_text Q2 true (corpi (V text)) st maxd limit2) = Ok (docs2, dists2) /\
        length docs1 = m1 /\ length docs2 = m2 /\ m1 <= m2 /\
        map (option_map sd_id) docs1 = firstn m1 (map (option_map sd_id) docs2) /\
        firstn m1 dists1 = firstn m1 dists2.
Proof.
  intros n cap P V hs ds Hn Hne Hlen Hids HP Hefc Hf Hok st Hreg E1 E2 text q maxd limit1 limit2 Hs1 HP1 Hc1 Hs2 HP2 Hc2 Hc Hq Hlim Hnum Hdif.
  destruct (C67_history_limit_partial n cap P V hs Hn Hne Hlen Hids HP Hefc Hf Hok Hreg E1 text q maxd limit1 Hs1 HP1 Hc1 Hc Hq ltac:(lia)
    (fun d x Hd Hx => proj1 (Hnum d x Hd Hx))) as (m1 & K1).
  destruct (C67_history_limit_partial n cap P V hs Hn Hne Hlen Hids HP Hefc Hf Hok Hreg E2 text q maxd limit2 Hs2 HP2 Hc2 Hc Hq ltac:(lia)
    (fun d x Hd Hx => proj1 (Hnum d x Hd Hx))) as (m2 & K2).
  exists m1, m2. intros Q1 Q2 HQ1 HQ2 O1 O2 O3 O4 O5 O6 R1 F1 R2 F2.
  destruct (K1 Q1 HQ1 O1 O2 O3 R1 F1) as (docs1 & dists1 & A1 & A2 & A3).
  destruct (K2 Q2 HQ2 O4 O5 O6 R2 F2) as (docs2 & dists2 & B1 & B2 & B3).
  exists docs1, dists1, docs2, dists2. split; [exact A1|]. split; [exact B1|]. split; [exact A2|]. split; [exact B2|].
  assert (Hz : forall d x, In d ds -> p_query P (p_normalize P q) (p_normalize P (vd_vec d)) = Some x -> flt x f32_zero = false)
    by (intros d x Hd Hx; exact (proj2 (Hnum d x Hd Hx))).
  destruct (limit_nearest P ds q maxd limit1 docs1 dists1 ltac:(lia) Hz A3) as (l1 & M1 & D1 & L1).
  destruct (limit_nearest P ds q maxd limit2 docs2 dists2 ltac:(lia) Hz B3) as (l2 & M2 & D2 & L2).
  assert (Hpre : l1 = firstn (length l1) l2).
  { apply (nearest_prefix (in_distance P ds q maxd) (Z.to_nat limit1) (Z.to_nat limit2)); auto; [|lia].
    intros [a x] [b y] (d & X1 & X2 & X3 & X4) (e & Y1 & Y2 & Y3 & Y4). cbn [fst snd] in *.
    destruct (string_dec a b) as [->|Hab].
    - left. f_equal. assert (d = e); [|subst e; congruence].
      apply In_nth_error in X1, Y1. destruct X1 as (i & X1), Y1 as (j & Y1).
      assert (i = j); [|subst j; congruence].
      apply (proj1 (NoDup_nth_error _) Hids); [rewrite map_length; apply nth_error_Some; congruence|].
      rewrite !nth_error_map, X1, Y1. cbn. congruence.
    - right. apply (Hdif d e x y); auto; congruence. }
  assert (E1' : length l1 = m1).
  { rewrite <- A2. pose proof (f_equal (@List.length _) M1) as X. rewrite !map_length in X. auto. }
  assert (E2' : length l2 = m2).
  { rewrite <- B2. pose proof (f_equal (@List.length _) M2) as X. rewrite !map_length in X. auto. }
  assert (Hm : m1 <= m2).
  { pose proof (f_equal (@List.length _) Hpre) as X. rewrite firstn_length in X. lia. }
  split; [exact Hm|]. rewrite M1, M2, firstn_map, <- E1', <- Hpre. split; [reflexivity|].
  rewrite E1', <- A2, D1, Hpre, <- firstn_map, <- D2, firstn_firstn. f_equal. lia.
Qed.
Print Assumptions C99_text_limit_partial.

(** The history of [C67_history_nonvacuous] and a query to which its three documents
    are at different distances, none of them negative. *)
Example C99_text_limit_nonvacuous :
  hist_docs hist67 = ds67 /\
  (exists x y z, map (fun d => p_query cosp (p_normalize cosp (q_of [1; 0]%Z)) (p_normalize cosp (vd_vec d))) ds67 = [Some x; Some y; Some z] /\
     flt z x = true /\ flt x y = true /\ flt z f32_zero = false) /\
  answer_ids (snd (near_by_text (qok 1) true (Ok (Some (q_of [1; 0]%Z))) (run_reqs new_coll (hist_reqs hist67)) two 1)) = Some [Some "c"%string] /\
  answer_ids (snd (near_by_text (qok 2) true (Ok (Some (q_of [1; 0]%Z))) (run_reqs new_coll (hist_reqs hist67)) two 2)) = Some [Some "c"; Some "a"]%string.
Proof.
  split; [reflexivity|]. split; [|split; vm_compute; reflexivity]. eexists _, _, _. split; [vm_compute; reflexivity|].
  repeat split; vm_compute; reflexivity.
Qed.
