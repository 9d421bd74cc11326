(** Property C99: a smaller distance or a limit only shortens the answer. *)
From Coq Require Import String.
From Verif Require Import Base F32 PQ PQProofs Graph Search SearchProofs Insert
  Distancer DistancerProofs PropDistancer TestGraph TestInsert PropSearch PropInsert Persist PersistProofs
  Client ClientProofs ClientSafe ClientFacts ClientReq PropClient.
Local Open Scope nat_scope.

(** A bound that is not larger is exceeded by whatever exceeds the larger one. *)
Lemma fgt_mono x m1 m2 : is_num m1 = true -> is_num m2 = true -> flt m2 m1 = false ->
  fgt x m2 = true -> fgt x m1 = true.
Proof.
  unfold fgt. intros H1 H2 Hle H. destruct (flt_num _ _ H) as [_ Hx].
  apply (flt_rank m1 x H1 Hx). apply (flt_rank m2 x H2 Hx) in H.
  assert (Hn : ~ frank_lt m2 m1) by (rewrite <- (flt_rank m2 m1 H2 H1), Hle; discriminate).
  unfold frank_lt in *. lia.
Qed.

Lemma cut_prefix m1 m2 all : (forall x, fgt x m2 = true -> fgt x m1 = true) ->
  exists r, cut all m1 = firstn r (cut all m2) /\ r <= length (cut all m2) /\
    (forall i x, i < r -> nth_error (cut all m2) i = Some x -> fgt (it_dist x) m1 = false) /\
    (r < length (cut all m2) -> exists x, nth_error (cut all m2) r = Some x /\ fgt (it_dist x) m1 = true).
Proof.
  intros Hm. induction all as [|x all IH]; cbn [cut].
  { exists 0. repeat split; [cbn; lia|lia|cbn; lia]. }
  destruct (flt (it_dist x) f32_zero); [exact IH|].
  destruct (fgt (it_dist x) m2) eqn:E2.
  { rewrite (Hm _ E2). exists 0. repeat split; [cbn; lia|lia|cbn; lia]. }
  destruct (fgt (it_dist x) m1) eqn:E1.
  { exists 0. repeat split; [lia|lia|]. intros _. now exists x. }
  destruct IH as (r & Ha & Hb & Hc & Hd). exists (S r). cbn [firstn length]. rewrite Ha. split; [reflexivity|].
  split; [lia|]. split.
  - intros [|i] y Hi; cbn [nth_error]; [now intros [= <-]|]. apply Hc. lia.
  - intros Hr. cbn [nth_error]. apply Hd. lia.
Qed.

Lemma nth_error_ext' {A} (l1 : list A) : forall l2, (forall i, nth_error l1 i = nth_error l2 i) -> l1 = l2.
Proof.
  induction l1 as [|a l1 IH]; intros [|b l2] H; [reflexivity|discriminate (H 0)|discriminate (H 0)|].
  pose proof (H 0) as H0. cbn in H0. injection H0 as ->. f_equal. apply IH. intros i. exact (H (S i)).
Qed.

Lemma fetch_docs_len find ids order docs : fetch_docs find ids order = Ok docs -> length docs = length ids.
Proof.
  intros Ef. unfold fetch_docs in Ef.
  assert (Hl : forall order slots errs, length (fst (run_fetch find ids order slots errs)) = length slots).
  { intros o. induction o as [|i o IH]; intros slots errs; cbn [run_fetch]; [reflexivity|].
    destruct (nth_error ids i) as [id|]; [|apply IH]. destruct (find i id); rewrite IH; auto using upd_length. }
  specialize (Hl order (repeat None (length ids)) []).
  destruct (run_fetch find ids order _ _) as [s [|e l]]; [|discriminate]. injection Ef as <-.
  cbn [fst] in Hl. now rewrite Hl, repeat_length.
Qed.

(** The fetches of a prefix of the ids give the prefix of the documents. *)
Lemma fetch_prefix ok1 ok2 pick ds ids o1 o2 docs r :
  fetch_docs (doc_find ok2 pick ds) ids o2 = Ok docs -> Permutation o2 (seq 0 (length ids)) ->
  r <= length ids -> Permutation o1 (seq 0 r) -> (forall i, ok1 i = true) ->
  fetch_docs (doc_find ok1 pick ds) (firstn r ids) o1 = Ok (firstn r docs).
Proof.
  intros H2 P2 Hr P1 Hok.
  pose proof (fetch_docs_spec (doc_find ok2 pick ds) ids o2 P2) as S2. rewrite H2 in S2. destruct S2 as [L2 S2].
  assert (P1' : Permutation o1 (seq 0 (length (firstn r ids)))) by (rewrite firstn_length, Nat.min_l by exact Hr; exact P1).
  pose proof (fetch_docs_spec (doc_find ok1 pick ds) (firstn r ids) o1 P1') as S1.
  assert (Hf : forall i id, nth_error (firstn r ids) i = Some id ->
    exists d, doc_find ok1 pick ds i id = Ok d /\ nth_error (firstn r docs) i = Some (Some d)).
  { intros i id Hi. assert (Hir : i < r).
    { assert (Hl : i < length (firstn r ids)) by (apply nth_error_Some; congruence). rewrite firstn_length in Hl. lia. }
    rewrite nth_error_firstn_lt in Hi by exact Hir. destruct (S2 i id Hi) as (d & Hd & Hn). exists d.
    rewrite nth_error_firstn_lt by exact Hir. split; [|exact Hn].
    unfold doc_find in *. rewrite Hok. destruct (ok2 i); [exact Hd|discriminate]. }
  destruct (fetch_docs (doc_find ok1 pick ds) (firstn r ids) o1) as [d1|e| |]; try contradiction.
  - destruct S1 as [L1 S1]. f_equal. apply nth_error_ext'. intros i.
    destruct (nth_error (firstn r ids) i) as [id|] eqn:Ei.
    + destruct (Hf i id Ei) as (d & Hd & Hn), (S1 i id Ei) as (d' & Hd' & Hn'). rewrite Hn, Hn'. congruence.
    + apply nth_error_None in Ei. rewrite (proj2 (nth_error_None d1 i)) by (rewrite L1; exact Ei).
      symmetry. apply nth_error_None. rewrite !firstn_length in *. lia.
  - destruct S1 as (i & id & Hi & Hno). destruct (Hf i id Hi) as (d & Hd & _). destruct (Hno d Hd).
Qed.

Lemma firstn_app_map {A B} (f : A -> B) r l tl : r <= length l -> firstn r (map f l ++ tl) = map f (firstn r l).
Proof. intros H. rewrite firstn_app, map_length, (proj2 (Nat.sub_0_le r (length l)) H). cbn [firstn]. now rewrite app_nil_r, firstn_map. Qed.

(** The ids within the smaller bound. *)
Lemma knn_prefix E h q m1 m2 ef ids ds : (forall x, fgt x m2 = true -> fgt x m1 = true) ->
  knn_max_dist E h q m2 ef None = Ok (ids, ds) ->
  exists r ds1, knn_max_dist E h q m1 ef None = Ok (firstn r ids, ds1) /\ r <= length ids /\
    length ds1 = length ds /\ length ids <= length ds /\ firstn r ds1 = firstn r ds /\
    (forall i x, i < r -> nth_error ds i = Some x -> fgt x m1 = false) /\
    (r < length ids -> exists x, nth_error ds r = Some x /\ fgt x m1 = true).
Proof.
  intros Hm. unfold knn_max_dist.
  destruct (dist_node_vec _ _ _ _) as [d0|e| |]; cbn [bind]; try discriminate.
  destruct (descend _ _ _ _ _ _) as [e|e| |]; cbn [bind]; try discriminate.
  destruct (search_layer _ _ _ _ _ _ _) as [res|e'| |]; cbn [bind]; try discriminate.
  set (all := rev _). intros [= <- <-]. destruct (cut_prefix m1 m2 all Hm) as (r & Ha & Hb & Hc & Hd).
  assert (Hl : forall l, length (cut l m2) <= length l).
  { intros l. induction l as [|x l IH]; [cbn; lia|]. cbn [cut].
    destruct (flt _ _); [cbn; lia|]. destruct (fgt _ _); cbn; lia. }
  specialize (Hl all).
  exists r. eexists. rewrite firstn_map, <- Ha. split; [reflexivity|]. rewrite map_length. split; [exact Hb|].
  assert (Hr : length (cut all m1) = r) by (rewrite Ha, firstn_length; lia).
  rewrite !app_length, !map_length, !repeat_length. split; [lia|]. split; [lia|].
  rewrite (firstn_app_map it_dist r (cut all m2) _ Hb), (firstn_app_map it_dist r (cut all m1)) by lia.
  rewrite firstn_all2 by lia. rewrite Ha. split; [reflexivity|].
  assert (Hn : forall i x tl, i < length (cut all m2) -> nth_error (map it_dist (cut all m2) ++ tl) i = Some x ->
    exists y, nth_error (cut all m2) i = Some y /\ x = it_dist y).
  { intros i x tl Hi. rewrite nth_error_app1 by (rewrite map_length; exact Hi). rewrite nth_error_map.
    destruct (nth_error (cut all m2) i) as [y|]; cbn; intros [= <-]. now exists y. }
  split.
  - intros i x Hi Hx. destruct (Hn i x _ (Nat.lt_le_trans _ _ _ Hi Hb) Hx) as (y & Hy & ->). exact (Hc i y Hi Hy).
  - intros Hlt. destruct (Hd Hlt) as (y & Hy & Hg). exists (it_dist y). split; [|exact Hg].
    rewrite nth_error_app1 by (rewrite map_length; exact Hlt). now rewrite nth_error_map, Hy.
Qed.

(** What a request by vector or by text is answered with once the collection is
    open: a smaller distance gives a prefix, up to the first document above it. *)
Lemma near_docs_dist Q1 Q2 st q m1 m2 ef limit docs dists :
  (forall x, fgt x m2 = true -> fgt x m1 = true) -> q_env Q1 = q_env Q2 -> q_pick Q1 = q_pick Q2 ->
  (forall i, q_ok Q1 i = true) ->
  snd (near_docs Q2 st q m2 ef limit) = Ok (docs, dists) -> Permutation (q_order Q2) (seq 0 (length docs)) ->
  exists r, r <= length docs /\
    (Permutation (q_order Q1) (seq 0 r) ->
     exists dists1, snd (near_docs Q1 st q m1 ef limit) = Ok (firstn r docs, dists1) /\ firstn r dists1 = firstn r dists) /\
    (forall i x, i < r -> nth_error dists i = Some x -> fgt x m1 = false) /\
    (r < length docs -> exists x, nth_error dists r = Some x /\ fgt x m1 = true).
Proof.
  intros Hm He Hp Hok. unfold near_docs. destruct (negb (c_reg st)); [discriminate|]. cbn [snd]. rewrite He, Hp.
  set (h := c_h (with_h st (load_ep (c_h st)))). set (ds := c_docs (with_h st (load_ep (c_h st)))).
  destruct (knn_max_dist (q_env Q2) h q m2 ef None) as [[ids dd]|e| |] eqn:Ek; cbn [bind]; try discriminate.
  destruct (knn_prefix _ _ _ _ _ _ _ _ Hm Ek) as (r & ds1 & Ek1 & Hr & Hl1 & Hl & Hd & Hc & Hx). rewrite Ek1. cbn [bind].
  destruct (cut_limit limit (ids, dd)) as [[ids' dd']|e| |] eqn:El; cbn [bind fst snd]; try discriminate.
  destruct (fetch_docs _ ids' (q_order Q2)) as [docs'|e| |] eqn:Ef; cbn [bind]; try discriminate.
  intros [= <- <-] HP.
  assert (Hlen : length docs' = length ids').
  { exact (fetch_docs_len _ _ _ _ Ef). }
  rewrite Hlen in HP. rewrite Hlen.
  unfold cut_limit in El |- *. cbn [fst snd] in *. rewrite firstn_length, Nat.min_l by exact Hr.
  destruct (Z.eqb limit 0) eqn:E0; cbn [negb andb] in *.
  - injection El as <- <-. exists r. split; [exact Hr|]. split; [|split; assumption].
    intros P1. cbn [bind fst snd]. rewrite (fetch_prefix _ _ _ _ _ _ _ _ r Ef HP Hr P1 Hok). cbn [bind].
    exists ds1. split; [reflexivity|exact Hd].
  - apply Z.eqb_neq in E0. destruct (Z.ltb limit (Z.of_nat (length ids))) eqn:E1.
    + destruct (Z.ltb limit 0) eqn:E2; [discriminate|]. injection El as <- <-.
      apply Z.ltb_lt in E1. apply Z.ltb_ge in E2. set (k := Z.to_nat limit) in *.
      rewrite firstn_length. exists (Nat.min r k). split; [lia|].
      rewrite firstn_length in HP. rewrite (Nat.min_l k) in * by lia.
      split; [|split].
      * intros P1.
        assert (Hf : fetch_docs (doc_find (q_ok Q1) (q_pick Q2) ds) (firstn (Nat.min r k) (firstn k ids)) (q_order Q1) =
                     Ok (firstn (Nat.min r k) docs')).
        { apply (fetch_prefix _ _ _ _ _ _ _ _ _ Ef); [rewrite firstn_length, Nat.min_l by lia; exact HP| |exact P1|exact Hok].
          rewrite firstn_length. lia. }
        rewrite firstn_firstn, (Nat.min_l (Nat.min r k) k) in Hf by lia.
        destruct (Z.ltb limit (Z.of_nat r)) eqn:E3.
        -- apply Z.ltb_lt in E3. cbn [bind fst snd]. rewrite firstn_firstn, (Nat.min_comm k r), Hf. cbn [bind].
           eexists. split; [reflexivity|]. rewrite !firstn_firstn, !(Nat.min_l (Nat.min r k) k) by lia.
           rewrite (Nat.min_comm r k), <- !firstn_firstn, Hd. reflexivity.
        -- apply Z.ltb_ge in E3. cbn [bind fst snd]. rewrite (Nat.min_l r k) in * by lia. rewrite Hf. cbn [bind].
           eexists. split; [reflexivity|]. rewrite firstn_firstn, (Nat.min_l r k) by lia. exact Hd.
      * intros i x Hi. rewrite nth_error_firstn_lt by lia. apply Hc. lia.
      * intros Hlt. rewrite (Nat.min_l r k) by lia. rewrite nth_error_firstn_lt by lia. apply Hx. lia.
    + injection El as <- <-. apply Z.ltb_ge in E1.
      replace (Z.ltb limit (Z.of_nat r)) with false by (symmetry; apply Z.ltb_ge; lia).
      exists r. split; [exact Hr|]. split; [|split; assumption].
      intros P1. cbn [bind fst snd]. rewrite (fetch_prefix _ _ _ _ _ _ _ _ r Ef HP Hr P1 Hok). cbn [bind].
      exists ds1. split; [reflexivity|exact Hd].
Qed.

(** C99, by vector: with a smaller distance the same documents are answered, in
    the same order and with the same distances, up to the first one above it. *)
Theorem C99_distance_cuts : forall Q1 Q2 st q (m1 m2 : f32) limit docs dists,
  is_num m1 = true -> is_num m2 = true -> flt m2 m1 = false ->
  q_open Q1 = q_open Q2 -> q_env Q1 = q_env Q2 -> q_pick Q1 = q_pick Q2 -> (forall i, q_ok Q1 i = true) ->
  snd (near_by_vector Q2 st q m2 limit) = Ok (docs, dists) -> Permutation (q_order Q2) (seq 0 (length docs)) ->
  exists r, r <= length docs /\
    (Permutation (q_order Q1) (seq 0 r) ->
     exists dists1, snd (near_by_vector Q1 st q m1 limit) = Ok (firstn r docs, dists1) /\ firstn r dists1 = firstn r dists) /\
    (forall i x, i < r -> nth_error dists i = Some x -> fgt x m1 = false) /\
    (r < length docs -> exists x, nth_error dists r = Some x /\ fgt x m1 = true).
Proof.
  intros Q1 Q2 st q m1 m2 limit docs dists H1 H2 Hle Ho He Hp Hok. unfold near_by_vector. rewrite Ho.
  destruct (open_coll (q_open Q2) st) as [st' [u|e| |]]; try discriminate.
  apply near_docs_dist; try assumption. intros x. now apply fgt_mono.
Qed.
Print Assumptions C99_distance_cuts.

(** C99, by text, with the same limit: the limit is also the breadth of the search. *)
Theorem C99_distance_cuts_text : forall Q1 Q2 lookup corpi st (m1 m2 : f32) limit docs dists,
  is_num m1 = true -> is_num m2 = true -> flt m2 m1 = false ->
  q_open Q1 = q_open Q2 -> q_env Q1 = q_env Q2 -> q_pick Q1 = q_pick Q2 -> (forall i, q_ok Q1 i = true) ->
  snd (near_by_text Q2 lookup corpi st m2 limit) = Ok (docs, dists) -> Permutation (q_order Q2) (seq 0 (length docs)) ->
  exists r, r <= length docs /\
    (Permutation (q_order Q1) (seq 0 r) ->
     exists dists1, snd (near_by_text Q1 lookup corpi st m1 limit) = Ok (firstn r docs, dists1) /\ firstn r dists1 = firstn r dists) /\
    (forall i x, i < r -> nth_error dists i = Some x -> fgt x m1 = false) /\
    (r < length docs -> exists x, nth_error dists r = Some x /\ fgt x m1 = true).
Proof.
  intros Q1 Q2 lookup corpi st m1 m2 limit docs dists H1 H2 Hle Ho He Hp Hok. unfold near_by_text. rewrite Ho.
  destruct (open_coll (q_open Q2) st) as [st' [u|e| |]]; try discriminate.
  destruct (negb lookup); [discriminate|]. destruct corpi as [[q|]|e| |]; try discriminate.
  apply near_docs_dist; try assumption. intros x. now apply fgt_mono.
Qed.
Print Assumptions C99_distance_cuts_text.

(** C99, by vector: a limit above zero gives the first documents of the answer
    without a limit. *)
Theorem C99_limit_cuts : forall Q1 Q2 st q maxd limit docs dists,
  q_open Q1 = q_open Q2 -> q_env Q1 = q_env Q2 -> q_pick Q1 = q_pick Q2 -> (forall i, q_ok Q1 i = true) ->
  snd (near_by_vector Q2 st q maxd 0) = Ok (docs, dists) -> Permutation (q_order Q2) (seq 0 (length docs)) ->
  (0 < limit)%Z -> let r := Nat.min (Z.to_nat limit) (length docs) in
  Permutation (q_order Q1) (seq 0 r) ->
  exists dists1, snd (near_by_vector Q1 st q maxd limit) = Ok (firstn r docs, dists1) /\ firstn r dists1 = firstn r dists.
Proof.
  intros Q1 Q2 st q maxd limit docs dists Ho He Hp Hok H2 HP Hk r P1. unfold near_by_vector in *. rewrite Ho.
  destruct (open_coll (q_open Q2) st) as [st' [u|e| |]]; try discriminate.
  revert H2. unfold near_docs. destruct (negb (c_reg st')); [discriminate|]. cbn [snd]. rewrite He, Hp.
  set (h := c_h (with_h st' (load_ep (c_h st')))). set (ds := c_docs (with_h st' (load_ep (c_h st')))).
  destruct (knn_max_dist (q_env Q2) h q maxd 800 None) as [[ids dd]|e| |] eqn:Ek; cbn [bind]; try discriminate.
  unfold cut_limit at 1. cbn [Z.eqb negb andb bind fst snd].
  destruct (fetch_docs _ ids (q_order Q2)) as [docs'|e| |] eqn:Ef; cbn [bind]; try discriminate.
  intros [= -> ->]. pose proof (fetch_docs_len _ _ _ _ Ef) as Hlen. unfold r in *. clear r. rewrite Hlen in *.
  unfold cut_limit. cbn [fst snd]. replace (Z.eqb limit 0) with false by (symmetry; apply Z.eqb_neq; lia). cbn [negb andb].
  destruct (Z.ltb limit (Z.of_nat (length ids))) eqn:E1.
  - apply Z.ltb_lt in E1. replace (Z.ltb limit 0) with false by (symmetry; apply Z.ltb_ge; lia). cbn [bind fst snd].
    rewrite Nat.min_l in * by lia.
    rewrite (fetch_prefix _ _ _ _ _ _ _ _ (Z.to_nat limit) Ef HP ltac:(lia) P1 Hok). cbn [bind].
    eexists. split; [reflexivity|]. now rewrite firstn_firstn, Nat.min_id.
  - apply Z.ltb_ge in E1. cbn [bind fst snd]. rewrite Nat.min_r in * by lia.
    pose proof (fetch_prefix (q_ok Q1) _ _ _ _ _ _ _ (length ids) Ef HP ltac:(lia) P1 Hok) as Hf.
    rewrite firstn_all in Hf. rewrite Hf. cbn [bind]. eexists. split; reflexivity.
Qed.
Print Assumptions C99_limit_cuts.

(** By text the limit is also the breadth of the search, so a smaller limit is
    not a prefix: of three documents with the same vector, limit 1 gives "a"
    and limit 2 gives "d", then "a". *)
Definition hist99 : list creq :=
  [QAdd rok true ["text"%string] [docv "a"%string [1; 0]%Z; docv "b"%string [1; 0]%Z; docv "d"%string [1; 0]%Z]].
Theorem C99_text_limit_refuted : exists qs q docs1 dists1 docs2 dists2,
  snd (near_by_text (qok 1) true (Ok (Some q)) (run_reqs new_coll qs) two 1) = Ok (docs1, dists1) /\
  snd (near_by_text (qok 2) true (Ok (Some q)) (run_reqs new_coll qs) two 2) = Ok (docs2, dists2) /\
  length docs1 = 1 /\ length docs2 = 2 /\
  map (option_map sd_id) docs1 = [Some "a"%string] /\ map (option_map sd_id) docs2 = [Some "d"%string; Some "a"%string].
Proof.
  exists hist99, (q_of [1; 0]%Z). eexists _, _, _, _. split; [vm_compute; reflexivity|].
  split; [vm_compute; reflexivity|]. repeat split.
Qed.
Print Assumptions C99_text_limit_refuted.

(** Three documents within distance 2, two of them within distance 1/2, and the
    first one with limit 1. *)
Definition half : f32 := S754_finite false 8388608 (-24).
Example C99_nonvacuous :
  is_num half = true /\ flt two half = false /\
  answer_ids (snd (near_by_vector (qok 3) st1 (q_of [0; 3]%Z) two 0)) = Some [Some "b"; Some "c"; Some "a"]%string /\
  answer_ids (snd (near_by_vector (qok 2) st1 (q_of [0; 3]%Z) half 0)) = Some [Some "b"; Some "c"]%string /\
  answer_ids (snd (near_by_vector (qok 1) st1 (q_of [0; 3]%Z) two 1)) = Some [Some "b"]%string /\
  answer_ids (snd (near_by_text (qok 2) true (Ok (Some (q_of [0; 3]%Z))) st1 half 3)) = Some [Some "b"; Some "c"]%string /\
  Permutation (q_order (qok 3)) (seq 0 3) /\ (forall i, q_ok (qok 2) i = true).
Proof.
  split; [reflexivity|]. split; [vm_compute; reflexivity|]. split; [vm_compute; reflexivity|].
  split; [vm_compute; reflexivity|]. split; [vm_compute; reflexivity|]. split; [vm_compute; reflexivity|].
  split; [|reflexivity]. symmetry. apply Permutation_rev.
Qed.
