(** Property C85: reading requests have no effect on later requests. *)
From Coq Require Import String.
From Verif Require Import Base F32 PQ PQProofs Graph Search SearchProofs SearchLayer SearchKnn
  SearchCong Insert HeuristicProofs InsertProofs InsertHist InsertTotal InsertDim InsertSmall InsertFacts InsertFind
  Distancer DistancerProofs PropDistancer TestGraph TestInsert PropSearch PropInsert PropFind
  Persist PersistProofs PersistHist LRU LRUProofs PropPersist InsertRestart Collections CollectionsProofs
  Client ClientProofs ClientSafe ClientFacts ClientReq PropClient VCache VCacheProofs VCacheFacts ClientIds ClientSmall
  PropRequests.
Local Open Scope string_scope.

(** A successful Flush has stored the entry point the index has in memory. *)
Lemma do_put_ep h w : h_ep (mark_put (do_put h w) w) = h_ep h /\ h_maxl (mark_put (do_put h w) w) = h_maxl h.
Proof.
  destruct w as [v|e|c]; [|split; reflexivity|split; reflexivity].
  unfold mark_put. destruct (mget _ _); split; reflexivity.
Qed.
Lemma puts_ep ws : forall h, h_ep (fold_left (fun h w => mark_put (do_put h w) w) ws h) = h_ep h.
Proof. induction ws as [|w ws IH]; intros h; cbn [fold_left]; [reflexivity|]. rewrite IH. apply do_put_ep. Qed.

Lemma flush_settles h keys cnt n u : snd (flush h keys cnt n) = Ok u -> load_ep (fst (flush h keys cnt n)) = fst (flush h keys cnt n).
Proof.
  unfold flush, flush_plan. destruct (node_puts h keys) as [ws ok]. destruct ok.
  2:{ destruct (Nat.ltb n (List.length ws)); cbn; discriminate. }
  destruct (Nat.ltb_spec n (List.length (ws ++ [PutEp (h_ep h); PutCount cnt])%list)) as [Hn|Hn]; [cbn; discriminate|].
  intros _. cbn [fst]. rewrite firstn_all2 by exact Hn. rewrite fold_left_app. cbn [fold_left].
  set (g := fold_left _ ws h). assert (Hg : h_ep g = h_ep h) by apply puts_ep.
  clearbody g. destruct g as [a b c d e f i j]. cbn in *. now subst.
Qed.

(** A request that only reads. *)
Definition reads (q : creq) : bool := match q with QVec _ _ _ _ | QText _ _ _ _ _ | QGet _ _ _ => true | _ => false end.

(** The history has no restart and no second creation, and every add request was
    acknowledged or left the index alone. *)
Definition calm_req (st : coll) (q : creq) : Prop :=
  match q with
  | QAdd R lookup keys docs =>
      snd (add_documents R lookup keys docs st) = Ok tt \/ c_h (fst (add_documents R lookup keys docs st)) = c_h st
  | QCreate | QRestart => False
  | _ => True
  end.
Fixpoint calm (st : coll) (qs : list creq) : Prop :=
  match qs with
  | [] => True
  | q :: qs' => calm_req st q /\ calm (req_step st q) qs'
  end.

Definition settled (st : coll) : Prop := c_reg st = true /\ c_open st = true /\ load_ep (c_h st) = c_h st.

Lemma open_settled R st : settled st -> fst (open_coll R st) = st.
Proof.
  intros (_ & Ho & _). unfold open_coll. destruct (r_kvopen R); [|reflexivity].
  destruct (r_isopen R); [|reflexivity]. cbn. now rewrite Ho.
Qed.

Lemma near_settled Q st q maxd ef limit : settled st -> fst (near_docs Q st q maxd ef limit) = st.
Proof.
  intros (Hr & _ & Hl). unfold near_docs. rewrite Hr. cbn. rewrite Hl. now destruct st.
Qed.

Lemma reads_settled st q : settled st -> reads q = true -> req_step st q = st.
Proof.
  intros Hs Hq. destruct q as [R lk keys docs|Q q maxd limit|Q lk corpi maxd limit|R ok id| |]; try discriminate; cbn [req_step].
  - unfold near_by_vector. pose proof (open_settled (q_open Q) st Hs) as Ho.
    destruct (open_coll (q_open Q) st) as [st1 [u|e| |]]; cbn [fst] in *; subst st1; auto. now apply near_settled.
  - unfold near_by_text. pose proof (open_settled (q_open Q) st Hs) as Ho.
    destruct (open_coll (q_open Q) st) as [st1 [u|e| |]]; cbn [fst] in *; subst st1; auto.
    destruct lk; [|reflexivity]. cbn [negb]. destruct corpi as [[v|]|e| |]; auto; [now apply near_settled|].
    cbn [fst]. destruct Hs as (Hr & Ho & Hl). rewrite Hr, Hl. now destruct st.
  - unfold get_document. destruct Hs as (Hr & Ho & Hl). destruct (r_isopen R); [|reflexivity]. rewrite Ho. cbn [negb andb].
    assert (He : mkC (c_h st) (c_reg st) true (c_docs st) (c_log st) = st) by (destruct st; cbn in *; now subst).
    rewrite He. destruct (negb ok); [reflexivity|].
    now destruct (find _ _).
Qed.

Lemma add_loop_flags lookup keys docs : forall st i, c_reg (fst (fst (add_loop lookup keys st i docs))) = c_reg st /\
  c_open (fst (fst (add_loop lookup keys st i docs))) = c_open st.
Proof.
  assert (Hs : forall o st d, c_reg (fst (store_doc o st d)) = c_reg st /\ c_open (fst (store_doc o st d)) = c_open st).
  { intros o st d. unfold store_doc. destruct (negb (do_marshal o)); [now split|]. now destruct (do_docput o). }
  assert (Hi : forall o st i d p v, c_reg (fst (fst (add_indexed o st i d p v))) = c_reg st /\
     c_open (fst (fst (add_indexed o st i d p v))) = c_open st).
  { intros o st i d p v. unfold add_indexed. destruct (add (do_env o) (c_h st) i v (do_lvl o)) as [h' [u|e| |]]; try now split.
    pose proof (Hs o (with_h st h') (mkSD (di_id d) (Z.of_N i) p (Some v))) as H.
    destruct (store_doc o (with_h st h') (mkSD (di_id d) (Z.of_N i) p (Some v))) as [st' r]. exact H. }
  assert (Hd : forall st i d o, c_reg (fst (fst (add_doc lookup keys st i d o))) = c_reg st /\
     c_open (fst (fst (add_doc lookup keys st i d o))) = c_open st).
  { intros st i [d|] o; [|now split]. unfold add_doc. cbv zeta.
    assert (Ht : let r := match vector_text (pset "id" (JStr (di_id d)) (di_props d)) keys with
          | Ok text =>
              if String.eqb text "" then
                let (st', r) := store_doc o st (mkSD (di_id d) (-1) (pset "id" (JStr (di_id d)) (di_props d)) None) in (st', i, r)
              else if negb lookup then (st, i, Err ENoVectorizer)
              else match do_corpi o text with
                   | Ok (Some v) => add_indexed o st i d (pset "id" (JStr (di_id d)) (di_props d)) v
                   | Ok None => (st, i, Panic)
                   | Err _ => (logged st EVectorizer, i, Ok tt)
                   | Panic => (st, i, Panic)
                   | OutOfFuel => (st, i, OutOfFuel)
                   end
          | Err e => (st, i, Err e)
          | Panic => (st, i, Panic)
          | OutOfFuel => (st, i, OutOfFuel)
          end in c_reg (fst (fst r)) = c_reg st /\ c_open (fst (fst r)) = c_open st).
    { cbv zeta. destruct (vector_text (pset "id" (JStr (di_id d)) (di_props d)) keys) as [text|e| |]; try now split.
      destruct (String.eqb text "").
      - pose proof (Hs o st (mkSD (di_id d) (-1) (pset "id" (JStr (di_id d)) (di_props d)) None)) as H.
        destruct (store_doc o st _) as [st' r]. exact H.
      - destruct (negb lookup); [now split|]. destruct (do_corpi o text) as [[v|]|e| |]; try now split. apply Hi. }
    cbv zeta in Ht.
    destruct (pget "vector" (pset "id" (JStr (di_id d)) (di_props d))) as [[| | | |l| |v]|]; try (now split); try exact Ht.
    - destruct (vector_of l) as [v|]; [apply Hi|now split].
    - apply Hi. }
  induction docs as [|[d o] docs IH]; intros st i; cbn [add_loop]; [now split|].
  pose proof (Hd st i d o) as H. destruct (add_doc lookup keys st i d o) as [[st' i'] [u|e| |]]; cbn [fst] in *; auto.
  destruct (IH st' i') as [H1 H2]. destruct H as [H3 H4]. split; congruence.
Qed.

Lemma add_flags R lookup keys docs st : settled st ->
  c_reg (fst (add_documents R lookup keys docs st)) = true /\ c_open (fst (add_documents R lookup keys docs st)) = true.
Proof.
  intros Hs. unfold add_documents. pose proof (open_settled R st Hs) as Ho. destruct Hs as (Hr & Hop & _).
  destruct (open_coll R st) as [st1 [u|e| |]]; cbn [fst] in *; subst st1; try (now split).
  rewrite Hr. cbn [negb]. pose proof (add_loop_flags lookup keys docs st (first_id (c_h st))) as H.
  destruct (add_loop lookup keys st (first_id (c_h st)) docs) as [[st2 i] [u2|e2| |]]; cbn [fst] in *;
    try (destruct H as [H1 H2]; split; congruence).
  unfold finish_add. destruct (flush (c_h st2) (r_keys R (c_h st2)) i (r_puts R)) as [h' [u3|e3| |]]; cbn;
    destruct H as [H1 H2]; split; congruence.
Qed.

Lemma calm_settled st q : settled st -> calm_req st q -> settled (req_step st q).
Proof.
  intros Hs Hq. destruct (reads q) eqn:Er; [now rewrite reads_settled|].
  destruct q as [R lk keys docs|Q q maxd limit|Q lk corpi maxd limit|R ok id| |]; try discriminate; try contradiction.
  cbn [req_step calm_req] in *. destruct (add_flags R lk keys docs st Hs) as [H1 H2]. split; [exact H1|]. split; [exact H2|].
  destruct Hq as [Hq| ->]; [|apply Hs]. revert Hq. unfold add_documents.
  destruct (open_coll R st) as [st1 [u|e| |]]; try discriminate.
  destruct (negb (c_reg st1)); [discriminate|].
  destruct (add_loop lk keys st1 (first_id (c_h st1)) docs) as [[st2 i] [u2|e2| |]]; try discriminate.
  unfold finish_add. pose proof (flush_settles (c_h st2) (r_keys R (c_h st2)) i (r_puts R)) as Hf.
  destruct (flush (c_h st2) (r_keys R (c_h st2)) i (r_puts R)) as [h' [u3|e3| |]]; try discriminate.
  intros _. cbn. exact (Hf u3 eq_refl).
Qed.

Lemma reads_nothing qs : forall st, settled st -> calm st qs ->
  run_reqs st qs = run_reqs st (filter (fun q => negb (reads q)) qs) /\ settled (run_reqs st qs).
Proof.
  induction qs as [|q qs IH]; intros st Hs Hc; [now split|]. destruct Hc as [H1 H2]. cbn [run_reqs filter].
  destruct (IH (req_step st q) (calm_settled st q Hs H1) H2) as [H3 H4]. split; [|exact H4].
  destruct (reads q) eqn:Er; cbn [negb run_reqs].
  - rewrite (reads_settled st q Hs Er) in *. exact H3.
  - exact H3.
Qed.

(** Whatever the outside world answers: with all reading requests left out, the
    collection (documents, index in memory, tables) is the same, and therefore
    every later answer.
    Missing: restarts and add requests that fail half way, where it is false
    (below). *)
Theorem C85_reads_change_nothing_partial : forall qs,
  calm new_coll qs ->
  run_reqs new_coll qs = run_reqs new_coll (filter (fun q => negb (reads q)) qs).
Proof. intros qs H. apply reads_nothing; [repeat split|exact H]. Qed.
Print Assumptions C85_reads_change_nothing_partial.

(** A restart afterwards: queries by vector and by text that succeed in opening the collection
    leave the same answers to later queries as if they had not been made, as
    long as nothing is added. *)
Definition opens (q : creq) : bool :=
  match q with
  | QVec Q _ _ _ => r_kvopen (q_open Q) && r_isopen (q_open Q) && r_docopen (q_open Q)
  | QText Q _ _ _ _ => r_kvopen (q_open Q) && r_isopen (q_open Q) && r_docopen (q_open Q)
  | _ => false
  end.

Lemma restart_read st q : opens q = true ->
  req_step (restart_coll st) q = mkC (load_ep (restart (c_h st))) true true (c_docs st) (c_log st) \/
  req_step (restart_coll st) q = mkC (restart (c_h st)) true true (c_docs st) (c_log st).
Proof.
  assert (Ho : forall R, r_kvopen R && r_isopen R && r_docopen R = true ->
    open_coll R (restart_coll st) = (mkC (restart (c_h st)) true true (c_docs st) (c_log st), Ok tt)).
  { intros R H. apply andb_true_iff in H. destruct H as [H H3]. apply andb_true_iff in H. destruct H as [H1 H2].
    unfold open_coll. now rewrite H1, H2, H3. }
  destruct q as [R lk keys docs|Q q maxd limit|Q lk corpi maxd limit|R ok id| |]; try discriminate; cbn [opens req_step]; intros H.
  - unfold near_by_vector. rewrite (Ho _ H). left. reflexivity.
  - unfold near_by_text. rewrite (Ho _ H). destruct lk; [|right; reflexivity]. cbn [negb].
    destruct corpi as [[v|]|e| |]; try (right; reflexivity); left; reflexivity.
Qed.

Lemma load_twice h : load_ep (load_ep h) = load_ep h.
Proof. reflexivity. Qed.

Definition opened (st0 st : coll) : Prop :=
  st = mkC (load_ep (restart (c_h st0))) true true (c_docs st0) (c_log st0) \/
  st = mkC (restart (c_h st0)) true true (c_docs st0) (c_log st0).

Lemma opened_read st0 st q : opened st0 st -> reads q = true -> opened st0 (req_step st q).
Proof.
  intros [-> | ->] Hq.
  - left. apply reads_settled; [|exact Hq]. repeat split.
  - destruct q as [R lk keys docs|Q q maxd limit|Q lk corpi maxd limit|R ok id| |]; try discriminate; cbn [req_step].
    + unfold near_by_vector, open_coll. destruct (r_kvopen (q_open Q)); [|right; reflexivity].
      destruct (r_isopen (q_open Q)); [|right; reflexivity]. left. reflexivity.
    + unfold near_by_text, open_coll. destruct (r_kvopen (q_open Q)); [|right; reflexivity].
      destruct (r_isopen (q_open Q)); [|right; reflexivity]. cbn [negb c_open].
      destruct lk; [|right; reflexivity]. destruct corpi as [[v|]|e| |]; try (right; reflexivity); left; reflexivity.
    + right. unfold get_document. destruct (r_isopen R); [|reflexivity]. cbn [negb andb c_open].
      destruct (negb ok); [reflexivity|]. now destruct (find _ _).
Qed.

Theorem C85_after_restart_partial : forall st q0 rs Q q maxd limit,
  opens q0 = true -> forallb reads rs = true -> opens (QVec Q q maxd limit) = true ->
  snd (near_by_vector Q (run_reqs (restart_coll st) (q0 :: rs)) q maxd limit) =
  snd (near_by_vector Q (restart_coll st) q maxd limit).
Proof.
  intros st q0 rs Q q maxd limit H0 Hrs HQ.
  assert (H : opened st (run_reqs (restart_coll st) (q0 :: rs))).
  { cbn [run_reqs]. assert (H1 : opened st (req_step (restart_coll st) q0)) by now apply restart_read.
    revert H1 Hrs. generalize (req_step (restart_coll st) q0). induction rs as [|r rs IH]; intros s H1 Hrs; [exact H1|].
    cbn in Hrs. apply andb_true_iff in Hrs. destruct Hrs as [Ha Hb]. cbn [run_reqs]. apply IH; [|exact Hb]. now apply opened_read. }
  cbn [opens] in HQ. apply andb_true_iff in HQ. destruct HQ as [HQ H3]. apply andb_true_iff in HQ. destruct HQ as [H1 H2].
  unfold near_by_vector, open_coll. rewrite H1, H2, H3.
  destruct H as [-> | ->]; reflexivity.
Qed.
Print Assumptions C85_after_restart_partial.

(** The hypotheses are met by histories with all kinds of requests. *)
Definition hist85 : list creq :=
  [QVec (qok 0) (q_of [0; 1]%Z) two 0; req1; QVec (qok 3) (q_of [0; 1]%Z) two 0; QGet rok true "a";
   QText (qok 3) true (Ok (Some (q_of [1; 1]%Z))) two 3; QAdd rok true [] [docv "d" [1; 2]%Z]; QGet rok true "zz";
   QText (qok 3) true (Err EVectorizer) two 3].
Example C85_nonvacuous :
  calm new_coll hist85 /\ List.length (filter reads hist85) = 6 /\
  List.length (c_docs (run_reqs new_coll hist85)) = 4 /\
  answer_ids (snd (near_by_vector (qok 4) (run_reqs new_coll hist85) (q_of [0; 1]%Z) two 0)) =
    Some [Some "b"; Some "d"; Some "c"; Some "a"].
Proof.
  split; [|vm_compute; auto].
  unfold hist85. cbn [calm calm_req]. repeat (split; [try exact Logic.I; try (left; vm_compute; reflexivity)|]). exact Logic.I.
Qed.

(** False after a restart.  AddDocuments opens the collection without
    LoadEntrypoint (document.go:291-345; the queries call it, document.go:505,606), so
    the first add request of a process works from entry point 0 and Flush
    stores 0 over the entry point of the table.  Here 62 documents are acknowledged
    in one request: 61 with the vector [1,0] and the last with [0,1], which gets
    layer 1 and becomes the entry point; the others have no links left for it.
    It is found, before and after a restart.  Then another document is added, one
    without a vector.  If a query came between the restart and the addition, the
    document [0,1] is still found; if none came, it is lost for good, also for
    processes that start later, and the query answers without an error. *)
Definition vd85 (l : nat) (p : N * list Z) : option docin * dorc :=
  (Some (mkDoc (decimal (fst p)) [("vector", JArr (map num (snd p)))]),
   mkD (ienv_of cosp tab62) l (fun _ => Err EVectorizer) true true).
Definition add62 : creq := QAdd rok true [] (map (vd85 0) (enum 0 (repeat [1; 0]%Z 61)) ++ [vd85 1 (61%N, [0; 1]%Z)])%list.
Definition add1 : creq := QAdd rok true [] [(Some (mkDoc "x" [("name", JStr "x")]), mkD (ienv_of cosp []) 0 (fun _ => Err EVectorizer) true true)].
Definition read1 : creq := QVec (qok 62) (q_of [0; 1]%Z) two 0.
Definition acked (st : coll) (q : creq) : bool :=
  match q with QAdd R lk keys docs => match snd (add_documents R lk keys docs st) with Ok _ => true | _ => false end | _ => false end.
(** The query for [0,1] answers [n] documents, among them "61" or not. *)
Definition finds (n : nat) (b : bool) (st : coll) : bool :=
  match answer_ids (snd (near_by_vector (qok n) st (q_of [0; 1]%Z) two 0)) with
  | Some l => Nat.eqb (List.length l) n &&
      Bool.eqb b (existsb (fun o => match o with Some i => String.eqb i "61" | None => false end) l)
  | None => false
  end.
Definition check85 (st : coll) : bool :=
  let st1 := restart_coll st in
  let st2 := req_step st1 read1 in
  let st1' := req_step st1 add1 in
  let st2' := req_step st2 add1 in
  finds 62 true st && finds 62 true st1 && acked st1 add1 && acked st2 add1 &&
  finds 61 false st1' && finds 61 false (restart_coll st1') && finds 62 true st2' && finds 62 true (restart_coll st2').
Lemma st85_ok : acked new_coll add62 && check85 (req_step new_coll add62) = true.
Proof. vm_cast_no_check (eq_refl true). Qed.

Definition found (n : nat) (st : coll) (id : string) (yes : Prop) : Prop :=
  exists docs dists, snd (near_by_vector (qok n) st (q_of [0; 1]%Z) two 0) = Ok (docs, dists) /\
    List.length docs = n /\ ((exists s, In (Some s) docs /\ sd_id s = id) <-> yes).
Lemma finds_spec n b st : finds n b st = true -> found n st "61" (b = true).
Proof.
  unfold finds, found. destruct (snd (near_by_vector (qok n) st (q_of [0; 1]%Z) two 0)) as [[docs dists]| | |]; try discriminate.
  cbn [answer_ids]. intros H. apply andb_true_iff in H. destruct H as [H1 H2]. apply Nat.eqb_eq in H1. rewrite map_length in H1.
  apply Bool.eqb_prop in H2. exists docs, dists. split; [reflexivity|]. split; [exact H1|]. rewrite H2. rewrite existsb_exists. split.
  - intros (s & Hs & He). exists (Some (sd_id s)). split; [apply (in_map (option_map sd_id)) in Hs; exact Hs|]. rewrite He. reflexivity.
  - intros (o & Ho & He). apply in_map_iff in Ho. destruct Ho as ([s|] & <- & Hs); cbn in He; [|discriminate].
    exists s. split; [exact Hs|]. now apply String.eqb_eq.
Qed.
Theorem C85_read_after_restart_refuted : exists a b r,
  reads r = true /\ acked new_coll a = true /\
  let st := req_step new_coll a in
  found 62 st "61" True /\ found 62 (restart_coll st) "61" True /\
  acked (restart_coll st) b = true /\ acked (req_step (restart_coll st) r) b = true /\
  found 61 (run_reqs (restart_coll st) [b]) "61" False /\
  found 61 (run_reqs (restart_coll st) [b; QRestart]) "61" False /\
  found 62 (run_reqs (restart_coll st) [r; b]) "61" True /\
  found 62 (run_reqs (restart_coll st) [r; b; QRestart]) "61" True.
Proof.
  exists add62, add1, read1. split; [reflexivity|].
  assert (G : forall st, check85 st = true ->
    found 62 st "61" True /\ found 62 (restart_coll st) "61" True /\
    acked (restart_coll st) add1 = true /\ acked (req_step (restart_coll st) read1) add1 = true /\
    found 61 (req_step (restart_coll st) add1) "61" False /\
    found 61 (restart_coll (req_step (restart_coll st) add1)) "61" False /\
    found 62 (req_step (req_step (restart_coll st) read1) add1) "61" True /\
    found 62 (restart_coll (req_step (req_step (restart_coll st) read1) add1)) "61" True).
  { intros st H. unfold check85 in H. cbv zeta in H. rewrite !andb_true_iff in H.
    destruct H as (((((((H1 & H2) & H3) & H4) & H5) & H6) & H7) & H8).
    assert (T : forall n s b (P : Prop), finds n b s = true -> (b = true <-> P) -> found n s "61" P).
    { intros n s b P Hf HP. apply finds_spec in Hf. destruct Hf as (d & x & Ha & Hb & Hc). exists d, x. split; [exact Ha|]. split; [exact Hb|]. tauto. }
    split; [apply (T _ _ true); [exact H1|tauto]|]. split; [apply (T _ _ true); [exact H2|tauto]|].
    split; [exact H3|]. split; [exact H4|].
    split; [apply (T _ _ false); [exact H5|]; split; [discriminate|tauto]|].
    split; [apply (T _ _ false); [exact H6|]; split; [discriminate|tauto]|].
    split; [apply (T _ _ true); [exact H7|tauto]|]. apply (T _ _ true); [exact H8|tauto]. }
  pose proof st85_ok as H. apply andb_true_iff in H. destruct H as [H1 H2]. split; [exact H1|]. exact (G _ H2).
Qed.
Print Assumptions C85_read_after_restart_refuted.

(** False after an add request that failed: the second document is in memory on
    layer 1 and is the entry point, but Flush wrote nothing.  With a query in
    between, the next acknowledged request stores entry point 0; without, 1. *)
Definition docl (l : nat) (id : string) (x : list Z) : option docin * dorc :=
  (Some (mkDoc id [("vector", JArr (map num x))]), mkD (ienv_of cosp tab2) l (fun _ => Err EVectorizer) true true).
Definition hist85f : list creq := [QAdd rok true [] [docl 0 "a" [1; 0]%Z]; QAdd rfail true [] [docl 1 "b" [0; 1]%Z]].
Definition next85 : creq := QAdd rok true [] [docl 0 "c" [1; 1]%Z].
Theorem C85_read_after_failure_refuted : exists qs r b,
  reads r = true /\ acked (run_reqs new_coll qs) b = true /\ acked (run_reqs new_coll (qs ++ [r])) b = true /\
  h_kv_ep (c_h (run_reqs new_coll (qs ++ [b]))) = Some 1%N /\
  h_kv_ep (c_h (run_reqs new_coll (qs ++ [r; b]))) = Some 0%N.
Proof. exists hist85f, (QVec (qok 2) (q_of [0; 1]%Z) two 0), next85. vm_compute. repeat split; reflexivity. Qed.
Print Assumptions C85_read_after_failure_refuted.
