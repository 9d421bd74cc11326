(** From JSON requests to JSON answers: the documents of a history of requests as
    the client indexes them. *)
From Coq Require Import Reals Lra String.
From Flocq Require Import Core.Core.
From Verif Require Import Base F32 F32Real F32Err F32Norm F32Cos F32Cmp JsonNum JsonNumProofs PQ PQProofs Graph Search Insert InsertHist
  Distancer DistancerProofs PropDistancer Persist PersistProofs
  Collections Client ClientProofs ClientSafe ClientFacts ClientReq VCache VCacheFacts ClientIds ClientSmall
  Handlers HandlersProofs Vectorizer NumProofs PropNumbers ClientMany Bind BindProofs LitCos.
Local Open Scope string_scope.

(** A document of a request: its id, the decimal numbers of its vector, its other
    properties, and what happens while it is added. *)
Record jdoc := mkJD { j_id : string; j_lits : list lit; j_more : props; j_orc : dorc }.
Definition j_props (d : jdoc) : props := ("vector", JArr (array_of (j_lits d))) :: j_more d.
(** models.Document of the request body. *)
Definition j_raw (d : jdoc) : option rawdoc := Some (mkRaw (j_id d) (JObj (j_props d))).
Definition j_vdoc (d : jdoc) : vdoc :=
  mkVD (mkDoc (j_id d) (j_props d)) (array_of (j_lits d))
    (match vector_of (array_of (j_lits d)) with Some v => v | None => [] end) (j_orc d).
(** The body of an add request. *)
Definition j_body (name : string) (keys : list string) (ds : list jdoc) : hbody :=
  Body (add_json (mkAddReq (Some (map j_raw ds)) name (Some keys))).

(** Requests to the collection: documents with vectors, or anything else. *)
Inductive jreq :=
| JAdd (R : rorc) (lookup : bool) (name : string) (keys : list string) (ds : list jdoc)
| JElse (q : wreq).
Definition jreq_req (q : jreq) : wreq :=
  match q with
  | JAdd R lk name keys ds => PAdd R lk (map j_orc ds) (j_body name keys ds)
  | JElse q => q
  end.
Definition jreq_docs (q : jreq) : list jdoc := match q with JAdd _ _ _ _ ds => ds | JElse _ => [] end.
Definition jdocs (js : list jreq) : list jdoc := flat_map jreq_docs js.
Definition jreqs (js : list jreq) : list wreq := map jreq_req js.

(** A document as it may be sent: numbers as JSON writes them, as many as [n], no
    property twice, the id a UUID or left out, and all numbers within float64. *)
Definition jdoc_ok (uuid : string -> bool) (n : nat) (d : jdoc) : Prop :=
  Forall lit_ok (j_lits d) /\ length (j_lits d) = n /\ usual (map lit_value (j_lits d)) /\
  distinct (JObj (j_props d)) /\ doc_nums (j_more d) /\ (j_id d = "" \/ uuid (j_id d) = true) /\
  do_marshal (j_orc d) = true /\ do_docput (j_orc d) = true.
(** An add request of such documents is answered with their number; another one is
    refused when its body is read. *)
Definition jreq_ok (uuid : string -> bool) (n : nat) (st : coll) (q : jreq) : Prop :=
  match q with
  | JAdd R lk name keys ds =>
      ds <> [] /\ rorc_ok R /\ Forall (jdoc_ok uuid n) ds /\
      snd (serve_add uuid R lk (map j_orc ds) (j_body name keys ds) st) = Ok200 (length ds)
  | JElse (PAdd _ _ _ b) => bind_add uuid b = None
  | JElse _ => True
  end.
Fixpoint jhist_ok (uuid : string -> bool) (n : nat) (st : coll) (js : list jreq) : Prop :=
  match js with
  | [] => True
  | q :: js' => jreq_ok uuid n st q /\ jhist_ok uuid n (serve uuid st (jreq_req q)) js'
  end.

(* ------------------------------------------------------------------ *)
(** The numbers of a vector. *)
Local Open Scope R_scope.

Lemma usual_bound a v : usual a -> In v a -> Rabs v <= pow2 39.
Proof. intros (_ & H & _) Hin. rewrite Forall_forall in H. now apply H. Qed.

Lemma doc_close ls : Forall lit_ok ls -> usual (map lit_value ls) ->
  exists w, vector_of (array_of ls) = Some w /\ Forall2 close (map lit_value ls) w.
Proof.
  intros Hl Hu. destruct (proj2 (C68_document_accepted ls Hl)) as [w E].
  { apply Forall_forall. intros l Hin. pose proof (usual_bound _ _ Hu (in_map lit_value ls l Hin)) as B.
    eapply Rle_lt_trans; [exact B|]. assert (pow2 1024 = pow2 54 * pow2 970) by (rewrite <- bpow_plus; reflexivity).
    assert (pow2 39 < pow2 970) by (apply bpow_lt; reflexivity). replace (pow2 54) with 18014398509481984 in H by reflexivity.
    pose proof (bpow_gt_0 radix2 970). lra. }
  exists w. split; [exact E|]. pose proof (C68_document_faithful_partial ls w Hl E) as F.
  assert (B : forall l, In l ls -> Rabs (lit_value l) <= pow2 39) by (intros l Hin; now apply (usual_bound _ _ Hu), in_map).
  clear -F B. induction F as [|l c ls w (V & K & _) F IH]; cbn [map]; constructor; [|apply IH; intros l' Hl'; apply B; now right].
  destruct K as (Fc & _ & _ & Ke).
  { eapply Rle_trans; [apply B; now left|]. assert (pow2 128 = pow2 24 * pow2 104) by (rewrite <- bpow_plus; reflexivity).
    assert (pow2 39 <= pow2 104) by (apply bpow_le; lia). replace (pow2 24) with 16777216 in H by reflexivity.
    pose proof (bpow_gt_0 radix2 104). lra. }
  split; [exact V|]. split; [exact Fc|]. exact Ke.
Qed.

Lemma lit_close l : lit_ok l -> Rabs (lit_value l) <= pow2 39 -> exists c, f32_of_text (lit_text l) = Some c /\ close (lit_value l) c.
Proof.
  intros Hl B. destruct (proj2 (f32_text_iff l Hl)) as [c E].
  { eapply Rle_lt_trans; [exact B|]. unfold over32. assert (pow2 128 = pow2 25 * pow2 103) by (rewrite <- bpow_plus; reflexivity).
    assert (pow2 39 < pow2 103) by (apply bpow_lt; reflexivity). replace (pow2 25) with 33554432 in H by reflexivity.
    pose proof (bpow_gt_0 radix2 103). lra. }
  exists c. split; [exact E|]. destruct (f32_text_real _ _ E) as (v & Ev & V & F & R). rewrite (lit_num l Hl) in Ev. injection Ev as <-.
  split; [exact V|]. split; [exact F|]. rewrite R. pose proof (rnd32_err (lit_value l)) as K. unfold eta in K. eapply Rle_trans; [exact K|].
  assert (pow2 (-150) <= pow2 (-149)) by (apply bpow_le; lia). pose proof (bpow_ge_0 radix2 (-52)). pose proof (Rabs_pos (lit_value l)).
  assert (0 <= pow2 (-52) * Rabs (lit_value l)) by (apply Rmult_le_pos; lra). lra.
Qed.

Lemma query_close ls : Forall lit_ok ls -> usual (map lit_value ls) ->
  exists w, dec_slice (dec_f32 f32_zero) (JArr (array_of ls)) = Some (Some w) /\ Forall2 close (map lit_value ls) w.
Proof.
  intros Hl Hu. assert (B : forall l, In l ls -> Rabs (lit_value l) <= pow2 39) by (intros l Hin; now apply (usual_bound _ _ Hu), in_map).
  clear Hu. assert (K : exists w, dec_all (dec_f32 f32_zero) (array_of ls) = Some w /\ Forall2 close (map lit_value ls) w).
  { induction Hl as [|l ls H1 Hl IH]; [exists []; split; [reflexivity|constructor]|].
    destruct (lit_close l H1 (B l (or_introl eq_refl))) as (c & Ec & Cc).
    destruct IH as (w & Ew & Cw); [intros l' Hl'; apply B; now right|]. exists (c :: w). cbn [array_of map dec_all]. fold (array_of ls).
    cbn [dec_f32]. rewrite Ec, Ew. split; [reflexivity|constructor; assumption]. }
  destruct K as (w & Ew & Cw). exists w. cbn [dec_slice]. rewrite Ew. auto.
Qed.

(* ------------------------------------------------------------------ *)
(** The history as the client sees it. *)
Lemma j_raw_docs ds : raw_docs (map j_raw ds) = Some (map (fun d => Some (mkDoc (j_id d) (j_props d))) ds).
Proof. induction ds as [|d ds IH]; [reflexivity|]. cbn [map raw_docs j_raw]. now rewrite IH. Qed.
Lemma j_pairs ds : combine (map (fun d => Some (mkDoc (j_id d) (j_props d))) ds) (map j_orc ds) = map vd_pair (map j_vdoc ds).
Proof. induction ds as [|d ds IH]; [reflexivity|]. cbn [map combine]. now rewrite IH. Qed.
Lemma j_vt lk keys uuid n ds : Forall (jdoc_ok uuid n) ds -> Forall (vt_ok lk keys) (map j_vdoc ds).
Proof.
  intros H. apply Forall_forall. intros v Hv. apply in_map_iff in Hv. destruct Hv as (d & <- & Hd). rewrite Forall_forall in H.
  destruct (H d Hd) as (Hl & _ & Hu & _ & _ & _ & M & P). left. destruct (doc_close _ Hl Hu) as (w & Ew & _).
  unfold vd_ok, j_vdoc. cbn [vd_doc vd_list vd_vec vd_orc di_props]. rewrite Ew. auto.
Qed.

Lemma j_add uuid n st R lk name keys ds : jreq_ok uuid n st (JAdd R lk name keys ds) ->
  hreq_ok st (HAdd R lk keys (map j_vdoc ds)) /\
  serve uuid st (jreq_req (JAdd R lk name keys ds)) = req_step st (hreq_req (HAdd R lk keys (map j_vdoc ds))).
Proof.
  intros (Hne & HR & Hd & Hs). cbn [jreq_req serve hreq_req req_step hreq_ok].
  assert (E : bind_add uuid (j_body name keys ds) = Some (mkAddReq (Some (map j_raw ds)) name (Some keys))).
  { apply add_as_sent. cbn [aq_docs]. intros l d [= <-] Hin. apply in_map_iff in Hin. destruct Hin as (j & [= <-] & Hj).
    rewrite Forall_forall in Hd. destruct (Hd j Hj) as (_ & _ & _ & D & _ & U & _). cbn [rd_props rd_id]. auto. }
  unfold serve_add in *. rewrite E in *. cbn [aq_name aq_docs aq_keys] in *. unfold handle_add in *.
  destruct (String.eqb name ""); [discriminate|]. rewrite j_raw_docs, j_pairs in *.
  destruct (add_documents R lk keys (map vd_pair (map j_vdoc ds)) st) as [st' [[]|e| |]]; try discriminate.
  cbn [fst snd]. split; [|reflexivity]. split; [now destruct ds|]. split; [exact HR|]. split; [|reflexivity]. now apply (j_vt _ _ uuid n).
Qed.

Lemma near_response_fst r : fst (near_response r) = fst r.
Proof. destruct r as [st [[docs dists]|e| |]]; reflexivity. Qed.

(** Another request is no request to the client, or one. *)
Lemma j_else uuid n st q : jreq_ok uuid n st (JElse q) ->
  serve uuid st q = st \/ exists c, hreq_ok st (HOther c) /\ serve uuid st q = req_step st c.
Proof.
  destruct q as [R lk orcs b|Q lk V b|Q b|R ok qs| |]; cbn [jreq_ok serve].
  - intros E. left. unfold serve_add. now rewrite E.
  - intros _. unfold serve_text. destruct (bind_text b) as [r|]; [|now left]. unfold handle_near_text.
    destruct (String.eqb _ ""); [now left|]. destruct (String.eqb _ ""); [now left|]. right. rewrite near_response_fst.
    exists (QText Q lk (V (tq_text r)) (tq_dist r) (tq_limit r)). split; [exact I|reflexivity].
  - intros _. unfold serve_vec. destruct (bind_vec b) as [r|]; [|now left]. unfold handle_near_vector.
    destruct (String.eqb _ ""); [now left|]. destruct (vq_vec r) as [v|]; [|now left]. right. rewrite near_response_fst.
    exists (QVec Q v (vq_dist r) (vq_limit r)). split; [exact I|reflexivity].
  - intros _. unfold serve_get. destruct (bind_get qs) as [[[c p] v]|]; [|now left]. destruct (String.eqb p "id"); [|now left].
    unfold handle_get. destruct (String.eqb c ""); [now left|]. right. exists (QGet R ok v). split; [exact I|]. cbn [req_step].
    destruct (get_document R ok v st) as [s [d|e| |]]; reflexivity.
  - intros _. right. exists QCreate. split; [exact I|reflexivity].
  - intros _. right. exists QRestart. split; [exact I|reflexivity].
Qed.

Lemma j_history uuid n js : forall st, jhist_ok uuid n st js ->
  exists hs, run_http uuid st (jreqs js) = run_reqs st (hist_reqs hs) /\ hist_docs hs = map j_vdoc (jdocs js) /\ hist_ok st hs.
Proof.
  induction js as [|q js IH]; intros st; [exists []; repeat split|]. intros [Hq H]. cbn [jreqs map run_http].
  change (map jreq_req js) with (jreqs js).
  destruct q as [R lk name keys ds|q].
  - destruct (j_add _ _ _ _ _ _ _ _ Hq) as [K E]. rewrite E in *. destruct (IH _ H) as (hs & E1 & E2 & E3).
    exists (HAdd R lk keys (map j_vdoc ds) :: hs). split; [exact E1|]. split; [|split; assumption].
    cbn [hist_docs flat_map hreq_docs jdocs jreq_docs]. rewrite map_app. f_equal. exact E2.
  - cbn [jreq_req] in *. destruct (j_else _ _ _ _ Hq) as [E|(c & K & E)]; rewrite E in *; destruct (IH _ H) as (hs & E1 & E2 & E3).
    + exists hs. auto.
    + exists (HOther c :: hs). split; [exact E1|]. split; [exact E2|split; assumption].
Qed.

(* ------------------------------------------------------------------ *)
(** The response. *)
Lemma pdel_in2 k x : forall p (kx : string * jval), In kx (pdel x p) -> k = fst kx -> In kx p /\ k <> x.
Proof.
  intros p kx H ->. unfold pdel in H. apply filter_In in H. destruct H as [H E]. split; [exact H|]. intros <-.
  rewrite String.eqb_refl in E. discriminate.
Qed.
Lemma stored_rereads uuid n d b : jdoc_ok uuid n d -> (b < 1000)%N -> exists r, reread_props (stored_props (stored b (j_vdoc d))) = Some r.
Proof.
  intros (_ & _ & _ & _ & Hn & _) Hb. apply reread_props_fine. intros k j. unfold stored_props, stored, j_vdoc.
  cbn [vd_doc vd_vec di_id di_props sd_hnsw sd_props]. unfold pset at 1. cbn [In]. intros [[= <- <-]|H].
  - cbn [num_fine]. destruct (f64_int (Z.of_N b)) as (x & -> & _); [lia|reflexivity].
  - apply (pdel_in2 k) in H; [|reflexivity]. destruct H as [H _]. revert H. rewrite pget_pset.
    change (String.eqb "vector" "id") with false. cbv iota. unfold j_props at 1. cbn [pget String.eqb]. 
    change (String.eqb "vector" "vector") with true. cbv iota. intros H. apply (pdel_in2 k) in H; [|reflexivity]. destruct H as [H Kv].
    cbn [fst] in *. unfold pset in H. destruct H as [[= <- <-]|H]; [reflexivity|]. apply (pdel_in2 k) in H; [|reflexivity].
    destruct H as [[[= <- <-]|H] _]; [congruence|]. now apply (Hn k).
Qed.
Lemma stored_faithful d b : faithful (vd_doc (j_vdoc d)) (stored b (j_vdoc d)).
Proof.
  unfold stored. rewrite pget_pset. change (String.eqb "vector" "id") with false. cbv iota.
  cbn [j_vdoc vd_doc vd_vec di_props di_id]. unfold j_props at 1. cbn [pget]. change (String.eqb "vector" "vector") with true.
  cbv iota. apply (faithful_pdel (mkDoc (j_id d) (j_props d))).
Qed.

Lemma show_all_ok docs : forall dists, (length docs <= length dists)%nat ->
  (forall o, In o docs -> exists s r, o = Some s /\ reread_props (stored_props s) = Some r) ->
  exists rs, show_all docs dists = Ok rs.
Proof.
  induction docs as [|o docs IH]; intros dists Hl H; cbn [show_all]; [eauto|].
  destruct (H o (or_introl eq_refl)) as (s & r & -> & E). rewrite E. destruct dists as [|x dists]; [cbn in Hl; lia|].
  destruct (IH dists) as (rs & ->); [cbn in Hl; lia|intros o Ho; apply H; now right|]. cbn [bind]. unfold show_near. rewrite E. eauto.
Qed.
Lemma forall2_nth {A B} (P : A -> B -> Prop) l m : Forall2 P l m -> forall i,
  match nth_error l i, nth_error m i with Some a, Some b => P a b | None, None => True | _, _ => False end.
Proof. induction 1 as [|a b l m H _ IH]; intros [|i]; cbn [nth_error]; auto. apply IH. Qed.
