(** Properties C42, C43, C49, C50: creating, listing and deleting collections. *)
From Coq Require Import String.
From Verif Require Import Base F32 PQ Graph Search Insert InsertHist Distancer Persist Client
  TestGraph TestInsert PropClient Collections CollectionsProofs.
Local Open Scope string_scope.

(** Oracles of the examples: everything works; the second store call of a create
    fails; one of the two calls of a delete fails. *)
Definition cok : corc := mkCO true true true true true true true.
Definition ckvfail : corc := mkCO true true true false true true true.
Definition xok : xorc := mkXO true true true true.
Definition xdocfail : xorc := mkXO true true false true.
Definition xkvfail : xorc := mkXO true true true false.
Definition body1 : cbody := mkB "a" (Some [Some ("title", "string"); Some ("year", "number"); Some ("tags", "list")]).

(* ------------------------------------------------------------------ *)
(** C42.  [documented t T]: [t] is one of the four documented type names and [T]
    the index type.  An accepted request has a name, a list of indexes and only
    documented types or "bytes"; a collection that did not exist then has the
    index "hnswId" of type number and, for every other field, the last documented
    type that the request gives it ([asks]), and no documents.
    Missing from the full statement: see the refutations below. *)
Theorem C42_validated_partial : forall w b p,
  snd (handle_create w b p) = Ok200 tt ->
  b_name b <> "" /\ exists l, b_indexes b = Some l /\
    (forall e, In e l -> exists f t, e = Some (f, t) /\ (t = "bytes" \/ exists T, documented t T)) /\
    (aget (namespaced (b_name b)) (p_docs p) = None ->
     exists idx, aget (namespaced (b_name b)) (p_docs (fst (handle_create w b p))) = Some (idx, []) /\
       forall f T, aget f idx = Some T <-> (f = "hnswId" /\ T = INum) \/ (f <> "hnswId" /\ asks l f T)).
Proof. exact create_accepted. Qed.
Print Assumptions C42_validated_partial.

(** A rejected request changes nothing. *)
Theorem C42_rejected : forall w b p,
  (b_name b = "" \/ b_indexes b = None \/
   exists l f t, b_indexes b = Some l /\ In (Some (f, t)) l /\ t <> "bytes" /\ forall T, ~ documented t T) ->
  snd (handle_create w b p) <> Ok200 tt /\ fst (handle_create w b p) = p.
Proof. exact create_rejected. Qed.
Print Assumptions C42_rejected.

Example C42_nonvacuous :
  snd (handle_create cok body1 new_pod) = Ok200 tt /\
  handle_list true true true (fst (handle_create cok body1 new_pod)) =
    Ok200 [("a", [("hnswId", "number"); ("tags", "list"); ("year", "number"); ("title", "string")])] /\
  snd (handle_create cok (mkB "a" (Some [Some ("title", "date")])) new_pod) = Bad400 EOther.
Proof. repeat split. Qed.

(** "bytes" is not a documented type, is accepted, and creates no index. *)
Theorem C42_bytes_refuted : exists b, (exists f, b_indexes b = Some [Some (f, "bytes")]) /\
  snd (handle_create cok b new_pod) = Ok200 tt /\ (forall T, ~ documented "bytes" T) /\
  aget (namespaced (b_name b)) (p_docs (fst (handle_create cok b new_pod))) = Some ([("hnswId", INum)], []).
Proof.
  exists (mkB "a" (Some [Some ("data", "bytes")])). split; [now exists "data"|]. split; [reflexivity|]. split; [|reflexivity].
  intros T. unfold documented. intuition discriminate.
Qed.
Print Assumptions C42_bytes_refuted.

(** An index that the caller asks for under the reserved name gets another type. *)
Theorem C42_reserved_refuted : exists b, b_indexes b = Some [Some ("hnswId", "string")] /\
  snd (handle_create cok b new_pod) = Ok200 tt /\
  aget (namespaced (b_name b)) (p_docs (fst (handle_create cok b new_pod))) = Some ([("hnswId", INum)], []).
Proof. exists (mkB "a" (Some [Some ("hnswId", "string")])). repeat split. Qed.
Print Assumptions C42_reserved_refuted.

(** Creating a collection that exists is answered with success, but none of the
    requested indexes is created. *)
Theorem C42_existing_refuted : exists b p, p = fst (handle_create cok body1 new_pod) /\
  b_name b = b_name body1 /\ b_indexes b = Some [Some ("author", "string")] /\
  snd (handle_create cok b p) = Ok200 tt /\ p_docs (fst (handle_create cok b p)) = p_docs p.
Proof. exists (mkB "a" (Some [Some ("author", "string")])). eexists. repeat split. Qed.
Print Assumptions C42_existing_refuted.

(** A null among the indexes crashes the handler. *)
Theorem C42_null_refuted : exists b, b_indexes b = Some [None] /\ snd (handle_create cok b new_pod) = Crash.
Proof. exists (mkB "a" (Some [None])). now split. Qed.
Print Assumptions C42_null_refuted.

(* ------------------------------------------------------------------ *)
(** C43.  [live log] are the names whose creation was answered with success, and
    whose deletion was not since then.  [listed p] are the names in the answer of
    a successful listing.  Every history, names and failures. *)
Theorem C43_listed_names : forall p l,
  get_collections true true true p = Ok l -> map fst l = listed p.
Proof. exact listed_get. Qed.

(** Without a session, without the pod, or if the store cannot list, the answer is an error. *)
Theorem C43_listing_fails : forall session podopen ok p,
  (exists l, handle_list session podopen ok p = Ok200 l) <-> session = true /\ podopen = true /\ ok = true.
Proof.
  intros [|] [|] [|] p; unfold handle_list; cbn; (split; [intros [l H]; first [discriminate H|auto]|intros (H1 & H2 & H3); first [discriminate|eexists; reflexivity]]).
Qed.
Print Assumptions C43_listing_fails.
(** All of them are listed, and nothing twice, whatever fails. *)
Theorem C43_created_are_listed : forall qs n,
  In n (live (answers new_pod qs)) -> In n (listed (run_pod new_pod qs)).
Proof. intros qs n H. apply listed_In. apply (live_has qs new_pod []); [intros m []|exact H]. Qed.
Print Assumptions C43_created_are_listed.

Theorem C43_no_duplicates : forall qs, NoDup (listed (run_pod new_pod qs)).
Proof. intros qs. apply listed_nodup, run_nodup. constructor. Qed.
Print Assumptions C43_no_duplicates.

(** What is listed was the name of a create request that passed the checks, or of
    a foreign database inside the name space. *)
Theorem C43_listed_were_requested : forall qs n,
  In n (listed (run_pod new_pod qs)) ->
  (exists w b, In (PCreate w b) qs /\ b_name b = n /\ n <> "") \/ exists idx, In (PForeign (namespaced n) idx) qs.
Proof.
  intros qs n H. apply listed_In in H. apply (has_asked qs new_pod n) in H. destruct H as [H|(q & Hq & Hm)]; [now destruct H|].
  destruct q as [w b|w m|f idx|m ds t|]; cbn [makes_db] in Hm; try contradiction.
  - left. exists w, b. destruct Hm as (H1 & H2 & _). split; [exact Hq|]. split; [exact H1|].
    destruct (body_map b) as [m|] eqn:Eb; [|congruence]. rewrite <- H1. apply (body_map_inv _ _ Eb).
  - right. exists idx. now rewrite <- Hm.
Qed.
Print Assumptions C43_listed_were_requested.

(** Exactly the live ones, if no create request breaks off between the stores, no
    deletion of the document database fails, and no other program uses the name
    space ([whole]).  Missing: these three cases, where it is false. *)
Theorem C43_listing_exact_partial : forall qs n, Forall whole qs ->
  In n (listed (run_pod new_pod qs)) <-> In n (live (answers new_pod qs)).
Proof.
  intros qs n Hw. split; [|apply C43_created_are_listed]. intros H. apply listed_In in H.
  apply (has_live qs new_pod []); [intros m Hm; now destruct Hm|exact Hw|exact H].
Qed.
Print Assumptions C43_listing_exact_partial.

(** Names with and equal to the internal prefix; a rejected request; a deletion. *)
Definition hist43 : list preq :=
  [PCreate cok (mkB "fave_" (Some [])); PCreate cok (mkB "fave_x" (Some [])); PForeign "notes" [("k", IStr)];
   PCreate cok body1; PCreate cok (mkB "" (Some [])); PDelete xok "a"; PRestart; PCreate cok (mkB "x" (Some []))].
Example C43_nonvacuous : Forall whole hist43 /\
  listed (run_pod new_pod hist43) = ["x"; "fave_x"; "fave_"] /\
  live (answers new_pod hist43) = ["x"; "fave_x"; "fave_"].
Proof. split; [repeat constructor; discriminate|]. split; reflexivity. Qed.

Theorem C43_failed_create_refuted : exists qs n,
  In n (listed (run_pod new_pod qs)) /\ ~ In n (live (answers new_pod qs)) /\
  Forall (fun q => match q with PForeign _ _ | PDelete _ _ => False | _ => True end) qs.
Proof.
  exists [PCreate ckvfail body1], "a". split; [now left|]. split; [intros []|]. repeat constructor.
Qed.
Print Assumptions C43_failed_create_refuted.

Theorem C43_failed_delete_refuted : exists qs n,
  In n (listed (run_pod new_pod qs)) /\ ~ In n (live (answers new_pod qs)) /\
  exists w, qs = [PCreate cok body1; PDelete w n] /\ map snd (answers new_pod qs) = [Ok200 tt; Ok200 tt].
Proof.
  exists [PCreate cok body1; PDelete xdocfail "a"], "a". split; [now left|]. split; [intros []|]. now exists xdocfail.
Qed.
Print Assumptions C43_failed_delete_refuted.

Theorem C43_foreign_refuted : exists qs n,
  In n (listed (run_pod new_pod qs)) /\ Forall (fun q => match q with PForeign _ _ => True | _ => False end) qs.
Proof. exists [PForeign "fave_x" []], "x". split; [now left|]. repeat constructor. Qed.
Print Assumptions C43_foreign_refuted.

(* ------------------------------------------------------------------ *)
(** C49.  If both store deletions succeed, a collection that is deleted and
    created again is the collection of a first creation, whatever the pod
    contained before.  Missing: failing store deletions, of which the caller is
    not told; there it is false. *)
Theorem C49_recreated_empty_partial : forall w1 w2 b p,
  snd (handle_delete w1 (b_name b) p) = Ok200 tt -> xo_docdel w1 = true -> xo_kvdel w1 = true ->
  snd (handle_create w2 b (fst (handle_delete w1 (b_name b) p))) = Ok200 tt ->
  coll_of (fst (handle_create w2 b (fst (handle_delete w1 (b_name b) p)))) (b_name b) = Some new_coll.
Proof. exact delete_create_empty. Qed.
Print Assumptions C49_recreated_empty_partial.

(** A collection with the three documents of [PropClient.req1] in it. *)
Definition tab1 : kvtab := mkT (h_kv (c_h st1)) (h_kv_ep (c_h st1)) (h_kv_count (c_h st1)).
Definition used (name : string) : list preq := [PCreate cok (mkB name (Some [])); PUse name (c_docs st1) tab1].
Definition again (w : xorc) (name : string) : pod :=
  run_pod new_pod (app (used name) [PDelete w name; PCreate cok (mkB name (Some []))]).
Definition ndocs (c : option coll) : option nat := option_map (fun c => length (c_docs c)) c.

Example C49_nonvacuous :
  ndocs (coll_of (run_pod new_pod (used "a")) "a") = Some 3 /\ coll_of (again xok "a") "a" = Some new_coll.
Proof. split; vm_compute; reflexivity. Qed.

(** The table was not deleted: the old vectors are found, their documents are
    not, so every nearest query fails. *)
Theorem C49_stale_vectors_refuted : exists w c,
  map snd (answers new_pod (app (used "a") [PDelete w "a"; PCreate cok (mkB "a" (Some []))])) =
    [Ok200 tt; Ok200 tt; Ok200 tt; Ok200 tt] /\
  coll_of (again w "a") "a" = Some c /\ c_docs c = [] /\
  snd (near_by_vector (qok 3) c (q_of [0; 3]%Z) two 3) = Err EDocNotFound.
Proof.
  exists xkvfail. eexists. split; [vm_compute; reflexivity|]. split; [vm_compute; reflexivity|].
  split; [reflexivity|]. vm_compute. reflexivity.
Qed.
Print Assumptions C49_stale_vectors_refuted.

(** The documents were not deleted: they are back in the new collection, and a
    new document shares its index id with an old one. *)
Theorem C49_stale_documents_refuted : exists w c,
  coll_of (again w "a") "a" = Some c /\ length (c_docs c) = 3 /\
  exists c', c' = fst (add_documents rok true ["text"] [docv "z" [0; 5]%Z] c) /\
    snd (add_documents rok true ["text"] [docv "z" [0; 5]%Z] c) = Ok tt /\
    exists d1 d2, In d1 (c_docs c') /\ In d2 (c_docs c') /\ sd_id d1 = "z" /\ sd_id d2 = "a" /\ sd_hnsw d1 = sd_hnsw d2.
Proof.
  exists xdocfail. eexists. split; [vm_compute; reflexivity|]. split; [reflexivity|]. eexists. split; [vm_compute; reflexivity|].
  split; [vm_compute; reflexivity|]. eexists _, _. split; [left; reflexivity|]. split; [right; right; right; left; reflexivity|].
  repeat split.
Qed.
Print Assumptions C49_stale_documents_refuted.

(* ------------------------------------------------------------------ *)
(** C50.  In one pod, two cached vectors have the same key only if they belong to
    the same id of the same collection; names are arbitrary strings. *)
Theorem C50_cache_keys_distinct : forall podname n1 n2 i1 i2,
  cache_key podname n1 i1 = cache_key podname n2 i2 -> n1 = n2 /\ i1 = i2.
Proof. exact cache_key_inj. Qed.
Print Assumptions C50_cache_keys_distinct.
Example C50_nonvacuous :
  cache_key "pod" "a/1" 20 = "pod/fave_a/1/20" /\ cache_key "pod" "a" 120 = "pod/fave_a/120" /\ cache_key "p" "" 0 = "p/fave_/0".
Proof. repeat split. Qed.

(** Deleting unregisters the index, whether or not the stores could be deleted. *)
Theorem C49_unregistered : forall w name p,
  snd (handle_delete w name p) = Ok200 tt -> ~ In (namespaced name) (p_idx (fst (handle_delete w name p))).
Proof.
  intros w name p. unfold handle_delete, delete_collection.
  destruct (xo_session w && xo_pod w); cbn [negb fst snd p_idx]; [|discriminate]. intros _ H. now apply remove_In in H.
Qed.
Print Assumptions C49_unregistered.
Example C49_unregistered_nonvacuous :
  p_idx (run_pod new_pod (used "a")) = ["fave_a"] /\
  snd (handle_delete xkvfail "a" (run_pod new_pod (used "a"))) = Ok200 tt.
Proof. split; vm_compute; reflexivity. Qed.

(* ------------------------------------------------------------------ *)
(** C63.  [names q] is the collection a request is about.  Whatever fails on the
    way: the document database, the table and the registration of every other
    collection stay as they are; a restart only forgets the registrations. *)
Definition names (q : preq) : string :=
  match q with
  | PCreate _ b => namespaced (b_name b)
  | PDelete _ n => namespaced n
  | PForeign n _ => n
  | PUse n _ _ => namespaced n
  | PRestart => ""
  end.
Theorem C63_others_untouched : forall q p n,
  names q <> namespaced n ->
  let p' := fst (pod_step p q) in
  aget (namespaced n) (p_docs p') = aget (namespaced n) (p_docs p) /\
  aget (namespaced n) (p_kv p') = aget (namespaced n) (p_kv p) /\
  (q <> PRestart -> In (namespaced n) (p_idx p') <-> In (namespaced n) (p_idx p)).
Proof. exact others_untouched. Qed.
Print Assumptions C63_others_untouched.

(** Over a history: the collection answers as it did before. *)
Theorem C63_history : forall qs p n,
  (forall q, In q qs -> names q <> namespaced n /\ q <> PRestart) ->
  coll_of (run_pod p qs) n = coll_of p n.
Proof.
  induction qs as [|q qs IH]; intros p n H; [reflexivity|]. cbn [run_pod]. rewrite IH by (intros; apply H; now right).
  destruct (H q (or_introl eq_refl)) as [H1 H2]. destruct (others_untouched q p n H1) as (A & B & C). specialize (C H2).
  unfold coll_of. rewrite A, B. destruct (aget _ (p_docs p)) as [[i ds]|]; [|reflexivity].
  destruct (aget _ (p_kv p)) as [t|]; [|reflexivity]. do 2 f_equal.
  destruct (in_dec string_dec _ (p_idx (fst (pod_step p q)))) as [Hi|Hi], (in_dec string_dec _ (p_idx p)) as [Hj|Hj]; tauto.
Qed.
Print Assumptions C63_history.

(** Names that begin like the other one, or like its stored name. *)
Definition hist63 : list preq :=
  [PCreate cok (mkB "ab" (Some [])); PCreate ckvfail (mkB "fave_a" (Some [])); PDelete xkvfail "ab"; PForeign "a" [];
   PDelete xok "fave_a"].
Example C63_nonvacuous :
  (forall q, In q hist63 -> names q <> namespaced "a" /\ q <> PRestart) /\
  ndocs (coll_of (run_pod new_pod (app (used "a") hist63)) "a") = Some 3.
Proof.
  split; [|vm_compute; reflexivity]. cbn [hist63 In]. intros q H. repeat (destruct H as [<-|H]; [split; discriminate|]). destruct H.
Qed.
