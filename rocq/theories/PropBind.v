(** C70: requests reach the handlers as they were sent. *)
From Coq Require Import String Ascii Reals Lra.
From Verif Require Import Base F32 F32Real F32Norm F32Cmp JsonNum NumProofs Graph Search Insert InsertHist Persist Distancer TestGraph TestInsert
  Client ClientProofs PropClient Collections Handlers Vectorizer PropNumbers Bind BindProofs.
Local Open Scope string_scope.

(** A request written as JSON from its Go type arrives unchanged: an add request
    whose ids are UUIDs or empty, and whose properties have no two equal names in
    one object; queries, whose numbers are written so that they read back
    ([ftext]; strconv does); a collection. *)
Theorem C70_add_as_sent : forall uuid r,
  (forall ds d, aq_docs r = Some ds -> In (Some d) ds -> distinct (rd_props d) /\ (rd_id d = "" \/ uuid (rd_id d) = true)) ->
  forall R lookup orcs st,
    serve_add uuid R lookup orcs (Body (add_json r)) st = handle_add R lookup orcs (aq_name r) (aq_docs r) (aq_keys r) st.
Proof. intros uuid r H R lookup orcs st. unfold serve_add. now rewrite (add_as_sent uuid r H). Qed.
Theorem C70_query_as_sent : forall ftext dist limit name,
  dist <> S754_zero true -> f32_of_text (ftext dist) = Some dist -> (-9223372036854775808 <= limit < 9223372036854775808)%Z ->
  (forall text Q lookup V st,
    serve_text Q lookup V (Body (text_json ftext (mkTextReq dist limit name text))) st =
      handle_near_text Q lookup (V text) name text dist limit st) /\
  (forall q Q st, (forall v x, q = Some v -> In x v -> f32_of_text (ftext x) = Some x) ->
    serve_vec Q (Body (vec_json ftext (mkVecReq dist limit name q))) st = handle_near_vector Q name q dist limit st).
Proof.
  intros ftext dist limit name Hz Hd Hl. split.
  - intros text Q lookup V st. unfold serve_text. rewrite text_as_sent by assumption. reflexivity.
  - intros q Q st Hq. unfold serve_vec. rewrite vec_as_sent by assumption. reflexivity.
Qed.
Theorem C70_collection_as_sent : forall w r p, serve_create w (Body (coll_json r)) p = handle_create w r p.
Proof. intros w r p. unfold serve_create. now rewrite coll_as_sent. Qed.
Print Assumptions C70_add_as_sent.
Print Assumptions C70_query_as_sent.
Print Assumptions C70_collection_as_sent.

Definition uuid36 (s : string) : bool := Nat.eqb (String.length s) 36.
Definition uid (c : string) : string := "00000000-0000-4000-8000-00000000000" ++ c.
Definition req70 : add_req := mkAddReq
  (Some [Some (mkRaw (uid "a") (JObj [("name", JStr "A"); ("vector", JArr [num 1; num 0])]));
         Some (mkRaw (uid "b") (JObj [("name", JStr "B"); ("more", JObj [("x", JNum "1.50"); ("y", JArr [JNull; JBool true])]);
                                      ("vector", JArr [num 0; num 1])]))])
  "c" (Some []).
Definition half_text (x : f32) : string := if feq x (f32_div (f32_of_Z 1) two) then "0.5" else if feq x two then "2" else "1".
Example C70_as_sent_nonvacuous :
  (forall ds d, aq_docs req70 = Some ds -> In (Some d) ds -> distinct (rd_props d) /\ (rd_id d = "" \/ uuid36 (rd_id d) = true)) /\
  (forall x, In x [two; f32_div (f32_of_Z 1) two; f32_of_Z 1] -> f32_of_text (half_text x) = Some x) /\
  exists st', serve_add uuid36 rok true [ook; ook] (Body (add_json req70)) new_coll = (st', Ok200 2%nat) /\
    map sd_id (c_docs st') = [uid "b"; uid "a"] /\
    exists rs, snd (serve_vec (qok 2) (Body (vec_json half_text (mkVecReq two 2 "c" (Some [f32_of_Z 1; f32_div (f32_of_Z 1) two])))) st') = Ok200 rs /\
      map ro_id rs = [uid "a"; uid "b"].
Proof.
  split; [|split].
  - intros ds d [= <-] [[= <-]|[[= <-]|[]]]; (split; [|right; reflexivity]); cbn [rd_props distinct map fst];
      repeat split; repeat constructor; cbn; intuition congruence.
  - intros x [<-|[<-|[<-|[]]]]; vm_compute; reflexivity.
  - eexists. split; [vm_compute; reflexivity|]. split; [vm_compute; reflexivity|]. eexists. split; vm_compute; reflexivity.
Qed.

(** Any order and any case of the names: the numbers of a query body. *)
Theorem C70_query_numbers : forall l r,
  bind_vec (Body (JObj l)) = Some r ->
  (forall k s, In (k, JNum s) l -> is_field "limit" k = true ->
    exists z, num_value s = Some (IZR z) /\ (-9223372036854775808 <= z < 9223372036854775808)%Z) /\
  (forall k x, In (k, x) l -> is_field "limit" k = true \/ is_field "distance" k = true -> x = JNull \/ exists s, x = JNum s) /\
  (forall k x, In (k, x) l -> is_field "vector" k = true ->
    x = JNull \/ exists xs, x = JArr xs /\ Forall (fun y => y = JNull \/ exists s, y = JNum s) xs) /\
  (forall k x, In (k, x) l -> is_field "name" k = true -> x = JNull \/ exists s, x = JStr s).
Proof.
  intros l r H. unfold bind_vec, bind_body in H. cbn [dec_struct] in H.
  destruct (dec_fields step_vec l _) as [r'|] eqn:E; [|discriminate]. clear H.
  assert (Bad : forall k x, In (k, x) l -> (forall a, step_vec k x a = None) -> False).
  { intros k x Hin Hb. now rewrite (dec_fields_bad step_vec l k x Hin Hb) in E. }
  assert (Ex : forall k n m, is_field n k = true -> is_field m k = true -> lower n = lower m).
  { intros k n m H1 H2. apply String.eqb_eq in H1, H2. congruence. }
  assert (No : forall k n m, is_field n k = true -> String.eqb (lower n) (lower m) = false -> is_field m k = false).
  { intros k n m H1 H2. destruct (is_field m k) eqn:E2; [|reflexivity]. apply String.eqb_neq in H2. now destruct (H2 (Ex k n m H1 E2)). }
  split; [|split; [|split]].
  - intros k s Hin Hk. destruct (parse_int s) as [z|] eqn:Ez; [exists z; now apply parse_int_value|].
    exfalso. apply (Bad k (JNum s) Hin). intros a. unfold step_vec. rewrite (No k _ "distance" Hk eq_refl), Hk. cbn [dec_int]. now rewrite Ez.
  - intros k x Hin [Hk|Hk]; destruct x; try (now left); try (right; eexists; reflexivity); exfalso; apply (Bad _ _ Hin); intros a; unfold step_vec;
      [rewrite (No k _ "distance" Hk eq_refl), Hk; reflexivity..| | | | |]; rewrite Hk; reflexivity.
  - intros k x Hin Hk.
    assert (S : forall a, step_vec k x a = match dec_slice (dec_f32 f32_zero) x with Some l => Some (mkVecReq (vq_dist a) (vq_limit a) (vq_name a) l) | None => None end).
    { intros a. unfold step_vec. rewrite (No k _ "distance" Hk eq_refl), (No k _ "limit" Hk eq_refl), (No k _ "name" Hk eq_refl), Hk. reflexivity. }
    destruct (dec_slice (dec_f32 f32_zero) x) as [o|] eqn:D; [|exfalso; apply (Bad _ _ Hin); intros a; apply S].
    destruct x; try discriminate; [now left|]. right. eexists. split; [reflexivity|]. cbn [dec_slice] in D.
    destruct (dec_all (dec_f32 f32_zero) l0) as [v|] eqn:D2; [|discriminate]. clear -D2. revert v D2.
    induction l0 as [|y l IH]; intros v D; [constructor|]. cbn [dec_all] in D. destruct (dec_f32 f32_zero y) as [f|] eqn:Y; [|discriminate].
    destruct (dec_all (dec_f32 f32_zero) l) as [v'|]; [|discriminate]. constructor; [|now apply (IH v')].
    destruct y; try discriminate; [now left|right; eexists; reflexivity].
  - intros k x Hin Hk. destruct x; try (now left); try (right; eexists; reflexivity); exfalso; apply (Bad _ _ Hin); intros a; unfold step_vec;
      rewrite (No k _ "distance" Hk eq_refl), (No k _ "limit" Hk eq_refl), Hk; reflexivity.
Qed.
Print Assumptions C70_query_numbers.

(** A request that is not bound, because its body is missing, is no JSON or does
    not fit, is refused and changes nothing; so is one with an id that is neither
    empty nor a UUID. *)
Theorem C70_refused_unchanged : forall uuid R lookup orcs b st,
  (bind_add uuid b = None -> exists e, serve_add uuid R lookup orcs b st = (st, Bad400 e)) /\
  (forall r ds d, b = Body (add_json r) -> aq_docs r = Some ds -> In (Some d) ds ->
     (forall d', In (Some d') ds -> distinct (rd_props d')) -> rd_id d <> "" -> uuid (rd_id d) = false ->
     exists e, serve_add uuid R lookup orcs b st = (st, Bad400 e)) /\
  (forall Q, bind_vec b = None -> exists e, serve_vec Q b st = (st, Bad400 e)) /\
  (forall Q lk V, bind_text b = None -> exists e, serve_text Q lk V b st = (st, Bad400 e)) /\
  (forall ok qs, bind_get qs = None -> exists e, serve_get R ok qs st = (st, Bad400 e)).
Proof.
  intros uuid R lookup orcs b st. unfold serve_add, serve_vec, serve_text, serve_get.
  split; [intros ->; eauto|]. split; [|split; [intros Q ->; eauto|split; [intros Q lk V ->; eauto|intros ok qs ->; eauto]]].
  intros r ds d -> Hds Hin Hdis Hne Hu.
  assert (E : bind_add (fun _ => true) (Body (add_json r)) = Some r).
  { apply add_as_sent. intros ds' d' E Hd'. rewrite Hds in E. injection E as <-. split; [now apply Hdis|now right]. }
  assert (N : bind_add uuid (Body (add_json r)) = None).
  { unfold bind_add, bind_body in *. destruct (dec_struct step_add _ (add_json r)) as [r'|]; [|discriminate].
    destruct (valid_add (fun _ => true) r'); [|discriminate]. injection E as ->. unfold valid_add. rewrite Hds.
    destruct (forallb (valid_doc uuid) ds) eqn:F; [|reflexivity]. rewrite forallb_forall in F. specialize (F _ Hin). cbn [valid_doc] in F.
    rewrite Hu, Bool.orb_false_r in F. apply String.eqb_eq in F. contradiction. }
  rewrite N. eauto.
Qed.
Print Assumptions C70_refused_unchanged.
Example C70_refused_nonvacuous :
  bind_add uuid36 NoBody = None /\ bind_add uuid36 (Body (JArr [])) = None /\
  bind_add uuid36 (Body (JObj [("name", JNum "1")])) = None /\
  bind_vec (Body (JObj [("name", JStr "c"); ("vector", JArr [num 1; JStr "x"])])) = None /\
  bind_vec (Body (JObj [("name", JStr "c"); ("limit", JNum "1.0")])) = None /\
  bind_vec (Body (JObj [("name", JStr "c"); ("distance", JNum "1e39")])) = None /\
  bind_get [("collection", "c"); ("property", "id"); ("value", "")] = None /\
  snd (serve_add uuid36 rok true [ook] (Body (add_json (mkAddReq (Some [Some (mkRaw "a" (JObj [("vector", JArr [num 1; num 0])]))]) "c" (Some [])))) new_coll)
    = Bad400 EOther.
Proof. repeat split; vm_compute; reflexivity. Qed.

(** After any requests, a stored document has the id "" or a UUID. *)
Theorem C70_stored_ids : forall uuid qs s, In s (c_docs (run_http uuid new_coll qs)) -> sd_id s = "" \/ uuid (sd_id s) = true.
Proof. intros uuid qs s H. destruct (run_ids uuid qs new_coll s H) as [K|[]]. exact K. Qed.
Print Assumptions C70_stored_ids.
Example C70_stored_nonvacuous :
  map sd_id (c_docs (run_http uuid36 new_coll [PAdd rok true [ook; ook] (Body (add_json req70)); PRestart; PVec (qok 2) NoBody])) = [uid "b"; uid "a"].
Proof. vm_compute. reflexivity. Qed.

(** The query parameters of a read: each is the last value given, not empty. *)
Theorem C70_read_parameters : forall qs c p v, bind_get qs = Some (c, p, v) ->
  forall k x, In (k, x) [("collection", c); ("property", p); ("value", v)] ->
    x <> "" /\ exists l1 l2, qs = (l1 ++ (k, x) :: l2)%list /\ forall y, ~ In (k, y) l2.
Proof.
  intros qs c p v H.
  assert (B : forall k x, bind_param k qs = Some x -> x <> "" /\ exists l1 l2, qs = (l1 ++ (k, x) :: l2)%list /\ forall y, ~ In (k, y) l2).
  { clear. intros k x. unfold bind_param.
    pose proof (rev_involutive qs) as E. revert E. generalize (rev qs). intros rq <-. rename rq into qs.
    induction qs as [|[k' y] qs IH]; cbn [find fst]; [discriminate|]. destruct (String.eqb_spec k k') as [<-|Hk].
    - destruct (String.eqb_spec y "") as [E|E]; [discriminate|]. intros [= <-]. split; [exact E|]. exists (rev qs), []. split; [reflexivity|intros z []].
    - intros H. destruct (IH H) as (Hx & l1 & l2 & E & N). split; [exact Hx|]. exists l1, (l2 ++ [(k', y)])%list. cbn [rev].
      rewrite E, <- app_assoc. split; [reflexivity|]. intros z Hz. apply in_app_or in Hz. destruct Hz as [Hz|[[= -> _]|[]]]; [now apply (N z)|congruence]. }
  unfold bind_get in H. destruct (bind_param "collection" qs) as [c'|] eqn:E1; [|discriminate].
  destruct (bind_param "property" qs) as [p'|] eqn:E2; [|discriminate]. destruct (bind_param "value" qs) as [v'|] eqn:E3; [|discriminate].
  injection H as -> -> ->. intros k x [[= <- <-]|[[= <- <-]|[[= <- <-]|[]]]]; now apply B.
Qed.
Print Assumptions C70_read_parameters.
Example C70_read_nonvacuous :
  bind_get [("value", "x"); ("collection", "c"); ("property", "id"); ("value", "y")] = Some ("c", "id", "y").
Proof. reflexivity. Qed.

(* ------------------------------------------------------------------ *)
(** Full statement: what was not sent is refused, and what was sent is acted on.
    False in these cases. *)

(** A null in the query vector counts as zero. *)
Theorem C70_null_component_refuted : exists j j' q q' st rs,
  j = JObj [("name", JStr "c"); ("vector", JArr q); ("distance", JNum "2")] /\ In JNull q /\
  j' = JObj [("name", JStr "c"); ("vector", JArr q'); ("distance", JNum "2")] /\ q' = [JNum "0"; JNum "1"] /\
  serve_vec (qok 2) (Body j) st = serve_vec (qok 2) (Body j') st /\
  snd (serve_vec (qok 2) (Body j) st) = Ok200 rs /\ rs <> [].
Proof.
  eexists _, _, [JNull; JNum "1"], _, (fst (serve_add uuid36 rok true [ook; ook] (Body (add_json req70)) new_coll)).
  eexists. split; [reflexivity|]. split; [left; reflexivity|]. split; [reflexivity|]. split; [reflexivity|].
  split.
  { unfold serve_vec. match goal with |- match bind_vec ?a with _ => _ end = match bind_vec ?b with _ => _ end =>
      replace (bind_vec a) with (bind_vec b) by (vm_compute; reflexivity) end. reflexivity. }
  split; [vm_compute; reflexivity|]. discriminate.
Qed.
Print Assumptions C70_null_component_refuted.

(** A misspelt field is ignored: the query with "limits" is one without a limit. *)
Theorem C70_unknown_field_refuted : exists k x l, (forall n, In n ["distance"; "limit"; "name"; "vector"] -> n <> k) /\
  bind_vec (Body (JObj ((k, x) :: l))) = bind_vec (Body (JObj l)) /\ bind_vec (Body (JObj l)) <> None.
Proof.
  exists "limits", (JNum "3"), [("name", JStr "c"); ("vector", JArr [num 1])]. split; [|split; [vm_compute; reflexivity|vm_compute; discriminate]].
  intros n [<-|[<-|[<-|[<-|[]]]]]; discriminate.
Qed.
Print Assumptions C70_unknown_field_refuted.

(** A second name in another case replaces the first. *)
Theorem C70_name_case_refuted : exists l r, In ("name", JStr "mine") l /\ NoDup (map fst l) /\ bind_coll (Body (JObj l)) = Some r /\ b_name r <> "mine".
Proof.
  exists [("name", JStr "mine"); ("Name", JStr "other"); ("indexes", JArr [])], (mkB "other" (Some [])).
  split; [now left|]. split; [repeat constructor; cbn; intuition congruence|]. split; [vm_compute; reflexivity|discriminate].
Qed.
Print Assumptions C70_name_case_refuted.

(** Two documents without ids, different in their properties: both are
    acknowledged, one is stored (if the store takes the empty id). *)
Theorem C70_no_ids_refuted : exists r st' d,
  serve_add uuid36 rok true [ook; ook] (Body (add_json r)) new_coll = (st', Ok200 2%nat) /\
  aq_docs r = Some [Some d; Some (mkRaw "" (JObj [("name", JStr "B"); ("vector", JArr [num 0; num 1])]))] /\
  rd_props d = JObj [("name", JStr "A"); ("vector", JArr [num 1; num 0])] /\
  length (c_docs st') = 1%nat /\ (forall s, In s (c_docs st') -> pget "name" (sd_props s) <> Some (JStr "A")) /\ c_log st' = [].
Proof.
  eexists (mkAddReq (Some [Some (mkRaw "" (JObj [("name", JStr "A"); ("vector", JArr [num 1; num 0])]));
    Some (mkRaw "" (JObj [("name", JStr "B"); ("vector", JArr [num 0; num 1])]))]) "c" (Some [])), _, _.
  split; [vm_compute; reflexivity|]. split; [reflexivity|]. split; [reflexivity|]. split; [reflexivity|]. split; [|reflexivity].
  cbn [c_docs]. intros s [<-|[]]. vm_compute. discriminate.
Qed.
Print Assumptions C70_no_ids_refuted.

(** A member that is null is as good as absent, for all fields but the arrays and
    the properties, in any place of the body. *)
Theorem C70_null_is_absent : forall k, 
  (is_field "name" k = true -> forall uuid l1 l2,
     bind_add uuid (Body (JObj (l1 ++ (k, JNull) :: l2))) = bind_add uuid (Body (JObj (l1 ++ l2)))) /\
  (is_field "id" k = true -> forall l1 l2, dec_doc (JObj (l1 ++ (k, JNull) :: l2)) = dec_doc (JObj (l1 ++ l2))) /\
  (forall l1 l2, bind_text (Body (JObj (l1 ++ (k, JNull) :: l2))) = bind_text (Body (JObj (l1 ++ l2)))) /\
  (is_field "vector" k = false -> forall l1 l2,
     bind_vec (Body (JObj (l1 ++ (k, JNull) :: l2))) = bind_vec (Body (JObj (l1 ++ l2)))) /\
  (is_field "indexes" k = false -> forall l1 l2,
     bind_coll (Body (JObj (l1 ++ (k, JNull) :: l2))) = bind_coll (Body (JObj (l1 ++ l2)))) /\
  (forall name l1 l2, bind_coll (Body (JObj [("name", JStr name); ("indexes", JArr [JObj (l1 ++ (k, JNull) :: l2)])])) =
     bind_coll (Body (JObj [("name", JStr name); ("indexes", JArr [JObj (l1 ++ l2)])]))).
Proof.
  intros k.
  assert (Skip : forall (A : Type) (step : string -> jval -> A -> option A) l1 l2, (forall a, step k JNull a = Some a) ->
    forall a, dec_fields step (l1 ++ (k, JNull) :: l2) a = dec_fields step (l1 ++ l2) a).
  { intros A step l1 l2 H. induction l1 as [|[k1 x] l1 IH]; intros a; cbn [app dec_fields]; [now rewrite H|].
    destruct (step k1 x a); [apply IH|reflexivity]. }
  assert (Ix : forall a, step_index k JNull a = Some a).
  { intros [f t]. unfold step_index. destruct (is_field "fieldName" k); [reflexivity|]. now destruct (is_field "fieldType" k). }
  assert (No : forall n m, is_field n k = true -> String.eqb (lower n) (lower m) = false -> is_field m k = false).
  { intros n m H1 H2. unfold is_field in *. apply String.eqb_eq in H1. rewrite <- H1. now rewrite String.eqb_sym. }
  repeat match goal with |- _ /\ _ => split end.
  - intros Hk uuid l1 l2. unfold bind_add, bind_body, dec_struct. rewrite Skip; [reflexivity|].
    intros [d n q]. unfold step_add. rewrite (No _ "documents" Hk eq_refl), Hk. reflexivity.
  - intros Hk l1 l2. unfold dec_doc, dec_struct. rewrite Skip; [reflexivity|].
    intros [i q]. unfold step_doc. rewrite Hk. reflexivity.
  - intros l1 l2. unfold bind_text, bind_body, dec_struct. rewrite Skip; [reflexivity|].
    intros [d n q t]. unfold step_text. destruct (is_field "distance" k); [reflexivity|]. destruct (is_field "limit" k); [reflexivity|].
    destruct (is_field "name" k); [reflexivity|]. now destruct (is_field "text" k).
  - intros Hk l1 l2. unfold bind_vec, bind_body, dec_struct. rewrite Skip; [reflexivity|].
    intros [d n q t]. unfold step_vec. rewrite Hk. destruct (is_field "distance" k); [reflexivity|]. destruct (is_field "limit" k); [reflexivity|].
    now destruct (is_field "name" k).
  - intros Hk l1 l2. unfold bind_coll, bind_body, dec_struct. rewrite Skip; [reflexivity|].
    intros [n q]. unfold step_coll. rewrite Hk. now destruct (is_field "name" k).
  - intros name l1 l2. unfold bind_coll, bind_body. cbn [dec_struct dec_fields].
    assert (Hi : dec_slice (dec_ptr (dec_struct step_index ("", ""))) (JArr [JObj (l1 ++ (k, JNull) :: l2)]) =
                 dec_slice (dec_ptr (dec_struct step_index ("", ""))) (JArr [JObj (l1 ++ l2)])).
    { cbn [dec_slice dec_all dec_ptr dec_struct]. now rewrite Skip. }
    destruct (step_coll "name" (JStr name) _) as [r|]; [|reflexivity]. unfold step_coll. change (is_field "indexes" "indexes") with true. cbv iota.
    now rewrite Hi.
Qed.
Example C70_null_nonvacuous :
  is_field "vector" "LIMIT" = false /\
  bind_vec (Body (JObj [("limit", JNum "5"); ("LIMIT", JNull); ("name", JStr "c")])) = Some (mkVecReq f32_zero 5 "c" None) /\
  bind_coll (Body (JObj [("name", JStr "c"); ("indexes", JArr [JObj [("fieldType", JStr "t"); ("fieldName", JNull)]])])) =
    Some (mkB "c" (Some [Some ("", "t")])).
Proof. vm_compute. repeat split; reflexivity. Qed.
Print Assumptions C70_null_is_absent.
