(** C76: requests reach the operation they address and are answered with its
    documented statuses. *)
From Coq Require Import String Ascii.
From Verif Require Import Base F32 JsonNum PQ Graph Search Insert InsertHist Persist Client Handlers
  Collections Bind Routes PropClient PropCollections.
Local Open Scope string_scope.

(** A name that is one segment of a path: no slash, and none of the names that
    cleaning a path removes. *)
Definition one_segment (s : string) : Prop :=
  s <> "" /\ s <> "." /\ s <> ".." /\ ~ In "/"%char (list_ascii_of_string s).

(* ------------------------------------------------------------------ *)
(** Paths. *)

Lemma segments_cons s : exists x r, segments s = x :: r.
Proof.
  destruct s as [|c s]; cbn; [eauto|].
  destruct (Ascii.eqb c "/"); [eauto|]. destruct (segments s); eauto.
Qed.

Lemma segments_app a b : segments (a ++ "/" ++ b) = (segments a ++ segments b)%list.
Proof.
  induction a as [|c a IH]; cbn [append segments]; [reflexivity|].
  cbn [append] in IH. destruct (Ascii.eqb c "/"); [now rewrite IH|].
  destruct (segments_cons a) as (x & r & E). rewrite E in IH |- *. rewrite IH. reflexivity.
Qed.

Lemma segments_one s : ~ In "/"%char (list_ascii_of_string s) -> segments s = [s].
Proof.
  induction s as [|c s IH]; intros H; [reflexivity|]. cbn [segments].
  destruct (Ascii.eqb_spec c "/") as [->|n]; [exfalso; apply H; now left|].
  rewrite IH; [reflexivity|]. intros I. apply H. now right.
Qed.

Lemma segments_noslash s x : In x (segments s) -> ~ In "/"%char (list_ascii_of_string x).
Proof.
  revert x. induction s as [|c s IH]; cbn [segments]; intros x H.
  - destruct H as [<-|[]]. intros [].
  - destruct (Ascii.eqb_spec c "/") as [E|n].
    + destruct H as [<-|H]; [intros []|now apply IH].
    + destruct (segments_cons s) as (y & r & E). rewrite E in H, IH. cbn in H.
      destruct H as [<-|H]; [|apply IH; now right].
      cbn. intros [F|F]; [congruence|]. exact (IH y (or_introl eq_refl) F).
Qed.

Lemma clean_fold l st : Forall one_segment st -> (forall x, In x l -> ~ In "/"%char (list_ascii_of_string x)) ->
  Forall one_segment (fold_left clean_step l st).
Proof.
  revert st. induction l as [|x l IH]; intros st Hst Hl; [exact Hst|]. cbn [fold_left]. apply IH.
  - unfold clean_step.
    destruct (String.eqb_spec x "") as [E|n1]; [exact Hst|].
    destruct (String.eqb_spec x ".") as [E|n2]; [exact Hst|]. cbn [orb].
    destruct (String.eqb_spec x "..") as [E|n3].
    + destruct Hst; [constructor|assumption].
    + constructor; [|exact Hst]. repeat split; try assumption. apply Hl. now left.
  - intros y Hy. apply Hl. now right.
Qed.

Lemma clean_proper p : Forall one_segment (clean p).
Proof. apply Forall_rev, clean_fold; [constructor|]. intros x. apply segments_noslash. Qed.

Lemma fold_segments l : Forall one_segment l -> l <> [] ->
  segments (fold_right (fun x r => "/" ++ x ++ r) "" l) = "" :: l.
Proof.
  induction l as [|x l IH]; [easy|]. intros H _. inversion H as [|? ? (_ & _ & _ & Hx) Hl]; subst.
  destruct l as [|y l].
  - cbn [fold_right]. change ("/" ++ x ++ "") with ("" ++ "/" ++ (x ++ "")). rewrite segments_app.
    replace (x ++ "") with x by (clear; induction x; cbn; congruence).
    rewrite (segments_one x) by exact Hx. reflexivity.
  - specialize (IH Hl ltac:(discriminate)).
    set (rest := fold_right (fun x r => "/" ++ x ++ r) "" (y :: l)) in *.
    change (fold_right _ "" (x :: y :: l)) with ("" ++ "/" ++ (x ++ rest)). rewrite segments_app.
    assert (E : exists r', rest = "/" ++ r') by (subst rest; cbn [fold_right]; eauto).
    destruct E as (r' & E). rewrite E in IH |- *. rewrite segments_app, (segments_one x) by exact Hx.
    change ("/" ++ r') with ("" ++ "/" ++ r') in IH. rewrite segments_app in IH. cbn in IH |- *.
    injection IH as IH. now rewrite IH.
Qed.

Lemma clean_fold_id l st : Forall one_segment l -> fold_left clean_step l st = (rev l ++ st)%list.
Proof.
  intros H. revert st. induction H as [|x l (n1 & n2 & n3 & _) H IH]; intros st; [reflexivity|].
  cbn [fold_left]. unfold clean_step at 2.
  destruct (String.eqb_spec x "") as [E|_]; [easy|]. destruct (String.eqb_spec x ".") as [E|_]; [easy|].
  destruct (String.eqb_spec x "..") as [E|_]; [easy|]. cbn [orb]. rewrite IH. cbn [rev].
  now rewrite <- app_assoc.
Qed.

Lemma clean_text l : Forall one_segment l -> clean (path_text l) = l.
Proof.
  intros H. destruct l as [|x l]; [reflexivity|]. unfold clean, path_text.
  rewrite fold_segments by (assumption || discriminate).
  change (fold_left clean_step ("" :: x :: l) []) with (fold_left clean_step (x :: l) []).
  rewrite clean_fold_id by exact H. now rewrite app_nil_r, rev_involutive.
Qed.

Lemma clean_join a b : clean (path_join a b) = clean (a ++ "/" ++ b).
Proof. apply clean_text, clean_proper. Qed.

Lemma route_delete p : route "DELETE" p =
  match match_segs ["v1"; "collections"; "{collection}"] (clean p) with
  | Some v => Some (ODelete, v)
  | None => None
  end.
Proof. reflexivity. Qed.

(* ------------------------------------------------------------------ *)
(** C76: every URL without a parameter that the builders make is served by its
    operation; an operation is served under its own method and path only. *)
Theorem C76_routed o : o <> ODelete -> route (op_method o) (build_fixed "" (op_path o)) = Some (o, "").
Proof. destruct o; intros H; try reflexivity. now destruct H. Qed.

Theorem C76_routed_only m p o v : route m p = Some (o, v) ->
  m = op_method o /\
  clean p = match o with
            | ODelete => ["v1"; "collections"; v]
            | _ => clean (base_path ++ op_path o)
            end.
Proof.
  assert (N : forall l v, match_segs ["v1"] l = Some v -> l = ["v1"]).
  { intros [|a [|b l]] w; cbn [match_segs]; change (is_param "v1") with false; cbn iota; try easy;
      destruct (String.eqb_spec "v1" a) as [<-|]; easy. }
  assert (N2 : forall x l v, is_param x = false -> match_segs ["v1"; x] l = Some v -> l = ["v1"; x]).
  { intros x l w Hx. destruct l as [|a [|b [|? ?]]]; cbn [match_segs]; rewrite ?Hx; change (is_param "v1") with false;
      cbn iota; try destruct (String.eqb_spec "v1" a) as [<-|]; try easy;
      destruct (String.eqb_spec x b) as [<-|]; easy. }
  assert (N3 : forall l v, match_segs ["v1"; "collections"; "{collection}"] l = Some v -> l = ["v1"; "collections"; v]).
  { intros l w. destruct l as [|a [|b [|c [|? ?]]]]; cbn [match_segs]; change (is_param "v1") with false;
      change (is_param "collections") with false; change (is_param "{collection}") with true; cbn iota;
      try destruct (String.eqb_spec "v1" a) as [<-|]; try easy;
      destruct (String.eqb_spec "collections" b) as [<-|]; try easy. now intros [= <-]. }
  unfold route, documented_ops. cbn [route_in].
  change (clean (path_join base_path "/")) with ["v1"].
  change (clean (path_join base_path "/collections")) with ["v1"; "collections"].
  change (clean (path_join base_path "/collections/{collection}")) with ["v1"; "collections"; "{collection}"].
  change (clean (path_join base_path "/documents")) with ["v1"; "documents"].
  change (clean (path_join base_path "/nearest-documents")) with ["v1"; "nearest-documents"].
  change (clean (path_join base_path "/nearest-documents-by-vector")) with ["v1"; "nearest-documents-by-vector"].
  repeat match goal with
  | |- context [handler_for ?m ?t] => let r := eval vm_compute in (handler_for m t) in change (handler_for m t) with r
  end.
  intros H.
  destruct (String.eqb_spec "GET" m) as [<-|n1];
    [|destruct (String.eqb_spec "POST" m) as [<-|n2];
      [|destruct (String.eqb_spec "DELETE" m) as [<-|n3]; [|discriminate]]];
  cbn -[match_segs clean] in H;
  repeat match goal with
  | H : match ?b with _ => _ end = _ |- _ =>
      let E := fresh "E" in
      destruct b eqn:E;
       [injection H as <- <-; split; [reflexivity|];
        first [apply N in E | apply N3 in E | apply N2 in E; [|reflexivity]]; exact E
       |]
  end; discriminate.
Qed.

Example C76_routed_nonvacuous :
  build_fixed "" (op_path ONearVec) = "/v1/nearest-documents-by-vector" /\
  route "GET" "/v1/" = Some (ORoot, "") /\
  route "POST" "/v1/../v1//documents/" = Some (OAdd, "") /\
  route "PUT" "/v1/documents" = None /\ route "GET" "/documents" = None.
Proof. vm_compute. repeat split. Qed.

(** C76: the URL built for deleting a collection addresses that collection exactly
    if its name is one segment of a path. *)
Theorem C76_delete_url name :
  (exists path, build_delete "" name = Some path /\ route "DELETE" path = Some (ODelete, name)) <-> one_segment name.
Proof.
  assert (C : forall n, clean (path_join base_path ("/collections/" ++ n)) =
                        rev (fold_left clean_step (segments n) ["collections"; "v1"])).
  { intros n. rewrite clean_join. reflexivity. }
  split.
  - intros (path & B & R). apply C76_routed_only in R as (_ & R).
    unfold build_delete in B. destruct (String.eqb_spec name "") as [E|n]; [discriminate|].
    assert (P := clean_proper path). rewrite R in P.
    inversion P as [|? ? _ P1]; subst. inversion P1 as [|? ? _ P2]; subst. now inversion P2.
  - intros H. exists (path_join base_path ("/collections/" ++ name)). split.
    + unfold build_delete. destruct H as (n & _). destruct (String.eqb_spec name "") as [E|_]; [easy|reflexivity].
    + rewrite route_delete, C. destruct H as (n1 & n2 & n3 & n4). rewrite segments_one by exact n4.
      cbn [fold_left]. unfold clean_step.
      destruct (String.eqb_spec name "") as [E|_]; [easy|]. destruct (String.eqb_spec name ".") as [E|_]; [easy|].
      destruct (String.eqb_spec name "..") as [E|_]; [easy|]. reflexivity.
Qed.

Example C76_delete_url_nonvacuous :
  one_segment "my books" /\ build_delete "" "my books" = Some "/v1/collections/my books" /\
  ~ one_segment "a/b" /\ ~ one_segment "..".
Proof.
  unfold one_segment. cbn. repeat split; try discriminate.
  - intros H. repeat destruct H as [H|H]; easy.
  - intros (_ & _ & _ & H). apply H. auto.
  - intros (_ & _ & H & _). now apply H.
Qed.

(** False for other names: the URL built for "a/../b" deletes the collection "b"
    and keeps the one it was built for; for "a/b" there is no such path; the URL of
    the remaining hello operation leads nowhere. *)
Definition two_colls : pod :=
  run_pod new_pod [PCreate cok (mkB "a/../b" (Some [])); PCreate cok (mkB "b" (Some [])); PCreate cok (mkB "a/b" (Some []))].
Definition listed (p : pod) : list string :=
  match handle_list true true true p with Ok200 l => map fst l | _ => [] end.
Theorem C76_delete_url_refuted : exists path path2,
  build_delete "" "a/../b" = Some path /\
  listed two_colls = ["a/b"; "b"; "a/../b"] /\
  snd (http_delete xok path two_colls) = Some 200%N /\
  listed (fst (http_delete xok path two_colls)) = ["a/b"; "a/../b"] /\
  build_delete "" "a/b" = Some path2 /\ http_delete xok path2 two_colls = (two_colls, Some 404%N) /\
  (forall m, route m build_hello = None).
Proof.
  exists "/v1/collections/b", "/v1/collections/a/b". repeat (split; [vm_compute; reflexivity|]).
  intros m. destruct (route m build_hello) as [(o, v)|] eqn:E; [|reflexivity].
  apply C76_routed_only in E as (_ & E). destruct o; discriminate.
Qed.

(** C76: the query built for reading a document arrives as it was given; it is
    refused with 422 exactly if a part of it is empty. *)
Theorem C76_get_url c p v R ok st :
  (c <> "" /\ p <> "" /\ v <> "" /\ bind_get (build_get_query c p v) = Some (c, p, v)) \/
  ((c = "" \/ p = "" \/ v = "") /\ serve_get R ok (build_get_query c p v) st = (st, Bad400 EOther) /\
   status_get R ok (build_get_query c p v) st = Some 422%N).
Proof.
  unfold status_get, serve_get, build_get_query, query_part, bind_get, bind_param.
  destruct (String.eqb_spec c "") as [->|Hc];
    [right; split; [auto|]; destruct (String.eqb p ""), (String.eqb v ""); split; reflexivity|].
  destruct (String.eqb_spec p "") as [->|Hp];
    [right; split; [auto|]; destruct (String.eqb v "");
     cbn -[String.eqb]; cbn [String.eqb Ascii.eqb Bool.eqb fst rev app find];
     destruct (String.eqb c ""); split; reflexivity|].
  destruct (String.eqb_spec v "") as [->|Hv].
  - right. split; [auto|]. cbn.
    apply String.eqb_neq in Hc. apply String.eqb_neq in Hp.
    rewrite Hc, Hp. split; reflexivity.
  - left. repeat split; try assumption. cbn.
    apply String.eqb_neq in Hc. apply String.eqb_neq in Hp. apply String.eqb_neq in Hv.
    now rewrite Hc, Hp, Hv.
Qed.

Example C76_get_url_nonvacuous :
  bind_get (build_get_query "books" "id" "7f") = Some ("books", "id", "7f") /\
  status_get rok true (build_get_query "books" "id" "") new_coll = Some 422%N.
Proof. vm_compute. split; reflexivity. Qed.

(** C76: whatever the request, the state and the failures of the store, a whole
    answer has a status that is documented for its operation; reading a document
    needs its three parameters for that. *)
Lemma resp_status_in {A} o (r : response A) s : o <> ORoot -> resp_status r = Some s -> In s (documented o).
Proof. destruct r; intros H; try discriminate; intros [= <-]; destruct o; cbn; auto; now destruct H. Qed.
Lemma status_of_in {A} o f (r : response A) s : o <> ORoot -> o <> OGet -> status_of f r = Some s -> In s (documented o).
Proof.
  intros H1 H2. destruct f as [f|]; [|now apply resp_status_in].
  intros [= <-]. destruct o; try (now destruct H1); try (now destruct H2); destruct f; cbn; auto 10.
Qed.
Theorem C76_documented_partial s :
  (status_root = Some s -> In s (documented ORoot)) /\
  (forall a b c p, status_list a b c p = Some s -> In s (documented OListColl)) /\
  (forall w b p, status_create w b p = Some s -> In s (documented OCreate)) /\
  (forall w n p, status_delete w n p = Some s -> In s (documented ODelete)) /\
  (forall uuid R lk orcs b st, status_add uuid R lk orcs b st = Some s -> In s (documented OAdd)) /\
  (forall Q lk V b st, status_text Q lk V b st = Some s -> In s (documented ONearText)) /\
  (forall Q b st, status_vec Q b st = Some s -> In s (documented ONearVec)) /\
  (forall R ok qs st, bind_get qs <> None -> status_get R ok qs st = Some s -> In s (documented OGet)).
Proof.
  split; [intros [= <-]; now left|].
  split; [intros a b c p; apply resp_status_in; discriminate|].
  split; [intros w b p; apply status_of_in; discriminate|].
  split; [intros w n p; apply resp_status_in; discriminate|].
  split; [intros uuid R lk orcs b st; apply status_of_in; discriminate|].
  split; [intros Q lk V b st; apply status_of_in; discriminate|].
  split; [intros Q b st; apply status_of_in; discriminate|].
  intros R ok qs st Hb. unfold status_get. destruct (bind_get qs); [|easy].
  cbn [status_of]. apply resp_status_in. discriminate.
Qed.

(** C76: a request refused with 422 changes nothing, and it is refused so exactly
    if its body is missing or holds a malformed id; a body that is no JSON or has
    wrong types is answered with 400 and changes nothing either. *)
Definition unbound {A} (dec : jval -> option A) (ok : A -> bool) (b : hbody) : Prop :=
  b = NoBody \/ exists j a, b = Body j /\ dec j = Some a /\ ok a = false.
Lemma status_422 {A B} (dec : jval -> option A) ok b (r : response B) :
  status_of (body_fail dec ok b) r = Some 422%N <-> unbound dec ok b.
Proof.
  unfold unbound, body_fail, status_of. destruct b as [| |j]; cbn.
  - split; auto.
  - split; [discriminate|]. intros [H|(? & ? & H & _)]; discriminate.
  - destruct (dec j) as [a|] eqn:D.
    + destruct (ok a) eqn:K; cbn.
      * split; [destruct r; discriminate|]. intros [H|(? & ? & [= <-] & D' & K')]; congruence.
      * split; [|reflexivity]. intros _. right. eauto.
    + split; [discriminate|]. intros [H|(? & ? & [= <-] & D' & K')]; congruence.
Qed.
Lemma unbound_none {A} (dec : jval -> option A) ok b : unbound dec ok b -> bind_body dec ok b = None.
Proof. intros [->|(j & a & -> & D & K)]; cbn; [reflexivity|]. now rewrite D, K. Qed.

Theorem C76_unprocessable :
  (forall uuid R lk orcs b st,
     (status_add uuid R lk orcs b st = Some 422%N <->
      b = NoBody \/ exists j r, b = Body j /\ dec_struct step_add (mkAddReq None "" None) j = Some r /\ valid_add uuid r = false) /\
     (status_add uuid R lk orcs b st = Some 422%N -> fst (serve_add uuid R lk orcs b st) = st)) /\
  (forall Q lk V b st,
     (status_text Q lk V b st = Some 422%N <-> b = NoBody) /\
     (status_text Q lk V b st = Some 422%N -> fst (serve_text Q lk V b st) = st)) /\
  (forall Q b st,
     (status_vec Q b st = Some 422%N <-> b = NoBody) /\
     (status_vec Q b st = Some 422%N -> fst (serve_vec Q b st) = st)) /\
  (forall w b p,
     (status_create w b p = Some 422%N <-> b = NoBody) /\
     (status_create w b p = Some 422%N -> fst (serve_create w b p) = p)).
Proof.
  assert (T : forall A (dec : jval -> option A) b, unbound dec (fun _ => true) b <-> b = NoBody).
  { intros A dec b. split; [|now left]. intros [H|(j & a & _ & _ & H)]; [exact H|discriminate]. }
  split; [|split; [|split]].
  - intros. split; [apply status_422|]. intros H. apply status_422, unbound_none in H.
    unfold serve_add, bind_add. now rewrite H.
  - intros. split; [unfold status_text; rewrite status_422; apply T|]. intros H. apply status_422, unbound_none in H.
    unfold serve_text, bind_text. now rewrite H.
  - intros. split; [unfold status_vec; rewrite status_422; apply T|]. intros H. apply status_422, unbound_none in H.
    unfold serve_vec, bind_vec. now rewrite H.
  - intros. split; [unfold status_create; rewrite status_422; apply T|]. intros H. apply status_422, unbound_none in H.
    unfold serve_create, bind_coll. now rewrite H.
Qed.

Example C76_unprocessable_nonvacuous :
  status_add (fun _ => false) rok false [] (Body (JObj [("documents", JArr [JObj [("id", JStr "x")]])])) new_coll = Some 422%N /\
  status_add (fun _ => false) rok false [] (Body (JArr [])) new_coll = Some 400%N /\
  status_vec (qok 0) NoBody new_coll = Some 422%N.
Proof. vm_compute. repeat split. Qed.

(** C76: with a working store, a read by id is answered with 200 exactly if a
    document of that id is stored (and its numbers are in the range of float64). *)
Theorem C76_get_found_partial R qs c v st :
  bind_get qs = Some (c, "id", v) -> c <> "" -> r_isopen R = true -> r_docopen R = true ->
  (status_get R true qs st = Some 200%N <->
   exists d, find (fun d => String.eqb v (sd_id d)) (c_docs st) = Some d /\ reread_props (stored_props d) <> None) /\
  (status_get R true qs st = Some 200%N \/ status_get R true qs st = Some 400%N).
Proof.
  intros B Hc H1 H2. unfold status_get, serve_get. rewrite B. change (String.eqb "id" "id") with true. cbn iota.
  cbn [status_of]. unfold handle_get, get_document. apply String.eqb_neq in Hc. rewrite Hc, H1, H2.
  cbn [negb]. rewrite andb_false_r.
  destruct (find _ _) as [d|] eqn:F.
  - destruct (reread_props (stored_props d)) eqn:E; cbn [snd resp_status].
    + split; [|now left]. split; [|reflexivity]. intros _. exists d. split; [reflexivity|]. now rewrite E.
    + split; [|now right]. split; [discriminate|]. intros (d' & [= <-] & N). now destruct N.
  - cbn. split; [|now right]. split; [discriminate|]. intros (d' & N & _). discriminate.
Qed.

Example C76_get_found_nonvacuous :
  bind_get (build_get_query "books" "id" "a") = Some ("books", "id", "a") /\
  map sd_id (c_docs st1) = ["c"; "b"; "a"] /\
  status_get rok true (build_get_query "books" "id" "a") st1 = Some 200%N.
Proof. vm_compute. repeat split. Qed.

(** False otherwise: a read of a document that does not exist is answered with 400
    instead of the documented 404, which is never sent; a failure of the store on a
    good request is answered with the same 400, "malformed request", and never with
    500; a read without a parameter with a 422 that is not documented for it. *)
Lemma ids1 : map sd_id (c_docs st1) = ["c"; "b"; "a"].
Proof. vm_compute. reflexivity. Qed.
Lemma get1 : status_get rok true (build_get_query "books" "id" "d") st1 = Some 400%N.
Proof. vm_compute. reflexivity. Qed.
Lemma get2 : status_get rok false (build_get_query "books" "id" "a") st1 = Some 400%N.
Proof. vm_compute. reflexivity. Qed.
Lemma get3 st : status_get rok true (build_get_query "books" "id" "") st = Some 422%N.
Proof. reflexivity. Qed.
Theorem C76_status_refuted :
  (exists qs, bind_get qs = Some ("books", "id", "d") /\ (forall d, In d (c_docs st1) -> sd_id d <> "d") /\
     status_get rok true qs st1 = Some 400%N) /\
  (exists qs d, bind_get qs = Some ("books", "id", "a") /\ In d (c_docs st1) /\ sd_id d = "a" /\
     status_get rok false qs st1 = Some 400%N) /\
  (exists qs, bind_get qs = None /\ status_get rok true qs st1 = Some 422%N /\ ~ In 422%N (documented OGet)) /\
  (forall R ok qs st, status_get R ok qs st <> Some 404%N /\ status_get R ok qs st <> Some 500%N) /\
  (forall uuid R lk orcs b st, status_add uuid R lk orcs b st <> Some 500%N) /\
  (forall w b p, status_create w b p <> Some 500%N) /\
  (forall w n p, status_delete w n p <> Some 500%N).
Proof.
  assert (G : forall A f (r : response A), status_of f r <> Some 404%N /\ status_of f r <> Some 500%N).
  { intros A [[]|] []; cbn; split; discriminate. }
  split; [|split; [|split; [|split; [|split; [|split]]]]].
  - exists (build_get_query "books" "id" "d"). split; [reflexivity|]. split; [|exact get1].
    intros d Hd. apply (in_map sd_id) in Hd. rewrite ids1 in Hd. intros E. rewrite E in Hd.
    destruct Hd as [H|[H|[H|[]]]]; discriminate.
  - assert (I : In "a" (map sd_id (c_docs st1))) by (rewrite ids1; cbn; auto).
    destruct (proj1 (in_map_iff sd_id (c_docs st1) "a") I) as (d & E & I').
    exists (build_get_query "books" "id" "a"), d. split; [reflexivity|]. split; [exact I'|]. split; [exact E|exact get2].
  - exists (build_get_query "books" "id" ""). split; [reflexivity|]. split; [apply get3|].
    intros [H|[H|[H|[]]]]; discriminate.
  - intros. apply G.
  - intros. apply G.
  - intros. apply G.
  - intros w n p. unfold status_delete. destruct (snd (handle_delete w n p)); cbn; discriminate.
Qed.

Print Assumptions C76_routed.
Print Assumptions C76_routed_only.
Print Assumptions C76_delete_url.
Print Assumptions C76_delete_url_refuted.
Print Assumptions C76_get_url.
Print Assumptions C76_documented_partial.
Print Assumptions C76_unprocessable.
Print Assumptions C76_get_found_partial.
Print Assumptions C76_status_refuted.

(** The case of the letters of a method makes no difference to the handler. *)
Inductive respelled : string -> string -> Prop :=
| RNil : respelled "" ""
| RSame c s t : respelled s t -> respelled (String c s) (String c t)
| RLower n s t : (65 <= n <= 90)%nat -> respelled s t -> respelled (String (ascii_of_nat n) s) (String (ascii_of_nat (n + 32)) t).
Theorem C76_method_case : forall m m' path, respelled m m' -> handler_for m' path = handler_for m path.
Proof.
  intros m m' path H. unfold handler_for. replace (upper m') with (upper m); [reflexivity|].
  induction H as [|c s t H IH|n s t Hn H IH]; cbn [upper]; [reflexivity|now rewrite IH|]. f_equal; [|exact IH].
  unfold upper_char. rewrite !nat_ascii_embedding by lia.
  replace (97 <=? n)%nat with false by (symmetry; apply Nat.leb_gt; lia). cbn [andb].
  replace (97 <=? n + 32)%nat with true by (symmetry; apply Nat.leb_le; lia).
  replace (n + 32 <=? 122)%nat with true by (symmetry; apply Nat.leb_le; lia). cbn [andb]. f_equal. lia.
Qed.
Print Assumptions C76_method_case.
Example C76_method_case_nonvacuous : respelled "POST" "PoSt" /\ handler_for "PoSt" "/documents" = Some OAdd.
Proof.
  split; [|reflexivity]. apply (RSame "P"). apply (RLower 79); [lia|]. apply (RSame "S"). apply (RLower 84); [lia|]. constructor.
Qed.
