(** Proofs about the collection requests. *)
From Coq Require Import String Ascii DecimalString DecimalN DecimalFacts.
From Verif Require Import Base F32 PQ Graph Search Insert InsertHist Persist Client Collections.
Local Open Scope string_scope.

Section AssocFacts.
  Context {A : Type}.
  Implicit Types m : list (string * A).

  Lemma aget_adel_eq k m : aget k (adel k m) = None.
  Proof.
    induction m as [|[k' x] m IH]; [reflexivity|]. unfold adel in *. cbn [filter fst].
    destruct (String.eqb k k') eqn:E; cbn [negb]; [exact IH|]. cbn [aget]. rewrite E. exact IH.
  Qed.
  Lemma aget_adel_ne k k' m : k <> k' -> aget k (adel k' m) = aget k m.
  Proof.
    intros Hne. induction m as [|[k0 x] m IH]; [reflexivity|]. unfold adel in *. cbn [filter fst].
    destruct (String.eqb k' k0) eqn:E; cbn [negb aget].
    - apply String.eqb_eq in E. subst k0.
      destruct (String.eqb k k') eqn:E2; [apply String.eqb_eq in E2; contradiction|exact IH].
    - destruct (String.eqb k k0); [reflexivity|exact IH].
  Qed.
  Lemma aget_aset_eq k x m : aget k (aset k x m) = Some x.
  Proof. cbn [aset aget]. now rewrite String.eqb_refl. Qed.
  Lemma aget_aset_ne k k' x m : k <> k' -> aget k (aset k' x m) = aget k m.
  Proof.
    intros Hne. unfold aset. cbn [aget]. destruct (String.eqb k k') eqn:E; [apply String.eqb_eq in E; contradiction|].
    now apply aget_adel_ne.
  Qed.
  Lemma aget_In k m : aget k m <> None <-> In k (map fst m).
  Proof.
    induction m as [|[k' x] m IH]; cbn [aget map fst In]; [split; [congruence|tauto]|].
    destruct (String.eqb k k') eqn:E.
    - apply String.eqb_eq in E. subst. split; [now left|congruence].
    - apply String.eqb_neq in E. rewrite IH. split; [now right|]. intros [H|H]; [congruence|exact H].
  Qed.
  Lemma adel_keys k m x : In x (map fst (adel k m)) -> In x (map fst m).
  Proof.
    intros H. apply in_map_iff in H. destruct H as (y & <- & Hy). apply filter_In in Hy. now apply in_map.
  Qed.
  Lemma adel_nodup k m : NoDup (map fst m) -> NoDup (map fst (adel k m)).
  Proof.
    induction m as [|[k' x] m IH]; intros H; [exact H|]. cbn [map fst] in H. apply NoDup_cons_iff in H.
    destruct H as [H1 H2]. unfold adel. cbn [filter fst]. destruct (String.eqb k k'); cbn [negb]; [now apply IH|].
    cbn [map fst]. apply NoDup_cons; [|now apply IH]. intros Hin. apply H1. now apply adel_keys with k.
  Qed.
  Lemma aset_nodup k x m : NoDup (map fst m) -> NoDup (map fst (aset k x m)).
  Proof.
    intros H. cbn [aset map fst]. apply NoDup_cons; [|now apply adel_nodup].
    intros Hin. apply aget_In in Hin. apply Hin, aget_adel_eq.
  Qed.
End AssocFacts.

(* ------------------------------------------------------------------ *)
(** Prefixes. *)
Lemma append_nil_r s : s ++ "" = s.
Proof. induction s as [|c s IH]; [reflexivity|]. cbn [append]. now rewrite IH. Qed.
Lemma append_assoc_s a b c : (a ++ b) ++ c = a ++ (b ++ c).
Proof. induction a as [|x a IH]; [reflexivity|]. cbn [append]. now rewrite IH. Qed.
Lemma append_cancel p : forall a b, p ++ a = p ++ b -> a = b.
Proof. induction p as [|c p IH]; intros a b H; [exact H|]. cbn [append] in H. injection H as H. now apply IH. Qed.
Lemma prefix_append p s : prefix p (p ++ s) = true.
Proof.
  induction p as [|c p IH]; cbn [append prefix]; [now destruct s|].
  destruct (ascii_dec c c) as [_|n]; [exact IH|congruence].
Qed.
Lemma prefix_inv p : forall s, prefix p s = true -> exists t, s = p ++ t.
Proof.
  induction p as [|c p IH]; intros s H; [now exists s|]. destruct s as [|c' s]; cbn [prefix] in H; [discriminate|].
  destruct (ascii_dec c c') as [<-|n]; [|discriminate]. destruct (IH _ H) as (t & ->). now exists t.
Qed.
Lemma substring_all t : substring 0 (String.length t) t = t.
Proof. induction t as [|c t IH]; [reflexivity|]. cbn [String.length substring]. now rewrite IH. Qed.
Lemma trim_append p t : trim_prefix p (p ++ t) = t.
Proof.
  unfold trim_prefix. rewrite prefix_append.
  assert (H : String.length (p ++ t) - String.length p = String.length t).
  { clear. induction p as [|c p IH]; cbn [append String.length]; lia. }
  rewrite H. clear H. induction p as [|c p IH]; [apply substring_all|exact IH].
Qed.
Lemma namespaced_inj a b : namespaced a = namespaced b -> a = b.
Proof. apply append_cancel. Qed.

(** The listed names are exactly the names whose namespaced form is a document
    database. *)
Definition listed (p : pod) : list string :=
  map fst (map (fun d : string * (imap * list sdoc) => (trim_prefix namespace (fst d), fst (snd d)))
               (filter (fun d => has_prefix namespace (fst d)) (p_docs p))).
Lemma listed_get p l : get_collections true true true p = Ok l -> map fst l = listed p.
Proof. cbn [get_collections andb negb]. now intros [= <-]. Qed.
Lemma listed_In p n : In n (listed p) <-> aget (namespaced n) (p_docs p) <> None.
Proof.
  rewrite aget_In. unfold listed. rewrite map_map. cbn [fst]. rewrite in_map_iff. split.
  - intros (d & <- & Hd). apply filter_In in Hd. destruct Hd as [Hd Hp].
    destruct (prefix_inv _ _ Hp) as (t & Ht). rewrite Ht, trim_append. unfold namespaced. rewrite <- Ht. now apply in_map.
  - intros H. apply in_map_iff in H. destruct H as (d & Hd & Hin). exists d. rewrite Hd. unfold namespaced at 1.
    split; [apply trim_append|]. apply filter_In. split; [exact Hin|]. rewrite Hd. apply prefix_append.
Qed.
Lemma listed_nodup p : NoDup (map fst (p_docs p)) -> NoDup (listed p).
Proof.
  unfold listed. rewrite map_map. cbn [fst]. generalize (p_docs p). induction l as [|d l IH]; intros H; [constructor|].
  cbn [map] in H. apply NoDup_cons_iff in H. destruct H as [H1 H2]. cbn [filter].
  destruct (has_prefix namespace (fst d)) eqn:Ep; [|now apply IH]. cbn [map]. apply NoDup_cons; [|now apply IH].
  intros Hin. apply in_map_iff in Hin. destruct Hin as (d' & Hd' & Hin). apply filter_In in Hin. destruct Hin as [Hin Hp].
  destruct (prefix_inv _ _ Ep) as (t & Ht). destruct (prefix_inv _ _ Hp) as (t' & Ht').
  rewrite Ht, Ht', !trim_append in Hd'. apply H1. rewrite Ht, <- Hd', <- Ht'. now apply in_map.
Qed.

(* ------------------------------------------------------------------ *)
(** Histories. *)
Fixpoint answers (p : pod) (qs : list preq) : list (preq * response unit) :=
  match qs with
  | [] => []
  | q :: qs' => (q, snd (pod_step p q)) :: answers (fst (pod_step p q)) qs'
  end.
(** The collections of which the caller was told that they were created, and not
    since then that they were deleted. *)
Definition live_step (acc : list string) (a : preq * response unit) : list string :=
  match a with
  | (PCreate _ b, Ok200 _) => b_name b :: acc
  | (PDelete _ n, Ok200 _) => remove string_dec n acc
  | _ => acc
  end.
Definition live (log : list (preq * response unit)) : list string := fold_left live_step log [].

Ltac tauto2 := intuition congruence.

Definition has_db (p : pod) (n : string) : Prop := aget (namespaced n) (p_docs p) <> None.

Lemma doc_create_keeps ns idx p n : aget n (p_docs p) <> None -> aget n (p_docs (doc_create ns idx p)) = aget n (p_docs p).
Proof.
  intros H. unfold doc_create. destruct (aget ns (p_docs p)) eqn:E; [reflexivity|]. cbn [p_docs].
  apply aget_aset_ne. intros ->. congruence.
Qed.
Lemma doc_create_has ns idx p : aget ns (p_docs (doc_create ns idx p)) <> None.
Proof.
  unfold doc_create. destruct (aget ns (p_docs p)) eqn:E; [congruence|]. cbn [p_docs]. rewrite aget_aset_eq. congruence.
Qed.
Lemma doc_create_new ns idx p : aget ns (p_docs p) = None -> aget ns (p_docs (doc_create ns idx p)) = Some (idx, []).
Proof. intros H. unfold doc_create. rewrite H. cbn [p_docs]. apply aget_aset_eq. Qed.
Lemma doc_create_other ns idx p n : n <> ns -> aget n (p_docs (doc_create ns idx p)) = aget n (p_docs p).
Proof.
  intros H. unfold doc_create. destruct (aget ns (p_docs p)); [reflexivity|]. cbn [p_docs]. now apply aget_aset_ne.
Qed.
Lemma kv_create_docs ns p : p_docs (kv_create ns p) = p_docs p.
Proof. unfold kv_create. now destruct (aget ns (p_kv p)). Qed.
Lemma doc_create_kv ns idx p : p_kv (doc_create ns idx p) = p_kv p.
Proof. unfold doc_create. now destruct (aget ns (p_docs p)). Qed.
Lemma doc_create_idx ns idx p : p_idx (doc_create ns idx p) = p_idx p.
Proof. unfold doc_create. now destruct (aget ns (p_docs p)). Qed.

(** The document databases after a create request: unchanged, or those of
    DocCreate, and the latter if the request was answered with success. *)
Definition reached (w : corc) : bool := co_session w && co_pod w && co_doccreate w.
Lemma create_docs w name idx p :
  p_docs (fst (create_collection w name idx p)) =
    (if reached w then p_docs (doc_create (namespaced name) (aset "hnswId" INum idx) p) else p_docs p) /\
  (snd (create_collection w name idx p) = Ok tt -> reached w = true).
Proof.
  unfold create_collection, reached. destruct (co_session w && co_pod w); cbn [negb andb]; [|split; [reflexivity|discriminate]].
  destruct (co_doccreate w); cbn [negb]; [|split; [reflexivity|discriminate]].
  destruct (co_kvcreate w); cbn [negb]; [|split; [reflexivity|auto]].
  destruct (co_docopen w && co_kvopen w && co_new w); cbn [negb fst snd register p_docs]; rewrite kv_create_docs; split; auto.
Qed.

(** The index map of a body that passes the checks of the handler. *)
Definition body_map (b : cbody) : option imap :=
  if String.eqb (b_name b) "" then None
  else match b_indexes b with
       | None => None
       | Some l => match index_map l [] with Ok m => Some m | _ => None end
       end.
Lemma handle_create_none w b p : body_map b = None -> fst (handle_create w b p) = p /\ snd (handle_create w b p) <> Ok200 tt.
Proof.
  unfold body_map, handle_create. destruct (String.eqb (b_name b) ""); [now split|].
  destruct (b_indexes b) as [l|]; [|now split]. destruct (index_map l []); [discriminate|now split|now split|now split].
Qed.
Lemma handle_create_some w b p m : body_map b = Some m ->
  fst (handle_create w b p) = fst (create_collection w (b_name b) m p) /\
  (snd (handle_create w b p) = Ok200 tt <-> snd (create_collection w (b_name b) m p) = Ok tt).
Proof.
  unfold body_map, handle_create. destruct (String.eqb (b_name b) ""); [discriminate|].
  destruct (b_indexes b) as [l|]; [|discriminate]. destruct (index_map l []) as [m'| | |]; try discriminate.
  intros [= ->]. destruct (create_collection w (b_name b) m p) as [p' [[]| | |]]; cbn [fst snd]; split; try reflexivity; split; congruence.
Qed.

(** Effect of one request on which databases exist. *)
Definition makes_db (q : preq) (n : string) : Prop :=
  match q with
  | PCreate w b => b_name b = n /\ body_map b <> None /\ reached w = true
  | PForeign f _ => f = namespaced n
  | _ => False
  end.
Definition drops_db (q : preq) (n : string) : Prop :=
  match q with
  | PDelete w m => xo_session w && xo_pod w = true /\ xo_docdel w = true /\ m = n
  | _ => False
  end.
Lemma step_has p q n : has_db (fst (pod_step p q)) n <-> (has_db p n /\ ~ drops_db q n) \/ makes_db q n.
Proof.
  unfold has_db. destruct q as [w b|w m|f idx|m ds t|]; cbn [pod_step drops_db makes_db].
  - destruct (body_map b) as [m|] eqn:Eb.
    + destruct (handle_create_some w b p m Eb) as [-> _]. destruct (create_docs w (b_name b) m p) as [-> _].
      destruct (reached w); [|tauto2].
      destruct (string_dec (b_name b) n) as [<-|Hn].
      * split; [intros _; right; repeat split; congruence|intros _; apply doc_create_has].
      * rewrite doc_create_other; [|intros H; apply namespaced_inj in H; congruence]. tauto2.
    + destruct (handle_create_none w b p Eb) as [-> _]. tauto2.
  - unfold handle_delete, delete_collection. destruct (xo_session w && xo_pod w); cbn [negb fst p_docs]; [|tauto2].
    destruct (xo_docdel w); [|tauto2]. destruct (string_dec m n) as [<-|Hn].
    + rewrite aget_adel_eq. split; [congruence|]. intros [[_ H]|[]]. destruct H. auto.
    + rewrite aget_adel_ne; [|intros H; apply namespaced_inj in H; congruence]. tauto2.
  - cbn [fst]. destruct (string_dec f (namespaced n)) as [->|Hn].
    + split; [now right|]. intros _. apply doc_create_has.
    + rewrite doc_create_other; [|congruence]. tauto2.
  - destruct (aget (namespaced m) (p_docs p)) as [[idx ds0]|] eqn:Ed; [|cbn [fst]; tauto2].
    destruct (aget (namespaced m) (p_kv p)); cbn [fst p_docs]; [|tauto2].
    destruct (string_dec m n) as [<-|Hn].
    + rewrite aget_aset_eq, Ed. split; [left|]; intuition congruence.
    + rewrite aget_aset_ne; [|intros H; apply namespaced_inj in H; congruence]. tauto2.
  - cbn [fst p_docs]. tauto2.
Qed.

Lemma step_answer p q : snd (pod_step p q) = Ok200 tt ->
  match q with
  | PCreate w b => body_map b <> None /\ reached w = true
  | PDelete w _ => xo_session w && xo_pod w = true
  | _ => True
  end.
Proof.
  destruct q as [w b|w m|f idx|m ds t|]; cbn [pod_step]; auto.
  - destruct (body_map b) as [m|] eqn:Eb.
    + destruct (handle_create_some w b p m Eb) as [_ ->]. intros H. split; [congruence|]. now apply (create_docs w (b_name b) m p).
    + destruct (handle_create_none w b p Eb) as [_ H]. contradiction.
  - unfold handle_delete, delete_collection. now destruct (xo_session w && xo_pod w).
Qed.

(** Every collection that the caller knows is listed. *)
Lemma live_has qs : forall p acc, (forall n, In n acc -> has_db p n) ->
  forall n, In n (fold_left live_step (answers p qs) acc) -> has_db (run_pod p qs) n.
Proof.
  induction qs as [|q qs IH]; intros p acc Hacc n; cbn [answers fold_left run_pod]; [apply Hacc|].
  apply IH. clear IH n. intros n. rewrite step_has. unfold live_step.
  destruct (snd (pod_step p q)) as [[]|e| |] eqn:Ea.
  2-4: destruct q as [w b|w m|f idx|m ds t|]; intros Hn; left; (split; [now apply Hacc|]); cbn [drops_db]; try tauto.
  2-4: intros (H1 & _); revert Ea; cbn [pod_step]; unfold handle_delete, delete_collection; now rewrite H1.
  apply step_answer in Ea. destruct q as [w b|w m|f idx|m ds t|]; cbn [drops_db makes_db].
  - intros [<-|Hn]; [right; tauto|left; split; [now apply Hacc|tauto]].
  - intros Hn. apply in_remove in Hn. left. split; [now apply Hacc|]. intros (_ & _ & H). now apply Hn.
  - intros Hn. left. split; [now apply Hacc|tauto].
  - intros Hn. left. split; [now apply Hacc|tauto].
  - intros Hn. left. split; [now apply Hacc|tauto].
Qed.

(** No call breaks off half-way, and other programs stay outside the name space. *)
Definition whole (q : preq) : Prop :=
  match q with
  | PCreate w _ => reached w = true -> co_kvcreate w && co_docopen w && co_kvopen w && co_new w = true
  | PDelete w _ => xo_docdel w = true
  | PForeign f _ => has_prefix namespace f = false
  | _ => True
  end.
Lemma whole_answer p w b : whole (PCreate w b) -> body_map b <> None -> reached w = true ->
  snd (pod_step p (PCreate w b)) = Ok200 tt.
Proof.
  cbn [whole pod_step]. intros Hw Hb Hr. specialize (Hw Hr). destruct (body_map b) as [m|] eqn:Eb; [|congruence].
  apply (handle_create_some w b p m Eb). unfold create_collection. unfold reached in Hr.
  apply andb_prop in Hr. destruct Hr as [-> ->]. cbn [negb].
  apply andb_prop in Hw. destruct Hw as [Hw H4]. apply andb_prop in Hw. destruct Hw as [Hw H3]. apply andb_prop in Hw.
  destruct Hw as [H1 H2]. now rewrite H1, H2, H3, H4.
Qed.
Lemma has_live qs : forall p acc, (forall n, has_db p n -> In n acc) -> Forall whole qs ->
  forall n, has_db (run_pod p qs) n -> In n (fold_left live_step (answers p qs) acc).
Proof.
  induction qs as [|q qs IH]; intros p acc Hacc Hw n; cbn [answers fold_left run_pod]; [apply Hacc|].
  apply Forall_cons_iff in Hw. destruct Hw as [Hq Hw]. apply IH; [|exact Hw]. clear IH n qs Hw.
  intros n. rewrite step_has. intros [[H1 H2]|H].
  - apply Hacc in H1. unfold live_step. destruct (snd (pod_step p q)) as [[]|e| |] eqn:Ea; destruct q as [w b|w m|f idx|m ds t|]; auto.
    + now right.
    + apply step_answer in Ea. cbn [drops_db whole] in *. apply in_in_remove; [|exact H1]. intros ->. apply H2. auto.
  - destruct q as [w b|w m|f idx|m ds t|]; cbn [makes_db] in H; try contradiction.
    + destruct H as (H1 & H2 & H3). rewrite (whole_answer p w b Hq H2 H3). left. exact H1.
    + cbn [whole] in Hq. rewrite H in Hq. unfold has_prefix, namespaced in Hq. now rewrite prefix_append in Hq.
Qed.

Lemma step_nodup p q : NoDup (map fst (p_docs p)) -> NoDup (map fst (p_docs (fst (pod_step p q)))).
Proof.
  intros H. assert (Hc : forall ns idx, NoDup (map fst (p_docs (doc_create ns idx p)))).
  { intros ns idx. unfold doc_create. destruct (aget ns (p_docs p)); [exact H|]. now apply aset_nodup. }
  destruct q as [w b|w m|f idx|m ds t|]; cbn [pod_step].
  - destruct (body_map b) as [m|] eqn:Eb.
    + destruct (handle_create_some w b p m Eb) as [-> _]. destruct (create_docs w (b_name b) m p) as [-> _].
      destruct (reached w); [apply Hc|exact H].
    + destruct (handle_create_none w b p Eb) as [-> _]. exact H.
  - unfold handle_delete, delete_collection. destruct (xo_session w && xo_pod w); cbn [negb fst p_docs]; [|exact H].
    destruct (xo_docdel w); [now apply adel_nodup|exact H].
  - apply Hc.
  - destruct (aget (namespaced m) (p_docs p)) as [[idx ds0]|]; [|exact H].
    destruct (aget (namespaced m) (p_kv p)); cbn [fst p_docs]; [now apply aset_nodup|exact H].
  - exact H.
Qed.
Lemma run_nodup qs : forall p, NoDup (map fst (p_docs p)) -> NoDup (map fst (p_docs (run_pod p qs))).
Proof. induction qs as [|q qs IH]; intros p H; [exact H|]. cbn [run_pod]. now apply IH, step_nodup. Qed.

(** What is listed was asked for. *)
Lemma has_asked qs : forall p n, has_db (run_pod p qs) n -> has_db p n \/ exists q, In q qs /\ makes_db q n.
Proof.
  induction qs as [|q qs IH]; intros p n H; [now left|]. cbn [run_pod] in H. apply IH in H.
  destruct H as [H|(q' & H1 & H2)]; [|right; exists q'; split; [now right|exact H2]].
  apply step_has in H. destruct H as [[H _]|H]; [now left|]. right. exists q. split; [now left|exact H].
Qed.

(* ------------------------------------------------------------------ *)
(** The indexes of a create request. *)
Definition documented (t : string) (T : ity) : Prop :=
  (t = "string" /\ T = IStr) \/ (t = "number" /\ T = INum) \/ (t = "map" /\ T = IMap) \/ (t = "list" /\ T = IList).
Lemma field_type_spec t :
  match field_type t with
  | None => (forall T, ~ documented t T) /\ t <> "bytes"
  | Some None => t = "bytes" /\ forall T, ~ documented t T
  | Some (Some T) => documented t T /\ forall T', documented t T' -> T' = T
  end.
Proof.
  unfold field_type, documented.
  repeat match goal with |- context [String.eqb t ?s] => let E := fresh in destruct (String.eqb t s) eqn:E;
    [apply String.eqb_eq in E; subst t|apply String.eqb_neq in E] end;
  (split; [try tauto|]); try (intros T H); try intros T; intuition congruence.
Qed.
Lemma index_map_types l : forall m m', index_map l m = Ok m' ->
  forall e, In e l -> exists f t, e = Some (f, t) /\ (t = "bytes" \/ exists T, documented t T).
Proof.
  induction l as [|[[f t]|] l IH]; intros m m' H e He; cbn [index_map] in H; [destruct He| |discriminate].
  pose proof (field_type_spec t) as Hs. destruct (field_type t) as [[T|]|]; [| |discriminate].
  - destruct He as [<-|He]; [exists f, t; split; [reflexivity|right; exists T; tauto]|now apply (IH _ _ H)].
  - destruct He as [<-|He]; [exists f, t; split; [reflexivity|left; tauto]|now apply (IH _ _ H)].
Qed.
Lemma index_map_ok l : (forall e, In e l -> exists f t, e = Some (f, t) /\ (t = "bytes" \/ exists T, documented t T)) ->
  forall m, exists m', index_map l m = Ok m'.
Proof.
  induction l as [|e l IH]; intros H m; [now exists m|].
  assert (Hl : forall e, In e l -> exists f t, e = Some (f, t) /\ (t = "bytes" \/ exists T, documented t T)).
  { intros e' He'. apply H. now right. }
  destruct (H e (or_introl eq_refl)) as (f & t & -> & Ht). cbn [index_map].
  pose proof (field_type_spec t) as Hs. destruct (field_type t) as [[T|]|]; [apply (IH Hl)|apply (IH Hl)|].
  exfalso. destruct Hs as [H1 H2]. destruct Ht as [->|[T HT]]; [congruence|]. now apply (H1 T).
Qed.
(** [f] is asked for with type [T], and not again further on. *)
Definition asks (l : list (option (string * string))) (f : string) (T : ity) : Prop :=
  exists l1 t l2, l = app l1 (Some (f, t) :: l2) /\ documented t T /\
    forall t' T', In (Some (f, t')) l2 -> ~ documented t' T'.
Lemma index_map_get l : forall m m', index_map l m = Ok m' -> forall f T,
  aget f m' = Some T <-> asks l f T \/ ((forall t' T', In (Some (f, t')) l -> ~ documented t' T') /\ aget f m = Some T).
Proof.
  induction l as [|[[g t]|] l IH]; intros m m' H f T; cbn [index_map] in H; [| |discriminate].
  - injection H as <-. split.
    + intros H. right. split; [intros t' T' []|exact H].
    + intros [(l1 & t & l2 & H & _)|[_ H]]; [now destruct l1|exact H].
  - assert (Hlift : asks l f T -> asks (Some (g, t) :: l) f T).
    { intros (l1 & t1 & l2 & -> & H1). exists (Some (g, t) :: l1), t1, l2. now split. }
    assert (Hdown : forall l1 t1 l2, Some (g, t) :: l = app l1 (Some (f, t1) :: l2) -> documented t1 T ->
              (forall t' T', In (Some (f, t')) l2 -> ~ documented t' T') ->
              asks l f T \/ (g = f /\ documented t T /\ forall t' T', In (Some (f, t')) l -> ~ documented t' T')).
    { intros l1 t1 l2 E H1 H2. destruct l1 as [|x l1]; cbn [app] in E.
      - injection E as -> -> ->. right. auto.
      - injection E as _ ->. left. exists l1, t1, l2. auto. }
    pose proof (field_type_spec t) as Hs. destruct (field_type t) as [[U|]|]; [| |discriminate].
    + rewrite (IH _ _ H f T). destruct Hs as [HU Hun]. destruct (string_dec g f) as [->|Hg].
      * rewrite aget_aset_eq. split.
        -- intros [Ha|[H1 [= <-]]]; [left; now apply Hlift|]. left. exists [], t, l. now split.
        -- intros [(l1 & t1 & l2 & E & H1 & H2)|[H1 _]].
           ++ destruct (Hdown _ _ _ E H1 H2) as [Ha|(_ & H3 & H4)]; [now left|]. right. split; [exact H4|].
              f_equal. symmetry. now apply Hun.
           ++ exfalso. apply (H1 t U); [now left|exact HU].
      * rewrite aget_aset_ne by congruence. split.
        -- intros [Ha|[H1 H2]]; [left; now apply Hlift|]. right. split; [|exact H2].
           intros t' T' [E|Hin]; [congruence|now apply H1].
        -- intros [(l1 & t1 & l2 & E & H1 & H2)|[H1 H2]].
           ++ destruct (Hdown _ _ _ E H1 H2) as [Ha|(E1 & _)]; [now left|congruence].
           ++ right. split; [|exact H2]. intros t' T' Hin. apply H1. now right.
    + rewrite (IH _ _ H f T). destruct Hs as [-> Hno]. split.
      * intros [Ha|[H1 H2]]; [left; now apply Hlift|]. right. split; [|exact H2].
        intros t' T' [E|Hin]; [injection E as _ <-; apply Hno|now apply H1].
      * intros [(l1 & t1 & l2 & E & H1 & H2)|[H1 H2]].
        -- destruct (Hdown _ _ _ E H1 H2) as [Ha|(_ & H3 & _)]; [now left|]. exfalso. now apply (Hno T).
        -- right. split; [|exact H2]. intros t' T' Hin. apply H1. now right.
Qed.

Lemma body_map_inv b m : body_map b = Some m ->
  b_name b <> "" /\ exists l, b_indexes b = Some l /\ index_map l [] = Ok m.
Proof.
  unfold body_map. destruct (String.eqb (b_name b) "") eqn:E; [discriminate|]. apply String.eqb_neq in E.
  destruct (b_indexes b) as [l|]; [|discriminate]. destruct (index_map l []) eqn:El; try discriminate.
  intros [= ->]. split; [exact E|]. exists l. now split.
Qed.

Lemma create_accepted w b p : snd (handle_create w b p) = Ok200 tt ->
  b_name b <> "" /\ exists l, b_indexes b = Some l /\
    (forall e, In e l -> exists f t, e = Some (f, t) /\ (t = "bytes" \/ exists T, documented t T)) /\
    (aget (namespaced (b_name b)) (p_docs p) = None ->
     exists idx, aget (namespaced (b_name b)) (p_docs (fst (handle_create w b p))) = Some (idx, []) /\
       forall f T, aget f idx = Some T <-> (f = "hnswId" /\ T = INum) \/ (f <> "hnswId" /\ asks l f T)).
Proof.
  intros H. destruct (body_map b) as [m|] eqn:Eb; [|now destruct (handle_create_none w b p Eb)].
  destruct (handle_create_some w b p m Eb) as [H1 H2]. destruct (body_map_inv _ _ Eb) as (Hn & l & Hl & Hm).
  split; [exact Hn|]. exists l. split; [exact Hl|]. split; [exact (index_map_types l _ _ Hm)|].
  intros Hnew. rewrite H1. destruct (create_docs w (b_name b) m p) as [-> Hr]. rewrite (Hr (proj1 H2 H)).
  exists (aset "hnswId" INum m). split; [now apply doc_create_new|]. intros f T.
  destruct (string_dec f "hnswId") as [->|Hf].
  - rewrite aget_aset_eq. split; [intros [= <-]; now left|]. intros [[_ ->]|[H3 _]]; congruence.
  - rewrite aget_aset_ne by exact Hf. rewrite (index_map_get l _ _ Hm f T). cbn [aget]. split.
    + intros [Ha|[_ Ha]]; [now right|discriminate].
    + intros [[Ha _]|[_ Ha]]; [congruence|now left].
Qed.

Lemma create_rejected w b p :
  (b_name b = "" \/ b_indexes b = None \/
   exists l f t, b_indexes b = Some l /\ In (Some (f, t)) l /\ t <> "bytes" /\ forall T, ~ documented t T) ->
  snd (handle_create w b p) <> Ok200 tt /\ fst (handle_create w b p) = p.
Proof.
  intros H. assert (Hb : body_map b = None).
  { destruct (body_map b) as [m|] eqn:Eb; [|reflexivity]. exfalso. destruct (body_map_inv _ _ Eb) as (Hn & l & Hl & Hm).
    destruct H as [H|[H|(l' & f & t & H1 & H2 & H3 & H4)]]; [contradiction|congruence|].
    rewrite H1 in Hl. injection Hl as ->. destruct (index_map_types l _ _ Hm _ H2) as (f' & t' & E & Ht).
    injection E as <- <-. destruct Ht as [Ht|[T HT]]; [contradiction|]. now apply (H4 T). }
  destruct (handle_create_none w b p Hb). auto.
Qed.

(* ------------------------------------------------------------------ *)
(** Deleting and creating again. *)
Lemma delete_create_empty w1 w2 b p :
  snd (handle_delete w1 (b_name b) p) = Ok200 tt -> xo_docdel w1 = true -> xo_kvdel w1 = true ->
  snd (handle_create w2 b (fst (handle_delete w1 (b_name b) p))) = Ok200 tt ->
  coll_of (fst (handle_create w2 b (fst (handle_delete w1 (b_name b) p)))) (b_name b) = Some new_coll.
Proof.
  unfold handle_delete, delete_collection. destruct (xo_session w1 && xo_pod w1); cbn [negb fst snd]; [|discriminate].
  intros _ -> ->. set (p1 := mkP _ _ _). intros H. destruct (body_map b) as [m|] eqn:Eb; [|now destruct (handle_create_none w2 b p1 Eb)].
  destruct (handle_create_some w2 b p1 m Eb) as [-> H2]. apply H2 in H. clear H2. revert H.
  unfold create_collection. destruct (co_session w2 && co_pod w2); cbn [negb]; [|discriminate].
  destruct (co_doccreate w2); cbn [negb]; [|discriminate]. destruct (co_kvcreate w2); cbn [negb]; [|discriminate].
  destruct (co_docopen w2 && co_kvopen w2 && co_new w2); cbn [negb fst snd]; [|discriminate]. intros _.
  unfold coll_of. cbn [register p_docs p_kv p_idx]. rewrite kv_create_docs.
  rewrite doc_create_new; [|apply aget_adel_eq]. unfold kv_create at 1. rewrite doc_create_kv. unfold p1 at 1. cbn [p_kv].
  rewrite aget_adel_eq. cbn [p_kv]. rewrite aget_aset_eq. cbn [t_nodes t_ep t_count].
  destruct (in_dec string_dec _ _) as [_|Hn]; [reflexivity|]. exfalso. apply Hn. now left.
Qed.

(* ------------------------------------------------------------------ *)
(** Cache keys. *)
Fixpoint no_slash (s : string) : Prop :=
  match s with
  | EmptyString => True
  | String c s' => c <> "/"%char /\ no_slash s'
  end.
Lemma last_slash : forall a b x y, no_slash x -> no_slash y -> a ++ "/" ++ x = b ++ "/" ++ y -> a = b /\ x = y.
Proof.
  assert (Hno : forall a x y, no_slash y -> y <> a ++ "/" ++ x).
  { induction a as [|c a IH]; intros x y Hy E; cbn [append] in E; subst y; cbn [no_slash append] in Hy; [tauto|].
    destruct Hy as [_ Hy]. now apply (IH x (a ++ "/" ++ x)). }
  induction a as [|c a IH]; intros b x y Hx Hy E; destruct b as [|c' b]; cbn [append] in E.
  - injection E as E. auto.
  - injection E as _ E. exfalso. apply (Hno b y x Hx). exact E.
  - injection E as _ E. exfalso. apply (Hno a x y Hy). symmetry. exact E.
  - injection E as -> E. destruct (IH _ _ _ Hx Hy E) as [-> ->]. auto.
Qed.
Lemma nilempty_no_slash d : no_slash (NilEmpty.string_of_uint d).
Proof. induction d; cbn [NilEmpty.string_of_uint no_slash]; auto; split; auto; discriminate. Qed.
Lemma decimal_no_slash n : no_slash (decimal n).
Proof.
  unfold decimal, NilZero.string_of_uint. destruct (N.to_uint n) eqn:E; try apply nilempty_no_slash.
  cbn [no_slash]. split; [discriminate|exact I].
Qed.
Lemma decimal_inj a b : decimal a = decimal b -> a = b.
Proof.
  unfold decimal. intros H. assert (Hn : forall n, N.to_uint n <> Decimal.Nil).
  { intros n E. pose proof (DecimalN.Unsigned.of_to n) as H1. rewrite E in H1. cbn in H1. subst n. discriminate. }
  pose proof (NilZero.usu _ (Hn a)) as Ha. pose proof (NilZero.usu _ (Hn b)) as Hb. rewrite H, Hb in Ha.
  injection Ha as Ha. rewrite <- (DecimalN.Unsigned.of_to a), <- (DecimalN.Unsigned.of_to b). now rewrite Ha.
Qed.
Lemma cache_key_inj pn n1 n2 i1 i2 : cache_key pn n1 i1 = cache_key pn n2 i2 -> n1 = n2 /\ i1 = i2.
Proof.
  unfold cache_key. intros H. apply append_cancel in H. cbn [append] in H. injection H as H.
  destruct (last_slash n1 n2 (decimal i1) (decimal i2) (decimal_no_slash i1) (decimal_no_slash i2) H) as [H1 H2].
  split; [exact H1|now apply decimal_inj].
Qed.

(* ------------------------------------------------------------------ *)
(** Other collections. *)
Lemma others_untouched q p n :
  (match q with
   | PCreate _ b => namespaced (b_name b)
   | PDelete _ m => namespaced m
   | PForeign m _ => m
   | PUse m _ _ => namespaced m
   | PRestart => ""
   end) <> namespaced n ->
  let p' := fst (pod_step p q) in
  aget (namespaced n) (p_docs p') = aget (namespaced n) (p_docs p) /\
  aget (namespaced n) (p_kv p') = aget (namespaced n) (p_kv p) /\
  (q <> PRestart -> In (namespaced n) (p_idx p') <-> In (namespaced n) (p_idx p)).
Proof.
  assert (HD : forall x i p, x <> namespaced n -> let p' := doc_create x i p in
    aget (namespaced n) (p_docs p') = aget (namespaced n) (p_docs p) /\ p_kv p' = p_kv p /\ p_idx p' = p_idx p).
  { intros x i p0 Hx. unfold doc_create. destruct (aget x (p_docs p0)); [auto|]. cbn [p_docs p_kv p_idx].
    rewrite aget_aset_ne by congruence. auto. }
  assert (HK : forall x p, x <> namespaced n -> let p' := kv_create x p in
    p_docs p' = p_docs p /\ aget (namespaced n) (p_kv p') = aget (namespaced n) (p_kv p) /\ p_idx p' = p_idx p).
  { intros x p0 Hx. unfold kv_create. destruct (aget x (p_kv p0)); [auto|]. cbn [p_docs p_kv p_idx].
    rewrite aget_aset_ne by congruence. auto. }
  assert (HR : forall x l, x <> namespaced n -> In (namespaced n) (remove string_dec x l) <-> In (namespaced n) l).
  { intros x l Hx. split; [intros H; now apply in_remove in H|intros H; apply in_in_remove; congruence]. }
  destruct q as [w b|w m|m i|m ds t|]; cbn [pod_step]; intros Hne; cbv zeta.
  - unfold handle_create. destruct (String.eqb (b_name b) ""); [cbn [fst]; tauto|].
    destruct (b_indexes b) as [l|]; [|cbn [fst]; tauto]. destruct (index_map l []) as [mm|e| |]; try (cbn [fst]; tauto).
    unfold create_collection. destruct (co_session w && co_pod w); [|cbn [negb fst]; tauto]. cbn [negb].
    destruct (co_doccreate w); [|cbn [negb fst]; tauto]. cbn [negb].
    destruct (HD (namespaced (b_name b)) (aset "hnswId" INum mm) p Hne) as (D1 & D2 & D3). cbv zeta in D1, D2, D3.
    set (p1 := doc_create _ _ _) in *.
    destruct (co_kvcreate w); cbn [negb fst]; [|rewrite D1, D2, D3; tauto].
    destruct (HK (namespaced (b_name b)) p1 Hne) as (K1 & K2 & K3). cbv zeta in K1, K2, K3. set (p2 := kv_create _ _) in *.
    destruct (co_docopen w && co_kvopen w && co_new w); cbn [negb fst]; [|rewrite K1, K2, K3, D1, D2, D3; tauto].
    cbn [register p_docs p_kv p_idx]. rewrite K1, K2, K3, D1, D2, D3. split; [reflexivity|]. split; [reflexivity|].
    intros _. cbn [In]. rewrite HR by exact Hne. split; [intros [H|H]; [congruence|exact H]|auto].
  - unfold handle_delete, delete_collection. destruct (xo_session w && xo_pod w); [|cbn [negb fst]; tauto].
    cbn [negb fst p_docs p_kv p_idx]. rewrite HR by exact Hne.
    split; [|split; [|tauto]]; [destruct (xo_docdel w)|destruct (xo_kvdel w)]; try reflexivity; apply aget_adel_ne; congruence.
  - cbn [fst]. destruct (HD m i p Hne) as (D1 & D2 & D3). cbv zeta in D1, D2, D3. rewrite D1, D2, D3. tauto.
  - destruct (aget (namespaced m) (p_docs p)) as [[i d0]|]; [|cbn [fst]; tauto].
    destruct (aget (namespaced m) (p_kv p)) as [t0|]; [|cbn [fst]; tauto]. cbn [fst p_docs p_kv p_idx].
    rewrite !aget_aset_ne by congruence. tauto.
  - cbn [fst p_docs p_kv]. split; [reflexivity|]. split; [reflexivity|]. intros H. now destruct H.
Qed.
