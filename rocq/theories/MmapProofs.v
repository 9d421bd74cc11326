(** Facts about the mapped condensor. *)
From Coq Require Import Sorting.Sorted.
From Verif Require Import Base CommitLog CommitLogFacts Mmap.

(** ** Binary search *)

Lemma search_loop_spec f n : (forall a b, a <= b < n -> f a = true -> f b = true) ->
  forall fuel i j, i <= j <= n -> j - i < fuel ->
  (forall a, a < i -> f a = false) -> (forall a, j <= a < n -> f a = true) ->
  exists r, search_loop fuel f i j = Some r /\ r <= n /\
    (forall a, a < r -> f a = false) /\ (forall a, r <= a < n -> f a = true).
Proof.
  intros Hm. induction fuel as [|fuel IH]; intros i j Hij Hf Hlo Hhi; [lia|]. cbn [search_loop].
  destruct (Nat.ltb_spec i j) as [L|L].
  - assert (Hh : i <= Nat.div2 (i + j) < j).
    { pose proof (Nat.div2_odd (i + j)) as E. destruct (Nat.odd (i + j)); cbn [Nat.b2n] in E; lia. }
    set (h := Nat.div2 (i + j)) in *. destruct (f h) eqn:E.
    + apply IH; try lia; [assumption|]. intros a Ha. apply (Hm h a); [lia|assumption].
    + apply IH; try lia; [|assumption]. intros a Ha. destruct (f a) eqn:Ea; [|reflexivity].
      rewrite (Hm a h) in E; [discriminate|lia|assumption].
  - exists i. repeat split; try lia; try assumption. intros a Ha. apply Hhi. lia.
Qed.

Lemma sort_search_spec f n : (forall a b, a <= b < n -> f a = true -> f b = true) ->
  exists r, sort_search n f = Some r /\ r <= n /\
    (forall a, a < r -> f a = false) /\ (forall a, r <= a < n -> f a = true).
Proof. intros Hm. apply (search_loop_spec f n Hm); try lia; intros; lia. Qed.

(** ** The table of nodes *)

Definition idlt (x y : mnode) : Prop := (mn_id x < mn_id y)%N.

Fixpoint level_at (ns : list mnode) (id : N) : option N :=
  match ns with
  | [] => None
  | x :: ns => if N.eqb (mn_id x) id then Some (mn_level x) else level_at ns id
  end.

Lemma level_at_app a b id : level_at (a ++ b) id =
  match level_at a id with Some l => Some l | None => level_at b id end.
Proof. induction a as [|x a IH]; cbn; [reflexivity|]. now destruct (N.eqb _ _). Qed.

Lemma level_at_none ns id : Forall (fun x => mn_id x <> id) ns -> level_at ns id = None.
Proof. induction 1 as [|x ns H _ IH]; cbn; [reflexivity|]. now apply N.eqb_neq in H as ->. Qed.

Lemma sorted_nth ns a b x y : StronglySorted idlt ns -> a < b ->
  nth_error ns a = Some x -> nth_error ns b = Some y -> (mn_id x < mn_id y)%N.
Proof.
  intros H. revert a b. induction H as [|z ns H IH Hz]; intros a b L Ha Hb; [now destruct a|].
  destruct b as [|b]; [lia|]. destruct a as [|a]; cbn in Ha, Hb.
  - injection Ha as <-. apply nth_error_In in Hb. rewrite Forall_forall in Hz. now apply Hz.
  - apply (IH a b); [lia|assumption|assumption].
Qed.

Lemma sorted_app (a b : list mnode) : StronglySorted idlt (a ++ b) <->
  StronglySorted idlt a /\ StronglySorted idlt b /\ (forall x y, In x a -> In y b -> idlt x y).
Proof.
  induction a as [|x a IH]; cbn.
  - split; [|tauto]. intros H. repeat split; [constructor|assumption|contradiction].
  - split.
    + intros H. inversion H as [|? ? H1 H2]; subst. apply IH in H1 as (H1 & H3 & H4).
      rewrite Forall_app in H2. destruct H2 as (H2 & H5). repeat split; [now constructor|assumption|].
      intros y z [<-|Hy] Hz; [|now apply H4]. rewrite Forall_forall in H5. now apply H5.
    + intros (H1 & H2 & H3). inversion H1 as [|? ? H4 H5]; subst. constructor.
      * apply IH. repeat split; try assumption. intros y z Hy Hz. apply H3; auto.
      * apply Forall_app. split; [assumption|]. apply Forall_forall. intros y Hy. apply H3; auto.
Qed.

Definition table_ok (ns : list mnode) : Prop :=
  StronglySorted idlt ns /\ Forall (fun x => mn_offset x = 0%N) ns.

Definition omax (o : option N) (l : N) : N := match o with Some m => N.max m l | None => l end.

(** Where the search ends, the table splits. *)
Lemma upsert_split ns id : StronglySorted idlt ns -> exists a b,
  ns = a ++ b /\ Forall (fun x => (mn_id x < id)%N) a /\ Forall (fun x => (id <= mn_id x)%N) b /\
  sort_search (length ns) (fun a => match nth_error ns a with Some x => (id <=? mn_id x)%N | None => false end)
    = Some (length a).
Proof.
  intros H.
  destruct (sort_search_spec (fun a => match nth_error ns a with Some x => (id <=? mn_id x)%N | None => false end)
              (length ns)) as (r & E & Hr & Hlo & Hhi).
  - intros a b L Ha. destruct (nth_error ns a) as [x|] eqn:Ea; [|discriminate].
    destruct (nth_error ns b) as [y|] eqn:Eb; [|apply nth_error_None in Eb; lia].
    apply N.leb_le in Ha. apply N.leb_le.
    destruct (Nat.eq_dec a b) as [->|n]; [congruence|].
    pose proof (sorted_nth ns a b x y H ltac:(lia) Ea Eb). lia.
  - exists (firstn r ns), (skipn r ns). rewrite firstn_skipn. split; [reflexivity|].
    rewrite firstn_length_le by assumption. repeat split; try assumption.
    + apply Forall_forall. intros x Hx. apply In_nth_error in Hx as (i & Hi).
      assert (Li : i < r) by (rewrite <- (firstn_length_le ns Hr); apply nth_error_Some; congruence).
      specialize (Hlo i Li). cbn beta in Hlo.
      rewrite <- (firstn_skipn r ns) in Hlo. rewrite nth_error_app1 in Hlo by (rewrite firstn_length_le; assumption).
      rewrite Hi in Hlo. apply N.leb_gt in Hlo. exact Hlo.
    + apply Forall_forall. intros x Hx. apply In_nth_error in Hx as (i & Hi).
      assert (Li : i < length (skipn r ns)) by (apply nth_error_Some; congruence).
      rewrite skipn_length in Li. specialize (Hhi (r + i) ltac:(lia)). cbn beta in Hhi.
      rewrite <- (firstn_skipn r ns) in Hhi.
      rewrite nth_error_app2 in Hhi by (rewrite firstn_length_le by assumption; lia).
      rewrite firstn_length_le in Hhi by assumption. replace (r + i - r) with i in Hhi by lia.
      rewrite Hi in Hhi. now apply N.leb_le in Hhi.
Qed.

Lemma upsert_ok ns id l : table_ok ns -> exists ns', upsert ns id l = Ok ns' /\ table_ok ns' /\
  level_at ns' id = Some (omax (level_at ns id) l) /\
  (forall id', id' <> id -> level_at ns' id' = level_at ns id').
Proof.
  intros (Hs & Ho). destruct (upsert_split ns id Hs) as (a & b & E & Ha & Hb & Es).
  unfold upsert. rewrite Es. clear Es. subst ns.
  rewrite nth_error_app2 by lia. rewrite Nat.sub_diag.
  rewrite firstn_app, Nat.sub_diag, firstn_all. cbn [firstn]. rewrite app_nil_r.
  apply sorted_app in Hs as (Sa & Sb & Sab). apply Forall_app in Ho as (Oa & Ob).
  assert (Na : level_at a id = None) by (apply level_at_none; eapply Forall_impl; [|exact Ha]; cbn; lia).
  destruct b as [|x b]; cbn [nth_error].
  - exists (a ++ [mkMN id 0 l]). split; [reflexivity|]. split; [split|].
    + apply sorted_app. split; [assumption|]. split; [repeat constructor|].
      intros x y Hx [<-|[]]. rewrite Forall_forall in Ha. unfold idlt. cbn. now apply Ha.
    + apply Forall_app. split; [assumption|]. now repeat constructor.
    + rewrite !level_at_app, Na. cbn. rewrite N.eqb_refl. split; [reflexivity|].
      intros id' n. rewrite !level_at_app. cbn.
      apply not_eq_sym, N.eqb_neq in n. rewrite n. reflexivity.
  - inversion Sb as [|? ? Sb' Hx]; subst. inversion Ob as [|? ? Ox Ob']; subst.
    inversion Hb as [|? ? Ix Hb']; subst.
    destruct (N.eqb_spec (mn_id x) id) as [E|n].
    + exists (a ++ mkMN id (mn_offset x) (if (mn_level x <? l)%N then l else mn_level x) :: b). split; [|split; [split|]].
      * do 2 f_equal. rewrite skipn_app. replace (S (length a) - length a) with 1 by lia.
        rewrite skipn_all2 by lia. reflexivity.
      * apply sorted_app. split; [assumption|]. split.
        -- constructor; [assumption|]. eapply Forall_impl; [|exact Hx]. unfold idlt. cbn. now rewrite E.
        -- intros y z Hy [<-|Hz]; [|apply Sab; [assumption|now right]].
           rewrite Forall_forall in Ha. unfold idlt. cbn. now apply Ha.
      * apply Forall_app. split; [assumption|]. constructor; assumption.
      * rewrite !level_at_app, Na. cbn. rewrite N.eqb_refl, E, N.eqb_refl. split.
        -- cbn [omax]. destruct (N.ltb_spec (mn_level x) l); f_equal; lia.
        -- intros id' n. rewrite !level_at_app. cbn. rewrite E.
           apply not_eq_sym, N.eqb_neq in n. now rewrite n.
    + assert (Nb : level_at (x :: b) id = None).
      { apply level_at_none. constructor; [assumption|].
        apply Forall_forall. intros y Hy. rewrite Forall_forall in Hx. specialize (Hx y Hy). unfold idlt in Hx. lia. }
      exists (a ++ mkMN id (mn_offset x) l :: x :: b). split; [|split; [split|]].
      * do 2 f_equal. rewrite skipn_app, Nat.sub_diag, skipn_all. reflexivity.
      * apply sorted_app. split; [assumption|]. split.
        -- constructor; [constructor; assumption|]. constructor; [unfold idlt; cbn; lia|].
           apply Forall_forall. intros y Hy. rewrite Forall_forall in Hx. specialize (Hx y Hy).
           unfold idlt in *. cbn. lia.
        -- intros y z Hy [<-|Hz]; [|now apply Sab].
           rewrite Forall_forall in Ha. unfold idlt. cbn. now apply Ha.
      * apply Forall_app. split; [assumption|]. constructor; [assumption|]. constructor; assumption.
      * rewrite !level_at_app, Na, Nb. cbn [level_at mn_id mn_level]. rewrite N.eqb_refl. split; [reflexivity|].
        intros id' n'. rewrite !level_at_app. cbn [level_at mn_id mn_level].
        apply not_eq_sym, N.eqb_neq in n'. now rewrite n'.
Qed.

Lemma level_at_in ns x : StronglySorted idlt ns -> In x ns -> level_at ns (mn_id x) = Some (mn_level x).
Proof.
  intros H. induction H as [|y ns H IH Hy]; [contradiction|]. intros [->|Hx]; cbn.
  - now rewrite N.eqb_refl.
  - rewrite Forall_forall in Hy. specialize (Hy x Hx). unfold idlt in Hy.
    destruct (N.eqb_spec (mn_id y) (mn_id x)); [lia|]. now apply IH.
Qed.

Lemma in_level_at ns id l : level_at ns id = Some l -> exists x, In x ns /\ mn_id x = id /\ mn_level x = l.
Proof.
  induction ns as [|x ns IH]; cbn; [discriminate|].
  destruct (N.eqb_spec (mn_id x) id) as [E|n].
  - intros [= <-]. exists x. auto.
  - intros H. destruct (IH H) as (y & Hy & ?). exists y. auto.
Qed.

(** ** Records *)

(** The node and level a record gives room for. *)
Definition mentions (o : lop) : option (N * N) :=
  match o with
  | LNode id l | LLink id l _ | LReplace id l _ => Some (id, l)
  | _ => None
  end.
(** The record kinds the analysis knows. *)
Definition known (o : lop) : Prop :=
  match o with LClearAt _ _ | LAddLinks _ _ _ | LPq _ => False | _ => True end.

Lemma discard_app k a rest : length a = k -> discard k (a ++ rest) = inl (tt, rest).
Proof.
  intros <-. unfold discard. rewrite app_length.
  destruct (Nat.leb_spec (length a) (length a + length rest)); [|lia].
  rewrite skipn_app, skipn_all, Nat.sub_diag. reflexivity.
Qed.

Lemma mstep_encode o ns rest : op_ok o -> known o -> table_ok ns -> exists ns',
  mstep_of (ct_of o) ns (body_of o ++ rest) = MOk ns' rest /\
  match o with
  | LReset => ns' = []
  | _ => match mentions o with
         | Some (id, l) => upsert ns id l = Ok ns'
         | None => ns' = ns
         end
  end.
Proof.
  intros Hok Hk Ht.
  destruct o as [id l|id l|id l t|id l ts|id|id|id|id| |id l|id l ts|pq];
    cbn [op_ok ct_of body_of known mentions] in *; try contradiction;
    unfold mstep_of; cbn [N.eqb ct_add_node ct_set_ep ct_add_link ct_add_links ct_replace_links
    ct_add_tomb ct_remove_tomb ct_clear_links ct_clear_links_at ct_delete_node ct_reset
    ct_add_pq Pos.eqb].
  - destruct Hok. unfold m_node. rewrite <- app_assoc, rd_id_level_enc by assumption.
    destruct (upsert_ok ns id l Ht) as (ns' & E & _). rewrite E. exists ns'. auto.
  - unfold m_skip. rewrite discard_app by (rewrite app_length, !le_enc_length; reflexivity). exists ns. auto.
  - destruct Hok as (? & ? & ?). unfold m_link. unfold rbind, rret.
    rewrite <- !app_assoc, rd_id_level_enc by assumption.
    rewrite discard_app by apply le_enc_length.
    destruct (upsert_ok ns id l Ht) as (ns' & E & _). rewrite E. exists ns'. auto.
  - destruct Hok as (? & ? & ? & ?). unfold m_links. unfold rbind, rret. cbv zeta.
    assert (Hmin : Nat.min (length ts) (N.to_nat 65535) = length ts) by lia.
    rewrite Hmin, firstn_all, <- !app_assoc, rd_id_level_enc by assumption.
    rewrite read_u16_enc by (unfold u16_ok in *; lia).
    destruct (upsert_ok ns id l Ht) as (ns' & E & _). rewrite E. cbn [mput].
    rewrite Nat2N.id, discard_app by apply flat8_length. exists ns'. auto.
  - unfold m_skip. rewrite discard_app by apply le_enc_length. exists ns. auto.
  - unfold m_skip. rewrite discard_app by apply le_enc_length. exists ns. auto.
  - unfold m_skip. rewrite discard_app by apply le_enc_length. exists ns. auto.
  - unfold m_delete. rewrite read_u64_enc by assumption. exists ns. auto.
  - exists []. auto.
Qed.

(** The highest level mentioned for [id], after [o] levels so far. *)
Definition seen_step (id : N) (acc : option N) (o : lop) : option N :=
  match o with
  | LReset => None
  | _ => match mentions o with
         | Some (i, l) => if N.eqb i id then Some (omax acc l) else acc
         | None => acc
         end
  end.

Lemma analyze_loop_ok : forall os fuel ns, Forall op_ok os -> Forall known os -> table_ok ns ->
  length (encode_all os) < fuel -> exists ns',
  analyze_loop fuel ns (encode_all os) = MOk ns' [] /\ table_ok ns' /\
  forall id, level_at ns' id = fold_left (seen_step id) os (level_at ns id).
Proof.
  induction os as [|o os IH]; intros fuel ns Hok Hk Ht Hf.
  - destruct fuel; [cbn in Hf; lia|]. exists ns. cbn. auto.
  - inversion Hok as [|? ? Ho Hos]; subst. inversion Hk as [|? ? Ko Kos]; subst.
    unfold encode_all in *. cbn [flat_map] in *. rewrite encode_split in *. cbn [app] in *.
    cbn [length] in Hf. rewrite app_length in Hf. destruct fuel as [|fuel]; [lia|]. cbn [analyze_loop].
    destruct (mstep_encode o ns (flat_map encode os) Ho Ko Ht) as (ns1 & E1 & H1). rewrite E1.
    assert (H : table_ok ns1 /\ forall id, level_at ns1 id = seen_step id (level_at ns id) o).
    { destruct o as [id l|id l|id l t|id l ts|id|id|id|id| |id l|id l ts|pq]; cbn [mentions seen_step] in *;
        try (subst ns1; now auto);
        try (destruct (upsert_ok ns id l Ht) as (ns2 & E2 & Ht2 & L1 & L2); rewrite E2 in H1; injection H1 as <-;
             split; [assumption|]; intros i; destruct (N.eqb_spec id i) as [<-|n]; [exact L1|apply L2; congruence]).
      subst ns1. split; [|reflexivity]. split; constructor. }
    destruct H as (Ht1 & L).
    destruct (IH fuel ns1 Hos Kos Ht1 ltac:(lia)) as (ns' & E' & Ht' & L').
    exists ns'. split; [assumption|]. split; [assumption|]. intros id. rewrite L', L. reflexivity.
Qed.
