(** Condensing a log and replaying it. *)
From Verif Require Import Base CommitLog CommitLogFacts CommitLogReplay CommitLogEffect.

(** Two states hold the same index. *)
Definition same_index (a b : lstate) : Prop :=
  (forall id, mget id (ls_nodes a) = mget id (ls_nodes b))
  /\ ls_ep a = ls_ep b /\ ls_level a = ls_level b
  /\ (forall t, In t (ls_tomb a) <-> In t (ls_tomb b))
  /\ ls_pq a = ls_pq b /\ ls_comp a = ls_comp b.

Lemma same_index_refl a : same_index a a.
Proof. repeat split; auto. Qed.

(** ** Keeping the replace marks does not change the index *)

Definition erase (st : lstate) : lstate := with_replaced st [].

Lemma bind_ok {A B} (r : res A) (f : A -> res B) b :
  bind r f = Ok b -> exists a, r = Ok a /\ f a = Ok b.
Proof. destruct r; try discriminate. cbn. eauto. Qed.

Lemma do_conns_erase id l f st s : do_conns id l f st = Ok s ->
  do_conns id l f (erase st) = Ok (erase s) /\ forall r, erase (with_replaced s r) = erase s.
Proof.
  unfold do_conns, erase. cbn [ls_len ls_nodes with_replaced]. intros H.
  apply bind_ok in H as (n & -> & H). cbn [bind]. apply bind_ok in H as (c & Hc & H). rewrite Hc.
  cbn [bind]. injection H as <-. split; reflexivity.
Qed.

Lemma apply_erase o st s : op_mem o -> clear_ok o st -> apply_op true o st = Ok s ->
  apply_op false o (erase st) = Ok (erase s).
Proof.
  intros Hm Hc.
  destruct o as [id l|id l|id l t|id l ts|id|id|id|id| |id l|id l ts|pq]; cbn [apply_op op_mem clear_ok] in *.
  - unfold do_node, erase. cbn [ls_len ls_nodes with_replaced]. intros H.
    apply bind_ok in H as (n & -> & H). cbn [bind]. injection H as <-. reflexivity.
  - intros [= <-]. reflexivity.
  - intros H. now apply do_conns_erase.
  - unfold do_replace_links. intros H. apply bind_ok in H as (s1 & H1 & H).
    apply do_conns_erase in H1 as [-> H2]. cbn [bind]. injection H as <-. unfold mark. now rewrite H2.
  - intros [= <-]. reflexivity.
  - intros [= <-]. reflexivity.
  - unfold do_clear_links, erase, beyond, index_panics. cbn [ls_len ls_nodes with_replaced].
    destruct (_ && _)%bool; [intros [= <-]; reflexivity|]. destruct (_ <=? _)%N; [discriminate|].
    destruct (mget id (ls_nodes st)); intros [= <-]; reflexivity.
  - unfold do_delete, erase, beyond, index_panics. cbn [ls_len ls_nodes with_replaced].
    destruct (_ && _)%bool; [intros [= <-]; reflexivity|]. destruct (_ <=? _)%N; [discriminate|].
    intros [= <-]; reflexivity.
  - intros [= <-]. reflexivity.
  - destruct Hm as [Hi _]. unfold do_clear_links_at, erase, beyond, index_panics, mark.
    cbn [ls_len ls_nodes with_replaced]. destruct (N.ltb_spec id (2 ^ 63)); [|lia]. cbn [andb].
    destruct (N.leb_spec (ls_len st) id) as [Hle|Hlt]; [intros [= <-]; reflexivity|].
    destruct Hc as [Hp|Hle]; [|lia]. unfold present in Hp.
    destruct (mget id (ls_nodes st)) as [v|]; [|congruence]. cbv zeta.
    intros H1. apply bind_ok in H1 as (c & -> & H1). cbn [bind]. injection H1 as <-. reflexivity.
  - intros H. now apply do_conns_erase.
  - intros [= <-]. reflexivity.
Qed.

(** Every ClearLinksAtLevel of the log reaches a node that exists then (or an id
    beyond the slice). *)
Fixpoint clears_ok (os : list lop) (st : lstate) : Prop :=
  match os with
  | [] => True
  | o :: os => clear_ok o st /\ forall s, apply_op false o st = Ok s -> clears_ok os s
  end.

Lemma clear_ok_erase o st : clear_ok o (erase st) <-> clear_ok o st.
Proof. now destruct o. Qed.

Lemma apply_all_erase : forall os st s, Forall op_mem os -> clears_ok os (erase st) ->
  apply_all true os st = Ok s -> apply_all false os (erase st) = Ok (erase s).
Proof.
  induction os as [|o os IH]; intros st s Hm Hc; cbn [apply_all clears_ok] in *.
  - intros [= <-]. reflexivity.
  - inversion Hm; subst. destruct Hc as [Hc1 Hc2]. intros H. apply bind_ok in H as (s1 & H1' & H).
    pose proof (apply_erase o st s1 H1 (proj1 (clear_ok_erase o st) Hc1) H1') as H3.
    rewrite H3. cbn [bind]. apply IH; auto.
Qed.

(** ** Well-formed states *)

Definition vert_ok (k : N) (v : lvert) : Prop :=
  lv_id v = k /\ (k < 2 ^ 40)%N /\ (lv_level v < 65535)%N
  /\ S (N.to_nat (lv_level v)) <= length (lv_conns v)
  /\ (N.of_nat (length (lv_conns v)) <= 65535)%N
  /\ Forall (Forall u64_ok) (lv_conns v).

Record wf (st : lstate) : Prop := {
  wf_keys : NoDup (mkeys (ls_nodes st));
  wf_nodes : forall k v, mget k (ls_nodes st) = Some v -> vert_ok k v;
  wf_ep : u64_ok (ls_ep st) /\ u16_ok (ls_level st);
  wf_epch : ls_epch st = false -> ls_ep st = 0%N /\ ls_level st = 0%N;
  wf_tomb : Forall u64_ok (ls_tomb st);
  wf_pq : ls_pq st = None /\ ls_comp st = false
}.

Lemma mkeys_mdel {V} k k' (m : nmap V) : In k (mkeys (mdel k' m)) -> k <> k' /\ In k (mkeys m).
Proof.
  induction m as [|[k2 v] m IH]; cbn; [intros []|].
  destruct (N.eqb_spec k' k2) as [->|Hne].
  - intros H. destruct (IH H). auto.
  - cbn. intros [->|H]; [auto|]. destruct (IH H). auto.
Qed.

Lemma nodup_mdel {V} k (m : nmap V) : NoDup (mkeys m) -> NoDup (mkeys (mdel k m)).
Proof.
  induction m as [|[k2 v] m IH]; cbn; [auto|]. intros H. inversion H; subst.
  destruct (N.eqb k k2); [auto|]. cbn. constructor; [|auto].
  intros Hin. now apply mkeys_mdel in Hin as [_ ?].
Qed.

Lemma nodup_mset {V} k (v : V) (m : nmap V) : NoDup (mkeys m) -> NoDup (mkeys (mset k v m)).
Proof.
  intros H. unfold mset, mkeys. cbn. constructor.
  - intros Hin. now apply mkeys_mdel in Hin as [? _].
  - now apply nodup_mdel.
Qed.

Lemma maybe_grow_forall (P : list N -> Prop) conns l : P [] -> Forall P conns ->
  Forall P (maybe_grow conns l).
Proof.
  intros H0 Hf. unfold maybe_grow. destruct (_ <=? _)%N; [|exact Hf]. cbv zeta.
  apply Forall_forall. intros x Hx.
  assert (In x (conns ++ repeat [] (N.to_nat (u16 (l + 1)) - length conns))).
  { rewrite <- (firstn_skipn (N.to_nat (u16 (l + 1))) (conns ++ _)). apply in_or_app. now left. }
  apply in_app_or in H as [H|H].
  - now apply (proj1 (Forall_forall _ _) Hf).
  - apply repeat_spec in H. now subst.
Qed.

Lemma upd_forall {A} (P : A -> Prop) l i x : Forall P l -> P x -> Forall P (upd l i x).
Proof.
  revert i. induction l as [|h t IH]; intros [|i] Hf Hx; cbn; auto; inversion Hf; subst; constructor; auto.
Qed.

Lemma at_level_forall (P : list N -> Prop) conns l f c : at_level conns l f = Ok c ->
  Forall P conns -> (forall x, P x -> P (f x)) -> Forall P c.
Proof.
  unfold at_level. destruct (nth_error conns (N.to_nat l)) as [x|] eqn:E; [|discriminate].
  intros [= <-] Hf Hp. apply upd_forall; [exact Hf|]. apply Hp.
  apply (proj1 (Forall_forall _ _) Hf). now apply nth_error_In in E.
Qed.

Lemma upd_length' {A} (l : list A) i x : length (upd l i x) = length l.
Proof. revert i. induction l as [|h t IH]; intros [|i]; cbn; auto. Qed.

Lemma at_level_length conns l f c : at_level conns l f = Ok c -> length c = length conns.
Proof.
  unfold at_level. destruct (nth_error _ _); [|discriminate]. intros [= <-]. apply upd_length'.
Qed.

Lemma fresh_conns_length l : (l < 65535)%N -> length (fresh_conns l) = S (N.to_nat l).
Proof. intros H. unfold fresh_conns, u16. rewrite repeat_length, N.mod_small by lia. lia. Qed.

Lemma fresh_conns_forall (P : list N -> Prop) l : P [] -> Forall P (fresh_conns l).
Proof. intros H. apply Forall_forall. intros x Hx. apply repeat_spec in Hx. now subst. Qed.

Lemma wf_mset st n k v : wf st -> vert_ok k v -> wf (with_nodes st n (mset k v (ls_nodes st))).
Proof.
  intros [H1 H2 H3 H4 H5 H6] Hv.
  constructor; cbn [with_nodes ls_nodes ls_ep ls_level ls_epch ls_tomb ls_pq ls_comp]; auto.
  - now apply nodup_mset.
  - intros k' v'. destruct (N.eqb_spec k' k) as [->|Hne].
    + rewrite mget_mset_eq. intros [= <-]. exact Hv.
    + rewrite mget_mset_ne by exact Hne. apply H2.
Qed.

Lemma vert_ok_grow k v l c f : vert_ok k v -> (l < 65535)%N ->
  at_level (maybe_grow (lv_conns v) l) l f = Ok c ->
  (forall x, Forall u64_ok x -> Forall u64_ok (f x)) ->
  vert_ok k (mkLvert (lv_id v) (lv_level v) c).
Proof.
  intros (H1 & H2 & H3 & H4 & H5 & H6) Hl Ha Hf.
  pose proof (at_level_length _ _ _ _ Ha) as Hlen. rewrite maybe_grow_length in Hlen by auto.
  unfold vert_ok; cbn. repeat split; auto; try lia.
  apply (at_level_forall _ _ _ _ _ Ha); [|exact Hf]. apply maybe_grow_forall; [constructor|exact H6].
Qed.

Lemma do_conns_wf id l f st s : wf st -> (id < 2 ^ 40)%N -> (l < 65535)%N ->
  (forall x, Forall u64_ok x -> Forall u64_ok (f x)) -> do_conns id l f st = Ok s -> wf s.
Proof.
  intros Hw Hi Hl Hf H. unfold do_conns in H. apply bind_ok in H as (n & _ & H).
  set (v := match mget id (ls_nodes st) with None => _ | Some v => v end) in *.
  assert (Hv : vert_ok id v).
  { unfold v. destruct (mget id (ls_nodes st)) as [v0|] eqn:E; [now apply (wf_nodes _ Hw)|].
    unfold vert_ok; cbn. rewrite fresh_conns_length by auto.
    repeat split; auto; try lia. now apply fresh_conns_forall. }
  apply bind_ok in H as (c & Hc & H). injection H as <-. apply wf_mset; [exact Hw|].
  now apply (vert_ok_grow id v l c f).
Qed.

Lemma wf_mark id l st : wf st -> wf (mark id l st).
Proof. intros [H1 H2 H3 H4 H5 H6]. constructor; auto. Qed.

Lemma apply_wf keep o st s : op_ok o -> op_mem o -> no_pq o -> clear_ok o st ->
  wf st -> apply_op keep o st = Ok s -> wf s.
Proof.
  intros Ho Hm Hp Hc Hw.
  destruct o as [id l|id l|id l t|id l ts|id|id|id|id| |id l|id l ts|pq];
    cbn [apply_op op_mem op_ok clear_ok] in *.
  - destruct Hm as [Hi Hl]. unfold do_node. intros H. apply bind_ok in H as (n & _ & H).
    injection H as <-. apply wf_mset; [exact Hw|].
    destruct (mget id (ls_nodes st)) as [v0|] eqn:E.
    + destruct (wf_nodes _ Hw _ _ E) as (H1 & H2 & H3 & H4 & H5 & H6).
      unfold vert_ok; cbn. rewrite maybe_grow_length by auto. repeat split; auto; try lia.
      apply maybe_grow_forall; [constructor|exact H6].
    + unfold vert_ok; cbn. rewrite fresh_conns_length by auto.
      repeat split; auto; try lia. now apply fresh_conns_forall.
  - intros [= <-]. destruct Hw as [H1 H2 H3 H4 H5 H6]. constructor; cbn; auto; congruence.
  - destruct Hm as [Hi Hl], Ho as (_ & _ & Ht). unfold do_link. apply do_conns_wf; auto.
    intros x Hx. apply Forall_app. auto.
  - destruct Hm as [Hi Hl], Ho as (_ & _ & Ht & _). unfold do_replace_links. intros H.
    apply bind_ok in H as (s1 & H1 & H). injection H as <-.
    assert (wf s1) by (apply (do_conns_wf id l (fun _ => ts) st); auto). destruct keep; [now apply wf_mark|assumption].
  - intros [= <-]. destruct Hw as [H1 H2 H3 H4 H5 H6]. constructor; cbn; auto.
    destruct (memN id (ls_tomb st)); auto.
  - intros [= <-]. destruct Hw as [H1 H2 H3 H4 H5 H6]. constructor; cbn; auto.
    apply Forall_forall. intros x Hx. apply filter_In in Hx as [Hx _].
    now apply (proj1 (Forall_forall _ _) H5).
  - unfold do_clear_links. destruct (beyond id st); [intros [= <-]; exact Hw|].
    destruct (index_panics id st); [discriminate|].
    destruct (mget id (ls_nodes st)) as [v|] eqn:E; intros [= <-]; [|exact Hw].
    apply wf_mset; [exact Hw|]. destruct (wf_nodes _ Hw _ _ E) as (H1 & H2 & H3 & H4 & H5 & H6).
    unfold vert_ok; cbn. rewrite map_length. repeat split; auto. 
    apply Forall_forall. intros x Hx. apply in_map_iff in Hx as (y & <- & _). constructor.
  - unfold do_delete. destruct (beyond id st); [intros [= <-]; exact Hw|].
    destruct (index_panics id st); [discriminate|]. intros [= <-].
    destruct Hw as [H1 H2 H3 H4 H5 H6]. constructor; cbn; auto.
    + now apply nodup_mdel.
    + intros k v. destruct (N.eqb_spec k id) as [->|Hne].
      * rewrite mget_mdel_eq. discriminate.
      * rewrite mget_mdel_ne by exact Hne. apply H2.
  - intros [= <-]. destruct Hw as [H1 H2 H3 H4 H5 H6]. constructor; cbn; auto.
    + constructor.
    + discriminate.
    + split; reflexivity.
  - destruct Hm as [Hi Hl]. unfold do_clear_links_at. destruct (beyond id st) eqn:Eb; [intros [= <-]; exact Hw|].
    cbv zeta. set (st1 := if keep then mark id l st else st).
    assert (Hw1 : wf st1) by (unfold st1; destruct keep; [now apply wf_mark|exact Hw]).
    assert (Hn1 : ls_nodes st1 = ls_nodes st) by (unfold st1; now destruct keep).
    destruct (index_panics id st1); [discriminate|].
    destruct Hc as [Hc|Hc].
    2:{ exfalso. unfold beyond in Eb. destruct (N.ltb_spec id (2 ^ 63)); [|lia].
        cbn [andb] in Eb. apply N.leb_gt in Eb. lia. }
    unfold present in Hc. destruct (mget id (ls_nodes st1)) as [v|] eqn:E; [|rewrite Hn1 in E; congruence].
    assert (Hgo : forall r, (do! c <- at_level (maybe_grow (lv_conns v) l) l (fun _ => []);
       Ok (if keep then mark id l (with_nodes st1 (ls_len st1)
             (mset id (mkLvert (lv_id v) (lv_level v) c) (ls_nodes st1)))
           else with_nodes st1 (ls_len st1)
             (mset id (mkLvert (lv_id v) (lv_level v) c) (ls_nodes st1)))) = Ok r -> wf r).
    { intros r H. apply bind_ok in H as (c & Hc1 & H).
      assert (Hw2 : wf (with_nodes st1 (ls_len st1) (mset id (mkLvert (lv_id v) (lv_level v) c) (ls_nodes st1)))).
      { apply wf_mset; [exact Hw1|]. apply (vert_ok_grow id v l c (fun _ => [])); auto. now apply (wf_nodes _ Hw1). }
      injection H as <-. destruct keep; [now apply wf_mark|exact Hw2]. }
    destruct keep; apply Hgo.
  - destruct Hm as [Hi Hl], Ho as (_ & _ & Ht & _). unfold do_add_links. apply do_conns_wf; auto.
    intros x Hx. apply Forall_app. auto.
  - contradiction.
Qed.

Lemma init_wf : wf ls_init.
Proof.
  constructor; cbn; try constructor; try discriminate; auto; try reflexivity.
Qed.

(** ** Replaying the condensed records *)

Definition frame (st st' : lstate) : Prop :=
  ls_ep st' = ls_ep st /\ ls_level st' = ls_level st /\ ls_tomb st' = ls_tomb st
  /\ ls_epch st' = ls_epch st /\ ls_pq st' = ls_pq st /\ ls_comp st' = ls_comp st.

Lemma frame_refl st : frame st st.
Proof. repeat split. Qed.

Lemma frame_trans a b c : frame a b -> frame b c -> frame a c.
Proof. unfold frame. intuition congruence. Qed.

Lemma upd_middle {A} (a b : list A) x y : upd (a ++ x :: b) (length a) y = a ++ y :: b.
Proof. induction a as [|h t IH]; cbn; [reflexivity|now rewrite IH]. Qed.

Lemma nth_error_middle {A} (a b : list A) x : nth_error (a ++ x :: b) (length a) = Some x.
Proof. induction a; cbn; auto. Qed.

(** One record of links on a node whose list of that level is still empty. *)
Lemma links_step id lvl done pad l f st :
  (id < 2 ^ 40)%N -> (N.of_nat (length done) < 65535)%N -> len_ok st -> f [] = l ->
  mget id (ls_nodes st) = Some (mkLvert id lvl (done ++ repeat [] pad)) ->
  exists st', do_conns id (N.of_nat (length done)) f st = Ok st'
    /\ mget id (ls_nodes st') = Some (mkLvert id lvl ((done ++ [l]) ++ repeat [] (pad - 1)))
    /\ same_others id st st' /\ frame st st' /\ len_ok st'.
Proof.
  intros Hi Hd Hl Hf Hg. unfold do_conns. destruct (grow_len_ok _ _ Hl Hi) as (n & -> & Hn & _).
  cbn [bind]. rewrite Hg. cbn [lv_conns lv_id lv_level].
  assert (Hgrow : maybe_grow (done ++ repeat [] pad) (N.of_nat (length done))
                  = done ++ [] :: repeat [] (pad - 1)).
  { unfold maybe_grow. rewrite app_length, repeat_length.
    destruct (N.leb_spec (N.of_nat (length done + pad)) (N.of_nat (length done))) as [H|H].
    - assert (pad = 0) by lia. subst pad. cbn [repeat]. rewrite app_nil_r. cbv zeta.
      unfold u16. rewrite N.mod_small by lia.
      replace (N.to_nat (N.of_nat (length done) + 1)) with (S (length done)) by lia.
      replace (S (length done) - (length done + 0)) with 1 by lia. cbn [repeat Nat.sub].
      rewrite firstn_all2; [reflexivity|]. rewrite app_length. cbn. lia.
    - destruct pad as [|pad]; [lia|]. cbn [repeat]. now replace (S pad - 1) with pad by lia. }
  rewrite Hgrow. unfold at_level. rewrite Nat2N.id, nth_error_middle, upd_middle, Hf. cbn [bind].
  eexists. split; [reflexivity|]. cbn [ls_nodes with_nodes ls_len].
  split; [rewrite mget_mset_eq; now rewrite <- app_assoc|].
  split; [intros i Hne; cbn [ls_nodes with_nodes]; now apply mget_mset_ne|].
  split; [repeat split|exact Hn].
Qed.

Lemma links_step_new id l f st :
  (id < 2 ^ 40)%N -> len_ok st -> f [] = l -> mget id (ls_nodes st) = None ->
  exists st', do_conns id 0 f st = Ok st'
    /\ mget id (ls_nodes st') = Some (mkLvert id 0 ([l] ++ repeat [] 0))
    /\ same_others id st st' /\ frame st st' /\ len_ok st'.
Proof.
  intros Hi Hl Hf Hg. unfold do_conns. destruct (grow_len_ok _ _ Hl Hi) as (n & -> & Hn & _).
  cbn [bind]. rewrite Hg. cbn [lv_conns lv_id lv_level].
  change (maybe_grow (fresh_conns 0) 0) with [@nil N].
  change (at_level [[]] 0 f) with (Ok [f []]). rewrite Hf. cbn [bind].
  eexists. split; [reflexivity|]. cbn [ls_nodes with_nodes ls_len].
  split; [now rewrite mget_mset_eq|].
  split; [intros i Hne; cbn [ls_nodes with_nodes]; now apply mget_mset_ne|].
  split; [repeat split|exact Hn].
Qed.

(** The record chosen for a level acts like [do_conns]. *)
Lemma links_op_eq rep id i l st : (N.of_nat i < 65536)%N ->
  exists f, f [] = l /\
    apply_op false (if pair_mem (id, u16 (N.of_nat i)) rep
                    then LReplace id (u16 (N.of_nat i)) l else LAddLinks id (u16 (N.of_nat i)) l) st
    = do_conns id (N.of_nat i) f st.
Proof.
  intros Hi. unfold u16. rewrite N.mod_small by lia.
  destruct (pair_mem _ _).
  - exists (fun _ => l). split; [reflexivity|]. cbn [apply_op]. unfold do_replace_links.
    now destruct (do_conns id (N.of_nat i) (fun _ => l) st).
  - exists (fun x => x ++ l). split; reflexivity.
Qed.

Lemma links_ops_apply rep id lvl : (id < 2 ^ 40)%N -> forall todo done pad st,
  (N.of_nat (length done + length todo) <= 65535)%N -> pad <= length todo -> len_ok st ->
  mget id (ls_nodes st) = Some (mkLvert id lvl (done ++ repeat [] pad)) ->
  exists st', apply_all false (links_ops rep id (length done) todo) st = Ok st'
    /\ mget id (ls_nodes st') = Some (mkLvert id lvl (done ++ todo))
    /\ same_others id st st' /\ frame st st' /\ len_ok st'.
Proof.
  intros Hi. induction todo as [|l todo IH]; intros done pad st Hlen Hpad Hl Hg.
  - cbn in Hpad. assert (pad = 0) by lia. subst pad. exists st. cbn [links_ops apply_all].
    repeat split; auto.
  - cbn [links_ops apply_all]. cbv zeta. cbn [length] in *.
    destruct (links_op_eq rep id (length done) l st) as (f & Hf & ->); [lia|].
    destruct (links_step id lvl done pad l f st Hi) as (s1 & -> & G1 & O1 & F1 & L1); auto; [lia|].
    cbn [bind].
    destruct (IH (done ++ [l]) (pad - 1) s1) as (s2 & H2 & G2 & O2 & F2 & L2); auto.
    { rewrite app_length; cbn; lia. }
    { lia. }
    rewrite app_length in H2. cbn [length] in H2.
    replace (length done + 1) with (S (length done)) in H2 by lia. rewrite H2.
    exists s2. split; [reflexivity|]. split; [now rewrite <- app_assoc in G2|].
    split; [intros i Hne; rewrite O2, O1 by exact Hne; reflexivity|].
    split; [now apply (frame_trans _ s1)|exact L2].
Qed.

Lemma node_ops_apply rep k v st : vert_ok k v -> len_ok st -> mget k (ls_nodes st) = None ->
  exists st', apply_all false (node_ops rep v) st = Ok st'
    /\ mget k (ls_nodes st') = Some v
    /\ same_others k st st' /\ frame st st' /\ len_ok st'.
Proof.
  intros (H1 & H2 & H3 & H4 & H5 & H6) Hl Hg. destruct v as [vid lvl conns]. cbn in *. subst vid.
  unfold node_ops. cbn [lv_level lv_id lv_conns].
  destruct (N.ltb_spec 0 lvl) as [Hlv|Hlv].
  - cbn [app apply_all apply_op]. unfold u16 at 1. rewrite N.mod_small by lia.
    unfold do_node at 1. destruct (grow_len_ok _ _ Hl H2) as (n & -> & Hn & _). cbn [bind].
    rewrite Hg. set (s1 := with_nodes st n _).
    assert (G1 : mget k (ls_nodes s1) = Some (mkLvert k lvl ([] ++ repeat [] (S (N.to_nat lvl))))).
    { unfold s1. cbn [ls_nodes with_nodes]. rewrite mget_mset_eq. f_equal. f_equal.
      unfold fresh_conns, u16. rewrite N.mod_small by lia. cbn [app]. f_equal. lia. }
    destruct (links_ops_apply rep k lvl H2 conns [] (S (N.to_nat lvl)) s1) as (s2 & E & G2 & O2 & F2 & L2);
      auto.
    cbn [length] in E. rewrite E. exists s2. split; [reflexivity|]. split; [exact G2|].
    split; [intros i Hne; rewrite O2 by exact Hne; unfold s1; cbn [ls_nodes with_nodes]; now apply mget_mset_ne|].
    split; [|exact L2]. apply (frame_trans _ s1); [repeat split|exact F2].
  - assert (lvl = 0%N) by lia. subst lvl. destruct conns as [|l conns]; [cbn in H4; lia|].
    cbn [app links_ops apply_all]. cbv zeta. cbn [length] in H5.
    destruct (links_op_eq rep k 0 l st) as (f & Hf & ->); [lia|].
    change (N.of_nat 0) with 0%N.
    destruct (links_step_new k l f st H2 Hl Hf Hg) as (s1 & -> & G1 & O1 & F1 & L1). cbn [bind].
    destruct (links_ops_apply rep k 0 H2 conns [l] 0 s1) as (s2 & E & G2 & O2 & F2 & L2);
      auto; [lia|].
    cbn [length] in E. rewrite E. exists s2. split; [reflexivity|]. split; [exact G2|].
    split; [intros i Hne; rewrite O2, O1 by exact Hne; reflexivity|].
    split; [now apply (frame_trans _ s1)|exact L2].
Qed.

Lemma nodes_apply rep : forall L st,
  NoDup (map fst L) -> Forall (fun kv => vert_ok (fst kv) (snd kv)) L ->
  (forall k, In k (map fst L) -> mget k (ls_nodes st) = None) -> len_ok st ->
  exists st', apply_all false (flat_map (fun kv => node_ops rep (snd kv)) L) st = Ok st'
    /\ (forall k v, In (k, v) L -> mget k (ls_nodes st') = Some v)
    /\ (forall k, ~ In k (map fst L) -> mget k (ls_nodes st') = mget k (ls_nodes st))
    /\ frame st st' /\ len_ok st'.
Proof.
  induction L as [|[k v] L IH]; intros st Hnd Hv Hnone Hl.
  - exists st. cbn. repeat split; auto. intros k v [].
  - cbn [flat_map snd]. inversion Hnd; subst. inversion Hv; subst. cbn in *.
    destruct (node_ops_apply rep k v st) as (s1 & E1 & G1 & O1 & F1 & L1); auto.
    destruct (IH s1) as (s2 & E2 & G2 & O2 & F2 & L2); auto.
    { intros k' Hk'. rewrite O1; [apply Hnone; now right|]. intros ->. contradiction. }
    exists s2. rewrite apply_all_app, E1. cbn [bind]. split; [exact E2|]. repeat split.
    + intros k' v' [[= <- <-]|Hin]; [rewrite O2; auto|now apply G2].
    + intros k' Hk'. rewrite O2 by tauto. apply O1. intros ->. tauto.
    + apply (frame_trans _ s1); assumption.
    + apply (frame_trans _ s1); assumption.
    + apply (frame_trans _ s1); assumption.
    + apply (frame_trans _ s1); assumption.
    + apply (frame_trans _ s1); assumption.
    + apply (frame_trans _ s1); assumption.
    + exact L2.
Qed.

Lemma insert_node_perm k v l : Permutation (insert_node k v l) ((k, v) :: l).
Proof.
  induction l as [|[k' v'] t IH]; cbn; [apply Permutation_refl|].
  destruct (k <=? k')%N; [apply Permutation_refl|].
  rewrite IH. apply perm_swap.
Qed.

Lemma in_order_perm m : Permutation (in_order m) m.
Proof.
  induction m as [|[k v] m IH]; cbn; [constructor|]. rewrite insert_node_perm. now constructor.
Qed.

Lemma mget_in {V} k (v : V) m : mget k m = Some v -> In (k, v) m.
Proof.
  induction m as [|[k' v'] m IH]; cbn; [discriminate|].
  destruct (N.eqb_spec k k') as [->|]; [intros [= <-]; now left|]. intros H. right. auto.
Qed.

Lemma in_mget {V} k (v : V) m : NoDup (mkeys m) -> In (k, v) m -> mget k m = Some v.
Proof.
  induction m as [|[k' v'] m IH]; cbn; [intros _ []|]. intros Hnd. inversion Hnd; subst.
  intros [[= -> ->]|Hin].
  - now rewrite N.eqb_refl.
  - destruct (N.eqb_spec k k') as [->|]; [|auto]. exfalso. apply H1.
    change k' with (fst (k', v)). now apply in_map.
Qed.

Lemma tombs_apply : forall ts st, exists st',
  apply_all false (map LAddTomb ts) st = Ok st'
  /\ ls_nodes st' = ls_nodes st /\ ls_ep st' = ls_ep st /\ ls_level st' = ls_level st
  /\ ls_pq st' = ls_pq st /\ ls_comp st' = ls_comp st
  /\ (forall t, In t (ls_tomb st') <-> In t ts \/ In t (ls_tomb st)).
Proof.
  induction ts as [|x ts IH]; intros st.
  - exists st. cbn. repeat split; auto; tauto.
  - cbn [map apply_all apply_op bind]. destruct (IH (do_add_tomb x st)) as (s & E & H1 & H2 & H3 & H4 & H5 & H6).
    exists s. split; [exact E|]. cbn in H1, H2, H3, H4, H5. repeat split; auto.
    + intros Ht. apply H6 in Ht as [Ht|Ht]; [left; now right|]. cbn in Ht.
      destruct (memN x (ls_tomb st)) eqn:Em; [now right|]. destruct Ht as [->|Ht]; [left; now left|now right].
    + intros Ht. apply H6. cbn. destruct (memN x (ls_tomb st)) eqn:Em; cbn.
      * destruct Ht as [[->|Ht]|Ht]; auto. right. now apply mem_iff.
      * destruct Ht as [[->|Ht]|Ht]; auto.
Qed.

Lemma condensed_apply s ts : wf s -> (forall t, In t ts <-> In t (ls_tomb s)) ->
  exists s', apply_all false (condensed_ops s ts) ls_init = Ok s' /\ same_index s s'.
Proof.
  intros Hw Hts. unfold condensed_ops.
  assert (Hperm := in_order_perm (ls_nodes s)).
  assert (Hnd : NoDup (map fst (in_order (ls_nodes s)))).
  { apply (Permutation_NoDup (l := map fst (ls_nodes s))); [|exact (wf_keys _ Hw)].
    apply Permutation_map, Permutation_sym, Hperm. }
  destruct (nodes_apply (ls_replaced s) (in_order (ls_nodes s)) ls_init) as (s1 & E1 & G1 & O1 & F1 & _).
  { exact Hnd. }
  { apply Forall_forall. intros [k v] Hin. cbn. apply (wf_nodes _ Hw). apply in_mget; [exact (wf_keys _ Hw)|].
    now apply (Permutation_in _ Hperm). }
  { intros; reflexivity. }
  { apply init_len_ok. }
  rewrite apply_all_app, E1. cbn [bind].
  set (epops := if ls_epch s then _ else _).
  assert (Hep : exists s2, apply_all false epops s1 = Ok s2 /\ ls_nodes s2 = ls_nodes s1
            /\ ls_ep s2 = ls_ep s /\ ls_level s2 = ls_level s /\ ls_tomb s2 = []
            /\ ls_pq s2 = None /\ ls_comp s2 = false).
  { destruct F1 as (Fa & Fb & Fc & Fd & Fe & Ff). cbn in *. unfold epops.
    destruct (ls_epch s) eqn:Ech.
    - cbn [apply_all apply_op bind]. eexists. split; [reflexivity|]. cbn. repeat split; auto.
      unfold u16. apply N.mod_small. apply (proj2 (wf_ep _ Hw)).
    - cbn [apply_all]. exists s1. destruct (wf_epch _ Hw Ech) as [He1 He2].
      rewrite He1, He2. repeat split; auto. }
  destruct Hep as (s2 & E2 & N2 & P2 & L2 & T2 & Q2 & C2).
  rewrite apply_all_app, E2. cbn [bind].
  destruct (tombs_apply ts s2) as (s3 & E3 & N3 & P3 & L3 & Q3 & C3 & T3).
  exists s3. split; [exact E3|]. destruct (wf_pq _ Hw) as [Wp Wc]. repeat split; try congruence.
  - intros id. rewrite N3, N2. destruct (mget id (ls_nodes s)) as [v|] eqn:E.
    + symmetry. apply G1. apply (Permutation_in _ (Permutation_sym Hperm)). now apply mget_in.
    + rewrite O1; [reflexivity|]. intros Hin. apply in_map_iff in Hin as ([k v] & Hk & Hin).
      cbn in Hk. subst k. apply (Permutation_in _ Hperm) in Hin.
      apply in_mget in Hin; [congruence|exact (wf_keys _ Hw)].
  - intros Ht. apply T3. left. now apply Hts.
  - intros Ht. apply T3 in Ht as [Ht|Ht]; [now apply Hts|]. rewrite T2 in Ht. destruct Ht.
Qed.

(** Every list of links fits a record. *)
Definition short_lists (st : lstate) : Prop :=
  forall id v l, mget id (ls_nodes st) = Some v -> In l (lv_conns v) ->
    (N.of_nat (length l) < 65536)%N.

Lemma links_ops_ok rep id : forall conns i, u64_ok id ->
  Forall (Forall u64_ok) conns -> (forall l, In l conns -> (N.of_nat (length l) < 65536)%N) ->
  Forall op_ok (links_ops rep id i conns).
Proof.
  induction conns as [|l conns IH]; intros i Hi Hf Hs; cbn [links_ops]; constructor.
  - inversion Hf; subst.
    assert (u16_ok (u16 (N.of_nat i))) by (unfold u16_ok, u16; apply N.mod_lt; lia).
    destruct (pair_mem _ _); cbn [op_ok]; repeat split; auto; apply Hs; now left.
  - inversion Hf; subst. apply IH; auto. intros; apply Hs; now right.
Qed.

Lemma condensed_ops_ok s ts : wf s -> short_lists s -> Forall u64_ok ts ->
  Forall op_ok (condensed_ops s ts).
Proof.
  intros Hw Hs Ht. unfold condensed_ops. apply Forall_app. split; [|apply Forall_app; split].
  - apply Forall_forall. intros o Ho. apply in_flat_map in Ho as ([k v] & Hin & Ho). cbn in Ho.
    apply (Permutation_in _ (in_order_perm _)) in Hin. apply in_mget in Hin; [|exact (wf_keys _ Hw)].
    destruct (wf_nodes _ Hw _ _ Hin) as (H1 & H2 & H3 & H4 & H5 & H6).
    assert (Hid : u64_ok (lv_id v)) by (unfold u64_ok; lia).
    unfold node_ops in Ho. apply in_app_or in Ho as [Ho|Ho].
    + destruct (0 <? lv_level v)%N; [|destruct Ho]. destruct Ho as [<-|[]]. cbn [op_ok].
      split; [exact Hid|]. unfold u16_ok, u16. apply N.mod_lt. lia.
    + apply (proj1 (Forall_forall _ _) (links_ops_ok (ls_replaced s) (lv_id v) (lv_conns v) 0 Hid H6
        (fun l Hl => Hs k v l Hin Hl))). exact Ho.
  - destruct (ls_epch s); repeat constructor; cbn; [apply (wf_ep _ Hw)|].
    unfold u16_ok, u16. apply N.mod_lt. lia.
  - apply Forall_forall. intros o Ho. apply in_map_iff in Ho as (t & <- & Hin). cbn.
    now apply (proj1 (Forall_forall _ _) Ht).
Qed.

(** Reading the log with the marks keeps the state well formed and equal. *)
Lemma apply_all_wf : forall os st, Forall op_ok os -> Forall op_mem os -> Forall no_pq os ->
  clears_ok os (erase st) -> wf st -> in_slice st -> len_ok st ->
  exists s, apply_all true os st = Ok s /\ wf s /\ apply_all false os (erase st) = Ok (erase s).
Proof.
  intros os st Ho Hm Hp Hc Hw Hs Hl.
  destruct (apply_all_ok true os st Hm Hl) as (s & Es & _). exists s. split; [exact Es|].
  split; [|now apply apply_all_erase].
  revert st s Ho Hm Hp Hc Hw Hs Hl Es. induction os as [|o os IH]; intros st s Ho Hm Hp Hc Hw Hs Hl Es.
  - cbn in Es. injection Es as <-. exact Hw.
  - inversion Ho; inversion Hm; inversion Hp; subst. cbn [apply_all clears_ok] in *.
    destruct Hc as [Hc1 Hc2]. apply bind_ok in Es as (s1 & E1 & Es).
    pose proof (proj1 (clear_ok_erase o st) Hc1) as Hc1'.
    pose proof (apply_erase o st s1 H5 Hc1' E1) as E1'.
    assert (Hs' : in_slice (erase st)) by exact Hs.
    destruct (apply_effect o (erase st) (erase s1) H5 Hs' E1') as [_ Hs1].
    destruct (apply_op_ok true o st H5 Hl) as (s1' & E1'' & Hl1). rewrite E1 in E1''. injection E1'' as <-.
    apply (IH s1 s); auto. apply (apply_wf true o st); auto.
Qed.

(** Condensing: the whole round. *)
Lemma condense_same os ord : Forall op_ok os -> Forall op_mem os -> Forall no_pq os ->
  clears_ok os ls_init ->
  (forall l t, In t (ord l) <-> In t l) ->
  (forall st v, deserialize false ls_init (encode_all os) = DDone st v -> short_lists st) ->
  exists st v bs st' v',
    deserialize false ls_init (encode_all os) = DDone st v
    /\ condense ord (encode_all os) = Some bs
    /\ deserialize false ls_init bs = DDone st' v'
    /\ same_index st st'.
Proof.
  intros Ho Hm Hp Hc Hord Hshort.
  destruct (apply_all_wf os ls_init Ho Hm Hp Hc init_wf init_in_slice init_len_ok) as (s & Et & Hw & Ef).
  change (erase ls_init) with ls_init in Ef.
  assert (Df : deserialize false ls_init (encode_all os) = DDone (erase s) (valid_of os)).
  { rewrite <- (app_nil_r (encode_all os)), deserialize_ops, Ef by auto.
    rewrite deserialize_nil. cbn. now rewrite Nat.add_0_r. }
  assert (Dt : deserialize true ls_init (encode_all os) = DDone s (valid_of os)).
  { rewrite <- (app_nil_r (encode_all os)), deserialize_ops, Et by auto.
    rewrite deserialize_nil. cbn. now rewrite Nat.add_0_r. }
  specialize (Hshort _ _ Df).
  destruct (condensed_apply s (ord (ls_tomb s)) Hw (Hord (ls_tomb s))) as (s' & Ea & Hsame).
  assert (Hok : Forall op_ok (condensed_ops s (ord (ls_tomb s)))).
  { apply condensed_ops_ok; auto.
    apply Forall_forall. intros t Ht. apply (proj1 (Hord _ _)) in Ht.
    exact (proj1 (Forall_forall _ _) (wf_tomb _ Hw) t Ht). }
  assert (Dc : deserialize false ls_init (encode_all (condensed_ops s (ord (ls_tomb s))))
               = DDone s' (valid_of (condensed_ops s (ord (ls_tomb s))))).
  { rewrite <- (app_nil_r (encode_all _)), deserialize_ops, Ea by auto.
    rewrite deserialize_nil. cbn. now rewrite Nat.add_0_r. }
  exists (erase s), (valid_of os), (encode_all (condensed_ops s (ord (ls_tomb s)))), s',
    (valid_of (condensed_ops s (ord (ls_tomb s)))).
  split; [exact Df|]. split; [|split; [exact Dc|exact Hsame]].
  unfold condense. now rewrite Dt.
Qed.
