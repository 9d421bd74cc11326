(** What a record read back does, and that it is the record written. *)
From Verif Require Import Base CommitLog CommitLogFacts CommitLogReplay.

(** ** The record determines the operation *)

Definition rmap {A B} (f : A -> B) (r : rd A) : rd B := rbind r (fun a => rret (f a)).

(** A reader of operations, the inverse of [encode]. *)
Definition parse_op (ct : N) : rd lop :=
  if N.eqb ct ct_add_node then rmap (fun '(id, l) => LNode id l) rd_id_level
  else if N.eqb ct ct_set_ep then rmap (fun '(id, l) => LSetEp id l) rd_id_level
  else if N.eqb ct ct_add_link then rmap (fun '(id, l, t) => LLink id l t) rd_link
  else if N.eqb ct ct_add_links then rmap (fun '(id, l, ts) => LAddLinks id l ts) rd_links
  else if N.eqb ct ct_replace_links then rmap (fun '(id, l, ts) => LReplace id l ts) rd_links
  else if N.eqb ct ct_add_tomb then rmap LAddTomb read_u64
  else if N.eqb ct ct_remove_tomb then rmap LRemoveTomb read_u64
  else if N.eqb ct ct_clear_links then rmap LClear read_u64
  else if N.eqb ct ct_clear_links_at then rmap (fun '(id, l) => LClearAt id l) rd_id_level
  else if N.eqb ct ct_delete_node then rmap LDelete read_u64
  else if N.eqb ct ct_reset then rret LReset
  else rbind rd_pq_header (fun pq =>
         rmap (fun xs => LPq (mkPq (pq_dims pq) (pq_enc pq) (pq_ks pq) (pq_m pq) (pq_dist pq)
                                   (pq_bits pq) xs))
              (rd_many (N.to_nat (pq_m pq)) (pq_reader pq))).

Ltac pick_parse :=
  unfold parse_op; cbn [N.eqb ct_add_node ct_set_ep ct_add_link ct_add_links ct_replace_links
    ct_add_tomb ct_remove_tomb ct_clear_links ct_clear_links_at ct_delete_node ct_reset
    ct_add_pq Pos.eqb]; unfold rmap, rbind.

Lemma parse_encode o rest : op_ok o -> parse_op (ct_of o) (body_of o ++ rest) = inl (o, rest).
Proof.
  intros Hok.
  destruct o as [id l|id l|id l t|id l ts|id|id|id|id| |id l|id l ts|pq];
    cbn [op_ok ct_of body_of] in *; pick_parse.
  - destruct Hok. now rewrite <- app_assoc, rd_id_level_enc.
  - destruct Hok. now rewrite <- app_assoc, rd_id_level_enc.
  - destruct Hok as (? & ? & ?). now rewrite <- !app_assoc, rd_link_enc.
  - destruct Hok as (? & ? & ? & ?).
    assert (Hmin : Nat.min (length ts) (N.to_nat 65535) = length ts) by lia.
    cbv zeta. rewrite Hmin, firstn_all, <- !app_assoc, rd_links_header; auto; lia.
  - now rewrite read_u64_enc.
  - now rewrite read_u64_enc.
  - now rewrite read_u64_enc.
  - now rewrite read_u64_enc.
  - reflexivity.
  - destruct Hok. now rewrite <- app_assoc, rd_id_level_enc.
  - destruct Hok as (? & ? & ? & ?). rewrite <- !app_assoc, rd_links_header; auto; lia.
  - rewrite <- app_assoc, rd_pq_header_enc by exact Hok.
    cbn [pq_head pq_m pq_dims pq_enc pq_ks pq_dist pq_bits].
    pose proof Hok as (_ & _ & _ & _ & _ & Hlen & _). rewrite <- Hlen.
    change (pq_reader (pq_head pq)) with (pq_reader pq).
    rewrite (rd_many_enc (pq_reader pq) enc_pqenc (fun x => In x (pq_encoders pq))).
    + now destruct pq.
    + intros. now apply pq_reader_enc.
    + now apply Forall_forall.
Qed.

Lemma encode_inj o1 o2 r1 r2 : op_ok o1 -> op_ok o2 ->
  encode o1 ++ r1 = encode o2 ++ r2 -> o1 = o2 /\ r1 = r2.
Proof.
  intros H1 H2 He. rewrite !encode_split in He. cbn [app] in He. injection He as Hc Hb.
  pose proof (parse_encode o1 r1 H1) as P1. pose proof (parse_encode o2 r2 H2) as P2.
  rewrite <- Hc, <- Hb, P1 in P2. injection P2 as -> ->. auto.
Qed.

(** ** Observations *)

(** The links of node [id] at level [l]; none when the node or level is absent. *)
Definition links (st : lstate) (id l : N) : list N :=
  match mget id (ls_nodes st) with
  | Some v => nth (N.to_nat l) (lv_conns v) []
  | None => []
  end.

Definition present (st : lstate) (id : N) : Prop := mget id (ls_nodes st) <> None.

Definition level_of (st : lstate) (id : N) : option N :=
  match mget id (ls_nodes st) with Some v => Some (lv_level v) | None => None end.

(** Everything but the nodes is as before. *)
Definition same_rest (st st' : lstate) : Prop :=
  ls_ep st' = ls_ep st /\ ls_level st' = ls_level st
  /\ (forall t, In t (ls_tomb st') <-> In t (ls_tomb st))
  /\ ls_pq st' = ls_pq st /\ ls_comp st' = ls_comp st.

(** Nodes other than [id] are as before. *)
Definition same_others (id : N) (st st' : lstate) : Prop :=
  forall i, i <> id -> mget i (ls_nodes st') = mget i (ls_nodes st).

Definition same_nodes (st st' : lstate) : Prop :=
  forall i, mget i (ls_nodes st') = mget i (ls_nodes st).

(** The level of [id], when it had one, is as before; a new node has level 0. *)
Definition keeps_level (id : N) (st st' : lstate) : Prop :=
  level_of st' id = match level_of st id with Some l => Some l | None => Some 0%N end.

(** The effect of an operation on an index. *)
Definition effect (o : lop) (st st' : lstate) : Prop :=
  match o with
  | LNode id l =>
      present st' id /\ level_of st' id = Some l /\ (forall j, links st' id j = links st id j)
      /\ same_others id st st' /\ same_rest st st'
  | LSetEp id l =>
      same_nodes st st' /\ ls_ep st' = id /\ ls_level st' = l
      /\ (forall t, In t (ls_tomb st') <-> In t (ls_tomb st))
      /\ ls_pq st' = ls_pq st /\ ls_comp st' = ls_comp st
  | LLink id l t =>
      links st' id l = links st id l ++ [t]
      /\ (forall j, j <> l -> links st' id j = links st id j)
      /\ keeps_level id st st' /\ same_others id st st' /\ same_rest st st'
  | LAddLinks id l ts =>
      links st' id l = links st id l ++ ts
      /\ (forall j, j <> l -> links st' id j = links st id j)
      /\ keeps_level id st st' /\ same_others id st st' /\ same_rest st st'
  | LReplace id l ts =>
      links st' id l = ts
      /\ (forall j, j <> l -> links st' id j = links st id j)
      /\ keeps_level id st st' /\ same_others id st st' /\ same_rest st st'
  | LAddTomb id =>
      same_nodes st st' /\ ls_ep st' = ls_ep st /\ ls_level st' = ls_level st
      /\ (forall t, In t (ls_tomb st') <-> t = id \/ In t (ls_tomb st))
      /\ ls_pq st' = ls_pq st /\ ls_comp st' = ls_comp st
  | LRemoveTomb id =>
      same_nodes st st' /\ ls_ep st' = ls_ep st /\ ls_level st' = ls_level st
      /\ (forall t, In t (ls_tomb st') <-> t <> id /\ In t (ls_tomb st))
      /\ ls_pq st' = ls_pq st /\ ls_comp st' = ls_comp st
  | LClear id =>
      (forall j, links st' id j = []) /\ level_of st' id = level_of st id
      /\ same_others id st st' /\ same_rest st st'
  | LClearAt id l =>
      links st' id l = [] /\ (forall j, j <> l -> links st' id j = links st id j)
      /\ level_of st' id = level_of st id
      /\ same_others id st st' /\ same_rest st st'
  | LDelete id => ~ present st' id /\ same_others id st st' /\ same_rest st st'
  | LReset =>
      (forall i, ~ present st' i) /\ ls_ep st' = 0%N /\ ls_level st' = 0%N
      /\ (forall t, In t (ls_tomb st') <-> In t (ls_tomb st))
      /\ ls_pq st' = ls_pq st /\ ls_comp st' = ls_comp st
  | LPq pq =>
      same_nodes st st' /\ ls_ep st' = ls_ep st /\ ls_level st' = ls_level st
      /\ (forall t, In t (ls_tomb st') <-> In t (ls_tomb st))
      /\ ls_pq st' = Some pq /\ ls_comp st' = true
  end.

(** Nodes lie within the slice. *)
Definition in_slice (st : lstate) : Prop := forall id, present st id -> (id < ls_len st)%N.

(** ** Lists of links *)

Lemma nth_repeat_nil {A} n i : nth i (repeat (@nil A) n) [] = [].
Proof. revert i. induction n as [|n IH]; intros [|i]; cbn; auto. Qed.

Lemma nth_grow conns l j : (l < 65535)%N -> nth j (maybe_grow conns l) [] = nth j conns [].
Proof.
  intros Hl. unfold maybe_grow. destruct (N.leb_spec (N.of_nat (length conns)) l) as [H|H]; [|reflexivity].
  cbv zeta. unfold u16. rewrite N.mod_small by lia.
  rewrite firstn_all2 by (rewrite app_length, repeat_length; lia).
  destruct (Nat.lt_ge_cases j (length conns)) as [Hj|Hj].
  - now rewrite app_nth1.
  - rewrite app_nth2 by lia. rewrite nth_repeat_nil. now rewrite nth_overflow.
Qed.

Lemma nth_upd {A} (l : list A) i j x d : i < length l ->
  nth j (upd l i x) d = if Nat.eqb j i then x else nth j l d.
Proof.
  revert i j. induction l as [|h t IH]; intros [|i] [|j] H; cbn in *; try lia; auto.
  apply IH. lia.
Qed.

Lemma at_level_nth conns l f c : at_level conns l f = Ok c ->
  nth (N.to_nat l) c [] = f (nth (N.to_nat l) conns [])
  /\ forall j, j <> N.to_nat l -> nth j c [] = nth j conns [].
Proof.
  unfold at_level. destruct (nth_error conns (N.to_nat l)) as [x|] eqn:E; [|discriminate].
  intros [= <-]. pose proof (proj1 (nth_error_Some conns (N.to_nat l)) ltac:(congruence)) as Hlt.
  split.
  - rewrite nth_upd, Nat.eqb_refl by auto. now rewrite (nth_error_nth _ _ _ E).
  - intros j Hj. rewrite nth_upd by auto. destruct (Nat.eqb_spec j (N.to_nat l)); [congruence|reflexivity].
Qed.

Lemma same_rest_refl st : same_rest st st.
Proof. repeat split; auto. Qed.

Lemma do_conns_effect id l f st st' : (l < 65535)%N -> do_conns id l f st = Ok st' ->
  links st' id l = f (links st id l)
  /\ (forall j, j <> l -> links st' id j = links st id j)
  /\ keeps_level id st st' /\ same_others id st st' /\ same_rest st st' /\ present st' id
  /\ (id < ls_len st')%N /\ (ls_len st <= ls_len st')%N /\ ls_replaced st' = ls_replaced st
  /\ ls_epch st' = ls_epch st.
Proof.
  intros Hl. unfold do_conns.
  destruct (grow_len (ls_len st) id) as [n| | |] eqn:Eg; try discriminate. cbn [bind].
  assert (Hn : (id < n)%N /\ (ls_len st <= n)%N).
  { unfold grow_len in Eg. destruct (N.ltb_spec id (ls_len st)).
    - injection Eg as <-. lia.
    - cbv zeta in Eg. match type of Eg with (if (_ <? ?m)%N then _ else _) = _ => set (mm := m) in * end.
      destruct (max_slots <? mm)%N; [discriminate|]. destruct (N.ltb_spec id mm); [|discriminate].
      injection Eg as <-. lia. }
  set (v := match mget id (ls_nodes st) with None => _ | Some v => v end).
  destruct (at_level (maybe_grow (lv_conns v) l) l f) as [c| | |] eqn:Ea; try discriminate. cbn [bind].
  intros [= <-]. destruct (at_level_nth _ _ _ _ Ea) as [A1 A2].
  assert (Hv : forall j, nth j (lv_conns v) [] = links st id (N.of_nat j)).
  { intros j. unfold links, v. rewrite Nat2N.id. destruct (mget id (ls_nodes st)); [reflexivity|].
    cbn [lv_conns]. apply nth_repeat_nil. }
  assert (Hget : mget id (ls_nodes (with_nodes st n (mset id (mkLvert (lv_id v) (lv_level v) c) (ls_nodes st))))
                 = Some (mkLvert (lv_id v) (lv_level v) c)) by (cbn [ls_nodes with_nodes]; apply mget_mset_eq).
  repeat split; cbn [ls_len with_nodes ls_ep ls_level ls_tomb ls_pq ls_comp ls_replaced ls_epch]; auto; try tauto.
  - unfold links at 1. rewrite Hget. cbn [lv_conns].
    rewrite A1, nth_grow, Hv, N2Nat.id by auto. reflexivity.
  - intros j Hj. unfold links at 1. rewrite Hget. cbn [lv_conns].
    rewrite A2 by (intros Hq; apply N2Nat.inj in Hq; congruence).
    rewrite nth_grow, Hv, N2Nat.id by auto. reflexivity.
  - unfold keeps_level, level_of. rewrite Hget. cbn [lv_level]. unfold v.
    destruct (mget id (ls_nodes st)); reflexivity.
  - intros i Hi. cbn [ls_nodes with_nodes]. now apply mget_mset_ne.
  - unfold present. rewrite Hget. discriminate.
Qed.

Lemma do_node_effect id l st st' : (l < 65535)%N -> do_node id l st = Ok st' ->
  present st' id /\ level_of st' id = Some l /\ (forall j, links st' id j = links st id j)
  /\ same_others id st st' /\ same_rest st st' /\ (id < ls_len st')%N /\ (ls_len st <= ls_len st')%N.
Proof.
  intros Hl. unfold do_node.
  destruct (grow_len (ls_len st) id) as [n| | |] eqn:Eg; try discriminate. cbn [bind]. cbv zeta.
  assert (Hn : (id < n)%N /\ (ls_len st <= n)%N).
  { unfold grow_len in Eg. destruct (N.ltb_spec id (ls_len st)).
    - injection Eg as <-. lia.
    - cbv zeta in Eg. match type of Eg with (if (_ <? ?m)%N then _ else _) = _ => set (mm := m) in * end.
      destruct (max_slots <? mm)%N; [discriminate|]. destruct (N.ltb_spec id mm); [|discriminate].
      injection Eg as <-. lia. }
  set (v := match mget id (ls_nodes st) with None => _ | Some v => _ end).
  intros [= <-].
  assert (Hget : mget id (ls_nodes (with_nodes st n (mset id v (ls_nodes st)))) = Some v)
    by (cbn [ls_nodes with_nodes]; apply mget_mset_eq).
  repeat split; cbn [ls_len with_nodes ls_ep ls_level ls_tomb ls_pq ls_comp]; auto; try tauto.
  - unfold present. rewrite Hget. discriminate.
  - unfold level_of. rewrite Hget. unfold v. destruct (mget id (ls_nodes st)); reflexivity.
  - intros j. unfold links. rewrite Hget. unfold v.
    destruct (mget id (ls_nodes st)); cbn [lv_conns]; [now apply nth_grow|].
    apply nth_repeat_nil.
  - intros i Hi. cbn [ls_nodes with_nodes]. now apply mget_mset_ne.
Qed.

Lemma mem_iff x l : memN x l = true <-> In x l.
Proof.
  unfold memN. rewrite existsb_exists. split.
  - intros (y & Hy & He). apply N.eqb_eq in He. now subst.
  - intros H. exists x. split; [exact H|apply N.eqb_refl].
Qed.

(** ClearLinksAtLevel reaches its node. *)
Definition clear_ok (o : lop) (st : lstate) : Prop :=
  match o with LClearAt id _ => present st id \/ (ls_len st <= id)%N | _ => True end.

Lemma apply_effect o st st' : op_mem o -> in_slice st ->
  apply_op false o st = Ok st' -> effect o st st' /\ in_slice st'.
Proof.
  intros Hm Hs.
  assert (Hslice : forall id s, same_others id st s -> (id < ls_len s)%N -> (ls_len st <= ls_len s)%N ->
            in_slice s).
  { intros id s Ho Hi Hle i Hp. destruct (N.eqb_spec i id) as [->|Hne]; [exact Hi|].
    unfold present in Hp. rewrite Ho in Hp by exact Hne. specialize (Hs i Hp). lia. }
  destruct o as [id l|id l|id l t|id l ts|id|id|id|id| |id l|id l ts|pq]; cbn [apply_op op_mem effect] in *.
  - destruct Hm as [_ Hl]. intros H. destruct (do_node_effect _ _ _ _ Hl H) as (H1 & H2 & H3 & H4 & H5 & H6 & H7).
    split; [auto|]. now apply (Hslice id).
  - intros [= <-]. cbn. repeat split; auto. 
  - destruct Hm as [_ Hl]. unfold do_link. intros H.
    destruct (do_conns_effect _ _ _ _ _ Hl H) as (H1 & H2 & H3 & H4 & H5 & H6 & H7 & H8 & _).
    split; [auto|]. now apply (Hslice id).
  - destruct Hm as [_ Hl]. unfold do_replace_links.
    destruct (do_conns id l (fun _ => ts) st) as [s| | |] eqn:E; try discriminate. cbn [bind].
    intros [= <-]. destruct (do_conns_effect _ _ _ _ _ Hl E) as (H1 & H2 & H3 & H4 & H5 & H6 & H7 & H8 & _).
    split; [auto|]. now apply (Hslice id).
  - intros [= <-]. cbn. split; [|exact Hs]. repeat split; auto.
    + intros Ht. destruct (memN id (ls_tomb st)) eqn:E; [now right|]. destruct Ht; auto.
    + intros [->|Ht]; destruct (memN id (ls_tomb st)) eqn:E; cbn; auto. now apply mem_iff.
  - intros [= <-]. cbn. split; [|exact Hs]. repeat split; auto; try (apply filter_In in H as [? Hb]).
    + intros ->. now rewrite N.eqb_refl in Hb.
    + assumption.
    + intros [Hne Ht]. apply filter_In. split; [exact Ht|].
      destruct (N.eqb_spec t id); [congruence|reflexivity].
  - unfold do_clear_links, beyond, index_panics. destruct (N.ltb_spec id (2 ^ 63)); [|lia]. cbn [andb].
    destruct (N.leb_spec (ls_len st) id) as [Hle|Hlt].
    + intros [= <-]. assert (Hn : mget id (ls_nodes st) = None).
      { destruct (mget id (ls_nodes st)) eqn:E; [|reflexivity]. exfalso.
        assert (present st id) by (unfold present; congruence). specialize (Hs id H0). lia. }
      split; [|exact Hs]. split; [|split; [reflexivity|split; [intros i _; reflexivity|apply same_rest_refl]]].
      intros j. unfold links. now rewrite Hn.
    + destruct (mget id (ls_nodes st)) as [v|] eqn:Ev.
      * intros [= <-]. cbn.
        set (v' := mkLvert (lv_id v) (lv_level v) (map (fun _ => []) (lv_conns v))).
        split; [split; [|split; [|split]]|].
        -- intros j. unfold links. cbn [ls_nodes with_nodes]. rewrite mget_mset_eq. cbn [lv_conns v'].
           clear. generalize (lv_conns v) (N.to_nat j). induction l as [|h t IH]; intros [|n]; cbn; auto.
        -- unfold level_of. cbn [ls_nodes with_nodes]. rewrite mget_mset_eq, Ev. reflexivity.
        -- intros i Hi. cbn [ls_nodes with_nodes]. now apply mget_mset_ne.
        -- repeat split; auto.
        -- intros i Hp. cbn [ls_len with_nodes]. destruct (N.eqb_spec i id) as [->|Hne]; [exact Hlt|].
           unfold present in Hp. cbn [ls_nodes with_nodes] in Hp. rewrite mget_mset_ne in Hp by exact Hne.
           now apply Hs.
      * intros [= <-]. split; [|exact Hs].
        split; [|split; [reflexivity|split; [intros i _; reflexivity|apply same_rest_refl]]].
        intros j. unfold links. now rewrite Ev.
  - unfold do_delete, beyond, index_panics. destruct (N.ltb_spec id (2 ^ 63)); [|lia]. cbn [andb].
    destruct (N.leb_spec (ls_len st) id) as [Hle|Hlt].
    + intros [= <-]. split; [|exact Hs]. split; [|split; [intros i _; reflexivity|apply same_rest_refl]].
      intros Hp. specialize (Hs id Hp). lia.
    + intros [= <-]. split; [split; [|split]|].
      * unfold present. cbn [ls_nodes with_nodes]. rewrite mget_mdel_eq. congruence.
      * intros i Hi. cbn [ls_nodes with_nodes]. now apply mget_mdel_ne.
      * repeat split; auto.
      * intros i Hp. cbn [ls_len with_nodes]. destruct (N.eqb_spec i id) as [->|Hne]; [exact Hlt|].
        unfold present in Hp. cbn [ls_nodes with_nodes] in Hp. rewrite mget_mdel_ne in Hp by exact Hne.
        now apply Hs.
  - intros [= <-]. cbn. split; [repeat split; auto|]; intros i Hp; (try exfalso; now apply Hp).
  - destruct Hm as [Hi63 Hl]. unfold do_clear_links_at, beyond, index_panics.
    destruct (N.ltb_spec id (2 ^ 63)); [|lia]. cbn [andb].
    destruct (N.leb_spec (ls_len st) id) as [Hle|Hlt].
    + intros [= <-]. assert (Hn : mget id (ls_nodes st) = None).
      { destruct (mget id (ls_nodes st)) eqn:E; [|reflexivity]. exfalso.
        assert (present st id) by (unfold present; congruence). specialize (Hs id H0). lia. }
      split; [|exact Hs]. unfold links, level_of. rewrite Hn.
      split; [reflexivity|]. split; [reflexivity|]. split; [reflexivity|].
      split; [intros i _; reflexivity|apply same_rest_refl].
    + cbv zeta. destruct (N.leb_spec (ls_len st) id); [lia|].
      destruct (mget id (ls_nodes st)) as [v|] eqn:Ev.
      * destruct (at_level (maybe_grow (lv_conns v) l) l (fun _ => [])) as [c| | |] eqn:Ea; try discriminate.
        cbn [bind]. intros [= <-]. destruct (at_level_nth _ _ _ _ Ea) as [A1 A2].
        split; [split; [|split; [|split; [|split]]]|].
        -- unfold links. cbn [ls_nodes with_nodes]. rewrite mget_mset_eq. cbn [lv_conns]. exact A1.
        -- intros j Hj. unfold links. cbn [ls_nodes with_nodes]. rewrite mget_mset_eq, Ev. cbn [lv_conns].
           rewrite A2 by (intros Hq; apply N2Nat.inj in Hq; congruence). now apply nth_grow.
        -- unfold level_of. cbn [ls_nodes with_nodes]. rewrite mget_mset_eq, Ev. reflexivity.
        -- intros i Hi. cbn [ls_nodes with_nodes]. now apply mget_mset_ne.
        -- repeat split; auto.
        -- intros i Hp. cbn [ls_len with_nodes]. destruct (N.eqb_spec i id) as [->|Hne]; [exact Hlt|].
           unfold present in Hp. cbn [ls_nodes with_nodes] in Hp. rewrite mget_mset_ne in Hp by exact Hne.
           now apply Hs.
      * intros [= <-]. split; [|exact Hs]. unfold links, level_of. rewrite Ev.
        split; [reflexivity|]. split; [reflexivity|]. split; [reflexivity|].
        split; [intros i _; reflexivity|apply same_rest_refl].
  - destruct Hm as [_ Hl]. unfold do_add_links. intros H.
    destruct (do_conns_effect _ _ _ _ _ Hl H) as (H1 & H2 & H3 & H4 & H5 & H6 & H7 & H8 & _).
    split; [auto|]. now apply (Hslice id).
  - intros [= <-]. cbn. repeat split; auto.
Qed.

Lemma init_in_slice : in_slice ls_init.
Proof. intros id Hp. exfalso. now apply Hp. Qed.
