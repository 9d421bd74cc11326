(** Facts about replaying whole logs. *)
From Verif Require Import Base CommitLog CommitLogFacts.

(** ** What follows a record does not matter *)

Lemma good_extend {A} (r : rd A) bs a rest x : good r ->
  r bs = inl (a, rest) -> r (bs ++ x) = inl (a, rest ++ x) /\ length rest <= length bs.
Proof.
  intros Hg Hr. destruct (Hg _ _ _ Hr) as (u & -> & H2 & _). split.
  - now rewrite <- app_assoc, H2.
  - rewrite app_length. lia.
Qed.

Lemma step_with_extend {A} st (r : rd A) f c bs st' rest n x : good r ->
  step_with st r f c bs = StOk st' rest n ->
  step_with st r f c (bs ++ x) = StOk st' (rest ++ x) n /\ length rest <= length bs.
Proof.
  intros Hg. unfold step_with. destruct (r bs) as [[a rest0]|e] eqn:Er; [|discriminate].
  destruct (good_extend r bs a rest0 x Hg Er) as [-> Hl].
  destruct (f a); try discriminate. intros [= <- <- <-]. auto.
Qed.

Lemma pq_loop_extend (r : rd pqenc) x : good r -> forall k pq bs pq' rest,
  pq_encoders_loop k r pq bs = (pq', inl rest) ->
  pq_encoders_loop k r pq (bs ++ x) = (pq', inl (rest ++ x)) /\ length rest <= length bs.
Proof.
  intros Hg. induction k as [|k IH]; intros pq bs pq' rest; cbn [pq_encoders_loop].
  - intros [= <- <-]. auto.
  - destruct (r bs) as [[a rest0]|e] eqn:Er; [|discriminate].
    destruct (good_extend r bs a rest0 x Hg Er) as [-> Hl]. intros H.
    destruct (IH _ _ _ _ H) as [-> Hl2]. split; [reflexivity|lia].
Qed.

Lemma step_pq_extend st bs st' rest n x : step_pq st bs = StOk st' rest n ->
  step_pq st (bs ++ x) = StOk st' (rest ++ x) n /\ length rest <= length bs.
Proof.
  unfold step_pq. destruct (rd_pq_header bs) as [[pq bs1]|e] eqn:Eh; [|discriminate].
  destruct (good_extend _ _ _ _ x good_pq_header Eh) as [-> Hl]. cbv zeta.
  destruct (N.eqb (pq_enc pq) use_tile).
  - destruct (pq_encoders_loop _ _ _ bs1) as [pq' [b|e]] eqn:El; [|discriminate].
    destruct (pq_loop_extend _ x good_tile _ _ _ _ _ El) as [-> Hl2].
    intros [= <- <- <-]. split; [reflexivity|lia].
  - destruct (N.eqb (pq_enc pq) use_kmeans); [|discriminate].
    destruct (pq_encoders_loop _ _ _ bs1) as [pq' [b|e]] eqn:El; [|discriminate].
    destruct (pq_loop_extend _ x (good_kmeans _ _ _) _ _ _ _ _ El) as [-> Hl2].
    intros [= <- <- <-]. split; [reflexivity|lia].
Qed.

Lemma step_extend keep ct st bs st' rest n x : step keep ct st bs = StOk st' rest n ->
  step keep ct st (bs ++ x) = StOk st' (rest ++ x) n /\ length rest <= length bs.
Proof.
  unfold step.
  destruct (N.eqb ct ct_add_node); [apply step_with_extend, good_id_level|].
  destruct (N.eqb ct ct_set_ep).
  { destruct (rd_id_level bs) as [[[id l] rest0]|e] eqn:Er; [|discriminate].
    destruct (good_extend _ _ _ _ x good_id_level Er) as [-> Hl].
    intros [= <- <- <-]. auto. }
  destruct (N.eqb ct ct_add_link); [apply step_with_extend, good_link|].
  destruct (N.eqb ct ct_add_links); [apply step_with_extend, good_links|].
  destruct (N.eqb ct ct_replace_links); [apply step_with_extend, good_links|].
  destruct (N.eqb ct ct_add_tomb); [apply step_with_extend, good_u64|].
  destruct (N.eqb ct ct_remove_tomb); [apply step_with_extend, good_u64|].
  destruct (N.eqb ct ct_clear_links); [apply step_with_extend, good_u64|].
  destruct (N.eqb ct ct_clear_links_at); [apply step_with_extend, good_id_level|].
  destruct (N.eqb ct ct_delete_node); [apply step_with_extend, good_u64|].
  destruct (N.eqb ct ct_reset).
  { intros [= <- <- <-]. auto. }
  destruct (N.eqb ct ct_add_pq); [apply step_pq_extend|discriminate].
Qed.

(** ** Fuel and the valid length *)

Lemma do_loop_fuel keep : forall f1 f2 st v bs, length bs < f1 -> length bs < f2 ->
  do_loop f1 keep st v bs = do_loop f2 keep st v bs.
Proof.
  induction f1 as [|f1 IH]; intros f2 st v bs H1 H2; [lia|].
  destruct f2 as [|f2]; [lia|]. cbn [do_loop].
  destruct bs as [|ct bs]; [reflexivity|]. cbn [length] in *.
  destruct (step keep ct st bs) as [st' rest n|st' e|] eqn:Es; try reflexivity.
  destruct (step_extend _ _ _ _ _ _ _ [] Es) as [_ Hl]. apply IH; lia.
Qed.

Definition shift_valid (v : nat) (d : dres) : dres :=
  match d with
  | DDone st n => DDone st (v + n)
  | DErr st n e => DErr st (v + n) e
  | DPanic => DPanic
  | DFuel => DFuel
  end.

Lemma do_loop_shift keep w : forall f st v bs,
  do_loop f keep st (w + v) bs = shift_valid w (do_loop f keep st v bs).
Proof.
  induction f as [|f IH]; intros st v bs; [reflexivity|]. cbn [do_loop].
  destruct bs as [|ct bs]; [reflexivity|].
  destruct (step keep ct st bs) as [st' rest n|st' e|]; try reflexivity.
  rewrite <- IH. f_equal. lia.
Qed.

Lemma shift_shift a b d : shift_valid a (shift_valid b d) = shift_valid (a + b) d.
Proof. destruct d; cbn [shift_valid]; rewrite ?Nat.add_assoc; reflexivity. Qed.

Lemma shift_0 d : shift_valid 0 d = d.
Proof. now destruct d. Qed.

Lemma deserialize_nil keep st : deserialize keep st [] = DDone st 0.
Proof. reflexivity. Qed.

Lemma deserialize_cons keep st ct bs :
  deserialize keep st (ct :: bs)
  = match step keep ct st bs with
    | StPanic => DPanic
    | StErr st e => DErr st 0 e
    | StOk st rest n => shift_valid (1 + n) (deserialize keep st rest)
    end.
Proof.
  transitivity (match step keep ct st bs with
                | StPanic => DPanic
                | StErr st e => DErr st 0 e
                | StOk st bs' n => do_loop (S (length bs)) keep st (0 + (1 + n)) bs'
                end); [reflexivity|].
  unfold deserialize.
  destruct (step keep ct st bs) as [st' rest n|st' e|] eqn:Es; try reflexivity.
  destruct (step_extend _ _ _ _ _ _ _ [] Es) as [_ Hl].
  rewrite (do_loop_fuel keep (S (length bs)) (S (length rest))) by lia.
  change (0 + (1 + n)) with (1 + n). rewrite <- do_loop_shift. f_equal. lia.
Qed.

Lemma deserialize_no_fuel keep : forall bs st, deserialize keep st bs <> DFuel.
Proof.
  intros bs. remember (length bs) as k eqn:Hk. assert (Hle : length bs <= k) by lia. clear Hk.
  revert bs Hle. induction k as [|k IH]; intros bs Hle st.
  - destruct bs; [discriminate|cbn in Hle; lia].
  - destruct bs as [|ct bs]; [discriminate|]. rewrite deserialize_cons.
    destruct (step keep ct st bs) as [st' rest n|st' e|] eqn:Es; try discriminate.
    destruct (step_extend _ _ _ _ _ _ _ [] Es) as [_ Hl]. cbn [length] in Hle.
    intros H. apply (IH rest ltac:(lia) st').
    now destruct (deserialize keep st' rest).
Qed.

(** A log read to its end, followed by anything. *)
Lemma deserialize_app keep : forall a st st1 v b,
  deserialize keep st a = DDone st1 v ->
  deserialize keep st (a ++ b) = shift_valid v (deserialize keep st1 b).
Proof.
  intros a. remember (length a) as k eqn:Hk. assert (Hle : length a <= k) by lia. clear Hk.
  revert a Hle. induction k as [|k IH]; intros a Hle st st1 v b.
  - destruct a; [|cbn in Hle; lia]. rewrite deserialize_nil. intros [= <- <-].
    cbn [app]. now rewrite shift_0.
  - destruct a as [|ct a].
    { rewrite deserialize_nil. intros [= <- <-]. cbn [app]. now rewrite shift_0. }
    cbn [app]. rewrite !deserialize_cons.
    destruct (step keep ct st a) as [st' rest n|st' e|] eqn:Es; try discriminate.
    destruct (step_extend _ _ _ _ _ _ _ b Es) as [-> Hl]. cbn [length] in Hle.
    destruct (deserialize keep st' rest) as [s2 v2| | |] eqn:Ed; cbn [shift_valid]; try discriminate.
    intros [= <- <-]. rewrite (IH rest ltac:(lia) _ _ _ b Ed), shift_shift. reflexivity.
Qed.

(** The valid length of a log read to its end is its length, unless it holds
    PQ records. *)
Definition valid_of (os : list lop) : nat := list_sum (map (fun o => 1 + counted o) os).

Lemma deserialize_ops keep : forall os st rest, Forall op_ok os ->
  deserialize keep st (encode_all os ++ rest)
  = match apply_all keep os st with
    | Ok st' => shift_valid (valid_of os) (deserialize keep st' rest)
    | _ => DPanic
    end.
Proof.
  induction os as [|o os IH]; intros st rest Hok.
  - cbn [encode_all flat_map app apply_all valid_of map list_sum fold_right]. now rewrite shift_0.
  - inversion Hok; subst. unfold encode_all. cbn [flat_map]. fold (encode_all os).
    rewrite encode_split, <- app_assoc. cbn [app]. rewrite deserialize_cons.
    rewrite step_encode by auto. cbn [apply_all]. unfold bind at 1.
    destruct (apply_op keep o st) as [st'| | |]; try reflexivity.
    rewrite IH by auto. destruct (apply_all keep os st') as [st2| | |]; try reflexivity.
    rewrite shift_shift. reflexivity.
Qed.

Definition no_pq (o : lop) : Prop := match o with LPq _ => False | _ => True end.

Lemma counted_length o : no_pq o -> 1 + counted o = length (encode o).
Proof.
  intros H. rewrite encode_split. cbn [length]. f_equal.
  assert (H2 : forall o, length (encode o) - 1 = length (body_of o)).
  { intros o'. rewrite encode_split. cbn [length]. lia. }
  destruct o; cbn [counted]; try (rewrite H2; reflexivity). contradiction.
Qed.

Lemma valid_of_length os : Forall no_pq os -> valid_of os = length (encode_all os).
Proof.
  induction os as [|o os IH]; intros H; [reflexivity|]. inversion H; subst.
  unfold valid_of, encode_all in *. cbn [map flat_map].
  change (list_sum (1 + counted o :: map (fun o0 => 1 + counted o0) os))
    with ((1 + counted o) + list_sum (map (fun o0 => 1 + counted o0) os)).
  rewrite app_length, <- IH by auto. now rewrite counted_length.
Qed.

(** ** Cut logs *)

Lemma firstn_app_split {A} k (a b : list A) :
  firstn k (a ++ b) = if Nat.ltb k (length a) then firstn k a else a ++ firstn (k - length a) b.
Proof.
  rewrite firstn_app. destruct (Nat.ltb_spec k (length a)).
  - replace (k - length a) with 0 by lia. cbn. now rewrite app_nil_r.
  - now rewrite firstn_all2 by lia.
Qed.

(** A cut falls at the end of a record or inside one. *)
Lemma cut_split : forall os k, k <= length (encode_all os) ->
  exists os1 os2, os = os1 ++ os2 /\
    ((k = length (encode_all os1) /\ firstn k (encode_all os) = encode_all os1)
     \/ exists o os3 p q, os2 = o :: os3 /\ encode o = (ct_of o :: p) ++ q /\ q <> []
          /\ firstn k (encode_all os) = encode_all os1 ++ ct_of o :: p).
Proof.
  induction os as [|o os IH]; intros k Hk.
  - exists [], []. split; [reflexivity|]. left. cbn in *. split; [lia|].
    now replace k with 0 by lia.
  - unfold encode_all in *. cbn [flat_map] in *. rewrite firstn_app_split. rewrite app_length in Hk.
    destruct (Nat.ltb_spec k (length (encode o))) as [Hlt|Hge].
    + exists [], (o :: os). split; [reflexivity|]. destruct k as [|k].
      * left. cbn. auto.
      * right. rewrite encode_split in *. cbn [length firstn] in *.
        exists o, os, (firstn k (body_of o)), (skipn k (body_of o)).
        repeat split; auto.
        -- cbn [app]. now rewrite encode_split, firstn_skipn.
        -- intros He. apply (f_equal (@length N)) in He. rewrite skipn_length in He. cbn in He. lia.
    + destruct (IH (k - length (encode o))) as (os1 & os2 & -> & [[H1 H2]|H]); [lia| |].
      * exists (o :: os1), os2. split; [reflexivity|]. left. cbn [flat_map]. rewrite app_length, H2.
        split; [lia|reflexivity].
      * destruct H as (o' & os3 & p & q & -> & H2 & H3 & H4).
        exists (o :: os1), (o' :: os3). split; [reflexivity|]. right.
        exists o', os3, p, q. cbn [flat_map]. rewrite H4, <- app_assoc. auto.
Qed.

Lemma deserialize_torn keep o st p q : op_ok o -> encode o = (ct_of o :: p) ++ q -> q <> [] ->
  exists st' e, deserialize keep st (ct_of o :: p) = DErr st' 0 e /\ eofish e /\ torn o st st'.
Proof.
  intros Hok He Hq. rewrite encode_split in He. cbn [app] in He. injection He as Hb.
  destruct (step_torn keep o Hok p q st Hb Hq) as (st' & e & Hs & He & Ht).
  exists st', e. rewrite deserialize_cons, Hs. auto.
Qed.

Lemma apply_all_app keep a b st :
  apply_all keep (a ++ b) st = (do! s <- apply_all keep a st; apply_all keep b s).
Proof.
  revert st. induction a as [|o a IH]; intros st; [reflexivity|]. cbn [app apply_all].
  destruct (apply_op keep o st); cbn [bind]; auto.
Qed.

(** Replaying a cut log. *)
Lemma replay_cut keep os k st st' : Forall op_ok os -> k <= length (encode_all os) ->
  apply_all keep os st = Ok st' ->
  exists os1 os2 s1, os = os1 ++ os2 /\ apply_all keep os1 st = Ok s1
    /\ length (encode_all os1) <= k
    /\ deserialize keep st (encode_all os1) = DDone s1 (valid_of os1)
    /\ firstn (length (encode_all os1)) (firstn k (encode_all os)) = encode_all os1
    /\ ((k = length (encode_all os1)
         /\ deserialize keep st (firstn k (encode_all os)) = DDone s1 (valid_of os1))
        \/ (exists o os3 s2 e, os2 = o :: os3
              /\ k < length (encode_all os1) + length (encode o)
              /\ deserialize keep st (firstn k (encode_all os)) = DErr s2 (valid_of os1) e
              /\ eofish e /\ torn o s1 s2)).
Proof.
  intros Hok Hk Ha. destruct (cut_split os k Hk) as (os1 & os2 & -> & Hcut).
  rewrite apply_all_app in Ha. destruct (apply_all keep os1 st) as [s1| | |] eqn:E1; try discriminate.
  apply Forall_app in Hok as [Hok1 Hok2].
  assert (D1 : deserialize keep st (encode_all os1) = DDone s1 (valid_of os1)).
  { rewrite <- (app_nil_r (encode_all os1)), deserialize_ops, E1 by auto.
    rewrite deserialize_nil. cbn. now rewrite Nat.add_0_r. }
  exists os1, os2, s1. split; [reflexivity|]. split; [exact E1|].
  assert (Hf : forall x, firstn (length (encode_all os1)) (encode_all os1 ++ x) = encode_all os1).
  { intros x. now rewrite firstn_app, Nat.sub_diag, firstn_O, app_nil_r, firstn_all. }
  destruct Hcut as [[Hk1 Hf1]|(o & os3 & p & q & -> & He & Hq & Hf1)].
  - split; [lia|]. split; [exact D1|]. rewrite Hf1. split; [apply firstn_all|]. left. auto.
  - inversion Hok2; subst.
    assert (Hklen : k = length (encode_all os1) + S (length p)).
    { apply (f_equal (@length N)) in Hf1. rewrite firstn_length, app_length in Hf1. cbn [length] in Hf1.
      lia. }
    split; [lia|]. split; [exact D1|]. rewrite Hf1. split; [apply Hf|]. right.
    destruct (deserialize_torn keep o s1 p q H1 He Hq) as (s2 & e & D2 & Hee & Ht).
    exists o, os3, s2, e. split; [reflexivity|]. split.
    { rewrite He, app_length. cbn [length]. destruct q; [congruence|cbn [length]; lia]. }
    split; [|auto]. rewrite deserialize_ops, E1, D2 by auto. cbn. now rewrite Nat.add_0_r.
Qed.

(** ** Operations that cannot panic *)

(** Ids the index can be grown to, levels whose successor is a uint16. *)
Definition op_mem (o : lop) : Prop :=
  match o with
  | LNode id l | LLink id l _ | LReplace id l _ | LAddLinks id l _ =>
      (id < 2 ^ 40)%N /\ (l < 65535)%N
  | LClearAt id l => (id < 2 ^ 63)%N /\ (l < 65535)%N
  | LClear id | LDelete id => (id < 2 ^ 63)%N
  | _ => True
  end.

Definition len_ok (st : lstate) : Prop := (ls_len st <= 2 ^ 41)%N.

Lemma grow_len_ok len id : (len <= 2 ^ 41)%N -> (id < 2 ^ 40)%N ->
  exists n, grow_len len id = Ok n /\ (n <= 2 ^ 41)%N /\ (id < n)%N /\ (len <= n)%N.
Proof.
  intros Hl Hi. unfold grow_len. destruct (N.ltb_spec id len) as [Hlt|Hge].
  { exists len. repeat split; auto; lia. }
  cbv zeta.
  set (n1 := if (len <? 4 * growth_delta)%N then _ else _).
  assert (H1 : (len <= n1 /\ n1 <= len + len / 4 + growth_delta)%N).
  { unfold n1, growth_delta. generalize (len / 4)%N. intros d.
    destruct (N.ltb_spec len (4 * 25000)); lia. }
  set (n := if (n1 <=? id)%N then _ else _).
  assert (Hdiv : (len / 4 <= len)%N) by (apply N.div_le_upper_bound; lia).
  assert (Hdiv4 : (4 * (len / 4) <= len)%N) by (apply N.mul_div_le; lia).
  assert (H2 : (n <= 2 ^ 41 /\ id < n)%N).
  { unfold n. destruct (N.leb_spec n1 id).
    - rewrite N.mod_small; unfold growth_delta; lia.
    - unfold growth_delta in *. lia. }
  destruct (N.ltb_spec max_slots n) as [Hm|_]; [unfold max_slots in Hm; lia|].
  destruct (N.ltb_spec id n); [|lia].
  exists n. repeat split; lia.
Qed.

Lemma maybe_grow_length conns l : (l < 65535)%N ->
  length (maybe_grow conns l) = Nat.max (length conns) (S (N.to_nat l)).
Proof.
  intros Hl. unfold maybe_grow. destruct (N.leb_spec (N.of_nat (length conns)) l) as [H|H].
  - cbv zeta. unfold u16. rewrite N.mod_small by lia.
    rewrite firstn_length, app_length, repeat_length. lia.
  - lia.
Qed.

Lemma at_level_ok conns l f : N.to_nat l < length conns -> exists c, at_level conns l f = Ok c
  /\ length c = length conns.
Proof.
  intros H. unfold at_level. destruct (nth_error conns (N.to_nat l)) eqn:E.
  - eexists. split; [reflexivity|]. clear. revert conns. generalize (N.to_nat l) as i.
    induction i as [|i IH]; intros [|c conns]; cbn; auto.
  - apply nth_error_None in E. lia.
Qed.

Lemma do_conns_ok id l f st : (id < 2 ^ 40)%N -> (l < 65535)%N -> len_ok st ->
  exists st', do_conns id l f st = Ok st' /\ len_ok st'.
Proof.
  intros Hi Hl Hlen. unfold do_conns.
  destruct (grow_len_ok _ _ Hlen Hi) as (n & -> & Hn & _). cbn [bind].
  set (v := match mget id (ls_nodes st) with None => _ | Some v => v end).
  destruct (at_level_ok (maybe_grow (lv_conns v) l) l f) as (c & -> & _).
  { rewrite maybe_grow_length by auto. lia. }
  cbn [bind]. eexists. split; [reflexivity|]. exact Hn.
Qed.

Lemma apply_op_ok keep o st : op_mem o -> len_ok st ->
  exists st', apply_op keep o st = Ok st' /\ len_ok st'.
Proof.
  intros Hm Hl.
  destruct o as [id l|id l|id l t|id l ts|id|id|id|id| |id l|id l ts|pq]; cbn [apply_op op_mem] in *;
    try (eexists; split; [reflexivity|exact Hl]).
  - destruct Hm as [Hi Hv]. unfold do_node.
    destruct (grow_len_ok _ _ Hl Hi) as (n & -> & Hn & _). cbn [bind]. eexists. split; [reflexivity|exact Hn].
  - destruct Hm. now apply do_conns_ok.
  - destruct Hm. unfold do_replace_links.
    destruct (do_conns_ok id l (fun _ => ts) st) as (s & -> & Hs); auto. cbn [bind].
    eexists. split; [reflexivity|]. now destruct keep.
  - unfold do_clear_links, beyond, index_panics.
    destruct (N.ltb_spec id (2 ^ 63)); [|lia]. cbn [andb].
    destruct (ls_len st <=? id)%N; [eauto|].
    destruct (mget id (ls_nodes st)); eexists; (split; [reflexivity|exact Hl]).
  - unfold do_delete, beyond, index_panics.
    destruct (N.ltb_spec id (2 ^ 63)); [|lia]. cbn [andb].
    destruct (ls_len st <=? id)%N; [eauto|].
    eexists; (split; [reflexivity|exact Hl]).
  - eexists. split; [reflexivity|]. unfold len_ok, do_reset, initial_size; cbn [ls_len with_nodes]. lia.
  - destruct Hm as [Hi Hv]. unfold do_clear_links_at, beyond.
    destruct (N.ltb_spec id (2 ^ 63)); [|lia]. cbn [andb].
    destruct (ls_len st <=? id)%N eqn:El; [eauto|]. cbv zeta.
    assert (Hlen' : ls_len (if keep then mark id l st else st) = ls_len st) by (now destruct keep).
    assert (Hn' : ls_nodes (if keep then mark id l st else st) = ls_nodes st) by (now destruct keep).
    unfold index_panics. rewrite Hlen', El, Hn'.
    assert (Hg : forall v st0, ls_len st0 = ls_len st -> exists st',
       (do! c <- at_level (maybe_grow (lv_conns v) l) l (fun _ => []);
        Ok (if keep
            then mark id l (with_nodes st0 (ls_len st0) (mset id (mkLvert (lv_id v) (lv_level v) c) (ls_nodes st)))
            else with_nodes st0 (ls_len st0) (mset id (mkLvert (lv_id v) (lv_level v) c) (ls_nodes st)))) = Ok st'
        /\ len_ok st').
    { intros v st0 H0. destruct (at_level_ok (maybe_grow (lv_conns v) l) l (fun _ => [])) as (c & -> & _).
      { rewrite maybe_grow_length by auto. lia. }
      cbn [bind]. eexists. split; [reflexivity|]. unfold len_ok in *. destruct keep; cbn; lia. }
    destruct (mget id (ls_nodes st)) as [v|].
    + destruct keep; [apply (Hg v (mark id l st))|apply (Hg v st)]; reflexivity.
    + destruct keep; [apply (Hg (mkLvert id 0 (fresh_conns l)) (mark id l st)); reflexivity|].
      eexists. split; [reflexivity|exact Hl].
  - destruct Hm. now apply do_conns_ok.
Qed.

Lemma apply_all_ok keep : forall os st, Forall op_mem os -> len_ok st ->
  exists st', apply_all keep os st = Ok st' /\ len_ok st'.
Proof.
  induction os as [|o os IH]; intros st Hm Hl; [eexists; split; [reflexivity|exact Hl]|].
  inversion Hm; subst. cbn [apply_all]. destruct (apply_op_ok keep o st H1 Hl) as (s & -> & Hs).
  cbn [bind]. now apply IH.
Qed.

Lemma init_len_ok : len_ok ls_init.
Proof. unfold len_ok, ls_init, initial_size. cbn [ls_len]. lia. Qed.
