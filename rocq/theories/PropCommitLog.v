(** C28, C29, C30: records, torn logs, condensed logs. *)
From Verif Require Import Base CommitLog CommitLogFacts CommitLogReplay CommitLogEffect
  CommitLogCondense.

(** ** C28: records read back *)

(** Full statement: reading back a record yields exactly the operation that was
    written, for every operation within the encodable ranges.

    Two different operations never share bytes: a record determines its operation
    and where the next record starts. *)
Theorem C28_unique_readable o1 o2 r1 r2 : op_ok o1 -> op_ok o2 ->
  encode o1 ++ r1 = encode o2 ++ r2 -> o1 = o2 /\ r1 = r2.
Proof. apply encode_inj. Qed.

(** Reading the record of an operation has exactly the effect of the operation,
    whatever follows, and the reader goes on behind the record.  Missing: level
    65535 (refuted below) and node ids of 2^40 or more, whose slice does not fit
    in memory. *)
Theorem C28_reads_back_partial o st : op_ok o -> op_mem o -> in_slice st -> len_ok st ->
  exists st', effect o st st'
    /\ forall rest, deserialize false st (encode o ++ rest)
                    = shift_valid (1 + counted o) (deserialize false st' rest).
Proof.
  intros Ho Hm Hs Hl. destruct (apply_op_ok false o st Hm Hl) as (st' & E & _).
  exists st'. split; [now apply (apply_effect o st st')|]. intros rest.
  pose proof (deserialize_ops false [o] st rest (Forall_cons _ Ho (Forall_nil _))) as H.
  cbn [apply_all encode_all flat_map] in H. rewrite app_nil_r, E in H. cbn [bind] in H. rewrite H.
  f_equal. unfold valid_of. cbn. lia.
Qed.

(** A whole log of such records is read to its end and leaves no error. *)
Theorem C28_log_reads_back_partial os : Forall op_ok os -> Forall op_mem os ->
  exists st, deserialize false ls_init (encode_all os) = DDone st (valid_of os).
Proof.
  intros Ho Hm. destruct (apply_all_ok false os ls_init Hm init_len_ok) as (s & E & _).
  exists s. rewrite <- (app_nil_r (encode_all os)), deserialize_ops, E, deserialize_nil by auto.
  cbn. now rewrite Nat.add_0_r.
Qed.

(** The level 65535 can be written; reading it back panics, because the length
    [level+1] wraps to 0. *)
Theorem C28_highest_level_refuted : exists o,
  op_ok o /\ deserialize false ls_init (encode o) = DPanic.
Proof.
  exists (LLink 1 65535 2). split; [|vm_compute; reflexivity]. cbn. unfold u64_ok, u16_ok.
  repeat split; reflexivity.
Qed.

(** Concrete operations are within the ranges. *)
Ltac ranges :=
  repeat match goal with
         | |- _ /\ _ => split
         | |- Forall _ [] => apply Forall_nil
         | |- Forall _ (_ :: _) => apply Forall_cons
         | |- op_ok _ => cbn [op_ok]
         | |- op_mem _ => cbn [op_mem]
         | |- no_pq _ => exact I
         | |- True => exact I
         | |- u64_ok _ => reflexivity
         | |- u16_ok _ => reflexivity
         | |- (_ < _)%N => reflexivity
         end.

Definition pq1 : pqdata := mkPq 3 0 4 1 0 false [PTile [1%N; 2%N; 3%N; 4%N; 5%N; 6%N] 7 1].

Lemma pq1_ok : op_ok (LPq pq1).
Proof.
  unfold op_ok, pq_ok, pq1. cbn [pq_dims pq_enc pq_ks pq_m pq_dist pq_encoders]. ranges.
  - now left.
  - reflexivity.
  - cbn. ranges; try reflexivity.
Qed.

Definition ops1 : list lop :=
  [LNode 1 2; LNode 70000 0; LSetEp 1 2; LLink 1 0 70000; LAddLinks 70000 0 [1%N; 1%N];
   LReplace 1 1 [18446744073709551615%N]; LAddTomb 9; LAddTomb 1; LRemoveTomb 9; LClearAt 1 0;
   LReplace 1 3 [1%N; 2%N]; LDelete 5; LClear 70000; LLink 70000 0 1].

Lemma ops1_ok : Forall op_ok ops1 /\ Forall op_mem ops1 /\ Forall no_pq ops1.
Proof.
  unfold ops1. ranges.
Qed.

Example C28_nonvacuous :
  Forall op_ok ops1 /\ Forall op_mem ops1 /\ in_slice ls_init /\ len_ok ls_init
  /\ op_ok (LPq pq1)
  /\ match deserialize false ls_init (encode_all (ops1 ++ [LPq pq1])) with
     | DDone st _ => links st 1 0 = [] /\ links st 1 3 = [1%N; 2%N] /\ links st 70000 0 = [1%N]
                     /\ level_of st 1 = Some 2%N /\ ls_ep st = 1%N /\ ls_tomb st = [1%N]
                     /\ ls_pq st = Some pq1
     | _ => False
     end.
Proof.
  destruct ops1_ok as (H1 & H2 & _). split; [exact H1|]. split; [exact H2|].
  split; [exact init_in_slice|]. split; [exact init_len_ok|]. split; [exact pq1_ok|].
  vm_compute. repeat split; reflexivity.
Qed.

(** ** C29: torn logs *)

(** Full statement: a log cut at any byte replays to exactly the state of the
    completely written operations, reports how many bytes were valid, and the log
    truncated to that length replays to the same state without error.

    Proved for logs without product-quantizer records when the torn record is not
    an entry-point record; both exceptions are refuted below.  The bounds on ids
    and levels are those of C28. *)
Theorem C29_torn_log_partial os k : Forall op_ok os -> Forall op_mem os -> Forall no_pq os ->
  k <= length (encode_all os) ->
  exists os1 os2 s v,
    os = os1 ++ os2 /\ v = length (encode_all os1) /\ v <= k
    /\ match os2 with [] => True | o :: _ => k < v + length (encode o) end
    /\ deserialize false ls_init (encode_all os1) = DDone s v
    /\ deserialize false ls_init (firstn v (firstn k (encode_all os))) = DDone s v
    /\ (k = v -> deserialize false ls_init (firstn k (encode_all os)) = DDone s v)
    /\ (v < k -> exists s' e,
          deserialize false ls_init (firstn k (encode_all os)) = DErr s' v e
          /\ (e = REOF \/ e = RUnexpectedEOF)
          /\ match os2 with LSetEp _ _ :: _ => s' = with_ep s 0 0 true | _ => s' = s end).
Proof.
  intros Ho Hm Hp Hk. destruct (apply_all_ok false os ls_init Hm init_len_ok) as (s & E & _).
  destruct (replay_cut false os k ls_init s Ho Hk E) as (os1 & os2 & s1 & -> & E1 & Hle & D1 & Hf & Hcase).
  apply Forall_app in Hp as [Hp1 Hp2]. rewrite valid_of_length in D1 by exact Hp1.
  exists os1, os2, s1, (length (encode_all os1)). repeat split; auto.
  - destruct os2 as [|o os2]; [exact I|]. destruct Hcase as [[-> _]|(o' & os3 & s2 & e & He & Hlt & _)].
    + pose proof (encode_nonempty o). destruct (encode o); [congruence|cbn; lia].
    + injection He as <- <-. exact Hlt.
  - now rewrite Hf.
  - intros Hkv. destruct Hcase as [[_ H]|(o' & os3 & s2 & e & -> & Hlt & H & He & Ht)].
    + now rewrite valid_of_length in H by exact Hp1.
    + exfalso. subst k. rewrite firstn_firstn, Nat.min_id in Hf. rewrite Hf, D1 in H. discriminate.
  - intros Hlt'. destruct Hcase as [[-> _]|(o' & os3 & s2 & e & -> & Hlt & H & He & Ht)]; [lia|].
    rewrite valid_of_length in H by exact Hp1. exists s2, e. split; [exact H|]. split; [exact He|].
    inversion Hp2 as [|? ? Hp3 ?]; subst. destruct o'; cbn in Ht; auto. contradiction.
Qed.

(** A torn entry-point record resets the entry point to node 0 on level 0. *)
Theorem C29_torn_entry_point_refuted : exists os k,
  Forall op_ok os /\ Forall op_mem os /\ Forall no_pq os /\ k < length (encode_all os)
  /\ match deserialize false ls_init (encode_all (removelast os)),
           deserialize false ls_init (firstn k (encode_all os)) with
     | DDone s v, DErr s' v' e => v < k /\ v' = v /\ ls_ep s = 5%N /\ ls_level s = 1%N
                                  /\ ls_ep s' = 0%N /\ ls_level s' = 0%N
     | _, _ => False
     end.
Proof.
  exists [LNode 5 1; LSetEp 5 1; LNode 7 2; LSetEp 7 2], (N.to_nat 40).
  split; [ranges|]. split; [ranges|]. split; [ranges|].
  split; [apply Nat.ltb_lt; vm_compute; reflexivity|]. vm_compute.
  repeat split; auto. apply Nat.ltb_lt. reflexivity.
Qed.

(** The length reported for a product-quantizer record leaves out its encoders:
    a log torn behind one is truncated inside it, and the truncated log does not
    replay. *)
Theorem C29_pq_length_refuted : exists os k,
  Forall op_ok os /\ Forall op_mem os /\ k < length (encode_all os)
  /\ match deserialize false ls_init (encode_all (removelast os)),
           deserialize false ls_init (firstn k (encode_all os)) with
     | DDone s _, DErr s' v e =>
         s' = s /\ v < length (encode_all (removelast os)) /\ length (encode_all (removelast os)) < k
         /\ (exists s2 v2 e2, deserialize false ls_init (firstn v (encode_all os)) = DErr s2 v2 e2)
     | _, _ => False
     end.
Proof.
  exists [LNode 5 1; LPq pq1; LNode 7 2], (N.to_nat 80).
  split; [ranges; exact pq1_ok|]. split; [ranges|].
  split; [apply Nat.ltb_lt; vm_compute; reflexivity|]. vm_compute.
  repeat split; try (apply Nat.ltb_lt; reflexivity). do 3 eexists. reflexivity.
Qed.

Example C29_nonvacuous :
  Forall op_ok ops1 /\ Forall op_mem ops1 /\ Forall no_pq ops1
  /\ (N.to_nat 50) <= length (encode_all ops1)
  /\ match deserialize false ls_init (firstn (N.to_nat 50) (encode_all ops1)) with
     | DErr s v e => v = length (encode_all (firstn 3 ops1)) /\ ls_ep s = 1%N
     | _ => False
     end.
Proof.
  destruct ops1_ok as (H1 & H2 & H3). split; [exact H1|]. split; [exact H2|]. split; [exact H3|].
  split; [apply Nat.leb_le; vm_compute; reflexivity|]. vm_compute. auto.
Qed.

(** ** C30: condensing *)

(** Full statement: replaying the condensed log on an empty index gives the same
    index as replaying the original.

    Proved when the log has no product-quantizer record, every
    ClearLinksAtLevel reaches a node that exists at that point (or an id past the
    slice), and no list of links grows past 65535; each of the three is needed
    (below). *)
Theorem C30_condense_partial os ord :
  Forall op_ok os -> Forall op_mem os -> Forall no_pq os -> clears_ok os ls_init ->
  (forall l t, In t (ord l) <-> In t l) ->
  (forall st v, deserialize false ls_init (encode_all os) = DDone st v -> short_lists st) ->
  exists st v bs st' v',
    deserialize false ls_init (encode_all os) = DDone st v
    /\ condense ord (encode_all os) = Some bs
    /\ deserialize false ls_init bs = DDone st' v'
    /\ same_index st st'.
Proof. apply condense_same. Qed.

(** A ClearLinksAtLevel of a node the log does not hold (it was deleted, or lives
    in an earlier log) creates the node in the condensed log. *)
Theorem C30_phantom_node_refuted : exists os,
  Forall op_ok os /\ Forall op_mem os /\ Forall no_pq os
  /\ match deserialize false ls_init (encode_all os), condense (fun l => l) (encode_all os) with
     | DDone st _, Some bs =>
         match deserialize false ls_init bs with
         | DDone st' _ => ~ present st 5 /\ present st' 5
         | _ => False
         end
     | _, _ => False
     end.
Proof.
  exists [LNode 5 0; LDelete 5; LClearAt 5 0].
  split; [ranges|]. split; [ranges|]. split; [ranges|]. vm_compute. split; congruence.
Qed.

(** The product quantizer is lost. *)
Theorem C30_pq_refuted : exists os,
  Forall op_ok os /\ Forall op_mem os
  /\ match deserialize false ls_init (encode_all os), condense (fun l => l) (encode_all os) with
     | DDone st _, Some bs =>
         match deserialize false ls_init bs with
         | DDone st' _ => ls_pq st = Some pq1 /\ ls_comp st = true
                          /\ ls_pq st' = None /\ ls_comp st' = false
         | _ => False
         end
     | _, _ => False
     end.
Proof.
  exists [LNode 5 0; LPq pq1].
  split; [ranges; exact pq1_ok|]. split; [ranges|]. vm_compute. repeat split.
Qed.

(** 65536 links at one level are written with the count 0; the links are then
    read as records.  These links read as 524288 ResetIndex records. *)
Definition resets : N := 578721382704613384.

Lemma resets_bytes n : flat_map (le_enc 8) (repeat resets n) = repeat ct_reset (8 * n).
Proof.
  induction n as [|n IH]; [reflexivity|]. replace (8 * S n) with (8 + 8 * n) by lia.
  rewrite repeat_app. cbn [repeat flat_map]. rewrite IH. reflexivity.
Qed.

Lemma resets_read : forall n st, exists st' v,
  deserialize false st (repeat ct_reset n) = DDone st' v
  /\ (forall id, mget id (ls_nodes st') = if Nat.eqb n 0 then mget id (ls_nodes st) else None).
Proof.
  induction n as [|n IH]; intros st.
  - exists st, 0. split; reflexivity.
  - cbn [repeat]. rewrite deserialize_cons. change (step false ct_reset st (repeat ct_reset n))
      with (StOk (do_reset st) (repeat ct_reset n) 0).
    destruct (IH (do_reset st)) as (s & v & E & Hn). rewrite E. cbn [shift_valid].
    do 2 eexists. split; [reflexivity|]. intros id. rewrite Hn. cbn. now destruct (Nat.eqb n 0).
Qed.

Lemma two_adds (keep rep : bool) ts1 t : exists st,
  apply_all keep [if rep then LReplace 1 0 ts1 else LAddLinks 1 0 ts1; LAddLinks 1 0 [t]] ls_init = Ok st
  /\ ls_nodes st = [(1%N, mkLvert 1 0 [ts1 ++ [t]])]
  /\ ls_replaced st = (if (keep && rep)%bool then [(1%N, 0%N)] else [])
  /\ ls_epch st = false /\ ls_tomb st = [].
Proof. destruct keep, rep; eexists; (split; [reflexivity|]); cbn; auto. Qed.

Lemma two_adds_read (keep rep : bool) n t ts1 : Forall u64_ok (t :: ts1) -> length ts1 = n ->
  N.of_nat n = 65535%N -> exists st v,
  deserialize keep ls_init
    (encode_all [if rep then LReplace 1 0 ts1 else LAddLinks 1 0 ts1; LAddLinks 1 0 [t]]) = DDone st v
  /\ ls_nodes st = [(1%N, mkLvert 1 0 [ts1 ++ [t]])]
  /\ ls_replaced st = (if (keep && rep)%bool then [(1%N, 0%N)] else [])
  /\ ls_epch st = false /\ ls_tomb st = [].
Proof.
  intros Hf Hn H. inversion Hf; subst. destruct (two_adds keep rep ts1 t) as (st & E & Hs).
  exists st, (valid_of [if rep then LReplace 1 0 ts1 else LAddLinks 1 0 ts1; LAddLinks 1 0 [t]] + 0).
  split; [|exact Hs].
  rewrite <- (app_nil_r (encode_all _)), deserialize_ops, E.
  - now rewrite deserialize_nil.
  - apply Forall_cons; [|apply Forall_cons; [|apply Forall_nil]].
    + destruct rep; cbn [op_ok]; (split; [reflexivity|]); (split; [reflexivity|]); (split; [assumption|lia]).
    + cbn [op_ok]. ranges. assumption.
Qed.

Lemma two_adds_ok (rep : bool) n t ts1 : Forall u64_ok (t :: ts1) -> length ts1 = n ->
  N.of_nat n = 65535%N ->
  Forall op_ok [if rep then LReplace 1 0 ts1 else LAddLinks 1 0 ts1; LAddLinks 1 0 [t]]
  /\ Forall op_mem [if rep then LReplace 1 0 ts1 else LAddLinks 1 0 ts1; LAddLinks 1 0 [t]].
Proof.
  intros Hf Hn H. inversion Hf; subst. split.
  - apply Forall_cons; [|apply Forall_cons; [|apply Forall_nil]].
    + destruct rep; cbn [op_ok]; (split; [reflexivity|]); (split; [reflexivity|]); (split; [assumption|lia]).
    + cbn [op_ok]. ranges. assumption.
  - destruct rep; ranges.
Qed.

Lemma le2_wrap : le_enc 2 65536 = [0%N; 0%N].
Proof. reflexivity. Qed.

Theorem C30_too_many_links_refuted : exists os,
  Forall op_ok os /\ Forall op_mem os /\ Forall no_pq os /\ clears_ok os ls_init
  /\ exists st v bs st' v',
       deserialize false ls_init (encode_all os) = DDone st v
       /\ condense (fun l => l) (encode_all os) = Some bs
       /\ deserialize false ls_init bs = DDone st' v'
       /\ present st 1 /\ forall id, ~ present st' id.
Proof.
  assert (Hn : N.of_nat (N.to_nat 65535) = 65535%N) by apply N2Nat.id.
  revert Hn. generalize (N.to_nat 65535). intros n Hn.
  set (ts1 := repeat resets n).
  assert (Hf : Forall u64_ok (resets :: ts1)).
  { constructor; [reflexivity|]. apply Forall_forall. intros x Hx. apply repeat_spec in Hx. subst x. reflexivity. }
  assert (Hlen : length ts1 = n) by apply repeat_length.
  exists [LAddLinks 1 0 ts1; LAddLinks 1 0 [resets]].
  destruct (two_adds_ok false n resets ts1 Hf Hlen Hn) as [Ho Hm].
  split; [exact Ho|]. split; [exact Hm|].
  split; [ranges|]. split; [cbn; auto|].
  destruct (two_adds_read false false n resets ts1 Hf Hlen Hn) as (st & v & D & Nst & _).
  destruct (two_adds_read true false n resets ts1 Hf Hlen Hn) as (st1 & v1 & D1 & Nst1 & R1 & E1 & T1).
  exists st, v, (encode_all [LAddLinks 1 0 (ts1 ++ [resets])]).
  assert (Hb : encode_all [LAddLinks 1 0 (ts1 ++ [resets])]
               = encode_all [LAddLinks 1 0 []] ++ repeat ct_reset (8 * S n)).
  { assert (Hr : ts1 ++ [resets] = repeat resets (S n)).
    { unfold ts1. replace (S n) with (n + 1) by lia. now rewrite repeat_app. }
    rewrite Hr. unfold encode_all. cbn [flat_map]. rewrite !app_nil_r. cbn [encode].
    rewrite resets_bytes, repeat_length.
    replace (N.of_nat (S n)) with 65536%N by lia. rewrite le2_wrap. reflexivity. }
  destruct (two_adds_read false false n resets ts1 Hf Hlen Hn) as (s0 & _).
  assert (Ea : exists s1, apply_all false [LAddLinks 1 0 []] ls_init = Ok s1) by (eexists; reflexivity).
  destruct Ea as (s1 & Ea).
  destruct (resets_read (8 * S n) s1) as (s2 & v2 & D2 & Hnone).
  exists s2, (valid_of [LAddLinks 1 0 []] + v2). split; [exact D|]. split.
  { unfold condense. cbn [ls_nodes] in *. rewrite D1. unfold condensed_ops. rewrite Nst1, R1, E1, T1.
    reflexivity. }
  split.
  { rewrite Hb, deserialize_ops, Ea, D2; [reflexivity|]. ranges. }
  split.
  - unfold present. rewrite Nst. cbn. congruence.
  - intros id. unfold present. rewrite Hnone. destruct (Nat.eqb_spec (8 * S n) 0); [lia|]. congruence.
Qed.

(** When the list had been replaced, the record is cut after 65535 links. *)
Theorem C30_link_cut_refuted : exists os,
  Forall op_ok os /\ Forall op_mem os /\ Forall no_pq os /\ clears_ok os ls_init
  /\ exists st v bs st' v',
       deserialize false ls_init (encode_all os) = DDone st v
       /\ condense (fun l => l) (encode_all os) = Some bs
       /\ deserialize false ls_init bs = DDone st' v'
       /\ In 7%N (links st 1 0) /\ ~ In 7%N (links st' 1 0).
Proof.
  assert (Hn : N.of_nat (N.to_nat 65535) = 65535%N) by apply N2Nat.id.
  assert (Hn2 : N.to_nat 65535 = N.to_nat 65535) by reflexivity.
  revert Hn Hn2. generalize (N.to_nat 65535) at 1 2. intros n Hn Hn2.
  set (ts1 := repeat 2%N n).
  assert (Hf : Forall u64_ok (7%N :: ts1)).
  { constructor; [reflexivity|]. apply Forall_forall. intros x Hx. apply repeat_spec in Hx. subst x. reflexivity. }
  assert (Hlen : length ts1 = n) by apply repeat_length.
  exists [LReplace 1 0 ts1; LAddLinks 1 0 [7%N]].
  destruct (two_adds_ok true n 7%N ts1 Hf Hlen Hn) as [Ho Hm].
  split; [exact Ho|]. split; [exact Hm|].
  split; [ranges|]. split; [cbn; auto|].
  destruct (two_adds_read false true n 7%N ts1 Hf Hlen Hn) as (st & v & D & Nst & _).
  destruct (two_adds_read true true n 7%N ts1 Hf Hlen Hn) as (st1 & v1 & D1 & Nst1 & R1 & E1 & T1).
  exists st, v, (encode_all [LReplace 1 0 (ts1 ++ [7%N])]).
  assert (Hb : encode_all [LReplace 1 0 (ts1 ++ [7%N])] = encode_all [LReplace 1 0 ts1]).
  { unfold encode_all. cbn [flat_map encode]. rewrite <- Hn2, app_length, Hlen. cbn [length].
    replace (Nat.min (n + 1) n) with n by lia. rewrite Nat.min_id.
    replace (firstn n (ts1 ++ [7%N])) with ts1; [|].
    - now rewrite <- Hlen, firstn_all.
    - rewrite <- Hlen, firstn_app, firstn_all, Nat.sub_diag. cbn. now rewrite app_nil_r. }
  assert (Ea : exists s1, apply_all false [LReplace 1 0 ts1] ls_init = Ok s1
                          /\ ls_nodes s1 = [(1%N, mkLvert 1 0 [ts1])]) by (eexists; split; reflexivity).
  destruct Ea as (s1 & Ea & Ns1).
  exists s1, (valid_of [LReplace 1 0 ts1] + 0). split; [exact D|]. split.
  { unfold condense. rewrite D1. unfold condensed_ops. rewrite Nst1, R1, E1, T1. reflexivity. }
  split.
  { rewrite Hb, <- (app_nil_r (encode_all _)), deserialize_ops, Ea, deserialize_nil; [reflexivity|].
    inversion Ho as [|? ? Ho1 ?]. apply Forall_cons; [exact Ho1|apply Forall_nil]. }
  unfold links. rewrite Nst, Ns1. cbn. split.
  - apply in_or_app. right. now left.
  - intros Hx. apply repeat_spec in Hx. discriminate.
Qed.

(** A checker for [clears_ok]. *)
Fixpoint clears_check (os : list lop) (st : lstate) : bool :=
  match os with
  | [] => true
  | o :: os =>
      match o with
      | LClearAt id _ =>
          (match mget id (ls_nodes st) with Some _ => true | None => false end)
          || (ls_len st <=? id)%N
      | _ => true
      end
      && match apply_op false o st with Ok s => clears_check os s | _ => true end
  end%bool.

Lemma clears_check_ok : forall os st, clears_check os st = true -> clears_ok os st.
Proof.
  induction os as [|o os IH]; intros st H; [exact I|]. cbn [clears_check clears_ok] in *.
  apply andb_prop in H as [H1 H2]. split.
  - destruct o; cbn [clear_ok]; auto. apply orb_prop in H1 as [H1|H1].
    + left. unfold present. destruct (mget id (ls_nodes st)); congruence.
    + right. now apply N.leb_le.
  - intros s E. rewrite E in H2. now apply IH.
Qed.

Example C30_nonvacuous :
  Forall op_ok ops1 /\ Forall op_mem ops1 /\ Forall no_pq ops1 /\ clears_ok ops1 ls_init
  /\ (forall l t, In t (rev l) <-> @In N t l)
  /\ (forall st v, deserialize false ls_init (encode_all ops1) = DDone st v -> short_lists st)
  /\ exists bs, condense (@rev N) (encode_all ops1) = Some bs /\ length bs < length (encode_all ops1).
Proof.
  destruct ops1_ok as (H1 & H2 & H3). split; [exact H1|]. split; [exact H2|]. split; [exact H3|].
  split; [apply clears_check_ok; vm_compute; reflexivity|].
  split; [intros; symmetry; apply in_rev|].
  split; [|eexists; split; [vm_compute; reflexivity|]; apply Nat.ltb_lt; vm_compute; reflexivity].
  intros st v H.
  assert (Hc : match deserialize false ls_init (encode_all ops1) with
               | DDone st _ => forallb (fun kv => forallb (fun l => (N.of_nat (length l) <? 65536)%N)
                                 (lv_conns (snd kv))) (ls_nodes st)
               | _ => true end = true) by (vm_compute; reflexivity).
  rewrite H in Hc. intros id w l Hg Hin. apply mget_in in Hg.
  pose proof (proj1 (forallb_forall _ _) Hc _ Hg) as Hw. cbn in Hw.
  pose proof (proj1 (forallb_forall _ _) Hw _ Hin) as Hl. now apply N.ltb_lt in Hl.
Qed.

Print Assumptions C28_unique_readable.
Print Assumptions C28_reads_back_partial.
Print Assumptions C28_log_reads_back_partial.
Print Assumptions C28_highest_level_refuted.
Print Assumptions C29_torn_log_partial.
Print Assumptions C29_torn_entry_point_refuted.
Print Assumptions C29_pq_length_refuted.
Print Assumptions C30_condense_partial.
Print Assumptions C30_phantom_node_refuted.
Print Assumptions C30_pq_refuted.
Print Assumptions C30_too_many_links_refuted.
Print Assumptions C30_link_cut_refuted.
