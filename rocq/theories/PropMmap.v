(** C77: the mapped condensor lays every node of a log out in a region of its own. *)
From Coq Require Import Sorting.Sorted.
From Verif Require Import Base CommitLog CommitLogFacts Mmap MmapProofs.

(** A record of [os], after its last reset, names node [id] on level [l]. *)
Definition named (os : list lop) (id l : N) : Prop :=
  exists os1 o os2, os = os1 ++ o :: os2 /\ ~ In LReset os2 /\
    (o = LNode id l \/ (exists t, o = LLink id l t) \/ (exists ts, o = LReplace id l ts)).

Lemma named_mentions o id l : mentions o = Some (id, l) <->
  (o = LNode id l \/ (exists t, o = LLink id l t) \/ (exists ts, o = LReplace id l ts)).
Proof.
  split.
  - destruct o; cbn; try discriminate; intros [= <- <-]; eauto.
  - intros [->|[(t & ->)|(ts & ->)]]; reflexivity.
Qed.

Lemma snoc_cases {A} (l l1 l2 : list A) x y : l ++ [x] = l1 ++ y :: l2 ->
  (l2 = [] /\ l = l1 /\ x = y) \/ (exists l2', l2 = l2' ++ [x] /\ l = l1 ++ y :: l2').
Proof.
  intros H. destruct l2 as [|z l2] using rev_ind.
  - left. apply app_inj_tail in H. intuition.
  - right. clear IHl2. exists l2. rewrite app_comm_cons, app_assoc in H. apply app_inj_tail in H as (-> & ->). auto.
Qed.

Lemma named_snoc os o id l : named (os ++ [o]) id l <->
  mentions o = Some (id, l) \/ (o <> LReset /\ named os id l).
Proof.
  split.
  - intros (os1 & o' & os2 & E & Hr & Hm). apply snoc_cases in E as [(-> & -> & ->)|(os2' & -> & ->)].
    + left. now apply named_mentions.
    + right. rewrite in_app_iff in Hr. split.
      * intros ->. apply Hr. right. now left.
      * exists os1, o', os2'. intuition.
  - intros [H|(Hn & os1 & o' & os2 & -> & Hr & Hm)].
    + exists os, o, []. split; [reflexivity|]. split; [intros []|]. now apply named_mentions.
    + exists os1, o', (os2 ++ [o]). rewrite <- app_assoc. split; [reflexivity|]. split; [|assumption].
      rewrite in_app_iff. intros [H|[H|[]]]; [now apply Hr|now apply Hn].
Qed.

Lemma seen_named id os : match fold_left (seen_step id) os None with
  | None => forall l, ~ named os id l
  | Some l => named os id l /\ forall l', named os id l' -> (l' <= l)%N
  end.
Proof.
  induction os as [|o os IH] using rev_ind.
  - cbn. intros l (os1 & o & os2 & E & _). now destruct os1.
  - rewrite fold_left_app. cbn [fold_left]. set (acc := fold_left (seen_step id) os None) in *.
    assert (Keep : o <> LReset -> (forall l, mentions o <> Some (id, l)) ->
      match acc with
      | None => forall l, ~ named (os ++ [o]) id l
      | Some l => named (os ++ [o]) id l /\ forall l', named (os ++ [o]) id l' -> (l' <= l)%N
      end).
    { intros Hr Hm. destruct acc as [l|].
      - destruct IH as (H1 & H2). split; [apply named_snoc; auto|]. intros l' H. apply named_snoc in H as [H|(_ & H)]; [now apply Hm in H|auto].
      - intros l H. apply named_snoc in H as [H|(_ & H)]; [now apply Hm in H|now apply IH in H]. }
    assert (Up : forall i l, o <> LReset -> mentions o = Some (i, l) ->
      match (if N.eqb i id then Some (omax acc l) else acc) with
      | None => forall l, ~ named (os ++ [o]) id l
      | Some l => named (os ++ [o]) id l /\ forall l', named (os ++ [o]) id l' -> (l' <= l)%N
      end).
    { intros i l Hr Hm. destruct (N.eqb_spec i id) as [->|n].
      - destruct acc as [m|]; cbn [omax].
        + destruct IH as (H1 & H2). split.
          * apply named_snoc. destruct (N.max_spec m l) as [(_ & ->)|(_ & ->)]; auto.
          * intros l' H. apply named_snoc in H as [H|(_ & H)]; [|apply H2 in H; lia].
            rewrite Hm in H. injection H as <-. lia.
        + split; [apply named_snoc; auto|]. intros l' H. apply named_snoc in H as [H|(_ & H)]; [|now apply IH in H].
          rewrite Hm in H. injection H as <-. lia.
      - apply Keep; [assumption|]. intros l'. rewrite Hm. congruence. }
    destruct o as [i l|i l|i l t|i l ts|i|i|i|i| |i l|i l ts|pq]; cbn [seen_step mentions];
      try (apply Keep; [discriminate|intros l'; discriminate]);
      try (apply Up; [discriminate|reflexivity]).
    intros l H. apply named_snoc in H as [H|(H & _)]; [discriminate|now apply H].
Qed.

(** C77: the analysis of a log ends, and lists each node that a record names after
    the last reset exactly once, in ascending order, with the highest level named. *)
Theorem C77_nodes_partial os : Forall op_ok os -> Forall known os -> exists ns,
  analyze (encode_all os) = MOk ns [] /\ StronglySorted N.lt (map mn_id ns) /\
  forall id l, (exists x, In x ns /\ mn_id x = id /\ mn_level x = l) <->
               (named os id l /\ forall l', named os id l' -> (l' <= l)%N).
Proof.
  intros Hok Hk. destruct (analyze_loop_ok os (S (length (encode_all os))) [] Hok Hk) as (ns & E & (Hs & Ho) & L);
    [split; constructor|lia|]. exists ns. split; [exact E|]. split.
  - clear - Hs. induction Hs as [|x ns H IH Hx]; cbn; constructor; [assumption|].
    apply Forall_map. exact Hx.
  - intros id l. specialize (L id). cbn [level_at] in L. pose proof (seen_named id os) as S. rewrite <- L in S.
    split.
    + intros (x & Hx & <- & <-). rewrite (level_at_in ns x Hs Hx) in S. exact S.
    + intros (H1 & H2). destruct (level_at ns id) as [m|] eqn:Em; [|now apply S in H1].
      apply in_level_at. destruct S as (S1 & S2). rewrite Em. f_equal.
      apply N.le_antisymm; [now apply H2|now apply S2].
Qed.

(** C77: condensing a log that names a node succeeds and gives the nodes
    consecutive regions, which fill the file. *)
Definition region_end (conns : N) (x : mnode) : N := (mn_offset x + node_size conns x)%N.

Lemma offsets_split conns ns a x : offsets_from conns x ns = a -> map mn_id a = map mn_id ns /\ map mn_level a = map mn_level ns.
Proof. intros <-. revert x. induction ns as [|n ns IH]; intros x; cbn; [auto|]. destruct (IH (x + node_size conns (mkMN (mn_id n) x (mn_level n)))%N) as (-> & ->). auto. Qed.

Lemma offsets_chain conns ns : forall at_, let r := offsets_from conns at_ ns in
  match r with [] => True | x :: _ => mn_offset x = at_ end /\
  (forall i x y, nth_error r i = Some x -> nth_error r (S i) = Some y -> mn_offset y = region_end conns x).
Proof.
  induction ns as [|n ns IH]; intros at_; cbn.
  - split; [exact I|]. intros i x y H. now destruct i.
  - split; [reflexivity|]. intros i x y Hx Hy.
    destruct (IH (at_ + node_size conns (mkMN (mn_id n) at_ (mn_level n)))%N) as (H0 & HS).
    destruct i as [|i]; cbn in Hx, Hy; [|exact (HS i x y Hx Hy)].
    injection Hx as <-. destruct (offsets_from _ _ ns) as [|z r]; [discriminate|]. injection Hy as ->. exact H0.
Qed.

Lemma calculate_same conns ns : Forall (fun x => mn_offset x = 0%N) ns ->
  calculate_offsets conns ns = offsets_from conns 0 ns.
Proof.
  intros H. destruct ns as [|n ns]; [reflexivity|]. inversion H as [|? ? Hn _]; subst. cbn. rewrite Hn.
  destruct n as [i o l]. cbn in Hn. now subst.
Qed.

Theorem C77_layout_partial conns os id0 l0 : Forall op_ok os -> Forall known os ->
  named os id0 l0 -> (0 < conns)%N -> exists ns file,
  condense_mmap conns (encode_all os) = Ok (ns, file) /\
  (forall id l, (exists x, In x ns /\ mn_id x = id /\ mn_level x = l) <->
                (named os id l /\ forall l', named os id l' -> (l' <= l)%N)) /\
  (exists first rest, ns = first :: rest /\ mn_offset first = 0%N) /\
  (forall i x y, nth_error ns i = Some x -> nth_error ns (S i) = Some y ->
     (mn_id x < mn_id y)%N /\ mn_offset y = (mn_offset x + node_size conns x)%N) /\
  (exists before last, ns = before ++ [last] /\ N.of_nat (length file) = (mn_offset last + node_size conns last)%N).
Proof.
  intros Hok Hk Hn Hc.
  destruct (analyze_loop_ok os (S (length (encode_all os))) [] Hok Hk) as (ns & E & (Hs & Ho) & L);
    [split; constructor|lia|].
  destruct (C77_nodes_partial os Hok Hk) as (ns_ & E_ & Hsort & Hin). unfold analyze in E_. rewrite E in E_. injection E_ as <-.
  pose proof (calculate_same conns ns Ho) as Ec. set (r := offsets_from conns 0 ns) in *.
  destruct (offsets_split conns ns r 0 eq_refl) as (Mi & Ml).
  destruct (offsets_chain conns ns 0) as (H0 & HS). fold r in H0, HS.
  assert (Hne : r <> []).
  { intros Er. assert (Hns : ns = []) by (rewrite Er in Mi; now destruct ns).
    specialize (L id0). pose proof (seen_named id0 os) as S. rewrite Hns in L. cbn in L. rewrite <- L in S.
    now apply S in Hn. }
  assert (Hx : exists before last, r = before ++ [last]).
  { destruct r as [|z r'] using rev_ind; [easy|eauto]. }
  destruct Hx as (before & last & El).
  assert (Hpos : (0 < region_end conns last)%N).
  { unfold region_end, node_size.
    assert (Hl : exists o, In o (map mn_level ns) /\ o = mn_level last)
      by (exists (mn_level last); split; [rewrite <- Ml, El, map_app; apply in_or_app; right; now left|reflexivity]).
    destruct (N.eq_dec (mn_level last) 0) as [->|n0]; [|lia].
    change (u16 (0 + 1)) with 1%N. lia. }
  exists r, (repeat 0%N (N.to_nat (region_end conns last))). split; [|split; [|split; [|split]]].
  - unfold condense_mmap, analyze. rewrite E. cbv zeta. rewrite Ec. unfold read_mmap, index_size.
    rewrite El, rev_app_distr. cbn [rev app]. fold (region_end conns last).
    destruct (N.eqb_spec (region_end conns last) 0) as [Z|_]; [lia|reflexivity].
  - intros id l. rewrite <- Hin. split; intros (x & Hx & <- & <-).
    + apply In_nth_error in Hx as (i & Hi).
      assert (Hi1 : nth_error (map mn_id ns) i = Some (mn_id x)) by (rewrite <- Mi; now apply map_nth_error).
      assert (Hi2 : nth_error (map mn_level ns) i = Some (mn_level x)) by (rewrite <- Ml; now apply map_nth_error).
      rewrite nth_error_map in Hi1, Hi2. destruct (nth_error ns i) as [y|] eqn:Ey; [|discriminate].
      injection Hi1 as Hi1. injection Hi2 as Hi2. exists y. split; [eapply nth_error_In; eassumption|auto].
    + apply In_nth_error in Hx as (i & Hi).
      assert (Hi1 : nth_error (map mn_id r) i = Some (mn_id x)) by (rewrite Mi; now apply map_nth_error).
      assert (Hi2 : nth_error (map mn_level r) i = Some (mn_level x)) by (rewrite Ml; now apply map_nth_error).
      rewrite nth_error_map in Hi1, Hi2. destruct (nth_error r i) as [y|] eqn:Ey; [|discriminate].
      injection Hi1 as Hi1. injection Hi2 as Hi2. exists y. split; [eapply nth_error_In; eassumption|auto].
  - destruct r as [|x r']; [easy|]. eauto.
  - intros i x y Hx Hy. split; [|exact (HS i x y Hx Hy)].
    assert (Hi1 : nth_error (map mn_id ns) i = Some (mn_id x)) by (rewrite <- Mi; now apply map_nth_error).
    assert (Hi2 : nth_error (map mn_id ns) (S i) = Some (mn_id y)) by (rewrite <- Mi; now apply map_nth_error).
    rewrite nth_error_map in Hi1, Hi2. destruct (nth_error ns i) as [u|] eqn:Eu; [|discriminate].
    destruct (nth_error ns (S i)) as [v|] eqn:Ev; [|discriminate]. injection Hi1 as <-. injection Hi2 as <-.
    apply (sorted_nth ns i (S i)); auto.
  - exists before, last. split; [exact El|]. rewrite repeat_length. apply N2Nat.id.
Qed.

Definition log77 : list lop :=
  [LNode 9 0; LReset; LNode 3 2; LSetEp 3 2; LNode 1 0; LLink 1 0 3; LReplace 3 1 [1]; LLink 2 1 3; LAddTomb 1; LDelete 5]%N.
Ltac ranges77 := cbn; unfold u64_ok, u16_ok; repeat split; try (repeat constructor); try (apply N.ltb_lt; reflexivity); try (cbn; lia).
Example C77_nonvacuous :
  Forall op_ok log77 /\ Forall known log77 /\ named log77 3 2 /\
  condense_mmap 4 (encode_all log77) = Ok ([mkMN 1 0 0; mkMN 2 4 1; mkMN 3 14 2]%N, repeat 0%N 30).
Proof.
  split; [|split; [|split]].
  - unfold log77. repeat (apply Forall_cons; [ranges77|]). apply Forall_nil.
  - repeat constructor.
  - exists [LNode 9 0; LReset]%N, (LNode 3 2)%N, [LSetEp 3 2; LNode 1 0; LLink 1 0 3; LReplace 3 1 [1]; LLink 2 1 3; LAddTomb 1; LDelete 5]%N.
    split; [reflexivity|]. split; [|now left]. cbn. intros H. repeat destruct H as [H|H]; easy.
  - vm_compute. reflexivity.
Qed.

(** What a node needs: on each of its levels the length (2 bytes) and up to [conns]
    links of 8 bytes, twice as many on level 0. *)
Definition room_needed (conns l : N) : N := (2 * (l + 1) + 8 * (conns * l + 2 * conns))%N.

(** False: no region is large enough, whatever the node and the number of links; for
    one link of node 0 there is one byte; the region of the highest level is smaller
    than that of the one below. *)
Theorem C77_space_refuted :
  (forall conns x, (node_size conns x < room_needed conns (mn_level x))%N) /\
  (exists os, Forall op_ok os /\ Forall known os /\ os = [LNode 0 0; LLink 0 0 1]%N /\
     condense_mmap 1 (encode_all os) = Ok ([mkMN 0 0 0]%N, [0%N])) /\
  (forall o, node_size 30 (mkMN 0 o 65535) < node_size 30 (mkMN 0 o 65534))%N.
Proof.
  split; [|split].
  - intros conns x. unfold node_size, room_needed, u16.
    assert ((mn_level x + 1) mod 65536 <= mn_level x + 1)%N by (apply N.mod_le; discriminate). nia.
  - exists [LNode 0 0; LLink 0 0 1]%N. split; [|split; [|split; [reflexivity|vm_compute; reflexivity]]].
    + repeat (apply Forall_cons; [ranges77|]). apply Forall_nil.
    + repeat constructor.
  - intros o. reflexivity.
Qed.

(** False: the file holds nothing of the log (different links, same file); deleted
    nodes keep their regions; an empty log fails; and logs as the other condensor
    writes them are refused. *)
Theorem C77_content_refuted :
  (exists os1 os2 r, os1 = [LNode 0 0; LLink 0 0 1]%N /\ os2 = [LNode 0 0; LLink 0 0 2]%N /\
     condense_mmap 30 (encode_all os1) = Ok r /\ condense_mmap 30 (encode_all os2) = Ok r) /\
  (exists ns f st n, condense_mmap 30 (encode_all [LNode 1 0; LDelete 1]%N) = Ok (ns, f) /\
     map mn_id ns = [1%N] /\ deserialize true ls_init (encode_all [LNode 1 0; LDelete 1]%N) = DDone st n /\ ls_nodes st = []) /\
  condense_mmap 30 [] = Err EOther /\
  (exists bs ns, condense (fun l => l) (encode_all [LNode 0 1; LLink 0 0 1]%N) = Some bs /\
     analyze bs = MErr ns RBadType /\ condense_mmap 30 bs = Err EOther).
Proof.
  split; [|split; [|split]].
  - eexists _, _, _. split; [reflexivity|]. split; [reflexivity|]. split; vm_compute; reflexivity.
  - eexists _, _, _, _. split; [vm_compute; reflexivity|]. split; [reflexivity|]. split; [vm_compute; reflexivity|reflexivity].
  - reflexivity.
  - eexists _, _. split; [vm_compute; reflexivity|]. split; vm_compute; reflexivity.
Qed.

Print Assumptions C77_nodes_partial.
Print Assumptions C77_layout_partial.
Print Assumptions C77_space_refuted.
Print Assumptions C77_content_refuted.
