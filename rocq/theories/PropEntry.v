(** C94: an addition gets by without its entry point. *)
From Verif Require Import Base F32 Graph Search Insert.
From Verif Require Import TestGraph TestInsert.

(** The nodes the replacement is looked for among: ids below the number of keys in the
    table or, if larger, of nodes in memory, and levels up to the maximum layer. *)
Definition bound (h : hnsw) : N :=
  N.of_nat (Nat.max (length (h_kv h) + (if h_kv_ep h then 1 else 0) + (if h_kv_count h then 1 else 0))
                    (length (h_cache h))).
Definition eligible (h : hnsw) (deny : list N) (i : N) (v : vertex) : Prop :=
  node_by_id h i = Some v /\ ~ In i deny /\ (i < bound h)%N /\ v_level v <= h_maxl h.
(** The eligible node of the highest level, and of these the one with the least id. *)
Definition replacement (h : hnsw) (deny : list N) (i : N) (v : vertex) : Prop :=
  eligible h deny i v /\ forall j w, eligible h deny j w ->
    v_level w < v_level v \/ (v_level w = v_level v /\ (i <= j)%N).

Lemma scan_layer_some h deny l : forall n i r, scan_layer h deny l i n = Some r ->
  exists v, node_by_id h r = Some v /\ ~ In r deny /\ (i <= r < i + N.of_nat n)%N /\ v_level v = l /\
    forall j w, (i <= j < r)%N -> ~ In j deny -> node_by_id h j = Some w -> v_level w <> l.
Proof.
  induction n as [|n IH]; intros i r; cbn [scan_layer]; [discriminate|].
  assert (K : (forall w, ~ In i deny -> node_by_id h i = Some w -> v_level w <> l) ->
    scan_layer h deny l (i + 1) n = Some r -> exists v, node_by_id h r = Some v /\ ~ In r deny /\ (i <= r < i + N.of_nat (S n))%N /\ v_level v = l /\
    forall j w, (i <= j < r)%N -> ~ In j deny -> node_by_id h j = Some w -> v_level w <> l).
  { intros Hi H. destruct (IH _ _ H) as (v & H1 & H2 & H3 & H4 & H5). exists v. split; [exact H1|]. split; [exact H2|].
    split; [lia|]. split; [exact H4|]. intros j w Hj Hd Hw. destruct (N.eq_dec j i) as [->|Hne]; [exact (Hi w Hd Hw)|].
    apply (H5 j w); auto. lia. }
  destruct (memN i deny) eqn:Em.
  - apply K. intros w Hd. exfalso. apply Hd. now apply memN_In.
  - destruct (node_by_id h i) as [v|] eqn:Ev; [|apply K; discriminate].
    destruct (Nat.eqb_spec (v_level v) l) as [El|El].
    + intros [= <-]. exists v. split; [exact Ev|]. split; [intros Hi; apply memN_In in Hi; congruence|].
      split; [lia|]. split; [exact El|]. intros j w Hj. lia.
    + apply K. intros w _ [= <-]. exact El.
Qed.
Lemma scan_layer_none h deny l : forall n i, scan_layer h deny l i n = None ->
  forall j w, (i <= j < i + N.of_nat n)%N -> ~ In j deny -> node_by_id h j = Some w -> v_level w <> l.
Proof.
  induction n as [|n IH]; intros i; cbn [scan_layer]; [intros _ j w Hj; lia|].
  intros H j w Hj Hd Hw. destruct (memN i deny) eqn:Em.
  - apply (IH (i + 1)%N H j w); auto. destruct (N.eq_dec j i) as [->|]; [|lia]. exfalso. apply Hd. now apply memN_In.
  - destruct (node_by_id h i) as [v|] eqn:Ev.
    + destruct (Nat.eqb_spec (v_level v) l) as [El|El]; [discriminate|].
      destruct (N.eq_dec j i) as [->|]; [congruence|]. apply (IH (i + 1)%N H j w); auto. lia.
    + destruct (N.eq_dec j i) as [->|]; [congruence|]. apply (IH (i + 1)%N H j w); auto. lia.
Qed.
Lemma scan_layers_found h deny n : forall l i v,
  node_by_id h i = Some v -> ~ In i deny -> (i < N.of_nat n)%N -> v_level v <= l ->
  exists r w, scan_layers h deny l n = r /\ node_by_id h r = Some w /\ ~ In r deny /\ (r < N.of_nat n)%N /\ v_level w <= l /\
    forall j u, node_by_id h j = Some u -> ~ In j deny -> (j < N.of_nat n)%N -> v_level u <= l ->
      v_level u < v_level w \/ (v_level u = v_level w /\ (r <= j)%N).
Proof.
  induction l as [|l IH]; intros i v Hi Hd Hn Hl; cbn [scan_layers].
  - destruct (scan_layer h deny 0 0 n) as [r|] eqn:E.
    + destruct (scan_layer_some _ _ _ _ _ _ E) as (w & H1 & H2 & H3 & H4 & H5). exists r, w.
      repeat split; try assumption; try lia. intros j u Hj Hdj Hnj Hlj. right. split; [lia|].
      destruct (N.le_gt_cases r j); [assumption|]. exfalso. apply (H5 j u); auto; lia.
    + exfalso. apply (scan_layer_none _ _ _ _ _ E i v); auto; lia.
  - destruct (scan_layer h deny (S l) 0 n) as [r|] eqn:E.
    + destruct (scan_layer_some _ _ _ _ _ _ E) as (w & H1 & H2 & H3 & H4 & H5). exists r, w.
      repeat split; try assumption; try lia. intros j u Hj Hdj Hnj Hlj.
      destruct (Nat.eq_dec (v_level u) (S l)) as [Eu|Eu]; [|left; lia]. right. split; [lia|].
      destruct (N.le_gt_cases r j); [assumption|]. exfalso. apply (H5 j u); auto; lia.
    + assert (Nl : forall j u, node_by_id h j = Some u -> ~ In j deny -> (j < N.of_nat n)%N -> v_level u <= S l -> v_level u <= l).
      { intros j u Hj Hdj Hnj Hlj. enough (v_level u <> S l) by lia. apply (scan_layer_none _ _ _ _ _ E j u); auto; lia. }
      destruct (IH i v Hi Hd Hn (Nl _ _ Hi Hd Hn Hl)) as (r & w & E' & H1 & H2 & H3 & H4 & H5).
      exists r, w. repeat split; try assumption; try lia. intros j u Hj Hdj Hnj Hlj. apply (H5 j u); auto. now apply (Nl j u).
Qed.
Lemma scan_layers_not_found h deny n : forall l,
  (forall i v, node_by_id h i = Some v -> ~ In i deny -> (i < N.of_nat n)%N -> v_level v <= l -> False) ->
  scan_layers h deny l n = 0%N.
Proof.
  induction l as [|l IH]; intros H; cbn [scan_layers].
  - destruct (scan_layer h deny 0 0 n) as [r|] eqn:E; [exfalso|reflexivity].
    destruct (scan_layer_some _ _ _ _ _ _ E) as (w & H1 & H2 & H3 & H4 & _). apply (H r w); auto; lia.
  - destruct (scan_layer h deny (S l) 0 n) as [r|] eqn:E.
    + exfalso. destruct (scan_layer_some _ _ _ _ _ _ E) as (w & H1 & H2 & H3 & H4 & _). apply (H r w); auto; lia.
    + apply IH. intros i v Hi Hd Hn Hl. apply (H i v); auto.
Qed.
Lemma bound_eq h : bound h = N.of_nat (Nat.max (kv_count h) (length (h_cache h))).
Proof. reflexivity. Qed.

(** The entry point handed to the connection of a new node is not there (neither in
    memory nor in the table).  If the entry point of the index is another one that is
    there, the connection starts from this one.  Otherwise it starts from the highest
    eligible node, with its true distance. *)
Theorem C94_uses_entry_point P h q deny ep v : node_by_id h ep = None -> h_ep h <> ep ->
  node_by_id h (h_ep h) = Some v ->
  pick_ep P h q 4 deny ep = bind (dist_node_vec P h (h_ep h) q) (fun d => Ok (h_ep h, d)).
Proof.
  intros He Hne Hv. cbn [pick_ep]. rewrite He. unfold new_local_ep.
  destruct (N.eqb_spec (h_ep h) ep) as [|_]; [congruence|]. cbn [negb]. rewrite Hv. reflexivity.
Qed.
Theorem C94_replaced_partial P h q deny ep i v : node_by_id h ep = None -> node_by_id h (h_ep h) = None ->
  eligible h deny i v ->
  exists r w, replacement h deny r w /\
    pick_ep P h q 4 deny ep = bind (dist_node_vec P h r q) (fun d => Ok (r, d)).
Proof.
  intros He Hg (Hi & Hd & Hn & Hl).
  assert (R : forall deny', (forall j u, node_by_id h j = Some u -> (In j deny' <-> In j deny)) ->
    exists w, replacement h deny (scan_layers h deny' (h_maxl h) (Nat.max (kv_count h) (length (h_cache h)))) w).
  { intros deny' Hd'. rewrite bound_eq in Hn.
    assert (Hdi : ~ In i deny') by (rewrite (Hd' i v Hi); exact Hd).
    destruct (scan_layers_found h deny' (Nat.max (kv_count h) (length (h_cache h))) (h_maxl h) i v Hi Hdi Hn Hl)
      as (r & w & Er & H1 & H2 & H3 & H4 & H5).
    exists w. rewrite Er. split.
    - split; [exact H1|]. split; [rewrite <- (Hd' r w H1); exact H2|]. split; [rewrite bound_eq; exact H3|exact H4].
    - intros j u (Hj & Hdj & Hnj & Hlj). apply (H5 j u); auto. rewrite (Hd' j u Hj). exact Hdj. }
  cbn [pick_ep]. rewrite He. destruct (N.eq_dec (h_ep h) ep) as [Ee|Ee].
  - destruct (R (ep :: deny)) as (w & Hw).
    { intros j u Hj. cbn. split; [intros [<-|]; [congruence|assumption]|auto]. }
    set (r := scan_layers h (ep :: deny) (h_maxl h) (Nat.max (kv_count h) (length (h_cache h)))) in *.
    exists r, w. split; [exact Hw|]. destruct Hw as ((Hr & _) & _).
    assert (E : new_local_ep h (ep :: deny) ep = r) by (unfold new_local_ep; rewrite Ee, N.eqb_refl; reflexivity).
    rewrite E, Hr. reflexivity.
  - assert (E : new_local_ep h (ep :: deny) ep = h_ep h).
    { unfold new_local_ep. destruct (N.eqb_spec (h_ep h) ep); [congruence|reflexivity]. }
    rewrite E, Hg.
    destruct (R (h_ep h :: ep :: deny)) as (w & Hw).
    { intros j u Hj. cbn. split; [intros [<-|[<-|]]; [congruence|congruence|assumption]|auto]. }
    set (r := scan_layers h (h_ep h :: ep :: deny) (h_maxl h) (Nat.max (kv_count h) (length (h_cache h)))) in *.
    exists r, w. split; [exact Hw|]. destruct Hw as ((Hr & _) & _).
    assert (E' : new_local_ep h (h_ep h :: ep :: deny) (h_ep h) = r) by (unfold new_local_ep; rewrite N.eqb_refl; reflexivity).
    rewrite E', Hr. reflexivity.
Qed.
(** With no eligible node, and node 0 not there, the addition fails after the time
    limit. *)
Theorem C94_nothing_left P h q deny ep : node_by_id h ep = None -> node_by_id h (h_ep h) = None ->
  node_by_id h 0 = None -> (forall i v, ~ eligible h deny i v) -> pick_ep P h q 4 deny ep = Err ETimeout.
Proof.
  intros He Hg H0 Hn.
  assert (S0 : forall d', incl deny d' -> scan_layers h d' (h_maxl h) (Nat.max (kv_count h) (length (h_cache h))) = 0%N).
  { intros d' Hi. apply scan_layers_not_found. intros i v Hv Hd Hb Hl. apply (Hn i v). split; [exact Hv|].
    split; [intros K; apply Hd, Hi, K|]. split; [rewrite bound_eq; exact Hb|exact Hl]. }
  assert (G : forall d' c, incl deny d' -> new_local_ep h d' c = h_ep h \/ new_local_ep h d' c = 0%N).
  { intros d' c Hi. unfold new_local_ep. destruct (N.eqb_spec (h_ep h) c); cbn [negb]; [right; now apply S0|now left]. }
  assert (K : forall f d' c, incl deny d' -> node_by_id h c = None -> pick_ep P h q f d' c = Err ETimeout).
  { induction f as [|f IH]; intros d' c Hi Hc; cbn [pick_ep]; [reflexivity|]. rewrite Hc.
    assert (Hi' : incl deny (c :: d')) by (intros x Hx; right; apply Hi, Hx).
    apply IH; [exact Hi'|]. destruct (G _ c Hi') as [-> | ->]; assumption. }
  apply K; [apply incl_refl|exact He].
Qed.
(** A node the scan does not reach is not used: the ids are not below the number of
    nodes. *)
Definition far : hnsw := mkH [(5%N, vtx 5 [[]] [0]%Z)] [] None None 9 0 [] true.
Theorem C94_out_of_reach_refuted : exists P h q ep i v, node_by_id h ep = None /\ node_by_id h (h_ep h) = None /\
  node_by_id h i = Some v /\ v_level v <= h_maxl h /\ pick_ep P h q 4 [] ep = Err ETimeout.
Proof. exists l2p, far, (q_of [1]%Z), 9%N, 5%N, (vtx 5 [[]] [0]%Z). repeat split. apply le_n. Qed.
(** The new node itself is one of those looked through.  An addition that picks it
    succeeds, links the node to itself only, and no other node to it. *)
Definition lost : hnsw := mkH [(0%N, vtx 0 [[]] [0]%Z)] [] None None 9 1 [] true.
Theorem C94_picks_itself_refuted : exists I h id q target h' v,
  node_by_id h (h_ep h) = None /\ node_by_id h id = None /\ (exists i w, node_by_id h i = Some w) /\
  insert_linked I h id q target = (h', Ok tt) /\ node_by_id h' id = Some v /\
  (forall l, In l (v_conns v) -> l = [id]) /\
  forallb (fun e => N.eqb (fst e) id || negb (memN id (concat (v_conns (snd e))))) (h_cache h' ++ h_kv h') = true.
Proof.
  exists (ienv_of l2p [(0%N, q_of [0]%Z); (1%N, q_of [1]%Z)]), lost, 1%N, (q_of [1]%Z), 1.
  let h := eval vm_compute in (fst (insert_linked (ienv_of l2p [(0%N, q_of [0]%Z); (1%N, q_of [1]%Z)]) lost 1%N (q_of [1]%Z) 1)) in
  let v := eval vm_compute in (match node_by_id h 1 with Some v => v | None => vtx 0 [] [] end) in
  exists h, v.
  split; [reflexivity|]. split; [reflexivity|]. split; [exists 0%N, (vtx 0 [[]] [0]%Z); reflexivity|].
  split; [vm_compute; reflexivity|]. split; [vm_compute; reflexivity|].
  split; [|vm_compute; reflexivity]. cbn. intros l H. repeat destruct H as [<-|H]; auto; destruct H.
Qed.

(** Four nodes, the entry point of the index (2) and the one handed over (7) not there:
    node 4 is used, the only one on layer 1. *)
Definition no2 : hnsw := mkH (mdel 2%N tg_nodes) (mdel 2%N tg_nodes) (Some 2%N) (Some 5%N) 2 1 [] true.
Example C94_nonvacuous :
  node_by_id no2 7 = None /\ node_by_id no2 (h_ep no2) = None /\
  eligible no2 [] 0 (vtx 0 [[1; 2]]%N [0]%Z) /\
  pick_ep l2p no2 (q_of [12]%Z) 4 [] 7 = Ok (4%N, f32_of_Z 4) /\
  pick_ep l2p tg (q_of [6]%Z) 4 [] 7 = Ok (2%N, f32_of_Z 1) /\
  node_by_id (mkH [] [] None None 0 0 [] true) 0 = None /\
  (forall i v, ~ eligible (mkH [] [] None None 0 0 [] true) [] i v).
Proof.
  split; [reflexivity|]. split; [reflexivity|].
  split; [split; [vm_compute; reflexivity|]; split; [intros []|]; split; [vm_compute; reflexivity|cbn; lia]|].
  split; [vm_compute; reflexivity|]. split; [vm_compute; reflexivity|]. split; [reflexivity|].
  intros i v (H & _). discriminate.
Qed.
Print Assumptions C94_uses_entry_point.
Print Assumptions C94_replaced_partial.
Print Assumptions C94_nothing_left.
Print Assumptions C94_out_of_reach_refuted.
Print Assumptions C94_picks_itself_refuted.
