(** A small concrete index used to show that the hypotheses of the theorems
    are met, and boolean checks for those hypotheses. *)
From Verif Require Import Base F32 PQ PQProofs Graph Search SearchProofs SearchLayer SearchKnn
  Distancer DistancerProofs.

(** Two schedules: completion in spawn order and in reverse order. *)
Definition env_fwd (P : provider) : env := mkEnv P 25500 (fun _ _ xs => xs).
Definition env_rev (P : provider) : env := mkEnv P 25500 (fun _ _ xs => rev xs).

Lemma env_fwd_sched P : sched_ok (env_fwd P).
Proof. intros l f xs. reflexivity. Qed.
Lemma env_rev_sched P : sched_ok (env_rev P).
Proof. intros l f xs. apply Permutation_rev. Qed.

Definition vtx (id : N) (conns : list (list N)) (x : list Z) : vertex :=
  mkV id (length conns - 1) conns false (map f32_of_Z x) true.

(** Five vectors on a line, two layers.  The ground layer has a cycle, a self
    link (2 -> 2) and a dangling link (3 -> 99); vector 4 links to nothing that
    links back to it except over 3. *)
Definition tg_nodes : nmap vertex :=
  [(0, vtx 0 [[1; 2]] [0]%Z);
   (1, vtx 1 [[0; 2; 3]] [2]%Z);
   (2, vtx 2 [[2; 1; 0]; [4]] [5]%Z);
   (3, vtx 3 [[1; 4; 99]] [9]%Z);
   (4, vtx 4 [[3]; [2]] [14]%Z)]%N.
Definition tg : hnsw := mkH tg_nodes tg_nodes (Some 2%N) (Some 5%N) 2 1 [] true.
(** The same with vector 1 marked as deleted. *)
Definition tg_del : hnsw := with_tomb tg [1%N].

Definition l2p : provider := l2_provider l2_go.
Definition cosp : provider := cosine_provider dot_go.
Definition q_of (x : list Z) : vec := map f32_of_Z x.

(* ------------------------------------------------------------------ *)
Lemma node_in h id v : node_by_id h id = Some v -> In (id, v) (h_cache h ++ h_kv h).
Proof.
  assert (Hg : forall m : nmap vertex, mget id m = Some v -> In (id, v) m).
  { induction m as [|[k w] m IH]; cbn; [discriminate|].
    destruct (N.eqb_spec id k) as [->|]; intros H; [inversion H; auto|auto]. }
  unfold node_by_id. destruct (mget id (h_cache h)) as [w|] eqn:Ec; intros H; apply in_or_app.
  - inversion H; subst. left. auto.
  - right. auto.
Qed.

Definition all_nodes (h : hnsw) (p : N -> vertex -> bool) : bool :=
  forallb (fun kv => p (fst kv) (snd kv)) (h_cache h ++ h_kv h).

Lemma all_nodes_spec h p : all_nodes h p = true ->
  forall id v, node_by_id h id = Some v -> p id v = true.
Proof.
  intros Hall id v Hv. unfold all_nodes in Hall. rewrite forallb_forall in Hall.
  apply (Hall (id, v)). now apply node_in.
Qed.

Lemma check_small E h : all_nodes h (fun id _ => N.ltb id (e_vcap E)) = true -> ids_small E h.
Proof. intros H id v Hv. apply N.ltb_lt. exact (all_nodes_spec h _ H id v Hv). Qed.

Lemma check_levels h : all_nodes h (fun _ v => Nat.ltb (v_level v) (length (v_conns v))) = true -> wf_levels h.
Proof. intros H id v Hv. apply Nat.ltb_lt. exact (all_nodes_spec h _ H id v Hv). Qed.

Lemma check_dists P h q :
  all_nodes h (fun _ v => match p_query P q (v_vec v) with Some d => is_num d | None => true end) = true ->
  dists_num P h q.
Proof.
  intros H id d (v & Hv & Hd). pose proof (all_nodes_spec h _ H id v Hv) as Hn. cbn in Hn. now rewrite Hd in Hn.
Qed.

Lemma check_comparable P h q :
  all_nodes h (fun _ v => match p_query P q (v_vec v) with Some d => true | None => false end) = true ->
  forall id v, node_by_id h id = Some v -> exists d, p_query P q (v_vec v) = Some d.
Proof.
  intros H id v Hv. pose proof (all_nodes_spec h _ H id v Hv) as Hn. cbn in Hn.
  destruct (p_query P q (v_vec v)); [eauto|discriminate].
Qed.

(** Ground-layer reachability by path checking. *)
Fixpoint path_ok (h : hnsw) (l : nat) (a : N) (p : list N) : bool :=
  match p with
  | [] => true
  | b :: p' =>
      match node_by_id h a with
      | Some v => match conns_at v l with
                  | Some cs => Nat.leb l (v_level v) && memN b cs && path_ok h l b p'
                  | None => false
                  end
      | None => false
      end
  end.

Lemma reach_trans h l a b c : reach h l a b -> reach h l b c -> reach h l a c.
Proof. intros Hab Hbc. induction Hbc; [exact Hab|]. eapply reach_step; eauto. Qed.

Lemma path_reach h l p : forall a b, path_ok h l a (p ++ [b]) = true -> reach h l a b.
Proof.
  induction p as [|c p IH]; intros a b H; cbn [app path_ok] in H;
    destruct (node_by_id h a) as [v|] eqn:Ev; try discriminate;
    destruct (conns_at v l) as [cs|] eqn:Ec; try discriminate;
    apply andb_true_iff in H; destruct H as [H1 H2]; apply andb_true_iff in H1; destruct H1 as [H0 H1];
    apply Nat.leb_le in H0; apply memN_In in H1.
  - eapply reach_step; eauto. constructor.
  - eapply reach_trans; [|apply IH; exact H2]. eapply reach_step; eauto. constructor.
Qed.
