(** The re-selection of a full neighbour's links, as the code writes them: cleared
    first, then appended one by one (neighbor_connections.go:201-214).  [Insert.connect_neighbor]
    and [Delete] write the list at once; these are the same. *)
From Verif Require Import Base Graph.

(** neighbor_connections.go:206-209 *)
Fixpoint append_each (v : vertex) (level : nat) (cs : list N) : res vertex :=
  match cs with
  | [] => Ok v
  | c :: cs' => do! v' <- append_conn_at v level c; append_each v' level cs'
  end.

Lemma append_each_spec : forall cs v level old,
  nth_error (v_conns v) level = Some old ->
  append_each v level cs = Ok (set_conns v (upd (v_conns v) level (old ++ cs))).
Proof.
  induction cs as [|c cs IH]; intros v level old H; cbn [append_each].
  - rewrite app_nil_r. f_equal. destruct v as [i l cv m q b]. unfold set_conns. cbn in *. f_equal.
    revert level H. induction cv as [|x cv IHc]; intros [|n] H; try discriminate; cbn in *; [now injection H as ->|].
    f_equal. now apply IHc.
  - unfold append_conn_at at 1. rewrite H. cbn [bind].
    assert (L : level < length (v_conns v)) by (apply nth_error_Some; congruence).
    rewrite (IH _ level (old ++ [c])).
    + f_equal. destruct v as [i l cs0 m q b]. unfold set_conns. cbn in *. f_equal. rewrite <- app_assoc. cbn.
      clear. revert level. induction cs0 as [|x l' IHl]; intros [|n]; cbn; try reflexivity. now rewrite IHl.
    + destruct v as [i l cs0 m q b]. unfold set_conns. cbn in *. now rewrite nth_error_upd_eq.
Qed.

(** What the code does and what the model writes. *)
Theorem reset_then_append : forall v level cs,
  (do! v1 <- reset_conns_at v level; append_each v1 level cs) =
  if Nat.ltb level (length (v_conns v)) then Ok (set_conns v (upd (v_conns v) level cs)) else Panic.
Proof.
  intros v level cs. unfold reset_conns_at. destruct (Nat.ltb_spec level (length (v_conns v))) as [L|L]; [|reflexivity].
  cbn [bind]. rewrite (append_each_spec cs _ level []).
  - f_equal. destruct v as [i l cs0 m q b]. unfold set_conns. cbn in *. f_equal.
    clear. revert level. induction cs0 as [|x l' IHl]; intros [|n]; cbn; try reflexivity. now rewrite IHl.
  - destruct v as [i l cs0 m q b]. unfold set_conns. cbn in *. now rewrite nth_error_upd_eq.
Qed.
