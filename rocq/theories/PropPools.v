(** Property C86: the working storage that searches and additions share. *)
From Verif Require Import Base F32 PQ PQProofs Graph Search Insert InsertHist Persist Distancer
  TestGraph TestInsert Pools PoolProofs PoolCalls.

(** Any number of goroutines, each making any calls one after the other, take
    turns in any order, and the pools hand out their objects, or new ones, as
    they please: nobody uses a variable that was not set, and whoever has
    finished has the results that the functions give on their own, also if
    calls before have failed and left their storage behind. *)
Theorem C86_not_mixed_up : forall gs sched,
  let w := run (start (map (fun cs => calls_p cs []) gs)) sched in
  w_nil w = false /\
  forall g cs outs, nth_error gs g = Some cs -> result w g = Some outs ->
    outs = map direct cs.
Proof.
  intros gs sched w.
  destruct (interleaved (map (fun cs => calls_p cs []) gs) (map (map direct) gs)) with (sched := sched) as [H1 H2].
  - now rewrite !map_length.
  - intros g p a. rewrite !nth_error_map. destruct (nth_error gs g) as [cs|]; cbn; try discriminate.
    intros E1 E2. injection E1 as <-. injection E2 as <-. apply (calls_good cs []).
  - split; [exact H1|]. intros g cs outs Hg Hr.
    refine (proj1 (H2 g (calls_p cs []) (map direct cs) _ _) outs Hr); rewrite nth_error_map, Hg; reflexivity.
Qed.
Print Assumptions C86_not_mixed_up.

(** A goroutine has finished after a number of its own turns that depends on its
    calls only; the others cannot hold it up. *)
Theorem C86_finishes : forall cs, exists n, forall gs g sched,
  nth_error gs g = Some cs ->
  n <= length (filter (fun x => Nat.eqb (fst x) g) sched) ->
  result (run (start (map (fun cs => calls_p cs []) gs)) sched) g = Some (map direct cs).
Proof.
  intros cs. exists (turns (calls_p cs []) new_obj). intros gs g sched Hg Hn.
  destruct (interleaved (map (fun cs => calls_p cs []) gs) (map (map direct) gs)) with (sched := sched) as [_ H2].
  - now rewrite !map_length.
  - intros g' p a. rewrite !nth_error_map. destruct (nth_error gs g') as [cs'|]; cbn; try discriminate.
    intros E1 E2. injection E1 as <-. injection E2 as <-. apply (calls_good cs' []).
  - refine (proj2 (H2 g (calls_p cs []) (map direct cs) _ _) Hn); rewrite nth_error_map, Hg; reflexivity.
Qed.
Print Assumptions C86_finishes.

(** A search that keeps reading the results after giving the queue back. *)
Definition early_p (E : env) (h : hnsw) (q : vec) (ef : Z) (ep : item) : prog (list N) :=
  layer_p E h q ef 0 None (pq_insert less_min ep []) (fun _ => Ret [])
    (Put SRes (drain_p SRes (fun l => Ret (map it_id l)))).

(** Six points, the last on an upper layer. *)
Definition hist86 : list aop :=
  history (ienv_M 2 4 cosp) (map (fun i => ([Z.of_nat (S (i * 7 mod 11)); Z.of_nat (i * 5 mod 7)], i / 5)) (seq 0 6)).
Definition h86 : hnsw := fst (run_adds empty_index hist86).
Definition J86 : ienv := ienv_M 2 4 cosp (map (fun o => (a_id o, a_vec o)) hist86).
Definition q86 (l : list Z) : vec := p_normalize cosp (q_of l).

(** A query and the choice of neighbours for a new document; a choice among
    links, two queries and a search for an entry point, the second of them
    failing because its vector has another dimension. *)
Definition gs86 : list (list call) :=
  [[CMaxDist (env_fwd cosp) h86 (q_of [1; 3]%Z) f32_max 3 None;
    CChoose J86 h86 6 (q86 [1; 3]%Z) 0 (h_ep h86)];
   [CReselect J86 5 0 0 [1; 2; 3; 4]%N;
    CMaxDist (env_fwd cosp) h86 (q_of [5]%Z) f32_max 2 None;
    CMaxDist (env_fwd cosp) h86 (q_of [5; 1]%Z) f32_max 2 None;
    CKnn (env_rev cosp) (with_kv h86 (h_cache h86) (Some 5%N) (Some 6%N)) (q86 [5; 1]%Z) 2 4 None;
    CBest J86 h86 (q86 [5; 1]%Z) 0 1 (h_ep h86)]].

(** They take turns; nine objects serve both. *)
Example C86_nonvacuous :
  let w := run (start (map (fun cs => calls_p cs []) gs86)) (flat_map (fun _ => [(0, 0); (1, 0)]) (seq 0 300)) in
  length (w_heap w) = 9 /\
  match result w 0, result w 1 with
  | Some [OAnswer (Ok (a, _)); OChoice (Ok c)], Some [OLinks (Ok l); OAnswer (Err _); OAnswer (Ok (b, _)); OAnswer (Ok (d, _)); OEntry (Ok e)] =>
      a = [5; 4; 2]%N /\ c = (5, [5])%N /\ l = [3]%N /\ b = [3; 0]%N /\ d = [3; 0]%N /\ e = 5%N
  | _, _ => False
  end.
Proof. vm_compute. repeat split. Qed.

(** What the theorem excludes: giving the results back before reading them.  On
    their own both searches answer well, interleaved they do not. *)
Example C86_early_put_mixes_up :
  let ps := [early_p (env_fwd cosp) h86 (q86 [1; 3]%Z) 3 (mkItem 5 f32_zero);
             early_p (env_fwd cosp) h86 (q86 [5; 1]%Z) 2 (mkItem 5 f32_zero)] in
  let one := run (start ps) (repeat (0, 0) 100 ++ repeat (1, 0) 100) in
  let two := run (start ps) (repeat (0, 0) 33 ++ repeat (1, 0) 20 ++ repeat (0, 0) 100 ++ repeat (1, 0) 100) in
  (result one 0, result one 1) = (Some [2; 4; 5]%N, Some [3; 5]%N) /\
  (result two 0, result two 1) = (Some [4; 5]%N, Some [0; 3]%N).
Proof. vm_compute. split; reflexivity. Qed.
