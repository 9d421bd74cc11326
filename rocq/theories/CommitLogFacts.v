(** Facts about the record format and the deserializer. *)
From Verif Require Import Base CommitLog.

(** ** Little-endian numbers *)

Lemma le_enc_length k x : length (le_enc k x) = k.
Proof. revert x. induction k as [|k IH]; intros x; cbn; [reflexivity|now rewrite IH]. Qed.

Lemma le_dec_enc k : forall x, (x < 256 ^ N.of_nat k)%N -> le_dec (le_enc k x) = x.
Proof.
  induction k as [|k IH]; intros x Hx.
  - cbn in *. lia.
  - cbn [le_enc le_dec]. rewrite IH.
    + pose proof (N.div_mod x 256). lia.
    + apply N.div_lt_upper_bound; [lia|].
      rewrite Nat2N.inj_succ, N.pow_succ_r' in Hx. exact Hx.
Qed.

Lemma le_enc_dec k : forall bs, length bs = k -> Forall (fun b => (b < 256)%N) bs ->
  le_enc k (le_dec bs) = bs.
Proof.
  induction k as [|k IH]; intros [|b bs] Hl Hb; try discriminate; [reflexivity|].
  inversion Hb; subst. cbn [le_dec le_enc]. f_equal.
  - rewrite N.mul_comm, N.mod_add, N.mod_small by lia. reflexivity.
  - rewrite N.mul_comm, N.div_add, N.div_small by lia. rewrite N.add_0_l. apply IH; auto.
Qed.

Definition u64_ok (x : N) : Prop := (x < 2 ^ 64)%N.
Definition u16_ok (x : N) : Prop := (x < 65536)%N.

Lemma le8 x : u64_ok x -> le_dec (le_enc 8 x) = x.
Proof. intros H. apply le_dec_enc. exact H. Qed.
Lemma le2 x : u16_ok x -> le_dec (le_enc 2 x) = x.
Proof. intros H. apply le_dec_enc. exact H. Qed.
Lemma le4 x : (x < 2 ^ 32)%N -> le_dec (le_enc 4 x) = x.
Proof. intros H. apply le_dec_enc. exact H. Qed.
Lemma le1 x : (x < 256)%N -> le_dec (le_enc 1 x) = x.
Proof. intros H. apply le_dec_enc. exact H. Qed.

(** ** Readers *)

Definition eofish (e : rerr) : Prop := e = REOF \/ e = RUnexpectedEOF.

(** A reader that, when it succeeds, has used a prefix of its input: the result
    does not depend on what follows, and any proper prefix of what it used gives
    an end-of-file error. *)
Definition good {A} (r : rd A) : Prop :=
  forall bs a rest, r bs = inl (a, rest) ->
  exists used, bs = used ++ rest
    /\ (forall rest', r (used ++ rest') = inl (a, rest'))
    /\ (forall p q, used = p ++ q -> q <> [] -> exists e, r p = inr e /\ eofish e).

Lemma good_ret {A} (a : A) : good (rret a).
Proof.
  intros bs a' rest [= <- <-]. exists []. repeat split; auto.
  intros p q Hq Hne. symmetry in Hq. apply app_eq_nil in Hq as [_ ->]. congruence.
Qed.

Lemma app_split {A} (u1 u2 p q : list A) : u1 ++ u2 = p ++ q ->
  (exists q1, u1 = p ++ q1 /\ q1 <> [] /\ q = q1 ++ u2)
  \/ (exists p2, p = u1 ++ p2 /\ u2 = p2 ++ q).
Proof.
  revert p. induction u1 as [|x u1 IH]; intros p Hq; cbn in Hq.
  - right. exists p. auto.
  - destruct p as [|y p]; cbn in Hq.
    + left. exists (x :: u1). subst q. split; [reflexivity|]. split; [discriminate|reflexivity].
    + injection Hq as -> Hq. destruct (IH _ Hq) as [(q1 & -> & Hne & ->)|(p2 & -> & ->)].
      * left. exists q1. auto.
      * right. exists p2. auto.
Qed.

Lemma good_bind {A B} (m : rd A) (f : A -> rd B) :
  good m -> (forall a, good (f a)) -> good (rbind m f).
Proof.
  intros Hm Hf bs b rest. unfold rbind.
  destruct (m bs) as [[a bs1]|e] eqn:Em; [|discriminate]. intros Hr.
  destruct (Hm _ _ _ Em) as (u1 & -> & M2 & M3).
  destruct (Hf a _ _ _ Hr) as (u2 & -> & F2 & F3).
  exists (u1 ++ u2). split; [now rewrite app_assoc|]. split.
  - intros rest'. now rewrite <- app_assoc, M2, F2.
  - intros p q Hq Hne. destruct (app_split _ _ _ _ Hq) as [(q1 & -> & Hne1 & ->)|(p2 & -> & ->)].
    + destruct (M3 p q1 eq_refl Hne1) as (e & -> & He). eauto.
    + rewrite M2. apply (F3 p2 q eq_refl Hne).
Qed.

Lemma read_full_app k a rest : length a = k -> read_full k (a ++ rest) = inl (a, rest).
Proof.
  intros <-. unfold read_full. rewrite app_length.
  destruct (Nat.leb_spec (length a) (length a + length rest)); [|lia].
  rewrite firstn_app, Nat.sub_diag, firstn_O, app_nil_r, firstn_all.
  rewrite skipn_app, Nat.sub_diag, skipn_all. reflexivity.
Qed.

Lemma read_full_short k bs : length bs < k -> exists e, read_full k bs = inr e /\ eofish e.
Proof.
  intros H. unfold read_full. destruct (Nat.leb_spec k (length bs)); [lia|].
  unfold eofish. destruct bs; eauto.
Qed.

Lemma good_full k : good (read_full k).
Proof.
  intros bs a rest H. unfold read_full in H.
  destruct (Nat.leb_spec k (length bs)) as [Hle|]; [|destruct bs; discriminate].
  injection H as <- <-. exists (firstn k bs).
  assert (Hl : length (firstn k bs) = k) by (rewrite firstn_length; lia).
  split; [symmetry; apply firstn_skipn|]. split.
  - intros rest'. now apply read_full_app.
  - intros p q Hq Hne. apply read_full_short.
    rewrite Hq, app_length in Hl. destruct q; [congruence|cbn in Hl; lia].
Qed.

Lemma good_u64 : good read_u64.
Proof. apply good_bind; [apply good_full|intros; apply good_ret]. Qed.
Lemma good_u16 : good read_u16.
Proof. apply good_bind; [apply good_full|intros; apply good_ret]. Qed.
Lemma good_byte : good read_byte.
Proof. apply good_bind; [apply good_full|intros; apply good_ret]. Qed.
Lemma good_f32 : good read_f32.
Proof. apply good_bind; [apply good_full|intros; apply good_ret]. Qed.

Lemma good_id_level : good rd_id_level.
Proof.
  apply good_bind; [apply good_u64|intros]. apply good_bind; [apply good_u16|intros].
  apply good_ret.
Qed.

Lemma good_link : good rd_link.
Proof.
  apply good_bind; [apply good_u64|intros]. apply good_bind; [apply good_u16|intros].
  apply good_bind; [apply good_u64|intros]. apply good_ret.
Qed.

Lemma good_links : good rd_links.
Proof.
  apply good_bind; [apply good_full|intros].
  apply good_bind; [|intros; apply good_ret].
  apply good_bind; [apply good_full|intros; apply good_ret].
Qed.

Lemma good_many {A} (r : rd A) k : good r -> good (rd_many k r).
Proof.
  intros Hr. induction k as [|k IH]; cbn [rd_many]; [apply good_ret|].
  apply good_bind; [exact Hr|intros]. apply good_bind; [exact IH|intros]. apply good_ret.
Qed.

Lemma good_tile : good rd_tile.
Proof.
  apply good_bind; [apply good_many, good_u64|intros].
  apply good_bind; [apply good_u16|intros]. apply good_bind; [apply good_byte|intros].
  apply good_ret.
Qed.

Lemma good_kmeans d k m : good (rd_kmeans d k m).
Proof.
  apply good_bind; [apply good_many, good_many, good_f32|intros]. apply good_ret.
Qed.

Lemma good_pq_header : good rd_pq_header.
Proof.
  repeat (apply good_bind; [first [apply good_u16|apply good_byte]|intros]). apply good_ret.
Qed.

(** ** Reading what was written *)

Lemma read_u64_enc x rest : u64_ok x -> read_u64 (le_enc 8 x ++ rest) = inl (x, rest).
Proof.
  intros H. unfold read_u64, rbind. rewrite read_full_app by apply le_enc_length.
  unfold rret. now rewrite le8.
Qed.

Lemma read_u16_enc x rest : u16_ok x -> read_u16 (le_enc 2 x ++ rest) = inl (x, rest).
Proof.
  intros H. unfold read_u16, rbind. rewrite read_full_app by apply le_enc_length.
  unfold rret. now rewrite le2.
Qed.

Lemma read_byte_enc x rest : (x < 256)%N -> read_byte (le_enc 1 x ++ rest) = inl (x, rest).
Proof.
  intros H. unfold read_byte, rbind. rewrite read_full_app by apply le_enc_length.
  unfold rret. now rewrite le1.
Qed.

Lemma read_f32_enc x rest : (x < 2 ^ 32)%N -> read_f32 (le_enc 4 x ++ rest) = inl (x, rest).
Proof.
  intros H. unfold read_f32, rbind. rewrite read_full_app by apply le_enc_length.
  unfold rret. now rewrite le4.
Qed.

Lemma flat8_length ts : length (flat_map (le_enc 8) ts) = 8 * length ts.
Proof.
  induction ts as [|t ts IH]; [reflexivity|]. cbn [flat_map].
  rewrite app_length, le_enc_length, IH. cbn [length]. lia.
Qed.

Lemma words_enc ts : Forall u64_ok ts -> words (length ts) (flat_map (le_enc 8) ts) = ts.
Proof.
  induction ts as [|t ts IH]; intros H; [reflexivity|]. inversion H; subst.
  cbn [length words flat_map].
  rewrite firstn_app, le_enc_length, Nat.sub_diag, firstn_O, app_nil_r.
  rewrite firstn_all2 by (rewrite le_enc_length; lia).
  rewrite skipn_app, le_enc_length, Nat.sub_diag, skipn_all2, skipn_O
    by (rewrite le_enc_length; lia).
  cbn [app]. rewrite le8, IH; auto.
Qed.

Lemma read_u64s_enc ts rest : Forall u64_ok ts ->
  read_u64s (length ts) (flat_map (le_enc 8) ts ++ rest) = inl (ts, rest).
Proof.
  intros H. unfold read_u64s, rbind. rewrite read_full_app by apply flat8_length.
  unfold rret. now rewrite words_enc.
Qed.

Lemma rd_id_level_enc id l rest : u64_ok id -> u16_ok l ->
  rd_id_level (le_enc 8 id ++ le_enc 2 l ++ rest) = inl ((id, l), rest).
Proof.
  intros H1 H2. unfold rd_id_level, rbind. rewrite read_u64_enc, read_u16_enc; auto.
Qed.

Lemma rd_link_enc id l t rest : u64_ok id -> u16_ok l -> u64_ok t ->
  rd_link (le_enc 8 id ++ le_enc 2 l ++ le_enc 8 t ++ rest) = inl ((id, l, t), rest).
Proof.
  intros H1 H2 H3. unfold rd_link, rbind.
  rewrite read_u64_enc, read_u16_enc, read_u64_enc; auto.
Qed.

(** Links read for a header with count [n]: exactly [n] of the words that follow. *)
Lemma rd_links_header id l n ts rest : u64_ok id -> u16_ok l -> u16_ok n ->
  N.to_nat n = length ts -> Forall u64_ok ts ->
  rd_links (le_enc 8 id ++ le_enc 2 l ++ le_enc 2 n ++ flat_map (le_enc 8) ts ++ rest)
  = inl ((id, l, ts), rest).
Proof.
  intros H1 H2 H3 Hn H4. unfold rd_links, rbind.
  replace (le_enc 8 id ++ le_enc 2 l ++ le_enc 2 n ++ flat_map (le_enc 8) ts ++ rest)
    with ((le_enc 8 id ++ le_enc 2 l ++ le_enc 2 n) ++ flat_map (le_enc 8) ts ++ rest)
    by (now rewrite <- !app_assoc).
  rewrite read_full_app by (rewrite !app_length, !le_enc_length; reflexivity).
  rewrite !firstn_app, !le_enc_length.
  change (8 - 8) with 0. rewrite firstn_O, app_nil_r.
  rewrite (firstn_all2 (n := 8) (le_enc 8 id)) by (rewrite le_enc_length; lia).
  rewrite !skipn_app, !le_enc_length.
  change (10 - 8 - 2) with 0. change (10 - 8) with 2. change (8 - 8) with 0.
  rewrite (skipn_all2 (n := 8) (le_enc 8 id)) by (rewrite le_enc_length; lia).
  rewrite (skipn_all2 (n := 10) (le_enc 8 id)) by (rewrite le_enc_length; lia).
  rewrite (skipn_all2 (n := 2) (le_enc 2 l)) by (rewrite le_enc_length; lia).
  rewrite !skipn_O. cbn [app].
  rewrite firstn_app, le_enc_length, Nat.sub_diag, firstn_O, app_nil_r.
  rewrite (firstn_all2 (n := 2) (le_enc 2 l)) by (rewrite le_enc_length; lia).
  rewrite !le8, !le2 by auto. rewrite Hn, read_u64s_enc by auto. reflexivity.
Qed.

Lemma rd_many_enc {A} (r : rd A) (enc : A -> list N) (ok : A -> Prop) :
  (forall a rest, ok a -> r (enc a ++ rest) = inl (a, rest)) ->
  forall xs rest, Forall ok xs ->
  rd_many (length xs) r (flat_map enc xs ++ rest) = inl (xs, rest).
Proof.
  intros Hr. induction xs as [|x xs IH]; intros rest H; [reflexivity|].
  inversion H; subst. cbn [length rd_many flat_map]. unfold rbind.
  rewrite <- app_assoc, Hr by auto. rewrite IH by auto. reflexivity.
Qed.

(** Well-formed encoders of a product quantizer record. *)
Definition pqenc_ok (pq : pqdata) (x : pqenc) : Prop :=
  match x with
  | PTile fs seg d =>
      pq_enc pq = use_tile /\ length fs = 6 /\ Forall u64_ok fs /\ u16_ok seg /\ (d < 256)%N
  | PKMeans cs =>
      pq_enc pq = use_kmeans /\ length cs = N.to_nat (pq_ks pq)
      /\ Forall (fun c => length c = N.to_nat (pq_dims pq / pq_m pq)
                          /\ Forall (fun x => (x < 2 ^ 32)%N) c) cs
  end.

Definition pq_ok (pq : pqdata) : Prop :=
  u16_ok (pq_dims pq) /\ (pq_enc pq = use_tile \/ pq_enc pq = use_kmeans)
  /\ u16_ok (pq_ks pq) /\ u16_ok (pq_m pq) /\ (pq_dist pq < 256)%N
  /\ length (pq_encoders pq) = N.to_nat (pq_m pq)
  /\ Forall (pqenc_ok pq) (pq_encoders pq).

(** The encodable operations. *)
Definition op_ok (o : lop) : Prop :=
  match o with
  | LNode id l | LSetEp id l | LClearAt id l => u64_ok id /\ u16_ok l
  | LLink id l t => u64_ok id /\ u16_ok l /\ u64_ok t
  | LReplace id l ts | LAddLinks id l ts =>
      u64_ok id /\ u16_ok l /\ Forall u64_ok ts /\ (N.of_nat (length ts) < 65536)%N
  | LAddTomb id | LRemoveTomb id | LClear id | LDelete id => u64_ok id
  | LReset => True
  | LPq pq => pq_ok pq
  end.

(** What Do adds to the valid length for a record, without the type byte. *)
Definition counted (o : lop) : nat :=
  match o with
  | LPq _ => 9
  | o => length (encode o) - 1
  end.

Lemma rd_tile_enc fs seg d rest :
  length fs = 6 -> Forall u64_ok fs -> u16_ok seg -> (d < 256)%N ->
  rd_tile (enc_pqenc (PTile fs seg d) ++ rest) = inl (PTile fs seg d, rest).
Proof.
  intros H1 H2 H3 H4. unfold rd_tile, rbind. cbn [enc_pqenc]. rewrite <- !app_assoc.
  replace (rd_many 6 read_f64) with (rd_many (length fs) read_f64) by (now rewrite H1).
  rewrite (rd_many_enc read_f64 (le_enc 8) u64_ok); auto.
  - rewrite read_u16_enc by auto. rewrite read_byte_enc by auto. reflexivity.
  - intros. now apply read_u64_enc.
Qed.

Lemma rd_kmeans_enc dims ks m cs rest :
  length cs = N.to_nat ks ->
  Forall (fun c => length c = N.to_nat (dims / m) /\ Forall (fun x => (x < 2 ^ 32)%N) c) cs ->
  rd_kmeans dims ks m (enc_pqenc (PKMeans cs) ++ rest) = inl (PKMeans cs, rest).
Proof.
  intros H1 H2. unfold rd_kmeans, rbind. cbn [enc_pqenc]. rewrite <- H1.
  rewrite (rd_many_enc _ (flat_map (le_enc 4))
             (fun c => length c = N.to_nat (dims / m) /\ Forall (fun x => (x < 2 ^ 32)%N) c)); auto.
  intros c rest' [Hc1 Hc2]. rewrite <- Hc1.
  apply (rd_many_enc read_f32 (le_enc 4) (fun x => (x < 2 ^ 32)%N)); auto.
  intros. now apply read_f32_enc.
Qed.

Lemma pq_loop_enc (r : rd pqenc) : forall xs pq rest,
  (forall x rest, In x xs -> r (enc_pqenc x ++ rest) = inl (x, rest)) ->
  pq_encoders_loop (length xs) r pq (flat_map enc_pqenc xs ++ rest)
  = (fold_left add_encoder xs pq, inl rest).
Proof.
  induction xs as [|x xs IH]; intros pq rest Hr; [reflexivity|].
  cbn [length pq_encoders_loop flat_map fold_left]. rewrite <- app_assoc.
  rewrite Hr by (now left). apply IH. intros; apply Hr. now right.
Qed.

Lemma fold_add_encoder xs : forall pq,
  fold_left add_encoder xs pq
  = mkPq (pq_dims pq) (pq_enc pq) (pq_ks pq) (pq_m pq) (pq_dist pq) (pq_bits pq)
         (pq_encoders pq ++ xs).
Proof.
  induction xs as [|x xs IH]; intros pq; cbn [fold_left].
  - rewrite app_nil_r. now destruct pq.
  - rewrite IH. cbn. now rewrite <- app_assoc.
Qed.

Definition pq_head (pq : pqdata) : pqdata :=
  mkPq (pq_dims pq) (pq_enc pq) (pq_ks pq) (pq_m pq) (pq_dist pq) (pq_bits pq) [].

Definition enc_pq_header (pq : pqdata) : list N :=
  le_enc 2 (pq_dims pq) ++ le_enc 1 (pq_enc pq) ++ le_enc 2 (pq_ks pq)
  ++ le_enc 2 (pq_m pq) ++ le_enc 1 (pq_dist pq) ++ [if pq_bits pq then 1%N else 0%N].

Lemma rd_pq_header_enc pq rest : pq_ok pq ->
  rd_pq_header (enc_pq_header pq ++ rest) = inl (pq_head pq, rest).
Proof.
  intros (H1 & H2 & H3 & H4 & H5 & H6 & H7). unfold rd_pq_header, rbind, enc_pq_header.
  rewrite <- !app_assoc.
  rewrite read_u16_enc by auto.
  rewrite read_byte_enc by (destruct H2 as [-> | ->]; reflexivity).
  rewrite read_u16_enc, read_u16_enc, read_byte_enc by auto.
  change [if pq_bits pq then 1%N else 0%N] with (le_enc 1 (if pq_bits pq then 1%N else 0%N)) ||
    replace [if pq_bits pq then 1%N else 0%N] with (le_enc 1 (if pq_bits pq then 1%N else 0%N))
      by (destruct (pq_bits pq); reflexivity).
  rewrite read_byte_enc by (destruct (pq_bits pq); reflexivity).
  unfold rret, pq_head. now destruct (pq_bits pq).
Qed.

(** The reader of the encoders of [pq]. *)
Definition pq_reader (pq : pqdata) : rd pqenc :=
  if N.eqb (pq_enc pq) use_tile then rd_tile
  else rd_kmeans (pq_dims pq) (pq_ks pq) (pq_m pq).

Lemma good_pq_reader pq : good (pq_reader pq).
Proof. unfold pq_reader. destruct (N.eqb _ _); [apply good_tile|apply good_kmeans]. Qed.

Lemma pq_reader_enc pq x rest : pq_ok pq -> In x (pq_encoders pq) ->
  pq_reader pq (enc_pqenc x ++ rest) = inl (x, rest).
Proof.
  intros (H1 & H2 & H3 & H4 & H5 & H6 & H7) Hin. rewrite Forall_forall in H7.
  specialize (H7 _ Hin). unfold pq_reader. destruct x as [fs seg d|cs]; cbn [pqenc_ok] in H7.
  - destruct H7 as (-> & ? & ? & ? & ?). cbn [N.eqb use_tile]. now apply rd_tile_enc.
  - destruct H7 as (-> & ? & ?). cbn. now apply rd_kmeans_enc.
Qed.

(** The step of a PQ record in terms of its reader. *)
Lemma step_pq_eq pq st rest : pq_ok pq ->
  step_pq st (enc_pq_header pq ++ rest)
  = match pq_encoders_loop (N.to_nat (pq_m pq)) (pq_reader pq) (pq_head pq) rest with
    | (pq', inr e) => StErr (with_pq st (Some pq') (ls_comp st)) e
    | (pq', inl bs) => StOk (with_pq st (Some pq') true) bs 9
    end.
Proof.
  intros H. unfold step_pq. rewrite rd_pq_header_enc by exact H. cbn [pq_head pq_m pq_enc pq_dims pq_ks].
  unfold pq_reader. destruct H as (_ & [He|He] & _); rewrite He; cbn [N.eqb use_tile use_kmeans Pos.eqb];
    destruct (pq_encoders_loop _ _ _ _) as [pq' [bs|e]]; reflexivity.
Qed.

(** ** One record *)

(** Type byte and body of a record. *)
Definition ct_of (o : lop) : N :=
  match o with
  | LNode _ _ => ct_add_node
  | LSetEp _ _ => ct_set_ep
  | LLink _ _ _ => ct_add_link
  | LReplace _ _ _ => ct_replace_links
  | LAddTomb _ => ct_add_tomb
  | LRemoveTomb _ => ct_remove_tomb
  | LClear _ => ct_clear_links
  | LDelete _ => ct_delete_node
  | LReset => ct_reset
  | LClearAt _ _ => ct_clear_links_at
  | LAddLinks _ _ _ => ct_add_links
  | LPq _ => ct_add_pq
  end.

Definition body_of (o : lop) : list N :=
  match o with
  | LNode id l | LSetEp id l | LClearAt id l => le_enc 8 id ++ le_enc 2 l
  | LLink id l t => le_enc 8 id ++ le_enc 2 l ++ le_enc 8 t
  | LReplace id l ts =>
      let n := Nat.min (length ts) (N.to_nat 65535) in
      le_enc 8 id ++ le_enc 2 l ++ le_enc 2 (N.of_nat n) ++ flat_map (le_enc 8) (firstn n ts)
  | LAddTomb id | LRemoveTomb id | LClear id | LDelete id => le_enc 8 id
  | LReset => []
  | LAddLinks id l ts =>
      le_enc 8 id ++ le_enc 2 l ++ le_enc 2 (N.of_nat (length ts)) ++ flat_map (le_enc 8) ts
  | LPq pq => enc_pq_header pq ++ flat_map enc_pqenc (pq_encoders pq)
  end.

Lemma encode_split o : encode o = ct_of o :: body_of o.
Proof. now destruct o. Qed.

Lemma step_encode keep o : op_ok o -> forall st rest,
    step keep (ct_of o) st (body_of o ++ rest)
    = match apply_op keep o st with
      | Ok st' => StOk st' rest (counted o)
      | _ => StPanic
      end.
Proof.
  intros Hok.
  destruct o as [id l|id l|id l t|id l ts|id|id|id|id| |id l|id l ts|pq];
    intros st rest; cbn [op_ok] in Hok; cbn [ct_of body_of].
  - destruct Hok. unfold step. cbn [N.eqb ct_add_node]. unfold step_with.
    rewrite <- app_assoc, rd_id_level_enc by auto. cbn [apply_op].
    destruct (do_node id l st); reflexivity.
  - destruct Hok. unfold step. cbn [N.eqb ct_add_node ct_set_ep Pos.eqb].
    rewrite <- app_assoc, rd_id_level_enc by auto. reflexivity.
  - destruct Hok as (? & ? & ?). unfold step. cbn -[rd_link app le_enc].
    unfold step_with. rewrite <- !app_assoc, rd_link_enc by auto.
    destruct (do_link id l t st); reflexivity.
  - destruct Hok as (? & ? & ? & Hl). unfold step.
    cbn [N.eqb ct_add_node ct_set_ep ct_add_link ct_add_links ct_replace_links Pos.eqb].
    assert (Hmin : Nat.min (length ts) (N.to_nat 65535) = length ts) by lia.
    unfold step_with. rewrite Hmin, firstn_all, <- !app_assoc.
    rewrite rd_links_header; auto; [|lia].
    cbn [apply_op]. destruct (do_replace_links keep id l ts st); try reflexivity.
    unfold counted, encode. rewrite Hmin, firstn_all, !app_length, !le_enc_length, flat8_length.
    cbn [length]. f_equal; lia.
  - unfold step. cbn [N.eqb ct_add_node ct_set_ep ct_add_link ct_add_links ct_replace_links ct_add_tomb Pos.eqb].
    unfold step_with. rewrite read_u64_enc by auto. reflexivity.
  - unfold step. cbn [N.eqb ct_add_node ct_set_ep ct_add_link ct_add_links ct_replace_links ct_add_tomb ct_remove_tomb Pos.eqb].
    unfold step_with. rewrite read_u64_enc by auto. reflexivity.
  - unfold step. cbn [N.eqb ct_add_node ct_set_ep ct_add_link ct_add_links ct_replace_links ct_add_tomb ct_remove_tomb ct_clear_links Pos.eqb].
    unfold step_with. rewrite read_u64_enc by auto. cbn [apply_op].
    destruct (do_clear_links id st); reflexivity.
  - unfold step. cbn [N.eqb ct_add_node ct_set_ep ct_add_link ct_add_links ct_replace_links ct_add_tomb ct_remove_tomb ct_clear_links ct_clear_links_at ct_delete_node Pos.eqb].
    unfold step_with. rewrite read_u64_enc by auto. cbn [apply_op].
    destruct (do_delete id st); reflexivity.
  - reflexivity.
  - destruct Hok. unfold step. cbn [N.eqb ct_add_node ct_set_ep ct_add_link ct_add_links ct_replace_links ct_add_tomb ct_remove_tomb ct_clear_links ct_clear_links_at Pos.eqb].
    unfold step_with. rewrite <- app_assoc, rd_id_level_enc by auto. cbn [apply_op].
    destruct (do_clear_links_at keep id l st); reflexivity.
  - destruct Hok as (? & ? & ? & Hl). unfold step.
    cbn [N.eqb ct_add_node ct_set_ep ct_add_link ct_add_links Pos.eqb].
    unfold step_with. rewrite <- !app_assoc.
    rewrite rd_links_header; auto; [|lia].
    cbn [apply_op]. destruct (do_add_links id l ts st); try reflexivity.
    unfold counted, encode. rewrite !app_length, !le_enc_length, flat8_length.
    cbn [length]. f_equal; lia.
  - unfold step. cbn [N.eqb ct_add_node ct_set_ep ct_add_link ct_add_links ct_replace_links ct_add_tomb ct_remove_tomb ct_clear_links ct_clear_links_at ct_delete_node ct_reset ct_add_pq Pos.eqb].
    rewrite <- app_assoc, step_pq_eq by exact Hok.
    pose proof Hok as (_ & _ & _ & _ & _ & Hlen & _). rewrite <- Hlen.
    rewrite pq_loop_enc by (intros; now apply pq_reader_enc).
    rewrite fold_add_encoder. cbn [apply_op counted pq_head pq_dims pq_enc pq_ks pq_m pq_dist pq_bits pq_encoders app].
    now destruct pq.
Qed.

Lemma encode_nonempty o : encode o <> [].
Proof. destruct o; discriminate. Qed.

(** ** Torn records *)

(** The state a torn record leaves behind. *)
Definition torn (o : lop) (st st' : lstate) : Prop :=
  match o with
  | LSetEp _ _ => st' = with_ep st 0 0 true
  | LPq _ => exists pq, st' = with_pq st pq (ls_comp st)
  | _ => st' = st
  end.

Lemma with_pq_same st : st = with_pq st (ls_pq st) (ls_comp st).
Proof. now destruct st. Qed.

Lemma with_pq_twice st a b c d : with_pq (with_pq st a b) c d = with_pq st c d.
Proof. reflexivity. Qed.

(** A [step_with] record cut short. *)
Lemma step_with_torn {A} st (r : rd A) f c enc a p q :
  good r -> (forall rest, r (enc ++ rest) = inl (a, rest)) ->
  enc = p ++ q -> q <> [] ->
  exists e, step_with st r f c p = StErr st e /\ eofish e.
Proof.
  intros Hg Hr Hpq Hq. specialize (Hr []). destruct (Hg _ _ _ Hr) as (u & Hu & _ & H3).
  rewrite !app_nil_r in Hu. rewrite <- Hu in H3.
  destruct (H3 p q Hpq Hq) as (e & He & Hee). exists e. unfold step_with. rewrite He. auto.
Qed.

Lemma reader_torn {A} (r : rd A) enc a p q :
  good r -> (forall rest, r (enc ++ rest) = inl (a, rest)) ->
  enc = p ++ q -> q <> [] -> exists e, r p = inr e /\ eofish e.
Proof.
  intros Hg Hr Hpq Hq. specialize (Hr []). destruct (Hg _ _ _ Hr) as (u & Hu & _ & H3).
  rewrite !app_nil_r in Hu. rewrite <- Hu in H3. exact (H3 p q Hpq Hq).
Qed.

Lemma pq_loop_torn (r : rd pqenc) : good r -> forall xs pq p q,
  (forall x rest, In x xs -> r (enc_pqenc x ++ rest) = inl (x, rest)) ->
  flat_map enc_pqenc xs = p ++ q -> q <> [] ->
  exists pq' e, pq_encoders_loop (length xs) r pq p = (pq', inr e) /\ eofish e.
Proof.
  intros Hg. induction xs as [|x xs IH]; intros pq p q Hr Hpq Hq.
  - cbn in Hpq. symmetry in Hpq. apply app_eq_nil in Hpq as [_ ->]. congruence.
  - cbn [length pq_encoders_loop]. cbn [flat_map] in Hpq.
    destruct (app_split _ _ _ _ Hpq) as [(q1 & Hp & Hq1 & _)|(p2 & -> & Hp2)].
    + destruct (reader_torn r (enc_pqenc x) x p q1 Hg) as (e & -> & He); auto.
      { intros; apply Hr; now left. }
      eauto.
    + rewrite Hr by (now left). apply (IH _ _ q); auto.
      intros; apply Hr; now right.
Qed.

Lemma step_with_torn' {A} st (r : rd A) f c enc a p q :
  good r -> (forall rest, r (enc ++ rest) = inl (a, rest)) ->
  enc = p ++ q -> q <> [] ->
  exists st' e, step_with st r f c p = StErr st' e /\ eofish e /\ st' = st.
Proof.
  intros Hg Hr Hpq Hq. destruct (step_with_torn st r f c enc a p q Hg Hr Hpq Hq) as (e & He & Hee).
  exists st, e. auto.
Qed.

Ltac pick_step :=
  unfold step; cbn [N.eqb ct_add_node ct_set_ep ct_add_link ct_add_links ct_replace_links
    ct_add_tomb ct_remove_tomb ct_clear_links ct_clear_links_at ct_delete_node ct_reset
    ct_add_pq Pos.eqb].

Lemma step_torn keep o : op_ok o -> forall p q st, body_of o = p ++ q -> q <> [] ->
  exists st' e, step keep (ct_of o) st p = StErr st' e /\ eofish e /\ torn o st st'.
Proof.
  intros Hok p q st Hpq Hq.
  destruct o as [id l|id l|id l t|id l ts|id|id|id|id| |id l|id l ts|pq];
    cbn [op_ok] in Hok; cbn [ct_of body_of] in *; cbn [torn]; pick_step.
  - destruct Hok. eapply step_with_torn' with (a := (id, l));
      [apply good_id_level| |exact Hpq|exact Hq].
    intros. rewrite <- app_assoc. now apply rd_id_level_enc.
  - destruct Hok. destruct (reader_torn rd_id_level (le_enc 8 id ++ le_enc 2 l) (id, l) p q good_id_level)
      as (e & -> & He); auto.
    { intros. rewrite <- app_assoc. now apply rd_id_level_enc. }
    eauto.
  - destruct Hok as (? & ? & ?). eapply step_with_torn' with (a := (id, l, t));
      [apply good_link| |exact Hpq|exact Hq].
    intros rest. rewrite <- !app_assoc. now apply rd_link_enc.
  - destruct Hok as (? & ? & ? & ?). eapply step_with_torn' with (a := (id, l, ts));
      [apply good_links| |exact Hpq|exact Hq].
    intros rest. assert (Hmin : Nat.min (length ts) (N.to_nat 65535) = length ts) by lia.
    cbv zeta. rewrite Hmin, firstn_all, <- !app_assoc. apply rd_links_header; auto; lia.
  - eapply step_with_torn' with (a := id); [apply good_u64| |exact Hpq|exact Hq].
    intros. now apply read_u64_enc.
  - eapply step_with_torn' with (a := id); [apply good_u64| |exact Hpq|exact Hq].
    intros. now apply read_u64_enc.
  - eapply step_with_torn' with (a := id); [apply good_u64| |exact Hpq|exact Hq].
    intros. now apply read_u64_enc.
  - eapply step_with_torn' with (a := id); [apply good_u64| |exact Hpq|exact Hq].
    intros. now apply read_u64_enc.
  - exfalso. symmetry in Hpq. apply app_eq_nil in Hpq as [_ ->]. congruence.
  - destruct Hok. eapply step_with_torn' with (a := (id, l));
      [apply good_id_level| |exact Hpq|exact Hq].
    intros. rewrite <- app_assoc. now apply rd_id_level_enc.
  - destruct Hok as (? & ? & ? & ?). eapply step_with_torn' with (a := (id, l, ts));
      [apply good_links| |exact Hpq|exact Hq].
    intros rest. rewrite <- !app_assoc. apply rd_links_header; auto; lia.
  - destruct (app_split _ _ _ _ Hpq) as [(q1 & Hp & Hq1 & _)|(p2 & -> & Hp2)].
    + destruct (reader_torn rd_pq_header (enc_pq_header pq) (pq_head pq) p q1 good_pq_header)
        as (e & He & Hee); auto.
      { intros. now apply rd_pq_header_enc. }
      exists st, e. unfold step_pq. rewrite He. split; [reflexivity|]. split; [exact Hee|].
      exists (ls_pq st). apply with_pq_same.
    + rewrite step_pq_eq by exact Hok.
      pose proof Hok as (_ & _ & _ & _ & _ & Hlen & _). rewrite <- Hlen.
      destruct (pq_loop_torn (pq_reader pq) (good_pq_reader pq) (pq_encoders pq) (pq_head pq) p2 q)
        as (pq' & e & -> & He); auto.
      { intros. now apply pq_reader_enc. }
      eexists. exists e. split; [reflexivity|]. split; [exact He|]. eauto.
Qed.
