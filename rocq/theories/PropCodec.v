(** Properties C01-C04: identifiers, keys and tokens. *)
From Verif Require Import Base Codec CodecProofs.

(** C01. *)
Theorem C01_event_id_determines_position : forall h s,
  h < 2 ^ 50 -> s < 2 ^ 14 -> extract_height_and_seq (make_event_id h s) = (h, s).
Proof. exact event_id_roundtrip. Qed.

Theorem C01_event_id_order : forall h1 s1 h2 s2,
  h1 < 2 ^ 50 -> h2 < 2 ^ 50 -> s1 < 2 ^ 14 -> s2 < 2 ^ 14 ->
  (make_event_id h1 s1 < make_event_id h2 s2 <-> h1 < h2 \/ (h1 = h2 /\ s1 < s2)).
Proof. exact event_id_lt. Qed.

(** The feed iterates over keys in byte order; that is id order. *)
Theorem C01_feed_order : forall i j, i < 2 ^ 64 -> j < 2 ^ 64 ->
  blt (make_event_key i) (make_event_key j) = (i <? j).
Proof. exact event_key_order. Qed.

(** All the ids handed out in one block (for any sequence of events): those of ordinary events strictly increase,
    lie after the block's confirmation id and before every id of a later block; the confirmation event has
    position 0. *)
Theorem C01_block_ids : forall h evs,
  let ids := generate_ids (set_current_height h) evs in
  StronglySorted N.lt (normal_ids ids) /\
  Forall (fun i => make_event_id h 0 < i /\ i < make_event_id h 0 + 2 ^ 14) (normal_ids ids) /\
  Forall (fun i => extract_height_and_seq i = (h, 0)) (confirmed_ids ids).
Proof.
  intros h evs ids. destruct (generate_ids_spec evs h 0) as (H1 & H2 & H3). split_and!.
  - exact H1.
  - eapply Forall_impl; [exact H2|]. cbn. intros x. lia.
  - eapply Forall_impl; [exact H3|]. cbn. intros x [Hh ->]. by apply event_id_roundtrip.
Qed.

(** Ids of different blocks never coincide and follow block order. *)
Theorem C01_blocks_disjoint : forall h1 h2 evs1 evs2 i j, h1 < h2 -> h2 < 2 ^ 50 ->
  In i (normal_ids (generate_ids (set_current_height h1) evs1) ++ confirmed_ids (generate_ids (set_current_height h1) evs1)) ->
  In j (normal_ids (generate_ids (set_current_height h2) evs2) ++ confirmed_ids (generate_ids (set_current_height h2) evs2)) ->
  i < j.
Proof.
  intros h1 h2 evs1 evs2 i j H12 H2 Hi Hj.
  assert (forall h evs k, h < 2 ^ 50 ->
    In k (normal_ids (generate_ids (set_current_height h) evs) ++ confirmed_ids (generate_ids (set_current_height h) evs)) ->
    h * 2 ^ 14 <= k /\ k < (h + 1) * 2 ^ 14) as Hr.
  { clear. intros h evs k Hh Hk. destruct (generate_ids_spec evs h 0) as (_ & H2 & H3).
    rewrite make_event_id_eq, N.mod_0_l in H2, H3 by done.
    apply in_app_or in Hk as [Hk|Hk].
    - rewrite Forall_forall in H2. apply elem_of_list_In in Hk. specialize (H2 _ Hk). cbn in H2. lia.
    - rewrite Forall_forall in H3. apply elem_of_list_In in Hk. specialize (H3 _ Hk). cbn in H3. lia. }
  pose proof (Hr h1 evs1 i ltac:(lia) Hi). pose proof (Hr h2 evs2 j H2 Hj). lia.
Qed.

Example C01_ex : generate_ids (set_current_height 7) [false; true; false] =
  [(false, Ok (7 * 16384 + 1)); (true, Ok (7 * 16384)); (false, Ok (7 * 16384 + 2))].
Proof. vm_compute. done. Qed.

(** C02. *)
Theorem C02_message_key_unique : forall f1 s1 ts1 h1 f2 s2 ts2 h2 t1 t2,
  f1 < 2 ^ 32 -> f2 < 2 ^ 32 -> ts1 < 2 ^ 32 -> ts2 < 2 ^ 32 ->
  make_ts_hash ts1 h1 = Some t1 -> make_ts_hash ts2 h2 = Some t2 ->
  make_message_primary_key f1 s1 (Some t1) = make_message_primary_key f2 s2 (Some t2) ->
  f1 = f2 /\ s1 = s2 /\ ts1 = ts2 /\ h1 = h2.
Proof.
  intros f1 s1 ts1 h1 f2 s2 ts2 h2 t1 t2 ? ? ? ? E1 E2 E. apply primary_key_inj in E as (-> & -> & E); [|done..].
  cbn in E. subst t2. destruct (ts_hash_inj ts1 h1 ts2 h2 t1) as [-> ->]; auto.
Qed.

(** The scan of (account, set) sees the rows of that account and set and nothing else. *)
Theorem C02_scan_isolated : forall f1 s1 f2 s2 t,
  f1 < 2 ^ 32 -> f2 < 2 ^ 32 -> s2 < 256 -> bytes_ok (default [] t) = true ->
  (in_prefix_scan (make_message_primary_key f1 s1 None) (make_message_primary_key f2 s2 t) = true
   <-> f1 = f2 /\ s1 = s2).
Proof. exact user_prefix_scan. Qed.

(** Any prefix scan (prefix not all 255) sees exactly the keys with that prefix, among keys at least as long. *)
Theorem C02_prefix_scan_exact : forall p k, bytes_ok k = true -> Exists (fun x => x <> 255) p ->
  (length p <= length k)%nat -> in_prefix_scan p k = is_prefix p k.
Proof. exact in_prefix_scan_spec. Qed.

(** Without the length condition it is false: a shorter key can fall into the range. *)
Theorem C02_prefix_scan_short_key_refuted :
  exists p k, bytes_ok k = true /\ in_prefix_scan p k = true /\ is_prefix p k = false.
Proof. exists [3; 255], [4]. by vm_compute. Qed.

(** An all-255 prefix wraps: the scan is empty instead of covering the prefix. *)
Theorem C02_prefix_scan_all255_refuted :
  exists p k, bytes_ok k = true /\ is_prefix p k = true /\ in_prefix_scan p k = false.
Proof. exists [255], [255; 1]. by vm_compute. Qed.

Theorem C02_scan_order : forall f s ts1 h1 ts2 h2 t1 t2,
  ts1 < 2 ^ 32 -> ts2 < 2 ^ 32 -> make_ts_hash ts1 h1 = Some t1 -> make_ts_hash ts2 h2 = Some t2 ->
  (blt (make_message_primary_key f s (Some t1)) (make_message_primary_key f s (Some t2)) = true
   <-> ts1 < ts2 \/ (ts1 = ts2 /\ blt h1 h2 = true)).
Proof.
  intros f s ts1 h1 ts2 h2 t1 t2 ? ? E1 E2. rewrite <- (ts_hash_order ts1 h1 ts2 h2 t1 t2) by done.
  unfold make_message_primary_key, blt. rewrite lex_app_l. change [s] with ([] ++ [s]). cbn [app].
  cbn [lex]. by rewrite N.compare_refl.
Qed.

(** Account numbers are 64-bit in the API but 32-bit on disk: keys of two accounts that agree modulo 2^32 collide. *)
Theorem C02_wide_fid_refuted : exists f1 f2 s t, f1 < 2 ^ 64 /\ f2 < 2 ^ 64 /\ f1 <> f2 /\
  make_message_primary_key f1 s t = make_message_primary_key f2 s t.
Proof. exists 5, (5 + 2 ^ 32), 1, None. by vm_compute. Qed.

Example C02_ex : exists t1 t2, make_ts_hash 10 (repeat 1 20) = Some t1 /\ make_ts_hash 11 (repeat 0 20) = Some t2 /\
  blt (make_message_primary_key 3 1 (Some t1)) (make_message_primary_key 3 1 (Some t2)) = true.
Proof. do 2 eexists. split; [|split]; [vm_compute; reflexivity..|]. by vm_compute. Qed.

(** C03. *)
Theorem C03_trie_key_unique : forall sha4 i j, item_ok i = true -> item_ok j = true ->
  trie_item_key sha4 i = trie_item_key sha4 j -> i = j.
Proof. exact item_key_inj. Qed.

(** No trie key is a prefix of another (the trie cannot store such keys). *)
Theorem C03_trie_key_prefix_free : forall sha4 i j, item_ok i = true -> item_ok j = true ->
  is_prefix (expand_nibbles (trie_item_key sha4 i)) (expand_nibbles (trie_item_key sha4 j)) = true -> i = j.
Proof.
  intros sha4 i j Hi Hj. assert (Hok : forall i, item_ok i = true -> bytes_ok (trie_item_key sha4 i) = true).
  { clear. intros i Hi. rewrite item_key_eq by done. rewrite bytes_ok_app.
    unfold for_fid, make_fid_key. cbn [bytes_ok forallb]. change (forallb _ (be 4 ?x)) with (bytes_ok (be 4 x)).
    rewrite be_ok. change (forallb _ (item_rest i)) with (bytes_ok (item_rest i)).
    unfold fid_shard. rewrite (proj2 (N.ltb_lt _ _)) by (apply N.mod_lt; lia). cbn [andb].
    destruct i; cbn [item_ok item_rest item_tybyte] in *;
      repeat match goal with H : _ && _ = true |- _ => apply andb_prop in H as [? ?] end;
      repeat match goal with H : (_ <? _) = true |- _ => apply N.ltb_lt in H end;
      rewrite ?bytes_ok_app, ?be_ok, ?andb_true_r.
    - rewrite (proj2 (N.ltb_lt _ _)) by lia. done.
    - rewrite (proj2 (N.ltb_lt _ _)) by lia. done.
    - cbn. match goal with H : bytes_ok _ = true |- _ => rewrite H end. cbn.
      generalize (20 - length name)%nat as n. induction n; cbn; auto. }
  rewrite expand_prefix by auto. apply item_key_prefix_eq; done.
Qed.

Theorem C03_trie_key_decode : forall sha4 i, item_ok i = true ->
  exists d, trie_decode (trie_item_key sha4 i) = Some d /\ dk_fid d = item_fid i /\
    match i with
    | TMessage _ t h => dk_message d = Some t /\ dk_onchain d = None /\ dk_rest d = h
    | TOnchain _ t tx li => dk_message d = None /\ dk_onchain d = Some t /\ dk_rest d = tx ++ be 4 li
    | TFname _ n => dk_message d = None /\ dk_onchain d = Some 7 /\ dk_rest d = n ++ repeat 0 (20 - length n)
    end.
Proof. intros sha4 i Hi. eexists. split; [by apply trie_decode_key|]. by destruct i. Qed.

Theorem C03_nibbles : forall b, bytes_ok b = true -> combine_nibbles (expand_nibbles b) = Some b.
Proof. exact combine_expand. Qed.

(** A message type of 32 or more (not defined today) would collide with a reserved one. *)
Theorem C03_wide_type_refuted : exists sha4 t1 t2 fid, t1 < 256 /\ t2 < 256 /\ t1 <> t2 /\
  for_message_type sha4 fid t1 = for_message_type sha4 fid t2.
Proof. exists (fun _ => 0), 1, 33, 5. by vm_compute. Qed.

Example C03_ex : item_ok (TMessage 1234 5 (repeat 9 20)) = true /\ item_ok (TFname 1234 [97; 98]) = true /\
  item_ok (TOnchain 1234 3 (repeat 1 32) 7) = true.
Proof. by vm_compute. Qed.

(** C04. *)
Theorem C04_page_token_roundtrip : forall t, t <> [] ->
  N.of_nat (length t) < 2 ^ 32 -> Forall (fun s : bytes => N.of_nat (length s) < 2 ^ 32) t ->
  decode_page_token (encode_page_token (Some t)) = Ok (Some t).
Proof. intros t ? ? ?. by apply page_token_roundtrip. Qed.

Theorem C04_page_token_canonical : forall b t, bytes_ok b = true ->
  decode_page_token (Some b) = Ok (Some t) -> encode_page_token (Some t) = Some b.
Proof. exact page_token_canonical. Qed.

Example C04_ex : decode_page_token (encode_page_token (Some [[1; 2; 3]; []; [255]])) = Ok (Some [[1; 2; 3]; []; [255]])
  /\ decode_page_token (Some [0; 0; 0; 1; 0; 0; 0; 2; 7]) = Err EofSegment.
Proof. by vm_compute. Qed.

(** util.rs:33-57: the increment is the successor of the big-endian number, all bytes 0xff included
    (the result then has one more byte and sorts before its argument, so such a prefix has no upper bound). *)
Fixpoint le_dec (b : bytes) : N := match b with [] => 0 | x :: r => x + 256 * le_dec r end.
Lemma be_le b : be_dec b = le_dec (reverse b).
Proof.
  unfold be_dec. induction b as [|x b IH] using rev_ind; [done|].
  rewrite be_dec_acc_app, reverse_snoc. cbn [be_dec_acc le_dec]. rewrite IH. lia.
Qed.
Lemma le_dec_app a b : le_dec (a ++ b) = le_dec a + 256 ^ N.of_nat (length a) * le_dec b.
Proof.
  induction a as [|x a IH]; [cbn [app le_dec length]; change (256 ^ N.of_nat 0) with 1; lia|]. cbn [app le_dec length].
  rewrite IH, Nat2N.inj_succ, N.pow_succ_r'. lia.
Qed.
Theorem C02_increment_value : forall b, be_dec (increment_vec_u8 b) = be_dec b + 1.
Proof.
  intros b. rewrite !be_le. unfold increment_vec_u8.
  assert (H : forall q, let '(r, c) := incr_le q in
    length r = length q /\ le_dec r + (if c then 256 ^ N.of_nat (length q) else 0) = le_dec q + 1).
  { induction q as [|x q IH]; [done|]. cbn [incr_le]. destruct (N.eqb_spec x 255) as [->|Hx].
    - destruct (incr_le q) as [r c]. destruct IH as [H1 H2]. split; [cbn; by rewrite H1|]. cbn [le_dec length].
      rewrite Nat2N.inj_succ, N.pow_succ_r'. destruct c; lia.
    - split; [done|]. cbn [le_dec]. lia. }
  specialize (H (reverse b)). destruct (incr_le (reverse b)) as [r c]. destruct H as [H1 H2]. rewrite <- H2, <- H1.
  destruct c.
  - rewrite reverse_cons, reverse_involutive, le_dec_app. cbn [le_dec]. lia.
  - rewrite reverse_involutive. lia.
Qed.
Example C02_increment_ex : increment_vec_u8 [1; 255] = [2; 0] /\ increment_vec_u8 [255; 255] = [1; 0; 0].
Proof. by vm_compute. Qed.

Print Assumptions C01_event_id_determines_position.
Print Assumptions C01_event_id_order.
Print Assumptions C01_feed_order.
Print Assumptions C01_block_ids.
Print Assumptions C01_blocks_disjoint.
Print Assumptions C02_message_key_unique.
Print Assumptions C02_scan_isolated.
Print Assumptions C02_prefix_scan_exact.
Print Assumptions C02_scan_order.
Print Assumptions C03_trie_key_unique.
Print Assumptions C03_trie_key_prefix_free.
Print Assumptions C03_trie_key_decode.
Print Assumptions C03_nibbles.
Print Assumptions C04_page_token_roundtrip.
Print Assumptions C04_page_token_canonical.
Print Assumptions C02_increment_value.
