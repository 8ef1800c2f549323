(** Proofs about the codecs of Codec.v. *)
From Verif Require Import Base Codec.
From Coq Require Import ZifyN ZifyNat ZifyBool.
Ltac Zify.zify_post_hook ::= Z.div_mod_to_equations.

(** ** Event ids *)

Lemma land_ones_mod s k : N.land s (2 ^ k - 1) = s mod 2 ^ k.
Proof. rewrite <- N.land_ones. f_equal. rewrite N.ones_equiv. lia. Qed.

Lemma lor_disjoint_add a b k : b < 2 ^ k -> N.lor (a * 2 ^ k) b = a * 2 ^ k + b.
Proof.
  intros Hb. rewrite <- N.lxor_lor, <- N.add_nocarry_lxor; [done| |].
  all: apply N.bits_inj_0; intros n; rewrite N.land_spec;
    destruct (N.lt_ge_cases n k) as [H|H];
    [rewrite N.mul_pow2_bits_low by done; done
    |rewrite <- (N.mod_small b (2 ^ k)), N.mod_pow2_bits_high by done; apply andb_false_r].
Qed.

Lemma make_event_id_eq h s : h < 2 ^ 50 -> make_event_id h s = h * 2 ^ 14 + s mod 2 ^ 14.
Proof.
  intros Hh. unfold make_event_id, SEQUENCE_BITS. rewrite land_ones_mod, N.shiftl_mul_pow2.
  rewrite (N.mod_small (h * 2 ^ 14)) by lia.
  apply lor_disjoint_add. apply N.mod_lt; lia.
Qed.

Lemma extract_eq id : extract_height_and_seq id = (id / 2 ^ 14, id mod 2 ^ 14).
Proof. unfold extract_height_and_seq, SEQUENCE_BITS. by rewrite land_ones_mod, N.shiftr_div_pow2. Qed.

Lemma event_id_roundtrip h s : h < 2 ^ 50 -> s < 2 ^ 14 -> extract_height_and_seq (make_event_id h s) = (h, s).
Proof.
  intros Hh Hs. rewrite extract_eq, make_event_id_eq, (N.mod_small s) by done.
  rewrite N.div_add_l, N.div_small, N.add_0_r by lia.
  rewrite N.add_comm, N.mod_add, N.mod_small by lia. done.
Qed.

Lemma event_id_lt h1 s1 h2 s2 : h1 < 2 ^ 50 -> h2 < 2 ^ 50 -> s1 < 2 ^ 14 -> s2 < 2 ^ 14 ->
  make_event_id h1 s1 < make_event_id h2 s2 <-> h1 < h2 \/ (h1 = h2 /\ s1 < s2).
Proof. intros. rewrite !make_event_id_eq, !N.mod_small by done. lia. Qed.

Lemma event_id_bound h s : h < 2 ^ 50 -> make_event_id h s < 2 ^ 64.
Proof. intros. rewrite make_event_id_eq by done. pose proof (N.mod_lt s (2 ^ 14)). lia. Qed.

Lemma event_key_order i j : i < 2 ^ 64 -> j < 2 ^ 64 ->
  blt (make_event_key i) (make_event_key j) = (i <? j).
Proof.
  intros Hi Hj. unfold blt, make_event_key. cbn [lex]. rewrite N.compare_refl, be_lex by done.
  destruct (N.compare_spec i j); symmetry; [apply N.ltb_ge|apply N.ltb_lt|apply N.ltb_ge]; lia.
Qed.

(** Ids of the non-confirmation events of one block: strictly increasing, inside the block's range. *)
Fixpoint normal_ids (l : list (bool * res ig_err N)) : list N :=
  match l with
  | [] => []
  | (false, Ok i) :: r => i :: normal_ids r
  | _ :: r => normal_ids r
  end.
Fixpoint confirmed_ids (l : list (bool * res ig_err N)) : list N :=
  match l with
  | [] => []
  | (true, Ok i) :: r => i :: confirmed_ids r
  | _ :: r => confirmed_ids r
  end.

Lemma generate_ids_err g evs : 2 ^ 50 <= ig_height g \/ 2 ^ 14 <= ig_seq g ->
  normal_ids (generate_ids g evs) = [] /\ confirmed_ids (generate_ids g evs) = [].
Proof.
  intros H. induction evs as [|c r IH]; [done|].
  cbn [generate_ids]. unfold generate_id, HEIGHT_BITS, SEQUENCE_BITS.
  destruct (N.leb_spec (2 ^ 50) (ig_height g)).
  - by destruct c.
  - destruct (N.leb_spec (2 ^ 14) (ig_seq g)); [by destruct c|lia].
Qed.

Lemma generate_ids_spec evs h s :
  StronglySorted N.lt (normal_ids (generate_ids {| ig_height := h; ig_seq := s |} evs)) /\
  Forall (fun i => h < 2 ^ 50 /\ make_event_id h 0 + N.max 1 s <= i /\ i < make_event_id h 0 + 2 ^ 14)
    (normal_ids (generate_ids {| ig_height := h; ig_seq := s |} evs)) /\
  Forall (fun i => h < 2 ^ 50 /\ i = make_event_id h 0) (confirmed_ids (generate_ids {| ig_height := h; ig_seq := s |} evs)).
Proof.
  revert s; induction evs as [|c r IH]; intros s; [cbn; auto using SSorted_nil|].
  destruct (N.le_gt_cases (2 ^ 50) h) as [Hh|Hh].
  { destruct (generate_ids_err {| ig_height := h; ig_seq := s |} (c :: r)) as [-> ->]; [by left|].
    auto using SSorted_nil. }
  destruct (N.le_gt_cases (2 ^ 14) s) as [Hs|Hs].
  { destruct (generate_ids_err {| ig_height := h; ig_seq := s |} (c :: r)) as [-> ->]; [by right|].
    auto using SSorted_nil. }
  cbn [generate_ids]. unfold generate_id, HEIGHT_BITS, SEQUENCE_BITS. cbn [ig_height ig_seq].
  rewrite (proj2 (N.leb_gt _ _) Hh), (proj2 (N.leb_gt _ _) Hs).
  destruct c.
  - destruct (IH s) as (I1 & I2 & I3). cbn [normal_ids confirmed_ids]. split_and!; auto.
  - set (s' := if s =? 0 then 1 else s).
    assert (Hs' : s' = N.max 1 s) by (unfold s'; destruct (N.eqb_spec s 0); lia).
    destruct (IH (s' + 1)) as (I1 & I2 & I3). cbn [normal_ids confirmed_ids].
    pose proof (make_event_id_eq h 0 Hh) as E0. pose proof (make_event_id_eq h s' Hh) as E1.
    rewrite N.mod_0_l in E0 by lia. rewrite (N.mod_small s') in E1 by lia.
    split_and!.
    + constructor; [done|]. eapply Forall_impl; [exact I2|]. cbn. intros x. lia.
    + constructor; [lia|]. eapply Forall_impl; [exact I2|]. cbn. intros x. lia.
    + exact I3.
Qed.

(** ** Fid and message keys *)

Lemma ts_hash_len ts h t : make_ts_hash ts h = Some t -> length t = 24%nat.
Proof.
  unfold make_ts_hash. destruct (Nat.eqb_spec (length h) 20) as [E|]; [|done]. intros <-%(inj Some).
  by rewrite app_length, be_length, E.
Qed.

Lemma primary_key_inj f1 s1 t1 f2 s2 t2 : f1 < 2 ^ 32 -> f2 < 2 ^ 32 ->
  make_message_primary_key f1 s1 t1 = make_message_primary_key f2 s2 t2 ->
  f1 = f2 /\ s1 = s2 /\ default [] t1 = default [] t2.
Proof.
  intros H1 H2. unfold make_message_primary_key, make_user_key, make_fid_key. cbn [app].
  intros E%(inj (cons RP_User)). apply app_inj_len in E as [E1 E2]; [|by rewrite !be_length].
  apply be_inj in E1; [|done..]. injection E2 as -> E2. split_and!; [done..|].
  by destruct t1, t2.
Qed.

Lemma ts_hash_inj ts1 h1 ts2 h2 t : ts1 < 2 ^ 32 -> ts2 < 2 ^ 32 ->
  make_ts_hash ts1 h1 = Some t -> make_ts_hash ts2 h2 = Some t -> ts1 = ts2 /\ h1 = h2.
Proof.
  intros H1 H2. unfold make_ts_hash. repeat case_match; try done. intros <-%(inj Some) E%(inj Some).
  apply app_inj_len in E as [E1 E2]; [|by rewrite !be_length]. apply be_inj in E1; auto.
Qed.

Lemma ts_hash_order ts1 h1 ts2 h2 t1 t2 : ts1 < 2 ^ 32 -> ts2 < 2 ^ 32 ->
  make_ts_hash ts1 h1 = Some t1 -> make_ts_hash ts2 h2 = Some t2 ->
  blt t1 t2 = true <-> ts1 < ts2 \/ (ts1 = ts2 /\ blt h1 h2 = true).
Proof.
  intros H1 H2. unfold make_ts_hash. repeat case_match; try done. intros <-%(inj Some) <-%(inj Some).
  rewrite !blt_lex, lex_app by (by rewrite !be_length). rewrite be_lex by done.
  destruct (N.compare_spec ts1 ts2); split; intros; try tauto; try lia; try done; intuition (try done; lia).
Qed.

Lemma unpack_ts_hash_ok ts h t : ts < 2 ^ 32 -> make_ts_hash ts h = Some t -> unpack_ts_hash t = (ts, h).
Proof.
  intros H1. unfold make_ts_hash. repeat case_match; try done. intros <-%(inj Some). unfold unpack_ts_hash.
  rewrite take_app_alt, drop_app_alt by (by rewrite be_length). by rewrite be_dec_be.
Qed.

(** ** Prefix scans *)

Lemma incr_le_len b : length (fst (incr_le b)) = length b.
Proof.
  induction b as [|x r IH]; cbn; [done|]. destruct (x =? 255); [|done].
  destruct (incr_le r) as [r' c]. cbn in *. by rewrite IH.
Qed.

Lemma incr_snoc p x : x <> 255 -> increment_vec_u8 (p ++ [x]) = p ++ [x + 1].
Proof.
  intros H. unfold increment_vec_u8. rewrite reverse_snoc. cbn [incr_le].
  rewrite (proj2 (N.eqb_neq _ _) H). rewrite reverse_cons, reverse_involutive. done.
Qed.

Lemma incr_snoc255 p : length p <> 0%nat -> Exists (fun x => x <> 255) p ->
  increment_vec_u8 (p ++ [255]) = increment_vec_u8 p ++ [0].
Proof.
  intros _ Hex. unfold increment_vec_u8. rewrite reverse_snoc. cbn [incr_le]. rewrite N.eqb_refl.
  destruct (incr_le (reverse p)) as [r c] eqn:E.
  assert (c = false) as ->.
  { apply Exists_exists in Hex as (x & Hx & Hne).
    assert (Hin : x ∈ reverse p) by (by apply elem_of_reverse).
    clear Hx. revert r c E Hin. generalize (reverse p) as q. intros q.
    induction q as [|y q IH]; intros r c E Hin; [by apply elem_of_nil in Hin|].
    cbn in E. destruct (N.eqb_spec y 255) as [->|Hy].
    - destruct (incr_le q) as [r' c'] eqn:E'. injection E as <- <-.
      apply elem_of_cons in Hin as [->|Hin]; [done|]. by eapply IH.
    - by injection E as <- <-. }
  by rewrite reverse_cons.
Qed.

Lemma repeat_snoc {A} (a : A) n : repeat a n ++ [a] = a :: repeat a n.
Proof. induction n; cbn; [done|]. by f_equal. Qed.

Lemma zeros_least k n : (n <= length k)%nat -> blt k (repeat 0 n) = false.
Proof.
  unfold blt. revert k; induction n as [|n IH]; intros k Hn.
  - by destruct k.
  - destruct k as [|w k]; cbn in Hn; [lia|]. cbn [repeat lex].
    destruct (N.compare_spec w 0) as [->|?|?]; [|lia|done]. apply IH. lia.
Qed.

(** For a prefix that is not all 255s, a prefix scan selects exactly the (valid, long enough) keys that start
    with it. *)
Lemma in_prefix_scan_spec p k : bytes_ok k = true -> Exists (fun x => x <> 255) p ->
  (length p <= length k)%nat ->
  in_prefix_scan p k = is_prefix p k.
Proof.
  intros Hk Hex Hlen.
  (* write p = q ++ [x] ++ repeat 255 n with x <> 255 *)
  assert (exists q x n, p = q ++ [x] ++ repeat 255 n /\ x <> 255) as (q & x & n & -> & Hx).
  { clear Hk Hlen. induction p as [|y p IH] using rev_ind; [by apply Exists_nil in Hex|].
    destruct (decide (y = 255)) as [->|Hy].
    - apply Exists_app in Hex as [Hex|Hex].
      2:{ apply Exists_cons in Hex as [?|Hn]; [done|by apply Exists_nil in Hn]. }
      destruct (IH Hex) as (q & x & n & -> & Hx). exists q, x, (S n). split; [|done].
      rewrite <- !app_assoc. do 2 f_equal. apply repeat_snoc.
    - exists p, y, 0%nat. done. }
  assert (Hinc : increment_vec_u8 (q ++ [x] ++ repeat 255 n) = q ++ [x + 1] ++ repeat 0 n).
  { clear Hk Hex Hlen. induction n as [|n IHn].
    - cbn. by apply incr_snoc.
    - replace (q ++ [x] ++ repeat 255 (S n)) with ((q ++ [x] ++ repeat 255 n) ++ [255]).
      2:{ rewrite <- !app_assoc. do 2 f_equal. apply repeat_snoc. }
      rewrite incr_snoc255, IHn.
      + rewrite <- !app_assoc. do 2 f_equal. apply repeat_snoc.
      + rewrite app_length. cbn. lia.
      + apply Exists_app. right. by left. }
  unfold in_prefix_scan. rewrite Hinc. clear Hinc Hex.
  revert k Hk Hlen. induction q as [|y q IH]; intros k Hk Hlen.
  - cbn [app] in *. destruct k as [|z k]; [done|].
    cbn in Hk. apply andb_prop in Hk as [Hz Hk]. apply N.ltb_lt in Hz.
    cbn [length] in Hlen. rewrite repeat_length in Hlen.
    cbn [is_prefix]. unfold ble, blt. cbn [lex].
    destruct (N.eqb_spec x z) as [->|Hne]; cbn [andb].
    + rewrite N.compare_refl. rewrite (proj2 (N.compare_lt_iff z (z + 1))) by lia. rewrite andb_true_r.
      clear Hz Hx. assert (Hn : (n <= length k)%nat) by lia. clear Hlen.
      revert k Hk Hn. induction n as [|n IHn]; intros k Hk Hn; cbn [repeat lex is_prefix].
      { by destruct k. }
      destruct k as [|w k]; [done|]. cbn in Hk, Hn. apply andb_prop in Hk as [Hw Hk]. apply N.ltb_lt in Hw.
      cbn [lex is_prefix]. destruct (N.compare_spec 255 w) as [<-|?|?]; [|lia|].
      * rewrite N.eqb_refl. cbn [andb]. apply IHn; [done|lia].
      * rewrite (proj2 (N.eqb_neq 255 w)) by lia. done.
    + destruct (N.compare_spec x z) as [?|Hlt|Hlt]; [done| |done].
      cbn [andb]. destruct (N.compare_spec z (x + 1)) as [->|?|?]; [|lia|done].
      apply zeros_least. lia.
  - destruct k as [|z k]; [done|]. cbn in Hk. apply andb_prop in Hk as [Hz Hk].
    cbn [app length] in Hlen. cbn [app is_prefix]. unfold ble, blt. cbn [lex].
    rewrite (N.compare_antisym y z).
    destruct (N.compare_spec y z) as [->|?|?]; cbn [CompOpp andb].
    + rewrite N.eqb_refl. apply IH; [done|]. apply le_S_n; exact Hlen.
    + by rewrite (proj2 (N.eqb_neq y z)) by lia.
    + by rewrite (proj2 (N.eqb_neq y z)) by lia.
Qed.

Lemma user_prefix_scan f1 s1 f2 s2 t : f1 < 2 ^ 32 -> f2 < 2 ^ 32 -> s2 < 256 ->
  bytes_ok (default [] t) = true ->
  in_prefix_scan (make_message_primary_key f1 s1 None) (make_message_primary_key f2 s2 t) = true <-> f1 = f2 /\ s1 = s2.
Proof.
  intros H1 H2 H3 Ht. rewrite in_prefix_scan_spec.
  - rewrite is_prefix_spec. split.
    + intros [r E]. unfold make_message_primary_key, make_user_key, make_fid_key in E. cbn [app] in E.
      apply cons_inj in E as [_ E]. rewrite <- app_assoc in E. apply app_inj_len in E as [E1 E2]; [|by rewrite !be_length].
      apply be_inj in E1; [|done..]. cbn in E2. injection E2 as -> _. done.
    + intros [-> ->]. exists (default [] t). unfold make_message_primary_key.
      rewrite <- !app_assoc. by destruct t.
  - unfold make_message_primary_key, make_user_key, make_fid_key. rewrite !bytes_ok_app.
    change (bytes_ok (RP_User :: be 4 f2)) with (true && bytes_ok (be 4 f2)). rewrite be_ok. cbn.
    rewrite (proj2 (N.ltb_lt _ _) H3). cbn. by destruct t.
  - by left.
  - unfold make_message_primary_key, make_user_key, make_fid_key. rewrite !app_length. cbn [length].
    rewrite !be_length. lia.
Qed.

(** ** Nibbles *)

Lemma combine_expand b : bytes_ok b = true -> combine_nibbles (expand_nibbles b) = Some b.
Proof.
  induction b as [|x r IH]; cbn [expand_nibbles combine_nibbles]; [done|].
  cbn. intros [Hx Hr]%andb_prop. apply N.ltb_lt in Hx. rewrite IH by done. do 2 f_equal.
  change 15 with (2 ^ 4 - 1). rewrite !land_ones_mod, N.shiftr_div_pow2, N.shiftl_mul_pow2.
  rewrite (N.mod_small (x / 2 ^ 4 * 2 ^ 4)) by lia. rewrite N.mod_mod by done.
  rewrite lor_disjoint_add by (apply N.mod_lt; lia). lia.
Qed.

Lemma expand_inj a b : bytes_ok a = true -> bytes_ok b = true -> expand_nibbles a = expand_nibbles b -> a = b.
Proof. intros Ha Hb E. pose proof (combine_expand a Ha) as H. rewrite E, combine_expand in H by done. congruence. Qed.

Lemma expand_len b : length (expand_nibbles b) = (2 * length b)%nat.
Proof. induction b; cbn; [done|]. lia. Qed.

Lemma expand_nibble_range b : bytes_ok b = true -> Forall (fun x => x < 16) (expand_nibbles b).
Proof.
  induction b as [|x r IH]; cbn; [constructor|]. intros [Hx Hr]%andb_prop. apply N.ltb_lt in Hx.
  constructor; [|constructor; [|auto]].
  - rewrite N.shiftr_div_pow2. apply N.div_lt_upper_bound; lia.
  - change 15 with (2 ^ 4 - 1). rewrite land_ones_mod. apply N.mod_lt; lia.
Qed.

Lemma expand_prefix a b : bytes_ok a = true -> bytes_ok b = true ->
  is_prefix (expand_nibbles a) (expand_nibbles b) = is_prefix a b.
Proof.
  revert b; induction a as [|x a IH]; intros [|y b]; try done.
  cbn -[N.shiftr N.land]. intros [Hx Ha]%andb_prop [Hy Hb]%andb_prop. apply N.ltb_lt in Hx, Hy.
  rewrite IH by done. change 15 with (2 ^ 4 - 1). rewrite !land_ones_mod, !N.shiftr_div_pow2.
  rewrite andb_assoc. f_equal.
  destruct (N.eqb_spec x y) as [->|Hne].
  - by rewrite !N.eqb_refl.
  - destruct (N.eqb_spec (x / 2 ^ 4) (y / 2 ^ 4)) as [E1|]; [|done].
    destruct (N.eqb_spec (x mod 2 ^ 4) (y mod 2 ^ 4)) as [E2|]; [|done].
    exfalso. apply Hne. rewrite (N.div_mod x (2 ^ 4)), (N.div_mod y (2 ^ 4)) by done. by rewrite E1, E2.
Qed.

(** ** Trie keys *)

Section TrieKeys.
  Variable sha4 : bytes -> N.

  (** Items that the engine can produce: 32-bit fids, defined message types with 20-byte hashes, on-chain event
      types 1-6 with 32-byte transaction hashes, names of at most 20 bytes without NUL. *)
  Definition item_ok (i : trie_item) : bool :=
    match i with
    | TMessage fid ty h => (fid <? 2 ^ 32) && (1 <=? ty) && (ty <? 32) && Nat.eqb (length h) 20 && bytes_ok h
    | TOnchain fid ty tx li =>
        (fid <? 2 ^ 32) && (ty <? 7) && Nat.eqb (length tx) 32 && bytes_ok tx && (li <? 2 ^ 32)
    | TFname fid name =>
        (fid <? 2 ^ 32) && Nat.leb (length name) 20 && bytes_ok name && forallb (fun x => negb (x =? 0)) name
    end.

  Lemma for_fid_len fid : length (for_fid sha4 fid) = 5%nat.
  Proof. unfold for_fid, make_fid_key. cbn [length]. by rewrite be_length. Qed.

  Lemma for_fid_inj f1 f2 : f1 < 2 ^ 32 -> f2 < 2 ^ 32 -> for_fid sha4 f1 = for_fid sha4 f2 -> f1 = f2.
  Proof. intros H1 H2 [_ E]%cons_inj. by apply be_inj in E. Qed.

  Lemma type_shift ty : ty < 32 -> N.shiftl ty 3 mod 256 = 8 * ty.
  Proof. intros. rewrite N.shiftl_mul_pow2. change (2 ^ 3) with 8. rewrite N.mod_small; lia. Qed.

  Definition item_fid i := match i with TMessage f _ _ => f | TOnchain f _ _ _ => f | TFname f _ => f end.
  Definition item_tybyte i := match i with TMessage _ t _ => 8 * t | TOnchain _ t _ _ => t | TFname _ _ => 7 end.
  Definition item_rest i :=
    match i with
    | TMessage _ _ h => h
    | TOnchain _ _ tx li => tx ++ be 4 li
    | TFname _ name => name ++ repeat 0 (20 - length name)
    end.

  Lemma item_key_eq i : item_ok i = true ->
    trie_item_key sha4 i = for_fid sha4 (item_fid i) ++ item_tybyte i :: item_rest i.
  Proof.
    destruct i as [f t h|f t tx li|f name]; cbn [item_ok trie_item_key item_fid item_tybyte item_rest].
    - intros H. apply andb_prop in H as [H _]. apply andb_prop in H as [H _]. apply andb_prop in H as [H H1].
      apply N.ltb_lt in H1. unfold for_message_type. rewrite type_shift by done. by rewrite <- app_assoc.
    - intros H. apply andb_prop in H as [H _]. apply andb_prop in H as [H _]. apply andb_prop in H as [H _].
      apply andb_prop in H as [H H1]. apply N.ltb_lt in H1.
      unfold for_onchain_event. rewrite N.mod_small by lia. done.
    - done.
  Qed.

  Lemma pad_inj (a b : bytes) : (length a <= 20)%nat -> (length b <= 20)%nat ->
    forallb (fun x => negb (x =? 0)) a = true -> forallb (fun x => negb (x =? 0)) b = true ->
    a ++ repeat 0 (20 - length a) = b ++ repeat 0 (20 - length b) -> a = b.
  Proof.
    generalize 20%nat as n. revert b. induction a as [|x a IH]; intros [|y b] n Ha Hb Na Nb E; try done.
    - cbn in E, Hb. destruct (n - 0)%nat eqn:En; [lia|]. cbn in E. injection E as <- _. cbn in Nb. done.
    - cbn in E, Ha. destruct (n - 0)%nat eqn:En; [lia|]. cbn in E. injection E as -> _. cbn in Na. done.
    - cbn in *. destruct n as [|n]; [lia|]. cbn in E. injection E as -> E.
      apply andb_prop in Na as [_ Na]. apply andb_prop in Nb as [_ Nb].
      f_equal. eapply (IH b n); auto; lia.
  Qed.

  Lemma item_key_prefix_eq i j : item_ok i = true -> item_ok j = true ->
    is_prefix (trie_item_key sha4 i) (trie_item_key sha4 j) = true -> i = j.
  Proof.
    intros Hi Hj [r E]%is_prefix_spec. rewrite !item_key_eq in E by done.
    rewrite <- app_assoc in E. apply app_inj_len in E as [E1 E2]; [|by rewrite !for_fid_len].
    cbn [app] in E2. apply cons_inj in E2 as [E2 E3].
    destruct i as [f t h|f t tx li|f name], j as [f' t' h'|f' t' tx' li'|f' name'];
      cbn [item_ok item_fid item_tybyte item_rest] in *;
      repeat match goal with H : _ && _ = true |- _ => apply andb_prop in H as [? ?] end;
      repeat match goal with H : (_ <? _) = true |- _ => apply N.ltb_lt in H end;
      repeat match goal with H : (_ <=? _) = true |- _ => apply N.leb_le in H end;
      repeat match goal with H : Nat.eqb _ _ = true |- _ => apply Nat.eqb_eq in H end;
      repeat match goal with H : Nat.leb _ _ = true |- _ => apply Nat.leb_le in H end;
      try lia;
      apply for_fid_inj in E1 as ->; try done.
    - assert (t = t') as -> by lia.
      rewrite <- (app_nil_r h') in E3. apply app_inj_len in E3 as [-> _]; [done|congruence].
    - subst. rewrite <- app_assoc in E3. apply app_inj_len in E3 as [-> E3]; [|congruence].
      rewrite <- (app_nil_r (be 4 li')) in E3. apply app_inj_len in E3 as [E3 _]; [|by rewrite !be_length].
      apply be_inj in E3; [|done..]. by subst.
    - rewrite <- (app_nil_r (name' ++ _)) in E3. apply app_inj_len in E3 as [E3 _].
      + apply pad_inj in E3; auto. by subst.
      + rewrite !app_length, !repeat_length. lia.
  Qed.

  Lemma item_key_inj i j : item_ok i = true -> item_ok j = true ->
    trie_item_key sha4 i = trie_item_key sha4 j -> i = j.
  Proof.
    intros Hi Hj E. apply item_key_prefix_eq; [done..|]. apply is_prefix_spec. exists []. by rewrite app_nil_r.
  Qed.

  Lemma trie_decode_key i : item_ok i = true ->
    trie_decode (trie_item_key sha4 i) =
    Some {| dk_vshard := fid_shard sha4 (item_fid i);
            dk_fid := item_fid i;
            dk_onchain := match i with TMessage _ _ _ => None | _ => Some (item_tybyte i) end;
            dk_message := match i with TMessage _ t _ => Some t | _ => None end;
            dk_rest := item_rest i |}.
  Proof.
    intros Hi. rewrite item_key_eq by done. unfold trie_decode.
    assert (Hl : (20 <= length (item_rest i))%nat).
    { destruct i; cbn [item_ok item_rest] in *;
      repeat match goal with H : _ && _ = true |- _ => apply andb_prop in H as [? ?] end;
      repeat match goal with H : Nat.eqb _ _ = true |- _ => apply Nat.eqb_eq in H end;
      repeat match goal with H : Nat.leb _ _ = true |- _ => apply Nat.leb_le in H end;
      rewrite ?app_length, ?repeat_length, ?be_length; lia. }
    rewrite app_length, for_fid_len. cbn [length].
    destruct (Nat.ltb_spec (5 + S (length (item_rest i))) 12); [lia|].
    assert (Hf : item_fid i < 2 ^ 32).
    { destruct i; cbn [item_ok item_fid] in *;
      repeat match goal with H : _ && _ = true |- _ => apply andb_prop in H as [? ?] end;
      by apply N.ltb_lt. }
    assert (Hn5 : nth 5 (for_fid sha4 (item_fid i) ++ item_tybyte i :: item_rest i) 0 = item_tybyte i)
      by (rewrite app_nth2; rewrite for_fid_len; [done|lia]).
    rewrite Hn5.
    rewrite drop_app_ge by (rewrite for_fid_len; lia). rewrite for_fid_len. cbn [Nat.sub drop].
    f_equal. f_equal.
    - change (be_dec (take 4 (make_fid_key (item_fid i) ++ item_tybyte i :: item_rest i)) = item_fid i). rewrite take_app_alt by (unfold make_fid_key; by rewrite be_length).
      unfold make_fid_key. by rewrite be_dec_be.
    - destruct i; cbn [item_ok item_tybyte] in *;
      repeat match goal with H : _ && _ = true |- _ => apply andb_prop in H as [? ?] end;
      repeat match goal with H : (_ <? _) = true |- _ => apply N.ltb_lt in H end;
      repeat match goal with H : (_ <=? _) = true |- _ => apply N.leb_le in H end.
      + by rewrite (proj2 (N.ltb_ge _ _)) by lia.
      + by rewrite (proj2 (N.ltb_lt _ _)) by lia.
      + done.
    - destruct i; cbn [item_ok item_tybyte] in *;
      repeat match goal with H : _ && _ = true |- _ => apply andb_prop in H as [? ?] end;
      repeat match goal with H : (_ <? _) = true |- _ => apply N.ltb_lt in H end;
      repeat match goal with H : (_ <=? _) = true |- _ => apply N.leb_le in H end.
      + rewrite (proj2 (N.ltb_ge _ _)) by lia. f_equal. rewrite N.shiftr_div_pow2. change (2 ^ 3) with 8. lia.
      + by rewrite (proj2 (N.ltb_lt _ _)) by lia.
      + done.
  Qed.
End TrieKeys.

(** ** Page tokens *)

Definition segs_ok (t : list bytes) : Prop :=
  N.of_nat (length t) < 2 ^ 32 /\ Forall (fun s => N.of_nat (length s) < 2 ^ 32) t.

Lemma decode_segments_encode t rest : Forall (fun s : bytes => N.of_nat (length s) < 2 ^ 32) t ->
  decode_segments (length t) (concat (map encode_segment t) ++ rest) = Ok (t, rest).
Proof.
  induction 1 as [|s t Hs Ht IH]; cbn [length decode_segments map concat]; [done|].
  rewrite <- app_assoc. set (b := concat (map encode_segment t) ++ rest) in *.
  assert (E : encode_segment s ++ b = be 4 (N.of_nat (length s)) ++ s ++ b).
  { unfold encode_segment. by rewrite <- app_assoc. }
  rewrite E. rewrite take_app_alt, drop_app_alt by (by rewrite be_length).
  rewrite be_dec_be by done. rewrite Nat2N.id.
  rewrite app_length, be_length. destruct (Nat.ltb_spec (4 + length (s ++ b)) 4); [lia|].
  destruct (Nat.ltb_spec (length (s ++ b)) (length s)) as [Hlt|_].
  { rewrite app_length in Hlt. lia. }
  rewrite drop_app, take_app. by rewrite IH.
Qed.

Lemma page_token_roundtrip t : t <> [] -> segs_ok t ->
  decode_page_token (encode_page_token (Some t)) = Ok (Some t).
Proof.
  intros Hne [Hl Hs]. destruct t as [|s t]; [done|]. cbn [encode_page_token].
  set (u := s :: t) in *. unfold decode_page_token.
  rewrite app_length, be_length. destruct (Nat.ltb_spec (4 + length (concat (map encode_segment u))) 4); [lia|].
  rewrite take_app_alt, drop_app_alt by (by rewrite be_length).
  rewrite be_dec_be, Nat2N.id by done.
  rewrite <- (app_nil_r (concat _)). rewrite decode_segments_encode by done. done.
Qed.

Lemma be_be_dec b : bytes_ok b = true -> be (length b) (be_dec b) = b.
Proof.
  induction b as [|x b IH] using rev_ind; [done|].
  rewrite bytes_ok_app. cbn. intros [Hb Hx]%andb_prop. rewrite andb_true_r in Hx. apply N.ltb_lt in Hx.
  rewrite app_length. cbn [length]. rewrite Nat.add_comm. cbn [Nat.add]. rewrite be_S.
  unfold be_dec in *. rewrite be_dec_acc_app. cbn [be_dec_acc].
  rewrite N.div_add_l, N.div_small, N.add_0_r by lia. rewrite IH by done.
  do 2 f_equal. rewrite N.add_comm, N.mod_add, N.mod_small by lia. done.
Qed.

Lemma bytes_ok_take n b : bytes_ok b = true -> bytes_ok (take n b) = true.
Proof. intros H. rewrite <- (take_drop n b), bytes_ok_app in H. by apply andb_prop in H as [? _]. Qed.
Lemma bytes_ok_drop n b : bytes_ok b = true -> bytes_ok (drop n b) = true.
Proof. intros H. rewrite <- (take_drop n b), bytes_ok_app in H. by apply andb_prop in H as [_ ?]. Qed.

Lemma decode_segments_canon c b ss rest : bytes_ok b = true ->
  decode_segments c b = Ok (ss, rest) ->
  b = concat (map encode_segment ss) ++ rest /\ length ss = c.
Proof.
  revert b ss rest; induction c as [|c IH]; intros b ss rest Hb; cbn [decode_segments].
  { intros [= <- <-]. done. }
  destruct (Nat.ltb_spec (length b) 4) as [|Hl]; [done|].
  destruct (Nat.ltb_spec (length (drop 4 b)) (N.to_nat (be_dec (take 4 b)))) as [|Hl2]; [done|].
  destruct (decode_segments c _) as [[ss' rest']| |] eqn:E; try done. intros [= <- <-].
  apply IH in E as [E <-]; [|by do 2 apply bytes_ok_drop]. split; [|done].
  cbn [map concat]. unfold encode_segment at 1.
  rewrite take_length_le by done. rewrite N2Nat.id.
  replace (be 4 (be_dec (take 4 b))) with (take 4 b).
  2:{ rewrite <- (be_be_dec (take 4 b)) at 1 by (by apply bytes_ok_take). by rewrite take_length_le. }
  rewrite <- !app_assoc. rewrite <- E. by rewrite !take_drop.
Qed.

Lemma page_token_canonical b t : bytes_ok b = true ->
  decode_page_token (Some b) = Ok (Some t) -> encode_page_token (Some t) = Some b.
Proof.
  intros Hb. unfold decode_page_token. destruct (Nat.ltb_spec (length b) 4) as [|Hl]; [done|].
  destruct (decode_segments _ _) as [[ss [|]]| |] eqn:E; try done. destruct ss as [|s ss]; [done|].
  intros [= <-]. apply decode_segments_canon in E as [E El]; [|by apply bytes_ok_drop].
  cbn [encode_page_token]. rewrite El, N2Nat.id. rewrite app_nil_r in E. rewrite <- E.
  replace (be 4 (be_dec (take 4 b))) with (take 4 b).
  2:{ rewrite <- (be_be_dec (take 4 b)) at 1 by (by apply bytes_ok_take). by rewrite take_length_le. }
  by rewrite take_drop.
Qed.
