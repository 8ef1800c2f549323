(** Properties C40 (order and identity of pending messages), C42 (routing), C52 (LiveAt). *)
From Verif Require Import MempoolProofs.
From Coq Require Import ZifyN ZifyNat ZifyBool.
#[local] Open Scope N_scope.

(** ** C42 *)

(** Kinds that always live on the block shard, and the verification kinds that moved there. *)
Definition shard0_kind (ty : N) : bool := (ty =? 15) || (ty =? 16) || (ty =? 17) || (ty =? 18) || (ty =? 19) || (ty =? 20) || (ty =? 21).
Definition verification_kind (ty : N) : bool := (ty =? 7) || (ty =? 8).

(** Every user message has exactly one home: shard 0 by kind (and version), otherwise a data shard in 1..n that
    depends on the account alone. *)
Theorem C42_home_shard : forall sha4 m n v, 0 < n ->
  let r := route_message sha4 m n v in
  r <= n /\
  (r = 0 <-> shard0_kind (um_type m) = true \/ (verification_kind (um_type m) = true /\ 21 <= v)) /\
  (r <> 0 -> r = route_fid sha4 (um_fid m) n).
Proof.
  intros sha4 m n v Hn r. unfold r, route_message, T_LEND_STORAGE, T_KEY_ADD, T_KEY_REMOVE, T_VERIFICATION_ADD, T_VERIFICATION_REMOVE.
  assert (Hr : 1 <= route_fid sha4 (um_fid m) n <= n).
  { unfold route_fid. pose proof (N.mod_lt (sha4 (be 4 (um_fid m))) n). lia. }
  assert (Es : (um_type m =? 15) || (um_type m =? 16) || (um_type m =? 17) || is_channel_type (um_type m) = shard0_kind (um_type m)).
  { unfold shard0_kind, is_channel_type. lia. }
  rewrite Es. fold (verification_kind (um_type m)). cbn [is_enabled].
  destruct (shard0_kind (um_type m)) eqn:E1; [split; [lia|split; [split; [by left|done]|done]]|].
  destruct (verification_kind (um_type m)) eqn:E2; cbn [andb].
  - destruct (N.leb_spec 21 v); (split; [lia|]); split; try done; (split; [|intros [?|[? ?]]]; try done; lia || auto).
  - split; [lia|]. split; [|done]. split; [lia|]. by intros [?|[? ?]].
Qed.

(** Two messages of one account with data-shard kinds go to the same shard, at any two times. *)
Theorem C42_account_not_split : forall sha4 m1 m2 n v1 v2,
  um_fid m1 = um_fid m2 -> shard0_kind (um_type m1) = false -> shard0_kind (um_type m2) = false ->
  verification_kind (um_type m1) = false -> verification_kind (um_type m2) = false ->
  route_message sha4 m1 n v1 = route_message sha4 m2 n v2.
Proof.
  intros sha4 m1 m2 n v1 v2 Ef A1 A2 B1 B2. unfold route_message.
  assert (Es : forall ty, (ty =? T_LEND_STORAGE) || (ty =? T_KEY_ADD) || (ty =? T_KEY_REMOVE) || is_channel_type ty = shard0_kind ty).
  { intros ty. unfold shard0_kind, is_channel_type, T_LEND_STORAGE, T_KEY_ADD, T_KEY_REMOVE. lia. }
  rewrite !Es, A1, A2. change ((um_type m1 =? T_VERIFICATION_ADD) || (um_type m1 =? T_VERIFICATION_REMOVE)) with (verification_kind (um_type m1)).
  change ((um_type m2 =? T_VERIFICATION_ADD) || (um_type m2 =? T_VERIFICATION_REMOVE)) with (verification_kind (um_type m2)).
  by rewrite B1, B2, Ef.
Qed.

(** Verifications are not stable: the same message changes its home when version 21 activates. *)
Theorem C42_verification_moves_refuted : exists sha4 m n v1 v2, 0 < n /\ v1 <= v2 /\
  verification_kind (um_type m) = true /\ route_message sha4 m n v1 <> route_message sha4 m n v2.
Proof. exists (fun _ => 0), (UMsg 5 7 0 [] BOther), 2, 20, 21. by vm_compute. Qed.

(** On-chain events reach the block shard and the home shard of their account; name transfers every data shard. *)
Theorem C42_validator_messages : forall sha4 m n v, 0 < n ->
  match m with
  | MOnchain false fid _ _ _ => route_mempool_message sha4 m n v = [0; route_fid sha4 fid n]
  | MFname _ fid _ => 5 <= v -> NoDup (route_mempool_message sha4 m n v) /\
      forall sh, sh ∈ route_mempool_message sha4 m n v <-> 1 <= sh <= n
  | _ => True
  end.
Proof.
  intros sha4 m n v Hn. destruct m as [|[] | |]; try done. intros Hv. cbn [route_mempool_message is_enabled].
  rewrite (proj2 (N.leb_le 5 v)) by lia. split.
  - apply NoDup_fmap_2; [intros ? ? ?; lia|]. apply NoDup_ListNoDup, seq_NoDup.
  - intros sh. rewrite elem_of_list_fmap. split.
    + intros (x & -> & Hin). apply elem_of_list_In, in_seq in Hin. lia.
    + intros Hs. exists (N.to_nat sh). split; [lia|]. apply elem_of_list_In, in_seq. lia.
Qed.

(** ** C40 *)

(** Keys of user messages identify (timestamp, hash); user and validator messages never share a key. *)
Theorem C40_user_identity : forall u1 u2, um_ts u1 < 2 ^ 32 -> um_ts u2 < 2 ^ 32 ->
  bytes_ok (um_hash u1) = true -> bytes_ok (um_hash u2) = true ->
  user_key u1 = user_key u2 -> um_ts u1 = um_ts u2 /\ um_hash u1 = um_hash u2.
Proof.
  intros u1 u2 T1 T2 B1 B2 E. unfold user_key in E. injection E as E1 E2%hex_inj; [|done..]. split; [|done].
  unfold to_unix_seconds in E1. change EPOCH_S with 1609459200 in E1. change (2 ^ 32) with 4294967296 in *.
  rewrite !N.mod_small in E1 by (change (2 ^ 64) with 18446744073709551616; lia). lia.
Qed.
Theorem C40_user_never_validator : forall u m, (forall u', m <> MUser u') -> mempool_key (MUser u) <> mempool_key m.
Proof. intros u m Hm. destruct m as [u'| | |]; [by destruct (Hm u')|done..]. Qed.
(** On-chain events: the key identifies (block timestamp, transaction hash, log index). *)
Theorem C40_onchain_identity : forall g1 f1 ts1 tx1 li1 g2 f2 ts2 tx2 li2,
  length tx1 = 32%nat -> length tx2 = 32%nat -> bytes_ok tx1 = true -> bytes_ok tx2 = true ->
  mempool_key (MOnchain g1 f1 ts1 tx1 li1) = mempool_key (MOnchain g2 f2 ts2 tx2 li2) -> ts1 = ts2 /\ tx1 = tx2 /\ li1 = li2.
Proof.
  intros g1 f1 ts1 tx1 li1 g2 f2 ts2 tx2 li2 L1 L2 B1 B2 E. cbn in E. injection E as -> E.
  apply app_inj_1 in E as [E1 E2]; [|rewrite !hex_length; lia]. apply hex_inj in E1; [|done..]. apply dec_inj in E2. done.
Qed.
Theorem C40_block_event_identity : forall s1 n1 t1 s2 n2 t2,
  mempool_key (MBlockEvent s1 n1 t1) = mempool_key (MBlockEvent s2 n2 t2) -> n1 = n2 /\ t1 = t2.
Proof. intros s1 n1 t1 s2 n2 t2 E. cbn in E. injection E as -> E%dec_inj. done. Qed.

(** Different validator messages can be mistaken for each other: a name transfer blocks a block event. *)
Theorem C40_identity_refuted : exists e m1 m2 sh, m1 <> m2 /\
  let s := (insert_into_shard e mp_init sh m1).1 in
  (insert_into_shard e mp_init sh m2).2 = None /\ (insert_into_shard e s sh m2).2 = Some EPending.
Proof.
  exists (Env 21 (fun _ _ => false) (fun _ => Some 0) (fun _ => false)), (MFname 7 12 1700000000), (MBlockEvent 1 7 1700000000), 1.
  split; [done|]. by vm_compute.
Qed.

(** A pull returns pending, currently valid messages in strict key order, at most as many as asked for; everything
    left behind comes later in the order; it stops early only when the pool is empty. *)
Theorem C40_pull_order : forall os e sh n s out,
  pull_messages e (mrun mp_init os).1 sh n = (s, out) ->
  StronglySorted (fun a b => kcmp (mempool_key a) (mempool_key b) = Lt) out /\
  (length out <= n)%nat /\ ((length out < n)%nat -> pool_of s sh = []) /\
  (forall m, m ∈ out -> (mempool_key m, m) ∈ pool_of (mrun mp_init os).1 sh /\ message_is_valid e sh m false = None) /\
  (forall m k m', m ∈ out -> (k, m') ∈ pool_of s sh -> kcmp (mempool_key m) k = Lt).
Proof.
  intros os e sh n s out E. pose proof (Inv_run os _ Inv_init) as HI. pose proof HI as (H1 & H2 & _).
  destruct (pull_spec _ _ _ _ _ _ HI E) as (_ & _ & pop & Epp & -> & L1 & L2).
  pose proof (H1 sh) as Hs. rewrite Epp in Hs. pose proof (sorted_app_inv _ _ Hs) as [Hsp _].
  assert (Hk : forall k m, (k, m) ∈ pop -> k = mempool_key m).
  { intros k m Hin. apply (H2 sh). rewrite Epp. apply elem_of_app. by left. }
  split; [|split; [done|split; [done|split]]].
  - clear -Hsp Hk. induction pop as [|[k m] pop IH]; [constructor|].
    apply StronglySorted_inv in Hsp as [Hsp Hf]. rewrite Forall_forall in Hf.
    assert (IH' : StronglySorted (fun a b => kcmp (mempool_key a) (mempool_key b) = Lt)
      (filter (fun m => message_is_valid e sh m false = None) (snd <$> pop))).
    { apply IH; [done|]. intros k' m' Hin. apply Hk. by right. }
    cbn [fmap list_fmap snd]. rewrite filter_cons. destruct (decide _); [|done]. constructor; [done|].
    apply Forall_forall. intros x Hx. apply elem_of_list_filter in Hx as [_ Hx].
    apply elem_of_list_fmap in Hx as ([k' m'] & -> & Hin). specialize (Hf _ Hin). unfold klt in Hf. cbn [fst snd] in *.
    rewrite <- (Hk k m) by left. rewrite <- (Hk k' m') by by right. done.
  - intros m Hm. apply elem_of_list_filter in Hm as [Hv Hm]. apply elem_of_list_fmap in Hm as ([k m'] & -> & Hin).
    cbn [snd] in *. split; [|done]. rewrite <- (Hk _ _ Hin). rewrite Epp. apply elem_of_app. by left.
  - intros m k m' Hm Hin. apply elem_of_list_filter in Hm as [_ Hm]. apply elem_of_list_fmap in Hm as ([k0 m0] & -> & Hin0).
    cbn [snd]. rewrite <- (Hk _ _ Hin0). exact (sorted_app_lt _ _ _ _ Hs Hin0 Hin).
Qed.

(** Block events of one block share its timestamp, and their numbers are compared as text: number 10 comes before 9. *)
(** Pulling loses nothing: a pending message is handed out, stays, or is one the node has no use for: already merged, of a
    type not active yet, or a block event for shard 0. In particular the rate limiter has no say at this point. *)
Definition useless (e : env) (sh : N) (m : mmsg) : Prop :=
  match m with
  | MUser u => e_exists e sh u = true \/ (is_channel_type (um_type u) = true /\ e_version e < 21) \/
               (um_type u = 16 \/ um_type u = 17) /\ e_version e < 16
  | MBlockEvent sh' q _ => sh' = 0 \/ exists mx, e_maxseq e sh' = Some mx /\ q <= mx
  | _ => False
  end.
Theorem C40_pull_loses_nothing : forall os e sh n s out,
  pull_messages e (mrun mp_init os).1 sh n = (s, out) ->
  forall k m, (k, m) ∈ pool_of (mrun mp_init os).1 sh -> m ∈ out \/ (k, m) ∈ pool_of s sh \/ useless e sh m.
Proof.
  intros os e sh n s out E k m Hin. pose proof (Inv_run os _ Inv_init) as HI.
  destruct (pull_spec _ _ _ _ _ _ HI E) as (_ & _ & pop & Epp & -> & _ & _).
  rewrite Epp in Hin. apply elem_of_app in Hin as [Hin|Hin]; [|by right; left].
  destruct (decide (message_is_valid e sh m false = None)) as [Hv|Hv].
  - left. apply elem_of_list_filter. split; [done|]. apply elem_of_list_fmap. by exists (k, m).
  - right. right. unfold message_is_valid in Hv. destruct m as [u| | |sh' q t]; cbn; [|by destruct Hv..|].
    + destruct (is_channel_type (um_type u) && negb (is_enabled (e_version e) ChannelMessages)) eqn:E1.
      { apply andb_prop in E1 as [E1 E2]. right. left. split; [done|]. apply negb_true_iff in E2. cbn in E2. apply N.leb_gt in E2. lia. }
      destruct (((um_type u =? T_KEY_ADD) || (um_type u =? T_KEY_REMOVE)) && negb (is_enabled (e_version e) GaslessSigners)) eqn:E2.
      { apply andb_prop in E2 as [E2 E3]. right. right. apply negb_true_iff in E3. cbn in E3. apply N.leb_gt in E3.
        split; [|lia]. apply orb_prop in E2 as [E2|E2]; apply N.eqb_eq in E2; [left|right]; exact E2. }
      destruct (e_exists e sh u); [by left|]. by cbn in Hv.
    + destruct (N.eqb_spec sh' 0) as [->|]; [by left|]. right. destruct (e_maxseq e sh') as [mx|]; [|by destruct Hv].
      destruct (N.leb_spec q mx); [by exists mx|by destruct Hv].
Qed.
Example C40_pull_loses_nothing_ex : exists e, let u1 := UMsg 5 1 7 (repeat 1 20) BOther in let u2 := UMsg 5 1 8 (repeat 2 20) BOther in
  let s := (mrun mp_init [OInsert e 1 (MUser u1); OInsert e 1 (MUser u2)]).1 in
  let e' := Env 21 (fun _ u => um_ts u =? 7) (fun _ => None) (fun _ => true) in
  (pull_messages e' s 1 10).2 = [MUser u2] /\ length (pool_of s 1) = 2%nat.
Proof. exists (Env 21 (fun _ _ => false) (fun _ => None) (fun _ => false)). by vm_compute. Qed.

Theorem C40_block_event_order_refuted : exists e,
  let s := (mrun mp_init [OInsert e 1 (MBlockEvent 1 9 1700000000); OInsert e 1 (MBlockEvent 1 10 1700000000)]).1 in
  (pull_messages e s 1 10).2 = [MBlockEvent 1 10 1700000000; MBlockEvent 1 9 1700000000].
Proof. exists (Env 21 (fun _ _ => false) (fun _ => Some 8) (fun _ => false)). by vm_compute. Qed.

(** A pending or already merged message is refused and the pools stay as they are. *)
Theorem C40_duplicates_refused : forall os e sh m s r,
  insert_into_shard e (mrun mp_init os).1 sh m = (s, r) ->
  ((exists m', (mempool_key m, m') ∈ pool_of (mrun mp_init os).1 sh) \/
   match m with MUser u => e_exists e sh u = true | MBlockEvent sh' q _ => exists mx, e_maxseq e sh' = Some mx /\ q <= mx | _ => False end) ->
  r <> None /\ mp_msgs s = mp_msgs (mrun mp_init os).1.
Proof.
  intros os e sh m s r E Hor. pose proof (Inv_run os _ Inv_init) as HI. pose proof HI as (H1 & _).
  destruct (insert_spec _ _ _ _ _ _ HI E) as [_ Hr].
  assert (Hne : r <> None); [|destruct r; [done|done]].
  intros ->. destruct Hr as (Hv & Hb & _).
  destruct Hor as [[m' Hin]|Hor].
  - apply bget_elem in Hin; [|done]. congruence.
  - unfold message_is_valid in Hv. destruct m as [u| | |sh' q t]; try done.
    + rewrite Hor in Hv. destruct (_ && _); [done|]. by destruct (_ && _).
    + destruct Hor as (mx & Em & Hle). rewrite Em in Hv. rewrite (proj2 (N.leb_le q mx)) in Hv by lia. by destruct (_ =? _).
Qed.

(** How often messages with key [k] were admitted to, and handed out from, shard [sh]. *)
Fixpoint admitted (sh : N) (k : mkey) (os : list mop) (rs : list mout) : nat :=
  match os, rs with
  | OInsert _ sh' m :: os, RInsert None :: rs =>
      (if decide (sh' = sh /\ mempool_key m = k) then 1 else 0) + admitted sh k os rs
  | _ :: os, _ :: rs => admitted sh k os rs
  | _, _ => 0
  end%nat.
Fixpoint handed_out (sh : N) (k : mkey) (os : list mop) (rs : list mout) : nat :=
  match os, rs with
  | OPull _ sh' _ :: os, RPull l :: rs =>
      (if decide (sh' = sh) then length (filter (fun m => mempool_key m = k) l) else 0) + handed_out sh k os rs
  | _ :: os, _ :: rs => handed_out sh k os rs
  | _, _ => 0
  end%nat.
Definition pend (sh : N) (k : mkey) (s : mp) : nat := if bget k (pool_of s sh) then 1 else 0.

Lemma pend_1 sh k s m : Inv s -> (k, m) ∈ pool_of s sh -> pend sh k s = 1%nat.
Proof. intros (H1 & _) Hin. apply bget_elem in Hin; [|done]. unfold pend. by rewrite Hin. Qed.
Lemma pend_le s s' sh k : Inv s -> Inv s' -> (forall m, (k, m) ∈ pool_of s' sh -> exists m', (k, m') ∈ pool_of s sh) ->
  (pend sh k s' <= pend sh k s)%nat.
Proof.
  intros HI HI' Hsub. unfold pend at 1. destruct (bget k (pool_of s' sh)) as [m|] eqn:E; [|lia].
  apply bget_elem in E; [|apply HI']. destruct (Hsub _ E) as [m' Hin]. by rewrite (pend_1 sh k s m').
Qed.

Lemma count_step s o sh k : Inv s ->
  let '(s', r) := mstep s o in
  (handed_out sh k [o] [r] + pend sh k s' <= admitted sh k [o] [r] + pend sh k s)%nat.
Proof.
  intros HI. pose proof HI as (H1 & H2 & _). destruct o as [e sh' m|e sh' n|sh' ms]; cbn [mstep].
  - destruct (insert_into_shard e s sh' m) as [s' r] eqn:E. destruct (insert_spec _ _ _ _ _ _ HI E) as [HI' Hr].
    destruct r as [err|]; cbn [handed_out admitted].
    + assert (pend sh k s' = pend sh k s); [|lia]. unfold pend, pool_of. by rewrite Hr.
    + destruct Hr as (_ & _ & rep & Ho & Hp & _).
      assert (Hsort : psorted (match rep with Some old => bdel old (pool_of s sh') | None => pool_of s sh' end)).
      { destruct rep; [by apply bdel_sorted|done]. }
      destruct (decide (sh' = sh /\ mempool_key m = k)) as [[-> <-]|Hn].
      * unfold pend. destruct (bget _ (pool_of s' sh)), (bget _ (pool_of s sh)); lia.
      * pose proof (pend_le s s' sh k HI HI') as Hle. feed specialize Hle; [|lia]. intros m' Hin.
        destruct (decide (sh' = sh)) as [->|Hne]; [|rewrite Ho in Hin by congruence; eauto].
        rewrite Hp in Hin. apply bins_elem in Hin as [[-> ->]|[_ Hin]]; [naive_solver| |done].
        exists m'. destruct rep; [by apply bdel_elem in Hin as [_ ?]|done].
  - destruct (pull_messages e s sh' n) as [s' out] eqn:E. destruct (pull_spec _ _ _ _ _ _ HI E) as (HI' & Ho & pop & Epp & -> & _ & _).
    cbn [handed_out admitted]. destruct (decide (sh' = sh)) as [->|Hne].
    2:{ assert (pend sh k s' = pend sh k s); [|lia]. unfold pend. by rewrite Ho by congruence. }
    pose proof (H1 sh) as Hs. rewrite Epp in Hs. pose proof (sorted_app_inv _ _ Hs) as [Hsp _].
    assert (Hk : forall x m, (x, m) ∈ pop -> x = mempool_key m).
    { intros x m Hin. apply (H2 sh). rewrite Epp. apply elem_of_app. by left. }
    set (out := filter (fun m => message_is_valid e sh m false = None) (snd <$> pop)).
    assert (Hsub : forall x, x ∈ filter (fun m => mempool_key m = k) out -> (k, x) ∈ pop).
    { intros x Hx. apply elem_of_list_filter in Hx as [Ek Hx]. apply elem_of_list_filter in Hx as [_ Hx].
      apply elem_of_list_fmap in Hx as ([k0 m0] & -> & Hin). cbn [snd] in *. pose proof (Hk _ _ Hin) as E0. congruence. }
    assert (Hlen : (length (filter (fun m => mempool_key m = k) out) <= 1)%nat).
    { unfold out. clear -Hsp Hk. induction pop as [|[k0 m0] pop IH]; [cbn; lia|].
      apply StronglySorted_inv in Hsp as [Hsp Hf]. rewrite Forall_forall in Hf.
      assert (IH' : (length (filter (fun m => mempool_key m = k) (filter (fun m => message_is_valid e sh m false = None) (snd <$> pop))) <= 1)%nat).
      { apply IH; [done|]. intros x m Hin. apply Hk. by right. }
      cbn [fmap list_fmap snd]. rewrite (filter_cons (fun m => message_is_valid e sh m false = None)). destruct (decide _); [|done].
      rewrite filter_cons. destruct (decide (mempool_key m0 = k)) as [Ek|]; [|done].
      assert (filter (fun m => mempool_key m = k) (filter (fun m => message_is_valid e sh m false = None) (snd <$> pop)) = []) as ->; [|cbn; lia].
      destruct (filter _ _) as [|x l] eqn:El; [done|]. exfalso.
      assert (Hx : x ∈ filter (fun m => mempool_key m = k) (filter (fun m => message_is_valid e sh m false = None) (snd <$> pop))) by (rewrite El; left).
      apply elem_of_list_filter in Hx as [Ex Hx]. apply elem_of_list_filter in Hx as [_ Hx].
      apply elem_of_list_fmap in Hx as ([k1 m1] & -> & Hin). specialize (Hf _ Hin). unfold klt in Hf. cbn [fst snd] in *.
      rewrite (Hk k0 m0), (Hk k1 m1) in Hf by (left || by right). rewrite Ek, Ex, kcmp_refl in Hf. done. }
    destruct (filter (fun m => mempool_key m = k) out) as [|x l] eqn:El.
    + cbn. pose proof (pend_le s s' sh k HI HI') as Hle. feed specialize Hle; [|lia]. intros m Hin. exists m. rewrite Epp. apply elem_of_app. by right.
    + assert (Hx : (k, x) ∈ pop) by (apply Hsub; left).
      assert (pend sh k s' = 0%nat).
      { unfold pend. destruct (bget k (pool_of s' sh)) as [m|] eqn:Eb; [|done]. apply bget_elem in Eb; [|apply HI'].
        pose proof (sorted_app_lt _ _ _ _ Hs Hx Eb) as Hlt. unfold klt in Hlt. cbn in Hlt. by rewrite kcmp_refl in Hlt. }
      rewrite (pend_1 sh k s x HI); [cbn in *; lia|]. rewrite Epp. apply elem_of_app. by left.
  - destruct (remove_spec s sh' ms HI) as (HI' & Ho & Hp). cbn [handed_out admitted].
    pose proof (pend_le s (remove_committed s sh' ms) sh k HI HI') as Hle. feed specialize Hle; [|lia]. intros m Hin.
    exists m. destruct (decide (sh' = sh)) as [->|Hne]; [by apply Hp in Hin as [? _]|by rewrite Ho in Hin by congruence].
Qed.

(** Over any history a message is handed out at most once per admission (and not while it is still pending). *)
Theorem C40_handed_out_once : forall os sh k,
  let '(s, rs) := mrun mp_init os in (handed_out sh k os rs + pend sh k s <= admitted sh k os rs)%nat.
Proof.
  intros os sh k.
  assert (Hgen : forall os s, Inv s -> let '(s', rs) := mrun s os in
    (handed_out sh k os rs + pend sh k s' <= admitted sh k os rs + pend sh k s)%nat).
  { clear. induction os as [|o os IH]; intros s HI; cbn [mrun]; [cbn; lia|].
    pose proof (count_step s o sh k HI) as Hc. pose proof (Inv_step s o HI) as HI'.
    destruct (mstep s o) as [s1 r]. specialize (IH s1 HI'). destruct (mrun s1 os) as [s2 rs].
    assert (Hh : handed_out sh k (o :: os) (r :: rs) = (handed_out sh k [o] [r] + handed_out sh k os rs)%nat).
    { cbn [handed_out]. destruct o as [? ? ?|? ? ?|? ?], r as [[]| |]; lia. }
    assert (Ha : admitted sh k (o :: os) (r :: rs) = (admitted sh k [o] [r] + admitted sh k os rs)%nat).
    { cbn [admitted]. destruct o as [? ? ?|? ? ?|? ?], r as [[]| |]; lia. }
    lia. }
  specialize (Hgen os mp_init Inv_init). destruct (mrun mp_init os) as [s rs].
  assert (pend sh k mp_init = 0%nat) by done. lia.
Qed.

(** ** C52 *)
Definition op_msgs (o : mop) : list mmsg := match o with OInsert _ _ m => [m] | OPull _ _ _ => [] | OCommit _ ms => ms end.
Definition all_msgs (os : list mop) : list mmsg := flat_map op_msgs os.
(** No two different messages of the history share a key. *)
Definition keys_distinct (ms : list mmsg) : Prop := forall m1 m2, m1 ∈ ms -> m2 ∈ ms -> mempool_key m1 = mempool_key m2 -> m1 = m2.

Definition Inv2 (ms : list mmsg) (s : mp) : Prop :=
  (forall sh k m, (k, m) ∈ pool_of s sh -> m ∈ ms) /\
  (forall sh f k, mp_live s !! (sh, f) = Some k -> exists u, MUser u ∈ ms /\ is_live_at u = true /\ um_fid u = f /\ user_key u = k).

Lemma Inv2_step ms s o : Inv s -> Inv2 ms s -> (forall m, m ∈ op_msgs o -> m ∈ ms) -> Inv2 ms (mstep s o).1.
Proof.
  intros HI [A B] Hms. pose proof HI as (H1 & H2 & H3). destruct o as [e sh m|e sh n|sh cs]; cbn [mstep op_msgs] in *.
  - destruct (insert_into_shard e s sh m) as [s' r] eqn:E. destruct (insert_spec _ _ _ _ _ _ HI E) as [HI' Hr]. cbn [fst]. split.
    + intros sh' k m' Hin. destruct r as [err|].
      * apply (A sh' k). unfold pool_of in *. by rewrite <- Hr.
      * destruct Hr as (_ & _ & rep & Ho & Hp & _). destruct (decide (sh' = sh)) as [->|Hn]; [|rewrite Ho in Hin by done; eauto].
        rewrite Hp in Hin. apply bins_elem in Hin as [[_ ->]|[_ Hin]].
        -- apply Hms. left.
        -- destruct rep; [apply bdel_elem in Hin as [_ ?]; [eauto|done]|eauto].
        -- destruct rep; [by apply bdel_sorted|done].
    + intros sh' f k Hk. unfold insert_into_shard in E. destruct (bget (mempool_key m) (pool_of s sh)); [injection E as <- <-; eauto|].
      destruct (prepare_live_at s sh m) as [live pr] eqn:Ep.
      assert (Hl : forall i x, live !! i = Some x -> mp_live s !! i = Some x).
      { intros i x. unfold prepare_live_at in Ep.
        destruct m as [u| | |]; [|by injection Ep as <- _..]. destruct (is_live_at u); [|by injection Ep as <- _].
        destruct (mp_live s !! (sh, um_fid u)); [|by injection Ep as <- _].
        assert (Hd : delete (sh, um_fid u) (mp_live s) !! i = Some x -> mp_live s !! i = Some x).
        { intros Hd. apply lookup_delete_Some in Hd. by destruct Hd. }
        destruct (bget _ _) as [[| | |]|]; [destruct (pending_newer _ _)| | | |]; injection Ep as <- _; done. }
      destruct pr as [err|rep]; [injection E as <- <-; cbn in Hk; eauto|].
      destruct (message_is_valid e sh m true); injection E as <- <-; cbn [mp_live] in Hk; [eauto|].
      destruct m as [u| | |]; eauto. destruct (is_live_at u) eqn:Eu; [|eauto].
      destruct (decide ((sh, um_fid u) = (sh', f))) as [Ei|Hn].
      * injection Ei as <- <-. rewrite lookup_insert in Hk. injection Hk as <-. exists u. split; [apply Hms; left|done].
      * rewrite lookup_insert_ne in Hk by done. eauto.
  - unfold pull_messages. destruct (mp_msgs s !! sh) as [p|] eqn:Ep; [|by split].
    destruct (pull_loop e sh n p (mp_live s)) as [[out rest] live] eqn:El. cbn [fst].
    assert (Hp : pool_of s sh = p) by (unfold pool_of; by rewrite Ep).
    assert (Hps : psorted p) by (rewrite <- Hp; apply H1).
    destruct (pull_loop_spec e sh p n _ _ _ _ Hps El) as ((pop & -> & _ & ->) & _ & _). split.
    + intros sh' k m. rewrite pool_of_insert. destruct (decide (sh = sh')) as [<-|]; [|apply A].
      intros Hin. apply (A sh k). rewrite Hp. apply elem_of_app. by right.
    + intros sh' f k. cbn [mp_live]. intros Hk. apply B with (sh := sh'). revert Hk. generalize (mp_live s). clear.
      induction pop as [|km pop IH]; intros lv Hk; [done|]. cbn [foldl] in Hk. apply IH in Hk. by eapply unindex_lookup.
  - cbn [fst]. destruct (remove_spec s sh cs HI) as (_ & Ho & Hp). split.
    + intros sh' k m Hin. destruct (decide (sh' = sh)) as [->|Hn]; [apply Hp in Hin as [Hin _]; eauto|rewrite Ho in Hin by done; eauto].
    + intros sh' f k Hk. unfold remove_committed in Hk. destruct (mp_msgs s !! sh) as [p|]; [|eauto].
      destruct (foldl (remove_one sh) (p, mp_live s) cs) as [p' live'] eqn:Ef. cbn [mp_live] in Hk. apply B with (sh := sh').
      assert (Hg : forall cs p lv i x, (foldl (remove_one sh) (p, lv) cs).2 !! i = Some x -> lv !! i = Some x).
      { clear. induction cs as [|c cs IH]; intros p lv i x Hx; [done|]. cbn [foldl] in Hx. apply IH in Hx. by eapply unindex_lookup. }
      apply (Hg cs p). by rewrite Ef.
Qed.
Lemma Inv2_run ms os : forall s, Inv s -> Inv2 ms s -> (forall m, m ∈ all_msgs os -> m ∈ ms) -> Inv2 ms (mrun s os).1.
Proof.
  induction os as [|o os IH]; intros s HI HI2 Hms; [done|]. cbn [mrun].
  pose proof (Inv_step s o HI) as HI'. assert (Hin : forall m, m ∈ op_msgs o -> m ∈ ms) by (intros m Hm; apply Hms; apply elem_of_app; by left).
  pose proof (Inv2_step ms s o HI HI2 Hin) as HI2'.
  destruct (mstep s o) as [s' x]. assert (Hin' : forall m, m ∈ all_msgs os -> m ∈ ms) by (intros m Hm; apply Hms; apply elem_of_app; by right).
  specialize (IH s' HI' HI2' Hin'). by destruct (mrun s' os).
Qed.
Lemma Inv2_init ms : Inv2 ms mp_init.
Proof. split; [intros sh k m Hin; inversion Hin|intros sh f k Hk; inversion Hk]. Qed.

(** Specification: [u] is not older than [w], by (timestamp, hash). *)
Definition not_older (u w : umsg) : Prop := um_ts w < um_ts u \/ (um_ts w = um_ts u /\ ble (um_hash w) (um_hash u) = true).
Definition newest (u : umsg) (l : list umsg) : Prop := u ∈ l /\ forall w, w ∈ l -> not_older u w.
Definition pending_live (s : mp) (sh f : N) (u : umsg) : Prop :=
  (user_key u, MUser u) ∈ pool_of s sh /\ is_live_at u = true /\ um_fid u = f.
Definition presence_ok (m : mmsg) : bool :=
  match m with MUser u => (um_ts u <? 2 ^ 32) && Nat.eqb (length (um_hash u)) 20 | _ => true end.
(** Submissions of account [f] that validation accepts. *)
Definition presences (sh f : N) (subs : list (env * mmsg)) : list umsg :=
  flat_map (fun em => match em.2 with
    | MUser u => if is_live_at u && (um_fid u =? f) && match message_is_valid em.1 sh em.2 true with None => true | _ => false end then [u] else []
    | _ => [] end) subs.
Definition submit (s : mp) (sh : N) (subs : list (env * mmsg)) : mp := (mrun s (map (fun em => OInsert em.1 sh em.2) subs)).1.

Lemma pending_newer_spec old u : um_ts old < 2 ^ 32 -> um_ts u < 2 ^ 32 -> length (um_hash old) = 20%nat -> length (um_hash u) = 20%nat ->
  if pending_newer old u then not_older old u else not_older u old.
Proof.
  intros T1 T2 L1 L2. unfold pending_newer, make_ts_hash. rewrite L1, L2. cbn [Nat.eqb].
  assert (El : lex (be 4 (um_ts old) ++ um_hash old) (be 4 (um_ts u) ++ um_hash u) =
    match um_ts old ?= um_ts u with Eq => lex (um_hash old) (um_hash u) | c => c end).
  { rewrite lex_app by by rewrite !be_length. rewrite be_lex by (change (256 ^ N.of_nat 4) with (2 ^ 32); done). done. }
  rewrite El. unfold not_older, ble. rewrite (lex_antisym (um_hash old)).
  destruct (N.compare_spec (um_ts old) (um_ts u)) as [E| |]; [|by left..].
  destruct (lex (um_hash old) (um_hash u)); cbn; right; (split; [lia|done]).
Qed.
Lemma not_older_refl u : not_older u u.
Proof. right. split; [done|]. unfold ble. by rewrite lex_refl. Qed.
Lemma not_older_trans a b c : not_older a b -> not_older b c -> not_older a c.
Proof.
  intros [H1|[H1 H1']] [H2|[H2 H2']]; unfold not_older; [left; lia..|]. right. split; [lia|]. by eapply ble_trans.
Qed.
Lemma pending_unique s sh f u w : Inv s -> pending_live s sh f u -> pending_live s sh f w -> u = w.
Proof.
  intros (H1 & _ & H3) (A1 & A2 & A3) (B1 & B2 & B3). pose proof (H3 _ _ _ A1 A2) as A. pose proof (H3 _ _ _ B1 B2) as B.
  rewrite A3 in A. rewrite B3 in B. assert (E : user_key u = user_key w) by congruence. rewrite E in A1.
  apply bget_elem in A1, B1; [|done..]. congruence.
Qed.

(** Effect of one submission on the pending presence of account [f]. *)
Lemma submit_one ms s sh f e m : keys_distinct ms -> Inv s -> Inv2 ms s -> m ∈ ms -> (forall x, x ∈ ms -> presence_ok x = true) ->
  let s' := (insert_into_shard e s sh m).1 in
  match presences sh f [(e, m)] with
  | [] => forall u, pending_live s' sh f u <-> pending_live s sh f u
  | w :: _ => exists u, pending_live s' sh f u /\ not_older u w /\ (u = w \/ pending_live s sh f u) /\
      (forall old, pending_live s sh f old -> not_older u old)
  end.
Proof.
  intros Hd HI HI2 Hm Hok. cbv zeta. destruct (insert_into_shard e s sh m) as [s' r] eqn:E.
  destruct (insert_spec _ _ _ _ _ _ HI E) as [HI' Hr]. cbn [fst].
  pose proof HI as (H1 & H2 & H3). pose proof HI2 as [A B].
  assert (Hpm : forall u, pending_live s sh f u -> MUser u ∈ ms) by (intros u (Hin & _); eauto).
  assert (Hokm : forall u, MUser u ∈ ms -> um_ts u < 2 ^ 32 /\ length (um_hash u) = 20%nat).
  { intros u Hu. apply Hok in Hu. cbn in Hu. apply andb_prop in Hu as [Hu1 Hu2]. apply Nat.eqb_eq in Hu2. lia. }
  assert (Hsame : mp_msgs s' = mp_msgs s -> forall u, pending_live s' sh f u <-> pending_live s sh f u).
  { intros Em u. unfold pending_live, pool_of. by rewrite Em. }
  unfold presences. cbn [flat_map fst snd]. rewrite app_nil_r.
  destruct (match m with MUser u => _ | _ => _ end) as [|w l] eqn:Ew.
  - (* not a valid presence of f *)
    destruct r as [err|]; [by apply Hsame|]. destruct Hr as (Hv & Hb & rep & Ho & Hp & Hrep).
    assert (Hnl : forall u, m = MUser u -> is_live_at u = true -> um_fid u <> f).
    { intros u -> Hl Hf. rewrite Hv, Hl, Hf, N.eqb_refl in Ew. done. }
    assert (Hsort : psorted (match rep with Some old => bdel old (pool_of s sh) | None => pool_of s sh end)) by (destruct rep; [by apply bdel_sorted|done]).
    intros u. unfold pending_live. rewrite Hp. split.
    + intros (Hin & Hl & Hf). split; [|done]. apply bins_elem in Hin as [[_ Eu]|[_ Hin]]; [|destruct rep; [by apply bdel_elem in Hin as [_ ?]|done]|done].
      exfalso. by eapply Hnl.
    + intros (Hin & Hl & Hf). split; [|done]. apply bins_elem; [done|]. right. split.
      * intros Ek. rewrite Ek in Hin. apply bget_elem in Hin; [|done]. congruence.
      * destruct rep as [k|]; [|done]. apply bdel_elem; [done|]. split; [|done]. intros Ek.
        destruct Hrep as (u0 & old & -> & Hl0 & Hk & Hold & _).
        destruct (B _ _ _ Hk) as (u1 & Hu1 & Hl1 & Hf1 & Hk1).
        assert (E1 : MUser u = MUser u1) by (apply Hd; [eauto|done|cbn; congruence]). injection E1 as <-.
        apply (Hnl u0 eq_refl Hl0). congruence.
  - destruct m as [u0| | |]; try done. destruct (is_live_at u0) eqn:Hl0; [|done]. destruct (N.eqb_spec (um_fid u0) f) as [Hf0|]; [|done].
    destruct (message_is_valid e sh (MUser u0) true) eqn:Hv; [done|]. cbn in Ew. injection Ew as <- <-.
    destruct (Hokm _ Hm) as [Ht0 Hh0].
    destruct r as [err|].
    + (* refused although valid: pending already, or superseded *)
      unfold insert_into_shard in E. destruct (bget (mempool_key (MUser u0)) (pool_of s sh)) as [x|] eqn:Eb.
      * apply bget_elem in Eb; [|done]. assert (x = MUser u0) as ->.
        { apply Hd; [eauto|done|]. symmetry. by eapply H2. }
        assert (Hpu : pending_live s sh f u0) by done.
        exists u0. split; [by apply Hsame|]. split; [apply not_older_refl|]. split; [by left|].
        intros old Hold. rewrite (pending_unique s sh f old u0 HI Hold Hpu). apply not_older_refl.
      * destruct (prepare_live_at s sh (MUser u0)) as [live pr] eqn:Ep. destruct (prepare_live _ _ _ _ _ HI Ep) as [_ Hpr].
        destruct pr as [er|rep]; [|rewrite Hv in E; done].
        destruct Hpr as (_ & _ & u1 & old & k & [= <-] & _ & Hk & Hold & Hn).
        destruct (B _ _ _ Hk) as (u2 & Hu2 & Hl2 & Hf2 & Hk2).
        assert (E1 : MUser old = MUser u2) by (apply Hd; [eauto|done|]; cbn; apply H2 in Hold; cbn in Hold; congruence).
        injection E1 as ->. assert (Hpu : pending_live s sh f u2) by (rewrite <- Hk2 in Hold; split; [done|]; split; [done|congruence]).
        destruct (Hokm _ Hu2) as [Ht2 Hh2].
        exists u2. split; [by apply Hsame|]. split; [|split; [by right|]].
        { pose proof (pending_newer_spec u2 u0 Ht2 Ht0 Hh2 Hh0) as Hps. by rewrite Hn in Hps. }
        intros o Ho. rewrite (pending_unique s sh f o u2 HI Ho Hpu). apply not_older_refl.
    + destruct Hr as (_ & Hb & rep & Ho & Hp & Hrep).
      assert (Hsort : psorted (match rep with Some old => bdel old (pool_of s sh) | None => pool_of s sh end)) by (destruct rep; [by apply bdel_sorted|done]).
      exists u0. split; [|split; [apply not_older_refl|split; [by left|]]].
      * split; [|done]. rewrite Hp. apply bins_elem; [done|]. by left.
      * intros old Hpo. destruct Hpo as (Hin & Hlo & Hfo). pose proof (H3 _ _ _ Hin Hlo) as Hko.
        destruct rep as [k|].
        -- destruct Hrep as (u1 & old' & [= <-] & _ & Hk & Hold & Hn). rewrite Hfo, <- Hf0, Hk in Hko. injection Hko as ->.
           assert (E1 : MUser old' = MUser old). { apply bget_elem in Hold, Hin; [|done..]. congruence. } injection E1 as ->.
           destruct (Hokm _ (A _ _ _ Hin)) as [Ht2 Hh2].
           pose proof (pending_newer_spec old u0 Ht2 Ht0 Hh2 Hh0) as Hps. by rewrite Hn in Hps.
        -- exfalso. apply (Hrep u0 eq_refl Hl0 _ _ Hin Hlo). congruence.
Qed.

Lemma submit_many ms sh f : forall subs s (l0 : list umsg), keys_distinct ms -> Inv s -> Inv2 ms s ->
  (forall em, em ∈ subs -> em.2 ∈ ms) -> (forall x, x ∈ ms -> presence_ok x = true) ->
  (l0 = [] -> forall u, ~ pending_live s sh f u) -> (l0 <> [] -> exists u, pending_live s sh f u /\ newest u l0) ->
  Inv (submit s sh subs) /\ Inv2 ms (submit s sh subs) /\
  (l0 ++ presences sh f subs = [] -> forall u, ~ pending_live (submit s sh subs) sh f u) /\
  (l0 ++ presences sh f subs <> [] -> exists u, pending_live (submit s sh subs) sh f u /\ newest u (l0 ++ presences sh f subs)).
Proof.
  induction subs as [|[e m] subs IH]; intros s l0 Hd HI HI2 Hms Hok Hl0 Hl0'.
  { unfold submit. cbn. rewrite app_nil_r. done. }
  assert (Hm : m ∈ ms) by (apply (Hms (e, m)); left).
  pose proof (submit_one ms s sh f e m Hd HI HI2 Hm Hok) as H1. cbv zeta in H1.
  pose proof (Inv_step s (OInsert e sh m) HI) as HI'.
  assert (HI2' := Inv2_step ms s (OInsert e sh m) HI HI2 ltac:(intros x Hx; apply elem_of_list_singleton in Hx as ->; exact Hm)).
  assert (Es : submit s sh ((e, m) :: subs) = submit (mstep s (OInsert e sh m)).1 sh subs).
  { unfold submit. cbn [map mrun fst snd]. destruct (mstep s (OInsert e sh m)) as [s1 r]. cbn [fst]. by destruct (mrun s1 _). }
  assert (Ef : (mstep s (OInsert e sh m)).1 = (insert_into_shard e s sh m).1) by (cbn [mstep]; by destruct (insert_into_shard e s sh m)).
  rewrite Es. rewrite Ef in *. set (s1 := (insert_into_shard e s sh m).1) in *.
  assert (Ep : l0 ++ presences sh f ((e, m) :: subs) = (l0 ++ presences sh f [(e, m)]) ++ presences sh f subs).
  { rewrite <- app_assoc. f_equal. unfold presences. cbn [flat_map]. by rewrite app_nil_r. }
  rewrite Ep. apply IH; try done.
  - intros em Hem. apply Hms. by right.
  - intros E0 u Hu. apply app_nil in E0 as [E1 E2]. rewrite E2 in H1. apply H1 in Hu. by eapply Hl0.
  - intros Hne. destruct (presences sh f [(e, m)]) as [|w l] eqn:Ew.
    + rewrite app_nil_r in *. destruct (Hl0' Hne) as (u & Hu & Hnw). exists u. split; [by apply H1|done].
    + assert (l = []) as ->.
      { unfold presences in Ew. cbn [flat_map fst snd] in Ew. rewrite app_nil_r in Ew. destruct m; [|done..]. destruct (_ && _); [|done]. by injection Ew. }
      destruct H1 as (u & Hu & Hnw & Hor & Hold). exists u. split; [done|].
      destruct l0 as [|x l0'] eqn:El0.
      * cbn [app]. split.
        -- destruct Hor as [->|Hp]; [left|]. by destruct (Hl0 eq_refl u).
        -- intros v [->|Hin]%elem_of_cons; [done|inversion Hin].
      * destruct (Hl0' ltac:(done)) as (v & Hv & [Hvin Hvn]). split.
        -- apply elem_of_app. destruct Hor as [->|Hp]; [right; left|left]. by rewrite (pending_unique s sh f u v HI Hp Hv).
        -- intros y [Hy|Hy]%elem_of_app; [|apply elem_of_list_singleton in Hy as ->; done].
           eapply not_older_trans; [apply Hold; exact Hv|by apply Hvn].
Qed.

(** C52. After any history, however presence messages of account [f] are then submitted to a shard, the pending one
    is the newest among the one that was pending before and all submissions that pass validation. *)
Theorem C52_newest_presence_kept : forall os sh f subs,
  keys_distinct (all_msgs os ++ map snd subs) ->
  forallb presence_ok (all_msgs os ++ map snd subs) = true ->
  let s := (mrun mp_init os).1 in let s' := submit s sh subs in
  forall l0, (forall u, u ∈ l0 <-> pending_live s sh f u) ->
  l0 ++ presences sh f subs <> [] ->
  exists u, newest u (l0 ++ presences sh f subs) /\ forall w, pending_live s' sh f w <-> w = u.
Proof.
  intros os sh f subs Hd Hok s s' l0 Hl0 Hne.
  pose (ms := all_msgs os ++ map snd subs).
  assert (Hok' : forall x, x ∈ ms -> presence_ok x = true).
  { intros x Hx. rewrite forallb_forall in Hok. apply Hok. by apply elem_of_list_In. }
  assert (HI : Inv s) by (apply Inv_run, Inv_init).
  assert (HI2 : Inv2 ms s).
  { apply Inv2_run; [apply Inv_init|apply Inv2_init|]. intros m Hm. apply elem_of_app. by left. }
  destruct (submit_many ms sh f subs s l0) as (HI' & _ & _ & Hex); try done.
  - intros em Hem. apply elem_of_app. right. apply elem_of_list_fmap. eauto.
  - intros -> u Hu. apply Hl0 in Hu. inversion Hu.
  - intros Hn. destruct l0 as [|v l0]; [done|]. exists v. assert (Hv : pending_live s sh f v) by (apply Hl0; left).
    split; [done|]. split; [left|]. intros w Hw. apply Hl0 in Hw. rewrite (pending_unique s sh f w v HI Hw Hv). apply not_older_refl.
  - destruct (Hex Hne) as (u & Hu & Hnw). exists u. split; [done|]. intros w. split; [|by intros ->].
    intros Hw. by apply (pending_unique s' sh f).
Qed.

(** The order of submission does not matter. *)
Theorem C52_order_irrelevant : forall os sh f subs1 subs2 u1 u2,
  keys_distinct (all_msgs os ++ map snd subs1 ++ map snd subs2) ->
  forallb presence_ok (all_msgs os ++ map snd subs1 ++ map snd subs2) = true ->
  (forall u, u ∈ presences sh f subs1 <-> u ∈ presences sh f subs2) ->
  let s := (mrun mp_init os).1 in
  pending_live (submit s sh subs1) sh f u1 -> pending_live (submit s sh subs2) sh f u2 -> u1 = u2.
Proof.
  intros os sh f subs1 subs2 u1 u2 Hd Hok Hsame s H1 H2.
  set (ms := all_msgs os ++ map snd subs1 ++ map snd subs2) in *.
  assert (Hok' : forall x, x ∈ ms -> presence_ok x = true).
  { intros x Hx. rewrite forallb_forall in Hok. apply Hok. by apply elem_of_list_In. }
  assert (HI : Inv s) by (apply Inv_run, Inv_init).
  assert (HI2 : Inv2 ms s).
  { apply Inv2_run; [apply Inv_init|apply Inv2_init|]. intros m Hm. apply elem_of_app. by left. }
  assert (Hl0 : exists l0, (l0 = [] -> forall u, ~ pending_live s sh f u) /\ (l0 <> [] -> exists u, pending_live s sh f u /\ newest u l0)).
  { destruct (decide (Exists (fun km => match km.2 with MUser u => is_live_at u && (um_fid u =? f) | _ => false end = true) (pool_of s sh))) as [He|He].
    - apply Exists_exists in He as ([k [u| | |]] & Hin & Hx); try done. cbn in Hx. apply andb_prop in Hx as [Hl Hf%N.eqb_eq]. exists [u]. split; [done|]. intros _.
      exists u. assert (k = user_key u) as -> by (destruct HI as (_ & Hk2 & _); exact (Hk2 _ _ _ Hin)). split; [done|]. split; [left|].
      intros w Hw. apply elem_of_list_singleton in Hw as ->. apply not_older_refl.
    - exists []. split; [|done]. intros _ u (Hin & Hl & Hf). apply He, Exists_exists. exists (user_key u, MUser u). split; [done|]. cbn. by rewrite Hl, Hf, N.eqb_refl. }
  destruct Hl0 as (l0 & Ha & Hb).
  assert (Hin1 : forall em, em ∈ subs1 -> em.2 ∈ ms) by (intros em Hem; unfold ms; rewrite !elem_of_app; right; left; apply elem_of_list_fmap; eauto).
  assert (Hin2 : forall em, em ∈ subs2 -> em.2 ∈ ms) by (intros em Hem; unfold ms; rewrite !elem_of_app; right; right; apply elem_of_list_fmap; eauto).
  destruct (submit_many ms sh f subs1 s l0 Hd HI HI2 Hin1 Hok' Ha Hb) as (HI1' & HI21 & Hn1 & He1).
  destruct (submit_many ms sh f subs2 s l0 Hd HI HI2 Hin2 Hok' Ha Hb) as (HI2' & HI22 & Hn2 & He2).
  destruct (l0 ++ presences sh f subs1) as [|x1 r1] eqn:E1; [by destruct (Hn1 eq_refl u1)|].
  destruct (l0 ++ presences sh f subs2) as [|x2 r2] eqn:E2; [by destruct (Hn2 eq_refl u2)|]. rewrite <- E1, <- E2 in *.
  destruct He1 as (v1 & Hv1 & Hv1in & Hv1n); [by rewrite E1|]. destruct He2 as (v2 & Hv2 & Hv2in & Hv2n); [by rewrite E2|].
  rewrite (pending_unique _ _ _ _ _ HI1' H1 Hv1), (pending_unique _ _ _ _ _ HI2' H2 Hv2).
  assert (Hn12 : not_older v1 v2) by (apply Hv1n; rewrite elem_of_app in *; rewrite Hsame; tauto).
  assert (Hn21 : not_older v2 v1) by (apply Hv2n; rewrite elem_of_app in *; rewrite <- Hsame; tauto).
  assert (Hm1 : MUser v1 ∈ ms) by (destruct Hv1 as (Hx & _); by apply HI21 in Hx).
  assert (Hm2 : MUser v2 ∈ ms) by (destruct Hv2 as (Hx & _); by apply HI22 in Hx).
  assert (E : MUser v1 = MUser v2); [|by injection E].
  apply Hd; [done|done|]. cbn. unfold user_key. destruct Hn12 as [?|[Et Eh]], Hn21 as [?|[Et' Eh']]; [lia..|].
  rewrite Et. f_equal. f_equal. by apply ble_antisym.
Qed.

(** A presence that validation refuses (rate limit) leaves the pending one in place even if it is newer. *)
Theorem C52_rate_limited_refuted : exists e1 e2 m1 m2 sh f,
  let s := submit mp_init sh [(e1, MUser m1); (e2, MUser m2)] in
  not_older m2 m1 /\ m1 <> m2 /\ pending_live s sh f m1 /\ ~ pending_live s sh f m2.
Proof.
  exists (Env 21 (fun _ _ => false) (fun _ => None) (fun _ => false)), (Env 21 (fun _ _ => false) (fun _ => None) (fun _ => true)),
    (UMsg 5 11 10 (repeat 1 20) BLiveAt), (UMsg 5 11 11 (repeat 1 20) BLiveAt), 1, 5.
  split; [left; cbn; lia|]. split; [done|]. split.
  - split; [|done]. vm_compute. left.
  - intros (Hin & _). vm_compute in Hin. apply elem_of_list_singleton in Hin. done.
Qed.

Example C52_example :
  let e := Env 21 (fun _ _ => false) (fun _ => None) (fun _ => false) in
  let m t h := MUser (UMsg 5 11 t (repeat h 20) BLiveAt) in
  let subs := [(e, m 10 1); (e, m 12 3); (e, m 12 2); (e, MUser (UMsg 5 1 30 (repeat 9 20) BOther)); (e, m 11 1)] in
  forallb presence_ok (map snd subs) = true /\ length (presences 1 5 subs) = 4%nat /\
  map snd (pool_of (submit mp_init 1 subs) 1) = [m 12 3; MUser (UMsg 5 1 30 (repeat 9 20) BOther)].
Proof. by vm_compute. Qed.
Example C40_example :
  let e := Env 21 (fun _ _ => false) (fun _ => None) (fun _ => false) in
  let u t h := MUser (UMsg 5 1 t (repeat h 20) BOther) in
  let '(s, rs) := mrun mp_init [OInsert e 1 (u 7 2); OInsert e 1 (u 7 1); OInsert e 1 (MFname 3 5 1700000000); OPull e 1 2; OInsert e 1 (u 7 2)] in
  nth_error rs 3 = Some (RPull [MFname 3 5 1700000000; u 7 1]) /\ nth_error rs 4 = Some (RInsert (Some EPending)).
Proof. by vm_compute. Qed.
Example C42_example : route_message (fun _ => 7) (UMsg 5 1 0 [] BOther) 2 21 = 2 /\ route_message (fun _ => 7) (UMsg 5 16 0 [] BOther) 2 21 = 0.
Proof. by vm_compute. Qed.

Print Assumptions C42_home_shard.
Print Assumptions C42_account_not_split.
Print Assumptions C42_verification_moves_refuted.
Print Assumptions C40_user_identity.
Print Assumptions C40_onchain_identity.
Print Assumptions C40_identity_refuted.
Print Assumptions C40_pull_order.
Print Assumptions C40_block_event_order_refuted.
Print Assumptions C40_duplicates_refused.
Print Assumptions C40_handed_out_once.
Print Assumptions C52_newest_presence_kept.
Print Assumptions C52_order_irrelevant.
Print Assumptions C52_rate_limited_refuted.
