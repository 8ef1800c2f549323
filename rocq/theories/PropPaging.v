(** Properties C11 (transactions), C12 (paging) and C57 (block store lookups and pruning). *)
From Coq Require Import ZifyN ZifyNat ZifyBool.
From Verif Require Import Base Codec CodecProofs Kv Paging PagingProofs BlockStoreProofs.
#[local] Open Scope N_scope.

(** ** C11 *)
Section C11.
  Context {V : Type}.
  (** The writes of a transaction, in program order. *)
  Inductive wop := WPut (k : bytes) (v : V) | WDel (k : bytes).
  Definition wkey (o : wop) : bytes := match o with WPut k _ | WDel k => k end.
  Definition wval (o : wop) : option V := match o with WPut _ v => Some v | WDel _ => None end.
  (** Specification: the value of [k] after the writes, on plain maps. *)
  Fixpoint after (f : bytes -> option V) (l : list wop) : bytes -> option V :=
    match l with
    | [] => f
    | o :: r => after (fun k => if decide (k = wkey o) then wval o else f k) r
    end.
  (** Running the writes on a batch with the code's operations. *)
  Definition wrun (t : batch V) (l : list wop) : batch V :=
    fold_left (fun t o => match o with WPut k v => tput t k v | WDel k => tdel t k end) l t.

  Lemma after_ext l f g : (forall k, f k = g k) -> forall k, after f l k = after g l k.
  Proof.
    revert f g. induction l as [|o l IH]; intros f g H k; [apply H|]. cbn. apply IH. intros k'.
    by destruct (decide _).
  Qed.

  (** A read through the transaction sees its own last write to the key, otherwise the database. *)
  Theorem C11_read_own_writes : forall (db : kv V) l k, tget db (wrun ∅ l) k = after (fun k => db !! k) l k.
  Proof.
    intros db l k.
    assert (H : forall t f, (forall k, tget db t k = f k) -> tget db (wrun t l) k = after f l k).
    { induction l as [|o l IH]; intros t f H; [apply H|]. cbn. apply IH. intros k'.
      destruct o as [k0 v|k0]; cbn [wkey wval]; destruct (decide (k' = k0)) as [->|Hne].
      - apply tget_put.
      - by rewrite tget_put_ne.
      - apply tget_del.
      - by rewrite tget_del_ne. }
    apply H. intros k'. apply tget_empty.
  Qed.
  (** Committing yields exactly what the transaction saw. *)
  Theorem C11_commit_as_seen : forall (db : kv V) l k, commit db (wrun ∅ l) !! k = after (fun k => db !! k) l k.
  Proof. intros. rewrite lookup_commit. apply C11_read_own_writes. Qed.
  (** Merging a second batch and committing is the same as doing its writes afterwards. *)
  Theorem C11_merge_sequential : forall (db : kv V) l1 l2 k,
    commit db (tmerge (wrun ∅ l1) (wrun ∅ l2)) !! k = after (fun k => db !! k) (l1 ++ l2) k.
  Proof.
    intros db l1 l2 k. rewrite lookup_commit, tget_merge.
    assert (Ha : forall f, after f (l1 ++ l2) = after (after f l1) l2).
    { intros f. revert f. induction l1 as [|o l1 IH]; intros f; [done|]. cbn. apply IH. }
    rewrite Ha. rewrite (after_ext l2 _ (fun k => tget db (wrun ∅ l1) k)) by (intros k'; by rewrite C11_read_own_writes).
    assert (H : forall (t : batch V) f, (forall k, f k = match t !! k with Some v => v | None => tget db (wrun ∅ l1) k end) ->
      match wrun t l2 !! k with Some v => v | None => tget db (wrun ∅ l1) k end = after f l2 k).
    { clear Ha. induction l2 as [|o l2 IH]; intros t f H; [by rewrite H|]. cbn. apply IH. intros k'.
      destruct o as [k0 v|k0]; cbn [wkey wval]; destruct (decide (k' = k0)) as [->|Hne].
      - unfold tput. by rewrite lookup_insert.
      - unfold tput. rewrite lookup_insert_ne by done. apply H.
      - unfold tdel. by rewrite lookup_insert.
      - unfold tdel. rewrite lookup_insert_ne by done. apply H. }
    apply H. intros k'. by rewrite lookup_empty.
  Qed.
  (** rocksdb.rs:381-419: the entries are written one by one in key order; every order gives the same contents. *)
  Definition apply_entry (db : kv V) (e : bytes * option V) : kv V :=
    match e.2 with Some v => <[e.1 := v]> db | None => delete e.1 db end.
  Theorem C11_write_order_irrelevant : forall (db : kv V) (t : batch V) es, es ≡ₚ map_to_list t ->
    fold_left apply_entry es db = commit db t.
  Proof.
    intros db t es Hp. apply map_eq. intros k. rewrite lookup_commit. unfold tget.
    assert (Hel : forall o, (k, o) ∈ es <-> t !! k = Some o) by (intros o; by rewrite Hp, elem_of_map_to_list).
    assert (Hnd : NoDup es.*1) by (rewrite Hp; apply NoDup_fst_map_to_list).
    assert (H : forall es (db : kv V), NoDup es.*1 ->
      fold_left apply_entry es db !! k = match list_find (fun e => e.1 = k) es with Some (_, e) => e.2 | None => db !! k end).
    { clear. induction es as [|[k' o] es IH]; intros db Hnd; [done|]. cbn in Hnd. apply NoDup_cons in Hnd as [Hni Hnd].
      cbn [fold_left]. rewrite IH by done. cbn [list_find fst]. destruct (decide (k' = k)) as [->|Hne].
      - rewrite (proj2 (list_find_None _ es)).
        2:{ apply Forall_forall. intros [k2 o2] H2 He. cbn in He. subst k2. apply Hni. apply elem_of_list_fmap. by exists (k, o2). }
        unfold apply_entry. cbn. destruct o; [apply lookup_insert|apply lookup_delete].
      - destruct (list_find _ es) as [[i e]|]; [done|]. cbn. unfold apply_entry. cbn.
        destruct o; [by rewrite lookup_insert_ne|by rewrite lookup_delete_ne]. }
    rewrite H by done. destruct (list_find _ es) as [[i [k' o]]|] eqn:E.
    - apply list_find_Some in E as (E1 & E2 & _). cbn in E2. subst k'. apply elem_of_list_lookup_2, Hel in E1. by rewrite E1.
    - apply list_find_None in E. rewrite Forall_forall in E. destruct (t !! k) as [o|] eqn:Et; [|done].
      exfalso. apply (E (k, o)); [by apply Hel|done].
  Qed.
End C11.
Example C11_ex :
  let db : kv N := <[[1] := 10]> (<[[2] := 20]> ∅) in
  let l := [WPut [3] 30; WDel [1]; WPut [3] 31; WPut [1] 11; WDel [2]] in
  map (tget db (wrun ∅ l)) [[1]; [2]; [3]; [4]] = [Some 11; None; Some 31; None] /\
  map (fun k => commit db (wrun ∅ l) !! k) [[1]; [2]; [3]; [4]] = [Some 11; None; Some 31; None].
Proof. vm_compute. done. Qed.

(** ** C12 *)

(** What a listing should contain: the rows of the range, each once, in key order (backwards if reversed). *)
Definition is_listing {V} (db : kv V) (start stop : bytes) (rev : bool) (l : list (bytes * V)) : Prop :=
  (forall k v, (k, v) ∈ l <-> db !! k = Some v /\ ble start k = true /\ blt k stop = true) /\
  StronglySorted (fun a b => if rev then blt b.1 a.1 = true else blt a.1 b.1 = true) l.

Theorem C12_listing_unique : forall {V} (db : kv V) start stop rev l1 l2,
  is_listing db start stop rev l1 -> is_listing db start stop rev l2 -> l1 = l2.
Proof.
  intros V db start stop rev l1 l2 [E1 S1] [E2 S2]. apply (sorted_unique rev).
  - unfold ordered, klt, kgt. by destruct rev.
  - unfold ordered, klt, kgt. by destruct rev.
  - intros [k v]. by rewrite E1, E2.
Qed.
Lemma scan_listing {V} (db : kv V) start stop sz rev : is_listing db start stop rev (scan db start stop (POpts sz None rev)).
Proof.
  split.
  - intros k v. rewrite scan_elem. unfold in_bounds, bounds. cbn. rewrite andb_true_iff. by destruct rev.
  - pose proof (scan_sorted db start stop (POpts sz None rev)) as H. unfold ordered, klt, kgt in H. cbn in H. by destruct rev.
Qed.

(** The entries of a listing: rows that decode and pass the caller's filter. *)
Definition entries {V A} (mk : bytes -> V -> option A) (keep : A -> bool) (l : list (bytes * V)) : list A :=
  omap (fun r => match mk r.1 r.2 with Some a => if keep a then Some a else None | None => None end) l.
(** The pages are full except the last, which is shorter (possibly empty). *)
Definition page_shape {A} (size : N) (ps : list (list A)) : Prop :=
  exists init last, ps = init ++ [last] /\ Forall (fun p => N.of_nat (length p) = size) init /\ N.of_nat (length last) < size.
Definition page_len (sz : option N) : N := N.max 1 (default 1000 sz).

(** Following the tokens of a listing with a filter (message listings and the indexes by parent, mention and target). *)
Theorem C12_filtered : forall {V A} (mk : bytes -> V -> option A) keep (db : kv V) start stop sz rev l,
  start <> [] -> is_listing db start stop rev l -> Forall (fun r => is_Some (mk r.1 r.2)) l ->
  forall fuel, (length l < fuel)%nat ->
  exists ps, follow (fun t => list_filtered mk keep db start stop (POpts sz t rev)) fuel None = Some (Ok ps) /\
    concat ps = entries mk keep l /\ page_shape (page_len sz) ps.
Proof.
  intros V A mk keep db start stop sz rev l Hst Hl Hd fuel Hf.
  rewrite (C12_listing_unique _ _ _ _ _ _ Hl (scan_listing db start stop sz rev)) in *.
  destruct (follow_spec mk keep db start stop sz rev Hst fuel None Hd Hf) as (init & last & H1 & H2 & H3 & H4).
  exists (init ++ [last]). split; [done|]. split; [done|]. exists init, last. done.
Qed.
(** The same for listings through the limited iterator (blocks, shard chunks, events, on-chain events, keys). *)
Theorem C12_limited : forall {V A} (mk : bytes -> V -> option A) (db : kv V) start stop sz rev l,
  start <> [] -> is_listing db start stop rev l -> Forall (fun r => is_Some (mk r.1 r.2)) l ->
  forall fuel, (length l < fuel)%nat ->
  exists ps, follow (fun t => list_limited mk (fun _ => true) db start stop (POpts sz t rev)) fuel None = Some (Ok ps) /\
    concat ps = entries mk (fun _ => true) l /\ page_shape (page_len sz) ps.
Proof.
  intros V A mk db start stop sz rev l Hst Hl Hd fuel Hf.
  destruct (C12_filtered mk (fun _ => true) db start stop sz rev l Hst Hl Hd fuel Hf) as (ps & H1 & H2).
  exists ps. split; [|done]. rewrite <- H1. clear. generalize (@None bytes) as t. induction fuel as [|n IH]; intros t; [done|].
  cbn [follow]. rewrite limited_filtered by done.
  destruct (list_filtered _ _ _ _ _ _) as [[x [t'|]]| |]; [|done|done|done]. by rewrite IH.
Qed.
(** The channel listings (members, memberships, moderations, followers) over a prefix. *)
Theorem C12_channel : forall {V A} (mk : bytes -> V -> option A) keep (db : kv V) prefix sz rev l,
  prefix <> [] -> Exists (fun x => x <> 255) prefix ->
  (forall k v, db !! k = Some v -> bytes_ok k = true /\ (length prefix <= length k)%nat) ->
  is_listing db prefix (increment_vec_u8 prefix) rev l -> Forall (fun r => is_Some (mk r.1 r.2)) l ->
  forall fuel, (length l < fuel)%nat ->
  exists ps, follow (fun t => list_channel mk keep db prefix (POpts sz t rev)) fuel None = Some (Ok ps) /\
    concat ps = entries mk keep l /\ page_shape (page_len sz) ps.
Proof.
  intros V A mk keep db prefix sz rev l Hst Hex Hkeys Hl Hd fuel Hf.
  destruct (C12_filtered mk keep db prefix (increment_vec_u8 prefix) sz rev l Hst Hl Hd fuel Hf) as (ps & H1 & H2).
  exists ps. split; [|done]. rewrite <- H1. clear H1 H2 ps.
  rewrite (C12_listing_unique _ _ _ _ _ _ Hl (scan_listing db prefix _ sz rev)) in Hd. clear Hl l Hf.
  set (stop := increment_vec_u8 prefix) in *.
  assert (Hgo : forall t, decodes mk (scan db prefix stop (POpts sz t rev)) ->
    (match t with Some u => bytes_ok u = true /\ (length prefix <= length u)%nat /\ in_prefix_scan prefix u = true
     | None => True end) ->
    follow (fun t => list_channel mk keep db prefix (POpts sz t rev)) fuel t =
    follow (fun t => list_filtered mk keep db prefix stop (POpts sz t rev)) fuel t).
  { induction fuel as [|n IH]; intros t Hdt Ht; [done|]. cbn [follow].
    rewrite channel_filtered by done.
    assert (Htok : token_in_prefix prefix (POpts sz t rev) = true).
    { unfold token_in_prefix. cbn. destruct t as [u|]; [|done]. destruct Ht as (H1 & H2 & H3).
      by rewrite in_prefix_scan_spec in H3. }
    rewrite Htok. fold stop.
    destruct (page_split mk keep db prefix stop (POpts sz t rev) Hst Hdt) as [[_ ->]|(pre & k & v & suf & E & _ & ->)]; [done|].
    rewrite IH; [done| |].
    - rewrite (scan_token db prefix stop sz rev t pre k v suf E). unfold decodes in *. rewrite E in Hdt.
      apply Forall_app in Hdt as [_ Hdt]. by apply Forall_cons in Hdt as [_ Hdt].
    - assert (Hk : (k, v) ∈ scan db prefix stop (POpts sz t rev)) by (rewrite E; apply elem_of_app; right; left).
      apply scan_elem in Hk as [Hv Hb]. destruct (Hkeys k v Hv) as [Hok Hlen]. split; [done|]. split; [done|].
      unfold in_prefix_scan in *. fold stop in Ht |- *. unfold in_bounds in Hb.
      apply andb_prop in Hb as [Hb1 Hb2]. unfold bounds in Hb1, Hb2. cbn in Hb1, Hb2.
      apply andb_true_iff. destruct rev; destruct t as [u|]; try done; destruct Ht as (_ & _ & Ht); apply andb_prop in Ht as [Ht1 Ht2].
      + split; [done|]. by eapply blt_trans.
      + split; [|done]. rewrite blt_snoc0 in Hb1. eapply ble_trans; [exact Ht1|]. apply ble_eq_or_lt. by right. }
  by apply Hgo.
Qed.

(** A prefix range contains exactly the keys with that prefix (message.rs:285-288 and every other listing by prefix). *)
Theorem C12_prefix_range : forall {V} (db : kv V) prefix rev l,
  Exists (fun x => x <> 255) prefix ->
  (forall k v, db !! k = Some v -> bytes_ok k = true /\ (length prefix <= length k)%nat) ->
  is_listing db prefix (increment_vec_u8 prefix) rev l ->
  forall k v, (k, v) ∈ l <-> db !! k = Some v /\ exists r, k = prefix ++ r.
Proof.
  intros V db prefix rev l Hex Hkeys [Hl _] k v. rewrite Hl, <- andb_true_iff, <- is_prefix_spec.
  split; intros [Hv H]; (split; [done|]); destruct (Hkeys k v Hv) as [H1 H2];
    pose proof (in_prefix_scan_spec prefix k H1 Hex H2) as He; unfold in_prefix_scan in He; congruence.
Qed.

(** Across owner addresses: the pages list the channels of every address in turn. *)
Theorem C12_owners : forall {V A} (mk : bytes -> bytes -> V -> option A) (root : bytes) (db : kv V) owners size l,
  1 <= size -> Forall (fun a => length a = 20%nat /\ bytes_ok a = true) owners ->
  root <> [] -> Exists (fun x => x <> 255) root ->
  StronglySorted (fun a b => blt a b = true) owners ->
  (forall k v, db !! k = Some v -> bytes_ok k = true /\ (length root + 20 <= length k)%nat) ->
  (* [l a] is the listing of one address *)
  (forall a, a ∈ owners -> is_listing db (root ++ a) (increment_vec_u8 (root ++ a)) false (l a)) ->
  (forall a, a ∈ owners -> Forall (fun r => is_Some (mk a r.1 r.2)) (l a)) ->
  forall fuel, (length (concat (map l owners)) < fuel)%nat ->
  exists ps, follow (fun t => list_owners mk (fun a => root ++ a) db owners size t) fuel None = Some (Ok ps) /\
    concat ps = concat (map (fun a => map (pair a) (entries (mk a) (fun _ => true) (l a))) owners) /\ page_shape size ps.
Proof.
  intros V A mk root db owners size l Hsz How Hroot Hex Hs Hkeys Hl Hd fuel Hf.
  (* addresses of another length do not occur; pad the prefix function to a fixed length *)
  set (pf := fun a : bytes => root ++ take 20 (a ++ repeat 0 20)).
  assert (Hpf : forall a, a ∈ owners -> pf a = root ++ a).
  { intros a Ha. rewrite Forall_forall in How. destruct (How a Ha) as [Hla _]. unfold pf. by rewrite take_app_alt. }
  assert (HL : forall a, length (pf a) = (length root + 20)%nat).
  { intros a. unfold pf. rewrite app_length, take_length, app_length, repeat_length. lia. }
  assert (Hlist : forall t os s, (forall a, a ∈ os -> a ∈ owners) ->
    owners_loop mk (fun a => root ++ a) db t size os s = owners_loop mk pf db t size os s).
  { intros t os. induction os as [|a os IH]; intros s Hin; [done|]. cbn [owners_loop].
    destruct (size <=? _); [done|]. unfold owner_token, list_owner. rewrite (Hpf a) by (apply Hin; left).
    assert (Hin' : forall b, b ∈ os -> b ∈ owners) by (intros b Hb; apply Hin; by right).
    destruct t as [u|]; [destruct (is_prefix _ _); [|destruct (blt _ _)]|];
      (destruct (list_limited _ _ _ _ _ _) as [[ks nt]| |]; [|done|done]) || idtac; by apply IH. }
  assert (Hfol : forall t, follow (fun t => list_owners mk (fun a => root ++ a) db owners size t) fuel t =
    follow (fun t => list_owners mk pf db owners size t) fuel t).
  { clear Hf. induction fuel as [|n IH]; intros t; [done|]. cbn [follow].
    replace (list_owners mk (λ a, root ++ a) db owners size t) with (list_owners mk pf db owners size t).
    2:{ unfold list_owners. by rewrite Hlist. }
    destruct (list_owners mk pf db owners size t) as [[x [u|]]| |]; [|done|done|done]. by rewrite IH. }
  rewrite Hfol.
  assert (Hreg : forall a, a ∈ owners -> region pf db a None = l a).
  { intros a Ha. unfold region. rewrite (Hpf a Ha).
    apply (C12_listing_unique db (root ++ a) (increment_vec_u8 (root ++ a)) false); [apply scan_listing|by apply Hl]. }
  assert (Hseg : segs pf db None owners = concat (map (fun a => map (pair a) (l a)) owners)).
  { unfold segs. f_equal. apply map_ext_in. intros a Ha. apply elem_of_list_In in Ha. unfold seg. cbn [owner_token]. by rewrite Hreg. }
  destruct (owners_follow mk pf (length root + 20) HL ltac:(lia) db owners size Hsz) with (fuel := fuel) (tok := @None bytes)
    as (init & last & H1 & H2 & H3 & H4).
  - clear -Hs Hpf. induction Hs as [|a os Hs IH Hfo]; [constructor|]. constructor.
    + apply IH. intros b Hb. apply Hpf. by right.
    + rewrite Forall_forall in Hfo |- *. intros b Hb. rewrite !Hpf by (by left || by right).
      apply blt_lex. rewrite lex_app_l. by apply blt_lex, Hfo.
  - intros a t k v Ha Hin Ht. unfold region in Hin. apply scan_elem in Hin as [Hv Hb].
    destruct (Hkeys k v Hv) as [Hok Hlen].
    assert (Hlp : (length (pf a) <= length k)%nat) by (rewrite HL; done).
    assert (Hexp : Exists (fun x => x <> 255) (pf a)) by (rewrite (Hpf a Ha); apply Exists_app; by left).
    rewrite <- (in_prefix_scan_spec (pf a) k Hok Hexp Hlp). unfold in_prefix_scan.
    apply andb_prop in Hb as [Hb1 Hb2]. unfold bounds in Hb1, Hb2. cbn in Hb1, Hb2. apply andb_true_iff. split; [|done].
    destruct Ht as [->|(u & -> & Hu)]; [done|]. rewrite blt_snoc0 in Hb1.
    eapply ble_trans; [|apply ble_eq_or_lt; right; exact Hb1]. apply is_prefix_spec in Hu as [r ->].
    apply ble_lex. replace (pf a) with (pf a ++ []) at 1 by apply app_nil_r. rewrite lex_app_l. by destruct r.
  - rewrite Hseg. unfold odecodes. apply Forall_concat, Forall_fmap, Forall_forall. intros a Ha. cbn.
    apply Forall_map. cbn. by apply Hd.
  - rewrite Hseg. clear -Hf.
    assert (He : length (concat (map (fun a => map (pair a) (l a)) owners)) = length (concat (map l owners))).
    { clear Hf. induction owners as [|a os IH]; [done|]. cbn [map concat]. by rewrite !app_length, map_length, IH. }
    by rewrite He.
  - exists (init ++ [last]). split; [done|]. split; [|by exists init, last].
    rewrite H2, Hseg. clear. induction owners as [|a os IH]; [done|]. cbn [map concat]. rewrite omap_app, IH. f_equal.
    apply oentry_map.
Qed.

(** Bulk deletion removes exactly the rows of the range and reports their number. *)
Theorem C12_delete_range : forall {V} (db : kv V) start stop sz rev l, is_listing db start stop rev l ->
  forall fuel, (length l < fuel)%nat ->
  exists db', delete_paginated fuel db start stop (POpts sz None rev) 0 = Some (db', N.of_nat (length l)) /\
    forall k, db' !! k = if ble start k && blt k stop then None else db !! k.
Proof.
  intros V db start stop sz rev l Hl fuel Hf.
  rewrite (C12_listing_unique _ _ _ _ _ _ Hl (scan_listing db start stop sz rev)) in *.
  destruct (delete_paginated_spec start stop (POpts sz None rev) fuel db 0 Hf) as (db' & H1 & H2).
  exists db'. rewrite H1, N.add_0_l. split; [done|]. intros k. rewrite H2. unfold in_bounds, bounds. cbn. by destruct rev.
Qed.
(** Pruning events removes exactly the events of blocks below the stop height (event.rs:227-252). *)
Theorem C12_prune_events : forall {V} (db : kv V) h sz rev l, h < 2 ^ 50 ->
  is_listing db (make_event_key 0) (make_event_key (make_event_id h 0)) rev l ->
  forall fuel, (length l < fuel)%nat ->
  exists db', prune_events fuel db h (POpts sz None rev) = Some (db', N.of_nat (length l)) /\
    (forall h' seq, h' < 2 ^ 50 -> seq < 2 ^ 14 ->
       db' !! make_event_key (make_event_id h' seq) = if h' <? h then None else db !! make_event_key (make_event_id h' seq)) /\
    (forall k, head k <> Some 9 -> db' !! k = db !! k).
Proof.
  intros V db h sz rev l Hh Hl fuel Hf. unfold prune_events.
  destruct (C12_delete_range db _ _ sz rev l Hl fuel Hf) as (db' & H1 & H2). exists db'. split; [done|].
  assert (Hid : forall h seq, h < 2 ^ 50 -> seq < 2 ^ 14 -> make_event_id h seq = h * 2 ^ 14 + seq).
  { intros. rewrite make_event_id_eq by (done || lia). by rewrite N.mod_small. }
  assert (Hlex : forall a b, a < 2 ^ 64 -> b < 2 ^ 64 -> lex (make_event_key a) (make_event_key b) = (a ?= b)).
  { intros a b Ha Hb. unfold make_event_key. cbn [lex]. rewrite N.compare_refl. by apply be_lex. }
  split.
  - intros h' seq Hh' Hs. rewrite H2, !Hid by (done || lia). unfold ble, blt.
    change (2 ^ 50) with 1125899906842624 in *. change (2 ^ 14) with 16384 in *. change (2 ^ 64) with 18446744073709551616 in *.
    rewrite !Hlex by lia.
    destruct (N.compare_spec 0 (h' * 16384 + seq)); [| |lia];
      (destruct (N.compare_spec (h' * 16384 + seq) (h * 16384 + 0)); destruct (N.ltb_spec h' h); cbn; (done || lia)).
  - intros k Hk. rewrite H2. destruct k as [|x k]; [done|]. cbn in Hk. unfold make_event_key, ble, blt. cbn [lex].
    unfold RP_HubEvents. destruct (N.compare_spec 9 x) as [<-|?|?]; [done| |done].
    destruct (N.compare_spec x 9); [lia|lia|done].
Qed.

(** A page token is used as it is: a listing without the check returns rows outside the requested prefix.
    With the check ([list_channel]) such a token is refused. *)
Theorem C12_foreign_token_refuted : exists (db : kv N) prefix tok k,
  list_filtered (fun k v => Some (k, v)) (fun _ => true) db prefix (increment_vec_u8 prefix) (POpts None (Some tok) false)
    = Ok ([(k, 7)], None) /\ is_prefix prefix k = false /\
  list_channel (fun k v => Some (k, v)) (fun _ => true) db prefix (POpts None (Some tok) false) = Err tt.
Proof. exists (<[[3; 0; 0; 0; 1; 1] := 7]> ∅), [3; 0; 0; 0; 2; 1], [0], [3; 0; 0; 0; 1; 1]. vm_compute. done. Qed.
(** With the check, every row read is in the prefix, whatever the token. *)
Theorem C12_checked_token : forall {V A} (mk : bytes -> V -> option A) keep (db : kv V) prefix po ps t,
  prefix <> [] -> Exists (fun x => x <> 255) prefix ->
  (forall k v, db !! k = Some v -> bytes_ok k = true /\ (length prefix <= length k)%nat) ->
  list_channel mk keep db prefix po = Ok (ps, t) ->
  forall u, po_token po = Some u -> bytes_ok u = true ->
  forall a, a ∈ ps -> exists k v r, db !! k = Some v /\ k = prefix ++ r /\ mk k v = Some a.
Proof.
  intros V A mk keep db prefix po ps t Hp Hex Hkeys H u Hu Hou a Ha. unfold list_channel in H.
  destruct (token_in_prefix prefix po) eqn:Ht; [|done]. cbn [negb] in H.
  unfold token_in_prefix in Ht. rewrite Hu in Ht.
  unfold for_each, for_each_paged in H. cbn [po_size] in H.
  set (l := scan db prefix (increment_vec_u8 prefix) _) in H.
  assert (Hin : forall l acc lk l' k' d, iterate (chan_cb mk keep (psize po)) None 0 l (acc, lk) = Ok (l', k', d) ->
    forall x, x ∈ l' -> x ∈ acc \/ exists k v, (k, v) ∈ l /\ mk k v = Some x).
  { clear. induction l as [|[k v] l IH]; intros acc lk l' k' d H x Hx.
    - cbn in H. injection H as <- _ _. by left.
    - cbn [iterate] in H. unfold chan_cb at 1 in H. destruct (mk k v) as [y|] eqn:Ey; [|done]. cbn [fst snd] in H.
      destruct (keep y).
      + assert (Hacc : x ∈ acc ++ [y] -> x ∈ acc \/ exists k0 v0, (k0, v0) ∈ (k, v) :: l /\ mk k0 v0 = Some x).
        { intros [?|H1]%elem_of_app; [by left|]. apply elem_of_list_singleton in H1 as ->. right. exists k, v. split; [left|done]. }
        destruct (psize po <=? N.of_nat (length (acc ++ [y]))).
        * injection H as <- _ _. by apply Hacc.
        * destruct (IH _ _ _ _ _ H x Hx) as [?|(k0 & v0 & H1 & H2)]; [by apply Hacc|].
          right. exists k0, v0. split; [by right|done].
      + destruct (IH _ _ _ _ _ H x Hx) as [?|(k0 & v0 & H1 & H2)]; [by left|]. right. exists k0, v0. split; [by right|done]. }
  destruct (iterate _ _ _ l _) as [[[l' k'] d]| |] eqn:E; [|done|done]. injection H as <- _.
  destruct (Hin _ _ _ _ _ _ E a Ha) as [H|(k & v & Hk & Hmk)]; [by apply elem_of_nil in H|].
  subst l. apply scan_elem in Hk as [Hv Hb]. destruct (Hkeys k v Hv) as [Hok Hlen].
  assert (Hpre : is_prefix prefix k = true).
  { rewrite <- (in_prefix_scan_spec prefix k Hok Hex Hlen). unfold in_prefix_scan.
    apply andb_prop in Hb as [Hb1 Hb2]. unfold bounds in Hb1, Hb2. cbn in Hb1, Hb2. rewrite Hu in Hb1, Hb2.
    assert (Hul : (length prefix <= length u)%nat).
    { apply is_prefix_spec in Ht as [r ->]. rewrite app_length. lia. }
    pose proof (in_prefix_scan_spec prefix u Hou Hex Hul) as Hpu. rewrite Ht in Hpu. unfold in_prefix_scan in Hpu.
    apply andb_prop in Hpu as [Hpu1 Hpu2]. apply andb_true_iff. destruct (po_reverse po).
    - split; [done|]. by eapply blt_trans.
    - split; [|done]. rewrite blt_snoc0 in Hb1. eapply ble_trans; [exact Hpu1|]. apply ble_eq_or_lt. by right. }
  apply is_prefix_spec in Hpre as [r ->]. by exists (prefix ++ r), v, r.
Qed.

Definition ex_db : kv N := list_to_map (map (fun i => ([3; 0; 0; 0; 1; 1; i], i)) [5; 2; 9; 7; 1; 4] ++ [([3; 0; 0; 0; 2; 1; 8], 8)]).
Example C12_ex :
  follow (fun t => list_filtered (fun _ v => Some v) (fun v => negb (v =? 2)) ex_db [3; 0; 0; 0; 1; 1] [3; 0; 0; 0; 1; 2]
    (POpts (Some 2) t false)) 10 None = Some (Ok [[1; 4]; [5; 7]; [9]]) /\
  follow (fun t => list_limited (fun _ v => Some v) (fun _ => true) ex_db [3; 0; 0; 0; 1; 1] [3; 0; 0; 0; 1; 2]
    (POpts (Some 3) t true)) 10 None = Some (Ok [[9; 7; 5]; [4; 2; 1]; []]) /\
  follow (fun t => list_channel (fun _ v => Some v) (fun _ => true) ex_db [3; 0; 0; 0; 1; 1] (POpts (Some 4) t false)) 10 None
    = Some (Ok [[1; 2; 4; 5]; [7; 9]]) /\
  follow (fun t => list_limited (fun _ v => Some v) (fun _ => true) ex_db [3; 0; 0; 0; 1; 1] [3; 0; 0; 0; 1; 2]
    (POpts (Some 0) t false)) 10 None = Some (Ok [[1]; [2]; [4]; [5]; [7]; [9]; []]).
Proof. vm_compute. done. Qed.
(** The listing across addresses treats page size 0 differently: it returns nothing and no token. *)
Theorem C12_owners_size0_refuted : exists (db : kv N) owners,
  list_owners (fun _ _ v => Some v) (fun a => [12; 9] ++ a) db owners 0 None = Ok ([], None) /\
  list_owners (fun _ _ v => Some v) (fun a => [12; 9] ++ a) db owners 1 None = Ok ([(repeat 1 20, 5)], Some ([12; 9] ++ repeat 1 20 ++ [7])).
Proof. exists (<[[12; 9] ++ repeat 1 20 ++ [7] := 5]> ∅), [repeat 1 20]. vm_compute. done. Qed.
Example C12_owners_ex :
  let db : kv N := list_to_map [([12; 9] ++ repeat 1 20 ++ [7], 5); ([12; 9] ++ repeat 1 20 ++ [8], 6);
    ([12; 9] ++ repeat 2 20 ++ [7], 9); ([12; 9] ++ repeat 3 20 ++ [7], 1)] in
  follow (fun t => list_owners (fun _ _ v => Some v) (fun a => [12; 9] ++ a) db [repeat 1 20; repeat 3 20] 2 t) 10 None =
    Some (Ok [[(repeat 1 20, 5); (repeat 1 20, 6)]; [(repeat 3 20, 1)]]).
Proof. vm_compute. done. Qed.
Example C12_delete_ex :
  exists db', delete_paginated 10 ex_db [3; 0; 0; 0; 1; 1] [3; 0; 0; 0; 1; 2] (POpts (Some 4) None false) 0 = Some (db', 6) /\
    map_to_list db' = [([3; 0; 0; 0; 2; 1; 8], 8)].
Proof. eexists. split; vm_compute; reflexivity. Qed.

(** ** C57 *)

(** The blocks a store holds. *)
Definition stored (root : N) (db : kv bval) (n ts b : N) : Prop := db !! block_key root n = Some (VBlock n ts b).

(** Lookup by time: the answer is the first block of the chain at or after the time; [None] only when there is none;
    an error only when that block was pruned. *)
Theorem C57_first_at_or_after : forall root shard ops t, root < 18 ->
  chain (puts ops) = true -> forallb job_ok ops = true -> t < 2 ^ 64 ->
  match next_height_by_ts shard (brun root shard ops) t with
  | Ok (Some n) => exists ts b, (n, ts, b) ∈ puts ops /\ t <= ts /\ stored root (brun root shard ops) n ts b /\
      forall n' ts' b', (n', ts', b') ∈ puts ops -> n' < n -> ts' < t
  | Ok None => forall n ts b, (n, ts, b) ∈ puts ops -> ts < t
  | _ => exists n ts b, (n, ts, b) ∈ puts ops /\ t <= ts /\ ~ stored root (brun root shard ops) n ts b
  end.
Proof.
  intros root shard ops t Hr Hc Hj Ht. destruct (binv_run root shard Hr ops Hc Hj) as [lo HI].
  destruct (next_height_spec root shard Hr _ lo _ t Hc HI Ht) as [[-> H]|(n & Hff & ->)]; [done|].
  destruct Hff as (ts & b & Hin & Hle & Hm). destruct (N.ltb_spec n lo) as [Hlt|Hge].
  - exists n, ts, b. repeat split; try done. unfold stored. intros Hst.
    destruct (bi_only _ _ _ _ _ HI _ _ Hst) as [(n' & t' & b' & _ & Hlo & _ & He)|(n' & t' & _ & _ & He)]; [|done].
    injection He as -> _ _. lia.
  - exists ts, b. repeat split; try done; [by apply (bi_block _ _ _ _ _ HI)|].
    intros n' ts' b' Hin' Hlt'. destruct (N.lt_ge_cases ts' t) as [?|Hge']; [done|].
    specialize (Hm n' ts' b' Hin' Hge'). lia.
Qed.
(** Blocks are never altered, and the newest block is never pruned. *)
Theorem C57_tip_kept : forall root shard ops, root < 18 -> chain (puts ops) = true -> forallb job_ok ops = true ->
  (forall n ts b, stored root (brun root shard ops) n ts b -> (n, ts, b) ∈ puts ops) /\
  match last (puts ops) with
  | Some (n, ts, b) => stored root (brun root shard ops) n ts b /\ max_block_number root (brun root shard ops) = Ok n
  | None => max_block_number root (brun root shard ops) = Ok 0
  end.
Proof.
  intros root shard ops Hr Hc Hj. destruct (binv_run root shard Hr ops Hc Hj) as [lo HI]. split.
  - intros n ts b H. destruct (bi_only _ _ _ _ _ HI _ _ H) as [(n' & t' & b' & Hin & _ & _ & He)|(n' & t' & _ & _ & He)]; [|done].
    by injection He as -> -> ->.
  - unfold max_block_number.
    destruct (first_or_last_spec root shard Hr true _ lo _ Hc HI) as [[He ->]|(n & ts & b & Hin & Hlo & -> & Hmax)]; [by rewrite He|].
    destruct (last (puts ops)) as [[[n' ts'] b']|] eqn:El.
    + destruct (bi_lo _ _ _ _ _ HI) as (n1 & t1 & b1 & Hl & Hle); [intros He; by rewrite He in Hin; apply elem_of_nil in Hin|].
      rewrite El in Hl. injection Hl as <- <- <-.
      assert (Hin' : (n', ts', b') ∈ puts ops).
      { apply last_Some in El as [h ->]. apply elem_of_app. right. by left. }
      split; [by apply (bi_block _ _ _ _ _ HI)|]. f_equal.
      pose proof (chain_last_max _ _ _ Hc Hin El) as [H1 _]. cbn in H1. specialize (Hmax _ _ _ Hin' Hle). cbn in Hmax. lia.
    + apply last_None in El. rewrite El in Hin. by apply elem_of_nil in Hin.
Qed.
(** The pruning job removes exactly the blocks older than the cutoff, provided a block at or after the cutoff is
    stored; otherwise it removes nothing. *)
Theorem C57_job_exact : forall root shard ops c, root < 18 ->
  chain (puts ops) = true -> forallb job_ok ops = true -> c < 2 ^ 64 ->
  let db := brun root shard ops in
  let db' := brun root shard (ops ++ [BJob c]) in
  match next_height_by_ts shard db c with
  | Ok (Some _) => forall n ts b, stored root db' n ts b <-> stored root db n ts b /\ c <= ts
  | _ => db' = db
  end.
Proof.
  intros root shard ops c Hr Hc Hj Ht db db'. destruct (binv_run root shard Hr ops Hc Hj) as [lo HI].
  fold db in HI. assert (Edb : db' = bstep root shard db (BJob c)).
  { unfold db', brun. by rewrite fold_left_app. }
  destruct (binv_job root shard Hr _ lo db c Hc HI Ht) as (lo' & HI' & Hcase).
  destruct (next_height_spec root shard Hr _ lo _ c Hc HI Ht) as [[Hn Hall]|(n & Hff & Hn)].
  - rewrite Hn. rewrite Edb. cbn [bstep]. unfold prune_job. by rewrite Hn.
  - rewrite Hn. destruct (N.ltb_spec n lo) as [Hlt|Hge].
    { rewrite Edb. cbn [bstep]. unfold prune_job. by rewrite Hn; destruct (N.ltb_spec n lo); [|lia]. }
    assert (Hlo' : lo' = N.max lo n).
    { destruct Hff as (ts & b & Hin & Hle & Hm).
      destruct Hcase as [(n2 & (ts2 & b2 & Hin2 & Hle2 & Hm2) & _ & ->)|(_ & _ & [Hno|(n2 & (ts2 & b2 & Hin2 & Hle2 & Hm2) & Hlt2)])].
      - specialize (Hm _ _ _ Hin2 Hle2). specialize (Hm2 _ _ _ Hin Hle). f_equal. lia.
      - apply Hno in Hin. lia.
      - specialize (Hm _ _ _ Hin2 Hle2). lia. }
    destruct Hff as (ts0 & b0 & Hin0 & Hle0 & Hm0).
    assert (Hst : forall lo db n ts b, binv root shard (puts ops) lo db -> stored root db n ts b <-> (n, ts, b) ∈ puts ops /\ lo <= n).
    { intros lo1 db1 n1 ts1 b1 HI1. split.
      - intros H. destruct (bi_only _ _ _ _ _ HI1 _ _ H) as [(n2 & t2 & b2 & Hin & Hle & _ & He)|(n2 & t2 & _ & _ & He)]; [|done].
        by injection He as -> -> ->.
      - intros [H1 H2]. by apply (bi_block _ _ _ _ _ HI1). }
    intros n1 ts1 b1. rewrite Edb, (Hst lo'), (Hst lo) by done. rewrite Hlo'. split.
    + intros [Hin Hle]. repeat split; try done; [lia|].
      destruct (chain_ordered _ _ _ Hc Hin0 Hin) as [He|[Hb|Hb]].
      * injection He as <- <- <-. done.
      * unfold before in Hb. cbn in Hb. lia.
      * unfold before in Hb. cbn in Hb. lia.
    + intros ((Hin & Hle) & Hle2). split; [done|]. specialize (Hm0 _ _ _ Hin Hle2). lia.
Qed.
(** The time index keeps pointing to pruned blocks: a lookup for an older time then fails although newer blocks at
    or after that time are stored. *)
Theorem C57_pruned_lookup_refuted : exists ops t n ts b,
  chain (puts ops) = true /\ stored 2 (brun 2 1 ops) n ts b /\ t <= ts /\ next_height_by_ts 1 (brun 2 1 ops) t = Err tt.
Proof.
  exists [BPut 1 10 0; BPut 2 20 0; BPut 3 30 0; BJob 25], 15, 3, 30, 0.
  split; [done|]. split; [vm_compute; reflexivity|]. split; [done|]. vm_compute. reflexivity.
Qed.
Example C57_ex :
  let ops := [BPut 1 10 7; BPut 2 20 8; BPut 3 20 9; BPut 4 30 6] in
  chain (puts ops) = true /\
  map (next_height_by_ts 1 (brun 2 1 ops)) [5; 10; 11; 20; 21; 31] = [Ok (Some 1); Ok (Some 1); Ok (Some 2); Ok (Some 2); Ok (Some 4); Ok None] /\
  max_block_number 2 (brun 2 1 (ops ++ [BJob 25; BJob 40])) = Ok 4 /\
  min_block_number 2 (brun 2 1 (ops ++ [BJob 15; BJob 40])) = Ok 2 /\
  match blocks_in_range 2 (brun 2 1 ops) (POpts (Some 2) None true) 1 (Some 4) with Ok (l, _) => l | _ => [] end = [(3, 20, 9); (2, 20, 8)].
Proof. vm_compute. done. Qed.

Print Assumptions C11_read_own_writes.
Print Assumptions C11_merge_sequential.
Print Assumptions C11_write_order_irrelevant.
Print Assumptions C12_filtered.
Print Assumptions C12_limited.
Print Assumptions C12_channel.
Print Assumptions C12_owners.
Print Assumptions C12_delete_range.
Print Assumptions C12_prune_events.
Print Assumptions C12_checked_token.
Print Assumptions C57_first_at_or_after.
Print Assumptions C57_tip_kept.
Print Assumptions C57_job_exact.
