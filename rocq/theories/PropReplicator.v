(** Properties C80 and C81: the snapshots a node serves, and their pages (Replicator.v). *)
From Coq Require Import ZifyN ZifyNat ZifyBool.
From Verif Require Import Base Codec CodecProofs Trie TrieSpec TrieRun TrieScan TrieScanProofs PropTrieScan Replicator.
From stdpp Require Import gmap sorting.
#[local] Open Scope N_scope.

(** * C80: snapshots *)
(** The engine waited for the replicator before every commit: no message of the shard is still in the queue. *)
Fixpoint waited (interval max_age : N) (st : rst) (ops : list rop) : bool :=
  match ops with
  | [] => true
  | o :: ops => match o with RCommit s _ _ _ => forallb (fun g => negb (pm_shard g =? s)) (r_queue st) | _ => true end &&
                waited interval max_age (rstep interval max_age st o) ops
  end.
Definition snap_at (st : rst) (s h : N) : option snapinfo := of_shard st s !! h.

Lemma close_aged_lookup n m h i : close_aged n m !! h = Some i <-> m !! h = Some i /\ n <= si_ts i.
Proof. unfold close_aged. by rewrite map_filter_lookup_Some. Qed.

(** What handling one message does to a snapshot of its shard. *)
Lemma handle_lookup interval max_age now opens st g h i :
  handle interval max_age now opens st g !! h = Some i ->
  (of_shard st (pm_shard g) !! h = Some i /\ now - max_age <= si_ts i) \/
  (h = pm_height g /\ si_ts i = pm_ts g /\ now - max_age <= si_ts i /\ r_db st !! pm_shard g = Some (si_content i)).
Proof.
  unfold handle. set (m := close_aged _ _).
  assert (Hm : m !! h = Some i -> (of_shard st (pm_shard g) !! h = Some i /\ now - max_age <= si_ts i)) by apply close_aged_lookup.
  destruct (_ && _ && _); [by left; apply Hm|]. destruct (N.ltb_spec (pm_ts g) (now - max_age)); [by left; apply Hm|].
  destruct opens; [|by left; apply Hm]. unfold open_snapshot. destruct (m !! pm_height g) eqn:E; [by left; apply Hm|].
  destruct (r_db st !! pm_shard g) as [hh|] eqn:Eh; [|by left; apply Hm].
  destruct (decide (h = pm_height g)) as [->|Hne].
  - rewrite lookup_insert. intros [= <-]. right. done.
  - rewrite lookup_insert_ne by done. by left; apply Hm.
Qed.

(** Every snapshot shows the state of the block it is labelled with, if the engine always waited. *)
Theorem C80_exact : forall interval max_age ops, waited interval max_age r_init ops = true ->
  forall s h i, snap_at (rrun interval max_age ops) s h = Some i -> si_content i = h.
Proof.
  intros interval max_age ops. unfold rrun.
  set (P := fun st => (forall s h i, snap_at st s h = Some i -> si_content i = h) /\
    (forall g, g ∈ r_queue st -> r_db st !! pm_shard g = Some (pm_height g))).
  assert (G : forall st, P st -> waited interval max_age st ops = true -> P (fold_left (rstep interval max_age) ops st)).
  { induction ops as [|o ops IH]; intros st HP Hw; [done|]. cbn [fold_left waited] in *. apply andb_prop in Hw as [Ho Hw]. apply IH; [|done].
    destruct HP as [P1 P2]. destruct o as [s h ts sent|now opens]; cbn [rstep].
    - split; [exact P1|]. cbn [r_queue r_db]. rewrite forallb_forall in Ho.
      assert (Hold : forall g, g ∈ r_queue st -> <[s:=h]> (r_db st) !! pm_shard g = Some (pm_height g)).
      { intros g Hg. specialize (Ho g (proj1 (elem_of_list_In _ _) Hg)). rewrite lookup_insert_ne; [by apply P2|].
        intros ->. by rewrite N.eqb_refl in Ho. }
      destruct sent; [|exact Hold]. intros g [Hg|Hg]%elem_of_app; [by apply Hold|]. apply elem_of_list_singleton in Hg as ->.
      cbn. by rewrite lookup_insert.
    - destruct (r_queue st) as [|g q] eqn:Eq; [by split; [|rewrite Eq]|]. split.
      + intros s h i. unfold snap_at, of_shard. cbn [r_snaps]. destruct (decide (s = pm_shard g)) as [->|Hne].
        * rewrite lookup_insert. cbn [default]. intros H. apply handle_lookup in H as [[H _]|(-> & _ & _ & H)]; [by apply (P1 (pm_shard g))|].
          rewrite (P2 g) in H by left. by injection H.
        * rewrite lookup_insert_ne by done. apply P1.
      + cbn [r_queue r_db]. intros g' Hg'. apply P2. by right. }
  intros Hw s h i. apply G; [|done]. split; [|intros g Hg; by apply elem_of_nil in Hg]. intros s' h' i'. unfold snap_at, of_shard. cbn.
  rewrite lookup_empty. cbn. by rewrite lookup_empty.
Qed.

(** The engine waits 200 ms at most: if the replicator is slower, the snapshot labelled with a height holds the next block. *)
Theorem C80_slow_refuted : forall interval max_age st s h ts ts' now, r_queue st = [] ->
  h mod interval = 0 -> snap_at st s h = None -> now - max_age <= ts ->
  let st' := fold_left (rstep interval max_age) [RCommit s h ts true; RCommit s (h + 1) ts' true; RHandle now true] st in
  snap_at st' s h = Some (SInfo ts (h + 1)).
Proof.
  intros interval max_age st s h ts ts' now Hq Hi Hno Hts. cbn [fold_left rstep]. rewrite Hq. cbn [app r_queue r_db r_snaps].
  unfold snap_at, of_shard. cbn [r_snaps pm_shard]. rewrite lookup_insert. cbn [default]. unfold handle. cbn [pm_shard pm_height pm_ts r_snaps].
  rewrite Hi, N.eqb_refl. cbn [negb andb]. rewrite andb_false_r. cbn [andb].
  destruct (N.ltb_spec ts (now - max_age)); [lia|]. unfold open_snapshot. cbn [pm_height r_db pm_shard pm_ts].
  destruct (close_aged _ _ !! h) as [i|] eqn:E.
  - apply close_aged_lookup in E as [E _]. unfold snap_at, of_shard in *. cbn [r_snaps] in E. congruence.
  - rewrite lookup_insert. unfold id. by rewrite lookup_insert.
Qed.

(** After a message of a shard was handled, none of its snapshots is older than the limit; the others are untouched. *)
Theorem C80_retention : forall interval max_age st now opens g q, r_queue st = g :: q ->
  let st' := rstep interval max_age st (RHandle now opens) in
  (forall h i, snap_at st' (pm_shard g) h = Some i -> now - max_age <= si_ts i) /\
  (forall s h, s <> pm_shard g -> snap_at st' s h = snap_at st s h) /\
  (forall h i, snap_at st (pm_shard g) h = Some i -> now - max_age <= si_ts i -> snap_at st' (pm_shard g) h = Some i).
Proof.
  intros interval max_age st now opens g q Hq. cbn [rstep]. rewrite Hq. unfold snap_at, of_shard. cbn [r_snaps].
  rewrite lookup_insert. cbn [default]. split; [|split].
  - intros h i H. apply handle_lookup in H as [[_ H]|(_ & _ & H & _)]; exact H.
  - intros s h Hs. by rewrite lookup_insert_ne.
  - intros h i H Hts. unfold handle. set (m := close_aged _ _).
    assert (Hm : m !! h = Some i) by (by apply close_aged_lookup). destruct (_ && _ && _); [done|]. destruct (_ <? _); [done|].
    destruct opens; [|done]. unfold open_snapshot. destruct (m !! pm_height g) eqn:E; [done|]. destruct (r_db st !! _); [|done].
    unfold id; rewrite lookup_insert_ne; [done|]. intros Heq. rewrite Heq in E. congruence.
Qed.

(** A message of a fresh block of a multiple of the interval leaves a snapshot of that height; after any message of a fresh
    block there is some snapshot. *)
Theorem C80_available : forall interval max_age st now g q c, r_queue st = g :: q -> r_db st !! pm_shard g = Some c -> now - max_age <= pm_ts g ->
  let st' := rstep interval max_age st (RHandle now true) in
  (pm_height g mod interval = 0 -> exists i, snap_at st' (pm_shard g) (pm_height g) = Some i) /\
  (exists h i, snap_at st' (pm_shard g) h = Some i).
Proof.
  intros interval max_age st now g q c Hq Hdb Hts. cbn [rstep]. rewrite Hq. unfold snap_at, of_shard. cbn [r_snaps].
  rewrite lookup_insert. cbn [default]. unfold handle. set (m := close_aged _ _). fold m.
  destruct (N.ltb_spec (pm_ts g) (now - max_age)); [lia|].
  assert (Ho : exists i, open_snapshot st m g !! pm_height g = Some i).
  { unfold open_snapshot. destruct (m !! pm_height g) as [i|] eqn:E; [by exists i|]. rewrite Hdb. rewrite lookup_insert. eauto. }
  split.
  - intros Hm. rewrite Hm, N.eqb_refl. cbn [negb]. rewrite andb_false_r. exact Ho.
  - destruct (0 <? pm_height g); [|destruct Ho as [i Ho]; by exists (pm_height g), i]. cbn [andb].
    destruct (negb (pm_height g mod interval =? 0)); [|destruct Ho as [i Ho]; by exists (pm_height g), i]. cbn [andb].
    destruct (bool_decide (m = ∅)) eqn:Em; cbn [negb]; [destruct Ho as [i Ho]; by exists (pm_height g), i|].
    apply bool_decide_eq_false in Em. apply map_choose in Em as (h & i & H'). by exists h, i.
Qed.

(** While a node catches up (blocks older than the limit) it serves nothing. *)
Theorem C80_catching_up : forall interval max_age st now opens g q, r_queue st = g :: q -> pm_ts g < now - max_age ->
  (forall h i, snap_at st (pm_shard g) h = Some i -> si_ts i <= pm_ts g) ->
  forall h, snap_at (rstep interval max_age st (RHandle now opens)) (pm_shard g) h = None.
Proof.
  intros interval max_age st now opens g q Hq Hts Hold h. destruct (snap_at _ _ h) as [i|] eqn:E; [|done]. exfalso.
  revert E. cbn [rstep]. rewrite Hq. unfold snap_at at 1, of_shard. cbn [r_snaps]. rewrite lookup_insert. cbn [default]. intros E.
  apply handle_lookup in E as [[E H]|(_ & E & H & _)]; [|lia]. specialize (Hold h i E). lia.
Qed.

Section SnapshotExamples.
  Let ops := [RCommit 1 1 100 true; RHandle 101 true; RCommit 1 2 102 true; RHandle 103 true; RCommit 2 7 103 true; RCommit 1 10 110 true;
    RHandle 111 true; RHandle 112 true; RCommit 1 11 112 false; RCommit 1 12 150 true; RHandle 151 true].
  Example C80_exact_ex : waited 10 45 r_init ops = true /\ snap_at (rrun 10 45 ops) 1 10 = Some (SInfo 110 10) /\ snap_at (rrun 10 45 ops) 1 1 = None /\
    snap_at (rrun 10 45 ops) 2 7 = Some (SInfo 103 7) /\ snap_at (rrun 10 45 ops) 1 12 = None.
  Proof using Type. vm_compute. repeat split. Qed.
  Example C80_slow_ex : snap_at (rrun 10 45 [RCommit 1 10 100 true; RCommit 1 11 101 true; RHandle 101 true]) 1 10 = Some (SInfo 100 11).
  Proof using Type. vm_compute. reflexivity. Qed.
End SnapshotExamples.

(** * C81: pages *)
(** What the trie of a node holds for the items of a snapshot (C03, C39). *)
Definition msg_items (m : smsg) : list trie_item :=
  TMessage (sm_fid m) (sm_type m) (sm_hash m) :: match sm_lend m with Some t => [TMessage t (sm_type m) (sm_hash m)] | None => [] end.
Inductive item_of (sn : snap) : trie_item -> Prop :=
| item_msg m i : m ∈ sn_msgs sn -> i ∈ msg_items m -> item_of sn i
| item_ev e : e ∈ sn_evs sn -> item_of sn (TOnchain (se_fid e) (se_type e) (se_tx e) (se_log e))
| item_name name f : sn_names sn !! name = Some f -> f <> 0 -> item_of sn (TFname f name).
(** The entry of an item: a stored thing whose key this is. *)
Definition entry_of (sn : snap) (i : trie_item) (e : entry) : Prop :=
  match e with
  | EUser m => m ∈ sn_msgs sn /\ i ∈ msg_items m
  | EChain x => x ∈ sn_evs sn /\ i = TOnchain (se_fid x) (se_type x) (se_tx x) (se_log x)
  | EName name f => sn_names sn !! name = Some f /\ i = TFname f name
  end.
(** The message types the server can answer for. *)
Definition servable (channels : bool) (t : N) : bool := known_type t || (channel_type t && channels).
(** Only loans name a borrower; nothing but a servable type is stored; the items have the shape the engine gives them. *)
Definition snap_ok (channels : bool) (sn : snap) : bool :=
  forallb (fun m => servable channels (sm_type m) && match sm_lend m with Some _ => sm_type m =? T_LendStorage | None => true end &&
                    forallb item_ok (msg_items m)) (sn_msgs sn) &&
  forallb (fun e => item_ok (TOnchain (se_fid e) (se_type e) (se_tx e) (se_log e))) (sn_evs sn) &&
  forallb (fun p => item_ok (TFname p.2 p.1)) (map_to_list (sn_names sn)).
(** The cache holds what the listings give, of types that passed the check. *)
Definition cache_ok (channels : bool) (sn : snap) (cached : N -> ctype -> option cval) : Prop :=
  forall f c v, cached f c = Some v -> v = build sn f c /\ match c with CUser t => servable channels t = true | CChain _ => True end.

Lemma hash_map_snoc {A} (l : list (bytes * A)) p : hash_map (l ++ [p]) = <[p.1 := p.2]> (hash_map l).
Proof. unfold hash_map. by rewrite foldl_app. Qed.
Lemma hash_map_some {A} (l : list (bytes * A)) h a : hash_map l !! h = Some a -> (h, a) ∈ l.
Proof.
  induction l as [|p l IH] using rev_ind; [done|]. rewrite hash_map_snoc. intros [[<- <-]|[_ H]]%lookup_insert_Some; apply elem_of_app.
  - right. destruct p. by left.
  - left. by apply IH.
Qed.
Lemma hash_map_none {A} (l : list (bytes * A)) h : hash_map l !! h = None -> forall a, (h, a) ∉ l.
Proof.
  induction l as [|p l IH] using rev_ind; [intros _ a Ha; by apply elem_of_nil in Ha|]. rewrite hash_map_snoc. intros [H Hne]%lookup_insert_None a [Ha|Ha]%elem_of_app.
  - by apply (IH H a).
  - apply elem_of_list_singleton in Ha. subst p. done.
Qed.
Lemma lfilter_elem {A} (f : A -> bool) l x : x ∈ List.filter f l <-> x ∈ l /\ f x = true.
Proof. by rewrite !elem_of_list_In, filter_In. Qed.
Lemma user_listing_spec sn f t m : (forall m, m ∈ sn_msgs sn -> match sm_lend m with Some _ => sm_type m = T_LendStorage | None => True end) ->
  m ∈ user_listing sn f t <-> m ∈ sn_msgs sn /\ TMessage f t (sm_hash m) ∈ msg_items m.
Proof.
  intros Hl. unfold user_listing, msg_items. rewrite elem_of_app, lfilter_elem, andb_true_iff, !N.eqb_eq, elem_of_cons. split.
  - intros [(H & <- & <-)|H]; [by split; [|left]|]. destruct (N.eqb_spec t T_LendStorage); [|by apply elem_of_nil in H].
    apply lfilter_elem in H as [H Hb]. apply andb_prop in Hb as [Hb Hc]. apply N.eqb_eq in Hb. apply bool_decide_eq_true in Hc. split; [done|]. right.
    rewrite Hc, Hb. by left.
  - intros [H [E|E]]; [injection E as <- <-; by left|]. destruct (sm_lend m) as [to|] eqn:El; [|by apply elem_of_nil in E].
    apply elem_of_list_singleton in E. injection E as -> ->. right. specialize (Hl m H). rewrite El in Hl. rewrite Hl, N.eqb_refl.
    apply lfilter_elem. split; [done|]. by rewrite Hl, N.eqb_refl, El, bool_decide_eq_true_2.
Qed.
Lemma until0_pad name n : forallb (fun x => negb (x =? 0)) name = true -> until0 (name ++ repeat 0 n) = name.
Proof.
  induction name as [|x name IH]; intros H; cbn in *; [by destruct n|]. apply andb_prop in H as [H1 H2]. destruct (x =? 0); [done|]. by rewrite IH.
Qed.
Lemma snap_ok_parts channels sn : snap_ok channels sn = true -> forall m, m ∈ sn_msgs sn ->
  servable channels (sm_type m) = true /\ match sm_lend m with Some _ => sm_type m = T_LendStorage | None => True end.
Proof.
  unfold snap_ok. intros H m Hm. apply andb_prop in H as [H _]. apply andb_prop in H as [H _]. rewrite forallb_forall in H.
  specialize (H m (proj1 (elem_of_list_In _ _) Hm)). apply andb_prop in H as [H _]. apply andb_prop in H as [H1 H2].
  split; [done|]. destruct (sm_lend m); [by apply N.eqb_eq|done].
Qed.
Lemma snap_items channels sn i : snap_ok channels sn = true -> item_of sn i -> item_ok i = true.
Proof.
  unfold snap_ok. intros H Hi. apply andb_prop in H as [H H3]. apply andb_prop in H as [H1 H2]. rewrite forallb_forall in H1, H2, H3. destruct Hi as [m i Hm Hi|e He|name f Hn Hf].
  - specialize (H1 m (proj1 (elem_of_list_In _ _) Hm)). apply andb_prop in H1 as [_ H1]. rewrite forallb_forall in H1. apply H1. by apply elem_of_list_In.
  - apply H2. by apply elem_of_list_In.
  - apply (H3 (name, f)). by apply elem_of_list_In, elem_of_map_to_list.
Qed.

(** One key. *)
Lemma resolve_ok sha4 channels cached sn i : cache_ok channels sn cached -> snap_ok channels sn = true -> item_of sn i ->
  exists e, resolve channels cached sn (fid_shard sha4 (item_fid i)) (trie_item_key sha4 i) = Ok e /\ entry_of sn i e.
Proof.
  intros Hc Hs Hit. pose proof (snap_items _ _ _ Hs Hit) as Hi. unfold resolve. rewrite (trie_decode_key sha4 i Hi). cbn [dk_vshard dk_onchain dk_message dk_fid dk_rest].
  rewrite N.eqb_refl. cbn [negb].
  assert (Hparts := snap_ok_parts _ _ Hs).
  destruct Hit as [m i Hm Him|e He|name f Hn Hf].
  - assert (exists f, i = TMessage f (sm_type m) (sm_hash m)) as [f ->].
    { unfold msg_items in Him. apply elem_of_cons in Him as [->|Him]; [eauto|]. destruct (sm_lend m); [|by apply elem_of_nil in Him].
      apply elem_of_list_singleton in Him as ->. eauto. }
    cbn [item_fid item_rest]. set (t := sm_type m) in *. destruct (Hparts m Hm) as [Hserv _]. fold t in Hserv.
    assert (Hty : message_type t = true).
    { unfold message_type, servable in *. destruct (known_type t); [done|]. cbn in *. by apply andb_prop in Hserv as [-> _]. }
    rewrite Hty. cbn [negb].
    assert (Hin : m ∈ user_listing sn f t) by (apply user_listing_spec; [intros x Hx; by apply Hparts|done]).
    assert (Hb : exists e, build sn f (CUser t) !! sm_hash m = Some e /\ entry_of sn (TMessage f t (sm_hash m)) e).
    { destruct (build sn f (CUser t) !! sm_hash m) as [e|] eqn:E; cbn [build] in E.
      - exists e. split; [done|]. apply hash_map_some in E. apply elem_of_list_In, in_map_iff in E as (x & Ex & Hx). injection Ex as Ex <-.
        apply elem_of_list_In, user_listing_spec in Hx as [Hx1 Hx2]; [|intros y Hy; by apply Hparts]. cbn. rewrite <- Ex. done.
      - exfalso. apply (hash_map_none _ _ E (EUser m)). apply elem_of_list_In, in_map_iff. exists m. split; [done|]. by apply elem_of_list_In. }
    destruct Hb as (e & He & Hent). exists e. split; [|done].
    destruct (cached f (CUser t)) as [v|] eqn:Ec; [destruct (Hc _ _ _ Ec) as [-> _]; by rewrite He|].
    unfold servable in Hserv. rewrite Hserv. by rewrite He.
  - cbn [item_fid item_rest item_tybyte].
    assert (Ht : se_type e < 7).
    { cbn [item_ok] in Hi. apply andb_prop in Hi as [Hi _]. apply andb_prop in Hi as [Hi _]. apply andb_prop in Hi as [Hi _]. apply andb_prop in Hi as [_ Hi]. by apply N.ltb_lt. }
    destruct (N.eqb_spec (se_type e) 7); [lia|].
    assert (Hf : fetch cached sn (se_fid e) (CChain (se_type e)) = build sn (se_fid e) (CChain (se_type e))).
    { unfold fetch. destruct (cached _ _) as [v|] eqn:Ec; [|done]. by destruct (Hc _ _ _ Ec) as [-> _]. }
    rewrite Hf. destruct (build sn (se_fid e) (CChain (se_type e)) !! _) as [x|] eqn:E; cbn [build] in E.
    + exists x. split; [done|]. apply hash_map_some in E. apply elem_of_list_In, in_map_iff in E as (y & Ey & Hy). injection Ey as Ey <-.
      unfold chain_listing in Hy. apply elem_of_list_In, lfilter_elem in Hy as [Hy Hb]. apply andb_prop in Hb as [H1 H2]. apply N.eqb_eq in H1, H2.
      cbn. split; [done|]. rewrite H1, H2. unfold event_hash in Ey.
      pose proof (snap_items _ _ _ Hs (item_ev sn y Hy)) as Hy'. cbn [item_ok] in Hi, Hy'.
      repeat match goal with H : _ && _ = true |- _ => apply andb_prop in H as [? ?] end.
      repeat match goal with H : Nat.eqb _ _ = true |- _ => apply Nat.eqb_eq in H end.
      repeat match goal with H : (_ <? _) = true |- _ => apply N.ltb_lt in H end.
      apply app_inj_len in Ey as [E1 E2]; [|congruence]. apply be_inj in E2; [|done..]. by rewrite E1, E2.
    + exfalso. apply (hash_map_none _ _ E (EChain e)). apply elem_of_list_In, in_map_iff. exists e. split; [done|]. apply elem_of_list_In.
      unfold chain_listing. apply lfilter_elem. split; [done|]. by rewrite !N.eqb_refl.
  - cbn [item_fid item_rest item_tybyte]. rewrite N.eqb_refl. cbn [item_ok] in Hi. apply andb_prop in Hi as [_ Hi]. rewrite until0_pad by done.
    exists (EName name f). rewrite Hn. done.
Qed.

(** A page of keys of stored items is answered with exactly these keys in order, each with a stored item of that key,
    whatever the cache holds. *)
Theorem C81_page : forall sha4 channels cached sn v ks, cache_ok channels sn cached -> snap_ok channels sn = true ->
  (forall k, k ∈ ks -> exists i, item_of sn i /\ trie_item_key sha4 i = k /\ fid_shard sha4 (item_fid i) = v) ->
  exists l, respond channels cached sn v ks = Ok l /\ map fst l = ks /\
    Forall (fun p => exists i, trie_item_key sha4 i = p.1 /\ entry_of sn i p.2) l.
Proof.
  intros sha4 channels cached sn v ks Hc Hs. induction ks as [|k ks IH]; intros Hk; [by exists []|].
  destruct (Hk k ltac:(by left)) as (i & Hi & <- & <-). destruct (resolve_ok sha4 channels cached sn i Hc Hs Hi) as (e & He & Hent).
  destruct IH as (l & Hl & Hm & HF); [intros k' Hk'; apply Hk; by right|]. exists ((trie_item_key sha4 i, e) :: l). cbn [respond]. rewrite He, Hl.
  split; [done|]. split; [cbn; by rewrite Hm|]. constructor; [by exists i|done].
Qed.

Lemma key_head sha4 i : item_ok i = true -> exists r, trie_item_key sha4 i = fid_shard sha4 (item_fid i) :: r.
Proof. intros H. rewrite item_key_eq by done. unfold for_fid. cbn. eauto. Qed.

(** A name is served with the owner the store has now, also when the key is one a former owner left in the trie (C22);
    a key whose name is gone stops the page. *)
Theorem C81_name_current : forall sha4 channels cached sn f name, item_ok (TFname f name) = true ->
  resolve channels cached sn (fid_shard sha4 f) (trie_item_key sha4 (TFname f name)) =
  match sn_names sn !! name with Some owner => Ok (EName name owner) | None => Err RInternal end.
Proof.
  intros sha4 channels cached sn f name Hi. unfold resolve. rewrite (trie_decode_key sha4 _ Hi).
  cbn [dk_vshard dk_onchain dk_message dk_fid dk_rest item_fid item_rest item_tybyte]. rewrite !N.eqb_refl. cbn [negb].
  cbn [item_ok] in Hi. apply andb_prop in Hi as [_ Hi]. by rewrite until0_pad.
Qed.

(** Following the tokens over a virtual shard of a snapshot whose trie has the keys of its items: every key below the
    virtual shard once, in order, each with an item of that key. *)
Theorem C81_walk : forall H order os s rs sha4 channels cached sn v,
  (forall l, Permutation (order l) l) -> (forall x, H x <> []) -> history_ok os = true -> trun H order trie_init os = Ok (rs, s) ->
  (forall k, k ∈ ops_keys os -> N.of_nat (length k) < 2 ^ 30) -> v < 256 ->
  cache_ok channels sn cached -> snap_ok channels sn = true ->
  (forall k, k ∈ (final os).2 <-> exists i, item_of sn i /\ trie_item_key sha4 i = k) ->
  exists F, forall fuel n, (F <= fuel)%nat -> (size (below [v] (final os).2) < n)%nat ->
  exists pages ls, follow n fuel s [v] 1000 None = Some pages /\ respond_all channels cached sn v pages = Ok ls /\
    lists (map fst (concat ls)) (fun k => k ∈ (final os).2 /\ is_prefix [v] k = true) /\
    Forall (fun p => exists i, trie_item_key sha4 i = p.1 /\ entry_of sn i p.2) (concat ls).
Proof.
  intros H order os s rs sha4 channels cached sn v Ho Hne Hok E Hsh Hv Hc Hs Hitems.
  destruct (C67_paging H order os s rs [v] Ho Hne Hok E) as [F HF]; [unfold bytes_ok; cbn [forallb]; rewrite andb_true_r; by apply N.ltb_lt|cbn; lia|done|].
  exists F. intros fuel n Hf Hn. destruct (HF fuel 1000%nat n Hf ltac:(lia) Hn) as (pages & Hp & Hl & _). exists pages.
  assert (G : forall ps, (forall k, k ∈ concat ps -> k ∈ concat pages) -> exists ls, respond_all channels cached sn v ps = Ok ls /\
    map fst (concat ls) = concat ps /\ Forall (fun p => exists i, trie_item_key sha4 i = p.1 /\ entry_of sn i p.2) (concat ls)).
  { induction ps as [|p ps IH]; intros Hin; [exists []; split; [done|]; split; [done|constructor]|]. destruct (C81_page sha4 channels cached sn v p Hc Hs) as (l & Hr & Hm & HFl).
    { intros k Hk. assert (Hkk : k ∈ concat pages) by (apply Hin; cbn; apply elem_of_app; by left).
      apply Hl in Hkk as [Hk1 Hk2]. apply Hitems in Hk1 as (i & Hi & <-). exists i. split; [done|]. split; [done|].
      destruct (key_head sha4 i (snap_items _ _ _ Hs Hi)) as [r Er]. rewrite Er in Hk2. cbn in Hk2. rewrite andb_true_r in Hk2. by apply N.eqb_eq in Hk2. }
    destruct IH as (ls & Hrs & Hms & HFs); [intros k Hk; apply Hin; cbn; apply elem_of_app; by right|]. exists (l :: ls). cbn [respond_all]. rewrite Hr, Hrs.
    split; [done|]. cbn [concat]. rewrite map_app, Hm, Hms. split; [done|]. by apply Forall_app. }
  destruct (G pages) as (ls & Hr & Hm & HFl); [done|]. exists ls. rewrite Hm. done.
Qed.

(** A message of a type the server has no listing for (delegated keys: data shards store them, engine.rs:1847-1872, and
    their trie has their key) makes the virtual shard of its account unservable: no walk over it is ever answered. *)
Theorem C81_blocked_refuted : forall H order os s rs sha4 channels cached sn f t h,
  (forall l, Permutation (order l) l) -> (forall x, H x <> []) -> history_ok os = true -> trun H order trie_init os = Ok (rs, s) ->
  (forall k, k ∈ ops_keys os -> N.of_nat (length k) < 2 ^ 30) ->
  cache_ok channels sn cached -> item_ok (TMessage f t h) = true -> servable channels t = false ->
  trie_item_key sha4 (TMessage f t h) ∈ (final os).2 ->
  exists F, forall fuel n, (F <= fuel)%nat -> (size (below [fid_shard sha4 f] (final os).2) < n)%nat ->
  exists pages, follow n fuel s [fid_shard sha4 f] 1000 None = Some pages /\
    forall ls, respond_all channels cached sn (fid_shard sha4 f) pages <> Ok ls.
Proof.
  intros H order os s rs sha4 channels cached sn f t h Ho Hne Hok E Hsh Hc Hi Hserv Hin.
  set (v := fid_shard sha4 f). assert (Hv : v < 256) by (unfold v, fid_shard; apply N.mod_lt; lia).
  destruct (C67_paging H order os s rs [v] Ho Hne Hok E) as [F HF]; [unfold bytes_ok; cbn [forallb]; rewrite andb_true_r; by apply N.ltb_lt|cbn; lia|done|].
  exists F. intros fuel n Hf Hn. destruct (HF fuel 1000%nat n Hf ltac:(lia) Hn) as (pages & Hp & Hl & _). exists pages. split; [done|].
  assert (Hk : trie_item_key sha4 (TMessage f t h) ∈ concat pages).
  { apply Hl. split; [done|]. destruct (key_head sha4 _ Hi) as [r Er]. rewrite Er. cbn. rewrite andb_true_r. by apply N.eqb_eq. }
  assert (Hr : forall e, resolve channels cached sn v (trie_item_key sha4 (TMessage f t h)) <> Ok e).
  { intros e. unfold resolve. rewrite (trie_decode_key sha4 _ Hi). cbn [dk_vshard dk_onchain dk_message dk_fid dk_rest item_fid]. fold v.
    rewrite N.eqb_refl. cbn [negb]. destruct (negb (message_type t)); [done|]. destruct (cached f (CUser t)) as [w|] eqn:Ec.
    - destruct (Hc _ _ _ Ec) as [_ Hx]. congruence.
    - unfold servable in Hserv. rewrite Hserv. by destruct (channel_type t). }
  assert (Hpg : forall ks, trie_item_key sha4 (TMessage f t h) ∈ ks -> forall l, respond channels cached sn v ks <> Ok l).
  { induction ks as [|k ks IH]; intros Hks l; [by apply elem_of_nil in Hks|]. cbn [respond]. apply elem_of_cons in Hks as [<-|Hks].
    - destruct (resolve _ _ _ _ _) as [e| |] eqn:Er; [by destruct (Hr e)|done|done].
    - destruct (resolve channels cached sn v k) as [e| |]; [|discriminate|discriminate]. destruct (respond _ _ _ _ ks) as [l'| |] eqn:El; [|done|done]. by destruct (IH Hks l'). }
  clear -Hpg Hk. induction pages as [|p ps IH]; intros ls; [by apply elem_of_nil in Hk|]. cbn [respond_all]. cbn [concat] in Hk.
  apply elem_of_app in Hk as [Hk|Hk].
  - destruct (respond channels cached sn v p) as [l| |] eqn:El; [by destruct (Hpg p Hk l)|done|done].
  - destruct (respond channels cached sn v p) as [l| |]; [|done|done]. destruct (respond_all _ _ _ _ ps) as [l'| |] eqn:Els; [|done|done].
    by destruct (IH Hk l').
Qed.

(** ** The cache *)
(** The number of hashes really held. *)
Definition held (m : gmap ckey cval) : N := map_fold (fun _ v n => vlen v + n) 0 m.
Definition drift (c : cache) : N := ca_size c - held (ca_map c).
(** The eviction order lists the keys with a time of last use. *)
Definition order_ok (order : gmap ckey N -> list ckey) : Prop := forall m k, k ∈ order m <-> is_Some (m !! k).

Lemma held_insert m k v : m !! k = None -> held (<[k := v]> m) = vlen v + held m.
Proof. intros H. unfold held. rewrite map_fold_insert_L; [done| |done]. intros. lia. Qed.
Lemma held_delete m k v : m !! k = Some v -> held m = vlen v + held (delete k m).
Proof. intros H. rewrite <- (insert_delete m k v H) at 1. apply held_insert, lookup_delete. Qed.
Lemma held_put m k v : held (<[k := v]> m) = vlen v + held (delete k m).
Proof. rewrite <- insert_delete_insert. apply held_insert, lookup_delete. Qed.
Lemma held_delete_le m k : held (delete k m) <= held m.
Proof. destruct (m !! k) as [v|] eqn:E; [rewrite (held_delete m k v E); lia|]. by rewrite delete_notin. Qed.
Lemma held_empty : held ∅ = 0.
Proof. unfold held. by rewrite map_fold_empty. Qed.

(** [x] more is counted than held, and every held key has a time. *)
Definition cinv (x : N) (c : cache) : Prop :=
  ca_size c = held (ca_map c) + x /\ forall k, is_Some (ca_map c !! k) -> is_Some (ca_lru c !! k).
Lemma evict_spec x : forall ks c, cinv x c -> (forall k, is_Some (ca_map c !! k) -> k ∈ ks) ->
  let c' := evict ks c in cinv x c' /\ (ca_size c' <= MAX_CACHE \/ ca_map c' = ∅) /\ (forall k v, ca_map c' !! k = Some v -> ca_map c !! k = Some v).
Proof.
  induction ks as [|k ks IH]; intros c [H1 H2] Hks; cbn [evict].
  - split; [done|]. split; [right|done]. apply map_empty. intros k. destruct (ca_map c !! k) as [v|] eqn:E; [|done].
    exfalso. apply (elem_of_nil k). apply Hks. eauto.
  - destruct (N.leb_spec (ca_size c) MAX_CACHE) as [Hs|Hs]; [split; [done|]; split; [by left|done]|].
    set (c1 := Cache _ _ _). assert (Hc1 : cinv x c1).
    { split; cbn [ca_size ca_map ca_lru c1].
      - destruct (ca_map c !! k) as [v|] eqn:E; [rewrite (held_delete _ _ _ E) in H1; lia|]. rewrite delete_notin by done. lia.
      - intros j [w Hj]. apply lookup_delete_Some in Hj as [Hne Hj]. rewrite lookup_delete_ne by done. apply H2. eauto. }
    destruct (IH c1 Hc1) as (I1 & I2 & I3).
    { intros j [w Hj]. cbn in Hj. apply lookup_delete_Some in Hj as [Hne Hj]. assert (Hin : j ∈ k :: ks) by (apply Hks; eauto). apply elem_of_cons in Hin as [->|Hin]; done. }
    split; [done|]. split; [done|]. intros j w Hj. specialize (I3 j w Hj). cbn in I3. by apply lookup_delete_Some in I3 as [_ I3].
Qed.
Lemma cput_spec order x now k v c : order_ok order -> cinv x c -> let c' := cput order now k v c in
  exists x', x <= x' /\ cinv x' c' /\ held (ca_map c') <= N.max (MAX_CACHE - x') (vlen v) /\
    (ca_map c !! k = None -> x' = x) /\
    (forall w, ca_map c !! k = Some w -> ca_size c + vlen v <= MAX_CACHE -> x' = x + vlen w) /\
    (forall j w, ca_map c' !! j = Some w -> j = k /\ w = v \/ ca_map c !! j = Some w).
Proof.
  intros Ho [H1 H2]. set (c1 := Cache (ca_map c) (ca_lru c) (ca_size c + vlen v)).
  assert (Hc1 : cinv (x + vlen v) c1) by (split; unfold c1; cbn [ca_size ca_map ca_lru]; [lia|exact H2]).
  set (c2 := if MAX_CACHE <? ca_size c1 then evict (order (ca_lru c1)) c1 else c1).
  change (cput order now k v c) with (Cache (<[k := v]> (ca_map c2)) (<[k := now]> (ca_lru c2)) (ca_size c2)). cbn zeta.
  assert (Hc2 : cinv (x + vlen v) c2 /\ (ca_size c2 <= MAX_CACHE \/ ca_map c2 = ∅) /\ (forall j w, ca_map c2 !! j = Some w -> ca_map c !! j = Some w) /\
    (ca_size c + vlen v <= MAX_CACHE -> c2 = c1)).
  { unfold c2. destruct (N.ltb_spec MAX_CACHE (ca_size c1)) as [Hs|Hs]; [|split; [done|]; split; [by left|done]].
    destruct (evict_spec (x + vlen v) (order (ca_lru c1)) c1 Hc1) as (I1 & I2 & I3).
    - intros j Hj. apply Ho. by apply Hc1.
    - split; [done|]. split; [done|]. split; [done|]. unfold c1 in Hs. cbn [ca_size] in Hs. lia. }
  destruct Hc2 as ([E2 L2] & S2 & M2 & Q2). cbn [ca_size ca_map ca_lru].
  exists (x + (held (ca_map c2) - held (delete k (ca_map c2)))). pose proof (held_delete_le (ca_map c2) k).
  split; [lia|]. split; [|split; [|split; [|split]]].
  - split; cbn [ca_size ca_map ca_lru]; [rewrite held_put; lia|]. intros j Hj. destruct (decide (j = k)) as [->|Hne]; [by rewrite lookup_insert; eauto|].
    rewrite lookup_insert_ne in Hj by done. rewrite lookup_insert_ne by done. by apply L2.
  - rewrite held_put. destruct S2 as [S2|S2]; [lia|]. rewrite S2, delete_empty, held_empty. lia.
  - intros Hn. destruct (ca_map c2 !! k) as [w|] eqn:E; [apply M2 in E; congruence|]. rewrite (delete_notin _ _ E). lia.
  - intros w Hw Hsz. rewrite (Q2 Hsz). cbn [ca_map c1]. rewrite (held_delete _ _ _ Hw). lia.
  - intros j w Hj. apply lookup_insert_Some in Hj as [[<- <-]|[_ Hj]]; [by left|]. right. by apply M2.
Qed.

(** Whatever the order of requests: the cache holds only values put under that key, and no more than the limit (a single
    value may be larger). *)
Theorem C81_cache_sound : forall order ops, order_ok order ->
  let c := crun order ops in
  (forall k v, ca_map c !! k = Some v -> exists now, CPut now k v ∈ ops) /\
  (forall now k v, held (ca_map (cstep order c (CPut now k v))) <= N.max MAX_CACHE (vlen v)).
Proof.
  intros order ops Ho. unfold crun.
  assert (G : forall c x, cinv x c -> let c' := fold_left (cstep order) ops c in (exists x', cinv x' c') /\
    forall k v, ca_map c' !! k = Some v -> ca_map c !! k = Some v \/ exists now, CPut now k v ∈ ops).
  { induction ops as [|o ops IH]; intros c x Hc; [split; [by exists x|by left]|]. cbn [fold_left].
    assert (S1 : (exists x', cinv x' (cstep order c o)) /\ forall k v, ca_map (cstep order c o) !! k = Some v -> ca_map c !! k = Some v \/ exists now, o = CPut now k v).
    { destruct o as [now k|now k v]; cbn [cstep].
      - unfold cget. destruct (ca_map c !! k) as [w|] eqn:E; cbn [snd]; [|by split; [exists x|left]]. split; [exists x|by left].
        destruct Hc as [H1 H2]. split; [done|]. cbn. intros j Hj. destruct (decide (j = k)) as [->|Hne]; [by rewrite lookup_insert; eauto|].
        rewrite lookup_insert_ne by done. by apply H2.
      - destruct (cput_spec order x now k v c Ho Hc) as (x' & _ & Hx & _ & _ & _ & Hm). split; [by exists x'|]. intros j w Hj.
        destruct (Hm j w Hj) as [[-> ->]|Hj']; [right; by exists now|by left]. }
    destruct S1 as [[x' Hx'] S1]. destruct (IH _ _ Hx') as [I1 I2]. split; [done|]. intros k v Hk. destruct (I2 k v Hk) as [Hk'|[now Hn]].
    - destruct (S1 k v Hk') as [|[now ->]]; [by left|right; exists now; by left].
    - right. exists now. by right. }
  assert (H0 : cinv 0 cache_init) by (split; [cbn [cache_init ca_size ca_map]; by rewrite held_empty|intros k; cbn [cache_init ca_map]; rewrite lookup_empty; by intros [??]]).
  destruct (G cache_init 0 H0) as [[x' Hx'] G2]. split.
  - intros k v Hk. destruct (G2 k v Hk) as [Hk'|]; [cbn in Hk'; by rewrite lookup_empty in Hk'|done].
  - intros now k v. destruct (cput_spec order x' now k v _ Ho Hx') as (x2 & _ & _ & Hh & _). cbn [cstep]. lia.
Qed.

(** Two requests that both miss put the same value twice, and it is counted twice for good: the excess never shrinks and
    takes that much of the capacity away. *)
Theorem C81_capacity_refuted : forall order ops more, order_ok order ->
  let c := crun order ops in let c' := fold_left (cstep order) more c in
  drift c <= drift c' /\
  (forall now k v, held (ca_map (cstep order c' (CPut now k v))) <= N.max (MAX_CACHE - drift c) (vlen v)) /\
  (forall now now' k v, ca_map c !! k = None -> ca_size c + 2 * vlen v <= MAX_CACHE ->
     drift (cstep order (cstep order c (CPut now k v)) (CPut now' k v)) = drift c + vlen v).
Proof.
  intros order ops more Ho.
  assert (Hstep : forall c x o, cinv x c -> exists x', x <= x' /\ cinv x' (cstep order c o)).
  { intros c x o Hc. destruct o as [now k|now k v]; cbn [cstep].
    - exists x. split; [lia|]. unfold cget. destruct (ca_map c !! k) as [w|] eqn:E; cbn [snd]; [|done].
      destruct Hc as [H1 H2]. split; [done|]. cbn. intros j Hj. destruct (decide (j = k)) as [->|Hne]; [by rewrite lookup_insert; eauto|].
      rewrite lookup_insert_ne by done. by apply H2.
    - destruct (cput_spec order x now k v c Ho Hc) as (x' & Hx & Hx' & _). eauto. }
  assert (Hrun : forall os c x, cinv x c -> exists x', x <= x' /\ cinv x' (fold_left (cstep order) os c)).
  { induction os as [|o os IH]; intros c x Hc; [exists x; split; [lia|done]|]. cbn [fold_left]. destruct (Hstep c x o Hc) as (x1 & L1 & C1).
    destruct (IH _ _ C1) as (x2 & L2 & C2). exists x2. split; [lia|done]. }
  assert (H0 : cinv 0 cache_init) by (split; [cbn [cache_init ca_size ca_map]; by rewrite held_empty|intros k; cbn [cache_init ca_map]; rewrite lookup_empty; by intros [??]]).
  assert (Hd : forall c x, cinv x c -> drift c = x) by (intros c x [H1 _]; unfold drift; lia).
  destruct (Hrun ops _ _ H0) as (x & _ & Hx). destruct (Hrun more _ _ Hx) as (y & Hxy & Hy). fold (crun order ops) in Hx, Hy.
  cbn zeta. rewrite (Hd _ _ Hx), (Hd _ _ Hy). split; [done|]. split.
  - intros now k v. cbn [cstep]. destruct (cput_spec order y now k v _ Ho Hy) as (z & Hz & _ & Hh & _). lia.
  - intros now now' k v Hn Hsz. cbn [cstep]. set (c := crun order ops) in *.
    destruct (cput_spec order x now k v c Ho Hx) as (x1 & _ & C1 & _ & E1 & _). specialize (E1 Hn). subst x1. set (c1 := cput order now k v c) in *.
    assert (Hk1 : ca_map c1 !! k = Some v) by (unfold c1, cput; cbn [ca_map]; by rewrite lookup_insert).
    assert (Hs1 : ca_size c1 = ca_size c + vlen v).
    { unfold c1, cput. cbn [ca_size]. destruct (N.ltb_spec MAX_CACHE (ca_size c + vlen v)); [lia|done]. }
    destruct (cput_spec order x now' k v c1 Ho C1) as (x2 & _ & C2 & _ & _ & E2 & _). rewrite (E2 v Hk1) in C2 by lia. by apply Hd.
Qed.
(** Every value is put after a miss, built from the snapshot of its key (replicator.rs:291-337, 339-512): then the cache
    never changes an answer, over any interleaving of requests and evictions. *)
Definition built (snaps : N * N -> snap) (chan : N * N -> bool) (o : cop) : Prop :=
  match o with
  | CGet _ _ => True
  | CPut _ (sh, f, c) v => v = build (snaps sh) f c /\ match c with CUser t => servable (chan sh) t = true | CChain _ => True end
  end.
Theorem C81_cached : forall order snaps chan ops sh, order_ok order -> Forall (built snaps chan) ops ->
  cache_ok (chan sh) (snaps sh) (fun f c => ca_map (crun order ops) !! (sh, f, c)).
Proof.
  intros order snaps chan ops sh Ho Hb f c v H. destruct (C81_cache_sound order ops Ho) as [Hs _]. destruct (Hs _ _ H) as [now Hn].
  rewrite Forall_forall in Hb. by apply (Hb _ Hn).
Qed.

Section PageExamples.
  Let sha (b : bytes) : N := 5.
  Let h1 := repeat 1 20. Let h2 := repeat 2 20.
  Let cast := SMsg 7 1 h1 None.
  Let loan := SMsg 9 15 h2 (Some 7).
  Let key := SMsg 7 16 h2 None.
  Let rent := SEv 7 4 (repeat 3 32) 11.
  Let name : bytes := [97; 98; 99].
  Let sn := Snap [cast; loan] [rent] {[ name := 7 ]}.
  Let ks := [trie_item_key sha (TMessage 7 1 h1); trie_item_key sha (TMessage 7 15 h2); trie_item_key sha (TOnchain 7 4 (repeat 3 32) 11); trie_item_key sha (TFname 7 name)].
  Example C81_page_ex : snap_ok false sn = true /\
    respond false (fun _ _ => None) sn 5 ks = Ok (zip ks [EUser cast; EUser loan; EChain rent; EName name 7]).
  Proof using Type. vm_compute. repeat split. Qed.
  (** Account 8 owned the name before. *)
  Example C81_name_ex : item_ok (TFname 8 name) = true /\
    resolve false (fun _ _ => None) sn 5 (trie_item_key sha (TFname 8 name)) = Ok (EName name 7).
  Proof using Type. vm_compute. repeat split. Qed.
  (** With a delegated key in the store the page is refused. *)
  Example C81_blocked_ex : servable true 16 = false /\
    respond true (fun _ _ => None) (Snap [cast; key] [] ∅) 5 [trie_item_key sha (TMessage 7 1 h1); trie_item_key sha (TMessage 7 16 h2)] = Err RInvalid.
  Proof using Type. vm_compute. repeat split. Qed.
  Let order (m : gmap ckey N) : list ckey := map fst (map_to_list m).
  Lemma ex_order_ok : order_ok order.
  Proof using Type.
    intros m k. unfold order. rewrite elem_of_list_In, in_map_iff. split.
    - intros ([k' v] & <- & H). apply elem_of_list_In, elem_of_map_to_list in H. cbn. eauto.
    - intros [v H]. exists (k, v). split; [done|]. by apply elem_of_list_In, elem_of_map_to_list.
  Qed.
  Let k1 : ckey := ((1, 10), 7, CUser 1).
  Let v1 := build sn 7 (CUser 1).
  (** Two concurrent misses: one hash held, two counted. *)
  Example C81_capacity_ex : let c := crun order [CGet 1 k1; CGet 2 k1; CPut 3 k1 v1; CPut 4 k1 v1] in
    ca_size c = 2 /\ held (ca_map c) = 1 /\ drift c = 1.
  Proof using Type. vm_compute. repeat split. Qed.
End PageExamples.

Print Assumptions C80_exact.
Print Assumptions C80_slow_refuted.
Print Assumptions C80_retention.
Print Assumptions C80_available.
Print Assumptions C80_catching_up.
Print Assumptions C81_page.
Print Assumptions C81_walk.
Print Assumptions C81_blocked_refuted.
Print Assumptions C81_cache_sound.
Print Assumptions C81_capacity_refuted.
Print Assumptions C81_cached.
Print Assumptions C81_name_current.
