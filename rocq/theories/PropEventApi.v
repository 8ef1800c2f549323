(** Property C76: reading events through the RPC server. *)
From Coq Require Import ZifyN ZifyNat ZifyBool.
From Verif Require Import Base Codec CodecProofs Kv Paging PagingProofs PropPaging EventApi EventApiProofs.
#[local] Open Scope N_scope.

(** ** Pages of one store *)

(** What a returned event must be: the stored event with its block number and shard filled in, the timestamp of its
    chunk if that is stored, and without the deleted messages of a compact state. *)
Definition shown (s : shardst) (e x : hev) : Prop :=
  he_id x = he_id e /\ he_type x = he_type e /\ he_compact x = he_compact e /\
  he_deleted x = (if he_compact e then [] else he_deleted e) /\
  he_block x = he_id e / 2 ^ 14 /\ he_shard x = sh_id s /\
  match sh_chunks s (he_id e / 2 ^ 14) with Some c => he_ts x = c.2 | None => he_ts x = he_ts e end.
Lemma shown_ann s e x : shown s e x <-> x = ann s e.
Proof.
  unfold shown, ann, rewrite_hub_event. rewrite extract_eq. cbn [fst]. split.
  - destruct x. cbn. intros (-> & -> & -> & -> & -> & -> & H). destruct (sh_chunks s (he_id e / 2 ^ 14)) as [c|]; cbn in *; by subst.
  - intros ->. cbn. repeat (split; [done|]). by destruct (sh_chunks s (he_id e / 2 ^ 14)).
Qed.

(** The remembered chunk never changes the result: each event of a page is shown with its own chunk. *)
Theorem C76_page_fields : forall s start stop po last raw nt,
  (forall b c, sh_chunks s b = Some c -> c.1 = b) -> (forall c, last = Some c -> sh_chunks s c.1 = Some c) ->
  get_events (fun _ e => Some e) (sh_db s) start stop po = Ok (raw, nt) ->
  exists l last', get_events_from_store s start stop po last = Ok (l, nt, last') /\ Forall2 (shown s) raw l.
Proof.
  intros s start stop po last raw nt Hcs Hl E. unfold get_events_from_store. rewrite E.
  pose proof (annotate_fst (sh_chunks s) (sh_id s) last raw Hcs Hl) as H.
  destruct (annotate _ _ _ _) as [l x]. cbn [fst] in H. exists l, x. split; [done|]. subst l.
  apply Forall2_fmap_r, Forall_Forall2_diag, Forall_forall. intros e _. by apply shown_ann.
Qed.
(** An event read from the store looks like the one that was sent when its block was committed (engine.rs:2464-2467
    sets the header's timestamp), provided the chunk is in the shard store. *)
Theorem C76_replay_as_live : forall s e t, sh_chunks s (he_id e / 2 ^ 14) = Some (he_id e / 2 ^ 14, t) ->
  forall x, shown s e x -> x = rewrite_hub_event (HEv (he_id e) (he_type e) (he_compact e) (he_deleted e) t (he_block e) (he_shard e)) (sh_id s) None.
Proof.
  intros s e t H x Hx. apply shown_ann in Hx as ->. unfold ann, rewrite_hub_event. cbn [he_id he_type he_compact he_deleted he_ts]. rewrite extract_eq. cbn [fst]. by rewrite H.
Qed.
(** Without the chunk (pruned, or not yet written: engine.rs:2463-2475) the timestamp is the stored one. *)
Theorem C76_timestamp_refuted : exists s e x, shown s e x /\ he_ts x = 0 /\
  rewrite_hub_event (HEv (he_id e) (he_type e) (he_compact e) (he_deleted e) 77 (he_block e) (he_shard e)) (sh_id s) None <> x.
Proof.
  exists (Sh 1 ∅ (fun _ => None)), (HEv 16385 1 false [] 0 0 0), (HEv 16385 1 false [] 0 1 1). split; [|split; [done|]].
  - apply shown_ann. reflexivity.
  - intros H. apply (f_equal he_ts) in H. discriminate.
Qed.
Example C76_fields_ex :
  let e1 := HEv (make_event_id 5 0) 1 false [] 0 0 0 in
  let e2 := HEv (make_event_id 5 1) 1 true [8; 9] 0 0 0 in
  let e3 := HEv (make_event_id 6 1) 2 false [7] 0 0 0 in
  let e4 := HEv (make_event_id 7 1) 2 false [] 3 0 0 in
  let s := Sh 2 (db_of [e1; e2; e3; e4]) (fun b => if b <? 7 then Some (b, 100 + b) else None) in
  get_events_from_store s 0 None (POpts None None false) None =
  Ok ([HEv (make_event_id 5 0) 1 false [] 105 5 2; HEv (make_event_id 5 1) 1 true [] 105 5 2;
       HEv (make_event_id 6 1) 2 false [7] 106 6 2; HEv (make_event_id 7 1) 2 false [] 3 7 2], None, None).
Proof. vm_compute. reflexivity. Qed.

(** ** Following the page tokens of [get_events] *)

Definition stop_key (rq : ereq) : bytes :=
  match rq_stop rq with Some i => make_event_key i | None => increment_vec_u8 (make_event_key (2 ^ 64 - 1)) end.
(** The stores a request is about. *)
Definition asked (sv : esrv) (rq : ereq) (stores : list shardst) : Prop :=
  match rq_shard rq with
  | None => stores = sv_stores sv /\ sv_num sv = N.of_nat (length (sv_stores sv))
  | Some i => exists s, s ∈ sv_stores sv /\ sh_id s = i /\ stores = [s]
  end.
(** [p] are the pages of [s]: its events of the range in order, full pages and a shorter last one. *)
Definition pages_of (rq : ereq) (s : shardst) (p : list (list hev)) : Prop :=
  page_shape (page_len (rq_size rq)) p /\
  forall l, is_listing (sh_db s) (make_event_key (rq_start rq)) (stop_key rq) (rq_rev rq) l -> Forall2 (shown s) (map snd l) (concat p).

Lemma asked_sel sv rq stores : NoDup (map sh_id (sv_stores sv)) -> asked sv rq stores ->
  exists num, sel_stores sv (rq_shard rq) = Ok (num, stores) /\ N.of_nat (length stores) = num.
Proof.
  unfold asked, sel_stores. intros Hnd H. destruct (rq_shard rq) as [i|].
  - destruct H as (s & Hs & Hi & ->). exists 1. split; [|done].
    destruct (list_find (fun s => sh_id s = i) (sv_stores sv)) as [[k s']|] eqn:E.
    + apply list_find_Some in E as (E1 & E2 & _).
      assert (s' = s) as ->; [|done].
      apply elem_of_list_lookup in Hs as [k' Hs].
      assert (k = k') as ->.
      { assert (F1 : (sh_id <$> sv_stores sv) !! k = Some i) by (rewrite list_lookup_fmap, E1; cbn; by rewrite E2).
        assert (F2 : (sh_id <$> sv_stores sv) !! k' = Some i) by (rewrite list_lookup_fmap, Hs; cbn; by rewrite Hi).
        by apply (NoDup_lookup _ _ _ _ Hnd F1 F2). }
      congruence.
    + exfalso. apply list_find_None in E. rewrite Forall_forall in E. by apply (E s Hs).
  - destruct H as [-> ->]. by eexists.
Qed.

Lemma follow_pgf rq s fuel t : chunks_ok (sh_chunks s) ->
  follow (fun t => Ok (pgf rq s t)) fuel t =
  match follow (fun t => get_events (fun _ e => Some e) (sh_db s) (rq_start rq) (rq_stop rq) (POpts (rq_size rq) t (rq_rev rq))) fuel t with
  | Some (Ok ps) => Some (Ok (map (map (ann s)) ps))
  | Some (Err e) => Some (Err e)
  | Some Panic => Some Panic
  | None => None
  end.
Proof.
  intros Hcs. revert t. induction fuel as [|n IH]; intros t; [done|]. cbn [follow].
  destruct (pgf_raw rq s t Hcs) as (l & nt & -> & ->). destruct nt as [k|]; [|done]. rewrite IH.
  by destruct (follow _ n (Some k)) as [[ps| |]|].
Qed.
Lemma pages_exist rq s : chunks_ok (sh_chunks s) ->
  exists p fuel, pages_of rq s p /\ follow (fun t => Ok (pgf rq s t)) fuel None = Some (Ok p).
Proof.
  intros Hcs. set (l := scan (sh_db s) (make_event_key (rq_start rq)) (stop_key rq) (POpts (rq_size rq) None (rq_rev rq))).
  assert (Hl : is_listing (sh_db s) (make_event_key (rq_start rq)) (stop_key rq) (rq_rev rq) l) by apply scan_listing.
  destruct (C12_limited (fun _ e => Some e) (sh_db s) _ _ (rq_size rq) (rq_rev rq) l (event_key_nonempty _) Hl
    ltac:(apply Forall_forall; intros x _; by eexists) (S (length l)) ltac:(lia)) as (ps & H1 & H2 & H3).
  exists (map (map (ann s)) ps), (S (length l)). split.
  - split.
    + destruct H3 as (i & la & -> & Hi & Hla). exists (map (map (ann s)) i), (map (ann s) la).
      rewrite map_app. split; [done|]. split; [|by rewrite map_length]. apply Forall_fmap. eapply Forall_impl; [exact Hi|].
      intros x Hx. cbn. by rewrite map_length.
    + intros l' Hl'. rewrite (C12_listing_unique _ _ _ _ _ _ Hl' Hl).
      assert (E : concat (map (map (ann s)) ps) = map (ann s) (concat ps)) by (symmetry; apply concat_map).
      rewrite E, H2.
      assert (Een : entries (fun (_ : bytes) e => Some e) (fun _ => true) l = map snd l).
      { unfold entries. clear. induction l as [|[k v] l IH]; [done|]. cbn. by rewrite <- IH. }
      rewrite Een. apply Forall2_fmap_r, Forall_Forall2_diag, Forall_forall. intros e _. by apply shown_ann.
  - rewrite follow_pgf by done. unfold get_events. unfold stop_key in H1. by rewrite H1.
Qed.

(** The pages repeat: the [k]-th response holds, for every shard, its page number [k] modulo its number of pages, and
    its tokens are all empty exactly when every shard is at its last page. *)
Theorem C76_cycle : forall sv rq stores,
  NoDup (map sh_id (sv_stores sv)) -> asked sv rq stores -> rq_token rq = TNone ->
  (forall s, s ∈ stores -> forall b c, sh_chunks s b = Some c -> c.1 = b) ->
  exists ps, Forall2 (pages_of rq) stores ps /\
    forall k, exists toks,
      api_round sv rq k = Ok (concat (map (fun p => nth (k mod length p) p []) ps), Some toks) /\ length toks = length stores /\
      (all_null toks = true <-> forall p, p ∈ ps -> (S k mod length p = 0)%nat).
Proof.
  intros sv rq stores Hnd Ha Ht Hcs. destruct (asked_sel sv rq stores Hnd Ha) as (num & Hsel & Hnum).
  pose proof (api_round_eq sv rq num stores Hsel Ht Hnum) as Hr. clear Hnd Ha Hsel Hnum Ht.
  assert (Hps : exists ps, Forall2 (fun s p => pages_of rq s p /\ exists fuel, follow (fun t => Ok (pgf rq s t)) fuel None = Some (Ok p)) stores ps).
  { clear Hr. induction stores as [|s l IH]; [exists []; constructor|].
    destruct IH as [ps IH]; [intros s' Hs'; apply Hcs; by right|].
    destruct (pages_exist rq s (Hcs s ltac:(left))) as (p & fuel & Hp & Hf). exists (p :: ps). constructor; [|done]. eauto. }
  destruct Hps as [ps Hps]. exists ps. split; [eapply Forall2_impl; [exact Hps|]; by intros ? ? []|].
  intros k. exists (map (fun s => tokk (pgf rq s) (S k) None) stores). rewrite Hr, map_length.
  assert (Hc : Forall2 (fun s p => (pgf rq s (tokk (pgf rq s) k None)).1 = nth (k mod length p) p [] /\
    (tokk (pgf rq s) (S k) None = None <-> (S k mod length p = 0)%nat)) stores ps).
  { eapply Forall2_impl; [exact Hps|]. intros s p [_ [fuel Hf]]. destruct (cycle (pgf rq s) fuel p Hf k) as [H1 H2]. split; [|done].
    symmetry. apply nth_lookup_Some with (d := @nil hev) in H1. exact H1. }
  split; [|split; [done|]].
  - f_equal. f_equal. f_equal. clear -Hc. induction Hc as [|s p l ps [H _] _ IH]; [done|]. cbn [map]. by rewrite H, IH.
  - rewrite all_null_spec. clear -Hc. induction Hc as [|s p l ps [_ H] _ IH].
    + split; intros _ x Hx; by apply elem_of_nil in Hx.
    + cbn [map]. split.
      * intros Hall q [->|Hq]%elem_of_cons; [apply H, Hall; left|]. apply IH; [|done]. intros t Ht. apply Hall. by right.
      * intros Hall t [->|Hq]%elem_of_cons; [apply H, Hall; left|]. apply IH; [|done]. intros p' Hp'. apply Hall. by right.
Qed.

(** A client that asks for the next page until there is no token never stops: every response has one. *)
Theorem C76_never_ends : forall sv rq evs t, api_get_events sv rq = Ok (evs, t) -> t <> None.
Proof.
  intros sv rq evs t H. unfold api_get_events in H. destruct (sel_stores _ _) as [[num stores]| |]; [|done|done].
  destruct (match rq_token rq with TNone => _ | TBad => _ | TList l => _ end) as [toks|]; [|done].
  destruct (negb _); [done|]. destruct (shard_pages _ _ _); [|done|done]. by injection H as _ <-.
Qed.

(** A client that stops at the first response whose tokens are all empty: rounds [0..n-1]. *)
Definition responses (sv : esrv) (rq : ereq) (n : nat) : list hev :=
  concat (map (fun k => match api_round sv rq k with Ok (l, _) => l | _ => [] end) (seq 0 n)).
Definition stops_at (sv : esrv) (rq : ereq) (k : nat) : Prop :=
  exists l toks, api_round sv rq k = Ok (l, Some toks) /\ all_null toks = true.

(** If all shards have the same number of pages (in particular for one shard, or when everything fits in one page),
    that client gets every event exactly once. *)
Theorem C76_equal_pages : forall sv rq stores,
  NoDup (map sh_id (sv_stores sv)) -> asked sv rq stores -> stores <> [] -> rq_token rq = TNone ->
  (forall s, s ∈ stores -> forall b c, sh_chunks s b = Some c -> c.1 = b) ->
  exists ps, Forall2 (pages_of rq) stores ps /\
    forall n, (forall p, p ∈ ps -> length p = n) ->
      (forall k, (k < n)%nat -> (stops_at sv rq k <-> S k = n)) /\
      responses sv rq n ≡ₚ concat (concat ps).
Proof.
  intros sv rq stores Hnd Ha Hne Ht Hcs. destruct (C76_cycle sv rq stores Hnd Ha Ht Hcs) as (ps & Hps & Hk).
  exists ps. split; [done|]. intros n Hn.
  assert (Hex : exists p, p ∈ ps).
  { destruct Hps as [|s p l ps' H _]; [done|]. exists p. left. }
  split.
  - intros k Hkn. destruct (Hk k) as (toks & E & _ & Hnull). split.
    + intros (l & toks' & E' & Hn'). rewrite E in E'. injection E' as _ <-. pose proof (proj1 Hnull Hn') as Hn''. clear Hn'. rename Hn'' into Hn'. destruct Hex as [p Hp].
      specialize (Hn' p Hp). rewrite (Hn p Hp) in Hn'. destruct (decide (S k = n)); [done|].
      rewrite Nat.mod_small in Hn' by lia. lia.
    + intros E1. exists (concat (map (fun p => nth (k mod length p) p []) ps)), toks. split; [done|]. apply Hnull.
      intros p Hp. rewrite (Hn p Hp), E1. apply Nat.mod_same. lia.
  - unfold responses.
    assert (E : map (fun k => match api_round sv rq k with Ok (l, _) => l | _ => [] end) (seq 0 n) =
      map (fun k => concat (map (fun p => nth k p []) ps)) (seq 0 n)).
    { apply map_ext_in. intros k Hin. apply in_seq in Hin. destruct (Hk k) as (toks & -> & _).
      f_equal. apply map_ext_in. intros p Hp. apply elem_of_list_In in Hp. rewrite (Hn p Hp), Nat.mod_small by lia. done. }
    rewrite E. clear -Hn.
    assert (Hsplit : forall (f g : nat -> list hev) l, concat (map (fun k => f k ++ g k) l) ≡ₚ concat (map f l) ++ concat (map g l)).
    { intros f g l. induction l as [|x l IH]; [done|]. cbn [map concat]. rewrite IH. clear. solve_Permutation. }
    induction ps as [|p ps IH].
    + cbn. induction (seq 0 n) as [|x l IHl]; [done|]. cbn. done.
    + cbn [map concat]. rewrite (Hsplit (fun k => nth k p []) (fun k => concat (map (fun p => nth k p []) ps))).
      rewrite IH by (intros q Hq; apply Hn; by right). rewrite concat_app. apply Permutation_app; [|done].
      rewrite <- (Hn p ltac:(left)). clear.
      assert (Hm : map (fun k => nth k p []) (seq 0 (length p)) = p); [|by rewrite Hm].
      induction p as [|x p IH]; [done|]. cbn [length seq map nth]. f_equal. rewrite <- seq_shift, map_map. exact IH.
Qed.
(** Otherwise events are repeated: if two shards have different numbers of pages, then before the client stops every
    event of some shard has been returned in two responses. *)
Theorem C76_unequal_pages_refuted : forall sv rq stores,
  NoDup (map sh_id (sv_stores sv)) -> asked sv rq stores -> rq_token rq = TNone ->
  (forall s, s ∈ stores -> forall b c, sh_chunks s b = Some c -> c.1 = b) ->
  exists ps, Forall2 (pages_of rq) stores ps /\
    forall p q, p ∈ ps -> q ∈ ps -> (length p < length q)%nat ->
    forall k, stops_at sv rq k -> forall e, e ∈ concat p ->
    exists i j li lj ti tj, (i < j <= k)%nat /\ api_round sv rq i = Ok (li, ti) /\ api_round sv rq j = Ok (lj, tj) /\ e ∈ li /\ e ∈ lj.
Proof.
  intros sv rq stores Hnd Ha Ht Hcs. destruct (C76_cycle sv rq stores Hnd Ha Ht Hcs) as (ps & Hps & Hk).
  exists ps. split; [done|]. intros p q Hp Hq Hlt k (l & toks & E & Hnull) e He.
  destruct (Hk k) as (toks' & E' & _ & Hn). rewrite E in E'. injection E' as _ <-. rewrite Hn in Hnull.
  pose proof (Hnull p Hp) as H1. pose proof (Hnull q Hq) as H2.
  apply elem_of_list_In, in_concat in He as (pg & Hpg & He). apply In_nth with (d := @nil hev) in Hpg as (i & Hi & <-).
  apply elem_of_list_In in He.
  assert (Hbig : (2 * length p <= S k)%nat).
  { apply Nat.mod_divides in H1 as [a H1]; [|lia]. apply Nat.mod_divides in H2 as [c H2]; [|lia].
    assert (c <> 0)%nat by lia. assert (length q <= S k)%nat by nia.
    assert (a <> 0)%nat by lia. assert (a <> 1)%nat by lia. nia. }
  exists i, (i + length p)%nat.
  destruct (Hk i) as (ti & Ei & _). destruct (Hk (i + length p)%nat) as (tj & Ej & _).
  assert (Hin : forall m, (m mod length p = i)%nat -> e ∈ concat (map (fun p => nth (m mod length p) p []) ps)).
  { intros m Hm. apply elem_of_list_In, in_concat. exists (nth i p []). split; [|by apply elem_of_list_In].
    apply in_map_iff. exists p. split; [by rewrite Hm|by apply elem_of_list_In]. }
  do 4 eexists. split; [lia|]. split; [exact Ei|]. split; [exact Ej|].
  split; apply Hin; [by apply Nat.mod_small|]. replace (i + length p)%nat with (i + 1 * length p)%nat by lia.
  rewrite Nat.mod_add by lia. by apply Nat.mod_small.
Qed.

(** A node that does not hold all configured shards refuses its own token. *)
Theorem C76_missing_shard_refuted : forall sv rq, rq_shard rq = None -> rq_token rq = TNone ->
  N.of_nat (length (sv_stores sv)) < sv_num sv ->
  exists evs toks, api_round sv rq 0 = Ok (evs, Some toks) /\ api_round sv rq 1 = Err ETokenLen.
Proof.
  intros sv rq Hs Ht Hlt.
  assert (Hsel : sel_stores sv (rq_shard rq) = Ok (sv_num sv, sv_stores sv)) by (by rewrite Hs).
  pose proof (api_tokens sv rq _ _ (repeat None (N.to_nat (sv_num sv))) Hsel (or_introl (conj Ht eq_refl)) ltac:(rewrite repeat_length; lia)) as E.
  do 2 eexists. cbn [api_round]. rewrite E. split; [reflexivity|].
  unfold api_get_events. change (rq_shard (with_token rq _)) with (rq_shard rq). rewrite Hs. cbn [with_token sel_stores rq_token].
  rewrite map_length, zip_with_length, repeat_length.
  replace (N.of_nat (length (sv_stores sv) `min` N.to_nat (sv_num sv)) =? sv_num sv) with false; [done|].
  symmetry. apply N.eqb_neq. lia.
Qed.

(** The tokens are positional: a server whose hash map lists the shards in another order after a restart continues
    each shard from the other's place, and events are never returned. *)
Definition tiny (b q : N) : hev := HEv (make_event_id b q) 1 false [] 0 0 0.
Definition shA : shardst := Sh 1 (db_of [tiny 2 0; tiny 3 0; tiny 4 0]) (fun _ => None).
Definition shB : shardst := Sh 2 (db_of [tiny 1 0; tiny 5 0]) (fun _ => None).
Definition rq2 : ereq := EReq 0 None None (Some 2) TNone false.
Theorem C76_order_refuted : exists toks l1 l2,
  api_get_events (ESrv 2 [shA; shB]) rq2 = Ok (l1, Some toks) /\
  api_get_events (ESrv 2 [shB; shA]) (with_token rq2 (TList toks)) = Ok (l2, Some [None; None]) /\
  map he_block (l1 ++ l2) = [2; 3; 1; 5; 5] /\ sh_db shA !! make_event_key (make_event_id 4 0) = Some (tiny 4 0).
Proof. do 3 eexists. split; [vm_compute; reflexivity|]. split; [vm_compute; reflexivity|]. split; vm_compute; reflexivity. Qed.
Example C76_cycle_ex :
  map (fun k => match api_round (ESrv 2 [Sh 1 (db_of [tiny 1 0; tiny 1 1; tiny 2 0]) (fun _ => None); Sh 2 (db_of [tiny 9 0]) (fun _ => None)]) rq2 k with
                | Ok (l, Some t) => (map he_block l, all_null t) | _ => ([], true) end) [0; 1; 2]%nat
  = [([1; 1; 9], false); ([2; 9], true); ([1; 1; 9], false)].
Proof. vm_compute. reflexivity. Qed.
Example C76_one_shard_ex :
  map (fun k => match api_round (ESrv 2 [shA; shB]) (EReq 0 None (Some 2) (Some 2) TNone true) k with
                | Ok (l, Some t) => (map he_block l, all_null t) | _ => ([], true) end) [0; 1]%nat
  = [([5; 1], false); ([], true)].
Proof. vm_compute. reflexivity. Qed.

(** ** The event stream *)
Section Stream.
  Variables (cap : nat) (start : option N) (types : list N) (n : nat).
  Hypothesis Hcap : (0 < cap)%nat.
  Hypothesis Hstart : forall i, start = Some i -> i < 2 ^ 64.
  Notation run := (srun cap start types n).
  Notation W := (List.filter (wanted types)).

  (** What the stream of a shard should start with: the stored events from [from_id] on. *)
  Definition replay (l : list hev) : list hev :=
    match start with Some i => List.filter (fun x => i <=? he_id x) l | None => [] end.

  (** At every moment the client has received, of each shard that is being streamed: the events from [from_id] on that
      were committed when its last page was read, then those sent to the channel after the receiver was created, in
      order, except for the queued ones and the [b_lag] ones lost by lagging. *)
  Theorem C76_stream : forall acts s q, (s < n)%nat -> b_rx (s_shards (run acts) s) = Some q ->
    let b := s_shards (run acts) s in
    exists G, got (run acts) s = W (replay (take (b_read b) (b_log b)) ++ G) /\
      G ++ q `sublist_of` drop (b_from b) (take (b_sent b) (b_log b)) /\
      (length (G ++ q) + b_lag b = b_sent b - b_from b)%nat.
  Proof.
    intros acts s q Hs Hq b. destruct (jrun cap start types n Hcap Hstart acts) as (_ & _ & HJ).
    destruct (HJ s Hs) as (_ & _ & _ & R & J4 & J5). fold b in J4, J5, Hq |- *. rewrite Hq in J5.
    destruct J5 as (J5 & _ & G & J6 & J7 & J8). exists G. rewrite J6, List.filter_app. split; [|done]. f_equal.
    destruct J4 as [E|i t rest E E2 ? ?|i rest ? E2 ?|i rest j e ? E2 ? ? ? ?|i E E2].
    - assert (Er : forall l, replay l = []) by (intros l; unfold replay; by rewrite E). by rewrite Er.
    - congruence.
    - congruence.
    - congruence.
    - assert (Er : forall l, replay l = List.filter (fun x => i <=? he_id x) l) by (intros l; unfold replay; by rewrite E). by rewrite Er.
  Qed.
  (** Without lagging and with an empty queue nothing else is missing. *)
  Theorem C76_stream_drained : forall acts s, (s < n)%nat -> b_rx (s_shards (run acts) s) = Some [] -> b_lag (s_shards (run acts) s) = 0%nat ->
    let b := s_shards (run acts) s in
    got (run acts) s = W (replay (take (b_read b) (b_log b)) ++ drop (b_from b) (take (b_sent b) (b_log b))).
  Proof.
    intros acts s Hs Hq Hlag b. destruct (C76_stream acts s [] Hs Hq) as (G & H1 & H2 & H3). fold b in H1, H2, H3, Hlag.
    rewrite H1. f_equal. f_equal. rewrite app_nil_r in H2, H3.
    assert (Hsub : forall (l1 l2 : list hev), l1 `sublist_of` l2 -> length l1 = length l2 -> l1 = l2).
    { clear. intros l1 l2 H. induction H as [|x l1 l2 H IH|x l1 l2 H IH]; [done| |]; cbn; intros E.
      - f_equal. apply IH. lia.
      - apply sublist_length in H. lia. }
    apply Hsub; [done|].
    destruct (jrun cap start types n Hcap Hstart acts) as (_ & _ & HJ). destruct (HJ s Hs) as (_ & J2 & _). fold b in J2.
    rewrite drop_length, take_length. lia.
  Qed.
  (** If no event was committed and none sent between the last page and the receiver (the replay read exactly what had
      been sent), the client gets each event from [from_id] on exactly once, in order. *)
  Theorem C76_exactly_once : forall acts s i, (s < n)%nat -> start = Some i ->
    b_rx (s_shards (run acts) s) = Some [] -> b_lag (s_shards (run acts) s) = 0%nat ->
    let b := s_shards (run acts) s in
    b_read b = b_from b -> Forall (fun x => i <= he_id x) (drop (b_from b) (b_log b)) ->
    got (run acts) s = W (List.filter (fun x => i <=? he_id x) (take (b_sent b) (b_log b))) /\
    NoDup (map he_id (got (run acts) s)).
  Proof.
    intros acts s i Hs Hst Hq Hlag b Hrf Hfut. destruct (jrun cap start types n Hcap Hstart acts) as (_ & _ & HJ).
    destruct (HJ s Hs) as (J1 & _ & _ & R & _ & J5). fold b in J1, J5. fold b in Hq. rewrite Hq in J5. destruct J5 as (_ & J6 & _).
    assert (E : got (run acts) s = W (List.filter (fun x => i <=? he_id x) (take (b_sent b) (b_log b)))).
    { rewrite (C76_stream_drained acts s Hs Hq Hlag). fold b. f_equal.
      assert (Er : forall l, replay l = List.filter (fun x => i <=? he_id x) l) by (intros l; unfold replay; by rewrite Hst). rewrite Er, Hrf.
      rewrite <- (take_drop (b_from b) (take (b_sent b) (b_log b))) at 2. rewrite take_take, Nat.min_l by done.
      rewrite List.filter_app. f_equal. symmetry.
      assert (Hf : forall l : list hev, Forall (fun x => i <= he_id x) l -> List.filter (fun x => i <=? he_id x) l = l).
      { clear. intros l H. induction H as [|x l H _ IH]; [done|]. cbn. destruct (N.leb_spec i (he_id x)); [|lia]. by rewrite IH. }
      apply Hf. rewrite <- (take_drop (b_sent b) (b_log b)), drop_app_le in Hfut.
      - by apply Forall_app in Hfut as [? _].
      - rewrite take_length. destruct (HJ s Hs) as (_ & J2 & _). fold b in J2. lia. }
    split; [done|]. rewrite E. destruct J1 as [Hsort _].
    assert (Hs1 : StronglySorted (fun a b => he_id a < he_id b) (take (b_sent b) (b_log b))).
    { rewrite <- (take_drop (b_sent b) (b_log b)) in Hsort. revert Hsort.
      generalize (take (b_sent b) (b_log b)) (drop (b_sent b) (b_log b)). clear. intros l1 l2.
      induction l1 as [|x l IH]; [constructor|]. cbn. intros H. apply StronglySorted_inv in H as [H Hf]. constructor; [by apply IH|].
      by apply Forall_app in Hf as [? _]. }
    assert (Hs2 : forall P l, StronglySorted (fun a b => he_id a < he_id b) l -> StronglySorted (fun a b => he_id a < he_id b) (List.filter P l)).
    { clear. intros P l H. induction H as [|x l H IH Hf]; [constructor|]. cbn. destruct (P x); [|done]. constructor; [done|].
      rewrite Forall_forall in Hf |- *. intros y Hy. apply elem_of_list_In, filter_In in Hy as [Hy _]. apply Hf. by apply elem_of_list_In. }
    pose proof (Hs2 (wanted types) _ (Hs2 (fun x => i <=? he_id x) _ Hs1)) as H. clear -H. induction H as [|x l H IH Hf]; [constructor|].
    cbn. constructor; [|done]. rewrite elem_of_list_fmap. intros (y & E & Hy). rewrite Forall_forall in Hf. specialize (Hf y Hy). cbn in Hf. lia.
  Qed.

  (** Histories only grow. *)
  Lemma step_grows st a s : (s ∉ s_todo st -> s ∉ s_todo (sstep cap start types st a)) /\
    let b := s_shards st s in let b' := s_shards (sstep cap start types st a) s in
    (exists l, b_log b' = b_log b ++ l) /\ (b_sent b <= b_sent b')%nat /\
    (s ∉ s_todo st -> b_read b' = b_read b) /\
    (b_rx b <> None -> b_from b' = b_from b /\ b_rx b' <> None) /\
    (b_rx b = None -> b_rx b' <> None -> b_from b' = b_sent b).
  Proof.
    assert (Hrefl : (s ∉ s_todo st -> s ∉ s_todo st) /\ let b := s_shards st s in
      (exists l, b_log b = b_log b ++ l) /\ (b_sent b <= b_sent b)%nat /\ (s ∉ s_todo st -> b_read b = b_read b) /\
      (b_rx b <> None -> b_from b = b_from b /\ b_rx b <> None) /\ (b_rx b = None -> b_rx b <> None -> b_from b = b_sent b)).
    { split; [done|]. split; [exists []; by rewrite app_nil_r|]. split; [done|]. split; [done|]. split; [done|]. done. }
    assert (Hupd : forall t b', (forall l, b_log (s_shards st t) = l -> exists k, b_log b' = l ++ k) ->
      (b_sent (s_shards st t) <= b_sent b')%nat -> (t ∉ s_todo st -> b_read b' = b_read (s_shards st t)) ->
      (b_rx (s_shards st t) <> None -> b_from b' = b_from (s_shards st t) /\ b_rx b' <> None) ->
      (b_rx (s_shards st t) = None -> b_rx b' <> None -> b_from b' = b_sent (s_shards st t)) ->
      let b := s_shards st s in let b2 := upd (s_shards st) t b' s in
      (exists l, b_log b2 = b_log b ++ l) /\ (b_sent b <= b_sent b2)%nat /\ (s ∉ s_todo st -> b_read b2 = b_read b) /\
      (b_rx b <> None -> b_from b2 = b_from b /\ b_rx b2 <> None) /\ (b_rx b = None -> b_rx b2 <> None -> b_from b2 = b_sent b)).
    { intros t b' H1 H2 H3 H4 H5. unfold upd. destruct (Nat.eqb_spec s t) as [->|_]; [|apply Hrefl]. cbv zeta.
      split; [by apply H1|]. split; [done|]. split; [done|]. split; done. }
    destruct a as [t evs|t| |t|t]; cbn [sstep].
    - destruct (ids_above _ _); [|done]. split; [done|]. apply Hupd; cbn; try done. intros l <-. by exists evs.
    - destruct (b_log (s_shards st t) !! b_sent (s_shards st t)); [|done]. split; [done|].
      destruct (b_rx (s_shards st t)) as [q|] eqn:Eq; [destruct (cap <=? length q)%nat|]; apply Hupd; cbn; rewrite ?Eq; try done; try lia;
        intros l <-; exists []; by rewrite app_nil_r.
    - destruct start as [i|]; [|done]. destruct (s_todo st) as [|t rest] eqn:Et; [by rewrite Et|].
      destruct (get_events _ _ _ _ _) as [[l nt]| |]; [|by rewrite Et..]. split.
      + cbn. destruct nt; [done|]. intros H Hin. apply H. by right.
      + apply Hupd; cbn; try done.
        * intros l' <-. exists []. by rewrite app_nil_r.
        * intros H. exfalso. apply H. left.
    - destruct (s_todo st) as [|x rest] eqn:Et; [|by rewrite Et]. destruct (b_rx (s_shards st t)) as [q|] eqn:Eq; [by rewrite Et|].
      split; [done|]. apply Hupd; cbn; rewrite ?Eq; try done. intros l <-. exists []. by rewrite app_nil_r.
    - destruct (b_rx (s_shards st t)) as [[|e q]|] eqn:Eq; [done| |done]. split; [done|]. apply Hupd; cbn; rewrite ?Eq; try done.
      intros l <-. exists []. by rewrite app_nil_r.
  Qed.
  Lemma run_app a1 a2 : run (a1 ++ a2) = fold_left (sstep cap start types) a2 (run a1).
  Proof. unfold srun. by rewrite fold_left_app. Qed.
  Lemma runs_grow acts st s : (s ∉ s_todo st -> s ∉ s_todo (fold_left (sstep cap start types) acts st)) /\
    let b := s_shards st s in let b' := s_shards (fold_left (sstep cap start types) acts st) s in
    (exists l, b_log b' = b_log b ++ l) /\ (b_sent b <= b_sent b')%nat /\
    (s ∉ s_todo st -> b_read b' = b_read b) /\
    (b_rx b = None -> b_rx b' <> None -> (b_sent b <= b_from b')%nat) /\ (b_rx b <> None -> b_from b' = b_from b /\ b_rx b' <> None).
  Proof.
    revert st. induction acts as [|a acts IH]; intros st; cbv zeta.
    - cbn. split; [done|]. split; [exists []; by rewrite app_nil_r|]. split; [done|]. split; [done|]. split; done.
    - cbn [fold_left]. destruct (step_grows st a s) as (A1 & (l1 & A2) & A3 & A4 & A5 & A6).
      destruct (IH (sstep cap start types st a)) as (B1 & (l2 & B2) & B3 & B4 & B5 & B6).
      split; [by intros H; apply B1, A1|]. split; [exists (l1 ++ l2); by rewrite B2, A2, app_assoc|]. split; [lia|].
      split; [intros H; by rewrite B4, A4 by auto|]. split.
      + intros H1 H2. destruct (b_rx (s_shards (sstep cap start types st a) s)) as [q|] eqn:Eq.
        * destruct (B6 ltac:(done)) as [-> _]. rewrite A6 by done. lia.
        * specialize (B5 eq_refl H2). lia.
      + intros H. destruct (A5 H) as [A7 A8]. destruct (B6 A8) as [B7 B8]. by rewrite B7.
  Qed.

  (** The gap (the TODO at server.rs:1966): an event that is committed after the replay of its shard ended and sent
      before the receiver of the shard exists is never delivered, whatever happens later.  The replay of the first
      shards ends long before the receivers are created: those of all other shards come in between. *)
  Theorem C76_gap : forall acts1 acts2 acts3 s e, (s < n)%nat -> start <> None ->
    s ∉ s_todo (run acts1) -> e ∉ b_log (s_shards (run acts1) s) ->
    e ∈ take (b_sent (s_shards (run (acts1 ++ acts2)) s)) (b_log (s_shards (run (acts1 ++ acts2)) s)) ->
    b_rx (s_shards (run (acts1 ++ acts2)) s) = None ->
    e ∉ got (run (acts1 ++ acts2 ++ acts3)) s.
  Proof.
    intros acts1 acts2 acts3 s e Hs Hst H1 H2 H3 H4 Hin.
    destruct (jrun cap start types n Hcap Hstart (acts1 ++ acts2 ++ acts3)) as (_ & _ & HJ).
    destruct (jrun cap start types n Hcap Hstart acts1) as (_ & _ & HJ1).
    destruct (HJ s Hs) as (J1 & J2 & J3 & R & J4 & J5). destruct (HJ1 s Hs) as (_ & _ & J3' & _).
    pose proof (run_app acts1 acts2) as E12. assert (E3 := run_app (acts1 ++ acts2) acts3). rewrite <- app_assoc in E3.
    rewrite E12 in E3, H3, H4. rewrite E3 in J1, J2, J3, J4, J5, Hin. clear E3 E12 HJ HJ1.
    set (st1 := run acts1) in *. set (st2 := fold_left (sstep cap start types) acts2 st1) in *.
    set (st3 := fold_left (sstep cap start types) acts3 st2) in *.
    destruct (runs_grow acts2 st1 s) as (A1 & (l1 & A2) & A3 & A4 & _ & _). fold st2 in A1, A2, A3, A4.
    destruct (runs_grow acts3 st2 s) as (B1 & (l2 & B2) & B3 & B4 & B5 & B6). fold st3 in B1, B2, B3, B4, B5, B6.
    assert (Hn3 : s ∉ s_todo st3) by auto.
    assert (Hread : b_read (s_shards st3 s) = b_read (s_shards st1 s)) by (rewrite B4, A4; auto).
    assert (HR : e ∉ R).
    { destruct J4 as [E|i t rest E E2 ? E4|i rest ? E2 ?|i rest j x ? E2 ? ? ? ?|i E E2].
      - done.
      - exfalso. apply Hn3. rewrite E2. by right.
      - exfalso. apply Hn3. rewrite E2. left.
      - exfalso. apply Hn3. rewrite E2. left.
      - intros Hx. apply elem_of_list_In, filter_In in Hx as [Hx _]. apply filter_In in Hx as [Hx _]. apply elem_of_list_In in Hx.
        apply H2. rewrite Hread, B2, A2, <- app_assoc, take_app_le in Hx by done. by eapply elem_of_take in Hx as (? & ? & ?); eapply elem_of_list_lookup_2. }
    destruct (b_rx (s_shards st3 s)) as [q|] eqn:Eq; [|rewrite J5 in Hin; done].
    destruct J5 as (_ & _ & G & J6 & J7 & _). rewrite J6 in Hin. apply elem_of_app in Hin as [Hin|Hin]; [done|].
    apply elem_of_list_In, filter_In in Hin as [Hin _]. apply elem_of_list_In in Hin.
    assert (Hd : e ∈ drop (b_from (s_shards st3 s)) (take (b_sent (s_shards st3 s)) (b_log (s_shards st3 s)))).
    { assert (Hsub : G ⊆ drop (b_from (s_shards st3 s)) (take (b_sent (s_shards st3 s)) (b_log (s_shards st3 s)))).
      { intros x Hx. apply (sublist_submseteq _ _) in J7. apply (submseteq_Permutation _ _) in J7 as [k J7]. rewrite J7.
        apply elem_of_app. left. apply elem_of_app. by left. }
      by apply Hsub. }
    specialize (B5 H4 ltac:(done)).
    (* [e] would occur at two places of a sorted log *)
    apply elem_of_list_lookup in Hd as [a Ha]. rewrite lookup_drop in Ha.
    assert (Ha' : b_log (s_shards st3 s) !! (b_from (s_shards st3 s) + a)%nat = Some e).
    { destruct (decide (b_from (s_shards st3 s) + a < b_sent (s_shards st3 s))%nat).
      - by rewrite lookup_take in Ha by done.
      - by rewrite lookup_take_ge in Ha by lia. }
    apply elem_of_take in H3 as (c & Hc & Hlt).
    assert (Hc' : b_log (s_shards st3 s) !! c = Some e) by (rewrite B2; by apply lookup_app_l_Some).
    destruct J1 as [Hsort _].
    assert (Hnd : forall l : list hev, StronglySorted (fun a b => he_id a < he_id b) l -> NoDup l).
    { clear. intros l H. induction H as [|x l H IH Hf]; [constructor|]. constructor; [|done]. intros Hin. rewrite Forall_forall in Hf.
      specialize (Hf x Hin). cbn in Hf. lia. }
    pose proof (NoDup_lookup _ _ _ _ (Hnd _ Hsort) Ha' Hc'). lia.
  Qed.
End Stream.

(** A run with both defects: shard 0 is replayed first; event 3 of shard 0 is committed and sent while shard 1 is
    replayed and is lost; event 12 of shard 1 is committed and read but sent only after the receiver exists, and is
    delivered twice. *)
Definition ev (i : N) : hev := HEv i 1 false [] 0 0 0.
Definition demo : list sact :=
  [ACommit 0 [ev 1; ev 2]; ASend 0; ASend 0; ACommit 1 [ev 11]; ASend 1;
   APage; ACommit 0 [ev 3]; ASend 0; ACommit 1 [ev 12]; APage; AAttach 0; AAttach 1;
   ASend 1; ARecv 1; ACommit 0 [ev 4]; ASend 0; ARecv 0].
Theorem C76_lost_and_repeated_refuted :
  let st := srun 10 (Some 1) [1] 2 demo in
  map he_id (got st 0) = [1; 2; 4] /\ map he_id (b_log (s_shards st 0)) = [1; 2; 3; 4] /\
  map he_id (got st 1) = [11; 12; 12] /\ map he_id (b_log (s_shards st 1)) = [11; 12] /\
  b_lag (s_shards st 0) = 0%nat /\ b_lag (s_shards st 1) = 0%nat.
Proof. vm_compute. repeat split. Qed.
(** The hypotheses of the gap theorem hold in that run. *)
Example C76_gap_ex :
  let acts1 := take 6 demo in let acts2 := take 3 (drop 6 demo) in
  s_todo (srun 10 (Some 1) [1] 2 acts1) = [1%nat] /\
  map he_id (b_log (s_shards (srun 10 (Some 1) [1] 2 acts1) 0)) = [1; 2] /\
  map he_id (take (b_sent (s_shards (srun 10 (Some 1) [1] 2 (acts1 ++ acts2)) 0)) (b_log (s_shards (srun 10 (Some 1) [1] 2 (acts1 ++ acts2)) 0))) = [1; 2; 3] /\
  b_rx (s_shards (srun 10 (Some 1) [1] 2 (acts1 ++ acts2)) 0) = None.
Proof. vm_compute. repeat split. Qed.
(** A run without the gap, and one whose receiver lags. *)
Example C76_exact_ex :
  let st := srun 10 (Some 2) [1] 1 [ACommit 0 [ev 1; ev 2]; ASend 0; ASend 0; APage; AAttach 0; ACommit 0 [ev 3]; ASend 0; ARecv 0] in
  map he_id (got st 0) = [2; 3] /\ b_read (s_shards st 0) = b_from (s_shards st 0) /\ b_rx (s_shards st 0) = Some [] /\ b_lag (s_shards st 0) = 0%nat.
Proof. vm_compute. repeat split. Qed.
Example C76_lag_ex :
  let st := srun 2 None [1] 1 [AAttach 0; ACommit 0 [ev 1; ev 2; ev 3]; ASend 0; ASend 0; ASend 0; ARecv 0; ARecv 0] in
  map he_id (got st 0) = [2; 3] /\ b_lag (s_shards st 0) = 1%nat.
Proof. vm_compute. repeat split. Qed.
(** No event types, no events: the empty filter selects nothing (server.rs:1947, 1983). *)
Theorem C76_empty_filter : forall cap start n acts s, got (srun cap start [] n acts) s = [].
Proof.
  intros cap start n acts s.
  assert (H : s_out (srun cap start [] n acts) = []).
  { unfold srun. assert (H : forall st, s_out st = [] -> s_out (fold_left (sstep cap start []) acts st) = []); [|by apply H].
    induction acts as [|a acts IH]; intros st Hst; [done|]. cbn [fold_left]. apply IH.
    assert (Ht : forall t l, tag [] t l = []) by (intros t l; unfold tag; induction l as [|e l IHl]; [done|exact IHl]).
    destruct a as [t evs|t| |t|t]; cbn [sstep].
    - by destruct (ids_above _ _).
    - by destruct (b_log (s_shards st t) !! b_sent (s_shards st t)).
    - destruct start; [|done]. destruct (s_todo st); [done|]. destruct (get_events _ _ _ _ _) as [[l0 nt]| |]; [|done|done].
      cbn [s_out]. by rewrite Hst, Ht.
    - destruct (s_todo st); [|done]. by destruct (b_rx (s_shards st t)).
    - destruct (b_rx (s_shards st t)) as [[|e q]|]; [done| |done]. cbn [s_out]. by rewrite Hst, Ht. }
  unfold got. by rewrite H.
Qed.

Print Assumptions C76_page_fields.
Print Assumptions C76_replay_as_live.
Print Assumptions C76_timestamp_refuted.
Print Assumptions C76_cycle.
Print Assumptions C76_never_ends.
Print Assumptions C76_equal_pages.
Print Assumptions C76_unequal_pages_refuted.
Print Assumptions C76_missing_shard_refuted.
Print Assumptions C76_order_refuted.
Print Assumptions C76_stream.
Print Assumptions C76_stream_drained.
Print Assumptions C76_exactly_once.
Print Assumptions C76_gap.
Print Assumptions C76_lost_and_repeated_refuted.
Print Assumptions C76_empty_filter.
