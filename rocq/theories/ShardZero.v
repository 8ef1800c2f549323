(** The life of a block in the block shard (shard 0), the block events it produces, and how data shards take them in.

    src/storage/store/block_engine.rs 506-534, 603-611, 1420-1869, 1893-2277, src/storage/store/account/block_event_store.rs,
    src/consensus/proposer.rs 484-690, src/mempool/block_receiver.rs. As in Engine, what the individual stores do with a
    message is a parameter. *)
From stdpp Require Import gmap.
From Verif Require Import Base Codec Kv Version Engine.
#[local] Open Scope N_scope.

(** A hub event of shard 0 as far as [generate_block_events] looks at it: a merged message with its type, a merged on-chain
    event with its type, or anything else (a MergeFailure). *)
Inductive hev := HMsg (ty : N) (m : bytes) | HChain (ty : N) (m : bytes) | HOther (m : bytes).

(** proto [MessageType] and [OnChainEventType] values used below (message.proto, onchain_event.proto). *)
Definition T_VERIF_ADD : N := 7.
Definition T_VERIF_REMOVE : N := 8.
Definition T_LEND : N := 15.
Definition T_KEY_ADD : N := 16.
Definition T_KEY_REMOVE : N := 17.
Definition T_CH_UPDATE : N := 18.
Definition T_CH_MEMBER : N := 19.
Definition T_CH_PIN : N := 20.
Definition T_CH_MODERATE : N := 21.
Definition T_CHANNEL_REGISTER : N := 6.

(** One store operation that ends in a hub event, as in Engine. *)
Record zact := ZAct { za_rows : batch bytes; za_ins : gset bytes; za_del : gset bytes; za_ev : hev }.

(** [Transaction] on shard 0. The sorting of the system messages (506-534, from SortedBlockEngineEvents on) is left out: it is
    a function of the list, which is taken as sorted. *)
Record ztxn := ZTxn { zt_fid : N; zt_sys : list bytes; zt_user : list bytes; zt_root : bytes }.

(** proto [BlockEventData] with its three bodies. *)
Inductive bbody := BMsg (m : bytes) | BChain (m : bytes) | BHeart.
Record bevent := BEvent { b_seq : N; b_block : N; b_index : N; b_time : N; b_body : bbody }.

(** What is outside the engine.
    - [z_item time sys start merged view fid content]: the effect of one message; [sys] tells system from user messages,
      [start] is the view after the system messages and [merged] the hub events so far of the transaction: storage slots
      and verification counters are read once there and then follow the merged events (1465-1511, 1538-1556).
    - [z_root], [z_acct]: root hash of the trie and of an account's subtree.
    - [z_enc], [z_hash]: the protobuf encoding of a block event and blake3. *)
Record zenv := ZEnv {
  z_item : N -> bool -> view -> list hev -> view -> N -> bytes -> list zact;
  z_root : gset bytes -> bytes;
  z_acct : gset bytes -> N -> bytes;
  z_enc : bevent -> bytes;
  z_hash : bytes -> bytes }.

(** [Block]: of the header the height, the time, the state root and the events hash; the events as listed in the block, each
    with the hash it claims. The other header fields (chain, version, shard witnesses) are in Consensus, the parent hash in ParentChain. *)
Record zblock := ZBlock { zb_height : N; zb_time : N; zb_txns : list ztxn; zb_root : bytes; zb_evhash : bytes;
  zb_events : list (bytes * option bevent) }.

Record zdb := ZDb { zd_rows : kv bytes; zd_log : gmap N hev; zd_bev : gmap N bevent; zd_trie : gset bytes; zd_blocks : gmap N zblock }.

(** Work in progress: rows of the batch, trie, generator, events with their ids; [zw_todo] are the operations of the current
    transaction whose events have yet to reach the trie (1685-1690). *)
Record zwip := ZWip { zw_rows : batch bytes; zw_trie : gset bytes; zw_gen : idgen; zw_evs : list (N * hev); zw_todo : list zact }.

Definition zwip0 (mem : gset bytes) (g : idgen) : zwip := ZWip ∅ mem g [] [].

Definition zview (d : zdb) (w : zwip) : view := View (zd_rows d) (zw_rows w) (zw_trie w).

(** Rows, then the id (event.rs [commit_transaction]); without an id the merge fails, its rows stay in the batch. *)
Definition zdo (w : zwip) (a : zact) : zwip :=
  let rows := za_rows a ∪ zw_rows w in
  match generate_id false (zw_gen w) with
  | (Ok id, g) => ZWip rows (zw_trie w) g (zw_evs w ++ [(id, za_ev a)]) (zw_todo w ++ [a])
  | (_, g) => ZWip rows (zw_trie w) g (zw_evs w) (zw_todo w)
  end.
Definition zdos (w : zwip) (l : list zact) : zwip := fold_left zdo l w.

(** 1434-1463 system messages, 1514-1683 user messages. *)
Definition zmsg (E : zenv) (d : zdb) (time : N) (sys : bool) (start : view) (fid : N) (w : zwip) (m : bytes) : zwip :=
  zdos w (z_item E time sys start (map za_ev (zw_todo w)) (zview d w) fid m).
Definition zmsgs (E : zenv) (d : zdb) (time : N) (sys : bool) (start : view) (fid : N) (w : zwip) (l : list bytes) : zwip :=
  fold_left (zmsg E d time sys start fid) l w.

(** 1685-1690: the events of the transaction reach the trie together at its end. *)
Definition zflush (w : zwip) : zwip :=
  ZWip (zw_rows w) (fold_left (fun t a => (t ∪ za_ins a) ∖ za_del a) (zw_todo w) (zw_trie w)) (zw_gen w) (zw_evs w) [].

(** 1424-1701 [replay_snapchain_txn]. Its error results (database or trie errors) are left out. *)
Definition zrun_txn (E : zenv) (d : zdb) (time : N) (w : zwip) (tx : ztxn) : zwip :=
  let w1 := zmsgs E d time true (zview d w) (zt_fid tx) w (zt_sys tx) in
  let w2 := zmsgs E d time false (zview d w1) (zt_fid tx) w1 (zt_user tx) in
  zflush w2.

(** 1737-1829: the body of the block event made of a hub event, if any. *)
Definition fan (v : N) (h : hev) : option bbody :=
  match h with
  | HMsg ty m =>
      if ((ty =? T_KEY_ADD) || (ty =? T_KEY_REMOVE)) && negb (is_enabled v GaslessSigners) then None
      else if (ty =? T_LEND) || (ty =? T_KEY_ADD) || (ty =? T_KEY_REMOVE) || (ty =? T_VERIF_ADD) || (ty =? T_VERIF_REMOVE) then Some (BMsg m)
      else if ((ty =? T_CH_UPDATE) || (ty =? T_CH_MEMBER) || (ty =? T_CH_PIN) || (ty =? T_CH_MODERATE)) && is_enabled v ChannelMessages then Some (BMsg m)
      else None
  | HChain ty m => if (ty =? T_CHANNEL_REGISTER) && is_enabled v ChannelOwnershipEvents then Some (BChain m) else None
  | HOther _ => None
  end.

(** 1704-1709. *)
Definition heartbeat_interval (n : network) : N := match n with Devnet => 5 | _ => 100 end.

(** version.rs [version_for]; there is always one (C49), so the default is never used. *)
Definition ver (n : network) (time : N) : N := default 0 (version_for time n).

(** Numbering a list of bodies from sequence number [s] and index [i]. *)
Fixpoint number (s i height time : N) (l : list bbody) : list bevent :=
  match l with
  | [] => []
  | b :: r => BEvent s height i time b :: number (s + 1) (i + 1) height time r
  end.

(** 1720-1852 [generate_block_events], the events; [last] is the committed [max_seqnum]. *)
Definition block_events (n : network) (height time last : N) (hs : list hev) : list bevent :=
  number (last + 1) 0 height time
    (omap (fan (ver n time)) hs ++ (if height mod heartbeat_interval n =? 0 then [BHeart] else [])).

(** 1854-1866 the events hash. *)
Definition events_hash (E : zenv) (l : list bevent) : bytes :=
  match l with
  | [] => []
  | _ => z_hash E (concat (map (fun e => z_hash E (z_enc E e)) l))
  end.

(** block_event_store.rs [max_seqnum]. *)
Definition last_seq (m : gmap N bevent) : N := map_fold (fun k _ a => N.max k a) 0 m.

(** 603-611 [set_height]. *)
Definition set_height (n : network) (time h : N) (g : idgen) : idgen :=
  if is_enabled (ver n time) EventIdBugFix then set_current_height h else g.

Section N.
  Context (E : zenv) (n : network).

  Definition writes (time : N) : bool := is_enabled (ver n time) WriteDataToShardZero.

  Fixpoint zprepare (d : zdb) (time : N) (w : zwip) (l : list ztxn) : zwip * list ztxn :=
    match l with
    | [] => (w, [])
    | tx :: r =>
        let w1 := zrun_txn E d time w tx in
        let '(w2, r') := zprepare d time w1 r in
        (w2, ZTxn (zt_fid tx) (zt_sys tx) (zt_user tx) (z_acct E (zw_trie w1) (zt_fid tx)) :: r')
    end.

  Fixpoint zreplay_txns (d : zdb) (time : N) (w : zwip) (l : list ztxn) : zwip * bool :=
    match l with
    | [] => (w, true)
    | tx :: r =>
        let w1 := zrun_txn E d time w tx in
        if beq (z_acct E (zw_trie w1) (zt_fid tx)) (zt_root tx) then zreplay_txns d time w1 r else (w1, false)
    end.

  (** The block events of a replayed block. *)
  Definition events_of (d : zdb) (height time : N) (w : zwip) : list bevent :=
    block_events n height time (last_seq (zd_bev d)) (zw_evs w).*2.

  (** 2068-2166 [replay_proposal]. *)
  Definition zreplay (d : zdb) (height time : N) (w : zwip) (l : list ztxn) (root evhash : bytes) : zwip * bool :=
    let '(w', ok) := zreplay_txns d time w l in
    (w', ok && beq (events_hash E (events_of d height time w')) evhash && beq (z_root E (zw_trie w')) root).

  (** The engine: database, in-memory trie, id generator. *)
  Record zeng := ZEng { ze_db : zdb; ze_mem : gset bytes; ze_gen : idgen }.
  Definition zopen (d : zdb) : zeng := ZEng d (zd_trie d) (set_current_height 0).

  (** 1961-1995 [propose_state_change], 1893-1959 [prepare_proposal]; the transactions are given, as in Engine. Before
      WriteDataToShardZero the change is empty. With proposer.rs:484-577: the block made of it. *)
  Definition zpropose (e : zeng) (h time : N) (l : list ztxn) : zblock * zeng :=
    if writes time then
      let '(w, l') := zprepare (ze_db e) time (zwip0 (ze_mem e) (set_height n time h (ze_gen e))) l in
      let evs := events_of (ze_db e) h time w in
      (ZBlock h time l' (z_root E (zw_trie w)) (events_hash E evs) (map (fun x => (z_hash E (z_enc E x), Some x)) evs),
       ZEng (ze_db e) (zd_trie (ze_db e)) (zw_gen w))
    else (ZBlock h time [] [] [] [], e).

  (** 2168-2210 [validate_state_change], as called from proposer.rs:579-649 [add_proposed_value]; the events listed in the
      block are not looked at. *)
  Definition zvalidate (e : zeng) (b : zblock) : bool * zeng :=
    if writes (zb_time b) then
      let '(w, ok) := zreplay (ze_db e) (zb_height b) (zb_time b) (zwip0 (ze_mem e) (set_height n (zb_time b) (zb_height b) (ze_gen e)))
        (zb_txns b) (zb_root b) (zb_evhash b) in
      (ok, ZEng (ze_db e) (zd_trie (ze_db e)) (zw_gen w))
    else (true, e).

  (** The batch: rows, hub events, block events, trie. *)
  Definition zwrite (d : zdb) (w : zwip) (evs : list bevent) : zdb :=
    ZDb (commit (zd_rows d) (zw_rows w)) (list_to_map (zw_evs w) ∪ zd_log d)
      (list_to_map (map (fun x => (b_seq x, x)) evs) ∪ zd_bev d) (zw_trie w) (zd_blocks d).

  (** block.rs [put_block], a write of its own. *)
  Definition put_block (d : zdb) (b : zblock) : zdb :=
    ZDb (zd_rows d) (zd_log d) (zd_bev d) (zd_trie d) (<[zb_height b := b]> (zd_blocks d)).

  (** 2212-2277 [commit_block] up to the write of the batch: the database then and the block events; [None] is the panic. *)
  Definition zcommit_first (e : zeng) (b : zblock) : option (zdb * zeng * list bevent) :=
    if writes (zb_time b) then
      let '(w, ok) := zreplay (ze_db e) (zb_height b) (zb_time b) (zwip0 (ze_mem e) (set_height n (zb_time b) (zb_height b) (ze_gen e)))
        (zb_txns b) (zb_root b) (zb_evhash b) in
      let evs := events_of (ze_db e) (zb_height b) (zb_time b) w in
      if ok then let d := zwrite (ze_db e) w evs in Some (d, ZEng d (zd_trie d) (zw_gen w), evs) else None
    else Some (ze_db e, e, []).

  Definition zcommit (e : zeng) (b : zblock) : option (zeng * list bevent) :=
    match zcommit_first e b with
    | Some (d, e', evs) => Some (ZEng (put_block d b) (ze_mem e') (ze_gen e'), evs)
    | None => None
    end.

  (** What consensus asks between two commits. *)
  Inductive zreq := ZPropose (h time : N) (l : list ztxn) | ZValidate (b : zblock).
  Definition zserve (e : zeng) (r : zreq) : zeng :=
    match r with
    | ZPropose h time l => (zpropose e h time l).2
    | ZValidate b => (zvalidate e b).2
    end.

  (** A chain of blocks with the requests before each, and the block events of all of them. *)
  Fixpoint zrun (e : zeng) (made : list bevent) (l : list (list zreq * zblock)) : option (zeng * list bevent) :=
    match l with
    | [] => Some (e, made)
    | (rs, b) :: r => match zcommit (fold_left zserve rs e) b with Some (e', evs) => zrun e' (made ++ evs) r | None => None end
    end.

  Definition zdb0 : zdb := ZDb ∅ ∅ ∅ ∅ ∅.

  (** ** Data shards taking in block events: src/mempool/block_receiver.rs *)

  (** 71-101 [validate_block_events]; [certified] is the result of [verify_signatures], which is not told what the block is. *)
  Definition valid_events (certified : bool) (b : zblock) : bool :=
    match zb_events b with
    | [] => true
    | evs => forallb (fun x => match snd x with Some d => beq (fst x) (z_hash E (z_enc E d)) | None => false end) evs &&
             beq (zb_evhash b) (z_hash E (concat (map fst evs))) && certified
    end.

  (** 158-180 [submit_block]: what goes to the mempool. *)
  Definition submit (certified : bool) (b : zblock) : list bevent :=
    if valid_events certified b then omap snd (zb_events b) else [].

  (** block_engine.rs:404-412 [get_block_by_event_seqnum], asked for by the receiver (main.rs:914-917). *)
  Definition block_of_event (d : zdb) (s : N) : option zblock := x ← zd_bev d !! s; zd_blocks d !! b_block x.

  (** 182-226 [sync_missing_block_events] without waiting for confirmations: [None] while it has not ended after [fuel] blocks,
      [Some None] for the panic on a block that is not there or whose last event is without data (proto/src/lib.rs:91), otherwise what was submitted. *)
  Fixpoint sync (certified : zblock -> bool) (d : zdb) (fuel : nat) (cur stop : N) (sent : list bevent) : option (option (list bevent)) :=
    if stop <? cur then Some (Some sent)
    else match fuel with
         | O => None
         | S fuel' =>
             match block_of_event d cur with
             | None => Some None
             | Some b =>
                 let sent' := sent ++ submit (certified b) b in
                 match last (zb_events b) with
                 | Some (_, Some x) => sync certified d fuel' (b_seq x + 1) stop sent'
                 | Some (_, None) => Some None
                 | None => sync certified d fuel' cur stop sent'
                 end
             end
         end.

  (** 228-275 [run], one block: [stored] is the last event number of the data shard's own store. Waiting for confirmations and
      the retries after a timeout (289-) are left out. *)
  Definition receive (certified : zblock -> bool) (d : zdb) (fuel : nat) (stored : N) (b : zblock) : option (option (list bevent)) :=
    match zb_events b with
    | [] => Some (Some [])
    | (_, first) :: _ =>
        match first, last (zb_events b) with
        | Some x, Some (_, Some y) =>
            if b_seq y <? stored then Some (Some [])
            else if stored + 1 <? b_seq x then
              match sync certified d fuel (stored + 1) (b_seq x - 1) [] with
              | Some (Some sent) => Some (Some (sent ++ submit (certified b) b))
              | r => r
              end
            else Some (Some (submit (certified b) b))
        | _, _ => Some None
        end
    end.
End N.
