(** The life of a block in a data shard: proposing, validating, caching, committing, crashing.

    src/storage/store/engine.rs 306-597, 1225-1685, 2342-2481, 2599-2731. What the individual stores do with a message is
    modelled elsewhere (Store, Names, OnChain, Storage, ...) and is a parameter here ([env]); this file is about what the
    engine does around it. *)
From stdpp Require Import gmap.
From Verif Require Import Base Codec Kv.
#[local] Open Scope N_scope.

(** One store operation that ends in a hub event: the rows it puts or deletes in the batch, the sync-trie keys the event
    inserts and deletes (trie/merkle_trie.rs:138-246), and the event without its id. The rows are written before the event
    gets its id (store.rs and onchain_event_store.rs call [commit_transaction] last). *)
Record action := Act { a_rows : batch bytes; a_ins : gset bytes; a_del : gset bytes; a_body : bytes }.

(** A system message of a transaction: an on-chain event or name transfer (opaque content), or a block event from shard 0
    with its number, its claimed hash and its content. User messages are opaque contents too. *)
Inductive item := IMsg (m : bytes) | IBlock (seq : N) (hash m : bytes).

(** [Transaction]: account, system messages, user messages, and the account root claimed by the proposer. The sorting of
    both lists (engine.rs:1253-1272, 1529-1568) is left out: it is a function of the list alone, so the lists are taken
    as sorted. *)
Record txn := Txn { t_fid : N; t_sys : list item; t_user : list bytes; t_root : bytes }.

Definition block_ids (l : list item) : list bytes :=
  flat_map (fun i => match i with IBlock _ h _ => [h] | IMsg _ => [] end) l.

(** What a store operation can see: the committed rows, the rows of the open batch, the trie. *)
Record view := View { v_db : kv bytes; v_rows : batch bytes; v_trie : gset bytes }.

(** Everything outside the engine's own bookkeeping, as functions of what they read.
    - [x_item time view fid content]: merging one message, or reporting its failure (a MergeFailure event changes neither
      rows nor trie). [time] is the block timestamp, which also fixes the protocol version.
    - [x_tail phase time view fid merged]: the three closing loops of a transaction, [phase] 0 the revocation of the signers
      removed in it (1504-1527), 1 the pruning of the message types merged in it (1629-1651), 2 the effects of deleted
      verifications (1653-1668). They depend on the events of the messages merged in the transaction ([merged]; side effects look only
      at merge events, 1765). The first two iterate over a [HashSet], so the groups come in any order; each group is taken
      to depend on the state before the loop.
    - [x_root], [x_acct]: root hash of the trie and of an account's subtree.
    - [x_hash]: blake3 of concatenated hashes. *)
Record env := Env {
  x_item : N -> view -> N -> bytes -> list action;
  x_tail : N -> N -> view -> N -> list bytes -> list (list action);
  x_root : gset bytes -> bytes;
  x_acct : gset bytes -> N -> bytes;
  x_hash : list bytes -> bytes }.

(** The order in which a [HashSet] is iterated. Rust seeds each set anew, so every replay has its own. *)
Definition order := list (list action) -> list (list action).

Record chunk := Chunk { c_height : N; c_time : N; c_txns : list txn; c_root : bytes }.

(** The database by key families (their prefixes differ, see C02): store rows, hub events by id (HubEvents), block events
    by number (BlockEvent), the trie (MerkleTrieNode) as its set of keys, the chunks by height (Shard). *)
Record db := Db { d_rows : kv bytes; d_log : gmap N bytes; d_bev : gmap N bytes; d_trie : gset bytes; d_chunks : gmap N chunk }.

(** Work in progress: the open batch ([w_rows], [w_bev]), the in-memory trie, whose changed nodes are also in the batch,
    the id generator, the number of the last block event, the events so far, each also a row of the batch under its id,
    and (for stating properties) the block events applied so far. *)
Record wip := Wip { w_rows : batch bytes; w_bev : gmap N bytes; w_trie : gset bytes; w_gen : idgen; w_last : N;
  w_evs : list (N * bytes); w_app : list (N * bytes) }.

(** The hub-event rows of a list of events with ids. *)
Definition log_of (l : list (N * bytes)) : gmap N bytes := list_to_map l.

(** block_event_store.rs [max_seqnum]: the number in the last key under the prefix, 0 without any. *)
Definition max_seqnum (m : gmap N bytes) : N := map_fold (fun k _ a => N.max k a) 0 m.

(** [RocksDbTransactionBatch::new] on a trie. *)
Definition wip0 (d : db) (mem : gset bytes) (g : idgen) : wip := Wip ∅ ∅ mem g (max_seqnum (d_bev d)) [] [].

Definition view_of (d : db) (w : wip) : view := View (d_rows d) (w_rows w) (w_trie w).

(** Rows first, then the id (account/event.rs:109-124 [commit_transaction]), then the trie (merkle_trie.rs:229-246: inserts, then
    deletes). Without an id the rows stay in the batch, and neither event nor trie change follows: a failed merge is not
    rolled back (1590-1609), a failed revocation is skipped (store.rs [revoke_messages_by_signer]). The id-less
    MergeFailure event that is then sent to subscribers is left out. *)
Definition act (w : wip) (a : action) : wip :=
  let rows := a_rows a ∪ w_rows w in
  match generate_id false (w_gen w) with
  | (Ok id, g) => Wip rows (w_bev w) ((w_trie w ∪ a_ins a) ∖ a_del a) g (w_last w)
                    (w_evs w ++ [(id, a_body a)]) (w_app w)
  | (_, g) => Wip rows (w_bev w) (w_trie w) g (w_last w) (w_evs w) (w_app w)
  end.

Definition acts (w : wip) (l : list action) : wip := fold_left act l w.

(** 1400-1500 a block event: only the next number is taken; it is stored and counted whatever its content does, and
    neither hash nor content is checked. Versions before ReadDataFromShardZero are left out. *)
Definition take_event (w : wip) (seq : N) (h : bytes) (m : bytes) : wip :=
  Wip (w_rows w) (<[seq := h]> (w_bev w)) (w_trie w) (w_gen w) (w_last w + 1) (w_evs w) (w_app w ++ [(seq, m)]).

(** One message (1273-1502, 1570-1627). *)
Definition do_item (E : env) (d : db) (time fid : N) (w : wip) (i : item) : wip :=
  match i with
  | IMsg m => acts w (x_item E time (view_of d w) fid m)
  | IBlock seq h m =>
      if seq =? w_last w + 1 then
        let w' := take_event w seq h m in acts w' (x_item E time (view_of d w') fid m)
      else w
  end.

Definition do_items (E : env) (d : db) (time fid : N) (w : wip) (l : list item) : wip := fold_left (do_item E d time fid) l w.

(** A closing loop. *)
Definition do_tail (E : env) (o : order) (d : db) (time phase fid : N) (merged : list bytes) (w : wip) : wip :=
  let gs := x_tail E phase time (view_of d w) fid merged in
  acts w (concat (if phase =? 2 then gs else o gs)).

(** The events of [w'] that were not there in [w]. *)
Definition new_evs (w w' : wip) : list bytes := drop (length (w_evs w)) (w_evs w').*2.

(** 1225-1685 [replay_snapchain_txn] up to the account root. *)
Definition run_txn (E : env) (o : order) (d : db) (time : N) (w : wip) (tx : txn) : wip :=
  let w1 := do_items E d time (t_fid tx) w (t_sys tx) in
  let m1 := new_evs w w1 in
  let w2 := do_tail E o d time 0 (t_fid tx) m1 w1 in
  let w3 := do_items E d time (t_fid tx) w2 (map IMsg (t_user tx)) in
  let m3 := m1 ++ new_evs w2 w3 in
  let w4 := do_tail E o d time 1 (t_fid tx) m3 w3 in
  do_tail E o d time 2 (t_fid tx) m3 w4.

(** 306-395 [prepare_proposal]: the transactions with their account roots. Grouping the pulled messages into transactions
    and dropping the user messages of accounts without storage is left out: the argument is the resulting list. *)
Fixpoint prepare (E : env) (o : order) (d : db) (time : N) (w : wip) (l : list txn) : wip * list txn :=
  match l with
  | [] => (w, [])
  | tx :: r =>
      let w1 := run_txn E o d time w tx in
      let '(w2, r') := prepare E o d time w1 r in
      (w2, Txn (t_fid tx) (t_sys tx) (t_user tx) (x_acct E (w_trie w1) (t_fid tx)) :: r')
  end.

(** mempool_poller.rs:136-194 [create_transactions_from_mempool], system messages only: the pulled messages, each with the
    account it belongs to (43-68: for a block event the author of the message in it, 0 for a heartbeat), are grouped by
    account; the accounts come in the order [fids] of a hash map. *)
Definition group (fids : list N) (l : list (N * item)) : list txn :=
  map (fun f => Txn f (map snd (List.filter (fun m => fst m =? f) l)) [] []) fids.

Definition beq (a b : bytes) : bool := bool_decide (a = b).

(** 511-597 [replay_proposal]; the boolean tells [Ok] from [Err HashMismatch]. The warning about the parent root has no
    effect, database errors are not modelled. *)
Fixpoint replay_txns (E : env) (o : order) (d : db) (time : N) (w : wip) (l : list txn) : wip * bool :=
  match l with
  | [] => (w, true)
  | tx :: r =>
      let w1 := run_txn E o d time w tx in
      if beq (x_acct E (w_trie w1) (t_fid tx)) (t_root tx) then replay_txns E o d time w1 r else (w1, false)
  end.

Definition replay (E : env) (o : order) (d : db) (time : N) (w : wip) (l : list txn) (root : bytes) : wip * bool :=
  let '(w', ok) := replay_txns E o d time w l in
  (w', ok && beq (x_root E (w_trie w')) root).

(** 2599-2617 [compute_block_events_hash]: all block events listed, applied or not. *)
Definition bev_hash (E : env) (l : list txn) : bytes :=
  match flat_map (fun tx => block_ids (t_sys tx)) l with
  | [] => []
  | hs => x_hash E hs
  end.

(** [CachedTransaction]. *)
Record pend := Pend { pd_root : bytes; pd_w : wip; pd_bev : bytes }.

(** The engine: database, in-memory trie, id generator, cached transaction. *)
Record eng := Eng { e_db : db; e_mem : gset bytes; e_gen : idgen; e_pend : option pend }.

(** Opening the database: the trie is loaded from it. *)
Definition open_eng (d : db) : eng := Eng d (d_trie d) (set_current_height 0) None.

(** 403-408 [start_round]. *)
Definition start_round (e : eng) (h : N) : eng := Eng (e_db e) (e_mem e) (set_current_height h) None.

Record proposal := Proposal { p_time : N; p_txns : list txn; p_root : bytes }.

(** 410-456 [propose_state_change]: the generator goes on from where it is. *)
Definition propose (E : env) (o : order) (e : eng) (time : N) (l : list txn) : proposal * eng :=
  let '(w, l') := prepare E o (e_db e) time (wip0 (e_db e) (e_mem e) (e_gen e)) l in
  let root := x_root E (w_trie w) in
  (Proposal time l' root,
   Eng (e_db e) (d_trie (e_db e)) (w_gen w) (Some (Pend root w (bev_hash E l')))).

(** 2342-2411 [validate_state_change]. *)
Definition validate (E : env) (o : order) (e : eng) (h : N) (p : proposal) : bool * eng :=
  let '(w, ok) := replay E o (e_db e) (p_time p) (wip0 (e_db e) (e_mem e) (set_current_height h)) (p_txns p) (p_root p) in
  (ok, Eng (e_db e) (d_trie (e_db e)) (w_gen w)
         (if ok then Some (Pend (p_root p) w (bev_hash E (p_txns p))) else e_pend e)).

(** The batch written to the database ([RocksDB::commit]), chunks untouched. *)
Definition write (d : db) (w : wip) : db :=
  Db (commit (d_rows d) (w_rows w)) (log_of (w_evs w) ∪ d_log d) (w_bev w ∪ d_bev d) (w_trie w) (d_chunks d).

(** [put_shard_chunk], a write of its own. *)
Definition put_chunk (d : db) (c : chunk) : db :=
  Db (d_rows d) (d_log d) (d_bev d) (d_trie d) (<[c_height c := c]> (d_chunks d)).

(** The BLOCK_CONFIRMED event; its content (block number, hash, time, counts) is reduced to [confirmed]. *)
Definition confirmed : bytes := [0].

(** 2421-2481 [commit_and_emit_events] up to the write of the batch: [None] is the panic of [unwrap] when BLOCK_CONFIRMED
    gets no id. The result is what is written, with the generator and with the events sent. *)
Definition confirm (g : idgen) (w : wip) : option wip :=
  match generate_id true g with
  | (Ok id, _) => Some (Wip (w_rows w) (w_bev w) (w_trie w) g (w_last w) ((id, confirmed) :: w_evs w) (w_app w))
  | _ => None
  end.

(** 2619-2659 [is_cached_txn_valid]. *)
Definition cache_hit (E : env) (p : pend) (c : chunk) : bool :=
  beq (pd_root p) (c_root c) && beq (bev_hash E (c_txns c)) (pd_bev p).

(** 2694-2729: without a usable cached transaction. [None] is the panic. *)
Definition commit_replay (E : env) (o : order) (e : eng) (c : chunk) : option wip :=
  let '(w, ok) := replay E o (e_db e) (c_time c) (wip0 (e_db e) (e_mem e) (set_current_height (c_height c))) (c_txns c) (c_root c) in
  if ok then confirm (w_gen w) w else None.

(** 2661-2731 [commit_shard_chunk] up to the write of the batch. *)
Definition commit_first (E : env) (o : order) (e : eng) (c : chunk) : option wip :=
  match e_pend e with
  | Some p => if cache_hit E p c then confirm (e_gen e) (pd_w p) else commit_replay E o e c
  | None => commit_replay E o e c
  end.

(** The whole commit: the batch is written, events are sent, the trie is reloaded, the chunk is written. The cached
    transaction stays. The result: the engine and what was written; [None] for the panic. *)
Definition commit_chunk (E : env) (o : order) (e : eng) (c : chunk) : option (eng * wip) :=
  match commit_first E o e c with
  | Some w => let d := write (e_db e) w in Some (Eng (put_chunk d c) (d_trie d) (w_gen w) (e_pend e), w)
  | None => None
  end.

(** What the consensus engine asks of a data shard between two commits (malachite/host.rs:74-180). *)
Inductive req := RRound (h : N) | RPropose (o : order) (time : N) (l : list txn) | RValidate (o : order) (h : N) (p : proposal).

Definition serve (E : env) (e : eng) (r : req) : eng :=
  match r with
  | RRound h => start_round e h
  | RPropose o time l => (propose E o e time l).2
  | RValidate o h p => (validate E o e h p).2
  end.

(** Whether every validation among the requests succeeds. *)
Fixpoint all_valid (E : env) (e : eng) (rs : list req) : bool :=
  match rs with
  | [] => true
  | r :: rs' => match r with RValidate o h p => (validate E o e h p).1 | _ => true end && all_valid E (serve E e r) rs'
  end.

(** A height: requests, then the decided chunk; malachite then starts the next height with a round of its own
    (host.rs:74-90), which drops the cached transaction. [None] after a panic. *)
Definition height_step (E : env) (e : eng) (rs : list req) (o : order) (c : chunk) : option (eng * list (N * bytes)) :=
  match commit_chunk E o (fold_left (serve E) rs e) c with
  | Some (e', w) => Some (start_round e' (c_height c + 1), w_app w)
  | None => None
  end.

(** A chain of heights, with all block events applied. *)
Fixpoint run_chain (E : env) (e : eng) (app : list (N * bytes)) (l : list (list req * order * chunk)) : option (eng * list (N * bytes)) :=
  match l with
  | [] => Some (e, app)
  | (rs, o, c) :: r => match height_step E e rs o c with Some (e', app') => run_chain E e' (app ++ app') r | None => None end
  end.

(** The empty database of a new node. *)
Definition db0 : db := Db ∅ ∅ ∅ ∅ ∅.
