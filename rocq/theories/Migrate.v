(** Background migrations: store/migrations/mod.rs (the runner), m2_verification_by_address_index.rs, and the
    FIDIterator of account/onchain_event_store.rs:1375-1480.

    A migration runs while the engine commits blocks.  Its reads and writes are single steps here, interleaved with the
    batches of the engine: an iterator of RocksDB reads one snapshot, a commit and a [transaction_with] are atomic by
    C68.  A restart of the process loses everything but the database.

    Simplifications: log lines, metrics and counters are left out; errors of the database itself are not modelled (a
    failing read or commit ends the run like [MFail]). *)
From Verif Require Export Codec Paging TxnSpec.
#[local] Open Scope N_scope.

(** constants.rs: RootPrefix::{OnChainEvent, DBSchemaVersion, VerificationByAddress}, OnChainEventPostfix::OnChainEvents,
    UserPostfix::VerificationAdds; onchain_event.proto EVENT_TYPE_ID_REGISTER. *)
Definition RP_OnChain : N := 12.
Definition RP_Schema : N := 13.
Definition RP_VerByAddress : N := 14.
Definition UP_VerAdds : N := 93.
Definition FID_BYTES : N := 4.
Definition TS_LEN : N := 24.

(** onchain_event_store.rs:93-99 [make_onchain_event_type_prefix] of an id register event. *)
Definition reg_prefix : bytes := [RP_OnChain; 1; 3].
(** verification_store.rs:225-240: the by-address key and the key of the primary entry. *)
Definition by_key (a : bytes) (fid : N) : bytes := RP_VerByAddress :: a ++ make_fid_key fid.
Definition adds_prefix (fid : N) : bytes := make_user_key fid ++ [UP_VerAdds].
Definition adds_key (fid : N) (a : bytes) : bytes := adds_prefix fid ++ a.
Definition blen (b : bytes) : N := N.of_nat (length b).

Section Fids.
  (** Decoding a stored event: [None] is an error, [Some None] an event that is no id registration, otherwise the fid it
      registers ([Body::IdRegisterEventBody] with [Register]). *)
  Variable ev : bytes -> option (option N).

  (** onchain_event_store.rs:1412, [PAGE_SIZE_MAX] of the iterator. *)
  Definition FID_PAGE : N := 100.

  (** onchain_event_store.rs:1424-1452: the queue and [last_fid]. *)
  Definition fetch_cb (s : list N * N) (_ : bytes) (v : bytes) : res unit (list N * N * bool) :=
    match ev v with
    | None => Err tt
    | Some None => Ok (s, false)
    | Some (Some f) =>
        let s := if bool_decide (last s.1 = Some f) then s else (s.1 ++ [f], f) in
        Ok (s, FID_PAGE <=? N.of_nat (length s.1))
    end.
  (** onchain_event_store.rs:1405-1459 [fetch]; called with an empty queue only.  [last + 1] is a u64 and cut to 32 bits
      by the key. *)
  Definition fetch (db : kv bytes) (lst : N) : res unit (list N * N) :=
    match for_each_paged db (reg_prefix ++ make_fid_key (lst + 1)) (increment_vec_u8 reg_prefix) (POpts (Some FID_PAGE) None false) fetch_cb ([], 0) with
    | Ok (s, _) => Ok s
    | Err e => Err e
    | Panic => Panic
    end.

  Inductive next_result := NFid (f : N) (q : list N) | NEnd | NError.
  (** onchain_event_store.rs:1462-1490 [next]: the fid and the queue left. *)
  Definition next (db : kv bytes) (lst : N) (q : list N) : next_result :=
    match q with
    | f :: q => NFid f q
    | [] =>
        match fetch db lst with
        | Ok (q, m) => if 0 <? m then match q with f :: q => NFid f q | [] => NEnd end else NEnd
        | _ => NError
        end
    end.

  (** The iteration over a database that does not change, cut after [fuel] fids. *)
  Fixpoint fids (fuel : nat) (db : kv bytes) (lst : N) (q : list N) : option (list N) :=
    match next db lst q with
    | NEnd => Some []
    | NError => None
    | NFid f q =>
        match fuel with
        | O => None
        | S n => match fids n db f q with Some l => Some (f :: l) | None => None end
        end
    end.

  (** m2:97-146: the transaction for one address; its result is only counted. *)
  Definition m2_prog (fid : N) (a : bytes) : prog :=
    PGet (adds_key fid a) (fun v =>
      match v with
      | None => PRet true
      | Some t => if blen t =? TS_LEN then PWrite (by_key a fid) (Some t) (PRet true) else PRet true
      end).

  (** m2:64-86: the addresses of the primary entries. *)
  Definition addr_cb (fid : N) (l : list bytes) (k _ : bytes) : res unit (list bytes * bool) :=
    match drop (length (adds_prefix fid)) k with
    | [] => Ok (l, false)
    | a => Ok (l ++ [a], false)
    end.
  Definition addresses (db : kv bytes) (fid : N) : res unit (list bytes) :=
    match for_each db (adds_prefix fid) (increment_vec_u8 (adds_prefix fid)) (POpts None None false) (addr_cb fid) [] with
    | Ok (l, _) => Ok l
    | Err e => Err e
    | Panic => Panic
    end.

  (** m2:186-201: up to [chunk] keys with values of four bytes. *)
  Variable chunk : N.
  Definition sweep_cb (l : list bytes) (k v : bytes) : res unit (list bytes * bool) :=
    if blen v =? FID_BYTES then
      let l := l ++ [k] in Ok (l, chunk <=? N.of_nat (length l))
    else Ok (l, false).
  Definition sweep (db : kv bytes) (from : bytes) : res unit (list bytes) :=
    match for_each db from (increment_vec_u8 [RP_VerByAddress]) (POpts None None false) sweep_cb [] with
    | Ok (l, _) => Ok l
    | Err e => Err e
    | Panic => Panic
    end.
  Definition deletes (l : list bytes) : batch bytes := fold_left (fun t k => tdel t k) l ∅.

  (** Where the run is: before [next], before the scan of a fid, before the transaction of the first address left, before
      a pass of the sweep, before the deletion of a pass. *)
  Inductive phase :=
  | MIter (lst : N) (q : list N)
  | MFid (f : N) (q : list N)
  | MAddrs (f : N) (q : list N) (l : list bytes)
  | MSweep (from : bytes)
  | MDel (l : list bytes)
  | MDone
  | MFail.
  Definition m2_start : phase := MIter 0 [].

  (** m2:46-234 [run], one step. *)
  Definition m2_step (db : kv bytes) (p : phase) : kv bytes * phase :=
    match p with
    | MIter lst q =>
        match next db lst q with
        | NFid f q => (db, MFid f q)
        | NEnd => (db, MSweep [RP_VerByAddress])
        | NError => (db, MFail)
        end
    | MFid f q => match addresses db f with Ok l => (db, MAddrs f q l) | _ => (db, MFail) end
    | MAddrs f q [] => (db, MIter f q)
    | MAddrs f q (a :: l) => (serial db (m2_prog f a), MAddrs f q l)
    | MSweep from =>
        match sweep db from with
        | Ok [] => (db, MDone)
        | Ok l => (db, MDel l)
        | _ => (db, MFail)
        end
    | MDel l =>
        (commit db (deletes l),
         if chunk <=? N.of_nat (length l) then match last l with Some k => MSweep (k ++ [0]) | None => MDone end else MDone)
    | MDone => (db, MDone)
    | MFail => (db, MFail)
    end.

  (** ** The runner (mod.rs:124-278) with the migrations m1 and m2.
      What m1 writes is left open: [GM1] is any batch.  [RIdle]: no runner active, before the start or after the end of
      the process's run; [R1], [R2]: inside the migration. *)
  Inductive runner := RIdle | R1 | R2 (p : phase).
  Definition LATEST_SCHEMA : N := 2.
  (** stores.rs:384-398. *)
  Definition schema_key : bytes := [RP_Schema].
  Definition schema_version (db : kv bytes) : N :=
    match db !! schema_key with Some b => if Nat.eqb (length b) 4 then be_dec b else 0 | None => 0 end.
  Definition set_schema (db : kv bytes) (v : N) : kv bytes := <[schema_key := be 4 v]> db.
  (** mod.rs:95-121: the flag of the migration that is running. *)
  Definition flag_key (v : N) : bytes := [RP_Schema; v mod 256].
  Definition set_flag (db : kv bytes) (v : N) (b : bool) : kv bytes := <[flag_key v := [if b then 1 else 0]]> db.

  (** [GStart]: the process starts; [GCrash]: it dies; [GLive]: a batch of the engine; [GM1]: a batch of m1; [GM1End]: m1
      returns; [GM2]: a step of m2.  The task spawned by the runner sets the version after each migration and the flag
      at the end; the flag is the one of the version found at the start, [v]. *)
  Inductive glabel := GStart | GCrash | GLive (t : batch bytes) | GM1 (t : batch bytes) | GM1End (ok : bool) | GM2.
  Record gstate := GState { g_db : kv bytes; g_from : N; g_run : runner }.

  Definition g_start (s : gstate) : gstate :=
    let v := schema_version (g_db s) in
    if LATEST_SCHEMA <=? v then GState (g_db s) v RIdle
    else GState (set_flag (g_db s) v true) v (if v =? 0 then R1 else R2 m2_start).
  Definition g_step (s : gstate) (l : glabel) : option gstate :=
    match l, g_run s with
    | GCrash, _ => Some (GState (g_db s) (g_from s) RIdle)
    | GStart, RIdle => Some (g_start s)
    | GLive t, r => Some (GState (commit (g_db s) t) (g_from s) r)
    | GM1 t, R1 => Some (GState (commit (g_db s) t) (g_from s) R1)
    | GM1End true, R1 => Some (GState (set_schema (g_db s) 1) (g_from s) (R2 m2_start))
    | GM1End false, R1 => Some (GState (set_flag (g_db s) (g_from s) false) (g_from s) RIdle)
    | GM2, R2 MDone => Some (GState (set_flag (set_schema (g_db s) 2) (g_from s) false) (g_from s) RIdle)
    | GM2, R2 MFail => Some (GState (set_flag (g_db s) (g_from s) false) (g_from s) RIdle)
    | GM2, R2 p => let '(db, p) := m2_step (g_db s) p in Some (GState db (g_from s) (R2 p))
    | _, _ => None
    end.
  Fixpoint g_run_all (s : gstate) (ls : list glabel) : option gstate :=
    match ls with
    | [] => Some s
    | l :: ls => match g_step s l with Some s => g_run_all s ls | None => None end
    end.
End Fids.

(** ** Reading the index *)

(** verification_store.rs:346-425 [get_verifications_by_address]: the rows below the prefix with the batch laid over
    them, in key order ([BTreeMap]); other shapes of keys and values are skipped. *)
Definition overlay (db : kv bytes) (t : batch bytes) (prefix : bytes) : kv bytes :=
  map_fold (fun k v m => if is_prefix prefix k then match v with Some v => <[k := v]> m | None => delete k m end else m)
    (list_to_map (scan db prefix (increment_vec_u8 prefix) (POpts None None false))) t.
Definition by_entry (n : nat) (r : bytes * bytes) : option (N * bytes) :=
  if Nat.eqb (length r.1) (n + 4) && (blen r.2 =? TS_LEN) then Some (read_fid_key r.1 n, r.2) else None.
Definition verifications_by_address (db : kv bytes) (t : batch bytes) (a : bytes) : list (N * bytes) :=
  match a with
  | [] => []
  | _ => let prefix := RP_VerByAddress :: a in omap (by_entry (length prefix)) (rows (overlay db t prefix))
  end.

(** verification_store.rs:428-440 [select_verification_address_winner]: the maximum of (ts_hash, reversed fid). *)
Definition better (x y : N * bytes) : bool := blt y.2 x.2 || (bool_decide (x.2 = y.2) && (x.1 <=? y.1)).
Fixpoint winner_from (w : N * bytes) (l : list (N * bytes)) : N * bytes :=
  match l with
  | [] => w
  | c :: l => winner_from (if better w c then w else c) l
  end.
Definition select_winner (l : list (N * bytes)) : option N :=
  match l with [] => None | c :: l => Some (winner_from c l).1 end.

(** block_engine.rs:416-451 [resolve_channel_owner_fid].  [get_verification_add] reads the primary entry and the message
    it points to; here the time and hash of the message are the ts_hash of the primary entry (C17: no index entry dangles), and the message is
    there. *)
Definition resolve_owner (db : kv bytes) (t : batch bytes) (a : bytes) : option N :=
  select_winner (omap (fun c => match tget db t (adds_key c.1 a) with Some h => Some (c.1, h) | None => None end)
    (verifications_by_address db t a)).
