(** Range scans, page listings, bulk deletion and the block store:
    src/storage/db/rocksdb.rs, src/storage/store/{block,shard}.rs and the listing functions that use them. *)
From stdpp Require Export sorting.
From Verif Require Import Base Codec Kv.

(** ** Range scans (rocksdb.rs) *)

(** rocksdb.rs:95-100 [PageOptions]. *)
Record popts := POpts { po_size : option N; po_token : option bytes; po_reverse : bool }.

(** storage/constants.rs:1. *)
Definition PAGE_SIZE_MAX : N := 1000.

Definition key_le {V} (a b : bytes * V) : Prop := ble a.1 b.1 = true.
#[export] Instance key_le_dec {V} (a b : bytes * V) : Decision (key_le a b).
Proof. unfold key_le. apply _. Defined.

Section Scan.
  Context {V : Type}.

  (** RocksDB keeps its keys in lexicographic order. *)
  Definition rows (db : kv V) : list (bytes * V) := merge_sort key_le (map_to_list db).

  (** rocksdb.rs:439-486 [get_iterator_options]: the bounds given to the iterator.  Callers always pass both
      prefixes except [clear] and tests. *)
  Definition bounds (start stop : bytes) (po : popts) : bytes * bytes :=
    (if po_reverse po then start else match po_token po with Some t => t ++ [0] | None => start end,
     if po_reverse po then match po_token po with Some t => t | None => stop end else stop).

  (** The rows an iterator with these bounds visits: lower bound inclusive, upper bound exclusive, from the last
      row backwards when reversed (rocksdb.rs:523-531, 553-557). *)
  Definition scan (db : kv V) (start stop : bytes) (po : popts) : list (bytes * V) :=
    let b := bounds start stop po in
    let l := filter (fun r => ble b.1 r.1 && blt r.1 b.2 = true) (rows db) in
    if po_reverse po then reverse l else l.

  (** rocksdb.rs:506-603 [iterate_with_opts]: the callback returns [true] to stop, the page limit stops too; the
      result says whether the callback did not ask to stop.  [Err] is an error from the callback. *)
  Fixpoint iterate {A : Type} (f : A -> bytes -> V -> res unit (A * bool)) (limit : option N) (count : N)
      (l : list (bytes * V)) (a : A) : res unit (A * bool) :=
    match l with
    | [] => Ok (a, true)
    | (k, v) :: r =>
        match f a k v with
        | Err e => Err e
        | Panic => Panic
        | Ok (a', true) => Ok (a', false)
        | Ok (a', false) =>
            match limit with
            | Some n => if n <=? count + 1 then Ok (a', true) else iterate f limit (count + 1) r a'
            | None => iterate f limit count r a'
            end
        end
    end.

  (** rocksdb.rs:492-504. *)
  Definition for_each_paged {A : Type} (db : kv V) (start stop : bytes) (po : popts) (f : A -> bytes -> V -> res unit (A * bool)) (a : A) :=
    iterate f (po_size po) 0 (scan db start stop po) a.
  (** rocksdb.rs:607-631: the same without a limit. *)
  Definition for_each {A : Type} (db : kv V) (start stop : bytes) (po : popts) (f : A -> bytes -> V -> res unit (A * bool)) (a : A) :=
    for_each_paged db start stop (POpts None (po_token po) (po_reverse po)) f a.

  (** ** Listings
      [mk] turns a row into an entry ([None]: the row does not decode, an error); [keep] is the caller's filter. *)
  Context {A : Type} (mk : bytes -> V -> option A) (keep : A -> bool).

  Definition psize (po : popts) : N := default PAGE_SIZE_MAX (po_size po).

  (** The callback shared by the listings: push the entry, stop and note the key when the page is full. *)
  Definition page_cb (size : N) (s : list A * bytes) (k : bytes) (v : V) : res unit (list A * bytes * bool) :=
    match mk k v with
    | None => Err tt
    | Some a =>
        if keep a then
          let l := s.1 ++ [a] in
          if size <=? N.of_nat (length l) then Ok (l, k, true) else Ok (l, s.2, false)
        else Ok (s, false)
    end.
  Definition page_of (r : res unit (list A * bytes * bool)) : res unit (list A * option bytes) :=
    match r with
    | Ok (l, k, _) => Ok (l, match k with [] => None | _ => Some k end)
    | Err e => Err e
    | Panic => Panic
    end.

  (** message.rs:273-318 [get_messages_page_by_prefix], cast_store.rs:448-538, link_store.rs:145-191,
      reaction_store.rs:734-783, onchain_event_store.rs:836-883 (over a start and stop key). *)
  Definition list_filtered (db : kv V) (start stop : bytes) (po : popts) : res unit (list A * option bytes) :=
    page_of (for_each db start stop po (page_cb (psize po)) ([], [])).
  (** block.rs:61-109, shard.rs:62-114, event.rs:170-209, block_event_store.rs:43-92, key_add_store.rs:355-407,
      onchain_event_store.rs:647-683, 801-834: the same through the limited iterator; these have no filter. *)
  Definition list_limited (db : kv V) (start stop : bytes) (po : popts) : res unit (list A * option bytes) :=
    page_of (for_each_paged db start stop po (page_cb (psize po)) ([], [])).

  (** channel_store.rs:1024-1083, 1085-1126, 1233-1284, reaction_store.rs:550-586: refuses a token outside the
      prefix (message.rs:221-231), remembers the last key of every entry and returns it unless the scan ended. *)
  Definition chan_cb (size : N) (s : list A * option bytes) (k : bytes) (v : V) : res unit (list A * option bytes * bool) :=
    match mk k v with
    | None => Err tt
    | Some a =>
        if keep a then
          let l := s.1 ++ [a] in Ok (l, Some k, size <=? N.of_nat (length l))
        else Ok (s, false)
    end.
  Definition token_in_prefix (prefix : bytes) (po : popts) : bool :=
    match po_token po with Some t => is_prefix prefix t | None => true end.
  Definition list_channel (db : kv V) (prefix : bytes) (po : popts) : res unit (list A * option bytes) :=
    if negb (token_in_prefix prefix po) then Err tt
    else match for_each db prefix (increment_vec_u8 prefix) po (chan_cb (psize po)) ([], None) with
         | Ok (l, k, all_done) => Ok (l, if all_done : bool then None else k)
         | Err e => Err e
         | Panic => Panic
         end.

  (** A client that follows the tokens: shard.rs:264-291, onchain_event_store.rs:1121-1155,
      storage_lend_store.rs:225-261 and any RPC client.  [None] when [fuel] pages were not enough. *)
  Fixpoint follow (page : option bytes -> res unit (list A * option bytes)) (fuel : nat) (tok : option bytes)
      : option (res unit (list (list A))) :=
    match fuel with
    | O => None
    | S n =>
        match page tok with
        | Err e => Some (Err e)
        | Panic => Some Panic
        | Ok (l, None) => Some (Ok [l])
        | Ok (l, Some t) =>
            match follow page n (Some t) with
            | Some (Ok ls) => Some (Ok (l :: ls))
            | x => x
            end
        end
    end.

  (** ** Counting, index lookup and bulk deletion *)

  (** rocksdb.rs:679-709 [count_keys_at_prefix] ([u32] counter). *)
  Definition count_keys_at_prefix (db : kv V) (prefix : bytes) : N :=
    N.of_nat (length (scan db prefix (increment_vec_u8 prefix) (POpts None None false))) mod 2 ^ 32.

  (** rocksdb.rs:713-741 [get_next_by_index]; [idx] reads an index row as the primary key it holds.
      [Ok None]: no index row; [Err]: the row it points to is missing. *)
  Definition get_next_by_index (idx : V -> bytes) (db : kv V) (index_prefix start : bytes) : res unit (option V) :=
    match for_each db start (increment_vec_u8 index_prefix) (POpts (Some 1) None false)
            (fun (_ : option bytes) _ v => Ok (Some (idx v), true)) None with
    | Ok (Some pk, _) => match db !! pk with Some v => Ok (Some v) | None => Err tt end
    | Ok (None, _) => Ok None
    | Err e => Err e
    | Panic => Panic
    end.

  (** rocksdb.rs:749-770 [delete_page]: the new contents and the number of keys in the batch. *)
  Definition delete_page (db : kv V) (start stop : bytes) (po : popts) : kv V * N :=
    match for_each_paged db start stop po (fun (t : batch V) k _ => Ok (tdel t k, false)) ∅ with
    | Ok (t, _) => (commit db t, N.of_nat (size t))
    | _ => (db, 0)
    end.
  (** rocksdb.rs:779-809 [delete_paginated], the loop cut off after [fuel] pages.  The total is a [u32]; no overflow
      is modelled (it needs more than 2^32 rows). *)
  Fixpoint delete_paginated (fuel : nat) (db : kv V) (start stop : bytes) (po : popts) (total : N) : option (kv V * N) :=
    match fuel with
    | O => None
    | S n =>
        let '(db', c) := delete_page db start stop po in
        if c =? 0 then Some (db', total) else delete_paginated n db' start stop po (total + c)
    end.
End Scan.

(** ** Listing across owner addresses (onchain_event_store.rs:712-759)
    [prefix a] is the key prefix of address [a]; entries are returned with their address. *)
Section Owners.
  Context {V A : Type} (mk : bytes -> bytes -> V -> option A) (prefix : bytes -> bytes).
  (** onchain_event_store.rs:647-683. *)
  Definition list_owner (db : kv V) (a : bytes) (po : popts) :=
    list_limited (fun k v => mk a k v) (fun _ => true) db (prefix a) (increment_vec_u8 (prefix a)) po.
  (** One address of the loop (onchain_event_store.rs:720-751): [None] skips it. *)
  Definition owner_token (page_token : option bytes) (a : bytes) : option (option bytes) :=
    match page_token with
    | Some t =>
        if is_prefix (prefix a) t then Some (Some t)
        else if blt t (prefix a) then Some None
        else None
    | None => Some None
    end.
  Fixpoint owners_loop (db : kv V) (page_token : option bytes) (size : N) (l : list bytes)
      (s : list (bytes * A) * option bytes) : res unit (list (bytes * A) * option bytes) :=
    match l with
    | [] => Ok s
    | a :: r =>
        if size <=? N.of_nat (length s.1) then Ok s
        else match owner_token page_token a with
             | None => owners_loop db page_token size r s
             | Some t =>
                 match list_owner db a (POpts (Some (size - N.of_nat (length s.1))) t false) with
                 | Ok (ks, nt) =>
                     owners_loop db page_token size r
                       (s.1 ++ map (pair a) ks, match nt with Some k => Some k | None => s.2 end)
                 | Err e => Err e
                 | Panic => Panic
                 end
             end
    end.
  Definition list_owners (db : kv V) (owners : list bytes) (size : N) (page_token : option bytes)
      : res unit (list (bytes * A) * option bytes) :=
    match owners_loop db page_token size owners ([], None) with
    | Ok (l, k) => Ok (l, if size <=? N.of_nat (length l) then k else None)
    | Err e => Err e
    | Panic => Panic
    end.
End Owners.

(** ** The block and shard-chunk stores (block.rs, shard.rs) *)

(** A stored value: a block (its number, timestamp and an identifier of the rest) or an index row. *)
Inductive bval := VBlock (number ts body : N) | VIdx (key : bytes).
Definition block_of (v : bval) : option (N * N * N) := match v with VBlock n t b => Some (n, t, b) | VIdx _ => None end.
Definition idx_of (v : bval) : bytes := match v with VIdx k => k | VBlock _ _ _ => [] end.

(** [root] is RootPrefix::Block = 1 (block.rs:42-49) or RootPrefix::Shard = 2 (shard.rs:46-54). *)
Definition block_key (root n : N) : bytes := root :: be 8 n.
Definition RP_BlockIndex : N := 18.
(** block.rs:52-57, shard.rs:56-61 [make_block_timestamp_index]. *)
Definition ts_key (shard ts : N) : bytes := RP_BlockIndex :: be 4 shard ++ be 8 ts.

(** block.rs:162-184, shard.rs:155-176: the index row is written only if there is none for this timestamp. *)
Definition put_block (root shard : N) (db : kv bval) (n ts body : N) : kv bval :=
  let t := tput ∅ (block_key root n) (VBlock n ts body) in
  let t := match db !! ts_key shard ts with None => tput t (ts_key shard ts) (VIdx (block_key root n)) | Some _ => t end in
  commit db t.

Definition block_mk (_ : bytes) (v : bval) : option (N * N * N) := block_of v.
(** block.rs:61-109 with the defaults for an absent start or stop. *)
Definition block_page (root : N) (db : kv bval) (po : popts) (start : bytes) (stop : option bytes) :=
  list_limited block_mk (fun _ => true) db start (default [root + 1] stop) po.
(** block.rs:150-160, shard.rs:178-188. *)
Definition blocks_in_range (root : N) (db : kv bval) (po : popts) (start : N) (stop : option N) :=
  block_page root db po (block_key root start) (block_key root <$> stop).
(** block.rs:116-141, shard.rs:121-143; [Err]: too many results. *)
Definition first_or_last (root : N) (rev : bool) (db : kv bval) : res unit (option (N * N * N)) :=
  match block_page root db (POpts (Some 1) None rev) (block_key root 0) None with
  | Ok (l, _) => if 1 <? N.of_nat (length l) then Err tt else Ok (head l)
  | Err e => Err e
  | Panic => Panic
  end.
(** block.rs:227-240: an error when the store is empty. *)
Definition min_block_number (root : N) (db : kv bval) : res unit N :=
  match first_or_last root false db with Ok (Some (n, _, _)) => Ok n | _ => Err tt end.
(** block.rs:242-252: zero when the store is empty. *)
Definition max_block_number (root : N) (db : kv bval) : res unit N :=
  match first_or_last root true db with Ok (Some (n, _, _)) => Ok n | Ok None => Ok 0 | _ => Err tt end.
(** block.rs:279-303, shard.rs:295-319. *)
Definition next_height_by_ts (shard : N) (db : kv bval) (ts : N) : res unit (option N) :=
  match get_next_by_index idx_of db [RP_BlockIndex] (ts_key shard ts) with
  | Ok (Some v) => match block_of v with Some (n, _, _) => Ok (Some n) | None => Err tt end
  | Ok None => Ok None
  | _ => Err tt
  end.
(** block.rs:308-331, shard.rs:324-350. *)
Definition prune_until (root : N) (fuel : nat) (db : kv bval) (stop : N) (po : popts) : option (kv bval * N) :=
  delete_paginated fuel db (block_key root 0) (block_key root stop) po 0.
(** jobs/block_pruning.rs:44-77 and stores.rs:765-820: prune below the first block at or after the cutoff; an error
    in the lookup counts as nothing to prune. *)
Definition prune_job (root shard : N) (fuel : nat) (db : kv bval) (cutoff : N) : option (kv bval * N) :=
  match next_height_by_ts shard db cutoff with
  | Ok (Some h) => prune_until root fuel db h (POpts (Some PAGE_SIZE_MAX) None false)
  | _ => Some (db, 0)
  end.

(** Event pruning: event.rs:227-252 [prune_events_util] over the event rows (keys [make_event_key id]). *)
Definition prune_events {V} (fuel : nat) (db : kv V) (stop_height : N) (po : popts) : option (kv V * N) :=
  delete_paginated fuel db (make_event_key 0) (make_event_key (make_event_id stop_height 0)) po 0.
(** event.rs:170-209 [get_events]. *)
Definition get_events {V A} (mk : bytes -> V -> option A) (db : kv V) (start_id : N) (stop_id : option N) (po : popts) :=
  list_limited mk (fun _ => true) db (make_event_key start_id)
    match stop_id with Some i => make_event_key i | None => increment_vec_u8 (make_event_key (2 ^ 64 - 1)) end po.
