(** Event ids, database keys, sync-trie keys and page tokens. *)
From Verif Require Import Base.

(** ** Hub event ids (src/storage/store/account/event.rs) *)

Definition HEIGHT_BITS : N := 50. (* event.rs:12 *)
Definition SEQUENCE_BITS : N := 14. (* event.rs:13 *)

(** event.rs:74-78 [make_event_id]: [u64] shift (bits above 64 are lost) and mask. *)
Definition make_event_id (height seq : N) : N :=
  N.lor (N.shiftl height SEQUENCE_BITS mod 2 ^ 64) (N.land seq (2 ^ SEQUENCE_BITS - 1)).

(** event.rs:84-88 [extract_height_and_seq]. *)
Definition extract_height_and_seq (id : N) : N * N :=
  (N.shiftr id SEQUENCE_BITS, N.land id (2 ^ SEQUENCE_BITS - 1)).

(** event.rs:20-23 [HubEventIdGenerator]. *)
Record idgen := { ig_height : N; ig_seq : N }.

(** event.rs:33-36 [set_current_height]. *)
Definition set_current_height (h : N) : idgen := {| ig_height := h; ig_seq := 0 |}.

Inductive ig_err := HeightTooLarge | SeqTooLarge.

(** event.rs:38-72 [generate_id]; the event is represented by whether it is a BLOCK_CONFIRMED event. *)
Definition generate_id (confirmed : bool) (g : idgen) : res ig_err N * idgen :=
  if 2 ^ HEIGHT_BITS <=? ig_height g then (Err HeightTooLarge, g)
  else if 2 ^ SEQUENCE_BITS <=? ig_seq g then (Err SeqTooLarge, g)
  else if confirmed then (Ok (make_event_id (ig_height g) 0), g)
  else
    let s := if ig_seq g =? 0 then 1 else ig_seq g in
    (Ok (make_event_id (ig_height g) s), {| ig_height := ig_height g; ig_seq := s + 1 |}).

(** The results of generating ids for a list of events in one block (the engine calls
    [set_current_height] once per block, engine.rs:407,2366; block_engine.rs:604-607). *)
Fixpoint generate_ids (g : idgen) (evs : list bool) : list (bool * res ig_err N) :=
  match evs with
  | [] => []
  | c :: r => let '(x, g') := generate_id c g in (c, x) :: generate_ids g' r
  end.

(** RootPrefix (src/storage/constants.rs:4-73), the ones used below. *)
Definition RP_User : N := 3.
Definition RP_HubEvents : N := 9.

(** event.rs:148-155 [make_event_key]. *)
Definition make_event_key (id : N) : bytes := RP_HubEvents :: be 8 id.

(** ** Message keys (src/storage/store/account/message.rs) *)

(** message.rs:128-131 [make_fid_key]: downcast to u32 ([be 4] wraps). *)
Definition make_fid_key (fid : N) : bytes := be 4 fid.
(** message.rs:134-139 [read_fid_key] on an exact slice. *)
Definition read_fid_key (key : bytes) (offset : nat) : N := be_dec (take 4 (drop offset key)).
(** message.rs:149-156 [make_user_key]. *)
Definition make_user_key (fid : N) : bytes := RP_User :: make_fid_key fid.
(** message.rs:96-113 [make_ts_hash]; [None] for the error case. *)
Definition make_ts_hash (ts : N) (hash : bytes) : option bytes :=
  if Nat.eqb (length hash) 20 then Some (be 4 ts ++ hash) else None.
(** message.rs:159-172 [make_message_primary_key]. *)
Definition make_message_primary_key (fid set : N) (ts_hash : option bytes) : bytes :=
  make_user_key fid ++ [set] ++ match ts_hash with Some t => t | None => [] end.
(** message.rs:116-125 [unpack_ts_hash]. *)
Definition unpack_ts_hash (t : bytes) : N * bytes := (be_dec (take 4 t), drop 4 t).

(** src/storage/util.rs:33-57 [increment_vec_u8], by recursion on the little-endian digits. *)
Fixpoint incr_le (b : bytes) : bytes * bool :=
  match b with
  | [] => ([], true)
  | x :: r => if x =? 255 then let '(r', c) := incr_le r in (0 :: r', c) else (x + 1 :: r, false)
  end.
Definition increment_vec_u8 (b : bytes) : bytes :=
  let '(r, c) := incr_le (reverse b) in
  if c then 1 :: reverse r else reverse r.

(** A prefix scan reads the keys [k] with [start <= k < increment start]
    (rocksdb.rs get_iterator_options; callers pass [increment_vec_u8 prefix] as stop). *)
Definition in_prefix_scan (p k : bytes) : bool := ble p k && blt k (increment_vec_u8 p).

(** ** Trie keys (src/storage/trie/merkle_trie.rs) *)

(** util.rs(trie):5-12 [expand_nibbles]. *)
Fixpoint expand_nibbles (b : bytes) : bytes :=
  match b with [] => [] | x :: r => N.shiftr x 4 :: N.land x 15 :: expand_nibbles r end.

(** util.rs(trie):15-22 [combine_nibbles]: asserts an even length ([None] = panic); [chunk[0] << 4] is a
    [u8] shift. *)
Fixpoint combine_nibbles (b : bytes) : option bytes :=
  match b with
  | [] => Some []
  | [_] => None
  | x :: y :: r =>
      match combine_nibbles r with
      | Some c => Some (N.lor (N.shiftl x 4 mod 256) (N.land y 15) :: c)
      | None => None
      end
  end.

Section TrieKeys.
  (** First four bytes, read big-endian, of SHA-256 of a byte string (mempool/routing.rs:17-18). *)
  Variable sha4 : bytes -> N.

  (** mempool/routing.rs:13-20 [ShardRouter::route_fid]. *)
  Definition route_fid (fid num_shards : N) : N := sha4 (be 4 fid) mod num_shards + 1.

  (** merkle_trie.rs:100-105 [fid_shard] ([as u8] of a value below 256). *)
  Definition fid_shard (fid : N) : N := (route_fid fid 256 - 1) mod 256.
  (** merkle_trie.rs:90-95 [for_fid]. *)
  Definition for_fid (fid : N) : bytes := fid_shard fid :: make_fid_key fid.
  (** merkle_trie.rs:53-61 [for_message_type]: [u8] left shift. *)
  Definition for_message_type (fid ty : N) : bytes := for_fid fid ++ [N.shiftl ty 3 mod 256].
  (** merkle_trie.rs:64-71 [for_onchain_event]: log_index is a u32. *)
  Definition for_onchain_event (fid ty : N) (txhash : bytes) (log_index : N) : bytes :=
    for_fid fid ++ [ty mod 256] ++ txhash ++ be 4 log_index.
  (** merkle_trie.rs:74-87 [for_fname]. *)
  Definition for_fname (fid : N) (name : bytes) : bytes :=
    for_fid fid ++ [7] ++ name ++ repeat 0 (20 - length name).
  (** merkle_trie.rs:32-50 [for_message]: key of the author, plus a second key for the borrower of a LendStorage. *)
  Definition for_message (fid ty : N) (hash : bytes) (lend_to : option N) : list bytes :=
    (for_message_type fid ty ++ hash)
      :: match lend_to with Some t => [for_message_type t ty ++ hash] | None => [] end.

  (** What a trie key stands for. *)
  Inductive trie_item :=
  | TMessage (fid ty : N) (hash : bytes)
  | TOnchain (fid ty : N) (txhash : bytes) (log_index : N)
  | TFname (fid : N) (name : bytes).

  Definition trie_item_key (i : trie_item) : bytes :=
    match i with
    | TMessage fid ty hash => for_message_type fid ty ++ hash
    | TOnchain fid ty tx li => for_onchain_event fid ty tx li
    | TFname fid name => for_fname fid name
    end.
End TrieKeys.

(** merkle_trie.rs:20-26 [DecodedTrieKey]. *)
Record decoded_key := {
  dk_vshard : N; dk_fid : N; dk_onchain : option N; dk_message : option N; dk_rest : bytes }.

(** merkle_trie.rs:108-135 [TrieKey::decode]; the length check is 12 {e bytes}. *)
Definition trie_decode (key : bytes) : option decoded_key :=
  if Nat.ltb (length key) 12 then None
  else
    let t := nth 5 key 0 in
    Some {| dk_vshard := nth 0 key 0;
            dk_fid := read_fid_key key 1;
            dk_onchain := if t <? 8 then Some t else None;
            dk_message := if t <? 8 then None else Some (N.shiftr t 3);
            dk_rest := drop 6 key |}.

(** ** Trie page tokens (src/storage/trie/util.rs:29-91)
    The base64 layer (a bijection on byte strings from an external crate) is left out: the token is the byte
    buffer; the empty string is [None]. *)

Definition encode_segment (s : bytes) : bytes := be 4 (N.of_nat (length s)) ++ s.
Definition encode_page_token (t : option (list bytes)) : option bytes :=
  match t with
  | None => None
  | Some [] => None
  | Some segs => Some (be 4 (N.of_nat (length segs)) ++ concat (map encode_segment segs))
  end.

Inductive tok_err := TooShort | EofLength | EofSegment | ExtraBytes.

(** util.rs(trie):66-82: the loop over [count] segments; [fuel] is the count. *)
Fixpoint decode_segments (count : nat) (b : bytes) : res tok_err (list bytes * bytes) :=
  match count with
  | O => Ok ([], b)
  | S c =>
      if Nat.ltb (length b) 4 then Err EofLength
      else
        let len := N.to_nat (be_dec (take 4 b)) in
        let b' := drop 4 b in
        if Nat.ltb (length b') len then Err EofSegment
        else match decode_segments c (drop len b') with
             | Ok (ss, rest) => Ok (take len b' :: ss, rest)
             | Err e => Err e
             | Panic => Panic
             end
  end.

Definition decode_page_token (tok : option bytes) : res tok_err (option (list bytes)) :=
  match tok with
  | None => Ok None
  | Some b =>
      if Nat.ltb (length b) 4 then Err TooShort
      else
        match decode_segments (N.to_nat (be_dec (take 4 b))) (drop 4 b) with
        | Ok (ss, []) => Ok (match ss with [] => None | _ => Some ss end)
        | Ok (_, _ :: _) => Err ExtraBytes
        | Err e => Err e
        | Panic => Panic
        end
  end.
