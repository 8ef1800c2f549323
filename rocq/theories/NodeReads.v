(** What a node tells about its chain and itself: src/network/server.rs:1636-1875
    ([get_blocks], [get_shard_chunks], [get_info], [get_fids]).

    Blocks and chunks are read from the stores of [Paging] (block.rs, shard.rs). Approximate sizes, the version string and the
    peer id are not modelled. *)
From Verif Require Import OnChain.
From Verif Require Export Base Codec Kv Paging.
#[local] Open Scope N_scope.

(** ** get_blocks (server.rs:1636-1683): pages of 100, each block sent to the client in turn

    [alive] sends succeed, then the client is gone. What was sent ([None]: an error), and how many pages were read; the
    outcome [None] when [fuel] pages were not enough. *)
Definition STREAM_PAGE : N := 100.
Definition send_some {A} (alive : nat) (l : list A) : list (option A) * nat := (map Some (firstn alive l), (alive - length l)%nat).
Fixpoint stream {A} (page : option bytes -> res unit (list A * option bytes)) (fuel : nat) (tok : option bytes) (alive : nat)
    : option (list (option A) * nat) :=
  match fuel with
  | O => None
  | S n =>
      match page tok with
      | Ok (l, nt) =>
          let '(sent, alive) := send_some alive l in
          match nt with
          | None => Some (sent, 1%nat)
          | Some t => match stream page n (Some t) alive with Some (s, k) => Some (sent ++ s, S k) | None => None end
          end
      | _ => Some (match alive with O => [] | S _ => [None] end, 1%nat)
      end
  end.
Definition get_blocks (db : kv bval) (start : N) (stop : option N) (fuel alive : nat) :=
  stream (fun t => blocks_in_range 1 db (POpts (Some STREAM_PAGE) t false) start stop) fuel None alive.

(** ** get_shard_chunks (server.rs:1685-1715, shard.rs:264-291): all pages joined; [None] a shard the node does not have *)
Definition CHUNK_PAGE : N := 100.
Definition join {A} (r : option (res unit (list (list A)))) : option (res unit (list A)) :=
  match r with Some (Ok ps) => Some (Ok (concat ps)) | Some (Err e) => Some (Err e) | Some Panic => Some Panic | None => None end.
Definition get_chunks (shards : gmap N (kv bval)) (id start : N) (stop : option N) (fuel : nat) : option (option (res unit (list (N * N * N)))) :=
  match shards !! id with
  | None => Some None
  | Some db => Some <$> join (follow (fun t => blocks_in_range 2 db (POpts (Some CHUNK_PAGE) t false) start stop) fuel None)
  end.

(** ** get_info (server.rs:1717-1846) *)

(** A shard: the number of messages in its trie, its on-chain events, its newest chunk (height and time, 0 when there is none). *)
Record ishard := IShard { is_msgs : N; is_chain : ost; is_height : N; is_time : N }.
Record sinfo := SInfo { si_id : N; si_height : N; si_msgs : N; si_fids : N; si_delay : N; si_mempool : N }.
Record ninfo := NInfo { ni_shards : list sinfo; ni_fids : N; ni_msgs : N }.
(** Unsigned subtraction in Rust: [checked] builds stop, others wrap. *)
Definition usub (checked : bool) (a b : N) : option N := if b <=? a then Some (a - b) else if checked then None else Some (a + 2 ^ 64 - b).
(** [zero]: messages, height and time of shard 0. [mem]: the reply of the mempool, empty when none came. [None]: panic. *)
Definition info_of_shard (now : N) (mem : gmap N N) (x : N * ishard) : sinfo :=
  let '(id, s) := x in
  SInfo id (is_height s) (is_msgs s) (N.of_nat (size (t_id (is_chain s)))) (now - is_time s) (default (2 ^ 32 - 1) (mem !! id)).
Definition get_info (checked : bool) (now : N) (zero : N * N * N) (shards : list (N * ishard)) (mem : gmap N N) : option ninfo :=
  let '(msgs, height, time) := zero in
  match usub checked now time with
  | None => None
  | Some d =>
      let l := map (info_of_shard now mem) shards in
      Some (NInfo (SInfo 0 height msgs 0 d 0 :: l)
        (foldr (fun x acc => si_fids x + acc) 0 l) (foldr (fun x acc => si_msgs x + acc) 0 l))
  end.

(** ** get_fids (server.rs:1848-1874, onchain_event_store.rs:1188-1214)

    [dec]: what the bytes of a row decode to. The page is cut before the registrations are picked out; an error is an empty last page. *)
Definition ID_PREFIX : bytes := [12; 1; 3].
Definition registered (e : oev) : option N := match o_body e with BIdReg IRegister _ => Some (o_fid e) | _ => None end.
Definition get_fids {V} (dec : V -> option oev) (db : kv V) (po : popts) : res unit (list N * option bytes) :=
  match list_limited (fun _ v => dec v) (fun _ => true) db ID_PREFIX (increment_vec_u8 ID_PREFIX) po with
  | Ok (l, t) => Ok (omap registered l, t)
  | Err _ => Ok ([], None)
  | Panic => Panic
  end.
