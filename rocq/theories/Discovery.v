(** Finding peers to copy a shard from, and asking them: src/bootstrap/replication/peer_discovery.rs:91-162,
    src/bootstrap/replication/rpc_client.rs:84-205, 214-372, src/network/replication/replication_server.rs:32-160,
    src/utils/block_event_fix.rs:7-50.

    Peers' answers are inputs. A spawned task is a row of [d_tasks]; its two critical sections are separate steps, so tasks
    interleave arbitrarily. [PeerId::from_bytes] is done by the caller ([c_pid]). Times are seconds. Connection statistics, request
    time limits, reconnection to bootstrap peers are left out. *)
From stdpp Require Export strings gmap.
From Verif Require Export Base Auth.
#[local] Open Scope N_scope.

(** ** The address of a contact *)
Definition SLASH : N := 47.
Definition IP4 : bytes := [105; 112; 52].
Definition HTTP : bytes := [104; 116; 116; 112; 58; 47; 47]. (* http:// *)
Definition PORT : bytes := [58; 51; 51; 56; 51]. (* :3383, cfg.rs:20 *)
(** peer_discovery.rs:91-100. *)
Definition http_of_gossip (g : bytes) : option bytes :=
  match Auth.split SLASH g with
  | _ :: p1 :: p2 :: _ => if bool_decide (p1 = IP4) then Some (HTTP ++ p2 ++ PORT) else None
  | _ => None
  end.
Record contact := Contact { c_pid : option bytes; c_rpc : bytes; c_gossip : bytes }.
(** peer_discovery.rs:111-133. *)
Definition addr_of (c : contact) : option bytes :=
  match c_rpc c with
  | _ :: _ => Some (c_rpc c)
  | [] => match c_gossip c with [] => None | g => http_of_gossip g end
  end.

(** ** Discovery *)
Definition COOLDOWN : N := 1800.
Inductive stage := Spawned | Asked | Done.
Record disc := Disc { d_addrs : list bytes; d_cool : gmap bytes N; d_tasks : list (bytes * bytes * stage) }.
Definition disc0 (first : bytes) : disc := Disc [first] ∅ [].
(** peer_discovery.rs:102-144 up to the spawn. *)
Definition see (now : N) (c : contact) (d : disc) : disc :=
  match c_pid c, addr_of c with
  | Some p, Some a =>
      let cooling := match d_cool d !! p with Some t => now - t <? COOLDOWN | None => false end in
      if cooling then d else Disc (d_addrs d) (d_cool d) (d_tasks d ++ [(p, a, Spawned)])
  | _, _ => d
  end.
(** rpc_client.rs:172-186: the first critical section of the [i]th task. *)
Definition check (i : nat) (d : disc) : disc :=
  match d_tasks d !! i with
  | Some (p, a, Spawned) =>
      Disc (d_addrs d) (d_cool d) (<[i := (p, a, if bool_decide (a ∈ d_addrs d) then Done else Asked)]> (d_tasks d))
  | _ => d
  end.
(** rpc_client.rs:188-204 and peer_discovery.rs:147-159: the peer's snapshots' heights, [None] if it cannot be asked. *)
Definition answer (height : N) (i : nat) (now : N) (ans : option (list N)) (d : disc) : disc :=
  match d_tasks d !! i with
  | Some (p, a, Asked) =>
      let tasks := <[i := (p, a, Done)]> (d_tasks d) in
      match ans with
      | Some hs => Disc (if bool_decide (height ∈ hs) then d_addrs d ++ [a] else d_addrs d) (d_cool d) tasks
      | None => Disc (d_addrs d) (<[p := now]> (d_cool d)) tasks
      end
  | _ => d
  end.
Inductive dev := ESee (now : N) (c : contact) | ECheck (i : nat) | EAnswer (i : nat) (now : N) (ans : option (list N)).
Definition dstep (height : N) (d : disc) (e : dev) : disc :=
  match e with ESee t c => see t c d | ECheck i => check i d | EAnswer i t a => answer height i t a d end.
Definition drun (height : N) (first : bytes) (evs : list dev) : disc := foldl (dstep height) (disc0 first) evs.

(** ** The manager: which peer is asked for a part of the trie *)
(** rpc_client.rs:138-163 [new]: [max_by_key] keeps the last of the highest. *)
Definition highest {M} (l : list (N * M)) : option (N * M) :=
  foldl (fun acc s => match acc with Some b => if fst b <=? fst s then Some s else acc | None => Some s end) None l.
Record mgr := Mgr { m_addrs : list bytes; m_conn : gset bytes; m_aff : gmap N bytes }.
Definition mgr0 (first : bytes) : mgr := Mgr [first] ∅ ∅.
Inductive picked := PPanic | PErr | PPeer (a : bytes).
(** rpc_client.rs:84-126. [ok a]: the connection to [a] succeeds. The lock is given up while connecting; here nothing else happens
    meanwhile. *)
Definition pick (ok : bytes -> bool) (m : mgr) (v : N) : picked * mgr :=
  let fresh :=
    match m_addrs m !! N.to_nat (v mod N.of_nat (length (m_addrs m))) with
    | None => (PPanic, m)
    | Some a =>
        if bool_decide (a ∈ m_conn m) then (PPeer a, Mgr (m_addrs m) (m_conn m) (<[v := a]> (m_aff m)))
        else if ok a then (PPeer a, Mgr (m_addrs m) ({[a]} ∪ m_conn m) (<[v := a]> (m_aff m))) else (PErr, m)
    end in
  match m_aff m !! v with
  | Some a => if bool_decide (a ∈ m_conn m) then (PPeer a, m) else fresh
  | None => fresh
  end.
(** rpc_client.rs:192-196, 214-220. *)
Definition madd (a : bytes) (m : mgr) : mgr := Mgr (m_addrs m ++ [a]) (m_conn m) (m_aff m).
Definition mclose (m : mgr) : mgr := Mgr [] ∅ ∅.

(** ** Pages, fetched ahead *)
Record page := Page { pg_items : bytes; pg_next : option bytes }.
Section Pages.
  (** What comes back for the [k]th call, asked for the page [tok] of the part [v]. *)
  Variable srv : nat -> N -> option bytes -> option page.
  (** rpc_client.rs:223-261: up to [n] attempts; [None]: without attempts [last_error.unwrap()] panics. *)
  Fixpoint attempts (n : nat) (k : nat) (v : N) (tok : option bytes) : option page * nat :=
    match n with
    | O => (None, k)
    | S n => match srv k v tok with Some p => (Some p, S k) | None => attempts n (S k) v tok end
    end.
  Record cache := Cache { ca_rows : gmap (N * bytes) (option page); ca_calls : nat }.
  Definition cache0 : cache := Cache ∅ O.
  Inductive got := GPanic | GErr | GPage (p : page).
  Definition norm (tok : option bytes) : option bytes := match tok with Some [] => None | _ => tok end.
  (** rpc_client.rs:264-314: the page after, asked for right away; its outcome (an error as well, and a panic of the task, which
      drops the sender) waits in the cache. *)
  Definition ahead (n : nat) (v : N) (next : option bytes) (c : cache) : cache :=
    match norm next with
    | None => c
    | Some t => let '(r, k) := attempts n (ca_calls c) v (Some t) in Cache (<[(v, t) := r]> (ca_rows c)) k
    end.
  (** rpc_client.rs:330-372. *)
  Definition get (n : nat) (v : N) (tok : option bytes) (c : cache) : got * cache :=
    let hit := match norm tok with Some t => ca_rows c !! (v, t) | None => None end in
    match hit with
    | Some r =>
        let c' := Cache (match norm tok with Some t => delete (v, t) (ca_rows c) | None => ca_rows c end) (ca_calls c) in
        match r with Some p => (GPage p, ahead n v (pg_next p) c') | None => (GErr, c') end
    | None =>
        match n with
        | O => (GPanic, c)
        | _ => let '(r, k) := attempts n (ca_calls c) v tok in
               let c' := Cache (ca_rows c) k in
               match r with Some p => (GPage p, ahead n v (pg_next p) c') | None => (GErr, c') end
        end
    end.
  Fixpoint gets (n : nat) (reqs : list (N * option bytes)) (c : cache) : list got * cache :=
    match reqs with
    | [] => ([], c)
    | (v, tok) :: r => let '(g, c1) := get n v tok c in let '(gs, c2) := gets n r c1 in (g :: gs, c2)
    end.
End Pages.

(** ** The heartbeat put in at start-up *)
(** A stored block event: [None] for one without data, else whether it is a heartbeat, its number and the rest. *)
Record bdata := BData { b_heart : bool; b_seq : N; b_rest : bytes }.
Notation bstore := (gmap N (option bdata)) (only parsing).
Definition last_key (m : bstore) : option N := map_fold (fun k _ a => match a with Some b => Some (N.max k b) | None => Some k end) None m.
Inductive fixed := FPanic | FErr | FStore (m : bstore).
(** block_event_store.rs:162-171. *)
Definition max_seq (m : bstore) : option N :=
  match last_key m with None => Some 0 | Some k => match m !! k with Some (Some d) => Some (b_seq d) | _ => None end end.
(** block_event_fix.rs:7-50. *)
Definition reconcile (src tgt : bstore) (target : N) : fixed :=
  match src !! target with
  | None => FStore tgt
  | Some None => FPanic
  | Some (Some d) =>
      if b_heart d then
        match max_seq tgt with
        | None => FErr
        | Some mx => if mx + 1 =? b_seq d then FStore (<[b_seq d := Some d]> tgt) else FStore tgt
        end
      else FStore tgt
  end.

(** ** What a serving node says of its snapshots *)
Inductive network := Mainnet | Testnet | Devnet.
(** replication_server.rs:32-38. *)
Definition shard0_height (n : network) : N := match n with Mainnet => 13396000 | Testnet => 13302000 | Devnet => 0 end.
(** A block: its header's (number, timestamp), the number missing or the whole header missing. *)
Record blk := Blk { bk_header : option (option N * N); bk_body : bytes }.
Record snap := Snap { sn_shard : N; sn_height : N; sn_time : N; sn_items : N; sn_block : option blk; sn_chunk : option bytes }.
Section Server.
  Variable net : network.
  (** the block store by height ([None]: the read failed), the snapshots of a shard as (height, timestamp, items) ([None]: failed),
      and the chunks by shard and height. *)
  Variable block_at : N -> option (option blk).
  Variable snaps_of : N -> option (list (N * N * N)).
  Variable chunk_at : N -> N -> option (option bytes).
  Definition header_height (b : option blk) : N := match b with Some (Blk (Some (Some h, _)) _) => h | _ => 0 end.
  Definition header_time (b : option blk) : N := match b with Some (Blk (Some (_, t)) _) => t | _ => 0 end.
  Fixpoint with_chunks (shard : N) (l : list (N * N * N)) : option (list snap) :=
    match l with
    | [] => Some []
    | (h, t, n) :: r =>
        match chunk_at shard h with
        | None => None
        | Some c => match with_chunks shard r with None => None | Some rest => Some (Snap shard h t n None c :: rest) end
        end
    end.
  (** replication_server.rs:43-119. *)
  Definition serve_metadata (shard : N) : option (list snap) :=
    if shard =? 0 then
      match block_at (shard0_height net) with
      | None => None
      | Some b => Some [Snap shard (header_height b) (header_time b) 0 b None]
      end
    else match snaps_of shard with None => None | Some l => with_chunks shard l end.
  (** replication_server.rs:121-158: [None] for [invalid_argument], else what the replicator is asked. *)
  Definition serve_part (part : N) : option N := if 255 <? part then None else Some part.
  (** rpc_client.rs:128-163 against this server: the height a copy of the shard will have. *)
  Definition client_height (shard : N) : option N :=
    match serve_metadata shard with
    | None => None
    | Some l => option_map fst (highest (map (fun s => (sn_height s, s)) l))
    end.
End Server.
