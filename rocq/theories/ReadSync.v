(** Read-node synchronisation: the actor that follows the peers' heights, asks them for decided
    values and announces the end of the initial sync
    (src/consensus/malachite/read_sync.rs, src/consensus/malachite/read_host.rs) and the loop of the
    node's main function that collects the announcements (src/main.rs:613-664).

    The sync state machine of the consensus library (`sync::State`, `process!`) is outside the
    repository.  Of its state only what read_sync.rs itself reads or writes is kept: the statuses of
    the known peers and the sync height.  What the library decides to do with an input — the new sync
    height and the requests it wants sent — is an oracle supplied with every message, so theorems
    quantify over all of its behaviours.  The one thing assumed of it is that a known peer's status
    is changed by a status input only, and that `random_peer_with_value h` finds a peer whenever some
    known status has history_min_height <= h <= height (the crate's documented meaning).

    Simplifications: peers, request ids and heights are numbers; the shard part of a height is
    dropped; a failed `cast` to another actor (the actor is gone) is not modelled; timers are the set
    of active request timers (a timer message for a cancelled timer is ignored,
    read_sync.rs:397-401). *)
From stdpp Require Import gmap.
From Coq Require Import NArith List.
#[local] Open Scope N_scope.

(** A peer's status as the library stores it (read_sync.rs:295-299). *)
Record pstat := PStat { ps_height : N; ps_min : N }.

(** read_sync.rs:94-110 `State`: the library's peers and sync height, the active timers, the
    in-flight requests (peer and height asked), the completed flag, the connected peers. *)
Record rstate := RState {
  rs_peers : gmap N pstat;
  rs_height : N;
  rs_timers : gset N;
  rs_inflight : gmap N (N * N);
  rs_done : bool;
  rs_conn : gset N }.

(** read_sync.rs:449-457: the state a new actor starts from. *)
Definition rs_init : rstate := RState ∅ 0 ∅ ∅ false ∅.

(** The value carried by an answer (read_sync.rs:343-356): the shard named by the certificate, the
    height, and whether the bytes decode as a block (shard 0) resp. a shard chunk. *)
Record rvalue := RValue { rv_shard : N; rv_height : N; rv_block_ok : bool; rv_chunk_ok : bool }.

(** A request the library wants sent: peer, height, and the network's answer to
    NetworkMsg::OutgoingRequest — the new request id, or none on failure (read_sync.rs:222-247). *)
Record send := Send { sd_peer : N; sd_height : N; sd_id : option N }.

(** The library's reaction to an input: the new sync height and the requests to send. *)
Record orc := Orc { o_height : N; o_sends : list send }.

(** read_sync.rs:37-64 `Msg` and the network events the handler distinguishes. *)
Inductive rmsg :=
| MTick
| MDisconnected (p : N)
| MConnected (p : N)
| MStatus (p h m : N)
| MRequest
| MValueResponse (id p : N) (v : option rvalue)
| MVoteSetResponse (id p : N)
| MOther
| MDecided (h : N)
| MGotDecided
| MTimeout (id : N).

(** What the actor tells others: a decided value for the host, the end of the initial sync for the
    host, an expired request for the library. *)
Inductive rout :=
| OProcess (shard h : N)
| OInitialSyncCompleted
| OTimedOut (p h : N).

(** A handler either finishes, or panics and the actor is gone. *)
Inductive rres := Alive (s : rstate) (o : list rout) | Dead.

(** read_sync.rs:222-247: a request that the network accepted starts its timer and is recorded. *)
Definition do_send (s : rstate) (x : send) : rstate :=
  match sd_id x with
  | Some id => RState (rs_peers s) (rs_height s) ({[id]} ∪ rs_timers s)
                 (<[id := (sd_peer x, sd_height x)]> (rs_inflight s)) (rs_done s) (rs_conn s)
  | None => s
  end.

(** read_sync.rs:167-182 `process_input` with the library's reaction given. *)
Definition process (s : rstate) (o : orc) : rstate :=
  fold_left do_send (o_sends o)
    (RState (rs_peers s) (o_height o) (rs_timers s) (rs_inflight s) (rs_done s) (rs_conn s)).

(** `random_peer_with_value`: some known peer's range contains the height. *)
Definition has_value (h : N) (q : pstat) : bool := (ps_min q <=? h) && (h <=? ps_height q).
Definition peer_with_value (s : rstate) (h : N) : bool :=
  existsb (fun q => has_value h (snd q)) (map_to_list (rs_peers s)).

(** read_sync.rs:112-130 `initial_sync_first_completed`. *)
Definition first_completed (s : rstate) : bool * rstate :=
  if rs_done s then (false, s)
  else if bool_decide (rs_peers s = ∅) then (false, s)
  else
    let d := negb (peer_with_value s (rs_height s + 10)) in
    (d, RState (rs_peers s) (rs_height s) (rs_timers s) (rs_inflight s) d (rs_conn s)).

(** read_sync.rs:273-425 `handle_msg`. *)
Definition rstep (s : rstate) (m : rmsg) (o : orc) : rres :=
  match m with
  | MTick | MRequest | MDecided _ | MGotDecided => Alive (process s o) []
  | MDisconnected p =>
      Alive (RState (delete p (rs_peers s)) (rs_height s) (rs_timers s) (rs_inflight s) (rs_done s)
               (rs_conn s ∖ {[p]})) []
  | MConnected p =>
      Alive (RState (rs_peers s) (rs_height s) (rs_timers s) (rs_inflight s) (rs_done s)
               ({[p]} ∪ rs_conn s)) []
  | MStatus p h mn =>
      if bool_decide (p ∈ rs_conn s) then
        Alive (process (RState (<[p := PStat h mn]> (rs_peers s)) (rs_height s) (rs_timers s)
                          (rs_inflight s) (rs_done s) (rs_conn s)) o) []
      else Alive s []
  | MValueResponse id p v =>
      (* the timer is cancelled; the in-flight entry stays *)
      let s1 := RState (rs_peers s) (rs_height s) (rs_timers s ∖ {[id]}) (rs_inflight s) (rs_done s)
                  (rs_conn s) in
      match v with
      | None => Dead                                     (* unwrap of an absent value *)
      | Some x =>
          if (if rv_shard x =? 0 then rv_block_ok x else rv_chunk_ok x) then
            let '(d, s2) := first_completed (process s1 o) in
            Alive s2 (OProcess (rv_shard x) (rv_height x)
                        :: if d then [OInitialSyncCompleted] else [])
          else Dead                                      (* unwrap of a decoding error *)
      end
  | MVoteSetResponse id p =>
      Alive (RState (rs_peers s) (rs_height s) (rs_timers s ∖ {[id]}) (rs_inflight s) (rs_done s)
               (rs_conn s)) []
  | MOther => Alive s []
  | MTimeout id =>
      if bool_decide (id ∈ rs_timers s) then
        let s1 := RState (rs_peers s) (rs_height s) (rs_timers s ∖ {[id]}) (rs_inflight s)
                    (rs_done s) (rs_conn s) in
        match rs_inflight s !! id with
        | Some (p, h) =>
            Alive (process (RState (rs_peers s1) (rs_height s1) (rs_timers s1)
                              (delete id (rs_inflight s1)) (rs_done s1) (rs_conn s1)) o)
                  [OTimedOut p h]
        | None => Alive s1 []
        end
      else Alive s []
  end.

(** The actor's whole run over a list of messages; a dead actor handles nothing more. *)
Fixpoint rrun (s : rstate) (l : list (rmsg * orc)) : rres :=
  match l with
  | [] => Alive s []
  | (m, o) :: l' =>
      match rstep s m o with
      | Dead => Dead
      | Alive s1 o1 => match rrun s1 l' with Alive s2 o2 => Alive s2 (o1 ++ o2) | Dead => Dead end
      end
  end.

(** The other side: a node asked for a height answers with what its store holds, and with an empty
    answer when the height is not there — pruned, or not yet written (read_validator.rs:196-228,
    read_host.rs:86-89, host.rs:324-343). *)
Definition serve (store : gmap N rvalue) (h : N) : option rvalue := store !! h.

(** The lowest height a node advertises: a read node its first stored block, or 1
    (engine.rs:2880-2886, block_engine.rs:2320-2327); a validator always 1
    (proposer.rs:306-309 and 707-710). *)
Inductive role := Reader | Validator.
Definition lowest (store : gmap N rvalue) : option N :=
  fold_right (fun h a => Some (match a with Some b => N.min h b | None => h end)) None
    (map fst (map_to_list store)).
Definition min_height (r : role) (store : gmap N rvalue) : N :=
  match r with
  | Validator => 1
  | Reader => match lowest store with Some h => h | None => 1 end
  end.

(** main.rs:613-644: the shards that finished; when their number equals num_shards + 1 the node
    subscribes to the topic of decided values.  The result lists, per announcement, whether it
    subscribed. *)
Fixpoint collect (n : N) (seen : gset N) (l : list N) : list bool :=
  match l with
  | [] => []
  | i :: l' =>
      let seen' := {[i]} ∪ seen in
      (N.of_nat (size seen') =? n + 1) :: collect n seen' l'
  end.
