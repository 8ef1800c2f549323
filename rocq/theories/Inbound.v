(** What a node does with gossip from the network: decoding an inbound gossip message into a message for the node and
    handing it to the actors (src/network/gossip.rs:1095-1255, src/main.rs:624-664 and 900-930,
    src/node/snapchain_read_node.rs:175-224, src/node/snapchain_node.rs:268-292), the connection book-keeping
    (gossip.rs:800-895) and the sweep that disconnects half-subscribed direct peers (gossip.rs:676-765).

    Simplifications.  Peer ids, addresses, versions and message payloads are numbers.  What is inside a proposal, vote or
    status is its payload; only the fields the routing reads are separate.  Failing channel sends are not modelled (the
    receiver is gone).  Metrics, log lines and the one-shot re-subscription are left out.  Instants are numbers. *)
From stdpp Require Import gmap.
From Coq Require Import NArith List.
#[local] Open Scope N_scope.

(** ** Messages *)

(** ContactInfoBody: [cb_peer] is [None] if the bytes are not a peer id. *)
Record cbody := CBody { cb_peer : option N; cb_addr : N; cb_network : N; cb_version : N }.
(** A decided value, down to the shard of the height in its header. *)
Inductive dval := DNoValue | DNoHeader | DNoHeight | DShard (shard payload : N).
(** A user message: [um_bytes] is the data_bytes field ([None]: absent or empty; [Some d]: present, [d] what it decodes
    to), [um_data] the data field as sent. *)
Record umsg := UMsg { um_bytes : option (option N); um_data : option N }.
(** proto GossipMessage.  A shard of [None] means that the height (or, for a consensus message, the vote or proposal) is
    missing. *)
Inductive gmsg :=
| GUndecodable | GEmpty
| GContact (b : option cbody)
| GRead (v : option dval)
| GProposal (shard : option N) (payload : N)
| GConsensus (shard : option N) (payload : N)
| GStatus (shard : option N) (payload : N)
| GMempool (m : option umsg).

Inductive channel := ChProposal | ChConsensus | ChSync.
(** SystemMessage: a network event for the actors of one shard, with the peer that delivered it; a mempool message; a
    decided value. *)
Inductive sys :=
| SNetwork (shard : N) (c : channel) (from payload : N)
| SMempool (m : umsg)
| SDecided (v : dval).

(** ** The gossip task *)

(** The node's own facts: read node or validator, network, protocol version, autodiscovery, currently connected peers. *)
Record genv := GEnv { g_read : bool; g_network : N; g_version : N; g_auto : bool; g_connected : gset N }.
(** [Ok]: the contact table, the addresses dialled, the message passed on.  [Down]: the task panicked. *)
Inductive gres := GOk (peers : gmap N cbody) (dialled : list N) (out : option sys) | GDown.

(** gossip.rs:1095-1149 handle_contact_info. *)
Definition contact (e : genv) (peers : gmap N cbody) (b : option cbody) : gres :=
  match b with
  | None => GOk peers [] None
  | Some b =>
      match cb_peer b with
      | None => GDown                                       (* PeerId::from_bytes(..).unwrap() *)
      | Some p =>
          let peers' := <[p := b]> peers in
          if negb (g_read e) then GOk peers' [] None
          else if bool_decide (p ∈ g_connected e) then GOk peers' [] None
          else if negb (cb_network b =? g_network e) then GOk peers' [] None
          else if negb (cb_version b =? g_version e) then GOk peers' [] None
          else if g_auto e then GOk peers' [cb_addr b] None
          else GOk peers' [] None
      end
  end.

(** account/message.rs:334-342 message_bytes_decode. *)
Definition bytes_decode (m : umsg) : umsg :=
  match um_bytes m with Some d => UMsg (um_bytes m) d | None => m end.

(** gossip.rs:1151-1255 map_gossip_bytes_to_system_message, for a message delivered by the peer [from]. *)
Definition inbound (e : genv) (peers : gmap N cbody) (from : N) (g : gmsg) : gres :=
  match g with
  | GUndecodable | GEmpty => GOk peers [] None
  | GContact b => contact e peers b
  | GRead None => GOk peers [] None
  | GRead (Some v) => GOk peers [] (Some (SDecided v))
  | GProposal None _ => GDown                               (* full_proposal.height() unwraps before shard_id() is asked *)
  | GProposal (Some i) x => GOk peers [] (Some (SNetwork i ChProposal from x))
  | GConsensus None _ => GOk peers [] None
  | GConsensus (Some i) x => GOk peers [] (Some (SNetwork i ChConsensus from x))
  | GStatus None _ => GOk peers [] None
  | GStatus (Some i) x => GOk peers [] (Some (SNetwork i ChSync from x))
  | GMempool None => GOk peers [] None
  | GMempool (Some m) => GOk peers [] (Some (SMempool (bytes_decode m)))
  end.

(** ** The main loop *)

(** What an actor or the mempool gets.  [MDown]: the main function panicked, that is, the process ends. *)
Inductive delivery :=
| ToActor (shard : N) (c : channel) (from payload : N)
| ToHost (shard : N) (v : dval)
| ToMempool (m : umsg).
Inductive mres := MOk (l : list delivery) | MDown.

(** main.rs:646-655 with snapchain_read_node.rs:180-224 (read node), main.rs:900-917 with snapchain_node.rs:268-292
    (validator); [actors] are the shards whose actors run. *)
Definition main_step (read : bool) (actors : gset N) (m : sys) : mres :=
  match m with
  | SNetwork i c f x => MOk (if bool_decide (i ∈ actors) then [ToActor i c f x] else [])
  | SMempool u => MOk (if read then [] else [ToMempool u])
  | SDecided v =>
      if read then
        match v with
        | DShard i x => if bool_decide (i ∈ actors) then MOk [ToHost i v] else MDown
        | _ => MDown
        end
      else MOk []
  end.

(** A whole run over inbound messages: both tasks up, or one of them down. *)
Record nst := NSt { n_peers : gmap N cbody; n_dialled : list N; n_got : list delivery }.
Definition node_step (e : genv) (actors : gset N) (s : nst) (x : N * gmsg) : option nst :=
  match inbound e (n_peers s) x.1 x.2 with
  | GDown => None
  | GOk p d None => Some (NSt p (n_dialled s ++ d) (n_got s))
  | GOk p d (Some m) =>
      match main_step (g_read e) actors m with
      | MOk l => Some (NSt p (n_dialled s ++ d) (n_got s ++ l))
      | MDown => None
      end
  end.
Fixpoint node_run (e : genv) (actors : gset N) (s : nst) (l : list (N * gmsg)) : option nst :=
  match l with
  | [] => Some s
  | x :: r => match node_step e actors s x with Some s' => node_run e actors s' r | None => None end
  end.

(** ** Connections *)

(** Number of live connections per peer, and the set of connected peers the read node's sync actor keeps
    (gossip.rs:817-822 and 883-888; read_sync.rs:285-299). *)
Inductive cev := Established (p : N) | Closed (p : N).
Record cst := CSt { c_conns : gmap N nat; c_known : gset N }.
Definition conns (s : cst) (p : N) : nat := default 0%nat (c_conns s !! p).
Definition conn_step (s : cst) (e : cev) : cst :=
  match e with
  | Established p => CSt (<[p := S (conns s p)]> (c_conns s)) ({[p]} ∪ c_known s)
  | Closed p => CSt (<[p := pred (conns s p)]> (c_conns s)) (c_known s ∖ {[p]})
  end.
Definition conn_run (l : list cev) : cst := fold_left conn_step l (CSt ∅ ∅).

(** ** The sweep *)

(** [sw_since]: first-connect times of direct peers (peer_connected_at), [sw_last]: last forced disconnects
    (last_force_bounce_at). *)
Record sweep := Sweep { sw_since : gmap N N; sw_last : gmap N N }.
Definition SETTLE : N := 30.
Definition COOLDOWN : N := 60.
(** gossip.rs:800-812 and 871-873: [still] is swarm.is_connected after the close. *)
Definition sw_connect (direct : gset N) (s : sweep) (now p : N) : sweep :=
  if bool_decide (p ∈ direct) then
    Sweep (match sw_since s !! p with Some _ => sw_since s | None => <[p := now]> (sw_since s) end) (sw_last s)
  else s.
Definition sw_close (direct : gset N) (s : sweep) (p : N) (still : bool) : sweep :=
  if bool_decide (p ∈ direct) && negb still then Sweep (delete p (sw_since s)) (sw_last s) else s.
(** gossip.rs:713-731: entries of peers gossipsub no longer lists go, connected direct peers without one get one.
    [topics] is gossipsub's view: per connected peer, whether it is subscribed to the contact-info topic. *)
Definition reconcile (direct : gset N) (topics : gmap N bool) (now : N) (since : gmap N N) : gmap N N :=
  base.filter (fun e : N * N => is_Some (topics !! e.1)) since ∪
  gset_to_gmap now (dom topics ∩ direct).
(** gossip.rs:733-751: the peers to disconnect. *)
Definition bouncable (direct : gset N) (topics : gmap N bool) (now : N) (since last : gmap N N) : list N :=
  List.filter (fun p =>
    match topics !! p with
    | None => false
    | Some true => false
    | Some false =>
        match since !! p with
        | Some t => if now - t <? SETTLE then false
                    else match last !! p with Some b => negb (now - b <=? COOLDOWN) | None => true end
        | None => match last !! p with Some b => negb (now - b <=? COOLDOWN) | None => true end
        end
    end) (elements direct).
(** gossip.rs:713-765: one tick; the result lists the disconnected peers. *)
Definition sw_tick (direct : gset N) (topics : gmap N bool) (s : sweep) (now : N) : sweep * list N :=
  let since := reconcile direct topics now (sw_since s) in
  let b := bouncable direct topics now since (sw_last s) in
  (Sweep since (fold_left (fun m p => <[p := now]> m) b (sw_last s)), b).

(** The events of the sweep with their times. *)
Inductive swev := SwConnect (p : N) | SwClose (p : N) (still : bool) | SwTick (topics : gmap N bool).
Definition sw_step (direct : gset N) (s : sweep) (now : N) (e : swev) : sweep * list N :=
  match e with
  | SwConnect p => (sw_connect direct s now p, [])
  | SwClose p st => (sw_close direct s p st, [])
  | SwTick topics => sw_tick direct topics s now
  end.
(** All forced disconnects of a run: (time, peer). *)
Fixpoint sw_run (direct : gset N) (s : sweep) (l : list (N * swev)) : list (N * N) :=
  match l with
  | [] => []
  | (now, e) :: r =>
      let '(s', b) := sw_step direct s now e in map (fun p => (now, p)) b ++ sw_run direct s' r
  end.
