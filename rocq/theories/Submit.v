(** Submitting messages to a node: src/network/server.rs:100-125, 756-1040, 1118-1343, 1345-1372, 1459-1634;
    src/core/error.rs:11-90; src/storage/store/engine.rs:2733-2856; src/network/gossip.rs (messages of other nodes).

    A message is its decoded data (message.rs:334-342); its text fields are byte lists. Errors are their codes. What the node asks
    outside (the engine's trial run, the name registry, the chains, the mempool's channel) is part of the environment; successive
    trial runs of one request may answer differently. The engine's rules themselves are the subject of other files. *)
From Verif Require Export Base Mempool Names.
From stdpp Require Export strings.
#[local] Open Scope N_scope.

(** ** Errors (core/error.rs:11-90) *)
Definition herr := string.
Definition E_valid : herr := "bad_request.validation_failure".
Definition E_param : herr := "bad_request.invalid_param".
Definition E_unavailable : herr := "unavailable".
Definition E_db : herr := "db.internal_error".
Definition E_state : herr := "invalid_internal_state".
(** server.rs:1500-1511. *)
Inductive status := SInvalidArgument | SNotFound | SInternal | SUnavailable | SUnknown.
Definition status_of (c : herr) : status :=
  if String.prefix "bad_request" c then SInvalidArgument
  else if bool_decide (c = "not_found"%string) then SNotFound
  else if String.prefix "db" c || String.prefix "internal" c then SInternal
  else if String.prefix "unavailable" c then SUnavailable
  else SUnknown.

(** ** Messages *)

(** A username proof: its type (1 fname, 2 ENS on L1, 3 base name), the name and the owner's address. *)
Record eproof := EProof { e_type : N; e_name : bytes; e_owner : bytes }.
(** The bodies the submission looks at: user data (whether of type USERNAME, and its value), a username proof, an address
    verification (its type, its chain and whether a claim can be made of it), anything else. *)
Inductive sbody :=
| SUserData (username : bool) (value : bytes)
| SProof (p : eproof)
| SVerif (vtype chain : N) (claim_ok : bool)
| SOther.
Record smsg := SMsg { sm_hash : bytes; sm_fid : N; sm_type : N; sm_body : sbody }.
#[global] Instance eproof_eq_dec : EqDecision eproof. Proof. solve_decision. Defined.
#[global] Instance sbody_eq_dec : EqDecision sbody. Proof. solve_decision. Defined.
#[global] Instance smsg_eq_dec : EqDecision smsg. Proof. solve_decision. Defined.

(** ** The node *)
Inductive chain := Eth | Op | BaseChain.
(** connectors/onchain_events/mod.rs:280-287. *)
Definition chain_of (id : N) : option chain :=
  if id =? 1 then Some Eth else if id =? 10 then Some Op else if id =? 8453 then Some BaseChain else None.
Record client := Client { c_resolve : bytes -> option bytes; c_contract : smsg -> bool }.
(** What a shard's stores say: the registration of an account, whether it has verified an address, the proof message of a name. *)
Inductive regrow := RegErr | RegNone | RegWrong | Reg (to : bytes).
Inductive prow := PrErr (e : herr) | PrNone | PrNoData | PrNoBody | PrWrong | Pr (p : eproof).
Record view := View { v_reg : N -> regrow; v_verified : N -> bytes -> herr + bool; v_proof : bytes -> prow }.
Record node := Node {
  nd_sha4 : bytes -> N; nd_shards : N; nd_version : version; nd_utf8 : bytes -> bool;
  nd_stores : N -> option view; nd_chain : chain -> option client }.
(** routing.rs:39-87 and 13-20. *)
Definition route (nd : node) (m : smsg) : N :=
  route_message (nd_sha4 nd) (UMsg (sm_fid m) (sm_type m) 0 [] BOther) (nd_shards nd) (nd_version nd).
Definition fid_stores (nd : node) (fid : N) : option view := nd_stores nd (route_fid (nd_sha4 nd) fid (nd_shards nd)).

Definition ends_with (s l : bytes) : bool := bool_decide (drop (length l - length s) l = s).
Definition DOT_ETH : bytes := [46; 101; 116; 104].
Definition DOT_BASE_ETH : bytes := [46; 98; 97; 115; 101; 46; 101; 116; 104].

(** server.rs:1300-1343 [resolve_ens_address]; connectors/onchain_events/mod.rs:324-331 [for_chain]. *)
Definition resolve_ens_address (nd : node) (p : eproof) : herr + bytes :=
  if negb (nd_utf8 nd (e_name p)) then inl E_valid
  else
    let ask c := match nd_chain nd c with
                 | None => inl E_state
                 | Some cl => match c_resolve cl (e_name p) with Some a => inr a | None => inl E_valid end
                 end in
    if e_type p =? 2 then if ends_with DOT_ETH (e_name p) then ask Eth else inl E_valid
    else if e_type p =? 3 then if ends_with DOT_BASE_ETH (e_name p) then ask BaseChain else inl E_valid
    else inl E_valid.
(** server.rs:1249-1298 [validate_ens_username_proof]. *)
Definition check_proof (nd : node) (fid : N) (p : eproof) : option herr :=
  match resolve_ens_address nd p with
  | inl e => Some e
  | inr a =>
      if negb (bool_decide (a = e_owner p)) then Some E_valid
      else match fid_stores nd fid with
           | None => Some E_db
           | Some v =>
               match v_reg v fid with
               | RegErr => Some E_db
               | RegNone | RegWrong => Some E_valid
               | Reg to =>
                   if bool_decide (to = a) then None
                   else match v_verified v fid a with inl e => Some e | inr true => None | inr false => Some E_valid end
               end
           end
  end.
(** server.rs:1345-1372 [validate_ens_username]. *)
Definition check_username (nd : node) (fid : N) (name : bytes) : option herr :=
  match fid_stores nd fid with
  | None => Some E_param
  | Some v =>
      match v_proof v name with
      | PrErr e => Some e
      | Pr p => check_proof nd fid p
      | PrNone | PrNoData | PrNoBody | PrWrong => Some E_valid
      end
  end.
(** server.rs:1232-1247 [validate_contract_signature] with the claim of 967-988. *)
Definition check_contract (nd : node) (m : smsg) (c : N) (claim_ok : bool) : option herr :=
  if negb claim_ok then Some E_valid
  else match chain_of c with
       | None => Some E_valid
       | Some ch => match nd_chain nd ch with
                    | None => Some E_state
                    | Some cl => if c_contract cl m then None else Some E_valid
                    end
       end.
(** server.rs:951-993: the checks that need a chain. *)
Definition check_outside (nd : node) (m : smsg) : option herr :=
  match sm_body m with
  | SUserData true value => if ends_with DOT_ETH value then check_username nd (sm_fid m) value else None
  | SUserData false _ => None
  | SProof p => check_proof nd (sm_fid m) p
  | SVerif t c ok => if t =? 1 then check_contract nd m c ok else None
  | SOther => None
  end.

(** ** Handing to the mempool (server.rs:995-1039) *)

(** What is put on the mempool's channel, in order. *)
Inductive ev := EvXfer (id : N) | EvMsg (m : smsg).
#[global] Instance ev_eq_dec : EqDecision ev. Proof. solve_decision. Defined.
(** The channel is full or closed, or takes the request; then the mempool answers, or the answer is lost or late. *)
Inductive ack := AckOk | AckErr (e : herr) | AckLost.
Inductive chan := ChFull | ChClosed | ChSent (a : ack).
Definition to_mempool (nd : node) (m : smsg) (c : chan) : list ev * (herr + smsg) :=
  match check_outside nd m with
  | Some e => ([], inl e)
  | None =>
      match c with
      | ChFull | ChClosed => ([], inl E_unavailable)
      | ChSent AckOk => ([EvMsg m], inr m)
      | ChSent (AckErr e) => ([EvMsg m], inl e)
      | ChSent AckLost => ([EvMsg m], inl E_unavailable)
      end
  end.

(** ** One message (server.rs:756-940) *)
Inductive verdict := VOk | VMissing | VErr (e : herr).
(** server.rs:100-105 [simulate_error_to_hub_error]. *)
Definition code_of (v : verdict) : option herr := match v with VOk => None | VMissing => Some E_valid | VErr e => Some e end.
(** A transfer of the registry: its id and, if it has a proof, the account it goes to. *)
Record xfer := XFer { x_id : N; x_target : option N }.
(** The registry: not configured, failing or too slow, or transfers, each with whether the channel takes it when it is sent. *)
Inductive lres := LNone | LFail | LOk (xs : list (xfer * bool)).
(** What one request meets: the k-th trial run, the registry's answer, the time after the k-th trial run (in ms), the deadline set
    before the second one, the channel. *)
Record world := World {
  w_sim : nat -> N -> smsg -> verdict; w_lookup : bytes -> lres; w_clock : nat -> N; w_deadline : N; w_chan : chan }.
Definition BUDGET : N := 8000.
Definition INTERVAL : N := 250.

(** server.rs:1118-1170 [simulate_message_for_shard_typed]. *)
Definition simulate (nd : node) (w : world) (k : nat) (m : smsg) : verdict :=
  let sh := route nd m in
  if sh =? 0 then w_sim w k sh m
  else match nd_stores nd sh with None => VErr E_param | Some _ => w_sim w k sh m end.
(** server.rs:111-125 [username_for_fname_recovery]. *)
Definition recoverable (m : smsg) : option bytes :=
  match sm_body m with
  | SUserData true value => if bool_decide (value = []) || ends_with DOT_ETH value then None else Some value
  | _ => None
  end.
(** server.rs:857-890. *)
Fixpoint forward (fid : N) (xs : list (xfer * bool)) : list ev :=
  match xs with
  | [] => []
  | (x, sent) :: r =>
      if (default 0 (x_target x) =? fid) && sent then EvXfer (x_id x) :: forward fid r else forward fid r
  end.
(** server.rs:911-939: [None] when the trial runs have not come to an end. *)
Fixpoint poll (nd : node) (w : world) (m : smsg) (fuel k : nat) : option (option herr) :=
  match fuel with
  | O => None
  | S fuel =>
      match simulate nd w k m with
      | VOk => Some None
      | VErr e => Some (Some e)
      | VMissing => if w_deadline w <=? w_clock w k then Some (Some E_valid) else poll nd w m fuel (S k)
      end
  end.
(** server.rs:796-940 [recover_missing_fname]. *)
Definition recover (nd : node) (w : world) (m : smsg) (name : bytes) (fuel : nat) : option (list ev * option herr) :=
  match w_lookup w name with
  | LNone | LFail => Some ([], Some E_valid)
  | LOk xs =>
      match forward (sm_fid m) xs with
      | [] => Some ([], Some E_valid)
      | es => match poll nd w m fuel 1 with Some r => Some (es, r) | None => None end
      end
  end.
(** server.rs:756-789 [submit_message_internal]. *)
Definition submit (nd : node) (w : world) (m : smsg) (fuel : nat) : option (list ev * (herr + smsg)) :=
  if sm_fid m =? 0 then Some ([], inl E_param)
  else match simulate nd w 0 m with
       | VErr e => Some ([], inl e)
       | VOk => Some (to_mempool nd m (w_chan w))
       | VMissing =>
           match recoverable m with
           | None => Some ([], inl E_valid)
           | Some name =>
               match recover nd w m name fuel with
               | None => None
               | Some (es, Some e) => Some (es, inl e)
               | Some (es, None) => let r := to_mempool nd m (w_chan w) in Some (es ++ r.1, r.2)
               end
           end
       end.
(** A message of another node (gossip.rs [handle_gossip_message], C98): it goes to the mempool as it is, nobody waits. *)
Definition gossiped (m : smsg) (c : chan) : list ev := match c with ChSent _ => [EvMsg m] | _ => [] end.

(** ** Many messages (server.rs:1172-1229, 1529-1634; engine.rs:2778-2856)

    [app] is the trial run of one message in a shard's uncommitted state. A transaction's messages run in order, all of them; a
    failure of the whole replay is not modelled. The maps of the code have no order of their own: [sord] is the order of the
    shards, [ford] that of the accounts of a shard; each must list what occurs in the request. *)
Section Bulk.
  Context {T : Type} (app : T -> smsg -> T * verdict).

  Definition run_txn (t : T) (ms : list smsg) : T * option herr :=
    foldl (fun s m => let r := app s.1 m in (r.1, match s.2 with Some e => Some e | None => code_of r.2 end)) (t, None) ms.
  Definition of_fid (f : N) (ms : list smsg) : list smsg := List.filter (fun m => sm_fid m =? f) ms.
  Definition of_shard (nd : node) (sh : N) (ms : list smsg) : list smsg := List.filter (fun m => route nd m =? sh) ms.
  (** engine.rs:2789-2845: one transaction per account, all in one batch. *)
  Fixpoint sim_accounts (t : T) (fs : list N) (ms : list smsg) : list (N * option herr) :=
    match fs with
    | [] => []
    | f :: r => let x := run_txn t (of_fid f ms) in (f, x.2) :: sim_accounts x.1 r ms
    end.
  Fixpoint assoc (l : list (N * option herr)) (f : N) : option herr :=
    match l with [] => None | (g, e) :: r => if g =? f then e else assoc r f end.
  (** server.rs:1172-1229 [simulate_bulk_messages_for_shard]. *)
  Definition sim_shard (nd : node) (t : T) (fs : list N) (sh : N) (ms : list smsg) : list (option herr) :=
    if sh =? 0 then map (fun _ => Some E_valid) ms
    else match nd_stores nd sh with
         | None => map (fun _ => Some E_param) ms
         | Some _ => let r := sim_accounts t fs ms in map (fun m => assoc r (sm_fid m)) ms
         end.
  (** An answer: the hash of the message and the message itself or the error (server.rs:1551-1561, 1597-1628). *)
  Definition answer : Type := bytes * (herr + smsg).
  (** server.rs:1585-1629. The channel's behaviour may depend on everything sent before. *)
  Fixpoint send_all (nd : node) (ch : list ev -> smsg -> chan) (h : list ev) (l : list (option herr * smsg)) : list ev * list answer :=
    match l with
    | [] => (h, [])
    | (Some e, m) :: r => let x := send_all nd ch h r in (x.1, (sm_hash m, inl e) :: x.2)
    | (None, m) :: r =>
        let y := to_mempool nd m (ch h m) in
        let x := send_all nd ch (h ++ y.1) r in (x.1, (sm_hash m, y.2) :: x.2)
    end.
  Fixpoint bulk_shards (nd : node) (t0 : N -> T) (ford : N -> list N) (ch : list ev -> smsg -> chan) (h : list ev) (shs : list N)
      (ms : list smsg) : list ev * list answer :=
    match shs with
    | [] => (h, [])
    | sh :: r =>
        let b := of_shard nd sh ms in
        let x := send_all nd ch h (combine (sim_shard nd (t0 sh) (ford sh) sh b) b) in
        let y := bulk_shards nd t0 ford ch x.1 r ms in (y.1, x.2 ++ y.2)
    end.
  Definition bulk (nd : node) (t0 : N -> T) (ford : N -> list N) (ch : list ev -> smsg -> chan) (sord : list N) (ms : list smsg) :
    list ev * list answer := bulk_shards nd t0 ford ch [] sord ms.
End Bulk.
