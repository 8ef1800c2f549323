(** The node's own state: src/storage/store/node_local_state.rs, and the proposals kept in it by
    src/consensus/validator.rs.

    Simplifications.  The database is a finite map; whether a read or a write of it fails is part of the input.  The
    encoding of a proposal is a pair of functions given by the caller.  The engine and the proposals are those of
    Consensus.v.  A proposal that a node publishes is not delivered back to it (gossipsub does not do that). *)
From Verif Require Export Base Kv Codec Consensus.
From Verif Require Import Paging.
#[local] Open Scope N_scope.

(** ** Keys *)

(** storage/constants.rs:5, 44, 56. *)
Definition RP_Block : N := 1.
Definition RP_NodeLocalState : N := 17.
Definition RP_BootstrapStatus : N := 21.

(** [i64::to_be_bytes]. *)
Definition i64_be (z : Z) : bytes := be 8 (Z.to_N (z mod 2 ^ 64)).
(** node_local_state.rs:77-82 [make_height_prefix], 71-75 [make_proposal_key]. *)
Definition height_prefix (shard h : N) : bytes := RP_Block :: be 4 shard ++ be 8 h.
Definition proposal_key (shard h : N) (r : Z) : bytes := height_prefix shard h ++ i64_be r.
(** What the store keeps one value for each of. *)
Inductive lkey :=
| KProposal (shard h : N) (r : Z) | KBlockOptimism | KBlockBase | KFname | KToken (shard : N)
| KWork (shard vts : N) | KRoot (shard vts fid : N).
(** 61-69, 152-157, 178-195 (the shard is cut to a byte by [as u8], the virtual shard is one), 256-263. *)
Definition lkey_bytes (k : lkey) : bytes :=
  match k with
  | KProposal s h r => proposal_key s h r
  | KBlockOptimism => [RP_NodeLocalState; 1]
  | KBlockBase => [RP_NodeLocalState; 3]
  | KFname => [RP_NodeLocalState; 2]
  | KToken s => RP_NodeLocalState :: 4 :: be 4 s
  | KWork s v => [RP_BootstrapStatus; s mod 256; v mod 256; 1]
  | KRoot s v f => [RP_BootstrapStatus; s mod 256; v; 2] ++ make_fid_key f
  end.

(** 84-91, 131-143, 159-168, 214-231, 279-300: a put; 289-300 with no token: a delete. *)
Inductive lop := LSet (k : lkey) (v : bytes) | LDel (k : lkey).
Definition lapply (d : kv bytes) (o : lop) : kv bytes :=
  match o with LSet k v => <[lkey_bytes k := v]> d | LDel k => delete (lkey_bytes k) d end.
(** 233-254 [read_account_root]: the batch when it holds a value, otherwise the database; a value that does not decode
    is no value. *)
Definition read_root (dec : bytes -> option bytes) (d : kv bytes) (t : gmap bytes (option bytes)) (s v f : N) : option bytes :=
  match t !! lkey_bytes (KRoot s v f) with
  | Some (Some b) => dec b
  | _ => match d !! lkey_bytes (KRoot s v f) with Some b => dec b | None => None end
  end.

(** ** Proposals *)

(** 93-109 [delete_proposals]: the keys of the height in order; the loop ends early when a delete fails or the process
    stops, after [n] of them. *)
Definition height_keys (d : kv bytes) (shard h : N) : list bytes :=
  filter (fun k => in_prefix_scan (height_prefix shard h) k = true) (rows d).*1.
Definition delete_proposals (n : nat) (d : kv bytes) (shard h : N) : kv bytes :=
  foldl (fun d k => delete k d) d (take n (height_keys d shard h)).

Section Validator.
  Variable E : Type.
  Variable confirmed : E -> height.
  Variable validate : E -> proposal -> bool.
  Variable commit : E -> proposal -> option E.
  (** The engine as a new process finds it. *)
  Variable reopen : E -> E.
  Variable enc : proposal -> bytes.
  Variable dec : bytes -> option proposal.

  (** 111-129 [get_proposal]: a value that does not decode is an error ([None]). *)
  Definition get_proposal (d : kv bytes) (shard : N) (h : N) (r : Z) : option (option proposal) :=
    match d !! proposal_key shard h r with
    | None => Some None
    | Some b => match dec b with Some p => Some (Some p) | None => None end
    end.
  (** 84-91 [put_proposal]; proto/src/lib.rs:190-192 [round] panics unless the round fits a [u32]. *)
  Definition put_proposal (d : kv bytes) (p : proposal) : option (kv bytes) :=
    if (0 <=? p_round p)%Z && (p_round p <? 2 ^ 32)%Z
    then Some (<[proposal_key (h_shard (p_height p)) (h_num (p_height p)) (p_round p) := enc p]> d) else None.

  Record vnode := VNode { v_node : pnode E; v_disk : kv bytes }.
  (** host.rs:92-131 [GetValue], with the hash and the body that the proposer would build now, and whether the read and
      the write of the database work; a proposal received; host.rs:214-253 [Decided], with the number of deletes that
      get done; a new process. *)
  Inductive vinput :=
  | VGet (h : height) (r : Z) (hash : bytes) (body : N) (get_ok put_ok : bool)
  | VReceive (p : proposal) | VDecide (c : cert) (n : nat) | VRestart.
  Inductive voutput := VProposed (p : proposal) | VVerdict (o : poutput) | VDecided (o : decision) | VPanic | VNew.

  (** validator.rs:293-325 [propose_value], 260-291 [add_proposed_value], 198-243 [decide]. *)
  Definition vstep (k : kind) (my : N) (s : vnode) (i : vinput) : vnode * voutput :=
    match i with
    | VGet h r hash body get_ok put_ok =>
        match (if get_ok then get_proposal (v_disk s) my (h_num h) r else None) with
        | Some (Some p) => (s, VProposed p)
        | _ =>
            let p := Proposal k h r h hash body in
            let n := PNode (pn_engine (v_node s)) (pv_add (pn_vals (v_node s)) p) in
            match put_proposal (v_disk s) p with
            | None => (VNode n (v_disk s), VPanic)
            | Some d => (VNode n (if put_ok then d else v_disk s), VProposed p)
            end
        end
    | VReceive p => let '(n, o) := pstep E confirmed validate commit k my (v_node s) (IReceive p) in (VNode n (v_disk s), VVerdict o)
    | VDecide c m =>
        let '(n, o) := decide_value E commit my (v_node s) c in
        (VNode n (match o with DCommit _ => delete_proposals m (v_disk s) my (h_num (ct_height c)) | _ => v_disk s end), VDecided o)
    | VRestart => (VNode (PNode (reopen (pn_engine (v_node s))) pv_empty) (v_disk s), VNew)
    end.
  Fixpoint vrun (k : kind) (my : N) (s : vnode) (is : list vinput) : list (vinput * voutput) * vnode :=
    match is with
    | [] => ([], s)
    | i :: r => let '(s', o) := vstep k my s i in let '(t, sf) := vrun k my s' r in ((i, o) :: t, sf)
    end.
End Validator.
Global Arguments VNode {E}.
Global Arguments v_node {E}.
Global Arguments v_disk {E}.
