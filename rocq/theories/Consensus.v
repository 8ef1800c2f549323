(** Validator sets, certificates, the read node, proposals and shard witnesses:
    src/consensus/{validator,read_validator,proposer}.rs, src/core/{types,util}.rs, proto/src/lib.rs. *)
From Verif Require Export Base.
From stdpp Require Export gmap.
#[local] Open Scope N_scope.

(** ** Heights (proto/src/lib.rs:12-72, definitions/blocks.proto:21-24)

    The derived [Ord] compares [shard_index] first. [increment] adds one to a [u64]; block numbers are unbounded here
    (no run reaches 2^64 blocks). *)
Notation height := (N * N)%type.
Definition h_shard (h : height) : N := h.1.
Definition h_num (h : height) : N := h.2.
Definition h_inc (h : height) : height := (h.1, h.2 + 1).
Definition h_eqb (a b : height) : bool := (a.1 =? b.1) && (a.2 =? b.2).
Definition h_ltb (a b : height) : bool := (a.1 <? b.1) || ((a.1 =? b.1) && (a.2 <? b.2)).
Definition h_leb (a b : height) : bool := negb (h_ltb b a).

(** ** Validator sets *)

(** consensus.rs:39-44 [ValidatorSetConfig]; a public key is its 32 bytes (hex decoding and key parsing, which panic
    on bad configuration at start-up, are not modelled). *)
Record vconfig := VConfig { vc_effective : N; vc_keys : list bytes; vc_shards : list N }.
(** core/types.rs:292-316 [SnapchainValidator]: of the fields only [shard_index], [address] (= the public key) matter;
    [current_height] is the same for all members of a set. *)
Record validator := Validator { v_shard : N; v_key : bytes }.

(** Derived [Ord] of [SnapchainValidator] on the modelled fields. *)
Definition v_leb (a b : validator) : bool :=
  (v_shard a <? v_shard b) || ((v_shard a =? v_shard b) && ble (v_key a) (v_key b)).
(** [Vec::sort] (stable) of a sorted vector with one more element at the end. *)
Fixpoint v_insert (x : validator) (l : list validator) : list validator :=
  match l with
  | [] => [x]
  | y :: r => if v_leb y x then y :: v_insert x r else x :: l
  end.
Definition beqb (a b : bytes) : bool := match lex a b with Eq => true | _ => false end.
(** types.rs:332-346 [add]: [push] followed by [sort]. *)
Definition v_add (set : list validator) (x : validator) : list validator :=
  if existsb (fun v => beqb (v_key v) (v_key x)) set then set
  else match set with
       | [] => [x]
       | y :: _ => if v_shard y =? v_shard x then v_insert x set else set
       end.
(** validator.rs:54-72 [StoredValidatorSet::new]. *)
Definition v_build (shard : N) (keys : list bytes) : list validator :=
  fold_left (fun s k => v_add s (Validator shard k)) keys [].
Record vset := VSet { vs_effective : N; vs_validators : list validator; vs_shards : list N }.
Definition store_set (shard : N) (c : vconfig) : vset :=
  VSet (vc_effective c) (v_build shard (vc_keys c)) (vc_shards c).

(** validator.rs:33-45 [get_validator_set]; indexing an empty [sets] panics ([None]), which the configuration loader
    excludes (consensus.rs:103, 109). *)
Definition eligible (shard h : N) (s : vset) : bool :=
  existsb (N.eqb shard) (vs_shards s) && (vs_effective s <=? h).
Definition pick (shard h : N) (result : vset) (c : vset) : vset :=
  if eligible shard h c && (vs_effective result <? vs_effective c) then c else result.
Definition get_validator_set (shard : N) (sets : list vset) (h : N) : option (list validator) :=
  match sets with
  | [] => None
  | s :: _ => Some (vs_validators (fold_left (pick shard h) sets s))
  end.

(** types.rs:518-539 [select_proposer]: [height - 1 + round] in [usize] (wrapping in release builds); panics on an empty
    set or a negative round. *)
Definition select_proposer (set : list validator) (h : N) (round : Z) : option validator :=
  match set with
  | [] => None
  | _ =>
      if (round <? 0)%Z then None
      else set !! N.to_nat (((h + (2 ^ 64 - 1) + Z.to_N round) mod 2 ^ 64) mod N.of_nat (length set))
  end.

(** ** Certificates *)

Notation shash := (N * bytes)%type.
(** definitions/blocks.proto:48-59. *)
Record csig := CSig { sg_addr : bytes; sg_sig : bytes }.
Record commits := Commits { cm_height : option height; cm_round : Z; cm_value : option shash; cm_sigs : list csig }.
Record cert := Cert { ct_height : height; ct_round : Z; ct_value : shash; ct_sigs : list csig }.
(** types.rs:709-733 [to_commit_certificate]: [unwrap]s, and [Address::from_vec] panics unless 32 bytes. *)
Definition to_cert (c : commits) : option cert :=
  match cm_height c, cm_value c with
  | Some h, Some v =>
      if forallb (fun s => (length (sg_addr s) =? 32)%nat) (cm_sigs c) then Some (Cert h (cm_round c) v (cm_sigs c))
      else None
  | _, _ => None
  end.
(** types.rs:386-399 [Vote::new_precommit] with [Val]. *)
Record vote := Precommit { vt_height : height; vt_round : Z; vt_value : shash; vt_voter : bytes }.

(** malachite [ThresholdParams::default().quorum.is_met]: two thirds, strictly. *)
Definition quorum_met (weight total : N) : bool := 2 * total <? 3 * weight.
(** itertools [contains] on a partially consumed iterator: advances past the first match, or to the end. *)
Fixpoint take_until (k : bytes) (l : list bytes) : option (list bytes) :=
  match l with
  | [] => None
  | x :: r => if beqb x k then Some r else take_until k r
  end.

Section Consensus.
  (** Ed25519 verification of the protobuf encoding of a vote ([public_key.verify(&vote.to_sign_bytes(), sig)]); external.
      The encoding determines the vote: C83_votes (PropConsensusWire.v). *)
  Variable sig_ok : bytes -> vote -> bytes -> bool.

  Fixpoint check_sigs (c : cert) (sigs : list csig) (expected : list bytes) : bool :=
    match sigs with
    | [] => true
    | s :: r =>
        match take_until (sg_addr s) expected with
        | None => false
        | Some rest =>
            sig_ok (sg_addr s) (Precommit (ct_height c) (ct_round c) (ct_value c) (sg_addr s)) (sg_sig s) && check_sigs c r rest
        end
    end.
  (** util.rs:102-144 [verify_signatures]; [None] is a panic. *)
  Definition verify_signatures (shard : N) (sets : list vset) (cm : commits) : option bool :=
    match to_cert cm with
    | None => None
    | Some c =>
        match get_validator_set shard sets (h_num (ct_height c)) with
        | None => None
        | Some vs =>
            let expected := map v_key vs in
            Some (quorum_met (N.of_nat (length (ct_sigs c))) (N.of_nat (length expected)) && check_sigs c (ct_sigs c) expected)
        end
    end.

  (** ** The read node (read_validator.rs) *)

  Inductive kind := KBlock | KShard.
  Definition kind_eqb (a b : kind) : bool := match a, b with KBlock, KBlock | KShard, KShard => true | _, _ => false end.
  (** A decided value as received: [dv_height] is [header.height] ([None]: header or height missing), [dv_commits] the
      attached certificate, [dv_hash] the [hash] field, [dv_body] everything else. [dv_version_ok] is the outcome of
      [validate_protocol_version] (121-150), a function of the header only (always true for chunks). *)
  Record dvalue := DValue { dv_kind : kind; dv_height : option height; dv_commits : option commits; dv_hash : bytes;
                            dv_body : N; dv_version_ok : bool }.

  (** The engine: [apply] is [commit_block]/[commit_shard_chunk], [None] if it panics. *)
  Variable E : Type.
  Variable apply : E -> dvalue -> option E.
  Variable my_kind : kind.

  Record rnode := RNode { rn_engine : E; rn_last : height; rn_buf : list (height * dvalue); rn_log : list dvalue }.

  (** [BTreeMap::insert]: sorted by height, replacing an entry with the same key. *)
  Fixpoint buf_insert (h : height) (v : dvalue) (b : list (height * dvalue)) : list (height * dvalue) :=
    match b with
    | [] => [(h, v)]
    | (h', v') :: r => if h_eqb h h' then (h, v) :: r else if h_ltb h h' then (h, v) :: b else (h', v') :: buf_insert h v r
    end.

  (** 49-80 [commit_decided_value]: panics on a value of the other kind. [rn_log] records the commits (ghost). *)
  Definition commit_value (s : rnode) (h : height) (v : dvalue) : option rnode :=
    if kind_eqb (dv_kind v) my_kind then
      e ← apply (rn_engine s) v; Some (RNode e h (rn_buf s) (rn_log s ++ [v]))
    else None.
  Definition set_buf (s : rnode) (b : list (height * dvalue)) : rnode := RNode (rn_engine s) (rn_last s) b (rn_log s).
  (** 81-95 [process_buffered_blocks]: [pop_first] in a loop. *)
  Fixpoint drain (b : list (height * dvalue)) (s : rnode) : option rnode :=
    match b with
    | [] => Some (set_buf s [])
    | (h, v) :: r =>
        if h_eqb h (h_inc (rn_last s)) then s' ← commit_value s h v; drain r s'
        else if h_ltb (h_inc (rn_last s)) h then Some (set_buf s b)
        else drain r s
    end.

  Variables (shard : N) (sets : list vset) (max_buf : N).

  (** 152-202 [process_decided_value]; [None] is a panic (missing header, height, certificate, malformed certificate, wrong
      kind, or the engine's own panic). *)
  Definition process (s : rnode) (v : dvalue) : option rnode :=
    match dv_height v, dv_commits v with
    | Some h, Some cm =>
        ok ← verify_signatures shard sets cm;
        if negb ok || negb (dv_version_ok v) then Some s
        else if h_ltb (h_inc (rn_last s)) h then
          Some (if N.of_nat (length (rn_buf s)) <? max_buf then set_buf s (buf_insert h v (rn_buf s)) else s)
        else if h_eqb h (h_inc (rn_last s)) then
          s' ← commit_value s h v; drain (rn_buf s') s'
        else Some s
    | _, _ => None
    end.
  (** A run: after a panic nothing more happens. *)
  Fixpoint read_run (s : rnode) (vs : list dvalue) : option rnode :=
    match vs with [] => Some s | v :: r => s' ← process s v; read_run s' r end.
End Consensus.
Global Arguments rn_engine {E}.
Global Arguments rn_last {E}.
Global Arguments rn_buf {E}.
Global Arguments rn_log {E}.
Global Arguments RNode {E}.
Global Arguments set_buf {E}.

(** ** Proposals (proposer.rs) *)

(** definitions/blocks.proto:72-80 [FullProposal]: [p_height] and [p_round] are the envelope's, [p_hdr] the height in the
    header of the block or chunk, [p_hash] its claimed [hash] field, [p_body] everything else. A proposal without value
    panics in [shard_hash] (proto/src/lib.rs:147-163) before reaching the proposer. *)
Record proposal := Proposal { p_kind : kind; p_height : height; p_round : Z; p_hdr : height; p_hash : bytes; p_body : N }.
#[global] Instance kind_eq_dec : EqDecision kind.
Proof. solve_decision. Defined.
#[global] Instance proposal_eq_dec : EqDecision proposal.
Proof. solve_decision. Defined.

(** proto/src/lib.rs:147-163 [shard_hash]: the claimed hash, never recomputed. *)
Definition p_id (p : proposal) : shash := (h_shard (p_height p), p_hash p).

(** proposer.rs:62-115 [ProposedValues]. *)
Record pvals := PVals { pv_by_height : gmap height (list shash); pv_values : gmap shash proposal }.
Definition pv_empty : pvals := PVals ∅ ∅.
Definition pv_add (s : pvals) (p : proposal) : pvals :=
  PVals (<[p_height p := default [] (pv_by_height s !! p_height p) ++ [p_id p]]> (pv_by_height s))
        (<[p_id p := p]> (pv_values s)).
(** 93-110 [decide]: every entry at or below the height goes, with the values it names. *)
Definition pv_decide (s : pvals) (h : height) : pvals :=
  let gone := filter (fun e => h_leb e.1 h = true) (pv_by_height s) in
  PVals (filter (fun e => h_leb e.1 h = false) (pv_by_height s))
        (fold_left (fun m k => delete k m) (concat (map snd (map_to_list gone))) (pv_values s)).

Section Proposer.
  (** Engine state, its confirmed height, [validate_state_change] together with the header checks that read only the
      proposal and the engine, and the commit ([None] = panic). *)
  Variable E : Type.
  Variable confirmed : E -> height.
  Variable validate : E -> proposal -> bool.
  Variable commit : E -> proposal -> option E.

  Record pnode := PNode { pn_engine : E; pn_vals : pvals }.
  Inductive verdict := Valid | Invalid.

  (** 206-259 [ShardProposer::add_proposed_value]: stored before any check. *)
  Definition shard_add (s : pnode) (p : proposal) : pnode * verdict :=
    match p_kind p with
    | KShard =>
        let s' := PNode (pn_engine s) (pv_add (pn_vals s) p) in
        if negb (h_eqb (p_hdr p) (h_inc (confirmed (pn_engine s)))) then (s', Invalid)
        else (s', if validate (pn_engine s) p then Valid else Invalid)
    | KBlock => (s, Invalid)
    end.
  (** 578-650 [BlockProposer::add_proposed_value]: stored after the checks; a chunk is reported valid and not stored. *)
  Definition block_add (s : pnode) (p : proposal) : pnode * verdict :=
    match p_kind p with
    | KBlock =>
        if negb (h_eqb (p_hdr p) (h_inc (confirmed (pn_engine s)))) then (s, Invalid)
        else if validate (pn_engine s) p then (PNode (pn_engine s) (pv_add (pn_vals s) p), Valid)
        else (s, Invalid)
    | KShard => (s, Valid)
    end.

  (** 265-290 and 657-690 [decide], reached through host.rs:214-253 (no signatures or unknown value: the height restarts,
      nothing happens; here [DNone]) and validator.rs:198-243 (panics on the wrong shard). The value is found by the
      certificate's hash alone. A stored proposal of the other kind cannot arise. *)
  Inductive decision := DNone | DCommit (p : proposal) | DPanic.
  Definition decide_value (my_shard : N) (s : pnode) (c : cert) : pnode * decision :=
    match ct_sigs c with
    | [] => (s, DNone)
    | _ =>
        match pv_values (pn_vals s) !! ct_value c with
        | None => (s, DNone)
        | Some p =>
            if negb (my_shard =? h_shard (ct_height c)) then (s, DPanic)
            else match commit (pn_engine s) p with
                 | None => (s, DPanic)
                 | Some e => (PNode e (pv_decide (pn_vals s) (ct_height c)), DCommit p)
                 end
        end
    end.

  (** The node's inputs: a proposal it builds itself (validator.rs:293-325, proposer.rs:154-204 and 488-576), one received by
      gossip or sync (validator.rs:260-291; wrong shard panics), a decision. *)
  Inductive pinput := IPropose (p : proposal) | IReceive (p : proposal) | IDecide (c : cert).
  Inductive poutput := OPropose | OVerdict (v : verdict) | ODecide (d : decision) | OPanic.
  Definition padd (k : kind) : pnode -> proposal -> pnode * verdict := match k with KBlock => block_add | KShard => shard_add end.
  Definition pstep (k : kind) (my_shard : N) (s : pnode) (i : pinput) : pnode * poutput :=
    match i with
    | IPropose p => (PNode (pn_engine s) (pv_add (pn_vals s) p), OPropose)
    | IReceive p =>
        if negb (my_shard =? h_shard (p_height p)) then (s, OPanic)
        else let '(s', v) := padd k s p in (s', OVerdict v)
    | IDecide c => let '(s', d) := decide_value my_shard s c in (s', ODecide d)
    end.
  (** The run as the list of (state before, input, output). *)
  Fixpoint prun (k : kind) (my_shard : N) (s : pnode) (is : list pinput) : list (pnode * pinput * poutput) * pnode :=
    match is with
    | [] => ([], s)
    | i :: r => let '(s', o) := pstep k my_shard s i in let '(t, sf) := prun k my_shard s' r in ((s, i, o) :: t, sf)
    end.
End Proposer.
Global Arguments PNode {E}.
Global Arguments pn_engine {E}.
Global Arguments pn_vals {E}.

(** ** Shard witnesses (proposer.rs:370-478) *)

Record witness := Witness { w_shard : N; w_height : N; w_hash : bytes; w_root : bytes }.
(** block_engine.rs:2329-2342 [get_last_shard_witness]; [prev] are the witnesses of the block at [height - 1], if stored. *)
Definition last_witness (height : N) (prev : option (list witness)) (sh : N) : option witness :=
  if height =? 0 then None
  else match prev with None => None | Some ws => find (fun w => w_shard w =? sh) ws end.
(** 398-436, the decoupled path, for one shard; [chunk n] is [get_shard_witness_at_height n] of that shard's store (errors
    count as absent, as in the code). *)
Definition pick_witness (height : N) (prev : option (list witness)) (sh : N) (chunk : N -> option witness) : option witness :=
  let last := last_witness height prev sh in
  let next n := match chunk n with Some w => Some w | None => last end in
  if height =? 1 then next 1
  else match last with
       | Some w => next (w_height w + 1)
       | None => None
       end.
(** 389-478 [collect_confirmed_shard_witnesses]; [stores] lists the shard stores by ascending shard id (the results go through
    a [BTreeMap]); in the legacy path [chunk] answers for the whole polling period. *)
Definition collect (decoupled : bool) (num_shards height : N) (prev : option (list witness))
    (stores : list (N * (N -> option witness))) : list witness :=
  let chunks := omap (fun sc => if decoupled then pick_witness height prev sc.1 sc.2 else sc.2 height) stores in
  if N.of_nat (length chunks) =? num_shards then chunks else [].
(** 615-634 the witness checks of [BlockProposer::add_proposed_value]: the count and the hash (the latter external). *)
Definition witnesses_checked (num_shards : N) (ws : list witness) : bool := N.of_nat (length ws) =? num_shards.
