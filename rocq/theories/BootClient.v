(** The receiving side of a bootstrap: what a node accepts from the peers that serve it (src/bootstrap/replication/
    service.rs:843-1220, src/storage/store/engine.rs:599-663).

    The node learns the shard root from one peer and fetches pages from any peer that claims the snapshot's height
    (rpc_client.rs); so pages are arbitrary here.  External functions: [sha4] (routing), [E] (decoding, BLAKE3, Ed25519; batch
    verification is taken to agree with single verification), [keccak], [merges] (does the store of the message accept it
    with exactly one event; conflict-free stores hardly refuse), [root] (the subtree hash of an account in a trie holding
    these keys).  Not modelled: paging tokens, write sessions, progress reports. *)
From Verif Require Export Base Codec Validate Names.
From Verif Require OnChain.
From stdpp Require Export gmap.
#[local] Open Scope N_scope.
Notation oev := OnChain.oev.
Notation ost := OnChain.ost.

(** proto ShardTrieEntryWithMessage: the key and one of three payloads. *)
Inductive payload := PUser (m : message) | PChain (e : oev) (tx : bytes) | PName (p : fproof) | PNothing.
Record page := Page { pg_entries : list (bytes * payload); pg_roots : list (N * bytes) }.

(** What the node has: merged user messages (newest first), registered names, on-chain state, trie keys, the account roots it
    was told and the account it is at. *)
Record cst := CSt {
  c_msgs : list message; c_names : fst_; c_chain : ost; c_keys : gset bytes; c_roots : gmap N bytes; c_last : option N }.
Definition c_init : cst := CSt [] fs_init OnChain.o_init ∅ ∅ None.

Section Client.
  Context (sha4 : bytes -> N) (E : env) (keccak : bytes -> bytes) (merges : list message -> message -> bool)
    (root : gset bytes -> N -> bytes).

  (** service.rs:1162-1220 [validate_messages_signatures], one message: the hash of [data_bytes] if present, else of the encoded
      [data]; the signature over the hash.  A signer that is not 32 bytes long panics (l.1193), which ends the task with an
      error (l.812-820). *)
  Definition msg_ok (m : message) : bool :=
    match g_data_bytes m with
    | Some b => hash_ok E m b
    | None => match g_data m with Some d => hash_ok E m (e_encode E d) | None => false end
    end && Nat.eqb (length (g_signer m)) 32 && e_ed25519 E (g_signer m) (g_hash m) (g_signature m).
  Definition entry_ok (x : bytes * payload) : bool := match x.2 with PUser m => msg_ok m | _ => true end.

  (** merkle_trie.rs:32-50 on the decoded copy. *)
  Definition lend_to (d : data) : option N := match d_body d with Some (VLend to _ _) => Some to | _ => None end.
  Definition hash_keys (m : message) : list bytes :=
    match g_data m with
    | Some d => for_message sha4 (d_fid d) (Z.to_N (d_type d)) (g_hash m) (lend_to d)
    | None => []
    end.
  (** merkle_trie.rs:170-187, username_proof_store.rs:295-330: the event of a username proof message also carries the proof,
      and a proof of the type FNAME (1) has a key of its own.  (A name that is not UTF-8 panics: see [merges].) *)
  Definition claim_keys (m : message) : list bytes :=
    match g_data m with
    | Some d => match d_body d with
        | Some (VUsernameProof p) =>
            if (d_type d =? T_USERNAME_PROOF)%Z && (np_type p =? 1)%Z && negb (np_fid p =? 0)
            then [for_fname sha4 (np_fid p) (np_name p)] else []
        | _ => []
        end
    | None => []
    end.
  Definition user_keys (m : message) : list bytes := hash_keys m ++ claim_keys m.
  Definition chain_key (e : oev) (tx : bytes) : bytes := for_onchain_event sha4 (OnChain.o_fid e) (OnChain.o_type e) tx (OnChain.o_log e).
  (** merkle_trie.rs:170-187. *)
  Definition name_keys (p : fproof) : list bytes :=
    if f_isf p && negb (f_fid p =? 0) then [for_fname sha4 (f_fid p) (f_name p)] else [].

  (** onchain_event_store.rs:117-132 with [conflict_free]: a stored event under the same primary key is overwritten. *)
  Definition omerge_cf (db s : ost) (e : oev) : ost :=
    default s (OnChain.omerge keccak db (OnChain.OSt (delete (OnChain.prim e) (OnChain.t_ev s)) (OnChain.t_id s) (OnChain.t_sig s)
      (OnChain.t_own s) (OnChain.t_label s) (OnChain.t_addr s)) e).

  (** engine.rs:599-663 [replay_replicator_message]. *)
  Inductive rres := RKeys (ks : list bytes) | RDup | RFail.
  Definition replay (db st : cst) (p : payload) : cst * rres :=
    match p with
    | PUser m =>
        match g_data m with
        | Some _ =>
            if merges (c_msgs st) m
            then (CSt (m :: c_msgs st) (c_names st) (c_chain st) (c_keys st) (c_roots st) (c_last st), RKeys (user_keys m))
            else (st, RFail)
        | None => (st, RFail)
        end
    | PChain e tx =>
        (CSt (c_msgs st) (c_names st) (omerge_cf (c_chain db) (c_chain st) e) (c_keys st) (c_roots st) (c_last st),
         RKeys [chain_key e tx])
    | PName p =>
        match f_merge (c_names st) p with
        | (s, None) => (CSt (c_msgs st) s (c_chain st) (c_keys st) (c_roots st) (c_last st), RKeys (name_keys p))
        | (_, Some FDuplicate) => (st, RDup)
        | _ => (st, RFail)
        end
    | PNothing => (st, RFail)
    end.

  Definition set_last (st : cst) (l : option N) : cst :=
    CSt (c_msgs st) (c_names st) (c_chain st) (c_keys st) (c_roots st) l.
  Definition add_key (st : cst) (k : bytes) : cst :=
    CSt (c_msgs st) (c_names st) (c_chain st) ({[ k ]} ∪ c_keys st) (c_roots st) (c_last st).
  (** service.rs:902-963, one entry; the accounts to check are collected.  The key is noted first (l.904). *)
  Definition take_entry (vts : N) (db : cst) (acc : option (cst * list N)) (x : bytes * payload) : option (cst * list N) :=
    match acc with
    | None => None
    | Some (st, chk) =>
      let '(k, p) := x in
      match trie_decode k with
      | None => None
      | Some dk =>
        match replay db (add_key st k) p with
        | (_, RFail) => None
        | (st, RDup) => Some (st, chk)
        | (st, RKeys ks) =>
            if negb (bool_decide (k ∈ ks)) then None
            else if negb (fid_shard sha4 (dk_fid dk) =? vts) then None
            else match c_last st with
              | None => Some (set_last st (Some (dk_fid dk)), chk)
              | Some l => if l <? dk_fid dk then Some (set_last st (Some (dk_fid dk)), chk ++ [l]) else Some (st, chk)
              end
        end
      end
    end.
  (** service.rs:1057-1117 [check_fid_roots]; a wrong number of messages is only logged. *)
  Definition check_root (vts : N) (st : cst) (f : N) : bool :=
    (fid_shard sha4 f =? vts) && bool_decide (c_roots st !! f = Some (root (c_keys st) f)).
  (** service.rs:866-1013, one page on the committed state. *)
  Definition take_page (vts : N) (acc : option cst) (p : page) : option cst :=
    match acc with
    | None => None
    | Some st =>
      if forallb entry_ok (pg_entries p) then
        let st := CSt (c_msgs st) (c_names st) (c_chain st) (c_keys st)
                    (foldl (fun r x => <[x.1 := x.2]> r) (c_roots st) (pg_roots p)) (c_last st) in
        match foldl (take_entry vts st) (Some (st, [])) (pg_entries p) with
        | Some (st', chk) => if forallb (check_root vts st') chk then Some st' else None
        | None => None
        end
      else None
    end.
  (** service.rs:861-1055: all pages of a virtual shard, then the last account. *)
  Definition take_pages (vts : N) (st : cst) (ps : list page) : option cst :=
    match foldl (take_page vts) (Some st) ps with
    | Some st' => match c_last st' with
                  | Some f => if check_root vts st' f then Some st' else None
                  | None => Some st'
                  end
    | None => None
    end.
End Client.
