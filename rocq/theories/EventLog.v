(** The event stream of a message store.  Every merge, prune and revocation that succeeds produces a hub event
    (store.rs:835, 892, 928, 1017, 1090, 1167, 1200: the [HubEvent]s handed back to the engine); the engine commits the
    events of a block together with its rows (engine.rs:2463-2468, event.rs:109-124) and drops them when the proposal is
    dropped.  The sync trie is updated from the events alone (engine.rs:2017-2033, merkle_trie.rs:229-246).

    Simplifications: event ids and failure events are left out (C01, C39); the store is the model of Store.v. *)
From Verif Require Export Base Store StoreSpec.
#[local] Open Scope N_scope.

(** The events an operation produces: none for a refused merge; a failing prune drops its events (the [?] of
    store.rs:1236). *)
Definition op_events (D : sdef) (cx : msg -> mctx) (st : smap * smap) (o : sop) : list sevent :=
  let '(db, v) := st in
  match o with
  | OMerge m => match (Store.merge D db v (cx m) m).2 with inr ev => [ev] | inl _ => [] end
  | OPrune f count mx => match (prune_messages D db v f count mx).2 with inr l => l | inl _ => [] end
  | ORevoke f key => (revoke_by_signer D db v f key).2
  | OCommit | ORollback => []
  end.
(** A node with its log: events of committed blocks and of the open block. *)
Record lst := LSt { l_st : smap * smap; l_done : list sevent; l_open : list sevent }.
Definition lstep (D : sdef) (cx : msg -> mctx) (s : lst) (o : sop) : lst :=
  let st' := sstep D cx (l_st s) o in
  match o with
  | OCommit => LSt st' (l_done s ++ l_open s) []
  | ORollback => LSt st' (l_done s) []
  | _ => LSt st' (l_done s) (l_open s ++ op_events D cx (l_st s) o)
  end.
Definition lrun (D : sdef) (cx : msg -> mctx) (ops : list sop) : lst := foldl (lstep D cx) (LSt start [] []) ops.

(** merkle_trie.rs:138-206 [TrieKey::for_hub_event] for these three events, with 238-243 [update_for_event]: the keys of the
    merged message are inserted, then those of the deleted messages are deleted.  merkle_trie.rs:32-50 [for_message]: a
    loan has a key for the lender and one for the borrower.  The trie is its set of keys (C05). *)
Definition lend_to (m : msg) : option N := match m_body m with BLend to _ => Some to | _ => None end.
Definition msg_keys (sha4 : bytes -> N) (m : msg) : list bytes := for_message sha4 (m_fid m) (m_type m) (m_hash m) (lend_to m).
Definition trie_delete (T : gset bytes) (l : list bytes) : gset bytes := foldl (fun T k => T ∖ {[k]}) T l.
Definition trie_insert (T : gset bytes) (l : list bytes) : gset bytes := foldl (fun T k => T ∪ {[k]}) T l.
Definition trie_update (sha4 : bytes -> N) (T : gset bytes) (ev : sevent) : gset bytes :=
  match ev with
  | EvMerge m del => trie_delete (trie_insert T (msg_keys sha4 m)) (concat (map (msg_keys sha4) del))
  | EvPrune m | EvRevoke m => trie_delete T (msg_keys sha4 m)
  end.

(** * Specification: a consumer that keeps a set of messages and applies the events in order *)
Definition consume (S : msg -> Prop) (ev : sevent) : msg -> Prop :=
  match ev with
  | EvMerge m del => fun x => (x = m \/ S x) /\ x ∉ del
  | EvPrune m | EvRevoke m => fun x => S x /\ x <> m
  end.
Definition replayed (l : list sevent) : msg -> Prop := foldl consume (fun _ => False) l.
(** What the store holds: messages and compact states. *)
Definition stored (v : smap) (m : msg) : Prop := (exists k, s_rows v !! k = Some m) \/ (exists k, s_comp v !! k = Some m).
(** Submitted messages are ones the store can file (others never reach it, see C51, C63-C66). *)
Definition fit (D : sdef) (ops : list sop) : bool :=
  forallb (fun m => set_msg D m || ignored D m || comp_msg D m) (merged_msgs ops).
(** A log in which every event adds something absent and deletes things present, each once. *)
Fixpoint precise (S : msg -> Prop) (l : list sevent) : Prop :=
  match l with
  | [] => True
  | ev :: r => match ev with
               | EvMerge m del => ~ S m /\ NoDup del /\ (forall x, x ∈ del -> S x)
               | EvPrune m | EvRevoke m => S m
               end /\ precise (consume S ev) r
  end.
