(** Bootstrap by replication: src/bootstrap/replication/service.rs with replay_replicator_message (engine.rs:599-663) and
    the conflict-free mode of the stores (store.rs:413-440).

    A new node downloads the messages of a snapshot page by page and merges them into empty stores.  The stores run with
    [conflict_free = true]: no message is compared with what is stored.  Every page is one transaction, committed together
    with the trie nodes and the position reached (service.rs:945-1013).  The pages of one account come one after the other
    (all its trie keys are in one virtual trie shard, worked on by one task); the stores of different accounts do not touch,
    so one sequence of pages is modelled.

    Simplifications: as in Store.v, Names.v and OnChain.v; the hash and signature test of service.rs:1162-1220 passes (the
    messages come from a snapshot); hub events are not modelled. *)
From Verif Require Export Base Store Names OnChain.
#[local] Open Scope N_scope.

Section Replay.
  Variable D : sdef.

  (** store.rs:930-1017 [merge_compact_state] with [conflict_free]: the stored compact state is not looked at (l.950), the
      scan of the committed rows and the deletions take place all the same (l.979-1004). *)
  Definition merge_compact_cf (db v : smap) (scoped : bool) (m : msg) : sres sevent :=
    match d_comp_slot D m with
    | None => (v, inl EKey)
    | Some _ =>
      match compact_details m with
      | None => (v, inl ECompactBody)
      | Some (cts, targets, ty) =>
        let conflicts := compact_scan D scoped (rows_of (s_rows db) (m_fid m)) cts targets ty in
        match delete_many D v conflicts with
        | (v, inl e) => (v, inl e)
        | (v, inr _) =>
          match put_compact D v m with
          | (v, inl e) => (v, inl e)
          | (v, inr _) => (v, inr (EvMerge m conflicts))
          end
        end
      end
    end.
  (** store.rs:804-835 [merge] with 1019-1065 [merge_add] and 1092-1143 [merge_remove], [conflict_free]: neither the
      compact-state test (l.1032, 1104) nor the search for conflicts (l.1051, 1130). *)
  Definition merge_cf (db v : smap) (c : mctx) (m : msg) : sres sevent :=
    if negb (d_is_add D m) && negb (d_has_rem D && d_is_rem D m) && negb (d_has_compact D && d_is_comp D m)
    then (v, inl EInvalidType)
    else match make_ts_hash (m_ts m) (m_hash m) with
    | None => (v, inl EBadHash)
    | Some th =>
      if d_is_comp D m then merge_compact_cf db v (c_scoped c) m
      else finish D v (c_follow c) (d_is_add D m) th m []
    end.
  (** engine.rs:605-615: exactly one event is expected; a lend of 0 units yields two (storage_lend_store.rs:363-389). *)
  Definition zero_lend (m : msg) : bool :=
    (m_type m =? T_Lend) && match m_body m with BLend _ 0 => true | _ => false end.
  (** service.rs:902-963: one message; [None] = the page fails. *)
  Definition play_one (cx : msg -> mctx) (db : smap) (v : option smap) (m : msg) : option smap :=
    match v with
    | None => None
    | Some v =>
      match merge_cf db v (cx m) m with
      | (_, inl _) => None
      | (v, inr _) => if zero_lend m then None else Some v
      end
    end.
  (** service.rs:866-1013: a page, merged on the committed state and committed. *)
  Definition play_page (cx : msg -> mctx) (db : option smap) (p : list msg) : option smap :=
    match db with
    | None => None
    | Some db => foldl (play_one cx db) (Some db) p
    end.
  (** service.rs:861-1055: the pages, into an empty store. *)
  Definition play (cx : msg -> mctx) (ps : list (list msg)) : option smap :=
    foldl (play_page cx) (Some sempty) ps.
End Replay.

(** Registered names: service.rs:948-961 ignores "duplicate"; every other error fails the page.  The proofs served are those
    of the names in the trie (replicator.rs:514-740), i.e. with an owner. *)
Definition fplay_one (s : option fst_) (p : fproof) : option fst_ :=
  match s with
  | None => None
  | Some s =>
    match f_merge s p with
    | (s, None) | (s, Some FDuplicate) => Some s
    | _ => None
    end
  end.
Definition fplay (ps : list fproof) : option fst_ := foldl fplay_one (Some fs_init) ps.
