(** Message stores: src/storage/store/account/store.rs with the store definitions in cast_store.rs, link_store.rs,
    reaction_store.rs, user_data_store.rs, verification_store.rs and storage_lend_store.rs.

    State.  Each store keeps, in RocksDB, message rows, an adds index, a removes index, compact-state rows and
    secondary indexes.  They live under disjoint key prefixes (C02), so a store is modelled by five finite maps.  Every
    operation runs inside a transaction batch: point reads go to the batch first and then to the database (C11), i.e. to
    the _view_ that would be committed, while range scans ([for_each_iterator_by_prefix]) read the committed database
    only.  The model keeps both: [db] (committed) and [v] (the view).

    Simplifications: signature scheme is Ed25519 (other schemes are rejected by message validation); fids are below
    2^32 (the width stored on disk, see C02); RocksDB I/O errors do not occur; event ids are not modelled here (C01). *)
From stdpp Require Export gmap sorting.
From Verif Require Export Base Codec.
#[local] Open Scope N_scope.

(** proto [ReactionBody::target] / [CastAddBody::parent]. *)
Inductive target := TUrl (url : bytes) | TCast (fid : N) (hash : bytes).
(** proto [message_data::Body], the kinds kept in these stores. *)
Inductive body :=
  | BCastAdd (parent : option target) (mentions : list N)
  | BCastRemove (target_hash : bytes)
  | BReaction (rtype : N) (t : option target)
  | BLink (ltype : bytes) (t : option N)
  | BLinkCompact (ltype : bytes) (targets : list N)
  | BVerifAdd (address : bytes) (protocol : N)
  | BVerifRemove (address : bytes) (protocol : N)
  | BUserData (dtype : N) (value : bytes)
  | BLend (to units : N)
  | BOther.
(** proto [Message] / [MessageData]. *)
Record msg := Msg { m_type : N; m_fid : N; m_ts : N; m_hash : bytes; m_signer : bytes; m_body : body }.

#[export] Instance target_eq_dec : EqDecision target.
Proof. solve_decision. Defined.
#[export] Instance body_eq_dec : EqDecision body.
Proof. solve_decision. Defined.
#[export] Instance msg_eq_dec : EqDecision msg.
Proof. solve_decision. Defined.

(** One store's maps.  Rows are keyed by (fid, ts_hash); adds, removes and compact states by (fid, slot), where the slot
    is the rest of the database key after the user key and the index postfix. *)
Notation rkey := (N * bytes)%type.
Record smap := SMap {
  s_rows : gmap rkey msg;
  s_adds : gmap rkey bytes;
  s_rems : gmap rkey bytes;
  s_comp : gmap rkey msg;
  s_idx : gmap bytes bytes }.
Definition sempty : smap := SMap ∅ ∅ ∅ ∅ ∅.

Inductive serr := EInvalidType | EBadHash | EKey | EDuplicate | EConflictRemove | EConflictAdd | EIndex | EPrunable
  | ENewerCompact | ENotListed | ECompactBody | EUnsupported.
#[export] Instance serr_eq_dec : EqDecision serr.
Proof. solve_decision. Defined.
Inductive sevent := EvMerge (m : msg) (deleted : list msg) | EvPrune (m : msg) | EvRevoke (m : msg).
Notation sres A := (smap * (serr + A))%type.

(** Writes. *)
Definition put_row (v : smap) (k : rkey) (m : msg) : smap :=
  SMap (<[k := m]> (s_rows v)) (s_adds v) (s_rems v) (s_comp v) (s_idx v).
Definition del_row (v : smap) (k : rkey) : smap :=
  SMap (delete k (s_rows v)) (s_adds v) (s_rems v) (s_comp v) (s_idx v).
Definition put_addk (v : smap) (k : rkey) (t : bytes) : smap :=
  SMap (s_rows v) (<[k := t]> (s_adds v)) (s_rems v) (s_comp v) (s_idx v).
Definition del_addk (v : smap) (k : rkey) : smap :=
  SMap (s_rows v) (delete k (s_adds v)) (s_rems v) (s_comp v) (s_idx v).
Definition put_remk (v : smap) (k : rkey) (t : bytes) : smap :=
  SMap (s_rows v) (s_adds v) (<[k := t]> (s_rems v)) (s_comp v) (s_idx v).
Definition del_remk (v : smap) (k : rkey) : smap :=
  SMap (s_rows v) (s_adds v) (delete k (s_rems v)) (s_comp v) (s_idx v).
Definition put_comp (v : smap) (k : rkey) (m : msg) : smap :=
  SMap (s_rows v) (s_adds v) (s_rems v) (<[k := m]> (s_comp v)) (s_idx v).
Definition del_comp (v : smap) (k : rkey) : smap :=
  SMap (s_rows v) (s_adds v) (s_rems v) (delete k (s_comp v)) (s_idx v).
Definition put_idx (v : smap) (l : list (bytes * bytes)) : smap :=
  SMap (s_rows v) (s_adds v) (s_rems v) (s_comp v) (foldr (fun p i => <[p.1 := p.2]> i) (s_idx v) l).
Definition del_idx (v : smap) (l : list bytes) : smap :=
  SMap (s_rows v) (s_adds v) (s_rems v) (s_comp v) (foldr (fun k i => delete k i) (s_idx v) l).

(** store.rs:123-400 [trait StoreDef], the overridable parts.  [d_slot] models both make_add_key and make_remove_key (they build the same
    suffix in every store; [None] is the error); [d_build] models build_secondary_indices followed by
    build_follow_index (gate given), [d_unbuild] delete_secondary_indices followed by delete_follow_index. *)
Record sdef := SDef {
  d_add_type : N;
  d_rem_type : N; (* 0 = removes not supported, store.rs:144-146 *)
  d_has_compact : bool;
  d_is_add : msg -> bool;
  d_is_rem : msg -> bool;
  d_is_comp : msg -> bool;
  d_slot : msg -> option bytes;
  d_comp_slot : msg -> option bytes;
  d_cmp : N -> bytes -> N -> bytes -> comparison;
  d_build : bool -> msg -> option (list (bytes * bytes));
  d_unbuild : msg -> option (list bytes) }.

Definition d_has_rem (D : sdef) : bool := negb (d_rem_type D =? 0).

(** store.rs:358-383 [message_compare] (default): timestamp, then removes over adds, then hash. *)
Definition default_cmp (add_ty rem_ty : N) (a_ty : N) (a : bytes) (b_ty : N) (b : bytes) : comparison :=
  match lex (take 4 a) (take 4 b) with
  | Eq =>
    if (a_ty =? rem_ty) && (b_ty =? add_ty) then Gt
    else if (a_ty =? add_ty) && (b_ty =? rem_ty) then Lt
    else lex (drop 4 a) (drop 4 b)
  | c => c
  end.
(** cast_store.rs:99-124 [message_compare]: removes over adds, then timestamp, then hash. *)
Definition cast_cmp (a_ty : N) (a : bytes) (b_ty : N) (b : bytes) : comparison :=
  if (a_ty =? 2) && (b_ty =? 1) then Gt
  else if (a_ty =? 1) && (b_ty =? 2) then Lt
  else match lex (take 4 a) (take 4 b) with Eq => lex (drop 4 a) (drop 4 b) | c => c end.

Definition row_le (a b : bytes * msg) : Prop := ble a.1 b.1 = true.
#[export] Instance row_le_dec a b : Decision (row_le a b).
Proof. unfold row_le. apply _. Defined.

Section Store.
  Variable D : sdef.

  (** message.rs:354-369 [put_message_transaction], 371-386 [delete_message_transaction]. *)
  Definition put_message (v : smap) (m : msg) : sres unit :=
    match make_ts_hash (m_ts m) (m_hash m) with
    | None => (v, inl EBadHash)
    | Some th => (put_row v (m_fid m, th) m, inr tt)
    end.
  Definition delete_message (v : smap) (m : msg) : sres unit :=
    match make_ts_hash (m_ts m) (m_hash m) with
    | None => (v, inl EBadHash)
    | Some th => (del_row v (m_fid m, th), inr tt)
    end.

  (** store.rs:635-655 [put_add_transaction]. *)
  Definition put_add (v : smap) (gate : bool) (th : bytes) (m : msg) : sres unit :=
    match put_message v m with
    | (v, inl e) => (v, inl e)
    | (v, inr _) =>
      match d_slot D m with
      | None => (v, inl EKey)
      | Some s =>
        let v := put_addk v (m_fid m, s) th in
        match d_build D gate m with
        | None => (v, inl EIndex)
        | Some l => (put_idx v l, inr tt)
        end
      end
    end.
  (** store.rs:675-690 [delete_add_transaction]. *)
  Definition delete_add (v : smap) (m : msg) : sres unit :=
    match d_unbuild D m with
    | None => (v, inl EIndex)
    | Some l =>
      let v := del_idx v l in
      match d_slot D m with
      | None => (v, inl EKey)
      | Some s => delete_message (del_addk v (m_fid m, s)) m
      end
    end.
  (** store.rs:692-711 [put_remove_transaction]. *)
  Definition put_remove (v : smap) (th : bytes) (m : msg) : sres unit :=
    if negb (d_has_rem D) then (v, inl EUnsupported)
    else match put_message v m with
    | (v, inl e) => (v, inl e)
    | (v, inr _) =>
      match d_slot D m with
      | None => (v, inl EKey)
      | Some s => (put_remk v (m_fid m, s) th, inr tt)
      end
    end.
  (** store.rs:713-729 [delete_remove_transaction]. *)
  Definition delete_remove (v : smap) (m : msg) : sres unit :=
    if negb (d_has_rem D) then (v, inl EUnsupported)
    else match d_slot D m with
    | None => (v, inl EKey)
    | Some s => delete_message (del_remk v (m_fid m, s)) m
    end.
  (** store.rs:657-673 [delete_compact_state_transaction]. *)
  Definition delete_compact (v : smap) (m : msg) : sres unit :=
    if negb (d_has_compact D) then (v, inl EUnsupported)
    else match d_comp_slot D m with
    | None => (v, inl EKey)
    | Some s => (del_comp v (m_fid m, s), inr tt)
    end.
  (** store.rs:617-633 [put_add_compact_state_transaction]. *)
  Definition put_compact (v : smap) (m : msg) : sres unit :=
    if negb (d_has_compact D) then (v, inl EUnsupported)
    else match d_comp_slot D m with
    | None => (v, inl EKey)
    | Some s => (put_comp v (m_fid m, s) m, inr tt)
    end.

  (** store.rs:731-752 [delete_many_transaction]. *)
  Definition delete_one (v : smap) (m : msg) : sres unit :=
    let r :=
      if d_is_comp D m then delete_compact v m
      else if d_is_add D m then
        match make_ts_hash (m_ts m) (m_hash m) with
        | None => (v, inl EBadHash)
        | Some _ => delete_add v m
        end
      else (v, inr tt) in
    match r with
    | (v, inl e) => (v, inl e)
    | (v, inr _) => if d_has_rem D && d_is_rem D m then delete_remove v m else (v, inr tt)
    end.
  Fixpoint delete_many (v : smap) (ms : list msg) : sres unit :=
    match ms with
    | [] => (v, inr tt)
    | m :: r =>
      match delete_one v m with
      | (v, inl e) => (v, inl e)
      | (v, inr _) => delete_many v r
      end
    end.

  (** store.rs:258-356 [get_merge_conflicts]. *)
  Definition conflict_at (v : smap) (ptr : option bytes) (ty : N) (e : serr) (m : msg) (th : bytes)
    : serr + list msg :=
    match ptr with
    | None => inr []
    | Some t =>
      match d_cmp D ty t (m_type m) th with
      | Gt => inl e
      | Eq => inl EDuplicate
      | Lt => inr (match s_rows v !! (m_fid m, t) with Some x => [x] | None => [] end)
      end
    end.
  Definition get_merge_conflicts (v : smap) (m : msg) (th : bytes) : serr + list msg :=
    match d_slot D m with
    | None => inl EKey
    | Some s =>
      match (if d_has_rem D
             then conflict_at v (s_rems v !! (m_fid m, s)) (d_rem_type D) EConflictRemove m th
             else inr []) with
      | inl e => inl e
      | inr c1 =>
        match conflict_at v (s_adds v !! (m_fid m, s)) (d_add_type D) EConflictAdd m th with
        | inl e => inl e
        | inr c2 => inr (c1 ++ c2)
        end
      end
    end.
  (** store.rs:785-802 [get_existing_merge_conflicts] with 754-780 [resolve_selector_message]. *)
  Definition existing_at (v : smap) (f : N) (ptr : option bytes) : list msg :=
    match ptr with
    | None => []
    | Some t => match s_rows v !! (f, t) with Some x => [x] | None => [] end
    end.
  Definition get_existing_conflicts (v : smap) (m : msg) : serr + list msg :=
    match d_slot D m with
    | None => inl EKey
    | Some s => inr ((if d_has_rem D then existing_at v (m_fid m) (s_rems v !! (m_fid m, s)) else [])
                     ++ existing_at v (m_fid m) (s_adds v !! (m_fid m, s)))
    end.

  (** link_store.rs:595-617 [read_compact_state_details]: timestamp, targets, type. *)
  Definition compact_details (m : msg) : option (N * list N * bytes) :=
    match m_body m with BLinkCompact ty ts => Some (m_ts m, ts, ty) | _ => None end.
  (** link_store.rs:619-654 [is_compaction_conflict]; [scoped] = ProtocolFeature::BlockLinks is enabled. *)
  Definition is_compaction_conflict (scoped : bool) (x : msg) (targets : list N) (ty : bytes) : bool :=
    match m_body x with
    | BLink lty t =>
      if scoped && negb (bool_decide (lty = ty)) then false
      else if d_is_rem D x then true
      else if d_is_add D x then
        match t with Some tf => negb (bool_decide (tf ∈ targets)) | None => false end
      else false
    | _ => false
    end.
  (** link_store.rs:656-680 [compact_state_add_conflict]. *)
  Definition compact_add_conflict (m : msg) (cts : N) (targets : list N) : bool :=
    match m_body m with
    | BLink _ (Some tf) => (m_ts m <? cts) && negb (bool_decide (tf ∈ targets))
    | _ => false
    end.

  (** Committed rows of an account in key order: the range scan by the account's message prefix. *)
  Definition rows_of (rows : gmap rkey msg) (f : N) : list (bytes * msg) :=
    merge_sort row_le (omap (fun p => if p.1.1 =? f then Some (p.1.2, p.2) else None) (map_to_list rows)).

  (** store.rs:979-1001: the scan of [merge_compact_state] stops at the first newer message. *)
  Fixpoint compact_scan (scoped : bool) (l : list (bytes * msg)) (cts : N) (targets : list N) (ty : bytes) : list msg :=
    match l with
    | [] => []
    | (_, x) :: r =>
      if cts <? m_ts x then []
      else if is_compaction_conflict scoped x targets ty then x :: compact_scan scoped r cts targets ty
      else compact_scan scoped r cts targets ty
    end.

  (** store.rs:930-1017 [merge_compact_state]. *)
  Definition merge_compact (db v : smap) (scoped : bool) (m : msg) : sres sevent :=
    match d_comp_slot D m with
    | None => (v, inl EKey)
    | Some s =>
      let older := match s_comp v !! (m_fid m, s) with
                   | None => inr []
                   | Some x => if m_ts x <? m_ts m then inr [x] else inl ENewerCompact
                   end in
      match older with
      | inl e => (v, inl e)
      | inr c1 =>
        match compact_details m with
        | None => (v, inl ECompactBody)
        | Some (cts, targets, ty) =>
          let conflicts := c1 ++ compact_scan scoped (rows_of (s_rows db) (m_fid m)) cts targets ty in
          match delete_many v conflicts with
          | (v, inl e) => (v, inl e)
          | (v, inr _) =>
            match put_compact v m with
            | (v, inl e) => (v, inl e)
            | (v, inr _) => (v, inr (EvMerge m conflicts))
            end
          end
        end
      end
    end.

  (** store.rs:1031-1048 and 1103-1128: the compact-state test of [merge_add] and [merge_remove]. *)
  Definition compact_check (v : smap) (is_add : bool) (m : msg) : option serr :=
    if d_has_compact D then
      match d_comp_slot D m with
      | None => Some EKey
      | Some s =>
        match s_comp v !! (m_fid m, s) with
        | None => None
        | Some c =>
          match compact_details c with
          | None => Some ECompactBody
          | Some (cts, targets, _) =>
            if is_add then (if compact_add_conflict m cts targets then Some ENotListed else None)
            else (if m_ts m <? cts then Some EPrunable else None)
          end
        end
      end
    else None.

  (** store.rs:1067-1090 [merge_add_with_conflicts], 1145-1167 [merge_remove_with_conflicts]. *)
  Definition finish (v : smap) (gate is_add : bool) (th : bytes) (m : msg) (conflicts : list msg) : sres sevent :=
    match (if is_add then put_add v gate th m else put_remove v th m) with
    | (v, inl e) => (v, inl e)
    | (v, inr _) => (v, inr (EvMerge m conflicts))
    end.

  (** store.rs:1019-1065 [merge_add], 1092-1143 [merge_remove]. *)
  Definition merge_set (v : smap) (gate is_add : bool) (th : bytes) (m : msg) : sres sevent :=
    match compact_check v is_add m with
    | Some e => (v, inl e)
    | None =>
      match get_merge_conflicts v m th with
      | inl e => (v, inl e)
      | inr conflicts =>
        match delete_many v conflicts with
        | (v, inl e) => (v, inl e)
        | (v, inr _) => finish v gate is_add th m conflicts
        end
      end
    end.

  (** The version-dependent switches of a merge: BlockLinks (type-scoped compaction) and ChannelFollows (follow index),
      both derived from the message's own timestamp (engine.rs:1800-1805, store.rs:77-83). *)
  Record mctx := MCtx { c_scoped : bool; c_follow : bool }.

  (** store.rs:804-835 [merge]. *)
  Definition merge (db v : smap) (c : mctx) (m : msg) : sres sevent :=
    if negb (d_is_add D m) && negb (d_has_rem D && d_is_rem D m) && negb (d_has_compact D && d_is_comp D m)
    then (v, inl EInvalidType)
    else match make_ts_hash (m_ts m) (m_hash m) with
    | None => (v, inl EBadHash)
    | Some th =>
      if d_is_comp D m then merge_compact db v (c_scoped c) m
      else if d_is_add D m then merge_set v (c_follow c) true th m
      else merge_set v (c_follow c) false th m
    end.

  (** store.rs:843-892 [merge_force_override]. *)
  Definition merge_force_override (v : smap) (c : mctx) (m : msg) : sres sevent :=
    if d_has_compact D then (v, inl EUnsupported)
    else if negb (d_is_add D m) && negb (d_has_rem D && d_is_rem D m) then (v, inl EInvalidType)
    else match make_ts_hash (m_ts m) (m_hash m) with
    | None => (v, inl EBadHash)
    | Some th =>
      match get_existing_conflicts v m with
      | inl e => (v, inl e)
      | inr l =>
        let conflicts := List.filter (fun x => negb (bool_decide (m_hash x = m_hash m))) l in
        match delete_many v conflicts with
        | (v, inl e) => (v, inl e)
        | (v, inr _) => finish v (c_follow c) (d_is_add D m) th m conflicts
        end
      end
    end.

  (** store.rs:894-928 [revoke]. *)
  Definition revoke (v : smap) (m : msg) : sres sevent :=
    match make_ts_hash (m_ts m) (m_hash m) with
    | None => (v, inl EBadHash)
    | Some _ =>
      match (if d_is_comp D m then delete_compact v m
             else if d_is_add D m then delete_add v m
             else if d_has_rem D && d_is_rem D m then delete_remove v m
             else (v, inl EInvalidType)) with
      | (v, inl e) => (v, inl e)
      | (v, inr _) => (v, inr (EvRevoke m))
      end
    end.

  (** store.rs:1169-1200 [prune_message]. *)
  Definition prune_message (v : smap) (m : msg) : sres (option sevent) :=
    if d_has_compact D && d_is_comp D m then (v, inr None)
    else
      match (if d_is_add D m then
               match make_ts_hash (m_ts m) (m_hash m) with
               | None => (v, inl EBadHash)
               | Some _ => delete_add v m
               end
             else if d_has_rem D && d_is_rem D m then delete_remove v m
             else (v, inr tt)) with
      | (v, inl e) => (v, inl e)
      | (v, inr _) => (v, inr (Some (EvPrune m)))
      end.

  (** store.rs:1223-1244: the scan of [prune_messages].  On an error the events so far are dropped (the [?]). *)
  Fixpoint prune_loop (v : smap) (l : list (bytes * msg)) (count max : N) (evs : list sevent)
    : sres (list sevent) :=
    match l with
    | [] => (v, inr evs)
    | (_, m) :: r =>
      if count <=? max then (v, inr evs)
      else match prune_message v m with
      | (v, inl e) => (v, inl e)
      | (v, inr None) => prune_loop v r count max evs
      | (v, inr (Some ev)) => prune_loop v r (count - 1) max (evs ++ [ev])
      end
    end.
  (** store.rs:1202-1247 [prune_messages]. *)
  Definition prune_messages (db v : smap) (f count max : N) : sres (list sevent) :=
    if count <=? max then (v, inr [])
    else prune_loop v (rows_of (s_rows db) f) count max [].

  (** store.rs:1249-1292 [revoke_messages_by_signer]; errors of single messages are skipped. *)
  Fixpoint revoke_loop (v : smap) (l : list (bytes * msg)) (key : bytes) (evs : list sevent) : smap * list sevent :=
    match l with
    | [] => (v, evs)
    | (_, m) :: r =>
      if bool_decide (m_signer m = key) then
        match revoke v m with
        | (v, inl _) => revoke_loop v r key evs
        | (v, inr ev) => revoke_loop v r key (evs ++ [ev])
        end
      else revoke_loop v r key evs
    end.
  Definition revoke_by_signer (db v : smap) (f : N) (key : bytes) : smap * list sevent :=
    revoke_loop v (rows_of (s_rows db) f) key [].

  (** store.rs:500-531 [get_add], 533-571 [get_remove]: slot lookup, then the row. *)
  Definition get_add (v : smap) (f : N) (s : bytes) : option msg :=
    match s_adds v !! (f, s) with Some t => s_rows v !! (f, t) | None => None end.
  Definition get_remove (v : smap) (f : N) (s : bytes) : option msg :=
    match s_rems v !! (f, s) with Some t => s_rows v !! (f, t) | None => None end.
End Store.

(** * Store definitions *)

(** proto MessageType values. *)
Definition T_CastAdd : N := 1. Definition T_CastRemove : N := 2.
Definition T_ReactionAdd : N := 3. Definition T_ReactionRemove : N := 4.
Definition T_LinkAdd : N := 5. Definition T_LinkRemove : N := 6.
Definition T_VerifAdd : N := 7. Definition T_VerifRemove : N := 8.
Definition T_UserData : N := 11. Definition T_LinkCompact : N := 14. Definition T_Lend : N := 15.

Definition tsh (m : msg) : bytes := be 4 (m_ts m) ++ m_hash m.
(** message.rs:175-181 [make_cast_id_key]; cast_store.rs:277-282 [make_parent_key]; reaction_store.rs:408-413
    [make_target_key]. *)
Definition target_key (t : target) : bytes :=
  match t with TUrl u => u | TCast f h => make_fid_key f ++ h end.
Definition fid_suffix (f : N) : bytes := if 0 <? f then make_fid_key f else [].

(** cast_store.rs:163-200: the add key of a cast is its hash, of a removal its target; make_cast_adds_key (l.316-326)
    drops a hash that is not 20 bytes long. *)
Definition hash20 (h : bytes) : bytes := if Nat.eqb (length h) 20 then h else [].
Definition cast_slot (m : msg) : option bytes :=
  match m_body m with
  | BCastAdd _ _ => Some (hash20 (m_hash m))
  | BCastRemove t => Some (hash20 t)
  | _ => None
  end.
(** cast_store.rs:225-275 by-parent key, 284-312 and 330-346 by-mention keys; 125-161 build/delete. *)
Definition cast_index_keys (m : msg) : list bytes :=
  match m_body m with
  | BCastAdd p ms =>
    match p with Some t => [4 :: target_key t ++ tsh m ++ fid_suffix (m_fid m)] | None => [] end
    ++ map (fun f => 5 :: make_fid_key f ++ tsh m ++ fid_suffix (m_fid m)) ms
  | _ => []
  end.
Definition cast_def : sdef := {|
  d_add_type := T_CastAdd; d_rem_type := T_CastRemove; d_has_compact := false;
  d_is_add m := m_type m =? T_CastAdd;
  d_is_rem m := m_type m =? T_CastRemove;
  d_is_comp _ := false;
  d_slot := cast_slot;
  d_comp_slot _ := None;
  d_cmp := cast_cmp;
  d_build _ m := Some (map (fun k => (k, [1])) (cast_index_keys m));
  d_unbuild m := Some (cast_index_keys m) |}.

(** link_store.rs:225-238, 271-274: the type, zero-padded or cut to 8 bytes. *)
Definition pad8 (t : bytes) : bytes := take 8 (t ++ repeat 0 8).
(** link_store.rs:247-281 [link_add_key], 290-325 [link_remove_key]. *)
Definition link_slot (m : msg) : option bytes :=
  match m_body m with
  | BLink ty t =>
    if (match t with Some _ => true | None => false end) && Nat.eqb (length ty) 0 then None
    else if Nat.ltb 8 (length ty) then None
    else Some (pad8 ty ++ match t with Some f => make_fid_key f | None => [] end)
  | _ => None
  end.
(** link_store.rs:225-238 and 544-565 [make_compact_state_add_key]. *)
Definition link_comp_slot (m : msg) : option bytes :=
  match m_body m with
  | BLink ty _ => Some (pad8 ty)
  | BLinkCompact ty _ => Some (pad8 ty)
  | _ => None
  end.
(** link_store.rs:366-406 [links_by_target_key], 408-437 [secondary_index_key]. *)
Definition link_index (m : msg) : option (bytes * bytes) :=
  match m_body m with
  | BLink ty (Some f) =>
    if m_fid m =? 0 then None
    else Some (6 :: make_fid_key f ++ tsh m ++ make_fid_key (m_fid m), ty)
  | _ => None
  end.
Definition link_def : sdef := {|
  d_add_type := T_LinkAdd; d_rem_type := T_LinkRemove; d_has_compact := true;
  d_is_add m := m_type m =? T_LinkAdd;
  d_is_rem m := m_type m =? T_LinkRemove;
  d_is_comp m := m_type m =? T_LinkCompact;
  d_slot := link_slot;
  d_comp_slot := link_comp_slot;
  d_cmp := default_cmp T_LinkAdd T_LinkRemove;
  d_build _ m := match link_index m with Some p => Some [p] | None => None end;
  d_unbuild m := match link_index m with Some p => Some [p.1] | None => None end |}.

(** reaction_store.rs:415-466 [make_reaction_adds_key], [make_reaction_removes_key]. *)
Definition reaction_slot (m : msg) : option bytes :=
  match m_body m with
  | BReaction ty t =>
    if (match t with Some _ => true | None => false end) && (ty =? 0) then None
    else Some ((if 0 <? ty then [ty mod 256] else []) ++ match t with Some t => target_key t | None => [] end)
  | _ => None
  end.
(** reaction_store.rs:362-406 [secondary_index_key], [make_reactions_by_target_key]. *)
Definition reaction_index (m : msg) : option (bytes * bytes) :=
  match m_body m with
  | BReaction ty (Some t) => Some (7 :: target_key t ++ tsh m ++ fid_suffix (m_fid m), [ty mod 256])
  | _ => None
  end.
(** reaction_store.rs:249-262 [follow_channel_id]; the URI parser (core/channel_uri.rs) is the parameter [chan], [None]
    for a network without registrar. *)
Definition follow_channel (chan : bytes -> option bytes) (m : msg) : option bytes :=
  match m_body m with
  | BReaction 1 (Some (TUrl u)) => chan u
  | _ => None
  end.
(** reaction_store.rs:270-299: follow keys in both directions. *)
Definition follow_keys (f : N) (c : bytes) : list bytes :=
  [25 :: 1 :: make_fid_key f ++ c; 25 :: 2 :: c ++ make_fid_key f].
Definition reaction_def (chan : bytes -> option bytes) : sdef := {|
  d_add_type := T_ReactionAdd; d_rem_type := T_ReactionRemove; d_has_compact := false;
  d_is_add m := m_type m =? T_ReactionAdd;
  d_is_rem m := m_type m =? T_ReactionRemove;
  d_is_comp _ := false;
  d_slot := reaction_slot;
  d_comp_slot _ := None;
  d_cmp := default_cmp T_ReactionAdd T_ReactionRemove;
  d_build gate m :=
    match reaction_index m with
    | None => None
    | Some p =>
      Some (p :: (if gate then
                    match follow_channel chan m with
                    | Some c => map (fun k => (k, be 4 (m_ts m))) (follow_keys (m_fid m) c)
                    | None => []
                    end
                  else []))
    end;
  d_unbuild m :=
    match reaction_index m with
    | None => None
    | Some p =>
      Some (p.1 :: match follow_channel chan m with Some c => follow_keys (m_fid m) c | None => [] end)
    end |}.

(** user_data_store.rs:36-147. *)
Definition user_data_slot (m : msg) : option bytes :=
  match m_body m with
  | BUserData ty _ => Some (if 0 <? ty then [ty mod 256] else [])
  | _ => None
  end.
Definition user_data_def : sdef := {|
  d_add_type := T_UserData; d_rem_type := 0; d_has_compact := false;
  d_is_add m := m_type m =? T_UserData;
  d_is_rem _ := false;
  d_is_comp _ := false;
  d_slot := user_data_slot;
  d_comp_slot _ := None;
  d_cmp := default_cmp T_UserData 0;
  d_build _ _ := Some [];
  d_unbuild _ := Some [] |}.

(** verification_store.rs:30-260: slot = address; index address ++ fid -> ts_hash. *)
Definition verif_slot (m : msg) : option bytes :=
  match m_body m with BVerifAdd a _ => Some a | BVerifRemove a _ => Some a | _ => None end.
Definition verif_index (m : msg) : option (bytes * bytes) :=
  match m_body m with
  | BVerifAdd a _ => if Nat.eqb (length a) 0 then None else Some (14 :: a ++ make_fid_key (m_fid m), tsh m)
  | _ => None
  end.
Definition verif_def : sdef := {|
  d_add_type := T_VerifAdd; d_rem_type := T_VerifRemove; d_has_compact := false;
  d_is_add m := (m_type m =? T_VerifAdd) && match m_body m with BVerifAdd _ p => (p =? 0) || (p =? 1) | _ => false end;
  d_is_rem m :=
    (m_type m =? T_VerifRemove) && match m_body m with BVerifRemove _ p => (p =? 0) || (p =? 1) | _ => false end;
  d_is_comp _ := false;
  d_slot := verif_slot;
  d_comp_slot _ := None;
  d_cmp := default_cmp T_VerifAdd T_VerifRemove;
  d_build _ m := match verif_index m with Some p => Some [p] | None => None end;
  d_unbuild m := match verif_index m with Some p => Some [p.1] | None => None end |}.

(** storage_lend_store.rs:35-190: slot = borrower; index borrower ++ lender. *)
Definition lend_slot (m : msg) : option bytes :=
  match m_body m with BLend to _ => Some (make_fid_key to) | _ => None end.
Definition lend_index (m : msg) : list bytes :=
  match m_body m with BLend to _ => [22 :: make_fid_key to ++ make_fid_key (m_fid m)] | _ => [] end.
Definition lend_def : sdef := {|
  d_add_type := T_Lend; d_rem_type := 0; d_has_compact := false;
  d_is_add m := m_type m =? T_Lend;
  d_is_rem _ := false;
  d_is_comp _ := false;
  d_slot := lend_slot;
  d_comp_slot _ := None;
  d_cmp := default_cmp T_Lend 0;
  d_build _ m := Some (map (fun k => (k, [1])) (lend_index m));
  d_unbuild m := Some (lend_index m) |}.
(** storage_lend_store.rs:363-389 [StorageLendStore::merge]: a lend of 0 units is merged and pruned at once. *)
Definition lend_merge (db v : smap) (c : mctx) (m : msg) : sres (list sevent) :=
  match merge lend_def db v c m with
  | (v, inl e) => (v, inl e)
  | (v, inr ev) =>
    match m_body m with
    | BLend _ 0 =>
      match prune_message lend_def v m with
      | (v, inr (Some ev2)) => (v, inr [ev; ev2])
      | (v, _) => (v, inr [ev])
      end
    | _ => (v, inr [ev])
    end
  end.

(** * Histories *)

(** One store inside a node: the committed maps and the view of the open transaction.  The engine commits or drops the
    transaction at the end of a block (engine.rs:2463-2468). *)
Inductive sop := OMerge (m : msg) | OPrune (f count mx : N) | ORevoke (f : N) (key : bytes) | OCommit | ORollback.
Definition sstep (D : sdef) (cx : msg -> mctx) (st : smap * smap) (o : sop) : smap * smap :=
  let '(db, v) := st in
  match o with
  | OMerge m => (db, (merge D db v (cx m) m).1)
  | OPrune f count mx => (db, (prune_messages D db v f count mx).1)
  | ORevoke f key => (db, (revoke_by_signer D db v f key).1)
  | OCommit => (v, v)
  | ORollback => (db, db)
  end.
Definition srun (D : sdef) (cx : msg -> mctx) (st : smap * smap) (ops : list sop) : smap * smap :=
  foldl (sstep D cx) st ops.
(** Messages submitted in a history. *)
Definition merged_msgs (ops : list sop) : list msg :=
  omap (fun o => match o with OMerge m => Some m | _ => None end) ops.
