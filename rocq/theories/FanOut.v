(** Reads that page through several stores at once: src/network/server.rs 161-320, 468-640, 1056-1072, 2380-2660,
    3298-3375 and 3555-3632.

    Simplifications.  A store is a function from page options to a page; the listings are those of Paging.v.  The JSON
    of a page token is a pair of functions given by the caller.  The order in which a [HashMap] of stores is visited is
    an argument: it is the same for all requests to a running node.  A stored gasless key record holds its message, so
    that every row gives an entry (427-463). *)
From Verif Require Export Base Codec Kv Paging.
#[local] Open Scope N_scope.

Notation pager A := (popts -> res unit (list A * option bytes)).

(** ** One token for each shard, by position
    2380-2439 [get_casts_by_parent], 2440-2500 [get_casts_by_mention], 2501-2578 [get_reactions_by_cast], 3555-3632
    [get_links_by_target]: [always] is true, the answer always has a token.  2579-2660 [get_reactions_by_target]: only
    when one of the shards has more. *)
Section Positional.
  Context {A : Type}.
  Variable json : list (option bytes) -> bytes.
  Variable unjson : bytes -> option (list (option bytes)).

  (** [unwrap_or]: a store that fails counts as empty. *)
  Definition page_or_empty (p : pager A) (po : popts) : list A * option bytes :=
    match p po with Ok x => x | Err _ | Panic => ([], None) end.
  Definition shard_tokens (n : nat) (tok : option bytes) : option (list (option bytes)) :=
    match tok with Some b => unjson b | None => Some (repeat None n) end.
  Definition fan_out (always : bool) (shards : list (pager A)) (sz : option N) (rev : bool) (tok : option bytes)
      : res unit (list A * option bytes) :=
    match shard_tokens (length shards) tok with
    | None => Err tt
    | Some ts =>
        if negb (Nat.eqb (length ts) (length shards)) then Err tt
        else
          let pages := zip_with (fun p t => page_or_empty p (POpts sz t rev)) shards ts in
          let next := pages.*2 in
          Ok (concat pages.*1,
              if always || existsb (fun t => match t with Some _ => true | None => false end) next then Some (json next) else None)
    end.
End Positional.

(** ** One cursor for each shard, by name: 225-312, 3298-3360 *)

(** 237-241 [ShardScan]. *)
Inductive scan_pos := Fresh | Resume (t : bytes) | Exhausted.
#[global] Instance scan_pos_eq_dec : EqDecision scan_pos.
Proof. solve_decision. Defined.

Section Cursors.
  Context {A : Type}.
  Variable json : list (N * scan_pos) -> bytes.
  Variable unjson : bytes -> option (list (N * scan_pos)).

  (** 281-289: a shard named twice is refused. *)
  Fixpoint add_cursors (m : gmap N scan_pos) (cs : list (N * scan_pos)) : option (gmap N scan_pos) :=
    match cs with
    | [] => Some m
    | (id, s) :: cs => match m !! id with Some _ => None | None => add_cursors (<[id := s]> m) cs end
    end.
  (** 262-297 [decode_shard_cursors]. *)
  Definition decode_cursors (tok : option bytes) (ids : list N) : option (gmap N scan_pos) :=
    match tok with
    | None | Some [] => Some (list_to_map (map (fun id => (id, Fresh)) ids))
    | Some b =>
        match unjson b with
        | None => None
        | Some cs =>
            match add_cursors ∅ cs with
            | None => None
            | Some m => if negb (Nat.eqb (size m) (length ids)) || existsb (fun id => match m !! id with Some _ => false | None => true end) ids
                        then None else Some m
            end
        end
    end.
  (** 299-312 [encode_shard_cursors]. *)
  Definition encode_cursors (cs : list (N * scan_pos)) : option bytes :=
    if forallb (fun c => bool_decide (c.2 = Exhausted)) cs then None else Some (json cs).

  (** 1056-1072 [all_shard_stores]: shards 1 to [n], an error when one is not hosted. *)
  Definition all_shards (n : nat) (hosted : gmap N (pager A)) : option (list (N * pager A)) :=
    mapM (fun i => match hosted !! N.of_nat i with Some p => Some (N.of_nat i, p) | None => None end) (seq 1 n).

  (** 171-193 [channel_page_options]. *)
  Definition channel_opts (sz : option N) (tok : option bytes) (rev : bool) : popts :=
    POpts (Some (N.min (default PAGE_SIZE_MAX sz) PAGE_SIZE_MAX)) (match tok with Some [] => None | t => t end) rev.

  (** 3310-3353: the loop over the shards. *)
  Fixpoint cursors_loop (sz : option N) (rev : bool) (m : gmap N scan_pos) (shards : list (N * pager A))
      (acc : list A) (next : list (N * scan_pos)) : res unit (list A * list (N * scan_pos)) :=
    match shards with
    | [] => Ok (acc, next)
    | (id, p) :: r =>
        let go tok :=
          match p (channel_opts sz tok rev) with
          | Ok (l, nt) => cursors_loop sz rev m r (acc ++ l) (next ++ [(id, match nt with Some t => Resume t | None => Exhausted end)])
          | Err e => Err e
          | Panic => Panic
          end in
        match m !! id with
        | Some Fresh => go None
        | Some (Resume t) => go (Some t)
        | Some Exhausted => cursors_loop sz rev m r acc (next ++ [(id, Exhausted)])
        | None => Err tt
        end
    end.
  (** 3298-3360 [get_channel_followers], with [require_nonzero_page_size] (198-205). *)
  Definition followers_page (n : nat) (hosted : gmap N (pager A)) (sz : option N) (rev : bool) (tok : option bytes)
      : res unit (list A * option bytes) :=
    if bool_decide (sz = Some 0) then Err tt
    else match all_shards n hosted with
         | None => Err tt
         | Some shards =>
             match decode_cursors tok shards.*1 with
             | None => Err tt
             | Some m =>
                 match cursors_loop sz rev m shards [] [] with
                 | Ok (l, next) => Ok (l, encode_cursors next)
                 | Err e => Err e
                 | Panic => Panic
                 end
             end
         end.
End Cursors.

(** ** The signers of an account, from two stores: 498-640 *)

(** 508-527 [UnifiedSignerPageToken]. *)
Record stoken := SToken { st_onchain : option bytes; st_gasless : option bytes; st_odone : bool; st_gdone : bool }.
Section Signers.
  Context {A : Type}.
  Variable json : stoken -> bytes.
  Variable unjson : bytes -> option stoken.

  (** 534-640 [list_signers_for_fid]; the token of the options is that of rpc_extensions.rs (empty is none). *)
  Definition list_signers (onchain gasless : pager A) (po : popts) : res unit (list A * option bytes) :=
    match (match po_token po with None => Some (SToken None None false false) | Some b => unjson b end) with
    | None => Err tt
    | Some c =>
        let first :=
          if st_odone c then Ok ([], None, true)
          else match onchain (POpts (po_size po) (st_onchain c) (po_reverse po)) with
               | Ok (l, t) => Ok (l, t, match t with None => true | Some _ => false end)
               | Err e => Err e
               | Panic => Panic
               end in
        match first with
        | Err e => Err e
        | Panic => Panic
        | Ok (l1, t1, done1) =>
            let remaining := match po_size po with Some cap => Some (cap - N.of_nat (length l1)) | None => None end in
            let scan_g := negb (st_gdone c) && match remaining with Some r => 0 <? r | None => true end in
            let second :=
              if scan_g then
                match gasless (POpts remaining (st_gasless c) (po_reverse po)) with
                | Ok (l, t) => Ok (l, t, match t with None => true | Some _ => false end)
                | Err e => Err e
                | Panic => Panic
                end
              else Ok ([], None, st_gdone c) in
            match second with
            | Err e => Err e
            | Panic => Panic
            | Ok (l2, t2, done2) =>
                Ok (l1 ++ l2, if done1 && done2 then None else Some (json (SToken t1 t2 done1 done2)))
            end
        end
    end.
End Signers.

(** A signer event: its key, whether it adds it, the key's type. *)
Record sevent := SEvent { se_key : bytes; se_add : bool; se_ktype : N }.
(** onchain_event_store.rs:1255-1277 [get_active_signer]; [index] is the event the by-key index points to. *)
Definition key_active (index : gmap bytes sevent) (key : bytes) : bool :=
  match index !! key with Some e => se_add e && (se_ktype e =? 1) | None => false end.
(** onchain_event_store.rs:1156-1184 [get_signers]: the signer events of the account whose key is active now. *)
Definition get_signers (index : gmap bytes sevent) (db : kv sevent) (start : bytes) : pager sevent :=
  fun po => list_filtered (fun _ e => Some e) (fun e => key_active index (se_key e)) db start (increment_vec_u8 start) po.
