(** The events API of the RPC server: src/network/server.rs 1374-1454 (shared), 1874-2004 [subscribe], 2040-2106
    [get_events], over the stored events (event.rs:170-209, modelled in [Paging]). *)
From Verif Require Import Base Codec Kv Paging.
#[local] Open Scope N_scope.

(** A stored [HubEvent]: [he_compact] says that it merges a compact state, [he_deleted] stands for its deleted messages;
    the rest of the body is opaque and determined by the id. *)
Record hev := HEv { he_id : N; he_type : N; he_compact : bool; he_deleted : list N; he_ts : N; he_block : N; he_shard : N }.

(** server.rs:1374-1407 [rewrite_hub_event]. *)
Definition rewrite_hub_event (e : hev) (shard : N) (ts : option N) : hev :=
  HEv (he_id e) (he_type e) (he_compact e) (if he_compact e then [] else he_deleted e) (default (he_ts e) ts)
    (extract_height_and_seq (he_id e)).1 shard.

(** [get_chunk_by_height] of a shard store: block number and timestamp of the header found at a height ([None]: no
    such chunk, or an error, server.rs:1437). *)
Definition chunks := N -> option (N * N).

(** server.rs:1418-1446: the loop over the events of a page, remembering the last chunk looked up. *)
Fixpoint annotate (cs : chunks) (shard : N) (last : option (N * N)) (l : list hev) : list hev * option (N * N) :=
  match l with
  | [] => ([], last)
  | e :: r =>
      let b := (extract_height_and_seq (he_id e)).1 in
      let last := if match last with Some c => negb (b =? c.1) | None => true end then cs b else last in
      let '(r', last') := annotate cs shard last r in
      (rewrite_hub_event e shard (option_map snd last) :: r', last')
  end.

Record shardst := Sh { sh_id : N; sh_db : kv hev; sh_chunks : chunks }.

(** server.rs:1408-1454 [get_events_from_store] (the rows of the store are events, so the read does not fail). *)
Definition get_events_from_store (s : shardst) (start : N) (stop : option N) (po : popts) (last : option (N * N))
    : res unit (list hev * option bytes * option (N * N)) :=
  match get_events (fun _ e => Some e) (sh_db s) start stop po with
  | Ok (l, nt) => let '(l', last') := annotate (sh_chunks s) (sh_id s) last l in Ok (l', nt, last')
  | _ => Panic
  end.

(** ** [get_events] (server.rs:2040-2106) *)

(** The page token of a request: none, bytes that are not a JSON list of optional byte strings, or such a list.
    The encoding of the list as JSON is not modelled. *)
Inductive tokreq := TNone | TBad | TList (l : list (option bytes)).
Record ereq := EReq { rq_start : N; rq_stop : option N; rq_shard : option N; rq_size : option N; rq_token : tokreq; rq_rev : bool }.
Inductive eerr := EShard | EToken | ETokenLen.
(** The configured number of shards and the stores in the iteration order of the hash map (fixed while the server
    runs, different after a restart). *)
Record esrv := ESrv { sv_num : N; sv_stores : list shardst }.

(** The stores in use and the number of tokens expected (server.rs:2046-2063). *)
Definition sel_stores (sv : esrv) (shard : option N) : res eerr (N * list shardst) :=
  match shard with
  | None => Ok (sv_num sv, sv_stores sv)
  | Some i =>
      match list_find (fun s => sh_id s = i) (sv_stores sv) with
      | Some (_, s) => Ok (1, [s])
      | None => Err EShard
      end
  end.

(** server.rs:2077-2096: one page per store, paired with its token. *)
Fixpoint shard_pages (rq : ereq) (l : list shardst) (toks : list (option bytes)) : res eerr (list (list hev * option bytes)) :=
  match l, toks with
  | s :: l', t :: toks' =>
      match get_events_from_store s (rq_start rq) (rq_stop rq) (POpts (rq_size rq) t (rq_rev rq)) None with
      | Ok (evs, nt, _) =>
          match shard_pages rq l' toks' with
          | Ok r => Ok ((evs, nt) :: r)
          | Err e => Err e
          | Panic => Panic
          end
      | _ => Panic
      end
  | _, _ => Ok []
  end.

Definition api_get_events (sv : esrv) (rq : ereq) : res eerr (list hev * option (list (option bytes))) :=
  match sel_stores sv (rq_shard rq) with
  | Ok (num, stores) =>
      match (match rq_token rq with
             | TNone => Some (repeat None (N.to_nat num))
             | TBad => None
             | TList l => Some l
             end) with
      | None => Err EToken
      | Some toks =>
          if negb (N.of_nat (length toks) =? num) then Err ETokenLen
          else match shard_pages rq stores toks with
               | Ok pages => Ok (concat (map fst pages), Some (map snd pages))
               | Err e => Err e
               | Panic => Panic
               end
      end
  | Err e => Err e
  | Panic => Panic
  end.

(** The [k]-th response to a client that sends back the token of each response. *)
Definition with_token (rq : ereq) (t : tokreq) : ereq := EReq (rq_start rq) (rq_stop rq) (rq_shard rq) (rq_size rq) t (rq_rev rq).
Fixpoint api_round (sv : esrv) (rq : ereq) (k : nat) : res eerr (list hev * option (list (option bytes))) :=
  match k with
  | O => api_get_events sv rq
  | S k =>
      match api_round sv rq k with
      | Ok (_, Some t) => api_get_events sv (with_token rq (TList t))
      | x => x
      end
  end.

(** ** [subscribe] (server.rs:1874-2004)
    One subscriber of some shards of a running node.  A block's events become visible in the database at once
    (engine.rs:2463), then each is sent to the broadcast channel (engine.rs:2464-2467). *)

Record bst := BSt {
  b_log : list hev;            (* committed events, in order *)
  b_sent : nat;                (* how many of them were sent to the channel *)
  b_rx : option (list hev);    (* the queue of the subscriber's receiver, once it exists *)
  b_lag : nat;                 (* events the receiver lost by lagging *)
  b_read : nat;                (* history: length of the log when the last page was read *)
  b_from : nat                 (* history: events sent before the receiver existed *)
}.
Record sst := SSt {
  s_shards : nat -> bst;
  s_todo : list nat;           (* shards still to be replayed, the first one being read *)
  s_tok : option bytes;        (* page token (server.rs:1923, shared by the shards) *)
  s_out : list (nat * hev)     (* events sent to the client, with their shard, before [rewrite_hub_event] *)
}.

Definition ev_row (e : hev) : bytes * hev := (make_event_key (he_id e), e).
Definition db_of (l : list hev) : kv hev := list_to_map (map ev_row l).

(** Ids grow from one block to the next and within a block (C01), and are [u64]. *)
Fixpoint ids_above (lo : option N) (l : list hev) : bool :=
  match l with
  | [] => true
  | e :: r => (match lo with Some i => i <? he_id e | None => true end) && (he_id e <? 2 ^ 64) && ids_above (Some (he_id e)) r
  end.
Definition last_id (l : list hev) : option N := option_map he_id (last l).

Inductive sact :=
| ACommit (s : nat) (evs : list hev)     (* a block is committed to the database *)
| ASend (s : nat)                        (* the next committed event is sent to the channel *)
| APage                                  (* the replay reads a page and passes it on *)
| AAttach (s : nat)                      (* the task of a shard subscribes to the channel *)
| ARecv (s : nat).                       (* the task of a shard receives an event *)

Section Subscribe.
  Variable cap : nat.                    (* capacity of the channel: 10_000, engine.rs:148 *)
  Variable start : option N.             (* [from_id] *)
  Variable types : list N.               (* [event_types] *)

  Definition wanted (e : hev) : bool := existsb (N.eqb (he_type e)) types.
  Definition upd (f : nat -> bst) (s : nat) (b : bst) : nat -> bst := fun t => if (t =? s)%nat then b else f t.
  Definition tag (s : nat) (l : list hev) : list (nat * hev) := map (pair s) (List.filter wanted l).

  Definition sinit (n : nat) : sst :=
    SSt (fun _ => BSt [] 0 None 0 0 0) (match start with Some _ => seq 0 n | None => [] end) None [].

  Definition sstep (st : sst) (a : sact) : sst :=
    let f := s_shards st in
    match a with
    | ACommit s evs =>
        let b := f s in
        if ids_above (last_id (b_log b)) evs then
          SSt (upd f s (BSt (b_log b ++ evs) (b_sent b) (b_rx b) (b_lag b) (b_read b) (b_from b))) (s_todo st) (s_tok st) (s_out st)
        else st
    | ASend s =>
        let b := f s in
        match b_log b !! b_sent b with
        | None => st
        | Some e =>
            let b' :=
              match b_rx b with
              | None => BSt (b_log b) (S (b_sent b)) None (b_lag b) (b_read b) (b_from b)
              | Some q =>
                  if (cap <=? length q)%nat then
                    BSt (b_log b) (S (b_sent b)) (Some (tail q ++ [e])) (S (b_lag b)) (b_read b) (b_from b)
                  else BSt (b_log b) (S (b_sent b)) (Some (q ++ [e])) (b_lag b) (b_read b) (b_from b)
              end in
            SSt (upd f s b') (s_todo st) (s_tok st) (s_out st)
        end
    | APage =>
        match start, s_todo st with
        | Some i, s :: rest =>
            let b := f s in
            match get_events (fun _ e => Some e) (db_of (b_log b)) i None (POpts None (s_tok st) false) with
            | Ok (l, nt) =>
                SSt (upd f s (BSt (b_log b) (b_sent b) (b_rx b) (b_lag b) (length (b_log b)) (b_from b)))
                  (match nt with None => rest | Some _ => s :: rest end) nt (s_out st ++ tag s l)
            | _ => st
            end
        | _, _ => st
        end
    | AAttach s =>
        let b := f s in
        match s_todo st, b_rx b with
        | [], None => SSt (upd f s (BSt (b_log b) (b_sent b) (Some []) 0 (b_read b) (b_sent b))) [] (s_tok st) (s_out st)
        | _, _ => st
        end
    | ARecv s =>
        let b := f s in
        match b_rx b with
        | Some (e :: q) =>
            SSt (upd f s (BSt (b_log b) (b_sent b) (Some q) (b_lag b) (b_read b) (b_from b))) (s_todo st) (s_tok st)
              (s_out st ++ tag s [e])
        | _ => st
        end
    end.
  Definition srun (n : nat) (l : list sact) : sst := fold_left sstep l (sinit n).

  (** What the client got from one shard. *)
  Definition got (st : sst) (s : nat) : list hev := map snd (List.filter (fun p => (p.1 =? s)%nat) (s_out st)).
End Subscribe.
