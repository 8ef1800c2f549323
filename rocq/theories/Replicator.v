(** Model of the serving side of a bootstrap (network/replication/replicator.rs, replication_stores.rs and the post-commit
    hook of engine.rs:2561-2598): which snapshots are kept, and what a page of a snapshot contains.

    Simplifications.  A read-only copy of the database shows the blocks committed when it was opened.  The contents of a
    snapshot are lists of stored items (what the listing functions of the stores return is C12).  Lock poisoning, metrics
    and file limits are left out.  The account roots of a page are read from the trie (C07). *)
From Verif Require Import Base Codec Trie TrieScan.
From stdpp Require Import gmap.
#[local] Open Scope N_scope.

(** * Snapshots *)
(** engine.rs:154-158 [PostCommitMessage]. *)
Record pcm := Pcm { pm_shard : N; pm_height : N; pm_ts : N }.
(** A snapshot: its timestamp and the height its contents really have. *)
Record snapinfo := SInfo { si_ts : N; si_content : N }.
(** The last committed height per shard, the messages waiting for the replicator, the open snapshots. *)
Record rst := RSt { r_db : gmap N N; r_queue : list pcm; r_snaps : gmap N (gmap N snapinfo) }.
Definition r_init : rst := RSt ∅ [] ∅.

Section Snapshots.
  (** replicator.rs:188-201: the interval in blocks (not 0, l.232) and the maximal age in seconds. *)
  Context (interval max_age : N).

  Definition of_shard (st : rst) (s : N) : gmap N snapinfo := default ∅ (r_snaps st !! s).
  (** replication_stores.rs:189-206 [close_aged_snapshots]. *)
  Definition close_aged (min_ts : N) (m : gmap N snapinfo) : gmap N snapinfo := filter (fun p => min_ts <= si_ts p.2) m.
  (** replication_stores.rs:136-187 [open_snapshot], [insert_snapshot]: a snapshot of this height is kept. *)
  Definition open_snapshot (st : rst) (m : gmap N snapinfo) (g : pcm) : gmap N snapinfo :=
    match m !! pm_height g with
    | Some _ => m
    | None => match r_db st !! pm_shard g with Some h => <[pm_height g := SInfo (pm_ts g) h]> m | None => m end
    end.
  (** replicator.rs:759-842 [handle_post_commit_message]; [opens]: does opening the database work. *)
  Definition handle (now : N) (opens : bool) (st : rst) (g : pcm) : gmap N snapinfo :=
    let oldest := now - max_age in
    let m := close_aged oldest (of_shard st (pm_shard g)) in
    if (0 <? pm_height g) && negb (pm_height g mod interval =? 0) && negb (bool_decide (m = ∅)) then m
    else if pm_ts g <? oldest then m
    else if opens then open_snapshot st m g else m.

  Inductive rop :=
  | RCommit (s h ts : N) (sent : bool)     (* engine.rs:2572-2583: a block is committed; the message may not get through in time *)
  | RHandle (now : N) (opens : bool).      (* replicator.rs:168-186: the next message is handled *)
  (** engine.rs:2585-2591: the engine waits for the answer for 200 ms at most, then goes on. *)
  Definition rstep (st : rst) (o : rop) : rst :=
    match o with
    | RCommit s h ts sent => RSt (<[s := h]> (r_db st)) (if sent then r_queue st ++ [Pcm s h ts] else r_queue st) (r_snaps st)
    | RHandle now opens =>
        match r_queue st with
        | [] => st
        | g :: q => RSt (r_db st) q (<[pm_shard g := handle now opens st g]> (r_snaps st))
        end
    end.
  Definition rrun (ops : list rop) : rst := fold_left rstep ops r_init.
End Snapshots.

(** * Pages *)
Record smsg := SMsg { sm_fid : N; sm_type : N; sm_hash : bytes; sm_lend : option N }.
Record sev := SEv { se_fid : N; se_type : N; se_tx : bytes; se_log : N }.
(** The items of a snapshot: messages, on-chain events, the owner of each registered name. *)
Record snap := Snap { sn_msgs : list smsg; sn_evs : list sev; sn_names : gmap bytes N }.
Inductive entry := EUser (m : smsg) | EChain (e : sev) | EName (name : bytes) (owner : N).
Inductive rerr := RInvalid | RInactive | RInternal.
Definition T_FrameAction : N := 13. Definition T_LendStorage : N := 15. Definition T_KeyAdd : N := 16. Definition T_KeyRemove : N := 17.

(** replicator.rs:339-504, the listings: the message types the server knows (proto MessageType); loans are listed for
    both sides. *)
Definition known_type (t : N) : bool := existsb (N.eqb t) [1; 2; 3; 4; 5; 6; 7; 8; 11; 12; 14; 15].
Definition channel_type (t : N) : bool := existsb (N.eqb t) [18; 19; 20; 21].
Definition message_type (t : N) : bool := known_type t || channel_type t || existsb (N.eqb t) [0; T_FrameAction; T_KeyAdd; T_KeyRemove].
Definition user_listing (sn : snap) (fid t : N) : list smsg :=
  List.filter (fun m => (sm_type m =? t) && (sm_fid m =? fid)) (sn_msgs sn) ++
  (if t =? T_LendStorage then List.filter (fun m => (sm_type m =? t) && bool_decide (sm_lend m = Some fid)) (sn_msgs sn) else []).
Definition chain_listing (sn : snap) (fid t : N) : list sev :=
  List.filter (fun e => (se_type e =? t) && (se_fid e =? fid)) (sn_evs sn).
(** replicator.rs:317-329, 499-504: by hash, the last one wins. *)
Definition hash_map {A} (l : list (bytes * A)) : gmap bytes A := foldl (fun m p => <[p.1 := p.2]> m) ∅ l.
Definition event_hash (e : sev) : bytes := se_tx e ++ be 4 (se_log e).

(** The cache: replicator.rs:41-80; the key without the shard and height, which the snapshot stands for. *)
Inductive ctype := CUser (t : N) | CChain (t : N).
#[global] Instance ctype_eq_dec : EqDecision ctype.
Proof. solve_decision. Defined.
#[global] Instance ctype_countable : Countable ctype.
Proof.
  apply (inj_countable' (fun c => match c with CUser t => inl t | CChain t => inr t end) (fun s => match s with inl t => CUser t | inr t => CChain t end)).
  by intros [].
Defined.
(** (shard, height), account, type. *)
Definition ckey : Type := (N * N) * N * ctype.
Definition cval : Type := gmap bytes entry.
Definition build (sn : snap) (fid : N) (c : ctype) : cval :=
  match c with
  | CUser t => hash_map (map (fun m => (sm_hash m, EUser m)) (user_listing sn fid t))
  | CChain t => hash_map (map (fun e => (event_hash e, EChain e)) (chain_listing sn fid t))
  end.

Section Serve.
  (** replicator.rs:532-536: are channel messages on at the time of the snapshot. *)
  Context (channels : bool).
  (** [cached]: what the cache holds for the types of an account of this snapshot. *)
  Context (cached : N -> ctype -> option cval).
  Definition fetch (sn : snap) (fid : N) (c : ctype) : cval := match cached fid c with Some v => v | None => build sn fid c end.
  Fixpoint until0 (b : bytes) : bytes := match b with [] => [] | x :: b => if x =? 0 then [] else x :: until0 b end.
  (** replicator.rs:552-703, one key.  A type that is cached was answered before, so its checks passed. *)
  Definition resolve (sn : snap) (vshard : N) (k : bytes) : res rerr entry :=
    match trie_decode k with
    | None => Err RInternal
    | Some d =>
        if negb (dk_vshard d =? vshard) then Err RInternal else
        match dk_onchain d, dk_message d with
        | Some t, None =>
            if t =? 7 then
              let name := until0 (dk_rest d) in
              match sn_names sn !! name with Some f => Ok (EName name f) | None => Err RInternal end
            else
              match fetch sn (dk_fid d) (CChain t) !! dk_rest d with Some e => Ok e | None => Err RInternal end
        | None, Some t =>
            if negb (message_type t) then Err RInvalid else
            match cached (dk_fid d) (CUser t) with
            | Some v => match v !! dk_rest d with Some e => Ok e | None => Err RInternal end
            | None =>
                if known_type t || (channel_type t && channels) then
                  match build sn (dk_fid d) (CUser t) !! dk_rest d with Some e => Ok e | None => Err RInternal end
                else if channel_type t then Err RInactive else Err RInvalid
            end
        | _, _ => Err RInternal
        end
    end.
  Fixpoint respond (sn : snap) (vshard : N) (ks : list bytes) : res rerr (list (bytes * entry)) :=
    match ks with
    | [] => Ok []
    | k :: ks =>
        match resolve sn vshard k with
        | Ok e => match respond sn vshard ks with Ok l => Ok ((k, e) :: l) | r => r end
        | Err e => Err e
        | Panic => Panic
        end
    end.
  (** The pages of a virtual shard, following the tokens (1000 keys per page, replicator.rs:217). *)
  Fixpoint respond_all (sn : snap) (vshard : N) (pages : list (list bytes)) : res rerr (list (list (bytes * entry))) :=
    match pages with
    | [] => Ok []
    | p :: ps =>
        match respond sn vshard p with
        | Ok l => match respond_all sn vshard ps with Ok ls => Ok (l :: ls) | r => r end
        | Err e => Err e
        | Panic => Panic
        end
    end.
End Serve.

(** * The cache of hash maps, replicator.rs:82-166 *)
Definition MAX_CACHE : N := 100000.
Record cache := Cache { ca_map : gmap ckey cval; ca_lru : gmap ckey N; ca_size : N }.
Definition cache_init : cache := Cache ∅ ∅ 0.
Definition vlen (v : cval) : N := N.of_nat (size v).

Section Cache.
  (** The order in which keys are dropped: some order of the keys by time of last use (the order of equal times is the
      hash map's). *)
  Context (order : gmap ckey N -> list ckey).
  (** replicator.rs:111-126 [get]. *)
  Definition cget (now : N) (k : ckey) (c : cache) : option cval * cache :=
    match ca_map c !! k with
    | Some v => (Some v, Cache (ca_map c) (<[k := now]> (ca_lru c)) (ca_size c))
    | None => (None, c)
    end.
  (** replicator.rs:147-157: the loop that drops entries. *)
  Fixpoint evict (ks : list ckey) (c : cache) : cache :=
    match ks with
    | [] => c
    | k :: ks =>
        if ca_size c <=? MAX_CACHE then c
        else evict ks (Cache (delete k (ca_map c)) (delete k (ca_lru c))
               (ca_size c - match ca_map c !! k with Some v => vlen v | None => 0 end))
    end.
  (** replicator.rs:128-165 [insert]. *)
  Definition cput (now : N) (k : ckey) (v : cval) (c : cache) : cache :=
    let c1 := Cache (ca_map c) (ca_lru c) (ca_size c + vlen v) in
    let c2 := if MAX_CACHE <? ca_size c1 then evict (order (ca_lru c1)) c1 else c1 in
    Cache (<[k := v]> (ca_map c2)) (<[k := now]> (ca_lru c2)) (ca_size c2).
  Inductive cop := CGet (now : N) (k : ckey) | CPut (now : N) (k : ckey) (v : cval).
  Definition cstep (c : cache) (o : cop) : cache :=
    match o with CGet now k => (cget now k c).2 | CPut now k v => cput now k v c end.
  Definition crun (ops : list cop) : cache := fold_left cstep ops cache_init.
End Cache.
