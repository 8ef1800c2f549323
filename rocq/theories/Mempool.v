(** Routing and the mempool: src/mempool/routing.rs, src/mempool/mempool.rs. *)
From Verif Require Export Base Codec Version.
From stdpp Require Export gmap.
From Coq Require Import DecimalN.
#[local] Open Scope N_scope.

(** ** Messages (storage/store/mempool_poller.rs:22-40) *)

(** Body kinds the mempool looks at (mempool.rs:608-624). *)
Inductive ubody := BKeyAdd | BLiveAt | BOther.
(** A user message; [um_type] is the type field of its data, [um_body] its body. Messages without [data] are not
    modelled ([mempool_key] has [todo!()] for them, mempool.rs:300-312); ingress decodes [data] first. *)
Record umsg := UMsg { um_fid : N; um_type : N; um_ts : N; um_hash : bytes; um_body : ubody }.
Inductive mmsg :=
| MUser (m : umsg)
| MOnchain (migration : bool) (fid block_ts : N) (txhash : bytes) (log_index : N)
| MFname (id fid ts : N)
| MBlockEvent (for_shard seqnum block_ts : N).

(** proto MessageType. *)
Definition T_VERIFICATION_ADD : N := 7.
Definition T_VERIFICATION_REMOVE : N := 8.
Definition T_USER_DATA_ADD : N := 11.
Definition T_LEND_STORAGE : N := 15.
Definition T_KEY_ADD : N := 16.
Definition T_KEY_REMOVE : N := 17.
Definition T_CHANNEL_UPDATE : N := 18.
Definition T_CHANNEL_MEMBER : N := 19.
Definition T_CHANNEL_PIN : N := 20.
Definition T_CHANNEL_MODERATE : N := 21.
Definition is_channel_type (ty : N) : bool := (18 <=? ty) && (ty <=? 21).

(** ** Routing *)
Section Routing.
  Variable sha4 : bytes -> N.

  (** routing.rs:39-87 [route_message]. *)
  Definition route_message (m : umsg) (num_shards : N) (v : version) : N :=
    let ty := um_type m in
    if (ty =? T_LEND_STORAGE) || (ty =? T_KEY_ADD) || (ty =? T_KEY_REMOVE) || is_channel_type ty then 0
    else if ((ty =? T_VERIFICATION_ADD) || (ty =? T_VERIFICATION_REMOVE)) && is_enabled v VerificationsOnShardZero then 0
    else route_fid sha4 (um_fid m) num_shards.

  (** mempool_poller.rs:43-68 [fid]; for block events it is only used for telemetry. *)
  Definition msg_fid (m : mmsg) : N :=
    match m with MUser u => um_fid u | MOnchain _ fid _ _ _ => fid | MFname _ fid _ => fid | MBlockEvent _ _ _ => 0 end.

  (** mempool.rs:514-556 [route_mempool_message]; [v] is the version at the wall clock. *)
  Definition route_mempool_message (m : mmsg) (num_shards : N) (v : version) : list N :=
    match m with
    | MFname _ fid _ =>
        if is_enabled v UsernameShardRoutingFix then map N.of_nat (seq 1 (N.to_nat num_shards))
        else [route_fid sha4 fid num_shards]
    | MOnchain true _ _ _ _ => [0]
    | MOnchain false fid _ _ _ => [0; route_fid sha4 fid num_shards]
    | MBlockEvent sh _ _ => [sh]
    | MUser u => [route_message u num_shards v]
    end.
End Routing.

(** ** Keys *)

(** Rust [u64::to_string]: decimal digits as ASCII. *)
Fixpoint uint_bytes (d : Decimal.uint) : bytes :=
  match d with
  | Decimal.Nil => []
  | Decimal.D0 d => 48 :: uint_bytes d | Decimal.D1 d => 49 :: uint_bytes d
  | Decimal.D2 d => 50 :: uint_bytes d | Decimal.D3 d => 51 :: uint_bytes d
  | Decimal.D4 d => 52 :: uint_bytes d | Decimal.D5 d => 53 :: uint_bytes d
  | Decimal.D6 d => 54 :: uint_bytes d | Decimal.D7 d => 55 :: uint_bytes d
  | Decimal.D8 d => 56 :: uint_bytes d | Decimal.D9 d => 57 :: uint_bytes d
  end.
Definition dec (n : N) : bytes := uint_bytes (N.to_uint n).
(** [hex::encode]: lower-case. *)
Definition hexd (x : N) : N := if x <? 10 then 48 + x else 87 + x.
Definition hex (b : bytes) : bytes := flat_map (fun x => [hexd (x / 16); hexd (x mod 16)]) b.

(** mempool.rs:267-290 [MempoolKey]: (kind, unix timestamp, identity), compared in this order. *)
Record mkey := MKey { mk_kind : N; mk_ts : N; mk_id : bytes }.
Global Instance mkey_eqdec : EqDecision mkey.
Proof. solve_decision. Defined.
Definition kcmp (a b : mkey) : comparison :=
  match mk_kind a ?= mk_kind b with
  | Eq => match mk_ts a ?= mk_ts b with Eq => lex (mk_id a) (mk_id b) | c => c end
  | c => c
  end.

(** mempool.rs:300-345, 366-400 [mempool_key]. *)
Definition user_key (u : umsg) : mkey := MKey 2 (to_unix_seconds (um_ts u)) (hex (um_hash u)).
Definition mempool_key (m : mmsg) : mkey :=
  match m with
  | MUser u => user_key u
  | MOnchain _ _ ts tx li => MKey 1 ts (hex tx ++ dec li)
  | MFname id _ ts => MKey 1 ts (dec id)
  | MBlockEvent _ seq ts => MKey 1 ts (dec seq)
  end.

(** ** A sorted map ([BTreeMap<MempoolKey, _>]) *)
Notation pool := (list (mkey * mmsg)).
Fixpoint bget (k : mkey) (l : pool) : option mmsg :=
  match l with
  | [] => None
  | (k', m) :: r => match kcmp k k' with Lt => None | Eq => Some m | Gt => bget k r end
  end.
Fixpoint bins (k : mkey) (m : mmsg) (l : pool) : pool :=
  match l with
  | [] => [(k, m)]
  | (k', m') :: r => match kcmp k k' with Lt => (k, m) :: l | Eq => (k, m) :: r | Gt => (k', m') :: bins k m r end
  end.
Fixpoint bdel (k : mkey) (l : pool) : pool :=
  match l with
  | [] => []
  | (k', m') :: r => match kcmp k k' with Lt => l | Eq => r | Gt => (k', m') :: bdel k r end
  end.

(** ** The mempool *)

(** mempool.rs:635-650: queues per shard and the index of pending LiveAt messages. *)
Record mp := Mp { mp_msgs : gmap N pool; mp_live : gmap (N * N) mkey }.
Definition mp_init : mp := Mp ∅ ∅.

(** What the mempool asks of the rest of the node at the time of a call: the version at the wall clock, whether a
    user message is stored (mempool.rs:440-492), the last block event of a shard, and the rate limiter's verdict. *)
Record env := Env { e_version : version; e_exists : N -> umsg -> bool; e_maxseq : N -> option N; e_limited : umsg -> bool }.

Inductive merr := EPending | ESuperseded | EInactive | EShardZero | EMerged | ERateLimited.

Definition is_live_at (u : umsg) : bool := match um_body u with BLiveAt => true | _ => false end.

(** mempool.rs:783-850 [message_is_valid]. *)
Definition message_is_valid (e : env) (shard : N) (m : mmsg) (at_admission : bool) : option merr :=
  match m with
  | MUser u =>
      if is_channel_type (um_type u) && negb (is_enabled (e_version e) ChannelMessages) then Some EInactive
      else if ((um_type u =? T_KEY_ADD) || (um_type u =? T_KEY_REMOVE)) && negb (is_enabled (e_version e) GaslessSigners)
      then Some EInactive
      else if e_exists e shard u then Some EMerged
      else if at_admission && e_limited e u then Some ERateLimited
      else None
  | MBlockEvent sh seq _ =>
      if sh =? 0 then Some EShardZero
      else match e_maxseq e sh with Some mx => if seq <=? mx then Some EMerged else None | None => None end
  | _ => None
  end.

(** mempool.rs:626-633 [live_at_lww_compare], as used with [unwrap_or(1) > 0]: true when the pending one is newer. *)
Definition pending_newer (old new : umsg) : bool :=
  match make_ts_hash (um_ts old) (um_hash old), make_ts_hash (um_ts new) (um_hash new) with
  | Some a, Some b => match lex a b with Gt => true | _ => false end
  | _, _ => true
  end.

Definition pool_of (s : mp) (shard : N) : pool := default [] (mp_msgs s !! shard).

(** mempool.rs:872-910 [prepare_live_at_insert]: new index and the key to replace, or refusal. *)
Definition prepare_live_at (s : mp) (shard : N) (m : mmsg) : gmap (N * N) mkey * (merr + option mkey) :=
  match m with
  | MUser u =>
      if is_live_at u then
        match mp_live s !! (shard, um_fid u) with
        | None => (mp_live s, inr None)
        | Some k =>
            match bget k (pool_of s shard) with
            | Some (MUser old) => if pending_newer old u then (mp_live s, inl ESuperseded) else (mp_live s, inr (Some k))
            | _ => (delete (shard, um_fid u) (mp_live s), inr None)
            end
        end
      else (mp_live s, inr None)
  | _ => (mp_live s, inr None)
  end.

(** mempool.rs:952-1012 [insert_into_shard]. *)
Definition insert_into_shard (e : env) (s : mp) (shard : N) (m : mmsg) : mp * option merr :=
  let k := mempool_key m in
  match bget k (pool_of s shard) with
  | Some _ => (s, Some EPending)
  | None =>
      match prepare_live_at s shard m with
      | (live, inl err) => (Mp (mp_msgs s) live, Some err)
      | (live, inr rep) =>
          match message_is_valid e shard m true with
          | Some err => (Mp (mp_msgs s) live, Some err)
          | None =>
              let p := pool_of s shard in
              let p := match rep with Some old => bdel old p | None => p end in
              (Mp (<[shard := bins k m p]> (mp_msgs s))
                  (match m with MUser u => if is_live_at u then <[(shard, um_fid u) := user_key u]> live else live | _ => live end),
               None)
          end
      end
  end.

(** mempool.rs:852-870 [remove_live_at_index_for_message], also inlined at 1040-1050. *)
Definition unindex (live : gmap (N * N) mkey) (shard : N) (k : mkey) (m : mmsg) : gmap (N * N) mkey :=
  match m with
  | MUser u =>
      if is_live_at u && bool_decide (live !! (shard, um_fid u) = Some k) then delete (shard, um_fid u) live else live
  | _ => live
  end.

(** mempool.rs:748-781 [pull_messages]: pops keys until [n] valid messages are found; invalid ones are dropped. *)
Fixpoint pull_loop (e : env) (shard : N) (n : nat) (l : pool) (live : gmap (N * N) mkey)
    : list mmsg * pool * gmap (N * N) mkey :=
  match n, l with
  | O, _ => ([], l, live)
  | _, [] => ([], [], live)
  | S n', (k, m) :: r =>
      let live := unindex live shard k m in
      match message_is_valid e shard m false with
      | None => let '(out, rest, live) := pull_loop e shard n' r live in (m :: out, rest, live)
      | Some _ => pull_loop e shard n r live
      end
  end.
Definition pull_messages (e : env) (s : mp) (shard : N) (n : nat) : mp * list mmsg :=
  match mp_msgs s !! shard with
  | None => (s, [])
  | Some p => let '(out, rest, live) := pull_loop e shard n p (mp_live s) in (Mp (<[shard := rest]> (mp_msgs s)) live, out)
  end.

(** mempool.rs:1014-1087 [remove_committed_txns]; the rate limiter updates are in [RateLimit.v]. *)
Definition remove_one (shard : N) (st : pool * gmap (N * N) mkey) (m : mmsg) : pool * gmap (N * N) mkey :=
  (bdel (mempool_key m) st.1, unindex st.2 shard (mempool_key m) m).
Definition remove_committed (s : mp) (shard : N) (ms : list mmsg) : mp :=
  match mp_msgs s !! shard with
  | None => s
  | Some p => let '(p', live) := foldl (remove_one shard) (p, mp_live s) ms in Mp (<[shard := p']> (mp_msgs s)) live
  end.

(** One call of the mempool on one shard. A message routed to several shards is several inserts (mempool.rs:922-950). *)
Inductive mop := OInsert (e : env) (shard : N) (m : mmsg) | OPull (e : env) (shard : N) (n : nat) | OCommit (shard : N) (ms : list mmsg).
Inductive mout := RInsert (r : option merr) | RPull (l : list mmsg) | RCommit.
Definition mstep (s : mp) (o : mop) : mp * mout :=
  match o with
  | OInsert e sh m => let '(s', r) := insert_into_shard e s sh m in (s', RInsert r)
  | OPull e sh n => let '(s', l) := pull_messages e s sh n in (s', RPull l)
  | OCommit sh ms => (remove_committed s sh ms, RCommit)
  end.
Fixpoint mrun (s : mp) (os : list mop) : mp * list mout :=
  match os with
  | [] => (s, [])
  | o :: r => let '(s', x) := mstep s o in let '(s'', xs) := mrun s' r in (s'', x :: xs)
  end.
