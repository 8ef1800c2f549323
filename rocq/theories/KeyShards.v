(** Gasless keys across shards, and what the node tells about signers.

    Key messages are admitted on shard 0 and carried to the data shards as block events (block_engine.rs:1735-1770,
    engine.rs:732-848, 1400-1480), which replay them with [is_replay = true]; other messages are checked on the shard they are
    routed to (mempool/routing.rs:39-88) with the record of use kept by that shard (engine.rs:2096-2221,
    block_engine.rs:964-1200). One data shard beside shard 0 is modelled: data shards do not interact. The version is one with
    every feature active. Delivery of block events in order is C38. *)
From Verif Require Import Gasless.
#[local] Open Scope N_scope.

Inductive kmsg := KA (m : kadd) | KR (m : krem).
Definition as_op (e : genv) (replay : bool) (m : kmsg) : gop := match m with KA a => GAdd e replay a | KR r => GRem e replay r end.

(** routing.rs:56-84; the other shard refuses these types (engine.rs:2138-2174) and shard 0 all the rest (block_engine.rs, the
    last arm of the match). LendStorage, verifications, channel messages. *)
Definition zero_type (ty : N) : bool := existsb (N.eqb ty) [7; 8; 15; 18; 19; 20; 21].

(** [y_log]: the key messages admitted on shard 0, in order, with the chain state seen; [y_pos]: how many block events the data
    shard has taken. *)
Record sys := Sys { y_zero : gst; y_log : list (genv * kmsg); y_data : gst; y_pos : nat }.
Definition sys_init : sys := Sys g_init [] g_init 0.

Inductive sop :=
| OKey (e : genv) (m : kmsg)                   (* a key message on shard 0 *)
| OReplay (e : genv)                           (* the next block event on the data shard *)
| OUseZero (e : genv) (u : kuse) (bt : N)      (* another message on shard 0 *)
| OUse (e : genv) (u : kuse) (bt : N)          (* another message on the data shard *)
| ODirect (e : genv) (m : kmsg).               (* a key message put into the data shard's block by its proposer *)
Inductive sout := SAccepted | SRefused (e : gerr) | SWrongShard | SNothing.
Definition as_sout (x : gout) : sout := match x with GOk _ => SAccepted | GErr e => SRefused e end.
Definition body_ok (m : kmsg) : bool := match m with KA a => add_body_ok a | KR r => rem_body_ok r end.

Section Sys.
  Variable meta : kadd -> option (N * bytes * N).
  Variable rec_add : kadd -> option bytes.
  Variable rec_rem : krem -> option bytes.
  Notation step := (gstep meta rec_add rec_rem).

  (** A replay that fails is logged; the event counts as taken (engine.rs:1409-1416, 1440-1480). A key message in a data shard's
      block passes [validate_user_message] - unlike lends, verifications and channel messages it is not refused there - and is
      merged as a replay (engine.rs:1847-1865). *)
  Definition sstep (y : sys) (o : sop) : sys * sout :=
    match o with
    | OKey e m =>
        match step (y_zero y) (as_op e false m) with
        | (z, GOk d) => (Sys z (y_log y ++ [(e, m)]) (y_data y) (y_pos y), SAccepted)
        | (z, GErr err) => (Sys z (y_log y) (y_data y) (y_pos y), SRefused err)
        end
    | OReplay e =>
        match nth_error (y_log y) (y_pos y) with
        | None => (y, SNothing)
        | Some (_, m) =>
            let '(d, x) := step (y_data y) (as_op e true m) in (Sys (y_zero y) (y_log y) d (S (y_pos y)), as_sout x)
        end
    | OUseZero e u bt =>
        if zero_type (ku_type u) then
          let '(z, x) := step (y_zero y) (GUse e u bt) in (Sys z (y_log y) (y_data y) (y_pos y), as_sout x)
        else (y, SWrongShard)
    | OUse e u bt =>
        if zero_type (ku_type u) then (y, SWrongShard)
        else let '(d, x) := step (y_data y) (GUse e u bt) in (Sys (y_zero y) (y_log y) d (y_pos y), as_sout x)
    | ODirect e m =>
        if body_ok m then
          let '(d, x) := step (y_data y) (as_op e true m) in (Sys (y_zero y) (y_log y) d (y_pos y), as_sout x)
        else (y, SRefused EInvalidBody)
    end.
  Fixpoint srun (y : sys) (os : list sop) : sys * list sout :=
    match os with [] => (y, []) | o :: r => let '(y1, x) := sstep y o in let '(y2, xs) := srun y1 r in (y2, x :: xs) end.
End Sys.

(** ** Reading signers: server.rs 396-496, 2855-2925 *)

Inductive source := SOnchain | SOffchain.
(** proto [Signer]; [sg_event] only for on-chain signers. Metadata of the on-chain event is left out. *)
Record signer := Signer {
  sg_source : source; sg_key : bytes; sg_fid : N; sg_added : N; sg_used : option N; sg_ttl : option N; sg_expires : option N;
  sg_scopes : list Z; sg_request : option N; sg_nonce : option N }.

(** core/util.rs:35-37, core/types.rs:22. *)
Definition EPOCH : N := 1609459200.
Definition unix (t : N) : N := t + EPOCH.

(** 427-463 [signer_from_gasless_record]; records are typed here, so the body is always there. *)
Definition gasless_signer (r : grec) (k : bytes) (f : N) (used : option N) : signer :=
  let m := r_msg r in
  Signer SOffchain k f (unix (ka_ts m)) (unix <$> used) (Some (ka_ttl m))
    (match used with Some t => if 0 <? ka_ttl m then Some (unix t + ka_ttl m) else None | None => None end)
    (ka_scopes m) (Some (r_req r)) (Some (ka_nonce m)).

Inductive sread := RSigner (s : signer) | RNotFound | RError.
(** 468-496 [resolve_signer]. [onchain f k]: the block time of the active signer event, if there is one. *)
Definition read_signer (onchain : N -> bytes -> option N) (s : gst) (f : N) (k : bytes) : sread :=
  match onchain f k with
  | Some t => RSigner (Signer SOnchain k f t None None None [] None None)
  | None =>
      if negb (Nat.eqb (length k) ED25519_LEN) then RError
      else match g_rec s !! (w32 f, k) with
           | None => RNotFound
           | Some r => RSigner (gasless_signer r k f (g_last s !! (w32 f, k)))
           end
  end.

(** 2885-2903: the counters in the answer of [get_signers_by_fid], from the store of the account's shard. *)
Definition read_user_nonce (s : gst) (f : N) : N := nonce_of (g_un s) f.
Definition read_app_nonce (s : gst) (app : N) : N := nonce_of (g_an s) app.
