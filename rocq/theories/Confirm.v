(** A data shard's block receiver with its waiting: src/mempool/block_receiver.rs (referred to by line only), over [submit] and
    [block_of_event] of ShardZero.v.

    What the receiver sees of its surroundings is a list of looks, one per turn of a waiting loop or reading of the store. Nothing
    is assumed of them. *)
From stdpp Require Import gmap.
From Verif Require Import Base ShardZero.
#[local] Open Scope N_scope.

(** A notification with its number; or an event of another kind, an error of the channel, or the tick of 250 ms. *)
Inductive wake := Note (m : N) | Tick.
(** [k_store]: [max_seqnum()], or an error; [k_late]: the deadline has passed. *)
Record look := Look { k_store : option N; k_late : bool; k_wake : wake }.
(** 110-123 [confirmed_in_store]. *)
Definition has (s : option N) (seq : N) : bool := match s with Some m => seq <=? m | None => false end.

(** 125-156 [wait_for_confirmation]: [None] while it goes on. *)
Fixpoint wait (seq : N) (os : list look) : option bool * list look :=
  match os with
  | [] => (None, [])
  | o :: r =>
      if has (k_store o) seq then (Some true, r)
      else if k_late o then (Some false, r)
      else match k_wake o with
           | Note m => if seq <=? m then (Some true, r) else wait seq r
           | Tick => wait seq r
           end
  end.

Inductive sres := SDone | STimeout | SPanic | SOpen.
Inductive verdict := VSkipped | VLater | VConfirmed | VReported | VPanic | VOpen.
(** 28. *)
Definition RETRIES : nat := 3.
(** main.rs:668: 1000, which the channel rounds up to a power of two (tokio). *)
Definition CAPACITY : N := 1024.

Section Confirm.
  Variable E : zenv.
  Variable certified : zblock -> bool.
  Variable d : zdb.
  (** [sync_batch_size]. *)
  Variable batch : N.

  (** 205-209: whether to wait after a block whose last event is [x]; [None]: remainder by zero. Numbers are u64 and wrap. *)
  Definition due (start stop x : N) : option bool :=
    let n := (x + 2 ^ 64 - start) mod 2 ^ 64 in
    if 0 <? n then if batch =? 0 then None else Some ((n mod batch =? 0) || (stop <=? x)) else Some (stop <=? x).

  (** 182-226 [sync_missing_block_events]. *)
  Fixpoint syncw (fuel : nat) (start cur stop : N) (sent : list bevent) (os : list look) : sres * list bevent * list look :=
    if stop <? cur then (SDone, sent, os)
    else match fuel with
         | O => (SOpen, sent, os)
         | S fuel' =>
             match block_of_event d cur with
             | None => (SPanic, sent, os)
             | Some b =>
                 let sent' := sent ++ submit E (certified b) b in
                 match last (zb_events b) with
                 | None => syncw fuel' start cur stop sent' os
                 | Some (_, None) => (SPanic, sent', os)
                 | Some (_, Some x) =>
                     match due start stop (b_seq x) with
                     | None => (SPanic, sent', os)
                     | Some false => syncw fuel' start (b_seq x + 1) stop sent' os
                     | Some true =>
                         match wait (b_seq x) os with
                         | (None, r) => (SOpen, sent', r)
                         | (Some false, r) => (STimeout, sent', r)
                         | (Some true, r) => syncw fuel' start (b_seq x + 1) stop sent' r
                         end
                     end
                 end
             end
         end.

  (** 322-337: the last reading, and the report. *)
  Definition final (target : N) (sent : list bevent) (os : list look) : verdict * list bevent * list look :=
    match os with [] => (VOpen, sent, []) | o :: r => (if has (k_store o) target then VConfirmed else VReported, sent, r) end.
  (** 289-337 [ensure_events_confirmed]. *)
  Fixpoint ensure (fuel tries : nat) (target : N) (sent : list bevent) (os : list look) : verdict * list bevent * list look :=
    match tries with
    | O => final target sent os
    | S tries' =>
        match os with
        | [] => (VOpen, sent, [])
        | o :: r =>
            match k_store o with
            | None => final target sent r
            | Some m =>
                if target <=? m then (VConfirmed, sent, r)
                else match syncw fuel (m + 1) (m + 1) target sent r with
                     | (SDone, sent', r') =>
                         match r' with
                         | [] => (VOpen, sent', [])
                         | o' :: r'' => if has (k_store o') target then (VConfirmed, sent', r'') else ensure fuel tries' target sent' r''
                         end
                     | (STimeout, sent', r') => ensure fuel tries' target sent' r'
                     | (SPanic, sent', r') => (VPanic, sent', r')
                     | (SOpen, sent', r') => (VOpen, sent', r')
                     end
            end
        end
    end.

  (** 228-275 [run], one block. The first look is the reading at its start (241). [VLater]: the synchronisation timed out and the
      block is left for the next one with events to bring in. *)
  Definition take_block (fuel : nat) (b : zblock) (os : list look) : verdict * list bevent * list look :=
    match zb_events b with
    | [] => (VSkipped, [], os)
    | (_, first) :: _ =>
        match os with
        | [] => (VOpen, [], [])
        | o :: r =>
            match k_store o, last (zb_events b), first with
            | Some stored, Some (_, Some y), Some x =>
                if b_seq y <? stored then (VSkipped, [], r)
                else
                  match (if stored + 1 <? b_seq x then syncw fuel (stored + 1) (stored + 1) (b_seq x - 1) [] r else (SDone, [], r)) with
                  | (SDone, sent, r) =>
                      let sent := sent ++ submit E (certified b) b in
                      match wait (b_seq y) r with
                      | (None, r) => (VOpen, sent, r)
                      | (Some true, r) => (VConfirmed, sent, r)
                      | (Some false, r) => ensure fuel RETRIES (b_seq y) sent r
                      end
                  | (STimeout, sent, r) => (VLater, sent, r)
                  | (SPanic, sent, r) => (VPanic, sent, r)
                  | (SOpen, sent, r) => (VOpen, sent, r)
                  end
            | _, _, _ => (VPanic, [], r)
            end
        end
    end.

  (** The whole loop: each block with the number of blocks that were waiting when it was asked for, itself included. More than
      the channel holds is an error of [recv], which is unwrapped (229); the task ends and nobody starts it again (main.rs:823). *)
  Fixpoint runw (fuel : nat) (bs : list (N * zblock)) (os : list look) : list (verdict * list bevent) :=
    match bs with
    | [] => []
    | (waiting, b) :: r =>
        if CAPACITY <? waiting then [(VPanic, [])]
        else match take_block fuel b os with
             | (VPanic, sent, _) => [(VPanic, sent)]
             | (VOpen, sent, _) => [(VOpen, sent)]
             | (v, sent, os') => (v, sent) :: runw fuel r os'
             end
    end.
End Confirm.
