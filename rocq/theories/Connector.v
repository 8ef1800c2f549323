(** Model of the on-chain event subscriber (connectors/onchain_events/mod.rs) and the username transfer fetcher
    (connectors/fname/mod.rs): which logs and transfers reach the mempool, over restarts, failing requests and failing
    events.

    Simplifications.  The chain is the final list of logs in block order (no reorganisations); requests for a range
    answer with the logs of that range (polls never go past the head they were told, C78_poll).  Whether the
    processing of one log succeeds (mod.rs:877-1199: the block time request, decoding, integer conversions) is part
    of the answer.  Sending to the mempool succeeds (it fails only when the mempool is gone).  Decoding of logs and
    transfers, metrics and waiting times are left out; block numbers are unbounded. *)
From Verif Require Import Base.
#[local] Open Scope N_scope.

Record clog := CLog { l_contract : N; l_block : N; l_index : N }.
#[global] Instance clog_eq_dec : EqDecision clog.
Proof. solve_decision. Defined.

(** An answer to one log request: [None] a failed request, otherwise the logs whose processing succeeds. *)
Definition answer := option (clog -> bool).
(** How a piece of work ends: done, with an error, or cut short by a crash (there are no more answers). *)
Inductive ending := EDone | EError | ECrash.

Section Subscriber.
  Context (chain : list clog).
  (** The configuration: [first_block] of the chain (mod.rs:688-693), start and stop block. *)
  Context (first : N) (start stop : option N).

  (** An eth_getLogs request for one address, mod.rs:1276-1280, 1382-1385. *)
  Definition logs_in (c from to : N) : list clog :=
    List.filter (fun l => (l_contract l =? c) && (from <=? l_block l) && (l_block l <=? to)) chain.

  (** A watched contract and its way of watching (mod.rs:651-686, 1421-1435): polled on Base, streamed on Optimism. *)
  Record watched := Watched { w_addr : N; w_polled : bool }.
  (** A running live sync (mod.rs:1411-1459): the block it started from, the cursors of the polled contracts, the
      streamed contracts and how many of their logs were received. *)
  Record live := Live { lv_start : N; lv_polled : list (N * N); lv_streamed : list N; lv_off : nat }.
  (** [s_db]: the recorded block number (0 when there is none); [s_sent]: what the mempool was given. *)
  Record sub := Sub { s_db : N; s_sent : list clog; s_live : option live }.

  (** mod.rs:827-846 [record_block_number]. *)
  Definition record (db n : N) : N := if db <? n then n else db.
  (** mod.rs:1201-1218 [get_logs]: a log that cannot be processed is skipped. *)
  Definition processed (ok : clog -> bool) (l : list clog) : list clog := List.filter ok l.

  (** mod.rs:1220-1252 [get_logs_with_retry]: gives up at the sixth failure. *)
  Fixpoint get_logs_with_retry (c from to : N) (count : N) (ans : list answer) : list clog * list answer * ending :=
    match ans with
    | [] => ([], [], ECrash)
    | Some ok :: rest => (processed ok (logs_in c from to), rest, EDone)
    | None :: rest => if 5 <? count + 1 then ([], rest, EError) else get_logs_with_retry c from to (count + 1) rest
    end.
  (** mod.rs:1275-1283: the contracts of one batch. *)
  Fixpoint batch (cs : list N) (from to : N) (ans : list answer) : list clog * list answer * ending :=
    match cs with
    | [] => ([], ans, EDone)
    | c :: cs =>
        match get_logs_with_retry c from to 0 ans with
        | (l, rest, EDone) => let '(l', rest', e) := batch cs from to rest in (l ++ l', rest', e)
        | r => r
        end
    end.
  (** mod.rs:1254-1299 [sync_historical_events]; [n] bounds the number of batches (the caller gives enough). *)
  Fixpoint historical (n : nat) (cs : list N) (from final db : N) (ans : list answer) : N * list clog * ending :=
    match n with
    | O => (db, [], ECrash)
    | S n =>
        let to := N.min final (from + 1000) in
        match batch cs from to ans with
        | (l, rest, EDone) =>
            let db := record db to in
            if final <? from + 1000 then (db, l, EDone)
            else let '(db', l', e) := historical n cs (from + 1000) final db rest in (db', l ++ l', e)
        | (l, _, e) => (db, l, e)
        end
    end.

  (** mod.rs:1642-1679: the start of [run]; [latest] is the head of the chain.  [None] as new live sync: the task ended
      (the stop block is in the past, or the historical sync failed, mod.rs:1663) or the node crashed. *)
  Definition new_live (ws : list watched) (from : N) : live :=
    Live from (map (fun w => (w_addr w, from)) (List.filter w_polled ws)) (map w_addr (List.filter (fun w => negb (w_polled w)) ws)) 0.
  Definition run_start (ws : list watched) (latest : N) (ans : list answer) (st : sub) : sub :=
    match start with
    | None => Sub (s_db st) (s_sent st) (Some (new_live ws (N.max first (s_db st))))
    | Some s0 =>
        let from := N.max (s_db st) (N.max s0 first) in
        let final := N.min latest (match stop with Some x => x | None => latest end) in
        let '(db, l, e) := historical (S (N.to_nat (final - from))) (map w_addr ws) from final (s_db st) ans in
        let next := match e with
          | EDone => match stop with
                     | None => Some (new_live ws final)
                     | Some x => if final <? x then Some (new_live ws final) else None
                     end
          | _ => None
          end in
        Sub db (s_sent st ++ l) next
    end.

  (** mod.rs:1319-1375 [poll_registry_events]: one contract up to the head [head]. *)
  Fixpoint poll (c head cur : N) (ans : list answer) : N * list clog * ending :=
    if cur <=? head then
      match ans with
      | [] => (cur, [], ECrash)
      | None :: _ => (cur, [], EError)
      | Some ok :: rest =>
          let to := N.min (match stop with Some x => N.min x head | None => head end) (cur + 8000) in
          let '(cur', l, e) := poll c head (to + 1) rest in
          (cur', processed ok (logs_in c cur to) ++ l, e)
      end
    else (cur, [], EDone).
  (** mod.rs:1493-1517: one tick over all polled contracts; [None] as head is a failed request for the head.  An error
      is logged and the next contract is polled. *)
  Fixpoint poll_all (cs : list (N * N)) (ins : list (option N * list answer)) : list (N * N) * list clog * bool :=
    match cs, ins with
    | [], _ => ([], [], true)
    | cs, [] => (cs, [], false)
    | (c, cur) :: cs, (None, _) :: ins => let '(cs', l, b) := poll_all cs ins in ((c, cur) :: cs', l, b)
    | (c, cur) :: cs, (Some head, ans) :: ins =>
        match poll c head cur ans with
        | (cur', l, ECrash) => ((c, cur') :: cs, l, false)
        | (cur', l, _) => let '(cs', l', b) := poll_all cs ins in ((c, cur') :: cs', l ++ l', b)
        end
    end.
  Definition lowest (cs : list (N * N)) : option N :=
    match cs with [] => None | (_, x) :: cs => Some (fold_left (fun a p => N.min a p.2) cs x) end.
  Definition tick (ins : list (option N * list answer)) (st : sub) (lv : live) : sub :=
    match poll_all (lv_polled lv) ins with
    | (cs, l, true) =>
        let db := match lowest cs with
                  | Some m => if 0 <? m then record (s_db st) (m - 1) else s_db st
                  | None => s_db st
                  end in
        Sub db (s_sent st ++ l) (Some (Live (lv_start lv) cs (lv_streamed lv) (lv_off lv)))
    | (_, l, false) => Sub (s_db st) (s_sent st ++ l) None
    end.

  (** mod.rs:1437-1459, 1518-1549: the stream of logs of the streamed contracts from the start block; the next [k] logs
      arrive.  Assumes a provider that gives these logs in block order, including those before the subscription. *)
  Definition stream_logs (lv : live) : list clog :=
    List.filter (fun l => existsb (N.eqb (l_contract l)) (lv_streamed lv) && (lv_start lv <=? l_block l) &&
      match stop with Some x => l_block l <=? x | None => true end) chain.
  Definition receive (ok : clog -> bool) (st : N * list clog) (l : clog) : N * list clog :=
    if ok l then (record st.1 (l_block l), st.2 ++ [l]) else st.
  Definition stream (k : nat) (ok : clog -> bool) (st : sub) (lv : live) : sub :=
    let '(db, sent) := fold_left (receive ok) (take k (drop (lv_off lv) (stream_logs lv))) (s_db st, s_sent st) in
    Sub db sent (Some (Live (lv_start lv) (lv_polled lv) (lv_streamed lv) (lv_off lv + k))).

  Inductive sop :=
  | SStart (ws : list watched) (latest : N) (ans : list answer)
  | STick (ins : list (option N * list answer))
  | SStream (k : nat) (ok : clog -> bool)
  | SResubscribe                                   (* mod.rs:1526-1529, 1689-1706: the stream ended, a new one is opened *)
  | SRetry (cs : list N) (from to : N) (ok : clog -> bool)   (* mod.rs:1571-1597 [retry_block_range] *)
  | SCrash.
  Definition sub_step (st : sub) (o : sop) : sub :=
    match o with
    | SStart ws latest ans => run_start ws latest ans st
    | STick ins => match s_live st with Some lv => tick ins st lv | None => st end
    | SStream k ok => match s_live st with Some lv => stream k ok st lv | None => st end
    | SResubscribe => match s_live st with
        | Some lv => Sub (s_db st) (s_sent st) (Some (Live (lv_start lv) (map (fun p => (p.1, lv_start lv)) (lv_polled lv)) (lv_streamed lv) 0))
        | None => st end
    | SRetry cs from to ok => match s_live st with
        | Some lv => Sub (s_db st) (s_sent st ++ processed ok (concat (map (fun c => logs_in c from to) cs))) (Some lv)
        | None => st end
    | SCrash => Sub (s_db st) (s_sent st) None
    end.
  Definition sub_run (ops : list sop) : sub := fold_left sub_step ops (Sub 0 [] None).
End Subscriber.

(** ** Username transfers *)
(** A transfer: its id and whether its strings have the expected form (fname/mod.rs:94-121). *)
Record transfer := Transfer { t_id : N; t_ok : bool }.
#[global] Instance transfer_eq_dec : EqDecision transfer.
Proof. solve_decision. Defined.
(** How a request ends: more pages, nothing new, an id that is not new, the stop id reached (the task ends). *)
Inductive fend := FMore | FEmpty | FNonSequential | FStop | FCut.
Record fst_ := FSt { f_pos : N; f_db : option N; f_sent : list transfer; f_running : bool }.

Section Fetcher.
  Context (start_from stop_at : option N).
  (** fname/mod.rs:250-273: one page; [k] bounds the transfers handled before a crash. *)
  Fixpoint fpage (k : nat) (l : list transfer) (pos : N) : N * list transfer * fend :=
    match l, k with
    | [], _ => (pos, [], FMore)
    | _, O => (pos, [], FCut)
    | t :: l, S k =>
        if t_id t <=? pos then (pos, [], FNonSequential)
        else if match stop_at with Some s => s <=? t_id t | None => false end then (pos, [], FStop)
        else let '(pos', sent, e) := fpage k l (t_id t) in (pos', (if t_ok t then [t] else []) ++ sent, e)
    end.
  (** fname/mod.rs:233-279: one answer of the server.  The id of the last transfer is recorded at the end of a page. *)
  Definition fetch_answer (l : list transfer) (st : fst_) : fst_ * fend :=
    match l with
    | [] => (st, FEmpty)
    | _ =>
        let '(pos, sent, e) := fpage (length l) l (f_pos st) in
        match e with
        | FMore => (FSt pos (if 0 <? pos then Some pos else f_db st) (f_sent st ++ sent) true, e)
        | FStop => (FSt pos (f_db st) (f_sent st ++ sent) false, e)
        | _ => (FSt pos (f_db st) (f_sent st ++ sent) true, e)
        end
    end.
  (** fname/mod.rs:309-325, 383-393 [set_initial_position]: [current] is the answer for the newest transfer. *)
  Definition initial (current : option N) (db : option N) : N :=
    match start_from with
    | None => match current with Some c => c | None => 0 end
    | Some s => N.max s (match db with Some d => d | None => 0 end)
    end.
  Inductive fop :=
  | FStart (current : option N)
  | FAnswer (l : list transfer)
  | FFail                                    (* a failed request: fname/mod.rs:420-422 *)
  | FCrash (l : list transfer) (k : nat)     (* a crash while handling a page, after [k] transfers *)
  | FRetry (l : list transfer).              (* fname/mod.rs:327-381: [retry_fid], [retry_fname] *)
  Definition fstep (st : fst_) (o : fop) : fst_ :=
    match o with
    | FStart cur => FSt (initial cur (f_db st)) (f_db st) (f_sent st) true
    | FAnswer l => if f_running st then fst (fetch_answer l st) else st
    | FFail => st
    | FCrash l k => if f_running st then let '(pos, sent, _) := fpage k l (f_pos st) in FSt pos (f_db st) (f_sent st ++ sent) false
                    else st
    | FRetry l => if f_running st then FSt (f_pos st) (f_db st) (f_sent st ++ List.filter t_ok l) true else st
    end.
  Definition frun (ops : list fop) : fst_ := fold_left fstep ops (FSt 0 None [] false).
End Fetcher.
