(** Verification quota of shard 0 (src/storage/store/block_engine.rs:88-103, 273-308, 637-703, 1086-1185, 1337-1373, 1478-1560).

    The verification store of an account keeps for each address the winner of the last-writer-wins order (C12, C13, C17; here
    one row). All checks other than the quota are one flag of the message. Counters stay far below 2^32 (the row cap), so the
    checked and saturating additions are plain ones; the subtraction that fails aborts the replay ([None]). *)
From Verif Require Export Base Codec.
From stdpp Require Export gmap.
#[local] Open Scope N_scope.

(** A verification message; [v_ok]: it passed the checks before the quota (engine version, signature, signer, type and body
    agree, embedded time not before activation). *)
Record vmsg := VMsg { v_fid : N; v_add : bool; v_addr : bytes; v_ts : N; v_hash : bytes; v_ok : bool }.
#[global] Instance vmsg_eq_dec : EqDecision vmsg. Proof. solve_decision. Defined.
(** Rows by account and address, and the trie entries (account, kind, hash). *)
Record vst := VSt { vs_rows : gmap (N * bytes) vmsg; vs_trie : gset (N * bool * bytes) }.
Definition vs_init : vst := VSt ∅ ∅.
Definition v_key (m : vmsg) : N * bytes := (v_fid m, v_addr m).
Definition v_entry (m : vmsg) : N * bool * bytes := (v_fid m, v_add m, v_hash m).
(** Live adds and tombstones. *)
Record vcounts := VCounts { vc_live : N; vc_tomb : N }.

(** 273-291. *)
Definition tombstone_cap (mx : N) : N := if mx =? 0 then 0 else N.max mx 256.
Definition row_cap (mx : N) : N := mx + tombstone_cap mx.

(** 637-675 [verification_message_counts]: the trie's counts. *)
Definition v_count (t : gset (N * bool * bytes)) (f : N) (add : bool) : N :=
  N.of_nat (size (filter (fun e => e.1.1 = f /\ e.1.2 = add) t)).
Definition v_counts (t : gset (N * bool * bytes)) (f : N) : vcounts := VCounts (v_count t f true) (v_count t f false).

(** store.rs:358-383 [message_compare]: time, then removes before adds, then hash. *)
Definition v_cmp (a b : vmsg) : comparison :=
  match v_ts a ?= v_ts b with
  | Eq => match v_add a, v_add b with
          | false, true => Gt
          | true, false => Lt
          | _, _ => lex (v_hash a) (v_hash b)
          end
  | c => c
  end.

(** 1124-1185: admission of a message against the account's limit. *)
Definition v_admit (rows : gmap (N * bytes) vmsg) (c : vcounts) (mx : N) (m : vmsg) : bool :=
  let total := vc_live c + vc_tomb c in
  v_ok m && negb ((mx =? 0) && v_add m) &&
  match v_add m, v_add <$> rows !! v_key m with
  | true, Some true => true
  | true, Some false => vc_live c <? mx
  | true, None => (vc_live c <? mx) && (total <? row_cap mx)
  | false, Some _ => true
  | false, None => (vc_tomb c <? tombstone_cap mx) && (total <? row_cap mx)
  end.

(** 1337-1373 [apply_verification_count_delta]. *)
Definition v_sub (c : vcounts) (add : bool) : option vcounts :=
  if add then (if vc_live c =? 0 then None else Some (VCounts (vc_live c - 1) (vc_tomb c)))
  else if vc_tomb c =? 0 then None else Some (VCounts (vc_live c) (vc_tomb c - 1)).
Definition v_plus (c : vcounts) (add : bool) : vcounts :=
  if add then VCounts (vc_live c + 1) (vc_tomb c) else VCounts (vc_live c) (vc_tomb c + 1).
Definition v_delta (c : vcounts) (old : option vmsg) (m : vmsg) : option vcounts :=
  c ← match old with Some x => v_sub c (v_add x) | None => Some c end; Some (v_plus c (v_add m)).

(** A merge event: the message and the one it replaced. *)
Definition vevent : Type := vmsg * option vmsg.
(** One message of the loop 1478-1600: admission, merge, counters. *)
Record vloop := VLoop { vl_rows : gmap (N * bytes) vmsg; vl_counts : vcounts; vl_events : list vevent }.
Definition v_step (l : vloop) (mm : vmsg * N) : option vloop :=
  let '(m, mx) := mm in
  if v_admit (vl_rows l) (vl_counts l) mx m then
    let old := vl_rows l !! v_key m in
    match match old with Some x => v_cmp x m | None => Lt end with
    | Lt => c ← v_delta (vl_counts l) old m; Some (VLoop (<[v_key m := m]> (vl_rows l)) c (vl_events l ++ [(m, old)]))
    | _ => Some l
    end
  else Some l.
Fixpoint v_loop (l : vloop) (ms : list (vmsg * N)) : option vloop :=
  match ms with [] => Some l | m :: r => l ← v_step l m; v_loop l r end.
(** The trie is updated for the events after the loop (merkle_trie.rs:229-246: insert, then delete). *)
Definition v_trie_event (t : gset (N * bool * bytes)) (e : vevent) : gset (N * bool * bytes) :=
  let t := t ∪ {[ v_entry e.1 ]} in match e.2 with Some x => t ∖ {[ v_entry x ]} | None => t end.
(** A transaction: its account and the messages, each with the limit of the transaction's account at that point (lends in the
    same transaction change it). The counters are those of the transaction's account. *)
Definition vtxn : Type := N * list (vmsg * N).
Definition v_txn (s : vst) (t : vtxn) : option vst :=
  l ← v_loop (VLoop (vs_rows s) (v_counts (vs_trie s) t.1) []) t.2;
  Some (VSt (vl_rows l) (foldl v_trie_event (vs_trie s) (vl_events l))).
Fixpoint v_run (s : vst) (ts : list vtxn) : option vst :=
  match ts with [] => Some s | t :: r => s ← v_txn s t; v_run s r end.

(** The real numbers. *)
Definition v_real (rows : gmap (N * bytes) vmsg) (f : N) (add : bool) : N :=
  N.of_nat (size (filter (fun e => e.1.1 = f /\ v_add e.2 = add) rows)).
