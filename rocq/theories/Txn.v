(** Pessimistic transactions: rocksdb.rs:377-439 [commit], [transaction_with], over RocksDB's TransactionDB.
    The library is modelled from its documentation: a transaction takes an exclusive lock on a key when it writes it or
    reads it with [get_for_update], waits while another transaction holds it, sees its own writes, and keeps its locks
    until it commits or rolls back; its writes appear at the commit, all at once.  [db.put] and [db.delete] outside of a
    transaction are transactions of one write.  A lock timeout is an abort. *)
From stdpp Require Export sorting.
From Verif Require Export Kv.

(** What a transaction does; [PRet false]: the closure returned an error and the transaction is dropped. *)
Inductive prog :=
| PRet (ok : bool)
| PGet (k : bytes) (c : option bytes -> prog)
| PWrite (k : bytes) (v : option bytes) (p : prog).

Record txn := Txn { t_prog : prog; t_batch : batch bytes; t_held : gset bytes }.
Record sys := Sys { s_db : kv bytes; s_act : gmap nat txn }.

Inductive label := LBegin (i : nat) (p : prog) | LStep (i : nat) | LEnd (i : nat) | LAbort (i : nat).

(** No other transaction holds the key. *)
Definition free (s : sys) (i : nat) (k : bytes) : bool :=
  bool_decide (map_Forall (fun j t => j = i \/ k ∉ t_held t) (s_act s)).
Definition with_txn (s : sys) (i : nat) (t : txn) : sys := Sys (s_db s) (<[i := t]> (s_act s)).

(** One step of the system; [None]: not possible, the transaction waits. *)
Definition sys_step (s : sys) (l : label) : option sys :=
  match l with
  | LBegin i p => match s_act s !! i with None => Some (with_txn s i (Txn p ∅ ∅)) | Some _ => None end
  | LStep i =>
      match s_act s !! i with
      | Some (Txn (PGet k c) b h) =>
          if free s i k then Some (with_txn s i (Txn (c (tget (s_db s) b k)) b ({[k]} ∪ h))) else None
      | Some (Txn (PWrite k v p) b h) =>
          if free s i k then Some (with_txn s i (Txn p (<[k := v]> b) ({[k]} ∪ h))) else None
      | _ => None
      end
  | LEnd i =>
      match s_act s !! i with
      | Some (Txn (PRet ok) b _) => Some (Sys (if ok then commit (s_db s) b else s_db s) (delete i (s_act s)))
      | _ => None
      end
  | LAbort i => match s_act s !! i with Some _ => Some (Sys (s_db s) (delete i (s_act s))) | None => None end
  end.
Fixpoint sys_run (s : sys) (ls : list label) : option sys :=
  match ls with
  | [] => Some s
  | l :: ls => match sys_step s l with Some s => sys_run s ls | None => None end
  end.

(** rocksdb.rs:377-410 [commit]: the entries of the batch in ascending key order. *)
Definition entry_le (a b : bytes * option bytes) : Prop := ble a.1 b.1 = true.
#[export] Instance entry_le_dec a b : Decision (entry_le a b).
Proof. unfold entry_le. apply _. Defined.
Definition write_all (l : list (bytes * option bytes)) : prog := fold_right (fun e p => PWrite e.1 e.2 p) (PRet true) l.
Definition commit_prog (t : batch bytes) : prog := write_all (merge_sort entry_le (map_to_list t)).
(** rocksdb.rs:348-366 [put], [del]. *)
Definition put_prog (k v : bytes) : prog := PWrite k (Some v) (PRet true).
Definition del_prog (k : bytes) : prog := PWrite k None (PRet true).
