(** What transactions should amount to: one after the other, in the order of their commits. *)
From Verif Require Export Txn.

(** A transaction alone on the database. *)
Fixpoint run_from (db : kv bytes) (b : batch bytes) (p : prog) : kv bytes :=
  match p with
  | PRet ok => if ok then commit db b else db
  | PGet k c => run_from db b (c (tget db b k))
  | PWrite k v p => run_from db (<[k := v]> b) p
  end.
Definition serial (db : kv bytes) (p : prog) : kv bytes := run_from db ∅ p.

(** The programs that ended, in the order in which they ended; [b]: the programs begun. *)
Fixpoint ended (b : gmap nat prog) (ls : list label) : list prog :=
  match ls with
  | [] => []
  | LBegin i p :: ls => ended (<[i := p]> b) ls
  | LStep _ :: ls => ended b ls
  | LEnd i :: ls => match b !! i with Some p => [p] | None => [] end ++ ended (delete i b) ls
  | LAbort i :: ls => ended (delete i b) ls
  end.

(** Keys are touched in ascending order, from [lo] on, whatever is read. *)
Fixpoint asc (lo : bytes) (p : prog) : Prop :=
  match p with
  | PRet _ => True
  | PGet k c => ble lo k = true /\ forall v, asc k (c v)
  | PWrite k _ p => ble lo k = true /\ asc k p
  end.
Definition asc_label (l : label) : Prop := match l with LBegin _ p => asc [] p | _ => True end.
Definition orderly (l : label) : Prop := match l with LStep _ | LEnd _ => True | _ => False end.
