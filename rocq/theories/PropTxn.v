(** Property C68: concurrent transactions behave as if run one after the other, and never deadlock. *)
From Verif Require Import TxnProofs.
#[local] Open Scope N_scope.

Definition sys_init (db : kv bytes) : sys := Sys db ∅.
Lemma init_ok db : ok_sys ∅ (sys_init db).
Proof. split; cbn; intros i *; by rewrite lookup_empty. Qed.
Lemma init_asc db : asc_sys (sys_init db).
Proof. intros i t. cbn. by rewrite lookup_empty. Qed.

(** C68. Whatever the interleaving of any transactions, aborts included, the database is the one obtained by running the
    transactions that ended, alone and in the order of their ends. *)
Theorem C68_serializable : forall db ls s, sys_run (sys_init db) ls = Some s -> s_db s = fold_left serial (ended ∅ ls) db.
Proof. intros db ls s H. by apply (run_ok ls ∅ (sys_init db) s (init_ok db) H). Qed.

(** If every transaction touches its keys in ascending order, then in every reachable state in which a transaction is
    active some transaction can go on, ... *)
Theorem C68_no_deadlock : forall db ls s, sys_run (sys_init db) ls = Some s -> Forall asc_label ls -> s_act s <> ∅ ->
  exists l, orderly l /\ sys_step s l <> None.
Proof.
  intros db ls s H Ha Hne. destruct (run_ok ls ∅ (sys_init db) s (init_ok db) H) as [[b Hok] _].
  pose proof (asc_run ls _ _ (init_asc db) Ha H) as Has.
  destruct (complete_all _ b s eq_refl Hok Has) as ([|l ls'] & s' & Hl & Hr & He).
  - cbn in Hr. injection Hr as ->. done.
  - exists l. apply Forall_cons in Hl as [Hl _]. split; [done|]. cbn in Hr. by destruct (sys_step s l).
Qed.
(** ... and all of them can be completed without aborting any. *)
Theorem C68_can_complete : forall db ls s, sys_run (sys_init db) ls = Some s -> Forall asc_label ls ->
  exists ls' s', Forall orderly ls' /\ sys_run s ls' = Some s' /\ s_act s' = ∅.
Proof.
  intros db ls s H Ha. destruct (run_ok ls ∅ (sys_init db) s (init_ok db) H) as [[b Hok] _].
  exact (complete_all _ b s eq_refl Hok (asc_run ls _ _ (init_asc db) Ha H)).
Qed.

(** [RocksDB::commit] writes its batch in ascending order, whatever the order of the hash map, and amounts to the atomic
    application of the batch. *)
Theorem C68_commit : forall t, asc [] (commit_prog t) /\ forall db, serial db (commit_prog t) = commit db t.
Proof. intros t. split; [apply commit_prog_asc|]. intros db. apply commit_prog_serial. Qed.
Theorem C68_put_del : forall db k v, asc [] (put_prog k v) /\ asc [] (del_prog k) /\
  serial db (put_prog k v) = <[k := v]> db /\ serial db (del_prog k) = delete k db.
Proof.
  intros db k v. cbn. assert (ble [] k = true) by by destruct k. repeat split; try done.
  all: apply map_eq; intros k'; rewrite lookup_commit; unfold tget; destruct (decide (k = k')) as [->|Hne].
  all: by rewrite ?lookup_insert, ?lookup_delete || (rewrite !lookup_insert_ne, ?lookup_delete_ne, lookup_empty by done).
Qed.

(** The order matters: two transactions that write the same two keys in opposite orders block each other for good. *)
Definition ex_ab : prog := PWrite [1] (Some [7]) (PWrite [2] (Some [7]) (PRet true)).
Definition ex_ba : prog := PWrite [2] (Some [8]) (PWrite [1] (Some [8]) (PRet true)).
Theorem C68_unsorted_deadlock : exists s, sys_run (sys_init ∅) [LBegin 0 ex_ab; LBegin 1 ex_ba; LStep 0; LStep 1] = Some s /\
  forall l, orderly l -> sys_step s l = None.
Proof.
  pose (t0 := Txn (PWrite [2] (Some [7]) (PRet true)) (<[ [1] := Some [7] ]> ∅) ({[ [1] ]} ∪ ∅)).
  pose (t1 := Txn (PWrite [1] (Some [8]) (PRet true)) (<[ [2] := Some [8] ]> ∅) ({[ [2] ]} ∪ ∅)).
  exists (Sys ∅ (<[1%nat := t1]> (<[0%nat := t0]> (<[1%nat := Txn ex_ba ∅ ∅]> (<[0%nat := Txn ex_ab ∅ ∅]> ∅))))).
  split; [done|]. intros l Hl.
  assert (Hn : forall i, (2 <= i)%nat -> (<[1%nat := t1]> (<[0%nat := t0]> (<[1%nat := Txn ex_ba ∅ ∅]> (<[0%nat := Txn ex_ab ∅ ∅]> (∅ : gmap nat txn))))) !! i = None).
  { intros i Hi. rewrite !lookup_insert_ne by lia. apply lookup_empty. }
  destruct l as [i p|i|i|i]; try done; (destruct i as [|[|i]]; [done|done|]); unfold sys_step; cbn [s_act]; rewrite Hn by lia; done.
Qed.

(** The hypotheses are satisfiable: a read-modify-write of one key races with two writers, one of them is aborted. *)
Definition ex_rmw : prog := PGet [1] (fun v => match v with None => PRet true | Some x => PWrite [2] (Some x) (PRet true) end).
Definition ex_ls : list label :=
  [LBegin 0 ex_rmw; LBegin 1 (commit_prog {[ [2] := Some [9]; [1] := None ]}); LStep 0; LBegin 2 ex_ab; LAbort 2; LStep 0; LEnd 0; LStep 1; LStep 1; LEnd 1].
Example C68_satisfiable : Forall asc_label ex_ls /\
  match sys_run (sys_init {[ [1] := [5] ]}) ex_ls with
  | Some s => bool_decide (s_db s !! [2] = Some [9]) && bool_decide (s_db s !! [1] = None) && bool_decide (length (ended ∅ ex_ls) = 2%nat)
  | None => false
  end = true.
Proof.
  split.
  - repeat constructor; try done. intros [x|]; cbn; done.
  - by vm_compute.
Qed.

Print Assumptions C68_serializable.
Print Assumptions C68_no_deadlock.
Print Assumptions C68_can_complete.
Print Assumptions C68_commit.
Print Assumptions C68_unsorted_deadlock.
