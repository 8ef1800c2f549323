(** Key-value database with transaction batches: src/storage/db/rocksdb.rs.
    RocksDB itself is an external library; it is modelled as a finite map from byte strings to values. *)
From stdpp Require Export gmap.
From Verif Require Export Base.

Section Kv.
  Context {V : Type}.

  (** The committed contents. *)
  Notation kv := (gmap bytes V).
  (** rocksdb.rs:33-35 [RocksDbTransactionBatch]: key -> [Some v] (put) or [None] (delete). *)
  Notation batch := (gmap bytes (option V)).

  (** rocksdb.rs:44-46. *)
  Definition tput (t : batch) (k : bytes) (v : V) : batch := <[k := Some v]> t.
  (** rocksdb.rs:48-50. *)
  Definition tdel (t : batch) (k : bytes) : batch := <[k := None]> t.
  (** rocksdb.rs:52-56 [merge]: entries of [o] override entries of [t]. *)
  Definition tmerge (t o : batch) : batch := o ∪ t.
  (** rocksdb.rs commit: all entries of the batch are applied atomically. *)
  Definition commit (db : kv) (t : batch) : kv :=
    merge (fun d t => match t with Some v => v | None => d end) db t.
  (** message.rs:197-207 [get_from_db_or_txn]: the batch first, tombstones included, then the database. *)
  Definition tget (db : kv) (t : batch) (k : bytes) : option V :=
    match t !! k with Some v => v | None => db !! k end.

  Lemma lookup_commit db t k : commit db t !! k = tget db t k.
  Proof. unfold commit, tget. rewrite lookup_merge. by destruct (db !! k), (t !! k) as [[]|]. Qed.
  Lemma tget_put db t k v : tget db (tput t k v) k = Some v.
  Proof. unfold tget, tput. by rewrite lookup_insert. Qed.
  Lemma tget_put_ne db t k k' v : k <> k' -> tget db (tput t k v) k' = tget db t k'.
  Proof. intros. unfold tget, tput. by rewrite lookup_insert_ne. Qed.
  Lemma tget_del db t k : tget db (tdel t k) k = None.
  Proof. unfold tget, tdel. by rewrite lookup_insert. Qed.
  Lemma tget_del_ne db t k k' : k <> k' -> tget db (tdel t k) k' = tget db t k'.
  Proof. intros. unfold tget, tdel. by rewrite lookup_insert_ne. Qed.
  Lemma lookup_tmerge t o k : tmerge t o !! k = match o !! k with Some v => Some v | None => t !! k end.
  Proof.
    unfold tmerge. destruct (o !! k) eqn:E.
    - by apply lookup_union_Some_l.
    - by apply lookup_union_r.
  Qed.
  Lemma tget_merge db t o k : tget db (tmerge t o) k = match o !! k with Some v => v | None => tget db t k end.
  Proof. unfold tget. rewrite lookup_tmerge. by destruct (o !! k). Qed.
  Lemma tget_empty db k : tget db ∅ k = db !! k.
  Proof. unfold tget. by rewrite lookup_empty. Qed.
  Lemma commit_empty db : commit db ∅ = db.
  Proof. apply map_eq. intros k. by rewrite lookup_commit, tget_empty. Qed.
End Kv.
Notation kv V := (gmap bytes V).
Notation batch V := (gmap bytes (option V)).
