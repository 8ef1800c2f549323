(** How a node gets its database before it serves: src/main.rs:339-440, with the bootstrap by replication
    (src/bootstrap/replication/service.rs:199-214, 405-434) and the download of snapshots
    (src/storage/db/snapshot.rs:265-445) as the sequences of changes they make to the disk.

    Simplifications.  The database directory holds one directory for each shard, and the working directory
    [.snapshot] of the bootstrap; a shard's directory is a map from file names to contents.  What the network delivers
    is an argument, the same for every attempt.  RocksDB changing its own files while the bootstrap writes is left out: a
    file is written once, whole.  A run stops after any number of changes, by a crash, a signal or an error. *)
From stdpp Require Import gmap.
From Verif Require Import Base.

Notation files := (gmap bytes bytes).
Record disk := Disk { dk_main : gmap N files; dk_work : option (gmap N files) }.
Definition disk0 : disk := Disk ∅ None.

(** One change: unpack a file (snapshot.rs:420-423), write one in the working directory, or rename a shard's directory
    out of it (service.rs:204-214). *)
Inductive dop := OUnpack (s : N) (f c : bytes) | OWork (s : N) (f c : bytes) | OMove (s : N).

Definition put_file (m : gmap N files) (s : N) (f c : bytes) : gmap N files :=
  <[s := <[f := c]> (default ∅ (m !! s))]> m.
Definition apply_op (d : disk) (o : dop) : disk :=
  match o with
  | OUnpack s f c => Disk (put_file (dk_main d) s f c) (dk_work d)
  | OWork s f c => Disk (dk_main d) (Some (put_file (default ∅ (dk_work d)) s f c))
  | OMove s =>
      match dk_work d with
      | Some w => match w !! s with Some fs => Disk (<[s := fs]> (dk_main d)) (Some (delete s w)) | None => d end
      | None => d
      end
  end.
Definition apply_ops (d : disk) (l : list dop) : disk := foldl apply_op d l.

(** What the network delivers: for each shard the files. *)
Definition archive := list (N * list (bytes * bytes)).
Definition shard_ops (mk : N -> bytes -> bytes -> dop) (e : N * list (bytes * bytes)) : list dop :=
  map (fun f => mk e.1 f.1 f.2) e.2.
(** snapshot.rs:289-424: shard after shard, all straight into the database directory. *)
Definition download_ops (a : archive) : list dop := concat (map (shard_ops OUnpack) a).
(** service.rs:340-434: everything into the working directory, then one rename for each shard. *)
Definition replicate_ops (a : archive) : list dop := concat (map (shard_ops OWork) a) ++ map (fun e => OMove e.1) a.

(** snapshot.rs:26-58, cfg.rs. *)
Inductive boot_method := Replicate | Snapshot.
Record bcfg := Bcfg { bc_clear : bool; bc_method : boot_method; bc_load : bool; bc_force : bool }.

(** main.rs:365-366, 243-246: no database directory, or no entry in it; the working directory is an entry. *)
Definition db_is_empty (d : disk) : bool := bool_decide (dk_main d = ∅) && bool_decide (dk_work d = None).
(** main.rs:339-353. *)
Definition after_clear (cfg : bcfg) (d : disk) : disk := if bc_clear cfg then disk0 else d.
(** main.rs:368-440. *)
Definition start_ops (cfg : bcfg) (a : archive) (d : disk) : list dop :=
  if db_is_empty d then
    match bc_method cfg with
    | Replicate => replicate_ops a
    | Snapshot => if bc_force cfg || bc_load cfg then download_ops a else []
    end
  else if bc_force cfg then download_ops a else [].
(** A start that gets through [n] changes: the disk, and whether the node goes on to serve. *)
Definition start (cfg : bcfg) (a : archive) (n : nat) (d : disk) : disk * bool :=
  let d := after_clear cfg d in
  let ops := start_ops cfg a d in
  (apply_ops d (take n ops), (length ops <=? n)%nat).
