(** Uploaded database snapshots: src/storage/db/multi_chunk_writer.rs, backup.rs, snapshot.rs and
    src/jobs/snapshot_upload.rs.

    Simplifications.  File names, object keys and contents are byte strings.  RocksDB files and the tar format are a
    pair of functions given by the caller: the list of buffers that [tar::Builder] writes for a database directory, and
    the reader of an archive; so are gzip and its reader.  Every write of a buffer is whole (gzp's [ParCompress::write]
    takes the whole buffer).  The metadata file is kept as its three fields, not as JSON.  Retries are not modelled: a
    put either happens or the upload ends there.  The bucket and the public download address are two arguments: the
    address may serve older contents than the bucket holds. *)
From Verif Require Export Base Kv Paging.
From Verif Require ChannelUri.
#[local] Open Scope N_scope.

(** ** The chunk writer (multi_chunk_writer.rs) *)

(** 16-22: the part number, the bytes in the open part, the open part, and the files finished so far. *)
Record mcw := Mcw { w_part : N; w_size : N; w_open : option bytes; w_files : list (N * bytes) }.
(** 25-33. *)
Definition mcw_new : mcw := Mcw 0 0 None [].
(** 63-80 [finish]. *)
Definition mcw_finish (w : mcw) : mcw :=
  match w_open w with
  | Some b => Mcw (w_part w) (w_size w) None (w_files w ++ [(w_part w, b)])
  | None => w
  end.
(** 42-61 [next_part]. *)
Definition next_part (w : mcw) : mcw :=
  let w := mcw_finish w in Mcw (w_part w + 1) 0 (Some []) (w_files w).
(** 84-97 [write]. *)
Definition mcw_write (max : N) (w : mcw) (buf : bytes) : mcw :=
  let n := N.of_nat (length buf) in
  let w := if bool_decide (w_open w = None) || (max <? w_size w + n) then next_part w else w in
  match w_open w with
  | Some b => Mcw (w_part w) (w_size w + n) (Some (b ++ buf)) (w_files w)
  | None => w
  end.
(** backup.rs:34-43: the files that one archive is written to, in the order of their numbers. *)
Definition chunk_files (max : N) (bufs : list bytes) : list (N * bytes) :=
  w_files (mcw_finish (foldl (mcw_write max) mcw_new bufs)).
(** backup.rs:36. *)
Definition MAX_CHUNK : N := 100 * 1024 * 1024.

(** multi_chunk_writer.rs:49-51 [format!("chunk_{:04}.bin", part)]: at least four digits. *)
Definition pad4 (b : bytes) : bytes := repeat 48 (4 - length b) ++ b.
Definition chunk_name (part : N) : bytes :=
  [99; 104; 117; 110; 107; 95] ++ pad4 (ChannelUri.to_string part) ++ [46; 98; 105; 110].

(** ** The copy of the database (backup.rs:56-148) *)

(** rocksdb.rs [DBProvider], or the database is not open. *)
Inductive provider := PTransaction (d : kv bytes) | PReadOnly (d : kv bytes) | PNotOpen.

Definition put_rows (d : kv bytes) (l : list (bytes * bytes)) : kv bytes := foldl (fun d e => <[e.1 := e.2]> d) d l.
(** 111-124, 127: rows are gathered and written [lim] at a time, what is left at the end. *)
Fixpoint copy_rows (lim : nat) (batch : list (bytes * bytes)) (l : list (bytes * bytes)) (d : kv bytes) : kv bytes :=
  match l with
  | [] => put_rows d batch
  | r :: l =>
      let batch := batch ++ [r] in
      if (lim <=? length batch)%nat then copy_rows lim [] l (put_rows d batch) else copy_rows lim batch l d
  end.
(** 95-132: the thread only warns when there is no snapshot to read, and the caller goes on. *)
Definition backup_copy (lim : nat) (p : provider) : kv bytes :=
  match p with
  | PTransaction d => copy_rows lim [] (rows d) ∅
  | PReadOnly _ | PNotOpen => ∅
  end.

(** ** The bucket (snapshot.rs) *)

(** 145-150 [SnapshotMetadata], and the content of a chunk. *)
Inductive obj := OChunk (b : bytes) | OMeta (key_base : bytes) (chunks : list bytes) (timestamp : N).
Notation bucket := (gmap bytes obj).

Definition SLASH : N := 47.
(** 86-88 [snapshot_directory]: the network's name, a slash, the shard in decimal; no slash at the end. *)
Definition snap_dir (net : bytes) (shard : N) : bytes := net ++ [SLASH] ++ ChannelUri.to_string shard.
(** 239-245 [metadata_path]: latest.json in that directory. *)
Definition LATEST : bytes := [108; 97; 116; 101; 115; 116; 46; 106; 115; 111; 110].
Definition meta_path (net : bytes) (shard : N) : bytes := snap_dir net shard ++ [SLASH] ++ LATEST.
(** 542-547: "{dir}/snapshot-{date}-{seconds}.tar.gz"; [date] renders the day of a time in milliseconds. *)
Definition snap_name (date : N -> bytes) (ms : N) : bytes :=
  [115; 110; 97; 112; 115; 104; 111; 116; 45] ++ date ms ++ [45] ++ ChannelUri.to_string (ms / 1000) ++
  [46; 116; 97; 114; 46; 103; 122].
Definition upload_dir (net : bytes) (date : N -> bytes) (shard ms : N) : bytes :=
  snap_dir net shard ++ [SLASH] ++ snap_name date ms.

(** 530-644 [upload_to_s3]: the puts in order, one for each file of the chunk directory as [read_dir] lists it, then
    the metadata naming them in that order. *)
Definition upload_puts (net : bytes) (date : N -> bytes) (shard ms : N) (files : list (bytes * bytes)) : list (bytes * obj) :=
  let base := upload_dir net date shard ms in
  map (fun f => (base ++ [SLASH] ++ f.1, OChunk f.2)) files ++
  [(meta_path net shard, OMeta base (map fst files) ms)].
Definition do_puts (b : bucket) (l : list (bytes * obj)) : bucket := foldl (fun b p => <[p.1 := p.2]> b) b l.
(** The upload that ends after [n] puts; it succeeded when that is all of them. *)
Definition upload (n : nat) (b : bucket) (puts : list (bytes * obj)) : bucket * bool :=
  (do_puts b (take n puts), (length puts <=? n)%nat).

(** [str::contains]. *)
Fixpoint contains (sub s : bytes) : bool :=
  is_prefix sub s || match s with [] => false | _ :: s' => contains sub s' end.
(** 167-190 [get_objects_under_key]: one listing, of at most [lim] keys (the service's page of 1000), in key order. *)
Definition list_keys (lim : nat) (b : bucket) (pre : bytes) : list bytes :=
  take lim (filter (fun k => is_prefix pre k = true) (rows b).*1).
(** 247-263 [download_metadata], from the public address. *)
Definition metadata (view : bucket) (net : bytes) (shard : N) : option (bytes * list bytes * N) :=
  match view !! meta_path net shard with
  | Some (OMeta base chunks ts) => Some (base, chunks, ts)
  | _ => None
  end.
(** 200-209: the listed objects that belong neither to the current snapshot nor to the metadata. *)
Definition old_keys (lim : nat) (b : bucket) (net : bytes) (shard : N) (base : bytes) : list bytes :=
  filter (fun k => negb (contains base k) && negb (contains (meta_path net shard) k) = true)
    (list_keys lim b (snap_dir net shard)).
(** 192-237 [clear_old_snapshots]. *)
Definition clear_old (lim : nat) (b view : bucket) (net : bytes) (shard : N) : option bucket :=
  match metadata view net shard with
  | Some (base, _, _) => Some (foldl (fun b k => delete k b) b (old_keys lim b net shard base))
  | None => None
  end.

(** 289-424, one shard of [download_snapshots]: the chunks in the order of the metadata, unpacked one after another. *)
Definition download_stream (gunzip : bytes -> option bytes) (view : bucket) (net : bytes) (shard : N) : option bytes :=
  match metadata view net shard with
  | Some (base, chunks, _) =>
      match mapM (fun c => match view !! (base ++ [SLASH] ++ c) with Some (OChunk b) => gunzip b | _ => None end) chunks with
      | Some parts => Some (concat parts)
      | None => None
      end
  | None => None
  end.

(** backup.rs:6-54 and snapshot.rs:548-553: the files of the chunk directory, compressed; [read_dir] lists them in any
    order. *)
Definition chunk_dir (gz : bytes -> bytes) (max : N) (bufs : list bytes) : list (bytes * bytes) :=
  map (fun f => (chunk_name f.1, gz f.2)) (chunk_files max bufs).

(** ** The guard of an upload (snapshot_upload.rs:47-167) *)

(** 14, in milliseconds. *)
Definition STALE : Z := 12 * 60 * 60 * 1000.
(** The backup directory: the names in it, and its modification time.  The time changes when an entry of the directory
    itself is made or removed, not when a file deeper in is written. *)
Record bdir := Bdir { bd_entries : gset N; bd_mtime : Z }.
(** 56-101: at time [now]; [None] is [UploadAlreadyInProgress]. *)
Definition upload_guard (now : Z) (d : bdir) : option bdir :=
  if bool_decide (bd_entries d = ∅) then Some d
  else if bool_decide (now < bd_mtime d)%Z || bool_decide (STALE < now - bd_mtime d)%Z then Some (Bdir ∅ now)
  else None.
(** backup.rs:67-85, 30-43, 145 and snapshot_upload.rs:150-163: an upload makes an entry, removes one, or removes all. *)
Definition make_entry (now : Z) (e : N) (d : bdir) : bdir := Bdir ({[e]} ∪ bd_entries d) now.
Definition drop_entry (now : Z) (e : N) (d : bdir) : bdir :=
  if bool_decide (e ∈ bd_entries d) then Bdir (bd_entries d ∖ {[e]}) now else d.
Definition drop_all (now : Z) (d : bdir) : bdir := Bdir ∅ (if bool_decide (bd_entries d = ∅) then bd_mtime d else now).

(** The node: the directory and the uploads that run.  Each knows its id.  A crash ends all of them and leaves the
    directory as it is. *)
Record gstate := Gs { gs_dir : bdir; gs_run : gset N }.
Inductive gevent := GStart (u : N) | GMake (u e : N) | GDrop (u e : N) | GFinish (u : N) | GCrash.
Definition gstep (now : Z) (s : gstate) (ev : gevent) : gstate :=
  match ev with
  | GStart u =>
      match upload_guard now (gs_dir s) with
      | Some d => Gs d ({[u]} ∪ gs_run s)
      | None => s
      end
  | GMake u e => if bool_decide (u ∈ gs_run s) then Gs (make_entry now e (gs_dir s)) (gs_run s) else s
  | GDrop u e => if bool_decide (u ∈ gs_run s) then Gs (drop_entry now e (gs_dir s)) (gs_run s) else s
  | GFinish u => if bool_decide (u ∈ gs_run s) then Gs (drop_all now (gs_dir s)) (gs_run s ∖ {[u]}) else s
  | GCrash => Gs (gs_dir s) ∅
  end.
Definition grun (s : gstate) (l : list (Z * gevent)) : gstate := foldl (fun s e => gstep e.1 s e.2) s l.
