(** The tasks of a bootstrap and their two locks (src/bootstrap/replication/service.rs:565-830, 861-1055), and resuming.

    Up to four tasks, one per virtual trie shard, process pages of one shard. A page is added to the shared trie in memory
    under one lock (l.654), which yields a batch with the nodes it rewrote; later, after the account roots are checked, the
    batch is written under another lock (l.572). Nothing orders the writes of different tasks.

    A node row stands for the keys that its hash commits to; there is a row for every prefix of a key (the code compacts
    single keys into leaves; fewer rows, same sharing). Messages and statuses are written with the batch and are left out.
    Two-phase steps of one task alternate; [SFail] is a page whose account roots differ (l.966-973): its keys stay in the trie
    in memory while the other tasks carry on with all their pages (l.786-821 only stops new tasks). *)
From Verif Require Export Base.
From stdpp Require Export gmap.

Definition below (K : gset bytes) (p : bytes) : gset bytes := filter (fun k => p `prefix_of` k) K.
(** The prefixes of a key: the nodes on its path. *)
Definition path (k : bytes) : list bytes := (fun n => take n k) <$> seq 0 (S (length k)).
(** trie_node.rs: inserting rewrites every node on the paths of the new keys. *)
Definition node_rows (K new : gset bytes) : gmap bytes (gset bytes) :=
  list_to_map ((fun p => (p, below K p)) <$> (elements new ≫= path)).

Record bst := BSt { b_mem : gset bytes; b_pend : list (N * gmap bytes (gset bytes)); b_rows : gmap bytes (gset bytes) }.
Definition b_init : bst := BSt ∅ [] ∅.
Inductive bev := STrie (t : N) (ks : gset bytes) | SDb (t : N) | SFail (t : N) | SRestart.
Definition pending (t : N) (l : list (N * gmap bytes (gset bytes))) : option (gmap bytes (gset bytes)) :=
  match list_find (fun x => x.1 = t) l with Some (_, x) => Some x.2 | None => None end.
Definition drop_task (t : N) (l : list (N * gmap bytes (gset bytes))) := filter (fun x => x.1 <> t) l.
Definition bstep (s : bst) (e : bev) : bst :=
  match e with
  | STrie t ks => BSt (b_mem s ∪ ks) (b_pend s ++ [(t, node_rows (b_mem s ∪ ks) (ks ∖ b_mem s))]) (b_rows s)
  | SDb t => match pending t (b_pend s) with
             | Some b => BSt (b_mem s) (drop_task t (b_pend s)) (b ∪ b_rows s)
             | None => s
             end
  | SFail t => BSt (b_mem s) (drop_task t (b_pend s)) (b_rows s)
  (* a stop or crash: what was not written is gone; the trie is read from its rows. This is exact if they are the rows of a
     trie; from other rows no theorem takes further pages *)
  | SRestart => BSt (filter (fun k => is_Some (b_rows s !! k)) (default ∅ (b_rows s !! []))) [] (b_rows s)
  end.
Definition brun (s : bst) (es : list bev) : bst := foldl bstep s es.

(** service.rs:1119-1160 [verify_shard_roots]: the stored root row against the keys of the snapshot. *)
Definition verified (s : bst) (all : gset bytes) : bool := bool_decide (default ∅ (b_rows s !! []) = all).

(** ** Resuming (service.rs:216-236)
    The status of a virtual shard holds the snapshot's height, but a resumed bootstrap only reads the token in it: the rest
    of the pages comes from the snapshot the peers have then. Up to [cut] the keys are from the old one. *)
Definition resumed (old new : gset bytes) (cut : bytes -> bool) : gset bytes :=
  filter (fun k => cut k = true) old ∪ filter (fun k => cut k = false) new.
