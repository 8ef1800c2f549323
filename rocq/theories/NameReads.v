(** Asking a node for names: src/network/server.rs:2662-2717 [get_username_proof], 2719-2798 [get_user_name_proofs_by_fid], over the
    shards of src/mempool/mempool.rs:514-529 and src/mempool/routing.rs:13-20, 39-87.

    A shard is its name stores (Names.v) and whether reading its proof store or its name registry fails. The node's map of shards
    has no order of its own: the list of shards is in the order of the map. Paging to the end (2736-2766) is the whole listing
    (C05). The routing of accounts is a parameter. *)
From Verif Require Export Names.
From stdpp Require Export strings.
#[local] Open Scope N_scope.

Record shard := Shard { sh_p_fails : bool; sh_f_fails : bool; sh_p : pst; sh_f : fst_ }.

(** [find_map]: the first shard that has something; errors count as nothing (2673-2690, 2702-2711). *)
Fixpoint find_map {A B} (f : A -> option B) (l : list A) : option B :=
  match l with [] => None | x :: r => match f x with Some y => Some y | None => find_map f r end end.
Definition read_proof (n : bytes) (s : shard) : option pmsg := if sh_p_fails s then None else proof_by_name (sh_p s) n.
Definition read_fname (n : bytes) (s : shard) : option fproof := if sh_f_fails s then None else fs_name (sh_f s) !! n.
(** 2662-2717; [None] is NOT_FOUND. *)
Definition get_username_proof (shs : list shard) (n : bytes) : option (pmsg + fproof) :=
  if is_eth n then inl <$> find_map (read_proof n) shs else inr <$> find_map (read_fname n) shs.
(** 2719-2798: a failing proof store fails the call, a failing registry is skipped. *)
Definition get_proofs_by_fid (shs : list shard) (f : N) : option (list (pmsg + fproof)) :=
  if existsb sh_p_fails shs then None
  else Some (map inl (concat (map (fun s => p_rows_of (sh_p s) f) shs)) ++
             map inr (omap (fun s => if sh_f_fails s then None else fname_by_fid (sh_f s) f) shs)).

(** ** What the shards hold *)
Inductive nitem := HProof (m : pmsg) | HXfer (p : fproof).
Section Hist.
  Variable rt : N -> N.
  (** mempool.rs:521-529: transfers go to every shard if the routing fix is on, otherwise to the shard of the new owner. *)
  Definition proofs_at (sh : N) (h : list nitem) : list pmsg :=
    omap (fun i => match i with HProof m => if rt (p_fid m) =? sh then Some m else None | HXfer _ => None end) h.
  Definition xfers_at (fix_on : bool) (sh : N) (h : list nitem) : list fproof :=
    omap (fun i => match i with HXfer p => if fix_on || (rt (f_fid p) =? sh) then Some p else None | HProof _ => None end) h.
  (** Every message in a block of its own. *)
  Definition shard_at (fix_on : bool) (h : list nitem) (sh : N) : shard :=
    Shard false false (p_run ps_init (map (fun m => [PMerge m]) (proofs_at sh h))) (f_run fs_init (xfers_at fix_on sh h)).
  Definition node_at (fix_on : bool) (h : list nitem) (ord : list N) : list shard := map (shard_at fix_on h) ord.
End Hist.
