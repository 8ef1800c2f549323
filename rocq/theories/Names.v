(** Names: username proofs (src/storage/store/account/username_proof_store.rs), registered names
    (src/storage/store/account/name_registry_events.rs, user_data_store.rs:261-327) and the displayed username
    (src/storage/store/engine.rs:1316-1400, 2229-2270, 2312-2341).

    One shard. Point reads go to the transaction's view, range scans and the lookup of a displayed username read the
    committed state [db] (C11). Maps are keyed by what the database keys contain; account ids are 4 bytes in keys.
    Signature and name-syntax checks are not modelled. *)
From Verif Require Export Base Codec.
From stdpp Require Export gmap sorting.
#[local] Open Scope N_scope.

Definition fidk (f : N) : N := f mod 2 ^ 32.

(** ** Username proofs *)

(** A USERNAME_PROOF message: author, time, hash, signer, and of the body the name and the claimed account. *)
Record pmsg := PMsg { p_fid : N; p_ts : N; p_hash : bytes; p_signer : bytes; p_name : bytes; p_claim : N }.
#[global] Instance pmsg_eq_dec : EqDecision pmsg. Proof. solve_decision. Defined.
(** Message rows, the add index of the account and the by-name index. *)
Record pst := PSt { ps_rows : gmap (N * bytes) pmsg; ps_adds : gmap (N * bytes) bytes; ps_name : gmap bytes N }.
Definition ps_init : pst := PSt ∅ ∅ ∅.
Inductive perr := PBadHash | PDangling | PConflict | PDuplicate | PEmptyName.
Definition p_tsh (m : pmsg) : option bytes := make_ts_hash (p_ts m) (p_hash m).

(** username_proof_store.rs:186-253 [get_merge_conflicts] with the comparison of store.rs:358-383 (same type on both sides,
    so timestamp and hash, i.e. the bytes of the ts_hash). A by-name row without add row is an error. *)
Definition p_conflicts (v : pst) (m : pmsg) (th : bytes) : perr + list pmsg :=
  match ps_name v !! p_name m with
  | None => inr []
  | Some f =>
      if f =? 0 then inr []
      else match ps_adds v !! (f, p_name m) with
           | None => inl PDangling
           | Some t =>
               match ps_rows v !! (f, t) with
               | None => inr []
               | Some x => match lex t th with Gt => inl PConflict | Eq => inl PDuplicate | Lt => inr [x] end
               end
           end
  end.
(** store.rs:675-689 [delete_add_transaction] with username_proof_store.rs:153-184: the by-name row goes whoever it names. *)
Definition p_delete (v : pst) (x : pmsg) : pst * option perr :=
  match p_name x with
  | [] => (v, Some PEmptyName)
  | _ =>
      let v := PSt (ps_rows v) (delete (fidk (p_fid x), p_name x) (ps_adds v)) (delete (p_name x) (ps_name v)) in
      match p_tsh x with
      | None => (v, Some PBadHash)
      | Some t => (PSt (delete (fidk (p_fid x), t) (ps_rows v)) (ps_adds v) (ps_name v), None)
      end
  end.
(** store.rs:635-655 [put_add_transaction] with username_proof_store.rs:116-150: row, add index, by-name index. *)
Definition p_put (v : pst) (m : pmsg) (th : bytes) : pst * option perr :=
  let v := PSt (<[(fidk (p_fid m), th) := m]> (ps_rows v)) (<[(fidk (p_fid m), p_name m) := th]> (ps_adds v)) (ps_name v) in
  match p_name m with
  | [] => (v, Some PEmptyName)
  | _ => (PSt (ps_rows v) (ps_adds v) (<[p_name m := fidk (p_fid m)]> (ps_name v)), None)
  end.
(** store.rs:804-835 and 1019-1090 [merge]; there is at most one conflict. A failed merge keeps the writes made so far. *)
Definition p_merge (v : pst) (m : pmsg) : pst * option perr :=
  match p_tsh m with
  | None => (v, Some PBadHash)
  | Some th =>
      match p_conflicts v m th with
      | inl e => (v, Some e)
      | inr l =>
          match l with
          | x :: _ => match p_delete v x with (v, Some e) => (v, Some e) | (v, None) => p_put v m th end
          | [] => p_put v m th
          end
      end
  end.
(** The committed rows of an account in key order (time, then hash). *)
Definition prow_le (a b : bytes * pmsg) : Prop := ble a.1 b.1 = true.
#[global] Instance prow_le_dec a b : Decision (prow_le a b). Proof. unfold prow_le. apply _. Defined.
Definition p_rows_of (db : pst) (f : N) : list pmsg :=
  map snd (merge_sort prow_le (omap (fun r => if r.1.1 =? fidk f then Some (r.1.2, r.2) else None) (map_to_list (ps_rows db)))).
(** What a signer's revocation and a prune take away. The revocation sweeps the cast, link, reaction, user data and
    verification stores (stores.rs:612-672), not the username proofs. A prune (store.rs:1202-1247, engine.rs:1980-1990) takes
    the first committed rows; their number [n] (the account's usage above its limit) is arbitrary here. *)
Inductive pop := PMerge (m : pmsg) | PRevoke (f : N) (key : bytes) | PPrune (f : N) (n : nat).
Definition p_victims (db : pst) (o : pop) : list pmsg :=
  match o with
  | PMerge _ | PRevoke _ _ => []
  | PPrune f n => take n (p_rows_of db f)
  end.
Definition p_step (db v : pst) (o : pop) : pst :=
  match o with
  | PMerge m => (p_merge v m).1
  | _ => foldl (fun v x => (p_delete v x).1) v (p_victims db o)
  end.
(** A block: operations on the view, then commit. *)
Definition p_block (db : pst) (os : list pop) : pst := foldl (p_step db) db os.
Definition p_run (s : pst) (bs : list (list pop)) : pst := foldl p_block s bs.

(** Reads: username_proof_store.rs:390-421 and 432-450. *)
Definition proof_by_name (v : pst) (n : bytes) : option pmsg :=
  f ← ps_name v !! n; t ← ps_adds v !! (f, n); ps_rows v !! (f, t).
Definition proof_by_fid_name (v : pst) (f : N) (n : bytes) : option pmsg :=
  t ← ps_adds v !! (fidk f, n); ps_rows v !! (fidk f, t).

(** ** Registered names *)

(** proto UserNameProof: name, account (0 releases the name), time, signature, and whether the type is FNAME. *)
Record fproof := FProof { f_name : bytes; f_fid : N; f_ts : N; f_sig : bytes; f_isf : bool }.
#[global] Instance fproof_eq_dec : EqDecision fproof. Proof. solve_decision. Defined.
(** By-name rows, by-account rows (holding the name) and the names' trie entries (account, name). *)
Record fst_ := FSt { fs_name : gmap bytes fproof; fs_fid : gmap N bytes; fs_trie : gset (N * bytes) }.
Definition fs_init : fst_ := FSt ∅ ∅ ∅.
(** user_data_store.rs:318-327. *)
Definition f_cmp (a b : fproof) : comparison := match f_ts a ?= f_ts b with Eq => lex (f_sig a) (f_sig b) | c => c end.
(** name_registry_events.rs:73-110: the by-account row of the previous owner goes last. *)
Definition f_write (s : fst_) (p : fproof) (old : option fproof) : fst_ :=
  let byname := <[f_name p := p]> (fs_name s) in
  let byfid := if f_fid p =? 0 then fs_fid s else <[fidk (f_fid p) := f_name p]> (fs_fid s) in
  let byfid := match old with Some o => delete (fidk (f_fid o)) byfid | None => byfid end in
  FSt byname byfid (fs_trie s).
(** merkle_trie.rs:170-187 and 229-246: the new owner's entry is inserted, then the old one deleted. *)
Definition f_trie (t : gset (N * bytes)) (p : fproof) (old : option fproof) : gset (N * bytes) :=
  let t := if f_isf p && negb (f_fid p =? 0) then t ∪ {[ (fidk (f_fid p), f_name p) ]} else t in
  match old with Some o => if f_isf o then t ∖ {[ (fidk (f_fid o), f_name o) ]} else t | None => t end.
Inductive ferr := FDuplicate | FConflict | FMissing.
(** user_data_store.rs:261-316 [merge_username_proof], with the trie update of engine.rs:1344-1350. *)
Definition f_merge (s : fst_) (p : fproof) : fst_ * option ferr :=
  let old := fs_name s !! f_name p in
  match match old with Some o => f_cmp o p | None => Lt end with
  | Eq => (s, Some FDuplicate)
  | Gt => (s, Some FConflict)
  | Lt =>
      if (match old with None => true | Some _ => false end) && (f_fid p =? 0) then (s, Some FMissing)
      else let s := f_write s p old in (FSt (fs_name s) (fs_fid s) (f_trie (fs_trie s) p old), None)
  end.
Definition f_run (s : fst_) (ps : list fproof) : fst_ := foldl (fun s p => (f_merge s p).1) s ps.
(** name_registry_events.rs:51-70 [get_fname_proof_by_fid]. *)
Definition fname_by_fid (s : fst_) (f : N) : option fproof := n ← fs_fid s !! fidk f; fs_name s !! n.

(** ** Displayed usernames *)

(** The USERNAME user data of each account: its order in the last-writer-wins set (C12) and the name. *)
Record nst := NSt { n_f : fst_; n_p : pst; n_user : gmap N (bytes * bytes) }.
Definition n_init : nst := NSt fs_init ps_init ∅.
Definition is_eth (n : bytes) : bool := bool_decide (drop (length n - 4) n = [46; 101; 116; 104]) && (4 <=? length n)%nat.
(** engine.rs:2229-2267 and 2312-2341, with DependentMessagesInBulkSubmit enabled. *)
Definition username_ok (v : nst) (f : N) (n : bytes) : bool :=
  match n with
  | [] => true
  | _ =>
      if is_eth n then match proof_by_name (n_p v) n with Some m => p_claim m =? f | None => false end
      else match fs_name (n_f v) !! n with Some p => f_fid p =? f | None => false end
  end.
(** A name transfer (the account it came from is part of the message, not of the signed data), a username message with its
    ts_hash, the loss of a username message by revocation of its signer or pruning, or a username-proof operation. *)
Inductive nop := NTransfer (p : fproof) (from : N) | NSet (f : N) (th n : bytes) | NDrop (f : N) | NProof (o : pop).
(** engine.rs:1316-1400: the sender's displayed username is revoked whether or not the transfer was accepted; it is looked
    up in the committed state. *)
Definition n_step (db v : nst) (o : nop) : nst :=
  match o with
  | NTransfer p from =>
      let u := if (0 <? from) && bool_decide (is_Some (n_user db !! fidk from)) then delete (fidk from) (n_user v) else n_user v in
      NSt (f_merge (n_f v) p).1 (n_p v) u
  | NSet f th n =>
      if username_ok v f n && match n_user v !! fidk f with Some (t, _) => blt t th | None => true end
      then NSt (n_f v) (n_p v) (<[fidk f := (th, n)]> (n_user v)) else v
  | NDrop f => NSt (n_f v) (n_p v) (delete (fidk f) (n_user v))
  | NProof o => NSt (n_f v) (p_step (n_p db) (n_p v) o) (n_user v)
  end.
Definition n_block (db : nst) (os : list nop) : nst := foldl (n_step db) db os.
Definition n_run (s : nst) (bs : list (list nop)) : nst := foldl n_block s bs.
