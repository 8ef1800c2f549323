(** The merkle trie: src/storage/trie/trie_node.rs and merkle_trie.rs.

    Simplifications (beyond the ones noted at each definition):
    - protobuf encoding of [DbTrieNode] is an injective external codec: the database stores the record [dbnode];
      [items] is not truncated to 32 bits (trie_node.rs:126), i.e. fewer than 2^32 keys per trie;
    - [last_accessed] and read counters are left out (they never influence a result);
    - iteration over a [HashMap] of groups (trie_node.rs:359, 441) runs in an arbitrary order, the oracle [order];
    - an [Err] or panic drops the (partially updated) state: callers discard it, and the theorems show that
      no error is reachable for well-formed keys;
    - recursion depth is bounded by explicit fuel; running out of fuel is [Panic] (shown unreachable). *)
From Verif Require Export Kv AMap Codec.

(** trie_node.rs:16. *)
Definition UNCOMPACTED : nat := 12.
(** constants.rs RootPrefix::MerkleTrieNode. *)
Definition MERKLE_TRIE_NODE : N := 8.

(** trie_node.rs:61-67 [TrieNode] and 94-97 [TrieNodeType]. *)
Inductive node := Node (items : N) (children : amap child) (chashes : amap bytes) (nkey : option bytes)
with child := CNode (n : node) | CSer.

Definition n_items (n : node) : N := let '(Node i _ _ _) := n in i.
Definition n_children (n : node) : amap child := let '(Node _ c _ _) := n in c.
Definition n_chashes (n : node) : amap bytes := let '(Node _ _ h _) := n in h.
Definition n_key (n : node) : option bytes := let '(Node _ _ _ k) := n in k.
(** trie_node.rs:69-79 [Default] / 100-108 [new]. *)
Definition empty_node : node := Node 0 [] [] None.

(** DbTrieNode, the stored form. *)
Record dbnode := mk_dbnode { d_key : bytes; d_chars : list N; d_items : N; d_hashes : amap bytes }.

(** trie_node.rs:111-120 [make_primary_key]. *)
Definition make_primary_key (prefix : bytes) (c : option N) : bytes :=
  MERKLE_TRIE_NODE :: prefix ++ match c with Some c => [c] | None => [] end.

(** trie_node.rs:122-135 [serialize]. *)
Definition serialize (n : node) : dbnode :=
  mk_dbnode (default [] (n_key n)) (akeys (n_children n)) (n_items n) (n_chashes n).
(** trie_node.rs:137-165 [deserialize]. *)
Definition deserialize (d : dbnode) : node :=
  Node (d_items d) (fold_right (fun c m => aset c CSer m) [] (d_chars d)) (d_hashes d)
    (match d_key d with [] => None | k => Some k end).

(** trie_node.rs:169-171 [is_leaf]. *)
Definition is_leaf (n : node) : bool := match n_children n with [] => true | _ => false end.

Inductive terr := NoKeysToInsert | KeyLengthExceeded | KeyLengthTooShort | ChildNotFound | UnableToReloadRoot.

Section Trie.
  (** blake3_20 (storage/util.rs:7-11), external. *)
  Variable H : bytes -> bytes.
  (** Iteration order of a hash map keyed by [u8]. *)
  Variable order : list N -> list N.

  (** trie_node.rs:177-206 [hash]. The panic on an empty leaf key is left out: keys have at least 12 nibbles. *)
  Definition node_hash (n : node) : bytes :=
    if is_leaf n then match n_key n with None => [] | Some k => H k end
    else match n_chashes n with [] => [] | m => H (concat (map snd m)) end.

  (** trie_node.rs:653-662. *)
  Definition put_to_txn (n : node) (txn : batch dbnode) (prefix : bytes) : batch dbnode :=
    tput txn (make_primary_key prefix None) (serialize n).
  Definition delete_to_txn (txn : batch dbnode) (prefix : bytes) : batch dbnode :=
    tdel txn (make_primary_key prefix None).

  (** trie_node.rs:634-651 [update_hash]: [ch] is the parent's [child_hashes]. *)
  Definition update_hash (n : node) (ch : amap bytes) (prefix : bytes) : amap bytes :=
    match last prefix with
    | None => ch
    | Some c => match node_hash n with [] => adel c ch | h => aset c h ch end
    end.

  (** trie_node.rs:591-632 [get_or_load_child]; reads the committed database only. A child listed but missing
      on disk silently becomes an empty node ([unwrap_or_default], line 609). *)
  Definition load_child (db : kv dbnode) (n : node) (prefix : bytes) (c : N) : option node :=
    match aget c (n_children n) with
    | None => None
    | Some (CNode m) => Some m
    | Some CSer =>
        Some (match db !! make_primary_key prefix (Some c) with Some d => deserialize d | None => empty_node end)
    end.

  Definition count_true (l : list bool) : N := N.of_nat (length (filter (fun b => b = true) l)).

  (** Set [results[i]] for the positions listed (trie_node.rs:376-377, 476-477). *)
  Fixpoint set_results (rs : list bool) (is : list nat) (vs : list bool) : list bool :=
    match is, vs with
    | i :: is', v :: vs' => set_results (<[i := v]> rs) is' vs'
    | _, _ => rs
    end.

  (** key[current_index] of every remaining key, without repetition (trie_node.rs:349-356, 431-438). *)
  Definition char_at (idx : nat) (k : bytes) : N := nth idx k 0.
  Definition group_chars (idx : nat) (rem : list (nat * bytes)) : list N :=
    order (remove_dups (map (fun ik => char_at idx ik.2) rem)).
  Definition group_of (idx : nat) (c : N) (rem : list (nat * bytes)) : list (nat * bytes) :=
    filter (fun ik => char_at idx ik.2 = c) rem.

  Definition enumerate_from (i : nat) (keys : list bytes) : list (nat * bytes) :=
    zip (seq i (length keys)) keys.

  Definition iout : Type := list bool * node * amap bytes * batch dbnode.

  Section InsBody.
    (** The recursive call on a child: child, parent's [child_hashes], transaction, keys. *)
    Variable rec : node -> amap bytes -> batch dbnode -> list bytes -> res terr iout.
    Variable db : kv dbnode.

    (** trie_node.rs:548-589 [split_leaf_node]. *)
    Definition split_leaf (n : node) (txn : batch dbnode) (idx : nat) : res terr (node * batch dbnode) :=
      match n_key n with
      | None => Panic
      | Some key =>
          match key !! idx with
          | None => Panic
          | Some c =>
              match rec empty_node (n_chashes n) txn [key] with
              | Ok (_, m, ch, txn) =>
                  let ch := aset c (node_hash m) ch in
                  let n := Node (n_items n) (aset c (CNode m) (n_children n)) ch None in
                  Ok (n, put_to_txn n txn (take idx key))
              | Err e => Err e
              | Panic => Panic
              end
          end
      end.

    (** trie_node.rs:358-382: one iteration per group. State: node, transaction, results, successes. *)
    Fixpoint ins_groups (n : node) (txn : batch dbnode) (rs : list bool) (succ : N) (prefix : bytes)
        (idx : nat) (rem : list (nat * bytes)) (cs : list N) : res terr (node * batch dbnode * list bool * N) :=
      match cs with
      | [] => Ok (n, txn, rs, succ)
      | c :: cs =>
          let g := group_of idx c rem in
          let children :=
            match aget c (n_children n) with None => aset c (CNode empty_node) (n_children n) | Some _ => n_children n end in
          let n := Node (n_items n) children (n_chashes n) (n_key n) in
          match load_child db n prefix c with
          | None => Err ChildNotFound
          | Some m =>
              match rec m (n_chashes n) txn (map snd g) with
              | Ok (crs, m, ch, txn) =>
                  let n := Node (n_items n) (aset c (CNode m) (n_children n)) ch (n_key n) in
                  ins_groups n txn (set_results rs (map fst g) crs)
                    (succ + count_true (take (length g) crs)) prefix idx rem cs
              | Err e => Err e
              | Panic => Panic
              end
          end
      end.

    (** trie_node.rs:339-391: everything after the leaf phase. *)
    Definition ins_rest (n : node) (ch : amap bytes) (txn : batch dbnode) (rs : list bool) (prefix : bytes)
        (idx : nat) (rem : list (nat * bytes)) : res terr iout :=
      if existsb (fun ik => Nat.leb (length ik.2) idx) rem then Err KeyLengthExceeded
      else
        match ins_groups n txn rs 0 prefix idx rem (group_chars idx rem) with
        | Ok (n, txn, rs, succ) =>
            if 0 <? succ then
              let n := Node (n_items n + succ) (n_children n) (n_chashes n) (n_key n) in
              Ok (rs, n, update_hash n ch prefix, put_to_txn n txn prefix)
            else Ok (rs, n, ch, txn)
        | Err e => Err e
        | Panic => Panic
        end.

    (** trie_node.rs:313-337: the leaf holds a key; [keys] come with their (shifted) result positions. *)
    Definition ins_leaf (n : node) (ch : amap bytes) (txn : batch dbnode) (rs : list bool) (prefix : bytes)
        (idx : nat) (keys : list (nat * bytes)) : res terr iout :=
      let rem := filter (fun ik => ik.2 <> default [] (n_key n)) keys in
      match rem with
      | [] => Ok (rs, n, ch, txn)
      | _ =>
          match split_leaf n txn idx with
          | Ok (n, txn) => ins_rest n ch txn rs prefix idx rem
          | Err e => Err e
          | Panic => Panic
          end
      end.

    (** trie_node.rs:268-392 [insert]. Line 293 pops the {e last} key, line 306 flags the {e first} one. *)
    Definition ins_body (n : node) (ch : amap bytes) (txn : batch dbnode) (keys : list bytes) (idx : nat)
        : res terr iout :=
      match keys with
      | [] => Err NoKeysToInsert
      | k0 :: _ =>
          if Nat.ltb (length k0) idx then Panic
          else
            let prefix := take idx k0 in
            let rs := replicate (length keys) false in
            if Nat.leb UNCOMPACTED idx && is_leaf n then
              match n_key n with
              | None =>
                  let n := Node (n_items n + 1) (n_children n) (n_chashes n) (last keys) in
                  let ch := update_hash n ch prefix in
                  let txn := put_to_txn n txn prefix in
                  let rs := <[0%nat := true]> rs in
                  match removelast keys with
                  | [] => Ok (rs, n, ch, txn)
                  | keys => ins_leaf n ch txn rs prefix idx (enumerate_from 1 keys)
                  end
              | Some _ => ins_leaf n ch txn rs prefix idx (enumerate_from 0 keys)
              end
            else ins_rest n ch txn rs prefix idx (enumerate_from 0 keys)
      end.
  End InsBody.

  Fixpoint ins (fuel : nat) (db : kv dbnode) (n : node) (ch : amap bytes) (txn : batch dbnode)
      (keys : list bytes) (idx : nat) : res terr iout :=
    match fuel with
    | O => Panic
    | S f => ins_body (fun m ch txn keys => ins f db m ch txn keys (S idx)) db n ch txn keys idx
    end.

  Section DelBody.
    Variable rec : node -> amap bytes -> batch dbnode -> list bytes -> res terr iout.
    Variable db : kv dbnode.

    (** trie_node.rs:406-422: deleting at a leaf; the first matching key wins. *)
    Fixpoint find_key (k : option bytes) (i : nat) (keys : list bytes) : option nat :=
      match keys with
      | [] => None
      | x :: r => if decide (default [] k = x) then Some i else find_key k (S i) r
      end.
    Definition del_leaf (n : node) (ch : amap bytes) (txn : batch dbnode) (keys : list bytes) (prefix : bytes)
        : iout :=
      let rs := replicate (length keys) false in
      match find_key (n_key n) 0 keys with
      | None => (rs, n, ch, txn)
      | Some i =>
          let n := Node (n_items n - 1) (n_children n) (n_chashes n) None in
          (<[i := true]> rs, n, update_hash n ch prefix, delete_to_txn txn prefix)
      end.

    (** trie_node.rs:440-482: one iteration per group. *)
    Fixpoint del_groups (n : node) (txn : batch dbnode) (rs : list bool) (succ : N) (prefix : bytes)
        (idx : nat) (rem : list (nat * bytes)) (cs : list N) : res terr (node * batch dbnode * list bool * N) :=
      match cs with
      | [] => Ok (n, txn, rs, succ)
      | c :: cs =>
          let g := group_of idx c rem in
          match load_child db n prefix c with
          | None => del_groups n txn rs succ prefix idx rem cs
          | Some m =>
              match rec m (n_chashes n) txn (map snd g) with
              | Ok (crs, m, ch, txn) =>
                  let n :=
                    if n_items m =? 0 then Node (n_items n) (adel c (n_children n)) (adel c ch) (n_key n)
                    else Node (n_items n) (aset c (CNode m) (n_children n)) ch (n_key n) in
                  del_groups n txn (set_results rs (map fst g) crs)
                    (succ + count_true (take (length g) crs)) prefix idx rem cs
              | Err e => Err e
              | Panic => Panic
              end
          end
      end.

    (** trie_node.rs:494-511: compaction. Line 508 builds a primary key and line 509 passes it as a {e path}
        to [delete_to_txn], which prepends the root prefix a second time. *)
    Definition compact (n : node) (txn : batch dbnode) (prefix : bytes) (idx : nat) : res terr (node * batch dbnode) :=
      match n_children n with
      | [(c, _)] =>
          if (n_items n =? 1) && Nat.leb UNCOMPACTED idx then
            match load_child db n prefix c with
            | None => Err ChildNotFound
            | Some m =>
                match n_key m with
                | Some k =>
                    Ok (Node (n_items n) (adel c (n_children n)) (n_chashes n) (Some k),
                        delete_to_txn txn (make_primary_key prefix (Some c)))
                | None => Ok (Node (n_items n) (aset c (CNode m) (n_children n)) (n_chashes n) (n_key n), txn)
                end
            end
          else Ok (n, txn)
      | _ => Ok (n, txn)
      end.

    (** trie_node.rs:394-518 [delete]. *)
    Definition del_body (n : node) (ch : amap bytes) (txn : batch dbnode) (keys : list bytes) (idx : nat)
        : res terr iout :=
      match keys with
      | [] => Panic
      | k0 :: _ =>
          if Nat.ltb (length k0) idx then Panic
          else
            let prefix := take idx k0 in
            let rs := replicate (length keys) false in
            if is_leaf n then Ok (del_leaf n ch txn keys prefix)
            else if existsb (fun k => Nat.leb (length k) idx) keys then Err KeyLengthExceeded
            else
              let rem := enumerate_from 0 keys in
              match del_groups n txn rs 0 prefix idx rem (group_chars idx rem) with
              | Ok (n, txn, rs, succ) =>
                  if 0 <? succ then
                    let n := Node (n_items n - succ) (n_children n) (n_chashes n) (n_key n) in
                    if n_items n =? 0 then Ok (rs, n, update_hash n ch prefix, delete_to_txn txn prefix)
                    else
                      match compact n txn prefix idx with
                      | Ok (n, txn) => Ok (rs, n, update_hash n ch prefix, put_to_txn n txn prefix)
                      | Err e => Err e
                      | Panic => Panic
                      end
                  else Ok (rs, n, ch, txn)
              | Err e => Err e
              | Panic => Panic
              end
      end.
  End DelBody.

  Fixpoint del (fuel : nat) (db : kv dbnode) (n : node) (ch : amap bytes) (txn : batch dbnode)
      (keys : list bytes) (idx : nat) : res terr iout :=
    match fuel with
    | O => Panic
    | S f => del_body (fun m ch txn keys => del f db m ch txn keys (S idx)) db n ch txn keys idx
    end.

  (** trie_node.rs:520-542 [exists]. Children loaded on the way are cached in memory by the code; loading is
      transparent (theorem [rep_load]), so the model does not return the updated node. *)
  Fixpoint exists_ (fuel : nat) (db : kv dbnode) (n : node) (key : bytes) (idx : nat) : res terr bool :=
    match fuel with
    | O => Panic
    | S f =>
        if is_leaf n then Ok (bool_decide (default [] (n_key n) = key))
        else
          match key !! idx with
          | None => Ok false
          | Some c =>
              match aget c (n_children n) with
              | None => Ok false
              | Some _ =>
                  match load_child db n (take idx key) c with
                  | Some m => exists_ f db m key (S idx)
                  | None => Err ChildNotFound
                  end
              end
          end
    end.

  (** ** The trie object (merkle_trie.rs) *)

  (** Longest key in nibbles plus one: an upper bound for the depth. On-chain event keys have 42 bytes. *)
  Definition FUEL (keys : list bytes) : nat := S (S (list_max (map length keys))).

  (** State of the process: committed database, open transaction, in-memory root (merkle_trie.rs:220-222). *)
  Record tstate := mk_tstate { ts_db : kv dbnode; ts_txn : batch dbnode; ts_root : node }.

  Definition ROOT_KEY : bytes := make_primary_key [] None.

  (** merkle_trie.rs:258-272 [initialize] on a database without a root. *)
  Definition trie_init : tstate := mk_tstate {[ ROOT_KEY := serialize empty_node ]} ∅ empty_node.

  (** merkle_trie.rs:299-331 [insert]: the writes go to a local transaction merged on success. *)
  Definition trie_insert (s : tstate) (keys : list bytes) : res terr (list bool * tstate) :=
    let keys := map expand_nibbles keys in
    match keys with
    | [] => Ok ([], s)
    | _ =>
        if existsb (fun k => Nat.ltb (length k) UNCOMPACTED) keys then Err KeyLengthTooShort
        else
          match ins (FUEL keys) (ts_db s) (ts_root s) [] ∅ keys 0 with
          | Ok (rs, n, _, txn) => Ok (rs, mk_tstate (ts_db s) (tmerge (ts_txn s) txn) n)
          | Err e => Err e
          | Panic => Panic
          end
    end.

  (** merkle_trie.rs:333-363 [delete]. *)
  Definition trie_delete (s : tstate) (keys : list bytes) : res terr (list bool * tstate) :=
    let keys := map expand_nibbles keys in
    match keys with
    | [] => Ok ([], s)
    | _ =>
        if existsb (fun k => Nat.ltb (length k) UNCOMPACTED) keys then Err KeyLengthTooShort
        else
          match del (FUEL keys) (ts_db s) (ts_root s) [] ∅ keys 0 with
          | Ok (rs, n, _, txn) => Ok (rs, mk_tstate (ts_db s) (tmerge (ts_txn s) txn) n)
          | Err e => Err e
          | Panic => Panic
          end
    end.

  (** merkle_trie.rs:365-373 [exists]. *)
  Definition trie_exists (s : tstate) (key : bytes) : res terr bool :=
    let key := expand_nibbles key in
    exists_ (FUEL [key]) (ts_db s) (ts_root s) key 0.
  (** merkle_trie.rs:375-381 [items], 441-447 [root_hash]. *)
  Definition trie_items (s : tstate) : N := n_items (ts_root s).
  Definition trie_root_hash (s : tstate) : bytes := node_hash (ts_root s).

  (** merkle_trie.rs:274-297 [load_root], [reload]; drops the open transaction (its caller does). *)
  Definition trie_reload (db : kv dbnode) : res terr tstate :=
    match db !! ROOT_KEY with
    | Some d => Ok (mk_tstate db ∅ (deserialize d))
    | None => Err UnableToReloadRoot
    end.
  (** The commit sequence of both engines: db.commit(txn), trie.reload (engine.rs:2463-2468,
      block_engine.rs:2195-2198). *)
  Definition trie_commit (s : tstate) : res terr tstate := trie_reload (commit (ts_db s) (ts_txn s)).
  (** Rolling back a proposal: trie.reload without commit (engine.rs:438, 2397). *)
  Definition trie_rollback (s : tstate) : res terr tstate := trie_reload (ts_db s).

  (** merkle_trie.rs:383-403 [get_node_from_txn_or_db]: a node deleted in the transaction falls through to
      the database. *)
  Definition get_node_from_txn_or_db (s : tstate) (k : bytes) : option node :=
    match ts_txn s !! k with
    | Some (Some d) => Some (deserialize d)
    | _ => deserialize <$> ts_db s !! k
    end.
  (** merkle_trie.rs:405-439. *)
  Definition get_node (s : tstate) (prefix : bytes) : option node :=
    get_node_from_txn_or_db s (make_primary_key (expand_nibbles prefix) None).
  Definition get_hash (s : tstate) (prefix : bytes) : bytes :=
    match get_node s prefix with Some n => node_hash n | None => [] end.
  Definition get_count (s : tstate) (prefix : bytes) : N :=
    match get_node s prefix with Some n => n_items n | None => 0 end.

  (** Operations as issued by the engines. *)
  Inductive trie_op := TInsert (k : bytes) | TDelete (k : bytes) | TCommit | TRollback.
  Definition tstep (s : tstate) (o : trie_op) : res terr (list bool * tstate) :=
    match o with
    | TInsert k => trie_insert s [k]
    | TDelete k => trie_delete s [k]
    | TCommit => match trie_commit s with Ok s => Ok ([], s) | Err e => Err e | Panic => Panic end
    | TRollback => match trie_rollback s with Ok s => Ok ([], s) | Err e => Err e | Panic => Panic end
    end.
  Fixpoint trun (s : tstate) (os : list trie_op) : res terr (list (list bool) * tstate) :=
    match os with
    | [] => Ok ([], s)
    | o :: os =>
        match tstep s o with
        | Ok (r, s) => match trun s os with Ok (rs, s) => Ok (r :: rs, s) | Err e => Err e | Panic => Panic end
        | Err e => Err e
        | Panic => Panic
        end
    end.
End Trie.
