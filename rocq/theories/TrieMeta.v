(** What the node tells about a node of the trie: src/storage/trie/merkle_trie.rs:677-720 [get_trie_node_metadata] and
    src/network/server.rs:3633-3663 [get_trie_metadata_by_prefix].

    The children are told in the unspecified order of a hash map; here in the order of their characters. The hex spelling of hashes is
    left out and the choice of the shard is not modelled. *)
From Verif Require Export Trie.
From Verif Require Import Base Codec AMap.
#[local] Open Scope N_scope.

Section Meta.
  Context (H : bytes -> bytes).
  Definition child_meta (s : tstate) (prefix : bytes) (c : N) : option (bytes * N * bytes) :=
    m ← get_node_from_txn_or_db s (make_primary_key (expand_nibbles prefix ++ [c]) None);
    Some (expand_nibbles prefix ++ [c], n_items m, node_hash H m).
  (** 677-720. *)
  Definition node_meta (s : tstate) (prefix : bytes) : res unit (N * bytes * list (bytes * N * bytes)) :=
    match get_node s prefix with
    | None => Err tt
    | Some n => match mapM (child_meta s prefix) (akeys (n_children n)) with
                | Some l => Ok (n_items n, node_hash H n, l)
                | None => Err tt
                end
    end.
  (** server.rs:3639-3646: the database alone, with a fresh batch. *)
  Definition serve_meta (s : tstate) (prefix : bytes) : res unit (N * bytes * list (bytes * N * bytes)) :=
    node_meta (mk_tstate (ts_db s) ∅ (ts_root s)) prefix.
End Meta.
