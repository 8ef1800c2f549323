(** Listing the keys below a prefix: trie_node.rs [get_node_from_trie], [get_all_values] and merkle_trie.rs
    [get_all_values], [get_paged_values_of_subtree].

    Simplifications: children read from disk are cached in memory by the code; loading is transparent, so the model
    returns no updated trie. Recursion and iteration carry fuel: for [all_values] running out is [Panic], for the
    page loop it is [None] ("not finished"); the theorems show that enough fuel always exists. The vector that
    receives the keys is empty at the call (replicator.rs:528, its only caller outside the tests). *)
From Verif Require Export Trie.

(** trie_node.rs:19 [MAX_VALUES_RETURNED_PER_CALL]. *)
Definition MAX_VALUES : nat := 1024.

Inductive scan_err := SChildNotFound | SNodeNotFound | SKeyTooShort | SBadToken (e : tok_err) | SInvalidToken.

Section Scan.
  Variable db : kv dbnode.

  (** trie_node.rs:236-257 [get_node_from_trie]; [p] is the path walked so far, [rest] what is left of it. A node
      without the child answers [None]: in particular a leaf, whose key may well continue with [rest]. *)
  Fixpoint node_at (n : node) (p rest : bytes) : option node :=
    match rest with
    | [] => Some n
    | c :: r => match load_child db n p c with Some m => node_at m (p ++ [c]) r | None => None end
    end.

  (** trie_node.rs:676-688: the loop over the children in ascending order. *)
  Section Children.
    Variable rec : node -> bytes -> res scan_err (list bytes).
    Fixpoint scan_children (n : node) (p : bytes) (cs : list N) (acc : list bytes) : res scan_err (list bytes) :=
      match cs with
      | [] => Ok acc
      | c :: cs =>
          match load_child db n p c with
          | None => Err SChildNotFound
          | Some m =>
              match rec m (p ++ [c]) with
              | Ok vs =>
                  let acc := acc ++ vs in
                  if Nat.ltb MAX_VALUES (length acc) then Ok acc else scan_children n p cs acc
              | Err e => Err e
              | Panic => Panic
              end
          end
      end.
  End Children.

  (** trie_node.rs:664-691 [get_all_values]. *)
  Fixpoint all_values (fuel : nat) (n : node) (p : bytes) : res scan_err (list bytes) :=
    match fuel with
    | O => Panic
    | S f =>
        if is_leaf n then Ok [default [] (n_key n)]
        else scan_children (all_values f) n p (akeys (n_children n)) []
    end.

  (** State of the iteration in merkle_trie.rs:503-511: [relative_path] and [remaining_stack]. The stack is kept top
      first; a level lists the children still to visit in descending order, the next one last. *)
  Record pstate := mk_pstate { ps_rel : bytes; ps_stack : list bytes }.
  Inductive pout := PDone | PNext (k : option bytes) (st : pstate) | PErr (e : scan_err) | PPanic.

  (** merkle_trie.rs:596-673: one round of the loop, after the check of the limit. [q] is the expanded prefix. *)
  Definition page_step (root : node) (q : bytes) (st : pstate) : pout :=
    match ps_stack st with
    | [] => PDone
    | level :: stack =>
        match rev level with
        | [] => PNext None (mk_pstate (removelast (ps_rel st)) stack)
        | c :: r =>
            match node_at root [] (q ++ ps_rel st ++ [c]) with
            | None => PErr SNodeNotFound
            | Some n =>
                if is_leaf n then
                  match n_key n with
                  | Some [] => PErr SKeyTooShort
                  | Some k =>
                      match combine_nibbles k with
                      | Some b => PNext (Some b) (mk_pstate (ps_rel st) (rev r :: stack))
                      | None => PPanic
                      end
                  | None => PNext None (mk_pstate (ps_rel st) (rev r :: stack))
                  end
                else PNext None (mk_pstate (ps_rel st ++ [c]) (rev (akeys (n_children n)) :: rev r :: stack))
            end
        end
    end.

  (** merkle_trie.rs:585-674: the loop. [None]: not finished within the fuel. *)
  Fixpoint page_loop (fuel : nat) (root : node) (q : bytes) (max : nat) (st : pstate) (acc : list bytes)
      : option (res scan_err (list bytes * option pstate)) :=
    match fuel with
    | O => None
    | S f =>
        if Nat.leb max (length acc) then Some (Ok (acc, Some st))
        else
          match page_step root q st with
          | PDone => Some (Ok (acc, None))
          | PNext k st => page_loop f root q max st (acc ++ match k with Some b => [b] | None => [] end)
          | PErr e => Some (Err e)
          | PPanic => Some Panic
          end
    end.
End Scan.

(** The token lists the levels bottom first (merkle_trie.rs:589-591). *)
Definition token_of (st : pstate) : list bytes := ps_rel st :: rev (ps_stack st).

(** merkle_trie.rs:449-472 [get_all_values]; [combine_nibbles] panics on an odd number of nibbles. *)
Fixpoint combine_all (l : list bytes) : option (list bytes) :=
  match l with
  | [] => Some []
  | k :: l => match combine_nibbles k, combine_all l with Some b, Some bs => Some (b :: bs) | _, _ => None end
  end.
Definition trie_all_values (fuel : nat) (s : tstate) (prefix : bytes) : res scan_err (list bytes) :=
  let q := expand_nibbles prefix in
  match node_at (ts_db s) (ts_root s) [] q with
  | None => Ok []
  | Some n =>
      match all_values (ts_db s) fuel n q with
      | Ok vs => match combine_all vs with Some l => Ok l | None => Panic end
      | Err e => Err e
      | Panic => Panic
      end
  end.

(** merkle_trie.rs:478-675 [get_paged_values_of_subtree]: the keys found and the next token. *)
Definition trie_page (fuel : nat) (s : tstate) (prefix : bytes) (max : nat) (token : option bytes)
    : option (res scan_err (list bytes * option bytes)) :=
  let q := expand_nibbles prefix in
  let finish o :=
    match o with
    | Some (Ok (ks, Some st)) => Some (Ok (ks, encode_page_token (Some (token_of st))))
    | Some (Ok (ks, None)) => Some (Ok (ks, None))
    | Some (Err e) => Some (Err e)
    | Some Panic => Some Panic
    | None => None
    end in
  match node_at (ts_db s) (ts_root s) [] q with
  | None => Some (Ok ([], None))
  | Some n =>
      match decode_page_token token with
      | Err e => Some (Err (SBadToken e))
      | Panic => Some Panic
      | Ok (Some []) => Some (Err SInvalidToken)
      | Ok (Some (rel :: levels)) =>
          if Nat.eqb (length rel) (pred (length levels))
          then finish (page_loop (ts_db s) fuel (ts_root s) q max (mk_pstate rel (rev levels)) [])
          else Some (Err SInvalidToken)
      | Ok None =>
          if is_leaf n then
            match n_key n with
            | Some [] => Some (Err SKeyTooShort)
            | Some k => match combine_nibbles k with Some b => Some (Ok ([b], None)) | None => Some Panic end
            | None => Some (Ok ([], None))
            end
          else finish (page_loop (ts_db s) fuel (ts_root s) q max (mk_pstate [] [rev (akeys (n_children n))]) [])
      end
  end.

(** A client that follows the tokens for at most [n] pages (bootstrap/replication/service.rs:855-1047 for one
    virtual shard); [None]: not finished, or the server failed. *)
Fixpoint follow (n fuel : nat) (s : tstate) (prefix : bytes) (max : nat) (token : option bytes)
    : option (list (list bytes)) :=
  match n with
  | O => None
  | S n =>
      match trie_page fuel s prefix max token with
      | Some (Ok (ks, None)) => Some [ks]
      | Some (Ok (ks, Some t)) =>
          match follow n fuel s prefix max (Some t) with Some pages => Some (ks :: pages) | None => None end
      | _ => None
      end
  end.
