(** Specification of the merkle trie: a finite set of nibble strings, and the root hash as a function of that
    set alone. Independent of the node representation. *)
From Verif Require Export Base.
From Verif Require Import AMap.
From stdpp Require Export gmap.

(** Keys of [S] whose character at position [d] is [c]. *)
Definition sub (d : nat) (c : N) (S : gset bytes) : gset bytes := filter (fun k => k !! d = Some c) S.
(** Keys of [S] below a path. *)
Definition under (p : bytes) (S : gset bytes) : gset bytes := filter (fun k => p `prefix_of` k) S.
Definition the_key (S : gset bytes) : bytes := default [] (head (elements S)).

Section Spec.
  Variable H : bytes -> bytes.

  (** Hash of the keys [S], all sharing their first [d] nibbles: a single key below depth 12 hashes to the hash of
      the whole key, anything else to the hash of the concatenation over the 16 next nibbles. [f] bounds the depth. *)
  Fixpoint shash (f d : nat) (S : gset bytes) : bytes :=
    match f with
    | O => []
    | Datatypes.S f =>
        if decide (S = ∅) then []
        else if Nat.leb 12 d && Nat.eqb (size S) 1 then H (the_key S)
        else H (concat (map (fun c => shash f (Datatypes.S d) (sub d c S)) (nrange 16 0)))
    end.

  (** Strings that are hashed while computing [shash f d S]. *)
  Fixpoint hashed (f d : nat) (S : gset bytes) : list bytes :=
    match f with
    | O => []
    | Datatypes.S f =>
        if decide (S = ∅) then []
        else if Nat.leb 12 d && Nat.eqb (size S) 1 then [the_key S]
        else concat (map (fun c => shash f (Datatypes.S d) (sub d c S)) (nrange 16 0))
               :: concat (map (fun c => hashed f (Datatypes.S d) (sub d c S)) (nrange 16 0))
    end.
End Spec.

(** The set of keys denoted by a history: committed and current set. *)
Inductive sop := SInsert (k : bytes) | SDelete (k : bytes) | SCommit | SRollback.
Definition sstep (s : gset bytes * gset bytes) (o : sop) : list bool * (gset bytes * gset bytes) :=
  let '(com, cur) := s in
  match o with
  | SInsert k => ([bool_decide (k ∉ cur)], (com, {[k]} ∪ cur))
  | SDelete k => ([bool_decide (k ∈ cur)], (com, cur ∖ {[k]}))
  | SCommit => ([], (cur, cur))
  | SRollback => ([], (com, com))
  end.
Fixpoint srun (s : gset bytes * gset bytes) (os : list sop) : list (list bool) * (gset bytes * gset bytes) :=
  match os with
  | [] => ([], s)
  | o :: os => let '(r, s) := sstep s o in let '(rs, s) := srun s os in (r :: rs, s)
  end.
