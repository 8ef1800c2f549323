(** How blocks and chunks are chained by the hash of their parent: src/consensus/proposer.rs:154-259, 488-650,
    src/storage/store/{shard,block}.rs (the last stored block), src/storage/store/{engine,block_engine}.rs
    ([get_confirmed_height], [commit_shard_chunk], [commit_block]).

    A header is its parent hash, its height and everything else ([hd_rest]: time, roots, chain and version, witness and events
    hash); a block is its header, its [hash] field and everything else ([bk_rest]: transactions, events, witnesses). A node keeps
    its blocks under the block number (shard.rs:155-176, block.rs:162-183). Database errors are not modelled; messages without
    header or height panic before this point (C45). *)
From Verif Require Export Consensus.
From Coq Require Import String Ascii.
#[local] Open Scope N_scope.

Record hdr := Hdr { hd_parent : bytes; hd_height : height; hd_rest : N }.
Record blk := Blk { bk_hdr : hdr; bk_hash : bytes; bk_rest : N }.
#[global] Instance hdr_eq_dec : EqDecision hdr. Proof. solve_decision. Defined.
#[global] Instance blk_eq_dec : EqDecision blk. Proof. solve_decision. Defined.
Notation chain := (gmap N blk).

(** shard.rs:121-153, 245-254, block.rs:242-251: the number of the last stored block; 0 when there is none. *)
Definition top (m : chain) : N := foldr N.max 0 (map fst (map_to_list m)).
(** shard.rs:209-211, block.rs:206-208. *)
Definition last_blk (m : chain) : option blk := m !! top m.

(** proposer.rs:32-33. *)
Definition GENESIS : bytes :=
  map N_of_ascii (list_ascii_of_string "It occurs to me that our survival may depend upon our talking to one another.").
(** 170-174 [vec![0, 32]]: two bytes. *)
Definition shard_parent (m : chain) : bytes := match last_blk m with Some c => bk_hash c | None => [0; 32] end.
(** 513-537. *)
Definition block_parent (h : height) (m : chain) : bytes :=
  if h_eqb h (0, 1) then GENESIS else match last_blk m with Some b => bk_hash b | None => repeat 0 32 end.

Section Chain.
  (** blake3 of the encoded header. *)
  Context (H : hdr -> bytes).
  Context (k : kind) (shard : N).
  (** 179-193, 543-568: the proposal built at height [h]; [r] and [x] stand for the rest of the header and of the block. *)
  Definition build (m : chain) (h : height) (r x : N) : blk :=
    let hd := Hdr (match k with KShard => shard_parent m | KBlock => block_parent h m end) h r in Blk hd (H hd) x.
  (** Validation of everything but the parent and the hash (217-255, 585-641): a function of the node's state, the height and the rest. *)
  Context (valid : chain -> height -> N -> N -> bool).
  Definition confirmed (m : chain) : height := (shard, top m).
  (** 206-259, 578-650. *)
  Definition accept (m : chain) (b : blk) : bool :=
    h_eqb (hd_height (bk_hdr b)) (h_inc (confirmed m)) && valid m (hd_height (bk_hdr b)) (hd_rest (bk_hdr b)) (bk_rest b).
  Definition commit (m : chain) (b : blk) : chain := <[h_num (hd_height (bk_hdr b)) := b]> m.

  (** What is decided next: a block built by a proposer whose state is this node's ([Own]), or any block this node found valid. *)
  Inductive cop := Own (r x : N) | Other (b : blk).
  Definition cstep (m : chain) (o : cop) : chain :=
    match o with
    | Own r x => commit m (build m (h_inc (confirmed m)) r x)
    | Other b => if accept m b then commit m b else m
    end.
  Definition crun (os : list cop) : chain := foldl cstep ∅ os.
  Definition own (o : cop) : bool := match o with Own _ _ => true | Other _ => false end.
End Chain.
