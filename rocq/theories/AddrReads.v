(** What the node tells about addresses: src/network/server.rs:3425-3553
    ([get_id_registry_on_chain_event], [get_id_registry_on_chain_event_by_address], [get_fid_address_type]).

    The node's data shards are a list in the order in which its table of shards is walked. The events of a type are read in the
    order of their keys (onchain_event_store.rs:1121-1155); the pages this takes are joined (C12), database and decode
    errors are not modelled. The cache of the address read (server.rs:713-716) drops entries on its own, by size and after an idle
    hour: dropping is a step that may happen to any entry at any time. *)
From Verif Require Export OnChain.
From stdpp Require Import sorting.
#[local] Open Scope N_scope.

Definition key_leb (a b : okey) : bool :=
  let '(t, f, k, l) := a in let '(t', f', k', l') := b in
  (t <? t') || ((t =? t') && ((f <? f') || ((f =? f') && ((k <? k') || ((k =? k') && (l <=? l')))))).
Definition row_le (x y : okey * oev) : Prop := key_leb x.1 y.1 = true.
#[global] Instance row_le_dec x y : Decision (row_le x y). Proof. unfold row_le. apply _. Defined.
(** onchain_event_store.rs:1121-1155 [get_onchain_events]: all events of a type, or those of one account. *)
Definition events_of (s : ost) (ty : N) (f : option N) : list oev :=
  map snd (merge_sort row_le (filter (fun x : okey * oev => (x.1.1.1.1 =? ty) && match f with Some f => x.1.1.1.2 =? fidk f | None => true end = true) (map_to_list (t_ev s)))).

(** ** By address (server.rs:3453-3485) *)

(** One pass over the events of a shard: each goes to the cache under its new owner; the pass ends with the address asked for. *)
Fixpoint scan (a : bytes) (l : list oev) (c : gmap bytes oev) : option oev * gmap bytes oev :=
  match l with
  | [] => (None, c)
  | e :: r =>
      match o_body e with
      | BIdReg _ to => let c := <[to := e]> c in if decide (to = a) then (Some e, c) else scan a r c
      | _ => scan a r c
      end
  end.
Fixpoint scan_all (a : bytes) (ss : list ost) (c : gmap bytes oev) : option oev * gmap bytes oev :=
  match ss with
  | [] => (None, c)
  | s :: r => match scan a (events_of s 3 None) c with (Some e, c) => (Some e, c) | (None, c) => scan_all a r c end
  end.
(** [None]: not found. *)
Definition by_address (ss : list ost) (a : bytes) (c : gmap bytes oev) : option oev * gmap bytes oev :=
  match c !! a with Some e => (Some e, c) | None => scan_all a ss c end.

Record anode := ANode { a_shards : list ost; a_cache : gmap bytes oev }.
Inductive aop :=
| AChain (i : nat) (es : list oev)     (* a batch of events committed on a shard *)
| AForget (a : bytes)                  (* the cache drops an entry *)
| ARead (a : bytes).
Section Node.
  Context (keccak : bytes -> bytes).
  Definition astep (n : anode) (o : aop) : anode :=
    match o with
    | AChain i es => ANode (alter (fun s => obatch keccak s es) i (a_shards n)) (a_cache n)
    | AForget a => ANode (a_shards n) (delete a (a_cache n))
    | ARead a => ANode (a_shards n) (by_address (a_shards n) a (a_cache n)).2
    end.
  Definition arun (n : anode) (os : list aop) : anode := foldl astep n os.
End Node.
Definition a_init (shards : nat) : anode := ANode (repeat o_init shards) ∅.
Definition a_read (n : anode) (a : bytes) : option oev := (by_address (a_shards n) a (a_cache n)).1.

(** ** By account (server.rs:3425-3451): the first shard that knows the account *)
Fixpoint by_fid (ss : list ost) (f : N) : option oev :=
  match ss with [] => None | s :: r => match custody_event s f with Some e => Some e | None => by_fid r f end end.

(** ** What an address is to an account (server.rs:3487-3553) *)

(** [q_ver]: the verified addresses (account as in keys, address) with an add in the store. *)
Record ashard := AShard { q_on : ost; q_ver : gset (N * bytes) }.
(** 3503-3513. *)
Definition sh_custody (s : ashard) (f : N) (a : bytes) : bool :=
  match custody_event (q_on s) f with
  | Some e => match o_body e with BIdReg _ to => bool_decide (to = a) | _ => false end
  | None => false
  end.
(** 3515-3532: every stored signer event of the account is looked at. *)
Definition sh_auth (s : ashard) (f : N) (a : bytes) : bool :=
  existsb (fun e => match o_body e with BSigner k key ty => (ty =? 2) && bool_decide (key = a) && bool_decide (k = SAdd) | _ => false end)
    (events_of (q_on s) 1 (Some f)).
(** 3534-3542. *)
Definition sh_verified (s : ashard) (f : N) (a : bytes) : bool := bool_decide ((fidk f, a) ∈ q_ver s).
Fixpoint type_loop (ss : list ashard) (f : N) (a : bytes) (x : bool * bool * bool) : bool * bool * bool :=
  match ss with
  | [] => x
  | s :: r =>
      let '(c, k, v) := x in
      let c := c || sh_custody s f a in let k := k || sh_auth s f a in let v := v || sh_verified s f a in
      if c || k || v then (c, k, v) else type_loop r f a (c, k, v)
  end.
Definition address_type (ss : list ashard) (f : N) (a : bytes) : bool * bool * bool := type_loop ss f a (false, false, false).
