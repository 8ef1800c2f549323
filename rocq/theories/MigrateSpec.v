(** What the migration of the by-address index relies on and what it should achieve. *)
From Verif Require Export Migrate.
#[local] Open Scope N_scope.

(** Addresses of Ethereum and Solana (C66). *)
Definition addr_ok (a : bytes) : bool := (Nat.eqb (length a) 20 || Nat.eqb (length a) 32) && bytes_ok a.
Definition fid_ok (f : N) : bool := (1 <=? f) && (f <? 2 ^ 32 - 1).

Section Spec.
  Variable ev : bytes -> option (option N).

  (** The fid of an id-register row, from its key. *)
  Definition reg_row (f : N) (rest : bytes) : bytes := reg_prefix ++ be 4 f ++ rest.
  Definition registered (db : kv bytes) (f : N) : Prop :=
    fid_ok f = true /\ exists rest v, db !! reg_row f rest = Some v /\ ev v = Some (Some f).

  (** The rows of id-register events: each belongs to a fid below 2^32 - 1, says nothing about another fid, and is
      preceded by (or is) a registration of its fid. *)
  Definition regs_ok (db : kv bytes) : Prop := forall k v, db !! k = Some v -> is_prefix reg_prefix k = true ->
    exists f rest, k = reg_row f rest /\ f < 2 ^ 32 - 1 /\ (forall f', ev v = Some (Some f') -> f' = f) /\
      exists rest' v', db !! reg_row f rest' = Some v' /\ ev v' = Some (Some f) /\ ble (reg_row f rest') k = true.

  (** The primary entries: addresses of the right length, values of 24 bytes, registered owners. *)
  Definition adds_ok (db : kv bytes) : Prop := forall fid r v, fid < 2 ^ 32 -> db !! adds_key fid r = Some v ->
    addr_ok r = true /\ blen v = 24 /\ registered db fid.

  (** An entry of the old form: the address alone, pointing to a fid.  One of the new form that agrees with the primary
      entry. *)
  Definition legacy (k v : bytes) : Prop := blen v = 4 /\ exists a, k = RP_VerByAddress :: a /\ addr_ok a = true.
  Definition current (db : kv bytes) (k v : bytes) : Prop :=
    exists fid a, fid < 2 ^ 32 /\ addr_ok a = true /\ k = by_key a fid /\ db !! adds_key fid a = Some v.
  Definition index_ok (db : kv bytes) : Prop := forall k v, db !! (RP_VerByAddress :: k) = Some v ->
    legacy (RP_VerByAddress :: k) v \/ current db (RP_VerByAddress :: k) v.

  Definition keys_ok (db : kv bytes) : Prop := forall k v, db !! k = Some v -> bytes_ok k = true.
  Record wf (db : kv bytes) : Prop := Wf { wf_keys : keys_ok db; wf_regs : regs_ok db; wf_adds : adds_ok db; wf_index : index_ok db }.

  (** A batch of the engine (message and event merges of the current version): it treats the by-address entry as it
      treats the primary entry, writes no other key of the two areas, and leaves the id-register rows in order without
      deleting one. *)
  Record live_ok (db : kv bytes) (t : batch bytes) : Prop := LiveOk {
    lo_keys : forall k v, t !! k = Some (Some v) -> bytes_ok k = true;
    lo_pair : forall fid a, fid < 2 ^ 32 -> addr_ok a = true -> t !! by_key a fid = t !! adds_key fid a;
    lo_index : forall k x, t !! (RP_VerByAddress :: k) = Some x -> exists fid a, fid < 2 ^ 32 /\ addr_ok a = true /\ RP_VerByAddress :: k = by_key a fid;
    lo_adds : forall fid r v, fid < 2 ^ 32 -> t !! adds_key fid r = Some (Some v) ->
      addr_ok r = true /\ blen v = 24 /\ registered (commit db t) fid;
    lo_keep : forall k, is_prefix reg_prefix k = true -> t !! k <> Some None;
    lo_same : forall k v v', is_prefix reg_prefix k = true -> t !! k = Some (Some v) -> db !! k = Some v' -> v = v';
    lo_regs : regs_ok (commit db t);
    lo_schema : forall k, t !! (RP_Schema :: k) = None }.

  (** The goal: the index mirrors the primary entries, and nothing else is left. *)
  Definition mirrors (db : kv bytes) : Prop := forall k v,
    db !! (RP_VerByAddress :: k) = Some v <->
    exists fid a, fid < 2 ^ 32 /\ addr_ok a = true /\ RP_VerByAddress :: k = by_key a fid /\ db !! adds_key fid a = Some v.
  (** Until then: every entry with a value of 24 bytes is right. *)
  Definition never_wrong (db : kv bytes) : Prop := forall k v, db !! (RP_VerByAddress :: k) = Some v -> blen v = 24 ->
    exists fid a, fid < 2 ^ 32 /\ addr_ok a = true /\ RP_VerByAddress :: k = by_key a fid /\ db !! adds_key fid a = Some v.

  (** Batches of m1 write by-fid entries of names (RootPrefix 15) only. *)
  Definition m1_ok (t : batch bytes) : Prop := forall k x, t !! k = Some x -> exists r v, k = 15 :: r /\ x = Some v /\ bytes_ok k = true.

  (** Every batch on the way is one of these. *)
  Fixpoint allowed (chunk : N) (s : gstate) (ls : list glabel) : Prop :=
    match ls with
    | [] => True
    | l :: ls =>
        match l with GLive t => live_ok (g_db s) t | GM1 t => m1_ok t | _ => True end /\
        match g_step ev chunk s l with Some s => allowed chunk s ls | None => True end
    end.
End Spec.

(** The verifications of an address, by the primary entries, and the best of them. *)
Definition verifies (db : kv bytes) (t : batch bytes) (a : bytes) (fid : N) (h : bytes) : Prop :=
  fid < 2 ^ 32 /\ tget db t (adds_key fid a) = Some h.
Definition best (P : N -> bytes -> Prop) (w : N) : Prop :=
  exists h, P w h /\ forall f h', P f h' -> blt h' h = true \/ (h' = h /\ w <= f).
