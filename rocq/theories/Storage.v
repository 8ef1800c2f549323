(** Storage units: src/storage/store/account/onchain_event_store.rs:25-37, 885-1060, 1333-1362 (StorageSlot),
    src/storage/store/stores.rs:86-258, 400-433 (limits), src/storage/store/block_engine.rs:454-484, 1040-1062, 1391-1424,
    1424-1520 (lending on the block shard), src/storage/store/account/storage_lend_store.rs:226-310, 363-389.

    Numbers are u32 and wrap (no overflow checks in release builds). [now] is the wall clock read by [is_active].
    Rows of rent events and loans are finite maps; the scans over them are in key order in the code and in map order here,
    which makes no difference ([StorageProofs.own_slot_perm]). *)
From Verif Require Export Base Version.
From stdpp Require Export gmap.
#[local] Open Scope N_scope.

Definition u32 (x : N) : N := x mod 2 ^ 32.
Definition U32_MAX : N := 2 ^ 32 - 1.

Inductive utype := Legacy | U2024 | U2025.
#[global] Instance utype_eq_dec : EqDecision utype. Proof. solve_decision. Defined.

(** onchain_event_store.rs:885-891. *)
Record slot := Slot { s_legacy : N; s_2024 : N; s_2025 : N; s_inval : N }.
(** onchain_event_store.rs:909-915. *)
Definition units_for (s : slot) (u : utype) : N := match u with Legacy => s_legacy s | U2024 => s_2024 s | U2025 => s_2025 s end.

(** onchain_event_store.rs:28-38. *)
Definition LEGACY_CUTOFF : N := 1724889600.
Definition cutoff_2024 (mainnet : bool) : N := if mainnet then 1752685200 else 1752426000.
Definition cutoff_2025 (mainnet : bool) : N := if mainnet then 1782147600 else 1781283600.
Definition YEAR : N := 365 * 24 * 60 * 60.

(** onchain_event_store.rs:950-1020 [from_event]: [ts] block timestamp and [units] of a rent event. *)
Definition from_event (mainnet : bool) (v : version) (ts units : N) : slot :=
  let ext := if is_enabled v StorageExpiryExtension2026 then 1 else 0 in
  if ts <? LEGACY_CUTOFF then Slot units 0 0 (u32 (u32 ts + YEAR * (3 + ext)))
  else if ts <? cutoff_2024 mainnet then Slot 0 units 0 (u32 (u32 ts + YEAR * (2 + ext)))
  else if ts <? cutoff_2025 mainnet then Slot 0 0 units (u32 (u32 ts + YEAR * (1 + ext)))
  else Slot 0 0 units (u32 (u32 ts + YEAR)).
(** onchain_event_store.rs:932-948 [from_storage_lend]. *)
Definition from_lend (u : utype) (n : N) : slot :=
  match u with Legacy => Slot (u32 n) 0 0 U32_MAX | U2024 => Slot 0 (u32 n) 0 U32_MAX | U2025 => Slot 0 0 (u32 n) U32_MAX end.

(** onchain_event_store.rs:1022-1029. *)
Definition is_active (now : N) (s : slot) : bool := u32 now <? s_inval s.
(** onchain_event_store.rs:1031-1043. *)
Definition slot_merge (now : N) (s o : slot) : slot :=
  if negb (is_active now o) then s
  else if negb (is_active now s) then o
  else Slot (u32 (s_legacy s + s_legacy o)) (u32 (s_2024 s + s_2024 o)) (u32 (s_2025 s + s_2025 o)) (N.min (s_inval s) (s_inval o)).
(** u32 subtraction. *)
Definition wsub (a b : N) : N := u32 (a + 2 ^ 32 - u32 b).
(** onchain_event_store.rs:1045-1051. *)
Definition slot_sub (now : N) (s o : slot) : slot :=
  if is_active now o then Slot (wsub (s_legacy s) (s_legacy o)) (wsub (s_2024 s) (s_2024 o)) (wsub (s_2025 s) (s_2025 o)) (s_inval s)
  else s.

(** ** Limits (stores.rs:86-258) *)
Inductive stype := StCasts | StLinks | StReactions | StUserData | StVerifications | StUsernameProofs | StStorageLends | StNone.
#[global] Instance stype_eq_dec : EqDecision stype. Proof. solve_decision. Defined.
(** stores.rs:103-147, 202-214: [of_type] and [for_store_type]. *)
Definition limit_of (u : utype) (t : stype) : N :=
  match t, u with
  | StCasts, Legacy => 5000 | StCasts, U2024 => 2000 | StCasts, U2025 => 100
  | (StLinks | StReactions), Legacy => 2500 | (StLinks | StReactions), U2024 => 1000 | (StLinks | StReactions), U2025 => 200
  | StUserData, U2025 => 25 | StUserData, _ => 50
  | StUsernameProofs, U2025 => 2 | StUsernameProofs, _ => 5
  | StVerifications, U2025 => 5 | StVerifications, _ => 25
  | StStorageLends, _ => 1
  | StNone, _ => 0
  end.
(** stores.rs:228-240. *)
Definition max_messages (s : slot) (t : stype) : N :=
  u32 (u32 (limit_of U2025 t * s_2025 s) + u32 (limit_of U2024 t * s_2024 s) + u32 (limit_of Legacy t * s_legacy s)).

(** ** Rent events and loans *)

(** (account, block, log index) -> (timestamp, units): primary key of a rent event and the fields used. *)
Notation rents := (gmap (N * N * N) (N * N)).
(** (lender, borrower) -> (class, units): the live rows of the lend store. *)
Notation loans := (gmap (N * N) (utype * N)).

Record sst := SSt { st_rents : rents; st_loans : loans }.
Definition st_init : sst := SSt ∅ ∅.

Definition slot0 : slot := Slot 0 0 0 0.
Definition empty_slot : slot := Slot 0 0 0 U32_MAX.
Definition merge_all (now : N) (l : list slot) : slot := foldl (slot_merge now) slot0 l.

Section Slots.
  Context (mainnet : bool) (v : version) (now : N).

  Definition rents_of (r : rents) (f : N) : list (N * N) :=
    omap (fun e => if e.1.1.1 =? f then Some e.2 else None) (map_to_list r).
  (** onchain_event_store.rs:1341-1357: committed rents, then the pending ones of the transaction. *)
  Definition own_slot (r : rents) (f : N) (pending : list (N * N)) : slot :=
    merge_all now (map (fun e => from_event mainnet v e.1 e.2) (rents_of r f ++ pending)).
  (** storage_lend_store.rs:226-259 and 262-307. *)
  Definition lent_of (l : loans) (f : N) : list (utype * N) := omap (fun e => if e.1.1 =? f then Some e.2 else None) (map_to_list l).
  Definition borrowed_of (l : loans) (f : N) : list (utype * N) := omap (fun e => if e.1.2 =? f then Some e.2 else None) (map_to_list l).
  Definition lend_slots (l : list (utype * N)) : slot := merge_all now (map (fun e => from_lend e.1 e.2) l).
  (** stores.rs:400-433, block_engine.rs:454-484 and onchain_event_store.rs:1333-1362. *)
  Definition get_slot (s : sst) (f : N) (pending : list (N * N)) (count_lent count_borrowed : bool) : slot :=
    let lent := if count_lent then lend_slots (lent_of (st_loans s) f) else empty_slot in
    let borrowed := if count_borrowed then lend_slots (borrowed_of (st_loans s) f) else empty_slot in
    slot_merge now (slot_sub now (own_slot (st_rents s) f pending) lent) borrowed.

  (** ** A block on the block shard *)

  (** A LEND_STORAGE message in a transaction: borrower, class, units, and whether the lend store's conflict rule accepts
      it (the rule itself: C13, C55). *)
  Record lend := Lend { l_to : N; l_type : utype; l_units : N; l_accept : bool }.
  (** A transaction: account, rent events (block, log index, timestamp, units) of that account, lends by that account. *)
  Record stx := STx { x_fid : N; x_rents : list (N * N * (N * N)); x_lends : list lend }.

  (** core/validations/message.rs:342-354 and block_engine.rs:1040-1062. [db]: committed state, [sl]: the running slot. *)
  Definition lend_valid (db : sst) (f : N) (sl : slot) (m : lend) : bool :=
    (l_units m <=? 5000) &&
    negb (mainnet && (units_for (get_slot db f [] false false) (l_type m) <? 1000)) &&
    negb (units_for sl (l_type m) <? u32 (if is_enabled v StorageLendingLimitFix then l_units m + 1 else l_units m)).

  (** block_engine.rs:1519-1537 with on_merge_message (1391-1422) and storage_lend_store.rs:363-389: the row is replaced;
      a loan of 0 units is removed at once. *)
  Definition lend_step (db : sst) (f : N) (st : loans * slot) (m : lend) : loans * slot :=
    let '(l, sl) := st in
    if lend_valid db f sl m && is_enabled v StorageLending && l_accept m then
      let old := l !! (f, l_to m) in
      let sl := slot_sub now sl (from_lend (l_type m) (l_units m)) in
      let sl := match old with Some (u, n) => slot_merge now sl (from_lend u n) | None => sl end in
      (if l_units m =? 0 then delete (f, l_to m) l else <[(f, l_to m) := (l_type m, l_units m)]> l, sl)
    else (l, sl).

  (** onchain_event_store.rs:110-128: a stored event is not stored again. *)
  Definition rent_step (f : N) (r : rents) (e : N * N * (N * N)) : rents :=
    match r !! (f, e.1.1, e.1.2) with Some _ => r | None => <[(f, e.1.1, e.1.2) := e.2]> r end.

  (** block_engine.rs:1424-1520: slots come from the committed state [db] plus all rent events of the transaction; the view
      [s] is written. *)
  Definition stx_step (db : sst) (s : sst) (t : stx) : sst :=
    let r := foldl (rent_step (x_fid t)) (st_rents s) (x_rents t) in
    let sl := get_slot db (x_fid t) (map snd (x_rents t)) true false in
    let '(l, _) := foldl (lend_step db (x_fid t)) (st_loans s, sl) (x_lends t) in
    SSt r l.
  Definition sblock (db : sst) (ts : list stx) : sst := foldl (stx_step db) db ts.
End Slots.

(** A history: blocks, each with the engine version and the wall clock at which this node executes it. *)
Definition srun (mainnet : bool) (s : sst) (bs : list (version * N * list stx)) : sst :=
  foldl (fun s b => sblock mainnet b.1.1 b.1.2 s b.2) s bs.
