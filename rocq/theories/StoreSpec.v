(** How messages of one slot compete, stated without the store model (used by the C13-C18 theorems). *)
From Verif Require Export Base Store.
#[local] Open Scope N_scope.

(** Removals are the even message types CastRemove = 2, ReactionRemove = 4, LinkRemove = 6, VerificationRemove = 8. *)
Definition is_removal (m : msg) : bool := (m_type m =? 2) || (m_type m =? 4) || (m_type m =? 6) || (m_type m =? 8).
(** Last write wins: timestamp, then removal over addition, then hash. *)
Definition lww_rank (m : msg) : list N := m_ts m :: (if is_removal m then 1 else 0) :: m_hash m.
(** Casts: removal over addition, then timestamp, then hash. *)
Definition cast_rank (m : msg) : list N := (if is_removal m then 1 else 0) :: m_ts m :: m_hash m.

(** What a message is about; a store keeps at most one message per author and subject. *)
Inductive subj := SCast (h : bytes) | SReaction (ty : N) (t : option target) | SLink (ty : bytes) (t : option N)
  | SVerif (a : bytes) | SUserData (ty : N) | SLend (to : N) | SNone.
Definition subject (m : msg) : subj :=
  match m_body m with
  | BCastAdd _ _ => SCast (m_hash m)
  | BCastRemove h => SCast h
  | BReaction ty t => SReaction ty t
  | BLink ty t => SLink ty t
  | BVerifAdd a _ | BVerifRemove a _ => SVerif a
  | BUserData ty _ => SUserData ty
  | BLend to _ => SLend to
  | _ => SNone
  end.
Definition same_subject (a b : msg) : Prop := m_fid a = m_fid b /\ subject a = subject b.

(** A message a store accepts as input: identified by a 20-byte hash, a 32-bit time and a non-zero 32-bit account, with a
    body from which the slot and the index keys can be computed. *)
Definition is_some {A} (o : option A) : bool := match o with Some _ => true | None => false end.
Definition set_msg (D : sdef) (m : msg) : bool :=
  Nat.eqb (length (m_hash m)) 20 && (m_ts m <? 2 ^ 32) && (0 <? m_fid m) && (m_fid m <? 2 ^ 32)
  && (d_is_add D m || (d_has_rem D && d_is_rem D m)) && is_some (d_slot D m)
  && (negb (d_is_add D m) || is_some (d_unbuild D m)).

(** Messages are identified by author and hash, up to the signature. *)
Definition coherent (m1 m2 : msg) : bool :=
  negb ((m_fid m1 =? m_fid m2) && bool_decide (m_hash m1 = m_hash m2))
  || ((m_type m1 =? m_type m2) && (m_ts m1 =? m_ts m2) && bool_decide (m_body m1 = m_body m2)).

(** Stronger: one message per author and hash. *)
Definition identified (a b : msg) : bool :=
  negb ((m_fid a =? m_fid b) && bool_decide (m_hash a = m_hash b)) || bool_decide (a = b).
Definition pairwise (r : msg -> msg -> bool) (ms : list msg) : bool := forallb (fun a => forallb (r a) ms) ms.
(** Field ranges in which different subjects have different database keys. *)
Definition plain (m : msg) : bool :=
  match m_body m with
  | BCastRemove h => Nat.eqb (length h) 20
  | BLink ty t => forallb (fun b => 0 <? b) ty && match t with Some f => f <? 2 ^ 32 | None => true end
  | BReaction ty t =>
    (0 <? ty) && (ty <? 256)
    && match t with
       | Some (TUrl u) => negb (Nat.eqb (length u) 24)
       | Some (TCast f h) => (f <? 2 ^ 32) && Nat.eqb (length h) 20
       | None => false
       end
  | BUserData ty _ => (0 <? ty) && (ty <? 256)
  | BLend to _ => to <? 2 ^ 32
  | BLinkCompact ty _ => forallb (fun b => 0 <? b) ty && Nat.leb (length ty) 8
  | _ => true
  end.
(** A compact-state message a store accepts as input. *)
Definition comp_msg (D : sdef) (m : msg) : bool :=
  Nat.eqb (length (m_hash m)) 20 && d_has_compact D && d_is_comp D m && is_some (d_comp_slot D m)
  && is_some (compact_details m).
(** A message of a type the store does not handle. *)
Definition ignored (D : sdef) (m : msg) : bool :=
  negb (d_is_add D m) && negb (d_has_rem D && d_is_rem D m) && negb (d_has_compact D && d_is_comp D m).

(** The six stores and the order in which their messages compete. *)
Inductive a_store : sdef -> (msg -> list N) -> Prop :=
  | st_cast : a_store cast_def cast_rank
  | st_link : a_store link_def lww_rank
  | st_reaction chan : (forall u1 u2 c, chan u1 = Some c -> chan u2 = Some c -> u1 = u2) ->
      a_store (reaction_def chan) lww_rank
  | st_user_data : a_store user_data_def lww_rank
  | st_verif : a_store verif_def lww_rank
  | st_lend : a_store lend_def lww_rank.

Definition merge_op (o : sop) : bool := match o with OMerge _ | OCommit => true | _ => false end.
(** Every committed message of account [f] is still in the view. *)
Definition scan_fresh (db v : smap) (f : N) : bool :=
  forallb (fun p => bool_decide (s_rows v !! (f, p.1) = Some p.2)) (rows_of (s_rows db) f).
(** Histories in which range scans (prunes, revocations, compact states) do not meet messages already superseded by the
    open transaction; [strict]: nor messages not yet committed. *)
Definition op_fine (D : sdef) (strict : bool) (st : smap * smap) (o : sop) : bool :=
  let '(db, v) := st in
  match o with
  | OMerge m => set_msg D m || ignored D m
                || (comp_msg D m && scan_fresh db v (m_fid m) && (negb strict || scan_fresh v db (m_fid m)))
  | OPrune f _ _ | ORevoke f _ => scan_fresh db v f && (negb strict || scan_fresh v db f)
  | OCommit | ORollback => true
  end.
Fixpoint fine (D : sdef) (cx : msg -> mctx) (strict : bool) (st : smap * smap) (ops : list sop) : bool :=
  match ops with
  | [] => true
  | o :: r => op_fine D strict st o && fine D cx strict (sstep D cx st o) r
  end.
Definition start : smap * smap := (sempty, sempty).

(** Every message found through the by-subject indexes is stored under its own address and is about that subject; every stored
    message is reachable through its subject; a subject has an addition or a tombstone, not both; the secondary indexes
    contain exactly the entries of the stored additions. *)
Record index_consistent (D : sdef) (cx : msg -> mctx) (v : smap) : Prop := {
  ic_adds : forall f s t, s_adds v !! (f, s) = Some t -> exists m,
    s_rows v !! (f, t) = Some m /\ d_is_add D m = true /\ m_fid m = f /\ d_slot D m = Some s /\ t = tsh m;
  ic_rems : forall f s t, s_rems v !! (f, s) = Some t -> exists m,
    s_rows v !! (f, t) = Some m /\ d_is_rem D m = true /\ m_fid m = f /\ d_slot D m = Some s /\ t = tsh m;
  ic_rows : forall f t m, s_rows v !! (f, t) = Some m -> m_fid m = f /\ tsh m = t /\
    exists s, d_slot D m = Some s /\
      ((d_is_add D m = true /\ s_adds v !! (f, s) = Some t) \/ (d_is_rem D m = true /\ s_rems v !! (f, s) = Some t));
  ic_one : forall f s t t', s_adds v !! (f, s) = Some t -> s_rems v !! (f, s) = Some t' -> False;
  ic_idx : forall k x, s_idx v !! k = Some x <-> exists f t m l,
    s_rows v !! (f, t) = Some m /\ d_is_add D m = true /\ d_build D (c_follow (cx m)) m = Some l /\ (k, x) ∈ l }.

(** Links. *)
Definition link_type (m : msg) : option bytes := match m_body m with BLink ty _ => Some ty | _ => None end.
Definition link_target (m : msg) : option N := match m_body m with BLink _ t => t | _ => None end.
(** A stored link agrees with a list of targets. *)
Definition listed (targets : list N) (x : msg) : Prop :=
  m_type x = T_LinkAdd /\ exists y, link_target x = Some y /\ y ∈ targets.
