(** Channel messages on the block shard: channel_member_authority (block_engine.rs:150-265), validate_channel_message and
    channel_author_role (block_engine.rs:707-900), merge_slot (src/storage/store/account/channel_store.rs:422-545) and the
    read functions member_state, get_channel_update, counters.

    Rows are typed maps: slot pointers [24, index, channel, suffix] -> (fid, ts, hash); primary message rows
    user_key(fid) ++ postfix ++ ts_hash; the author's add index user_key(fid) ++ postfix ++ channel ++ suffix; the slot
    count, live moderator count and member-by-fid index. Reads go through the transaction, so batch and database are one
    state; merge_slot stages its writes and merges them only on success, so a failure leaves the state alone. The
    derived-index gate is on (feature ChannelMessages active). Event ids and hub events are left out. *)
From Verif Require Export Base.
From stdpp Require Export gmap.
#[local] Open Scope N_scope.

(** ** Authority table *)
Inductive maction := ANone | AAddMember | ARemoveMember | AAddModerator | ARemoveModerator | ABan | AUnban.
(** message.proto:302-310; any other number fails [try_from]. *)
Definition action_of (n : N) : option maction :=
  match n with
  | 0 => Some ANone | 1 => Some AAddMember | 2 => Some ARemoveMember | 3 => Some AAddModerator
  | 4 => Some ARemoveModerator | 5 => Some ABan | 6 => Some AUnban | _ => None
  end.
Inductive mstate := SMember | SModerator | SRemoved | SBanned.
Inductive role := ROwner | RModerator | RMember | ROther.
Inductive decision := DAllowed | DUnauthorized | DInvalidTarget | DBanned | DOwnerUnbannable.
#[global] Instance mstate_eq_dec : EqDecision mstate. Proof. solve_decision. Defined.
#[global] Instance maction_eq_dec : EqDecision maction. Proof. solve_decision. Defined.
#[global] Instance role_eq_dec : EqDecision role. Proof. solve_decision. Defined.

(** block_engine.rs:150-265. *)
Definition authority (a : maction) (r : role) (t : option mstate) (is_self open target_owner : bool) : decision :=
  let owner := bool_decide (r = ROwner) in let moderator := bool_decide (r = RModerator) in
  let ok (b : bool) := if b then DAllowed else DUnauthorized in
  if bool_decide (a = ANone) then DInvalidTarget
  else if bool_decide (a = ABan) && target_owner then DOwnerUnbannable
  else if bool_decide (t = Some SBanned) && negb (bool_decide (a = AUnban)) then DBanned
  else match a with
       | AAddMember =>
           match t with None | Some SRemoved => ok (owner || moderator || (is_self && open)) | _ => DInvalidTarget end
       | ARemoveMember =>
           match t with
           | Some SMember => if owner || moderator || is_self then DAllowed else DInvalidTarget
           | Some SModerator => if is_self then DAllowed else DInvalidTarget
           | _ => DInvalidTarget
           end
       | AAddModerator => match t with None | Some SRemoved | Some SMember => ok owner | _ => DInvalidTarget end
       | ARemoveModerator => match t with Some SModerator => ok owner | _ => DInvalidTarget end
       | ABan =>
           match t with
           | Some SModerator => ok owner
           | None | Some SRemoved | Some SMember => ok (owner || moderator)
           | _ => DInvalidTarget
           end
       | AUnban => match t with Some SBanned => ok (owner || moderator) | _ => DInvalidTarget end
       | ANone => DInvalidTarget
       end.

(** channel_store.rs:386-405. *)
Definition mstate_of_action (a : maction) : option mstate :=
  match a with
  | AAddMember | ARemoveModerator => Some SMember
  | AAddModerator => Some SModerator
  | ARemoveMember | AUnban => Some SRemoved
  | ABan => Some SBanned
  | ANone => None
  end.

(** ** Messages *)
Inductive cbody :=
  | BUpdate (casting membership : option N)
  | BMember (target action : N)
  | BPin (cast : bytes)
  | BModerate (cast : bytes) (action : N).
Record cmsg := CMsg { cm_fid : N; cm_ts : N; cm_hash : bytes; cm_chan : bytes; cm_body : cbody; cm_rest : bytes }.
#[global] Instance cbody_eq_dec : EqDecision cbody. Proof. solve_decision. Defined.
#[global] Instance cmsg_eq_dec : EqDecision cmsg. Proof. solve_decision. Defined.

Definition CHANNEL_ID_LEN : nat := 32.
Definition HASH_LEN : nat := 20.
(** Store number: update 0, member 1, pin 2, moderate 3. *)
Definition kind (b : cbody) : N := match b with BUpdate _ _ => 0 | BMember _ _ => 1 | BPin _ => 2 | BModerate _ _ => 3 end.
(** channel_store.rs:208-245: slot suffix; [None] when the target fid exceeds u32. *)
Definition slot_suffix (b : cbody) : option bytes :=
  match b with
  | BUpdate _ _ | BPin _ => Some []
  | BMember t _ => if t <? 2 ^ 32 then Some (be 4 t) else None
  | BModerate c _ => Some c
  end.
Notation skey := (N * bytes * bytes)%type.
Definition slot_key (m : cmsg) : option skey := x ← slot_suffix (cm_body m); Some (kind (cm_body m), cm_chan m, x).
(** Pointer (author, timestamp, hash): channel_store.rs:275-285. *)
Notation ptr := (N * N * bytes)%type.
Definition ptr_of (m : cmsg) : ptr := (cm_fid m, cm_ts m, cm_hash m).
Notation rkey := (N * ptr)%type.
Definition row_key (m : cmsg) : rkey := (kind (cm_body m), ptr_of m).

(** channel_store.rs:368-384 [fold_channel_modes]: the membership mode (0 none, 1 open, 2 approval); [None] = unparseable.
    Casting modes 0..3, membership modes 0..2 parse. *)
Definition fold_modes (b : cbody) : option bool :=
  match b with
  | BUpdate c m =>
      match c with
      | Some x => if x <=? 3 then Some tt else None
      | None => Some tt
      end ≫= fun _ =>
      match m with
      | None => Some false
      | Some 0 => Some false
      | Some 1 => Some true
      | Some 2 => Some false
      | Some _ => None
      end
  | _ => Some false
  end.
Definition member_state_of (b : cbody) : option mstate := match b with BMember _ a => action_of a ≫= mstate_of_action | _ => None end.
(** validate_slot_message of the four stores: channel_store.rs:673, 715, 772, 830. *)
Definition slot_message_ok (b : cbody) : bool :=
  match b with
  | BUpdate _ _ => match fold_modes b with Some _ => true | None => false end
  | BMember _ _ => match member_state_of b with Some _ => true | None => false end
  | BPin c => Nat.eqb (length c) 0 || Nat.eqb (length c) HASH_LEN
  | BModerate c a => ((a =? 1) || (a =? 2)) && Nat.eqb (length c) HASH_LEN
  end.
Definition is_live_moderator (b : cbody) : bool := bool_decide (member_state_of b = Some SModerator).

Definition MEMBER_SLOT_CAP : N := 8192.
Definition MODERATE_SLOT_CAP : N := 16384.
Definition MODERATOR_CAP : N := 10.
Definition slot_cap (k : N) : option N := match k with 1 => Some MEMBER_SLOT_CAP | 3 => Some MODERATE_SLOT_CAP | _ => None end.

(** ** State *)
Record chst := ChSt {
  c_slot : gmap skey ptr;
  c_row : gmap rkey cmsg;
  c_add : gmap (N * N * bytes * bytes) (N * bytes);
  c_cnt : gmap (N * bytes) N;
  c_live : gmap bytes N;
  c_byfid : gset (N * bytes) }.
Definition ch_init : chst := ChSt ∅ ∅ ∅ ∅ ∅ ∅.

Inductive cerr := EBadBody | EChannelId | EBadSlotMessage | EFidRange | EHashLen | EDup | EMissingRow | ESlotCap | EUnderflow
  | EUnknownChannel | EParked | EUnauthorized | ETarget | EBannedTarget | EOwnerBan | EModeratorCap.

#[global] Instance cerr_eq_dec : EqDecision cerr. Proof. solve_decision. Defined.

(** channel_store.rs:287-330: slot to message; [None] = empty slot, [inl] = dangling pointer. *)
Definition load_slot (s : chst) (k : skey) : cerr + option cmsg :=
  match c_slot s !! k with
  | None => inr None
  | Some p => match c_row s !! (k.1.1, p) with Some m => inr (Some m) | None => inl EMissingRow end
  end.
Definition counter (c : option N) : N := default 0 c.

(** channel_store.rs:422-545. Returns the replaced message. *)
Definition merge_slot (s : chst) (m : cmsg) : cerr + (chst * option cmsg) :=
  let b := cm_body m in let k := kind b in let ch := cm_chan m in
  if negb (Nat.eqb (length ch) CHANNEL_ID_LEN) then inl EChannelId else
  if negb (slot_message_ok b) then inl EBadSlotMessage else
  if negb (Nat.eqb (length (cm_hash m)) HASH_LEN) then inl EHashLen else
  match slot_suffix b with
  | None => inl EFidRange
  | Some x =>
    match load_slot s (k, ch, x) with
    | inl e => inl e
    | inr inc =>
      if match inc with Some i => bool_decide (cm_hash i = cm_hash m) && (cm_fid i =? cm_fid m) | None => false end then inl EDup else
      let cnt := counter (c_cnt s !! (k, ch)) in
      match (match inc, slot_cap k with
             | None, Some cap => if cap <=? cnt then inl ESlotCap else inr (<[(k, ch) := cnt + 1]> (c_cnt s))
             | _, _ => inr (c_cnt s)
             end) with
      | inl e => inl e
      | inr cnts =>
        let old := match inc with Some i => is_live_moderator (cm_body i) | None => false end in
        let new := is_live_moderator b in
        let live := counter (c_live s !! ch) in
        match (if eqb old new then inr (c_live s)
               else if new then inr (<[ch := live + 1]> (c_live s))
               else if live =? 0 then inl EUnderflow
               else if live - 1 =? 0 then inr (delete ch (c_live s)) else inr (<[ch := live - 1]> (c_live s))) with
        | inl e => inl e
        | inr lives =>
          if 2 ^ 32 <=? cm_fid m then inl EFidRange else
          let rows := match inc with Some i => delete (row_key i) (c_row s) | None => c_row s end in
          let adds := match inc with Some i => delete (k, cm_fid i, ch, x) (c_add s) | None => c_add s end in
          inr (ChSt (<[(k, ch, x) := ptr_of m]> (c_slot s)) (<[row_key m := m]> rows)
                 (<[(k, cm_fid m, ch, x) := (cm_ts m, cm_hash m)]> adds) cnts lives
                 (match b with BMember t _ => {[(t, ch)]} ∪ c_byfid s | _ => c_byfid s end),
               inc)
        end
      end
    end
  end.

(** channel_store.rs:991-1001. *)
Definition member_state (s : chst) (ch : bytes) (f : N) : cerr + option mstate :=
  if f <? 2 ^ 32 then
    match load_slot s (1, ch, be 4 f) with
    | inl e => inl e
    | inr None => inr None
    | inr (Some m) => match member_state_of (cm_body m) with Some st => inr (Some st) | None => inl EBadBody end
    end
  else inl EFidRange.
(** channel_store.rs:948-968 and the default of block_engine.rs:859-860: is membership open? *)
Definition membership_open (s : chst) (ch : bytes) : cerr + bool :=
  match load_slot s (0, ch, []) with
  | inl e => inl e
  | inr None => inr false
  | inr (Some m) => match fold_modes (cm_body m) with Some o => inr o | None => inl EBadBody end
  end.
(** block_engine.rs:707-734. *)
Definition author_role (s : chst) (ch : bytes) (f : N) (owner : option N) : cerr + role :=
  if bool_decide (owner = Some f) then inr ROwner
  else match member_state s ch f with
       | inl e => inl e
       | inr (Some SModerator) => inr RModerator
       | inr (Some SMember) => inr RMember
       | inr _ => inr ROther
       end.

(** What the registry and the verification replica say now: [None] unknown channel, [Some None] parked (owner address not
    bound to an account), [Some (Some f)] owned by account [f]. *)
Definition chenv : Type := bytes -> option (option N).

(** block_engine.rs:736-900. *)
Definition validate_channel (e : chenv) (s : chst) (m : cmsg) : cerr + unit :=
  let ch := cm_chan m in
  if negb (Nat.eqb (length ch) CHANNEL_ID_LEN) then inl EChannelId else
  if match cm_body m with BModerate c a => negb (Nat.eqb (length c) HASH_LEN) || negb ((a =? 1) || (a =? 2)) | _ => false end then inl EBadSlotMessage else
  match e ch with
  | None => inl EUnknownChannel
  | Some owner =>
    if match owner with
       | Some _ => false
       | None => negb match cm_body m with BMember t a => (a =? 2) && (t =? cm_fid m) | _ => false end
       end then inl EParked else
    match author_role s ch (cm_fid m) owner with
    | inl er => inl er
    | inr r =>
      match cm_body m with
      | BUpdate _ _ => if bool_decide (r = ROwner) then inr tt else inl EUnauthorized
      | BPin _ | BModerate _ _ => if bool_decide (r = ROwner) || bool_decide (r = RModerator) then inr tt else inl EUnauthorized
      | BMember t a =>
        match action_of a with
        | None => inl EBadBody
        | Some act =>
          match member_state s ch t with
          | inl er => inl er
          | inr ts =>
            match membership_open s ch with
            | inl er => inl er
            | inr open =>
              match authority act r ts (cm_fid m =? t) open (bool_decide (owner = Some t)) with
              | DAllowed => if bool_decide (act = AAddModerator) && (MODERATOR_CAP <=? counter (c_live s !! ch)) then inl EModeratorCap else inr tt
              | DUnauthorized => inl EUnauthorized
              | DInvalidTarget => inl ETarget
              | DBanned => inl EBannedTarget
              | DOwnerUnbannable => inl EOwnerBan
              end
            end
          end
        end
      end
    end
  end.

(** One message on the block shard: admission, then merge. *)
Inductive cout := COk (replaced : option cmsg) | CErr (e : cerr).
Notation cop := (chenv * cmsg)%type.
Definition cstep (s : chst) (o : cop) : chst * cout :=
  match validate_channel o.1 s o.2 with
  | inl e => (s, CErr e)
  | inr _ => match merge_slot s o.2 with inl e => (s, CErr e) | inr (s', d) => (s', COk d) end
  end.
Fixpoint crun (s : chst) (os : list cop) : chst * list cout :=
  match os with [] => (s, []) | o :: r => let '(s1, x) := cstep s o in let '(s2, xs) := crun s1 r in (s2, x :: xs) end.
(** A data shard replays the accepted messages without the authority check (channel_store.rs:428-443). *)
Fixpoint creplay (s : chst) (ms : list cmsg) : cerr + chst :=
  match ms with [] => inr s | m :: r => match merge_slot s m with inl e => inl e | inr (s', _) => creplay s' r end end.
