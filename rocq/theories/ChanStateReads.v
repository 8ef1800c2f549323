(** What the node tells about the members, pins, moderations and settings of a channel: src/network/server.rs:150-205,
    3117-3296, the read functions of src/storage/store/account/channel_store.rs:948-1128, 1180-1195, 1233-1285.

    The state is that of Channel.v. An index of the channel store is the map of its own rows: rows of other indexes and stores have
    another first or second byte and are not in the scanned range. Errors are not told apart. Whether a channel is registered
    ([require_registered_channel]) is any predicate; ChannelReads.v models it. Database failures are not modelled. *)
From Verif Require Export Channel.
From Verif Require Import Base Codec Kv Paging.
#[local] Open Scope N_scope.

(** channel_store.rs:38-47, 246-253; the slot index of store [k] is number [k + 1]. *)
Definition index_key (i : N) (rest : bytes) : bytes := 24 :: i :: rest.
Definition slot_rows (s : chst) (k : N) : kv ptr :=
  list_to_map (omap (fun e : skey * ptr => if e.1.1.1 =? k then Some (index_key (k + 1) (e.1.1.2 ++ e.1.2), e.2) else None) (map_to_list (c_slot s))).
(** 755-764. *)
Definition byfid_rows (s : chst) : kv unit :=
  gset_to_gmap tt (set_map (fun p : N * bytes => index_key 8 (be 4 p.1 ++ p.2)) (c_byfid s) : gset bytes).

(** request_response.proto:211-217, server.rs:150-169. *)
Definition state_no (st : mstate) : N := match st with SMember => 1 | SModerator => 2 | SRemoved => 3 | SBanned => 4 end.
Definition state_filter (n : option N) : option (option mstate) :=
  match n with
  | None => Some None
  | Some n => match n with 0 => Some None | 1 => Some (Some SMember) | 2 => Some (Some SModerator) | 3 => Some (Some SRemoved) | 4 => Some (Some SBanned) | _ => None end
  end.
(** server.rs:171-190. *)
Definition page_opts (size : option N) (tok : option bytes) (rev : bool) : popts :=
  POpts (Some (N.min (default PAGE_SIZE_MAX size) PAGE_SIZE_MAX)) (match tok with Some [] => None | t => t end) rev.
Definition size_ok (size : option N) : bool := negb (bool_decide (size = Some 0)).

Section Reads.
  Context (registered : bytes -> bool).
  (** server.rs:214-218, 1096-1115. *)
  Definition known (id : bytes) : bool := (length id =? 32)%nat && registered id.
  Definition fid_ok (f : N) : bool := negb (f =? 0) && (f <? 2 ^ 32).

  (** server.rs:3117-3143, channel_store.rs:1002-1022. *)
  Definition get_member (s : chst) (id : bytes) (f : N) : res unit (N * option N) :=
    if negb (known id && fid_ok f) then Err tt
    else match load_slot s (1, id, be 4 f) with
         | inl _ => Err tt
         | inr None => Ok (0, None)
         | inr (Some m) => match member_state_of (cm_body m) with Some st => Ok (state_no st, Some (cm_ts m)) | None => Err tt end
         end.

  (** channel_store.rs:1041-1062. *)
  Definition member_mk (s : chst) (prefix k : bytes) (p : ptr) : option (N * mstate) :=
    if negb (length k =? length prefix + 4)%nat then None
    else m ← c_row s !! (1, p); st ← member_state_of (cm_body m); Some (be_dec (drop (length prefix) k), st).
  (** server.rs:3145-3178. *)
  Definition get_members (s : chst) (id : bytes) (flt : option N) (size : option N) (rev : bool) (tok : option bytes)
      : res unit (list (N * mstate) * option bytes) :=
    if negb (known id && size_ok size) then Err tt
    else match state_filter flt with
         | None => Err tt
         | Some want =>
             let prefix := index_key 2 id in
             list_channel (member_mk s prefix) (fun e => match want with Some st => bool_decide (st = e.2) | None => true end)
               (slot_rows s 1) prefix (page_opts size tok rev)
         end.

  (** server.rs:3266-3296, channel_store.rs:1085-1126. *)
  Definition membership_mk (s : chst) (f : N) (prefix k : bytes) (_ : unit) : option (bytes * mstate) :=
    if negb (length k =? length prefix + 32)%nat then None
    else match member_state s (drop (length prefix) k) f with inr (Some st) => Some (drop (length prefix) k, st) | _ => None end.
  Definition get_memberships (s : chst) (f : N) (size : option N) (rev : bool) (tok : option bytes)
      : res unit (list (bytes * mstate) * option bytes) :=
    if negb (fid_ok f && size_ok size) then Err tt
    else let prefix := index_key 8 (be 4 f) in
         list_channel (membership_mk s f prefix) (fun _ => true) (byfid_rows s) prefix (page_opts size tok rev).

  (** server.rs:3180-3202. *)
  Definition get_pin (s : chst) (id : bytes) : res unit (option (bytes * N)) :=
    if negb (known id) then Err tt
    else match load_slot s (2, id, []) with
         | inl _ => Err tt
         | inr None => Ok None
         | inr (Some m) => match cm_body m with BPin c => Ok (if bool_decide (c = []) then None else Some (c, cm_fid m)) | _ => Err tt end
         end.

  (** server.rs:3204-3229, channel_store.rs:1249-1277: a moderation is the cast, the action and who acted. *)
  Definition moderation_mk (s : chst) (prefix k : bytes) (p : ptr) : option (bytes * N * N) :=
    if negb (length k =? length prefix + 20)%nat then None
    else m ← c_row s !! (3, p); match cm_body m with BModerate c a => if a <=? 2 then Some (c, a, cm_fid m) else None | _ => None end.
  Definition get_moderations (s : chst) (id : bytes) (size : option N) (rev : bool) (tok : option bytes)
      : res unit (list (bytes * N * N) * option bytes) :=
    if negb (known id && size_ok size) then Err tt
    else let prefix := index_key 4 id in
         list_channel (moderation_mk s prefix) (fun _ => true) (slot_rows s 3) prefix (page_opts size tok rev).

  (** channel_store.rs:368-384: casting (1 everyone, 2 members only, 3 recommended) and membership (1 open, 2 approval). *)
  Definition modes (c m : option N) : option (N * N) :=
    match c, m with
    | Some x, _ => if 3 <? x then None else match m with Some y => if 2 <? y then None else Some (if x =? 0 then 2 else x, if y =? 0 then 2 else y)
                                                       | None => Some (if x =? 0 then 2 else x, 2) end
    | None, Some y => if 2 <? y then None else Some (2, if y =? 0 then 2 else y)
    | None, None => Some (2, 2)
    end.
  (** server.rs:3231-3264; the texts are those of the message ([cm_rest]). *)
  Definition get_metadata (s : chst) (id : bytes) : res unit (option bytes * (N * N)) :=
    if negb (known id) then Err tt
    else match load_slot s (0, id, []) with
         | inl _ => Err tt
         | inr None => match modes None None with Some x => Ok (None, x) | None => Panic end
         | inr (Some m) => match cm_body m with BUpdate c b => match modes c b with Some x => Ok (Some (cm_rest m), x) | None => Err tt end | _ => Err tt end
         end.
End Reads.
