(** Who follows which channel: the rows a reaction store keeps beside its messages and what is read from them,
    src/storage/store/account/reaction_store.rs:26-56, 145-175, 238-360, 508-639, store.rs:635-690, 1018-1100, and the handlers
    of src/network/server.rs:3361-3430 on one shard.

    Simplifications: of the reaction store only the stored adds are kept, by their key; whether a merge is accepted (the order of
    adds and removes, validation, limits) is any boolean. A merge first deletes the stored add of its key ([delete_many_transaction]);
    pruning and revoking delete a stored add. [merge_force_override] is used for verifications alone (engine.rs:1911-1938). The rows are the map
    of the prefix ChannelFollow alone. Database failures are not modelled. *)
From Verif Require Export ChannelUri Paging.
From Verif Require Import Base Codec Kv ChanStateReads.
#[local] Open Scope N_scope.

Inductive target := TUrl (u : bytes) | TCast (f : N) (h : bytes).
#[global] Instance target_eq_dec : EqDecision target. Proof. solve_decision. Defined.
Record react := React { r_fid : N; r_type : N; r_target : target; r_ts : N }.
(** reaction_store.rs make_target_key, make_reaction_adds_key: a cast is its account and hash. *)
Definition target_key (t : target) : bytes := match t with TUrl u => u | TCast f h => be 4 f ++ h end.
Definition reakey : Type := N * N * bytes.
Definition key_of (m : react) : reakey := (r_fid m, r_type m, target_key (r_target m)).

(** reaction_store.rs:264-302, constants.rs:72. *)
Definition byfid_prefix (f : N) : bytes := 25 :: 1 :: be 4 f.
Definition bychan_prefix (id : bytes) : bytes := 25 :: 2 :: id.
Definition byfid_key (f : N) (id : bytes) : bytes := byfid_prefix f ++ id.
Definition bychan_key (id : bytes) (f : N) : bytes := bychan_prefix id ++ be 4 f.

Record fols := Fols { fl_adds : gmap reakey react; fl_rows : kv bytes }.
Definition fol_init : fols := Fols ∅ ∅.

Section F.
  Context (keccak : bytes -> bytes) (reg : option registrar).

  (** 249-262: only a like of a url. *)
  Definition classify (m : react) : option bytes :=
    match reg with
    | None => None
    | Some r => if r_type m =? 1 then match r_target m with TUrl u => follow_target keccak u r | TCast _ _ => None end else None
    end.

  (** 164-175, 353-360, store.rs:673-690. *)
  Definition drop_add (s : fols) (k : reakey) : fols :=
    match fl_adds s !! k with
    | None => s
    | Some m => Fols (delete k (fl_adds s))
        (match classify m with Some id => delete (bychan_key id (r_fid m)) (delete (byfid_key (r_fid m) id) (fl_rows s)) | None => fl_rows s end)
    end.
  (** 145-160, 327-342, store.rs:635-656; [gate]: channel follows are switched on at the time of the merge. *)
  Definition put_add (gate : bool) (s : fols) (m : react) : fols :=
    Fols (<[key_of m := m]> (fl_adds s))
      (if gate then match classify m with
                    | Some id => <[bychan_key id (r_fid m) := be 4 (r_ts m)]> (<[byfid_key (r_fid m) id := be 4 (r_ts m)]> (fl_rows s))
                    | None => fl_rows s
                    end else fl_rows s).

  Inductive fop := FAdd (gate accepted : bool) (m : react) | FRemove (accepted : bool) (k : reakey) | FDrop (k : reakey).
  Definition fstep (s : fols) (o : fop) : fols :=
    match o with
    | FAdd gate true m => put_add gate (drop_add s (key_of m)) m
    | FRemove true k | FDrop k => drop_add s k
    | _ => s
    end.
  Definition frun (os : list fop) : fols := fold_left fstep os fol_init.

  (** 546-588. *)
  Definition follow_mk {A} (entry : bytes -> N -> A) (prefix k v : bytes) : option A :=
    if negb (length k =? 38)%nat then None else if negb (length v =? 4)%nat then None else Some (entry (drop (length prefix) k) (be_dec v)).
  (** 509-522, a page of one shard. *)
  Definition followers_by_channel (s : fols) (id : bytes) (size : option N) (rev : bool) (tok : option bytes) : res unit (list (N * N) * option bytes) :=
    if negb ((length id =? 32)%nat && size_ok size) then Err tt
    else list_channel (follow_mk (fun x at_ => (be_dec x, at_)) (bychan_prefix id)) (fun _ => true) (fl_rows s) (bychan_prefix id) (page_opts size tok rev).
  (** server.rs:3377-3406, 525-544. *)
  Definition get_follows (s : fols) (f : N) (size : option N) (rev : bool) (tok : option bytes) : res unit (list (bytes * N) * option bytes) :=
    if negb (fid_ok f && size_ok size) then Err tt
    else list_channel (follow_mk pair (byfid_prefix f)) (fun _ => true) (fl_rows s) (byfid_prefix f) (page_opts size tok rev).
  (** server.rs:3408-3430, 622-639. *)
  Definition is_following (s : fols) (f : N) (id : bytes) : res unit (option N) :=
    if negb (fid_ok f && (length id =? 32)%nat) then Err tt
    else match fl_rows s !! byfid_key f id with
         | None => Ok None
         | Some v => if (length v =? 4)%nat then Ok (Some (be_dec v)) else Err tt
         end.
  (** 601-618; the rows of the prefix, counted one by one. *)
  Definition follower_count (s : fols) (id : bytes) : res unit N :=
    match for_each (fl_rows s) (bychan_prefix id) (increment_vec_u8 (bychan_prefix id)) (POpts None None false)
            (fun n _ _ => Ok (n + 1, false)) 0 with
    | Ok (n, _) => Ok n
    | Err e => Err e
    | Panic => Panic
    end.
  (** server.rs:3361-3375: the sum over the shards. *)
  Fixpoint total_count (ss : list fols) (id : bytes) : res unit N :=
    match ss with
    | [] => Ok 0
    | s :: ss => match follower_count s id with
                 | Ok n => match total_count ss id with Ok t => Ok (n + t) | e => e end
                 | e => e
                 end
    end.
End F.
