(** Who owns a channel, as the public reads answer: src/network/server.rs 342-396, 1096-1115, 2937-3115, the index scans of
    src/storage/store/account/onchain_event_store.rs 179-193, 645-772 and the hints of src/storage/store/engine.rs 1061-1222.

    The owner records, labels and owner-address rows are the tables of OnChain.v.  [n_other] are all other rows of the same
    database (values are not read).  [n_resolve] is [resolve_channel_owner_fid] (block_engine.rs:416-451; Migrate.v models it).
    Database failures are not modelled; a row that does not decode is. *)
From Verif Require Import Http Base Codec Kv Paging OnChain.
#[local] Open Scope N_scope.

(** storage/constants.rs:30, 192: OnChainEvent, ChannelRegisterByOwnerAddress; onchain_event_store.rs:179-193. *)
Definition OWNER_ROOT : bytes := [12; 57].
Definition owner_prefix (a : bytes) : bytes := OWNER_ROOT ++ a.
Definition owner_key (a ck : bytes) : bytes := owner_prefix a ++ ck.

Record node := Node { n_chain : ost; n_other : kv unit; n_resolve : bytes -> option N }.
(** The rows an iterator sees. *)
Definition all_rows (s : node) : kv unit :=
  gset_to_gmap tt (set_map (fun p : bytes * bytes => owner_key p.1 p.2) (t_addr (n_chain s)) : gset bytes) ∪ n_other s.

(** [EInvalid] is [invalid_argument], [ENotFound] [not_found], [EStore] any other store error. *)
Inductive cerr := EInvalid | ENotFound | EStore.

(** ** The index (onchain_event_store.rs:645-687) *)

(** The callback: [key[offset..]] panics on a key shorter than the prefix; [String::from_utf8] refuses other bytes. *)
Definition key_cb (offset : nat) (size : N) (s : list bytes * bytes) (k : bytes) (_ : unit) : res unit (list bytes * bytes * bool) :=
  if (length k <? offset)%nat then Panic
  else if utf8 (drop offset k) then
    let l := s.1 ++ [drop offset k] in
    if size <=? N.of_nat (length l) then Ok (l, k, true) else Ok (l, s.2, false)
  else Err tt.
Definition keys_by_owner (rows : kv unit) (a : bytes) (po : popts) : res cerr (list bytes * option bytes) :=
  if negb (length a =? 20)%nat then Err EInvalid
  else match page_of (for_each_paged rows (owner_prefix a) (increment_vec_u8 (owner_prefix a)) po
                (key_cb (length (owner_prefix a)) (psize po)) ([], [])) with
       | Ok p => Ok p
       | Err _ => Err EStore
       | Panic => Panic
       end.

(** onchain_event_store.rs:707-758 [get_channel_keys_for_owner_addresses]. *)
Fixpoint keys_loop (rows : kv unit) (page_token : option bytes) (size : N) (l : list bytes)
    (s : list (bytes * bytes) * option bytes) : res cerr (list (bytes * bytes) * option bytes) :=
  match l with
  | [] => Ok s
  | a :: r =>
      if size <=? N.of_nat (length s.1) then Ok s
      else match owner_token owner_prefix page_token a with
           | None => keys_loop rows page_token size r s
           | Some t =>
               match keys_by_owner rows a (POpts (Some (size - N.of_nat (length s.1))) t false) with
               | Ok (ks, nt) =>
                   keys_loop rows page_token size r
                     (s.1 ++ map (pair a) ks, match nt with Some k => Some k | None => s.2 end)
               | Err e => Err e
               | Panic => Panic
               end
           end
  end.
Definition keys_for_owners (rows : kv unit) (owners : list bytes) (page_token : option bytes) (size : N)
    : res cerr (list (bytes * bytes) * option bytes) :=
  match keys_loop rows page_token size owners ([], None) with
  | Ok (l, k) => Ok (l, if size <=? N.of_nat (length l) then k else None)
  | Err e => Err e
  | Panic => Panic
  end.

(** ** The reads *)

Record info := Info { i_key : bytes; i_fid : N; i_addr : bytes; i_expiry : N }.
#[global] Instance info_eq_dec : EqDecision info. Proof. solve_decision. Defined.

(** server.rs:342-377 [channel_infos_for_index_keys]: rows without a record or with another owner are skipped. *)
Definition info_of (s : node) (fid : N) (p : bytes * bytes) : option info :=
  match t_own (n_chain s) !! p.2 with
  | Some w => if decide (w_addr w = p.1) then Some (Info p.2 fid (w_addr w) (w_expiry w)) else None
  | None => None
  end.
Definition infos (s : node) (fid : N) (l : list (bytes * bytes)) : list info := omap (info_of s fid) l.

(** server.rs:2937-2961 [get_channel_owner]: (fid, owner address, expiry); fid 0 when nobody has verified the address. *)
Definition get_channel_owner (s : node) (ck : bytes) : res cerr (N * bytes * N) :=
  match t_own (n_chain s) !! ck with
  | Some w => Ok (default 0 (n_resolve s (w_addr w)), w_addr w, w_expiry w)
  | None => Err ENotFound
  end.

(** server.rs:2971-2982, 3019-3028: [None] is the page size 0. *)
Definition page_limit (sz : option N) : option N :=
  match sz with
  | Some 0 => None
  | Some n => Some (N.min n PAGE_SIZE_MAX)
  | None => Some PAGE_SIZE_MAX
  end.
(** rpc_extensions.rs:69-73. *)
Definition token_of (t : option bytes) : option bytes := match t with Some [] => None | _ => t end.

(** server.rs:2963-3008 [get_channels_by_address], 379-396. *)
Definition channels_by_address (s : node) (a : bytes) (sz : option N) (tok : option bytes) (rev : bool)
    : res cerr (list info * option bytes) :=
  match page_limit sz with
  | None => Ok ([], None)
  | Some n =>
      match keys_by_owner (all_rows s) a (POpts (Some n) (token_of tok) rev) with
      | Ok (ks, nt) =>
          Ok (map (fun c => Info (i_key c) (default 0 (n_resolve s a)) (i_addr c) (i_expiry c)) (infos s 0 (map (pair a) ks)), nt)
      | Err e => Err e
      | Panic => Panic
      end
  end.

(** A verification of the account on its own shard: the protocol number (0 is Ethereum) and the address. *)
Record vadd := VAdd { v_protocol : N; v_addr : bytes }.
#[global] Instance vadd_eq_dec : EqDecision vadd. Proof. solve_decision. Defined.
Definition addr_le (a b : bytes) : Prop := ble a b = true.
#[global] Instance addr_le_dec (a b : bytes) : Decision (addr_le a b).
Proof. unfold addr_le. apply _. Defined.
(** server.rs:3030-3080: the Ethereum addresses, each once, in order.  The loop over the pages is the listing of C12. *)
Definition eth_address (v : vadd) : option bytes :=
  if (v_protocol v =? 0) && (length (v_addr v) =? 20)%nat then Some (v_addr v) else None.
Definition owner_addresses (vs : list vadd) : list bytes := merge_sort addr_le (remove_dups (omap eth_address vs)).
(** server.rs:3089-3099. *)
Definition winning (s : node) (fid : N) (l : list bytes) : list bytes :=
  filter (fun a => n_resolve s a = Some fid) l.
(** server.rs:3010-3115 [get_channels_by_fid]; [vs] are the verifications of the account stored on its own shard. *)
Definition channels_by_fid (s : node) (vs : list vadd) (fid : N) (sz : option N) (tok : option bytes)
    : res cerr (list info * option bytes) :=
  match page_limit sz with
  | None => Ok ([], None)
  | Some n =>
      match keys_for_owners (all_rows s) (winning s fid (owner_addresses vs)) tok n with
      | Ok (l, nt) => Ok (infos s fid l, nt)
      | Err e => Err e
      | Panic => Panic
      end
  end.

(** server.rs:214-218, 1096-1115 [require_registered_channel]: the gate of the member, pin, moderation and metadata reads. *)
Definition require_registered (s : node) (id : bytes) : res cerr bytes :=
  if negb (length id =? 32)%nat then Err EInvalid
  else match t_label (n_chain s) !! id with
       | Some ck => match t_own (n_chain s) !! ck with Some _ => Ok id | None => Err ENotFound end
       | None => Err ENotFound
       end.

(** ** Hints after a verification (engine.rs:1122-1213)
    The channels of the address on this shard, page by page, at most [max] hints; [saves] says for each attempt whether the
    event was written.  The result is the list of channel keys hinted.  [None] when [fuel] pages were not enough. *)
Fixpoint hint_page (max : N) (ks : list bytes) (saves : list bool) (hints : list bytes) : list bytes * list bool * bool :=
  match ks with
  | [] => (hints, saves, false)
  | k :: r =>
      if max <=? N.of_nat (length hints) then (hints, saves, true)
      else match saves with
           | false :: sv => hint_page max r sv hints
           | true :: sv => hint_page max r sv (hints ++ [k])
           | [] => hint_page max r [] (hints ++ [k])
           end
  end.
Fixpoint hint_scan (fuel : nat) (rows : kv unit) (a : bytes) (max : N) (tok : option bytes) (saves : list bool) (hints : list bytes)
    : option (list bytes) :=
  match fuel with
  | O => None
  | S n =>
      match keys_by_owner rows a (POpts None tok false) with
      | Ok (ks, nt) =>
          let '(hints, saves, full) := hint_page max ks saves hints in
          if full : bool then Some hints
          else match nt with Some t => hint_scan n rows a max (Some t) saves hints | None => Some hints end
      | _ => Some hints
      end
  end.
