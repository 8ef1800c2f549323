(** On-chain events: src/storage/store/account/onchain_event_store.rs.

    The view a merge writes to is [s]; [db] is the committed state, which the AdminReset lookup reads directly. Account ids
    in keys are 4 bytes ([make_fid_key]). The event type of the primary key is the one of the body (the validators' RPC
    produces both together). Database and decode errors are not modelled. *)
From Verif Require Export Base.
From stdpp Require Export gmap.
#[local] Open Scope N_scope.

(** onchain_event.proto:75-99, 34-39. *)
Inductive sig_kind := SAdd | SRemove | SReset | SNone.
#[global] Instance sig_kind_eq_dec : EqDecision sig_kind. Proof. solve_decision. Defined.
Inductive id_kind := IRegister | ITransfer | IRecovery | INone.
#[global] Instance id_kind_eq_dec : EqDecision id_kind. Proof. solve_decision. Defined.
Inductive ch_kind := CRegister | CRenew | CTransfer | CNone.
#[global] Instance ch_kind_eq_dec : EqDecision ch_kind. Proof. solve_decision. Defined.

Inductive obody :=
  | BSigner (k : sig_kind) (key : bytes) (key_type : N)
  | BIdReg (k : id_kind) (to : bytes)
  | BTier (tier days : N)
  | BChan (k : ch_kind) (label ckey owner : bytes) (expiry : N)
  | BRent (units : N)
  | BMigrated.
#[global] Instance obody_eq_dec : EqDecision obody. Proof. solve_decision. Defined.

Record oev := OEv { o_fid : N; o_block : N; o_tx : N; o_log : N; o_ts : N; o_body : obody }.
#[global] Instance oev_eq_dec : EqDecision oev. Proof. solve_decision. Defined.
(** onchain_event.proto:4-11. *)
Definition o_type (e : oev) : N :=
  match o_body e with BSigner _ _ _ => 1 | BMigrated => 2 | BIdReg _ _ => 3 | BRent _ => 4 | BTier _ _ => 5 | BChan _ _ _ _ _ => 6 end.

(** onchain_event_store.rs:107-115: (type, account, block, log index), each big-endian, so compared in this order. *)
Notation okey := (N * N * N * N)%type.
Definition fidk (f : N) : N := f mod 2 ^ 32.
Definition prim (e : oev) : okey := (o_type e, fidk (o_fid e), o_block e, o_log e).

(** onchain_event_store.rs:78-92. The copy of the channel key inside is not read. *)
Record chown := ChOwn { w_addr : bytes; w_expiry : N; w_block : N; w_tx : N; w_log : N }.
#[global] Instance chown_eq_dec : EqDecision chown. Proof. solve_decision. Defined.

Record ost := OSt {
  t_ev : gmap okey oev;            (* primary rows *)
  t_id : gmap N okey;              (* IdRegisterByFid *)
  t_sig : gmap (N * bytes) okey;   (* SignerByFid *)
  t_own : gmap bytes chown;        (* ChannelRegisterByChannelKey *)
  t_label : gmap bytes bytes;      (* ChannelRegisterChannelKeyByLabel *)
  t_addr : gset (bytes * bytes);   (* ChannelRegisterByOwnerAddress *)
}.
Definition o_init : ost := OSt ∅ ∅ ∅ ∅ ∅ ∅.

(** onchain_event_store.rs:779-800 [get_event_by_secondary_key]. *)
Definition deref (s : ost) (k : option okey) : option oev := k ≫= fun k => t_ev s !! k.

(** ** Custody (onchain_event_store.rs:477-500) *)
Definition index_id (s : ost) (e : oev) (k : id_kind) : gmap N okey :=
  if decide (k = IRecovery) then t_id s
  else match deref s (t_id s !! fidk (o_fid e)) with
       | Some x => if o_block e <? o_block x then t_id s else <[fidk (o_fid e) := prim e]> (t_id s)
       | None => <[fidk (o_fid e) := prim e]> (t_id s)
       end.

(** ** Signers (onchain_event_store.rs:502-580) *)

(** Is [e] an Add event of [key]? *)
Definition is_add_of (key : bytes) (e : oev) : bool :=
  match o_body e with BSigner SAdd k _ => bool_decide (k = key) | _ => false end.
Definition pos_le (a b : oev) : bool := (o_block a <? o_block b) || ((o_block a =? o_block b) && (o_log a <=? o_log b)).
(** 527-572: the first Add of the key among the committed signer events of the account. *)
Definition first_add (db : ost) (f : N) (key : bytes) : option oev :=
  foldr (fun (x : okey * oev) (acc : option oev) =>
    if (x.1.1.1.1 =? 1) && (x.1.1.1.2 =? fidk f) && is_add_of key x.2 then
      match acc with None => Some x.2 | Some y => if pos_le x.2 y then Some x.2 else Some y end
    else acc) None (map_to_list (t_ev db)).
(** 514-523: the check that a removal wins reads the body of the incoming event twice. *)
Definition same_block_keeps (incoming incoming' : sig_kind) : bool := bool_decide (incoming = SRemove) && bool_decide (incoming' = SAdd).
Definition index_signer (db s : ost) (e : oev) (k : sig_kind) (key : bytes) : gmap (N * bytes) okey :=
  let i := (fidk (o_fid e), key) in
  let keep := match deref s (t_sig s !! i) with
              | Some x => (o_block e <? o_block x) || same_block_keeps k k
              | None => false
              end in
  if keep then t_sig s
  else if decide (k = SReset) then match first_add db (o_fid e) key with Some a => <[i := prim a]> (t_sig s) | None => t_sig s end
  else <[i := prim e]> (t_sig s).

(** ** Channels (onchain_event_store.rs:185-450) *)
Section Keccak.
  Context (keccak : bytes -> bytes).

  (** 189-192: lexicographic (block, transaction, log). *)
  Definition older (e : oev) (w : chown) : bool :=
    (o_block e <? w_block w) ||
    ((o_block e =? w_block w) && ((o_tx e <? w_tx w) || ((o_tx e =? w_tx w) && (o_log e <? w_log w)))).
  (** 227-244. *)
  Definition move_addr (a : gset (bytes * bytes)) (ckey : bytes) (old : option bytes) (new : bytes) : gset (bytes * bytes) :=
    let a := match old with Some o => if decide (o = new) then a else a ∖ {[ (o, ckey) ]} | None => a end in
    a ∪ {[ (new, ckey) ]}.
  (** 308-455: new state and the ownership change reported. *)
  Definition index_chan (s : ost) (e : oev) (k : ch_kind) (label ckey owner : bytes) (expiry : N) : ost * option (bytes * bytes * ch_kind) :=
    if negb (length label =? 32)%nat then (s, None) else
    match k with
    | CRegister =>
        if negb ((length owner =? 20)%nat && bool_decide (keccak ckey = label)) then (s, None) else
        let old := t_own s !! ckey in
        match old with
        | Some w => if older e w then (s, None) else
            (OSt (t_ev s) (t_id s) (t_sig s) (<[ckey := ChOwn owner expiry (o_block e) (o_tx e) (o_log e)]> (t_own s))
               (<[label := ckey]> (t_label s)) (move_addr (t_addr s) ckey (Some (w_addr w)) owner), Some (ckey, owner, CRegister))
        | None =>
            (OSt (t_ev s) (t_id s) (t_sig s) (<[ckey := ChOwn owner expiry (o_block e) (o_tx e) (o_log e)]> (t_own s))
               (<[label := ckey]> (t_label s)) (move_addr (t_addr s) ckey None owner), Some (ckey, owner, CRegister))
        end
    | CRenew =>
        if negb (bool_decide (keccak ckey = label)) then (s, None) else
        match t_own s !! ckey with
        | Some w => if older e w then (s, None) else
            (OSt (t_ev s) (t_id s) (t_sig s) (<[ckey := ChOwn (w_addr w) expiry (o_block e) (o_tx e) (o_log e)]> (t_own s)) (t_label s) (t_addr s), None)
        | None => (s, None)
        end
    | CTransfer =>
        if negb (length owner =? 20)%nat then (s, None) else
        match t_label s !! label with
        | Some ck =>
            match t_own s !! ck with
            | Some w => if older e w then (s, None) else
                (OSt (t_ev s) (t_id s) (t_sig s) (<[ck := ChOwn owner (w_expiry w) (o_block e) (o_tx e) (o_log e)]> (t_own s))
                   (t_label s) (move_addr (t_addr s) ck (Some (w_addr w)) owner), Some (ck, owner, CTransfer))
            | None => (s, None)
            end
        | None => (s, None)
        end
    | CNone => (s, None)
    end.

  (** 117-132 and 582-618 [merge_onchain_event]: [None] for a duplicate. *)
  Definition omerge (db s : ost) (e : oev) : option ost :=
    match t_ev s !! prim e with
    | Some _ => None
    | None =>
        let s := OSt (<[prim e := e]> (t_ev s)) (t_id s) (t_sig s) (t_own s) (t_label s) (t_addr s) in
        Some match o_body e with
             | BIdReg k _ => OSt (t_ev s) (index_id s e k) (t_sig s) (t_own s) (t_label s) (t_addr s)
             | BSigner k key _ => OSt (t_ev s) (t_id s) (index_signer db s e k key) (t_own s) (t_label s) (t_addr s)
             | BChan k label ckey owner expiry => (index_chan s e k label ckey owner expiry).1
             | _ => s
             end
    end.
  (** A duplicate is reported and changes nothing. *)
  Definition ostep (db s : ost) (e : oev) : ost := default s (omerge db s e).
  (** A transaction: events merged into one batch on top of the committed [db], then committed. *)
  Definition obatch (db : ost) (es : list oev) : ost := foldl (ostep db) db es.
  Definition orun (s : ost) (bs : list (list oev)) : ost := foldl obatch s bs.
End Keccak.

(** ** Reads *)

(** onchain_event_store.rs:1196-1201. *)
Definition custody_event (s : ost) (f : N) : option oev := deref s (t_id s !! fidk f).
(** onchain_event_store.rs:1238-1262. *)
Definition active_signer (s : ost) (f : N) (key : bytes) : option oev :=
  match deref s (t_sig s !! (fidk f, key)) with
  | Some e => match o_body e with BSigner SAdd _ 1 => Some e | _ => None end
  | None => None
  end.

(** onchain_event_store.rs:1263-1310 [tier_subscription_exires_at]: purchases in key order (block, log). *)
Fixpoint tier_fold (tier : N) (as_of : option N) (acc : N) (l : list oev) : N :=
  match l with
  | [] => acc
  | e :: r =>
      match o_body e with
      | BTier t days =>
          if t =? tier then
            if match as_of with Some a => a <? o_ts e | None => false end then acc
            else tier_fold tier as_of (N.max (o_ts e) acc + days * 86400) r
          else tier_fold tier as_of acc r
      | _ => tier_fold tier as_of acc r
      end
  end.
Definition tier_expires (tier : N) (as_of : option N) (l : list oev) : N := tier_fold tier as_of 0 l.
(** onchain_event_store.rs:1312-1320. *)
Definition tier_active (tier now : N) (l : list oev) : bool := now <=? tier_expires tier (Some now) l.
