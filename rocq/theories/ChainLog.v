(** From chain logs to on-chain events: src/connectors/onchain_events/mod.rs (referred to by line only).

    A log's payload is its ABI-decoded form: the constructor stands for topic 0, the hash of the event's signature, which is
    all the dispatch looks at; two contracts with an event of the same signature share the constructor. ABI decoding itself
    (alloy) is the flag [l_decodes]; hash collisions between signatures are not modelled. Statistics and log lines are left
    out, among them a gauge whose subtraction underflows when the chain's clock is ahead (801-805). *)
From stdpp Require Import list.
From Verif Require Import Base OnChain Http.
#[local] Open Scope N_scope.

Inductive chain := Optimism | Basechain.
#[global] Instance chain_eq_dec : EqDecision chain. Proof. solve_decision. Defined.
(** 126-129, 695-700. *)
Definition chain_id (c : chain) : N := match c with Optimism => 10 | Basechain => 8453 end.
(** 395-407. *)
Inductive contract := CTier | CStorage | CKey | CId | CController | CToken.
#[global] Instance contract_eq_dec : EqDecision contract. Proof. solve_decision. Defined.

(** The events named in the ABI files next to mod.rs; [OtherEvent] is any other topic 0 or none. *)
Inductive evm :=
| Rent (payer : bytes) (fid units : N)
| Register (to : bytes) (id : N) (recovery : bytes)
| Transfer (from to : bytes) (id : N)
| ChangeRecovery (id : N) (recovery : bytes)
| Add (fid keytype : N) (key : bytes) (mtype : N) (metadata : bytes)
| Remove (fid : N) (key : bytes)
| AdminReset (fid : N) (key : bytes)
| Migrated (at_ : N)
| Purchased (fid tier days : N) (payer : bytes)
| NameRegistered (name label owner : bytes) (expires : N)
| NameRenewed (name label : bytes) (expires : N)
| OtherEvent.

Record log := Log {
  l_bhash : option bytes; l_index : option N; l_block : option N; l_tx : option N; l_txhash : option bytes;
  l_ev : evm; l_decodes : bool }.

(** onchain_event.proto:13-110. The type is the one of the body (every arm gives both together). *)
Inductive cbody :=
| KRent (payer : bytes) (units expiry : N)
| KId (k : id_kind) (to from recovery : bytes)
| KSigner (k : sig_kind) (key : bytes) (ktype : N) (metadata : bytes) (mtype : N)
| KMigrated (at_ : N)
| KTier (tier days : N) (payer : bytes)
| KChan (k : ch_kind) (ckey : bytes) (expiry : N) (owner label : bytes).
Record cevent := CEvent {
  e_fid : N; e_block : N; e_bhash : bytes; e_ts : N; e_log : N; e_tx : N; e_chain : N; e_body : cbody; e_txhash : bytes }.

(** What the store reads of an event (OnChain.v). *)
Definition as_oev (e : cevent) : oev :=
  OEv (e_fid e) (e_block e) (e_tx e) (e_log e) (e_ts e)
    match e_body e with
    | KRent _ u _ => BRent u
    | KId k to _ _ => BIdReg k to
    | KSigner k key t _ _ => BSigner k key t
    | KMigrated _ => BMigrated
    | KTier t d _ => BTier t d
    | KChan k ck ex ow lb => BChan k lb ck ow ex
    end.

(** [try_into]: an error when the number does not fit. [as u32]: the low bits. *)
Definition fit (bits n : N) : option N := if n <? 2 ^ bits then Some n else None.
Definition as_u32 (n : N) : N := n mod 2 ^ 32.
Definition YEAR : N := 31536000.

(** 846-877 [get_block_timestamp]: a failed request is repeated, the sixth failure is final; a block that is not there at once. *)
Inductive tanswer := TFail | TGone | TAt (ts : N).
Fixpoint timestamp (count : N) (ans : list tanswer) : option N :=
  match ans with
  | [] => None
  | TAt t :: _ => Some t
  | TGone :: _ => None
  | TFail :: r => if 5 <? count + 1 then None else timestamp (count + 1) r
  end.

(** What an arm of the match gives: an error, nothing, an account and a body. *)
Inductive arm := AError | ANothing | AEvent (fid : N) (b : cbody).
Definition aevent (fid : option N) (b : option cbody) : arm :=
  match fid, b with Some f, Some b => AEvent f b | _, _ => AError end.

(** 916-1194. [decodes]: [log_decode] succeeds; the two events with a name use [decode_log_validate], which also wants UTF-8, and
    go on when it fails. *)
Definition arm_of (c : chain) (ts : N) (decodes : bool) (e : evm) : arm :=
  match e with
  | Rent payer fid units =>
      if decodes then aevent (fit 64 fid) (u ← fit 32 units; Some (KRent payer u (as_u32 (ts + YEAR)))) else AError
  | Register to id recovery => if decodes then aevent (fit 64 id) (Some (KId IRegister to [] recovery)) else AError
  | Transfer from to id =>
      if decodes then
        match c with
        | Basechain => AEvent 0 (KChan CTransfer [] 0 to (be 32 id))
        | Optimism => aevent (fit 64 id) (Some (KId ITransfer to from []))
        end
      else AError
  | ChangeRecovery id recovery => if decodes then aevent (fit 64 id) (Some (KId IRecovery [] [] recovery)) else AError
  | Add fid kt key mt md => if decodes then aevent (fit 64 fid) (Some (KSigner SAdd key kt md mt)) else AError
  | Remove fid key => if decodes then aevent (fit 64 fid) (Some (KSigner SRemove key 0 [] 0)) else AError
  | AdminReset fid key => if decodes then aevent (fit 64 fid) (Some (KSigner SReset key 0 [] 0)) else AError
  | Migrated t => if decodes then aevent (Some 0) (KMigrated <$> fit 32 t) else AError
  | Purchased fid tier days payer =>
      if decodes then aevent (fit 64 fid) (t ← fit 31 tier; d ← fit 64 days; Some (KTier t d payer)) else AError
  | NameRegistered name label owner expires =>
      if decodes && utf8 name then aevent (Some 0) (x ← fit 64 expires; Some (KChan CRegister name x owner label)) else ANothing
  | NameRenewed name label expires =>
      if decodes && utf8 name then aevent (Some 0) (x ← fit 64 expires; Some (KChan CRenew name x [] label)) else ANothing
  | OtherEvent => ANothing
  end.

(** 879-1199 [process_log] with 717-740, 806-823 of [add_onchain_event]: what the mempool is given. *)
Inductive res := Sent (e : cevent) | Ignored | Failed.
Definition process (c : chain) (ans : list tanswer) (l : log) : res :=
  match l_bhash l, l_index l, l_block l, l_tx l, l_txhash l with
  | Some bh, Some li, Some bn, Some ti, Some th =>
      match timestamp 0 ans with
      | None => Failed
      | Some ts =>
          match arm_of c ts (l_decodes l) (l_ev l) with
          | AError => Failed
          | ANothing => Ignored
          | AEvent fid b => Sent (CEvent fid (as_u32 bn) bh ts (as_u32 li) (as_u32 ti) (chain_id c) b th)
          end
      end
  | _, _, _, _, _ => Failed
  end.

(** ** Retrying an account (455-505 [retry_filters]) *)
(** The indexed arguments, topics 1 to 3; [khash]: the hash of a key, which is what an indexed [bytes] holds. *)
Section Topics.
  Context (khash : bytes -> N).
  Definition topics (e : evm) : list N :=
    match e with
    | Rent payer fid _ => [be_dec payer; fid]
    | Register to id _ => [be_dec to; id]
    | Transfer from to id => [be_dec from; be_dec to; id]
    | ChangeRecovery id r => [id; be_dec r]
    | Add fid kt key _ _ => [fid; kt; khash key]
    | Remove fid key | AdminReset fid key => [fid; khash key]
    | Migrated t => [t]
    | Purchased fid tier _ payer => [fid; tier; be_dec payer]
    | NameRegistered _ label owner _ => [be_dec label; be_dec owner]
    | NameRenewed _ label _ => [be_dec label]
    | OtherEvent => []
    end.
  Inductive signature := GRent | GRegister | GTransfer | GChangeRecovery | GAdd | GRemove | GReset | GMigrated | GPurchased | GNamed | GRenewed | GOther.
  #[global] Instance signature_eq_dec : EqDecision signature. Proof. solve_decision. Defined.
  Definition signature_of (e : evm) : signature :=
    match e with
    | Rent _ _ _ => GRent | Register _ _ _ => GRegister | Transfer _ _ _ => GTransfer | ChangeRecovery _ _ => GChangeRecovery
    | Add _ _ _ _ _ => GAdd | Remove _ _ => GRemove | AdminReset _ _ => GReset | Migrated _ => GMigrated | Purchased _ _ _ _ => GPurchased
    | NameRegistered _ _ _ _ => GNamed | NameRenewed _ _ _ => GRenewed | OtherEvent => GOther
    end.
  (** A filter: signatures wanted, and the topic (counted from 0 here) that must be the account. *)
  Record filt := Filt { f_sigs : list signature; f_topic : nat; f_fid : N }.
  Definition retry_filters (k : contract) (fid : N) : list filt :=
    match k with
    | CTier => [Filt [GPurchased] 0 fid]
    | CStorage => [Filt [GRent] 1 fid]
    | CKey => [Filt [GAdd; GRemove] 0 fid]
    | CId => [Filt [GRegister] 1 fid; Filt [GTransfer] 2 fid]
    | CController | CToken => []
    end.
  Definition matches (e : evm) (f : filt) : bool :=
    bool_decide (signature_of e ∈ f_sigs f) && bool_decide (topics e !! f_topic f = Some (f_fid f)).
  Definition retried (k : contract) (fid : N) (e : evm) : bool := existsb (matches e) (retry_filters k fid).
End Topics.

(** ** What is watched (612-686, 1625-1657) *)
Record wconfig := WConfig { wc_chain : chain; wc_tier : option bytes; wc_controller : option bytes; wc_active : bool }.
(** 612-645: the controller's root node, its owner in the ENS registry, which must not be the zero address. *)
Definition resolve_token (root : option bytes) (owner : bytes -> option bytes) : option bytes :=
  r ← root; a ← owner r; if forallb (N.eqb 0) a then None else Some a.
Section Addresses.
  Context (storage_addr key_addr id_addr tier_addr : bytes).
  (** 651-686. *)
  Definition contracts (w : wconfig) (token : option bytes) : list (bytes * contract) :=
    match wc_chain w with
    | Optimism => [(storage_addr, CStorage); (key_addr, CKey); (id_addr, CId)]
    | Basechain =>
        (default tier_addr (wc_tier w), CTier) ::
        (match wc_controller w with Some a => [(a, CController)] | None => [] end) ++
        (match token with Some a => [(a, CToken)] | None => [] end)
    end.
  (** The start of [run]: [None] when it ends with an error. *)
  Definition watched (w : wconfig) (root : option bytes) (owner : bytes -> option bytes) : option (list (bytes * contract)) :=
    match wc_controller w with
    | None => Some (contracts w None)
    | Some _ =>
        match resolve_token root owner with
        | Some t => Some (contracts w (Some t))
        | None => if wc_active w then None else Some (contracts w None)
        end
    end.
End Addresses.
