(** Stateless message validation: src/core/validations/{mod,cast,link,reaction,message,verification,key}.rs, the envelope
    helpers of src/storage/store/account/message.rs, and the admission checks of engine.rs [validate_user_message].

    Bodies carry every field of the protobuf messages that validation or merging looks at. Enum fields are [i32] on the wire
    and may hold any integer. A rejection is [false]: which error is returned is not modelled. No check of this layer can
    panic. External functions (protobuf, hashes, signatures, base58, Unicode classes) are an environment. *)
From stdpp Require Import list.
From Verif Require Import Base Codec Version ChannelUri Regex.
#[local] Open Scope N_scope.

Definition len (s : bytes) : N := N.of_nat (length s).
Definition zmem (z : Z) (l : list Z) : bool := existsb (Z.eqb z) l.

(** ** Bodies (proto/definitions/message.proto, username_proof.proto) *)

Record cast_id := CastId { ci_fid : N; ci_hash : bytes }.
Inductive ref := RUrl (u : bytes) | RCast (c : cast_id).

Record cast_add := CastAdd {
  ca_embeds_deprecated : list bytes; ca_mentions : list N; ca_parent : option ref; ca_text : bytes;
  ca_positions : list N; ca_embeds : list (option ref); ca_type : Z }.

Record verif_add := VerifAdd {
  va_address : bytes; va_signature : bytes; va_block_hash : bytes; va_vtype : N; va_chain : N; va_protocol : Z }.

Record frame := Frame {
  fa_url : bytes; fa_button : N; fa_cast : option cast_id; fa_input : bytes; fa_state : bytes; fa_tx : bytes;
  fa_address : bytes }.

Record name_proof := NameProof {
  np_ts : N; np_name : bytes; np_owner : bytes; np_sig : bytes; np_fid : N; np_type : Z }.

Record key_add := KeyAdd {
  ka_key : bytes; ka_key_type : N; ka_custody_sig : bytes; ka_deadline : N; ka_nonce : N; ka_metadata : bytes;
  ka_metadata_type : N; ka_scopes : list Z; ka_ttl : N }.

Record key_remove := KeyRemove { kr_key : bytes; kr_sig : bytes; kr_sig_type : N; kr_deadline : N; kr_nonce : N }.

Inductive body :=
| VCastAdd (c : cast_add)
| VCastRemove (target : bytes)
| VReaction (ty : Z) (target : option ref)
| VVerifAdd (v : verif_add)
| VVerifRemove (address : bytes) (protocol : Z)
| VUserData (ty : Z) (value : bytes)
| VLink (ty : bytes) (display_ts : option N) (target : option N)
| VUsernameProof (p : name_proof)
| VFrame (f : frame)
| VLinkCompact (ty : bytes) (targets : list N)
| VLend (to_fid units : N) (unit_type : Z)
| VKeyAdd (k : key_add)
| VKeyRemove (k : key_remove)
| VChanUpdate (id : bytes) (casting membership : option Z)
| VChanMember (id : bytes) (fid : N) (action : Z)
| VChanPin (id cast_hash : bytes)
| VChanModerate (id cast_hash : bytes) (action : Z).

(** MessageData and Message. *)
Record data := Data { d_type : Z; d_fid : N; d_ts : N; d_network : Z; d_body : option body }.
Record message := Message {
  g_data : option data; g_hash : bytes; g_hash_scheme : Z; g_signature : bytes; g_signature_scheme : Z; g_signer : bytes;
  g_data_bytes : option bytes }.
Definition set_data (m : message) (d : option data) : message :=
  Message d (g_hash m) (g_hash_scheme m) (g_signature m) (g_signature_scheme m) (g_signer m) (g_data_bytes m).
Definition set_data_bytes (m : message) (b : option bytes) : message :=
  Message (g_data m) (g_hash m) (g_hash_scheme m) (g_signature m) (g_signature_scheme m) (g_signer m) b.

(** MessageType, by number. *)
Definition T_CAST_ADD : Z := 1. Definition T_CAST_REMOVE : Z := 2.
Definition T_VERIFICATION_ADD : Z := 7. Definition T_VERIFICATION_REMOVE : Z := 8.
Definition T_USERNAME_PROOF : Z := 12. Definition T_LINK_COMPACT : Z := 14. Definition T_LEND : Z := 15.
Definition T_KEY_ADD : Z := 16. Definition T_KEY_REMOVE : Z := 17.
Definition T_CHANNEL : list Z := [18; 19; 20; 21]%Z.

(** ** External functions *)
Record env := Env {
  e_decode : bytes -> option data;                 (* MessageData::decode *)
  e_encode : data -> bytes;                        (* encode_to_vec *)
  e_blake3 : bytes -> bytes;                       (* blake3_20 *)
  e_ed25519 : bytes -> bytes -> bytes -> bool;     (* key parses, signature parses, verify_strict(message) *)
  e_eoa : N -> bytes -> Z -> bytes -> bytes -> bool; (* fid, address, network, block hash, 65-byte signature: the address signed the claim *)
  e_sol : N -> bytes -> Z -> bytes -> bytes -> bool; (* the same for Solana *)
  e_keccak : bytes -> bytes;
  e_base58 : bytes -> option bytes;
  e_nd : bytes -> bool;                            (* a multi-byte character in Unicode class Nd, which \d matches *)
}.

(** ** mod.rs:29-58 *)
Definition valid_fid (f : N) : bool := negb (f =? 0).
Definition valid_cast_id (c : cast_id) : bool := valid_fid (ci_fid c) && (len (ci_hash c) =? 20).
Definition valid_url (u : bytes) : bool := negb (len u =? 0) && (len u <=? 256).
Definition valid_ref (r : ref) : bool := match r with RUrl u => valid_url u | RCast c => valid_cast_id c end.

(** ** cast.rs:9-111 [validate_cast_add_body], 120-135 *)

(** cast.rs:17-41, the text length by cast type. *)
Definition valid_text (ty : Z) (pro : bool) (n : N) : bool :=
  if (ty =? 0)%Z then n <=? 320
  else if (ty =? 1)%Z then (320 <? n) && (n <=? 1024)
  else if (ty =? 2)%Z then pro && (1024 <? n) && (n <=? 10000)
  else false.

Definition embed_limit (pro : bool) (v : version) : N := if pro || is_enabled v IncreaseEmbedLimitForAllUsers then 4 else 2.

(** cast.rs:89-103: the loop over mentions; [prev] is [prev_position], -1 before the first one. *)
Fixpoint mentions_ok (n : N) (first : bool) (prev : Z) (ms ps : list N) : bool :=
  match ms, ps with
  | [], _ => true
  | f :: ms', p :: ps' =>
      valid_fid f && (p <=? n) && (first || negb (Z.of_N p <? prev)%Z) && mentions_ok n false (Z.of_N p) ms' ps'
  | _ :: _, [] => false
  end.

Definition valid_embed (e : option ref) : bool := match e with Some r => valid_ref r | None => false end.

Definition validate_cast_add (c : cast_add) (allow_deprecated pro : bool) (v : version) : bool :=
  valid_text (ca_type c) pro (len (ca_text c)) &&
  (N.of_nat (length (ca_embeds c)) <=? embed_limit pro v) &&
  (if allow_deprecated then N.of_nat (length (ca_embeds_deprecated c)) <=? 2 else bool_decide (ca_embeds_deprecated c = [])) &&
  (N.of_nat (length (ca_mentions c)) <=? 10) &&
  (N.of_nat (length (ca_mentions c)) =? N.of_nat (length (ca_positions c))) &&
  (bool_decide (ca_embeds c = []) || bool_decide (ca_embeds_deprecated c = [])) &&
  negb (bool_decide (ca_text c = []) && bool_decide (ca_embeds c = []) && bool_decide (ca_embeds_deprecated c = []) &&
        bool_decide (ca_mentions c = [])) &&
  forallb valid_embed (ca_embeds c) &&
  forallb valid_url (ca_embeds_deprecated c) &&
  mentions_ok (len (ca_text c)) true (-1) (ca_mentions c) (ca_positions c) &&
  match ca_parent c with Some p => valid_ref p | None => true end.

(** cast.rs:113-118. *)
Definition validate_cast_remove (h : bytes) : bool := len h =? 20.

(** ** link.rs:5-45 *)
Definition valid_link_type (t : bytes) : bool := negb (len t =? 0) && (len t <=? 8).
Definition validate_link_compact (t : bytes) (targets : list N) : bool :=
  valid_link_type t && negb (bool_decide (targets = [])) && forallb valid_fid targets.
Definition validate_link (t : bytes) (target : option N) : bool :=
  valid_link_type t && match target with Some f => valid_fid f | None => false end.

(** ** reaction.rs:7-37 *)
Definition validate_reaction (t : Z) (target : option ref) : bool :=
  zmem t [0; 1; 2]%Z && match target with Some r => valid_ref r | None => false end.

(** ** message.rs:45-79 frame actions *)
Definition validate_frame (f : frame) : bool :=
  (fa_button f <=? 5) && negb (len (fa_url f) =? 0) && (len (fa_url f) <=? 1024) && (len (fa_input f) <=? 256) &&
  (len (fa_state f) <=? 4096) && (len (fa_tx f) <=? 256) && (len (fa_address f) <=? 64) &&
  match fa_cast f with Some c => valid_cast_id c | None => true end.

(** ** message.rs:81-96. [checked_sub] is [None] for timestamps in the past. *)
Definition validate_timestamp (ts block_ts : N) (v : version) : bool :=
  if is_enabled v FutureTimestampValidation then (if block_ts <=? ts then ts - block_ts <=? 600 else true) else true.

(** ** message.rs:276-354 channel bodies, lends *)
Definition valid_channel_id (id : bytes) : bool := len id =? 32.
Definition opt_in (o : option Z) (l : list Z) : bool := match o with Some z => zmem z l | None => true end.
Definition validate_chan_update (id : bytes) (casting membership : option Z) : bool :=
  valid_channel_id id && opt_in casting [0; 1; 2; 3]%Z && opt_in membership [0; 1; 2]%Z.
Definition validate_chan_member (id : bytes) (fid : N) (action : Z) : bool :=
  valid_channel_id id && negb (fid =? 0) && (fid <? 2 ^ 32) && zmem action [1; 2; 3; 4; 5; 6]%Z.
Definition validate_chan_pin (id h : bytes) : bool := valid_channel_id id && ((len h =? 0) || (len h =? 20)).
Definition validate_chan_moderate (id h : bytes) (action : Z) : bool :=
  valid_channel_id id && (len h =? 20) && zmem action [1; 2]%Z.
Definition validate_lend (units : N) (ty : Z) : bool := zmem ty [0; 1; 2]%Z && (units <=? 5000).
(** message.rs:225-229: the [u64] subtraction wraps, the result is cut to 32 bits. *)
Definition lend_fresh (ts block_ts : N) : bool := negb (ts <? decr_by block_ts 600 mod 2 ^ 32).

(** ** Names: message.rs:25-27, 401-524 *)
Definition lower_alnum (c : N) : bool := is_digit c || ((97 <=? c) && (c <=? 122)).
Definition alnum (c : N) : bool := lower_alnum c || ((65 <=? c) && (c <=? 90)).
Definition HYPHEN : N := 45.
Definition DOT : N := 46.

(** "^[a-z0-9][a-z0-9-]{0,15}$" *)
Definition FNAME_RE : re := RSeq (RChar lower_alnum) (rep (fun c => lower_alnum c || (c =? HYPHEN)) 0 15).
Definition ETH : bytes := [46; 101; 116; 104].
Definition BASE_ETH : bytes := [46; 98; 97; 115; 101; 46; 101; 116; 104].
Definition ends_with (suf s : bytes) : bool := bool_decide (drop (length s - length suf) s = suf).

Definition validate_fname (s : bytes) : bool := negb (len s =? 0) && (len s <=? 16) && matches FNAME_RE s.
Definition validate_ens_name (s : bytes) : bool :=
  ends_with ETH s &&
  match split_on DOT s with
  | [p; _] => negb (len p =? 0) && (len s <=? 20) && matches FNAME_RE p
  | _ => false
  end.
Definition validate_base_name (s : bytes) : bool :=
  ends_with BASE_ETH s &&
  match split_on DOT s with
  | [p; _; _] => negb (len p =? 0) && (len s <=? 25) && matches FNAME_RE p
  | _ => false
  end.

(** "^[a-z0-9_]{0,15}$" *)
Definition TWITTER_RE : re := rep (fun c => lower_alnum c || (c =? UNDERSCORE)) 0 15.
Definition validate_twitter (s : bytes) : bool := (len s <=? 15) && matches TWITTER_RE s.

(** The characters of a (valid) UTF-8 string: a byte and the continuation bytes behind it. *)
Definition continuation (c : N) : bool := (128 <=? c) && (c <? 192).
Fixpoint chars (s : bytes) : list bytes :=
  match s with
  | [] => []
  | c :: r =>
      match chars r with
      | (d :: p) :: ps => if continuation d then (c :: d :: p) :: ps else [c] :: (d :: p) :: ps
      | ps => [c] :: ps
      end
  end.

Section E.
  Context (E : env).

  (** "[a-zA-Z\d]" of one character; the class is Unicode-aware. *)
  Definition github_char (ch : bytes) : bool := match ch with [c] => alnum c | _ => e_nd E ch end.
  (** "(?:[a-zA-Z\d]|-(?!-)){0,n}$" *)
  Fixpoint github_rest (n : nat) (s : list bytes) : bool :=
    match s with
    | [] => true
    | ch :: r =>
        match n with
        | O => false
        | S m => (github_char ch || (bool_decide (ch = [HYPHEN]) && negb (bool_decide (head r = Some [HYPHEN])))) && github_rest m r
        end
    end.
  Definition validate_github (s : bytes) : bool :=
    (len s <=? 38) && match chars s with ch :: r => github_char ch && github_rest 38 r | [] => false end.

  (** message.rs:552-571 [validate_user_data_primary_address_ethereum]: [Address::from_hex], then the checksum. *)
  Definition validate_eth_primary (s : bytes) : bool :=
    bool_decide (s = []) || ((len s =? 42) && match parse_checksummed (e_keccak E) s with Some _ => true | None => false end).
  (** message.rs:573-586. *)
  Definition validate_sol_primary (s : bytes) : bool :=
    bool_decide (s = []) || match e_base58 E s with Some a => len a =? 32 | None => false end.
End E.

(** message.rs:588-634. *)
Definition hyphen_lower (c : N) : bool := lower_alnum c || (c =? HYPHEN).
Definition asset_char (c : N) : bool := alnum c || (c =? HYPHEN) || (c =? DOT) || (c =? 37).
(** "^[a-z0-9]+:[a-zA-Z0-9]+/[a-z0-9-]{3,8}:[-.%a-zA-Z0-9]{1,128}(/[a-zA-Z0-9]+)?$" *)
Definition CAIP19_RE : re :=
  RSeq (plus lower_alnum) (RSeq (lit COLON) (RSeq (plus alnum) (RSeq (lit SLASH) (RSeq (rep hyphen_lower 3 5)
  (RSeq (lit COLON) (RSeq (rep asset_char 1 127) (opt (RSeq (lit SLASH) (plus alnum))))))))).
(** [asset_part.find(':')] and the slice behind it: everything after the first colon. *)
Fixpoint after (c : N) (s : bytes) : option bytes :=
  match s with [] => None | x :: r => if x =? c then Some r else after c r end.
Definition validate_caip19 (s : bytes) : bool :=
  bool_decide (s = []) ||
  ((len s <=? 256) && matches CAIP19_RE s &&
   match split_on SLASH s with
   | [_; a] | [_; a; _] => match after COLON a with Some r => len r <=? 128 | None => true end
   | _ => false
   end).

(** message.rs:34-35, 526-550, 636-662: "^geo:(-?\d{1,2}\.\d{2}),(-?\d{1,3}\.\d{2})$", then both captures parsed as [f64],
    which rejects the non-ASCII digits that \d admits, and compared with an integer. A number with two decimals is at most an
    integer iff its nearest double is, so hundredths stand for the doubles. *)
Definition GEO : bytes := [103; 101; 111; 58].
Definition COMMA : N := 44.
Definition coord_re (extra : nat) : re :=
  RSeq (opt (lit HYPHEN)) (RSeq (rep is_digit 1 extra) (RSeq (lit DOT) (rep is_digit 2 0))).
Definition hundredths (s : bytes) : N := fold_left (fun a c => if is_digit c then a * 10 + (c - 48) else a) s 0.
Definition validate_location (s : bytes) : bool :=
  bool_decide (s = []) ||
  match strip_prefix GEO s with
  | Some r =>
      match split_on COMMA r with
      | [lat; lon] => matches (coord_re 1) lat && matches (coord_re 2) lon && (hundredths lat <=? 9000) && (hundredths lon <=? 18000)
      | _ => false
      end
  | None => false
  end.

(** message.rs:664-751 [validate_user_data_add_body]. *)
Definition validate_username_value (s : bytes) : bool :=
  bool_decide (s = []) ||
  (if ends_with BASE_ETH s then validate_base_name s else if ends_with ETH s then validate_ens_name s else validate_fname s).
Definition validate_user_data (E : env) (t : Z) (value : bytes) (pro : bool) (v : version) : bool :=
  match t with
  | 1%Z | 3%Z | 5%Z => len value <=? 256
  | 10%Z => pro && (len value <=? 256)
  | 2%Z => len value <=? 32
  | 14%Z => is_enabled v LiveAt && (len value <=? 256)
  | 6%Z => validate_username_value value
  | 7%Z => validate_location value
  | 8%Z => validate_twitter value
  | 9%Z => validate_github E value
  | 11%Z => is_enabled v PrimaryAddresses && validate_eth_primary E value
  | 12%Z => is_enabled v PrimaryAddresses && validate_sol_primary E value
  | 13%Z => is_enabled v UserProfileToken && validate_caip19 value
  | _ => false
  end.

(** ** key.rs:10-67, 366-443 *)
Definition ADMISSIBLE_SCOPES : list Z := [1; 2; 3; 4; 5; 6; 14; 7; 8; 11; 12; 13; 15]%Z.
Definition MAX_KEY_TTL_SECONDS : N := 7776000.
Definition validate_key_add (k : key_add) : bool :=
  (len (ka_key k) =? 32) && (ka_key_type k =? 1) && negb (ka_deadline k =? 0) &&
  negb ((ka_ttl k =? 0) || (MAX_KEY_TTL_SECONDS <? ka_ttl k)) && (ka_metadata_type k =? 1) && negb (len (ka_metadata k) =? 0) &&
  negb (bool_decide (ka_scopes k = [])) && (N.of_nat (length (ka_scopes k)) <=? 16) &&
  forallb (fun z => zmem z ADMISSIBLE_SCOPES) (ka_scopes k).
Definition validate_key_remove (k : key_remove) : bool :=
  (len (kr_key k) =? 32) && ((kr_sig_type k =? 1) || (kr_sig_type k =? 2)) && negb (kr_deadline k =? 0).

(** ** verification.rs:9, 172-218, 383-415, 427-556 *)
Definition CLAIM_CHAIN_IDS : list N := [0; 1; 5; 10; 420].
(** 383-415. The chain id is cut to 16 bits; contract signatures are not checked. *)
Definition validate_eth_claim (E : env) (v : verif_add) (fid : N) (net : Z) : bool :=
  (len (va_signature v) <=? 2048) && existsb (N.eqb (va_chain v mod 2 ^ 16)) CLAIM_CHAIN_IDS &&
  match va_vtype v with
  | 0 => (len (va_signature v) =? 65) && e_eoa E fid (va_address v) net (va_block_hash v) (va_signature v)
  | 1 => true
  | _ => false
  end.
Definition validate_sol_claim (E : env) (v : verif_add) (fid : N) (net : Z) : bool :=
  (len (va_signature v) =? 64) && e_sol E fid (va_address v) net (va_block_hash v) (va_signature v).
Definition validate_verif_add (E : env) (v : verif_add) (fid : N) (net : Z) : bool :=
  if (va_protocol v =? 0)%Z then (len (va_address v) =? 20) && (len (va_block_hash v) =? 32) && validate_eth_claim E v fid net
  else if (va_protocol v =? 1)%Z then (len (va_address v) =? 32) && (len (va_block_hash v) =? 32) && validate_sol_claim E v fid net
  else false.
Definition validate_verif_remove (address : bytes) (protocol : Z) : bool :=
  if (protocol =? 0)%Z then len address =? 20 else if (protocol =? 1)%Z then len address =? 32 else false.

(** ** message.rs:174-196 username proofs. [from_utf8] is left out: a name that is not UTF-8 holds a byte above 127, and both
    name checks reject such bytes. *)
Definition validate_name_proof (p : name_proof) (v : version) : bool :=
  if (np_type p =? 2)%Z then (if is_enabled v EnsValidation then validate_ens_name (np_name p) else true)
  else if (np_type p =? 3)%Z then is_enabled v Basenames && validate_base_name (np_name p)
  else false.

(** ** message.rs:24, 170-267: the checks by body *)
Definition EMBEDS_V1_CUTOFF : N := 73612800.
Definition validate_body (E : env) (d : data) (pro : bool) (block_ts : N) (v : version) : bool :=
  match d_body d with
  | None => true
  | Some (VUserData t s) => validate_user_data E t s pro v
  | Some (VUsernameProof p) => validate_name_proof p v
  | Some (VVerifAdd b) => validate_verif_add E b (d_fid d) (d_network d)
  | Some (VLinkCompact t ts) => validate_link_compact t ts
  | Some (VCastAdd c) => validate_cast_add c (d_ts d <? EMBEDS_V1_CUTOFF) pro v
  | Some (VCastRemove h) => validate_cast_remove h
  | Some (VReaction t r) => validate_reaction t r
  | Some (VLink t _ f) => validate_link t f
  | Some (VVerifRemove a p) => validate_verif_remove a p
  | Some (VFrame f) => validate_frame f
  | Some (VLend _ u t) => lend_fresh (d_ts d) block_ts && validate_lend u t
  | Some (VKeyAdd k) => validate_key_add k
  | Some (VKeyRemove k) => validate_key_remove k
  | Some (VChanUpdate i c m) => is_enabled v ChannelMessages && validate_chan_update i c m
  | Some (VChanMember i f a) => is_enabled v ChannelMessages && validate_chan_member i f a
  | Some (VChanPin i h) => is_enabled v ChannelMessages && validate_chan_pin i h
  | Some (VChanModerate i h a) => is_enabled v ChannelMessages && validate_chan_moderate i h a
  end.

(** message.rs:128-148. *)
Definition max_size (t : Z) (pro : bool) (v : version) : N :=
  if is_enabled v MessageLengthCheckFix then
    if (t =? T_LINK_COMPACT)%Z then 65536
    else if pro && (t =? T_CAST_ADD)%Z then 16384
    else if (t =? T_USERNAME_PROOF)%Z && is_enabled v IncreaseUsernameProofSizeLimit then 16384
    else 2048
  else 2048.

(** message.rs:150-161. *)
Definition network_ok (cur : network) (z : Z) : bool :=
  zmem z [1; 2; 3]%Z && match cur with Mainnet => (z =? 1)%Z | _ => true end.

(** message.rs:105-126: the bytes that are hashed and the data that is validated. *)
Definition signed_content (E : env) (m : message) : option (bytes * data) :=
  match g_data_bytes m with
  | Some b => if len b =? 0 then None else match e_decode E b with Some d => Some (b, d) | None => None end
  | None => match g_data m with Some d => Some (e_encode E d, d) | None => None end
  end.

(** message.rs:381-399. *)
Definition hash_ok (E : env) (m : message) (b : bytes) : bool :=
  (g_hash_scheme m =? 1)%Z && negb (len b =? 0) && bool_decide (e_blake3 E b = g_hash m).
(** message.rs:356-379. *)
Definition signature_ok (E : env) (m : message) : bool :=
  (g_signature_scheme m =? 1)%Z && negb (len (g_signature m) =? 0) && e_ed25519 E (g_signer m) (g_hash m) (g_signature m).

(** message.rs:98-270 [validate_message]. *)
Definition validate_message (E : env) (m : message) (cur : network) (pro : bool) (block_ts : N) (v : version) : bool :=
  match signed_content E m with
  | None => false
  | Some (b, d) =>
      (len b <=? max_size (d_type d) pro v) && network_ok cur (d_network d) && hash_ok E m b && signature_ok E m &&
      validate_timestamp (d_ts d) block_ts v && validate_body E d pro block_ts v
  end.

(** ** account/message.rs:321-352 *)
Definition nonempty (o : option bytes) : bool := match o with Some b => negb (len b =? 0) | None => false end.
(** [message_encode]: what is written (the protobuf encoding of the envelope itself is injective and left out). *)
Definition message_encode (m : message) : message := if nonempty (g_data_bytes m) then set_data m None else m.
(** [message_bytes_decode]: at the gossip and RPC entries (gossip.rs:1236, server.rs:1477, 1564) and on every read. *)
Definition message_bytes_decode (E : env) (m : message) : message :=
  match g_data_bytes m with
  | Some b => if len b =? 0 then m else set_data m (e_decode E b)
  | None => m
  end.
Definition read_back (E : env) (m : message) : message := message_bytes_decode E (message_encode m).

(** ** engine.rs:2035-2215 [validate_user_message] of a data shard. What it reads from the stores is a view: the subscription
    tier, the custody record, the active key with the types it admits, the ownership checks of usernames and primary
    addresses, and the sliding expiry of the key. *)
Record view := View {
  w_pro : N -> bool;
  w_custody : N -> bool;
  w_key : N -> bytes -> option (Z -> bool);
  w_owned : N -> option body -> bool;
  w_ttl : N -> bytes -> N -> bool }.

(** [MessageType::try_from(..).unwrap_or(None)]. *)
Definition known_type (t : Z) : Z :=
  if zmem t [1; 2; 3; 4; 5; 6; 7; 8; 11; 12; 13; 14; 15; 16; 17; 18; 19; 20; 21]%Z then t else 0%Z.
Definition is_key_type (t : Z) : bool := zmem t [T_KEY_ADD; T_KEY_REMOVE].

Definition admit (E : env) (W : view) (cur : network) (block_ts : N) (v : version) (m : message) : bool :=
  match g_data m with
  | None => false
  | Some d =>
      let t := known_type (d_type d) in
      validate_message E m cur (w_pro W (d_fid d)) block_ts v &&
      w_custody W (d_fid d) &&
      (if is_key_type t then is_enabled v GaslessSigners
       else match w_key W (d_fid d) (g_signer m) with Some admits => admits t | None => false end) &&
      negb (t =? T_LEND)%Z &&
      negb (is_enabled v VerificationsOnShardZero && zmem t [T_VERIFICATION_ADD; T_VERIFICATION_REMOVE]) &&
      negb (zmem t T_CHANNEL) &&
      w_owned W (d_fid d) (d_body d) &&
      (is_key_type t || w_ttl W (d_fid d) (g_signer m) (d_ts d))
  end.

(** engine.rs:1787-1906 [merge_message]: keys, indexes, events and limits of the merged row come from [msg.data]. *)
Definition merged (m : message) : option data := g_data m.
