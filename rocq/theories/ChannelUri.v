(** Channel asset identifiers (CAIP-19): src/core/channel_uri.rs.

    Strings are lists of bytes. Library code (the standard library, alloy-primitives, ruint) is modelled from its
    documentation: [str::split], [strip_prefix], [u64::from_str], [to_string], [Address::parse_checksummed],
    [Address::to_checksum], [U256::from_str_radix], [to_be_bytes]. keccak256 is a parameter. *)
From Verif Require Import Base Codec Version.
From stdpp Require Import list.
#[local] Open Scope N_scope.

(** channel_uri.rs:63-80 [ChannelUriError]. *)
Inductive uri_err := UriTooLong | MalformedAssetId | UnsupportedChainNamespace | UnsupportedAssetNamespace
| InvalidChainReference | InvalidContractAddress | InvalidTokenId.

(** channel_uri.rs:48-61: "eip155", "erc721", the limits. *)
Definition EIP155 : bytes := [101; 105; 112; 49; 53; 53].
Definition ERC721 : bytes := [101; 114; 99; 55; 50; 49].
Definition MAX_URI_LENGTH : N := 256.
Definition MAX_TOKEN_ID_DIGITS : N := 78.
Definition SLASH : N := 47.
Definition COLON : N := 58.
Definition PLUS : N := 43.
Definition UNDERSCORE : N := 95.

(** 83-88 [ChannelRegistrar], 156-163 [ChannelAssetId]. *)
Record registrar := Registrar { rg_chain : N; rg_address : bytes }.
Record asset := Asset { as_chain : N; as_contract : bytes; as_channel : bytes }.

(** [str::split(c)]: always at least one piece. *)
Fixpoint split_on (c : N) (s : bytes) : list bytes :=
  match s with
  | [] => [[]]
  | x :: r => if x =? c then [] :: split_on c r
              else match split_on c r with p :: ps => (x :: p) :: ps | [] => [[x]] end
  end.

(** [str::strip_prefix]. *)
Fixpoint strip_prefix (p s : bytes) : option bytes :=
  match p, s with
  | [], _ => Some s
  | a :: p', b :: s' => if a =? b then strip_prefix p' s' else None
  | _, [] => None
  end.

Definition is_digit (c : N) : bool := (48 <=? c) && (c <=? 57).

(** Decimal digits, most significant first, from the value so far; [None] on a digit out of range or on overflow. *)
Fixpoint decimal (bound acc : N) (s : bytes) : option N :=
  match s with
  | [] => Some acc
  | c :: r => if is_digit c then let v := acc * 10 + (c - 48) in if v <? bound then decimal bound v r else None else None
  end.

(** [u64::from_str]: an optional plus sign, then at least one digit. *)
Definition parse_u64 (s : bytes) : option N :=
  match s with
  | [] => None
  | c :: r => if c =? PLUS then match r with [] => None | _ => decimal (2 ^ 64) 0 r end else decimal (2 ^ 64) 0 s
  end.

(** [U256::from_str_radix(_, 10)] of ruint: underscores are skipped, letters are digits above nine, so errors; the empty
    string is zero. *)
Definition parse_u256 (s : bytes) : option N := decimal (2 ^ 256) 0 (List.filter (fun c => negb (c =? UNDERSCORE)) s).

(** [to_string] of unsigned integers. *)
Fixpoint digits (fuel : nat) (n : N) (acc : bytes) : bytes :=
  match fuel with
  | O => acc
  | S f => let acc' := (48 + n mod 10) :: acc in if n / 10 =? 0 then acc' else digits f (n / 10) acc'
  end.
Definition to_string (n : N) : bytes := digits (N.to_nat (N.size n) + 1) n [].

(** Hexadecimal digits. *)
Definition hex_val (c : N) : option N :=
  if is_digit c then Some (c - 48)
  else if (97 <=? c) && (c <=? 102) then Some (c - 87)
  else if (65 <=? c) && (c <=? 70) then Some (c - 55)
  else None.
Definition hex_low (v : N) : N := if v <? 10 then 48 + v else 87 + v.
Definition hex_up (v : N) : N := if v <? 10 then 48 + v else 55 + v.
Definition nibbles (l : bytes) : list N := flat_map (fun b => [b / 16; b mod 16]) l.

Fixpoint unhex (s : bytes) : option bytes :=
  match s with
  | [] => Some []
  | a :: b :: r => x ← hex_val a; y ← hex_val b; l ← unhex r; Some (x * 16 + y :: l)
  | _ => None
  end.

Section K.
  Context (keccak : bytes -> bytes).

  (** [Address::to_checksum(None)], EIP-55: "0x", then the hex digits, a letter in upper case iff the nibble of the keccak hash
      of the lower-case digits at its place is at least 8. *)
  Definition to_checksum (a : bytes) : bytes :=
    48 :: 120 :: zip_with (fun v h => if 8 <=? h then hex_up v else hex_low v) (nibbles a)
      (take 40 (nibbles (keccak (map hex_low (nibbles a))) ++ repeat 0 40)).

  (** [Address::parse_checksummed(s, None)]: "0x" is required, 40 hex digits in any case, then compared with [to_checksum]. *)
  Definition parse_checksummed (s : bytes) : option bytes :=
    r ← strip_prefix [48; 120] s;
    a ← unhex r;
    if (N.of_nat (length a) =? 20) && bool_decide (to_checksum a = s) then Some a else None.

  (** 168-223 [ChannelAssetId::parse]. *)
  Definition parse (uri : bytes) : res uri_err asset :=
    if MAX_URI_LENGTH <? N.of_nat (length uri) then Err UriTooLong
    else match split_on SLASH uri with
    | [chain; a; token_id] =>
        match (r ← strip_prefix EIP155 chain; strip_prefix [COLON] r) with
        | None => Err UnsupportedChainNamespace
        | Some reference =>
            match parse_u64 reference with
            | None => Err InvalidChainReference
            | Some chain_id =>
                if negb (bool_decide (to_string chain_id = reference)) then Err InvalidChainReference
                else match (r ← strip_prefix ERC721 a; strip_prefix [COLON] r) with
                | None => Err UnsupportedAssetNamespace
                | Some address =>
                    match parse_checksummed address with
                    | None => Err InvalidContractAddress
                    | Some contract =>
                        if MAX_TOKEN_ID_DIGITS <? N.of_nat (length token_id) then Err InvalidTokenId
                        else match parse_u256 token_id with
                        | None => Err InvalidTokenId
                        | Some token =>
                            if negb (bool_decide (to_string token = token_id)) then Err InvalidTokenId
                            else Ok (Asset chain_id contract (be 32 token))
                        end
                    end
                end
            end
        end
    | _ => Err MalformedAssetId
    end.

  (** 226-233 [canonical_string]. *)
  Definition canonical (a : asset) : bytes :=
    EIP155 ++ [COLON] ++ to_string (as_chain a) ++ [SLASH] ++ ERC721 ++ [COLON] ++ to_checksum (as_contract a) ++ [SLASH] ++
    to_string (be_dec (as_channel a)).

  (** 236-247 [for_channel], [is_in]. *)
  Definition for_channel (r : registrar) (id : bytes) : asset := Asset (rg_chain r) (rg_address r) id.
  Definition is_in (a : asset) (r : registrar) : bool := (as_chain a =? rg_chain r) && bool_decide (as_contract a = rg_address r).

  (** 256-262 [channel_id_for_follow_target]. *)
  Definition follow_target (url : bytes) (r : registrar) : option bytes :=
    match parse url with
    | Ok a => if is_in a r then Some (as_channel a) else None
    | _ => None
    end.
End K.

(** 92-152 [channel_registrar_for_network]; an unspecified network has none either. *)
Definition SEPOLIA_CHAIN_ID : N := 11155111.
Definition SEPOLIA_CHANNEL_REGISTRAR : bytes :=
  [125; 216; 12; 102; 29; 237; 155; 252; 141; 68; 64; 34; 74; 11; 57; 179; 69; 169; 27; 228].
Definition registrar_for (n : network) : option registrar :=
  match n with
  | Mainnet => None
  | _ => Some (Registrar SEPOLIA_CHAIN_ID SEPOLIA_CHANNEL_REGISTRAR)
  end.
