(** The HTTP front of the node, src/network/http_server.rs: the text forms of bytes, page tokens and hashes, the translation of
    messages and hub events to JSON, the response statuses, the forwarded authorization header and the mesh query string.

    JSON objects are records; what serde writes for them (field names, number formats, base64 of byte fields) is not modelled,
    and an enum constant's name is stood for by its number. The bodies are those of Validate.v, so fields that validation does
    not look at ([registration_tx_hash], channel names and texts) are left out. base58 is an oracle. A panic is a value. *)
From stdpp Require Import strings list.
From Verif Require Import Base Codec Version ChannelUri Validate.
From Verif Require Auth.
#[local] Open Scope N_scope.

(** ** Text forms *)

(** [hex::encode] behind "0x" (3414, 2389 and elsewhere). *)
Definition hex (b : bytes) : bytes := map hex_low (nibbles b).
Definition hex0x (b : bytes) : bytes := 48 :: 120 :: hex b.

(** The base64 crate's [BASE64_STANDARD] (46-64): the standard alphabet, padding required, unused bits zero. *)
Definition PAD : N := 61.
Definition sextet (v : N) : N :=
  if v <? 26 then 65 + v else if v <? 52 then 71 + v else if v <? 62 then v - 4 else if v =? 62 then 43 else 47.
Definition unsextet (c : N) : option N :=
  if (65 <=? c) && (c <=? 90) then Some (c - 65)
  else if (97 <=? c) && (c <=? 122) then Some (c - 71)
  else if (48 <=? c) && (c <=? 57) then Some (c + 4)
  else if c =? 43 then Some 62 else if c =? 47 then Some 63 else None.
Fixpoint b64 (l : bytes) : bytes :=
  match l with
  | [] => []
  | [a] => [sextet (a / 4); sextet (a mod 4 * 16); PAD; PAD]
  | [a; b] => [sextet (a / 4); sextet (a mod 4 * 16 + b / 16); sextet (b mod 16 * 4); PAD]
  | a :: b :: c :: r =>
      sextet (a / 4) :: sextet (a mod 4 * 16 + b / 16) :: sextet (b mod 16 * 4 + c / 64) :: sextet (c mod 64) :: b64 r
  end.
Fixpoint unb64 (s : bytes) : option bytes :=
  match s with
  | [] => Some []
  | cw :: cx :: cy :: cz :: r =>
      w ← unsextet cw; x ← unsextet cx;
      if cz =? PAD then
        match r with
        | [] =>
            if cy =? PAD then (if x mod 16 =? 0 then Some [w * 4 + x / 16] else None)
            else y ← unsextet cy; if y mod 4 =? 0 then Some [w * 4 + x / 16; x mod 16 * 16 + y / 4] else None
        | _ => None
        end
      else
        y ← unsextet cy; z ← unsextet cz; l ← unb64 r;
        Some (w * 4 + x / 16 :: x mod 16 * 16 + y / 4 :: y mod 4 * 64 + z :: l)
  | _ => None
  end.

(** [std::str::from_utf8]. *)
Definition within (lo hi c : N) : bool := (lo <=? c) && (c <=? hi).
Fixpoint utf8 (s : bytes) : bool :=
  match s with
  | [] => true
  | a :: r =>
      if a <? 128 then utf8 r
      else match r with
      | [] => false
      | b :: r1 =>
          if within 194 223 a then within 128 191 b && utf8 r1
          else match r1 with
          | [] => false
          | c :: r2 =>
              if within 224 239 a then
                within (if a =? 224 then 160 else 128) (if a =? 237 then 159 else 191) b && within 128 191 c && utf8 r2
              else match r2 with
              | [] => false
              | d :: r3 =>
                  within 240 244 a && within (if a =? 240 then 144 else 128) (if a =? 244 then 143 else 191) b &&
                  within 128 191 c && within 128 191 d && utf8 r3
              end
          end
      end
  end.

(** ** Page tokens: serdebase64opt 66-92, [next_page_token] 3455-3460. An absent token is written like an empty one. *)
Definition SPACE : N := 32.
Definition PLUS : N := 43.
Definition token_show (t : option bytes) : bytes := b64 (default [] t).
Definition token_read (s : bytes) : option (option bytes) :=
  let s' := map (fun c => if c =? SPACE then PLUS else c) s in
  match s' with [] => Some None | _ => l ← unb64 s'; Some (Some l) end.
(** Every [to_proto], e.g. 568-575: the snake-case parameter, else the camel-case one. *)
Definition either {A} (snake camel : option A) : option A := match snake with Some _ => snake | None => camel end.

(** ** Hashes in requests *)
(** [replace("0x", "")], castById, castsByParent, reactionsByTarget (4150). *)
Fixpoint replace_0x (s : bytes) : bytes :=
  match s with
  | [] => []
  | c :: r => match r with d :: r' => if (c =? 48) && (d =? 120) then replace_0x r' else c :: replace_0x r | [] => [c] end
  end.
(** [trim_start_matches("0x")], reactionById, reactionsByCast (4048, 4112). *)
Fixpoint trim_0x (s : bytes) : bytes :=
  match s with
  | c :: ((d :: r) as t) => if (c =? 48) && (d =? 120) then trim_0x r else c :: t
  | _ => s
  end.
(** serdehex 107-112: [strip_prefix("0x")], addresses and keys. *)
Definition strip_0x (s : bytes) : bytes := match strip_prefix [48; 120] s with Some r => r | None => s end.
Definition hash_replace (s : bytes) : option bytes := unhex (replace_0x s).
Definition hash_trim (s : option bytes) : option bytes := match s with Some h => unhex (trim_0x h) | None => Some [] end.
Definition hash_strip (s : bytes) : option bytes := unhex (strip_0x s).

(** ** Messages as JSON, 2377-3462 *)

(** Enumerations of proto/definitions/message.proto and username_proof.proto. *)
Definition MESSAGE_TYPES : list Z := [0; 1; 2; 3; 4; 5; 6; 7; 8; 11; 12; 13; 14; 15; 16; 17; 18; 19; 20; 21]%Z.
Definition NETWORKS : list Z := [0; 1; 2; 3]%Z.
Definition HASH_SCHEMES : list Z := [0; 1]%Z.
Definition SIGNATURE_SCHEMES : list Z := [0; 1; 2]%Z.
Definition CAST_TYPES : list Z := [0; 1; 2]%Z.
Definition REACTION_TYPES : list Z := [0; 1; 2]%Z.
Definition USER_DATA_TYPES : list Z := [0; 1; 2; 3; 5; 6; 7; 8; 9; 10; 11; 12; 13; 14]%Z.
Definition NAME_TYPES : list Z := [0; 1; 2; 3]%Z.
Definition PROTOCOLS : list Z := [0; 1]%Z.
Definition CASTING_MODES : list Z := [0; 1; 2; 3]%Z.
Definition MEMBERSHIP_MODES : list Z := [0; 1; 2]%Z.
Definition MEMBER_ACTIONS : list Z := [0; 1; 2; 3; 4; 5; 6]%Z.
Definition MODERATE_ACTIONS : list Z := [0; 1; 2]%Z.

(** [X::try_from(z)]. *)
Definition enum (l : list Z) (z : Z) : option Z := if zmem z l then Some z else None.

Record jcast_id := JCastId { jc_fid : N; jc_hash : bytes }.
Inductive jembed := JEUrl (u : bytes) | JECast (c : jcast_id).
Record jproof := JProof { jp_ts : N; jp_name : bytes; jp_owner : bytes; jp_sig : bytes; jp_fid : N; jp_type : Z }.
Inductive jbody :=
| JCastAdd (deprecated : list bytes) (mentions : list N) (parent_cast : option jcast_id) (parent_url : option bytes) (text : bytes)
    (positions : list N) (embeds : list jembed) (ty : Z)
| JCastRemove (target : bytes)
| JReaction (ty : Z) (target_cast : option jcast_id) (target_url : option bytes)
| JVerifAdd (address signature block_hash : bytes) (vtype chain : N) (protocol : Z)
| JVerifRemove (address : bytes) (protocol : Z)
| JUserData (ty : Z) (value : bytes)
| JLink (ty : bytes) (display_ts : option N) (target : N)
| JUsernameProof (p : jproof)
| JFrame (url : bytes) (button : N) (cast : option jcast_id) (input state tx address : bytes)
| JLinkCompact (ty : bytes) (targets : list N)
| JLend (to_fid units : N) (unit_type : Z)
| JKeyAdd (key : bytes) (key_type : N) (sig : bytes) (deadline nonce : N) (metadata : bytes) (metadata_type : N) (scopes : list Z) (ttl : N)
| JKeyRemove (key sig : bytes) (sig_type deadline nonce : N)
| JChanUpdate (id : bytes) (casting membership : option Z)
| JChanMember (id : bytes) (fid : N) (action : Z)
| JChanPin (id cast_hash : bytes)
| JChanModerate (id cast_hash : bytes) (action : Z).
Record jmessage := JMessage {
  jm_type : Z; jm_fid : N; jm_ts : N; jm_network : Z; jm_body : jbody;
  jm_hash : bytes; jm_hash_scheme : Z; jm_signature : bytes; jm_signature_scheme : Z; jm_signer : bytes }.

Definition show_cast_id (c : cast_id) : jcast_id := JCastId (ci_fid c) (hex0x (ci_hash c)).
(** 2384-2399, 2465-2482: a parent or target in two optional fields. *)
Definition ref_cast (r : option ref) : option jcast_id := match r with Some (RCast c) => Some (show_cast_id c) | _ => None end.
Definition ref_url (r : option ref) : option bytes := match r with Some (RUrl u) => Some u | _ => None end.
(** 2401-2418. *)
Definition show_embed (e : option ref) : jembed :=
  match e with Some (RCast c) => JECast (show_cast_id c) | Some (RUrl u) => JEUrl u | None => JEUrl [] end.
(** 2505-2532. *)
Definition show_proof (p : name_proof) : option jproof :=
  t ← enum NAME_TYPES (np_type p);
  if utf8 (np_name p) then Some (JProof (np_ts p) (np_name p) (hex0x (np_owner p)) (np_sig p) (np_fid p) t) else None.
(** [.map(f).transpose()?] *)
Definition opt_enum (l : list Z) (o : option Z) : option (option Z) :=
  match o with Some z => x ← enum l z; Some (Some x) | None => Some None end.

Section B58.
  Context (b58 : bytes -> bytes).

  (** 2538-2555, 2577-2581. *)
  Definition addr_text (protocol : Z) (a : bytes) : bytes := if (protocol =? 0)%Z then hex0x a else b58 a.

  Definition show_body (b : body) : option jbody :=
    match b with
    | VCastAdd c =>
        t ← enum CAST_TYPES (ca_type c);
        Some (JCastAdd (ca_embeds_deprecated c) (ca_mentions c) (ref_cast (ca_parent c)) (ref_url (ca_parent c)) (ca_text c)
                (ca_positions c) (map show_embed (ca_embeds c)) t)
    | VCastRemove h => Some (JCastRemove h)
    | VReaction ty r => t ← enum REACTION_TYPES ty; Some (JReaction t (ref_cast r) (ref_url r))
    | VVerifAdd v =>
        p ← enum PROTOCOLS (va_protocol v);
        Some (JVerifAdd (addr_text (va_protocol v) (va_address v)) (va_signature v) (addr_text (va_protocol v) (va_block_hash v))
                (va_vtype v) (va_chain v) p)
    | VVerifRemove a pr => p ← enum PROTOCOLS pr; Some (JVerifRemove (addr_text pr a) p)
    | VUserData ty s => t ← enum USER_DATA_TYPES ty; Some (JUserData t s)
    | VLink ty d target => f ← target; Some (JLink ty d f)
    | VUsernameProof p => j ← show_proof p; Some (JUsernameProof j)
    | VFrame f =>
        Some (JFrame (fa_url f) (fa_button f) (option_map show_cast_id (fa_cast f)) (fa_input f) (fa_state f) (fa_tx f) (fa_address f))
    | VLinkCompact ty ts => Some (JLinkCompact ty ts)
    | VLend f u ty => Some (JLend f u (if (ty =? 2)%Z then 2 else if (ty =? 1)%Z then 1 else 0)%Z)
    | VKeyAdd k =>
        Some (JKeyAdd (ka_key k) (ka_key_type k) (ka_custody_sig k) (ka_deadline k) (ka_nonce k) (ka_metadata k)
                (ka_metadata_type k) (List.filter (fun z => zmem z MESSAGE_TYPES) (ka_scopes k)) (ka_ttl k))
    | VKeyRemove k => Some (JKeyRemove (kr_key k) (kr_sig k) (kr_sig_type k) (kr_deadline k) (kr_nonce k))
    | VChanUpdate id c m =>
        c' ← opt_enum CASTING_MODES c; m' ← opt_enum MEMBERSHIP_MODES m; Some (JChanUpdate id c' m')
    | VChanMember id f a => a' ← enum MEMBER_ACTIONS a; Some (JChanMember id f a')
    | VChanPin id h => Some (JChanPin id h)
    | VChanModerate id h a => a' ← enum MODERATE_ACTIONS a; Some (JChanModerate id h a')
    end.

  (** 2818-3444 [map_proto_message_to_json_message]. [None] is an error response; which one is not modelled. *)
  Definition show_message (m : message) : option jmessage :=
    d ← g_data m;
    b ← d_body d;
    j ← show_body b;
    t ← enum MESSAGE_TYPES (d_type d);
    n ← enum NETWORKS (d_network d);
    hs ← enum HASH_SCHEMES (g_hash_scheme m);
    ss ← enum SIGNATURE_SCHEMES (g_signature_scheme m);
    Some (JMessage t (d_fid d) (d_ts d) n j (hex0x (g_hash m)) hs (g_signature m) ss (hex0x (g_signer m))).

  (** Results of a handler: an answer, an error response, or the panic of an [unwrap], which drops the connection. *)
  Inductive outcome (A : Type) := Done (a : A) | Fault | Panic.
  #[global] Arguments Done {A} a.
  #[global] Arguments Fault {A}.
  #[global] Arguments Panic {A}.

  (** [.map(|m| map(..).unwrap()).collect()] *)
  Fixpoint unwrap_all {A B} (f : A -> option B) (l : list A) : outcome (list B) :=
    match l with
    | [] => Done []
    | x :: r =>
        match f x with
        | None => Panic
        | Some y => match unwrap_all f r with Done ys => Done (y :: ys) | Fault => Fault | Panic => Panic end
        end
    end.
  Definition unwrap_opt {A B} (f : A -> option B) (o : option A) : outcome (option B) :=
    match o with None => Done None | Some x => match f x with Some y => Done (Some y) | None => Panic end end.
  Definition obind {A B} (o : outcome A) (k : A -> outcome B) : outcome B :=
    match o with Done a => k a | Fault => Fault | Panic => Panic end.

  (** 3446-3462. *)
  Definition show_page (ms : list message) (next : option bytes) : outcome (list jmessage * bytes) :=
    obind (unwrap_all show_message ms) (fun js => Done (js, token_show next)).
  (** A reply with one message, e.g. castById: [map_proto_message_to_json_message(..)]. *)
  Definition show_one (m : message) : outcome jmessage := match show_message m with Some j => Done j | None => Fault end.
  (** Bulk submission's answer (4466-4540): one message that cannot be shown makes the whole answer an error. *)
  Fixpoint show_bulk (ms : list (option message)) : outcome (list (option jmessage)) :=
    match ms with
    | [] => Done []
    | None :: r => obind (show_bulk r) (fun js => Done (None :: js))
    | Some m :: r => match show_message m with None => Fault | Some j => obind (show_bulk r) (fun js => Done (Some j :: js)) end
    end.

  (** ** Hub events, 3609-3740; on-chain events and the bodies without messages always map (3464-3560). *)
  Definition EVENT_TYPES : list Z := [0; 1; 2; 3; 6; 9; 10; 11; 12]%Z.
  Inductive event_body :=
  | EMerge (m : option message) (deleted : list message)
  | EPrune (m : option message)
  | ERevoke (m : option message)
  | EProof (p deleted_p : option name_proof) (pm deleted_pm : option message)
  | EFailure (m : option message) (code reason : bytes)
  | EOther.
  Inductive jevent_body :=
  | JEMerge (m : jmessage) (deleted : list jmessage)
  | JEPrune (m : jmessage)
  | JERevoke (m : jmessage)
  | JEProof (p deleted_p : option jproof) (pm deleted_pm : option jmessage)
  | JEFailure (m : jmessage) (code reason : bytes)
  | JEOther.
  Record event := Event { ev_type : Z; ev_id : N; ev_body : option event_body; ev_block : N; ev_shard : N }.
  Record jevent := JEvent { je_type : Z; je_id : N; je_body : option jevent_body; je_block : N; je_shard : N }.

  Definition show_event_body (b : option event_body) : outcome (option jevent_body) :=
    match b with
    | None => Done None
    | Some (EMerge None _) => Done None
    | Some (EMerge (Some m) del) =>
        match show_message m with
        | None => Panic
        | Some j => obind (unwrap_all show_message del) (fun js => Done (Some (JEMerge j js)))
        end
    | Some (EPrune m) => obind (unwrap_opt show_message m) (fun o => Done (option_map JEPrune o))
    | Some (ERevoke m) => obind (unwrap_opt show_message m) (fun o => Done (option_map JERevoke o))
    | Some (EProof p dp pm dpm) =>
        obind (unwrap_opt show_proof p) (fun p' =>
        obind (unwrap_opt show_message pm) (fun pm' =>
        obind (unwrap_opt show_proof dp) (fun dp' =>
        obind (unwrap_opt show_message dpm) (fun dpm' => Done (Some (JEProof p' dp' pm' dpm'))))))
    | Some (EFailure m c r) => obind (unwrap_opt show_message m) (fun o => Done (option_map (fun j => JEFailure j c r) o))
    | Some EOther => Done (Some JEOther)
    end.
  Definition show_event (e : event) : outcome jevent :=
    obind (show_event_body (ev_body e)) (fun b =>
      match enum EVENT_TYPES (ev_type e) with
      | Some t => Done (JEvent t (ev_id e) b (ev_block e) (ev_shard e))
      | None => Fault
      end).
  (** [get_events]: the errors are unwrapped too, and the reply has no field for the page token the service returned. *)
  Fixpoint show_events (es : list event) (next : option bytes) : outcome (list jevent) :=
    match es with
    | [] => Done []
    | e :: r =>
        match show_event e with
        | Done j => match show_events r next with Done js => Done (j :: js) | o => o end
        | _ => Panic
        end
    end.
End B58.

(** ** Statuses. gRPC codes by number. *)
Definition C_UNKNOWN : N := 2. Definition C_INTERNAL : N := 13. Definition C_DATA_LOSS : N := 15. Definition C_UNAUTHENTICATED : N := 16.

(** 2250-2262 [from_status]; the other handlers build the error with [status: None]. *)
Definition from_status (c : N) : option N := if (c =? C_INTERNAL) || (c =? C_DATA_LOSS) || (c =? C_UNKNOWN) then Some 500 else None.
Inductive style := Plain | Graded.
Definition error_status (s : style) (c : N) : option N := match s with Plain => None | Graded => from_status c end.

(** A request to one handler: whether it parses, and what the service answers ([inl]: a gRPC code; [inr]: a reply, which maps
    to JSON or not). *)
Inductive parsed := Parsed | BadRequest | BodyFailed.
Inductive answer := Refused (code : N) | Replied (shown : bool).
(** 5564-5600 [handle_request]. *)
Definition status_request (st : style) (p : parsed) (a : answer) : N :=
  match p with
  | Parsed => match a with Replied true => 200 | Replied false => 400 | Refused c => default 400 (error_status st c) end
  | _ => 400
  end.
Definition OCTET : bytes :=
  [97; 112; 112; 108; 105; 99; 97; 116; 105; 111; 110; 47; 111; 99; 116; 101; 116; 45; 115; 116; 114; 101; 97; 109].
(** 5406-5475 [handle_protobuf_request]; also 5602-5650 for bulk, which differs when the body cannot be read. *)
Definition status_protobuf (bulk : bool) (content_type : option bytes) (p : parsed) (a : answer) : N :=
  if bool_decide (content_type = Some OCTET) then
    match p with
    | Parsed => match a with Replied true => 200 | _ => 400 end
    | BadRequest => 400
    | BodyFailed => if bulk then 500 else 400
    end
  else 400.
(** 2314-2335 [mesh_error_response], 5481-5550. *)
Definition status_mesh (a : answer) : N :=
  match a with Replied _ => 200 | Refused c => if c =? C_UNAUTHENTICATED then 401 else 500 end.

(** The authorization header. [HeaderValue::to_str] takes visible ASCII and tab; [MetadataValue::from_str] everything but
    control characters. *)
Definition visible (c : N) : bool := within 32 126 c || (c =? 9).
Definition header_ok (c : N) : bool := ((32 <=? c) && negb (c =? 127)) || (c =? 9).
(** 4437-4452, 4476-4494: the metadata sent along. *)
Definition forward_submit (h : option bytes) : outcome (option bytes) :=
  match h with
  | None => Done None
  | Some s => if forallb visible s then (if forallb header_ok s then Done (Some s) else Panic) else Fault
  end.
(** 2266-2284 [mesh_grpc_request]. *)
Definition forward_mesh (h : option bytes) : option bytes :=
  match h with Some s => if forallb visible s && forallb header_ok s then Some s else None | None => None end.

(** ** The mesh query, 5485-5513 *)
Definition AMP : N := 38.
Definition EQUALS : N := 61.
Definition K_FORMAT : bytes := [102; 111; 114; 109; 97; 116].
Definition K_VALIDATORS : bytes := [118; 97; 108; 105; 100; 97; 116; 111; 114; 115; 95; 111; 110; 108; 121].
Definition K_CRAWL : bytes := [99; 114; 97; 119; 108].
Definition K_TOPICS : bytes := [116; 111; 112; 105; 99; 115].
Definition V_ASCII : bytes := [97; 115; 99; 105; 105].
Definition V_FALSE : bytes := [102; 97; 108; 115; 101].
Definition V_ZERO : bytes := [48].
(** [split_once('=')] *)
Fixpoint split_once (c : N) (s : bytes) : option (bytes * bytes) :=
  match s with
  | [] => None
  | x :: r => if x =? c then Some ([], r) else match split_once c r with Some (k, v) => Some (x :: k, v) | None => None end
  end.
Record mesh_query := MeshQuery { mq_ascii : bool; mq_validators : bool; mq_crawl : bool; mq_topics : option bytes }.
Definition truthy (v : bytes) : bool := negb (bool_decide (v = V_FALSE) || bool_decide (v = V_ZERO)).
Definition mesh_pair (q : mesh_query) (pair : bytes) : mesh_query :=
  match split_once EQUALS pair with
  | None => q
  | Some (k, v) =>
      if bool_decide (k = K_FORMAT) then
        (if bool_decide (v = V_ASCII) then MeshQuery true (mq_validators q) (mq_crawl q) (mq_topics q) else q)
      else if bool_decide (k = K_VALIDATORS) then MeshQuery (mq_ascii q) (truthy v) (mq_crawl q) (mq_topics q)
      else if bool_decide (k = K_CRAWL) then MeshQuery (mq_ascii q) (mq_validators q) (truthy v) (mq_topics q)
      else if bool_decide (k = K_TOPICS) then MeshQuery (mq_ascii q) (mq_validators q) (mq_crawl q) (Some v)
      else q
  end.
Definition parse_mesh (query : bytes) : mesh_query :=
  fold_left mesh_pair (Auth.split AMP query) (MeshQuery false true false None).

(** src/network/mesh/render.rs:17-40 [parse_topics]; gossip.rs:59-65. White space is not trimmed: a URI cannot hold any. *)
Definition COMMA : N := 44.
Definition lower_ascii (c : N) : N := if within 65 90 c then c + 32 else c.
Section T.
  Context (all_topics default_topics : list bytes).
  Definition V_ALL : bytes := [97; 108; 108].
  Definition parse_topics (param : option bytes) : list bytes :=
    let parts := Auth.split COMMA (default [] param) in
    if existsb (fun t => bool_decide (map lower_ascii t = V_ALL)) parts then all_topics
    else match List.filter (fun t => bool_decide (t ∈ all_topics)) parts with [] => default_topics | ts => ts end.
End T.

(** ** The routes, 5073-5393: method, path, handler and error style *)
Inductive method := GET | POST | OTHER.
Inductive handler := HQuery (st : style) | HMessage | HBulk | HMesh | HPage.
Definition route_table : list (method * string * handler) := [
  (GET, "/v1/info", HQuery Plain); (GET, "/v1/fids", HQuery Plain); (GET, "/v1/castById", HQuery Plain);
  (GET, "/v1/castsByFid", HQuery Plain); (GET, "/v1/castsByMention", HQuery Plain); (GET, "/v1/castsByParent", HQuery Plain);
  (GET, "/v1/reactionById", HQuery Plain); (GET, "/v1/reactionsByFid", HQuery Plain); (GET, "/v1/reactionsByCast", HQuery Plain);
  (GET, "/v1/reactionsByTarget", HQuery Plain); (GET, "/v1/linkById", HQuery Plain); (GET, "/v1/linksByFid", HQuery Plain);
  (GET, "/v1/linksByTargetFid", HQuery Plain); (GET, "/v1/userDataByFid", HQuery Plain);
  (GET, "/v1/storageLimitsByFid", HQuery Plain); (GET, "/v1/userNameProofByName", HQuery Plain);
  (GET, "/v1/userNameProofsByFid", HQuery Plain); (POST, "/v1/validateMessage", HMessage); (POST, "/v1/submitMessage", HMessage);
  (POST, "/v1/submitBulkMessages", HBulk); (GET, "/v1/verificationsByFid", HQuery Plain);
  (GET, "/v1/onChainSignersByFid", HQuery Plain); (GET, "/v1/signer", HQuery Plain); (GET, "/v1/signersByFid", HQuery Plain);
  (GET, "/v1/onChainEventsByFid", HQuery Plain); (GET, "/v1/channelOwner", HQuery Plain);
  (GET, "/v1/channelsByAddress", HQuery Plain); (GET, "/v1/channelsByFid", HQuery Plain); (GET, "/v1/channelMember", HQuery Graded);
  (GET, "/v1/channelMembers", HQuery Graded); (GET, "/v1/channelPin", HQuery Graded); (GET, "/v1/channelModerations", HQuery Graded);
  (GET, "/v1/channelMetadata", HQuery Graded); (GET, "/v1/channelMembershipsByFid", HQuery Graded);
  (GET, "/v1/channelFollowers", HQuery Graded); (GET, "/v1/channelFollowerCount", HQuery Graded);
  (GET, "/v1/channelFollows", HQuery Graded); (GET, "/v1/isFollowingChannel", HQuery Graded);
  (GET, "/v1/onChainIdRegistryEventByAddress", HQuery Plain); (GET, "/v1/fidAddressType", HQuery Plain);
  (GET, "/v1/events", HQuery Plain); (GET, "/v1/eventById", HQuery Plain); (GET, "/v1/currentPeers", HQuery Plain);
  (GET, "/v1/mesh", HMesh); (GET, "/v1/mesh/ui", HPage)]%string.
Definition method_eqb (a b : method) : bool := match a, b with GET, GET | POST, POST => true | _, _ => false end.
Definition route (m : method) (path : string) : option handler :=
  option_map snd (List.find (fun r => method_eqb (fst (fst r)) m && String.eqb (snd (fst r)) path) route_table).
(** The status of a reply to a request; [OTHER] methods match no arm. *)
Definition status (m : method) (path : string) (content_type : option bytes) (p : parsed) (a : answer) : N :=
  match route m path with
  | None => 404
  | Some (HQuery st) => status_request st p a
  | Some HMessage => status_protobuf false content_type p a
  | Some HBulk => status_protobuf true content_type p a
  | Some HMesh => status_mesh a
  | Some HPage => 200
  end.
