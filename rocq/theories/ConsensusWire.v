(** Model of how consensus and sync messages travel: core/types.rs:362-486, 695-758 (conversions and signed bytes),
    consensus/malachite/snapchain_codec.rs (codec), network/gossip.rs:1152-1309 and 1344-1456 (the gossip envelope),
    consensus/malachite/network_connector.rs:185-330, proto/definitions/{blocks,gossip}.proto (field numbers).

    Simplifications.  Blocks and chunks, mempool messages, contact infos and decided values inside an envelope are opaque
    ([dec_*] oracles); a peer id is its bytes, of which the library accepts some ([peer_ok]); [Round::from] of an [i64] is
    the library's: negative is nil, otherwise the lower 32 bits. *)
From Verif Require Import Base Consensus Wire.
#[local] Open Scope N_scope.

(** * The protobuf messages *)
(** blocks.proto:21-24, 33-36. *)
Definition enc_height (h : height) : list field := f_num 1 h.1 ++ f_num 2 h.2.
Definition dec_height (l : list field) : option height :=
  match g_num 1 l, g_num 2 l with Some a, Some b => Some (a mod 2 ^ 32, b) | _, _ => None end.
Definition enc_shash (v : shash) : list field := f_num 1 v.1 ++ f_bytes 2 v.2.
Definition dec_shash (l : list field) : option shash :=
  match g_num 1 l, g_bytes 2 l with Some a, Some b => Some (a mod 2 ^ 32, b) | _, _ => None end.
(** An enumeration is an [i32]. *)
Definition i32_of (n : N) : Z := let z := (Z.of_N n mod 2 ^ 32)%Z in if (z <? 2 ^ 31)%Z then z else (z - 2 ^ 32)%Z.
(** blocks.proto:38-44. *)
Record pvote := PVote { pv_type : Z; pv_height : option height; pv_round : Z; pv_value : option shash; pv_voter : bytes }.
Definition enc_vote (v : pvote) : list field :=
  f_num 1 (u64_of (pv_type v)) ++ f_sub 2 (enc_height <$> pv_height v) ++ f_num 3 (u64_of (pv_round v)) ++
  f_sub 4 (enc_shash <$> pv_value v) ++ f_bytes 5 (pv_voter v).
Definition dec_vote (l : list field) : option pvote :=
  match g_num 1 l, g_sub dec_height 2 l, g_num 3 l, g_sub dec_shash 4 l, g_bytes 5 l with
  | Some t, Some h, Some r, Some v, Some b => Some (PVote (i32_of t) h (i64_of r) v b)
  | _, _, _, _, _ => None
  end.
(** blocks.proto:60-68. *)
Record pprop := PProp { pp_height : option height; pp_round : Z; pp_pol : Z; pp_proposer : bytes; pp_value : option shash }.
Definition enc_prop (p : pprop) : list field :=
  f_sub 1 (enc_height <$> pp_height p) ++ f_num 2 (u64_of (pp_round p)) ++ f_num 3 (u64_of (pp_pol p)) ++
  f_bytes 4 (pp_proposer p) ++ f_sub 5 (enc_shash <$> pp_value p).
Definition dec_prop (l : list field) : option pprop :=
  match g_sub dec_height 1 l, g_num 2 l, g_num 3 l, g_bytes 4 l, g_sub dec_shash 5 l with
  | Some h, Some r, Some q, Some b, Some v => Some (PProp h (i64_of r) (i64_of q) b v)
  | _, _, _, _, _ => None
  end.
(** blocks.proto:48-58. *)
Definition enc_csig (s : csig) : list field := f_bytes 1 (sg_addr s) ++ f_bytes 2 (sg_sig s).
Definition dec_csig (l : list field) : option csig :=
  match g_bytes 1 l, g_bytes 2 l with Some a, Some b => Some (CSig a b) | _, _ => None end.
Definition enc_commits (c : commits) : list field :=
  f_sub 1 (enc_height <$> cm_height c) ++ f_num 2 (u64_of (cm_round c)) ++ f_sub 3 (enc_shash <$> cm_value c) ++
  f_rep 4 (map (fun s => enc_fields (enc_csig s)) (cm_sigs c)).
Definition dec_commits (l : list field) : option commits :=
  match g_sub dec_height 1 l, g_num 2 l, g_sub dec_shash 3 l, g_reps dec_csig 4 l with
  | Some h, Some r, Some v, Some s => Some (Commits h (i64_of r) v s)
  | _, _, _, _ => None
  end.
(** blocks.proto:94-100. *)
Inductive pbody := PBVote (v : pvote) | PBProp (p : pprop).
Record pcm := PCm { pc_body : option pbody; pc_sig : bytes }.
Definition enc_cm (m : pcm) : list field :=
  match pc_body m with
  | Some (PBVote v) => f_sub 1 (Some (enc_vote v))
  | Some (PBProp p) => f_sub 2 (Some (enc_prop p))
  | None => []
  end ++ f_bytes 3 (pc_sig m).
Definition dec_body (i : N) (l : list field) : option pbody :=
  if i =? 1 then PBVote <$> dec_vote l else PBProp <$> dec_prop l.
Definition dec_cm (l : list field) : option pcm :=
  match g_oneof dec_body [1; 2] l, g_bytes 3 l with Some b, Some s => Some (PCm b s) | _, _ => None end.
(** blocks.proto:230-234. *)
Record pstatus := PStatus { ps_peer : bytes; ps_height : option height; ps_min : option height }.
Definition enc_status (s : pstatus) : list field :=
  f_bytes 1 (ps_peer s) ++ f_sub 2 (enc_height <$> ps_height s) ++ f_sub 3 (enc_height <$> ps_min s).
Definition dec_status (l : list field) : option pstatus :=
  match g_bytes 1 l, g_sub dec_height 2 l, g_sub dec_height 3 l with
  | Some p, Some h, Some m => Some (PStatus p h m) | _, _, _ => None end.
(** blocks.proto:236-250. *)
Inductive preq := PRValue (h : option height) | PRVotes (h : option height) (round : Z).
Definition enc_req (r : option preq) : list field :=
  match r with
  | Some (PRValue h) => f_sub 1 (Some (f_sub 1 (enc_height <$> h)))
  | Some (PRVotes h r) => f_sub 2 (Some (f_sub 1 (enc_height <$> h) ++ f_num 2 (u64_of r)))
  | None => []
  end.
Definition dec_req1 (i : N) (l : list field) : option preq :=
  if i =? 1 then PRValue <$> g_sub dec_height 1 l
  else match g_sub dec_height 1 l, g_num 2 l with Some h, Some r => Some (PRVotes h (i64_of r)) | _, _ => None end.
Definition dec_req (l : list field) : option (option preq) := g_oneof dec_req1 [1; 2] l.
(** blocks.proto:252-270. *)
Inductive presp := PSValue (h : option height) (value : bytes) (c : option commits)
                 | PSVotes (h : option height) (round : Z) (votes : list pvote) (sigs : list bytes).
Definition enc_resp (r : option presp) : list field :=
  match r with
  | Some (PSValue h v c) => f_sub 1 (Some (f_sub 1 (enc_height <$> h) ++ f_bytes 2 v ++ f_sub 3 (enc_commits <$> c)))
  | Some (PSVotes h r vs ss) =>
      f_sub 2 (Some (f_sub 1 (enc_height <$> h) ++ f_num 2 (u64_of r) ++ f_rep 3 (map (fun v => enc_fields (enc_vote v)) vs) ++ f_rep 4 ss))
  | None => []
  end.
Definition dec_resp1 (i : N) (l : list field) : option presp :=
  if i =? 1 then
    match g_sub dec_height 1 l, g_bytes 2 l, g_sub dec_commits 3 l with Some h, Some v, Some c => Some (PSValue h v c) | _, _, _ => None end
  else
    match g_sub dec_height 1 l, g_num 2 l, g_reps dec_vote 3 l, g_rep 4 l with
    | Some h, Some r, Some vs, Some ss => Some (PSVotes h (i64_of r) vs ss) | _, _, _, _ => None end.
Definition dec_resp (l : list field) : option (option presp) := g_oneof dec_resp1 [1; 2] l.

(** * The values of the consensus engine *)
Inductive round := RNil | RSome (n : N).
(** malachite [Round::as_i64] and [From<i64>]. *)
Definition round_i64 (r : round) : Z := match r with RNil => (-1)%Z | RSome n => Z.of_N n end.
Definition round_of (z : Z) : round := if (z <? 0)%Z then RNil else RSome (Z.to_N (z mod 2 ^ 32)).
Inductive vtype := Prevote | Precommit_.
(** types.rs:362-369, 448-455. *)
Record cvote := CVote { cv_type : vtype; cv_height : height; cv_round : round; cv_value : option shash; cv_voter : bytes }.
Record cprop := CProp { cp_height : height; cp_round : round; cp_value : shash; cp_pol : round; cp_proposer : bytes }.
(** types.rs:401-417 [to_proto], 457-466. *)
Definition vote_proto (v : cvote) : pvote :=
  PVote (match cv_type v with Prevote => 0 | Precommit_ => 1 end)%Z (Some (cv_height v)) (round_i64 (cv_round v)) (cv_value v) (cv_voter v).
Definition prop_proto (p : cprop) : pprop :=
  PProp (Some (cp_height p)) (round_i64 (cp_round p)) (round_i64 (cp_pol p)) (cp_proposer p) (Some (cp_value p)).
(** types.rs:69-73 [Address::from_vec]: panics unless 32 bytes. *)
Definition addr_ok (b : bytes) : bool := (length b =? 32)%nat.
(** types.rs:419-437 [from_proto], 468-476; [None] is a panic. *)
Definition vote_of (p : pvote) : option cvote :=
  match (if (pv_type p =? 0)%Z then Some Prevote else if (pv_type p =? 1)%Z then Some Precommit_ else None), pv_height p with
  | Some t, Some h => if addr_ok (pv_voter p) then Some (CVote t h (round_of (pv_round p)) (pv_value p) (pv_voter p)) else None
  | _, _ => None
  end.
Definition prop_of (p : pprop) : option cprop :=
  match pp_height p, pp_value p with
  | Some h, Some v => if addr_ok (pp_proposer p) then Some (CProp h (round_of (pp_round p)) v (round_of (pp_pol p)) (pp_proposer p)) else None
  | _, _ => None
  end.
(** types.rs:439-441, 477-480 [to_sign_bytes]. *)
Definition vote_sign (v : cvote) : bytes := enc_fields (enc_vote (vote_proto v)).
Definition prop_sign (p : cprop) : bytes := enc_fields (enc_prop (prop_proto p)).
(** types.rs:709-733 and 735-757: certificates; the round is made canonical on the way in. *)
Record ccert := CCert { cc_height : height; cc_round : round; cc_value : shash; cc_sigs : list csig }.
Definition cert_of (c : commits) : option ccert :=
  match to_cert c with Some c => Some (CCert (ct_height c) (round_of (ct_round c)) (ct_value c) (ct_sigs c)) | None => None end.
Definition cert_commits (c : ccert) : commits := Commits (Some (cc_height c)) (round_i64 (cc_round c)) (Some (cc_value c)) (cc_sigs c).

(** * The codec *)
Inductive werr := WDecode | WField.
Inductive cmsg := MVote (v : cvote) (sig : bytes) | MProp (p : cprop) (sig : bytes).
(** snapchain_codec.rs:31-83. *)
Definition cmsg_proto (m : cmsg) : pcm :=
  match m with MVote v s => PCm (Some (PBVote (vote_proto v))) s | MProp p s => PCm (Some (PBProp (prop_proto p))) s end.
Definition encode_msg (m : cmsg) : bytes := enc_fields (enc_cm (cmsg_proto m)).
Definition of_opt {A E} (o : option A) : res E A := match o with Some a => Ok a | None => Panic end.
Definition cmsg_of (p : pcm) : res werr cmsg :=
  match pc_body p with
  | Some (PBVote v) => match vote_of v with Some v => Ok (MVote v (pc_sig p)) | None => Panic end
  | Some (PBProp q) => match prop_of q with Some q => Ok (MProp q (pc_sig p)) | None => Panic end
  | None => Err WDecode
  end.
Definition decode_msg (b : bytes) : res werr cmsg := match g_msg dec_cm b with Some p => cmsg_of p | None => Err WDecode end.

Section Peers.
  Context (peer_ok : bytes -> bool).
  (** snapchain_codec.rs:125-158. *)
  Record status := Status { st_peer : bytes; st_height : height; st_min : height }.
  Definition encode_status (s : status) : bytes := enc_fields (enc_status (PStatus (st_peer s) (Some (st_height s)) (Some (st_min s)))).
  Definition decode_status (b : bytes) : res werr status :=
    match g_msg dec_status b with
    | None => Err WDecode
    | Some p => if negb (peer_ok (ps_peer p)) then Err WField else
                match ps_height p, ps_min p with Some h, Some m => Ok (Status (ps_peer p) h m) | _, _ => Err WField end
    end.
End Peers.
(** snapchain_codec.rs:160-211. *)
Inductive request := QValue (h : height) | QVotes (h : height) (r : round).
Definition encode_req (r : request) : bytes :=
  enc_fields (enc_req (Some match r with QValue h => PRValue (Some h) | QVotes h r => PRVotes (Some h) (round_i64 r) end)).
Definition decode_req (b : bytes) : res werr request :=
  match g_msg dec_req b with
  | None => Err WDecode
  | Some (Some (PRValue (Some h))) => Ok (QValue h)
  | Some (Some (PRVotes (Some h) r)) => Ok (QVotes h (round_of r))
  | Some _ => Err WField
  end.
(** snapchain_codec.rs:213-315. *)
Inductive response := AValue (h : height) (v : option (bytes * ccert)) | AVotes (h : height) (r : round) (vs : list (cvote * bytes)).
Definition encode_resp (r : response) : res werr bytes :=
  match r with
  | AValue h (Some (v, c)) => Ok (enc_fields (enc_resp (Some (PSValue (Some h) v (Some (cert_commits c))))))
  | AValue _ None => Err WField
  | AVotes h r vs => Ok (enc_fields (enc_resp (Some (PSVotes (Some h) (round_i64 r) (map (fun p => vote_proto p.1) vs) (map snd vs)))))
  end.
Fixpoint votes_of (l : list (pvote * bytes)) : option (list (cvote * bytes)) :=
  match l with
  | [] => Some []
  | (p, s) :: l => match vote_of p, votes_of l with Some v, Some r => Some ((v, s) :: r) | _, _ => None end
  end.
Definition decode_resp (b : bytes) : res werr response :=
  match g_msg dec_resp b with
  | None => Err WDecode
  | Some None => Err WField
  | Some (Some (PSValue _ _ None)) => Err WField
  | Some (Some (PSValue h v (Some c))) =>
      match cert_of c, h with
      | None, _ => Panic
      | Some c, Some h => Ok (AValue h (Some (v, c)))
      | Some _, None => Err WField
      end
  | Some (Some (PSVotes h r vs ss)) =>
      match votes_of (zip vs ss), h with
      | None, _ => Panic
      | Some vs, Some h => Ok (AVotes h (round_of r) vs)
      | Some _, None => Err WField
      end
  end.

(** * The gossip envelope *)
Section Gossip.
  Context (peer_ok : bytes -> bool).
  (** A full proposal (blocks.proto:72-80) with an opaque value. *)
  Context {pval other : Type} (enc_val : pval -> N * list field) (dec_val : N -> list field -> option pval).
  Context (dec_other : N -> list field -> option other).
  Record full := Full { fp_height : option height; fp_round : Z; fp_proposer : bytes; fp_value : option pval }.
  Definition enc_full (p : full) : list field :=
    f_sub 1 (enc_height <$> fp_height p) ++ f_num 2 (u64_of (fp_round p)) ++ f_bytes 3 (fp_proposer p) ++
    match fp_value p with Some v => f_sub (enc_val v).1 (Some (enc_val v).2) | None => [] end.
  Definition dec_full (l : list field) : option full :=
    match g_sub dec_height 1 l, g_num 2 l, g_bytes 3 l, g_oneof dec_val [4; 5] l with
    | Some h, Some r, Some b, Some v => Some (Full h (i64_of r) b v)
    | _, _, _, _ => None
    end.
  (** gossip.proto:13-22. *)
  Inductive envelope := EnvMsg (m : pcm) | EnvFull (p : full) | EnvStatus (s : pstatus) | EnvOther (o : other).
  Definition dec_env1 (i : N) (l : list field) : option envelope :=
    match i with
    | 1 => EnvMsg <$> dec_cm l
    | 2 => EnvFull <$> dec_full l
    | 4 => EnvStatus <$> dec_status l
    | _ => EnvOther <$> dec_other i l
    end.
  Definition dec_env (l : list field) : option (option envelope) := g_oneof dec_env1 [1; 2; 3; 4; 5; 6] l.

  (** What the gossip task hands on: the shard and the message encoded again. *)
  Inductive event := EvMsg (shard : N) (b : bytes) | EvFull (shard : N) (b : bytes) | EvStatus (shard : N) (b : bytes) | EvOther (o : other).
  (** proto/src/lib.rs:183-201 [shard_id]. *)
  Definition cm_shard (m : pcm) : option N :=
    match pc_body m with
    | Some (PBVote v) => fst <$> pv_height v
    | Some (PBProp p) => fst <$> pp_height p
    | None => None
    end.
  (** gossip.rs:1152-1260 [map_gossip_bytes_to_system_message]; a proposal's [height()] unwraps. *)
  Definition gossip_in (b : bytes) : res werr (option event) :=
    match g_msg dec_env b with
    | None => Ok None
    | Some None => Ok None
    | Some (Some (EnvOther o)) => Ok (Some (EvOther o))
    | Some (Some (EnvFull p)) =>
        match fp_height p with Some h => Ok (Some (EvFull h.1 (enc_fields (enc_full p)))) | None => Panic end
    | Some (Some (EnvMsg m)) =>
        match cm_shard m with Some s => Ok (Some (EvMsg s (enc_fields (enc_cm m)))) | None => Ok None end
    | Some (Some (EnvStatus s)) =>
        match ps_height s with Some h => Ok (Some (EvStatus h.1 (enc_fields (enc_status s)))) | None => Ok None end
    end.
  (** network_connector.rs:185-255: what the actors of the shard get. *)
  Inductive delivery := DMsg (m : cmsg) | DFull (stream : bytes) (p : full) | DStatus (s : status) | DOther (o : other).
  (** snapchain_codec.rs:97-112. *)
  Definition decode_stream (b : bytes) : res werr (bytes * full) :=
    match g_msg dec_full b with
    | None => Err WDecode
    | Some p => match fp_height p with Some h => Ok (be 8 h.2 ++ be 8 (u64_of (fp_round p)), p) | None => Panic end
    end.
  Definition deliver (e : event) : res werr delivery :=
    match e with
    | EvMsg _ b => match decode_msg b with Ok m => Ok (DMsg m) | Err e => Err e | Panic => Panic end
    | EvFull _ b => match decode_stream b with Ok (s, p) => Ok (DFull s p) | Err e => Err e | Panic => Panic end
    | EvStatus _ b => match decode_status peer_ok b with Ok s => Ok (DStatus s) | Err e => Err e | Panic => Panic end
    | EvOther o => Ok (DOther o)
    end.
  (** Both steps: what bytes from a peer become. *)
  Definition network (b : bytes) : res werr (option delivery) :=
    match gossip_in b with
    | Ok None => Ok None
    | Ok (Some e) => match deliver e with Ok d => Ok (Some d) | Err e => Err e | Panic => Panic end
    | Err e => Err e
    | Panic => Panic
    end.
  (** gossip.rs:1344-1456: what is published. *)
  Definition gossip_msg (m : cmsg) : bytes := enc_fields (f_sub 1 (Some (enc_cm (cmsg_proto m)))).
  Definition gossip_full (p : full) : bytes := enc_fields (f_sub 2 (Some (enc_full p))).
  Definition gossip_status (s : status) : bytes :=
    enc_fields (f_sub 4 (Some (enc_status (PStatus (st_peer s) (Some (st_height s)) (Some (st_min s)))))).
End Gossip.
