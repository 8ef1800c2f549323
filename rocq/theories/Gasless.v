(** Gasless (off-chain) keys: src/storage/store/account/{gasless_key_merge,key_add_store,key_nonce_store,
    key_last_used_at_store,active_key}.rs, the static checks of src/core/validations/key.rs:366-444 and the use of keys
    in validate_user_message (engine.rs:2096-2221, block_engine.rs:964-1200).

    The database rows are modelled as typed maps, one per row kind (the key layouts [23, postfix] ++ ... are disjoint,
    see [Codec]); reads go through the transaction batch, so batch and database are one state. Fids in keys are truncated
    to 32 bits by [make_fid_key]. A failed operation leaves the state alone: no write precedes a failing check. *)
From Verif Require Export Base.
From stdpp Require Export gmap.
#[local] Open Scope N_scope.

Definition w32 (f : N) : N := f mod 2 ^ 32.

(** ** Messages *)

(** A KEY_ADD message: the fields of [KeyAddBody] used below and the envelope fields [fid], [timestamp]. [ka_blob]
    stands for the remaining bytes (signature, metadata, hash). *)
Record kadd := KAdd { ka_fid : N; ka_ts : N; ka_key : bytes; ka_scopes : list Z; ka_ttl : N; ka_nonce : N; ka_deadline : N; ka_blob : bytes }.
(** A KEY_REMOVE message. *)
Record krem := KRem { kr_fid : N; kr_ts : N; kr_key : bytes; kr_sigtype : N; kr_nonce : N; kr_deadline : N; kr_signer : bytes; kr_blob : bytes }.
(** Any other user message: who, signed by which key, type, timestamp. *)
Record kuse := KUse { ku_fid : N; ku_signer : bytes; ku_type : N; ku_ts : N }.

Definition ED25519_LEN : nat := 32.
Definition MAX_KEY_TTL : N := 90 * 24 * 60 * 60. (* key.rs:48 *)
Definition MAX_KEYS : N := 1000. (* key.rs:54 *)
Definition MAX_SCOPES : nat := 16. (* key.rs:69 *)

(** key.rs:366-408 [validate_key_add_scopes]: admissible message types. *)
Definition scope_ok (z : Z) : bool := existsb (Z.eqb z) [1;2;3;4;5;6;14;7;8;11;12;13;15]%Z.
Definition scopes_ok (l : list Z) : bool := negb (Nat.eqb (length l) 0) && Nat.leb (length l) MAX_SCOPES && forallb scope_ok l.
(** key.rs:410-431 [validate_key_add_body] (key type, metadata type and non-empty metadata are left out). *)
Definition add_body_ok (m : kadd) : bool :=
  Nat.eqb (length (ka_key m)) ED25519_LEN && negb (ka_deadline m =? 0) && negb (ka_ttl m =? 0) && (ka_ttl m <=? MAX_KEY_TTL) && scopes_ok (ka_scopes m).
(** key.rs:433-444. *)
Definition rem_body_ok (m : krem) : bool :=
  Nat.eqb (length (kr_key m)) ED25519_LEN && ((kr_sigtype m =? 1) || (kr_sigtype m =? 2)) && negb (kr_deadline m =? 0).

(** ** State *)

(** key_add_store.rs:95-101 [GaslessKeyRecord]. *)
Record grec := GRec { r_msg : kadd; r_req : N }.
Record gst := GSt {
  g_rec : gmap (N * bytes) grec;   (* [23,105] fid key *)
  g_own : gmap bytes N;            (* [23,106] key -> fid *)
  g_last : gmap (N * bytes) N;     (* [23,104] fid key -> last_used_at *)
  g_cnt : gmap N N;                (* [23,107] fid -> count *)
  g_un : gmap N N;                 (* [23,102] fid -> user nonce *)
  g_an : gmap N N }.               (* [23,103] app fid -> app nonce *)
Definition g_init : gst := GSt ∅ ∅ ∅ ∅ ∅ ∅.

(** What the on-chain event store answers at the moment: custody address of a fid, whether a key is an active on-chain
    signer of a fid. *)
Record genv := GEnv { ge_custody : N -> option bytes; ge_signer : N -> bytes -> bool }.

Inductive gerr := EInvalidBody | EMetadata | EMetadataExpired | ERequestFid | ECustodyMismatch | ERecover | EMissingFid | EBadSignature
  | EOnchain | EOtherFid | EInconsistent | EOtherApp | ECap | ENonce | EKeyLen | ENotRegistered | ESigType
  | EMissingSigner | EOutOfScope | ELastUsedMissing | EExpired.

(** key_nonce_store.rs:95-114 [check_and_set_nonce]; missing = 0. *)
Definition nonce_of (m : gmap N N) (f : N) : N := default 0 (m !! w32 f).
Definition cas_nonce (m : gmap N N) (f new : N) : option (gmap N N) := if new <=? nonce_of m f then None else Some (<[w32 f := new]> m).

(** key_add_store.rs:270-330: counter, absent = 0; saturating; zero is deleted. *)
Definition count_of (m : gmap N N) (f : N) : N := default 0 (m !! w32 f).
Definition incr_count (m : gmap N N) (f : N) : gmap N N := <[w32 f := N.min (count_of m f + 1) (2 ^ 32 - 1)]> m.
Definition decr_count (m : gmap N N) (f : N) : gmap N N :=
  let n := count_of m f - 1 in if n =? 0 then delete (w32 f) m else <[w32 f := n]> m.

Section Merge.
  (** Cryptography: decoding and signature check of the SignedKeyRequest metadata (key.rs:305-348) giving
      (requestFid, requestSigner, deadline), and EIP-712 recovery of the custody signer. *)
  Variable meta : kadd -> option (N * bytes * N).
  Variable rec_add : kadd -> option bytes.
  Variable rec_rem : krem -> option bytes.

  (** gasless_key_merge.rs:72-270 [merge_key_add]; returns the superseded KEY_ADD. *)
  Definition merge_key_add (e : genv) (replay : bool) (s : gst) (m : kadd) : gerr + (gst * option kadd) :=
    match meta m with
    | None => inl EMetadata
    | Some (req, rsigner, deadline) =>
      if deadline <? ka_ts m then inl EMetadataExpired else
      if negb replay && match ge_custody e req with Some _ => false | None => true end then inl ERequestFid else
      if negb replay && negb (bool_decide (ge_custody e req = Some rsigner)) then inl ECustodyMismatch else
      match rec_add m with
      | None => inl ERecover
      | Some addr =>
        match ge_custody e (ka_fid m) with
        | None => inl EMissingFid
        | Some c =>
          if negb (bool_decide (c = addr)) then inl EBadSignature else
          if ge_signer e (ka_fid m) (ka_key m) then inl EOnchain else
          if negb (Nat.eqb (length (ka_key m)) ED25519_LEN) then inl EKeyLen else
          let k := ka_key m in let f := ka_fid m in
          match (match g_own s !! k with
                 | None => inr None
                 | Some o =>
                     if negb (o =? f) then inl EOtherFid
                     else match g_rec s !! (w32 f, k) with
                          | None => inl EInconsistent
                          | Some r => if negb (r_req r =? req) then inl EOtherApp else inr (Some r)
                          end
                 end) with
          | inl err => inl err
          | inr prior =>
            if match prior with None => MAX_KEYS <=? count_of (g_cnt s) f | Some _ => false end then inl ECap else
            match cas_nonce (g_un s) f (ka_nonce m) with
            | None => inl ENonce
            | Some un =>
                inr (GSt (<[(w32 f, k) := GRec m req]> (g_rec s)) (<[k := w32 f]> (g_own s)) (<[(w32 f, k) := ka_ts m]> (g_last s))
                         (match prior with None => incr_count (g_cnt s) f | Some _ => g_cnt s end) un (g_an s),
                     r_msg <$> prior)
            end
          end
        end
      end
    end.

  (** gasless_key_merge.rs:304-392 [merge_key_remove]; returns the removed KEY_ADD. *)
  Definition merge_key_remove (e : genv) (s : gst) (m : krem) : gerr + (gst * option kadd) :=
    let k := kr_key m in let f := kr_fid m in
    if negb (Nat.eqb (length k) ED25519_LEN) then inl EKeyLen else
    match g_rec s !! (w32 f, k) with
    | None => inl ENotRegistered
    | Some r =>
      match (if kr_sigtype m =? 1 then
               match rec_rem m with
               | None => inl ERecover
               | Some addr =>
                   match ge_custody e f with
                   | None => inl EMissingFid
                   | Some c => if negb (bool_decide (c = addr)) then inl EBadSignature
                               else match cas_nonce (g_un s) f (kr_nonce m) with None => inl ENonce | Some un => inr (un, g_an s) end
                   end
               end
             else if kr_sigtype m =? 2 then
               if negb (bool_decide (kr_signer m = k)) then inl EBadSignature
               else match cas_nonce (g_an s) (r_req r) (kr_nonce m) with None => inl ENonce | Some an => inr (g_un s, an) end
             else inl ESigType) with
      | inl err => inl err
      | inr (un, an) =>
          inr (GSt (delete (w32 f, k) (g_rec s)) (delete k (g_own s)) (delete (w32 f, k) (g_last s)) (decr_count (g_cnt s) f) un an,
               Some (r_msg r))
      end
    end.

  (** active_key.rs:70-104: the scope mask, as a 64-bit number. *)
  Definition scope_bit (z : Z) : N := if (0 <=? z)%Z && (z <? 64)%Z then 2 ^ Z.to_N z else 0.
  Definition scopes_mask (l : list Z) : N := foldl (fun m z => N.lor m (scope_bit z)) 0 l.
  Inductive akey := AOnchain | AGasless (mask ttl : N).
  (** active_key.rs:58-68 [admits]. *)
  Definition admits (a : akey) (ty : N) : bool :=
    match a with AOnchain => true | AGasless mask _ => negb (N.land mask (scope_bit (Z.of_N ty)) =? 0) end.
  (** active_key.rs:111-143 [get_active_key]; a signer of another length is a storage error, reported as missing signer. *)
  Definition active_key (e : genv) (s : gst) (f : N) (signer : bytes) : option akey :=
    if ge_signer e f signer then Some AOnchain
    else if negb (Nat.eqb (length signer) ED25519_LEN) then None
    else match g_rec s !! (w32 f, signer) with
         | Some r => Some (AGasless (scopes_mask (ka_scopes (r_msg r))) (ka_ttl (r_msg r)))
         | None => None
         end.

  Definition THROTTLE : N := 300.
  (** key_last_used_at_store.rs:161-226 [check_and_bump_last_used_at]. *)
  Definition bump (s : gst) (f : N) (k : bytes) (ttl ts block_ts : N) : gerr + gst :=
    match g_last s !! (w32 f, k) with
    | None => inl ELastUsedMissing
    | Some st =>
        if st + ttl <? block_ts then inl EExpired
        else if st + THROTTLE <? ts then inr (GSt (g_rec s) (g_own s) (<[(w32 f, k) := ts]> (g_last s)) (g_cnt s) (g_un s) (g_an s))
        else inr s
    end.
  (** engine.rs:2096-2221: signer check of a message that is not a key message. The other checks of
      validate_user_message in between do not touch this state; the bump stays even if the message is refused later. *)
  Definition use_key (e : genv) (s : gst) (u : kuse) (block_ts : N) : gerr + gst :=
    match active_key e s (ku_fid u) (ku_signer u) with
    | None => inl EMissingSigner
    | Some a =>
        if negb (admits a (ku_type u)) then inl EOutOfScope
        else match a with
             | AGasless _ ttl => if ttl =? 0 then inr s else bump s (ku_fid u) (ku_signer u) ttl (ku_ts u) block_ts
             | AOnchain => inr s
             end
    end.

  (** One message. [GAdd]/[GRem] with [replay = false] is admission on the block shard (static checks, then merge);
      with [replay = true] it is the replay of a block event on a data shard (merge only). *)
  Inductive gop := GAdd (e : genv) (replay : bool) (m : kadd) | GRem (e : genv) (replay : bool) (m : krem) | GUse (e : genv) (u : kuse) (block_ts : N).
  Inductive gout := GOk (del : option kadd) | GErr (err : gerr).
  Definition gstep (s : gst) (o : gop) : gst * gout :=
    match o with
    | GAdd e rp m =>
        if negb rp && negb (add_body_ok m) then (s, GErr EInvalidBody)
        else match merge_key_add e rp s m with inl err => (s, GErr err) | inr (s', d) => (s', GOk d) end
    | GRem e rp m =>
        if negb rp && negb (rem_body_ok m) then (s, GErr EInvalidBody)
        else match merge_key_remove e s m with inl err => (s, GErr err) | inr (s', d) => (s', GOk d) end
    | GUse e u bt => match use_key e s u bt with inl err => (s, GErr err) | inr s' => (s', GOk None) end
    end.
  Fixpoint grun (s : gst) (os : list gop) : gst * list gout :=
    match os with [] => (s, []) | o :: r => let '(s1, x) := gstep s o in let '(s2, xs) := grun s1 r in (s2, x :: xs) end.
End Merge.
