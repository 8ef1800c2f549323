(** Who may call the node: src/network/rpc_extensions.rs:157-201, src/network/server.rs:681-703, 1466-1471, 1533-1541,
    src/network/admin_server.rs:64-70, 85-312, src/main.rs:62-110.

    Strings are byte lists. The base64 and UTF-8 decoders are one oracle [dec] (an error of either is [None]). A header that is
    not a printable string is refused by [to_str]; it is [HBad] here, and white space in the others is space or tab. A map of
    users is a function; the order of insertion is that of the configuration string. *)
From Verif Require Export Base.
From stdpp Require Export list.
#[local] Open Scope N_scope.

(** Rust's [str::split]: always at least one piece. *)
Fixpoint split (c : N) (l : bytes) : list bytes :=
  match l with
  | [] => [[]]
  | x :: r =>
      if x =? c then [] :: split c r
      else match split c r with p :: ps => (x :: p) :: ps | [] => [[x]] end
  end.
(** Rust's [str::split_whitespace]: the non-empty pieces between white space. *)
Definition is_ws (x : N) : bool := (x =? 32) || (x =? 9).
Fixpoint words_go (cur : bytes) (l : bytes) : list bytes :=
  match l with
  | [] => match cur with [] => [] | _ => [rev cur] end
  | x :: r => if is_ws x then match cur with [] => words_go [] r | _ => rev cur :: words_go [] r end else words_go (x :: cur) r
  end.
Definition words (l : bytes) : list bytes := words_go [] l.

Definition COMMA : N := 44.
Definition COLON : N := 58.
Definition BASIC : bytes := [66; 97; 115; 105; 99].

(** server.rs:681-690 and admin_server.rs:64-70: entries with exactly one colon; a later entry replaces an earlier one. *)
Definition entry (e : bytes) : option (bytes * bytes) := match split COLON e with [u; p] => Some (u, p) | _ => None end.
Definition users := list (bytes * bytes).
Definition parse_auth (cfg : bytes) : users := omap entry (split COMMA cfg).
Fixpoint lookup_user (us : users) (u : bytes) : option bytes :=
  match us with
  | [] => None
  | (u', p) :: r => match lookup_user r u with Some q => Some q | None => if bool_decide (u' = u) then Some p else None end
  end.

Inductive header := HNone | HBad | HText (h : bytes).
(** rpc_extensions.rs:157-201 [authenticate_request]. *)
Definition authenticate (dec : bytes -> option bytes) (us : users) (h : header) : bool :=
  match us with
  | [] => true
  | _ =>
      match h with
      | HText h =>
          match words h with
          | [w; x] =>
              if bool_decide (w = BASIC) then
                match dec x with
                | Some d => match split COLON d with [u; p] => bool_decide (lookup_user us u = Some p) | _ => false end
                | None => false
                end
              else false
          | _ => false
          end
      | _ => false
      end
  end.

(** ** The calls *)
Inductive call :=
| CSubmit | CSubmitBulk (feature : bool)  (* server.rs:1459-1526, 1529-1541 *)
| CMeshView | CMeshTopology (* server.rs:3706-3774 *)
| CRead (* every other call of the hub service *)
| CAdminSnapshot | CAdminMigrate (* admin_server.rs:262-312 *)
| CAdminRetry (* 193-259: retry_onchain_events, retry_fname_events *)
| CAdminDebug. (* 92-190: submit_on_chain_event, submit_user_name_proof *)
(** Configuration: [rpc_auth], [admin_rpc_auth], and whether the network is a devnet (admin_server.rs:85-90). *)
Record acfg := ACfg { a_rpc : bytes; a_admin : bytes; a_devnet : bool }.
Inductive gate := GServed | GUnauthenticated | GDenied | GInvalid | GNotMounted.
(** admin_server.rs:80-82 [enabled]; the admin service is only mounted when enabled (main.rs:128-131). *)
Definition admin_enabled (c : acfg) : bool := match parse_auth (a_admin c) with [] => false | _ => true end.
Definition guard_call (dec : bytes -> option bytes) (c : acfg) (k : call) (h : header) : gate :=
  let ck us := if authenticate dec us h then GServed else GUnauthenticated in
  match k with
  | CSubmit => ck (parse_auth (a_rpc c))
  | CSubmitBulk f => if f then ck (parse_auth (a_rpc c)) else GInvalid
  | CMeshView | CMeshTopology => ck (parse_auth (a_admin c))
  | CRead => GServed
  | CAdminSnapshot | CAdminMigrate => if admin_enabled c then ck (parse_auth (a_admin c)) else GNotMounted
  | CAdminRetry => if admin_enabled c then GServed else GNotMounted
  | CAdminDebug => if admin_enabled c then if a_devnet c then GServed else GDenied else GNotMounted
  end.

(** ** The debug submissions (admin_server.rs:107-135, 158-189) *)
Inductive dchan := DFull | DSent (ack : option (option N)). (* the answer of the mempool: none, accepted, or an error code *)
Definition debug_submit (fid : N) (c : dchan) : option unit :=
  if fid =? 0 then None
  else match c with DFull => None | DSent None => None | DSent (Some _) => Some tt end.
