(** Mempool rate limits: src/mempool/mempool.rs:44-250, 701-740, 1014-1087.
    Time is in nanoseconds since some start. *)
From Verif Require Export Mempool.
#[local] Open Scope N_scope.

Definition SEC : N := 1000000000.
Definition MINUTE : N := 60 * SEC.
Definition HOUR : N := 3600 * SEC.

(** ** The external pieces *)

(** Crate governor 0.10.4, direct limiter (GCRA), read from its documented algorithm, not in /repo: [lm_t] is the time
    per cell, [lm_burst] the burst size, [lm_tat] the theoretical arrival time. *)
Record limiter := Lim { lm_t : N; lm_burst : N; lm_tat : N }.
(** [Quota::per_hour(n)] / [Quota::per_minute(n)] with [RateLimiter::direct] at time [now]. *)
Definition direct (period n now : N) : limiter := Lim (period / n) n (now + period / n).
(** [RateLimiter::check]. *)
Definition check (l : limiter) (now : N) : bool * limiter :=
  if now <? lm_tat l - lm_t l * lm_burst l then (false, l)
  else (true, Lim (lm_t l) (lm_burst l) (N.max (lm_tat l) now + lm_t l)).

(** Crate moka 0.12: a cached value with the time of its last access; it is gone once [tti] has passed since then. *)
Notation entry := (option (limiter * N)).
Definition alive (tti now : N) (e : entry) : entry :=
  match e with Some (l, last) => if last + tti <=? now then None else Some (l, last) | None => None end.

(** ** [consume_for_fid] (mempool.rs:113-125, 161-176, 213-240): look the limiter up or create it from the quota at that
    moment ([None]: no storage, refuse and cache nothing), then take a cell. *)
Definition consume (tti period : N) (quota : option N) (now : N) (e : entry) : bool * entry :=
  match alive tti now e with
  | Some (l, _) => let '(b, l') := check l now in (b, Some (l', now))
  | None =>
      match quota with
      | None => (false, None)
      | Some n => let '(b, l') := check (direct period n now) now in (b, Some (l', now))
      end
  end.

(** mempool.rs:92-111: a tenth of the storage allowance, at least 100; none without storage. *)
Definition store_quota (allowance : N) : option N := if allowance =? 0 then None else Some (N.max 100 (allowance / 10)).
(** mempool.rs:213-232 ([saturating_mul] on u32). *)
Definition live_quota (units : N) : option N := if units =? 0 then None else Some (N.min (units * 5000) (2 ^ 32 - 1)).

Definition STORE_TTI : N := (60 * 2 * 2) * SEC. (* mempool.rs:54 *)
Definition KEY_TTI : N := 120 * SEC. (* mempool.rs:152 *)
Definition LIVE_TTI : N := (60 * 60 * 2) * SEC. (* mempool.rs:206 *)

(** The three caches of the mempool. Their capacity of 1,000,000 entries is a [RDrop] from outside. *)
Record rls := Rls { rl_store : gmap N (limiter * N); rl_key : gmap N (limiter * N); rl_live : gmap N (limiter * N) }.
Definition rls_init : rls := Rls ∅ ∅ ∅.
Definition is_key_add (u : umsg) : bool := match um_body u with BKeyAdd => true | _ => false end.

Definition put (f : N) (e : entry) (m : gmap N (limiter * N)) : gmap N (limiter * N) :=
  match e with Some x => <[f := x]> m | None => delete f m end.

(** mempool.rs:701-740 [message_exceeds_rate_limits] for a user message; true = refuse. *)
Definition exceeds (enabled : bool) (now allowance units : N) (u : umsg) (s : rls) : bool * rls :=
  let f := um_fid u in
  let '(kb, s) :=
    if is_key_add u then
      let '(b, e) := consume KEY_TTI MINUTE (Some 1) now (rl_key s !! f) in (negb b, Rls (rl_store s) (put f e (rl_key s)) (rl_live s))
    else (false, s) in
  if kb then (true, s)
  else if is_live_at u then
    let '(b, e) := consume LIVE_TTI HOUR (live_quota units) now (rl_live s !! f) in (negb b, Rls (rl_store s) (rl_key s) (put f e (rl_live s)))
  else if enabled then
    let '(b, e) := consume STORE_TTI HOUR (store_quota allowance) now (rl_store s !! f) in (negb b, Rls (put f e (rl_store s)) (rl_key s) (rl_live s))
  else (false, s).

(** Events: a user message reaching the check, with the storage allowance and units its account has then; and the
    dropping of an account's limiters when rent or a loan commits (mempool.rs:1020-1036, 1058-1066), or by capacity. *)
Inductive rev := RMsg (now allowance units : N) (u : umsg) | RDrop (fid : N).
Definition rstep (enabled : bool) (s : rls) (ev : rev) : bool * rls :=
  match ev with
  | RMsg now a un u => let '(ex, s') := exceeds enabled now a un u s in (negb ex, s')
  | RDrop f => (false, Rls (delete f (rl_store s)) (rl_key s) (delete f (rl_live s)))
  end.
(** Runs to the final state and, for each event, whether a message was admitted. *)
Fixpoint rrun (enabled : bool) (s : rls) (evs : list rev) : rls * list bool :=
  match evs with
  | [] => (s, [])
  | ev :: r => let '(b, s1) := rstep enabled s ev in let '(s2, bs) := rrun enabled s1 r in (s2, b :: bs)
  end.
