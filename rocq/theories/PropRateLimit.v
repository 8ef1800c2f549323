(** Property C41: rate limits. A history is a past [pre] followed by a window [win] from time [a] to time [b]. *)
From Verif Require Import RateLimitProofs.
From Coq Require Import ZifyN ZifyNat ZifyBool.
#[local] Open Scope N_scope.

Definition admitted_in (en : bool) (P : rev -> bool) (pre win : list rev) : N :=
  let s := (rrun en rls_init pre).1 in N.of_nat (adm P win (rrun en s win).2).
Definition units_upto (f U : N) (evs : list rev) : bool :=
  forallb (fun ev => match ev with RMsg _ _ un u => negb (um_fid u =? f) || (un <=? U) | _ => true end) evs.
Definition allowance_upto (f A : N) (evs : list rev) : bool :=
  forallb (fun ev => match ev with RMsg _ al _ u => negb (um_fid u =? f) || (al <=? A) | _ => true end) evs.

(** Presence messages: at most the hourly quota (5000 per unit), spread evenly, plus one burst of it; each dropping of
    the limiter (rent bought, storage lent) allows one more burst. *)
Theorem C41_live_at_bound : forall en f U pre win a b, 0 < U -> U * 5000 < 2 ^ 32 ->
  rtimed 0 a pre -> rtimed a b win -> units_upto f U (pre ++ win) = true ->
  admitted_in en (is_live_of f) pre win * (HOUR / (5000 * U)) <= (b - a) + (1 + drops_of f win) * (HOUR + HOUR / 5000).
Proof.
  intros en f U pre win a b HU HU' H1 H2 Hu. unfold admitted_in. cbv zeta.
  pose proof (live_proj en f pre rls_init) as P1. destruct (rrun en rls_init pre) as [s bs1]. cbn [fst].
  pose proof (live_proj en f win s) as P2. destruct (rrun en s win) as [s' bs2]. cbn [snd].
  assert (Hq : forall evs, units_upto f U evs = true -> quotas_ok HOUR (HOUR / (5000 * U)) (HOUR / 5000) (flat_map (live_acc f) evs)).
  { intros evs He x n Hin. apply elem_of_list_In, in_flat_map in Hin as (ev & Hev & Hin).
    unfold units_upto in He. rewrite forallb_forall in He. specialize (He ev Hev).
    destruct ev as [y al un u|f']; cbn [live_acc] in Hin.
    - destruct (is_live_at u && (um_fid u =? f)) eqn:Ef; [|done]. apply andb_prop in Ef as [_ Ef]. rewrite Ef in He. cbn in He.
      destruct Hin as [Hin|[]]. injection Hin as -> Hq. unfold live_quota in Hq. destruct (N.eqb_spec un 0); [done|]. injection Hq as Hq.
      change (2 ^ 32) with 4294967296 in *. assert (Hn : 5000 <= n <= 5000 * U) by lia.
      split; [lia|]. split; apply N.div_le_compat_l; lia.
    - destruct (f' =? f); [destruct Hin as [|[]]; done|done]. }
  unfold units_upto in Hu. rewrite forallb_app in Hu. apply andb_prop in Hu as [Hu1 Hu2].
  assert (Hti : 0 < LIVE_TTI) by done. assert (HC : HOUR + HOUR / 5000 - LIVE_TTI <= 0) by done.
  pose proof (window_bound LIVE_TTI HOUR (HOUR / (5000 * U)) (HOUR / 5000) 0 Hti HC (flat_map (live_acc f) pre) (flat_map (live_acc f) win) a b) as Hw.
  specialize (Hw (live_timed f pre 0 0 a ltac:(lia) H1) (live_timed f win a a b ltac:(lia) H2) (Hq _ Hu1) (Hq _ Hu2)).
  change (rl_live rls_init !! f) with (@None (limiter * N)) in P1. rewrite P1 in Hw. cbn [fst] in Hw. rewrite P2 in Hw. cbn [snd] in Hw.
  rewrite live_drops in Hw. rewrite N.mul_0_r, N.add_0_r in Hw. exact Hw.
Qed.

(** More units never mean a lower presence quota, also where 5000 per unit passes 32 bits. *)
Theorem C41_live_quota_monotone : forall u u' q q', u <= u' -> live_quota u = Some q -> live_quota u' = Some q' -> q <= q' /\ 5000 <= q.
Proof.
  intros u u' q q' H E E'. unfold live_quota in *. destruct (N.eqb_spec u 0); [done|]. destruct (N.eqb_spec u' 0); [done|].
  injection E as <-. injection E' as <-. change (2 ^ 32 - 1) with 4294967295. lia.
Qed.
Example C41_live_quota_ex : live_quota 858993 = Some 4294965000 /\ live_quota 858994 = Some 4294967295 /\ live_quota 0 = None.
Proof. by vm_compute. Qed.

(** KEY_ADD: at most two at once, and one more per full minute. *)
Theorem C41_key_add_bound : forall en f pre win a b, rtimed 0 a pre -> rtimed a b win ->
  admitted_in en (is_key_of f) pre win <= 2 + (b - a) / MINUTE.
Proof.
  intros en f pre win a b H1 H2. unfold admitted_in. cbv zeta.
  pose proof (key_proj en f pre rls_init) as P1. destruct (rrun en rls_init pre) as [s bs1]. cbn [fst].
  pose proof (key_proj en f win s) as P2. destruct (rrun en s win) as [s' bs2]. cbn [snd].
  destruct P1 as (n1 & P1 & _), P2 as (n2 & P2 & Hn).
  assert (Hq : forall evs, quotas_ok MINUTE MINUTE MINUTE (flat_map (key_acc f) evs)).
  { intros evs x n Hin. apply elem_of_list_In, in_flat_map in Hin as (ev & Hev & Hin).
    destruct ev as [y al un u|f']; cbn [key_acc] in Hin; [|done].
    destruct (is_key_add u && (um_fid u =? f)); [|done]. destruct Hin as [Hin|[]]. injection Hin as -> <-. by vm_compute. }
  assert (Hti : 0 < KEY_TTI) by done. assert (HC : MINUTE + MINUTE - KEY_TTI <= 0) by done.
  pose proof (window_bound KEY_TTI MINUTE MINUTE MINUTE 0 Hti HC (flat_map (key_acc f) pre) (flat_map (key_acc f) win) a b) as Hw.
  specialize (Hw (key_timed f pre 0 0 a ltac:(lia) H1) (key_timed f win a a b ltac:(lia) H2) (Hq _) (Hq _)).
  change (rl_key rls_init !! f) with (@None (limiter * N)) in P1. rewrite P1 in Hw. cbn [fst] in Hw. rewrite P2 in Hw. cbn [snd] in Hw.
  rewrite key_drops, N.mul_0_r, N.add_0_r in Hw. change (2 + (b - a) / MINUTE) with (2 + (b - a) / 60000000000).
  change MINUTE with 60000000000 in Hw. lia.
Qed.

(** The storage limiter: the even rate, one burst, one more burst per dropping of the limiter, and (because idle
    limiters are forgotten after four minutes) most of a burst for each such pause. *)
Theorem C41_store_bound_partial : forall f A pre win a b,
  let n := N.max 100 (A / 10) in let P := HOUR + HOUR / 100 in
  n < 2 ^ 32 -> rtimed 0 a pre -> rtimed a b win -> allowance_upto f A (pre ++ win) = true ->
  admitted_in true (is_store_of f) pre win * (HOUR / n) <=
  (b - a) + (1 + drops_of f win) * P + (1 + (b - a) / STORE_TTI) * (P - STORE_TTI).
Proof.
  intros f A pre win a b n P Hn32 H1 H2 Hu. unfold admitted_in. cbv zeta.
  pose proof (store_proj f pre rls_init) as P1. destruct (rrun true rls_init pre) as [s bs1]. cbn [fst].
  pose proof (store_proj f win s) as P2. destruct (rrun true s win) as [s' bs2]. cbn [snd].
  destruct P1 as (l1 & P1 & Q1 & _ & T1), P2 as (l2 & P2 & Q2 & D2 & T2).
  assert (Hq : forall evs l, allowance_upto f A evs = true ->
    (forall x q, Acc x q ∈ l -> exists al un u, RMsg x al un u ∈ evs /\ um_fid u = f /\ q = store_quota al) -> quotas_ok HOUR (HOUR / n) (HOUR / 100) l).
  { intros evs l He Hl x m Hin. destruct (Hl _ _ Hin) as (al & un & u & Hev & Ef & Eq).
    unfold allowance_upto in He. rewrite forallb_forall in He. apply elem_of_list_In in Hev. specialize (He _ Hev). cbn in He.
    rewrite Ef, N.eqb_refl in He. cbn in He. unfold store_quota in Eq. destruct (N.eqb_spec al 0); [done|]. injection Eq as Eq.
    assert (Hd : al / 10 <= A / 10) by (apply N.div_le_mono; lia). assert (Hm : 100 <= m <= n) by (unfold n; lia).
    split; [lia|]. split; apply N.div_le_compat_l; lia. }
  unfold allowance_upto in Hu. rewrite forallb_app in Hu. apply andb_prop in Hu as [Hu1 Hu2].
  assert (Hti : 0 < STORE_TTI) by done. assert (HC : HOUR + HOUR / 100 - STORE_TTI <= P - STORE_TTI) by done.
  pose proof (window_bound STORE_TTI HOUR (HOUR / n) (HOUR / 100) (P - STORE_TTI) Hti HC l1 l2 a b) as Hw.
  specialize (Hw (T1 0 0 a ltac:(lia) H1) (T2 a a b ltac:(lia) H2) (Hq _ _ Hu1 Q1) (Hq _ _ Hu2 Q2)).
  change (rl_store rls_init !! f) with (@None (limiter * N)) in P1. rewrite P1 in Hw. cbn [fst] in Hw. rewrite P2 in Hw. cbn [snd] in Hw.
  rewrite D2 in Hw. exact Hw.
Qed.

(** "At most the hourly quota plus a burst per hour" fails for the storage limiter: pausing four minutes refills it.
    Here an account with quota 100 gets 300 messages in within eight minutes. *)
Definition cast (f : N) : umsg := UMsg f 1 0 [] BOther.
Definition burst (t : N) (k : nat) : list rev := repeat (RMsg t 1000 1 (cast 5)) k.
Theorem C41_hourly_quota_refuted : exists f A win b,
  rtimed 0 b win /\ b <= HOUR /\ drops_of f win = 0 /\ allowance_upto f A win = true /\ store_quota A = Some 100 /\
  2 * 100 + 1 < admitted_in true (is_store_of f) [] win.
Proof.
  exists 5, 1000, (burst 0 101 ++ burst (240 * SEC) 101 ++ burst (480 * SEC) 101), (480 * SEC).
  split; [vm_compute; repeat split; done|]. by vm_compute.
Qed.

(** Two KEY_ADDs less than a minute apart can both be admitted. *)
Theorem C41_key_add_spacing_refuted : exists f pre win a,
  rtimed 0 a pre /\ rtimed a a win /\ admitted_in false (is_key_of f) pre win = 2.
Proof.
  exists 5, [RMsg 0 0 0 (UMsg 5 16 0 [] BKeyAdd); RMsg (59 * SEC) 0 0 (UMsg 5 16 0 [] BKeyAdd)],
    [RMsg (178 * SEC) 0 0 (UMsg 5 16 0 [] BKeyAdd); RMsg (178 * SEC) 0 0 (UMsg 5 16 0 [] BKeyAdd)], (178 * SEC).
  split; [vm_compute; repeat split; done|]. split; [vm_compute; repeat split; done|]. by vm_compute.
Qed.

(** "KEY_REMOVE is never rate limited" fails when rate limits are enabled: an account whose other messages used the
    quota, or one without storage, cannot get its key removal in. *)
Definition key_remove (f : N) : umsg := UMsg f T_KEY_REMOVE 0 [] BOther.
Theorem C41_key_remove_limited_refuted :
  (exists f pre now, (exceeds true now 1000 1 (key_remove f) (rrun true rls_init pre).1).1 = true) /\
  (forall f now units s, rl_store s !! f = None -> (exceeds true now 0 units (key_remove f) s).1 = true).
Proof.
  split.
  - exists 5, (burst 0 100), 1. by vm_compute.
  - intros f now units s Hs. unfold exceeds. cbn [is_key_add is_live_at key_remove um_body um_fid]. rewrite Hs. done.
Qed.
(** With rate limits disabled (the default) only KEY_ADD and presence messages are ever refused. *)
Theorem C41_disabled : forall now a un u s, is_key_add u = false -> is_live_at u = false -> exceeds false now a un u s = (false, s).
Proof. intros now a un u s H1 H2. unfold exceeds. by rewrite H1, H2. Qed.
(** Presence messages do not use up the storage or KEY_ADD budget of any account. *)
Theorem C41_presence_separate : forall en now a un u s, is_live_at u = true ->
  rl_store (exceeds en now a un u s).2 = rl_store s /\ rl_key (exceeds en now a un u s).2 = rl_key s.
Proof.
  intros en now a un u s Hl. unfold exceeds. assert (is_key_add u = false) as -> by (unfold is_key_add, is_live_at in *; by destruct (um_body u)).
  rewrite Hl. by destruct (consume _ _ _ _ _).
Qed.
(** No account's messages use up another account's budget. *)
Theorem C41_accounts_separate : forall en now a un u s f, um_fid u <> f ->
  let s' := (exceeds en now a un u s).2 in
  rl_store s' !! f = rl_store s !! f /\ rl_key s' !! f = rl_key s !! f /\ rl_live s' !! f = rl_live s !! f.
Proof.
  intros en now a un u s f Hf. cbv zeta. unfold exceeds. destruct (is_key_add u).
  - destruct (consume KEY_TTI _ _ _ _) as [kb ke]. destruct (negb kb); cbn; [by rewrite put_ne|].
    destruct (is_live_at u).
    + destruct (consume LIVE_TTI _ _ _ _). cbn. by rewrite !put_ne.
    + destruct en; [|cbn; by rewrite put_ne]. destruct (consume STORE_TTI _ _ _ _). cbn. by rewrite !put_ne.
  - destruct (is_live_at u).
    + destruct (consume LIVE_TTI _ _ _ _). cbn. by rewrite !put_ne.
    + destruct en; [|done]. destruct (consume STORE_TTI _ _ _ _). cbn. by rewrite !put_ne.
Qed.

Example C41_example :
  let win := burst 0 150 ++ burst (30 * SEC) 3 ++ burst (72 * SEC) 4 in
  rtimed 0 (72 * SEC) win /\ allowance_upto 5 1000 win = true /\ admitted_in true (is_store_of 5) [] win = 102.
Proof. split; [vm_compute; repeat split; done|]. by vm_compute. Qed.

Print Assumptions C41_live_at_bound.
Print Assumptions C41_key_add_bound.
Print Assumptions C41_store_bound_partial.
Print Assumptions C41_hourly_quota_refuted.
Print Assumptions C41_key_add_spacing_refuted.
Print Assumptions C41_key_remove_limited_refuted.
Print Assumptions C41_accounts_separate.
