(** Properties C23-C25 (storage units, limits, expiry) and C59 (replay at another time). *)
From Verif Require Import StorageProofs.
From Coq Require Import ZifyN ZifyNat ZifyBool.
#[local] Open Scope N_scope.

(** ** C25: cohorts, from a table of dates *)

(** Dates (unix seconds) at which a new cohort starts. *)
Definition cohort_starts (mainnet : bool) : list N :=
  if mainnet then [1724889600; 1752685200; 1782147600] else [1724889600; 1752426000; 1781283600].
Definition cohort (mainnet : bool) (ts : N) : nat := length (filter (fun c => c <= ts) (cohort_starts mainnet)).
Definition cohort_class (c : nat) : utype := match c with O => Legacy | 1%nat => U2024 | _ => U2025 end.
(** Years of validity without and with the 2026 extension. *)
Definition cohort_years (extended : bool) (c : nat) : N :=
  match c with O => if extended then 4 else 3 | 1%nat => if extended then 3 else 2 | 2%nat => if extended then 2 else 1 | _ => 1 end.
Definition expiry (mainnet extended : bool) (ts : N) : N := ts + 31536000 * cohort_years extended (cohort mainnet ts).
Definition class_rank (u : utype) : N := match u with Legacy => 0 | U2024 => 1 | U2025 => 2 end.

Lemma cohort_cases mainnet ts : cohort mainnet ts =
  if ts <? LEGACY_CUTOFF then 0%nat else if ts <? cutoff_2024 mainnet then 1%nat else if ts <? cutoff_2025 mainnet then 2%nat else 3%nat.
Proof.
  unfold cohort, cohort_starts, LEGACY_CUTOFF, cutoff_2024, cutoff_2025. destruct mainnet;
  repeat match goal with |- context [?a <? ?b] => destruct (N.ltb_spec a b) end;
  repeat first [rewrite filter_nil|rewrite filter_cons_True by lia|rewrite filter_cons_False by lia]; try done; lia.
Qed.

(** Class and expiry are those of the cohort, as long as the expiry fits 32 bits (before February 2106); a rent is active
    exactly before its expiry. *)
Theorem C25_cohort_partial : forall mainnet v ts n now,
  let e := expiry mainnet (18 <=? v) ts in e < 2 ^ 32 -> now < 2 ^ 32 ->
  (forall u, units_for (from_event mainnet v ts n) u = if bool_decide (u = cohort_class (cohort mainnet ts)) then n else 0) /\
  s_inval (from_event mainnet v ts n) = e /\
  (is_active now (from_event mainnet v ts n) = true <-> now < e).
Proof.
  intros mainnet v ts n now e He Hnow. assert (Hts : ts < 2 ^ 32) by (unfold e, expiry in He; lia).
  assert (Hi : s_inval (from_event mainnet v ts n) = e).
  { assert (HY : YEAR = 31536000) by done. revert He. unfold e, expiry. clear e. rewrite cohort_cases. unfold from_event.
    replace (is_enabled v StorageExpiryExtension2026) with (18 <=? v) by done. rewrite (u32_small ts) by done. rewrite HY.
    destruct (18 <=? v), (ts <? LEGACY_CUTOFF), (ts <? cutoff_2024 mainnet), (ts <? cutoff_2025 mainnet); cbn [s_inval cohort_years];
      intros He; rewrite u32_small; lia. }
  split; [|split; [done|]].
  - intros u. rewrite cohort_cases. unfold from_event.
    destruct (ts <? LEGACY_CUTOFF), (ts <? cutoff_2024 mainnet), (ts <? cutoff_2025 mainnet), u; done.
  - unfold is_active. rewrite Hi, u32_small by done. apply N.ltb_lt.
Qed.
Theorem C25_class_monotone : forall mainnet ts ts', ts <= ts' ->
  class_rank (cohort_class (cohort mainnet ts)) <= class_rank (cohort_class (cohort mainnet ts')).
Proof.
  intros mainnet ts ts' H. rewrite !cohort_cases. unfold LEGACY_CUTOFF, cutoff_2024, cutoff_2025.
  destruct mainnet; repeat match goal with |- context [?a <? ?b] => destruct (N.ltb_spec a b) end; cbn; lia.
Qed.
(** A newer engine version only postpones expiry. *)
Theorem C25_extension_postpones : forall mainnet v v' ts n, v <= v' -> expiry mainnet (18 <=? v') ts < 2 ^ 32 ->
  s_inval (from_event mainnet v ts n) <= s_inval (from_event mainnet v' ts n).
Proof.
  intros mainnet v v' ts n Hv He.
  assert (Hle : expiry mainnet (18 <=? v) ts <= expiry mainnet (18 <=? v') ts).
  { unfold expiry. destruct (N.leb_spec 18 v), (N.leb_spec 18 v'); try lia.
    destruct (cohort mainnet ts) as [|[|[|?]]]; cbn; lia. }
  destruct (C25_cohort_partial mainnet v ts n 0) as (_ & -> & _); [lia|done|].
  destruct (C25_cohort_partial mainnet v' ts n 0) as (_ & -> & _); [lia|done|]. done.
Qed.
(** Not only the rent's own timestamp and network: the engine version at which it is looked at decides the expiry too. *)
Theorem C25_own_timestamp_only_refuted : exists mainnet v v' ts n now,
  is_active now (from_event mainnet v ts n) <> is_active now (from_event mainnet v' ts n).
Proof. exists true, 17, 18, 1700000000, 1, (1700000000 + 31536000 * 3). by vm_compute. Qed.
(** A rent bought later can expire earlier, with or without the extension. *)
Theorem C25_later_expires_later_refuted : forall v, exists ts ts', ts < ts' /\
  s_inval (from_event true v ts' 1) < s_inval (from_event true v ts 1).
Proof.
  intros v. exists (LEGACY_CUTOFF - 1), LEGACY_CUTOFF. split; [done|].
  unfold from_event. cbn [is_enabled]. destruct (18 <=? v); by vm_compute.
Qed.
(** From 2105 on the expiry wraps: the rent is never active. *)
Theorem C25_far_future_refuted : exists ts, ts < 2 ^ 32 /\ forall v now n, is_active now (from_event true v ts n) = false.
Proof.
  exists (2 ^ 32 - 31536000). split; [done|]. intros v now n. unfold is_active.
  replace (s_inval _) with 0; [apply N.ltb_ge; lia|]. unfold from_event. destruct (is_enabled v StorageExpiryExtension2026); by vm_compute.
Qed.
Example C25_ex : let v := 18 in cohort true 1750000000 = 1%nat /\ expiry true (18 <=? v) 1750000000 = 1844608000 /\
  is_active 1844607999 (from_event true v 1750000000 3) = true /\ is_active 1844608000 (from_event true v 1750000000 3) = false /\
  units_for (from_event true v 1750000000 3) U2024 = 3 /\
  cohort true 1752685199 = 1%nat /\ cohort false 1752685199 = 2%nat /\ cohort true 1782147600 = 3%nat.
Proof. by vm_compute. Qed.

(** ** C24 *)
Definition limit_sum (s : slot) (t : stype) : N :=
  limit_of Legacy t * s_legacy s + limit_of U2024 t * s_2024 s + limit_of U2025 t * s_2025 s.
Lemma max_messages_sum s t : limit_sum s t < 2 ^ 32 -> max_messages s t = limit_sum s t.
Proof.
  unfold limit_sum, max_messages. intros H. rewrite !(u32_small (_ * _)) by lia. rewrite u32_small by lia. lia.
Qed.
Lemma limit_le t u : limit_of u t <= 5000. Proof. by destruct u, t. Qed.
(** Exact, hence monotone, up to 858993 units in all (2^32 / 5000). *)
Theorem C24_limits_partial : forall s t, s_legacy s + s_2024 s + s_2025 s <= 858993 ->
  max_messages s t = limit_sum s t /\
  (forall s', s_legacy s' <= s_legacy s -> s_2024 s' <= s_2024 s -> s_2025 s' <= s_2025 s -> max_messages s' t <= max_messages s t) /\
  (t <> StNone -> (max_messages s t = 0 <-> s_legacy s = 0 /\ s_2024 s = 0 /\ s_2025 s = 0)).
Proof.
  intros s t Hs.
  assert (Hb : forall s, s_legacy s + s_2024 s + s_2025 s <= 858993 -> limit_sum s t < 2 ^ 32).
  { clear. intros s Hs. unfold limit_sum.
    pose proof (N.mul_le_mono_r _ _ (s_legacy s) (limit_le t Legacy)). pose proof (N.mul_le_mono_r _ _ (s_2024 s) (limit_le t U2024)).
    pose proof (N.mul_le_mono_r _ _ (s_2025 s) (limit_le t U2025)). change (2 ^ 32) with 4294967296. lia. }
  rewrite max_messages_sum by auto. split; [done|]. split.
  - intros s' H1 H2 H3. rewrite max_messages_sum by (apply Hb; lia). unfold limit_sum.
    pose proof (N.mul_le_mono_l _ _ (limit_of Legacy t) H1). pose proof (N.mul_le_mono_l _ _ (limit_of U2024 t) H2).
    pose proof (N.mul_le_mono_l _ _ (limit_of U2025 t) H3). lia.
  - intros Ht. unfold limit_sum. destruct t; cbn [limit_of]; done || lia.
Qed.
(** No units, no messages: at any width. *)
Theorem C24_no_units : forall i t, max_messages (Slot 0 0 0 i) t = 0.
Proof. intros i t. by destruct t. Qed.
(** One more unit can cut the limit from 4294965000 to 2704. *)
Theorem C24_overflow_refuted : exists n, max_messages (Slot (n + 1) 0 0 0) StCasts < 5000 /\ max_messages (Slot n 0 0 0) StCasts > 4000000000.
Proof. exists 858993. by vm_compute. Qed.
(** The published limits. *)
Example C24_ex : map (fun t => (limit_of Legacy t, limit_of U2024 t, limit_of U2025 t)) [StCasts; StLinks; StReactions; StUserData; StVerifications; StUsernameProofs; StStorageLends] =
  [(5000, 2000, 100); (2500, 1000, 200); (2500, 1000, 200); (50, 50, 25); (25, 25, 5); (5, 5, 2); (1, 1, 1)] /\
  max_messages (Slot 1 2 3 0) StCasts = 9300 /\ max_messages (Slot 1 2 3 0) StVerifications = 90.
Proof. by vm_compute. Qed.

(** ** C23 *)

(** In a state where every account still rents what it lent: no amount wraps, everyone may use own - lent + borrowed, and the
    amounts of all accounts together are the units rented and unexpired. *)
Theorem C23_conservation_partial : forall mainnet v now s F, NoDup F -> fids_in F s -> units_ok s -> u32 now < U32_MAX ->
  covered mainnet v now s -> (forall u, all_rented mainnet v now (st_rents s) u < 2 ^ 32) ->
  (forall f u, units_for (get_slot mainnet v now s f [] true true) u + lent (st_loans s) f u =
     rented mainnet v now (st_rents s) f u + borrowed (st_loans s) f u) /\
  (forall u, sumN (fun f => units_for (get_slot mainnet v now s f [] true true) u) F = all_rented mainnet v now (st_rents s) u).
Proof. exact covered_usable. Qed.

(** One block: lends by any accounts in any number, with one transaction per account and rent events not seen before. *)
Theorem C23_block_partial : forall mainnet v now, u32 now < U32_MAX -> forall db ts, fresh_block db ts -> units_ok db ->
  covered mainnet v now db -> (forall u, all_rented mainnet v now (st_rents (sblock mainnet v now db ts)) u < 2 ^ 32) ->
  covered mainnet v now (sblock mainnet v now db ts) /\ units_ok (sblock mainnet v now db ts).
Proof. exact block_covered. Qed.

(** Histories without expiry: every rent stored is active whenever a block is executed. *)
Definition unexpired (mainnet : bool) (v : version) (now : N) (s : sst) : Prop :=
  forall k e, st_rents s !! k = Some e -> is_active now (from_event mainnet v e.1 e.2) = true.
Inductive lending_history (mainnet : bool) : sst -> Prop :=
  | lh_init : lending_history mainnet st_init
  | lh_block s v now ts : lending_history mainnet s -> u32 now < U32_MAX -> fresh_block s ts ->
      let s' := sblock mainnet v now s ts in
      unexpired mainnet v now s' -> (forall u, all_rented mainnet v now (st_rents s') u < 2 ^ 32) -> lending_history mainnet s'.

Lemma rent_step_keeps (f : N) (es : list (N * N * (N * N))) (r : rents) (k : N * N * N) (e : N * N) : r !! k = Some e -> foldl (rent_step f) r es !! k = Some e.
Proof.
  revert r. induction es as [|x es IH]; intros r H; [done|]. cbn. apply IH. unfold rent_step.
  destruct (r !! (f, x.1.1, x.1.2)) eqn:E; [done|]. rewrite lookup_insert_ne; [done|]. intros <-. congruence.
Qed.
Lemma block_rents_keep mainnet v now db ts k e : st_rents db !! k = Some e -> st_rents (sblock mainnet v now db ts) !! k = Some e.
Proof.
  intros H. unfold sblock. assert (Hs : st_rents db !! k = Some e) by done. revert Hs. generalize db at 1 3 as s.
  induction ts as [|t ts IH]; intros s Hs; [done|]. cbn. apply IH. unfold stx_step. destruct (foldl (lend_step _ _ _ _ _) _ _). cbn.
  by apply rent_step_keeps.
Qed.
Lemma rented_unexpired mainnet v now v' now' s f u : unexpired mainnet v now s -> unexpired mainnet v' now' s ->
  rented mainnet v now (st_rents s) f u = rented mainnet v' now' (st_rents s) f u.
Proof.
  intros H H'. unfold rented. apply sumN_ext. intros [k e] He. apply elem_of_map_to_list in He. cbn.
  destruct (k.1.1 =? f); [|done]. unfold rent_units, act. cbn. rewrite (H _ _ He), (H' _ _ He).
  unfold from_event. destruct (e.1 <? LEGACY_CUTOFF), (e.1 <? cutoff_2024 mainnet), (e.1 <? cutoff_2025 mainnet); by destruct u.
Qed.
Theorem C23_history_partial : forall mainnet s, lending_history mainnet s ->
  units_ok s /\ forall v now, unexpired mainnet v now s -> covered mainnet v now s.
Proof.
  intros mainnet s. induction 1 as [|s v now ts Hs [IHok IHc] Hn Hf s' Hu Hsm].
  - split; [split; intros k e; cbn; by rewrite lookup_empty|]. intros v now _ f u. cbn. unfold lent. by rewrite map_to_list_empty.
  - assert (Hu0 : unexpired mainnet v now s) by (intros k e He; apply (Hu k e); by apply block_rents_keep).
    destruct (block_covered mainnet v now Hn s ts Hf IHok (IHc v now Hu0) Hsm) as [Hc Hok]. split; [done|].
    intros v1 now1 H1 f u. rewrite (rented_unexpired mainnet v1 now1 v now); [apply Hc|done|done].
Qed.

(** (On mainnet a lender must have 1000 units before the block: the first loan here is refused.) A history satisfying the hypotheses: 1 rents 2000 units and lends 1500 to 2, then changes that to 400, and 2 rents. *)
Definition ex_t : N := 1760000000.
Definition ex_blocks : list (version * N * list stx) :=
  [ (17, ex_t + 5, [STx 1 [(7, 0, (ex_t, 2000))] [Lend 2 U2025 700 true]]);
    (17, ex_t + 10, [STx 1 [] [Lend 2 U2025 1500 true]; STx 3 [(7, 1, (ex_t, 5))] []]);
    (17, ex_t + 20, [STx 2 [(8, 0, (ex_t, 3))] []; STx 1 [] [Lend 2 U2025 400 true; Lend 3 U2025 1490 true; Lend 3 U2025 100 true]]) ].
Definition ex_s : sst := srun true st_init ex_blocks.
Lemma ex_small v now s : bool_decide (Forall (fun u => all_rented true v now (st_rents s) u < 2 ^ 32) [Legacy; U2024; U2025]) = true ->
  forall u, all_rented true v now (st_rents s) u < 2 ^ 32.
Proof. intros H u. apply bool_decide_eq_true in H. rewrite Forall_forall in H. apply H. destruct u; set_solver. Qed.
Lemma ex_unexp v now s : forallb (fun e => is_active now (from_event true v e.2.1 e.2.2)) (map_to_list (st_rents s)) = true -> unexpired true v now s.
Proof. intros H k e He. rewrite forallb_forall in H. apply (H (k, e)). apply elem_of_list_In, elem_of_map_to_list. done. Qed.
Lemma ex_fresh s ts : bool_decide (NoDup (map x_fid ts)) && forallb (fun t => bool_decide (NoDup (rent_keys t)) &&
    forallb (fun k => bool_decide (st_rents s !! k = None)) (rent_keys t) && forallb (fun e => e.2.2 <? 2 ^ 32) (x_rents t)) ts = true -> fresh_block s ts.
Proof.
  intros H. apply andb_prop in H as [H1 H2]. apply bool_decide_eq_true in H1. split; [done|]. apply Forall_forall. intros t Ht.
  rewrite forallb_forall in H2. specialize (H2 t). rewrite <- elem_of_list_In in H2. specialize (H2 Ht).
  apply andb_prop in H2 as [H2 H4]. apply andb_prop in H2 as [H2 H3]. apply bool_decide_eq_true in H2. split; [done|].
  rewrite forallb_forall in H3, H4. split; apply Forall_forall.
  - intros k Hk. apply (bool_decide_eq_true_1 _), H3. by apply elem_of_list_In.
  - intros e He. apply N.ltb_lt, H4. by apply elem_of_list_In.
Qed.
Ltac hist := apply lh_init || (apply lh_block; [hist|done|apply ex_fresh; by vm_compute|apply ex_unexp; by vm_compute|apply ex_small; by vm_compute]).
Example C23_ex : lending_history true ex_s /\
  map (fun f => units_for (get_slot true 17 (ex_t + 30) ex_s f [] true true) U2025) [1; 2; 3] = [1500; 403; 105] /\
  all_rented true 17 (ex_t + 30) (st_rents ex_s) U2025 = 2008.
Proof.
  split; [|by vm_compute]. unfold ex_s, srun, ex_blocks. cbn [foldl fst snd].
  hist.
Qed.

(** Expiry breaks it. 1 rents 1000 units, a month later 1000 more, and lends 1500: when the first rent expires the account
    has 2^32 - 500 active units. *)
Definition month : N := 30 * 24 * 60 * 60.
Definition exp_s : sst := srun true st_init
  [ (17, ex_t + month, [STx 1 [(7, 0, (ex_t, 1000)); (9, 0, (ex_t + month, 1000))] []]);
    (17, ex_t + month, [STx 1 [] [Lend 2 U2025 1500 true]]) ].
Theorem C23_expiry_wraps_refuted : exists s now f, lending_history true s /\
  let sl := get_slot true 17 now s f [] true true in
  is_active now sl = true /\ units_for sl U2025 = 2 ^ 32 - 500 /\ rented true 17 now (st_rents s) f U2025 = 1000 /\
  max_messages sl StCasts = 4294917296.
Proof.
  exists exp_s, (ex_t + YEAR), 1. split; [|by vm_compute].
  unfold exp_s, srun. cbn [foldl fst snd].
  hist.
Qed.
(** The borrower keeps units for ever, although nobody rents any. *)
Theorem C23_loan_outlives_rent_refuted : exists s f, lending_history true s /\
  forall now, ex_t + 2 * YEAR <= now < U32_MAX -> all_rented true 17 now (st_rents s) U2025 = 0 /\
    is_active now (get_slot true 17 now s f [] true true) = true /\ units_for (get_slot true 17 now s f [] true true) U2025 = 1500.
Proof.
  exists exp_s, 2. split.
  { unfold exp_s, srun. cbn [foldl fst snd].
    hist. }
  intros now [Hn1 Hn2].
  assert (Er : map_to_list (st_rents exp_s) = [((1, 7, 0), (ex_t, 1000)); ((1, 9, 0), (ex_t + month, 1000))] \/
    map_to_list (st_rents exp_s) = [((1, 9, 0), (ex_t + month, 1000)); ((1, 7, 0), (ex_t, 1000))]) by (vm_compute; auto).
  assert (Hu : u32 now = now) by (apply u32_small; unfold U32_MAX in Hn2; lia).
  assert (Hin : forall x, x <= ex_t + 2 * YEAR -> (now <? x) = false) by (intros x Hx; apply N.ltb_ge; lia).
  assert (Hg : get_slot true 17 now exp_s 2 [] true true = from_lend U2025 1500).
  { assert (H0 : is_active now slot0 = false) by (apply N.ltb_ge; cbn; lia).
    assert (H1 : is_active now (from_lend U2025 1500) = true) by (unfold is_active; rewrite Hu; by apply N.ltb_lt).
    unfold get_slot, own_slot, lend_slots.
    replace (rents_of (st_rents exp_s) 2) with (@nil (N * N)) by (by vm_compute).
    replace (lent_of (st_loans exp_s) 2) with (@nil (utype * N)) by (by vm_compute).
    replace (borrowed_of (st_loans exp_s) 2) with [(U2025, 1500)] by (by vm_compute).
    unfold merge_all. cbn [map app foldl fst snd]. unfold slot_sub. rewrite H0. unfold slot_merge. by rewrite H1, H0; cbn [negb]; rewrite H1. }
  rewrite Hg. split; [|split; [unfold is_active; rewrite Hu; by apply N.ltb_lt|done]].
  unfold all_rented. destruct Er as [-> | ->]; unfold sumN; cbn [foldr fst snd]; unfold rent_units, act, is_active; rewrite Hu, !Hin by (by vm_compute); done.
Qed.

(** A stored rent event delivered again counts twice in that transaction, so more is lent than rented. *)
Theorem C23_repeated_rent_refuted : exists v now db ts, lending_history true db /\ unexpired true v now (sblock true v now db ts) /\
  NoDup (map x_fid ts) /\ ~ covered true v now (sblock true v now db ts).
Proof.
  exists 17, (ex_t + 20), (srun true st_init [(17, ex_t + 10, [STx 1 [(7, 0, (ex_t, 1000))] []])]),
    [STx 1 [(7, 0, (ex_t, 1000))] [Lend 2 U2025 1700 true]].
  split; [unfold srun; cbn [foldl fst snd]; hist|]. split; [apply ex_unexp; by vm_compute|].
  split; [apply (bool_decide_eq_true_1 _); by vm_compute|]. intros H. specialize (H 1 U2025). by vm_compute in H.
Qed.
(** Two transactions of one account in a block each see all the account's units. *)
Theorem C23_two_transactions_refuted : exists v now db ts, lending_history true db /\ unexpired true v now (sblock true v now db ts) /\
  Forall (fun t => x_rents t = []) ts /\ ~ covered true v now (sblock true v now db ts).
Proof.
  exists 17, (ex_t + 20), (srun true st_init [(17, ex_t + 10, [STx 1 [(7, 0, (ex_t, 1000))] []])]),
    [STx 1 [] [Lend 2 U2025 900 true]; STx 1 [] [Lend 3 U2025 900 true]].
  split; [unfold srun; cbn [foldl fst snd]; hist|]. split; [apply ex_unexp; by vm_compute|].
  split; [by repeat constructor|]. intros H. specialize (H 1 U2025). by vm_compute in H.
Qed.
(** An account may not lend its last unit (from version 13 on). *)
Theorem C23_last_unit_stays : forall mainnet v now db f sl m, 13 <= v -> lend_valid mainnet v now db f sl m = true ->
  l_units m < units_for sl (l_type m).
Proof.
  intros mainnet v now db f sl m Hv H. unfold lend_valid in H. apply andb_prop in H as [H H3]. apply andb_prop in H as [H1 _].
  apply N.leb_le in H1. apply negb_true_iff, N.ltb_ge in H3. cbn [is_enabled] in H3. apply N.leb_le in Hv. rewrite Hv in H3.
  rewrite u32_small in H3 by lia. lia.
Qed.

(** ** C59: the same blocks executed at another time of day *)

(** Same versions and transactions, clocks in the same order, nothing odd about the times: different loans. *)
Theorem C59_replay_time_refuted : exists blocks clocks clocks' k,
  st_loans (srun true st_init (zip_with (fun b n => (b.1, n, b.2)) blocks clocks)) !! k <>
  st_loans (srun true st_init (zip_with (fun b n => (b.1, n, b.2)) blocks clocks')) !! k.
Proof.
  exists [(17, [STx 1 [(7, 0, (ex_t, 2000))] []]); (17, [STx 1 [] [Lend 2 U2025 1500 true]])], [ex_t + 5; ex_t + 10], [ex_t + YEAR; ex_t + YEAR + 5], (1, 2).
  by vm_compute.
Qed.
(** When no rent expires between the two times the results agree. *)
Definition same_active (n n' : N) (s : slot) : Prop := is_active n s = is_active n' s.
Lemma merge_agree n n' s o : same_active n n' s -> same_active n n' o -> slot_merge n s o = slot_merge n' s o /\ same_active n n' (slot_merge n s o).
Proof.
  unfold same_active. intros Hs Ho. pose proof (slot_merge_active n s o) as A1. pose proof (slot_merge_active n' s o) as A2.
  assert (E : slot_merge n s o = slot_merge n' s o) by (unfold slot_merge; by rewrite Hs, Ho).
  split; [done|]. rewrite A1, E, A2. congruence.
Qed.
Lemma fold_agree n n' l acc : same_active n n' acc -> Forall (same_active n n') l ->
  foldl (slot_merge n) acc l = foldl (slot_merge n') acc l /\ same_active n n' (foldl (slot_merge n) acc l).
Proof.
  intros Ha Hl. revert acc Ha. induction Hl as [|o l Ho Hl IH]; intros acc Ha; [done|]. cbn.
  destruct (merge_agree n n' acc o Ha Ho) as [<- Hm]. by apply IH.
Qed.
Lemma sub_agree n n' s o : same_active n n' s -> same_active n n' o -> slot_sub n s o = slot_sub n' s o /\ same_active n n' (slot_sub n s o).
Proof.
  intros Hs Ho. split; [unfold slot_sub; by rewrite Ho|]. unfold same_active. unfold is_active. rewrite !sub_inval. exact Hs.
Qed.
Section Time.
  Context (mainnet : bool) (v : version) (n n' : N) (Hn : u32 n < U32_MAX) (Hn' : u32 n' < U32_MAX).
  Notation sa := (same_active n n').
  Definition rents_same (r : list (N * N)) : Prop := Forall (fun e => sa (from_event mainnet v e.1 e.2)) r.
  Lemma lend_sa u k : sa (from_lend u k).
  Proof using Hn Hn'. unfold same_active. rewrite !from_lend_active. apply N.ltb_lt in Hn, Hn'. congruence. Qed.
  Lemma slot0_sa : sa slot0.
  Proof using Type. clear. unfold same_active, is_active. transitivity false; [|symmetry]; apply N.ltb_ge; cbn; lia. Qed.
  Lemma empty_sa : sa empty_slot.
  Proof using Hn Hn'. unfold same_active, is_active. cbn [s_inval empty_slot]. apply N.ltb_lt in Hn, Hn'. congruence. Qed.
  Lemma lend_slots_agree l : lend_slots n l = lend_slots n' l /\ sa (lend_slots n l).
  Proof using Hn Hn'.
    unfold lend_slots, merge_all. apply fold_agree; [apply slot0_sa|]. apply Forall_map, Forall_forall. intros e _. apply lend_sa.
  Qed.
  Lemma get_slot_agree s f p b1 b2 : (forall k e, st_rents s !! k = Some e -> sa (from_event mainnet v e.1 e.2)) -> rents_same p ->
    get_slot mainnet v n s f p b1 b2 = get_slot mainnet v n' s f p b1 b2 /\ sa (get_slot mainnet v n s f p b1 b2).
  Proof using Hn Hn'.
    intros Hr Hp. unfold get_slot.
    destruct (lend_slots_agree (lent_of (st_loans s) f)) as [E1 A1]. destruct (lend_slots_agree (borrowed_of (st_loans s) f)) as [E2 A2].
    assert (Ho : own_slot mainnet v n (st_rents s) f p = own_slot mainnet v n' (st_rents s) f p /\ sa (own_slot mainnet v n (st_rents s) f p)).
    { unfold own_slot, merge_all. apply fold_agree; [apply slot0_sa|]. apply Forall_map, Forall_app. split; [|done].
      apply Forall_forall. intros e He. unfold rents_of in He. apply elem_of_list_omap in He as ((k & e') & He & Hk).
      apply elem_of_map_to_list in He. cbn in Hk. destruct (k.1.1 =? f); [|done]. injection Hk as ->. by eapply Hr. }
    destruct Ho as [E3 A3]. rewrite <- E1, <- E2, <- E3. pose proof empty_sa.
    set (l1 := if b1 then _ else _). set (l2 := if b2 then _ else _).
    assert (Hl1 : sa l1) by (unfold l1; by destruct b1). assert (Hl2 : sa l2) by (unfold l2; by destruct b2).
    destruct (sub_agree n n' _ _ A3 Hl1) as [<- A4]. by apply merge_agree.
  Qed.
  Lemma lend_step_agree db f st m : (forall k e, st_rents db !! k = Some e -> sa (from_event mainnet v e.1 e.2)) -> sa st.2 ->
    lend_step mainnet v n db f st m = lend_step mainnet v n' db f st m /\ sa (lend_step mainnet v n db f st m).2.
  Proof using Hn Hn'.
    intros Hr Hs. destruct st as [l sl]. cbn [snd] in Hs. unfold lend_step.
    assert (Ev : lend_valid mainnet v n db f sl m = lend_valid mainnet v n' db f sl m).
    { unfold lend_valid. destruct (get_slot_agree db f [] false false Hr (Forall_nil_2 _)) as [-> _]. done. }
    rewrite <- Ev. destruct (lend_valid mainnet v n db f sl m && is_enabled v StorageLending && l_accept m); [|done].
    destruct (sub_agree n n' sl (from_lend (l_type m) (l_units m)) Hs (lend_sa _ _)) as [<- A].
    destruct (l !! (f, l_to m)) as [[u k]|]; [|done].
    destruct (merge_agree n n' _ (from_lend u k) A (lend_sa _ _)) as [<- A']. done.
  Qed.
  Lemma block_agree db ts : (forall k e, st_rents db !! k = Some e -> sa (from_event mainnet v e.1 e.2)) ->
    Forall (fun t => rents_same (map snd (x_rents t))) ts -> sblock mainnet v n db ts = sblock mainnet v n' db ts.
  Proof using Hn Hn'.
    intros Hr Hts. unfold sblock. generalize db at 2 4 as s. induction Hts as [|t ts Ht Hts IH]; intros s; [done|]. cbn [foldl].
    assert (E : stx_step mainnet v n db s t = stx_step mainnet v n' db s t).
    { unfold stx_step. destruct (get_slot_agree db (x_fid t) (map snd (x_rents t)) true false Hr Ht) as [<- A].
      assert (Ef : forall ms st, sa st.2 -> foldl (lend_step mainnet v n db (x_fid t)) st ms = foldl (lend_step mainnet v n' db (x_fid t)) st ms).
      { induction ms as [|m ms IHm]; intros st Hst; [done|]. cbn [foldl].
        destruct (lend_step_agree db (x_fid t) st m Hr Hst) as [<- A']. by apply IHm. }
      by rewrite <- Ef. }
    rewrite <- E. apply IH.
  Qed.
End Time.
(** Executing a block at two times between which none of the rents concerned expires gives the same state. *)
Theorem C59_replay_time_partial : forall mainnet v n n' db ts, n <= n' < U32_MAX ->
  (forall k e, st_rents db !! k = Some e -> ~ n < s_inval (from_event mainnet v e.1 e.2) <= n') ->
  (forall t e, t ∈ ts -> e ∈ x_rents t -> ~ n < s_inval (from_event mainnet v e.2.1 e.2.2) <= n') ->
  sblock mainnet v n db ts = sblock mainnet v n' db ts.
Proof.
  intros mainnet v n n' db ts [Hn Hn'] H1 H2. unfold U32_MAX in Hn'.
  assert (Hsm : forall x, x <= n' -> u32 x = x) by (intros; apply u32_small; lia).
  assert (Hsa : forall s, ~ n < s_inval s <= n' -> same_active n n' s).
  { intros s Hs. unfold same_active, is_active. rewrite !Hsm by lia. destruct (N.ltb_spec n (s_inval s)), (N.ltb_spec n' (s_inval s)); lia || done. }
  apply block_agree; rewrite ?Hsm by lia; unfold U32_MAX; try lia.
  - intros k e He. by apply Hsa, (H1 k e).
  - apply Forall_forall. intros t Ht. unfold rents_same. apply Forall_map, Forall_forall. intros e He. by apply Hsa, (H2 t e).
Qed.
Example C59_ex : let db := srun true st_init (take 1 ex_blocks) in let ts := snd (nth 1 ex_blocks (0, 0, [])) in
  sblock true 17 ex_t db ts = sblock true 17 (ex_t + month) db ts /\ st_loans (sblock true 17 ex_t db ts) !! (1, 2) = Some (U2025, 1500).
Proof.
  split; [|by vm_compute].
  apply C59_replay_time_partial; [by vm_compute| |].
  - intros k e He. apply elem_of_map_to_list in He. assert (Hl : map_to_list (st_rents (srun true st_init (take 1 ex_blocks))) = [((1, 7, 0), (ex_t, 2000))]) by (by vm_compute).
    rewrite Hl in He. apply elem_of_list_singleton in He. injection He as -> ->. intros [_ H]. by vm_compute in H.
  - intros t e Ht He. cbn [nth snd ex_blocks] in Ht. apply elem_of_cons in Ht as [-> | Ht]; [by apply elem_of_nil in He|].
    apply elem_of_list_singleton in Ht as ->. cbn in He. apply elem_of_list_singleton in He as ->. intros [_ H]. by vm_compute in H.
Qed.

Print Assumptions C23_conservation_partial.
Print Assumptions C23_block_partial.
Print Assumptions C23_history_partial.
Print Assumptions C24_limits_partial.
Print Assumptions C25_cohort_partial.
Print Assumptions C59_replay_time_partial.
