(** C34: the verification quota of shard 0. *)
From Verif Require Import VerifQuotaProofs.
From Coq Require Import ZifyN ZifyNat ZifyBool.
#[local] Open Scope N_scope.

(** Example messages: the hash is [account; kind; address; time]. *)
Definition ex_content (h : bytes) : N * bool * bytes * N :=
  match h with [f; k; a; t] => (f, k =? 1, [a], t) | _ => (0, false, [], 0) end.
Definition ex_v (f : N) (add : bool) (a t : N) : vmsg := VMsg f add [a] t [f; if add then 1 else 0; a; t] true.

Lemma run_ex (ts : list vtxn) (P : vst -> bool) :
  match v_run vs_init ts with Some s => P s | None => false end = true -> exists s, v_run vs_init ts = Some s /\ P s = true.
Proof. destruct (v_run vs_init ts) as [s|]; [eauto|done]. Qed.
Definition ex_num (s : vst) (f live tomb : N) : bool := (v_real (vs_rows s) f true =? live) && (v_real (vs_rows s) f false =? tomb).
Lemma ex_num_ok (s : vst) (f live tomb : N) : ex_num s f live tomb = true -> v_real (vs_rows s) f true = live /\ v_real (vs_rows s) f false = tomb.
Proof. unfold ex_num. rewrite andb_true_iff, !N.eqb_eq. done. Qed.

Ltac run_nums f a b := match goal with |- exists s, v_run vs_init ?ts = Some s /\ _ =>
  let s := fresh in let E := fresh in let Q := fresh in
  destruct (run_ex ts (fun s => ex_num s f a b)) as (s & E & Q); [vm_compute; reflexivity|exists s; split; [exact E|by apply ex_num_ok]] end.

(** C34: inside a transaction the counters used for admission are the real numbers at every message, the replay never aborts,
    and after the block the trie's counts are the real numbers again. Holds for transactions whose messages all belong to the
    transaction's account (not checked by the code, see [C34_foreign_message_refuted]) and for hashes that determine the
    message. *)
Theorem C34_counts_exact_partial (content : bytes -> N * bool * bytes * N) (ts : list vtxn) :
  Forall (honest content) ts ->
  exists s, v_run vs_init ts = Some s /\
    (forall f a, v_count (vs_trie s) f a = v_real (vs_rows s) f a) /\
    (forall e, e ∈ vs_trie s <-> exists k m, vs_rows s !! k = Some m /\ v_entry m = e) /\
    forall f pre, Forall (fun mm => v_good content mm.1 /\ v_fid mm.1 = f) pre ->
      exists l, v_loop (VLoop (vs_rows s) (v_counts (vs_trie s) f) []) pre = Some l /\
        vl_counts l = VCounts (v_real (vl_rows l) f true) (v_real (vl_rows l) f false).
Proof.
  intros H. destruct (run_ok content ts vs_init (init_inv content) H) as (s & E & I). exists s. split; [done|]. destruct I as [R T].
  split; [intros f a; by eapply count_real|]. split; [exact T|]. intros f pre Hp.
  destruct (loop_ok content f (vs_trie s) pre _ (start_linv content s f (conj R T)) Hp) as (l & El & _ & [C1 C2] & _).
  exists l. split; [done|]. destruct (vl_counts l) as [a b]. cbn in C1, C2. congruence.
Qed.
Example C34_counts_ex :
  let ts := [(1, [(ex_v 1 true 7 10, 2); (ex_v 1 true 8 11, 2); (ex_v 1 true 9 12, 2)]); (2, [(ex_v 2 true 7 10, 2)]);
             (1, [(ex_v 1 false 7 13, 2); (ex_v 1 true 9 14, 2); (ex_v 1 true 7 12, 2)])] in
  Forall (honest ex_content) ts /\
  (exists s, v_run vs_init ts = Some s /\ v_real (vs_rows s) 1 true = 2 /\ v_real (vs_rows s) 1 false = 1).
Proof.
  cbn zeta. split; [repeat constructor|]. run_nums 1 2 1.
Qed.

(** C34: what one message can do to an account's numbers, given its limit [mx] at that point: an add that raises the number
    of live verifications leaves it within the limit, a message that creates a row leaves the rows within the row cap, and a
    remove that creates a row leaves the tombstones within the tombstone cap. Other accounts are not affected. *)
Theorem C34_admission_bounds_partial (content : bytes -> N * bool * bytes * N) (ts : list vtxn) (s : vst) (f : N) (pre : list (vmsg * N))
    (l l' : vloop) (m : vmsg) (mx : N) :
  Forall (honest content) ts -> v_run vs_init ts = Some s ->
  Forall (fun mm => v_good content mm.1 /\ v_fid mm.1 = f) (pre ++ [(m, mx)]) ->
  v_loop (VLoop (vs_rows s) (v_counts (vs_trie s) f) []) pre = Some l ->
  v_loop (VLoop (vs_rows s) (v_counts (vs_trie s) f) []) (pre ++ [(m, mx)]) = Some l' ->
  let live := v_real (vl_rows l) f true in let tomb := v_real (vl_rows l) f false in
  let live' := v_real (vl_rows l') f true in let tomb' := v_real (vl_rows l') f false in
  (live < live' -> live' <= mx) /\
  (live + tomb < live' + tomb' -> live' + tomb' <= mx + tombstone_cap mx) /\
  (tomb < tomb' -> vl_rows l !! v_key m = None -> tomb' <= tombstone_cap mx) /\
  (live' + tomb' <= live + tomb + 1) /\ (live + tomb <= live' + tomb') /\
  (mx = 0 -> live' <= live /\ live' + tomb' = live + tomb) /\
  forall g a, g <> f -> v_real (vl_rows l') g a = v_real (vl_rows l) g a.
Proof.
  intros H E Hp El El'. apply Forall_app in Hp as [Hp Hm]. inversion Hm as [|? ? [G Ef] _]; subst. cbn [fst] in *.
  destruct (run_ok content ts vs_init (init_inv content) H) as (s1 & E1 & I). assert (s1 = s) as -> by congruence.
  destruct (loop_ok content (v_fid m) (vs_trie s) pre _ (start_linv content s (v_fid m) I) Hp) as (l1 & El1 & L). assert (l1 = l) as -> by congruence.
  assert (v_step l (m, mx) = Some l') as St.
  { clear -El El'. revert El El'. generalize (VLoop (vs_rows s) (v_counts (vs_trie s) (v_fid m)) []). induction pre as [|p pre IH]; intros l0 El El'.
    - cbn in El. injection El as ->. cbn [v_loop app] in El'. destruct (v_step l (m, mx)); [|done]. done.
    - cbn [v_loop app] in El, El'. destruct (v_step l0 p) as [l1|]; [|done]. cbn [mbind option_bind] in *. by apply (IH l1). }
  destruct (step_numbers content (v_fid m) (vs_trie s) l l' m mx L G eq_refl St) as [O S]. cbn zeta in S. cbn zeta. unfold row_cap in S.
  assert (mx = 0 -> v_add m = true -> l' = l) as Z.
  { intros -> Am. cbn [v_step] in St. unfold v_admit in St. rewrite Am in St. rewrite andb_false_r in St. cbn [andb] in St. congruence. }
  split; [|split; [|split; [|split; [|split; [|split; [|intros; by apply O]]]]]];
  destruct S as [-> |[(_ & x & Ex & _ & S)|[(_ & x & Ex & _ & S)|[(_ & _ & S)|[(_ & x & Ex & _ & S)|[(_ & x & Ex & _ & S)|(_ & _ & S)]]]]]]; try lia;
    try (intros _ Q; congruence).
  all: intros ->; change (tombstone_cap 0) with 0 in S; lia.
Qed.
Example C34_admission_ex :
  let nums ms := option_map (fun l => (v_real (vl_rows l) 1 true, v_real (vl_rows l) 1 false))
    (s ← v_run vs_init [(1, [(ex_v 1 true 7 10, 1)])]; v_loop (VLoop (vs_rows s) (v_counts (vs_trie s) 1) []) ms) in
  nums [] = Some (1, 0) /\ nums [(ex_v 1 true 9 11, 1)] = Some (1, 0) /\
  nums [(ex_v 1 false 7 11, 1)] = Some (0, 1) /\ nums [(ex_v 1 false 7 11, 1); (ex_v 1 true 9 11, 1)] = Some (1, 1).
Proof. vm_compute. repeat split. Qed.

(** C34 over a whole history: if the limits at an account's messages never exceed [M], its live verifications never exceed
    [M], and all its rows never exceed [M] plus the tombstone cap. *)
Theorem C34_lifetime_bound_partial (content : bytes -> N * bool * bytes * N) (ts : list vtxn) (s : vst) (f M : N) :
  Forall (honest content) ts -> v_run vs_init ts = Some s ->
  Forall (fun t => t.1 = f -> Forall (fun mm => mm.2 <= M) t.2) ts ->
  v_real (vs_rows s) f true <= M /\ v_real (vs_rows s) f true + v_real (vs_rows s) f false <= M + tombstone_cap M.
Proof.
  intros H E HM. destruct (run_bounded content ts vs_init s M f (init_inv content) H HM E); [|done].
  unfold bounded. assert (forall a, v_real (vs_rows vs_init) f a = 0) as Z by (intros a; unfold v_real; cbn [vs_init vs_rows]; rewrite map_filter_empty; done).
  rewrite !Z. lia.
Qed.
Example C34_lifetime_ex :
  exists s, v_run vs_init [(1, [(ex_v 1 true 7 10, 1); (ex_v 1 true 8 11, 1); (ex_v 1 false 7 12, 1); (ex_v 1 true 8 13, 1)])] = Some s /\
    v_real (vs_rows s) 1 true = 1 /\ v_real (vs_rows s) 1 false = 1.
Proof.
  run_nums 1 1 1.
Qed.

(** C34: rows are permanent, so the row bound is not one that comes and goes. *)
Theorem C34_rows_permanent (ts : list vtxn) (s s' : vst) (k : N * bytes) :
  v_run s ts = Some s' -> is_Some (vs_rows s !! k) -> is_Some (vs_rows s' !! k).
Proof. intros E H. eapply run_rows; done. Qed.

(** C34: whatever the limit (also none), a newer remove of an address that has a row succeeds. *)
Theorem C34_can_always_remove_partial (content : bytes -> N * bool * bytes * N) (ts : list vtxn) (s : vst) (x m : vmsg) (mx : N) :
  Forall (honest content) ts -> v_run vs_init ts = Some s -> v_good content m ->
  v_add m = false -> v_ok m = true -> vs_rows s !! v_key m = Some x -> v_ts x < v_ts m ->
  exists s', v_txn s (v_fid m, [(m, mx)]) = Some s' /\ vs_rows s' = <[v_key m := m]> (vs_rows s) /\
    v_real (vs_rows s') (v_fid m) true + (if v_add x then 1 else 0) = v_real (vs_rows s) (v_fid m) true.
Proof.
  intros H E G Am Ok Ex Ht. destruct (run_ok content ts vs_init (init_inv content) H) as (s1 & E1 & I). assert (s1 = s) as -> by congruence.
  destruct (step_ok content (v_fid m) (vs_trie s) _ m mx (start_linv content s (v_fid m) I) G eq_refl) as (l & El & L).
  assert (v_cmp x m = Lt) as C by (unfold v_cmp; by rewrite (proj2 (N.compare_lt_iff _ _) Ht)).
  assert (v_admit (vs_rows s) (v_counts (vs_trie s) (v_fid m)) mx m = true) as A.
  { unfold v_admit. rewrite Am, Ok, Ex. cbn. rewrite andb_false_r. done. }
  pose proof El as El2. cbn [v_step vl_rows vl_counts vl_events] in El2. rewrite A, Ex, C in El2.
  destruct (v_delta _ _ _) as [c|]; [|done]. cbn [mbind option_bind] in El2.
  unfold v_txn. cbn [fst snd v_loop]. rewrite El. cbn [mbind option_bind]. eexists. split; [reflexivity|]. cbn [vs_rows]. injection El2 as <-. cbn [vl_rows]. split; [done|].
  pose proof (real_insert (vs_rows s) m (v_fid m) true) as R. destruct I as [R0 _].
  specialize (R (fun k y Hy => proj1 (R0 k y Hy))). rewrite Ex in R. destruct (R0 _ _ Ex) as [Kx _]. unfold v_key in Kx. injection Kx as Kx _.
  unfold is_kind in R. rewrite Am, Kx, N.eqb_refl in R. cbn [andb Bool.eqb bN] in R. destruct (v_add x); cbn [Bool.eqb bN] in R; lia.
Qed.
(** C34: of an add and a remove of one address with the same time the remove is kept, in whichever order they come. *)
Theorem C34_remove_wins_tie (l l' : vloop) (x m : vmsg) (mx : N) :
  v_step l (m, mx) = Some l' -> vl_rows l !! v_key m = Some x -> v_ts x = v_ts m -> v_add x <> v_add m -> v_ok m = true ->
  vl_rows l' !! v_key m = Some (if v_add m then x else m).
Proof.
  intros E Ex Et Ea Ok. cbn [v_step] in E. unfold v_admit in E. rewrite Ok, Ex in E. cbn [fmap option_fmap option_map] in E.
  unfold v_cmp in E. rewrite Et, N.compare_refl in E. destruct (v_add m) eqn:Am, (v_add x) eqn:Ax; try congruence.
  - match type of E with (if ?b then _ else _) = _ => destruct b end; injection E as <-; done.
  - rewrite andb_false_r in E. cbn [andb negb] in E. destruct (v_delta _ _ _) as [c|]; [|done]. cbn [mbind option_bind] in E. injection E as <-. cbn [vl_rows]. by rewrite lookup_insert.
Qed.
Example C34_tie_ex : exists s, v_run vs_init [(1, [(ex_v 1 true 7 10, 1); (ex_v 1 false 7 10, 1); (ex_v 1 true 7 10, 1)])] = Some s /\
    v_real (vs_rows s) 1 true = 0 /\ v_real (vs_rows s) 1 false = 1.
Proof. run_nums 1 0 1. Qed.
Example C34_can_remove_ex :
  exists s, v_run vs_init [(1, [(ex_v 1 true 7 10, 1)]); (1, [(ex_v 1 false 7 11, 0)])] = Some s /\
    v_real (vs_rows s) 1 true = 0 /\ v_real (vs_rows s) 1 false = 1.
Proof.
  run_nums 1 0 1.
Qed.

(** C34 as stated fails for tombstones: with the limit always 1 (cap 256) an account reaches 257 of them. *)
Fixpoint ex_removes (n : nat) : list (vmsg * N) :=
  match n with O => [] | S k => ex_removes k ++ [(ex_v 1 false (N.of_nat k) (10 + N.of_nat k), 1)] end.
Theorem C34_tombstones_refuted : exists ts s,
  Forall (fun t => Forall (fun mm => v_good ex_content mm.1 /\ v_fid mm.1 = t.1 /\ mm.2 = 1) t.2) ts /\
  v_run vs_init ts = Some s /\ tombstone_cap 1 < v_real (vs_rows s) 1 false.
Proof.
  exists [(1, ex_removes 256 ++ [(ex_v 1 true 900 900, 1); (ex_v 1 false 900 901, 1)])].
  edestruct (run_ex [(1, ex_removes 256 ++ [(ex_v 1 true 900 900, 1); (ex_v 1 false 900 901, 1)])] (fun s => v_real (vs_rows s) 1 false =? 257)) as (s & E & Q);
    [vm_compute; reflexivity|].
  exists s. split; [|split; [exact E|]].
  - clear E Q. constructor; [|done]. cbn [fst snd]. apply Forall_app. split; [|repeat constructor].
    generalize 256%nat. intros n. induction n as [|n IH]; cbn [ex_removes]; [constructor|]. apply Forall_app. split; [done|].
    constructor; [|constructor]. split; [|done]. unfold v_good, ex_v, ex_content. done.
  - apply N.eqb_eq in Q. clear E. rewrite Q. vm_compute. reflexivity.
Qed.

(** C34 as stated fails if a proposer puts another account's messages in a transaction (nothing compares the transaction's
    account with the message's): account 2 with limit 1 gets 2 live verifications, because account 1's numbers are used; the
    next remove makes account 1's counter underflow and aborts the replay. *)
Theorem C34_foreign_message_refuted :
  (exists ts s, Forall (fun t => Forall (fun mm => v_good ex_content mm.1 /\ mm.2 = 1) t.2) ts /\
     v_run vs_init ts = Some s /\ v_real (vs_rows s) 2 true = 2) /\
  (exists ts, Forall (fun t => Forall (fun mm => v_good ex_content mm.1 /\ mm.2 = 1) t.2) ts /\ v_run vs_init ts = None).
Proof.
  split.
  - exists [(2, [(ex_v 2 true 7 10, 1)]); (1, [(ex_v 2 true 8 11, 1)])]. 
    edestruct (run_ex [(2, [(ex_v 2 true 7 10, 1)]); (1, [(ex_v 2 true 8 11, 1)])] (fun s => ex_num s 2 2 0)) as (s & E & Q); [vm_compute; reflexivity|].
    exists s. split; [repeat constructor|]. split; [exact E|]. by apply ex_num_ok in Q as [Q _].
  - exists [(2, [(ex_v 2 true 7 10, 1)]); (1, [(ex_v 2 false 7 11, 1)])]. split; [repeat constructor|]. vm_compute. reflexivity.
Qed.

Print Assumptions C34_counts_exact_partial.
Print Assumptions C34_admission_bounds_partial.
Print Assumptions C34_lifetime_bound_partial.
Print Assumptions C34_rows_permanent.
Print Assumptions C34_can_always_remove_partial.
Print Assumptions C34_remove_wins_tie.
Print Assumptions C34_tombstones_refuted.
Print Assumptions C34_foreign_message_refuted.
