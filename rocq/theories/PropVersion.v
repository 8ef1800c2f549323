(** Property C49: protocol features turn on once and stay on. *)
From Verif Require Import Version.
From Coq Require Import ZifyN ZifyNat ZifyBool.

(** Specification, independent of list order: [v] is the largest version whose activation time has come. *)
Definition spec_version (sch : list (N * N)) (unix v : N) : Prop :=
  (exists a, (a, v) ∈ sch /\ a <= unix) /\ forall a w, (a, w) ∈ sch -> a <= unix -> w <= v.

(** Boolean check of a schedule: non-decreasing activation times, strictly increasing versions, active from 0. *)
Fixpoint ordered (sch : list (N * N)) : bool :=
  match sch with
  | (a, v) :: r => match r with (b, w) :: _ => (a <=? b) && (v <? w) | [] => true end && ordered r
  | [] => true
  end.

Lemma ordered_cons a v sch : ordered ((a, v) :: sch) = true ->
  ordered sch = true /\ forall b w, (b, w) ∈ sch -> a <= b /\ v < w.
Proof.
  revert a v; induction sch as [|[b w] sch IH]; intros a v Ho.
  - split; [done|]. intros ? ? Hin. inversion Hin.
  - apply andb_prop in Ho as [Ho1 Ho2]. split; [exact Ho2|].
    destruct (IH _ _ Ho2) as [_ Hb]. intros b' w' [E|Hin]%elem_of_cons; [injection E as -> ->; lia|].
    specialize (Hb _ _ Hin). lia.
Qed.

Lemma version_at_spec sch unix v : ordered sch = true -> version_at sch unix = Some v -> spec_version sch unix v.
Proof.
  unfold version_at. induction sch as [|[a w] sch IH]; intros Ho E; [done|].
  destruct (ordered_cons _ _ _ Ho) as [Ho' Hb]. rewrite filter_cons in E. cbn [fst] in E.
  destruct (decide (a <= unix)) as [Ha|Ha].
  - destruct (filter (fun e : N * N => e.1 <= unix) sch) as [|e l] eqn:Ef.
    + cbn in E. injection E as <-. split; [exists a; split; [left|done]|].
      intros b u [E|Hin]%elem_of_cons Hbu; [injection E as -> ->; lia|].
      exfalso. assert (Hf : (b, u) ∈ filter (fun e : N * N => e.1 <= unix) sch) by (apply elem_of_list_filter; done).
      rewrite Ef in Hf. inversion Hf.
    + assert (E' : snd <$> last (e :: l) = Some v) by exact E.
      destruct (IH Ho' E') as [(b & Hin & Hle) Hmax]. split; [exists b; split; [by right|done]|].
      intros c u [E2|Hin2]%elem_of_cons Hc; [injection E2 as -> ->|by eapply Hmax].
      specialize (Hb _ _ Hin). lia.
  - destruct (IH Ho' E) as [(b & Hin & Hle) Hmax]. split; [exists b; split; [by right|done]|].
    intros c u [E2|Hin2]%elem_of_cons Hc; [injection E2 as -> ->; done|by eapply Hmax].
Qed.

Lemma filter_none (u : N) (l : list (N * N)) : (forall b x, (b, x) ∈ l -> ~ b <= u) -> filter (fun e : N * N => e.1 <= u) l = [].
Proof.
  intros Hn. destruct (filter _ l) as [|[b x] r] eqn:E; [done|]. exfalso.
  assert (Hin : (b, x) ∈ filter (fun e : N * N => e.1 <= u) l) by (rewrite E; left).
  apply elem_of_list_filter in Hin as [H1 H2]. by apply (Hn _ _ H2).
Qed.
Lemma schedules_ordered n : ordered (schedule n) = true.
Proof. by destruct n; vm_compute. Qed.

Lemma version_at_total n unix : exists v, version_at (schedule n) unix = Some v /\ v <= LATEST_VERSION.
Proof.
  assert (H0 : exists l, schedule n = (0, match n with Devnet => 21 | _ => 0 end) :: l) by (destruct n; eexists; done).
  assert (Hv : exists v, version_at (schedule n) unix = Some v).
  { destruct H0 as [l ->]. unfold version_at. rewrite filter_cons. cbn [fst]. rewrite decide_True by lia.
    destruct (last_is_Some ((0, match n with Devnet => 21 | _ => 0 end) :: filter (fun e : N * N => e.1 <= unix) l)) as [_ Hl].
    destruct (Hl ltac:(done)) as [e ->]. eexists. done. }
  destruct Hv as [v Hv]. exists v. split; [done|].
  destruct (version_at_spec _ _ _ (schedules_ordered n) Hv) as [(a & Hin & _) _].
  assert (Hall : Forall (fun e => e.2 <= LATEST_VERSION) (schedule n)) by (destruct n; repeat constructor; cbn; unfold LATEST_VERSION; lia).
  rewrite Forall_forall in Hall. by apply (Hall _ Hin).
Qed.

(** The code's "last active entry" is the largest active version; there always is one, so [version_for] never panics. *)
Theorem C49_version_is_largest_active : forall n t, exists v,
  version_for t n = Some v /\ spec_version (schedule n) (to_unix_seconds t) v /\ v <= LATEST_VERSION.
Proof.
  intros n t. destruct (version_at_total n (to_unix_seconds t)) as (v & E & Hv).
  exists v. split; [done|]. split; [|done]. apply version_at_spec; [apply schedules_ordered|done].
Qed.

(** Versions never decrease over time (for times that do not overflow 64 bits). *)
Theorem C49_version_monotone : forall n t1 t2 v1 v2,
  t1 <= t2 -> t2 + EPOCH_S < 2 ^ 64 -> version_for t1 n = Some v1 -> version_for t2 n = Some v2 -> v1 <= v2.
Proof.
  intros n t1 t2 v1 v2 Ht Hov E1 E2. unfold version_for, to_unix_seconds in *.
  rewrite N.mod_small in E1, E2 by lia.
  destruct (version_at_spec _ _ _ (schedules_ordered n) E1) as [(a & Hin & Ha) _].
  destruct (version_at_spec _ _ _ (schedules_ordered n) E2) as [_ Hmax].
  eapply Hmax; [done|]. lia.
Qed.

(** A feature that is on stays on, except the signer bug. *)
Theorem C49_feature_stays_on : forall n t1 t2 v1 v2 f,
  f <> SignerRevokeBug -> t1 <= t2 -> t2 + EPOCH_S < 2 ^ 64 ->
  version_for t1 n = Some v1 -> version_for t2 n = Some v2 -> is_enabled v1 f = true -> is_enabled v2 f = true.
Proof.
  intros n t1 t2 v1 v2 f Hf Ht Hov E1 E2. pose proof (C49_version_monotone n t1 t2 v1 v2 Ht Hov E1 E2) as Hv.
  destruct f; try done; cbn [is_enabled]; rewrite !N.leb_le; lia.
Qed.

(** The signer bug: exactly two windows on mainnet, never elsewhere. *)
Theorem C49_signer_bug_window : forall n t v, t + EPOCH_S < 2 ^ 64 -> version_for t n = Some v ->
  is_enabled v SignerRevokeBug = true <->
  n = Mainnet /\ (1747333800 <= t + EPOCH_S < 1747352400 \/ 1747356000 <= t + EPOCH_S < 1747417200).
Proof.
  intros n t v Hov E. unfold version_for, to_unix_seconds in E. rewrite N.mod_small in E by done.
  generalize dependent (t + EPOCH_S). intros u _ E.
  destruct (version_at_spec _ _ _ (schedules_ordered n) E) as [(a & Hin & Ha) Hmax].
  cbn [is_enabled]. rewrite orb_true_iff, !N.eqb_eq.
  destruct n.
  - pose proof (Hmax 1747333800 1 ltac:(cbn; set_solver)) as M1. pose proof (Hmax 1747352400 2 ltac:(cbn; set_solver)) as M2.
    pose proof (Hmax 1747356000 3 ltac:(cbn; set_solver)) as M3. pose proof (Hmax 1747417200 4 ltac:(cbn; set_solver)) as M4.
    unfold schedule, schedule_mainnet in Hin. rewrite !elem_of_cons in Hin.
    split.
    + intros Hv. split; [done|].
      repeat (destruct Hin as [Hin|Hin]; [injection Hin as -> ->; lia|]). inversion Hin.
    + intros [_ Hu].
      repeat (destruct Hin as [Hin|Hin]; [injection Hin as -> ->; lia|]). inversion Hin.
  - unfold schedule, schedule_testnet in Hin. rewrite !elem_of_cons in Hin. split; [|by intros [? _]].
    repeat (destruct Hin as [Hin|Hin]; [injection Hin as -> ->; lia|]). inversion Hin.
  - unfold schedule, schedule_devnet in Hin. rewrite !elem_of_cons in Hin. split; [|by intros [? _]].
    repeat (destruct Hin as [Hin|Hin]; [injection Hin as -> ->; lia|]). inversion Hin.
Qed.

(** The wire protocol version never decreases with the engine version. *)
Theorem C49_protocol_version_monotone : forall v1 v2, v1 <= v2 -> protocol_version v1 <= protocol_version v2.
Proof.
  intros v1 v2 Hv. unfold protocol_version.
  repeat match goal with |- context [if ?b then _ else _] => destruct b eqn:? end; lia.
Qed.

(** The five channel features switch together (comment at version.rs:317-334). *)
Theorem C49_channel_features_lockstep : forall v f, f ∈ [ChannelRegistrations; SortedBlockEngineEvents; ChannelOwnershipEvents;
  ChannelMessages; VerificationsOnShardZero; ChannelFollows] -> is_enabled v f = is_enabled v ChannelMessages.
Proof. intros v f Hf. rewrite !elem_of_cons in Hf. repeat destruct Hf as [->|Hf]; try done. inversion Hf. Qed.

(** Between now and the announced next version time nothing changes; without an announcement nothing ever changes. *)
Theorem C49_next_version : forall n u v, version_at (schedule n) u = Some v ->
  match next_version_at (schedule n) u with
  | Some a => u < a /\ (forall u', u <= u' -> u' < a -> version_at (schedule n) u' = Some v)
  | None => forall u', u <= u' -> version_at (schedule n) u' = Some v
  end.
Proof.
  intros n u v. pose proof (schedules_ordered n) as Ho. revert Ho. generalize (schedule n) as sch. intros sch Ho.
  unfold version_at, next_version_at. induction sch as [|[a w] sch IH]; intros E; [done|].
  destruct (ordered_cons _ _ _ Ho) as [Ho' Hb]. rewrite filter_cons in E. cbn [fst] in E. rewrite filter_cons. cbn [fst].
  assert (Hrest : u < a -> filter (fun e : N * N => e.1 <= u) sch = []).
  { intros Hlt. apply filter_none. intros b x Hin. specialize (Hb _ _ Hin). lia. }
  destruct (decide (a <= u)) as [Ha|Ha].
  - rewrite (decide_False (P := u < a)) by lia.
    assert (Hsame : forall u', u <= u' -> filter (fun e : N * N => e.1 <= u') sch = filter (fun e : N * N => e.1 <= u) sch ->
      snd <$> last (filter (fun e : N * N => e.1 <= u') ((a, w) :: sch)) = Some v).
    { intros u' Hu Ef. rewrite filter_cons. cbn [fst]. rewrite decide_True by lia. by rewrite Ef. }
    destruct (filter (fun e : N * N => e.1 <= u) sch) as [|e l] eqn:Ef.
    + destruct sch as [|[b x] sch].
      * cbn. intros u' Hu. by apply Hsame.
      * assert (Hbu : ~ b <= u).
        { intros Hbu. rewrite filter_cons in Ef. cbn [fst] in Ef. by rewrite decide_True in Ef. }
        rewrite filter_cons. cbn [fst]. rewrite decide_True by lia. cbn. split; [lia|].
        intros u' Hu Hlt. apply Hsame; [done|]. apply filter_none.
        intros c y Hin. destruct (ordered_cons _ _ _ Ho') as [_ Hb'].
        apply elem_of_cons in Hin as [E2|Hin]; [injection E2 as -> ->; lia|]. specialize (Hb' _ _ Hin). lia.
    + specialize (IH Ho' E).
      assert (Hk : forall u', u <= u' -> snd <$> last (filter (fun e : N * N => e.1 <= u') sch) = Some v ->
        snd <$> last (filter (fun e : N * N => e.1 <= u') ((a, w) :: sch)) = Some v).
      { intros u' Hu Ev. rewrite filter_cons. cbn [fst]. rewrite decide_True by lia.
        destruct (filter (fun e : N * N => e.1 <= u') sch) eqn:E2; [done|]. exact Ev. }
      destruct (fst <$> head _) as [b|].
      * destruct IH as [IH1 IH2]. split; [done|]. intros u' Hu Hlt. apply Hk; auto.
      * intros u' Hu. apply Hk; auto.
  - rewrite Hrest in E by lia. done.
Qed.

(** Without the overflow condition monotonicity fails: a block timestamp near 2^64 wraps to version 0. *)
Theorem C49_overflow_refuted : exists t1 t2 v1 v2,
  t1 <= t2 /\ t2 < 2 ^ 64 /\ version_for t1 Mainnet = Some v1 /\ version_for t2 Mainnet = Some v2 /\ v2 < v1.
Proof. exists 200000000, (2 ^ 64 - 1), 20, 0. repeat split; vm_compute; done. Qed.

Example C49_example : version_for (1786640400 - EPOCH_S) Mainnet = Some 20 /\
  version_for (1786640399 - EPOCH_S) Mainnet = Some 19 /\ is_enabled 20 IncreaseEmbedLimitForAllUsers = true /\
  next_version_at schedule_testnet 1786035599 = Some 1786035600 /\ version_for 0 Devnet = Some 21.
Proof. vm_compute. done. Qed.

Print Assumptions C49_version_is_largest_active.
Print Assumptions C49_version_monotone.
Print Assumptions C49_feature_stays_on.
Print Assumptions C49_signer_bug_window.
Print Assumptions C49_next_version.
Print Assumptions C49_overflow_refuted.
