(** C13-C20: message stores. *)
From Coq Require Import ZifyN ZifyNat ZifyBool.
From Verif Require Import Store StoreSpec StoreProofs StoreDefs StoreTop.
#[local] Open Scope N_scope.

(** The state of a node that started empty. *)
Notation view D cx ops := (srun D cx start ops).2.
Notation disk D cx ops := (srun D cx start ops).1.
Definition all_valid (D : sdef) (ops : list sop) : bool := forallb (set_msg D) (merged_msgs ops).

Lemma all_valid_US D ops m : all_valid D ops = true -> m ∈ merged_msgs ops -> US D (merged_msgs ops) m.
Proof.
  intros H Hm. split; [done|]. unfold all_valid in H. rewrite forallb_forall in H. by apply H, elem_of_list_In.
Qed.
Lemma merges_R D rk cx ops ms : a_store D rk -> forallb merge_op ops = true -> all_valid D ops = true ->
  pairwise coherent ms = true -> merged_msgs ops ⊆ ms ->
  R D cx (US D ms) (view D cx ops) (foldl (spec_merge D) ∅ (merged_msgs ops)) /\ s_comp (view D cx ops) = ∅.
Proof.
  intros HD Ho Hv Hc Hs.
  apply (srun_merges D rk cx (a_store_ok D rk HD) (US D ms) (US_set D ms)); try done.
  - intros a b. by apply US_coherent.
  - intros m Hm. destruct (all_valid_US D ops m Hv Hm). split; [by apply Hs|done].
  - apply R_empty.
Qed.

(** C13: two nodes that received the same messages, in any order, with any repetitions and any block boundaries, have the
    same store: messages, tombstones and every index. *)
Theorem C13_replicas_converge D rk cx ops1 ops2 :
  a_store D rk -> forallb merge_op ops1 = true -> forallb merge_op ops2 = true ->
  all_valid D ops1 = true -> pairwise identified (merged_msgs ops1) = true ->
  (forall m, m ∈ merged_msgs ops1 <-> m ∈ merged_msgs ops2) ->
  view D cx ops1 = view D cx ops2.
Proof.
  intros HD H1 H2 Hv Hi Heq. pose proof (identified_coherent _ Hi) as Hc.
  assert (Hv2 : all_valid D ops2 = true).
  { unfold all_valid in *. rewrite forallb_forall in *. intros m Hm. apply Hv. apply elem_of_list_In, Heq, elem_of_list_In, Hm. }
  destruct (merges_R D rk cx ops1 (merged_msgs ops1) HD H1 Hv Hc) as [R1 C1]; [done|].
  destruct (merges_R D rk cx ops2 (merged_msgs ops1) HD H2 Hv2 Hc) as [R2 C2]; [intros m; apply Heq|].
  rewrite (spec_converge D rk (a_store_ok D rk HD) (US D (merged_msgs ops1)) (US_set _ _)
    (fun a b => US_coherent _ _ a b Hc) (merged_msgs ops1) (merged_msgs ops2)) in R1.
  - destruct (R_unique _ _ _ _ _ _ R1 R2) as (E1 & E2 & E3 & E4).
    destruct (view D cx ops1), (view D cx ops2). cbn in *. congruence.
  - by apply US_strong.
  - intros m Hm. by apply all_valid_US.
  - done.
Qed.

(** C14: a submitted message is stored exactly when no submitted message about the same subject outranks it. *)
Theorem C14_stored_iff_greatest D rk cx ops :
  a_store D rk -> forallb merge_op ops = true -> all_valid D ops = true ->
  forallb plain (merged_msgs ops) = true -> pairwise identified (merged_msgs ops) = true ->
  forall f t m, s_rows (view D cx ops) !! (f, t) = Some m <->
    m ∈ merged_msgs ops /\ m_fid m = f /\ tsh m = t /\
    forall m', m' ∈ merged_msgs ops -> same_subject m' m -> lex (rk m') (rk m) <> Gt.
Proof.
  intros HD Ho Hv Hp Hi f t m. pose proof (identified_coherent _ Hi) as Hc.
  destruct (merges_R D rk cx ops (merged_msgs ops) HD Ho Hv Hc) as [R1 _]; [done|].
  assert (HU : forall x, x ∈ merged_msgs ops -> US D (merged_msgs ops) x) by (intros x; by apply all_valid_US).
  pose proof (spec_max D rk (a_store_ok D rk HD) (US D (merged_msgs ops)) (US_set _ _)
    (fun a b => US_coherent _ _ a b Hc) (merged_msgs ops) HU) as Hmax.
  assert (Hss : forall a b, a ∈ merged_msgs ops -> b ∈ merged_msgs ops -> wkey D a = wkey D b <-> same_subject a b).
  { intros a b Ha Hb. rewrite forallb_forall in Hp.
    apply (slot_subject D rk); [done|by apply HU|by apply HU|by apply Hp, elem_of_list_In..]. }
  rewrite (R_rows _ _ _ _ _ R1). split.
  - intros (H & <- & <-). specialize (Hmax (wkey D m)). rewrite H in Hmax. destruct Hmax as (M1 & M2 & M3).
    repeat split; try done. intros m' Hm' Hs. apply M3; [done|]. by apply Hss.
  - intros (H & <- & <- & Hg). split; [|done]. specialize (Hmax (wkey D m)).
    destruct (foldl (spec_merge D) ∅ (merged_msgs ops) !! wkey D m) as [w|].
    + destruct Hmax as (M1 & M2 & M3). f_equal.
      apply (max_unique D rk (a_store_ok D rk HD) (US D (merged_msgs ops)) (US_set _ _));
        try done; [by apply US_strong|by apply HU|by apply HU| |].
      * apply Hg; [done|]. by apply Hss.
      * by apply M3.
    + by destruct (Hmax m).
Qed.

(** C14: with several signatures over the same data: what is stored is greatest, every subject is held. *)
Theorem C14_subject_held D rk cx ops :
  a_store D rk -> forallb merge_op ops = true -> all_valid D ops = true ->
  forallb plain (merged_msgs ops) = true -> pairwise coherent (merged_msgs ops) = true ->
  forall m, m ∈ merged_msgs ops -> exists w, w ∈ merged_msgs ops /\ same_subject m w /\
    s_rows (view D cx ops) !! (m_fid w, tsh w) = Some w /\
    forall m', m' ∈ merged_msgs ops -> same_subject m' w -> lex (rk m') (rk w) <> Gt.
Proof.
  intros HD Ho Hv Hp Hc m Hm.
  destruct (merges_R D rk cx ops (merged_msgs ops) HD Ho Hv Hc) as [R1 _]; [done|].
  assert (HU : forall x, x ∈ merged_msgs ops -> US D (merged_msgs ops) x) by (intros x; by apply all_valid_US).
  pose proof (spec_max D rk (a_store_ok D rk HD) (US D (merged_msgs ops)) (US_set _ _)
    (fun a b => US_coherent _ _ a b Hc) (merged_msgs ops) HU (wkey D m)) as Hmax.
  assert (Hss : forall a b, a ∈ merged_msgs ops -> b ∈ merged_msgs ops -> wkey D a = wkey D b <-> same_subject a b).
  { intros a b Ha Hb. rewrite forallb_forall in Hp.
    apply (slot_subject D rk); [done|by apply HU|by apply HU|by apply Hp, elem_of_list_In..]. }
  destruct (foldl (spec_merge D) ∅ (merged_msgs ops) !! wkey D m) as [w|] eqn:E; [|by destruct (Hmax m)].
  destruct Hmax as (M1 & M2 & M3). exists w. split; [done|]. split; [by apply Hss|]. split.
  - apply (R_rows _ _ _ _ _ R1). by rewrite M2.
  - intros m' Hm' Hs. apply M3; [done|]. rewrite <- M2. by apply Hss.
Qed.

(** C14: at most one message, addition or tombstone, per author and subject; after any history, with prunes,
    revocations and compact states, committed or not. *)
Theorem C14_one_per_subject D rk cx ops :
  a_store D rk -> fine D cx false start ops = true -> forallb plain (merged_msgs ops) = true ->
  pairwise coherent (merged_msgs ops) = true ->
  forall f t t' a b, s_rows (view D cx ops) !! (f, t) = Some a -> s_rows (view D cx ops) !! (f, t') = Some b ->
    same_subject a b -> a = b.
Proof.
  intros HD Hf Hp Hc f t t' a b Ha Hb Hs.
  destruct (reach_inv D rk cx false ops (merged_msgs ops) HD Hf) as [_ [[W HR] _]]; [done|done|].
  apply (R_rows _ _ _ _ _ HR) in Ha as (Ha & _), Hb as (Hb & _).
  destruct (R_wf _ _ _ _ _ HR _ _ _ Ha) as [[A1 A2] _], (R_wf _ _ _ _ _ HR _ _ _ Hb) as [[B1 B2] _].
  rewrite forallb_forall in Hp.
  assert (E : wkey D a = wkey D b) by (apply (slot_subject D rk); try done; by apply Hp, elem_of_list_In).
  rewrite E in Ha. congruence.
Qed.

(** C14: a refused merge leaves the state untouched. *)
Theorem C14_refused_untouched D rk cx ops m e :
  a_store D rk -> fine D cx false start (ops ++ [OMerge m]) = true -> pairwise coherent (m :: merged_msgs ops) = true ->
  (merge D (disk D cx ops) (view D cx ops) (cx m) m).2 = inl e ->
  (merge D (disk D cx ops) (view D cx ops) (cx m) m).1 = view D cx ops.
Proof.
  intros HD Hf Hc He.
  pose proof (fine_snoc D cx false ops (OMerge m) start Hf) as Hf'.
  destruct Hf' as [Hf1 Hf2]. destruct (srun D cx start ops) as [db v] eqn:Est. cbn [fst snd] in *.
  destruct (reach_inv D rk cx false ops (m :: merged_msgs ops) HD Hf1) as [_ Hv]; [set_solver|done|].
  rewrite Est in Hv. destruct Hv as [[W HR] Hco]. cbn in HR, Hco.
  cbn [op_fine] in Hf2. rewrite !orb_true_iff, !andb_true_iff in Hf2. destruct Hf2 as [[H|H]|[[H1 H2] _]].
  - destruct (merge_cases D rk cx (a_store_ok D rk HD) (US D (m :: merged_msgs ops)) (US_set _ _)
      (fun a b => US_coherent _ _ a b Hc) db v W m HR) as (v' & r & E & Hx).
    { split; [left|done]. }
    rewrite E in *. cbn in *. destruct Hx as [(e' & _ & ->)|(l & -> & _)]; done.
  - by rewrite merge_ignored.
  - rewrite merge_comp_unfold in * by done.
    destruct (merge_compact_spec D rk cx (a_store_ok D rk HD) (US D (m :: merged_msgs ops)) (US_set _ _)
      (fun a b => US_coherent _ _ a b Hc) db v W (c_scoped (cx m)) m HR Hco H1) as (v' & r & E & Hx).
    { by apply scan_fresh_ok. }
    rewrite E in *. cbn in *. destruct Hx as [(x & _ & _ & -> & _)|(_ & l & -> & _)]; done.
Qed.

(** C15: once a removal of a cast was received, that cast is never live again, whatever is received in any order. *)
Theorem C15_removed_cast_never_returns cx ops r :
  forallb merge_op ops = true -> all_valid cast_def ops = true -> forallb plain (merged_msgs ops) = true ->
  pairwise coherent (merged_msgs ops) = true ->
  r ∈ merged_msgs ops -> m_type r = T_CastRemove ->
  forall f t x, s_rows (view cast_def cx ops) !! (f, t) = Some x -> same_subject r x -> m_type x = T_CastRemove.
Proof.
  intros Ho Hv Hp Hc Hr Ht f t x Hx Hs.
  destruct (merges_R cast_def cast_rank cx ops (merged_msgs ops) st_cast Ho Hv Hc) as [R1 _]; [done|].
  assert (HU : forall x, x ∈ merged_msgs ops -> US cast_def (merged_msgs ops) x) by (intros y; by apply all_valid_US).
  apply (R_rows _ _ _ _ _ R1) in Hx as (Hx & _ & _).
  pose proof (spec_max cast_def cast_rank cast_def_ok (US cast_def (merged_msgs ops)) (US_set _ _)
    (fun a b => US_coherent _ _ a b Hc) (merged_msgs ops) HU (wkey cast_def x)) as Hmax.
  rewrite Hx in Hmax. destruct Hmax as (M1 & _ & M3).
  assert (E : wkey cast_def r = wkey cast_def x).
  { rewrite forallb_forall in Hp. apply (slot_subject cast_def cast_rank); try done; [apply st_cast|by apply HU|by apply HU|by apply Hp, elem_of_list_In..]. }
  specialize (M3 r Hr E). unfold cast_rank in M3. rewrite lex_cons in M3.
  assert (is_removal r = true) as Rr by (unfold is_removal; by rewrite Ht). rewrite Rr in M3.
  destruct (HU x M1) as [_ Sx]. apply set_msg_basic in Sx as (_ & _ & _ & K & _). cbn in K. rewrite !N.eqb_eq in K.
  destruct K as [K|K]; [|done]. exfalso. apply M3. unfold is_removal. rewrite K. done.
Qed.
(** C15: replicas agree on casts: C13 for the cast store. *)
Theorem C15_replicas_agree cx ops1 ops2 :
  forallb merge_op ops1 = true -> forallb merge_op ops2 = true ->
  all_valid cast_def ops1 = true -> pairwise identified (merged_msgs ops1) = true ->
  (forall m, m ∈ merged_msgs ops1 <-> m ∈ merged_msgs ops2) ->
  view cast_def cx ops1 = view cast_def cx ops2.
Proof. apply (C13_replicas_converge cast_def cast_rank), st_cast. Qed.

(** C16: submitting again what is stored (same author and hash, possibly signed by another key) is refused and changes
    nothing; the refusal says "duplicate" when no compact state is involved. *)
Theorem C16_duplicate_harmless D rk cx ops m m' f t :
  a_store D rk -> fine D cx false start ops = true -> pairwise coherent (m' :: merged_msgs ops) = true ->
  s_rows (view D cx ops) !! (f, t) = Some m -> set_msg D m' = true -> m_fid m' = m_fid m -> m_hash m' = m_hash m ->
  exists e, merge D (disk D cx ops) (view D cx ops) (cx m') m' = (view D cx ops, inl e)
    /\ (s_comp (view D cx ops) = ∅ -> e = EDuplicate).
Proof.
  intros HD Hf Hc Hm Sm' E1 E2.
  destruct (reach_inv D rk cx false ops (m' :: merged_msgs ops) HD Hf) as [_ [[W HR] _]]; [set_solver|done|].
  pose proof (proj1 (R_rows _ _ _ _ _ HR _ _ _) Hm) as (Hw & <- & <-).
  apply (merge_again D rk cx (a_store_ok D rk HD) (US D (m' :: merged_msgs ops)) (US_set _ _)
    (fun a b => US_coherent _ _ a b Hc) _ _ W m m'); try done.
  - by apply (R_wf _ _ _ _ _ HR (m_fid m) (slot_of D m)).
  - split; [left|done].
Qed.
(** C16 for compact states. *)
Theorem C16_duplicate_compact_state cx ops c s :
  fine link_def cx false start ops = true -> pairwise coherent (merged_msgs ops) = true ->
  s_comp (view link_def cx ops) !! (m_fid c, s) = Some c ->
  merge link_def (disk link_def cx ops) (view link_def cx ops) (cx c) c = (view link_def cx ops, inl ENewerCompact).
Proof.
  intros Hf Hc Hs.
  destruct (reach_inv link_def lww_rank cx false ops (merged_msgs ops) st_link Hf) as [_ [_ Hco]]; [done|done|].
  destruct (Hco _ _ _ Hs) as (H1 & _ & H3). rewrite merge_comp_unfold by done.
  unfold merge_compact. rewrite H3, Hs, N.ltb_irrefl. done.
Qed.

(** C17: the indexes agree with the stored messages after every history in which no scan meets a message superseded in
    the open transaction. *)
Theorem C17_indexes_agree D rk cx ops :
  a_store D rk -> fine D cx false start ops = true -> pairwise coherent (merged_msgs ops) = true ->
  index_consistent D cx (view D cx ops) /\ index_consistent D cx (disk D cx ops).
Proof.
  intros HD Hf Hc. destruct (reach_inv D rk cx false ops (merged_msgs ops) HD Hf) as [[[W1 HR1] _] [[W2 HR2] _]]; [done|done|].
  split; eapply (R_consistent D rk cx (merged_msgs ops)); done.
Qed.

(** C18: an accepted compact state, merged on committed state, removes exactly the account's links of that type that
    are not newer and not listed. *)
Theorem C18_compact_state_effect cx ops c ty targets :
  fine link_def cx true start (ops ++ [OMerge c]) = true -> pairwise coherent (merged_msgs ops) = true ->
  comp_msg link_def c = true -> m_body c = BLinkCompact ty targets -> c_scoped (cx c) = true ->
  forall ev, (merge link_def (disk link_def cx ops) (view link_def cx ops) (cx c) c).2 = inr ev ->
  forall f t x,
    s_rows (view link_def cx (ops ++ [OMerge c])) !! (f, t) = Some x <->
    s_rows (view link_def cx ops) !! (f, t) = Some x /\
    ~ (f = m_fid c /\ link_type x = Some ty /\ m_ts x <= m_ts c /\ ~ listed targets x).
Proof.
  intros Hf Hco Hm Hb Hsc ev Hev f t x.
  pose proof (fine_snoc link_def cx true ops (OMerge c) start Hf) as [Hf1 Hf2].
  destruct (reach_inv link_def lww_rank cx true ops (merged_msgs ops) st_link Hf1) as [_ Hv]; [done|done|].
  unfold srun. rewrite foldl_app. cbn [foldl]. fold (srun link_def cx start ops).
  destruct (srun link_def cx start ops) as [db v]. cbn [fst snd sstep] in *.
  assert (Hsc2 : scan_ok db v (m_fid c) /\ scan_ok v db (m_fid c)).
  { cbn [op_fine] in Hf2. rewrite !orb_true_iff, !andb_true_iff in Hf2. destruct Hf2 as [[H|H]|[[H1 H2] H3]].
    - apply (not_comp link_def lww_rank link_def_ok) in H. apply comp_msg_facts in Hm as (_ & _ & Hm & _). congruence.
    - apply comp_msg_facts in Hm as (_ & Hm1 & Hm & _). unfold ignored in H. rewrite Hm1, Hm in H. cbn in H. by rewrite andb_false_r in H.
    - cbn in H3. split; by apply scan_fresh_ok. }
  destruct Hsc2 as [Hs1 Hs2]. destruct Hv as [[W HR] Hcok].
  rewrite merge_comp_unfold in * by done. rewrite Hsc in *.
  destruct (merge_compact_spec link_def lww_rank cx link_def_ok (US link_def (merged_msgs ops)) (US_set _ _)
    (fun a b => US_coherent _ _ a b Hco) db v W true c HR Hcok Hm Hs1)
    as (v' & r & E & [(y & _ & _ & _ & ->)|(_ & l & _ & Hl & HR' & _)]); rewrite E in *; cbn [fst snd] in *; [done|].
  rewrite (R_minus_rows _ _ _ _ _ _ _ HR HR').
  split; intros [Hx Hn]; (split; [done|]);
    pose proof (proj1 (R_rows _ _ _ _ _ HR _ _ _) Hx) as (Hw & Hxf & Hxt);
    destruct (R_wf _ _ _ _ _ HR _ _ _ Hw) as [[_ Sx] _];
    destruct (link_set_body x Sx) as (ty' & tt' & B & Ht & Ha).
  - intros (-> & Hty & Hle & Hnl). apply Hn, Hl. split; [apply Hs2; by rewrite Hxt|].
    unfold covered, compact_details. rewrite Hb, (proj2 (N.leb_le _ _) Hle). cbn [andb].
    unfold link_type in Hty. rewrite B in Hty. injection Hty as ->.
    unfold is_compaction_conflict. rewrite B, bool_decide_true by done. cbn [negb andb d_is_rem d_is_add link_def].
    destruct Ht as [Ht|Ht]; rewrite Ht; [|done]. cbn. destruct (Ha Ht) as [y ->].
    apply negb_true_iff, bool_decide_eq_false. intros Hin. apply Hnl. split; [done|]. exists y. unfold link_target. by rewrite B.
  - intros Hin. apply Hl in Hin as [Hin Hcov]. apply Hn.
    unfold covered, compact_details in Hcov. rewrite Hb in Hcov. apply andb_true_iff in Hcov as [H1 H2].
    unfold is_compaction_conflict in H2. rewrite B in H2. cbn [d_is_rem d_is_add link_def] in H2.
    destruct (bool_decide_reflect (ty' = ty)) as [->|]; [|done]. cbn [negb andb] in H2.
    split; [|split; [|split]].
    + apply Hs1, (R_rows _ _ _ _ _ HR) in Hin as (_ & Hin & _). congruence.
    + unfold link_type. by rewrite B.
    + by apply N.leb_le.
    + intros [L1 (y & L2 & L3)]. rewrite L1 in H2. cbn in H2. unfold link_target in L2. rewrite B in L2. subst tt'.
      by rewrite bool_decide_true in H2.
Qed.

(** C18: afterwards, over every further history of committed compactions, no stored link contradicts a stored compact
    state: a stored link of the type older than it is an addition of a listed target. *)
Theorem C18_stored_links_respect_compact_state cx ops f s c ty targets t x :
  fine link_def cx true start ops = true -> pairwise coherent (merged_msgs ops) = true ->
  forallb plain (merged_msgs ops) = true ->
  s_comp (view link_def cx ops) !! (f, s) = Some c -> m_body c = BLinkCompact ty targets ->
  s_rows (view link_def cx ops) !! (f, t) = Some x -> link_type x = Some ty -> m_ts x < m_ts c -> listed targets x.
Proof.
  intros Hf Hc Hp. apply (fine_plain_inv cx (merged_msgs ops) ops start); try done; apply vinv_empty.
Qed.

(** C18: a later merge that contradicts the stored compact state is refused and changes nothing, in every state. *)
Theorem C18_contradicting_merge_refused cx (db v : smap) c ty targets x :
  s_comp v !! (m_fid x, pad8 ty) = Some c -> m_body c = BLinkCompact ty targets ->
  set_msg link_def x = true -> link_type x = Some ty -> m_ts x < m_ts c -> ~ listed targets x ->
  exists e, merge link_def db v (cx x) x = (v, inl e).
Proof.
  intros Hs Hb Sx Hty Hlt Hn.
  assert (H1 : forall m, x = m -> set_msg link_def m = true) by (by intros m <-).
  rewrite (merge_unfold link_def lww_rank cx link_def_ok (eq x) H1 db v x eq_refl). clear H1.
  destruct (link_set_body x Sx) as (ty' & tt' & B & Ht & Ha).
  unfold link_type in Hty. rewrite B in Hty. injection Hty as ->.
  assert (Hcc : exists e, compact_check link_def v (d_is_add link_def x) x = Some e).
  { unfold compact_check. cbn. unfold link_comp_slot. rewrite B, Hs. unfold compact_details. rewrite Hb.
    rewrite (proj2 (N.ltb_lt _ _) Hlt). destruct Ht as [Ht|Ht]; rewrite Ht; cbn; [|eauto].
    destruct (Ha Ht) as [y ->]. unfold compact_add_conflict. rewrite B, (proj2 (N.ltb_lt _ _) Hlt). cbn.
    rewrite bool_decide_false; [eauto|]. intros Hin. apply Hn. split; [done|]. exists y. unfold link_target. by rewrite B. }
  destruct Hcc as [e Hcc]. unfold merge_set. rewrite Hcc. eauto.
Qed.

(** C18: an older (or equally old) compact state cannot displace a newer one, in every state. *)
Theorem C18_older_compact_state_refused cx (db v : smap) c c' ty targets targets' :
  s_comp v !! (m_fid c', pad8 ty) = Some c -> m_body c = BLinkCompact ty targets ->
  comp_msg link_def c' = true -> m_body c' = BLinkCompact ty targets' -> m_ts c' <= m_ts c ->
  merge link_def db v (cx c') c' = (v, inl ENewerCompact).
Proof.
  intros Hs Hb Hm Hb' Hle. rewrite merge_comp_unfold by done. unfold merge_compact.
  cbn [d_comp_slot link_def]. unfold link_comp_slot. rewrite Hb', Hs.
  destruct (N.ltb_spec (m_ts c) (m_ts c')); [lia|done].
Qed.

Lemma older_spec a b : m_ts a < 2 ^ 32 -> m_ts b < 2 ^ 32 ->
  blt (tsh a) (tsh b) = true <-> m_ts a < m_ts b \/ (m_ts a = m_ts b /\ blt (m_hash a) (m_hash b) = true).
Proof.
  intros Ha Hb. rewrite !blt_lex. unfold tsh. rewrite lex_app by (by rewrite !be_length). rewrite be_lex by (cbn; lia).
  destruct (N.compare_spec (m_ts a) (m_ts b)) as [E|E|E]; split; intros H; try lia; try done; try tauto.
  by destruct H as [H|[_ H]]; [lia|].
Qed.
Lemma strict_scan_perm D cx U db v W f : R D cx U v W -> scan_ok db v f -> scan_ok v db f ->
  rows_of (s_rows v) f ≡ₚ rows_of (s_rows db) f.
Proof.
  intros HR H1 H2. apply NoDup_Permutation; [apply rows_of_nodup..|]. intros [t m]. rewrite !rows_of_elem. split; auto.
Qed.

(** Number of messages an account has in the store. *)
Definition stored_count (v : smap) (f : N) : nat := size (filter (fun p => p.1.1 = f) (s_rows v)).

(** C19: pruning committed state evicts exactly [count - mx] messages (all, if fewer are stored), each older than
    every message that stays, and touches nothing else. *)
Theorem C19_prune_oldest_first D rk cx ops f count mx :
  a_store D rk -> fine D cx true start (ops ++ [OPrune f count mx]) = true -> pairwise coherent (merged_msgs ops) = true ->
  let v := view D cx ops in let v' := view D cx (ops ++ [OPrune f count mx]) in
  exists evicted,
    (prune_messages D (disk D cx ops) v f count mx).2 = inr (map EvPrune evicted) /\
    NoDup evicted /\ length evicted = min (N.to_nat (count - mx)) (stored_count v f) /\
    (forall e, e ∈ evicted -> s_rows v !! (f, tsh e) = Some e) /\
    (forall f' t x, s_rows v' !! (f', t) = Some x <-> s_rows v !! (f', t) = Some x /\ x ∉ evicted) /\
    (forall e t x, e ∈ evicted -> s_rows v' !! (f, t) = Some x ->
       m_ts e < m_ts x \/ (m_ts e = m_ts x /\ blt (m_hash e) (m_hash x) = true)) /\
    stored_count v' f = (stored_count v f - min (N.to_nat (count - mx)) (stored_count v f))%nat /\
    index_consistent D cx v'.
Proof.
  intros HD Hf Hco. cbn zeta.
  pose proof (fine_snoc D cx true ops (OPrune f count mx) start Hf) as [Hf1 Hf2].
  destruct (reach_inv D rk cx true ops (merged_msgs ops) HD Hf1) as [_ Hv]; [done|done|].
  unfold srun. rewrite foldl_app. cbn [foldl]. fold (srun D cx start ops).
  destruct (srun D cx start ops) as [db v]. cbn [fst snd sstep] in *.
  cbn in Hf2. apply andb_true_iff in Hf2 as [Hs1 Hs2]. apply scan_fresh_ok in Hs1, Hs2.
  destruct Hv as [[W HR] Hcok].
  pose proof (strict_scan_perm _ _ _ db v W f HR Hs1 Hs2) as HP.
  pose proof (scan_winners _ _ _ db v W f HR Hs1) as Hwin.
  set (n := N.to_nat (count - mx)). set (L := rows_of (s_rows db) f) in *.
  assert (HL : stored_count v f = length L).
  { unfold stored_count. rewrite rows_size. by apply Permutation_length. }
  assert (Hp : exists v', prune_messages D db v f count mx = (v', inr (map EvPrune (take n L.*2))) /\
    R D cx (US D (merged_msgs ops)) v' (wminus W (take n L.*2))).
  { unfold prune_messages. destruct (N.leb_spec count mx) as [Hle|Hle].
    - unfold n. replace (count - mx) with 0 by lia. change (N.to_nat 0) with 0%nat. rewrite take_0. exists v. split; [done|].
      assert (Ew : wminus W [] = W); [|by rewrite Ew].
      apply map_eq. intros k. apply option_eq. intros m. rewrite wminus_lookup. set_solver.
    - destruct (prune_loop_spec D rk cx (a_store_ok D rk HD) (US D (merged_msgs ops)) (US_set _ _)
        (fun a b => US_coherent _ _ a b Hco) L v W count mx [] HR Hwin) as (v' & E & HR' & _). eauto. }
  destruct Hp as (v' & E & HR'). rewrite E. cbn [fst snd].
  pose proof (R_minus_rows _ _ _ _ _ _ _ HR HR') as Hrows.
  assert (HinL : forall t x, (t, x) ∈ L <-> s_rows v !! (f, t) = Some x).
  { intros t x. unfold L. rewrite rows_of_elem. split; auto. }
  assert (Htsh : forall t x, (t, x) ∈ L -> t = tsh x /\ m_ts x < 2 ^ 32).
  { intros t x H. apply HinL, (R_rows _ _ _ _ _ HR) in H as (H & _ & <-). split; [done|].
    destruct (R_wf _ _ _ _ _ HR _ _ _ H) as [[_ S] _]. by apply set_msg_basic in S as (_ & S & _). }
  assert (Hsplit : forall t x, (t, x) ∈ L -> x ∉ take n L.*2 <-> (t, x) ∈ drop n L).
  { intros t x H. destruct Hwin as [Hnd _]. rewrite <- (take_drop n L) in H. apply elem_of_app in H.
    rewrite <- (take_drop n L.*2) in Hnd. apply NoDup_app in Hnd as (_ & Hd & _). split.
    - intros Hx. destruct H as [H|H]; [|done]. exfalso. apply Hx. rewrite <- fmap_take.
      apply elem_of_list_fmap. by exists (t, x).
    - intros Hx Hin. apply (Hd x Hin). rewrite <- fmap_drop. apply elem_of_list_fmap. by exists (t, x). }
  exists (take n L.*2). split; [done|]. split; [|split; [|split; [|split; [|split; [|split]]]]].
  - destruct Hwin as [Hnd _]. rewrite <- (take_drop n L.*2) in Hnd. by apply NoDup_app in Hnd as (Hnd & _).
  - rewrite take_length, fmap_length, HL. done.
  - intros e He. rewrite <- fmap_take in He. apply elem_of_list_fmap in He as ([t e'] & -> & He). cbn.
    assert (Hin : (t, e') ∈ L) by (rewrite <- (take_drop n L); apply elem_of_app; by left).
    destruct (Htsh _ _ Hin) as [<- _]. by apply HinL.
  - exact Hrows.
  - intros e t x He Hx. apply Hrows in Hx as [Hx Hn]. apply HinL in Hx. pose proof (proj1 (Hsplit t x Hx) Hn) as Hd.
    rewrite <- fmap_take in He. apply elem_of_list_fmap in He as ([te e'] & -> & He). cbn.
    assert (Hin : (te, e') ∈ L) by (rewrite <- (take_drop n L); apply elem_of_app; by left).
    pose proof (rows_of_sorted (s_rows db) f) as Hsort. fold L in Hsort. rewrite <- (take_drop n L) in Hsort.
    pose proof (elem_of_StronglySorted_app row_le _ _ _ _ Hsort He Hd) as Hle. unfold row_le in Hle. cbn in Hle.
    destruct (Htsh _ _ Hin) as [-> Le], (Htsh _ _ Hx) as [-> Lx]. apply older_spec; [done..|].
    apply ble_eq_or_lt in Hle as [Eq|Hlt]; [|done]. exfalso. apply Hn. rewrite <- fmap_take.
    apply elem_of_list_fmap. exists (tsh e', e'). split; [|done]. cbn.
    apply HinL in Hx. apply HinL in Hin. rewrite Eq in Hin. congruence.
  - rewrite HL. unfold stored_count. rewrite rows_size.
    assert (P2 : rows_of (s_rows v') f ≡ₚ drop n L).
    { apply NoDup_Permutation; [apply rows_of_nodup| |].
      - pose proof (rows_of_nodup (s_rows db) f) as Hnd. fold L in Hnd. rewrite <- (take_drop n L) in Hnd.
        by apply NoDup_app in Hnd as (_ & _ & Hnd).
      - intros [t x]. rewrite rows_of_elem, Hrows. split.
        + intros [H1 H2]. apply HinL in H1. by apply Hsplit.
        + intros H. assert (Hin : (t, x) ∈ L) by (rewrite <- (take_drop n L); apply elem_of_app; by right).
          split; [by apply HinL|]. by apply (Hsplit t x). }
    rewrite (Permutation_length P2), drop_length. lia.
  - eapply (R_consistent D rk cx (merged_msgs ops)); done.
Qed.

(** C19: if the count given is the number stored, pruning ends at the limit or below it. *)
Theorem C19_ends_within_limit D rk cx ops f mx :
  a_store D rk -> let n := stored_count (view D cx ops) f in
  fine D cx true start (ops ++ [OPrune f (N.of_nat n) mx]) = true -> pairwise coherent (merged_msgs ops) = true ->
  N.of_nat (stored_count (view D cx (ops ++ [OPrune f (N.of_nat n) mx])) f) = N.min (N.of_nat n) mx.
Proof.
  intros HD n Hf Hco. destruct (C19_prune_oldest_first D rk cx ops f (N.of_nat n) mx HD Hf Hco) as (l & H). cbn zeta in H.
  destruct H as (_ & _ & _ & _ & _ & _ & H & _). rewrite H. fold n. lia.
Qed.

(** C20: revoking a signer removes exactly the committed messages of the account signed by it. *)
Theorem C20_revoke_exact D rk cx strict ops f key :
  a_store D rk -> fine D cx strict start (ops ++ [ORevoke f key]) = true -> pairwise coherent (merged_msgs ops) = true ->
  let db := disk D cx ops in let v := view D cx ops in let v' := view D cx (ops ++ [ORevoke f key]) in
  (forall f' t x, s_rows v' !! (f', t) = Some x <->
     s_rows v !! (f', t) = Some x /\ ~ (f' = f /\ m_signer x = key /\ s_rows db !! (f, t) = Some x)) /\
  index_consistent D cx v'.
Proof.
  intros HD Hf Hco. cbn zeta.
  pose proof (fine_snoc D cx strict ops (ORevoke f key) start Hf) as [Hf1 Hf2].
  destruct (reach_inv D rk cx strict ops (merged_msgs ops) HD Hf1) as [_ Hv]; [done|done|].
  unfold srun. rewrite foldl_app. cbn [foldl]. fold (srun D cx start ops).
  destruct (srun D cx start ops) as [db v]. cbn [fst snd sstep] in *.
  cbn in Hf2. apply andb_true_iff in Hf2 as [Hs1 _]. apply scan_fresh_ok in Hs1.
  destruct Hv as [[W HR] Hcok]. unfold revoke_by_signer.
  destruct (revoke_loop_spec D rk cx (a_store_ok D rk HD) (US D (merged_msgs ops)) (US_set _ _)
    (fun a b => US_coherent _ _ a b Hco) key (rows_of (s_rows db) f) v W [] HR (scan_winners _ _ _ db v W f HR Hs1))
    as (v' & -> & HR' & _). cbn [fst].
  split; [|eapply (R_consistent D rk cx (merged_msgs ops)); done].
  intros f' t x. rewrite (R_minus_rows _ _ _ _ _ _ _ HR HR').
  assert (Hin : x ∈ by_signer key (rows_of (s_rows db) f).*2 <-> m_signer x = key /\ s_rows db !! (f, tsh x) = Some x).
  { unfold by_signer. rewrite <- (scan_elem _ _ _ db v W f x HR Hs1). rewrite !elem_of_list_In, filter_In.
    rewrite bool_decide_eq_true. tauto. }
  rewrite Hin. split; intros [H1 H2]; (split; [done|]).
  - intros (-> & Hk & Hd). apply H2. split; [done|]. pose proof Hd as Hd'. apply Hs1, (R_rows _ _ _ _ _ HR) in Hd' as (_ & _ & ->). done.
  - intros [Hk Hd]. apply H2. pose proof (proj1 (R_rows _ _ _ _ _ HR _ _ _) H1) as (_ & E1 & E2).
    apply Hs1 in Hd as Hd'. apply (R_rows _ _ _ _ _ HR) in Hd' as (_ & E3 & _). rewrite E2 in Hd. split; [congruence|done].
Qed.
(** C20: on committed state no message of the account signed by the revoked key remains. *)
Theorem C20_nothing_left D rk cx ops f key :
  a_store D rk -> fine D cx true start (ops ++ [ORevoke f key]) = true -> pairwise coherent (merged_msgs ops) = true ->
  forall t x, s_rows (view D cx (ops ++ [ORevoke f key])) !! (f, t) = Some x -> m_signer x <> key.
Proof.
  intros HD Hf Hco t x Hx Hk.
  pose proof (fine_snoc D cx true ops (ORevoke f key) start Hf) as [_ Hf2].
  apply (proj1 (C20_revoke_exact D rk cx true ops f key HD Hf Hco)) in Hx as [Hx Hn]. apply Hn. split; [done|]. split; [done|].
  destruct (srun D cx start ops) as [db v]. cbn in *. apply andb_true_iff in Hf2 as [_ Hf2]. apply scan_fresh_ok in Hf2. by apply Hf2.
Qed.

(** * Mirroring (C56)
    Shard 0 decides on verifications; the data shards re-apply the accepted ones in order with merge_force_override
    (engine.rs:1912-1939 merge_replayed_verification, store.rs:837-892). *)
Fixpoint accepted (D : sdef) (cx : msg -> mctx) (st : smap * smap) (ops : list sop) : list msg :=
  match ops with
  | [] => []
  | o :: r =>
    match o with
    | OMerge m => match (merge D st.1 st.2 (cx m) m).2 with inr _ => [m] | inl _ => [] end
    | _ => []
    end ++ accepted D cx (sstep D cx st o) r
  end.
Definition mirror (D : sdef) (cx : msg -> mctx) (v : smap) (ms : list msg) : smap :=
  foldl (fun v m => (merge_force_override D v (cx m) m).1) v ms.
Definition put_all (D : sdef) (W : gmap rkey msg) (ms : list msg) : gmap rkey msg :=
  foldl (fun W m => <[wkey D m := m]> W) W ms.

Lemma accepted_sub D cx ops : forall st, accepted D cx st ops ⊆ merged_msgs ops.
Proof.
  induction ops as [|o ops IH]; intros st m Hm; [done|]. cbn in Hm. apply elem_of_app in Hm.
  unfold merged_msgs. destruct o as [x| | | |]; cbn; try (destruct Hm as [Hm|Hm]; [by apply elem_of_nil in Hm|by apply IH in Hm]).
  destruct Hm as [Hm|Hm]; [|right; by apply IH in Hm].
  destruct (merge D st.1 st.2 (cx x) x).2; [by apply elem_of_nil in Hm|].
  apply elem_of_list_singleton in Hm as ->. left.
Qed.
Lemma put_all_lookup D ms : forall W k, (exists m, m ∈ ms /\ wkey D m = k) -> forall W', put_all D W ms !! k = put_all D W' ms !! k.
Proof.
  induction ms as [|m ms IH] using rev_ind; intros W k (x & Hx & Hk) W'; [by apply elem_of_nil in Hx|].
  unfold put_all. rewrite !foldl_app. cbn. fold (put_all D W ms) (put_all D W' ms).
  destruct (decide (wkey D m = k)) as [->|Hn]; [by rewrite !lookup_insert|].
  rewrite !lookup_insert_ne by done. apply IH. apply elem_of_app in Hx as [Hx|Hx]; [eauto|].
  apply elem_of_list_singleton in Hx. congruence.
Qed.
Lemma put_all_other D ms : forall W k, (forall m, m ∈ ms -> wkey D m <> k) -> put_all D W ms !! k = W !! k.
Proof.
  induction ms as [|m ms IH] using rev_ind; intros W k Hk; [done|].
  unfold put_all. rewrite foldl_app. cbn. fold (put_all D W ms).
  rewrite lookup_insert_ne by (apply Hk, elem_of_app; right; left). apply IH. intros x Hx. apply Hk, elem_of_app. by left.
Qed.
Lemma accepted_R D rk cx ms ops : a_store D rk -> pairwise coherent ms = true -> forallb merge_op ops = true ->
  (forall m, m ∈ merged_msgs ops -> US D ms m) -> forall st W, R D cx (US D ms) st.2 W ->
  R D cx (US D ms) (srun D cx st ops).2 (put_all D W (accepted D cx st ops)) /\
  s_comp (srun D cx st ops).2 = s_comp st.2.
Proof.
  intros HD Hc. induction ops as [|o ops IH]; intros Ho HU [db v] W HR; [done|].
  cbn in Ho. apply andb_true_iff in Ho as [Ho1 Ho2]. destruct o as [m| | | |]; try done; cbn [accepted fst snd].
  - assert (Um : US D ms m) by (apply HU; unfold merged_msgs; cbn; left).
    assert (HU' : forall x, x ∈ merged_msgs ops -> US D ms x) by (intros x Hx; apply HU; unfold merged_msgs; cbn; by right).
    destruct (merge_cases D rk cx (a_store_ok D rk HD) (US D ms) (US_set _ _) (fun a b => US_coherent _ _ a b Hc) db v W m HR Um)
      as (v' & r & E & Hr). unfold srun. cbn [foldl sstep]. fold (srun D cx (db, (merge D db v (cx m) m).1) ops).
    rewrite E. cbn [fst snd]. destruct Hr as [(e & -> & ->)|(l & -> & HR' & Ec & _)].
    + by apply IH.
    + cbn [app]. destruct (IH Ho2 HU' (db, v') _ HR') as [I1 I2]. split; [exact I1|]. rewrite I2. exact Ec.
  - cbn [app]. apply (IH Ho2 HU (v, v)). exact HR.
Qed.
Lemma mirror_R D rk cx ms acc : a_store D rk -> d_has_compact D = false -> pairwise identified ms = true ->
  (forall m, m ∈ acc -> US D ms m) -> forall v W, R D cx (US D ms) v W ->
  R D cx (US D ms) (mirror D cx v acc) (put_all D W acc) /\ s_comp (mirror D cx v acc) = s_comp v.
Proof.
  intros HD Hn Hi. induction acc as [|m acc IH]; intros HU v W HR; [done|].
  pose proof (identified_coherent _ Hi) as Hc.
  destruct (force_spec D rk cx (a_store_ok D rk HD) (US D ms) (US_set _ _) (fun a b => US_coherent _ _ a b Hc) v W m
    (US_strong D ms Hi) Hn HR (HU m ltac:(left))) as (v' & l & E & HR' & Ec).
  unfold mirror, put_all. cbn [foldl]. rewrite E. cbn [fst].
  destruct (IH ltac:(intros x Hx; apply HU; by right) v' _ HR') as [I1 I2]. split; [exact I1|]. fold (mirror D cx v' acc). congruence.
Qed.

(** C56: a data shard that re-applies the merges accepted by shard 0, in order, reaches the same store. *)
Theorem C56_mirror_agrees D rk cx ops :
  a_store D rk -> d_has_compact D = false -> forallb merge_op ops = true -> all_valid D ops = true ->
  pairwise identified (merged_msgs ops) = true ->
  mirror D cx sempty (accepted D cx start ops) = view D cx ops.
Proof.
  intros HD Hn Ho Hv Hi. pose proof (identified_coherent _ Hi) as Hc.
  assert (HU : forall m, m ∈ merged_msgs ops -> US D (merged_msgs ops) m) by (intros m; by apply all_valid_US).
  destruct (accepted_R D rk cx (merged_msgs ops) ops HD Hc Ho HU start ∅ (R_empty D cx _)) as [R1 C1].
  destruct (mirror_R D rk cx (merged_msgs ops) (accepted D cx start ops) HD Hn Hi) with (v := sempty) (W := (∅ : gmap rkey msg)) as [R2 C2].
  { intros m Hm. apply HU. by apply accepted_sub in Hm. }
  { apply R_empty. }
  destruct (R_unique _ _ _ _ _ _ R1 R2) as (E1 & E2 & E3 & E4).
  destruct (view D cx ops), (mirror D cx sempty (accepted D cx start ops)). cbn in *. congruence.
Qed.
(** C56: the same from any earlier state of the data shard, even one that disagrees: for every subject shard 0 accepted a
    message about, the data shard ends up with shard 0's message; other subjects keep what they had. *)
Theorem C56_mirror_heals D rk cx ops ops0 :
  a_store D rk -> d_has_compact D = false -> forallb merge_op ops = true -> all_valid D ops = true ->
  fine D cx false start ops0 = true -> pairwise identified (merged_msgs ops ++ merged_msgs ops0) = true ->
  forallb plain (merged_msgs ops ++ merged_msgs ops0) = true ->
  let acc := accepted D cx start ops in let v := mirror D cx (view D cx ops0) acc in
  (forall m x f t, m ∈ acc -> same_subject x m ->
     s_rows v !! (f, t) = Some x <-> s_rows (view D cx ops) !! (f, t) = Some x) /\
  (forall x f t, (forall m, m ∈ acc -> ~ same_subject x m) ->
     s_rows v !! (f, t) = Some x <-> s_rows (view D cx ops0) !! (f, t) = Some x) /\
  index_consistent D cx v.
Proof.
  intros HD Hn Ho Hv Hf Hi Hp acc v. pose proof (identified_coherent _ Hi) as Hc.
  set (ms := merged_msgs ops ++ merged_msgs ops0) in *.
  assert (HU : forall m, m ∈ merged_msgs ops -> US D ms m).
  { intros m Hm. destruct (all_valid_US D ops m Hv Hm) as [_ S]. split; [|done]. apply elem_of_app. by left. }
  destruct (accepted_R D rk cx ms ops HD Hc Ho HU start ∅ (R_empty D cx _)) as [R1 _]. fold acc in R1.
  destruct (reach_inv D rk cx false ops0 ms HD Hf) as [_ [[W0 HR0] _]]; [intros m Hm; apply elem_of_app; by right|done|].
  destruct (mirror_R D rk cx ms acc HD Hn Hi) with (v := view D cx ops0) (W := W0) as [R2 _].
  { intros m Hm. apply HU. by apply accepted_sub in Hm. }
  { exact HR0. }
  fold v in R2. rewrite forallb_forall in Hp.
  assert (Hkey : forall a b, US D ms a -> US D ms b -> wkey D a = wkey D b <-> same_subject a b).
  { intros a b [A1 A2] [B1 B2]. apply (slot_subject D rk); try done; by apply Hp, elem_of_list_In. }
  assert (Uacc : forall m, m ∈ acc -> US D ms m) by (intros m Hm; apply HU; by apply accepted_sub in Hm).
  split; [|split].
  - intros m x f t Hm Hs. rewrite (R_rows _ _ _ _ _ R1), (R_rows _ _ _ _ _ R2).
    assert (E : US D ms x -> put_all D W0 acc !! wkey D x = put_all D ∅ acc !! wkey D x).
    { intros Ux. apply put_all_lookup. exists m. split; [done|]. symmetry. apply Hkey; [done|by apply Uacc|done]. }
    split; intros (H & Ef & Et); (split; [|done]).
    + rewrite <- E; [done|]. apply (R_wf _ _ _ _ _ R2 _ _ _ H).
    + rewrite E; [done|]. apply (R_wf _ _ _ _ _ R1 _ _ _ H).
  - intros x f t Hx. rewrite (R_rows _ _ _ _ _ R2), (R_rows _ _ _ _ _ HR0).
    assert (E : US D ms x -> put_all D W0 acc !! wkey D x = W0 !! wkey D x).
    { intros Ux. apply put_all_other. intros m Hm Ek. apply (Hx m Hm). apply Hkey; [done|by apply Uacc|done]. }
    split; intros (H & Ef & Et); (split; [|done]).
    + rewrite <- E; [done|]. apply (R_wf _ _ _ _ _ R2 _ _ _ H).
    + rewrite E; [done|]. apply (R_wf _ _ _ _ _ HR0 _ _ _ H).
  - by apply (R_consistent D rk cx ms v (put_all D W0 acc)).
Qed.

(** * Instances *)
Section Instances.
  Let h (x : N) : bytes := repeat x 20.
  Let K1 : bytes := repeat 1 32.
  Let K2 : bytes := repeat 2 32.
  Let cx0 : msg -> mctx := fun _ => MCtx true true.
  Let follow : bytes := [102; 111; 108; 108; 111; 119].
  Let block : bytes := [98; 108; 111; 99; 107].
  Let ladd (ty : bytes) (ts x tgt : N) : msg := Msg T_LinkAdd 7 ts (h x) K1 (BLink ty (Some tgt)).
  Let lrem (ty : bytes) (ts x tgt : N) : msg := Msg T_LinkRemove 7 ts (h x) K1 (BLink ty (Some tgt)).
  Let lcomp (ty : bytes) (ts x : N) (tg : list N) : msg := Msg T_LinkCompact 7 ts (h x) K1 (BLinkCompact ty tg).
  Let cadd (ts x : N) (k : bytes) : msg := Msg T_CastAdd 7 ts (h x) k (BCastAdd (Some (TUrl [104; 105])) [3; 4]).
  Let crem (ts x tgt : N) (k : bytes) : msg := Msg T_CastRemove 7 ts (h x) k (BCastRemove (h tgt)).
  Let ud (ts x : N) (k : bytes) : msg := Msg T_UserData 7 ts (h x) k (BUserData 2 [x]).
  Let chan0 : bytes -> option bytes := fun _ => None.
  Let radd (ts x : N) (t : target) : msg := Msg T_ReactionAdd 7 ts (h x) K1 (BReaction 1 (Some t)).
  Let vadd (f ts x : N) : msg := Msg T_VerifAdd f ts (h x) K1 (BVerifAdd [9; 9] 0).
  Let vrem (f ts x : N) : msg := Msg T_VerifRemove f ts (h x) K1 (BVerifRemove [9; 9] 0).
  Let lnd (ts x to units : N) : msg := Msg T_Lend 7 ts (h x) K1 (BLend to units).
  Let rows (v : smap) : list msg := (map_to_list (s_rows v)).*2.

  (** ** C13, C14 *)
  Let A1 := [OMerge (ladd follow 5 1 20); OMerge (lrem follow 6 2 20); OCommit; OMerge (ladd follow 7 3 21);
             OMerge (ladd follow 5 1 20)].
  Let A2 := [OMerge (ladd follow 7 3 21); OMerge (lrem follow 6 2 20); OMerge (ladd follow 5 1 20); OMerge (lrem follow 6 2 20)].
  Example C13_ex : forallb merge_op A1 = true /\ forallb merge_op A2 = true /\ all_valid link_def A1 = true /\
    pairwise identified (merged_msgs A1) = true /\ (forall m, m ∈ merged_msgs A1 <-> m ∈ merged_msgs A2) /\
    size (s_rows (view link_def cx0 A1)) = 2%nat /\ rows (view link_def cx0 A1) = rows (view link_def cx0 A2).
  Proof.
    split; [done|]. split; [done|]. split; [done|]. split; [by vm_compute|]. split; [|by vm_compute].
    intros m. cbn. rewrite !elem_of_cons. tauto.
  Qed.
  Example C14_ex : forallb merge_op A1 = true /\ all_valid link_def A1 = true /\ forallb plain (merged_msgs A1) = true /\
    pairwise identified (merged_msgs A1) = true /\
    s_rows (view link_def cx0 A1) !! (7, tsh (lrem follow 6 2 20)) = Some (lrem follow 6 2 20) /\
    s_rows (view link_def cx0 A1) !! (7, tsh (ladd follow 5 1 20)) = None /\
    lex (lww_rank (ladd follow 5 1 20)) (lww_rank (lrem follow 6 2 20)) = Lt.
  Proof. by vm_compute. Qed.
  Example C14_untouched_ex : fine link_def cx0 false start (A1 ++ [OMerge (ladd follow 5 1 20)]) = true /\
    pairwise coherent (ladd follow 5 1 20 :: merged_msgs A1) = true /\
    (merge link_def (disk link_def cx0 A1) (view link_def cx0 A1) (cx0 (ladd follow 5 1 20)) (ladd follow 5 1 20)).2
      = inl EConflictRemove.
  Proof. by vm_compute. Qed.
  (** At equal timestamps the removal wins in either order. *)
  Example C14_tie_ex : forall ops, ops = [OMerge (ladd follow 5 9 20); OMerge (lrem follow 5 1 20)] \/
      ops = [OMerge (lrem follow 5 1 20); OMerge (ladd follow 5 9 20)] ->
    rows (view link_def cx0 ops) = [lrem follow 5 1 20].
  Proof. by intros ops [->| ->]; vm_compute. Qed.

  (** ** C15 *)
  Let B1 := [OMerge (crem 3 2 1 K1); OCommit; OMerge (cadd 5 1 K1); OMerge (cadd 6 4 K1)].
  Example C15_ex : forallb merge_op B1 = true /\ all_valid cast_def B1 = true /\ forallb plain (merged_msgs B1) = true /\
    pairwise coherent (merged_msgs B1) = true /\ same_subject (crem 3 2 1 K1) (cadd 5 1 K1) /\
    rows (view cast_def cx0 B1) ≡ₚ [crem 3 2 1 K1; cadd 6 4 K1] /\
    size (s_idx (view cast_def cx0 B1)) = 3%nat.
  Proof.
    split; [done|]. split; [done|]. split; [done|]. split; [by vm_compute|]. split; [done|].
    split; [|by vm_compute]. vm_compute. solve_Permutation.
  Qed.

  (** ** C16 *)
  Example C16_ex : fine link_def cx0 false start A1 = true /\
    pairwise coherent (lrem follow 6 2 20 :: merged_msgs A1) = true /\
    s_rows (view link_def cx0 A1) !! (7, tsh (lrem follow 6 2 20)) = Some (lrem follow 6 2 20) /\
    set_msg link_def (lrem follow 6 2 20) = true.
  Proof. by vm_compute. Qed.
  Example C16_compact_ex : let ops := [OMerge (lcomp follow 9 5 [20])] in
    fine link_def cx0 false start ops = true /\ pairwise coherent (merged_msgs ops) = true /\
    s_comp (view link_def cx0 ops) !! (7, pad8 follow) = Some (lcomp follow 9 5 [20]).
  Proof. by vm_compute. Qed.

  (** ** C17 *)
  Let E1 := [OMerge (cadd 5 1 K1); OMerge (cadd 6 2 K2); OMerge (cadd 7 3 K1); OCommit; OMerge (crem 8 4 3 K1);
             OCommit; OPrune 7 3 2; OCommit; ORevoke 7 K2; OMerge (cadd 9 5 K1)].
  Example C17_ex : fine cast_def cx0 false start E1 = true /\ pairwise coherent (merged_msgs E1) = true /\
    size (s_rows (view cast_def cx0 E1)) = 2%nat /\ size (s_idx (view cast_def cx0 E1)) = 3%nat.
  Proof. by vm_compute. Qed.

  (** ** C18 *)
  Let F0 := [OMerge (ladd follow 5 1 20); OMerge (ladd follow 5 2 21); OMerge (ladd block 5 3 21); OMerge (ladd follow 12 4 22); OCommit].
  Let F1 := F0 ++ [OMerge (lcomp follow 9 5 [20])].
  Example C18_ex : fine link_def cx0 true start F1 = true /\ pairwise coherent (merged_msgs F0) = true /\
    forallb plain (merged_msgs F1) = true /\ comp_msg link_def (lcomp follow 9 5 [20]) = true /\
    (merge link_def (disk link_def cx0 F0) (view link_def cx0 F0) (cx0 (lcomp follow 9 5 [20])) (lcomp follow 9 5 [20])).2
      = inr (EvMerge (lcomp follow 9 5 [20]) [ladd follow 5 2 21]) /\
    size (s_rows (view link_def cx0 F1)) = 3%nat /\ size (s_comp (view link_def cx0 F1)) = 1%nat.
  Proof. by vm_compute. Qed.
  Example C18_refused_ex :
    s_comp (view link_def cx0 F1) !! (7, pad8 follow) = Some (lcomp follow 9 5 [20]) /\
    set_msg link_def (ladd follow 8 6 23) = true /\ link_type (ladd follow 8 6 23) = Some follow /\
    ~ listed [20] (ladd follow 8 6 23) /\
    (merge link_def (disk link_def cx0 F1) (view link_def cx0 F1) (MCtx true true) (ladd follow 8 6 23)).2 = inl ENotListed /\
    comp_msg link_def (lcomp follow 8 6 []) = true.
  Proof.
    split; [by vm_compute|]. split; [by vm_compute|]. split; [done|]. split; [|by vm_compute].
    intros (_ & y & [= <-] & H). apply elem_of_list_singleton in H. done.
  Qed.

  (** ** C19, C20 *)
  Example C19_ex :
    let G := [OMerge (cadd 7 3 K1); OMerge (cadd 5 1 K1); OMerge (cadd 6 2 K2); OMerge (cadd 6 4 K1); OCommit] in
    fine cast_def cx0 true start (G ++ [OPrune 7 (N.of_nat (stored_count (view cast_def cx0 G) 7)) 2]) = true /\
    pairwise coherent (merged_msgs G) = true /\ stored_count (view cast_def cx0 G) 7 = 4%nat /\
    (prune_messages cast_def (disk cast_def cx0 G) (view cast_def cx0 G) 7 4 2).2
      = inr [EvPrune (cadd 5 1 K1); EvPrune (cadd 6 2 K2)].
  Proof. by vm_compute. Qed.
  Example C20_ex : let G := [OMerge (cadd 7 3 K1); OMerge (cadd 6 2 K2); OMerge (cadd 8 4 K1); OCommit] in
    fine cast_def cx0 true start (G ++ [ORevoke 7 K1]) = true /\ pairwise coherent (merged_msgs G) = true /\
    rows (view cast_def cx0 (G ++ [ORevoke 7 K1])) = [cadd 6 2 K2].
  Proof. by vm_compute. Qed.

  (** * Findings *)

  (** C13 does not hold across signers: the same content signed by two keys of the account has one hash, and each
      node keeps whichever it saw first. *)
  Theorem C13_two_signers_refuted : exists ops1 ops2,
    (forall m, m ∈ merged_msgs ops1 <-> m ∈ merged_msgs ops2) /\ forallb merge_op (ops1 ++ ops2) = true /\
    all_valid user_data_def ops1 = true /\ pairwise coherent (merged_msgs ops1) = true /\
    view user_data_def cx0 ops1 <> view user_data_def cx0 ops2 /\
    (* so that revoking one of the keys empties one node and not the other *)
    size (s_rows (view user_data_def cx0 (ops1 ++ [OCommit; ORevoke 7 K1]))) = 0%nat /\
    size (s_rows (view user_data_def cx0 (ops2 ++ [OCommit; ORevoke 7 K1]))) = 1%nat.
  Proof.
    exists [OMerge (ud 5 1 K1); OMerge (ud 5 1 K2)], [OMerge (ud 5 1 K2); OMerge (ud 5 1 K1)].
    split; [intros m; cbn; rewrite !elem_of_cons; tauto|]. split; [done|]. split; [done|]. split; [by vm_compute|].
    split; [|by vm_compute]. intros E. apply (f_equal (fun v => rows v)) in E. vm_compute in E. discriminate E.
  Qed.
  (** C13, C18: with compact states the outcome depends on the order.  An addition with the compact state's own
      timestamp survives only if it arrives after it ... *)
  Theorem C13_compact_same_time_refuted : exists ops1 ops2,
    (forall m, m ∈ merged_msgs ops1 <-> m ∈ merged_msgs ops2) /\
    fine link_def cx0 true start ops1 = true /\ fine link_def cx0 true start ops2 = true /\
    pairwise identified (merged_msgs ops1) = true /\ forallb plain (merged_msgs ops1) = true /\
    rows (view link_def cx0 ops1) = [ladd follow 9 1 21] /\ rows (view link_def cx0 ops2) = [].
  Proof.
    exists [OMerge (lcomp follow 9 5 [20]); OCommit; OMerge (ladd follow 9 1 21)],
      [OMerge (ladd follow 9 1 21); OCommit; OMerge (lcomp follow 9 5 [20])].
    split; [intros m; cbn; rewrite !elem_of_cons; tauto|]. by vm_compute.
  Qed.
  (** ... and a compact state that swept a tombstone lets older additions in again, while a node that saw the addition
      first has lost it to the tombstone. *)
  Theorem C13_compact_sweeps_tombstone_refuted : exists ops1 ops2,
    (forall m, m ∈ merged_msgs ops1 <-> m ∈ merged_msgs ops2) /\
    fine link_def cx0 true start ops1 = true /\ fine link_def cx0 true start ops2 = true /\
    pairwise identified (merged_msgs ops1) = true /\ forallb plain (merged_msgs ops1) = true /\
    rows (view link_def cx0 ops1) = [ladd follow 3 1 20] /\ rows (view link_def cx0 ops2) = [].
  Proof.
    exists [OMerge (lrem follow 5 2 20); OCommit; OMerge (lcomp follow 9 5 [20]); OCommit; OMerge (ladd follow 3 1 20)],
      [OMerge (ladd follow 3 1 20); OCommit; OMerge (lrem follow 5 2 20); OCommit; OMerge (lcomp follow 9 5 [20])].
    split; [intros m; cbn; rewrite !elem_of_cons; tauto|]. by vm_compute.
  Qed.

  (** C14: subjects outside [plain] can share a slot: a reaction to a 24-byte URL displaces a reaction to a cast. *)
  Theorem C14_url_cast_collision_refuted : exists ops a b,
    forallb merge_op ops = true /\ all_valid (reaction_def chan0) ops = true /\ pairwise identified (merged_msgs ops) = true /\
    a ∈ merged_msgs ops /\ subject a <> subject b /\
    (forall m', m' ∈ merged_msgs ops -> same_subject m' a -> m' = a) /\
    rows (view (reaction_def chan0) cx0 ops) = [b].
  Proof.
    exists [OMerge (radd 5 1 (TCast 3 (h 8))); OMerge (radd 6 2 (TUrl ([0; 0; 0; 3] ++ h 8)))],
      (radd 5 1 (TCast 3 (h 8))), (radd 6 2 (TUrl ([0; 0; 0; 3] ++ h 8))).
    split; [done|]. split; [by vm_compute|]. split; [by vm_compute|]. split; [left|]. split; [done|].
    split; [|by vm_compute]. intros m' Hm [_ E]. cbn in Hm. rewrite !elem_of_cons in Hm.
    destruct Hm as [->|[->|Hm]]; [done|done|by apply elem_of_nil in Hm].
  Qed.
  (** C14: link types are zero-padded, so "a" and "a\0" share slots. *)
  Theorem C14_padded_type_collision_refuted : exists ops a b,
    forallb merge_op ops = true /\ all_valid link_def ops = true /\ pairwise identified (merged_msgs ops) = true /\
    a ∈ merged_msgs ops /\ link_type a <> link_type b /\ rows (view link_def cx0 ops) = [b].
  Proof.
    exists [OMerge (ladd [97] 5 1 20); OMerge (ladd [97; 0] 6 2 20)], (ladd [97] 5 1 20), (ladd [97; 0] 6 2 20).
    split; [done|]. split; [by vm_compute|]. split; [by vm_compute|]. split; [left|]. split; [done|]. by vm_compute.
  Qed.

  (** C15: pruning may evict the tombstone (it is a stored message like any other); the removed cast can then be
      merged again. *)
  Theorem C15_pruned_tombstone_refuted : exists ops,
    fine cast_def cx0 true start ops = true /\ pairwise identified (merged_msgs ops) = true /\
    forallb plain (merged_msgs ops) = true /\ crem 6 2 1 K1 ∈ merged_msgs ops /\
    rows (view cast_def cx0 ops) = [cadd 5 1 K1].
  Proof.
    exists [OMerge (cadd 5 1 K1); OMerge (crem 6 2 1 K1); OCommit; OPrune 7 1 0; OCommit; OMerge (cadd 5 1 K1)].
    split; [by vm_compute|]. split; [by vm_compute|]. split; [by vm_compute|]. split; [|by vm_compute].
    cbn. rewrite !elem_of_cons. auto.
  Qed.
  (** C15: likewise revoking the signer of the removal. *)
  Theorem C15_revoked_tombstone_refuted : exists ops,
    fine cast_def cx0 true start ops = true /\ pairwise identified (merged_msgs ops) = true /\
    forallb plain (merged_msgs ops) = true /\ crem 6 2 1 K2 ∈ merged_msgs ops /\
    rows (view cast_def cx0 ops) = [cadd 5 1 K1].
  Proof.
    exists [OMerge (cadd 5 1 K1); OMerge (crem 6 2 1 K2); OCommit; ORevoke 7 K2; OCommit; OMerge (cadd 5 1 K1)].
    split; [by vm_compute|]. split; [by vm_compute|]. split; [by vm_compute|]. split; [|by vm_compute].
    cbn. rewrite !elem_of_cons. auto.
  Qed.
  (** C14/C15: the message type is not checked against the body (core/validations/message.rs), so a message typed CastAdd
      with a removal body takes the slot of another cast, which disappears without a tombstone; the attacker must be the
      account itself.  The cast can then be merged no more although nothing says it was removed. *)
  Theorem C15_mistyped_add_refuted : exists ops x,
    forallb merge_op ops = true /\ all_valid cast_def ops = true /\ forallb plain (merged_msgs ops) = true /\
    pairwise identified (merged_msgs ops) = true /\ m_type x = T_CastAdd /\
    rows (view cast_def cx0 ops) = [x] /\ x <> cadd 5 1 K1 /\ cadd 5 1 K1 ∈ merged_msgs ops /\
    (forall m, m ∈ merged_msgs ops -> m_type m = T_CastAdd).
  Proof.
    exists [OMerge (cadd 5 1 K1); OMerge (Msg T_CastAdd 7 6 (h 2) K1 (BCastRemove (h 1)))],
      (Msg T_CastAdd 7 6 (h 2) K1 (BCastRemove (h 1))).
    split; [done|]. split; [by vm_compute|]. split; [by vm_compute|]. split; [by vm_compute|]. split; [done|].
    split; [by vm_compute|]. split; [done|]. split; [left|].
    intros m. cbn. rewrite !elem_of_cons. intros [->|[->|H]]; [done|done|by apply elem_of_nil in H].
  Qed.

  (** C17: prunes scan the committed state.  A message superseded earlier in the same block is still found and its
      eviction deletes the slot entry of the message that superseded it: that message stays stored but cannot be found by
      its subject, and the superseded content can be merged again beside it. *)
  Theorem C17_prune_of_superseded_refuted : exists ops,
    pairwise identified (merged_msgs ops) = true /\ all_valid link_def ops = true /\ forallb plain (merged_msgs ops) = true /\
    rows (view link_def cx0 ops) = [ladd follow 6 2 20] /\
    size (s_adds (view link_def cx0 ops)) = 0%nat /\
    get_add (view link_def cx0 ops) 7 (pad8 follow ++ make_fid_key 20) = None /\
    size (s_rows (view link_def cx0 (ops ++ [OCommit; OMerge (ladd follow 5 1 20)]))) = 2%nat.
  Proof.
    exists [OMerge (ladd follow 5 1 20); OCommit; OMerge (ladd follow 6 2 20); OPrune 7 1 0; OCommit]. by vm_compute.
  Qed.
  (** C17: the same for a revocation of the superseded message's signer. *)
  Theorem C17_revoke_of_superseded_refuted : exists ops,
    pairwise identified (merged_msgs ops) = true /\ all_valid user_data_def ops = true /\
    rows (view user_data_def cx0 ops) = [ud 6 2 K2] /\
    size (s_adds (view user_data_def cx0 ops)) = 0%nat.
  Proof. exists [OMerge (ud 5 1 K1); OCommit; OMerge (ud 6 2 K2); ORevoke 7 K1; OCommit]. by vm_compute. Qed.

  (** C18: a link merged earlier in the same block is not swept. *)
  Theorem C18_pending_link_refuted : exists ops,
    pairwise identified (merged_msgs ops) = true /\ forallb plain (merged_msgs ops) = true /\
    fine link_def cx0 false start ops = true /\
    rows (view link_def cx0 ops) = [ladd follow 5 1 21] /\
    s_comp (view link_def cx0 ops) !! (7, pad8 follow) = Some (lcomp follow 9 5 [20]) /\ ~ listed [20] (ladd follow 5 1 21).
  Proof.
    exists [OMerge (ladd follow 5 1 21); OMerge (lcomp follow 9 5 [20])].
    split; [by vm_compute|]. split; [by vm_compute|]. split; [by vm_compute|]. split; [by vm_compute|]. split; [by vm_compute|].
    intros (_ & y & [= <-] & H). apply elem_of_list_singleton in H. done.
  Qed.
  (** C18: an addition with the compact state's own timestamp and an unlisted target is accepted after it. *)
  Theorem C18_equal_time_refuted : exists db v e,
    s_comp v !! (7, pad8 follow) = Some (lcomp follow 9 5 [20]) /\
    merge link_def db v (MCtx true true) (ladd follow 9 1 21) = (e, inr (EvMerge (ladd follow 9 1 21) [])) /\
    rows e = [ladd follow 9 1 21].
  Proof.
    exists (view link_def cx0 [OMerge (lcomp follow 9 5 [20]); OCommit]), (view link_def cx0 [OMerge (lcomp follow 9 5 [20]); OCommit]).
    eexists. split; [by vm_compute|]. split; [vm_compute; reflexivity|]. by vm_compute.
  Qed.
  (** C18: before the BlockLinks feature a compact state of one type sweeps links of all types. *)
  Theorem C18_unscoped_refuted : exists ops, let cxl := fun _ => MCtx false true in
    pairwise identified (merged_msgs ops) = true /\ forallb plain (merged_msgs ops) = true /\
    fine link_def cxl true start ops = true /\ ladd block 5 1 30 ∈ merged_msgs ops /\
    rows (view link_def cxl ops) = [].
  Proof.
    exists [OMerge (ladd block 5 1 30); OCommit; OMerge (lcomp follow 9 5 [20])].
    split; [by vm_compute|]. split; [by vm_compute|]. split; [by vm_compute|]. split; [left|]. by vm_compute.
  Qed.

  (** C19: messages merged in the same block are not seen by the prune scan: an account with only pending messages stays
      over its limit, and the oldest ones stay when they are the pending ones. *)
  Theorem C19_pending_not_pruned_refuted : exists ops,
    pairwise identified (merged_msgs ops) = true /\ fine cast_def cx0 false start (ops ++ [OPrune 7 3 1]) = true /\
    stored_count (view cast_def cx0 ops) 7 = 3%nat /\
    stored_count (view cast_def cx0 (ops ++ [OPrune 7 3 1])) 7 = 2%nat /\
    (* what was evicted is the newest *)
    (prune_messages cast_def (disk cast_def cx0 ops) (view cast_def cx0 ops) 7 3 1).2 = inr [EvPrune (cadd 9 3 K1)].
  Proof.
    exists [OMerge (cadd 9 3 K1); OCommit; OMerge (cadd 5 1 K1); OMerge (cadd 6 2 K1)]. by vm_compute.
  Qed.
  (** C19: compact states count towards the limit but are never evicted; with one of them the prune takes a link too many
      from the same quota ... here everything but the compact states themselves. *)
  Theorem C19_compact_states_stay_refuted : exists ops,
    pairwise identified (merged_msgs ops) = true /\ fine link_def cx0 true start (ops ++ [OPrune 7 2 1]) = true /\
    (stored_count (view link_def cx0 ops) 7 + size (s_comp (view link_def cx0 ops)) = 2)%nat /\
    (stored_count (view link_def cx0 (ops ++ [OPrune 7 2 1])) 7 + size (s_comp (view link_def cx0 (ops ++ [OPrune 7 2 1]))) = 2)%nat.
  Proof. exists [OMerge (lcomp follow 9 5 [20]); OMerge (lcomp block 9 6 [20]); OCommit]. by vm_compute. Qed.

  (** C20: messages of the signer merged earlier in the same block stay, and compact states always stay. *)
  Theorem C20_pending_not_revoked_refuted : exists ops,
    pairwise identified (merged_msgs ops) = true /\ fine cast_def cx0 false start (ops ++ [ORevoke 7 K1]) = true /\
    rows (view cast_def cx0 (ops ++ [ORevoke 7 K1])) = [cadd 5 1 K1].
  Proof. exists [OMerge (cadd 5 1 K1)]. by vm_compute. Qed.
  Theorem C20_compact_state_stays_refuted : exists ops,
    pairwise identified (merged_msgs ops) = true /\ fine link_def cx0 true start (ops ++ [ORevoke 7 K1]) = true /\
    s_comp (view link_def cx0 (ops ++ [ORevoke 7 K1])) !! (7, pad8 follow) = Some (lcomp follow 9 5 [20]) /\
    m_signer (lcomp follow 9 5 [20]) = K1.
  Proof. exists [OMerge (lcomp follow 9 5 [20]); OCommit]. by vm_compute. Qed.

  (** ** C55: lends *)
  (** C55: cancelling a lend (0 units) leaves nothing behind, so an older lend message, sent again, is accepted. *)
  Theorem C55_cancelled_lend_revived_refuted :
    let st1 := lend_merge sempty sempty (MCtx true true) (lnd 5 1 9 100) in
    let st2 := lend_merge st1.1 st1.1 (MCtx true true) (lnd 6 2 9 0) in
    let st3 := lend_merge st2.1 st2.1 (MCtx true true) (lnd 5 1 9 100) in
    size (s_rows st2.1) = 0%nat /\ m_ts (lnd 5 1 9 100) < m_ts (lnd 6 2 9 0) /\
    rows st3.1 = [lnd 5 1 9 100].
  Proof. by vm_compute. Qed.

  (** ** C56 *)
  Example C56_ex : let ops := [OMerge (vadd 7 5 1); OMerge (vrem 7 6 2); OCommit; OMerge (vadd 7 4 3); OMerge (vadd 8 4 4)] in
    forallb merge_op ops = true /\ all_valid verif_def ops = true /\ pairwise identified (merged_msgs ops) = true /\
    accepted verif_def cx0 start ops = [vadd 7 5 1; vrem 7 6 2; vadd 8 4 4] /\
    fine verif_def cx0 false start [OMerge (vadd 7 9 8); OMerge (vadd 9 9 9)] = true /\
    pairwise identified (merged_msgs ops ++ [vadd 7 9 8; vadd 9 9 9]) = true /\
    rows (mirror verif_def cx0 (view verif_def cx0 [OMerge (vadd 7 9 8); OMerge (vadd 9 9 9)]) (accepted verif_def cx0 start ops))
      ≡ₚ [vrem 7 6 2; vadd 8 4 4; vadd 9 9 9].
  Proof.
    cbn zeta. split; [done|]. split; [done|]. split; [by vm_compute|]. split; [by vm_compute|]. split; [by vm_compute|].
    split; [by vm_compute|]. vm_compute. solve_Permutation.
  Qed.
End Instances.

Print Assumptions C13_replicas_converge.
Print Assumptions C14_stored_iff_greatest.
Print Assumptions C14_subject_held.
Print Assumptions C14_one_per_subject.
Print Assumptions C14_refused_untouched.
Print Assumptions C15_removed_cast_never_returns.
Print Assumptions C15_replicas_agree.
Print Assumptions C16_duplicate_harmless.
Print Assumptions C16_duplicate_compact_state.
Print Assumptions C17_indexes_agree.
Print Assumptions C18_compact_state_effect.
Print Assumptions C18_stored_links_respect_compact_state.
Print Assumptions C18_contradicting_merge_refused.
Print Assumptions C18_older_compact_state_refused.
Print Assumptions C19_prune_oldest_first.
Print Assumptions C19_ends_within_limit.
Print Assumptions C20_revoke_exact.
Print Assumptions C20_nothing_left.
Print Assumptions C56_mirror_agrees.
Print Assumptions C56_mirror_heals.
Print Assumptions C13_two_signers_refuted.
Print Assumptions C17_prune_of_superseded_refuted.
