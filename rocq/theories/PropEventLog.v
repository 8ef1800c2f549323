(** C75: the event stream of a store accounts for every change. *)
From Coq Require Import ZifyN ZifyNat ZifyBool.
From Verif Require Import Store StoreSpec StoreProofs StoreDefs StoreTop EventLog EventLogProofs.
#[local] Open Scope N_scope.

Definition UCs (D : sdef) (ms : list msg) (m : msg) : Prop := m ∈ ms /\ comp_msg D m = true.
Lemma fit_cases D ops m : fit D ops = true -> m ∈ merged_msgs ops ->
  US D (merged_msgs ops) m \/ ignored D m = true \/ UCs D (merged_msgs ops) m.
Proof.
  unfold fit. rewrite forallb_forall. intros H Hm. specialize (H m). rewrite <- elem_of_list_In in H. specialize (H Hm).
  apply orb_true_iff in H as [[H|H]%orb_true_iff|H]; [left|right; left|right; right]; done.
Qed.
Lemma log_inv D rk cx ops : a_store D rk -> fit D ops = true -> pairwise identified (merged_msgs ops) = true ->
  linv D (US D (merged_msgs ops)) (UCs D (merged_msgs ops)) (lrun D cx ops).
Proof.
  intros HD Hf Hi. apply (lrun_inv D rk (a_store_ok D rk HD)).
  - apply US_set.
  - by apply US_strong.
  - by intros c [_ H].
  - intros m Hm. by apply fit_cases.
Qed.

(** For every history of merges, prunes, revocations, commits and rollbacks, in any order: a consumer that applies the
    committed events in order holds exactly the messages on disk, and with the events of the open block exactly those of
    the open transaction.  Unlike C17 this needs no condition on scans: rows and events never disagree. *)
Theorem C75_log_exact D rk cx ops : a_store D rk -> fit D ops = true -> pairwise identified (merged_msgs ops) = true ->
  (forall m, stored (srun D cx start ops).1 m <-> replayed (l_done (lrun D cx ops)) m) /\
  (forall m, stored (srun D cx start ops).2 m <-> replayed (l_done (lrun D cx ops) ++ l_open (lrun D cx ops)) m).
Proof.
  intros HD Hf Hi. destruct (log_inv D rk cx ops HD Hf Hi) as (_ & _ & H1 & H2 & _). rewrite <- lrun_st. done.
Qed.

(** Lending has its own merge (a loan of nothing is merged and evicted at once): its one or two events describe its
    effect as well. *)
Theorem C75_lend_merge cx ops m : fit lend_def (ops ++ [OMerge m]) = true -> pairwise identified (m :: merged_msgs ops) = true ->
  let st := srun lend_def cx start ops in
  exists v' evs, lend_merge st.1 st.2 (cx m) m = (v', inr evs) /\ (forall x, stored v' x <-> foldl consume (stored st.2) evs x) \/
    exists e, lend_merge st.1 st.2 (cx m) m = (v', inl e) /\ (forall x, stored v' x <-> stored st.2 x).
Proof.
  intros Hf Hi st. pose proof (a_store_ok _ _ st_lend) as OK.
  assert (Em : merged_msgs (ops ++ [OMerge m]) = merged_msgs ops ++ [m]) by (unfold merged_msgs; by rewrite omap_app).
  assert (Hf' : fit lend_def ops = true).
  { unfold fit in *. rewrite Em, forallb_app in Hf. by apply andb_true_iff in Hf as [Hf _]. }
  set (ms := m :: merged_msgs ops) in *.
  assert (HS : strong (US lend_def ms)) by (by apply US_strong).
  assert (Hin : linv lend_def (US lend_def ms) (UCs lend_def ms) (lrun lend_def cx ops)).
  { apply (lrun_inv lend_def lww_rank OK); [apply US_set|done|by intros c [_ H]|].
    intros x Hx. destruct (fit_cases lend_def ops x Hf' Hx) as [[H1 H2]|[H|[H1 H2]]].
    - left. split; [by right|done].
    - right. by left.
    - right. right. split; [by right|done]. }
  destruct Hin as (J1 & J2 & _). rewrite lrun_st in J1, J2. fold st in J1, J2.
  assert (Hm : US lend_def ms m \/ ignored lend_def m = true \/ UCs lend_def ms m).
  { unfold fit in Hf. rewrite Em, forallb_app in Hf. apply andb_true_iff in Hf as [_ Hf]. cbn [forallb] in Hf.
    rewrite andb_true_r in Hf. apply orb_true_iff in Hf as [[H|H]%orb_true_iff|H]; [left|by right; left|right; right];
      (split; [left|done]). }
  destruct (merge_log lend_def lww_rank OK (US lend_def ms) (US_set _ _) HS (UCs lend_def ms) (fun c H => proj2 H) st.1 st.2 m (cx m) J1 J2 Hm)
    as (v1 & r & E1 & J3 & A1 & _).
  unfold lend_merge. rewrite E1. destruct r as [e|ev].
  { exists v1, []. right. exists e. split; [done|]. exact A1. }
  assert (Triv : exists v' evs, (v1, @inr serr (list sevent) [ev]) = (v', inr evs) /\ (forall x, stored v' x <-> foldl consume (stored st.2) evs x) \/
    exists e, (v1, @inr serr (list sevent) [ev]) = (v', inl e) /\ (forall x, stored v' x <-> stored st.2 x)).
  { exists v1, [ev]. left. split; [done|]. exact A1. }
  destruct (m_body m) as [| | | | | | | |to n|] eqn:Eb; try exact Triv. destruct n as [|p]; [|exact Triv].
  destruct Hm as [Um|[Hi'|[_ Hc]]].
  - rewrite (prune_is_delete lend_def lww_rank OK v1 m (US_set _ _ _ Um)).
    destruct (delete_rows lend_def lww_rank OK (US lend_def ms) (US_set _ _) HS (UCs lend_def ms) (fun c H => proj2 H) v1 m J3 Um) as (v2 & -> & _ & S2 & _).
    exists v2, [ev; EvPrune m]. left. split; [done|]. intros x. rewrite S2. cbn [foldl]. cbn [evs_of foldl] in A1. rewrite A1. done.
  - rewrite merge_ignored in E1 by done. done.
  - by apply comp_msg_facts in Hc as (_ & Hc & _).
Qed.

(** * The trie follows *)
Lemma trie_insert_elem l : forall T k, k ∈ trie_insert T l <-> k ∈ T \/ k ∈ l.
Proof. induction l as [|x l IH]; intros T k; cbn; [set_solver|]. rewrite IH. set_solver. Qed.
Lemma trie_delete_elem l : forall T k, k ∈ trie_delete T l <-> k ∈ T /\ k ∉ l.
Proof. induction l as [|x l IH]; intros T k; cbn; [set_solver|]. rewrite IH. set_solver. Qed.
Lemma msg_keys_hash sha4 m k : k ∈ msg_keys sha4 m -> drop 6 k = m_hash m.
Proof.
  unfold msg_keys, for_message, for_message_type, for_fid, make_fid_key. intros H.
  assert (G : forall a f t, drop 6 (((a :: be 4 f) ++ [t]) ++ m_hash m) = m_hash m).
  { intros a f t. rewrite drop_app_ge; rewrite app_length; cbn [length]; rewrite be_length; [|lia]. done. }
  apply elem_of_cons in H as [->|H]; [apply G|]. destruct (lend_to m); [|by apply elem_of_nil in H].
  apply elem_of_list_singleton in H as ->. apply G.
Qed.
Lemma trie_log sha4 (P : msg -> Prop) : (forall a b, P a -> P b -> m_hash a = m_hash b -> a = b) ->
  forall l (S : msg -> Prop) (T : gset bytes), Forall (ev_in P) l -> (forall m, S m -> P m) ->
  (forall k, k ∈ T <-> exists m, S m /\ k ∈ msg_keys sha4 m) ->
  forall k, k ∈ foldl (trie_update sha4) T l <-> exists m, foldl consume S l m /\ k ∈ msg_keys sha4 m.
Proof.
  intros HP. assert (Kinj : forall a b k, P a -> P b -> k ∈ msg_keys sha4 a -> k ∈ msg_keys sha4 b -> a = b).
  { intros a b k Pa Pb Ka Kb. apply HP; try done. by rewrite <- (msg_keys_hash sha4 a k Ka), <- (msg_keys_hash sha4 b k Kb). }
  induction l as [|ev l IH]; intros S T Hl HS HT; [exact HT|]. apply Forall_cons in Hl as [He Hl]. cbn [foldl].
  assert (Del : forall x, P x -> (forall m, S m /\ m <> x -> P m) /\
    forall k, k ∈ trie_delete T (msg_keys sha4 x) <-> exists m, (S m /\ m <> x) /\ k ∈ msg_keys sha4 m).
  { intros x Px. split; [intros m [H _]; by apply HS|]. intros k. rewrite trie_delete_elem, HT. split.
    - intros [(m & H1 & H2) N]. exists m. split; [split; [done|]|done]. intros ->. done.
    - intros (m & [H1 N] & H2). split; [eauto|]. intros H3. apply N. apply (Kinj m x k); auto. }
  apply IH; [done|..].
  - destruct ev as [m del|m|m]; cbn [ev_in trie_update consume] in *; try (by apply Del). intros x [[->|H] _]; [tauto|by apply HS].
  - destruct ev as [m del|m|m]; cbn [ev_in trie_update consume] in *; try (by apply Del). destruct He as [Pm Pd]. rewrite Forall_forall in Pd.
    intros k. rewrite trie_delete_elem, trie_insert_elem, HT. split.
    + intros [H N]. assert (exists x, (x = m \/ S x) /\ k ∈ msg_keys sha4 x) as (x & Hx & Kx).
      { destruct H as [(x & H1 & H2)|H]; [exists x|exists m]; auto. }
      exists x. split; [split; [done|]|done]. intros Hd. apply N. apply elem_of_list_In, in_concat.
      exists (msg_keys sha4 x). split; [apply in_map; by apply elem_of_list_In|by apply elem_of_list_In].
    + intros (x & [Hx Nx] & Kx). split; [destruct Hx as [->|Hx]; [by right|left; eauto]|].
      intros H%elem_of_list_In%in_concat. destruct H as (ks & H1 & H2). apply in_map_iff in H1 as (y & <- & H1).
      apply elem_of_list_In in H1, H2. apply Nx. assert (Px : P x) by (destruct Hx as [->|Hx]; auto).
      by rewrite (Kinj x y k Px (Pd y H1) Kx H2).
Qed.
(** The trie built from the events of a store has exactly the keys of the messages stored, when no two submitted messages
    share a hash.  (With C39: the condition it makes on store operations holds for these stores.) *)
Theorem C75_trie_follows D rk cx sha4 ops : a_store D rk -> fit D ops = true ->
  pairwise (fun a b => negb (bool_decide (m_hash a = m_hash b)) || bool_decide (a = b)) (merged_msgs ops) = true ->
  forall k, k ∈ foldl (trie_update sha4) ∅ (l_done (lrun D cx ops) ++ l_open (lrun D cx ops)) <->
    exists m, stored (srun D cx start ops).2 m /\ k ∈ msg_keys sha4 m.
Proof.
  intros HD Hf Hh k.
  assert (Hh' : forall a b, a ∈ merged_msgs ops -> b ∈ merged_msgs ops -> m_hash a = m_hash b -> a = b).
  { intros a b Ha Hb E. pose proof (pairwise_elem _ _ a b Hh Ha Hb) as X. cbn in X. rewrite bool_decide_true in X by done.
    by apply bool_decide_eq_true in X. }
  assert (Hi : pairwise identified (merged_msgs ops) = true).
  { apply forallb_forall. intros a Ha. apply forallb_forall. intros b Hb. unfold identified.
    destruct (m_fid a =? m_fid b); [|done]. destruct (bool_decide (m_hash a = m_hash b)) eqn:E; [|done].
    cbn. apply bool_decide_eq_true. apply Hh'; [by apply elem_of_list_In..|by apply bool_decide_eq_true in E]. }
  destruct (log_inv D rk cx ops HD Hf Hi) as (_ & _ & _ & H2 & H5). rewrite lrun_st in H2.
  rewrite (trie_log sha4 (fun m => US D (merged_msgs ops) m \/ UCs D (merged_msgs ops) m)) with (S := fun _ => False); try done.
  - split; intros (m & H & Hk); exists m; (split; [|done]); by apply H2.
  - intros a b [[Ha _]|[Ha _]] [[Hb _]|[Hb _]]; by apply Hh'.
  - intros x. split; [by intros H%elem_of_empty|]. by intros (m & [] & _).
Qed.

(** A stored loan is listed under its lender and under its borrower. *)
Theorem C75_loan_keys D rk cx sha4 ops m to units : a_store D rk -> fit D ops = true ->
  pairwise (fun a b => negb (bool_decide (m_hash a = m_hash b)) || bool_decide (a = b)) (merged_msgs ops) = true ->
  stored (srun D cx start ops).2 m -> m_body m = BLend to units ->
  let T := foldl (trie_update sha4) ∅ (l_done (lrun D cx ops) ++ l_open (lrun D cx ops)) in
  for_message_type sha4 (m_fid m) (m_type m) ++ m_hash m ∈ T /\
  for_message_type sha4 to (m_type m) ++ m_hash m ∈ T.
Proof.
  intros HD Hf Hh Hs Hb T. unfold T.
  split; apply (C75_trie_follows D rk cx sha4 ops HD Hf Hh); exists m; (split; [done|]);
    unfold msg_keys, for_message, lend_to; rewrite Hb; [by left|right; by left].
Qed.

(** * Precision *)
Lemma precise_ext l : forall S S' : msg -> Prop, (forall y : msg, S y <-> S' y) -> precise S l -> precise S' l.
Proof.
  induction l as [|ev l IH]; intros S S' H; [done|]. cbn. intros [H1 H2]. split.
  - destruct ev as [m del|m|m]; [|by apply H..]. destruct H1 as (A & B & C). split; [by rewrite <- H|]. split; [done|].
    intros x Hx. by apply H, C.
  - apply (IH (consume S ev)); [|done]. intros y. apply (consume_ext S S' [ev] H).
Qed.
Lemma precise_app l1 l2 : forall S, precise S (l1 ++ l2) <-> precise S l1 /\ precise (foldl consume S l1) l2.
Proof. induction l1 as [|ev l1 IH]; intros S; cbn; [tauto|]. rewrite IH. tauto. Qed.
Lemma precise_each (mk : msg -> sevent) l : (forall m, mk m = EvPrune m) \/ (forall m, mk m = EvRevoke m) ->
  forall S : msg -> Prop, NoDup l -> (forall m, m ∈ l -> S m) -> precise S (map mk l).
Proof.
  intros Hmk. induction l as [|m l IH]; intros S N H; [done|]. apply NoDup_cons in N as [N1 N2]. cbn [map precise].
  assert (Hm : S m) by (apply H; left).
  assert (G : forall x, x ∈ l -> S x /\ x <> m) by (intros x Hx; split; [apply H; by right|by intros ->]).
  destruct Hmk as [Hmk|Hmk]; rewrite Hmk; (split; [done|]); apply IH; try done; by left || by right.
Qed.
Lemma compact_event D db v sc m v' m' l : merge_compact D db v sc m = (v', inr (EvMerge m' l)) ->
  exists c1 cts targets ty, compact_details m = Some (cts, targets, ty) /\ c1 = option_list (s_comp v !! (m_fid m, cslot_of D m)) /\
    l = c1 ++ compact_scan D sc (rows_of (s_rows db) (m_fid m)) cts targets ty.
Proof.
  unfold merge_compact, cslot_of. destruct (d_comp_slot D m) as [s|]; [|done]. cbn zeta.
  destruct (s_comp v !! (m_fid m, s)) as [x|].
  - destruct (m_ts x <? m_ts m); [|done]. destruct (compact_details m) as [[[cts targets] ty]|]; [|done].
    destruct (delete_many _ _ _) as [v1 [e|?]]; [done|]. destruct (put_compact _ _ _) as [v2 [e|?]]; [done|].
    intros [= _ _ <-]. exists [x], cts, targets, ty. done.
  - destruct (compact_details m) as [[[cts targets] ty]|]; [|done].
    destruct (delete_many _ _ _) as [v1 [e|?]]; [done|]. destruct (put_compact _ _ _) as [v2 [e|?]]; [done|].
    intros [= _ _ <-]. exists [], cts, targets, ty. done.
Qed.
Lemma in_option_list {A} (o : option A) x : x ∈ option_list o -> o = Some x.
Proof. destruct o; cbn; [by intros ->%elem_of_list_singleton|by intros H%elem_of_nil]. Qed.
Section Precise.
  Context (D : sdef) (rk : msg -> list N) (cx : msg -> mctx) (HD : def_ok D rk) (U : msg -> Prop).
  Context (HU : forall m, U m -> set_msg D m = true) (HC : forall m1 m2, U m1 -> U m2 -> coherent m1 m2 = true).
  Lemma stored_row v W m : R D cx U v W -> W !! wkey D m = Some m -> stored v m.
  Proof. intros HR H. left. exists (m_fid m, tsh m). by apply (R_rows _ _ _ _ _ HR). Qed.
  Lemma set_not_comp m c : U m -> comp_msg D c = true -> m <> c.
  Proof using HD HU.
    intros Um Hc ->. pose proof (not_comp D rk HD c (HU c Um)). apply comp_msg_facts in Hc as (_ & _ & Hc & _). congruence.
  Qed.
  Lemma op_precise db v o : vinv D cx U v -> op_ok D U (db, v) o -> precise (stored v) (op_events D cx (db, v) o).
  Proof using HD HU HC.
    intros [[W HR] Hc] Ho. destruct o as [m|f count mx|f key| |]; cbn [op_events]; try done.
    - destruct Ho as [Um|[Hi|[Hm Hs]]].
      + destruct (merge_cases D rk cx HD U HU HC db v W m HR Um) as (v' & r & -> & [(e & -> & ->)|(l & -> & _ & _ & Hl)]); [done|].
        cbn. split; [|done]. split.
        * intros [[k H]|[k H]].
          -- destruct k as [f t]. apply (R_rows _ _ _ _ _ HR) in H as (H & _ & _). rewrite H in Hl. destruct Hl as [_ Hl].
             by rewrite lex_refl in Hl.
          -- destruct k as [f s]. apply Hc in H as (H & _). by apply (set_not_comp m m).
        * destruct (W !! wkey D m) as [w|] eqn:Ew; [|subst l; split; [constructor|by intros x ?%elem_of_nil]].
          destruct Hl as [-> _]. split; [apply NoDup_singleton|]. intros x ->%elem_of_list_singleton.
          destruct (R_wf _ _ _ _ _ HR _ _ _ Ew) as [_ Kw]. apply (stored_row v W); [done|]. rewrite Kw. exact Ew.
      + by rewrite merge_ignored.
      + rewrite merge_comp_unfold by done.
        destruct (merge_compact_spec D rk cx HD U HU HC db v W (c_scoped (cx m)) m HR Hc Hm Hs)
          as (v' & r & E & [(x & _ & _ & -> & ->)|(Hold & l & -> & Hl & _ & _)]); rewrite E; [done|].
        cbn. split; [|done].
        destruct (compact_event D db v _ m v' m _ E) as (c1 & cts & targets & ty & Hd & -> & El).
        apply app_inv_head in El.
        assert (Hw : winners D W (rows_of (s_rows db) (m_fid m)).*2) by (by apply (scan_winners D cx U db v)).
        assert (Hcl : forall x, s_comp v !! (m_fid m, cslot_of D m) = Some x -> comp_msg D x = true) by (intros x Hx; by apply (Hc _ _ _ Hx)).
        assert (HlU : forall x, x ∈ l -> U x /\ stored v x).
        { intros x Hx. apply Hl in Hx as [Hx _]. apply Hs in Hx. split; [|left; eauto]. pose proof (proj1 (R_rows _ _ _ _ _ HR _ _ _) Hx) as (Hx' & _).
          apply (R_wf _ _ _ _ _ HR _ _ _ Hx'). }
        split; [|split].
        * intros [[[f t] H]|[[f s] H]].
          -- apply (R_rows _ _ _ _ _ HR) in H as (H & _ & _). apply (R_wf _ _ _ _ _ HR) in H as [H _]. by apply (set_not_comp m m).
          -- destruct (Hc _ _ _ H) as (_ & Ef & Es). assert (s = cslot_of D m) by (unfold cslot_of; by rewrite Es). subst f s.
             apply Hold in H. lia.
        * apply NoDup_app. split; [|split].
          -- destruct (s_comp v !! (m_fid m, cslot_of D m)); [apply NoDup_singleton|constructor].
          -- intros x Hx1 Hx2. apply in_option_list in Hx1. by apply (set_not_comp x x (proj1 (HlU x Hx2)) (Hcl x Hx1)).
          -- rewrite El. apply (compact_scan_nodup D rk HD U HU HC). apply Hw.
        * intros x [Hx|Hx]%elem_of_app; [|by apply HlU]. apply in_option_list in Hx. right. eauto.
    - pose proof (scan_winners D cx U db v W f HR Ho) as Hw. unfold prune_messages. destruct (count <=? mx); [done|].
      destruct (prune_loop_spec D rk cx HD U HU HC (rows_of (s_rows db) f) v W count mx [] HR Hw) as (v' & -> & _).
      cbn [snd app]. apply precise_each; [by left|..].
      + destruct Hw as [Hw _]. rewrite <- (take_drop (N.to_nat (count - mx)) (rows_of (s_rows db) f).*2) in Hw. by apply NoDup_app in Hw as [Hw _].
      + intros x Hx. apply elem_of_take in Hx as (i & Hx & _). apply (stored_row v W x HR). apply Hw. by apply elem_of_list_lookup_2 in Hx.
    - pose proof (scan_winners D cx U db v W f HR Ho) as Hw. unfold revoke_by_signer.
      destruct (revoke_loop_spec D rk cx HD U HU HC key (rows_of (s_rows db) f) v W [] HR Hw) as (v' & -> & _).
      cbn [snd app]. apply precise_each; [by right|..].
      + unfold by_signer. apply NoDup_ListNoDup, List.NoDup_filter, NoDup_ListNoDup. apply Hw.
      + intros x Hx. apply (stored_row v W x HR). apply Hw. apply elem_of_list_In, filter_In in Hx as [Hx _]. by apply elem_of_list_In.
  Qed.
End Precise.

(** When no scan meets a committed message superseded in the open block (the condition of C17), every event adds a
    message that was absent and names as deleted only messages that were present, each once. *)
Theorem C75_precise_partial D rk cx ops : a_store D rk -> fine D cx false start ops = true -> pairwise identified (merged_msgs ops) = true ->
  precise (fun _ => False) (l_done (lrun D cx ops) ++ l_open (lrun D cx ops)).
Proof.
  intros HD Hf Hi. set (ms := merged_msgs ops) in Hi.
  assert (Hsub : merged_msgs ops ⊆ ms) by done. clearbody ms.
  assert (G : precise (fun _ => False) (l_done (lrun D cx ops)) /\ precise (fun _ => False) (l_done (lrun D cx ops) ++ l_open (lrun D cx ops))); [|tauto].
  induction ops as [|o ops IH] using rev_ind; [done|].
  assert (Hsub' : merged_msgs ops ⊆ ms) by (intros x Hx; apply Hsub; unfold merged_msgs in *; rewrite omap_app; apply elem_of_app; by left).
  pose proof (fine_snoc D cx false ops o start Hf) as [Hf1 Hf2]. destruct (IH Hf1 Hsub') as [IH1 IH2]. clear IH.
  assert (Hco : pairwise coherent ms = true) by (by apply identified_coherent).
  destruct (reach_inv D rk cx false ops ms HD Hf1 Hsub' Hco) as [V1 V2].
  assert (Hfit : forall ops', fine D cx false start ops' = true -> fit D ops' = true).
  { intros ops'. generalize start. unfold fit. induction ops' as [|o' ops' IH]; intros [db v] H; [done|]. cbn [fine] in H.
    apply andb_true_iff in H as [H1 H2]. specialize (IH _ H2). destruct o'; try exact IH.
    change (merged_msgs (OMerge m :: ops')) with (m :: merged_msgs ops'). cbn [forallb]. rewrite IH, andb_true_r.
    cbn [op_fine] in H1. destruct (set_msg D m); [done|]. destruct (ignored D m); [done|]. cbn [orb] in *. by destruct (comp_msg D m). }
  assert (Hi' : pairwise identified (merged_msgs ops) = true) by (by apply (pairwise_sub _ ms)).
  destruct (C75_log_exact D rk cx ops HD (Hfit ops Hf1) Hi') as [_ Ex].
  unfold lrun in *. rewrite foldl_app. cbn [foldl]. fold (lrun D cx ops) in *.
  destruct (lrun D cx ops) as [st dn op] eqn:El. pose proof (f_equal l_st El) as Est. rewrite lrun_st in Est. cbn [l_st] in Est.
  rewrite Est in *. destruct st as [db v]. cbn [fst snd l_done l_open] in *.
  assert (Ho : op_ok D (US D ms) (db, v) o).
  { assert (Hr : run_ok D cx (US D ms) (db, v) [o]).
    { apply (fine_run_ok D cx false); [|cbn [fine]; rewrite Hf2; done]. intros x Hx. apply Hsub. unfold merged_msgs. rewrite omap_app. apply elem_of_app. by right. }
    apply Hr. }
  assert (Hp : precise (fun _ => False) (dn ++ (op ++ op_events D cx (db, v) o))).
  { rewrite app_assoc. apply precise_app. split; [done|]. apply (precise_ext _ (stored v)); [exact Ex|].
    apply (op_precise D rk cx (a_store_ok D rk HD) (US D ms) (US_set D ms) (fun a b => US_coherent D ms a b Hco)); done. }
  destruct o as [m|f c mx|f key| |]; unfold lstep; cbn [l_done l_open l_st]; try done; rewrite app_nil_r; done.
Qed.

(** * Instances *)
Section Instances.
  Let h (x : N) : bytes := repeat x 20.
  Let K1 : bytes := repeat 1 32.
  Let cx0 : msg -> mctx := fun _ => MCtx true true.
  Let follow : bytes := [102; 111; 108; 108; 111; 119].
  Let ladd (ts x tgt : N) : msg := Msg T_LinkAdd 7 ts (h x) K1 (BLink follow (Some tgt)).
  Let lrem (ts x tgt : N) : msg := Msg T_LinkRemove 7 ts (h x) K1 (BLink follow (Some tgt)).
  Let lcomp (ts x : N) (tg : list N) : msg := Msg T_LinkCompact 7 ts (h x) K1 (BLinkCompact follow tg).
  Let lnd (ts x to units : N) : msg := Msg T_Lend 7 ts (h x) K1 (BLend to units).
  Let A := [OMerge (ladd 5 1 20); OMerge (ladd 6 2 21); OMerge (lrem 6 3 20); OCommit; OMerge (lcomp 9 4 [30]);
            OMerge (ladd 10 5 31); ORollback; OMerge (ladd 10 5 31); OCommit; ORevoke 7 K1].
  Example C75_ex : fit link_def A = true /\ pairwise identified (merged_msgs A) = true /\ fine link_def cx0 false start A = true /\
    l_done (lrun link_def cx0 A) = [EvMerge (ladd 5 1 20) []; EvMerge (ladd 6 2 21) []; EvMerge (lrem 6 3 20) [ladd 5 1 20]; EvMerge (ladd 10 5 31) []] /\
    l_open (lrun link_def cx0 A) = [EvRevoke (ladd 6 2 21); EvRevoke (lrem 6 3 20); EvRevoke (ladd 10 5 31)].
  Proof. vm_compute. repeat split; reflexivity. Qed.
  Example C75_trie_ex :
    pairwise (fun a b => negb (bool_decide (m_hash a = m_hash b)) || bool_decide (a = b)) (merged_msgs A) = true /\
    elements (foldl (trie_update (fun _ => 0)) ∅ (l_done (lrun link_def cx0 A))) =
      [0 :: [0; 0; 0; 7] ++ [48] ++ h 3; 0 :: [0; 0; 0; 7] ++ [40] ++ h 5; 0 :: [0; 0; 0; 7] ++ [40] ++ h 2].
  Proof. vm_compute. repeat split; reflexivity. Qed.
  Example C75_loan_keys_ex : let ops := [OMerge (lnd 5 1 8 3); OCommit] in
    fit lend_def ops = true /\
    elements (foldl (trie_update (fun _ => 0)) ∅ (l_done (lrun lend_def cx0 ops))) =
      [0 :: [0; 0; 0; 7] ++ [120] ++ h 1; 0 :: [0; 0; 0; 8] ++ [120] ++ h 1].
  Proof. vm_compute. repeat split; reflexivity. Qed.
  Example C75_lend_ex : let ops := [OMerge (lnd 5 1 8 3); OCommit] in
    fit lend_def (ops ++ [OMerge (lnd 6 2 8 0)]) = true /\ pairwise identified (lnd 6 2 8 0 :: merged_msgs ops) = true /\
    (lend_merge (srun lend_def cx0 start ops).1 (srun lend_def cx0 start ops).2 (cx0 (lnd 6 2 8 0)) (lnd 6 2 8 0)).2 =
      inr [EvMerge (lnd 6 2 8 0) [lnd 5 1 8 3]; EvPrune (lnd 6 2 8 0)].
  Proof. vm_compute. repeat split; reflexivity. Qed.

  (** Without the condition a message is reported deleted twice: the compact state scans committed links and meets one
      that a removal of the same block has deleted already.  A consumer that counts additions minus deletions drifts. *)
  Theorem C75_deleted_twice_refuted : exists ops,
    fit link_def ops = true /\ pairwise identified (merged_msgs ops) = true /\
    l_done (lrun link_def cx0 ops) = [EvMerge (ladd 5 1 20) []; EvMerge (lrem 6 2 20) [ladd 5 1 20]; EvMerge (lcomp 9 3 []) [ladd 5 1 20]] /\
    ~ precise (fun _ => False) (l_done (lrun link_def cx0 ops)).
  Proof.
    exists [OMerge (ladd 5 1 20); OCommit; OMerge (lrem 6 2 20); OMerge (lcomp 9 3 []); OCommit].
    assert (E : l_done (lrun link_def cx0 [OMerge (ladd 5 1 20); OCommit; OMerge (lrem 6 2 20); OMerge (lcomp 9 3 []); OCommit]) =
      [EvMerge (ladd 5 1 20) []; EvMerge (lrem 6 2 20) [ladd 5 1 20]; EvMerge (lcomp 9 3 []) [ladd 5 1 20]]) by (vm_compute; reflexivity).
    split; [vm_compute; reflexivity|]. split; [vm_compute; reflexivity|]. split; [exact E|]. rewrite E. clear E.
    cbn [precise]. intros (_ & _ & (_ & _ & H) & _). specialize (H (ladd 5 1 20) ltac:(left)). cbn [consume] in H.
    destruct H as [_ H]. apply H. left.
  Qed.
  (** A message can even be announced twice: evicting a superseded message unlinks its successor, which then is accepted
      again while it is stored. *)
  Theorem C75_announced_twice_refuted : exists ops,
    fit link_def ops = true /\ pairwise identified (merged_msgs ops) = true /\
    l_done (lrun link_def cx0 ops) = [EvMerge (ladd 5 1 20) []; EvMerge (ladd 6 2 20) [ladd 5 1 20]; EvPrune (ladd 5 1 20); EvMerge (ladd 6 2 20) []].
  Proof.
    exists [OMerge (ladd 5 1 20); OCommit; OMerge (ladd 6 2 20); OPrune 7 1 0; OCommit; OMerge (ladd 6 2 20); OCommit].
    vm_compute. repeat split; reflexivity.
  Qed.
End Instances.

Print Assumptions C75_log_exact.
Print Assumptions C75_lend_merge.
Print Assumptions C75_trie_follows.
Print Assumptions C75_loan_keys.
Print Assumptions C75_precise_partial.
Print Assumptions C75_deleted_twice_refuted.
Print Assumptions C75_announced_twice_refuted.
