(** Refinement of the message stores (Store.v) to a map from slots to the message holding them. *)
From Coq Require Import ZifyN ZifyNat ZifyBool.
From Verif Require Import Store StoreSpec.
#[local] Open Scope N_scope.

(** Facts about a store definition used by the generic proof; [rk] is the rank by which messages of one slot compete. *)
Record def_ok (D : sdef) (rk : msg -> list N) : Prop := {
  ok_types : d_add_type D <> d_rem_type D;
  ok_add : forall m, d_is_add D m = true -> m_type m = d_add_type D;
  ok_rem : forall m, d_has_rem D && d_is_rem D m = true -> m_type m = d_rem_type D;
  ok_comp : forall m, d_is_comp D m = true -> d_is_add D m = false /\ d_is_rem D m = false;
  ok_cmp : forall a b, set_msg D a = true -> set_msg D b = true ->
    d_cmp D (m_type a) (tsh a) (m_type b) (tsh b) = lex (rk a) (rk b);
  ok_rank : forall a b, set_msg D a = true -> set_msg D b = true -> rk a = rk b -> m_hash a = m_hash b;
  ok_slot : forall a b, m_fid a = m_fid b -> m_type a = m_type b -> m_ts a = m_ts b -> m_hash a = m_hash b ->
    m_body a = m_body b -> d_slot D a = d_slot D b;
  ok_cslot : forall m, d_has_compact D = true -> set_msg D m = true -> is_some (d_comp_slot D m) = true;
  ok_comp_has : forall m, d_is_comp D m = true -> d_has_compact D = true;
  ok_build : forall g m l, d_build D g m = Some l -> exists l', d_unbuild D m = Some l' /\ l.*1 ⊆ l';
  ok_unbuild : forall g m, is_some (d_unbuild D m) = true -> is_some (d_build D g m) = true;
  ok_fun : forall g m l k x y, d_build D g m = Some l -> (k, x) ∈ l -> (k, y) ∈ l -> x = y;
  ok_sep : forall m1 m2 l1 l2 k, set_msg D m1 = true -> set_msg D m2 = true ->
    d_is_add D m1 = true -> d_is_add D m2 = true ->
    d_unbuild D m1 = Some l1 -> d_unbuild D m2 = Some l2 -> k ∈ l1 -> k ∈ l2 ->
    m_fid m1 = m_fid m2 /\ (d_slot D m1 = d_slot D m2 \/ (m_hash m1 = m_hash m2 /\ m_ts m1 = m_ts m2)) }.

Lemma lookup_put_idx v l k :
  (forall x y, (k, x) ∈ l -> (k, y) ∈ l -> x = y) ->
  forall x, s_idx (put_idx v l) !! k = Some x <-> (k, x) ∈ l \/ (k ∉ l.*1 /\ s_idx v !! k = Some x).
Proof.
  intros Hf x. cbn. induction l as [|[k0 x0] l IH]; cbn.
  - set_solver.
  - destruct (decide (k0 = k)) as [->|N].
    + rewrite lookup_insert. split.
      * intros [= <-]. left. left.
      * intros [H|[H _]]; [|set_solver].
        f_equal. apply (Hf x0 x); [left|done].
    + rewrite lookup_insert_ne by done. rewrite IH; [|intros a b Ha Hb; apply Hf; by right].
      rewrite elem_of_cons. cbn. rewrite not_elem_of_cons. naive_solver.
Qed.
Lemma lookup_del_idx v l k :
  forall x, s_idx (del_idx v l) !! k = Some x <-> k ∉ l /\ s_idx v !! k = Some x.
Proof.
  intros x. cbn. induction l as [|k0 l IH]; cbn.
  - set_solver.
  - destruct (decide (k0 = k)) as [->|N].
    + rewrite lookup_delete. set_solver.
    + rewrite lookup_delete_ne by done. rewrite IH, not_elem_of_cons. naive_solver.
Qed.

(** * Scans *)
#[export] Instance row_le_trans : Transitive row_le.
Proof. intros a b c. unfold row_le. apply ble_trans. Qed.
#[export] Instance row_le_total : Total row_le.
Proof.
  intros a b. unfold row_le. destruct (blt_total a.1 b.1) as [H|[H|H]].
  - left. apply ble_eq_or_lt. by right.
  - left. apply ble_eq_or_lt. by left.
  - right. apply ble_eq_or_lt. by right.
Qed.
Lemma rows_of_elem rows f t m : (t, m) ∈ rows_of rows f <-> rows !! (f, t) = Some m.
Proof.
  unfold rows_of. rewrite (merge_sort_Permutation row_le), elem_of_list_omap. split.
  - intros ([[f' t'] m'] & H & E). cbn in E. destruct (N.eqb_spec f' f) as [->|]; [|done].
    injection E as -> ->. by apply elem_of_map_to_list in H.
  - intros H. exists ((f, t), m). cbn. rewrite N.eqb_refl. split; [by apply elem_of_map_to_list|done].
Qed.
Lemma rows_of_sorted rows f : StronglySorted row_le (rows_of rows f).
Proof. unfold rows_of. apply (StronglySorted_merge_sort row_le). Qed.
Lemma rows_of_nodup rows f : NoDup (rows_of rows f).
Proof.
  unfold rows_of. rewrite (merge_sort_Permutation row_le).
  pose proof (NoDup_map_to_list rows) as H. revert H. generalize (map_to_list rows). intros l.
  induction l as [|[[f' t'] m'] l IH]; intros H; [constructor|].
  apply NoDup_cons in H as [H1 H2]. cbn. destruct (N.eqb_spec f' f) as [->|]; [|by apply IH].
  constructor; [|by apply IH].
  rewrite elem_of_list_omap. intros ([[f2 t2] m2] & Hin & E). cbn in E.
  destruct (N.eqb_spec f2 f) as [->|]; [|done]. injection E as -> ->. done.
Qed.
Lemma tsh_ts_le a b : m_ts a < 2 ^ 32 -> m_ts b < 2 ^ 32 -> ble (tsh a) (tsh b) = true -> m_ts a <= m_ts b.
Proof.
  intros Ha Hb H. apply ble_lex in H. unfold tsh in H. rewrite lex_app in H by (by rewrite !be_length).
  rewrite be_lex in H by (cbn; lia). destruct (N.compare_spec (m_ts a) (m_ts b)); try lia. done.
Qed.

Section Refine.
  Variable D : sdef.
  Variable rk : msg -> list N.
  Variable cx : msg -> mctx.
  Hypothesis HD : def_ok D rk.
  (** The messages of the history under consideration. *)
  Variable U : msg -> Prop.
  Hypothesis HU : forall m, U m -> set_msg D m = true.
  Hypothesis HC : forall m1 m2, U m1 -> U m2 -> coherent m1 m2 = true.

  Notation wmap := (gmap rkey msg).
  Definition slot_of (m : msg) : bytes := match d_slot D m with Some s => s | None => [] end.
  Definition wkey (m : msg) : rkey := (m_fid m, slot_of m).
  Definition keys_of (m : msg) : list (bytes * bytes) :=
    match d_build D (c_follow (cx m)) m with Some l => l | None => [] end.
  Definition unkeys_of (m : msg) : list bytes := match d_unbuild D m with Some l => l | None => [] end.

  (** The slot map [W] describes the view [v]. *)
  Record R (v : smap) (W : wmap) : Prop := {
    R_wf : forall f s m, W !! (f, s) = Some m -> U m /\ wkey m = (f, s);
    R_rows : forall f t m, s_rows v !! (f, t) = Some m <-> W !! wkey m = Some m /\ m_fid m = f /\ tsh m = t;
    R_adds : forall f s t, s_adds v !! (f, s) = Some t <->
      exists m, W !! (f, s) = Some m /\ d_is_add D m = true /\ tsh m = t;
    R_rems : forall f s t, s_rems v !! (f, s) = Some t <->
      exists m, W !! (f, s) = Some m /\ d_is_add D m = false /\ tsh m = t;
    R_idx : forall k x, s_idx v !! k = Some x <->
      exists m, W !! wkey m = Some m /\ d_is_add D m = true /\ (k, x) ∈ keys_of m }.

  Lemma set_msg_facts m : set_msg D m = true ->
    length (m_hash m) = 20%nat /\ m_ts m < 2 ^ 32 /\ 0 < m_fid m < 2 ^ 32 /\
    (d_is_add D m = true \/ (d_is_add D m = false /\ d_has_rem D = true /\ d_is_rem D m = true)) /\
    d_slot D m = Some (slot_of m) /\ (d_is_add D m = true -> d_unbuild D m = Some (unkeys_of m)).
  Proof using Type.
    clear HC HU U HD cx rk.
    unfold set_msg, slot_of, unkeys_of. rewrite !andb_true_iff, !orb_true_iff.
    intros [[[[[[H1 H2] H3] H4] H5] H6] H7].
    repeat split; try lia.
    - destruct (d_is_add D m); [by left|right]. destruct H5 as [H5|H5]; [done|].
      apply andb_true_iff in H5. naive_solver.
    - by destruct (d_slot D m).
    - intros E. rewrite E in H7. destruct H7 as [|H7]; [done|]. by destruct (d_unbuild D m).
  Qed.

  Lemma ts_hash_ok m : set_msg D m = true -> make_ts_hash (m_ts m) (m_hash m) = Some (tsh m).
  Proof. intros H. apply set_msg_facts in H as [H _]. unfold make_ts_hash. by rewrite H. Qed.
  Lemma rem_kind m : set_msg D m = true -> d_is_add D m = false -> d_has_rem D = true /\ d_is_rem D m = true.
  Proof using Type. clear HC HU U HD cx rk. intros H E. apply set_msg_facts in H as (_ & _ & _ & [H|H] & _); [congruence|tauto]. Qed.
  Lemma type_of m : set_msg D m = true ->
    m_type m = if d_is_add D m then d_add_type D else d_rem_type D.
  Proof.
    intros H. destruct (d_is_add D m) eqn:E; [by apply (ok_add D rk HD)|].
    apply (ok_rem D rk HD). destruct (rem_kind m H E) as [-> ->]. done.
  Qed.
  Lemma kind_iff m : set_msg D m = true -> d_is_add D m = bool_decide (m_type m = d_add_type D).
  Proof.
    intros H. rewrite (type_of m H). pose proof (ok_types D rk HD). destruct (d_is_add D m).
    - by rewrite bool_decide_true.
    - by rewrite bool_decide_false.
  Qed.
  Lemma is_rem_false m : d_is_add D m = true -> d_has_rem D && d_is_rem D m = false.
  Proof.
    intros H. destruct (d_has_rem D && d_is_rem D m) eqn:E; [|done].
    apply (ok_rem D rk HD) in E. apply (ok_add D rk HD) in H. pose proof (ok_types D rk HD). congruence.
  Qed.
  Lemma not_comp m : set_msg D m = true -> d_is_comp D m = false.
  Proof.
    intros H. destruct (d_is_comp D m) eqn:E; [|done]. apply (ok_comp D rk HD) in E as [E1 E2].
    destruct (rem_kind m H E1). congruence.
  Qed.
  Lemma tsh_inj m1 m2 : set_msg D m1 = true -> set_msg D m2 = true -> tsh m1 = tsh m2 ->
    m_ts m1 = m_ts m2 /\ m_hash m1 = m_hash m2.
  Proof.
    intros H1 H2. apply set_msg_facts in H1 as (_ & H1 & _). apply set_msg_facts in H2 as (_ & H2 & _).
    unfold tsh. intros E. apply app_inj_len in E as [E ->]; [|by rewrite !be_length].
    split; [|done]. by apply (be_inj 4).
  Qed.
  (** Same author and ts_hash: same slot and kind. *)
  Lemma same_id m1 m2 : U m1 -> U m2 -> m_fid m1 = m_fid m2 -> m_hash m1 = m_hash m2 ->
    m_type m1 = m_type m2 /\ m_ts m1 = m_ts m2 /\ m_body m1 = m_body m2.
  Proof.
    intros H1 H2 E1 E2. pose proof (HC _ _ H1 H2) as H. unfold coherent in H.
    rewrite E1, E2, N.eqb_refl, bool_decide_true in H by done. cbn in H.
    rewrite !andb_true_iff, bool_decide_eq_true in H. lia || (destruct H as [[H3 H4] H5]; repeat split; [lia|lia|done]).
  Qed.

  Lemma same_slot m1 m2 : U m1 -> U m2 -> m_fid m1 = m_fid m2 -> tsh m1 = tsh m2 ->
    wkey m1 = wkey m2 /\ d_is_add D m1 = d_is_add D m2.
  Proof.
    intros H1 H2 E1 E2. apply tsh_inj in E2 as [E2 E3]; [|by apply HU..].
    destruct (same_id _ _ H1 H2 E1 E3) as (T & _ & B).
    split.
    - unfold wkey, slot_of. rewrite E1. rewrite (ok_slot D rk HD m1 m2 E1 T E2 E3 B). done.
    - rewrite !kind_iff by (by apply HU). by rewrite T.
  Qed.

  Lemma keys_unkeys m k x : set_msg D m = true -> (k, x) ∈ keys_of m -> k ∈ unkeys_of m.
  Proof.
    intros _. unfold keys_of, unkeys_of. destruct (d_build D _ m) as [l|] eqn:E; [|set_solver].
    intros H. destruct (ok_build D rk HD _ _ _ E) as (l' & -> & Hl). apply Hl.
    apply elem_of_list_fmap. by exists (k, x).
  Qed.
  Lemma build_ok m : set_msg D m = true -> d_is_add D m = true ->
    d_build D (c_follow (cx m)) m = Some (keys_of m).
  Proof.
    intros H A. apply set_msg_facts in H as (_ & _ & _ & _ & _ & H). specialize (H A).
    unfold keys_of. pose proof (ok_unbuild D rk HD (c_follow (cx m)) m) as B. rewrite H in B.
    specialize (B eq_refl). by destruct (d_build D _ m).
  Qed.
  Lemma keys_fun m k x y : (k, x) ∈ keys_of m -> (k, y) ∈ keys_of m -> x = y.
  Proof.
    unfold keys_of. destruct (d_build D _ m) as [l|] eqn:E; [|set_solver].
    by apply (ok_fun D rk HD _ _ _ _ _ _ E).
  Qed.
  Lemma sep m1 m2 k : U m1 -> U m2 -> d_is_add D m1 = true -> d_is_add D m2 = true ->
    k ∈ unkeys_of m1 -> k ∈ unkeys_of m2 -> wkey m1 = wkey m2.
  Proof.
    intros H1 H2 A1 A2 K1 K2.
    pose proof (HU _ H1) as S1. pose proof (HU _ H2) as S2.
    pose proof (set_msg_facts _ S1) as (_ & _ & _ & _ & _ & F1).
    pose proof (set_msg_facts _ S2) as (_ & _ & _ & _ & _ & F2).
    destruct (ok_sep D rk HD m1 m2 _ _ k S1 S2 A1 A2 (F1 A1) (F2 A2) K1 K2) as [E [E'|[E1 E2]]].
    - unfold wkey, slot_of. by rewrite E, E'.
    - apply (same_slot m1 m2); try done. unfold tsh. by rewrite E1, E2.
  Qed.

  (** Two views of the same slot map are equal (compact states aside). *)
  Lemma R_unique v1 v2 W : R v1 W -> R v2 W ->
    s_rows v1 = s_rows v2 /\ s_adds v1 = s_adds v2 /\ s_rems v1 = s_rems v2 /\ s_idx v1 = s_idx v2.
  Proof.
    intros [_ A1 A2 A3 A4] [_ B1 B2 B3 B4].
    repeat split; apply map_eq; [intros [f t]..|intros k]; apply option_eq; intros x.
    - by rewrite A1, B1.
    - by rewrite A2, B2.
    - by rewrite A3, B3.
    - by rewrite A4, B4.
  Qed.

  Lemma R_empty : R sempty ∅.
  Proof.
    split; try done; intros; rewrite ?lookup_empty; cbn; split; try done.
    - by intros [H _].
    - by intros (m & H & _).
    - by intros (m & H & _).
    - by intros (m & H & _).
  Qed.

  (** Removing the message that holds a slot. *)
  Lemma delete_one_spec v W m : R v W -> W !! wkey m = Some m ->
    exists v', delete_one D v m = (v', inr tt) /\ R v' (delete (wkey m) W) /\ s_comp v' = s_comp v.
  Proof.
    intros HR Hm. destruct (R_wf _ _ HR _ _ _ Hm) as [Um _].
    pose proof (HU _ Um) as Sm. pose proof (set_msg_facts _ Sm) as (_ & _ & _ & K & Sl & F).
    assert (Krow : forall f t x, delete (m_fid m, tsh m) (s_rows v) !! (f, t) = Some x <->
      delete (wkey m) W !! wkey x = Some x /\ m_fid x = f /\ tsh x = t).
    { intros f t x. rewrite lookup_delete_Some, (R_rows _ _ HR). rewrite lookup_delete_Some. split.
      - intros [N (H1 & <- & <-)]. split; [|done]. split; [|done]. intros E. apply N.
        rewrite <- E in H1. assert (x = m) by congruence. by subst x.
      - intros [[N H1] [<- <-]]. split; [|done]. intros E.
        assert (m_fid m = m_fid x /\ tsh m = tsh x) as [E1 E2] by (split; congruence).
        apply N. apply (same_slot m x); try done. by apply (R_wf _ _ HR (m_fid x) (slot_of x)). }
    unfold delete_one. rewrite (not_comp m Sm). unfold delete_add, delete_remove, delete_message.
    destruct (d_is_add D m) eqn:A.
    - rewrite (ts_hash_ok m Sm), (F eq_refl), Sl, (is_rem_false m A).
      eexists. split; [reflexivity|]. split; [|done]. split; cbn.
      + intros f s x H. apply lookup_delete_Some in H as [_ H]. by apply (R_wf _ _ HR).
      + exact Krow.
      + intros f s t. fold (wkey m). rewrite lookup_delete_Some, (R_adds _ _ HR).
        split; [intros [N (x & H1 & H2)]; exists x; rewrite lookup_delete_ne by done; done|].
        intros (x & H1 & H2). apply lookup_delete_Some in H1 as [N H1]. eauto.
      + intros f s t. rewrite (R_rems _ _ HR). split; intros (x & H1 & H2 & H3); exists x; split; try done.
        * rewrite lookup_delete_ne; [done|]. intros E. rewrite E, H1 in Hm. congruence.
        * by apply lookup_delete_Some in H1 as [_ H1].
      + intros k x. change (s_idx (del_idx v (unkeys_of m)) !! k = Some x <->
          exists m0, delete (wkey m) W !! wkey m0 = Some m0 /\ d_is_add D m0 = true /\ (k, x) ∈ keys_of m0).
        rewrite lookup_del_idx, (R_idx _ _ HR). split.
        * intros [N (y & H1 & H2 & H3)]. exists y. split; [|done]. rewrite lookup_delete_ne; [done|].
          intros E. rewrite <- E in H1. assert (y = m) by congruence. subst y. apply N.
          by apply (keys_unkeys m k x).
        * intros (y & H1 & H2 & H3). apply lookup_delete_Some in H1 as [N H1]. split; [|eauto].
          intros Hk. apply N. destruct (R_wf _ _ HR _ _ _ H1) as [Uy _].
          apply (sep m y k); try done. apply (keys_unkeys y k x); [by apply HU|done].
    - destruct (rem_kind m Sm A) as [-> ->]. cbn. rewrite Sl, (ts_hash_ok m Sm).
      eexists. split; [reflexivity|]. split; [|done]. split; cbn.
      + intros f s x H. apply lookup_delete_Some in H as [_ H]. by apply (R_wf _ _ HR).
      + exact Krow.
      + intros f s t. rewrite (R_adds _ _ HR). split; intros (x & H1 & H2 & H3); exists x; split; try done.
        * rewrite lookup_delete_ne; [done|]. intros E. rewrite E, H1 in Hm. congruence.
        * by apply lookup_delete_Some in H1 as [_ H1].
      + intros f s t. fold (wkey m). rewrite lookup_delete_Some, (R_rems _ _ HR).
        split; [intros [N (x & H1 & H2)]; exists x; rewrite lookup_delete_ne by done; done|].
        intros (x & H1 & H2). apply lookup_delete_Some in H1 as [N H1]. eauto.
      + intros k x. rewrite (R_idx _ _ HR). split; intros (y & H1 & H2 & H3); exists y; split; try done.
        * rewrite lookup_delete_ne; [done|]. intros E. rewrite <- E in H1. congruence.
        * by apply lookup_delete_Some in H1 as [_ H1].
  Qed.

  (** Storing a message in a free slot. *)
  Lemma finish_spec v W m cf : R v W -> U m -> W !! wkey m = None ->
    exists v', finish D v (c_follow (cx m)) (d_is_add D m) (tsh m) m cf = (v', inr (EvMerge m cf))
      /\ R v' (<[wkey m := m]> W) /\ s_comp v' = s_comp v.
  Proof.
    intros HR Um Hn. pose proof (HU _ Um) as Sm.
    pose proof (set_msg_facts _ Sm) as (_ & _ & _ & K & Sl & F).
    assert (Krow : forall f t x, <[(m_fid m, tsh m) := m]> (s_rows v) !! (f, t) = Some x <->
      <[wkey m := m]> W !! wkey x = Some x /\ m_fid x = f /\ tsh x = t).
    { intros f t x. rewrite lookup_insert_Some, (R_rows _ _ HR), lookup_insert_Some. split.
      - intros [[E ->]|[N (H1 & <- & <-)]].
        + apply pair_equal_spec in E as [<- <-]. split; [by left|done].
        + split; [|done]. right. split; [|done]. intros E. rewrite <- E in H1. congruence.
      - intros [[[E ->]|[N H1]] [<- <-]]; [by left|]. right. split; [|done].
        intros E. apply pair_equal_spec in E as [E1 E2]. apply N. apply (same_slot m x); try done.
        by apply (R_wf _ _ HR (m_fid x) (slot_of x)). }
    assert (Kwf : forall f s x, <[wkey m := m]> W !! (f, s) = Some x -> U x /\ wkey x = (f, s)).
    { intros f s x. rewrite lookup_insert_Some. intros [[<- <-]|[_ H]]; [done|]. by apply (R_wf _ _ HR). }
    unfold finish, put_add, put_remove, put_message.
    destruct (d_is_add D m) eqn:A.
    - rewrite (ts_hash_ok m Sm), Sl, (build_ok m Sm A).
      eexists. split; [reflexivity|]. split; [|done]. split; cbn; [done|exact Krow|..].
      + intros f s t. fold (wkey m). rewrite lookup_insert_Some, (R_adds _ _ HR). split.
        * intros [[<- <-]|[N (x & H1 & H2)]].
          -- exists m. by rewrite lookup_insert.
          -- exists x. by rewrite lookup_insert_ne.
        * intros (x & H1 & H2 & H3). apply lookup_insert_Some in H1 as [[<- <-]|[N H1]]; [by left|right; eauto].
      + intros f s t. rewrite (R_rems _ _ HR). split; intros (x & H1 & H2 & H3); exists x; split; try done.
        * rewrite lookup_insert_ne; [done|]. congruence.
        * apply lookup_insert_Some in H1 as [[<- <-]|[N H1]]; [congruence|done].
      + intros k x.
        change (s_idx (put_idx v (keys_of m)) !! k = Some x <->
          exists m0, <[wkey m := m]> W !! wkey m0 = Some m0 /\ d_is_add D m0 = true /\ (k, x) ∈ keys_of m0).
        rewrite lookup_put_idx by (by apply keys_fun). rewrite (R_idx _ _ HR). split.
        * intros [H|[N (y & H1 & H2 & H3)]].
          -- exists m. by rewrite lookup_insert.
          -- exists y. rewrite lookup_insert_ne; [done|]. congruence.
        * intros (y & H1 & H2 & H3). apply lookup_insert_Some in H1 as [[E <-]|[N H1]]; [by left|].
          right. split; [|eauto]. intros Hk. apply N. destruct (R_wf _ _ HR _ _ _ H1) as [Uy _].
          apply elem_of_list_fmap in Hk as ([k' x'] & -> & Hk).
          apply (sep m y k'); try done; [by apply (keys_unkeys m k' x')|].
          apply (keys_unkeys y k' x); [by apply HU|done].
    - destruct (rem_kind m Sm A) as [-> E]. cbn. rewrite (ts_hash_ok m Sm), Sl.
      eexists. split; [reflexivity|]. split; [|done]. split; cbn; [done|exact Krow|..].
      + intros f s t. rewrite (R_adds _ _ HR). split; intros (x & H1 & H2 & H3); exists x; split; try done.
        * rewrite lookup_insert_ne; [done|]. congruence.
        * apply lookup_insert_Some in H1 as [[<- <-]|[N H1]]; [congruence|done].
      + intros f s t. fold (wkey m). rewrite lookup_insert_Some, (R_rems _ _ HR). split.
        * intros [[<- <-]|[N (x & H1 & H2)]].
          -- exists m. by rewrite lookup_insert.
          -- exists x. by rewrite lookup_insert_ne.
        * intros (x & H1 & H2 & H3). apply lookup_insert_Some in H1 as [[<- <-]|[N H1]]; [by left|right; eauto].
      + intros k x. rewrite (R_idx _ _ HR). split; intros (y & H1 & H2 & H3); exists y; split; try done.
        * rewrite lookup_insert_ne; [done|]. congruence.
        * apply lookup_insert_Some in H1 as [[E' <-]|[N H1]]; [congruence|done].
  Qed.

  (** What the conflict search returns. *)
  Definition cmp_msg (a b : msg) : comparison := d_cmp D (m_type a) (tsh a) (m_type b) (tsh b).
  Lemma conflicts_spec v W m : R v W -> U m ->
    get_merge_conflicts D v m (tsh m) =
    match W !! wkey m with
    | None => inr []
    | Some w =>
      match cmp_msg w m with
      | Gt => inl (if d_is_add D w then EConflictAdd else EConflictRemove)
      | Eq => inl EDuplicate
      | Lt => inr [w]
      end
    end.
  Proof.
    intros HR Um. pose proof (HU _ Um) as Sm.
    pose proof (set_msg_facts _ Sm) as (_ & _ & _ & K & Sl & F).
    unfold get_merge_conflicts. rewrite Sl. fold (wkey m).
    destruct (W !! wkey m) as [w|] eqn:E.
    - destruct (R_wf _ _ HR _ _ _ E) as [Uw Kw]. pose proof (HU _ Uw) as Sw.
      assert (Er : s_rows v !! (m_fid m, tsh w) = Some w).
      { apply (R_rows _ _ HR). change (m_fid m, slot_of m) with (wkey m) in Kw. rewrite Kw.
        repeat split; [done|]. unfold wkey in Kw. congruence. }
      destruct (d_is_add D w) eqn:A.
      + assert (Ea : s_adds v !! wkey m = Some (tsh w)) by (apply (R_adds _ _ HR); eauto).
        assert (En : s_rems v !! wkey m = None).
        { destruct (s_rems v !! wkey m) eqn:X; [|done]. apply (R_rems _ _ HR) in X as (x & X1 & X2 & _).
          unfold wkey in *. congruence. }
        rewrite Ea, En. unfold conflict_at, cmp_msg. rewrite Er, (type_of w Sw), A.
        destruct (d_has_rem D); destruct (d_cmp D _ _ _ _); done.
      + assert (Ea : s_rems v !! wkey m = Some (tsh w)) by (apply (R_rems _ _ HR); eauto).
        assert (En : s_adds v !! wkey m = None).
        { destruct (s_adds v !! wkey m) eqn:X; [|done]. apply (R_adds _ _ HR) in X as (x & X1 & X2 & _).
          unfold wkey in *. congruence. }
        destruct (rem_kind w Sw A) as [-> _].
        rewrite Ea, En. unfold conflict_at, cmp_msg. rewrite Er, (type_of w Sw), A.
        by destruct (d_cmp D _ _ _ _).
    - assert (En : s_rems v !! wkey m = None).
      { destruct (s_rems v !! wkey m) eqn:X; [|done]. apply (R_rems _ _ HR) in X as (x & X1 & X2 & _).
        unfold wkey in *. congruence. }
      assert (En' : s_adds v !! wkey m = None).
      { destruct (s_adds v !! wkey m) eqn:X; [|done]. apply (R_adds _ _ HR) in X as (x & X1 & X2 & _).
        unfold wkey in *. congruence. }
      rewrite En, En'. cbn. by destruct (d_has_rem D).
  Qed.

  (** The slot-map version of a merge. *)
  Definition spec_merge (W : wmap) (m : msg) : wmap :=
    match W !! wkey m with
    | None => <[wkey m := m]> W
    | Some w => match cmp_msg w m with Lt => <[wkey m := m]> W | _ => W end
    end.

  Lemma merge_set_spec v W m : R v W -> U m -> compact_check D v (d_is_add D m) m = None ->
    exists v' r, merge_set D v (c_follow (cx m)) (d_is_add D m) (tsh m) m = (v', r) /\
      R v' (spec_merge W m) /\ s_comp v' = s_comp v /\
      match W !! wkey m with
      | None => r = inr (EvMerge m [])
      | Some w =>
        match cmp_msg w m with
        | Gt => v' = v /\ r = inl (if d_is_add D w then EConflictAdd else EConflictRemove)
        | Eq => v' = v /\ r = inl EDuplicate
        | Lt => r = inr (EvMerge m [w])
        end
      end.
  Proof.
    intros HR Um Hc. unfold merge_set. rewrite Hc, (conflicts_spec v W m HR Um). unfold spec_merge.
    destruct (W !! wkey m) as [w|] eqn:E.
    - destruct (R_wf _ _ HR _ _ _ E) as [Uw Kw].
      destruct (cmp_msg w m).
      + eexists _, _. split; [reflexivity|]. done.
      + cbn. change (m_fid m, slot_of m) with (wkey m) in Kw.
        rewrite <- Kw in E. destruct (delete_one_spec v W w HR E) as (v1 & -> & HR1 & Ec1).
        destruct (finish_spec v1 (delete (wkey w) W) m [w] HR1 Um) as (v2 & E2 & HR2 & Ec2).
        { rewrite Kw. apply lookup_delete. }
        rewrite E2. eexists _, _. split; [reflexivity|]. split; [|split; [congruence|done]].
        rewrite Kw, insert_delete_insert in HR2. done.
      + eexists _, _. split; [reflexivity|]. done.
    - cbn. destruct (finish_spec v W m [] HR Um E) as (v2 & E2 & HR2 & Ec2).
      rewrite E2. eexists _, _. done.
  Qed.

  Lemma merge_unfold db v m : U m ->
    merge D db v (cx m) m = merge_set D v (c_follow (cx m)) (d_is_add D m) (tsh m) m.
  Proof.
    intros Um. pose proof (HU _ Um) as Sm. unfold merge.
    rewrite (ts_hash_ok m Sm), (not_comp m Sm).
    destruct (d_is_add D m) eqn:A; [done|].
    destruct (rem_kind m Sm A) as [-> ->]. done.
  Qed.

  (** ** Deleting several messages *)
  Definition wminus (W : wmap) (l : list msg) : wmap := filter (fun p => p.2 ∉ l) W.
  Lemma wminus_lookup W l k m : wminus W l !! k = Some m <-> W !! k = Some m /\ m ∉ l.
  Proof. unfold wminus. by rewrite map_filter_lookup_Some. Qed.
  Lemma wminus_nil W : wminus W [] = W.
  Proof. apply map_eq. intros k. apply option_eq. intros m. rewrite wminus_lookup. set_solver. Qed.
  Lemma wminus_cons v W m l : R v W -> W !! wkey m = Some m -> wminus (delete (wkey m) W) l = wminus W (m :: l).
  Proof.
    intros HR Hm. apply map_eq. intros [f s]. apply option_eq. intros x.
    rewrite !wminus_lookup, lookup_delete_Some, not_elem_of_cons. split.
    - intros [[N H] Hx]. repeat split; try done. intros ->. apply N. by apply (R_wf _ _ HR).
    - intros [H [N Hx]]. repeat split; try done. intros E. rewrite <- E in H. congruence.
  Qed.
  Definition winners (W : wmap) (l : list msg) : Prop := NoDup l /\ forall m, m ∈ l -> W !! wkey m = Some m.
  Lemma winners_tail W m l : winners W (m :: l) -> W !! wkey m = Some m /\ winners (delete (wkey m) W) l.
  Proof.
    intros [N H]. apply NoDup_cons in N as [N1 N2]. split; [apply H; left|]. split; [done|].
    intros x Hx. apply lookup_delete_Some. split; [|apply H; by right].
    intros E. assert (W !! wkey m = Some m) as A by (apply H; left).
    assert (W !! wkey x = Some x) as B by (apply H; by right). rewrite E in A. assert (m = x) by congruence. by subst.
  Qed.
  Lemma delete_many_spec l : forall v W, R v W -> winners W l ->
    exists v', delete_many D v l = (v', inr tt) /\ R v' (wminus W l) /\ s_comp v' = s_comp v.
  Proof.
    induction l as [|m l IH]; intros v W HR Hw.
    - exists v. cbn. by rewrite wminus_nil.
    - apply winners_tail in Hw as [Hm Hw]. destruct (delete_one_spec v W m HR Hm) as (v1 & E1 & HR1 & C1).
      destruct (IH v1 _ HR1 Hw) as (v2 & E2 & HR2 & C2).
      exists v2. cbn. rewrite E1, E2. rewrite (wminus_cons v W m l HR Hm) in HR2. split; [done|]. split; [done|congruence].
  Qed.

  Lemma prune_is_delete v m : set_msg D m = true ->
    prune_message D v m = match delete_one D v m with
                          | (v', inl e) => (v', inl e)
                          | (v', inr _) => (v', inr (Some (EvPrune m)))
                          end.
  Proof.
    intros Sm. unfold prune_message, delete_one. rewrite (not_comp m Sm), andb_false_r, (ts_hash_ok m Sm).
    destruct (d_is_add D m) eqn:A.
    - rewrite (is_rem_false m A). by destruct (delete_add D v m) as [v' [e|?]].
    - by destruct (d_has_rem D && d_is_rem D m).
  Qed.
  Lemma revoke_is_delete v m : set_msg D m = true ->
    revoke D v m = match delete_one D v m with
                   | (v', inl e) => (v', inl e)
                   | (v', inr _) => (v', inr (EvRevoke m))
                   end.
  Proof.
    intros Sm. unfold revoke, delete_one. rewrite (not_comp m Sm), (ts_hash_ok m Sm).
    destruct (d_is_add D m) eqn:A.
    - rewrite (is_rem_false m A). by destruct (delete_add D v m) as [v' [e|?]].
    - destruct (rem_kind m Sm A) as [-> ->]. done.
  Qed.

  Lemma winners_set v W m l : R v W -> winners W (m :: l) -> set_msg D m = true.
  Proof. intros HR Hw. apply winners_tail in Hw as [Hm _]. apply HU. by apply (R_wf _ _ HR _ _ _ Hm). Qed.
  Lemma prune_loop_spec l : forall v W count mx evs, R v W -> winners W l.*2 ->
    exists v', prune_loop D v l count mx evs
        = (v', inr (evs ++ map EvPrune (take (N.to_nat (count - mx)) l.*2)))
      /\ R v' (wminus W (take (N.to_nat (count - mx)) l.*2)) /\ s_comp v' = s_comp v.
  Proof.
    induction l as [|[t m] l IH]; intros v W count mx evs HR Hw.
    - exists v. cbn. rewrite take_nil. cbn. rewrite app_nil_r, wminus_nil. done.
    - change ((t, m) :: l).*2 with (m :: l.*2) in *. cbn [prune_loop].
      destruct (N.leb_spec count mx) as [L|L].
      + replace (count - mx) with 0 by lia. exists v. cbn. rewrite app_nil_r, wminus_nil. done.
      + pose proof (winners_set v W m _ HR Hw) as Sm. apply winners_tail in Hw as [Hm Hw].
        rewrite (prune_is_delete v m Sm).
        destruct (delete_one_spec v W m HR Hm) as (v1 & E1 & HR1 & C1). rewrite E1.
        destruct (IH v1 _ (count - 1) mx (evs ++ [EvPrune m]) HR1 Hw) as (v2 & E2 & HR2 & C2).
        replace (N.to_nat (count - mx)) with (S (N.to_nat (count - 1 - mx))) by lia.
        exists v2. rewrite E2. cbn [take map]. rewrite <- app_assoc. split; [done|].
        rewrite (wminus_cons v W m _ HR Hm) in HR2. split; [done|congruence].
  Qed.
  Definition by_signer (key : bytes) (l : list msg) : list msg := List.filter (fun m => bool_decide (m_signer m = key)) l.
  Lemma revoke_loop_spec key l : forall v W evs, R v W -> winners W l.*2 ->
    exists v', revoke_loop D v l key evs = (v', evs ++ map EvRevoke (by_signer key l.*2))
      /\ R v' (wminus W (by_signer key l.*2)) /\ s_comp v' = s_comp v.
  Proof.
    induction l as [|[t m] l IH]; intros v W evs HR Hw.
    - exists v. cbn. rewrite app_nil_r, wminus_nil. done.
    - change ((t, m) :: l).*2 with (m :: l.*2) in *. cbn [revoke_loop].
      pose proof (winners_set v W m _ HR Hw) as Sm.
      assert (Hw' : winners W l.*2).
      { destruct Hw as [N H]. apply NoDup_cons in N as [_ N]. split; [done|]. intros x Hx. apply H. by right. }
      apply winners_tail in Hw as [Hm Hw].
      unfold by_signer. cbn [List.filter]. fold (by_signer key l.*2).
      destruct (bool_decide (m_signer m = key)).
      + rewrite (revoke_is_delete v m Sm).
        destruct (delete_one_spec v W m HR Hm) as (v1 & E1 & HR1 & C1). rewrite E1.
        destruct (IH v1 _ (evs ++ [EvRevoke m]) HR1 Hw) as (v2 & E2 & HR2 & C2).
        exists v2. rewrite E2. cbn [map]. rewrite <- app_assoc. split; [done|].
        rewrite (wminus_cons v W m _ HR Hm) in HR2. split; [done|congruence].
      + destruct (IH v _ evs HR Hw') as (v2 & E2 & HR2 & C2). exists v2. done.
  Qed.

  (** ** Committed rows that are still in the view *)
  Definition scan_ok (db v : smap) (f : N) : Prop :=
    forall t m, s_rows db !! (f, t) = Some m -> s_rows v !! (f, t) = Some m.
  Lemma scan_winners db v W f : R v W -> scan_ok db v f -> winners W (rows_of (s_rows db) f).*2.
  Proof.
    intros HR Hs. split.
    - apply NoDup_fmap_2_strong; [|apply rows_of_nodup].
      intros [t m] [t' m'] H1 H2 E. cbn in E. subst m'.
      apply rows_of_elem, Hs, (R_rows _ _ HR) in H1 as (_ & _ & H1).
      apply rows_of_elem, Hs, (R_rows _ _ HR) in H2 as (_ & _ & H2). congruence.
    - intros m H. apply elem_of_list_fmap in H as ([t m'] & -> & H). cbn.
      by apply rows_of_elem, Hs, (R_rows _ _ HR) in H as (H & _).
  Qed.
  Lemma scan_elem db v W f m : R v W -> scan_ok db v f ->
    m ∈ (rows_of (s_rows db) f).*2 <-> s_rows db !! (f, tsh m) = Some m.
  Proof.
    intros HR Hs. rewrite elem_of_list_fmap. split.
    - intros ([t m'] & E & H). cbn in E. subst m'. apply rows_of_elem in H. pose proof H as H'.
      apply Hs, (R_rows _ _ HR) in H' as (_ & _ & <-). done.
    - intros H. exists (tsh m, m). split; [done|]. by apply rows_of_elem.
  Qed.

  (** ** Compact states *)
  Definition comp_ok (v : smap) : Prop := forall f s c, s_comp v !! (f, s) = Some c ->
    comp_msg D c = true /\ m_fid c = f /\ d_comp_slot D c = Some s.
  Definition covered (sc : bool) (c x : msg) : bool :=
    match compact_details c with
    | Some (cts, targets, ty) => (m_ts x <=? cts) && is_compaction_conflict D sc x targets ty
    | None => false
    end.
  Lemma compact_scan_elem sc cts targets ty l x :
    StronglySorted row_le l -> (forall t m, (t, m) ∈ l -> t = tsh m /\ m_ts m < 2 ^ 32) ->
    x ∈ compact_scan D sc l cts targets ty <->
    x ∈ l.*2 /\ m_ts x <= cts /\ is_compaction_conflict D sc x targets ty = true.
  Proof.
    induction l as [|[t m] l IH]; intros Hs Ht; [set_solver|].
    apply StronglySorted_inv in Hs as [Hs Hf]. cbn [compact_scan].
    assert (Ht' : forall t m, (t, m) ∈ l -> t = tsh m /\ m_ts m < 2 ^ 32) by (intros; apply Ht; by right).
    specialize (IH Hs Ht'). change ((t, m) :: l).*2 with (m :: l.*2). rewrite elem_of_cons.
    destruct (Ht t m) as [-> Lm]; [left|].
    destruct (N.ltb_spec cts (m_ts m)) as [L|L].
    - split; [set_solver|]. intros ([->|H] & H2 & _); [lia|].
      apply elem_of_list_fmap in H as ([t' x'] & -> & H). cbn in *.
      rewrite Forall_forall in Hf. pose proof (Hf _ H) as Hle. unfold row_le in Hle. cbn in Hle.
      destruct (Ht' _ _ H) as [-> Lx]. apply tsh_ts_le in Hle; [lia|done..].
    - destruct (is_compaction_conflict D sc m targets ty) eqn:Ec.
      + rewrite elem_of_cons, IH. split.
        * intros [->|H]; [|tauto]. split; [by left|done].
        * intros ([->|H] & H2); [by left|right; tauto].
      + rewrite IH. split; [tauto|]. intros ([->|H] & H2 & H3); [congruence|tauto].
  Qed.
  Lemma compact_scan_nodup sc cts targets ty l : NoDup l.*2 -> NoDup (compact_scan D sc l cts targets ty).
  Proof.
    assert (Hsub : forall l x, x ∈ compact_scan D sc l cts targets ty -> x ∈ l.*2).
    { clear l. induction l as [|[t m] l IH]; intros x; cbn; [done|].
      rewrite elem_of_cons. destruct (cts <? m_ts m); [set_solver|].
      destruct (is_compaction_conflict D sc m targets ty); [rewrite elem_of_cons|]; intros H.
      - destruct H as [->|H]; [by left|right; by apply IH].
      - right. by apply IH. }
    induction l as [|[t m] l IH]; cbn; [done|]. intros H. apply NoDup_cons in H as [H1 H2].
    destruct (cts <? m_ts m); [constructor|].
    destruct (is_compaction_conflict D sc m targets ty); [|by apply IH].
    constructor; [|by apply IH]. intros H. by apply H1, Hsub.
  Qed.
  Lemma R_comp v W c : R v W -> R (SMap (s_rows v) (s_adds v) (s_rems v) c (s_idx v)) W.
  Proof. intros [A1 A2 A3 A4 A5]. by split. Qed.

  Definition cslot_of (m : msg) : bytes := match d_comp_slot D m with Some s => s | None => [] end.
  Lemma comp_msg_facts m : comp_msg D m = true -> length (m_hash m) = 20%nat /\ d_has_compact D = true /\
    d_is_comp D m = true /\ d_comp_slot D m = Some (cslot_of m) /\ exists d, compact_details m = Some d.
  Proof.
    unfold comp_msg, cslot_of. rewrite !andb_true_iff. intros [[[[H1 H2] H3] H4] H5].
    repeat split; try done.
    - by apply Nat.eqb_eq.
    - by destruct (d_comp_slot D m).
    - destruct (compact_details m); [eauto|done].
  Qed.
  Lemma delete_comp_one v c : comp_msg D c = true ->
    delete_one D v c = (del_comp v (m_fid c, cslot_of c), inr tt).
  Proof.
    intros H. apply comp_msg_facts in H as (_ & H2 & H3 & H4 & _).
    unfold delete_one, delete_compact. rewrite H2, H3, H4. cbn.
    destruct (ok_comp D rk HD c H3) as [_ ->]. by rewrite andb_false_r.
  Qed.
  Lemma merge_compact_spec db v W sc m : R v W -> comp_ok v -> comp_msg D m = true -> scan_ok db v (m_fid m) ->
    exists v' r, merge_compact D db v sc m = (v', r) /\
      let older := s_comp v !! (m_fid m, cslot_of m) in
      (exists x, older = Some x /\ m_ts m <= m_ts x /\ v' = v /\ r = inl ENewerCompact) \/
      ((forall x, older = Some x -> m_ts x < m_ts m) /\
       exists l, r = inr (EvMerge m (option_list older ++ l)) /\
         (forall x, x ∈ l <-> s_rows db !! (m_fid m, tsh x) = Some x /\ covered sc m x = true) /\
         R v' (wminus W l) /\ s_comp v' = <[(m_fid m, cslot_of m) := m]> (s_comp v)).
  Proof.
    intros HR Hc Hm Hs. pose proof (comp_msg_facts m Hm) as (_ & M2 & M3 & M4 & [[cts targets] ty] & M5).
    unfold merge_compact. rewrite M4. cbn zeta.
    destruct (s_comp v !! (m_fid m, cslot_of m)) as [x|] eqn:E.
    - destruct (N.ltb_spec (m_ts x) (m_ts m)) as [L|L].
      2:{ eexists _, _. split; [reflexivity|]. left. exists x. done. }
      rewrite M5.
      remember (compact_scan D sc (rows_of (s_rows db) (m_fid m)) cts targets ty) as l eqn:El.
      cbn [app delete_many]. destruct (Hc _ _ _ E) as (Hx1 & Hx2 & Hx3). rewrite (delete_comp_one v x Hx1).
      assert (cslot_of x = cslot_of m) as Ecs by (unfold cslot_of at 1; by rewrite Hx3).
      rewrite Hx2, Ecs.
      destruct (delete_many_spec l (del_comp v (m_fid m, cslot_of m)) W) as (v1 & E1 & HR1 & C1).
      { by apply R_comp. }
      { pose proof (scan_winners db v W (m_fid m) HR Hs) as [Hw1 Hw2]. split.
        - subst l. by apply compact_scan_nodup.
        - intros y Hy. apply Hw2. subst l. apply compact_scan_elem in Hy as (Hy & _); [done|apply rows_of_sorted|].
          intros t z Hz. apply rows_of_elem, Hs, (R_rows _ _ HR) in Hz as (Hz1 & _ & <-). split; [done|].
          apply (R_wf _ _ HR) in Hz1 as [Hz1 _]. apply HU, set_msg_facts in Hz1. tauto. }
      rewrite E1. unfold put_compact. rewrite M2, M4. cbn [negb].
      eexists _, _. split; [reflexivity|]. right. split; [by intros y [= <-]|].
      exists l. split; [done|]. split; [|split].
      + intros y. subst l. unfold covered. rewrite M5, andb_true_iff, N.leb_le.
        rewrite compact_scan_elem; [|apply rows_of_sorted|].
        * by rewrite (scan_elem db v W (m_fid m) y HR Hs).
        * intros t z Hz. apply rows_of_elem, Hs, (R_rows _ _ HR) in Hz as (Hz1 & _ & <-). split; [done|].
          apply (R_wf _ _ HR) in Hz1 as [Hz1 _]. apply HU, set_msg_facts in Hz1. tauto.
      + by apply R_comp.
      + cbn. rewrite C1. cbn. by rewrite insert_delete_insert.
    - rewrite M5.
      remember (compact_scan D sc (rows_of (s_rows db) (m_fid m)) cts targets ty) as l eqn:El.
      cbn [app].
      destruct (delete_many_spec l v W) as (v1 & E1 & HR1 & C1).
      { done. }
      { pose proof (scan_winners db v W (m_fid m) HR Hs) as [Hw1 Hw2]. split.
        - subst l. by apply compact_scan_nodup.
        - intros y Hy. apply Hw2. subst l. apply compact_scan_elem in Hy as (Hy & _); [done|apply rows_of_sorted|].
          intros t z Hz. apply rows_of_elem, Hs, (R_rows _ _ HR) in Hz as (Hz1 & _ & <-). split; [done|].
          apply (R_wf _ _ HR) in Hz1 as [Hz1 _]. apply HU, set_msg_facts in Hz1. tauto. }
      rewrite E1. unfold put_compact. rewrite M2, M4. cbn [negb].
      eexists _, _. split; [reflexivity|]. right. split; [done|].
      exists l. split; [done|]. split; [|split].
      + intros y. subst l. unfold covered. rewrite M5, andb_true_iff, N.leb_le.
        rewrite compact_scan_elem; [|apply rows_of_sorted|].
        * by rewrite (scan_elem db v W (m_fid m) y HR Hs).
        * intros t z Hz. apply rows_of_elem, Hs, (R_rows _ _ HR) in Hz as (Hz1 & _ & <-). split; [done|].
          apply (R_wf _ _ HR) in Hz1 as [Hz1 _]. apply HU, set_msg_facts in Hz1. tauto.
      + by apply R_comp.
      + cbn. by rewrite C1.
  Qed.

  (** ** One merge *)
  Lemma cmp_rank a b : U a -> U b -> cmp_msg a b = lex (rk a) (rk b).
  Proof. intros Ha Hb. apply (ok_cmp D rk HD); by apply HU. Qed.
  Lemma compact_check_empty v a m : s_comp v = ∅ -> U m -> compact_check D v a m = None.
  Proof.
    intros E Um. unfold compact_check. destruct (d_has_compact D) eqn:H; [|done].
    pose proof (ok_cslot D rk HD m H (HU m Um)) as Hs. destruct (d_comp_slot D m); [|done].
    by rewrite E, lookup_empty.
  Qed.
  (** A merge of a set message: refused without effect, or the slot is overwritten. *)
  Lemma merge_cases db v W m : R v W -> U m ->
    exists v' r, merge D db v (cx m) m = (v', r) /\
      ((exists e, r = inl e /\ v' = v) \/
       (exists l, r = inr (EvMerge m l) /\ R v' (<[wkey m := m]> W) /\ s_comp v' = s_comp v /\
          match W !! wkey m with
          | None => l = []
          | Some w => l = [w] /\ lex (rk w) (rk m) = Lt
          end)).
  Proof.
    intros HR Um. rewrite (merge_unfold db v m Um).
    destruct (compact_check D v (d_is_add D m) m) as [e|] eqn:Hc.
    - unfold merge_set. rewrite Hc. eexists _, _. split; [reflexivity|]. left. eauto.
    - destruct (merge_set_spec v W m HR Um Hc) as (v' & r & E & HR' & Ec & H).
      exists v', r. split; [done|]. unfold spec_merge in HR'.
      destruct (W !! wkey m) as [w|] eqn:Ew.
      + assert (Uw : U w) by (by apply (R_wf _ _ HR (m_fid m) (slot_of m))).
        destruct (cmp_msg w m) eqn:X.
        * left. exists EDuplicate. tauto.
        * right. exists [w]. rewrite <- (cmp_rank w m Uw Um). done.
        * left. eexists. split; [apply H|apply H].
      + right. eauto.
  Qed.
  (** Merging again what is stored. *)
  Lemma merge_again db v W m m' : R v W -> U m -> U m' -> s_rows v !! (m_fid m, tsh m) = Some m ->
    m_fid m' = m_fid m -> m_hash m' = m_hash m ->
    exists e, merge D db v (cx m') m' = (v, inl e) /\ (s_comp v = ∅ -> e = EDuplicate).
  Proof.
    intros HR Um Um' Hm E1 E2. apply (R_rows _ _ HR) in Hm as (Hm & _ & _).
    destruct (same_id m' m Um' Um E1 E2) as (T1 & T2 & T3).
    assert (Et : tsh m' = tsh m) by (unfold tsh; by rewrite T2, E2).
    destruct (same_slot m' m Um' Um E1 Et) as [Ek _].
    rewrite (merge_unfold db v m' Um'). unfold merge_set.
    destruct (compact_check D v (d_is_add D m') m') as [e|] eqn:Hc.
    - exists e. split; [done|]. intros E. by rewrite compact_check_empty in Hc.
    - rewrite (conflicts_spec v W m' HR Um'), Ek, Hm. unfold cmp_msg. rewrite Et, T1.
      assert (X : cmp_msg m m = Eq) by (rewrite cmp_rank by done; apply lex_refl).
      unfold cmp_msg in X. rewrite X. eauto.
  Qed.

  (** ** Histories of merges *)
  Lemma spec_max ms : (forall m, m ∈ ms -> U m) -> forall k,
    match foldl spec_merge ∅ ms !! k with
    | Some m => m ∈ ms /\ wkey m = k /\ forall m', m' ∈ ms -> wkey m' = k -> lex (rk m') (rk m) <> Gt
    | None => forall m', m' ∈ ms -> wkey m' <> k
    end.
  Proof.
    induction ms as [|m ms IH] using rev_ind; intros HUs k.
    - cbn. rewrite lookup_empty. set_solver.
    - rewrite foldl_app. cbn [foldl].
      assert (HUs' : forall m, m ∈ ms -> U m) by (intros x Hx; apply HUs, elem_of_app; by left).
      assert (Um : U m) by (apply HUs, elem_of_app; right; left).
      specialize (IH HUs'). remember (foldl spec_merge ∅ ms) as W eqn:EW.
      assert (Hin : forall x, x ∈ ms ++ [m] <-> x ∈ ms \/ x = m).
      { intros x. rewrite elem_of_app, elem_of_list_singleton. done. }
      unfold spec_merge. destruct (decide (wkey m = k)) as [E|N].
      + subst k. pose proof (IH (wkey m)) as IHk. destruct (W !! wkey m) as [w|] eqn:Ew.
        * destruct IHk as (I1 & I2 & I3). rewrite (cmp_rank w m (HUs' _ I1) Um).
          destruct (lex (rk w) (rk m)) eqn:X.
          -- rewrite Ew, Hin. repeat split; [by left|done|]. intros m'. rewrite Hin. intros [H| ->] Hk.
             ++ by apply I3.
             ++ apply lex_eq in X. rewrite X, lex_refl. done.
          -- rewrite lookup_insert, Hin. repeat split; [by right|]. intros m'. rewrite Hin. intros [H| ->] Hk.
             ++ pose proof (I3 m' H Hk) as Y. destruct (lex (rk m') (rk w)) eqn:Z; [| |done].
                ** apply lex_eq in Z. rewrite Z, X. done.
                ** rewrite (lex_trans_lt _ _ _ Z X). done.
             ++ by rewrite lex_refl.
          -- rewrite Ew, Hin. repeat split; [by left|done|]. intros m'. rewrite Hin. intros [H| ->] Hk.
             ++ by apply I3.
             ++ rewrite lex_antisym, X. done.
        * rewrite lookup_insert, Hin. repeat split; [by right|]. intros m'. rewrite Hin. intros [H| ->] Hk.
          -- by destruct (IHk m').
          -- by rewrite lex_refl.
      + assert (EW' : (match W !! wkey m with
          | Some w => match cmp_msg w m with Lt => <[wkey m := m]> W | _ => W end
          | None => <[wkey m := m]> W end) !! k = W !! k).
        { destruct (W !! wkey m) as [w|]; [destruct (cmp_msg w m)|]; try done; by rewrite lookup_insert_ne. }
        rewrite EW'. specialize (IH k). destruct (W !! k) as [w|].
        * destruct IH as (I1 & I2 & I3). rewrite Hin. repeat split; [by left|done|].
          intros m'. rewrite Hin. intros [H| ->] Hk; [by apply I3|congruence].
        * intros m'. rewrite Hin. intros [H| ->]; [by apply IH|done].
  Qed.
  Definition strong : Prop := forall a b, U a -> U b -> m_fid a = m_fid b -> m_hash a = m_hash b -> a = b.
  Lemma max_unique a b : strong -> U a -> U b -> wkey a = wkey b ->
    lex (rk a) (rk b) <> Gt -> lex (rk b) (rk a) <> Gt -> a = b.
  Proof.
    intros HS Ua Ub E H1 H2. apply HS; try done; [by unfold wkey in E; congruence|].
    apply (ok_rank D rk HD); [by apply HU..|]. apply lex_eq.
    rewrite lex_antisym in H2. by destruct (lex (rk a) (rk b)).
  Qed.
  Lemma spec_converge ms1 ms2 : strong -> (forall m, m ∈ ms1 -> U m) -> (forall m, m ∈ ms1 <-> m ∈ ms2) ->
    foldl spec_merge ∅ ms1 = foldl spec_merge ∅ ms2.
  Proof.
    intros HS H1 Heq. assert (H2 : forall m, m ∈ ms2 -> U m) by (intros m H; by apply H1, Heq).
    apply map_eq. intros k. pose proof (spec_max ms1 H1 k) as A. pose proof (spec_max ms2 H2 k) as B.
    destruct (foldl spec_merge ∅ ms1 !! k) as [a|], (foldl spec_merge ∅ ms2 !! k) as [b|]; [| | |done].
    - destruct A as (A1 & A2 & A3), B as (B1 & B2 & B3). f_equal. apply max_unique; try done; [by apply H1|by apply H2|congruence| |].
      + apply B3; [by apply Heq|done].
      + apply A3; [by apply Heq|done].
    - destruct A as (A1 & A2 & _). exfalso. apply (B a); [by apply Heq|done].
    - destruct B as (B1 & B2 & _). exfalso. apply (A b); [by apply Heq|done].
  Qed.

  Lemma srun_merges ops : forall db v W, forallb merge_op ops = true -> (forall m, m ∈ merged_msgs ops -> U m) ->
    R v W -> s_comp v = ∅ ->
    R (srun D cx (db, v) ops).2 (foldl spec_merge W (merged_msgs ops)) /\ s_comp (srun D cx (db, v) ops).2 = ∅.
  Proof.
    induction ops as [|o ops IH]; intros db v W Ho HUs HR Hc; [done|].
    cbn in Ho. apply andb_true_iff in Ho as [Ho1 Ho2]. unfold srun. cbn [foldl].
    destruct o; cbn in Ho1; try done.
    - cbn [sstep]. unfold merged_msgs in *. cbn [omap list_omap foldl].
      assert (Um : U m) by (apply HUs; left).
      rewrite (merge_unfold db v m Um).
      destruct (merge_set_spec v W m HR Um) as (v' & r & E & HR' & Ec & _).
      { by apply compact_check_empty. }
      rewrite E. cbn [fst]. apply IH; [done| |done|congruence].
      intros x Hx. apply HUs. by right.
    - cbn [sstep]. apply IH; try done.
  Qed.

  (** ** All histories *)
  Definition op_ok (st : smap * smap) (o : sop) : Prop :=
    let '(db, v) := st in
    match o with
    | OMerge m => U m \/ ignored D m = true \/ (comp_msg D m = true /\ scan_ok db v (m_fid m))
    | OPrune f _ _ | ORevoke f _ => scan_ok db v f
    | OCommit | ORollback => True
    end.
  Fixpoint run_ok (st : smap * smap) (ops : list sop) : Prop :=
    match ops with
    | [] => True
    | o :: r => op_ok st o /\ run_ok (sstep D cx st o) r
    end.
  Definition vinv (v : smap) : Prop := (exists W, R v W) /\ comp_ok v.
  Lemma merge_comp_unfold db v c m : comp_msg D m = true -> merge D db v c m = merge_compact D db v (c_scoped c) m.
  Proof.
    intros H. apply comp_msg_facts in H as (H1 & H2 & H3 & _). unfold merge. rewrite H2, H3.
    cbn [andb negb]. rewrite andb_false_r. unfold make_ts_hash. rewrite H1. done.
  Qed.
  Lemma merge_ignored db v c m : ignored D m = true -> merge D db v c m = (v, inl EInvalidType).
  Proof. unfold ignored, merge. by intros ->. Qed.
  Lemma sstep_inv db v o : vinv db -> vinv v -> op_ok (db, v) o ->
    vinv (sstep D cx (db, v) o).1 /\ vinv (sstep D cx (db, v) o).2.
  Proof.
    intros Hdb Hv Ho. destruct o as [m|f count mx|f key| |]; cbn [sstep fst snd]; try done.
    - split; [done|]. destruct Hv as [[W HR] Hc]. destruct Ho as [Um|[Hi|[Hm Hs]]].
      + destruct (merge_cases db v W m HR Um) as (v' & r & -> & [(e & _ & ->)|(l & _ & HR' & Ec & _)]); cbn [fst].
        * split; eauto.
        * split; [eauto|]. unfold comp_ok. by rewrite Ec.
      + rewrite merge_ignored by done. split; eauto.
      + rewrite merge_comp_unfold by done.
        destruct (merge_compact_spec db v W (c_scoped (cx m)) m HR Hc Hm Hs) as (v' & r & -> & [(x & _ & _ & -> & _)|(_ & l & _ & _ & HR' & Ec)]); cbn [fst].
        * split; eauto.
        * split; [eauto|]. unfold comp_ok. rewrite Ec. intros f s c. rewrite lookup_insert_Some.
          intros [[E <-]|[_ H]]; [|by apply Hc]. apply pair_equal_spec in E as [<- <-].
          split; [done|]. split; [done|]. by apply comp_msg_facts in Hm as (_ & _ & _ & H & _).
    - split; [done|]. destruct Hv as [[W HR] Hc]. unfold prune_messages. destruct (count <=? mx); [split; eauto|].
      destruct (prune_loop_spec (rows_of (s_rows db) f) v W count mx [] HR (scan_winners db v W f HR Ho))
        as (v' & -> & HR' & Ec). cbn [fst]. split; [eauto|]. unfold comp_ok. by rewrite Ec.
    - split; [done|]. destruct Hv as [[W HR] Hc]. unfold revoke_by_signer.
      destruct (revoke_loop_spec key (rows_of (s_rows db) f) v W [] HR (scan_winners db v W f HR Ho))
        as (v' & -> & HR' & Ec). cbn [fst]. split; [eauto|]. unfold comp_ok. by rewrite Ec.
  Qed.
  Lemma srun_inv ops : forall db v, vinv db -> vinv v -> run_ok (db, v) ops ->
    vinv (srun D cx (db, v) ops).1 /\ vinv (srun D cx (db, v) ops).2.
  Proof.
    induction ops as [|o ops IH]; intros db v Hdb Hv Hr; [done|].
    destruct Hr as [Ho Hr]. unfold srun. cbn [foldl].
    destruct (sstep_inv db v o Hdb Hv Ho) as [H1 H2].
    destruct (sstep D cx (db, v) o) as [db' v'] eqn:E. by apply IH.
  Qed.
  Lemma vinv_empty : vinv sempty.
  Proof. split; [exists ∅; apply R_empty|]. by intros f s c. Qed.

  (** ** Forced merges *)
  Lemma R_reput v W m : R v W -> W !! wkey m = Some m ->
    exists v', finish D v (c_follow (cx m)) (d_is_add D m) (tsh m) m [] = (v', inr (EvMerge m []))
      /\ R v' W /\ s_comp v' = s_comp v.
  Proof.
    intros HR Hm. destruct (R_wf _ _ HR _ _ _ Hm) as [Um _]. pose proof (HU _ Um) as Sm.
    pose proof (set_msg_facts _ Sm) as (_ & _ & _ & K & Sl & F).
    assert (Hr : s_rows v !! (m_fid m, tsh m) = Some m) by (by apply (R_rows _ _ HR)).
    unfold finish, put_add, put_remove, put_message. rewrite (ts_hash_ok m Sm), Sl.
    destruct (d_is_add D m) eqn:A.
    - rewrite (build_ok m Sm A). eexists. split; [reflexivity|]. split; [|done].
      assert (Ha : s_adds v !! wkey m = Some (tsh m)) by (apply (R_adds _ _ HR); eauto).
      destruct HR as [A1 A2 A3 A4 A5]. split; cbn; [done|..].
      + by rewrite insert_id.
      + unfold wkey in Ha. by rewrite insert_id.
      + done.
      + intros k x. change (s_idx (put_idx v (keys_of m)) !! k = Some x <->
          exists m0, W !! wkey m0 = Some m0 /\ d_is_add D m0 = true /\ (k, x) ∈ keys_of m0).
        rewrite lookup_put_idx by (by apply keys_fun). rewrite A5. split.
        * intros [H|[_ H]]; [by exists m|done].
        * intros (y & H1 & H2 & H3). destruct (decide (k ∈ (keys_of m).*1)) as [Hk|Hk]; [left|right; eauto].
          apply elem_of_list_fmap in Hk as ([k' x'] & -> & Hk). cbn in *.
          destruct (A1 (m_fid y) (slot_of y) y H1) as [Uy _].
          assert (E : wkey m = wkey y).
          { apply (sep m y k'); try done; [by apply (keys_unkeys m k' x')|].
            apply (keys_unkeys y k' x); [by apply HU|done]. }
          rewrite <- E in H1. assert (y = m) by congruence. by subst y.
    - destruct (rem_kind m Sm A) as [-> E]. cbn [negb]. eexists. split; [reflexivity|]. split; [|done].
      assert (Ha : s_rems v !! wkey m = Some (tsh m)) by (apply (R_rems _ _ HR); eauto).
      destruct HR as [A1 A2 A3 A4 A5]. split; cbn; try done.
      + by rewrite insert_id.
      + unfold wkey in Ha. by rewrite insert_id.
  Qed.
  Lemma existing_spec v W m : R v W -> U m ->
    get_existing_conflicts D v m = inr (option_list (W !! wkey m)).
  Proof.
    intros HR Um. pose proof (HU _ Um) as Sm.
    pose proof (set_msg_facts _ Sm) as (_ & _ & _ & K & Sl & F).
    unfold get_existing_conflicts. rewrite Sl. fold (wkey m). f_equal.
    destruct (W !! wkey m) as [w|] eqn:E.
    - destruct (R_wf _ _ HR _ _ _ E) as [Uw Kw]. pose proof (HU _ Uw) as Sw.
      assert (Er : s_rows v !! (m_fid m, tsh w) = Some w).
      { apply (R_rows _ _ HR). change (m_fid m, slot_of m) with (wkey m) in Kw. rewrite Kw.
        repeat split; [done|]. unfold wkey in Kw. congruence. }
      destruct (d_is_add D w) eqn:A.
      + assert (Ea : s_adds v !! wkey m = Some (tsh w)) by (apply (R_adds _ _ HR); eauto).
        assert (En : s_rems v !! wkey m = None).
        { destruct (s_rems v !! wkey m) eqn:X; [|done]. apply (R_rems _ _ HR) in X as (x & X1 & X2 & _).
          unfold wkey in *. congruence. }
        rewrite Ea, En. cbn. rewrite Er. by destruct (d_has_rem D).
      + assert (Ea : s_rems v !! wkey m = Some (tsh w)) by (apply (R_rems _ _ HR); eauto).
        assert (En : s_adds v !! wkey m = None).
        { destruct (s_adds v !! wkey m) eqn:X; [|done]. apply (R_adds _ _ HR) in X as (x & X1 & X2 & _).
          unfold wkey in *. congruence. }
        destruct (rem_kind w Sw A) as [-> _]. rewrite Ea, En. cbn. by rewrite Er.
    - assert (En : s_rems v !! wkey m = None).
      { destruct (s_rems v !! wkey m) eqn:X; [|done]. apply (R_rems _ _ HR) in X as (x & X1 & X2 & _).
        unfold wkey in *. congruence. }
      assert (En' : s_adds v !! wkey m = None).
      { destruct (s_adds v !! wkey m) eqn:X; [|done]. apply (R_adds _ _ HR) in X as (x & X1 & X2 & _).
        unfold wkey in *. congruence. }
      rewrite En, En'. cbn. by destruct (d_has_rem D).
  Qed.
  Lemma force_spec v W m : strong -> d_has_compact D = false -> R v W -> U m ->
    exists v' l, merge_force_override D v (cx m) m = (v', inr (EvMerge m l))
      /\ R v' (<[wkey m := m]> W) /\ s_comp v' = s_comp v.
  Proof.
    intros HS Hn HR Um. pose proof (HU _ Um) as Sm.
    unfold merge_force_override. rewrite Hn, (ts_hash_ok m Sm), (existing_spec v W m HR Um).
    assert (Hk : negb (d_is_add D m) && negb (d_has_rem D && d_is_rem D m) = false).
    { destruct (d_is_add D m) eqn:A; [done|]. destruct (rem_kind m Sm A) as [-> ->]. done. }
    rewrite Hk. destruct (W !! wkey m) as [w|] eqn:Ew;
      [change (option_list (Some w)) with [w]|change (option_list (@None msg)) with (@nil msg)]; cbn [List.filter].
    - destruct (R_wf _ _ HR _ _ _ Ew) as [Uw Kw]. change (m_fid m, slot_of m) with (wkey m) in Kw.
      destruct (bool_decide_reflect (m_hash w = m_hash m)) as [E|N]; cbn [negb delete_many].
      + assert (w = m) as -> by (apply HS; try done; unfold wkey in Kw; congruence).
        destruct (R_reput v W m HR Ew) as (v' & -> & HR' & Ec). exists v', []. rewrite insert_id by done. done.
      + rewrite <- Kw in Ew. destruct (delete_one_spec v W w HR Ew) as (v1 & -> & HR1 & Ec1).
        destruct (finish_spec v1 (delete (wkey w) W) m [w] HR1 Um) as (v2 & E2 & HR2 & Ec2).
        { rewrite Kw. apply lookup_delete. }
        rewrite E2. eexists _, _. split; [reflexivity|]. rewrite Kw, insert_delete_insert in HR2. split; [done|congruence].
    - cbn [delete_many]. destruct (finish_spec v W m [] HR Um Ew) as (v2 & -> & HR2 & Ec2).
      eexists _, _. done.
  Qed.
End Refine.
