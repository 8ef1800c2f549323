(** Proofs about the event stream (EventLog.v). *)
From Coq Require Import ZifyN ZifyNat ZifyBool.
From Verif Require Import Store StoreSpec StoreProofs StoreTop EventLog.
#[local] Open Scope N_scope.

Section Log.
  Variable D : sdef.
  Variable rk : msg -> list N.
  Hypothesis HD : def_ok D rk.
  Variable U : msg -> Prop.
  Hypothesis HU : forall m, U m -> set_msg D m = true.
  Hypothesis HS : strong U.
  Variable UC : msg -> Prop.
  Hypothesis HUC : forall c, UC c -> comp_msg D c = true.

  (** Rows and compact states are stored under their own address; pointers name submitted messages of their kind. *)
  Record J (v : smap) : Prop := {
    J_rows : forall k m, s_rows v !! k = Some m -> U m /\ k = (m_fid m, tsh m);
    J_adds : forall f s t, s_adds v !! (f, s) = Some t -> exists a, U a /\ d_is_add D a = true /\ m_fid a = f /\ tsh a = t;
    J_rems : forall f s t, s_rems v !! (f, s) = Some t -> exists a, U a /\ d_is_add D a = false /\ m_fid a = f /\ tsh a = t;
    J_comp : forall k c, s_comp v !! k = Some c -> UC c /\ k = (m_fid c, cslot_of D c) }.

  Lemma key_inj a b : U a -> U b -> (m_fid a, tsh a) = (m_fid b, tsh b) -> a = b.
  Proof using HU HS.
    intros Ha Hb E. apply pair_equal_spec in E as [E1 E2].
    apply (tsh_inj D a b (HU a Ha) (HU b Hb)) in E2 as [_ E2]. by apply HS.
  Qed.
  Lemma kinds x c : U x -> UC c -> x <> c.
  Proof using HD HU HUC.
    intros Ux Hc ->. apply HUC in Hc. pose proof (not_comp D rk HD c (HU c Ux)) as N. apply comp_msg_facts in Hc as (_ & _ & Hc & _). congruence.
  Qed.

  Lemma delete_rows v x : J v -> U x -> exists v', delete_one D v x = (v', inr tt) /\ J v' /\
    (forall y, stored v' y <-> stored v y /\ y <> x) /\ s_comp v' = s_comp v.
  Proof using HD HU HS HUC.
    intros HJ Ux. pose proof (HU x Ux) as Sx. pose proof (set_msg_facts D x Sx) as (_ & _ & _ & K & Sl & F).
    assert (St : forall v', s_rows v' = delete (m_fid x, tsh x) (s_rows v) -> s_comp v' = s_comp v ->
      forall y, stored v' y <-> stored v y /\ y <> x).
    { intros v' E1 E2 y. unfold stored. rewrite E1, E2. split.
      - intros [[k H]|[k H]].
        + apply lookup_delete_Some in H as [Nk H]. split; [left; eauto|].
          intros ->. apply (J_rows v HJ) in H as [_ ->]. done.
        + split; [right; eauto|]. apply (J_comp v HJ) in H as [H _]. intros ->. by apply (kinds x x).
      - intros [[[k H]|[k H]] N]; [left|right; eauto]. exists k. apply lookup_delete_Some. split; [|done].
        apply (J_rows v HJ) in H as [Uy ->]. intros E. apply N. symmetry. by apply key_inj. }
    unfold delete_one. rewrite (not_comp D rk HD x Sx). unfold delete_add, delete_remove, delete_message.
    destruct (d_is_add D x) eqn:A.
    - rewrite (ts_hash_ok D x Sx), (F eq_refl), Sl, (is_rem_false D rk HD x A).
      eexists. split; [reflexivity|]. split; [|split; [by apply St|done]]. split; cbn.
      + intros k y H. apply lookup_delete_Some in H as [_ H]. by apply (J_rows v HJ).
      + intros f s t H. apply lookup_delete_Some in H as [_ H]. by apply (J_adds v HJ) in H.
      + apply (J_rems v HJ).
      + apply (J_comp v HJ).
    - destruct (rem_kind D x Sx A) as [E1 E2]. rewrite E1, E2. cbn. rewrite Sl, (ts_hash_ok D x Sx).
      eexists. split; [reflexivity|]. split; [|split; [by apply St|done]]. split; cbn.
      + intros k y H. apply lookup_delete_Some in H as [_ H]. by apply (J_rows v HJ).
      + apply (J_adds v HJ).
      + intros f s t H. apply lookup_delete_Some in H as [_ H]. by apply (J_rems v HJ) in H.
      + apply (J_comp v HJ).
  Qed.
  Lemma delete_rows_many l : forall v, J v -> (forall x, x ∈ l -> U x) -> exists v', delete_many D v l = (v', inr tt) /\ J v' /\
    (forall y, stored v' y <-> stored v y /\ y ∉ l) /\ s_comp v' = s_comp v.
  Proof using HD HU HS HUC.
    induction l as [|x l IH]; intros v HJ Hl.
    - exists v. split; [done|]. split; [done|]. split; [|done]. intros y. set_solver.
    - destruct (delete_rows v x HJ) as (v1 & E1 & J1 & S1 & C1); [apply Hl; left|].
      destruct (IH v1 J1) as (v2 & E2 & J2 & S2 & C2); [intros y Hy; apply Hl; by right|].
      exists v2. cbn. rewrite E1, E2. split; [done|]. split; [done|]. split; [|congruence].
      intros y. rewrite S2, S1, not_elem_of_cons. tauto.
  Qed.

  (** ** Storing *)
  Lemma finish_log v g m l : J v -> U m -> exists v', finish D v g (d_is_add D m) (tsh m) m l = (v', inr (EvMerge m l)) /\ J v' /\
    (forall y, stored v' y <-> y = m \/ stored v y).
  Proof using HD HU HS HUC.
    intros HJ Um. pose proof (HU m Um) as Sm. pose proof (set_msg_facts D m Sm) as (_ & _ & _ & K & Sl & F).
    assert (St : forall v', s_rows v' = <[(m_fid m, tsh m) := m]> (s_rows v) -> s_comp v' = s_comp v ->
      forall y, stored v' y <-> y = m \/ stored v y).
    { intros v' E1 E2 y. unfold stored. rewrite E1, E2. split.
      - intros [[k H]|H]; [|right; by right]. apply lookup_insert_Some in H as [[_ H]|[_ H]]; [by left|]. right. left. eauto.
      - intros [->|[[k H]|H]].
        + left. exists (m_fid m, tsh m). apply lookup_insert.
        + left. destruct (decide (y = m)) as [->|N]; [exists (m_fid m, tsh m); apply lookup_insert|].
          exists k. rewrite lookup_insert_ne; [done|]. intros E. apply (J_rows v HJ) in H as [Uy ->]. apply N.
          symmetry. by apply key_inj.
        + by right. }
    unfold finish, put_add, put_remove, put_message. rewrite (ts_hash_ok D m Sm).
    destruct (d_is_add D m) eqn:A.
    - rewrite Sl. pose proof (ok_unbuild D rk HD g m) as B. rewrite (F eq_refl) in B. specialize (B eq_refl).
      destruct (d_build D g m) as [lb|] eqn:Eb; [|done].
      eexists. split; [reflexivity|]. split; [|by apply St]. split; cbn.
      + intros k y H. apply lookup_insert_Some in H as [[<- <-]|[_ H]]; [done|]. by apply (J_rows v HJ).
      + intros f s t H. apply lookup_insert_Some in H as [[E <-]|[_ H]]; [|by apply (J_adds v HJ) in H].
        apply pair_equal_spec in E as [<- <-]. by exists m.
      + apply (J_rems v HJ).
      + apply (J_comp v HJ).
    - destruct (rem_kind D m Sm A) as [E1 E2]. rewrite E1. cbn [negb]. rewrite Sl.
      eexists. split; [reflexivity|]. split; [|by apply St]. split; cbn.
      + intros k y H. apply lookup_insert_Some in H as [[<- <-]|[_ H]]; [done|]. by apply (J_rows v HJ).
      + apply (J_adds v HJ).
      + intros f s t H. apply lookup_insert_Some in H as [[E <-]|[_ H]]; [|by apply (J_rems v HJ) in H].
        apply pair_equal_spec in E as [<- <-]. by exists m.
      + apply (J_comp v HJ).
  Qed.

  (** A conflicting message is another one. *)
  Lemma conflict_at_log v ptr ty e m l : J v -> U m ->
    (forall t, ptr = Some t -> exists a, U a /\ m_type a = ty /\ m_fid a = m_fid m /\ tsh a = t) ->
    conflict_at D v ptr ty e m (tsh m) = inr l -> forall x, x ∈ l -> U x /\ x <> m.
  Proof using HD HU HS HUC.
    intros HJ Um Hp E x Hx. unfold conflict_at in E. destruct ptr as [t|]; [|injection E as <-; by apply elem_of_nil in Hx].
    destruct (Hp t eq_refl) as (a & Ua & Ty & Fa & Ta).
    destruct (d_cmp D ty t (m_type m) (tsh m)) eqn:X; try done. injection E as <-.
    destruct (s_rows v !! (m_fid m, t)) as [y|] eqn:Ey; [|by apply elem_of_nil in Hx].
    apply elem_of_list_singleton in Hx as ->. destruct (J_rows v HJ _ _ Ey) as [Uy Ky]. split; [done|].
    assert (y = a) as ->. { apply key_inj; try done. rewrite <- Ky. congruence. }
    intros ->. rewrite <- Ty, <- Ta in X. rewrite (ok_cmp D rk HD m m (HU m Um) (HU m Um)), lex_refl in X. done.
  Qed.
  Lemma conflicts_log v m l : J v -> U m -> get_merge_conflicts D v m (tsh m) = inr l -> forall x, x ∈ l -> U x /\ x <> m.
  Proof using HD HU HS HUC.
    intros HJ Um E x Hx. unfold get_merge_conflicts in E. destruct (d_slot D m) as [s|]; [|done].
    assert (Ha : forall t, s_adds v !! (m_fid m, s) = Some t -> exists a, U a /\ m_type a = d_add_type D /\ m_fid a = m_fid m /\ tsh a = t).
    { intros t H. apply (J_adds v HJ) in H as (a & Ua & Aa & Fa & Ta). exists a. split; [done|].
      split; [by apply (ok_add D rk HD)|done]. }
    assert (Hr : forall t, s_rems v !! (m_fid m, s) = Some t -> exists a, U a /\ m_type a = d_rem_type D /\ m_fid a = m_fid m /\ tsh a = t).
    { intros t H. apply (J_rems v HJ) in H as (a & Ua & Aa & Fa & Ta). exists a. split; [done|]. split; [|done].
      rewrite (type_of D rk HD a (HU a Ua)), Aa. done. }
    destruct (if d_has_rem D then conflict_at D v (s_rems v !! (m_fid m, s)) (d_rem_type D) EConflictRemove m (tsh m) else inr [])
      as [e|c1] eqn:E1; [done|].
    destruct (conflict_at D v (s_adds v !! (m_fid m, s)) (d_add_type D) EConflictAdd m (tsh m)) as [e|c2] eqn:E2; [done|].
    injection E as <-. apply elem_of_app in Hx as [Hx|Hx].
    - destruct (d_has_rem D); [|injection E1 as <-; by apply elem_of_nil in Hx].
      exact (conflict_at_log v _ _ _ m c1 HJ Um Hr E1 x Hx).
    - exact (conflict_at_log v _ _ _ m c2 HJ Um Ha E2 x Hx).
  Qed.
  Definition evs_of (r : serr + sevent) : list sevent := match r with inr ev => [ev] | inl _ => [] end.
  (** The store changes as a consumer of the events would. *)
  Definition ev_in (P : msg -> Prop) (ev : sevent) : Prop :=
    match ev with EvMerge m del => P m /\ Forall P del | EvPrune m | EvRevoke m => P m end.
  Definition agrees (v v' : smap) (evs : list sevent) : Prop :=
    (forall y, stored v' y <-> foldl consume (stored v) evs y) /\ Forall (ev_in (fun m => U m \/ UC m)) evs.
  Lemma agrees_nil v : agrees v v [].
  Proof. done. Qed.
  Lemma merge_set_log v g m : J v -> U m -> exists v' r, merge_set D v g (d_is_add D m) (tsh m) m = (v', r) /\ J v' /\ agrees v v' (evs_of r).
  Proof using HD HU HS HUC.
    intros HJ Um. unfold merge_set. destruct (compact_check D v (d_is_add D m) m) as [e|].
    { eexists _, _. split; [reflexivity|]. split; [done|apply agrees_nil]. }
    destruct (get_merge_conflicts D v m (tsh m)) as [e|l] eqn:El.
    { eexists _, _. split; [reflexivity|]. split; [done|apply agrees_nil]. }
    pose proof (conflicts_log v m l HJ Um El) as Hl.
    destruct (delete_rows_many l v HJ) as (v1 & -> & J1 & S1 & _); [intros x Hx; by apply Hl|].
    destruct (finish_log v1 g m l J1 Um) as (v2 & -> & J2 & S2).
    eexists _, _. split; [reflexivity|]. split; [done|]. split.
    2:{ apply Forall_singleton. split; [by left|]. apply Forall_forall. intros x Hx. left. by apply Hl. }
    intros y. cbn. rewrite S2, S1. split.
    - intros [->|[H N]]; [|by split; [right|]]. split; [by left|]. intros H. by apply (Hl m).
    - intros [[->|H] N]; [by left|by right].
  Qed.
  Lemma scan_U db f x : J db -> x ∈ (rows_of (s_rows db) f).*2 -> U x.
  Proof. intros HJ Hx. apply elem_of_list_fmap in Hx as ([t y] & -> & H). apply rows_of_elem in H. by apply (J_rows db HJ) in H as [H _]. Qed.
  Lemma compact_scan_sub sc l cts targets ty x : x ∈ compact_scan D sc l cts targets ty -> x ∈ l.*2.
  Proof.
    induction l as [|[t y] l IH]; cbn; [done|]. rewrite elem_of_cons.
    destruct (cts <? m_ts y); [by intros H%elem_of_nil|]. destruct (is_compaction_conflict D sc y targets ty); [|by right; apply IH].
    rewrite elem_of_cons. intros [->|H]; [by left|right; by apply IH].
  Qed.
  Lemma merge_compact_log db v sc m : J db -> J v -> UC m ->
    exists v' r, merge_compact D db v sc m = (v', r) /\ J v' /\ agrees v v' (evs_of r).
  Proof using HD HU HS HUC.
    intros HJd HJ Hm. pose proof (comp_msg_facts D m (HUC m Hm)) as (_ & M2 & M3 & M4 & [[cts targets] ty] & M5).
    unfold merge_compact. rewrite M4, M5. cbn zeta.
    remember (compact_scan D sc (rows_of (s_rows db) (m_fid m)) cts targets ty) as l eqn:El.
    assert (Hl : forall x, x ∈ l -> U x).
    { intros x Hx. subst l. apply compact_scan_sub in Hx. by apply scan_U in Hx. }
    assert (Fin : forall v0 c1, J v0 -> s_comp v0 !! (m_fid m, cslot_of D m) = None -> m ∉ c1 -> (forall x, x ∈ c1 -> UC x) ->
      (forall y, stored v0 y <-> stored v y /\ y ∉ c1) ->
      exists v' r, match delete_many D v0 l with
                   | (v1, inl e) => (v1, inl e)
                   | (v1, inr _) => match put_compact D v1 m with
                                    | (v2, inl e) => (v2, inl e)
                                    | (v2, inr _) => (v2, inr (EvMerge m (c1 ++ l)))
                                    end
                   end = (v', r) /\ J v' /\ agrees v v' (evs_of r)).
    { intros v0 c1 J0 N0 Nm Hc1 S0. destruct (delete_rows_many l v0 J0 Hl) as (v1 & -> & J1 & S1 & C1).
      unfold put_compact. rewrite M2, M4. cbn [negb]. eexists _, _. split; [reflexivity|]. split.
      - split; cbn; try apply J1. intros k c H. apply lookup_insert_Some in H as [[<- <-]|[_ H]]; [done|by apply (J_comp v1 J1)].
      - split.
        2:{ apply Forall_singleton. split; [by right|]. apply Forall_forall. intros x [Hx|Hx]%elem_of_app; [right; by apply Hc1|left; by apply Hl]. }
        intros y. cbn [evs_of foldl consume]. rewrite not_elem_of_app.
        assert (stored (put_comp v1 (m_fid m, cslot_of D m) m) y <-> y = m \/ stored v1 y) as ->.
        { unfold stored. cbn. split.
          - intros [H|[k H]]; [right; by left|]. apply lookup_insert_Some in H as [[_ <-]|[_ H]]; [by left|right; right; eauto].
          - intros [->|[H|[k H]]]; [right; eexists; apply lookup_insert|by left|]. right. exists k.
            rewrite lookup_insert_ne; [done|]. intros <-. rewrite C1, N0 in H. done. }
        rewrite S1, S0. split.
        + intros [->|[[H N1] N2]]; [|tauto]. split; [by left|]. split; [done|]. intros H. by apply (kinds m m (Hl m H) Hm).
        + tauto. }
    destruct (s_comp v !! (m_fid m, cslot_of D m)) as [x|] eqn:E.
    - destruct (N.ltb_spec (m_ts x) (m_ts m)) as [L|L].
      2:{ eexists _, _. split; [reflexivity|]. split; [done|apply agrees_nil]. }
      cbn [app delete_many]. destruct (J_comp v HJ _ _ E) as [Hx Kx]. rewrite (delete_comp_one D rk HD v x (HUC x Hx)).
      rewrite <- Kx. apply (Fin (del_comp v (m_fid m, cslot_of D m)) [x]).
      + split; cbn; try apply HJ. intros k c H. apply lookup_delete_Some in H as [_ H]. by apply (J_comp v HJ).
      + cbn. apply lookup_delete.
      + intros H%elem_of_list_singleton. subst x. lia.
      + by intros y ->%elem_of_list_singleton.
      + intros y. unfold stored. cbn. rewrite elem_of_list_singleton. split.
        * intros [[k H]|[k H]].
          { split; [left; eauto|]. intros ->. apply (J_rows v HJ) in H as [H _]. by apply (kinds x x). }
          apply lookup_delete_Some in H as [N H]. split; [right; eauto|]. intros ->.
          apply (J_comp v HJ) in H as [_ ->]. congruence.
        * intros [[H|[k H]] N]; [by left|]. right. exists k. apply lookup_delete_Some. split; [|done].
          intros <-. congruence.
    - apply (Fin v []); try done.
      + by intros H%elem_of_nil.
      + by intros y H%elem_of_nil.
      + intros y. split; [|by intros [H _]]. intros H. split; [done|]. by intros H'%elem_of_nil.
  Qed.
  Lemma merge_log db v m c : J db -> J v -> U m \/ ignored D m = true \/ UC m ->
    exists v' r, Store.merge D db v c m = (v', r) /\ J v' /\ agrees v v' (evs_of r).
  Proof using HD HU HS HUC.
    intros HJd HJ [Um|[Hi|Hm]].
    - pose proof (HU m Um) as Sm. unfold Store.merge. rewrite (ts_hash_ok D m Sm), (not_comp D rk HD m Sm).
      destruct (merge_set_log v (c_follow c) m HJ Um) as (v' & r & E & H).
      exists v', r. split; [|done]. destruct (d_is_add D m) eqn:A; [done|].
      destruct (rem_kind D m Sm A) as [-> ->]. done.
    - rewrite merge_ignored by done. eexists _, _. split; [reflexivity|]. split; [done|apply agrees_nil].
    - rewrite merge_comp_unfold by (by apply HUC). by apply merge_compact_log.
  Qed.

  (** ** Prunes and revocations *)
  Lemma consume_ext S S' evs : (forall y : msg, S y <-> S' y) -> forall y, foldl consume S evs y <-> foldl consume S' evs y.
  Proof.
    revert S S'. induction evs as [|ev evs IH]; intros S S' H y; [apply H|]. cbn [foldl]. apply IH.
    intros z. destruct ev; cbn; rewrite H; done.
  Qed.
  Lemma agrees_app v v1 v2 e1 e2 : agrees v v1 e1 -> agrees v1 v2 e2 -> agrees v v2 (e1 ++ e2).
  Proof.
    intros [H1 F1] [H2 F2]. split; [|by apply Forall_app]. intros y. rewrite foldl_app. rewrite <- (consume_ext _ _ e2 H1 y). apply H2.
  Qed.
  Lemma prune_log l : forall v count mx evs v0, J v -> (forall x, x ∈ l.*2 -> U x) -> agrees v0 v evs ->
    exists v' evs', prune_loop D v l count mx evs = (v', inr evs') /\ J v' /\ agrees v0 v' evs'.
  Proof using HD HU HS HUC.
    induction l as [|[t m] l IH]; intros v count mx evs v0 HJ Hl Ha; cbn [prune_loop]; [eauto|].
    destruct (count <=? mx); [eauto|]. cbn in Hl.
    assert (Um : U m) by (apply Hl; left). rewrite (prune_is_delete D rk HD v m (HU m Um)).
    destruct (delete_rows v m HJ Um) as (v1 & -> & J1 & S1 & _).
    apply IH; [done|intros x Hx; apply Hl; by right|]. apply (agrees_app v0 v v1); [done|]. split; [intros y; by rewrite S1|].
    apply Forall_singleton. by left.
  Qed.
  Lemma revoke_log key l : forall v evs v0, J v -> (forall x, x ∈ l.*2 -> U x) -> agrees v0 v evs ->
    exists v' evs', revoke_loop D v l key evs = (v', evs') /\ J v' /\ agrees v0 v' evs'.
  Proof using HD HU HS HUC.
    induction l as [|[t m] l IH]; intros v evs v0 HJ Hl Ha; cbn [revoke_loop]; [eauto|]. cbn in Hl.
    assert (Um : U m) by (apply Hl; left).
    destruct (bool_decide (m_signer m = key)); [|apply IH; [done|intros x Hx; apply Hl; by right|done]].
    rewrite (revoke_is_delete D rk HD v m (HU m Um)).
    destruct (delete_rows v m HJ Um) as (v1 & -> & J1 & S1 & _).
    apply IH; [done|intros x Hx; apply Hl; by right|]. apply (agrees_app v0 v v1); [done|]. split; [intros y; by rewrite S1|].
    apply Forall_singleton. by left.
  Qed.

  (** ** Histories *)
  Variable cx : msg -> mctx.
  Lemma sstep_log db v o : J db -> J v ->
    (forall m, o = OMerge m -> U m \/ ignored D m = true \/ UC m) ->
    match o with OCommit | ORollback => True | _ =>
      let st := sstep D cx (db, v) o in st.1 = db /\ J st.2 /\ agrees v st.2 (op_events D cx (db, v) o) end.
  Proof using HD HU HS HUC.
    intros HJd HJ Ho. destruct o as [m|f count mx|f key| |]; cbn [sstep op_events fst snd]; try done; (split; [done|]).
    - destruct (merge_log db v m (cx m) HJd HJ (Ho m eq_refl)) as (v' & r & -> & J1 & A1). cbn [fst snd]. split; [done|].
      by destruct r.
    - unfold prune_messages. destruct (count <=? mx); [split; [done|apply agrees_nil]|].
      destruct (prune_log (rows_of (s_rows db) f) v count mx [] v HJ (fun x => scan_U db f x HJd) (agrees_nil v)) as (v' & evs' & -> & H).
      done.
    - unfold revoke_by_signer.
      destruct (revoke_log key (rows_of (s_rows db) f) v [] v HJ (fun x => scan_U db f x HJd) (agrees_nil v)) as (v' & evs' & -> & H).
      done.
  Qed.
  Definition linv (s : lst) : Prop := J (l_st s).1 /\ J (l_st s).2 /\
    (forall y, stored (l_st s).1 y <-> replayed (l_done s) y) /\
    (forall y, stored (l_st s).2 y <-> replayed (l_done s ++ l_open s) y) /\
    Forall (ev_in (fun m => U m \/ UC m)) (l_done s ++ l_open s).
  Lemma lstep_inv s o : linv s -> (forall m, o = OMerge m -> U m \/ ignored D m = true \/ UC m) -> linv (lstep D cx s o).
  Proof using HD HU HS HUC.
    intros (H1 & H2 & H3 & H4 & H5) Ho. destruct s as [[db v] dn op]. cbn [l_st l_done l_open fst snd] in *.
    assert (G : forall st' evs, st'.1 = db -> J st'.2 -> agrees v st'.2 evs -> linv (LSt st' dn (op ++ evs))).
    { intros [db' v'] evs E J1 A1. cbn in *. subst db'. split; [done|]. split; [done|]. split; [done|].
      split; [|cbn [l_done l_open]; rewrite app_assoc; apply Forall_app; split; [done|apply A1]].
      intros y. cbn. unfold replayed. rewrite (app_assoc dn op evs), (foldl_app _ (dn ++ op) evs). rewrite <- (consume_ext _ _ evs H4 y). apply A1. }
    pose proof (sstep_log db v o H1 H2 Ho) as St. unfold lstep. cbn [l_st l_done l_open].
    destruct o as [m|f c mx|f key| |].
    - destruct St as (E & J1 & A1). by apply G.
    - destruct St as (E & J1 & A1). by apply G.
    - destruct St as (E & J1 & A1). by apply G.
    - split; [done|]. split; [done|]. cbn. split; [done|]. rewrite app_nil_r. by split.
    - split; [done|]. split; [done|]. cbn. split; [done|]. rewrite app_nil_r. split; [done|]. by apply Forall_app in H5 as [H5 _].
  Qed.
  Lemma J_empty : J sempty.
  Proof. split; intros *; cbn; rewrite lookup_empty; done. Qed.
  Lemma lrun_inv ops : (forall m, m ∈ merged_msgs ops -> U m \/ ignored D m = true \/ UC m) -> linv (lrun D cx ops).
  Proof using HD HU HS HUC.
    intros Ho. unfold lrun.
    assert (G : forall s, linv s -> linv (foldl (lstep D cx) s ops)).
    { induction ops as [|o ops IH]; intros s Hs; [done|]. cbn. apply IH.
      - intros m Hm. apply Ho. unfold merged_msgs in *. cbn. destruct o; try done. by right.
      - apply lstep_inv; [done|]. intros m ->. apply Ho. left. }
    apply G. split; [apply J_empty|]. split; [apply J_empty|].
    assert (N : forall y, stored sempty y <-> False).
    { intros y. split; [|done]. by intros [[k H]|[k H]]; cbn in H; rewrite lookup_empty in H. }
    split; [intros y; cbn; rewrite N; done|]. split; [intros y; cbn; rewrite N; done|]. constructor.
  Qed.
End Log.

Lemma lrun_st D cx ops : l_st (lrun D cx ops) = srun D cx start ops.
Proof.
  unfold lrun, srun. change start with (l_st (LSt start [] [])) at 2. generalize (LSt start [] []) as s.
  induction ops as [|o ops IH]; intros s; [done|]. cbn [foldl]. rewrite IH. f_equal. unfold lstep. by destruct o.
Qed.
