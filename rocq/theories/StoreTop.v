(** From the generic refinement to the stores of Store.v. *)
From Coq Require Import ZifyN ZifyNat ZifyBool.
From Verif Require Import Store StoreSpec StoreProofs StoreDefs.
#[local] Open Scope N_scope.

Lemma a_store_ok D rk : a_store D rk -> def_ok D rk.
Proof.
  intros [| |chan H| | |]; [apply cast_def_ok|apply link_def_ok|by apply reaction_def_ok|apply user_data_def_ok
    |apply verif_def_ok|apply lend_def_ok].
Qed.
Definition US (D : sdef) (ms : list msg) (m : msg) : Prop := m ∈ ms /\ set_msg D m = true.
Lemma US_set D ms m : US D ms m -> set_msg D m = true.
Proof. by intros [_ H]. Qed.
Lemma pairwise_elem r ms a b : pairwise r ms = true -> a ∈ ms -> b ∈ ms -> r a b = true.
Proof.
  unfold pairwise. rewrite forallb_forall. intros H Ha Hb.
  apply elem_of_list_In in Ha, Hb. specialize (H a Ha). rewrite forallb_forall in H. by apply H.
Qed.
Lemma pairwise_sub r ms ms' : ms' ⊆ ms -> pairwise r ms = true -> pairwise r ms' = true.
Proof.
  intros Hs H. unfold pairwise. apply forallb_forall. intros a Ha. apply forallb_forall. intros b Hb.
  apply elem_of_list_In in Ha, Hb. apply (pairwise_elem r ms); auto.
Qed.
Lemma identified_coherent ms : pairwise identified ms = true -> pairwise coherent ms = true.
Proof.
  unfold pairwise. rewrite !forallb_forall. intros H a Ha. specialize (H a Ha). rewrite forallb_forall in *.
  intros b Hb. specialize (H b Hb). unfold identified in H. unfold coherent.
  destruct ((m_fid a =? m_fid b) && bool_decide (m_hash a = m_hash b)); [|done]. cbn in *.
  apply bool_decide_eq_true in H as ->. rewrite !N.eqb_refl, bool_decide_true; done.
Qed.
Lemma US_coherent D ms a b : pairwise coherent ms = true -> US D ms a -> US D ms b -> coherent a b = true.
Proof. intros H [Ha _] [Hb _]. by apply (pairwise_elem coherent ms). Qed.
Lemma US_strong D ms : pairwise identified ms = true -> strong (US D ms).
Proof.
  intros H a b [Ha _] [Hb _] E1 E2. pose proof (pairwise_elem identified ms a b H Ha Hb) as X.
  unfold identified in X. rewrite E1, E2, N.eqb_refl, bool_decide_true in X by done. by apply bool_decide_eq_true in X.
Qed.

(** ** Slots and subjects *)
Lemma filter_pad8 t : forallb (fun b => 0 <? b) t = true -> (length t <= 8)%nat ->
  List.filter (fun b => 0 <? b) (pad8 t) = t.
Proof.
  intros H L. unfold pad8. rewrite take_app_ge by done. rewrite List.filter_app.
  assert (E1 : List.filter (fun b => 0 <? b) t = t).
  { clear L. induction t as [|b t IH]; [done|]. cbn in *. apply andb_true_iff in H as [H1 H2]. rewrite H1. by f_equal; apply IH. }
  assert (E2 : forall n, List.filter (fun b => 0 <? b) (take n (repeat 0 8)) = []).
  { intros n. do 9 (destruct n as [|n]; [done|]). done. }
  by rewrite E1, E2, app_nil_r.
Qed.
Lemma pad8_length t : length (pad8 t) = 8%nat.
Proof. unfold pad8. rewrite take_length, app_length, repeat_length. lia. Qed.
Lemma pad8_inj t t' : forallb (fun b => 0 <? b) t = true -> forallb (fun b => 0 <? b) t' = true ->
  (length t <= 8)%nat -> (length t' <= 8)%nat -> pad8 t = pad8 t' -> t = t'.
Proof. intros H1 H2 L1 L2 E. rewrite <- (filter_pad8 t), <- (filter_pad8 t') by done. by rewrite E. Qed.

Lemma link_slot_facts m s : link_slot m = Some s -> exists ty t, m_body m = BLink ty t /\ (length ty <= 8)%nat /\
  s = pad8 ty ++ match t with Some f => make_fid_key f | None => [] end.
Proof.
  unfold link_slot. destruct (m_body m) as [| | |ty t| | | | | |]; try done.
  destruct (_ && _); [done|]. destruct (Nat.ltb_spec 8 (length ty)); [done|]. intros [= <-]. eauto 6.
Qed.
Lemma reaction_slot_facts m s : reaction_slot m = Some s -> exists ty t, m_body m = BReaction ty t /\
  s = (if 0 <? ty then [ty mod 256] else []) ++ match t with Some t => target_key t | None => [] end.
Proof.
  unfold reaction_slot. destruct (m_body m) as [| |ty t| | | | | | |]; try done.
  destruct (_ && _); [done|]. intros E. injection E as <-. eauto.
Qed.

Lemma slot_subject D rk a b : a_store D rk -> set_msg D a = true -> set_msg D b = true ->
  plain a = true -> plain b = true -> wkey D a = wkey D b <-> same_subject a b.
Proof.
  intros HD Ha Hb Pa Pb. unfold wkey, same_subject.
  assert (Sa : d_slot D a = Some (slot_of D a)) by (apply set_msg_basic in Ha as (_ & _ & _ & _ & H); unfold slot_of; by destruct (d_slot D a)).
  assert (Sb : d_slot D b = Some (slot_of D b)) by (apply set_msg_basic in Hb as (_ & _ & _ & _ & H); unfold slot_of; by destruct (d_slot D b)).
  apply set_msg_basic in Ha as (La & Ta & Fa & _), Hb as (Lb & Tb & Fb & _).
  rewrite pair_equal_spec. apply and_iff_compat_l.
  revert Sa Sb. generalize (slot_of D a), (slot_of D b). intros sa sb Sa Sb.
  unfold subject. unfold plain in Pa, Pb.
  destruct HD as [| |chan Hc| | |]; cbn in Sa, Sb.
  - assert (X : forall m s, length (m_hash m) = 20%nat -> match m_body m with BCastRemove h => Nat.eqb (length h) 20 | _ => true end = true ->
      cast_slot m = Some s -> match m_body m with BCastAdd _ _ => SCast (m_hash m) | BCastRemove h => SCast h | _ => SNone end = SCast s).
    { intros m s L P S. unfold cast_slot, hash20 in S. destruct (m_body m); try done.
      - rewrite L in S. cbn in S. congruence.
      - rewrite P in S. congruence. }
    pose proof (X a sa La) as Xa. pose proof (X b sb Lb) as Xb. clear X.
    unfold cast_slot in *. destruct (m_body a); try done; destruct (m_body b); try done;
      specialize (Xa Pa Sa); specialize (Xb Pb Sb); split; congruence.
  - apply link_slot_facts in Sa as (ta & xa & Ba & L1 & ->), Sb as (tb & xb & Bb & L2 & ->).
    rewrite Ba, Bb in *. apply andb_true_iff in Pa as [Pa1 Pa2], Pb as [Pb1 Pb2]. split; [|by intros [= -> ->]].
    intros E. apply app_inj_1 in E as [E1 E2]; [|by rewrite !pad8_length].
    apply pad8_inj in E1; try done. subst tb. f_equal.
    destruct xa as [xa|], xb as [xb|]; try done.
    f_equal. apply fid_key_inj; [lia..|done].
  - apply reaction_slot_facts in Sa as (ta & xa & Ba & ->), Sb as (tb & xb & Bb & ->).
    rewrite Ba, Bb in *. rewrite !andb_true_iff in Pa, Pb. destruct Pa as [[Pa1 Pa2] Pa3], Pb as [[Pb1 Pb2] Pb3].
    rewrite Pa1, Pb1. rewrite !N.mod_small by lia. split; [|by intros [= -> ->]].
    intros E. cbn in E. injection E as E1 E2. subst tb. f_equal.
    destruct xa as [[ua|fa ha]|], xb as [[ub|fb hb]|]; try done; cbn in E2.
    + congruence.
    + subst ua. rewrite app_length, fid_key_len in Pa3. lia.
    + subst ub. rewrite app_length, fid_key_len in Pb3. lia.
    + apply andb_true_iff in Pa3 as [Pa3 Pa4], Pb3 as [Pb3 Pb4].
      apply app_inj_1 in E2 as [E2 ->]; [|by rewrite !fid_key_len].
      apply fid_key_inj in E2; [congruence|lia..].
  - unfold user_data_slot in Sa, Sb. destruct (m_body a) as [| | | | | | |ta ?| |]; try done.
    destruct (m_body b) as [| | | | | | |tb ?| |]; try done.
    rewrite !andb_true_iff in Pa, Pb. destruct Pa as [Pa1 Pa2], Pb as [Pb1 Pb2].
    rewrite Pa1 in Sa. rewrite Pb1 in Sb. rewrite N.mod_small in Sa by lia. rewrite N.mod_small in Sb by lia.
    injection Sa as <-. injection Sb as <-. split; congruence.
  - unfold verif_slot in Sa, Sb. destruct (m_body a); try done; destruct (m_body b); try done;
      injection Sa as <-; injection Sb as <-; split; congruence.
  - unfold lend_slot in Sa, Sb. destruct (m_body a) as [| | | | | | | |ta ?|]; try done.
    destruct (m_body b) as [| | | | | | | |tb ?|]; try done.
    apply (inj Some) in Sa, Sb. subst sa sb. split; [|by intros [= ->]].
    intros E. apply fid_key_inj in E; [congruence|lia..].
Qed.

(** ** Scans *)
Lemma scan_fresh_ok db v f : scan_fresh db v f = true <-> scan_ok db v f.
Proof.
  unfold scan_fresh, scan_ok. rewrite forallb_forall. split.
  - intros H t m Hm. apply rows_of_elem, elem_of_list_In in Hm. specialize (H _ Hm). by apply bool_decide_eq_true in H.
  - intros H [t m] Hm. apply elem_of_list_In, rows_of_elem in Hm. apply bool_decide_eq_true. by apply H.
Qed.
Lemma scan_ok_refl v f : scan_ok v v f.
Proof. by intros t m. Qed.
Lemma scan_fresh_refl v f : scan_fresh v v f = true.
Proof. apply scan_fresh_ok, scan_ok_refl. Qed.

Lemma fine_run_ok D cx strict ms ops : forall st, merged_msgs ops ⊆ ms -> fine D cx strict st ops = true ->
  run_ok D cx (US D ms) st ops.
Proof.
  induction ops as [|o ops IH]; intros [db v] Hs Hf; [done|].
  cbn [fine] in Hf. apply andb_true_iff in Hf as [Ho Hf]. cbn [run_ok]. split.
  - destruct o as [m|f c mx|f key| |]; cbn in *; try done.
    + rewrite !orb_true_iff, !andb_true_iff in Ho. destruct Ho as [[Ho|Ho]|[[H1 H2] _]].
      * left. split; [|done]. apply Hs. left.
      * right. by left.
      * right. right. split; [done|]. by apply scan_fresh_ok.
    + apply andb_true_iff in Ho as [Ho _]. by apply scan_fresh_ok.
    + apply andb_true_iff in Ho as [Ho _]. by apply scan_fresh_ok.
  - apply IH; [|done]. intros x Hx. apply Hs. unfold merged_msgs in *. cbn. destruct o; try done. by right.
Qed.
Lemma fine_snoc D cx strict ops o : forall st, fine D cx strict st (ops ++ [o]) = true ->
  fine D cx strict st ops = true /\ op_fine D strict (srun D cx st ops) o = true.
Proof.
  induction ops as [|o' ops IH]; intros st Hf; cbn [app fine] in *; apply andb_true_iff in Hf as [H1 H2]; [done|].
  apply IH in H2 as [H2 H3]. by rewrite H1, H2.
Qed.
Lemma reach_inv D rk cx strict ops ms : a_store D rk -> fine D cx strict start ops = true ->
  merged_msgs ops ⊆ ms -> pairwise coherent ms = true ->
  vinv D cx (US D ms) (srun D cx start ops).1 /\ vinv D cx (US D ms) (srun D cx start ops).2.
Proof.
  intros HD Hf Hs Hc. unfold start.
  apply (srun_inv D rk cx (a_store_ok D rk HD) (US D ms) (US_set D ms)); try apply vinv_empty.
  - intros a b. by apply US_coherent.
  - by apply (fine_run_ok D cx strict).
Qed.

(** ** Counting rows *)
Lemma rows_size (rows : gmap rkey msg) f : size (filter (fun p => p.1.1 = f) rows) = length (rows_of rows f).
Proof.
  unfold rows_of. rewrite (Permutation_length (merge_sort_Permutation row_le _)).
  change (size (filter (fun p => p.1.1 = f) rows)) with (length (map_to_list (filter (fun p : rkey * msg => p.1.1 = f) rows))).
  assert (P : map_to_list (filter (fun p : rkey * msg => p.1.1 = f) rows) ≡ₚ filter (fun p : rkey * msg => p.1.1 = f) (map_to_list rows)).
  { apply NoDup_Permutation; [apply NoDup_map_to_list|apply NoDup_filter, NoDup_map_to_list|].
    intros [k m]. rewrite elem_of_list_filter, !elem_of_map_to_list, map_filter_lookup_Some. naive_solver. }
  rewrite (Permutation_length P). generalize (map_to_list rows). intros l.
  induction l as [|[[f' t] m] l IH]; [done|]. rewrite filter_cons. cbn [omap list_omap fst snd].
  destruct (decide (f' = f)) as [->|N].
  - rewrite N.eqb_refl. cbn [length]. f_equal. exact IH.
  - destruct (N.eqb_spec f' f); [done|]. exact IH.
Qed.

(** ** Consistency from the refinement *)
Lemma R_consistent D rk cx ms v W : a_store D rk -> R D cx (US D ms) v W -> index_consistent D cx v.
Proof.
  intros HD HR. pose proof (a_store_ok D rk HD) as OK.
  assert (Hw : forall f s m, W !! (f, s) = Some m -> set_msg D m = true /\ m_fid m = f /\ d_slot D m = Some s /\
    s_rows v !! (f, tsh m) = Some m).
  { intros f s m H. destruct (R_wf _ _ _ _ _ HR _ _ _ H) as [[_ Sm] K]. unfold wkey in K.
    pose proof (set_msg_facts D m Sm) as (_ & _ & _ & _ & S & _). apply pair_equal_spec in K as [K1 K2].
    split; [done|]. split; [done|]. split; [by rewrite S, K2|].
    apply (R_rows _ _ _ _ _ HR). unfold wkey. by rewrite K1, K2. }
  split.
  - intros f s t H. apply (R_adds _ _ _ _ _ HR) in H as (m & H & A & <-). destruct (Hw _ _ _ H) as (S & F & Sl & Hr). eauto 8.
  - intros f s t H. apply (R_rems _ _ _ _ _ HR) in H as (m & H & A & <-). destruct (Hw _ _ _ H) as (S & F & Sl & Hr).
    destruct (rem_kind D m S A) as [_ A']. eauto 8.
  - intros f t m H. apply (R_rows _ _ _ _ _ HR) in H as (H & <- & <-). split; [done|]. split; [done|].
    destruct (Hw _ _ _ H) as (S & _ & Sl & _). exists (slot_of D m). split; [done|].
    destruct (d_is_add D m) eqn:A; [left|right].
    + split; [done|]. apply (R_adds _ _ _ _ _ HR). eauto.
    + destruct (rem_kind D m S A) as [_ A']. split; [done|]. apply (R_rems _ _ _ _ _ HR). eauto.
  - intros f s t t' H1 H2. apply (R_adds _ _ _ _ _ HR) in H1 as (m & H1 & A1 & _).
    apply (R_rems _ _ _ _ _ HR) in H2 as (m' & H2 & A2 & _). congruence.
  - intros k x. rewrite (R_idx _ _ _ _ _ HR). unfold keys_of. split.
    + intros (m & H & A & Hk). destruct (Hw _ _ _ H) as (S & _ & _ & Hr).
      destruct (d_build D (c_follow (cx m)) m) as [l|] eqn:E; [|by apply elem_of_nil in Hk]. eauto 8.
    + intros (f & t & m & l & Hr & A & E & Hk). apply (R_rows _ _ _ _ _ HR) in Hr as (H & _ & _).
      exists m. rewrite E. done.
Qed.

Lemma R_minus_rows D cx U v v' W l : R D cx U v W -> R D cx U v' (wminus W l) ->
  forall f t x, s_rows v' !! (f, t) = Some x <-> s_rows v !! (f, t) = Some x /\ x ∉ l.
Proof. intros H1 H2 f t x. rewrite (R_rows _ _ _ _ _ H1), (R_rows _ _ _ _ _ H2), wminus_lookup. tauto. Qed.

(** ** The stored links respect the stored compact states *)
Definition comp_inv (v : smap) : Prop := forall f s c ty targets t x,
  s_comp v !! (f, s) = Some c -> m_body c = BLinkCompact ty targets ->
  s_rows v !! (f, t) = Some x -> link_type x = Some ty -> m_ts x < m_ts c -> listed targets x.

Lemma link_set_body m : set_msg link_def m = true -> exists ty t, m_body m = BLink ty t /\
  (m_type m = T_LinkAdd \/ m_type m = T_LinkRemove) /\ (m_type m = T_LinkAdd -> exists y, t = Some y).
Proof.
  intros H. pose proof (set_msg_facts link_def m H) as (_ & _ & _ & K & S & U).
  cbn in S. apply link_slot_facts in S as (ty & t & B & _). exists ty, t. split; [done|].
  cbn in K. rewrite !N.eqb_eq in K. split; [tauto|].
  intros T. cbn in U. rewrite N.eqb_eq in U. specialize (U T). unfold link_index in U. rewrite B in U.
  destruct t; [eauto|done].
Qed.

Lemma comp_inv_sub v v' : comp_inv v -> s_comp v' = s_comp v ->
  (forall f t x, s_rows v' !! (f, t) = Some x -> s_rows v !! (f, t) = Some x) -> comp_inv v'.
Proof. intros H E Hs f s c ty tg t x. rewrite E. intros H1 H2 H3. apply Hs in H3. by apply (H f s c ty tg t x). Qed.

Lemma comp_inv_merge cx ms db v W m : R link_def cx (US link_def ms) v W -> comp_ok link_def v ->
  pairwise coherent ms = true -> (forall x, US link_def ms x -> plain x = true) ->
  (forall f s c, s_comp v !! (f, s) = Some c -> plain c = true) ->
  US link_def ms m -> comp_inv v -> comp_inv (merge link_def db v (cx m) m).1.
Proof.
  intros HR Hc Hco Hpl Hpc Um Hi.
  pose proof (merge_unfold link_def lww_rank cx link_def_ok (US link_def ms) (US_set _ ms) db v m Um) as Hu.
  destruct (merge_cases link_def lww_rank cx link_def_ok (US link_def ms) (US_set _ ms)
    (fun a b => US_coherent _ ms a b Hco) db v W m HR Um) as (v' & r & E & [(e & -> & ->)|(l & -> & HR' & Ec & _)]).
  { rewrite E. done. }
  rewrite E. cbn [fst]. rewrite Hu in E.
  intros f s c ty tg t x Hsc Hb Hx Hty Hlt. rewrite Ec in Hsc.
  apply (R_rows _ _ _ _ _ HR') in Hx as (Hx & <- & <-). apply lookup_insert_Some in Hx as [[_ ->]|[_ Hx]].
  2:{ apply (Hi (m_fid x) s c ty tg (tsh x) x); try done. by apply (R_rows _ _ _ _ _ HR). }
  destruct (link_set_body x (US_set _ _ _ Um)) as (ty' & tt' & B & Ht & Ha).
  unfold link_type in Hty. rewrite B in Hty. injection Hty as ->.
  unfold merge_set in E. destruct (compact_check link_def v (d_is_add link_def x) x) as [e|] eqn:Hcc; [done|].
  destruct (Hc _ _ _ Hsc) as (_ & _ & Hs). cbn in Hs. unfold link_comp_slot in Hs. rewrite Hb in Hs. injection Hs as <-.
  unfold compact_check in Hcc. cbn in Hcc. unfold link_comp_slot in Hcc. rewrite B in Hcc.
  change (s_comp v !! (m_fid x, pad8 ty) = Some c) in Hsc. rewrite Hsc in Hcc. unfold compact_details in Hcc. rewrite Hb in Hcc.
  destruct Ht as [Ht|Ht]; rewrite Ht in Hcc; cbn in Hcc.
  - destruct (Ha Ht) as [y ->]. unfold compact_add_conflict in Hcc. rewrite B in Hcc.
    rewrite (proj2 (N.ltb_lt _ _) Hlt) in Hcc. cbn in Hcc.
    destruct (bool_decide_reflect (y ∈ tg)); [|done]. split; [done|]. exists y. unfold link_target. by rewrite B.
  - rewrite (proj2 (N.ltb_lt _ _) Hlt) in Hcc. done.
Qed.

Lemma comp_body m : comp_msg link_def m = true -> exists ty tg, m_body m = BLinkCompact ty tg /\ cslot_of link_def m = pad8 ty.
Proof.
  unfold comp_msg. rewrite !andb_true_iff. intros [[_ H] H'].
  unfold compact_details in H'. destruct (m_body m) as [| | | |ty tg| | | | |] eqn:B; try done.
  exists ty, tg. split; [done|]. unfold cslot_of. cbn. unfold link_comp_slot. by rewrite B.
Qed.

Lemma comp_inv_compact cx ms db v W m : R link_def cx (US link_def ms) v W -> comp_ok link_def v ->
  pairwise coherent ms = true -> comp_msg link_def m = true ->
  scan_ok db v (m_fid m) -> scan_ok v db (m_fid m) -> comp_inv v -> comp_inv (merge link_def db v (cx m) m).1.
Proof.
  intros HR Hc Hco Hm Hs1 Hs2 Hi.
  rewrite merge_comp_unfold by done.
  destruct (merge_compact_spec link_def lww_rank cx link_def_ok (US link_def ms) (US_set _ ms)
    (fun a b => US_coherent _ ms a b Hco) db v W (c_scoped (cx m)) m HR Hc Hm Hs1)
    as (v' & r & E & [(x & _ & _ & -> & _)|(Hold & l & _ & Hl & HR' & Ec)]); rewrite E; cbn [fst]; [done|].
  intros f s c ty tg t x Hsc Hb Hx Hty Hlt. rewrite Ec in Hsc.
  pose proof (proj1 (R_minus_rows _ _ _ _ _ _ _ HR HR' _ _ _) Hx) as [Hxv Hxl].
  apply lookup_insert_Some in Hsc as [[Ek <-]|[_ Hsc]]; [|by apply (Hi f s c ty tg t x)].
  apply pair_equal_spec in Ek as [<- <-].
  pose proof (proj1 (R_rows _ _ _ _ _ HR _ _ _) Hxv) as (Hw & Hf & <-).
  destruct (R_wf _ _ _ _ _ HR _ _ _ Hw) as [[_ Sx] _].
  destruct (link_set_body x Sx) as (ty' & tt' & B & Ht & Ha).
  unfold link_type in Hty. rewrite B in Hty. injection Hty as ->.
  assert (Hcov : covered link_def (c_scoped (cx m)) m x = false).
  { destruct (covered _ _ _ _) eqn:X; [|done]. exfalso. apply Hxl, Hl. split; [|done]. by apply Hs2. }
  unfold covered, compact_details in Hcov. rewrite Hb in Hcov.
  rewrite (proj2 (N.leb_le _ _)) in Hcov by lia. cbn [andb] in Hcov.
  unfold is_compaction_conflict in Hcov. rewrite B in Hcov. rewrite (bool_decide_true (ty = ty)) in Hcov by done.
  rewrite andb_false_r in Hcov. cbn [d_is_rem d_is_add link_def] in Hcov.
  destruct Ht as [Ht|Ht]; rewrite Ht in Hcov; cbn in Hcov; [|done].
  destruct (Ha Ht) as [y ->]. apply negb_false_iff, bool_decide_eq_true in Hcov.
  split; [done|]. exists y. unfold link_target. by rewrite B.
Qed.

Lemma fine_plain_inv cx ms ops : forall st, fine link_def cx true st ops = true -> merged_msgs ops ⊆ ms ->
  pairwise coherent ms = true -> forallb plain ms = true ->
  vinv link_def cx (US link_def ms) st.1 -> vinv link_def cx (US link_def ms) st.2 -> comp_inv st.1 -> comp_inv st.2 ->
  (forall f s c, s_comp st.1 !! (f, s) = Some c -> c ∈ ms) -> (forall f s c, s_comp st.2 !! (f, s) = Some c -> c ∈ ms) ->
  comp_inv (srun link_def cx st ops).2.
Proof.
  induction ops as [|o ops IH]; intros [db v] Hf Hs Hco Hpl Hv1 Hv2 Hi1 Hi2 Hp1 Hp2; [done|].
  pose proof (fine_run_ok link_def cx true ms _ (db, v) Hs Hf) as Hrun.
  cbn [fine] in Hf. apply andb_true_iff in Hf as [Ho Hf]. destruct Hrun as [Hok _].
  pose proof (sstep_inv link_def lww_rank cx link_def_ok (US link_def ms) (US_set _ ms)
    (fun a b => US_coherent _ ms a b Hco) db v o Hv1 Hv2 Hok) as [Hv1' Hv2'].
  cbn [fst snd] in Hv1, Hv2, Hi1, Hi2, Hp1, Hp2. destruct Hv2 as [[W HR] Hc].
  assert (Hplm : forall m, m ∈ ms -> plain m = true).
  { rewrite forallb_forall in Hpl. intros m Hm. by apply Hpl, elem_of_list_In. }
  unfold srun. cbn [foldl]. fold (srun link_def cx (sstep link_def cx (db, v) o) ops).
  assert (Hs' : merged_msgs ops ⊆ ms).
  { intros x Hx. apply Hs. unfold merged_msgs in *. cbn. destruct o; try done. by right. }
  apply IH; try done; clear IH Hf.
  - destruct o; done.
  - destruct o as [m|f c mx|f key| |]; cbn [sstep fst snd]; try done.
    + cbn in Ho. rewrite !orb_true_iff, !andb_true_iff in Ho. destruct Ho as [[Ho|Ho]|[[H1 H2] H3]].
      * apply (comp_inv_merge cx ms db v W m); try done.
        -- intros x [Hx _]. by apply Hplm.
        -- intros f s c H. apply Hplm. by apply (Hp2 f s).
        -- split; [|done]. apply Hs. left.
      * by rewrite merge_ignored.
      * cbn in H3. apply (comp_inv_compact cx ms db v W m); try done; by apply scan_fresh_ok.
    + cbn in Hok. unfold prune_messages. destruct (c <=? mx); [done|].
      destruct (prune_loop_spec link_def lww_rank cx link_def_ok (US link_def ms) (US_set _ ms)
        (fun a b => US_coherent _ ms a b Hco) (rows_of (s_rows db) f) v W c mx [] HR (scan_winners _ _ _ db v W f HR Hok))
        as (v' & -> & HR' & Ec). cbn [fst]. apply (comp_inv_sub v); try done.
      intros f0 t x Hx. by apply (R_minus_rows _ _ _ _ _ _ _ HR HR') in Hx as [Hx _].
    + cbn in Hok. unfold revoke_by_signer.
      destruct (revoke_loop_spec link_def lww_rank cx link_def_ok (US link_def ms) (US_set _ ms)
        (fun a b => US_coherent _ ms a b Hco) key (rows_of (s_rows db) f) v W [] HR (scan_winners _ _ _ db v W f HR Hok))
        as (v' & -> & HR' & Ec). cbn [fst]. apply (comp_inv_sub v); try done.
      intros f0 t x Hx. by apply (R_minus_rows _ _ _ _ _ _ _ HR HR') in Hx as [Hx _].
  - destruct o; done.
  - destruct o as [m|f c mx|f key| |]; cbn [sstep fst snd]; try done.
    + destruct Hok as [Um|[Hi|[Hm Hsc]]].
      * destruct (merge_cases link_def lww_rank cx link_def_ok (US link_def ms) (US_set _ ms)
          (fun a b => US_coherent _ ms a b Hco) db v W m HR Um) as (v' & r & -> & [(e & _ & ->)|(l & _ & _ & Ec & _)]);
          cbn [fst]; [done|by rewrite Ec].
      * by rewrite merge_ignored.
      * rewrite merge_comp_unfold by done.
        destruct (merge_compact_spec link_def lww_rank cx link_def_ok (US link_def ms) (US_set _ ms)
          (fun a b => US_coherent _ ms a b Hco) db v W (c_scoped (cx m)) m HR Hc Hm Hsc)
          as (v' & r & -> & [(x & _ & _ & -> & _)|(Hold & l & _ & Hl & HR' & Ec)]); cbn [fst]; [done|].
        rewrite Ec. intros f s c. rewrite lookup_insert_Some. intros [[_ <-]|[_ H]]; [|by apply (Hp2 f s)].
        apply Hs. left.
    + cbn in Hok. unfold prune_messages. destruct (c <=? mx); [done|].
      destruct (prune_loop_spec link_def lww_rank cx link_def_ok (US link_def ms) (US_set _ ms)
        (fun a b => US_coherent _ ms a b Hco) (rows_of (s_rows db) f) v W c mx [] HR (scan_winners _ _ _ db v W f HR Hok))
        as (v' & -> & HR' & Ec). cbn [fst]. by rewrite Ec.
    + cbn in Hok. unfold revoke_by_signer.
      destruct (revoke_loop_spec link_def lww_rank cx link_def_ok (US link_def ms) (US_set _ ms)
        (fun a b => US_coherent _ ms a b Hco) key (rows_of (s_rows db) f) v W [] HR (scan_winners _ _ _ db v W f HR Hok))
        as (v' & -> & HR' & Ec). cbn [fst]. by rewrite Ec.
Qed.
