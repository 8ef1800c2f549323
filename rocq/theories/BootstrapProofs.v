(** Proofs about replay of a snapshot (Bootstrap.v). *)
From Coq Require Import ZifyN ZifyNat ZifyBool.
From Verif Require Import Store StoreSpec StoreProofs StoreDefs StoreTop Bootstrap.
#[local] Open Scope N_scope.

(** What a snapshot of a store consists of. *)
Definition stored (v : smap) (m : msg) : Prop :=
  (exists k, s_rows v !! k = Some m) \/ (exists k, s_comp v !! k = Some m).

Section Replay.
  Variable D : sdef.
  Variable rk : msg -> list N.
  Variable cx : msg -> mctx.
  Hypothesis HD : def_ok D rk.
  Variable U : msg -> Prop.
  Hypothesis HU : forall m, U m -> set_msg D m = true.
  Hypothesis HC : forall m1 m2, U m1 -> U m2 -> coherent m1 m2 = true.
  Variable v0 : smap.
  Variable W0 : gmap rkey msg.
  Hypothesis HR0 : R D cx U v0 W0.
  Hypothesis HC0 : comp_ok D v0.
  Notation wk := (wkey D).
  Definition ck (m : msg) : rkey := (m_fid m, cslot_of D m).

  Lemma stored_cases m : stored v0 m ->
    (W0 !! wk m = Some m /\ set_msg D m = true) \/ (s_comp v0 !! ck m = Some m /\ comp_msg D m = true).
  Proof using HU HR0 HC0.
    intros [[[f t] H]|[[f s] H]].
    - left. apply (R_rows _ _ _ _ _ HR0) in H as (H & _). split; [done|]. apply HU.
      by apply (R_wf _ _ _ _ _ HR0) in H as [H _].
    - right. pose proof (HC0 _ _ _ H) as (H1 & <- & H2). split; [|done]. unfold ck, cslot_of. by rewrite H2.
  Qed.

  (** One message of the snapshot. *)
  Lemma set_unfold db v m : set_msg D m = true -> zero_lend m = false -> forall v' ev,
    finish D v (c_follow (cx m)) (d_is_add D m) (tsh m) m [] = (v', inr ev) -> play_one D cx db (Some v) m = Some v'.
  Proof using HD.
    intros Sm Hz v' ev E. unfold play_one, merge_cf. pose proof (not_comp D rk HD m Sm) as Hn.
    rewrite Hn, (ts_hash_ok D m Sm), E, Hz.
    pose proof (set_msg_facts D m Sm) as (_ & _ & _ & [K|(K & K1 & K2)] & _).
    - by rewrite K.
    - by rewrite K, K1, K2.
  Qed.
  Lemma play_set db v W m : R D cx U v W -> W ⊆ W0 -> W0 !! wk m = Some m -> zero_lend m = false ->
    exists v', play_one D cx db (Some v) m = Some v' /\ R D cx U v' (<[wk m := m]> W) /\ s_comp v' = s_comp v.
  Proof using HU HR0 HD HC.
    intros HR Hs Hm Hz. destruct (R_wf _ _ _ _ _ HR0 _ _ _ Hm) as [Um _].
    destruct (W !! wk m) as [x|] eqn:E.
    - assert (x = m) as -> by (pose proof (lookup_weaken _ _ _ _ E Hs); congruence).
      destruct (R_reput D rk cx HD U HU HC v W m HR E) as (v' & E' & HR' & Ec).
      exists v'. split; [by eapply set_unfold; [by apply HU|..]|]. by rewrite insert_id.
    - destruct (finish_spec D rk cx HD U HU HC v W m [] HR Um E) as (v' & E' & HR' & Ec).
      exists v'. split; [by eapply set_unfold; [by apply HU|..]|]. done.
  Qed.
  (** A compact state of the snapshot, when no stored message is superseded by it. *)
  Definition clear_of (c : msg) : Prop :=
    forall t x, s_rows v0 !! (m_fid c, t) = Some x -> covered D (c_scoped (cx c)) c x = false.
  Lemma rows_sub v W : R D cx U v W -> W ⊆ W0 -> forall f t x, s_rows v !! (f, t) = Some x -> s_rows v0 !! (f, t) = Some x.
  Proof using HR0.
    intros HR Hs f t x H. apply (R_rows _ _ _ _ _ HR) in H as (H & H1). apply (R_rows _ _ _ _ _ HR0).
    split; [|done]. by apply (lookup_weaken _ _ _ _ H).
  Qed.
  Lemma scan_nil db W c cts targets ty : R D cx U db W -> W ⊆ W0 -> compact_details c = Some (cts, targets, ty) -> clear_of c ->
    compact_scan D (c_scoped (cx c)) (rows_of (s_rows db) (m_fid c)) cts targets ty = [].
  Proof using HU HR0 HD HC.
    intros HR Hs Hd Hcl.
    destruct (compact_scan _ _ _ _ _ _) as [|x l] eqn:E; [done|]. exfalso.
    assert (Hx : x ∈ compact_scan D (c_scoped (cx c)) (rows_of (s_rows db) (m_fid c)) cts targets ty) by (rewrite E; left).
    apply (compact_scan_elem D rk cx HD U HU HC) in Hx as (Hx & H1 & H2); [|apply rows_of_sorted|].
    - apply elem_of_list_fmap in Hx as ([t x'] & -> & Hx). cbn [snd] in *. apply rows_of_elem in Hx.
      apply (rows_sub db W HR Hs) in Hx. apply Hcl in Hx. unfold covered in Hx. rewrite Hd, H2 in Hx.
      rewrite (proj2 (N.leb_le _ _) H1) in Hx. done.
    - intros t z Hz. apply rows_of_elem in Hz. apply (rows_sub db W HR Hs), (R_rows _ _ _ _ _ HR0) in Hz as (Hz1 & _ & <-).
      split; [done|]. apply (R_wf _ _ _ _ _ HR0) in Hz1 as [Hz1 _]. apply HU, set_msg_facts in Hz1. tauto.
  Qed.
  Lemma comp_unfold db v c : comp_msg D c = true ->
    merge_cf D db v (cx c) c = merge_compact_cf D db v (c_scoped (cx c)) c.
  Proof using Type.
    intros H. apply comp_msg_facts in H as (H1 & H2 & H3 & _). unfold merge_cf. rewrite H2, H3.
    cbn [andb negb]. rewrite andb_false_r. unfold make_ts_hash. rewrite H1. done.
  Qed.
  Lemma play_comp db v Wd c : R D cx U db Wd -> Wd ⊆ W0 -> comp_msg D c = true -> zero_lend c = false -> clear_of c ->
    play_one D cx db (Some v) c = Some (SMap (s_rows v) (s_adds v) (s_rems v) (<[ck c := c]> (s_comp v)) (s_idx v)).
  Proof using HU HR0 HD HC.
    intros HR Hs Hc Hz Hcl. unfold play_one. rewrite (comp_unfold db v c Hc), Hz.
    pose proof (comp_msg_facts D c Hc) as (_ & H2 & H3 & H4 & [[cts targets] ty] & H5).
    unfold merge_compact_cf. rewrite H4, H5. cbn zeta. rewrite (scan_nil db Wd c cts targets ty HR Hs H5 Hcl).
    cbn [delete_many]. unfold put_compact. rewrite H2, H4. done.
  Qed.

  Definition inv (v : smap) (W : gmap rkey msg) : Prop := R D cx U v W /\ W ⊆ W0 /\ s_comp v ⊆ s_comp v0.
  Definition has (v : smap) (W : gmap rkey msg) (m : msg) : Prop := W !! wk m = Some m \/ s_comp v !! ck m = Some m.
  Hypothesis Hclear : forall c, (exists k, s_comp v0 !! k = Some c) -> clear_of c.
  Hypothesis Hzero : forall m, stored v0 m -> zero_lend m = false.

  Lemma play_page_spec db Wd : inv db Wd -> forall p v W, inv v W -> (forall m, m ∈ p -> stored v0 m) ->
    exists v' W', foldl (play_one D cx db) (Some v) p = Some v' /\ inv v' W' /\ (forall m, has v W m -> has v' W' m) /\
      forall m, m ∈ p -> has v' W' m.
  Proof using All.
    intros Hdb. induction p as [|m p IH]; intros v W Hv Hp.
    - exists v, W. split; [done|]. split; [done|]. split; [done|]. intros m Hm. by apply elem_of_nil in Hm.
    - assert (Hm : stored v0 m) by (apply Hp; left).
      assert (Hstep : exists v1 W1, play_one D cx db (Some v) m = Some v1 /\ inv v1 W1 /\ (forall x, has v W x -> has v1 W1 x) /\ has v1 W1 m).
      { destruct Hv as (HR & Hs & Hsc). pose proof (Hzero m Hm) as Hz.
        destruct (stored_cases m Hm) as [[Hw Sm]|[Hc Cm]].
        - destruct (play_set db v W m HR Hs Hw Hz) as (v1 & E & HR1 & Ec). exists v1, (<[wk m := m]> W).
          split; [done|]. split; [split; [done|split]|split].
          + by apply insert_subseteq_l.
          + by rewrite Ec.
          + intros x [Hx|Hx]; [left|right; by rewrite Ec].
            destruct (decide (wk m = wk x)) as [E2|E2]; [|by rewrite lookup_insert_ne].
            rewrite <- E2, lookup_insert. apply (lookup_weaken _ W0) in Hx; [|done]. rewrite <- E2, Hw in Hx. congruence.
          + left. apply lookup_insert.
        - eexists _, W. split; [destruct Hdb as (HRd & Hsd & _); apply (play_comp db v Wd m HRd Hsd Cm Hz)|].
          { apply Hclear. eauto. }
          split; [split; [by apply R_comp|split; [done|]]|split]; cbn [s_comp].
          + by apply insert_subseteq_l.
          + intros x [Hx|Hx]; [by left|right]. cbn [s_comp].
            destruct (decide (ck m = ck x)) as [E2|E2]; [|by rewrite lookup_insert_ne].
            rewrite <- E2, lookup_insert. apply (lookup_weaken _ (s_comp v0)) in Hx; [|done]. rewrite <- E2, Hc in Hx. congruence.
          + right. apply lookup_insert. }
      destruct Hstep as (v1 & W1 & E1 & Hi1 & Hk1 & Hm1).
      destruct (IH v1 W1 Hi1) as (v2 & W2 & E2 & Hi2 & Hk2 & Hp2); [intros x Hx; apply Hp; by right|].
      exists v2, W2. cbn [foldl]. rewrite E1. split; [done|]. split; [done|]. split; [auto|].
      intros x Hx. apply elem_of_cons in Hx as [->|Hx]; auto.
  Qed.
  Lemma play_pages_spec ps : forall v W, inv v W -> (forall m, m ∈ concat ps -> stored v0 m) ->
    exists v' W', foldl (play_page D cx) (Some v) ps = Some v' /\ inv v' W' /\ (forall m, has v W m -> has v' W' m) /\
      forall m, m ∈ concat ps -> has v' W' m.
  Proof using All.
    induction ps as [|p ps IH]; intros v W Hv Hp.
    - exists v, W. split; [done|]. split; [done|]. split; [done|]. intros m Hm. by apply elem_of_nil in Hm.
    - cbn [concat] in *. destruct (play_page_spec v W Hv p v W Hv) as (v1 & W1 & E1 & Hi1 & Hk1 & Hp1).
      { intros m Hm. apply Hp, elem_of_app. by left. }
      destruct (IH v1 W1 Hi1) as (v2 & W2 & E2 & Hi2 & Hk2 & Hp2).
      { intros m Hm. apply Hp, elem_of_app. by right. }
      exists v2, W2. cbn [foldl]. unfold play_page at 2. rewrite E1. split; [done|]. split; [done|]. split; [auto|].
      intros m Hm. apply elem_of_app in Hm as [Hm|Hm]; auto.
  Qed.
  Lemma play_rebuilds ps : (forall m, m ∈ concat ps <-> stored v0 m) -> play D cx ps = Some v0.
  Proof using All.
    intros Hp. destruct (play_pages_spec ps sempty ∅) as (v & W & E & (HR & Hs & Hsc) & _ & Hall).
    { split; [apply R_empty|]. split; apply map_empty_subseteq. }
    { intros m. by apply Hp. }
    assert (W = W0) as ->.
    { apply (anti_symm (⊆)); [done|]. apply map_subseteq_spec. intros [f s] m Hm.
      destruct (R_wf _ _ _ _ _ HR0 _ _ _ Hm) as [Um Ek].
      assert (Hst : stored v0 m).
      { left. exists (m_fid m, tsh m). apply (R_rows _ _ _ _ _ HR0). by rewrite Ek. }
      apply Hp, Hall in Hst as [H|H]; [by rewrite <- Ek|].
      apply (lookup_weaken _ (s_comp v0)) in H; [|done]. apply HC0 in H as (H & _).
      apply comp_msg_facts in H as (_ & _ & H & _). rewrite (not_comp D rk HD m (HU _ Um)) in H. done. }
    assert (Ec : s_comp v = s_comp v0).
    { apply (anti_symm (⊆)); [done|]. apply map_subseteq_spec. intros [f s] c Hc.
      pose proof (HC0 _ _ _ Hc) as (Cc & Ef & Es).
      assert (Ek : ck c = (f, s)) by (unfold ck, cslot_of; by rewrite Es, Ef).
      assert (Hst : stored v0 c) by (right; eauto).
      apply Hp, Hall in Hst as [H|H]; [|by rewrite <- Ek].
      destruct (R_wf _ _ _ _ _ HR0 _ _ _ H) as [Uc _]. apply HU in Uc. apply comp_msg_facts in Cc as (_ & _ & Cc & _).
      rewrite (not_comp D rk HD c Uc) in Cc. done. }
    pose proof (R_unique D cx U v v0 W0 HR HR0) as (E1 & E2 & E3 & E4).
    unfold play. rewrite E. f_equal. destruct v, v0. cbn in *. by subst.
  Qed.
End Replay.

(** The other direction: a compact state replayed on its own page removes what it supersedes. *)
Section Lose.
  Variable D : sdef.
  Variable rk : msg -> list N.
  Variable cx : msg -> mctx.
  Hypothesis HD : def_ok D rk.
  Variable U : msg -> Prop.
  Hypothesis HU : forall m, U m -> set_msg D m = true.
  Hypothesis HC : forall m1 m2, U m1 -> U m2 -> coherent m1 m2 = true.

  Lemma play_comp_page v W c : R D cx U v W -> comp_msg D c = true -> zero_lend c = false ->
    exists v' l, play_page D cx (Some v) [c] = Some v' /\ R D cx U v' (wminus W l) /\
      (forall x, x ∈ l <-> s_rows v !! (m_fid c, tsh x) = Some x /\ covered D (c_scoped (cx c)) c x = true) /\
      s_comp v' = <[ck D c := c]> (s_comp v).
  Proof using All.
    intros HR Hc Hz. unfold play_page, foldl, play_one. rewrite (comp_unfold D cx v v c Hc), Hz.
    pose proof (comp_msg_facts D c Hc) as (_ & H2 & H3 & H4 & [[cts targets] ty] & H5).
    unfold merge_compact_cf. rewrite H4, H5. cbn zeta.
    remember (compact_scan D (c_scoped (cx c)) (rows_of (s_rows v) (m_fid c)) cts targets ty) as l eqn:El.
    assert (Hs : scan_ok v v (m_fid c)) by apply scan_ok_refl.
    assert (Hr : forall t m, (t, m) ∈ rows_of (s_rows v) (m_fid c) -> t = tsh m /\ m_ts m < 2 ^ 32).
    { intros t z Hzr. apply rows_of_elem, (R_rows _ _ _ _ _ HR) in Hzr as (Hz1 & _ & <-). split; [done|].
      apply (R_wf _ _ _ _ _ HR) in Hz1 as [Hz1 _]. apply HU, set_msg_facts in Hz1. tauto. }
    destruct (delete_many_spec D rk cx HD U HU HC l v W HR) as (v1 & E1 & HR1 & C1).
    { pose proof (scan_winners D cx U v v W (m_fid c) HR Hs) as [Hw1 Hw2]. split.
      - subst l. by apply (compact_scan_nodup D rk HD U HU HC).
      - intros y Hy. apply Hw2. subst l. by apply (compact_scan_elem D rk cx HD U HU HC) in Hy as (Hy & _); [|apply rows_of_sorted|]. }
    rewrite E1. unfold put_compact. rewrite H2, H4. cbn [negb].
    eexists _, l. split; [reflexivity|]. split; [by apply R_comp|]. split; [|cbn; by rewrite C1].
    intros x. subst l. unfold covered. rewrite H5, andb_true_iff, N.leb_le.
    rewrite (compact_scan_elem D rk cx HD U HU HC); [|apply rows_of_sorted|done].
    by rewrite (scan_elem D cx U v v W (m_fid c) x HR Hs).
  Qed.
  Lemma play_comp_pages cs : forall v W k x, R D cx U v W -> W !! k <> Some x ->
    (forall c, c ∈ cs -> comp_msg D c = true /\ zero_lend c = false) ->
    exists v' W', foldl (play_page D cx) (Some v) (map (fun c => [c]) cs) = Some v' /\ R D cx U v' W' /\ W' !! k <> Some x.
  Proof using All.
    induction cs as [|c cs IH]; intros v W k x HR Hn Hcs; [by exists v, W|].
    destruct (Hcs c) as [Cc Hz]; [left|]. destruct (play_comp_page v W c HR Cc Hz) as (v1 & l & E1 & HR1 & _).
    cbn [map foldl]. rewrite E1. apply (IH v1 (wminus W l)); [done| |].
    - destruct k as [f s]. rewrite wminus_lookup. tauto.
    - intros c' Hc'. apply Hcs. by right.
  Qed.
End Lose.

(** ** Registered names *)
From Verif Require Import NamesProofs.
#[local] Open Scope N_scope.
(** A name the snapshot lists: its trie entry leads to the proof stored under the name. *)
Definition served (s : fst_) (p : fproof) : Prop := exists f n, (f, n) ∈ fs_trie s /\ fs_name s !! n = Some p.

Lemma f_cmp_refl p : f_cmp p p = Eq.
Proof. unfold f_cmp. rewrite N.compare_refl. apply lex_refl. Qed.
Lemma fplay_spec (s : fst_) (l : list fproof) : f_named s -> f_smalls s ->
  (forall p, p ∈ l -> fs_name s !! f_name p = Some p /\ f_fid p <> 0 /\ f_isf p = true) ->
  forall s1, fs_name s1 ⊆ fs_name s -> exists s', foldl fplay_one (Some s1) l = Some s' /\
    (forall n p, fs_name s' !! n = Some p <-> fs_name s1 !! n = Some p \/ (p ∈ l /\ f_name p = n)) /\
    ((forall f n, (f, n) ∈ fs_trie s1 <-> exists p, fs_name s1 !! n = Some p /\ f_fid p = f) ->
     forall f n, (f, n) ∈ fs_trie s' <-> exists p, fs_name s' !! n = Some p /\ f_fid p = f).
Proof.
  intros Nm Sm. induction l as [|p l IH]; intros Hl s1 Hs.
  - exists s1. split; [done|]. split; [|done]. intros n p. split; [by left|]. intros [H|[H _]]; [done|]. by apply elem_of_nil in H.
  - destruct (Hl p) as (Hp & Hz & Hf); [left|]. cbn [foldl].
    assert (Hl' : forall p, p ∈ l -> fs_name s !! f_name p = Some p /\ f_fid p <> 0 /\ f_isf p = true) by (intros q Hq; apply Hl; by right).
    unfold fplay_one at 2, f_merge. destruct (fs_name s1 !! f_name p) as [q|] eqn:E.
    + assert (q = p) as -> by (pose proof (lookup_weaken _ _ _ _ E Hs); congruence). rewrite f_cmp_refl.
      destruct (IH Hl' s1 Hs) as (s' & E1 & H1 & H2). exists s'. split; [done|]. split; [|done].
      intros n x. rewrite H1, elem_of_cons. split; [tauto|]. intros [H|[[->|H] H']]; [by left| |tauto]. left. by subst n.
    + cbn [andb]. rewrite (proj2 (N.eqb_neq _ _) Hz).
      pose (s2 := FSt (fs_name (f_write s1 p None)) (fs_fid (f_write s1 p None)) (f_trie (fs_trie (f_write s1 p None)) p None)).
      destruct (IH Hl' s2) as (s' & E1 & H1 & H2).
      { cbn. by apply insert_subseteq_l. }
      exists s'. split; [exact E1|]. split.
      * intros n x. rewrite H1. cbn. rewrite lookup_insert_Some, elem_of_cons. split.
        -- intros [[[<- <-]|[_ H]]|[H1' H2']]; [right; by split; [left|]|by left|right; by split; [right|]].
        -- intros [H|[[->|H] <-]]; [|left; by left|right; done]. left. right. split; [|done]. intros <-. congruence.
      * intros HT. apply H2. intros f n. cbn. unfold f_trie. rewrite Hf. cbn [andb]. rewrite (proj2 (N.eqb_neq _ _) Hz). cbn [negb].
        pose proof (Sm _ _ Hp) as Hsp. unfold f_small in Hsp. rewrite (fidk_small (f_fid p)) by done.
        rewrite elem_of_union, elem_of_singleton, HT. split.
        -- intros [(x & Hx & <-)|[= -> ->]].
           ++ exists x. split; [|done]. rewrite lookup_insert_ne; [done|]. intros <-. congruence.
           ++ exists p. by rewrite lookup_insert.
        -- intros (x & Hx & <-). apply lookup_insert_Some in Hx as [[<- <-]|[_ Hx]]; [by right|left; eauto].
Qed.
