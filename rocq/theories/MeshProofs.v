(** Lemmas for PropMesh.v. *)
From Verif Require Export Mesh.
From Coq Require Import Lia ZifyN ZifyNat ZifyBool.
#[local] Open Scope N_scope.

(** ** The validator map *)
Lemma vget_In vs p k : vget vs p = Some k -> In (p, k) vs.
Proof.
  induction vs as [|[q l] r IH]; [discriminate|]. cbn. case_bool_decide; intros E; [left; congruence|right; auto].
Qed.
Lemma vget_None vs p : vget vs p = None <-> ~ In p (map fst vs).
Proof.
  induction vs as [|[q l] r IH]; cbn; [tauto|]. case_bool_decide.
  - split; [discriminate|]. intros N. destruct N. auto.
  - rewrite IH. tauto.
Qed.
Lemma vget_nd vs p k : List.NoDup (map fst vs) -> vget vs p = Some k <-> In (p, k) vs.
Proof.
  intros ND. split; [apply vget_In|]. induction vs as [|[q l] r IH]; [intros []|]. cbn in *. inversion ND as [|? ? N1 N2]; subst.
  intros [E|I].
  - injection E as -> ->. rewrite bool_decide_eq_true_2; auto.
  - rewrite bool_decide_eq_false_2; [auto|]. intros ->. apply N1. apply in_map_iff. exists (p, k). auto.
Qed.

(** ** Lists *)
Lemma in_omap {A B} (f : A -> option B) l y : In y (omap f l) <-> exists x, In x l /\ f x = Some y.
Proof. rewrite <- !elem_of_list_In, elem_of_list_omap. split; intros [x [H1 H2]]; exists x; rewrite ?elem_of_list_In in *; auto. Qed.
Lemma omap_nd {A B} (f : A -> option B) (g : A -> B) l :
  (forall x y, f x = Some y -> y = g x) -> List.NoDup (map g l) -> List.NoDup (omap f l).
Proof.
  intros Hf. induction l as [|x r IH]; cbn; [constructor|]. intros ND. inversion ND as [|? ? N1 N2]; subst.
  destruct (f x) as [y|] eqn:E; [|auto]. constructor; [|auto]. rewrite in_omap. intros (z & Hz & Ez).
  apply Hf in E. apply Hf in Ez. subst. apply N1. rewrite Ez. apply in_map. exact Hz.
Qed.
Lemma filter_nd {A} (f : A -> bool) l : List.NoDup l -> List.NoDup (List.filter f l).
Proof. apply List.NoDup_filter. Qed.
Lemma filter_map_nd {A B} (g : A -> B) (f : A -> bool) l : List.NoDup (map g l) -> List.NoDup (map g (List.filter f l)).
Proof.
  induction l as [|x r IH]; cbn; [constructor|]. intros N. inversion N as [|? ? N1 N2]; subst. destruct (f x); cbn; auto.
  constructor; auto. rewrite in_map_iff. intros (y & Ey & Iy). apply filter_In in Iy. apply N1. rewrite <- Ey. apply in_map. tauto.
Qed.
(** The number of entries for one peer. *)
Definition entries (us : list unreach) (p : pid) : nat := length (List.filter (fun u => bool_decide (u_pid u = p)) us).
Lemma entries_app a b p : entries (a ++ b) p = (entries a p + entries b p)%nat.
Proof. unfold entries. rewrite List.filter_app, app_length. reflexivity. Qed.
Lemma entries_none us p : (forall u, In u us -> u_pid u <> p) -> entries us p = 0%nat.
Proof.
  unfold entries. induction us as [|u r IH]; cbn; [auto|]. intros H. rewrite bool_decide_eq_false_2; [|apply H; auto]. apply IH. auto.
Qed.
Lemma entries_one us p u : List.NoDup (map u_pid us) -> In u us -> u_pid u = p -> entries us p = 1%nat.
Proof.
  unfold entries. intros ND I E. induction us as [|x r IH]; [destruct I|]. cbn in *. inversion ND as [|? ? N1 N2]; subst.
  destruct I as [->|I].
  - rewrite bool_decide_eq_true_2 by auto. cbn. f_equal. apply (entries_none r). intros y Hy Ey. apply N1. rewrite <- Ey. apply in_map. exact Hy.
  - rewrite bool_decide_eq_false_2; [auto|]. intros Ex. apply N1. rewrite Ex. apply in_map. exact I.
Qed.
Lemma omap_pids (f : pid -> option unreach) l :
  (forall p u, f p = Some u -> u_pid u = p) -> List.NoDup l -> List.NoDup (map u_pid (omap f l)).
Proof.
  intros Hf. induction l as [|x r IH]; cbn; [constructor|]. intros ND. inversion ND as [|? ? N1 N2]; subst.
  destruct (f x) as [y|] eqn:E; [|auto]. cbn. constructor; [|auto]. rewrite in_map_iff. intros (z & Ez & Iz). apply in_omap in Iz.
  destruct Iz as (w & Iw & Ew). apply Hf in E. apply Hf in Ew. congruence.
Qed.

(** ** Classification *)
Section Classify.
  Variables (valid : bytes -> bool) (vs : vset).
  Hypothesis (ND : List.NoDup (map fst vs)) (OKV : forall p, In p (map fst vs) -> valid p = true).
  Lemma vmatch_spec b k : vmatch valid vs b = Some k <-> In (b, k) vs.
  Proof.
    unfold vmatch. destruct (valid b) eqn:E.
    - apply vget_nd. exact ND.
    - split; [discriminate|]. intros I. rewrite OKV in E; [discriminate|]. apply in_map_iff. exists (b, k). auto.
  Qed.
  Lemma vmatch_none b : vmatch valid vs b = None <-> ~ In b (map fst vs).
  Proof.
    unfold vmatch. destruct (valid b) eqn:E; [apply vget_None|]. split; [|auto]. intros _ I. rewrite OKV in E; [discriminate|exact I].
  Qed.
  Lemma classify_pid p : p_pid (classify_peer valid vs p) = p_pid p.
  Proof. unfold classify_peer. destruct (vmatch _ _ _); reflexivity. Qed.
  Lemma classify_val p : p_type (classify_peer valid vs p) = TValidator <-> In (p_pid p) (map fst vs).
  Proof.
    unfold classify_peer. destruct (vmatch valid vs (p_pid p)) as [k|] eqn:E; cbn.
    - split; [intros _|auto]. apply vmatch_spec in E. apply in_map_iff. exists (p_pid p, k). auto.
    - apply vmatch_none in E. split; [discriminate|tauto].
  Qed.
  Lemma self_classify h only raw : self_pid valid (classify valid vs h only raw) = self_pid valid raw.
  Proof. unfold self_pid, classify. cbn. destruct (v_local raw) as [s|]; [|reflexivity]. cbn. unfold classify_self. destruct (vmatch _ _ _); reflexivity. Qed.

  Definition raw_ids (v : mview) : list pid := map p_pid (v_peers v).
  (** The peers that may be asked, before the limit. *)
  Definition askable (v : mview) : list pid :=
    List.filter (fun p => negb (bool_decide (Some p = self_pid valid v)))
      (omap (fun p => if bool_decide (p_type p = TValidator) && valid (p_pid p) then Some (p_pid p) else None) (v_peers v)).
  Lemma askable_In h only raw p :
    In p (askable (classify valid vs h only raw)) <-> In p (map fst vs) /\ In p (raw_ids raw) /\ Some p <> self_pid valid raw.
  Proof.
    unfold askable. rewrite filter_In, in_omap, self_classify. split.
    - intros [(q & Iq & Eq) Es]. cbn in Iq. apply filter_In in Iq. destruct Iq as [Iq _]. apply in_map_iff in Iq.
      destruct Iq as (x & <- & Ix). rewrite classify_pid in Eq. destruct (bool_decide (p_type (classify_peer valid vs x) = TValidator)) eqn:T; [|discriminate].
      apply bool_decide_eq_true in T. apply classify_val in T. cbn in Eq. destruct (valid (p_pid x)); [|discriminate]. injection Eq as <-.
      apply negb_true_iff, bool_decide_eq_false in Es. repeat split; auto. unfold raw_ids. apply in_map. exact Ix.
    - intros (Iv & Ir & Es). split; [|apply negb_true_iff, bool_decide_eq_false; exact Es]. unfold raw_ids in Ir. apply in_map_iff in Ir.
      destruct Ir as (x & <- & Ix). assert (T : p_type (classify_peer valid vs x) = TValidator) by (apply classify_val; exact Iv).
      exists (classify_peer valid vs x). split.
      + cbn. apply filter_In. split; [apply in_map; exact Ix|]. unfold keep. rewrite T. rewrite bool_decide_eq_true_2 by reflexivity.
        apply orb_true_r.
      + rewrite T, bool_decide_eq_true_2 by reflexivity. rewrite classify_pid, OKV by exact Iv. reflexivity.
  Qed.
  Lemma askable_nd h only raw : List.NoDup (raw_ids raw) -> List.NoDup (askable (classify valid vs h only raw)).
  Proof.
    intros N. unfold askable. apply filter_nd. apply omap_nd with (g := p_pid).
    - intros x y. destruct (_ && _); congruence.
    - cbn. unfold raw_ids in N. revert N. induction (v_peers raw) as [|x r IH]; cbn; [auto|]. intros N. inversion N as [|? ? N1 N2]; subst.
      destruct (keep only (classify_peer valid vs x)); [|auto]. cbn. constructor; [|auto]. rewrite classify_pid. intros I.
      apply in_map_iff in I. destruct I as (y & Ey & Iy). apply filter_In in Iy. destruct Iy as [Iy _]. apply in_map_iff in Iy.
      destruct Iy as (z & <- & Iz). rewrite classify_pid in Ey. apply N1. rewrite <- Ey. apply in_map. exact Iz.
  Qed.
  Lemma take_In {A} n (l : list A) x : In x (take n l) -> In x l.
  Proof. rewrite <- !elem_of_list_In. apply elem_of_take_inv || (intros H; apply elem_of_take in H; destruct H as (i & H & _); eapply elem_of_list_lookup_2; exact H). Qed.
  Lemma seed_In h only raw p :
    In p (seed valid (classify valid vs h only raw)) -> In p (map fst vs) /\ In p (raw_ids raw) /\ Some p <> self_pid valid raw.
  Proof. intros H. apply askable_In with h only. exact (take_In _ _ _ H). Qed.
  Lemma seed_nd h only raw : List.NoDup (raw_ids raw) -> List.NoDup (seed valid (classify valid vs h only raw)).
  Proof.
    intros N. unfold seed. change (List.NoDup (take MAX_QUERIED (askable (classify valid vs h only raw)))).
    pose proof (askable_nd h only raw N) as A. revert A. generalize (askable (classify valid vs h only raw)) MAX_QUERIED.
    intros l n. revert n. induction l as [|x r IH]; intros [|n] A; cbn; try constructor; inversion A; subst; auto.
    intros I. apply take_In in I. auto.
  Qed.
  Lemma seed_all h only raw :
    List.NoDup (raw_ids raw) -> (length vs <= 256)%nat -> seed valid (classify valid vs h only raw) = askable (classify valid vs h only raw).
  Proof.
    intros N L. change (take MAX_QUERIED (askable (classify valid vs h only raw)) = askable (classify valid vs h only raw)). apply take_ge.
    transitivity (length vs); [|exact L]. rewrite <- (map_length fst vs). apply List.NoDup_incl_length; [apply askable_nd; exact N|].
    intros p I. apply askable_In in I. tauto.
  Qed.
End Classify.

(** ** The registry *)
Definition sound_reg (P : known -> Prop) (r : registry) : Prop :=
  (forall k n, by_key r !! k = Some n -> P n /\ exists k', k_key n = Some k' /\ k' <> [] /\ lower k' = k) /\
  (forall p n, by_pid r !! p = Some n -> P n /\ k_pid n = Some p /\ p <> []).
Lemma usable_spec o k : usable o = Some k <-> o = Some k /\ k <> [].
Proof. destruct o as [[|x l]|]; cbn; split; try (intros [? ?]; congruence); try discriminate. intros H. split; congruence. Qed.
Lemma insert_sound (P : known -> Prop) r n : sound_reg P r -> P n -> sound_reg P (r_insert r n).
Proof.
  intros [S1 S2] Pn. split; cbn.
  - intros k m. destruct (usable (k_key n)) as [k'|] eqn:E; [|apply S1]. apply usable_spec in E. destruct E as [E1 E2].
    rewrite lookup_insert_Some. intros [[<- <-]|[_ H]]; [split; [exact Pn|eauto]|apply S1; exact H].
  - intros p m. destruct (usable (k_pid n)) as [p'|] eqn:E; [|apply S2]. apply usable_spec in E. destruct E as [E1 E2].
    rewrite lookup_insert_Some. intros [[<- <-]|[_ H]]; [auto|apply S2; exact H].
Qed.
Lemma remove_sub r n :
  (forall k m, by_key (r_remove r n) !! k = Some m -> by_key r !! k = Some m) /\
  (forall p m, by_pid (r_remove r n) !! p = Some m -> by_pid r !! p = Some m).
Proof.
  unfold r_remove. destruct (r_existing r n) as [e|]; [|auto]. cbn. split.
  - intros k m. destruct (k_key e); [|auto]. rewrite lookup_delete_Some. tauto.
  - intros p m. destruct (k_pid e); [|auto]. rewrite lookup_delete_Some. tauto.
Qed.
Lemma remove_sound P r n : sound_reg P r -> sound_reg P (r_remove r n).
Proof. intros [S1 S2]. destruct (remove_sub r n) as [R1 R2]. split; intros; [apply S1|apply S2]; auto. Qed.
Lemma add_sound (P : known -> Prop) r n : sound_reg P r -> P n -> sound_reg P (r_add r n).
Proof.
  intros S Pn. unfold r_add. destruct (k_key n), (k_pid n); auto; apply insert_sound; auto using remove_sound.
Qed.
Lemma foldl_sound (P : known -> Prop) f l r :
  (forall r n, sound_reg P r -> P n -> sound_reg P (f r n)) -> Forall P l -> sound_reg P r -> sound_reg P (foldl f r l).
Proof. intros F. revert r. induction l as [|x l IH]; intros r A S; cbn; [exact S|]. inversion A; subst. apply IH; auto. Qed.
Lemma config_sound b c : sound_reg (fun n => In n (b ++ c)) (r_config b c).
Proof.
  unfold r_config. apply foldl_sound.
  - intros; apply add_sound; auto.
  - apply Forall_forall. intros x. rewrite elem_of_list_In. intros I. apply in_or_app. auto.
  - unfold r_builtin. apply foldl_sound.
    + intros; apply insert_sound; auto.
    + apply Forall_forall. intros x. rewrite elem_of_list_In. intros I. apply in_or_app. auto.
    + split; intros ? ? H; cbn in H; rewrite lookup_empty in H; discriminate.
Qed.

(** Every entry can be found by each of its keys. *)
Definition whole (r : registry) : Prop :=
  (forall k n, by_key r !! k = Some n -> forall p, usable (k_pid n) = Some p -> by_pid r !! p = Some n) /\
  (forall p n, by_pid r !! p = Some n -> forall k, usable (k_key n) = Some k -> by_key r !! lower k = Some n).
(** The entry does not carry the key of one known node and the peer id of another. *)
Definition agrees (r : registry) (n : known) : Prop :=
  forall k p e1 e2, usable (k_key n) = Some k -> usable (k_pid n) = Some p ->
  by_key r !! lower k = Some e1 -> by_pid r !! p = Some e2 -> e1 = e2.
Lemma usable_lower_nil k : k <> [] -> lower k <> [].
Proof. destruct k; [congruence|discriminate]. Qed.

(** After the removal nothing of the new entry's keys is left, and nothing of the old entry. *)
Lemma remove_whole P r n : sound_reg P r -> whole r -> agrees r n ->
  whole (r_remove r n) /\
  (forall k, usable (k_key n) = Some k -> by_key (r_remove r n) !! lower k = None) /\
  (forall p, usable (k_pid n) = Some p -> by_pid (r_remove r n) !! p = None) /\
  (forall e, r_existing r n = Some e ->
     (forall k, by_key (r_remove r n) !! k <> Some e) /\ (forall p, by_pid (r_remove r n) !! p <> Some e)).
Proof.
  intros [S1 S2] [W1 W2] A. unfold r_remove. destruct (r_existing r n) as [e|] eqn:E.
  - (* where the old entry sits *)
    assert (Hk : forall k, by_key r !! k = Some e -> k_key e <> None /\ forall k', k_key e = Some k' -> k = lower k').
    { intros k H. apply S1 in H. destruct H as (_ & k' & H1 & H2 & H3). split; [congruence|]. intros k2 H4. congruence. }
    assert (Hp : forall p, by_pid r !! p = Some e -> k_pid e = Some p).
    { intros p H. apply S2 in H. tauto. }
    assert (Own : (forall k, usable (k_key e) = Some k -> by_key r !! lower k = Some e) /\ (forall p, usable (k_pid e) = Some p -> by_pid r !! p = Some e)).
    { unfold r_existing in E. destruct (match usable (k_key n) with Some k => by_key r !! lower k | None => None end) as [e0|] eqn:E1.
      - injection E as ->. destruct (usable (k_key n)) as [k|]; [|discriminate]. split; [|apply (W1 _ _ E1)].
        intros k' Hk'. apply usable_spec in Hk'. destruct Hk' as [Hk' _]. destruct (Hk _ E1) as [_ Q]. rewrite <- (Q _ Hk'). exact E1.
      - destruct (usable (k_pid n)) as [p|]; [|discriminate]. split; [apply (W2 _ _ E)|]. intros p' Hp'. apply usable_spec in Hp'.
        destruct Hp' as [Hp' _]. rewrite (Hp _ E) in Hp'. injection Hp' as <-. exact E. }
    destruct Own as [OwnK OwnP].
    assert (DK : forall k m, (match k_key e with Some k => delete (lower k) (by_key r) | None => by_key r end) !! k = Some m <-> by_key r !! k = Some m /\ m <> e).
    { intros k m. split.
      - intros H. assert (Hr : by_key r !! k = Some m). { destruct (k_key e); [apply lookup_delete_Some in H; tauto|exact H]. }
        split; [exact Hr|]. intros ->. destruct (Hk _ Hr) as [N Q]. destruct (k_key e) as [k'|]; [|congruence]. apply lookup_delete_Some in H.
        destruct H as [H _]. apply H. symmetry. auto.
      - intros [H N]. destruct (k_key e) as [k'|] eqn:Ek; [|exact H]. apply lookup_delete_Some. split; [|exact H]. intros <-.
        destruct (S1 _ _ H) as (_ & k2 & H1 & H2 & H3). assert (N0 : k' <> []).
        { intros ->. destruct k2; [congruence|discriminate]. }
        rewrite (OwnK k') in H; [congruence|]. apply usable_spec. auto. }
    assert (DP : forall p m, (match k_pid e with Some p => delete p (by_pid r) | None => by_pid r end) !! p = Some m <-> by_pid r !! p = Some m /\ m <> e).
    { intros p m. split.
      - intros H. assert (Hr : by_pid r !! p = Some m). { destruct (k_pid e); [apply lookup_delete_Some in H; tauto|exact H]. }
        split; [exact Hr|]. intros ->. rewrite (Hp _ Hr) in H. apply lookup_delete_Some in H. destruct H as [H _]. apply H. reflexivity.
      - intros [H N]. destruct (k_pid e) as [p'|] eqn:Ep; [|exact H]. apply lookup_delete_Some. split; [|exact H]. intros <-.
        destruct (S2 _ _ H) as (_ & H1 & H2). rewrite (OwnP p') in H; [congruence|]. apply usable_spec. auto. }
    cbn. split; [split|split; [|split]].
    + intros k m H p Hu. apply DK in H. apply DP. destruct H as [H N]. eauto.
    + intros p m H k Hu. apply DP in H. apply DK. destruct H as [H N]. eauto.
    + intros k Hu. destruct (_ !! lower k) as [m|] eqn:H; [|reflexivity]. apply DK in H. destruct H as [H N]. exfalso.
      unfold r_existing in E. rewrite Hu, H in E. congruence.
    + intros p Hu. destruct (_ !! p) as [m|] eqn:H; [|reflexivity]. apply DP in H. destruct H as [H N]. exfalso. unfold r_existing in E.
      destruct (usable (k_key n)) as [k|] eqn:Ek.
      * destruct (by_key r !! lower k) as [e0|] eqn:E0; [|rewrite Hu in E; congruence]. injection E as ->. apply N. symmetry. eapply A; eauto.
      * rewrite Hu in E. congruence.
    + intros e' Ee. injection Ee as <-. split.
      * intros k H. apply DK in H. tauto.
      * intros p H. apply DP in H. tauto.
  - unfold r_existing in E. split; [split; auto|]. split; [|split; [|discriminate]].
    + intros k Hu. rewrite Hu in E. destruct (by_key r !! lower k); [discriminate|reflexivity].
    + intros p Hu. destruct (match usable (k_key n) with Some k => by_key r !! lower k | None => None end); [discriminate|]. rewrite Hu in E. exact E.
Qed.
Lemma insert_whole r n : whole r ->
  (forall k, usable (k_key n) = Some k -> by_key r !! lower k = None) -> (forall p, usable (k_pid n) = Some p -> by_pid r !! p = None) ->
  whole (r_insert r n).
Proof.
  intros [W1 W2] F1 F2. split; cbn.
  - intros k m H p Hu. destruct (usable (k_key n)) as [k'|] eqn:Ek.
    + apply lookup_insert_Some in H. destruct H as [[<- <-]|[N H]].
      * rewrite Hu. apply lookup_insert.
      * specialize (W1 _ _ H _ Hu). destruct (usable (k_pid n)) as [p'|] eqn:Ep; [|exact W1]. rewrite lookup_insert_ne; [exact W1|].
        intros ->. rewrite F2 in W1 by reflexivity. discriminate.
    + specialize (W1 _ _ H _ Hu). destruct (usable (k_pid n)) as [p'|] eqn:Ep; [|exact W1]. rewrite lookup_insert_ne; [exact W1|].
      intros ->. rewrite F2 in W1 by reflexivity. discriminate.
  - intros p m H k Hu. destruct (usable (k_pid n)) as [p'|] eqn:Ep.
    + apply lookup_insert_Some in H. destruct H as [[<- <-]|[N H]].
      * rewrite Hu. apply lookup_insert.
      * specialize (W2 _ _ H _ Hu). destruct (usable (k_key n)) as [k'|] eqn:Ek; [|exact W2]. destruct (decide (lower k' = lower k)) as [Eq|Ne].
        -- rewrite <- Eq, F1 in W2 by reflexivity. discriminate.
        -- rewrite lookup_insert_ne; [exact W2|exact Ne].
    + specialize (W2 _ _ H _ Hu). destruct (usable (k_key n)) as [k'|] eqn:Ek; [|exact W2]. destruct (decide (lower k' = lower k)) as [Eq|Ne].
      -- rewrite <- Eq, F1 in W2 by reflexivity. discriminate.
      -- rewrite lookup_insert_ne; [exact W2|exact Ne].
Qed.
Lemma add_whole P r n : sound_reg P r -> whole r -> agrees r n -> whole (r_add r n).
Proof.
  intros S W A. destruct (remove_whole P r n S W A) as (W' & F1 & F2 & _). pose proof (insert_whole _ _ W' F1 F2) as I.
  unfold r_add. destruct (k_key n), (k_pid n); auto.
Qed.
