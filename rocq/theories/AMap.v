(** Sorted association lists indexed by a byte: models Rust's [HashMap<u8, _>] inside an inductive type.
    [aset] keeps the list sorted, so the list is canonical and [akeys] is the sorted key list. *)
From Verif Require Export Base.
From Coq Require Import ZifyN ZifyNat ZifyBool.

Notation amap A := (list (N * A)).

Section AMap.
  Context {A : Type}.
  Implicit Types m : amap A.

  Fixpoint aget (c : N) m : option A :=
    match m with
    | [] => None
    | (k, v) :: r => if k =? c then Some v else aget c r
    end.
  Fixpoint aset (c : N) (x : A) m : amap A :=
    match m with
    | [] => [(c, x)]
    | (k, v) :: r =>
        if k =? c then (c, x) :: r
        else if c <? k then (c, x) :: (k, v) :: r
        else (k, v) :: aset c x r
    end.
  Fixpoint adel (c : N) m : amap A :=
    match m with
    | [] => []
    | (k, v) :: r => if k =? c then r else (k, v) :: adel c r
    end.
  Definition akeys m : list N := map fst m.

  Definition asorted m : Prop := StronglySorted N.lt (akeys m).

  Lemma aget_aset c x m : aget c (aset c x m) = Some x.
  Proof.
    induction m as [|[k v] m IH]; cbn [aset aget]; [by rewrite N.eqb_refl|].
    destruct (N.eqb_spec k c) as [->|Hn]; cbn [aget]; [by rewrite N.eqb_refl|].
    destruct (N.ltb_spec c k); cbn [aget].
    - by rewrite N.eqb_refl.
    - destruct (N.eqb_spec k c); [done|]. done.
  Qed.
  Lemma aget_aset_ne c c' x m : c <> c' -> aget c' (aset c x m) = aget c' m.
  Proof.
    intros Hc. induction m as [|[k v] m IH]; cbn [aset aget].
    - by destruct (N.eqb_spec c c').
    - destruct (N.eqb_spec k c) as [->|Hn]; cbn [aget].
      + by destruct (N.eqb_spec c c').
      + destruct (N.ltb_spec c k); cbn [aget].
        * by destruct (N.eqb_spec c c').
        * by rewrite IH.
  Qed.
  Lemma aget_adel_ne c c' m : c <> c' -> aget c' (adel c m) = aget c' m.
  Proof.
    intros Hc. induction m as [|[k v] m IH]; cbn [adel aget]; [done|].
    destruct (N.eqb_spec k c) as [->|Hn]; cbn [aget].
    - by destruct (N.eqb_spec c c').
    - by rewrite IH.
  Qed.
  Lemma aget_None_keys c m : aget c m = None <-> c ∉ akeys m.
  Proof.
    induction m as [|[k v] m IH]; cbn [aget akeys map fst].
    - split; [intros _ H; inversion H|done].
    - rewrite not_elem_of_cons. fold (akeys m). rewrite <- IH.
      destruct (N.eqb_spec k c) as [->|Hn]; [naive_solver|]. naive_solver.
  Qed.
  Lemma aget_Some_keys c m x : aget c m = Some x -> c ∈ akeys m.
  Proof.
    intros E. destruct (decide (c ∈ akeys m)) as [|Hn]; [done|].
    apply aget_None_keys in Hn. congruence.
  Qed.
  Lemma elem_of_akeys c m : c ∈ akeys m <-> is_Some (aget c m).
  Proof.
    split; [|intros [x E]; by eapply aget_Some_keys].
    intros H. destruct (aget c m) eqn:E; [eauto|]. by apply aget_None_keys in E.
  Qed.
  Lemma akeys_aset_elem c x m k : k ∈ akeys (aset c x m) <-> k = c \/ k ∈ akeys m.
  Proof.
    rewrite !elem_of_akeys. destruct (decide (c = k)) as [->|Hn].
    - rewrite aget_aset. naive_solver.
    - rewrite aget_aset_ne by done. naive_solver.
  Qed.
  Lemma akeys_adel_elem c m k : k ∈ akeys (adel c m) -> k ∈ akeys m.
  Proof.
    induction m as [|[k0 v] m IH]; cbn [adel akeys map fst]; [done|].
    destruct (N.eqb_spec k0 c) as [->|Hn]; intros H; [by right|].
    cbn [map fst] in H. rewrite elem_of_cons in *. naive_solver.
  Qed.
  Lemma SS_cons_iff k (l : list N) : StronglySorted N.lt (k :: l) <-> (forall x, x ∈ l -> k < x) /\ StronglySorted N.lt l.
  Proof.
    split.
    - intros H. inversion H as [|? ? H1 H2]; subst. split; [|done].
      rewrite Forall_forall in H2. done.
    - intros [H1 H2]. constructor; [done|]. by apply Forall_forall.
  Qed.
  Lemma aset_sorted c x m : asorted m -> asorted (aset c x m).
  Proof.
    unfold asorted. induction m as [|[k v] m IH]; intros Hs.
    - cbn. repeat constructor.
    - cbn [akeys map fst] in Hs. apply SS_cons_iff in Hs as [H1 H2]. fold (akeys m) in *.
      cbn [aset]. destruct (N.eqb_spec k c) as [->|Hn].
      + cbn [akeys map fst]. by apply SS_cons_iff.
      + destruct (N.ltb_spec c k).
        * cbn [akeys map fst]. apply SS_cons_iff. split; [|by apply SS_cons_iff].
          intros y. rewrite elem_of_cons. intros [->|Hy]; [done|]. specialize (H1 y Hy). lia.
        * cbn [akeys map fst]. fold (akeys (aset c x m)). apply SS_cons_iff. split; [|auto].
          intros y. rewrite akeys_aset_elem. intros [->|Hy]; [lia|auto].
  Qed.
  Lemma adel_sorted c m : asorted m -> asorted (adel c m).
  Proof.
    unfold asorted. induction m as [|[k v] m IH]; intros Hs; [done|].
    cbn [akeys map fst] in Hs. apply SS_cons_iff in Hs as [H1 H2]. fold (akeys m) in *.
    cbn [adel]. destruct (N.eqb_spec k c) as [->|Hn]; [done|].
    cbn [akeys map fst]. fold (akeys (adel c m)). apply SS_cons_iff. split; [|auto].
    intros y Hy. apply akeys_adel_elem in Hy. auto.
  Qed.
  Lemma aget_adel c m : asorted m -> aget c (adel c m) = None.
  Proof.
    unfold asorted. induction m as [|[k v] m IH]; intros Hs; [done|].
    cbn [akeys map fst] in Hs. apply SS_cons_iff in Hs as [H1 H2]. fold (akeys m) in *.
    cbn [adel]. destruct (N.eqb_spec k c) as [->|Hn].
    - apply aget_None_keys. intros H. specialize (H1 c H). lia.
    - cbn [aget]. destruct (N.eqb_spec k c); [done|]. auto.
  Qed.
  Lemma asorted_NoDup m : asorted m -> NoDup (akeys m).
  Proof.
    unfold asorted. generalize (akeys m). induction l as [|k l IH]; intros H; [constructor|].
    apply SS_cons_iff in H as [H1 H2]. constructor; [|auto]. intros Hk. specialize (H1 k Hk). lia.
  Qed.
  Lemma asorted_nil : asorted [].
  Proof. constructor. Qed.

  Lemma aget_all_None m : (forall c, aget c m = None) -> m = [].
  Proof.
    destruct m as [|[k v] m]; [done|]. intros H. specialize (H k). cbn in H. by rewrite N.eqb_refl in H.
  Qed.
  Lemma aget_head k v m : aget k ((k, v) :: m) = Some v.
  Proof. cbn. by rewrite N.eqb_refl. Qed.
  Lemma asorted_tail k v m : asorted ((k, v) :: m) -> asorted m /\ forall x, x ∈ akeys m -> k < x.
  Proof. unfold asorted. cbn [akeys map fst]. intros [H1 H2]%SS_cons_iff. done. Qed.

  Lemma amap_ext m1 m2 : asorted m1 -> asorted m2 -> (forall c, aget c m1 = aget c m2) -> m1 = m2.
  Proof.
    revert m2; induction m1 as [|[k1 v1] m1 IH]; intros m2 S1 S2 H.
    - symmetry. apply aget_all_None. intros c. by rewrite <- H.
    - destruct m2 as [|[k2 v2] m2].
      { specialize (H k1). rewrite aget_head in H. done. }
      apply asorted_tail in S1 as [S1 L1]. apply asorted_tail in S2 as [S2 L2].
      assert (k1 = k2) as <-.
      { destruct (N.lt_trichotomy k1 k2) as [Hl|[E|Hl]]; [|done|].
        - pose proof (H k1) as Hk. rewrite aget_head in Hk. symmetry in Hk. cbn [aget] in Hk.
          destruct (N.eqb_spec k2 k1); [lia|]. apply aget_Some_keys in Hk. specialize (L2 _ Hk). lia.
        - pose proof (H k2) as Hk. rewrite aget_head in Hk. cbn [aget] in Hk.
          destruct (N.eqb_spec k1 k2); [lia|]. apply aget_Some_keys in Hk. specialize (L1 _ Hk). lia. }
      pose proof (H k1) as Hk. rewrite !aget_head in Hk. injection Hk as ->. f_equal.
      apply IH; [done..|]. intros c. specialize (H c). cbn [aget] in H.
      destruct (N.eqb_spec k1 c) as [->|]; [|done].
      transitivity (@None A); [|symmetry]; apply aget_None_keys; intros Hin; [specialize (L1 _ Hin)|specialize (L2 _ Hin)]; lia.
  Qed.
End AMap.

Lemma aget_map {A B} (f : A -> B) (m : amap A) c : aget c (map (fun '(k, v) => (k, f v)) m) = f <$> aget c m.
Proof. induction m as [|[k v] m IH]; cbn; [done|]. destruct (N.eqb_spec k c); [done|]. done. Qed.
Lemma akeys_map {A B} (f : A -> B) (m : amap A) : akeys (map (fun '(k, v) => (k, f v)) m) = akeys m.
Proof. unfold akeys. rewrite map_map. apply map_ext. by intros [k v]. Qed.

(** Concatenating the values of a sorted map over a range covering its keys. *)
Fixpoint nrange (n : nat) (start : N) : list N :=
  match n with O => [] | S n => start :: nrange n (start + 1) end.
Lemma nrange_elem n s x : x ∈ nrange n s <-> s <= x < s + N.of_nat n.
Proof.
  revert s; induction n as [|n IH]; intros s; cbn [nrange].
  - split; [intros H; inversion H|lia].
  - rewrite elem_of_cons, IH. lia.
Qed.
Lemma concat_range (m : amap bytes) (g : N -> bytes) n s :
  asorted m -> (forall c x, aget c m = Some x -> s <= c < s + N.of_nat n) ->
  (forall c, s <= c < s + N.of_nat n -> g c = default [] (aget c m)) ->
  concat (map g (nrange n s)) = concat (map snd m).
Proof.
  revert m s; induction n as [|n IH]; intros m s Hs Hr Hg.
  - destruct m as [|[k v] m]; [done|]. specialize (Hr k v (aget_head _ _ _)). lia.
  - cbn [nrange map concat]. rewrite (Hg s) by lia.
    destruct m as [|[k v] m].
    + cbn. rewrite (IH [] (s + 1)); [done|done|done|]. intros c Hc. apply Hg. lia.
    + apply asorted_tail in Hs as [Hs Hl].
      destruct (N.eqb_spec k s) as [->|Hn].
      * cbn [aget]. rewrite N.eqb_refl. cbn [default from_option map concat snd]. unfold id. f_equal. apply IH; [done| |].
        -- intros c x Hc. specialize (Hl c (aget_Some_keys _ _ _ Hc)).
           assert (aget c ((s, v) :: m) = Some x) as Hc' by (cbn [aget]; destruct (N.eqb_spec s c); [lia|done]).
           specialize (Hr _ _ Hc'). lia.
        -- intros c Hc. rewrite Hg by lia. cbn [aget]. destruct (N.eqb_spec s c); [lia|done].
      * pose proof (Hr k v (aget_head _ _ _)) as Hk.
        assert (aget s ((k, v) :: m) = None) as ->.
        { apply aget_None_keys. cbn [akeys map fst]. rewrite not_elem_of_cons. split; [done|].
          intros Hin. specialize (Hl _ Hin). lia. }
        cbn [default app]. apply IH; [| |].
        -- unfold asorted. cbn [akeys map fst]. by apply SS_cons_iff.
        -- intros c x Hc. pose proof (Hr _ _ Hc). apply aget_Some_keys in Hc. cbn [akeys map fst] in Hc.
           apply elem_of_cons in Hc as [->|Hin]; [lia|]. specialize (Hl _ Hin). lia.
        -- intros c Hc. apply Hg. lia.
Qed.
