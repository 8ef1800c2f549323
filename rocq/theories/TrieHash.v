(** Equal root hashes of different key sets expose a hash collision. *)
From Verif Require Export TrieTop.
From Coq Require Import ZifyN ZifyNat ZifyBool.
#[local] Open Scope N_scope.
Implicit Types (p q k : bytes) (c : N) (d idx : nat) (X Y : gset bytes).

Lemma concat_blocks (L : nat) (l1 l2 : list bytes) : (0 < L)%nat ->
  Forall (fun x => length x = 0%nat \/ length x = L) l1 -> Forall (fun x => length x = 0%nat \/ length x = L) l2 ->
  concat l1 = concat l2 -> forall x, x <> [] -> x ∈ l1 -> x ∈ l2.
Proof.
  intros HL H1; revert l2; induction H1 as [|a l1 Ha H1 IH]; intros l2 H2 E x Hx Hin; [inversion Hin|].
  destruct Ha as [Ha|Ha].
  { destruct a; [|done]. apply elem_of_cons in Hin as [->|Hin]; [done|]. by apply IH. }
  induction H2 as [|b l2 Hb H2 IH2].
  - exfalso. cbn in E. apply (f_equal length) in E. rewrite app_length in E. cbn in E. lia.
  - destruct Hb as [Hb|Hb].
    + destruct b; [|done]. right. by apply IH2.
    + cbn [concat] in E. apply app_inj_1 in E as [-> E]; [|congruence].
      apply elem_of_cons in Hin as [->|Hin]; [left|right; by apply IH].
Qed.
Lemma concat_blocks_len (L : nat) (l : list bytes) : Forall (fun x => length x = 0%nat \/ length x = L) l ->
  exists m, length (concat l) = (m * L)%nat.
Proof.
  induction 1 as [|a l Ha _ [m IH]]; [by exists 0%nat|]. cbn. rewrite app_length, IH.
  destruct Ha as [->| ->]; [by exists m|exists (S m); lia].
Qed.

Section Hash.
  Variable H : bytes -> bytes.
  Variable U : gset bytes.
  Variable L : nat.
  Hypothesis L_pos : (0 < L)%nat.
  Hypothesis H_len : forall x, length (H x) = L.
  Hypothesis U_len : forall k, k ∈ U -> (12 <= length k)%nat.
  Hypothesis U_pf : forall a b, a ∈ U -> b ∈ U -> a `prefix_of` b -> a = b.
  Hypothesis U_nib : forall k, k ∈ U -> forall (i : nat) c, k !! i = Some c -> c < 16.
  (** A key cannot be mistaken for a concatenation of hashes. *)
  Hypothesis U_block : forall k (m : nat), k ∈ U -> length k <> (m * L)%nat.

  Let H_ne : forall x, H x <> [].
  Proof. intros x E. specialize (H_len x). rewrite E in H_len. cbn in H_len. lia. Qed.

  Lemma shash_len f d X : length (shash H f d X) = 0%nat \/ length (shash H f d X) = L.
  Proof. destruct f; cbn [shash]; [by left|]. destruct (decide _); [by left|]. destruct (_ && _); right; apply H_len. Qed.

  Definition collide f d X Y : Prop :=
    exists x y, x ∈ hashed H f d X /\ y ∈ hashed H f d Y /\ x <> y /\ H x = H y.

  Lemma collide_sym f d X Y : collide f d X Y -> collide f d Y X.
  Proof. intros (x & y & ? & ? & ? & ?). exists y, x. auto. Qed.

  Lemma shash_collide f : forall p q X Y, length p = length q -> X ⊆ U -> Y ⊆ U ->
    (forall k, k ∈ X -> p `prefix_of` k /\ length k < length p + f)%nat ->
    (forall k, k ∈ Y -> q `prefix_of` k /\ length k < length p + f)%nat ->
    X <> Y -> shash H f (length p) X = shash H f (length p) Y -> collide f (length p) X Y.
  Proof.
    induction f as [|f IH]; intros p q X Y Hpq HX HY HpX HpY Hne E.
    { exfalso. apply Hne. apply set_eq. intros k. split; intros Hk.
      - apply HpX in Hk as [Hk ?]. apply prefix_length in Hk. lia.
      - apply HpY in Hk as [Hk ?]. apply prefix_length in Hk. lia. }
    destruct (decide (X = ∅)) as [->|HXe].
    { exfalso. rewrite shash_empty in E. symmetry in E. by apply shash_ne in E. }
    destruct (decide (Y = ∅)) as [->|HYe].
    { exfalso. rewrite shash_empty in E. by apply shash_ne in E. }
    unfold collide. cbn [shash hashed] in *.
    rewrite !decide_False in * by done.
    pose (lst Z := map (fun c => shash H f (S (length p)) (sub (length p) c Z)) (nrange 16 0)).
    pose (hl Z := concat (map (fun c => hashed H f (S (length p)) (sub (length p) c Z)) (nrange 16 0))).
    assert (Hbl : forall Z, Forall (fun x => length x = 0%nat \/ length x = L) (lst Z)).
    { intros Z. apply Forall_forall. intros x Hx. unfold lst in Hx. apply elem_of_list_fmap in Hx as (c & -> & _). apply shash_len. }
    assert (Hkey : forall Z, size Z = 1%nat -> Z ⊆ U -> exists k, Z = {[k]} /\ k ∈ U /\ the_key Z = k).
    { intros Z Hz HZ. apply size_1_singleton in Hz as [k ->]. exists k. split; [done|]. rewrite the_key_singleton. split; [|done]. apply HZ. ssolve. }
    assert (Hrange : forall c, c < 16 -> c ∈ nrange 16 0).
    { intros c Hc. apply nrange_elem. lia. }
    destruct (Nat.leb 12 (length p) && Nat.eqb (size X) 1) eqn:EX;
      destruct (Nat.leb 12 (length p) && Nat.eqb (size Y) 1) eqn:EY.
    - apply andb_prop in EX as [_ EX]. apply andb_prop in EY as [_ EY]. apply Nat.eqb_eq in EX, EY.
      destruct (Hkey X EX HX) as (kx & -> & _ & E1). destruct (Hkey Y EY HY) as (ky & -> & _ & E2).
      rewrite E1, E2 in *.
      exists kx, ky. split; [left|]. split; [left|]. split; [|done]. intros ->. done.
    - apply andb_prop in EX as [_ EX]. apply Nat.eqb_eq in EX.
      destruct (Hkey X EX HX) as (kx & -> & HkU & Ek). rewrite Ek in E |- *. fold (lst Y) (hl Y) in E |- *.
      exists kx, (concat (lst Y)). split; [left|]. split; [left|]. split; [|done].
      intros ->. destruct (concat_blocks_len L (lst Y) (Hbl Y)) as [m Hm]. by apply (U_block _ m HkU).
    - apply andb_prop in EY as [_ EY]. apply Nat.eqb_eq in EY.
      destruct (Hkey Y EY HY) as (ky & -> & HkU & Ek). rewrite Ek in E |- *. fold (lst X) (hl X) in E |- *.
      exists (concat (lst X)), ky. split; [left|]. split; [left|]. split; [|done].
      intros <-. destruct (concat_blocks_len L (lst X) (Hbl X)) as [m Hm]. by apply (U_block _ m HkU).
    - fold (lst X) (lst Y) (hl X) (hl Y) in E |- *.
      destruct (decide (concat (lst X) = concat (lst Y))) as [Ec|Ec].
      2:{ exists (concat (lst X)), (concat (lst Y)). split; [left|]. split; [left|]. done. }
      (* one direction, used twice *)
      assert (Hdir : forall A B p' q', length p' = length p -> length q' = length p -> A ⊆ U -> B ⊆ U ->
        (12 <= length p -> size A <> 1)%nat ->
        (forall k, k ∈ A -> p' `prefix_of` k /\ length k < length p + S f)%nat ->
        (forall k, k ∈ B -> q' `prefix_of` k /\ length k < length p + S f)%nat ->
        concat (lst A) = concat (lst B) -> forall k, k ∈ A -> k ∉ B ->
        exists x y, x ∈ hl A /\ y ∈ hl B /\ x <> y /\ H x = H y).
      { intros A B p' q' Hp' Hq' HA HB Hsz HpA HpB EAB k HkA HkB.
        assert (Hl : (length p < length k)%nat).
        { rewrite <- Hp'. eapply inner_len with (X := A); try done; [intros k' Hk'; by apply HpA|by rewrite Hp']. }
        destruct (lookup_lt_is_Some_2 k (length p) Hl) as [c Hc].
        assert (Hcr : c ∈ nrange 16 0) by (apply Hrange; eapply U_nib; [by apply HA|done]).
        assert (HkS : k ∈ sub (length p) c A) by by apply elem_sub.
        assert (Hf : exists f1, f = S f1) by (destruct f as [|f1]; [specialize (HpA k HkA); lia|by exists f1]).
        destruct Hf as [f1 ->].
        assert (Hin : shash H (S f1) (S (length p)) (sub (length p) c A) ∈ lst B).
        { apply (concat_blocks L (lst A)); [done|done|done|done| |].
          - apply shash_ne; [done|]. intros Es. rewrite Es in HkS. ssolve.
          - unfold lst. apply elem_of_list_fmap. exists c. done. }
        unfold lst in Hin. apply elem_of_list_fmap in Hin as (c' & Es & Hc').
        pose proof (IH (p' ++ [c]) (q' ++ [c']) (sub (length p) c A) (sub (length p) c' B)) as IHc.
        rewrite !app_length, Hp', Hq', Nat.add_1_r in IHc. feed specialize IHc.
        { cbn. lia. }
        { intros k' Hk'. apply HA. by apply (sub_subseteq _ _ _ _ Hk'). }
        { intros k' Hk'. apply HB. by apply (sub_subseteq _ _ _ _ Hk'). }
        { intros k' Hk'. apply elem_sub in Hk' as [Hk1 Hk2]. apply HpA in Hk1 as [? ?]. split; [|lia].
          apply prefix_snoc. by rewrite Hp'. }
        { intros k' Hk'. apply elem_sub in Hk' as [Hk1 Hk2]. apply HpB in Hk1 as [? ?]. split; [|lia].
          apply prefix_snoc. by rewrite Hq'. }
        { intros Eq. apply HkB. rewrite Eq in HkS. by apply elem_sub in HkS as [? _]. }
        { exact Es. }
        destruct IHc as (x & y & Hx & Hy & Hxy & Hh). exists x, y. unfold hl.
        split; [|split; [|done]]; apply elem_of_list_In, in_concat; eexists; (split; [|by apply elem_of_list_In]);
          apply elem_of_list_In, elem_of_list_fmap; eauto. }
      assert (HszX : (12 <= length p -> size X <> 1)%nat).
      { intros Hd Hs. rewrite (proj2 (Nat.leb_le _ _) Hd), Hs in EX. done. }
      assert (HszY : (12 <= length p -> size Y <> 1)%nat).
      { intros Hd Hs. rewrite (proj2 (Nat.leb_le _ _) Hd), Hs in EY. done. }
      destruct (decide (X ⊆ Y)) as [Hs|Hs].
      + assert (exists k, k ∈ Y /\ k ∉ X) as (k & Hk1 & Hk2).
        { destruct (decide (Y ⊆ X)) as [Hs2|Hs2]; [destruct Hne; by apply set_eq_subseteq|].
          assert (Y ∖ X <> ∅) as Hd by (intros Ed; apply Hs2; intros k Hk; destruct (decide (k ∈ X)); [done|]; assert (k ∈ Y ∖ X) as Hi by (by apply elem_of_difference); rewrite Ed in Hi; ssolve).
          apply set_choose_L in Hd as [k Hk]. apply elem_of_difference in Hk. eauto. }
        destruct (Hdir Y X q p) with (k := k) as (x & y & ? & ? & ? & ?); try done.
        exists y, x. split; [by right|]. split; [by right|]. auto.
      + assert (exists k, k ∈ X /\ k ∉ Y) as (k & Hk1 & Hk2).
        { assert (X ∖ Y <> ∅) as Hd by (intros Ed; apply Hs; intros k Hk; destruct (decide (k ∈ Y)); [done|]; assert (k ∈ X ∖ Y) as Hi by (by apply elem_of_difference); rewrite Ed in Hi; ssolve).
          apply set_choose_L in Hd as [k Hk]. apply elem_of_difference in Hk. eauto. }
        destruct (Hdir X Y p q) with (k := k) as (x & y & ? & ? & ? & ?); try done.
        exists x, y. split; [by right|]. split; [by right|]. auto.
  Qed.
End Hash.
