(** Proofs about storage units. *)
From Verif Require Export Storage.
From Coq Require Import ZifyN ZifyNat ZifyBool.
#[local] Open Scope N_scope.

(** ** Sums *)
Definition sumN {A} (f : A -> N) (l : list A) : N := foldr (fun x n => f x + n) 0 l.
Lemma sumN_nil {A} (f : A -> N) : sumN f [] = 0. Proof. done. Qed.
Lemma sumN_cons {A} (f : A -> N) x l : sumN f (x :: l) = f x + sumN f l. Proof. done. Qed.
Lemma sumN_app {A} (f : A -> N) l k : sumN f (l ++ k) = sumN f l + sumN f k.
Proof. induction l as [|x l IH]; [done|]. cbn [app]. rewrite !sumN_cons, IH. lia. Qed.
Lemma sumN_perm {A} (f : A -> N) l k : l ≡ₚ k -> sumN f l = sumN f k.
Proof. induction 1; rewrite ?sumN_cons in *; try done; lia. Qed.
Lemma sumN_ext {A} (f g : A -> N) l : (forall x, x ∈ l -> f x = g x) -> sumN f l = sumN g l.
Proof.
  induction l as [|x l IH]; intros H; [done|]. rewrite !sumN_cons. rewrite H by left. f_equal. apply IH.
  intros y Hy. apply H. by right.
Qed.
Lemma sumN_map {A B} (g : A -> B) (f : B -> N) l : sumN f (map g l) = sumN (fun x => f (g x)) l.
Proof. induction l as [|x l IH]; [done|]. cbn [map]. by rewrite !sumN_cons, IH. Qed.
Lemma sumN_omap {A B} (g : A -> option B) (f : B -> N) l :
  sumN f (omap g l) = sumN (fun x => match g x with Some y => f y | None => 0 end) l.
Proof.
  induction l as [|x l IH]; [done|]. rewrite sumN_cons. cbn [omap list_omap]. destruct (g x) as [y|]; [rewrite sumN_cons|]; rewrite IH; lia.
Qed.
Lemma sumN_plus {A} (f g : A -> N) l : sumN (fun x => f x + g x) l = sumN f l + sumN g l.
Proof. induction l as [|x l IH]; [done|]. rewrite !sumN_cons, IH. lia. Qed.
Lemma sumN_swap {A B} (f : A -> B -> N) l k : sumN (fun x => sumN (f x) k) l = sumN (fun y => sumN (fun x => f x y) l) k.
Proof.
  induction l as [|x l IH]; cbn [sumN foldr].
  - induction k as [|y k IHk]; [done|]. rewrite sumN_cons, <- IHk. done.
  - rewrite sumN_plus. f_equal. exact IH.
Qed.
Lemma sumN_le {A} (f g : A -> N) l : (forall x, x ∈ l -> f x <= g x) -> sumN f l <= sumN g l.
Proof.
  induction l as [|x l IH]; intros H; [done|]. rewrite !sumN_cons. apply N.add_le_mono; [apply H; left|apply IH].
  intros y Hy. apply H. by right.
Qed.
Lemma sumN_in {A} (f : A -> N) l x : x ∈ l -> f x <= sumN f l.
Proof. induction 1 as [|? ? ? ? IH]; rewrite sumN_cons; lia. Qed.
Lemma sumN_zero {A} (l : list A) : sumN (fun _ => 0) l = 0.
Proof. induction l as [|x l IH]; [done|]. rewrite sumN_cons, IH. done. Qed.
(** Exactly one [f] of a duplicate-free list matches. *)
Lemma sumN_pick (F : list N) (g : N) (n : N) : NoDup F -> g ∈ F -> sumN (fun f => if g =? f then n else 0) F = n.
Proof.
  intros Hd Hi. induction Hd as [|f F Hn Hd IH]; [by apply elem_of_nil in Hi|]. rewrite sumN_cons.
  destruct (N.eqb_spec g f) as [->|Hne].
  - rewrite (sumN_ext _ (fun _ => 0)).
    + rewrite sumN_zero. lia.
    + intros x Hx. destruct (N.eqb_spec f x) as [<-|]; done.
  - apply elem_of_cons in Hi as [->|Hi]; [done|]. by rewrite IH.
Qed.

(** ** u32 *)
Lemma u32_lt x : u32 x < 2 ^ 32. Proof. unfold u32. by apply N.mod_lt. Qed.
Lemma u32_small x : x < 2 ^ 32 -> u32 x = x. Proof. apply N.mod_small. Qed.
Lemma u32_add x y : u32 (u32 x + y) = u32 (x + y). Proof. unfold u32. by apply N.add_mod_idemp_l. Qed.
Lemma wsub_exact a b : b <= a -> a < 2 ^ 32 -> wsub a b = a - b.
Proof.
  intros H1 H2. unfold wsub. rewrite (u32_small b) by lia. unfold u32.
  replace (a + 2 ^ 32 - b) with (a - b + 1 * 2 ^ 32) by lia. rewrite N.mod_add by done. apply N.mod_small. lia.
Qed.

(** ** Slots *)
Definition slot_ok (s : slot) : Prop := forall u, units_for s u < 2 ^ 32.
(** Units of a slot that count now. *)
Definition act (now : N) (u : utype) (s : slot) : N := if is_active now s then units_for s u else 0.

Lemma from_event_active_units mainnet v ts n u : units_for (from_event mainnet v ts n) u = 0 \/ units_for (from_event mainnet v ts n) u = n.
Proof.
  unfold from_event. destruct (ts <? LEGACY_CUTOFF); [destruct u; cbn; auto|].
  destruct (ts <? cutoff_2024 mainnet); [destruct u; cbn; auto|]. destruct (ts <? cutoff_2025 mainnet); destruct u; cbn; auto.
Qed.
Lemma from_lend_units u n u' : units_for (from_lend u n) u' = if bool_decide (u = u') then u32 n else 0.
Proof. by destruct u, u'. Qed.
Lemma from_lend_active now u n : is_active now (from_lend u n) = (u32 now <? U32_MAX).
Proof. by destruct u. Qed.

Lemma slot_merge_inactive now s o : is_active now o = false -> slot_merge now s o = s.
Proof. unfold slot_merge. by intros ->. Qed.
Lemma slot_merge_first now s o : is_active now s = false -> is_active now o = true -> slot_merge now s o = o.
Proof. unfold slot_merge. by intros -> ->. Qed.
Lemma slot_merge_units now s o u : is_active now s = true -> is_active now o = true ->
  units_for (slot_merge now s o) u = u32 (units_for s u + units_for o u).
Proof. unfold slot_merge. intros -> ->. by destruct u. Qed.
Lemma slot_merge_active now s o : is_active now (slot_merge now s o) = is_active now s || is_active now o.
Proof.
  unfold slot_merge. destruct (is_active now o) eqn:Eo; cbn [negb]; [|by rewrite orb_false_r].
  destruct (is_active now s) eqn:Es; cbn [negb orb]; [|done].
  unfold is_active in *. cbn. apply N.ltb_lt in Es, Eo. apply N.ltb_lt. lia.
Qed.

Lemma fold_merge now l s u : slot_ok s -> Forall slot_ok l ->
  let r := foldl (slot_merge now) s l in
  is_active now r = is_active now s || existsb (is_active now) l /\
  (is_active now r = true -> units_for r u = u32 (act now u s + sumN (act now u) l)) /\
  (is_active now r = false -> r = s).
Proof.
  revert s. induction l as [|x l IH]; intros s Hs Hl; cbn [foldl existsb].
  - rewrite orb_false_r. split; [done|]. split; [|done]. intros H. unfold act. rewrite H. cbn [sumN foldr].
    rewrite N.add_0_r, u32_small; [done|apply Hs].
  - apply Forall_cons in Hl as [Hx Hl].
    assert (Hm : slot_ok (slot_merge now s x)).
    { intros u'. destruct (is_active now x) eqn:Ex; [|by rewrite slot_merge_inactive].
      destruct (is_active now s) eqn:Es; [|by rewrite slot_merge_first].
      rewrite slot_merge_units by done. apply u32_lt. }
    destruct (IH _ Hm Hl) as (H1 & H2 & H3). cbn zeta in *.
    split; [by rewrite H1, slot_merge_active, orb_assoc|]. split.
    + intros Ha. rewrite (H2 Ha), sumN_cons. unfold act at 1 3 4. rewrite slot_merge_active.
      destruct (is_active now x) eqn:Ex; [|rewrite orb_false_r, slot_merge_inactive by done; by rewrite N.add_0_l].
      rewrite orb_true_r. destruct (is_active now s) eqn:Es; [|by rewrite slot_merge_first, N.add_0_l].
      rewrite slot_merge_units, u32_add, <- N.add_assoc by done. done.
    + intros Ha. rewrite (H3 Ha). rewrite H1, slot_merge_active in Ha.
      destruct (is_active now x) eqn:Ex; [|by rewrite slot_merge_inactive].
      by rewrite orb_true_r in Ha.
Qed.
Lemma slot0_inactive now : is_active now slot0 = false.
Proof. unfold is_active. cbn. apply N.ltb_ge. lia. Qed.
Lemma slot0_ok : slot_ok slot0. Proof. intros []; done. Qed.
Lemma merge_all_units now l u : Forall slot_ok l -> units_for (merge_all now l) u = u32 (sumN (act now u) l).
Proof.
  intros Hl. destruct (fold_merge now l slot0 u slot0_ok Hl) as (H1 & H2 & H3). fold (merge_all now l) in *.
  destruct (is_active now (merge_all now l)) eqn:Ea.
  - rewrite H2 by done. unfold act at 1. by rewrite slot0_inactive.
  - rewrite H3 by done. cbn [orb] in H1. rewrite slot0_inactive in H1. cbn in H1.
    rewrite (sumN_ext _ (fun _ => 0)).
    + rewrite sumN_zero. by destruct u.
    + intros x Hx. unfold act. destruct (is_active now x) eqn:Ex; [|done].
      assert (existsb (is_active now) l = true); [|congruence]. apply existsb_exists. exists x. by rewrite <- elem_of_list_In.
Qed.
Lemma merge_all_active now l : Forall slot_ok l -> is_active now (merge_all now l) = existsb (is_active now) l.
Proof. intros Hl. destruct (fold_merge now l slot0 Legacy slot0_ok Hl) as (H1 & _). by rewrite slot0_inactive in H1. Qed.
Lemma merge_all_ok now l : Forall slot_ok l -> slot_ok (merge_all now l).
Proof. intros Hl u. rewrite merge_all_units by done. apply u32_lt. Qed.
(** The order of the events does not matter. *)
Lemma merge_all_inval now l : Forall slot_ok l ->
  s_inval (merge_all now l) = foldr (fun s r => if is_active now s then N.min (s_inval s) r else r) U32_MAX l \/
  (existsb (is_active now) l = false /\ s_inval (merge_all now l) = 0) \/ exists s, s ∈ l /\ U32_MAX < s_inval s.
Proof.
  intros Hl. unfold merge_all.
  assert (Hg : forall s l, let r := foldl (slot_merge now) s l in
    (exists x, x ∈ l /\ U32_MAX < s_inval x) \/
    (if is_active now s then s_inval r = N.min (s_inval s) (foldr (fun s r => if is_active now s then N.min (s_inval s) r else r) U32_MAX l) \/ U32_MAX < s_inval s
     else if existsb (is_active now) l then s_inval r = foldr (fun s r => if is_active now s then N.min (s_inval s) r else r) U32_MAX l else r = s)).
  { clear Hl l. intros s l. revert s. induction l as [|x l IH]; intros s; cbn zeta; cbn [foldl foldr existsb].
    - right. destruct (is_active now s); [|done]. destruct (N.le_gt_cases (s_inval s) U32_MAX); [left; lia|by right].
    - destruct (IH (slot_merge now s x)) as [(y & Hy & Hl)|H]; [left; exists y; split; [by right|done]|]. cbn zeta in H.
      destruct (N.le_gt_cases (s_inval x) U32_MAX) as [Hx|Hx]; [|left; exists x; split; [left|done]].
      right. rewrite slot_merge_active in H. destruct (is_active now x) eqn:Ex.
      + rewrite orb_true_r in H. cbn [orb]. destruct (is_active now s) eqn:Es.
        * assert (Em : s_inval (slot_merge now s x) = N.min (s_inval s) (s_inval x)) by (unfold slot_merge; by rewrite Ex, Es).
          rewrite Em in H.
          destruct H as [H|H]; [left; rewrite H; lia|right; lia].
        * rewrite (slot_merge_first _ _ _ Es Ex) in H. destruct H as [H|H]; [by rewrite slot_merge_first|lia].
      + rewrite orb_false_r in H. rewrite (slot_merge_inactive _ _ _ Ex) in *. cbn [orb]. done. }
  destruct (Hg slot0 l) as [?|H]; [by right; right|]. cbn zeta in H. rewrite slot0_inactive in H.
  destruct (existsb (is_active now) l) eqn:E; [by left|]. right. left. by rewrite H.
Qed.

(** ** Accounts *)
Section Acct.
  Context (mainnet : bool) (v : version) (now : N).
  Notation fe := (fun e : N * N => from_event mainnet v e.1 e.2).

  (** Units of class [u] a rent event gives now. *)
  Definition rent_units (u : utype) (e : N * N) : N := act now u (fe e).
  Definition rented (r : rents) (f : N) (u : utype) : N := sumN (fun e => if e.1.1.1 =? f then rent_units u e.2 else 0) (map_to_list r).
  Definition loan_units (u : utype) (e : utype * N) : N := if bool_decide (e.1 = u) then e.2 else 0.
  Definition lent (l : loans) (f : N) (u : utype) : N := sumN (fun e => if e.1.1 =? f then loan_units u e.2 else 0) (map_to_list l).
  Definition borrowed (l : loans) (f : N) (u : utype) : N := sumN (fun e => if e.1.2 =? f then loan_units u e.2 else 0) (map_to_list l).

  (** Event units fit u32 (protobuf), loans were admitted with at most 5000 units. *)
  Definition units_ok (s : sst) : Prop :=
    (forall k e, st_rents s !! k = Some e -> e.2 < 2 ^ 32) /\ (forall k e, st_loans s !! k = Some e -> e.2 < 2 ^ 32).

  Lemma fe_ok e : e.2 < 2 ^ 32 -> slot_ok (fe e).
  Proof. intros H u. cbn. destruct (from_event_active_units mainnet v e.1 e.2 u) as [-> | ->]; [done|done]. Qed.
  Lemma lend_ok' e : slot_ok (from_lend e.1 e.2).
  Proof. intros u. rewrite from_lend_units. destruct (bool_decide _); [apply u32_lt|done]. Qed.

  Lemma own_units r f p u : (forall k e, r !! k = Some e -> e.2 < 2 ^ 32) -> Forall (fun e : N * N => e.2 < 2 ^ 32) p ->
    units_for (own_slot mainnet v now r f p) u = u32 (rented r f u + sumN (rent_units u) p).
  Proof.
    intros Hr Hp. unfold own_slot. rewrite merge_all_units.
    - rewrite map_app, sumN_app, !sumN_map. unfold rented, rents_of. rewrite sumN_omap. f_equal. f_equal. apply sumN_ext.
      intros e _. destruct (e.1.1.1 =? f); done.
    - apply Forall_map, Forall_app. split.
      + apply Forall_forall. intros e He. unfold rents_of in He. apply elem_of_list_omap in He as ((k & e') & He & Hk).
        apply elem_of_map_to_list in He. cbn in Hk. destruct (k.1.1 =? f); [|done]. injection Hk as ->. apply fe_ok. by eapply Hr.
      + eapply Forall_impl; [exact Hp|]. intros e He. by apply fe_ok.
  Qed.
  (** Loans never expire by themselves: they count as long as the clock has not reached the last u32 second. *)
  Lemma lend_slots_units l u : Forall (fun e : utype * N => e.2 < 2 ^ 32) l -> u32 now < U32_MAX ->
    units_for (lend_slots now l) u = u32 (sumN (loan_units u) l) /\ is_active now (lend_slots now l) = negb (Nat.eqb (length l) 0).
  Proof.
    intros Hl Hn. unfold lend_slots.
    assert (Hok : Forall slot_ok (map (fun e => from_lend e.1 e.2) l)).
    { apply Forall_map, Forall_forall. intros e _. apply lend_ok'. }
    rewrite merge_all_units, merge_all_active by done. split.
    - rewrite sumN_map. f_equal. apply sumN_ext. intros e He. unfold act. rewrite from_lend_active, from_lend_units.
      rewrite Forall_forall in Hl. specialize (Hl e He). destruct (N.ltb_spec (u32 now) U32_MAX); [|lia].
      unfold loan_units. by rewrite u32_small.
    - destruct l as [|e l]; [done|]. cbn [map existsb length]. rewrite from_lend_active.
      destruct (N.ltb_spec (u32 now) U32_MAX); [done|lia].
  Qed.
  Lemma lent_eq l f u : sumN (loan_units u) (lent_of l f) = lent l f u.
  Proof. unfold lent_of, lent. rewrite sumN_omap. apply sumN_ext. intros e _. by destruct (e.1.1 =? f). Qed.
  Lemma borrowed_eq l f u : sumN (loan_units u) (borrowed_of l f) = borrowed l f u.
  Proof. unfold borrowed_of, borrowed. rewrite sumN_omap. apply sumN_ext. intros e _. by destruct (e.1.2 =? f). Qed.
  Lemma lent_of_ok (l : loans) f : (forall k e, l !! k = Some e -> e.2 < 2 ^ 32) -> Forall (fun e : utype * N => e.2 < 2 ^ 32) (lent_of l f).
  Proof.
    intros H. apply Forall_forall. intros e He. unfold lent_of in He. apply elem_of_list_omap in He as ((k & e') & He & Hk).
    apply elem_of_map_to_list in He. cbn in Hk. destruct (k.1 =? f); [|done]. injection Hk as ->. by eapply H.
  Qed.
  Lemma borrowed_of_ok (l : loans) f : (forall k e, l !! k = Some e -> e.2 < 2 ^ 32) -> Forall (fun e : utype * N => e.2 < 2 ^ 32) (borrowed_of l f).
  Proof.
    intros H. apply Forall_forall. intros e He. unfold borrowed_of in He. apply elem_of_list_omap in He as ((k & e') & He & Hk).
    apply elem_of_map_to_list in He. cbn in Hk. destruct (k.2 =? f); [|done]. injection Hk as ->. by eapply H.
  Qed.

  Lemma own_active r f p : (forall k e, r !! k = Some e -> e.2 < 2 ^ 32) -> Forall (fun e : N * N => e.2 < 2 ^ 32) p ->
    is_active now (own_slot mainnet v now r f p) = existsb (fun e => is_active now (fe e)) (rents_of r f ++ p).
  Proof.
    intros Hr Hp. unfold own_slot. rewrite merge_all_active.
    - induction (rents_of r f ++ p) as [|e l IH]; [done|]. cbn [map existsb]. by rewrite IH.
    - apply Forall_map, Forall_app. split.
      + apply Forall_forall. intros e He. unfold rents_of in He. apply elem_of_list_omap in He as ((k & e') & He & Hk).
        apply elem_of_map_to_list in He. cbn in Hk. destruct (k.1.1 =? f); [|done]. injection Hk as ->. apply fe_ok. by eapply Hr.
      + eapply Forall_impl; [exact Hp|]. intros e He. by apply fe_ok.
  Qed.

  Lemma sub_units s o u : slot_ok s -> (is_active now o = true -> units_for o u <= units_for s u) ->
    units_for (slot_sub now s o) u = units_for s u - (if is_active now o then units_for o u else 0).
  Proof.
    intros Hs Ho. unfold slot_sub. destruct (is_active now o); [|lia]. specialize (Ho eq_refl). specialize (Hs u).
    destruct u; cbn in *; by apply wsub_exact.
  Qed.
  Lemma sub_inval s o : s_inval (slot_sub now s o) = s_inval s.
  Proof. unfold slot_sub. by destruct (is_active now o). Qed.
  Lemma sub_active s o : is_active now (slot_sub now s o) = is_active now s.
  Proof. unfold is_active. by rewrite sub_inval. Qed.

  (** The slot an account may use, when it has at least what it lent. *)
  Lemma usable_units s f p u : units_ok s -> Forall (fun e : N * N => e.2 < 2 ^ 32) p -> u32 now < U32_MAX ->
    rented (st_rents s) f u + sumN (rent_units u) p < 2 ^ 32 ->
    lent (st_loans s) f u <= rented (st_rents s) f u + sumN (rent_units u) p ->
    (rented (st_rents s) f u + sumN (rent_units u) p - lent (st_loans s) f u + borrowed (st_loans s) f u < 2 ^ 32 ->
     units_for (get_slot mainnet v now s f p true true) u =
      rented (st_rents s) f u + sumN (rent_units u) p - lent (st_loans s) f u + borrowed (st_loans s) f u) /\
    units_for (get_slot mainnet v now s f p true false) u =
      rented (st_rents s) f u + sumN (rent_units u) p - lent (st_loans s) f u.
  Proof.
    intros [Hr Hl] Hp Hn H1 H2. unfold get_slot. cbv iota zeta.
    set (own := own_slot mainnet v now (st_rents s) f p).
    assert (Hou : units_for own u = rented (st_rents s) f u + sumN (rent_units u) p).
    { unfold own. rewrite own_units by done. by apply u32_small. }
    assert (Hok : slot_ok own). { intros u'. unfold own. rewrite own_units by done. apply u32_lt. }
    destruct (lend_slots_units (lent_of (st_loans s) f) u (lent_of_ok _ _ Hl) Hn) as [Hlu Hla].
    destruct (lend_slots_units (borrowed_of (st_loans s) f) u (borrowed_of_ok _ _ Hl) Hn) as [Hbu Hba].
    rewrite lent_eq in Hlu. rewrite borrowed_eq in Hbu. rewrite u32_small in Hlu by lia.
    set (lt := lend_slots now (lent_of (st_loans s) f)) in *. set (bo := lend_slots now (borrowed_of (st_loans s) f)) in *.
    assert (Hlt0 : is_active now lt = false -> lent (st_loans s) f u = 0).
    { rewrite Hla, negb_false_iff, <- lent_eq. intros H. apply Nat.eqb_eq, nil_length_inv in H. by rewrite H. }
    assert (Hbo0 : is_active now bo = false -> borrowed (st_loans s) f u = 0).
    { rewrite Hba, negb_false_iff, <- borrowed_eq. intros H. apply Nat.eqb_eq, nil_length_inv in H. by rewrite H. }
    assert (Hsu : units_for (slot_sub now own lt) u = rented (st_rents s) f u + sumN (rent_units u) p - lent (st_loans s) f u).
    { rewrite sub_units; [|done|intros _; lia]. rewrite Hou. destruct (is_active now lt); [by rewrite Hlu|]. rewrite Hlt0 by done. lia. }
    assert (Hown0 : is_active now own = false -> rented (st_rents s) f u + sumN (rent_units u) p = 0).
    { intros Ha. rewrite <- Hou. unfold own, own_slot, merge_all in *.
      destruct (fold_merge now (map fe (rents_of (st_rents s) f ++ p)) slot0 u slot0_ok) as (_ & _ & H).
      - apply Forall_map, Forall_app. split.
        + apply Forall_forall. intros e He. unfold rents_of in He. apply elem_of_list_omap in He as ((k & e') & He & Hk).
          apply elem_of_map_to_list in He. cbn in Hk. destruct (k.1.1 =? f); [|done]. injection Hk as ->. apply fe_ok. by eapply Hr.
        + eapply Forall_impl; [exact Hp|]. intros e He. by apply fe_ok.
      - rewrite H by done. by destruct u. }
    split.
    - intros H3. rewrite u32_small in Hbu by lia. destruct (is_active now bo) eqn:Eb.
      + destruct (is_active now own) eqn:Eo.
        * rewrite slot_merge_units by (done || by rewrite sub_active). rewrite Hsu, Hbu. by apply u32_small.
        * rewrite slot_merge_first by (done || by rewrite sub_active). rewrite Hbu. specialize (Hown0 eq_refl). lia.
      + rewrite slot_merge_inactive by done. rewrite Hsu, Hbo0 by done. lia.
    - assert (He : is_active now empty_slot = true) by (unfold is_active; cbn; apply N.ltb_lt; lia).
      destruct (is_active now own) eqn:Eo.
      + rewrite slot_merge_units by (done || by rewrite sub_active). rewrite Hsu.
        replace (units_for empty_slot u) with 0 by (by destruct u). rewrite N.add_0_r. apply u32_small. lia.
      + rewrite slot_merge_first by (done || by rewrite sub_active). specialize (Hown0 eq_refl).
        replace (units_for empty_slot u) with 0 by (by destruct u). lia.
  Qed.
End Acct.

(** ** Changes of the maps *)
Lemma lent_insert (l : loans) (k : N * N) (e : utype * N) (f : N) (u : utype) :
  lent (<[k := e]> l) f u = lent (delete k l) f u + (if k.1 =? f then loan_units u e else 0).
Proof.
  unfold lent. rewrite <- insert_delete_insert, (sumN_perm _ _ _ (map_to_list_insert (delete k l) k e (lookup_delete l k))).
  rewrite sumN_cons. cbn. lia.
Qed.
Lemma lent_delete (l : loans) (k : N * N) (f : N) (u : utype) :
  lent l f u = lent (delete k l) f u + match l !! k with Some e => if k.1 =? f then loan_units u e else 0 | None => 0 end.
Proof.
  destruct (l !! k) as [e|] eqn:E.
  - rewrite <- (insert_id l k e E) at 1. apply lent_insert.
  - rewrite delete_notin by done. lia.
Qed.
Lemma rented_insert (mainnet : bool) (v : version) (now : N) (r : rents) (k : N * N * N) (e : N * N) (f : N) (u : utype) : r !! k = None ->
  rented mainnet v now (<[k := e]> r) f u = rented mainnet v now r f u + (if k.1.1 =? f then rent_units mainnet v now u e else 0).
Proof.
  intros H. unfold rented. rewrite (sumN_perm _ _ _ (map_to_list_insert r k e H)). rewrite sumN_cons. cbn. lia.
Qed.

Lemma lent_ext (l l' : loans) (f : N) (u : utype) : (forall k, k.1 = f -> l !! k = l' !! k) -> lent l f u = lent l' f u.
Proof.
  intros H. rewrite <- !lent_eq. unfold lent_of.
  assert (E : forall m : loans, omap (fun e : N * N * (utype * N) => if e.1.1 =? f then Some e.2 else None) (map_to_list m) ≡ₚ
    map snd (map_to_list (filter (fun e : N * N * (utype * N) => e.1.1 = f) m))).
  { clear. intros m. induction m as [|k e m Hk IH] using map_ind; [done|].
    rewrite (map_to_list_insert m k e Hk). cbn [omap list_omap]. cbn [fst snd].
    destruct (N.eqb_spec k.1 f) as [Hf|Hf].
    - rewrite map_filter_insert_True by done.
      rewrite (map_to_list_insert (filter _ m) k e); [|rewrite map_filter_lookup, Hk; done]. cbn. by rewrite IH.
    - rewrite map_filter_insert_not' by (done || congruence). done. }
  rewrite (sumN_perm _ _ _ (E l)), (sumN_perm _ _ _ (E l')).
  replace (filter (fun e : N * N * (utype * N) => e.1.1 = f) l') with (filter (fun e : N * N * (utype * N) => e.1.1 = f) l); [done|].
  apply map_eq. intros k. rewrite !map_filter_lookup.
  destruct (decide (k.1 = f)) as [Hf|Hf]; [by rewrite H|].
  destruct (l !! k), (l' !! k); cbn; repeat case_option_guard; done.
Qed.

(** ** Conservation *)
Definition all_rented (mainnet : bool) (v : version) (now : N) (r : rents) (u : utype) : N := sumN (fun e => rent_units mainnet v now u e.2) (map_to_list r).
Definition all_lent (l : loans) (u : utype) : N := sumN (fun e => loan_units u e.2) (map_to_list l).
Lemma sum_by_key {K A} (key : K -> N) (g : K * A -> N) (F : list N) (l : list (K * A)) : NoDup F ->
  (forall e, e ∈ l -> key e.1 ∈ F) ->
  sumN (fun f => sumN (fun e => if key e.1 =? f then g e else 0) l) F = sumN g l.
Proof.
  intros Hd Hin. rewrite sumN_swap. apply sumN_ext. intros e He. apply sumN_pick; [done|by apply Hin].
Qed.
Lemma lent_le_all l f u : lent l f u <= all_lent l u.
Proof. unfold lent, all_lent. apply sumN_le. intros e _. destruct (e.1.1 =? f); lia. Qed.
Lemma borrowed_le_all l f u : borrowed l f u <= all_lent l u.
Proof. unfold borrowed, all_lent. apply sumN_le. intros e _. destruct (e.1.2 =? f); lia. Qed.
Lemma rented_le_all (mainnet : bool) (v : version) (now : N) r f u : rented mainnet v now r f u <= all_rented mainnet v now r u.
Proof. unfold rented, all_rented. apply sumN_le. intros e _. destruct (e.1.1.1 =? f); lia. Qed.

Definition covered (mainnet : bool) (v : version) (now : N) (s : sst) : Prop :=
  forall f u, lent (st_loans s) f u <= rented mainnet v now (st_rents s) f u.
(** Accounts occurring in a state. *)
Definition fids_in (F : list N) (s : sst) : Prop :=
  (forall k e, st_rents s !! k = Some e -> k.1.1 ∈ F) /\ (forall k e, st_loans s !! k = Some e -> k.1 ∈ F /\ k.2 ∈ F).

Lemma all_lent_le (mainnet : bool) (v : version) (now : N) s F u : NoDup F -> fids_in F s -> covered mainnet v now s ->
  all_lent (st_loans s) u <= all_rented mainnet v now (st_rents s) u.
Proof.
  intros Hd [Hr Hl] Hc. unfold all_lent, all_rented.
  rewrite <- (sum_by_key (fun k : N * N => k.1) (fun e => loan_units u e.2) F) by
    (done || (intros [k e] He; apply elem_of_map_to_list in He; by apply (Hl k e))).
  rewrite <- (sum_by_key (fun k : N * N * N => k.1.1) (fun e => rent_units mainnet v now u e.2) F) by
    (done || (intros [k e] He; apply elem_of_map_to_list in He; by apply (Hr k e))).
  apply sumN_le. intros f _. apply Hc.
Qed.

Lemma covered_usable (mainnet : bool) (v : version) (now : N) s F : NoDup F -> fids_in F s -> units_ok s -> u32 now < U32_MAX ->
  covered mainnet v now s -> (forall u, all_rented mainnet v now (st_rents s) u < 2 ^ 32) ->
  (forall f u, units_for (get_slot mainnet v now s f [] true true) u + lent (st_loans s) f u =
     rented mainnet v now (st_rents s) f u + borrowed (st_loans s) f u) /\
  (forall u, sumN (fun f => units_for (get_slot mainnet v now s f [] true true) u) F = all_rented mainnet v now (st_rents s) u).
Proof.
  intros Hd HF Hok Hn Hc Hs.
  assert (Hus : forall f u, units_for (get_slot mainnet v now s f [] true true) u + lent (st_loans s) f u =
     rented mainnet v now (st_rents s) f u + borrowed (st_loans s) f u).
  { intros f u. specialize (Hc f u) as Hcf.
    pose proof (rented_le_all mainnet v now (st_rents s) f u). pose proof (borrowed_le_all (st_loans s) f u).
    pose proof (all_lent_le mainnet v now s F u Hd HF Hc). specialize (Hs u).
    (* what others lend is rented by others *)
    assert (Hlim : rented mainnet v now (st_rents s) f u - lent (st_loans s) f u + borrowed (st_loans s) f u <= all_rented mainnet v now (st_rents s) u).
    { destruct (decide (f ∈ F)) as [Hf|Hf].
      - destruct HF as [Hr Hl].
        assert (E1 : all_lent (st_loans s) u = sumN (fun f => lent (st_loans s) f u) F).
        { unfold all_lent, lent. symmetry. apply (sum_by_key (fun k : N * N => k.1) (fun e => loan_units u e.2)); [done|].
          intros [k e] He; apply elem_of_map_to_list in He; by apply (Hl k e). }
        assert (E2 : all_rented mainnet v now (st_rents s) u = sumN (fun f => rented mainnet v now (st_rents s) f u) F).
        { unfold all_rented, rented. symmetry. apply (sum_by_key (fun k : N * N * N => k.1.1) (fun e => rent_units mainnet v now u e.2)); [done|].
          intros [k e] He; apply elem_of_map_to_list in He; by apply (Hr k e). }
        apply elem_of_list_split in Hf as (F1 & F2 & ->).
        rewrite sumN_app, sumN_cons in E1, E2.
        pose proof (sumN_le (fun f => lent (st_loans s) f u) (fun f => rented mainnet v now (st_rents s) f u) F1 (fun x _ => Hc x u)).
        pose proof (sumN_le (fun f => lent (st_loans s) f u) (fun f => rented mainnet v now (st_rents s) f u) F2 (fun x _ => Hc x u)).
        lia.
      - assert (Hz : borrowed (st_loans s) f u = 0); [|lia].
        unfold borrowed. rewrite (sumN_ext _ (fun _ => 0)); [apply sumN_zero|].
        intros [k e] He. cbn. destruct (N.eqb_spec k.2 f) as [<-|]; [|done]. apply elem_of_map_to_list in He.
        destruct HF as [_ Hl]. by destruct (Hl k e He). }
    destruct (usable_units mainnet v now s f [] u Hok (Forall_nil_2 _) Hn) as [-> _]; cbn [sumN foldr]; lia. }
  split; [done|]. intros u. destruct HF as [Hr Hl].
  assert (E : sumN (fun f => units_for (get_slot mainnet v now s f [] true true) u + lent (st_loans s) f u) F =
    sumN (fun f => rented mainnet v now (st_rents s) f u + borrowed (st_loans s) f u) F) by (apply sumN_ext; intros f _; apply Hus).
  rewrite !sumN_plus in E.
  assert (E1 : sumN (fun f => lent (st_loans s) f u) F = all_lent (st_loans s) u).
  { unfold all_lent, lent. apply (sum_by_key (fun k : N * N => k.1) (fun e => loan_units u e.2)); [done|].
    intros [k e] He; apply elem_of_map_to_list in He; by apply (Hl k e). }
  assert (E2 : sumN (fun f => borrowed (st_loans s) f u) F = all_lent (st_loans s) u).
  { unfold all_lent, borrowed. apply (sum_by_key (fun k : N * N => k.2) (fun e => loan_units u e.2)); [done|].
    intros [k e] He; apply elem_of_map_to_list in He; by apply (Hl k e). }
  assert (E3 : sumN (fun f => rented mainnet v now (st_rents s) f u) F = all_rented mainnet v now (st_rents s) u).
  { unfold all_rented, rented. apply (sum_by_key (fun k : N * N * N => k.1.1) (fun e => rent_units mainnet v now u e.2)); [done|].
    intros [k e] He; apply elem_of_map_to_list in He; by apply (Hr k e). }
  lia.
Qed.

(** ** Blocks keep loans covered *)
Section Block.
  Context (mainnet : bool) (v : version) (now : N) (Hnow : u32 now < U32_MAX).
  Notation rented := (rented mainnet v now).
  Notation rent_units := (rent_units mainnet v now).

  (** Running state of a transaction by [f] owning [A u] units. *)
  Record linv (f : N) (A : utype -> N) (l0 : loans) (st : loans * slot) : Prop := {
    li_act : is_active now st.2 = true;
    li_units : forall u, units_for st.2 u + lent st.1 f u = A u;
    li_loans : forall k e, st.1 !! k = Some e -> e.2 < 2 ^ 32;
    li_other : forall k, k.1 <> f -> st.1 !! k = l0 !! k;
  }.
  Lemma linv_step db f A l0 st m : (forall u, A u < 2 ^ 32) -> linv f A l0 st -> linv f A l0 (lend_step mainnet v now db f st m).
  Proof using Hnow.
    intros HA HI. destruct st as [l sl]. destruct HI as [Ha Hu Hl Ho]. cbn in Ha, Hu, Hl, Ho. unfold lend_step.
    destruct (lend_valid mainnet v now db f sl m && is_enabled v StorageLending && l_accept m) eqn:Ev; [|by split].
    apply andb_prop in Ev as [Ev _]. apply andb_prop in Ev as [Ev _].
    assert (Hav : l_units m <= units_for sl (l_type m) /\ l_units m <= 5000).
    { unfold lend_valid in Ev. apply andb_prop in Ev as [Ev E3]. apply andb_prop in Ev as [E1 _].
      apply N.leb_le in E1. apply negb_true_iff, N.ltb_ge in E3. split; [|done].
      destruct (is_enabled v StorageLendingLimitFix); rewrite u32_small in E3 by lia; lia. }
    set (n := l_units m) in *. set (t := l_type m) in *. set (k := (f, l_to m)).
    set (s1 := slot_sub now sl (from_lend t n)).
    assert (Hon : is_active now (from_lend t n) = true) by (rewrite from_lend_active; by apply N.ltb_lt).
    assert (Hslok : slot_ok sl) by (intros u; specialize (Hu u); specialize (HA u); lia).
    assert (H1 : forall u, units_for s1 u = units_for sl u - loan_units u (t, n)).
    { intros u. unfold s1. rewrite sub_units; [|done|].
      - rewrite Hon, from_lend_units. unfold loan_units. cbn. destruct (bool_decide (t = u)); [|lia]. by rewrite u32_small by lia.
      - intros _. rewrite from_lend_units. case_bool_decide as E; [|lia]. rewrite <- E, u32_small by lia. apply Hav. }
    assert (Hle : forall u, loan_units u (t, n) <= units_for sl u).
    { intros u. unfold loan_units. cbn. case_bool_decide as E; [|lia]. rewrite <- E. apply Hav. }
    assert (Ha1 : is_active now s1 = true) by (unfold s1; by rewrite sub_active).
    set (s2 := match l !! k with Some (u, n) => slot_merge now s1 (from_lend u n) | None => s1 end).
    assert (H2 : is_active now s2 = true /\ forall u, units_for s2 u = units_for s1 u + match l !! k with Some e => loan_units u e | None => 0 end).
    { unfold s2. destruct (l !! k) as [[u' n']|] eqn:Ek; [|split; [done|intros; lia]].
      assert (Hon' : is_active now (from_lend u' n') = true) by (rewrite from_lend_active; by apply N.ltb_lt).
      split; [rewrite slot_merge_active, Ha1; done|]. intros u. rewrite slot_merge_units by done.
      rewrite from_lend_units. specialize (Hl k (u', n') Ek). cbn in Hl. unfold loan_units at 1. cbn.
      rewrite (u32_small n') by done. apply u32_small. rewrite H1.
      pose proof (lent_delete l k f u) as Hd. rewrite Ek in Hd. replace (k.1 =? f) with true in Hd by (symmetry; apply N.eqb_refl).
      unfold loan_units in Hd. cbn [fst snd] in Hd. specialize (Hu u). specialize (HA u). lia. }
    destruct H2 as [Ha2 H2].
    assert (Hlent : forall u, lent (if n =? 0 then delete k l else <[k := (t, n)]> l) f u = lent (delete k l) f u + loan_units u (t, n)).
    { intros u. destruct (N.eqb_spec n 0) as [->|]; [unfold loan_units; cbn; destruct (bool_decide _); lia|].
      rewrite lent_insert. unfold k. cbn. by rewrite N.eqb_refl. }
    split; cbn.
    - exact Ha2.
    - intros u. fold n t k. rewrite Hlent, H2, H1. specialize (Hle u). specialize (Hu u).
      pose proof (lent_delete l k f u) as Hd. replace (k.1 =? f) with true in Hd by (symmetry; apply N.eqb_refl).
      destruct (l !! k) as [e|]; lia.
    - intros k' e He. destruct (n =? 0).
      + apply lookup_delete_Some in He as [_ He]. by eapply Hl.
      + destruct (decide (k = k')) as [<-|Hne]; [rewrite lookup_insert in He; injection He as <-; cbn; lia|].
        rewrite lookup_insert_ne in He by done. by eapply Hl.
    - intros k' Hk'. assert (k <> k') by (intros <-; done). destruct (n =? 0); [rewrite lookup_delete_ne by done|rewrite lookup_insert_ne by done]; by apply Ho.
  Qed.
  Lemma linv_fold db f A l0 ms st : (forall u, A u < 2 ^ 32) -> linv f A l0 st -> linv f A l0 (foldl (lend_step mainnet v now db f) st ms).
  Proof using Hnow. intros HA. revert st. induction ms as [|m ms IH]; intros st HI; [done|]. cbn. apply IH. by apply linv_step. Qed.

  (** Rent events of a transaction that are new. *)
  Definition rent_keys (t : stx) : list (N * N * N) := map (fun e => (x_fid t, e.1.1, e.1.2)) (x_rents t).
  Lemma rents_fold (f : N) (r : rents) (es : list (N * N * (N * N))) : NoDup (map (fun e => (f, e.1.1, e.1.2)) es) -> Forall (fun e => r !! (f, e.1.1, e.1.2) = None) es ->
    let r' := foldl (rent_step f) r es in
    (forall f' u, rented r' f' u = rented r f' u + if f =? f' then sumN (rent_units u) (map snd es) else 0) /\
    (forall k, k.1.1 <> f -> r' !! k = r !! k) /\
    (forall k e, r' !! k = Some e -> r !! k = Some e \/ (k.1.1 = f /\ e ∈ map snd es)).
  Proof using Type.
    clear. revert r. induction es as [|e es IH]; intros r Hd Hf; cbn zeta.
    - cbn. split; [intros f' u; destruct (f =? f'); lia|]. split; [done|]. by left.
    - cbn [map] in Hd. apply NoDup_cons in Hd as [Hn Hd]. apply Forall_cons in Hf as [He Hf]. cbn [foldl].
      assert (Hr1 : rent_step f r e = <[(f, e.1.1, e.1.2) := e.2]> r) by (unfold rent_step; by rewrite He).
      rewrite Hr1. destruct (IH (<[(f, e.1.1, e.1.2) := e.2]> r) Hd) as (H1 & H2 & H3).
      { rewrite Forall_forall in Hf |- *. intros x Hx. rewrite lookup_insert_ne; [by apply Hf|]. intros Heq. apply Hn.
        rewrite Heq. apply elem_of_list_fmap. by exists x. }
      split; [|split].
      + intros f' u. rewrite H1, rented_insert by done. cbn [fst snd map]. rewrite sumN_cons. destruct (f =? f'); lia.
      + intros k Hk. rewrite H2 by done. rewrite lookup_insert_ne; [done|]. intros <-. by cbn in Hk.
      + intros k x Hx. destruct (H3 k x Hx) as [H|[Hk H]]; [|right; split; [done|]; cbn; by right].
        destruct (decide ((f, e.1.1, e.1.2) = k)) as [<-|Hne]; [rewrite lookup_insert in H; injection H as <-; right; split; [done|left]|].
        rewrite lookup_insert_ne in H by done. by left.
  Qed.

  (** What a block may contain: one transaction per account, rent events not stored before. *)
  Definition fresh_block (db : sst) (ts : list stx) : Prop :=
    NoDup (map x_fid ts) /\
    Forall (fun t => NoDup (rent_keys t) /\ Forall (fun k => st_rents db !! k = None) (rent_keys t) /\
                     Forall (fun e => e.2.2 < 2 ^ 32) (x_rents t)) ts.

  Lemma block_covered db ts : fresh_block db ts -> units_ok db -> covered mainnet v now db ->
    (forall u, all_rented mainnet v now (st_rents (sblock mainnet v now db ts)) u < 2 ^ 32) ->
    covered mainnet v now (sblock mainnet v now db ts) /\ units_ok (sblock mainnet v now db ts).
  Proof using Hnow.
    intros [Hd Hts] Hok Hc Hsm. unfold sblock in *.
    (* invariant on the view after some transactions *)
    set (J := fun (done : list N) (s : sst) => covered mainnet v now s /\ units_ok s /\
      (forall k, k.1.1 ∉ done -> st_rents s !! k = st_rents db !! k) /\
      (forall f u, f ∉ done -> lent (st_loans s) f u = lent (st_loans db) f u /\ rented (st_rents s) f u = rented (st_rents db) f u)).
    assert (Hgrow : forall ts s f u, rented (st_rents s) f u <= rented (st_rents (foldl (stx_step mainnet v now db) s ts)) f u).
    { clear -db. induction ts as [|t ts IH]; intros s f u; [done|]. cbn [foldl]. etrans; [|apply IH].
      unfold stx_step. destruct (foldl (lend_step _ _ _ _ _) _ _) as [l sl]. cbn [st_rents]. clear IH.
      generalize (st_rents s). induction (x_rents t) as [|e es IH]; intros r; [done|]. cbn [foldl]. etrans; [|apply IH].
      unfold rent_step. destruct (r !! _) eqn:E; [done|]. rewrite rented_insert by done. lia. }
    assert (Hgo : forall ts done s, NoDup (map x_fid ts) -> (forall t, t ∈ ts -> x_fid t ∉ done) ->
      Forall (fun t => NoDup (rent_keys t) /\ Forall (fun k => st_rents db !! k = None) (rent_keys t) /\
                     Forall (fun e => e.2.2 < 2 ^ 32) (x_rents t)) ts ->
      (forall f u, rented (st_rents (foldl (stx_step mainnet v now db) s ts)) f u < 2 ^ 32) ->
      J done s -> covered mainnet v now (foldl (stx_step mainnet v now db) s ts) /\ units_ok (foldl (stx_step mainnet v now db) s ts)).
    { clear Hd Hts Hsm ts. induction ts as [|t ts IH]; intros done s Hd Hdone Hts Hsm HJ; [split; apply HJ|].
      cbn [map] in Hd. apply NoDup_cons in Hd as [Hnt Hd]. apply Forall_cons in Hts as [(Hk1 & Hk2 & Hk3) Hts].
      assert (Htd : x_fid t ∉ done) by (apply Hdone; left).
      cbn [foldl] in Hsm |- *. destruct HJ as (HcJ & HokJ & HrJ & HlJ).
      apply (IH (x_fid t :: done)); [done| |done|done|].
      { intros t' Ht' Hin. apply elem_of_cons in Hin as [Heq|Hin].
        - apply Hnt. rewrite <- Heq. apply elem_of_list_fmap. by exists t'.
        - by apply (Hdone t'); [right|]. }
      set (f := x_fid t) in *.
      assert (Hfr : Forall (fun e => st_rents s !! (f, e.1.1, e.1.2) = None) (x_rents t)).
      { unfold rent_keys in Hk2. rewrite Forall_map in Hk2. eapply Forall_impl; [exact Hk2|]. intros e He. cbn in He. by rewrite HrJ. }
      assert (Hb : forall u, rented (st_rents s) f u + sumN (rent_units u) (map snd (x_rents t)) < 2 ^ 32).
      { intros u. eapply N.le_lt_trans; [|apply (Hsm f u)]. etrans; [|apply Hgrow].
        unfold stx_step. destruct (foldl (lend_step _ _ _ _ _) _ _) as [l sl]. cbn [st_rents].
        destruct (rents_fold f (st_rents s) (x_rents t) Hk1 Hfr) as (H1 & _). fold f. rewrite H1, N.eqb_refl. lia. }
      unfold stx_step. fold f.
      set (sl0 := get_slot mainnet v now db f (map snd (x_rents t)) true false).
      assert (HA : forall u, units_for sl0 u + lent (st_loans s) f u = rented (st_rents s) f u + sumN (rent_units u) (map snd (x_rents t))).
      { intros u. destruct (HlJ f u Htd) as [E1 E2]. specialize (Hb u). rewrite E1, E2 in *. specialize (Hc f u).
        assert (Hp : Forall (fun e : N * N => e.2 < 2 ^ 32) (map snd (x_rents t))) by (rewrite Forall_map; done).
        destruct (usable_units mainnet v now db f (map snd (x_rents t)) u Hok Hp Hnow) as [_ H]; [done|lia|].
        fold sl0 in H. rewrite H. lia. }
      assert (HI0 : linv f (fun u => rented (st_rents s) f u + sumN (rent_units u) (map snd (x_rents t))) (st_loans s) (st_loans s, sl0)).
      { split; cbn; [|done|apply HokJ|done]. unfold sl0, get_slot. rewrite slot_merge_active. apply orb_true_intro. right.
        unfold is_active. cbn. by apply N.ltb_lt. }
      pose proof (linv_fold db f _ _ (x_lends t) _ Hb HI0) as HI.
      destruct (foldl (lend_step mainnet v now db f) (st_loans s, sl0) (x_lends t)) as [l sl].
      destruct HI as [_ Hu Hll Hoth]. cbn in Hu, Hll, Hoth.
      destruct (rents_fold f (st_rents s) (x_rents t) Hk1 Hfr) as (R1 & R2 & R3).
      assert (Hlo : forall f' u, f' <> f -> lent l f' u = lent (st_loans s) f' u) by (intros f1 u1 Hf1; apply lent_ext; intros k1 <-; by apply Hoth).
      split; [|split; [|split]]; cbn.
      - intros f' u. cbn. rewrite R1. destruct (N.eqb_spec f f') as [<-|Hne].
        + specialize (Hu u). lia.
        + rewrite Hlo by done. specialize (HcJ f' u). lia.
      - split; cbn; [|exact Hll]. intros k e He. destruct (R3 k e He) as [H|[_ H]]; [by apply (proj1 HokJ k)|].
        apply elem_of_list_fmap in H as (x & -> & Hx). rewrite Forall_forall in Hk3. by apply Hk3.
      - intros k Hk. apply not_elem_of_cons in Hk as [Hk1' Hk2']. rewrite R2 by done. by apply HrJ.
      - intros f' u Hf'. apply not_elem_of_cons in Hf' as [Hf1 Hf2]. destruct (HlJ f' u Hf2) as [E1 E2].
        rewrite Hlo, R1 by done. destruct (N.eqb_spec f f') as [<-|]; [done|]. split; [done|lia]. }
    apply (Hgo ts [] db Hd); [intros t _; apply not_elem_of_nil|done| |].
    - intros f u. eapply N.le_lt_trans; [apply rented_le_all|apply Hsm].
    - split; [done|]. split; [done|]. done.
  Qed.
End Block.
