(** Invariant of the trie object over whole histories, at the level of nibble strings. *)
From Verif Require Export TrieDel.
From Coq Require Import ZifyN ZifyNat ZifyBool.
#[local] Open Scope N_scope.
Implicit Types (p q k : bytes) (c : N) (d idx : nat) (X Y K com cur : gset bytes) (n m : node).

Lemma under_empty_iff q X : under q X = ∅ <-> forall k, k ∈ X -> ~ q `prefix_of` k.
Proof.
  split.
  - intros E k Hk Hq. assert (k ∈ under q X) as Hin by by apply elem_under. rewrite E in Hin. ssolve.
  - intros Hn. apply set_eq. intros k. rewrite elem_under. split; [|ssolve]. intros [? ?]. by destruct (Hn k).
Qed.
Lemma under_nil X : under [] X = X.
Proof. apply set_eq. intros k. rewrite elem_under. split; [tauto|]. intros. split; [done|apply prefix_nil]. Qed.
Lemma under_sub p c q X : (forall k, k ∈ X -> p `prefix_of` k) -> p ++ [c] `prefix_of` q -> under q (sub (length p) c X) = under q X.
Proof.
  intros Hp Hq. apply set_eq. intros k. rewrite !elem_under, elem_sub. split; [tauto|]. intros [H1 H2]. split_and!; auto.
  assert (p ++ [c] `prefix_of` k) as Hk by by trans q. by apply prefix_snoc in Hk as [_ ?].
Qed.
Lemma under_all p X : (forall k, k ∈ X -> p `prefix_of` k) -> under p X = X.
Proof. intros Hp. apply set_eq. intros k. rewrite elem_under. split; [tauto|]. auto. Qed.

(** The fuel of the specification hash does not matter once it exceeds the key lengths. *)
Lemma shash_fuel H f : forall f' p X, (forall k, k ∈ X -> p `prefix_of` k /\ length k < length p + f /\ length k < length p + f')%nat ->
  shash H f (length p) X = shash H f' (length p) X.
Proof.
  induction f as [|f IH]; intros f' p X HX.
  - assert (X = ∅) as ->.
    { apply set_eq. intros k. split; [|ssolve]. intros Hk. destruct (HX k Hk) as (Hp & Hl & _). apply prefix_length in Hp. lia. }
    by rewrite !(shash_empty).
  - destruct f' as [|f'].
    + assert (X = ∅) as ->.
      { apply set_eq. intros k. split; [|ssolve]. intros Hk. destruct (HX k Hk) as (Hp & _ & Hl). apply prefix_length in Hp. lia. }
      by rewrite !(shash_empty).
    + cbn [shash]. destruct (decide (X = ∅)); [done|]. destruct (_ && _); [done|]. do 2 f_equal.
      apply map_ext. intros c. specialize (IH f' (p ++ [c])). rewrite app_length, Nat.add_1_r in IH. apply IH.
      intros k Hk. apply elem_sub in Hk as [Hk Hc]. destruct (HX k Hk) as (Hp & ? & ?).
      split_and!; [by apply prefix_snoc|lia|lia].
Qed.

Lemma hashed_fuel H f : forall f' p X, (forall k, k ∈ X -> p `prefix_of` k /\ length k < length p + f /\ length k < length p + f')%nat ->
  hashed H f (length p) X = hashed H f' (length p) X.
Proof.
  induction f as [|f IH]; intros f' p X HX.
  - assert (X = ∅) as ->.
    { apply set_eq. intros k. split; [|ssolve]. intros Hk. destruct (HX k Hk) as (Hp & Hl & _). apply prefix_length in Hp. lia. }
    destruct f'; [done|]. cbn [hashed]. by rewrite decide_True.
  - destruct f' as [|f'].
    + assert (X = ∅) as ->.
      { apply set_eq. intros k. split; [|ssolve]. intros Hk. destruct (HX k Hk) as (Hp & _ & Hl). apply prefix_length in Hp. lia. }
      cbn [hashed]. by rewrite decide_True.
    + cbn [hashed]. destruct (decide (X = ∅)); [done|]. destruct (_ && _); [done|].
      assert (Hs : forall c, (forall k, k ∈ sub (length p) c X -> p ++ [c] `prefix_of` k /\
        length k < length (p ++ [c]) + f /\ length k < length (p ++ [c]) + f')%nat).
      { intros c k Hk. apply elem_sub in Hk as [Hk Hc]. destruct (HX k Hk) as (Hp & ? & ?).
        rewrite app_length. cbn. split_and!; [by apply prefix_snoc|lia|lia]. }
      f_equal; f_equal; apply map_ext; intros c.
      * pose proof (shash_fuel H f f' (p ++ [c]) _ (Hs c)) as E. by rewrite app_length, Nat.add_1_r in E.
      * pose proof (IH f' (p ++ [c]) _ (Hs c)) as E. by rewrite app_length, Nat.add_1_r in E.
Qed.

Section Top.
  Variable H : bytes -> bytes.
  Variable order : list N -> list N.
  Variable U : gset bytes.
  Hypothesis order_perm : forall l, Permutation (order l) l.
  Hypothesis H_ne : forall x, H x <> [].
  Hypothesis U_len : forall k, k ∈ U -> (12 <= length k)%nat.
  Hypothesis U_pf : forall a b, a ∈ U -> b ∈ U -> a `prefix_of` b -> a = b.
  Hypothesis U_nib : forall k, k ∈ U -> forall (i : nat) c, k !! i = Some c -> c < 16.
  Hypothesis U_nocol : forall k k', k ∈ U -> k' ∈ U -> ~ (MERKLE_TRIE_NODE :: take 13 k) `prefix_of` k'.
  Variable F : nat.
  Hypothesis U_fuel : forall k, k ∈ U -> (length k < F)%nat.

  Notation rep := (rep H).
  Notation kids f db := (kids (rep f db)).
  Notation coh := (coh U).
  Notation Upre := (Upre U).

  Lemma inner_children f db p n X : rep (S f) db p n X -> X ⊆ U -> n_key n = None -> X <> ∅ -> n_children n <> [].
  Proof.
    intros (Hi & HpX & Hs1 & Hs2 & [(-> & _)|[(Hd & Ec & k & -> & Ek & _)|(_ & HX & Hsz & Hk)]]) HU Hkn Hne E; [done|congruence|].
    apply set_choose_L in HX as [k Hk'].
    assert (Hl : (length p < length k)%nat) by (eapply inner_len with (X := X); done).
    destruct (lookup_lt_is_Some_2 k (length p) Hl) as [c Hc].
    specialize (Hk c). rewrite E in Hk. cbn in Hk. destruct Hk as [Hk _].
    assert (k ∈ sub (length p) c X) as Hin by by apply elem_sub. rewrite Hk in Hin. ssolve.
  Qed.

  (** [exists] decides membership in the represented set, for any non-empty key. *)
  Lemma exists_ok g : forall f db p n X key, rep f db p n X -> X ⊆ U -> key <> [] -> p `prefix_of` key ->
    (length key < length p + g)%nat -> exists_ g db n key (length p) = Ok (bool_decide (key ∈ X)).
  Proof.
    induction g as [|g IH]; intros f db p n X key Hr HU Hne Hp Hl; [apply prefix_length in Hp; lia|].
    destruct f as [|f]; [done|]. cbn [exists_]. pose proof (inner_children f db p n X Hr HU) as Hch. unfold is_leaf.
    destruct Hr as (Hi & HpX & Hs1 & Hs2 & [(-> & Ec & _ & Ek)|[(Hd & Ec & k & -> & Ek & _)|(Ek & HX & Hsz & Hk)]]).
    - rewrite Ec, Ek. cbn. rewrite bool_decide_false by congruence. by rewrite bool_decide_false by ssolve.
    - rewrite Ec, Ek. cbn. f_equal. apply bool_decide_ext. unfold id. rewrite elem_of_singleton. naive_solver.
    - specialize (Hch Ek HX). destruct (n_children n) as [|e r] eqn:Ech; [done|]. rewrite <- Ech in *. clear Ech Hch e r.
      destruct (key !! length p) as [c|] eqn:Ec.
      + specialize (Hk c). rewrite prefix_take by done. unfold load_child.
        assert (Hin : key ∈ X <-> key ∈ sub (length p) c X) by (rewrite elem_sub; tauto).
        destruct (aget c (n_children n)) as [x|] eqn:Ex.
        * destruct Hk as (Hne' & _ & HR).
          assert (match x with CNode m => Some m | CSer => Some match db !! make_primary_key p (Some c) with Some d => deserialize d | None => empty_node end end = Some (loadc db p c x)) as ->.
          { destruct x; cbn [loadc]; [done|by rewrite pk_child]. }
          specialize (IH f db (p ++ [c]) (loadc db p c x) (sub (length p) c X) key HR).
          rewrite app_length, Nat.add_1_r in IH. rewrite IH; [f_equal; by apply bool_decide_ext| |done| |lia].
          -- intros k Hk'. apply HU. by apply (sub_subseteq _ _ _ _ Hk').
          -- by apply prefix_snoc.
        * destruct Hk as [Hk _]. rewrite bool_decide_false; [done|]. rewrite Hin, Hk. ssolve.
      + rewrite bool_decide_false; [done|]. intros Hin. apply lookup_ge_None in Ec.
        assert ((length p < length key)%nat); [|lia]. eapply inner_len with (X := X); done.
  Qed.

  (** Every path down to depth 12 that holds a key has its node stored under its path. *)
  Lemma stored f : forall db T p n X q, rep f db p n X -> X ⊆ U -> coh f db T p n -> p `prefix_of` q -> (length q <= 12)%nat ->
    (forall k, k ∈ X -> length k < length p + f)%nat -> under q X <> ∅ ->
    exists m f', deserialize <$> tget db T (pk q) = Some m /\ n_items m = N.of_nat (size (under q X)) /\
      node_hash H m = shash H (S f') (length q) (under q X) /\ (forall k, k ∈ under q X -> length k < length q + S f')%nat.
  Proof.
    induction f as [|f IH]; intros db T p n X q Hr HU Hc Hpq Hq Hf Hne; [done|].
    pose proof Hr as Hr0.
    destruct Hr as (Hi & HpX & Hs1 & Hs2 & Hr). destruct (decide (p = q)) as [<-|Hn].
    - rewrite under_all in * by done. destruct Hc as [Hc _]. rewrite Hc. eexists _, f. split; [done|].
      split; [exact Hi|]. split; [|intros k Hk; specialize (Hf k Hk); lia].
      assert (node_hash H (deserialize (serialize n)) = node_hash H n) as ->; [|by eapply rep_hash with (X := X)].
      unfold node_hash. assert (is_leaf (deserialize (serialize n)) = is_leaf n) as ->.
      { unfold is_leaf. destruct (n_children n) as [|[c x] r] eqn:E.
        - unfold deserialize, serialize. by rewrite E.
        - pose proof (deser_ser_children n c) as Hd. rewrite E, aget_head in Hd.
          destruct (n_children (deserialize (serialize n))); done. }
      assert (n_key (deserialize (serialize n)) = n_key n) as ->; [|done].
      destruct Hr as [(_ & _ & _ & Ek)|[(_ & _ & k & HX & Ek & _)|(Ek & _)]]; unfold deserialize, serialize; rewrite Ek; cbn; [done| |done].
      unfold id. destruct k as [|]; [|done]. exfalso. assert ([] ∈ U) as Hk by (apply HU; rewrite HX; ssolve). apply U_len in Hk. cbn in Hk. lia.
    - assert (exists c, p ++ [c] `prefix_of` q) as [c Hpc].
      { destruct Hpq as [r ->]. destruct r as [|c r]; [by rewrite app_nil_r in Hn|]. exists c, r. by rewrite <- app_assoc. }
      pose proof (prefix_length _ _ Hpc) as Hl. rewrite app_length in Hl. cbn in Hl.
      rewrite <- (under_sub p c) in Hne by done.
      destruct Hr as [(-> & _)|[(Hd & _)|(Ek & HX & Hsz & Hk)]]; [exfalso|lia|].
      { apply Hne. apply under_empty_iff. intros k. rewrite elem_sub. ssolve. }
      specialize (Hk c). destruct Hc as [_ Hc].
      destruct (aget c (n_children n)) as [x|] eqn:Ex; [|exfalso].
      2:{ destruct Hk as [Hk _]. apply Hne. rewrite Hk. apply under_empty_iff. ssolve. }
      destruct Hk as (Hsne & _ & HR). rewrite <- (under_sub p c) by done.
      assert (HsU : sub (length p) c X ⊆ U) by (intros k Hk; apply HU; by apply (sub_subseteq _ _ _ _ Hk)).
      eapply (IH db T (p ++ [c]) (loadc db p c x)); [done|done| |done|done| |done].
      + specialize (Hc c x Ex). destruct x as [m|]; cbn [loadc] in *; [done|].
        destruct (db !! pk (p ++ [c])) as [d|] eqn:Ed.
        * apply coh_load; [done| |done]. apply set_choose_L in Hsne as [k Hk]. exists k. split; [by apply HsU|].
          apply elem_sub in Hk as [? ?]. apply prefix_snoc. auto.
        * exfalso. apply rep_items in HR. cbn in HR. symmetry in HR. by apply size_N_empty in HR.
      + intros k Hk. apply elem_sub in Hk as [Hk _]. specialize (Hf k Hk). rewrite app_length. cbn. lia.
  Qed.

  Definition cleandb (db : kv dbnode) com : Prop :=
    forall q, q <> [] -> (length q <= 12)%nat -> under q com = ∅ -> db !! pk q = None.
  Definition cleantx (T : batch dbnode) com cur : Prop :=
    forall q, (length q <= 12)%nat -> under q cur = ∅ -> T !! pk q = Some None \/ (T !! pk q = None /\ under q com = ∅).

  (** [com]: committed keys, [cur]: keys including the open transaction, [dirty]: something changed since. *)
  Definition Inv (s : tstate) com cur (dirty : bool) : Prop :=
    com ⊆ U /\ cur ⊆ U /\
    (exists d : dbnode, ts_db s !! pk [] = Some d /\ rep F (ts_db s) [] (deserialize d) com) /\
    rep F (ts_db s) [] (ts_root s) cur /\
    (cur <> ∅ -> coh F (ts_db s) (ts_txn s) [] (ts_root s)) /\
    (dirty = false -> cur = ∅ -> ts_txn s = ∅) /\
    cleandb (ts_db s) com /\ cleantx (ts_txn s) com cur.

  Hypothesis F_pos : (0 < F)%nat.

  Lemma rep_empty db p : rep F db p empty_node ∅.
  Proof.
    destruct F as [|f]; [lia|]. cbn [TrieRep.rep empty_node n_items n_children n_chashes n_key].
    split; [done|]. split; [ssolve|]. split; [constructor|]. split; [constructor|]. by left.
  Qed.

  Lemma Inv_init : Inv trie_init ∅ ∅ false.
  Proof.
    refine (conj _ (conj _ (conj _ (conj _ (conj _ (conj _ (conj _ _))))))); [ssolve|ssolve|..]; cbn [trie_init ts_db ts_txn ts_root].
    - exists (serialize empty_node). split; [by rewrite lookup_singleton|]. apply rep_empty.
    - apply rep_empty.
    - done.
    - done.
    - intros q Hq _ _. rewrite lookup_singleton_ne; [done|]. unfold ROOT_KEY. intros E%pk_inj. congruence.
    - intros q _ _. right. split; [apply lookup_empty|]. apply under_empty_iff. ssolve.
  Qed.

  Lemma FUEL_gt keys k : k ∈ keys -> (length k < FUEL keys)%nat.
  Proof.
    intros Hk. unfold FUEL. assert (length k <= list_max (map length keys))%nat; [|lia].
    pose proof (proj1 (list_max_le (map length keys) (list_max (map length keys))) (le_n _)) as Hm.
    rewrite Forall_forall in Hm. apply Hm. change (map length keys) with (length <$> keys). by apply elem_of_list_fmap_1.
  Qed.

  (** Insertion at the nibble level. *)
  Lemma Inv_insert s com cur dirty (keys : list bytes) : Inv s com cur dirty -> keys <> [] -> (forall k, k ∈ keys -> k ∈ U) ->
    exists rs n txn ch, ins H order (FUEL keys) (ts_db s) (ts_root s) [] ∅ keys 0 = Ok (rs, n, ch, txn) /\
      length rs = length keys /\ count_true rs + N.of_nat (size cur) = N.of_nat (size (cur ∪ list_to_set keys)) /\
      Inv (mk_tstate (ts_db s) (tmerge (ts_txn s) txn) n) com (cur ∪ list_to_set keys) true.
  Proof.
    intros (I1 & I2 & I3 & I4 & I5 & I6 & I7 & I8) Hne HU.
    assert (ins_pre H U F (ts_db s) (ts_txn s) [] (ts_root s) cur [] ∅) as Hpre.
    { refine (conj I4 (conj I2 (conj _ (conj _ _)))); [|constructor|done].
      intros Hc. assert (tmerge (ts_txn s) ∅ = ts_txn s) as ->; [|auto]. unfold tmerge. by rewrite (left_id_L ∅ (∪)). }
    destruct (ins_ok H order U order_perm H_ne U_len U_pf U_nib (FUEL keys) F (ts_db s) (ts_txn s) [] U_fuel
      (ts_root s) [] ∅ keys cur Hpre Hne) as (rs & n & ch & txn & E & L & C & HR & HC & _ & _ & HW).
    { intros k Hk. split; [auto|]. split; [apply prefix_nil|]. by apply FUEL_gt. }
    cbn [length] in E. exists rs, n, txn, ch. split; [exact E|]. split; [done|]. split; [lia|].
    refine (conj I1 (conj _ (conj I3 (conj HR (conj (fun _ => HC) (conj _ (conj I7 _))))))); cbn [ts_txn ts_db].
    - intros k. rewrite elem_of_union, elem_of_list_to_set. intros [?|?]; auto.
    - done.
    - intros q Hq He. destruct (HW (pk q)) as [Eq|(q' & k & Eq & _ & Hk & Hqk)].
      + rewrite lookup_empty in Eq. rewrite lookup_tmerge, Eq. apply I8; [done|].
        rewrite under_empty_iff in He |- *. intros k Hk. apply He. apply elem_of_union. by left.
      + exfalso. apply pk_inj in Eq as <-. rewrite under_empty_iff in He. by apply (He k).
  Qed.

  Lemma Inv_delete s com cur dirty (keys : list bytes) : Inv s com cur dirty -> keys <> [] -> (forall k, k ∈ keys -> k ∈ U) ->
    exists rs n txn ch, del H order (FUEL keys) (ts_db s) (ts_root s) [] ∅ keys 0 = Ok (rs, n, ch, txn) /\
      length rs = length keys /\ count_true rs + N.of_nat (size (cur ∖ list_to_set keys)) = N.of_nat (size cur) /\
      Inv (mk_tstate (ts_db s) (tmerge (ts_txn s) txn) n) com (cur ∖ list_to_set keys) (dirty || (0 <? count_true rs)).
  Proof.
    intros (I1 & I2 & I3 & I4 & I5 & I6 & I7 & I8) Hne HU.
    assert (Em : tmerge (ts_txn s) ∅ = ts_txn s) by (unfold tmerge; by rewrite (left_id_L ∅ (∪))).
    destruct (decide (cur = ∅)) as [->|Hc].
    - assert (Hroot : n_children (ts_root s) = [] /\ n_key (ts_root s) = None).
      { destruct F as [|f]; [done|]. destruct I4 as (_ & _ & _ & _ & [(_ & ? & _ & ?)|[(? & _)|(_ & ? & _)]]); [done|cbn in *; lia|done]. }
      destruct Hroot as [R1 R2]. destruct keys as [|k0 keys]; [done|]. remember (k0 :: keys) as ks eqn:Eks.
      assert (E : del H order (FUEL ks) (ts_db s) (ts_root s) [] ∅ ks 0 = Ok (replicate (length ks) false, ts_root s, [], ∅)).
      { unfold FUEL. rewrite Eks at 1. cbn [del]. rewrite Eks at 1. unfold del_body. rewrite (proj2 (Nat.ltb_ge _ _)) by lia. rewrite <- Eks.
        unfold is_leaf. rewrite R1. unfold del_leaf. rewrite R2.
        assert (Hf : forall (i : nat) l, (forall k, k ∈ l -> k <> []) -> find_key None i l = None).
        { clear. intros i l; revert i; induction l as [|x l IH]; intros i Hl; [done|]. cbn [find_key default].
          rewrite decide_False by (intros E; apply (Hl x); [left|done]). apply IH. intros k Hk. apply Hl. by right. }
        rewrite Hf; [done|]. intros k Hk ->. apply HU, U_len in Hk. cbn in Hk. lia. }
      rewrite E. exists (replicate (length ks) false), (ts_root s), ∅, []. split; [done|]. split; [by rewrite replicate_length|].
      assert ((∅ : gset bytes) ∖ list_to_set ks = ∅) as -> by (apply set_eq; intros k; rewrite elem_of_difference; ssolve).
      rewrite count_true_replicate. split; [lia|]. rewrite Em. change (0 <? 0) with false. rewrite orb_false_r.
      destruct s as [sdb stxn sroot]. split_and!; done.
    - assert (del_pre H U F (ts_db s) (ts_txn s) [] (ts_root s) cur [] ∅) as Hpre.
      { refine (conj I4 (conj I2 (conj Hc (conj _ (conj _ _))))); [|constructor|done]. rewrite Em. auto. }
      destruct (del_ok H order U order_perm H_ne U_len U_pf U_nib U_nocol (FUEL keys) F (ts_db s) (ts_txn s) [] U_fuel
        (ts_root s) [] ∅ keys cur Hpre Hne) as (rs & n & ch & txn & E & L & C & Hit & HR & HC & _ & _ & HW & HG).
      { intros k Hk. split; [auto|]. split; [apply prefix_nil|]. by apply FUEL_gt. }
      cbn [length] in E. exists rs, n, txn, ch. split; [exact E|]. split; [done|]. split; [lia|].
      refine (conj I1 (conj _ (conj I3 (conj _ (conj HC (conj _ (conj I7 _))))))); cbn [ts_txn ts_db ts_root].
      + intros k. rewrite elem_of_difference. intros [? _]; auto.
      + apply HR. right. cbn. lia.
      + intros Hd HY. exfalso. rewrite HY, size_empty in C.
        assert (N.of_nat (size cur) <> 0) by (intros Ez; by apply size_N_empty in Ez).
        destruct (N.ltb_spec 0 (count_true rs)); [|lia]. by rewrite orb_true_r in Hd.
      + intros q Hq He. rewrite lookup_tmerge. destruct (decide (under q cur = ∅)) as [Hcq|Hcq].
        * assert (txn !! pk q = None) as ->; [|auto].
          destruct (HW (pk q)) as [Eq|(q' & (k & _ & Hk & Hqk) & [Eq|[Eq Hl]])].
          -- by rewrite lookup_empty in Eq.
          -- exfalso. apply pk_inj in Eq as <-. rewrite under_empty_iff in Hcq. by apply (Hcq k).
          -- exfalso. apply pk_inj in Eq as ->. cbn in Hq. lia.
        * left. rewrite HG; [done|done| |by apply under_empty_iff].
          apply set_choose_L in Hcq as [k Hk]. apply elem_under in Hk as [? ?]. exists k. split; [apply prefix_nil|done].
  Qed.

  Lemma Inv_reload db com (d : dbnode) : com ⊆ U -> db !! pk [] = Some d -> rep F db [] (deserialize d) com -> cleandb db com ->
    Inv (mk_tstate db ∅ (deserialize d)) com com false.
  Proof.
    intros HU Hd HR HCl. refine (conj HU (conj HU (conj _ (conj HR (conj _ (conj (fun _ _ => eq_refl) (conj HCl _))))))); cbn [ts_db ts_txn ts_root].
    - eauto.
    - intros Hne. apply coh_load; [done| |by intros; apply lookup_empty].
      apply set_choose_L in Hne as [k Hk]. exists k. split; [auto|apply prefix_nil].
    - intros q _ He. right. split; [apply lookup_empty|done].
  Qed.

  Lemma Inv_rollback s com cur dirty : Inv s com cur dirty ->
    exists s', trie_rollback s = Ok s' /\ Inv s' com com false.
  Proof.
    intros (I1 & I2 & (d & Hd & HR) & I4 & I5 & I6 & I7 & I8).
    unfold trie_rollback, trie_reload. change ROOT_KEY with (pk []). rewrite Hd. eexists. split; [done|]. by apply Inv_reload.
  Qed.

  Lemma cleandb_commit s com cur dirty : Inv s com cur dirty -> cleandb (commit (ts_db s) (ts_txn s)) cur.
  Proof.
    intros (I1 & I2 & _ & _ & _ & _ & I7 & I8) q Hq Hl He. rewrite lookup_commit. unfold tget.
    destruct (I8 q Hl He) as [->|[-> Hc]]; [done|]. by apply I7.
  Qed.

  Lemma Inv_commit s com cur dirty : Inv s com cur dirty -> cur <> ∅ \/ dirty = false ->
    exists s', trie_commit s = Ok s' /\ Inv s' cur cur false.
  Proof.
    intros HI Hcase. pose proof (cleandb_commit _ _ _ _ HI) as HCl.
    destruct HI as (I1 & I2 & (d & Hd & HR) & I4 & I5 & I6 & I7 & I8).
    destruct (decide (cur = ∅)) as [->|Hne].
    - destruct Hcase as [|Hdi]; [done|]. specialize (I6 Hdi eq_refl).
      destruct (I8 []) as [E|[_ E]]; [cbn; lia|apply under_empty_iff; ssolve|by rewrite I6, lookup_empty in E|]. rewrite under_nil in E. subst com.
      unfold trie_commit. rewrite I6, commit_empty. unfold trie_reload. change ROOT_KEY with (pk []). rewrite Hd. eexists. split; [done|].
      by apply Inv_reload.
    - specialize (I5 Hne). pose proof (rep_commit H U) as RC.
      assert (HR' : rep F (commit (ts_db s) (ts_txn s)) [] (deserialize (serialize (ts_root s))) cur) by (eapply RC; done).
      destruct F as [|f] eqn:EF; [lia|]. destruct I5 as [Hself _]. rewrite <- EF in *.
      unfold trie_commit, trie_reload. change ROOT_KEY with (pk []). rewrite lookup_commit.
      destruct (tget (ts_db s) (ts_txn s) (pk [])) as [d'|] eqn:Ed; [|done].
      change (Some (deserialize d') = Some (deserialize (serialize (ts_root s)))) in Hself. apply (inj Some) in Hself as Es.
      eexists. split; [done|]. rewrite <- Es in HR'. apply Inv_reload; [done|by rewrite lookup_commit|done|done].
  Qed.

  Lemma Inv_hash s com cur dirty : Inv s com cur dirty -> trie_root_hash H s = shash H F 0 cur.
  Proof.
    intros (_ & I2 & _ & I4 & _). unfold trie_root_hash. destruct F as [|f]; [lia|].
    change 0%nat with (length (@nil N)). eapply rep_hash with (X := cur); done.
  Qed.
  Lemma Inv_items s com cur dirty : Inv s com cur dirty -> trie_items s = N.of_nat (size cur).
  Proof. intros (_ & _ & _ & I4 & _). by eapply rep_items. Qed.
  Lemma Inv_exists s com cur dirty key : Inv s com cur dirty -> key <> [] ->
    exists_ (FUEL [key]) (ts_db s) (ts_root s) key 0 = Ok (bool_decide (key ∈ cur)).
  Proof.
    intros (_ & I2 & _ & I4 & _) Hne. change 0%nat with (length (@nil N)).
    eapply exists_ok; [done|done|done|apply prefix_nil|]. cbn. apply FUEL_gt. left.
  Qed.

  (** What a lookup of the node at path [q] returns: the keys of the open transaction below [q], except that once
      they are all gone it falls back to the committed ones. *)
  Definition visible q com cur : gset bytes := if decide (under q cur = ∅) then under q com else under q cur.

  Lemma Inv_lookup s com cur dirty q : Inv s com cur dirty -> (length q <= 12)%nat ->
    match get_node_from_txn_or_db s (pk q) with
    | Some m => n_items m = N.of_nat (size (visible q com cur)) /\ node_hash H m = shash H F (length q) (visible q com cur)
    | None => visible q com cur = ∅
    end.
  Proof.
    intros (I1 & I2 & (d & Hd & HR) & I4 & I5 & I6 & I7 & I8) Hq. unfold visible.
    assert (Hfu : forall X f', X ⊆ U -> (forall k, k ∈ under q X -> length k < length q + S f')%nat ->
      shash H (S f') (length q) (under q X) = shash H F (length q) (under q X)).
    { intros X f' HX Hf. apply shash_fuel. intros k Hk. pose proof (Hf k Hk). apply elem_under in Hk as [Hk ?].
      split_and!; [done|lia|]. apply HX, U_fuel in Hk. lia. }
    destruct (decide (under q cur = ∅)) as [He|He].
    - assert (get_node_from_txn_or_db s (pk q) = deserialize <$> ts_db s !! pk q) as ->.
      { unfold get_node_from_txn_or_db. by destruct (I8 q Hq He) as [->|[-> _]]. }
      destruct (decide (under q com = ∅)) as [Hc|Hc].
      + destruct (decide (q = [])) as [->|Hn].
        * rewrite Hd. cbn [fmap option_fmap option_map length]. rewrite under_nil in *. subst com.
          split; [by eapply rep_items|].
          destruct F as [|f]; [lia|]. change 0%nat with (length (@nil N)). eapply rep_hash with (X := ∅); done.
        * by rewrite (I7 q Hn Hq Hc).
      + destruct (stored F (ts_db s) ∅ [] (deserialize d) com q) as (m & f' & E & Hi & Hh & Hf); try done.
        * apply coh_load; [done| |by intros; apply lookup_empty].
          apply set_choose_L in Hc as [k Hk]. apply elem_under in Hk as [? _]. exists k. split; [auto|apply prefix_nil].
        * apply prefix_nil.
        * intros k Hk. cbn. auto.
        * rewrite tget_empty in E. rewrite E. split; [done|]. rewrite Hh. by apply Hfu.
    - destruct (stored F (ts_db s) (ts_txn s) [] (ts_root s) cur q) as (m & f' & E & Hi & Hh & Hf); try done.
      + apply I5. intros ->. apply He. apply under_empty_iff. ssolve.
      + apply prefix_nil.
      + intros k Hk. cbn. auto.
      + assert (get_node_from_txn_or_db s (pk q) = Some m) as ->.
        { unfold get_node_from_txn_or_db. unfold tget in E. by destruct (ts_txn s !! pk q) as [[|]|]. }
        split; [done|]. rewrite Hh. by apply Hfu.
  Qed.
End Top.
