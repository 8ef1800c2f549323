(** Histories of byte keys: the trie object refines a finite set of byte strings. *)
From Verif Require Export TrieHash CodecProofs.
From Coq Require Import ZifyN ZifyNat ZifyBool.
#[local] Open Scope N_scope.
Implicit Types (k b : bytes) (X com cur : gset bytes).

Lemma is_prefix_prefix (a b : bytes) : is_prefix a b = true <-> a `prefix_of` b.
Proof. rewrite is_prefix_spec. done. Qed.

(** Nibble form of a set of byte keys. *)
Definition nib X : gset bytes := set_map expand_nibbles X.
(** Keys of [X] starting with the byte string [b]. *)
Definition below b X : gset bytes := filter (fun k => is_prefix b k = true) X.

(** The root hash as a function of the set of keys only. *)
Definition maxlen X : nat := list_max (map length (elements X)).
Definition spec_root (H : bytes -> bytes) X : bytes := shash H (S (maxlen (nib X))) 0 (nib X).
(** The strings hashed on the way. *)
Definition spec_hashed (H : bytes -> bytes) X : list bytes := hashed H (S (maxlen (nib X))) 0 (nib X).
Definition spec_node (H : bytes -> bytes) b X : bytes :=
  shash H (S (maxlen (nib (below b X)))) (2 * length b) (nib (below b X)).

(** Keys the trie can store: bytes, at least 6 of them, none a prefix of another. *)
Definition good_keys (l : list bytes) : bool :=
  forallb (fun k => bytes_ok k && Nat.leb 6 (length k)) l &&
  forallb (fun a => forallb (fun b => negb (is_prefix a b) || bool_decide (a = b)) l) l.
(** No key continues the path 8 . (first 13 nibbles of a key), see [compact]. *)
Definition no_misdirected_delete (l : list bytes) : bool :=
  forallb (fun a => forallb (fun b => negb (is_prefix (8 :: take 13 (expand_nibbles a)) (expand_nibbles b))) l) l.

Definition to_sop (o : trie_op) : sop :=
  match o with TInsert k => SInsert k | TDelete k => SDelete k | TCommit => SCommit | TRollback => SRollback end.
Definition op_keys (o : trie_op) : list bytes := match o with TInsert k | TDelete k => [k] | _ => [] end.
Definition ops_keys (os : list trie_op) : list bytes := concat (map op_keys os).

(** A commit is allowed only if the trie holds a key or nothing was changed since the last commit or rollback. *)
Definition sdirty (dirty : bool) (o : sop) (r : list bool) : bool :=
  match o with SCommit | SRollback => false | _ => dirty || existsb id r end.
Fixpoint safe_commits (st : gset bytes * gset bytes) (dirty : bool) (os : list sop) : bool :=
  match os with
  | [] => true
  | o :: os =>
      (match o with SCommit => bool_decide (st.2 <> ∅) || negb dirty | _ => true end) &&
      let '(r, st') := sstep st o in safe_commits st' (sdirty dirty o r) os
  end.

(** Committed and current set at the end of a history. *)
Definition final (os : list trie_op) : gset bytes * gset bytes := (srun (∅, ∅) (map to_sop os)).2.
Definition answers (os : list trie_op) : list (list bool) := (srun (∅, ∅) (map to_sop os)).1.
Definition history_ok (os : list trie_op) : bool :=
  good_keys (ops_keys os) && no_misdirected_delete (ops_keys os) && safe_commits (∅, ∅) false (map to_sop os).

Lemma elem_nib X x : x ∈ nib X <-> exists k, k ∈ X /\ x = expand_nibbles k.
Proof. unfold nib. rewrite elem_of_map. naive_solver. Qed.
Lemma nib_union X Y : nib (X ∪ Y) = nib X ∪ nib Y.
Proof. unfold nib. by rewrite set_map_union_L. Qed.
Lemma nib_singleton k : nib {[k]} = {[expand_nibbles k]}.
Proof. unfold nib. by rewrite set_map_singleton_L. Qed.
Lemma nib_empty : nib ∅ = ∅.
Proof. unfold nib. by rewrite set_map_empty. Qed.
Lemma nib_empty_iff X : nib X = ∅ <-> X = ∅.
Proof.
  split; [|intros ->; apply nib_empty]. intros E. apply set_eq. intros k. split; [|ssolve]. intros Hk.
  assert (expand_nibbles k ∈ nib X) as Hi by (apply elem_nib; eauto). rewrite E in Hi. ssolve.
Qed.
Lemma nib_mono X Y : X ⊆ Y -> nib X ⊆ nib Y.
Proof. intros Hs x. rewrite !elem_nib. naive_solver. Qed.

Section Bytes.
  Variable B : gset bytes.
  Hypothesis B_ok : forall k, k ∈ B -> bytes_ok k = true.

  Lemma nib_elem_iff X k : X ⊆ B -> bytes_ok k = true -> (expand_nibbles k ∈ nib X <-> k ∈ X).
  Proof.
    intros HX Hk. rewrite elem_nib. split; [|eauto]. intros (k' & Hk' & E). apply expand_inj in E; [by subst|done|auto].
  Qed.
  Lemma nib_diff X k : X ⊆ B -> bytes_ok k = true -> nib (X ∖ {[k]}) = nib X ∖ {[expand_nibbles k]}.
  Proof.
    intros HX Hk. apply set_eq. intros x. rewrite elem_of_difference, !elem_nib, elem_of_singleton. split.
    - intros (k' & Hk' & ->). apply elem_of_difference in Hk' as [H1 H2]. rewrite elem_of_singleton in H2. split; [eauto|].
      intros E. apply expand_inj in E; [done|auto|done].
    - intros [(k' & Hk' & ->) Hn]. exists k'. split; [|done]. apply elem_of_difference. split; [done|].
      rewrite elem_of_singleton. by intros ->.
  Qed.
  Lemma nib_size X : X ⊆ B -> size (nib X) = size X.
  Proof.
    intros HX. unfold nib, set_map. rewrite <- (list_to_set_elements_L X) at 2.
    rewrite !size_list_to_set; [by rewrite fmap_length|apply NoDup_elements|].
    apply NoDup_fmap_2_strong; [|apply NoDup_elements].
    intros a b Ha Hb. apply elem_of_elements in Ha, Hb. apply expand_inj; auto.
  Qed.
  Lemma nib_below b X : X ⊆ B -> bytes_ok b = true -> nib (below b X) = under (expand_nibbles b) (nib X).
  Proof.
    intros HX Hb. apply set_eq. intros x. rewrite elem_under, !elem_nib. split.
    - intros (k & Hk & ->). apply elem_of_filter in Hk as [H1 H2]. split; [eauto|].
      apply is_prefix_prefix. rewrite expand_prefix; auto.
    - intros [(k & Hk & ->) Hp]. exists k. split; [|done]. apply elem_of_filter. split; [|done].
      apply is_prefix_prefix in Hp. rewrite expand_prefix in Hp; auto.
  Qed.
  Lemma nib_inj X Y : X ⊆ B -> Y ⊆ B -> nib X = nib Y -> X = Y.
  Proof.
    intros HX HY E. apply set_eq. intros k. split; intros Hk.
    - apply (nib_elem_iff Y k HY); [auto|]. rewrite <- E. apply elem_nib. eauto.
    - apply (nib_elem_iff X k HX); [auto|]. rewrite E. apply elem_nib. eauto.
  Qed.
End Bytes.

Lemma maxlen_lt X k : k ∈ X -> (length k < S (maxlen X))%nat.
Proof.
  intros Hk. unfold maxlen.
  pose proof (proj1 (list_max_le (map length (elements X)) (list_max (map length (elements X)))) (le_n _)) as Hm.
  rewrite Forall_forall in Hm. apply Nat.lt_succ_r, Hm. change (map length (elements X)) with (length <$> elements X).
  apply elem_of_list_fmap_1. by apply elem_of_elements.
Qed.

Section Run.
  Variable H : bytes -> bytes.
  Variable order : list N -> list N.
  Hypothesis order_perm : forall l, Permutation (order l) l.
  Hypothesis H_ne : forall x, H x <> [].
  Variable l : list bytes.
  Hypothesis l_good : good_keys l = true.
  Hypothesis l_nocol : no_misdirected_delete l = true.

  Definition B : gset bytes := list_to_set l.
  Definition UB : gset bytes := nib B.
  Definition FB : nat := S (maxlen UB).

  Lemma good_parts : (forall k, k ∈ l -> bytes_ok k = true /\ (6 <= length k)%nat) /\
    (forall a b, a ∈ l -> b ∈ l -> is_prefix a b = true -> a = b).
  Proof.
    unfold good_keys in l_good. apply andb_prop in l_good as [H1 H2]. split.
    - intros k Hk. rewrite forallb_forall in H1. specialize (H1 k). apply elem_of_list_In in Hk. specialize (H1 Hk).
      apply andb_prop in H1 as [? E]. apply Nat.leb_le in E. done.
    - intros a b Ha Hb Hp. rewrite forallb_forall in H2. apply elem_of_list_In in Ha, Hb. specialize (H2 a Ha).
      rewrite forallb_forall in H2. specialize (H2 b Hb). rewrite Hp in H2. cbn in H2. by apply bool_decide_eq_true in H2.
  Qed.
  Lemma B_ok k : k ∈ B -> bytes_ok k = true.
  Proof. intros Hk. unfold B in Hk. apply elem_of_list_to_set in Hk. by apply good_parts. Qed.
  Lemma UB_elem x : x ∈ UB -> exists k, k ∈ l /\ x = expand_nibbles k.
  Proof. unfold UB. rewrite elem_nib. intros (k & Hk & ->). unfold B in Hk. apply elem_of_list_to_set in Hk. eauto. Qed.
  Lemma UB_in k : k ∈ l -> expand_nibbles k ∈ UB.
  Proof. intros Hk. unfold UB. apply elem_nib. exists k. split; [|done]. unfold B. by apply elem_of_list_to_set. Qed.
  Lemma UB_len x : x ∈ UB -> (12 <= length x)%nat.
  Proof. intros (k & Hk & ->)%UB_elem. rewrite expand_len. apply good_parts in Hk. lia. Qed.
  Lemma UB_pf x y : x ∈ UB -> y ∈ UB -> x `prefix_of` y -> x = y.
  Proof.
    intros (k & Hk & ->)%UB_elem (k' & Hk' & ->)%UB_elem Hp. apply is_prefix_prefix in Hp.
    rewrite expand_prefix in Hp by (by apply good_parts). f_equal. by apply good_parts.
  Qed.
  Lemma UB_nib x : x ∈ UB -> forall (i : nat) (c : N), x !! i = Some c -> c < 16.
  Proof.
    intros (k & Hk & ->)%UB_elem i c Hc. apply good_parts in Hk as [Hk _]. apply expand_nibble_range in Hk.
    rewrite Forall_forall in Hk. apply Hk. by eapply elem_of_list_lookup_2.
  Qed.
  Lemma UB_nocol x y : x ∈ UB -> y ∈ UB -> ~ (MERKLE_TRIE_NODE :: take 13 x) `prefix_of` y.
  Proof.
    intros (k & Hk & ->)%UB_elem (k' & Hk' & ->)%UB_elem Hp. apply is_prefix_prefix in Hp.
    unfold no_misdirected_delete in l_nocol. rewrite forallb_forall in l_nocol. apply elem_of_list_In in Hk, Hk'.
    specialize (l_nocol k Hk). rewrite forallb_forall in l_nocol. specialize (l_nocol k' Hk').
    change (8 :: take 13 (expand_nibbles k)) with (MERKLE_TRIE_NODE :: take 13 (expand_nibbles k)) in l_nocol.
    by rewrite Hp in l_nocol.
  Qed.
  Lemma UB_fuel x : x ∈ UB -> (length x < FB)%nat.
  Proof. apply maxlen_lt. Qed.

  Lemma FB_pos : (0 < FB)%nat.
  Proof. apply Nat.lt_0_succ. Qed.

  Definition BInv (s : tstate) com cur (dirty : bool) : Prop :=
    com ⊆ B /\ cur ⊆ B /\ Inv H UB FB s (nib com) (nib cur) dirty.

  Lemma BInv_init : BInv trie_init ∅ ∅ false.
  Proof. split; [ssolve|]. split; [ssolve|]. rewrite nib_empty. exact (Inv_init H order UB order_perm H_ne UB_len UB_pf UB_nib UB_nocol FB UB_fuel FB_pos). Qed.

  Lemma not_short keys : (forall k, k ∈ keys -> k ∈ l) -> existsb (fun k => Nat.ltb (length k) UNCOMPACTED) (map expand_nibbles keys) = false.
  Proof.
    intros Hk. apply not_true_iff_false. intros E. apply existsb_exists in E as (x & Hx & Hl). apply elem_of_list_In in Hx.
    apply elem_of_list_fmap in Hx as (k & -> & Hin). apply Nat.ltb_lt in Hl. rewrite expand_len in Hl.
    apply Hk, good_parts in Hin. unfold UNCOMPACTED in Hl. lia.
  Qed.
  Lemma nib_list keys : list_to_set (map expand_nibbles keys) = nib (list_to_set keys).
  Proof.
    apply set_eq. intros x. rewrite elem_of_list_to_set, elem_nib. rewrite elem_of_list_fmap.
    setoid_rewrite elem_of_list_to_set. naive_solver.
  Qed.

  (** A batch insert: the number of [true] flags is the number of new keys. *)
  Lemma BInv_insert s com cur dirty (keys : list bytes) : BInv s com cur dirty -> keys <> [] -> (forall k, k ∈ keys -> k ∈ l) ->
    exists rs s', trie_insert H order s keys = Ok (rs, s') /\ length rs = length keys /\
      count_true rs = N.of_nat (size (list_to_set keys ∖ cur : gset bytes)) /\ BInv s' com (cur ∪ list_to_set keys) true.
  Proof.
    intros (H1 & H2 & HI) Hne Hk.
    assert (HkB : list_to_set keys ⊆ B) by (intros k; rewrite elem_of_list_to_set; intros Hin; unfold B; apply elem_of_list_to_set; auto).
    destruct (Inv_insert H order UB order_perm H_ne UB_len UB_pf UB_nib UB_nocol FB UB_fuel FB_pos s _ _ dirty (map expand_nibbles keys) HI)
      as (rs & n & txn & ch & E & L & C & HI').
    { by destruct keys. }
    { intros x Hx. apply elem_of_list_fmap in Hx as (k & -> & Hin). apply UB_in. auto. }
    unfold trie_insert. rewrite (not_short keys Hk).
    assert (Em : forall A (a b : A), match map expand_nibbles keys with [] => a | _ :: _ => b end = b) by (intros; by destruct keys).
    rewrite Em. rewrite E. eexists _, _. split; [done|]. rewrite map_length in L. split; [done|].
    rewrite nib_list, <- nib_union in C, HI'.
    assert (HU : cur ∪ list_to_set keys ⊆ B) by (intros k; rewrite elem_of_union; intros [?|?]; auto).
    split.
    - rewrite !(nib_size B B_ok) in C by done.
      assert (size (cur ∪ list_to_set keys : gset bytes) = size cur + size (list_to_set keys ∖ cur : gset bytes))%nat as Hs by apply size_union_alt.
      lia.
    - split; [done|]. split; [done|]. exact HI'.
  Qed.

  Lemma BInv_delete s com cur dirty k : BInv s com cur dirty -> k ∈ l ->
    exists s', trie_delete H order s [k] = Ok ([bool_decide (k ∈ cur)], s') /\
      BInv s' com (cur ∖ {[k]}) (dirty || bool_decide (k ∈ cur)).
  Proof.
    intros (H1 & H2 & HI) Hk.
    destruct (Inv_delete H order UB order_perm H_ne UB_len UB_pf UB_nib UB_nocol FB UB_fuel FB_pos) with (s := s) (com := nib com) (cur := nib cur)
      (dirty := dirty) (keys := [expand_nibbles k]) as (rs & n & txn & ch & E & L & C & HI'); [try done..|].
    { intros x Hx. apply elem_of_list_singleton in Hx as ->. by apply UB_in. }
    unfold trie_delete. rewrite (not_short [k]) by (intros k' Hk'; apply elem_of_list_singleton in Hk' as ->; done).
    cbn [map]. rewrite E.
    assert (Hb : bytes_ok k = true) by by apply good_parts.
    assert (list_to_set [expand_nibbles k] = ({[expand_nibbles k]} : gset bytes)) as El by (cbn; by rewrite (right_id_L ∅ (∪))).
    rewrite El, <- (nib_diff B B_ok) in C, HI' by done.
    assert (HD : cur ∖ {[k]} ⊆ B) by (intros x; rewrite elem_of_difference; intros [? _]; auto).
    rewrite !(nib_size B B_ok) in C by done. destruct rs as [|r [|]]; try done.
    rewrite count_true_cons, count_true_nil in *.
    assert (r = bool_decide (k ∈ cur)) as ->.
    { destruct (decide (k ∈ cur)) as [Hin|Hin].
      - rewrite bool_decide_true by done.
        assert (size cur = size (cur ∖ {[k]}) + 1)%nat as Hs.
        { rewrite size_difference; [|intros x Hx; apply elem_of_singleton in Hx as ->; done]. rewrite size_singleton.
          assert (size cur <> 0)%nat; [|lia]. intros Ez. apply size_empty_inv, leibniz_equiv in Ez. rewrite Ez in Hin. ssolve. }
        destruct r; [done|lia].
      - rewrite bool_decide_false by done. assert (cur ∖ {[k]} = cur) as Ed.
        { apply set_eq. intros x. rewrite elem_of_difference, elem_of_singleton. split; [tauto|]. intros Hx. split; [done|]. by intros ->. }
        rewrite Ed in C. destruct r; [lia|done]. }
    eexists. split; [done|]. split; [done|]. split; [done|].
    assert ((0 <? (if bool_decide (k ∈ cur) then 1 else 0) + 0) = bool_decide (k ∈ cur)) as Eb by by case_bool_decide.
    rewrite Eb in HI'. exact HI'.
  Qed.

  Lemma BInv_dirty s com cur d d' : BInv s com cur d -> cur <> ∅ -> BInv s com cur d'.
  Proof.
    intros (H1 & H2 & I1 & I2 & I3 & I4 & I5 & I6 & I7 & I8) Hne. split; [done|]. split; [done|].
    refine (conj I1 (conj I2 (conj I3 (conj I4 (conj I5 (conj _ (conj I7 I8))))))). intros _ E. apply (proj1 (nib_empty_iff _)) in E. done.
  Qed.

  Lemma BInv_step s com cur dirty o : BInv s com cur dirty -> (forall k, k ∈ op_keys o -> k ∈ l) ->
    (o = TCommit -> cur <> ∅ \/ dirty = false) ->
    let '(r, (com', cur')) := sstep (com, cur) (to_sop o) in
    exists s', tstep H order s o = Ok (r, s') /\ BInv s' com' cur' (sdirty dirty (to_sop o) r).
  Proof.
    intros HB Hk Hc. destruct o as [k|k| |]; cbn [to_sop sstep tstep op_keys] in *.
    - destruct (BInv_insert s com cur dirty [k] HB) as (rs & s' & E & L & C & HB'); [done|exact Hk|].
      assert (list_to_set [k] = ({[k]} : gset bytes)) as El by (cbn; by rewrite (right_id_L ∅ (∪))).
      rewrite El in *. destruct rs as [|r [|]]; try done. rewrite count_true_cons, count_true_nil in C.
      assert (r = bool_decide (k ∉ cur)) as ->.
      { case_bool_decide as Hin.
        - assert ({[k]} ∖ cur = ({[k]} : gset bytes)) as Ed.
          { apply set_eq. intros x. rewrite elem_of_difference, elem_of_singleton. split; [tauto|]. by intros ->. }
          rewrite Ed, size_singleton in C. destruct r; [done|lia].
        - assert ({[k]} ∖ cur = (∅ : gset bytes)) as Ed.
          { apply set_eq. intros x. rewrite elem_of_difference, elem_of_singleton. split; [|ssolve]. intros [-> ?]. done. }
          rewrite Ed, size_empty in C. destruct r; [lia|done]. }
      exists s'. split; [done|]. rewrite (comm_L (∪)) in HB'. eapply BInv_dirty; [exact HB'|]. ssolve.
    - destruct (BInv_delete s com cur dirty k HB) as (s' & E & HB'); [apply Hk; left|].
      exists s'. split; [done|]. cbn [sdirty existsb]. unfold id. by rewrite orb_false_r.
    - destruct HB as (H1 & H2 & HI). cbn [sdirty].
      destruct (Inv_commit H UB H_ne UB_len UB_pf UB_nib FB UB_fuel FB_pos) with (s := s) (com := nib com) (cur := nib cur) (dirty := dirty)
        as (s' & E & HI'); try done.
      { destruct Hc as [Hc|Hc]; [done|left; by rewrite nib_empty_iff|by right]. }
      rewrite E. exists s'. split; [done|]. split; [done|]. split; [done|]. exact HI'.
    - destruct HB as (H1 & H2 & HI). cbn [sdirty].
      destruct (Inv_rollback H UB FB s (nib com) (nib cur) dirty HI) as (s' & E & HI').
      rewrite E. exists s'. split; [done|]. split; [done|]. split; [done|]. exact HI'.
  Qed.

  Lemma BInv_run os : forall s com cur dirty, BInv s com cur dirty -> (forall k, k ∈ ops_keys os -> k ∈ l) ->
    safe_commits (com, cur) dirty (map to_sop os) = true ->
    exists s' dirty', trun H order s os = Ok ((srun (com, cur) (map to_sop os)).1, s') /\
      BInv s' (srun (com, cur) (map to_sop os)).2.1 (srun (com, cur) (map to_sop os)).2.2 dirty'.
  Proof.
    induction os as [|o os IH]; intros s com cur dirty HB Hk Hs.
    - exists s, dirty. done.
    - cbn [map srun safe_commits] in *.
      pose proof (BInv_step s com cur dirty o HB) as Hstep. feed specialize Hstep.
      { intros k Hin. apply Hk. unfold ops_keys. cbn. apply elem_of_app. by left. }
      { intros ->. cbn [to_sop] in Hs. apply andb_prop in Hs as [Hs _]. apply orb_prop in Hs as [Hs|Hs].
        - left. by apply bool_decide_eq_true in Hs.
        - right. by destruct dirty. }
      destruct (sstep (com, cur) (to_sop o)) as [r [com' cur']] eqn:Es. destruct Hstep as (s1 & E1 & HB1).
      assert (Hs' : safe_commits (com', cur') (sdirty dirty (to_sop o) r) (map to_sop os) = true) by (by apply andb_prop in Hs as [_ ?]).
      assert (Hk' : forall k, k ∈ ops_keys os -> k ∈ l) by (intros k Hin; apply Hk; unfold ops_keys; cbn; apply elem_of_app; by right).
      destruct (IH s1 com' cur' _ HB1 Hk' Hs') as (s2 & d2 & E2 & HB2).
      exists s2, d2. cbn [trun]. rewrite E1, E2. destruct (srun (com', cur') (map to_sop os)) as [rs [c1 c2]] eqn:Er. done.
  Qed.

  Lemma BInv_root s com cur dirty : BInv s com cur dirty -> trie_root_hash H s = spec_root H cur.
  Proof.
    intros (H1 & H2 & HI). rewrite (Inv_hash H UB H_ne UB_len UB_pf UB_nib FB UB_fuel FB_pos _ _ _ _ HI).
    unfold spec_root. change 0%nat with (length (@nil N)). apply shash_fuel. intros k Hk. split; [apply prefix_nil|].
    split; [cbn; apply UB_fuel; by apply (nib_mono cur B)|]. cbn. by apply maxlen_lt.
  Qed.
  Lemma BInv_items s com cur dirty : BInv s com cur dirty -> trie_items s = N.of_nat (size cur).
  Proof. intros (H1 & H2 & HI). erewrite Inv_items by done. by rewrite (nib_size B B_ok). Qed.
  Lemma BInv_exists s com cur dirty k : BInv s com cur dirty -> bytes_ok k = true -> k <> [] ->
    trie_exists s k = Ok (bool_decide (k ∈ cur)).
  Proof.
    intros (H1 & H2 & HI) Hk Hne. unfold trie_exists.
    rewrite (Inv_exists H order UB order_perm H_ne UB_len UB_pf UB_nib UB_nocol FB UB_fuel FB_pos _ _ _ _ _ HI) by by destruct k.
    f_equal. apply bool_decide_ext. by apply (nib_elem_iff B B_ok).
  Qed.

  Definition bvisible b com cur : gset bytes := if decide (below b cur = ∅) then below b com else below b cur.

  Lemma BInv_lookup s com cur dirty b : BInv s com cur dirty -> bytes_ok b = true -> (length b <= 6)%nat ->
    get_count s b = N.of_nat (size (bvisible b com cur)) /\ get_hash H s b = spec_node H b (if decide (below b cur = ∅) then com else cur).
  Proof.
    intros (H1 & H2 & HI) Hb Hl.
    assert (Hq : (length (expand_nibbles b) <= 12)%nat) by (rewrite expand_len; lia).
    assert (Hlk' : match get_node_from_txn_or_db s (pk (expand_nibbles b)) with
      | Some m => n_items m = N.of_nat (size (visible (expand_nibbles b) (nib com) (nib cur))) /\
          node_hash H m = shash H FB (length (expand_nibbles b)) (visible (expand_nibbles b) (nib com) (nib cur))
      | None => visible (expand_nibbles b) (nib com) (nib cur) = ∅ end).
    { exact (Inv_lookup H order UB order_perm H_ne UB_len UB_pf UB_nib UB_nocol FB UB_fuel FB_pos _ _ _ _ _ HI Hq). }
    assert (Hv : visible (expand_nibbles b) (nib com) (nib cur) = nib (bvisible b com cur)).
    { unfold visible, bvisible. rewrite <- !(nib_below B B_ok) by done.
      destruct (decide (below b cur = ∅)) as [E|E].
      - rewrite decide_True; [done|]. by apply nib_empty_iff.
      - rewrite decide_False; [done|]. by rewrite nib_empty_iff. }
    rewrite Hv in Hlk'.
    assert (HvB : bvisible b com cur ⊆ B).
    { unfold bvisible. destruct (decide _); intros k Hk; apply elem_of_filter in Hk as [_ Hk]; auto. }
    rewrite (nib_size B B_ok) in Hlk' by done.
    assert (Hspec : spec_node H b (if decide (below b cur = ∅) then com else cur) = shash H FB (length (expand_nibbles b)) (nib (bvisible b com cur))).
    { unfold spec_node, bvisible. rewrite expand_len, <- (expand_len b).
      assert (Hz : forall Z, Z ⊆ B -> shash H (S (maxlen (nib (below b Z)))) (length (expand_nibbles b)) (nib (below b Z)) =
        shash H FB (length (expand_nibbles b)) (nib (below b Z))).
      { intros Z HZ. apply shash_fuel. intros k Hk. pose proof (maxlen_lt _ _ Hk) as Hm.
        rewrite (nib_below B B_ok) in Hk by done. apply elem_under in Hk as [Hk Hp]. split; [done|]. split; [lia|].
        apply (nib_mono Z B HZ), UB_fuel in Hk. lia. }
      destruct (decide (below b cur = ∅)); by apply Hz. }
    rewrite Hspec. unfold get_count, get_hash, get_node.
    change (make_primary_key (expand_nibbles b) None) with (pk (expand_nibbles b)).
    destruct (get_node_from_txn_or_db s (pk (expand_nibbles b))) as [m|]; [done|].
    assert (bvisible b com cur = ∅) as -> by by apply nib_empty_iff.
    rewrite nib_empty, shash_empty, size_empty. done.
  Qed.

  Lemma collide_bytes (L : nat) X Y : X ⊆ B -> Y ⊆ B -> (0 < L)%nat -> (forall x, length (H x) = L) ->
    (forall k (m : nat), k ∈ B -> 2 * length k <> m * L)%nat -> X <> Y -> spec_root H X = spec_root H Y ->
    exists x y, x ∈ spec_hashed H X /\ y ∈ spec_hashed H Y /\ x <> y /\ H x = H y.
  Proof.
    intros HX HY HL Hlen Hbl Hne E.
    assert (Hr : forall Z, Z ⊆ B -> spec_root H Z = shash H FB 0 (nib Z)).
    { intros Z HZ. unfold spec_root. change 0%nat with (length (@nil N)). apply shash_fuel. intros k Hk. split; [apply prefix_nil|].
      split; [cbn; by apply maxlen_lt|]. cbn. apply UB_fuel. by apply (nib_mono Z B). }
    rewrite !Hr in E by done.
    assert (Hr' : forall Z, Z ⊆ B -> spec_hashed H Z = hashed H FB 0 (nib Z)).
    { intros Z HZ. unfold spec_hashed. change 0%nat with (length (@nil N)). apply hashed_fuel. intros k Hk. split; [apply prefix_nil|].
      split; [cbn; by apply maxlen_lt|]. cbn. apply UB_fuel. by apply (nib_mono Z B). }
    rewrite !Hr' by done.
    destruct (shash_collide H UB L HL Hlen UB_len UB_pf UB_nib) with (f := FB) (p := @nil N) (q := @nil N) (X := nib X) (Y := nib Y)
      as (x & y & Hx & Hy & Hxy & Hh); try done.
    - intros k m (k' & Hk' & ->)%UB_elem. rewrite expand_len. apply Hbl. unfold B. by apply elem_of_list_to_set.
    - by apply nib_mono.
    - by apply nib_mono.
    - intros k Hk. split; [apply prefix_nil|]. cbn. apply UB_fuel. by apply (nib_mono X B).
    - intros k Hk. split; [apply prefix_nil|]. cbn. apply UB_fuel. by apply (nib_mono Y B).
    - intros En. apply Hne. by apply (nib_inj B B_ok).
    - exists x, y. auto.
  Qed.
End Run.
