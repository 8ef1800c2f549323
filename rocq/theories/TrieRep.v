(** Representation relation between the node tree (memory and disk) and the set of keys. *)
From Verif Require Export Trie TrieSpec.
From Coq Require Import ZifyN ZifyNat ZifyBool.

#[local] Open Scope N_scope.
Implicit Types (p q k : bytes) (c : N) (d : nat) (X Y : gset bytes) (n m : node).

Notation pk p := (make_primary_key p None).

Lemma pk_child p c : make_primary_key p (Some c) = pk (p ++ [c]).
Proof. unfold make_primary_key. by rewrite app_nil_r. Qed.
Lemma pk_inj p q : pk p = pk q -> p = q.
Proof. unfold make_primary_key. rewrite !app_nil_r. intros E. by apply cons_inj in E as [_ E]. Qed.

(** ** Sets of keys *)
Lemma elem_sub d c (X : gset bytes) k : k ∈ sub d c X <-> k ∈ X /\ k !! d = Some c.
Proof. unfold sub. rewrite elem_of_filter. naive_solver. Qed.
Lemma elem_under p (X : gset bytes) k : k ∈ under p X <-> k ∈ X /\ p `prefix_of` k.
Proof. unfold under. rewrite elem_of_filter. naive_solver. Qed.
Lemma sub_union d c X Y : sub d c (X ∪ Y) = sub d c X ∪ sub d c Y.
Proof. apply set_eq. intros k. rewrite elem_of_union, !elem_sub. set_solver. Qed.
Lemma sub_diff d c X Y : sub d c (X ∖ Y) = sub d c X ∖ sub d c Y.
Proof. apply set_eq. intros k. rewrite elem_of_difference, !elem_sub. set_solver. Qed.
Lemma sub_empty d c : sub d c ∅ = ∅.
Proof. apply set_eq. intros k. rewrite elem_sub. set_solver. Qed.
Lemma sub_subseteq d c X : sub d c X ⊆ X.
Proof. intros k. rewrite elem_sub. tauto. Qed.
Lemma sub_id d c X : (forall k, k ∈ X -> k !! d = Some c) -> sub d c X = X.
Proof. intros HX. apply set_eq. intros k. rewrite elem_sub. naive_solver. Qed.
Lemma sub_none d c X : (forall k, k ∈ X -> k !! d <> Some c) -> sub d c X = ∅.
Proof. intros HX. apply set_eq. intros k. rewrite elem_sub. set_solver. Qed.
Lemma size_split d c X : size X = (size (sub d c X) + size (X ∖ sub d c X))%nat.
Proof.
  rewrite <- size_union by set_solver. f_equal. apply set_eq. intros k.
  pose proof (sub_subseteq d c X k). destruct (decide (k ∈ sub d c X)); set_solver.
Qed.
Lemma size_add_sub d c (X Y : gset bytes) : (forall k, k ∈ Y -> k !! d = Some c) ->
  (size (X ∪ Y) + size (sub d c X) = size X + size (sub d c X ∪ Y))%nat.
Proof.
  intros HY. rewrite (size_split d c (X ∪ Y)), (size_split d c X), sub_union, (sub_id d c Y) by done.
  replace ((X ∪ Y) ∖ (sub d c X ∪ Y)) with (X ∖ sub d c X); [lia|].
  apply set_eq. intros k. rewrite !elem_of_difference, !elem_of_union, !elem_sub.
  specialize (HY k). naive_solver.
Qed.
Lemma size_del_sub d c (X Y : gset bytes) : (forall k, k ∈ Y -> k !! d = Some c) ->
  (size (X ∖ Y) + size (sub d c X) = size X + size (sub d c X ∖ Y))%nat.
Proof.
  intros HY. rewrite (size_split d c (X ∖ Y)), (size_split d c X), sub_diff, (sub_id d c Y) by done.
  replace ((X ∖ Y) ∖ (sub d c X ∖ Y)) with (X ∖ sub d c X); [lia|].
  apply set_eq. intros k. rewrite !elem_of_difference, !elem_sub.
  specialize (HY k). naive_solver.
Qed.
Lemma the_key_singleton k : the_key {[k]} = k.
Proof. unfold the_key. by rewrite elements_singleton. Qed.
Lemma size_1_singleton (X : gset bytes) : size X = 1%nat -> exists k, X = {[k]}.
Proof.
  intros Hs. destruct (size_1_elem_of X Hs) as [k Hk]. exists k. set_solver.
Qed.

Lemma prefix_snoc p c k : p ++ [c] `prefix_of` k <-> p `prefix_of` k /\ k !! length p = Some c.
Proof.
  split.
  - intros [r ->]. rewrite <- app_assoc. split; [by apply prefix_app_r|].
    rewrite lookup_app_r by lia. by rewrite Nat.sub_diag.
  - intros [[r ->] E]. rewrite lookup_app_r in E by lia. rewrite Nat.sub_diag in E.
    destruct r as [|x r]; [done|]. cbn in E. injection E as ->. exists r. by rewrite <- app_assoc.
Qed.
Lemma prefix_take p k : p `prefix_of` k -> take (length p) k = p.
Proof. intros [r ->]. by rewrite take_app. Qed.
Lemma prefix_total p q k : p `prefix_of` k -> q `prefix_of` k -> p `prefix_of` q \/ q `prefix_of` p.
Proof. intros. by eapply prefix_weak_total. Qed.
Lemma prefix_len_eq p k : p `prefix_of` k -> length p = length k -> p = k.
Proof. intros [r ->] E. rewrite app_length in E. destruct r; [by rewrite app_nil_r|cbn in E; lia]. Qed.
Lemma prefix_neq_snoc p c c' q : c <> c' -> p ++ [c] `prefix_of` q -> ~ p ++ [c'] `prefix_of` q.
Proof. rewrite !prefix_snoc. naive_solver congruence. Qed.

Lemma node_ext n n' : n_items n = n_items n' -> n_children n = n_children n' -> n_chashes n = n_chashes n' ->
  n_key n = n_key n' -> n = n'.
Proof. destruct n, n'; cbn. by intros -> -> -> ->. Qed.

Section Rep.
  Variable H : bytes -> bytes.
  (** The keys ever used. *)
  Variable U : gset bytes.

  Definition loadc (db : kv dbnode) (p : bytes) (c : N) (x : child) : node :=
    match x with
    | CNode m => m
    | CSer => match db !! pk (p ++ [c]) with Some d => deserialize d | None => empty_node end
    end.

  Definition kids (R : bytes -> node -> gset bytes -> Prop) (sh : gset bytes -> bytes) (db : kv dbnode)
      (p : bytes) (ch : amap child) (hs : amap bytes) (X : gset bytes) : Prop :=
    forall c, match aget c ch with
         | None => sub (length p) c X = ∅ /\ aget c hs = None
         | Some x =>
             sub (length p) c X <> ∅ /\ aget c hs = Some (sh (sub (length p) c X)) /\
             R (p ++ [c]) (loadc db p c x) (sub (length p) c X)
         end.

  (** [n] (whose unloaded children are read from [db]) represents the set [X] at path [p]. *)
  Fixpoint rep (f : nat) (db : kv dbnode) (p : bytes) (n : node) (X : gset bytes) : Prop :=
    match f with
    | O => False
    | S f =>
        n_items n = N.of_nat (size X) /\
        (forall k, k ∈ X -> p `prefix_of` k) /\
        asorted (n_children n) /\ asorted (n_chashes n) /\
        ((X = ∅ /\ n_children n = [] /\ n_chashes n = [] /\ n_key n = None) \/
         (12 <= length p /\ n_children n = [] /\
          exists k, X = {[k]} /\ n_key n = Some k /\ forall c, k !! length p <> Some c -> aget c (n_chashes n) = None)%nat \/
         (n_key n = None /\ X <> ∅ /\ (12 <= length p -> size X <> 1)%nat /\
          kids (rep f db) (shash H f (S (length p))) db p (n_children n) (n_chashes n) X))
    end.

  Definition Upre (q : bytes) : Prop := exists k, k ∈ U /\ q `prefix_of` k.

  (** The overlay of transaction [T] on [db] stores every in-memory node; below unloaded children the
      transaction has not touched any path that a key can take. *)
  Fixpoint coh (f : nat) (db : kv dbnode) (T : batch dbnode) (p : bytes) (n : node) : Prop :=
    match f with
    | O => True
    | S f =>
        deserialize <$> tget db T (pk p) = Some (deserialize (serialize n)) /\
        forall c x, aget c (n_children n) = Some x ->
          match x with
          | CNode m => coh f db T (p ++ [c]) m
          | CSer => forall q, p ++ [c] `prefix_of` q -> Upre q -> T !! pk q = None
          end
    end.
  Definition kcoh (f : nat) (db : kv dbnode) (T : batch dbnode) (p : bytes) (ch : amap child) : Prop :=
    forall c x, aget c ch = Some x ->
      match x with
      | CNode m => coh f db T (p ++ [c]) m
      | CSer => forall q, p ++ [c] `prefix_of` q -> Upre q -> T !! pk q = None
      end.

  Lemma shash_leaf f d k : (12 <= d)%nat -> shash H (S f) d {[k]} = H k.
  Proof.
    intros Hd. cbn [shash]. rewrite decide_False by set_solver.
    rewrite size_singleton, the_key_singleton. by rewrite (proj2 (Nat.leb_le 12 d)).
  Qed.

  Hypothesis H_ne : forall x, H x <> [].
  Hypothesis U_len : forall k, k ∈ U -> (12 <= length k)%nat.
  Hypothesis U_pf : forall a b, a ∈ U -> b ∈ U -> a `prefix_of` b -> a = b.
  Hypothesis U_nib : forall k, k ∈ U -> forall (i : nat) c, k !! i = Some c -> c < 16.

  Lemma shash_empty f d : shash H f d ∅ = [].
  Proof. destruct f; [done|]. cbn [shash]. by rewrite decide_True. Qed.
  Lemma shash_ne f d X : X <> ∅ -> shash H (S f) d X <> [].
  Proof. intros HX. cbn [shash]. rewrite decide_False by done. destruct (_ && _); apply H_ne. Qed.
  Lemma size_N_empty (X : gset bytes) : N.of_nat (size X) = 0 <-> X = ∅.
  Proof. rewrite <- (leibniz_equiv_iff X), <- size_empty_iff. lia. Qed.

  Lemma rep_items f db p n X : rep f db p n X -> n_items n = N.of_nat (size X).
  Proof. destruct f; [done|]. intros Hr. apply Hr. Qed.
  Lemma rep_prefix f db p n X k : rep f db p n X -> k ∈ X -> p `prefix_of` k.
  Proof. destruct f; [done|]. intros Hr. apply Hr. Qed.

  (** Hash of an inner node. *)
  Lemma kids_hash R f db p ch hs X : kids R (shash H f (S (length p))) db p ch hs X -> X ⊆ U ->
    asorted hs -> X <> ∅ -> (forall k, k ∈ X -> p `prefix_of` k /\ length p < length k)%nat ->
    ch <> [] /\ hs <> [] /\
    H (concat (map snd hs)) = H (concat (map (fun c => shash H f (S (length p)) (sub (length p) c X)) (nrange 16 0))).
  Proof.
    intros Hk HU Hs Hne Hp.
    apply set_choose_L in Hne as [k Hkx]. destruct (Hp k Hkx) as [_ Hl].
    destruct (lookup_lt_is_Some_2 k (length p) Hl) as [c Hc].
    pose proof (Hk c) as Hkc. assert (Hsub : k ∈ sub (length p) c X) by by apply elem_sub.
    assert (exists x, aget c ch = Some x /\ is_Some (aget c hs)) as (x & E1 & [y E2]).
    { destruct (aget c ch); [|set_solver]. destruct Hkc as (_ & -> & _). eauto. }
    split; [by intros ->|]. split; [by intros ->|]. f_equal. symmetry. apply concat_range; [done| |].
    - intros c' x' E. specialize (Hk c'). destruct (aget c' ch) eqn:E'; [|destruct Hk; congruence].
      destruct Hk as (Hne & _ & _). apply set_choose_L in Hne as [k' Hk']. apply elem_sub in Hk' as [H1 H2].
      pose proof (U_nib k' (HU _ H1) _ _ H2). lia.
    - intros c' _. specialize (Hk c'). destruct (aget c' ch) eqn:E'.
      + destruct Hk as (_ & -> & _). done.
      + destruct Hk as [-> ->]. by rewrite shash_empty.
  Qed.

  (** Below depth 12 a set with two keys (or any set above it) has no key ending here. *)
  Lemma inner_len (X : gset bytes) p k : X ⊆ U -> (forall k, k ∈ X -> p `prefix_of` k) ->
    (12 <= length p -> size X <> 1)%nat -> k ∈ X -> (length p < length k)%nat.
  Proof.
    intros HU Hp Hsz Hk. destruct (le_lt_dec 12 (length p)) as [Hd|Hd].
    - destruct (decide (length p < length k)%nat) as [|Hn]; [done|].
      pose proof (Hp k Hk) as Hpre. pose proof (prefix_length _ _ Hpre).
      assert (p = k) by (apply prefix_len_eq; [done|lia]). subst p.
      destruct (Hsz Hd). replace X with ({[k]} : gset bytes); [apply size_singleton|].
      apply set_eq. intros k'. rewrite elem_of_singleton. split; [by intros ->|].
      intros Hk'. symmetry. apply U_pf; auto.
    - pose proof (U_len k (HU k Hk)). lia.
  Qed.

  Lemma rep_hash f db p n X : rep (S f) db p n X -> X ⊆ U -> node_hash H n = shash H (S f) (length p) X.
  Proof.
    intros Hr HU. destruct Hr as (Hi & Hp & Hs1 & Hs2 & Hr). unfold node_hash, is_leaf.
    destruct Hr as [(-> & -> & _ & ->)|[(Hd & -> & k & -> & -> & _)|(Hkey & Hne & Hsz & Hk)]].
    - by rewrite shash_empty.
    - by rewrite shash_leaf.
    - destruct (kids_hash _ _ _ _ _ _ _ Hk HU Hs2 Hne) as (H1 & H2 & E).
      { intros k Hkx. split; [auto|]. by eapply inner_len. }
      destruct (n_children n) eqn:E1; [done|]. destruct (n_chashes n) eqn:E2; [done|]. rewrite E.
      cbn [shash]. rewrite decide_False by done.
      destruct (Nat.leb_spec 12 (length p)); [|done].
      destruct (Nat.eqb_spec (size X) 1); [|done]. by destruct Hsz.
  Qed.

  (** [rep] only reads paths that keys of the set take. *)
  Lemma rep_frame f db db' p n X : rep f db p n X -> X ⊆ U ->
    (forall q, p `prefix_of` q -> Upre q -> p <> q -> db' !! pk q = db !! pk q) -> rep f db' p n X.
  Proof.
    revert p n X; induction f as [|f IH]; intros p n X Hr HU Hdb; [done|].
    destruct Hr as (Hi & Hp & Hs1 & Hs2 & Hr). refine (conj Hi (conj Hp (conj Hs1 (conj Hs2 _)))).
    destruct Hr as [Hr|[Hr|(Hkey & Hne & Hsz & Hk)]]; [by left|by right; left|].
    right; right. refine (conj Hkey (conj Hne (conj Hsz _))). intros c. specialize (Hk c).
    destruct (aget c (n_children n)) as [x|] eqn:E; [|done]. destruct Hk as (Hn & Hh & HR). refine (conj Hn (conj Hh _)).
    assert (Upre (p ++ [c])) as HUp.
    { apply set_choose_L in Hn as [k Hk]. apply elem_sub in Hk as [H1 H2]. exists k. split; [auto|].
      apply prefix_snoc. auto. }
    replace (loadc db' p c x) with (loadc db p c x).
    - apply IH; [done| |].
      + intros k Hk. apply HU. by apply (sub_subseteq _ _ _ _ Hk).
      + intros q Hq HUq Hne'. apply Hdb; [|done|].
        * etrans; [|done]. by apply prefix_app_r.
        * intros ->. apply prefix_length in Hq. rewrite app_length in Hq. cbn in Hq. lia.
    - destruct x; cbn [loadc]; [done|]. rewrite Hdb; [done|by apply prefix_app_r|done|].
      intros E'. apply (f_equal length) in E'. rewrite app_length in E'. cbn in E'. lia.
  Qed.

  (** [coh] only depends on the overlay at paths that keys take. *)
  Lemma coh_frame f db T T' p n X : rep f db p n X -> X ⊆ U -> X <> ∅ -> coh f db T p n ->
    (forall q, p `prefix_of` q -> Upre q -> T' !! pk q = T !! pk q) -> coh f db T' p n.
  Proof.
    revert p n X; induction f as [|f IH]; intros p n X Hr HU Hne Hc HT; [done|].
    destruct Hc as [Hc1 Hc2]. destruct Hr as (Hi & Hp & Hs1 & Hs2 & Hr).
    assert (Upre p) as HUp.
    { apply set_choose_L in Hne as [k Hk]. exists k. auto. }
    split.
    - unfold tget in *. rewrite HT by done. done.
    - intros c x E. specialize (Hc2 c x E).
      assert (exists Xc, rep f db (p ++ [c]) (loadc db p c x) Xc /\ Xc ⊆ U /\ Xc <> ∅) as (Xc & HRc & HUc & Hnc).
      { destruct Hr as [(-> & E' & _)|[(_ & E' & _)|(_ & _ & _ & Hk)]]; [rewrite E' in E; done..|].
        specialize (Hk c). rewrite E in Hk. destruct Hk as (Hn & _ & HR). eexists. split; [done|].
        split; [|done]. intros k Hk. apply HU. by apply (sub_subseteq _ _ _ _ Hk). }
      destruct x as [m|].
      + eapply IH; [done..|]. intros q Hq HUq. apply HT; [|done]. etrans; [|done]. by apply prefix_app_r.
      + intros q Hq HUq. rewrite HT; [auto| |done]. etrans; [|done]. by apply prefix_app_r.
  Qed.

  Lemma aget_fold_CSer (cs : list N) c :
    aget c (fold_right (fun c (m : amap child) => aset c CSer m) [] cs) = if decide (c ∈ cs) then Some CSer else None.
  Proof.
    induction cs as [|c' cs IH]; cbn [fold_right].
    - by rewrite decide_False by (intros Hc; inversion Hc).
    - destruct (decide (c' = c)) as [->|Hn].
      + rewrite aget_aset. by rewrite decide_True by left.
      + rewrite aget_aset_ne by done. rewrite IH. destruct (decide (c ∈ cs)) as [Hi|Hi].
        * by rewrite decide_True by by right.
        * rewrite decide_False; [done|]. rewrite elem_of_cons. naive_solver.
  Qed.
  Lemma fold_CSer_sorted (cs : list N) : asorted (fold_right (fun c (m : amap child) => aset c CSer m) [] cs).
  Proof. induction cs; cbn [fold_right]; [constructor|]. by apply aset_sorted. Qed.
  Lemma fold_CSer_nil (cs : list N) : fold_right (fun c (m : amap child) => aset c CSer m) [] cs = [] <-> cs = [].
  Proof.
    split; [|by intros ->]. destruct cs as [|c cs]; [done|]. intros E.
    apply (f_equal (aget c)) in E. rewrite aget_fold_CSer in E. rewrite decide_True in E by left. done.
  Qed.

  (** Reading back a stored node. *)
  Lemma deser_ser_children n c :
    aget c (n_children (deserialize (serialize n))) = match aget c (n_children n) with Some _ => Some CSer | None => None end.
  Proof.
    unfold deserialize, serialize. cbn [n_children d_chars]. rewrite aget_fold_CSer.
    destruct (aget c (n_children n)) eqn:E.
    - rewrite decide_True; [done|]. by eapply aget_Some_keys.
    - rewrite decide_False; [done|]. by apply aget_None_keys.
  Qed.

  Lemma deser_idem (d : dbnode) : deserialize (serialize (deserialize d)) = deserialize d.
  Proof.
    assert (E : n_children (deserialize (serialize (deserialize d))) = n_children (deserialize d)).
    { apply amap_ext; [apply fold_CSer_sorted..|]. intros c. rewrite deser_ser_children.
      unfold deserialize. cbn [n_children]. rewrite aget_fold_CSer. by destruct (decide _). }
    apply node_ext; [done|done|done|]. unfold serialize, deserialize. cbn. by destruct (d_key d).
  Qed.
  Lemma deser_all_CSer (dn : dbnode) c x : aget c (n_children (deserialize dn)) = Some x -> x = CSer.
  Proof. unfold deserialize. cbn [n_children]. rewrite aget_fold_CSer. destruct (decide _); congruence. Qed.

  (** A freshly loaded node is coherent as long as nothing below it was written. *)
  Lemma coh_load f db T p (dn : dbnode) : db !! pk p = Some dn -> Upre p ->
    (forall q, p `prefix_of` q -> Upre q -> T !! pk q = None) -> coh f db T p (deserialize dn).
  Proof.
    intros Hd HUp HT. destruct f; [done|]. split.
    - unfold tget. rewrite HT by done. rewrite Hd. cbn. by rewrite deser_idem.
    - intros c x Hx. apply deser_all_CSer in Hx as ->. intros q Hq HUq. apply HT; [|done].
      etrans; [|done]. by apply prefix_app_r.
  Qed.

  (** The stored form of an inner node is determined by the set. *)
  Lemma kids_ser R R' sh db db' p ch hs ch' hs' X :
    kids R sh db p ch hs X -> kids R' sh db' p ch' hs' X -> asorted ch -> asorted ch' -> asorted hs -> asorted hs' ->
    hs = hs' /\ forall c, is_Some (aget c ch) <-> is_Some (aget c ch').
  Proof.
    intros K1 K2 S1 S2 S3 S4. split.
    - apply amap_ext; [done..|]. intros c. specialize (K1 c). specialize (K2 c).
      destruct (aget c ch), (aget c ch'); naive_solver congruence.
    - intros c. specialize (K1 c). specialize (K2 c).
      destruct (aget c ch), (aget c ch'); try naive_solver; rewrite <- ?not_eq_None_Some; naive_solver.
  Qed.
  Lemma deser_ser_eq n n' : n_items n = n_items n' -> n_chashes n = n_chashes n' -> n_key n = n_key n' ->
    (forall c, is_Some (aget c (n_children n)) <-> is_Some (aget c (n_children n'))) ->
    deserialize (serialize n) = deserialize (serialize n').
  Proof.
    intros E1 E2 E3 E4.
    assert (E : n_children (deserialize (serialize n)) = n_children (deserialize (serialize n'))).
    { apply amap_ext; [apply fold_CSer_sorted..|]. intros c. rewrite !deser_ser_children. specialize (E4 c).
      destruct (aget c (n_children n)), (aget c (n_children n')); try done.
      - destruct E4 as [[? ?] _]; [eauto|done].
      - destruct E4 as [_ [? ?]]; [eauto|done]. }
    apply node_ext; [done|done|done|]. unfold serialize, deserialize. cbn. by rewrite E3.
  Qed.

  (** Committing the overlay and rereading the node gives a representation of the same set. *)
  Lemma rep_commit f db T p n X : rep f db p n X -> X ⊆ U -> X <> ∅ -> coh f db T p n ->
    rep f (commit db T) p (deserialize (serialize n)) X.
  Proof.
    revert p n X; induction f as [|f IH]; intros p n X Hr HU Hne Hc; [done|].
    destruct Hr as (Hi & Hp & Hs1 & Hs2 & Hr). destruct Hc as [Hc1 Hc2].
    cbn [rep]. split; [done|]. split; [done|]. split; [apply fold_CSer_sorted|]. split; [done|].
    destruct Hr as [(E & _)|[(Hd & Hch & k & -> & Hkey & Hst)|(Hkey & _ & Hsz & Hk)]]; [done|..].
    - right; left. unfold deserialize, serialize. cbn. rewrite Hch, Hkey. cbn.
      split; [done|]. split; [done|]. exists k. split; [done|].
      assert (12 <= length k)%nat by (apply U_len; set_solver).
      destruct k; [cbn in *; lia|]. done.
    - right; right. split; [unfold deserialize, serialize; cbn [n_key d_key]; by rewrite Hkey|].
      split; [done|]. split; [done|]. intros c. specialize (Hk c).
      rewrite deser_ser_children. change (n_chashes (deserialize (serialize n))) with (n_chashes n).
      destruct (aget c (n_children n)) as [x|] eqn:E; [|done]. destruct Hk as (Hn & Hh & HR).
      split; [done|]. split; [done|]. specialize (Hc2 c x E).
      assert (HUc : sub (length p) c X ⊆ U) by (intros k Hk; apply HU; by apply (sub_subseteq _ _ _ _ Hk)).
      destruct x as [m|]; cbn [loadc] in *.
      + assert (Hs : deserialize <$> commit db T !! pk (p ++ [c]) = Some (deserialize (serialize m))).
        { rewrite lookup_commit. destruct f; [done|]. apply Hc2. }
        apply fmap_Some in Hs as (d & -> & <-). by apply IH.
      + assert (Upre (p ++ [c])) as HUp.
        { apply set_choose_L in Hn as [k Hk]. pose proof (rep_prefix _ _ _ _ _ _ HR Hk). exists k. auto. }
        replace (commit db T !! pk (p ++ [c])) with (db !! pk (p ++ [c])).
        2:{ rewrite lookup_commit. unfold tget. by rewrite Hc2. }
        eapply rep_frame; [exact HR|done|]. intros q Hq HUq _. rewrite lookup_commit. unfold tget. by rewrite Hc2.
  Qed.
End Rep.
