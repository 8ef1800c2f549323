(** [insert] refines set union. *)
From Verif Require Export TrieRep.
From Coq Require Import ZifyN ZifyNat ZifyBool.
#[local] Open Scope N_scope.
Implicit Types (p q k : bytes) (c : N) (d idx : nat) (X Y K : gset bytes) (n m : node).

Ltac ssolve := solve [clear; set_solver | set_solver].

(** ** Result vectors *)
Lemma count_true_nil : count_true [] = 0.
Proof. done. Qed.
Lemma count_true_cons b l : count_true (b :: l) = (if b then 1 else 0) + count_true l.
Proof.
  unfold count_true. rewrite filter_cons. destruct b.
  - rewrite decide_True by done. cbn [length]. lia.
  - rewrite decide_False by done. lia.
Qed.
Lemma count_true_replicate (n : nat) : count_true (replicate n false) = 0.
Proof. induction n; cbn [replicate]; [done|]. rewrite count_true_cons. lia. Qed.
Lemma count_true_insert (l : list bool) (i : nat) (b : bool) : l !! i = Some false -> count_true (<[i := b]> l) = count_true l + if b then 1 else 0.
Proof.
  revert i; induction l as [|x l IH]; intros [|i] E; cbn in E; [done|done|..].
  - injection E as ->. cbn. rewrite !count_true_cons. lia.
  - change (<[S i:=b]> (x :: l)) with (x :: <[i := b]> l). rewrite !count_true_cons, IH by done. lia.
Qed.
Lemma set_results_spec (rs : list bool) (is : list nat) (vs : list bool) : NoDup is -> (forall i, i ∈ is -> rs !! i = Some false) -> length is = length vs ->
  count_true (set_results rs is vs) = count_true rs + count_true vs /\
  length (set_results rs is vs) = length rs /\
  forall j, j ∉ is -> set_results rs is vs !! j = rs !! j.
Proof.
  revert rs vs; induction is as [|i is IH]; intros rs [|v vs] Hnd Hf Hl; cbn [set_results]; try done.
  - rewrite count_true_nil. split; [lia|done].
  - inversion Hnd; subst. destruct (IH (<[i := v]> rs) vs) as (H4 & H5 & H6); [done| |by cbn in Hl; lia|].
    + intros j Hj. rewrite list_lookup_insert_ne; [apply Hf; by right|]. by intros ->.
    + rewrite H4, count_true_insert by (apply Hf; left). rewrite count_true_cons.
      split; [lia|]. split; [by rewrite H5, insert_length|].
      intros j Hj. rewrite not_elem_of_cons in Hj. destruct Hj. rewrite H6 by done.
      by rewrite list_lookup_insert_ne by done.
Qed.

Lemma union_ne_r X Y : Y <> ∅ -> X ∪ Y <> ∅.
Proof. ssolve. Qed.
Lemma subseteq_size_eq X Y : X ⊆ Y -> (size Y <= size X)%nat -> X = Y.
Proof.
  intros Hs Hl. apply set_eq. intros k. split; [auto|]. intros Hk. destruct (decide (k ∈ X)) as [|Hn]; [done|].
  assert (size X < size Y)%nat; [|lia]. apply subset_size. ssolve.
Qed.
Lemma elem_ne k X : k ∈ X -> X <> ∅.
Proof. ssolve. Qed.

(** ** Groups *)
Definition keys_of (rem : list (nat * bytes)) : gset bytes := list_to_set (map snd rem).
Lemma elem_keys_of rem k : k ∈ keys_of rem <-> exists i, (i, k) ∈ rem.
Proof.
  unfold keys_of. rewrite elem_of_list_to_set, elem_of_list_fmap. split.
  - intros ([i k'] & -> & Hi). eauto.
  - intros [i Hi]. by exists (i, k).
Qed.
Lemma char_at_lookup d k c : (d < length k)%nat -> (char_at d k = c <-> k !! d = Some c).
Proof.
  intros Hl. unfold char_at. destruct (lookup_lt_is_Some_2 k d Hl) as [x Hx]. rewrite Hx.
  rewrite (nth_lookup_Some _ _ _ _ Hx). naive_solver.
Qed.
Lemma elem_group_of d c rem ik : ik ∈ group_of d c rem <-> char_at d ik.2 = c /\ ik ∈ rem.
Proof. unfold group_of. by rewrite elem_of_list_filter. Qed.
Lemma keys_of_group d c rem : (forall i k, (i, k) ∈ rem -> d < length k)%nat ->
  keys_of (group_of d c rem) = sub d c (keys_of rem).
Proof.
  intros Hl. apply set_eq. intros k. rewrite elem_sub, !elem_keys_of. split.
  - intros [i Hi]. apply elem_group_of in Hi as [H1 H2]. cbn in H1. split; [eauto|].
    apply char_at_lookup; eauto.
  - intros [[i Hi] Hc]. exists i. apply elem_group_of. cbn. split; [|done]. apply char_at_lookup; eauto.
Qed.

Definition loop_chars (d : nat) (rem : list (nat * bytes)) : list N := remove_dups (map (fun ik => char_at d ik.2) rem).
Lemma elem_loop_chars d rem c : c ∈ loop_chars d rem <-> exists i k, (i, k) ∈ rem /\ char_at d k = c.
Proof.
  unfold loop_chars. rewrite elem_of_remove_dups, elem_of_list_fmap. split.
  - intros ([i k] & -> & Hi). eauto.
  - intros (i & k & Hi & <-). by exists (i, k).
Qed.

Lemma enumerate_from_fst (i : nat) keys : map fst (enumerate_from i keys) = seq i (length keys).
Proof. unfold enumerate_from. apply fst_zip. by rewrite seq_length. Qed.
Lemma enumerate_from_snd (i : nat) keys : map snd (enumerate_from i keys) = keys.
Proof. unfold enumerate_from. apply snd_zip. by rewrite seq_length. Qed.

Lemma NoDup_fst_filter (P : nat * bytes -> Prop) `{!forall x, Decision (P x)} (l : list (nat * bytes)) :
  NoDup (map fst l) -> NoDup (map fst (filter P l)).
Proof.
  induction l as [|x l IH]; cbn [map]; intros Hnd; [done|]. rewrite filter_cons. inversion Hnd; subst.
  destruct (decide (P x)); [|auto]. cbn [map]. constructor; [|auto].
  rewrite elem_of_list_fmap. intros (y & E & Hy). apply elem_of_list_filter in Hy as [_ Hy].
  match goal with Hn : x.1 ∉ _ |- _ => apply Hn end. rewrite E. by apply elem_of_list_fmap_1.
Qed.
Lemma NoDup_fst_unique (l : list (nat * bytes)) i k k' : NoDup (map fst l) -> (i, k) ∈ l -> (i, k') ∈ l -> k = k'.
Proof.
  induction l as [|[j x] l IH]; cbn [map]; intros Hnd H1 H2; [inversion H1|]. inversion Hnd as [|? ? Hn Hnd']; subst.
  apply elem_of_cons in H1. apply elem_of_cons in H2.
  destruct H1 as [E1|H1], H2 as [E2|H2]; simplify_eq; [done|..].
  - destruct Hn. by apply (elem_of_list_fmap_1 fst) in H2.
  - destruct Hn. by apply (elem_of_list_fmap_1 fst) in H1.
  - eauto.
Qed.

Section Ins.
  Variable H : bytes -> bytes.
  Variable order : list N -> list N.
  Variable U : gset bytes.
  Hypothesis order_perm : forall l, Permutation (order l) l.
  Hypothesis H_ne : forall x, H x <> [].
  Hypothesis U_len : forall k, k ∈ U -> (12 <= length k)%nat.
  Hypothesis U_pf : forall a b, a ∈ U -> b ∈ U -> a `prefix_of` b -> a = b.
  Hypothesis U_nib : forall k, k ∈ U -> forall (i : nat) c, k !! i = Some c -> c < 16.

  Notation rep := (rep H).
  Notation kids f db := (kids (rep f db)).
  Notation coh := (coh U).
  Notation kcoh := (kcoh U).
  Notation Upre := (Upre U).

  (** Which database keys an insertion may write. *)
  Definition iwrites (txn txn' : batch dbnode) p X : Prop :=
    forall key, txn' !! key = txn !! key \/ exists q k, key = pk q /\ p `prefix_of` q /\ k ∈ X /\ q `prefix_of` k.

  Lemma iwrites_refl txn p X : iwrites txn txn p X.
  Proof. intros key. by left. Qed.
  Lemma iwrites_trans t1 t2 t3 p p1 p2 X X1 X2 : iwrites t1 t2 p1 X1 -> iwrites t2 t3 p2 X2 ->
    p `prefix_of` p1 -> p `prefix_of` p2 -> X1 ⊆ X -> X2 ⊆ X -> iwrites t1 t3 p X.
  Proof.
    intros W1 W2 P1 P2 S1 S2 key. destruct (W2 key) as [->|(q & k & ? & ? & ? & ?)].
    - destruct (W1 key) as [->|(q & k & ? & ? & ? & ?)]; [by left|]. right. exists q, k. split_and!; [done|by trans p1|auto|done].
    - right. exists q, k. split_and!; [done|by trans p2|auto|done].
  Qed.
  Lemma iwrites_put n txn p X : X <> ∅ -> (forall k, k ∈ X -> p `prefix_of` k) -> iwrites txn (put_to_txn n txn p) p X.
  Proof.
    intros Hne Hp key. unfold put_to_txn, tput. destruct (decide (key = pk p)) as [->|Hn].
    - right. apply set_choose_L in Hne as [k Hk]. exists p, k. auto.
    - left. by rewrite lookup_insert_ne.
  Qed.
  Lemma iwrites_frame txn txn' p X q : iwrites txn txn' p X -> ~ p `prefix_of` q -> txn' !! pk q = txn !! pk q.
  Proof.
    intros W Hn. destruct (W (pk q)) as [->|(q' & k & E & Hq & _)]; [done|]. apply pk_inj in E as ->. done.
  Qed.

  Lemma tmerge_put (base txn : batch dbnode) key v : tmerge base (tput txn key v) = tput (tmerge base txn) key v.
  Proof. unfold tmerge, tput. by rewrite insert_union_l. Qed.
  Lemma tmerge_lookup_eq (base txn txn' : batch dbnode) key : txn' !! key = txn !! key ->
    tmerge base txn' !! key = tmerge base txn !! key.
  Proof. intros E. rewrite !lookup_tmerge. by rewrite E. Qed.

  (** Result of inserting the keys [K] at a node representing [X]. *)
  Definition ins_post (f : nat) (db : kv dbnode) (base : batch dbnode) p X K (ch : amap bytes) (txn : batch dbnode)
      (len : nat) (c0 : N) (o : res terr iout) : Prop :=
    exists rs n' ch' txn', o = Ok (rs, n', ch', txn') /\
      length rs = len /\ count_true rs + N.of_nat (size X) = c0 + N.of_nat (size (X ∪ K)) /\
      rep f db p n' (X ∪ K) /\ coh f db (tmerge base txn') p n' /\
      asorted ch' /\
      (forall c, aget c ch' = if decide (last p = Some c) then Some (shash H f (length p) (X ∪ K)) else aget c ch) /\
      iwrites txn txn' p (X ∪ K).

  Definition ins_pre (f : nat) (db : kv dbnode) (base : batch dbnode) p n X (ch : amap bytes) (txn : batch dbnode) : Prop :=
    rep f db p n X /\ X ⊆ U /\ (X <> ∅ -> coh f db (tmerge base txn) p n) /\ asorted ch /\
    (X <> ∅ -> forall c, last p = Some c -> aget c ch = Some (shash H f (length p) X)).

  Definition ins_spec (rec : node -> amap bytes -> batch dbnode -> list bytes -> res terr iout) (g f : nat)
      (db : kv dbnode) (base : batch dbnode) p : Prop :=
    forall m ch txn keys X, ins_pre f db base p m X ch txn -> keys <> [] ->
      (forall k, k ∈ keys -> k ∈ U /\ p `prefix_of` k /\ length k < length p + g)%nat ->
      ins_post f db base p X (list_to_set keys) ch txn (length keys) 0 (rec m ch txn keys).

  (** Update of the parent's hash table. *)
  Lemma update_hash_spec f db p n X ch : rep (S f) db p n X -> X ⊆ U -> X <> ∅ -> asorted ch ->
    asorted (update_hash H n ch p) /\
    forall c, aget c (update_hash H n ch p) =
      if decide (last p = Some c) then Some (shash H (S f) (length p) X) else aget c ch.
  Proof.
    intros Hr HU Hne Hs. unfold update_hash. destruct (last p) as [c0|] eqn:El.
    - rewrite (rep_hash H U) with (f := f) (db := db) (p := p) (X := X) by done.
      pose proof (shash_ne H H_ne f (length p) X Hne) as Hh. destruct (shash H (S f) (length p) X) eqn:E; [done|].
      split; [by apply aset_sorted|]. intros c. destruct (decide (c0 = c)) as [->|Hn].
      + rewrite aget_aset. by rewrite decide_True.
      + rewrite aget_aset_ne by done. by rewrite decide_False by congruence.
    - split; [done|]. intros c. by rewrite decide_False.
  Qed.

  Section Loop.
    Variable rec : node -> amap bytes -> batch dbnode -> list bytes -> res terr iout.
    Variables (g f : nat) (db : kv dbnode) (base : batch dbnode) (p : bytes) (rem : list (nat * bytes)).
    Hypothesis rec_ok : forall c, ins_spec rec g f db base (p ++ [c]).
    Hypothesis rem_ok : forall i k, (i, k) ∈ rem -> k ∈ U /\ p `prefix_of` k /\ (length p < length k < length p + S g)%nat.
    Hypothesis rem_nd : NoDup (map fst rem).

    Hypothesis f_pos : (0 < f)%nat.

    (** Invariant of the loop over groups; [Xd] is the set including the processed groups. *)
    Definition ginv n (txn0 txn : batch dbnode) (X Xd : gset bytes) : Prop :=
      asorted (n_children n) /\ asorted (n_chashes n) /\ n_key n = None /\ n_items n = N.of_nat (size X) /\
      X ⊆ Xd /\ Xd ⊆ U /\ (forall k, k ∈ Xd -> p `prefix_of` k) /\
      kids f db (shash H f (S (length p))) db p (n_children n) (n_chashes n) Xd /\
      kcoh f db (tmerge base txn) p (n_children n) /\
      iwrites txn0 txn p Xd /\ txn !! pk p = txn0 !! pk p.

    Lemma empty_rep p' : rep f db p' empty_node ∅.
    Proof.
      destruct f as [|f']; [lia|]. cbn [TrieRep.rep]. split; [done|]. split; [ssolve|].
      split; [constructor|]. split; [constructor|]. by left.
    Qed.

    Lemma ginv_step n txn0 txn X Xd c : ginv n txn0 txn X Xd ->
      (exists i k, (i, k) ∈ rem /\ char_at (length p) k = c) ->
      let children := match aget c (n_children n) with None => aset c (CNode empty_node) (n_children n) | Some _ => n_children n end in
      let n1 := Node (n_items n) children (n_chashes n) (n_key n) in
      let Kc := sub (length p) c (keys_of rem) in
      exists m crs m' ch' txn', load_child db n1 p c = Some m /\
        rec m (n_chashes n1) txn (map snd (group_of (length p) c rem)) = Ok (crs, m', ch', txn') /\
        length crs = length (group_of (length p) c rem) /\
        ginv (Node (n_items n1) (aset c (CNode m') (n_children n1)) ch' (n_key n1)) txn0 txn' X (Xd ∪ Kc) /\
        count_true crs + N.of_nat (size Xd) = N.of_nat (size (Xd ∪ Kc)).
    Proof.
      intros (S1 & S2 & Hkey & Hit & HX & HU & Hp & Hk & Hc & HW & Hself) (i0 & k0 & Hin0 & Hc0) children n1 Kc.
      assert (Hlen : forall i k, (i, k) ∈ rem -> (length p < length k)%nat) by (intros i k Hi; apply rem_ok in Hi; lia).
      assert (HKc : keys_of (group_of (length p) c rem) = Kc) by by apply keys_of_group.
      assert (HKcU : forall k, k ∈ Kc -> k ∈ U /\ p ++ [c] `prefix_of` k /\ (length k < length (p ++ [c]) + g)%nat).
      { intros k Hk'. apply elem_sub in Hk' as [Hk1 Hk2]. apply elem_keys_of in Hk1 as [i Hi].
        apply rem_ok in Hi as (? & ? & ?). split_and!; [done| |rewrite app_length; cbn; lia].
        by apply prefix_snoc. }
      assert (HKne : Kc <> ∅).
      { apply (elem_ne k0). apply elem_sub. split; [apply elem_keys_of; eauto|].
        apply char_at_lookup; eauto. }
      assert (HS1 : asorted children) by (unfold children; destruct (aget c (n_children n)); [done|by apply aset_sorted]).
      assert (Hother : forall c', c' <> c -> aget c' children = aget c' (n_children n)).
      { intros c' Hn. unfold children. destruct (aget c (n_children n)); [done|]. by rewrite aget_aset_ne. }
      pose (Sc := sub (length p) c Xd).
      assert (HScU : Sc ⊆ U) by (intros k Hk'; apply HU; by apply (sub_subseteq _ _ _ _ Hk')).
      assert (HScp : forall k, k ∈ Sc -> p ++ [c] `prefix_of` k).
      { intros k Hk'. apply elem_sub in Hk' as [? ?]. apply prefix_snoc. auto. }
      assert (exists m, load_child db n1 p c = Some m /\ ins_pre f db base (p ++ [c]) m Sc (n_chashes n) txn)
        as (m & Hload & Hpre).
      { pose proof (Hk c) as Hkc. unfold load_child, n1. cbn [n_children]. unfold children.
        destruct (aget c (n_children n)) as [x|] eqn:Ex.
        - rewrite Ex. destruct Hkc as (Hne & Hh & HR). exists (loadc db p c x).
          split; [destruct x; cbn [loadc]; [done|by rewrite pk_child]|].
          refine (conj HR (conj HScU (conj _ (conj S2 _)))).
          + intros _. specialize (Hc c x Ex). destruct x as [m|]; [done|].
            cbn [loadc] in *. destruct (db !! pk (p ++ [c])) as [d|] eqn:Ed.
            * apply coh_load; [done| |done]. apply set_choose_L in Hne as [k Hk']. exists k. split; [by apply HScU|by apply HScp].
            * exfalso. apply rep_items in HR. cbn in HR. symmetry in HR. by apply size_N_empty in HR.
          + intros _ c'. rewrite last_snoc. intros [= <-]. rewrite app_length, Nat.add_1_r. done.
        - rewrite aget_aset. destruct Hkc as [He Hh]. exists empty_node. split; [done|].
          assert (Sc = ∅) as -> by done.
          refine (conj (empty_rep _) (conj (empty_subseteq _) (conj _ (conj S2 _)))); done. }
      destruct (rec_ok c m (n_chashes n) txn (map snd (group_of (length p) c rem)) Sc Hpre)
        as (crs & m' & ch' & txn' & Erec & Hlen' & Hcnt & HR' & HC' & HS' & Hh' & HW').
      { intros E. apply HKne. rewrite <- HKc. unfold keys_of. by rewrite E. }
      { intros k Hk'. apply HKcU. rewrite <- HKc. unfold keys_of. by rewrite elem_of_list_to_set. }
      change (list_to_set (map snd (group_of (length p) c rem))) with (keys_of (group_of (length p) c rem)) in *.
      rewrite HKc in *. rewrite map_length in Hlen'.
      exists m, crs, m', ch', txn'. split; [done|]. split; [done|]. split; [done|].
      assert (Hsubc : sub (length p) c (Xd ∪ Kc) = Sc ∪ Kc).
      { rewrite sub_union. f_equal. apply sub_id. intros k Hk'. by apply elem_sub in Hk' as [_ ?]. }
      assert (Hsubo : forall c', c' <> c -> sub (length p) c' (Xd ∪ Kc) = sub (length p) c' Xd).
      { intros c' Hn. rewrite sub_union. rewrite (sub_none _ _ Kc); [by rewrite union_empty_r_L|].
        intros k Hk'. apply elem_sub in Hk' as [_ ->]. congruence. }
      assert (Hframe : forall q, ~ p ++ [c] `prefix_of` q -> tmerge base txn' !! pk q = tmerge base txn !! pk q).
      { intros q Hq. apply tmerge_lookup_eq. by eapply iwrites_frame. }
      split.
      2:{ pose proof (size_add_sub (length p) c Xd Kc) as Hsz. feed specialize Hsz.
          { intros k Hk'. by apply elem_sub in Hk' as [_ ?]. }
          fold Sc in Hsz. lia. }
      unfold ginv. cbn [n_children n_chashes n_key n_items n1].
      split; [by apply aset_sorted|]. split; [done|]. split; [done|]. split; [done|].
      split; [by apply union_subseteq_l'|]. split; [intros k [?|?]%elem_of_union; [auto|by apply HKcU]|].
      split; [intros k [?|Hk']%elem_of_union; [auto|]|].
      { apply HKcU in Hk' as (_ & Hk' & _). etrans; [|done]. by apply prefix_app_r. }
      split; [|split; [|split]].
      - intros c'. destruct (decide (c = c')) as [<-|Hn].
        + rewrite aget_aset, Hsubc. split; [by apply union_ne_r|]. split; [|done].
          rewrite Hh', last_snoc, decide_True by done. by rewrite app_length, Nat.add_1_r.
        + rewrite aget_aset_ne, Hother, Hsubo by congruence. specialize (Hk c').
          rewrite Hh', last_snoc, decide_False by congruence. done.
      - intros c' x. destruct (decide (c = c')) as [<-|Hn].
        + rewrite aget_aset. intros [= <-]. done.
        + rewrite aget_aset_ne, Hother by congruence. intros Ex. specialize (Hc c' x Ex).
          specialize (Hk c'). rewrite Ex in Hk. destruct Hk as (Hne' & _ & HRx). destruct x as [mx|].
          * eapply coh_frame; [exact HRx| |done|done|].
            { intros k Hk'. apply HU. by apply (sub_subseteq _ _ _ _ Hk'). }
            intros q Hq _. apply Hframe. by eapply prefix_neq_snoc.
          * intros q Hq HUq. rewrite Hframe; [auto|]. by eapply prefix_neq_snoc.
      - eapply iwrites_trans; [exact HW|exact HW'|done|by apply prefix_app_r|apply union_subseteq_l|].
        apply union_mono_r. apply sub_subseteq.
      - rewrite <- Hself. eapply iwrites_frame; [exact HW'|]. intros Hq. apply prefix_length in Hq.
        rewrite app_length in Hq. cbn in Hq. lia.
    Qed.

    Definition part (cs : list N) : gset bytes := filter (fun k => char_at (length p) k ∈ cs) (keys_of rem).

    Lemma ins_groups_ok cs : forall n txn0 txn rs succ X Xd,
      NoDup cs -> (forall c, c ∈ cs -> exists i k, (i, k) ∈ rem /\ char_at (length p) k = c) ->
      ginv n txn0 txn X Xd ->
      (forall i k, (i, k) ∈ rem -> char_at (length p) k ∈ cs -> rs !! i = Some false) ->
      exists n' txn' rs' succ',
        ins_groups rec db n txn rs succ p (length p) rem cs = Ok (n', txn', rs', succ') /\
        ginv n' txn0 txn' X (Xd ∪ part cs) /\
        length rs' = length rs /\ count_true rs' + succ = count_true rs + succ' /\
        succ' + N.of_nat (size Xd) = succ + N.of_nat (size (Xd ∪ part cs)).
    Proof.
      induction cs as [|c cs IH]; intros n txn0 txn rs succ X Xd Hnd Hcs Hg Hrs.
      - cbn [ins_groups]. exists n, txn, rs, succ. split; [done|].
        assert (part [] = ∅) as ->.
        { unfold part. apply set_eq. intros k. rewrite elem_of_filter. ssolve. }
        rewrite union_empty_r_L. split; [done|]. split; [done|]. lia.
      - inversion Hnd as [|? ? Hn Hnd']; subst. cbn [ins_groups].
        destruct (ginv_step n txn0 txn X Xd c Hg) as (m & crs & m' & ch' & txn' & El & Er & Hl & Hg' & Hcnt); [apply Hcs; left|].
        rewrite El. cbn [n_chashes] in Er. cbn [n_chashes]. rewrite Er. rewrite <- Hl, take_ge by done.
        destruct (set_results_spec rs (map fst (group_of (length p) c rem)) crs) as (R1 & R2 & R3).
        + by apply NoDup_fst_filter.
        + intros i Hi. apply elem_of_list_fmap in Hi as ([i' k] & -> & Hi). apply elem_group_of in Hi as [H1 H2].
          cbn [fst snd] in *. eapply Hrs; [done|]. rewrite H1. left.
        + by rewrite map_length.
        + assert (Hcs' : forall c', c' ∈ cs -> exists i k, (i, k) ∈ rem /\ char_at (length p) k = c') by (intros c' Hc'; apply Hcs; by right).
          destruct (IH _ txn0 txn' (set_results rs (map fst (group_of (length p) c rem)) crs)
            (succ + count_true crs) X _ Hnd' Hcs' Hg') as (n2 & txn2 & rs2 & succ2 & E2 & Hg2 & L2 & C2 & Z2).
          { intros i k Hi Hc'. rewrite R3; [eapply Hrs; [done|by right]|].
            intros Hi'. apply elem_of_list_fmap in Hi' as ([i' k'] & E & Hi'). cbn in E. subst i'.
            apply elem_group_of in Hi' as [H1 H2]. cbn [snd] in H1.
            assert (k = k') as -> by by eapply NoDup_fst_unique. by rewrite H1 in Hc'. }
          exists n2, txn2, rs2, succ2. split; [exact E2|].
          assert (Hpart : Xd ∪ sub (length p) c (keys_of rem) ∪ part cs = Xd ∪ part (c :: cs)).
          { rewrite <- union_assoc_L. f_equal. unfold part. apply set_eq. intros k.
            rewrite elem_of_union, elem_sub, !elem_of_filter, elem_of_cons.
            split; [|intros [[?|?] Hk]].
            - intros [[Hka Hkb]|[? ?]]; [|by auto]. split; [left|done].
              assert (Hk := Hka). apply elem_keys_of in Hk as [i Hi]. apply rem_ok in Hi. apply char_at_lookup; [lia|done].
            - left. split; [done|]. assert (Hk' := Hk). apply elem_keys_of in Hk' as [i Hi]. apply rem_ok in Hi.
              apply char_at_lookup; [lia|done].
            - right. done. }
          rewrite Hpart in *. split; [done|]. split; [lia|]. lia.
    Qed.
    Lemma part_all : part (group_chars order (length p) rem) = keys_of rem.
    Proof.
      unfold part. apply set_eq. intros k. rewrite elem_of_filter. split; [tauto|]. intros Hk. split; [|done].
      unfold group_chars. rewrite order_perm. apply elem_loop_chars. apply elem_keys_of in Hk as [i Hi]. eauto.
    Qed.

    Hypothesis rem_ne : rem <> [].

    Lemma ins_rest_ok n ch txn rs X :
      ginv n txn txn X X ->
      (X <> ∅ -> deserialize <$> tget db (tmerge base txn) (pk p) = Some (deserialize (serialize n))) ->
      asorted ch ->
      (X <> ∅ -> X = X ∪ keys_of rem -> forall c, last p = Some c -> aget c ch = Some (shash H (S f) (length p) X)) ->
      (12 <= length p -> size (X ∪ keys_of rem) <> 1)%nat ->
      (forall i k, (i, k) ∈ rem -> rs !! i = Some false) ->
      ins_post (S f) db base p X (keys_of rem) ch txn (length rs) (count_true rs)
        (ins_rest H order rec db n ch txn rs p (length p) rem).
    Proof.
      intros Hg Hself Hch Hsame Hsz Hrs. unfold ins_rest.
      destruct (existsb _ rem) eqn:Eex.
      { apply existsb_exists in Eex as ([i k] & Hin & Hle). apply elem_of_list_In in Hin. apply rem_ok in Hin.
        apply Nat.leb_le in Hle. cbn in Hle. lia. }
      clear Eex.
      destruct (ins_groups_ok (group_chars order (length p) rem) n txn txn rs 0 X X)
        as (n' & txn' & rs' & succ & E & Hg' & L & C & Z).
      { unfold group_chars. rewrite order_perm. apply NoDup_remove_dups. }
      { intros c. unfold group_chars. rewrite order_perm. apply elem_loop_chars. }
      { done. }
      { intros i k Hi _. eauto. }
      rewrite E. clear E. rewrite part_all in *.
      destruct Hg' as (S1 & S2 & Hkey & Hit & HX & HU & Hp & Hk & Hc & HW & Hpk).
      assert (HKne : keys_of rem <> ∅).
      { destruct rem as [|[i k] rem']; [done|]. apply (elem_ne k). apply elem_keys_of. exists i. left. }
      assert (HXne : X ∪ keys_of rem <> ∅) by by apply union_ne_r.
      destruct (N.ltb_spec 0 succ) as [Hs|Hs].
      - pose (n2 := Node (n_items n' + succ) (n_children n') (n_chashes n') (n_key n')).
        assert (HR2 : rep (S f) db p n2 (X ∪ keys_of rem)).
        { cbn [TrieRep.rep]. split; [cbn; lia|]. split; [done|]. split; [done|]. split; [done|]. right; right. done. }
        destruct (update_hash_spec f db p n2 _ ch HR2 HU HXne Hch) as [U1 U2].
        exists rs', n2, (update_hash H n2 ch p), (put_to_txn n2 txn' p).
        split; [done|]. split; [done|]. split; [lia|]. split; [done|]. split; [|split; [done|split; [done|]]].
        + split.
          * unfold put_to_txn. rewrite tmerge_put, tget_put. done.
          * intros c x Ex. specialize (Hc c x Ex). cbn [n_children n2] in Ex.
            assert (Hfr : forall q, p ++ [c] `prefix_of` q ->
              tmerge base (put_to_txn n2 txn' p) !! pk q = tmerge base txn' !! pk q).
            { intros q Hq. apply tmerge_lookup_eq. unfold put_to_txn, tput. rewrite lookup_insert_ne; [done|].
              intros Eq%pk_inj. subst q. apply prefix_length in Hq. rewrite app_length in Hq. cbn in Hq. lia. }
            destruct x as [m|].
            -- specialize (Hk c). rewrite Ex in Hk. destruct Hk as (Hne' & _ & HRx).
               eapply coh_frame; [exact HRx| |done|done|].
               { intros k Hk'. apply HU. by apply (sub_subseteq _ _ _ _ Hk'). }
               intros q Hq _. by apply Hfr.
            -- intros q Hq HUq. rewrite Hfr by done. auto.
        + eapply iwrites_trans; [exact HW|by apply iwrites_put|done..].
      - assert (succ = 0) as -> by lia.
        assert (HXK : X = X ∪ keys_of rem).
        { apply subseteq_size_eq; [done|lia]. }
        unfold ins_post. rewrite <- HXK in *.
        exists rs', n', ch, txn'. split; [done|]. split; [done|]. split; [lia|].
        split; [cbn [TrieRep.rep]; split_and!; try done; right; right; done|].
        split.
        { split; [|exact Hc]. unfold tget. rewrite (tmerge_lookup_eq _ txn txn') by done.
          specialize (Hself HXne). unfold tget in Hself. rewrite Hself. f_equal.
          destruct Hg as (S1' & S2' & Hkey' & Hit' & _ & _ & _ & Hk' & _).
          destruct (kids_ser _ _ _ _ _ _ _ _ _ _ _ Hk' Hk) as [? ?]; [done..|].
          apply deser_ser_eq; congruence || done. }
        split; [done|]. split; [|done].
        intros c. destruct (decide (last p = Some c)); [|done]. auto.
    Qed.
  End Loop.

  Lemma rem_filter_keys k0 (keys : list (nat * bytes)) :
    {[k0]} ∪ keys_of (filter (fun ik => ik.2 <> k0) keys) = {[k0]} ∪ keys_of keys.
  Proof.
    apply set_eq. intros k. rewrite !elem_of_union, !elem_of_singleton, !elem_keys_of.
    split; (intros [?|[i Hi]]; [by left|]).
    - right. exists i. by apply elem_of_list_filter in Hi as [_ ?].
    - destruct (decide (k = k0)); [by left|]. right. exists i. apply elem_of_list_filter. done.
  Qed.

    Lemma leaf_rep db' p' k f' : (12 <= length p')%nat -> p' `prefix_of` k -> rep (S f') db' p' (Node 1 [] [] (Some k)) {[k]}.
    Proof.
      intros Hd Hp. cbn [TrieRep.rep n_items n_children n_chashes n_key]. rewrite size_singleton. split; [done|].
      split; [ssolve|]. split; [constructor|]. split; [constructor|]. right; left.
      split; [done|]. split; [done|]. by exists k.
    Qed.

  Section Leaf.
    Variable rec : node -> amap bytes -> batch dbnode -> list bytes -> res terr iout.
    Variables (g f : nat) (db : kv dbnode) (base : batch dbnode) (p : bytes).
    Hypothesis rec_ok : forall c, ins_spec rec g f db base (p ++ [c]).
    Hypothesis U_fuel : forall k, k ∈ U -> (length k < length p + S f)%nat.
    Hypothesis deep : (12 <= length p)%nat.
    Hypothesis rec_leaf : (0 < g)%nat -> forall ch txn key, (length p < length key)%nat ->
      let m := Node 1 [] [] (Some key) in
      rec empty_node ch txn [key] = Ok ([true], m, update_hash H m ch (take (S (length p)) key), put_to_txn m txn (take (S (length p)) key)).

    Lemma ins_leaf_ok n ch txn rs k0 (keys : list (nat * bytes)) :
      rep (S f) db p n {[k0]} -> k0 ∈ U -> n_key n = Some k0 -> n_children n = [] ->
      coh (S f) db (tmerge base txn) p n ->
      asorted ch -> (forall c, last p = Some c -> aget c ch = Some (shash H (S f) (length p) {[k0]})) ->
      (forall i k, (i, k) ∈ keys -> k ∈ U /\ p `prefix_of` k /\ (length k < length p + S g)%nat) ->
      NoDup (map fst keys) ->
      (forall i k, (i, k) ∈ keys -> rs !! i = Some false) ->
      ins_post (S f) db base p {[k0]} (keys_of keys) ch txn (length rs) (count_true rs)
        (ins_leaf H order rec db n ch txn rs p (length p) keys).
    Proof.
      intros Hr Hk0 Hkey Hch Hcoh Hs Hh Hkeys Hnd Hrs. unfold ins_leaf. rewrite Hkey. cbn [default from_option]. unfold id.
      pose proof (rem_filter_keys k0 keys) as HK.
      pose (rem := filter (fun ik : nat * bytes => ik.2 <> k0) keys). fold rem. fold rem in HK.
      assert (Hrem : forall i k, (i, k) ∈ rem -> (i, k) ∈ keys /\ k <> k0).
      { intros i k Hi. apply elem_of_list_filter in Hi as [? ?]. done. }
      assert (Hdisp : rem = [] \/ rem <> []) by (destruct rem; auto).
      destruct Hdisp as [E|Hne].
      - rewrite E. rewrite E in HK. unfold keys_of in HK at 1. cbn in HK. rewrite union_empty_r_L in HK.
        exists rs, n, ch, txn. rewrite <- HK. split; [done|]. split; [done|]. split; [lia|]. split; [done|].
        split; [done|]. split; [done|]. split; [|apply iwrites_refl].
        intros c. destruct (decide (last p = Some c)); [auto|done].
      - assert (Hpk0 : p `prefix_of` k0) by (eapply rep_prefix; [exact Hr|ssolve]).
        assert (exists i1 k1, (i1, k1) ∈ rem) as (i1 & k1 & Hi1).
        { destruct rem as [|[i1 k1] ?]; [done|]. exists i1, k1. left. }
        destruct (Hrem _ _ Hi1) as [Hi1' Hn1]. destruct (Hkeys _ _ Hi1') as (HU1 & Hp1 & Hl1).
        assert (Hlk0 : (length p < length k0)%nat).
        { destruct (decide (length p < length k0)%nat); [done|]. pose proof (prefix_length _ _ Hpk0).
          assert (p = k0) as Epk by (apply prefix_len_eq; [done|lia]).
          destruct Hn1. symmetry. apply U_pf; [done|done|by rewrite <- Epk]. }
        assert (Hlk : forall i k, (i, k) ∈ rem -> (length p < length k)%nat).
        { intros i k Hi. destruct (Hrem _ _ Hi) as [Hi' Hn]. destruct (Hkeys _ _ Hi') as (HUk & Hpk & _).
          destruct (decide (length p < length k)%nat); [done|]. pose proof (prefix_length _ _ Hpk).
          assert (p = k) as Epk by (apply prefix_len_eq; [done|lia]).
          destruct Hn. apply U_pf; [done|done|by rewrite <- Epk]. }
        assert (Hg0 : (0 < g)%nat) by (specialize (Hlk _ _ Hi1); lia).
        assert (Hf0 : (0 < f)%nat) by (specialize (U_fuel _ Hk0); lia).
        assert (Hsplit : exists n' txn', split_leaf H rec n txn (length p) = Ok (n', txn') /\
          ginv f db base p n' txn' txn' {[k0]} {[k0]} /\ iwrites txn txn' p {[k0]} /\
          deserialize <$> tget db (tmerge base txn') (pk p) = Some (deserialize (serialize n'))).
        { unfold split_leaf. rewrite Hkey. destruct (lookup_lt_is_Some_2 k0 (length p) Hlk0) as [c Hc]. rewrite Hc.
          rewrite rec_leaf by done.
          assert (Htk : take (S (length p)) k0 = p ++ [c]).
          { erewrite take_S_r by done. by rewrite prefix_take. }
          rewrite Htk, prefix_take by done. rewrite Hch. cbn [aset].
          pose (m := Node 1 [] [] (Some k0)).
          pose (ch' := aset c (node_hash H m) (update_hash H m (n_chashes n) (p ++ [c]))).
          pose (n' := Node (n_items n) [(c, CNode m)] ch' None).
          pose (txn1 := put_to_txn m txn (p ++ [c])).
          exists n', (put_to_txn n' txn1 p). split; [done|].
          assert (Hpc : p ++ [c] `prefix_of` k0) by by apply prefix_snoc.
          assert (Hsc : sub (length p) c {[k0]} = {[k0]}).
          { apply sub_id. intros k. rewrite elem_of_singleton. by intros ->. }
          assert (Hso : forall c', c' <> c -> sub (length p) c' {[k0]} = ∅).
          { intros c' Hn. apply sub_none. intros k. rewrite elem_of_singleton. intros ->. congruence. }
          assert (Hhm : node_hash H m = shash H f (S (length p)) {[k0]}).
          { destruct f; [lia|]. rewrite shash_leaf by lia. done. }
          destruct Hr as (Hit & _ & _ & Hs2 & Hcase).
          assert (Hstale : forall c', c' <> c -> aget c' (n_chashes n) = None).
          { intros c' Hn. destruct Hcase as [(? & _)|[(_ & _ & k & Ek & _ & Hst)|(Ek & _)]]; [ssolve| |congruence].
            assert (k0 = k) as <- by ssolve. apply Hst. congruence. }
          assert (Hch's : asorted ch').
          { apply aset_sorted. unfold update_hash. rewrite last_snoc. destruct (node_hash H m); [by apply adel_sorted|by apply aset_sorted]. }
          assert (Hch'o : forall c', c' <> c -> aget c' ch' = None).
          { intros c' Hn. unfold ch'. rewrite aget_aset_ne by done. unfold update_hash. rewrite last_snoc.
            destruct (node_hash H m); [rewrite aget_adel_ne by done|rewrite aget_aset_ne by done]; auto. }
          assert (Hlook : forall q, q <> p -> q <> p ++ [c] -> put_to_txn n' txn1 p !! pk q = txn !! pk q).
          { intros q H1 H2. unfold txn1, put_to_txn, tput. rewrite !lookup_insert_ne; [done|..]; by intros ?%pk_inj. }
          split; [|split].
          - unfold ginv. cbn [n_children n_chashes n_key n_items n'].
            split; [repeat constructor|]. split; [done|]. split; [done|]. split; [by rewrite Hit|]. split; [done|].
            split; [ssolve|]. split; [ssolve|]. split; [|split; [|split; [apply iwrites_refl|done]]].
            + intros c'. cbn [aget]. destruct (N.eqb_spec c c') as [<-|Hn].
              * rewrite Hsc. split; [ssolve|]. split; [unfold ch'; by rewrite aget_aset, Hhm|].
                cbn [loadc]. destruct f; [lia|]. apply leaf_rep; [rewrite app_length; lia|done].
              * rewrite Hso, Hch'o by congruence. done.
            + intros c' x. cbn [aget]. destruct (N.eqb_spec c c') as [<-|Hn]; [|done].
              intros [= <-]. destruct f; [lia|]. split; [|by intros ? ?].
              rewrite tget_merge. unfold put_to_txn, tput. rewrite lookup_insert_ne.
              * unfold txn1, put_to_txn, tput. by rewrite lookup_insert.
              * intros E%pk_inj. apply (f_equal length) in E. rewrite app_length in E. cbn in E. lia.
          - eapply (iwrites_trans _ _ _ p (p ++ [c]) p).
            + apply (iwrites_put m txn (p ++ [c]) {[k0]}); [ssolve|]. intros k. rewrite elem_of_singleton. by intros ->.
            + apply (iwrites_put n' _ p {[k0]}); [ssolve|]. intros k. rewrite elem_of_singleton. by intros ->.
            + by apply prefix_app_r.
            + done.
            + done.
            + done.
          - rewrite tget_merge. unfold put_to_txn at 1, tput. by rewrite lookup_insert. }
        destruct Hsplit as (n' & txn' & Es & Hg' & HW' & Hst').
        destruct rem as [|r0 rem0] eqn:Erem; [done|]. rewrite <- Erem in *. rewrite Es.
        assert (HremK : keys_of rem ⊆ keys_of keys).
        { intros k. rewrite !elem_keys_of. intros [i Hi]. exists i. by apply Hrem. }
        edestruct (ins_rest_ok rec g f db base p rem rec_ok) with (n := n') (ch := ch) (txn := txn') (rs := rs) (X := ({[k0]} : gset bytes))
          as (rs2 & n2 & ch2 & txn2 & E2 & L2 & C2 & R2 & K2 & A2 & G2 & W2); try done.
        + intros i k Hi. destruct (Hrem _ _ Hi) as [Hi' _]. destruct (Hkeys _ _ Hi') as (? & ? & ?).
          pose proof (Hlk _ _ Hi). split_and!; [done|done|lia|lia].
        + by apply NoDup_fst_filter.
        + intros _ Hsz. destruct (size_1_singleton _ Hsz) as [k Ek].
          assert (k1 = k) as ->.
          { assert (k1 ∈ ({[k]} : gset bytes)); [|ssolve]. rewrite <- Ek. apply elem_of_union_r. apply elem_keys_of. eauto. }
          assert (k0 ∈ ({[k]} : gset bytes)); [|ssolve]. rewrite <- Ek. ssolve.
        + intros i k Hi. apply Hrem in Hi as [Hi _]. eauto.
        + rewrite HK in *. exists rs2, n2, ch2, txn2. split; [done|]. split; [done|]. split; [done|].
          split; [done|]. split; [done|]. split; [done|]. split; [done|].
          eapply iwrites_trans; [exact HW'|exact W2|done|done|ssolve|done].
    Qed.
  End Leaf.

  Lemma rep_leaf_none f db p n X : rep (S f) db p n X -> X ⊆ U -> is_leaf n = true -> n_key n = None -> X = ∅.
  Proof.
    intros (Hi & Hp & _ & _ & Hc) HU Hl Hk. unfold is_leaf in Hl. destruct (n_children n) eqn:Ech; [|done].
    destruct Hc as [(E & _)|[(_ & _ & k & _ & Ek & _)|(_ & Hne & Hsz & HK)]]; [done|congruence|].
    apply set_choose_L in Hne as [k Hkx].
    assert (Hlt : (length p < length k)%nat) by (eapply inner_len; eauto).
    destruct (lookup_lt_is_Some_2 _ _ Hlt) as [c Hc]. specialize (HK c). cbn in HK. destruct HK as [HK _].
    assert (k ∈ sub (length p) c X) by (apply elem_sub; done). ssolve.
  Qed.

  Lemma ins_leaf_base g db base_idx ch txn key : (0 < g)%nat -> (12 <= base_idx)%nat -> (base_idx <= length key)%nat ->
    let m := Node 1 [] [] (Some key) in
    ins H order g db empty_node ch txn [key] base_idx =
      Ok ([true], m, update_hash H m ch (take base_idx key), put_to_txn m txn (take base_idx key)).
  Proof.
    intros Hg Hd Hl. destruct g; [lia|]. cbn [ins]. unfold ins_body.
    rewrite (proj2 (Nat.ltb_ge _ _)) by lia. unfold UNCOMPACTED.
    rewrite (proj2 (Nat.leb_le 12 base_idx)) by lia. done.
  Qed.

  Lemma last_removelast (keys : list bytes) : keys <> [] -> exists kl, last keys = Some kl /\ keys = removelast keys ++ [kl].
  Proof.
    intros Hne. destruct (exists_last Hne) as (l & x & ->). exists x. rewrite last_snoc, removelast_last. done.
  Qed.

  Theorem ins_ok g : forall f db base p, (forall k, k ∈ U -> (length k < length p + f)%nat) ->
    ins_spec (fun m ch txn keys => ins H order g db m ch txn keys (length p)) g f db base p.
  Proof.
    induction g as [|g IH]; intros f db base p HF n ch txn keys X Hpre Hne Hkeys.
    { destruct keys as [|k keys]; [done|]. destruct (Hkeys k) as (_ & Hp & Hl); [left|]. apply prefix_length in Hp. lia. }
    destruct keys as [|k0 keys0]; [done|]. destruct (Hkeys k0) as (HU0 & Hp0 & Hl0); [left|].
    pose proof (prefix_length _ _ Hp0) as Hpl0. pose proof (HF k0 HU0) as HF0.
    remember (k0 :: keys0) as keys eqn:Ekeys.
    destruct f as [|f]; [lia|].
    pose (rec := fun m ch txn keys => ins H order g db m ch txn keys (S (length p))).
    assert (rec_ok : forall c, ins_spec rec g f db base (p ++ [c])).
    { intros c. pose proof (IH f db base (p ++ [c])) as Hc. rewrite app_length, Nat.add_1_r in Hc. apply Hc.
      intros k Hk. specialize (HF k Hk). lia. }
    assert (rec_leaf : forall ch txn key, (0 < g)%nat -> (12 <= length p)%nat -> (length p < length key)%nat ->
      let m := Node 1 [] [] (Some key) in
      rec empty_node ch txn [key] = Ok ([true], m, update_hash H m ch (take (S (length p)) key), put_to_txn m txn (take (S (length p)) key))).
    { intros. apply ins_leaf_base; lia. }
    destruct Hpre as (Hr & HXU & Hcoh & Hs & Hh).
    cbn [ins]. fold rec.
    assert (Eb : ins_body H order rec db n ch txn keys (length p) =
      let rs := replicate (length keys) false in
      if Nat.leb UNCOMPACTED (length p) && is_leaf n then
        match n_key n with
        | None =>
            let n := Node (n_items n + 1) (n_children n) (n_chashes n) (last keys) in
            let ch := update_hash H n ch p in
            let txn := put_to_txn n txn p in
            let rs := <[0%nat := true]> rs in
            match removelast keys with
            | [] => Ok (rs, n, ch, txn)
            | keys => ins_leaf H order rec db n ch txn rs p (length p) (enumerate_from 1 keys)
            end
        | Some _ => ins_leaf H order rec db n ch txn rs p (length p) (enumerate_from 0 keys)
        end
      else ins_rest H order rec db n ch txn rs p (length p) (enumerate_from 0 keys)).
    { rewrite Ekeys. unfold ins_body. rewrite (proj2 (Nat.ltb_ge _ _)) by lia. by rewrite prefix_take. }
    rewrite Eb. clear Eb. cbv zeta.
    assert (HKn : forall j l, list_to_set l = keys_of (enumerate_from j l)).
    { intros j l. unfold keys_of. by rewrite enumerate_from_snd. }
    assert (Hen : forall j l i k, (i, k) ∈ enumerate_from j l -> k ∈ l /\ (j <= i < j + length l)%nat).
    { intros j l i k Hi. split.
      - apply (elem_of_list_fmap_1 snd) in Hi. fold (map snd (enumerate_from j l)) in Hi.
        change (snd <$> enumerate_from j l) with (map snd (enumerate_from j l)) in Hi. by rewrite enumerate_from_snd in Hi.
      - apply (elem_of_list_fmap_1 fst) in Hi.
        change (fst <$> enumerate_from j l) with (map fst (enumerate_from j l)) in Hi. rewrite enumerate_from_fst in Hi.
        apply elem_of_list_In, in_seq in Hi. cbn in Hi. lia. }
    assert (Hnden : forall j l, NoDup (map fst (enumerate_from j l))).
    { intros j l. rewrite enumerate_from_fst. apply NoDup_ListNoDup, seq_NoDup. }
    assert (Hfalse : forall i, (i < length keys)%nat -> replicate (length keys) false !! i = Some false).
    { intros i Hi. by apply lookup_replicate_2. }
    unfold UNCOMPACTED.
    destruct (Nat.leb_spec 12 (length p)) as [Hd|Hd]; cbn [andb]; [destruct (is_leaf n) eqn:Elf|].
    - destruct (n_key n) as [kk|] eqn:Ekey.
      + (* occupied leaf *)
        assert (X = {[kk]} /\ n_children n = []) as [-> Hchn].
        { destruct Hr as (_ & _ & _ & _ & [(_ & _ & _ & E)|[(_ & ? & k & ? & E & _)|(E & _)]]); [congruence| |congruence].
          assert (kk = k) by congruence. by subst. }
        rewrite (HKn 0%nat).
        replace (length keys) with (length (replicate (length keys) false)) at 1 by apply replicate_length.
        replace 0 with (count_true (replicate (length keys) false)) at 1 by apply count_true_replicate.
        eapply ins_leaf_ok with (g := g); try done.
        * intros Hg ch1 txn1 key Hlk. by apply rec_leaf.
        * ssolve.
        * apply Hcoh. ssolve.
        * apply Hh. ssolve.
        * intros i k Hi. apply Hen in Hi as [Hi _]. auto.
        * intros i k Hi. apply Hen in Hi as [_ Hi]. apply Hfalse. lia.
      + (* empty leaf *)
        assert (X = ∅) as -> by (eapply rep_leaf_none; eauto).
        destruct (last_removelast keys) as (kl & El & Ekl); [by rewrite Ekeys|]. rewrite El.
        destruct (Hkeys kl) as (HUl & Hpl & Hll); [rewrite Ekl; apply elem_of_app; right; left|].
        destruct Hr as (Hit & _ & _ & _ & Hcase).
        assert (Hn0 : n = empty_node).
        { destruct Hcase as [(_ & ? & ? & _)|[(_ & _ & k & E & _)|(_ & E & _)]]; [|ssolve|done].
          apply node_ext; [|done..]. rewrite Hit. by rewrite size_empty. }
        subst n. cbn [n_items n_children n_chashes empty_node]. replace (0 + 1) with 1 by lia.
        pose (n1 := Node 1 [] [] (Some kl)).
        assert (HR1 : rep (S f) db p n1 {[kl]}) by by apply leaf_rep.
        destruct (update_hash_spec f db p n1 {[kl]} ch HR1) as [U1 U2]; [ssolve|ssolve|done|].
        fold n1. pose (ch1 := update_hash H n1 ch p). pose (txn1 := put_to_txn n1 txn p). fold ch1 txn1.
        assert (HC1 : coh (S f) db (tmerge base txn1) p n1).
        { split; [|done]. unfold txn1, put_to_txn. by rewrite tmerge_put, tget_put. }
        assert (HW1 : iwrites txn txn1 p {[kl]}).
        { apply iwrites_put; [ssolve|]. intros k. rewrite elem_of_singleton. by intros ->. }
        pose (rs1 := <[0%nat:=true]> (replicate (length keys) false)). fold rs1.
        assert (Hlen0 : (0 < length keys)%nat) by (rewrite Ekeys; cbn; lia).
        assert (Hc1 : count_true rs1 = 1).
        { unfold rs1. rewrite count_true_insert by auto. rewrite count_true_replicate. done. }
        assert (Hlr : length rs1 = length keys) by (unfold rs1; by rewrite insert_length, replicate_length).
        assert (HKeq : (list_to_set keys : gset bytes) = {[kl]} ∪ list_to_set (removelast keys)).
        { rewrite Ekl at 1. rewrite list_to_set_app_L. cbn. ssolve. }
        destruct (removelast keys) as [|k1 ks] eqn:Erl.
        * assert (HE : ∅ ∪ list_to_set keys = ({[kl]} : gset bytes)) by (rewrite HKeq; cbn; ssolve).
          unfold ins_post. rewrite HE. exists rs1, n1, ch1, txn1.
          rewrite size_singleton, size_empty. split; [done|]. split; [done|]. split; [lia|]. split; [done|]. split; [done|].
          split; [exact U1|]. split; [exact U2|]. exact HW1.
        * rewrite <- Erl. rewrite <- Erl in HKeq.
          destruct (ins_leaf_ok rec g f db base p) with (n := n1) (ch := ch1) (txn := txn1) (rs := rs1) (k0 := kl)
            (keys := enumerate_from 1 (removelast keys))
            as (rs2 & n2 & ch2 & txn2 & E2 & L2 & C2 & R2 & K2 & A2 & G2 & W2); try done.
          { intros Hg ch2 txn2 key Hlk. by apply rec_leaf. }
          { intros c Hc. unfold ch1. rewrite U2. by rewrite decide_True. }
          { intros i k Hi. apply Hen in Hi as [Hi _]. apply Hkeys. rewrite Ekl, <- Erl. apply elem_of_app. by left. }
          { intros i k Hi. apply Hen in Hi as [_ Hi]. unfold rs1. rewrite list_lookup_insert_ne by lia. apply Hfalse.
            rewrite Ekl, app_length, <- Erl. cbn. lia. }
          rewrite <- HKn in *. rewrite E2.
          assert (HE : ∅ ∪ list_to_set keys = (list_to_set keys : gset bytes)) by apply union_empty_l_L.
          unfold ins_post. rewrite HE. exists rs2, n2, ch2, txn2. rewrite <- HKeq in *. rewrite size_singleton in C2. rewrite size_empty.
          split; [done|]. split; [lia|]. split; [lia|]. split; [done|]. split; [done|]. split; [done|]. split.
          { intros c. rewrite G2. destruct (decide (last p = Some c)); [done|]. unfold ch1. rewrite U2. by rewrite decide_False. }
          eapply iwrites_trans; [exact HW1|exact W2|done|done| |done]. rewrite HKeq. ssolve.
    - (* inner node *)
      assert (Hin : n_key n = None /\ X <> ∅ /\ size X <> 1%nat /\
        kids f db (shash H f (S (length p))) db p (n_children n) (n_chashes n) X).
      { unfold is_leaf in Elf. destruct Hr as (_ & _ & _ & _ & [(_ & E & _)|[(_ & E & _)|(? & ? & ? & ?)]]); [by rewrite E in Elf..|].
        split_and!; auto. }
      destruct Hin as (Hkn & HXne & Hsz & Hk).
      destruct Hr as (Hit & Hpx & HS1 & HS2 & _).
      rewrite (HKn 0%nat). pose (rem := enumerate_from 0 keys). fold rem.
      assert (Hsz' : size (X ∪ keys_of rem) <> 1%nat).
      { pose proof (subseteq_size X (X ∪ keys_of rem)) as Hsu. feed specialize Hsu; [ssolve|].
        assert (size X <> 0)%nat; [|lia]. intros E. apply size_empty_inv, leibniz_equiv in E. done. }
      assert (HXKU : forall k, k ∈ X ∪ keys_of rem -> k ∈ U /\ p `prefix_of` k).
      { intros k [?|Hk']%elem_of_union; [auto|]. apply elem_keys_of in Hk' as [i Hi]. apply Hen in Hi as [Hi _].
        apply Hkeys in Hi as (? & ? & _). done. }
      replace (length keys) with (length (replicate (length keys) false)) at 1 by apply replicate_length.
      replace 0 with (count_true (replicate (length keys) false)) at 1 by apply count_true_replicate.
      eapply ins_rest_ok with (g := g); try done.
      + intros i k Hi. pose proof (Hen _ _ _ _ Hi) as [Hi' _]. apply Hkeys in Hi' as (? & ? & ?).
        assert (length p < length k)%nat.
        { eapply inner_len with (X := X ∪ keys_of rem); try done;
            [intros k' Hk'; by apply HXKU|intros k' Hk'; by apply HXKU|].
          apply elem_of_union_r, elem_keys_of. eauto. }
        split_and!; [done|done|lia|lia].
      + apply Hnden.
      + apply set_choose_L in HXne as [k Hkx]. specialize (HF k (HXU k Hkx)).
        assert (length p < length k)%nat by (eapply inner_len with (X := X); eauto). lia.
      + unfold rem. rewrite Ekeys. done.
      + specialize (Hcoh HXne). destruct Hcoh as [_ Hkc]. unfold ginv. split_and!; try done. apply iwrites_refl.
      + intros _. specialize (Hcoh HXne). apply Hcoh.
      + intros ? _. by apply Hh.
      + intros i k Hi. apply Hen in Hi as [_ Hi]. apply Hfalse. lia.
    - (* above the compaction depth *)
      assert (Hin : n_key n = None /\ kids f db (shash H f (S (length p))) db p (n_children n) (n_chashes n) X).
      { destruct Hr as (_ & _ & _ & _ & [(-> & E1 & E2 & E3)|[(? & _)|(? & ? & ? & ?)]]); [|lia|done].
        split; [done|]. intros c. rewrite E1, E2. cbn. by rewrite sub_empty. }
      destruct Hin as (Hkn & Hk). destruct Hr as (Hit & Hpx & HS1 & HS2 & Hcase).
      rewrite (HKn 0%nat). pose (rem := enumerate_from 0 keys). fold rem.
      replace (length keys) with (length (replicate (length keys) false)) at 1 by apply replicate_length.
      replace 0 with (count_true (replicate (length keys) false)) at 1 by apply count_true_replicate.
      eapply ins_rest_ok with (g := g); try done.
      + intros i k Hi. pose proof (Hen _ _ _ _ Hi) as [Hi' _]. apply Hkeys in Hi' as (Hku & ? & ?).
        pose proof (U_len k Hku). split_and!; [done|done|lia|lia].
      + apply Hnden.
      + pose proof (U_len _ HU0). lia.
      + unfold rem. rewrite Ekeys. done.
      + unfold ginv. split_and!; try done; [|apply iwrites_refl].
        destruct Hcase as [(-> & E1 & _)|[(? & _)|(_ & HXne & _)]]; [rewrite E1; done|lia|]. exact (proj2 (Hcoh HXne)).
      + intros HXne. by apply Hcoh.
      + intros ? _. by apply Hh.
      + lia.
      + intros i k Hi. apply Hen in Hi as [_ Hi]. apply Hfalse. lia.
  Qed.
End Ins.
