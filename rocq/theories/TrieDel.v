(** [delete] refines set difference, provided the misdirected delete of compaction (trie_node.rs:508-509) hits
    no path in use. *)
From Verif Require Export TrieIns.
From Coq Require Import ZifyN ZifyNat ZifyBool.
#[local] Open Scope N_scope.
Implicit Types (p q k : bytes) (c : N) (d idx : nat) (X Y K : gset bytes) (n m : node).

Lemma amap_singleton {A} (m : amap A) c x : asorted m -> aget c m = Some x -> (forall c', c' <> c -> aget c' m = None) ->
  m = [(c, x)].
Proof.
  intros Hs Hc Ho. apply amap_ext; [done|repeat constructor|]. intros c'. cbn [aget].
  destruct (N.eqb_spec c c') as [<-|Hn]; [done|]. apply Ho. congruence.
Qed.

Section Del.
  Variable H : bytes -> bytes.
  Variable order : list N -> list N.
  Variable U : gset bytes.
  Hypothesis order_perm : forall l, Permutation (order l) l.
  Hypothesis H_ne : forall x, H x <> [].
  Hypothesis U_len : forall k, k ∈ U -> (12 <= length k)%nat.
  Hypothesis U_pf : forall a b, a ∈ U -> b ∈ U -> a `prefix_of` b -> a = b.
  Hypothesis U_nib : forall k, k ∈ U -> forall (i : nat) c, k !! i = Some c -> c < 16.
  (** No key in use continues the misdirected path of another one. *)
  Hypothesis U_nocol : forall k k', k ∈ U -> k' ∈ U -> ~ (MERKLE_TRIE_NODE :: take 13 k) `prefix_of` k'.

  Notation rep := (rep H).
  Notation kids f db := (kids (rep f db)).
  Notation coh := (coh U).
  Notation kcoh := (kcoh U).
  Notation Upre := (Upre U).

  Definition on_path p X (q : bytes) : Prop := exists k, p `prefix_of` q /\ k ∈ X /\ q `prefix_of` k.
  Definition dwrites (txn txn' : batch dbnode) p X : Prop :=
    forall key, txn' !! key = txn !! key \/
      exists q, on_path p X q /\ (key = pk q \/ key = pk (MERKLE_TRIE_NODE :: q) /\ 13 <= length q)%nat.

  Lemma dwrites_refl txn p X : dwrites txn txn p X.
  Proof. intros key. by left. Qed.
  Lemma on_path_mono p p' X X' q : on_path p' X' q -> p `prefix_of` p' -> X' ⊆ X -> on_path p X q.
  Proof. intros (k & H1 & H2 & H3) Hp HX. exists k. split; [by trans p'|]. auto. Qed.
  Lemma dwrites_trans t1 t2 t3 p p1 p2 X X1 X2 : dwrites t1 t2 p1 X1 -> dwrites t2 t3 p2 X2 ->
    p `prefix_of` p1 -> p `prefix_of` p2 -> X1 ⊆ X -> X2 ⊆ X -> dwrites t1 t3 p X.
  Proof.
    intros W1 W2 P1 P2 S1 S2 key. destruct (W2 key) as [->|(q & Hq & Hk)].
    - destruct (W1 key) as [->|(q & Hq & Hk)]; [by left|]. right. exists q. split; [by eapply on_path_mono|done].
    - right. exists q. split; [by eapply on_path_mono|done].
  Qed.
  Lemma dwrites_put n txn p X : X <> ∅ -> (forall k, k ∈ X -> p `prefix_of` k) -> dwrites txn (put_to_txn n txn p) p X.
  Proof.
    intros Hne Hp key. unfold put_to_txn, tput. destruct (decide (key = pk p)) as [->|Hn].
    - right. apply set_choose_L in Hne as [k Hk]. exists p. split; [exists k; auto|by left].
    - left. by rewrite lookup_insert_ne.
  Qed.
  Lemma dwrites_del txn p X : X <> ∅ -> (forall k, k ∈ X -> p `prefix_of` k) -> dwrites txn (delete_to_txn txn p) p X.
  Proof.
    intros Hne Hp key. unfold delete_to_txn, tdel. destruct (decide (key = pk p)) as [->|Hn].
    - right. apply set_choose_L in Hne as [k Hk]. exists p. split; [exists k; auto|by left].
    - left. by rewrite lookup_insert_ne.
  Qed.
  Lemma dwrites_frame txn txn' p X q : dwrites txn txn' p X -> X ⊆ U -> Upre q -> ~ p `prefix_of` q ->
    txn' !! pk q = txn !! pk q.
  Proof.
    intros W HU (k' & Hk' & Hqk') Hn.
    destruct (W (pk q)) as [->|(q' & (k & H1 & H2 & H3) & [E|[E Hl]])]; [done|..]; apply pk_inj in E as ->; [done|].
    exfalso. apply (U_nocol k k'); [auto|done|]. etrans; [|exact Hqk'].
    destruct H3 as [r ->]. rewrite take_app_le by done. exists (drop 13 q'). cbn. by rewrite take_drop.
  Qed.

  (** Nodes down to depth 12 that no longer hold a key are deleted. *)
  Definition gone (txn : batch dbnode) p X Y : Prop :=
    forall q, (length q <= 12)%nat -> on_path p X q -> (forall k, k ∈ Y -> ~ q `prefix_of` k) -> txn !! pk q = Some None.

  Definition del_pre (f : nat) (db : kv dbnode) (base : batch dbnode) p n X (ch : amap bytes) (txn : batch dbnode) : Prop :=
    rep f db p n X /\ X ⊆ U /\ X <> ∅ /\ coh f db (tmerge base txn) p n /\ asorted ch /\
    (forall c, last p = Some c -> aget c ch = Some (shash H f (length p) X)).

  Definition del_post (f : nat) (db : kv dbnode) (base : batch dbnode) p X (Y : gset bytes) (ch : amap bytes)
      (txn : batch dbnode) (len : nat) (o : res terr iout) : Prop :=
    exists rs n' ch' txn', o = Ok (rs, n', ch', txn') /\
      length rs = len /\ count_true rs + N.of_nat (size Y) = N.of_nat (size X) /\
      n_items n' = N.of_nat (size Y) /\
      (Y <> ∅ \/ (length p < 12)%nat -> rep f db p n' Y) /\
      (Y <> ∅ -> coh f db (tmerge base txn') p n') /\
      asorted ch' /\
      (forall c, aget c ch' = if decide (last p = Some c) then
                           (if decide (Y = ∅) then None else Some (shash H f (length p) Y)) else aget c ch) /\
      dwrites txn txn' p X /\ gone txn' p X Y.

  Definition del_spec (rec : node -> amap bytes -> batch dbnode -> list bytes -> res terr iout) (g f : nat)
      (db : kv dbnode) (base : batch dbnode) p : Prop :=
    forall m ch txn keys X, del_pre f db base p m X ch txn -> keys <> [] ->
      (forall k, k ∈ keys -> k ∈ U /\ p `prefix_of` k /\ length k < length p + g)%nat ->
      del_post f db base p X (X ∖ list_to_set keys) ch txn (length keys) (rec m ch txn keys).

  Lemma update_hash_empty n ch p : node_hash H n = [] -> asorted ch ->
    asorted (update_hash H n ch p) /\
    forall c, aget c (update_hash H n ch p) = if decide (last p = Some c) then None else aget c ch.
  Proof.
    intros Hn Hs. unfold update_hash. destruct (last p) as [c0|] eqn:El.
    - rewrite Hn. split; [by apply adel_sorted|]. intros c. destruct (decide (c0 = c)) as [->|Hne].
      + rewrite aget_adel by done. by rewrite decide_True.
      + rewrite aget_adel_ne by done. by rewrite decide_False by congruence.
    - split; [done|]. intros c. by rewrite decide_False.
  Qed.

  Section Loop.
    Variable rec : node -> amap bytes -> batch dbnode -> list bytes -> res terr iout.
    Variables (g f : nat) (db : kv dbnode) (base : batch dbnode) (p : bytes) (rem : list (nat * bytes)).
    Hypothesis rec_ok : forall c, del_spec rec g f db base (p ++ [c]).
    Hypothesis rem_ok : forall i k, (i, k) ∈ rem -> k ∈ U /\ p `prefix_of` k /\ (length p < length k < length p + S g)%nat.
    Hypothesis rem_nd : NoDup (map fst rem).

    Definition dinv n (txn0 txn : batch dbnode) (X Xd : gset bytes) : Prop :=
      asorted (n_children n) /\ asorted (n_chashes n) /\ n_key n = None /\ n_items n = N.of_nat (size X) /\
      Xd ⊆ X /\ X ⊆ U /\ X <> ∅ /\ (forall k, k ∈ X -> p `prefix_of` k) /\
      kids f db (shash H f (S (length p))) db p (n_children n) (n_chashes n) Xd /\
      kcoh f db (tmerge base txn) p (n_children n) /\
      dwrites txn0 txn p X /\ txn !! pk p = txn0 !! pk p /\
      (forall q, (length q <= 12)%nat -> q <> p -> on_path p X q -> (forall k, k ∈ Xd -> ~ q `prefix_of` k) -> txn !! pk q = Some None).

    Lemma dinv_step n txn0 txn X Xd c : dinv n txn0 txn X Xd ->
      let Kc := sub (length p) c (keys_of rem) in
      (exists i k, (i, k) ∈ rem /\ char_at (length p) k = c) ->
      (load_child db n p c = None /\ Xd ∖ Kc = Xd) \/
      exists m crs m' ch' txn', load_child db n p c = Some m /\
        rec m (n_chashes n) txn (map snd (group_of (length p) c rem)) = Ok (crs, m', ch', txn') /\
        length crs = length (group_of (length p) c rem) /\
        dinv (if n_items m' =? 0 then Node (n_items n) (adel c (n_children n)) (adel c ch') (n_key n)
              else Node (n_items n) (aset c (CNode m') (n_children n)) ch' (n_key n)) txn0 txn' X (Xd ∖ Kc) /\
        count_true crs + N.of_nat (size (Xd ∖ Kc)) = N.of_nat (size Xd).
    Proof.
      intros (S1 & S2 & Hkey & Hit & HX & HU & HXne & Hp & Hk & Hc & HW & Hself & Hgone) Kc Hex.
      pose proof (Hk c) as Hkc. unfold load_child.
      destruct (aget c (n_children n)) as [x|] eqn:Ex.
      2:{ left. split; [done|]. destruct Hkc as [He _]. apply set_eq. intros k. rewrite elem_of_difference. split; [tauto|].
          intros Hkx. split; [done|]. intros Hkk. apply elem_sub in Hkk as [_ Hkk].
          assert (k ∈ sub (length p) c Xd) as Hin by by apply elem_sub. rewrite He in Hin. ssolve. }
      right. destruct Hkc as (Hne & Hh & HR).
      assert (Hlen : forall i k, (i, k) ∈ rem -> (length p < length k)%nat) by (intros i k Hi; apply rem_ok in Hi; lia).
      assert (HKc : keys_of (group_of (length p) c rem) = Kc) by by apply keys_of_group.
      assert (HKcU : forall k, k ∈ Kc -> k ∈ U /\ p ++ [c] `prefix_of` k /\ (length k < length (p ++ [c]) + g)%nat).
      { intros k Hk'. apply elem_sub in Hk' as [Hk1 Hk2]. apply elem_keys_of in Hk1 as [i Hi].
        apply rem_ok in Hi as (? & ? & ?). split_and!; [done| |rewrite app_length; cbn; lia].
        by apply prefix_snoc. }
      pose (Sc := sub (length p) c Xd). fold Sc in Hne, Hh, HR.
      assert (HScX : Sc ⊆ X) by (intros k Hk'; apply HX; by apply (sub_subseteq _ _ _ _ Hk')).
      assert (HScU : Sc ⊆ U) by (by trans X).
      assert (HScp : forall k, k ∈ Sc -> p ++ [c] `prefix_of` k).
      { intros k Hk'. pose proof (HScX k Hk'). apply elem_sub in Hk' as [? ?]. apply prefix_snoc. auto. }
      assert (HUpc : Upre (p ++ [c])).
      { apply set_choose_L in Hne as [k Hk']. exists k. split; [by apply HScU|by apply HScp]. }
      assert (Hpre : del_pre f db base (p ++ [c]) (loadc db p c x) Sc (n_chashes n) txn).
      { refine (conj HR (conj HScU (conj Hne (conj _ (conj S2 _))))).
        - specialize (Hc c x Ex). destruct x as [m|]; [done|].
          cbn [loadc] in *. destruct (db !! pk (p ++ [c])) as [d|] eqn:Ed.
          + apply coh_load; [done|done|done].
          + exfalso. apply rep_items in HR. cbn in HR. symmetry in HR. by apply size_N_empty in HR.
        - intros c'. rewrite last_snoc. intros [= <-]. rewrite app_length, Nat.add_1_r. done. }
      destruct (rec_ok c _ _ txn (map snd (group_of (length p) c rem)) Sc Hpre)
        as (crs & m' & ch' & txn' & Erec & Hlen' & Hcnt & Hit' & HR' & HC' & HS' & Hh' & HW' & HG').
      { destruct Hex as (i & k & Hi & Hch). intros E.
        assert ((i, k) ∈ group_of (length p) c rem) as Hin by by apply elem_group_of.
        destruct (group_of (length p) c rem); [inversion Hin|done]. }
      { intros k Hk'. apply HKcU. rewrite <- HKc. unfold keys_of. by rewrite elem_of_list_to_set. }
      change (list_to_set (map snd (group_of (length p) c rem))) with (keys_of (group_of (length p) c rem)) in *.
      rewrite HKc in *. rewrite map_length in Hlen'.
      exists (loadc db p c x), crs, m', ch', txn'.
      split; [destruct x; cbn [loadc]; [done|by rewrite pk_child]|]. split; [done|]. split; [done|].
      assert (HKcid : sub (length p) c Kc = Kc).
      { apply sub_id. intros k Hk'. by apply elem_sub in Hk' as [_ ?]. }
      assert (Hsubc : sub (length p) c (Xd ∖ Kc) = Sc ∖ Kc) by by rewrite sub_diff, HKcid.
      assert (Hsubo : forall c', c' <> c -> sub (length p) c' (Xd ∖ Kc) = sub (length p) c' Xd).
      { intros c' Hn. rewrite sub_diff. rewrite (sub_none _ _ Kc); [by rewrite difference_empty_L|].
        intros k Hk'. apply elem_sub in Hk' as [_ ->]. congruence. }
      assert (Hframe : forall q, ~ p ++ [c] `prefix_of` q -> Upre q -> tmerge base txn' !! pk q = tmerge base txn !! pk q).
      { intros q Hq HUq. apply tmerge_lookup_eq. by eapply dwrites_frame. }
      split.
      2:{ pose proof (size_del_sub (length p) c Xd Kc) as Hsz. feed specialize Hsz.
          { intros k Hk'. by apply elem_sub in Hk' as [_ ?]. }
          fold Sc in Hsz. lia. }
      assert (Hselfp : txn' !! pk p = txn0 !! pk p).
      { rewrite <- Hself. eapply dwrites_frame; [exact HW'|done| |].
        - apply set_choose_L in HXne as [k Hkx]. exists k. auto.
        - intros Hq. apply prefix_length in Hq. rewrite app_length in Hq. cbn in Hq. lia. }
      assert (HWt : dwrites txn0 txn' p X).
      { eapply dwrites_trans; [exact HW|exact HW'|done|by apply prefix_app_r|done|done]. }
      assert (Hkco : forall c' y, c' <> c -> aget c' (n_children n) = Some y ->
        match y with
        | CNode m => coh f db (tmerge base txn') (p ++ [c']) m
        | CSer => forall q, p ++ [c'] `prefix_of` q -> Upre q -> tmerge base txn' !! pk q = None
        end).
      { intros c' y Hn Ey. specialize (Hc c' y Ey). specialize (Hk c'). rewrite Ey in Hk. destruct Hk as (Hne' & _ & HRx).
        destruct y as [my|].
        - eapply coh_frame; [exact HRx| |done|done|].
          { intros k Hk'. apply HU, HX. by apply (sub_subseteq _ _ _ _ Hk'). }
          intros q Hq HUq. apply Hframe; [|done]. by eapply prefix_neq_snoc.
        - intros q Hq HUq. rewrite Hframe; [auto| |done]. by eapply prefix_neq_snoc. }
      assert (Hgone' : forall q, (length q <= 12)%nat -> q <> p -> on_path p X q ->
        (forall k, k ∈ Xd ∖ Kc -> ~ q `prefix_of` k) -> txn' !! pk q = Some None).
      { intros q Hq Hqp Hon Hno. destruct (decide (set_Exists (fun k => q `prefix_of` k) Sc)) as [(k & Hk1 & Hk2)|Hns].
        - destruct (decide (p ++ [c] `prefix_of` q)) as [Hpc|Hpc].
          + apply HG'; [done|by exists k|]. intros k' Hk'. apply Hno. apply elem_of_difference in Hk' as [Hk' ?].
            apply elem_sub in Hk' as [? _]. by apply elem_of_difference.
          + exfalso. destruct Hon as (k' & Hpq & _). destruct (prefix_total _ _ _ (HScp k Hk1) Hk2) as [|Hq2]; [done|].
            apply prefix_length in Hpq as Hl1. apply prefix_length in Hq2 as Hl2. rewrite app_length in Hl2. cbn in Hl2.
            destruct (decide (length q = length p)) as [El|El].
            * apply Hqp. symmetry. by apply prefix_len_eq.
            * apply Hpc. assert (q = p ++ [c]) as ->; [|done]. apply prefix_len_eq; [done|]. rewrite app_length. cbn. lia.
        - assert (txn' !! pk q = txn !! pk q) as ->.
          { destruct (HW' (pk q)) as [->|(q' & (k & H1 & H2 & H3) & [E|[E Hl]])]; [done|..]; apply pk_inj in E as ->.
            - destruct Hns. by exists k.
            - exfalso. cbn in Hq. lia. }
          apply Hgone; [done..|]. intros k Hk1 Hk2. destruct (decide (k ∈ Kc)) as [Hkc|Hkc].
          + apply Hns. exists k. split; [|done]. apply elem_sub. split; [done|]. by apply elem_sub in Hkc as [_ ?].
          + apply (Hno k); [by apply elem_of_difference|done]. }
      destruct (N.eqb_spec (n_items m') 0) as [E0|E0].
      - assert (HY : Sc ∖ Kc = ∅) by (apply size_N_empty; congruence).
        unfold dinv. cbn [n_children n_chashes n_key n_items].
        split; [by apply adel_sorted|]. split; [by apply adel_sorted|]. split_and!; try done.
        + intros k Hk'. apply HX. by apply elem_of_difference in Hk' as [? _].
        + intros c'. destruct (decide (c = c')) as [<-|Hn].
          * rewrite !aget_adel by done. by rewrite Hsubc.
          * rewrite !aget_adel_ne, Hsubo by congruence. specialize (Hk c').
            rewrite Hh', last_snoc, decide_False by congruence. done.
        + intros c' y. destruct (decide (c = c')) as [<-|Hn].
          * by rewrite aget_adel.
          * rewrite aget_adel_ne by done. intros Ey. by apply Hkco.
      - assert (HY : Sc ∖ Kc <> ∅) by (intros E; apply E0; rewrite Hit', E; done).
        unfold dinv. cbn [n_children n_chashes n_key n_items].
        split; [by apply aset_sorted|]. split; [done|]. split_and!; try done.
        + intros k Hk'. apply HX. by apply elem_of_difference in Hk' as [? _].
        + intros c'. destruct (decide (c = c')) as [<-|Hn].
          * rewrite aget_aset, Hsubc. split; [done|]. split; [|by apply HR'; left].
            rewrite Hh', last_snoc, decide_True, decide_False by done. by rewrite app_length, Nat.add_1_r.
          * rewrite aget_aset_ne, Hsubo by congruence. specialize (Hk c').
            rewrite Hh', last_snoc, decide_False by congruence. done.
        + intros c' y. destruct (decide (c = c')) as [<-|Hn].
          * rewrite aget_aset. intros [= <-]. by apply HC'.
          * rewrite aget_aset_ne by done. intros Ey. by apply Hkco.
    Qed.

    Lemma del_groups_ok cs : forall n txn0 txn rs succ X Xd,
      NoDup cs -> (forall c, c ∈ cs -> exists i k, (i, k) ∈ rem /\ char_at (length p) k = c) ->
      dinv n txn0 txn X Xd ->
      (forall i k, (i, k) ∈ rem -> char_at (length p) k ∈ cs -> rs !! i = Some false) ->
      exists n' txn' rs' succ',
        del_groups rec db n txn rs succ p (length p) rem cs = Ok (n', txn', rs', succ') /\
        dinv n' txn0 txn' X (Xd ∖ part p rem cs) /\
        length rs' = length rs /\ count_true rs' + succ = count_true rs + succ' /\
        succ' + N.of_nat (size (Xd ∖ part p rem cs)) = succ + N.of_nat (size Xd).
    Proof.
      induction cs as [|c cs IH]; intros n txn0 txn rs succ X Xd Hnd Hcs Hg Hrs.
      - cbn [del_groups]. exists n, txn, rs, succ. split; [done|].
        assert (part p rem [] = ∅) as ->.
        { unfold part. apply set_eq. intros k. rewrite elem_of_filter. ssolve. }
        rewrite difference_empty_L. split; [done|]. split; [done|]. lia.
      - inversion Hnd as [|? ? Hn Hnd']; subst. cbn [del_groups].
        assert (Hcs' : forall c', c' ∈ cs -> exists i k, (i, k) ∈ rem /\ char_at (length p) k = c') by (intros c' Hc'; apply Hcs; by right).
        assert (Hpart : forall Z, Z ∖ sub (length p) c (keys_of rem) ∖ part p rem cs = Z ∖ part p rem (c :: cs)).
        { intros Z. unfold part. apply set_eq. intros k.
          rewrite !elem_of_difference, elem_sub, !elem_of_filter, elem_of_cons.
          assert (k ∈ keys_of rem -> (char_at (length p) k = c <-> k !! length p = Some c)) as Hch.
          { intros Hk. apply elem_keys_of in Hk as [i Hi]. apply rem_ok in Hi. apply char_at_lookup. lia. }
          destruct (decide (k ∈ keys_of rem)) as [Hk|Hk]; [|tauto]. specialize (Hch Hk). tauto. }
        destruct (dinv_step n txn0 txn X Xd c Hg) as [(El & Hsame)|(m & crs & m' & ch' & txn' & El & Er & Hl & Hg' & Hcnt)]; [apply Hcs; left|..].
        + rewrite El. rewrite <- Hpart, Hsame.
          apply IH; [done|done|done|]. intros i k Hi Hc'. eapply Hrs; [done|by right].
        + rewrite El, Er. rewrite <- Hl, take_ge by done.
          destruct (set_results_spec rs (map fst (group_of (length p) c rem)) crs) as (R1 & R2 & R3).
          * by apply NoDup_fst_filter.
          * intros i Hi. apply elem_of_list_fmap in Hi as ([i' k] & -> & Hi). apply elem_group_of in Hi as [H1 H2].
            cbn [fst snd] in *. eapply Hrs; [done|]. rewrite H1. left.
          * by rewrite map_length.
          * destruct (IH _ txn0 txn' (set_results rs (map fst (group_of (length p) c rem)) crs)
              (succ + count_true crs) X _ Hnd' Hcs' Hg') as (n2 & txn2 & rs2 & succ2 & E2 & Hg2 & L2 & C2 & Z2).
            { intros i k Hi Hc'. rewrite R3; [eapply Hrs; [done|by right]|].
              intros Hi'. apply elem_of_list_fmap in Hi' as ([i' k'] & E & Hi'). cbn in E. subst i'.
              apply elem_group_of in Hi' as [H1 H2]. cbn [snd] in H1.
              assert (k = k') as -> by by eapply NoDup_fst_unique. by rewrite H1 in Hc'. }
            rewrite Hpart in *. exists n2, txn2, rs2, succ2. split; [exact E2|]. split; [done|]. split; [lia|]. lia.
    Qed.
  End Loop.

  Lemma rep_leaf_some f db p n X : rep (S f) db p n X -> X ⊆ U -> is_leaf n = true -> X <> ∅ ->
    exists k, X = {[k]} /\ n_key n = Some k /\ (12 <= length p)%nat.
  Proof.
    intros Hr HU Hl Hne. destruct (n_key n) as [k|] eqn:Ek.
    - destruct Hr as (_ & _ & _ & _ & [(? & _)|[(? & _ & k' & -> & Ek' & _)|(? & _)]]); [done| |congruence].
      exists k'. split; [done|]. split; [congruence|done].
    - destruct Hne. eapply rep_leaf_none; eauto.
  Qed.

  Lemma find_key_spec k0 i keys : match find_key (Some k0) i keys with
    | Some j => k0 ∈ keys /\ (i <= j < i + length keys)%nat
    | None => k0 ∉ keys
    end.
  Proof.
    revert i; induction keys as [|x keys IH]; intros i; cbn [find_key default from_option]; [intros Hi; inversion Hi|].
    unfold id. destruct (decide (k0 = x)) as [->|Hn]; [split; [left|cbn; lia]|].
    specialize (IH (S i)). destruct (find_key _ _ _).
    - destruct IH. split; [by right|cbn; lia].
    - rewrite not_elem_of_cons. done.
  Qed.

  (** A set with one key below depth 12: the node has a single child, holding that key. *)
  Lemma kids_single f db p n k : kids f db (shash H f (S (length p))) db p (n_children n) (n_chashes n) {[k]} ->
    asorted (n_children n) -> (12 <= length p)%nat -> (length p < length k)%nat ->
    exists c x, n_children n = [(c, x)] /\ k !! length p = Some c /\ n_key (loadc db p c x) = Some k /\
      forall c', c' <> c -> aget c' (n_chashes n) = None.
  Proof.
    intros Hk Hs Hd Hl. destruct (lookup_lt_is_Some_2 k (length p) Hl) as [c Hc].
    assert (Hsc : sub (length p) c {[k]} = {[k]}).
    { apply sub_id. intros k'. rewrite elem_of_singleton. by intros ->. }
    assert (Hso : forall c', c' <> c -> aget c' (n_children n) = None /\ aget c' (n_chashes n) = None).
    { intros c' Hn. specialize (Hk c'). destruct (aget c' (n_children n)) as [x|]; [|tauto].
      destruct Hk as (Hne & _). destruct Hne. apply sub_none. intros k'. rewrite elem_of_singleton. intros ->. congruence. }
    pose proof (Hk c) as Hkc. rewrite Hsc in Hkc. destruct (aget c (n_children n)) as [x|] eqn:Ex; [|exfalso; ssolve].
    destruct Hkc as (_ & _ & HR). exists c, x.
    split; [apply amap_singleton; naive_solver|]. split; [done|]. split; [|naive_solver].
    destruct f; [done|]. destruct HR as (_ & _ & _ & _ & [(? & _)|[(_ & _ & k' & Ek & -> & _)|(_ & _ & Hsz & _)]]).
    - ssolve.
    - f_equal. ssolve.
    - exfalso. apply Hsz; [rewrite app_length; cbn; lia|apply size_singleton].
  Qed.

  Theorem del_ok g : forall f db base p, (forall k, k ∈ U -> (length k < length p + f)%nat) ->
    del_spec (fun m ch txn keys => del H order g db m ch txn keys (length p)) g f db base p.
  Proof.
    induction g as [|g IH]; intros f db base p HF n ch txn keys X Hpre Hne Hkeys.
    { destruct keys as [|k keys]; [done|]. destruct (Hkeys k) as (_ & Hp & Hl); [left|]. apply prefix_length in Hp. lia. }
    destruct keys as [|k0 keys0]; [done|]. destruct (Hkeys k0) as (HU0 & Hp0 & Hl0); [left|].
    pose proof (prefix_length _ _ Hp0) as Hpl0. pose proof (HF k0 HU0) as HF0.
    remember (k0 :: keys0) as keys eqn:Ekeys.
    destruct f as [|f]; [lia|].
    pose (rec := fun m ch txn keys => del H order g db m ch txn keys (S (length p))).
    assert (rec_ok : forall c, del_spec rec g f db base (p ++ [c])).
    { intros c. pose proof (IH f db base (p ++ [c])) as Hc. rewrite app_length, Nat.add_1_r in Hc. apply Hc.
      intros k Hk. specialize (HF k Hk). lia. }
    destruct Hpre as (Hr & HXU & HXne & Hcoh & Hs & Hh).
    cbn [del]. fold rec.
    assert (Eb : del_body H order rec db n ch txn keys (length p) =
      let rs := replicate (length keys) false in
      if is_leaf n then Ok (del_leaf H n ch txn keys p)
      else if existsb (fun k => Nat.leb (length k) (length p)) keys then Err KeyLengthExceeded
      else
        let rem := enumerate_from 0 keys in
        match del_groups rec db n txn rs 0 p (length p) rem (group_chars order (length p) rem) with
        | Ok (n, txn, rs, succ) =>
            if 0 <? succ then
              let n := Node (n_items n - succ) (n_children n) (n_chashes n) (n_key n) in
              if n_items n =? 0 then Ok (rs, n, update_hash H n ch p, delete_to_txn txn p)
              else
                match compact db n txn p (length p) with
                | Ok (n, txn) => Ok (rs, n, update_hash H n ch p, put_to_txn n txn p)
                | Err e => Err e
                | Panic => Panic
                end
            else Ok (rs, n, ch, txn)
        | Err e => Err e
        | Panic => Panic
        end).
    { rewrite Ekeys. unfold del_body. rewrite (proj2 (Nat.ltb_ge _ _)) by lia. by rewrite prefix_take. }
    rewrite Eb. clear Eb. cbv zeta.
    assert (Hpx : forall k, k ∈ X -> p `prefix_of` k) by apply Hr.
    assert (Hfalse : forall i, (i < length keys)%nat -> replicate (length keys) false !! i = Some false).
    { intros i Hi. by apply lookup_replicate_2. }
    destruct (is_leaf n) eqn:Elf.
    - destruct (rep_leaf_some f db p n X) as (k & -> & Ek & Hd); [done..|].
      unfold del_leaf. rewrite Ek. pose proof (find_key_spec k 0 keys) as Hf.
      destruct (find_key (Some k) 0 keys) as [j|].
      + destruct Hf as [Hin Hj].
        assert (HE : {[k]} ∖ list_to_set keys = (∅ : gset bytes)).
        { apply set_eq. intros k'. rewrite elem_of_difference, elem_of_singleton, elem_of_list_to_set. ssolve. }
        unfold del_post. rewrite HE.
        pose (n1 := Node (n_items n - 1) (n_children n) (n_chashes n) None). fold n1.
        assert (Hn1 : node_hash H n1 = []).
        { unfold node_hash, is_leaf. cbn [n1 n_children n_key]. unfold is_leaf in Elf. by destruct (n_children n). }
        destruct (update_hash_empty n1 ch p Hn1 Hs) as [U1 U2].
        assert (Hit : n_items n = 1) by (rewrite (rep_items _ _ _ _ _ _ Hr), size_singleton; done).
        eexists _, n1, _, _. split; [done|]. split; [by rewrite insert_length, replicate_length|].
        rewrite size_empty, size_singleton. split.
        { rewrite count_true_insert by (apply Hfalse; lia). rewrite count_true_replicate. lia. }
        split; [cbn; lia|]. split; [intros [?|?]; [done|lia]|]. split; [done|]. split; [done|].
        split; [intros c; rewrite U2; destruct (decide (last p = Some c)); [by rewrite decide_True|done]|].
        split; [apply dwrites_del; [ssolve|done]|].
        intros q Hq (k' & Hpq & Hk1 & _) _. unfold delete_to_txn, tdel.
        assert (q = p) as ->; [|by rewrite lookup_insert]. symmetry. apply prefix_len_eq; [done|]. apply prefix_length in Hpq. lia.
      + assert (HE : {[k]} ∖ list_to_set keys = ({[k]} : gset bytes)).
        { apply set_eq. intros k'. rewrite elem_of_difference, elem_of_singleton, elem_of_list_to_set. ssolve. }
        unfold del_post. rewrite HE. exists (replicate (length keys) false), n, ch, txn.
        split; [done|]. split; [by rewrite replicate_length|]. rewrite count_true_replicate. split; [lia|].
        split; [by eapply rep_items|]. split; [done|]. split; [done|]. split; [done|].
        split; [|split; [apply dwrites_refl|]].
        { intros c. destruct (decide (last p = Some c)); [|done]. rewrite decide_False by ssolve. auto. }
        intros q _ (k' & _ & Hk1 & Hk2) Hno. by destruct (Hno k').
    - assert (Hin : n_key n = None /\ (12 <= length p -> size X <> 1)%nat /\
        kids f db (shash H f (S (length p))) db p (n_children n) (n_chashes n) X).
      { unfold is_leaf in Elf. destruct Hr as (_ & _ & _ & _ & [(_ & E & _)|[(_ & E & _)|(? & ? & ? & ?)]]); [by rewrite E in Elf..|].
        split_and!; auto. }
      destruct Hin as (Hkn & Hsz & Hk).
      pose (rem := enumerate_from 0 keys). fold rem.
      assert (HKn : list_to_set keys = keys_of rem) by (unfold keys_of, rem; by rewrite enumerate_from_snd).
      assert (Hen : forall i k, (i, k) ∈ rem -> k ∈ keys /\ (i < length keys)%nat).
      { intros i k Hi. split.
        - apply (elem_of_list_fmap_1 snd) in Hi.
          change (snd <$> rem) with (map snd rem) in Hi. unfold rem in Hi. by rewrite enumerate_from_snd in Hi.
        - apply (elem_of_list_fmap_1 fst) in Hi.
          change (fst <$> rem) with (map fst rem) in Hi. unfold rem in Hi. rewrite enumerate_from_fst in Hi.
          apply elem_of_list_In, in_seq in Hi. cbn in Hi. lia. }
      assert (HlK : forall k, k ∈ X \/ k ∈ keys -> (length p < length k)%nat).
      { intros k HkX. eapply inner_len with (X := X ∪ list_to_set keys); try done.
        - intros k'. rewrite elem_of_union, elem_of_list_to_set. intros [?|Hk']; [auto|by apply Hkeys].
        - intros k'. rewrite elem_of_union, elem_of_list_to_set. intros [?|Hk']; [auto|by apply Hkeys].
        - intros Hd. specialize (Hsz Hd). pose proof (subseteq_size X (X ∪ list_to_set keys)) as Hsu.
          feed specialize Hsu; [ssolve|]. assert (size X <> 0)%nat; [|lia]. intros E. by apply size_empty_inv, leibniz_equiv in E.
        - by rewrite elem_of_union, elem_of_list_to_set. }
      destruct (existsb _ keys) eqn:Eex.
      { apply existsb_exists in Eex as (k & Hin & Hle). apply elem_of_list_In in Hin. apply Nat.leb_le in Hle.
        specialize (HlK k). feed specialize HlK; [by right|]. lia. }
      destruct (del_groups_ok rec g f db base p rem rec_ok) with (cs := group_chars order (length p) rem)
        (n := n) (txn0 := txn) (txn := txn) (rs := replicate (length keys) false) (succ := 0) (X := X) (Xd := X)
        as (n' & txn' & rs' & succ & E & Hg & L & C & Z).
      { intros i k Hi. apply Hen in Hi as [Hi _]. pose proof (HlK k (or_intror Hi)). apply Hkeys in Hi as (? & ? & ?). split_and!; [done|done|lia|lia]. }
      { unfold rem. rewrite enumerate_from_fst. apply NoDup_ListNoDup, seq_NoDup. }
      { unfold group_chars. rewrite order_perm. apply NoDup_remove_dups. }
      { intros c. unfold group_chars. rewrite order_perm. apply elem_loop_chars. }
      { destruct Hr as (? & ? & ? & ? & _). destruct Hcoh as [_ Hkc]. unfold dinv. split_and!; try done; [apply dwrites_refl|].
        intros q _ _ (k & _ & Hk1 & Hk2) Hno. by destruct (Hno k). }
      { intros i k Hi _. apply Hen in Hi as [_ Hi]. by apply Hfalse. }
      rewrite E. clear E Eex.
      assert (Hpart : part p rem (group_chars order (length p) rem) = list_to_set keys).
      { rewrite HKn. unfold part. apply set_eq. intros k. rewrite elem_of_filter. split; [tauto|]. intros Hk'. split; [|done].
        unfold group_chars. rewrite order_perm. apply elem_loop_chars. apply elem_keys_of in Hk' as [i Hi]. eauto. }
      rewrite Hpart in *. pose (Y := X ∖ list_to_set keys). fold Y in Hg, Z |- *.
      assert (Hf0 : (0 < f)%nat).
      { apply set_choose_L in HXne as [k Hkx]. pose proof (HlK k (or_introl Hkx)). specialize (HF k (HXU k Hkx)). lia. }
      destruct Hg as (S1 & S2 & Hkey' & Hit' & HYX & _ & _ & _ & HkY & HcY & HW & Hpk & Hgone).
      rewrite count_true_replicate in C. rewrite replicate_length in L.
      assert (HYU : Y ⊆ U) by (by trans X).
      assert (HYp : forall k, k ∈ Y -> p `prefix_of` k) by (intros k Hk'; apply Hpx; by apply HYX).
      destruct (N.ltb_spec 0 succ) as [Hs0|Hs0].
      + cbn [n_items]. destruct (N.eqb_spec (n_items n' - succ) 0) as [E0|E0].
        * assert (HY0 : Y = ∅) by (apply size_N_empty; lia).
          pose (n1 := Node (n_items n' - succ) (n_children n') (n_chashes n') (n_key n')). fold n1.
          assert (Hc0 : n_children n' = [] /\ n_chashes n' = []).
          { split; apply aget_all_None; intros c; specialize (HkY c); rewrite HY0, sub_empty in HkY;
              destruct (aget c (n_children n')); [by destruct HkY|done|by destruct HkY|tauto]. }
          destruct Hc0 as [Hc1 Hc2].
          assert (HR1 : rep (S f) db p n1 ∅).
          { cbn [TrieRep.rep n1 n_items n_children n_chashes n_key]. rewrite size_empty.
            split; [lia|]. split; [ssolve|]. split; [done|]. split; [done|]. left. done. }
          assert (Hn1 : node_hash H n1 = []).
          { unfold node_hash, is_leaf. cbn [n1 n_children n_key]. by rewrite Hc1, Hkey'. }
          destruct (update_hash_empty n1 ch p Hn1 Hs) as [U1 U2].
          unfold del_post. rewrite HY0.
          exists rs', n1, (update_hash H n1 ch p), (delete_to_txn txn' p). rewrite size_empty.
          split; [done|]. split; [done|]. split; [rewrite HY0, size_empty in Z; lia|]. split; [cbn; lia|].
          split; [done|]. split; [done|]. split; [done|].
          split; [intros c; rewrite U2; destruct (decide (last p = Some c)); [by rewrite decide_True|done]|].
          split; [eapply dwrites_trans; [exact HW|by apply dwrites_del|done..]|].
          intros q Hq Hon _. unfold delete_to_txn, tdel. destruct (decide (q = p)) as [->|Hn]; [by rewrite lookup_insert|].
          rewrite lookup_insert_ne by (intros E%pk_inj; congruence). apply Hgone; [done..|]. rewrite HY0. intros k Hk'. ssolve.
        * assert (HYne : Y <> ∅) by (intros E; rewrite E, size_empty in Z; lia).
          pose (n1 := Node (n_items n' - succ) (n_children n') (n_chashes n') (n_key n')). fold n1.
          assert (Hit1 : n_items n1 = N.of_nat (size Y)) by (cbn; lia).
          assert (Hcomp : exists n2 txn2, compact db n1 txn' p (length p) = Ok (n2, txn2) /\
            rep (S f) db p n2 Y /\ kcoh f db (tmerge base txn2) p (n_children n2) /\ dwrites txn txn2 p X /\
            forall q, (length q <= 12)%nat -> txn2 !! pk q = txn' !! pk q).
          { destruct (decide (12 <= length p /\ size Y = 1)%nat) as [[Hd Hs1]|Hnc].
            - destruct (size_1_singleton Y Hs1) as [k EY]. rewrite EY in HkY.
              assert (Hlk : (length p < length k)%nat) by (apply HlK; left; apply HYX; rewrite EY; ssolve).
              destruct (kids_single f db p n' k HkY S1 Hd Hlk) as (c & x & Ech & Hkc & Hkx & Hst).
              assert (En1 : n1 = Node 1 [(c, x)] (n_chashes n') (n_key n')).
              { apply node_ext; [rewrite Hit1, Hs1; done|exact Ech|done|done]. }
              assert (Hload : load_child db n1 p c = Some (loadc db p c x)).
              { rewrite En1. unfold load_child. cbn [n_children]. rewrite aget_head. destruct x; cbn [loadc]; [done|by rewrite pk_child]. }
              rewrite En1 in Hload |- *. unfold compact. cbn [n_children n_items].
              rewrite (proj2 (Nat.leb_le UNCOMPACTED (length p))) by done.
              change (1 =? 1) with true. cbn [andb]. rewrite Hload, Hkx. cbn [n_chashes].
              eexists _, _. split; [done|].
              assert (Eadel : adel c [(c, x)] = []) by (cbn; by rewrite N.eqb_refl). rewrite Eadel. split; [|split; [|split]].
              + rewrite EY. cbn [TrieRep.rep n_items n_children n_chashes n_key]. rewrite size_singleton.
                split; [done|]. split; [rewrite <- EY; done|]. split; [constructor|]. split; [done|]. right; left.
                split; [done|]. split; [done|]. exists k. split; [done|]. split; [done|]. intros c' Hn. apply Hst. congruence.
              + intros c' y Ey. done.
              + eapply dwrites_trans with (p1 := p) (p2 := p) (X1 := X) (X2 := X); [exact HW| |done..].
                intros key. unfold delete_to_txn, tdel.
                destruct (decide (key = pk (make_primary_key p (Some c)))) as [->|Hn].
                * right. exists (p ++ [c]). split.
                  { exists k. split; [by apply prefix_app_r|]. split; [apply HYX; rewrite EY; ssolve|].
                    apply prefix_snoc. split; [apply HYp; rewrite EY; ssolve|done]. }
                  right. split; [done|]. rewrite app_length. cbn. lia.
                * left. by rewrite lookup_insert_ne.
              + intros q Hq. unfold delete_to_txn, tdel. rewrite lookup_insert_ne; [done|]. intros E%pk_inj. subst q.
                unfold make_primary_key in Hq. cbn in Hq. rewrite app_length in Hq. cbn in Hq. lia.
            - assert (Ec : compact db n1 txn' p (length p) = Ok (n1, txn')).
              { unfold compact. destruct (n_children n1) as [|[c x] [|]]; try done.
                destruct (N.eqb_spec (n_items n1) 1) as [E1|E1]; cbn [andb]; [|done].
                destruct (Nat.leb_spec UNCOMPACTED (length p)) as [E2|E2]; [|done].
                exfalso. apply Hnc. unfold UNCOMPACTED in E2. split; [done|lia]. }
              exists n1, txn'. split; [done|]. split; [|split; [done|split; done]].
              cbn [TrieRep.rep]. split; [done|]. split; [done|]. split; [done|]. split; [done|]. right; right.
              split; [done|]. split; [done|]. split; [|done]. intros Hd E1. by apply Hnc. }
          destruct Hcomp as (n2 & txn2 & Ec & HR2 & HC2 & HW2 & Hsh). rewrite Ec.
          destruct (update_hash_spec H U H_ne U_len U_pf U_nib f db p n2 Y ch HR2 HYU HYne Hs) as [U1 U2].
          exists rs', n2, (update_hash H n2 ch p), (put_to_txn n2 txn2 p).
          split; [done|]. split; [done|]. split; [lia|]. split; [by eapply rep_items|]. split; [done|].
          split; [|split; [done|split; [|split]]].
          -- intros _. split.
             ++ unfold put_to_txn. rewrite tmerge_put, tget_put. done.
             ++ intros c x Ex. specialize (HC2 c x Ex).
                assert (Hfr : forall q, p ++ [c] `prefix_of` q ->
                  tmerge base (put_to_txn n2 txn2 p) !! pk q = tmerge base txn2 !! pk q).
                { intros q Hq. apply tmerge_lookup_eq. unfold put_to_txn, tput. rewrite lookup_insert_ne; [done|].
                  intros Eq%pk_inj. subst q. apply prefix_length in Hq. rewrite app_length in Hq. cbn in Hq. lia. }
                destruct x as [m|].
                ** destruct HR2 as (_ & _ & _ & _ & [(_ & E' & _)|[(_ & E' & _)|(_ & _ & _ & HkY2)]]); [by rewrite E' in Ex..|].
                   specialize (HkY2 c). rewrite Ex in HkY2. destruct HkY2 as (Hne' & _ & HRx).
                   eapply coh_frame; [exact HRx| |done|done|].
                   { intros k Hk'. apply HYU. by apply (sub_subseteq _ _ _ _ Hk'). }
                   intros q Hq _. by apply Hfr.
                ** intros q Hq HUq. rewrite Hfr by done. auto.
          -- intros c. rewrite U2. destruct (decide (last p = Some c)); [by rewrite decide_False|done].
          -- eapply dwrites_trans; [exact HW2|by apply (dwrites_put n2 txn2 p X)|done..].
          -- intros q Hq Hon Hno. unfold put_to_txn, tput. destruct (decide (q = p)) as [->|Hn].
             { exfalso. apply set_choose_L in HYne as [k Hk']. by apply (Hno k); [|apply HYp]. }
             rewrite lookup_insert_ne by (intros E%pk_inj; congruence). rewrite Hsh by done. by apply Hgone.
      + assert (succ = 0) as -> by lia.
        assert (HYX' : Y = X) by (apply subseteq_size_eq; [done|lia]).
        unfold del_post. rewrite HYX'. rewrite HYX' in HkY.
        exists rs', n', ch, txn'. split; [done|]. split; [done|]. split; [lia|]. split; [done|].
        split; [intros _; cbn [TrieRep.rep]; split_and!; try done; right; right; done|].
        split.
        { intros _. split; [|exact HcY]. unfold tget. rewrite (tmerge_lookup_eq _ txn txn') by done.
          destruct Hcoh as [Hself _]. unfold tget in Hself. rewrite Hself. f_equal.
          destruct Hr as (Hit1 & _ & S1' & S2' & _).
          destruct (kids_ser _ _ _ _ _ _ _ _ _ _ _ Hk HkY) as [? ?]; [done..|].
          apply deser_ser_eq; congruence || done. }
        split; [done|]. split; [|split; [done|]].
        { intros c. destruct (decide (last p = Some c)); [|done]. rewrite decide_False by done. auto. }
        intros q _ (k & _ & Hk1 & Hk2) Hno. by destruct (Hno k).
  Qed.
End Del.
