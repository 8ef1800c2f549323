(** Lemmas about the listing of keys below a prefix. *)
From stdpp Require Export sorting.
From Verif Require Export TrieRun TrieScan.
From Coq Require Import ZifyN ZifyNat ZifyBool.
#[local] Open Scope N_scope.
Implicit Types (p q k : bytes) (c : N) (X Y : gset bytes) (n m : node).

(** ** Sorted listings *)
Definition blt_rel (a b : bytes) : Prop := blt a b = true.
(** The keys of a set in ascending order of their bytes. *)
Definition ble_rel (a b : bytes) : Prop := ble a b = true.
#[global] Instance ble_rel_dec : RelDecision ble_rel := fun a b => decide (ble a b = true).
#[global] Instance ble_rel_trans : Transitive ble_rel.
Proof. intros a b c. apply ble_trans. Qed.
#[global] Instance ble_rel_anti : AntiSymm (=) ble_rel.
Proof. intros a b. apply ble_antisym. Qed.
#[global] Instance ble_rel_total : Total ble_rel.
Proof.
  intros a b. unfold ble_rel. destruct (blt_total a b) as [H|[->|H]]; [left|left; apply ble_refl|right];
    apply ble_eq_or_lt; by right.
Qed.
Definition sorted_keys X : list bytes := merge_sort ble_rel (elements X).

Lemma sorted_keys_perm X : sorted_keys X ≡ₚ elements X.
Proof. apply merge_sort_Permutation. Qed.
Lemma elem_sorted_keys X k : k ∈ sorted_keys X <-> k ∈ X.
Proof. rewrite sorted_keys_perm. apply elem_of_elements. Qed.
Lemma sorted_keys_NoDup X : NoDup (sorted_keys X).
Proof. rewrite sorted_keys_perm. apply NoDup_elements. Qed.
Lemma sorted_keys_length X : length (sorted_keys X) = size X.
Proof. rewrite sorted_keys_perm. done. Qed.
Lemma sorted_keys_sorted X : StronglySorted ble_rel (sorted_keys X).
Proof. apply StronglySorted_merge_sort; apply _. Qed.
Lemma sorted_keys_unique X (l : list bytes) : StronglySorted ble_rel l -> NoDup l -> (forall k, k ∈ l <-> k ∈ X) ->
  sorted_keys X = l.
Proof.
  intros Hs Hn He. eapply StronglySorted_unique; [apply _|apply sorted_keys_sorted|done|].
  rewrite sorted_keys_perm. apply NoDup_Permutation; [apply NoDup_elements|done|].
  intros k. rewrite He. apply elem_of_elements.
Qed.
Lemma sorted_keys_singleton k : sorted_keys {[k]} = [k].
Proof.
  apply sorted_keys_unique; [repeat constructor|apply NoDup_singleton|]. intros x.
  rewrite elem_of_list_singleton, elem_of_singleton. done.
Qed.
Lemma sorted_keys_empty : sorted_keys ∅ = [].
Proof. apply sorted_keys_unique; [constructor|constructor|]. set_solver. Qed.

Lemma lex_children p c c' k k' : p ++ [c] `prefix_of` k -> p ++ [c'] `prefix_of` k' -> c < c' -> blt k k' = true.
Proof.
  intros [r ->] [r' ->] Hc. apply blt_lex. rewrite <- !app_assoc, lex_app_l. cbn [app lex].
  apply N.compare_lt_iff in Hc. by rewrite Hc.
Qed.
Lemma blt_neq a b : blt a b = true -> a <> b.
Proof. intros H ->. by rewrite blt_irrefl in H. Qed.

Lemma SS_app (l1 l2 : list bytes) : StronglySorted ble_rel l1 -> StronglySorted ble_rel l2 ->
  (forall a b, a ∈ l1 -> b ∈ l2 -> ble_rel a b) -> StronglySorted ble_rel (l1 ++ l2).
Proof.
  induction 1 as [|a l1 Hs IH Ha]; intros H2 Hab; [done|]. cbn. constructor.
  - apply IH; [done|]. intros x y Hx. apply Hab. by right.
  - apply Forall_app. split; [done|]. apply Forall_forall. intros y Hy. apply Hab; [left|done].
Qed.

(** A set split by the next nibble is listed child by child. *)
Lemma sorted_keys_split p (cs : list N) : forall X, (forall k, k ∈ X -> p `prefix_of` k) ->
  StronglySorted N.lt cs -> (forall k, k ∈ X -> exists c, c ∈ cs /\ k !! length p = Some c) ->
  sorted_keys X = concat (map (fun c => sorted_keys (sub (length p) c X)) cs).
Proof.
  intros X Hp Hs Hc. apply sorted_keys_unique.
  - clear Hc. induction Hs as [|c cs Hs IH Hlt]; [constructor|]. cbn [map concat]. apply SS_app; [apply sorted_keys_sorted|done|].
    intros a b Ha Hb. rewrite elem_sorted_keys, elem_sub in Ha. destruct Ha as [Ha Ea].
    apply elem_of_list_In, in_concat in Hb as (l & Hl & Hb). apply in_map_iff in Hl as (c' & <- & Hc').
    apply elem_of_list_In in Hb. rewrite elem_sorted_keys, elem_sub in Hb. destruct Hb as [Hb Eb].
    apply ble_eq_or_lt. right. apply (lex_children p c c'); [apply prefix_snoc; auto|apply prefix_snoc; auto|].
    rewrite Forall_forall in Hlt. apply Hlt. by apply elem_of_list_In.
  - clear Hc. induction Hs as [|c cs Hs IH Hlt]; [constructor|]. cbn [map concat]. apply NoDup_app. split; [apply sorted_keys_NoDup|].
    split; [|done]. intros k Ha Hb. rewrite elem_sorted_keys, elem_sub in Ha. destruct Ha as [Ha Ea].
    apply elem_of_list_In, in_concat in Hb as (l & Hl & Hb). apply in_map_iff in Hl as (c' & <- & Hc').
    apply elem_of_list_In in Hb. rewrite elem_sorted_keys, elem_sub in Hb. destruct Hb as [_ Eb].
    rewrite Forall_forall in Hlt. assert (c < c') by (apply Hlt; by apply elem_of_list_In). assert (c = c') by congruence. lia.
  - intros k. rewrite elem_of_list_In, in_concat. split.
    + intros (l & Hl & Hk). apply in_map_iff in Hl as (c & <- & _). apply elem_of_list_In in Hk.
      rewrite elem_sorted_keys, elem_sub in Hk. tauto.
    + intros Hk. destruct (Hc k Hk) as (c & Hin & Ec). eexists. split.
      * apply in_map_iff. exists c. split; [done|]. by apply elem_of_list_In.
      * apply elem_of_list_In. rewrite elem_sorted_keys, elem_sub. done.
Qed.

(** Nibble order is byte order. *)
Lemma expand_lex a : forall b, bytes_ok a = true -> bytes_ok b = true -> lex (expand_nibbles a) (expand_nibbles b) = lex a b.
Proof.
  induction a as [|x a IH]; intros [|y b] Ha Hb; try done. cbn in Ha, Hb.
  apply andb_prop in Ha as [Hx%N.ltb_lt Ha], Hb as [Hy%N.ltb_lt Hb].
  cbn [expand_nibbles lex]. rewrite IH by done.
  rewrite !N.shiftr_div_pow2. change (2 ^ 4) with 16.
  change 15 with (N.ones 4). rewrite !N.land_ones. change (2 ^ 4) with 16.
  pose proof (N.div_mod x 16 ltac:(done)) as Ex. pose proof (N.div_mod y 16 ltac:(done)) as Ey.
  pose proof (N.mod_lt x 16 ltac:(done)). pose proof (N.mod_lt y 16 ltac:(done)).
  destruct (N.compare_spec (x / 16) (y / 16)) as [E|E|E].
  - destruct (N.compare_spec (x mod 16) (y mod 16)) as [E'|E'|E'];
      destruct (N.compare_spec x y) as [F|F|F]; try done; exfalso; lia.
  - destruct (N.compare_spec x y) as [F|F|F]; try done; exfalso; lia.
  - destruct (N.compare_spec x y) as [F|F|F]; try done; exfalso; lia.
Qed.
Lemma sorted_keys_nib X : (forall k, k ∈ X -> bytes_ok k = true) ->
  sorted_keys (nib X) = map expand_nibbles (sorted_keys X).
Proof.
  intros Hok. apply sorted_keys_unique.
  - pose proof (sorted_keys_sorted X) as Hs.
    assert (Hall : forall k, k ∈ sorted_keys X -> bytes_ok k = true) by (intros k; rewrite elem_sorted_keys; auto).
    induction Hs as [|a l Hs IH Ha]; [constructor|]. cbn [map]. constructor.
    + apply IH. intros k Hk. apply Hall. by right.
    + rewrite Forall_forall in Ha |- *. intros y Hy. apply elem_of_list_fmap in Hy as (b & -> & Hb).
      pose proof (Ha b Hb) as Hab. unfold ble_rel, ble in *. rewrite expand_lex; [done|apply Hall; left|apply Hall; by right].
  - assert (Hall : forall k, k ∈ sorted_keys X -> bytes_ok k = true) by (intros k; rewrite elem_sorted_keys; auto).
    pose proof (sorted_keys_NoDup X) as Hn. induction Hn as [|a l Ha Hn IH]; [constructor|]. cbn [map]. constructor.
    + intros Hin. apply elem_of_list_fmap in Hin as (b & E & Hb). apply expand_inj in E; [by subst| |];
        apply Hall; [left|by right].
    + apply IH. intros k Hk. apply Hall. by right.
  - intros k. rewrite elem_nib. rewrite elem_of_list_fmap. split; intros (b & Hb & Hk); exists b; rewrite elem_sorted_keys in *; auto.
Qed.
Lemma combine_all_expand (l : list bytes) : (forall k, k ∈ l -> bytes_ok k = true) -> combine_all (map expand_nibbles l) = Some l.
Proof.
  induction l as [|k l IH]; intros Hok; [done|]. cbn [map combine_all].
  rewrite combine_expand by (apply Hok; left). rewrite IH; [done|]. intros x Hx. apply Hok. by right.
Qed.

(** ** The represented tree *)
Lemma short_NoDup (l : list N) : NoDup l -> (forall c, c ∈ l -> c < 16) -> (length l <= 16)%nat.
Proof.
  intros Hn Hc. change 16%nat with (length (nrange 16 0)). apply submseteq_length, NoDup_submseteq; [done|].
  intros c Hin. apply nrange_elem. specialize (Hc c Hin). lia.
Qed.

Section ScanRep.
  Variable H : bytes -> bytes.
  Variable U : gset bytes.
  Hypothesis H_ne : forall x, H x <> [].
  Hypothesis U_len : forall k, k ∈ U -> (12 <= length k)%nat.
  Hypothesis U_pf : forall k k', k ∈ U -> k' ∈ U -> k `prefix_of` k' -> k = k'.
  Hypothesis U_nib : forall k, k ∈ U -> forall (i : nat) c, k !! i = Some c -> c < 16.
  Variable db : kv dbnode.
  Notation rep := (rep H).
  Notation node_at := (node_at db).

  Lemma load_child_eq n p c x : aget c (n_children n) = Some x -> load_child db n p c = Some (loadc db p c x).
  Proof. intros E. unfold load_child. rewrite E. destruct x; cbn [loadc]; [done|by rewrite pk_child]. Qed.
  Lemma load_child_None n p c : aget c (n_children n) = None -> load_child db n p c = None.
  Proof. intros E. unfold load_child. by rewrite E. Qed.
  Lemma node_at_snoc n p r c : node_at n p (r ++ [c]) =
    match node_at n p r with Some m => load_child db m (p ++ r) c | None => None end.
  Proof.
    revert n p. induction r as [|c' r IH]; intros n p; cbn [app TrieScan.node_at].
    - rewrite app_nil_r. by destruct (load_child db n p c).
    - destruct (load_child db n p c') as [m|]; [|done]. rewrite IH. by rewrite <- app_assoc.
  Qed.

  (** The three shapes of a represented node. *)
  Lemma rep_empty_leaf f p n : rep f db p n ∅ -> is_leaf n = true /\ n_key n = None.
  Proof.
    destruct f as [|f]; [done|]. intros (_ & _ & _ & _ & [(_ & Ec & _ & Ek)|[(_ & _ & k & E & _)|(_ & HX & _)]]); [|exfalso|done].
    - unfold is_leaf. by rewrite Ec.
    - assert (k ∈ (∅ : gset bytes)) as Hk by (rewrite E; set_solver). set_solver.
  Qed.
  Lemma rep_shape f p n X : rep f db p n X -> X ⊆ U -> X <> ∅ ->
    (exists k, X = {[k]} /\ is_leaf n = true /\ n_key n = Some k /\ 12 <= length p)%nat \/
    (is_leaf n = false /\ n_key n = None /\ exists f', f = S f' /\
      (forall c, c ∈ akeys (n_children n) -> exists x, aget c (n_children n) = Some x /\ sub (length p) c X <> ∅ /\
         rep f' db (p ++ [c]) (loadc db p c x) (sub (length p) c X)) /\
      (forall c, c ∉ akeys (n_children n) -> sub (length p) c X = ∅) /\
      asorted (n_children n) /\ (length (akeys (n_children n)) <= 16)%nat /\ (12 <= length p -> size X <> 1)%nat).
  Proof.
    intros Hr HU Hne. destruct f as [|f]; [done|].
    pose proof (inner_children H U H_ne U_len U_pf U_nib f db p n X Hr HU) as Hch.
    destruct Hr as (_ & HpX & Hs1 & _ & [(-> & _)|[(Hd & Ec & k & -> & Ek & _)|(Ek & _ & Hsz & Hk)]]); [done| |].
    - left. exists k. unfold is_leaf. rewrite Ec. done.
    - right. split; [unfold is_leaf; destruct (n_children n); [by destruct (Hch Ek Hne)|done]|]. split; [done|].
      exists f. split; [done|].
      assert (Hin : forall c, c ∈ akeys (n_children n) -> exists x, aget c (n_children n) = Some x /\ sub (length p) c X <> ∅ /\
         rep f db (p ++ [c]) (loadc db p c x) (sub (length p) c X)).
      { intros c Hc. apply elem_of_akeys in Hc as [x Ex]. specialize (Hk c). rewrite Ex in Hk. exists x. tauto. }
      split; [done|]. split; [|split; [done|split; [|done]]].
      + intros c Hc. apply aget_None_keys in Hc. specialize (Hk c). rewrite Hc in Hk. tauto.
      + apply short_NoDup; [by apply asorted_NoDup|]. intros c Hc. destruct (Hin c Hc) as (x & _ & Hsne & _).
        apply set_choose_L in Hsne as [k Hk']. apply elem_sub in Hk' as [Hk1 Hk2]. exact (U_nib k (HU k Hk1) _ _ Hk2).
  Qed.

  Lemma sub_under p c X : (forall k, k ∈ X -> p `prefix_of` k) -> sub (length p) c X = under (p ++ [c]) X.
  Proof.
    intros HpX. apply set_eq. intros k. rewrite elem_sub, elem_under. split; intros [H1 H2]; (split; [done|]).
    - apply prefix_snoc. auto.
    - by apply prefix_snoc in H2 as [_ ?].
  Qed.

  Lemma under_mono q q' X : q `prefix_of` q' -> under q' X ⊆ under q X.
  Proof. intros Hq k Hk. apply elem_under in Hk as [? ?]. apply elem_under. split; [done|]. by trans q'. Qed.

  (** Walking down: the node found represents the keys below the path. Nothing found: there is no such key, or the
      only one sits in a compacted leaf higher up. *)
  Lemma node_at_ok r : forall f p n X, rep f db p n X -> X ⊆ U ->
    match node_at n p r with
    | Some m => exists f', rep f' db (p ++ r) m (under (p ++ r) X) /\ (under (p ++ r) X <> ∅ \/ r = [])
    | None => under (p ++ r) X = ∅ \/ (12 < length (p ++ r) /\ size (under (p ++ r) X) = 1)%nat
    end.
  Proof.
    induction r as [|c r IH]; intros f p n X Hr HU.
    { cbn [TrieScan.node_at]. rewrite app_nil_r. exists f. rewrite under_all; [by split; [|right]|]. intros k. by eapply rep_prefix. }
    assert (HpX : forall k, k ∈ X -> p `prefix_of` k) by (intros k; by eapply rep_prefix).
    cbn [TrieScan.node_at]. destruct (decide (X = ∅)) as [->|Hne].
    { apply rep_empty_leaf in Hr as [Hl _]. unfold is_leaf in Hl. destruct (n_children n) eqn:E; [|done].
      rewrite load_child_None by (by rewrite E). left. apply under_empty_iff. ssolve. }
    destruct (rep_shape f p n X Hr HU Hne) as [(k & -> & Hl & _ & Hd)|(_ & _ & f' & -> & Hin & Hout & _)].
    - unfold is_leaf in Hl. destruct (n_children n) eqn:E; [|done]. rewrite load_child_None by (by rewrite E).
      destruct (decide (under (p ++ c :: r) {[k]} = ∅)) as [He|He]; [by left|]. right. split; [rewrite app_length; cbn; lia|].
      apply set_choose_L in He as [k' Hk']. assert (under (p ++ c :: r) {[k]} = {[k]}) as ->; [|apply size_singleton].
      apply elem_under in Hk' as [Hk' Hp']. apply elem_of_singleton in Hk' as ->. apply set_eq. intros x.
      rewrite elem_under, elem_of_singleton. naive_solver.
    - assert (Hpr : p ++ [c] `prefix_of` p ++ c :: r) by (exists r; by rewrite <- app_assoc).
      destruct (decide (c ∈ akeys (n_children n))) as [Hc|Hc].
      + destruct (Hin c Hc) as (x & Ex & Hsne & HR). rewrite (load_child_eq n p c x Ex).
        specialize (IH f' (p ++ [c]) (loadc db p c x) (sub (length p) c X) HR).
        replace (p ++ c :: r) with ((p ++ [c]) ++ r) in * by (by rewrite <- app_assoc).
        rewrite (under_sub p c) in IH by done.
        assert (HsU : sub (length p) c X ⊆ U) by (intros k Hk; apply HU; by apply (sub_subseteq _ _ _ _ Hk)).
        specialize (IH HsU). destruct (node_at _ _ _) as [m|]; [|done].
        destruct IH as (f'' & IH & [Hu| ->]); exists f''; (split; [done|]); left; [done|].
        rewrite app_nil_r. by rewrite <- sub_under.
      + rewrite load_child_None by (by apply aget_None_keys). left. apply under_empty_iff. intros k Hk Hpk.
        assert (k ∈ sub (length p) c X) as Hs.
        { rewrite sub_under by done. apply elem_under. split; [done|]. by trans (p ++ c :: r). }
        rewrite Hout in Hs by done. ssolve.
  Qed.

  Lemma split_children p n X : (forall k, k ∈ X -> p `prefix_of` k) -> X ⊆ U -> (12 <= length p -> size X <> 1)%nat -> X <> ∅ ->
    (forall c, c ∉ akeys (n_children n) -> sub (length p) c X = ∅) -> asorted (n_children n) ->
    sorted_keys X = concat (map (fun c => sorted_keys (sub (length p) c X)) (akeys (n_children n))).
  Proof.
    intros HpX HU Hsz Hne Hout Hs. apply sorted_keys_split; [done|exact Hs|]. intros k Hk.
    assert (Hl : (length p < length k)%nat) by (eapply inner_len with (X := X); done).
    destruct (lookup_lt_is_Some_2 k (length p) Hl) as [c Hc]. exists c. split; [|done].
    destruct (decide (c ∈ akeys (n_children n))) as [|Hn]; [done|].
    assert (k ∈ sub (length p) c X) as Hin by by apply elem_sub. rewrite Hout in Hin by done. ssolve.
  Qed.

  (** ** get_all_values: the sorted keys, cut off once more than 1024 have been found. *)
  Lemma scan_children_ok (rec : node -> bytes -> res scan_err (list bytes)) n p (L : N -> list bytes) cs :
    (forall c, c ∈ cs -> exists m vs rest, load_child db n p c = Some m /\ rec m (p ++ [c]) = Ok vs /\ L c = vs ++ rest /\
       (rest = [] \/ MAX_VALUES < length vs)%nat) ->
    forall acc, exists vs rest, scan_children db rec n p cs acc = Ok (acc ++ vs) /\ concat (map L cs) = vs ++ rest /\
       (rest = [] \/ MAX_VALUES < length (acc ++ vs))%nat.
  Proof.
    induction cs as [|c cs IH]; intros Hc acc; cbn [scan_children map concat].
    { exists [], []. rewrite app_nil_r. by split; [|split; [|left]]. }
    destruct (Hc c ltac:(left)) as (m & vs & rest & -> & -> & EL & Hrest).
    destruct (Nat.ltb_spec MAX_VALUES (length (acc ++ vs))) as [Hlt|Hge].
    - exists vs, (rest ++ concat (map L cs)). split; [done|]. rewrite EL, app_assoc. split; [done|by right].
    - destruct Hrest as [->|Hgt].
      2:{ exfalso. rewrite app_length in Hge. eapply Nat.lt_irrefl, Nat.lt_le_trans; [exact Hgt|]. etrans; [|exact Hge]. apply Nat.le_add_l. }
      rewrite app_nil_r in EL.
      destruct (IH ltac:(intros c' Hc'; apply Hc; by right) (acc ++ vs)) as (vs' & rest & E & EC & Hr).
      exists (vs ++ vs'), rest. rewrite !app_assoc. split; [done|]. rewrite EL, EC, app_assoc. done.
  Qed.

  Lemma all_values_ok g : forall f p n X, rep f db p n X -> X ⊆ U -> X <> ∅ -> (forall k, k ∈ X -> length k < length p + g)%nat ->
    exists vs rest, all_values db g n p = Ok vs /\ sorted_keys X = vs ++ rest /\ (rest = [] \/ MAX_VALUES < length vs)%nat.
  Proof.
    induction g as [|g IH]; intros f p n X Hr HU Hne Hl.
    { exfalso. apply set_choose_L in Hne as [k Hk]. specialize (Hl k Hk). pose proof (rep_prefix _ _ _ _ _ _ _ Hr Hk) as Hp.
      apply prefix_length in Hp. lia. }
    assert (HpX : forall k, k ∈ X -> p `prefix_of` k) by (intros k; by eapply rep_prefix).
    cbn [all_values]. destruct (rep_shape f p n X Hr HU Hne) as [(k & -> & -> & -> & _)|(-> & _ & f' & -> & Hin & Hout & Hs & _ & Hsz)].
    - exists [k], []. cbn [default]. rewrite sorted_keys_singleton. split; [done|]. split; [done|by left].
    - destruct (scan_children_ok (all_values db g) n p (fun c => sorted_keys (sub (length p) c X)) (akeys (n_children n))) with (acc := @nil bytes) as (vs & rest & E & EC & Hr').
      + intros c Hc. destruct (Hin c Hc) as (x & Ex & Hsne & HR).
        destruct (IH f' (p ++ [c]) (loadc db p c x) (sub (length p) c X) HR) as (vs & rest & E1 & E2 & E3); [| done | |].
        * intros k Hk. apply HU. by apply (sub_subseteq _ _ _ _ Hk).
        * intros k Hk. apply elem_sub in Hk as [Hk _]. specialize (Hl k Hk). rewrite app_length. cbn. lia.
        * exists (loadc db p c x), vs, rest. rewrite (load_child_eq n p c x Ex). done.
      + exists vs, rest. split; [done|]. split; [|done]. by rewrite (split_children p n X).
  Qed.

  (** ** Paging *)
  Variable root : node.
  Variable q : bytes.
  Hypothesis U_comb : forall k, k ∈ U -> k <> [] /\ is_Some (combine_nibbles k).
  Hypothesis U_short : forall k, k ∈ U -> N.of_nat (length k) < 2 ^ 31.
  Definition comb k : bytes := default [] (combine_nibbles k).

  (** States whose token can be encoded and is accepted again. *)
  Definition tok_ok (st : pstate) : Prop :=
    length (ps_rel st) = pred (length (ps_stack st)) /\ segs_ok (token_of st).

  Inductive steps : nat -> pstate -> list bytes -> pstate -> Prop :=
  | steps_O st : tok_ok st -> steps 0 st [] st
  | steps_S i st o st' ks st'' : tok_ok st -> page_step db root q st = PNext o st' -> steps i st' ks st'' ->
      steps (S i) st (match o with Some b => [b] | None => [] end ++ ks) st''.

  Lemma steps_trans i st ks st' : steps i st ks st' -> forall j ks' st'', steps j st' ks' st'' -> steps (i + j) st (ks ++ ks') st''.
  Proof.
    induction 1 as [st Ht|i st o st' ks st'' Ht Hs Hst IH]; intros j ks' st3 H3; [done|].
    cbn [Nat.add]. rewrite <- app_assoc. eapply steps_S; [done|done|]. by apply IH.
  Qed.
  Lemma steps_tok i st ks st' : steps i st ks st' -> tok_ok st.
  Proof. by destruct 1. Qed.

  Definition levels_ok (l : list bytes) : Prop := Forall (fun s : bytes => N.of_nat (length s) < 2 ^ 32) l.
  Lemma tok_ok_intro rel level stack : N.of_nat (length rel) + 2 < 2 ^ 32 -> length stack = length rel -> levels_ok (level :: stack) ->
    tok_ok (mk_pstate rel (level :: stack)).
  Proof.
    intros Hr Hl Hs. unfold tok_ok, segs_ok, token_of. cbn [ps_rel ps_stack length pred]. split; [done|].
    rewrite rev_length. cbn [length]. rewrite Hl. split; [lia|]. constructor; [lia|].
    apply Forall_forall. intros s Hin. apply elem_of_list_In, in_rev, elem_of_list_In in Hin.
    unfold levels_ok in Hs. rewrite Forall_forall in Hs. by apply Hs.
  Qed.

  Lemma prefix_short k p : k ∈ U -> q ++ p `prefix_of` k -> N.of_nat (length p) + 2 < 2 ^ 32.
  Proof.
    intros Hk Hp. apply prefix_length in Hp. rewrite app_length in Hp. apply U_short in Hk.
    change (2 ^ 31) with 2147483648 in Hk. change (2 ^ 32) with 4294967296. lia.
  Qed.

  (** The children [cs] of the node at [q ++ rel] are visited in order. *)
  Lemma children_steps (L : N -> list bytes) rel stack cs : levels_ok stack -> length stack = length rel ->
    N.of_nat (length rel) + 2 < 2 ^ 32 -> N.of_nat (length cs) < 2 ^ 32 ->
    (forall c cs', c ∈ cs -> N.of_nat (length cs') + 1 < 2 ^ 32 -> exists i, steps i (mk_pstate rel (rev (c :: cs') :: stack)) (L c) (mk_pstate rel (rev cs' :: stack))) ->
    exists i, steps i (mk_pstate rel (rev cs :: stack)) (concat (map L cs)) (mk_pstate rel ([] :: stack)).
  Proof.
    intros Hs Hl Hr. induction cs as [|c cs IH]; intros Hcs Hst.
    { exists 0%nat. cbn. constructor. apply tok_ok_intro; [done|done|]. by constructor. }
    cbn [length] in Hcs. destruct (Hst c cs ltac:(left) ltac:(lia)) as [i Hi].
    destruct IH as [j Hj]; [lia|intros c' cs' Hc'; apply Hst; by right|].
    exists (i + j)%nat. cbn [map concat]. by eapply steps_trans.
  Qed.

  Lemma subtree_steps f : forall rel stack c cs n X, rep f db (q ++ rel ++ [c]) n X -> X ⊆ U -> X <> ∅ ->
    node_at root [] (q ++ rel ++ [c]) = Some n ->
    levels_ok stack -> length stack = length rel -> N.of_nat (length cs) + 1 < 2 ^ 32 ->
    exists i, steps i (mk_pstate rel (rev (c :: cs) :: stack)) (map comb (sorted_keys X)) (mk_pstate rel (rev cs :: stack)).
  Proof.
    induction f as [|f IH]; intros rel stack c cs n X Hr HU Hne Hn Hs Hl Hcs; [done|].
    set (pi := q ++ rel ++ [c]) in *.
    assert (HpX : forall k, k ∈ X -> pi `prefix_of` k) by (intros k; by eapply rep_prefix).
    assert (Hrel : N.of_nat (length (rel ++ [c])) + 2 < 2 ^ 32).
    { apply set_choose_L in Hne as [k Hk]. eapply prefix_short; [by apply HU|]. by apply HpX. }
    assert (Hrel' : N.of_nat (length rel) + 2 < 2 ^ 32) by (rewrite app_length in Hrel; cbn in Hrel; lia).
    assert (Hlc : N.of_nat (length (rev (c :: cs))) < 2 ^ 32) by (rewrite rev_length; cbn [length]; lia).
    assert (Hlc' : N.of_nat (length (rev cs)) < 2 ^ 32) by (rewrite rev_length; lia).
    assert (Ht0 : tok_ok (mk_pstate rel (rev (c :: cs) :: stack))) by (apply tok_ok_intro; [done|done|by constructor]).
    assert (Ht1 : tok_ok (mk_pstate rel (rev cs :: stack))) by (apply tok_ok_intro; [done|done|by constructor]).
    destruct (rep_shape (S f) pi n X Hr HU Hne) as [(k & -> & El & Ek & _)|(El & Ek & f' & [= <-] & Hin & Hout & Hsrt & H16 & Hsz)].
    - exists 1%nat. rewrite sorted_keys_singleton. cbn [map].
      destruct (U_comb k ltac:(apply HU; ssolve)) as [Hk [b Hb]].
      unfold comb. rewrite Hb. cbn [default]. change [id b] with ([b] ++ []).
      apply (steps_S 0 _ (Some b) (mk_pstate rel (rev cs :: stack))); [done| |by constructor].
      unfold page_step. cbn [ps_stack ps_rel]. rewrite rev_involutive. fold pi. rewrite Hn, El, Ek. destruct k; [done|]. by rewrite Hb.
    - set (rel' := rel ++ [c]) in *. set (stack' := rev cs :: stack).
      assert (Hs' : levels_ok stack') by by constructor.
      assert (Hl' : length stack' = length rel') by (unfold stack', rel'; rewrite app_length; cbn; lia).
      assert (Hpush : page_step db root q (mk_pstate rel (rev (c :: cs) :: stack)) = PNext None (mk_pstate rel' (rev (akeys (n_children n)) :: stack'))).
      { unfold page_step. cbn [ps_stack ps_rel]. rewrite rev_involutive. change (q ++ rel ++ [c]) with pi. by rewrite Hn, El. }
      destruct (children_steps (fun c' => map comb (sorted_keys (sub (length pi) c' X))) rel' stack' (akeys (n_children n)) Hs' Hl' Hrel) as [i Hi].
      { eapply N.le_lt_trans with 16; [clear -H16; lia|done]. }
      { intros c' cs' Hc' Hlen. destruct (Hin c' Hc') as (x & Ex & Hsne & HR).
        assert (Epi : q ++ rel' ++ [c'] = pi ++ [c']) by (unfold pi, rel'; by rewrite !app_assoc).
        apply (IH rel' stack' c' cs' (loadc db pi c' x) (sub (length pi) c' X)); [by rewrite Epi| |done| |done|done|done].
        - intros k Hk. apply HU. by apply (sub_subseteq _ _ _ _ Hk).
        - rewrite Epi, node_at_snoc, Hn. cbn [app]. by apply load_child_eq. }
      exists (S (i + 1)). change (map comb (sorted_keys X)) with ([] ++ map comb (sorted_keys X)).
      apply (steps_S _ _ None (mk_pstate rel' (rev (akeys (n_children n)) :: stack'))); [done|done|].
      rewrite (split_children pi n X) by done. rewrite concat_map, map_map.
      rewrite <- (app_nil_r (concat _)). eapply steps_trans; [exact Hi|].
      refine (steps_S 0 _ None (mk_pstate rel stack') [] _ _ _ _).
      + apply tok_ok_intro; [done|done|]. by constructor.
      + unfold page_step. cbn [ps_stack ps_rel rev]. unfold rel'. by rewrite removelast_last.
      + by constructor.
  Qed.

  (** A whole subtree that is not a leaf. *)
  Lemma whole_steps f n X : rep f db q n X -> X ⊆ U -> X <> ∅ -> is_leaf n = false -> node_at root [] q = Some n ->
    exists i st, steps i (mk_pstate [] [rev (akeys (n_children n))]) (map comb (sorted_keys X)) st /\ page_step db root q st = PDone.
  Proof.
    intros Hr HU Hne Hl Hn.
    assert (HpX : forall k, k ∈ X -> q `prefix_of` k) by (intros k; by eapply rep_prefix).
    destruct (rep_shape f q n X Hr HU Hne) as [(k & _ & El & _)|(_ & Ek & f' & -> & Hin & Hout & Hsrt & H16 & Hsz)]; [congruence|].
    destruct (children_steps (fun c' => map comb (sorted_keys (sub (length q) c' X))) [] [] (akeys (n_children n))) as [i Hi];
      [constructor|done|done| | |].
    - eapply N.le_lt_trans with 16; [clear -H16; lia|done].
    - intros c cs Hc Hlen. destruct (Hin c Hc) as (x & Ex & Hsne & HR).
      apply (subtree_steps f' [] [] c cs (loadc db q c x) (sub (length q) c X)); [done| |done| |constructor|done|done].
      + intros k Hk. apply HU. by apply (sub_subseteq _ _ _ _ Hk).
      + cbn [app]. rewrite node_at_snoc, Hn. cbn [app]. by apply load_child_eq.
    - exists (i + 1)%nat, (mk_pstate [] []). split; [|done].
      rewrite (split_children q n X) by done. rewrite concat_map, map_map.
      rewrite <- (app_nil_r (concat _)). eapply steps_trans; [exact Hi|].
      refine (steps_S 0 _ None (mk_pstate [] []) [] _ _ _ _).
      + apply tok_ok_intro; [done|done|]. repeat constructor.
      + done.
      + constructor. split; [done|]. split; [done|]. repeat constructor.
  Qed.

  (** What the loop returns from a state that has the keys [ks] ahead of it. *)
  Lemma page_loop_ok i st ks stf : steps i st ks stf -> page_step db root q stf = PDone ->
    forall max acc fuel, (i < fuel)%nat -> (length acc <= max)%nat ->
    (length acc + length ks < max /\ page_loop db fuel root q max st acc = Some (Ok (acc ++ ks, None)))%nat \/
    (max <= length acc + length ks /\ exists st' j, page_loop db fuel root q max st acc = Some (Ok (acc ++ take (max - length acc) ks, Some st')) /\
      j <= i /\ steps j st' (drop (max - length acc) ks) stf)%nat.
  Proof.
    clear U_len U_pf U_nib U_comb U_short H_ne.
    induction 1 as [st Ht|i st o st' ks st'' Ht Hs Hst IH]; intros Hd max acc fuel Hf Ha; (destruct fuel as [|fuel]; [lia|]); cbn [page_loop].
    - destruct (Nat.leb_spec max (length acc)) as [Hle|Hgt].
      + right. cbn [length]. split; [lia|]. exists st, 0%nat. rewrite take_nil, drop_nil, app_nil_r. split; [done|]. split; [lia|]. by constructor.
      + left. cbn [length]. split; [lia|]. rewrite Hd, app_nil_r. done.
    - destruct (Nat.leb_spec max (length acc)) as [Hle|Hgt].
      + right. split; [lia|]. exists st, (S i). replace (max - length acc)%nat with 0%nat by lia. cbn [take drop]. rewrite app_nil_r.
        split; [done|]. split; [lia|]. by econstructor.
      + rewrite Hs. set (e := match o with Some b => [b] | None => [] end).
        assert (He : (length e <= 1)%nat) by (unfold e; destruct o; cbn; lia).
        destruct (IH Hd max (acc ++ e) fuel) as [[IH1 IH2]|[IH1 (st3 & j & IH2 & IH3 & IH4)]]; [lia|rewrite app_length; lia| |].
        * left. rewrite app_length in IH1 |- *. split; [lia|]. rewrite IH2. by rewrite app_assoc.
        * right. rewrite !app_length in IH1. rewrite app_length. split; [lia|]. exists st3, j.
          rewrite app_length in IH2, IH4. rewrite IH2.
          assert (Ed : (max - length acc = length e + (max - (length acc + length e)))%nat) by lia. rewrite Ed.
          rewrite take_add_app, drop_add_app by done. rewrite <- app_assoc. split; [done|]. split; [lia|done].
  Qed.
End ScanRep.

(** ** The trie object *)
Section ScanRun.
  Variable H : bytes -> bytes.
  Variable order : list N -> list N.
  Variable l : list bytes.
  Hypothesis order_perm : forall l, Permutation (order l) l.
  Hypothesis H_ne : forall x, H x <> [].
  Hypothesis good : good_keys l = true.
  Hypothesis nomis : no_misdirected_delete l = true.
  Variable s : tstate.
  Variables (com cur : gset bytes) (dirty : bool).
  Hypothesis inv : BInv H l s com cur dirty.
  Variable b : bytes.
  Hypothesis b_ok : bytes_ok b = true.
  Notation q := (expand_nibbles b).
  Notation U := (UB l).

  Lemma scan_rep : rep H (FB l) (ts_db s) [] (ts_root s) (nib cur) /\ nib cur ⊆ U /\ cur ⊆ B l.
  Proof. destruct inv as (H1 & H2 & HI). destruct HI as (_ & I2 & _ & I4 & _). done. Qed.
  Lemma cur_ok k : k ∈ cur -> bytes_ok k = true.
  Proof. intros Hk. apply (B_ok l good). by apply scan_rep. Qed.
  Lemma scan_below : under q (nib cur) = nib (below b cur).
  Proof. symmetry. apply (nib_below (B l) (B_ok l good)); [apply scan_rep|done]. Qed.
  Lemma below_ok k : k ∈ below b cur -> bytes_ok k = true.
  Proof. intros Hk. apply elem_of_filter in Hk as [_ Hk]. by apply cur_ok. Qed.
  Lemma scan_sorted : sorted_keys (under q (nib cur)) = map expand_nibbles (sorted_keys (below b cur)).
  Proof. rewrite scan_below. apply sorted_keys_nib, below_ok. Qed.
  Lemma scan_size : size (under q (nib cur)) = size (below b cur).
  Proof.
    rewrite scan_below. apply (nib_size (B l) (B_ok l good)). intros k Hk. apply elem_of_filter in Hk as [_ Hk]. by apply scan_rep.
  Qed.
  Lemma map_comb_expand (ks : list bytes) : (forall k, k ∈ ks -> bytes_ok k = true) -> map comb (map expand_nibbles ks) = ks.
  Proof.
    intros Hok. induction ks as [|k ks IH]; [done|]. cbn [map]. rewrite IH by (intros x Hx; apply Hok; by right).
    unfold comb. rewrite combine_expand by (apply Hok; left). done.
  Qed.
  Lemma scan_node : match node_at (ts_db s) (ts_root s) [] q with
    | Some m => exists f', rep H f' (ts_db s) q m (under q (nib cur)) /\ (below b cur <> ∅ \/ b = [])
    | None => below b cur = ∅ \/ (6 < length b /\ size (below b cur) = 1)%nat
    end.
  Proof.
    destruct scan_rep as (Hr & HU & _).
    pose proof (node_at_ok H U H_ne (UB_len H order order_perm H_ne l good nomis) (UB_pf l good) (UB_nib l good) (ts_db s) q (FB l) [] (ts_root s) (nib cur) Hr HU) as Hn.
    cbn [app] in Hn. rewrite scan_size in Hn. rewrite expand_len in Hn.
    destruct (node_at _ _ _ _) as [m|].
    - destruct Hn as (f' & Hn & Hd). exists f'. split; [done|]. destruct Hd as [Hd|Hd].
      + left. intros E. apply Hd. by rewrite scan_below, E, nib_empty.
      + right. destruct b; [done|]. cbn in Hd. done.
    - destruct Hn as [Hn|[Hn1 Hn2]]; [left|right; lia]. apply nib_empty_iff. by rewrite <- scan_below.
  Qed.
  Lemma scan_under_U : under q (nib cur) ⊆ U.
  Proof. intros k Hk. apply elem_under in Hk as [Hk _]. by apply scan_rep. Qed.
  Lemma scan_under_ne : below b cur <> ∅ -> under q (nib cur) <> ∅.
  Proof. rewrite scan_below, nib_empty_iff. done. Qed.

  (** Listing without pages. *)
  Lemma trie_all_values_ok fuel : (FB l <= fuel)%nat -> below b cur <> ∅ ->
    exists vs rest, trie_all_values fuel s b = Ok vs /\
      ((sorted_keys (below b cur) = vs ++ rest /\ (rest = [] \/ MAX_VALUES < length vs)) \/
       (vs = [] /\ 6 < length b /\ size (below b cur) = 1))%nat.
  Proof.
    intros Hf Hne. pose proof scan_node as Hn. unfold trie_all_values.
    destruct (node_at _ _ _ _) as [n|].
    - destruct Hn as (f' & Hr & _).
      destruct (all_values_ok H U H_ne (UB_len H order order_perm H_ne l good nomis) (UB_pf l good) (UB_nib l good) (ts_db s) fuel f' q n _ Hr scan_under_U (scan_under_ne Hne))
        as (vs & rest & -> & E & Hm).
      { intros k Hk. apply scan_under_U, (UB_fuel l) in Hk. lia. }
      rewrite scan_sorted in E. set (ks := sorted_keys (below b cur)) in *.
      assert (Ev : vs = map expand_nibbles (take (length vs) ks)).
      { transitivity (take (length vs) (vs ++ rest)); [by rewrite take_app|]. rewrite <- E. symmetry. apply (fmap_take expand_nibbles). }
      assert (Er : rest = map expand_nibbles (drop (length vs) ks)).
      { transitivity (drop (length vs) (vs ++ rest)); [by rewrite drop_app|]. rewrite <- E. symmetry. apply (fmap_drop expand_nibbles). }
      assert (Hok : forall k, k ∈ ks -> bytes_ok k = true) by (intros k; unfold ks; rewrite elem_sorted_keys; apply below_ok).
      exists (take (length vs) ks), (drop (length vs) ks). split.
      + rewrite Ev at 1. rewrite combine_all_expand; [done|]. intros k Hk. apply Hok. apply elem_of_list_In.
        rewrite <- (take_drop (length vs) ks). apply in_or_app. left. by apply elem_of_list_In.
      + left. split; [by rewrite take_drop|]. destruct Hm as [->|Hm]; [left|right].
        * symmetry in Er. by apply fmap_nil_inv in Er.
        * rewrite Ev, map_length in Hm. exact Hm.
    - destruct Hn as [Hn|Hn]; [done|]. exists [], []. split; [done|]. right. split; [done|exact Hn].
  Qed.

  Hypothesis l_short : forall k, k ∈ l -> N.of_nat (length k) < 2 ^ 30.
  Lemma U_short k : k ∈ U -> N.of_nat (length k) < 2 ^ 31.
  Proof.
    intros Hk. apply UB_elem in Hk as (k' & Hk' & ->). apply l_short in Hk'. rewrite expand_len.
    change (2 ^ 31) with 2147483648. change (2 ^ 30) with 1073741824 in Hk'. lia.
  Qed.
  Lemma U_comb k : k ∈ U -> k <> [] /\ is_Some (combine_nibbles k).
  Proof.
    intros Hk. split.
    - intros ->. apply (UB_len H order order_perm H_ne l good nomis) in Hk. cbn in Hk. lia.
    - apply UB_elem in Hk as (k' & Hk' & ->). rewrite combine_expand; [by eexists|].
      apply (B_ok l good). unfold B. by apply elem_of_list_to_set.
  Qed.

  (** A page: at most [max] keys and exactly [max] unless it is the last one. *)
  Definition pages_ok (max : nat) (pages : list (list bytes)) : Prop :=
    forall i page, pages !! i = Some page -> (length page <= max /\ (S i < length pages -> length page = max))%nat.

  Lemma pages_ok_one max page : (length page <= max)%nat -> pages_ok max [page].
  Proof. intros Hl i p Hp. destruct i as [|i]; [|by rewrite lookup_nil in Hp || (cbn in Hp; done)]. cbn in Hp. injection Hp as <-. cbn. lia. Qed.
  Lemma pages_ok_cons max page pages : length page = max -> pages_ok max pages -> pages_ok max (page :: pages).
  Proof.
    intros Hl Hp [|i] p Hi.
    - cbn in Hi. injection Hi as <-. lia.
    - cbn in Hi. specialize (Hp i p Hi). cbn. lia.
  Qed.

  Lemma follow_ok max fuel n0 : node_at (ts_db s) (ts_root s) [] q = Some n0 -> (0 < max)%nat ->
    forall (n i : nat) st ks stf, steps (ts_db s) (ts_root s) q i st ks stf -> page_step (ts_db s) (ts_root s) q stf = PDone ->
    (i < fuel)%nat -> (length ks < n)%nat ->
    exists pages, follow n fuel s b max (encode_page_token (Some (token_of st))) = Some pages /\
      concat pages = ks /\ pages_ok max pages.
  Proof.
    intros Hn0 Hmax. induction n as [|n IH]; intros i st ks stf Hs Hd Hi Hn; [lia|]. cbn [follow].
    destruct (steps_tok _ _ _ _ _ _ _ Hs) as [Ht1 Ht2]. unfold trie_page. rewrite Hn0.
    rewrite page_token_roundtrip by done. unfold token_of at 1. rewrite rev_length, Ht1, Nat.eqb_refl, rev_involutive.
    assert (mk_pstate (ps_rel st) (ps_stack st) = st) as -> by by destruct st.
    destruct (page_loop_ok H _ _ _ i st ks stf Hs Hd max [] fuel Hi) as [[H1 H2]|[H1 (st' & j & H2 & H3 & H4)]]; [cbn; lia| |].
    - rewrite H2. cbn [app]. eexists. split; [done|]. cbn [concat]. rewrite app_nil_r. split; [done|]. apply pages_ok_one. cbn in H1. lia.
    - rewrite H2. cbn [length app] in *. rewrite Nat.sub_0_r in *.
      destruct (encode_page_token (Some (token_of st'))) as [t|] eqn:Et; [|done].
      destruct (IH j st' (drop max ks) stf H4 Hd) as (pages & Ep & Ec & Hp); [lia|rewrite drop_length; lia|].
      rewrite Et in Ep. rewrite Ep. eexists. split; [done|]. cbn [concat]. rewrite Ec, take_drop. split; [done|].
      apply pages_ok_cons; [|done]. rewrite take_length. lia.
  Qed.

  Lemma trie_pages_ok : exists K : nat, forall fuel max n : nat, (K <= fuel)%nat -> (0 < max)%nat -> (size (below b cur) < n)%nat ->
    exists pages, follow n fuel s b max None = Some pages /\ pages_ok max pages /\
      (concat pages = sorted_keys (below b cur) \/ (concat pages = [] /\ 6 < length b /\ size (below b cur) = 1)%nat).
  Proof.
    pose proof scan_node as Hn. destruct (node_at (ts_db s) (ts_root s) [] q) as [n0|] eqn:En.
    2:{ exists 0%nat. intros fuel max n _ Hmax Hsz. exists [[]]. destruct n as [|n]; [lia|]. cbn [follow]. unfold trie_page. rewrite En.
        split; [done|]. split; [apply pages_ok_one; cbn; lia|]. destruct Hn as [Hn|Hn]; [left|by right]. by rewrite Hn, sorted_keys_empty. }
    destruct Hn as (f' & Hr & _).
    destruct (decide (below b cur = ∅)) as [He|Hne].
    { exists 0%nat. intros fuel max n _ Hmax Hsz. exists [[]]. destruct n as [|n]; [lia|]. cbn [follow]. unfold trie_page. rewrite En.
      cbn [decode_page_token]. rewrite scan_below, He, nib_empty in Hr. apply (rep_empty_leaf H U H_ne (UB_len H order order_perm H_ne l good nomis) (UB_pf l good) (UB_nib l good)) in Hr as [-> ->].
      split; [done|]. split; [apply pages_ok_one; cbn; lia|]. left. by rewrite He, sorted_keys_empty. }
    assert (Hok : forall k, k ∈ sorted_keys (below b cur) -> bytes_ok k = true) by (intros k; rewrite elem_sorted_keys; apply below_ok).
    destruct (is_leaf n0) eqn:El.
    - exists 0%nat. intros fuel max n _ Hmax Hsz. destruct n as [|n]; [lia|]. cbn [follow]. unfold trie_page. rewrite En.
      cbn [decode_page_token]. rewrite El.
      destruct (rep_shape H U H_ne (UB_len H order order_perm H_ne l good nomis) (UB_pf l good) (UB_nib l good) _ _ _ _ _ Hr scan_under_U (scan_under_ne Hne))
        as [(k & Ek & _ & Hk & _)|(El' & _)]; [|congruence].
      pose proof scan_sorted as Es. rewrite Ek, sorted_keys_singleton in Es.
      destruct (sorted_keys (below b cur)) as [|k' [|]] eqn:E'; try done. cbn in Es. injection Es as Es. rewrite Hk.
      assert (HkU : k ∈ U) by (apply scan_under_U; rewrite Ek; ssolve). apply U_comb in HkU as [Hk0 _].
      destruct k as [|x k]; [done|]. rewrite Es, combine_expand by (apply Hok; left).
      exists [[k']]. split; [done|]. split; [apply pages_ok_one; cbn; lia|by left].
    - destruct (whole_steps H U H_ne (UB_len H order order_perm H_ne l good nomis) (UB_pf l good) (UB_nib l good) (ts_db s) (ts_root s) q U_comb U_short _ _ _ Hr scan_under_U
        (scan_under_ne Hne) El En) as (i & stf & Hs & Hd).
      rewrite scan_sorted, map_comb_expand in Hs by done.
      exists (S i). intros fuel max n Hi Hmax Hn.
      destruct (follow_ok max fuel n0 En Hmax n i _ _ _ Hs Hd) as (pages & Ep & Ec & Hp); [lia|by rewrite sorted_keys_length|].
      exists pages. split; [|split; [done|by left]].
      destruct n as [|n]; [lia|]. rewrite <- Ep. cbn [follow]. unfold trie_page. rewrite En. cbn [decode_page_token]. rewrite El.
      destruct (steps_tok _ _ _ _ _ _ _ Hs) as [Ht1 Ht2]. rewrite page_token_roundtrip by done. done.
  Qed.
End ScanRun.
