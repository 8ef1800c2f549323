(** C43-C47: certificates, the read node, decided values, validator sets, shard witnesses. *)
From Verif Require Import Consensus ConsensusProofs.
From Coq Require Import ZifyN ZifyNat ZifyBool.
#[local] Open Scope N_scope.

(** ** C43 *)

(** More than two thirds of [vs], each counted once, signed a precommit for the certificate's height, round and value. *)
Definition quorum_signed (sig_ok : bytes -> vote -> bytes -> bool) (vs : list validator) (c : cert) : Prop :=
  exists signers : list bytes, NoDup signers /\ 2 * N.of_nat (length vs) < 3 * N.of_nat (length signers) /\
    forall k, k ∈ signers -> k ∈ map v_key vs /\
      exists s, s ∈ ct_sigs c /\ sig_ok k (Precommit (ct_height c) (ct_round c) (ct_value c) k) (sg_sig s) = true.

Lemma chosen_built shard configs h vs : get_validator_set shard (map (store_set shard) configs) h = Some vs -> built shard vs.
Proof.
  unfold get_validator_set. destruct configs as [|c0 r]; [done|]. cbn [map]. intros Hv. apply (inj Some) in Hv. subst vs.
  pose proof (pick_fold shard h (map (store_set shard) (c0 :: r)) (store_set shard c0)) as Hp. cbn zeta in Hp. destruct Hp as (Hr & _). cbn [map] in Hr.
  remember (fold_left _ _ _) as s eqn:Es. clear Es. destruct Hr as [-> |(Hin & _)]; [apply v_build_spec|].
  change (store_set shard c0 :: map (store_set shard) r) with (store_set shard <$> (c0 :: r)) in Hin.
  apply elem_of_list_fmap in Hin as (c & -> & _). apply v_build_spec.
Qed.

Theorem C43_accept_iff sig_ok shard sets cm c vs :
  to_cert cm = Some c -> get_validator_set shard sets (h_num (ct_height c)) = Some vs ->
  (verify_signatures sig_ok shard sets cm = Some true <->
   2 * N.of_nat (length vs) < 3 * N.of_nat (length (ct_sigs c)) /\
   map sg_addr (ct_sigs c) `sublist_of` map v_key vs /\
   forall s, s ∈ ct_sigs c -> sig_ok (sg_addr s) (Precommit (ct_height c) (ct_round c) (ct_value c) (sg_addr s)) (sg_sig s) = true).
Proof.
  intros Hc Hv. unfold verify_signatures. rewrite Hc, Hv. rewrite map_length.
  assert (H := check_sigs_iff sig_ok c (ct_sigs c) (map v_key vs)). rewrite Forall_forall in H. unfold sig_valid in H. rewrite <- H.
  unfold quorum_met. split.
  - intros [= E]. apply andb_true_iff in E as [E1 E2]. split; [lia|done].
  - intros [E1 E2]. f_equal. apply andb_true_iff. split; [lia|done].
Qed.

Lemma sublist_nodup (l1 l2 : list bytes) : l1 `sublist_of` l2 -> NoDup l2 -> NoDup l1.
Proof.
  induction 1 as [|x l1 l2 Hs IH|x l1 l2 Hs IH]; intros H; [done| |]; apply NoDup_cons in H as [Hx H]; [|by apply IH].
  constructor; [|by apply IH]. intros Hin. apply Hx. eapply elem_of_submseteq; [done|by apply sublist_submseteq].
Qed.

(** Accepted certificates carry a quorum of distinct validators of the set in force. *)
Theorem C43_sound sig_ok shard configs cm :
  verify_signatures sig_ok shard (map (store_set shard) configs) cm = Some true ->
  exists c vs, to_cert cm = Some c /\ get_validator_set shard (map (store_set shard) configs) (h_num (ct_height c)) = Some vs /\
    quorum_signed sig_ok vs c.
Proof.
  intros Hok. assert (Hok' := Hok). unfold verify_signatures in Hok'. destruct (to_cert cm) as [c|] eqn:Hc; [|done].
  destruct (get_validator_set _ _ _) as [vs|] eqn:Hv; [|done]. clear Hok'. exists c, vs. split; [done|]. split; [done|].
  destruct (proj1 (C43_accept_iff _ _ _ _ _ _ Hc Hv) Hok) as (Hq & Hsub & Hsig). apply chosen_built in Hv as [_ Hs].
  exists (map sg_addr (ct_sigs c)). split; [|split].
  - apply key_lt_NoDup in Hs. by eapply sublist_nodup.
  - by rewrite map_length.
  - intros k Hk. split; [eapply elem_of_submseteq; [done|by apply sublist_submseteq]|].
    apply elem_of_list_fmap in Hk as (s & -> & Hk). exists s. split; [done|by apply Hsig].
Qed.

Lemma sorted_subset_sublist (l1 l2 : list bytes) : StronglySorted key_lt l1 -> StronglySorted key_lt l2 -> (forall x, x ∈ l1 -> x ∈ l2) -> l1 `sublist_of` l2.
Proof.
  revert l1. induction l2 as [|b r2 IH]; intros l1 H1 H2 He.
  - destruct l1 as [|a r1]; [constructor|]. exfalso. apply (not_elem_of_nil a). apply He. left.
  - apply StronglySorted_inv in H2 as [H2 A2]. rewrite Forall_forall in A2. destruct l1 as [|a r1]; [apply sublist_nil_l|].
    apply StronglySorted_inv in H1 as Hinv. destruct Hinv as [H1' A1]. rewrite Forall_forall in A1.
    destruct (decide (a = b)) as [->|Hne].
    + constructor. apply IH; [done|done|]. intros x Hx. specialize (He x ltac:(by right)). apply elem_of_cons in He as [->|?]; [|done].
      apply A1 in Hx. unfold key_lt in Hx. by rewrite blt_irrefl in Hx.
    + apply sublist_cons, IH; [done|done|]. intros x Hx. pose proof (He x Hx) as Hx2. apply elem_of_cons in Hx2 as [->|?]; [|done]. exfalso.
      assert (Ha : a ∈ r2) by (specialize (He a ltac:(left)); apply elem_of_cons in He as [?|?]; done).
      apply A2 in Ha. apply elem_of_cons in Hx as [->|Hx]; [done|]. apply A1 in Hx.
      pose proof (key_lt_trans _ _ _ Ha Hx) as Hc. unfold key_lt in Hc. by rewrite blt_irrefl in Hc.
Qed.

(** Every certificate with a quorum of valid signatures of validators listed in ascending key order is accepted. *)
Theorem C43_complete_sorted sig_ok shard configs cm c vs :
  to_cert cm = Some c -> get_validator_set shard (map (store_set shard) configs) (h_num (ct_height c)) = Some vs ->
  2 * N.of_nat (length vs) < 3 * N.of_nat (length (ct_sigs c)) ->
  StronglySorted key_lt (map sg_addr (ct_sigs c)) ->
  (forall s, s ∈ ct_sigs c -> sg_addr s ∈ map v_key vs /\
     sig_ok (sg_addr s) (Precommit (ct_height c) (ct_round c) (ct_value c) (sg_addr s)) (sg_sig s) = true) ->
  verify_signatures sig_ok shard (map (store_set shard) configs) cm = Some true.
Proof.
  intros Hc Hv Hq Hs Hall. apply (C43_accept_iff _ _ _ _ _ _ Hc Hv). split; [done|]. split; [|intros s Hin; by apply Hall].
  apply chosen_built in Hv as [_ Hs2]. apply sorted_subset_sublist; [done|done|]. intros x Hx. apply elem_of_list_fmap in Hx as (s & -> & Hx). by apply Hall.
Qed.

(** Two accepted certificates of one height have a signer in common. *)
Theorem C43_quorums_intersect sig_ok vs c1 c2 :
  NoDup (map v_key vs) -> quorum_signed sig_ok vs c1 -> quorum_signed sig_ok vs c2 ->
  exists k s1 s2, k ∈ map v_key vs /\
    sig_ok k (Precommit (ct_height c1) (ct_round c1) (ct_value c1) k) s1 = true /\
    sig_ok k (Precommit (ct_height c2) (ct_round c2) (ct_value c2) k) s2 = true.
Proof.
  intros Hnd (l1 & N1 & Q1 & A1) (l2 & N2 & Q2 & A2).
  destruct (decide (Exists (fun k => k ∈ l2) l1)) as [Hex|Hno].
  - apply Exists_exists in Hex as (k & H1 & H2). destruct (A1 k H1) as (Hk & s1 & _ & E1), (A2 k H2) as (_ & s2 & _ & E2). eauto 8.
  - exfalso. assert (Hd : NoDup (l1 ++ l2)).
    { apply NoDup_app. split; [done|]. split; [|done]. intros x H1 H2. apply Hno, Exists_exists. eauto. }
    assert (Hsub : l1 ++ l2 ⊆+ map v_key vs).
    { apply NoDup_submseteq; [done|]. intros x [Hx|Hx]%elem_of_app; [by apply A1|by apply A2]. }
    apply submseteq_length in Hsub. rewrite app_length, map_length in Hsub. lia.
Qed.

(** Signatures in another order than the validators' keys: rejected although all are valid and form a quorum. *)
Definition k32 (x : N) : bytes := repeat x 32.
(** A signature scheme for the examples: the only signature of key [k] on a vote is [k] followed by the value's hash. *)
Definition toy_sig (k : bytes) (vt : vote) (s : bytes) : bool := beqb s (k ++ (vt_value vt).2).
Definition toy_sigs (h : bytes) (ks : list N) : list csig := map (fun x => CSig (k32 x) (k32 x ++ h)) ks.
Definition toy_cfg : list vconfig := [VConfig 0 [k32 3; k32 1; k32 4; k32 2] [0; 1]].

Theorem C43_complete_refuted : exists shard configs c vs,
  get_validator_set shard (map (store_set shard) configs) (h_num (ct_height c)) = Some vs /\ quorum_signed toy_sig vs c /\
  NoDup (map sg_addr (ct_sigs c)) /\
  verify_signatures toy_sig shard (map (store_set shard) configs)
    (Commits (Some (ct_height c)) (ct_round c) (Some (ct_value c)) (ct_sigs c)) = Some false.
Proof.
  exists 0, toy_cfg, (Cert (0, 7) 0 (0, [9]) (toy_sigs [9] [2; 1; 3])). eexists.
  split; [vm_compute; reflexivity|]. split; [|split].
  - exists [k32 2; k32 1; k32 3]. split; [repeat (constructor; [set_solver|]); constructor|]. split; [done|].
    intros k Hk. rewrite !elem_of_cons in Hk. destruct Hk as [->|[->|[->|Hk%elem_of_nil]]]; [| | |done].
    all: split; [vm_compute; set_solver|].
    + exists (CSig (k32 2) (k32 2 ++ [9])). split; [left|by vm_compute].
    + exists (CSig (k32 1) (k32 1 ++ [9])). split; [right; left|by vm_compute].
    + exists (CSig (k32 3) (k32 3 ++ [9])). split; [right; right; left|by vm_compute].
  - cbn. repeat (constructor; [set_solver|]); constructor.
  - vm_compute. reflexivity.
Qed.

Example C43_example :
  let v ks := verify_signatures toy_sig 0 (map (store_set 0) toy_cfg) (Commits (Some (0, 7)) 0 (Some (0, [9])) (toy_sigs [9] ks)) in
  v [1; 2; 4] = Some true /\ v [1; 2] = Some false /\ v [1; 1; 2] = Some false /\ v [1; 2; 5] = Some false.
Proof. by vm_compute. Qed.

(** ** C46 *)

(** [s] is the set of [shard] with the latest activation at or before [h]. *)
Definition in_force (shard h : N) (sets : list vset) (s : vset) : Prop :=
  s ∈ sets /\ shard ∈ vs_shards s /\ vs_effective s <= h /\
  forall c, c ∈ sets -> shard ∈ vs_shards c -> vs_effective c <= h -> vs_effective c <= vs_effective s.

Lemma eligible_iff shard h s : eligible shard h s = true <-> shard ∈ vs_shards s /\ vs_effective s <= h.
Proof.
  unfold eligible. rewrite andb_true_iff, existsb_exists, N.leb_le. split; intros [H1 H2]; (split; [|done]).
  - destruct H1 as (x & Hx & E). apply N.eqb_eq in E as ->. by apply elem_of_list_In.
  - exists shard. split; [by apply elem_of_list_In|lia].
Qed.

(** When the first configured set covers the shard and is active, and activation heights are distinct, the chosen set is
    the one in force. *)
Theorem C46_in_force shard h sets s0 rest s :
  sets = s0 :: rest -> shard ∈ vs_shards s0 -> vs_effective s0 <= h ->
  (forall a b, a ∈ sets -> b ∈ sets -> vs_effective a = vs_effective b -> a = b) ->
  (in_force shard h sets s <-> s ∈ sets /\ eligible shard h s = true /\ get_validator_set shard sets h = Some (vs_validators s) /\
     fold_left (pick shard h) sets s0 = s).
Proof.
  intros -> H1 H2 Hd. set (sets := s0 :: rest) in *.
  assert (H0 : eligible shard h s0 = true) by (by apply eligible_iff).
  destruct (pick_fold shard h sets s0) as (Hr & Hge & Hmax). fold (pick shard h) in *.
  remember (fold_left (pick shard h) sets s0) as r eqn:Er.
  assert (Hin : r ∈ sets /\ eligible shard h r = true).
  { destruct Hr as [->|(Hi & He & _)]; [|done]. split; [left|done]. }
  assert (Hg : get_validator_set shard sets h = Some (vs_validators r)) by (rewrite Er; reflexivity).
  split.
  - intros (Hs & Hs1 & Hs2 & Hs3).
    assert (vs_effective s <= vs_effective r) by (apply Hmax; [done|by apply eligible_iff]).
    assert (vs_effective r <= vs_effective s) by (destruct Hin as [? Hel]; apply eligible_iff in Hel as [??]; by apply Hs3).
    assert (r = s) as -> by (apply Hd; [apply Hin|done|lia]). by repeat split; try apply Hin.
  - intros (Hs & Hel & _ & Heq). subst r. subst s. apply eligible_iff in Hel as [Hel1 Hel2]. repeat split; try done.
    intros c Hc Hc1 Hc2. apply Hmax; [done|]. by apply eligible_iff.
Qed.

(** The whole configuration, order of keys, repetitions and order of later sets included, as the code reads it. *)
Theorem C46_same_config_agree shard h c0 rest1 rest2 :
  shard ∈ vc_shards c0 -> vc_effective c0 <= h ->
  (forall a b, a ∈ c0 :: rest1 -> b ∈ c0 :: rest1 -> vc_effective a = vc_effective b -> a = b) ->
  rest1 ≡ₚ rest2 ->
  get_validator_set shard (map (store_set shard) (c0 :: rest1)) h = get_validator_set shard (map (store_set shard) (c0 :: rest2)) h.
Proof.
  intros H1 H2 Hd Hp.
  assert (Hperm : c0 :: rest1 ≡ₚ c0 :: rest2) by (by rewrite Hp).
  assert (Hd1 : forall a b, a ∈ map (store_set shard) (c0 :: rest1) -> b ∈ map (store_set shard) (c0 :: rest1) -> vs_effective a = vs_effective b -> a = b).
  { intros a b Ha Hb He. apply elem_of_list_fmap in Ha as (ca & -> & Ha), Hb as (cb & -> & Hb). cbn in He. by rewrite (Hd ca cb Ha Hb He). }
  assert (Hmem : forall s, s ∈ map (store_set shard) (c0 :: rest1) <-> s ∈ map (store_set shard) (c0 :: rest2)).
  { intros s. change (map (store_set shard)) with (fmap (M := list) (store_set shard)). by rewrite Hperm. }
  set (l1 := map (store_set shard) (c0 :: rest1)) in *. set (l2 := map (store_set shard) (c0 :: rest2)) in *.
  assert (E1 : l1 = store_set shard c0 :: map (store_set shard) rest1) by done.
  assert (E2 : l2 = store_set shard c0 :: map (store_set shard) rest2) by done.
  destruct (pick_fold shard h l1 (store_set shard c0)) as (Hr & _ & Hmax).
  remember (fold_left (pick shard h) l1 (store_set shard c0)) as r eqn:Er.
  assert (Hel0 : eligible shard h (store_set shard c0) = true) by (by apply eligible_iff).
  assert (Hin : r ∈ l1 /\ eligible shard h r = true).
  { destruct Hr as [->|(Hi & He & _)]; [|done]. split; [rewrite E1; left|done]. }
  assert (Hf : in_force shard h l2 r).
  { destruct Hin as [Hi He]. apply eligible_iff in He as [??]. split; [by apply Hmem|]. split; [done|]. split; [done|].
    intros c Hc Hc1 Hc2. apply Hmax; [by apply Hmem|]. by apply eligible_iff. }
  apply (C46_in_force _ _ _ _ _ _ E2) in Hf as (_ & _ & -> & _); [|done|done|].
  - subst r. done.
  - intros a b Ha Hb. apply Hd1; by apply Hmem.
Qed.

Theorem C46_key_order_irrelevant shard ks1 ks2 : (forall x, x ∈ ks1 <-> x ∈ ks2) ->
  v_build shard ks1 = v_build shard ks2 /\ NoDup (map v_key (v_build shard ks1)) /\ (forall x, x ∈ map v_key (v_build shard ks1) <-> x ∈ ks1).
Proof.
  intros He. split; [by apply v_build_ext|]. destruct (v_build_spec shard ks1) as [[_ Hs] Hm]. split; [by apply key_lt_NoDup|done].
Qed.

(** The first configured set is used even for a shard it does not list and before its activation, instead of a later entry
    that is in force. *)
Theorem C46_first_set_refuted : exists shard h sets s,
  in_force shard h sets s /\ get_validator_set shard sets h <> Some (vs_validators s).
Proof.
  exists 1, 10, [VSet 5 [Validator 1 (k32 1)] [0]; VSet 3 [Validator 1 (k32 2)] [1]], (VSet 3 [Validator 1 (k32 2)] [1]).
  split; [|by vm_compute]. split; [right; left|]. split; [left|]. split; [cbn; lia|].
  intros c Hc Hs He. rewrite !elem_of_cons in Hc. destruct Hc as [->|[->|Hc%elem_of_nil]]; [|cbn; lia|done].
  cbn in Hs. apply elem_of_list_singleton in Hs. done.
Qed.

Lemma lookup_map {A B} (f : A -> B) (l : list A) i : map f l !! i = f <$> l !! i.
Proof. apply list_lookup_fmap. Qed.
Lemma rotate (vs : list validator) (a : N) : vs <> [] ->
  map (fun i => vs !! N.to_nat ((a + N.of_nat i) mod N.of_nat (length vs))) (seq 0 (length vs)) ≡ₚ map Some vs.
Proof.
  intros Hne. assert (Hn : N.of_nat (length vs) <> 0) by (destruct vs; cbn; [done|lia]).
  set (n := length vs) in *. set (k := N.to_nat (a mod N.of_nat n)).
  assert (Hk : (k < n)%nat) by (pose proof (N.mod_lt a (N.of_nat n) Hn); lia).
  enough (He : map (fun i => vs !! N.to_nat ((a + N.of_nat i) mod N.of_nat n)) (seq 0 n) = map Some (drop k vs ++ take k vs)).
  { rewrite He. apply (fmap_Permutation Some). rewrite Permutation_app_comm. by rewrite take_drop. }
  apply list_eq. intros i. rewrite !lookup_map. destruct (decide (i < n)%nat) as [Hi|Hi].
  - rewrite lookup_seq_lt by done. cbn [fmap option_fmap option_map]. rewrite Nat.add_0_l.
    assert (Hidx : ((a + N.of_nat i) mod N.of_nat n) = if (k + i <? n)%nat then N.of_nat (k + i) else N.of_nat (k + i - n)).
    { rewrite N.add_mod by done. rewrite (N.mod_small (N.of_nat i)) by lia.
      replace (a mod N.of_nat n) with (N.of_nat k) by lia. destruct (k + i <? n)%nat eqn:El.
      - rewrite N.mod_small by lia. lia.
      - symmetry. apply (N.mod_unique _ _ 1); lia. }
    rewrite Hidx. destruct (k + i <? n)%nat eqn:El; apply Nat.ltb_lt in El || apply Nat.ltb_ge in El.
    + rewrite Nat2N.id. rewrite lookup_app_l by (rewrite drop_length; lia). rewrite lookup_drop.
      destruct (vs !! (k + i)%nat) eqn:E; [done|]. apply lookup_ge_None in E. lia.
    + rewrite Nat2N.id. rewrite lookup_app_r by (rewrite drop_length; lia). rewrite drop_length. replace (i - (length vs - k))%nat with (k + i - n)%nat by lia.
      rewrite lookup_take by lia. destruct (vs !! (k + i - n)%nat) eqn:E; [done|]. apply lookup_ge_None in E. lia.
  - rewrite (lookup_seq_ge 0 n i) by lia. rewrite (lookup_ge_None_2 (drop k vs ++ take k vs)); [done|]. rewrite app_length, drop_length, take_length. lia.
Qed.

Lemma select_index vs h r : vs <> [] -> 1 <= h -> (0 <= r)%Z -> h + Z.to_N r < 2 ^ 64 ->
  select_proposer vs h r = vs !! N.to_nat ((h - 1 + Z.to_N r) mod N.of_nat (length vs)).
Proof.
  intros Hne Hh Hr Hb. unfold select_proposer. destruct vs as [|v vs]; [done|]. destruct (Z.ltb_spec r 0); [lia|].
  f_equal. f_equal. f_equal. symmetry. apply (N.mod_unique _ _ 1); lia.
Qed.

(** Over any [length vs] consecutive heights (or rounds of one height) every validator is proposer exactly once. *)
Theorem C46_rotation_heights vs h r : vs <> [] -> 1 <= h -> (0 <= r)%Z -> h + Z.to_N r + N.of_nat (length vs) <= 2 ^ 64 ->
  map (fun i => select_proposer vs (h + N.of_nat i) r) (seq 0 (length vs)) ≡ₚ map Some vs.
Proof.
  intros Hne Hh Hr Hb. erewrite map_ext_in; [exact (rotate vs (h - 1 + Z.to_N r) Hne)|]. cbn beta. intros i Hi. apply in_seq in Hi.
  rewrite select_index by (done || lia). do 3 f_equal. lia.
Qed.
Theorem C46_rotation_rounds vs h r : vs <> [] -> 1 <= h -> (0 <= r)%Z -> h + Z.to_N r + N.of_nat (length vs) <= 2 ^ 64 ->
  map (fun i => select_proposer vs h (r + Z.of_nat i)) (seq 0 (length vs)) ≡ₚ map Some vs.
Proof.
  intros Hne Hh Hr Hb. erewrite map_ext_in; [exact (rotate vs (h - 1 + Z.to_N r) Hne)|]. cbn beta. intros i Hi. apply in_seq in Hi.
  rewrite select_index by (done || lia). do 3 f_equal. lia.
Qed.

Example C46_example :
  let s := VSet 0 (v_build 1 [k32 2; k32 1; k32 2]) [0; 1] in let s' := VSet 10 (v_build 1 [k32 3]) [1] in
  in_force 1 9 [s; s'] s /\ get_validator_set 1 [s; s'] 9 = Some [Validator 1 (k32 1); Validator 1 (k32 2)] /\
  get_validator_set 1 [s; s'] 10 = Some [Validator 1 (k32 3)] /\
  map (fun i => select_proposer (vs_validators s) (1 + N.of_nat i) 0) (seq 0 2) = [Some (Validator 1 (k32 1)); Some (Validator 1 (k32 2))].
Proof.
  cbn zeta. split; [|by vm_compute]. split; [left|]. split; [set_solver|]. split; [cbn; lia|].
  intros c Hc _. rewrite !elem_of_cons in Hc. destruct Hc as [->|[->|Hc%elem_of_nil]]; [cbn; lia|cbn; lia|done].
Qed.

(** ** C44 *)
Section C44.
  Context (sig_ok : bytes -> vote -> bytes -> bool) {E : Type} (apply : E -> dvalue -> option E) (my_kind : kind).
  Context (shard : N) (configs : list vconfig) (max_buf : N).
  Notation sets := (map (store_set shard) configs).
  Notation read_run := (read_run sig_ok E apply my_kind shard sets max_buf).

  (** For every arrival sequence the committed values have the consecutive heights after the start, each once; the engine is
      the result of applying them in that order; each arrived, is of the node's kind and carries a certificate that a quorum
      of distinct validators signed. *)
  Theorem C44_in_order e0 h0 vs s : read_run (rstart e0 h0) vs = Some s ->
    (forall i v, rn_log s !! i = Some v -> dv_height v = Some (h0.1, h0.2 + 1 + N.of_nat i)) /\
    rn_last s = (h0.1, h0.2 + N.of_nat (length (rn_log s))) /\
    apply_all apply e0 (rn_log s) = Some (rn_engine s) /\
    forall v, v ∈ rn_log s -> v ∈ vs /\ dv_kind v = my_kind /\ dv_version_ok v = true /\
      exists cm c vals, dv_commits v = Some cm /\ to_cert cm = Some c /\ get_validator_set shard sets (h_num (ct_height c)) = Some vals /\ quorum_signed sig_ok vals c.
  Proof.
    intros Hr. destruct (read_run_inv sig_ok apply my_kind shard sets max_buf e0 h0 vs [] _ _ (rstart_inv _ _ _ _ _ _ _) Hr) as [H1 H2 H3 H4 _].
    split; [done|]. split; [done|]. split; [done|]. intros v Hv. destruct (H4 v Hv) as (Hin & (Hver & cm & Hcm & Hok) & Hk).
    split; [done|]. split; [done|]. split; [done|]. apply C43_sound in Hok as (c & vals & ? & ? & ?). eauto 8.
  Qed.

  (** Nothing is lost while the buffer has room: if acceptable values of the next [n] heights have all arrived, in any order and
      mixed with anything else, they are all committed. *)
  Theorem C44_none_lost e0 h0 vs s n : read_run (rstart e0 h0) vs = Some s -> N.of_nat (length vs) <= max_buf ->
    (forall i, (i < n)%nat -> exists v, v ∈ vs /\ accepted sig_ok shard sets v /\ dv_height v = Some (h0.1, h0.2 + 1 + N.of_nat i)) ->
    (n <= length (rn_log s))%nat.
  Proof.
    intros Hr Hcap Hall. destruct (read_run_linv sig_ok apply my_kind shard sets max_buf h0 vs [] _ _ ltac:(cbn; lia) (rstart_linv _ apply _ _ _ _) Hr) as [_ Hab _ Hkept].
    destruct (C44_in_order _ _ _ _ Hr) as (_ & Hlast & _). destruct (decide (n <= length (rn_log s))%nat) as [?|Hlt]; [done|]. exfalso.
    destruct (Hall (length (rn_log s)) ltac:(lia)) as (v & Hin & Hacc & Hh).
    assert (Hb : (h0.1, h0.2 + 1 + N.of_nat (length (rn_log s))) ∈ map fst (rn_buf s)).
    { eapply Hkept; [done|done|done|]. rewrite Hlast. apply h_ltb_lt. cbn. lia. }
    apply elem_of_list_fmap in Hb as ([h w] & Eh & Hb). cbn in Eh. subst h. apply Hab in Hb. rewrite Hlast in Hb. apply h_ltb_lt in Hb. cbn in Hb. lia.
  Qed.

  (** The order of arrival does not matter: with at most one acceptable value per height, two sequences with the same acceptable
      values commit the same values in the same order. *)
  Theorem C44_order_irrelevant e0 h0 vs1 vs2 s1 s2 :
    read_run (rstart e0 h0) vs1 = Some s1 -> read_run (rstart e0 h0) vs2 = Some s2 ->
    N.of_nat (length vs1) <= max_buf -> N.of_nat (length vs2) <= max_buf ->
    (forall v, accepted sig_ok shard sets v -> v ∈ vs1 <-> v ∈ vs2) ->
    (forall v w, v ∈ vs1 -> w ∈ vs1 -> accepted sig_ok shard sets v -> accepted sig_ok shard sets w -> dv_height v = dv_height w -> v = w) ->
    rn_log s1 = rn_log s2 /\ rn_last s1 = rn_last s2 /\ rn_engine s1 = rn_engine s2.
  Proof.
    intros R1 R2 C1 C2 Hsame Huniq.
    assert (I1 := read_run_inv sig_ok apply my_kind shard sets max_buf e0 h0 vs1 [] _ _ (rstart_inv _ _ _ _ _ _ _) R1).
    assert (I2 := read_run_inv sig_ok apply my_kind shard sets max_buf e0 h0 vs2 [] _ _ (rstart_inv _ _ _ _ _ _ _) R2).
    destruct I1 as [L1 G1 E1 A1 _], I2 as [L2 G2 E2 A2 _].
    assert (Hle1 : (length (rn_log s2) <= length (rn_log s1))%nat).
    { eapply C44_none_lost; [exact R1|done|]. intros i Hi. apply lookup_lt_is_Some in Hi as [v Hv]. exists v.
      destruct (A2 v ltac:(by eapply elem_of_list_lookup_2)) as (Hin & Hacc & _). split; [by apply Hsame|]. split; [done|by apply G2]. }
    assert (Hle2 : (length (rn_log s1) <= length (rn_log s2))%nat).
    { eapply C44_none_lost; [exact R2|done|]. intros i Hi. apply lookup_lt_is_Some in Hi as [v Hv]. exists v.
      destruct (A1 v ltac:(by eapply elem_of_list_lookup_2)) as (Hin & Hacc & _). split; [by apply Hsame|]. split; [done|by apply G1]. }
    assert (Hlog : rn_log s1 = rn_log s2).
    { apply list_eq. intros i. destruct (rn_log s1 !! i) as [v|] eqn:V1.
      - destruct (rn_log s2 !! i) as [w|] eqn:V2.
        + f_equal. destruct (A1 v ltac:(by eapply elem_of_list_lookup_2)) as (Hin1 & Hacc1 & _).
          destruct (A2 w ltac:(by eapply elem_of_list_lookup_2)) as (Hin2 & Hacc2 & _).
          apply Huniq; [done|by apply Hsame|done|done|]. by rewrite (G1 _ _ V1), (G2 _ _ V2).
        + apply lookup_lt_Some in V1. apply lookup_ge_None in V2. lia.
      - apply lookup_ge_None in V1. symmetry. apply lookup_ge_None. lia. }
    split; [done|]. split; [by rewrite L1, L2, Hlog|]. rewrite Hlog in E1. congruence.
  Qed.

  (** A value for a later height is kept, and replaces what was kept for that height; other heights are untouched. *)
  Theorem C44_buffer_latest e0 h0 vs v h s s' : read_run (rstart e0 h0) (vs ++ [v]) = Some s' -> read_run (rstart e0 h0) vs = Some s ->
    N.of_nat (length vs) < max_buf -> accepted sig_ok shard sets v -> dv_height v = Some h -> h_ltb (h_inc (rn_last s)) h = true ->
    rn_last s' = rn_last s /\ rn_log s' = rn_log s /\
    forall g w, (g, w) ∈ rn_buf s' <-> (g = h /\ w = v) \/ (g <> h /\ (g, w) ∈ rn_buf s).
  Proof.
    intros R1 R2 Hcap (Hver & cm & Hcm & Hok) Hh Hlt.
    destruct (read_run_linv sig_ok apply my_kind shard sets max_buf h0 vs [] _ _ ltac:(cbn; lia) (rstart_linv _ apply _ _ _ _) R2) as [Hso _ Hlen _].
    cbn [app] in Hlen.
    assert (Hp : process sig_ok E apply my_kind shard sets max_buf s v = Some s').
    { clear - R1 R2. revert R1 R2. generalize (rstart e0 h0). induction vs as [|x r IH]; intros t; cbn.
      - intros R1 [= ->]. destruct (process _ _ _ _ _ _ _ s v); [exact R1|done].
      - destruct (process _ _ _ _ _ _ _ t x) as [t'|]; [|done]. cbn. apply IH. }
    unfold process in Hp. rewrite Hh, Hcm, Hok in Hp. cbn in Hp. rewrite Hver, Hlt in Hp. cbn in Hp.
    assert (Hroom : N.of_nat (length (rn_buf s)) <? max_buf = true) by lia. rewrite Hroom in Hp. injection Hp as <-.
    split; [done|]. split; [done|]. intros g w. cbn [set_buf rn_buf]. clear - Hso.
    induction Hso as [|[h' v'] r Hs IH Hall]; cbn [buf_insert].
    - rewrite elem_of_list_singleton. split; [intros [= -> ->]; by left|intros [[-> ->]|[_ Q%elem_of_nil]]; done].
    - rewrite Forall_forall in Hall. destruct (h_eqb h h') eqn:E1.
      + apply h_eqb_eq in E1 as <-. rewrite !elem_of_cons. split.
        * intros [[= -> ->]|Hin]; [by left|]. right. split; [|by right]. intros ->. apply Hall in Hin. cbn in Hin. unfold bkey_lt in Hin. cbn in Hin. unfold h_ltb in Hin. lia.
        * intros [[-> ->]|[N [[= -> ->]|Hin]]]; [by left|done|by right].
      + apply h_eqb_neq in E1. destruct (h_ltb h h') eqn:E2.
        * rewrite elem_of_cons. split.
          -- intros [[= -> ->]|Hin]; [by left|]. right. split; [|done]. intros ->. apply elem_of_cons in Hin as [[= -> ->]|Hin]; [done|].
             apply Hall in Hin. unfold bkey_lt in Hin. cbn in Hin. unfold h_ltb in *. lia.
          -- intros [[-> ->]|[N Hin]]; [by left|by right].
        * rewrite !elem_of_cons, IH. split.
          -- intros [[= -> ->]|[?|[? ?]]]; [|by left|]; right; (split; [|tauto]); congruence.
          -- intros [?|[? [?|?]]]; tauto.
  Qed.
End C44.

(** The certificate is checked but not compared with the value it comes with: a value whose hash no key ever signed is
    committed under the certificate of another value. *)
Definition toy_cm (h : bytes) : commits := Commits (Some (0, 1)) 0 (Some (0, h)) (toy_sigs h [1; 2; 4]).
Theorem C44_only_signed_refuted : exists v s,
  read_run toy_sig (list bytes) (fun e v => Some (e ++ [dv_hash v])) KBlock 0 (map (store_set 0) toy_cfg) 10 (rstart [] (0, 0)) [v] = Some s /\
  rn_log s = [v] /\
  forall k h r sg, sg ∈ match dv_commits v with Some cm => map sg_sig (cm_sigs cm) | None => [] end ->
    k ∈ [k32 1; k32 2; k32 3; k32 4] -> toy_sig k (Precommit h r (0, dv_hash v) k) sg = false.
Proof.
  exists (DValue KBlock (Some (0, 1)) (Some (toy_cm [9])) [66] 0 true). eexists. split; [vm_compute; reflexivity|]. split; [done|].
  intros k h r sg Hsg Hk. apply elem_of_list_In in Hsg, Hk. cbn [dv_commits toy_cm cm_sigs toy_sigs map In sg_sig] in Hsg. cbn [In] in Hk.
  destruct Hsg as [<-|[<-|[<-|[]]]]; destruct Hk as [<-|[<-|[<-|[<-|[]]]]]; by vm_compute.
Qed.
(** With a full buffer, values that arrived out of order are dropped for good. *)
Theorem C44_none_lost_refuted : exists vs s,
  read_run toy_sig (list bytes) (fun e v => Some (e ++ [dv_hash v])) KBlock 0 (map (store_set 0) toy_cfg) 1 (rstart [] (0, 0)) vs = Some s /\
  (forall i, (i < 3)%nat -> exists v, v ∈ vs /\ accepted toy_sig 0 (map (store_set 0) toy_cfg) v /\ dv_height v = Some (0, 1 + N.of_nat i)) /\
  length (rn_log s) = 1%nat.
Proof.
  set (v n := DValue KBlock (Some (0, n)) (Some (toy_cm [9])) [9] 0 true).
  exists [v 3; v 2; v 1]. eexists. split; [vm_compute; reflexivity|]. split; [|done].
  intros i Hi. exists (v (1 + N.of_nat i)). split; [|split; [|done]].
  - destruct i as [|[|[|i]]]; [right; right; left|right; left|left|lia].
  - split; [done|]. exists (toy_cm [9]). split; [done|by vm_compute].
Qed.
(** A single malformed value (no header) stops the node. *)
Theorem C44_malformed_refuted : forall (E : Type) (apply : E -> dvalue -> option E) e0,
  exists v, read_run toy_sig E apply KBlock 0 (map (store_set 0) toy_cfg) 10 (rstart e0 (0, 0)) [v] = None.
Proof. intros E apply e0. by exists (DValue KBlock None None [] 0 true). Qed.

Example C44_example :
  let v n := DValue KBlock (Some (0, n)) (Some (toy_cm [9])) [n] 0 true in
  let bad := DValue KBlock (Some (0, 1)) (Some (Commits (Some (0, 1)) 0 (Some (0, [9])) (toy_sigs [8] [1; 2; 3]))) [7] 0 true in
  let run vs := read_run toy_sig (list bytes) (fun e v => Some (e ++ [dv_hash v])) KBlock 0 (map (store_set 0) toy_cfg) 10 (rstart [] (0, 0)) vs in
  (rn_engine <$> run [v 3; bad; v 1; v 1; v 5; v 2]) = Some [[1]; [2]; [3]] /\
  (rn_engine <$> run [v 1; v 2; v 3; v 5]) = Some [[1]; [2]; [3]].
Proof. by vm_compute. Qed.

(** ** C45 *)
Section C45.
  Context {E : Type} (confirmed : E -> height) (validate : E -> proposal -> bool) (commit : E -> proposal -> option E).

  (** Shard 0: what a decision commits has the decided hash and was built by this node or validated by it as the successor of the
      confirmed height of that moment. *)
  Theorem C45_block_validated my e0 is t sf t1 s c p t2 :
    prun E confirmed validate commit KBlock my (pstart e0) is = (t, sf) -> t = t1 ++ (s, IDecide c, ODecide (DCommit p)) :: t2 ->
    p_id p = ct_value c /\ (own t1 p \/ exists e, checked confirmed validate t1 e p).
  Proof. apply block_committed. Qed.

  (** When consensus decides heights in order, the engine state the value was validated against is the one it is committed on. *)
  Theorem C45_block_same_state my e0 is t sf t1 s c p t2 :
    engine_law confirmed commit -> in_order confirmed t ->
    prun E confirmed validate commit KBlock my (pstart e0) is = (t, sf) -> t = t1 ++ (s, IDecide c, ODecide (DCommit p)) :: t2 ->
    p_id p = ct_value c /\ (own t1 p \/ (checked confirmed validate t1 (pn_engine s) p /\ validate (pn_engine s) p = true /\ p_hdr p = h_inc (confirmed (pn_engine s)))).
  Proof.
    intros Hlaw Hord Hr Ht. destruct (block_committed _ _ _ _ _ _ _ _ _ _ _ _ _ Hr Ht) as [Hid [Hown|[e Hc]]]; split; try done; [by left|]. right.
    assert (Hc' := Hc). destruct Hc' as (s' & Hin & He & Hv & Hh). assert (Hp : p_hdr p = h_inc (confirmed (pn_engine s))).
    { apply (Hord s c p). rewrite Ht. apply elem_of_app. right. left. }
    destruct (trace_older confirmed validate commit KBlock my Hlaw is _ _ _ Hr Hord t1 s _ _ t2 Ht) as [_ Hold].
    destruct (Hold _ _ _ Hin) as [Heq|Hlt].
    - rewrite <- Heq, He. done.
    - exfalso. rewrite He in Hlt. apply h_ltb_lt in Hlt. assert (Hx : h_inc (confirmed e) = h_inc (confirmed (pn_engine s))) by congruence.
      destruct (confirmed e), (confirmed (pn_engine s)). unfold h_inc in Hx; cbn in *. injection Hx as ??. lia.
  Qed.

  (** A decision forgets the proposals listed at or below the decided height and no others. *)
  Theorem C45_decided_forgotten my (s s' : pnode E) c p : decide_value E commit my s c = (s', DCommit p) ->
    (forall h, pv_by_height (pn_vals s') !! h = if h_ltb (ct_height c) h then pv_by_height (pn_vals s) !! h else None) /\
    (forall k q, pv_values (pn_vals s') !! k = Some q <->
       pv_values (pn_vals s) !! k = Some q /\ forall h ks, pv_by_height (pn_vals s) !! h = Some ks -> k ∈ ks -> h_ltb (ct_height c) h = true).
  Proof.
    intros Hd. apply decide_commit in Hd as (_ & _ & ->). cbn [pn_vals pv_decide pv_by_height pv_values]. set (b := pv_by_height (pn_vals s)). set (vals := pv_values (pn_vals s)). split.
    - intros h. rewrite map_filter_lookup. unfold h_leb. destruct (b !! h) as [ks|]; cbn; [|by destruct (h_ltb _ _)].
      destruct (h_ltb (ct_height c) h); cbn; [by rewrite option_guard_True|by rewrite option_guard_False].
    - intros k q. assert (G : forall (l : list shash) (m : gmap shash proposal), fold_left (fun m k => delete k m) l m !! k = Some q <-> m !! k = Some q /\ k ∉ l).
      { intros l. induction l as [|x l IH]; intros m; cbn; [split; [intros H; split; [done|apply not_elem_of_nil]|by intros [? _]]|].
        rewrite IH, lookup_delete_Some, not_elem_of_cons. split; [intros ((? & ?) & ?)|intros (? & ? & ?)]; repeat split; done || congruence. }
      rewrite G. split; intros [H1 H2]; (split; [done|]).
      + intros h ks Hb Hk. destruct (h_ltb (ct_height c) h) eqn:El; [done|]. exfalso. apply H2. apply elem_of_list_In, in_concat.
        exists ks. split; [|by apply elem_of_list_In]. apply in_map_iff. exists (h, ks). split; [done|]. apply elem_of_list_In, elem_of_map_to_list.
        apply map_filter_lookup_Some. split; [done|]. unfold h_leb. cbn. by rewrite El.
      + intros Hk. apply elem_of_list_In, in_concat in Hk as (ks & Hks & Hk). apply in_map_iff in Hks as ([h ks'] & <- & Hin).
        apply elem_of_list_In, elem_of_map_to_list, map_filter_lookup_Some in Hin as [Hin Hle]. unfold h_leb in Hle. cbn in Hle.
        apply elem_of_list_In in Hk. cbn in Hk. rewrite (H2 h ks') in Hle by done. done.
  Qed.

  (** Data shards: the committed value is one that reached this node with that hash; if no two proposals claim one hash and this
      node answered valid for the hash, it is the value it validated.
      Missing: with two proposals claiming one hash this fails (below). *)
  Theorem C45_shard_partial my e0 is t sf t1 s c p t2 :
    prun E confirmed validate commit KShard my (pstart e0) is = (t, sf) -> t = t1 ++ (s, IDecide c, ODecide (DCommit p)) :: t2 ->
    p_id p = ct_value c /\ seen t1 p /\
    ((forall a b, seen t1 a -> seen t1 b -> p_id a = p_id b -> a = b) ->
     forall s' q, (s', IReceive q, OVerdict Valid) ∈ t1 -> p_id q = ct_value c ->
       p = q /\ validate (pn_engine s') p = true /\ p_hdr p = h_inc (confirmed (pn_engine s'))).
  Proof.
    intros Hr Ht. destruct (shard_committed _ _ _ _ _ _ _ _ _ _ _ _ _ Hr Ht) as [Hid Hs]. split; [done|]. split; [done|].
    intros Hu s' q Hq Hidq. assert (p = q) as <-; [|split; [done|]].
    - apply Hu; [done| |congruence]. right. eauto.
    - eapply shard_verdict; [exact Hr|]. rewrite Ht. apply elem_of_app. by left.
  Qed.
End C45.

(** A second proposal under the hash of a validated one replaces it before any check: the decision commits the value this node
    rejected. *)
Definition toy_prop (k : kind) (h : N) (body : N) : proposal := Proposal k (1, h) 0 (1, h) [9] body.
Theorem C45_equivocation_refuted : exists p q c,
  map (fun x => (x.1.2, x.2)) (prun N (fun n => (1, n)) (fun _ p => p_body p =? 5) (fun n _ => Some (n + 1)) KShard 1 (pstart 0)
    [IReceive q; IReceive p; IDecide c]).1 =
  [(IReceive q, OVerdict Valid); (IReceive p, OVerdict Invalid); (IDecide c, ODecide (DCommit p))] /\
  p_id q = ct_value c /\ p_body p <> p_body q.
Proof.
  exists (toy_prop KShard 1 6), (toy_prop KShard 1 5), (Cert (1, 1) 0 (1, [9]) [CSig [1] [1]]).
  split; [vm_compute; reflexivity|]. split; [vm_compute; reflexivity|done].
Qed.
(** The shard-0 proposer answers valid to a chunk without looking at it, and keeps nothing to commit. *)
Theorem C45_foreign_value_refuted : forall (E : Type) confirmed validate (s : pnode E) h r hdr hash body,
  block_add E confirmed validate s (Proposal KShard h r hdr hash body) = (s, Valid).
Proof. done. Qed.

Example C45_example :
  let run := prun N (fun n => (0, n)) (fun _ p => p_body p =? 5) (fun n _ => Some (n + 1)) KBlock 0 (pstart 0) in
  let p b := Proposal KBlock (0, 1) 0 (0, 1) [b] b in
  map snd (run [IReceive (p 6); IReceive (p 5); IDecide (Cert (0, 1) 0 (0, [6]) [CSig [1] [1]]); IDecide (Cert (0, 1) 0 (0, [5]) [CSig [1] [1]])]).1 =
  [OVerdict Invalid; OVerdict Valid; ODecide DNone; ODecide (DCommit (p 5))].
Proof. by vm_compute. Qed.

(** ** C47 *)
Theorem C47_every_shard_once num ids d h prev stores ws :
  stores_ok ids stores -> N.of_nat (length ids) = num -> ws = collect d num h prev stores -> ws <> [] -> map w_shard ws = ids.
Proof.
  intros [Hids Hok] Hn -> Hne. assert (Hsp := conj Hids Hok : stores_ok ids stores). revert Hne. unfold collect. destruct (_ =? num) eqn:En; [|done]. intros _.
  apply N.eqb_eq in En. rewrite <- Hn, <- Hids, map_length in En. apply Nat2N.inj in En. rewrite <- Hids.
  assert (Hf : forall sc w, sc ∈ stores -> (if d then pick_witness h prev sc.1 sc.2 else sc.2 h) = Some w -> w_shard w = sc.1).
  { intros [sh ch] w Hin Hw; cbn in Hw |- *. destruct d; [by eapply pick_witness_spec|]. by eapply Hok. }
  clear Hids Hn Hok Hsp. induction stores as [|sc r IH]; [done|]. cbn in En |- *.
  assert (Hle : (length (omap (λ sc, if d then pick_witness h prev sc.1 sc.2 else sc.2 h) r) <= length r)%nat).
  { clear. induction r as [|a r IH]; cbn; [lia|]. destruct (if d then _ else _); cbn; lia. }
  destruct (if d then pick_witness h prev sc.1 sc.2 else sc.2 h) as [w|] eqn:Ew; cbn in En |- *; [|lia].
  f_equal; [apply Hf; [left|done]|]. apply IH; [lia|]. intros; apply Hf; [by right|done].
Qed.

(** In consecutive blocks proposed by the node (legacy blocks first, then decoupled ones) the witnessed height of every shard stays
    or advances by exactly one. *)
Theorem C47_no_skip num ids steps i ws ws' :
  (forall j d stores, steps !! j = Some (d, stores) -> stores_ok ids stores) -> N.of_nat (length ids) = num ->
  (forall j d stores d' stores', steps !! j = Some (d, stores) -> steps !! S j = Some (d', stores') -> d = true -> d' = true) ->
  witness_run num 1 None steps !! i = Some ws -> witness_run num 1 None steps !! S i = Some ws' -> ws <> [] ->
  forall w', w' ∈ ws' -> exists w, w ∈ ws /\ w_shard w = w_shard w' /\ (w' = w \/ w_height w' = w_height w + 1).
Proof.
  intros Hok Hn Hflag H1 H2 Hne w' Hw'.
  destruct (witness_run_lookup _ _ _ _ _ _ H1) as (d & st & Hst & E1).
  destruct (witness_run_lookup _ _ _ _ _ _ H2) as (d' & st' & Hst' & E2).
  assert (Hw := Hw'). rewrite E2, H1 in Hw. apply collect_elem in Hw as (_ & sh & ch & Hin & Hp).
  destruct d'.
  - destruct (pick_witness_spec _ _ _ _ _ _ _ (Hok _ _ _ Hst') Hin Hp) as (Hsh & [[? _]|(wl & w0 & [= <-] & Hw0 & Hs0 & Hd)]); [lia|].
    exists w0. split; [done|]. split; [congruence|]. destruct Hd as [?|[_ ?]]; auto.
  - destruct (proj2 (Hok _ _ _ Hst') _ _ _ _ Hin Hp) as [Hsh Hhh].
    assert (d = false) as -> by (destruct d; [|done]; by rewrite (Hflag _ _ _ _ _ Hst Hst' eq_refl)).
    assert (Hids : map w_shard ws = ids) by (eapply C47_every_shard_once; [exact (Hok _ _ _ Hst)|done|exact E1|done]).
    assert (Hshin : sh ∈ ids) by (rewrite <- (proj1 (Hok _ _ _ Hst')); apply elem_of_list_fmap; by exists (sh, ch)).
    rewrite <- Hids in Hshin. apply elem_of_list_fmap in Hshin as (w & Ew & Hwin). exists w. split; [done|]. split; [congruence|]. right.
    rewrite E1 in Hwin. apply collect_elem in Hwin as (_ & sh0 & ch0 & Hin0 & Hp0).
    destruct (proj2 (Hok _ _ _ Hst) _ _ _ _ Hin0 Hp0) as [_ ->]. rewrite Hhh. lia.
Qed.

(** A block is not held back: when the next chunk of a shard is there, the decoupled path witnesses it. *)
Theorem C47_advances h prev sh ch w n : h <> 1 -> last_witness h prev sh = Some w -> ch (w_height w + 1) = Some n -> pick_witness h prev sh ch = Some n.
Proof. intros Hh Hl Hc. unfold pick_witness. destruct (N.eqb_spec h 1); [done|]. by rewrite Hl, Hc. Qed.

(** Validators do not check it: the checks on a received block accept witnesses that skip heights. *)
Theorem C47_received_refuted : exists num ws ws' w w', witnesses_checked num ws = true /\ witnesses_checked num ws' = true /\
  w ∈ ws /\ w' ∈ ws' /\ w_shard w = w_shard w' /\ w_height w + 1 < w_height w'.
Proof.
  exists 1, [Witness 1 4 [] []], [Witness 1 9 [] []], (Witness 1 4 [] []), (Witness 1 9 [] []). split; [done|]. split; [done|].
  split; [left|]. split; [left|]. by vm_compute.
Qed.

Example C47_example :
  let ch sh top n := if (1 <=? n) && (n <=? top) then Some (Witness sh n [n] [n]) else None in
  let st a b := [(1, ch 1 a); (2, ch 2 b)] in
  map (map w_height) (witness_run 2 1 None [(false, st 1 1); (false, st 2 3); (true, st 4 2); (true, st 4 3); (true, st 4 3)]) =
  [[1; 1]; [2; 2]; [3; 2]; [4; 3]; [4; 3]].
Proof. by vm_compute. Qed.

Print Assumptions C43_accept_iff.
Print Assumptions C43_sound.
Print Assumptions C43_complete_sorted.
Print Assumptions C43_quorums_intersect.
Print Assumptions C43_complete_refuted.
Print Assumptions C44_in_order.
Print Assumptions C44_none_lost.
Print Assumptions C44_order_irrelevant.
Print Assumptions C44_only_signed_refuted.
Print Assumptions C45_block_validated.
Print Assumptions C45_block_same_state.
Print Assumptions C45_shard_partial.
Print Assumptions C45_equivocation_refuted.
Print Assumptions C46_in_force.
Print Assumptions C46_same_config_agree.
Print Assumptions C46_rotation_heights.
Print Assumptions C46_rotation_rounds.
Print Assumptions C47_no_skip.
Print Assumptions C44_buffer_latest.
Print Assumptions C45_decided_forgotten.
