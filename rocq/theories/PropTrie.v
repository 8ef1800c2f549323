(** Properties C05-C10: the merkle trie. *)
From Verif Require Import TrieRun.
From Coq Require Import ZifyN ZifyNat ZifyBool.
#[local] Open Scope N_scope.

Section Reach.
  Context (H : bytes -> bytes) (order : list N -> list N) (os : list trie_op).
  Hypothesis order_perm : forall l, Permutation (order l) l.
  Hypothesis H_ne : forall x, H x <> [].
  Hypothesis ok : history_ok os = true.

  Lemma ok_parts : good_keys (ops_keys os) = true /\ no_misdirected_delete (ops_keys os) = true /\
    safe_commits (∅, ∅) false (map to_sop os) = true.
  Proof. unfold history_ok in ok. apply andb_prop in ok as [?%andb_prop ?]. tauto. Qed.
  Lemma reach : exists s d, trun H order trie_init os = Ok (answers os, s) /\
    BInv H (ops_keys os) s (final os).1 (final os).2 d.
  Proof.
    destruct ok_parts as (H1 & H2 & H3).
    apply BInv_run with (dirty := false); try done. by eapply BInv_init.
  Qed.
End Reach.
Ltac parts Hok := let H1 := fresh "Hg" in let H2 := fresh "Hn" in let H3 := fresh "Hs" in
  pose proof (ok_parts _ Hok) as (H1 & H2 & H3).

Lemma run_witness {A B E} (P : B -> bool) (o : res E (A * B)) :
  match o with Ok (_, s) => P s | _ => false end = true -> exists r s, o = Ok (r, s) /\ P s = true.
Proof. destruct o as [[r s]| |]; try done. intros HP. by exists r, s. Qed.

Lemma run_witness2 {A B C D E E2} `{EqDecision C} (f : B -> res E2 (C * D)) (c : C) (o : res E (A * B)) :
  match o with Ok (_, s) => match f s with Ok (c', _) => bool_decide (c' = c) | _ => false end | _ => false end = true ->
  exists r s d, o = Ok (r, s) /\ f s = Ok (c, d).
Proof.
  destruct o as [[r s]| |]; try done. destruct (f s) as [[c' d]| |] eqn:Ef; try done.
  intros ->%bool_decide_eq_true_1. by exists r, s, d.
Qed.

(** C05. After any history of inserts, deletes, commits and rollbacks the trie holds exactly the keys of the
    specification set, every call answers whether it changed the set, and no call fails. *)
Theorem C05_trie_is_a_set : forall H order os,
  (forall l, Permutation (order l) l) -> (forall x, H x <> []) -> history_ok os = true ->
  exists s, trun H order trie_init os = Ok (answers os, s) /\
    (forall k, bytes_ok k = true -> k <> [] -> trie_exists s k = Ok (bool_decide (k ∈ (final os).2))) /\
    trie_items s = N.of_nat (size (final os).2).
Proof.
  intros H order os Ho Hne Hok. parts Hok. destruct (reach H order os Ho Hne Hok) as (s & d & E & HB).
  exists s. split; [done|]. split.
  - intros k Hk Hk0. by eapply BInv_exists.
  - by eapply BInv_items.
Qed.

(** Two keys of fid 17 and two of fid 1, whose paths happen to continue 8 . path(fid 17). All four are keys of
    messages; [sha4] is the hash that assigns virtual shards. *)
Definition bad_sha4 (b : bytes) : N := if decide (b = [0; 0; 0; 17]) then 48 else 131.
Definition bad_k1 : bytes := trie_item_key bad_sha4 (TMessage 17 1 (repeat 0 20)).
Definition bad_k2 : bytes := trie_item_key bad_sha4 (TMessage 17 1 (16 :: repeat 0 19)).
Definition bad_v1 : bytes := trie_item_key bad_sha4 (TMessage 1 2 (128 :: repeat 0 19)).
Definition bad_v2 : bytes := trie_item_key bad_sha4 (TMessage 1 2 (129 :: repeat 0 19)).
Definition bad_history : list trie_op :=
  [TInsert bad_k1; TInsert bad_k2; TInsert bad_v1; TInsert bad_v2; TCommit; TDelete bad_k2; TCommit].

(** Without [no_misdirected_delete] C05 fails: deleting one key makes another, unrelated key vanish. *)
Theorem C05_misdirected_delete_refuted : exists H order os s rs k,
  (forall x, H x <> []) /\ (forall l, Permutation (order l) l) /\
  good_keys (ops_keys os) = true /\ safe_commits (∅, ∅) false (map to_sop os) = true /\
  trun H order trie_init os = Ok (rs, s) /\ k ∈ (final os).2 /\ trie_exists s k = Ok false.
Proof.
  exists (fun _ => [1]), (fun l => l), bad_history.
  destruct (run_witness (fun s => match trie_exists s bad_v1 with Ok b => negb b | _ => false end) (trun (fun _ => [1]) (fun l => l) trie_init bad_history))
    as (rs & s & E & HP); [by vm_compute|].
  exists s, rs, bad_v1. split; [done|]. split; [done|]. split; [by vm_compute|]. split; [by vm_compute|]. split; [exact E|].
  split.
  - apply (bool_decide_eq_true_1 _). by vm_compute.
  - by destruct (trie_exists s bad_v1) as [[]| |].
Qed.

(** Without [safe_commits]: committing right after the last key was deleted leaves a database whose root cannot be
    read back ([reload] fails, and both engines unwrap it). *)
Theorem C08_empty_commit_refuted : exists H order os k,
  (forall x, H x <> []) /\ (forall l, Permutation (order l) l) /\ good_keys (ops_keys os) = true /\
  no_misdirected_delete (ops_keys os) = true /\ os = [TInsert k; TCommit; TDelete k; TCommit] /\
  trun H order trie_init os = Err UnableToReloadRoot.
Proof.
  exists (fun _ => [1]), (fun l => l), [TInsert bad_k1; TCommit; TDelete bad_k1; TCommit], bad_k1.
  repeat split; done || by vm_compute.
Qed.

(** Keys for the further examples. *)
Definition ex_a : bytes := trie_item_key (fun _ => 7) (TMessage 1000 1 (repeat 1 20)).
Definition ex_b : bytes := trie_item_key (fun _ => 7) (TMessage 1000 1 (2 :: repeat 1 19)).
Definition ex_c : bytes := trie_item_key (fun _ => 9) (TFname 12 [97; 98]).

(** C06. The root is a function of the set of keys: neither the order of operations, nor the grouping into commits,
    nor the iteration order of hash maps matter. *)
Theorem C06_root_is_function_of_set : forall H order os s rs,
  (forall l, Permutation (order l) l) -> (forall x, H x <> []) -> history_ok os = true ->
  trun H order trie_init os = Ok (rs, s) -> trie_root_hash H s = spec_root H (final os).2.
Proof.
  intros H order os s rs Ho Hne Hok E. parts Hok. destruct (reach H order os Ho Hne Hok) as (s' & d & E' & HB).
  rewrite E in E'. injection E' as -> ->. by eapply BInv_root.
Qed.

Theorem C06_same_set_same_root : forall H order1 order2 os1 os2 s1 s2 rs1 rs2,
  (forall l, Permutation (order1 l) l) -> (forall l, Permutation (order2 l) l) -> (forall x, H x <> []) ->
  history_ok os1 = true -> history_ok os2 = true ->
  trun H order1 trie_init os1 = Ok (rs1, s1) -> trun H order2 trie_init os2 = Ok (rs2, s2) ->
  (final os1).2 = (final os2).2 -> trie_root_hash H s1 = trie_root_hash H s2.
Proof.
  intros H order1 order2 os1 os2 s1 s2 rs1 rs2 Ho1 Ho2 Hne Hk1 Hk2 E1 E2 Ef.
  rewrite (C06_root_is_function_of_set H order1 os1 s1 rs1), (C06_root_is_function_of_set H order2 os2 s2 rs2); try done. by rewrite Ef.
Qed.

(** C07. Counts and hashes by prefix, for prefixes of at most 6 bytes (the code asks for 5 and 6): the keys of the
    open transaction below the prefix, but the committed ones if there are none of the former. *)
Theorem C07_prefix_count : forall H order os s rs b,
  (forall l, Permutation (order l) l) -> (forall x, H x <> []) -> history_ok os = true ->
  trun H order trie_init os = Ok (rs, s) -> bytes_ok b = true -> (length b <= 6)%nat ->
  let X := if decide (below b (final os).2 = ∅) then (final os).1 else (final os).2 in
  get_count s b = N.of_nat (size (below b X)) /\ get_hash H s b = spec_node H b X.
Proof.
  intros H order os s rs b Ho Hne Hok E Hb Hl. parts Hok. destruct (reach H order os Ho Hne Hok) as (s' & d & E' & HB).
  rewrite E in E'. injection E' as -> ->.
  pose proof (BInv_lookup H order Ho Hne _ Hg Hn _ _ _ _ b HB Hb Hl) as [H1 H2].
  cbv zeta. rewrite H1, H2. unfold bvisible. by destruct (decide _).
Qed.

Theorem C07_prefix_count_committed : forall H order os s rs b,
  (forall l, Permutation (order l) l) -> (forall x, H x <> []) -> history_ok (os ++ [TCommit]) = true ->
  trun H order trie_init (os ++ [TCommit]) = Ok (rs, s) -> bytes_ok b = true -> (length b <= 6)%nat ->
  get_count s b = N.of_nat (size (below b (final os).2)) /\ get_hash H s b = spec_node H b (final os).2.
Proof.
  intros H order os s rs b Ho Hne Hok E Hb Hl.
  destruct (C07_prefix_count H order _ s rs b Ho Hne Hok E Hb Hl) as [H1 H2]. rewrite H1, H2.
  assert (Ef : final (os ++ [TCommit]) = ((final os).2, (final os).2)).
  { unfold final. clear. generalize (∅ : gset bytes, ∅ : gset bytes) as st. induction os as [|o os IH]; intros [com cur]; [done|].
    cbn [app map srun]. destruct (sstep (com, cur) (to_sop o)) as [r st]. specialize (IH st).
    destruct (srun st (map to_sop (os ++ [TCommit]))) as [? ?], (srun st (map to_sop os)) as [? ?]. done. }
  rewrite Ef. cbn [fst snd]. clear. destruct (decide (below b (final os).2 = ∅)); done.
Qed.

(** Inside an open transaction the count is wrong once every key below the prefix has been deleted: the deletion
    marker is ignored and the committed node is read (merkle_trie.rs:383-403). *)
Theorem C07_count_in_transaction_refuted : exists H order os s rs b,
  (forall x, H x <> []) /\ (forall l, Permutation (order l) l) /\ history_ok os = true /\ bytes_ok b = true /\ length b = 6%nat /\
  trun H order trie_init os = Ok (rs, s) /\ below b (final os).2 = ∅ /\ get_count s b = 1.
Proof.
  pose (os := [TInsert ex_a; TInsert ex_c; TCommit; TDelete ex_a]).
  exists (fun _ => [1]), (fun l => l), os.
  destruct (run_witness (fun s => get_count s (take 6 ex_a) =? 1) (trun (fun _ => [1]) (fun l => l) trie_init os))
    as (rs & s & E & HP); [by vm_compute|]. apply N.eqb_eq in HP.
  exists s, rs, (take 6 ex_a). split; [done|]. split; [done|]. split; [by vm_compute|]. split; [by vm_compute|]. split; [by vm_compute|]. split; [exact E|].
  split; [|exact HP]. apply (bool_decide_eq_true_1 _). by vm_compute.
Qed.

(** For prefixes longer than 6 bytes the node count is not the number of keys: paths are compressed there. *)
Theorem C07_long_prefix_refuted : exists H order os s rs b,
  (forall x, H x <> []) /\ (forall l, Permutation (order l) l) /\ history_ok os = true /\ bytes_ok b = true /\ length b = 7%nat /\
  trun H order trie_init os = Ok (rs, s) /\ size (below b (final os).2) = 1%nat /\ get_count s b = 0.
Proof.
  pose (os := [TInsert ex_a; TCommit]).
  exists (fun _ => [1]), (fun l => l), os.
  destruct (run_witness (fun s => get_count s (take 7 ex_a) =? 0) (trun (fun _ => [1]) (fun l => l) trie_init os))
    as (rs & s & E & HP); [by vm_compute|]. apply N.eqb_eq in HP.
  exists s, rs, (take 7 ex_a). split; [done|]. split; [done|]. split; [by vm_compute|]. split; [by vm_compute|]. split; [by vm_compute|]. split; [exact E|].
  split; [by vm_compute|exact HP].
Qed.

(** C08. Committing and reading the trie back from disk changes no observation: root, size, membership. *)
Theorem C08_commit_reload_transparent : forall H order os s rs,
  (forall l, Permutation (order l) l) -> (forall x, H x <> []) -> history_ok (os ++ [TCommit]) = true -> history_ok os = true ->
  trun H order trie_init os = Ok (rs, s) ->
  exists s', trie_commit s = Ok s' /\ trie_reload (ts_db s') = Ok s' /\
    trie_root_hash H s' = trie_root_hash H s /\ trie_items s' = trie_items s /\
    forall k, bytes_ok k = true -> k <> [] -> trie_exists s' k = trie_exists s k.
Proof.
  intros H order os s rs Ho Hne Hok' Hok E. parts Hok. destruct (reach H order os Ho Hne Hok) as (s0 & d & E' & HB).
  rewrite E in E'. injection E' as -> ->.
  destruct (reach H order _ Ho Hne Hok') as (s' & d' & E' & HB').
  assert (Ef : final (os ++ [TCommit]) = ((final os).2, (final os).2)).
  { unfold final. clear. generalize (∅ : gset bytes, ∅ : gset bytes) as st. induction os as [|o os IH]; intros [com cur]; [done|].
    cbn [app map srun]. destruct (sstep (com, cur) (to_sop o)) as [r st]. specialize (IH st).
    destruct (srun st (map to_sop (os ++ [TCommit]))) as [? ?], (srun st (map to_sop os)) as [? ?]. done. }
  assert (Hrun : forall a s1 rs1 s2, trun H order a os = Ok (rs1, s1) -> (exists rs2, trun H order a (os ++ [TCommit]) = Ok (rs2, s2)) ->
    trie_commit s1 = Ok s2).
  { clear. induction os as [|o os IH]; intros a s1 rs1 s2 E1 [rs2 E2]; cbn [app trun tstep] in *.
    - injection E1 as <- <-. destruct (trie_commit a); cbn in *; congruence.
    - destruct (tstep H order a o) as [[r a']| |]; try done.
      destruct (trun H order a' os) as [[? ?]| |] eqn:Ea; try done.
      destruct (trun H order a' (os ++ [TCommit])) as [[? ?]| |] eqn:Eb; try done.
      injection E1 as <- <-. injection E2 as <- <-. eapply IH; eauto. }
  pose proof (Hrun _ _ _ _ E (ex_intro _ _ E')) as Ec.
  assert (Hg' : ops_keys (os ++ [TCommit]) = ops_keys os).
  { unfold ops_keys. rewrite map_app, concat_app. cbn. by rewrite app_nil_r. }
  rewrite Ef, Hg' in HB'. cbn [fst snd] in HB'.
  exists s'. split; [done|]. split.
  { unfold trie_commit, trie_reload in *. destruct (commit (ts_db s0) (ts_txn s0) !! ROOT_KEY) eqn:Ed; [|done].
    injection Ec as <-. cbn [ts_db]. by rewrite Ed. }
  split; [|split].
  - rewrite (BInv_root H order Ho Hne _ Hg Hn _ _ _ _ HB), (BInv_root H order Ho Hne _ Hg Hn _ _ _ _ HB'). done.
  - erewrite (BInv_items H _ Hg), (BInv_items H _ Hg); [done|exact HB|exact HB'].
  - intros k Hk Hk0. erewrite (BInv_exists H order Ho Hne _ Hg Hn), (BInv_exists H order Ho Hne _ Hg Hn); [done|exact HB|done|done|exact HB'|done|done].
Qed.

(** A rollback returns to the last committed set. *)
Theorem C08_rollback : forall H order os s rs,
  (forall l, Permutation (order l) l) -> (forall x, H x <> []) -> history_ok os = true ->
  trun H order trie_init os = Ok (rs, s) ->
  exists s', trie_rollback s = Ok s' /\ trie_root_hash H s' = spec_root H (final os).1 /\
    trie_items s' = N.of_nat (size (final os).1) /\
    forall k, bytes_ok k = true -> k <> [] -> trie_exists s' k = Ok (bool_decide (k ∈ (final os).1)).
Proof.
  intros H order os s rs Ho Hne Hok E. parts Hok. destruct (reach H order os Ho Hne Hok) as (s0 & d & E' & HB).
  rewrite E in E'. injection E' as -> ->.
  destruct (BInv_step H order Ho Hne _ Hg Hn s0 _ _ d TRollback HB) as (s' & Es & HB'); [intros k Hk; inversion Hk|done|].
  cbn [tstep] in Es. destruct (trie_rollback s0) as [s1| |]; try done. injection Es as ->.
  exists s'. split; [done|]. split; [by eapply BInv_root|]. split; [by eapply BInv_items|].
  intros k Hk Hk0. by eapply BInv_exists.
Qed.

(** C09. Equal roots: equal sets, or two different strings among those hashed for the two roots collide. [L] is the
    length of a hash (20); the length of a key in nibbles must not be a multiple of it. *)
Theorem C09_equal_roots : forall H (L : nat) order1 order2 os1 os2 s1 s2 rs1 rs2,
  (0 < L)%nat -> (forall x, length (H x) = L) ->
  (forall l, Permutation (order1 l) l) -> (forall l, Permutation (order2 l) l) ->
  history_ok os1 = true -> history_ok os2 = true ->
  good_keys (ops_keys os1 ++ ops_keys os2) = true -> no_misdirected_delete (ops_keys os1 ++ ops_keys os2) = true ->
  Forall (fun k : bytes => (2 * length k) mod L <> 0)%nat (ops_keys os1 ++ ops_keys os2) ->
  trun H order1 trie_init os1 = Ok (rs1, s1) -> trun H order2 trie_init os2 = Ok (rs2, s2) ->
  trie_root_hash H s1 = trie_root_hash H s2 ->
  (final os1).2 = (final os2).2 \/
  exists x y, x ∈ spec_hashed H (final os1).2 /\ y ∈ spec_hashed H (final os2).2 /\ x <> y /\ H x = H y.
Proof.
  intros H L order1 order2 os1 os2 s1 s2 rs1 rs2 HL Hlen Ho1 Ho2 Hk1 Hk2 Hg Hn Hf E1 E2 Er.
  assert (Hne : forall x, H x <> []) by (intros x Ex; specialize (Hlen x); rewrite Ex in Hlen; cbn in Hlen; lia).
  rewrite (C06_root_is_function_of_set H order1 os1 s1 rs1), (C06_root_is_function_of_set H order2 os2 s2 rs2) in Er; try done.
  destruct (decide ((final os1).2 = (final os2).2)) as [|Hd]; [by left|right].
  assert (Hs1 : (final os1).2 ⊆ list_to_set (ops_keys os1)) by (destruct (reach H order1 os1 Ho1 Hne Hk1) as (? & ? & _ & _ & HB & _); exact HB).
  assert (Hs2 : (final os2).2 ⊆ list_to_set (ops_keys os2)) by (destruct (reach H order2 os2 Ho2 Hne Hk2) as (? & ? & _ & _ & HB & _); exact HB).
  eapply (collide_bytes H order1 Ho1 Hne (ops_keys os1 ++ ops_keys os2) Hg Hn L); try done.
  - intros k Hk. unfold B. rewrite elem_of_list_to_set, elem_of_app. left. by apply (elem_of_list_to_set (C := gset bytes)), Hs1.
  - intros k Hk. unfold B. rewrite elem_of_list_to_set, elem_of_app. right. by apply (elem_of_list_to_set (C := gset bytes)), Hs2.
  - intros k m Hk Em. unfold B in Hk. apply elem_of_list_to_set in Hk. rewrite Forall_forall in Hf. apply (Hf k Hk).
    rewrite Em. apply Nat.mod_mul. lia.
Qed.

(** The keys the engines use satisfy the length condition of [C09_equal_roots] for 20-byte hashes. *)
Theorem C09_key_lengths : forall sha4 i, item_ok i = true -> ((2 * length (trie_item_key sha4 i)) mod 20 <> 0)%nat.
Proof.
  intros sha4 i Hi.
  assert (length (trie_item_key sha4 i) = 26 \/ length (trie_item_key sha4 i) = 42)%nat as [-> | ->]; [|done|done].
  rewrite item_key_eq by done. unfold for_fid, make_fid_key. rewrite app_length. cbn [length]. rewrite be_length.
  destruct i as [fid ty h|fid ty tx li|fid name]; cbn [item_ok item_rest length] in *;
    repeat match goal with H : _ && _ = true |- _ => apply andb_prop in H as [? ?] end;
    repeat match goal with H : Nat.eqb _ _ = true |- _ => apply Nat.eqb_eq in H end;
    rewrite ?app_length, ?be_length, ?repeat_length;
    repeat match goal with H : Nat.leb _ _ = true |- _ => apply Nat.leb_le in H end; lia.
Qed.

(** C10. A batch insert adds all its keys, and as many flags are set as keys were new. *)
Theorem C10_batch_insert_count : forall H order os s rs keys,
  (forall l, Permutation (order l) l) -> (forall x, H x <> []) -> history_ok os = true ->
  trun H order trie_init os = Ok (rs, s) -> keys <> [] ->
  good_keys (keys ++ ops_keys os) = true -> no_misdirected_delete (keys ++ ops_keys os) = true ->
  exists fl s', trie_insert H order s keys = Ok (fl, s') /\ length fl = length keys /\
    count_true fl = N.of_nat (size (list_to_set keys ∖ (final os).2 : gset bytes)) /\
    trie_root_hash H s' = spec_root H ((final os).2 ∪ list_to_set keys).
Proof.
  intros H order os s rs keys Ho Hne Hok E Hk0 Hg Hn. parts Hok.
  assert (Hin : forall k, k ∈ ops_keys os -> k ∈ keys ++ ops_keys os) by (intros k Hk; apply elem_of_app; by right).
  destruct (BInv_run H order Ho Hne _ Hg Hn os trie_init ∅ ∅ false) as (s' & d & E' & HB).
  { by eapply BInv_init. } { exact Hin. } { exact Hs. }
  rewrite E in E'. injection E' as -> ->.
  destruct (BInv_insert H order Ho Hne _ Hg Hn s' _ _ d keys HB Hk0) as (fl & s2 & E2 & L & C & HB2).
  { intros k Hk. apply elem_of_app. by left. }
  exists fl, s2. split; [done|]. split; [done|]. split; [done|]. exact (BInv_root H order Ho Hne _ Hg Hn _ _ _ _ HB2).
Qed.

(** A single-key insert answers exactly whether the key is new: see [C05_trie_is_a_set]. With several keys the flags
    do not line up with the keys: here the second key is new, and its flag
    says it is not. *)
Theorem C10_flags_refuted : exists H order os s rs k1 k2 s',
  (forall x, H x <> []) /\ (forall l, Permutation (order l) l) /\ history_ok os = true /\
  good_keys ([k1; k2; k1] ++ ops_keys os) = true /\ no_misdirected_delete ([k1; k2; k1] ++ ops_keys os) = true /\
  trun H order trie_init os = Ok (rs, s) /\ k2 ∉ (final os).2 /\ k1 <> k2 /\
  trie_insert H order s [k1; k2; k1] = Ok ([true; false; true], s').
Proof.
  exists (fun _ => [1]), (fun l => l), [TInsert ex_c; TCommit].
  destruct (run_witness2 (fun s => trie_insert (fun _ => [1]) (fun l => l) s [ex_a; ex_b; ex_a]) [true; false; true]
    (trun (fun _ => [1]) (fun l => l) trie_init [TInsert ex_c; TCommit])) as (rs & s & s' & E & HP); [by vm_compute|].
  exists s, rs, ex_a, ex_b, s'.
  split; [done|]. split; [done|]. split; [by vm_compute|]. split; [by vm_compute|]. split; [by vm_compute|].
  split; [exact E|]. split; [apply (bool_decide_eq_true_1 _); by vm_compute|].
  split; [apply (bool_decide_eq_true_1 _); by vm_compute|exact HP].
Qed.

(** The hypotheses are satisfiable by a history with deletions, re-insertion, compaction and a rollback. *)
Example trie_history_ok :
  let ka := trie_item_key (fun _ => 7) (TMessage 1000 1 (repeat 1 20)) in
  let kb := trie_item_key (fun _ => 7) (TMessage 1000 1 (repeat 2 20)) in
  let kc := trie_item_key (fun _ => 9) (TFname 12 [97; 98]) in
  let kd := trie_item_key (fun _ => 9) (TOnchain 12 3 (repeat 5 32) 4) in
  let os := [TInsert ka; TInsert kb; TCommit; TInsert kc; TDelete ka; TRollback; TDelete kb; TInsert kd; TCommit; TDelete kd; TInsert ka; TCommit] in
  history_ok os = true /\ (final os).2 = {[ka]} /\
  answers os = [[true]; [true]; []; [true]; [true]; []; [true]; [true]; []; [true]; [false]; []].
Proof. cbv zeta. split; [by vm_compute|]. split; [apply (bool_decide_eq_true_1 _); by vm_compute|by vm_compute]. Qed.

Print Assumptions C05_trie_is_a_set.
Print Assumptions C05_misdirected_delete_refuted.
Print Assumptions C06_same_set_same_root.
Print Assumptions C07_prefix_count.
Print Assumptions C07_prefix_count_committed.
Print Assumptions C07_count_in_transaction_refuted.
Print Assumptions C07_long_prefix_refuted.
Print Assumptions C08_commit_reload_transparent.
Print Assumptions C08_rollback.
Print Assumptions C08_empty_commit_refuted.
Print Assumptions C09_equal_roots.
Print Assumptions C09_key_lengths.
Print Assumptions C10_batch_insert_count.
Print Assumptions C10_flags_refuted.
