(** C126: blocks are chained by the hash of their parent. *)
From Verif Require Import ParentChain.
From Coq Require Import Lia ZifyN ZifyNat ZifyBool.
#[local] Open Scope N_scope.

(** What the first block of a chain names as its parent. *)
Definition first_parent (k : kind) : bytes := match k with KShard => [0; 32] | KBlock => GENESIS end.
(** Block [n] of the chain names the hash field of block [n - 1]. *)
Definition linked_at (k : kind) (m : chain) (n : N) (b : blk) : Prop :=
  if n =? 1 then hd_parent (bk_hdr b) = first_parent k else exists a, m !! (n - 1) = Some a /\ hd_parent (bk_hdr b) = bk_hash a.

Lemma top_le (m : chain) n b : m !! n = Some b -> n <= top m.
Proof.
  intros L. unfold top. assert (I : n ∈ map fst (map_to_list m)) by (apply elem_of_list_fmap; exists (n, b); split; [done|by apply elem_of_map_to_list]).
  induction (map fst (map_to_list m)) as [|x l IH]; [by apply elem_of_nil in I|]. cbn. apply elem_of_cons in I as [->|I]; [lia|]. specialize (IH I). lia.
Qed.
Lemma top_in (m : chain) : top m <> 0 -> is_Some (m !! top m).
Proof.
  unfold top. intros Z. assert (I : foldr N.max 0 (map fst (map_to_list m)) ∈ map fst (map_to_list m)).
  { induction (map fst (map_to_list m)) as [|x l IH]; [done|]. cbn in *. destruct (N.max_dec x (foldr N.max 0 l)) as [E|E]; rewrite E in Z |- *; [apply elem_of_list_here|]. right. by apply IH. }
  apply elem_of_list_fmap in I as ([n b] & E & I). apply elem_of_map_to_list in I. rewrite E. by exists b.
Qed.

Section P.
  Context (H : hdr -> bytes) (k : kind) (shard : N) (valid : chain -> height -> N -> N -> bool).
  Notation cstep := (cstep H k shard valid). Notation crun := (crun H k shard valid). Notation accept := (accept shard valid).
  Context (Hshard : shard = 0 <-> k = KBlock).

  Definition gapless (m : chain) : Prop := forall n, is_Some (m !! n) <-> 1 <= n <= top m.
  Lemma commit_next m b : gapless m -> h_num (hd_height (bk_hdr b)) = top m + 1 -> gapless (commit m b) /\ top (commit m b) = top m + 1.
  Proof.
    intros G E. unfold commit. rewrite E. assert (T : top (<[top m + 1:=b]> m) = top m + 1).
    { apply N.le_antisymm.
      - destruct (decide (top (<[top m + 1:=b]> m) = 0)) as [->|Z]; [lia|]. destruct (top_in _ Z) as [c C].
        apply lookup_insert_Some in C as [[<- _]|[_ C]]; [lia|]. apply top_le in C. lia.
      - apply (top_le _ _ b). apply lookup_insert. }
    split; [|done]. intros n. rewrite T. destruct (decide (n = top m + 1)) as [->|Hne]; [rewrite lookup_insert; split; [lia|by eexists]|].
    rewrite lookup_insert_ne by done. rewrite (G n). lia.
  Qed.
  Lemma accept_num m b : accept m b = true -> hd_height (bk_hdr b) = (shard, top m + 1).
  Proof. unfold ParentChain.accept, h_eqb, confirmed, h_inc. cbn [fst snd]. destruct (hd_height (bk_hdr b)) as [s n]. cbn [fst snd]. intros X. f_equal; lia. Qed.
  Lemma cstep_cases m o : cstep m o = m \/ exists b, cstep m o = commit m b /\ hd_height (bk_hdr b) = (shard, top m + 1).
  Proof.
    destruct o as [r x|b]; cbn [ParentChain.cstep]; [right; by eexists|]. destruct (accept m b) eqn:A; [|by left]. right. exists b. split; [done|]. by apply accept_num.
  Qed.
  Lemma gapless_step m o : gapless m -> gapless (cstep m o).
  Proof. intros G. destruct (cstep_cases m o) as [->|(b & -> & E)]; [done|]. apply commit_next; [done|by rewrite E]. Qed.
  Lemma gapless_init : gapless ∅.
  Proof. intros n. rewrite lookup_empty. unfold top. rewrite map_to_list_empty. cbn. split; [by intros [? ?]|lia]. Qed.
  Lemma crun_app os os' : crun (os ++ os') = foldl cstep (crun os) os'.
  Proof. unfold ParentChain.crun. apply foldl_app. Qed.
  Lemma gapless_run os : gapless (crun os).
  Proof.
    enough (G : forall m, gapless m -> gapless (foldl cstep m os)) by (apply G, gapless_init). induction os as [|o os IH]; intros m G; [done|]. cbn. apply IH. by apply gapless_step.
  Qed.
  Lemma kept_step m o n b : gapless m -> m !! n = Some b -> cstep m o !! n = Some b.
  Proof.
    intros G L. destruct (cstep_cases m o) as [->|(c & -> & E)]; [done|]. unfold commit. rewrite E. cbn [h_num snd]. rewrite lookup_insert_ne; [done|]. apply top_le in L. unfold h_num. cbn. lia.
  Qed.

  (** The numbers are the numbers from 1 to the last, and a block once stored stays. *)
  Theorem C126_no_gaps os n : is_Some (crun os !! n) <-> 1 <= n <= top (crun os).
  Proof. apply gapless_run. Qed.
  Theorem C126_kept os os' n b : crun os !! n = Some b -> crun (os ++ os') !! n = Some b.
  Proof.
    rewrite crun_app. pose proof (gapless_run os) as G. revert G. generalize (crun os). induction os' as [|o os' IH]; intros m G L; [done|].
    cbn. apply IH; [by apply gapless_step|by apply kept_step].
  Qed.
  (** Every block built by a correct proposer names the hash of the block before it, and carries the hash of its own header,
      whoever built the blocks before. *)
  Theorem C126_own_linked os r x os' : let m := crun (os ++ Own r x :: os') in let n := top (crun os) + 1 in
    exists b, m !! n = Some b /\ bk_hash b = H (bk_hdr b) /\ hd_height (bk_hdr b) = (shard, n) /\ hd_rest (bk_hdr b) = r /\ bk_rest b = x /\ linked_at k m n b.
  Proof.
    intros m n. set (b := build H k (crun os) (h_inc (confirmed shard (crun os))) r x). exists b.
    assert (S : crun (os ++ [Own r x]) = commit (crun os) b) by (rewrite crun_app; done).
    assert (K : forall j c, crun (os ++ [Own r x]) !! j = Some c -> m !! j = Some c).
    { intros j c J. unfold m. change (Own r x :: os') with ([Own r x] ++ os'). rewrite app_assoc. by apply C126_kept. }
    split; [apply K; rewrite S; unfold commit; apply lookup_insert|]. split; [done|]. split; [done|]. split; [done|]. split; [done|].
    unfold linked_at. destruct (n =? 1) eqn:N1; apply N.eqb_eq in N1 || apply N.eqb_neq in N1.
    - assert (T : top (crun os) = 0) by (unfold n in N1; lia). assert (L : last_blk (crun os) = None).
      { unfold last_blk. destruct (crun os !! top (crun os)) eqn:E; [|done]. assert (X : is_Some (crun os !! top (crun os))) by (by eexists). apply C126_no_gaps in X. lia. }
      unfold b, build. cbn [bk_hdr hd_parent]. unfold shard_parent, block_parent, first_parent. rewrite L. destruct k eqn:K0; [|done].
      unfold confirmed, h_inc, h_eqb. cbn [fst snd]. rewrite T. by rewrite (proj2 Hshard eq_refl).
    - assert (X : is_Some (crun os !! top (crun os))) by (apply C126_no_gaps; unfold n in N1; lia). destruct X as [a A]. exists a. split.
      + unfold n. replace (top (crun os) + 1 - 1) with (top (crun os)) by lia. unfold m. by apply C126_kept.
      + unfold b, build. cbn [bk_hdr hd_parent]. unfold shard_parent, block_parent, last_blk. rewrite A. destruct k; [|done].
        destruct (h_eqb _ _) eqn:Q; [|done]. unfold confirmed, h_inc, h_eqb in Q. cbn [fst snd] in Q. unfold n in N1. lia.
  Qed.

  (** A chain of blocks of correct proposers only is linked from the first block to the last. *)
  Theorem C126_linked os n b : forallb own os = true -> crun os !! n = Some b -> bk_hash b = H (bk_hdr b) /\ linked_at k (crun os) n b /\ hd_height (bk_hdr b) = (shard, n).
  Proof.
    revert n b. induction os as [|o os IH] using rev_ind; intros n b F L.
    { unfold ParentChain.crun in L. cbn in L. by rewrite lookup_empty in L. }
    rewrite forallb_app in F. apply andb_true_iff in F as [F O]. cbn in O. rewrite andb_true_r in O. destruct o as [r x|]; [|done].
    destruct (C126_own_linked os r x []) as (c & C1 & C2 & C3 & _ & _ & C6). cbn zeta in *.
    destruct (decide (n = top (crun os) + 1)) as [->|Hne]; [rewrite C1 in L; injection L as <-; done|].
    assert (L' : crun os !! n = Some b). { rewrite crun_app in L. cbn in L. unfold commit in L. cbn in L. by rewrite lookup_insert_ne in L by done. }
    destruct (IH n b F L') as (A & B & D). split; [done|]. split; [|done]. unfold linked_at in B |- *. destruct (n =? 1); [done|]. destruct B as (a & X & Y). exists a. split; [by apply C126_kept|done].
  Qed.

  (** Two such chains whose last blocks have the same hash are the same chain of headers, or two different headers with the same hash
      are among them. *)
  Definition headers (m : chain) : gmap N hdr := bk_hdr <$> m.
  Definition in_chain (m : chain) (h : hdr) : Prop := exists n b, m !! n = Some b /\ bk_hdr b = h.
  Lemma tip_down os os' : forallb own os = true -> forallb own os' = true ->
    forall d n n' b b', (N.to_nat n <= d)%nat -> crun os !! n = Some b -> crun os' !! n' = Some b' -> bk_hash b = bk_hash b' ->
    (n = n' /\ forall i, i <= n -> bk_hdr <$> crun os !! i = bk_hdr <$> crun os' !! i) \/
    exists h h', in_chain (crun os) h /\ in_chain (crun os') h' /\ h <> h' /\ H h = H h'.
  Proof.
    intros F F'. induction d as [|d IH]; intros n n' b b' D L L' E.
    { assert (X : is_Some (crun os !! n)) by (by eexists). apply C126_no_gaps in X. lia. }
    destruct (C126_linked os n b F L) as (A1 & A2 & A3), (C126_linked os' n' b' F' L') as (B1 & B2 & B3).
    destruct (decide (bk_hdr b = bk_hdr b')) as [Q|Q]; [|right; exists (bk_hdr b), (bk_hdr b'); split; [by exists n, b|split; [by exists n', b'|split; [done|congruence]]]].
    assert (n = n') as <- by congruence. unfold linked_at in A2, B2. destruct (n =? 1) eqn:N1; apply N.eqb_eq in N1 || apply N.eqb_neq in N1.
    - left. split; [done|]. intros i I. destruct (decide (i = n)) as [->|]; [rewrite L, L'; cbn; by rewrite Q|]. assert (i = 0) as -> by lia.
      assert (Z : forall o, crun o !! 0 = None). { intros o. destruct (crun o !! 0) eqn:Y; [|done]. assert (X : is_Some (crun o !! 0)) by (by eexists). apply C126_no_gaps in X. lia. }
      by rewrite !Z.
    - destruct A2 as (a & A & PA), B2 as (a' & B & PB). assert (X : is_Some (crun os !! n)) by (by eexists). apply C126_no_gaps in X.
      destruct (IH (n - 1) (n - 1) a a' ltac:(lia) A B ltac:(congruence)) as [[_ R]|R]; [|by right]. left. split; [done|]. intros i I.
      destruct (decide (i = n)) as [->|]; [rewrite L, L'; cbn; by rewrite Q|]. apply R. lia.
  Qed.
  Theorem C126_tip_names_history os os' b b' : forallb own os = true -> forallb own os' = true ->
    last_blk (crun os) = Some b -> last_blk (crun os') = Some b' -> bk_hash b = bk_hash b' ->
    headers (crun os) = headers (crun os') \/ exists h h', in_chain (crun os) h /\ in_chain (crun os') h' /\ h <> h' /\ H h = H h'.
  Proof.
    intros F F' L L' E. destruct (tip_down os os' F F' _ _ _ b b' (Nat.le_refl _) L L' E) as [[T R]|R]; [left|by right].
    apply map_eq. intros i. unfold headers. rewrite !lookup_fmap. destruct (decide (i <= top (crun os))) as [I|I]; [by apply R|].
    assert (Z : forall o, top (crun o) < i -> crun o !! i = None). { intros o O. destruct (crun o !! i) eqn:Y; [|done]. apply top_le in Y. lia. }
    rewrite !Z by lia. done.
  Qed.

  (** The claim that a node takes only blocks naming the block before them is false, always: neither the parent nor the hash field is
      looked at, so with one block every other block that differs there only is valid too. *)
  Theorem C126_parent_checked_refuted m p q h r s t x : accept m (Blk (Hdr p h r) s x) = accept m (Blk (Hdr q h r) t x).
  Proof. done. Qed.
  (** The next correct proposer then names whatever the block before claimed to be its hash. *)
  Theorem C126_claimed_hash_named os p r c x r' x' : let b := Blk (Hdr p (shard, top (crun os) + 1) r) c x in accept (crun os) b = true ->
    let m := crun (os ++ [Other b; Own r' x']) in exists n, m !! top m = Some n /\ m !! (top m - 1) = Some b /\ hd_parent (bk_hdr n) = c.
  Proof.
    intros b A m. assert (S : crun (os ++ [Other b]) = commit (crun os) b) by (rewrite crun_app; cbn [foldl ParentChain.cstep]; by rewrite A).
    destruct (commit_next (crun os) b (gapless_run os) eq_refl) as [_ T]. rewrite <- S in T.
    destruct (C126_own_linked (os ++ [Other b]) r' x' []) as (n & N1 & _ & _ & _ & _ & N6). cbn zeta in *. rewrite <- app_assoc in N1, N6. cbn [app] in N1, N6. fold m in N1, N6. rewrite T in N1, N6.
    assert (TM : top m = top (crun os) + 1 + 1).
    { unfold m. change [Other b; Own r' x'] with ([Other b] ++ [Own r' x']). rewrite app_assoc, crun_app. cbn [foldl ParentChain.cstep]. rewrite <- T. apply commit_next; [apply gapless_run|done]. }
    exists n. rewrite TM. split; [done|]. assert (B : m !! (top (crun os) + 1) = Some b).
    { unfold m. change [Other b; Own r' x'] with ([Other b] ++ [Own r' x']). rewrite app_assoc. apply C126_kept. rewrite S. unfold commit. apply lookup_insert. }
    replace (top (crun os) + 1 + 1 - 1) with (top (crun os) + 1) by lia. split; [done|]. unfold linked_at in N6.
    destruct (top (crun os) + 1 + 1 =? 1) eqn:Q; [lia|]. destruct N6 as (a & N6 & ->). replace (top (crun os) + 1 + 1 - 1) with (top (crun os) + 1) in N6 by lia. rewrite B in N6. by injection N6 as <-.
  Qed.
  (** A proposal is built on the last stored block, at whatever height it is asked for. *)
  Theorem C126_height_unchecked_refuted m a h r x : last_blk m = Some a -> h <> (0, 1) \/ k = KShard -> hd_parent (bk_hdr (build H k m h r x)) = bk_hash a.
  Proof.
    intros L Hh. unfold build. cbn [bk_hdr hd_parent]. unfold shard_parent, block_parent. rewrite L. destruct k; [|done]. destruct Hh as [Hh|]; [|done].
    destruct (h_eqb h (0, 1)) eqn:Q; [|done]. destruct h as [s n]. unfold h_eqb in Q. cbn [fst snd] in Q. destruct Hh. f_equal; lia.
  Qed.
End P.

(** With a proposer that is not correct, different histories have the same last block, whatever the hash function. *)
Theorem C126_same_tip_refuted : forall (H : hdr -> bytes) valid, (forall m h r x, valid m h r x = true) -> exists os os' b,
  let m := crun H KShard 1 valid os in let m' := crun H KShard 1 valid os' in
  last_blk m = Some b /\ last_blk m' = Some b /\ headers m <> headers m'.
Proof.
  intros H valid V.
  set (b1 r := Blk (Hdr [0; 32] (1, 1) r) [] 0). set (b2 := Blk (Hdr [7] (1, 2) 0) [7] 0).
  assert (R : forall r, crun H KShard 1 valid [Other (b1 r); Other b2] = <[2 := b2]> (<[1 := b1 r]> ∅)).
  { intros r. unfold crun. cbn [foldl cstep]. assert (A1 : accept 1 valid ∅ (b1 r) = true) by (unfold accept; by rewrite V). rewrite A1.
    assert (A2 : accept 1 valid (commit ∅ (b1 r)) b2 = true) by (unfold accept; by rewrite V). by rewrite A2. }
  exists [Other (b1 0); Other b2], [Other (b1 1); Other b2], b2. cbn zeta. rewrite !R.
  split; [done|]. split; [done|]. intros E. apply (f_equal (fun m : gmap N hdr => m !! 1)) in E. discriminate E.
Qed.

(** Three chunks of correct proposers; and one of a proposer that invents its parent and hash, followed by a correct one. *)
Definition exH (h : hdr) : bytes := repeat (hd_rest h + h_num (hd_height h)) 32.
Example C126_ex : let m := crun exH KShard 1 (fun _ _ r _ => r <? 50) [Own 5 0; Own 6 0; Other (Blk (Hdr [9] (1, 3) 60) [9] 0); Own 7 0] in
  top m = 3 /\ hd_parent <$> (headers m !! 1) = Some [0; 32] /\ hd_parent <$> (headers m !! 2) = Some (repeat 6 32) /\ hd_parent <$> (headers m !! 3) = Some (repeat 8 32).
Proof. by vm_compute. Qed.
Example C126_invented_ex : let m := crun exH KBlock 0 (fun _ _ r _ => r <? 50) [Own 5 0; Other (Blk (Hdr [9] (0, 2) 40) [4; 4] 0); Own 7 0] in
  top m = 3 /\ hd_parent <$> (headers m !! 1) = Some GENESIS /\ hd_parent <$> (headers m !! 2) = Some [9] /\ hd_parent <$> (headers m !! 3) = Some [4; 4].
Proof. by vm_compute. Qed.

Print Assumptions C126_no_gaps. Print Assumptions C126_kept. Print Assumptions C126_own_linked. Print Assumptions C126_linked.
Print Assumptions C126_tip_names_history. Print Assumptions C126_parent_checked_refuted. Print Assumptions C126_claimed_hash_named.
Print Assumptions C126_height_unchecked_refuted. Print Assumptions C126_same_tip_refuted.
