(** Proofs about the read-node sync model. *)
From stdpp Require Import gmap fin_sets sets.
From Coq Require Import NArith List Lia ZifyN ZifyNat ZifyBool.
From Verif Require Import ReadSync.
#[local] Open Scope N_scope.

(** Request ids handed out while a list of messages is handled. *)
Definition orc_ids (o : orc) : list N := omap sd_id (o_sends o).
Fixpoint ids (l : list (rmsg * orc)) : list N :=
  match l with [] => [] | (_, o) :: l' => orc_ids o ++ ids l' end.

Lemma ids_app l1 l2 : ids (l1 ++ l2) = ids l1 ++ ids l2.
Proof. induction l1 as [|[m o] l1 IH]; [done|]. cbn. by rewrite IH, app_assoc. Qed.

Lemma rrun_app s l1 l2 :
  rrun s (l1 ++ l2) =
  match rrun s l1 with
  | Dead => Dead
  | Alive s1 o1 => match rrun s1 l2 with Alive s2 o2 => Alive s2 (o1 ++ o2) | Dead => Dead end
  end.
Proof.
  revert s. induction l1 as [|[m o] l1 IH]; intros s; cbn.
  - by destruct (rrun s l2).
  - destruct (rstep s m o) as [s1 o1|]; [|done]. rewrite IH.
    destruct (rrun s1 l1) as [s2 o2|]; [|done]. destruct (rrun s2 l2); [|done]. by rewrite app_assoc.
Qed.

(** *** process keeps everything but height, timers and in-flight requests *)
Lemma sends_same l s :
  let s' := fold_left do_send l s in
  rs_peers s' = rs_peers s /\ rs_height s' = rs_height s /\ rs_done s' = rs_done s /\ rs_conn s' = rs_conn s.
Proof.
  revert s. induction l as [|x l IH]; intros s; cbn; [done|].
  specialize (IH (do_send s x)). cbn in IH. destruct IH as (A & B & C & D). rewrite A, B, C, D.
  unfold do_send. by destruct (sd_id x).
Qed.
Lemma process_same s o :
  rs_peers (process s o) = rs_peers s /\ rs_height (process s o) = o_height o /\
  rs_done (process s o) = rs_done s /\ rs_conn (process s o) = rs_conn s.
Proof.
  unfold process.
  destruct (sends_same (o_sends o) (RState (rs_peers s) (o_height o) (rs_timers s) (rs_inflight s) (rs_done s) (rs_conn s)))
    as (A & B & C & D). done.
Qed.

(** *** the in-flight table *)
Lemma sends_inflight l s id :
  id ∉ omap sd_id l ->
  rs_inflight (fold_left do_send l s) !! id = rs_inflight s !! id /\
  (id ∈ rs_timers (fold_left do_send l s) <-> id ∈ rs_timers s).
Proof.
  revert s. induction l as [|x l IH]; intros s H; cbn; [done|].
  cbn in H. assert (H2 : id ∉ omap sd_id l) by (destruct (sd_id x); set_solver).
  destruct (IH (do_send s x) H2) as [A B]. rewrite A, B. unfold do_send. destruct (sd_id x) as [i|] eqn:E; [|done].
  cbn. rewrite lookup_insert_ne by set_solver. split; [done|]. set_solver.
Qed.
Lemma process_inflight s o id :
  id ∉ orc_ids o ->
  rs_inflight (process s o) !! id = rs_inflight s !! id /\ (id ∈ rs_timers (process s o) <-> id ∈ rs_timers s).
Proof. intros H. unfold process. by destruct (sends_inflight (o_sends o) (RState (rs_peers s) (o_height o) (rs_timers s) (rs_inflight s) (rs_done s) (rs_conn s)) id H). Qed.

Lemma fc_same s : let '(d, s') := first_completed s in
  rs_peers s' = rs_peers s /\ rs_height s' = rs_height s /\ rs_timers s' = rs_timers s /\
  rs_inflight s' = rs_inflight s /\ rs_conn s' = rs_conn s /\ rs_done s' = (rs_done s || d)%bool.
Proof.
  unfold first_completed. destruct (rs_done s) eqn:E; [by rewrite E|].
  destruct (bool_decide _); [by rewrite E|]. done.
Qed.

Lemma step_leak s m o s' out id x :
  rstep s m o = Alive s' out -> id ∉ orc_ids o ->
  id ∉ rs_timers s -> rs_inflight s !! id = Some x ->
  id ∉ rs_timers s' /\ rs_inflight s' !! id = Some x.
Proof.
  intros R H T I. unfold rstep in R.
  assert (P : forall s0, rs_timers s0 ⊆ rs_timers s -> rs_inflight s0 !! id = rs_inflight s !! id ->
            id ∉ rs_timers (process s0 o) /\ rs_inflight (process s0 o) !! id = Some x).
  { intros s0 A B. destruct (process_inflight s0 o id H) as [C D]. rewrite C, D, B. split; [set_solver|done]. }
  destruct m as [|p|p|p h mn| |i p v|i p| |h| |i].
  - injection R as <- <-. by apply P.
  - injection R as <- <-. done.
  - injection R as <- <-. done.
  - destruct (bool_decide _); injection R as <- <-; [|done]. by apply P.
  - injection R as <- <-. by apply P.
  - destruct v as [v|]; [|done].
    destruct (if rv_shard v =? 0 then rv_block_ok v else rv_chunk_ok v); [|done].
    match type of R with context [first_completed ?z] => pose proof (fc_same z) as F; destruct (first_completed z) as [d s2] end.
    injection R as <- <-. destruct F as (_ & _ & A & B & _ & _). rewrite A, B. apply P; [cbn; set_solver|done].
  - injection R as <- <-. cbn. split; [set_solver|done].
  - injection R as <- <-. done.
  - injection R as <- <-. by apply P.
  - injection R as <- <-. by apply P.
  - destruct (bool_decide_reflect (i ∈ rs_timers s)) as [Hi|Hi]; [|injection R as <- <-; done].
    assert (i <> id) by (intros ->; done).
    destruct (rs_inflight s !! i) as [[p h]|] eqn:E; injection R as <- <-.
    + apply P; cbn; [set_solver|]. by rewrite lookup_delete_ne.
    + cbn. split; [set_solver|done].
Qed.

Lemma run_leak l : forall s s' out id x,
  rrun s l = Alive s' out -> id ∉ ids l ->
  id ∉ rs_timers s -> rs_inflight s !! id = Some x ->
  id ∉ rs_timers s' /\ rs_inflight s' !! id = Some x.
Proof.
  induction l as [|[m o] l IH]; intros s s' out id x R H T I; cbn in R.
  - injection R as <- <-. done.
  - destruct (rstep s m o) as [s1 o1|] eqn:E; [|done]. destruct (rrun s1 l) as [s2 o2|] eqn:E2; [|done].
    injection R as <- <-. cbn in H. apply not_elem_of_app in H as [H1 H2].
    destruct (step_leak _ _ _ _ _ _ _ E H1 T I) as [A B]. by eapply IH.
Qed.

Lemma answered_off s id p v o s' out :
  rstep s (MValueResponse id p v) o = Alive s' out -> id ∉ orc_ids o -> id ∉ rs_timers s' /\ rs_inflight s' !! id = rs_inflight s !! id.
Proof.
  intros R H. cbn in R. destruct v as [v|]; [|done].
  destruct (if rv_shard v =? 0 then rv_block_ok v else rv_chunk_ok v); [|done].
  match type of R with context [first_completed ?z] => pose proof (fc_same z) as F; destruct (first_completed z) as [d s2] end.
  injection R as <- <-. destruct F as (_ & _ & A & B & _ & _). rewrite A, B.
  match goal with |- context [process ?z o] => destruct (process_inflight z o id H) as [C D]; rewrite C, D end. cbn.
  split; [set_solver|done].
Qed.

(** *** counting *)
Definition is_to (x : rout) : bool := match x with OTimedOut _ _ => true | _ => false end.
Definition is_init (x : rout) : bool := match x with OInitialSyncCompleted => true | _ => false end.
Definition count (f : rout -> bool) (l : list rout) : nat := length (List.filter f l).
Lemma count_app f a b : count f (a ++ b) = (count f a + count f b)%nat.
Proof. unfold count. by rewrite List.filter_app, app_length. Qed.

Lemma size_insert_le (m : gmap N (N * N)) i x : (size (<[i := x]> m) <= S (size m))%nat.
Proof. rewrite map_size_insert. destruct (m !! i); [apply Nat.le_succ_diag_r|done]. Qed.
Lemma sends_size l s : (size (rs_inflight (fold_left do_send l s)) <= size (rs_inflight s) + length (omap sd_id l))%nat.
Proof.
  revert s. induction l as [|x l IH]; intros s; cbn; [lia|].
  specialize (IH (do_send s x)).
  assert (H : (size (rs_inflight (do_send s x)) + length (omap sd_id l) <=
               size (rs_inflight s) + length (match sd_id x with Some i => i :: omap sd_id l | None => omap sd_id l end))%nat).
  { unfold do_send. destruct (sd_id x) as [i|]; [|done]. cbn [rs_inflight length].
    pose proof (size_insert_le (rs_inflight s) i (sd_peer x, sd_height x)). lia. }
  etrans; [exact IH|exact H].
Qed.
Lemma process_size s o : (size (rs_inflight (process s o)) <= size (rs_inflight s) + length (orc_ids o))%nat.
Proof. unfold process. etrans; [apply sends_size|]. done. Qed.

Lemma step_size s m o s' out :
  rstep s m o = Alive s' out ->
  (size (rs_inflight s') + count is_to out <= size (rs_inflight s) + length (orc_ids o))%nat.
Proof.
  intros R. unfold rstep in R.
  assert (P : forall s0, (size (rs_inflight s0) <= size (rs_inflight s))%nat ->
            (size (rs_inflight (process s0 o)) <= size (rs_inflight s) + length (orc_ids o))%nat).
  { intros s0 A. pose proof (process_size s0 o). lia. }
  destruct m as [|p|p|p h mn| |i p v|i p| |h| |i].
  - injection R as <- <-. cbn. specialize (P s). lia.
  - injection R as <- <-. cbn. lia.
  - injection R as <- <-. cbn. lia.
  - destruct (bool_decide _); injection R as <- <-; cbn [count]; unfold count; cbn [List.filter length]; [|lia].
    rewrite Nat.add_0_r. apply P. done.
  - injection R as <- <-. cbn. specialize (P s). lia.
  - destruct v as [v|]; [|done].
    destruct (if rv_shard v =? 0 then rv_block_ok v else rv_chunk_ok v); [|done].
    match type of R with context [first_completed ?z] => pose proof (fc_same z) as F; destruct (first_completed z) as [d s2] end.
    injection R as <- <-. destruct F as (_ & _ & _ & B & _ & _). rewrite B.
    replace (count is_to _) with 0%nat by (unfold count; by destruct d). rewrite Nat.add_0_r. apply P. done.
  - injection R as <- <-. cbn. lia.
  - injection R as <- <-. cbn. lia.
  - injection R as <- <-. cbn. specialize (P s). lia.
  - injection R as <- <-. cbn. specialize (P s). lia.
  - destruct (bool_decide _); [|injection R as <- <-; cbn; lia].
    destruct (rs_inflight s !! i) as [[p h]|] eqn:E; injection R as <- <-.
    + match goal with |- context [process ?z o] => pose proof (process_size z o) as Q end. cbn [rs_inflight] in Q.
      rewrite map_size_delete, E in Q. change (count is_to [OTimedOut p h]) with 1%nat.
      assert (0 < size (rs_inflight s))%nat; [|cbn in Q; lia].
      destruct (decide (size (rs_inflight s) = 0%nat)) as [Z|Z]; [|lia].
      apply map_size_empty_inv in Z. rewrite Z in E. done.
    + cbn. lia.
Qed.
Lemma run_size l : forall s s' out,
  rrun s l = Alive s' out ->
  (size (rs_inflight s') + count is_to out <= size (rs_inflight s) + length (ids l))%nat.
Proof.
  induction l as [|[m o] l IH]; intros s s' out R; cbn in R.
  - injection R as <- <-. cbn. lia.
  - destruct (rstep s m o) as [s1 o1|] eqn:E; [|done]. destruct (rrun s1 l) as [s2 o2|] eqn:E2; [|done].
    injection R as <- <-. rewrite count_app. cbn [ids]. rewrite app_length.
    pose proof (step_size _ _ _ _ _ E). pose proof (IH _ _ _ E2). lia.
Qed.

(** *** peers are connected *)
Lemma step_conn s m o s' out :
  rstep s m o = Alive s' out -> dom (rs_peers s) ⊆ rs_conn s -> dom (rs_peers s') ⊆ rs_conn s'.
Proof.
  intros R I. unfold rstep in R.
  assert (P : forall s0, dom (rs_peers s0) ⊆ rs_conn s0 -> dom (rs_peers (process s0 o)) ⊆ rs_conn (process s0 o)).
  { intros s0 A. destruct (process_same s0 o) as (B & _ & _ & C). by rewrite B, C. }
  destruct m as [|p|p|p h mn| |i p v|i p| |h| |i].
  - injection R as <- <-. by apply P.
  - injection R as <- <-. cbn. rewrite dom_delete_L. set_solver.
  - injection R as <- <-. cbn. set_solver.
  - destruct (bool_decide_reflect (p ∈ rs_conn s)); injection R as <- <-; [|done].
    apply P. cbn. rewrite dom_insert_L. set_solver.
  - injection R as <- <-. by apply P.
  - destruct v as [v|]; [|done].
    destruct (if rv_shard v =? 0 then rv_block_ok v else rv_chunk_ok v); [|done].
    match type of R with context [first_completed ?z] => pose proof (fc_same z) as F; destruct (first_completed z) as [d s2] end.
    injection R as <- <-. destruct F as (A & _ & _ & _ & B & _). rewrite A, B. by apply P.
  - injection R as <- <-. done.
  - injection R as <- <-. done.
  - injection R as <- <-. by apply P.
  - injection R as <- <-. by apply P.
  - destruct (bool_decide _); [|injection R as <- <-; done].
    destruct (rs_inflight s !! i) as [[p h]|] eqn:E; injection R as <- <-; [by apply P|done].
Qed.
Lemma run_conn l : forall s s' out,
  rrun s l = Alive s' out -> dom (rs_peers s) ⊆ rs_conn s -> dom (rs_peers s') ⊆ rs_conn s'.
Proof.
  induction l as [|[m o] l IH]; intros s s' out R I; cbn in R.
  - by injection R as <- <-.
  - destruct (rstep s m o) as [s1 o1|] eqn:E; [|done]. destruct (rrun s1 l) as [s2 o2|] eqn:E2; [|done].
    injection R as <- <-. eapply IH; [done|]. by eapply step_conn.
Qed.

(** *** the announcement *)
Lemma step_init s m o s' out :
  rstep s m o = Alive s' out ->
  (OInitialSyncCompleted ∈ out /\ rs_done s = false /\ rs_done s' = true /\ count is_init out = 1%nat /\
   rs_peers s' <> ∅ /\ peer_with_value s' (rs_height s' + 10) = false /\
   exists id p v, m = MValueResponse id p (Some v)) \/
  (OInitialSyncCompleted ∉ out /\ rs_done s' = rs_done s /\ count is_init out = 0%nat).
Proof.
  intros R. unfold rstep in R.
  assert (P : forall s0, rs_done s0 = rs_done s -> rs_done (process s0 o) = rs_done s).
  { intros s0 A. destruct (process_same s0 o) as (_ & _ & B & _). by rewrite B. }
  assert (NI : OInitialSyncCompleted ∉ ([] : list rout)) by apply not_elem_of_nil.
  destruct m as [|p|p|p h mn| |i p v|i p| |h| |i]; try (injection R as <- <-; right; by auto).
  - destruct (bool_decide _); injection R as <- <-; right; split; auto.
  - destruct v as [v|]; [|done].
    destruct (if rv_shard v =? 0 then rv_block_ok v else rv_chunk_ok v); [|done].
    match type of R with context [first_completed ?z] => set (z0 := z) in * end.
    assert (D : rs_done z0 = rs_done s) by (by apply P). clearbody z0.
    unfold first_completed in R. destruct (rs_done z0) eqn:E.
    + injection R as <- <-. right. split; [|by rewrite E, D]. intros X. apply elem_of_list_singleton in X. done.
    + destruct (bool_decide_reflect (rs_peers z0 = ∅)) as [Hp|Hp].
      * injection R as <- <-. right. split; [|by rewrite E, D]. intros X. apply elem_of_list_singleton in X. done.
      * destruct (peer_with_value z0 (rs_height z0 + 10)) eqn:Q; cbn in R; injection R as <- <-.
        -- right. split; [|by rewrite D]. intros X. apply elem_of_list_singleton in X. done.
        -- left. split; [set_solver|]. split; [done|]. split; [done|]. split; [done|]. split; [done|].
           split; [exact Q|]. by exists i, p, v.
  - destruct (bool_decide _); [|injection R as <- <-; right; by auto].
    destruct (rs_inflight s !! i) as [[p h]|] eqn:E; injection R as <- <-; right; [|by auto].
    split; [|split; [by apply P|done]]. intros X. apply elem_of_list_singleton in X. done.
Qed.
Lemma run_once l : forall s s' out,
  rrun s l = Alive s' out ->
  (count is_init out <= if rs_done s then 0 else 1)%nat /\
  (rs_done s' = true <-> rs_done s = true \/ OInitialSyncCompleted ∈ out).
Proof.
  induction l as [|[m o] l IH]; intros s s' out R; cbn in R.
  - injection R as <- <-. split; [cbn; lia|]. split; [by left|]. intros [H|H]; [done|]. by apply not_elem_of_nil in H.
  - destruct (rstep s m o) as [s1 o1|] eqn:E; [|done]. destruct (rrun s1 l) as [s2 o2|] eqn:E2; [|done].
    injection R as <- <-. rewrite count_app. destruct (IH _ _ _ E2) as [A B]. rewrite B, elem_of_app.
    destruct (step_init _ _ _ _ _ E) as [(H1 & H2 & H3 & H4 & _)|(H1 & H2 & H3)].
    + rewrite H3 in A. rewrite H2, H4. split; [lia|]. rewrite H3. tauto.
    + rewrite H2 in *. rewrite H3. split; [lia|]. tauto.
Qed.
Lemma run_init_at l : forall s s' out,
  rrun s l = Alive s' out -> OInitialSyncCompleted ∈ out ->
  exists l1 id p v o l2 s1 out1 s2 out2,
    l = l1 ++ (MValueResponse id p (Some v), o) :: l2 /\ rrun s l1 = Alive s1 out1 /\
    rstep s1 (MValueResponse id p (Some v)) o = Alive s2 out2 /\
    rs_peers s2 <> ∅ /\ peer_with_value s2 (rs_height s2 + 10) = false.
Proof.
  induction l as [|[m o] l IH]; intros s s' out R H; cbn in R.
  - injection R as <- <-. by apply not_elem_of_nil in H.
  - destruct (rstep s m o) as [s1 o1|] eqn:E; [|done]. destruct (rrun s1 l) as [s2 o2|] eqn:E2; [|done].
    injection R as <- <-. destruct (step_init _ _ _ _ _ E) as [(_ & _ & _ & _ & H5 & H6 & (id & p & v & ->))|(H1 & _)].
    + exists [], id, p, v, o, l, s, [], s1, o1. done.
    + apply elem_of_app in H as [H|H]; [done|].
      destruct (IH _ _ _ E2 H) as (l1 & id & p & v & o' & l2 & t1 & out1 & t2 & out2 & A & B & C & D).
      exists ((m, o) :: l1), id, p, v, o', l2, t1, (o1 ++ out1), t2, out2. subst l. split; [done|]. split; [|done].
      cbn. by rewrite E, B.
Qed.

Lemma pwv_spec s h :
  peer_with_value s h = true <-> exists p q, rs_peers s !! p = Some q /\ ps_min q <= h <= ps_height q.
Proof.
  unfold peer_with_value. rewrite existsb_exists. split.
  - intros ([p q] & H1 & H2). exists p, q. apply elem_of_list_In, elem_of_map_to_list in H1. split; [done|].
    unfold has_value in H2. cbn in H2. lia.
  - intros (p & q & H1 & H2). exists (p, q). split; [by apply elem_of_list_In, elem_of_map_to_list|].
    unfold has_value. cbn. lia.
Qed.

(** *** what a node advertises *)
Lemma lowest_spec_aux l :
  match fold_right (fun h a => Some (match a with Some b => N.min h b | None => h end)) None l with
  | None => l = []
  | Some b => b ∈ l /\ forall x, x ∈ l -> b <= x
  end.
Proof.
  induction l as [|h l IH]; cbn; [done|].
  destruct (fold_right _ None l) as [b|].
  - destruct IH as [A B]. split.
    + destruct (N.min_spec h b) as [[_ ->]|[_ ->]]; [left|by right].
    + intros x [->|X]%elem_of_cons; [lia|]. specialize (B x X). lia.
  - subst l. split; [left|]. intros x [->|X]%elem_of_cons; [lia|]. by apply not_elem_of_nil in X.
Qed.
Lemma lowest_spec store :
  match lowest store with
  | None => store = ∅
  | Some b => is_Some (store !! b) /\ forall h, is_Some (store !! h) -> b <= h
  end.
Proof.
  unfold lowest. pose proof (lowest_spec_aux (map fst (map_to_list store))) as H.
  destruct (fold_right _ None _) as [b|].
  - destruct H as [A B]. split.
    + apply elem_of_list_In, in_map_iff in A as ([x y] & <- & A). apply elem_of_list_In, elem_of_map_to_list in A. by exists y.
    + intros h [y Y]. apply B. apply elem_of_list_In, in_map_iff. exists (h, y). split; [done|].
      by apply elem_of_list_In, elem_of_map_to_list.
  - apply map_eq_nil in H. by apply map_to_list_empty_iff.
Qed.

(** *** collecting the announcements *)
Definition below (n : N) : gset N := list_to_set (map N.of_nat (seq 0 (S (N.to_nat n)))).
Lemma below_elem n i : i ∈ below n <-> i <= n.
Proof.
  unfold below. rewrite elem_of_list_to_set, elem_of_list_In, in_map_iff. setoid_rewrite in_seq. split.
  - intros (k & <- & H). lia.
  - intros H. exists (N.to_nat i). lia.
Qed.
Lemma below_size n : size (below n) = S (N.to_nat n).
Proof.
  unfold below. rewrite size_list_to_set; [by rewrite map_length, seq_length|].
  apply NoDup_fmap_2; [apply _|]. apply NoDup_seq.
Qed.

Lemma collect_nth n l : forall seen k b,
  seen ⊆ below n -> Forall (fun i => i <= n) l -> collect n seen l !! k = Some b ->
  (b = true <-> forall i, i <= n -> i ∈ seen \/ i ∈ take (S k) l).
Proof.
  induction l as [|x l IH]; intros seen k b Sn F K; cbn in K; [done|].
  apply Forall_inv_tail in F as F2. pose proof (Forall_inv F) as Fx. clear F. rename F2 into F. cbn beta in Fx.
  assert (S' : {[x]} ∪ seen ⊆ below n).
  { apply union_subseteq. split; [|done]. apply singleton_subseteq_l. by apply below_elem. }
  destruct k as [|k]; cbn in K.
  - injection K as <-. rewrite N.eqb_eq. split.
    + intros H i Hi. assert (E : {[x]} ∪ seen ≡ below n).
      { apply set_equiv_subseteq. split; [done|]. destruct (decide (below n ⊆ {[x]} ∪ seen)) as [|Q]; [done|].
        assert (L : (size ({[x]} ∪ seen) < size (below n))%nat) by (apply subset_size; by split).
        rewrite below_size in L. lia. }
      assert (Q : i ∈ {[x]} ∪ seen) by (rewrite E; by apply below_elem).
      apply elem_of_union in Q as [Q|Q]; [right|by left]. apply elem_of_singleton in Q as ->. left.
    + intros H. assert (E : {[x]} ∪ seen ≡ below n).
      { apply set_equiv_subseteq. split; [done|]. intros i Hi. apply below_elem in Hi.
        apply elem_of_union. destruct (H i Hi) as [Q|Q]; [by right|]. cbn in Q. apply elem_of_list_singleton in Q as ->.
        left. by apply elem_of_singleton. }
      rewrite E, below_size. lia.
  - rewrite (IH ({[x]} ∪ seen) k b S' F K). change (take (S (S k)) (x :: l)) with (x :: take (S k) l).
    split; intros H i Hi; specialize (H i Hi); rewrite elem_of_union, elem_of_singleton, ?elem_of_cons in *; tauto.
Qed.
