(** Proofs about inbound gossip, connection book-keeping and the sweep. *)
From stdpp Require Import gmap fin_sets sets.
From Coq Require Import NArith List Sorted Lia ZifyN ZifyNat ZifyBool.
From Verif Require Import Inbound ReadSync.
#[local] Open Scope N_scope.

(** *** connections *)
Lemma conn_run_snoc l e : conn_run (l ++ [e]) = conn_step (conn_run l) e.
Proof. unfold conn_run. by rewrite fold_left_app. Qed.
Lemma conns_step s e p :
  conns (conn_step s e) p =
  match e with
  | Established q => if p =? q then S (conns s p) else conns s p
  | Closed q => if p =? q then pred (conns s p) else conns s p
  end.
Proof.
  destruct e as [q|q]; cbn; unfold conns; cbn; destruct (N.eqb_spec p q) as [->|H];
    rewrite ?lookup_insert, ?lookup_insert_ne by done; done.
Qed.
Lemma known_step s e p :
  p ∈ c_known (conn_step s e) <->
  match e with
  | Established q => p = q \/ p ∈ c_known s
  | Closed q => p <> q /\ p ∈ c_known s
  end.
Proof. destruct e; cbn; set_solver. Qed.
Lemma known_connected l p : p ∈ c_known (conn_run l) -> (0 < conns (conn_run l) p)%nat.
Proof.
  induction l as [|e l IH] using rev_ind; [intros H; by apply not_elem_of_empty in H|].
  rewrite conn_run_snoc, known_step, conns_step. destruct e as [q|q].
  - destruct (N.eqb_spec p q) as [->|H]; [lia|]. intros [?|?]; [done|auto].
  - intros [H K]. destruct (N.eqb_spec p q) as [->|_]; [done|auto].
Qed.

(** *** the sweep *)
Definition sw_fold (direct : gset N) (s : sweep) (l : list (N * swev)) : sweep :=
  fold_left (fun s x => (sw_step direct s x.1 x.2).1) l s.
Lemma sw_run_app direct s l1 l2 : sw_run direct s (l1 ++ l2) = sw_run direct s l1 ++ sw_run direct (sw_fold direct s l1) l2.
Proof.
  revert s. induction l1 as [|[now e] l1 IH]; intros s; cbn [app sw_run]; [done|].
  destruct (sw_step direct s now e) as [s' b] eqn:E. rewrite IH, app_assoc. unfold sw_fold. cbn. by rewrite E.
Qed.

Lemma reconcile_lookup direct topics now since p t :
  reconcile direct topics now since !! p = Some t <->
  is_Some (topics !! p) /\ (since !! p = Some t \/ (since !! p = None /\ p ∈ direct /\ t = now)).
Proof.
  unfold reconcile. rewrite lookup_union_Some_raw, map_filter_lookup_Some, map_filter_lookup_None, lookup_gset_to_gmap_Some,
    elem_of_intersection, elem_of_dom. cbn. split.
  - intros [[A B]|[A [[B C] D]]]; [by auto|]. destruct A as [A|A]; [by auto|].
    destruct (since !! p) as [x|] eqn:E; [|by auto]. exfalso. by eapply A.
  - intros [A [B|(B & C & D)]]; [by left|]. right. split; [by left|]. by split.
Qed.

Lemma bouncable_elem direct topics now since last p :
  p ∈ bouncable direct topics now since last <->
  p ∈ direct /\ topics !! p = Some false /\ (forall t, since !! p = Some t -> SETTLE <= now - t) /\
  (forall b, last !! p = Some b -> COOLDOWN < now - b).
Proof.
  unfold bouncable. rewrite elem_of_list_In, filter_In, <- elem_of_list_In, elem_of_elements.
  destruct (topics !! p) as [[]|]; [split; [intros [_ ?]; done|intros (_ & ? & _); done]| |split; [intros [_ ?]; done|intros (_ & ? & _); done]].
  destruct (since !! p) as [t|]; destruct (last !! p) as [b|]; try destruct (now - t <? SETTLE) eqn:E1;
    split; intros H; repeat match goal with H : _ /\ _ |- _ => destruct H end; repeat split; try done; try congruence;
    try (intros ? [= <-]); try lia;
    repeat match goal with H : forall _, Some ?x = Some _ -> _ |- _ => specialize (H _ eq_refl) end; lia.
Qed.

Lemma bounced_last b now m p :
  (fold_left (fun m p => <[p := now]> m) b m : gmap N N) !! p = if bool_decide (p ∈ b) then Some now else m !! p.
Proof.
  revert m. induction b as [|q b IH]; intros m; [done|]. cbn [fold_left]. rewrite IH.
  destruct (decide (p ∈ b)) as [H|H].
  - rewrite !bool_decide_eq_true_2; [done|by right|done].
  - rewrite (bool_decide_eq_false_2 (p ∈ b)) by done. destruct (decide (p = q)) as [->|Hq].
    + rewrite lookup_insert, bool_decide_eq_true_2; [done|left].
    + rewrite lookup_insert_ne by done. rewrite bool_decide_eq_false_2; [done|]. intros [?|?]%elem_of_cons; done.
Qed.

(** The last forced disconnect of a peer is recorded and never forgotten; a later one is more than the cool-down away. *)
Lemma sw_spacing direct l : forall s p b now,
  sw_last s !! p = Some b -> (now, p) ∈ sw_run direct s l ->
  Forall (fun x => b <= x.1) l -> StronglySorted N.le (map fst l) -> b + COOLDOWN < now.
Proof.
  induction l as [|[t e] l IH]; intros s p b now B R F S; cbn [sw_run] in R; [by apply not_elem_of_nil in R|].
  destruct (sw_step direct s t e) as [s' bs] eqn:E.
  pose proof (Forall_inv F) as Ft. apply Forall_inv_tail in F. cbn in Ft. cbn [map fst] in S.
  pose proof (StronglySorted_inv S) as [S1 S2].
  apply elem_of_app in R as [R|R].
  - apply elem_of_list_In, in_map_iff in R as (q & [= -> ->] & Q). apply elem_of_list_In in Q.
    destruct e as [q|q st|topics]; cbn in E; try (injection E as <- <-; by apply not_elem_of_nil in Q).
    unfold sw_tick in E. injection E as <- <-. apply bouncable_elem in Q as (_ & _ & _ & Q). specialize (Q _ B). lia.
  - assert (B' : exists b', sw_last s' !! p = Some b' /\ b <= b' /\ b' <= t).
    { destruct e as [q|q st|topics]; cbn in E.
      - injection E as <- <-. exists b. unfold sw_connect. destruct (bool_decide _); done.
      - injection E as <- <-. exists b. unfold sw_close. destruct (_ && _); done.
      - unfold sw_tick in E. injection E as <- <-. cbn [sw_last]. rewrite bounced_last.
        destruct (bool_decide _); [exists t|exists b]; done. }
    destruct B' as (b' & B' & L1 & L2).
    assert (b' + COOLDOWN < now); [|lia]. eapply IH; [exact B'|exact R| |done].
    apply Forall_forall. intros x X. assert (t <= x.1); [|lia].
    rewrite List.Forall_forall in S2. apply S2. apply in_map_iff. exists x. split; [done|exact X].
Qed.

(** Where a first-connect time comes from. *)
Definition seen_at (e : swev) (p : N) : Prop :=
  match e with SwConnect q => p = q | SwTick topics => is_Some (topics !! p) | SwClose _ _ => False end.
Definition gone_at (e : swev) (p : N) : Prop :=
  match e with SwConnect _ => False | SwTick topics => topics !! p = None | SwClose q still => p = q /\ still = false end.
Lemma since_origin direct s0 l p t : p ∈ direct -> sw_since s0 !! p = None ->
  sw_since (sw_fold direct s0 l) !! p = Some t ->
  exists l1 e l2, l = l1 ++ (t, e) :: l2 /\ seen_at e p /\ Forall (fun x => ~ gone_at x.2 p) l2.
Proof.
  intros D Z. revert t. induction l as [|[now e] l IH] using rev_ind; intros t H; [cbn in H; congruence|].
  unfold sw_fold in H. rewrite fold_left_app in H. cbn [fold_left fst snd] in H. fold (sw_fold direct s0 l) in H.
  set (s := sw_fold direct s0 l) in *.
  assert (K : sw_since s !! p = Some t -> ~ gone_at e p ->
    exists l1 e0 l2, l ++ [(now, e)] = l1 ++ (t, e0) :: l2 /\ seen_at e0 p /\ Forall (fun x => ~ gone_at x.2 p) l2).
  { intros A G. destruct (IH t A) as (l1 & e0 & l2 & -> & B & C). exists l1, e0, (l2 ++ [(now, e)]).
    split; [by rewrite <- app_assoc|]. split; [done|]. apply Forall_app. split; [done|]. constructor; [done|constructor]. }
  destruct e as [q|q st|topics]; cbn in H.
  - unfold sw_connect in H. destruct (bool_decide_reflect (q ∈ direct)); cbn in H; [|apply K; [done|cbn; tauto]].
    destruct (sw_since s !! q) as [x|] eqn:E; [apply K; [done|cbn; tauto]|].
    apply lookup_insert_Some in H as [[-> ->]|[_ H]]; [|apply K; [done|cbn; tauto]].
    exists l, (SwConnect p), []. by repeat split.
  - unfold sw_close in H. destruct (bool_decide_reflect (q ∈ direct)) as [Q|Q]; cbn in H.
    + destruct st; cbn in H; [apply K; [done|cbn; by intros []]|]. apply lookup_delete_Some in H as [N1 H].
      apply K; [done|]. cbn. intros []. congruence.
    + apply K; [done|]. cbn. intros [-> _]. done.
  - apply reconcile_lookup in H as [A [B|(B & C & ->)]].
    + apply K; [done|]. cbn. destruct A as [? A]. rewrite A. done.
    + exists l, (SwTick topics), []. by repeat split.
Qed.

Lemma sw_run_elem direct s l now p : (now, p) ∈ sw_run direct s l ->
  exists l1 topics l2, l = l1 ++ (now, SwTick topics) :: l2 /\ p ∈ (sw_tick direct topics (sw_fold direct s l1) now).2.
Proof.
  revert s. induction l as [|[t e] l IH]; intros s R; cbn [sw_run] in R; [by apply not_elem_of_nil in R|].
  destruct (sw_step direct s t e) as [s' bs] eqn:E. apply elem_of_app in R as [R|R].
  - apply elem_of_list_In, in_map_iff in R as (q & [= -> ->] & Q). apply elem_of_list_In in Q.
    destruct e as [q|q st|topics]; cbn in E; try (injection E as <- <-; by apply not_elem_of_nil in Q).
    exists [], topics, l. split; [done|]. cbn [sw_fold fold_left]. unfold sw_fold. cbn. unfold sw_tick in E. injection E as <- <-. done.
  - destruct (IH _ R) as (l1 & topics & l2 & -> & Q). exists ((t, e) :: l1), topics, l2. split; [done|].
    unfold sw_fold in *. cbn [fold_left fst snd]. by rewrite E.
Qed.

(** *** feeding the connection events to the sync actor *)
Definition cmsg (e : cev) : rmsg := match e with Established p => MConnected p | Closed p => MDisconnected p end.
Lemma conn_to_sync l o : exists s out, rrun rs_init (map (fun e => (cmsg e, o)) l) = Alive s out /\ rs_conn s = c_known (conn_run l).
Proof.
  assert (G : forall l s c, rs_conn s = c_known c ->
    exists s' out, rrun s (map (fun e => (cmsg e, o)) l) = Alive s' out /\ rs_conn s' = c_known (fold_left conn_step l c)).
  { clear. induction l as [|e l IH]; intros s c H; cbn [map rrun]; [by eexists _, _|].
    assert (S1 : exists s1, rstep s (cmsg e) o = Alive s1 [] /\ rs_conn s1 = c_known (conn_step c e)).
    { destruct e as [p|p]; cbn; eexists; (split; [reflexivity|]); cbn; by rewrite H. }
    destruct S1 as (s1 & R & K). rewrite R. destruct (IH s1 _ K) as (s' & out & R' & K'). rewrite R'. by eexists _, _. }
  by apply G.
Qed.
