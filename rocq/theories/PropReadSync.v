(** C97: a read node's sync actor — announcement of the end of the initial sync, book-keeping of requests, answers. *)
From stdpp Require Import gmap fin_sets sets.
From Coq Require Import NArith List Lia ZifyN ZifyNat ZifyBool.
From Verif Require Import ReadSync ReadSyncProofs.
#[local] Open Scope N_scope.

(** A run from start-up, and its states. *)
Definition reached (l : list (rmsg * orc)) (s : rstate) (out : list rout) : Prop := rrun rs_init l = Alive s out.

(** Announcements in a trace of outputs, counted independently of the model. *)
Fixpoint announcements (out : list rout) : nat :=
  match out with [] => 0 | OInitialSyncCompleted :: r => S (announcements r) | _ :: r => announcements r end.
Fixpoint expiries (out : list rout) : nat :=
  match out with [] => 0 | OTimedOut _ _ :: r => S (expiries r) | _ :: r => expiries r end.
Lemma announcements_count out : announcements out = count is_init out.
Proof. induction out as [|[] out IH]; cbn; [done|done| |done]. unfold count in *. cbn. by rewrite IH. Qed.
Lemma expiries_count out : expiries out = count is_to out.
Proof. induction out as [|[] out IH]; cbn; [done|done|done|]. unfold count in *. cbn. by rewrite IH. Qed.

(** *** An example run: peer 7 connects and reports height 5, the library asks it for height 1 (request 100), it answers. *)
Definition quiet (h : N) : orc := Orc h [].
Definition ex_run : list (rmsg * orc) :=
  [ (MConnected 7, quiet 0); (MStatus 7 5 1, Orc 0 [Send 7 1 (Some 100)]);
    (MStatus 8 900 1, quiet 0);                                   (* not connected: ignored *)
    (MValueResponse 100 7 (Some (RValue 1 1 false true)), quiet 1);
    (MTimeout 100, quiet 1) ].
Example ex_run_out : exists s, reached ex_run s [OProcess 1 1; OInitialSyncCompleted] /\
  rs_done s = true /\ rs_peers s !! 8 = None /\ rs_peers s !! 7 = Some (PStat 5 1) /\ rs_inflight s !! 100 = Some (7, 1).
Proof. unfold reached. cbn. eexists. split; [reflexivity|]. vm_compute. done. Qed.

(** *** Announced at most once, whatever the peers and the library do. *)
Theorem C97_once l s out : reached l s out -> (announcements out <= 1)%nat /\ (rs_done s = true <-> announcements out = 1%nat).
Proof.
  intros R. destruct (run_once _ _ _ _ R) as [A B]. cbn in A. rewrite announcements_count. split; [done|].
  rewrite B. split.
  - intros [H|H]; [done|]. assert (count is_init out <> 0)%nat; [|lia].
    unfold count. intros Z. apply nil_length_inv in Z. assert (Q : In OInitialSyncCompleted (List.filter is_init out)).
    { apply filter_In. split; [by apply elem_of_list_In|done]. } by rewrite Z in Q.
  - intros H. right. apply elem_of_list_In. unfold count in H.
    destruct (List.filter is_init out) as [|x r] eqn:E; [done|].
    assert (Q : In x (List.filter is_init out)) by (rewrite E; by left). apply filter_In in Q as [Q1 Q2]. by destruct x.
Qed.

(** *** The announcement is made while an answer is handled, with at least one peer known, all of them connected, and no
    known peer offering the value ten heights on. *)
Theorem C97_sound l s out : reached l s out -> announcements out <> 0%nat ->
  exists l1 l2 id p v o s1 out1, l = l1 ++ (MValueResponse id p (Some v), o) :: l2 /\
    reached (l1 ++ [(MValueResponse id p (Some v), o)]) s1 out1 /\
    rs_peers s1 <> ∅ /\ dom (rs_peers s1) ⊆ rs_conn s1 /\
    forall q st, rs_peers s1 !! q = Some st -> ~ (ps_min st <= rs_height s1 + 10 <= ps_height st).
Proof.
  intros R A. assert (H : OInitialSyncCompleted ∈ out).
  { apply elem_of_list_In. rewrite announcements_count in A. unfold count in A.
    destruct (List.filter is_init out) as [|x r] eqn:E; [done|].
    assert (Q : In x (List.filter is_init out)) by (rewrite E; by left). apply filter_In in Q as [Q1 Q2]. by destruct x. }
  destruct (run_init_at _ _ _ _ R H) as (l1 & id & p & v & o & l2 & s1 & o1 & s2 & o2 & -> & B & C & D & F).
  assert (S2 : reached (l1 ++ [(MValueResponse id p (Some v), o)]) s2 (o1 ++ o2)).
  { unfold reached. rewrite rrun_app, B. cbn [rrun]. rewrite C. by rewrite app_nil_r. }
  exists l1, l2, id, p, v, o, s2, (o1 ++ o2). split; [done|]. split; [done|]. split; [done|]. split.
  - eapply run_conn; [exact S2|]. cbn. by rewrite dom_empty_L.
  - intros q st Q W. apply not_true_iff_false in F. apply F, pwv_spec. by exists q, st.
Qed.

(** So, when every status reports history from height 1 — nobody prunes — the node is within ten heights of every known
    peer.  Missing from the claim: this needs unpruned peers, see below. *)
Theorem C97_near_partial l s out : reached l s out -> announcements out <> 0%nat ->
  Forall (fun x => match x.1 with MStatus _ _ mn => mn <= 1 | _ => True end) l ->
  exists l1 l2 s1 out1, l = l1 ++ l2 /\ reached l1 s1 out1 /\ rs_peers s1 <> ∅ /\
    forall q st, rs_peers s1 !! q = Some st -> ps_height st < rs_height s1 + 10.
Proof.
  intros R A F. destruct (C97_sound _ _ _ R A) as (l1 & l2 & id & p & v & o & s1 & o1 & -> & B & C & _ & D).
  exists (l1 ++ [(MValueResponse id p (Some v), o)]), l2, s1, o1. split; [by rewrite <- app_assoc|]. split; [done|].
  split; [done|]. intros q st Q. specialize (D q st Q).
  enough (ps_min st <= 1) by lia.
  (* every stored status came from a status message *)
  assert (G : forall k s0 s0' o0, rrun s0 k = Alive s0' o0 ->
    Forall (fun x => match x.1 with MStatus _ _ mn => mn <= 1 | _ => True end) k ->
    (forall q st, rs_peers s0 !! q = Some st -> ps_min st <= 1) -> forall q st, rs_peers s0' !! q = Some st -> ps_min st <= 1).
  { clear. induction k as [|[m o] k IH]; intros s0 s0' o0 R F H; cbn in R.
    - injection R as <- <-. done.
    - destruct (rstep s0 m o) as [s1 u1|] eqn:E; [|done]. destruct (rrun s1 k) as [s2 u2|] eqn:E2; [|done].
      injection R as <- <-. pose proof (Forall_inv F) as Fm. apply Forall_inv_tail in F. cbn in Fm.
      eapply (IH _ _ _ E2 F). clear IH E2. intros q st Q.
      assert (P : forall z, rs_peers (process z o) = rs_peers z) by (intros z; apply (process_same z o)).
      destruct m as [|p|p|p h mn| |i p v|i p| |h| |i]; cbn in E; try (injection E as <- <-; rewrite ?P in Q; by eapply H).
      + injection E as <- <-. cbn in Q. apply lookup_delete_Some in Q as [_ Q]. by eapply H.
      + destruct (bool_decide _); injection E as <- <-; [|by eapply H]. rewrite P in Q. cbn in Q.
        apply lookup_insert_Some in Q as [[_ <-]|[_ Q]]; [done|by eapply H].
      + destruct v as [v|]; [|done]. destruct (if rv_shard v =? 0 then rv_block_ok v else rv_chunk_ok v); [|done].
        match type of E with context [first_completed ?z] => pose proof (fc_same z) as X; destruct (first_completed z) as [d t] end.
        injection E as <- <-. destruct X as (X & _). rewrite X, P in Q. by eapply H.
      + destruct (bool_decide _); [|injection E as <- <-; by eapply H].
        destruct (rs_inflight s0 !! i) as [[p h]|]; injection E as <- <-; rewrite ?P in Q; by eapply H. }
  eapply (G _ _ _ _ B); [|done|exact Q].
  apply Forall_app in F as [F1 F2]. apply Forall_app. split; [done|]. constructor; [done|constructor].
Qed.
Example C97_near_ex : exists s out, reached ex_run s out /\ announcements out = 1%nat /\
  Forall (fun x => match x.1 with MStatus _ _ mn => mn <= 1 | _ => True end) ex_run.
Proof.
  destruct ex_run_out as (s & R & _). exists s, [OProcess 1 1; OInitialSyncCompleted]. split; [done|]. split; [done|].
  unfold ex_run. repeat (constructor; [cbn; (done || lia)|]). constructor.
Qed.

(** With a peer that prunes, the end of the initial sync is announced however far behind the node is: the only peer is at
    any height [top] and keeps history from [low] on; the node is at 0. *)
Theorem C97_pruned_peer_refuted top low : 10 < low -> low <= top ->
  exists l s out, reached l s out /\ announcements out = 1%nat /\ rs_height s = 0 /\ rs_peers s !! 7 = Some (PStat top low).
Proof.
  intros L T.
  exists [ (MConnected 7, quiet 0); (MStatus 7 top low, quiet 0); (MValueResponse 1 7 (Some (RValue 1 1 false true)), quiet 0) ].
  unfold reached. cbn. rewrite !(bool_decide_eq_true_2 (7 ∈ _)) by set_solver. cbn.
  unfold first_completed. cbn. rewrite bool_decide_eq_false_2 by (apply insert_non_empty).
  replace (peer_with_value _ _) with false.
  2:{ symmetry. apply not_true_iff_false. intros H. apply pwv_spec in H as (q & st & Q & W). cbn in Q.
      apply lookup_insert_Some in Q as [[_ <-]|[_ Q]]; [cbn in W; lia|]. done. }
  cbn. eexists _, _. split; [reflexivity|]. cbn. rewrite lookup_insert. done.
Qed.
Example C97_pruned_peer_ex : 10 < 20000000 /\ 20000000 <= 21000000. Proof. done. Qed.

(** No answer, no announcement: a node that starts at the tip, and so has nothing to ask for, never announces — and the
    node as a whole then never subscribes to decided values (below). *)
Theorem C97_needs_answer_refuted l s out :
  Forall (fun x => match x.1 with MValueResponse _ _ _ => False | _ => True end) l -> reached l s out -> announcements out = 0%nat.
Proof.
  intros F R. destruct (announcements out) eqn:E; [done|]. exfalso.
  destruct (C97_sound _ _ _ R) as (l1 & l2 & id & p & v & o & s1 & o1 & -> & _); [lia|].
  apply Forall_app in F as [_ F]. by apply Forall_inv in F.
Qed.
Example C97_needs_answer_ex :
  exists s, reached [ (MDecided 50, quiet 51); (MConnected 7, quiet 51); (MStatus 7 50 1, quiet 51); (MTick, quiet 51) ] s [] /\
  rs_height s = 51 /\ rs_peers s !! 7 = Some (PStat 50 1).
Proof. unfold reached. cbn. eexists. split; [reflexivity|]. vm_compute. done. Qed.

(** *** Requests: expiries reported and requests still listed never exceed the requests sent. *)
Theorem C97_accounted l s out : reached l s out -> (expiries out + size (rs_inflight s) <= length (ids l))%nat.
Proof. intros R. pose proof (run_size _ _ _ _ R) as H. change (size (rs_inflight rs_init)) with 0%nat in H.
  rewrite expiries_count. lia. Qed.
(** An expiry is reported once per timer: handling it again, or after the answer, does nothing. *)
Theorem C97_expiry_once s id o s' out : rstep s (MTimeout id) o = Alive s' out -> id ∉ orc_ids o ->
  forall o', rstep s' (MTimeout id) o' = Alive s' [].
Proof.
  intros R H o'. assert (T : id ∉ rs_timers s').
  { cbn in R. destruct (bool_decide_reflect (id ∈ rs_timers s)) as [Hi|Hi]; [|injection R as <- <-; done].
    destruct (rs_inflight s !! id) as [[p h]|]; injection R as <- <-; [|cbn; set_solver].
    match goal with |- context [process ?z o] => destruct (process_inflight z o id H) as [_ D]; rewrite D end. cbn. set_solver. }
  cbn. by rewrite bool_decide_eq_false_2.
Qed.
Theorem C97_answered_no_expiry s id p v o s' out : rstep s (MValueResponse id p v) o = Alive s' out -> id ∉ orc_ids o ->
  forall o', rstep s' (MTimeout id) o' = Alive s' [].
Proof. intros R H o'. destruct (answered_off _ _ _ _ _ _ _ R H) as [T _]. cbn. by rewrite bool_decide_eq_false_2. Qed.
Example C97_expiry_ex : exists s out, reached [ (MTick, Orc 3 [Send 7 4 (Some 1)]); (MTimeout 1, Orc 3 [Send 8 4 (Some 2)]) ] s out /\
  out = [OTimedOut 7 4] /\ expiries out = 1%nat /\ size (rs_inflight s) = 1%nat.
Proof. unfold reached. cbn. eexists _, _. split; [reflexivity|]. vm_compute. done. Qed.

(** But an answered request is never taken off the list: whatever happens later (request ids are not reused), the entry is
    still there, so the list grows by one with every answered request for as long as the node runs. *)
Theorem C97_leak_refuted s id p v o s1 o1 x l s2 o2 :
  rs_inflight s !! id = Some x -> rstep s (MValueResponse id p v) o = Alive s1 o1 -> id ∉ orc_ids o ->
  rrun s1 l = Alive s2 o2 -> id ∉ ids l -> rs_inflight s2 !! id = Some x.
Proof.
  intros I R H R2 H2. destruct (answered_off _ _ _ _ _ _ _ R H) as [T J]. rewrite I in J. by eapply run_leak.
Qed.
Example C97_leak_ex : exists s s1 o1, rs_inflight s !! 100 = Some (7, 1) /\
  rstep s (MValueResponse 100 7 (Some (RValue 1 1 false true))) (quiet 1) = Alive s1 o1 /\ 100 ∉ orc_ids (quiet 1) /\
  exists s2 o2, rrun s1 [(MTimeout 100, quiet 1); (MDisconnected 7, quiet 1); (MTick, Orc 1 [Send 9 2 (Some 101)])] = Alive s2 o2.
Proof.
  exists (RState {[7 := PStat 5 1]} 0 {[100]} {[100 := (7, 1)]} false {[7]}). cbn. eexists _, _.
  split; [done|]. split; [reflexivity|]. split; [apply not_elem_of_nil|]. vm_compute. eexists _, _. reflexivity.
Qed.

(** *** Answers *)
(** The actor dies exactly on an answer without value or with bytes that do not decode as the kind its certificate names. *)
Definition bad_answer (m : rmsg) : bool :=
  match m with
  | MValueResponse _ _ None => true
  | MValueResponse _ _ (Some v) => negb (if rv_shard v =? 0 then rv_block_ok v else rv_chunk_ok v)
  | _ => false
  end.
Theorem C97_dies_iff s l : rrun s l = Dead <-> existsb (fun x => bad_answer x.1) l = true.
Proof.
  revert s. induction l as [|[m o] l IH]; intros s; cbn; [done|].
  destruct (bad_answer m) eqn:B; cbn.
  - split; [done|]. intros _. destruct m as [| | | | |i p [v|]| | | | |]; try done. cbn in *.
    destruct (if rv_shard v =? 0 then rv_block_ok v else rv_chunk_ok v); done.
  - assert (A : exists s1 o1, rstep s m o = Alive s1 o1).
    { destruct m as [|p|p|p h mn| |i p v|i p| |h| |i]; cbn in *; try (by eexists _, _).
      - destruct (bool_decide _); by eexists _, _.
      - destruct v as [v|]; [|done]. apply negb_false_iff in B. rewrite B.
        match goal with |- context [first_completed ?z] => destruct (first_completed z) end. by eexists _, _.
      - destruct (bool_decide _); [|by eexists _, _]. destruct (rs_inflight s !! i) as [[p h]|]; by eexists _, _. }
    destruct A as (s1 & o1 & A). rewrite A. rewrite <- (IH s1). destruct (rrun s1 l); done.
Qed.
Example C97_dies_ex : existsb (fun x => bad_answer x.1) (ex_run ++ [(MValueResponse 5 9 None, quiet 0)]) = true /\
  existsb (fun x => bad_answer x.1) ex_run = false.
Proof. done. Qed.

(** Any answer that decodes reaches the host, asked for or not, from whichever peer. *)
Theorem C97_forwards s id p v o : bad_answer (MValueResponse id p (Some v)) = false ->
  exists s' r, rstep s (MValueResponse id p (Some v)) o = Alive s' (OProcess (rv_shard v) (rv_height v) :: r) /\
    (r = [] \/ r = [OInitialSyncCompleted]).
Proof.
  intros B. cbn in *. apply negb_false_iff in B. rewrite B.
  match goal with |- context [first_completed ?z] => destruct (first_completed z) as [[] s2] end; eexists _, _; eauto.
Qed.

(** A node whose store has no holes has every height from the lowest it advertises up to its highest. *)
Definition gapless (store : gmap N rvalue) : Prop :=
  forall a b h, is_Some (store !! a) -> is_Some (store !! b) -> a <= h <= b -> is_Some (store !! h).
Theorem C97_served store top h : gapless store -> is_Some (store !! top) ->
  min_height Reader store <= h <= top -> exists v, serve store h = Some v.
Proof.
  intros G T H. unfold min_height in H. pose proof (lowest_spec store) as L. destruct (lowest store) as [b|].
  - destruct L as [L _]. destruct (G b top h L T H) as [v V]. by exists v.
  - subst store. destruct T as [? T]. done.
Qed.
Definition ex_store : gmap N rvalue := {[ 3 := RValue 1 3 false true; 4 := RValue 1 4 false true ]}.
Example C97_served_ex : min_height Reader ex_store = 3 /\ min_height Validator ex_store = 1 /\ gapless ex_store /\
  serve ex_store 4 = Some (RValue 1 4 false true).
Proof.
  split; [done|]. split; [done|]. split; [|done]. intros a b h [x A] [y B] H. unfold ex_store in *.
  assert (K : forall k z, ({[ 3 := RValue 1 3 false true; 4 := RValue 1 4 false true ]} : gmap N rvalue) !! k = Some z -> k = 3 \/ k = 4).
  { intros k z Hz. apply lookup_insert_Some in Hz as [[<- _]|[_ Hz]]; [by left|]. apply lookup_singleton_Some in Hz as [<- _]. by right. }
  apply K in A. apply K in B. assert (h = 3 \/ h = 4) as [->| ->] by lia; vm_compute; by eexists.
Qed.

(** The advertisement can be out of date: a peer that prunes between its status and the request answers honestly with
    nothing, and the asking node's actor is gone.  For every store and height: *)
Theorem C97_pruned_between_refuted store h id p s o :
  min_height Reader store <= h -> is_Some (store !! h) ->
  let store' := delete h store in rstep s (MValueResponse id p (serve store' h)) o = Dead.
Proof. intros _ _ store'. unfold serve, store'. by rewrite lookup_delete. Qed.
(** A validator advertises height 1 whatever its store holds (one started from a pruned snapshot, say). *)
Theorem C97_validator_advertises_refuted store id p s o : store !! 1 = None ->
  min_height Validator store = 1 /\ rstep s (MValueResponse id p (serve store 1)) o = Dead.
Proof. intros H. unfold serve. by rewrite H. Qed.
Example C97_pruned_between_ex : min_height Reader ex_store <= 3 /\ is_Some (ex_store !! 3) /\ ex_store !! 1 = None.
Proof. split; [vm_compute; congruence|]. split; [by eexists|done]. Qed.

(** *** The node: it subscribes to decided values at the k-th announcement iff by then all shards 0..n have announced. *)
Theorem C97_collect n l k b : Forall (fun i => i <= n) l -> collect n ∅ l !! k = Some b ->
  (b = true <-> forall i, i <= n -> i ∈ take (S k) l).
Proof.
  intros F K. rewrite (collect_nth n l ∅ k b); [|set_solver|done|done].
  split; intros H i Hi; specialize (H i Hi); [|by right]. destruct H as [H|H]; [|done]. by apply not_elem_of_empty in H.
Qed.
Example C97_collect_ex : collect 2 ∅ [1; 0; 1; 2] = [false; false; false; true]. Proof. done. Qed.
(** Each shard announces at most once (C97_once), so the node subscribes at most once. *)
Theorem C97_subscribes_once n l j k : base.NoDup l -> Forall (fun i => i <= n) l ->
  collect n ∅ l !! j = Some true -> collect n ∅ l !! k = Some true -> j = k.
Proof.
  intros ND F J K. assert (W : forall a b, (a < b)%nat -> collect n ∅ l !! a = Some true -> collect n ∅ l !! b = Some true -> False).
  { clear J K. intros a b L A B. pose proof (proj1 (C97_collect n l a true F A) eq_refl) as H.
    assert (LB : (b < length l)%nat).
    { apply lookup_lt_Some in B. assert (Q : forall m s, length (collect n s m) = length m).
      { induction m as [|x m IH]; intros s; cbn; [done|]. by rewrite IH. } by rewrite Q in B. }
    destruct (lookup_lt_is_Some_2 l b LB) as [x X].
    assert (x <= n) as Hx by (rewrite Forall_lookup in F; by eapply F).
    specialize (H x Hx). apply elem_of_take in H as (i & I & Li).
    assert (i = b); [|lia]. by eapply NoDup_lookup. }
  destruct (Nat.lt_trichotomy j k) as [L|[L|L]]; [|done|]; exfalso; eauto.
Qed.
Example C97_subscribes_ex : base.NoDup [1; 0; 2] /\ collect 2 ∅ [1; 0; 2] = [false; false; true].
Proof. split; [|done]. repeat (constructor; [set_solver|]). constructor. Qed.
(** A node that runs only some of the shards never subscribes. *)
Theorem C97_subset_refuted n l i : i <= n -> i ∉ l -> Forall (fun j => j <= n) l -> true ∉ collect n ∅ l.
Proof.
  intros Hi Ni F [k K]%elem_of_list_lookup. pose proof (proj1 (C97_collect n l k true F K) eq_refl i Hi) as H.
  apply elem_of_take in H as (j & J & _). apply Ni. by eapply elem_of_list_lookup_2.
Qed.
Example C97_subset_ex : 2 ∉ [0; 1] /\ collect 2 ∅ [0; 1] = [false; false]. Proof. split; [set_solver|done]. Qed.

Print Assumptions C97_once.
Print Assumptions C97_sound.
Print Assumptions C97_near_partial.
Print Assumptions C97_pruned_peer_refuted.
Print Assumptions C97_needs_answer_refuted.
Print Assumptions C97_accounted.
Print Assumptions C97_expiry_once.
Print Assumptions C97_answered_no_expiry.
Print Assumptions C97_leak_refuted.
Print Assumptions C97_dies_iff.
Print Assumptions C97_forwards.
Print Assumptions C97_served.
Print Assumptions C97_pruned_between_refuted.
Print Assumptions C97_validator_advertises_refuted.
Print Assumptions C97_collect.
Print Assumptions C97_subscribes_once.
Print Assumptions C97_subset_refuted.
