(** C105-C107: the picture a node gives of the network. *)
From Verif Require Import MeshProofs.
From Coq Require Import Lia ZifyN ZifyNat ZifyBool.
#[local] Open Scope N_scope.

(** * C105: the crawl *)

(** A node's validator map: every key once, every key a peer id. *)
Definition vset_ok (valid : bytes -> bool) (vs : vset) : Prop :=
  List.NoDup (map fst vs) /\ forall p, In p (map fst vs) -> valid p = true.

(** Peers are shown as validators exactly if they are, with the key the node knows; everybody else is shown only on demand. *)
Theorem C105_peers valid vs h only v q : vset_ok valid vs ->
  In q (v_peers (classify valid vs h only v)) <->
  exists p, In p (v_peers v) /\ p_pid q = p_pid p /\ p_rest q = p_rest p /\
    ((exists k, In (p_pid p, k) vs /\ p_type q = TValidator /\ p_key q = Some k) \/
     (only = false /\ ~ In (p_pid p) (map fst vs) /\ p_type q = TNonValidator /\ p_key q = None)).
Proof.
  intros [ND OKV]. cbn. rewrite filter_In, in_map_iff. split.
  - intros [(p & <- & I) K]. exists p. unfold classify_peer in *. destruct (vmatch valid vs (p_pid p)) as [k|] eqn:E; cbn.
    + repeat split; auto. left. exists k. apply vmatch_spec in E; auto.
    + repeat split; auto. right. apply vmatch_none in E; auto. unfold keep in K. cbn in K. destruct only; [discriminate|auto].
  - intros (p & I & E1 & E2 & H). destruct q as [qp qt qk qr]; cbn in *. subst. destruct H as [(k & Ik & -> & ->)|(-> & N & -> & ->)].
    + apply (vmatch_spec valid vs ND OKV) in Ik. split; [|unfold keep; cbn; apply orb_true_r]. exists p. unfold classify_peer. rewrite Ik. auto.
    + split; [|reflexivity]. exists p. unfold classify_peer. apply (vmatch_none valid vs OKV) in N. rewrite N. auto.
Qed.
(** What the node says of itself: the height of the set it was classified with, in any case; key and role are the set's if it is
    in the set; the rest is left as it was. *)
Theorem C105_self valid vs h only v s : vset_ok valid vs -> v_local v = Some s ->
  exists s', v_local (classify valid vs h only v) = Some s' /\ s_pid s' = s_pid s /\ s_rest s' = s_rest s /\ s_height s' = h /\
    (forall k, In (s_pid s, k) vs -> s_key s' = k /\ s_isval s' = true) /\
    (~ In (s_pid s) (map fst vs) -> s_key s' = s_key s /\ s_isval s' = s_isval s).
Proof.
  intros [ND OKV] El. cbn. rewrite El. cbn. exists (classify_self valid vs h s). split; [reflexivity|]. unfold classify_self.
  destruct (vmatch valid vs (s_pid s)) as [k|] eqn:E; cbn; repeat split; auto.
  1: apply (vmatch_spec valid vs) in H; auto; congruence.
  all: try (exfalso; match goal with N : ~ _ |- _ => apply N end; apply vmatch_spec in E; auto; apply in_map_iff; exists (s_pid s, k); auto; fail).
  all: exfalso; apply (vmatch_spec valid vs) in H; auto; congruence.
Qed.

(** Only validators are asked, never the node itself, at most 256 of them. *)
Theorem C105_queries valid vs h only raw e p : vset_ok valid vs -> In p (queried valid e (classify valid vs h only raw)) ->
  In p (map fst vs) /\ In p (map p_pid (v_peers raw)) /\ (forall s, v_local raw = Some s -> s_pid s <> p).
Proof.
  intros [ND OKV] I. unfold queried in I. apply filter_In in I. destruct I as [I _]. apply seed_In in I; auto. destruct I as (I1 & I2 & N).
  repeat split; auto. intros s Es E. apply N. unfold self_pid. rewrite Es, E, OKV by exact I1. reflexivity.
Qed.
Theorem C105_bounded valid e v : (length (queried valid e v) <= 256)%nat.
Proof.
  unfold queried, seed. transitivity (length (take MAX_QUERIED (askable valid v))); [|rewrite take_length; unfold MAX_QUERIED; lia].
  change (List.filter (fun p => negb (bool_decide (Some p = self_pid valid v))) _) with (askable valid v).
  induction (take MAX_QUERIED (askable valid v)) as [|x l IH]; cbn; [lia|]. destruct (g_takes e x); cbn; lia.
Qed.

Definition answers (e : genv) (p : pid) : bool := match g_reply e p with RView _ => true | _ => false end.
Definition why (raw : mview) (e : genv) (p : pid) : reason :=
  if bool_decide (p ∈ map p_pid (v_peers raw)) then
    match g_reply e p with RFailed => WError | RClosed => WClosed | _ => WTimeout end
  else WNotConnected.

(** With a gossip task that takes every request, a view that lists every peer once and at most 256 validators: every validator is
    the node itself, or is connected and answered and its answer is among the nodes, or is listed as out of reach, once, with its
    key and the reason. Nobody else is listed. *)
Theorem C105_partition valid vs h only e raw s t :
  vset_ok valid vs -> (length vs <= 256)%nat -> g_local e = Some raw -> v_local raw = Some s -> valid (s_pid s) = true ->
  List.NoDup (map p_pid (v_peers raw)) -> (forall p, g_takes e p = true) -> crawl valid e vs h only = Some t ->
  (forall p k, In (p, k) vs ->
     entries (t_unreach t) p =
       (if bool_decide (p = s_pid s) || (bool_decide (p ∈ map p_pid (v_peers raw)) && answers e p) then 0 else 1)%nat) /\
  (forall u, In u (t_unreach t) -> In (u_pid u, u_key u) vs /\ u_why u = why raw e (u_pid u)) /\
  (exists root rest, t_nodes t = root :: rest /\ root = classify valid vs h only raw /\
     forall n, In n rest <-> exists p k v, In (p, k) vs /\ p <> s_pid s /\ In p (map p_pid (v_peers raw)) /\ g_reply e p = RView v /\
                                        n = classify valid vs 0 only v).
Proof.
  intros [ND OKV] L El Es Vs NDr TK C. unfold crawl in C. rewrite El in C. injection C as <-. cbn [t_unreach t_nodes].
  assert (SP : self_pid valid (classify valid vs h only raw) = Some (s_pid s)).
  { rewrite self_classify. unfold self_pid. rewrite Es, Vs. reflexivity. }
  assert (SP' : self_pid valid raw = Some (s_pid s)) by (unfold self_pid; rewrite Es, Vs; reflexivity).
  assert (SD : forall p, In p (seed valid (classify valid vs h only raw)) <-> In p (map fst vs) /\ In p (map p_pid (v_peers raw)) /\ p <> s_pid s).
  { intros p. rewrite seed_all by auto. rewrite askable_In by auto. rewrite SP'. unfold raw_ids. split.
    - intros (A & B & D). split; [exact A|split; [exact B|intros E; apply D; rewrite E; reflexivity]].
    - intros (A & B & D). split; [exact A|split; [exact B|intros E; apply D; injection E; auto]]. }
  assert (Q : queried valid e (classify valid vs h only raw) = seed valid (classify valid vs h only raw)).
  { unfold queried. generalize (seed valid (classify valid vs h only raw)). intros l. induction l as [|x l IH]; cbn; [reflexivity|]. rewrite TK, IH. reflexivity. }
  rewrite Q. rewrite SP. set (sd := seed valid (classify valid vs h only raw)) in *.
  assert (NDs : List.NoDup sd) by (apply seed_nd; auto).
  assert (U1 : forall p u, unreach_of e vs p = Some u -> u_pid u = p).
  { intros p u. unfold unreach_of. destruct (g_reply e p); try discriminate; intros E; injection E as <-; reflexivity. }
  split; [|split].
  - intros p k Ipk. rewrite entries_app. assert (Ip : In p (map fst vs)) by (apply in_map_iff; exists (p, k); auto).
    assert (E1 : entries (omap (unreach_of e vs) sd) p =
                 (if bool_decide (p ∈ sd) && negb (answers e p) then 1 else 0)%nat).
    { destruct (bool_decide (p ∈ sd) && negb (answers e p)) eqn:B.
      - apply andb_true_iff in B. destruct B as [B1 B2]. apply bool_decide_eq_true in B1. rewrite elem_of_list_In in B1.
        destruct (unreach_of e vs p) as [u|] eqn:Eu.
        + apply entries_one with u; [apply omap_pids; auto| |auto]. apply in_omap. eauto.
        + unfold unreach_of, answers in *. destruct (g_reply e p); discriminate.
      - apply entries_none. intros u Iu Ep. apply in_omap in Iu. destruct Iu as (q & Iq & Eq). pose proof (U1 _ _ Eq) as Hq. rewrite Hq in Ep. subst q.
        apply andb_false_iff in B. destruct B as [B|B].
        + apply bool_decide_eq_false in B. apply B. apply elem_of_list_In. exact Iq.
        + unfold unreach_of, answers in *. destruct (g_reply e p); discriminate. }
    rewrite E1.
    set (ms := List.filter _ vs).
    assert (E2 : entries (map (fun x => Unreach x.1 x.2 WNotConnected) ms) p =
                 (if bool_decide (p = s_pid s) || bool_decide (p ∈ sd) then 0 else 1)%nat).
    { destruct (bool_decide (p = s_pid s) || bool_decide (p ∈ sd)) eqn:B.
      - apply entries_none. intros u Iu Ep. apply in_map_iff in Iu. destruct Iu as ([q l] & <- & Iq). apply filter_In in Iq. cbn in *. subst q.
        destruct Iq as [_ Iq]. apply negb_true_iff, orb_false_iff in Iq. destruct Iq as [I1 I2]. apply orb_true_iff in B.
        apply bool_decide_eq_false in I1. apply bool_decide_eq_false in I2.
        destruct B as [B|B]; apply bool_decide_eq_true in B; [congruence|contradiction].
      - apply orb_false_iff in B. destruct B as [B1 B2]. apply bool_decide_eq_false in B1. apply entries_one with (Unreach p k WNotConnected).
        + rewrite map_map. cbn. apply filter_map_nd. exact ND.
        + apply in_map_iff. exists (p, k). split; [reflexivity|]. apply filter_In. split; [exact Ipk|]. cbn [fst]. rewrite B2, orb_false_r.
          apply negb_true_iff, bool_decide_eq_false. congruence.
        + reflexivity. }
    rewrite E2. assert (SDp : bool_decide (p ∈ sd) = bool_decide (p ∈ map p_pid (v_peers raw)) && negb (bool_decide (p = s_pid s))).
    { apply eq_true_iff_eq. rewrite andb_true_iff, negb_true_iff, bool_decide_eq_false, !bool_decide_eq_true, !elem_of_list_In, SD. tauto. }
    rewrite SDp. destruct (bool_decide (p = s_pid s)), (bool_decide (p ∈ map p_pid (v_peers raw))), (answers e p); reflexivity.
  - intros u Iu. apply in_app_or in Iu. destruct Iu as [Iu|Iu].
    + apply in_omap in Iu. destruct Iu as (p & Ip & Eu). pose proof (U1 _ _ Eu) as Hp. apply SD in Ip. destruct Ip as (I1 & I2 & _).
      assert (K : In (p, key_or_empty vs p) vs).
      { unfold key_or_empty. destruct (vget vs p) eqn:G; [cbn; apply vget_In; exact G|]. apply vget_None in G. contradiction. }
      unfold why. rewrite Hp. rewrite bool_decide_eq_true_2 by (apply elem_of_list_In; exact I2).
      unfold unreach_of in Eu. destruct (g_reply e p); try discriminate; injection Eu as <-; cbn; auto.
    + apply in_map_iff in Iu. destruct Iu as ([p k] & <- & I). apply filter_In in I. cbn in *. destruct I as [I B]. split; [exact I|].
      unfold why. rewrite bool_decide_eq_false_2; [reflexivity|]. rewrite elem_of_list_In. intros Ip. apply negb_true_iff, orb_false_iff in B.
      destruct B as [B1 B2]. apply bool_decide_eq_false in B1. apply bool_decide_eq_false in B2. apply B2. apply elem_of_list_In. apply SD.
      repeat split; auto; [apply in_map_iff; exists (p, k); auto|congruence].
  - eexists _, _. split; [reflexivity|]. split; [reflexivity|]. intros n. rewrite in_omap. split.
    + intros (p & Ip & En). apply SD in Ip. destruct Ip as (I1 & I2 & I3). apply in_map_iff in I1. destruct I1 as ([p' k] & E & I1). cbn in E. subst p'.
      unfold node_of in En. destruct (g_reply e p) as [v| | |] eqn:R; try discriminate. injection En as <-. exists p, k, v. auto 10.
    + intros (p & k & v & I1 & I2 & I3 & R & ->). exists p. split; [apply SD; repeat split; auto; apply in_map_iff; exists (p, k); auto|].
      unfold node_of. rewrite R. reflexivity.
Qed.

(** A validator whose request the gossip task does not take is in no list at all: "surface them rather than silently dropping" fails. *)
Theorem C105_dropped_refuted valid vs h only e raw t p :
  vset_ok valid vs -> g_local e = Some raw -> In p (seed valid (classify valid vs h only raw)) -> g_takes e p = false ->
  crawl valid e vs h only = Some t ->
  entries (t_unreach t) p = 0%nat /\ ~ In p (queried valid e (classify valid vs h only raw)).
Proof.
  intros [ND OKV] El I T C. unfold crawl in C. rewrite El in C. injection C as <-. cbn [t_unreach].
  assert (NQ : ~ In p (queried valid e (classify valid vs h only raw))).
  { unfold queried. rewrite filter_In. intros [_ X]. congruence. }
  split; [|exact NQ]. apply entries_none. intros u Iu Ep. apply in_app_or in Iu. destruct Iu as [Iu|Iu].
  - apply in_omap in Iu. destruct Iu as (q & Iq & Eq). apply NQ. replace p with q; [exact Iq|]. rewrite <- Ep. unfold unreach_of in Eq.
    destruct (g_reply e q); try discriminate; injection Eq as <-; reflexivity.
  - apply in_map_iff in Iu. destruct Iu as ([q k] & <- & Iq). apply filter_In in Iq. cbn in *. subst q. destruct Iq as [_ B].
    apply negb_true_iff, orb_false_iff in B. destruct B as [_ B]. apply bool_decide_eq_false in B. apply B. apply elem_of_list_In. exact I.
Qed.

(** What an answer says about its sender is not compared with the peer that was asked, and a claim to be a validator is kept even
    if the claimed peer is none. *)
Theorem C105_claims_refuted valid vs only v s : v_local v = Some s -> s_isval s = true ->
  exists s', v_local (classify valid vs 0 only v) = Some s' /\ s_pid s' = s_pid s /\ s_isval s' = true /\
             (vmatch valid vs (s_pid s) = None -> s_key s' = s_key s).
Proof.
  intros El Ev. cbn. rewrite El. cbn. exists (classify_self valid vs 0 s). split; [reflexivity|]. unfold classify_self.
  destruct (vmatch valid vs (s_pid s)); cbn; repeat split; auto. discriminate.
Qed.

(** More than 256 connected validators: those past the limit are called "not connected". *)
Definition big_vs : vset := map (fun i => ([N.of_nat i], [1])) (seq 1 257).
Definition big_raw : mview :=
  MView (Some (MSelf [999] [] false 0 0)) (map (fun x => MPeer (fst x) TUnknown None 0) big_vs) 0.
Definition big_env : genv := GEnv (Some big_raw) (fun _ => true) (fun p => RView (MView (Some (MSelf p [] false 0 0)) [] 0)).
Theorem C105_limit_refuted :
  exists t p, crawl (fun _ => true) big_env big_vs 5 true = Some t /\ In p (map p_pid (v_peers big_raw)) /\ answers big_env p = true /\
    In (Unreach p [1] WNotConnected) (t_unreach t).
Proof.
  destruct (crawl (fun _ => true) big_env big_vs 5 true) as [t|] eqn:E; [|discriminate]. exists t, [257].
  split; [reflexivity|]. split; [|split; [reflexivity|]].
  - change (In [257] (map p_pid (v_peers big_raw))). apply elem_of_list_In. apply (bool_decide_eq_true_1 ([257] ∈ map p_pid (v_peers big_raw))). vm_compute. reflexivity.
  - revert E. vm_compute. intros E. injection E as <-. cbn. auto.
Qed.

(** Who is answered: other validators only. *)
Theorem C105_served vs own from : (exists v, serve vs own from = Some v) <-> In from (map fst vs).
Proof.
  unfold serve. destruct (vget vs from) as [k|] eqn:E.
  - split; [intros _|eauto]. apply in_map_iff. exists (from, k). split; [reflexivity|]. apply vget_In. exact E.
  - apply vget_None in E. split; [intros [v H]; discriminate|tauto].
Qed.

Definition ex_vs : vset := [([1], [11]); ([2], [12]); ([3], [13]); ([4], [14])].
Definition ex_raw : mview :=
  MView (Some (MSelf [1] [] false 0 7)) [MPeer [2] TUnknown None 0; MPeer [9] TUnknown None 0; MPeer [3] TUnknown None 0] 0.
Definition ex_env : genv :=
  GEnv (Some ex_raw) (fun _ => true) (fun p => if bool_decide (p = [2]) then RView (MView (Some (MSelf [2] [] false 42 0)) [] 0) else RSilent).
Example C105_ex :
  vset_ok (fun _ => true) ex_vs /\ (length ex_vs <= 256)%nat /\ List.NoDup (map p_pid (v_peers ex_raw)) /\
  crawl (fun _ => true) ex_env ex_vs 100 true =
    Some (Topology
      [MView (Some (MSelf [1] [11] true 100 7)) [MPeer [2] TValidator (Some [12]) 0; MPeer [3] TValidator (Some [13]) 0] 0;
       MView (Some (MSelf [2] [12] true 0 0)) [] 0]
      [Unreach [3] [13] WTimeout; Unreach [4] [14] WNotConnected]).
Proof.
  split; [|split; [cbn; lia|split; [|vm_compute; reflexivity]]].
  - split; [|auto]. cbn. repeat constructor; cbn; intuition discriminate.
  - cbn. repeat constructor; cbn; intuition discriminate.
Qed.

(** * C106: known nodes *)

(** Whatever the table answers is an entry of the table or the configuration that carries the key it was found by. *)
Theorem C106_sound b c p k n : r_lookup (r_config b c) p k = Some n ->
  In n (b ++ c) /\ ((exists x y, k = Some x /\ k_key n = Some y /\ y <> [] /\ lower y = lower x) \/ (k_pid n = Some p /\ p <> [])).
Proof.
  destruct (config_sound b c) as [S1 S2]. unfold r_lookup. destruct (usable k) as [x|] eqn:E.
  - destruct (by_key (r_config b c) !! lower x) as [m|] eqn:G.
    + intros H. injection H as <-. apply S1 in G. destruct G as (I & y & H1 & H2 & H3). apply usable_spec in E. destruct E as [E _].
      split; [exact I|]. left. exists x, y. auto.
    + intros H. apply S2 in H. tauto.
  - intros H. apply S2 in H. tauto.
Qed.
(** The last configured entry is found by each of its keys; the consensus key comes first and its case does not matter. *)
Theorem C106_last b c n k : usable (k_key n) = Some k ->
  forall p k', lower k' = lower k -> r_lookup (r_config b (c ++ [n])) p (Some k') = Some n.
Proof.
  intros Hk p k' El. unfold r_config. rewrite foldl_app. cbn [foldl]. set (r := foldl r_add (r_builtin b) c).
  assert (G : by_key (r_add r n) !! lower k = Some n).
  { apply usable_spec in Hk as Hk'. destruct Hk' as [Hk' _]. unfold r_add. rewrite Hk'. cbn. rewrite Hk. apply lookup_insert. }
  unfold r_lookup. replace (usable (Some k')) with (Some k').
  - rewrite El, G. reflexivity.
  - apply usable_spec in Hk. destruct Hk as [_ N]. destruct k'; [|reflexivity]. destruct k; [congruence|discriminate].
Qed.
Theorem C106_last_pid b c n p : usable (k_pid n) = Some p -> r_lookup (r_config b (c ++ [n])) p None = Some n.
Proof.
  intros Hp. unfold r_config. rewrite foldl_app. cbn [foldl]. set (r := foldl r_add (r_builtin b) c). unfold r_lookup. cbn.
  apply usable_spec in Hp as Hp'. destruct Hp' as [Hp' _]. unfold r_add. rewrite Hp'. destruct (k_key n); cbn; rewrite Hp; apply lookup_insert.
Qed.

(** The keys of a table do not clash, and no configured entry carries the key of one node and the peer id of another. *)
Fixpoint distinct (r : registry) (l : list known) : Prop :=
  match l with
  | [] => True
  | n :: t => (forall k, usable (k_key n) = Some k -> by_key r !! lower k = None) /\
              (forall p, usable (k_pid n) = Some p -> by_pid r !! p = None) /\ distinct (r_insert r n) t
  end.
Fixpoint clean (r : registry) (l : list known) : Prop :=
  match l with [] => True | n :: t => agrees r n /\ clean (r_add r n) t end.
Lemma builtin_whole b : distinct r_empty b -> whole (r_builtin b).
Proof.
  unfold r_builtin. assert (W : whole r_empty). { split; intros ? ? H; cbn in H; rewrite lookup_empty in H; discriminate. }
  revert W. generalize r_empty. induction b as [|n t IH]; intros r W D; cbn; [exact W|]. destruct D as (D1 & D2 & D3). apply IH; auto.
  apply insert_whole; auto.
Qed.
Lemma config_whole_go (P : known -> Prop) l r : (forall n, In n l -> P n) -> sound_reg P r -> whole r -> clean r l -> whole (foldl r_add r l) /\ sound_reg P (foldl r_add r l).
Proof.
  revert r. induction l as [|n t IH]; intros r HP S W C; cbn; [auto|]. destruct C as [A C]. apply IH; auto.
  - intros m I. apply HP. right. exact I.
  - apply add_sound; auto. apply HP. left. reflexivity.
  - apply add_whole with P; auto.
Qed.
Lemma clean_app r a n : clean r (a ++ [n]) -> clean r a /\ agrees (foldl r_add r a) n.
Proof. revert r. induction a as [|x a IH]; intros r; cbn; [tauto|]. intros [A C]. apply IH in C. tauto. Qed.
(** Then every entry that is found by one of its keys is found by the other, *)
Theorem C106_both_keys b c n k p : distinct r_empty b -> clean (r_builtin b) c -> k_key n = Some k -> k <> [] -> k_pid n = Some p -> p <> [] ->
  (r_lookup (r_config b c) [] (Some k) = Some n <-> r_lookup (r_config b c) p None = Some n).
Proof.
  intros D C Ek Nk Ep Np. destruct (config_sound b c) as [S1 S2].
  assert (SB : sound_reg (fun n => In n (b ++ c)) (r_builtin b)).
  { unfold r_builtin. apply foldl_sound.
    - intros; apply insert_sound; auto.
    - apply Forall_forall. intros x. rewrite elem_of_list_In. intros I. apply in_or_app. auto.
    - split; intros ? ? H; cbn in H; rewrite lookup_empty in H; discriminate. }
  destruct (config_whole_go _ c (r_builtin b) (fun n I => in_or_app b c n (or_intror I)) SB (builtin_whole b D) C) as [[W1 W2] _].
  fold (r_config b c) in W1, W2. unfold r_lookup. assert (Uk : usable (Some k) = Some k) by (apply usable_spec; auto).
  rewrite Uk. cbn [usable]. assert (N0 : by_pid (r_config b c) !! [] = None).
  { destruct (by_pid (r_config b c) !! []) eqn:G; [|reflexivity]. apply S2 in G. tauto. }
  split.
  - destruct (by_key (r_config b c) !! lower k) as [m|] eqn:G; [|rewrite N0; discriminate]. intros H. injection H as ->.
    apply (W1 _ _ G). rewrite Ep. apply usable_spec. auto.
  - intros G. rewrite (W2 _ _ G k); [reflexivity|]. rewrite Ek. apply usable_spec. auto.
Qed.
(** and an entry that a configured one replaces is not found any more. *)
Theorem C106_replaced b c n e p k : distinct r_empty b -> clean (r_builtin b) (c ++ [n]) ->
  (exists x, usable (k_key n) = Some x /\ r_lookup (r_config b c) [] (Some x) = Some e) \/
  (exists x, usable (k_pid n) = Some x /\ r_lookup (r_config b c) x (k_key n) = Some e) ->
  e <> n -> r_lookup (r_config b (c ++ [n])) p k <> Some e.
Proof.
  intros D C H Ne. apply clean_app in C. destruct C as [C A].
  assert (SB : sound_reg (fun n => In n (b ++ c)) (r_builtin b)).
  { unfold r_builtin. apply foldl_sound.
    - intros; apply insert_sound; auto.
    - apply Forall_forall. intros x. rewrite elem_of_list_In. intros I. apply in_or_app. auto.
    - split; intros ? ? H0; cbn in H0; rewrite lookup_empty in H0; discriminate. }
  destruct (config_whole_go _ c (r_builtin b) (fun n I => in_or_app b c n (or_intror I)) SB (builtin_whole b D) C) as [W S].
  fold (r_config b c) in W, S, A.
  assert (Ex : r_existing (r_config b c) n = Some e).
  { unfold r_existing. destruct S as [S1 S2]. destruct H as [(x & Hx & L)|(x & Hx & L)].
    - unfold r_lookup in L. apply usable_spec in Hx as Hx'. destruct Hx' as [Hx' Nx]. replace (usable (Some x)) with (Some x) in L by (symmetry; apply usable_spec; auto).
      rewrite Hx. destruct (by_key (r_config b c) !! lower x) as [m|]; [exact L|]. apply S2 in L. tauto.
    - unfold r_lookup in L. rewrite Hx. destruct (usable (k_key n)) as [y|]; [|exact L]. destruct (by_key (r_config b c) !! lower y); exact L. }
  destruct (remove_whole _ _ _ S W A) as (_ & _ & _ & R). destruct (R e Ex) as [R1 R2].
  assert (K1 : forall x, by_key (r_config b (c ++ [n])) !! x <> Some e /\ by_pid (r_config b (c ++ [n])) !! x <> Some e).
  { intros x. unfold r_config. rewrite foldl_app. cbn [foldl]. fold (r_config b c). unfold r_add.
    assert (I : by_key (r_insert (r_remove (r_config b c) n) n) !! x <> Some e /\ by_pid (r_insert (r_remove (r_config b c) n) n) !! x <> Some e).
    { cbn. split.
      - destruct (usable (k_key n)); [|apply R1]. intros G. apply lookup_insert_Some in G. destruct G as [[_ G]|[_ G]]; [congruence|eapply R1; exact G].
      - destruct (usable (k_pid n)); [|apply R2]. intros G. apply lookup_insert_Some in G. destruct G as [[_ G]|[_ G]]; [congruence|eapply R2; exact G]. }
    destruct (k_key n) eqn:E1; [exact I|]. destruct (k_pid n) eqn:E2; [exact I|]. exfalso. unfold r_existing in Ex. rewrite E1, E2 in Ex. discriminate. }
  unfold r_lookup. destruct (usable k) as [y|]; [destruct (by_key (r_config b (c ++ [n])) !! lower y) as [m|] eqn:G|].
  - intros Em. injection Em as ->. exact (proj1 (K1 _) G).
  - apply K1.
  - apply K1.
Qed.

(** Without the condition a node is known under one key and another node under its other key, *)
Definition nA := Known 1 None (Some [97]) (Some [1]) false.
Definition nB := Known 2 None (Some [98]) (Some [2]) false.
Definition nX := Known 3 None (Some [65]) (Some [2]) false.
Definition nY := Known 4 None (Some [98]) (Some [5]) false.
Lemma distinct_AB : distinct r_empty [nA; nB].
Proof.
  cbn [distinct]. split; [|split; [|split; [|split; [|exact I]]]]; intros x E; cbn in E; injection E as <-; vm_compute; reflexivity.
Qed.
Theorem C106_half_refuted :
  distinct r_empty [nA; nB] /\ r_lookup (r_config [nA; nB] [nX]) [2] None = Some nX /\ r_lookup (r_config [nA; nB] [nX]) [2] (Some [98]) = Some nB.
Proof. split; [exact distinct_AB|]. split; vm_compute; reflexivity. Qed.
(** and a later entry for the second node makes the first configured one unknown by its own peer id. *)
Theorem C106_erased_refuted : r_lookup (r_config [nA; nB] [nX; nY]) [2] None = None /\ k_pid nX = Some [2].
Proof. split; vm_compute; reflexivity. Qed.
(** An entry whose keys are empty strings changes nothing (and, unlike one without keys, is not reported). *)
Theorem C106_empty r n : usable (k_key n) = None -> usable (k_pid n) = None -> r_add r n = r.
Proof.
  intros E1 E2. unfold r_add. assert (I : r_insert (r_remove r n) n = r).
  { unfold r_insert, r_remove, r_existing. rewrite E1, E2. destruct r; reflexivity. }
  destruct (k_key n), (k_pid n); auto.
Qed.
Definition nB' := Known 5 (Some [104]) None (Some [2]) false.
Example C106_ex :
  distinct r_empty [nA; nB] /\ clean (r_builtin [nA; nB]) [nB'] /\ r_lookup (r_config [nA; nB] []) [2] None = Some nB /\
  r_lookup (r_config [nA; nB] [nB']) [2] None = Some nB' /\ r_lookup (r_config [nA; nB] [nB']) [] (Some [66]) = None /\
  r_lookup (r_config [nA; nB] [nB']) [2] (Some [65]) = Some nA.
Proof.
  split; [exact distinct_AB|]. split; [split; [|exact I]|repeat split; vm_compute; reflexivity].
  intros k p e1 e2 E. discriminate.
Qed.

(** * C107: a browser's address *)

(** Blocks of addresses: the first address and the length of the prefix. *)
Definition in_block (w x : N) (c : N * N) : bool := x / 2 ^ (w - c.2) =? c.1 / 2 ^ (w - c.2).
Definition ip4 (a b c d : N) : N := ((a * 256 + b) * 256 + c) * 256 + d.
Definition ip6 (l : list N) : N := foldl (fun x s => x * 65536 + s) 0 l.
(** RFC 1918, loopback, link-local, "this host", broadcast. *)
Definition closed4 : list (N * N) :=
  [(ip4 10 0 0 0, 8); (ip4 172 16 0 0, 12); (ip4 192 168 0 0, 16); (ip4 127 0 0 0, 8); (ip4 169 254 0 0, 16);
   (ip4 0 0 0 0, 32); (ip4 255 255 255 255, 32)].
(** ::, ::1, unique-local fc00::/7, link-local fe80::/10, and the IPv4 blocks inside ::ffff:0:0/96. *)
Definition closed6 : list (N * N) :=
  [(0, 128); (1, 128); (ip6 [64512; 0; 0; 0; 0; 0; 0; 0], 7); (ip6 [65152; 0; 0; 0; 0; 0; 0; 0], 10)] ++
  map (fun c => (65535 * 2 ^ 32 + c.1, 96 + c.2)) closed4.

Lemma ip4_inj a b c d a' b' c' d' : b < 256 -> c < 256 -> d < 256 -> b' < 256 -> c' < 256 -> d' < 256 ->
  ip4 a b c d = ip4 a' b' c' d' -> a = a' /\ b = b' /\ c = c' /\ d = d'.
Proof. unfold ip4. lia. Qed.
Ltac Zify.zify_post_hook ::= Z.div_mod_to_equations.
Lemma ip4_div a b c d : b < 256 -> c < 256 -> d < 256 ->
  ip4 a b c d / 16777216 = a /\ ip4 a b c d / 65536 = a * 256 + b /\ ip4 a b c d / 1048576 = a * 16 + b / 16.
Proof. unfold ip4. intros. repeat split; lia. Qed.
Lemma nibble a b : b < 256 -> (a * 16 + b / 16 =? 2753) = (a =? 172) && (16 <=? b) && (b <=? 31).
Proof. intros. apply eq_true_iff_eq; lia. Qed.
Ltac Zify.zify_post_hook ::= idtac.
Lemma private4_blocks a b c d : a < 256 -> b < 256 -> c < 256 -> d < 256 ->
  private4 a b c d = existsb (in_block 32 (ip4 a b c d)) closed4.
Proof.
  intros La Lb Lc Ld. unfold private4, closed4, in_block. cbn [existsb fst snd].
  change (2 ^ (32 - 8)) with 16777216. change (2 ^ (32 - 12)) with 1048576. change (2 ^ (32 - 16)) with 65536. change (2 ^ (32 - 32)) with 1.
  rewrite !N.div_1_r. destruct (ip4_div a b c d Lb Lc Ld) as (-> & -> & ->).
  change (ip4 10 0 0 0 / 16777216) with 10. change (ip4 172 16 0 0 / 1048576) with 2753. change (ip4 192 168 0 0 / 65536) with 49320.
  change (ip4 127 0 0 0 / 16777216) with 127. change (ip4 169 254 0 0 / 65536) with 43518.
  rewrite nibble by exact Lb.
  assert (P2 : (a * 256 + b =? 49320) = (a =? 192) && (b =? 168)) by (apply eq_true_iff_eq; lia).
  assert (P3 : (a * 256 + b =? 43518) = (a =? 169) && (b =? 254)) by (apply eq_true_iff_eq; lia).
  assert (P4 : forall e, e < 256 -> (ip4 a b c d =? ip4 e e e e) = (a =? e) && (b =? e) && (c =? e) && (d =? e)).
  { intros e Le. apply eq_true_iff_eq. rewrite !andb_true_iff, !N.eqb_eq. split.
    - intros E. apply ip4_inj in E; auto. tauto.
    - intros [[[-> ->] ->] ->]. reflexivity. }
  rewrite P2, P3, !P4 by reflexivity. clear. rewrite orb_false_r, !orb_assoc. reflexivity.
Qed.
Lemma land_block s j k : N.land s (N.shiftl (N.ones k) j) = ((s / 2 ^ j) mod 2 ^ k) * 2 ^ j.
Proof.
  rewrite <- N.land_ones, <- N.shiftr_div_pow2, <- N.shiftl_mul_pow2. apply N.bits_inj. intros n. rewrite N.land_spec.
  destruct (n <? j) eqn:L; [apply N.ltb_lt in L|apply N.ltb_ge in L].
  - rewrite !N.shiftl_spec_low by exact L. apply andb_false_r.
  - rewrite !N.shiftl_spec_high' by exact L. rewrite N.land_spec, N.shiftr_spec'. f_equal. f_equal. lia.
Qed.
Lemma split_div hi lo m j : lo < 2 ^ m -> (hi * 2 ^ m + lo) / 2 ^ (m + j) = hi / 2 ^ j.
Proof.
  intros L. rewrite N.pow_add_r, <- N.div_div by (apply N.pow_nonzero; discriminate). f_equal.
  rewrite N.div_add_l by (apply N.pow_nonzero; discriminate). rewrite (N.div_small lo) by exact L. apply N.add_0_r.
Qed.
Lemma low_block hi lo l b : lo < 2 ^ 32 -> b < 2 ^ 32 -> l <= 32 ->
  in_block 128 (hi * 2 ^ 32 + lo) (65535 * 2 ^ 32 + b, 96 + l) = (hi =? 65535) && in_block 32 lo (b, l).
Proof.
  intros Llo Lb Ll. unfold in_block. cbn [fst snd]. replace (128 - (96 + l)) with (32 - l) by lia.
  assert (D : forall h x, x < 2 ^ 32 -> (h * 2 ^ 32 + x) / 2 ^ (32 - l) = h * 2 ^ l + x / 2 ^ (32 - l) /\ x / 2 ^ (32 - l) < 2 ^ l).
  { intros h x Lx. assert (E : 2 ^ 32 = 2 ^ l * 2 ^ (32 - l)) by (rewrite <- N.pow_add_r; f_equal; lia). split.
    - rewrite E at 1. rewrite N.mul_assoc. apply N.div_add_l. apply N.pow_nonzero. discriminate.
    - apply N.div_lt_upper_bound; [apply N.pow_nonzero; discriminate|]. rewrite N.mul_comm, <- E. exact Lx. }
  destruct (D hi lo Llo) as [-> B1]. destruct (D 65535 b Lb) as [-> B2]. set (p := 2 ^ l) in *. set (u := lo / _) in *. set (v := b / _) in *.
  apply eq_true_iff_eq. rewrite andb_true_iff, !N.eqb_eq. split; [|intros [-> ->]; reflexivity]. intros E. clearbody p u v. clear - E B1 B2.
  assert (hi = 65535) by nia. subst. split; [reflexivity|lia].
Qed.
Lemma private6_blocks s0 s1 s2 s3 s4 s5 s6 s7 :
  s0 < 65536 -> s1 < 65536 -> s2 < 65536 -> s3 < 65536 -> s4 < 65536 -> s5 < 65536 -> s6 < 65536 -> s7 < 65536 ->
  private_host (H6 [s0; s1; s2; s3; s4; s5; s6; s7]) = existsb (in_block 128 (ip6 [s0; s1; s2; s3; s4; s5; s6; s7])) closed6.
Proof.
  intros L0 L1 L2 L3 L4 L5 L6 L7. unfold closed6. rewrite existsb_app.
  set (x := ip6 [s0; s1; s2; s3; s4; s5; s6; s7]).
  set (hi := ip6 [s0; s1; s2; s3; s4; s5]). set (lo := s6 * 65536 + s7).
  assert (X1 : x = hi * 2 ^ 32 + lo). { subst x hi lo. unfold ip6. cbn [foldl]. change (2 ^ 32) with 4294967296. lia. }
  assert (Llo : lo < 2 ^ 32) by (subst lo; change (2 ^ 32) with 4294967296; lia).
  set (r := ip6 [0; s1; s2; s3; s4; s5; s6; s7]).
  assert (X2 : x = s0 * 2 ^ 112 + r /\ r < 2 ^ 112).
  { subst x r. unfold ip6. cbn [foldl]. change (2 ^ 112) with 5192296858534827628530496329220096. lia. }
  destruct X2 as [X2 Lr].
  assert (M : existsb (in_block 128 x) (map (fun c => (65535 * 2 ^ 32 + c.1, 96 + c.2)) closed4) =
              (hi =? 65535) && existsb (in_block 32 lo) closed4).
  { rewrite X1. clear - Llo. assert (F : Forall (fun c => c.1 < 2 ^ 32 /\ c.2 <= 32) closed4).
    { unfold closed4. repeat constructor; vm_compute; congruence. }
    induction F as [|[b l] cs [F1 F2] _ IH]; [rewrite andb_false_r; reflexivity|]. cbn [map existsb]. rewrite IH. cbn [fst snd].
    rewrite low_block by assumption. rewrite <- andb_orb_distrib_r. reflexivity. }
  assert (P : existsb (in_block 32 lo) closed4 = private4 (s6 / 256) (s6 mod 256) (s7 / 256) (s7 mod 256)).
  { rewrite private4_blocks by lia. f_equal. f_equal. subst lo. unfold ip4. lia. }
  rewrite M, P.
  assert (B1 : in_block 128 x (0, 128) = (hi =? 0) && (s6 =? 0) && (s7 =? 0)).
  { unfold in_block. cbn [fst snd]. change (2 ^ (128 - 128)) with 1. rewrite !N.div_1_r, X1. clear - L6 L7. subst lo. change (2 ^ 32) with 4294967296. apply eq_true_iff_eq. lia. }
  assert (B2 : in_block 128 x (1, 128) = (hi =? 0) && (s6 =? 0) && (s7 =? 1)).
  { unfold in_block. cbn [fst snd]. change (2 ^ (128 - 128)) with 1. rewrite !N.div_1_r, X1. clear - L6 L7. subst lo. change (2 ^ 32) with 4294967296. apply eq_true_iff_eq. lia. }
  assert (B3 : in_block 128 x (ip6 [64512; 0; 0; 0; 0; 0; 0; 0], 7) = (N.land (s0 / 256) 254 =? 252)).
  { unfold in_block. cbn [fst snd]. rewrite X2. change (128 - 7) with (112 + 9). rewrite split_div by exact Lr.
    change (ip6 [64512; 0; 0; 0; 0; 0; 0; 0] / 2 ^ (112 + 9)) with 126. change 254 with (N.shiftl (N.ones 7) 1). rewrite land_block.
    change (2 ^ 9) with 512. change (2 ^ 1) with 2. change (2 ^ 7) with 128. clear - L0. apply eq_true_iff_eq. rewrite !N.eqb_eq.
    rewrite N.div_div by discriminate. change (256 * 2) with 512. rewrite N.mod_small by lia. lia. }
  assert (B4 : in_block 128 x (ip6 [65152; 0; 0; 0; 0; 0; 0; 0], 10) = (N.land s0 65472 =? 65152)).
  { unfold in_block. cbn [fst snd]. rewrite X2. change (128 - 10) with (112 + 6). rewrite split_div by exact Lr.
    change (ip6 [65152; 0; 0; 0; 0; 0; 0; 0] / 2 ^ (112 + 6)) with 1018. change 65472 with (N.shiftl (N.ones 10) 6). rewrite land_block.
    change (2 ^ 6) with 64. change (2 ^ 10) with 1024. clear - L0. apply eq_true_iff_eq. rewrite !N.eqb_eq. rewrite N.mod_small by lia. lia. }
  cbn [existsb]. rewrite B1, B2, B3, B4.
  assert (H0 : (hi =? 0) = (s0 =? 0) && (s1 =? 0) && (s2 =? 0) && (s3 =? 0) && (s4 =? 0) && (s5 =? 0)).
  { clear - L0 L1 L2 L3 L4 L5. subst hi. unfold ip6. cbn [foldl]. apply eq_true_iff_eq. lia. }
  assert (H1 : (hi =? 65535) = (s0 =? 0) && (s1 =? 0) && (s2 =? 0) && (s3 =? 0) && (s4 =? 0) && (s5 =? 65535)).
  { clear - L0 L1 L2 L3 L4 L5. subst hi. unfold ip6. cbn [foldl]. apply eq_true_iff_eq. lia. }
  rewrite H1, H0. cbn [private_host]. destruct ((s0 =? 0) && (s1 =? 0) && (s2 =? 0) && (s3 =? 0) && (s4 =? 0)) eqn:Z.
  - cbn [andb]. assert (s0 = 0) by lia. subst s0. destruct (s5 =? 65535) eqn:E5.
    + replace (s5 =? 0) with false by lia. cbn. reflexivity.
    + cbn [andb]. change (N.land (0 / 256) 254 =? 252) with false. change (N.land 0 65472 =? 65152) with false. rewrite !orb_false_r.
      destruct (s5 =? 0), (s6 =? 0), (s7 =? 0), (s7 =? 1); reflexivity.
  - cbn [andb]. rewrite orb_false_r. cbn [orb]. rewrite orb_false_r. reflexivity.
Qed.
Ltac Zify.zify_post_hook ::= idtac.

(** A host is called private exactly if its address lies in one of these blocks; a name never is. *)
Definition host_ok (h : host) : Prop :=
  match h with
  | H4 a b c d => a < 256 /\ b < 256 /\ c < 256 /\ d < 256
  | H6 l => length l = 8%nat /\ Forall (fun s => s < 65536) l
  | HDns _ => True
  end.
Definition closed (h : host) : Prop :=
  match h with
  | H4 a b c d => exists c', In c' closed4 /\ in_block 32 (ip4 a b c d) c' = true
  | H6 l => exists c', In c' closed6 /\ in_block 128 (ip6 l) c' = true
  | HDns _ => False
  end.
Theorem C107_private h : host_ok h -> private_host h = true <-> closed h.
Proof.
  destruct h as [a b c d|l|n]; cbn [host_ok closed].
  - intros (A & B & C & D). cbn [private_host]. rewrite private4_blocks by assumption. apply existsb_exists.
  - intros [L F]. destruct l as [|s0 [|s1 [|s2 [|s3 [|s4 [|s5 [|s6 [|s7 [|? ?]]]]]]]]]; try discriminate.
    rewrite Forall_forall in F. rewrite private6_blocks by (apply F; rewrite elem_of_list_In; cbn; tauto). apply existsb_exists.
  - split; [discriminate|tauto].
Qed.
(** The address: none for a node known to be offline; otherwise that of the table; otherwise the address it is connected from, if
    that is not in a closed block. *)
Theorem C107_url k h u : (forall x, h = Some x -> host_ok x) ->
  resolve_url k h = Some u <->
  (forall n, k = Some n -> k_off n = false) /\
  match u with
  | UKnown a => a <> [] /\ exists n, k = Some n /\ k_url n = Some a
  | UObserved x => h = Some x /\ ~ closed x /\ (forall n a, k = Some n -> k_url n = Some a -> a = [])
  end.
Proof.
  intros HO. assert (OB : (match h with Some h => if private_host h then None else Some (UObserved h) | None => None end) = Some u <->
                          exists x, u = UObserved x /\ h = Some x /\ ~ closed x).
  { destruct h as [x|]; [|split; [discriminate|intros (y & _ & H & _); discriminate]]. pose proof (C107_private x (HO x eq_refl)) as CP.
    destruct (private_host x); split; try discriminate.
    - intros (y & _ & H & N). injection H as <-. destruct N. apply CP. reflexivity.
    - intros H. injection H as <-. exists x. repeat split; auto. intros X. apply CP in X. discriminate.
    - intros (y & -> & H & _). congruence. }
  unfold resolve_url. destruct k as [n|].
  - destruct (k_off n) eqn:O.
    + split; [discriminate|]. intros [H _]. rewrite (H n) in O by reflexivity. discriminate.
    + destruct (usable (k_url n)) as [a|] eqn:U.
      * apply usable_spec in U. destruct U as [U N]. split.
        -- intros H. injection H as <-. split; [congruence|]. split; [exact N|]. exists n. auto.
        -- intros [_ H]. destruct u as [b|x].
           ++ destruct H as [_ (m & Em & Eb)]. congruence.
           ++ destruct H as (_ & _ & H). destruct N. eauto.
      * rewrite OB. assert (UE : forall a, k_url n = Some a -> a = []).
        { intros a Ea. rewrite Ea in U. destruct a; [reflexivity|discriminate]. }
        split.
        -- intros (x & -> & H1 & H2). split; [congruence|]. repeat split; auto. intros m a Em. injection Em as <-. auto.
        -- intros [_ H]. destruct u as [b|x].
           ++ destruct H as [N (m & Em & Eb)]. injection Em as <-. destruct N. auto.
           ++ exists x. tauto.
  - rewrite OB. split.
    + intros (x & -> & H1 & H2). split; [discriminate|]. repeat split; auto. discriminate.
    + intros [_ H]. destruct u as [b|x]; [destruct H as [_ (m & Em & _)]; discriminate|]. exists x. tauto.
Qed.
(** "an IP a browser on the public internet can't reach" fails for other closed blocks: carrier-grade NAT (RFC 6598), the reserved
    block 240.0.0.0/4, and the rest of 0.0.0.0/8. *)
Theorem C107_others_refuted d : d < 256 ->
  resolve_url None (Some (H4 100 64 0 d)) = Some (UObserved (H4 100 64 0 d)) /\
  resolve_url None (Some (H4 240 0 0 d)) = Some (UObserved (H4 240 0 0 d)) /\
  resolve_url None (Some (H4 0 0 1 d)) = Some (UObserved (H4 0 0 1 d)).
Proof. intros _. repeat split. Qed.
Example C107_ex :
  host_ok (H6 [65152; 0; 0; 0; 0; 0; 0; 1]) /\ closed (H6 [65152; 0; 0; 0; 0; 0; 0; 1]) /\
  ~ closed (H4 172 32 0 1) /\ closed (H6 [0; 0; 0; 0; 0; 65535; 44063; 1]) /\
  resolve_url (Some nA) (Some (H4 198 51 100 7)) = Some (UObserved (H4 198 51 100 7)).
Proof.
  split; [split; [reflexivity|repeat constructor; lia]|]. split; [|split; [|split; [|vm_compute; reflexivity]]].
  - apply C107_private; [split; [reflexivity|repeat constructor; lia]|vm_compute; reflexivity].
  - rewrite <- C107_private by (cbn; lia). vm_compute. discriminate.
  - apply C107_private; [split; [reflexivity|repeat constructor; lia]|vm_compute; reflexivity].
Qed.

Print Assumptions C105_partition. Print Assumptions C105_peers. Print Assumptions C106_both_keys. Print Assumptions C106_replaced.
Print Assumptions C107_private. Print Assumptions C107_url.
