(** Properties C31-C33 and C54: channels. Histories are arbitrary lists of messages, each seeing its own registry state
    (who owns which channel); messages are assumed to be identified by author, time and hash ([ids_unique]), which is what
    the hash check of validate_message is for. *)
From Verif Require Import ChannelProofs.
From Coq Require Import ZifyN ZifyNat ZifyBool.
#[local] Open Scope N_scope.

Definition msgs (os : list cop) : cmsg -> Prop := fun m => m ∈ map snd os.
Definition history_ok (os : list cop) : Prop := ids_unique (msgs os).
Definition ok (x : cout) : bool := match x with COk _ => true | CErr _ => false end.

(** ** Steps and histories *)
Lemma step_ok U s o s' d : CInv U s -> ids_unique U -> U o.2 -> cstep s o = (s', COk d) ->
  validate_channel o.1 s o.2 = inr tt /\ merge_slot s o.2 = inr (s', d).
Proof.
  intros HI HU Hm Hs. unfold cstep in Hs. destruct (validate_channel o.1 s o.2) as [|[]] eqn:Ev; [done|].
  destruct (merge_slot s o.2) as [|[s1 d1]] eqn:Em; [done|]. injection Hs as -> ->. done.
Qed.
Lemma step_err s o s' e : cstep s o = (s', CErr e) -> s' = s.
Proof.
  unfold cstep. destruct (validate_channel o.1 s o.2); [by intros [= <- _]|]. destruct (merge_slot s o.2) as [|[s1 d1]]; [by intros [= <- _]|done].
Qed.
Lemma step_CInv U s o : CInv U s -> ids_unique U -> U o.2 -> CInv U (cstep s o).1.
Proof.
  intros HI HU Hm. destruct (cstep s o) as [s' [d|e]] eqn:E; cbn [fst].
  - destruct (step_ok U s o s' d HI HU Hm E) as [_ Hmg]. by eapply merge_CInv.
  - by rewrite (step_err _ _ _ _ E).
Qed.
Lemma run_CInv U os : forall s, CInv U s -> ids_unique U -> (forall m, msgs os m -> U m) -> CInv U (crun s os).1.
Proof.
  induction os as [|o os IH]; intros s HI HU Hin; [done|]. cbn [crun]. pose proof (step_CInv U s o HI HU ltac:(apply Hin; unfold msgs; cbn; set_solver)) as HI'.
  destruct (cstep s o) as [s1 x]. cbn [fst] in HI'. specialize (IH s1 HI' HU). destruct (crun s1 os) as [s2 xs]. apply IH.
  intros m Hm. apply Hin. unfold msgs in *. cbn. set_solver.
Qed.
Lemma reach os s outs : history_ok os -> crun ch_init os = (s, outs) -> CInv (msgs os) s.
Proof. intros H Hr. pose proof (run_CInv (msgs os) os ch_init (CInv_init _) H ltac:(done)) as HI. by rewrite Hr in HI. Qed.
Lemma ids_sub (U V : cmsg -> Prop) : (forall m, U m -> V m) -> ids_unique V -> ids_unique U.
Proof. intros H HV a b Ha Hb. apply HV; auto. Qed.
Lemma crun_app s l1 l2 : crun s (l1 ++ l2) = (let '(s1, x1) := crun s l1 in let '(s2, x2) := crun s1 l2 in (s2, x1 ++ x2)).
Proof.
  revert s. induction l1 as [|o l1 IH]; intros s; cbn [app crun]; [by destruct (crun s l2)|].
  destruct (cstep s o) as [s1 x]. rewrite IH. destruct (crun s1 l1) as [s2 x2]. by destruct (crun s2 l2).
Qed.

Lemma action_inv a act : action_of a = Some act ->
  (a = 1 /\ act = AAddMember) \/ (a = 2 /\ act = ARemoveMember) \/ (a = 3 /\ act = AAddModerator) \/ (a = 4 /\ act = ARemoveModerator) \/ (a = 5 /\ act = ABan) \/ (a = 6 /\ act = AUnban) \/ (a = 0 /\ act = ANone).
Proof.
  intros H. destruct (decide (a <= 6)) as [Hl|Hl].
  - assert (a = 0 \/ a = 1 \/ a = 2 \/ a = 3 \/ a = 4 \/ a = 5 \/ a = 6) as Hc by lia.
    destruct Hc as [E|[E|[E|[E|[E|[E|E]]]]]]; subst a; cbn in H; injection H as H; subst act; tauto.
  - exfalso. unfold action_of in H. destruct a as [|p]; [lia|]. do 3 (destruct p as [p|p|]; try lia; try done).
Qed.

(** ** C31: who may do what. [member_state] and [membership_open] are the read functions of the node. *)
Definition is_mod (s : chst) (ch : bytes) (f : N) : Prop := member_state s ch f = inr (Some SModerator).
Definition is_banned (s : chst) (ch : bytes) (f : N) : Prop := member_state s ch f = inr (Some SBanned).

Theorem C31_member_action : forall os pre outs s e m t a s' d,
  history_ok (os ++ [(e, m)]) -> crun ch_init os = (pre, outs) -> pre = s -> cm_body m = BMember t a -> cstep s (e, m) = (s', COk d) ->
  exists owner, e (cm_chan m) = Some owner /\
    let author := cm_fid m in let ch := cm_chan m in
    (a = 3 \/ a = 4 -> owner = Some author) /\
    (author <> t -> owner = Some author \/ is_mod s ch author) /\
    (author = t -> owner <> Some author -> ~ is_mod s ch author -> (a = 1 /\ membership_open s ch = inr true) \/ a = 2) /\
    (is_mod s ch t -> author <> t -> owner = Some author) /\
    (is_banned s ch t -> a = 6) /\
    (a = 6 -> owner = Some author \/ is_mod s ch author) /\
    (a = 5 -> owner <> Some t /\ owner <> None /\ (owner = Some author \/ is_mod s ch author)) /\
    (owner = None -> a = 2 /\ author = t).
Proof.
  intros os pre outs s e m t a s' d Hok Hr -> Hb Hs.
  assert (HU : ids_unique (msgs os)). { eapply ids_sub; [|exact Hok]. unfold msgs. intros x Hx. rewrite map_app. set_solver. }
  unfold cstep in Hs. cbn [fst snd] in Hs. destruct (validate_channel e s m) as [|[]] eqn:Ev; [done|]. clear Hs.
  unfold validate_channel in Ev. cbv zeta in Ev. destruct (negb _); [done|]. rewrite Hb in Ev. destruct (e (cm_chan m)) as [owner|]; [|done]. exists owner. split; [done|]. cbv zeta.
  destruct (match owner with Some _ => false | None => _ end) eqn:Ep; [done|].
  unfold author_role in Ev. destruct (bool_decide_reflect (owner = Some (cm_fid m))) as [Eo|Eo].
  - destruct (action_of a) as [act|] eqn:Ea; [|done]. destruct (member_state s (cm_chan m) t) as [|ts] eqn:Ets; [done|].
    destruct (membership_open s (cm_chan m)) as [|op]; [done|]. rewrite Eo in *.
    unfold is_mod, is_banned. rewrite Ets.
    pose proof (action_inv a act Ea) as Hact.
    assert (Hn5 : a = 5 -> act = ABan) by (intros ->; by injection Ea). assert (Hn6 : act = AUnban -> a = 6) by naive_solver.
    split; [done|]. split; [auto|]. split; [done|]. split; [auto|]. split.
    { intros [= ->]. unfold authority in Ev. destruct act; cbn in Ev; try done; [|by apply Hn6]. by destruct (bool_decide (Some (cm_fid m) = Some t)). }
    split; [auto|]. split.
    { intros H5. apply Hn5 in H5 as ->. split; [|split; [done|auto]]. intros [= E]. rewrite E in Ev. rewrite (bool_decide_true (Some t = Some t)) in Ev by done. done. }
    done.
  - destruct (member_state s (cm_chan m) (cm_fid m)) as [|ms] eqn:Ems; [done|].
    assert (Hrole : exists r, (match ms with Some SModerator => inr RModerator | Some SMember => inr RMember | _ => inr ROther end : cerr + role) = inr r /\
      (r = RModerator <-> ms = Some SModerator) /\ r <> ROwner).
    { destruct ms as [[]|]; eexists; (split; [reflexivity|]); (split; [|done]); split; congruence. }
    destruct Hrole as (r & Hr' & Hrm & Hro). rewrite Hr' in Ev.
    destruct (action_of a) as [act|] eqn:Ea; [|done]. destruct (member_state s (cm_chan m) t) as [|ts] eqn:Ets; [done|].
    destruct (membership_open s (cm_chan m)) as [|op]; [done|].
    pose proof (action_inv a act Ea) as Hact.
    destruct (authority act r ts (cm_fid m =? t) op (bool_decide (owner = Some t))) eqn:Ed; try done.
    unfold is_mod, is_banned. rewrite Ets, Ems. unfold authority in Ed. rewrite (bool_decide_false (r = ROwner)) in Ed by done.
    assert (Hself : (cm_fid m =? t) = true -> ts = ms) by (intros E; apply N.eqb_eq in E; rewrite E in Ems; congruence).
    assert (Hrmod : bool_decide (r = RModerator) = true -> ms = Some SModerator) by (intros E; apply bool_decide_eq_true in E; by apply Hrm).
    assert (Hpark : owner = None -> a = 2 /\ cm_fid m = t).
    { intros ->. destruct (N.eqb_spec a 2), (N.eqb_spec t (cm_fid m)); cbn in Ep; done. }
    clear Ev Ep Ea.
    destruct Hact as [[E1 E2]|[[E1 E2]|[[E1 E2]|[[E1 E2]|[[E1 E2]|[[E1 E2]|[E1 E2]]]]]]]; subst a act; cbn in Ed.
    all: try done.
    + destruct ts as [[]|]; cbn in Ed; try done; destruct (bool_decide (r = RModerator)) eqn:Em; cbn in Ed; destruct (N.eqb_spec (cm_fid m) t) as [Et|Et]; cbn in Ed; destruct op; try done.
      all: repeat split; try (intros; first [done | naive_solver | lia]).
      all: naive_solver.
    + destruct ts as [[]|]; cbn in Ed; try done; destruct (bool_decide (r = RModerator)) eqn:Em; cbn in Ed; destruct (N.eqb_spec (cm_fid m) t) as [Et|Et]; cbn in Ed; try done.
      all: repeat split; try (intros; first [done | naive_solver | lia]).
    + destruct ts as [[]|]; cbn in Ed; done.
    + destruct ts as [[]|]; cbn in Ed; done.
    + destruct (bool_decide_reflect (owner = Some t)) as [|Hot]; [done|]. cbn in Ed.
      destruct ts as [[]|]; cbn in Ed; try done; destruct (bool_decide (r = RModerator)) eqn:Em; cbn in Ed; try done.
      all: specialize (Hrmod eq_refl); subst ms; repeat split; try (intros; first [done | naive_solver | lia]).
    + destruct ts as [[]|]; cbn in Ed; try done; destruct (bool_decide (r = RModerator)) eqn:Em; cbn in Ed; try done.
      specialize (Hrmod eq_refl). subst ms. repeat split; try (intros; first [done | naive_solver | lia]).
Qed.

(** Updates come from the owner; pins and moderation from the owner or a moderator. *)
(** The rule table in full: who may do it, and when the refusal is because the target is banned. *)
Inductive may : maction -> role -> option mstate -> bool -> bool -> bool -> Prop :=
  | may_admit r t self opn own : r = ROwner \/ r = RModerator \/ (self = true /\ opn = true) -> t = None \/ t = Some SRemoved -> may AAddMember r t self opn own
  | may_drop r self opn own : r = ROwner \/ r = RModerator \/ self = true -> may ARemoveMember r (Some SMember) self opn own
  | may_resign r opn own : may ARemoveMember r (Some SModerator) true opn own
  | may_promote t self opn own : t = None \/ t = Some SRemoved \/ t = Some SMember -> may AAddModerator ROwner t self opn own
  | may_demote self opn own : may ARemoveModerator ROwner (Some SModerator) self opn own
  | may_ban r t self opn : r = ROwner \/ (r = RModerator /\ t <> Some SModerator) -> t <> Some SBanned -> may ABan r t self opn false
  | may_unban r self opn own : r = ROwner \/ r = RModerator -> may AUnban r (Some SBanned) self opn own.
Theorem C31_authority_exact : forall a r t self opn own,
  (authority a r t self opn own = DAllowed <-> may a r t self opn own) /\
  (authority a r t self opn own = DBanned <-> t = Some SBanned /\ a <> AUnban /\ a <> ANone /\ ~ (a = ABan /\ own = true)) /\
  (authority a r t self opn own = DOwnerUnbannable <-> a = ABan /\ own = true).
Proof.
  intros a r t self opn own. split; [split|split; split].
  - intros H. destruct a, r, t as [[]|], self, opn, own; try discriminate H; constructor; naive_solver.
  - intros H. destruct H as [[] [[]|] [] [] []|[] [] [] []|[] [] []|[[]|] [] [] []|[] [] []|[] [[]|] [] []|[] [] [] []]; try done; exfalso; intuition congruence.
  - intros H. destruct a, r, t as [[]|], self, opn, own; try discriminate H; repeat split; try done; intros [? ?]; done.
  - intros (-> & H1 & H2 & H3). destruct a, r, self, opn, own; try done; destruct H3; done.
  - intros H. destruct a, r, t as [[]|], self, opn, own; try discriminate H; done.
  - intros (-> & ->). by destruct r, t as [[]|], self, opn.
Qed.

Theorem C31_other_actions : forall s e m s' d, cstep s (e, m) = (s', COk d) ->
  match cm_body m with
  | BUpdate _ _ => e (cm_chan m) = Some (Some (cm_fid m))
  | BPin _ | BModerate _ _ => exists f, e (cm_chan m) = Some (Some f) /\ (f = cm_fid m \/ is_mod s (cm_chan m) (cm_fid m))
  | BMember _ _ => True
  end.
Proof.
  intros s e m s' d Hs. unfold cstep in Hs. cbn [fst snd] in Hs. destruct (validate_channel e s m) as [|[]] eqn:Ev; [done|]. clear Hs.
  unfold validate_channel in Ev. cbv zeta in Ev. destruct (negb _); [done|]. destruct (match cm_body m with BModerate _ _ => _ | _ => false end); [done|].
  destruct (e (cm_chan m)) as [[f|]|]; [|destruct (cm_body m); done|done].
  unfold author_role in Ev. destruct (bool_decide_reflect (Some f = Some (cm_fid m))) as [Ef|Hne]; [injection Ef as Ef; subst f|].
  - destruct (cm_body m); try done; eauto.
  - destruct (cm_body m); try done.
    + destruct (member_state s (cm_chan m) (cm_fid m)) as [|[[]|]]; done.
    + exists f. split; [done|]. right. unfold is_mod. destruct (member_state s (cm_chan m) (cm_fid m)) as [|[[]|]]; done.
    + exists f. split; [done|]. right. unfold is_mod. destruct (member_state s (cm_chan m) (cm_fid m)) as [|[[]|]]; done.
Qed.

(** How one accepted message changes the visible member states. *)
Lemma member_state_view U s ch f : CInv U s -> f < 2 ^ 32 ->
  member_state s ch f = inr (match view s !! (1, ch, be 4 f) with Some m => member_state_of (cm_body m) | None => None end).
Proof.
  intros HI Hf. unfold member_state. destruct (N.ltb_spec f (2 ^ 32)); [|lia]. rewrite (load_view U) by done. destruct (view s !! (1, ch, be 4 f)) as [m|] eqn:E; [|done].
  destruct (view_ok U s _ _ HI E) as (Hk & _ & _ & Hok). unfold slot_key in Hk. destruct (cm_body m) as [| t a| |] eqn:Eb; cbn in Hk; try done.
  cbn [slot_message_ok] in Hok. by destruct (member_state_of (BMember t a)).
Qed.
Lemma member_state_step U s e m s' d ch f : CInv U s -> ids_unique U -> U m -> f < 2 ^ 32 -> cstep s (e, m) = (s', COk d) ->
  member_state s' ch f =
    match cm_body m with
    | BMember t a => if decide (cm_chan m = ch /\ t = f) then inr (action_of a ≫= mstate_of_action) else member_state s ch f
    | _ => member_state s ch f
    end.
Proof.
  intros HI HU Hm Hf Hs. destruct (step_ok U s (e, m) s' d HI HU Hm Hs) as [_ Hmg]. cbn [snd] in Hmg.
  destruct (merge_spec U s m s' d HI HU Hm Hmg) as (x & Hx & _ & _ & _ & _ & Hv & HI' & _).
  rewrite (member_state_view U s' ch f HI' Hf), (member_state_view U s ch f HI Hf), Hv.
  destruct (cm_body m) as [| t a| |] eqn:Eb; cbn [kind] in *.
  all: try (rewrite lookup_insert_ne by congruence; done).
  cbn [slot_suffix] in Hx. destruct (N.ltb_spec t (2 ^ 32)) as [Ht|]; [|done]. injection Hx as Hx.
  destruct (decide (cm_chan m = ch /\ t = f)) as [[<- <-]|Hne].
  - rewrite <- Hx, lookup_insert. by rewrite Eb.
  - rewrite lookup_insert_ne; [done|]. intros E. apply Hne. rewrite <- Hx in E. assert (cm_chan m = ch) by congruence. split; [done|].
    apply (be_inj 4); [exact Ht|exact Hf|]. congruence.
Qed.

(** What an accepted membership message does: the target gets the status of the action, nobody else changes. *)
Definition status_after (a : N) : option mstate :=
  if a =? 1 then Some SMember else if a =? 2 then Some SRemoved else if a =? 3 then Some SModerator else if a =? 4 then Some SMember
  else if a =? 5 then Some SBanned else if a =? 6 then Some SRemoved else None.
Theorem C31_effect : forall os s outs e m s' d, history_ok (os ++ [(e, m)]) -> crun ch_init os = (s, outs) -> cstep s (e, m) = (s', COk d) ->
  forall ch f, f < 2 ^ 32 -> member_state s' ch f =
    match cm_body m with
    | BMember t a => if decide (cm_chan m = ch /\ t = f) then inr (status_after a) else member_state s ch f
    | _ => member_state s ch f
    end.
Proof.
  intros os s outs e m s' d Hok Hr Hs ch f Hf.
  assert (Hsub : forall y, msgs os y -> msgs (os ++ [(e, m)]) y) by (unfold msgs; intros y Hy; rewrite map_app; set_solver).
  pose proof (run_CInv _ os ch_init (CInv_init _) Hok Hsub) as HI. rewrite Hr in HI. cbn [fst] in HI.
  rewrite (member_state_step _ s e m s' d ch f HI Hok ltac:(unfold msgs; rewrite map_app; cbn; set_solver) Hf Hs).
  destruct (cm_body m) as [| t a| |]; try done. destruct (decide (cm_chan m = ch /\ t = f)); [|done]. f_equal. unfold status_after.
  destruct (action_of a) as [act|] eqn:Ea.
  - apply action_inv in Ea. by destruct Ea as [[-> ->]|[[-> ->]|[[-> ->]|[[-> ->]|[[-> ->]|[[-> ->]|[-> ->]]]]]]].
  - cbn. assert (Hn : forall n, action_of n <> None -> a <> n) by congruence.
    by rewrite (proj2 (N.eqb_neq a 1) (Hn 1 ltac:(done))), (proj2 (N.eqb_neq a 2) (Hn 2 ltac:(done))), (proj2 (N.eqb_neq a 3) (Hn 3 ltac:(done))),
      (proj2 (N.eqb_neq a 4) (Hn 4 ltac:(done))), (proj2 (N.eqb_neq a 5) (Hn 5 ltac:(done))), (proj2 (N.eqb_neq a 6) (Hn 6 ltac:(done))).
Qed.

(** A moderator was appointed by the owner: somewhere in the history the owner of that moment appointed them, and since
    then no accepted message touched their membership. *)
Theorem C31_moderators_appointed_by_owner : forall os s outs ch f, history_ok os -> crun ch_init os = (s, outs) -> f < 2 ^ 32 -> is_mod s ch f ->
  exists pre e m post, os = pre ++ (e, m) :: post /\ cm_chan m = ch /\ cm_body m = BMember f 3 /\
    e ch = Some (Some (cm_fid m)) /\ ok (cstep (crun ch_init pre).1 (e, m)).2 = true /\
    forall pre2 e2 m2 post2 a2, post = pre2 ++ (e2, m2) :: post2 -> cm_chan m2 = ch -> cm_body m2 = BMember f a2 ->
      ok (cstep (crun ch_init (pre ++ (e, m) :: pre2)).1 (e2, m2)).2 = false.
Proof.
  intros os. induction os as [|[e m] os IH] using rev_ind; intros s outs ch f Hok Hr Hf Hmod.
  { injection Hr as <- <-. unfold is_mod, member_state, load_slot in Hmod. by destruct (f <? 2 ^ 32). }
  rewrite crun_app in Hr. destruct (crun ch_init os) as [s1 outs1] eqn:E1. cbn [crun] in Hr. destruct (cstep s1 (e, m)) as [s2 x] eqn:E2. injection Hr as <- <-.
  assert (Hsub : forall y, msgs os y -> msgs (os ++ [(e, m)]) y) by (unfold msgs; intros y Hy; rewrite map_app; set_solver).
  assert (Hok1 : history_ok os) by (eapply ids_sub; [exact Hsub|exact Hok]).
  assert (Hm : msgs (os ++ [(e, m)]) m) by (unfold msgs; rewrite map_app; cbn; set_solver).
  assert (HI : CInv (msgs (os ++ [(e, m)])) s1).
  { pose proof (run_CInv _ os ch_init (CInv_init _) Hok Hsub) as H. by rewrite E1 in H. }
  assert (Hext : is_mod s1 ch f -> (forall a2, cm_chan m = ch -> cm_body m = BMember f a2 -> ok x = false) ->
    exists pre e' m' post, os ++ [(e, m)] = pre ++ (e', m') :: post /\ cm_chan m' = ch /\ cm_body m' = BMember f 3 /\
    e' ch = Some (Some (cm_fid m')) /\ ok (cstep (crun ch_init pre).1 (e', m')).2 = true /\
    forall pre2 e2 m2 post2 a2, post = pre2 ++ (e2, m2) :: post2 -> cm_chan m2 = ch -> cm_body m2 = BMember f a2 ->
      ok (cstep (crun ch_init (pre ++ (e', m') :: pre2)).1 (e2, m2)).2 = false).
  { intros Hs1 Hx. destruct (IH s1 outs1 ch f Hok1 eq_refl Hf Hs1) as (pre & e' & m' & post & -> & Ha & Hb & Hc & Hd & He).
    exists pre, e', m', (post ++ [(e, m)]). split; [by rewrite <- app_assoc|]. do 4 (split; [done|]).
    intros pre2 e2 m2 post2 a2 Hp Hc2 Hb2. destruct post2 as [|q post2' _] using rev_ind.
    - apply app_inj_tail in Hp as [<- [= <- <-]]. rewrite E1. cbn [fst]. rewrite E2. cbn [snd]. eauto.
    - assert (Hp' : post ++ [(e, m)] = (pre2 ++ (e2, m2) :: post2') ++ [q]) by (rewrite Hp; by rewrite <- app_assoc).
      apply app_inj_tail in Hp' as [-> _]. eapply He; eauto. }
  destruct x as [d|er].
  - pose proof (member_state_step _ s1 e m s2 d ch f HI Hok Hm Hf E2) as Hst. unfold is_mod in Hmod. rewrite Hst in Hmod.
    destruct (cm_body m) as [| t a| |] eqn:Eb; try (apply Hext; [done|]; intros; congruence).
    destruct (decide (cm_chan m = ch /\ t = f)) as [[<- <-]|Hne].
    + assert (a = 3) as ->.
      { destruct (action_of a) as [act|] eqn:Ea; [|done]. destruct act; cbn in Hmod; try done.
        pose proof (action_inv _ _ Ea). naive_solver. }
      exists os, e, m, []. split; [done|]. split; [done|]. split; [done|]. split.
      { destruct (C31_member_action os s1 outs1 s1 e m t 3 s2 d Hok E1 eq_refl Eb E2) as (owner & Ho & Hown & _). rewrite Ho. f_equal. apply Hown. by left. }
      split; [rewrite E1; cbn [fst]; by rewrite E2|]. intros pre2 e2 m2 post2 a2 Hp. by destruct pre2.
    + apply Hext; [done|]. intros a2 Hc Hb. injection Hb as -> ->. tauto.
  - apply step_err in E2 as ->. apply Hext; [done|done].
Qed.

(** A ban holds until lifted: if the account is no longer banned, somebody who at that moment was the owner or a moderator
    unbanned it. *)
Theorem C31_ban_until_lifted : forall os1 os2 s1 outs1 s2 outs2 ch f, history_ok (os1 ++ os2) ->
  crun ch_init os1 = (s1, outs1) -> crun s1 os2 = (s2, outs2) -> f < 2 ^ 32 -> is_banned s1 ch f -> ~ is_banned s2 ch f ->
  exists pre e m post, os2 = pre ++ (e, m) :: post /\ cm_chan m = ch /\ cm_body m = BMember f 6 /\
    ok (cstep (crun s1 pre).1 (e, m)).2 = true /\ (e ch = Some (Some (cm_fid m)) \/ is_mod (crun s1 pre).1 ch (cm_fid m)).
Proof.
  intros os1 os2. induction os2 as [|[e m] os2 IH] using rev_ind; intros s1 outs1 s2 outs2 ch f Hok Hr1 Hr2 Hf Hb Hnb.
  { injection Hr2 as <- <-. done. }
  rewrite crun_app in Hr2. destruct (crun s1 os2) as [s3 outs3] eqn:E3. cbn [crun] in Hr2. destruct (cstep s3 (e, m)) as [s4 x] eqn:E4. injection Hr2 as <- <-.
  assert (Hall : (os1 ++ os2) ++ [(e, m)] = os1 ++ os2 ++ [(e, m)]) by (by rewrite <- app_assoc).
  assert (Hsub : forall y, msgs (os1 ++ os2) y -> msgs (os1 ++ os2 ++ [(e, m)]) y) by (unfold msgs; intros y Hy; rewrite !map_app in *; set_solver).
  assert (Hok1 : history_ok (os1 ++ os2)) by (eapply ids_sub; [exact Hsub|exact Hok]).
  assert (Hm : msgs (os1 ++ os2 ++ [(e, m)]) m) by (unfold msgs; rewrite !map_app; cbn; set_solver).
  assert (Hr : crun ch_init (os1 ++ os2) = (s3, outs1 ++ outs3)) by (rewrite crun_app, Hr1, E3; done).
  assert (HI : CInv (msgs (os1 ++ os2 ++ [(e, m)])) s3).
  { pose proof (run_CInv _ (os1 ++ os2) ch_init (CInv_init _) Hok Hsub) as H. by rewrite Hr in H. }
  destruct (decide (member_state s3 ch f = inr (Some SBanned))) as [Hb3|Hnb3].
  - destruct x as [d|er]; [|apply step_err in E4 as ->; done].
    pose proof (member_state_step _ s3 e m s4 d ch f HI Hok Hm Hf E4) as Hst. unfold is_banned in Hnb. rewrite Hst in Hnb.
    destruct (cm_body m) as [| t a| |] eqn:Eb; try done. destruct (decide (cm_chan m = ch /\ t = f)) as [[<- <-]|]; [|done].
    exists os2, e, m, []. split; [done|]. split; [done|]. rewrite E3. cbn [fst]. rewrite E4.
    rewrite <- Hall in Hok. destruct (C31_member_action (os1 ++ os2) s3 _ s3 e m t a s4 d Hok Hr eq_refl Eb E4) as (owner & Ho & _ & _ & _ & _ & H6 & H6' & _).
    specialize (H6 Hb3) as ->. split; [done|]. split; [done|]. rewrite Ho. destruct (H6' eq_refl) as [->|]; auto.
  - destruct (IH s1 outs1 s3 outs3 ch f Hok1 Hr1 E3 Hf Hb Hnb3) as (pre & e' & m' & post & -> & Ha & Hb' & Hc & Hd).
    exists pre, e', m', (post ++ [(e, m)]). split; [by rewrite <- app_assoc|]. auto.
Qed.

(** ** C32 *)
Lemma cnt_list (P : skey * cmsg -> bool) (v : gmap skey cmsg) (g : skey * cmsg -> N) :
  (forall k1 m1 k2 m2, v !! k1 = Some m1 -> v !! k2 = Some m2 -> P (k1, m1) = true -> P (k2, m2) = true -> g (k1, m1) = g (k2, m2) -> k1 = k2) ->
  exists l : list N, NoDup l /\ length l = cntP P v /\ forall f, f ∈ l <-> exists k m, v !! k = Some m /\ P (k, m) = true /\ g (k, m) = f.
Proof.
  intros Hinj. exists (g <$> map_to_list (filter (fun kv => P kv = true) v)). split; [|split].
  - apply NoDup_fmap_2_strong; [|apply NoDup_map_to_list]. intros [k1 m1] [k2 m2] H1 H2 Hg.
    apply elem_of_map_to_list, map_filter_lookup_Some in H1 as [H1 P1]. apply elem_of_map_to_list, map_filter_lookup_Some in H2 as [H2 P2].
    assert (k1 = k2) as -> by eauto. congruence.
  - by rewrite fmap_length.
  - intros f. rewrite elem_of_list_fmap. split.
    + intros ([k m] & -> & Hin). apply elem_of_map_to_list, map_filter_lookup_Some in Hin as [Hin HP]. eauto.
    + intros (k & m & Hk & HP & <-). exists (k, m). split; [done|]. apply elem_of_map_to_list, map_filter_lookup_Some. done.
Qed.
Definition target (kv : skey * cmsg) : N := match cm_body kv.2 with BMember t _ => t | _ => 0 end.
Lemma member_slot U s ch k m : CInv U s -> view s !! k = Some m -> k.1 = (1, ch) -> exists t a, cm_body m = BMember t a /\ t < 2 ^ 32 /\ k = (1, ch, be 4 t).
Proof.
  intros HI Hv Hk. destruct (view_ok U s k m HI Hv) as (Hs & _). unfold slot_key in Hs. destruct (slot_suffix (cm_body m)) as [x|] eqn:Ex; [|done]. cbn in Hs.
  apply (inj Some) in Hs. subst k. cbn in Hk. apply pair_equal_spec in Hk as [Hk Hc]. destruct (cm_body m) as [| t a| |]; cbn in Hk; try done.
  exists t, a. cbn [slot_suffix] in Ex. destruct (N.ltb_spec t (2 ^ 32)); [|done]. split; [done|]. split; [done|]. apply (inj Some) in Ex. rewrite Hc, <- Ex. done.
Qed.

(** Number of live moderators: the stored counter is the number of accounts the node would report as moderators, at most 10. *)
Theorem C32_moderators : forall os s outs ch, history_ok os -> crun ch_init os = (s, outs) ->
  exists l, NoDup l /\ (forall f, f ∈ l <-> f < 2 ^ 32 /\ is_mod s ch f) /\ counter (c_live s !! ch) = N.of_nat (length l) /\ (length l <= 10)%nat.
Proof.
  intros os s outs ch Hok Hr. pose proof (reach os s outs Hok Hr) as HI. pose proof HI as (_ & _ & _ & _ & _ & H6 & _).
  assert (Hslot : forall k m, view s !! k = Some m -> live_in ch (k, m) = true -> exists t, cm_body m = BMember t (match cm_body m with BMember _ a => a | _ => 0 end) /\ t < 2 ^ 32 /\ k = (1, ch, be 4 t) /\ member_state_of (cm_body m) = Some SModerator).
  { intros k m Hv Hl. unfold live_in in Hl. apply andb_prop in Hl as [Hk Hl]. apply bool_decide_eq_true in Hk. cbn in Hk.
    destruct (member_slot _ _ _ _ _ HI Hv Hk) as (t & a & Hb & Ht & ->). exists t. unfold is_live_moderator in Hl. apply bool_decide_eq_true in Hl. rewrite Hb at 1 2. eauto. }
  destruct (cnt_list (live_in ch) (view s) target) as (l & Hnd & Hlen & Hl).
  { intros k1 m1 k2 m2 V1 V2 P1 P2 Hg. destruct (Hslot _ _ V1 P1) as (t1 & B1 & _ & -> & _). destruct (Hslot _ _ V2 P2) as (t2 & B2 & _ & -> & _).
    unfold target in Hg. cbn [snd] in Hg. rewrite B1, B2 in Hg. congruence. }
  exists l. split; [done|]. split; [|split; [by rewrite H6, Hlen|]].
  - intros f. rewrite Hl. split.
    + intros (k & m & Hv & HP & <-). destruct (Hslot _ _ Hv HP) as (t & B & Ht & -> & Hst). unfold target. cbn [snd]. rewrite B. split; [done|].
      unfold is_mod. rewrite (member_state_view _ _ _ _ HI Ht), Hv. congruence.
    + intros [Hf Hm]. unfold is_mod in Hm. rewrite (member_state_view _ _ _ _ HI Hf) in Hm. destruct (view s !! (1, ch, be 4 f)) as [m|] eqn:Hv; [|done].
      exists (1, ch, be 4 f), m. split; [done|]. assert (Hl' : live_in ch (1, ch, be 4 f, m) = true).
      { unfold live_in. cbn [fst snd]. rewrite bool_decide_true by done. unfold is_live_moderator. rewrite bool_decide_true by congruence. done. }
      split; [done|]. destruct (Hslot _ _ Hv Hl') as (t & B & Ht & E & _). unfold target. cbn [snd]. rewrite B.
      apply (be_inj 4); [exact Ht|exact Hf|]. congruence.
  - (* the cap *)
    assert (Hcap : forall os s outs, history_ok os -> crun ch_init os = (s, outs) -> counter (c_live s !! ch) <= 10).
    { clear. intros os. induction os as [|[e m] os IH] using rev_ind; intros s outs Hok Hr; [injection Hr as <- <-; unfold ch_init; cbn [c_live]; rewrite lookup_empty; apply N.le_0_l|].
      rewrite crun_app in Hr. destruct (crun ch_init os) as [s1 outs1] eqn:E1. cbn [crun] in Hr. destruct (cstep s1 (e, m)) as [s2 x] eqn:E2. injection Hr as <- <-.
      assert (Hsub : forall y, msgs os y -> msgs (os ++ [(e, m)]) y) by (unfold msgs; intros y Hy; rewrite map_app; set_solver).
      assert (Hm : msgs (os ++ [(e, m)]) m) by (unfold msgs; rewrite map_app; cbn; set_solver).
      specialize (IH s1 outs1 (ids_sub _ _ Hsub Hok) eq_refl). destruct x as [d|er]; [|apply step_err in E2 as ->; done].
      assert (HI : CInv (msgs (os ++ [(e, m)])) s1). { pose proof (run_CInv _ os ch_init (CInv_init _) Hok Hsub) as H. by rewrite E1 in H. }
      destruct (step_ok _ s1 (e, m) s2 d HI Hok Hm E2) as [Hv Hmg]. cbn [fst snd] in *.
      destruct (merge_spec _ s1 m s2 d HI Hok Hm Hmg) as (x & Hx & _ & _ & _ & _ & Hview & HI' & _).
      pose proof HI as (_ & _ & _ & _ & _ & H6 & _). pose proof HI' as (_ & _ & _ & _ & _ & H6' & _). rewrite H6' in *. rewrite H6 in IH.
      rewrite Hview. pose proof (cntP_insert (live_in ch) (view s1) (kind (cm_body m), cm_chan m, x) m) as Hc.
      destruct (live_in ch (kind (cm_body m), cm_chan m, x, m)) eqn:El; [|cbn [b2n] in Hc; lia]. cbn [b2n] in Hc.
      unfold live_in in El. apply andb_prop in El as [Ek El]. apply bool_decide_eq_true in Ek. cbn [fst] in Ek.
      unfold is_live_moderator in El. apply bool_decide_eq_true in El. cbn [snd] in El.
      destruct (cm_body m) as [| t a| |] eqn:Eb; cbn in Ek; try done. assert (Ech : cm_chan m = ch) by congruence.
      unfold validate_channel in Hv. cbv zeta in Hv. destruct (negb _); [done|]. rewrite Eb in Hv. destruct (e (cm_chan m)) as [owner|]; [|done].
      destruct (match owner with Some _ => false | None => _ end); [done|]. destruct (author_role s1 (cm_chan m) (cm_fid m) owner) as [|r]; [done|].
      cbn in El. destruct (action_of a) as [act|]; [|done]. cbn in El. destruct (member_state s1 (cm_chan m) t) as [|ts]; [done|].
      destruct (membership_open s1 (cm_chan m)) as [|op]; [done|]. destruct (authority act r ts _ op _); try done.
      destruct act; cbn in El; try done. rewrite bool_decide_true in Hv by done. cbn [andb] in Hv. rewrite Ech in Hv.
      destruct (N.leb_spec MODERATOR_CAP (counter (c_live s1 !! ch))) as [|Hlt]; [done|]. rewrite H6 in Hlt. unfold MODERATOR_CAP in Hlt. lia. }
    specialize (Hcap os s outs Hok Hr). rewrite H6 in Hcap. lia.
Qed.

(** Used member slots: the counter is the number of accounts with any membership record, at most 8192. *)
Theorem C32_member_slots : forall os s outs ch, history_ok os -> crun ch_init os = (s, outs) ->
  exists l, NoDup l /\ (forall f, f ∈ l <-> f < 2 ^ 32 /\ exists st, member_state s ch f = inr (Some st)) /\
    counter (c_cnt s !! (1, ch)) = N.of_nat (length l) /\ N.of_nat (length l) <= 8192.
Proof.
  intros os s outs ch Hok Hr. pose proof (reach os s outs Hok Hr) as HI. pose proof HI as (_ & _ & _ & H4 & H5 & _).
  destruct (cnt_list (in_slots 1 ch) (view s) target) as (l & Hnd & Hlen & Hl).
  { intros k1 m1 k2 m2 V1 V2 P1 P2 Hg. apply bool_decide_eq_true in P1, P2. cbn in P1, P2.
    destruct (member_slot _ _ _ _ _ HI V1 P1) as (t1 & a1 & B1 & _ & ->). destruct (member_slot _ _ _ _ _ HI V2 P2) as (t2 & a2 & B2 & _ & ->).
    unfold target in Hg. cbn [snd] in Hg. rewrite B1, B2 in Hg. congruence. }
  exists l. split; [done|]. assert (Hc : counter (c_cnt s !! (1, ch)) = N.of_nat (length l)) by (rewrite H4, Hlen; [done|by exists MEMBER_SLOT_CAP]).
  split; [|split; [done|rewrite <- Hc; by apply (H5 1 ch MEMBER_SLOT_CAP)]].
  intros f. rewrite Hl. split.
  - intros (k & m & Hv & HP & <-). apply bool_decide_eq_true in HP. cbn in HP. destruct (member_slot _ _ _ _ _ HI Hv HP) as (t & a & B & Ht & ->).
    unfold target. cbn [snd]. rewrite B. split; [done|]. rewrite (member_state_view _ _ _ _ HI Ht), Hv.
    destruct (view_ok _ _ _ _ HI Hv) as (_ & _ & _ & Hok'). rewrite B in Hok' |- *. cbn [slot_message_ok] in Hok'. destruct (member_state_of (BMember t a)); [eauto|done].
  - intros [Hf [st Hst]]. rewrite (member_state_view _ _ _ _ HI Hf) in Hst. destruct (view s !! (1, ch, be 4 f)) as [m|] eqn:Hv; [|done].
    exists (1, ch, be 4 f), m. split; [done|]. split; [by apply bool_decide_eq_true|]. destruct (member_slot _ _ ch _ _ HI Hv eq_refl) as (t & a & B & Ht & E).
    unfold target. cbn [snd]. rewrite B. apply (be_inj 4); [exact Ht|exact Hf|]. congruence.
Qed.
(** Used moderation slots: the number of casts with a moderation record, at most 16384. *)
Theorem C32_moderation_slots : forall os s outs ch, history_ok os -> crun ch_init os = (s, outs) ->
  exists l : list bytes, NoDup l /\ (forall c, c ∈ l <-> exists m, load_slot s (3, ch, c) = inr (Some m)) /\
    counter (c_cnt s !! (3, ch)) = N.of_nat (length l) /\ N.of_nat (length l) <= 16384.
Proof.
  intros os s outs ch Hok Hr. pose proof (reach os s outs Hok Hr) as HI. pose proof HI as (_ & _ & _ & H4 & H5 & _).
  set (F := filter (fun kv => in_slots 3 ch kv = true) (view s)).
  exists ((fun kv => kv.1.2) <$> map_to_list F). assert (HF : forall k m, (k, m) ∈ map_to_list F <-> view s !! k = Some m /\ k.1 = (3, ch)).
  { intros k m. rewrite elem_of_map_to_list. unfold F. rewrite map_filter_lookup_Some. unfold in_slots. cbn. by rewrite bool_decide_eq_true. }
  assert (Hc : counter (c_cnt s !! (3, ch)) = N.of_nat (length ((fun kv : skey * cmsg => kv.1.2) <$> map_to_list F))).
  { rewrite fmap_length. rewrite H4; [done|by exists MODERATE_SLOT_CAP]. }
  split; [|split; [|split; [done|rewrite <- Hc; by apply (H5 3 ch MODERATE_SLOT_CAP)]]].
  - apply NoDup_fmap_2_strong; [|apply NoDup_map_to_list]. intros [[k1 c1] m1] [[k2 c2] m2] I1 I2 Hg. apply HF in I1 as [V1 E1], I2 as [V2 E2]. cbn in *. congruence.
  - intros c. rewrite elem_of_list_fmap. split.
    + intros ([[k c'] m] & Ec & Hin). apply HF in Hin as [V E]. cbn in Ec, E. subst c' k. exists m. rewrite (load_view _ s _ HI). by rewrite V.
    + intros [m Hm]. exists (3, ch, c, m). split; [done|]. apply HF. rewrite (load_view _ s _ HI) in Hm. split; [congruence|done].
Qed.
(** A refused message changes nothing. *)
Theorem C32_refused_changes_nothing : forall s o s' e, cstep s o = (s', CErr e) -> s' = s.
Proof. exact step_err. Qed.

(** ** C33 *)
(** The last accepted message of a slot, read off the log. *)
Fixpoint last_accepted (k : skey) (acc : option cmsg) (log : list (cop * cout)) : option cmsg :=
  match log with
  | [] => acc
  | ((_, m), x) :: r => last_accepted k (if ok x && bool_decide (slot_key m = Some k) then Some m else acc) r
  end.
Theorem C33_slot_shows_last_accepted : forall os s outs k, history_ok os -> crun ch_init os = (s, outs) ->
  load_slot s k = inr (last_accepted k None (combine os outs)).
Proof.
  intros os s outs k Hok Hr. rewrite (load_view _ s k (reach os s outs Hok Hr)). f_equal.
  assert (Hgen : forall U os s0 s outs, CInv U s0 -> ids_unique U -> (forall m, msgs os m -> U m) -> crun s0 os = (s, outs) ->
    view s !! k = last_accepted k (view s0 !! k) (combine os outs)).
  { clear. intros U os. induction os as [|[e m] os IH]; intros s0 s outs HI HU Hin Hr; [by injection Hr as <- <-|].
    cbn [crun] in Hr. destruct (cstep s0 (e, m)) as [s1 x] eqn:E1. destruct (crun s1 os) as [s2 xs] eqn:E2. injection Hr as <- <-.
    assert (Hm : U m) by (apply Hin; unfold msgs; cbn; set_solver). pose proof (step_CInv U s0 (e, m) HI HU Hm) as HI'. rewrite E1 in HI'. cbn [fst] in HI'.
    rewrite (IH s1 s2 xs HI' HU) by (done || (intros y Hy; apply Hin; unfold msgs in *; cbn; set_solver)). cbn [combine last_accepted]. f_equal.
    destruct x as [d|er]; cbn [ok andb]; [|by apply step_err in E1 as ->].
    destruct (step_ok U s0 (e, m) s1 d HI HU Hm E1) as [_ Hmg]. cbn [snd] in Hmg.
    destruct (merge_spec U s0 m s1 d HI HU Hm Hmg) as (y & Hy & _ & _ & _ & _ & Hv & _). rewrite Hv.
    assert (Hk : slot_key m = Some (kind (cm_body m), cm_chan m, y)) by (unfold slot_key; by rewrite Hy). rewrite Hk.
    destruct (bool_decide_reflect (Some (kind (cm_body m), cm_chan m, y) = Some k)) as [E|Hne].
    - apply (inj Some) in E as <-. by rewrite lookup_insert.
    - rewrite lookup_insert_ne; [done|congruence]. }
  rewrite (Hgen (msgs os) os ch_init s outs (CInv_init _) Hok ltac:(done) Hr). f_equal.
Qed.
(** Stored messages are exactly those shown in some slot: replaced ones are gone, and with them their author index. *)
Theorem C33_only_shown_messages_stored : forall os s outs, history_ok os -> crun ch_init os = (s, outs) ->
  (forall rk m, c_row s !! rk = Some m <-> rk = row_key m /\ exists k, load_slot s k = inr (Some m)) /\
  (forall k f ch x t h, c_add s !! (k, f, ch, x) = Some (t, h) <-> exists m, load_slot s (k, ch, x) = inr (Some m) /\ ptr_of m = (f, t, h)) /\
  (forall f ch, (f, ch) ∈ c_byfid s <-> f < 2 ^ 32 /\ exists st, member_state s ch f = inr (Some st)).
Proof.
  intros os s outs Hok Hr. pose proof (reach os s outs Hok Hr) as HI. pose proof HI as (H1 & H2 & H3 & _ & _ & _ & H7).
  split; [|split].
  - intros rk m. split.
    + intros Hrk. destruct (H2 rk m Hrk) as (-> & _ & _ & k & Hk & Hs). split; [done|]. exists k. unfold load_slot. rewrite Hs.
      destruct (H1 k _ Hs) as (m' & Hm' & Hk' & Hp). replace (k.1.1, ptr_of m) with (row_key m) in *; [by rewrite Hrk|].
      unfold row_key. f_equal. unfold slot_key in Hk. destruct (slot_suffix (cm_body m)); [|done]. cbn in Hk. apply (inj Some) in Hk as <-. done.
    + intros [-> [k Hk]]. rewrite (load_view _ s k HI) in Hk. injection Hk as Hk. destruct (view_ok _ s k m HI Hk) as (Hs & _ & Hsl & _).
      rewrite view_lookup, Hsl in Hk. cbn in Hk. replace (row_key m) with (k.1.1, ptr_of m); [done|].
      unfold row_key. f_equal. unfold slot_key in Hs. destruct (slot_suffix (cm_body m)); [|done]. cbn in Hs. apply (inj Some) in Hs as <-. done.
  - intros k f ch x t h. rewrite H3. split.
    + intros Hs. destruct (view_of_slot _ s _ _ HI Hs) as (m & Hv & Hp). exists m. by rewrite (load_view _ s _ HI), Hv.
    + intros (m & Hl & Hp). rewrite (load_view _ s _ HI) in Hl. injection Hl as Hl. destruct (view_ok _ s _ m HI Hl) as (_ & _ & Hs & _). congruence.
  - intros f ch. rewrite H7. split.
    + intros [Hf [p Hp]]. split; [done|]. destruct (view_of_slot _ s _ _ HI Hp) as (m & Hv & _). rewrite (member_state_view _ _ _ _ HI Hf), Hv.
      destruct (member_slot _ _ ch _ _ HI Hv eq_refl) as (t & a & B & _ & _). destruct (view_ok _ _ _ _ HI Hv) as (_ & _ & _ & Hok'). rewrite B in Hok' |- *.
      cbn [slot_message_ok] in Hok'. destruct (member_state_of (BMember t a)); [eauto|done].
    + intros [Hf [st Hst]]. split; [done|]. rewrite (member_state_view _ _ _ _ HI Hf) in Hst. destruct (view s !! (1, ch, be 4 f)) as [m|] eqn:Hv; [|done].
      destruct (view_ok _ _ _ _ HI Hv) as (_ & _ & Hs & _). eauto.
Qed.
(** A data shard that replays the accepted messages in order, without the authority check, never fails and ends in the
    same state. *)
Fixpoint accepted_msgs (log : list (cop * cout)) : list cmsg :=
  match log with [] => [] | ((_, m), x) :: r => if ok x then m :: accepted_msgs r else accepted_msgs r end.
Theorem C33_replica_agrees : forall os s s' outs, crun s os = (s', outs) -> creplay s (accepted_msgs (combine os outs)) = inr s'.
Proof.
  intros os. induction os as [|[e m] os IH]; intros s s' outs Hr; [by injection Hr as <- <-|].
  cbn [crun] in Hr. destruct (cstep s (e, m)) as [s1 x] eqn:E1. destruct (crun s1 os) as [s2 xs] eqn:E2. injection Hr as <- <-. cbn [combine accepted_msgs].
  destruct x as [d|er]; cbn [ok].
  - cbn [creplay]. unfold cstep in E1. cbn [fst snd] in E1. destruct (validate_channel e s m); [done|]. destruct (merge_slot s m) as [|[s3 d3]]; [done|].
    injection E1 as -> ->. by apply IH.
  - apply step_err in E1 as ->. by apply IH.
Qed.

(** ** Examples *)
Definition xch : bytes := replicate 32 9.
Definition xown (f : N) : chenv := fun ch => if bool_decide (ch = xch) then Some (Some f) else None.
Definition xparked : chenv := fun ch => if bool_decide (ch = xch) then Some None else None.
(** message number [n] by account [f] *)
Definition xmsg (n f : N) (b : cbody) : cmsg := CMsg f n (replicate 20 n) xch b [].
Definition xmem (n f t a : N) : cop := (xown 1, xmsg n f (BMember t a)).
Definition xhist : list cop :=
  [xmem 1 1 2 3; (* owner 1 appoints 2 *) xmem 2 2 3 1; (* 2 adds 3 *) xmem 3 3 4 1; (* 3 may not add 4 *)
   xmem 4 2 3 5; (* 2 bans 3 *) xmem 5 3 3 1; (* 3 cannot rejoin *) xmem 6 1 3 6; (* owner lifts the ban *)
   xmem 7 2 1 5; (* nobody bans the owner *) (xown 1, xmsg 8 1 (BUpdate None (Some 1))); (* open channel *)
   xmem 9 4 4 1; (* 4 joins *) (xparked, xmsg 10 4 (BMember 4 2)); (* and leaves while parked *)
   (xown 1, xmsg 11 2 (BModerate (replicate 20 7) 1)); (xown 1, xmsg 12 4 (BPin []))].
Example channel_example : map ok (crun ch_init xhist).2 = [true; true; false; true; false; true; false; true; true; true; true; false].
Proof. by vm_compute. Qed.
Example channel_example_state : let s := (crun ch_init xhist).1 in
  is_mod s xch 2 /\ member_state s xch 3 = inr (Some SRemoved) /\ member_state s xch 4 = inr (Some SRemoved) /\
  c_live s !! xch = Some 1 /\ c_cnt s !! (1, xch) = Some 3 /\ c_cnt s !! (3, xch) = Some 1 /\ size (c_row s) = 5%nat.
Proof. by vm_compute. Qed.
Fixpoint nodup_keys (l : list cmsg) : bool := match l with [] => true | m :: r => forallb (fun m' => negb (bool_decide (row_key m = row_key m')) || bool_decide (m = m')) r && nodup_keys r end.
Lemma nodup_keys_ok l : nodup_keys l = true -> ids_unique (fun m => m ∈ l).
Proof.
  induction l as [|m l IH]; intros H a b Ha Hb E; [set_solver|]. cbn in H. apply andb_prop in H as [H1 H2].
  rewrite forallb_forall in H1. assert (Hx : forall y, y ∈ l -> row_key m = row_key y -> m = y).
  { intros y Hy Ey. apply elem_of_list_In in Hy. specialize (H1 y Hy). rewrite (bool_decide_true (row_key m = row_key y)) in H1 by done. cbn in H1. by apply bool_decide_eq_true in H1. }
  apply elem_of_cons in Ha as [->|Ha]; apply elem_of_cons in Hb as [->|Hb]; [done|by apply Hx|symmetry; by apply Hx|by apply IH].
Qed.
Example channel_history_ok : history_ok xhist.
Proof. unfold history_ok, msgs. apply nodup_keys_ok. by vm_compute. Qed.

(** ** C54: a replaced channel action cannot be brought back by sending the old message again *)
(** Refuted. The duplicate check looks only at the message now in the slot and replaced messages are deleted, while
    timestamps are ignored. A dismissed moderator sends the owner's old appointment again and is moderator again; likewise
    a lifted ban can be re-imposed by anybody who kept the old ban message. *)
Theorem C54_replay_restores_role_refuted : exists appoint dismiss,
  let s1 := (cstep ch_init appoint).1 in let s2 := (cstep s1 dismiss).1 in let s3 := (cstep s2 appoint).1 in
  is_mod s1 xch 2 /\ member_state s2 xch 2 = inr (Some SMember) /\ is_mod s3 xch 2 /\ ok (cstep s2 appoint).2 = true.
Proof. exists (xmem 1 1 2 3), (xmem 2 1 2 4). by vm_compute. Qed.
Theorem C54_replay_restores_ban_refuted : exists ban unban,
  let s1 := (cstep ch_init ban).1 in let s2 := (cstep s1 unban).1 in let s3 := (cstep s2 ban).1 in
  is_banned s1 xch 3 /\ member_state s2 xch 3 = inr (Some SRemoved) /\ is_banned s3 xch 3.
Proof. exists (xmem 1 1 3 5), (xmem 2 1 3 6). by vm_compute. Qed.
(** What holds: the message now in the slot is refused. *)
Theorem C54_current_message_refused : forall os s outs e m k, history_ok (os ++ [(e, m)]) -> crun ch_init os = (s, outs) ->
  load_slot s k = inr (Some m) -> exists er, cstep s (e, m) = (s, CErr er).
Proof.
  intros os s outs e m k Hok Hr Hl.
  assert (Hsub : forall y, msgs os y -> msgs (os ++ [(e, m)]) y) by (unfold msgs; intros y Hy; rewrite map_app; set_solver).
  assert (Hm : msgs (os ++ [(e, m)]) m) by (unfold msgs; rewrite map_app; cbn; set_solver).
  pose proof (run_CInv _ os ch_init (CInv_init _) Hok Hsub) as HI. rewrite Hr in HI. cbn [fst] in HI.
  destruct (cstep s (e, m)) as [s' [d|er]] eqn:E.
  - destruct (step_ok _ s (e, m) s' d HI Hok Hm E) as [_ Hmg]. cbn [snd] in Hmg.
    destruct (merge_spec _ s m s' d HI Hok Hm Hmg) as (x & Hx & _ & _ & Hd & Hnd & _). exfalso. apply Hnd. rewrite Hd.
    rewrite (load_view _ s k HI) in Hl. apply (f_equal (fun z : cerr + option cmsg => match z with inr o => o | inl _ => None end)) in Hl. cbn in Hl.
    destruct (view_ok _ s k m HI Hl) as (Hk & _). unfold slot_key in Hk. rewrite Hx in Hk. cbn in Hk. apply (inj Some) in Hk. by rewrite Hk.
  - apply step_err in E as ->. eauto.
Qed.

Print Assumptions C31_member_action.
Print Assumptions C31_authority_exact.
Print Assumptions C31_moderators_appointed_by_owner.
Print Assumptions C31_ban_until_lifted.
Print Assumptions C32_moderators.
Print Assumptions C33_slot_shows_last_accepted.
Print Assumptions C33_only_shown_messages_stored.
