(** Lemmas about the mempool model. *)
From Verif Require Export Mempool CodecProofs.
From Coq Require Import ZifyN ZifyNat ZifyBool DecimalFacts.
#[local] Open Scope N_scope.

(** ** Keys *)
Lemma kcmp_eq a b : kcmp a b = Eq <-> a = b.
Proof.
  unfold kcmp. destruct a as [ka ta ia], b as [kb tb ib]; cbn [mk_kind mk_ts mk_id].
  destruct (N.compare_spec ka kb); [|split; [done|intros [= -> -> ->]; lia]..].
  destruct (N.compare_spec ta tb); [|split; [done|intros [= -> -> ->]; lia]..].
  rewrite lex_eq. split; [by intros ->; subst|by intros [= -> -> ->]].
Qed.
Lemma kcmp_refl a : kcmp a a = Eq.
Proof. by apply kcmp_eq. Qed.
Lemma kcmp_antisym a b : kcmp b a = CompOpp (kcmp a b).
Proof.
  unfold kcmp. rewrite (N.compare_antisym (mk_kind a)), (N.compare_antisym (mk_ts a)), (lex_antisym (mk_id a)).
  destruct (mk_kind a ?= mk_kind b); cbn; [|done..]. by destruct (mk_ts a ?= mk_ts b).
Qed.
Lemma kcmp_trans a b c : kcmp a b = Lt -> kcmp b c = Lt -> kcmp a c = Lt.
Proof.
  unfold kcmp. destruct a as [ka ta ia], b as [kb tb ib], c as [kc tc ic]; cbn [mk_kind mk_ts mk_id].
  destruct (N.compare_spec ka kb), (N.compare_spec kb kc); subst; intros H1 H2; try done.
  2: by rewrite (proj2 (N.compare_lt_iff _ _)).
  2: by rewrite (proj2 (N.compare_lt_iff _ _)).
  2: rewrite (proj2 (N.compare_lt_iff ka kc)); [done|lia].
  rewrite N.compare_refl. destruct (N.compare_spec ta tb), (N.compare_spec tb tc); subst; try done.
  - rewrite N.compare_refl. by eapply lex_trans_lt.
  - by rewrite (proj2 (N.compare_lt_iff _ _)).
  - by rewrite (proj2 (N.compare_lt_iff _ _)).
  - rewrite (proj2 (N.compare_lt_iff ta tc)); [done|lia].
Qed.
Lemma kcmp_gt a b : kcmp a b = Gt <-> kcmp b a = Lt.
Proof. rewrite (kcmp_antisym a b). by destruct (kcmp a b). Qed.

Lemma uint_bytes_inj d1 : forall d2, uint_bytes d1 = uint_bytes d2 -> d1 = d2.
Proof. induction d1; intros []; cbn; intros E; try done; injection E as E; f_equal; auto. Qed.
Lemma dec_inj a b : dec a = dec b -> a = b.
Proof. intros E%uint_bytes_inj. by apply DecimalN.Unsigned.to_uint_inj. Qed.

Lemma hexd_inj x y : x < 16 -> y < 16 -> hexd x = hexd y -> x = y.
Proof. unfold hexd. destruct (N.ltb_spec x 10), (N.ltb_spec y 10); lia. Qed.
Lemma hex_length b : length (hex b) = (2 * length b)%nat.
Proof. unfold hex. induction b as [|x b IH]; cbn in *; [done|]. lia. Qed.
Lemma hex_inj a : forall b, bytes_ok a = true -> bytes_ok b = true -> hex a = hex b -> a = b.
Proof.
  induction a as [|x a IH]; intros [|y b]; cbn [hex flat_map app bytes_ok forallb]; intros H1 H2 E; try done.
  apply andb_prop in H1 as [H1 H1'], H2 as [H2 H2']. apply N.ltb_lt in H1, H2.
  apply cons_inj in E as [E1 E]. apply cons_inj in E as [E2 E].
  apply hexd_inj in E1; [|apply N.div_lt_upper_bound; lia..]. apply hexd_inj in E2; [|apply N.mod_lt; lia..].
  f_equal; [|by apply IH]. rewrite (N.div_mod x 16), (N.div_mod y 16) by lia. by rewrite E1, E2.
Qed.

(** ** Sorted pools *)
Definition klt (a b : mkey * mmsg) : Prop := kcmp a.1 b.1 = Lt.
Notation psorted := (StronglySorted klt).

Lemma bget_elem k l m : psorted l -> bget k l = Some m <-> (k, m) ∈ l.
Proof.
  induction l as [|[k' m'] l IH]; intros Hs; cbn [bget]; [split; [done|intros Hin; inversion Hin]|].
  apply StronglySorted_inv in Hs as [Hs Hf]. rewrite Forall_forall in Hf.
  rewrite elem_of_cons. destruct (kcmp k k') eqn:E.
  - apply kcmp_eq in E as ->. split; [intros [= ->]; by left|]. intros [[= ->]|Hin]; [done|].
    apply Hf in Hin. unfold klt in Hin. cbn in Hin. by rewrite kcmp_refl in Hin.
  - split; [done|]. intros [[= -> ->]|Hin]; [by rewrite kcmp_refl in E|].
    apply Hf in Hin. unfold klt in Hin. cbn in Hin. pose proof (kcmp_trans _ _ _ E Hin) as Ht. by rewrite kcmp_refl in Ht.
  - rewrite IH by done. split; [by right|]. intros [[= -> ->]|Hin]; [by rewrite kcmp_refl in E|done].
Qed.
Lemma bget_none k l : psorted l -> bget k l = None <-> forall m, (k, m) ∉ l.
Proof.
  intros Hs. split.
  - intros E m Hin. apply bget_elem in Hin; [|done]. congruence.
  - intros Hn. destruct (bget k l) as [m|] eqn:E; [|done]. apply bget_elem in E; [|done]. by destruct (Hn m).
Qed.
Lemma bins_elem k m l k' m' : psorted l -> (k', m') ∈ bins k m l <-> (k' = k /\ m' = m) \/ (k' <> k /\ (k', m') ∈ l).
Proof.
  induction l as [|[k1 m1] l IH]; intros Hs; cbn [bins].
  - rewrite elem_of_list_singleton. split; [intros [= -> ->]; by left|]. intros [[-> ->]|[_ Hin]]; [done|inversion Hin].
  - apply StronglySorted_inv in Hs as [Hs Hf]. rewrite Forall_forall in Hf.
    assert (Hlt : forall x y, (x, y) ∈ l -> kcmp k1 x = Lt) by (intros x y Hin; by apply (Hf (x, y))).
    destruct (kcmp k k1) eqn:E.
    + apply kcmp_eq in E as ->. rewrite !elem_of_cons. split.
      * intros [[= -> ->]|Hin]; [by left|]. right. split; [|by right]. intros ->. apply Hlt in Hin. by rewrite kcmp_refl in Hin.
      * intros [[-> ->]|[Hn [[= -> ->]|Hin]]]; [by left|done|by right].
    + rewrite !elem_of_cons. split.
      * intros [[= -> ->]|Hin]; [by left|]. right. split; [|done]. intros ->.
        destruct Hin as [[= -> ->]|Hin]; [by rewrite kcmp_refl in E|]. apply Hlt in Hin.
        pose proof (kcmp_trans _ _ _ E Hin) as Ht. by rewrite kcmp_refl in Ht.
      * intros [[-> ->]|[Hn Hin]]; [by left|by right].
    + rewrite !elem_of_cons, IH by done. split.
      * intros [[= -> ->]|[[-> ->]|[? ?]]]; [right|by left|by right; auto]. split; [|by left].
        intros ->. by rewrite kcmp_refl in E.
      * intros [[-> ->]|[Hn [[= -> ->]|Hin]]]; [by right; left|by left|by right; right].
Qed.
Lemma bins_sorted k m l : psorted l -> psorted (bins k m l).
Proof.
  induction l as [|[k1 m1] l IH]; intros Hs; cbn [bins]; [repeat constructor|].
  pose proof (StronglySorted_inv Hs) as [Hs' Hf]. rewrite Forall_forall in Hf.
  destruct (kcmp k k1) eqn:E.
  - apply kcmp_eq in E as ->. constructor; [done|]. apply Forall_forall. intros x Hx. by apply (Hf x).
  - constructor; [done|]. apply Forall_forall. intros [x y] [[= -> ->]|Hin]%elem_of_cons; [done|].
    eapply kcmp_trans; [exact E|]. by apply (Hf (x, y)).
  - constructor; [by apply IH|]. apply Forall_forall. intros [x y] Hin.
    apply bins_elem in Hin as [[-> ->]|[_ Hin]]; [|by apply (Hf (x, y))|done]. unfold klt. cbn. by apply kcmp_gt.
Qed.
Lemma bdel_elem k l k' m' : psorted l -> (k', m') ∈ bdel k l <-> k' <> k /\ (k', m') ∈ l.
Proof.
  induction l as [|[k1 m1] l IH]; intros Hs; cbn [bdel].
  - split; [intros Hin; inversion Hin|by intros [_ ?]].
  - apply StronglySorted_inv in Hs as [Hs Hf]. rewrite Forall_forall in Hf.
    assert (Hlt : forall x y, (x, y) ∈ l -> kcmp k1 x = Lt) by (intros x y Hin; by apply (Hf (x, y))).
    destruct (kcmp k k1) eqn:E; rewrite !elem_of_cons.
    + apply kcmp_eq in E as ->. split.
      * intros Hin. split; [|by right]. intros ->. apply Hlt in Hin. by rewrite kcmp_refl in Hin.
      * intros [Hn [[= -> ->]|Hin]]; done.
    + split; [|by intros [_ ?]]. intros Hin. split; [|done]. intros ->.
      destruct Hin as [[= -> ->]|Hin]; [by rewrite kcmp_refl in E|]. apply Hlt in Hin.
      pose proof (kcmp_trans _ _ _ E Hin) as Ht. by rewrite kcmp_refl in Ht.
    + rewrite IH by done. split.
      * intros [[= -> ->]|[? ?]]; [|by auto]. split; [|by left]. intros ->. by rewrite kcmp_refl in E.
      * intros [Hn [[= -> ->]|Hin]]; [by left|by right].
Qed.
Lemma bdel_sorted k l : psorted l -> psorted (bdel k l).
Proof.
  induction l as [|[k1 m1] l IH]; intros Hs; cbn [bdel]; [done|].
  pose proof (StronglySorted_inv Hs) as [Hs' Hf]. rewrite Forall_forall in Hf.
  destruct (kcmp k k1) eqn:E; [done..|]. constructor; [by apply IH|]. apply Forall_forall. intros [x y] Hin.
  apply bdel_elem in Hin as [_ Hin]; [|done]. by apply (Hf (x, y)).
Qed.

(** ** Invariant of reachable states *)
Definition live_msg (u : umsg) : bool := is_live_at u.
Definition Inv (s : mp) : Prop :=
  (forall sh, psorted (pool_of s sh)) /\
  (forall sh k m, (k, m) ∈ pool_of s sh -> k = mempool_key m) /\
  (forall sh k u, (k, MUser u) ∈ pool_of s sh -> is_live_at u = true -> mp_live s !! (sh, um_fid u) = Some k).

Lemma pool_of_insert msgs live sh p sh' : pool_of (Mp (<[sh := p]> msgs) live) sh' = if decide (sh = sh') then p else pool_of (Mp msgs live) sh'.
Proof. unfold pool_of; cbn. destruct (decide (sh = sh')) as [->|]; [by rewrite lookup_insert|by rewrite lookup_insert_ne]. Qed.
Lemma pool_of_msgs msgs live live' sh : pool_of (Mp msgs live) sh = pool_of (Mp msgs live') sh.
Proof. done. Qed.

Lemma Inv_init : Inv mp_init.
Proof.
  assert (E : forall sh, pool_of mp_init sh = []) by done.
  split; [|split]; intros sh.
  - rewrite E. apply SSorted_nil.
  - intros k m Hin. rewrite E in Hin. inversion Hin.
  - intros k u Hin. rewrite E in Hin. inversion Hin.
Qed.

Lemma prepare_live s sh m live r : Inv s -> prepare_live_at s sh m = (live, r) ->
  Inv (Mp (mp_msgs s) live) /\
  match r with
  | inr (Some k) => live = mp_live s /\ exists u old, m = MUser u /\ is_live_at u = true /\ mp_live s !! (sh, um_fid u) = Some k /\
      (k, MUser old) ∈ pool_of s sh /\ pending_newer old u = false
  | inr None => forall u, m = MUser u -> is_live_at u = true -> forall k u', (k, MUser u') ∈ pool_of s sh -> is_live_at u' = true -> um_fid u' <> um_fid u
  | inl e => e = ESuperseded /\ live = mp_live s /\ exists u old k, m = MUser u /\ is_live_at u = true /\ mp_live s !! (sh, um_fid u) = Some k /\
      (k, MUser old) ∈ pool_of s sh /\ pending_newer old u = true
  end.
Proof.
  intros HI. pose proof HI as (H1 & H2 & H3). unfold prepare_live_at.
  assert (Hs : Inv (Mp (mp_msgs s) (mp_live s))) by by destruct s.
  destruct m as [u| | |]; try (intros [= <- <-]; split; [done|intros ? [=]]).
  destruct (is_live_at u) eqn:Eu.
  2:{ intros [= <- <-]. split; [done|]. intros u' [= <-]. congruence. }
  destruct (mp_live s !! (sh, um_fid u)) as [k|] eqn:Ek.
  2:{ intros [= <- <-]. split; [done|]. intros u0 [= <-] _ k u' Hin Hl E. apply H3 in Hin; [|done]. rewrite E in Hin. congruence. }
  assert (Hstale : forall o, bget k (pool_of s sh) = o -> (forall old, o <> Some (MUser old)) ->
    Inv (Mp (mp_msgs s) (delete (sh, um_fid u) (mp_live s))) /\
    forall u0, MUser u = MUser u0 -> is_live_at u0 = true -> forall k' u', (k', MUser u') ∈ pool_of s sh -> is_live_at u' = true -> um_fid u' <> um_fid u0).
  { intros o Eo Ho.
    assert (Hno : forall k' u', (k', MUser u') ∈ pool_of s sh -> is_live_at u' = true -> um_fid u' <> um_fid u).
    { intros k' u' Hin Hl E. pose proof (H3 _ _ _ Hin Hl) as H4. rewrite E, Ek in H4. injection H4 as <-.
      apply bget_elem in Hin; [|done]. rewrite Hin in Eo. by destruct (Ho u'). }
    split; [|by intros u0 [= <-] _].
    split_and!; [exact H1|exact H2|]. intros sh' k' u' Hin Hl. cbn [mp_live].
    destruct (decide ((sh, um_fid u) = (sh', um_fid u'))) as [E|Hn].
    - injection E as <- E. by destruct (Hno _ _ Hin Hl).
    - rewrite lookup_delete_ne by done. by apply H3. }
  destruct (bget k (pool_of s sh)) as [[old| | |]|] eqn:Eb.
  - apply bget_elem in Eb; [|done].
    destruct (pending_newer old u) eqn:Ep; intros [= <- <-]; (split; [done|]).
    + split; [done|]. split; [done|]. by exists u, old, k.
    + split; [done|]. by exists u, old.
  - intros [= <- <-]. by apply (Hstale _ eq_refl).
  - intros [= <- <-]. by apply (Hstale _ eq_refl).
  - intros [= <- <-]. by apply (Hstale _ eq_refl).
  - intros [= <- <-]. by apply (Hstale _ eq_refl).
Qed.

(** Effect of an insert. *)
Lemma insert_spec e s sh m s' r : Inv s -> insert_into_shard e s sh m = (s', r) ->
  Inv s' /\
  match r with
  | Some _ => mp_msgs s' = mp_msgs s
  | None =>
      message_is_valid e sh m true = None /\ bget (mempool_key m) (pool_of s sh) = None /\
      exists rep : option mkey, (forall sh', sh' <> sh -> pool_of s' sh' = pool_of s sh') /\
        pool_of s' sh = bins (mempool_key m) m (match rep with Some old => bdel old (pool_of s sh) | None => pool_of s sh end) /\
        match rep with
        | Some k => exists u old, m = MUser u /\ is_live_at u = true /\ mp_live s !! (sh, um_fid u) = Some k /\ (k, MUser old) ∈ pool_of s sh /\ pending_newer old u = false
        | None => forall u, m = MUser u -> is_live_at u = true -> forall k u', (k, MUser u') ∈ pool_of s sh -> is_live_at u' = true -> um_fid u' <> um_fid u
        end
  end.
Proof.
  intros HI. unfold insert_into_shard. destruct (bget (mempool_key m) (pool_of s sh)) eqn:Eb.
  { intros [= <- <-]. by destruct s. }
  destruct (prepare_live_at s sh m) as [live pr] eqn:Ep.
  destruct (prepare_live s sh m live pr HI Ep) as [HI' Hr].
  destruct pr as [err|rep].
  { intros [= <- <-]. done. }
  destruct (message_is_valid e sh m true) as [err|] eqn:Ev.
  { intros [= <- <-]. done. }
  pose proof HI as (H1 & H2 & H3). pose proof HI' as (H1' & H2' & H3').
  set (p := match rep with Some old => bdel old (pool_of s sh) | None => pool_of s sh end).
  intros [= <- <-].
  assert (Hps : psorted p) by (unfold p; destruct rep; [by apply bdel_sorted|done]).
  assert (Hpin : forall k m', (k, m') ∈ p -> (k, m') ∈ pool_of s sh).
  { intros k m'. unfold p. destruct rep; [|done]. intros Hin. by apply bdel_elem in Hin as [_ ?]. }
  split.
  - split_and!.
    + intros sh'. rewrite pool_of_insert. destruct (decide (sh = sh')); [by apply bins_sorted|apply H1].
    + intros sh' k m'. rewrite pool_of_insert. destruct (decide (sh = sh')); [|apply H2].
      intros Hin. apply bins_elem in Hin as [[-> ->]|[_ Hin]]; [done| |done]. by eapply H2, Hpin.
    + intros sh' k u'. rewrite pool_of_insert. cbn [mp_live]. destruct (decide (sh = sh')) as [<-|Hn].
      * intros Hin Hl. apply bins_elem in Hin as [[-> <-]|[Hk Hin]]; [by rewrite Hl, lookup_insert| |done].
        assert (Hin' := Hpin _ _ Hin). pose proof (H3' _ _ _ Hin' Hl) as H4. cbn [mp_live] in H4.
        destruct m as [u| | |]; [|done..]. destruct (is_live_at u) eqn:Eu; [|done].
        rewrite lookup_insert_ne; [done|]. intros E. injection E as E.
        destruct rep as [old|].
        -- destruct Hr as [-> (u0 & old' & [= <-] & _ & Hk0 & _)]. rewrite E in Hk0. rewrite Hk0 in H4. injection H4 as ->.
           unfold p in Hin. apply bdel_elem in Hin as [Hne _]; done.
        -- by destruct (Hr u eq_refl Eu _ _ Hin' Hl).
      * intros Hin Hl. pose proof (H3' _ _ _ Hin Hl) as H4. cbn [mp_live] in H4.
        destruct m as [u| | |]; [|done..]. destruct (is_live_at u); [|done]. rewrite lookup_insert_ne; [done|congruence].
  - split; [done|]. split; [done|]. exists rep.
    split; [intros sh' Hn; rewrite pool_of_insert; by rewrite decide_False by done|].
    split; [rewrite pool_of_insert; by rewrite decide_True by done|].
    destruct rep as [k|]; [|done]. by destruct Hr as [_ Hr].
Qed.

(** Effect of a pull. *)
Lemma unindex_lookup live sh k m i x : unindex live sh k m !! i = Some x -> live !! i = Some x.
Proof.
  unfold unindex. destruct m as [u| | |]; [|done..]. destruct (_ && _); [|done].
  intros E. destruct (decide ((sh, um_fid u) = i)) as [<-|]; [by rewrite lookup_delete in E|by rewrite lookup_delete_ne in E].
Qed.
Lemma unindex_keep live sh k m i x : live !! i = Some x -> x <> k \/ i.1 <> sh -> unindex live sh k m !! i = Some x.
Proof.
  intros E Hor. unfold unindex. destruct m as [u| | |]; [|done..].
  destruct (is_live_at u); [|done]. cbn [andb]. case_bool_decide as Eb; [|done].
  rewrite lookup_delete_ne; [done|]. intros <-. rewrite E in Eb. injection Eb as ->. destruct Hor; done.
Qed.

Lemma pull_loop_spec e sh : forall l n live out rest live', psorted l -> pull_loop e sh n l live = (out, rest, live') ->
  (exists popped, l = popped ++ rest /\ out = filter (fun m => message_is_valid e sh m false = None) (snd <$> popped) /\
    live' = foldl (fun lv km => unindex lv sh km.1 km.2) live popped) /\
  (length out <= n)%nat /\ ((length out < n)%nat -> rest = []).
Proof.
  induction l as [|[k m] l IH]; intros n live out rest live' Hs.
  - destruct n; cbn; intros [= <- <- <-]; (split; [exists []; done|]); cbn; split; (lia || done).
  - destruct n as [|n]; cbn [pull_loop].
    { intros [= <- <- <-]. split; [by exists []|]. cbn. split; lia. }
    apply StronglySorted_inv in Hs as [Hs _].
    destruct (message_is_valid e sh m false) as [err|] eqn:Ev.
    + intros E. destruct (IH _ _ _ _ _ Hs E) as ((pop & -> & -> & ->) & L1 & L2).
      split; [|done]. exists ((k, m) :: pop). split; [done|]. cbn [fmap list_fmap snd]. rewrite filter_cons_False by congruence. done.
    + destruct (pull_loop e sh n l (unindex live sh k m)) as [[out0 rest0] live0] eqn:E. intros [= <- <- <-].
      destruct (IH _ _ _ _ _ Hs E) as ((pop & -> & -> & ->) & L1 & L2).
      split.
      * exists ((k, m) :: pop). split; [done|]. cbn [fmap list_fmap snd]. rewrite filter_cons_True by done. done.
      * cbn [length]. split; [lia|]. intros. apply L2. lia.
Qed.

Lemma sorted_app_lt l1 l2 x y : psorted (l1 ++ l2) -> x ∈ l1 -> y ∈ l2 -> klt x y.
Proof.
  induction l1 as [|z l1 IH]; cbn; intros Hs Hx Hy; [inversion Hx|].
  apply StronglySorted_inv in Hs as [Hs Hf]. rewrite Forall_forall in Hf.
  apply elem_of_cons in Hx as [->|Hx]; [|by apply IH]. apply Hf. apply elem_of_app. by right.
Qed.
Lemma sorted_app_inv l1 l2 : psorted (l1 ++ l2) -> psorted l1 /\ psorted l2.
Proof.
  induction l1 as [|z l1 IH]; cbn; intros Hs; [split; [constructor|done]|].
  apply StronglySorted_inv in Hs as [Hs Hf]. destruct (IH Hs) as [H1 H2]. split; [|done]. constructor; [done|].
  rewrite Forall_app in Hf. apply Hf.
Qed.

Lemma foldl_unindex_keep sh (pop : list (mkey * mmsg)) : forall live i x, live !! i = Some x -> (forall k m, (k, m) ∈ pop -> x <> k) \/ i.1 <> sh ->
  foldl (fun lv km => unindex lv sh km.1 km.2) live pop !! i = Some x.
Proof.
  induction pop as [|[k m] pop IH]; intros live i x E Hor; [done|]. cbn [foldl fst snd]. apply IH.
  - apply unindex_keep; [done|]. destruct Hor as [Hor|]; [left; eapply Hor; left|by right].
  - destruct Hor as [Hor|]; [left|by right]. intros k' m' Hin. eapply Hor. by right.
Qed.

Lemma pull_spec e s sh n s' out : Inv s -> pull_messages e s sh n = (s', out) ->
  Inv s' /\ (forall sh', sh' <> sh -> pool_of s' sh' = pool_of s sh') /\
  exists popped, pool_of s sh = popped ++ pool_of s' sh /\
    out = filter (fun m => message_is_valid e sh m false = None) (snd <$> popped) /\
    (length out <= n)%nat /\ ((length out < n)%nat -> pool_of s' sh = []).
Proof.
  intros HI. pose proof HI as (H1 & H2 & H3). unfold pull_messages. destruct (mp_msgs s !! sh) as [p|] eqn:Ep.
  2:{ intros [= <- <-]. split; [done|]. split; [done|]. exists []. split; [done|]. split; [done|]. cbn.
      split; [lia|]. intros _. unfold pool_of. by rewrite Ep. }
  assert (Hp : pool_of s sh = p) by (unfold pool_of; by rewrite Ep). pose proof (H1 sh) as Hs. rewrite Hp in Hs.
  destruct (pull_loop e sh n p (mp_live s)) as [[out0 rest] live] eqn:E. intros [= <- <-].
  destruct (pull_loop_spec e sh p n _ _ _ _ Hs E) as ((pop & Epp & -> & ->) & L1 & L2).
  assert (Hrest : psorted rest) by (rewrite Epp in Hs; by apply sorted_app_inv in Hs as [_ ?]).
  split; [|split].
  - split_and!.
    + intros sh'. rewrite pool_of_insert. destruct (decide (sh = sh')); [done|apply H1].
    + intros sh' k m. rewrite pool_of_insert. destruct (decide (sh = sh')) as [<-|]; [|apply H2].
      intros Hin. apply (H2 sh). rewrite Hp, Epp. apply elem_of_app. by right.
    + intros sh' k u. rewrite pool_of_insert. cbn [mp_live]. destruct (decide (sh = sh')) as [<-|Hn].
      * intros Hin Hl. apply foldl_unindex_keep.
        -- apply H3; [|done]. rewrite Hp, Epp. apply elem_of_app. by right.
        -- left. intros k' m' Hin' ->. rewrite Epp in Hs.
           pose proof (sorted_app_lt _ _ _ _ Hs Hin' Hin) as Hlt. unfold klt in Hlt. cbn in Hlt. by rewrite kcmp_refl in Hlt.
      * intros Hin Hl. apply foldl_unindex_keep; [by apply H3|]. right. cbn. congruence.
  - intros sh' Hn. rewrite pool_of_insert, decide_False by done. done.
  - exists pop. rewrite pool_of_insert, decide_True by done. rewrite Hp. done.
Qed.

(** Effect of a commit. *)
Lemma remove_spec s sh ms : Inv s ->
  Inv (remove_committed s sh ms) /\ (forall sh', sh' <> sh -> pool_of (remove_committed s sh ms) sh' = pool_of s sh') /\
  forall k m, (k, m) ∈ pool_of (remove_committed s sh ms) sh <-> (k, m) ∈ pool_of s sh /\ forall m', m' ∈ ms -> k <> mempool_key m'.
Proof.
  intros HI. unfold remove_committed. destruct (mp_msgs s !! sh) as [p|] eqn:Ep.
  2:{ split; [done|]. split; [done|]. intros k m. assert (pool_of s sh = []) as -> by (unfold pool_of; by rewrite Ep).
      split; [intros Hin; inversion Hin|intros [Hin _]; inversion Hin]. }
  assert (Hp : pool_of s sh = p) by (unfold pool_of; by rewrite Ep).
  pose proof HI as (H1 & H2 & H3). pose proof (H1 sh) as Hs. rewrite Hp in *.
  assert (Hl0 : forall k u, (k, MUser u) ∈ p -> is_live_at u = true -> mp_live s !! (sh, um_fid u) = Some k) by (intros k u; rewrite <- Hp; apply H3).
  assert (Hgen : forall ms p live, psorted p -> (forall k u, (k, MUser u) ∈ p -> is_live_at u = true -> live !! (sh, um_fid u) = Some k) ->
    let r := foldl (remove_one sh) (p, live) ms in
    psorted r.1 /\ (forall k u, (k, MUser u) ∈ r.1 -> is_live_at u = true -> r.2 !! (sh, um_fid u) = Some k) /\
    (forall sh' f, sh' <> sh -> r.2 !! (sh', f) = live !! (sh', f)) /\
    forall k m, (k, m) ∈ r.1 <-> (k, m) ∈ p /\ forall m', m' ∈ ms -> k <> mempool_key m').
  { clear. induction ms as [|m ms IH]; intros p live Hs Hl; cbn [foldl].
    - cbv zeta. split; [done|]. split; [done|]. split; [done|]. intros k m. split; [|by intros [? _]]. intros Hin. split; [done|].
      intros m' Hm. inversion Hm.
    - cbn [remove_one fst snd]. destruct (IH (bdel (mempool_key m) p) (unindex live sh (mempool_key m) m)) as (A & B & C & D).
      { by apply bdel_sorted. }
      { intros k u Hin Hlu. apply bdel_elem in Hin as [Hk Hin]; [|done]. apply unindex_keep; [by apply Hl|by left]. }
      unfold remove_one at 2 4 6 8. cbn [fst snd]. split; [exact A|]. split; [exact B|]. split.
      + intros sh' f Hn. rewrite C by done. unfold unindex. destruct m as [u| | |]; [|done..].
        destruct (_ && _); [|done]. rewrite lookup_delete_ne; [done|congruence].
      + intros k m0. rewrite D. rewrite bdel_elem by done. split.
        * intros [[Hk Hin] Hn]. split; [done|]. intros m' [->|Hm]%elem_of_cons; auto.
        * intros [Hin Hn]. split; [split; [apply Hn; left|done]|]. intros m' Hm. apply Hn. by right. }
  specialize (Hgen ms p (mp_live s) Hs Hl0). cbv zeta in Hgen.
  destruct (foldl (remove_one sh) (p, mp_live s) ms) as [p' live'] eqn:Ef. cbn [fst snd] in Hgen.
  destruct Hgen as (A & B & C & D). split; [|split].
  - split_and!.
    + intros sh'. rewrite pool_of_insert. destruct (decide (sh = sh')); [done|apply H1].
    + intros sh' k m. rewrite pool_of_insert. destruct (decide (sh = sh')) as [<-|]; [|apply H2].
      intros Hin. apply D in Hin as [Hin _]. apply (H2 sh). by rewrite Hp.
    + intros sh' k u. rewrite pool_of_insert. cbn [mp_live]. destruct (decide (sh = sh')) as [<-|Hn]; [apply B|].
      intros Hin Hl. rewrite C by congruence. by apply H3.
  - intros sh' Hn. rewrite pool_of_insert, decide_False by done. done.
  - intros k m. rewrite pool_of_insert, decide_True by done. apply D.
Qed.

Lemma Inv_step s o : Inv s -> Inv (mstep s o).1.
Proof.
  intros HI. destruct o as [e sh m|e sh n|sh ms]; cbn [mstep].
  - destruct (insert_into_shard e s sh m) as [s' r] eqn:E. by apply (insert_spec e s sh m s' r HI E).
  - destruct (pull_messages e s sh n) as [s' l] eqn:E. by apply (pull_spec e s sh n s' l HI E).
  - by apply remove_spec.
Qed.
Lemma Inv_run os : forall s, Inv s -> Inv (mrun s os).1.
Proof.
  induction os as [|o os IH]; intros s HI; [done|]. cbn [mrun]. pose proof (Inv_step s o HI) as HI'.
  destruct (mstep s o) as [s' x]. specialize (IH s' HI'). by destruct (mrun s' os).
Qed.
