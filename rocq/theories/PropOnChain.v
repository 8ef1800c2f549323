(** Properties C26 (signers), C58 (channel ownership), C60 (custody) and C61 (subscriptions), for an arbitrary hash function
    and every way of delivering events in transactions. *)
From Verif Require Import OnChainProofs.
From Coq Require Import ZifyN ZifyNat ZifyBool.
#[local] Open Scope N_scope.

Definition usable (e : oev) : bool := match o_body e with BSigner SAdd _ 1 => true | _ => false end.

(** ** C26 *)

(** An active signer comes from a stored Add event, and without resets no event for the key has a later block. *)
Theorem C26_active_is_latest_partial : forall keccak bs f key x, NoDup (map prim (concat bs)) ->
  active_signer (orun keccak o_init bs) f key = Some x ->
  x ∈ concat bs /\ signs (fidk f) key x = true /\ usable x = true /\
  ((forall y, y ∈ concat bs -> signs (fidk f) key y = true -> is_reset y = false) ->
   forall y, y ∈ concat bs -> signs (fidk f) key y = true -> o_block y <= o_block x).
Proof.
  intros keccak bs f key x Hnd Ha. pose proof (sig_inv_run keccak bs) as (Hok & Hp & Hl). unfold active_signer in Ha.
  destruct (t_sig (orun keccak o_init bs) !! (fidk f, key)) as [k|] eqn:Ek; [|done].
  destruct (Hp _ _ _ Ek) as (e & He & Hs & _). unfold deref in Ha. cbn in Ha. rewrite He in Ha.
  assert (x = e /\ usable e = true) as [-> Hu].
  { unfold usable. destruct (o_body e) as [[] ? [|[]]| | | | |]; try done; by injection Ha as <-. }
  split; [by eapply (run_ev_in keccak bs k)|]. split; [done|]. split; [done|]. intros Hnr y Hy Hsy.
  destruct (Hl (fidk f) key) with (k := prim y) (e := y) as (k' & e' & H1 & H2 & H3); [|by apply run_ev_in|done|].
  - intros k1 y1 Hy1. apply Hnr. by eapply (run_ev_in keccak bs k1).
  - assert (k' = k) as -> by congruence. assert (e' = e) as -> by congruence. done.
Qed.
(** Without resets, the event with the single highest block decides. *)
Definition strictly_latest (l : list oev) (f : N) (key : bytes) (e : oev) : Prop :=
  e ∈ l /\ signs f key e = true /\ forall y, y ∈ l -> signs f key y = true -> y <> e -> o_block y < o_block e.
Theorem C26_latest_decides_partial : forall keccak bs f key, NoDup (map prim (concat bs)) ->
  (forall y, y ∈ concat bs -> signs (fidk f) key y = true -> is_reset y = false) ->
  (forall e, strictly_latest (concat bs) (fidk f) key e -> active_signer (orun keccak o_init bs) f key = if usable e then Some e else None) /\
  ((forall y, y ∈ concat bs -> signs (fidk f) key y = false) -> active_signer (orun keccak o_init bs) f key = None).
Proof.
  intros keccak bs f key Hnd Hnr. pose proof (sig_inv_run keccak bs) as (Hok & Hp & Hl).
  assert (Hnr' : no_reset (orun keccak o_init bs) (fidk f) key).
  { intros k1 y1 Hy1. apply Hnr. by eapply (run_ev_in keccak bs k1). }
  split.
  - intros e (He & Hs & Hlast). destruct (Hl _ _ Hnr' (prim e) e) as (k' & e' & H1 & H2 & H3); [by apply run_ev_in|done|].
    destruct (Hp _ _ _ H1) as (e'' & H2' & Hs' & _). assert (e'' = e') as -> by congruence.
    assert (e' = e) as ->.
    { destruct (decide (e' = e)) as [|Hne]; [done|]. apply (run_ev_in keccak bs) in H2 as [H2 _]; [|done]. specialize (Hlast _ H2 Hs' Hne). lia. }
    unfold active_signer, deref. rewrite H1. cbn. rewrite H2. unfold usable. by destruct (o_body e) as [[] ? [|[]]| | | | |].
  - intros Hnone. unfold active_signer. destruct (t_sig (orun keccak o_init bs) !! (fidk f, key)) as [k|] eqn:Ek; [|done].
    destruct (Hp _ _ _ Ek) as (e & He & Hs & _). apply (run_ev_in keccak bs) in He as [He _]; [|done]. rewrite Hnone in Hs by done. done.
Qed.
(** Hence the order of delivery and the grouping into transactions do not matter: no resets, one event per key and block. *)
Lemma has_latest (l : list oev) f key : NoDup l -> (forall x y, x ∈ l -> y ∈ l -> signs f key x = true -> signs f key y = true -> o_block x = o_block y -> x = y) ->
  (forall y, y ∈ l -> signs f key y = false) \/ exists e, strictly_latest l f key e.
Proof.
  induction l as [|x l IH]; intros Hd Hu; [left; intros y Hy; by apply elem_of_nil in Hy|]. apply NoDup_cons in Hd as [Hn Hd].
  destruct IH as [IH|(e & He & Hs & Hl)]; [done|intros a b Ha Hb; apply Hu; by right|..].
  - destruct (signs f key x) eqn:Ex; [right; exists x|left].
    + split; [left|]. split; [done|]. intros y Hy Hsy Hne. apply elem_of_cons in Hy as [->|Hy]; [done|]. by rewrite IH in Hsy.
    + intros y Hy. apply elem_of_cons in Hy as [->|Hy]; [done|by apply IH].
  - right. destruct (signs f key x) eqn:Ex.
    + assert (Hneq : o_block x <> o_block e). { intros Heq. destruct Hn. rewrite (Hu x e); [done|left|by right|done..]. }
      destruct (N.lt_ge_cases (o_block x) (o_block e)) as [Hlt|Hge].
      * exists e. split; [by right|]. split; [done|]. intros y Hy Hsy Hne. apply elem_of_cons in Hy as [->|Hy]; [done|by apply Hl].
      * exists x. split; [left|]. split; [done|]. intros y Hy Hsy Hne. apply elem_of_cons in Hy as [->|Hy]; [done|].
        destruct (decide (y = e)) as [->|Hye]; [lia|]. specialize (Hl y Hy Hsy Hye). lia.
    + exists e. split; [by right|]. split; [done|]. intros y Hy Hsy Hne. apply elem_of_cons in Hy as [->|Hy]; [congruence|by apply Hl].
Qed.
Theorem C26_order_irrelevant_partial : forall keccak bs bs' f key, NoDup (map prim (concat bs)) -> concat bs ≡ₚ concat bs' ->
  (forall y, y ∈ concat bs -> signs (fidk f) key y = true -> is_reset y = false) ->
  (forall x y, x ∈ concat bs -> y ∈ concat bs -> signs (fidk f) key x = true -> signs (fidk f) key y = true -> o_block x = o_block y -> x = y) ->
  active_signer (orun keccak o_init bs) f key = active_signer (orun keccak o_init bs') f key.
Proof.
  intros keccak bs bs' f key Hnd Hp Hnr Hu.
  assert (Hin : forall y, y ∈ concat bs' <-> y ∈ concat bs) by (intros y; by rewrite Hp).
  assert (Hnd' : NoDup (map prim (concat bs'))) by (by rewrite <- (Permutation_map prim Hp)).
  destruct (C26_latest_decides_partial keccak bs f key Hnd Hnr) as [A1 A2].
  destruct (C26_latest_decides_partial keccak bs' f key Hnd') as [B1 B2]; [intros y Hy; apply Hnr; by apply Hin|].
  destruct (has_latest (concat bs) (fidk f) key) as [Hno|(e & He)]; [by apply (NoDup_fmap_1 prim)|done|..].
  - rewrite A2 by done. rewrite B2; [done|]. intros y Hy. apply Hno. by apply Hin.
  - rewrite (A1 e He), (B1 e); [done|]. destruct He as (H1 & H2 & H3). split; [by apply Hin|]. split; [done|]. intros y Hy. apply H3. by apply Hin.
Qed.
(** Delivered in chain order the last event decides, also within one block and after resets. *)
Theorem C26_chain_order_partial : forall keccak bs f key l1 e l2, NoDup (map prim (concat bs)) ->
  concat bs = l1 ++ e :: l2 -> signs (fidk f) key e = true -> is_reset e = false ->
  (forall y, y ∈ l1 -> signs (fidk f) key y = true -> o_block y <= o_block e) -> (forall y, y ∈ l2 -> signs (fidk f) key y = false) ->
  active_signer (orun keccak o_init bs) f key = if usable e then Some e else None.
Proof.
  intros keccak bs f key l1 e l2 Hnd Hc Hs Hr H1 H2. unfold active_signer.
  rewrite (last_signer keccak bs (fidk f) key l1 e l2) by done. unfold usable. by destruct (o_body e) as [[] ? [|[]]| | | | |].
Qed.

(** Examples: account 5, key [9]. *)
Definition sg (k : sig_kind) (b lg : N) : oev := OEv 5 b 0 lg 0 (BSigner k [9] 1).
Definition act (bs : list (list oev)) : bool := bool_decide (is_Some (active_signer (orun id o_init bs) 5 [9])).
Example C26_ex : act [[sg SAdd 10 0]] = true /\ act [[sg SAdd 10 0]; [sg SRemove 12 1]] = false /\
  act [[sg SRemove 12 1]; [sg SAdd 10 0]] = false /\ act [[sg SAdd 14 3; sg SRemove 12 1]; [sg SAdd 10 0]] = true /\
  NoDup (map prim [sg SAdd 14 3; sg SRemove 12 1; sg SAdd 10 0]) /\
  act [[sg SAdd 10 0]; [sg SRemove 12 1]; [sg SReset 13 0]] = true /\ act [[sg SAdd 10 0; sg SRemove 10 1; sg SAdd 10 2]] = true.
Proof. repeat split; try (by vm_compute). apply (bool_decide_eq_true_1 _). by vm_compute. Qed.

(** Within one block the order of arrival decides, not the log position. The code has a check meant to let a removal
    win, but it looks at the incoming event twice. *)
Theorem C26_same_block_refuted : exists e1 e2, o_block e1 = o_block e2 /\ o_log e1 < o_log e2 /\ prim e1 <> prim e2 /\
  act [[e1]; [e2]] = false /\ act [[e2]; [e1]] = true.
Proof. exists (sg SAdd 10 0), (sg SRemove 10 1). by vm_compute. Qed.
(** A reset finds an Add only if that was committed before the reset's transaction. *)
Theorem C26_reset_batching_refuted : exists e1 e2 e3, o_block e1 < o_block e2 < o_block e3 /\
  act [[e1]; [e2; e3]] = true /\ act [[e1; e2; e3]] = false.
Proof. exists (sg SAdd 10 0), (sg SRemove 11 0), (sg SReset 12 0). by vm_compute. Qed.
(** After a reset an older removal delivered late takes effect. *)
Theorem C26_late_removal_refuted : exists e1 e2 e3, o_block e1 < o_block e2 < o_block e3 /\
  act [[e1]; [e2]; [e3]] = true /\ act [[e1]; [e3]; [e2]] = false.
Proof. exists (sg SAdd 10 0), (sg SRemove 11 0), (sg SReset 12 0). by vm_compute. Qed.

(** ** C60: custody *)
Theorem C60_custody_latest : forall keccak bs f, NoDup (map prim (concat bs)) ->
  (forall x, custody_event (orun keccak o_init bs) f = Some x ->
    x ∈ concat bs /\ registers (fidk f) x = true /\ forall y, y ∈ concat bs -> registers (fidk f) y = true -> o_block y <= o_block x) /\
  (custody_event (orun keccak o_init bs) f = None -> forall y, y ∈ concat bs -> registers (fidk f) y = false).
Proof.
  intros keccak bs f Hnd. pose proof (id_inv_run keccak bs) as (Hok & Hp & Hl). unfold custody_event. split.
  - intros x Hx. destruct (t_id (orun keccak o_init bs) !! fidk f) as [k|] eqn:Ek; [|done]. cbn in Hx.
    destruct (Hp _ _ Ek) as (e & He & Hr). assert (e = x) as -> by congruence. split; [by eapply (run_ev_in keccak bs k)|]. split; [done|].
    intros y Hy Hry. destruct (Hl (fidk f) (prim y) y) as (k' & e' & H1 & H2 & H3); [by apply run_ev_in|done|].
    assert (k' = k) as -> by congruence. assert (e' = x) as -> by congruence. done.
  - intros Hn y Hy. destruct (registers (fidk f) y) eqn:Hry; [|done]. destruct (Hl (fidk f) (prim y) y) as (k' & e' & H1 & H2 & H3); [by apply run_ev_in|done|].
    rewrite H1 in Hn. cbn in Hn. congruence.
Qed.
(** With one registration or transfer per block the custody event does not depend on delivery. *)
Theorem C60_order_irrelevant_partial : forall keccak bs bs' f, NoDup (map prim (concat bs)) -> concat bs ≡ₚ concat bs' ->
  (forall x y, x ∈ concat bs -> y ∈ concat bs -> registers (fidk f) x = true -> registers (fidk f) y = true -> o_block x = o_block y -> x = y) ->
  custody_event (orun keccak o_init bs) f = custody_event (orun keccak o_init bs') f.
Proof.
  intros keccak bs bs' f Hnd Hp Hu.
  assert (Hin : forall y, y ∈ concat bs' <-> y ∈ concat bs) by (intros y; by rewrite Hp).
  assert (Hnd' : NoDup (map prim (concat bs'))) by (by rewrite <- (Permutation_map prim Hp)).
  destruct (C60_custody_latest keccak bs f Hnd) as [A1 A2]. destruct (C60_custody_latest keccak bs' f Hnd') as [B1 B2].
  destruct (custody_event (orun keccak o_init bs) f) as [x|].
  - destruct (A1 x eq_refl) as (H1 & H2 & H3). destruct (custody_event (orun keccak o_init bs') f) as [y|].
    + destruct (B1 y eq_refl) as (G1 & G2 & G3). f_equal. apply Hu; [done|by apply Hin|done|done|]. apply N.le_antisymm; [apply G3; [by apply Hin|done]|apply H3; [by apply Hin|done]].
    + rewrite B2 in H2; [done|done|by apply Hin].
  - destruct (custody_event (orun keccak o_init bs') f) as [y|]; [|done]. destruct (B1 y eq_refl) as (G1 & G2 & _). rewrite A2 in G2; [done|done|by apply Hin].
Qed.
Definition ir (k : id_kind) (to b lg : N) : oev := OEv 5 b 0 lg 0 (BIdReg k [to]).
Theorem C60_same_block_refuted : exists e1 e2, o_block e1 = o_block e2 /\ o_log e1 < o_log e2 /\
  custody_event (orun id o_init [[e2; e1]]) 5 = Some e1.
Proof. exists (ir IRegister 1 10 0), (ir ITransfer 2 10 1). by vm_compute. Qed.
Example C60_ex : custody_event (orun id o_init [[ir IRegister 1 10 0]; [ir ITransfer 3 30 0; ir ITransfer 2 20 0]; [ir IRecovery 7 40 0]]) 5 = Some (ir ITransfer 3 30 0) /\
  custody_event (orun id o_init [[ir ITransfer 2 20 0]; [ir ITransfer 3 30 0; ir IRecovery 7 40 0; ir IRegister 1 10 0]]) 5 = Some (ir ITransfer 3 30 0).
Proof. by vm_compute. Qed.

(** ** C58: channel ownership *)

(** After any history: an owner address lists exactly the channels it owns, each channel has one owner with a 20-byte
    address, and the label table leads from a label to a registered channel with that label. *)
Theorem C58_tables_agree : forall keccak bs, let s := orun keccak o_init bs in
  (forall a ck, (a, ck) ∈ t_addr s <-> exists w, t_own s !! ck = Some w /\ w_addr w = a) /\
  (forall l ck, t_label s !! l = Some ck -> keccak ck = l /\ is_Some (t_own s !! ck)) /\
  (forall ck w, t_own s !! ck = Some w -> length (w_addr w) = 20%nat /\ exists ck', t_label s !! keccak ck = Some ck').
Proof. intros keccak bs. exact (ch_inv_run keccak bs). Qed.
(** An event never takes a channel away without an owner, and never applies chain state older than what is recorded. *)
Theorem C58_never_backwards : forall keccak db s e ck w, t_own s !! ck = Some w ->
  exists w', t_own (ostep keccak db s e) !! ck = Some w' /\ ~ lt3 (wpos w') (wpos w).
Proof. exact watermark_step. Qed.
(** The reported ownership change is what happened: a change of owner is reported, and what is reported is recorded. *)
Theorem C58_hint_exact : forall keccak s e k label ckey owner expiry s' c,
  index_chan keccak s e k label ckey owner expiry = (s', c) ->
  (forall ck a cause, c = Some (ck, a, cause) -> w_addr <$> t_own s' !! ck = Some a) /\
  (forall ck, w_addr <$> t_own s' !! ck <> w_addr <$> t_own s !! ck -> exists a cause, c = Some (ck, a, cause)).
Proof.
  intros keccak s e k label ckey owner expiry s' c E. pose proof (index_chan_step keccak s e k label ckey owner expiry) as H. rewrite E in H. cbn [fst snd] in H.
  destruct H as [| ck0 ow0 ex0 lb0 Elb L1 L2 Hold|ck0 ow0 ex0 lb0 w Elb L1 Hw Hold|ck0 ow0 ex0 lb0 ck w El L1 L2 Hw Hold]; cbn.
  - split; [done|]. intros ck Hne. by destruct Hne.
  - split; [intros ck a cause [= <- <- _]; by rewrite lookup_insert|]. intros ck Hne. destruct (decide (ck0 = ck)) as [<-|]; [by do 2 eexists|]. by rewrite lookup_insert_ne in Hne.
  - split; [done|]. intros ck Hne. destruct Hne. destruct (decide (ck0 = ck)) as [<-|]; [by rewrite lookup_insert, Hw|by rewrite lookup_insert_ne].
  - split; [intros c1 a cause [= <- <- _]; by rewrite lookup_insert|]. intros c1 Hne. destruct (decide (ck = c1)) as [<-|]; [by do 2 eexists|]. by rewrite lookup_insert_ne in Hne.
Qed.
(** Delivered in chain order, owner and expiry are those of the registry rules ([chan_spec]), channel by channel. *)
Theorem C58_follows_chain_partial : forall keccak bs, chan_good keccak (concat bs) ->
  forall ck, (fun w => (w_addr w, w_expiry w)) <$> t_own (orun keccak o_init bs) !! ck = foldl (chan_spec keccak ck) None (concat bs).
Proof. intros keccak bs Hg. by destruct (chan_ok_run keccak bs Hg) as (_ & _ & _ & H). Qed.

Definition kk : bytes -> bytes := fun b => repeat (hd 0 b) 32.
Definition ad (n : N) : bytes := repeat n 20.
Definition ce (k : ch_kind) (c o b : N) : oev := OEv 0 b 0 0 0 (BChan k (kk [c]) [c] (ad o) (b + 100)).
Definition owner_of (bs : list (list oev)) (c : N) : option (bytes * N) := (fun w => (w_addr w, w_expiry w)) <$> t_own (orun kk o_init bs) !! [c].
Example C58_ex : chan_good kk (concat [[ce CRegister 1 7 10; ce CRegister 2 7 11]; [ce CTransfer 1 8 12]; [ce CRenew 1 0 13]]) /\
  owner_of [[ce CRegister 1 7 10; ce CRegister 2 7 11]; [ce CTransfer 1 8 12]; [ce CRenew 1 0 13]] 1 = Some (ad 8, 113) /\
  elements (t_addr (orun kk o_init [[ce CRegister 1 7 10; ce CRegister 2 7 11]; [ce CTransfer 1 8 12]])) = [(ad 8, [1]); (ad 7, [2])].
Proof.
  split; [|by vm_compute]. split; [apply (bool_decide_eq_true_1 _); by vm_compute|]. split.
  - cbn. repeat constructor; unfold lt3; cbn; lia.
  - intros c1 c2 H1 H2 H. cbn in H1, H2. repeat (apply elem_of_cons in H1 as [->|H1]); repeat (apply elem_of_cons in H2 as [->|H2]); try (by apply elem_of_nil in H1); try (by apply elem_of_nil in H2); try done.
Qed.
(** A transfer delivered before the registration is lost, and so is one delivered after a newer renewal: the owner is
    then not the one on chain. *)
Theorem C58_order_refuted : exists e1 e2 e3, o_block e1 < o_block e2 < o_block e3 /\
  owner_of [[e1]; [e2]; [e3]] 1 = Some (ad 8, 112) /\ owner_of [[e2]; [e1]; [e3]] 1 = Some (ad 7, 112) /\ owner_of [[e1]; [e3]; [e2]] 1 = Some (ad 7, 112).
Proof. exists (ce CRegister 1 7 10), (ce CTransfer 1 8 11), (ce CRenew 1 0 12). by vm_compute. Qed.

(** ** C61: subscriptions *)

(** With purchases in time order the subscription is active exactly while some purchase plus the days bought since then
    reaches to now: no paid day is lost and none is given away. (Purchases at the time 0 apart.) *)
Theorem C61_subscription_partial : forall tier now l, by_time l ->
  (tier_active tier now l = true <-> now <= best_run (purchases tier now l) \/ now <= 86400 * total_days (purchases tier now l)).
Proof.
  intros tier now l Hs. unfold tier_active, tier_expires. rewrite tier_fold_run by done. rewrite N.leb_le. lia.
Qed.
Lemma best_run_ge l p : p ∈ l -> p.1 + 86400 * p.2 <= best_run l.
Proof.
  induction l as [|q l IH]; intros H; [by apply elem_of_nil in H|]. cbn [best_run total_days foldr]. apply elem_of_cons in H as [->|H]; [lia|]. specialize (IH H). lia.
Qed.
(** Every purchase is honoured for at least its days, and the day count never ends earlier through another purchase. *)
Theorem C61_purchase_honoured : forall tier now l e d, by_time l -> e ∈ l -> o_body e = BTier tier d -> o_ts e <= now <= o_ts e + 86400 * d ->
  tier_active tier now l = true.
Proof.
  intros tier now l e d Hs Hin Hb Hn. apply C61_subscription_partial; [done|]. left.
  assert (Hp : (o_ts e, d) ∈ purchases tier now l).
  { unfold purchases. apply elem_of_list_omap. exists e. split; [done|]. rewrite Hb, N.eqb_refl. cbn. by replace (o_ts e <=? now) with true by (symmetry; apply N.leb_le; lia). }
  pose proof (best_run_ge _ _ Hp). cbn in *. lia.
Qed.
Theorem C61_never_beyond_paid : forall tier now l, by_time l -> 0 < now -> tier_active tier now l = true ->
  exists e d, e ∈ l /\ o_body e = BTier tier d /\ o_ts e <= now /\ now <= o_ts e + 86400 * total_days (purchases tier now l).
Proof.
  intros tier now l Hs Hn Ha. apply C61_subscription_partial in Ha; [|done].
  assert (Hb : forall l, best_run l <> 0 \/ total_days l <> 0 -> exists p, p ∈ l /\ best_run l <= p.1 + 86400 * total_days l).
  { clear. induction l as [|p l IH]; [cbn; lia|]. intros _. cbn [best_run total_days foldr]. fold (total_days l).
    destruct (N.max_spec (p.1 + 86400 * (p.2 + total_days l)) (best_run l)) as [[Hlt ->]|[Hge ->]]; [|exists p; split; [left|done]].
    destruct IH as (q & Hq & Hle); [left; lia|]. exists q. split; [by right|]. lia. }
  destruct (Hb (purchases tier now l)) as ([t d] & Hp & Hle); [lia|].
  unfold purchases in Hp. apply elem_of_list_omap in Hp as (e & He & Hpe). destruct (o_body e) as [| |t' d'| | |] eqn:Eb; try done.
  destruct ((t' =? tier) && (o_ts e <=? now)) eqn:E; [|done]. injection Hpe as <- <-. apply andb_prop in E as [E1 E2]. apply N.eqb_eq in E1 as ->. apply N.leb_le in E2.
  exists e, d'. split; [done|]. split; [done|]. split; [done|]. cbn in Hle. lia.
Qed.
Definition tp (b ts d : N) : oev := OEv 5 b 0 0 ts (BTier 1 d).
Example C61_ex : by_time [tp 1 1000000 1; tp 2 1043200 1; tp 3 9000000 30] /\ tier_expires 1 (Some 1050000) [tp 1 1000000 1; tp 2 1043200 1; tp 3 9000000 30] = 1172800 /\
  tier_active 1 1172800 [tp 1 1000000 1; tp 2 1043200 1; tp 3 9000000 30] = true /\ tier_active 1 1172801 [tp 1 1000000 1; tp 2 1043200 1; tp 3 9000000 30] = false.
Proof. split; [repeat constructor; cbn; lia|by vm_compute]. Qed.
(** Purchases stored out of time order: a paid subscription reads as inactive. *)
Theorem C61_unordered_refuted : exists l e now, e ∈ l /\ o_body e = BTier 1 30 /\ o_ts e <= now <= o_ts e + 86400 * 30 /\ tier_active 1 now l = false.
Proof. exists [tp 1 9000000 30; tp 2 1000000 30], (tp 2 1000000 30), 1000001. split; [right; left|]. by vm_compute. Qed.

Print Assumptions C26_order_irrelevant_partial.
Print Assumptions C26_chain_order_partial.
Print Assumptions C58_tables_agree.
Print Assumptions C58_follows_chain_partial.
Print Assumptions C60_order_irrelevant_partial.
Print Assumptions C61_subscription_partial.
