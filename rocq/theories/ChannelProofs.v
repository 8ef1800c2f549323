(** Invariants of the channel state. *)
From Verif Require Export Channel.
From Coq Require Import ZifyN ZifyNat ZifyBool.
#[local] Open Scope N_scope.

(** ** Counting entries of a map *)
Section Count.
  Context {K A : Type} `{Countable K}.
  Definition cntP (P : K * A -> bool) (m : gmap K A) : nat := size (filter (fun kv => P kv = true) m).
  Definition b2n (b : bool) : nat := if b then 1%nat else 0%nat.
  Lemma cntP_empty P : cntP P ∅ = 0%nat.
  Proof. unfold cntP. rewrite map_filter_empty. apply map_size_empty. Qed.
  Lemma cntP_insert_new P m k x : m !! k = None -> cntP P (<[k := x]> m) = (cntP P m + b2n (P (k, x)))%nat.
  Proof.
    intros Hk. unfold cntP. destruct (P (k, x)) eqn:E; cbn [b2n].
    - rewrite map_filter_insert_True by done. rewrite map_size_insert_None; [lia|]. apply map_filter_lookup_None. by left.
    - rewrite map_filter_insert_False by (by rewrite E). rewrite delete_notin by done. lia.
  Qed.
  Lemma cntP_delete P m k x : m !! k = Some x -> (cntP P (delete k m) + b2n (P (k, x)))%nat = cntP P m.
  Proof.
    intros Hk. rewrite <- (cntP_insert_new P (delete k m) k x) by apply lookup_delete. by rewrite insert_delete.
  Qed.
  Lemma cntP_insert P m k x : (cntP P (<[k := x]> m) + match m !! k with Some y => b2n (P (k, y)) | None => 0 end)%nat = (cntP P m + b2n (P (k, x)))%nat.
  Proof.
    destruct (m !! k) as [y|] eqn:E; [|rewrite cntP_insert_new by done; lia].
    rewrite <- (cntP_delete P m k y E). rewrite <- insert_delete_insert. rewrite (cntP_insert_new P (delete k m) k x) by apply lookup_delete. lia.
  Qed.
End Count.

(** What each slot shows. *)
Definition view (s : chst) : gmap skey cmsg := map_imap (fun k p => c_row s !! (k.1.1, p)) (c_slot s).
Lemma view_lookup s k : view s !! k = (c_slot s !! k ≫= fun p => c_row s !! (k.1.1, p)).
Proof. unfold view. by rewrite map_lookup_imap. Qed.

Definition in_slots (k : N) (ch : bytes) (kv : skey * cmsg) : bool := bool_decide (kv.1.1 = (k, ch)).
Definition live_in (ch : bytes) (kv : skey * cmsg) : bool := bool_decide (kv.1.1 = (1, ch)) && is_live_moderator (cm_body kv.2).

(** Messages of the history: [U] says which; hashes identify them. *)
Definition ids_unique (U : cmsg -> Prop) : Prop := forall a b, U a -> U b -> row_key a = row_key b -> a = b.

Definition CInv (U : cmsg -> Prop) (s : chst) : Prop :=
  (forall k p, c_slot s !! k = Some p -> exists m, c_row s !! (k.1.1, p) = Some m /\ slot_key m = Some k /\ p = ptr_of m) /\
  (forall rk m, c_row s !! rk = Some m -> rk = row_key m /\ U m /\ slot_message_ok (cm_body m) = true /\ exists k, slot_key m = Some k /\ c_slot s !! k = Some (ptr_of m)) /\
  (forall k f ch x t h, c_add s !! (k, f, ch, x) = Some (t, h) <-> c_slot s !! (k, ch, x) = Some (f, t, h)) /\
  (forall k ch, is_Some (slot_cap k) -> counter (c_cnt s !! (k, ch)) = N.of_nat (cntP (in_slots k ch) (view s))) /\
  (forall k ch cap, slot_cap k = Some cap -> counter (c_cnt s !! (k, ch)) <= cap) /\
  (forall ch, counter (c_live s !! ch) = N.of_nat (cntP (live_in ch) (view s))) /\
  (forall f ch, (f, ch) ∈ c_byfid s <-> f < 2 ^ 32 /\ is_Some (c_slot s !! (1, ch, be 4 f))).

Lemma CInv_init U : CInv U ch_init.
Proof.
  assert (Hv : view ch_init = ∅) by (apply map_empty; intros k; rewrite view_lookup; cbn; by rewrite lookup_empty).
  split; [|split; [|split; [|split; [|split; [|split]]]]].
  - intros k p H. done.
  - intros k m H. done.
  - intros. cbn. split; done.
  - intros. rewrite Hv, cntP_empty. done.
  - intros k ch cap _. cbn. rewrite lookup_empty. cbn. lia.
  - intros. rewrite Hv, cntP_empty. done.
  - intros f ch. cbn. rewrite lookup_empty. split; [set_solver|]. intros [_ [? ?]]. done.
Qed.

Lemma load_view U s k : CInv U s -> load_slot s k = inr (view s !! k).
Proof.
  intros (H1 & _). rewrite view_lookup. unfold load_slot. destruct (c_slot s !! k) as [p|] eqn:E; [|done].
  destruct (H1 k p E) as (m & Hm & _). cbn. by rewrite Hm.
Qed.
Lemma view_ok U s k m : CInv U s -> view s !! k = Some m -> slot_key m = Some k /\ U m /\ c_slot s !! k = Some (ptr_of m) /\ slot_message_ok (cm_body m) = true.
Proof.
  intros (H1 & H2 & _) Hv. rewrite view_lookup in Hv. destruct (c_slot s !! k) as [p|] eqn:E; [|done]. cbn in Hv.
  destruct (H1 k p E) as (m' & Hm' & Hk & Hp). rewrite Hm' in Hv. injection Hv as ->. destruct (H2 _ _ Hm') as (_ & HU & Hok & _). by rewrite Hp.
Qed.
Lemma view_of_slot U s k p : CInv U s -> c_slot s !! k = Some p -> exists m, view s !! k = Some m /\ p = ptr_of m.
Proof. intros (H1 & _) E. destruct (H1 k p E) as (m & Hm & _ & Hp). exists m. rewrite view_lookup, E. cbn. by rewrite Hm. Qed.

(** What a successful merge did. *)
Lemma merge_spec U s m s' d : CInv U s -> ids_unique U -> U m -> merge_slot s m = inr (s', d) ->
  exists x, slot_suffix (cm_body m) = Some x /\ length (cm_chan m) = CHANNEL_ID_LEN /\ slot_message_ok (cm_body m) = true /\
    let k := (kind (cm_body m), cm_chan m, x) in
    d = view s !! k /\ d <> Some m /\ view s' = <[k := m]> (view s) /\ CInv U s' /\ cm_fid m < 2 ^ 32 /\
    (forall cap, slot_cap (kind (cm_body m)) = Some cap -> view s !! k = None -> (cntP (in_slots (kind (cm_body m)) (cm_chan m)) (view s) < N.to_nat cap)%nat).
Proof.
  intros HI HU Hm Hmg. pose proof HI as (H1 & H2 & H3 & H4 & H5 & H6 & H7). unfold merge_slot in Hmg. cbv zeta in Hmg.
  destruct (Nat.eqb_spec (length (cm_chan m)) CHANNEL_ID_LEN) as [Hlen|]; [|done]. cbn [negb] in Hmg.
  destruct (slot_message_ok (cm_body m)) eqn:Hok; [|done]. cbn [negb] in Hmg.
  destruct (Nat.eqb (length (cm_hash m)) HASH_LEN); [|done]. cbn [negb] in Hmg.
  destruct (slot_suffix (cm_body m)) as [x|] eqn:Hx; [|done]. exists x. split; [done|]. split; [done|]. split; [done|]. cbv zeta.
  remember (kind (cm_body m)) as kk eqn:Ekk. remember (cm_chan m) as ch eqn:Ech. remember (kk, ch, x) as K eqn:EK.
  assert (Hsk : slot_key m = Some K) by (unfold slot_key; rewrite Hx; cbn; congruence).
  rewrite (load_view U) in Hmg by done. destruct (match view s !! K with Some i => _ | None => false end) eqn:Edup; [done|].
  remember (view s !! K) as inc eqn:Einc.
  destruct (match inc, slot_cap kk with None, Some cap => _ | _, _ => inr (c_cnt s) end) as [|cnts] eqn:Ec; [done|].
  destruct (if eqb _ _ then inr (c_live s) else _) as [|lives] eqn:El; [done|].
  destruct (N.leb_spec (2 ^ 32) (cm_fid m)) as [|Hf]; [done|]. injection Hmg as Es <-.
  assert (Hd : inc <> Some m).
  { intros ->. rewrite N.eqb_refl, bool_decide_true in Edup; done. }
  (* no row under the new message's key, once the incumbent is gone *)
  assert (Hrow : forall r', c_row s !! row_key m = Some r' -> False).
  { intros r' Hr. destruct (H2 _ _ Hr) as (Hrk & HUr & _ & k' & Hk' & Hs'). assert (r' = m) as -> by (by apply HU).
    rewrite Hsk in Hk'. injection Hk' as <-. apply Hd. rewrite Einc, view_lookup, Hs'. cbn. replace (K.1.1, ptr_of m) with (row_key m); [done|].
    unfold row_key. rewrite EK. cbn. congruence. }
  assert (Hinc : match inc with Some i => slot_key i = Some K /\ c_slot s !! K = Some (ptr_of i) /\ c_row s !! row_key i = Some i | None => c_slot s !! K = None end).
  { destruct inc as [i|].
    - symmetry in Einc. destruct (view_ok U s K i HI Einc) as (Ha & _ & Hb & _). split; [done|]. split; [done|].
      rewrite view_lookup, Hb in Einc. cbn in Einc. replace (row_key i) with (K.1.1, ptr_of i); [done|]. unfold row_key. f_equal.
      unfold slot_key in Ha. destruct (slot_suffix (cm_body i)); [|done]. cbn in Ha. injection Ha as <-. done.
    - destruct (c_slot s !! K) as [p|] eqn:E; [|done]. destruct (view_of_slot U s K p HI E) as (i & Hi & _). congruence. }
  assert (Hrows' : forall rk, (<[row_key m := m]> (match inc with Some i => delete (row_key i) (c_row s) | None => c_row s end)) !! rk =
    if decide (rk = row_key m) then Some m else match inc with Some i => if decide (rk = row_key i) then None else c_row s !! rk | None => c_row s !! rk end).
  { intros rk. destruct (decide (rk = row_key m)) as [->|Hne]; [apply lookup_insert|]. rewrite lookup_insert_ne by done.
    destruct inc as [i|]; [|done]. destruct (decide (rk = row_key i)) as [->|]; [apply lookup_delete|by rewrite lookup_delete_ne]. }
  assert (Hview : view s' = <[K := m]> (view s)).
  { apply map_eq. intros k. rewrite view_lookup, <- Es. cbn [c_slot c_row]. destruct (decide (k = K)) as [->|Hne].
    - rewrite !lookup_insert. cbn. rewrite Hrows'. rewrite decide_True; [done|]. unfold row_key. rewrite EK. cbn. congruence.
    - rewrite !lookup_insert_ne by done. rewrite view_lookup. destruct (c_slot s !! k) as [p|] eqn:E; [|done]. cbn. rewrite Hrows'.
      destruct (H1 k p E) as (m' & Hm' & Hk' & Hp'). rewrite decide_False.
      2:{ intros Heq. rewrite Heq in Hm'. by apply (Hrow m'). }
      destruct inc as [i|]; [|done]. rewrite decide_False; [done|]. intros Heq. rewrite Heq in Hm'. destruct Hinc as (Hi1 & _ & Hi3).
      rewrite Hi3 in Hm'. injection Hm' as <-. congruence. }
  split; [done|]. split; [done|]. split; [done|].
  (* every row still present belongs to another slot *)
  assert (Hslot' : forall k, c_slot s' !! k = if decide (k = K) then Some (ptr_of m) else c_slot s !! k).
  { intros k. rewrite <- Es. cbn. destruct (decide (k = K)) as [->|]; [apply lookup_insert|by rewrite lookup_insert_ne]. }
  assert (Hrow' : c_row s' = <[row_key m := m]> (match inc with Some i => delete (row_key i) (c_row s) | None => c_row s end)) by (by rewrite <- Es).
  assert (Hcnt' : c_cnt s' = cnts) by (by rewrite <- Es). assert (Hlive' : c_live s' = lives) by (by rewrite <- Es).
  assert (Hcap : forall cap, slot_cap kk = Some cap -> inc = None -> counter (c_cnt s !! (kk, ch)) < cap).
  { intros cap Hc ->. rewrite Hc in Ec. destruct (N.leb_spec cap (counter (c_cnt s !! (kk, ch)))); done. }
  split; [|split; [done|]].
  2:{ intros cap Hc Hn. specialize (Hcap cap Hc Hn). rewrite (H4 kk ch) in Hcap by eauto. lia. }
  assert (Hcnts : forall k c, counter (cnts !! (k, c)) = counter (c_cnt s !! (k, c)) + match inc, slot_cap kk with None, Some _ => if decide ((k, c) = (kk, ch)) then 1 else 0 | _, _ => 0 end).
  { intros k c. destruct inc as [i|]; [injection Ec as <-; lia|]. destruct (slot_cap kk) as [cap|] eqn:Esc; [|injection Ec as <-; lia].
    destruct (cap <=? _); [done|]. injection Ec as <-. destruct (decide ((k, c) = (kk, ch))) as [[= -> ->]|Hne].
    - rewrite lookup_insert. unfold counter at 1. cbn. done.
    - rewrite lookup_insert_ne by congruence. lia. }
  assert (Hvw : forall P, (cntP P (view s') + match inc with Some y => b2n (P (K, y)) | None => 0 end)%nat = (cntP P (view s) + b2n (P (K, m)))%nat).
  { intros P. rewrite Hview, Einc. apply cntP_insert. }
  split; [|split; [|split; [|split; [|split; [|split]]]]].
  - intros k p. rewrite Hslot'. destruct (decide (k = K)) as [->|Hne].
    + intros [= <-]. exists m. split; [|done]. rewrite Hrow', Hrows', decide_True; [done|]. unfold row_key. rewrite EK. cbn. congruence.
    + intros E. destruct (H1 k p E) as (m' & Hm' & Hk' & Hp'). exists m'. split; [|done]. rewrite Hrow', Hrows'.
      rewrite decide_False by (intros Heq; rewrite Heq in Hm'; by apply (Hrow m')).
      destruct inc as [i|]; [|done]. rewrite decide_False; [done|]. intros Heq. rewrite Heq in Hm'. destruct Hinc as (Hi1 & _ & Hi3). congruence.
  - intros rk m'. rewrite Hrow', Hrows'. destruct (decide (rk = row_key m)) as [->|Hne].
    + intros [= <-]. split; [done|]. split; [done|]. split; [done|]. exists K. split; [done|]. rewrite Hslot'. by rewrite decide_True.
    + intros Hr. assert (Hr2 : c_row s !! rk = Some m' /\ match inc with Some i => rk <> row_key i | None => True end).
      { destruct inc as [i|]; [destruct (decide (rk = row_key i)); [done|]|]; done. }
      destruct Hr2 as [Hr2 Hri]. destruct (H2 _ _ Hr2) as (Ha & Hb & Hc & k' & Hk' & Hs'). split; [done|]. split; [done|]. split; [done|]. exists k'. split; [done|].
      rewrite Hslot'. rewrite decide_False; [done|]. intros ->. destruct inc as [i|]; [|congruence]. destruct Hinc as (Hi1 & Hi2 & _).
      apply Hri. rewrite Ha. unfold row_key. f_equal; [|congruence]. unfold slot_key in Hk', Hi1.
      destruct (slot_suffix (cm_body m')), (slot_suffix (cm_body i)); try done. cbn in Hk', Hi1. congruence.
  - intros k f c y t h. rewrite Hslot'. rewrite <- Es. cbn [c_add]. destruct (decide ((k, c, y) = K)) as [HK|HK].
    + rewrite EK in HK. injection HK as -> -> ->. unfold ptr_of. destruct (decide (f = cm_fid m)) as [->|Hf'].
      * rewrite lookup_insert. split; congruence.
      * rewrite lookup_insert_ne by congruence. split; [|congruence]. intros Ha. exfalso.
        destruct inc as [i|].
        -- destruct Hinc as (_ & Hi2 & _). destruct (decide (f = cm_fid i)) as [->|Hfi]; [by rewrite lookup_delete in Ha|].
           rewrite lookup_delete_ne in Ha by congruence. apply H3 in Ha. rewrite EK in Hi2. unfold ptr_of in Hi2. congruence.
        -- apply H3 in Ha. rewrite EK in Hinc. congruence.
    + rewrite lookup_insert_ne by (rewrite EK in HK; congruence).
      destruct inc as [i|]; [rewrite lookup_delete_ne by (rewrite EK in HK; congruence)|]; apply H3.
  - intros k c Hk. rewrite Hcnt', Hcnts, (H4 k c Hk). specialize (Hvw (in_slots k c)). unfold in_slots in Hvw at 2 4. cbn [fst] in Hvw. rewrite EK in Hvw. cbn [fst] in Hvw.
    destruct (decide ((k, c) = (kk, ch))) as [[= -> ->]|Hne].
    + rewrite bool_decide_true in Hvw by done. cbn [b2n] in Hvw. destruct Hk as [cap Hk]. rewrite Hk. destruct inc; lia.
    + rewrite bool_decide_false in Hvw by congruence. cbn [b2n] in Hvw. destruct inc, (slot_cap kk); lia.
  - intros k c cap Hk. rewrite Hcnt', Hcnts. pose proof (H5 k c cap Hk) as Hle. destruct inc as [i|]; [lia|]. destruct (slot_cap kk) as [cap'|] eqn:Esc; [|lia].
    destruct (decide _) as [[= -> ->]|]; [|lia]. rewrite Esc in Hk. injection Hk as ->. specialize (Hcap cap eq_refl eq_refl). lia.
  - intros c. rewrite Hlive'. specialize (Hvw (live_in c)). unfold live_in in Hvw at 2 4. cbn [fst snd] in Hvw. rewrite EK in Hvw. cbn [fst snd] in Hvw.
    pose proof (H6 c) as H6c. destruct (decide (c = ch)) as [->|Hne].
    + (* moderators exist only in member slots *)
      assert (Hnk : kk <> 1 -> is_live_moderator (cm_body m) = false /\ match inc with Some i => is_live_moderator (cm_body i) = false | None => True end).
      { intros Hk1. assert (Hgen : forall b, kind b <> 1 -> is_live_moderator b = false) by (by intros [| | |]).
        split; [apply Hgen; congruence|]. destruct inc as [i|]; [|done]. destruct Hinc as (Hi1 & _). apply Hgen. unfold slot_key in Hi1.
        destruct (slot_suffix (cm_body i)); [|done]. cbn in Hi1. congruence. }
      assert (Hb : bool_decide ((kk, ch) = (1, ch)) = (kk =? 1)).
      { destruct (N.eqb_spec kk 1) as [->|]; [by rewrite bool_decide_true|rewrite bool_decide_false; congruence]. }
      rewrite Hb in Hvw.
      assert (Hmod : (N.of_nat (cntP (live_in ch) (view s')) + (if match inc with Some i => is_live_moderator (cm_body i) | None => false end then 1 else 0)
                     = counter (c_live s !! ch) + (if is_live_moderator (cm_body m) then 1 else 0))).
      { destruct (N.eqb_spec kk 1) as [Hk1|Hk1].
        - cbn [andb] in Hvw. destruct inc as [i|]; [destruct (is_live_moderator (cm_body i))|]; destruct (is_live_moderator (cm_body m)); cbn [b2n] in Hvw; lia.
        - destruct (Hnk Hk1) as [-> Hi]. cbn [andb b2n] in Hvw. destruct inc as [i|]; [rewrite Hi|]; lia. }
      remember (match inc with Some i => is_live_moderator (cm_body i) | None => false end) as old eqn:Eold. clear Eold.
      destruct (eqb_spec old (is_live_moderator (cm_body m))) as [He|He].
      * injection El as <-. rewrite He in Hmod. lia.
      * destruct (is_live_moderator (cm_body m)) eqn:Em.
        -- injection El as <-. rewrite lookup_insert. change (counter (Some (counter (c_live s !! ch) + 1))) with (counter (c_live s !! ch) + 1). destruct old; [done|lia].
        -- destruct old; [|done]. destruct (N.eqb_spec (counter (c_live s !! ch)) 0); [done|].
           destruct (N.eqb_spec (counter (c_live s !! ch) - 1) 0); injection El as <-.
           ++ rewrite lookup_delete. change (counter None) with 0. lia.
           ++ rewrite lookup_insert. change (counter (Some (counter (c_live s !! ch) - 1))) with (counter (c_live s !! ch) - 1). lia.
    + assert (Hl : lives !! c = c_live s !! c).
      { destruct (eqb _ _); [by injection El as <-|]. destruct (is_live_moderator (cm_body m)); [injection El as <-; by rewrite lookup_insert_ne|].
        destruct (_ =? 0); [done|]. destruct (_ =? 0); injection El as <-; [by rewrite lookup_delete_ne|by rewrite lookup_insert_ne]. }
      rewrite Hl, H6c. rewrite bool_decide_false in Hvw by congruence. cbn [andb b2n] in Hvw. destruct inc; lia.
  - intros f c. rewrite Hslot'. rewrite <- Es. cbn [c_byfid]. destruct (cm_body m) as [| t a| |] eqn:Eb; cbn [slot_suffix] in Hx; cbn [kind] in Ekk.
    all: try (rewrite (H7 f c); rewrite decide_False by (rewrite EK; congruence); done).
    destruct (N.ltb_spec t (2 ^ 32)) as [Ht|]; [|done]. injection Hx as <-. rewrite elem_of_union, elem_of_singleton, (H7 f c).
    destruct (decide ((1, c, be 4 f) = K)) as [HK|HK].
    + rewrite EK in HK. pose proof (f_equal snd HK) as Hbe. cbn [snd] in Hbe. assert (c = ch) as -> by congruence. split.
      * intros [[= ->]|[Hf' _]]; [split; [done|eauto]|split; [done|eauto]].
      * intros [Hf' _]. left. f_equal. apply (be_inj 4); [exact Hf'|exact Ht|done].
    + split; [|naive_solver]. intros [[= -> ->]|Hr]; [|done]. exfalso. apply HK. rewrite EK. congruence.
Qed.

Lemma merge_CInv U s m s' d : CInv U s -> ids_unique U -> U m -> merge_slot s m = inr (s', d) -> CInv U s'.
Proof. intros H1 H2 H3 H4. by destruct (merge_spec U s m s' d H1 H2 H3 H4) as (x & _ & _ & _ & _ & _ & _ & H & _). Qed.
