(** C122: a block event given to a data shard reaches its store, or its absence is told. *)
From stdpp Require Import gmap.
From Verif Require Import Base Codec Kv Version Engine EngineProofs EngineSeq PropEngine ShardZero ShardZeroProofs PropShardZero Confirm.
From Coq Require Import ZifyN ZifyNat ZifyBool Lia.
#[local] Open Scope N_scope.

(** ** Waiting *)

(** The looks up to the one that decided. *)
Lemma wait_split seq os : forall v r, wait seq os = (v, r) -> exists used, os = used ++ r /\
  match v with
  | None => r = []
  | Some true => exists u o, used = u ++ [o] /\ (has (k_store o) seq = true \/ exists m, k_wake o = Note m /\ seq <= m) /\ Forall (fun o => has (k_store o) seq = false /\ k_late o = false) u
  | Some false => exists u o, used = u ++ [o] /\ k_late o = true /\ Forall (fun o => has (k_store o) seq = false) used
  end.
Proof.
  induction os as [|o os IH]; intros v r; cbn [wait]; [intros [= <- <-]; exists []; split; reflexivity|].
  destruct (has (k_store o) seq) eqn:H; [intros [= <- <-]; exists [o]; split; [reflexivity|]; exists [], o; split; [reflexivity|]; split; [left; exact H|constructor]|].
  destruct (k_late o) eqn:L; [intros [= <- <-]; exists [o]; split; [reflexivity|]; exists [], o; split; [reflexivity|]; split; [exact L|]; constructor; [exact H|constructor]|].
  assert (K : wait seq os = (v, r) -> exists used, o :: os = used ++ r /\
    match v with
    | None => r = []
    | Some true => exists u o, used = u ++ [o] /\ (has (k_store o) seq = true \/ exists m, k_wake o = Note m /\ seq <= m) /\ Forall (fun o => has (k_store o) seq = false /\ k_late o = false) u
    | Some false => exists u o, used = u ++ [o] /\ k_late o = true /\ Forall (fun o => has (k_store o) seq = false) used
    end).
  { intros W. destruct (IH v r W) as (used & -> & X). exists (o :: used). split; [reflexivity|]. destruct v as [[|]|]; [| |exact X].
    - destruct X as (u & q & -> & A & B). exists (o :: u), q. split; [reflexivity|]. split; [exact A|]. constructor; [split; assumption|exact B].
    - destruct X as (u & q & -> & A & B). exists (o :: u), q. split; [reflexivity|]. split; [exact A|]. constructor; assumption. }
  destruct (k_wake o) as [m|] eqn:W; [|exact K]. destruct (N.leb_spec seq m); [|exact K].
  intros [= <- <-]. exists [o]. split; [reflexivity|]. exists [], o. split; [reflexivity|]. split; [right; eauto|constructor].
Qed.

(** Confirmed means the store was seen to have the event, or was said to. *)
Theorem C122_confirmed_seen seq os r : wait seq os = (Some true, r) ->
  exists o, o ∈ os /\ ((exists m, k_store o = Some m /\ seq <= m) \/ exists m, k_wake o = Note m /\ seq <= m).
Proof.
  intros W. destruct (wait_split _ _ _ _ W) as (used & -> & u & o & -> & A & _). exists o. split; [apply elem_of_app; left; apply elem_of_app; right; apply elem_of_list_here|].
  destruct A as [A|A]; [left|right; exact A]. unfold has in A. destruct (k_store o) as [m|]; [|discriminate]. exists m. split; [reflexivity|lia].
Qed.
(** Lost notifications do no harm: an event that is in the store before the deadline is found. *)
Theorem C122_no_false_miss seq u o r : (exists m, k_store o = Some m /\ seq <= m) -> Forall (fun o => k_late o = false) u ->
  (wait seq (u ++ o :: r)).1 = Some true.
Proof.
  intros (m & S & L) F. assert (H : has (k_store o) seq = true) by (unfold has; rewrite S; lia). clear S L.
  induction F as [|a u La F IH]; cbn [app wait]; [rewrite H; reflexivity|]. destruct (has (k_store a) seq); [reflexivity|]. rewrite La.
  destruct (k_wake a) as [q|]; [destruct (seq <=? q); [reflexivity|]|]; exact IH.
Qed.
(** Timed out means each reading up to and after the deadline failed or was short. *)
Theorem C122_timeout_real seq os r : wait seq os = (Some false, r) ->
  exists u o, os = u ++ o :: r /\ k_late o = true /\ forall q m, q ∈ u ++ [o] -> k_store q = Some m -> m < seq.
Proof.
  intros W. destruct (wait_split _ _ _ _ W) as (used & -> & u & o & -> & A & B). exists u, o. split; [rewrite <- app_assoc; reflexivity|]. split; [exact A|].
  intros q m Q S. rewrite Forall_forall in B. specialize (B q Q). unfold has in B. rewrite S in B. lia.
Qed.

Section Props.
  Context (E : zenv) (certified : zblock -> bool) (d : zdb) (batch : N).
  Notation syncw := (syncw E certified d batch).
  Notation sync := (sync E certified d).
  Notation ensure := (ensure E certified d batch).
  Notation take_block := (take_block E certified d batch).

  (** ** Against the receiver without waiting (C38) *)
  Lemma sync_prefix fuel : forall cur stop acc s, sync fuel cur stop acc = Some (Some s) -> acc `prefix_of` s.
  Proof.
    induction fuel as [|fuel IH]; intros cur stop acc s; cbn [ShardZero.sync]; destruct (stop <? cur); try discriminate; try (intros [= <-]; reflexivity).
    destruct (block_of_event d cur) as [b|]; [|discriminate]. destruct (last (zb_events b)) as [[? [x|]]|]; [|discriminate|]; intros H; apply IH in H; etrans; [|exact H|  |exact H]; apply prefix_app_r; reflexivity.
  Qed.
  Lemma syncw_sync fuel : forall start cur stop sent os v sent' r, syncw fuel start cur stop sent os = (v, sent', r) ->
    (exists used, os = used ++ r) /\ sent `prefix_of` sent' /\
    (v = SDone -> sync fuel cur stop sent = Some (Some sent')) /\
    (v = STimeout -> forall s, sync fuel cur stop sent = Some (Some s) -> sent' `prefix_of` s).
  Proof.
    induction fuel as [|fuel IH]; intros start cur stop sent os v sent' r; cbn [Confirm.syncw ShardZero.sync]; destruct (stop <? cur).
    1-3: intros [= <- <- <-]; (split; [exists []; reflexivity|]); (split; [reflexivity|]); (split; [first [discriminate|reflexivity]|discriminate]).
    destruct (block_of_event d cur) as [b|].
    2: { intros [= <- <- <-]; (split; [exists []; reflexivity|]); (split; [reflexivity|]); (split; discriminate). }
    set (sent1 := sent ++ submit E (certified b) b). assert (P1 : sent `prefix_of` sent1) by (apply prefix_app_r; reflexivity).
    destruct (last (zb_events b)) as [[? [x|]]|].
    - destruct (due batch start stop (b_seq x)) as [[|]|].
      + destruct (wait (b_seq x) os) as [w r1] eqn:W. destruct (wait_split _ _ _ _ W) as (used & -> & _). destruct w as [[|]|].
        * intros H. destruct (IH _ _ _ _ _ _ _ _ H) as ((u & ->) & A & B & C). split; [exists (used ++ u); apply app_assoc|]. split; [etrans; [exact P1|exact A]|]. split; assumption.
        * intros [= <- <- <-]. split; [exists used; reflexivity|]. split; [exact P1|]. split; [discriminate|]. intros _ s Hs. exact (sync_prefix _ _ _ _ _ Hs).
        * intros [= <- <- <-]. split; [exists used; reflexivity|]. split; [exact P1|]. split; discriminate.
      + intros H. destruct (IH _ _ _ _ _ _ _ _ H) as (U & A & B & C). split; [exact U|]. split; [etrans; [exact P1|exact A]|]. split; assumption.
      + intros [= <- <- <-]. split; [exists []; reflexivity|]. split; [exact P1|]. split; discriminate.
    - intros [= <- <- <-]. split; [exists []; reflexivity|]. split; [exact P1|]. split; discriminate.
    - intros H. destruct (IH _ _ _ _ _ _ _ _ H) as (U & A & B & C). split; [exact U|]. split; [etrans; [exact P1|exact A]|]. split; assumption.
  Qed.
  Lemma ensure_prefix fuel tries : forall target sent os v sent' r, ensure fuel tries target sent os = (v, sent', r) ->
    sent `prefix_of` sent' /\ v <> VSkipped /\ v <> VLater /\
    (v = VConfirmed -> exists o, o ∈ os /\ exists m, k_store o = Some m /\ target <= m) /\
    (v = VReported -> exists u o, os = u ++ o :: r /\ forall m, k_store o = Some m -> m < target).
  Proof.
    assert (HS : forall o t, has (k_store o) t = true -> exists m, k_store o = Some m /\ t <= m).
    { intros o t H. unfold has in H. destruct (k_store o) as [m|]; [|discriminate]. exists m. split; [reflexivity|lia]. }
    assert (HN : forall o t, has (k_store o) t = false -> forall m, k_store o = Some m -> m < t).
    { intros o t H m S. unfold has in H. rewrite S in H. lia. }
    assert (FIN : forall target sent os v sent' r, final target sent os = (v, sent', r) ->
      sent `prefix_of` sent' /\ v <> VSkipped /\ v <> VLater /\ (v = VConfirmed -> exists o, o ∈ os /\ exists m, k_store o = Some m /\ target <= m) /\
      (v = VReported -> exists u o, os = u ++ o :: r /\ forall m, k_store o = Some m -> m < target)).
    { intros target sent [|o os] v sent' r; cbn [final]; [intros [= <- <- <-]|destruct (has (k_store o) target) eqn:H; intros [= <- <- <-]];
        (split; [reflexivity|]); (split; [discriminate|]); (split; [discriminate|]); (split; [try discriminate|try discriminate]).
      - intros _. exists o. split; [apply elem_of_list_here|apply HS; exact H].
      - intros _. exists [], o. split; [reflexivity|apply HN; exact H]. }
    induction tries as [|tries IH]; intros target sent os v sent' r; cbn [Confirm.ensure]; [apply FIN|].
    destruct os as [|o os]; [intros [= <- <- <-]; (split; [reflexivity|]); (split; [discriminate|]); (split; [discriminate|]); (split; discriminate)|].
    destruct (k_store o) as [m|] eqn:S.
    2: { intros H. destruct (FIN _ _ _ _ _ _ H) as (A & B & B' & C & D). split; [exact A|]. split; [exact B|]. split; [exact B'|]. split.
         - intros Hv. destruct (C Hv) as (q & Q & X). exists q. split; [right; exact Q|exact X].
         - intros Hv. destruct (D Hv) as (u & q & -> & X). exists (o :: u), q. split; [reflexivity|exact X]. }
    destruct (N.leb_spec target m).
    { intros [= <- <- <-]. split; [reflexivity|]. split; [discriminate|]. split; [discriminate|]. split; [|discriminate]. intros _. exists o. split; [apply elem_of_list_here|]. exists m. split; assumption. }
    destruct (syncw fuel (m + 1) (m + 1) target sent os) as [[q sent1] r1] eqn:Y. destruct (syncw_sync _ _ _ _ _ _ _ _ _ Y) as ((used & ->) & P & _).
    assert (LIFT : forall w sent'' r2 r1', (exists z, used ++ r1 = z ++ r1') -> ensure fuel tries target sent1 r1' = (w, sent'', r2) ->
      sent `prefix_of` sent'' /\ w <> VSkipped /\ w <> VLater /\ (w = VConfirmed -> exists o0, o0 ∈ o :: used ++ r1 /\ exists m, k_store o0 = Some m /\ target <= m) /\
      (w = VReported -> exists u o0, o :: used ++ r1 = u ++ o0 :: r2 /\ forall m, k_store o0 = Some m -> m < target)).
    { intros w s2 r2 r1' (z & Hz) He. destruct (IH _ _ _ _ _ _ He) as (A & B & B' & C & D). split; [etrans; [exact P|exact A]|]. split; [exact B|]. split; [exact B'|]. split.
      - intros Hv. destruct (C Hv) as (q' & Q & X). exists q'. split; [rewrite Hz; right; apply elem_of_app; right; exact Q|exact X].
      - intros Hv. destruct (D Hv) as (u & q' & Hr & X). exists (o :: z ++ u), q'. split; [rewrite Hz, Hr; cbn; rewrite <- app_assoc; reflexivity|exact X]. }
    destruct q.
    - destruct r1 as [|o' r1]; [intros [= <- <- <-]; (split; [exact P|]); (split; [discriminate|]); (split; [discriminate|]); (split; discriminate)|].
      destruct (has (k_store o') target) eqn:H'.
      + intros [= <- <- <-]. split; [exact P|]. split; [discriminate|]. split; [discriminate|]. split; [|discriminate]. intros _. exists o'. split; [right; apply elem_of_app; right; apply elem_of_list_here|apply HS; exact H'].
      + intros He. apply (LIFT _ _ _ r1); [exists (used ++ [o']); rewrite <- app_assoc; reflexivity|exact He].
    - intros He. apply (LIFT _ _ _ r1); [exists used; reflexivity|exact He].
    - intros [= <- <- <-]. split; [exact P|]. split; [discriminate|]. split; [discriminate|]. split; discriminate.
    - intros [= <- <- <-]. split; [exact P|]. split; [discriminate|]. split; [discriminate|]. split; discriminate.
  Qed.

  (** A block is done with only if its last event was seen in the store or said to be there, or the last reading was short of it
      and this was reported. Nothing passes in silence. *)
  Theorem C122_no_silent_gap fuel b os v sent r y h : take_block fuel b os = (v, sent, r) -> last (zb_events b) = Some (h, Some y) ->
    match v with
    | VConfirmed => exists o, o ∈ os /\ ((exists m, k_store o = Some m /\ b_seq y <= m) \/ exists m, k_wake o = Note m /\ b_seq y <= m)
    | VReported => exists u o, os = u ++ o :: r /\ forall m, k_store o = Some m -> m < b_seq y
    | VSkipped => exists o m, os = o :: r /\ k_store o = Some m /\ b_seq y < m
    | _ => True
    end.
  Proof.
    intros H L. unfold Confirm.take_block in H. rewrite L in H. destruct (zb_events b) as [|[h0 first] evs]; [discriminate L|].
    destruct os as [|o os]; [injection H as <- _ _; exact I|]. destruct (k_store o) as [stored|] eqn:S; [|injection H as <- _ _; exact I].
    destruct first as [x|]; [|injection H as <- _ _; exact I]. destruct (N.ltb_spec (b_seq y) stored) as [Lt|Ge].
    { injection H as <- _ <-. exists o, stored. split; [reflexivity|]. split; assumption. }
    assert (K : exists q s1 r1 used, (if stored + 1 <? b_seq x then syncw fuel (stored + 1) (stored + 1) (b_seq x - 1) [] os else (SDone, [], os)) = (q, s1, r1) /\ os = used ++ r1).
    { destruct (stored + 1 <? b_seq x); [|exists SDone, [], os, []; split; reflexivity].
      destruct (syncw fuel (stored + 1) (stored + 1) (b_seq x - 1) [] os) as [[q s1] r1] eqn:Y. destruct (syncw_sync _ _ _ _ _ _ _ _ _ Y) as ((used & U) & _). exists q, s1, r1, used. split; [reflexivity|exact U]. }
    destruct K as (q & s1 & r1 & used & K & U). rewrite K in H. destruct q; [|injection H as <- _ _; exact I..].
    destruct (wait (b_seq y) r1) as [[[|]|] r2] eqn:W.
    - injection H as <- _ _. destruct (C122_confirmed_seen _ _ _ W) as (q & Q & X). exists q. split; [rewrite U; right; apply elem_of_app; right; exact Q|exact X].
    - destruct (wait_split _ _ _ _ W) as (used2 & U2 & _). destruct (ensure_prefix _ _ _ _ _ _ _ _ H) as (_ & N1 & N2 & A & B). destruct v; try exact I; try contradiction.
      + destruct (A eq_refl) as (q & Q & X). exists q. split; [rewrite U, U2; right; apply elem_of_app; right; apply elem_of_app; right; exact Q|left; exact X].
      + destruct (B eq_refl) as (u & q & Hr & X). exists (o :: used ++ used2 ++ u), q. split; [rewrite U, U2, Hr; cbn; rewrite <- !app_assoc; reflexivity|exact X].
    - injection H as <- _ _. exact I.
  Qed.

  (** What is handed over: at least what the receiver without waiting hands over, first and in its order; if a synchronisation timed
      out, a beginning of it. *)
  Theorem C122_as_without_waiting fuel b o os v sent r stored : take_block fuel b (o :: os) = (v, sent, r) -> k_store o = Some stored ->
    match v with
    | VConfirmed | VReported => exists s, receive E certified d fuel stored b = Some (Some s) /\ s `prefix_of` sent
    | VSkipped => receive E certified d fuel stored b = Some (Some []) /\ sent = []
    | VLater => forall s, receive E certified d fuel stored b = Some (Some s) -> sent `prefix_of` s
    | _ => True
    end.
  Proof.
    intros H S. unfold Confirm.take_block in H. unfold receive. destruct (zb_events b) as [|[h0 first] evs]; [injection H as <- <- _; split; reflexivity|]. rewrite S in H.
    destruct (last ((h0, first) :: evs)) as [[h1 [y|]]|]; [|injection H as <- _ _; exact I..].
    destruct first as [x|]; [|injection H as <- _ _; exact I]. destruct (b_seq y <? stored); [injection H as <- <- _; split; reflexivity|].
    assert (K : exists q s1 r1, (if stored + 1 <? b_seq x then syncw fuel (stored + 1) (stored + 1) (b_seq x - 1) [] os else (SDone, [], os)) = (q, s1, r1) /\
      (q = SDone -> (if stored + 1 <? b_seq x then match sync fuel (stored + 1) (b_seq x - 1) [] with Some (Some sent) => Some (Some (sent ++ submit E (certified b) b)) | r => r end
         else Some (Some (submit E (certified b) b))) = Some (Some (s1 ++ submit E (certified b) b))) /\
      (q = STimeout -> forall s, (if stored + 1 <? b_seq x then match sync fuel (stored + 1) (b_seq x - 1) [] with Some (Some sent) => Some (Some (sent ++ submit E (certified b) b)) | r => r end
         else Some (Some (submit E (certified b) b))) = Some (Some s) -> s1 `prefix_of` s)).
    { destruct (stored + 1 <? b_seq x); [|exists SDone, [], os; split; [reflexivity|]; split; [reflexivity|discriminate]].
      destruct (syncw fuel (stored + 1) (stored + 1) (b_seq x - 1) [] os) as [[q s1] r1] eqn:Y. destruct (syncw_sync _ _ _ _ _ _ _ _ _ Y) as (_ & _ & A & B).
      exists q, s1, r1. split; [reflexivity|]. split; [intros Hq; rewrite (A Hq); reflexivity|]. intros Hq s. destruct (sync fuel (stored + 1) (b_seq x - 1) []) as [[s0|]|] eqn:Q; try discriminate.
      intros [= <-]. etrans; [exact (B Hq _ eq_refl)|]. apply prefix_app_r. reflexivity. }
    destruct K as (q & s1 & r1 & K & A & B). rewrite K in H. destruct q.
    - destruct (wait (b_seq y) r1) as [[[|]|] r2].
      + injection H as <- <- _. eexists. split; [exact (A eq_refl)|reflexivity].
      + destruct (ensure_prefix _ _ _ _ _ _ _ _ H) as (P & N1 & N2 & _). destruct v; try exact I; try contradiction; (eexists; split; [exact (A eq_refl)|exact P]).
      + injection H as <- _ _. exact I.
    - injection H as <- <- _. exact (B eq_refl).
    - injection H as <- _ _. exact I.
    - injection H as <- _ _. exact I.
  Qed.
End Props.

(** ** Over a chain of shard 0 *)

Lemma sync_more E certified d fuel : forall fuel' cur stop acc s, sync E certified d fuel cur stop acc = Some s -> (fuel <= fuel')%nat -> sync E certified d fuel' cur stop acc = Some s.
Proof.
  induction fuel as [|fuel IH]; intros [|fuel'] cur stop acc s H L; cbn [sync] in *; try lia; [destruct (stop <? cur); [exact H|discriminate H]..|].
  destruct (stop <? cur); [exact H|]. destruct (block_of_event d cur) as [b|]; [|exact H]. destruct (last (zb_events b)) as [[? [x|]]|]; [apply IH; [exact H|lia]|exact H|apply IH; [exact H|lia]].
Qed.
Lemma receive_more E certified d fuel fuel' stored b s : receive E certified d fuel stored b = Some s -> (fuel <= fuel')%nat -> receive E certified d fuel' stored b = Some s.
Proof.
  intros H L. unfold receive in *. destruct (zb_events b) as [|[h f] evs]; [exact H|]. destruct f as [x|]; [|exact H]. destruct (last _) as [[? [y|]]|]; try exact H.
  destruct (b_seq y <? stored); [exact H|]. destruct (stored + 1 <? b_seq x); [|exact H].
  destruct (sync E certified d fuel (stored + 1) (b_seq x - 1) []) as [q|] eqn:Q; [|discriminate]. rewrite (sync_more _ _ _ _ _ _ _ _ _ Q L). exact H.
Qed.

Section Chain.
  Context (E : zenv) (n : network) (certified : zblock -> bool) (batch : N).

  (** With honest lists, certificates for every block and nothing pruned: when the receiver is done with a block, confirmed or with a
      report, it has handed over every event from the one after its first reading of the store to the block's last. *)
  Theorem C122_all_handed_over_partial l e made fuel b o os v sent r stored : zrun E n (zopen zdb0) [] l = Some (e, made) ->
    rising 0 (zb_height <$> l.*2) = true -> honest_run E n (zopen zdb0) l -> (forall b, b ∈ l.*2 -> certified b = true) ->
    b ∈ l.*2 -> zb_events b <> [] -> k_store o = Some stored ->
    take_block E certified (ze_db e) batch fuel b (o :: os) = (v, sent, r) -> v = VConfirmed \/ v = VReported ->
    exists x, last (omap snd (zb_events b)) = Some x /\ sublist (nums (stored + 1) (N.to_nat (b_seq x - stored))) (b_seq <$> sent).
  Proof.
    intros R Hr Hh C B Ne S H V. destruct (C38_receive_complete_partial E n l e made certified stored b R Hr Hh C B Ne) as (fuel' & s & x & A1 & A2 & A3 & A4).
    exists x. split; [exact A2|]. pose proof (C122_as_without_waiting E certified (ze_db e) batch fuel b o os v sent r stored H S) as W.
    assert (W' : exists s, receive E certified (ze_db e) fuel stored b = Some (Some s) /\ s `prefix_of` sent) by (destruct V as [-> | ->]; exact W). clear W.
    destruct W' as (s' & W1 & W2). assert (s' = s).
    { destruct (Nat.le_ge_cases fuel fuel') as [Q|Q]; [pose proof (receive_more _ _ _ _ _ _ _ _ W1 Q)|pose proof (receive_more _ _ _ _ _ _ _ _ A1 Q)]; congruence. }
    subst s'. etrans; [exact A4|]. destruct W2 as [k ->]. rewrite fmap_app. apply sublist_inserts_r. reflexivity.
  Qed.

  (** And never anything but events of the chain, retries included. *)
  Lemma syncw_genuine d (P : bevent -> Prop) : (forall s b, block_of_event d s = Some b -> Forall P (submit E (certified b) b)) ->
    forall fuel start cur stop sent os v sent' r, Forall P sent -> syncw E certified d batch fuel start cur stop sent os = (v, sent', r) -> Forall P sent'.
  Proof.
    intros HP. induction fuel as [|fuel IH]; intros start cur stop sent os v sent' r F; cbn [syncw]; destruct (stop <? cur); try (intros [= _ <- _]; exact F).
    destruct (block_of_event d cur) as [b|] eqn:B; [|intros [= _ <- _]; exact F].
    assert (F1 : Forall P (sent ++ submit E (certified b) b)) by (apply Forall_app; split; [exact F|exact (HP _ _ B)]).
    destruct (last (zb_events b)) as [[? [x|]]|]; [|intros [= _ <- _]; exact F1|apply IH; exact F1].
    destruct (due batch start stop (b_seq x)) as [[|]|]; [|apply IH; exact F1|intros [= _ <- _]; exact F1].
    destruct (wait (b_seq x) os) as [[[|]|] r1]; [apply IH; exact F1|intros [= _ <- _]; exact F1..].
  Qed.
  Lemma ensure_genuine d (P : bevent -> Prop) fuel : (forall s b, block_of_event d s = Some b -> Forall P (submit E (certified b) b)) ->
    forall tries target sent os v sent' r, Forall P sent -> ensure E certified d batch fuel tries target sent os = (v, sent', r) -> Forall P sent'.
  Proof.
    intros HP. induction tries as [|tries IH]; intros target sent os v sent' r F; cbn [ensure].
    - destruct os; intros [= _ <- _]; exact F.
    - destruct os as [|o os]; [intros [= _ <- _]; exact F|]. destruct (k_store o) as [m|]; [|destruct os; intros [= _ <- _]; exact F].
      destruct (target <=? m); [intros [= _ <- _]; exact F|]. destruct (syncw E certified d batch fuel (m + 1) (m + 1) target sent os) as [[q s1] r1] eqn:Y.
      pose proof (syncw_genuine d P HP _ _ _ _ _ _ _ _ _ F Y) as F1. destruct q; [|apply IH; exact F1|intros [= _ <- _]; exact F1..].
      destruct r1 as [|o' r1]; [intros [= _ <- _]; exact F1|]. destruct (has (k_store o') target); [intros [= _ <- _]; exact F1|]. apply IH. exact F1.
  Qed.
  Theorem C122_genuine l e made fuel b os v sent r : zrun E n (zopen zdb0) [] l = Some (e, made) ->
    rising 0 (zb_height <$> l.*2) = true -> honest_run E n (zopen zdb0) l -> b ∈ l.*2 ->
    take_block E certified (ze_db e) batch fuel b os = (v, sent, r) -> Forall (fun x => x ∈ made) sent.
  Proof.
    intros R Hr Hh Hb H. destruct (zrun_logged E n l (zopen zdb0) [] e made) as (log & M & L1 & L & HL); [|done|done|].
    { split; [|split; [constructor|]].
      - split; [done|]. intros k x. cbn. rewrite lookup_empty. split; [done|]. by intros [?%elem_of_nil _].
      - intros h b'. cbn. rewrite lookup_empty. split; [done|]. by intros [?%elem_of_nil _]. }
    cbn [app] in *. specialize (HL Hh). destruct L as (_ & _ & LB).
    assert (HP0 : forall b, b ∈ log.*1 -> Forall (fun x => x ∈ made) (submit E (certified b) b)).
    { intros b0 B. apply elem_of_list_fmap in B as ([b' evs] & -> & B). rewrite Forall_forall in HL. specialize (HL _ B). unfold honest in HL. cbn [fst snd] in *.
      unfold submit. destruct (valid_events E (certified b') b'); [|constructor]. rewrite HL, omap_some, M. apply Forall_forall. intros x X. apply elem_of_list_In, in_concat. exists evs. split; [|apply elem_of_list_In; exact X].
      apply elem_of_list_In, elem_of_list_fmap. exists (b', evs). split; [reflexivity|exact B]. }
    assert (HP : forall s b, block_of_event (ze_db e) s = Some b -> Forall (fun x => x ∈ made) (submit E (certified b) b)).
    { intros s b0 B. unfold block_of_event in B. destruct (zd_bev (ze_db e) !! s) as [x|]; [|discriminate]. cbn in B. apply LB in B as [B _]. apply HP0. exact B. }
    rewrite <- L1 in Hb. specialize (HP0 b Hb). unfold take_block in H.
    destruct (zb_events b) as [|[h0 first] evs]; [injection H as _ <- _; constructor|]. destruct os as [|o os]; [injection H as _ <- _; constructor|].
    destruct (k_store o) as [stored|]; [|injection H as _ <- _; constructor]. destruct (last ((h0, first) :: evs)) as [[? [y|]]|]; [|injection H as _ <- _; constructor..].
    destruct first as [x|]; [|injection H as _ <- _; constructor]. destruct (b_seq y <? stored); [injection H as _ <- _; constructor|].
    assert (K : exists q s1 r1, (if stored + 1 <? b_seq x then syncw E certified (ze_db e) batch fuel (stored + 1) (stored + 1) (b_seq x - 1) [] os else (SDone, [], os)) = (q, s1, r1) /\ Forall (fun x => x ∈ made) s1).
    { destruct (stored + 1 <? b_seq x); [|exists SDone, [], os; split; [reflexivity|constructor]].
      destruct (syncw E certified (ze_db e) batch fuel (stored + 1) (stored + 1) (b_seq x - 1) [] os) as [[q s1] r1] eqn:Y. exists q, s1, r1. split; [reflexivity|]. exact (syncw_genuine _ _ HP _ _ _ _ _ _ _ _ _ (Forall_nil_2 _) Y). }
    destruct K as (q & s1 & r1 & K & F1). rewrite K in H. destruct q; [|injection H as _ <- _; exact F1..].
    assert (F2 : Forall (fun x => x ∈ made) (s1 ++ submit E (certified b) b)) by (apply Forall_app; split; assumption).
    destruct (wait (b_seq y) r1) as [[[|]|] r2]; [injection H as _ <- _; exact F2| |injection H as _ <- _; exact F2].
    exact (ensure_genuine _ _ _ HP _ _ _ _ _ _ _ F2 H).
  Qed.
End Chain.

(** ** What does not hold *)

(** The batch size bounds nothing. A wait is due only when a block happens to end a multiple of it after the start: with blocks of two
    events and any even size, everything is handed over before the store is looked at once. *)
Theorem C122_batch_refuted E certified d batch start (blk : nat -> zblock) (xs : nat -> bevent) (hs : nat -> bytes) k : start + 2 * N.of_nat k < 2 ^ 64 ->
  (exists h, batch = 2 * h /\ 0 < h) ->
  (forall i, (i < k)%nat -> block_of_event d (start + 2 * N.of_nat i) = Some (blk i) /\ last (zb_events (blk i)) = Some (hs i, Some (xs i)) /\ b_seq (xs i) = start + 2 * N.of_nat i + 1) ->
  (1 <= k)%nat ->
  syncw E certified d batch k start start (start + 2 * N.of_nat k - 1) [] [] = (SOpen, concat (map (fun i => submit E (certified (blk i)) (blk i)) (seq 0 k)), []).
Proof.
  intros Hb (h & Hh & Hp) HB Hk.
  assert (G : forall m i sent, (i + m = k)%nat -> (1 <= m)%nat ->
    syncw E certified d batch m start (start + 2 * N.of_nat i) (start + 2 * N.of_nat k - 1) sent [] = (SOpen, sent ++ concat (map (fun i => submit E (certified (blk i)) (blk i)) (seq i m)), [])).
  { induction m as [|m IH]; intros i sent Hi Hm; [lia|]. cbn [syncw]. destruct (N.ltb_spec (start + 2 * N.of_nat k - 1) (start + 2 * N.of_nat i)); [lia|].
    destruct (HB i ltac:(lia)) as (B1 & B2 & B3). rewrite B1, B2, B3. unfold due.
    replace ((start + 2 * N.of_nat i + 1 + 2 ^ 64 - start) mod 2 ^ 64) with (2 * N.of_nat i + 1).
    2: { replace (start + 2 * N.of_nat i + 1 + 2 ^ 64 - start) with ((2 * N.of_nat i + 1) + 1 * 2 ^ 64) by lia. rewrite N.mod_add by discriminate. symmetry. apply N.mod_small. lia. }
    destruct (N.ltb_spec 0 (2 * N.of_nat i + 1)); [|lia]. destruct (N.eqb_spec batch 0); [lia|].
    destruct (N.eqb_spec ((2 * N.of_nat i + 1) mod batch) 0) as [Z|_].
    { exfalso. pose proof (N.div_mod (2 * N.of_nat i + 1) batch ltac:(lia)) as D. rewrite Z, Hh in D. set (q := (2 * N.of_nat i + 1) / (2 * h)) in *. assert (2 * N.of_nat i + 1 = 2 * (h * q)) by lia. lia. }
    cbn [orb]. cbn [seq map concat]. rewrite app_assoc. destruct m as [|m].
    - replace k with (S i) by lia. destruct (N.leb_spec (start + 2 * N.of_nat (S i) - 1) (start + 2 * N.of_nat i + 1)); [|lia]. cbn [wait seq map concat]. rewrite app_nil_r. reflexivity.
    - destruct (N.leb_spec (start + 2 * N.of_nat k - 1) (start + 2 * N.of_nat i + 1)); [lia|].
      replace (start + 2 * N.of_nat i + 1 + 1) with (start + 2 * N.of_nat (S i)) by lia. apply IH; lia. }
  specialize (G k 0%nat [] ltac:(lia) Hk). replace (start + 2 * N.of_nat 0) with start in G by lia. exact G.
Qed.
(** Of blocks with one event each, at most one more than the batch size before the first look. *)
Theorem C122_batch E certified d batch start stop fuel sent os v r : 0 < batch -> stop < 2 ^ 64 ->
  (forall s b, start <= s <= stop -> block_of_event d s = Some b -> exists h x, zb_events b = [(h, Some x)] /\ b_seq x = s) ->
  syncw E certified d batch fuel start start stop [] os = (v, sent, r) -> os = [] -> N.of_nat (length sent) <= batch + 1.
Proof.
  intros Hp Hs HB H ->. assert (G : forall fuel cur acc v sent r, start <= cur -> N.of_nat (length acc) <= cur - start -> cur - start <= batch ->
    syncw E certified d batch fuel start cur stop acc [] = (v, sent, r) -> N.of_nat (length sent) <= batch + 1).
  { clear H v sent r fuel. induction fuel as [|fuel IH]; intros cur acc v sent r H1 H2 H3; cbn [syncw]; destruct (N.ltb_spec stop cur); try (intros [= _ <- _]; lia).
    destruct (block_of_event d cur) as [b|] eqn:B; [|intros [= _ <- _]; lia]. destruct (HB cur b ltac:(lia) B) as (h & x & Ev & Ex). rewrite Ev. cbn [last].
    assert (LS : (length (submit E (certified b) b) <= 1)%nat) by (unfold submit; destruct (valid_events E (certified b) b); [rewrite Ev; cbn; lia|cbn; lia]).
    rewrite Ex. unfold due. replace ((cur + 2 ^ 64 - start) mod 2 ^ 64) with (cur - start).
    2: { replace (cur + 2 ^ 64 - start) with ((cur - start) + 1 * 2 ^ 64) by lia. rewrite N.mod_add by discriminate. symmetry. apply N.mod_small. lia. }
    assert (LA : N.of_nat (length (acc ++ submit E (certified b) b)) <= cur - start + 1) by (rewrite app_length; lia).
    destruct (N.ltb_spec 0 (cur - start)).
    - destruct (N.eqb_spec batch 0); [lia|]. destruct (N.eqb_spec ((cur - start) mod batch) 0) as [Z|Z]; cbn [orb]; [cbn [wait]; intros [= _ <- _]; lia|].
      destruct (stop <=? cur); [cbn [wait]; intros [= _ <- _]; lia|]. assert (cur - start <> batch) by (intros Q; rewrite Q, N.mod_same in Z by lia; contradiction).
      apply IH; lia.
    - destruct (stop <=? cur); [cbn [wait]; intros [= _ <- _]; lia|]. apply IH; lia. }
  apply (G fuel start [] v sent r); [lia|cbn; lia|lia|exact H].
Qed.
(** A batch size of zero, which the configuration allows, ends the receiver at the first event after the start. *)
Theorem C122_batch_zero_refuted E certified d fuel start stop b x h os : block_of_event d start = Some b -> last (zb_events b) = Some (h, Some x) ->
  start < b_seq x -> b_seq x < 2 ^ 64 -> start <= stop ->
  (syncw E certified d 0 (S fuel) start start stop [] os).1.1 = SPanic.
Proof.
  intros B L H1 H2 H3. cbn [syncw]. destruct (N.ltb_spec stop start); [lia|]. rewrite B, L. unfold due.
  replace ((b_seq x + 2 ^ 64 - start) mod 2 ^ 64) with (b_seq x - start).
  2: { replace (b_seq x + 2 ^ 64 - start) with ((b_seq x - start) + 1 * 2 ^ 64) by lia. rewrite N.mod_add by discriminate. symmetry. apply N.mod_small. lia. }
  destruct (N.ltb_spec 0 (b_seq x - start)); [|lia]. reflexivity.
Qed.
(** More blocks than the channel holds while the receiver waits: it ends, and hands over nothing from then on. *)
Theorem C122_lag_refuted E certified d batch fuel bs1 w b bs2 os : 1024 < w ->
  exists rs, runw E certified d batch fuel (bs1 ++ (w, b) :: bs2) os = runw E certified d batch fuel bs1 os ++ rs /\ concat (map snd rs) = [].
Proof.
  intros L. revert os. induction bs1 as [|[w1 b1] bs1 IH]; intros os; cbn [app runw].
  - unfold CAPACITY. destruct (N.ltb_spec 1024 w); [|lia]. exists [(VPanic, [])]. split; reflexivity.
  - destruct (CAPACITY <? w1); [exists []; split; reflexivity|]. destruct (take_block E certified d batch fuel b1 os) as [[v s] r].
    destruct v; try (exists []; split; reflexivity); destruct (IH r) as (rs & Q & Z); (exists rs; split; [rewrite Q; reflexivity|exact Z]).
Qed.
(** The same after any panic: a store that cannot be read at the wrong moment, a block that was pruned. *)
Theorem C122_unread_refuted E certified d batch fuel b o os : zb_events b <> [] -> k_store o = None -> (take_block E certified d batch fuel b (o :: os)).1.1 = VPanic.
Proof. intros N S. unfold take_block. destruct (zb_events b) as [|[h f] evs]; [contradiction|]. rewrite S. reflexivity. Qed.

(** ** Examples: the chain of PropShardZero, events 1-2 in block 4, 3-7 in block 5 *)
Definition seen (x : verdict * list bevent * list look) : verdict * list N * nat := (x.1.1, b_seq <$> x.1.2, length x.2).
Definition lk (m : N) : look := Look (Some m) false Tick.
Definition late (m : N) : look := Look (Some m) true Tick.
Definition tk (os : list look) := seen (take_block toyz (fun _ => true) (ze_db ze5) 500 9 zb5 os).
(** Caught up from nothing; the notification of the second wait is enough. *)
Example C122_ex_confirmed : tk [lk 0; lk 0; lk 2; lk 2; Look (Some 2) false (Note 7); lk 9] = (VConfirmed, [1; 2; 3; 4; 5; 6; 7], 1%nat).
Proof. vm_compute. reflexivity. Qed.
(** The synchronisation times out. *)
Example C122_ex_later : tk [lk 0; lk 0; late 1; lk 0] = (VLater, [1; 2], 1%nat).
Proof. vm_compute. reflexivity. Qed.
(** The store stops at 6: three more rounds, then the report. *)
Example C122_ex_reported : tk [lk 2; late 6; lk 6; late 6; lk 6; late 6; lk 6; late 6; lk 6; lk 7] =
  (VReported, [3; 4; 5; 6; 7; 3; 4; 5; 6; 7; 3; 4; 5; 6; 7; 3; 4; 5; 6; 7], 1%nat).
Proof. vm_compute. reflexivity. Qed.
(** A second round is enough. *)
Example C122_ex_retry : tk [lk 2; late 6; lk 6; Look None false (Note 7); Look (Some 7) true Tick] = (VConfirmed, [3; 4; 5; 6; 7; 3; 4; 5; 6; 7], 0%nat).
Proof. vm_compute. reflexivity. Qed.
Example C122_ex_skipped : tk [lk 8] = (VSkipped, [], 0%nat).
Proof. vm_compute. reflexivity. Qed.
Example C122_ex_batch_zero : (syncw toyz (fun _ => true) (ze_db ze5) 0 9 1 1 2 [] []).1.1 = SPanic.
Proof. vm_compute. reflexivity. Qed.
(** Blocks of two events, as the batch theorem has them: block 4. *)
Example C122_ex_batch : seen (let '(v, s, r) := syncw toyz (fun _ => true) (ze_db ze5) 2 1 1 1 2 [] [] in (match v with SOpen => VOpen | _ => VPanic end, s, r)) = (VOpen, [1; 2], 0%nat).
Proof. vm_compute. reflexivity. Qed.

Print Assumptions C122_no_silent_gap.
Print Assumptions C122_all_handed_over_partial.
Print Assumptions C122_genuine.
Print Assumptions C122_batch_refuted.
