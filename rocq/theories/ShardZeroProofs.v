(** Proofs about shard 0. *)
From stdpp Require Import gmap.
From Coq Require Import ZifyN ZifyNat ZifyBool.
From Verif Require Import Base Codec Kv Version Engine EngineProofs EngineSeq ShardZero.
#[local] Open Scope N_scope.

(** ** Numbering *)

Lemma number_seq l : forall s i h t, b_seq <$> number s i h t l = nums s (length l).
Proof. induction l as [|b l IH]; intros s i h t; [done|]. cbn. by rewrite IH. Qed.
Lemma number_index l : forall s i h t, b_index <$> number s i h t l = nums i (length l).
Proof. induction l as [|b l IH]; intros s i h t; [done|]. cbn. by rewrite IH. Qed.
Lemma number_len s i h t l : length (number s i h t l) = length l.
Proof. rewrite <- (fmap_length b_seq), number_seq. apply nums_len. Qed.
Lemma number_body l : forall s i h t, b_body <$> number s i h t l = l.
Proof. induction l as [|b l IH]; intros s i h t; [done|]. cbn. by rewrite IH. Qed.
Lemma number_at l : forall s i h t, Forall (fun x => b_block x = h /\ b_time x = t) (number s i h t l).
Proof. induction l as [|b l IH]; intros s i h t; constructor; [done|apply IH]. Qed.

Lemma nums_nodup a n : NoDup (nums a n).
Proof.
  revert a. induction n as [|n IH]; intros a; [constructor|]. cbn. constructor; [|apply IH]. rewrite elem_nums. lia.
Qed.

(** The list [l] holds the events [1..n] of the store [m]. *)
Definition tells (m : gmap N bevent) (l : list bevent) : Prop :=
  b_seq <$> l = nums 1 (length l) /\ forall (k : N) (x : bevent), m !! k = Some x <-> x ∈ l /\ b_seq x = k.

Lemma last_seq_spec (m : gmap N bevent) :
  (forall k : N, is_Some (m !! k) -> k <= last_seq m) /\ (last_seq m = 0 \/ is_Some (m !! last_seq m)).
Proof.
  unfold last_seq. apply (map_fold_ind (fun a (m : gmap N bevent) => (forall k : N, is_Some (m !! k) -> k <= a) /\ (a = 0 \/ is_Some (m !! a)))).
  - split; [|by left]. intros k [x H]. by rewrite lookup_empty in H.
  - intros i x m' r Hi [H1 H2]. split.
    + intros k Hk. destruct (decide (k = i)) as [-> |Hn]; [lia|]. rewrite lookup_insert_ne in Hk by done. apply H1 in Hk. lia.
    + destruct (N.max_spec i r) as [[_ ->] | [_ ->]].
      * destruct H2 as [-> |H2]; [by left|]. right. destruct (decide (r = i)) as [-> |Hn]; [by rewrite lookup_insert|].
        by rewrite lookup_insert_ne.
      * right. by rewrite lookup_insert.
Qed.

Lemma tells_last m l : tells m l -> last_seq m = N.of_nat (length l).
Proof.
  intros [S T]. destruct (last_seq_spec m) as [H1 H2].
  assert (K : forall k : N, is_Some (m !! k) <-> 1 <= k <= N.of_nat (length l)).
  { intros k. assert (k ∈ b_seq <$> l <-> 1 <= k <= N.of_nat (length l)) as <- by (rewrite S, elem_nums; lia).
    rewrite elem_of_list_fmap. split.
    - intros [x X]. apply T in X as [X <-]. by exists x.
    - intros (x & -> & X). exists x. by apply T. }
  destruct (decide (length l = 0%nat)) as [Z|Z].
  - destruct H2 as [H2|H2]; [lia|]. apply K in H2. lia.
  - assert (N.of_nat (length l) <= last_seq m) by (apply H1, K; lia). destruct H2 as [H2|H2]; [lia|]. apply K in H2. lia.
Qed.

Lemma tells_app (m : gmap N bevent) l h t bs : tells m l ->
  tells (list_to_map (map (fun x => (b_seq x, x)) (number (last_seq m + 1) 0 h t bs)) ∪ m) (l ++ number (last_seq m + 1) 0 h t bs).
Proof.
  intros T. pose proof (tells_last _ _ T) as L. destruct T as [S T]. set (r := number (last_seq m + 1) 0 h t bs).
  assert (Sr : b_seq <$> r = nums (N.of_nat (length l) + 1) (length r)) by (unfold r; by rewrite number_seq, number_len, L).
  assert (Sa : b_seq <$> l ++ r = nums 1 (length (l ++ r))).
  { rewrite fmap_app, S, Sr, app_length, nums_app. do 2 f_equal. lia. }
  split; [done|]. intros k x.
  assert (ND : NoDup (map (fun x => (b_seq x, x)) r).*1).
  { rewrite <- list_fmap_compose. change (NoDup (b_seq <$> r)). rewrite Sr. apply nums_nodup. }
  rewrite lookup_union_Some_raw, <- elem_of_list_to_map, elem_of_app by done.
  assert (F : forall y : bevent, (k, y) ∈ map (fun x => (b_seq x, x)) r <-> y ∈ r /\ b_seq y = k).
  { intros y. change (map (fun x => (b_seq x, x)) r) with ((fun x => (b_seq x, x)) <$> r). rewrite elem_of_list_fmap. split.
    - by intros (z & [= -> ->] & Z).
    - intros [Y <-]. by exists y. }
  rewrite F. split.
  - intros [[X1 X2]|[X1 X2]]; [split; [by right|done]|]. apply T in X2 as [X2 X3]. split; [by left|done].
  - intros [[X|X] K]; [|by left]. right. split; [|by apply T].
    apply not_elem_of_list_to_map. rewrite <- list_fmap_compose. change (k ∉ b_seq <$> r). rewrite Sr, elem_nums.
    assert (k ∈ b_seq <$> l) as Y by (apply elem_of_list_fmap; by exists x). rewrite S, elem_nums in Y. lia.
Qed.

(** ** Hashes *)

Definition collides (h : bytes -> bytes) : Prop := exists a b, a <> b /\ h a = h b.

#[global] Instance bbody_eqdec : EqDecision bbody.
Proof. solve_decision. Defined.
#[global] Instance bevent_eqdec : EqDecision bevent.
Proof. solve_decision. Defined.

Lemma concat_inj (l l' : list bytes) n : n <> 0%nat -> Forall (fun x => length x = n) l -> Forall (fun x => length x = n) l' ->
  concat l = concat l' -> l = l'.
Proof.
  intros N F. revert l'. induction F as [|x l X F IH]; intros l' F' H.
  - destruct F' as [|y l' Y F']; [done|]. cbn in H. symmetry in H. apply app_eq_nil in H as [-> _]. cbn in Y. congruence.
  - destruct F' as [|y l' Y F']; cbn in H.
    + apply app_eq_nil in H as [-> _]. cbn in X. congruence.
    + apply app_inj_1 in H as [-> H]; [|congruence]. f_equal. by apply IH.
Qed.

Section E.
  Context (E : zenv) (n : network).
  Context (H32 : forall a, length (z_hash E a) = 32%nat) (Inj : forall x y, z_enc E x = z_enc E y -> x = y).

  Lemma hashes_inj (l : list bevent) : forall l', map (fun e => z_hash E (z_enc E e)) l = map (fun e => z_hash E (z_enc E e)) l' ->
    l = l' \/ collides (z_hash E).
  Proof.
    induction l as [|x l IH]; intros [|y l'] H; [by left|done|done|]. cbn in H. injection H as H1 H2.
    destruct (IH _ H2) as [-> |C]; [|by right]. destruct (decide (x = y)) as [-> |D]; [by left|]. right.
    exists (z_enc E x), (z_enc E y). split; [|done]. intros K. by apply Inj in K.
  Qed.

  Lemma concat_hash_inj (l l' : list bytes) : Forall (fun x => length x = 32%nat) l -> Forall (fun x => length x = 32%nat) l' ->
    z_hash E (concat l) = z_hash E (concat l') -> l = l' \/ collides (z_hash E).
  Proof.
    intros F F' H. destruct (decide (concat l = concat l')) as [C|C]; [|right; by exists (concat l), (concat l')].
    left. eapply (concat_inj _ _ 32); done.
  Qed.

  Lemma hashes_len (l : list bevent) : Forall (fun x => length x = 32%nat) (map (fun e => z_hash E (z_enc E e)) l).
  Proof. induction l as [|x l IH]; constructor; [apply H32|done]. Qed.

  Lemma events_hash_inj l l' : events_hash E l = events_hash E l' -> l = l' \/ collides (z_hash E).
  Proof.
    intros H. destruct l as [|x l], l' as [|y l']; [by left| | |].
    - cbn [events_hash] in H. pose proof (H32 (concat (map (fun e => z_hash E (z_enc E e)) (y :: l')))) as L. by rewrite <- H in L.
    - cbn [events_hash] in H. pose proof (H32 (concat (map (fun e => z_hash E (z_enc E e)) (x :: l)))) as L. by rewrite H in L.
    - unfold events_hash in H. apply concat_hash_inj in H as [H|H]; [by apply hashes_inj|by right| |]; apply hashes_len.
  Qed.
End E.

(** ** The engine *)

Section E.
  Context (E : zenv) (n : network).

  Lemma zprepare_replay d t l : forall (w w' : zwip) l', zprepare E d t w l = (w', l') -> zreplay_txns E d t w l' = (w', true).
  Proof.
    induction l as [|tx l IH]; intros w w' l'; cbn [zprepare]; [by intros [= <- <-]|].
    destruct (zprepare E d t (zrun_txn E d t w tx) l) as [w2 r'] eqn:P. intros [= <- <-]. cbn [zreplay_txns].
    unfold zrun_txn at 1 2 3. cbn [zt_fid zt_sys zt_user zt_root]. fold (zrun_txn E d t w tx). rewrite beq_refl. by apply IH.
  Qed.

  Definition zgood (e : zeng) : Prop := ze_mem e = zd_trie (ze_db e).

  Lemma zserve_db e r : ze_db (zserve E n e r) = ze_db e.
  Proof.
    destruct r as [h t l|b]; cbn [zserve].
    - unfold zpropose. destruct (writes n t); [|done]. by destruct (zprepare _ _ _ _ _).
    - unfold zvalidate. destruct (writes n _); [|done]. by destruct (zreplay _ _ _ _ _ _ _ _).
  Qed.
  Lemma zserves_db rs : forall e, ze_db (fold_left (zserve E n) rs e) = ze_db e.
  Proof. induction rs as [|r rs IH]; intros e; [done|]. cbn. rewrite IH. apply zserve_db. Qed.
  Lemma zserve_good e r : zgood e -> zgood (zserve E n e r).
  Proof.
    intros G. destruct r as [h t l|b]; cbn [zserve].
    - unfold zpropose. destruct (writes n t); [|done]. by destruct (zprepare _ _ _ _ _).
    - unfold zvalidate. destruct (writes n _); [|done]. by destruct (zreplay _ _ _ _ _ _ _ _).
  Qed.
  Lemma zserves_good rs : forall e, zgood e -> zgood (fold_left (zserve E n) rs e).
  Proof. induction rs as [|r rs IH]; intros e G; [done|]. cbn. by apply IH, zserve_good. Qed.

  Lemma zcommit_first_good e b d e' evs : zgood e -> zcommit_first E n e b = Some (d, e', evs) -> ze_db e' = d /\ zgood e'.
  Proof.
    intros G. unfold zcommit_first. destruct (writes n (zb_time b)); [|by intros [= <- <- <-]].
    destruct (zreplay _ _ _ _ _ _ _ _) as [w [|]]; [|done]. by intros [= <- <- <-].
  Qed.
  Lemma zcommit_good e b e' evs : zgood e -> zcommit E n e b = Some (e', evs) -> zgood e'.
  Proof.
    intros G. unfold zcommit. destruct (zcommit_first E n e b) as [[[d e1] evs1]|] eqn:C; [|done]. intros [= <- <-].
    destruct (zcommit_first_good _ _ _ _ _ G C) as [<- G1]. unfold zgood in *. by cbn.
  Qed.
  Lemma zrun_good l : forall e made e' made', zgood e -> zrun E n e made l = Some (e', made') -> zgood e'.
  Proof.
    induction l as [|[rs b] l IH]; intros e made e' made' G; cbn [zrun]; [by intros [= <- <-]|].
    destruct (zcommit E n (fold_left (zserve E n) rs e) b) as [[e1 evs]|] eqn:C; [|done].
    apply IH. eapply zcommit_good; [|exact C]. by apply zserves_good.
  Qed.

  (** From EventIdBugFix on the generator of the engine does not matter. *)
  Lemma set_height_fixed t h g g' : is_enabled (ver n t) EventIdBugFix = true -> set_height n t h g = set_height n t h g'.
  Proof. unfold set_height. by intros ->. Qed.

  Lemma zcommit_first_spec e b d e' evs : zcommit_first E n e b = Some (d, e', evs) ->
    if writes n (zb_time b) then
      exists w, zreplay E n (ze_db e) (zb_height b) (zb_time b) (zwip0 (ze_mem e) (set_height n (zb_time b) (zb_height b) (ze_gen e))) (zb_txns b) (zb_root b) (zb_evhash b) = (w, true) /\
        evs = events_of n (ze_db e) (zb_height b) (zb_time b) w /\ d = zwrite (ze_db e) w evs /\ e' = ZEng d (zd_trie d) (zw_gen w) /\
        zb_evhash b = events_hash E evs /\ z_root E (zw_trie w) = zb_root b
    else d = ze_db e /\ e' = e /\ evs = [].
  Proof.
    unfold zcommit_first. destruct (writes n (zb_time b)); [|by intros [= <- <- <-]]. unfold zreplay at 1.
    destruct (zreplay_txns E (ze_db e) (zb_time b) (zwip0 (ze_mem e) (set_height n (zb_time b) (zb_height b) (ze_gen e))) (zb_txns b)) as [w ok] eqn:R.
    destruct (ok && _ && _) eqn:X; [|done]. intros [= <- <- <-]. apply andb_prop in X as [[-> X1]%andb_prop X2].
    exists w. unfold zreplay. rewrite R. apply beq_true in X1, X2. rewrite X1, X2, !beq_refl. done.
  Qed.

  Lemma zrun_tells l : forall e made e' made', tells (zd_bev (ze_db e)) made -> zrun E n e made l = Some (e', made') ->
    tells (zd_bev (ze_db e')) made'.
  Proof.
    induction l as [|[rs b] l IH]; intros e made e' made' T; cbn [zrun]; [by intros [= <- <-]|].
    destruct (zcommit E n (fold_left (zserve E n) rs e) b) as [[e1 evs]|] eqn:C; [|done]. apply IH. unfold zcommit in C.
    destruct (zcommit_first E n (fold_left (zserve E n) rs e) b) as [[[d e2] evs2]|] eqn:C2; [|done]. injection C as <- <-. cbn.
    apply zcommit_first_spec in C2. destruct (writes n (zb_time b)).
    - destruct C2 as (w & _ & -> & -> & _). cbn [zwrite zd_bev]. rewrite zserves_db. apply tells_app, T.
    - destruct C2 as (-> & _ & ->). rewrite zserves_db, (right_id_L [] (++)). done.
  Qed.

  (** ** The chain as a list of blocks with their events *)

  Fixpoint rising (last : N) (hs : list N) : bool :=
    match hs with
    | [] => true
    | h :: r => (last <? h) && rising h r
    end.

  Definition entry_ok (x : zblock * list bevent) : Prop :=
    Forall (fun y => b_block y = zb_height x.1) x.2 /\
    if writes n (zb_time x.1) then zb_evhash x.1 = events_hash E x.2 else x.2 = [].

  (** [log] lists the committed blocks of [d], oldest first. *)
  Definition logged (d : zdb) (log : list (zblock * list bevent)) : Prop :=
    tells (zd_bev d) (concat log.*2) /\ Forall entry_ok log /\
    (forall h b, zd_blocks d !! h = Some b <-> b ∈ log.*1 /\ zb_height b = h).

  Lemma rising_app last hs h : rising last (hs ++ [h]) = true -> rising last hs = true /\ last < h /\ Forall (fun x => x < h) hs.
  Proof.
    revert last. induction hs as [|a hs IH]; intros last; cbn [app rising].
    - intros [H _]%andb_prop. split; [done|]. split; [lia|constructor].
    - intros [H1 H2]%andb_prop. apply IH in H2 as (H2 & H3 & H4). rewrite H1, H2. split; [done|]. split; [lia|]. by constructor.
  Qed.

  Lemma rising_prefix hs r : forall last, rising last (hs ++ r) = true -> rising last hs = true.
  Proof. induction hs as [|a hs IH]; intros last; [done|]. cbn. intros [-> H]%andb_prop. by apply (IH a). Qed.

  (** The block lists the events it produced, with their hashes. *)
  Definition honest (x : zblock * list bevent) : Prop := zb_events x.1 = map (fun y => (z_hash E (z_enc E y), Some y)) x.2.

  (** Every block of the run does. *)
  Fixpoint honest_run (e : zeng) (l : list (list zreq * zblock)) : Prop :=
    match l with
    | [] => True
    | (rs, b) :: r => match zcommit E n (fold_left (zserve E n) rs e) b with
                      | Some (e', evs) => honest (b, evs) /\ honest_run e' r
                      | None => True
                      end
    end.

  Lemma zrun_logged l : forall e log e' made', logged (ze_db e) log -> zrun E n e (concat log.*2) l = Some (e', made') ->
    rising 0 ((zb_height <$> log.*1) ++ (zb_height <$> l.*2)) = true ->
    exists log', made' = concat (log ++ log').*2 /\ log'.*1 = l.*2 /\ logged (ze_db e') (log ++ log') /\ (honest_run e l -> Forall honest log').
  Proof.
    induction l as [|[rs b] l IH]; intros e log e' made' L; cbn [zrun].
    { intros [= <- <-] _. exists []. rewrite !(right_id_L [] (++)). split; [done|]. split; [done|]. split; [done|constructor]. }
    destruct (zcommit E n (fold_left (zserve E n) rs e) b) as [[e1 evs]|] eqn:C; [|done]. intros R S.
    assert (M : concat log.*2 ++ evs = concat (log ++ [(b, evs)]).*2) by (rewrite fmap_app, concat_app; cbn; by rewrite (right_id_L [] (++))).
    rewrite M in R. change (zb_height <$> ((rs, b) :: l).*2) with ([zb_height b] ++ (zb_height <$> l.*2)) in S. rewrite (assoc_L app) in S.
    apply IH in R as (log' & R1 & R2 & R3 & R4).
    - exists ((b, evs) :: log'). rewrite cons_middle, (assoc_L app). split; [done|]. split; [cbn; by f_equal|]. split; [done|].
      cbn [honest_run]. rewrite C. intros [K1 K2]. constructor; [done|]. by apply R4.
    - unfold zcommit in C. destruct (zcommit_first E n (fold_left (zserve E n) rs e) b) as [[[d e2] evs2]|] eqn:C2; [|done]. injection C as <- <-. cbn [ze_db].
      destruct L as (L1 & L2 & L3). unfold logged. rewrite <- M. apply zcommit_first_spec in C2.
      assert (B : forall h b', <[zb_height b := b]> (zd_blocks (ze_db e)) !! h = Some b' <-> b' ∈ (log ++ [(b, evs2)]).*1 /\ zb_height b' = h).
      { intros h b'. rewrite fmap_app, elem_of_app. cbn. rewrite elem_of_list_singleton.
        assert (Hn : zb_height b ∉ zb_height <$> log.*1).
        { intros X. pose proof (rising_prefix _ _ _ S) as Z. apply rising_app in Z as (_ & _ & Z). rewrite Forall_forall in Z. apply Z in X. lia. }
        destruct (decide (h = zb_height b)) as [-> |D].
        - rewrite lookup_insert. split; [intros [= <-]; auto|]. intros [[X| ->] Y]; [|done]. exfalso. apply Hn. rewrite <- Y. by apply elem_of_list_fmap_1.
        - rewrite lookup_insert_ne, L3 by done. split; [tauto|]. intros [[X| ->] Y]; [done|congruence]. }
      destruct (writes n (zb_time b)) eqn:W.
      + destruct C2 as (w & _ & Ev & -> & _ & Hh & _). split; [|split].
        * rewrite zserves_db in *. cbn [put_block zwrite zd_bev]. subst evs2. apply tells_app, L1.
        * apply Forall_app. split; [done|]. constructor; [|done]. unfold entry_ok. cbn [fst snd]. rewrite W. split; [|done].
          rewrite Ev. eapply Forall_impl; [apply number_at|]. by intros x [].
        * cbn [put_block zwrite zd_blocks]. rewrite zserves_db. exact B.
      + destruct C2 as (-> & _ & ->). rewrite zserves_db. split; [by rewrite (right_id_L [] (++))|split; [|exact B]].
        apply Forall_app. split; [done|]. constructor; [|done]. unfold entry_ok. cbn [fst snd]. by rewrite W.
    - by rewrite !fmap_app.
  Qed.

  (** ** Taking in *)

  Lemma omap_some (l : list bevent) : omap snd (map (fun y => (z_hash E (z_enc E y), Some y)) l) = l.
  Proof. induction l as [|y l IH]; [done|]. cbn. by rewrite IH. Qed.

  Lemma submit_honest x : entry_ok x -> honest x -> submit E true x.1 = x.2.
  Proof.
    destruct x as [b evs]. unfold entry_ok, honest. cbn [fst snd]. intros [_ H] Hn. unfold submit.
    assert (V : valid_events E true b = true).
    { unfold valid_events. rewrite Hn. destruct evs as [|y evs]; [done|]. destruct (writes n (zb_time b)); [|done].
      set (r := map (fun y => (z_hash E (z_enc E y), Some y)) (y :: evs)).
      assert (V1 : forallb (fun x : bytes * option bevent => match x.2 with Some d => beq x.1 (z_hash E (z_enc E d)) | None => false end) r = true).
      { unfold r. clear. induction (y :: evs) as [|z l IH]; [done|]. cbn. by rewrite beq_refl. }
      assert (V2 : beq (zb_evhash b) (z_hash E (concat (map fst r))) = true).
      { apply beq_true. rewrite H. unfold events_hash, r. by rewrite map_map. }
      change (match r with [] => true | _ => forallb (fun x : bytes * option bevent => match x.2 with Some d => beq x.1 (z_hash E (z_enc E d)) | None => false end) r &&
        beq (zb_evhash b) (z_hash E (concat (map fst r))) && true end = true). rewrite V1, V2. by destruct r. }
    by rewrite V, Hn, omap_some.
  Qed.

  Lemma last_map {A B} (f : A -> B) (l : list A) : last (map f l) = f <$> last l.
  Proof. apply fmap_last. Qed.
  Lemma last_nums l : forall a (x : bevent), b_seq <$> l = nums a (length l) -> last l = Some x -> b_seq x + 1 = a + N.of_nat (length l).
  Proof.
    induction l as [|y l IH]; intros a x S L; [done|]. cbn [length nums fmap list_fmap] in *. injection S as S1 S2.
    destruct l as [|z l]; [injection L as <-; cbn; lia|]. apply (IH (a + 1)) in L; [|done]. cbn [length] in *. lia.
  Qed.
  Lemma slice_nums (m : list bevent) : forall a l r, b_seq <$> (m ++ l) ++ r = nums a (length ((m ++ l) ++ r)) ->
    b_seq <$> l = nums (a + N.of_nat (length m)) (length l).
  Proof.
    intros a l r. rewrite !fmap_app, !app_length, !nums_app. intros H.
    apply app_inj_1 in H as [H _]; [|by rewrite app_length, !fmap_length, app_length, !nums_len].
    by apply app_inj_1 in H as [_ H]; [|rewrite fmap_length, nums_len].
  Qed.

  (** The loop hands over, whole blocks at a time, a piece of the chain of events with all that was asked for. *)
  Lemma sync_steps certified d log stop : logged d log -> Forall honest log -> (forall b, b ∈ log.*1 -> certified b = true) ->
    stop <= N.of_nat (length (concat log.*2)) ->
    forall l2 l1 cur acc, log = l1 ++ l2 -> N.of_nat (length (concat l1.*2)) < cur ->
    exists fuel pre sent post, sync E certified d fuel cur stop acc = Some (Some (acc ++ sent)) /\
      concat l2.*2 = pre ++ sent ++ post /\ (forall x, x ∈ concat l2.*2 -> cur <= b_seq x <= stop -> x ∈ sent) /\
      (cur = N.of_nat (length (concat l1.*2)) + 1 -> pre = []).
  Proof.
    intros L H C Hs. induction l2 as [|[b evs] l2 IH]; intros l1 cur acc Hl Hc.
    { exists 0%nat, [], [], []. rewrite (right_id_L [] (++)) in Hl. subst l1. cbn. destruct (N.ltb_spec stop cur); [|lia].
      rewrite (right_id_L [] (++)). split; [done|]. split; [done|]. split; [|done]. intros x X. by apply elem_of_nil in X. }
    assert (M : concat log.*2 = (concat l1.*2 ++ evs) ++ concat l2.*2) by (rewrite Hl, fmap_app, concat_app; cbn; by rewrite (assoc_L app)).
    assert (Hl' : log = (l1 ++ [(b, evs)]) ++ l2) by (by rewrite <- (assoc_L app)).
    assert (M1 : concat (l1 ++ [(b, evs)]).*2 = concat l1.*2 ++ evs) by (rewrite fmap_app, concat_app; cbn; by rewrite (right_id_L [] (++))).
    destruct L as ([L1a L1b] & L2 & L3). pose proof L1a as Sq. rewrite M in Sq. apply slice_nums in Sq.
    cbn [fmap list_fmap concat]. destruct (decide (N.of_nat (length (concat l1.*2 ++ evs)) < cur)) as [D|D].
    { destruct (IH _ cur acc Hl') as (fuel & pre & sent & post & I1 & I2 & I3 & I4); [by rewrite M1|].
      exists fuel, (evs ++ pre), sent, post. split; [done|]. cbn. rewrite I2, <- (assoc_L app). split; [done|]. split.
      2:{ intros Hb. rewrite app_length in D. destruct evs; [|cbn in D; lia]. cbn. apply I4. by rewrite M1, (right_id_L [] (++)). }
      intros x [X|X]%elem_of_app K; [|apply I3; by rewrite ?I2]. exfalso.
      assert (b_seq x ∈ b_seq <$> evs) as Y by (by apply elem_of_list_fmap_1). rewrite Sq, elem_nums in Y. rewrite app_length in D. lia. }
    destruct (N.ltb_spec stop cur) as [Q|Q].
    { exists 0%nat, [], [], (evs ++ concat l2.*2). cbn [sync]. destruct (N.ltb_spec stop cur); [|lia]. rewrite (right_id_L [] (++)).
      split; [done|]. split; [done|]. split; [|done]. intros x _ K. lia. }
    assert (X : exists x, x ∈ evs /\ b_seq x = cur).
    { assert (cur ∈ b_seq <$> evs) as Y by (rewrite Sq, elem_nums; rewrite app_length in D; lia).
      apply elem_of_list_fmap in Y as (x & -> & Y). by exists x. }
    destruct X as (x & X1 & X2).
    assert (B : b ∈ log.*1) by (rewrite Hl, fmap_app, elem_of_app; right; apply elem_of_list_here).
    assert (In0 : (b, evs) ∈ log) by (rewrite Hl, elem_of_app; right; apply elem_of_list_here).
    rewrite Forall_forall in L2, H. pose proof (L2 _ In0) as L2b. pose proof (H _ In0) as Hb.
    assert (Bo : block_of_event d cur = Some b).
    { unfold block_of_event. assert (zd_bev d !! cur = Some x) as ->.
      { apply L1b. split; [|done]. rewrite M, !elem_of_app. auto. }
      cbn. apply L3. split; [done|]. destruct L2b as [L2b _]. rewrite Forall_forall in L2b. symmetry. by apply L2b. }
    destruct (last evs) as [y|] eqn:Ly; [|apply last_None in Ly; subst evs; by apply elem_of_nil in X1].
    pose proof (last_nums _ _ _ Sq Ly) as Ny.
    destruct (IH _ (b_seq y + 1) (acc ++ evs) Hl') as (fuel & pre & sent & post & I1 & I2 & I3 & I4); [rewrite M1, app_length; lia|].
    rewrite I4 in I2 by (rewrite M1, app_length; lia). cbn in I2.
    exists (S fuel), [], (evs ++ sent), post. cbn [sync]. destruct (N.ltb_spec stop cur); [lia|]. rewrite Bo, C by done.
    pose proof (submit_honest (b, evs) L2b Hb) as Sb. cbn [fst snd] in Sb. rewrite Sb. unfold honest in Hb. cbn [fst snd] in Hb.
    rewrite Hb, last_map, Ly. cbn [fmap option_fmap option_map]. rewrite I1. split; [by rewrite (assoc_L app)|].
    split; [cbn; by rewrite I2, (assoc_L app)|]. split; [|done]. cbn. intros z [Z|Z]%elem_of_app K; apply elem_of_app; [by left|].
    right. apply I3; [done|]. split; [|lia].
    assert (b_seq z ∈ b_seq <$> concat l2.*2) as Y by (by apply elem_of_list_fmap_1).
    assert (S2 : b_seq <$> concat l2.*2 = nums (1 + N.of_nat (length (concat l1.*2 ++ evs))) (length (concat l2.*2))).
    { apply (slice_nums _ _ _ []). by rewrite (right_id_L [] (++)), <- M. }
    rewrite S2, elem_nums in Y. rewrite app_length in Y. lia.
  Qed.

  Lemma sync_honest certified d log cur stop : logged d log -> Forall honest log -> (forall b, b ∈ log.*1 -> certified b = true) ->
    1 <= cur -> stop <= N.of_nat (length (concat log.*2)) ->
    exists fuel pre sent post, sync E certified d fuel cur stop [] = Some (Some sent) /\
      concat log.*2 = pre ++ sent ++ post /\ (forall x, x ∈ concat log.*2 -> cur <= b_seq x <= stop -> x ∈ sent).
  Proof.
    intros L H C Hc Hs. destruct (sync_steps certified d log stop L H C Hs log [] cur []) as (fuel & pre & sent & post & S1 & S2 & S3 & _); [done|cbn; lia|].
    by exists fuel, pre, sent, post.
  Qed.

  Lemma in_slice (s1 s2 s3 m : list bevent) : forall a, b_seq <$> m = nums a (length m) -> m = s1 ++ s2 ++ s3 ->
    forall x, x ∈ m -> x ∈ s2 <-> a + N.of_nat (length s1) <= b_seq x < a + N.of_nat (length s1 + length s2).
  Proof.
    intros a S ->. rewrite (assoc_L app) in *. pose proof (slice_nums _ _ _ _ S) as S2. intros x X.
    assert (S1 : b_seq <$> s1 = nums a (length s1)).
    { rewrite <- (assoc_L app) in S. apply (slice_nums [] a s1 (s2 ++ s3)) in S. cbn in S. rewrite S. f_equal. lia. }
    assert (S3 : b_seq <$> s3 = nums (a + N.of_nat (length s1 + length s2)) (length s3)).
    { rewrite <- app_length. apply (slice_nums (s1 ++ s2) a s3 []). by rewrite (right_id_L [] (++)). }
    split.
    - intros Y. assert (b_seq x ∈ b_seq <$> s2) as Z by (by apply elem_of_list_fmap_1). rewrite S2, elem_nums in Z. lia.
    - intros K. rewrite !elem_of_app in X. destruct X as [[X|X]|X]; [exfalso|done|exfalso].
      + assert (b_seq x ∈ b_seq <$> s1) as Z by (by apply elem_of_list_fmap_1). rewrite S1, elem_nums in Z. lia.
      + assert (b_seq x ∈ b_seq <$> s3) as Z by (by apply elem_of_list_fmap_1). rewrite S3, elem_nums in Z. lia.
  Qed.
End E.

(** ** Sublists of numbers *)

Lemma nums_sub (s a : N) (k n : nat) : a <= s -> s + N.of_nat k <= a + N.of_nat n -> sublist (nums s k) (nums a n).
Proof.
  intros H1 H2. replace n with (N.to_nat (s - a) + (k + (n - N.to_nat (s - a) - k)))%nat by lia.
  rewrite !nums_app. apply sublist_inserts_l, sublist_inserts_r. replace (a + N.of_nat (N.to_nat (s - a))) with s by lia. done.
Qed.

Section E.
  Context (E : zenv) (n : network).

  Lemma head_nums l : forall a (x : bevent), b_seq <$> l = nums a (length l) -> head l = Some x -> b_seq x = a.
  Proof. intros a x S H. destruct l as [|y l]; [done|]. injection H as <-. by injection S. Qed.

  (** Taking in a block of the chain: every event still missing up to this block is handed over, in order. *)
  Lemma receive_honest certified d log l1 b evs l2 stored : logged E n d log -> Forall (honest E) log -> (forall b, b ∈ log.*1 -> certified b = true) ->
    log = l1 ++ (b, evs) :: l2 -> evs <> [] ->
    exists fuel sent, receive E certified d fuel stored b = Some (Some sent) /\ Forall (fun x => x ∈ concat log.*2) sent /\
      sublist (nums (stored + 1) (N.to_nat (N.of_nat (length (concat l1.*2) + length evs) - stored))) (b_seq <$> sent).
  Proof.
    intros L H C Hl Ne.
    assert (M : concat log.*2 = (concat l1.*2 ++ evs) ++ concat l2.*2) by (rewrite Hl, fmap_app, concat_app; cbn; by rewrite (assoc_L app)).
    assert (B : b ∈ log.*1) by (rewrite Hl, fmap_app, elem_of_app; right; apply elem_of_list_here).
    assert (In0 : (b, evs) ∈ log) by (rewrite Hl, elem_of_app; right; apply elem_of_list_here).
    pose proof L as ([L1a L1b] & L2 & L3). pose proof L1a as Sq. rewrite M in Sq. apply slice_nums in Sq.
    pose proof H as H'. rewrite Forall_forall in L2, H. pose proof (L2 _ In0) as L2b. pose proof (H _ In0) as Hb.
    pose proof (submit_honest E n (b, evs) L2b Hb) as Sb. cbn [fst snd] in Sb.
    assert (Sub : Forall (fun x => x ∈ concat log.*2) evs) by (apply Forall_forall; intros x X; rewrite M, !elem_of_app; auto).
    unfold honest in Hb. cbn [fst snd] in Hb. unfold receive.
    destruct (last evs) as [y|] eqn:Ly; [|by apply last_None in Ly].
    pose proof (last_nums _ _ _ Sq Ly) as Ny. destruct evs as [|x r]; [done|]. set (evs := x :: r) in *.
    pose proof (head_nums evs _ x Sq eq_refl) as Hx.
    assert (Hd : zb_events b = (z_hash E (z_enc E x), Some x) :: tail (zb_events b)) by (by rewrite Hb).
    assert (Hy : last (zb_events b) = Some (z_hash E (z_enc E y), Some y)) by (by rewrite Hb, (last_map (fun y => (z_hash E (z_enc E y), Some y))), Ly).
    rewrite Hd, <- Hd, Hy, C, Sb by done. destruct (N.ltb_spec (b_seq y) stored) as [Q|Q].
    { exists 0%nat, []. split; [done|]. split; [done|]. replace (N.to_nat _) with 0%nat by lia. apply sublist_nil_l. }
    destruct (N.ltb_spec (stored + 1) (b_seq x)) as [P|P].
    - destruct (sync_honest E n certified d log (stored + 1) (b_seq x - 1) L H' C) as (fuel & pre & sent & post & S1 & S2 & S3); [lia|rewrite M, !app_length; lia|].
      exists fuel, (sent ++ evs). rewrite S1. split; [done|]. split.
      { apply Forall_app. split; [|done]. apply Forall_forall. intros z Z. rewrite S2, !elem_of_app. auto. }
      rewrite fmap_app. replace (N.to_nat _) with (N.to_nat (b_seq x - 1 - stored) + length evs)%nat by lia. rewrite nums_app.
      apply sublist_app.
      + pose proof L1a as L0. rewrite S2, (assoc_L app) in L1a. pose proof (slice_nums _ _ _ _ L1a) as Ss. rewrite Ss.
        assert (X1 : forall k, stored + 1 <= k <= b_seq x - 1 -> 1 + N.of_nat (length pre) <= k < 1 + N.of_nat (length pre + length sent)).
        { intros k K. assert (Z : k ∈ b_seq <$> concat log.*2).
          { rewrite L0, elem_nums, M, !app_length. lia. }
          apply elem_of_list_fmap in Z as (z & -> & Z). apply S3 in Z as Z'; [|done].
          assert (b_seq z ∈ b_seq <$> sent) as Z2 by (by apply elem_of_list_fmap_1). rewrite Ss, elem_nums in Z2. lia. }
        pose proof (X1 (stored + 1) ltac:(lia)). pose proof (X1 (b_seq x - 1) ltac:(lia)). apply nums_sub; lia.
      + rewrite Sq. replace (stored + 1 + N.of_nat _) with (1 + N.of_nat (length (concat l1.*2))) by lia. done.
    - exists 0%nat, evs. split; [done|]. split; [done|]. rewrite Sq. apply nums_sub; lia.
  Qed.
End E.

(** ** What a data shard applies comes from what it was given *)

Section E.
  Context (E : env) (P : N -> bytes -> Prop).

  Definition good_item (i : item) : Prop := match i with IBlock s _ m => P s m | IMsg _ => True end.
  Definition good_txns (l : list txn) : Prop := Forall (fun tx => Forall good_item (t_sys tx)) l.
  Definition good_req (r : req) : Prop :=
    match r with RRound _ => True | RPropose _ _ l => good_txns l | RValidate _ _ p => good_txns (p_txns p) end.
  Definition good_app (w : wip) : Prop := Forall (fun x => P x.1 x.2) (w_app w).

  Lemma acts_app l w : good_app w -> good_app (acts w l).
  Proof. unfold good_app. by destruct (acts_keeps l w) as (_ & -> & _). Qed.
  Lemma do_items_app d t fid l w : Forall good_item l -> good_app w -> good_app (do_items E d t fid w l).
  Proof.
    intros F. revert w. induction F as [|i l I F IH]; intros w G; [done|]. apply (IH (do_item E d t fid w i)).
    destruct i as [m|s h m]; cbn [do_item]; [by apply acts_app|]. destruct (s =? w_last w + 1); [|done]. apply acts_app.
    unfold good_app in *. cbn. apply Forall_app. split; [done|]. by constructor.
  Qed.
  Lemma user_items l : Forall good_item (map IMsg l).
  Proof. induction l; by constructor. Qed.
  Lemma run_txn_app o d t w tx : Forall good_item (t_sys tx) -> good_app w -> good_app (run_txn E o d t w tx).
  Proof.
    intros F G. unfold run_txn. cbv zeta. unfold do_tail. do 2 apply acts_app. apply do_items_app; [apply user_items|].
    apply acts_app. by apply do_items_app.
  Qed.
  Lemma prepare_app o d t l w : good_txns l -> good_app w -> good_app (prepare E o d t w l).1.
  Proof.
    intros F. revert w. induction F as [|tx l T F IH]; intros w G; [done|]. cbn [prepare].
    pose proof (IH (run_txn E o d t w tx) (run_txn_app _ _ _ _ _ T G)) as I. by destruct (prepare E o d t (run_txn E o d t w tx) l).
  Qed.
  Lemma replay_app o d t l w root : good_txns l -> good_app w -> good_app (replay E o d t w l root).1.
  Proof.
    intros F. unfold replay. revert w. induction F as [|tx l T F IH]; intros w G; [done|]. cbn [replay_txns].
    destruct (beq _ _); [apply IH|]; by apply run_txn_app.
  Qed.

  Definition good_pend (e : eng) : Prop := forall p, e_pend e = Some p -> good_app (pd_w p).

  Lemma serve_app e r : good_req r -> good_pend e -> good_pend (serve E e r).
  Proof.
    destruct r as [h|o t l|o h p]; cbn [serve good_req]; intros R G; [done| |].
    - unfold propose. pose proof (prepare_app o (e_db e) t l (wip0 (e_db e) (e_mem e) (e_gen e)) R) as X.
      destruct (prepare _ _ _ _ _ _) as [w l']. intros p [= <-]. apply X. constructor.
    - unfold validate. pose proof (replay_app o (e_db e) (p_time p) (p_txns p) (wip0 (e_db e) (e_mem e) (set_current_height h)) (p_root p) R) as X.
      destruct (replay _ _ _ _ _ _ _) as [w [|]]; [|done]. intros q [= <-]. apply X. constructor.
  Qed.
  Lemma serves_app rs : forall e, Forall good_req rs -> good_pend e -> good_pend (fold_left (serve E) rs e).
  Proof. induction rs as [|r rs IH]; intros e F G; [done|]. inversion_clear F. cbn. apply IH; [done|]. by apply serve_app. Qed.

  Lemma height_app e rs o c e' app : Forall good_req rs -> good_txns (c_txns c) -> good_pend e ->
    height_step E e rs o c = Some (e', app) -> good_pend e' /\ Forall (fun x => P x.1 x.2) app.
  Proof.
    intros F T G. unfold height_step, commit_chunk. destruct (commit_first E o (fold_left (serve E) rs e) c) as [w|] eqn:C; [|done].
    intros [= <- <-]. split; [done|]. apply (serves_app rs) in G; [|done]. unfold commit_first in C.
    assert (R : commit_replay E o (fold_left (serve E) rs e) c = Some w -> Forall (fun x => P x.1 x.2) (w_app w)).
    { unfold commit_replay. intros K. pose proof (replay_app o (e_db (fold_left (serve E) rs e)) (c_time c) (c_txns c)
        (wip0 (e_db (fold_left (serve E) rs e)) (e_mem (fold_left (serve E) rs e)) (set_current_height (c_height c))) (c_root c) T) as X.
      destruct (replay _ _ _ _ _ _ _) as [w0 [|]]; [|done]. apply confirm_spec in K as (_ & id & _ & ->). apply X. constructor. }
    destruct (e_pend _) as [p|] eqn:Q; [|by apply R]. destruct (cache_hit _ _ _); [|by apply R].
    apply confirm_spec in C as (_ & id & _ & ->). by apply (G p).
  Qed.

  Lemma chain_app l : forall e app e' app', Forall (fun x => Forall good_req x.1.1 /\ good_txns (c_txns x.2)) l -> good_pend e ->
    Forall (fun x => P x.1 x.2) app -> run_chain E e app l = Some (e', app') -> Forall (fun x => P x.1 x.2) app'.
  Proof.
    induction l as [|[[rs o] c] l IH]; intros e app e' app' F G A; cbn [run_chain]; [by intros [= _ <-]|].
    destruct (height_step E e rs o c) as [[e1 a1]|] eqn:H; [|done]. inversion_clear F as [|? ? [F1 F2] F3].
    apply height_app in H as [G1 A1]; [|done|done|done]. apply IH; [done|done|]. by apply Forall_app.
  Qed.
End E.

(** ** The trie mirrors the rows *)

Section E.
  Context (E : zenv) (n : network) (K : kv bytes -> gset bytes).

  Fixpoint zfaith (d : kv bytes) (rows : batch bytes) (l : list zact) : Prop :=
    match l with
    | [] => True
    | a :: r => K (commit d (za_rows a ∪ rows)) = (K (commit d rows) ∪ za_ins a) ∖ za_del a /\ zfaith d (za_rows a ∪ rows) r
    end.
  Definition zfaithful : Prop := forall t sys start merged v fid m, zfaith (v_db v) (v_rows v) (z_item E t sys start merged v fid m).

  (** The trie with the open events of the transaction. *)
  Definition ztrie (w : zwip) : gset bytes := zw_trie (zflush w).
  Definition zmirror (d : kv bytes) (w : zwip) : Prop := ztrie w = K (commit d (zw_rows w)).

  Lemma zdo_gle w a : gle (zw_gen w) (zw_gen (zdo w a)).
  Proof.
    unfold zdo. destruct (ok_gen (zw_gen w)) eqn:X.
    - destruct (gen_ok false _ X) as (id & g & -> & H1 & H2). by split.
    - destruct (gen_bad false _ X) as [er ->]. apply gle_refl.
  Qed.
  Lemma zdos_gle l : forall w, gle (zw_gen w) (zw_gen (zdos w l)).
  Proof. induction l as [|a l IH]; intros w; [apply gle_refl|]. cbn. eapply gle_trans; [apply zdo_gle|apply IH]. Qed.
  Lemma zmsgs_gle d t sys st fid l : forall w, gle (zw_gen w) (zw_gen (zmsgs E d t sys st fid w l)).
  Proof. induction l as [|a l IH]; intros w; [apply gle_refl|]. cbn. eapply gle_trans; [apply zdos_gle|apply IH]. Qed.
  Lemma zrun_txn_gle d t w tx : gle (zw_gen w) (zw_gen (zrun_txn E d t w tx)).
  Proof. unfold zrun_txn. cbn. eapply gle_trans; apply zmsgs_gle. Qed.
  Lemma zreplay_gle d t l : forall w, gle (zw_gen w) (zw_gen (zreplay_txns E d t w l).1).
  Proof.
    induction l as [|tx l IH]; intros w; [apply gle_refl|]. cbn [zreplay_txns].
    destruct (beq _ _); [eapply gle_trans; [apply zrun_txn_gle|apply IH]|apply zrun_txn_gle].
  Qed.

  Lemma zdos_mirror d l : forall w, zmirror d w -> zfaith d (zw_rows w) l -> ok_gen (zw_gen (zdos w l)) = true -> zmirror d (zdos w l).
  Proof.
    induction l as [|a l IH]; intros w M F H; [done|]. destruct F as [F1 F2]. cbn [zdos fold_left] in *. fold (zdos (zdo w a) l) in *.
    assert (Q : ok_gen (zw_gen w) = true) by (eapply gle_ok; [|exact H]; eapply gle_trans; [apply zdo_gle|apply zdos_gle]).
    destruct (gen_ok false _ Q) as (id & g & Hg & _). unfold zdo in *. rewrite Hg in *. apply IH; [|done|done].
    unfold zmirror, ztrie, zflush in *. cbn in *. rewrite fold_left_app. cbn. by rewrite M, F1.
  Qed.
  Lemma zmsgs_mirror d t sys st fid l : zfaithful -> forall w, zmirror (zd_rows d) w -> ok_gen (zw_gen (zmsgs E d t sys st fid w l)) = true ->
    zmirror (zd_rows d) (zmsgs E d t sys st fid w l).
  Proof.
    intros F. induction l as [|m l IH]; intros w M H; [done|]. apply (IH (zmsg E d t sys st fid w m)); [|done].
    apply zdos_mirror; [done|apply (F t sys st (map za_ev (zw_todo w)) (zview d w))|]. eapply gle_ok; [|exact H]. apply (zmsgs_gle d t sys st fid l).
  Qed.
  Lemma zrun_txn_mirror d t w tx : zfaithful -> zmirror (zd_rows d) w -> ok_gen (zw_gen (zrun_txn E d t w tx)) = true ->
    zmirror (zd_rows d) (zrun_txn E d t w tx).
  Proof.
    intros F M H. unfold zrun_txn in *. cbv zeta in *.
    assert (X : forall w', zmirror (zd_rows d) w' -> zmirror (zd_rows d) (zflush w')) by (by intros w' Y).
    apply X. cbn [zflush zw_gen] in H. apply zmsgs_mirror; [done| |done]. apply zmsgs_mirror; [done|done|]. eapply gle_ok; [apply zmsgs_gle|exact H].
  Qed.
  Lemma zreplay_mirror d t l : zfaithful -> forall w, zmirror (zd_rows d) w -> ok_gen (zw_gen (zreplay_txns E d t w l).1) = true ->
    zmirror (zd_rows d) (zreplay_txns E d t w l).1.
  Proof.
    intros F. induction l as [|tx l IH]; intros w M; [done|]. cbn [zreplay_txns].
    pose proof (zreplay_gle d t l (zrun_txn E d t w tx)) as Q.
    destruct (beq _ _); [|by apply zrun_txn_mirror]. intros H. apply IH; [|done]. apply zrun_txn_mirror; [done|done|]. by eapply gle_ok.
  Qed.

  Lemma zreplay_todo d t l : forall w, zw_todo w = [] -> zw_todo (zreplay_txns E d t w l).1 = [].
  Proof. induction l as [|tx l IH]; intros w H; [done|]. cbn [zreplay_txns]. destruct (beq _ _); [|done]. by apply IH. Qed.

  (** The generator after every commit of the run still has ids. *)
  Fixpoint roomy (e : zeng) (l : list (list zreq * zblock)) : bool :=
    match l with
    | [] => true
    | (rs, b) :: r => match zcommit E n (fold_left (zserve E n) rs e) b with
                      | Some (e', evs) => (negb (writes n (zb_time b)) || ok_gen (ze_gen e')) && roomy e' r
                      | None => true
                      end
    end.

  Lemma zrun_mirror l : zfaithful -> forall e made e' made', zgood e -> zd_trie (ze_db e) = K (zd_rows (ze_db e)) -> roomy e l = true ->
    zrun E n e made l = Some (e', made') -> zd_trie (ze_db e') = K (zd_rows (ze_db e')).
  Proof.
    intros F. induction l as [|[rs b] l IH]; intros e made e' made' G M V; cbn [zrun roomy] in *; [by intros [= <- _]|].
    destruct (zcommit E n (fold_left (zserve E n) rs e) b) as [[e1 evs]|] eqn:C; [|done]. apply andb_prop in V as [V1 V2].
    apply IH; [|clear IH|done]; [by eapply zcommit_good; [|exact C]; apply zserves_good|].
    assert (G' : zgood (fold_left (zserve E n) rs e)) by (by apply zserves_good).
    unfold zcommit in C. destruct (zcommit_first E n (fold_left (zserve E n) rs e) b) as [[[d e2] evs2]|] eqn:C2; [|done]. injection C as <- <-. cbn [ze_db ze_gen] in *.
    apply zcommit_first_spec in C2. destruct (writes n (zb_time b)); [|destruct C2 as (-> & _ & _); by rewrite zserves_db].
    destruct C2 as (w & R & _ & -> & -> & _). cbn in V1. cbn [put_block zwrite zd_trie zd_rows]. unfold zgood in G'. rewrite G', zserves_db in R. rewrite zserves_db.
    unfold zreplay in R. set (w0 := zwip0 (zd_trie (ze_db e)) (set_height n (zb_time b) (zb_height b) (ze_gen (fold_left (zserve E n) rs e)))) in R.
    pose proof (zreplay_mirror (ze_db e) (zb_time b) (zb_txns b) F w0) as X. pose proof (zreplay_todo (ze_db e) (zb_time b) (zb_txns b) w0 eq_refl) as T.
    destruct (zreplay_txns E (ze_db e) (zb_time b) w0 (zb_txns b)) as [w' ok]. injection R as -> _. cbn [fst] in *.
    assert (Y : zmirror (zd_rows (ze_db e)) w0) by (unfold zmirror, ztrie, w0; cbn; by rewrite commit_empty).
    specialize (X Y V1). unfold zmirror, ztrie, zflush in X. rewrite T in X. exact X.
  Qed.
End E.

(** Without ids nothing but rows changes. *)
Lemma zdos_bad l : forall w, ok_gen (zw_gen w) = false -> zw_trie (zdos w l) = zw_trie w /\ zw_todo (zdos w l) = zw_todo w /\
  zw_evs (zdos w l) = zw_evs w /\ zw_gen (zdos w l) = zw_gen w.
Proof.
  induction l as [|a l IH]; intros w B; [done|]. cbn [zdos fold_left]. unfold zdo at 2 4 6 8. destruct (gen_bad false _ B) as [er ->].
  by apply (IH (ZWip _ _ _ _ _)).
Qed.
Lemma zmsgs_bad E d t sys st fid l : forall w, ok_gen (zw_gen w) = false -> zw_trie (zmsgs E d t sys st fid w l) = zw_trie w /\
  zw_todo (zmsgs E d t sys st fid w l) = zw_todo w /\ zw_evs (zmsgs E d t sys st fid w l) = zw_evs w /\ zw_gen (zmsgs E d t sys st fid w l) = zw_gen w.
Proof.
  induction l as [|m l IH]; intros w B; [done|]. cbn [zmsgs fold_left].
  destruct (zdos_bad (z_item E t sys st (map za_ev (zw_todo w)) (zview d w) fid m) w B) as (X1 & X2 & X3 & X4).
  destruct (IH (zmsg E d t sys st fid w m)) as (Y1 & Y2 & Y3 & Y4); [unfold zmsg; by rewrite X4|].
  unfold zmsg in Y1, Y2, Y3, Y4. by rewrite X1, X2, X3, X4 in *.
Qed.
Lemma zreplay_bad E d t l : forall w, zw_todo w = [] -> ok_gen (zw_gen w) = false -> let w' := (zreplay_txns E d t w l).1 in
  zw_trie w' = zw_trie w /\ zw_evs w' = zw_evs w /\ zw_gen w' = zw_gen w.
Proof.
  induction l as [|tx l IH]; intros w T B; [done|]. cbn [zreplay_txns].
  assert (X : zw_trie (zrun_txn E d t w tx) = zw_trie w /\ zw_todo (zrun_txn E d t w tx) = [] /\ zw_evs (zrun_txn E d t w tx) = zw_evs w /\ zw_gen (zrun_txn E d t w tx) = zw_gen w).
  { unfold zrun_txn. cbv zeta. destruct (zmsgs_bad E d t true (zview d w) (zt_fid tx) (zt_sys tx) w B) as (X1 & X2 & X3 & X4).
    set (w1 := zmsgs E d t true (zview d w) (zt_fid tx) w (zt_sys tx)) in *.
    destruct (zmsgs_bad E d t false (zview d w1) (zt_fid tx) (zt_user tx) w1) as (Y1 & Y2 & Y3 & Y4); [by rewrite X4|].
    cbn [zflush zw_trie zw_todo zw_evs zw_gen]. by rewrite Y2, X2, T, Y1, X1, Y3, X3, Y4, X4. }
  destruct X as (X1 & X2 & X3 & X4). destruct (beq _ _); [|done].
  destruct (IH (zrun_txn E d t w tx)) as (Y1 & Y3 & Y4); [done|by rewrite X4|]. cbv zeta in *. by rewrite Y1, Y3, Y4.
Qed.

#[local] Transparent generate_id.
Lemma gen_seq g id g' : generate_id false g = (Ok id, g') -> ig_seq g + 1 <= ig_seq g'.
Proof.
  unfold generate_id. destruct (_ <=? _); [done|]. destruct (_ <=? _); [done|]. intros [= _ <-]. cbn [ig_seq]. destruct (N.eqb_spec (ig_seq g) 0); lia.
Qed.
#[local] Opaque generate_id.

(** [k] messages that only use up an id each. *)
Lemma zfill E d t sys st fid m ev k : (forall mg v, z_item E t sys st mg v fid m = [ZAct ∅ ∅ ∅ ev]) -> forall w : zwip,
  let w' := zmsgs E d t sys st fid w (repeat m k) in
  zw_rows w' = zw_rows w /\ zw_trie w' = zw_trie w /\ ztrie w' = ztrie w /\ ig_height (zw_gen w') = ig_height (zw_gen w) /\
  (ok_gen (zw_gen w') = false \/ ig_seq (zw_gen w) + N.of_nat k <= ig_seq (zw_gen w')).
Proof.
  intros Z. induction k as [|k IH]; intros w; [cbn; repeat split; right; lia|]. cbn [repeat zmsgs fold_left].
  fold (zmsgs E d t sys st fid (zmsg E d t sys st fid w m) (repeat m k)). cbv zeta in IH |- *.
  destruct (IH (zmsg E d t sys st fid w m)) as (H1 & H2 & H3 & H4 & H5). clear IH.
  pose proof (zmsgs_bad E d t sys st fid (repeat m k) (zmsg E d t sys st fid w m)) as Bad.
  set (w' := zmsgs E d t sys st fid (zmsg E d t sys st fid w m) (repeat m k)) in *. clearbody w'. rewrite H1, H2, H3, H4. clear H1 H2 H3.
  unfold zmsg in *. rewrite Z in *. cbn [zdos fold_left] in *. unfold zdo in *. cbn [za_rows za_ev] in *.
  destruct (ok_gen (zw_gen w)) eqn:Q.
  - destruct (gen_ok false _ Q) as (id & g & Hg & Hh & Hs). rewrite Hg in *. cbn [zw_rows zw_trie zw_gen zw_evs zw_todo] in *.
    rewrite (left_id_L ∅ (∪)). split; [done|]. split; [done|]. split; [|split; [done|]].
    + unfold ztrie, zflush. cbn. rewrite fold_left_app. cbn. set_solver.
    + destruct H5 as [H5|H5]; [by left|]. right. apply gen_seq in Hg. clear Q H4 Hh. lia.
  - destruct (gen_bad false _ Q) as [er Hg]. rewrite Hg in *. cbn [zw_rows zw_trie zw_gen zw_evs zw_todo] in *.
    rewrite (left_id_L ∅ (∪)). repeat (split; [done|]). left. by destruct (Bad Q) as (_ & _ & _ & ->).
Qed.
