(** C35-C39 for the block shard, and C38 from the block shard to the data shards. *)
From stdpp Require Import gmap.
From Coq Require Import ZifyN ZifyNat ZifyBool.
From Verif Require Import Base Codec Kv Version Engine EngineProofs EngineSeq PropEngine ShardZero ShardZeroProofs.
#[local] Open Scope N_scope.

(** At time [t] shard 0 either writes nothing (below version 9) or restarts the event ids at every height (from version 12). *)
Definition id_safe (n : network) (t : N) : bool := negb (writes n t) || is_enabled (ver n t) EventIdBugFix.

(** Before version 9 shard 0 has no events; from version 12 ids restart. *)
Section Props.
  Context (E : zenv) (n : network).

  (** ** C35 *)

  Theorem C35_zero_history_irrelevant l e made rs b : zrun E n (zopen zdb0) [] l = Some (e, made) -> id_safe n (zb_time b) = true ->
    let e' := fold_left (zserve E n) rs e in
    ze_db e' = ze_db e /\ (zvalidate E n e' b).1 = (zvalidate E n (zopen (ze_db e)) b).1.
  Proof.
    intros R F e'. assert (G : zgood e') by (apply zserves_good; eapply zrun_good; [|exact R]; done).
    split; [apply zserves_db|]. unfold zvalidate, id_safe in *. destruct (writes n (zb_time b)); [|done]. cbn in F.
    rewrite (set_height_fixed n _ _ (ze_gen e') (ze_gen (zopen (ze_db e)))) by done. unfold zgood in G. rewrite G. unfold e'. rewrite zserves_db. cbn.
    by destruct (zreplay _ _ _ _ _ _ _ _).
  Qed.

  (** What one node proposes at any moment every node with the same committed state accepts, and it keeps the messages. *)
  Theorem C35_zero_accepted lA eA madeA rsA lB eB madeB rsB h t txs b eA' :
    zrun E n (zopen zdb0) [] lA = Some (eA, madeA) -> zrun E n (zopen zdb0) [] lB = Some (eB, madeB) -> ze_db eA = ze_db eB ->
    id_safe n t = true -> zpropose E n (fold_left (zserve E n) rsA eA) h t txs = (b, eA') ->
    (zvalidate E n (fold_left (zserve E n) rsB eB) b).1 = true /\ zb_height b = h /\ zb_time b = t /\
    (writes n t = true -> map (fun tx => (zt_fid tx, zt_sys tx, zt_user tx)) (zb_txns b) = map (fun tx => (zt_fid tx, zt_sys tx, zt_user tx)) txs).
  Proof.
    intros RA RB D F P.
    assert (GA : zgood (fold_left (zserve E n) rsA eA)) by (apply zserves_good; eapply zrun_good; [|exact RA]; done).
    assert (GB : zgood (fold_left (zserve E n) rsB eB)) by (apply zserves_good; eapply zrun_good; [|exact RB]; done).
    unfold zpropose in P. unfold id_safe in F. unfold zvalidate. destruct (writes n t) eqn:W.
    2:{ injection P as <- <-. cbn [zb_time]. by rewrite W. }
    cbn in F. unfold zgood in *. rewrite GA, zserves_db in P.
    destruct (zprepare E (ze_db eA) t (zwip0 (zd_trie (ze_db eA)) (set_height n t h (ze_gen (fold_left (zserve E n) rsA eA)))) txs) as [w l'] eqn:Q.
    injection P as <- <-. cbn [zb_time zb_height zb_txns zb_root zb_evhash]. rewrite W. split; [|split; [done|split; [done|intros _]]].
    - apply zprepare_replay in Q. rewrite GB, zserves_db, <- D.
      rewrite (set_height_fixed n _ _ (ze_gen (fold_left (zserve E n) rsB eB)) (ze_gen (fold_left (zserve E n) rsA eA))) by done.
      unfold zreplay. rewrite Q. by rewrite !beq_refl.
    - clear -Q. revert Q. generalize (zwip0 (zd_trie (ze_db eA)) (set_height n t h (ze_gen (fold_left (zserve E n) rsA eA)))). revert w l'.
      induction txs as [|tx txs IH]; intros w l' w0; cbn [zprepare]; [by intros [= _ <-]|].
      destruct (zprepare E (ze_db eA) t (zrun_txn E (ze_db eA) t w0 tx) txs) as [w3 r'] eqn:P. intros [= <- <-].
      cbn [map zt_fid zt_sys zt_user]. by rewrite (IH _ _ _ P).
  Qed.

  (** ** C36 *)

  (** A block that was validated, by whatever node at whatever moment, is committed by every node with the same committed
      state, with the result of a freshly opened node. *)
  Theorem C36_zero_commit lA eA madeA rsA lB eB madeB rsB b :
    zrun E n (zopen zdb0) [] lA = Some (eA, madeA) -> zrun E n (zopen zdb0) [] lB = Some (eB, madeB) -> ze_db eA = ze_db eB ->
    id_safe n (zb_time b) = true -> (zvalidate E n (fold_left (zserve E n) rsA eA) b).1 = true ->
    exists e1 e2 evs, zcommit E n (fold_left (zserve E n) rsB eB) b = Some (e1, evs) /\ zcommit E n (zopen (ze_db eA)) b = Some (e2, evs) /\
      ze_db e1 = ze_db e2 /\ ze_mem e1 = ze_mem e2.
  Proof.
    intros RA RB D F V.
    assert (GA : zgood (fold_left (zserve E n) rsA eA)) by (apply zserves_good; eapply zrun_good; [|exact RA]; done).
    assert (GB : zgood (fold_left (zserve E n) rsB eB)) by (apply zserves_good; eapply zrun_good; [|exact RB]; done).
    unfold zgood in *. unfold zvalidate in V. unfold zcommit, zcommit_first, id_safe in *. destruct (writes n (zb_time b)).
    2:{ rewrite GB, zserves_db, <- D. do 3 eexists. repeat split. }
    cbn in F. rewrite GA, zserves_db in V. rewrite GB, zserves_db, <- D. cbn [ze_db ze_mem ze_gen zopen].
    rewrite (set_height_fixed n _ _ (ze_gen (fold_left (zserve E n) rsA eA)) (set_current_height 0)) in V by done.
    rewrite (set_height_fixed n _ _ (ze_gen (fold_left (zserve E n) rsB eB)) (set_current_height 0)) by done.
    destruct (zreplay _ _ _ _ _ _ _ _) as [w ok]. cbn in V. subst ok. do 3 eexists. repeat split.
  Qed.

  (** Whatever was committed has the state root, events hash and place its header says. *)
  Theorem C36_zero_root_is_header l e made rs b e' evs : zrun E n (zopen zdb0) [] l = Some (e, made) ->
    zcommit E n (fold_left (zserve E n) rs e) b = Some (e', evs) -> writes n (zb_time b) = true ->
    z_root E (zd_trie (ze_db e')) = zb_root b /\ zb_evhash b = events_hash E evs /\ ze_mem e' = zd_trie (ze_db e') /\
    zd_blocks (ze_db e') !! zb_height b = Some b.
  Proof.
    intros R C W. unfold zcommit in C. destruct (zcommit_first _ _ _ _) as [[[d e1] evs1]|] eqn:C1; [|done]. injection C as <- <-.
    apply zcommit_first_spec in C1. rewrite W in C1. destruct C1 as (w & _ & _ & -> & -> & Hh & Hr). cbn.
    by rewrite lookup_insert.
  Qed.

  (** ** C37 *)

  (** A crash before the batch is written loses nothing. *)
  Theorem C37_zero_before_write l e made rs b e2 : zrun E n (zopen zdb0) [] l = Some (e, made) -> id_safe n (zb_time b) = true ->
    zvalidate E n (fold_left (zserve E n) rs e) b = (true, e2) ->
    exists e3 e4 evs, zcommit E n e2 b = Some (e3, evs) /\ zcommit E n (zopen (ze_db e2)) b = Some (e4, evs) /\ ze_db e3 = ze_db e4.
  Proof.
    intros R F V. assert (e2 = fold_left (zserve E n) (rs ++ [ZValidate b]) e) as ->.
    { rewrite fold_left_app. cbn [fold_left zserve]. by rewrite V. }
    rewrite zserves_db. destruct (C36_zero_commit l e made rs l e made (rs ++ [ZValidate b]) b) as (e3 & e4 & evs & X1 & X2 & X3 & _); try done; [by rewrite V|].
    by exists e3, e4, evs.
  Qed.

  Context (H32 : forall a, length (z_hash E a) = 32%nat) (Inj : forall x y, z_enc E x = z_enc E y -> x = y).

  (** A crash between the batch and the block wedges shard 0 whenever the block has block events: their numbers are taken,
      so committing the block again gives other numbers and another events hash. Every engine over the written database,
      restarted or not, panics. *)
  Theorem C37_zero_wedge e b d e1 evs x : zcommit_first E n e b = Some (d, e1, evs) -> evs <> [] -> ze_db x = d ->
    zcommit E n x b = None \/ collides (z_hash E).
  Proof.
    intros C Ne Hx. destruct evs as [|v l]; [done|].
    apply zcommit_first_spec in C. destruct (writes n (zb_time b)) eqn:W; [|by destruct C as (_ & _ & C)].
    destruct C as (w & _ & Hv & -> & _ & Hh & _).
    assert (Sv : b_seq v = last_seq (zd_bev (ze_db e)) + 1).
    { apply (f_equal (fmap b_seq)) in Hv. unfold events_of, block_events in Hv. rewrite number_seq in Hv.
      destruct (_ ++ _) as [|z zs] in Hv; [done|]. by injection Hv. }
    assert (Lv : b_seq v <= last_seq (zd_bev (zwrite (ze_db e) w (v :: l)))).
    { apply last_seq_spec. cbn [zwrite zd_bev map list_to_map foldr]. rewrite lookup_union_is_Some. left. cbn. rewrite lookup_insert. eauto. }
    unfold zcommit. destruct (zcommit_first E n x b) as [[[d2 e2] evs2]|] eqn:C2; [|by left]. right.
    apply zcommit_first_spec in C2. rewrite W in C2. destruct C2 as (w2 & _ & Hv2 & _ & _ & Hh2 & _).
    rewrite Hh in Hh2. destruct (events_hash_inj E H32 Inj _ _ Hh2) as [Q|Q]; [exfalso|done].
    rewrite <- Q in Hv2. apply (f_equal (fmap b_seq)) in Hv2. unfold events_of, block_events in Hv2. rewrite number_seq in Hv2.
    destruct (_ ++ _) as [|z zs] in Hv2; [done|]. injection Hv2 as Hv2 _. rewrite Hx in Hv2. lia.
  Qed.

  (** A block without transactions and not at a heartbeat can be committed again. *)
  Theorem C37_zero_empty_partial l e made rs b d e1 evs : zrun E n (zopen zdb0) [] l = Some (e, made) -> zb_txns b = [] ->
    zcommit_first E n (fold_left (zserve E n) rs e) b = Some (d, e1, evs) -> evs = [] ->
    d = ze_db e /\ exists e2, zcommit E n (zopen d) b = Some (e2, []) /\ ze_db e2 = put_block d b.
  Proof.
    intros R T C ->. assert (G : zgood (fold_left (zserve E n) rs e)) by (apply zserves_good; eapply zrun_good; [|exact R]; done).
    unfold zgood in G. rewrite zserves_db in G.
    assert (D : d = ze_db e).
    { apply zcommit_first_spec in C. destruct (writes n (zb_time b)) eqn:W; [|destruct C as (-> & _ & _); apply zserves_db].
      destruct C as (w & X & _ & -> & _). unfold zreplay in X. rewrite T in X. cbn [zreplay_txns] in X. injection X as <- _.
      rewrite zserves_db, G. unfold zwrite. cbn. rewrite !(left_id_L ∅ (∪)), commit_empty. by destruct (ze_db e). }
    split; [done|]. subst d. unfold zcommit, zcommit_first in *. destruct (writes n (zb_time b)) eqn:W; [|eexists; split; reflexivity].
    rewrite zserves_db, G, T in C. rewrite T. unfold zreplay in *. cbn [zreplay_txns zopen ze_db ze_mem ze_gen] in *.
    unfold events_of in *. cbn [zwip0 zw_evs zw_trie fmap list_fmap] in *.
    destruct (true && _ && _) in C |- *; [|discriminate C].
    injection C as C1 _ C2. rewrite C2 in *. eexists. split; [reflexivity|]. cbn. f_equal. exact C1.
  Qed.

  (** ** C38, shard-0 side *)

  (** Over every chain the block events are numbered 1, 2, 3, ...; exactly these are stored, under their numbers. *)
  Theorem C38_zero_numbered l e made : zrun E n (zopen zdb0) [] l = Some (e, made) ->
    b_seq <$> made = nums 1 (length made) /\
    (forall (k : N) (x : bevent), zd_bev (ze_db e) !! k = Some x <-> x ∈ made /\ b_seq x = k) /\
    last_seq (zd_bev (ze_db e)) = N.of_nat (length made).
  Proof.
    intros R. assert (T : tells (zd_bev (ze_db e)) made).
    { eapply zrun_tells; [|exact R]. split; [done|]. intros k x. cbn. rewrite lookup_empty. split; [done|]. by intros [?%elem_of_nil _]. }
    split; [apply T|]. split; [apply T|]. by apply tells_last.
  Qed.

  (** The events of one block: made of the hub events of the block in their order, then the heartbeat. *)
  Theorem C38_zero_events l e made rs b e' evs : zrun E n (zopen zdb0) [] l = Some (e, made) ->
    zcommit E n (fold_left (zserve E n) rs e) b = Some (e', evs) ->
    Forall (fun x => b_block x = zb_height b /\ b_time x = zb_time b) evs /\
    b_index <$> evs = nums 0 (length evs) /\ b_seq <$> evs = nums (N.of_nat (length made) + 1) (length evs) /\
    exists hs : list (N * hev), zd_log (ze_db e') = list_to_map hs ∪ zd_log (ze_db e) /\
      b_body <$> evs = if writes n (zb_time b) then omap (fan (ver n (zb_time b))) hs.*2 ++ (if zb_height b mod (match n with Devnet => 5 | _ => 100 end) =? 0 then [BHeart] else []) else [].
  Proof.
    intros R C. destruct (C38_zero_numbered _ _ _ R) as (_ & _ & L).
    unfold zcommit in C. destruct (zcommit_first _ _ _ _) as [[[d e1] evs1]|] eqn:C1; [|done]. injection C as <- <-.
    apply zcommit_first_spec in C1. destruct (writes n (zb_time b)).
    - destruct C1 as (w & _ & -> & -> & _). cbn. rewrite zserves_db. unfold events_of, block_events. rewrite L.
      split; [apply number_at|]. rewrite number_index, number_seq, number_len, number_body. split; [done|]. split; [done|]. by exists (zw_evs w).
    - destruct C1 as (-> & _ & ->). rewrite zserves_db. split; [constructor|]. split; [done|]. split; [done|]. exists []. cbn. by rewrite (left_id_L ∅ (∪)).
  Qed.

  (** Which hub events go out. *)
  Theorem C38_zero_fanned v h b : fan v h = Some b <->
    (exists ty m, h = HMsg ty m /\ b = BMsg m /\ (ty ∈ [T_LEND; T_VERIF_ADD; T_VERIF_REMOVE] \/ (ty ∈ [T_KEY_ADD; T_KEY_REMOVE] /\ 16 <= v) \/
       (ty ∈ [T_CH_UPDATE; T_CH_MEMBER; T_CH_PIN; T_CH_MODERATE] /\ 21 <= v))) \/
    (exists m, h = HChain T_CHANNEL_REGISTER m /\ b = BChain m /\ 21 <= v).
  Proof.
    unfold T_LEND, T_VERIF_ADD, T_VERIF_REMOVE, T_KEY_ADD, T_KEY_REMOVE, T_CH_UPDATE, T_CH_MEMBER, T_CH_PIN, T_CH_MODERATE, T_CHANNEL_REGISTER.
    destruct h as [ty m|ty m|m]; cbn [fan]; unfold T_LEND, T_VERIF_ADD, T_VERIF_REMOVE, T_KEY_ADD, T_KEY_REMOVE, T_CH_UPDATE, T_CH_MEMBER, T_CH_PIN, T_CH_MODERATE, T_CHANNEL_REGISTER; cbn [is_enabled].
    - split.
      + intros H. left. exists ty, m. split; [done|]. rewrite !elem_of_cons, !elem_of_nil.
        repeat case_match; simplify_eq; (split; [done|]); lia.
      + intros [(ty' & m' & [= <- <-] & -> & H)|(m' & [=] & _)]. rewrite !elem_of_cons, !elem_of_nil in H. repeat case_match; try done; exfalso; lia.
    - split.
      + intros H. right. exists m. case_match; simplify_eq. split; [|split; [done|lia]]. f_equal. lia.
      + intros [(ty' & m' & [=] & _)|(m' & [= -> ->] & -> & H)]. case_match; [done|lia].
    - split; [done|]. intros [(ty' & m' & [=] & _)|(m' & [=] & _)].
  Qed.

  (** ** C38: the events listed in the block *)

  (** The list of events a block carries beside its header is never checked. *)
  Theorem C38_zero_list_unchecked e b evs :
    let b' := ZBlock (zb_height b) (zb_time b) (zb_txns b) (zb_root b) (zb_evhash b) evs in
    (zvalidate E n e b').1 = (zvalidate E n e b).1 /\
    (is_Some (zcommit E n e b') <-> is_Some (zcommit E n e b)) /\
    forall e1 evs1 e2 evs2, zcommit E n e b = Some (e1, evs1) -> zcommit E n e b' = Some (e2, evs2) -> evs1 = evs2 /\ zd_bev (ze_db e1) = zd_bev (ze_db e2).
  Proof.
    intros b'. split; [done|]. unfold zcommit. unfold zcommit_first. cbn [zb_time zb_height zb_txns zb_root zb_evhash b'].
    destruct (writes n (zb_time b)).
    - destruct (zreplay _ _ _ _ _ _ _ _) as [w [|]]; (split; [by split; intros []|]); [by intros ???? [= <- <-] [= <- <-]|done].
    - split; [by split; intros []|]. by intros ???? [= <- <-] [= <- <-].
  Qed.

  (** What a receiver submits of a committed block: the block's events or nothing. *)
  Theorem C38_submit_genuine e b e' evs c : zcommit E n e b = Some (e', evs) -> writes n (zb_time b) = true ->
    submit E c b = evs \/ submit E c b = [] \/ collides (z_hash E).
  Proof.
    intros C W. unfold zcommit in C. destruct (zcommit_first E n e b) as [[[d e1] evs1]|] eqn:C1; [|done]. injection C as <- <-.
    apply zcommit_first_spec in C1. rewrite W in C1. destruct C1 as (_ & _ & _ & _ & _ & Hh & _).
    unfold submit. destruct (valid_events E c b) eqn:V; [|auto]. unfold valid_events in V.
    destruct (zb_events b) as [|x r] eqn:Z; [auto|]. apply andb_prop in V as [[V1 V2]%andb_prop _].
    assert (X : forall l : list (bytes * option bevent), forallb (fun x => match snd x with Some d => beq (fst x) (z_hash E (z_enc E d)) | None => false end) l = true ->
      map fst l = map (fun y => z_hash E (z_enc E y)) (omap snd l) /\ length (omap snd l) = length l).
    { induction l as [|[a [y|]] l IH]; cbn; [done| |done]. intros [H1 H2]%andb_prop. apply beq_true in H1 as ->. apply IH in H2 as [-> ->]. done. }
    destruct (X _ V1) as [X1 X2]. apply beq_true in V2. rewrite X1 in V2.
    assert (K : events_hash E (omap snd (x :: r)) = events_hash E evs1).
    { rewrite <- Hh, V2. destruct (omap snd (x :: r)); [done|]. done. }
    apply (events_hash_inj E H32 Inj) in K as [K|K]; auto.
  Qed.
End Props.

Section Props.
  Context (E : zenv) (n : network).

  (** A block committed with events but an empty list: the receiver submits nothing and loops on it for ever. *)
  Theorem C38_sync_endless certified d cur stop b fuel : block_of_event d cur = Some b -> zb_events b = [] -> cur <= stop ->
    submit E (certified b) b = [] /\ forall sent, sync E certified d fuel cur stop sent = None.
  Proof.
    intros B Z H. assert (S : submit E (certified b) b = []) by (unfold submit, valid_events; by rewrite Z). split; [done|].
    induction fuel as [|fuel IH]; intros sent; cbn [sync]; destruct (N.ltb_spec stop cur); try lia; [done|]. rewrite B, S, Z. cbn. apply IH.
  Qed.

  (** A block or event no longer stored kills the receiver, and so does a block whose last listed event has no data. *)
  Theorem C38_sync_panics certified d cur stop fuel :
    block_of_event d cur = None \/ (exists b h, block_of_event d cur = Some b /\ last (zb_events b) = Some (h, None)) -> cur <= stop ->
    sync E certified d (S fuel) cur stop [] = Some None.
  Proof.
    intros B H. cbn [sync]. destruct (N.ltb_spec stop cur); [lia|]. destruct B as [B|(b & h & B & L)]; rewrite B; [done|]. by rewrite L.
  Qed.

  (** The receiver's check does not tie the certificate to the block: with any valid certificate, any events pass. *)
  Theorem C38_receiver_forgeable evs h t : exists b, zb_height b = h /\ zb_time b = t /\ submit E true b = evs.
  Proof.
    set (r := map (fun y => (z_hash E (z_enc E y), Some y)) evs).
    exists (ZBlock h t [] [] (z_hash E (concat (map fst r))) r). split; [done|]. split; [done|]. unfold submit, valid_events. cbn [zb_events zb_evhash].
    assert (V : forallb (fun x : bytes * option bevent => match x.2 with Some d => beq x.1 (z_hash E (z_enc E d)) | None => false end) r = true).
    { unfold r. clear. induction evs as [|z l IH]; [done|]. cbn. by rewrite beq_refl. }
    assert (O : omap snd r = evs) by apply omap_some. destruct r as [|y r']; [done|]. by rewrite V, beq_refl.
  Qed.

  (** With honest lists, certificates for every block and nothing pruned, a receiver that sees a block with events hands
      over every event still missing up to there, in order, and nothing that is not an event of the chain. *)
  Theorem C38_receive_complete_partial l e made certified stored b : zrun E n (zopen zdb0) [] l = Some (e, made) ->
    rising 0 (zb_height <$> l.*2) = true -> honest_run E n (zopen zdb0) l -> (forall b, b ∈ l.*2 -> certified b = true) ->
    b ∈ l.*2 -> zb_events b <> [] ->
    exists fuel sent x, receive E certified (ze_db e) fuel stored b = Some (Some sent) /\
      last (omap snd (zb_events b)) = Some x /\ Forall (fun x => x ∈ made) sent /\
      sublist (nums (stored + 1) (N.to_nat (b_seq x - stored))) (b_seq <$> sent).
  Proof.
    intros R Hr Hh C B Ne.
    destruct (zrun_logged E n l (zopen zdb0) [] e made) as (log & M & L1 & L & H); [|done|done|].
    { split; [|split; [constructor|]].
      - split; [done|]. intros k x. cbn. rewrite lookup_empty. split; [done|]. by intros [?%elem_of_nil _].
      - intros h b'. cbn. rewrite lookup_empty. split; [done|]. by intros [?%elem_of_nil _]. }
    cbn [app] in *. specialize (H Hh). rewrite <- L1 in B, C.
    pose proof B as B'. apply elem_of_list_fmap in B' as ([b' evs] & Hb & B'). cbn in Hb. subst b'.
    apply elem_of_list_split in B' as (l1 & l2 & Hl).
    assert (Hb : honest E (b, evs)) by (rewrite Forall_forall in H; apply H; rewrite Hl, elem_of_app; right; apply elem_of_list_here).
    unfold honest in Hb. cbn in Hb. assert (Ne' : evs <> []) by (intros ->; by rewrite Hb in Ne).
    destruct (receive_honest E n certified (ze_db e) log l1 b evs l2 stored L H C Hl Ne') as (fuel & sent & S1 & S2 & S3).
    destruct (last evs) as [x|] eqn:Lx; [|by apply last_None in Lx].
    exists fuel, sent, x. split; [done|]. rewrite Hb, omap_some. split; [done|]. split; [by rewrite M|].
    assert (Mm : concat log.*2 = (concat l1.*2 ++ evs) ++ concat l2.*2) by (rewrite Hl, fmap_app, concat_app; cbn; by rewrite (assoc_L app)).
    destruct L as ([Sq _] & _). rewrite Mm in Sq. apply slice_nums in Sq. pose proof (last_nums _ _ _ Sq Lx) as Nx.
    replace (b_seq x) with (N.of_nat (length (concat l1.*2) + length evs)) by lia. done.
  Qed.
End Props.

(** ** C38 end to end *)

(** A data shard all of whose proposals and chunks carry only events of the chain, under their numbers and with their content,
    applies a beginning of the chain's events: the same ones, each once, in order. *)
Theorem C38_end_to_end_partial (Z : zenv) (n : network) (E : env) (f : bbody -> bytes) zl ze made l e app :
  zrun Z n (zopen zdb0) [] zl = Some (ze, made) ->
  Forall (fun x => Forall (good_req (fun s m => exists y, y ∈ made /\ b_seq y = s /\ f (b_body y) = m)) x.1.1 /\
                   good_txns (fun s m => exists y, y ∈ made /\ b_seq y = s /\ f (b_body y) = m) (c_txns x.2)) l ->
  run_chain E (open_eng db0) [] l = Some (e, app) ->
  app = map (fun y => (b_seq y, f (b_body y))) (take (length app) made).
Proof.
  intros RZ F R. destruct (C38_zero_numbered _ _ _ _ _ RZ) as (S & _).
  assert (A : Forall (fun x : N * bytes => exists y, y ∈ made /\ b_seq y = x.1 /\ f (b_body y) = x.2) app).
  { eapply (chain_app E (fun s m => exists y, y ∈ made /\ b_seq y = s /\ f (b_body y) = m)); [exact F| | |exact R]; [by intros p|constructor]. }
  assert (N : app.*1 = nums 1 (length app)).
  { destruct (chain_seq E l (open_eng db0) [] e app) as [_ N]; try done. intros k. cbn. rewrite lookup_empty. split; [by intros []|lia]. }
  clear -S A N. revert S N. generalize 1. revert made A.
  assert (G : forall app a made, Forall (fun x : N * bytes => exists y, y ∈ made /\ b_seq y = x.1 /\ f (b_body y) = x.2) app ->
    b_seq <$> made = nums a (length made) -> app.*1 = nums a (length app) -> app = map (fun y => (b_seq y, f (b_body y))) (take (length app) made)).
  { clear. induction app as [|[s m] app IH]; intros a made A S N; [done|]. cbn in N. injection N as -> N.
    inversion_clear A as [|? ? (y & Y & Ya & Ym) A']. cbn in Ya, Ym.
    destruct made as [|z made]; [by apply elem_of_nil in Y|]. cbn in S. injection S as Sz S.
    assert (Hn : forall v, v ∈ made -> a < b_seq v).
    { intros v V. assert (b_seq v ∈ b_seq <$> made) as W by (by apply elem_of_list_fmap_1). rewrite S, elem_nums in W. lia. }
    apply elem_of_cons in Y as [-> |Y]; [|apply Hn in Y; lia]. cbn. rewrite Sz, Ym. f_equal. apply (IH (a + 1)); [|done|done].
    clear IH. rewrite Forall_forall in *. intros u X. destruct (A' _ X) as (v & V & Va & Vm).
    assert (b_seq v ∈ nums (a + 1) (length app)) as W by (rewrite Va, <- N; by apply elem_of_list_fmap_1). rewrite elem_nums in W.
    exists v. apply elem_of_cons in V as [-> |V]; [lia|]. done. }
  intros made A a S N. by eapply G.
Qed.

(** ** C39 for shard 0 *)

(** If each operation changes the trie as it changes the rows, and no block runs out of event ids, trie and rows stay in step. *)
Theorem C39_zero_mirror_partial (E : zenv) (n : network) (K : kv bytes -> gset bytes) (l : list (list zreq * zblock)) (e : zeng) (made : list bevent) : zfaithful E K -> K ∅ = ∅ -> roomy E n (zopen zdb0) l = true ->
  zrun E n (zopen zdb0) [] l = Some (e, made) -> zd_trie (ze_db e) = K (zd_rows (ze_db e)).
Proof. intros F Z V R. eapply (zrun_mirror E n K); [exact F| | |exact V|exact R]; done. Qed.

(** ** C35 and C36 without the id fix: versions 9 to 11 *)

(** Once the ids have run out, shard 0 accepts no block that changes anything, commits none, and stays so through all further
    requests and commits, until it is restarted. *)
Theorem C35_zero_exhausted (E : zenv) (n : network) (e : zeng) (b : zblock) : zgood e -> ok_gen (ze_gen e) = false -> writes n (zb_time b) = true -> is_enabled (ver n (zb_time b)) EventIdBugFix = false ->
  z_root E (zd_trie (ze_db e)) <> zb_root b -> (zvalidate E n e b).1 = false /\ zcommit E n e b = None /\ ok_gen (ze_gen (zvalidate E n e b).2) = false.
Proof.
  intros G B W F Hr. unfold zcommit, zcommit_first, zvalidate, set_height, zreplay. rewrite W, F, G.
  destruct (zreplay_bad E (ze_db e) (zb_time b) (zb_txns b) (zwip0 (zd_trie (ze_db e)) (ze_gen e)) eq_refl B) as (X1 & X2 & X3).
  destruct (zreplay_txns E (ze_db e) (zb_time b) (zwip0 (zd_trie (ze_db e)) (ze_gen e)) (zb_txns b)) as [w ok]. cbn [fst snd zwip0 zw_trie zw_gen] in *.
  rewrite X1. destruct (beq (z_root E (zd_trie (ze_db e))) (zb_root b)) eqn:Q; [by apply beq_true in Q|]. rewrite andb_false_r. cbn. by rewrite X3.
Qed.

(** ** A small concrete shard 0

    Messages: [[1;k]] adds key [k] of the account, [[2;k;x]] is a storage lend signed with [k], which fails with an event
    without its key; anything else is ignored, except [[9]], which always fails with an event. The hash is injective: 32
    bytes starting with the number of the input. *)
Definition zputs (k m : bytes) (ty : N) : zact := ZAct {[k := Some []]} {[k]} ∅ (HMsg ty m).
Definition zhas (v : view) (k : bytes) : bool := match tget (v_db v) (v_rows v) k with Some _ => true | None => false end.
Definition toyz_item (t : N) (sys : bool) (st : view) (mg : list hev) (v : view) (fid : N) (m : bytes) : list zact :=
  match m with
  | [1; k] => if zhas v [1; fid; k] then [] else [zputs [1; fid; k] m T_KEY_ADD]
  | [2; k; x] => if zhas v [1; fid; k] then if zhas v [2; fid; k; x] then [] else [zputs [2; fid; k; x] m T_LEND] else [ZAct ∅ ∅ ∅ (HOther m)]
  | [9] => [ZAct ∅ ∅ ∅ (HOther m)]
  | _ => []
  end.
Definition toyz_enc (x : bevent) : bytes :=
  b_seq x :: b_block x :: b_index x :: b_time x :: match b_body x with BMsg m => 0 :: m | BChain m => 1 :: m | BHeart => [2] end.
Definition toyz_hash (a : bytes) : bytes := Npos (encode a) :: repeat 0 31.
Definition zkeys (T : gset bytes) : bytes := flat_map (fun k => N.of_nat (length k) :: k) (elements T).
Definition toyz : zenv := ZEnv toyz_item zkeys (fun T fid => zkeys (filter (fun k => Is_true (nth 1 k 0 =? fid)) T)) toyz_enc toyz_hash.

Lemma toyz_h32 a : length (z_hash toyz a) = 32%nat.
Proof. done. Qed.
Lemma toyz_inj x y : z_enc toyz x = z_enc toyz y -> x = y.
Proof.
  destruct x as [a b c d [m|m|]], y as [a' b' c' d' [m'|m'|]]; cbn; unfold toyz_enc; cbn; congruence.
Qed.
Lemma toyz_nocol : ~ collides (z_hash toyz).
Proof.
  intros (a & b & D & H). apply D. cbn in H. unfold toyz_hash in H. apply (f_equal (fun l => nth 0 l 0)) in H. cbn [nth] in H.
  injection H as H. by apply (inj encode) in H.
Qed.

(** The honest block at height [h], time [t]. *)
Definition zmade (n : network) (e : zeng) (h t : N) (txs : list ztxn) : zblock := (zpropose toyz n e h t txs).1.
Definition zbare (fid : N) (s u : list bytes) : ztxn := ZTxn fid s u [].
Definition znext (n : network) (e : zeng) (b : zblock) : zeng := match zcommit toyz n e b with Some (e', _) => e' | None => e end.

Definition zb4 : zblock := zmade Devnet (zopen zdb0) 4 0 [zbare 1 [[1; 7]] [[2; 7; 1]; [2; 8; 1]]; zbare 2 [] [[9]]].
Definition ze4 : zeng := znext Devnet (zopen zdb0) zb4.
Definition zb5 : zblock := zmade Devnet ze4 5 1 [zbare 2 [[1; 7]; [1; 8]] [[2; 8; 1]]; zbare 1 [] [[2; 7; 1]; [2; 7; 2]]].
Definition ze5 : zeng := znext Devnet ze4 zb5.
Definition zb6 : zblock := zmade Devnet ze5 6 2 [].
Definition zb7 : zblock := zmade Devnet ze5 7 2 [zbare 3 [[1; 9]] []].
Definition zchain : list (list zreq * zblock) := [([ZPropose 4 9 [zbare 5 [[1; 1]] []]], zb4); ([ZValidate zb4; ZValidate zb5], zb5)].

Lemma zsome {A B} (o : option (A * B)) (P : A -> B -> bool) : match o with Some (x, y) => P x y | None => false end = true ->
  exists x y, o = Some (x, y) /\ P x y = true.
Proof. destruct o as [[x y]|]; [|done]. intros H. by exists x, y. Qed.

Example zchain_ex : exists e made, zrun toyz Devnet (zopen zdb0) [] zchain = Some (e, made) /\
  bool_decide (map (fun x => (b_seq x, b_block x, b_index x, b_body x)) made =
    [(1, 4, 0, BMsg [1; 7]); (2, 4, 1, BMsg [2; 7; 1]); (3, 5, 0, BMsg [1; 7]); (4, 5, 1, BMsg [1; 8]); (5, 5, 2, BMsg [2; 8; 1]);
     (6, 5, 3, BMsg [2; 7; 2]); (7, 5, 4, BHeart)]) && bool_decide (id_safe Devnet 1 = true) && rising 0 (zb_height <$> zchain.*2) = true.
Proof. apply (zsome _ (fun e made => bool_decide (_ made = _) && _ && _)). vm_compute. reflexivity. Qed.

(** C35, C36: a validator with another history accepts and commits what was proposed after other requests. *)
Definition zhist : list zreq := [ZPropose 6 3 [zbare 2 [] [[2; 8; 2]; [9]]]; ZValidate zb4; ZPropose 6 2 []].
Example C35_zero_ex : (zvalidate toyz Devnet (fold_left (zserve toyz Devnet) zhist ze5) zb7).1 = true /\
  bool_decide (zt_user <$> zb_txns zb5 = [[[2; 8; 1]]; [[2; 7; 1]; [2; 7; 2]]]) = true /\ bool_decide (zb_root zb7 = zb_root zb5) = false.
Proof. vm_compute. auto. Qed.

(** C37: the block [zb7] after the batch is written; the empty block [zb6]. *)
Definition zok (n : network) (e : zeng) (b : zblock) : bool := match zcommit toyz n e b with Some _ => true | None => false end.
Lemma znext_ok n e b : zok n e b = true -> exists evs, zcommit toyz n e b = Some (znext n e b, evs).
Proof. unfold zok, znext. destruct (zcommit toyz n e b) as [[e' evs]|]; [|done]. by exists evs. Qed.
Lemma zchain2 n e b c : zok n e b = true -> zok n (znext n e b) c = true ->
  exists made, zrun toyz n e [] [([], b); ([], c)] = Some (znext n (znext n e b) c, made).
Proof. intros [x X]%znext_ok [y Y]%znext_ok. cbn [zrun fold_left]. rewrite X, Y. by eexists. Qed.
Lemma ze5_chain : exists made, zrun toyz Devnet (zopen zdb0) [] [([], zb4); ([], zb5)] = Some (ze5, made).
Proof. apply (zchain2 Devnet (zopen zdb0) zb4 zb5); vm_compute; reflexivity. Qed.

Definition zfirst (n : network) (e : zeng) (b : zblock) : bool := match zcommit_first toyz n e b with Some (_, _, _ :: _) => true | _ => false end.
Lemma zfirst_ok n e b : zfirst n e b = true -> exists d e1 v l, zcommit_first toyz n e b = Some (d, e1, v :: l).
Proof. unfold zfirst. destruct (zcommit_first toyz n e b) as [[[d e1] [|v l]]|]; try done. intros _. by exists d, e1, v, l. Qed.

(** False of C37 as stated for shard 0: after a crash between the two writes the node never commits the block again. *)
Theorem C37_zero_wedge_refuted : exists l e made b d e1 evs, zrun toyz Devnet (zopen zdb0) [] l = Some (e, made) /\
  (zvalidate toyz Devnet e b).1 = true /\ zcommit_first toyz Devnet e b = Some (d, e1, evs) /\
  forall x, ze_db x = d -> zcommit toyz Devnet x b = None.
Proof.
  destruct ze5_chain as [made R].
  destruct (zfirst_ok Devnet ze5 zb7) as (d & e1 & v & l & C); [vm_compute; reflexivity|].
  exists [([], zb4); ([], zb5)], ze5, made, zb7, d, e1, (v :: l). split; [exact R|]. split; [vm_compute; reflexivity|]. split; [exact C|].
  intros x X. destruct (C37_zero_wedge toyz Devnet toyz_h32 toyz_inj ze5 zb7 d e1 (v :: l) x C ltac:(discriminate) X) as [Y|Y]; [exact Y|].
  exfalso. exact (toyz_nocol Y).
Qed.

Example C37_zero_empty_ex : match zcommit_first toyz Devnet ze5 zb6 with Some (_, _, []) => true | _ => false end = true /\ zb_txns zb6 = [].
Proof. vm_compute. auto. Qed.

(** False of C38 as stated: a proposer that leaves out the list of events has its block accepted and committed; the events get
    their numbers, no data shard is given them from this block, and a receiver that asks for them later never comes back. *)
Definition bare_list (b : zblock) : zblock := ZBlock (zb_height b) (zb_time b) (zb_txns b) (zb_root b) (zb_evhash b) [].

Lemma listless e b e' made : zd_blocks (ze_db e) = ∅ -> zb_events b = [] -> zrun toyz Devnet e [] [([], b)] = Some (e', made) ->
  is_Some (zd_bev (ze_db e') !! 1) -> is_Some (block_of_event (ze_db e') 1) -> block_of_event (ze_db e') 1 = Some b.
Proof.
  intros Z Hb R [v V] [b1 B]. unfold block_of_event in *. rewrite V in *. cbn [mbind option_bind] in *. rewrite B. f_equal.
  cbn [zrun fold_left] in R. destruct (zcommit toyz Devnet e b) as [[e1 evs]|] eqn:C; [|done]. injection R as <- _.
  unfold zcommit in C. destruct (zcommit_first toyz Devnet e b) as [[[d e2] evs2]|] eqn:C1; [|done]. injection C as <- _. cbn [ze_db put_block zd_blocks] in B.
  assert (Zd : zd_blocks d = ∅).
  { apply zcommit_first_spec in C1. destruct (writes Devnet (zb_time b)); [destruct C1 as (w & _ & _ & -> & _)|destruct C1 as (-> & _)]; done. }
  rewrite Zd in B. apply lookup_insert_Some in B as [[_ B]|[_ B]]; [by symmetry|]. by rewrite lookup_empty in B.
Qed.

Theorem C38_zero_list_refuted : exists b e' made, zrun toyz Devnet (zopen zdb0) [] [([], b)] = Some (e', made) /\
  (zvalidate toyz Devnet (zopen zdb0) b).1 = true /\ length made = 2%nat /\
  forall c fuel stop sent, 1 <= stop -> submit toyz (c b) b = [] /\ sync toyz c (ze_db e') fuel 1 stop sent = None.
Proof.
  destruct (zsome (zrun toyz Devnet (zopen zdb0) [] [([], bare_list zb4)])
    (fun e made => Nat.eqb (length made) 2 && match zd_bev (ze_db e) !! 1, block_of_event (ze_db e) 1 with Some _, Some _ => true | _, _ => false end))
    as (e' & made & R & X); [vm_compute; reflexivity|].
  apply andb_prop in X as [X1 X2]. apply Nat.eqb_eq in X1.
  exists (bare_list zb4), e', made. split; [exact R|]. split; [vm_compute; reflexivity|]. split; [exact X1|].
  assert (B : block_of_event (ze_db e') 1 = Some (bare_list zb4)).
  { destruct (zd_bev (ze_db e') !! 1) as [v|] eqn:V; [|discriminate X2]. destruct (block_of_event (ze_db e') 1) as [b1|] eqn:B1; [|discriminate X2].
    rewrite <- B1. apply (listless (zopen zdb0) (bare_list zb4) e' made); [reflexivity|reflexivity|exact R|rewrite V; eexists; reflexivity|rewrite B1; eexists; reflexivity]. }
  intros c fuel stop sent S.
  destruct (C38_sync_endless toyz c (ze_db e') 1 stop (bare_list zb4) fuel B eq_refl S) as [Y1 Y2]. split; [exact Y1|apply Y2].
Qed.

(** C38: a receiver whose shard has stored event 1 is given everything up to the last event of [zb5]. *)
Example C38_receive_ex : match receive toyz (fun _ => true) (ze_db ze5) 5 1 zb5 with Some (Some l) => bool_decide (b_seq <$> l = [1; 2; 3; 4; 5; 6; 7]) | _ => false end = true.
Proof. vm_compute. reflexivity. Qed.
Example C38_receive_hyps : honest_run toyz Devnet (zopen zdb0) [([], zb4); ([], zb5)] /\ rising 0 [zb_height zb4; zb_height zb5] = true.
Proof. split; [|reflexivity]. vm_compute. auto. Qed.

(** ** Running out of ids *)

(** The flood: more messages than a height has ids. *)
Definition zfloods (k : nat) (u : list bytes) : ztxn := ZTxn 2 [] (repeat [9] k ++ u) [].

Lemma zfloods_txn d t w u k : zw_todo w = [] -> 16384 <= N.of_nat k -> let w1 := zmsgs toyz d t false (zview d w) 2 w (repeat [9] k) in
  zrun_txn toyz d t w (zfloods k u) = zflush (zmsgs toyz d t false (zview d w) 2 w1 u) /\
  ok_gen (zw_gen w1) = false /\ zw_rows w1 = zw_rows w /\ zw_trie w1 = zw_trie w /\ ztrie w1 = zw_trie w.
Proof.
  intros T Hk w1.
  destruct (zfill toyz d t false (zview d w) 2 [9] (HOther [9]) k (fun _ _ => eq_refl) w) as (H1 & H2 & H3 & H4 & H5).
  fold w1 in H1, H2, H3, H4, H5. split.
  - unfold zrun_txn. cbn [zfloods zt_fid zt_sys zt_user]. unfold zmsgs at 2. cbn [fold_left]. cbv zeta. f_equal. unfold w1, zmsgs. by rewrite fold_left_app.
  - split; [|split; [done|split; [done|]]].
    + destruct H5 as [H5|H5]; [done|]. unfold ok_gen. apply andb_false_iff. right. apply N.ltb_ge. clear -H5 Hk. change (2 ^ SEQUENCE_BITS) with 16384. lia.
    + rewrite H3. unfold ztrie, zflush. rewrite T. done.
Qed.

(** A message after the flood leaves its row and nothing else. *)
Lemma zflood_txn d t w u k : zw_todo w = [] -> 16384 <= N.of_nat k -> exists w1, zrun_txn toyz d t w (zfloods k u) = zflush (zmsgs toyz d t false (zview d w) 2 w1 u) /\
  ok_gen (zw_gen w1) = false /\ zw_rows w1 = zw_rows w /\ zw_trie w1 = zw_trie w /\ ztrie w1 = zw_trie w.
Proof.
  intros T Hk. eexists. by apply zfloods_txn.
Qed.
Lemma zflood_late d t w k : zw_todo w = [] -> 16384 <= N.of_nat k -> zhas (zview d w) [1; 2; 7] = false ->
  let w' := zrun_txn toyz d t w (zfloods k [[1; 7]]) in zw_rows w' !! [1; 2; 7] = Some (Some []) /\ zw_trie w' = zw_trie w.
Proof.
  intros T Hk Hh. destruct (zflood_txn d t w [[1; 7]] k T Hk) as (w1 & R & B & R1 & R2 & R3). cbv zeta. rewrite R.
  clear R. cbn [zmsgs fold_left].
  assert (V : zhas (zview d w1) [1; 2; 7] = false) by (unfold zhas, zview in *; cbn [v_db v_rows] in *; by rewrite R1).
  unfold zmsg. assert (I : z_item toyz t false (zview d w) (map za_ev (zw_todo w1)) (zview d w1) 2 [1; 7] = [zputs [1; 2; 7] [1; 7] T_KEY_ADD]).
  { cbn [toyz z_item toyz_item]. by rewrite V. }
  rewrite I. cbn [zdos fold_left]. unfold zdo. destruct (gen_bad false _ B) as [er ->]. split.
  - cbn [zflush zw_rows zputs za_rows]. apply lookup_union_Some_l. by rewrite lookup_singleton.
  - etransitivity; [|exact R3]. reflexivity.
Qed.

(** False of C39 for shard 0: an honest block, valid and committed, whose last message is stored but not in the trie. *)
Lemma flood_unmirrored k : 16384 <= N.of_nat k -> exists b e' made, b = zmade Devnet (zopen zdb0) 1 0 [zfloods k [[1; 7]]] /\
  (zvalidate toyz Devnet (zopen zdb0) b).1 = true /\ zrun toyz Devnet (zopen zdb0) [] [([], b)] = Some (e', made) /\
  zd_rows (ze_db e') !! [1; 2; 7] = Some [] /\ zd_trie (ze_db e') = ∅.
Proof.
  intros Hk. set (e0 := zopen zdb0). assert (D : zd_trie (ze_db e0) = ∅ /\ ze_mem e0 = ∅ /\ zd_rows (ze_db e0) = ∅ /\ zgood e0 /\ zrun toyz Devnet e0 [] [] = Some (e0, [])) by done.
  assert (W : writes Devnet 0 = true /\ is_enabled (ver Devnet 0) EventIdBugFix = true) by done. destruct W as [W F].
  assert (e0 = zopen zdb0) as Hz by done. clearbody e0. destruct D as (D1 & D2 & D3 & G & R0).
  set (b := zmade Devnet e0 1 0 [zfloods k [[1; 7]]]).
  assert (V : (zvalidate toyz Devnet e0 b).1 = true).
  { destruct (zpropose toyz Devnet e0 1 0 [zfloods k [[1; 7]]]) as [b' e1] eqn:P. assert (b = b') as -> by (unfold b, zmade; by rewrite P). subst e0.
    by destruct (C35_zero_accepted toyz Devnet [] (zopen zdb0) [] [] [] (zopen zdb0) [] [] 1 0 [zfloods k [[1; 7]]] b' e1 R0 R0 eq_refl eq_refl P) as [X _]. }
  exists b. assert (Tm : zb_time b = 0 /\ zb_height b = 1 /\ exists r, zb_txns b = [ZTxn 2 [] (zt_user (zfloods k [[1; 7]])) r]).
  { unfold b, zmade, zpropose. rewrite W. cbn [zprepare]. cbn [fst zb_time zb_height zb_txns]. split; [done|]. split; [done|]. by eexists. }
  clearbody b. destruct Tm as (T1 & T2 & r & T3). unfold zvalidate in V. rewrite T1, W in V. cbn [zrun fold_left]. unfold zcommit, zcommit_first. rewrite T1, W.
  destruct (zreplay toyz Devnet (ze_db e0) (zb_height b) 0 (zwip0 (ze_mem e0) (set_height Devnet 0 (zb_height b) (ze_gen e0))) (zb_txns b) (zb_root b) (zb_evhash b)) as [w ok] eqn:Q.
  cbn [fst] in V. subst ok. do 2 eexists. split; [by subst e0|]. split.
  { unfold zvalidate. rewrite T1, W, Q. done. }
  split; [reflexivity|]. cbn [ze_db put_block zwrite zd_rows zd_trie].
  unfold zreplay in Q. rewrite T3 in Q. cbn [zreplay_txns] in Q.
  set (w0 := zwip0 (ze_mem e0) (set_height Devnet 0 (zb_height b) (ze_gen e0))) in *.
  assert (Hw : zw_todo w0 = [] /\ zhas (zview (ze_db e0) w0) [1; 2; 7] = false /\ zw_trie w0 = ∅).
  { split; [done|]. split; [|done]. unfold zhas, zview. cbn [v_db v_rows w0 zwip0 zw_rows]. rewrite D3. unfold tget. by rewrite !lookup_empty. }
  destruct Hw as (Hw1 & Hw2 & Hw3). destruct (zflood_late (ze_db e0) 0 w0 k Hw1 Hk Hw2) as [L1 L2].
  change (zrun_txn toyz (ze_db e0) 0 w0 (ZTxn 2 [] (zt_user (zfloods k [[1; 7]])) r)) with (zrun_txn toyz (ze_db e0) 0 w0 (zfloods k [[1; 7]])) in Q.
  set (w1 := zrun_txn toyz (ze_db e0) 0 w0 (zfloods k [[1; 7]])) in *. clearbody w1.
  assert (w = w1) as -> by (destruct (beq _ _) in Q; by injection Q).
  split; [|by rewrite L2, Hw3]. rewrite lookup_commit. unfold tget. by rewrite L1.
Qed.

Theorem C39_zero_flood_refuted : exists b e' made u, b = zmade Devnet (zopen zdb0) 1 0 [zbare 2 [] u] /\
  (zvalidate toyz Devnet (zopen zdb0) b).1 = true /\ zrun toyz Devnet (zopen zdb0) [] [([], b)] = Some (e', made) /\
  zd_rows (ze_db e') !! [1; 2; 7] = Some [] /\ zd_trie (ze_db e') = ∅.
Proof.
  assert (X : exists k, 16384 <= N.of_nat k) by (exists (N.to_nat 16384); rewrite N2Nat.id; apply N.le_refl). destruct X as [k Hk].
  destruct (flood_unmirrored k Hk) as (b & e' & made & H). exists b, e', made, (repeat [9] k ++ [[1; 7]]). exact H.
Qed.

(** False of C35 and C36 for versions 9 to 11 (mainnet from September to October 2025): after enough abandoned proposals a
    node rejects, and panics on, what a fresh node with the same state accepts. *)
Definition t9 : N := 1757523600 - EPOCH_S + 10.
Definition zb1 : zblock := zmade Mainnet (zopen zdb0) 1 t9 [zbare 1 [[1; 7]] []].
Lemma flooded e t k : 16384 <= N.of_nat k -> writes Mainnet t = true -> is_enabled (ver Mainnet t) EventIdBugFix = false -> ok_gen (ze_gen (zserve toyz Mainnet e (ZPropose 1 t [zfloods k []]))) = false.
Proof.
  intros Hk W F. cbn [zserve]. unfold zpropose. rewrite W. cbn [zprepare]. cbn [snd ze_gen].
  destruct (zflood_txn (ze_db e) t (zwip0 (ze_mem e) (set_height Mainnet t 1 (ze_gen e))) [] k eq_refl Hk) as (w1 & -> & B & _). exact B.
Qed.
Theorem C35_zero_unfixed_refuted : exists rs b, (zvalidate toyz Mainnet (zopen zdb0) b).1 = true /\
  let e := fold_left (zserve toyz Mainnet) rs (zopen zdb0) in
  ze_db e = zdb0 /\ (zvalidate toyz Mainnet e b).1 = false /\ zcommit toyz Mainnet e b = None.
Proof.
  assert (X : exists k, 16384 <= N.of_nat k) by (exists (N.to_nat 16384); rewrite N2Nat.id; apply N.le_refl). destruct X as [k Hk].
  exists [ZPropose 1 t9 [zfloods k []]], zb1. split; [vm_compute; reflexivity|].
  assert (W : writes Mainnet t9 = true) by (vm_compute; reflexivity).
  assert (F : is_enabled (ver Mainnet t9) EventIdBugFix = false) by (vm_compute; reflexivity).
  assert (T : zb_time zb1 = t9) by (vm_compute; reflexivity).
  assert (Hr : beq (z_root toyz ∅) (zb_root zb1) = false) by (vm_compute; reflexivity).
  pose proof (flooded (zopen zdb0) t9 k Hk W F) as B.
  assert (G : zgood (zserve toyz Mainnet (zopen zdb0) (ZPropose 1 t9 [zfloods k []]))) by (by apply zserve_good).
  pose proof (zserve_db toyz Mainnet (zopen zdb0) (ZPropose 1 t9 [zfloods k []])) as D.
  cbn [fold_left]. set (e := zserve toyz Mainnet (zopen zdb0) (ZPropose 1 t9 [zfloods k []])) in *. clearbody e. cbv zeta.
  generalize dependent zb1. intros b T Hr. rewrite <- T in W, F.
  destruct (C35_zero_exhausted toyz Mainnet e b G B W F) as (X1 & X2 & _); [|rewrite D; exact (conj eq_refl (conj X1 X2))].
  rewrite D. intros K. change (zd_trie (ze_db (zopen zdb0))) with (∅ : gset bytes) in K. rewrite K, beq_refl in Hr. discriminate Hr.
Qed.

(** C39: the hypotheses hold of the small shard 0 with the set of row keys as trie. *)
Lemma toyz_faithful : zfaithful toyz (fun r : kv bytes => dom r).
Proof.
  assert (P : forall (d : kv bytes) (rows : batch bytes) (k m : bytes) (ty : N), zfaith (fun r : kv bytes => dom r) d rows [zputs k m ty]).
  { intros d rows k m ty. split; [|done]. cbn [zputs za_rows za_ins za_del]. apply set_eq. intros x.
    rewrite elem_of_difference, elem_of_union, !elem_of_dom, !lookup_commit, elem_of_singleton. unfold tget.
    destruct (decide (x = k)) as [-> |D].
    - rewrite (lookup_union_Some_l _ _ k (Some [])) by (by rewrite lookup_singleton). rewrite elem_of_empty. split; [intros _; split; [by right|tauto]|intros _; by eexists].
    - rewrite lookup_union_r by (by rewrite lookup_singleton_ne). rewrite elem_of_empty. tauto. }
  assert (Q : forall (d : kv bytes) (rows : batch bytes) (h : hev), zfaith (fun r : kv bytes => dom r) d rows [ZAct ∅ ∅ ∅ h]).
  { intros d rows h. split; [|done]. cbn. rewrite (left_id_L ∅ (∪)). set_solver. }
  intros t sys st mg v fid m. cbn [toyz z_item]. unfold toyz_item. repeat case_match; try done; try apply P; apply Q.
Qed.
Example C39_zero_ex : roomy toyz Devnet (zopen zdb0) [([], zb4); ([], zb5)] = true /\ bool_decide (elements (zd_trie (ze_db ze5)) = []) = false.
Proof. vm_compute. auto. Qed.

(** C38 end to end: a data shard given events 1 and 2 of [zchain], the second one twice. *)
Definition as_item (x : bevent) : item := IBlock (b_seq x) (toyz_hash (toyz_enc x)) (match b_body x with BMsg [1; k] => [5; 1; k] | _ => [] end).
Definition zev1 : bevent := BEvent 1 4 0 0 (BMsg [1; 7]).
Definition zev2 : bevent := BEvent 2 4 1 0 (BMsg [2; 7; 1]).
Definition zdata (e : eng) : chunk := chunk_of 1 (made fifo e 1 [bare 0 [as_item zev1; as_item zev2; as_item zev2] []]).
Example C38_end_to_end_ex : exists ze made e app, zrun toyz Devnet (zopen zdb0) [] zchain = Some (ze, made) /\ zev1 ∈ made /\ zev2 ∈ made /\
  run_chain toy (open_eng db0) [] [([], fifo, zdata (open_eng db0))] = Some (e, app) /\ app = [(1, [5; 1; 7]); (2, [])].
Proof.
  destruct (zsome (zrun toyz Devnet (zopen zdb0) [] zchain) (fun _ made => bool_decide (zev1 ∈ made) && bool_decide (zev2 ∈ made))) as (ze & md & R & X); [vm_compute; reflexivity|].
  apply andb_prop in X as [X1 X2]. apply bool_decide_eq_true_1 in X1, X2.
  destruct (zsome (run_chain toy (open_eng db0) [] [([], fifo, zdata (open_eng db0))]) (fun _ app => bool_decide (app = [(1, [5; 1; 7]); (2, [])]))) as (e & app & R2 & Y); [vm_compute; reflexivity|].
  apply bool_decide_eq_true_1 in Y. exists ze, md, e, app. exact (conj R (conj X1 (conj X2 (conj R2 Y)))).
Qed.

Print Assumptions C35_zero_history_irrelevant.
Print Assumptions C35_zero_accepted.
Print Assumptions C35_zero_exhausted.
Print Assumptions C35_zero_unfixed_refuted.
Print Assumptions C36_zero_commit.
Print Assumptions C36_zero_root_is_header.
Print Assumptions C37_zero_before_write.
Print Assumptions C37_zero_wedge.
Print Assumptions C37_zero_wedge_refuted.
Print Assumptions C37_zero_empty_partial.
Print Assumptions C38_zero_numbered.
Print Assumptions C38_zero_events.
Print Assumptions C38_zero_fanned.
Print Assumptions C38_zero_list_unchecked.
Print Assumptions C38_zero_list_refuted.
Print Assumptions C38_submit_genuine.
Print Assumptions C38_sync_endless.
Print Assumptions C38_sync_panics.
Print Assumptions C38_receiver_forgeable.
Print Assumptions C38_receive_complete_partial.
Print Assumptions C38_end_to_end_partial.
Print Assumptions C39_zero_mirror_partial.
Print Assumptions C39_zero_flood_refuted.
