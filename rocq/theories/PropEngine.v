(** C35-C39 for data shards: proposing, validating, committing, crashing, block events, the trie. *)
From stdpp Require Import gmap sorting.
From Coq Require Import ZifyN ZifyNat ZifyBool.
From Verif Require Import Base Codec Kv Engine EngineProofs EngineSeq.
#[local] Open Scope N_scope.

(** ** A small concrete store for the examples

    Messages: [[1;k]] adds signer [k] of the transaction's account, [[2;k;x]] is message [x] signed with [k], [[3;k]] removes
    signer [k] and then revokes its messages, [[5;f;k]] (in a block event) adds signer [k] of account [f], [[6;f;k;x]] revokes a
    message of another account (as a name transfer does with the display name). A message without its signer, or merged before, gives a failure event. The trie has one key per row; roots are the key lists. *)
Definition has (v : view) (k : bytes) : bool := match tget (v_db v) (v_rows v) k with Some _ => true | None => false end.
Definition put1 (k body : bytes) : action := Act {[k := Some []]} {[k]} ∅ body.
Definition del1 (k body : bytes) : action := Act {[k := None]} ∅ {[k]} body.
Definition fail1 (body : bytes) : action := Act ∅ ∅ ∅ body.

Definition toy_item (t : N) (v : view) (fid : N) (m : bytes) : list action :=
  match m with
  | [1; k] => if has v [1; fid; k] then [] else [put1 [1; fid; k] m]
  | [2; k; x] => if has v [1; fid; k] && negb (has v [2; fid; k; x]) then [put1 [2; fid; k; x] m] else [fail1 (9 :: m)]
  | [3; k] => if has v [1; fid; k] then [del1 [1; fid; k] m] else []
  | [6; f; k; x] => if has v [2; f; k; x] then [del1 [2; f; k; x] m] else []
  | [5; f; k] => if has v [1; f; k] then [] else [put1 [1; f; k] m]
  | _ => []
  end.

Definition removed (merged : list bytes) : list N := remove_dups (flat_map (fun m => match m with [3; k] => [k] | _ => [] end) merged).
Definition sent_by (rows : kv bytes) (fid k : N) : list bytes :=
  List.filter (fun key => match key with [2; f; k'; _] => (f =? fid) && (k' =? k) | _ => false end) (map_to_list rows).*1.
Definition toy_tail (ph t : N) (v : view) (fid : N) (merged : list bytes) : list (list action) :=
  if ph =? 0 then map (fun k => map (fun key => del1 key (8 :: key)) (sent_by (v_db v) fid k)) (removed merged) else [].

Definition keylist (T : gset bytes) : bytes := flat_map (fun k => N.of_nat (length k) :: k) (elements T).
Definition toy : env := Env toy_item toy_tail keylist
  (fun T fid => keylist (filter (fun k => Is_true (nth 1 k 0 =? fid)) T)) (@concat N).

Definition fifo : order := fun l => l.
Definition lifo : order := @rev (list action).

(** A proposed block with its roots, and the chunk made of it. *)
Definition chunk_of (h : N) (p : proposal) : chunk := Chunk h (p_time p) (p_txns p) (p_root p).

Section Props.
  Context (E : env).

  (** ** C35: a proposed block is accepted by every validator in the same state *)

  (** Whatever was proposed, validated or abandoned before, validation depends on the committed state alone. *)
  Theorem C35_history_irrelevant l e app rs o h p : run_chain E (open_eng db0) [] l = Some (e, app) ->
    let e' := fold_left (serve E) rs e in
    e_db e' = e_db e /\ (validate E o e' h p).1 = (validate E o (open_eng (e_db e)) h p).1.
  Proof.
    intros R e'. assert (G : good e') by (apply serves_good; eapply chain_good; [|exact R]; done).
    split; [apply serves_db|]. unfold validate. rewrite good_wip0 by done. unfold e'. rewrite serves_db. cbn.
    by destruct (replay _ _ _ _ _ _ _).
  Qed.

  (** A proposal made at the start of a round, [eA] and [eB] being nodes with the same committed state. *)
  Theorem C35_accepted_partial lA eA appA rsA lB eB appB rsB h o o' t txs p eA' :
    run_chain E (open_eng db0) [] lA = Some (eA, appA) -> run_chain E (open_eng db0) [] lB = Some (eB, appB) -> e_db eA = e_db eB ->
    tails_apart E -> is_order o -> is_order o' ->
    propose E o (start_round (fold_left (serve E) rsA eA) h) t txs = (p, eA') ->
    (exists id, (generate_id true (e_gen eA')).1 = Ok id) ->
    (validate E o' (fold_left (serve E) rsB eB) h p).1 = true.
  Proof.
    intros RA RB D T O O' P [id K]. unfold propose in P.
    assert (GA : good (fold_left (serve E) rsA eA)) by (apply serves_good; eapply chain_good; [|exact RA]; done).
    assert (GB : good (fold_left (serve E) rsB eB)) by (apply serves_good; eapply chain_good; [|exact RB]; done).
    assert (GA' : good (start_round (fold_left (serve E) rsA eA) h)) by done.
    rewrite good_wip0 in P by done. cbn [start_round e_db e_gen] in P. rewrite serves_db in P.
    destruct (prepare E o (e_db eA) t (wip0 (e_db eA) (d_trie (e_db eA)) (set_current_height h)) txs) as [w l'] eqn:Q.
    injection P as <- <-. cbn in K.
    assert (Kw : ok_gen (w_gen w) = true).
    { destruct (ok_gen (w_gen w)) eqn:X; [done|]. apply (gen_bad true) in X as [er X]. by rewrite X in K. }
    apply prepare_replay in Q. unfold validate. rewrite good_wip0 by done. rewrite serves_db, <- D. cbn.
    destruct (replay_txns_weq E o o' (e_db eA) t l' _ _ _ T O O' (weq_refl _) Q Kw) as (w2 & R2 & W2).
    unfold replay. rewrite R2. cbn. pose proof (core_eq _ _ (proj1 W2)) as (_ & _ & <- & _). by rewrite beq_refl.
  Qed.

  (** Without hash sets involved (same order) no condition is needed. *)
  Theorem C35_accepted_same_order lA eA appA rsA lB eB appB rsB h o t txs p eA' :
    run_chain E (open_eng db0) [] lA = Some (eA, appA) -> run_chain E (open_eng db0) [] lB = Some (eB, appB) -> e_db eA = e_db eB ->
    propose E o (start_round (fold_left (serve E) rsA eA) h) t txs = (p, eA') ->
    (validate E o (fold_left (serve E) rsB eB) h p).1 = true /\
    map (fun tx => (t_fid tx, t_sys tx, t_user tx)) (p_txns p) = map (fun tx => (t_fid tx, t_sys tx, t_user tx)) txs.
  Proof.
    intros RA RB D P. unfold propose in P.
    assert (GA : good (fold_left (serve E) rsA eA)) by (apply serves_good; eapply chain_good; [|exact RA]; done).
    assert (GB : good (fold_left (serve E) rsB eB)) by (apply serves_good; eapply chain_good; [|exact RB]; done).
    assert (GA' : good (start_round (fold_left (serve E) rsA eA) h)) by done.
    rewrite good_wip0 in P by done. cbn [start_round e_db e_gen] in P. rewrite serves_db in P.
    destruct (prepare E o (e_db eA) t (wip0 (e_db eA) (d_trie (e_db eA)) (set_current_height h)) txs) as [w l'] eqn:Q.
    injection P as <- <-. split.
    - apply prepare_replay in Q. unfold validate. rewrite good_wip0 by done. rewrite serves_db, <- D. cbn.
      unfold replay. rewrite Q. cbn. by rewrite beq_refl.
    - cbn. clear -Q. revert w l' Q. generalize (wip0 (e_db eA) (d_trie (e_db eA)) (set_current_height h)).
      induction txs as [|tx txs IH]; intros w0 w l'; cbn [prepare]; [by intros [= _ <-]|].
      destruct (prepare E o (e_db eA) t (run_txn E o (e_db eA) t w0 tx) txs) as [w3 r'] eqn:P. intros [= <- <-].
      cbn [map t_fid t_sys t_user]. by rewrite (IH _ _ _ P).
  Qed.

  (** ** C36: commit stores what was validated *)

  (** A chunk validated last is committed from the cache exactly as a restarted node would by replaying it, sets being
      iterated in the order of the validation. *)
  Theorem C36_cached_is_replay_partial l e app rs o o2 h p e2 :
    run_chain E (open_eng db0) [] l = Some (e, app) -> validate E o (fold_left (serve E) rs e) h p = (true, e2) ->
    match commit_chunk E o2 e2 (chunk_of h p), commit_chunk E o (open_eng (e_db e)) (chunk_of h p) with
    | Some (e3, w), Some (e4, w') => e_db e3 = e_db e4 /\ e_mem e3 = e_mem e4 /\ w = w'
    | None, None => True
    | _, _ => False
    end.
  Proof.
    intros R V. assert (G : good (fold_left (serve E) rs e)) by (apply serves_good; eapply chain_good; [|exact R]; done).
    unfold validate in V. rewrite good_wip0, serves_db in V by done.
    destruct (replay E o (e_db e) (p_time p) (wip0 (e_db e) (d_trie (e_db e)) (set_current_height h)) (p_txns p) (p_root p)) as [w ok] eqn:Q.
    injection V as -> <-. unfold commit_chunk, commit_first. cbn [e_pend open_eng]. unfold cache_hit. cbn [pd_root pd_bev chunk_of c_root c_txns].
    rewrite !beq_refl. cbn [andb]. unfold commit_replay. cbn [chunk_of open_eng e_db e_mem c_time c_txns c_root c_height]. rewrite Q. cbn.
    by destruct (confirm (w_gen w) w).
  Qed.

  (** In another iteration order: the same rows, block events, trie and event ids; the events themselves in another order. *)
  Theorem C36_cached_any_order_partial l e app rs o o2 h p e2 e3 w :
    run_chain E (open_eng db0) [] l = Some (e, app) -> tails_apart E -> is_order o -> is_order o2 ->
    validate E o (fold_left (serve E) rs e) h p = (true, e2) -> commit_chunk E o2 e2 (chunk_of h p) = Some (e3, w) ->
    exists e4 w', commit_chunk E o2 (open_eng (e_db e)) (chunk_of h p) = Some (e4, w') /\
      d_rows (e_db e3) = d_rows (e_db e4) /\ d_bev (e_db e3) = d_bev (e_db e4) /\ d_trie (e_db e3) = d_trie (e_db e4) /\
      d_chunks (e_db e3) = d_chunks (e_db e4) /\ (w_evs w).*1 = (w_evs w').*1 /\ (w_evs w).*2 ≡ₚ (w_evs w').*2.
  Proof.
    intros R T O O2 V C. assert (G : good (fold_left (serve E) rs e)) by (apply serves_good; eapply chain_good; [|exact R]; done).
    unfold validate in V. rewrite good_wip0, serves_db in V by done.
    destruct (replay E o (e_db e) (p_time p) (wip0 (e_db e) (d_trie (e_db e)) (set_current_height h)) (p_txns p) (p_root p)) as [w0 ok] eqn:Q.
    injection V as -> <-. unfold commit_chunk, commit_first in *. cbn [e_pend open_eng] in *. unfold cache_hit in C.
    cbn [pd_root pd_bev chunk_of c_root c_txns] in C. rewrite !beq_refl in C. cbn [andb e_gen pd_w e_db] in C.
    destruct (confirm (w_gen w0) w0) as [w1|] eqn:CF; [|done]. injection C as <- ->.
    apply confirm_spec in CF as (K & id & GI & ->).
    destruct (replay_weq E o o2 _ _ _ _ _ _ _ T O O2 (weq_refl _) Q K) as (w2 & R2 & W2).
    unfold commit_replay. cbn [chunk_of e_db e_mem c_time c_txns c_root c_height open_eng]. rewrite R2.
    destruct W2 as (W2 & W3 & W4). apply core_eq in W2 as (C1 & C2 & C3 & C4 & C5 & C6).
    rewrite C4 in K. destruct (confirm_ok _ w2 K) as (id' & w3 & GI' & -> & ->). do 2 eexists. split; [done|].
    cbn. rewrite C1, C2, C3. do 4 (split; [done|]). rewrite C4 in GI. assert (id = id') as <- by congruence. by rewrite W3, W4.
  Qed.

  (** Every committed chunk, however cached, leaves a trie with the root of its header. *)
  Theorem C36_root_is_header l e app rs o c e' app' :
    run_chain E (open_eng db0) [] l = Some (e, app) -> height_step E e rs o c = Some (e', app') ->
    x_root E (d_trie (e_db e')) = c_root c /\ e_mem e' = d_trie (e_db e') /\ d_chunks (e_db e') !! c_height c = Some c.
  Proof.
    intros R H. assert (G : good e) by (eapply chain_good; [|exact R]; done).
    assert (N : e_pend e = None) by (eapply chain_none; [|exact R]; done).
    destruct (height_spec E (fun _ => True) _ _ _ _ _ _ I (req_any rs) G N H) as (G' & _ & w0 & g & w & Cf & _ & X & _ & D & _).
    apply confirm_spec in Cf as (_ & id & _ & ->). rewrite G', D. cbn. by rewrite lookup_insert.
  Qed.

  (** A block with more events than ids is valid and cannot be committed: BLOCK_CONFIRMED gets no id and the node panics,
      whether the cache is used or not, before and after restarting. *)
  Theorem C36_unconfirmable_refuted l e app rs o o2 h p e2 :
    run_chain E (open_eng db0) [] l = Some (e, app) -> validate E o (fold_left (serve E) rs e) h p = (true, e2) ->
    2 ^ SEQUENCE_BITS <= ig_seq (e_gen e2) ->
    commit_chunk E o2 e2 (chunk_of h p) = None /\ commit_chunk E o (open_eng (e_db e)) (chunk_of h p) = None.
  Proof.
    intros R V S. pose proof (C36_cached_is_replay_partial _ _ _ _ _ o2 _ _ _ R V) as C.
    assert (X : commit_chunk E o2 e2 (chunk_of h p) = None).
    { unfold validate in V. destruct (replay _ _ _ _ _ _ _) as [w ok]. injection V as -> <-. cbn in S.
      unfold commit_chunk, commit_first, cache_hit. cbn [e_pend pd_root pd_bev chunk_of c_root c_txns e_gen]. rewrite !beq_refl. cbn [andb].
      rewrite confirm_bad; [done|]. unfold ok_gen. apply andb_false_iff. right. by apply N.ltb_ge. }
    rewrite X in *. destruct (commit_chunk E o (open_eng (e_db e)) (chunk_of h p)) as [[e4 w4]|]; done.
  Qed.

  (** ** C37: a crash while committing *)

  (** Stopping before the batch is written: the restarted node commits as the uninterrupted one would have. *)
  Theorem C37_before_write_partial l e app rs o o2 h p e2 e3 w :
    run_chain E (open_eng db0) [] l = Some (e, app) -> validate E o (fold_left (serve E) rs e) h p = (true, e2) ->
    commit_chunk E o2 e2 (chunk_of h p) = Some (e3, w) ->
    exists e4, commit_chunk E o (open_eng (e_db e2)) (chunk_of h p) = Some (e4, w) /\ e_db e4 = e_db e3.
  Proof.
    intros R V C. pose proof (C36_cached_is_replay_partial _ _ _ _ _ o2 _ _ _ R V) as X. rewrite C in X.
    assert (D : e_db e2 = e_db e).
    { unfold validate in V. destruct (replay _ _ _ _ _ _ _) as [w0 ok]. injection V as _ <-. cbn. apply serves_db. }
    rewrite D. destruct (commit_chunk E o (open_eng (e_db e)) (chunk_of h p)) as [[e4 w4]|]; [|done].
    destruct X as (X1 & X2 & <-). by exists e4.
  Qed.

  (** Stopping between the write of the batch and that of the chunk: if on the state then reached every message of the chunk
      is rejected without effect, nothing is left to revoke or prune and the account roots are as claimed, then committing
      the chunk again succeeds and leaves the same rows, block events and trie; the hub events of the height are replaced
      by the failure events. *)
  Theorem C37_between_writes_partial l e app rs o c w o2 :
    run_chain E (open_eng db0) [] l = Some (e, app) -> commit_first E o (fold_left (serve E) rs e) c = Some w ->
    let d1 := write (e_db e) w in
    is_order o2 -> Forall (quiet E d1 (c_time c)) (c_txns c) -> c_height c < 2 ^ HEIGHT_BITS ->
    N.of_nat (length (flat_map (quiet_evs E d1 (c_time c)) (c_txns c))) < 2 ^ SEQUENCE_BITS - 1 ->
    exists e' w', commit_chunk E o2 (open_eng d1) c = Some (e', w') /\
      d_rows (e_db e') = d_rows d1 /\ d_bev (e_db e') = d_bev d1 /\ d_trie (e_db e') = d_trie d1 /\ d_chunks (e_db e') = <[c_height c := c]> (d_chunks d1) /\
      (w_evs w').*2 = confirmed :: flat_map (quiet_evs E d1 (c_time c)) (c_txns c).
  Proof.
    intros R C d1 O2 Q H1 H2. assert (G : good e) by (eapply chain_good; [|exact R]; done).
    assert (N : e_pend e = None) by (eapply chain_none; [|exact R]; done).
    destruct (pend_none E (fun _ => True) e N) as [P1 P2].
    apply (commit_first_spec E (fun _ => True)) in C as (w0 & g & C1 & _ & C3 & _); [|done|by apply serves_good|by apply serves_pend; [apply req_any|..]].
    assert (Rt : x_root E (d_trie d1) = c_root c).
    { apply confirm_spec in C1 as (_ & id & _ & ->). done. }
    clearbody d1. set (wz := wip0 d1 (d_trie d1) (set_current_height (c_height c))).
    assert (Rest : at_rest d1 wz) by done.
    assert (Rm : room wz (length (flat_map (quiet_evs E d1 (c_time c)) (c_txns c)) + 0)).
    { split; [done|]. unfold wz. cbn [wip0 w_gen set_current_height ig_seq]. clear H1. lia. }
    destruct (replay_still E o2 d1 (c_time c) (c_txns c) wz 0 O2 Rest Q Rm) as (w' & RP & S & Rm').
    unfold commit_chunk, commit_first. cbn [e_pend open_eng]. unfold commit_replay. cbn [open_eng e_db e_mem]. fold wz.
    destruct S as (S1 & S2 & S3 & S4 & S5 & S6).
    unfold replay. rewrite RP, S3. cbn [wz wip0 w_trie andb]. rewrite Rt, beq_refl.
    destruct (confirm_ok (w_gen w') w' (room_ok _ _ Rm')) as (id & w2 & _ & -> & ->). do 2 eexists. split; [done|].
    cbn. rewrite S1, S2, S3, S6. cbn. rewrite commit_empty, (left_id_L ∅ (∪)). done.
  Qed.

  (** When the first transaction of the chunk is then rejected but its account root is no longer the claimed one, because a
      later transaction of the chunk changed something in that account, the node panics: after every restart, in whatever
      order it iterates. *)
  Theorem C37_wedge o d1 c tx r : is_order o -> c_txns c = tx :: r -> rejected E d1 (c_time c) tx ->
    x_acct E (d_trie d1) (t_fid tx) <> t_root tx -> c_height c < 2 ^ HEIGHT_BITS ->
    N.of_nat (length (quiet_evs E d1 (c_time c) tx)) < 2 ^ SEQUENCE_BITS - 1 ->
    commit_chunk E o (open_eng d1) c = None.
  Proof.
    intros O T Q A H1 H2. set (wz := wip0 d1 (d_trie d1) (set_current_height (c_height c))).
    assert (Rm : room wz (length (quiet_evs E d1 (c_time c) tx) + 0)).
    { split; [done|]. unfold wz. cbn [wip0 w_gen set_current_height ig_seq]. clear H1. lia. }
    destruct (run_txn_still E o d1 (c_time c) tx wz 0 O ltac:(done) Q Rm) as [(_ & _ & S & _) _].
    unfold commit_chunk, commit_first, commit_replay, replay. cbn [e_pend open_eng e_db e_mem]. fold wz. rewrite T. cbn [replay_txns].
    rewrite S. cbn [wz wip0 w_trie]. destruct (beq _ _) eqn:B; [by apply beq_true in B|]. done.
  Qed.

  (** ** C38, data-shard side: block events are applied gap-free and in order *)

  (** Over every chain, with any proposals, validations and cached commits in between, and whatever is delivered: the block
      events applied are number 1, 2, ..., n, each once and in this order, and exactly these are stored. *)
  Theorem C38_applied_in_order l e app : run_chain E (open_eng db0) [] l = Some (e, app) ->
    app.*1 = nums 1 (length app) /\
    (forall k : N, is_Some (d_bev (e_db e) !! k) <-> 1 <= k <= N.of_nat (length app)) /\
    max_seqnum (d_bev (e_db e)) = N.of_nat (length app).
  Proof.
    intros R. destruct (chain_seq E l (open_eng db0) [] e app) as [C A]; try done.
    - intros k. cbn. rewrite lookup_empty. split; [by intros []|lia].
    - split; [done|]. split; [done|]. by apply contig_max.
  Qed.

  (** Which events a replayed block applies: the next [k] are applied iff they are delivered in this order (between others
      or repeated) in the transactions of the block. *)
  Theorem C38_applied_iff_delivered o d t txs root mem g w k :
    replay E o d t (wip0 d mem g) txs root = (w, true) ->
    max_seqnum (d_bev d) + N.of_nat k <= w_last w <-> sublist (nums (max_seqnum (d_bev d) + 1) k) (delivered txs).
  Proof. intros R. apply replay_txns_eq in R as [R _]. apply replay_txns_last in R as ->. apply greedy_spec. Qed.

  (** A missing number stops everything after it. *)
  Theorem C38_gap_stalls o d t txs root mem g w :
    replay E o d t (wip0 d mem g) txs root = (w, true) -> max_seqnum (d_bev d) + 1 ∉ delivered txs ->
    w_last w = max_seqnum (d_bev d) /\ w_app w = [] /\ w_bev w = ∅.
  Proof.
    intros R H. pose proof (C38_applied_iff_delivered _ _ _ _ _ _ _ _ 1 R) as X. cbn [nums] in X.
    apply replay_txns_eq in R as [R _]. pose proof (replay_txns_wok E (max_seqnum (d_bev d)) o d t txs _ (wok0 d mem g)) as W.
    rewrite R in W. destruct W as (W1 & W2 & W3). cbn [fst] in *.
    assert (L : length (w_app w) = 0%nat).
    { destruct (decide (max_seqnum (d_bev d) + 1 <= w_last w)) as [Y|Y]; [|lia].
      exfalso. apply H. apply X in Y. eapply elem_of_submseteq; [|by apply sublist_submseteq]. by left. }
    split; [lia|]. apply nil_length_inv in L. split; [done|]. apply map_empty. intros k. apply eq_None_not_Some. rewrite W3, L.
    by intros ?%elem_of_nil.
  Qed.

  (** The event is consumed whatever its content does: with a content that has no effect the number still advances, so the
      effect never happens. *)
  Theorem C38_consumed_unconditionally d t fid w h m :
    let w' := do_item E d t fid w (IBlock (w_last w + 1) h m) in
    w_last w' = w_last w + 1 /\ w_bev w' !! (w_last w + 1) = Some h /\ w_app w' = w_app w ++ [(w_last w + 1, m)].
  Proof.
    cbn [do_item]. rewrite N.eqb_refl. cbv zeta.
    destruct (acts_keeps (x_item E t (view_of d (take_event w (w_last w + 1) h m)) fid m) (take_event w (w_last w + 1) h m)) as (-> & -> & ->).
    cbn. by rewrite lookup_insert.
  Qed.

  (** ** C39: the sync trie mirrors the stores *)

  (** If each single operation changes the trie as it changes the rows, so does every chain in which no validation fails:
      an operation without id never gets into a committed block. *)
  Theorem C39_mirror_partial (K : kv bytes -> gset bytes) l e app : faithful E K -> K ∅ = ∅ -> chain_valid E (open_eng db0) l ->
    run_chain E (open_eng db0) [] l = Some (e, app) -> d_trie (e_db e) = K (d_rows (e_db e)).
  Proof. intros F Z V R. eapply (chain_mirror E K); [exact F| | | |exact V|exact R]; done. Qed.
End Props.

(** ** Examples and refutations *)

Lemma fifo_order : is_order fifo.
Proof. by intros l. Qed.
Lemma lifo_order : is_order lifo.
Proof. intros l. unfold lifo. symmetry. apply Permutation_rev. Qed.

(** The block an honest proposer makes of the transactions at height [h], time [h]. *)
Definition made (o : order) (e : eng) (h : N) (txs : list txn) : proposal := (propose toy o (start_round e h) h txs).1.
Definition bare (fid : N) (s : list item) (u : list bytes) : txn := Txn fid s u [].

Definition c1 : chunk := chunk_of 1 (made fifo (open_eng db0) 1
  [bare 1 [IMsg [1; 7]; IMsg [1; 9]; IBlock 1 [11] [5; 3; 6]] [[2; 7; 1]; [2; 9; 2]; [2; 4; 4]]; bare 2 [IMsg [1; 8]] [[2; 8; 1]]]).
Definition e1 : eng := match run_chain toy (open_eng db0) [] [([], fifo, c1)] with Some (e, _) => e | None => open_eng db0 end.


Lemma some_of {A B} (x : option (A * B)) (a0 : A) (f : B -> bool) : match x with Some (_, b) => f b | None => false end = true ->
  exists b, x = Some (match x with Some (a, _) => a | None => a0 end, b) /\ f b = true.
Proof. destruct x as [[a b]|]; [|done]. intros H. by exists b. Qed.

Lemma two_ex {A B} (x : option A) (y : option B) (f : A -> B -> bool) : match x, y with Some a, Some b => f a b | _, _ => false end = true ->
  exists a b, x = Some a /\ y = Some b /\ f a b = true.
Proof. destruct x as [a|], y as [b|]; try done. intros H. by exists a, b. Qed.

Lemma chain1 : exists app, run_chain toy (open_eng db0) [] [([], fifo, c1)] = Some (e1, app) /\ bool_decide (app = [(1, [5; 3; 6])]) = true.
Proof. apply (some_of _ (open_eng db0)). vm_compute. reflexivity. Qed.

Example chain_ex : bool_decide (size (d_trie (e_db e1)) = 7%nat /\ d_log (e_db e1) !! make_event_id 1 6 = Some [9; 2; 4; 4]) = true.
Proof. vm_compute. reflexivity. Qed.


(** The hypotheses on the stores hold of the small store. *)
Example toy_apart : tails_apart toy.
Proof.
  intros ph t v fid m. cbn [x_tail toy]. unfold toy_tail. destruct (ph =? 0); [|done].
  pose proof (NoDup_remove_dups (flat_map (fun m => match m with [3; k] => [k] | _ => [] end) m)) as ND. fold (removed m) in ND.
  induction (removed m) as [|k ks IH]; cbn [map all_apart]; [done|]. apply NoDup_cons in ND as [N1 N2]. split; [|by apply IH].
  apply Forall_forall. intros g Hg. apply elem_of_list_fmap in Hg as (k' & -> & Hk). assert (D : k <> k') by (by intros ->).
  assert (X : forall key, key ∈ sent_by (v_db v) fid k -> key ∈ sent_by (v_db v) fid k' -> False).
  { intros key. unfold sent_by. rewrite !elem_of_list_In, !filter_In. intros [_ A] [_ B].
    destruct key as [|[|[[]|[]|]] [|f [|k1 [|x []]]]]; try done. lia. }
  assert (R : forall k : N, row_keys (map (fun key => del1 key (8 :: key)) (sent_by (v_db v) fid k)) = list_to_set (sent_by (v_db v) fid k)).
  { intros j. unfold row_keys. induction (sent_by (v_db v) fid j) as [|x l I]; cbn; [done|]. rewrite I. by rewrite dom_singleton_L. }
  assert (T : forall k : N, trie_keys (map (fun key => del1 key (8 :: key)) (sent_by (v_db v) fid k)) = list_to_set (sent_by (v_db v) fid k)).
  { intros j. unfold trie_keys. induction (sent_by (v_db v) fid j) as [|x l I]; cbn; [done|]. rewrite I. set_solver. }
  unfold apart. rewrite !R, !T. assert (Y : (list_to_set (sent_by (v_db v) fid k) : gset bytes) ## list_to_set (sent_by (v_db v) fid k')).
  { intros key. rewrite !elem_of_list_to_set. apply X. }
  done.
Qed.

(** An action on one row and its trie key, or on nothing. *)
Definition tidy (a : action) : Prop := exists k b, a = put1 k b \/ a = del1 k b \/ a = fail1 b.

Lemma tidy_faith (d : kv bytes) (l : list action) (rows : batch bytes) : Forall tidy l -> faith dom d rows l.
Proof.
  intros F. revert rows. induction F as [|a l (k & b & X) F IH]; intros rows; cbn [faith]; [done|]. split; [|apply IH]. clear IH F.
  apply set_eq. intros j. rewrite elem_of_difference, elem_of_union, !elem_of_dom, !lookup_commit. unfold tget.
  pose proof (not_elem_of_empty (C := gset bytes) j) as Z.
  rewrite lookup_union. destruct X as [-> |[-> | ->]]; cbn [put1 del1 fail1 a_rows a_ins a_del]; rewrite ?elem_of_singleton.
  - destruct (decide (j = k)) as [-> |D].
    + rewrite lookup_singleton. destruct (rows !! k); cbn; (split; [by auto|by eexists]).
    + rewrite lookup_singleton_ne by done. destruct (rows !! j); cbn; tauto.
  - destruct (decide (j = k)) as [-> |D].
    + rewrite lookup_singleton. destruct (rows !! k); cbn; (split; [by intros []|by intros [_ []]]).
    + rewrite lookup_singleton_ne by done. destruct (rows !! j); cbn; tauto.
  - rewrite lookup_empty. destruct (rows !! j); cbn; tauto.
Qed.

Example toy_faithful : faithful toy dom.
Proof.
  assert (P : forall k b, tidy (put1 k b)) by (intros k b; exists k, b; by left).
  assert (D : forall k b, tidy (del1 k b)) by (intros k b; exists k, b; right; by left).
  assert (Z : forall b, tidy (fail1 b)) by (intros b; exists [], b; right; by right).
  intros v _. split.
  - intros t fid m. apply tidy_faith. cbn [x_item toy]. unfold toy_item.
    repeat (case_match; try done); rewrite ?Forall_singleton; auto.
  - intros ph t fid m gs Hg. apply tidy_faith. apply Forall_concat. rewrite Hg. cbn [x_tail toy]. unfold toy_tail.
    destruct (ph =? 0); [|done]. apply Forall_forall. intros g G. apply elem_of_list_fmap in G as (k & -> & _).
    apply Forall_forall. intros a A. apply elem_of_list_fmap in A as (key & -> & _). auto.
Qed.

(** C35: account 1 loses two signers, whose messages are revoked in hash order; account 3 uses the signer from the block event. *)
Definition tx2 : list txn := [bare 1 [IMsg [3; 7]; IMsg [3; 9]; IBlock 2 [12] [5; 3; 5]] []; bare 3 [] [[2; 6; 1]]; bare 2 [] [[2; 8; 1]; [2; 8; 2]]].
(** Abandoned rounds on the validating node: other proposals, valid and invalid. *)
Definition junk : list req := [RRound 2; RPropose lifo 5 [bare 2 [] [[2; 8; 9]]]; RValidate fifo 2 (made fifo e1 2 [bare 4 [IMsg [1; 1]] []]);
  RRound 2; RValidate fifo 2 (Proposal 4 [bare 2 [] [[2; 8; 7]]] [1])].

Example C35_ex :
  (exists id, (generate_id true (e_gen (propose toy fifo (start_round e1 2) 2 tx2).2)).1 = Ok id) /\
  (validate toy lifo (fold_left (serve toy) junk e1) 2 (made fifo e1 2 tx2)).1 = true /\
  bool_decide (p_root (made fifo e1 2 tx2) = keylist (d_trie (e_db e1))) = false.
Proof.
  assert (X : exists id, (generate_id true (e_gen (propose toy fifo (start_round e1 2) 2 tx2).2)).1 = Ok id) by (eexists; vm_compute; reflexivity).
  destruct chain1 as (app & R & _). split; [done|]. split; [|vm_compute; reflexivity].
  unfold made. destruct (propose toy fifo (start_round e1 2) 2 tx2) as [p eA] eqn:P.
  exact (C35_accepted_partial toy _ e1 app [] _ e1 app junk 2 fifo lifo 2 tx2 p eA R R eq_refl toy_apart fifo_order lifo_order P X).
Qed.

Example C36_ex : exists e2, validate toy fifo (fold_left (serve toy) junk e1) 2 (made fifo e1 2 tx2) = (true, e2) /\
  match commit_chunk toy lifo e2 (chunk_of 2 (made fifo e1 2 tx2)), commit_chunk toy lifo (open_eng (e_db e1)) (chunk_of 2 (made fifo e1 2 tx2)) with
  | Some (e3, w), Some (e4, w') =>
      bool_decide (elements (d_trie (e_db e3)) = elements (d_trie (e_db e4))) && negb (bool_decide (w_evs w = w_evs w'))
  | _, _ => false
  end = true.
Proof.
  eexists. rewrite (surjective_pairing (validate _ _ _ _ _)). split; [f_equal; vm_compute; reflexivity|]. vm_compute. reflexivity.
Qed.

(** The proposal of the decided round 0, and the same transactions in the order another proposer's hash map gave them. *)
Definition pA : proposal := made fifo e1 2 [bare 1 [] [[2; 7; 3]]; bare 2 [] [[2; 8; 3]]].
Definition pB : proposal := made fifo e1 2 [bare 2 [] [[2; 8; 3]]; bare 1 [] [[2; 7; 3]]].

Definition late : list req := [RRound 2; RValidate fifo 2 pA; RRound 2; RValidate fifo 2 pB].

(** False of C36 as stated: round 0 is decided after round 1's proposal was validated; both have the same root, so the events
    of the other proposal are stored and sent: nodes disagree about which event has which id. *)
Theorem C36_late_decision_refuted : exists e app rs c e3 w3 e4 w4,
  run_chain toy (open_eng db0) [] [([], fifo, c1)] = Some (e, app) /\ all_valid toy e rs = true /\
  commit_chunk toy fifo (fold_left (serve toy) rs e) c = Some (e3, w3) /\ commit_chunk toy fifo (open_eng (e_db e)) c = Some (e4, w4) /\
  d_log (e_db e3) !! make_event_id 2 1 = Some [2; 8; 3] /\ d_log (e_db e4) !! make_event_id 2 1 = Some [2; 7; 3].
Proof.
  destruct chain1 as (app & R & _).
  destruct (two_ex (commit_chunk toy fifo (fold_left (serve toy) late e1) (chunk_of 2 pA)) (commit_chunk toy fifo (open_eng (e_db e1)) (chunk_of 2 pA))
    (fun x y => bool_decide (d_log (e_db x.1) !! make_event_id 2 1 = Some [2; 8; 3] /\ d_log (e_db y.1) !! make_event_id 2 1 = Some [2; 7; 3])))
    as ([e3 w3] & [e4 w4] & X & Y & Z%bool_decide_eq_true); [vm_compute; reflexivity|].
  assert (V : all_valid toy e1 late = true) by (vm_compute; reflexivity).
  exists e1, app, late, (chunk_of 2 pA), e3, w3, e4, w4. exact (conj R (conj V (conj X (conj Y Z)))).
Qed.

(** C37: a block of new messages, whose repetition is rejected as a whole. *)
Definition cq : chunk := chunk_of 2 (made fifo e1 2 [bare 1 [IBlock 2 [12] [5; 1; 5]] [[2; 7; 3]; [2; 5; 3]]; bare 2 [] [[2; 8; 3]]]).

Lemma some_ex {A} (x : option A) (f : A -> bool) : match x with Some a => f a | None => false end = true -> exists a, x = Some a /\ f a = true.
Proof. destruct x as [a|]; [|done]. intros H. by exists a. Qed.

(** The hypotheses of the theorem as booleans. *)
Definition rejected_b (d : db) (t : N) (tx : txn) : bool :=
  let v := View (d_rows d) ∅ (d_trie d) in
  let m1 := bodies toy t v (t_fid tx) (plain (t_sys tx)) in
  let m3 := m1 ++ bodies toy t v (t_fid tx) (t_user tx) in
  forallb (fun m => forallb (fun a => bool_decide (a_rows a = ∅ /\ a_ins a = ∅ /\ a_del a = ∅)) (toy_item t v (t_fid tx) m)) (plain (t_sys tx) ++ t_user tx) &&
  forallb (fun s => negb (s =? max_seqnum (d_bev d) + 1)) (numbers (t_sys tx)) &&
  match toy_tail 0 t v (t_fid tx) m1, toy_tail 1 t v (t_fid tx) m3, toy_tail 2 t v (t_fid tx) m3 with [], [], [] => true | _, _, _ => false end.

Lemma rejected_b_spec d t tx : rejected_b d t tx = true -> rejected toy d t tx.
Proof.
  unfold rejected_b, rejected. cbv zeta. intros [[H1 H2]%andb_prop H3]%andb_prop.
  split; [|split].
  - rewrite Forall_forall. intros m Hm. rewrite forallb_forall in H1. specialize (H1 m (proj1 (elem_of_list_In _ _) Hm)).
    rewrite Forall_forall. intros a Ha. rewrite forallb_forall in H1. specialize (H1 a (proj1 (elem_of_list_In _ _) Ha)).
    by apply bool_decide_eq_true in H1.
  - rewrite Forall_forall. intros m Hm. rewrite forallb_forall in H2. specialize (H2 m (proj1 (elem_of_list_In _ _) Hm)). lia.
  - change (x_tail toy) with toy_tail. destruct (toy_tail 0 _ _ _ _); [|done]. destruct (toy_tail 1 _ _ _ _); [|done].
    by destruct (toy_tail 2 _ _ _ _).
Qed.

Definition quiet_b (d : db) (t : N) (tx : txn) : bool := rejected_b d t tx && beq (x_acct toy (d_trie d) (t_fid tx)) (t_root tx).
Lemma quiet_b_spec d t tx : quiet_b d t tx = true -> quiet toy d t tx.
Proof. intros [H1%rejected_b_spec H2%beq_true]%andb_prop. by split. Qed.

(** The repetition succeeds with the same rows and trie, but the events of the height are now failures. *)
Example C37_between_writes_ex : exists w, commit_first toy fifo e1 cq = Some w /\
  let d1 := write (e_db e1) w in Forall (quiet toy d1 (c_time cq)) (c_txns cq) /\
  d_log d1 !! make_event_id 2 2 = Some [2; 7; 3] /\
  exists e' w', commit_chunk toy lifo (open_eng d1) cq = Some (e', w') /\ d_rows (e_db e') = d_rows d1 /\ d_trie (e_db e') = d_trie d1 /\
    w_evs w' = [(make_event_id 2 0, confirmed); (make_event_id 2 1, [9; 2; 7; 3]); (make_event_id 2 2, [9; 2; 5; 3]); (make_event_id 2 3, [9; 2; 8; 3])].
Proof.
  destruct (some_ex (commit_first toy fifo e1 cq) (fun w => let d1 := write (e_db e1) w in
    forallb (quiet_b d1 (c_time cq)) (c_txns cq) && bool_decide (d_log d1 !! make_event_id 2 2 = Some [2; 7; 3]) &&
    (length (flat_map (quiet_evs toy d1 (c_time cq)) (c_txns cq)) =? 3)%nat &&
    match commit_chunk toy lifo (open_eng d1) cq with Some (_, w') =>
      bool_decide (w_evs w' = [(make_event_id 2 0, confirmed); (make_event_id 2 1, [9; 2; 7; 3]); (make_event_id 2 2, [9; 2; 5; 3]); (make_event_id 2 3, [9; 2; 8; 3])])
    | None => false end)) as (w & C & H); [vm_compute; reflexivity|].
  exists w. split; [exact C|]. cbv zeta in *. apply andb_prop in H as [H H4]. apply andb_prop in H as [H H3%Nat.eqb_eq]. apply andb_prop in H as [H1 H2%bool_decide_eq_true].
  assert (Q : Forall (quiet toy (write (e_db e1) w) (c_time cq)) (c_txns cq)).
  { rewrite Forall_forall. intros tx Hx. apply quiet_b_spec. rewrite forallb_forall in H1. apply H1. by apply elem_of_list_In. }
  split; [exact Q|]. split; [exact H2|]. destruct chain1 as (app & R & _).
  destruct (C37_between_writes_partial toy _ e1 app [] fifo cq w lifo R C lifo_order Q) as (e' & w' & X & D1 & _ & D3 & _).
  { done. } { rewrite H3. done. }
  exists e', w'. rewrite X in H4. apply bool_decide_eq_true in H4. exact (conj X (conj D1 (conj D3 H4))).
Qed.

(** A block in which account 1 acts and is afterwards acted upon by account 2 (a name transferred away from it): after the
    first write its account root is no longer the claimed one. *)
Definition cw : chunk := chunk_of 2 (made fifo e1 2 [bare 1 [] [[2; 7; 3]]; bare 2 [IMsg [6; 1; 7; 1]] []]).

(** False of C37 as stated: the node panics on the block it has already written, after every restart. *)
Theorem C37_wedge_refuted : exists e app o c w, run_chain toy (open_eng db0) [] [([], fifo, c1)] = Some (e, app) /\
  commit_first toy o e c = Some w /\ is_Some (commit_chunk toy o e c) /\
  (forall o', is_order o' -> commit_chunk toy o' (open_eng (write (e_db e) w)) c = None).
Proof.
  destruct chain1 as (app & R & _).
  destruct (two_ex (commit_first toy fifo e1 cw) (commit_chunk toy fifo e1 cw) (fun w _ => let d1 := write (e_db e1) w in
     match c_txns cw with tx :: _ => rejected_b d1 2 tx && negb (beq (x_acct toy (d_trie d1) (t_fid tx)) (t_root tx)) &&
       (length (quiet_evs toy d1 2 tx) =? 1)%nat | [] => false end)) as (w & y & C & D & H); [vm_compute; reflexivity|].
  exists e1, app, fifo, cw, w. split; [exact R|]. split; [exact C|]. split; [by exists y|]. intros o' O'. clear D y C R app. cbv zeta in H.
  destruct (c_txns cw) as [|tx r] eqn:X; [done|]. apply andb_prop in H as [H H3%Nat.eqb_eq]. apply andb_prop in H as [H1%rejected_b_spec H2%negb_true_iff].
  apply (C37_wedge toy o' _ cw tx r O' X H1); [|done|].
  - intros A. apply beq_true in A. congruence.
  - change (c_time cw) with 2. by rewrite H3.
Qed.

(** C38: block events delivered with a repetition, one out of order and one missing. *)
Definition pE : proposal := made fifo e1 2 [bare 1 [IBlock 2 [12] [5; 3; 5]; IBlock 1 [11] [5; 3; 6]; IBlock 4 [14] [5; 3; 4]] []; bare 3 [IBlock 3 [13] [5; 3; 3]; IBlock 6 [16] []] []].

Example C38_ex : exists w, replay toy fifo (e_db e1) 2 (wip0 (e_db e1) (e_mem e1) (set_current_height 2)) (p_txns pE) (p_root pE) = (w, true) /\
  w_app w = [(2, [5; 3; 5]); (3, [5; 3; 3])] /\ delivered (p_txns pE) = [2; 1; 4; 3; 6] /\ max_seqnum (d_bev (e_db e1)) = 1.
Proof.
  destruct (some_ex (let '(w, b) := replay toy fifo (e_db e1) 2 (wip0 (e_db e1) (e_mem e1) (set_current_height 2)) (p_txns pE) (p_root pE) in if b then Some w else None)
    (fun w => bool_decide (w_app w = [(2, [5; 3; 5]); (3, [5; 3; 3])] /\ delivered (p_txns pE) = [2; 1; 4; 3; 6] /\ max_seqnum (d_bev (e_db e1)) = 1)))
    as (w & H & X%bool_decide_eq_true); [vm_compute; reflexivity|].
  destruct (replay _ _ _ _ _ _ _) as [w' [|]]; [|discriminate]. apply (inj Some) in H. subst w'. by exists w.
Qed.

(** False of C38 as stated: a proposer that has pulled events 2 and 3 in this order puts them, being of different accounts, in
    two transactions whose order is that of a hash map; event 3 may come first and is then dropped by every node. *)
Theorem C38_grouping_refuted : exists e app msgs fids p e', run_chain toy (open_eng db0) [] [([], fifo, c1)] = Some (e, app) /\
  max_seqnum (d_bev (e_db e)) = 1 /\ numbers msgs.*2 = [2; 3] /\ NoDup fids /\ (forall f, f ∈ fids <-> f ∈ msgs.*1) /\
  propose toy fifo (start_round e 2) 2 (group fids msgs) = (p, e') /\ delivered (p_txns p) = [3; 2] /\
  match commit_chunk toy fifo e' (chunk_of 2 p) with Some (_, w) => w_app w = [(2, [5; 7; 1])] | None => False end.
Proof.
  assert (ND : NoDup [8; 7]) by (apply (bool_decide_eq_true_1 _); vm_compute; reflexivity).
  assert (F : forall f : N, f ∈ [8; 7] <-> f ∈ [7; 8]) by (intros f; rewrite !elem_of_cons; tauto).
  destruct chain1 as (app & R & _). set (msgs := [(7, IBlock 2 [12] [5; 7; 1]); (8, IBlock 3 [13] [5; 8; 1])]).
  assert (H : let '(p, e') := propose toy fifo (start_round e1 2) 2 (group [8; 7] msgs) in
    bool_decide (max_seqnum (d_bev (e_db e1)) = 1 /\ delivered (p_txns p) = [3; 2]) &&
    match commit_chunk toy fifo e' (chunk_of 2 p) with Some (_, w) => bool_decide (w_app w = [(2, [5; 7; 1])]) | None => false end = true) by (vm_compute; reflexivity).
  exists e1, app, msgs, [8; 7]. destruct (propose toy fifo (start_round e1 2) 2 (group [8; 7] msgs)) as [p e'] eqn:P. exists p, e'.
  apply andb_prop in H as [[H1 H2]%bool_decide_eq_true H3]. split; [exact R|]. split; [exact H1|]. split; [reflexivity|]. split; [exact ND|]. split; [exact F|].
  split; [reflexivity|]. split; [exact H2|].
  destruct (commit_chunk toy fifo e' (chunk_of 2 p)) as [[e3 w]|]; [|discriminate H3]. exact (bool_decide_eq_true_1 _ H3).
Qed.

(** The content of a block event is not compared with its hash or with shard 0: two proposals with the same number and hash
    and different contents are both accepted by every validator. *)
Theorem C38_forged_refuted : exists e app h m m' p p', run_chain toy (open_eng db0) [] [([], fifo, c1)] = Some (e, app) /\ m <> m' /\
  t_sys <$> p_txns p = [[IBlock 2 h m]] /\ t_sys <$> p_txns p' = [[IBlock 2 h m']] /\
  (validate toy fifo e 2 p).1 = true /\ (validate toy fifo e 2 p').1 = true /\ p_root p <> p_root p'.
Proof.
  destruct chain1 as (app & R & _).
  exists e1, app, [12], [5; 3; 5], [5; 3; 4], (made fifo e1 2 [bare 1 [IBlock 2 [12] [5; 3; 5]] []]), (made fifo e1 2 [bare 1 [IBlock 2 [12] [5; 3; 4]] []]).
  split; [exact R|]. split; [done|]. split; [vm_compute; reflexivity|]. split; [vm_compute; reflexivity|].
  split; [vm_compute; reflexivity|]. split; [vm_compute; reflexivity|]. apply (bool_decide_eq_false_1 _). vm_compute. reflexivity.
Qed.

(** C39: two blocks with revocations, validated before they are committed. *)
Definition l2 : list (list req * order * chunk) :=
  [([], fifo, c1); ([RRound 2; RValidate lifo 2 (made fifo e1 2 tx2)], fifo, chunk_of 2 (made fifo e1 2 tx2))].

Fixpoint chain_valid_b E (e : eng) (l : list (list req * order * chunk)) : bool :=
  match l with
  | [] => true
  | (rs, o, c) :: r => all_valid E e rs && match height_step E e rs o c with Some (e', _) => chain_valid_b E e' r | None => true end
  end.
Lemma chain_valid_of E (l : list (list req * order * chunk)) : forall (e : eng), chain_valid_b E e l = true ->
  Forall (fun x => is_order x.1.2 /\ Forall (req_order is_order) x.1.1) l -> chain_valid E e l.
Proof.
  induction l as [|[[rs o] c] l IH]; intros e H F; [done|]. apply Forall_cons in F as [[F1 F2] F]. cbn [chain_valid_b] in H.
  apply andb_prop in H as [H1 H2]. cbn [chain_valid]. split; [done|]. split; [done|]. split; [done|].
  destruct (height_step E e rs o c) as [[e' a]|]; [|done]. by apply IH.
Qed.

Example C39_ex : chain_valid toy (open_eng db0) l2 /\ exists e app, run_chain toy (open_eng db0) [] l2 = Some (e, app) /\
  d_trie (e_db e) = dom (d_rows (e_db e)) /\ bool_decide (size (d_trie (e_db e)) = 6%nat) = true.
Proof.
  assert (V : chain_valid toy (open_eng db0) l2) by (apply chain_valid_of; [vm_compute; reflexivity|repeat constructor; (apply fifo_order || apply lifo_order)]).
  split; [exact V|].
  destruct (some_ex (run_chain toy (open_eng db0) [] l2) (fun x => bool_decide (size (d_trie (e_db x.1)) = 6%nat))) as ([e app] & R & S); [vm_compute; reflexivity|].
  exists e, app. split; [exact R|]. split; [|exact S]. exact (C39_mirror_partial toy dom _ _ _ toy_faithful dom_empty_L V R).
Qed.

Print Assumptions C35_history_irrelevant.
Print Assumptions C35_accepted_partial.
Print Assumptions C35_accepted_same_order.
Print Assumptions C36_cached_is_replay_partial.
Print Assumptions C36_cached_any_order_partial.
Print Assumptions C36_root_is_header.
Print Assumptions C36_unconfirmable_refuted.
Print Assumptions C36_late_decision_refuted.
Print Assumptions C37_before_write_partial.
Print Assumptions C37_between_writes_partial.
Print Assumptions C37_wedge.
Print Assumptions C37_wedge_refuted.
Print Assumptions C38_applied_in_order.
Print Assumptions C38_applied_iff_delivered.
Print Assumptions C38_gap_stalls.
Print Assumptions C38_consumed_unconditionally.
Print Assumptions C38_grouping_refuted.
Print Assumptions C38_forged_refuted.
Print Assumptions C39_mirror_partial.
