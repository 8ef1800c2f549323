(** C35, C36, C39 for blocks with more hub events than a block has ids (16383 besides BLOCK_CONFIRMED).

    The blocks are too long to be run; the long transaction in them is dealt with by induction, the rest is computed. *)
From stdpp Require Import gmap sorting.
From Coq Require Import ZifyN ZifyNat ZifyBool.
From Verif Require Import Base Codec Kv Engine EngineProofs EngineSeq PropEngine.
#[local] Open Scope N_scope.

(** [w] with the events [l] before its own. *)
Definition pre (l : list (N * bytes)) (w : wip) : wip :=
  Wip (w_rows w) (w_bev w) (w_trie w) (w_gen w) (w_last w) (l ++ w_evs w) (w_app w).

Section E.
  Context (E : env).

  Lemma act_pre l w a : act (pre l w) a = pre l (act w a).
  Proof. unfold act. cbn [pre w_gen w_rows w_trie]. destruct (generate_id false (w_gen w)) as [[id| |] g]; try done. unfold pre. cbn. by rewrite (assoc_L app). Qed.
  Lemma acts_pre l r w : acts (pre l w) r = pre l (acts w r).
  Proof. revert w. induction r as [|a r IH]; intros w; [done|]. cbn [acts fold_left]. rewrite act_pre. apply IH. Qed.
  Lemma do_item_pre l d t fid w i : do_item E d t fid (pre l w) i = pre l (do_item E d t fid w i).
  Proof.
    destruct i as [m|s h m]; cbn [do_item]; [apply acts_pre|]. cbn [pre w_last]. destruct (s =? w_last w + 1); [|done].
    change (take_event (pre l w) s h m) with (pre l (take_event w s h m)). apply acts_pre.
  Qed.
  Lemma do_items_pre l d t fid r w : do_items E d t fid (pre l w) r = pre l (do_items E d t fid w r).
  Proof. revert w. induction r as [|a r IH]; intros w; [done|]. cbn [do_items fold_left]. rewrite do_item_pre. apply IH. Qed.
  Lemma new_evs_pre l w w' : new_evs (pre l w) (pre l w') = new_evs w w'.
  Proof. unfold new_evs. cbn [pre w_evs]. rewrite fmap_app, app_length, <- (fmap_length snd l), <- drop_drop, drop_app. done. Qed.
  Lemma do_tail_pre l o d t ph fid m w : do_tail E o d t ph fid m (pre l w) = pre l (do_tail E o d t ph fid m w).
  Proof. apply acts_pre. Qed.
  Lemma run_txn_pre l o d t w tx : run_txn E o d t (pre l w) tx = pre l (run_txn E o d t w tx).
  Proof. unfold run_txn. cbv zeta. by rewrite !(do_items_pre l), !new_evs_pre, !(do_tail_pre l), !(do_items_pre l), !new_evs_pre, !(do_tail_pre l). Qed.
  Lemma replay_txns_pre l o d t r w : replay_txns E o d t (pre l w) r = let '(w', ok) := replay_txns E o d t w r in (pre l w', ok).
  Proof. revert w. induction r as [|tx r IH]; intros w; [done|]. cbn [replay_txns]. rewrite run_txn_pre. cbn [pre w_trie]. destruct (beq _ _); [apply IH|done]. Qed.
  Lemma replay_pre l o d t r w root : replay E o d t (pre l w) r root = let '(w', ok) := replay E o d t w r root in (pre l w', ok).
  Proof. unfold replay. rewrite replay_txns_pre. by destruct (replay_txns E o d t w r). Qed.
  Lemma prepare_pre l o d t r w : prepare E o d t (pre l w) r = let '(w', r') := prepare E o d t w r in (pre l w', r').
  Proof.
    revert w. induction r as [|tx r IH]; intros w; [done|]. cbn [prepare]. rewrite run_txn_pre, IH. cbn [pre w_trie].
    by destruct (prepare E o d t (run_txn E o d t w tx) r).
  Qed.

  (** [w] with [n] ids used. *)
  Definition used (n : N) (w : wip) : wip :=
    Wip (w_rows w) (w_bev w) (w_trie w) {| ig_height := ig_height (w_gen w); ig_seq := N.max 1 (ig_seq (w_gen w)) + n |} (w_last w) [] (w_app w).

  #[local] Transparent generate_id.
  Lemma act_used w b : ok_gen (w_gen w) = true -> exists id, act w (Act ∅ ∅ ∅ b) = pre (w_evs w ++ [(id, b)]) (used 1 w).
  Proof.
    unfold ok_gen, act, generate_id, used, pre. intros [H1 H2]%andb_prop.
    destruct (2 ^ HEIGHT_BITS <=? ig_height (w_gen w)) eqn:A; [exfalso; clear H2; lia|]. clear H1 A.
    destruct (2 ^ SEQUENCE_BITS <=? ig_seq (w_gen w)) eqn:B; [exfalso; lia|]. clear H2 B.
    cbn [a_rows a_ins a_del a_body w_rows w_bev w_trie w_gen w_last w_evs w_app]. eexists.
    rewrite (left_id_L ∅ (∪)). replace ((w_trie w ∪ ∅) ∖ ∅) with (w_trie w) by set_solver. rewrite (right_id_L [] (++)).
    do 2 f_equal. destruct (ig_seq (w_gen w) =? 0) eqn:Z; lia.
  Qed.
  #[local] Opaque generate_id.

  (** [n + 1] times a message that is rejected. *)
  Lemma fail_items d t fid m b n : forall w : wip, x_item E t (view_of d w) fid m = [Act ∅ ∅ ∅ b] ->
    ig_height (w_gen w) < 2 ^ HEIGHT_BITS -> N.max 1 (ig_seq (w_gen w)) + N.of_nat n < 2 ^ SEQUENCE_BITS ->
    exists l, do_items E d t fid w (map IMsg (repeat m (S n))) = pre l (used (N.of_nat (S n)) w).
  Proof.
    induction n as [|n IH]; intros w X H1 H2.
    - assert (K : ok_gen (w_gen w) = true) by (unfold ok_gen; apply andb_true_iff; rewrite !N.ltb_lt; split; [done|clear H1; lia]).
      cbn [repeat map do_items fold_left do_item]. rewrite X. cbn [acts fold_left]. destruct (act_used w b K) as [id ->]. by eexists.
    - assert (K : ok_gen (w_gen w) = true) by (unfold ok_gen; apply andb_true_iff; rewrite !N.ltb_lt; split; [done|clear H1; lia]).
      change (repeat m (S (S n))) with (m :: repeat m (S n)). cbn [map]. cbn [do_items fold_left do_item]. rewrite X. cbn [acts fold_left].
      destruct (act_used w b K) as [id ->]. fold (do_items E d t fid (pre (w_evs w ++ [(id, b)]) (used 1 w)) (map IMsg (repeat m (S n)))).
      destruct (IH (pre (w_evs w ++ [(id, b)]) (used 1 w))) as [l ->]; [done|done|cbn [pre used w_gen ig_seq]; clear H1; lia|].
      eexists. unfold used, pre. cbn [w_rows w_bev w_trie w_gen w_last w_evs w_app ig_height ig_seq].
      replace (N.max 1 (N.max 1 (ig_seq (w_gen w)) + 1) + N.of_nat (S n)) with (N.max 1 (ig_seq (w_gen w)) + N.of_nat (S (S n))) by (clear; lia). done.
  Qed.
End E.

(** [n] rejected messages of account 2. *)
Definition flood (n : N) (root : bytes) : txn := Txn 2 [] (repeat [2; 1; 1] (N.to_nat n)) root.

Lemma flood_txn o d t n w root : is_order o -> has (view_of d w) [1; 2; 1] = false ->
  ig_height (w_gen w) < 2 ^ HEIGHT_BITS -> ig_seq (w_gen w) = 0 -> 1 <= n < 2 ^ SEQUENCE_BITS ->
  exists l, run_txn toy o d t w (flood n root) = pre l (used n w).
Proof.
  intros O X H1 H2 H3. unfold run_txn. cbn [flood t_fid t_sys t_user]. cbv zeta.
  replace (N.to_nat n) with (S (N.to_nat (n - 1))) by lia.
  assert (M : new_evs w (do_items toy d t 2 w []) = []) by (unfold new_evs; cbn [do_items fold_left]; rewrite <- (fmap_length snd); apply drop_all).
  rewrite M. assert (T : do_tail toy o d t 0 2 [] (do_items toy d t 2 w []) = w).
  { unfold do_tail. cbn. by rewrite (Permutation_nil (Permutation_sym (O []))). }
  rewrite T. destruct (fail_items toy d t 2 [2; 1; 1] [9; 2; 1; 1] (N.to_nat (n - 1)) w) as [l L].
  - cbn [toy x_item toy_item]. rewrite X. done.
  - done.
  - rewrite H2. clear H1. lia.
  - rewrite L. exists l. unfold do_tail. cbn [toy x_tail toy_tail N.eqb]. cbn [acts fold_left concat].
    rewrite (Permutation_nil (Permutation_sym (O []))). cbn [acts fold_left concat]. by replace (N.of_nat (S (N.to_nat (n - 1)))) with n by lia.
Qed.

(** A block of height 2 starting with the long transaction: it leaves the trie as it is. *)
Definition w2 (d : db) : wip := wip0 d (d_trie d) (set_current_height 2).
Definition root2 (d : db) : bytes := x_acct toy (d_trie d) 2.
Definition no_signer (d : db) : bool := negb (has (View (d_rows d) ∅ (d_trie d)) [1; 2; 1]).

Lemma flood_w2 d o t n root : no_signer d = true -> is_order o -> 1 <= n < 2 ^ SEQUENCE_BITS -> exists l, run_txn toy o d t (w2 d) (flood n root) = pre l (used n (w2 d)).
Proof. intros S O N. apply negb_true_iff in S. apply flood_txn; [exact O|exact S|done|done|exact N]. Qed.

Lemma flood_prepare d o t n root txs : no_signer d = true -> is_order o -> 1 <= n < 2 ^ SEQUENCE_BITS ->
  exists l, prepare toy o d t (w2 d) (flood n root :: txs) = let '(w, l') := prepare toy o d t (used n (w2 d)) txs in (pre l w, flood n (root2 d) :: l').
Proof.
  intros S O N. destruct (flood_w2 d o t n root S O N) as [l L]. exists l. cbn [prepare]. rewrite L, prepare_pre.
  by destruct (prepare toy o d t (used n (w2 d)) txs).
Qed.

Lemma flood_replay d o t n txs root : no_signer d = true -> is_order o -> 1 <= n < 2 ^ SEQUENCE_BITS ->
  exists l, replay toy o d t (w2 d) (flood n (root2 d) :: txs) root = let '(w, ok) := replay toy o d t (used n (w2 d)) txs root in (pre l w, ok).
Proof.
  intros S O N. destruct (flood_w2 d o t n (root2 d) S O N) as [l L]. exists l. rewrite <- replay_pre, <- L. unfold replay. cbn [replay_txns]. rewrite L.
  cbn [pre used w_trie flood t_fid t_root]. change (x_acct toy (w_trie (w2 d)) 2) with (root2 d). by rewrite beq_refl.
Qed.

Lemma no_signer1 : no_signer (e_db e1) = true.
Proof. vm_compute. reflexivity. Qed.
Lemma mem1 : e_mem e1 = d_trie (e_db e1).
Proof. destruct chain1 as (app & R & _). assert (G : good e1) by (eapply chain_good; [|exact R]; done). exact G. Qed.

(** The hypotheses of [C36_unconfirmable_refuted]: a valid block of 16383 rejected messages. *)
Lemma unconfirmable_on e : no_signer (e_db e) = true -> e_mem e = d_trie (e_db e) ->
  exists p e', validate toy fifo e 2 p = (true, e') /\ 2 ^ SEQUENCE_BITS <= ig_seq (e_gen e').
Proof.
  intros S M. exists (Proposal 2 [flood 16383 (root2 (e_db e))] (x_root toy (d_trie (e_db e)))).
  destruct (flood_replay (e_db e) fifo 2 16383 [] (x_root toy (d_trie (e_db e))) S fifo_order ltac:(done)) as [l L].
  unfold validate. cbn [p_time p_txns p_root]. rewrite M. fold (w2 (e_db e)). rewrite L. cbn [replay replay_txns used w2 wip0 w_trie].
  rewrite beq_refl. eexists. split; [reflexivity|]. done.
Qed.
Example C36_unconfirmable_ex : exists p e, validate toy fifo e1 2 p = (true, e) /\ 2 ^ SEQUENCE_BITS <= ig_seq (e_gen e).
Proof. exact (unconfirmable_on e1 no_signer1 mem1). Qed.

(** False of C36 as stated: a second proposal for the height, rejected for its roots, uses up the ids; the node then panics
    on the decided block it has validated, while any other node commits it. *)
Lemma poisoned e p : no_signer (e_db e) = true -> e_mem e = d_trie (e_db e) -> (validate toy fifo e 2 p).1 = true ->
  beq (x_root toy (d_trie (e_db e))) [] = false ->
  let q := Proposal 2 [flood 16383 (root2 (e_db e))] [] in
  (validate toy fifo e 2 q).1 = false /\
  commit_chunk toy fifo (fold_left (serve toy) [RRound 2; RValidate fifo 2 p; RValidate fifo 2 q] e) (chunk_of 2 p) = None.
Proof.
  intros S M V B q. destruct (flood_replay (e_db e) fifo 2 16383 [] [] S fifo_order ltac:(done)) as [l L].
  cbn [replay replay_txns used w2 wip0 w_trie andb] in L. rewrite B in L. split.
  - unfold validate. cbn [q p_time p_txns p_root]. rewrite M. fold (w2 (e_db e)). by rewrite L.
  - cbn [fold_left serve]. unfold validate at 2. cbn [start_round e_db e_mem]. unfold validate in V.
    destruct (replay toy fifo (e_db e) (p_time p) (wip0 (e_db e) (e_mem e) (set_current_height 2)) (p_txns p) (p_root p)) as [w ok]. cbn [fst snd] in *. subst ok.
    unfold validate. cbn [q e_db e_mem e_pend p_time p_txns p_root]. fold (w2 (e_db e)). rewrite L. cbn [snd].
    unfold commit_chunk, commit_first. cbn [e_pend e_gen e_db]. unfold cache_hit. cbn [pd_root pd_bev pd_w chunk_of c_root c_txns]. rewrite !beq_refl. cbn [andb].
    by rewrite confirm_bad.
Qed.
Theorem C36_failed_validation_refuted : exists e app p q, run_chain toy (open_eng db0) [] [([], fifo, c1)] = Some (e, app) /\
  (validate toy fifo e 2 p).1 = true /\ (validate toy fifo e 2 q).1 = false /\
  commit_chunk toy fifo (fold_left (serve toy) [RRound 2; RValidate fifo 2 p; RValidate fifo 2 q] e) (chunk_of 2 p) = None /\
  is_Some (commit_chunk toy fifo (open_eng (e_db e)) (chunk_of 2 p)).
Proof.
  destruct chain1 as (app & R & _). exists e1, app, pA, (Proposal 2 [flood 16383 (root2 (e_db e1))] []).
  assert (V : (validate toy fifo e1 2 pA).1 = true) by (vm_compute; reflexivity).
  assert (B : beq (x_root toy (d_trie (e_db e1))) [] = false) by (vm_compute; reflexivity).
  destruct (some_ex (commit_chunk toy fifo (open_eng (e_db e1)) (chunk_of 2 pA)) (fun _ => true)) as (x & X & _); [vm_compute; reflexivity|].
  destruct (poisoned e1 pA no_signer1 mem1 V B) as [W C]. exact (conj R (conj V (conj W (conj C (ex_intro _ x X))))).
Qed.

(** False of C35 as stated: when ids run out between two revoked signers, which of the two keeps its trie keys depends on the
    iteration order of a hash set: an honest proposal is rejected. *)
Lemma split_on e txs : no_signer (e_db e) = true -> e_mem e = d_trie (e_db e) ->
  (let '(w, l') := prepare toy fifo (e_db e) 2 (used 16380 (w2 (e_db e))) txs in
    (replay toy lifo (e_db e) 2 (used 16380 (w2 (e_db e))) l' (x_root toy (w_trie w))).2 = false) ->
  (validate toy lifo e 2 (propose toy fifo (start_round e 2) 2 (flood 16380 [] :: txs)).1).1 = false.
Proof.
  intros S M Z. destruct (flood_prepare (e_db e) fifo 2 16380 [] txs S fifo_order ltac:(done)) as [l L].
  unfold propose. cbn [start_round e_db e_mem e_gen]. rewrite M. fold (w2 (e_db e)). rewrite L.
  destruct (prepare toy fifo (e_db e) 2 (used 16380 (w2 (e_db e))) txs) as [w l']. cbn [fst]. unfold validate. cbn [p_time p_txns p_root pre w_trie].
  destruct (flood_replay (e_db e) lifo 2 16380 l' (x_root toy (w_trie w)) S lifo_order ltac:(done)) as [l2 L2].
  rewrite M. fold (w2 (e_db e)). rewrite L2. by destruct (replay toy lifo (e_db e) 2 (used 16380 (w2 (e_db e))) l' (x_root toy (w_trie w))) as [w3 ok].
Qed.
Definition two_gone : list txn := [bare 1 [IMsg [3; 7]; IMsg [3; 9]] []].
Theorem C35_order_refuted : exists e app o o' txs, run_chain toy (open_eng db0) [] [([], fifo, c1)] = Some (e, app) /\
  is_order o /\ is_order o' /\ (validate toy o' e 2 (propose toy o (start_round e 2) 2 txs).1).1 = false.
Proof.
  destruct chain1 as (app & R & _). exists e1, app, fifo, lifo, (flood 16380 [] :: two_gone).
  assert (Z : let '(w, l') := prepare toy fifo (e_db e1) 2 (used 16380 (w2 (e_db e1))) two_gone in
    (replay toy lifo (e_db e1) 2 (used 16380 (w2 (e_db e1))) l' (x_root toy (w_trie w))).2 = false) by (vm_compute; reflexivity).
  exact (conj R (conj fifo_order (conj lifo_order (split_on e1 two_gone no_signer1 mem1 Z)))).
Qed.

(** False of C39 as stated: a block whose last message got no id is cached; a failing validation resets the ids; the cached
    block is then committed: a row without trie key. *)
Lemma lost_on e txs k : no_signer (e_db e) = true -> e_mem e = d_trie (e_db e) ->
  (let '(w, ok) := replay toy fifo (e_db e) 2 (used 16383 (w2 (e_db e))) txs (x_root toy (d_trie (e_db e))) in
    ok && bool_decide (commit (d_rows (e_db e)) (w_rows w) !! k = Some [] /\ k ∉ w_trie w) = true) ->
  (let '(w, ok) := replay toy fifo (e_db e) 2 (w2 (e_db e)) [] [] in negb ok && ok_gen (w_gen w) = true) ->
  let p := Proposal 2 (flood 16383 (root2 (e_db e)) :: txs) (x_root toy (d_trie (e_db e))) in
  exists e' w, commit_chunk toy fifo (fold_left (serve toy) [RRound 2; RValidate fifo 2 p; RValidate fifo 2 (Proposal 2 [] [])] e) (chunk_of 2 p) = Some (e', w) /\
    is_Some (d_rows (e_db e') !! k) /\ k ∉ d_trie (e_db e').
Proof.
  intros S M Z Y p. destruct (flood_replay (e_db e) fifo 2 16383 txs (x_root toy (d_trie (e_db e))) S fifo_order ltac:(done)) as [l L].
  destruct (replay toy fifo (e_db e) 2 (used 16383 (w2 (e_db e))) txs (x_root toy (d_trie (e_db e)))) as [w ok]. apply andb_prop in Z as [-> [Z1 Z2]%bool_decide_eq_true].
  cbn [fold_left serve]. unfold validate at 2. cbn [start_round e_db e_mem p_time p_txns p_root p]. rewrite M. fold (w2 (e_db e)). rewrite L. cbn [snd].
  unfold validate. cbn [e_db e_mem e_pend p_time p_txns p_root]. fold (w2 (e_db e)).
  destruct (replay toy fifo (e_db e) 2 (w2 (e_db e)) [] []) as [w3 ok]. apply andb_prop in Y as [Y G]. apply negb_true_iff in Y as ->. cbn [snd].
  unfold commit_chunk, commit_first. cbn [e_pend e_gen e_db]. unfold cache_hit. cbn [pd_root pd_bev pd_w chunk_of c_root c_txns p_root p_txns p]. rewrite !beq_refl. cbn [andb].
  destruct (confirm_ok _ (pre l w) G) as (id & w4 & _ & -> & ->). do 2 eexists. split; [reflexivity|]. exact (conj (ex_intro _ _ Z1) Z2).
Qed.
Definition txX : list txn := (prepare toy fifo (e_db e1) 2 (used 16383 (w2 (e_db e1))) [bare 1 [IMsg [1; 5]] []]).2.
Theorem C39_lost_key_refuted : exists e app rs c e' w k, run_chain toy (open_eng db0) [] [([], fifo, c1)] = Some (e, app) /\
  faithful toy dom /\ commit_chunk toy fifo (fold_left (serve toy) rs e) c = Some (e', w) /\
  is_Some (d_rows (e_db e') !! k) /\ k ∉ d_trie (e_db e').
Proof.
  destruct chain1 as (app & R & _).
  assert (Z : let '(w, ok) := replay toy fifo (e_db e1) 2 (used 16383 (w2 (e_db e1))) txX (x_root toy (d_trie (e_db e1))) in
    ok && bool_decide (commit (d_rows (e_db e1)) (w_rows w) !! [1; 1; 5] = Some [] /\ [1; 1; 5] ∉ w_trie w) = true) by (vm_compute; reflexivity).
  assert (Y : let '(w, ok) := replay toy fifo (e_db e1) 2 (w2 (e_db e1)) [] [] in negb ok && ok_gen (w_gen w) = true) by (vm_compute; reflexivity).
  destruct (lost_on e1 txX [1; 1; 5] no_signer1 mem1 Z Y) as (e' & w & C & K1 & K2).
  exact (ex_intro _ e1 (ex_intro _ app (ex_intro _ _ (ex_intro _ _ (ex_intro _ e' (ex_intro _ w (ex_intro _ [1; 1; 5] (conj R (conj toy_faithful (conj C (conj K1 K2))))))))))).
Qed.

Print Assumptions C36_failed_validation_refuted.
Print Assumptions C35_order_refuted.
Print Assumptions C39_lost_key_refuted.
