(** Block-event numbering, trie mirroring and re-committing in the data-shard engine. *)
From stdpp Require Import gmap sorting.
From Coq Require Import ZifyN ZifyNat ZifyBool.
From Verif Require Import Base Codec Kv Engine EngineProofs.
#[local] Open Scope N_scope.

(** [a, a+1, ..., a+n-1] *)
Fixpoint nums (a : N) (n : nat) : list N := match n with O => [] | S n' => a :: nums (a + 1) n' end.

Lemma nums_len a n : length (nums a n) = n.
Proof. revert a. induction n; intros a; cbn; [done|]. by rewrite IHn. Qed.
Lemma nums_app a n m : nums a (n + m) = nums a n ++ nums (a + N.of_nat n) m.
Proof.
  revert a. induction n as [|n IH]; intros a; cbn [nums Nat.add app].
  - by rewrite N.add_0_r.
  - rewrite IH. do 3 f_equal. lia.
Qed.
Lemma elem_nums a n k : k ∈ nums a n <-> a <= k < a + N.of_nat n.
Proof.
  revert a. induction n as [|n IH]; intros a; cbn [nums].
  - rewrite elem_of_nil. lia.
  - rewrite elem_of_cons, IH. lia.
Qed.

(** ** The greatest number *)

(** The stored block events are numbered 1 to [n]. *)
Definition contig (d : db) (n : N) : Prop := forall k : N, is_Some (d_bev d !! k) <-> 1 <= k <= n.

Lemma max_seqnum_spec (m : gmap N bytes) :
  (forall k : N, is_Some (m !! k) -> k <= max_seqnum m) /\ (max_seqnum m = 0 \/ is_Some (m !! max_seqnum m)).
Proof.
  unfold max_seqnum. apply (map_fold_ind (fun a (m : gmap N bytes) => (forall k : N, is_Some (m !! k) -> k <= a) /\ (a = 0 \/ is_Some (m !! a)))).
  - split; [|by left]. intros k [x H]. by rewrite lookup_empty in H.
  - intros i x m' r Hi [H1 H2]. split.
    + intros k Hk. destruct (decide (k = i)) as [-> |Hn]; [lia|]. rewrite lookup_insert_ne in Hk by done. apply H1 in Hk. lia.
    + destruct (N.max_spec i r) as [[_ ->] | [_ ->]].
      * destruct H2 as [-> |H2]; [by left|]. right. destruct (decide (r = i)) as [-> |Hn]; [by rewrite lookup_insert|].
        by rewrite lookup_insert_ne.
      * right. by rewrite lookup_insert.
Qed.

Lemma contig_max d n : contig d n -> max_seqnum (d_bev d) = n.
Proof.
  intros C. destruct (max_seqnum_spec (d_bev d)) as [H1 H2]. destruct (decide (n = 0)) as [-> |Hn].
  - destruct H2 as [H2|H2]; [done|]. apply C in H2. lia.
  - assert (n <= max_seqnum (d_bev d)) by (apply H1, C; lia). destruct H2 as [H2|H2]; [lia|]. apply C in H2. lia.
Qed.

(** ** Block events applied during a replay *)

Definition wok (n : N) (w : wip) : Prop :=
  (w_app w).*1 = nums (n + 1) (length (w_app w)) /\ w_last w = n + N.of_nat (length (w_app w)) /\
  (forall k : N, is_Some (w_bev w !! k) <-> k ∈ (w_app w).*1).

Lemma wok0 d mem g : wok (max_seqnum (d_bev d)) (wip0 d mem g).
Proof.
  split; [done|]. split; [cbn; lia|]. intros k. cbn. rewrite lookup_empty. split; [by intros []|by intros ?%elem_of_nil].
Qed.

Lemma act_keeps w a : w_last (act w a) = w_last w /\ w_app (act w a) = w_app w /\ w_bev (act w a) = w_bev w.
Proof. unfold act. by destruct (generate_id false (w_gen w)) as [[id|er|] g]. Qed.
Lemma acts_keeps l w : w_last (acts w l) = w_last w /\ w_app (acts w l) = w_app w /\ w_bev (acts w l) = w_bev w.
Proof.
  revert w. induction l as [|a l IH]; intros w; [done|]. rewrite acts_cons. destruct (IH (act w a)) as (-> & -> & ->). apply act_keeps.
Qed.
Lemma acts_wok n l w : wok n w -> wok n (acts w l).
Proof. unfold wok. by destruct (acts_keeps l w) as (-> & -> & ->). Qed.

Lemma take_wok n w h m : wok n w -> wok n (take_event w (w_last w + 1) h m).
Proof.
  intros (A & L & B). unfold wok, take_event. cbn. rewrite app_length, fmap_app, nums_app, A. cbn. split; [|split].
  - do 2 f_equal. rewrite L. lia.
  - lia.
  - intros k. rewrite elem_of_app, elem_of_list_singleton, <- A, <- B. destruct (decide (k = w_last w + 1)) as [-> |Hn].
    + rewrite lookup_insert. split; [by right|by eexists].
    + rewrite lookup_insert_ne by done. naive_solver.
Qed.

(** The next number expected after receiving the numbers [ds]. *)
Definition greedy (n : N) (ds : list N) : N := fold_left (fun n s => if s =? n + 1 then n + 1 else n) ds n.

Lemma greedy_app n a b : greedy n (a ++ b) = greedy (greedy n a) b.
Proof. apply fold_left_app. Qed.

Lemma sub_skip (x : N) l r : sublist (x :: l) (x :: r) <-> sublist l r.
Proof.
  split; [|by apply sublist_skip]. intros H. inversion H as [|? ? ? H1|? ? ? H1]; subst; [done|].
  etransitivity; [|exact H1]. by apply sublist_cons.
Qed.
Lemma sub_drop (x y : N) l r : x <> y -> sublist (x :: l) (y :: r) <-> sublist (x :: l) r.
Proof. intros D. split; [|by apply sublist_cons]. intros H. by inversion H. Qed.

Lemma greedy_spec ds n k : n + N.of_nat k <= greedy n ds <-> sublist (nums (n + 1) k) ds.
Proof.
  revert n k. induction ds as [|s ds IH]; intros n k; cbn [greedy fold_left].
  - destruct k as [|k]; cbn [nums].
    + split; [by intros _|lia].
    + split; [lia|]. intros H. inversion H.
  - destruct k as [|k].
    { cbn [nums]. split; [intros _; apply sublist_nil_l|]. intros _.
      pose proof (IH (if s =? n + 1 then n + 1 else n) O) as I. cbn [nums] in I.
      assert (X := proj2 I (sublist_nil_l _)). unfold greedy in X. destruct (s =? n + 1); lia. }
    cbn [nums]. destruct (s =? n + 1) eqn:Q.
    + apply N.eqb_eq in Q. subst s. rewrite sub_skip, <- IH. unfold greedy. split; lia.
    + apply N.eqb_neq in Q. rewrite sub_drop by done. rewrite (IH n (S k) : _ <-> sublist (n + 1 :: nums (n + 1 + 1) k) ds). done.
Qed.

(** The numbers delivered by the messages of a transaction, and of a block, in order. *)
Definition numbers (l : list item) : list N := flat_map (fun i => match i with IBlock s _ _ => [s] | IMsg _ => [] end) l.
Definition delivered (l : list txn) : list N := flat_map (fun tx => numbers (t_sys tx)) l.

Section E.
  Context (E : env).

  Lemma do_item_wok n d t fid w i : wok n w -> wok n (do_item E d t fid w i).
  Proof.
    intros W. destruct i as [m|s h m]; cbn [do_item]; [by apply acts_wok|]. destruct (s =? w_last w + 1) eqn:Q; [|done].
    apply N.eqb_eq in Q as ->. apply acts_wok. by apply take_wok.
  Qed.
  Lemma do_items_wok n d t fid l w : wok n w -> wok n (do_items E d t fid w l).
  Proof. revert w. induction l as [|i l IH]; intros w W; [done|]. apply (IH (do_item E d t fid w i)). by apply do_item_wok. Qed.
  Lemma run_txn_wok n o d t w tx : wok n w -> wok n (run_txn E o d t w tx).
  Proof. intros W. unfold run_txn. cbv zeta. unfold do_tail. by repeat (apply acts_wok || apply do_items_wok). Qed.
  Lemma prepare_wok n o d t l w : wok n w -> wok n (prepare E o d t w l).1.
  Proof.
    revert w. induction l as [|tx l IH]; intros w W; [done|]. cbn [prepare]. pose proof (IH (run_txn E o d t w tx)) as I.
    destruct (prepare E o d t (run_txn E o d t w tx) l) as [w2 r]. apply I. by apply run_txn_wok.
  Qed.
  Lemma replay_txns_wok n o d t l w : wok n w -> wok n (replay_txns E o d t w l).1.
  Proof.
    revert w. induction l as [|tx l IH]; intros w W; [done|]. cbn [replay_txns]. destruct (beq _ _); [apply IH|]; by apply run_txn_wok.
  Qed.

  Lemma do_items_last d t fid l w : w_last (do_items E d t fid w l) = greedy (w_last w) (numbers l).
  Proof.
    revert w. induction l as [|i l IH]; intros w; [done|]. unfold do_items in *. cbn [fold_left]. rewrite IH. clear IH.
    unfold numbers. cbn [flat_map]. rewrite greedy_app. f_equal. destruct i as [m|s h m]; cbn [do_item].
    - apply acts_keeps.
    - unfold greedy. cbn [fold_left]. destruct (s =? w_last w + 1); [|done].
      by destruct (acts_keeps (x_item E t (view_of d (take_event w s h m)) fid m) (take_event w s h m)) as (-> & _).
  Qed.
  Lemma numbers_user l : numbers (map IMsg l) = [].
  Proof. by induction l. Qed.
  Lemma run_txn_last o d t w tx : w_last (run_txn E o d t w tx) = greedy (w_last w) (numbers (t_sys tx)).
  Proof.
    unfold run_txn. cbv zeta. unfold do_tail. do 2 (etransitivity; [apply acts_keeps|]). rewrite do_items_last, numbers_user.
    unfold greedy at 1. cbn [fold_left]. etransitivity; [apply acts_keeps|]. by rewrite do_items_last.
  Qed.
  Lemma prepare_last o d t l w : w_last (prepare E o d t w l).1 = greedy (w_last w) (delivered l).
  Proof.
    revert w. induction l as [|tx l IH]; intros w; [done|]. cbn [prepare]. pose proof (IH (run_txn E o d t w tx)) as I.
    destruct (prepare E o d t (run_txn E o d t w tx) l) as [w2 r]. cbn [fst] in *. unfold delivered. cbn [flat_map]. by rewrite I, run_txn_last, greedy_app.
  Qed.
  Lemma replay_txns_last o d t l w w2 : replay_txns E o d t w l = (w2, true) -> w_last w2 = greedy (w_last w) (delivered l).
  Proof.
    revert w. induction l as [|tx l IH]; intros w; cbn [replay_txns]; [by intros [= <-]|]. destruct (beq _ _); [|done].
    intros H. apply IH in H as ->. unfold delivered. cbn [flat_map]. by rewrite run_txn_last, greedy_app.
  Qed.
  Lemma replay_txns_eq o d t w l root w2 : replay E o d t w l root = (w2, true) ->
    replay_txns E o d t w l = (w2, true) /\ x_root E (w_trie w2) = root.
  Proof.
    unfold replay. destruct (replay_txns E o d t w l) as [w3 ok]. intros [= <- [-> B]%andb_prop]. split; [done|]. by apply beq_true.
  Qed.

  Context (Q : order -> Prop).

  Lemma result_wok d w : result_on E Q d w -> wok (max_seqnum (d_bev d)) w.
  Proof.
    intros (o & t & l & g & _ & [<- | [root R]]).
    - apply prepare_wok, wok0.
    - apply replay_txns_eq in R as [R _]. pose proof (replay_txns_wok (max_seqnum (d_bev d)) o d t l (wip0 d (d_trie d) g) (wok0 _ _ _)) as W.
      by rewrite R in W.
  Qed.

  (** What a commit writes: a result on the committed state, plus the BLOCK_CONFIRMED event. *)
  Lemma commit_first_spec o e c w : Q o -> good e -> pend_ok E Q e -> commit_first E o e c = Some w ->
    exists w0 g, confirm g w0 = Some w /\ result_on E Q (e_db e) w0 /\ x_root E (w_trie w0) = c_root c /\
      (pend_gen e -> g = w_gen w0).
  Proof.
    intros HQ G P. unfold commit_first.
    assert (R : commit_replay E o e c = Some w -> exists w0 g, confirm g w0 = Some w /\ result_on E Q (e_db e) w0 /\ x_root E (w_trie w0) = c_root c /\
      (pend_gen e -> g = w_gen w0)).
    { unfold commit_replay. rewrite good_wip0 by done. destruct (replay _ _ _ _ _ _ _) as [w0 ok] eqn:X. destruct ok; [|done]. intros C.
      exists w0, (w_gen w0). split; [done|]. split; [|split; [by apply replay_txns_eq in X as [_ X]|done]].
      eexists o, (c_time c), (c_txns c), _. split; [done|]. right. by eexists. }
    destruct (e_pend e) as [p|] eqn:X; [|exact R]. destruct (cache_hit E p c) eqn:B; [|exact R]. intros C.
    exists (pd_w p), (e_gen e). split; [done|]. destruct (P p X) as [P1 P2]. split; [done|].
    unfold cache_hit in B. apply andb_prop in B as [B _]. apply beq_true in B. split; [congruence|]. intros H. by apply H.
  Qed.

  Lemma pend_none e : e_pend e = None -> pend_ok E Q e /\ pend_gen e.
  Proof. intros H. split; intros p; by rewrite H. Qed.

  Lemma height_spec e rs o c e' app : Q o -> Forall (req_order Q) rs -> good e -> e_pend e = None -> height_step E e rs o c = Some (e', app) ->
    good e' /\ e_pend e' = None /\ exists w0 g w, confirm g w0 = Some w /\ result_on E Q (e_db e) w0 /\ x_root E (w_trie w0) = c_root c /\
      app = w_app w0 /\ e_db e' = put_chunk (write (e_db e) w) c /\ (all_valid E e rs = true -> g = w_gen w0).
  Proof.
    intros HQ HR G N H. split; [by eapply height_good|]. unfold height_step, commit_chunk in H.
    destruct (commit_first E o (fold_left (serve E) rs e) c) as [w|] eqn:C; [|done]. injection H as <- <-. split; [done|].
    destruct (pend_none e N) as [P1 P2].
    apply commit_first_spec in C as (w0 & g & C1 & C2 & C3 & C4); [|done|by apply serves_good|by apply serves_pend].
    exists w0, g, w. rewrite serves_db in *. split; [done|]. split; [done|]. split; [done|]. split.
    { by apply confirm_spec in C1 as (_ & id & _ & ->). }
    split; [by cbn|]. intros V. by apply C4, serves_gen.
  Qed.

End E.

(** ** The trie mirrors the rows *)

Section E.
  Context (E : env).

  Context (K : kv bytes -> gset bytes).

  (** Each action changes the trie as it changes the rows. *)
  Fixpoint faith (d : kv bytes) (rows : batch bytes) (l : list action) : Prop :=
    match l with
    | [] => True
    | a :: r => K (commit d (a_rows a ∪ rows)) = (K (commit d rows) ∪ a_ins a) ∖ a_del a /\ faith d (a_rows a ∪ rows) r
    end.

  Definition faithful : Prop := forall v, v_trie v = K (commit (v_db v) (v_rows v)) ->
    (forall t fid m, faith (v_db v) (v_rows v) (x_item E t v fid m)) /\
    (forall ph t fid m gs, gs ≡ₚ x_tail E ph t v fid m -> faith (v_db v) (v_rows v) (concat gs)).

  Definition mirror (d : kv bytes) (w : wip) : Prop := w_trie w = K (commit d (w_rows w)).

  Lemma acts_mirror d l w : mirror d w -> faith d (w_rows w) l -> ok_gen (w_gen (acts w l)) = true -> mirror d (acts w l).
  Proof.
    revert w. induction l as [|a l IH]; intros w M F H; [done|]. rewrite acts_cons in *. destruct F as [F1 F2].
    assert (Q : ok_gen (w_gen w) = true).
    { eapply gle_ok; [|exact H]. eapply gle_trans; [apply act_gle|apply acts_gle]. }
    destruct (gen_ok false _ Q) as (id & g & Hg & _). unfold act in *. rewrite Hg in *. apply IH; [|done|done].
    unfold mirror in *. cbn. by rewrite F1, M.
  Qed.

  Lemma do_item_mirror d t fid i w : faithful -> mirror (d_rows d) w -> ok_gen (w_gen (do_item E d t fid w i)) = true ->
    mirror (d_rows d) (do_item E d t fid w i).
  Proof.
    intros F M. destruct i as [m|s h m]; cbn [do_item].
    - apply acts_mirror; [done|]. by apply (F (view_of d w) M).
    - destruct (s =? w_last w + 1); [|done]. apply acts_mirror; [done|]. by apply (F (view_of d (take_event w s h m)) M).
  Qed.
  Lemma do_items_mirror d t fid l w : faithful -> mirror (d_rows d) w -> ok_gen (w_gen (do_items E d t fid w l)) = true ->
    mirror (d_rows d) (do_items E d t fid w l).
  Proof.
    intros F. revert w. induction l as [|i l IH]; intros w M H; [done|]. apply (IH (do_item E d t fid w i)); [|done].
    apply do_item_mirror; [done|done|]. eapply gle_ok; [|exact H]. apply (do_items_gle E d t fid l).
  Qed.
  Lemma do_tail_mirror o d t ph fid m w : faithful -> is_order o -> mirror (d_rows d) w -> ok_gen (w_gen (do_tail E o d t ph fid m w)) = true ->
    mirror (d_rows d) (do_tail E o d t ph fid m w).
  Proof.
    intros F O M H. unfold do_tail in *. cbv zeta in *. apply acts_mirror; [done| |done].
    apply (F (view_of d w) M) with (ph := ph) (t := t) (fid := fid) (m := m). destruct (ph =? 2); [done|apply O].
  Qed.
  Lemma run_txn_mirror o d t w tx : faithful -> is_order o -> mirror (d_rows d) w -> ok_gen (w_gen (run_txn E o d t w tx)) = true ->
    mirror (d_rows d) (run_txn E o d t w tx).
  Proof.
    intros F O M H. unfold run_txn in *. cbv zeta in *.
    apply do_tail_mirror; [done|done| |exact H]. apply (gle_ok _ _ (do_tail_gle E _ _ _ _ _ _ _)) in H.
    apply do_tail_mirror; [done|done| |exact H]. apply (gle_ok _ _ (do_tail_gle E _ _ _ _ _ _ _)) in H.
    apply do_items_mirror; [done| |exact H]. apply (gle_ok _ _ (do_items_gle E _ _ _ _ _)) in H.
    apply do_tail_mirror; [done|done| |exact H]. apply (gle_ok _ _ (do_tail_gle E _ _ _ _ _ _ _)) in H.
    by apply do_items_mirror.
  Qed.
  Lemma prepare_mirror o d t l w : faithful -> is_order o -> mirror (d_rows d) w -> ok_gen (w_gen (prepare E o d t w l).1) = true ->
    mirror (d_rows d) (prepare E o d t w l).1.
  Proof.
    intros F O. revert w. induction l as [|tx l IH]; intros w M; [done|]. cbn [prepare].
    pose proof (IH (run_txn E o d t w tx)) as I. pose proof (prepare_gle E o d t l (run_txn E o d t w tx)) as Q.
    destruct (prepare E o d t (run_txn E o d t w tx) l) as [w2 r]. cbn in *. intros H. apply I; [|done].
    apply run_txn_mirror; [done|done|done|]. by eapply gle_ok.
  Qed.
  Lemma replay_mirror o d t l w : faithful -> is_order o -> mirror (d_rows d) w -> ok_gen (w_gen (replay_txns E o d t w l).1) = true ->
    mirror (d_rows d) (replay_txns E o d t w l).1.
  Proof.
    intros F O. revert w. induction l as [|tx l IH]; intros w M; [done|]. cbn [replay_txns].
    pose proof (replay_txns_gle E o d t l (run_txn E o d t w tx)) as Q.
    destruct (beq _ _); [|by apply run_txn_mirror]. intros H. apply IH; [|done]. apply run_txn_mirror; [done|done|done|].
    by eapply gle_ok.
  Qed.
End E.

Section E.
  Context (E : env).

  Lemma req_any rs : Forall (req_order (fun _ => True)) rs.
  Proof. apply Forall_forall. intros [h|o t l|o h p] _; done. Qed.

  (** Contiguity over a chain. *)
  Lemma chain_seq l e app e' app' : good e -> e_pend e = None -> contig (e_db e) (N.of_nat (length app)) ->
    app.*1 = nums 1 (length app) -> run_chain E e app l = Some (e', app') ->
    contig (e_db e') (N.of_nat (length app')) /\ app'.*1 = nums 1 (length app').
  Proof.
    revert e app. induction l as [|[[rs o] c] l IH]; intros e app G N C A; cbn [run_chain]; [by intros [= <- <-]|].
    destruct (height_step E e rs o c) as [[e1 a1]|] eqn:H; [|done].
    destruct (height_spec E (fun _ => True) _ _ _ _ _ _ I (req_any rs) G N H) as (G1 & N1 & w0 & g & w & Cf & R & _ & -> & D & _).
    apply result_wok in R. rewrite (contig_max _ _ C) in R. destruct R as (W1 & W2 & W3).
    apply confirm_spec in Cf as (_ & id & _ & ->). apply IH; [done|done| |].
    - intros k. rewrite D. cbn. rewrite lookup_union_is_Some, (C k), W3, W1, elem_nums, app_length. lia.
    - rewrite fmap_app, app_length, nums_app, A, W1. do 2 f_equal. lia.
  Qed.

End E.

(** There are ids for [n] more events and BLOCK_CONFIRMED. *)
Definition room (w : wip) (n : nat) : Prop :=
  ig_height (w_gen w) < 2 ^ HEIGHT_BITS /\ N.max 1 (ig_seq (w_gen w)) + N.of_nat n < 2 ^ SEQUENCE_BITS.

Lemma room_ok w n : room w n -> ok_gen (w_gen w) = true.
Proof. intros [A B]. unfold ok_gen. apply andb_true_iff. rewrite !N.ltb_lt. split; [done|]. clear A. lia. Qed.

#[global] Transparent generate_id.
Lemma room_act w a n : room w (S n) -> room (act w a) n.
Proof.
  intros R. pose proof (room_ok _ _ R) as H. destruct R as [A B]. unfold act, generate_id.
  destruct (2 ^ HEIGHT_BITS <=? ig_height (w_gen w)) eqn:X; [exfalso; clear B; lia|].
  destruct (2 ^ SEQUENCE_BITS <=? ig_seq (w_gen w)) eqn:Y; [exfalso; clear A X; lia|].
  split; cbn [w_gen ig_height ig_seq]; [done|]. clear A X H. destruct (ig_seq (w_gen w) =? 0) eqn:Z; lia.
Qed.
#[global] Opaque generate_id.


Section E.
  Context (E : env) (K : kv bytes -> gset bytes).

  Lemma result_mirror d w : faithful E K -> result_on E is_order d w -> d_trie d = K (d_rows d) -> ok_gen (w_gen w) = true -> mirror K (d_rows d) w.
  Proof.
    intros F (o & t & l & g & O & R) M.
    assert (M0 : mirror K (d_rows d) (wip0 d (d_trie d) g)) by (unfold mirror; cbn; by rewrite commit_empty).
    destruct R as [<- | [root R]]; intros H.
    - by apply prepare_mirror.
    - apply replay_txns_eq in R as [R _]. pose proof (replay_mirror E K o d t l (wip0 d (d_trie d) g) F O M0) as X. rewrite R in X. by apply X.
  Qed.

  (** Every validation asked for succeeds, and sets are iterated in some order of their elements. *)
  Fixpoint chain_valid (e : eng) (l : list (list req * order * chunk)) : Prop :=
    match l with
    | [] => True
    | (rs, o, c) :: r => all_valid E e rs = true /\ is_order o /\ Forall (req_order is_order) rs /\
        match height_step E e rs o c with Some (e', _) => chain_valid e' r | None => True end
    end.

  Lemma chain_mirror l e app e' app' : faithful E K -> good e -> e_pend e = None -> d_trie (e_db e) = K (d_rows (e_db e)) ->
    chain_valid e l -> run_chain E e app l = Some (e', app') -> d_trie (e_db e') = K (d_rows (e_db e')).
  Proof.
    intros F. revert e app. induction l as [|[[rs o] c] l IH]; intros e app G N M; cbn [run_chain chain_valid]; [by intros _ [= <- <-]|].
    intros (V & O & Rs & C). destruct (height_step E e rs o c) as [[e1 a1]|] eqn:H; [|done].
    destruct (height_spec E is_order _ _ _ _ _ _ O Rs G N H) as (G1 & N1 & w0 & g & w & Cf & R & _ & _ & D & HG).
    apply IH; [done|done| |done]. specialize (HG V). subst g. apply confirm_spec in Cf as (OK & id & _ & ->).
    pose proof (result_mirror _ _ F R M OK) as X. rewrite D. exact X.
  Qed.

  (** ** Committing the same chunk again after the first write *)

  (** An action without effect on rows and trie (a MergeFailure event). *)
  Definition noop (a : action) : Prop := a_rows a = ∅ /\ a_ins a = ∅ /\ a_del a = ∅.

  Definition bodies (t : N) (v : view) (fid : N) (l : list bytes) : list bytes := flat_map (fun m => map a_body (x_item E t v fid m)) l.
  Definition plain (l : list item) : list bytes := flat_map (fun i => match i with IMsg m => [m] | IBlock _ _ _ => [] end) l.

  (** The messages of a transaction are all rejected on [d], and nothing is left to revoke or prune. *)
  Definition rejected (d : db) (t : N) (tx : txn) : Prop :=
    let v := View (d_rows d) ∅ (d_trie d) in
    let m1 := bodies t v (t_fid tx) (plain (t_sys tx)) in
    let m3 := m1 ++ bodies t v (t_fid tx) (t_user tx) in
    Forall (fun m => Forall noop (x_item E t v (t_fid tx) m)) (plain (t_sys tx) ++ t_user tx) /\
    Forall (fun s => s <> max_seqnum (d_bev d) + 1) (numbers (t_sys tx)) /\
    x_tail E 0 t v (t_fid tx) m1 = [] /\ x_tail E 1 t v (t_fid tx) m3 = [] /\ x_tail E 2 t v (t_fid tx) m3 = [].

  (** And the account root is the claimed one. *)
  Definition quiet (d : db) (t : N) (tx : txn) : Prop := rejected d t tx /\ x_acct E (d_trie d) (t_fid tx) = t_root tx.

  (** The events of a transaction none of whose messages does anything. *)
  Definition quiet_evs (d : db) (t : N) (tx : txn) : list bytes :=
    let v := View (d_rows d) ∅ (d_trie d) in bodies t v (t_fid tx) (plain (t_sys tx) ++ t_user tx).

  (** [w] after events that changed nothing but the log. *)
  Definition still (d : db) (w w' : wip) (b : list bytes) : Prop :=
    w_rows w' = w_rows w /\ w_bev w' = w_bev w /\ w_trie w' = w_trie w /\ w_last w' = w_last w /\ w_app w' = w_app w /\
    (w_evs w').*2 = (w_evs w).*2 ++ b.

  Lemma still_trans d a b c x y : still d a b x -> still d b c y -> still d a c (x ++ y).
  Proof.
    intros (A1 & A2 & A3 & A4 & A5 & A6) (B1 & B2 & B3 & B4 & B5 & B6). repeat split; try congruence. rewrite B6, A6.
    by rewrite (assoc_L (++)).
  Qed.
  Lemma still_refl d w : still d w w [].
  Proof. repeat split. by rewrite app_nil_r. Qed.

  Lemma acts_still d l w n : Forall noop l -> room w (length l + n) -> still d w (acts w l) (map a_body l) /\ room (acts w l) n.
  Proof.
    intros F. revert w. induction F as [|a l (R & I & D) F IH]; intros w H; [split; [apply still_refl|done]|]. rewrite acts_cons in *.
    cbn [length Nat.add] in H. destruct (IH _ (room_act w a _ H)) as [S1 S2]. split; [|done].
    apply (still_trans d _ (act w a) _ [a_body a] (map a_body l)); [|done]. apply room_ok in H.
    destruct (gen_ok false _ H) as (id & g & Hg & _). unfold act. rewrite Hg. repeat split; cbn.
    - rewrite R. apply (left_id_L ∅ (∪)).
    - rewrite I, D. set_solver.
    - by rewrite fmap_app.
  Qed.

  Definition at_rest (d : db) (w : wip) : Prop := w_rows w = ∅ /\ w_bev w = ∅ /\ w_trie w = d_trie d /\ w_last w = max_seqnum (d_bev d).

  Lemma still_rest d w w' b : still d w w' b -> at_rest d w -> at_rest d w'.
  Proof. intros (A1 & A2 & A3 & A4 & _) (B1 & B2 & B3 & B4). repeat split; congruence. Qed.
  Lemma rest_view d w : at_rest d w -> view_of d w = View (d_rows d) ∅ (d_trie d).
  Proof. intros (A & _ & B & _). unfold view_of. by rewrite A, B. Qed.

  Lemma do_items_still d t fid l w n : at_rest d w ->
    Forall (fun m => Forall noop (x_item E t (View (d_rows d) ∅ (d_trie d)) fid m)) (plain l) ->
    Forall (fun s => s <> max_seqnum (d_bev d) + 1) (numbers l) ->
    room w (length (bodies t (View (d_rows d) ∅ (d_trie d)) fid (plain l)) + n) ->
    still d w (do_items E d t fid w l) (bodies t (View (d_rows d) ∅ (d_trie d)) fid (plain l)) /\ room (do_items E d t fid w l) n.
  Proof.
    revert w. induction l as [|i l IH]; intros w R F1 F2 H; [split; [apply still_refl|done]|].
    change (do_items E d t fid w (i :: l)) with (do_items E d t fid (do_item E d t fid w i) l) in *.
    unfold plain, numbers in F1, F2. cbn [flat_map] in F1, F2. apply Forall_app in F1 as [F1 F1']. apply Forall_app in F2 as [F2 F2'].
    unfold plain in *. cbn [flat_map] in *. unfold bodies in *. rewrite flat_map_app, app_length in *. rewrite <- Nat.add_assoc in H.
    set (b := flat_map _ (match i with IMsg m => [m] | IBlock _ _ _ => [] end)) in *.
    assert (S : still d w (do_item E d t fid w i) b /\
      room (do_item E d t fid w i) (length (flat_map (fun m => map a_body (x_item E t (View (d_rows d) ∅ (d_trie d)) fid m))
        (flat_map (fun i => match i with IMsg m => [m] | IBlock _ _ _ => [] end) l)) + n)).
    { destruct i as [m|s h m]; cbn [do_item flat_map] in *.
      - unfold b in *. rewrite app_nil_r in *. rewrite rest_view by done. apply Forall_inv in F1. apply acts_still; [done|]. by rewrite map_length in H.
      - apply Forall_inv in F2. destruct (s =? w_last w + 1) eqn:X; [|split; [apply still_refl|done]]. apply N.eqb_eq in X. subst s.
        destruct R as (_ & _ & _ & R). congruence. }
    destruct S as [S1 S2]. destruct (IH _ (still_rest _ _ _ _ S1 R) F1' F2' S2) as [S3 S4]. split; [|done].
    by eapply still_trans.
  Qed.

  Lemma do_tail_still o d t ph fid m w : is_order o -> at_rest d w -> x_tail E ph t (View (d_rows d) ∅ (d_trie d)) fid m = [] ->
    do_tail E o d t ph fid m w = w.
  Proof.
    intros O R X. unfold do_tail. cbv zeta. rewrite rest_view by done. rewrite X.
    assert (Y : o [] = []) by apply Permutation_nil, (symmetry (O [])). rewrite Y. by destruct (ph =? 2).
  Qed.

  Lemma new_still d w w' b : still d w w' b -> new_evs w w' = b.
  Proof. intros (_ & _ & _ & _ & _ & S). unfold new_evs. rewrite S. apply drop_app_alt. by rewrite fmap_length. Qed.

  Lemma plain_user l : plain (map IMsg l) = l.
  Proof. induction l as [|m l IH]; [done|]. unfold plain in *. cbn. by rewrite IH. Qed.

  Lemma run_txn_still o d t tx w n : is_order o -> at_rest d w -> rejected d t tx -> room w (length (quiet_evs d t tx) + n) ->
    still d w (run_txn E o d t w tx) (quiet_evs d t tx) /\ room (run_txn E o d t w tx) n.
  Proof.
    intros O R (F & N & T0 & T1 & T2) H. apply Forall_app in F as [F1 F2]. unfold run_txn in *. cbv zeta in *.
    unfold quiet_evs, bodies in *. cbv zeta in *. rewrite flat_map_app, app_length, <- Nat.add_assoc in *.
    set (w1 := do_items E d t (t_fid tx) w (t_sys tx)) in *.
    destruct (do_items_still d t (t_fid tx) (t_sys tx) w _ R F1 N H) as [S1 H1]. fold w1 in S1, H1.
    pose proof (still_rest _ _ _ _ S1 R) as R1. pose proof (new_still _ _ _ _ S1) as E1.
    rewrite E1. rewrite (do_tail_still o d t 0) by done.
    set (w3 := do_items E d t (t_fid tx) w1 (map IMsg (t_user tx))) in *.
    assert (S3 : still d w1 w3 (bodies t (View (d_rows d) ∅ (d_trie d)) (t_fid tx) (plain (map IMsg (t_user tx)))) /\ room w3 n).
    { apply do_items_still; [done|by rewrite plain_user|by rewrite numbers_user|by rewrite plain_user]. }
    rewrite plain_user in S3. destruct S3 as [S3 H3].
    pose proof (still_rest _ _ _ _ S3 R1) as R3. pose proof (new_still _ _ _ _ S3) as E3. rewrite E3.
    rewrite (do_tail_still o d t 1) by done. rewrite (do_tail_still o d t 2) by done. split; [|done]. by eapply still_trans.
  Qed.

  Lemma replay_still o d t l w n : is_order o -> at_rest d w -> Forall (quiet d t) l -> room w (length (flat_map (quiet_evs d t) l) + n) ->
    exists w', replay_txns E o d t w l = (w', true) /\ still d w w' (flat_map (quiet_evs d t) l) /\ room w' n.
  Proof.
    intros O R F. revert w R. induction F as [|tx l Q F IH]; intros w R; cbn [replay_txns].
    { intros H. exists w. split; [done|split; [apply still_refl|done]]. }
    cbn [flat_map]. rewrite app_length, <- Nat.add_assoc. intros H. destruct Q as [Q Q1].
    destruct (run_txn_still o d t tx w _ O R Q H) as [S H1]. pose proof (still_rest _ _ _ _ S R) as R1.
    pose proof R1 as (_ & _ & R2 & _). rewrite R2, Q1, beq_refl in *. destruct (IH _ R1 H1) as (w' & -> & S' & H'). exists w'. split; [done|].
    split; [|done]. by eapply still_trans.
  Qed.
End E.

Lemma chain_none E l e app e' app' : e_pend e = None -> run_chain E e app l = Some (e', app') -> e_pend e' = None.
Proof.
  revert e app. induction l as [|[[rs o] c] l IH]; intros e app N; cbn [run_chain]; [by intros [= <- _]|].
  destruct (height_step E e rs o c) as [[e1 a1]|] eqn:H; [|done]. apply IH. unfold height_step in H.
  destruct (commit_chunk _ _ _ _) as [[e2 w]|]; [|done]. by injection H as <- _.
Qed.
