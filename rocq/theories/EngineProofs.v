(** Proofs about the data-shard engine. *)
From stdpp Require Import gmap sorting.
From Coq Require Import ZifyN ZifyNat ZifyBool.
From Verif Require Import Base Codec Kv Engine.
#[local] Open Scope N_scope.

Lemma beq_refl (a : bytes) : beq a a = true.
Proof. unfold beq. by rewrite bool_decide_true. Qed.
Lemma beq_true (a b : bytes) : beq a b = true <-> a = b.
Proof. unfold beq. by rewrite bool_decide_eq_true. Qed.

(** ** The id generator *)

(** The next event gets an id. *)
Definition ok_gen (g : idgen) : bool := (ig_height g <? 2 ^ HEIGHT_BITS) && (ig_seq g <? 2 ^ SEQUENCE_BITS).

Lemma gen_ok b (g : idgen) : ok_gen g = true ->
  exists id g', generate_id b g = (Ok id, g') /\ ig_height g' = ig_height g /\ ig_seq g <= ig_seq g'.
Proof.
  unfold ok_gen, generate_id. intros [H1 H2]%andb_prop.
  destruct (2 ^ HEIGHT_BITS <=? ig_height g) eqn:A; [exfalso; clear H2; lia|].
  destruct (2 ^ SEQUENCE_BITS <=? ig_seq g) eqn:B; [exfalso; clear H1 A; lia|]. clear.
  destruct b; [by repeat eexists|]. do 2 eexists. split; [done|]. cbn. split; [done|].
  destruct (ig_seq g =? 0) eqn:C; lia.
Qed.

Lemma gen_bad b (g : idgen) : ok_gen g = false -> exists er, generate_id b g = (Err er, g).
Proof.
  unfold ok_gen, generate_id. intros H.
  destruct (2 ^ HEIGHT_BITS <=? ig_height g) eqn:A; [by eexists|].
  destruct (2 ^ SEQUENCE_BITS <=? ig_seq g) eqn:B; [by eexists|].
  exfalso. apply andb_false_iff in H as [H|H]; [clear B|clear A]; lia.
Qed.

Lemma gen_confirm (g g' : idgen) id : generate_id true g = (Ok id, g') -> ok_gen g = true.
Proof. destruct (ok_gen g) eqn:E; [done|]. apply (gen_bad true) in E as [er ->]. congruence. Qed.

Lemma confirm_spec g (w w' : wip) : confirm g w = Some w' ->
  ok_gen g = true /\ exists id, generate_id true g = (Ok id, g) /\
  w' = Wip (w_rows w) (w_bev w) (w_trie w) g (w_last w) ((id, confirmed) :: w_evs w) (w_app w).
Proof.
  unfold confirm. destruct (generate_id true g) as [[id|er|] g'] eqn:E; intros [= <-].
  split; [by eapply gen_confirm|]. exists id. split; [|done]. f_equal.
  unfold generate_id in E. repeat case_match; congruence.
Qed.

Lemma confirm_ok g (w : wip) : ok_gen g = true -> exists id w', generate_id true g = (Ok id, g) /\ confirm g w = Some w' /\
  w' = Wip (w_rows w) (w_bev w) (w_trie w) g (w_last w) ((id, confirmed) :: w_evs w) (w_app w).
Proof.
  intros H. destruct (gen_ok true g H) as (id & g' & E & _). exists id. unfold confirm. rewrite E. eexists.
  split; [|done]. f_equal. unfold generate_id in E. repeat case_match; congruence.
Qed.

Lemma confirm_bad g (w : wip) : ok_gen g = false -> confirm g w = None.
Proof. intros H. destruct (gen_bad true g H) as [er E]. unfold confirm. by rewrite E. Qed.

(** [g'] comes after [g]. *)
Definition gle (g g' : idgen) : Prop := ig_height g' = ig_height g /\ ig_seq g <= ig_seq g'.
Lemma gle_refl g : gle g g. Proof. split; [done|lia]. Qed.
Lemma gle_trans a b c : gle a b -> gle b c -> gle a c.
Proof. intros [] []. split; [congruence|lia]. Qed.
Lemma gle_ok g g' : gle g g' -> ok_gen g' = true -> ok_gen g = true.
Proof.
  unfold ok_gen. intros [H1 H2] [H3 H4]%andb_prop. rewrite H1 in H3. rewrite H3. clear H1 H3. apply N.ltb_lt.
  apply N.ltb_lt in H4. lia.
Qed.

Lemma act_gle w a : gle (w_gen w) (w_gen (act w a)).
Proof.
  unfold act. destruct (ok_gen (w_gen w)) eqn:E.
  - destruct (gen_ok false _ E) as (id & g & -> & H1 & H2). by split.
  - destruct (gen_bad false _ E) as [er ->]. cbn. apply gle_refl.
Qed.

Lemma acts_app w l l' : acts w (l ++ l') = acts (acts w l) l'.
Proof. unfold acts. apply fold_left_app. Qed.
Lemma acts_cons w a l : acts w (a :: l) = acts (act w a) l.
Proof. done. Qed.

Lemma acts_gle l w : gle (w_gen w) (w_gen (acts w l)).
Proof.
  revert w. induction l as [|a l IH]; intros w; [apply gle_refl|]. rewrite acts_cons.
  eapply gle_trans; [apply act_gle|apply IH].
Qed.

Section E.
  Context (E : env).

  Lemma do_item_gle d t fid w i : gle (w_gen w) (w_gen (do_item E d t fid w i)).
  Proof.
    destruct i as [m|s h m]; cbn [do_item]; [apply acts_gle|].
    destruct (s =? w_last w + 1); [|apply gle_refl]. apply (acts_gle _ (take_event w s h m)).
  Qed.
  Lemma do_items_gle d t fid l w : gle (w_gen w) (w_gen (do_items E d t fid w l)).
  Proof.
    revert w. induction l as [|i l IH]; intros w; [apply gle_refl|].
    eapply gle_trans; [apply (do_item_gle d t fid w i)|apply (IH (do_item E d t fid w i))].
  Qed.
  Lemma do_tail_gle o d t ph fid m w : gle (w_gen w) (w_gen (do_tail E o d t ph fid m w)).
  Proof. apply acts_gle. Qed.
  Lemma run_txn_gle o d t w tx : gle (w_gen w) (w_gen (run_txn E o d t w tx)).
  Proof.
    unfold run_txn. cbv zeta. eapply gle_trans; [apply do_items_gle|]. eapply gle_trans; [apply do_tail_gle|].
    eapply gle_trans; [apply do_items_gle|]. eapply gle_trans; [apply do_tail_gle|]. apply do_tail_gle.
  Qed.
  Lemma prepare_gle o d t l w : gle (w_gen w) (w_gen (prepare E o d t w l).1).
  Proof.
    revert w. induction l as [|tx l IH]; intros w; [apply gle_refl|]. cbn [prepare].
    specialize (IH (run_txn E o d t w tx)). destruct (prepare E o d t (run_txn E o d t w tx) l) as [w2 r'] eqn:P.
    cbn in *. eapply gle_trans; [apply (run_txn_gle o d t w tx)|done].
  Qed.
  Lemma replay_txns_gle o d t l w : gle (w_gen w) (w_gen (replay_txns E o d t w l).1).
  Proof.
    revert w. induction l as [|tx l IH]; intros w; [apply gle_refl|]. cbn [replay_txns].
    destruct (beq _ _); [|apply run_txn_gle]. eapply gle_trans; [apply (run_txn_gle o d t w tx)|apply IH].
  Qed.
End E.

(** ** Work in progress up to the order in which sets are iterated *)

(** The part that later steps read. *)
Definition core (w : wip) : batch bytes * gmap N bytes * gset bytes * idgen * N * list (N * bytes) :=
  (w_rows w, w_bev w, w_trie w, w_gen w, w_last w, w_app w).

(** Same rows, block events, trie, ids; the same events in some order. *)
Definition weq (w w' : wip) : Prop :=
  core w = core w' /\ (w_evs w).*1 = (w_evs w').*1 /\ (w_evs w).*2 ≡ₚ (w_evs w').*2.

Lemma weq_refl w : weq w w. Proof. done. Qed.
Lemma weq_trans a b c : weq a b -> weq b c -> weq a c.
Proof. intros (A & B & C) (A' & B' & C'). split; [congruence|]. split; [congruence|]. by rewrite C. Qed.

(** A step that appends events and reads only the core. *)
Definition appends (f : wip -> wip) : Prop := forall w w', core w = core w' ->
  core (f w) = core (f w') /\ exists x, w_evs (f w) = w_evs w ++ x /\ w_evs (f w') = w_evs w' ++ x.

Lemma appends_comp f g : appends f -> appends g -> appends (fun w => g (f w)).
Proof.
  intros Hf Hg w w' H. destruct (Hf w w' H) as (C & x & X & X'). destruct (Hg _ _ C) as (C' & y & Y & Y').
  split; [done|]. exists (x ++ y). rewrite Y, Y', X, X'. by rewrite !(assoc_L (++)).
Qed.

Lemma appends_id : appends (fun w => w).
Proof. intros w w' H. split; [done|]. exists []. by rewrite !app_nil_r. Qed.

Lemma core_eq w w' : core w = core w' -> w_rows w = w_rows w' /\ w_bev w = w_bev w' /\ w_trie w = w_trie w' /\
  w_gen w = w_gen w' /\ w_last w = w_last w' /\ w_app w = w_app w'.
Proof. unfold core. intros [= -> -> -> -> -> ->]. done. Qed.

Lemma act_appends a : appends (fun w => act w a).
Proof.
  intros w w' H. apply core_eq in H as (R & B & T & G & L & A). unfold act. rewrite <- R, <- B, <- T, <- G, <- L, <- A.
  destruct (generate_id false (w_gen w)) as [[id|er|] g]; unfold core; cbn; split; try done; try by exists [(id, a_body a)].
  all: exists []; by rewrite !app_nil_r.
Qed.

Lemma acts_appends l : appends (fun w => acts w l).
Proof.
  induction l as [|a l IH]; [apply appends_id|]. apply (appends_comp (fun w => act w a) (fun w => acts w l)); [apply act_appends|done].
Qed.

Lemma dep_appends (f : wip -> list action) : (forall w w', core w = core w' -> f w = f w') -> appends (fun w => acts w (f w)).
Proof.
  intros Hf w w' H. destruct (acts_appends (f w) w w' H) as (C & x & X). rewrite <- (Hf _ _ H). split; [done|]. by exists x.
Qed.

Lemma view_core d w w' : core w = core w' -> view_of d w = view_of d w'.
Proof. intros (R & B & T & G & L & A)%core_eq. unfold view_of. by rewrite R, T. Qed.

Lemma appends_weq f w w' : appends f -> weq w w' -> weq (f w) (f w').
Proof.
  intros Hf (C & I & P). destruct (Hf _ _ C) as (C' & x & X & X'). split; [done|]. rewrite X, X', !fmap_app. split; [by rewrite I|].
  by rewrite P.
Qed.

Section E.
  Context (E : env).

  Lemma do_item_appends d t fid i : appends (fun w => do_item E d t fid w i).
  Proof.
    destruct i as [m|s h m]; cbn [do_item].
    - apply (dep_appends (fun w => x_item E t (view_of d w) fid m)). intros w w' H. by rewrite (view_core d _ _ H).
    - intros w w' H. pose proof (core_eq _ _ H) as (R & B & T & G & L & A). rewrite <- L.
      destruct (s =? w_last w + 1); [|by apply appends_id].
      apply (dep_appends (fun w => x_item E t (view_of d w) fid m)
        (fun v v' V => f_equal (fun x => x_item E t x fid m) (view_core d v v' V)) (take_event w s h m) (take_event w' s h m)).
      unfold take_event, core. cbn. by rewrite R, B, T, G, L, A.
  Qed.

  Lemma do_items_appends d t fid l : appends (fun w => do_items E d t fid w l).
  Proof.
    induction l as [|i l IH]; [apply appends_id|].
    apply (appends_comp (fun w => do_item E d t fid w i) (fun w => do_items E d t fid w l)); [apply do_item_appends|done].
  Qed.

  Lemma new_evs_eq f w w' : appends f -> core w = core w' -> new_evs w (f w) = new_evs w' (f w').
  Proof.
    intros Hf C. destruct (Hf _ _ C) as (_ & x & X & X'). unfold new_evs. rewrite X, X', !fmap_app.
    by rewrite !drop_app_alt by (by rewrite fmap_length).
  Qed.

  (** ** Reordering independent groups *)

  Definition row_keys (g : list action) : gset bytes := ⋃ (map (fun a => dom (a_rows a)) g).
  Definition trie_keys (g : list action) : gset bytes := ⋃ (map (fun a => a_ins a ∪ a_del a) g).
  (** Two groups that touch different rows and different trie keys. *)
  Definition apart (g g' : list action) : Prop := row_keys g ## row_keys g' /\ trie_keys g ## trie_keys g'.
  Fixpoint all_apart (gs : list (list action)) : Prop :=
    match gs with [] => True | g :: r => Forall (apart g) r /\ all_apart r end.

  Lemma apart_sym g g' : apart g g' -> apart g' g.
  Proof. intros [A B]. by split; symmetry. Qed.

  Lemma all_apart_perm gs gs' : gs ≡ₚ gs' -> all_apart gs -> all_apart gs'.
  Proof.
    induction 1 as [|g l l' P IH|g g' l|l l' l'' _ IH1 _ IH2]; cbn [all_apart]; [done| | |by auto].
    - intros [H1 H2]. split; [by rewrite <- P|auto].
    - rewrite !Forall_cons. intros ((H1 & H2) & H3 & H4). split; [split; [by apply apart_sym|done]|done].
  Qed.

  Definition rows_fold (g : list action) (r : batch bytes) : batch bytes := fold_left (fun r a => a_rows a ∪ r) g r.
  Definition trie_fold (g : list action) (T : gset bytes) : gset bytes := fold_left (fun T a => (T ∪ a_ins a) ∖ a_del a) g T.
  Fixpoint gen_ids (n : nat) (g : idgen) : list N * idgen :=
    match n with
    | O => ([], g)
    | S n' => match generate_id false g with (Ok id, g') => let '(l, g2) := gen_ids n' g' in (id :: l, g2) | (_, g') => ([], g') end
    end.

  (** While ids last, a list of actions is what its parts are. *)
  Lemma acts_full l w : ok_gen (w_gen (acts w l)) = true ->
    acts w l = Wip (rows_fold l (w_rows w)) (w_bev w) (trie_fold l (w_trie w)) (gen_ids (length l) (w_gen w)).2 (w_last w)
                 (w_evs w ++ zip (gen_ids (length l) (w_gen w)).1 (map a_body l)) (w_app w) /\
    length (gen_ids (length l) (w_gen w)).1 = length l.
  Proof.
    revert w. induction l as [|a l IH]; intros w H.
    { cbn. rewrite app_nil_r. by destruct w. }
    rewrite acts_cons in *. pose proof (IH _ H) as [IH1 IH2]. rewrite IH1. clear IH IH1.
    assert (K : ok_gen (w_gen w) = true).
    { eapply gle_ok; [|exact H]. eapply gle_trans; [apply act_gle|apply acts_gle]. }
    clear H. destruct (gen_ok false _ K) as (id & g & G & _). unfold act in *. cbn [gen_ids length]. rewrite G in *.
    cbn [w_gen w_rows w_bev w_trie w_last w_evs w_app] in *. destruct (gen_ids (length l) g) as [ids g2]. cbn in *.
    rewrite <- (assoc_L (++)). split; [done|lia].
  Qed.

  Lemma rows_fold_out (g : list action) (r : batch bytes) (k : bytes) : k ∉ row_keys g -> rows_fold g r !! k = r !! k.
  Proof.
    revert r. induction g as [|a g IH]; intros r H; [done|]. unfold row_keys in H. cbn in H.
    apply not_elem_of_union in H as [H1 H2]. cbn [rows_fold fold_left]. etransitivity; [apply (IH _ H2)|].
    apply lookup_union_r. by apply not_elem_of_dom.
  Qed.
  Lemma rows_fold_local (g : list action) (r r' : batch bytes) (k : bytes) : r !! k = r' !! k -> rows_fold g r !! k = rows_fold g r' !! k.
  Proof.
    revert r r'. induction g as [|a g IH]; intros r r' H; [done|]. apply (IH (a_rows a ∪ r) (a_rows a ∪ r')).
    by rewrite !lookup_union, H.
  Qed.
  Lemma rows_fold_comm (g g' : list action) (r : batch bytes) : row_keys g ## row_keys g' -> rows_fold g (rows_fold g' r) = rows_fold g' (rows_fold g r).
  Proof.
    intros D. apply map_eq. intros k. destruct (decide (k ∈ row_keys g)) as [H|H].
    - rewrite (rows_fold_out g') by set_solver. apply rows_fold_local. apply rows_fold_out. set_solver.
    - rewrite (rows_fold_out g) by done. apply rows_fold_local. symmetry. by apply rows_fold_out.
  Qed.

  Lemma trie_fold_out (g : list action) (T : gset bytes) (k : bytes) : k ∉ trie_keys g -> k ∈ trie_fold g T <-> k ∈ T.
  Proof.
    revert T. induction g as [|a g IH]; intros T H; [done|]. unfold trie_keys in H. cbn in H.
    apply not_elem_of_union in H as [H1 H2]. cbn [trie_fold fold_left]. etransitivity; [apply (IH _ H2)|]. set_solver.
  Qed.
  Lemma trie_fold_local (g : list action) (T T' : gset bytes) (k : bytes) : (k ∈ T <-> k ∈ T') -> (k ∈ trie_fold g T <-> k ∈ trie_fold g T').
  Proof.
    revert T T'. induction g as [|a g IH]; intros T T' H; [done|].
    apply (IH ((T ∪ a_ins a) ∖ a_del a) ((T' ∪ a_ins a) ∖ a_del a)). rewrite !elem_of_difference, !elem_of_union. tauto.
  Qed.
  Lemma trie_fold_comm (g g' : list action) (T : gset bytes) : trie_keys g ## trie_keys g' -> trie_fold g (trie_fold g' T) = trie_fold g' (trie_fold g T).
  Proof.
    intros D. apply set_eq. intros k. destruct (decide (k ∈ trie_keys g)) as [H|H].
    - rewrite (trie_fold_out g' (trie_fold g T) k) by set_solver. apply trie_fold_local. apply trie_fold_out. set_solver.
    - rewrite (trie_fold_out g (trie_fold g' T) k) by done. apply trie_fold_local. symmetry. by apply trie_fold_out.
  Qed.

  Lemma rows_fold_app g g' r : rows_fold (g ++ g') r = rows_fold g' (rows_fold g r).
  Proof. apply fold_left_app. Qed.
  Lemma trie_fold_app g g' T : trie_fold (g ++ g') T = trie_fold g' (trie_fold g T).
  Proof. apply fold_left_app. Qed.

  Lemma concat_perm_len (gs gs' : list (list action)) : gs ≡ₚ gs' -> concat gs ≡ₚ concat gs'.
  Proof.
    induction 1 as [|g l l' P IH|g g' l|l l' l'' _ IH1 _ IH2]; cbn [concat]; [done|by rewrite IH| |by rewrite IH1].
    rewrite !(assoc_L (++)). f_equiv. apply (comm (++)).
  Qed.

  Lemma rows_fold_perm gs gs' r : gs ≡ₚ gs' -> all_apart gs -> rows_fold (concat gs) r = rows_fold (concat gs') r.
  Proof.
    intros P. revert r. induction P as [|g l l' P IH|g g' l|l l' l'' P1 IH1 P2 IH2]; intros r A; cbn [concat].
    - done.
    - rewrite !rows_fold_app. destruct A as [_ A]. by rewrite IH.
    - destruct A as [A _]. apply Forall_cons in A as [[A _] _]. rewrite !rows_fold_app. by rewrite (rows_fold_comm g).
    - rewrite IH1 by done. apply IH2. by eapply all_apart_perm.
  Qed.
  Lemma trie_fold_perm gs gs' T : gs ≡ₚ gs' -> all_apart gs -> trie_fold (concat gs) T = trie_fold (concat gs') T.
  Proof.
    intros P. revert T. induction P as [|g l l' P IH|g g' l|l l' l'' P1 IH1 P2 IH2]; intros r A; cbn [concat].
    - done.
    - rewrite !trie_fold_app. destruct A as [_ A]. by rewrite IH.
    - destruct A as [A _]. apply Forall_cons in A as [[_ A] _]. rewrite !trie_fold_app. by rewrite (trie_fold_comm g).
    - rewrite IH1 by done. apply IH2. by eapply all_apart_perm.
  Qed.

  (** The number of ids used does not depend on the actions. *)
  Lemma acts_gen l l' w : length l = length l' -> w_gen (acts w l) = w_gen (acts w l').
  Proof.
    revert l' w. assert (G : forall l w w', w_gen w = w_gen w' -> forall l', length l = length l' -> w_gen (acts w l) = w_gen (acts w' l')).
    { intros l0. induction l0 as [|a l0 IH]; intros w w' H [|a' l'] L; try done. rewrite !acts_cons.
      apply IH; [|by injection L]. unfold act. rewrite H.
      by destruct (generate_id false (w_gen w')) as [[id|er|] g]. }
    intros l' w L. by apply G.
  Qed.

  Lemma acts_perm gs gs' w : gs ≡ₚ gs' -> all_apart gs -> ok_gen (w_gen (acts w (concat gs))) = true ->
    weq (acts w (concat gs)) (acts w (concat gs')).
  Proof.
    intros P A H. pose proof (concat_perm_len _ _ P) as L. pose proof (Permutation_length L) as L1.
    pose proof H as H'. rewrite (acts_gen _ _ w L1) in H'.
    destruct (acts_full _ _ H) as [-> N1]. destruct (acts_full _ _ H') as [-> N2].
    rewrite <- L1 in *. split; [|split]; cbn.
    - unfold core. cbn. by rewrite (rows_fold_perm gs gs'), (trie_fold_perm gs gs').
    - rewrite !fmap_app, !fst_zip; [done| |]; rewrite map_length; rewrite <- ?L1; lia.
    - rewrite !fmap_app, !snd_zip; [|rewrite map_length; lia..]. f_equiv. by apply Permutation_map.
  Qed.

  (** The closing loops over hash sets do work on different rows and trie keys. *)
  Definition tails_apart : Prop := forall ph t v fid m, all_apart (x_tail E ph t v fid m).
  (** An iteration order visits every group once. *)
  Definition is_order (o : order) : Prop := forall l, o l ≡ₚ l.

  Lemma do_tail_weq o o' d t ph fid m w w' : tails_apart -> is_order o -> is_order o' -> weq w w' ->
    ok_gen (w_gen (do_tail E o d t ph fid m w)) = true -> weq (do_tail E o d t ph fid m w) (do_tail E o' d t ph fid m w').
  Proof.
    intros T O O' W H. unfold do_tail in *. cbv zeta in *. rewrite <- (view_core d _ _ (proj1 W)).
    eapply weq_trans; [|apply (appends_weq (fun w => acts w _) w w' (acts_appends _) W)].
    destruct (ph =? 2); [done|]. apply acts_perm; [etransitivity; [apply O|symmetry; apply O']| |done]. eapply all_apart_perm; [symmetry; apply O|apply T].
  Qed.

  Lemma run_txn_weq o o' d t w w' tx : tails_apart -> is_order o -> is_order o' -> weq w w' ->
    ok_gen (w_gen (run_txn E o d t w tx)) = true -> weq (run_txn E o d t w tx) (run_txn E o' d t w' tx).
  Proof.
    intros T O O' W H. unfold run_txn in *. cbv zeta in *.
    set (w1 := do_items E d t (t_fid tx) w (t_sys tx)) in *. set (w1' := do_items E d t (t_fid tx) w' (t_sys tx)).
    assert (W1 : weq w1 w1') by apply (appends_weq _ _ _ (do_items_appends d t (t_fid tx) (t_sys tx)) W).
    assert (M1 : new_evs w w1 = new_evs w' w1').
    { apply (new_evs_eq (fun w => do_items E d t (t_fid tx) w (t_sys tx)) w w'); [apply do_items_appends|apply W]. }
    rewrite <- M1. set (m1 := new_evs w w1) in *. clearbody m1 w1 w1'. clear M1.
    set (w2 := do_tail E o d t 0 (t_fid tx) m1 w1) in *. set (w2' := do_tail E o' d t 0 (t_fid tx) m1 w1').
    set (w3 := do_items E d t (t_fid tx) w2 (map IMsg (t_user tx))) in *.
    set (w3' := do_items E d t (t_fid tx) w2' (map IMsg (t_user tx))).
    set (m3 := m1 ++ new_evs w2 w3) in *.
    set (w4 := do_tail E o d t 1 (t_fid tx) m3 w3) in *.
    assert (H4 : ok_gen (w_gen w4) = true) by exact (gle_ok _ _ (do_tail_gle E o d t 2 (t_fid tx) m3 w4) H).
    assert (H3 : ok_gen (w_gen w3) = true) by exact (gle_ok _ _ (do_tail_gle E o d t 1 (t_fid tx) m3 w3) H4).
    assert (H2 : ok_gen (w_gen w2) = true) by exact (gle_ok _ _ (do_items_gle E d t (t_fid tx) (map IMsg (t_user tx)) w2) H3).
    assert (W2 : weq w2 w2') by by apply do_tail_weq.
    assert (W3 : weq w3 w3') by apply (appends_weq _ _ _ (do_items_appends d t (t_fid tx) _) W2).
    assert (M3 : m3 = m1 ++ new_evs w2' w3').
    { unfold m3. f_equal. apply (new_evs_eq (fun w => do_items E d t (t_fid tx) w (map IMsg (t_user tx))) w2 w2');
        [apply do_items_appends|apply W2]. }
    rewrite <- M3. clearbody m3.
    assert (W4 : weq w4 (do_tail E o' d t 1 (t_fid tx) m3 w3')) by by apply do_tail_weq.
    by apply do_tail_weq.
  Qed.

  (** ** Preparing and replaying *)

  Lemma run_txn_root o d t w fid s u r r' : run_txn E o d t w (Txn fid s u r) = run_txn E o d t w (Txn fid s u r').
  Proof. done. Qed.

  Lemma prepare_replay o d t l w w2 l' : prepare E o d t w l = (w2, l') -> replay_txns E o d t w l' = (w2, true).
  Proof.
    revert w w2 l'. induction l as [|tx l IH]; intros w w2 l'; cbn [prepare]; [by intros [= <- <-]|].
    destruct (prepare E o d t (run_txn E o d t w tx) l) as [w3 r'] eqn:P. intros [= <- <-]. cbn [replay_txns t_fid t_root].
    rewrite (run_txn_root o d t w (t_fid tx) (t_sys tx) (t_user tx) _ (t_root tx)).
    assert (Q : Txn (t_fid tx) (t_sys tx) (t_user tx) (t_root tx) = tx) by by destruct tx.
    rewrite Q, beq_refl. by apply IH.
  Qed.

  Lemma replay_txns_weq o o' d t l w w' w2 : tails_apart -> is_order o -> is_order o' -> weq w w' ->
    replay_txns E o d t w l = (w2, true) -> ok_gen (w_gen w2) = true ->
    exists w2', replay_txns E o' d t w' l = (w2', true) /\ weq w2 w2'.
  Proof.
    intros T O O'. revert w w'. induction l as [|tx l IH]; intros w w' W; cbn [replay_txns].
    { intros [= <-] _. by exists w'. }
    set (w1 := run_txn E o d t w tx). destruct (beq (x_acct E (w_trie w1) (t_fid tx)) (t_root tx)) eqn:B; [|done].
    intros R H. assert (K : ok_gen (w_gen w1) = true).
    { pose proof (replay_txns_gle E o d t l w1) as G. rewrite R in G. by eapply gle_ok. }
    pose proof (run_txn_weq o o' d t w w' tx T O O' W K) as W1. fold w1 in W1.
    pose proof (core_eq _ _ (proj1 W1)) as (_ & _ & Q & _). rewrite <- Q, B. by eapply IH.
  Qed.

  Lemma replay_weq o o' d t l w w' w2 root : tails_apart -> is_order o -> is_order o' -> weq w w' ->
    replay E o d t w l root = (w2, true) -> ok_gen (w_gen w2) = true ->
    exists w2', replay E o' d t w' l root = (w2', true) /\ weq w2 w2'.
  Proof.
    intros T O O' W. unfold replay. destruct (replay_txns E o d t w l) as [w3 ok] eqn:R. intros [= <- [-> B]%andb_prop] H.
    destruct (replay_txns_weq o o' d t l w w' w3 T O O' W R H) as (w2' & -> & W2). exists w2'.
    pose proof (core_eq _ _ (proj1 W2)) as (_ & _ & Q & _). by rewrite <- Q, B.
  Qed.

  (** ** The engine between commits *)

  Definition good (e : eng) : Prop := e_mem e = d_trie (e_db e).

  Lemma good_open d : good (open_eng d). Proof. done. Qed.

  Lemma serve_db e r : e_db (serve E e r) = e_db e.
  Proof.
    destruct r as [h|o t l|o h p]; cbn [serve]; [done| |].
    - unfold propose. by destruct (prepare _ _ _ _ _ _).
    - unfold validate. by destruct (replay _ _ _ _ _ _ _).
  Qed.
  Lemma serve_good e r : good e -> good (serve E e r).
  Proof.
    destruct r as [h|o t l|o h p]; cbn [serve]; unfold good; [done| |].
    - unfold propose. by destruct (prepare _ _ _ _ _ _).
    - unfold validate. by destruct (replay _ _ _ _ _ _ _).
  Qed.
  Lemma serves_db rs e : e_db (fold_left (serve E) rs e) = e_db e.
  Proof. revert e. induction rs as [|r rs IH]; intros e; [done|]. cbn. by rewrite IH, serve_db. Qed.
  Lemma serves_good rs e : good e -> good (fold_left (serve E) rs e).
  Proof. revert e. induction rs as [|r rs IH]; intros e H; [done|]. cbn. by apply IH, serve_good. Qed.

  Lemma good_wip0 e g : good e -> wip0 (e_db e) (e_mem e) g = wip0 (e_db e) (d_trie (e_db e)) g.
  Proof. by intros ->. Qed.

  Lemma commit_good o e c e' w : commit_chunk E o e c = Some (e', w) -> good e'.
  Proof. unfold commit_chunk. destruct (commit_first E o e c) as [w1|]; [|done]. by intros [= <- _]. Qed.

  Lemma height_good e rs o c e' app : height_step E e rs o c = Some (e', app) -> good e'.
  Proof.
    unfold height_step. destruct (commit_chunk _ _ _ _) as [[e1 w]|] eqn:C; [|done]. intros [= <- _].
    by apply commit_good in C.
  Qed.

  Lemma chain_good l e app e' app' : good e -> run_chain E e app l = Some (e', app') -> good e'.
  Proof.
    revert e app. induction l as [|[[rs o] c] l IH]; intros e app G; cbn [run_chain]; [by intros [= <- _]|].
    destruct (height_step E e rs o c) as [[e1 a1]|] eqn:H; [|done]. apply IH. by eapply height_good.
  Qed.

  (** ** What the cached transaction is *)

  (** A restriction on iteration orders, [is_order] or nothing. *)
  Context (Q : order -> Prop).

  (** [w] is what proposing or validating something produced on the committed state [d]. *)
  Definition result_on (d : db) (w : wip) : Prop :=
    exists o t l g, Q o /\ ((prepare E o d t (wip0 d (d_trie d) g) l).1 = w \/ exists root, replay E o d t (wip0 d (d_trie d) g) l root = (w, true)).

  Definition req_order (r : req) : Prop := match r with RRound _ => True | RPropose o _ _ => Q o | RValidate o _ _ => Q o end.

  Definition pend_ok (e : eng) : Prop :=
    forall p, e_pend e = Some p -> result_on (e_db e) (pd_w p) /\ x_root E (w_trie (pd_w p)) = pd_root p.

  Lemma serve_pend e r : req_order r -> good e -> pend_ok e -> pend_ok (serve E e r).
  Proof.
    intros HQ G P. destruct r as [h|o t l|o h p]; cbn [serve]; cbn in HQ.
    - by intros q.
    - unfold propose. rewrite good_wip0 by done.
      destruct (prepare E o (e_db e) t (wip0 (e_db e) (d_trie (e_db e)) (e_gen e)) l) as [w l'] eqn:X.
      intros q [= <-]. cbn. split; [|done]. exists o, t, l, (e_gen e). split; [done|]. left. by rewrite X.
    - unfold validate. rewrite good_wip0 by done.
      destruct (replay E o (e_db e) (p_time p) (wip0 (e_db e) (d_trie (e_db e)) (set_current_height h)) (p_txns p) (p_root p)) as [w ok] eqn:X.
      destruct ok; [|exact P]. intros q [= <-]. cbn. split.
      + exists o, (p_time p), (p_txns p), (set_current_height h). split; [done|]. right. by exists (p_root p).
      + unfold replay in X. destruct (replay_txns _ _ _ _ _ _) as [w3 ok]. injection X as <- [-> B]%andb_prop. by apply beq_true in B.
  Qed.
  Lemma serves_pend rs e : Forall req_order rs -> good e -> pend_ok e -> pend_ok (fold_left (serve E) rs e).
  Proof.
    intros F. revert e. induction F as [|r rs Hr F IH]; intros e G P; [done|]. cbn. apply IH; [by apply serve_good|by apply serve_pend].
  Qed.

  (** The generator is the one the cached transaction ended with. *)
  Definition pend_gen (e : eng) : Prop := forall p, e_pend e = Some p -> e_gen e = w_gen (pd_w p).

  Lemma serves_gen rs e : pend_gen e -> all_valid E e rs = true -> pend_gen (fold_left (serve E) rs e).
  Proof.
    revert e. induction rs as [|r rs IH]; intros e P; [done|]. cbn [all_valid fold_left]. intros [V R]%andb_prop. apply IH; [|done].
    clear IH R. destruct r as [h|o t l|o h p]; cbn [serve].
    - by intros q.
    - unfold propose. destruct (prepare _ _ _ _ _ _) as [w l']. by intros q [= <-].
    - unfold validate in *. destruct (replay _ _ _ _ _ _ _) as [w ok]. cbn in V. subst ok. by intros q [= <-].
  Qed.
End E.

#[global] Opaque generate_id.
