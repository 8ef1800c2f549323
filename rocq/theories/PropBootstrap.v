(** C72: a node bootstrapped from a snapshot holds the state of the node that took it. *)
From Coq Require Import ZifyN ZifyNat ZifyBool.
From Verif Require Import Store StoreSpec StoreProofs StoreDefs StoreTop PropStore Bootstrap BootstrapProofs NamesProofs
  PropNames OnChainProofs PropOnChain.
#[local] Open Scope N_scope.

(** A link that a compact state of the account would remove: not newer, of its type (when compaction is per type), and not
    an addition of a listed target. *)
Definition superseded (scoped : bool) (c x : msg) : bool :=
  match m_body c, m_body x with
  | BLinkCompact ty targets, BLink ty' t =>
    (m_ts x <=? m_ts c) && (negb scoped || bool_decide (ty' = ty))
    && negb ((m_type x =? T_LinkAdd) && match t with Some y => bool_decide (y ∈ targets) | None => false end)
  | _, _ => false
  end.
Definition settled (cx : msg -> mctx) (v : smap) : Prop := forall f s c t x,
  s_comp v !! (f, s) = Some c -> s_rows v !! (f, t) = Some x -> superseded (c_scoped (cx c)) c x = false.
(** Lends of 0 units are pruned when merged (C24), so none is stored. *)
Definition no_zero_lends (v : smap) : Prop := forall k m, s_rows v !! k = Some m -> zero_lend m = false.

Lemma covered_link scoped c x : set_msg link_def x = true -> covered link_def scoped c x = superseded scoped c x.
Proof.
  intros Sx. destruct (link_set_body x Sx) as (ty' & t & B & Ht & Ha). unfold covered, superseded, compact_details.
  destruct (m_body c) as [| | | |ty targets| | | | |]; try done. rewrite B.
  destruct (m_ts x <=? m_ts c); [|done]. cbn [andb]. unfold is_compaction_conflict. rewrite B. cbn [d_is_rem d_is_add link_def].
  destruct scoped; cbn [negb andb orb].
  - destruct (bool_decide (ty' = ty)); [|done]. cbn [negb andb]. destruct Ht as [Ht|Ht]; rewrite Ht; [|done].
    cbn. by destruct (Ha Ht) as [y ->].
  - destruct Ht as [Ht|Ht]; rewrite Ht; [|done]. cbn. by destruct (Ha Ht) as [y ->].
Qed.
Lemma comp_zero_lend D c : d_is_comp D c = true -> (forall m, d_is_comp D m = true -> m_type m <> T_Lend) -> zero_lend c = false.
Proof. intros H1 H2. unfold zero_lend. by rewrite (proj2 (N.eqb_neq _ _) (H2 c H1)). Qed.
Lemma store_comp_type D rk : a_store D rk -> forall m, d_is_comp D m = true -> D = link_def /\ m_type m <> T_Lend.
Proof.
  intros [| |chan Hc| | |] m; cbn; try done. intros H. split; [done|]. apply N.eqb_eq in H. by rewrite H.
Qed.
Lemma stored_zero D rk v : a_store D rk -> comp_ok D v -> no_zero_lends v -> forall m, stored v m -> zero_lend m = false.
Proof.
  intros HD Hc Hz m [[k H]|[[f s] H]]; [by apply (Hz k)|].
  apply Hc in H as (H & _). apply comp_msg_facts in H as (_ & _ & H & _).
  destruct (store_comp_type D rk HD m H) as [_ E]. unfold zero_lend. by rewrite (proj2 (N.eqb_neq _ _) E).
Qed.

(** Whatever the history of the serving node, if none of its stored links is superseded by a stored compact state, replaying
    the snapshot yields its store -- messages, tombstones, compact states and every index -- for every order of the
    messages, every division into pages and with any repetitions. *)
Theorem C72_replay_rebuilds : forall D rk cx strict ops ps,
  a_store D rk -> fine D cx strict start ops = true -> pairwise coherent (merged_msgs ops) = true ->
  no_zero_lends (view D cx ops) -> settled cx (view D cx ops) ->
  (forall m, m ∈ concat ps <-> stored (view D cx ops) m) ->
  play D cx ps = Some (view D cx ops).
Proof.
  intros D rk cx strict ops ps HD Hf Hco Hz Hset Hps.
  destruct (reach_inv D rk cx strict ops (merged_msgs ops) HD Hf) as [_ [[W HR] Hc]]; [done|done|].
  apply (play_rebuilds D rk cx (a_store_ok D rk HD) (US D (merged_msgs ops)) (US_set _ _)
    (fun a b => US_coherent _ _ a b Hco) _ W HR Hc); [|by apply (stored_zero D rk)|done].
  intros c [[f s] H] t x Hx. pose proof (Hc _ _ _ H) as (Cc & Ef & _).
  pose proof (comp_msg_facts D c Cc) as (_ & _ & Hk & _). destruct (store_comp_type D rk HD c Hk) as [-> _].
  rewrite covered_link; [rewrite Ef in Hx; by apply (Hset f s c t x)|].
  apply (R_rows _ _ _ _ _ HR) in Hx as (Hx & _). apply (R_wf _ _ _ _ _ HR) in Hx as [[_ Hx] _]. done.
Qed.

(** Such are the link stores of histories in which compaction is per type, runs on committed state, and no link has the
    timestamp of a compact state of the same account and type. *)
Definition apart_in_time (ms : list msg) : bool :=
  pairwise (fun c x => match m_body c, m_body x with
    | BLinkCompact ty _, BLink ty' _ => negb ((m_fid c =? m_fid x) && bool_decide (ty = ty') && (m_ts c =? m_ts x))
    | _, _ => true end) ms.
Lemma view_in_ms cx strict ops ms : fine link_def cx strict start ops = true -> merged_msgs ops ⊆ ms -> pairwise coherent ms = true ->
  (forall f s c, s_comp (view link_def cx ops) !! (f, s) = Some c -> c ∈ ms).
Proof.
  intros Hf Hs Hco.
  assert (G : forall ops st, fine link_def cx strict st ops = true -> merged_msgs ops ⊆ ms ->
    vinv link_def cx (US link_def ms) st.1 -> vinv link_def cx (US link_def ms) st.2 ->
    (forall f s c, s_comp st.1 !! (f, s) = Some c -> c ∈ ms) -> (forall f s c, s_comp st.2 !! (f, s) = Some c -> c ∈ ms) ->
    forall f s c, s_comp (srun link_def cx st ops).2 !! (f, s) = Some c -> c ∈ ms).
  2:{ apply G; try done; apply vinv_empty. }
  clear ops Hf Hs. induction ops as [|o ops IH]; intros [db v] Hf Hs Hv1 Hv2 Hp1 Hp2; [done|].
  pose proof (fine_run_ok link_def cx strict ms _ (db, v) Hs Hf) as Hrun.
  cbn [fine] in Hf. apply andb_true_iff in Hf as [Ho Hf]. destruct Hrun as [Hok _].
  pose proof (sstep_inv link_def lww_rank cx link_def_ok (US link_def ms) (US_set _ ms)
    (fun a b => US_coherent _ ms a b Hco) db v o Hv1 Hv2 Hok) as [Hv1' Hv2'].
  unfold srun. cbn [foldl]. fold (srun link_def cx (sstep link_def cx (db, v) o) ops).
  apply IH; try done.
  - intros x Hx. apply Hs. unfold merged_msgs in *. cbn. destruct o; try done. by right.
  - destruct o; done.
  - clear IH Hf. cbn [fst snd] in *. destruct Hv2 as [[W HR] Hc].
    destruct o as [m|f c mx|f key| |]; cbn [sstep fst snd]; try done.
    + destruct Hok as [Um|[Hi|[Hm Hsc]]].
      * destruct (merge_cases link_def lww_rank cx link_def_ok (US link_def ms) (US_set _ ms)
          (fun a b => US_coherent _ ms a b Hco) db v W m HR Um) as (v' & r & -> & [(e & _ & ->)|(l & _ & _ & Ec & _)]);
          cbn [fst]; [done|by rewrite Ec].
      * by rewrite merge_ignored.
      * rewrite merge_comp_unfold by done.
        destruct (merge_compact_spec link_def lww_rank cx link_def_ok (US link_def ms) (US_set _ ms)
          (fun a b => US_coherent _ ms a b Hco) db v W (c_scoped (cx m)) m HR Hc Hm Hsc)
          as (v' & r & -> & [(x & _ & _ & -> & _)|(Hold & l & _ & Hl & HR' & Ec)]); cbn [fst]; [done|].
        rewrite Ec. intros f s c. rewrite lookup_insert_Some. intros [[_ <-]|[_ H]]; [|by apply (Hp2 f s)].
        apply Hs. left.
    + cbn in Hok. unfold prune_messages. destruct (c <=? mx); [done|].
      destruct (prune_loop_spec link_def lww_rank cx link_def_ok (US link_def ms) (US_set _ ms)
        (fun a b => US_coherent _ ms a b Hco) (rows_of (s_rows db) f) v W c mx [] HR (scan_winners _ _ _ db v W f HR Hok))
        as (v' & -> & HR' & Ec). cbn [fst]. by rewrite Ec.
    + cbn in Hok. unfold revoke_by_signer.
      destruct (revoke_loop_spec link_def lww_rank cx link_def_ok (US link_def ms) (US_set _ ms)
        (fun a b => US_coherent _ ms a b Hco) key (rows_of (s_rows db) f) v W [] HR (scan_winners _ _ _ db v W f HR Hok))
        as (v' & -> & HR' & Ec). cbn [fst]. by rewrite Ec.
Qed.
Theorem C72_links_rebuilt_partial : forall cx ops ps,
  fine link_def cx true start ops = true -> pairwise coherent (merged_msgs ops) = true ->
  forallb plain (merged_msgs ops) = true -> (forall m, c_scoped (cx m) = true) -> apart_in_time (merged_msgs ops) = true ->
  (forall m, m ∈ concat ps <-> stored (view link_def cx ops) m) ->
  play link_def cx ps = Some (view link_def cx ops).
Proof.
  intros cx ops ps Hf Hco Hpl Hsc Hap Hps.
  destruct (reach_inv link_def lww_rank cx true ops (merged_msgs ops) st_link Hf) as [_ [[W HR] Hc]]; [done|done|].
  assert (Hrow : forall f t x, s_rows (view link_def cx ops) !! (f, t) = Some x -> US link_def (merged_msgs ops) x /\ m_fid x = f).
  { intros f t x Hx. apply (R_rows _ _ _ _ _ HR) in Hx as (Hx & <- & _). by apply (R_wf _ _ _ _ _ HR) in Hx as [Hx _]. }
  apply (C72_replay_rebuilds link_def lww_rank cx true); try done.
  - apply st_link.
  - intros [f t] m Hm. apply Hrow in Hm as [[_ Sm] _]. destruct (link_set_body m Sm) as (? & ? & _ & Ht & _).
    unfold zero_lend. by destruct Ht as [-> | ->].
  - intros f s c t x Hcs Hx. pose proof (Hrow _ _ _ Hx) as [[Xm Sx] Ef].
    destruct (link_set_body x Sx) as (ty' & tg & B & Ht & Ha).
    unfold superseded. destruct (m_body c) as [| | | |ty targets| | | | |] eqn:Bc; try done. rewrite B, Hsc. cbn [negb orb].
    destruct (bool_decide_reflect (ty' = ty)) as [->|]; [|by rewrite andb_false_r].
    destruct (N.leb_spec (m_ts x) (m_ts c)) as [L|]; [|done]. cbn [andb].
    assert (Hts : m_ts x <> m_ts c).
    { intros E. pose proof (view_in_ms cx true ops (merged_msgs ops) Hf ltac:(done) Hco _ _ _ Hcs) as Cm.
      pose proof (pairwise_elem _ _ c x Hap Cm Xm) as P. cbn beta in P. rewrite Bc, B in P.
      pose proof (Hc _ _ _ Hcs) as (_ & Efc & _). rewrite Efc, Ef, E, !N.eqb_refl, bool_decide_true in P by done. done. }
    destruct (C18_stored_links_respect_compact_state cx ops f s c ty targets t x) as [L1 (y & L2 & L3)]; try done.
    + unfold link_type. by rewrite B.
    + lia.
    + rewrite L1. cbn. unfold link_target in L2. rewrite B in L2. subst tg. by rewrite bool_decide_true.
Qed.

(** Otherwise some division into pages loses the superseded link, although all messages of the snapshot are replayed and all
    pages succeed: replay is faithful exactly for settled stores. *)
Lemma comp_list (v : smap) : exists l : list msg, forall c, c ∈ l <-> exists k, s_comp v !! k = Some c.
Proof.
  exists (map_to_list (s_comp v)).*2. intros c. rewrite elem_of_list_fmap. split.
  - intros ([k c'] & -> & H). apply elem_of_map_to_list in H. eauto.
  - intros [k H]. exists (k, c). split; [done|]. by apply elem_of_map_to_list.
Qed.
Lemma row_list (v : smap) : exists l : list msg, forall c, c ∈ l <-> exists k, s_rows v !! k = Some c.
Proof.
  exists (map_to_list (s_rows v)).*2. intros c. rewrite elem_of_list_fmap. split.
  - intros ([k c'] & -> & H). apply elem_of_map_to_list in H. eauto.
  - intros [k H]. exists (k, c). split; [done|]. by apply elem_of_map_to_list.
Qed.
Theorem C72_superseded_link_lost : forall cx strict ops f s c t x,
  fine link_def cx strict start ops = true -> pairwise coherent (merged_msgs ops) = true ->
  s_comp (view link_def cx ops) !! (f, s) = Some c -> s_rows (view link_def cx ops) !! (f, t) = Some x ->
  superseded (c_scoped (cx c)) c x = true ->
  exists ps v', (forall m, m ∈ concat ps <-> stored (view link_def cx ops) m) /\ play link_def cx ps = Some v' /\
    s_rows v' !! (f, t) <> Some x.
Proof.
  intros cx strict ops f s c t x Hf Hco Hcs Hx Hsup. set (v := view link_def cx ops) in *.
  destruct (reach_inv link_def lww_rank cx strict ops (merged_msgs ops) st_link Hf) as [_ [[W HR] Hc]]; [done|done|]. fold v in HR, Hc.
  pose proof (US_set link_def (merged_msgs ops)) as HU.
  assert (HC : forall a b, US link_def (merged_msgs ops) a -> US link_def (merged_msgs ops) b -> coherent a b = true)
    by (intros a b; by apply US_coherent).
  destruct (row_list v) as [rl Hrl]. destruct (comp_list v) as [cl Hcl].
  pose (v1 := SMap (s_rows v) (s_adds v) (s_rems v) ∅ (s_idx v)).
  assert (HR1 : R link_def cx (US link_def (merged_msgs ops)) v1 W) by (by apply R_comp).
  assert (Hc1 : comp_ok link_def v1) by (intros f' s' c' H; cbn in H; by rewrite lookup_empty in H).
  assert (Hrow : forall k m, s_rows v !! k = Some m -> set_msg link_def m = true).
  { intros [f' t'] m Hm. apply (R_rows _ _ _ _ _ HR) in Hm as (Hm & _). apply (R_wf _ _ _ _ _ HR) in Hm as [[_ Hm] _]. done. }
  assert (E1 : play link_def cx [rl] = Some v1).
  { apply (play_rebuilds link_def lww_rank cx link_def_ok (US link_def (merged_msgs ops)) HU HC v1 W HR1 Hc1).
    - intros c' [k H]. cbn in H. by rewrite lookup_empty in H.
    - intros m [[k H]|[k H]]; [|cbn in H; by rewrite lookup_empty in H]. apply Hrow in H.
      destruct (link_set_body m H) as (? & ? & _ & Ht & _). unfold zero_lend. by destruct Ht as [-> | ->].
    - intros m. cbn [concat]. rewrite app_nil_r, Hrl. unfold stored. cbn. split; [by left|].
      intros [H|[k H]]; [done|]. by rewrite lookup_empty in H. }
  assert (Hcz : forall d, d ∈ cl -> comp_msg link_def d = true /\ zero_lend d = false).
  { intros d Hd. apply Hcl in Hd as [[f' s'] Hd]. apply Hc in Hd as (Hd & _). split; [done|].
    apply comp_msg_facts in Hd as (_ & _ & Hd & _). cbn in Hd. apply N.eqb_eq in Hd. unfold zero_lend. by rewrite Hd. }
  destruct (Hcz c) as [Cc Zc]; [apply Hcl; eauto|].
  destruct (play_comp_page link_def lww_rank cx link_def_ok _ HU HC v1 W c HR1 Cc Zc) as (v2 & l & E2 & HR2 & Hl & _).
  pose proof (proj1 (R_rows _ _ _ _ _ HR _ _ _) Hx) as (Hw & Exf & Ext).
  pose proof (Hc _ _ _ Hcs) as (_ & Ecf & _).
  assert (Hxl : x ∈ l).
  { apply Hl. split; [cbn; by rewrite Ecf, Ext|]. rewrite covered_link by (by apply (Hrow (f, t))). done. }
  destruct (play_comp_pages link_def lww_rank cx link_def_ok _ HU HC cl v2 (wminus W l) (wkey link_def x) x HR2)
    as (v3 & W3 & E3 & HR3 & Hn); [rewrite wminus_lookup; tauto|done|].
  exists ([rl] ++ [[c]] ++ map (fun c => [c]) cl), v3. split; [|split].
  - intros m. rewrite concat_app. cbn [concat app]. rewrite app_nil_r, elem_of_app, elem_of_cons, Hrl.
    assert (Ecl : m ∈ concat (map (fun c => [c]) cl) <-> m ∈ cl).
    { clear. induction cl as [|d cl IH]; [done|]. cbn [map concat app]. by rewrite !elem_of_cons, IH. }
    rewrite Ecl, Hcl. unfold stored. split; [|tauto]. intros [H|[->|H]]; [by left|right; eauto|by right].
  - unfold play in *. rewrite foldl_app, E1. cbn [app foldl]. rewrite E2. exact E3.
  - intros H. apply (R_rows _ _ _ _ _ HR3) in H as (H & _). done.
Qed.

(** Concrete case: on the server the account's compact state (time 10, no targets) is followed by a follow of account 5 of
    the same second, which the code accepts.  Replayed from two pages the follow is gone, while its trie key was inserted;
    an unfollow then removes the key at the server only, and the state roots differ. *)
Definition bx_link (ty ts : N) (h : N) : msg := Msg ty 7 ts (repeat h 20) [] (BLink [102] (Some 5)).
Definition bx_comp : msg := Msg T_LinkCompact 7 10 (repeat 3 20) [] (BLinkCompact [102] []).
Definition bx_cx (_ : msg) : mctx := MCtx true true.
Definition bx_ops : list sop := [OMerge bx_comp; OCommit; OMerge (bx_link T_LinkAdd 10 1); OCommit].
Definition same_store (a b : smap) : bool :=
  bool_decide (s_rows a = s_rows b) && bool_decide (s_adds a = s_adds b) && bool_decide (s_rems a = s_rems b)
  && bool_decide (s_comp a = s_comp b) && bool_decide (s_idx a = s_idx b).
Lemma same_store_eq a b : same_store a b = true -> a = b.
Proof.
  unfold same_store. rewrite !andb_true_iff, !bool_decide_eq_true. destruct a, b. cbn. by intros [[[[-> ->] ->] ->] ->].
Qed.
#[local] Instance sevent_eq_dec : EqDecision sevent. Proof. solve_decision. Defined.
Definition bx_replay (ps : list (list msg)) (P : smap -> bool) : bool :=
  match play link_def bx_cx ps with Some v' => P v' | None => false end.
Lemma bx_replay_some ps P : bx_replay ps P = true -> exists v', play link_def bx_cx ps = Some v' /\ P v' = true.
Proof. unfold bx_replay. destruct (play link_def bx_cx ps) as [v'|]; [eauto|done]. Qed.
Definition bx_slot : bytes := pad8 [102] ++ make_fid_key 5.
Definition bx_unfollow (v : smap) (del : list msg) : bool :=
  let r := bx_link T_LinkRemove 11 2 in bool_decide ((Store.merge link_def v v (bx_cx r) r).2 = inr (EvMerge r del)).
Theorem C72_equal_time_refuted :
  let v := view link_def bx_cx bx_ops in let r := bx_link T_LinkRemove 11 2 in
  fine link_def bx_cx true start bx_ops = true /\ pairwise coherent (merged_msgs bx_ops) = true /\
  play link_def bx_cx [[bx_link T_LinkAdd 10 1; bx_comp]] = Some v /\
  exists v', play link_def bx_cx [[bx_link T_LinkAdd 10 1]; [bx_comp]] = Some v' /\
    get_add v 7 bx_slot = Some (bx_link T_LinkAdd 10 1) /\ get_add v' 7 bx_slot = None /\
    (Store.merge link_def v v (bx_cx r) r).2 = inr (EvMerge r [bx_link T_LinkAdd 10 1]) /\
    (Store.merge link_def v' v' (bx_cx r) r).2 = inr (EvMerge r []).
Proof.
  cbn zeta. split; [vm_compute; reflexivity|]. split; [vm_compute; reflexivity|].
  assert (B1 : bx_replay [[bx_link T_LinkAdd 10 1; bx_comp]] (fun a => same_store a (view link_def bx_cx bx_ops)) = true)
    by (vm_compute; reflexivity).
  assert (B2 : bx_replay [[bx_link T_LinkAdd 10 1]; [bx_comp]]
    (fun a => bool_decide (get_add a 7 bx_slot = None) && bx_unfollow a []) = true) by (vm_compute; reflexivity).
  assert (B3 : bx_unfollow (view link_def bx_cx bx_ops) [bx_link T_LinkAdd 10 1] = true) by (vm_compute; reflexivity).
  apply bx_replay_some in B1 as (v1 & E1 & B1), B2 as (v2 & E2 & B2).
  apply same_store_eq in B1. rewrite B1 in E1. apply andb_true_iff in B2 as [B2 B4].
  split; [exact E1|]. exists v2. split; [exact E2|]. split; [vm_compute; reflexivity|].
  split; [exact (bool_decide_eq_true_1 _ B2)|]. split; [exact (bool_decide_eq_true_1 _ B3)|exact (bool_decide_eq_true_1 _ B4)].
Qed.
Definition bx_ops2 : list sop := [OMerge (bx_link T_LinkAdd 9 1); OCommit; OMerge bx_comp; OMerge (bx_link T_LinkAdd 12 4); OCommit].
Example C72_rebuild_ex :
  fine link_def bx_cx true start bx_ops2 = true /\ pairwise coherent (merged_msgs bx_ops2) = true /\
  forallb plain (merged_msgs bx_ops2) = true /\ apart_in_time (merged_msgs bx_ops2) = true /\
  bx_replay [[bx_link T_LinkAdd 12 4]; [bx_comp; bx_comp]] (fun a => same_store a (view link_def bx_cx bx_ops2)) = true /\
  size (s_rows (view link_def bx_cx bx_ops2)) = 1%nat /\ size (s_comp (view link_def bx_cx bx_ops2)) = 1%nat.
Proof. do 6 (split; [vm_compute; reflexivity|]). vm_compute. reflexivity. Qed.

(** ** Registered names *)

(** Without renewals, replaying the listed names in any order and with any repetitions yields the owned names and the trie
    entries of the server.  Missing: renewals, released names, the by-account rows (below). *)
Theorem C72_names_rebuilt_partial : forall hist l, Forall (fun p => f_fid p < 2 ^ 32) hist -> no_renewals fs_init hist = true ->
  (forall p, p ∈ l <-> served (f_run fs_init hist) p) ->
  exists s', fplay l = Some s' /\ (forall x, x ∈ fs_trie s' <-> x ∈ fs_trie (f_run fs_init hist)) /\
    forall n p, fs_name s' !! n = Some p <-> fs_name (f_run fs_init hist) !! n = Some p /\ f_fid p <> 0 /\ f_isf p = true.
Proof.
  intros hist l Hsm Hnr Hl. set (s := f_run fs_init hist) in *.
  assert (Hn : f_named s) by (apply f_named_run; intros ? ? Q; cbn in Q; by rewrite lookup_empty in Q).
  assert (Hs : f_smalls s).
  { unfold s. clear -Hsm. assert (G : forall s0, f_smalls s0 -> f_smalls (f_run s0 hist)).
    { unfold f_run. induction hist as [|p hist IH]; intros s0 H; [done|]. apply Forall_cons in Hsm as [H1 H2]. cbn [foldl].
      apply IH; [done|]. by apply f_smalls_step. }
    apply G. intros ? ? Q. cbn in Q. by rewrite lookup_empty in Q. }
  assert (HT : forall f n, (f, n) ∈ fs_trie s <-> exists p, fs_name s !! n = Some p /\ f_fid p = f /\ f_fid p <> 0 /\ f_isf p = true)
    by (by apply C22_trie_exact_partial).
  assert (HS : forall p, p ∈ l <-> fs_name s !! f_name p = Some p /\ f_fid p <> 0 /\ f_isf p = true).
  { intros p. rewrite Hl. split.
    - intros (f & n & H1 & H2). apply HT in H1 as (q & H3 & _ & H4). assert (q = p) as -> by congruence.
      rewrite (Hn n p) by done. done.
    - intros (H1 & H2 & H3). exists (f_fid p), (f_name p). split; [|done]. apply HT. eauto. }
  destruct (fplay_spec s l Hn Hs (fun p Hp => proj1 (HS p) Hp) fs_init) as (s' & E & H1 & H2); [apply map_empty_subseteq|].
  assert (HN : forall n p, fs_name s' !! n = Some p <-> fs_name s !! n = Some p /\ f_fid p <> 0 /\ f_isf p = true).
  { intros n p. rewrite H1, HS. cbn [fs_init fs_name]. rewrite lookup_empty. split.
    - intros [?|[? <-]]; done.
    - intros H. right. pose proof (Hn _ _ (proj1 H)) as <-. done. }
  exists s'. split; [done|]. split; [|done]. intros [f n]. rewrite H2.
  - rewrite HT. split; intros (p & H3 & H4).
    + exists p. apply HN in H3. tauto.
    + exists p. split; [|tauto]. apply HN. tauto.
  - intros f' n'. cbn [fs_init fs_trie fs_name]. rewrite lookup_empty. split; [intros Q; by apply elem_of_empty in Q|by intros (? & ? & _)].
Qed.
Example C72_names_ex :
  let hist := [fp 97 1 10; fp 98 2 11; fp 97 0 12; fp 99 4 9; fp 98 1 14] in let l := [fp 99 4 9; fp 98 1 14; fp 98 1 14] in
  Forall (fun p => f_fid p < 2 ^ 32) hist /\ no_renewals fs_init hist = true /\
  elements (fs_trie (f_run fs_init hist)) = [(1, [98]); (4, [99])] /\
  match fplay l with Some s' => bool_decide (fs_trie s' = fs_trie (f_run fs_init hist)) | None => false end = true.
Proof. cbn zeta. split; [repeat constructor|]. split; [vm_compute; reflexivity|]. split; vm_compute; reflexivity. Qed.

(** A page with a proof that a name already replayed outranks fails as a whole, whatever follows; so does a release of a
    name nobody holds. *)
Theorem C72_outranked_name_fails : forall l s p r, fplay l = Some s ->
  match fs_name s !! f_name p with Some q => f_cmp q p = Gt | None => f_fid p = 0 end -> fplay (l ++ p :: r) = None.
Proof.
  intros l s p r Hl Hp. unfold fplay in *. rewrite foldl_app, Hl. cbn [foldl].
  assert (fplay_one (Some s) p = None) as ->.
  { unfold fplay_one, f_merge. destruct (fs_name s !! f_name p) as [q|]; [by rewrite Hp|]. by rewrite Hp. }
  clear. induction r as [|x r IH]; [done|]. exact IH.
Qed.
Example C72_outranked_ex :
  match fplay [fp 98 1 14] with Some s => bool_decide (fs_name s !! f_name (fp 98 2 11) = Some (fp 98 1 14)) | None => false end = true /\
  f_cmp (fp 98 1 14) (fp 98 2 11) = Gt /\ fplay ([fp 98 1 14] ++ fp 98 2 11 :: [fp 99 4 9]) = None.
Proof. split; [vm_compute; reflexivity|]. split; [vm_compute; reflexivity|]. vm_compute. reflexivity. Qed.

(** A renewed name has lost its trie entry at the server (C22), so it is not in the snapshot: the server lets its owner
    display the name, the bootstrapped node refuses the message. *)
Theorem C72_renewed_name_refuted : exists hist n f, Forall (fun p => f_fid p < 2 ^ 32) hist /\
  (forall p, ~ served (f_run fs_init hist) p) /\ fplay [] = Some fs_init /\
  username_ok (NSt (f_run fs_init hist) ps_init ∅) f n = true /\ username_ok (NSt fs_init ps_init ∅) f n = false.
Proof.
  exists [fp 97 1 10; fp 97 1 11], [97], 1. split; [repeat constructor|].
  assert (E : fs_trie (f_run fs_init [fp 97 1 10; fp 97 1 11]) = ∅).
  { apply (bool_decide_eq_true_1 _). vm_compute. reflexivity. }
  split; [|split; [reflexivity|vm_compute; done]]. intros p (f & n & H & _). rewrite E in H. by apply elem_of_empty in H.
Qed.
(** A released name is not in the snapshot either: an old transfer of it, refused by the server, is accepted by the
    bootstrapped node and enters its trie. *)
Theorem C72_released_name_refuted : exists hist old, Forall (fun p => f_fid p < 2 ^ 32) hist /\ no_renewals fs_init hist = true /\
  old ∈ hist /\ (forall p, ~ served (f_run fs_init hist) p) /\ fplay [] = Some fs_init /\
  f_merge (f_run fs_init hist) old = (f_run fs_init hist, Some FConflict) /\ (f_merge fs_init old).2 = None /\
  elements (fs_trie (f_merge fs_init old).1) = [(1, [97])].
Proof.
  exists [fp 97 1 10; fp 97 0 12], (fp 97 1 10). split; [repeat constructor|]. split; [vm_compute; reflexivity|]. split; [left|].
  assert (E : fs_trie (f_run fs_init [fp 97 1 10; fp 97 0 12]) = ∅).
  { apply (bool_decide_eq_true_1 _). vm_compute. reflexivity. }
  split; [intros p (f & n & H & _); rewrite E in H; by apply elem_of_empty in H|].
  split; [reflexivity|]. split; [vm_compute; reflexivity|]. vm_compute. done.
Qed.
(** With two names per account the by-account row is the one replayed last. *)
Theorem C72_two_names_refuted : exists hist l, Forall (fun p => f_fid p < 2 ^ 32) hist /\ no_renewals fs_init hist = true /\
  l ≡ₚ hist /\ (forall p, p ∈ l -> served (f_run fs_init hist) p) /\
  exists s', fplay l = Some s' /\ fname_by_fid s' 1 = Some (fp 97 1 10) /\ fname_by_fid (f_run fs_init hist) 1 = Some (fp 98 1 11).
Proof.
  exists [fp 97 1 10; fp 98 1 11], [fp 98 1 11; fp 97 1 10]. split; [repeat constructor|]. split; [vm_compute; reflexivity|].
  split; [apply perm_swap|]. split.
  - intros p Hp. apply elem_of_cons in Hp as [->|Hp]; [|apply elem_of_list_singleton in Hp as ->].
    + exists 1, [98]. split; [|vm_compute; reflexivity]. apply (bool_decide_eq_true_1 _). vm_compute. reflexivity.
    + exists 1, [97]. split; [|vm_compute; reflexivity]. apply (bool_decide_eq_true_1 _). vm_compute. reflexivity.
  - eexists. split; [reflexivity|]. vm_compute. done.
Qed.

(** ** Signers *)

(** On-chain events are replayed in the order of their trie keys, i.e. of their transaction hashes, and by the page.  Without
    resets and with one event per key and block this yields the server's signers (C26_order_irrelevant_partial).  Otherwise the bootstrapped node and the server can disagree on whether a key may sign: an Add, a Remove and a Reset in
    three blocks, replayed in one page. *)
Theorem C72_signers_refuted : exists bs ps, concat ps ≡ₚ concat bs /\ NoDup (map prim (concat bs)) /\
  StronglySorted (fun a b => o_block a < o_block b) (concat bs) /\
  is_Some (active_signer (orun id o_init bs) 5 [9]) /\ active_signer (orun id o_init ps) 5 [9] = None.
Proof.
  exists [[sg SAdd 10 0]; [sg SRemove 11 0]; [sg SReset 12 0]], [[sg SAdd 10 0; sg SRemove 11 0; sg SReset 12 0]].
  split; [reflexivity|]. split; [apply (bool_decide_eq_true_1 _); vm_compute; reflexivity|].
  split; [repeat constructor|]. split; [|vm_compute; reflexivity]. apply (bool_decide_eq_true_1 _). vm_compute. reflexivity.
Qed.

Print Assumptions C72_replay_rebuilds.
Print Assumptions C72_links_rebuilt_partial.
Print Assumptions C72_superseded_link_lost.
Print Assumptions C72_equal_time_refuted.
Print Assumptions C72_outranked_name_fails.
Print Assumptions C72_names_rebuilt_partial.
Print Assumptions C72_renewed_name_refuted.
Print Assumptions C72_released_name_refuted.
Print Assumptions C72_two_names_refuted.
Print Assumptions C72_signers_refuted.
