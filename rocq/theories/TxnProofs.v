(** Strict two-phase locking: serializability in commit order, and no deadlock with ascending keys. *)
From Verif Require Export TxnSpec.
From Coq Require Import ZifyN ZifyNat ZifyBool.

(** [p0] has come to [p] with batch [b], reading and locking the keys [h] of [db]. *)
Inductive path (db : kv bytes) (p0 : prog) : prog -> batch bytes -> gset bytes -> Prop :=
| path_0 : path db p0 p0 ∅ ∅
| path_get k c b h : path db p0 (PGet k c) b h -> path db p0 (c (tget db b k)) b ({[k]} ∪ h)
| path_write k v p b h : path db p0 (PWrite k v p) b h -> path db p0 p (<[k := v]> b) ({[k]} ∪ h).

Lemma path_run db p0 p b h : path db p0 p b h -> serial db p0 = run_from db b p.
Proof. induction 1; done. Qed.
Lemma path_held db p0 p b h : path db p0 p b h -> dom b ⊆ h.
Proof. induction 1; [by rewrite dom_empty_L|set_solver|rewrite dom_insert_L; set_solver]. Qed.
Lemma path_stable db db' p0 p b h : path db p0 p b h -> (forall k, k ∈ h -> db' !! k = db !! k) -> path db' p0 p b h.
Proof.
  induction 1 as [|k c b h Hp IH|k v p b h Hp IH]; intros Hdb; [constructor| |].
  - assert (tget db b k = tget db' b k) as ->.
    { unfold tget. destruct (b !! k); [done|]. symmetry. apply Hdb. set_solver. }
    constructor. apply IH. intros. apply Hdb. set_solver.
  - constructor. apply IH. intros. apply Hdb. set_solver.
Qed.

Lemma free_iff s i k : free s i k = true <-> forall j t, s_act s !! j = Some t -> j = i \/ k ∉ t_held t.
Proof. unfold free. rewrite bool_decide_eq_true. done. Qed.

(** Every active transaction is on its way, and no key is held twice. *)
Definition ok_sys (b : gmap nat prog) (s : sys) : Prop :=
  (forall i t, s_act s !! i = Some t -> exists p0, b !! i = Some p0 /\ path (s_db s) p0 (t_prog t) (t_batch t) (t_held t)) /\
  (forall i j t u k, s_act s !! i = Some t -> s_act s !! j = Some u -> k ∈ t_held t -> k ∈ t_held u -> i = j).

Lemma ok_with b s i p0 p t h : ok_sys b s -> b !! i = Some p0 -> path (s_db s) p0 p t h ->
  (forall j u x, j <> i -> s_act s !! j = Some u -> x ∈ h -> x ∉ t_held u) ->
  ok_sys b (with_txn s i (Txn p t h)).
Proof.
  intros [H1 H2] Hb Hp G. split.
  - intros j u. cbn. destruct (decide (i = j)) as [->|Hne].
    + rewrite lookup_insert. intros [= <-]. by exists p0.
    + rewrite lookup_insert_ne by done. intros Hu. by apply H1.
  - intros j j' u u' x. cbn. destruct (decide (i = j)) as [<-|Hj], (decide (i = j')) as [<-|Hj']; rewrite ?lookup_insert, ?lookup_insert_ne by done; try done.
    + intros [= <-] Hu'. cbn. intros Hx Hx'. destruct (G j' u' x); done.
    + intros Hu [= <-]. cbn. intros Hx Hx'. destruct (G j u x); done.
    + apply H2.
Qed.

Lemma ok_grow b s i t k : ok_sys b s -> s_act s !! i = Some t -> free s i k = true ->
  forall j u x, j <> i -> s_act s !! j = Some u -> x ∈ ({[k]} ∪ t_held t : gset bytes) -> x ∉ t_held u.
Proof.
  intros [_ H2] Ht Hf j u x Hne Hu Hx Hx'. rewrite free_iff in Hf.
  apply elem_of_union in Hx as [->%elem_of_singleton|Hx]; [destruct (Hf j u Hu); done|].
  by pose proof (H2 _ _ _ _ x Ht Hu Hx Hx').
Qed.

Lemma ok_delete b s i db : ok_sys b s ->
  (forall j t k, j <> i -> s_act s !! j = Some t -> k ∈ t_held t -> db !! k = s_db s !! k) ->
  ok_sys (delete i b) (Sys db (delete i (s_act s))).
Proof.
  intros [H1 H2] Hdb. split.
  - intros j t. cbn. rewrite lookup_delete_Some. intros [Hne Ht]. destruct (H1 _ _ Ht) as (p0 & Hb & Hp).
    exists p0. split; [by rewrite lookup_delete_ne|]. eapply path_stable; [exact Hp|]. intros k Hk. by apply (Hdb j t).
  - intros j j' t u k. cbn. rewrite !lookup_delete_Some. intros [_ Ht] [_ Hu]. by apply (H2 _ _ _ _ _ Ht Hu).
Qed.

Definition begun (b : gmap nat prog) (l : label) : gmap nat prog :=
  match l with LBegin i p => <[i := p]> b | LStep _ => b | LEnd i | LAbort i => delete i b end.
Lemma ended_cons b l ls : ended b (l :: ls) = ended b [l] ++ ended (begun b l) ls.
Proof. destruct l; cbn; rewrite ?app_nil_r; done. Qed.

Lemma step_ok b s l s' : ok_sys b s -> sys_step s l = Some s' ->
  ok_sys (begun b l) s' /\ s_db s' = fold_left serial (ended b [l]) (s_db s).
Proof.
  intros Hok. pose proof Hok as [H1 H2]. destruct l as [i p|i|i|i]; cbn [sys_step ended begun].
  - destruct (s_act s !! i) as [t|] eqn:Ei; [done|]. intros [= <-]. split; [|done].
    apply (ok_with _ _ _ p); [|by rewrite lookup_insert|constructor|set_solver].
    split; [|exact H2]. intros j t Ht. destruct (H1 j t Ht) as (p0 & Hp0 & Hp). exists p0. split; [|done].
    rewrite lookup_insert_ne; [done|]. intros ->. by rewrite Ei in Ht.
  - destruct (s_act s !! i) as [[p t h]|] eqn:Ei; [|done]. destruct (H1 i _ Ei) as (p0 & Hb & Hp). cbn in Hp.
    destruct p as [ok|k c|k v p]; [done| |]; (destruct (free s i k) eqn:Ef; [|done]); intros [= <-]; (split; [|done]).
    + apply (ok_with _ _ _ p0); [done|done|by constructor|]. by apply (ok_grow b s i (Txn (PGet k c) t h) k).
    + apply (ok_with _ _ _ p0); [done|done|by constructor|]. by apply (ok_grow b s i (Txn (PWrite k v p) t h) k).
  - destruct (s_act s !! i) as [[p t h]|] eqn:Ei; [|done]. destruct p as [ok|k c|k v p]; [|done..]. intros [= <-].
    destruct (H1 i _ Ei) as (p0 & Hb & Hp). cbn in Hp. rewrite Hb. cbn [app fold_left]. split.
    + apply ok_delete; [done|]. intros j u k Hne Hu Hk. destruct ok; [|done]. rewrite lookup_commit. unfold tget.
      destruct (t !! k) as [v|] eqn:Et; [|done]. exfalso. apply path_held in Hp.
      assert (k ∈ h) by (apply Hp, elem_of_dom; eauto). apply Hne. by apply (H2 j i u (Txn (PRet true) t h) k).
    + cbn. by rewrite (path_run _ _ _ _ _ Hp).
  - destruct (s_act s !! i) as [t|] eqn:Ei; [|done]. intros [= <-]. split; [|done]. by apply ok_delete.
Qed.

Lemma run_ok ls : forall b s s', ok_sys b s -> sys_run s ls = Some s' ->
  (exists b', ok_sys b' s') /\ s_db s' = fold_left serial (ended b ls) (s_db s).
Proof.
  induction ls as [|l ls IH]; intros b s s' Hok; cbn [sys_run]; [intros [= ->]; eauto|].
  destruct (sys_step s l) as [s1|] eqn:E1; [|done]. intros Hr. destruct (step_ok _ _ _ _ Hok E1) as [Hok1 Hd].
  destruct (IH _ _ _ Hok1 Hr) as [Hb Hd']. split; [done|]. rewrite ended_cons, fold_left_app, <- Hd. done.
Qed.

(** ** Deadlock *)

Definition next_key (p : prog) : option bytes := match p with PRet _ => None | PGet k _ | PWrite k _ _ => Some k end.
(** What is held is below the keys still to come. *)
Definition asc_txn (t : txn) : Prop := exists lo, asc lo (t_prog t) /\ forall k, k ∈ t_held t -> ble k lo = true.
Definition asc_sys (s : sys) : Prop := forall i t, s_act s !! i = Some t -> asc_txn t.

Lemma asc_step s l s' : asc_sys s -> asc_label l -> sys_step s l = Some s' -> asc_sys s'.
Proof.
  intros Ha Hl. destruct l as [i p|i|i|i]; cbn [sys_step].
  - destruct (s_act s !! i) eqn:Ei; [done|]. intros [= <-] j t. cbn. rewrite lookup_insert_Some. intros [[<- <-]|[_ Ht]]; [|by apply (Ha j)].
    exists []. split; [done|]. set_solver.
  - destruct (s_act s !! i) as [[p t h]|] eqn:Ei; [|done]. destruct (Ha _ _ Ei) as (lo & Hasc & Hlo). cbn in Hasc, Hlo.
    destruct p as [ok|k c|k v p]; [done| |]; (destruct (free s i k) eqn:Ef; [|done]); intros [= <-] j u; cbn;
      rewrite lookup_insert_Some; intros [[<- <-]|[_ Hu]]; [|by apply (Ha j)| |by apply (Ha j)]; destruct Hasc as [Hk Hasc];
      exists k; (split; [apply Hasc||exact Hasc|]); intros x [->%elem_of_singleton|Hx]%elem_of_union; cbn;
      try apply ble_refl; eapply ble_trans; eauto.
  - destruct (s_act s !! i) as [[[ok|k c|k v p] t h]|] eqn:Ei; try done. intros [= <-] j u. cbn. rewrite lookup_delete_Some. intros [_ Hu]. by apply (Ha j).
  - destruct (s_act s !! i) as [t|] eqn:Ei; [|done]. intros [= <-] j u. cbn. rewrite lookup_delete_Some. intros [_ Hu]. by apply (Ha j).
Qed.
Lemma asc_run ls : forall s s', asc_sys s -> Forall asc_label ls -> sys_run s ls = Some s' -> asc_sys s'.
Proof.
  induction ls as [|l ls IH]; intros s s' Ha Hl; cbn [sys_run]; [by intros [= <-]|].
  apply Forall_cons in Hl as [Hl Hls]. destruct (sys_step s l) as [s1|] eqn:E1; [|done]. apply IH; [|done]. by eapply asc_step.
Qed.

(** [i] waits for no smaller a key than any other, and for one that no other holds. *)
Definition top (s : sys) (i : nat) : Prop := exists t, s_act s !! i = Some t /\
  match next_key (t_prog t) with
  | None => True
  | Some k => forall j u, s_act s !! j = Some u -> j <> i -> k ∉ t_held u /\ exists k', next_key (t_prog u) = Some k' /\ ble k' k = true
  end.

Lemma top_free s i t k : top s i -> s_act s !! i = Some t -> next_key (t_prog t) = Some k -> free s i k = true.
Proof.
  intros (t' & Ht' & Htop) Ht Hk. rewrite Ht in Ht'. injection Ht' as <-. rewrite Hk in Htop. apply free_iff. intros j u Hu.
  destruct (decide (j = i)) as [->|Hne]; [by left|right]. by apply (Htop j u Hu Hne).
Qed.

Lemma held_next t k k' : asc_txn t -> next_key (t_prog t) = Some k -> k' ∈ t_held t -> ble k' k = true.
Proof.
  intros (lo & Ha & Hlo) Hk Hin. eapply ble_trans; [by apply Hlo|]. destruct (t_prog t); cbn in *; [done| |]; injection Hk as <-; apply Ha.
Qed.

Lemma top_step s i k p' b' t : asc_sys s -> top s i -> s_act s !! i = Some t -> next_key (t_prog t) = Some k -> asc k p' ->
  top (with_txn s i (Txn p' b' ({[k]} ∪ t_held t))) i.
Proof.
  intros Ha (t' & Ht' & Htop) Ht Hk Hp'. rewrite Ht in Ht'. injection Ht' as <-. rewrite Hk in Htop.
  eexists. cbn. rewrite lookup_insert. split; [done|]. cbn. destruct (next_key p') as [k2|] eqn:E2; [|done].
  assert (Hkk : ble k k2 = true) by (destruct p'; cbn in *; [done| |]; injection E2 as <-; apply Hp').
  intros j u. rewrite lookup_insert_Some. intros [[<- _]|[_ Hu]]; [done|]. intros Hne.
  destruct (Htop j u Hu Hne) as (Hnh & k' & Hk' & Hle). split; [|exists k'; split; [done|by eapply ble_trans]].
  intros Hin. pose proof (held_next _ _ _ (Ha _ _ Hu) Hk' Hin) as Hle'.
  assert (k2 = k) as ->; [|done]. apply ble_antisym; [|done]. by eapply ble_trans.
Qed.

Lemma complete_one p : forall s i t, s_act s !! i = Some t -> t_prog t = p -> asc_sys s -> top s i ->
  exists ls s', Forall orderly ls /\ sys_run s ls = Some s' /\ s_act s' = delete i (s_act s).
Proof.
  induction p as [ok|k c IH|k v p IH]; intros s i t Ht Hp Ha Htop; pose proof Ht as Ht'; destruct t as [q b h]; cbn in Hp; subst q.
  - exists [LEnd i], (Sys (if ok then commit (s_db s) b else s_db s) (delete i (s_act s))). split; [by repeat constructor|].
    cbn. rewrite Ht. done.
  - pose proof (top_free _ _ _ k Htop Ht eq_refl) as Hf. destruct (Ha _ _ Ht) as (lo & [Hlo Hasc] & Hheld).
    set (s1 := with_txn s i (Txn (c (tget (s_db s) b k)) b ({[k]} ∪ h))).
    assert (E1 : sys_step s (LStep i) = Some s1) by (cbn; rewrite Ht, Hf; done).
    destruct (IH (tget (s_db s) b k) s1 i (Txn (c (tget (s_db s) b k)) b ({[k]} ∪ h))) as (ls & s' & Hls & Hr & Hd).
    + cbn. by rewrite lookup_insert.
    + done.
    + by apply (asc_step s (LStep i)).
    + apply (top_step s i k (c (tget (s_db s) b k)) b _ Ha Htop Ht eq_refl). apply Hasc.
    + exists (LStep i :: ls), s'. split; [by constructor|]. cbn [sys_run]. rewrite E1. split; [done|]. rewrite Hd. cbn. by rewrite delete_insert_delete.
  - pose proof (top_free _ _ _ k Htop Ht eq_refl) as Hf. destruct (Ha _ _ Ht) as (lo & [Hlo Hasc] & Hheld).
    set (s1 := with_txn s i (Txn p (<[k:=v]> b) ({[k]} ∪ h))).
    assert (E1 : sys_step s (LStep i) = Some s1) by (cbn; rewrite Ht, Hf; done).
    destruct (IH s1 i (Txn p (<[k:=v]> b) ({[k]} ∪ h))) as (ls & s' & Hls & Hr & Hd).
    + cbn. by rewrite lookup_insert.
    + done.
    + by apply (asc_step s (LStep i)).
    + apply (top_step s i k p (<[k:=v]> b) _ Ha Htop Ht eq_refl). apply Hasc.
    + exists (LStep i :: ls), s'. split; [by constructor|]. cbn [sys_run]. rewrite E1. split; [done|]. rewrite Hd. cbn. by rewrite delete_insert_delete.
Qed.

(** The greatest key waited for. *)
Lemma max_waiting (m : gmap nat txn) : m <> ∅ -> (exists i t, m !! i = Some t /\ next_key (t_prog t) = None) \/
  (exists i t k, m !! i = Some t /\ next_key (t_prog t) = Some k /\
    forall j u, m !! j = Some u -> exists k', next_key (t_prog u) = Some k' /\ ble k' k = true).
Proof.
  induction m as [|i t m Hi IH] using map_ind; [done|]. intros _. destruct (decide (m = ∅)) as [->|Hne].
  - destruct (next_key (t_prog t)) as [k|] eqn:Ek.
    + right. exists i, t, k. split; [by rewrite lookup_insert|]. split; [done|]. intros j u. rewrite lookup_insert_Some.
      intros [[_ <-]|[_ Hu]]; [exists k; split; [done|apply ble_refl]|by rewrite lookup_empty in Hu].
    + left. exists i, t. by rewrite lookup_insert.
  - destruct (IH Hne) as [(j & u & Hu & Hk)|(j & u & k & Hu & Hk & Hmax)].
    + left. exists j, u. split; [|done]. rewrite lookup_insert_ne; [done|]. intros ->. by rewrite Hi in Hu.
    + destruct (next_key (t_prog t)) as [kt|] eqn:Ek; [|left; exists i, t; by rewrite lookup_insert].
      assert (i <> j) by (intros ->; by rewrite Hi in Hu). right. destruct (ble kt k) eqn:El.
      * exists j, u, k. split; [by rewrite lookup_insert_ne|]. split; [done|]. intros j' u'. rewrite lookup_insert_Some.
        intros [[_ <-]|[_ Hu']]; [by exists kt|by apply (Hmax j')].
      * exists i, t, kt. split; [by rewrite lookup_insert|]. split; [done|]. intros j' u'. rewrite lookup_insert_Some.
        intros [[_ <-]|[_ Hu']]; [exists kt; split; [done|apply ble_refl]|].
        destruct (Hmax j' u' Hu') as (k' & Hk' & Hle). exists k'. split; [done|]. apply (ble_trans _ k); [done|].
        pose proof (blt_ble k kt) as Hb. rewrite El in Hb. cbn in Hb. apply ble_eq_or_lt. by right.
Qed.

Lemma top_exists b s : ok_sys b s -> asc_sys s -> s_act s <> ∅ -> exists i, top s i.
Proof.
  intros [_ H2] Ha Hne. destruct (max_waiting _ Hne) as [(i & t & Ht & Hk)|(i & t & k & Ht & Hk & Hmax)].
  - exists i, t. rewrite Hk. done.
  - destruct (free s i k) eqn:Ef.
    + rewrite free_iff in Ef. exists i, t. split; [done|]. rewrite Hk. intros j u Hu Hji. split; [by destruct (Ef j u Hu)|]. by apply (Hmax j).
    + unfold free in Ef. apply bool_decide_eq_false in Ef. apply map_not_Forall in Ef as (j & u & Hu & Hn); [|intros; apply _].
      assert (Hji : j <> i /\ k ∈ t_held u).
      { split; [intros ->; apply Hn; by left|]. destruct (decide (k ∈ t_held u)); [done|]. exfalso. apply Hn. by right. }
      destruct Hji as [Hji Hin]. destruct (Hmax j u Hu) as (k' & Hk' & Hle).
      assert (k' = k) as ->. { apply ble_antisym; [done|]. by apply (held_next u k' k (Ha _ _ Hu)). }
      exists j, u. split; [done|]. rewrite Hk'. intros j' u' Hu' Hne'. split; [|by apply (Hmax j')].
      intros Hin'. apply Hne'. by apply (H2 _ _ _ _ _ Hu' Hu Hin' Hin).
Qed.

Lemma complete_all n : forall b s, size (s_act s) = n -> ok_sys b s -> asc_sys s ->
  exists ls s', Forall orderly ls /\ sys_run s ls = Some s' /\ s_act s' = ∅.
Proof.
  induction n as [|n IH]; intros b s Hsz Hok Ha.
  - exists [], s. split; [done|]. split; [done|]. by apply map_size_empty_iff.
  - assert (Hne : s_act s <> ∅) by (intros He; rewrite He, map_size_empty in Hsz; done).
    destruct (top_exists b s Hok Ha Hne) as [i Htop]. pose proof Htop as (t & Ht & _).
    destruct (complete_one _ s i t Ht eq_refl Ha Htop) as (ls & s1 & Hls & Hr & Hd).
    destruct (run_ok ls b s s1 Hok Hr) as [[b1 Hok1] _].
    assert (Ha1 : asc_sys s1). { eapply asc_run; [exact Ha| |exact Hr]. eapply Forall_impl; [exact Hls|]. by intros []. }
    destruct (IH b1 s1) as (ls2 & s2 & Hls2 & Hr2 & Hd2); [|done..|].
    + rewrite Hd. rewrite (map_size_delete_Some i (s_act s)) by eauto. lia.
    + exists (ls ++ ls2), s2. split; [by apply Forall_app|]. split; [|done].
      clear -Hr Hr2. revert s Hr. induction ls as [|l ls IHl]; intros s; cbn [app sys_run]; [by intros [= ->]|].
      destruct (sys_step s l); [|done]. apply IHl.
Qed.

(** ** Batches *)

Lemma run_write_all l : forall db b, run_from db b (write_all l) = commit db (fold_left (fun b e => <[e.1 := e.2]> b) l b).
Proof. induction l as [|e l IH]; intros db b; cbn; [done|apply IH]. Qed.

Lemma commit_prog_serial db t : serial db (commit_prog t) = commit db t.
Proof.
  unfold serial, commit_prog. rewrite run_write_all. f_equal.
  assert (Hp : merge_sort entry_le (map_to_list t) ≡ₚ map_to_list t) by apply merge_sort_Permutation.
  set (l := merge_sort entry_le (map_to_list t)) in *. clearbody l.
  assert (Hnd : NoDup l.*1) by (rewrite Hp; apply NoDup_fst_map_to_list).
  rewrite <- (list_to_map_to_list t), <- (list_to_map_proper l (map_to_list t)) by done. clear Hp t.
  assert (G : forall b : batch bytes, fold_left (fun b (e : bytes * option bytes) => <[e.1:=e.2]> b) l b = (list_to_map l : batch bytes) ∪ b).
  { induction l as [|[k v] l IH]; intros b; cbn; [by rewrite (left_id_L ∅ (∪))|].
    apply NoDup_cons in Hnd as [Hn Hnd]. rewrite IH by done. rewrite <- insert_union_l. rewrite <- insert_union_r; [done|].
    by apply not_elem_of_list_to_map_1. }
  rewrite G. by rewrite (right_id_L ∅ (∪)).
Qed.

Lemma commit_prog_asc t : asc [] (commit_prog t).
Proof.
  unfold commit_prog. assert (Hs : Sorted entry_le (merge_sort entry_le (map_to_list t))).
  { apply Sorted_merge_sort. intros a c. unfold entry_le. destruct (blt_total a.1 c.1) as [Hl|[Hl|Hl]].
    - left. apply ble_eq_or_lt. by right.
    - left. rewrite Hl. apply ble_refl.
    - right. apply ble_eq_or_lt. by right. }
  generalize dependent (merge_sort entry_le (map_to_list t)). intros l Hs.
  assert (G : forall lo, (forall e, head l = Some e -> ble lo e.1 = true) -> asc lo (write_all l)).
  { induction Hs as [|e l Hs IH Hh]; intros lo Hlo; cbn; [done|]. split; [by apply Hlo|]. apply IH. intros e' He'.
    destruct l; [done|]. injection He' as ->. inversion Hh; subst. done. }
  apply G. intros e _. by destruct e.1.
Qed.
