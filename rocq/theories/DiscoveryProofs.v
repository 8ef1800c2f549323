(** Proofs about Discovery.v. *)
From Verif Require Import Discovery AuthProofs.
From stdpp Require Import list fin_maps.
From Coq Require Import Lia ZifyN ZifyNat ZifyBool.
#[local] Open Scope N_scope.

(** ** Runs *)
Lemma drun_snoc h f evs e : drun h f (evs ++ [e]) = dstep h (drun h f evs) e.
Proof. unfold drun. by rewrite foldl_app. Qed.

Lemma see_cases t c d : see t c d = d \/ exists p a, c_pid c = Some p /\ addr_of c = Some a /\
  see t c d = Disc (d_addrs d) (d_cool d) (d_tasks d ++ [(p, a, Spawned)]).
Proof.
  unfold see. destruct (c_pid c) as [p|]; [|by left]. destruct (addr_of c) as [a|]; [|by left]. cbv zeta.
  destruct (d_cool d !! p) as [t0|]; [destruct (t - t0 <? COOLDOWN); [by left|]|]; right; eauto 6.
Qed.

(** Tasks keep their peer and address. *)
Definition who (x : bytes * bytes * stage) : bytes * bytes := fst x.
Lemma step_tasks h d e i p a s : d_tasks d !! i = Some (p, a, s) -> exists s', d_tasks (dstep h d e) !! i = Some (p, a, s').
Proof.
  intros H. pose proof (lookup_lt_Some _ _ _ H) as L. destruct e as [t c|j|j t ans]; cbn [dstep].
  - destruct (see_cases t c d) as [->|(p' & a' & _ & _ & ->)]; [eauto|]. cbn [d_tasks]. exists s. by rewrite lookup_app_l.
  - unfold check. destruct (d_tasks d !! j) as [[[p' a'] []]|] eqn:E; eauto. cbn. destruct (decide (i = j)) as [->|N].
    + rewrite list_lookup_insert by done. rewrite H in E. injection E as -> -> ->. eauto.
    + rewrite list_lookup_insert_ne by done. eauto.
  - unfold answer. destruct (d_tasks d !! j) as [[[p' a'] []]|] eqn:E; eauto. destruct ans; cbn; (destruct (decide (i = j)) as [->|N];
      [rewrite list_lookup_insert by done; rewrite H in E; injection E as -> -> ->; eauto|rewrite list_lookup_insert_ne by done; eauto]).
Qed.

Definition announced (evs : list dev) (p a : bytes) : Prop := exists t c, ESee t c ∈ evs /\ c_pid c = Some p /\ addr_of c = Some a.
Definition confirmed (h : N) (evs : list dev) (i : nat) : Prop := exists t hs, EAnswer i t (Some hs) ∈ evs /\ h ∈ hs.
Lemma elem_snoc {A} (x : A) l y : x ∈ l -> x ∈ l ++ [y]. Proof. rewrite elem_of_app. tauto. Qed.
Lemma elem_last {A} (x : A) l : x ∈ l ++ [x]. Proof. rewrite elem_of_app, elem_of_list_singleton. tauto. Qed.

Lemma tasks_announced h f evs i p a s : d_tasks (drun h f evs) !! i = Some (p, a, s) -> announced evs p a.
Proof.
  revert i p a s. induction evs as [|e evs IH] using rev_ind; intros i p a s H.
  - discriminate.
  - rewrite drun_snoc in H. assert (M : forall s', d_tasks (drun h f evs) !! i = Some (p, a, s') -> announced (evs ++ [e]) p a).
    { intros s' H'. destruct (IH _ _ _ _ H') as (t & c & E & R). exists t, c. split; [by apply elem_snoc|done]. }
    destruct e as [t c|j|j t ans]; cbn [dstep] in H.
    + destruct (see_cases t c (drun h f evs)) as [E|(p' & a' & Ep & Ea & E)]; rewrite E in H; [eauto|]. cbn [d_tasks] in H.
      apply lookup_app_Some in H as [H|[_ H]]; [eauto|]. apply list_lookup_singleton_Some in H as [_ H]. injection H as <- <- <-.
      exists t, c. split; [apply elem_last|done].
    + unfold check in H. destruct (d_tasks (drun h f evs) !! j) as [[[p' a'] []]|] eqn:E; eauto. cbn in H.
      destruct (decide (i = j)) as [->|N]; [|rewrite list_lookup_insert_ne in H by done; eauto].
      rewrite list_lookup_insert in H by (eapply lookup_lt_Some; exact E). injection H as <- <- _. eauto.
    + unfold answer in H. destruct (d_tasks (drun h f evs) !! j) as [[[p' a'] []]|] eqn:E; eauto.
      destruct ans; cbn in H; (destruct (decide (i = j)) as [->|N]; [|rewrite list_lookup_insert_ne in H by done; eauto];
      rewrite list_lookup_insert in H by (eapply lookup_lt_Some; exact E); injection H as <- <- _; eauto).
Qed.
Lemma addrs_confirmed h f evs a : a ∈ d_addrs (drun h f evs) ->
  a = f \/ exists i p s, d_tasks (drun h f evs) !! i = Some (p, a, s) /\ confirmed h evs i.
Proof.
  induction evs as [|e evs IH] using rev_ind; intros H.
  - left. cbn in H. by apply elem_of_list_singleton in H.
  - rewrite drun_snoc in *. set (d := drun h f evs) in *.
    assert (M : a ∈ d_addrs d -> a = f \/ exists i p s, d_tasks (dstep h d e) !! i = Some (p, a, s) /\ confirmed h (evs ++ [e]) i).
    { intros H'. destruct (IH H') as [->|(i & p & s & T & t & hs & C & I)]; [by left|right].
      destruct (step_tasks h d e _ _ _ _ T) as (s' & T'). exists i, p, s'. split; [done|]. exists t, hs. split; [by apply elem_snoc|done]. }
    destruct e as [t c|j|j t ans]; cbn [dstep] in H.
    + apply M. by destruct (see_cases t c d) as [E|(p' & a' & Ep & Ea & E)]; rewrite E in H.
    + apply M. unfold check in H. by destruct (d_tasks d !! j) as [[[p' a'] []]|].
    + unfold answer in H. destruct (d_tasks d !! j) as [[[p' a'] []]|] eqn:E; [by apply M| |by apply M|by apply M].
      destruct ans as [hs|]; cbn in H; [|by apply M]. destruct (bool_decide (h ∈ hs)) eqn:B; [|by apply M].
      apply bool_decide_eq_true in B. apply elem_of_app in H as [H|H]; [by apply M|]. apply elem_of_list_singleton in H as ->.
      right. exists j, p', Done. split.
      * cbn [dstep]. unfold answer. rewrite E. cbn. by rewrite list_lookup_insert by (eapply lookup_lt_Some; exact E).
      * exists t, hs. split; [apply elem_last|done].
Qed.
Lemma addrs_grow h d e : exists l, d_addrs (dstep h d e) = d_addrs d ++ l /\ (length l <= 1)%nat.
Proof.
  assert (Z : exists l : list bytes, d_addrs d = d_addrs d ++ l /\ (length l <= 1)%nat) by (exists []; rewrite app_nil_r; auto).
  destruct e as [t c|j|j t ans]; cbn [dstep].
  - by destruct (see_cases t c d) as [->|(p' & a' & Ep & Ea & ->)].
  - unfold check. by destruct (d_tasks d !! j) as [[[p' a'] []]|].
  - unfold answer. destruct (d_tasks d !! j) as [[[p' a'] []]|]; try done. destruct ans as [hs|]; cbn; [|done].
    destruct (bool_decide (h ∈ hs)); [|done]. exists [a']. auto.
Qed.

(** Tasks run one after the other: no repetition. *)
Definition whole (h : N) (d : disc) (x : N * contact * option (list N)) : disc :=
  let '(t, c, ans) := x in
  let d1 := see t c d in let i := length (d_tasks d) in answer h i t ans (check i d1).
Lemma whole_nodup h d x : NoDup (d_addrs d) -> NoDup (d_addrs (whole h d x)).
Proof.
  intros ND. destruct x as [[t c] ans]. unfold whole. cbv zeta.
  assert (O : forall d', d_tasks d' !! length (d_tasks d') = None) by (intros; by apply lookup_ge_None).
  assert (Z : NoDup (d_addrs (answer h (length (d_tasks d)) t ans (check (length (d_tasks d)) d)))).
  { unfold check. rewrite O. unfold answer. rewrite O. done. }
  destruct (see_cases t c d) as [->|(p & a & _ & _ & ->)]; [done|]. clear Z.
  unfold check. cbn [d_tasks d_addrs d_cool]. rewrite lookup_app_r, Nat.sub_diag by done. cbn [lookup list_lookup].
  unfold answer. cbn [d_tasks d_addrs d_cool]. rewrite list_lookup_insert by (rewrite app_length; cbn; lia).
  destruct (bool_decide (a ∈ d_addrs d)) eqn:B; [done|]. apply bool_decide_eq_false in B. destruct ans as [hs|]; [|done].
  cbn. destruct (bool_decide (h ∈ hs)); [|done]. apply NoDup_app. split; [done|]. split; [|apply NoDup_singleton].
  intros x Hx E. apply elem_of_list_singleton in E as ->. done.
Qed.

(** ** Choice of a peer *)
Definition mok (m : mgr) : Prop := m_conn m ⊆ list_to_set (m_addrs m) /\ forall v a, m_aff m !! v = Some a -> a ∈ m_conn m.
Lemma pick_ok ok m v r m' : mok m -> pick ok m v = (r, m') ->
  mok m' /\ m_addrs m' = m_addrs m /\ (forall a, r = PPeer a -> a ∈ m_addrs m /\ m_aff m' !! v = Some a /\ a ∈ m_conn m').
Proof.
  intros [C A] H. unfold pick in H.
  assert (F : match m_addrs m !! N.to_nat (v mod N.of_nat (length (m_addrs m))) with
    | None => (PPanic, m)
    | Some a => if bool_decide (a ∈ m_conn m) then (PPeer a, Mgr (m_addrs m) (m_conn m) (<[v := a]> (m_aff m)))
        else if ok a then (PPeer a, Mgr (m_addrs m) ({[a]} ∪ m_conn m) (<[v := a]> (m_aff m))) else (PErr, m) end = (r, m') ->
    mok m' /\ m_addrs m' = m_addrs m /\ (forall a, r = PPeer a -> a ∈ m_addrs m /\ m_aff m' !! v = Some a /\ a ∈ m_conn m')).
  { clear H. destruct (m_addrs m !! _) as [a|] eqn:E.
    - apply elem_of_list_lookup_2 in E. destruct (bool_decide (a ∈ m_conn m)) eqn:B.
      + apply bool_decide_eq_true in B. intros H. injection H as <- <-. cbn. split; [|split; [done|]].
        * split; [done|]. cbn. intros w b. destruct (decide (w = v)) as [->|N]; [rewrite lookup_insert; congruence|].
          rewrite lookup_insert_ne by done. apply A.
        * intros b Hb. injection Hb as <-. by rewrite lookup_insert.
      + destruct (ok a); intros H; injection H as <- <-; cbn.
        * split; [|split; [done|]].
          -- split; cbn; [set_solver|]. intros w b. destruct (decide (w = v)) as [->|N]; [rewrite lookup_insert; set_solver|].
             rewrite lookup_insert_ne by done. intros Hb. apply A in Hb. set_solver.
          -- intros b Hb. injection Hb as <-. rewrite lookup_insert. set_solver.
        * split; [done|]. split; [done|]. discriminate.
    - intros H. injection H as <- <-. split; [done|]. split; [done|]. discriminate. }
  destruct (m_aff m !! v) as [a|] eqn:E; [|by apply F]. destruct (bool_decide (a ∈ m_conn m)) eqn:B; [|by apply F].
  apply bool_decide_eq_true in B. injection H as <- <-. split; [done|]. split; [done|]. intros b Hb. injection Hb as <-. split; [|done].
  apply C in B. by apply elem_of_list_to_set in B.
Qed.

(** ** Pages *)
Section Pages.
  Variable srv : nat -> N -> option bytes -> option page.
  Lemma attempts_some n k v tok p k' : attempts srv n k v tok = (Some p, k') -> exists j, (k <= j < k + n)%nat /\ srv j v tok = Some p.
  Proof.
    revert k. induction n as [|n IH]; intros k H; [discriminate|]. cbn in H. destruct (srv k v tok) as [q|] eqn:E.
    - injection H as -> _. exists k. split; [lia|done].
    - destruct (IH _ H) as (j & J & S). exists j. split; [lia|done].
  Qed.
  Lemma attempts_none n k v tok k' : attempts srv n k v tok = (None, k') -> forall j, (k <= j < k + n)%nat -> srv j v tok = None.
  Proof.
    revert k. induction n as [|n IH]; intros k H j J; [lia|]. cbn in H. destruct (srv k v tok) as [q|] eqn:E; [discriminate|].
    destruct (Nat.eq_dec j k) as [->|N]; [done|]. eapply IH; [exact H|lia].
  Qed.
  Definition cok (c : cache) : Prop := forall v t p, ca_rows c !! (v, t) = Some (Some p) -> t <> [] /\ exists k, srv k v (Some t) = Some p.
  Lemma ahead_ok n v nx c : cok c -> cok (ahead srv n v nx c).
  Proof.
    intros C. unfold ahead. destruct (norm nx) as [t|] eqn:E; [|done]. destruct (attempts srv n _ v (Some t)) as [r k] eqn:A.
    intros w u p H. cbn in H. destruct (decide ((w, u) = (v, t))) as [Q|N].
    - injection Q as -> ->. rewrite lookup_insert in H. injection H as ->. split.
      + intros ->. destruct nx as [[|]|]; discriminate.
      + apply attempts_some in A as (j & _ & S). eauto.
    - rewrite lookup_insert_ne in H by congruence. by apply C.
  Qed.
  Lemma get_ok n v tok c g c' : cok c -> get srv n v tok c = (g, c') ->
    cok c' /\ forall p, g = GPage p -> exists k tok', srv k v tok' = Some p /\ norm tok' = norm tok.
  Proof.
    intros C H. unfold get in H. cbv zeta in H.
    assert (D : forall t, cok (Cache (delete (v, t) (ca_rows c)) (ca_calls c))).
    { intros t w u p X. cbn in X. apply lookup_delete_Some in X as [_ X]. by apply C. }
    assert (K : forall k, cok (Cache (ca_rows c) k)) by (intros k w u p X; by apply C).
    assert (MISS : (match n with O => (GPanic, c) | _ => let '(r, k) := attempts srv n (ca_calls c) v tok in let c' := Cache (ca_rows c) k in
       match r with Some p => (GPage p, ahead srv n v (pg_next p) c') | None => (GErr, c') end end) = (g, c') ->
       cok c' /\ forall p, g = GPage p -> exists k tok', srv k v tok' = Some p /\ norm tok' = norm tok).
    { destruct n as [|n]; [intros X; injection X as <- <-; split; [done|discriminate]|].
      destruct (attempts srv (S n) (ca_calls c) v tok) as [r k] eqn:A. cbv zeta. destruct r as [p|]; intros X; injection X as <- <-.
      - split; [by apply ahead_ok|]. intros q Q. injection Q as <-. apply attempts_some in A as (j & _ & S). eauto.
      - split; [done|discriminate]. }
    destruct (norm tok) as [t|] eqn:E; [|by apply MISS]. destruct (ca_rows c !! (v, t)) as [r|] eqn:R; [|by apply MISS]. destruct r as [p|].
    - injection H as <- <-. split; [by apply ahead_ok|]. intros q Q. injection Q as <-. destruct (C _ _ _ R) as (T & k & S).
      exists k, (Some t). split; [done|]. destruct t; [done|]. done.
    - injection H as <- <-. split; [done|discriminate].
  Qed.
End Pages.

(** ** Heartbeats *)
Lemma last_key_spec (m : bstore) : match last_key m with
  | None => m = ∅ | Some k => is_Some (m !! k) /\ forall j, is_Some (m !! j) -> j <= k end.
Proof.
  unfold last_key. apply (map_fold_ind (fun (a : option N) (m : bstore) => match a with None => m = ∅ | Some k => is_Some (m !! k) /\ forall j, is_Some (m !! j) -> j <= k end)).
  - done.
  - intros i x m' r Hi H. destruct r as [k|].
    + destruct H as [H1 H2]. split.
      * destruct (N.max_spec i k) as [[L ->]|[L ->]]; [|by rewrite (lookup_insert m' i x)]. rewrite (lookup_insert_ne m' i k x) by lia. done.
      * intros j [y Hj]. destruct (decide (j = i)) as [->|N]; [lia|]. rewrite lookup_insert_ne in Hj by done. pose proof (H2 j ltac:(eauto)). lia.
    + subst. split; [by rewrite lookup_insert|]. intros j [y Hj]. destruct (decide (j = i)) as [->|N]; [lia|].
      rewrite lookup_insert_ne in Hj by done. discriminate.
Qed.
(** Rows stand under their numbers. *)
Definition keyed (m : bstore) : Prop := forall k x, m !! k = Some x -> exists d, x = Some d /\ b_seq d = k.
Definition gapless (m : bstore) (n : N) : Prop := forall k, is_Some (m !! k) <-> 1 <= k <= n.
Lemma max_seq_keyed m : keyed m -> exists n, max_seq m = Some n /\ (forall j, is_Some (m !! j) -> j <= n) /\ (n = 0 \/ is_Some (m !! n)).
Proof.
  intros K. unfold max_seq. pose proof (last_key_spec m) as L. destruct (last_key m) as [k|].
  - destruct L as [[x L1] L2]. destruct (K _ _ L1) as (d & -> & S). rewrite L1. exists (b_seq d). rewrite S. split; [done|]. split; [done|]. right. eauto.
  - subst. exists 0. split; [done|]. split; [|by left]. intros j [x H]. discriminate.
Qed.
Lemma max_seq_gapless m n : keyed m -> gapless m n -> max_seq m = Some n.
Proof.
  intros K G. destruct (max_seq_keyed m K) as (k & E & U & L). rewrite E. f_equal. destruct (N.eq_dec n 0) as [->|Hn].
  - destruct L as [->|L]; [done|]. apply G in L. lia.
  - assert (n <= k) by (apply U, G; lia). destruct L as [->|L]; [lia|]. apply G in L. lia.
Qed.

(** ** Highest *)
Lemma highest_acc {M} (l : list (N * M)) acc :
  match foldl (fun acc s => match acc with Some b => if fst b <=? fst s then Some s else acc | None => Some s end) acc l with
  | None => acc = None /\ l = []
  | Some b => (Some b = acc \/ b ∈ l) /\ (forall s, s ∈ l -> fst s <= fst b) /\ (forall a, acc = Some a -> fst a <= fst b)
  end.
Proof.
  revert acc. induction l as [|s l IH]; intros acc; cbn [foldl].
  - destruct acc as [b|]; [|done]. split; [by left|]. split; [|intros a E; injection E as ->; lia]. intros s H. by apply elem_of_nil in H.
  - match goal with |- context [foldl _ ?A l] => specialize (IH A) end. destruct (foldl _ _ l) as [b|].
    + destruct IH as (I1 & I2 & I3). destruct acc as [a|].
      * destruct (fst a <=? fst s) eqn:L.
        -- pose proof (I3 s eq_refl). split; [|split].
           ++ right. rewrite elem_of_cons. destruct I1 as [I1|I1]; [left; congruence|by right].
           ++ intros x Hx. apply elem_of_cons in Hx as [->|Hx]; [done|by apply I2].
           ++ intros a' E. injection E as <-. lia.
        -- pose proof (I3 a eq_refl). split; [|split].
           ++ rewrite elem_of_cons. destruct I1 as [I1|I1]; [by left|right; by right].
           ++ intros x Hx. apply elem_of_cons in Hx as [->|Hx]; [lia|by apply I2].
           ++ intros a' E. injection E as <-. lia.
      * pose proof (I3 s eq_refl). split; [|split].
        -- right. rewrite elem_of_cons. destruct I1 as [I1|I1]; [left; congruence|by right].
        -- intros x Hx. apply elem_of_cons in Hx as [->|Hx]; [done|by apply I2].
        -- discriminate.
    + destruct IH as [I _]. destruct acc as [a|]; [destruct (fst a <=? fst s)|]; discriminate.
Qed.
