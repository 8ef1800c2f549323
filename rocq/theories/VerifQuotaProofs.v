(** Facts about [VerifQuota]. *)
From Verif Require Export VerifQuota.
From Coq Require Import ZifyN ZifyNat ZifyBool.
#[local] Open Scope N_scope.

Definition bN (b : bool) : N := if b then 1 else 0.
Definition is_kind (f : N) (a : bool) (m : vmsg) : bool := (v_fid m =? f) && Bool.eqb (v_add m) a.

Lemma real_insert (rows : gmap (N * bytes) vmsg) (m : vmsg) (f : N) (a : bool) :
  (forall k x, rows !! k = Some x -> v_key x = k) ->
  v_real (<[v_key m := m]> rows) f a + match rows !! v_key m with Some x => bN (is_kind f a x) | None => 0 end =
  v_real rows f a + bN (is_kind f a m).
Proof.
  intros K. unfold v_real. set (P := fun e : N * bytes * vmsg => e.1.1 = f /\ v_add e.2 = a).
  assert (forall (g : N) (b : bool) (x : vmsg), v_fid x = g -> is_kind f a x = true <-> P ((g, v_addr x), x)) as PK.
  { intros g b x <-. unfold is_kind, P. cbn. rewrite andb_true_iff, N.eqb_eq, Bool.eqb_true_iff. done. }
  assert (match rows !! v_key m with Some x => bN (is_kind f a x) | None => 0 end = N.of_nat (match filter P rows !! v_key m with Some _ => 1 | None => 0 end)) as ->.
  { destruct (rows !! v_key m) as [x|] eqn:E.
    - pose proof (K _ _ E) as Kx. destruct (is_kind f a x) eqn:B.
      + apply (PK (v_fid x) true x) in B; [|done]. assert (filter P rows !! v_key m = Some x) as ->; [|done].
        apply map_filter_lookup_Some. split; [done|]. rewrite <- Kx. exact B.
      + destruct (filter P rows !! v_key m) as [y|] eqn:F; [|done]. apply map_filter_lookup_Some in F as [F1 F2].
        assert (y = x) as -> by congruence. rewrite <- Kx in F2. apply (PK (v_fid x) true x) in F2; [congruence|done].
    - destruct (filter P rows !! v_key m) as [y|] eqn:F; [|done]. apply map_filter_lookup_Some in F as [F1 F2]. congruence. }
  destruct (is_kind f a m) eqn:B.
  - apply (PK (v_fid m) true m) in B; [|done]. rewrite map_filter_insert_True by exact B. rewrite map_size_insert.
    destruct (filter P rows !! v_key m); cbn [bN id]; unfold id; lia.
  - assert (~ P (v_key m, m)) as NB by (intros Q; apply (PK (v_fid m) true m) in Q; congruence).
    rewrite map_filter_insert_False by exact NB. rewrite map_filter_delete, map_size_delete.
    destruct (filter P rows !! v_key m) eqn:F; cbn [bN]; unfold id; [|lia].
    assert (size (filter P rows) <> 0%nat); [|lia]. intros Q. apply map_size_empty_iff in Q. rewrite Q, lookup_empty in F. done.
Qed.

Section V.
(** The content a hash stands for. *)
Context (content : bytes -> N * bool * bytes * N).
Definition v_good (m : vmsg) : Prop := content (v_hash m) = (v_fid m, v_add m, v_addr m, v_ts m).

Definition rows_ok (rows : gmap (N * bytes) vmsg) : Prop := forall k m, rows !! k = Some m -> v_key m = k /\ v_good m.
Definition trie_ok (rows : gmap (N * bytes) vmsg) (t : gset (N * bool * bytes)) : Prop :=
  forall e, e ∈ t <-> exists k m, rows !! k = Some m /\ v_entry m = e.

Lemma good_hash (a b : vmsg) : v_good a -> v_good b -> v_hash a = v_hash b -> v_key a = v_key b /\ v_cmp a b = Eq.
Proof.
  unfold v_good. intros A B E. rewrite E in A. rewrite B in A. injection A as A1 A2 A3 A4. unfold v_key, v_cmp.
  rewrite A1, A2, A3, A4, E, N.compare_refl, lex_refl. split; [done|]. by destruct (v_add a).
Qed.

Lemma count_real (rows : gmap (N * bytes) vmsg) (t : gset (N * bool * bytes)) (f : N) (a : bool) :
  rows_ok rows -> trie_ok rows t -> v_count t f a = v_real rows f a.
Proof.
  intros R T. unfold v_count, v_real. f_equal. unfold size at 1, set_size. unfold size, map_size. cbn [compose].
  rewrite <- (map_length (fun e : N * bytes * vmsg => v_entry e.2)). apply Permutation_length. apply NoDup_Permutation.
  - apply NoDup_elements.
  - apply NoDup_fmap_2_strong; [|apply NoDup_map_to_list]. intros [k x] [k' y] Hx Hy E. cbn in E.
    apply elem_of_map_to_list, map_filter_lookup_Some in Hx as [Hx _]. apply elem_of_map_to_list, map_filter_lookup_Some in Hy as [Hy _].
    destruct (R _ _ Hx) as [Kx Gx], (R _ _ Hy) as [Ky Gy]. unfold v_entry in E. injection E as E1 E2 E3.
    destruct (good_hash x y Gx Gy E3) as [Q _]. assert (k = k') as -> by congruence. congruence.
  - intros e. rewrite elem_of_elements, elem_of_filter, elem_of_list_fmap, (T e). split.
    + intros [[P1 P2] (k & m & H & <-)]. exists (k, m). split; [done|]. apply elem_of_map_to_list, map_filter_lookup_Some. split; [done|].
      destruct (R _ _ H) as [<- _]. done.
    + intros ([k m] & -> & H). apply elem_of_map_to_list, map_filter_lookup_Some in H as [H [P1 P2]]. destruct (R _ _ H) as [<- _]. split; [done|]. eauto.
Qed.

Lemma trie_insert (rows : gmap (N * bytes) vmsg) (t : gset (N * bool * bytes)) (m : vmsg) : rows_ok rows -> trie_ok rows t -> v_good m ->
  match rows !! v_key m with Some x => v_cmp x m = Lt | None => True end ->
  trie_ok (<[v_key m := m]> rows) (v_trie_event t (m, rows !! v_key m)).
Proof.
  intros R T G C e. unfold v_trie_event. cbn [fst snd].
  assert ((exists k x, <[v_key m := m]> rows !! k = Some x /\ v_entry x = e) <->
          e = v_entry m \/ exists k x, k <> v_key m /\ rows !! k = Some x /\ v_entry x = e) as E1.
  { split.
    - intros (k & x & [[<- <-]|[N1 H]]%lookup_insert_Some & <-); [by left|right]. exists k, x. done.
    - intros [-> |(k & x & N1 & H & <-)]; [exists (v_key m), m; by rewrite lookup_insert|]. exists k, x. by rewrite lookup_insert_ne. }
  rewrite E1. destruct (rows !! v_key m) as [x|] eqn:E.
  - destruct (R _ _ E) as [Kx Gx]. rewrite elem_of_difference, elem_of_union, !elem_of_singleton, (T e). split.
    + intros [[(k & y & H & <-)| ->] N1]; [|by left]. right. exists k, y. split; [|done]. intros ->. congruence.
    + intros [-> |(k & y & N1 & H & <-)].
      * split; [by right|]. intros Q. unfold v_entry in Q. injection Q as _ _ Q. destruct (good_hash x m Gx G) as [_ Q2]; congruence.
      * split; [left; eauto|]. intros Q. unfold v_entry in Q. injection Q as _ _ Q. destruct (R _ _ H) as [Ky Gy].
        destruct (good_hash y x Gy Gx Q) as [Q2 _]. congruence.
  - rewrite elem_of_union, elem_of_singleton, (T e). split.
    + intros [(k & y & H & <-)| ->]; [|by left]. right. exists k, y. split; [|done]. intros ->. congruence.
    + intros [-> |(k & y & N1 & H & <-)]; [by right|left; eauto].
Qed.
Lemma rows_insert (rows : gmap (N * bytes) vmsg) (m : vmsg) : rows_ok rows -> v_good m -> rows_ok (<[v_key m := m]> rows).
Proof. intros R G k x [[<- <-]|[_ H]]%lookup_insert_Some; [done|by apply R]. Qed.

Definition counts_ok (rows : gmap (N * bytes) vmsg) (f : N) (c : vcounts) : Prop :=
  vc_live c = v_real rows f true /\ vc_tomb c = v_real rows f false.

(** The loop: counters are the real numbers, the pending trie updates are those of the rows, and it does not abort. *)
Definition linv (f : N) (t : gset (N * bool * bytes)) (l : vloop) : Prop :=
  rows_ok (vl_rows l) /\ counts_ok (vl_rows l) f (vl_counts l) /\ trie_ok (vl_rows l) (foldl v_trie_event t (vl_events l)).

Lemma step_ok (f : N) (t : gset (N * bool * bytes)) (l : vloop) (m : vmsg) (mx : N) : linv f t l -> v_good m -> v_fid m = f ->
  exists l', v_step l (m, mx) = Some l' /\ linv f t l'.
Proof.
  intros (R & [C1 C2] & T) G Ef. cbn [v_step]. destruct (v_admit _ _ _ _) eqn:A; [|eexists; split; [done|split; done]].
  set (old := vl_rows l !! v_key m). destruct (match old with Some x => v_cmp x m | None => Lt end) eqn:EC;
    [eexists; split; [done|split; done]| |eexists; split; [done|split; done]].
  assert (forall k x, vl_rows l !! k = Some x -> v_key x = k) as K by (intros k x H; by apply R in H as [? _]).
  pose proof (real_insert (vl_rows l) m f true K) as R1. pose proof (real_insert (vl_rows l) m f false K) as R2. fold old in R1, R2.
  assert (exists c, v_delta (vl_counts l) old m = Some c /\ counts_ok (<[v_key m := m]> (vl_rows l)) f c) as (c & Ec & Cc).
  { unfold v_delta, counts_ok. unfold is_kind in R1, R2. rewrite Ef, N.eqb_refl in R1, R2. destruct old as [x|] eqn:Eo; cbn [mbind option_bind].
    - pose proof (K _ _ Eo) as Kx. unfold v_key in Kx. injection Kx as Kx1 Kx2. rewrite Kx1, Ef, N.eqb_refl in R1, R2. cbn [andb] in R1, R2.
      unfold v_sub. destruct (v_add x) eqn:Ax; cbn [Bool.eqb bN] in R1, R2.
      + assert (vc_live (vl_counts l) <> 0) as NZ.
        { rewrite C1. unfold v_real. intros Q. assert (size (filter (fun e : N * bytes * vmsg => e.1.1 = f /\ v_add e.2 = true) (vl_rows l)) = 0%nat) as Q2 by lia.
          apply map_size_empty_iff in Q2. assert (filter (fun e : N * bytes * vmsg => e.1.1 = f /\ v_add e.2 = true) (vl_rows l) !! v_key m = Some x) as Q3.
          { apply map_filter_lookup_Some. done. }
          rewrite Q2, lookup_empty in Q3. done. }
        rewrite (proj2 (N.eqb_neq _ _) NZ). cbn [mbind option_bind]. eexists. split; [done|]. unfold v_plus. destruct (v_add m); cbn [vc_live vc_tomb Bool.eqb bN] in *; lia.
      + assert (vc_tomb (vl_counts l) <> 0) as NZ.
        { rewrite C2. unfold v_real. intros Q. assert (size (filter (fun e : N * bytes * vmsg => e.1.1 = f /\ v_add e.2 = false) (vl_rows l)) = 0%nat) as Q2 by lia.
          apply map_size_empty_iff in Q2. assert (filter (fun e : N * bytes * vmsg => e.1.1 = f /\ v_add e.2 = false) (vl_rows l) !! v_key m = Some x) as Q3.
          { apply map_filter_lookup_Some. done. }
          rewrite Q2, lookup_empty in Q3. done. }
        rewrite (proj2 (N.eqb_neq _ _) NZ). cbn [mbind option_bind]. eexists. split; [done|]. unfold v_plus. destruct (v_add m); cbn [vc_live vc_tomb Bool.eqb bN] in *; lia.
    - eexists. split; [done|]. cbn [andb] in R1, R2. unfold v_plus. destruct (v_add m); cbn [vc_live vc_tomb Bool.eqb bN] in *; lia. }
  rewrite Ec. cbn [mbind option_bind]. eexists. split; [done|]. split; [by apply rows_insert|]. split; [done|]. cbn [vl_rows vl_events].
  rewrite foldl_app. cbn [foldl]. apply trie_insert; [done|done|done|]. fold old. destruct old; done.
Qed.

Lemma loop_ok (f : N) (t : gset (N * bool * bytes)) (ms : list (vmsg * N)) (l : vloop) : linv f t l ->
  Forall (fun mm => v_good mm.1 /\ v_fid mm.1 = f) ms -> exists l', v_loop l ms = Some l' /\ linv f t l'.
Proof.
  revert l. induction ms as [|[m mx] ms IH]; intros l L F; [exists l; done|]. inversion F as [|? ? [G Ef] F']; subst. cbn [fst] in *.
  destruct (step_ok (v_fid m) t l m mx L G eq_refl) as (l1 & E1 & L1). cbn [v_loop]. rewrite E1. cbn [mbind option_bind]. by apply IH.
Qed.

Definition v_inv (s : vst) : Prop := rows_ok (vs_rows s) /\ trie_ok (vs_rows s) (vs_trie s).
Definition honest (t : vtxn) : Prop := Forall (fun mm => v_good mm.1 /\ v_fid mm.1 = t.1) t.2.
Lemma start_linv (s : vst) (f : N) : v_inv s -> linv f (vs_trie s) (VLoop (vs_rows s) (v_counts (vs_trie s) f) []).
Proof.
  intros [R T]. split; [done|]. split; [|done]. unfold counts_ok, v_counts. cbn [vl_rows vl_counts vc_live vc_tomb].
  rewrite !(count_real _ _ _ _ R T). done.
Qed.
Lemma txn_ok (s : vst) (t : vtxn) : v_inv s -> honest t -> exists s', v_txn s t = Some s' /\ v_inv s'.
Proof.
  intros I H. destruct (loop_ok t.1 (vs_trie s) t.2 _ (start_linv s t.1 I) H) as (l & E & R & _ & T).
  unfold v_txn. rewrite E. cbn [mbind option_bind]. eexists. split; [done|]. split; done.
Qed.
Lemma run_ok (ts : list vtxn) (s : vst) : v_inv s -> Forall honest ts -> exists s', v_run s ts = Some s' /\ v_inv s'.
Proof.
  revert s. induction ts as [|t ts IH]; intros s I F; [exists s; done|]. inversion F; subst.
  destruct (txn_ok s t) as (s1 & E1 & I1); [done|done|]. cbn [v_run]. rewrite E1. cbn [mbind option_bind]. by apply IH.
Qed.
Lemma init_inv : v_inv vs_init.
Proof.
  split; [intros k m H; cbn [vs_init vs_rows] in H; by rewrite lookup_empty in H|]. intros e. cbn [vs_init vs_rows vs_trie]. split; [intros H; by apply elem_of_empty in H|].
  intros (k & m & H & _). by rewrite lookup_empty in H.
Qed.

(** Effect of one step on the numbers of an account. *)
Lemma tombstone_cap_mono (a b : N) : a <= b -> tombstone_cap a <= tombstone_cap b.
Proof. unfold tombstone_cap. intros. destruct (N.eqb_spec a 0), (N.eqb_spec b 0); lia. Qed.

Lemma step_numbers (f : N) (t : gset (N * bool * bytes)) (l l' : vloop) (m : vmsg) (mx : N) : linv f t l -> v_good m -> v_fid m = f ->
  v_step l (m, mx) = Some l' ->
  (forall g, g <> f -> forall a, v_real (vl_rows l') g a = v_real (vl_rows l) g a) /\
  let live := v_real (vl_rows l) f true in let tomb := v_real (vl_rows l) f false in
  let live' := v_real (vl_rows l') f true in let tomb' := v_real (vl_rows l') f false in
  (l' = l \/
   (v_add m = true /\ exists x, vl_rows l !! v_key m = Some x /\ v_add x = true /\ live' = live /\ tomb' = tomb) \/
   (v_add m = true /\ exists x, vl_rows l !! v_key m = Some x /\ v_add x = false /\ live < mx /\ live' = live + 1 /\ tomb' + 1 = tomb) \/
   (v_add m = true /\ vl_rows l !! v_key m = None /\ live < mx /\ live + tomb < row_cap mx /\ live' = live + 1 /\ tomb' = tomb) \/
   (v_add m = false /\ exists x, vl_rows l !! v_key m = Some x /\ v_add x = true /\ live' + 1 = live /\ tomb' = tomb + 1) \/
   (v_add m = false /\ exists x, vl_rows l !! v_key m = Some x /\ v_add x = false /\ live' = live /\ tomb' = tomb) \/
   (v_add m = false /\ vl_rows l !! v_key m = None /\ tomb < tombstone_cap mx /\ live + tomb < row_cap mx /\ live' = live /\ tomb' = tomb + 1)).
Proof.
  intros (R & [C1 C2] & T) G Ef E. cbn [v_step] in E. destruct (v_admit _ _ _ _) eqn:A; [|injection E as <-; split; [done|by left]].
  set (old := vl_rows l !! v_key m) in *. destruct (match old with Some x => v_cmp x m | None => Lt end) eqn:EC;
    [injection E as <-; split; [done|by left]| |injection E as <-; split; [done|by left]].
  assert (forall k x, vl_rows l !! k = Some x -> v_key x = k) as K by (intros k x H; by apply R in H as [? _]).
  pose proof (fun g => real_insert (vl_rows l) m g true K) as R1. pose proof (fun g => real_insert (vl_rows l) m g false K) as R2. fold old in R1, R2.
  destruct (v_delta (vl_counts l) old m) as [c|]; [|done]. cbn [mbind option_bind] in E. injection E as <-. cbn [vl_rows]. cbn zeta.
  unfold is_kind in R1, R2. rewrite Ef in R1, R2. split.
  - intros g Ng a. assert ((f =? g) = false) as Q by lia. specialize (R1 g). specialize (R2 g). rewrite Q in R1, R2. cbn [andb bN] in R1, R2.
    assert (match old with Some x => bN ((v_fid x =? g) && Bool.eqb (v_add x) a) | None => 0 end = 0) as Z.
    { destruct old as [x|] eqn:Eo; [|done]. pose proof (K _ _ Eo) as Kx. unfold v_key in Kx. injection Kx as Kx1 _. rewrite Kx1, Ef, Q. done. }
    destruct a; rewrite Z in *; lia.
  - right. specialize (R1 f). specialize (R2 f). rewrite N.eqb_refl in R1, R2. cbn [andb] in R1, R2. unfold v_admit in A.
    fold old in A. apply andb_true_iff in A as [_ A]. rewrite <- C1, <- C2.
    destruct old as [x|] eqn:Eo; cbn [fmap option_fmap option_map] in A.
    + pose proof (K _ _ Eo) as Kx. unfold v_key in Kx. injection Kx as Kx1 _. rewrite Kx1, Ef, N.eqb_refl in R1, R2. cbn [andb] in R1, R2.
      destruct (v_add m) eqn:Am, (v_add x) eqn:Ax; cbn [Bool.eqb bN] in R1, R2.
      * left. split; [done|]. exists x. split; [done|]. split; [done|]. lia.
      * right. left. split; [done|]. exists x. split; [done|]. split; [done|]. lia.
      * do 3 right. left. split; [done|]. exists x. split; [done|]. split; [done|]. lia.
      * do 4 right. left. split; [done|]. exists x. split; [done|]. split; [done|]. lia.
    + destruct (v_add m) eqn:Am; cbn [Bool.eqb bN] in R1, R2.
      * do 2 right. left. split; [done|]. split; [done|]. lia.
      * do 5 right. split; [done|]. split; [done|]. lia.
Qed.

(** The bound for an account whose limits never exceed [M]. *)
Definition bounded (M : N) (rows : gmap (N * bytes) vmsg) (f : N) : Prop :=
  v_real rows f true <= M /\ v_real rows f true + v_real rows f false <= row_cap M.
Lemma step_bounded (f : N) (t : gset (N * bool * bytes)) (l l' : vloop) (m : vmsg) (mx M g : N) : linv f t l -> v_good m -> v_fid m = f ->
  v_step l (m, mx) = Some l' -> (g = f -> mx <= M) -> bounded M (vl_rows l) g -> bounded M (vl_rows l') g.
Proof.
  intros L G Ef E HM [B1 B2]. destruct (step_numbers f t l l' m mx L G Ef E) as [O S]. cbn zeta in S.
  destruct (N.eq_dec g f) as [-> |Ng]; [|unfold bounded; rewrite !(O g Ng); done].
  specialize (HM eq_refl). pose proof (tombstone_cap_mono mx M HM). unfold bounded, row_cap in *.
  destruct S as [-> |[(_ & x & _ & _ & S)|[(_ & x & _ & _ & S)|[(_ & _ & S)|[(_ & x & _ & _ & S)|[(_ & x & _ & _ & S)|(_ & _ & S)]]]]]]; lia.
Qed.
Lemma loop_bounded (f : N) (t : gset (N * bool * bytes)) (ms : list (vmsg * N)) (l l' : vloop) (M g : N) : linv f t l ->
  Forall (fun mm => v_good mm.1 /\ v_fid mm.1 = f) ms -> (g = f -> Forall (fun mm => mm.2 <= M) ms) -> v_loop l ms = Some l' ->
  bounded M (vl_rows l) g -> bounded M (vl_rows l') g.
Proof.
  revert l. induction ms as [|[m mx] ms IH]; intros l L F FM E B; [injection E as <-; done|]. inversion F as [|? ? [G Ef] F']; subst. cbn [fst] in *.
  cbn [v_loop] in E. destruct (step_ok (v_fid m) t l m mx L G eq_refl) as (l1 & E1 & L1). rewrite E1 in E. cbn [mbind option_bind] in E.
  eapply IH; [exact L1|done| |exact E|]. { intros Q. specialize (FM Q). by inversion FM. }
  eapply step_bounded; [exact L|exact G|done|exact E1| |exact B]. intros Q. specialize (FM Q). by inversion FM.
Qed.
Lemma run_bounded (ts : list vtxn) (s s' : vst) (M g : N) : v_inv s -> Forall honest ts ->
  Forall (fun t => t.1 = g -> Forall (fun mm => mm.2 <= M) t.2) ts -> v_run s ts = Some s' -> bounded M (vs_rows s) g -> bounded M (vs_rows s') g.
Proof.
  revert s. induction ts as [|t ts IH]; intros s I F FM E B; [injection E as <-; done|]. inversion F as [|? ? H F']; subst. inversion FM as [|? ? HM FM']; subst.
  cbn [v_run] in E. destruct (txn_ok s t I H) as (s1 & E1 & I1). rewrite E1 in E. cbn [mbind option_bind] in E.
  eapply IH; [exact I1|done|done|exact E|]. unfold v_txn in E1.
  destruct (v_loop _ t.2) as [l|] eqn:El; [|done]. cbn [mbind option_bind] in E1. injection E1 as <-. cbn [vs_rows].
  eapply loop_bounded; [exact (start_linv s t.1 I)|exact H| |exact El|exact B]. intros ->. by apply HM.
Qed.
End V.

(** Rows are permanent. *)
Lemma step_rows (l l' : vloop) (mm : vmsg * N) : v_step l mm = Some l' -> forall k, is_Some (vl_rows l !! k) -> is_Some (vl_rows l' !! k).
Proof.
  destruct mm as [m mx]. cbn [v_step]. destruct (v_admit _ _ _ _); [|intros [= <-]; done].
  destruct (match _ with Some x => v_cmp x m | None => Lt end); [intros [= <-]; done| |intros [= <-]; done].
  destruct (v_delta _ _ _); [|done]. cbn [mbind option_bind]. intros [= <-] k H. cbn [vl_rows].
  destruct (decide (k = v_key m)) as [-> |N]; [rewrite lookup_insert; eauto|by rewrite lookup_insert_ne].
Qed.
Lemma loop_rows (ms : list (vmsg * N)) (l l' : vloop) : v_loop l ms = Some l' -> forall k, is_Some (vl_rows l !! k) -> is_Some (vl_rows l' !! k).
Proof.
  revert l. induction ms as [|m ms IH]; intros l E k H; [injection E as <-; done|]. cbn [v_loop] in E.
  destruct (v_step l m) as [l1|] eqn:E1; [|done]. cbn [mbind option_bind] in E. eapply IH; [done|]. by eapply step_rows.
Qed.
Lemma run_rows (ts : list vtxn) (s s' : vst) : v_run s ts = Some s' -> forall k, is_Some (vs_rows s !! k) -> is_Some (vs_rows s' !! k).
Proof.
  revert s. induction ts as [|t ts IH]; intros s E k H; [injection E as <-; done|]. cbn [v_run] in E. unfold v_txn in E.
  destruct (v_loop _ t.2) as [l|] eqn:El; [|done]. cbn [mbind option_bind] in E. eapply IH; [done|]. cbn [vs_rows]. eapply loop_rows in El; [done|]. done.
Qed.
