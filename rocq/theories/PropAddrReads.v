(** C124: what the node tells about addresses. *)
From Verif Require Import AddrReads OnChainProofs PropOnChain.
From stdpp Require Import sorting.
From Coq Require Import Lia ZifyN ZifyNat ZifyBool.
#[local] Open Scope N_scope.

(** A stored event that makes [a] the owner of an account. *)
Definition names (a : bytes) (e : oev) : Prop := exists k, o_body e = BIdReg k a.
Definition stored (s : ost) (e : oev) : Prop := exists k, t_ev s !! k = Some e.
Definition held (ss : list ost) (a : bytes) (e : oev) : Prop := names a e /\ exists s, s ∈ ss /\ stored s e.

Lemma events_of_in s ty f e : e ∈ events_of s ty f <-> exists k, t_ev s !! k = Some e /\ k.1.1.1 = ty /\ match f with Some f => k.1.1.2 = fidk f | None => True end.
Proof.
  unfold events_of. rewrite elem_of_list_fmap. split.
  - intros ([k x] & -> & H). rewrite (merge_sort_Permutation row_le) in H. apply elem_of_list_filter in H as [A C]. apply elem_of_map_to_list in C. exists k. cbn [fst snd] in A.
    apply andb_true_iff in A as [A B]. apply N.eqb_eq in A. split; [done|]. split; [done|]. destruct f; [by apply N.eqb_eq|done].
  - intros (k & A & B & C). exists (k, e). split; [done|]. rewrite (merge_sort_Permutation row_le). apply elem_of_list_filter. split; [|by apply elem_of_map_to_list].
    cbn [fst]. apply andb_true_iff. split; [by apply N.eqb_eq|]. destruct f; [by apply N.eqb_eq|done].
Qed.

Lemma scan_spec a l : forall c r c', scan a l c = (r, c') ->
  (forall e, r = Some e -> e ∈ l /\ names a e) /\ (r = None -> forall e, e ∈ l -> ~ names a e) /\
  (forall b e, c' !! b = Some e -> c !! b = Some e \/ (e ∈ l /\ names b e)) /\
  (forall b, is_Some (c !! b) -> is_Some (c' !! b)).
Proof.
  induction l as [|x l IH]; intros c r c'; cbn [scan].
  { intros [= <- <-]. split; [done|]. split; [intros _ e H; by apply elem_of_nil in H|]. split; [by left|done]. }
  destruct (o_body x) as [| k to | | | |] eqn:B.
  2: { destruct (decide (to = a)) as [->|Hne].
       - intros [= <- <-]. split; [|split; [|split]].
         + intros e [= <-]. split; [apply elem_of_list_here|by exists k].
         + done.
         + intros b e H. destruct (decide (b = a)) as [->|]; [rewrite lookup_insert in H; injection H as <-; right; split; [apply elem_of_list_here|by exists k]|rewrite lookup_insert_ne in H by done; by left].
         + intros b H. destruct (decide (b = a)) as [->|]; [rewrite lookup_insert; by eexists|by rewrite lookup_insert_ne by done].
       - intros H. destruct (IH _ _ _ H) as (P1 & P2 & P3 & P4). split; [|split; [|split]].
         + intros e He. destruct (P1 e He). split; [by right|done].
         + intros Hr e He. apply elem_of_cons in He as [->|He]; [intros [k' E]; congruence|by apply P2].
         + intros b e Hb. destruct (P3 b e Hb) as [Q|[Q1 Q2]]; [|right; split; [by right|done]].
           destruct (decide (b = to)) as [->|]; [rewrite lookup_insert in Q; injection Q as <-; right; split; [apply elem_of_list_here|by exists k]|rewrite lookup_insert_ne in Q by done; by left].
         + intros b Hb. apply P4. destruct (decide (b = to)) as [->|]; [rewrite lookup_insert; by eexists|by rewrite lookup_insert_ne by done]. }
  all: intros H; destruct (IH _ _ _ H) as (P1 & P2 & P3 & P4); split; [intros e He; destruct (P1 e He); split; [by right|done]|];
    split; [intros Hr e He; apply elem_of_cons in He as [->|He]; [intros [k' E]; congruence|by apply P2]|];
    split; [intros b e Hb; destruct (P3 b e Hb) as [Q|[Q1 Q2]]; [by left|right; split; [by right|done]]|exact P4].
Qed.

Lemma scan_all_spec a ss : forall c r c', Forall ev_ok ss -> scan_all a ss c = (r, c') ->
  (forall e, r = Some e -> held ss a e) /\ (r = None -> forall e, ~ held ss a e) /\
  (forall b e, c' !! b = Some e -> c !! b = Some e \/ held ss b e) /\ (forall b, is_Some (c !! b) -> is_Some (c' !! b)).
Proof.
  induction ss as [|s ss IH]; intros c r c' Hok; cbn [scan_all].
  { intros [= <- <-]. split; [done|]. split; [intros _ e (_ & s & H & _); by apply elem_of_nil in H|]. split; [by left|done]. }
  apply Forall_cons in Hok as [Hs Hok]. destruct (scan a (events_of s 3 None) c) as [o c1] eqn:S. destruct (scan_spec _ _ _ _ _ S) as (P1 & P2 & P3 & P4).
  assert (IN : forall b e, e ∈ events_of s 3 None -> names b e -> held (s :: ss) b e).
  { intros b e H N. apply events_of_in in H as (k & K & _). split; [done|]. exists s. split; [apply elem_of_list_here|by exists k]. }
  assert (UP : forall b e, held ss b e -> held (s :: ss) b e).
  { intros b e (N & s' & M & T). split; [done|]. exists s'. split; [by right|done]. }
  destruct o as [x|].
  - intros [= <- <-]. split; [|split; [done|split; [|done]]].
    + intros e [= <-]. destruct (P1 x eq_refl). by apply IN.
    + intros b e H. destruct (P3 b e H) as [|[]]; [by left|right; by apply IN].
  - intros H. destruct (IH _ _ _ Hok H) as (Q1 & Q2 & Q3 & Q4). split; [|split; [|split]].
    + intros e He. apply UP. by apply Q1.
    + intros Hr e (N & s' & M & k & K). apply elem_of_cons in M as [->|M]; [|apply (Q2 Hr e); split; [done|exists s'; split; [done|by exists k]]].
      apply (P2 eq_refl e); [|done]. apply events_of_in. exists k. split; [done|]. split; [|done]. rewrite <- (Hs k e K). destruct N as [kd N]. unfold prim, o_type. by rewrite N.
    + intros b e Hb. destruct (Q3 b e Hb) as [X|X]; [|right; by apply UP]. destruct (P3 b e X) as [|[]]; [by left|right; by apply IN].
    + intros b Hb. apply Q4, P4, Hb.
Qed.

(** ** In which order *)
Definition before (x y : oev) : Prop :=
  fidk (o_fid x) < fidk (o_fid y) \/ (fidk (o_fid x) = fidk (o_fid y) /\ (o_block x < o_block y \/ (o_block x = o_block y /\ o_log x <= o_log y))).
#[local] Instance row_le_trans : Transitive row_le.
Proof. intros [[[[t f] k] l] e] [[[[t' f'] k'] l'] e'] [[[[t2 f2] k2] l2] e2]. unfold row_le, key_leb. cbn [fst]. lia. Qed.
#[local] Instance row_le_total : Total row_le.
Proof. intros [[[[t f] k] l] e] [[[[t' f'] k'] l'] e']. unfold row_le, key_leb. cbn [fst]. lia. Qed.
Lemma events_sorted s ty f : ev_ok s -> StronglySorted (fun x y => key_leb (prim x) (prim y) = true) (events_of s ty f).
Proof.
  intros Hok. unfold events_of. set (L := filter _ _).
  assert (A : forall r, r ∈ merge_sort row_le L -> prim r.2 = r.1).
  { intros [k e] H. rewrite (merge_sort_Permutation row_le) in H. apply elem_of_list_filter in H as [_ H]. apply elem_of_map_to_list in H. by apply Hok. }
  pose proof (StronglySorted_merge_sort row_le L) as S. induction S as [|r l S IH F]; cbn [map]; constructor.
  - apply IH. intros x H. apply A. by right.
  - rewrite Forall_forall in F. apply Forall_forall. intros y Hy. apply elem_of_list_fmap in Hy as (x & -> & Hx). rewrite (A r) by apply elem_of_list_here. rewrite (A x) by (by right). by apply F.
Qed.
Lemma scan_first a l : forall c e c', StronglySorted (fun x y => key_leb (prim x) (prim y) = true) l -> scan a l c = (Some e, c') ->
  forall x, x ∈ l -> names a x -> key_leb (prim e) (prim x) = true.
Proof.
  induction l as [|y l IH]; intros c e c' S H x X N; [by apply elem_of_nil in X|]. inversion S as [|? ? S' F]; subst. cbn [scan] in H.
  assert (R : scan a l c = (Some e, c') -> ~ names a y -> key_leb (prim e) (prim x) = true).
  { intros H' Hy. apply elem_of_cons in X as [->|X]; [done|]. by apply (IH c e c'). }
  destruct (o_body y) as [| k to | | | |] eqn:B.
  2: { destruct (decide (to = a)) as [->|Hne].
       - injection H as <- _. apply elem_of_cons in X as [->|X]; [unfold key_leb, prim; lia|]. rewrite Forall_forall in F. by apply F.
       - apply elem_of_cons in X as [->|X]; [destruct N as [k' E]; congruence|]. by apply (IH _ e c' S' H). }
  all: apply R; [exact H|intros [k' E]; congruence].
Qed.
Lemma scan_all_first a ss : forall c e c', Forall ev_ok ss -> scan_all a ss c = (Some e, c') ->
  exists ss1 s ss2, ss = ss1 ++ s :: ss2 /\ (forall x, ~ held ss1 a x) /\ stored s e /\ names a e /\ forall x, stored s x -> names a x -> before e x.
Proof.
  induction ss as [|s ss IH]; intros c e c' Hok; cbn [scan_all]; [done|]. apply Forall_cons in Hok as [Hs Hok].
  assert (ST : forall x, stored s x -> names a x -> x ∈ events_of s 3 None).
  { intros x [k K] [kd N]. apply events_of_in. exists k. split; [done|]. split; [|done]. rewrite <- (Hs k x K). unfold prim, o_type. by rewrite N. }
  destruct (scan a (events_of s 3 None) c) as [[y|] c1] eqn:S; destruct (scan_spec _ _ _ _ _ S) as (P1 & P2 & _).
  - intros [= -> ->]. exists [], s, ss. destruct (P1 e eq_refl) as [M N]. split; [done|]. split; [intros x (_ & s' & Q & _); by apply elem_of_nil in Q|].
    split; [apply events_of_in in M as (k & K & _); by exists k|]. split; [done|]. intros x X Nx.
    pose proof (scan_first a _ _ _ _ (events_sorted s 3 None Hs) S x (ST x X Nx) Nx) as G. destruct N as [k N], Nx as [k' Nx].
    unfold key_leb, prim, o_type in G. rewrite N, Nx in G. unfold before. lia.
  - intros H. destruct (IH _ _ _ Hok H) as (s1 & s' & s2 & -> & A & B). exists (s :: s1), s', s2. split; [done|]. split; [|done].
    intros x (Nx & t & T & X). apply elem_of_cons in T as [->|T]; [by apply (P2 eq_refl x); [apply ST|]|]. apply (A x). split; [done|]. by exists t.
Qed.

Section N.
  Context (keccak : bytes -> bytes).
  Notation astep := (astep keccak). Notation arun := (arun keccak).

  Definition inv (n : anode) : Prop := Forall ev_ok (a_shards n) /\ forall a e, a_cache n !! a = Some e -> held (a_shards n) a e.

  Lemma batch_ok s es : ev_ok s -> ev_ok (obatch keccak s es) /\ (forall e, stored s e -> stored (obatch keccak s es) e).
  Proof.
    intros H. unfold obatch.
    enough (G : forall db s, ev_ok s -> ev_ok (foldl (ostep keccak db) s es) /\ (forall e, stored s e -> stored (foldl (ostep keccak db) s es) e)) by (by apply G).
    clear s H. intros db. induction es as [|e es IH]; intros s H; [done|]. cbn [foldl].
    destruct (IH (ostep keccak db s e) (ev_ok_step keccak db s e H)) as [A B]. split; [done|]. intros x [k K]. apply B. exists k.
    eapply lookup_weaken; [exact K|apply ev_grow].
  Qed.
  Lemma held_alter ss i es a e : Forall ev_ok ss -> held ss a e -> held (alter (fun s => obatch keccak s es) i ss) a e.
  Proof.
    intros Hok (N & s & M & T). split; [done|]. apply elem_of_list_lookup in M as [j J]. destruct (decide (i = j)) as [->|Hne].
    - exists (obatch keccak s es). split; [apply elem_of_list_lookup; exists j; rewrite list_lookup_alter, J; done|].
      apply batch_ok; [|done]. rewrite Forall_lookup in Hok. by apply (Hok j).
    - exists s. split; [apply elem_of_list_lookup; exists j; by rewrite list_lookup_alter_ne|done].
  Qed.
  Lemma inv_step n o : inv n -> inv (astep n o).
  Proof.
    intros [Hok Hc]. destruct o as [i es|a|a]; cbn [astep AddrReads.astep].
    - split; cbn [a_shards a_cache].
      + apply Forall_alter; [done|]. intros s _ H. by apply batch_ok.
      + intros a e H. apply held_alter; [done|by apply Hc].
    - split; [done|]. cbn [a_shards a_cache]. intros b e H. apply lookup_delete_Some in H as [_ H]. by apply Hc.
    - split; [done|]. cbn [a_shards a_cache]. intros b e H. unfold by_address in H. destruct (a_cache n !! a); [by apply Hc|].
      destruct (scan_all a (a_shards n) (a_cache n)) as [r c] eqn:S. destruct (scan_all_spec _ _ _ _ _ Hok S) as (_ & _ & P & _).
      destruct (P b e H); [by apply Hc|done].
  Qed.
  Lemma inv_run os n : inv n -> inv (arun n os).
  Proof. revert n. induction os as [|o os IH]; intros n H; [done|]. cbn. apply IH. by apply inv_step. Qed.
  Lemma inv_init m : inv (a_init m).
  Proof. split; [|intros a e H; cbn [a_init a_cache] in H; by rewrite lookup_empty in H]. cbn. apply Forall_forall. intros s H. apply elem_of_list_In, repeat_spec in H as ->. intros k e X. cbn [o_init t_ev] in X. by rewrite lookup_empty in X. Qed.
  Lemma read_spec n a : inv n -> (forall e, a_read n a = Some e -> held (a_shards n) a e) /\ (a_read n a = None -> forall e, ~ held (a_shards n) a e).
  Proof.
    intros [Hok Hc]. unfold a_read, by_address. destruct (a_cache n !! a) as [x|] eqn:C; [split; [intros e [= <-]; by apply Hc|done]|].
    destruct (scan_all a (a_shards n) (a_cache n)) as [r c] eqn:S. destruct (scan_all_spec _ _ _ _ _ Hok S) as (P1 & P2 & _). split; [exact P1|exact P2].
  Qed.

  (** In every history, what is told for an address is a stored event naming it as the new owner, and "not found" is told exactly
      when no shard stores one. *)
  Theorem C124_genuine m os a e : a_read (arun (a_init m) os) a = Some e -> held (a_shards (arun (a_init m) os)) a e.
  Proof. intros H. apply (read_spec _ a (inv_run os _ (inv_init m))). exact H. Qed.
  Theorem C124_not_found m os a : a_read (arun (a_init m) os) a = None <-> forall e, ~ held (a_shards (arun (a_init m) os)) a e.
  Proof.
    destruct (read_spec _ a (inv_run os _ (inv_init m))) as [A B]. split; [exact B|]. intros H. destruct (a_read _ a) as [e|] eqn:R; [|done]. destruct (H e). by apply A.
  Qed.
  (** An address named by one stored event only is told that event, whatever was read or dropped before. *)
  Theorem C124_one_owner m os a e : held (a_shards (arun (a_init m) os)) a e -> (forall x, held (a_shards (arun (a_init m) os)) a x -> x = e) ->
    a_read (arun (a_init m) os) a = Some e.
  Proof.
    intros H U. destruct (read_spec _ a (inv_run os _ (inv_init m))) as [A B]. destruct (a_read _ a) as [x|] eqn:R; [by rewrite (U x (A x eq_refl))|]. by destruct (B eq_refl e).
  Qed.

  (** An address not in the cache is told the event of the lowest account, and of that account the oldest, on the first shard that
      stores one for it: the oldest registration, not the latest. *)
  Theorem C124_oldest_told m os a e : let n := arun (a_init m) os in a_cache n !! a = None -> a_read n a = Some e ->
    exists ss1 s ss2, a_shards n = ss1 ++ s :: ss2 /\ (forall x, ~ held ss1 a x) /\ stored s e /\ names a e /\ forall x, stored s x -> names a x -> before e x.
  Proof.
    intros n C H. destruct (inv_run os _ (inv_init m)) as [Hok _]. fold n in Hok. unfold a_read, by_address in H. rewrite C in H.
    destruct (scan_all a (a_shards n) (a_cache n)) as [r c] eqn:S. cbn in H. subst r. by apply (scan_all_first _ _ _ _ _ Hok S).
  Qed.

  (** The claim that the address is an owner now is false for every address that ever was one: no later event takes it away. *)
  Theorem C124_former_owner_refuted m os a e os' : held (a_shards (arun (a_init m) os)) a e -> exists x, a_read (arun (a_init m) (os ++ os')) a = Some x.
  Proof.
    intros H. destruct (a_read (arun (a_init m) (os ++ os')) a) as [x|] eqn:R; [by exists x|]. destruct (proj1 (C124_not_found m (os ++ os') a) R e).
    unfold arun, AddrReads.arun. rewrite foldl_app. fold (arun (a_init m) os). pose proof (inv_run os _ (inv_init m)) as I.
    change (foldl (AddrReads.astep keccak)) with arun in *.
    generalize dependent (arun (a_init m) os). clear R. induction os' as [|o os' IH]; intros n H I; [done|]. cbn. apply IH; [|by apply inv_step].
    destruct o; cbn [astep AddrReads.astep a_shards]; [apply held_alter; [apply I|done]|done|done].
  Qed.
  (** What was told once is told again whatever happens on the chain, as long as the entry is not dropped. *)
  Theorem C124_told_again_refuted n a e (cs : list (nat * list oev)) : a_read n a = Some e ->
    a_read (arun (astep n (ARead a)) (map (fun c => AChain c.1 c.2) cs)) a = Some e.
  Proof.
    intros H. assert (C : a_cache (astep n (ARead a)) !! a = Some e).
    { cbn [astep AddrReads.astep a_cache]. unfold a_read, by_address in H |- *. destruct (a_cache n !! a) as [x|] eqn:C; [cbn in *; congruence|].
      generalize dependent (a_cache n). clear. generalize (a_shards n). intros ss. clear n.
      assert (L : forall l c, match scan a l c with (Some x, c') => c' !! a = Some x | (None, c') => c' !! a = c !! a end).
      { induction l as [|x l IH]; intros c; cbn [scan]; [done|]. destruct (o_body x); try apply IH. destruct (decide (to = a)) as [->|Hne]; [by rewrite lookup_insert|].
        specialize (IH (<[to:=x]> c)). destruct (scan a l (<[to:=x]> c)) as [[y|] c']; [done|]. by rewrite IH, lookup_insert_ne. }
      induction ss as [|s ss IH]; intros c; cbn [scan_all]; [cbn; congruence|]. specialize (L (events_of s 3 None) c). destruct (scan a (events_of s 3 None) c) as [[y|] c'].
      - intros H E. cbn in *. congruence.
      - intros H E. apply IH; first [exact H|exact E|congruence]. }
    assert (K : forall (cs : list (nat * list oev)) n', a_cache n' !! a = Some e -> a_cache (arun n' (map (fun c => AChain c.1 c.2) cs)) !! a = Some e).
    { clear. induction cs as [|c cs IH]; intros n' X; [exact X|]. cbn [map arun AddrReads.arun foldl]. apply IH. exact X. }
    unfold a_read, by_address. rewrite (K cs _ C). done.
  Qed.

  (** *** By account *)
  Theorem C124_by_fid ss f h : h ∈ ss -> (forall s, s ∈ ss -> s = h \/ custody_event s f = None) -> by_fid ss f = custody_event h f.
  Proof.
    induction ss as [|s ss IH]; intros M H; [by apply elem_of_nil in M|]. cbn [by_fid]. destruct (H s (elem_of_list_here _ _)) as [->|E].
    - destruct (custody_event h f) eqn:C; [done|]. clear IH M. induction ss as [|t ss IH]; [done|]. cbn [by_fid].
      assert (custody_event t f = None) as ->; [|apply IH; intros s Hs; apply H; apply elem_of_cons in Hs as [->|]; [by left|by right; right]].
      destruct (H t) as [->|]; [right; left|done|done].
    - rewrite E. apply elem_of_cons in M as [->|M].
      + rewrite E. clear IH. induction ss as [|t ss IH]; [done|]. cbn [by_fid].
        assert (custody_event t f = None) as ->; [|apply IH; intros s0 Hs; apply H; apply elem_of_cons in Hs as [->|]; [by left|by right; right]].
        destruct (H t) as [->|]; [right; left|done|done].
      + apply IH; [done|]. intros t Ht. apply H. by right.
  Qed.

  (** *** What an address is to an account *)
  Definition blank (s : ashard) (f : N) (a : bytes) : Prop := sh_custody s f a = false /\ sh_auth s f a = false /\ sh_verified s f a = false.
  (** The answer is that of the first shard with something to say. *)
  Theorem C124_first_shard ss f a :
    (address_type ss f a = (false, false, false) /\ forall s, s ∈ ss -> blank s f a) \/
    (exists l1 s l2, ss = l1 ++ s :: l2 /\ (forall t, t ∈ l1 -> blank t f a) /\ ~ blank s f a /\ address_type ss f a = (sh_custody s f a, sh_auth s f a, sh_verified s f a)).
  Proof.
    unfold address_type. induction ss as [|s ss IH]; [left; split; [done|intros s H; by apply elem_of_nil in H]|]. cbn [type_loop]. rewrite !orb_false_l.
    destruct (sh_custody s f a || sh_auth s f a || sh_verified s f a) eqn:E.
    - right. exists [], s, ss. split; [done|]. split; [intros t H; by apply elem_of_nil in H|]. split; [|done]. intros (A & B & C). rewrite A, B, C in E. done.
    - apply orb_false_elim in E as [E C]. apply orb_false_elim in E as [A B]. rewrite A, B, C. destruct IH as [[H1 H2]|(l1 & t & l2 & H1 & H2 & H3 & H4)].
      + left. split; [done|]. intros t Ht. apply elem_of_cons in Ht as [->|Ht]; [done|by apply H2].
      + right. exists (s :: l1), t, l2. split; [by rewrite H1|]. split; [|done]. intros u Hu. apply elem_of_cons in Hu as [->|Hu]; [done|by apply H2].
  Qed.
  (** When one shard has it all, in whatever order the shards are walked: custody is the latest registration or transfer, ... *)
  Theorem C124_custody ss f a bs v : NoDup (map prim (concat bs)) -> let h := AShard (orun keccak o_init bs) v in h ∈ ss ->
    (forall s, s ∈ ss -> s = h \/ blank s f a) ->
    (address_type ss f a).1.1 = true <-> exists e, e ∈ concat bs /\ names a e /\ registers (fidk f) e = true /\ custody_event (orun keccak o_init bs) f = Some e /\
      forall y, y ∈ concat bs -> registers (fidk f) y = true -> o_block y <= o_block e.
  Proof.
    intros ND h M H. assert (A : address_type ss f a = (sh_custody h f a, sh_auth h f a, sh_verified h f a)).
    { destruct (C124_first_shard ss f a) as [[-> B]|(l1 & s & l2 & -> & _ & N & ->)]; [by destruct (B h M) as (-> & -> & ->)|].
      destruct (H s) as [->|]; [apply elem_of_app; right; left|done|done]. }
    rewrite A. cbn [fst]. unfold sh_custody. cbn [q_on h]. destruct (C60_custody_latest keccak bs f ND) as [P _]. split.
    - destruct (custody_event (orun keccak o_init bs) f) as [e|]; [|done]. destruct (P e eq_refl) as (P1 & P2 & P3). destruct (o_body e) eqn:B; try done.
      intros E. apply bool_decide_eq_true in E as ->. exists e. split; [done|]. split; [by eexists|]. done.
    - intros (e & _ & [k B] & _ & -> & _). rewrite B. by apply bool_decide_eq_true.
  Qed.
  (** ... and an auth address is one that was ever added, removed since or not. *)
  Theorem C124_auth_ever ss f a bs v : NoDup (map prim (concat bs)) -> let h := AShard (orun keccak o_init bs) v in h ∈ ss ->
    (forall s, s ∈ ss -> s = h \/ blank s f a) ->
    (address_type ss f a).1.2 = true <-> exists e, e ∈ concat bs /\ fidk (o_fid e) = fidk f /\ o_body e = BSigner SAdd a 2.
  Proof.
    intros ND h M H. assert (A : address_type ss f a = (sh_custody h f a, sh_auth h f a, sh_verified h f a)).
    { destruct (C124_first_shard ss f a) as [[-> B]|(l1 & s & l2 & -> & _ & N & ->)]; [by destruct (B h M) as (-> & -> & ->)|].
      destruct (H s) as [->|]; [apply elem_of_app; right; left|done|done]. }
    rewrite A. cbn [fst snd]. unfold sh_auth. rewrite existsb_exists. cbn [q_on h]. split.
    - intros (e & He & B). apply elem_of_list_In, events_of_in in He as (k & K & T & F). apply (run_ev_in keccak bs k e ND) in K as [K1 K2].
      exists e. split; [done|]. rewrite <- K2 in F. split; [exact F|]. destruct (o_body e) as [kd key ty| | | | |]; try done.
      apply andb_true_iff in B as [B C]. apply andb_true_iff in B as [D B]. apply bool_decide_eq_true in B, C. apply N.eqb_eq in D. congruence.
    - intros (e & He & F & B). exists e. split.
      + apply elem_of_list_In, events_of_in. exists (prim e). split; [by apply (run_ev_in keccak bs)|]. split; [unfold prim, o_type; by rewrite B|exact F].
      + rewrite B. rewrite !bool_decide_eq_true_2 by done. done.
  Qed.
  Theorem C124_verified ss f a h : h ∈ ss -> (forall s, s ∈ ss -> s = h \/ blank s f a) -> (address_type ss f a).2 = true <-> (fidk f, a) ∈ q_ver h.
  Proof.
    intros M H. assert (A : address_type ss f a = (sh_custody h f a, sh_auth h f a, sh_verified h f a)).
    { destruct (C124_first_shard ss f a) as [[-> B]|(l1 & s & l2 & -> & _ & N & ->)]; [by destruct (B h M) as (-> & -> & ->)|].
      destruct (H s) as [->|]; [apply elem_of_app; right; left|done|done]. }
    rewrite A. cbn [snd]. unfold sh_verified. apply bool_decide_eq_true.
  Qed.
End N.

(** ** Examples and counterexamples *)
Definition idr (f : N) (k : id_kind) (to b : N) : oev := OEv f b 0 0 0 (BIdReg k [to]).
Definition aut (k : sig_kind) (b : N) : oev := OEv 5 b 0 0 0 (BSigner k [9] 2).
(** The owner of account 5 gave it away: the former owner is still told it, and is no one's custody address. *)
Example C124_former_ex : let n := arun id (a_init 2) [AChain 1 [idr 5 IRegister 1 10]; AChain 1 [idr 5 ITransfer 2 20]] in
  a_read n [1] = Some (idr 5 IRegister 1 10) /\ by_fid (a_shards n) 5 = Some (idr 5 ITransfer 2 20) /\ a_read n [2] = Some (idr 5 ITransfer 2 20) /\ a_read n [3] = None.
Proof. by vm_compute. Qed.
(** Account 5 came back to address 1 at block 30: the event of block 10 is told. *)
Example C124_oldest_ex : let n := arun id (a_init 2) [AChain 1 [idr 6 IRegister 1 5; idr 5 IRegister 1 10]; AChain 1 [idr 5 ITransfer 2 20]; AChain 1 [idr 5 ITransfer 1 30]] in
  a_cache n !! [1] = None /\ a_read n [1] = Some (idr 5 IRegister 1 10) /\ by_fid (a_shards n) 5 = Some (idr 5 ITransfer 1 30).
Proof. by vm_compute. Qed.
(** The same question is answered differently after someone else asked about another address. *)
Theorem C124_repeat_refuted : exists os a b, let n := arun id (a_init 2) os in
  let n1 := astep id n (ARead a) in let n2 := astep id n1 (ARead b) in
  a_read n a = Some (idr 5 IRegister 1 10) /\ a_read n1 a = Some (idr 5 IRegister 1 10) /\ a_read n2 a = Some (idr 6 IRegister 1 30) /\ a_shards n2 = a_shards n.
Proof. exists [AChain 0 [idr 5 IRegister 1 10]; AChain 0 [idr 5 ITransfer 2 20; idr 6 IRegister 1 30]], [1], [7]. by vm_compute. Qed.
(** A change of the recovery address is stored with an empty owner: it is told as the event of the empty address. *)
Theorem C124_empty_address_refuted : exists e, o_body e = BIdReg IRecovery [] /\ a_read (arun id (a_init 1) [AChain 0 [e]]) [] = Some e.
Proof. exists (OEv 5 10 0 0 0 (BIdReg IRecovery [])). by vm_compute. Qed.
(** A removed auth address is still told to be one. *)
Theorem C124_auth_removed_refuted : exists bs, let s := orun id o_init bs in
  deref s (t_sig s !! (5, [9])) = Some (aut SRemove 20) /\ address_type [AShard s ∅] 5 [9] = (false, true, false).
Proof. exists [[aut SAdd 10]; [aut SRemove 20]]. by vm_compute. Qed.
(** With the account on two shards the answer depends on the order of the walk. *)
Theorem C124_two_shards_refuted : exists s t, address_type [s; t] 5 [1] = (true, false, false) /\ address_type [t; s] 5 [1] = (false, false, true).
Proof. exists (AShard (orun id o_init [[idr 5 IRegister 1 10]]) ∅), (AShard o_init {[ (5, [1]) ]}). by vm_compute. Qed.
Example C124_type_ex : let h := AShard (orun id o_init [[idr 5 IRegister 1 10; aut SAdd 12]; [idr 5 ITransfer 9 20]]) {[ (5, [9]) ]} in let o := AShard (orun id o_init [[idr 6 IRegister 9 11]]) ∅ in
  NoDup (map prim (concat [[idr 5 IRegister 1 10; aut SAdd 12]; [idr 5 ITransfer 9 20]])) /\
  address_type [o; h] 5 [9] = (true, true, true) /\ address_type [h; o] 5 [9] = (true, true, true) /\ address_type [o; h] 5 [1] = (false, false, false) /\
  address_type [o; h] 6 [9] = (true, false, false).
Proof. split; [by apply (bool_decide_unpack _); vm_compute|by vm_compute]. Qed.

Print Assumptions C124_genuine. Print Assumptions C124_not_found. Print Assumptions C124_one_owner. Print Assumptions C124_former_owner_refuted.
Print Assumptions C124_oldest_told. Print Assumptions C124_told_again_refuted. Print Assumptions C124_by_fid. Print Assumptions C124_first_shard. Print Assumptions C124_custody.
Print Assumptions C124_auth_ever. Print Assumptions C124_verified. Print Assumptions C124_repeat_refuted. Print Assumptions C124_empty_address_refuted.
Print Assumptions C124_auth_removed_refuted. Print Assumptions C124_two_shards_refuted.
