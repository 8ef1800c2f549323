(** Properties C100 (one message), C101 (names and contract signatures checked at submission) and C102 (many messages). *)
From Verif Require Import Submit SubmitProofs.
From Coq Require Import ZifyN ZifyNat ZifyBool.
#[local] Open Scope N_scope.

(** ** What a submission must meet *)

(** The chain that answers for the name resolves it to [a]. *)
Definition resolves (nd : node) (p : eproof) (a : bytes) : Prop :=
  nd_utf8 nd (e_name p) = true /\ exists cl, c_resolve cl (e_name p) = Some a /\
  ((e_type p = 2 /\ (exists n, e_name p = n ++ DOT_ETH) /\ nd_chain nd Eth = Some cl) \/
   (e_type p = 3 /\ (exists n, e_name p = n ++ DOT_BASE_ETH) /\ nd_chain nd BaseChain = Some cl)).
(** The account has the address: as custody address, or verified. *)
Definition has_address (v : view) (fid : N) (a : bytes) : Prop :=
  exists to, v_reg v fid = Reg to /\ (to = a \/ v_verified v fid a = inr true).
Definition proof_ok (nd : node) (fid : N) (p : eproof) : Prop :=
  exists v, fid_stores nd fid = Some v /\ resolves nd p (e_owner p) /\ has_address v fid (e_owner p).
Definition outside_ok (nd : node) (m : smsg) : Prop :=
  (forall n, sm_body m = SUserData true (n ++ DOT_ETH) ->
     exists v p, fid_stores nd (sm_fid m) = Some v /\ v_proof v (n ++ DOT_ETH) = Pr p /\ proof_ok nd (sm_fid m) p) /\
  (forall p, sm_body m = SProof p -> proof_ok nd (sm_fid m) p) /\
  (forall c ok, sm_body m = SVerif 1 c ok ->
     ok = true /\ exists ch cl, chain_of c = Some ch /\ nd_chain nd ch = Some cl /\ c_contract cl m = true).

Lemma resolve_spec nd p a : resolve_ens_address nd p = inr a <-> resolves nd p a.
Proof.
  unfold resolve_ens_address, resolves. destruct (nd_utf8 nd (e_name p)); cbn [negb]; [|split; [done|intros [? _]; done]]. split.
  - intros H. split; [done|]. destruct (e_type p =? 2) eqn:T2; [|destruct (e_type p =? 3) eqn:T3; [|done]].
    + destruct (ends_with DOT_ETH (e_name p)) eqn:E; [|done]. apply ends_with_spec in E. destruct (nd_chain nd Eth) as [cl|]; [|done].
      exists cl. destruct (c_resolve cl (e_name p)); [|done]. injection H as ->. split; [done|]. left. split; [lia|done].
    + destruct (ends_with DOT_BASE_ETH (e_name p)) eqn:E; [|done]. apply ends_with_spec in E. destruct (nd_chain nd BaseChain) as [cl|]; [|done].
      exists cl. destruct (c_resolve cl (e_name p)); [|done]. injection H as ->. split; [done|]. right. split; [lia|done].
  - intros (_ & cl & R & [(T & E & C)|(T & E & C)]); apply ends_with_spec in E; rewrite T, E, C, R; done.
Qed.
Lemma check_proof_spec nd fid p : check_proof nd fid p = None <-> proof_ok nd fid p.
Proof.
  unfold check_proof, proof_ok, has_address. destruct (resolve_ens_address nd p) as [e|a] eqn:R.
  - split; [done|]. intros (v & _ & Q & _). apply resolve_spec in Q. congruence.
  - case_bool_decide as D; cbn [negb].
    + subst a. apply resolve_spec in R. destruct (fid_stores nd fid) as [v|]; [|split; [done|intros (v & ? & _); done]]. split.
      * intros H. exists v. split; [done|]. split; [done|]. destruct (v_reg v fid) as [| | |to]; try done. exists to. split; [done|].
        case_bool_decide; [by left|right]. destruct (v_verified v fid (e_owner p)) as [|[]]; done.
      * intros (v' & [= <-] & _ & to & -> & [->|V]); [by rewrite bool_decide_true|]. rewrite V. by case_bool_decide.
    + split; [done|]. intros (v & _ & Q & _). apply resolve_spec in Q. congruence.
Qed.
Lemma check_outside_spec nd m : check_outside nd m = None <-> outside_ok nd m.
Proof.
  unfold check_outside, outside_ok. destruct (sm_body m) as [[] val|p|t c ok|].
  - destruct (ends_with DOT_ETH val) eqn:E.
    + apply ends_with_spec in E as [n ->]. unfold check_username. split.
      * intros H. split; [|done]. intros n' [= Q]. apply app_inv_tail in Q as ->.
        destruct (fid_stores nd (sm_fid m)) as [v|]; [|done]. destruct (v_proof v (n' ++ DOT_ETH)) as [| | | | |p] eqn:P; try done.
        exists v, p. split; [done|]. split; [done|]. by apply check_proof_spec.
      * intros (H & _). destruct (H n eq_refl) as (v & p & -> & -> & Q). by apply check_proof_spec.
    + split; [|done]. intros _. split; [|done]. intros n [= ->]. assert (ends_with DOT_ETH (n ++ DOT_ETH) = true) by (apply ends_with_spec; by exists n). congruence.
  - split; done.
  - rewrite check_proof_spec. split; [|intros (_ & H & _); by apply H]. intros H. split; [done|]. split; [|done]. by intros p' [= <-].
  - destruct (t =? 1) eqn:T.
    + assert (t = 1) as -> by lia. unfold check_contract. split.
      * intros H. split; [done|]. split; [done|]. intros c' ok' [= <- <-]. destruct ok; [|done]. split; [done|]. cbn [negb] in H.
        destruct (chain_of c) as [ch|]; [|done]. destruct (nd_chain nd ch) as [cl|] eqn:C; [|done]. exists ch, cl. destruct (c_contract cl m) eqn:K; done.
      * intros (_ & _ & H). destruct (H c ok eq_refl) as (-> & ch & cl & -> & -> & ->). done.
    + split; [|done]. intros _. split; [done|]. split; [done|]. intros c' ok' [= -> _ _]. lia.
  - split; done.
Qed.

(** ** C100: one message *)

(** The engine lets the message pass: at once, or it misses the name, the registry has a transfer of the name to the account that
    the channel takes, and a later trial run within the budget passes. *)
Definition engine_ok (nd : node) (w : world) (m : smsg) (fuel : nat) : Prop :=
  simulate nd w 0 m = VOk \/
  (simulate nd w 0 m = VMissing /\ exists n xs x j, sm_body m = SUserData true n /\ n <> [] /\ (forall a, n <> a ++ DOT_ETH) /\
     w_lookup w n = LOk xs /\ (x, true) ∈ xs /\ x_target x = Some (sm_fid m) /\
     (1 <= j <= fuel)%nat /\ simulate nd w j m = VOk /\
     forall i, (1 <= i < j)%nat -> simulate nd w i m = VMissing /\ w_clock w i < w_deadline w).

Lemma recoverable_spec m n : recoverable m = Some n <-> sm_body m = SUserData true n /\ n <> [] /\ forall a, n <> a ++ DOT_ETH.
Proof.
  unfold recoverable. destruct (sm_body m) as [[] val|p|t c ok|]; try (split; [done|intros (? & _); done]). split.
  - case_bool_decide as D; cbn [orb]; [done|]. destruct (ends_with DOT_ETH val) eqn:E; [done|]. intros [= ->]. split; [done|]. split; [done|].
    intros a Q. assert (ends_with DOT_ETH n = true) by (apply ends_with_spec; by exists a). congruence.
  - intros ([= ->] & Q & R). rewrite bool_decide_false by done. destruct (ends_with DOT_ETH n) eqn:E; [|done].
    apply ends_with_spec in E as [a ->]. by destruct (R a).
Qed.
Lemma forward_ne fid xs : fid <> 0 -> forward fid xs <> [] <-> exists x, (x, true) ∈ xs /\ x_target x = Some fid.
Proof.
  intros F. rewrite forward_spec. split.
  - intros H. destruct (List.filter _ xs) as [|[x b] r] eqn:E; [done|].
    assert (List.In (x, b) ((x, b) :: r)) as Q by (by left). rewrite <- E in Q. apply filter_In in Q as [Q1 Q2]. cbn [fst snd] in Q2.
    destruct b; [|by rewrite andb_false_r in Q2]. exists x. split; [by apply elem_of_list_In|]. rewrite andb_true_r in Q2. apply N.eqb_eq in Q2. destruct (x_target x); [by f_equal|by subst].
  - intros (x & X & Y) H. apply map_eq_nil in H. apply elem_of_list_In in X.
    assert (List.In (x, true) []) as Q; [|done]. rewrite <- H. apply filter_In. split; [done|]. cbn [fst snd]. rewrite Y, andb_true_r. by apply N.eqb_eq.
Qed.
Lemma forward_xfer fid xs e : e ∈ forward fid xs -> exists i, e = EvXfer i.
Proof. rewrite forward_spec. intros H. apply elem_of_list_In, in_map_iff in H as (y & <- & _). by eexists. Qed.
Lemma to_mempool_spec nd m c : 
  (EvMsg m ∈ (to_mempool nd m c).1 <-> outside_ok nd m /\ exists a, c = ChSent a) /\
  (forall e, e ∈ (to_mempool nd m c).1 -> (to_mempool nd m c).1 = [EvMsg m]) /\
  (forall m', (to_mempool nd m c).2 = inr m' <-> m' = m /\ outside_ok nd m /\ c = ChSent AckOk).
Proof.
  setoid_rewrite <- check_outside_spec. unfold to_mempool. destruct (check_outside nd m) as [e|]; cbn [fst snd].
  - split; [split; [intros H; by apply elem_of_nil in H|intros [? _]; done]|]. split; [intros e' H; by apply elem_of_nil in H|].
    intros m'. split; [done|intros (_ & ? & _); done].
  - assert (forall e : ev, e ∉ ([] : list ev)) as NN by (intros e; apply not_elem_of_nil).
    assert (forall e : ev, e ∈ [EvMsg m] -> [EvMsg m] = [EvMsg m]) as SS by done.
    destruct c as [| |[]]; cbn [fst snd].
    + split; [split; [intros H; by destruct (NN _ H)|by intros [_ [? ?]]]|]. split; [intros e H; by destruct (NN _ H)|]. intros m'. split; [done|by intros (_ & _ & ?)].
    + split; [split; [intros H; by destruct (NN _ H)|by intros [_ [? ?]]]|]. split; [intros e H; by destruct (NN _ H)|]. intros m'. split; [done|by intros (_ & _ & ?)].
    + split; [split; [intros _; split; [done|by eexists]|intros _; left]|]. split; [done|]. intros m'. split; [intros [= <-]; done|by intros (-> & _)].
    + split; [split; [intros _; split; [done|by eexists]|intros _; left]|]. split; [done|]. intros m'. split; [done|by intros (_ & _ & ?)].
    + split; [split; [intros _; split; [done|by eexists]|intros _; left]|]. split; [done|]. intros m'. split; [done|by intros (_ & _ & ?)].
Qed.
Lemma submit_cases nd w m fuel es r : submit nd w m fuel = Some (es, r) ->
  (exists e, r = inl e /\ (forall x, x ∈ es -> exists i, x = EvXfer i) /\ ~ (sm_fid m <> 0 /\ engine_ok nd w m fuel)) \/
  (sm_fid m <> 0 /\ engine_ok nd w m fuel /\ exists es1, es = es1 ++ (to_mempool nd m (w_chan w)).1 /\
     (forall x, x ∈ es1 -> exists i, x = EvXfer i) /\ r = (to_mempool nd m (w_chan w)).2).
Proof.
  unfold submit. destruct (sm_fid m =? 0) eqn:F.
  { intros [= <- <-]. left. eexists. split; [done|]. split; [intros x H; by apply elem_of_nil in H|]. lia. }
  destruct (simulate nd w 0 m) as [| |e] eqn:S0.
  - intros [= H]. right. split; [lia|]. split; [by left|]. exists []. rewrite H. split; [done|]. split; [intros x Q; by apply elem_of_nil in Q|done].
  - destruct (recoverable m) as [n|] eqn:R.
    2:{ intros [= <- <-]. left. eexists. split; [done|]. split; [intros x H; by apply elem_of_nil in H|]. intros [_ [?|(_ & n & xs & x & j & A & B & C & _)]]; [congruence|].
        assert (recoverable m = Some n) by (by apply recoverable_spec). congruence. }
    unfold recover. assert (forall n' , recoverable m = Some n' -> n' = n) as Un by congruence.
    assert (engine_ok nd w m fuel -> exists xs j, w_lookup w n = LOk xs /\ forward (sm_fid m) xs <> [] /\ poll nd w m fuel 1 = Some None /\ (1 <= j)%nat) as En.
    { intros [?|(_ & n' & xs & x & j & A & B & C & L & X & Y & J & V & Z)]; [congruence|]. assert (n' = n) as -> by (apply Un; by apply recoverable_spec).
      exists xs, j. split; [done|]. split; [apply forward_ne; [lia|by exists x]|]. split; [|lia]. apply (poll_ok _ _ _ _ 1 j); [lia|done|done]. }
    destruct (w_lookup w n) as [| |xs] eqn:L.
    1,2: intros [= <- <-]; left; eexists; split; [done|]; split; [intros x H; by apply elem_of_nil in H|]; intros [_ Q]; destruct (En Q) as (? & ? & ? & _); done.
    destruct (forward (sm_fid m) xs) as [|e1 er] eqn:Fw.
    { intros [= <- <-]; left; eexists; split; [done|]; split; [intros x H; by apply elem_of_nil in H|]; intros [_ Q]; destruct (En Q) as (? & ? & [= <-] & ? & _). congruence. }
    destruct (poll nd w m fuel 1) as [[e|]|] eqn:P; [| |done].
    + intros [= <- <-]. left. exists e. split; [done|]. split; [intros x H; eapply forward_xfer; rewrite Fw; exact H|].
      intros [_ Q]. destruct (En Q) as (? & ? & _ & _ & ? & _). done.
    + intros [= <- <-]. right. split; [lia|]. split.
      * right. split; [done|]. apply recoverable_spec in R as (A & B & C). destruct (poll_spec _ _ _ _ _ _ P) as (j & J & Z & V). 
        destruct (forward_ne (sm_fid m) xs ltac:(lia)) as [X _]. rewrite Fw in X. destruct (X ltac:(done)) as (x & X1 & X2).
        exists n, xs, x, j. split; [done|]. split; [done|]. split; [done|]. split; [done|]. split; [done|]. split; [done|]. split; [lia|]. done.
      * exists (e1 :: er). split; [done|]. split; [intros x H; eapply forward_xfer; rewrite Fw; exact H|done].
  - intros [= <- <-]. left. eexists. split; [done|]. split; [intros x H; by apply elem_of_nil in H|]. intros [_ [?|[? _]]]; congruence.
Qed.

(** A message goes to the mempool exactly if it names an account, the engine lets it pass, the outside checks hold and the
    channel takes it; nothing but that message goes there, once. *)
Theorem C100_queued_iff : forall nd w m fuel es r, submit nd w m fuel = Some (es, r) ->
  (EvMsg m ∈ es <-> sm_fid m <> 0 /\ engine_ok nd w m fuel /\ outside_ok nd m /\ exists a, w_chan w = ChSent a) /\
  (forall m', EvMsg m' ∈ es -> m' = m) /\
  (EvMsg m ∈ es -> exists es1, es = es1 ++ [EvMsg m] /\ forall x, x ∈ es1 -> exists i, x = EvXfer i).
Proof.
  intros nd w m fuel es r H. destruct (to_mempool_spec nd m (w_chan w)) as (A & B & C).
  destruct (submit_cases _ _ _ _ _ _ H) as [(e & -> & X & N)|(F & E & es1 & -> & X & ->)].
  - split; [|split].
    + split; [intros Q; by destruct (X _ Q)|]. intros (? & ? & _). exfalso. by apply N.
    + intros m' Q. by destruct (X _ Q).
    + intros Q. by destruct (X _ Q).
  - split; [|split].
    + rewrite elem_of_app, A. split; [intros [Q|Q]; [by destruct (X _ Q)|done]|]. intros (_ & _ & Q). by right.
    + intros m' Q. apply elem_of_app in Q as [Q|Q]; [by destruct (X _ Q)|]. pose proof (B _ Q) as Q2. rewrite Q2 in Q. apply elem_of_list_singleton in Q. congruence.
    + intros Q. apply elem_of_app in Q as [Q|Q]; [by destruct (X _ Q)|]. exists es1. by rewrite (B _ Q).
Qed.
(** The caller is told "done" exactly if the message was handed over and the mempool said so. *)
Theorem C100_told_iff : forall nd w m fuel es r, submit nd w m fuel = Some (es, r) ->
  forall m', r = inr m' <-> m' = m /\ EvMsg m ∈ es /\ w_chan w = ChSent AckOk.
Proof.
  intros nd w m fuel es r H m'. destruct (to_mempool_spec nd m (w_chan w)) as (A & B & C).
  destruct (submit_cases _ _ _ _ _ _ H) as [(e & -> & X & N)|(F & E & es1 & -> & X & ->)].
  - split; [done|]. intros (_ & Q & _). by destruct (X _ Q).
  - rewrite C, elem_of_app, A. split.
    + intros (-> & O & W). split; [done|]. split; [|done]. right. split; [done|]. by exists AckOk.
    + intros (-> & [Q|[O _]] & W); [by destruct (X _ Q)|done].
Qed.
(** Told an error although the message was handed over: the mempool refused it with that error, or its answer was lost. *)
Theorem C100_error_after_handover : forall nd w m fuel es e, submit nd w m fuel = Some (es, inl e) -> EvMsg m ∈ es ->
  w_chan w = ChSent (AckErr e) \/ (w_chan w = ChSent AckLost /\ e = E_unavailable).
Proof.
  intros nd w m fuel es e H Q. destruct (submit_cases _ _ _ _ _ _ H) as [(e' & _ & X & N)|(F & E & es1 & -> & X & R)]; [by destruct (X _ Q)|].
  apply elem_of_app in Q as [Q|Q]; [by destruct (X _ Q)|]. unfold to_mempool in Q, R. destruct (check_outside nd m); [by apply elem_of_nil in Q|].
  destruct (w_chan w) as [| |[]]; cbn [fst snd] in *; try (by apply elem_of_nil in Q); try done; injection R as <-; [by left|by right].
Qed.
(** The transfers handed over on the way: those of the registry's answer that have a proof for this account and that the channel
    took, in order. None without a missing registered name. *)
Theorem C100_transfers : forall nd w m fuel es r i, submit nd w m fuel = Some (es, r) -> EvXfer i ∈ es ->
  sm_fid m <> 0 /\ simulate nd w 0 m = VMissing /\ exists n xs, sm_body m = SUserData true n /\ n <> [] /\ (forall a, n <> a ++ DOT_ETH) /\
    w_lookup w n = LOk xs /\
    omap (fun e => match e with EvXfer i => Some i | EvMsg _ => None end) es =
    omap (fun y => if bool_decide (x_target y.1 = Some (sm_fid m)) && y.2 then Some (x_id y.1) else None) xs.
Proof.
  intros nd w m fuel es r i H Q.
  assert (forall fid xs, fid <> 0 -> omap (fun e => match e with EvXfer i => Some i | EvMsg _ => None end) (forward fid xs) =
    omap (fun y => if bool_decide (x_target y.1 = Some fid) && y.2 then Some (x_id y.1) else None) xs) as G.
  { intros fid xs N. induction xs as [|[x b] l IH]; [done|]. cbn [forward omap list_omap fst snd].
    replace (default 0 (x_target x) =? fid) with (bool_decide (x_target x = Some fid)).
    - destruct (bool_decide (x_target x = Some fid) && b); cbn [omap list_omap]; by rewrite IH.
    - apply eq_bool_prop_intro. rewrite bool_decide_spec. rewrite Is_true_true, N.eqb_eq. destruct (x_target x) as [t|]; cbn; split; intros; congruence. }
  assert (omap (fun e => match e with EvXfer i => Some i | EvMsg _ => None end) (to_mempool nd m (w_chan w)).1 = []) as Z.
  { unfold to_mempool. destruct (check_outside nd m); [done|]. by destruct (w_chan w) as [| |[]]. }
  assert (EvXfer i ∉ (to_mempool nd m (w_chan w)).1) as Nt.
  { intros X. assert (i ∈ omap (fun e => match e with EvXfer i => Some i | EvMsg _ => None end) (to_mempool nd m (w_chan w)).1) as Y.
    - apply elem_of_list_omap. by exists (EvXfer i).
    - rewrite Z in Y. by apply elem_of_nil in Y. }
  unfold submit in H. destruct (sm_fid m =? 0) eqn:F; [injection H as <- <-; by apply elem_of_nil in Q|].
  assert (sm_fid m <> 0) as F' by lia. split; [done|]. destruct (simulate nd w 0 m) as [| |e] eqn:S0.
  - injection H as H. rewrite H in Nt. done.
  - split; [done|]. destruct (recoverable m) as [n|] eqn:R; [|injection H as <- <-; by apply elem_of_nil in Q].
    apply recoverable_spec in R as (A & B & C). exists n. unfold recover in H. destruct (w_lookup w n) as [| |xs] eqn:L; try (injection H as <- <-; by apply elem_of_nil in Q).
    exists xs. split; [done|]. split; [done|]. split; [done|]. split; [done|]. specialize (G (sm_fid m) xs F').
    destruct (forward (sm_fid m) xs) as [|e1 er] eqn:Fw; [injection H as <- <-; by apply elem_of_nil in Q|].
    destruct (poll nd w m fuel 1) as [[e|]|]; [| |done]; injection H as <- <-; [done|].
    change (e1 :: er ++ (to_mempool nd m (w_chan w)).1) with ((e1 :: er) ++ (to_mempool nd m (w_chan w)).1). by rewrite omap_app, Z, app_nil_r.
  - injection H as <- <-. by apply elem_of_nil in Q.
Qed.
(** The trial run is that of the message's own shard; shard 0 is always there, another shard only if the node keeps it. *)
Theorem C100_engine : forall nd w k m,
  (route nd m = 0 \/ nd_stores nd (route nd m) <> None -> simulate nd w k m = w_sim w k (route nd m) m) /\
  (route nd m <> 0 -> nd_stores nd (route nd m) = None -> simulate nd w k m = VErr E_param).
Proof.
  intros nd w k m. unfold simulate. split.
  - intros [->|H]; [done|]. destruct (route nd m =? 0); [done|]. by destruct (nd_stores nd (route nd m)).
  - intros N ->. apply N.eqb_neq in N. by rewrite N.
Qed.
(** A failed recovery looks as if it had not been tried, unless the engine found something else to object to. *)
Theorem C100_same_error : forall nd w m fuel es e, submit nd w m fuel = Some (es, inl e) -> sm_fid m <> 0 -> simulate nd w 0 m = VMissing ->
  ~ engine_ok nd w m fuel -> e = E_valid \/ exists j, (1 <= j)%nat /\ simulate nd w j m = VErr e.
Proof.
  intros nd w m fuel es e H F S0 N. unfold submit in H. assert (sm_fid m =? 0 = false) as F0 by lia. rewrite F0, S0 in H.
  destruct (recoverable m) as [n|] eqn:R; [|injection H as _ <-; by left]. unfold recover in H.
  destruct (w_lookup w n) as [| |xs] eqn:L; try (injection H as _ <-; by left).
  destruct (forward (sm_fid m) xs) as [|e1 er] eqn:Fw; [injection H as _ <-; by left|].
  destruct (poll nd w m fuel 1) as [[e'|]|] eqn:P; [| |done].
  - injection H as _ <-. destruct (poll_spec _ _ _ _ _ _ P) as (j & J & _ & [V|(_ & -> & _)]); [right; exists j; split; [lia|done]|by left].
  - exfalso. apply N. destruct (submit_cases nd w m fuel (e1 :: er ++ (to_mempool nd m (w_chan w)).1) (to_mempool nd m (w_chan w)).2) as [(e2 & _ & X & N2)|(_ & Q & _)]; [|..|exact Q].
    + unfold submit, recover. rewrite F0, S0, R, L, Fw, P. done.
    + exfalso. destruct (poll_spec _ _ _ _ _ _ P) as (j & J & Z & V). apply N2. split; [done|]. right. split; [done|]. apply recoverable_spec in R as (A & B & C).
      destruct (forward_ne (sm_fid m) xs F) as [X' _]. rewrite Fw in X'. destruct (X' ltac:(done)) as (x & X1 & X2).
      exists n, xs, x, j. split; [done|]. split; [done|]. split; [done|]. split; [done|]. split; [done|]. split; [done|]. split; [lia|]. done.
Qed.
(** The trial runs come to an end: 33 of them are enough if each wait takes its time. *)
Theorem C100_ends : forall nd w m, w_deadline w <= w_clock w 1 + BUDGET -> (forall k, (1 <= k)%nat -> w_clock w k + INTERVAL <= w_clock w (S k)) ->
  submit nd w m 33 <> None.
Proof.
  intros nd w m D C. assert (forall j : nat, w_clock w 1 + INTERVAL * N.of_nat j <= w_clock w (S j)) as G.
  { induction j as [|j IH]; [lia|]. specialize (C (S j) ltac:(lia)). unfold INTERVAL in *. lia. }
  assert (poll nd w m 33 1 <> None) as P.
  { apply poll_ends. exists 33%nat. split; [lia|]. specialize (G 32%nat). unfold BUDGET, INTERVAL in *. lia. }
  unfold submit, recover. repeat case_match; try done.
Qed.

(** Refuted: "told an error, the message will not be included". *)
Theorem C100_error_but_queued_refuted : forall nd w m fuel, sm_fid m <> 0 -> simulate nd w 0 m = VOk -> outside_ok nd m -> w_chan w = ChSent AckLost ->
  submit nd w m fuel = Some ([EvMsg m], inl E_unavailable).
Proof.
  intros nd w m fuel F S O W. unfold submit. assert (sm_fid m =? 0 = false) as -> by lia. rewrite S. unfold to_mempool.
  apply check_outside_spec in O. by rewrite O, W.
Qed.
(** Refuted: "only a transfer to the account that is the name's latest is handed over" (what the comment at server.rs:854 says):
    an older one is, even if the registry's answer says that the name has gone elsewhere since. *)
Definition w_stale (fid other : N) : world :=
  World (fun k _ _ => VMissing) (fun _ => LOk [(XFer 1 (Some fid), true); (XFer 2 (Some other), true)]) (fun k => 9000 * N.of_nat k) 8000 (ChSent AckOk).
Theorem C100_stale_transfer_refuted : forall nd m fid other n v, sm_fid m = fid -> fid <> 0 -> other <> fid -> sm_body m = SUserData true n -> n <> [] ->
  (forall a, n <> a ++ DOT_ETH) -> nd_stores nd (route nd m) = Some v ->
  submit nd (w_stale fid other) m 33 = Some ([EvXfer 1], inl E_valid).
Proof.
  intros nd m fid other n v F F0 O B N1 N2 V. unfold submit. rewrite F. assert (fid =? 0 = false) as -> by lia.
  assert (forall k, simulate nd (w_stale fid other) k m = VMissing) as S by (intros k; unfold simulate; rewrite V; by destruct (route nd m =? 0)).
  rewrite S. assert (recoverable m = Some n) as -> by (by apply recoverable_spec).
  unfold recover. cbn [w_lookup w_stale forward x_target x_id from_option id]. rewrite F, N.eqb_refl. assert (other =? fid = false) as -> by lia. cbn [andb].
  cbn [poll]. rewrite S. done.
Qed.

(** The status of an error: which codes are the caller's fault and which are not. *)
Theorem C100_status :
  (forall s, status_of ("bad_request" ++ s)%string = SInvalidArgument) /\ status_of "not_found" = SNotFound /\
  (forall s, status_of ("db" ++ s)%string = SInternal) /\ (forall s, status_of ("unavailable" ++ s)%string = SUnavailable) /\
  status_of E_valid = SInvalidArgument /\ status_of E_param = SInvalidArgument /\ status_of E_db = SInternal /\ status_of E_unavailable = SUnavailable.
Proof.
  assert (forall a b : string, String.prefix a (a ++ b) = true) as P.
  { induction a as [|c a IH]; intros b; [by destruct b|].
    change (String.prefix (String c a) (String c a +:+ b)) with (if Ascii.ascii_dec c c then String.prefix a (a +:+ b) else false). destruct (Ascii.ascii_dec c c); [apply IH|done]. }
  split; [intros s; unfold status_of; by rewrite P|]. split; [done|]. split; [|split; [|done]].
  - intros s. unfold status_of. by destruct s.
  - intros s. unfold status_of. by destruct s.
Qed.
(** Refuted: "an internal failure is reported as internal": the code of [HubError::invalid_internal_state] begins otherwise. *)
Theorem C100_internal_unknown_refuted : status_of E_state = SUnknown.
Proof. done. Qed.

(** ** C101: names and contract signatures *)

(** A username proof, an .eth username or a contract verification is told "done" only if the chain and the stores agree. *)
Theorem C101_checked : forall nd w m fuel es m', submit nd w m fuel = Some (es, inr m') -> outside_ok nd m.
Proof.
  intros nd w m fuel es m' H. destruct (C100_told_iff _ _ _ _ _ _ H m') as [Q _]. destruct (Q eq_refl) as (_ & X & _).
  destruct (C100_queued_iff _ _ _ _ _ _ H) as (A & _). apply A in X. tauto.
Qed.
(** The check of a proof, decided: exactly the resolved owner, held by the account. *)
Theorem C101_proof_iff : forall nd fid p, check_proof nd fid p = None <-> proof_ok nd fid p.
Proof. exact check_proof_spec. Qed.
(** Refuted: "what goes to the mempool was checked": a message of another node is not. *)
Theorem C101_gossip_refuted : forall nd m c, check_outside nd m <> None -> (exists a, c = ChSent a) ->
  EvMsg m ∈ gossiped m c /\ (forall w fuel es r, submit nd w m fuel = Some (es, r) -> EvMsg m ∉ es).
Proof.
  intros nd m c N [a ->]. split; [left|]. intros w fuel es r H Q. destruct (C100_queued_iff _ _ _ _ _ _ H) as (A & _). apply A in Q as (_ & _ & O & _).
  by apply check_outside_spec in O.
Qed.

(** ** C102: many messages *)
Section Bulk.
  Context {T : Type} (app : T -> smsg -> T * verdict).
  (** The orders list what there is, once. *)
  Definition orders_ok (nd : node) (ms : list smsg) (sord : list N) (ford : N -> list N) : Prop :=
    NoDup sord /\ (forall m, m ∈ ms -> route nd m ∈ sord) /\ forall sh, NoDup (ford sh) /\ forall m, m ∈ ms -> route nd m = sh -> sm_fid m ∈ ford sh.

  (** Every message is answered exactly once, and the messages of a shard in the order of the request. *)
  Theorem C102_answers : forall nd t0 ford ch sord ms, orders_ok nd ms sord ford ->
    map fst (bulk app nd t0 ford ch sord ms).2 ≡ₚ map sm_hash ms /\
    map fst (bulk app nd t0 ford ch sord ms).2 = concat (map (fun sh => map sm_hash (List.filter (fun m => route nd m =? sh) ms)) sord).
  Proof.
    intros nd t0 ford ch sord ms (A & B & _). assert (map fst (bulk app nd t0 ford ch sord ms).2 = concat (map (fun sh => map sm_hash (of_shard nd sh ms)) sord)) as E by apply bulk_shards_hashes.
    split; [|exact E]. rewrite E, <- (map_map (fun sh => of_shard nd sh ms) (map sm_hash)), <- concat_map. change (@map smsg) with (@fmap list _ smsg). apply fmap_Permutation. by apply shards_perm.
  Qed.
  (** Told "done": the message was in the request, is not for shard 0, its account's messages passed together, the outside checks
      hold, and the mempool took it. *)
  Theorem C102_sound : forall nd t0 ford ch sord ms h m, (h, inr m) ∈ (bulk app nd t0 ford ch sord ms).2 ->
    m ∈ ms /\ h = sm_hash m /\ route nd m <> 0 /\ nd_stores nd (route nd m) <> None /\ outside_ok nd m /\
    EvMsg m ∈ (bulk app nd t0 ford ch sord ms).1 /\ (exists h', ch h' m = ChSent AckOk) /\
    assoc (sim_accounts app (t0 (route nd m)) (ford (route nd m)) (of_shard nd (route nd m) ms)) (sm_fid m) = None.
  Proof.
    intros nd t0 ford ch sord ms h m H. destruct (bulk_shards_events app nd t0 ford ch ms sord []) as (es & E1 & _ & E3).
    assert (EvMsg m ∈ (bulk app nd t0 ford ch sord ms).1) as Ev by (unfold bulk; rewrite E1; by apply (E3 m h)).
    destruct (bulk_shards_in app nd t0 ford ch ms _ _ _ H) as (sh & h' & _ & Q). apply send_spec in Q as (e & m' & C & Hh & R). cbn [fst snd] in *.
    destruct e as [e|]; [done|]. destruct R as [h2 R]. destruct (to_mempool_spec nd m' (ch h2 m')) as (_ & _ & S). symmetry in R. apply S in R as (-> & O & W).
    apply combine_elem in C as [C1 C2]. apply of_shard_elem in C1 as [C1 <-]. destruct (route nd m' =? 0) eqn:Z; [done|]. destruct (nd_stores nd (route nd m')) eqn:V; [|done].
    split; [done|]. split; [done|]. split; [lia|]. split; [done|]. split; [done|]. split; [done|]. split; [by exists h2|done].
  Qed.
  (** Only messages of the request that pass the outside checks go out. *)
  Theorem C102_only : forall nd t0 ford ch sord ms x, x ∈ (bulk app nd t0 ford ch sord ms).1 ->
    exists m, x = EvMsg m /\ m ∈ ms /\ outside_ok nd m /\ route nd m <> 0.
  Proof.
    intros nd t0 ford ch sord ms x H. destruct (bulk_shards_events app nd t0 ford ch ms sord []) as (es & E1 & E2 & _). unfold bulk in H. rewrite E1 in H.
    destruct (E2 x H) as (m & sh & -> & _ & O & C). apply combine_elem in C as [C1 C2]. apply of_shard_elem in C1 as [C1 <-]. exists m. split; [done|]. split; [done|].
    split; [by apply check_outside_spec|]. destruct (route nd m =? 0) eqn:Z; [done|]. lia.
  Qed.
  (** The messages of an account pass together exactly if each passes after the ones before it. *)
  Theorem C102_together_iff : forall t ms, (run_txn app t ms).2 = None <->
    forall l1 m l2, ms = l1 ++ m :: l2 -> (app (run_txn app t l1).1 m).2 = VOk.
  Proof.
    intros t ms. revert t. induction ms as [|m ms IH]; intros t.
    - split; [|done]. intros _ l1 m l2 Q. by destruct l1.
    - rewrite run_txn_cons. destruct (code_of (app t m).2) as [e|] eqn:E.
      + split; [done|]. intros H. specialize (H [] m ms eq_refl). cbn in H. rewrite H in E. done.
      + assert ((app t m).2 = VOk) as V by (destruct (app t m).2; done). rewrite IH. split.
        * intros H l1 m' l2 Q. destruct l1 as [|m0 l1]; [injection Q as <- <-; done|]. injection Q as <- ->. rewrite run_txn_cons, E. by apply (H l1 m' l2).
        * intros H l1 m' l2 ->. specialize (H (m :: l1) m' l2 eq_refl). by rewrite run_txn_cons, E in H.
  Qed.
  (** If accounts do not see each other's writes, what an account is told depends on its own messages only, and neither order of
      the maps matters to who passes. *)
  Theorem C102_alone : forall R nd t0 ford ch sord ms h m, separate app R -> orders_ok nd ms sord ford ->
    (h, inr m) ∈ (bulk app nd t0 ford ch sord ms).2 ->
    (run_txn app (t0 (route nd m)) (List.filter (fun x => (route nd x =? route nd m) && (sm_fid x =? sm_fid m)) ms)).2 = None.
  Proof.
    intros R nd t0 ford ch sord ms h m S (A & B & C) H. apply C102_sound in H as (Hm & _ & _ & _ & _ & _ & _ & H). destruct (C (route nd m)) as [ND Cv].
    rewrite (sim_accounts_separate app R _ _ S) in H; [|done|by apply Cv]. rewrite <- H. f_equal. f_equal. unfold of_fid, of_shard. clear.
    induction ms as [|x ms IH]; cbn [List.filter]; [done|]. destruct (route nd x =? route nd m); cbn [List.filter andb]; [|done]. destruct (sm_fid x =? sm_fid m); by rewrite IH.
  Qed.
  Theorem C102_order_free : forall R nd t0 ford ford' ch sord ms, separate app R -> orders_ok nd ms sord ford -> orders_ok nd ms sord ford' ->
    bulk app nd t0 ford ch sord ms = bulk app nd t0 ford' ch sord ms.
  Proof.
    intros R nd t0 ford ford' ch sord ms S (_ & _ & C) (_ & _ & C'). unfold bulk. generalize (@nil ev) as h.
    induction sord as [|sh r IH]; intros h; [done|]. cbn [bulk_shards].
    assert (sim_shard app nd (t0 sh) (ford sh) sh (of_shard nd sh ms) = sim_shard app nd (t0 sh) (ford' sh) sh (of_shard nd sh ms)) as ->; [|by rewrite IH].
    unfold sim_shard. destruct (sh =? 0); [done|]. destruct (nd_stores nd sh); [|done]. apply map_ext_in. intros m Hm. apply elem_of_list_In, of_shard_elem in Hm as [Hm E].
    destruct (C sh) as [N1 F1], (C' sh) as [N2 F2]. rewrite !(sim_accounts_separate app R _ _ S); try done; [by apply F2|by apply F1].
  Qed.
  (** One message alone gets the same answer either way, if it is for a data shard and misses no name. *)
  Theorem C102_single_agrees : forall nd t0 ch w m fuel,
    sm_fid m <> 0 -> route nd m <> 0 -> w_sim w 0 (route nd m) m = (app (t0 (route nd m)) m).2 -> (app (t0 (route nd m)) m).2 <> VMissing -> ch [] m = w_chan w ->
    let b := bulk app nd t0 (fun _ => [sm_fid m]) ch [route nd m] [m] in
    exists r, b.2 = [(sm_hash m, r)] /\ submit nd w m fuel = Some (b.1, r).
  Proof.
    intros nd t0 ch w m fuel F R W V C b. subst b. unfold bulk. cbn [bulk_shards]. rewrite of_shard_cons, N.eqb_refl. change (of_shard nd (route nd m) []) with (@nil smsg).
    unfold submit, simulate, sim_shard. assert (sm_fid m =? 0 = false) as -> by lia. assert (route nd m =? 0 = false) as -> by lia.
    destruct (nd_stores nd (route nd m)) as [v|].
    - cbn [sim_accounts assoc]. change (of_fid (sm_fid m) [m]) with (if sm_fid m =? sm_fid m then [m] else []). rewrite N.eqb_refl.
      cbn [map assoc]. rewrite N.eqb_refl. rewrite W. rewrite run_txn_cons. destruct (app (t0 (route nd m)) m) as [t' [| |e]]; cbn [fst snd code_of combine]; [|done|].
      + rewrite run_txn_nil. cbn [send_all snd fst List.app]. rewrite C. exists (to_mempool nd m (w_chan w)).2. split; [done|]. by destruct (to_mempool nd m (w_chan w)).
      + cbn [send_all fst snd]. exists (inl e). done.
    - cbn [map combine send_all fst snd]. exists (inl E_param). done.
  Qed.
  (** Refuted: "the messages of a request may be for any shard": those for shard 0 (keys, storage, channels, since V21
      verifications) are always refused. *)
  Theorem C102_shard0_refuted : forall nd t0 ford ch sord ms h m, route nd m = 0 -> (h, inr m) ∉ (bulk app nd t0 ford ch sord ms).2.
  Proof. intros nd t0 ford ch sord ms h m R H. apply C102_sound in H. tauto. Qed.
  (** Refuted: "a missing registered name is fetched": not here. *)
  Theorem C102_no_recovery_refuted : forall nd t0 ch m v, route nd m <> 0 -> nd_stores nd (route nd m) = Some v -> (app (t0 (route nd m)) m).2 = VMissing ->
    bulk app nd t0 (fun _ => [sm_fid m]) ch [route nd m] [m] = ([], [(sm_hash m, inl E_valid)]).
  Proof.
    intros nd t0 ch m v R V A. unfold bulk. cbn [bulk_shards]. rewrite of_shard_cons, N.eqb_refl. change (of_shard nd (route nd m) []) with (@nil smsg).
    unfold sim_shard. assert (route nd m =? 0 = false) as -> by lia. rewrite V. cbn [sim_accounts assoc map]. change (of_fid (sm_fid m) [m]) with (if sm_fid m =? sm_fid m then [m] else []).
    rewrite N.eqb_refl, run_txn_cons. rewrite A. done.
  Qed.
  (** Refuted: "answers come in the order of the request": three messages, the second for another shard, never. *)
  Theorem C102_order_refuted : forall nd t0 ford ch sord a b c, route nd a = route nd c -> route nd a <> route nd b ->
    sm_hash a <> sm_hash b -> sm_hash b <> sm_hash c -> orders_ok nd [a; b; c] sord ford ->
    map fst (bulk app nd t0 ford ch sord [a; b; c]).2 <> map sm_hash [a; b; c].
  Proof.
    intros nd t0 ford ch sord a b c E1 E2 H1 H2 Ok Q. destruct (C102_answers nd t0 ford ch sord [a; b; c] Ok) as [_ A]. rewrite A in Q. clear A. destruct Ok as (ND & Cv & _).
    assert (forall sh, List.filter (fun m => route nd m =? sh) [a; b; c] = if route nd a =? sh then [a; c] else if route nd b =? sh then [b] else []) as F.
    { intros sh. cbn [List.filter]. rewrite <- E1. destruct (route nd a =? sh) eqn:X, (route nd b =? sh) eqn:Y; try done. lia. }
    clear Cv. induction sord as [|sh r IH]; [done|]. cbn [map concat] in Q. rewrite F in Q. inversion ND; subst. destruct (route nd a =? sh) eqn:X.
    - cbn in Q. injection Q as Q _. congruence.
    - destruct (route nd b =? sh) eqn:Y; [cbn in Q; injection Q as Q _; congruence|]. cbn [map List.app] in Q. by apply IH.
  Qed.
End Bulk.

(** ** Concrete runs: two data shards (account mod 2, plus 1); the chain resolves every name to address 7. *)
Definition exv : view := View (fun f => if f =? 4 then RegNone else Reg [f]) (fun f a => inr (bool_decide (f = 2))) (fun n => if bool_decide (n = [97] ++ DOT_ETH) then Pr (EProof 2 n [7]) else PrNone).
Definition exn : node := Node be_dec 2 20 (fun _ => true) (fun sh => if sh <=? 2 then Some exv else None)
  (fun c => match c with Eth => Some (Client (fun n => Some [7]) (fun _ => true)) | _ => None end).
Definition ud (h f : N) (n : bytes) : smsg := SMsg [h] f 11 (SUserData true n).
Definition up (h f : N) (n : bytes) : smsg := SMsg [h] f 12 (SProof (EProof 2 n [7])).
Definition exw (vs : nat -> verdict) (xs : list (xfer * bool)) (c : chan) : world := World (fun k _ _ => vs k) (fun _ => LOk xs) (fun k => 250 * N.of_nat k) 8000 c.
Definition late (k : nat) : verdict := if (k <? 3)%nat then VMissing else VOk.
Example C100_ex :
  submit exn (exw (fun _ => VOk) [] (ChSent AckOk)) (ud 1 3 [97]) 33 = Some ([EvMsg (ud 1 3 [97])], inr (ud 1 3 [97])) /\
  submit exn (exw late [(XFer 5 (Some 3), true); (XFer 6 (Some 4), true); (XFer 7 None, true); (XFer 8 (Some 3), false)] (ChSent AckOk)) (ud 1 3 [97]) 33 =
    Some ([EvXfer 5; EvMsg (ud 1 3 [97])], inr (ud 1 3 [97])) /\
  submit exn (exw late [(XFer 6 (Some 4), true)] (ChSent AckOk)) (ud 1 3 [97]) 33 = Some ([], inl E_valid) /\
  submit exn (exw (fun _ => VMissing) [(XFer 6 (Some 3), true)] (ChSent AckOk)) (ud 1 3 [97]) 33 = Some ([EvXfer 6], inl E_valid) /\
  submit exn (exw late [(XFer 6 (Some 3), true)] (ChSent AckOk)) (ud 1 3 []) 33 = Some ([], inl E_valid) /\
  submit exn (exw (fun _ => VOk) [] ChFull) (ud 1 3 [97]) 33 = Some ([], inl E_unavailable) /\
  submit exn (exw (fun _ => VOk) [] (ChSent AckLost)) (ud 1 3 [97]) 33 = Some ([EvMsg (ud 1 3 [97])], inl E_unavailable) /\
  submit exn (exw (fun _ => VOk) [] (ChSent AckOk)) (ud 1 0 [97]) 33 = Some ([], inl E_param) /\
  submit exn (w_stale 3 9) (ud 1 3 [97]) 33 = Some ([EvXfer 1], inl E_valid).
Proof. by vm_compute. Qed.
(** Account 7 holds the address, account 2 verified it, account 3 neither, account 4 is not registered. *)
Example C101_ex :
  check_outside exn (up 1 7 ([97] ++ DOT_ETH)) = None /\ check_outside exn (up 1 2 ([97] ++ DOT_ETH)) = None /\
  check_outside exn (up 1 3 ([97] ++ DOT_ETH)) = Some E_valid /\ check_outside exn (up 1 4 ([97] ++ DOT_ETH)) = Some E_valid /\
  check_outside exn (up 1 7 [97]) = Some E_valid /\
  check_outside exn (ud 1 7 ([97] ++ DOT_ETH)) = None /\ check_outside exn (ud 1 7 ([98] ++ DOT_ETH)) = Some E_valid /\
  check_outside exn (SMsg [1] 7 12 (SProof (EProof 3 ([97] ++ DOT_BASE_ETH) [7]))) = Some E_state /\
  check_outside exn (SMsg [1] 7 7 (SVerif 1 1 true)) = None /\ check_outside exn (SMsg [1] 7 7 (SVerif 1 10 true)) = Some E_state /\
  check_outside exn (SMsg [1] 7 7 (SVerif 1 2 true)) = Some E_valid /\ check_outside exn (SMsg [1] 7 7 (SVerif 0 2 true)) = None /\
  gossiped (up 1 3 ([97] ++ DOT_ETH)) (ChSent AckOk) = [EvMsg (up 1 3 ([97] ++ DOT_ETH))].
Proof. by vm_compute. Qed.
(** The trial run of username proofs is that of C21; the first byte of a hash is the message's time. *)
Definition exp (t : pst) (m : smsg) : pst * verdict :=
  match sm_body m with
  | SProof p => let r := p_merge t (PMsg (sm_fid m) (match sm_hash m with x :: _ => x | [] => 0 end) (match sm_hash m with x :: _ => repeat x 20 | [] => [] end) [] (e_name p) (sm_fid m)) in
      (r.1, match r.2 with None => VOk | Some _ => VErr "bad_request.conflict" end)
  | _ => (t, VOk)
  end.
Definition allok (h : list ev) (m : smsg) : chan := ChSent AckOk.
Definition ethn (x : N) : bytes := [x] ++ DOT_ETH.
Example C102_ex : let ms := [up 9 7 (ethn 97); ud 8 2 [97]; up 10 7 (ethn 98)] in
  bulk exp exn (fun _ => ps_init) (fun sh => if sh =? 2 then [7] else [2]) allok [1; 2] ms =
    ([EvMsg (ud 8 2 [97]); EvMsg (up 9 7 (ethn 97)); EvMsg (up 10 7 (ethn 98))],
     [([8], inr (ud 8 2 [97])); ([9], inr (up 9 7 (ethn 97))); ([10], inr (up 10 7 (ethn 98)))]) /\
  (bulk exp exn (fun _ => ps_init) (fun sh => if sh =? 2 then [7] else [2]) allok [2; 1] ms).2 =
    [([9], inr (up 9 7 (ethn 97))); ([10], inr (up 10 7 (ethn 98))); ([8], inr (ud 8 2 [97]))].
Proof. by vm_compute. Qed.
(** Refuted: "a message that passes alone passes in a request". The same proof twice: both are refused. *)
Theorem C102_sibling_refuted : let m := up 9 7 (ethn 97) in
  (bulk exp exn (fun _ => ps_init) (fun _ => [7]) allok [2] [m]).2 = [([9], inr m)] /\
  (bulk exp exn (fun _ => ps_init) (fun _ => [7]) allok [2] [m; m]).2 = [([9], inl "bad_request.conflict"%string); ([9], inl "bad_request.conflict"%string)].
Proof. by vm_compute. Qed.
(** Refuted: "what an account is told does not depend on others, nor on the order of the maps". The messages of account 7 are
    refused, but its claim to the name stays in the batch and keeps account 9 out; in the other order account 9 passes. *)
Definition exn9 : node := Node be_dec 2 20 (fun _ => true) (fun sh => Some (View (fun f => Reg [7]) (fun f a => inr false) (fun _ => PrNone))) (nd_chain exn).
Theorem C102_order_dependent_refuted : let ms := [up 20 7 (ethn 97); up 20 7 (ethn 97); up 10 9 (ethn 97)] in
  (bulk exp exn9 (fun _ => ps_init) (fun _ => [7; 9]) allok [2] ms).2 =
    [([20], inl "bad_request.conflict"%string); ([20], inl "bad_request.conflict"%string); ([10], inl "bad_request.conflict"%string)] /\
  (bulk exp exn9 (fun _ => ps_init) (fun _ => [9; 7]) allok [2] ms).2 =
    [([20], inl "bad_request.conflict"%string); ([20], inl "bad_request.conflict"%string); ([10], inr (up 10 9 (ethn 97)))].
Proof. by vm_compute. Qed.
(** The hypotheses can be met: accounts that do not see each other, as when nothing is written. *)
Example C102_ex_separate : separate (fun (t : unit) (m : smsg) => (t, if sm_fid m =? 1 then VErr "x" else VOk)) (fun _ _ _ => True) /\
  orders_ok exn [up 9 7 (ethn 97); ud 8 2 [97]] [1; 2] (fun sh => if sh =? 2 then [7] else [2]).
Proof.
  split; [split; [done|]; split; [done|]; split; done|]. split; [apply (bool_decide_unpack _); by vm_compute|]. split.
  - intros m H. apply elem_of_cons in H as [->|H]; [by vm_compute; right; left|]. apply elem_of_list_singleton in H as ->. by vm_compute; left.
  - intros sh. split; [destruct (sh =? 2); apply NoDup_singleton|]. intros m H E. apply elem_of_cons in H as [->|H]; [|apply elem_of_list_singleton in H as ->]; vm_compute in E; subst sh; vm_compute; left.
Qed.

Print Assumptions C100_queued_iff.
Print Assumptions C100_told_iff.
Print Assumptions C100_error_after_handover.
Print Assumptions C100_transfers.
Print Assumptions C100_same_error.
Print Assumptions C100_ends.
Print Assumptions C100_error_but_queued_refuted.
Print Assumptions C100_stale_transfer_refuted.
Print Assumptions C100_status.
Print Assumptions C100_internal_unknown_refuted.
Print Assumptions C101_checked.
Print Assumptions C101_proof_iff.
Print Assumptions C101_gossip_refuted.
Print Assumptions C102_answers.
Print Assumptions C102_sound.
Print Assumptions C102_only.
Print Assumptions C102_together_iff.
Print Assumptions C102_alone.
Print Assumptions C102_order_free.
Print Assumptions C102_single_agrees.
Print Assumptions C102_shard0_refuted.
Print Assumptions C102_no_recovery_refuted.
Print Assumptions C102_order_refuted.
Print Assumptions C100_engine.
Print Assumptions C102_sibling_refuted.
Print Assumptions C102_order_dependent_refuted.
