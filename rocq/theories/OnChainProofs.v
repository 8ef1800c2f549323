(** Proofs about the on-chain event store. *)
From Verif Require Export OnChain.
From Coq Require Import ZifyN ZifyNat ZifyBool.
#[local] Open Scope N_scope.

Section P.
  Context (keccak : bytes -> bytes).
  Notation omerge := (omerge keccak). Notation ostep := (ostep keccak). Notation obatch := (obatch keccak). Notation orun := (orun keccak).

  (** *** What a step does to each part *)
  Lemma index_chan_frame s e k label ckey owner expiry :
    let s' := (index_chan keccak s e k label ckey owner expiry).1 in t_ev s' = t_ev s /\ t_id s' = t_id s /\ t_sig s' = t_sig s.
  Proof.
    cbn zeta. unfold index_chan. destruct (negb _); [done|]. destruct k; try done.
    - destruct (negb _); [done|]. destruct (t_own s !! ckey) as [w|]; [|done]. by destruct (older e w).
    - destruct (negb _); [done|]. destruct (t_own s !! ckey) as [w|]; [|done]. by destruct (older e w).
    - destruct (negb _); [done|]. destruct (t_label s !! label) as [ck|]; [|done]. destruct (t_own s !! ck) as [w|]; [|done]. by destruct (older e w).
  Qed.
  Definition with_ev (s : ost) (e : oev) : ost := OSt (<[prim e := e]> (t_ev s)) (t_id s) (t_sig s) (t_own s) (t_label s) (t_addr s).
  Lemma ostep_dup db s e : is_Some (t_ev s !! prim e) -> ostep db s e = s.
  Proof. intros [x Hx]. unfold ostep, OnChain.ostep, OnChain.omerge. by rewrite Hx. Qed.
  Lemma ostep_ev db s e : t_ev s !! prim e = None -> t_ev (ostep db s e) = <[prim e := e]> (t_ev s).
  Proof.
    intros H. unfold OnChain.ostep, OnChain.omerge. rewrite H. cbn [default from_option id]. destruct (o_body e); try done.
    exact (proj1 (index_chan_frame (with_ev s e) e k label ckey owner expiry)).
  Qed.
  Lemma ostep_sig db s e : t_ev s !! prim e = None ->
    t_sig (ostep db s e) = match o_body e with BSigner k key _ => index_signer db (with_ev s e) e k key | _ => t_sig s end.
  Proof.
    intros H. unfold OnChain.ostep, OnChain.omerge. rewrite H. cbn [default from_option id]. destruct (o_body e); try done.
    exact (proj2 (proj2 (index_chan_frame (with_ev s e) e k label ckey owner expiry))).
  Qed.
  Lemma ostep_id db s e : t_ev s !! prim e = None ->
    t_id (ostep db s e) = match o_body e with BIdReg k _ => index_id (with_ev s e) e k | _ => t_id s end.
  Proof.
    intros H. unfold OnChain.ostep, OnChain.omerge. rewrite H. cbn [default from_option id]. destruct (o_body e); try done.
    exact (proj1 (proj2 (index_chan_frame (with_ev s e) e k label ckey owner expiry))).
  Qed.

  (** *** Stored events: the first arrival for each primary key *)
  Definition ev_ok (s : ost) : Prop := forall k e, t_ev s !! k = Some e -> prim e = k.
  Lemma ev_ok_step db s e : ev_ok s -> ev_ok (ostep db s e).
  Proof.
    intros H. destruct (t_ev s !! prim e) eqn:E; [by rewrite ostep_dup|]. intros k x Hx. rewrite ostep_ev in Hx by done.
    destruct (decide (prim e = k)) as [<-|Hne]; [rewrite lookup_insert in Hx; by injection Hx as <-|].
    rewrite lookup_insert_ne in Hx by done. by apply H.
  Qed.
  Lemma ev_grow db s e : t_ev s ⊆ t_ev (ostep db s e).
  Proof. destruct (t_ev s !! prim e) eqn:E; [by rewrite ostep_dup|]. rewrite ostep_ev by done. by apply insert_subseteq. Qed.
  Fixpoint first_arrivals (m : gmap okey oev) (l : list oev) : gmap okey oev :=
    match l with [] => m | e :: r => first_arrivals (match m !! prim e with Some _ => m | None => <[prim e := e]> m end) r end.
  Lemma batch_ev db s es : t_ev (foldl (ostep db) s es) = first_arrivals (t_ev s) es.
  Proof.
    revert s. induction es as [|e es IH]; intros s; [done|]. cbn. rewrite IH.
    destruct (t_ev s !! prim e) eqn:E; [by rewrite ostep_dup|]. by rewrite ostep_ev.
  Qed.
  Lemma first_arrivals_app m l k : first_arrivals m (l ++ k) = first_arrivals (first_arrivals m l) k.
  Proof. revert m. induction l as [|e l IH]; intros m; [done|]. cbn. apply IH. Qed.
  Lemma run_ev s bs : t_ev (orun s bs) = first_arrivals (t_ev s) (concat bs).
  Proof.
    revert s. induction bs as [|b bs IH]; intros s; [done|]. unfold orun, OnChain.orun in *. cbn. rewrite IH. unfold OnChain.obatch. rewrite batch_ev.
    by rewrite first_arrivals_app.
  Qed.
  Lemma first_arrivals_lookup l m k e : NoDup (map prim l) -> (forall e, e ∈ l -> m !! prim e = None) ->
    first_arrivals m l !! k = Some e <-> m !! k = Some e \/ (e ∈ l /\ prim e = k).
  Proof.
    revert m. induction l as [|x l IH]; intros m Hd Hm; cbn.
    - split; [by left|]. intros [?|[H _]]; [done|by apply elem_of_nil in H].
    - cbn in Hd. apply NoDup_cons in Hd as [Hn Hd]. rewrite (Hm x) by left. rewrite IH; [|done|].
      + destruct (decide (prim x = k)) as [<-|Hne].
        * rewrite lookup_insert, (Hm x) by left. split.
          -- intros [[= ->]|[H H']]; [right; split; [left|done]|]. right. split; [by right|done].
          -- intros [?|[H H']]; [done|]. apply elem_of_cons in H as [->|H]; [by left|by right].
        * rewrite lookup_insert_ne by done. split.
          -- intros [?|[H H']]; [by left|right; split; [by right|done]].
          -- intros [?|[H H']]; [by left|]. apply elem_of_cons in H as [->|H]; [done|by right].
      + intros e' He'. rewrite lookup_insert_ne; [apply Hm; by right|]. intros Heq. apply Hn. rewrite Heq. apply elem_of_list_fmap. by exists e'.
  Qed.
  Lemma run_ev_in bs k e : NoDup (map prim (concat bs)) -> t_ev (orun o_init bs) !! k = Some e <-> e ∈ concat bs /\ prim e = k.
  Proof.
    intros H. rewrite run_ev, first_arrivals_lookup; [|done|intros; apply lookup_empty]. cbn. rewrite lookup_empty. naive_solver.
  Qed.

  (** *** Induction over histories: [P db s] for the state inside a batch, with the committed state *)
  Lemma run_ind (P : ost -> Prop) (Hst : forall db s e, P db -> P s -> t_ev db ⊆ t_ev s -> P (ostep db s e)) :
    forall bs s, P s -> P (orun s bs).
  Proof.
    assert (Hb : forall es db s, P db -> P s -> t_ev db ⊆ t_ev s -> P (foldl (ostep db) s es)).
    { induction es as [|e es IH]; intros db s Hdb Hs Hsub; [done|]. cbn. apply IH; [done|by apply Hst|].
      etrans; [exact Hsub|apply ev_grow]. }
    induction bs as [|b bs IH]; intros s Hs; [done|]. cbn. apply IH. by apply Hb.
  Qed.

  (** *** Signers *)
  Definition signs (f : N) (key : bytes) (e : oev) : bool :=
    match o_body e with BSigner _ k _ => (fidk (o_fid e) =? f) && bool_decide (k = key) | _ => false end.
  Definition is_reset (e : oev) : bool := match o_body e with BSigner SReset _ _ => true | _ => false end.
  Definition no_reset (s : ost) (f : N) (key : bytes) : Prop := forall k e, t_ev s !! k = Some e -> signs f key e = true -> is_reset e = false.

  Lemma first_add_spec db f key a : first_add db f key = Some a ->
    exists k, t_ev db !! k = Some a /\ k.1.1.1 = 1 /\ k.1.1.2 = fidk f /\ is_add_of key a = true.
  Proof.
    unfold first_add. intros H.
    assert (Hl : forall l acc, foldr (fun (x : okey * oev) (acc : option oev) =>
      if (x.1.1.1.1 =? 1) && (x.1.1.1.2 =? fidk f) && is_add_of key x.2 then
        match acc with None => Some x.2 | Some y => if pos_le x.2 y then Some x.2 else Some y end else acc) None l = Some acc ->
      exists k, (k, acc) ∈ l /\ k.1.1.1 = 1 /\ k.1.1.2 = fidk f /\ is_add_of key acc = true).
    { clear. induction l as [|x l IH]; intros acc Ha; [done|]. cbn in Ha.
      destruct ((x.1.1.1.1 =? 1) && (x.1.1.1.2 =? fidk f) && is_add_of key x.2) eqn:E.
      - apply andb_prop in E as [E E3]. apply andb_prop in E as [E1 E2]. apply N.eqb_eq in E1, E2.
        assert (Hx : exists k, (k, x.2) ∈ x :: l /\ k.1.1.1 = 1 /\ k.1.1.2 = fidk f /\ is_add_of key x.2 = true).
        { exists x.1. split; [destruct x; by left|done]. }
        destruct (foldr _ None l) as [y|] eqn:Ef.
        + destruct (pos_le x.2 y); injection Ha as <-; [done|]. destruct (IH y eq_refl) as (k & Hk & H). exists k. split; [by right|done].
        + by injection Ha as <-.
      - destruct (IH acc Ha) as (k & Hk & H). exists k. split; [by right|done]. }
    destruct (Hl _ _ H) as (k & Hk & Hr). exists k. split; [by apply elem_of_map_to_list|done].
  Qed.
  Lemma is_add_signs key a : is_add_of key a = true -> signs (fidk (o_fid a)) key a = true.
  Proof. unfold is_add_of, signs. destruct (o_body a) as [[] k kt| | | | |]; try done. intros ->. by rewrite N.eqb_refl. Qed.

  (** The index names a stored event of that account and key; without resets, one of the latest block. *)
  Definition sig_inv (s : ost) : Prop := ev_ok s /\
    (forall f key k, t_sig s !! (f, key) = Some k -> exists e, t_ev s !! k = Some e /\ signs f key e = true /\ is_reset e = false) /\
    (forall f key, no_reset s f key ->
      (forall k e, t_ev s !! k = Some e -> signs f key e = true -> exists k' e', t_sig s !! (f, key) = Some k' /\ t_ev s !! k' = Some e' /\ o_block e <= o_block e')).
  Lemma sig_inv_step db s e : sig_inv db -> sig_inv s -> t_ev db ⊆ t_ev s -> sig_inv (ostep db s e).
  Proof.
    intros Hdb (Hok & Hp & Hl) Hsub. destruct (t_ev s !! prim e) as [x|] eqn:E; [rewrite (ostep_dup db s e) by (by rewrite E; eexists); by split|].
    assert (Hok' : ev_ok (ostep db s e)) by (by apply ev_ok_step).
    assert (Hev : t_ev (ostep db s e) = <[prim e := e]> (t_ev s)) by (by apply ostep_ev).
    assert (Hold : forall k y, t_ev s !! k = Some y -> <[prim e := e]> (t_ev s) !! k = Some y).
    { intros k y Hk. rewrite lookup_insert_ne; [done|]. intros <-. congruence. }
    assert (Hnr : forall f key, no_reset (ostep db s e) f key -> no_reset s f key /\ (signs f key e = true -> is_reset e = false)).
    { intros f key H. split.
      - intros k y Hk. apply (H k). rewrite Hev. by apply Hold.
      - intros Hs. apply (H (prim e)); [|done]. rewrite Hev. by rewrite lookup_insert. }
    (* the rows of other keys *)
    assert (Hother : forall f key, signs f key e = false -> t_sig (ostep db s e) !! (f, key) = t_sig s !! (f, key)).
    { intros f key Hs. rewrite ostep_sig by done. destruct (o_body e) as [k key' kt| | | | |] eqn:Eb; try done.
      assert (Hne : (fidk (o_fid e), key') <> (f, key)).
      { intros [= <- <-]. unfold signs in Hs. rewrite Eb, N.eqb_refl in Hs. cbn in Hs. by apply bool_decide_eq_false in Hs. }
      unfold index_signer. destruct (match deref _ _ with Some _ => _ | None => _ end); [done|].
      destruct (decide (k = SReset)); [destruct (first_add db (o_fid e) key'); [by rewrite lookup_insert_ne|done]|by rewrite lookup_insert_ne]. }
    split; [done|]. split.
    - intros f key k Hk. destruct (signs f key e) eqn:Es.
      + rewrite ostep_sig in Hk by done. unfold signs in Es. destruct (o_body e) as [kd key' kt| | | | |] eqn:Eb; try done.
        apply andb_prop in Es as [E1 E2]. apply N.eqb_eq in E1. apply bool_decide_eq_true in E2 as ->. subst f.
        unfold index_signer in Hk. destruct (match deref _ _ with Some _ => _ | None => _ end).
        { destruct (Hp _ _ _ Hk) as (y & Hy & H). exists y. rewrite Hev. split; [by apply Hold|done]. }
        destruct (decide (kd = SReset)) as [->|Hnr'].
        * destruct (first_add db (o_fid e) key) as [a|] eqn:Ea.
          -- rewrite lookup_insert in Hk. injection Hk as <-. destruct (first_add_spec _ _ _ _ Ea) as (k & Hka & H1 & H2 & H3).
             assert (Epr : prim a = k) by (by apply (proj1 Hdb)). subst k. exists a. rewrite Hev. split; [apply Hold; by eapply lookup_weaken|].
             cbn in H2. rewrite <- H2. split; [by apply is_add_signs|]. unfold is_add_of in H3. unfold is_reset. by destruct (o_body a) as [[] ? ?| | | | |].
          -- destruct (Hp _ _ _ Hk) as (y & Hy & H). exists y. rewrite Hev. split; [by apply Hold|done].
        * rewrite lookup_insert in Hk. injection Hk as <-. exists e. rewrite Hev, lookup_insert. split; [done|]. unfold signs, is_reset. rewrite Eb, N.eqb_refl, bool_decide_eq_true_2 by done.
          split; [done|]. by destruct kd.
      + rewrite Hother in Hk by done. destruct (Hp _ _ _ Hk) as (y & Hy & H). exists y. rewrite Hev. split; [by apply Hold|done].
    - intros f key Hnr'. destruct (Hnr f key Hnr') as [Hnrs Hnre]. intros k y Hy Hs.
      destruct (signs f key e) eqn:Es.
      + specialize (Hnre eq_refl).
        (* the new index row *)
        assert (Hnew : exists k' e', t_sig (ostep db s e) !! (f, key) = Some k' /\ t_ev (ostep db s e) !! k' = Some e' /\ o_block e <= o_block e' /\
          (forall k0 e0, t_sig s !! (f, key) = Some k0 -> t_ev s !! k0 = Some e0 -> o_block e0 <= o_block e')).
        { rewrite ostep_sig, Hev by done. pose proof Es as Es'. unfold signs in Es'. unfold is_reset in Hnre. destruct (o_body e) as [kd key' kt| | | | |] eqn:Eb; try done.
          apply andb_prop in Es' as [E1 E2]. apply N.eqb_eq in E1. apply bool_decide_eq_true in E2 as ->. subst f.
          assert (Hset : forall b : bool, b = false \/ (exists k0 e0, t_sig s !! (fidk (o_fid e), key) = Some k0 /\ t_ev s !! k0 = Some e0 /\ o_block e < o_block e0) -> True) by done.
          unfold index_signer. cbn [t_sig with_ev]. destruct (t_sig s !! (fidk (o_fid e), key)) as [k0|] eqn:E0.
          - destruct (Hp _ _ _ E0) as (e0 & He0 & Hs0 & _). cbn [deref]. unfold deref. cbn [option_bind mbind]. cbn [t_ev with_ev]. rewrite (Hold _ _ He0).
            replace (same_block_keeps kd kd) with false by (by destruct kd). rewrite orb_false_r.
            destruct (N.ltb_spec (o_block e) (o_block e0)) as [Hlt|Hge].
            + exists k0, e0. split; [done|]. split; [by apply Hold|]. split; [lia|]. intros k1 e1 [= <-] He1. assert (e1 = e0) as -> by congruence. lia.
            + destruct (decide (kd = SReset)) as [->|_]; [done|]. exists (prim e), e. rewrite !lookup_insert. split; [done|]. split; [done|]. split; [lia|].
              intros k1 e1 [= <-] He1. assert (e1 = e0) as -> by congruence. lia.
          - cbn. destruct (decide (kd = SReset)) as [->|_]; [done|]. exists (prim e), e. rewrite !lookup_insert. split; [done|]. split; [done|]. split; [lia|]. done. }
        destruct Hnew as (k' & e' & Hk' & He' & Hle & Hmax). exists k', e'. split; [done|]. split; [done|].
        rewrite Hev in Hy. destruct (decide (prim e = k)) as [<-|Hne]; [rewrite lookup_insert in Hy; by injection Hy as <-|].
        rewrite lookup_insert_ne in Hy by done. destruct (Hl f key Hnrs k y Hy Hs) as (k1 & e1 & Hk1 & He1 & Hle1). specialize (Hmax _ _ Hk1 He1). lia.
      + rewrite Hev in Hy. destruct (decide (prim e = k)) as [<-|Hne]; [rewrite lookup_insert in Hy; injection Hy as <-; congruence|].
        rewrite lookup_insert_ne in Hy by done. destruct (Hl f key Hnrs k y Hy Hs) as (k1 & e1 & Hk1 & He1 & Hle1).
        exists k1, e1. rewrite Hother, Hev by done. split; [done|]. split; [by apply Hold|done].
  Qed.
  Lemma sig_inv_init : sig_inv o_init.
  Proof. split; [|split]; intros *; cbn; rewrite ?lookup_empty; try done. Qed.
  Lemma sig_inv_run bs : sig_inv (orun o_init bs).
  Proof. apply run_ind; [apply sig_inv_step|apply sig_inv_init]. Qed.

  (** *** Custody *)
  Definition registers (f : N) (e : oev) : bool :=
    match o_body e with BIdReg k _ => (fidk (o_fid e) =? f) && negb (bool_decide (k = IRecovery)) | _ => false end.
  Definition id_inv (s : ost) : Prop := ev_ok s /\
    (forall f k, t_id s !! f = Some k -> exists e, t_ev s !! k = Some e /\ registers f e = true) /\
    (forall f k e, t_ev s !! k = Some e -> registers f e = true -> exists k' e', t_id s !! f = Some k' /\ t_ev s !! k' = Some e' /\ o_block e <= o_block e').
  Lemma id_inv_step db s e : id_inv db -> id_inv s -> t_ev db ⊆ t_ev s -> id_inv (ostep db s e).
  Proof.
    intros _ (Hok & Hp & Hl) _. destruct (t_ev s !! prim e) as [x|] eqn:E; [rewrite (ostep_dup db s e) by (by rewrite E; eexists); by split|].
    assert (Hok' : ev_ok (ostep db s e)) by (by apply ev_ok_step).
    assert (Hev : t_ev (ostep db s e) = <[prim e := e]> (t_ev s)) by (by apply ostep_ev).
    assert (Hold : forall k y, t_ev s !! k = Some y -> <[prim e := e]> (t_ev s) !! k = Some y).
    { intros k y Hk. rewrite lookup_insert_ne; [done|]. intros <-. congruence. }
    assert (Hc : (exists kd to, o_body e = BIdReg kd to) \/ ((forall f, registers f e = false) /\ t_id (ostep db s e) = t_id s)).
    { rewrite (ostep_id db s e E). unfold registers. destruct (o_body e); try (by right). left. by do 2 eexists. }
    destruct Hc as [(kd & to & Eb)|[Hn Hid]].
    2:{ split; [done|]; rewrite Hid, Hev; split.
      - intros f k Hk. destruct (Hp f k Hk) as (y & Hy & Hr). exists y. split; [by apply Hold|done].
      - intros f k y Hy Hr. destruct (decide (prim e = k)) as [<-|Hne]; [rewrite lookup_insert in Hy; injection Hy as <-; by rewrite Hn in Hr|].
        rewrite lookup_insert_ne in Hy by done. destruct (Hl f k y Hy Hr) as (k' & e' & H1 & H2 & H3). exists k', e'. split; [done|]. split; [by apply Hold|done]. }
    set (f0 := fidk (o_fid e)).
    assert (Hreg : forall f, registers f e = (f0 =? f) && negb (bool_decide (kd = IRecovery))) by (intros f; unfold registers; by rewrite Eb).
    (* the new row *)
    assert (Hid : (kd = IRecovery /\ t_id (ostep db s e) = t_id s) \/
      (kd <> IRecovery /\ exists k' e', t_id (ostep db s e) = <[f0 := k']> (t_id s) /\ <[prim e := e]> (t_ev s) !! k' = Some e' /\ registers f0 e' = true /\ o_block e <= o_block e' /\
        (forall k0 e0, t_id s !! f0 = Some k0 -> t_ev s !! k0 = Some e0 -> o_block e0 <= o_block e'))).
    { rewrite ostep_id, Eb by done. unfold index_id. destruct (decide (kd = IRecovery)) as [->|Hk]; [by left|]. right. split; [done|]. fold f0.
      assert (Hre : registers f0 e = true) by (rewrite Hreg, N.eqb_refl; by rewrite bool_decide_eq_false_2).
      cbn [t_id with_ev]. destruct (t_id s !! f0) as [k0|] eqn:E0.
      - destruct (Hp _ _ E0) as (e0 & He0 & Hr0). unfold deref. cbn [option_bind mbind]. cbn [t_ev with_ev]. rewrite (Hold _ _ He0).
        destruct (N.ltb_spec (o_block e) (o_block e0)) as [Hlt|Hge].
        + exists k0, e0. split; [by rewrite insert_id|]. split; [by apply Hold|]. split; [done|]. split; [lia|]. intros k1 e1 [= <-] He1. assert (e1 = e0) as -> by congruence. lia.
        + exists (prim e), e. split; [done|]. split; [apply lookup_insert|]. split; [done|]. split; [lia|]. intros k1 e1 [= <-] He1. assert (e1 = e0) as -> by congruence. lia.
      - cbn. exists (prim e), e. split; [done|]. split; [apply lookup_insert|]. split; [done|]. split; [lia|]. done. }
    split; [done|]. rewrite Hev. destruct Hid as [[-> Hid]|(Hk & k' & e' & Hid & He' & Hr' & Hle & Hmax)]; rewrite Hid.
    - split; [intros f k Hk; destruct (Hp f k Hk) as (y & Hy & Hr); exists y; split; [by apply Hold|done]|].
      intros f k y Hy Hr. destruct (decide (prim e = k)) as [<-|Hne]; [rewrite lookup_insert in Hy; injection Hy as <-; rewrite Hreg in Hr; by rewrite andb_false_r in Hr|].
      rewrite lookup_insert_ne in Hy by done. destruct (Hl f k y Hy Hr) as (k' & e' & H1 & H2 & H3). exists k', e'. split; [done|]. split; [by apply Hold|done].
    - split.
      + intros f k Hk1. destruct (decide (f0 = f)) as [<-|Hne]; [rewrite lookup_insert in Hk1; injection Hk1 as <-; by exists e'|].
        rewrite lookup_insert_ne in Hk1 by done. destruct (Hp f k Hk1) as (y & Hy & Hr). exists y. split; [by apply Hold|done].
      + intros f k y Hy Hr. destruct (decide (f0 = f)) as [<-|Hne].
        * exists k', e'. split; [apply lookup_insert|]. split; [done|]. destruct (decide (prim e = k)) as [<-|Hne]; [rewrite lookup_insert in Hy; by injection Hy as <-|].
          rewrite lookup_insert_ne in Hy by done. destruct (Hl f0 k y Hy Hr) as (k1 & e1 & Hk1 & He1 & Hle1). specialize (Hmax _ _ Hk1 He1). lia.
        * destruct (decide (prim e = k)) as [<-|Hne2]; [rewrite lookup_insert in Hy; injection Hy as <-; rewrite Hreg in Hr; by apply andb_prop in Hr as [Hr%N.eqb_eq _]|].
          rewrite lookup_insert_ne in Hy by done. destruct (Hl f k y Hy Hr) as (k1 & e1 & H1 & H2 & H3). exists k1, e1. rewrite lookup_insert_ne by done. split; [done|]. split; [by apply Hold|done].
  Qed.
  Lemma id_inv_init : id_inv o_init.
  Proof. split; [|split]; intros *; cbn; rewrite ?lookup_empty; done. Qed.
  Lemma id_inv_run bs : id_inv (orun o_init bs).
  Proof. apply run_ind; [apply id_inv_step|apply id_inv_init]. Qed.

  (** *** Induction over the events of a history, in order of arrival *)
  Lemma run_list_ind (P : list oev -> ost -> Prop) : P [] o_init -> (forall db l s e, P l s -> P (l ++ [e]) (ostep db s e)) ->
    forall bs, P (concat bs) (orun o_init bs).
  Proof.
    intros H0 Hst.
    assert (Hb : forall es db l s, P l s -> P (l ++ es) (foldl (ostep db) s es)).
    { induction es as [|e es IH]; intros db l s Hs; [by rewrite app_nil_r|]. cbn. rewrite cons_middle, app_assoc. apply IH. by apply Hst. }
    assert (Hg : forall bs l s, P l s -> P (l ++ concat bs) (orun s bs)).
    { induction bs as [|b bs IH]; intros l s Hs; [by rewrite app_nil_r|]. cbn. rewrite app_assoc. apply IH. by apply Hb. }
    intros bs. by apply (Hg bs []).
  Qed.

  (** *** Channels *)
  Definition opos (e : oev) : N * N * N := (o_block e, o_tx e, o_log e).
  Definition wpos (w : chown) : N * N * N := (w_block w, w_tx w, w_log w).
  Definition lt3 (a b : N * N * N) : Prop :=
    a.1.1 < b.1.1 \/ (a.1.1 = b.1.1 /\ (a.1.2 < b.1.2 \/ (a.1.2 = b.1.2 /\ a.2 < b.2))).
  Lemma older_spec e w : older e w = true <-> lt3 (opos e) (wpos w).
  Proof.
    unfold older, lt3, opos, wpos. cbn. rewrite !orb_true_iff, !andb_true_iff, !orb_true_iff, !andb_true_iff, !N.ltb_lt, !N.eqb_eq. done.
  Qed.
  Definition at_pos (e : oev) (a : bytes) (x : N) : chown := ChOwn a x (o_block e) (o_tx e) (o_log e).

  (** The four things an event can do to the channel tables. *)
  Inductive ch_step (s : ost) (e : oev) : ch_kind -> bytes -> bytes -> bytes -> N -> ost -> option (bytes * bytes * ch_kind) -> Prop :=
    | cs_none k label ckey owner expiry : ch_step s e k label ckey owner expiry s None
    | cs_reg ckey owner expiry label : label = keccak ckey -> length label = 32%nat -> length owner = 20%nat ->
        (forall w, t_own s !! ckey = Some w -> older e w = false) ->
        ch_step s e CRegister label ckey owner expiry
          (OSt (t_ev s) (t_id s) (t_sig s) (<[ckey := at_pos e owner expiry]> (t_own s)) (<[label := ckey]> (t_label s))
             (move_addr (t_addr s) ckey (w_addr <$> t_own s !! ckey) owner)) (Some (ckey, owner, CRegister))
    | cs_renew ckey owner expiry label w : label = keccak ckey -> length label = 32%nat -> t_own s !! ckey = Some w -> older e w = false ->
        ch_step s e CRenew label ckey owner expiry
          (OSt (t_ev s) (t_id s) (t_sig s) (<[ckey := at_pos e (w_addr w) expiry]> (t_own s)) (t_label s) (t_addr s)) None
    | cs_transfer ckey owner expiry label ck w : t_label s !! label = Some ck -> length label = 32%nat -> length owner = 20%nat ->
        t_own s !! ck = Some w -> older e w = false ->
        ch_step s e CTransfer label ckey owner expiry
          (OSt (t_ev s) (t_id s) (t_sig s) (<[ck := at_pos e owner (w_expiry w)]> (t_own s)) (t_label s)
             (move_addr (t_addr s) ck (Some (w_addr w)) owner)) (Some (ck, owner, CTransfer)).
  Lemma index_chan_step s e k label ckey owner expiry : ch_step s e k label ckey owner expiry
    (index_chan keccak s e k label ckey owner expiry).1 (index_chan keccak s e k label ckey owner expiry).2.
  Proof.
    unfold index_chan. destruct (Nat.eqb_spec (length label) 32) as [Hl|]; [|apply cs_none]. cbn [negb]. destruct k.
    - destruct (Nat.eqb_spec (length owner) 20) as [Ho|]; [|apply cs_none]. cbn [andb]. case_bool_decide as Hk; [|apply cs_none]. cbn [negb].
      pose proof (cs_reg s e ckey owner expiry label (eq_sym Hk) Hl Ho) as Hr.
      destruct (t_own s !! ckey) as [w|]; [destruct (older e w) eqn:Eo; [apply cs_none|]|]; apply Hr; congruence.
    - case_bool_decide as Hk; [|apply cs_none]. cbn [negb]. destruct (t_own s !! ckey) as [w|] eqn:Ew; [|apply cs_none].
      destruct (older e w) eqn:Eo; [apply cs_none|]. by apply cs_renew.
    - destruct (Nat.eqb_spec (length owner) 20) as [Ho|]; [|apply cs_none]. cbn [negb]. destruct (t_label s !! label) as [ck|] eqn:El; [|apply cs_none].
      destruct (t_own s !! ck) as [w|] eqn:Ew; [|apply cs_none]. destruct (older e w) eqn:Eo; [apply cs_none|]. by apply cs_transfer.
    - apply cs_none.
  Qed.

  (** Each owner address lists exactly its channels; labels and keys belong together. *)
  Definition ch_inv (s : ost) : Prop :=
    (forall a ck, (a, ck) ∈ t_addr s <-> exists w, t_own s !! ck = Some w /\ w_addr w = a) /\
    (forall l ck, t_label s !! l = Some ck -> keccak ck = l /\ is_Some (t_own s !! ck)) /\
    (forall ck w, t_own s !! ck = Some w -> length (w_addr w) = 20%nat /\ exists ck', t_label s !! keccak ck = Some ck').
  Lemma move_addr_spec (A : gset (bytes * bytes)) (own : gmap bytes chown) (ck : bytes) (w' : chown) :
    (forall a c, (a, c) ∈ A <-> exists w, own !! c = Some w /\ w_addr w = a) ->
    forall a c, (a, c) ∈ move_addr A ck (w_addr <$> own !! ck) (w_addr w') <-> exists w, <[ck := w']> own !! c = Some w /\ w_addr w = a.
  Proof.
    intros H a c. unfold move_addr. rewrite elem_of_union, elem_of_singleton. destruct (decide (ck = c)) as [<-|Hne].
    - rewrite lookup_insert. split.
      + intros [Hin|[= ->]]; [|by exists w']. destruct (own !! ck) as [w|] eqn:E; cbn in Hin.
        * destruct (decide (w_addr w = w_addr w')) as [Ew|Ew].
          -- apply H in Hin as (w1 & E1 & <-). assert (w1 = w) as -> by congruence. by exists w'.
          -- apply elem_of_difference in Hin as [Hin Hn]. apply H in Hin as (w1 & E1 & <-). assert (w1 = w) as -> by congruence.
             destruct Hn. by apply elem_of_singleton.
        * apply H in Hin as (w1 & E1 & _). congruence.
      + intros (w & [= <-] & <-). by right.
    - rewrite lookup_insert_ne by done. rewrite <- H. split.
      + intros [Hin|[= -> ->]]; [|done]. destruct (w_addr <$> own !! ck); [|done]. destruct (decide _); [done|]. by apply elem_of_difference in Hin as [Hin _].
      + intros Hin. left. destruct (w_addr <$> own !! ck); [|done]. destruct (decide _); [done|]. apply elem_of_difference. split; [done|].
        rewrite elem_of_singleton. intros [= _ <-]. done.
  Qed.
  Lemma ch_inv_index s e k label ckey owner expiry : ch_inv s -> ch_inv (index_chan keccak s e k label ckey owner expiry).1.
  Proof.
    intros HI. pose proof HI as (Ha & Hl & Hc). destruct (index_chan_step s e k label ckey owner expiry) as [| ? ? ? ? -> L1 L2 Hold|? ? ? ? w -> L1 Hw Hold|? ? ? ? ck w El L1 L2 Hw Hold]; [done|..].
    - split; [exact (move_addr_spec _ _ ckey (at_pos e owner expiry) Ha)|]. cbn. split.
      + intros l ck Hlk. destruct (decide (keccak ckey = l)) as [<-|Hne].
        * rewrite lookup_insert in Hlk. injection Hlk as <-. split; [done|]. rewrite lookup_insert. by eexists.
        * rewrite lookup_insert_ne in Hlk by done. destruct (Hl _ _ Hlk) as [E1 E2]. split; [done|].
          destruct (decide (ckey = ck)) as [<-|]; [by rewrite lookup_insert|by rewrite lookup_insert_ne].
      + intros ck w Hw. split.
        * destruct (decide (ckey = ck)) as [<-|]; [rewrite lookup_insert in Hw; by injection Hw as <-|]. rewrite lookup_insert_ne in Hw by done. by apply (Hc _ _ Hw).
        * destruct (decide (keccak ckey = keccak ck)) as [->|]; [rewrite lookup_insert; by eexists|]. rewrite lookup_insert_ne by done.
          destruct (decide (ckey = ck)) as [<-|]; [done|]. rewrite lookup_insert_ne in Hw by done. by apply (Hc _ _ Hw).
    - split; [|split]; cbn.
      + intros a c. rewrite Ha. destruct (decide (ckey = c)) as [<-|]; [|by rewrite lookup_insert_ne].
        rewrite lookup_insert, Hw. split; intros (x & [= <-] & <-); by eexists.
      + intros l ck Hlk. destruct (Hl _ _ Hlk) as [E1 E2]. split; [done|].
        destruct (decide (ckey = ck)) as [<-|]; [by rewrite lookup_insert|by rewrite lookup_insert_ne].
      + intros ck x Hx. destruct (decide (ckey = ck)) as [<-|]; [|rewrite lookup_insert_ne in Hx by done; by apply (Hc _ _ Hx)].
        rewrite lookup_insert in Hx. injection Hx as <-. by apply (Hc _ _ Hw).
    - split; [|split]; cbn.
      + pose proof (move_addr_spec _ _ ck (at_pos e owner (w_expiry w)) Ha) as Hm. rewrite Hw in Hm. exact Hm.
      + intros l c Hlk. destruct (Hl _ _ Hlk) as [E1 E2]. split; [done|].
        destruct (decide (ck = c)) as [<-|]; [by rewrite lookup_insert|by rewrite lookup_insert_ne].
      + intros c x Hx. destruct (decide (ck = c)) as [<-|]; [|rewrite lookup_insert_ne in Hx by done; by apply (Hc _ _ Hx)].
        rewrite lookup_insert in Hx. injection Hx as <-. split; [done|]. by apply (Hc _ _ Hw).
  Qed.
  (** Channel tables after any event. *)
  Definition same_chan (s s' : ost) : Prop := t_own s = t_own s' /\ t_label s = t_label s' /\ t_addr s = t_addr s'.
  Lemma ostep_chan db s e :
    match o_body e with
    | BChan k label ckey owner expiry => t_ev s !! prim e = None -> same_chan (ostep db s e) (index_chan keccak (with_ev s e) e k label ckey owner expiry).1
    | _ => same_chan (ostep db s e) s
    end.
  Proof.
    unfold OnChain.ostep, OnChain.omerge. destruct (t_ev s !! prim e) eqn:E; [destruct (o_body e); try done|].
    destruct (o_body e); try done.
  Qed.
  Lemma ch_inv_same s s' : same_chan s s' -> ch_inv s' -> ch_inv s.
  Proof. unfold ch_inv. intros (-> & -> & ->). done. Qed.
  Lemma ch_inv_step db s e : ch_inv s -> ch_inv (ostep db s e).
  Proof.
    intros HI. destruct (t_ev s !! prim e) as [x|] eqn:E; [by rewrite (ostep_dup db s e) by (by rewrite E; eexists)|].
    pose proof (ostep_chan db s e) as H. destruct (o_body e) as [| | |k label ckey owner expiry| |]; try (by apply (ch_inv_same _ _ H)).
    apply (ch_inv_same _ _ (H E)). by apply ch_inv_index.
  Qed.
  Lemma ch_inv_init : ch_inv o_init.
  Proof.
    split; [|split]; cbn.
    - intros a ck. split; [intros H; by apply elem_of_empty in H|]. intros (w & Hw & _). by rewrite lookup_empty in Hw.
    - intros l ck H. by rewrite lookup_empty in H.
    - intros ck w H. by rewrite lookup_empty in H.
  Qed.
  Lemma ch_inv_run bs : ch_inv (orun o_init bs).
  Proof.
    apply (run_ind ch_inv); [intros db s e _ Hs _; by apply ch_inv_step|].
    apply ch_inv_init.
  Qed.

  (** Order watermark. *)
  Lemma watermark_step db s e ck w : t_own s !! ck = Some w -> exists w', t_own (ostep db s e) !! ck = Some w' /\ ~ lt3 (wpos w') (wpos w).
  Proof.
    intros Hw. assert (Hrefl : ~ lt3 (wpos w) (wpos w)) by (unfold lt3; cbn; lia).
    destruct (t_ev s !! prim e) as [x|] eqn:E; [rewrite (ostep_dup db s e) by (by rewrite E; eexists); by exists w|].
    pose proof (ostep_chan db s e) as H. destruct (o_body e) as [| | |k label ckey owner expiry| |];
      try (destruct H as (-> & _); by exists w). specialize (H E) as (-> & _).
    assert (Hnew : forall a x, older e w = false -> ~ lt3 (wpos (at_pos e a x)) (wpos w)).
    { intros a x Ho Hlt. change (wpos (at_pos e a x)) with (opos e) in Hlt. apply older_spec in Hlt. congruence. }
    destruct (index_chan_step (with_ev s e) e k label ckey owner expiry) as [| ? ? ? ? -> L1 L2 Hold|? ? ? ? w1 -> L1 Hw1 Hold|? ? ? ? ck1 w1 El L1 L2 Hw1 Hold]; cbn in *; [by exists w|..].
    - destruct (decide (ckey = ck)) as [<-|]; [rewrite lookup_insert; eexists; split; [done|]; apply Hnew; by apply Hold|rewrite lookup_insert_ne by done; by exists w].
    - destruct (decide (ckey = ck)) as [<-|]; [rewrite lookup_insert; eexists; split; [done|]; assert (w1 = w) as -> by congruence; by apply Hnew|rewrite lookup_insert_ne by done; by exists w].
    - destruct (decide (ck1 = ck)) as [<-|]; [rewrite lookup_insert; eexists; split; [done|]; assert (w1 = w) as -> by congruence; by apply Hnew|rewrite lookup_insert_ne by done; by exists w].
  Qed.

  (** *** Ownership in chain order *)

  (** Owner and expiry of channel [ck] after an event, by the rules of the registry alone. *)
  Definition chan_spec (ck : bytes) (st : option (bytes * N)) (e : oev) : option (bytes * N) :=
    match o_body e with
    | BChan k label ckey owner expiry =>
        if bool_decide (keccak ck = label) && (length label =? 32)%nat then
          match k with
          | CRegister => if bool_decide (ckey = ck) && (length owner =? 20)%nat then Some (owner, expiry) else st
          | CRenew => if bool_decide (ckey = ck) then (fun x => (x.1, expiry)) <$> st else st
          | CTransfer => if (length owner =? 20)%nat then (fun x => (owner, x.2)) <$> st else st
          | CNone => st
          end
        else st
    | _ => st
    end.
  Definition chan_keys (l : list oev) : list bytes := omap (fun e => match o_body e with BChan CRegister _ ck _ _ => Some ck | _ => None end) l.
  Definition chan_good (l : list oev) : Prop :=
    NoDup (map prim l) /\ StronglySorted (fun a b => ~ lt3 (opos b) (opos a)) l /\
    (forall c1 c2, c1 ∈ chan_keys l -> c2 ∈ chan_keys l -> keccak c1 = keccak c2 -> c1 = c2).
  Lemma chan_keys_app l k : chan_keys (l ++ k) = chan_keys l ++ chan_keys k.
  Proof. unfold chan_keys. by rewrite omap_app. Qed.
  Lemma chan_good_app l e : chan_good (l ++ [e]) -> chan_good l /\ (forall x, x ∈ l -> prim x <> prim e /\ ~ lt3 (opos e) (opos x)).
  Proof.
    intros (H1 & H2 & H3). rewrite map_app in H1. apply NoDup_app in H1 as (H1 & H1' & _). rewrite chan_keys_app in H3.
    assert (Hs : StronglySorted (fun a b => ~ lt3 (opos b) (opos a)) l /\ forall x, x ∈ l -> ~ lt3 (opos e) (opos x)).
    { clear -H2. induction l as [|y l IH]; [split; [constructor|]; intros x Hx; by apply elem_of_nil in Hx|]. cbn in H2.
      apply StronglySorted_inv in H2 as [H2 Hf]. destruct (IH H2) as [I1 I2]. rewrite Forall_forall in Hf. split.
      - constructor; [done|]. apply Forall_forall. intros x Hx. apply Hf. apply elem_of_app. by left.
      - intros x Hx. apply elem_of_cons in Hx as [->|Hx]; [apply Hf; apply elem_of_app; right; left|by apply I2]. }
    split; [split; [done|split; [apply Hs|]]|].
    - intros c1 c2 Hc1 Hc2. apply H3; apply elem_of_app; by left.
    - intros x Hx. split; [|by apply Hs]. intros Heq. apply (H1' (prim x)); [apply elem_of_list_fmap; by exists x|]. rewrite Heq. cbn. by left.
  Qed.
  Definition chan_ok (l : list oev) (s : ost) : Prop :=
    ch_inv s /\ (forall k, is_Some (t_ev s !! k) -> exists e, e ∈ l /\ prim e = k) /\
    (forall ck w, t_own s !! ck = Some w -> (exists e, e ∈ l /\ wpos w = opos e) /\ ck ∈ chan_keys l) /\
    (forall ck, (fun w => (w_addr w, w_expiry w)) <$> t_own s !! ck = foldl (chan_spec ck) None l).
  Lemma chan_ok_run bs : chan_good (concat bs) -> chan_ok (concat bs) (orun o_init bs).
  Proof.
    apply (run_list_ind (fun l s => chan_good l -> chan_ok l s)).
    { intros _. split; [|split; [|split]]; cbn.
      - apply ch_inv_init.
      - intros k [x Hx]. by rewrite lookup_empty in Hx.
      - intros ck w Hw. by rewrite lookup_empty in Hw.
      - intros ck. by rewrite lookup_empty. }
    intros db l s e IH Hg. destruct (chan_good_app _ _ Hg) as [Hg' He]. destruct (IH Hg') as (HI & Hev & Hw & Hsp). clear IH.
    assert (E : t_ev s !! prim e = None).
    { destruct (t_ev s !! prim e) as [x|] eqn:E; [|done]. destruct (Hev (prim e)) as (y & Hy & Hp); [by rewrite E|]. by destruct (He y Hy). }
    assert (Hno : forall ck w, t_own s !! ck = Some w -> older e w = false).
    { intros ck w Hk. destruct (Hw ck w Hk) as [(y & Hy & Hp) _]. destruct (older e w) eqn:Eo; [|done]. apply older_spec in Eo. rewrite Hp in Eo. by destruct (He y Hy). }
    split; [by apply ch_inv_step|]. split; [|].
    { intros k [x Hx]. rewrite ostep_ev in Hx by done. destruct (decide (prim e = k)) as [<-|Hne].
      - exists e. split; [apply elem_of_app; right; left|done].
      - rewrite lookup_insert_ne in Hx by done. destruct (Hev k) as (y & Hy & Hp); [by eexists|]. exists y. split; [apply elem_of_app; by left|done]. }
    assert (Hk : forall ck w, t_own s !! ck = Some w -> (exists y, y ∈ l ++ [e] /\ wpos w = opos y) /\ ck ∈ chan_keys (l ++ [e])).
    { intros ck w H. destruct (Hw ck w H) as [(y & Hy & Hp) Hc]. split; [exists y; split; [apply elem_of_app; by left|done]|]. rewrite chan_keys_app. apply elem_of_app. by left. }
    assert (Hnew : forall a x, exists y, y ∈ l ++ [e] /\ wpos (at_pos e a x) = opos y).
    { intros a x. exists e. split; [apply elem_of_app; right; left|done]. }
    cut ((forall ck w, t_own (ostep db s e) !! ck = Some w -> (exists y, y ∈ l ++ [e] /\ wpos w = opos y) /\ ck ∈ chan_keys (l ++ [e])) /\
      (forall ck, (fun w => (w_addr w, w_expiry w)) <$> t_own (ostep db s e) !! ck = chan_spec ck ((fun w => (w_addr w, w_expiry w)) <$> t_own s !! ck) e)).
    { intros [H1 H2]. split; [done|]. intros ck. rewrite foldl_app. cbn. rewrite <- Hsp. apply H2. }
    pose proof (ostep_chan db s e) as Hc. unfold chan_spec.
    destruct (o_body e) as [| | |k label ckey owner expiry| |] eqn:Eb; try (destruct Hc as (-> & _); done). specialize (Hc E) as (-> & _).
    destruct HI as (_ & Hl & Hc3).
    unfold index_chan. cbn [with_ev t_own t_label t_addr t_ev]. destruct (Nat.eqb_spec (length label) 32) as [Hlen|Hlen]; cbn [negb].
    2:{ cbn. split; [done|]. intros ck. by rewrite andb_false_r. }
    destruct k.
    - destruct (Nat.eqb_spec (length owner) 20) as [Ho|]; cbn [andb negb].
      2:{ cbn. split; [done|]. intros ck. rewrite andb_false_r. by destruct (_ && _). }
      case_bool_decide as Hkk; cbn [negb].
      2:{ cbn. split; [done|]. intros ck. destruct (decide (ckey = ck)) as [<-|Hne]; [by rewrite (bool_decide_eq_false_2 (keccak ckey = label))|].
          rewrite (bool_decide_eq_false_2 (ckey = ck)) by done. by destruct (_ && _). }
      assert (Hres : forall (m : gmap bytes chown), m = <[ckey := at_pos e owner expiry]> (t_own s) ->
        (forall ck w, m !! ck = Some w -> (exists y, y ∈ l ++ [e] /\ wpos w = opos y) /\ ck ∈ chan_keys (l ++ [e])) /\
        (forall ck, (fun w => (w_addr w, w_expiry w)) <$> m !! ck = (if bool_decide (keccak ck = label) && true then
            if bool_decide (ckey = ck) && true then Some (owner, expiry) else (fun w => (w_addr w, w_expiry w)) <$> t_own s !! ck
          else (fun w => (w_addr w, w_expiry w)) <$> t_own s !! ck))).
      { intros m ->. split.
        - intros ck w H. destruct (decide (ckey = ck)) as [<-|]; [|rewrite lookup_insert_ne in H by done; by apply (Hk ck w)].
          rewrite lookup_insert in H. injection H as <-. split; [apply Hnew|]. rewrite chan_keys_app. apply elem_of_app. right. unfold chan_keys. cbn. rewrite Eb. left.
        - intros ck. destruct (decide (ckey = ck)) as [<-|Hne].
          + rewrite lookup_insert, !bool_decide_eq_true_2 by done. done.
          + rewrite lookup_insert_ne, (bool_decide_eq_false_2 (ckey = ck)) by done. by destruct (_ && _). }
      destruct (t_own s !! ckey) as [w|] eqn:Ew; [rewrite (Hno _ _ Ew)|]; cbn [fst t_own]; by apply Hres.
    - case_bool_decide as Hkk; cbn [negb].
      2:{ cbn. split; [done|]. intros ck. destruct (decide (ckey = ck)) as [<-|Hne]; [by rewrite (bool_decide_eq_false_2 (keccak ckey = label))|].
          rewrite (bool_decide_eq_false_2 (ckey = ck)) by done. by destruct (_ && _). }
      destruct (t_own s !! ckey) as [w|] eqn:Ew; [rewrite (Hno _ _ Ew)|]; cbn [fst t_own].
      + split.
        * intros ck x H. destruct (decide (ckey = ck)) as [<-|]; [|rewrite lookup_insert_ne in H by done; by apply (Hk ck x)].
          rewrite lookup_insert in H. injection H as <-. split; [apply Hnew|]. by apply (Hk ckey w).
        * intros ck. destruct (decide (ckey = ck)) as [<-|Hne].
          -- rewrite lookup_insert, !bool_decide_eq_true_2, Ew by done. done.
          -- rewrite lookup_insert_ne, (bool_decide_eq_false_2 (ckey = ck)) by done. by destruct (_ && _).
      + split; [done|]. intros ck. destruct (decide (ckey = ck)) as [<-|Hne]; [cbn [with_ev t_own]; rewrite Ew; cbn [fmap option_fmap option_map]; destruct (_ && _); [by destruct (bool_decide _)|done]|].
        rewrite (bool_decide_eq_false_2 (ckey = ck)) by done. by destruct (_ && _).
    - destruct (Nat.eqb_spec (length owner) 20) as [Ho|]; cbn [negb].
      2:{ cbn. split; [done|]. intros ck. by destruct (_ && _). }
      assert (Hlab : forall ck w, t_own s !! ck = Some w -> keccak ck = label -> t_label s !! label = Some ck).
      { intros ck w H1 H2. destruct (Hc3 ck w H1) as (_ & ck' & Hck'). destruct (Hl _ _ Hck') as [E1 [w' E2]]. rewrite H2 in Hck'. rewrite Hck'. f_equal.
        destruct (Hw _ _ H1) as [_ K1]. destruct (Hw _ _ E2) as [_ K2]. destruct Hg' as (_ & _ & Hinj). apply Hinj; [done|done|congruence]. }
      assert (Hnone : (forall ck w, t_own s !! ck = Some w -> keccak ck <> label) ->
        (forall ck : bytes, (fun w => (w_addr w, w_expiry w)) <$> t_own s !! ck =
          (if bool_decide (keccak ck = label) && true then (fun x : bytes * N => (owner, x.2)) <$> ((fun w => (w_addr w, w_expiry w)) <$> t_own s !! ck)
           else (fun w => (w_addr w, w_expiry w)) <$> t_own s !! ck))).
      { intros H ck. rewrite andb_true_r. case_bool_decide; [|done]. destruct (t_own s !! ck) as [w|] eqn:Ew; [by destruct (H ck w Ew)|done]. }
      destruct (t_label s !! label) as [ck0|] eqn:El.
      + destruct (Hl _ _ El) as [E1 [w E2]]. rewrite E2, (Hno _ _ E2). cbn [fst t_own]. split.
        * intros ck x H. destruct (decide (ck0 = ck)) as [<-|]; [|rewrite lookup_insert_ne in H by done; by apply (Hk ck x)].
          rewrite lookup_insert in H. injection H as <-. split; [apply Hnew|]. by apply (Hk ck0 w).
        * intros ck. destruct (decide (ck0 = ck)) as [<-|Hne].
          -- rewrite lookup_insert, bool_decide_eq_true_2, E2 by done. done.
          -- rewrite lookup_insert_ne by done. rewrite andb_true_r. case_bool_decide as Hb; [|done]. destruct (t_own s !! ck) as [w1|] eqn:Ew; [|done].
             specialize (Hlab _ _ Ew Hb). congruence.
      + cbn [fst]. split; [done|]. apply Hnone. intros ck w H1 H2. specialize (Hlab _ _ H1 H2). congruence.
    - split; [done|]. intros ck. by destruct (_ && _).
  Qed.

  (** *** Signers in chain order *)
  Lemma run_list_sig_ind (P : list oev -> ost -> Prop) : P [] o_init ->
    (forall db l s e, sig_inv db -> sig_inv s -> t_ev db ⊆ t_ev s -> P l s -> P (l ++ [e]) (ostep db s e)) ->
    forall bs, P (concat bs) (orun o_init bs).
  Proof.
    intros H0 Hst.
    assert (Hb : forall es db l s, sig_inv db -> sig_inv s -> t_ev db ⊆ t_ev s -> P l s ->
      P (l ++ es) (foldl (ostep db) s es) /\ sig_inv (foldl (ostep db) s es)).
    { induction es as [|e es IH]; intros db l s Hd Hs Hsub HP; [by rewrite app_nil_r|]. cbn. rewrite cons_middle, app_assoc. apply IH; [done|by apply sig_inv_step| |by apply Hst].
      etrans; [exact Hsub|apply ev_grow]. }
    assert (Hg : forall bs l s, sig_inv s -> P l s -> P (l ++ concat bs) (orun s bs)).
    { induction bs as [|b bs IH]; intros l s Hs HP; [by rewrite app_nil_r|]. cbn. rewrite app_assoc.
      destruct (Hb b s l s Hs Hs ltac:(done) HP) as [H1 H2]. by apply IH. }
    intros bs. by apply (Hg bs [] o_init sig_inv_init).
  Qed.
  Lemma last_signer bs f key l1 e l2 : NoDup (map prim (concat bs)) -> concat bs = l1 ++ e :: l2 -> signs f key e = true -> is_reset e = false ->
    (forall y, y ∈ l1 -> signs f key y = true -> o_block y <= o_block e) -> (forall y, y ∈ l2 -> signs f key y = false) ->
    deref (orun o_init bs) (t_sig (orun o_init bs) !! (f, key)) = Some e.
  Proof.
    intros Hnd Hc Hs Hr H1 H2.
    cut (t_sig (orun o_init bs) !! (f, key) = Some (prim e)).
    { intros ->. cbn. apply run_ev_in; [done|]. split; [|done]. rewrite Hc. apply elem_of_app. right. left. }
    revert l1 l2 Hnd Hc H1 H2.
    cut (forall l1 l2, NoDup (map prim (concat bs)) -> concat bs = l1 ++ e :: l2 ->
      (forall y, y ∈ l1 -> signs f key y = true -> o_block y <= o_block e) -> (forall y, y ∈ l2 -> signs f key y = false) ->
      (forall k x, t_ev (orun o_init bs) !! k = Some x -> x ∈ concat bs) /\ t_sig (orun o_init bs) !! (f, key) = Some (prim e)).
    { intros H l1 l2 Ha Hb Hc Hd. by apply (H l1 l2). }
    cut ((forall k x, t_ev (orun o_init bs) !! k = Some x -> x ∈ concat bs) /\ forall l1 l2, NoDup (map prim (concat bs)) -> concat bs = l1 ++ e :: l2 ->
      (forall y, y ∈ l1 -> signs f key y = true -> o_block y <= o_block e) -> (forall y, y ∈ l2 -> signs f key y = false) ->
      t_sig (orun o_init bs) !! (f, key) = Some (prim e)).
    { intros [H0 H] l1 l2 Ha Hb Hc Hd. split; [done|by apply (H l1 l2)]. }
    apply (run_list_sig_ind (fun l s => (forall k x, t_ev s !! k = Some x -> x ∈ l) /\ forall l1 l2, NoDup (map prim l) -> l = l1 ++ e :: l2 ->
      (forall y, y ∈ l1 -> signs f key y = true -> o_block y <= o_block e) -> (forall y, y ∈ l2 -> signs f key y = false) ->
      t_sig s !! (f, key) = Some (prim e))).
    { cbn. split; [intros k x Hx; by rewrite lookup_empty in Hx|]. intros l1 l2 _ H. by destruct l1. }
    intros db l s x Hdb Hsi Hsub [Hin HP].
    assert (Hin' : forall k y, t_ev (ostep db s x) !! k = Some y -> y ∈ l ++ [x]).
    { intros k y Hy. destruct (t_ev s !! prim x) eqn:E.
      - rewrite (ostep_dup db s x) in Hy by (by rewrite E; eexists). apply elem_of_app. left. by eapply Hin.
      - rewrite ostep_ev in Hy by done. destruct (decide (prim x = k)) as [<-|]; [rewrite lookup_insert in Hy; injection Hy as <-; apply elem_of_app; right; left|].
        rewrite lookup_insert_ne in Hy by done. apply elem_of_app. left. by eapply Hin. }
    split; [done|]. intros l1 l2 Hnd Hl Hle Hno.
    assert (E : t_ev s !! prim x = None).
    { destruct (t_ev s !! prim x) as [y|] eqn:E; [|done]. pose proof (proj1 Hsi _ _ E) as Hp. specialize (Hin _ _ E).
      rewrite map_app in Hnd. apply NoDup_app in Hnd as (_ & Hd & _). destruct (Hd (prim y)); [apply elem_of_list_fmap; by exists y|]. rewrite Hp. cbn. left. }
    rewrite (ostep_sig db s x E). destruct (decide (l2 = [])) as [->|Hl2].
    - apply app_inj_tail in Hl as [<- ->]. unfold signs in Hs. unfold is_reset in Hr. destruct (o_body e) as [kd key' kt| | | | |] eqn:Eb; try done.
      apply andb_prop in Hs as [E1 E2]. apply N.eqb_eq in E1. apply bool_decide_eq_true in E2 as ->. subst f. unfold index_signer. cbn [t_sig with_ev].
      destruct (decide (kd = SReset)) as [->|Hk]; [done|].
      destruct (t_sig s !! (fidk (o_fid e), key)) as [k0|] eqn:E0; [|cbn; by rewrite lookup_insert].
      destruct (proj1 (proj2 Hsi) _ _ _ E0) as (e0 & He0 & Hs0 & _). unfold deref. cbn [option_bind mbind]. cbn [t_ev with_ev].
      rewrite lookup_insert_ne by (intros <-; congruence). rewrite He0.
      specialize (Hle e0 (Hin _ _ He0) Hs0). replace (o_block e <? o_block e0) with false by (symmetry; apply N.ltb_ge; lia).
      replace (same_block_keeps kd kd) with false by (by destruct kd). cbn. by rewrite lookup_insert.
    - destruct (exists_last Hl2) as (l2' & x' & ->). rewrite app_comm_cons, app_assoc in Hl. apply app_inj_tail in Hl as [-> <-].
      assert (Hx : signs f key x = false) by (apply Hno, elem_of_app; right; left).
      assert (IH : t_sig s !! (f, key) = Some (prim e)).
      { apply (HP l1 l2'); [|done|done|].
        - rewrite map_app in Hnd. by apply NoDup_app in Hnd as (Hd & _ & _).
        - intros y Hy. apply Hno, elem_of_app. by left. }
      destruct (o_body x) as [kd key' kt| | | | |] eqn:Eb; try done.
      assert (Hne : (fidk (o_fid x), key') <> (f, key)).
      { intros [= <- <-]. unfold signs in Hx. rewrite Eb, N.eqb_refl in Hx. cbn in Hx. by apply bool_decide_eq_false in Hx. }
      unfold index_signer. destruct (match deref _ _ with Some _ => _ | None => _ end); [done|].
      destruct (decide (kd = SReset)); [destruct (first_add db (o_fid x) key'); [by rewrite lookup_insert_ne|done]|by rewrite lookup_insert_ne].
  Qed.
End P.

(** *** Subscriptions *)

(** Purchases of a tier made by [now], as (time, days). *)
Definition purchases (tier now : N) (l : list oev) : list (N * N) :=
  omap (fun e => match o_body e with BTier t d => if (t =? tier) && (o_ts e <=? now) then Some (o_ts e, d) else None | _ => None end) l.
Definition total_days (l : list (N * N)) : N := foldr (fun p acc => p.2 + acc) 0 l.
(** The subscription runs until the latest of: a purchase time plus all the days bought from then on. *)
Fixpoint best_run (l : list (N * N)) : N :=
  match l with [] => 0 | p :: r => N.max (p.1 + 86400 * total_days l) (best_run r) end.
Definition by_time (l : list oev) : Prop := StronglySorted (fun a b => o_ts a <= o_ts b) l.

Lemma purchases_late tier now l : (forall e, e ∈ l -> now < o_ts e) -> purchases tier now l = [].
Proof.
  induction l as [|e l IH]; intros H; [done|]. unfold purchases in *. cbn. rewrite IH by (intros x Hx; apply H; by right).
  destruct (o_body e); try done. assert (now < o_ts e) by (apply H; left). replace (o_ts e <=? now) with false by (symmetry; apply N.leb_gt; lia). by rewrite andb_false_r.
Qed.
Lemma purchases_cons tier now e l : purchases tier now (e :: l) =
  match o_body e with BTier t d => if (t =? tier) && (o_ts e <=? now) then (o_ts e, d) :: purchases tier now l else purchases tier now l | _ => purchases tier now l end.
Proof. unfold purchases. cbn. destruct (o_body e); try done. by destruct (_ && _). Qed.
Lemma tier_fold_run tier now l acc : by_time l ->
  tier_fold tier (Some now) acc l = N.max (acc + 86400 * total_days (purchases tier now l)) (best_run (purchases tier now l)).
Proof.
  intros Hs. revert acc. induction Hs as [|e l Hs IH Hf]; intros acc; [cbn; lia|]. rewrite purchases_cons. cbn [tier_fold].
  destruct (o_body e) as [| |t d| | |]; try apply IH. destruct (N.eqb_spec t tier) as [->|]; cbn [andb]; [|apply IH].
  destruct (N.ltb_spec now (o_ts e)) as [Hlt|Hge].
  - replace (o_ts e <=? now) with false by (symmetry; apply N.leb_gt; lia).
    rewrite purchases_late; [cbn; lia|]. intros x Hx. rewrite Forall_forall in Hf. specialize (Hf x Hx). lia.
  - replace (o_ts e <=? now) with true by (symmetry; apply N.leb_le; lia). rewrite IH. cbn [best_run total_days foldr fst snd]. fold (total_days (purchases tier now l)). lia.
Qed.
