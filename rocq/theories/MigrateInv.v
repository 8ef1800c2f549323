(** The invariant of the by-address migration under interleaving, and its termination. *)
From Coq Require Import ZifyN ZifyNat ZifyBool.
From Verif Require Export MigrateProofs.
#[local] Open Scope N_scope.

Section Inv.
  Variable ev : bytes -> option (option N).
  Variable chunk : N.
  Notation wf := (wf ev).
  Notation live_ok := (live_ok ev).
  Notation m2_step := (m2_step ev chunk).

  (** A primary entry without its index entry; a slot of the old form. *)
  Definition unidx (db : kv bytes) (f : N) (a : bytes) : Prop :=
    exists v, f < 2 ^ 32 /\ db !! adds_key f a = Some v /\ db !! by_key a f <> Some v.
  Definition slot (db : kv bytes) (k : bytes) : Prop := exists v, db !! k = Some v /\ legacy k v.
  Definition complete (db : kv bytes) : Prop := forall f a, ~ unidx db f a.

  Definition pinv (db : kv bytes) (p : phase) : Prop :=
    match p with
    | MIter lst q => queue_ok lst q /\ forall f a, unidx db f a -> pending lst q f
    | MFid f q => queue_ok f q /\ forall g a, unidx db g a -> g = f \/ pending f q g
    | MAddrs f q l => queue_ok f q /\ forall g a, unidx db g a -> (g = f /\ a ∈ l) \/ pending f q g
    | MSweep from => complete db /\ ble [RP_VerByAddress] from = true /\ forall k, slot db k -> ble from k = true
    | MDel l => complete db /\ l <> [] /\ (forall k, k ∈ l -> exists a, k = RP_VerByAddress :: a /\ addr_ok a = true) /\
        forall k, slot db k -> k ∈ l \/ (chunk <= N.of_nat (length l) /\ exists m, last l = Some m /\ blt m k = true)
    | MDone => complete db /\ forall k, ~ slot db k
    | MFail => True
    end.

  (** Less left to do: anything that holds less unindexed entries and slots keeps the invariant. *)
  Lemma pinv_mono db db' p : (forall f a, unidx db' f a -> unidx db f a) -> (forall k, slot db' k -> slot db k) -> pinv db p -> pinv db' p.
  Proof.
    intros Hu Hs. unfold complete. destruct p; cbn [pinv]; unfold complete.
    - intros [H1 H2]. split; [done|]. eauto.
    - intros [H1 H2]. split; [done|]. eauto.
    - intros [H1 H2]. split; [done|]. eauto.
    - intros (H1 & H2 & H3). split; [|split; [done|]]; eauto.
      intros f a H. by apply (H1 f a), Hu.
    - intros (H1 & H2 & H3 & H4). split; [intros f a H; by apply (H1 f a), Hu|]. split; [done|]. split; [done|]. eauto.
    - intros [H1 H2]. split; [intros f a H; by apply (H1 f a), Hu|]. intros k H. by apply (H2 k), Hs.
    - done.
  Qed.

  Lemma slot_head db k : slot db k -> exists a, k = RP_VerByAddress :: a /\ addr_ok a = true.
  Proof. intros (v & _ & _ & a & H). by exists a. Qed.

  (** Areas of the database. *)
  Definition area (k : bytes) : Prop := exists x r, k = x :: r /\ (x = RP_User \/ x = RP_OnChain \/ x = RP_VerByAddress).
  Lemma area_adds f a : area (adds_key f a).
  Proof. destruct (adds_cons f a) as [r ->]. exists RP_User, r. auto. Qed.
  Lemma area_reg f r : area (reg_row f r).
  Proof. destruct (reg_cons f r) as [x ->]. exists RP_OnChain, x. auto. Qed.
  Lemma area_by r : area (RP_VerByAddress :: r).
  Proof. exists RP_VerByAddress, r. auto. Qed.
  Lemma area_regp k : is_prefix reg_prefix k = true -> area k.
  Proof. intros [r ->]%reg_prefix_head. exists RP_OnChain, r. auto. Qed.

  Lemma frame db db' : (forall k, area k -> db' !! k = db !! k) -> keys_ok db' -> wf db ->
    wf db' /\ (forall f a, unidx db' f a -> unidx db f a) /\ (forall k, slot db' k -> slot db k).
  Proof.
    intros Hf Hk [W1 W2 W3 W4]. split; [split; [done|..]|split].
    - intros k v Hdb Hp. rewrite Hf in Hdb by by apply area_regp. destruct (W2 k v Hdb Hp) as (f & rest & H1 & H2 & H3 & rest' & v' & H4 & H5 & H6).
      exists f, rest. split; [done|]. split; [done|]. split; [done|]. exists rest', v'. rewrite Hf by apply area_reg. done.
    - intros fid r v Hlt Hdb. rewrite Hf in Hdb by apply area_adds. destruct (W3 fid r v Hlt Hdb) as (H1 & H2 & H3 & rest & w & H4 & H5).
      split; [done|]. split; [done|]. split; [done|]. exists rest, w. rewrite Hf by apply area_reg. done.
    - intros k v Hdb. rewrite Hf in Hdb by apply area_by. destruct (W4 k v Hdb) as [H|(fid & a & H1 & H2 & H3 & H4)]; [by left|right].
      exists fid, a. rewrite Hf by apply area_adds. done.
    - intros f a (v & H1 & H2 & H3). exists v. rewrite Hf in H2 by apply area_adds. unfold by_key in *. rewrite Hf in H3 by apply area_by. done.
    - intros k (v & H1 & H2). pose proof H2 as (_ & a & -> & _). exists v. rewrite Hf in H1 by apply area_by. done.
  Qed.

  (** ** Batches of the engine *)
  Lemma registered_commit db t f : live_ok db t -> registered ev db f -> registered ev (commit db t) f.
  Proof.
    intros L [Hok (rest & v & Hdb & Hev)]. split; [done|]. exists rest, v. split; [|done]. rewrite lookup_commit. unfold tget.
    pose proof (reg_row_prefix f rest) as Hp. destruct (t !! reg_row f rest) as [[w|]|] eqn:Et; [|by destruct (lo_keep _ _ _ L _ Hp)|done].
    f_equal. by apply (lo_same _ _ _ L _ w v Hp).
  Qed.
  Lemma live_step db t : wf db -> live_ok db t ->
    wf (commit db t) /\ (forall f a, unidx (commit db t) f a -> unidx db f a) /\ (forall k, slot (commit db t) k -> slot db k).
  Proof.
    intros [W1 W2 W3 W4] L. split; [split|split].
    - intros k v. rewrite lookup_commit. unfold tget. destruct (t !! k) as [[w|]|] eqn:Et; [|done|apply W1]. intros _. by apply (lo_keys _ _ _ L k w).
    - apply L.
    - intros fid r v Hlt. rewrite lookup_commit. unfold tget. destruct (t !! adds_key fid r) as [[w|]|] eqn:Et; [|done|].
      + intros [= <-]. by apply (lo_adds _ _ _ L).
      + intros Hdb. destruct (W3 fid r v Hlt Hdb) as (H1 & H2 & H3). split; [done|]. split; [done|]. by apply registered_commit.
    - intros k v. rewrite lookup_commit. unfold tget at 1. destruct (t !! (RP_VerByAddress :: k)) as [[w|]|] eqn:Et; [|done|].
      + intros [= <-]. right. destruct (lo_index _ _ _ L k _ Et) as (fid & a & H1 & H2 & H3). exists fid, a. split; [done|]. split; [done|]. split; [done|].
        rewrite lookup_commit. unfold tget. rewrite <- (lo_pair _ _ _ L) by done. rewrite <- H3, Et. done.
      + intros Hdb. destruct (W4 k v Hdb) as [H|(fid & a & H1 & H2 & H3 & H4)]; [by left|right]. exists fid, a. split; [done|]. split; [done|]. split; [done|].
        rewrite lookup_commit. unfold tget. rewrite <- (lo_pair _ _ _ L) by done. rewrite <- H3, Et. done.
    - intros f a (v & Hlt & Hdb & Hby). rewrite lookup_commit in Hdb, Hby. unfold tget in *. destruct (t !! adds_key f a) as [x|] eqn:Et.
      + destruct x as [w|]; [|done]. injection Hdb as ->. destruct (lo_adds _ _ _ L f a v Hlt Et) as (Ha & _). rewrite (lo_pair _ _ _ L), Et in Hby by done. done.
      + destruct (W3 f a v Hlt Hdb) as (Ha & _). rewrite (lo_pair _ _ _ L), Et in Hby by done. by exists v.
    - intros k (v & Hdb & Hl). exists v. split; [|done]. destruct Hl as (_ & a & -> & Ha). rewrite lookup_commit in Hdb. unfold tget in Hdb.
      destruct (t !! (RP_VerByAddress :: a)) as [x|] eqn:Et; [|done]. destruct (lo_index _ _ _ L a _ Et) as (fid & b & _ & Hb & E).
      exfalso. by apply (by_key_slot b fid a).
  Qed.

  (** ** The steps of m2 *)
  Lemma serial_m2 db f a : serial db (m2_prog f a) =
    match db !! adds_key f a with Some v => if blen v =? TS_LEN then commit db (<[by_key a f := Some v]> ∅) else db | None => db end.
  Proof.
    unfold serial, m2_prog. cbn [run_from]. rewrite tget_empty. destruct (db !! adds_key f a) as [v|]; cbn [run_from].
    - destruct (blen v =? TS_LEN); cbn [run_from]; [done|apply commit_empty].
    - apply commit_empty.
  Qed.
  Lemma backfill_step db f a : wf db -> f < 2 ^ 32 -> let db' := serial db (m2_prog f a) in
    wf db' /\ (forall g b, unidx db' g b -> unidx db g b /\ (g = f -> b <> a)) /\ (forall k, slot db' k -> slot db k).
  Proof.
    intros W Hlt. cbv zeta. rewrite serial_m2. destruct (db !! adds_key f a) as [v|] eqn:Ea.
    2:{ split; [done|]. split; [|done]. intros g b H. split; [done|]. intros -> ->. destruct H as (w & _ & H & _). congruence. }
    destruct (wf_adds _ _ W f a v Hlt Ea) as (Ha & Hv & Hreg). rewrite (proj2 (N.eqb_eq _ _)) by (rewrite Hv; done).
    set (db' := commit db _).
    assert (Hby : db' !! by_key a f = Some v). { unfold db'. rewrite lookup_commit. unfold tget. by rewrite lookup_insert. }
    assert (Hne : forall k, k <> by_key a f -> db' !! k = db !! k).
    { intros k Hk. unfold db'. rewrite lookup_commit. unfold tget. by rewrite lookup_insert_ne, lookup_empty. }
    assert (Had : forall g b, db' !! adds_key g b = db !! adds_key g b).
    { intros g b. apply Hne. destruct (adds_cons g b) as [r ->]. unfold by_key. done. }
    assert (Hre : forall g r, db' !! reg_row g r = db !! reg_row g r).
    { intros g r. apply Hne. destruct (reg_cons g r) as [x ->]. unfold by_key. done. }
    destruct W as [W1 W2 W3 W4]. split; [split|split].
    - intros k w Hk. destruct (decide (k = by_key a f)) as [->|Hk']; [by apply by_key_bytes|]. rewrite Hne in Hk by done. by apply (W1 k w).
    - intros k w Hdb Hp. rewrite Hne in Hdb. 2:{ destruct (reg_prefix_head k Hp) as [r ->]. unfold by_key. done. }
      destruct (W2 k w Hdb Hp) as (g & rest & H1 & H2 & H3 & rest' & v' & H4 & H5 & H6).
      exists g, rest. split; [done|]. split; [done|]. split; [done|]. exists rest', v'. rewrite Hre. done.
    - intros fid r w Hl Hdb. rewrite Had in Hdb. destruct (W3 fid r w Hl Hdb) as (H1 & H2 & H3 & rest & u & H4 & H5).
      split; [done|]. split; [done|]. split; [done|]. exists rest, u. rewrite Hre. done.
    - intros k w Hdb. destruct (decide (RP_VerByAddress :: k = by_key a f)) as [E|Hk].
      + right. rewrite E, Hby in Hdb. injection Hdb as <-. exists f, a. rewrite Had. done.
      + rewrite Hne in Hdb by done. destruct (W4 k w Hdb) as [H|(fid & b & H1 & H2 & H3 & H4)]; [by left|right]. exists fid, b. rewrite Had. done.
    - intros g b (w & H1 & H2 & H3). rewrite Had in H2. destruct (decide (by_key b g = by_key a f)) as [E|Hk].
      + apply by_key_inj in E as [-> ->]; [|done..]. rewrite Hby in H3. congruence.
      + rewrite Hne in H3 by done. split; [by exists w|]. intros -> ->. done.
    - intros k (w & H1 & H2). exists w. split; [|done]. rewrite Hne in H1; [done|]. destruct H2 as (_ & b & -> & Hb). intros E. by apply (by_key_slot a f b).
  Qed.
  Lemma delete_step db l : wf db -> complete db -> (forall k, k ∈ l -> exists a, k = RP_VerByAddress :: a /\ addr_ok a = true) ->
    let db' := commit db (deletes l) in wf db' /\ complete db' /\ (forall k, slot db' k -> slot db k /\ k ∉ l).
  Proof.
    intros W Hc Hl. cbv zeta. set (db' := commit db (deletes l)).
    assert (Hdb : forall k, db' !! k = if decide (k ∈ l) then None else db !! k) by (intros; apply commit_deletes).
    assert (Had : forall g b, db' !! adds_key g b = db !! adds_key g b).
    { intros g b. rewrite Hdb. destruct (decide _) as [Hin|_]; [|done]. destruct (Hl _ Hin) as (a & E & _). destruct (adds_cons g b) as [r Er]. by rewrite Er in E. }
    assert (Hre : forall g r, db' !! reg_row g r = db !! reg_row g r).
    { intros g b. rewrite Hdb. destruct (decide _) as [Hin|_]; [|done]. destruct (Hl _ Hin) as (a & E & _). destruct (reg_cons g b) as [r Er]. by rewrite Er in E. }
    assert (Hsub : forall k v, db' !! k = Some v -> db !! k = Some v) by (intros k v; rewrite Hdb; by destruct (decide _)).
    destruct W as [W1 W2 W3 W4]. split; [split|split].
    - intros k v H. apply (W1 k v). by apply Hsub.
    - intros k v H Hp. apply Hsub in H. destruct (W2 k v H Hp) as (g & rest & H1 & H2 & H3 & rest' & v' & H4 & H5 & H6).
      exists g, rest. split; [done|]. split; [done|]. split; [done|]. exists rest', v'. rewrite Hre. done.
    - intros fid r w Hlt H. rewrite Had in H. destruct (W3 fid r w Hlt H) as (H1 & H2 & H3 & rest & u & H4 & H5).
      split; [done|]. split; [done|]. split; [done|]. exists rest, u. rewrite Hre. done.
    - intros k w H. apply Hsub in H. destruct (W4 k w H) as [H0|(fid & b & H1 & H2 & H3 & H4)]; [by left|right]. exists fid, b. rewrite Had. done.
    - intros f a (v & H1 & H2 & H3). rewrite Had in H2. apply (Hc f a). exists v. split; [done|]. split; [done|]. intros H. apply H3. rewrite Hdb.
      destruct (decide _) as [Hin|_]; [|done]. destruct (Hl _ Hin) as (b & E & Hb). destruct (W3 f a v H1 H2) as (Ha & _). by destruct (by_key_slot a f b Ha Hb).
    - intros k (v & H1 & H2). rewrite Hdb in H1. destruct (decide (k ∈ l)); [done|]. split; [by exists v|done].
  Qed.

  Lemma unidx_registered db f a : wf db -> unidx db f a -> registered ev db f.
  Proof. intros W (v & H1 & H2 & _). by apply (wf_adds _ _ W f a v). Qed.

  Lemma m2_step_inv db p : wf db -> pinv db p -> let '(db', p') := m2_step db p in wf db' /\ pinv db' p' /\ (complete db -> complete db') /\ (forall k, slot db' k -> slot db k).
  Proof.
    intros W P. destruct p as [lst q|f q|f q [|a l]|from|l| |]; cbn [Migrate.m2_step]; cbn [pinv] in P.
    - destruct P as [Hq Hp]. pose proof (next_spec ev db lst q (wf_regs _ _ W) Hq) as Hn. destruct (next ev db lst q) as [f q'| |].
      + destruct Hn as (Hlt & Hq' & _ & _ & Hpend). split; [done|]. split; [|done]. split; [done|]. intros g a Hu. apply Hpend; [|by apply (Hp g a)]. by eapply unidx_registered.
      + destruct Hn as [_ Hn]. split; [done|]. split; [|done]. split.
        * intros g a Hu. apply (Hn g); [by eapply unidx_registered|by apply (Hp g a)].
        * split; [done|]. intros k Hs. apply slot_head in Hs as (a & -> & _). apply (ble_app [RP_VerByAddress] a).
      + done.
    - destruct P as [Hq Hp]. destruct (addresses_spec db f) as (l & -> & Hl). split; [done|]. split; [|done]. split; [done|].
      intros g a Hu. destruct (Hp g a Hu) as [->|H]; [left|by right]. split; [done|]. apply Hl. destruct Hu as (v & H1 & H2 & _).
      split; [|by exists v]. intros ->. by destruct (wf_adds _ _ W f [] v H1 H2) as (H & _).
    - destruct P as [Hq Hp]. split; [done|]. split; [|done]. split; [done|]. intros g a Hu. destruct (Hp g a Hu) as [[_ H]|H]; [by apply elem_of_nil in H|done].
    - destruct P as [Hq Hp]. assert (Hlt : f < 2 ^ 32). { destruct Hq as [_ Hb]. apply Forall_cons in Hb as [Hb _]. lia. }
      destruct (backfill_step db f a W Hlt) as (W' & Hu & Hs). split; [done|]. split; [|split; [|done]].
      + split; [done|]. intros g b H. apply Hu in H as [H Hn]. destruct (Hp g b H) as [[-> Hin]|H']; [|by right]. left. split; [done|].
        apply elem_of_cons in Hin as [->|Hin]; [by destruct Hn|done].
      + intros Hc g b H. apply Hu in H as [H _]. by apply (Hc g b).
    - destruct P as (Hc & Hf & Hp). destruct (sweep_spec chunk db from Hf) as (l & -> & H1 & H2).
      assert (Hslot : forall k, slot db k -> k ∈ l \/ (chunk <= N.of_nat (length l) /\ exists m, last l = Some m /\ blt m k = true)).
      { intros k Hs. pose proof (Hp k Hs) as Hle. destruct Hs as (v & Hdb & Hv & a & -> & Ha). by apply (H2 a v). }
      destruct l as [|x l].
      + split; [done|]. split; [|done]. split; [done|]. intros k Hs. destruct (Hslot k Hs) as [H|(_ & m & H & _)]; [by apply elem_of_nil in H|done].
      + split; [done|]. split; [|done]. split; [done|]. split; [done|]. split; [|done]. intros k Hin. destruct (H1 k Hin) as (r & v & -> & _ & Hdb & Hv).
        destruct (wf_index _ _ W r v Hdb) as [(_ & a & E & Ha)|(fid & a & Hf' & Ha & E & Hadd)]; [by exists a|].
        exfalso. destruct (wf_adds _ _ W fid a v Hf' Hadd) as (_ & Hv' & _). lia.
    - destruct P as (Hc & Hne & Hk & Hp). destruct (delete_step db l W Hc Hk) as (W' & Hc' & Hs). split; [done|]. split; [|split; [done|]].
      + assert (Hm : exists m, last l = Some m). { destruct l as [|x l] using rev_ind; [done|]. rewrite last_snoc. eauto. } destruct Hm as [m Em].
        destruct (N.leb_spec chunk (N.of_nat (length l))) as [Hch|Hch].
        * rewrite Em. split; [done|]. assert (Hhead : ble [RP_VerByAddress] m = true).
          { destruct (Hk m) as (a & -> & _); [by apply last_Some_elem_of|]. apply (ble_app [RP_VerByAddress] a). }
          split. { eapply ble_trans; [exact Hhead|]. apply ble_app. }
          intros k H. apply Hs in H as [H Hn]. destruct (Hp k H) as [?|(_ & m' & Em' & Hlt)]; [done|]. rewrite PagingProofs.blt_snoc0. congruence.
        * split; [done|]. intros k H. apply Hs in H as [H Hn]. destruct (Hp k H) as [?|(H' & _)]; [done|lia].
      + intros k H. by apply Hs in H as [H _].
    - done.
    - done.
  Qed.

  (** m2 writes below the by-address prefix only. *)
  Lemma m2_step_frame db p k : pinv db p -> (forall r, k <> RP_VerByAddress :: r) -> (m2_step db p).1 !! k = db !! k.
  Proof.
    intros P Hk. destruct p as [lst q|f q|f q [|a l]|from|l| |]; cbn [Migrate.m2_step]; try done.
    - by destruct (next ev db lst q).
    - by destruct (addresses db f).
    - cbn [fst]. rewrite serial_m2. destruct (db !! adds_key f a) as [v|]; [|done]. destruct (blen v =? TS_LEN); [|done].
      rewrite lookup_commit. unfold tget. rewrite lookup_insert_ne, lookup_empty; [done|]. unfold by_key. intros E. by apply (Hk (a ++ make_fid_key f)).
    - destruct (sweep chunk db from) as [[|]| |]; done.
    - cbn [fst]. rewrite commit_deletes. destruct (decide (k ∈ l)) as [Hin|]; [|done]. destruct P as (_ & _ & H & _). destruct (H k Hin) as (a & -> & _). by destruct (Hk a).
  Qed.
  (** No slot goes before the index is complete. *)
  Lemma m2_step_slots db p k : wf db -> pinv db p -> slot db k -> ~ slot (m2_step db p).1 k -> complete db.
  Proof.
    intros W P Hs Hn. destruct p as [lst q|f q|f q [|a l]|from|l| |]; cbn [Migrate.m2_step] in Hn; try done.
    - by destruct (next ev db lst q).
    - by destruct (addresses db f).
    - exfalso. apply Hn. cbn [fst]. rewrite serial_m2. destruct (db !! adds_key f a) as [v|] eqn:Ea; [|done]. destruct (N.eqb_spec (blen v) TS_LEN) as [Hv|]; [|done].
      destruct (decide (by_key a f = k)) as [E|Hne].
      + exfalso. assert (Hlt : f < 2 ^ 32). { destruct P as [[_ Hb] _]. apply Forall_cons in Hb as [Hb _]. lia. }
        destruct (wf_adds _ _ W f a v Hlt Ea) as (Ha & _). apply slot_head in Hs as (b & -> & Hb). by apply (by_key_slot a f b).
      + destruct Hs as (w & H1 & H2). exists w. split; [|done]. rewrite lookup_commit. unfold tget. by rewrite lookup_insert_ne, lookup_empty.
    - by destruct P as (Hc & _).
    - by destruct P as (Hc & _).
  Qed.

  (** ** The goal *)
  Lemma mirrors_intro db : wf db -> complete db -> (forall k, ~ slot db k) -> mirrors db.
  Proof.
    intros W Hc Hs k v. split.
    - intros Hdb. destruct (wf_index _ _ W k v Hdb) as [Hl|H]; [|done]. exfalso. apply (Hs (RP_VerByAddress :: k)). by exists v.
    - intros (f & a & Hlt & Ha & -> & Hdb). destruct (decide (db !! by_key a f = Some v)) as [?|Hne]; [done|]. exfalso. apply (Hc f a). by exists v.
  Qed.
  Lemma mirrors_elim db : wf db -> mirrors db -> complete db /\ forall k, ~ slot db k.
  Proof.
    intros W M. split.
    - intros f a (v & Hlt & Hdb & Hn). apply Hn. unfold by_key. apply M. exists f, a. destruct (wf_adds _ _ W f a v Hlt Hdb) as (Ha & _). done.
    - intros k (v & Hdb & Hv & a & -> & Ha). apply M in Hdb as (f & b & Hlt & Hb & E & Hdb). destruct (wf_adds _ _ W f b v Hlt Hdb) as (_ & Hv' & _). lia.
  Qed.
  Lemma never_wrong_intro db : wf db -> never_wrong db.
  Proof. intros W k v Hdb Hv. destruct (wf_index _ _ W k v Hdb) as [[Hv' _]|H]; [lia|done]. Qed.

  (** ** The runner *)
  Definition ginv (s : gstate) : Prop := wf (g_db s) /\ (2 <= schema_version (g_db s) -> mirrors (g_db s)) /\
    match g_run s with R2 p => pinv (g_db s) p | _ => True end.

  Lemma schema_set db v : v < 2 ^ 32 -> schema_version (set_schema db v) = v.
  Proof. intros Hv. unfold schema_version, set_schema. rewrite lookup_insert, be_length. cbn [Nat.eqb]. by apply be_dec_be. Qed.
  Lemma schema_frame db db' : db' !! schema_key = db !! schema_key -> schema_version db' = schema_version db.
  Proof. unfold schema_version. by intros ->. Qed.
  Lemma schema_flag db v b : schema_version (set_flag db v b) = schema_version db.
  Proof. apply schema_frame. unfold set_flag. by rewrite lookup_insert_ne. Qed.
  Lemma area_13 r : ~ area (RP_Schema :: r).
  Proof. intros (x & r' & [= <- _] & [H|[H|H]]); done. Qed.
  Lemma area_15 r : ~ area (15 :: r).
  Proof. intros (x & r' & [= <- _] & [H|[H|H]]); done. Qed.
  Lemma wf_put db r v : wf db -> bytes_ok (RP_Schema :: r) = true -> let db' := <[RP_Schema :: r := v]> db in
    wf db' /\ (forall f a, unidx db' f a -> unidx db f a) /\ (forall k, slot db' k -> slot db k).
  Proof.
    intros W Hb. apply frame; [| |done].
    - intros k Ha. rewrite lookup_insert_ne; [done|]. intros <-. by apply area_13 in Ha.
    - intros k w. destruct (decide (RP_Schema :: r = k)) as [<-|Hne]; [done|]. rewrite lookup_insert_ne by done. apply (wf_keys _ _ W).
  Qed.
  Lemma flag_bytes v : bytes_ok (flag_key v) = true.
  Proof. cbn. rewrite andb_true_r. apply N.ltb_lt, N.mod_lt. done. Qed.
  Lemma wf_flag db v b : wf db -> let db' := set_flag db v b in
    wf db' /\ (forall f a, unidx db' f a -> unidx db f a) /\ (forall k, slot db' k -> slot db k).
  Proof. intros W. by apply wf_put; [|apply flag_bytes]. Qed.
  Lemma mirrors_less db db' : wf db -> wf db' -> (forall f a, unidx db' f a -> unidx db f a) -> (forall k, slot db' k -> slot db k) -> mirrors db -> mirrors db'.
  Proof.
    intros W W' Hu Hs M. apply mirrors_elim in M as [Hc Hn]; [|done]. apply mirrors_intro; [done| |].
    - intros f a H. by apply (Hc f a), Hu.
    - intros k H. by apply (Hn k), Hs.
  Qed.
  Lemma m1_step db t : wf db -> m1_ok t ->
    (wf (commit db t) /\ (forall f a, unidx (commit db t) f a -> unidx db f a) /\ (forall k, slot (commit db t) k -> slot db k)) /\
    schema_version (commit db t) = schema_version db.
  Proof.
    intros W M.
    assert (Hk : forall k, (forall r, k <> 15 :: r) -> commit db t !! k = db !! k).
    { intros k Hk. rewrite lookup_commit. unfold tget. destruct (t !! k) as [x|] eqn:Et; [|done]. destruct (M k x Et) as (r & v & E & _). by destruct (Hk r). }
    split; [|apply schema_frame; by apply Hk]. apply frame; [| |done].
    - intros k Ha. apply Hk. intros r ->. by apply area_15 in Ha.
    - intros k v. rewrite lookup_commit. unfold tget. destruct (t !! k) as [x|] eqn:Et; [|apply (wf_keys _ _ W)]. by destruct (M k x Et) as (r & w & _ & _ & H).
  Qed.

  Lemma m2_start_inv db : wf db -> pinv db m2_start.
  Proof.
    intros W. split; [split; repeat constructor|]. intros f a Hu. right. cbn. apply unidx_registered in Hu as [Hf _]; [|done]. apply fid_ok_lt in Hf. lia.
  Qed.

  Lemma g_step_inv s l s' : ginv s -> match l with GLive t => live_ok (g_db s) t | GM1 t => m1_ok t | _ => True end ->
    g_step ev chunk s l = Some s' -> ginv s'.
  Proof.
    intros (W & V & P) Hl E. destruct s as [db v0 run]. cbn [g_db g_run] in *.
    assert (Hflag : forall v b, wf (set_flag db v b) /\ (2 <= schema_version (set_flag db v b) -> mirrors (set_flag db v b)) /\
      forall p, pinv db p -> pinv (set_flag db v b) p).
    { intros v b. destruct (wf_flag db v b W) as (W' & Hu & Hs). split; [done|]. split.
      - rewrite schema_flag. intros H. by apply (mirrors_less db); [..|apply V].
      - intros p. by apply pinv_mono. }
    destruct l as [| |t|t|[|]|]; cbn [g_step g_run g_db g_from] in E.
    - destruct run; try done. injection E as <-. unfold g_start. cbn [g_db]. destruct (N.leb_spec LATEST_SCHEMA (schema_version db)); [done|].
      destruct (Hflag (schema_version db) true) as (W' & V' & P'). split; [done|]. split; [done|]. cbn [g_run g_db].
      destruct (schema_version db =? 0); [done|]. by apply m2_start_inv.
    - injection E as <-. done.
    - destruct (live_step db t W Hl) as (W' & Hu & Hs). assert (Hv : schema_version (commit db t) = schema_version db).
      { apply schema_frame. rewrite lookup_commit. unfold tget, schema_key. by rewrite (lo_schema _ _ _ Hl). }
      assert (s' = GState (commit db t) v0 run) as -> by (destruct run; congruence). split; [done|]. cbn [g_db g_run]. split.
      + rewrite Hv. intros H. by apply (mirrors_less db); [..|apply V].
      + destruct run; [done|done|]. by eapply pinv_mono.
    - destruct run; try done. injection E as <-. destruct (m1_step db t W Hl) as ((W' & Hu & Hs) & Hv). split; [done|]. cbn [g_db g_run]. split; [|done].
      rewrite Hv. intros H. by apply (mirrors_less db); [..|apply V].
    - destruct run; try done. injection E as <-. destruct (wf_put db [] (be 4 1) W eq_refl) as (W' & Hu & Hs). split; [done|]. cbn [g_db g_run]. split.
      + rewrite schema_set by done. lia.
      + by apply m2_start_inv.
    - destruct run; try done. injection E as <-. destruct (Hflag v0 false) as (W' & V' & _). done.
    - destruct run as [| |p]; try done.
      assert (HM : (p = MDone /\ s' = GState (set_flag (set_schema db 2) v0 false) v0 RIdle) \/ (p = MFail /\ s' = GState (set_flag db v0 false) v0 RIdle) \/
        s' = GState (m2_step db p).1 v0 (R2 (m2_step db p).2)).
      { destruct p; [..|left; split; [done|congruence]|right; left; split; [done|congruence]].
        all: right; right; match type of E with (let '(_, _) := ?x in _) = _ => destruct x as [db' p'] eqn:Em end; cbn [fst snd]; congruence. }
      clear E. destruct HM as [[-> ->]|[[-> ->]| ->]].
      + destruct P as [Hc Hn]. pose proof (mirrors_intro db W Hc Hn) as M.
        destruct (wf_put db [] (be 4 2) W eq_refl) as (W' & Hu & Hs). destruct (wf_flag (set_schema db 2) v0 false W') as (W'' & Hu' & Hs').
        split; [done|]. split; [|done]. cbn [g_db]. intros _. apply (mirrors_less (set_schema db 2)); [done..|]. by apply (mirrors_less db).
      + destruct (Hflag v0 false) as (W' & V' & _). done.
      + pose proof (m2_step_inv db p W P) as H. pose proof (m2_step_frame db p schema_key P ltac:(done)) as Hf.
        destruct (m2_step db p) as [db' p']. destruct H as (W' & P' & Hc & Hs). cbn [fst snd] in *. split; [done|]. cbn [g_db g_run]. split; [|done].
        rewrite (schema_frame _ _ Hf). intros H. apply V in H. apply mirrors_elim in H as [H1 H2]; [|done].
        apply mirrors_intro; [done|by apply Hc|]. intros k Hk. by apply (H2 k), Hs.
  Qed.
  Lemma g_run_inv ls : forall s s', ginv s -> allowed ev chunk s ls -> g_run_all ev chunk s ls = Some s' -> ginv s'.
  Proof.
    induction ls as [|l ls IH]; intros s s' H Ha E; cbn [g_run_all allowed] in *; [by injection E as <-|].
    destruct Ha as [Hl Ha]. destruct (g_step ev chunk s l) as [s1|] eqn:Es; [|done]. apply (IH s1 s'); [|done|done]. by eapply g_step_inv.
  Qed.

  (** ** Termination *)
  Fixpoint m2_iter (n : nat) (db : kv bytes) (p : phase) : kv bytes * phase :=
    match n with O => (db, p) | S n => let '(db, p) := m2_step db p in m2_iter n db p end.
  Definition finishes (db : kv bytes) (p : phase) : Prop := exists n, (m2_iter n db p).2 = MDone.
  Lemma finishes_step db p : finishes (m2_step db p).1 (m2_step db p).2 -> finishes db p.
  Proof. intros [n H]. exists (S n). cbn [m2_iter]. by destruct (m2_step db p). Qed.
  Definition decodable (db : kv bytes) : Prop := forall k v, db !! k = Some v -> is_prefix reg_prefix k = true -> ev v <> None.
  Lemma decodable_step db p : pinv db p -> decodable db -> decodable (m2_step db p).1.
  Proof.
    intros P D k v Hdb Hp. rewrite m2_step_frame in Hdb; [by apply (D k v)|done|]. intros r ->. by apply reg_prefix_head in Hp as [x ?].
  Qed.

  Lemma sweep_finishes n : forall db from, (size (dom db : gset bytes) <= n)%nat -> wf db -> pinv db (MSweep from) -> finishes db (MSweep from).
  Proof.
    induction n as [|n IH]; intros db from Hn W P; pose proof P as (_ & Hf & _); destruct (sweep_spec chunk db from Hf) as (l & El & H1 & _);
      (destruct l as [|x l]; [exists 1%nat; cbn [m2_iter Migrate.m2_step]; rewrite El; done|]).
    - exfalso. destruct (H1 x) as (r & v & _ & _ & Hx & _); [by left|].
      assert (Hin : x ∈ (dom db : gset bytes)) by (apply elem_of_dom; eauto). apply Nat.le_0_r, size_empty_inv in Hn. set_solver.
    - apply finishes_step. pose proof (m2_step_inv db _ W P) as H. cbn [Migrate.m2_step] in *. rewrite El in *. cbn [fst snd]. destruct H as (_ & P1 & _).
      apply finishes_step. pose proof (m2_step_inv db _ W P1) as H. cbn [Migrate.m2_step fst snd] in *. destruct H as (W2 & P2 & _).
      destruct (chunk <=? N.of_nat (length (x :: l))); [|by exists 0%nat]. destruct (last (x :: l)) as [m|]; [|by exists 0%nat].
      apply IH; [|done|done]. assert (Hlt : (size (dom (commit db (deletes (x :: l))) : gset bytes) < size (dom db : gset bytes))%nat); [|lia].
      apply subset_size. split.
      + intros k Hk. apply elem_of_dom in Hk as [v Hk]. rewrite commit_deletes in Hk. destruct (decide _); [done|]. apply elem_of_dom. eauto.
      + intros Hsub. destruct (H1 x) as (r & v & _ & _ & Hx & _); [by left|]. assert (Hin : x ∈ (dom db : gset bytes)) by (apply elem_of_dom; eauto).
        apply Hsub, elem_of_dom in Hin as [w Hw]. rewrite commit_deletes, decide_True in Hw by by left. done.
  Qed.
  Lemma del_finishes db l : wf db -> pinv db (MDel l) -> finishes db (MDel l).
  Proof.
    intros W P. apply finishes_step. pose proof (m2_step_inv db _ W P) as H. cbn [Migrate.m2_step fst snd] in *. destruct H as (W2 & P2 & _).
    destruct (chunk <=? N.of_nat (length l)); [|by exists 0%nat]. destruct (last l) as [m|]; [|by exists 0%nat]. by eapply sweep_finishes.
  Qed.
  Lemma addrs_finishes f q : (forall db, wf db -> decodable db -> pinv db (MIter f q) -> finishes db (MIter f q)) ->
    forall l db, wf db -> decodable db -> pinv db (MAddrs f q l) -> finishes db (MAddrs f q l).
  Proof.
    intros Hk l. induction l as [|a l IH]; intros db W D P; apply finishes_step; pose proof (m2_step_inv db _ W P) as H;
      pose proof (decodable_step db _ P D) as D'; cbn [Migrate.m2_step fst snd] in *; destruct H as (W' & P' & _); auto.
  Qed.
  Lemma iter_finishes n : forall db lst q, (N.to_nat (2 ^ 32 - lst) <= n)%nat -> wf db -> decodable db -> pinv db (MIter lst q) -> finishes db (MIter lst q).
  Proof.
    induction n as [|n IH]; intros db lst q Hn W D P.
    { exfalso. destruct P as [[_ Hb] _]. apply Forall_cons in Hb as [Hb _]. clear -Hb Hn. lia. }
    apply finishes_step. pose proof (m2_step_inv db _ W P) as H. pose proof (decodable_step db _ P D) as D'. cbn [Migrate.m2_step] in *.
    pose proof P as [Hq _]. pose proof (next_spec ev db lst q (wf_regs _ _ W) Hq) as Hx. destruct (next ev db lst q) as [f q'| |]; cbn [fst snd] in *.
    - destruct Hx as (Hlt & _). destruct H as (_ & P1 & _). apply finishes_step. pose proof (m2_step_inv db _ W P1) as H. cbn [Migrate.m2_step] in *.
      destruct (addresses_spec db f) as (l & El & _). rewrite El in *. cbn [fst snd] in *. destruct H as (_ & P2 & _).
      apply addrs_finishes; [|done..]. intros db1 W1 D1 P3. apply IH; [|done..]. clear -Hn Hlt. lia.
    - destruct H as (_ & P1 & _). by eapply sweep_finishes.
    - exfalso. destruct Hx as (k & v & H1 & H2 & H3). by apply (D k v).
  Qed.
  Lemma m2_finishes db p : wf db -> decodable db -> p <> MFail -> pinv db p -> finishes db p.
  Proof.
    intros W D Hp P. destruct p as [lst q|f q|f q l|from|l| |].
    - by eapply iter_finishes.
    - apply finishes_step. pose proof (m2_step_inv db _ W P) as H. cbn [Migrate.m2_step] in *.
      destruct (addresses_spec db f) as (l & El & _). rewrite El in *. cbn [fst snd] in *. destruct H as (_ & P2 & _).
      apply addrs_finishes; [|done..]. intros. by eapply iter_finishes.
    - apply addrs_finishes; [|done..]. intros. by eapply iter_finishes.
    - by eapply sweep_finishes.
    - by apply del_finishes.
    - by exists 0%nat.
    - done.
  Qed.

  (** ** A second run changes nothing *)
  Lemma m2_step_idle db p : wf db -> mirrors db -> pinv db p -> (forall l, p <> MDel l) ->
    (m2_step db p).1 = db /\ forall l, (m2_step db p).2 <> MDel l.
  Proof.
    intros W M P Hp. destruct p as [lst q|f q|f q [|a l]|from|l| |]; cbn [Migrate.m2_step]; try done.
    - by destruct (next ev db lst q).
    - by destruct (addresses db f).
    - cbn [fst snd]. split; [|done]. rewrite serial_m2. destruct (db !! adds_key f a) as [v|] eqn:Ea; [|done].
      assert (Hlt : f < 2 ^ 32). { destruct P as [[_ Hb] _]. apply Forall_cons in Hb as [Hb _]. lia. }
      destruct (wf_adds _ _ W f a v Hlt Ea) as (Ha & Hv & _). rewrite (proj2 (N.eqb_eq _ _)) by (rewrite Hv; done).
      apply map_eq. intros k. rewrite lookup_commit. unfold tget. destruct (decide (by_key a f = k)) as [<-|Hne].
      + rewrite lookup_insert. symmetry. unfold by_key. apply M. exists f, a. done.
      + by rewrite lookup_insert_ne, lookup_empty.
    - destruct P as (_ & Hf & _). destruct (sweep_spec chunk db from Hf) as (l & -> & H1 & _). destruct l as [|x l]; [done|]. exfalso.
      destruct (H1 x) as (r & v & -> & _ & Hdb & Hv); [by left|]. apply M in Hdb as (fid & a & Hlt & Ha & _ & Hdb).
      destruct (wf_adds _ _ W fid a v Hlt Hdb) as (_ & Hv' & _). lia.
    - by destruct (Hp l).
  Qed.
  Lemma m2_iter_idle n : forall db p, wf db -> mirrors db -> pinv db p -> (forall l, p <> MDel l) -> (m2_iter n db p).1 = db.
  Proof.
    induction n as [|n IH]; intros db p W M P Hp; cbn [m2_iter]; [done|]. pose proof (m2_step_idle db p W M P Hp) as [E Hn].
    pose proof (m2_step_inv db p W P) as H. destruct (m2_step db p) as [db' p']. cbn [fst snd] in *. subst db'. destruct H as (_ & P' & _). by apply IH.
  Qed.
End Inv.
