(** Proofs about the migrations. *)
From Coq Require Import ZifyN ZifyNat ZifyBool.
From Verif Require Import CodecProofs PagingProofs.
From Verif Require Export MigrateSpec.
#[local] Open Scope N_scope.

(** ** Keys *)
Lemma p432 : 256 ^ N.of_nat 4 = 2 ^ 32.
Proof. done. Qed.
Lemma be4_inj x y : x < 2 ^ 32 -> y < 2 ^ 32 -> be 4 x = be 4 y -> x = y.
Proof. rewrite <- p432. apply be_inj. Qed.
Lemma be4_lex x y : x < 2 ^ 32 -> y < 2 ^ 32 -> lex (be 4 x) (be 4 y) = (x ?= y).
Proof. rewrite <- p432. apply be_lex. Qed.

Lemma adds_key_inj f a f' a' : f < 2 ^ 32 -> f' < 2 ^ 32 -> adds_key f a = adds_key f' a' -> f = f' /\ a = a'.
Proof.
  intros H H'. unfold adds_key, adds_prefix, make_user_key, make_fid_key. cbn [app]. intros E. apply cons_inj in E as [_ E].
  rewrite <- !app_assoc in E. apply app_inj_len in E as [E1 E2]; [|by rewrite !be_length].
  apply be4_inj in E1; [|done..]. injection E2 as ->. done.
Qed.
Lemma addr_len a : addr_ok a = true -> length a = 20%nat \/ length a = 32%nat.
Proof. unfold addr_ok. intros [H _]%andb_prop. apply orb_prop in H as [H|H]; apply Nat.eqb_eq in H; auto. Qed.
Lemma addr_bytes a : addr_ok a = true -> bytes_ok a = true.
Proof. unfold addr_ok. by intros [_ H]%andb_prop. Qed.
Lemma by_key_inj f a f' a' : f < 2 ^ 32 -> f' < 2 ^ 32 -> by_key a f = by_key a' f' -> f = f' /\ a = a'.
Proof.
  intros H H' E. unfold by_key in E. apply cons_inj in E as [_ E].
  assert (Hl : length a = length a'). { apply (f_equal length) in E. rewrite !app_length in E. unfold make_fid_key in E. rewrite !be_length in E. lia. }
  apply app_inj_len in E as [-> E]; [|done]. apply be4_inj in E; done.
Qed.
(** The two forms of keys differ in length. *)
Lemma by_key_slot a f b : addr_ok a = true -> addr_ok b = true -> by_key a f <> RP_VerByAddress :: b.
Proof.
  intros Ha Hb E. unfold by_key in E. apply cons_inj in E as [_ E]. apply (f_equal length) in E.
  rewrite app_length in E. unfold make_fid_key in E. rewrite be_length in E. apply addr_len in Ha, Hb. lia.
Qed.
Lemma by_key_bytes a f : addr_ok a = true -> bytes_ok (by_key a f) = true.
Proof.
  intros Ha. unfold by_key, make_fid_key. change (bytes_ok (RP_VerByAddress :: ?x)) with (true && bytes_ok x).
  rewrite bytes_ok_app, be_ok, addr_bytes; done.
Qed.
Lemma adds_cons f a : exists r, adds_key f a = RP_User :: r.
Proof. unfold adds_key, adds_prefix, make_user_key. cbn [app]. eauto. Qed.
Lemma reg_cons f r : exists x, reg_row f r = RP_OnChain :: x.
Proof. unfold reg_row, reg_prefix. cbn [app]. eauto. Qed.
Lemma reg_row_prefix f r : is_prefix reg_prefix (reg_row f r) = true.
Proof. apply is_prefix_spec. by eexists. Qed.
Lemma reg_prefix_head k : is_prefix reg_prefix k = true -> exists r, k = RP_OnChain :: r.
Proof. intros [r ->]%is_prefix_spec. unfold reg_prefix. cbn [app]. eauto. Qed.
Lemma reg_row_inj f r f' r' : f < 2 ^ 32 -> f' < 2 ^ 32 -> reg_row f r = reg_row f' r' -> f = f' /\ r = r'.
Proof.
  intros H H' E. unfold reg_row in E. apply app_inv_head in E. apply app_inj_len in E as [E ->]; [|by rewrite !be_length].
  apply be4_inj in E; done.
Qed.
Lemma reg_row_lex f r f' r' : f < 2 ^ 32 -> f' < 2 ^ 32 ->
  lex (reg_row f r) (reg_row f' r') = match f ?= f' with Eq => lex r r' | c => c end.
Proof.
  intros H H'. unfold reg_row. rewrite lex_app_l, lex_app by (by rewrite !be_length). rewrite be4_lex by done. done.
Qed.
Lemma fid_ok_lt f : fid_ok f = true -> 1 <= f /\ f < 2 ^ 32 - 1.
Proof. unfold fid_ok. rewrite andb_true_iff, N.leb_le, N.ltb_lt. done. Qed.

(** A scan from a prefix to its successor, when its last byte is not 255. *)
Lemma between_prefix p x k : ble (p ++ [x]) k && blt k (p ++ [x + 1]) = is_prefix (p ++ [x]) k.
Proof.
  apply eq_true_iff_eq. rewrite andb_true_iff, is_prefix_spec, ble_lex, blt_lex. revert k. induction p as [|y p IH]; intros k; cbn [app].
  - destruct k as [|z k]; cbn [lex].
    + split; [by intros [? _]|]. by intros [r ?].
    + split.
      * intros [H1 H2]. destruct (N.compare_spec x z); [subst|..]; [eexists; done| |done].
        destruct (N.compare_spec z (x + 1)) as [->|?|?]; [by destruct k|lia|done].
      * intros [r E]. injection E as -> ->. rewrite N.compare_refl. split; [by destruct r|]. destruct (N.compare_spec x (x + 1)); [lia|done|lia].
  - destruct k as [|z k]; cbn [lex]; [split; [by intros [? _]|by intros [r ?]]|]. rewrite (N.compare_antisym y z).
    destruct (N.compare_spec y z) as [->|?|?]; cbn [CompOpp].
    + rewrite IH. split; intros [r E]; exists r; [by rewrite E|by injection E].
    + split; [by intros [_ ?]|]. intros [r E]. injection E as -> _. lia.
    + split; [by intros [? _]|]. intros [r E]. injection E as -> _. lia.
Qed.
Lemma ble_app p r : ble p (p ++ r) = true.
Proof. apply ble_lex. rewrite <- (app_nil_r p) at 1. rewrite lex_app_l. by destruct r. Qed.

(** ** The FIDIterator *)
Section Fids.
  Variable ev : bytes -> option (option N).
  Notation fetch_cb := (fetch_cb ev).
  Notation fetch := (fetch ev).

  Definition rfid (r : bytes * bytes) : N := be_dec (take 4 (drop 3 r.1)).
  Lemma rfid_row f x v : f < 2 ^ 32 -> rfid (reg_row f x, v) = f.
  Proof.
    intros H. unfold rfid, reg_row, reg_prefix. cbn [fst app]. change (drop 3 (?a :: ?b :: ?c :: ?l)) with l.
    rewrite take_app_alt by (by rewrite be_length). by rewrite be_dec_be.
  Qed.
  Definition row_ok (r : bytes * bytes) : Prop := forall f, ev r.2 = Some (Some f) -> f = rfid r.

  Lemma sorted_last (q : list N) y : StronglySorted N.lt q -> last q = Some y -> Forall (fun x => x <= y) q.
  Proof.
    induction 1 as [|a q Hs IH Hf]; intros E; [done|]. destruct q as [|b q].
    - injection E as ->. by repeat constructor.
    - change (last (b :: q) = Some y) in E. specialize (IH E). constructor; [|done].
      apply Forall_cons in Hf as [Hf _]. apply Forall_cons in IH as [IH _]. lia.
  Qed.
  Lemma sorted_snoc (q : list N) f : StronglySorted N.lt q -> Forall (fun x => x <= f) q -> last q <> Some f -> StronglySorted N.lt (q ++ [f]).
  Proof.
    intros Hs Hf Hl. assert (Hlt : Forall (fun x => x < f) q).
    { destruct (last q) as [y|] eqn:El; [|destruct q as [|z q] using rev_ind; [constructor|by rewrite last_snoc in El]].
      pose proof (sorted_last q y Hs El) as Hy. assert (y ∈ q) as Hin by by apply last_Some_elem_of.
      rewrite Forall_forall in Hf. specialize (Hf y Hin). cbn in Hf. assert (y <> f) by congruence.
      eapply Forall_impl; [exact Hy|]. cbn. intros; lia. }
    clear Hf Hl. induction Hs as [|a q Hs IH Hf]; cbn; [repeat constructor|].
    apply Forall_cons in Hlt as [Ha Hlt]. constructor; [by apply IH|]. apply Forall_app. split; [done|]. by repeat constructor.
  Qed.

  Lemma iter_fetch l : forall c q m, Forall row_ok l -> StronglySorted (fun a b => rfid a <= rfid b) l ->
    StronglySorted N.lt q -> Forall (fun x => Forall (fun r => x <= rfid r) l) q -> m = default 0 (last q) ->
    match iterate fetch_cb (Some FID_PAGE) c l (q, m) with
    | Ok ((q', m'), _) => StronglySorted N.lt q' /\ m' = default 0 (last q') /\
        (exists e, q' = q ++ e /\ Forall (fun f => exists r, r ∈ l /\ rfid r = f /\ ev r.2 = Some (Some f)) e) /\
        (match l with r :: _ => ev r.2 = Some (Some (rfid r)) -> q' <> [] | [] => True end) /\
        (forall r, r ∈ l -> ev r.2 = Some (Some (rfid r)) -> q' = [] \/ rfid r ∈ q' \/ exists x, last q' = Some x /\ x < rfid r)
    | Err _ => exists r, r ∈ l /\ ev r.2 = None
    | Panic => False
    end.
  Proof.
    induction l as [|[k v] l IH]; intros c q m Hok Hs Hq Hle Hm; cbn [iterate].
    { split; [done|]. split; [done|]. split; [exists []; by rewrite app_nil_r|]. split; [done|]. intros r Hr. by apply elem_of_nil in Hr. }
    apply Forall_cons in Hok as [Hr Hok]. apply StronglySorted_inv in Hs as [Hs Hf].
    assert (Hle' : Forall (fun x => Forall (fun r => x <= rfid r) l) q).
    { eapply Forall_impl; [exact Hle|]. cbn. intros x Hx. by apply Forall_cons in Hx as [_ Hx]. }
    set (rr := (k, v)) in *.
    (* cutting after this row *)
    assert (Hcut : forall q1, StronglySorted N.lt q1 -> Forall (fun x => Forall (fun r => x <= rfid r) l) q1 ->
      forall r, r ∈ l -> ev r.2 = Some (Some (rfid r)) -> q1 = [] \/ rfid r ∈ q1 \/ exists x, last q1 = Some x /\ x < rfid r).
    { intros q1 H1 Hl1 r Hin _. destruct (last q1) as [y|] eqn:El.
      - assert (Hy : y ∈ q1) by by apply last_Some_elem_of. rewrite Forall_forall in Hl1. specialize (Hl1 y Hy). cbn in Hl1.
        rewrite Forall_forall in Hl1. specialize (Hl1 r Hin). cbn in Hl1. right.
        destruct (decide (y = rfid r)) as [<-|Hne]; [by left|]. right. exists y. split; [done|]. lia.
      - left. destruct q1 as [|z q1] using rev_ind; [done|]. by rewrite last_snoc in El. }
    unfold Migrate.fetch_cb at 1. destruct (ev v) as [[f|]|] eqn:Ev.
    - cbn [fst]. assert (Hrf : f = rfid rr) by by apply Hr.
      set (s := if bool_decide _ then _ else _).
      assert (Hs' : exists q1, s = (q1, default 0 (last q1)) /\ last q1 = Some f /\ StronglySorted N.lt q1 /\
        (q1 = q \/ q1 = q ++ [f]) /\ Forall (fun x => Forall (fun r => x <= rfid r) l) q1).
      { unfold s. case_bool_decide as Hl.
        - exists q. split; [by rewrite Hm|]. split; [done|]. split; [done|]. split; [by left|]. done.
        - exists (q ++ [f]). rewrite last_snoc. split; [done|]. split; [done|]. split; [|split; [by right|]].
          + apply sorted_snoc; [done| |done]. eapply Forall_impl; [exact Hle|]. cbn. intros x Hx. apply Forall_cons in Hx as [Hx _]. by rewrite Hrf.
          + apply Forall_app. split; [done|]. constructor; [|constructor]. rewrite Hrf. done. }
      destruct Hs' as (q1 & Es & Hl1 & Hq1 & Hor & Hle1). rewrite Es. cbn [fst].
      assert (Hex : exists e, q1 = q ++ e /\ Forall (fun f => exists r, r ∈ rr :: l /\ rfid r = f /\ ev r.2 = Some (Some f)) e).
      { destruct Hor as [->| ->]; [exists []; by rewrite app_nil_r|]. exists [f]. split; [done|]. constructor; [|constructor].
        exists rr. split; [by left|]. split; [done|]. done. }
      assert (Hne : q1 <> []) by by intros ->.
      assert (Hstop : StronglySorted N.lt q1 /\ default 0 (last q1) = default 0 (last q1) /\
        (exists e, q1 = q ++ e /\ Forall (fun f => exists r, r ∈ rr :: l /\ rfid r = f /\ ev r.2 = Some (Some f)) e) /\
        (ev rr.2 = Some (Some (rfid rr)) -> q1 <> []) /\
        (forall r, r ∈ rr :: l -> ev r.2 = Some (Some (rfid r)) -> q1 = [] \/ rfid r ∈ q1 \/ exists x, last q1 = Some x /\ x < rfid r)).
      { split; [done|]. split; [done|]. split; [done|]. split; [done|]. intros r Hin Hrr. apply elem_of_cons in Hin as [->|Hin]; [|by apply Hcut].
        right. left. rewrite <- Hrf. by apply last_Some_elem_of. }
      destruct (FID_PAGE <=? N.of_nat (length q1)); [exact Hstop|].
      destruct (FID_PAGE <=? c + 1); [exact Hstop|].
      specialize (IH (c + 1) q1 _ Hok Hs Hq1 Hle1 eq_refl).
      destruct (iterate fetch_cb (Some FID_PAGE) (c + 1) l (q1, default 0 (last q1))) as [[[q' m'] b]|e|].
      + destruct IH as (H1 & H2 & (e & -> & He) & _ & H4). split; [done|]. split; [done|]. split; [|split].
        * destruct Hex as (e0 & Eq & He0). exists (e0 ++ e). rewrite Eq, <- app_assoc. split; [done|]. apply Forall_app. split; [done|].
          eapply Forall_impl; [exact He|]. cbn. intros g (r & Hin & Hg). exists r. split; [by right|done].
        * intros _ Hn. by destruct q1.
        * intros r Hin Hrr. apply elem_of_cons in Hin as [->|Hin]; [|by apply H4].
          right. left. apply elem_of_app. left. rewrite <- Hrf. by apply last_Some_elem_of.
      + destruct IH as (r & Hin & Hn). exists r. split; [by right|done].
      + done.
    - assert (Hstop : StronglySorted N.lt q /\ m = default 0 (last q) /\
        (exists e, q = q ++ e /\ Forall (fun f => exists r, r ∈ rr :: l /\ rfid r = f /\ ev r.2 = Some (Some f)) e) /\
        (ev rr.2 = Some (Some (rfid rr)) -> q <> []) /\
        (forall r, r ∈ rr :: l -> ev r.2 = Some (Some (rfid r)) -> q = [] \/ rfid r ∈ q \/ exists x, last q = Some x /\ x < rfid r)).
      { split; [done|]. split; [done|]. split; [exists []; by rewrite app_nil_r|]. cbn [snd]. split; [unfold rr; cbn; congruence|].
        intros r Hin Hrr. apply elem_of_cons in Hin as [->|Hin]; [unfold rr in Hrr; cbn in Hrr; congruence|by apply Hcut]. }
      destruct (FID_PAGE <=? c + 1); [exact Hstop|].
      specialize (IH (c + 1) q _ Hok Hs Hq Hle' Hm).
      destruct (iterate fetch_cb (Some FID_PAGE) (c + 1) l (q, m)) as [[[q' m'] b]|e|].
      + destruct IH as (H1 & H2 & (e & -> & He) & _ & H4). split; [done|]. split; [done|]. split; [|split].
        * exists e. split; [done|]. eapply Forall_impl; [exact He|]. cbn. intros g (r & Hin & Hg). exists r. split; [by right|done].
        * unfold rr. cbn. congruence.
        * intros r Hin Hrr. apply elem_of_cons in Hin as [->|Hin]; [unfold rr in Hrr; cbn in Hrr; congruence|by apply H4].
      + destruct IH as (r & Hin & Hn). exists r. split; [by right|done].
      + done.
    - exists rr. split; [by left|]. done.
  Qed.

  Lemma reg_scan_elem (db : kv bytes) lst k v :
    (k, v) ∈ scan db (reg_prefix ++ make_fid_key (lst + 1)) (increment_vec_u8 reg_prefix) (POpts (Some FID_PAGE) None false) <->
    db !! k = Some v /\ is_prefix reg_prefix k = true /\ ble (reg_prefix ++ be 4 (lst + 1)) k = true.
  Proof.
    rewrite scan_elem. unfold in_bounds, bounds. cbn [po_reverse po_token fst snd]. unfold make_fid_key.
    change (increment_vec_u8 reg_prefix) with ([12; 1] ++ [3 + 1]). change reg_prefix with ([12; 1] ++ [3]) at 2.
    rewrite <- between_prefix, !andb_true_iff. split.
    - intros (H1 & H2 & H3). repeat split; try done. eapply ble_trans; [|exact H2]. apply ble_app.
    - intros (H1 & (H2 & H3) & H4). done.
  Qed.

  Lemma rows_fid_sorted l : StronglySorted klt l -> (forall r, r ∈ l -> exists f rest, r.1 = reg_row f rest /\ f < 2 ^ 32) ->
    StronglySorted (fun a b => rfid a <= rfid b) l.
  Proof.
    induction 1 as [|a l Hs IH Hf]; intros Hrow; [constructor|]. constructor.
    - apply IH. intros r Hin. apply Hrow. by right.
    - rewrite Forall_forall in Hf |- *. intros [k' v'] Hin. specialize (Hf _ Hin). destruct a as [k v].
      destruct (Hrow (k, v)) as (f & rest & H1 & H4); [by left|]. destruct (Hrow (k', v')) as (f' & rest' & H1' & H4'); [by right|].
      cbn [fst] in *. subst k k'. rewrite !rfid_row by done.
      unfold klt in Hf. cbn [fst] in Hf. apply blt_lex in Hf. rewrite reg_row_lex in Hf by lia.
      destruct (N.compare_spec f f'); [lia|lia|done].
  Qed.

  Lemma fetch_spec db lst : regs_ok ev db -> lst < 2 ^ 32 - 1 ->
    match fetch db lst with
    | Ok (q, m) => StronglySorted N.lt (lst :: q) /\ m = default 0 (last q) /\ Forall (fun f => f < 2 ^ 32 - 1) q /\
        Forall (registered ev db) q /\
        (forall f, registered ev db f -> lst < f -> f ∈ q \/ exists x, last q = Some x /\ x < f)
    | Err _ => exists k v, db !! k = Some v /\ is_prefix reg_prefix k = true /\ ev v = None
    | Panic => False
    end.
  Proof.
    intros Hreg Hlst. unfold Migrate.fetch, for_each_paged. set (l := scan _ _ _ _).
    assert (Hel : forall k v, (k, v) ∈ l <-> db !! k = Some v /\ is_prefix reg_prefix k = true /\ ble (reg_prefix ++ be 4 (lst + 1)) k = true)
      by (intros; apply reg_scan_elem).
    assert (Hrow : forall r, r ∈ l -> exists f rest, r.1 = reg_row f rest /\ rfid r = f /\ lst < f /\ f < 2 ^ 32 - 1 /\
      (forall f', ev r.2 = Some (Some f') -> f' = f) /\
      exists rest' v', (reg_row f rest', v') ∈ l /\ ev v' = Some (Some f) /\ ble (reg_row f rest') r.1 = true).
    { intros [k v] Hin. apply Hel in Hin as (Hdb & Hp & Hb). destruct (Hreg k v Hdb Hp) as (f & rest & -> & Hf & Hev & rest' & v' & Hdb' & Hev' & Hle).
      assert (Hlt : lst + 1 <= f).
      { apply ble_lex in Hb. replace (reg_prefix ++ be 4 (lst + 1)) with (reg_row (lst + 1) []) in Hb by (unfold reg_row; by rewrite app_nil_r).
        rewrite reg_row_lex in Hb by lia. destruct (N.compare_spec (lst + 1) f); [lia|lia|done]. }
      exists f, rest. cbn [fst snd]. split; [done|]. split; [apply rfid_row; lia|]. split; [lia|]. split; [done|]. split; [done|].
      exists rest', v'. split; [|done]. apply Hel. split; [done|]. split; [apply reg_row_prefix|]. apply ble_lex.
      replace (reg_prefix ++ be 4 (lst + 1)) with (reg_row (lst + 1) []) by (unfold reg_row; by rewrite app_nil_r).
      rewrite reg_row_lex by lia. destruct (N.compare_spec (lst + 1) f); [|done|lia]. by destruct rest'. }
    assert (Hsk : StronglySorted klt l) by apply (scan_sorted db _ _ (POpts (Some FID_PAGE) None false)).
    assert (Hs : StronglySorted (fun a b => rfid a <= rfid b) l).
    { apply rows_fid_sorted; [done|]. intros r Hin. destruct (Hrow r Hin) as (f & rest & H1 & H2 & _ & H4 & _). exists f, rest. split; [done|lia]. }
    pose proof (iter_fetch l 0 [] 0) as HI. specialize (HI ltac:(apply Forall_forall; intros r Hin f Hev; destruct (Hrow r Hin) as (f' & rest & _ & H2 & _ & _ & H5 & _); rewrite H2; by apply H5) Hs ltac:(constructor) ltac:(constructor) eq_refl).
    destruct (iterate _ _ _ _ _) as [[[q m] b]|[]|]; [|destruct HI as ([k v] & Hin & Hev); exists k, v; apply Hel in Hin as (? & ? & ?); done|done].
    destruct HI as (H1 & H2 & (e & -> & He) & H3 & H4). cbn [app] in *.
    assert (Hq : Forall (fun f => lst < f /\ f < 2 ^ 32 - 1 /\ registered ev db f) e).
    { eapply Forall_impl; [exact He|]. cbn. intros f ([k v] & Hin & Hr & Hev). destruct (Hrow _ Hin) as (f' & rest & Hk & Hr' & Hl & Hu & _).
      cbn [fst snd] in *. assert (f' = f) as -> by congruence. split; [done|]. split; [done|]. split.
      - unfold fid_ok. rewrite andb_true_iff, N.leb_le, N.ltb_lt. lia.
      - exists rest, v. apply Hel in Hin as (Hdb & _). rewrite <- Hk. done. }
    split; [|split; [done|split; [|split]]].
    - constructor; [done|]. eapply Forall_impl; [exact Hq|]. cbn. intros; tauto.
    - eapply Forall_impl; [exact Hq|]. cbn. intros; tauto.
    - eapply Forall_impl; [exact Hq|]. cbn. intros; tauto.
    - intros f [Hok (rest & v & Hdb & Hev)] Hlt. apply fid_ok_lt in Hok.
      assert (Hin : (reg_row f rest, v) ∈ l).
      { apply Hel. split; [done|]. split; [apply reg_row_prefix|]. apply ble_lex.
        replace (reg_prefix ++ be 4 (lst + 1)) with (reg_row (lst + 1) []) by (unfold reg_row; by rewrite app_nil_r).
        rewrite reg_row_lex by lia. destruct (N.compare_spec (lst + 1) f); [|done|lia]. by destruct rest. }
      assert (Hne : e <> []).
      { destruct l as [|r0 l0] eqn:El; [by apply elem_of_nil in Hin|]. apply H3. clear H4 H3 He Hq H1 H2.
        destruct (Hrow r0) as (f0 & rest0 & Hk0 & Hr0 & Hl0 & Hu0 & Hev0 & rest' & v' & Hin' & Hev' & Hble); [by left|].
        apply elem_of_cons in Hin' as [E|Hin'].
        - rewrite <- E. cbn [snd]. rewrite rfid_row by lia. done.
        - exfalso. apply StronglySorted_inv in Hsk as [_ Hf]. rewrite Forall_forall in Hf. specialize (Hf _ Hin'). unfold klt in Hf. cbn [fst] in Hf.
          rewrite blt_ble in Hf. rewrite Hble in Hf. done. }
      specialize (H4 _ Hin). cbn [snd] in H4. rewrite rfid_row in H4 by lia. destruct (H4 Hev) as [?|H]; [done|exact H].
  Qed.

  (** What the queue still covers after [lst]. *)
  Definition pending (lst : N) (q : list N) (f : N) : Prop := f ∈ q \/ default lst (last q) < f.
  Definition queue_ok (lst : N) (q : list N) : Prop := StronglySorted N.lt (lst :: q) /\ Forall (fun f => f < 2 ^ 32 - 1) (lst :: q).

  Lemma last_cons_some (f : N) q : exists y, last (f :: q) = Some y.
  Proof. revert f. induction q as [|x q IH]; intros f; [by exists f|]. apply IH. Qed.
  Lemma pending_pop f0 q f : pending f0 (f0 :: q) f -> f = f0 \/ pending f0 q f.
  Proof.
    unfold pending. rewrite elem_of_cons. intros [[->|H]|H]; [by left|by right; left|]. right. right. destruct q as [|x q]; exact H.
  Qed.
  Lemma next_spec db lst q : regs_ok ev db -> queue_ok lst q ->
    match next ev db lst q with
    | NFid f q' => lst < f /\ queue_ok f q' /\ (q = [] -> Forall (registered ev db) (f :: q')) /\ (q = [] \/ q = f :: q') /\
        forall g, registered ev db g -> pending lst q g -> g = f \/ pending f q' g
    | NEnd => q = [] /\ forall g, registered ev db g -> ~ pending lst q g
    | NError => exists k v, db !! k = Some v /\ is_prefix reg_prefix k = true /\ ev v = None
    end.
  Proof.
    intros Hreg [Hs Hb]. unfold next. destruct q as [|f q].
    - apply Forall_cons in Hb as [Hb _]. pose proof (fetch_spec db lst Hreg Hb) as H. destruct (fetch db lst) as [[q m]|[]|]; [|done|done].
      destruct H as (H1 & H2 & H3 & H4 & H5). subst m.
      destruct q as [|f q].
      + cbn. split; [done|]. intros g Hg [Hp|Hp]; [by apply elem_of_nil in Hp|]. cbn in Hp. destruct (H5 g Hg Hp) as [Hx|(x & Hx & _)]; [by apply elem_of_nil in Hx|done].
      + assert (Hpos : 0 <? default 0 (last (f :: q)) = true).
        { apply N.ltb_lt. apply StronglySorted_inv in H1 as [_ H1]. destruct (last (f :: q)) as [y|] eqn:El; [|by destruct q using rev_ind; [|rewrite app_comm_cons, last_snoc in El]].
          apply last_Some_elem_of in El. rewrite Forall_forall in H1. specialize (H1 y El). cbn in *. lia. }
        rewrite Hpos. apply StronglySorted_inv in H1 as [H1 H1']. apply Forall_cons in H1' as [Hlt _].
        split; [done|]. split; [by split|]. split; [done|]. split; [by left|].
        intros g Hg Hp. assert (lst < g). { destruct Hp as [Hp|Hp]; [by apply elem_of_nil in Hp|done]. }
        apply pending_pop. unfold pending. destruct (H5 g Hg H) as [Hx|(x & Hx & Hlt')]; [by left|right]. by rewrite Hx.
    - apply StronglySorted_inv in Hs as [Hs Hs']. apply Forall_cons in Hs' as [Hlt _]. apply Forall_cons in Hb as [_ Hb].
      split; [done|]. split; [by split|]. split; [done|]. split; [by right|]. intros g Hg Hp. apply pending_pop. destruct Hp as [Hp|Hp]; [by left|]. right.
      destruct (last_cons_some f q) as [y Ey]. rewrite Ey in *. exact Hp.
  Qed.

  Lemma queue_registered_tail (P : N -> Prop) f q : Forall P (f :: q) -> Forall P q.
  Proof. by intros [_ H]%Forall_cons. Qed.

  Lemma fids_spec db : regs_ok ev db -> (forall k v, db !! k = Some v -> is_prefix reg_prefix k = true -> ev v <> None) ->
    forall n lst q, (N.to_nat (2 ^ 32 - lst) <= n)%nat -> queue_ok lst q -> Forall (registered ev db) q ->
    (forall f, registered ev db f -> lst < f -> pending lst q f) ->
    exists l, StronglySorted N.lt (lst :: l) /\ (forall f, f ∈ l <-> registered ev db f /\ lst < f) /\
      forall fuel, (length l <= fuel)%nat -> fids ev fuel db lst q = Some l.
  Proof.
    intros Hreg Hdec n. induction n as [|n IH]; intros lst q Hn Hq Hqr Hp.
    { exfalso. destruct Hq as [_ Hb]. apply Forall_cons in Hb as [Hb _]. clear -Hb Hn. lia. }
    pose proof (next_spec db lst q Hreg Hq) as Hx. destruct (next ev db lst q) as [f q'| |] eqn:En.
    - destruct Hx as (Hlt & Hq' & Hr & Hor & Hpend).
      assert (Hr' : Forall (registered ev db) (f :: q')). { destruct Hor as [->| ->]; [by apply Hr|done]. }
      destruct (IH f q') as (l & Hl1 & Hl2 & Hl3).
      + clear -Hn Hlt. lia.
      + done.
      + by apply queue_registered_tail in Hr'.
      + intros g Hg Hgt. destruct (Hpend g Hg (Hp g Hg ltac:(lia))) as [->|H]; [lia|done].
      + exists (f :: l). split; [|split].
        * constructor; [done|]. constructor; [done|]. apply StronglySorted_inv in Hl1 as [_ Hl1].
          eapply Forall_impl; [exact Hl1|]. cbn. intros; lia.
        * intros g. rewrite elem_of_cons, Hl2. split.
          -- intros [->|[Hg Hgt]]; [split; [by apply Forall_cons in Hr' as [? _]|done]|split; [done|lia]].
          -- intros [Hg Hgt]. destruct (decide (g = f)) as [->|Hne]; [by left|right]. split; [done|].
             destruct (Hpend g Hg (Hp g Hg Hgt)) as [->|[Hin|Hl]]; [done| |].
             ++ destruct Hq' as [Hs _]. apply StronglySorted_inv in Hs as [_ Hs]. rewrite Forall_forall in Hs. by apply Hs.
             ++ destruct (last q') as [y|] eqn:El; cbn in Hl; [|done]. apply last_Some_elem_of in El.
                destruct Hq' as [Hs _]. apply StronglySorted_inv in Hs as [_ Hs]. rewrite Forall_forall in Hs. specialize (Hs y El). cbn in Hs. lia.
        * intros [|fuel] Hf; [by cbn in Hf; lia|]. cbn [fids]. rewrite En, Hl3; [done|]. cbn in Hf. lia.
    - destruct Hx as [-> Hx]. exists []. split; [by repeat constructor|]. split.
      + intros f. rewrite elem_of_nil. split; [done|]. intros [Hf Hlt]. by destruct (Hx f Hf (Hp f Hf Hlt)).
      + intros [|fuel] _; cbn [fids]; by rewrite En.
    - destruct Hx as (k & v & H1 & H2 & H3). by destruct (Hdec k v H1 H2).
  Qed.
End Fids.

(** ** The scans of m2 *)
Lemma addr_scan_elem (db : kv bytes) f k v :
  (k, v) ∈ scan db (adds_prefix f) (increment_vec_u8 (adds_prefix f)) (POpts None None false) <->
  db !! k = Some v /\ exists a, k = adds_key f a.
Proof.
  rewrite scan_elem. unfold in_bounds, bounds. cbn [po_reverse po_token fst snd]. unfold adds_prefix at 2. rewrite incr_snoc by done.
  unfold adds_prefix. rewrite between_prefix, is_prefix_spec. done.
Qed.
Lemma iter_addr f l : forall acc, (forall r, r ∈ l -> exists a, r.1 = adds_key f a) ->
  exists out, iterate (addr_cb f) None 0 l acc = Ok (acc ++ out, true) /\ forall a, a ∈ out <-> a <> [] /\ exists v, (adds_key f a, v) ∈ l.
Proof.
  induction l as [|[k v] l IH]; intros acc Hk; cbn [iterate].
  - exists []. rewrite app_nil_r. split; [done|]. intros a. rewrite elem_of_nil. split; [done|]. intros [_ [v H]]. by apply elem_of_nil in H.
  - destruct (Hk (k, v)) as [a Ea]; [by left|]. cbn [fst] in Ea. unfold addr_cb at 1. subst k. unfold adds_key at 1. rewrite drop_app.
    assert (Hinj : forall a', adds_key f a' = adds_key f a -> a' = a) by (intros a' E; by apply app_inv_head in E).
    destruct a as [|x a].
    + destruct (IH acc) as (out & E & Ho); [intros r Hr; apply Hk; by right|]. exists out. split; [done|]. intros b. rewrite Ho.
      split; intros [Hb [w Hw]]; split; try done; exists w; [by right|]. apply elem_of_cons in Hw as [E1|Hw]; [|done]. apply (f_equal fst), Hinj in E1. done.
    + destruct (IH (acc ++ [x :: a])) as (out & E & Ho); [intros r Hr; apply Hk; by right|]. exists ((x :: a) :: out).
      rewrite E, <- app_assoc. split; [done|]. intros b. rewrite elem_of_cons, Ho. split.
      * intros [->|[Hb [w Hw]]]; [split; [done|]; exists v; by left|]. split; [done|]. exists w. by right.
      * intros [Hb [w Hw]]. apply elem_of_cons in Hw as [E1|Hw]; [left; by apply (f_equal fst), Hinj in E1|right]. split; [done|]. by exists w.
Qed.
Lemma addresses_spec db f : exists l, addresses db f = Ok l /\ forall a, a ∈ l <-> a <> [] /\ exists v, db !! adds_key f a = Some v.
Proof.
  unfold addresses, for_each, for_each_paged. cbn [po_token po_reverse po_size].
  destruct (iter_addr f (scan db (adds_prefix f) (increment_vec_u8 (adds_prefix f)) (POpts None None false)) []) as (out & E & Ho).
  { intros [k v] H. apply addr_scan_elem in H as [_ H]. done. }
  rewrite E. exists out. split; [done|]. intros a. rewrite Ho. split; intros [Ha [v Hv]]; (split; [done|]); exists v.
  - by apply addr_scan_elem in Hv as [Hv _].
  - apply addr_scan_elem. eauto.
Qed.

Lemma sweep_scan_elem (db : kv bytes) from k v : ble [RP_VerByAddress] from = true ->
  (k, v) ∈ scan db from (increment_vec_u8 [RP_VerByAddress]) (POpts None None false) <->
  db !! k = Some v /\ ble from k = true /\ exists r, k = RP_VerByAddress :: r.
Proof.
  intros Hfrom. rewrite scan_elem. unfold in_bounds, bounds. cbn [po_reverse po_token fst snd].
  change (increment_vec_u8 [RP_VerByAddress]) with ([] ++ [RP_VerByAddress + 1]). pose proof (between_prefix [] RP_VerByAddress k) as Hb.
  assert (Hp : is_prefix ([] ++ [RP_VerByAddress]) k = true <-> exists r, k = RP_VerByAddress :: r) by apply is_prefix_spec.
  rewrite <- Hb in Hp. rewrite andb_true_iff in *. split.
  - intros (H1 & H2 & H3). split; [done|]. split; [done|]. apply Hp. split; [|done]. by eapply ble_trans.
  - intros (H1 & H2 & H3). apply Hp in H3 as [_ H3]. done.
Qed.
Section Sweep.
  Variable chunk : N.
  Lemma iter_sweep l : forall acc, StronglySorted klt l -> (forall k, k ∈ acc -> forall r, r ∈ l -> blt k r.1 = true) ->
    exists out b, iterate (sweep_cb chunk) None 0 l acc = Ok (acc ++ out, b) /\
      (forall k, k ∈ out -> exists v, (k, v) ∈ l /\ blen v = 4) /\
      (forall k v, (k, v) ∈ l -> blen v = 4 -> k ∈ out \/ (chunk <= N.of_nat (length (acc ++ out)) /\ exists m, last (acc ++ out) = Some m /\ blt m k = true)).
  Proof.
    induction l as [|[k v] l IH]; intros acc Hs Hacc; cbn [iterate].
    - exists [], true. rewrite app_nil_r. split; [done|]. split; intros k; [|intros v]; intros H; by apply elem_of_nil in H.
    - apply StronglySorted_inv in Hs as [Hs Hf]. unfold sweep_cb at 1. destruct (N.eqb_spec (blen v) FID_BYTES) as [Hv|Hv].
      + destruct (N.leb_spec chunk (N.of_nat (length (acc ++ [k])))) as [Hc|Hc].
        * exists [k], false. split; [done|]. split.
          -- intros k' Hk'. apply elem_of_list_singleton in Hk' as ->. exists v. split; [by left|done].
          -- intros k' v' Hin Hv'. apply elem_of_cons in Hin as [[= -> ->]|Hin]; [left; by apply elem_of_list_singleton|right].
             split; [done|]. exists k. split; [apply last_snoc|]. rewrite Forall_forall in Hf. by apply (Hf _ Hin).
        * destruct (IH (acc ++ [k])) as (out & b & E & H1 & H2); [done| |].
          { intros k' Hk' r Hr. apply elem_of_app in Hk' as [Hk'|Hk']; [apply Hacc; [done|by right]|].
            apply elem_of_list_singleton in Hk' as ->. rewrite Forall_forall in Hf. by apply (Hf _ Hr). }
          exists (k :: out), b. rewrite <- app_assoc in *. split; [done|]. split.
          -- intros k' Hk'. apply elem_of_cons in Hk' as [->|Hk']; [exists v; split; [by left|done]|].
             destruct (H1 k' Hk') as (v' & Hin & Hv'). exists v'. split; [by right|done].
          -- intros k' v' Hin Hv'. apply elem_of_cons in Hin as [[= -> ->]|Hin]; [left; by left|].
             destruct (H2 k' v' Hin Hv') as [H|H]; [left; by right|by right].
      + destruct (IH acc) as (out & b & E & H1 & H2); [done|intros k' Hk' r Hr; apply Hacc; [done|by right]|].
        exists out, b. split; [done|]. split.
        * intros k' Hk'. destruct (H1 k' Hk') as (v' & Hin & Hv'). exists v'. split; [by right|done].
        * intros k' v' Hin Hv'. apply elem_of_cons in Hin as [[= -> ->]|Hin]; [done|]. by apply (H2 k' v').
  Qed.
  Lemma sweep_spec db from : ble [RP_VerByAddress] from = true -> exists l, sweep chunk db from = Ok l /\
    (forall k, k ∈ l -> exists r v, k = RP_VerByAddress :: r /\ ble from k = true /\ db !! k = Some v /\ blen v = 4) /\
    (forall r v, db !! (RP_VerByAddress :: r) = Some v -> blen v = 4 -> ble from (RP_VerByAddress :: r) = true ->
      RP_VerByAddress :: r ∈ l \/ (chunk <= N.of_nat (length l) /\ exists m, last l = Some m /\ blt m (RP_VerByAddress :: r) = true)).
  Proof.
    intros Hfrom. unfold sweep, for_each, for_each_paged. cbn [po_token po_reverse po_size].
    destruct (iter_sweep (scan db from (increment_vec_u8 [RP_VerByAddress]) (POpts None None false)) []) as (out & b & E & H1 & H2).
    { apply (scan_sorted db _ _ (POpts None None false)). } { intros k Hk. by apply elem_of_nil in Hk. }
    rewrite E. exists out. split; [done|]. split.
    - intros k Hk. destruct (H1 k Hk) as (v & Hin & Hv). apply sweep_scan_elem in Hin as (Hdb & Hle & r & ->); [|done]. exists r, v. done.
    - intros r v Hdb Hv Hle. apply (H2 _ v); [|done]. apply sweep_scan_elem; [done|]. eauto.
  Qed.
End Sweep.
Lemma lookup_deletes l k : deletes l !! k = if decide (k ∈ l) then Some None else None.
Proof.
  unfold deletes. assert (G : forall t : batch bytes, fold_left (fun t k => tdel t k) l t !! k = if decide (k ∈ l) then Some None else t !! k).
  { induction l as [|x l IH]; intros t; cbn [fold_left]; [by rewrite decide_False by apply not_elem_of_nil|]. rewrite IH. unfold tdel.
    destruct (decide (k ∈ l)) as [H|H]; [by rewrite decide_True by by right|]. destruct (decide (k = x)) as [->|Hne].
    - rewrite lookup_insert, decide_True by by left. done.
    - rewrite lookup_insert_ne by done. rewrite decide_False; [done|]. by rewrite elem_of_cons; intros [?|?]. }
  rewrite G, lookup_empty. done.
Qed.
Lemma commit_deletes (db : kv bytes) l k : commit db (deletes l) !! k = if decide (k ∈ l) then None else db !! k.
Proof. rewrite lookup_commit. unfold tget. rewrite lookup_deletes. by destruct (decide (k ∈ l)). Qed.
