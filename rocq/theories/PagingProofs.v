(** Proofs about Paging.v. *)
From Coq Require Import ZifyN ZifyNat ZifyBool.
From Verif Require Import Base Codec CodecProofs Kv Paging.
#[local] Open Scope N_scope.

(** ** Byte-string order *)

Lemma blt_snoc0 t k : ble (t ++ [0]) k = blt t k.
Proof.
  unfold ble, blt. revert k; induction t as [|x t IH]; intros [|y k]; cbn [app lex]; try done.
  - destruct (N.compare_spec 0 y) as [<-|?|?]; [|done|lia]. by destruct k.
  - destruct (x ?= y); [apply IH|done|done].
Qed.
Lemma ble_nblt a b : ble a b = negb (blt b a).
Proof. rewrite blt_ble, negb_involutive. done. Qed.
Lemma blt_nle a b : blt a b = negb (ble b a).
Proof. apply blt_ble. Qed.

#[export] Instance key_le_trans {V} : Transitive (@key_le V).
Proof. intros a b c. unfold key_le. apply ble_trans. Qed.
#[export] Instance key_le_total {V} : Total (@key_le V).
Proof.
  intros a b. unfold key_le. destruct (blt_total a.1 b.1) as [H|[H|H]].
  - left. apply ble_eq_or_lt. by right.
  - left. rewrite H. apply ble_refl.
  - right. apply ble_eq_or_lt. by right.
Qed.

Section Scan.
  Context {V : Type}.
  Implicit Types (db : kv V) (l : list (bytes * V)).

  Definition klt (a b : bytes * V) : Prop := blt a.1 b.1 = true.
  Definition kgt (a b : bytes * V) : Prop := blt b.1 a.1 = true.

  Lemma rows_elem db k v : (k, v) ∈ rows db <-> db !! k = Some v.
  Proof. unfold rows. rewrite (merge_sort_Permutation key_le), elem_of_map_to_list. done. Qed.
  Lemma rows_nodup db : NoDup (rows db).*1.
  Proof. unfold rows. rewrite (merge_sort_Permutation key_le). apply NoDup_fst_map_to_list. Qed.
  Lemma sorted_strict l : StronglySorted key_le l -> NoDup l.*1 -> StronglySorted klt l.
  Proof.
    induction 1 as [|a l Hs IH Hf]; intros Hnd; [constructor|].
    cbn in Hnd. apply NoDup_cons in Hnd as [Hni Hnd]. constructor; [by apply IH|].
    rewrite Forall_forall in Hf |- *. intros b Hb. pose proof (Hf b Hb) as Hle. unfold klt, key_le in *.
    apply ble_eq_or_lt in Hle as [He|Hlt]; [|done].
    exfalso. apply Hni. rewrite He. by apply elem_of_list_fmap_1.
  Qed.
  Lemma rows_sorted db : StronglySorted klt (rows db).
  Proof. apply sorted_strict; [apply (StronglySorted_merge_sort key_le)|apply rows_nodup]. Qed.

  Lemma filter_sorted (R : bytes * V -> bytes * V -> Prop) (P : bytes * V -> Prop) `{!forall x, Decision (P x)} l :
    StronglySorted R l -> StronglySorted R (filter P l).
  Proof.
    induction 1 as [|a l Hs IH Hf]; [constructor|]. rewrite filter_cons.
    destruct (decide (P a)); [|done]. constructor; [done|].
    rewrite Forall_forall in Hf |- *. intros b [_ Hb]%elem_of_list_filter. by apply Hf.
  Qed.
  Lemma sorted_app_inv (R : bytes * V -> bytes * V -> Prop) l1 l2 : StronglySorted R (l1 ++ l2) ->
    StronglySorted R l1 /\ StronglySorted R l2 /\ (forall a b, a ∈ l1 -> b ∈ l2 -> R a b).
  Proof.
    induction l1 as [|x l1 IH]; cbn.
    - intros H. split; [constructor|]. split; [done|]. intros a b Ha. by apply elem_of_nil in Ha.
    - intros H. apply StronglySorted_inv in H as [H Hf]. destruct (IH H) as (H1 & H2 & H3).
      rewrite Forall_app in Hf. destruct Hf as [Hf1 Hf2]. split; [by constructor|]. split; [done|].
      intros a b [->|Ha]%elem_of_cons Hb; [|by apply H3]. rewrite Forall_forall in Hf2. by apply Hf2.
  Qed.
  Lemma sorted_app (R : bytes * V -> bytes * V -> Prop) l1 l2 : StronglySorted R l1 -> StronglySorted R l2 ->
    (forall a b, a ∈ l1 -> b ∈ l2 -> R a b) -> StronglySorted R (l1 ++ l2).
  Proof.
    induction 1 as [|x l1 Hs IH Hf]; intros H2 Hab; [done|]. cbn. constructor.
    - apply IH; [done|]. intros a b Ha Hb. apply Hab; [by right|done].
    - apply Forall_app. split; [done|]. apply Forall_forall. intros b Hb. apply Hab; [by left|done].
  Qed.
  Lemma sorted_reverse l : StronglySorted klt l -> StronglySorted kgt (reverse l).
  Proof.
    induction 1 as [|a l Hs IH Hf]; [rewrite reverse_nil; constructor|]. rewrite reverse_cons. apply sorted_app; [done|repeat constructor|].
    intros x y Hx Hy. rewrite elem_of_reverse in Hx. apply elem_of_list_singleton in Hy as ->.
    rewrite Forall_forall in Hf. exact (Hf _ Hx).
  Qed.

  Definition in_bounds (b : bytes * bytes) (k : bytes) : bool := ble b.1 k && blt k b.2.

  Lemma scan_elem db start stop po k v :
    (k, v) ∈ scan db start stop po <-> db !! k = Some v /\ in_bounds (bounds start stop po) k = true.
  Proof.
    unfold scan. set (l := filter _ _).
    assert (Hl : (k, v) ∈ l <-> db !! k = Some v /\ in_bounds (bounds start stop po) k = true).
    { subst l. rewrite elem_of_list_filter, rows_elem. cbn. unfold in_bounds. tauto. }
    destruct (po_reverse po); [rewrite elem_of_reverse|]; done.
  Qed.
  Definition ordered (rev : bool) : bytes * V -> bytes * V -> Prop := if rev then kgt else klt.
  Lemma scan_sorted db start stop po : StronglySorted (ordered (po_reverse po)) (scan db start stop po).
  Proof.
    unfold scan, ordered. destruct (po_reverse po).
    - apply sorted_reverse, filter_sorted, rows_sorted.
    - apply filter_sorted, rows_sorted.
  Qed.
  Lemma ordered_irrefl rev a : ~ ordered rev a a.
  Proof. unfold ordered, klt, kgt. destruct rev; rewrite blt_irrefl; done. Qed.
  Lemma ordered_asym rev a b : ordered rev a b -> ordered rev b a -> False.
  Proof.
    unfold ordered, klt, kgt. destruct rev; intros H1 H2; rewrite (blt_asym _ _ H1) in H2; done.
  Qed.
  Lemma sorted_unique rev l1 l2 : StronglySorted (ordered rev) l1 -> StronglySorted (ordered rev) l2 ->
    (forall x, x ∈ l1 <-> x ∈ l2) -> l1 = l2.
  Proof.
    intros H1. revert l2. induction H1 as [|a l1 Hs IH Hf]; intros l2 H2 Hel.
    - destruct l2 as [|b l2]; [done|]. exfalso. assert (Hb : b ∈ b :: l2) by left. apply Hel in Hb. by apply elem_of_nil in Hb.
    - destruct H2 as [|b l2 Hs2 Hf2].
      { exfalso. assert (Ha : a ∈ a :: l1) by left. apply Hel in Ha. by apply elem_of_nil in Ha. }
      rewrite Forall_forall in Hf, Hf2.
      assert (a = b) as <-.
      { assert (Ha : a ∈ b :: l2) by (apply Hel; left). assert (Hb : b ∈ a :: l1) by (apply Hel; left).
        apply elem_of_cons in Ha as [?|Ha]; [done|]. apply elem_of_cons in Hb as [?|Hb]; [done|].
        exfalso. by eapply (ordered_asym rev a b); [apply Hf|apply Hf2]. }
      f_equal. apply IH; [done|]. intros x. split; intros Hx.
      + assert (Hx' : x ∈ a :: l2) by (apply Hel; by right). apply elem_of_cons in Hx' as [->|?]; [|done].
        exfalso. by apply (ordered_irrefl rev a), Hf.
      + assert (Hx' : x ∈ a :: l1) by (apply Hel; by right). apply elem_of_cons in Hx' as [->|?]; [|done].
        exfalso. by apply (ordered_irrefl rev a), Hf2.
  Qed.

  (** Resuming at the key of a row of the scan continues right after it. *)
  Lemma scan_token db start stop sz rev tok pre k v suf :
    scan db start stop (POpts sz tok rev) = pre ++ (k, v) :: suf ->
    scan db start stop (POpts sz (Some k) rev) = suf.
  Proof.
    intros He. pose proof (scan_sorted db start stop (POpts sz tok rev)) as Hs. rewrite He in Hs.
    destruct (sorted_app_inv _ _ _ Hs) as (_ & Hs2 & Hcr).
    apply (sorted_unique rev); [exact (scan_sorted db start stop (POpts sz (Some k) rev))|by apply StronglySorted_inv in Hs2 as [? _]|].
    apply StronglySorted_inv in Hs2 as [_ Hf]. rewrite Forall_forall in Hf. cbn [po_reverse] in *.
    intros [k' v']. rewrite scan_elem.
    assert (Hk : in_bounds (bounds start stop (POpts sz tok rev)) k = true).
    { apply (scan_elem db start stop (POpts sz tok rev) k v). rewrite He. apply elem_of_app. right. left. }
    assert (Hmem : (k', v') ∈ suf <-> (k', v') ∈ pre ++ (k, v) :: suf /\ ordered rev (k, v) (k', v')).
    { split.
      - intros H. split; [apply elem_of_app; right; by right|by apply Hf].
      - intros [H Ho]. apply elem_of_app in H as [H|H].
        + exfalso. eapply ordered_asym; [exact Ho|]. apply Hcr; [done|left].
        + apply elem_of_cons in H as [H|H]; [|done]. rewrite H in Ho. exfalso. by apply (ordered_irrefl rev) in Ho. }
    rewrite Hmem, <- He, scan_elem. clear -Hk.
    unfold in_bounds, bounds, ordered, klt, kgt in *. cbn [po_reverse po_token fst snd] in *.
    apply andb_prop in Hk as [Hk1 Hk2]. destruct rev; cbn [fst snd] in *.
    - rewrite andb_true_iff. split.
      + intros (Hd & H1 & H2). rewrite H1. repeat split; try done.
        destruct tok as [t|]; cbn in *; by eapply blt_trans.
      + intros ((Hd & Hb) & Ho). apply andb_prop in Hb as [Hb _]. by repeat split.
    - rewrite andb_true_iff, blt_snoc0. split.
      + intros (Hd & H1 & H2). rewrite H2, andb_true_r. repeat split; try done.
        eapply ble_trans; [exact Hk1|]. apply ble_eq_or_lt. by right.
      + intros ((Hd & Hb) & Ho). apply andb_prop in Hb as [_ Hb]. by repeat split.
  Qed.

  Lemma scan_size_irrel db start stop s1 s2 tok rev :
    scan db start stop (POpts s1 tok rev) = scan db start stop (POpts s2 tok rev).
  Proof. done. Qed.

  Lemma scan_key_nonempty db start stop po k v : start <> [] -> (k, v) ∈ scan db start stop po -> k <> [].
  Proof.
    intros Hst H. apply scan_elem in H as [_ H]. unfold in_bounds in H. apply andb_prop in H as [H _].
    unfold bounds in H. cbn in H. intros ->.
    destruct (po_reverse po); [by destruct start|]. destruct (po_token po) as [t|]; [by destruct t|by destruct start].
  Qed.

  (** ** Pages *)
  Context {A : Type} (mk : bytes -> V -> option A) (keep : A -> bool).

  Definition entry (r : bytes * V) : option A :=
    match mk r.1 r.2 with Some a => if keep a then Some a else None | None => None end.
  Definition decodes (l : list (bytes * V)) : Prop := Forall (fun r => is_Some (mk r.1 r.2)) l.
  Definition eff (n : N) : N := N.max 1 n.

  Lemma iter_cb size l acc : decodes l -> N.of_nat (length acc) < eff size ->
    (N.of_nat (length (acc ++ omap entry l)) < eff size /\
     iterate (page_cb mk keep size) None 0 l (acc, []) = Ok (acc ++ omap entry l, [], true)) \/
    (exists pre k v suf, l = pre ++ (k, v) :: suf /\
       N.of_nat (length (acc ++ omap entry (pre ++ [(k, v)]))) = eff size /\
       iterate (page_cb mk keep size) None 0 l (acc, []) = Ok (acc ++ omap entry (pre ++ [(k, v)]), k, false)).
  Proof.
    revert acc. induction l as [|[k v] l IH]; intros acc Hd Hlt.
    - left. cbn. by rewrite app_nil_r.
    - apply Forall_cons in Hd as [[a Ha] Hd]. cbn [fst snd] in Ha.
      cbn [iterate]. unfold page_cb at 1 3. rewrite Ha. cbn [fst snd].
      destruct (keep a) eqn:Hk.
      + assert (He : omap entry ((k, v) :: l) = a :: omap entry l).
        { cbn [omap list_omap]. unfold entry at 1. cbn [fst snd]. by rewrite Ha, Hk. }
        destruct (N.leb_spec size (N.of_nat (length (acc ++ [a])))) as [Hs|Hs].
        * right. exists [], k, v, l. split; [done|]. cbn [app].
          assert (He1 : omap entry [(k, v)] = [a]).
          { cbn [omap list_omap]. unfold entry. cbn [fst snd]. by rewrite Ha, Hk. }
          rewrite He1. split; [|done]. rewrite app_length in *. cbn [length] in *. unfold eff in *. lia.
        * assert (Hlt' : N.of_nat (length (acc ++ [a])) < eff size) by (unfold eff; lia).
          destruct (IH (acc ++ [a]) Hd Hlt') as [[H1 H2]|(pre & k' & v' & suf & H1 & H2 & H3)].
          -- left. rewrite He. rewrite <- app_assoc in H1, H2. cbn [app] in H1, H2. done.
          -- right. exists ((k, v) :: pre), k', v', suf. split; [by rewrite H1|].
             assert (He' : omap entry (((k, v) :: pre) ++ [(k', v')]) = a :: omap entry (pre ++ [(k', v')])).
             { cbn [app omap list_omap]. unfold entry at 1. cbn [fst snd]. by rewrite Ha, Hk. }
             rewrite He'. rewrite <- app_assoc in H2, H3. cbn [app] in H2, H3. done.
      + assert (He : forall l, omap entry ((k, v) :: l) = omap entry l).
        { intros l'. cbn [omap list_omap]. unfold entry at 1. cbn [fst snd]. by rewrite Ha, Hk. }
        destruct (IH acc Hd Hlt) as [[H1 H2]|(pre & k' & v' & suf & H1 & H2 & H3)].
        * left. rewrite He. done.
        * right. exists ((k, v) :: pre), k', v', suf. split; [by rewrite H1|].
          cbn [app]. rewrite He. done.
  Qed.

  Lemma iter_limit size l acc : (forall a, keep a = true) ->
    forall lk, iterate (page_cb mk keep size) (Some size) (N.of_nat (length acc)) l (acc, lk) =
    iterate (page_cb mk keep size) None 0 l (acc, lk).
  Proof.
    intros Hk. revert acc. induction l as [|[k v] l IH]; intros acc lk; [done|].
    cbn [iterate]. unfold page_cb at 1 3. destruct (mk k v) as [a|]; [|done]. rewrite Hk. cbn [fst snd].
    rewrite app_length. cbn [length].
    destruct (N.leb_spec size (N.of_nat (length acc + 1))) as [Hs|Hs]; [done|].
    replace (N.of_nat (length acc) + 1) with (N.of_nat (length acc + 1)) by lia.
    destruct (N.leb_spec size (N.of_nat (length acc + 1))); [lia|].
    replace (N.of_nat (length acc + 1)) with (N.of_nat (length (acc ++ [a]))) by (rewrite app_length; cbn; lia).
    apply IH.
  Qed.
  (** Without a filter the limited iterator never stops before the callback does. *)
  Lemma limited_filtered db start stop po : (forall a, keep a = true) ->
    list_limited mk keep db start stop po = list_filtered mk keep db start stop po.
  Proof.
    intros Hk. unfold list_limited, list_filtered, for_each, for_each_paged. f_equal. cbn [po_size].
    change (scan db start stop (POpts None (po_token po) (po_reverse po))) with (scan db start stop po).
    unfold psize. destruct (po_size po) as [n|]; [|done].
    exact (iter_limit n (scan db start stop po) [] Hk []).
  Qed.

  Lemma page_split db start stop po : start <> [] -> decodes (scan db start stop po) ->
    let l := scan db start stop po in
    (N.of_nat (length (omap entry l)) < eff (psize po) /\
     list_filtered mk keep db start stop po = Ok (omap entry l, None)) \/
    (exists pre k v suf, l = pre ++ (k, v) :: suf /\
       N.of_nat (length (omap entry (pre ++ [(k, v)]))) = eff (psize po) /\
       list_filtered mk keep db start stop po = Ok (omap entry (pre ++ [(k, v)]), Some k)).
  Proof.
    intros Hst Hd l. unfold list_filtered, for_each, for_each_paged. cbn [po_size].
    change (scan db start stop (POpts None (po_token po) (po_reverse po))) with l.
    assert (H0 : N.of_nat (length (@nil A)) < eff (psize po)) by (unfold eff; cbn; lia).
    destruct (iter_cb (psize po) l [] Hd H0) as [[H1 H2]|(pre & k & v & suf & H1 & H2 & H3)].
    - left. split; [done|]. rewrite H2. done.
    - right. exists pre, k, v, suf. split; [done|]. split; [done|]. rewrite H3. cbn [page_of app].
      assert (k <> []) as Hk.
      { eapply (scan_key_nonempty db start stop po k v Hst). fold l. rewrite H1. apply elem_of_app. right. left. }
      by destruct k.
  Qed.

  Lemma chan_cb_split size l acc : decodes l -> N.of_nat (length acc) < eff size ->
    forall lk lk', lk = [] ->
    match iterate (page_cb mk keep size) None 0 l (acc, lk) with
    | Ok (x, k, d) => exists lk2, iterate (chan_cb mk keep size) None 0 l (acc, lk') = Ok (x, lk2, d) /\
        (d = false -> lk2 = Some k) /\ (d = true -> k = [])
    | _ => False
    end.
  Proof.
    revert acc. induction l as [|[k v] l IH]; intros acc Hd Hlt lk lk' Hlk.
    - cbn. by exists lk'.
    - apply Forall_cons in Hd as [[a Ha] Hd]. cbn [fst snd] in Ha.
      cbn [iterate]. unfold page_cb at 1, chan_cb at 1. rewrite Ha. cbn [fst snd].
      destruct (keep a) eqn:Hk.
      + destruct (N.leb_spec size (N.of_nat (length (acc ++ [a])))) as [Hs|Hs].
        * exists (Some k). done.
        * apply IH; [done|unfold eff; lia|done].
      + by apply IH.
  Qed.
  (** The channel listings return the same pages as the others, after checking the token. *)
  Lemma channel_filtered db prefix po : prefix <> [] -> decodes (scan db prefix (increment_vec_u8 prefix) po) ->
    list_channel mk keep db prefix po =
    (if token_in_prefix prefix po then list_filtered mk keep db prefix (increment_vec_u8 prefix) po else Err tt).
  Proof.
    intros Hp Hd. unfold list_channel. destruct (token_in_prefix prefix po); [|done]. cbn [negb].
    unfold list_filtered, for_each, for_each_paged. cbn [po_size].
    change (scan db prefix (increment_vec_u8 prefix) (POpts None (po_token po) (po_reverse po)))
      with (scan db prefix (increment_vec_u8 prefix) po).
    set (l := scan db prefix (increment_vec_u8 prefix) po) in *.
    assert (H0 : N.of_nat (length (@nil A)) < eff (psize po)) by (unfold eff; cbn; lia).
    pose proof (chan_cb_split (psize po) l [] Hd H0 [] None eq_refl) as Hc.
    destruct (iter_cb (psize po) l [] Hd H0) as [[H1 H2]|(pre & k & v & suf & H1 & H2 & H3)].
    - rewrite H2 in Hc |- *. destruct Hc as (lk2 & -> & _ & _). done.
    - rewrite H3 in Hc |- *. destruct Hc as (lk2 & -> & Hf & _). rewrite (Hf eq_refl). cbn [page_of].
      assert (k <> []) as Hk.
      { eapply (scan_key_nonempty db prefix (increment_vec_u8 prefix) po k v Hp). fold l. rewrite H1.
        apply elem_of_app. right. left. }
      by destruct k.
  Qed.

  Lemma omap_app' l1 l2 : omap entry (l1 ++ l2) = omap entry l1 ++ omap entry l2.
  Proof. apply omap_app. Qed.

  Lemma follow_spec db start stop sz rev : start <> [] ->
    forall fuel tok, decodes (scan db start stop (POpts sz tok rev)) ->
    (length (scan db start stop (POpts sz tok rev)) < fuel)%nat ->
    exists init last,
      follow (fun t => list_filtered mk keep db start stop (POpts sz t rev)) fuel tok = Some (Ok (init ++ [last])) /\
      concat (init ++ [last]) = omap entry (scan db start stop (POpts sz tok rev)) /\
      Forall (fun p => N.of_nat (length p) = eff (default PAGE_SIZE_MAX sz)) init /\
      N.of_nat (length last) < eff (default PAGE_SIZE_MAX sz).
  Proof.
    intros Hst. induction fuel as [|fuel IH]; intros tok Hd Hlen; [lia|].
    cbn [follow].
    destruct (page_split db start stop (POpts sz tok rev) Hst Hd) as [[H1 H2]|(pre & k & v & suf & H1 & H2 & H3)].
    - rewrite H2. exists [], (omap entry (scan db start stop (POpts sz tok rev))).
      split; [done|]. cbn. rewrite app_nil_r. done.
    - rewrite H3. pose proof (scan_token db start stop sz rev tok pre k v suf H1) as Hsuf.
      assert (Hd' : decodes (scan db start stop (POpts sz (Some k) rev))).
      { rewrite Hsuf. unfold decodes in *. rewrite H1 in Hd. apply Forall_app in Hd as [_ Hd].
        by apply Forall_cons in Hd as [_ Hd]. }
      assert (Hl : (length (scan db start stop (POpts sz (Some k) rev)) < fuel)%nat).
      { rewrite Hsuf. rewrite H1, app_length in Hlen. cbn in Hlen. lia. }
      destruct (IH (Some k) Hd' Hl) as (init & last & Hf & Hc & Hi & Hla).
      rewrite Hf. exists (omap entry (pre ++ [(k, v)]) :: init), last.
      split; [done|]. split.
      + cbn [app concat]. rewrite Hc, Hsuf, H1.
        replace (pre ++ (k, v) :: suf) with ((pre ++ [(k, v)]) ++ suf) by (rewrite <- app_assoc; done).
        by rewrite !omap_app'.
      + split; [|done]. constructor; done.
  Qed.

End Scan.

(** ** Deletion *)
Section Delete.
  Context {V : Type}.
  Implicit Types (db : kv V) (l : list (bytes * V)).
  Lemma iter_del (limit : option N) (l : list (bytes * V)) (t : batch V) (c : N) :
    exists n : nat, iterate (fun (t : batch V) k (_ : V) => Ok (E := unit) (tdel t k, false)) limit c l t =
        Ok (fold_left (fun t r => tdel t r.1) (take n l) t, true) /\
      (match limit with
       | None => n = length l
       | Some s => n = Nat.min (length l) (N.to_nat (eff (s - c)))
       end).
  Proof.
    revert t c. induction l as [|[k v] l IH]; intros t c.
    - exists 0%nat. cbn. split; [done|]. destruct limit; [|done]. cbn. done.
    - cbn [iterate]. destruct limit as [s|].
      + destruct (N.leb_spec s (c + 1)) as [Hs|Hs].
        * exists 1%nat. cbn [take fold_left fst]. rewrite take_0. split; [done|]. unfold eff. cbn [length]. lia.
        * destruct (IH (tdel t k) (c + 1)) as (n & Hn & He). exists (S n). cbn [take fold_left fst]. split; [done|].
          unfold eff in *. cbn [length]. lia.
      + destruct (IH (tdel t k) c) as (n & Hn & He). exists (S n). cbn [take fold_left fst length].
        split; [done|]. by f_equal.
  Qed.
  Lemma fold_del_lookup l (t : batch V) k :
    fold_left (fun t r => tdel t r.1) l t !! k = if decide (k ∈ l.*1) then Some None else t !! k.
  Proof.
    revert t. induction l as [|[k' v] l IH]; intros t.
    - cbn. rewrite decide_False; [done|apply not_elem_of_nil].
    - cbn [fold_left fst]. rewrite IH. cbn [fmap list_fmap fst]. destruct (decide (k ∈ l.*1)) as [H|H].
      + rewrite decide_True; [done|]. by right.
      + unfold tdel. destruct (decide (k = k')) as [->|Hne].
        * rewrite lookup_insert, decide_True; [done|left].
        * rewrite lookup_insert_ne by done. rewrite decide_False; [done|]. rewrite elem_of_cons. tauto.
  Qed.
  Lemma fold_del_size l : NoDup l.*1 -> size (fold_left (fun (t : batch V) r => tdel t r.1) l ∅) = length l.
  Proof.
    intros Hnd.
    assert (Hdom : dom (fold_left (fun (t : batch V) r => tdel t r.1) l ∅) = (list_to_set l.*1 : gset bytes)).
    { apply set_eq. intros k. rewrite elem_of_dom, elem_of_list_to_set, fold_del_lookup.
      destruct (decide (k ∈ l.*1)); split; try done.
      intros [x Hx]. by rewrite lookup_empty in Hx. }
    rewrite <- size_dom, Hdom, size_list_to_set by done. by rewrite fmap_length.
  Qed.

  Lemma scan_nodup db start stop po : NoDup (scan db start stop po).*1.
  Proof.
    pose proof (scan_sorted db start stop po) as Hs. induction Hs as [|a l Hs IH Hf]; [constructor|].
    cbn. constructor; [|done]. intros Hin. apply elem_of_list_fmap in Hin as (b & He & Hb).
    rewrite Forall_forall in Hf. pose proof (Hf b Hb) as Ho. unfold ordered in Ho.
    by destruct (po_reverse po); unfold klt, kgt in Ho; rewrite He, blt_irrefl in Ho.
  Qed.

  Definition page_rows (po : popts) (l : list (bytes * V)) : nat :=
    match po_size po with None => length l | Some s => Nat.min (length l) (N.to_nat (eff s)) end.
  Lemma delete_page_spec db start stop po :
    let l := scan db start stop po in
    let n := page_rows po l in
    (delete_page db start stop po).2 = N.of_nat n /\
    (forall k, (delete_page db start stop po).1 !! k = if decide (k ∈ (take n l).*1) then None else db !! k) /\
    scan (delete_page db start stop po).1 start stop po = drop n l.
  Proof.
    intros l n. unfold delete_page, for_each_paged. fold l.
    destruct (iter_del (po_size po) l ∅ 0) as (m & -> & Hm).
    assert (m = n) as ->.
    { subst n. unfold page_rows. destruct (po_size po) as [s|]; [|done]. by rewrite N.sub_0_r in Hm. }
    cbn [fst snd].
    assert (Hnd : NoDup (take n l).*1).
    { pose proof (scan_nodup db start stop po) as H. fold l in H. rewrite <- (take_drop n l), fmap_app in H.
      by apply NoDup_app in H as [H _]. }
    assert (Hn : (n <= length l)%nat).
    { subst n. unfold page_rows. destruct (po_size po); lia. }
    split; [|split].
    - rewrite fold_del_size by done. by rewrite take_length_le.
    - intros k. rewrite lookup_commit. unfold tget. rewrite fold_del_lookup.
      destruct (decide _); [done|]. by rewrite lookup_empty.
    - apply (sorted_unique (po_reverse po)); [apply scan_sorted| |].
      { pose proof (scan_sorted db start stop po) as Hs. fold l in Hs. rewrite <- (take_drop n l) in Hs.
        by apply sorted_app_inv in Hs as (_ & Hs & _). }
      intros [k v]. rewrite scan_elem, lookup_commit. unfold tget. rewrite fold_del_lookup.
      pose proof (scan_nodup db start stop po) as H. fold l in H. rewrite <- (take_drop n l), fmap_app in H.
      apply NoDup_app in H as (_ & Hx & _).
      assert (Hin : (k, v) ∈ take n l ++ drop n l <-> db !! k = Some v /\ in_bounds (bounds start stop po) k = true).
      { rewrite take_drop. apply scan_elem. }
      rewrite elem_of_app in Hin.
      destruct (decide (k ∈ (take n l).*1)) as [Hk|Hk].
      + split; [intros [? _]; done|]. intros Hd. exfalso. apply (Hx k Hk). apply elem_of_list_fmap. by exists (k, v).
      + rewrite lookup_empty. rewrite <- Hin. split; [|by right]. intros [H|H]; [|done].
        exfalso. apply Hk. apply elem_of_list_fmap. by exists (k, v).
  Qed.

  Lemma delete_paginated_spec start stop po fuel db total : (length (scan db start stop po) < fuel)%nat ->
    exists db', delete_paginated fuel db start stop po total = Some (db', total + N.of_nat (length (scan db start stop po))) /\
      forall k, db' !! k = if in_bounds (bounds start stop po) k then None else db !! k.
  Proof.
    revert db total. induction fuel as [|fuel IH]; intros db total Hl; [lia|].
    cbn [delete_paginated]. destruct (delete_page_spec db start stop po) as (H2 & H1 & H3).
    destruct (delete_page db start stop po) as [db1 c] eqn:E. cbn [fst snd] in *.
    set (l := scan db start stop po) in *.
    assert (Hc : c = 0 <-> l = []).
    { rewrite H2. unfold page_rows. destruct l; cbn [length]; [split; [done|]; intros _; by destruct (po_size po)|].
      split; [|done]. destruct (po_size po); unfold eff; lia. }
    destruct (N.eqb_spec c 0) as [H0|H0].
    - apply Hc in H0. exists db1. split; [f_equal; f_equal; rewrite H0; cbn; lia|].
      intros k. rewrite H1, H0. rewrite take_nil, decide_False by apply not_elem_of_nil.
      destruct (in_bounds (bounds start stop po) k) eqn:Hb; [|done].
      destruct (db !! k) as [v|] eqn:Hv; [|done]. exfalso.
      assert (Hin : (k, v) ∈ l) by (by apply scan_elem). rewrite H0 in Hin. by apply elem_of_nil in Hin.
    - assert (Hne : l <> []) by (intros H; by apply H0, Hc).
      assert (Hn : (0 < page_rows po l <= length l)%nat).
      { unfold page_rows. destruct l; [done|]. cbn [length]. destruct (po_size po); unfold eff; lia. }
      assert (Hl' : (length (scan db1 start stop po) < fuel)%nat).
      { rewrite H3, drop_length. lia. }
      destruct (IH db1 (total + c) Hl') as (db' & -> & Hdb'). exists db'. split.
      + f_equal. f_equal. rewrite H3, drop_length, H2. lia.
      + intros k. rewrite Hdb', H1. destruct (in_bounds (bounds start stop po) k) eqn:Hb; [done|].
        destruct (decide _) as [Hk|]; [|done]. exfalso.
        apply elem_of_list_fmap in Hk as ([k' v] & -> & Hk).
        assert (Hkl : (k', v) ∈ l) by (rewrite <- (take_drop (page_rows po l) l); apply elem_of_app; by left).
        apply scan_elem in Hkl as [_ Hkl]. cbn in Hb. congruence.
  Qed.
End Delete.

(** ** Listing across owner addresses *)
Lemma omap_cons' {X Y} (f : X -> option Y) x l :
  omap f (x :: l) = match f x with Some y => y :: omap f l | None => omap f l end.
Proof. done. Qed.
Section Owners.
  Context {V A : Type} (mk : bytes -> bytes -> V -> option A) (prefix : bytes -> bytes).
  Context (L : nat) (HL : forall a, length (prefix a) = L) (Hne : L <> 0%nat).
  Implicit Types (db : kv V) (os : list bytes).

  Definition region db (a : bytes) (t : option bytes) : list (bytes * V) :=
    scan db (prefix a) (increment_vec_u8 (prefix a)) (POpts None t false).
  Definition seg db (tok : option bytes) (a : bytes) : list (bytes * (bytes * V)) :=
    match owner_token prefix tok a with Some t => map (pair a) (region db a t) | None => [] end.
  Definition segs db tok os := concat (map (seg db tok) os).
  Definition oentry (r : bytes * (bytes * V)) : option (bytes * A) :=
    match mk r.1 r.2.1 r.2.2 with Some x => Some (r.1, x) | None => None end.
  Definition odecodes (l : list (bytes * (bytes * V))) : Prop := Forall (fun r => is_Some (mk r.1 r.2.1 r.2.2)) l.

  Lemma oentry_map a l : omap oentry (map (pair a) l) = map (pair a) (omap (entry (fun k v => mk a k v) (fun _ => true)) l).
  Proof.
    induction l as [|[k v] l IH]; [done|]. cbn [map]. rewrite !omap_cons', IH.
    unfold oentry, entry. cbn [fst snd]. by destruct (mk a k v).
  Qed.
  Lemma odecodes_map a l : odecodes (map (pair a) l) <-> decodes (fun k v => mk a k v) l.
  Proof using Type. unfold odecodes, decodes. by rewrite Forall_map. Qed.

  Lemma owners_loop_spec db tok size os acc lk : 1 <= size -> odecodes (segs db tok os) ->
    N.of_nat (length acc) < size ->
    (N.of_nat (length (acc ++ omap oentry (segs db tok os))) < size /\
     exists lk', owners_loop mk prefix db tok size os (acc, lk) = Ok (acc ++ omap oentry (segs db tok os), lk')) \/
    (exists pre a k v suf, segs db tok os = pre ++ (a, (k, v)) :: suf /\
      N.of_nat (length (acc ++ omap oentry (pre ++ [(a, (k, v))]))) = size /\
      owners_loop mk prefix db tok size os (acc, lk) = Ok (acc ++ omap oentry (pre ++ [(a, (k, v))]), Some k)).
  Proof using HL Hne.
    intros Hsz. revert acc lk. induction os as [|a os IH]; intros acc lk Hd Hlt.
    - left. cbn. rewrite app_nil_r. split; [done|]. by exists lk.
    - cbn [owners_loop fst snd]. unfold segs in *. cbn [map concat] in *.
      destruct (N.leb_spec size (N.of_nat (length acc))) as [?|_]; [lia|].
      apply Forall_app in Hd as [Hd1 Hd2].
      destruct (owner_token prefix tok a) as [t|] eqn:Et.
      2:{ assert (Hseg : seg db tok a = []) by (unfold seg; by rewrite Et). rewrite Hseg. cbn [app]. by apply IH. }
      assert (Hseg : seg db tok a = map (pair a) (region db a t)) by (unfold seg; by rewrite Et).
      rewrite Hseg in Hd1 |- *. clear Hseg.
      unfold list_owner. rewrite limited_filtered by done.
      assert (Hp : prefix a <> []). { intros E. pose proof (HL a) as H. rewrite E in H. cbn in H. lia. }
      set (po := POpts (Some (size - N.of_nat (length acc))) t false).
      assert (Hd1' : decodes (fun k v => mk a k v) (scan db (prefix a) (increment_vec_u8 (prefix a)) po)).
      { by apply odecodes_map. }
      destruct (page_split (fun k v => mk a k v) (fun _ => true) db (prefix a) (increment_vec_u8 (prefix a)) po Hp Hd1')
        as [[H1 H2]|(pre & k & v & suf & H1 & H2 & H3)].
      + rewrite H2. change (scan db (prefix a) (increment_vec_u8 (prefix a)) po) with (region db a t) in *.
        assert (Hs : psize po = size - N.of_nat (length acc)) by done. rewrite Hs in H1.
        assert (Hlt' : N.of_nat (length (acc ++ map (pair a) (omap (entry (fun k v => mk a k v) (fun _ => true)) (region db a t)))) < size).
        { rewrite app_length, map_length. unfold eff in H1. lia. }
        rewrite omap_app, oentry_map, app_assoc.
        destruct (IH _ lk Hd2 Hlt') as [[H4 H5]|(pre & a' & k & v & suf & H4 & H5 & H6)].
        * left. done.
        * right. exists (map (pair a) (region db a t) ++ pre), a', k, v, suf.
          split; [rewrite <- app_assoc; by f_equal|]. rewrite <- app_assoc, omap_app, oentry_map, app_assoc. done.
      + rewrite H3. change (scan db (prefix a) (increment_vec_u8 (prefix a)) po) with (region db a t) in *.
        right. exists (map (pair a) pre), a, k, v, (map (pair a) suf ++ concat (map (seg db tok) os)).
        assert (Hs : psize po = size - N.of_nat (length acc)) by done. rewrite Hs in H2.
        split; [rewrite H1, map_app; cbn [map]; by rewrite <- app_assoc|].
        replace (map (pair a) pre ++ [(a, (k, v))]) with (map (pair a) (pre ++ [(k, v)])) by (by rewrite map_app).
        rewrite oentry_map.
        assert (Hfull : N.of_nat (length (acc ++ map (pair a)
            (omap (entry (fun k v => mk a k v) (fun _ => true)) (pre ++ [(k, v)])))) = size).
        { rewrite app_length, map_length. unfold eff in H2. lia. }
        split; [done|]. destruct os as [|b os]; [done|]. cbn [owners_loop fst]. rewrite Hfull, N.leb_refl. done.
  Qed.

  Lemma prefix_blt p q r : length p = length q -> blt p q = true -> blt (p ++ r) q = true.
  Proof using Type.
    clear. intros Hl H. apply blt_lex in H. apply blt_lex.
    replace q with (q ++ []) by apply app_nil_r. rewrite (lex_app p r q []) by done. by rewrite H.
  Qed.
  Lemma prefix_eq_len p q k : length p = length q -> is_prefix p k = true -> is_prefix q k = true -> p = q.
  Proof using Type.
    clear. intros Hl H1 H2. apply is_prefix_spec in H1 as [r1 ->]. apply is_prefix_spec in H2 as [r2 H2].
    by apply app_inj_len in H2 as [H2 _].
  Qed.

  Lemma segs_split db tok os pre a k v suf : segs db tok os = pre ++ (a, (k, v)) :: suf ->
    exists os1 os2 t pre1 suf1, os = os1 ++ a :: os2 /\ owner_token prefix tok a = Some t /\
      region db a t = pre1 ++ (k, v) :: suf1 /\ suf = map (pair a) suf1 ++ segs db tok os2.
  Proof using Type.
    clear. revert pre. induction os as [|b os IH]; intros pre H.
    - unfold segs in H. cbn in H. by destruct pre.
    - unfold segs in H. cbn [map concat] in H. fold (segs db tok os) in H.
      assert (Hcase : (exists pre', pre = seg db tok b ++ pre' /\ segs db tok os = pre' ++ (a, (k, v)) :: suf) \/
        (exists suf', seg db tok b = pre ++ (a, (k, v)) :: suf' /\ suf = suf' ++ segs db tok os)).
      { clear -H. revert pre H. generalize (seg db tok b) as l. induction l as [|x l IHl]; intros pre H.
        - left. by exists pre.
        - destruct pre as [|y pre]; cbn in H.
          + injection H as -> <-. right. exists l. done.
          + injection H as -> H. destruct (IHl pre H) as [(p' & -> & H')|(s' & -> & H')].
            * left. by exists p'.
            * right. by exists s'. }
      destruct Hcase as [(pre' & -> & H')|(suf' & H' & ->)].
      + destruct (IH pre' H') as (os1 & os2 & t & pre1 & suf1 & -> & H2 & H3 & H4).
        exists (b :: os1), os2, t, pre1, suf1. done.
      + unfold seg in H'. destruct (owner_token prefix tok b) as [t|] eqn:Et; [|by destruct pre].
        apply map_eq_app in H' as (l1 & l2 & Hl & <- & H2). destruct l2 as [|[k2 v2] l2]; [done|].
        cbn [map] in H2. injection H2 as -> -> -> <-.
        exists [], os, t, l1, l2. done.
  Qed.

  Lemma segs_token db tok os pre a k v suf :
    StronglySorted (fun x y => blt (prefix x) (prefix y) = true) os ->
    (forall a t k v, a ∈ os -> (k, v) ∈ region db a t -> t = None \/ (exists u, t = Some u /\ is_prefix (prefix a) u = true) ->
       is_prefix (prefix a) k = true) ->
    segs db tok os = pre ++ (a, (k, v)) :: suf -> segs db (Some k) os = suf.
  Proof using HL.
    clear Hne. intros Hs Hok H. destruct (segs_split _ _ _ _ _ _ _ _ H) as (os1 & os2 & t & pre1 & suf1 & -> & Ht & Hr & ->).
    assert (Hk : is_prefix (prefix a) k = true).
    { apply (Hok a t k v); [apply elem_of_app; right; left| |].
      - rewrite Hr. apply elem_of_app. right. left.
      - unfold owner_token in Ht. destruct tok as [u|]; [|left; congruence].
        destruct (is_prefix (prefix a) u) eqn:E; [right; exists u; split; congruence|].
        destruct (blt u (prefix a)); [left; congruence|done]. }
    assert (Hs1 : forall b, b ∈ os1 -> blt (prefix b) (prefix a) = true).
    { intros b Hb. clear -Hs Hb. induction os1 as [|x os1 IH]; [by apply elem_of_nil in Hb|].
      cbn in Hs. apply StronglySorted_inv in Hs as [Hs Hf]. apply elem_of_cons in Hb as [->|Hb]; [|by apply IH].
      rewrite Forall_forall in Hf. apply (Hf a). apply elem_of_app. right. left. }
    assert (Hs2 : forall b, b ∈ os2 -> blt (prefix a) (prefix b) = true).
    { clear -Hs. induction os1 as [|x os1 IH]; cbn in Hs; apply StronglySorted_inv in Hs as [Hs Hf]; [|by apply IH].
      rewrite Forall_forall in Hf. done. }
    unfold segs. rewrite map_app, concat_app. cbn [map concat].
    assert (He1 : concat (map (seg db (Some k)) os1) = []).
    { clear -Hs1 Hk HL. induction os1 as [|b os1 IH]; [done|]. cbn [map concat].
      rewrite IH by (intros c Hc; apply Hs1; by right). rewrite app_nil_r. unfold seg, owner_token.
      pose proof (Hs1 b ltac:(left)) as Hb.
      destruct (is_prefix (prefix b) k) eqn:E.
      { rewrite (prefix_eq_len (prefix a) (prefix b) k), blt_irrefl in Hb; [done|by rewrite !HL|done|done]. }
      destruct (blt k (prefix b)) eqn:E2; [|done]. exfalso.
      apply is_prefix_spec in Hk as [r ->].
      pose proof (blt_trans _ _ _ E2 Hb) as H. rewrite blt_nle in H. apply negb_true_iff in H.
      assert (ble (prefix a) (prefix a ++ r) = true); [|congruence].
      apply ble_lex. replace (prefix a) with (prefix a ++ []) at 1 by apply app_nil_r. rewrite lex_app_l. by destruct r. }
    rewrite He1. cbn [app]. f_equal.
    - unfold seg, owner_token. rewrite Hk. f_equal. unfold region in *. by eapply scan_token.
    - assert (Hall : forall b, b ∈ os2 -> seg db (Some k) b = seg db tok b).
      { intros b Hb. specialize (Hs2 b Hb). unfold seg.
        assert (Hgen : forall u, (is_prefix (prefix a) u = true \/ blt u (prefix a) = true) ->
          owner_token prefix (Some u) b = Some None).
        { intros u Hu. unfold owner_token.
          assert (Hub : blt u (prefix b) = true).
          { destruct Hu as [Hu|Hu]; [|by eapply blt_trans]. apply is_prefix_spec in Hu as [r ->].
            apply prefix_blt; [by rewrite !HL|done]. }
          destruct (is_prefix (prefix b) u) eqn:E; [|by rewrite Hub].
          exfalso. apply is_prefix_spec in E as [r ->]. rewrite blt_nle in Hub. apply negb_true_iff in Hub.
          assert (ble (prefix b) (prefix b ++ r) = true); [|congruence].
          apply ble_lex. replace (prefix b) with (prefix b ++ []) at 1 by apply app_nil_r. rewrite lex_app_l. by destruct r. }
        rewrite (Hgen k) by (by left).
        destruct tok as [u|]; [|done]. rewrite (Hgen u); [done|].
        unfold owner_token in Ht. destruct (is_prefix (prefix a) u); [by left|]. destruct (blt u (prefix a)); [by right|done]. }
      f_equal. clear -Hall. induction os2 as [|b os2 IH]; [done|]. cbn [map]. rewrite Hall by left.
      f_equal. apply IH. intros c Hc. apply Hall. by right.
  Qed.

  Lemma owners_follow db os size : 1 <= size ->
    StronglySorted (fun x y => blt (prefix x) (prefix y) = true) os ->
    (forall a t k v, a ∈ os -> (k, v) ∈ region db a t -> t = None \/ (exists u, t = Some u /\ is_prefix (prefix a) u = true) ->
       is_prefix (prefix a) k = true) ->
    forall fuel tok, odecodes (segs db tok os) -> (length (segs db tok os) < fuel)%nat ->
    exists init last,
      follow (fun t => list_owners mk prefix db os size t) fuel tok = Some (Ok (init ++ [last])) /\
      concat (init ++ [last]) = omap oentry (segs db tok os) /\
      Forall (fun p => N.of_nat (length p) = size) init /\ N.of_nat (length last) < size.
  Proof using HL Hne.
    intros Hsz Hs Hok. induction fuel as [|fuel IH]; intros tok Hd Hlen; [lia|].
    cbn [follow]. unfold list_owners at 1.
    destruct (owners_loop_spec db tok size os [] None Hsz Hd) as [[H1 [lk H2]]|(pre & a & k & v & suf & H1 & H2 & H3)];
      [cbn; lia| |].
    - rewrite H2. cbn [app] in *. destruct (N.leb_spec size (N.of_nat (length (omap oentry (segs db tok os))))); [lia|].
      exists [], (omap oentry (segs db tok os)). split; [done|]. cbn. by rewrite app_nil_r.
    - rewrite H3. cbn [app] in *. rewrite H2, N.leb_refl.
      pose proof (segs_token db tok os pre a k v suf Hs Hok H1) as Hsuf.
      assert (Hd' : odecodes (segs db (Some k) os)).
      { rewrite Hsuf. unfold odecodes in *. rewrite H1 in Hd. apply Forall_app in Hd as [_ Hd].
        by apply Forall_cons in Hd as [_ Hd]. }
      assert (Hl : (length (segs db (Some k) os) < fuel)%nat).
      { rewrite Hsuf. rewrite H1, app_length in Hlen. cbn in Hlen. lia. }
      destruct (IH (Some k) Hd' Hl) as (init & last & Hf & Hc & Hi & Hla).
      rewrite Hf. exists (omap oentry (pre ++ [(a, (k, v))]) :: init), last. split; [done|]. split.
      + cbn [app concat]. rewrite Hc, Hsuf, H1.
        replace (pre ++ (a, (k, v)) :: suf) with ((pre ++ [(a, (k, v))]) ++ suf) by (rewrite <- app_assoc; done).
        by rewrite !omap_app.
      + split; [|done]. constructor; done.
  Qed.
End Owners.
