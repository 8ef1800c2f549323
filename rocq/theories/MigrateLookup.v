(** Reading the by-address index: what the lookup returns, and the winner among the verifiers of an address. *)
From Coq Require Import ZifyN ZifyNat ZifyBool.
From Verif Require Import CodecProofs PagingProofs.
From Verif Require Export MigrateInv.
#[local] Open Scope N_scope.

Lemma scan_map (db : kv bytes) p k :
  (list_to_map (scan db p (increment_vec_u8 p) (POpts None None false)) : kv bytes) !! k = if in_prefix_scan p k then db !! k else None.
Proof.
  assert (Hel : forall v, (list_to_map (scan db p (increment_vec_u8 p) (POpts None None false)) : kv bytes) !! k = Some v <->
    db !! k = Some v /\ in_prefix_scan p k = true).
  { intros v. rewrite <- elem_of_list_to_map by apply scan_nodup. rewrite scan_elem. done. }
  destruct (in_prefix_scan p k).
  - destruct (db !! k) as [v|] eqn:E; [by apply Hel|]. apply eq_None_not_Some. intros [v H]. apply Hel in H as [H _]. congruence.
  - apply eq_None_not_Some. intros [v H]. by apply Hel in H as [_ H].
Qed.
Lemma overlay_lookup db t p k :
  overlay db t p !! k = match (if is_prefix p k then t !! k else None) with Some x => x | None => if in_prefix_scan p k then db !! k else None end.
Proof.
  unfold overlay. revert k. apply (map_fold_ind (fun m (t : batch bytes) => forall k, m !! k =
    match (if is_prefix p k then t !! k else None) with Some x => x | None => if in_prefix_scan p k then db !! k else None end)).
  - intros k. rewrite lookup_empty, scan_map. by destruct (is_prefix p k).
  - intros i x t' m Hi IH k. destruct (is_prefix p i) eqn:Ei.
    + destruct (decide (i = k)) as [<-|Hne].
      * rewrite Ei, lookup_insert. destruct x; [apply lookup_insert|apply lookup_delete].
      * rewrite (lookup_insert_ne t') by done. destruct x; [rewrite lookup_insert_ne by done|rewrite lookup_delete_ne by done]; apply IH.
    + destruct (decide (i = k)) as [<-|Hne]; [rewrite IH, Ei; done|]. rewrite (lookup_insert_ne t') by done. apply IH.
Qed.

(** ** The winner *)
Lemma better_total x y : better x y = false -> better y x = true.
Proof.
  unfold better. rewrite orb_false_iff, orb_true_iff. intros [H1 H2]. destruct (blt_total x.2 y.2) as [H|[H|H]]; [by left| |congruence].
  right. rewrite H in *. rewrite bool_decide_true in * by done. cbn in *. lia.
Qed.
Lemma better_trans x y z : better x y = true -> better y z = true -> better x z = true.
Proof.
  unfold better. rewrite !orb_true_iff, !andb_true_iff, !bool_decide_eq_true, !N.leb_le. intros [H|[-> H]] [H'|[E H']].
  - left. by eapply blt_trans.
  - left. by rewrite <- E.
  - by left.
  - right. split; [done|lia].
Qed.
Lemma better_refl x : better x x = true.
Proof. unfold better. rewrite bool_decide_true by done. cbn. rewrite N.leb_refl. by rewrite orb_true_r. Qed.
Lemma winner_from_spec l : forall w, (winner_from w l = w \/ winner_from w l ∈ l) /\ better (winner_from w l) w = true /\ forall c, c ∈ l -> better (winner_from w l) c = true.
Proof.
  induction l as [|c l IH]; intros w; cbn [winner_from].
  - split; [by left|]. split; [apply better_refl|]. intros c H. by apply elem_of_nil in H.
  - destruct (better w c) eqn:E.
    + destruct (IH w) as (H1 & H2 & H3). split; [destruct H1; [by left|right; by right]|]. split; [done|].
      intros d Hd. apply elem_of_cons in Hd as [->|Hd]; [by eapply better_trans|by apply H3].
    + destruct (IH c) as (H1 & H2 & H3). split; [right; destruct H1 as [->|H1]; [by left|by right]|]. split.
      * eapply better_trans; [exact H2|]. by apply better_total.
      * intros d Hd. apply elem_of_cons in Hd as [->|Hd]; [done|by apply H3].
Qed.
Lemma select_winner_spec l : match select_winner l with
  | None => l = []
  | Some w => exists h, (w, h) ∈ l /\ forall f h', (f, h') ∈ l -> blt h' h = true \/ (h' = h /\ w <= f)
  end.
Proof.
  destruct l as [|c l]; cbn [select_winner]; [done|]. destruct (winner_from_spec l c) as (H1 & H2 & H3). set (w := winner_from c l) in *.
  exists w.2. split; [rewrite <- surjective_pairing; destruct H1 as [->|H1]; [by left|by right]|].
  intros f h' Hin. assert (Hb : better w (f, h') = true) by (apply elem_of_cons in Hin as [->|Hin]; [done|by apply H3]).
  unfold better in Hb. cbn [fst snd] in Hb. rewrite orb_true_iff, andb_true_iff, bool_decide_eq_true, N.leb_le in Hb. destruct Hb as [Hb|[-> Hb]]; auto.
Qed.

Section Lookup.
  Variable ev : bytes -> option (option N).

  (** A key below the prefix with four more bytes. *)
  Lemma entry_elem db t a f h : addr_ok a = true -> wf ev db -> live_ok ev db t ->
    (f, h) ∈ verifications_by_address db t a <-> f < 2 ^ 32 /\ tget db t (by_key a f) = Some h /\ blen h = 24.
  Proof.
    intros Ha W L. destruct (live_step ev db t W L) as (W' & _ & _). unfold verifications_by_address.
    destruct a as [|x a0] eqn:Ea; [done|]. rewrite <- Ea in *. clear Ea x a0. set (p := RP_VerByAddress :: a).
    assert (Hlen : length p = S (length a)) by done.
    assert (Hex : Exists (fun x => x <> 255) p) by by left.
    rewrite elem_of_list_omap. split.
    - intros ([k v] & Hin & Hent). apply rows_elem in Hin. unfold by_entry in Hent. cbn [fst snd] in Hent.
      destruct (Nat.eqb_spec (length k) (length p + 4)) as [Hk|]; [|done]. destruct (N.eqb_spec (blen v) TS_LEN) as [Hv|]; [|done].
      injection Hent as <- <-. rewrite overlay_lookup in Hin.
      assert (Hpk : is_prefix p k = true /\ tget db t k = Some v).
      { destruct (is_prefix p k) eqn:Ep.
        - split; [done|]. unfold tget. destruct (t !! k); [done|]. by destruct (in_prefix_scan p k).
        - exfalso. destruct (in_prefix_scan p k) eqn:Es; [|done]. rewrite in_prefix_scan_spec in Es; [congruence| |done|lia]. by apply (wf_keys _ _ W k v). }
      destruct Hpk as [Hp Ht]. apply is_prefix_spec in Hp as [r ->]. unfold p in Ht. cbn [app] in Ht. rewrite <- lookup_commit in Ht.
      destruct (wf_index _ _ W' (a ++ r) v Ht) as [[Hv' _]|(fid & a' & Hf & Ha' & E & Hadd)]; [rewrite Hv in Hv'; done|].
      unfold by_key in E. injection E as E. assert (Hl : length a = length a').
      { apply (f_equal length) in E. unfold make_fid_key in E. rewrite !app_length, be_length in E. rewrite app_length in Hk. lia. }
      apply app_inj_len in E as [-> ->]; [|done]. unfold read_fid_key. rewrite drop_app_alt by done. rewrite take_ge by (unfold make_fid_key; by rewrite be_length).
      unfold make_fid_key in *. rewrite be_dec_be by done. split; [done|]. split; [|done].
      rewrite lookup_commit in Ht. done.
    - intros (Hf & Ht & Hh). exists (by_key a f, h). split.
      + apply rows_elem. rewrite overlay_lookup. change (by_key a f) with (p ++ make_fid_key f) in *.
        rewrite (proj2 (is_prefix_spec p (p ++ make_fid_key f))) by by eexists.
        rewrite in_prefix_scan_spec; [| |done|rewrite app_length; lia].
        2:{ change (p ++ make_fid_key f) with (by_key a f). by apply by_key_bytes. }
        rewrite (proj2 (is_prefix_spec p (p ++ make_fid_key f))) by by eexists. exact Ht.
      + unfold by_entry. cbn [fst snd]. rewrite (proj2 (Nat.eqb_eq _ _)).
        2:{ unfold by_key, make_fid_key. cbn [length]. rewrite app_length, be_length. lia. }
        rewrite (proj2 (N.eqb_eq _ _)) by (rewrite Hh; done). cbn [andb]. unfold read_fid_key. change (by_key a f) with (p ++ make_fid_key f).
        rewrite drop_app_alt by done. rewrite take_ge by (unfold make_fid_key; by rewrite be_length). unfold make_fid_key. by rewrite be_dec_be.
  Qed.
End Lookup.
