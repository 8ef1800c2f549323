(** Lemmas for KeyShards.v. *)
From Verif Require Export GaslessProofs KeyShards.
From Coq Require Import ZifyN ZifyNat ZifyBool.
#[local] Open Scope N_scope.

(** Destructs an innermost scrutinee, wherever it occurs. *)
Ltac inner := match goal with |- context [match ?x with _ => _ end] => lazymatch x with context [match _ with _ => _ end] => fail | _ => destruct x end end.

Definition same_keys (s t : gst) : Prop :=
  g_rec s = g_rec t /\ g_own s = g_own t /\ g_cnt s = g_cnt t /\ g_un s = g_un t /\ g_an s = g_an t.
Lemma same_refl s : same_keys s s.
Proof. repeat split. Qed.
Lemma same_sym s t : same_keys s t -> same_keys t s.
Proof. intros (?&?&?&?&?). repeat split; congruence. Qed.
Lemma same_trans s t u : same_keys s t -> same_keys t u -> same_keys s u.
Proof. intros (?&?&?&?&?) (?&?&?&?&?). repeat split; congruence. Qed.

Definition kfid (m : kmsg) : N := match m with KA a => ka_fid a | KR r => kr_fid r end.
Definition kkey (m : kmsg) : bytes := match m with KA a => ka_key a | KR r => kr_key r end.

Section P.
  Variable meta : kadd -> option (N * bytes * N).
  Variable rec_add : kadd -> option bytes.
  Variable rec_rem : krem -> option bytes.
  Notation step := (gstep meta rec_add rec_rem).
  Notation run := (grun meta rec_add rec_rem).
  Notation madd := (merge_key_add meta rec_add).
  Notation mrem := (merge_key_remove rec_rem).

  Lemma use_same s e u bt : same_keys s (step s (GUse e u bt)).1.
  Proof.
    cbn [gstep]. destruct (use_key e s u bt) as [x|s'] eqn:E; [apply same_refl|]. cbn.
    destruct (use_spec _ _ _ _ _ E) as [->|(st & _ & _ & ->)]; repeat split.
  Qed.

  Lemma madd_same e rp s t m : same_keys s t ->
    match madd e rp s m, madd e rp t m with
    | inl a, inl b => a = b | inr (s', d), inr (t', d') => d = d' /\ same_keys s' t' | _, _ => False end.
  Proof.
    destruct s as [r1 o1 l1 c1 u1 a1], t as [r2 o2 l2 c2 u2 a2]. unfold same_keys. cbn. intros (<- & <- & <- & <- & <-).
    unfold merge_key_add. cbn [g_rec g_own g_last g_cnt g_un g_an].
    repeat (inner; try reflexivity). all: cbn; repeat split.
  Qed.
  Lemma mrem_same e s t m : same_keys s t ->
    match mrem e s m, mrem e t m with
    | inl a, inl b => a = b | inr (s', d), inr (t', d') => d = d' /\ same_keys s' t' | _, _ => False end.
  Proof.
    destruct s as [r1 o1 l1 c1 u1 a1], t as [r2 o2 l2 c2 u2 a2]. unfold same_keys. cbn. intros (<- & <- & <- & <- & <-).
    unfold merge_key_remove. cbn [g_rec g_own g_last g_cnt g_un g_an].
    repeat (inner; try reflexivity). all: cbn; repeat split.
  Qed.
  Lemma key_same e rp s t m : same_keys s t ->
    (step s (as_op e rp m)).2 = (step t (as_op e rp m)).2 /\ same_keys (step s (as_op e rp m)).1 (step t (as_op e rp m)).1.
  Proof.
    intros H. destruct m as [m|m]; cbn [as_op gstep].
    - destruct (negb rp && negb (add_body_ok m)); [split; [reflexivity|exact H]|]. pose proof (madd_same e rp s t m H) as Q.
      destruct (madd e rp s m) as [a|[s' d]], (madd e rp t m) as [b|[t' d']]; try contradiction; [subst b; split; [reflexivity|exact H]|].
      destruct Q as [<- Q]. split; [reflexivity|exact Q].
    - destruct (negb rp && negb (rem_body_ok m)); [split; [reflexivity|exact H]|]. pose proof (mrem_same e s t m H) as Q.
      destruct (mrem e s m) as [a|[s' d]], (mrem e t m) as [b|[t' d']]; try contradiction; [subst b; split; [reflexivity|exact H]|].
      destruct Q as [<- Q]. split; [reflexivity|exact Q].
  Qed.

  (** ** A data shard with the accounts [mine] *)
  Variable mine : N -> bool.
  Definition R (z d : gst) : Prop :=
    (forall f k, g_rec d !! (f, k) = if mine f then g_rec z !! (f, k) else None) /\
    (forall k, g_own d !! k = match g_own z !! k with Some o => if mine o then Some o else None | None => None end) /\
    (forall f, mine f = true -> g_cnt d !! f = g_cnt z !! f) /\
    (forall f, mine f = true -> g_un d !! f = g_un z !! f) /\
    (forall a, nonce_of (g_an d) a <= nonce_of (g_an z) a).
  Definition agree (e ed : genv) (m : kmsg) : Prop :=
    if mine (w32 (kfid m)) then ge_custody ed (kfid m) = ge_custody e (kfid m) /\ ge_signer ed (kfid m) (kkey m) = ge_signer e (kfid m) (kkey m)
    else ge_custody ed (kfid m) = None.

  Lemma R_init : R g_init g_init.
  Proof.
    unfold R, g_init. cbn. repeat split; intros; rewrite ?lookup_empty; try (destruct (mine _); reflexivity); try reflexivity; lia.
  Qed.
  Lemma R_same z d z' d' : same_keys z z' -> same_keys d d' -> R z d -> R z' d'.
  Proof. intros (A1&A2&A3&A4&A5) (B1&B2&B3&B4&B5) (H1&H2&H3&H4&H5). unfold R. rewrite <- A1, <- A2, <- A3, <- A4, <- A5, <- B1, <- B2, <- B3, <- B4, <- B5. repeat split; auto. Qed.

  Lemma R_add z d e ed m z' dl : Ginv z -> R z d -> madd e false z m = inr (z', dl) -> agree e ed (KA m) ->
    R z' (step d (GAdd ed true m)).1 /\ (mine (w32 (ka_fid m)) = true -> exists del, (step d (GAdd ed true m)).2 = GOk del).
  Proof.
    intros HI (H1&H2&H3&H4&H5) HM HA. destruct (add_spec _ _ _ _ _ _ _ _ HM) as (req & rs & dd & Em & Ed & _ & Er & (addr & Ea) & Eg & El & En & S1 & S2 & S3 & S4 & S5 & S6).
    unfold agree in HA. cbn [kfid kkey] in HA. cbn [gstep negb andb].
    destruct (mine (w32 (ka_fid m))) eqn:Emine.
    - destruct HA as [HC HG].
      assert (EN : nonce_of (g_un d) (ka_fid m) = nonce_of (g_un z) (ka_fid m)) by (unfold nonce_of; rewrite H4 by exact Emine; reflexivity).
      assert (EC : count_of (g_cnt d) (ka_fid m) = count_of (g_cnt z) (ka_fid m)) by (unfold count_of; rewrite H3 by exact Emine; reflexivity).
      assert (ER : g_rec d !! (w32 (ka_fid m), ka_key m) = g_rec z !! (w32 (ka_fid m), ka_key m)) by (rewrite H1, Emine; reflexivity).
      set (prior := match g_own z !! ka_key m with None => None | Some _ => g_rec z !! (w32 (ka_fid m), ka_key m) end).
      assert (Q : madd ed true d m = inr (GSt (<[(w32 (ka_fid m), ka_key m) := GRec m req]> (g_rec d)) (<[ka_key m := w32 (ka_fid m)]> (g_own d))
                 (<[(w32 (ka_fid m), ka_key m) := ka_ts m]> (g_last d)) (match prior with None => incr_count (g_cnt d) (ka_fid m) | Some _ => g_cnt d end)
                 (<[w32 (ka_fid m) := ka_nonce m]> (g_un d)) (g_an d), r_msg <$> prior)).
      { unfold merge_key_add. rewrite Em. destruct (N.ltb_spec dd (ka_ts m)); [lia|]. cbn [negb andb]. rewrite Ea, HC, <- Er, Ea.
        rewrite bool_decide_eq_true_2 by reflexivity. cbn [negb]. rewrite HG, Eg, El. cbn [Nat.eqb ED25519_LEN negb]. rewrite H2.
        destruct S6 as [(So & _ & Sc & _)|(So & _ & r & Sr & Sq & _)].
        - unfold prior. rewrite So. cbn beta iota. rewrite EC. destruct (N.leb_spec MAX_KEYS (count_of (g_cnt z) (ka_fid m))); [lia|].
          unfold cas_nonce. rewrite EN. destruct (N.leb_spec (ka_nonce m) (nonce_of (g_un z) (ka_fid m))); [lia|]. reflexivity.
        - assert (Ew : w32 (ka_fid m) = ka_fid m).
          { destruct HI as (I1 & _ & _ & I4). apply I1 in So as [r' Hr']. destruct (I4 _ _ _ Hr') as [-> _]. unfold w32. apply N.mod_mod. discriminate. }
          rewrite Ew in Emine. unfold prior. rewrite So, Emine, N.eqb_refl. cbn [negb]. rewrite ER, Sr, Sq, N.eqb_refl. cbn [negb].
          unfold cas_nonce. rewrite EN. destruct (N.leb_spec (ka_nonce m) (nonce_of (g_un z) (ka_fid m))); [lia|]. reflexivity. }
      rewrite Q. cbn [fst snd]. split; [|eauto]. unfold R. cbn [g_rec g_own g_cnt g_un g_an]. rewrite S1, S2, S4, S5. repeat split.
      + intros f k. destruct (decide ((f, k) = (w32 (ka_fid m), ka_key m))) as [[= -> ->]|N]; [rewrite !lookup_insert, Emine; reflexivity|].
        rewrite !lookup_insert_ne by congruence. apply H1.
      + intros k. destruct (decide (k = ka_key m)) as [->|N]; [rewrite !lookup_insert, Emine; reflexivity|]. rewrite !lookup_insert_ne by congruence. apply H2.
      + intros f Mf. destruct S6 as [(So & _ & _ & Sc)|(So & Sc & r & Sr & _)]; unfold prior; rewrite So; rewrite Sc; [|rewrite Sr; auto].
        unfold incr_count. rewrite EC. destruct (decide (f = w32 (ka_fid m))) as [->|N]; [rewrite !lookup_insert; reflexivity|]. rewrite !lookup_insert_ne by congruence. auto.
      + intros f Mf. destruct (decide (f = w32 (ka_fid m))) as [->|N]; [rewrite !lookup_insert; reflexivity|]. rewrite !lookup_insert_ne by congruence. auto.
      + intros a. apply H5.
    - split; [|discriminate].
      assert (Q : exists x, madd ed true d m = inl x).
      { unfold merge_key_add. rewrite Em. destruct (N.ltb_spec dd (ka_ts m)); [eauto|]. cbn [negb andb]. rewrite Ea, HA. eauto. }
      destruct Q as [x ->]. cbn [fst]. unfold R. rewrite S1, S2, S4, S5.
      split; [|split; [|split; [|split]]].
      + intros f k. rewrite H1. destruct (decide ((f, k) = (w32 (ka_fid m), ka_key m))) as [[= -> ->]|N]; [rewrite Emine; reflexivity|].
        rewrite lookup_insert_ne by congruence. reflexivity.
      + intros k. rewrite H2. destruct (decide (k = ka_key m)) as [->|N]; [|rewrite lookup_insert_ne by congruence; reflexivity]. rewrite lookup_insert, Emine.
        destruct S6 as [(So & _)|(So & _)]; rewrite So; [reflexivity|].
        destruct HI as (I1 & _ & _ & I4). pose proof So as So'. apply I1 in So' as [r' Hr']. destruct (I4 _ _ _ Hr') as [Ef _].
        assert (Ew : w32 (ka_fid m) = ka_fid m) by (rewrite Ef; unfold w32; apply N.mod_mod; discriminate).
        rewrite Ew in Emine. rewrite Emine. reflexivity.
      + intros f Mf. destruct S6 as [(So & _ & _ & Sc)|(So & Sc & _)]; rewrite Sc; [|auto]. unfold incr_count. rewrite lookup_insert_ne; [auto|]. congruence.
      + intros f Mf. rewrite lookup_insert_ne; [auto|]. congruence.
      + exact H5.
  Qed.

  Lemma nonce_ins m f n f' : nonce_of (<[w32 f := n]> m) f' = if decide (w32 f = w32 f') then n else nonce_of m f'.
  Proof. unfold nonce_of. destruct (decide (w32 f = w32 f')) as [->|N]; [rewrite lookup_insert; reflexivity|rewrite lookup_insert_ne by exact N; reflexivity]. Qed.
  Lemma nonce_eqw m f f' : w32 f = w32 f' -> nonce_of m f = nonce_of m f'.
  Proof. unfold nonce_of. intros ->. reflexivity. Qed.

  Lemma decr_lookup m f g : decr_count m f !! g = if decide (g = w32 f) then (let n := count_of m f - 1 in if n =? 0 then None else Some n) else m !! g.
  Proof.
    unfold decr_count. cbv zeta. destruct (decide (g = w32 f)) as [->|N]; destruct (count_of m f - 1 =? 0).
    - apply lookup_delete. - apply lookup_insert. - apply lookup_delete_ne. congruence. - apply lookup_insert_ne. congruence.
  Qed.

  Lemma R_rem z d e ed m z' dl : Ginv z -> R z d -> mrem e z m = inr (z', dl) -> agree e ed (KR m) ->
    R z' (step d (GRem ed true m)).1 /\ (mine (w32 (kr_fid m)) = true -> exists del, (step d (GRem ed true m)).2 = GOk del).
  Proof.
    intros HI (H1&H2&H3&H4&H5) HM HA. pose proof HM as HM0. destruct (rem_spec _ _ _ _ _ _ HM) as (r & Hr & _ & S1 & S2 & S3 & S4 & S5).
    assert (El : length (kr_key m) = ED25519_LEN).
    { unfold merge_key_remove in HM0. destruct (Nat.eqb_spec (length (kr_key m)) ED25519_LEN); [assumption|discriminate]. }
    unfold agree in HA. cbn [kfid kkey] in HA. cbn [gstep negb andb].
    assert (EO : g_own z !! kr_key m = Some (w32 (kr_fid m))) by (apply HI; eauto).
    destruct (mine (w32 (kr_fid m))) eqn:Emine.
    - destruct HA as [HC _].
      assert (EN : nonce_of (g_un d) (kr_fid m) = nonce_of (g_un z) (kr_fid m)) by (unfold nonce_of; rewrite H4 by exact Emine; reflexivity).
      assert (EC : count_of (g_cnt d) (kr_fid m) = count_of (g_cnt z) (kr_fid m)) by (unfold count_of; rewrite H3 by exact Emine; reflexivity).
      assert (ER : g_rec d !! (w32 (kr_fid m), kr_key m) = Some r) by (rewrite H1, Emine; exact Hr).
      assert (Q : exists un an, mrem ed d m = inr (GSt (delete (w32 (kr_fid m), kr_key m) (g_rec d)) (delete (kr_key m) (g_own d))
                 (delete (w32 (kr_fid m), kr_key m) (g_last d)) (decr_count (g_cnt d) (kr_fid m)) un an, Some (r_msg r)) /\
                 (forall f, mine f = true -> un !! f = g_un z' !! f) /\ (forall a, nonce_of an a <= nonce_of (g_an z') a)).
      { unfold merge_key_remove. rewrite El. cbn [Nat.eqb ED25519_LEN negb]. rewrite ER.
        destruct S5 as [(T1 & T2 & (addr & T3) & T4 & T5 & T6)|(T1 & T2 & T3 & T4 & T5)]; rewrite T1; cbn [N.eqb Pos.eqb].
        - rewrite T3, HC, <- T2, T3. rewrite bool_decide_eq_true_2 by reflexivity. cbn [negb]. unfold cas_nonce. rewrite EN.
          destruct (N.leb_spec (kr_nonce m) (nonce_of (g_un z) (kr_fid m))); [lia|]. do 2 eexists. split; [reflexivity|]. rewrite T5, T6. split; [|exact H5].
          intros f Mf. destruct (decide (f = w32 (kr_fid m))) as [->|N]; [rewrite !lookup_insert; reflexivity|]. rewrite !lookup_insert_ne by congruence. auto.
        - rewrite bool_decide_eq_true_2 by exact T2. cbn [negb]. unfold cas_nonce. pose proof (H5 (r_req r)).
          destruct (N.leb_spec (kr_nonce m) (nonce_of (g_an d) (r_req r))); [lia|]. do 2 eexists. split; [reflexivity|]. rewrite T4, T5. split; [exact H4|].
          intros a. rewrite !nonce_ins. destruct (decide _); [lia|apply H5]. }
      destruct Q as (un & an & -> & Qu & Qa). cbn [fst snd]. split; [|eauto]. unfold R. cbn [g_rec g_own g_cnt g_un g_an]. rewrite S1, S2, S4.
      split; [|split; [|split; [|split; [exact Qu|exact Qa]]]].
      + intros f k. destruct (decide ((f, k) = (w32 (kr_fid m), kr_key m))) as [[= -> ->]|N]; [rewrite !lookup_delete; destruct (mine _); reflexivity|].
        rewrite !lookup_delete_ne by congruence. apply H1.
      + intros k. destruct (decide (k = kr_key m)) as [->|N]; [rewrite !lookup_delete; reflexivity|]. rewrite !lookup_delete_ne by congruence. apply H2.
      + intros f Mf. rewrite !decr_lookup, EC. destruct (decide _); [reflexivity|]. auto.
    - split; [|discriminate].
      assert (Q : mrem ed d m = inl ENotRegistered).
      { unfold merge_key_remove. rewrite El. cbn [Nat.eqb ED25519_LEN negb]. rewrite H1, Emine. reflexivity. }
      rewrite Q. cbn [fst]. unfold R. rewrite S1, S2, S4. split; [|split; [|split; [|split]]].
      + intros f k. rewrite H1. destruct (decide ((f, k) = (w32 (kr_fid m), kr_key m))) as [[= -> ->]|N]; [rewrite Emine; reflexivity|].
        rewrite lookup_delete_ne by congruence. reflexivity.
      + intros k. rewrite H2. destruct (decide (k = kr_key m)) as [->|N]; [|rewrite lookup_delete_ne by congruence; reflexivity].
        rewrite lookup_delete, EO, Emine. reflexivity.
      + intros f Mf. rewrite decr_lookup. destruct (decide (f = w32 (kr_fid m))) as [->|N]; [congruence|]. auto.
      + intros f Mf. destruct S5 as [(_ & _ & _ & _ & T5 & _)|(_ & _ & _ & T4 & _)]; [|rewrite T4; auto]. rewrite T5, lookup_insert_ne by congruence. auto.
      + intros a. destruct S5 as [(_ & _ & _ & _ & _ & T6)|(_ & _ & T3 & _ & T5)]; [rewrite T6; apply H5|]. rewrite T5, nonce_ins.
        destruct (decide _) as [E|N]; [|apply H5]. pose proof (H5 a). rewrite (nonce_eqw (g_an z) (r_req r) a E) in T3. lia.
  Qed.

  (** ** Runs *)
  (** Shard 0's keys after the first messages of the log. *)
  Definition zfold (l : list (genv * kmsg)) : gst := (run g_init (map (fun x => as_op x.1 false x.2) l)).1.
  Lemma zfold_snoc l x : zfold (l ++ [x]) = (step (zfold l) (as_op x.1 false x.2)).1.
  Proof.
    unfold zfold. rewrite map_app. cbn [map]. rewrite run_app. destruct (run g_init _) as [s xs]. cbn [fst]. cbn [grun].
    destruct (step s _) as [s1 y]. reflexivity.
  Qed.
  Lemma zfold_inv l : Ginv (zfold l).
  Proof. apply Ginv_run. apply Ginv_init. Qed.
End P.

Section Q.
  Variable meta : kadd -> option (N * bytes * N).
  Variable rec_add : kadd -> option bytes.
  Variable rec_rem : krem -> option bytes.
  Notation step := (gstep meta rec_add rec_rem).
  Notation zf := (zfold meta rec_add rec_rem).
  Notation ss := (sstep meta rec_add rec_rem).
  Notation sr := (srun meta rec_add rec_rem).
  Variable mine : N -> bool.

  (** Every block event finds the accounts as shard 0 saw them, other shards' accounts are unknown, proposers are honest. *)
  Fixpoint agreed (y : sys) (os : list sop) : Prop :=
    match os with
    | [] => True
    | o :: r =>
        match o with
        | OReplay e => match nth_error (y_log y) (y_pos y) with Some (e0, m) => agree mine e0 e m | None => True end
        | ODirect _ _ => False
        | _ => True
        end /\ agreed (ss y o).1 r
    end.
  Definition Inv (y : sys) : Prop :=
    same_keys (zf (y_log y)) (y_zero y) /\ (y_pos y <= length (y_log y))%nat /\ R mine (zf (firstn (y_pos y) (y_log y))) (y_data y) /\
    (forall n x, nth_error (y_log y) n = Some x -> exists d, (step (zf (firstn n (y_log y))) (as_op x.1 false x.2)).2 = GOk d).
  Lemma Inv_init : Inv sys_init.
  Proof. split; [apply same_refl|]. split; [cbn; lia|]. split; [apply R_init|]. intros [|n] x H; discriminate. Qed.

  Lemma firstn_S_nth {A} (l : list A) n x : nth_error l n = Some x -> firstn (S n) l = firstn n l ++ [x].
  Proof. revert n. induction l as [|a l IH]; intros [|n] H; try discriminate; cbn [nth_error] in H; [injection H as ->; reflexivity|]. change (a :: firstn (S n) l = a :: (firstn n l ++ [x])). f_equal. apply IH. exact H. Qed.

  Lemma Inv_step y o : Inv y -> agreed y [o] -> Inv (ss y o).1.
  Proof.
    intros (I1 & I2 & I3 & I4) [A _]. destruct o as [e m|e|e u bt|e u bt|e m]; cbn [sstep].
    - destruct (key_same meta rec_add rec_rem e false _ _ m I1) as [K1 K2].
      destruct (step (y_zero y) (as_op e false m)) as [z [d|err]] eqn:E; cbn [fst snd] in *.
      + split; cbn [y_zero y_log y_data y_pos]; [rewrite zfold_snoc; exact K2|]. rewrite app_length. cbn [length]. split; [lia|].
        split; [rewrite List.firstn_app; replace (y_pos y - length (y_log y))%nat with 0%nat by lia; cbn [firstn]; rewrite app_nil_r; exact I3|].
        intros n x Hn. destruct (Nat.lt_ge_cases n (length (y_log y))) as [L|L].
        * rewrite nth_error_app1 in Hn by exact L. rewrite List.firstn_app. replace (n - length (y_log y))%nat with 0%nat by lia. cbn [firstn]. rewrite app_nil_r. apply I4. exact Hn.
        * rewrite nth_error_app2 in Hn by exact L. destruct (n - length (y_log y))%nat as [|q] eqn:Q; [|destruct q; discriminate]. injection Hn as <-.
          rewrite List.firstn_app, Q. cbn [firstn]. rewrite app_nil_r, List.firstn_all2 by lia. eauto.
      + assert (S : same_keys z (y_zero y)).
        { destruct m as [m|m]; cbn [as_op gstep] in E; [destruct (negb false && negb (add_body_ok m)); [injection E as <- _; apply same_refl|]; destruct (merge_key_add _ _ _ _ _ _) as [q|[q1 q2]]
            |destruct (negb false && negb (rem_body_ok m)); [injection E as <- _; apply same_refl|]; destruct (merge_key_remove _ _ _ _) as [q|[q1 q2]]]; try discriminate; injection E as <- _; apply same_refl. }
        split; cbn [y_zero y_log y_data y_pos]; [eapply same_trans; [exact I1|apply same_sym; exact S]|]. repeat split; auto; apply I3.
    - destruct (nth_error (y_log y) (y_pos y)) as [[e0 m]|] eqn:En; [|repeat split; auto; try apply I1; apply I3].
      assert (L : (y_pos y < length (y_log y))%nat) by (apply nth_error_Some; congruence).
      destruct (I4 _ _ En) as [d0 Hd]. cbn [fst snd] in Hd.
      assert (G : R mine (zf (firstn (S (y_pos y)) (y_log y))) (step (y_data y) (as_op e true m)).1).
      { rewrite (firstn_S_nth _ _ _ En), zfold_snoc. cbn [fst snd]. pose proof (zfold_inv meta rec_add rec_rem (firstn (y_pos y) (y_log y))) as GI.
        destruct m as [m|m]; cbn [as_op gstep] in Hd |- *.
        - destruct (negb false && negb (add_body_ok m)); [discriminate|].
          destruct (merge_key_add meta rec_add e0 false _ m) as [q|[q1 q2]] eqn:E; [discriminate|]. exact (proj1 (R_add meta rec_add rec_rem mine _ _ _ _ _ _ _ GI I3 E A)).
        - destruct (negb false && negb (rem_body_ok m)); [discriminate|].
          destruct (merge_key_remove rec_rem e0 _ m) as [q|[q1 q2]] eqn:E; [discriminate|]. exact (proj1 (R_rem meta rec_add rec_rem mine _ _ _ _ _ _ _ GI I3 E A)). }
      destruct (step (y_data y) (as_op e true m)) as [d x]. cbn [fst] in *. split; cbn [y_zero y_log y_data y_pos]; [exact I1|]. split; [lia|]. split; [exact G|exact I4].
    - destruct (zero_type (ku_type u)); [|repeat split; auto; try apply I1; apply I3]. pose proof (use_same meta rec_add rec_rem (y_zero y) e u bt) as U.
      destruct (step (y_zero y) (GUse e u bt)) as [z x]. cbn [fst] in *. split; cbn [y_zero y_log y_data y_pos]; [eapply same_trans; eauto|]. repeat split; auto; apply I3.
    - destruct (zero_type (ku_type u)); [repeat split; auto; try apply I1; apply I3|]. pose proof (use_same meta rec_add rec_rem (y_data y) e u bt) as U.
      destruct (step (y_data y) (GUse e u bt)) as [z x]. cbn [fst] in *. split; cbn [y_zero y_log y_data y_pos]; [exact I1|]. split; [exact I2|]. split; [|exact I4].
      eapply R_same; [apply same_refl|exact U|exact I3].
    - contradiction.
  Qed.
  Lemma Inv_run os : forall y, Inv y -> agreed y os -> Inv (sr y os).1.
  Proof.
    induction os as [|o os IH]; intros y I A; [exact I|]. destruct A as [A1 A2]. cbn [srun]. pose proof (Inv_step y o I (conj A1 Logic.I)) as I'.
    destruct (ss y o) as [y1 x]. cbn [fst] in *. specialize (IH y1 I' A2). destruct (sr y1 os) as [y2 xs]. exact IH.
  Qed.

  (** Without any condition. *)
  Definition long_lived (s : gst) : Prop := forall p r, g_rec s !! p = Some r -> 0 < ka_ttl (r_msg r).
  Definition Basic (y : sys) : Prop :=
    Ginv (y_zero y) /\ Ginv (y_data y) /\ (forall x, In x (y_log y) -> body_ok x.2 = true) /\ long_lived (y_data y) /\ long_lived (y_zero y).
  Lemma add_body_ttl m : add_body_ok m = true -> 0 < ka_ttl m.
  Proof. unfold add_body_ok. rewrite !andb_true_iff. intros [[[_ H] _] _]. destruct (N.eqb_spec (ka_ttl m) 0); [discriminate|lia]. Qed.
  Lemma long_step s e rp m : long_lived s -> body_ok m = true -> long_lived (step s (as_op e rp m)).1.
  Proof.
    intros H B. destruct m as [m|m]; cbn [as_op gstep body_ok] in *; rewrite B, andb_false_r.
    - destruct (merge_key_add _ _ _ _ _ _) as [q|[s' d]] eqn:E; [exact H|]. destruct (add_spec _ _ _ _ _ _ _ _ E) as (req & rs & dl & _ & _ & _ & _ & _ & _ & _ & _ & Er & _).
      cbn [fst]. intros p r. rewrite Er. intros Hp. apply lookup_insert_Some in Hp as [[_ <-]|[_ Hp]]; [apply add_body_ttl; exact B|eapply H; exact Hp].
    - destruct (merge_key_remove _ _ _ _) as [q|[s' d]] eqn:E; [exact H|]. destruct (rem_spec _ _ _ _ _ _ E) as (r & _ & _ & Er & _).
      cbn [fst]. intros p r'. rewrite Er. intros Hp. apply lookup_delete_Some in Hp as [_ Hp]. eapply H; exact Hp.
  Qed.
  Ltac five := refine (conj _ (conj _ (conj _ (conj _ _)))).
  Lemma Basic_step y o : Basic y -> Basic (ss y o).1.
  Proof.
    intros (B1 & B2 & B3 & B4 & B5). destruct o as [e m|e|e u bt|e u bt|e m]; cbn [sstep].
    - pose proof (Ginv_step meta rec_add rec_rem (y_zero y) (as_op e false m) B1) as G.
      assert (BO : forall z d, step (y_zero y) (as_op e false m) = (z, GOk d) -> body_ok m = true).
      { intros z d E. destruct m as [m|m]; cbn [as_op gstep body_ok] in *; [destruct (add_body_ok m)|destruct (rem_body_ok m)]; [reflexivity|discriminate|reflexivity|discriminate]. }
      assert (LS : body_ok m = true -> long_lived (step (y_zero y) (as_op e false m)).1) by (intros X; apply long_step; assumption).
      destruct (step (y_zero y) (as_op e false m)) as [z [d|err]] eqn:E; cbn [fst] in *; five; cbn [y_zero y_log y_data y_pos]; auto.
      + intros x Hx. apply in_app_or in Hx as [Hx|[<-|[]]]; [auto|]. cbn. eapply BO; reflexivity.
      + apply LS. eapply BO; reflexivity.
      + destruct (body_ok m) eqn:Bm; [auto|]. destruct m as [m|m]; cbn [as_op gstep body_ok] in *; rewrite Bm in E; cbn in E; injection E as <- _; exact B5.
    - destruct (nth_error (y_log y) (y_pos y)) as [[e0 m]|] eqn:En; [|five; auto].
      pose proof (Ginv_step meta rec_add rec_rem (y_data y) (as_op e true m) B2) as G. assert (Bm : body_ok m = true) by (apply nth_error_In in En; exact (B3 _ En)).
      pose proof (long_step (y_data y) e true m B4 Bm) as LS.
      destruct (step (y_data y) (as_op e true m)) as [d x]; cbn [fst] in *; five; cbn [y_zero y_log y_data y_pos]; auto.
    - destruct (zero_type _); [|five; auto]. pose proof (Ginv_step meta rec_add rec_rem (y_zero y) (GUse e u bt) B1) as G.
      pose proof (use_same meta rec_add rec_rem (y_zero y) e u bt) as [U _].
      destruct (step (y_zero y) (GUse e u bt)) as [d x]; cbn [fst] in *; five; cbn [y_zero y_log y_data y_pos]; auto. intros p r. rewrite <- U. apply B5.
    - destruct (zero_type _); [five; auto|]. pose proof (Ginv_step meta rec_add rec_rem (y_data y) (GUse e u bt) B2) as G.
      pose proof (use_same meta rec_add rec_rem (y_data y) e u bt) as [U _].
      destruct (step (y_data y) (GUse e u bt)) as [d x]; cbn [fst] in *; five; cbn [y_zero y_log y_data y_pos]; auto. intros p r. rewrite <- U. apply B4.
    - destruct (body_ok m) eqn:Bm; [|five; auto].
      pose proof (Ginv_step meta rec_add rec_rem (y_data y) (as_op e true m) B2) as G. pose proof (long_step (y_data y) e true m B4 Bm) as LS.
      destruct (step (y_data y) (as_op e true m)) as [d x]; cbn [fst] in *; five; cbn [y_zero y_log y_data y_pos]; auto.
  Qed.
  Lemma Basic_run os : forall y, Basic y -> Basic (sr y os).1.
  Proof.
    induction os as [|o os IH]; intros y B; [exact B|]. cbn [srun]. pose proof (Basic_step y o B) as B'. destruct (ss y o) as [y1 x]. cbn [fst] in *.
    specialize (IH y1 B'). destruct (sr y1 os) as [y2 xs]. exact IH.
  Qed.
  Lemma Basic_init : Basic sys_init.
  Proof. split; [apply Ginv_init|]. split; [apply Ginv_init|]. split; [intros x []|]. split; intros p r H; cbn in H; rewrite lookup_empty in H; discriminate. Qed.
End Q.
