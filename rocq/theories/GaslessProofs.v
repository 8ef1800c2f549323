(** Invariants of the gasless key state. *)
From Verif Require Export Gasless.
From Coq Require Import ZifyN ZifyNat ZifyBool.
#[local] Open Scope N_scope.

(** The keys registered for a (32-bit) account number. *)
Definition keys_of (s : gst) (f : N) : gset (N * bytes) := filter (fun p => p.1 = f) (dom (g_rec s)).

Definition Ginv (s : gst) : Prop :=
  (forall k f, g_own s !! k = Some f <-> is_Some (g_rec s !! (f, k))) /\
  (forall p, is_Some (g_last s !! p) <-> is_Some (g_rec s !! p)) /\
  (forall f, f < 2 ^ 32 -> default 0 (g_cnt s !! f) = N.of_nat (size (keys_of s f)) /\ default 0 (g_cnt s !! f) <= MAX_KEYS) /\
  (forall f k r, g_rec s !! (f, k) = Some r -> f = w32 (ka_fid (r_msg r)) /\ k = ka_key (r_msg r)).

Lemma default_Some (x : N) : default 0 (Some x) = x.
Proof. done. Qed.
Lemma default_None : default 0 (@None N) = 0.
Proof. done. Qed.
Lemma w32_lt f : w32 f < 2 ^ 32.
Proof. apply N.mod_lt. done. Qed.

Lemma keys_insert_new s f k r f' : g_rec s !! (f, k) = None ->
  size (filter (fun p => p.1 = f') (dom (<[(f, k) := r]> (g_rec s)))) = (size (keys_of s f') + if decide (f = f') then 1 else 0)%nat.
Proof.
  intros Hn. unfold keys_of. rewrite dom_insert_L. destruct (decide (f = f')) as [<-|Hne].
  - assert (filter (fun p : N * bytes => p.1 = f) ({[(f, k)]} ∪ dom (g_rec s)) = {[(f, k)]} ∪ filter (fun p => p.1 = f) (dom (g_rec s))) as ->.
    { apply set_eq. intros p. rewrite elem_of_filter, !elem_of_union, elem_of_filter, elem_of_singleton. split; [naive_solver|]. intros [->|]; naive_solver. }
    rewrite size_union, size_singleton; [lia|]. intros p Hp Hq. apply elem_of_singleton in Hp as ->. apply elem_of_filter in Hq as [_ Hq].
    by apply not_elem_of_dom in Hn.
  - rewrite Nat.add_0_r. f_equal. apply set_eq. intros p. rewrite !elem_of_filter, elem_of_union, elem_of_singleton. naive_solver.
Qed.
Lemma keys_insert_old s f k r f' : is_Some (g_rec s !! (f, k)) -> filter (fun p => p.1 = f') (dom (<[(f, k) := r]> (g_rec s))) = keys_of s f'.
Proof. intros Hn. unfold keys_of. rewrite dom_insert_lookup_L; done. Qed.
Lemma keys_delete s f k f' : is_Some (g_rec s !! (f, k)) ->
  (size (filter (fun p : N * bytes => p.1 = f') (dom (delete (f, k) (g_rec s)))) + (if decide (f = f') then 1 else 0) = size (keys_of s f'))%nat.
Proof.
  intros [r Hr]. pose proof (keys_insert_new (GSt (delete (f, k) (g_rec s)) ∅ ∅ ∅ ∅ ∅) f k r f') as H. cbn [g_rec] in H.
  rewrite lookup_delete in H. specialize (H eq_refl). rewrite insert_delete in H by done. unfold keys_of in *. cbn [g_rec] in H. lia.
Qed.

Section P.
  Variable meta : kadd -> option (N * bytes * N).
  Variable rec_add : kadd -> option bytes.
  Variable rec_rem : krem -> option bytes.
  Notation madd := (merge_key_add meta rec_add).
  Notation mrem := (merge_key_remove rec_rem).
  Notation step := (gstep meta rec_add rec_rem).
  Notation run := (grun meta rec_add rec_rem).

  (** What an accepted KEY_ADD did. *)
  Lemma add_spec e rp s m s' d : madd e rp s m = inr (s', d) ->
    exists req rs dl, meta m = Some (req, rs, dl) /\ ka_ts m <= dl /\ (rp = false -> ge_custody e req = Some rs) /\
      rec_add m = ge_custody e (ka_fid m) /\ is_Some (rec_add m) /\ ge_signer e (ka_fid m) (ka_key m) = false /\
      length (ka_key m) = ED25519_LEN /\ nonce_of (g_un s) (ka_fid m) < ka_nonce m /\
      let f := w32 (ka_fid m) in let k := ka_key m in
      g_rec s' = <[(f, k) := GRec m req]> (g_rec s) /\ g_own s' = <[k := f]> (g_own s) /\ g_last s' = <[(f, k) := ka_ts m]> (g_last s) /\
      g_un s' = <[f := ka_nonce m]> (g_un s) /\ g_an s' = g_an s /\
      ((g_own s !! k = None /\ d = None /\ count_of (g_cnt s) (ka_fid m) < MAX_KEYS /\ g_cnt s' = incr_count (g_cnt s) (ka_fid m)) \/
       (g_own s !! k = Some (ka_fid m) /\ g_cnt s' = g_cnt s /\ exists r, g_rec s !! (f, k) = Some r /\ r_req r = req /\ d = Some (r_msg r))).
  Proof.
    unfold merge_key_add. destruct (meta m) as [[[req rs] dl]|]; [|done]. destruct (N.ltb_spec dl (ka_ts m)); [done|].
    destruct (negb rp && _) eqn:E1; [done|]. destruct (negb rp && negb (bool_decide (ge_custody e req = Some rs))) eqn:E2; [done|].
    destruct (rec_add m) as [addr|]; [|done]. destruct (ge_custody e (ka_fid m)) as [c|] eqn:Ec; [|done].
    destruct (bool_decide_reflect (c = addr)) as [->|]; [|done]. cbn [negb]. destruct (ge_signer e (ka_fid m) (ka_key m)) eqn:Es; [done|].
    destruct (Nat.eqb_spec (length (ka_key m)) ED25519_LEN) as [El|]; [|done]. cbn [negb].
    intros H0. exists req, rs, dl. split; [done|]. split; [done|]. split.
    { intros ->. cbn in E2. destruct (bool_decide_reflect (ge_custody e req = Some rs)); [done|done]. }
    split; [congruence|]. split; [done|]. split; [done|]. split; [done|]. cbv zeta.
    destruct (g_own s !! ka_key m) as [o|] eqn:Eo.
    - destruct (N.eqb_spec o (ka_fid m)) as [->|]; [|done]. cbn [negb] in H0. destruct (g_rec s !! (w32 (ka_fid m), ka_key m)) as [r|] eqn:Er; [|done].
      destruct (N.eqb_spec (r_req r) req) as [Eq|]; [|done]. cbn [negb] in H0. unfold cas_nonce in H0.
      destruct (N.leb_spec (ka_nonce m) (nonce_of (g_un s) (ka_fid m))); [done|]. injection H0 as <- <-. cbn. split; [done|].
      repeat (split; [done|]). right. split; [done|]. split; [done|]. exists r. done.
    - destruct (N.leb_spec MAX_KEYS (count_of (g_cnt s) (ka_fid m))) as [|Hc]; [done|]. unfold cas_nonce in H0.
      destruct (N.leb_spec (ka_nonce m) (nonce_of (g_un s) (ka_fid m))); [done|]. injection H0 as <- <-. cbn. split; [done|].
      repeat (split; [done|]). by left.
  Qed.

  Lemma rem_spec e s m s' d : mrem e s m = inr (s', d) ->
    exists r, g_rec s !! (w32 (kr_fid m), kr_key m) = Some r /\ d = Some (r_msg r) /\
      let f := w32 (kr_fid m) in let k := kr_key m in
      g_rec s' = delete (f, k) (g_rec s) /\ g_own s' = delete k (g_own s) /\ g_last s' = delete (f, k) (g_last s) /\
      g_cnt s' = decr_count (g_cnt s) (kr_fid m) /\
      ((kr_sigtype m = 1 /\ rec_rem m = ge_custody e (kr_fid m) /\ is_Some (rec_rem m) /\ nonce_of (g_un s) (kr_fid m) < kr_nonce m /\
        g_un s' = <[f := kr_nonce m]> (g_un s) /\ g_an s' = g_an s) \/
       (kr_sigtype m = 2 /\ kr_signer m = k /\ nonce_of (g_an s) (r_req r) < kr_nonce m /\
        g_un s' = g_un s /\ g_an s' = <[w32 (r_req r) := kr_nonce m]> (g_an s))).
  Proof.
    unfold merge_key_remove. destruct (Nat.eqb (length (kr_key m)) ED25519_LEN); [|done]. cbn [negb].
    destruct (g_rec s !! (w32 (kr_fid m), kr_key m)) as [r|] eqn:Er; [|done]. intros H0. exists r. split; [done|].
    destruct (N.eqb_spec (kr_sigtype m) 1) as [E1|].
    - destruct (rec_rem m) as [addr|] eqn:Era; [|done]. destruct (ge_custody e (kr_fid m)) as [c|] eqn:Ec; [|done].
      destruct (bool_decide_reflect (c = addr)) as [->|]; [|done]. cbn [negb] in H0. unfold cas_nonce in H0.
      destruct (N.leb_spec (kr_nonce m) (nonce_of (g_un s) (kr_fid m))); [done|]. injection H0 as <- <-. cbn.
      split; [done|]. repeat (split; [done|]). left. done.
    - destruct (N.eqb_spec (kr_sigtype m) 2) as [E2|]; [|done].
      destruct (bool_decide_reflect (kr_signer m = kr_key m)) as [Es|]; [|done]. cbn [negb] in H0. unfold cas_nonce in H0.
      destruct (N.leb_spec (kr_nonce m) (nonce_of (g_an s) (r_req r))); [done|]. injection H0 as <- <-. cbn.
      split; [done|]. repeat (split; [done|]). right. done.
  Qed.

  Lemma use_spec e s u bt s' : use_key e s u bt = inr s' ->
    (s' = s \/ exists st, g_last s !! (w32 (ku_fid u), ku_signer u) = Some st /\ st + THROTTLE < ku_ts u /\
      s' = GSt (g_rec s) (g_own s) (<[(w32 (ku_fid u), ku_signer u) := ku_ts u]> (g_last s)) (g_cnt s) (g_un s) (g_an s)).
  Proof.
    unfold use_key. destruct (active_key e s (ku_fid u) (ku_signer u)) as [a|]; [|done]. destruct (admits a (ku_type u)); [|done]. cbn [negb].
    destruct a as [|mask ttl]; [intros [= <-]; by left|]. destruct (ttl =? 0); [intros [= <-]; by left|]. unfold bump.
    destruct (g_last s !! _) as [st|] eqn:El; [|done]. destruct (st + ttl <? bt); [done|].
    destruct (N.ltb_spec (st + THROTTLE) (ku_ts u)); intros [= <-]; [right; eauto|by left].
  Qed.

  Lemma Ginv_init : Ginv g_init.
  Proof.
    split; [|split; [|split]].
    - intros k f. split; [done|intros [? H]; done].
    - intros p. split; intros [? H]; done.
    - intros f _. split; [done|]. apply N.leb_le. done.
    - intros f k r H. done.
  Qed.

  Lemma Ginv_step s o : Ginv s -> Ginv (step s o).1.
  Proof.
    intros HI. pose proof HI as (H1 & H2 & H3 & H4). destruct o as [e rp m|e rp m|e u bt]; cbn [gstep].
    - destruct (negb rp && _); [done|]. destruct (madd e rp s m) as [err|[s' d]] eqn:E; [done|]. cbn [fst].
      destruct (add_spec _ _ _ _ _ _ E) as (req & rs & dl & _ & _ & _ & _ & _ & _ & _ & _ & Er & Eo & El & _ & _ & Hor).
      unfold incr_count, count_of in Hor. remember (w32 (ka_fid m)) as f eqn:Ef0. remember (ka_key m) as k eqn:Ek0.
      assert (Hcase : (g_own s !! k = None /\ g_rec s !! (f, k) = None /\ default 0 (g_cnt s !! f) < MAX_KEYS /\ g_cnt s' = <[f := N.min (default 0 (g_cnt s !! f) + 1) (2 ^ 32 - 1)]> (g_cnt s)) \/
        (g_own s !! k = Some f /\ is_Some (g_rec s !! (f, k)) /\ g_cnt s' = g_cnt s)).
      { destruct Hor as [(Ho & _ & Hc & Hcn)|(Ho & Hcn & r & Hr & _)].
        - left. split; [done|]. split; [|done]. destruct (g_rec s !! (f, k)) eqn:Hr; [|done].
          assert (Hs : g_own s !! k = Some f) by (apply H1; eauto). congruence.
        - right. assert (Hs : g_own s !! k = Some f) by (apply H1; eauto). split; [done|]. split; [eauto|done]. }
      assert (Hown : forall f', g_own s !! k = Some f' -> f' = f).
      { intros f' Hf'. destruct Hcase as [(Ho & _)|(Ho & _)]; congruence. }
      split; [|split; [|split]].
      + intros k' f'. rewrite Eo, Er. destruct (decide (k' = k)) as [->|Hk].
        * rewrite lookup_insert. destruct (decide (f' = f)) as [->|Hf].
          -- rewrite lookup_insert. split; [eauto|done].
          -- rewrite lookup_insert_ne by congruence. split; [intros [=]; congruence|]. intros Hs. apply H1 in Hs. by apply Hown in Hs.
        * rewrite !lookup_insert_ne by congruence. apply H1.
      + intros p. rewrite El, Er. destruct (decide (p = (f, k))) as [->|Hp]; [rewrite !lookup_insert; split; eauto|rewrite !lookup_insert_ne by done; apply H2].
      + intros f' Hf'. specialize (H3 f' Hf') as [H3a H3b]. unfold keys_of. rewrite Er.
        destruct Hcase as [(Ho & Hn & Hc & ->)|(Ho & Hs & ->)].
        * rewrite keys_insert_new by done. destruct (decide (f = f')) as [Ef|Hne].
          -- rewrite <- Ef in *. rewrite lookup_insert. rewrite default_Some. change (2 ^ 32 - 1) with 4294967295. unfold MAX_KEYS in *. lia.
          -- rewrite lookup_insert_ne by done. lia.
        * rewrite keys_insert_old by done. done.
      + intros f' k' r'. rewrite Er. destruct (decide ((f, k) = (f', k'))) as [[= <- <-]|Hp].
        * rewrite lookup_insert. intros [= <-]. done.
        * rewrite lookup_insert_ne by done. apply H4.
    - destruct (negb rp && _); [done|]. destruct (mrem e s m) as [err|[s' d]] eqn:E; [done|]. cbn [fst].
      destruct (rem_spec _ _ _ _ _ E) as (r & Hr & _ & Er & Eo & El & Ec & _).
      unfold decr_count, count_of in Ec. remember (w32 (kr_fid m)) as f eqn:Ef0. remember (kr_key m) as k eqn:Ek0.
      assert (Ho : g_own s !! k = Some f) by (apply H1; eauto).
      split; [|split; [|split]].
      + intros k' f'. rewrite Eo, Er. destruct (decide (k' = k)) as [->|Hk].
        * rewrite lookup_delete. split; [done|]. destruct (decide (f' = f)) as [->|Hf]; [rewrite lookup_delete; by intros [? ?]|].
          rewrite lookup_delete_ne by congruence. intros Hs. apply H1 in Hs. congruence.
        * rewrite !lookup_delete_ne by congruence. apply H1.
      + intros p. rewrite El, Er. destruct (decide (p = (f, k))) as [->|Hp]; [rewrite !lookup_delete; split; by intros [? ?]|rewrite !lookup_delete_ne by done; apply H2].
      + intros f' Hf'. specialize (H3 f' Hf') as [H3a H3b]. unfold keys_of. rewrite Er, Ec.
        pose proof (keys_delete s f k f' ltac:(eauto)) as Hk. destruct (decide (f = f')) as [Ef|Hne].
        * rewrite <- Ef in *. destruct (N.eqb_spec (default 0 (g_cnt s !! f) - 1) 0); [rewrite lookup_delete, default_None|rewrite lookup_insert, default_Some]; lia.
        * assert (Hl : (if default 0 (g_cnt s !! f) - 1 =? 0 then delete f (g_cnt s) else <[f := default 0 (g_cnt s !! f) - 1]> (g_cnt s)) !! f' = g_cnt s !! f').
          { destruct (_ =? 0); [by rewrite lookup_delete_ne|by rewrite lookup_insert_ne]. }
          rewrite Hl. lia.
      + intros f' k' r'. rewrite Er. intros Hl. apply lookup_delete_Some in Hl as [_ Hl]. by apply H4.
    - destruct (use_key e s u bt) as [err|s'] eqn:E; [done|]. cbn [fst]. destruct (use_spec _ _ _ _ _ E) as [->|(st & Hst & _ & ->)]; [done|].
      split; [done|]. split; [|done]. intros p. cbn. destruct (decide (p = (w32 (ku_fid u), ku_signer u))) as [->|Hp].
      + rewrite lookup_insert. split; [|eauto]. intros _. apply H2. eauto.
      + rewrite lookup_insert_ne by done. apply H2.
  Qed.

  Lemma run_app s l1 l2 : run s (l1 ++ l2) = (let '(s1, x1) := run s l1 in let '(s2, x2) := run s1 l2 in (s2, x1 ++ x2)).
  Proof.
    revert s. induction l1 as [|o l1 IH]; intros s; cbn [app grun]; [by destruct (run s l2)|].
    destruct (step s o) as [s1 x]. rewrite IH. destruct (run s1 l1) as [s2 x2]. by destruct (run s2 l2).
  Qed.
  Lemma Ginv_run os : forall s, Ginv s -> Ginv (run s os).1.
  Proof.
    induction os as [|o os IH]; intros s HI; [done|]. cbn [grun]. pose proof (Ginv_step s o HI) as HI'. destruct (step s o) as [s1 x].
    specialize (IH s1 HI'). by destruct (run s1 os).
  Qed.

  (** Nonces never go down. *)
  Lemma nonce_insert m f n f' : nonce_of (<[w32 f := n]> m) f' = if decide (w32 f = w32 f') then n else nonce_of m f'.
  Proof. unfold nonce_of. destruct (decide (w32 f = w32 f')) as [->|]; [by rewrite lookup_insert|by rewrite lookup_insert_ne]. Qed.
  Lemma nonce_step s o f : nonce_of (g_un s) f <= nonce_of (g_un (step s o).1) f /\ nonce_of (g_an s) f <= nonce_of (g_an (step s o).1) f.
  Proof.
    assert (Hw : forall a b m, w32 a = w32 b -> nonce_of m a = nonce_of m b) by (intros a b m Hab; unfold nonce_of; by rewrite Hab).
    destruct o as [e rp m|e rp m|e u bt]; cbn [gstep].
    - destruct (negb rp && _); [cbn; lia|]. destruct (madd e rp s m) as [err|[s' d]] eqn:E; [cbn; lia|]. cbn [fst].
      destruct (add_spec _ _ _ _ _ _ E) as (req & rs & dl & _ & _ & _ & _ & _ & _ & _ & Hn & _ & _ & _ & Hun & Han & _).
      rewrite Hun, Han, nonce_insert. destruct (decide _) as [Ew|]; [pose proof (Hw _ _ (g_un s) Ew)|]; lia.
    - destruct (negb rp && _); [cbn; lia|]. destruct (mrem e s m) as [err|[s' d]] eqn:E; [cbn; lia|]. cbn [fst].
      destruct (rem_spec _ _ _ _ _ E) as (r & _ & _ & _ & _ & _ & _ & [(_ & _ & _ & Hn & Hun & Han)|(_ & _ & Hn & Hun & Han)]);
        rewrite Hun, Han, nonce_insert; (destruct (decide _) as [Ew|]; [pose proof (Hw _ _ (g_un s) Ew); pose proof (Hw _ _ (g_an s) Ew)|]; lia).
    - destruct (use_key e s u bt) as [err|s'] eqn:E; [cbn; lia|]. cbn [fst]. destruct (use_spec _ _ _ _ _ E) as [->|(st & _ & _ & ->)]; cbn; lia.
  Qed.
  Lemma nonce_run os : forall s f, nonce_of (g_un s) f <= nonce_of (g_un (run s os).1) f /\ nonce_of (g_an s) f <= nonce_of (g_an (run s os).1) f.
  Proof.
    induction os as [|o os IH]; intros s f; [cbn; lia|]. cbn [grun]. pose proof (nonce_step s o f) as H. destruct (step s o) as [s1 x].
    specialize (IH s1 f). destruct (run s1 os). cbn [fst] in *. lia.
  Qed.
End P.
