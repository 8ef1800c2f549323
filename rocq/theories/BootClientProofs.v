(** Lemmas about the receiving side of a bootstrap. *)
From Coq Require Import ZifyN ZifyNat ZifyBool.
From Verif Require Import BootClient CodecProofs.
From stdpp Require Import gmap.
#[local] Open Scope N_scope.

Definition entries (ps : list page) : list (bytes * payload) := concat (pg_entries <$> ps).
Lemma entries_snoc ps p : entries (ps ++ [p]) = entries ps ++ pg_entries p.
Proof. unfold entries. rewrite fmap_app, concat_app. cbn. by rewrite app_nil_r. Qed.

Section Proofs.
  Context (sha4 : bytes -> N) (E : env) (keccak : bytes -> bytes) (merges : list message -> message -> bool)
    (root : gset bytes -> N -> bytes).
  Notation take_entry := (take_entry sha4 keccak merges).
  Notation take_page := (take_page sha4 E keccak merges root).
  Notation take_pages := (take_pages sha4 E keccak merges root).

  Lemma entries_none vts db xs : foldl (take_entry vts db) None xs = None.
  Proof. by induction xs. Qed.
  Lemma pages_none vts ps : foldl (take_page vts) None ps = None.
  Proof. by induction ps. Qed.

  (** An invariant of the processing of entries holds at the end of every accepted sequence of pages. [I] relates the entries
      taken so far to the state. *)
  Definition with_roots (st : cst) (r : gmap N bytes) : cst := CSt (c_msgs st) (c_names st) (c_chain st) (c_keys st) r (c_last st).
  Section Inv.
    Context (vts : N) (I : list (bytes * payload) -> cst -> Prop).
    Hypothesis Istep : forall db xs st chk x st' chk', entry_ok E x = true -> I xs st ->
      take_entry vts db (Some (st, chk)) x = Some (st', chk') -> I (xs ++ [x]) st'.
    Hypothesis Iroots : forall xs st r, I xs st -> I xs (with_roots st r).

    Lemma entries_inv db xs : forallb (entry_ok E) xs = true -> forall ys st chk st' chk', I ys st ->
      foldl (take_entry vts db) (Some (st, chk)) xs = Some (st', chk') -> I (ys ++ xs) st'.
    Proof.
      induction xs as [|x xs IH]; intros Hok ys st chk st' chk' H.
      - cbn. intros [= <- <-]. by rewrite app_nil_r.
      - cbn [forallb] in Hok. apply andb_true_iff in Hok as [Hx Hok]. cbn [foldl].
        destruct (take_entry vts db (Some (st, chk)) x) as [[st1 chk1]|] eqn:E1; [|by rewrite entries_none].
        intros H1. apply (Istep _ _ _ _ _ _ _ Hx H) in E1. apply (IH Hok _ _ _ _ _ E1) in H1. by rewrite <- app_assoc in H1.
    Qed.
    Lemma page_inv ys st p st' : I ys st -> take_page vts (Some st) p = Some st' -> I (ys ++ pg_entries p) st'.
    Proof.
      intros H. unfold BootClient.take_page. destruct (forallb (entry_ok E) (pg_entries p)) eqn:Hok; [|done].
      match goal with |- context [foldl (take_entry vts ?a) (Some (?b, [])) ?c] =>
        destruct (foldl (take_entry vts a) (Some (b, [])) c) as [[st1 chk]|] eqn:E1; [|done] end.
      destruct (forallb _ chk); [|done]. intros [= <-].
      refine (entries_inv _ _ Hok _ _ _ _ _ _ E1). apply (Iroots _ _ _ H).
    Qed.
    Lemma pages_inv ps : forall ys st st', I ys st -> foldl (take_page vts) (Some st) ps = Some st' -> I (ys ++ entries ps) st'.
    Proof.
      induction ps as [|p ps IH]; intros ys st st' H.
      - cbn. intros [= <-]. by rewrite app_nil_r.
      - cbn [foldl]. destruct (take_page vts (Some st) p) as [st1|] eqn:E1; [|by rewrite pages_none].
        intros H1. apply (page_inv _ _ _ _ H) in E1. apply (IH _ _ _ E1) in H1. unfold entries. cbn. by rewrite app_assoc.
    Qed.
    Lemma take_pages_inv ps st st' : I [] st -> take_pages vts st ps = Some st' -> I (entries ps) st'.
    Proof.
      intros H. unfold BootClient.take_pages. destruct (foldl _ (Some st) ps) as [st1|] eqn:E1; [|done].
      intros H1. assert (st1 = st') as <-.
      { destruct (c_last st1) as [f|]; [destruct (check_root _ _ _ _ _)|]; congruence. }
      by apply (pages_inv ps [] st st1 H).
    Qed.
  End Inv.

  (** What one accepted entry does. *)
  Lemma take_entry_cases vts db st chk (k : bytes) p st' chk' : take_entry vts db (Some (st, chk)) (k, p) = Some (st', chk') ->
    c_keys st' = {[ k ]} ∪ c_keys st /\ c_roots st' = c_roots st /\
    ((exists n pr, p = PName pr /\ f_merge (c_names st) pr = (n, Some FDuplicate) /\ st' = add_key st k) \/
     (exists dk, trie_decode k = Some dk /\ fid_shard sha4 (dk_fid dk) = vts /\
       ((exists m, p = PUser m /\ k ∈ user_keys sha4 m /\ c_msgs st' = m :: c_msgs st /\ c_names st' = c_names st) \/
        (exists e tx, p = PChain e tx /\ k = chain_key sha4 e tx /\ c_msgs st' = c_msgs st /\ c_names st' = c_names st) \/
        (exists pr, p = PName pr /\ k ∈ name_keys sha4 pr /\ c_msgs st' = c_msgs st /\ f_merge (c_names st) pr = (c_names st', None))))).
  Proof.
    unfold BootClient.take_entry. destruct (trie_decode k) as [dk|]; [|done].
    assert (G : forall s1 (ks : list bytes), c_keys s1 = {[ k ]} ∪ c_keys st -> c_roots s1 = c_roots st ->
      (if negb (bool_decide (k ∈ ks)) then None else if negb (fid_shard sha4 (dk_fid dk) =? vts) then None
       else match c_last s1 with None => Some (set_last s1 (Some (dk_fid dk)), chk)
            | Some l => if l <? dk_fid dk then Some (set_last s1 (Some (dk_fid dk)), chk ++ [l]) else Some (s1, chk) end) = Some (st', chk') ->
      k ∈ ks /\ fid_shard sha4 (dk_fid dk) = vts /\ c_keys st' = {[ k ]} ∪ c_keys st /\ c_roots st' = c_roots st /\
      c_msgs st' = c_msgs s1 /\ c_names st' = c_names s1).
    { intros s1 ks K1 K2. destruct (bool_decide_reflect (k ∈ ks)) as [Hk|]; [|done]. cbn [negb].
      destruct (N.eqb_spec (fid_shard sha4 (dk_fid dk)) vts) as [Hv|]; [|done]. cbn [negb].
      destruct (c_last s1) as [l|]; [destruct (l <? dk_fid dk)|]; intros [= <- <-]; done. }
    destruct p as [m|e tx|pr|]; cbn [replay].
    - destruct (g_data m) as [d|]; [|done]. destruct (merges (c_msgs (add_key st k)) m); [|done].
      intros H. apply G in H as (H1 & H2 & H3 & H4 & H5 & H6); [|done|done]. split; [done|]. split; [done|]. right. exists dk.
      split; [done|]. split; [done|]. left. by exists m.
    - intros H. apply G in H as (H1 & H2 & H3 & H4 & H5 & H6); [|done|done]. split; [done|]. split; [done|]. right. exists dk.
      split; [done|]. split; [done|]. right; left. exists e, tx. apply elem_of_list_singleton in H1. done.
    - cbn [add_key c_names c_msgs c_chain c_keys c_roots c_last]. destruct (f_merge (c_names st) pr) as [n [[]|]] eqn:Ef; [|done|done|].
      + intros [= <- <-]. split; [done|]. split; [done|]. left. by exists n, pr.
      + intros H. apply G in H as (H1 & H2 & H3 & H4 & H5 & H6); [|done|done]. split; [done|]. split; [done|]. right. exists dk.
        split; [done|]. split; [done|]. right; right. exists pr. split; [done|]. split; [done|]. split; [done|]. rewrite H6. done.
    - done.
  Qed.

  Lemma take_entry_last vts db st chk (k : bytes) p st' chk' dk : take_entry vts db (Some (st, chk)) (k, p) = Some (st', chk') ->
    trie_decode k = Some dk ->
    (exists n pr, p = PName pr /\ f_merge (c_names st) pr = (n, Some FDuplicate)) \/
    (c_last st = None /\ c_last st' = Some (dk_fid dk) /\ chk' = chk) \/
    (exists l, c_last st = Some l /\
      ((l < dk_fid dk /\ c_last st' = Some (dk_fid dk) /\ chk' = chk ++ [l]) \/
       (dk_fid dk <= l /\ c_last st' = Some l /\ chk' = chk))).
  Proof.
    unfold BootClient.take_entry. intros H Hd. rewrite Hd in H.
    assert (G : forall s1 (ks : list bytes), c_last s1 = c_last st ->
      (if negb (bool_decide (k ∈ ks)) then None else if negb (fid_shard sha4 (dk_fid dk) =? vts) then None
       else match c_last s1 with None => Some (set_last s1 (Some (dk_fid dk)), chk)
            | Some l => if l <? dk_fid dk then Some (set_last s1 (Some (dk_fid dk)), chk ++ [l]) else Some (s1, chk) end) = Some (st', chk') ->
      (c_last st = None /\ c_last st' = Some (dk_fid dk) /\ chk' = chk) \/
      (exists l, c_last st = Some l /\
      ((l < dk_fid dk /\ c_last st' = Some (dk_fid dk) /\ chk' = chk ++ [l]) \/
       (dk_fid dk <= l /\ c_last st' = Some l /\ chk' = chk)))).
    { intros s1 ks K1. destruct (bool_decide (k ∈ ks)); [|done]. destruct (fid_shard sha4 (dk_fid dk) =? vts); [|done].
      cbn [negb]. rewrite <- K1.
      destruct (c_last s1) as [l|] eqn:El.
      - destruct (N.ltb_spec l (dk_fid dk)) as [L|L]; intros [= <- <-]; right; exists l; (split; [done|]); [left|right]; done.
      - intros [= <- <-]. by left. }
    destruct p as [m|e tx|pr|]; cbn [replay] in H.
    - right. destruct (g_data m) as [d|]; [|done]. destruct (merges (c_msgs (add_key st k)) m); [|done].
      by apply G in H.
    - right. by apply G in H.
    - cbn [add_key c_names c_msgs c_chain c_keys c_roots c_last] in H. destruct (f_merge (c_names st) pr) as [n [[]|]] eqn:Ef; [|done|done|].
      + left. by exists n, pr.
      + right. by apply G in H.
    - done.
  Qed.

  (** ** Two runs side by side *)
  Section Sim.
    Context (F : cst -> cst) (T : bytes * payload -> bytes * payload) (vts : N).
    Definition on_fst (F : cst -> cst) (x : cst * list N) : cst * list N := (F x.1, x.2).
    Hypothesis Fentry : forall db acc x, take_entry vts (F db) (on_fst F <$> acc) (T x) = on_fst F <$> take_entry vts db acc x.
    Hypothesis Fok : forall x, entry_ok E (T x) = entry_ok E x.
    Hypothesis Fkeys : forall st, c_keys (F st) = c_keys st.
    Hypothesis Froots : forall st, c_roots (F st) = c_roots st.
    Hypothesis Flast : forall st, c_last (F st) = c_last st.
    Hypothesis Fwith : forall st r, F (with_roots st r) = with_roots (F st) r.
    Definition tampered (ps : list page) : list page := (fun p => Page (T <$> pg_entries p) (pg_roots p)) <$> ps.

    Lemma sim_entries db xs : forall acc,
      foldl (take_entry vts (F db)) (on_fst F <$> acc) (T <$> xs) = on_fst F <$> foldl (take_entry vts db) acc xs.
    Proof. induction xs as [|x xs IH]; intros acc; [done|]. cbn. by rewrite Fentry, IH. Qed.
    Lemma sim_check f st : check_root sha4 root vts (F st) f = check_root sha4 root vts st f.
    Proof. unfold check_root. by rewrite Fkeys, Froots. Qed.
    Lemma sim_page acc p :
      take_page vts (F <$> acc) (Page (T <$> pg_entries p) (pg_roots p)) = F <$> take_page vts acc p.
    Proof.
      destruct acc as [st|]; [|done]. cbn [fmap option_fmap option_map]. unfold BootClient.take_page. cbn [pg_entries pg_roots].
      assert (Ho : forallb (entry_ok E) (T <$> pg_entries p) = forallb (entry_ok E) (pg_entries p)).
      { induction (pg_entries p) as [|x xs IH]; [done|]. cbn. by rewrite Fok, IH. }
      rewrite Ho. destruct (forallb (entry_ok E) (pg_entries p)); [|done].
      set (r := foldl _ (c_roots st) (pg_roots p)).
      assert (Er : foldl (fun r (x : N * bytes) => <[x.1:=x.2]> r) (c_roots (F st)) (pg_roots p) = r) by (unfold r; by rewrite Froots).
      rewrite Er. clearbody r. change (CSt (c_msgs st) (c_names st) (c_chain st) (c_keys st) r (c_last st)) with (with_roots st r).
      change (CSt (c_msgs (F st)) (c_names (F st)) (c_chain (F st)) (c_keys (F st)) r (c_last (F st))) with (with_roots (F st) r).
      rewrite <- Fwith. pose proof (sim_entries (with_roots st r) (pg_entries p) (Some (with_roots st r, []))) as Hs.
      cbn [fmap option_fmap option_map] in Hs. unfold on_fst at 1 in Hs. cbn [fst snd] in Hs. rewrite Hs. clear Hs Er.
      destruct (foldl (take_entry vts (with_roots st r)) _ _) as [[st1 chk]|]; [|done]. cbn.
      assert (Hc : forallb (check_root sha4 root vts (F st1)) chk = forallb (check_root sha4 root vts st1) chk).
      { induction chk as [|f chk IH]; [done|]. cbn. by rewrite sim_check, IH. }
      rewrite Hc. destruct (forallb (check_root sha4 root vts st1) chk); reflexivity.
    Qed.
    Lemma sim_pages ps st : take_pages vts (F st) (tampered ps) = F <$> take_pages vts st ps.
    Proof.
      unfold BootClient.take_pages. assert (Hf : forall acc, foldl (take_page vts) (F <$> acc) (tampered ps) = F <$> foldl (take_page vts) acc ps).
      { induction ps as [|p ps IH]; intros acc; [done|]. cbn [tampered fmap list_fmap foldl]. rewrite sim_page. apply IH. }
      specialize (Hf (Some st)). cbn [fmap option_fmap option_map] in Hf. rewrite Hf.
      destruct (foldl _ _ ps) as [st1|]; [|done]. cbn. rewrite Flast. destruct (c_last st1) as [f|]; [|done].
      rewrite sim_check. by destruct (check_root _ _ _ _ _).
    Qed.
  End Sim.

End Proofs.

(** ** Keys carry hashes *)
Section Keys.
  Context (sha4 : bytes -> N).
  Lemma message_key_hash f t h : drop 6 (for_message_type sha4 f t ++ h) = h.
  Proof. done. Qed.
  Lemma message_key_type f t h : nth 5 (for_message_type sha4 f t ++ h) 0 = N.shiftl t 3 mod 256.
  Proof. done. Qed.
  Lemma shifted_not_7 t : N.shiftl t 3 mod 256 <> 7.
  Proof. rewrite N.shiftl_mul_pow2. change (2 ^ 3) with 8. intros H. lia. Qed.
  Lemma hash_keys_spec m k : k ∈ hash_keys sha4 m -> drop 6 k = g_hash m /\ nth 5 k 0 <> 7.
  Proof.
    unfold hash_keys. destruct (g_data m) as [d|]; [|by intros ?%elem_of_nil]. unfold for_message.
    rewrite elem_of_cons. intros [-> |H].
    - rewrite message_key_hash, message_key_type. split; [done|apply shifted_not_7].
    - destruct (lend_to d) as [t|]; [|by apply elem_of_nil in H]. apply elem_of_list_singleton in H as ->.
      rewrite message_key_hash, message_key_type. split; [done|apply shifted_not_7].
  Qed.
  Lemma claim_keys_spec m k : k ∈ claim_keys sha4 m -> nth 5 k 0 = 7.
  Proof.
    unfold claim_keys. destruct (g_data m) as [d|]; [|by intros ?%elem_of_nil]. destruct (d_body d) as [[]|]; try by intros ?%elem_of_nil.
    destruct (_ && _); [|by intros ?%elem_of_nil]. by intros ->%elem_of_list_singleton.
  Qed.
  Lemma name_keys_spec p k : k ∈ name_keys sha4 p -> nth 5 k 0 = 7.
  Proof. unfold name_keys. destruct (_ && _); [|by intros ?%elem_of_nil]. by intros ->%elem_of_list_singleton. Qed.
  Lemma chain_keys_spec e tx : nth 5 (chain_key sha4 e tx) 0 = OnChain.o_type e mod 256.
  Proof. done. Qed.
End Keys.
