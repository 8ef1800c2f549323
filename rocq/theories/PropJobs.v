(** C95: the migration that restores the by-account rows of registered names.  C96: the job that copies a shard's on-chain
    events to shard 0. *)
From Coq Require Import ZifyN ZifyNat ZifyBool.
From Verif Require Import Jobs JobsProofs NamesProofs PropNames.
#[local] Open Scope N_scope.

(** ** C95 *)

(** Names as the name server issues them: not empty, no zero byte (core/validations: fname syntax). *)
Definition plain (n : bytes) : Prop := n <> [] /\ 0 ∉ n.
Lemma plain_ok n : plain n <-> name_ok n = true.
Proof.
  unfold plain, name_ok. rewrite andb_true_iff, negb_true_iff, bool_decide_eq_false, forallb_forall. split.
  - intros [H1 H2]. split; [|done]. intros x Hx. apply negb_true_iff, N.eqb_neq. intros ->. by apply H2, elem_of_list_In.
  - intros [H1 H2]. split; [done|]. intros H3. apply elem_of_list_In in H3. by apply H1 in H3.
Qed.
Lemma plains_ok ps : Forall (fun p => plain (f_name p)) ps -> Forall (fun p => name_ok (f_name p) = true) ps.
Proof. intros F. eapply Forall_impl; [exact F|]. intros p. apply plain_ok. Qed.

(** The state [s] of a node and the state [s'] after a whole run of the migration over the accounts [fs]. *)
Definition migrated (cut : N -> nat) (fs : list N) (s s' : fst_) : Prop := exists n, m1_iter cut n s (P1Next fs) = (s', P1Done).

(** The run ends, has one result, and a run stopped at any point and started over has the same result. *)
Theorem C95_run : forall cut fs ps, Forall (fun p => plain (f_name p)) ps -> Forall (fun f => f < 2 ^ 32) fs ->
  exists s', forall s'', migrated cut fs (f_run fs_init ps) s'' <-> s'' = s'.
Proof.
  intros cut fs ps F Fs. destruct (m1_finishes cut (f_run fs_init ps) fs) as [n Hn]. exists (foldl (m1_acct cut) (f_run fs_init ps) fs).
  intros s''. split.
  - intros [m Hm]. pose proof (m1_done_eq cut m (f_run fs_init ps) fs) as E. rewrite Hm in E. by injection (E eq_refl) as ->.
  - intros ->. by exists n.
Qed.
Theorem C95_restart : forall cut fs ps n s' s'', Forall (fun p => plain (f_name p)) ps -> Forall (fun f => f < 2 ^ 32) fs ->
  migrated cut fs (f_run fs_init ps) s' -> migrated cut fs (m1_iter cut n (f_run fs_init ps) (P1Next fs)).1 s'' -> s'' = s'.
Proof.
  intros cut fs ps n s' s'' F Fs [m Hm] [m' Hm']. pose proof (m1_inv_run ps (plains_ok ps F)) as I.
  pose proof (m1_done_eq cut m (f_run fs_init ps) fs) as E. rewrite Hm in E. injection (E eq_refl) as ->.
  destruct (m1_iter_shape cut n (f_run fs_init ps) fs) as (k & _ & Ek). rewrite Ek in Hm'.
  pose proof (m1_done_eq cut m' (foldl (m1_acct cut) (f_run fs_init ps) (take k fs)) fs) as E'. rewrite Hm' in E'. injection (E' eq_refl) as ->. by apply m1_restart.
Qed.

(** It changes only missing by-account rows. *)
Theorem C95_keeps : forall cut fs ps s', Forall (fun p => plain (f_name p)) ps -> Forall (fun f => f < 2 ^ 32) fs ->
  migrated cut fs (f_run fs_init ps) s' ->
  fs_name s' = fs_name (f_run fs_init ps) /\ fs_trie s' = fs_trie (f_run fs_init ps) /\ fs_fid (f_run fs_init ps) ⊆ fs_fid s' /\
  forall f, f ∉ fs -> fs_fid s' !! f = fs_fid (f_run fs_init ps) !! f.
Proof.
  intros cut fs ps s' F Fs [m Hm]. pose proof (m1_inv_run ps (plains_ok ps F)) as I.
  pose proof (m1_done_eq cut m (f_run fs_init ps) fs) as E. rewrite Hm in E. injection (E eq_refl) as ->.
  split; [apply m1_all_rest|]. split; [apply m1_all_rest|]. split.
  - apply map_subseteq_spec. intros g n Hg. by rewrite m1_all_fid, Hg.
  - intros f Hf. rewrite m1_all_fid by done. rewrite decide_False by done. by destruct (fs_fid _ !! f).
Qed.

(** Every account visited that has a name in the trie looks up to a name it owns. *)
Theorem C95_restores_partial : forall cut fs ps s' f n, Forall (fun p => plain (f_name p)) ps -> Forall (fun f => f < 2 ^ 32) fs ->
  (forall f, 1 <= cut f)%nat -> migrated cut fs (f_run fs_init ps) s' -> f ∈ fs -> (f, n) ∈ fs_trie (f_run fs_init ps) ->
  exists p, fname_by_fid s' f = Some p /\ f_fid p mod 2 ^ 32 = f /\ f_fid p <> 0.
Proof.
  intros cut fs ps s' f n F Fs Hc [m Hm] Hf Hn. pose proof (m1_inv_run ps (plains_ok ps F)) as I.
  pose proof (m1_done_eq cut m (f_run fs_init ps) fs) as E. rewrite Hm in E. injection (E eq_refl) as ->.
  assert (f < 2 ^ 32) as Lf by (rewrite Forall_forall in Fs; by apply Fs).
  pose proof (m1_all_inv cut (f_run fs_init ps) fs I) as (J1 & _).
  assert (is_Some (fs_fid (foldl (m1_acct cut) (f_run fs_init ps) fs) !! f)) as [m' Hm'].
  { rewrite m1_all_fid by done. destruct (fs_fid _ !! f); [by eexists|]. rewrite decide_True by done. unfold listed.
    assert (pad n ∈ trie_names (f_run fs_init ps) f) as Hin by (apply trie_names_elem; exists n; by rewrite fidk_small).
    specialize (Hc f). destruct (trie_names (f_run fs_init ps) f) as [|b l]; [by apply elem_of_nil in Hin|]. destruct (cut f) as [|c]; [lia|].
    cbn [take]. rewrite last_cons. destruct (last (take c l)); by eexists. }
  destruct (J1 f m' Hm') as (p & P1 & P2 & P3). exists p. unfold fname_by_fid. rewrite fidk_small by done. rewrite Hm'. done.
Qed.
(** When the row was missing and the account's names are all listed, the last of them in key order is chosen. *)
Theorem C95_choice : forall cut fs ps s' f m, Forall (fun p => plain (f_name p)) ps -> Forall (fun f => f < 2 ^ 32) fs ->
  (length (trie_names (f_run fs_init ps) f) <= cut f)%nat -> migrated cut fs (f_run fs_init ps) s' ->
  fs_fid (f_run fs_init ps) !! f = None -> fs_fid s' !! f = Some m ->
  (f, m) ∈ fs_trie (f_run fs_init ps) /\
  forall n, (f, n) ∈ fs_trie (f_run fs_init ps) -> ble (n ++ repeat 0 (20 - length n)) (m ++ repeat 0 (20 - length m)) = true.
Proof.
  intros cut fs ps s' f m F Fs Hc [k Hk] Hn Hm. pose proof (m1_inv_run ps (plains_ok ps F)) as I.
  pose proof (m1_done_eq cut k (f_run fs_init ps) fs) as E. rewrite Hk in E. injection (E eq_refl) as ->.
  rewrite m1_all_fid, Hn in Hm by done. destruct (decide (f ∈ fs)) as [Hf|]; [|done].
  assert (f < 2 ^ 32) as Lf by (rewrite Forall_forall in Fs; by apply Fs).
  unfold listed in Hm. rewrite take_ge in Hm by done. destruct (last (trie_names (f_run fs_init ps) f)) as [b|] eqn:Lb; [|done].
  injection Hm as <-. pose proof (last_Some_elem_of _ _ Lb) as Hb. apply trie_names_elem in Hb as (m & -> & Hm). rewrite fidk_small in Hm by done.
  destruct I as (_ & _ & I3 & I4). destruct (I3 _ _ Hm) as (p & P1 & _). rewrite unpad_pad by (by apply (I4 m p)). split; [done|].
  intros n Hnn. assert (pad n ∈ trie_names (f_run fs_init ps) f) as Hin by (apply trie_names_elem; exists n; by rewrite fidk_small).
  pose proof (trie_names_sorted (f_run fs_init ps) f) as Hs. apply last_Some in Lb as [l' El]. rewrite El in Hs, Hin.
  change (bytes_le (pad n) (pad m)). apply elem_of_app in Hin as [Hin|Hin].
  - clear El. induction l' as [|c l' IH]; [by apply elem_of_nil in Hin|]. cbn [app] in Hs. apply StronglySorted_inv in Hs as [Hs Hf'].
    apply elem_of_cons in Hin as [<-|Hin]; [|by apply IH]. rewrite Forall_forall in Hf'. apply Hf', elem_of_app. right. by left.
  - apply elem_of_list_singleton in Hin as ->. unfold bytes_le. apply ble_eq_or_lt. by left.
Qed.

(** While the engine merges names and the migration is stopped and restarted at will, the by-account rows stay sound, as long
    as no name is merged while the migration is inside an account. *)
Theorem C95_sound_partial : forall cut ls f p, Forall (fun l => match l with LName p => plain (f_name p) | _ => True end) ls ->
  calm cut (fs_init, P1Done) ls = true -> fname_by_fid (m1_run cut (fs_init, P1Done) ls).1 f = Some p ->
  f_fid p mod 2 ^ 32 = f mod 2 ^ 32 /\ f_fid p <> 0.
Proof.
  intros cut ls f p F C E. assert (p_inv (m1_run cut (fs_init, P1Done) ls)) as [(J1 & _) _].
  { apply p_inv_run; [split; [apply m1_inv_init|done]| |done]. eapply Forall_impl; [exact F|]. intros [|q|fs]; cbn [label_ok]; try done. apply plain_ok. }
  unfold fname_by_fid in E. apply bind_Some in E as (n & E1 & E2). destruct (J1 _ _ E1) as (q & Q1 & Q2 & Q3). assert (q = p) as -> by congruence. done.
Qed.
(** A name transferred between the lookup and the commit: the old owner then looks up to the new owner's name. *)
Theorem C95_race_refuted : exists cut ls f p, Forall (fun l => match l with LName p => plain (f_name p) | _ => True end) ls /\
  fname_by_fid (m1_run cut (fs_init, P1Done) ls).1 f = Some p /\ f_fid p <> f.
Proof.
  exists (fun _ => 1025%nat), [LName (fp 97 1 10); LName (fp 98 1 11); LName (fp 98 0 12); LAgain [1; 2]; L1; L1; LName (fp 97 2 13); L1], 1, (fp 97 2 13).
  split; [repeat (apply Forall_cons; split; [first [done|split; [done|intros Q; repeat (apply elem_of_cons in Q as [Q|Q]; [done|]); by apply elem_of_nil in Q]]|]); apply Forall_nil; done|].
  vm_compute. done.
Qed.
(** A renewal (the owner's proof replaced by a newer one) removes the by-account row and the trie's entry; the
    migration looks for names in the trie only, so it never restores the row. *)
Theorem C95_renewal_refuted : forall cut fs ps p o s', Forall (fun p => plain (f_name p)) (ps ++ [p]) -> Forall (fun f => f < 2 ^ 32) fs ->
  fs_name (f_run fs_init ps) !! f_name p = Some o -> f_fid o = f_fid p -> f_fid p <> 0 -> f_fid p < 2 ^ 32 -> f_isf o = true ->
  (f_merge (f_run fs_init ps) p).2 = None ->
  (forall n, (f_fid p, n) ∈ fs_trie (f_run fs_init ps) -> n = f_name p) ->
  migrated cut fs (f_run fs_init (ps ++ [p])) s' ->
  fs_name s' !! f_name p = Some p /\ fname_by_fid s' (f_fid p) = None.
Proof.
  intros cut fs ps p o s' F Fs Eo Ef Hz Hl Fo A Hu [m Hm]. pose proof (m1_inv_run (ps ++ [p]) (plains_ok _ F)) as I.
  pose proof (m1_done_eq cut m (f_run fs_init (ps ++ [p])) fs) as E. rewrite Hm in E. injection (E eq_refl) as ->.
  apply Forall_app in F as [F1 F2]. pose proof (m1_inv_run ps (plains_ok _ F1)) as (I1 & I2 & _).
  assert (f_run fs_init (ps ++ [p]) = (f_merge (f_run fs_init ps) p).1) as Er by (unfold f_run; by rewrite foldl_app). rewrite Er in *.
  destruct (renewal_trie _ p o I2 Eo Ef Fo A) as (R1 & R2 & R3). rewrite fidk_small in R1, R2 by done.
  split; [rewrite (proj1 (m1_all_rest cut _ fs)), R3; apply lookup_insert|].
  unfold fname_by_fid. rewrite fidk_small by done. rewrite m1_all_fid, R2 by done. destruct (decide (f_fid p ∈ fs)); [|done].
  assert (trie_names (f_merge (f_run fs_init ps) p).1 (f_fid p) = []) as Hn; [|unfold listed; by rewrite Hn, take_nil].
  apply elem_of_nil_inv. intros b (n & -> & Hin)%trie_names_elem. rewrite fidk_small in Hin by done.
  assert (n = f_name p) as ->; [|done]. destruct (decide (n = f_name p)) as [|Nq]; [done|]. apply Hu.
  rewrite (proj2 (f_merge_eq _ p)) in Hin. apply (f_merge_eq _ p) in A. rewrite A in Hin. cbn [fs_trie] in Hin. unfold f_trie in Hin.
  rewrite Eo, Fo in Hin. apply elem_of_difference in Hin as [Hin _]. destruct (f_isf p && negb (f_fid p =? 0)); [|done].
  apply elem_of_union in Hin as [?|Hin]; [done|]. apply elem_of_singleton in Hin. congruence.
Qed.

(** Two accounts without rows: account 1 lost it by giving up its second name; account 3 by a renewal. *)
Example C95_ex :
  let ps := [fp 97 1 10; fp 100 1 10; fp 98 1 11; fp 98 0 12; fp 99 3 13; fp 99 3 14; fp 101 4 20] in
  let cut := fun _ : N => 1025%nat in
  let s := f_run fs_init ps in
  let s' := (m1_iter cut 20 s (P1Next [1; 3; 4])).1 in
  (m1_iter cut 20 s (P1Next [1; 3; 4])).2 = P1Done /\
  fname_by_fid s 1 = None /\ fname_by_fid s' 1 = Some (fp 100 1 10) /\
  fname_by_fid s 3 = None /\ fname_by_fid s' 3 = None /\ fs_name s' !! [99] = Some (fp 99 3 14) /\
  fname_by_fid s' 4 = Some (fp 101 4 20).
Proof. vm_compute. repeat split; done. Qed.
Example C95_hyp_ex :
  let ps := [fp 97 1 10; fp 99 3 13] in
  Forall (fun p => plain (f_name p)) (ps ++ [fp 99 3 14]) /\ (f_merge (f_run fs_init ps) (fp 99 3 14)).2 = None /\
  elements (fs_trie (f_run fs_init ps)) = [(3, [99]); (1, [97])] /\
  calm (fun _ => 1025%nat) (fs_init, P1Done) [LName (fp 97 1 10); LAgain [1]; L1; L1; LAgain [1; 2]; LName (fp 98 2 11); L1; L1; L1; L1] = true.
Proof.
  cbn zeta. split; [|vm_compute; repeat split; done].
  repeat (apply Forall_cons; split; [split; [done|intros Q; repeat (apply elem_of_cons in Q as [Q|Q]; [done|]); by apply elem_of_nil in Q]|]). by apply Forall_nil.
Qed.

(** ** C96 *)

(** The store holds event [e] under [k]: a row below the prefix of on-chain events that decodes to it. *)
Definition stored {E} (dec : bytes -> option E) (db : kv bytes) (k : bytes) (e : E) : Prop :=
  (exists r, k = 12 :: 1 :: r) /\ exists v, db !! k = Some v /\ dec v = Some e.
Definition decodable {E} (dec : bytes -> option E) (db : kv bytes) : Prop :=
  forall k v, db !! k = Some v -> (exists r, k = 12 :: 1 :: r) -> is_Some (dec v).
Lemma pre_spec k : is_prefix ev_prefix k = true <-> exists r, k = 12 :: 1 :: r.
Proof. apply is_prefix_spec. Qed.
Lemma stored_holds {E} (dec : bytes -> option E) db k e : stored dec db k e <-> holds dec db k e.
Proof. unfold stored, holds. by rewrite pre_spec. Qed.
Lemma decodable_readable {E} (dec : bytes -> option E) db : decodable dec db -> readable dec db.
Proof. intros H k v H1 H2. apply pre_spec in H2. by apply (H k v). Qed.

(** However often the job fails and is called again, and whatever is added to the shard meanwhile: when it finishes, every
    event the shard held at the start has been tried on shard 0, and handed to the mempool if it was new there at that time. *)
Theorem C96_complete : forall E (dec : bytes -> option E) db0 is s os, job_run dec j_init is = (s, os) ->
  Forall (fun di => j_read di.2 = true /\ decodable dec di.1 /\ db0 ⊆ di.1) is -> last os = Some JFinished ->
  forall k e, stored dec db0 k e -> exists db i, (db, i) ∈ is /\ stored dec db k e /\
    match j_trial i e with TNew => (k, e) ∈ handed (js_log s) | _ => True end.
Proof.
  intros E dec db0 is s os Er F L k e Hke. apply stored_holds in Hke.
  assert (Forall (fun di : kv bytes * jin E => j_read di.2 = true /\ readable dec di.1 /\ db0 ⊆ di.1) is) as F1.
  { eapply Forall_impl; [exact F|]. intros [db i] (? & ? & ?). split_and!; try done. by apply decodable_readable. }
  assert (Forall (fun di : kv bytes * jin E => j_read di.2 = true /\ readable dec di.1) is) as F2.
  { eapply Forall_impl; [exact F1|]. intros [db i] (? & ? & ?). done. }
  pose proof (job_complete dec db0 is j_init I F1) as G. rewrite Er in G. cbn [fst snd] in G.
  specialize (G (fun _ _ _ Q => match Q with end) L k e Hke). apply elem_of_list_fmap in G as ([[k' e'] v] & Q & Hin). injection Q as <- <-.
  pose proof (job_log dec is j_init I F2 k e v) as G2. rewrite Er in G2. destruct (G2 Hin) as [Hn|(db & i & H1 & H2 & H3)]; [by apply elem_of_nil in Hn|].
  exists db, i. split; [done|]. split; [by apply stored_holds|]. rewrite H3. destruct v; [|done|done].
  unfold handed. apply elem_of_list_omap. by exists (k, e, TNew).
Qed.

(** An event is tried at most once, plus once for every pass that failed. *)
Theorem C96_at_most : forall E (dec : bytes -> option E) is s os k, job_run dec j_init is = (s, os) ->
  Forall (fun di => j_read di.2 = true /\ decodable dec di.1) is ->
  (length (filter (fun x => x.1 = k) (handed (js_log s))) <= 1 + length (filter (fun o => o = JFailed) os))%nat.
Proof.
  intros E dec is s os k Er F.
  assert (Forall (fun di : kv bytes * jin E => j_read di.2 = true /\ readable dec di.1) is) as F2.
  { eapply Forall_impl; [exact F|]. intros [db i] (? & ?). split; [done|]. by apply decodable_readable. }
  pose proof (job_times dec is j_init 0 I F2) as G. rewrite Er in G. cbn [fst snd] in G.
  specialize (G (fun _ => Nat.le_0_l _) k). unfold times, fails in G.
  assert (forall l : list (bytes * E * trial), (length (filter (fun x : bytes * E => x.1 = k) (handed l)) <= length (filter (fun x : bytes * E * trial => x.1.1 = k) l))%nat) as H.
  { induction l as [|[[k' e'] v] l IH]; [done|]. rewrite filter_cons. unfold handed. cbn [omap list_omap snd]. fold (handed l). cbn [fst].
    destruct v.
    - rewrite filter_cons. cbn [fst]. destruct (decide (k' = k)); cbn [length]; change (omap _ l) with (handed l); lia.
    - change (omap _ l) with (handed l). destruct (decide (k' = k)); cbn [length]; lia.
    - change (omap _ l) with (handed l). destruct (decide (k' = k)); cbn [length]; lia. }
  specialize (H (js_log s)). lia.
Qed.

(** Over a store at rest and without failures the job ends after one pass for every hundred rows, and goes once through exactly
    the events of the shard, in key order. *)
Theorem C96_smooth : forall E (dec : bytes -> option E) db is s os, job_run dec j_init (map (pair db) is) = (s, os) ->
  decodable dec db -> Forall (fun i => j_read i = true /\ j_sends i = None /\ j_write i = true) is -> (size db < 100 * length is)%nat ->
  last os = Some JFinished /\ js_tok s = None /\
  StronglySorted (fun a b => blt a.1 b.1 = true) (js_log s).*1 /\ forall k e, (k, e) ∈ (js_log s).*1 <-> stored dec db k e.
Proof.
  intros E dec db is s os Er Hd F Hl. pose proof (smooth_run dec db (decodable_readable _ _ Hd) is j_init F I) as G. rewrite Er in G. cbn [fst snd] in G.
  destruct G as (G1 & G2 & G3 & G4).
  - split; [constructor|]. intros k e. cbn [js_log j_init js_tok after]. split; [intros Q; by apply elem_of_nil in Q|intros [_ Q]; exfalso; by apply Q].
  - exact Hl.
  - split; [done|]. split; [done|]. split; [done|]. intros k e. by rewrite G4, stored_holds.
Qed.

(** If the token cannot be read the job takes the first hundred events again and again, and never ends. *)
Theorem C96_unreadable_token_refuted : forall E (dec : bytes -> option E) db is s os, job_run dec j_init (map (pair db) is) = (s, os) ->
  (exists l t, job_page dec db None = Ok (l, Some t)) -> Forall (fun i => j_read i = false /\ j_sends i = None) is ->
  length os = length is /\ JFinished ∉ os /\ exists page, length page = 100%nat /\ (js_log s).*1 = concat (replicate (length is) page).
Proof.
  intros E dec db is s os Er (l & t & HJ) F.
  assert (Forall (fun i : jin E => j_read i = false) is) as F1 by (eapply Forall_impl; [exact F|]; intros i [? ?]; done).
  assert (Forall (fun i : jin E => j_sends i = None) is) as F2 by (eapply Forall_impl; [exact F|]; intros i [? ?]; done).
  destruct (stuck_run dec db l t HJ is j_init F1) as (G1 & G2 & G3). rewrite Er in *. cbn [fst snd] in *.
  split; [done|]. split; [done|]. exists l. split; [|by apply G3].
  unfold job_page, list_limited, for_each_paged in HJ. revert HJ.
  generalize (scan db ev_prefix (increment_vec_u8 ev_prefix) (POpts (Some JOB_PAGE) None false)). intros rs.
  cbn [po_size psize default from_option]. change (psize (POpts (Some JOB_PAGE) None false)) with 100.
  assert (forall rs (acc : list (bytes * E)) c l t, N.of_nat (length acc) < 100 ->
    page_of (iterate (page_cb (fun k v => match dec v with Some e => Some (k, e) | None => None end) (fun _ => true) 100) (Some JOB_PAGE) c rs (acc, [])) = Ok (l, Some t) ->
    length l = 100%nat) as H; [|intros HJ; by apply (H rs [] 0 l t)]. clear.
  induction rs as [|[k v] rs IH]; intros acc c l t Ha; cbn [iterate].
  - cbn [page_of]. congruence.
  - unfold page_cb at 1. destruct (dec v) as [e|]; [|done]. cbn [fst snd]. cbv zeta. destruct (100 <=? N.of_nat (length (acc ++ [(k, e)]))) eqn:B.
    + cbn [page_of]. rewrite app_length in *. cbn [length] in *. destruct k; [congruence|]. intros Q. injection Q as <- _. rewrite app_length. cbn [length]. lia.
    + destruct (JOB_PAGE <=? c + 1).
      * cbn [page_of]. congruence.
      * apply IH. lia.
Qed.
(** The job can finish although an event of the shard is not on shard 0 and was not handed over: a trial that fails other than by
    "already there" counts as done. *)
Theorem C96_skipped_refuted : exists (dec : bytes -> option N) db i s k e, job_run dec j_init [(db, i)] = (s, [JFinished]) /\
  j_read i = true /\ j_sends i = None /\ j_write i = true /\ stored dec db k e /\ j_trial i e = TFail /\ handed (js_log s) = [] /\ js_tok s = None.
Proof.
  exists (fun v => match v with [x] => Some x | _ => None end), {[ [12; 1; 3; 9] := [7] ]}, (JIn true (fun _ => TFail) None true).
  exists (JState None [([12; 1; 3; 9], 7, TFail)]), [12; 1; 3; 9], 7. split; [vm_compute; done|]. split; [done|]. split; [done|]. split; [done|].
  split; [|done]. split; [by exists [3; 9]|]. exists [7]. by rewrite lookup_singleton.
Qed.

Definition ex_db (n : nat) : kv bytes := list_to_map (map (fun i => ([12; 1; N.of_nat i], [N.of_nat i])) (seq 0 n)).
Definition ex_dec (v : bytes) : option N := match v with [x] => Some x | _ => None end.
(** 120 events: a pass whose token is not written, the same page again, the rest. *)
Example C96_ex :
  let tr := fun e => if e =? 3 then TKnown else TNew in
  let r := job_run ex_dec j_init [(ex_db 110, JIn true tr None false); (ex_db 120, JIn true tr None true); (ex_db 120, JIn true tr (Some 5%nat) true); (ex_db 120, JIn true tr None true)] in
  r.2 = [JFailed; JMore; JFailed; JFinished] /\ length (handed (js_log r.1)) = 223%nat /\ js_tok r.1 = None /\
  length (filter (fun x => x.1 = [12; 1; 100]) (handed (js_log r.1))) = 2%nat.
Proof. vm_compute. repeat split; done. Qed.
Example C96_stuck_ex :
  match job_page ex_dec (ex_db 100) None with Ok (l, Some t) => length l = 100%nat /\ t = [12; 1; 99] | _ => False end /\
  (job_run ex_dec j_init (map (pair (ex_db 100)) (replicate 3 (JIn false (fun _ => TNew) None true)))).2 = [JMore; JMore; JMore].
Proof. vm_compute. repeat split; done. Qed.

Print Assumptions C95_run.
Print Assumptions C95_restart.
Print Assumptions C95_keeps.
Print Assumptions C95_restores_partial.
Print Assumptions C95_choice.
Print Assumptions C95_sound_partial.
Print Assumptions C95_race_refuted.
Print Assumptions C95_renewal_refuted.
Print Assumptions C96_complete.
Print Assumptions C96_at_most.
Print Assumptions C96_smooth.
Print Assumptions C96_unreadable_token_refuted.
Print Assumptions C96_skipped_refuted.
