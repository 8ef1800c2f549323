(** Lemmas for C95 and C96. *)
From Coq Require Import ZifyN ZifyNat ZifyBool.
From Verif Require Import Jobs NamesProofs PagingProofs.
#[local] Open Scope N_scope.

(** ** m1 *)

Definition name_ok (n : bytes) : bool := forallb (fun x => negb (x =? 0)) n && negb (bool_decide (n = [])).
Lemma unpad_zeros k : unpad (repeat 0 k) = [].
Proof. by destruct k. Qed.
Lemma unpad_pad n : name_ok n = true -> unpad (pad n) = n.
Proof.
  unfold name_ok, pad. intros [H _]%andb_prop. generalize (USERNAME_MAX_LENGTH - length n)%nat as k. intros k.
  induction n as [|x n IH]; cbn [app unpad].
  - apply unpad_zeros.
  - cbn [forallb] in H. apply andb_prop in H as [Hx H]. apply negb_true_iff in Hx. by rewrite Hx, IH.
Qed.
Lemma name_ok_ne n : name_ok n = true -> n <> [].
Proof. unfold name_ok. intros [_ H]%andb_prop. apply negb_true_iff, bool_decide_eq_false in H. done. Qed.

(** The trie's entries belong to the owners of the names. *)
Definition trie_own (s : fst_) : Prop := forall (f : N) (n : bytes), (f, n) ∈ fs_trie s ->
  exists p, fs_name s !! n = Some p /\ fidk (f_fid p) = f /\ f_fid p <> 0 /\ f_isf p = true.
Lemma trie_own_step s p : trie_own s -> f_named s -> trie_own (f_merge s p).1.
Proof.
  intros H Hn. rewrite (proj2 (f_merge_eq s p)). destruct (f_accepts _ _); [|done]. intros f n. cbn [fs_trie fs_name]. unfold f_trie.
  destruct (fs_name s !! f_name p) as [o|] eqn:Eo.
  - assert (f_name o = f_name p) as On by (by apply Hn). destruct (f_isf o) eqn:Fo.
    + intros [Hin Hne]%elem_of_difference. rewrite elem_of_singleton in Hne. destruct (f_isf p && negb (f_fid p =? 0)) eqn:B.
      * apply elem_of_union in Hin as [Hin|Hin].
        -- destruct (H f n Hin) as (q & Q1 & Q2 & Q3 & Q4). destruct (decide (n = f_name p)) as [->|Nq].
           ++ rewrite Eo in Q1. injection Q1 as ->. exfalso. apply Hne. congruence.
           ++ rewrite lookup_insert_ne by done. eauto.
        -- apply elem_of_singleton in Hin. injection Hin as -> ->. rewrite lookup_insert. exists p. apply andb_prop in B as [B1 B2]. apply negb_true_iff in B2. split_and!; try done. lia.
      * destruct (H f n Hin) as (q & Q1 & Q2 & Q3 & Q4). destruct (decide (n = f_name p)) as [->|Nq].
        -- rewrite Eo in Q1. injection Q1 as ->. exfalso. apply Hne. congruence.
        -- rewrite lookup_insert_ne by done. eauto.
    + intros Hin. destruct (f_isf p && negb (f_fid p =? 0)) eqn:B.
      * apply elem_of_union in Hin as [Hin|Hin].
        -- destruct (H f n Hin) as (q & Q1 & Q2 & Q3 & Q4). destruct (decide (n = f_name p)) as [->|Nq]; [congruence|].
           rewrite lookup_insert_ne by done. eauto.
        -- apply elem_of_singleton in Hin. injection Hin as -> ->. rewrite lookup_insert. exists p. apply andb_prop in B as [B1 B2]. apply negb_true_iff in B2. split_and!; try done. lia.
      * destruct (H f n Hin) as (q & Q1 & Q2 & Q3 & Q4). destruct (decide (n = f_name p)) as [->|Nq]; [congruence|].
        rewrite lookup_insert_ne by done. eauto.
  - intros Hin. destruct (f_isf p && negb (f_fid p =? 0)) eqn:B.
    + apply elem_of_union in Hin as [Hin|Hin].
      * destruct (H f n Hin) as (q & Q1 & Q2 & Q3 & Q4). destruct (decide (n = f_name p)) as [->|Nq]; [congruence|].
        rewrite lookup_insert_ne by done. eauto.
      * apply elem_of_singleton in Hin. injection Hin as -> ->. rewrite lookup_insert. exists p. apply andb_prop in B as [B1 B2]. apply negb_true_iff in B2. split_and!; try done. lia.
    + destruct (H f n Hin) as (q & Q1 & Q2 & Q3 & Q4). destruct (decide (n = f_name p)) as [->|Nq]; [congruence|].
      rewrite lookup_insert_ne by done. eauto.
Qed.

Definition oks (s : fst_) : Prop := forall (n : bytes) (p : fproof), fs_name s !! n = Some p -> name_ok n = true.
Definition m1_inv (s : fst_) : Prop := f_sound s /\ f_named s /\ trie_own s /\ oks s.
Lemma m1_inv_init : m1_inv fs_init.
Proof.
  split_and!; intros ? ?; cbn [fs_init fs_fid fs_name fs_trie]; rewrite ?lookup_empty; try done.
Qed.
Lemma m1_inv_merge s p : m1_inv s -> name_ok (f_name p) = true -> m1_inv (f_merge s p).1.
Proof.
  intros (H1 & H2 & H3 & H4) Hp. split_and!.
  - by apply f_sound_step.
  - exact (f_named_run s [p] H2).
  - by apply trie_own_step.
  - intros n q. rewrite (proj2 (f_merge_eq s p)). destruct (f_accepts _ _); [|apply H4]. cbn [fs_name].
    intros [[<- <-]|[_ Hq]]%lookup_insert_Some; [done|]. by apply (H4 n q).
Qed.
Lemma m1_inv_run ps : Forall (fun p => name_ok (f_name p) = true) ps -> m1_inv (f_run fs_init ps).
Proof.
  unfold f_run. generalize m1_inv_init. generalize fs_init. induction ps as [|p ps IH]; intros s Hs F; [done|].
  apply Forall_cons in F as [F1 F2]. cbn [foldl]. apply IH; [by apply m1_inv_merge|done].
Qed.

Lemma trie_names_elem s f b : b ∈ trie_names s f <-> exists n, b = pad n /\ (fidk f, n) ∈ fs_trie s.
Proof.
  unfold trie_names. rewrite (merge_sort_Permutation bytes_le), elem_of_list_omap. split.
  - intros ([g n] & Hin & E). cbn [fst snd] in E. destruct (N.eqb_spec g (fidk f)) as [->|]; [|done]. injection E as <-.
    exists n. by rewrite elem_of_elements in Hin.
  - intros (n & -> & Hin). exists (fidk f, n). rewrite elem_of_elements, N.eqb_refl. done.
Qed.
#[global] Instance bytes_le_trans : Transitive bytes_le.
Proof. intros a b c. unfold bytes_le. apply ble_trans. Qed.
#[global] Instance bytes_le_total : Total bytes_le.
Proof.
  intros a b. unfold bytes_le. destruct (ble a b) eqn:E; [by left|]. right. rewrite ble_nblt in E. apply negb_false_iff in E.
  by rewrite ble_nblt, (blt_asym _ _ E).
Qed.
Lemma trie_names_sorted s f : StronglySorted bytes_le (trie_names s f).
Proof. apply (StronglySorted_merge_sort bytes_le). Qed.

(** A row in the batch points to a name of the account. *)
Definition t_sound (s : fst_) (t : gmap N bytes) : Prop :=
  forall (f : N) (n : bytes), t !! f = Some n -> exists p, fs_name s !! n = Some p /\ fidk (f_fid p) = f /\ f_fid p <> 0.
Definition l_owned (s : fst_) (g : N) (b : bytes) : Prop :=
  exists n p, unpad b = n /\ n <> [] /\ fs_name s !! n = Some p /\ fidk (f_fid p) = g /\ f_fid p <> 0.
Lemma listed_owned s f b : m1_inv s -> b ∈ trie_names s f -> l_owned s (fidk f) b.
Proof.
  intros (H1 & H2 & H3 & H4) (n & -> & Hin)%trie_names_elem. destruct (H3 _ _ Hin) as (p & P1 & P2 & P3 & _).
  pose proof (H4 _ _ P1) as Hn. exists n, p. split_and!; try done; [by apply unpad_pad|by apply name_ok_ne].
Qed.
Lemma m1_name_owned s t g b : l_owned s g b ->
  m1_name s t b = match fs_fid s !! g with None => <[g := unpad b]> t | Some _ => t end.
Proof.
  intros (n & p & U & Hne & P1 & P2 & P3). unfold m1_name. rewrite U. destruct n as [|x n]; [done|].
  rewrite P1, P2. destruct (fs_fid s !! g); done.
Qed.
Lemma m1_names_owned s g l : (forall b, b ∈ l -> l_owned s g b) -> forall t, dom t ⊆ {[g]} ->
  foldl (m1_name s) t l =
  match fs_fid s !! g with Some _ => t | None => match last l with Some b => {[g := unpad b]} | None => t end end.
Proof.
  intros H. induction l as [|b l IH]; intros t Ht; cbn [foldl]; [by destruct (fs_fid s !! g)|].
  rewrite (m1_name_owned s t g b) by (apply H; by left).
  assert (forall t : gmap N bytes, dom t ⊆ {[g]} -> dom (<[g := unpad b]> t) ⊆ {[g]}) as Hd by (intros t' Ht'; rewrite dom_insert; set_solver).
  rewrite IH; [|intros b' Hb; apply H; by right|destruct (fs_fid s !! g); auto].
  destruct (fs_fid s !! g) eqn:E; [done|]. rewrite last_cons. destruct (last l); [done|].
  apply map_eq. intros h. destruct (decide (g = h)) as [<-|Nq]; [by rewrite lookup_insert, lookup_singleton|].
  rewrite lookup_insert_ne, lookup_singleton_ne by done. apply not_elem_of_dom. intros Hh. apply Ht, elem_of_singleton in Hh. congruence.
Qed.

Section Run.
  Context (cut : N -> nat).
  Definition listed (s : fst_) (f : N) : list bytes := take (cut f) (trie_names s f).
  Definition m1_acct (s : fst_) (f : N) : fst_ := m1_commit s (foldl (m1_name s) ∅ (listed s f)).
  Lemma m1_iter_names s l t fs : m1_iter cut (S (length l)) s (P1Names l t fs) = (m1_commit s (foldl (m1_name s) t l), P1Next fs).
  Proof. revert t. induction l as [|b l IH]; intros t; [done|]. cbn [length m1_iter m1_step foldl]. apply IH. Qed.
  Lemma m1_iter_add n m s p : m1_iter cut (n + m) s p = let '(s, p) := m1_iter cut n s p in m1_iter cut m s p.
  Proof. revert s p. induction n as [|n IH]; intros s p; [done|]. cbn [Nat.add m1_iter]. destruct (m1_step cut s p) as [s' p']. apply IH. Qed.
  Lemma m1_iter_done n s : m1_iter cut n s P1Done = (s, P1Done).
  Proof. induction n as [|n IH]; [done|]. cbn [m1_iter m1_step]. done. Qed.
  Lemma m1_iter_acct s f fs : exists n, m1_iter cut n s (P1Next (f :: fs)) = (m1_acct s f, P1Next fs).
  Proof.
    exists (S (S (length (listed s f)))). cbn [m1_iter m1_step]. apply (m1_iter_names s (listed s f)).
  Qed.
  Lemma m1_finishes s fs : exists n, m1_iter cut n s (P1Next fs) = (foldl m1_acct s fs, P1Done).
  Proof.
    revert s. induction fs as [|f fs IH]; intros s; [by exists 1%nat|].
    destruct (m1_iter_acct s f fs) as [n Hn]. destruct (IH (m1_acct s f)) as [m Hm].
    exists (n + m)%nat. rewrite m1_iter_add, Hn. exact Hm.
  Qed.
  Lemma m1_done_eq n s fs : (m1_iter cut n s (P1Next fs)).2 = P1Done -> m1_iter cut n s (P1Next fs) = (foldl m1_acct s fs, P1Done).
  Proof.
    destruct (m1_finishes s fs) as [m Hm]. destruct (m1_iter cut n s (P1Next fs)) as [s' p'] eqn:E. cbn [snd]. intros ->.
    destruct (Nat.le_ge_cases n m) as [L|L].
    - replace m with (n + (m - n))%nat in Hm by lia. rewrite m1_iter_add, E, m1_iter_done in Hm. done.
    - replace n with (m + (n - m))%nat in E by lia. rewrite m1_iter_add, Hm, m1_iter_done in E. done.
  Qed.

  Lemma m1_acct_fid s f g : m1_inv s ->
    fs_fid (m1_acct s f) !! g =
    match fs_fid s !! g with
    | Some n => Some n
    | None => if decide (g = fidk f) then unpad <$> last (listed s f) else None
    end.
  Proof.
    intros H. unfold m1_acct, m1_commit. cbn [fs_fid].
    rewrite (m1_names_owned s (fidk f)); [| |set_solver].
    2: { intros b Hb. apply listed_owned; [done|]. unfold listed in Hb. apply elem_of_take in Hb as (i & Hb & _). by apply elem_of_list_lookup_2 in Hb. }
    destruct (decide (g = fidk f)) as [->|Nq].
    - destruct (fs_fid s !! fidk f) as [m|] eqn:E.
      + by rewrite lookup_union_r.
      + destruct (last (listed s f)) as [b|]; [by rewrite (lookup_union_Some_l _ _ _ (unpad b)) by apply lookup_singleton|].
        by rewrite lookup_union_r.
    - rewrite lookup_union_r; [by destruct (fs_fid s !! g)|].
      destruct (fs_fid s !! fidk f); [done|]. destruct (last (listed s f)); [by apply lookup_singleton_ne|done].
  Qed.
  Lemma m1_commit_inv s t : m1_inv s -> t_sound s t -> m1_inv (m1_commit s t).
  Proof.
    intros (H1 & H2 & H3 & H4) Ht. split_and!; [|done..]. intros f n. unfold m1_commit. cbn [fs_fid fs_name].
    rewrite lookup_union_Some_raw. intros [E|[_ E]]; [by apply Ht|by apply H1].
  Qed.
  Lemma m1_names_sound s l t : (forall b, b ∈ l -> exists g, l_owned s g b) -> t_sound s t -> t_sound s (foldl (m1_name s) t l).
  Proof.
    revert t. induction l as [|b l IH]; intros t H Ht; [done|]. cbn [foldl]. apply IH; [intros b' Hb; apply H; by right|].
    destruct (H b) as [g Hg]; [by left|]. rewrite (m1_name_owned s t g b Hg). destruct (fs_fid s !! g); [done|].
    intros f n. destruct Hg as (m & p & U & Hne & P1 & P2 & P3).
    intros [[<- <-]|[_ E]]%lookup_insert_Some; [|by apply Ht]. rewrite U. eauto.
  Qed.
  Lemma listed_all_owned s f b : m1_inv s -> b ∈ listed s f -> l_owned s (fidk f) b.
  Proof.
    intros H Hb. apply listed_owned; [done|]. unfold listed in Hb. apply elem_of_take in Hb as (i & Hb & _). by apply elem_of_list_lookup_2 in Hb.
  Qed.
  Lemma m1_acct_inv s f : m1_inv s -> m1_inv (m1_acct s f).
  Proof.
    intros H. apply m1_commit_inv; [done|]. apply m1_names_sound.
    - intros b Hb. exists (fidk f). by apply listed_all_owned.
    - intros g n. by rewrite lookup_empty.
  Qed.
  Lemma m1_acct_rest s f : fs_name (m1_acct s f) = fs_name s /\ fs_trie (m1_acct s f) = fs_trie s.
  Proof. done. Qed.
  Lemma m1_all_rest s fs : fs_name (foldl m1_acct s fs) = fs_name s /\ fs_trie (foldl m1_acct s fs) = fs_trie s.
  Proof. revert s. induction fs as [|f fs IH]; intros s; [done|]. cbn [foldl]. destruct (IH (m1_acct s f)) as [-> ->]. done. Qed.
  Lemma listed_trie s s' f : fs_trie s = fs_trie s' -> listed s f = listed s' f.
  Proof. unfold listed, trie_names. by intros ->. Qed.

  (** The by-account rows after a whole run. *)
  Lemma m1_all_fid s fs g : m1_inv s -> Forall (fun f => f < 2 ^ 32) fs ->
    fs_fid (foldl m1_acct s fs) !! g =
    match fs_fid s !! g with
    | Some n => Some n
    | None => if decide (g ∈ fs) then unpad <$> last (listed s g) else None
    end.
  Proof.
    revert s. induction fs as [|f fs IH]; intros s H F; cbn [foldl].
    - destruct (fs_fid s !! g); [done|]. rewrite decide_False; [done|]. apply not_elem_of_nil.
    - apply Forall_cons in F as [F1 F2]. rewrite IH by (try apply m1_acct_inv; done). rewrite m1_acct_fid by done.
      rewrite fidk_small by done. rewrite (listed_trie (m1_acct s f) s) by done.
      destruct (fs_fid s !! g) as [n|]; [done|]. destruct (decide (g = f)) as [->|Nq].
      + rewrite (decide_True (P := f ∈ f :: fs)) by (by left). destruct (last (listed s f)) as [b|]; [done|]. cbn [fmap option_fmap option_map].
        by destruct (decide (f ∈ fs)).
      + destruct (decide (g ∈ fs)) as [I|I].
        * rewrite (decide_True (P := g ∈ f :: fs)) by (by right). done.
        * rewrite (decide_False (P := g ∈ f :: fs)); [done|]. rewrite elem_of_cons. tauto.
  Qed.

  (** Stopping anywhere and starting over. *)
  Lemma m1_iter_shape n s fs : exists k, (k <= length fs)%nat /\ (m1_iter cut n s (P1Next fs)).1 = foldl m1_acct s (take k fs).
  Proof.
    revert n s. induction fs as [|f fs IH]; intros n s.
    - exists 0%nat. split; [done|]. destruct n; [done|]. cbn [m1_iter m1_step]. by rewrite m1_iter_done.
    - destruct (Nat.le_gt_cases n (S (length (listed s f)))) as [L|L].
      + exists 0%nat. split; [lia|]. cbn [take foldl]. destruct n as [|n]; [done|]. cbn [m1_iter m1_step].
        change (take (cut f) (trie_names s f)) with (listed s f). assert (n <= length (listed s f))%nat as L' by lia. clear L.
        generalize (∅ : gmap N bytes). revert n L'. generalize (listed s f). intros l. induction l as [|b l IHl]; intros n L' t.
        * assert (n = 0%nat) as -> by (cbn [length] in L'; lia). done.
        * destruct n; [done|]. cbn [m1_iter m1_step]. apply IHl. cbn [length] in L'. lia.
      + replace n with (S (S (length (listed s f))) + (n - S (S (length (listed s f)))))%nat by lia.
        rewrite m1_iter_add. assert (m1_iter cut (S (S (length (listed s f)))) s (P1Next (f :: fs)) = (m1_acct s f, P1Next fs)) as ->
          by (cbn [m1_iter m1_step]; apply (m1_iter_names s (listed s f))).
        destruct (IH (n - S (S (length (listed s f))))%nat (m1_acct s f)) as (k & Hk & E).
        exists (S k). split; [cbn [length]; lia|]. exact E.
  Qed.
  Lemma m1_all_inv s fs : m1_inv s -> m1_inv (foldl m1_acct s fs).
  Proof. revert s. induction fs as [|f fs IH]; intros s H; [done|]. cbn [foldl]. by apply IH, m1_acct_inv. Qed.
  Lemma m1_restart s fs k : m1_inv s -> Forall (fun f => f < 2 ^ 32) fs ->
    foldl m1_acct (foldl m1_acct s (take k fs)) fs = foldl m1_acct s fs.
  Proof.
    intros H F. assert (Forall (fun f => f < 2 ^ 32) (take k fs)) as F' by (by apply Forall_take).
    assert (fs_fid (foldl m1_acct (foldl m1_acct s (take k fs)) fs) = fs_fid (foldl m1_acct s fs)) as E.
    { apply map_eq. intros g. rewrite (m1_all_fid (foldl m1_acct s (take k fs))) by (try apply m1_all_inv; done).
      rewrite !m1_all_fid by done. rewrite (listed_trie (foldl m1_acct s (take k fs)) s) by apply m1_all_rest.
      destruct (fs_fid s !! g); [done|]. destruct (decide (g ∈ take k fs)) as [I|I]; [|done].
      assert (g ∈ fs) as I' by (rewrite <- (take_drop k fs); apply elem_of_app; by left).
      rewrite decide_True by done. by destruct (unpad <$> last (listed s g)). }
    destruct (m1_all_rest (foldl m1_acct s (take k fs)) fs) as [E1 E2]. destruct (m1_all_rest s (take k fs)) as [E3 E4].
    destruct (m1_all_rest s fs) as [E5 E6].
    destruct (foldl m1_acct (foldl m1_acct s (take k fs)) fs) as [a b c], (foldl m1_acct s fs) as [a' b' c'].
    cbn [fs_name fs_fid fs_trie] in *. congruence.
  Qed.

  (** Interleaved with merges that never fall inside an account. *)
  Fixpoint calm (x : fst_ * m1_phase) (ls : list m1_label) : bool :=
    match ls with
    | [] => true
    | l :: ls => (match l, x.2 with LName _, P1Names _ _ _ => false | _, _ => true end) && calm (m1_lstep cut x l) ls
    end.
  Definition label_ok (l : m1_label) : bool := match l with LName p => name_ok (f_name p) | _ => true end.
  Definition p_inv (x : fst_ * m1_phase) : Prop :=
    m1_inv x.1 /\ match x.2 with P1Names l t _ => (forall b, b ∈ l -> exists g, l_owned x.1 g b) /\ t_sound x.1 t | _ => True end.
  Lemma p_inv_step x l : p_inv x -> label_ok l = true -> (match l, x.2 with LName _, P1Names _ _ _ => false | _, _ => true end) = true ->
    p_inv (m1_lstep cut x l).
  Proof.
    destruct x as [s p]. intros [H1 H2] Hl Hc. cbn [fst snd] in *. destruct l as [|q|fs]; cbn [m1_lstep fst snd].
    - destruct p as [[|f fs]|[|b l] t fs|]; cbn [m1_step]; (split; [|try done]); cbn [fst snd]; try done.
      + split; [intros b Hb; exists (fidk f); by apply (listed_all_owned s f)|]. intros g n. by rewrite lookup_empty.
      + apply m1_commit_inv; [done|apply H2].
      + destruct H2 as [H2 H3]. split; [intros b' Hb; apply H2; by right|].
        apply (m1_names_sound s [b]); [|done]. intros b' ->%elem_of_list_singleton. apply H2. by left.
    - split; [by apply m1_inv_merge|]. cbn [fst snd]. by destruct p.
    - split; done.
  Qed.
  Lemma p_inv_run x ls : p_inv x -> Forall (fun l => label_ok l = true) ls -> calm x ls = true -> p_inv (m1_run cut x ls).
  Proof.
    unfold m1_run. revert x. induction ls as [|l ls IH]; intros x H F C; [done|]. cbn [calm] in C. apply andb_prop in C as [C1 C2].
    apply Forall_cons in F as [F1 F2]. cbn [foldl]. apply IH; [by apply p_inv_step|done|done].
  Qed.
End Run.

(** A renewal takes the trie's entry away. *)
Lemma renewal_trie s p o : f_named s -> fs_name s !! f_name p = Some o -> f_fid o = f_fid p -> f_isf o = true -> (f_merge s p).2 = None ->
  (fidk (f_fid p), f_name p) ∉ fs_trie (f_merge s p).1 /\ fs_fid (f_merge s p).1 !! fidk (f_fid p) = None /\
  fs_name (f_merge s p).1 = <[f_name p := p]> (fs_name s).
Proof.
  intros Hn Eo Ef Fo A. destruct (f_merge_eq s p) as [B C]. apply B in A. rewrite C, A. cbn [fs_trie fs_fid fs_name]. unfold f_trie, f_byfid.
  rewrite Eo, Fo. rewrite <- (Hn _ _ Eo), <- Ef. split; [|split; [|done]].
  - rewrite not_elem_of_difference. right. by apply elem_of_singleton.
  - by rewrite lookup_delete.
Qed.

(** ** The job *)

Lemma ev_prefix_bounds k : ble ev_prefix k && blt k (increment_vec_u8 ev_prefix) = is_prefix ev_prefix k.
Proof.
  change (increment_vec_u8 ev_prefix) with [12; 2]. unfold ev_prefix, RP_OnChain, ble, blt.
  destruct k as [|a k]; [done|]. cbn [lex is_prefix]. destruct (N.compare_spec 12 a) as [<-|L|L].
  - destruct k as [|b k]; [done|]. cbn [lex is_prefix]. rewrite N.compare_refl, N.eqb_refl. cbn [andb].
    destruct (N.compare_spec 1 b) as [<-|L|L]; [by destruct k| |].
    + assert ((1 =? b) = false) as -> by lia. cbn [andb]. destruct (N.compare_spec b 2); [by destruct k|lia|done].
    + assert ((1 =? b) = false) as -> by lia. done.
  - assert ((12 =? a) = false) as -> by lia. cbn [andb]. destruct (N.compare_spec a 12); [lia|lia|done].
  - assert ((12 =? a) = false) as -> by lia. done.
Qed.
Lemma take_snoc_lookup {A} (l : list A) (n : nat) x : l !! n = Some x -> take (S n) l = take n l ++ [x].
Proof. apply take_S_r. Qed.

Section Job.
  Context {E : Type} (dec : bytes -> option E).
  Implicit Types (db : kv bytes) (tok : option bytes) (k : bytes) (e : E).

  (** The store holds event [e] under [k]. *)
  Definition holds db k e : Prop := is_prefix ev_prefix k = true /\ exists v, db !! k = Some v /\ dec v = Some e.
  Definition readable db : Prop := forall k v, db !! k = Some v -> is_prefix ev_prefix k = true -> is_Some (dec v).
  Definition after tok k : Prop := match tok with None => True | Some t => blt t k = true end.
  Definition tok_ok tok : Prop := match tok with None => True | Some t => is_prefix ev_prefix t = true end.
  Definition key_lt (a b : bytes * E) : Prop := blt a.1 b.1 = true.

  Let mk := fun (k v : bytes) => match dec v with Some e => Some (k, e) | None => None end.
  Let sc db tok := scan db ev_prefix (increment_vec_u8 ev_prefix) (POpts (Some JOB_PAGE) tok false).
  Lemma sc_elem db tok k v : tok_ok tok -> (k, v) ∈ sc db tok <-> db !! k = Some v /\ is_prefix ev_prefix k = true /\ after tok k.
  Proof.
    intros Ht. unfold sc. rewrite scan_elem. unfold in_bounds, bounds. cbn [po_reverse po_token fst snd].
    split; intros [H1 H2]; (split; [done|]).
    - destruct tok as [t|]; cbn [after tok_ok] in *.
      + rewrite blt_snoc0 in H2. apply andb_prop in H2 as [H2 H3]. split; [|done].
        rewrite <- ev_prefix_bounds, H3, andb_true_r. rewrite <- ev_prefix_bounds in Ht. apply andb_prop in Ht as [Ht _].
        apply (ble_trans _ t); [done|]. rewrite ble_nblt, (blt_asym _ _ H2). done.
      + rewrite ev_prefix_bounds in H2. done.
    - destruct H2 as [H2 H3]. rewrite <- ev_prefix_bounds in H2. destruct tok as [t|]; cbn [after] in *; [|done].
      apply andb_prop in H2 as [_ H2]. by rewrite blt_snoc0, H2, H3.
  Qed.
  Lemma sc_decodes db tok : readable db -> tok_ok tok -> decodes mk (sc db tok).
  Proof.
    intros Hr Ht. apply Forall_forall. intros [k v] Hin. apply sc_elem in Hin as (H1 & H2 & _); [|done]. destruct (Hr k v H1 H2) as [e He].
    unfold mk. cbn [fst snd]. rewrite He. by eexists.
  Qed.
  Lemma omap_entry_elem (l : list (bytes * bytes)) k e : (k, e) ∈ omap (entry mk (fun _ => true)) l <-> exists v, (k, v) ∈ l /\ dec v = Some e.
  Proof.
    rewrite elem_of_list_omap. unfold entry, mk. split.
    - intros ([k' v] & H1 & H2). cbn [fst snd] in H2. destruct (dec v) as [e'|] eqn:He; [|done]. injection H2 as -> ->. eauto.
    - intros (v & H1 & H2). exists (k, v). cbn [fst snd]. by rewrite H2.
  Qed.
  Lemma omap_entry_keys (l : list (bytes * bytes)) : decodes mk l -> (omap (entry mk (fun _ => true)) l).*1 = l.*1.
  Proof.
    induction l as [|[k v] l IH]; intros Hd; [done|]. apply Forall_cons in Hd as [[a Ha] Hd]. rewrite omap_cons'.
    unfold entry at 1. cbn [fst snd] in *. unfold mk in Ha |- *. destruct (dec v) as [e|]; [|done]. cbn [fmap list_fmap fst]. f_equal. by apply IH.
  Qed.
  Lemma omap_entry_sorted (l : list (bytes * bytes)) : StronglySorted klt l -> StronglySorted key_lt (omap (entry mk (fun _ => true)) l).
  Proof.
    induction 1 as [|[k v] l Hs IH Hf]; [constructor|]. rewrite omap_cons'. unfold entry at 1. cbn [fst snd].
    destruct (mk k v) as [[k' e]|] eqn:Hm; [|done]. assert (k' = k) as -> by (unfold mk in Hm; destruct (dec v); congruence).
    constructor; [done|]. apply Forall_forall. intros [k2 e2] (v2 & Hin & _)%omap_entry_elem.
    rewrite Forall_forall in Hf. exact (Hf _ Hin).
  Qed.

  Lemma job_page_ok db tok : readable db -> tok_ok tok ->
    exists l next, job_page dec db tok = Ok (l, next) /\ StronglySorted key_lt l /\
      (forall k e, (k, e) ∈ l -> holds db k e /\ after tok k) /\
      match next with
      | None => (length l < 100)%nat /\ forall k e, holds db k e -> after tok k -> (k, e) ∈ l
      | Some t => length l = 100%nat /\ tok_ok (Some t) /\ (exists e, last l = Some (t, e)) /\
          (forall k e, (k, e) ∈ l -> ble k t = true) /\ (forall k e, holds db k e -> after tok k -> ble k t = true -> (k, e) ∈ l)
      end.
  Proof.
    intros Hr Ht. pose proof (sc_decodes db tok Hr Ht) as Hd.
    assert (job_page dec db tok = list_filtered mk (fun _ => true) db ev_prefix (increment_vec_u8 ev_prefix) (POpts (Some JOB_PAGE) tok false)) as HJ
      by (unfold job_page; by apply limited_filtered).
    pose proof (scan_sorted db ev_prefix (increment_vec_u8 ev_prefix) (POpts (Some JOB_PAGE) tok false)) as Hs. cbn [po_reverse] in Hs.
    change (scan db ev_prefix (increment_vec_u8 ev_prefix) (POpts (Some JOB_PAGE) tok false)) with (sc db tok) in Hs.
    assert (forall l : list (bytes * bytes), decodes mk l -> length (omap (entry mk (fun _ => true)) l) = length l) as HL.
    { intros l Hl. by rewrite <- (fmap_length fst), omap_entry_keys, fmap_length. }
    destruct (page_split mk (fun _ => true) db ev_prefix (increment_vec_u8 ev_prefix) (POpts (Some JOB_PAGE) tok false)) as [[H1 H2]|(pre & k & v & suf & H1 & H2 & H3)]; [done|done| |].
    - change (scan db ev_prefix (increment_vec_u8 ev_prefix) (POpts (Some JOB_PAGE) tok false)) with (sc db tok) in *.
      exists (omap (entry mk (fun _ => true)) (sc db tok)), None. rewrite HJ, H2. split; [done|].
      split; [by apply omap_entry_sorted|]. split.
      + intros k e (v & Hin & He)%omap_entry_elem. apply sc_elem in Hin as (I1 & I2 & I3); [|done]. split; [|done]. split; [done|]. eauto.
      + split; [change (eff (psize (POpts (Some JOB_PAGE) tok false))) with 100 in H1; lia|].
        intros k e (I1 & v & I2 & I3) I4. apply omap_entry_elem. exists v. split; [|done]. by apply sc_elem.
    - change (scan db ev_prefix (increment_vec_u8 ev_prefix) (POpts (Some JOB_PAGE) tok false)) with (sc db tok) in *.
      assert (sc db tok = (pre ++ [(k, v)]) ++ suf) as Hsp by (by rewrite <- app_assoc).
      assert (decodes mk (pre ++ [(k, v)])) as Hdp by (rewrite Hsp in Hd; by apply Forall_app in Hd as [? _]).
      rewrite Hsp in Hs. destruct (sorted_app_inv _ _ _ Hs) as (Hs1 & Hs2 & Hs3).
      destruct (sorted_app_inv _ _ _ Hs1) as (_ & _ & Hs4).
      assert ((k, v) ∈ sc db tok) as Hk by (rewrite Hsp, !elem_of_app; left; right; by left).
      apply sc_elem in Hk as (K1 & K2 & K3); [|done]. destruct (Hr k v K1 K2) as [e He].
      exists (omap (entry mk (fun _ => true)) (pre ++ [(k, v)])), (Some k). rewrite HJ, H3. split; [done|].
      split; [by apply omap_entry_sorted|]. split; [|split; [|split; [|split; [|split]]]].
      + intros k2 e2 (v2 & Hin & He2)%omap_entry_elem. assert ((k2, v2) ∈ sc db tok) as Hin2 by (rewrite Hsp; apply elem_of_app; by left).
        apply sc_elem in Hin2 as (I1 & I2 & I3); [|done]. split; [|done]. split; [done|]. eauto.
      + change (eff (psize (POpts (Some JOB_PAGE) tok false))) with 100 in H2. lia.
      + done.
      + exists e. rewrite omap_app'. cbn [omap list_omap]. unfold entry at 2, mk at 2. cbn [fst snd]. rewrite He. by rewrite last_snoc.
      + intros k2 e2 (v2 & Hin & _)%omap_entry_elem. apply elem_of_app in Hin as [Hin|Hin].
        * assert (klt (k2, v2) (k, v)) as Hlt by (apply Hs4; [done|by left]). unfold klt in Hlt. cbn [fst] in Hlt. rewrite ble_nblt, (blt_asym _ _ Hlt). done.
        * apply elem_of_list_singleton in Hin. injection Hin as -> ->. by rewrite ble_nblt, blt_irrefl.
      + intros k2 e2 (I1 & v2 & I2 & I3) I4 I5. apply omap_entry_elem. exists v2. split; [|done].
        assert ((k2, v2) ∈ sc db tok) as Hin by (by apply sc_elem). rewrite Hsp in Hin. apply elem_of_app in Hin as [?|Hin]; [done|].
        exfalso. assert (klt (k, v) (k2, v2)) as Hlt by (apply Hs3; [apply elem_of_app; right; by left|done]). unfold klt in Hlt. cbn [fst] in Hlt.
        rewrite ble_nblt, Hlt in I5. done.
  Qed.

  Definition judged (tr : E -> trial) (l : list (bytes * E)) : list (bytes * E * trial) := map (fun x => (x, tr x.2)) l.
  Lemma offer_spec tr sends l : exists n, (offer tr sends l).1 = judged tr (take n l) /\ ((offer tr sends l).2 = true -> take n l = l).
  Proof.
    revert sends. induction l as [|[k e] l IH]; intros sends; [by exists 0%nat|]. cbn [offer].
    assert (forall s v, tr e = v -> exists n, (let '(x, ok) := offer tr s l in ((k, e, v) :: x, ok)).1 = judged tr (take n ((k, e) :: l)) /\
      ((let '(x, ok) := offer tr s l in ((k, e, v) :: x, ok)).2 = true -> take n ((k, e) :: l) = (k, e) :: l)) as G.
    { intros s v Hv. destruct (IH s) as (n & H1 & H2). destruct (offer tr s l) as [x ok]. cbn [fst snd] in *. exists (S n). split.
      - cbn [take judged map snd]. rewrite Hv, H1. done.
      - intros Ho. cbn [take]. by rewrite H2. }
    destruct (tr e) eqn:Et; [|by apply G|by apply G]. destruct sends as [[|m]|]; [|by apply G|by apply G].
    exists 0%nat. done.
  Qed.
  Lemma offer_all tr l : offer tr None l = (judged tr l, true).
  Proof. induction l as [|[k e] l IH]; [done|]. cbn [offer]. rewrite IH. cbn [judged map snd]. by destruct (tr e). Qed.

  (** A pass whose token is read. *)
  Lemma job_iter_ok s db i : readable db -> tok_ok (js_tok s) -> j_read i = true ->
    exists l, (job_iter dec s db i).1.(js_log) = js_log s ++ judged (j_trial i) l /\ StronglySorted key_lt l /\
      (forall k e, (k, e) ∈ l -> holds db k e /\ after (js_tok s) k) /\ tok_ok (js_tok (job_iter dec s db i).1) /\
      match (job_iter dec s db i).2 with
      | JFailed => js_tok (job_iter dec s db i).1 = js_tok s
      | JFinished => js_tok (job_iter dec s db i).1 = None /\ (length l < 100)%nat /\ forall k e, holds db k e -> after (js_tok s) k -> (k, e) ∈ l
      | JMore => exists t, js_tok (job_iter dec s db i).1 = Some t /\ length l = 100%nat /\
          (exists e, last l = Some (t, e)) /\
          (forall k e, (k, e) ∈ l -> ble k t = true) /\ (forall k e, holds db k e -> after (js_tok s) k -> ble k t = true -> (k, e) ∈ l)
      end.
  Proof.
    intros Hr Ht Hi. destruct (job_page_ok db (js_tok s) Hr Ht) as (l & next & HJ & Hs & Hin & Hn). unfold job_iter. rewrite Hi, HJ.
    destruct (offer_spec (j_trial i) (j_sends i) l) as (n & H1 & H2). destruct (offer (j_trial i) (j_sends i) l) as [x ok]. cbn [fst snd] in *.
    assert (StronglySorted key_lt (take n l)) as Hs'.
    { rewrite <- (take_drop n l) in Hs. clear -Hs. induction (take n l) as [|a m IH]; [constructor|]. cbn [app] in Hs.
      apply StronglySorted_inv in Hs as [Hs Hf]. apply Forall_app in Hf as [Hf _]. constructor; auto. }
    assert (forall k e, (k, e) ∈ take n l -> holds db k e /\ after (js_tok s) k) as Hin'.
    { intros k e Hke. apply Hin. rewrite <- (take_drop n l). apply elem_of_app. by left. }
    destruct ok; cbn [negb]; [|exists (take n l); cbn [fst snd js_log js_tok]; rewrite H1; done].
    rewrite H2 in * by done. exists l. destruct (j_write i); cbn [negb]; [|cbn [fst snd js_log js_tok]; rewrite H1; done].
    cbn [fst snd js_log js_tok]. rewrite H1. split; [done|]. split; [done|]. split; [done|].
    destruct next as [t|].
    - destruct Hn as (N1 & N2 & N3 & N4 & N5). split; [done|]. exists t. done.
    - destruct Hn as (N1 & N2). done.
  Qed.
  Lemma judged_elem tr l k e v : (k, e, v) ∈ judged tr l <-> (k, e) ∈ l /\ v = tr e.
  Proof.
    unfold judged. rewrite elem_of_list_In, in_map_iff. split.
    - intros ([k' e'] & H1 & H2). injection H1 as -> -> <-. by rewrite elem_of_list_In.
    - intros [H1 ->]. exists (k, e). split; [done|]. by rewrite <- elem_of_list_In.
  Qed.
  Lemma judged_fst tr l : (judged tr l).*1 = l.
  Proof. induction l as [|x l IH]; [done|]. cbn [judged map fmap list_fmap fst]. f_equal. exact IH. Qed.

  Lemma job_run_cons s db i is : job_run dec s ((db, i) :: is) =
    match (job_iter dec s db i).2 with
    | JFinished => ((job_iter dec s db i).1, [JFinished])
    | o => ((job_run dec (job_iter dec s db i).1 is).1, o :: (job_run dec (job_iter dec s db i).1 is).2)
    end.
  Proof.
    cbn [job_run]. destruct (job_iter dec s db i) as [s' o]. cbn [fst snd]. destruct o; [|done|]; destruct (job_run dec s' is) as [s2 os]; done.
  Qed.

  (** Every event held all along has been looked at when the job finishes. *)
  Lemma job_complete db0 is : forall s, tok_ok (js_tok s) ->
    Forall (fun di => j_read di.2 = true /\ readable di.1 /\ db0 ⊆ di.1) is ->
    (forall k e, holds db0 k e -> (match js_tok s with Some t => ble k t = true | None => False end) -> (k, e) ∈ (js_log s).*1) ->
    last (job_run dec s is).2 = Some JFinished -> forall k e, holds db0 k e -> (k, e) ∈ (js_log (job_run dec s is).1).*1.
  Proof.
    induction is as [|[db i] is IH]; intros s Ht F Hs Hl k e Hke; [done|]. rewrite job_run_cons in Hl |- *.
    apply Forall_cons in F as [(F1 & F2 & F3) F]. cbn [fst snd] in *.
    destruct (job_iter_ok s db i F2 Ht F1) as (l & L1 & L2 & L3 & L4 & L5).
    assert (forall k e, holds db0 k e -> holds db k e) as Hup.
    { intros k' e' (H1 & v & H2 & H3). split; [done|]. exists v. split; [|done]. by apply (lookup_weaken db0). }
    assert (forall k e, (match js_tok s with Some t => ble k t = true | None => False end) \/ after (js_tok s) k) as Hcase.
    { intros k' _. destruct (js_tok s) as [t|]; cbn [after]; [|by right]. rewrite ble_nblt. destruct (blt t k'); [by right|by left]. }
    destruct (job_iter dec s db i) as [s' o]. cbn [fst snd] in *. destruct o.
    - destruct L5 as (t & T1 & T2 & T3 & T4 & T5).
      destruct (job_run dec s' is) as [s2 os] eqn:ER. cbn [fst snd] in *.
      assert (s2 = (job_run dec s' is).1) as -> by (by rewrite ER). apply IH; [done|done| | |done].
      + intros k' e' Hke' Hle. rewrite T1 in Hle. rewrite L1, fmap_app, judged_fst. apply elem_of_app.
        destruct (Hcase k' e') as [C|C]; [left; by apply Hs|right; apply T5; auto].
      + rewrite ER. cbn [snd]. destruct os; [|by rewrite last_cons_cons in Hl]. cbn in Hl. done.
    - destruct L5 as (T1 & T2 & T3). cbn [fst]. rewrite L1, fmap_app, judged_fst. apply elem_of_app.
      destruct (Hcase k e) as [C|C]; [left; by apply Hs|right; apply T3; auto].
    - destruct (job_run dec s' is) as [s2 os] eqn:ER. cbn [fst snd] in *.
      assert (s2 = (job_run dec s' is).1) as -> by (by rewrite ER). apply IH; [done|done| | |done].
      + intros k' e' Hke' Hle. rewrite L5 in Hle. rewrite L1, fmap_app. apply elem_of_app. left. by apply Hs.
      + rewrite ER. cbn [snd]. destruct os; [|by rewrite last_cons_cons in Hl]. cbn in Hl. done.
  Qed.

  (** How often an event is looked at. *)
  Definition times k (l : list (bytes * E * trial)) : nat := length (filter (fun x => x.1.1 = k) l).
  Definition fails (os : list jout) : nat := length (filter (fun o => o = JFailed) os).
  Lemma times_app k l1 l2 : times k (l1 ++ l2) = (times k l1 + times k l2)%nat.
  Proof. unfold times. by rewrite filter_app, app_length. Qed.
  Lemma times_sorted k tr l : StronglySorted key_lt l -> (times k (judged tr l) <= 1)%nat.
  Proof.
    unfold times. induction 1 as [|[k' e'] l Hs IH Hf]; [cbn; lia|]. cbn [judged map]. change (map (fun x => (x, tr x.2)) l) with (judged tr l). rewrite filter_cons. cbn [fst].
    destruct (decide (k' = k)) as [->|]; [|exact IH]. cbn [length].
    assert (filter (fun x : bytes * E * trial => x.1.1 = k) (judged tr l) = []) as ->; [|done].
    apply elem_of_nil_inv. intros [[k2 e2] v]. rewrite elem_of_list_filter, judged_elem. cbn [fst]. intros (-> & Hin & _).
    rewrite Forall_forall in Hf. specialize (Hf _ Hin). unfold key_lt in Hf. cbn [fst] in Hf. by rewrite blt_irrefl in Hf.
  Qed.
  Lemma times_none k tr l : (forall e, (k, e) ∈ l -> False) -> times k (judged tr l) = 0%nat.
  Proof.
    intros H. unfold times. assert (filter (fun x : bytes * E * trial => x.1.1 = k) (judged tr l) = []) as ->; [|done].
    apply elem_of_nil_inv. intros [[k2 e2] v]. rewrite elem_of_list_filter, judged_elem. cbn [fst]. intros (-> & Hin & _). by apply (H e2).
  Qed.
  Lemma job_times is : forall s n, tok_ok (js_tok s) ->
    Forall (fun di => j_read di.2 = true /\ readable di.1) is ->
    (forall k, (times k (js_log s) <= n + match js_tok s with Some t => if ble k t then 1 else 0 | None => 0 end)%nat) ->
    forall k, (times k (js_log (job_run dec s is).1) <= n + fails (job_run dec s is).2 + 1)%nat.
  Proof.
    induction is as [|[db i] is IH]; intros s n Ht F Hs k.
    - cbn [job_run fst snd]. specialize (Hs k). destruct (js_tok s) as [t|]; [destruct (ble k t)|]; lia.
    - rewrite job_run_cons. apply Forall_cons in F as [(F1 & F2) F]. cbn [fst snd] in *.
      destruct (job_iter_ok s db i F2 Ht F1) as (l & L1 & L2 & L3 & L4 & L5).
      assert (forall k, (times k (js_log s ++ judged (j_trial i) l) <= n + 1)%nat) as Hn.
      { intros k'. rewrite times_app. specialize (Hs k'). pose proof (times_sorted k' (j_trial i) l L2).
        destruct (js_tok s) as [t|]; [|lia]. destruct (ble k' t) eqn:B; [|lia].
        rewrite (times_none k'); [lia|]. intros e Hin. apply L3 in Hin as [_ Hin]. cbn [after] in Hin. rewrite ble_nblt, Hin in B. done. }
      destruct (job_iter dec s db i) as [s' o]. cbn [fst snd] in *. destruct o.
      + cbn [fst snd]. assert (fails (JMore :: (job_run dec s' is).2) = fails (job_run dec s' is).2) as -> by done.
        destruct L5 as (t & T1 & T2 & T3 & T4 & T5). apply IH; [done|done|]. intros k'. rewrite T1, L1. pose proof (Hn k') as Hk.
        destruct (ble k' t) eqn:B; [lia|]. rewrite times_app, (times_none k' (j_trial i) l).
        2: { intros e Hin. apply T4 in Hin. congruence. }
        specialize (Hs k'). destruct (js_tok s) as [u|]; [|lia]. destruct (ble k' u) eqn:B2; [|lia].
        exfalso. destruct T3 as [e T3]. assert ((t, e) ∈ l) as Hin by (apply last_Some in T3 as [l' ->]; apply elem_of_app; right; by left).
        apply L3 in Hin as [_ Hin]. cbn [after] in Hin. rewrite ble_nblt in B. apply negb_false_iff in B.
        rewrite ble_nblt, (blt_trans _ _ _ Hin B) in B2. done.
      + cbn [fst snd]. rewrite L1. specialize (Hn k). change (fails [JFinished]) with 0%nat. lia.
      + cbn [fst snd]. assert (fails (JFailed :: (job_run dec s' is).2) = S (fails (job_run dec s' is).2)) as -> by done.
        assert (times k (js_log (job_run dec s' is).1) <= (n + 1) + fails (job_run dec s' is).2 + 1)%nat; [|lia].
        apply IH; [done|done|]. intros k'. rewrite L1, L5. specialize (Hn k'). destruct (js_tok s) as [t|]; [destruct (ble k' t)|]; lia.
  Qed.

  (** What the log says about an event is what the trial said at some pass, while the store held the event. *)
  Lemma job_log is : forall s, tok_ok (js_tok s) -> Forall (fun di => j_read di.2 = true /\ readable di.1) is ->
    forall k e v, (k, e, v) ∈ js_log (job_run dec s is).1 -> (k, e, v) ∈ js_log s \/
      exists db i, (db, i) ∈ is /\ holds db k e /\ j_trial i e = v.
  Proof.
    induction is as [|[db i] is IH]; intros s Ht F k e v Hin; [by left|]. rewrite job_run_cons in Hin.
    apply Forall_cons in F as [(F1 & F2) F]. cbn [fst snd] in *.
    destruct (job_iter_ok s db i F2 Ht F1) as (l & L1 & L2 & L3 & L4 & _).
    assert ((k, e, v) ∈ js_log (job_iter dec s db i).1 -> (k, e, v) ∈ js_log s \/ exists db' i', (db', i') ∈ (db, i) :: is /\ holds db' k e /\ j_trial i' e = v) as G.
    { rewrite L1. intros [H|[H ->]%judged_elem]%elem_of_app; [by left|]. right. exists db, i. split; [by left|]. split; [by apply L3|done]. }
    destruct (job_iter dec s db i) as [s' o]. cbn [fst snd] in *.
    destruct o; cbn [fst] in Hin; [|by apply G|];
      (apply IH in Hin as [Hin|(db' & i' & H1 & H2)]; [by apply G| |done|done]; right; exists db', i'; split; [by right|done]).
  Qed.

  (** Without failures, over a store at rest. *)
  Definition smooth (i : jin E) : Prop := j_read i = true /\ j_sends i = None /\ j_write i = true.
  Lemma smooth_out s db i : smooth i -> readable db -> tok_ok (js_tok s) -> (job_iter dec s db i).2 <> JFailed.
  Proof.
    intros (S1 & S2 & S3) Hr Ht. destruct (job_page_ok db (js_tok s) Hr Ht) as (l & next & HJ & _). unfold job_iter.
    rewrite S1, HJ, S2, offer_all, S3. cbn [negb snd]. by destruct next.
  Qed.
  (** The events up to the token, in order. *)
  Definition upto (s : jstate E) db : Prop :=
    StronglySorted key_lt (js_log s).*1 /\ forall k e, (k, e) ∈ (js_log s).*1 <-> holds db k e /\ ~ after (js_tok s) k.
  Lemma sorted_app_key (l1 l2 : list (bytes * E)) : StronglySorted key_lt l1 -> StronglySorted key_lt l2 ->
    (forall a b, a ∈ l1 -> b ∈ l2 -> key_lt a b) -> StronglySorted key_lt (l1 ++ l2).
  Proof.
    induction 1 as [|x l1 Hs IH Hf]; intros H2 Hab; [done|]. cbn. constructor.
    - apply IH; [done|]. intros a b Ha Hb. apply Hab; [by right|done].
    - apply Forall_app. split; [done|]. apply Forall_forall. intros b Hb. apply Hab; [by left|done].
  Qed.
  Lemma key_sorted_nodup (l : list (bytes * E)) : StronglySorted key_lt l -> NoDup l.*1.
  Proof.
    induction 1 as [|x l Hs IH Hf]; [constructor|]. cbn [fmap list_fmap]. constructor; [|done]. intros ([k e] & E1 & Hin)%elem_of_list_fmap.
    rewrite Forall_forall in Hf. specialize (Hf _ Hin). unfold key_lt in Hf. rewrite E1 in Hf. by rewrite blt_irrefl in Hf.
  Qed.
  Lemma smooth_iter s db i : smooth i -> readable db -> tok_ok (js_tok s) -> upto s db ->
    let s' := (job_iter dec s db i).1 in tok_ok (js_tok s') /\
    match (job_iter dec s db i).2 with
    | JMore => upto s' db /\ length (js_log s') = (length (js_log s) + 100)%nat
    | JFinished => StronglySorted key_lt (js_log s').*1 /\ forall k e, (k, e) ∈ (js_log s').*1 <-> holds db k e
    | JFailed => False
    end.
  Proof.
    intros Hi Hr Ht [U1 U2]. pose proof (smooth_out s db i Hi Hr Ht) as Ho. destruct Hi as (S1 & S2 & S3).
    destruct (job_iter_ok s db i Hr Ht S1) as (l & L1 & L2 & L3 & L4 & L5). cbn zeta.
    destruct (job_iter dec s db i) as [s' o]. cbn [fst snd] in *. split; [done|].
    assert (forall k, Decision (after (js_tok s) k)) as Hdec by (intros k; unfold after; destruct (js_tok s); apply _).
    assert (StronglySorted key_lt ((js_log s).*1 ++ l)) as Hs.
    { apply sorted_app_key; [done|done|]. intros [k1 e1] [k2 e2] H1 H2. unfold key_lt. cbn [fst]. apply U2 in H1 as [_ H1]. apply L3 in H2 as [_ H2].
      destruct (js_tok s) as [t|]; cbn [after] in *; [|done]. apply not_true_is_false in H1. rewrite blt_nle in H1. apply negb_false_iff in H1.
      apply ble_eq_or_lt in H1 as [->|H3]; [done|]. by apply (blt_trans _ t). }
    destruct o; [| |done].
    - destruct L5 as (t & T1 & T2 & T3 & T4 & T5). unfold upto. rewrite L1, fmap_app, judged_fst, T1. split.
      + split; [done|]. intros k e. rewrite elem_of_app, U2. cbn [after]. split.
        * intros [[H1 H2]|H].
          -- split; [done|]. intros H3. apply H2. destruct T3 as [e3 T3]. assert ((t, e3) ∈ l) as Hin by (apply last_Some in T3 as [l' ->]; apply elem_of_app; right; by left).
             apply L3 in Hin as [_ Hin]. destruct (js_tok s) as [u|]; cbn [after] in *; [|done]. by apply (blt_trans _ t).
          -- split; [by apply L3|]. apply T4 in H. rewrite ble_nblt in H. apply negb_true_iff in H. congruence.
        * intros [H1 H2]. destruct (Hdec k) as [A|A]; [|by left]. right. apply T5; [done|done|]. rewrite ble_nblt. destruct (blt t k); done.
      + rewrite app_length. unfold judged. rewrite map_length, T2. done.
    - destruct L5 as (T1 & T2 & T3). rewrite L1, fmap_app, judged_fst. split; [done|]. intros k e. rewrite elem_of_app, U2. split.
      + intros [[H1 _]|H]; [done|by apply L3].
      + intros H. destruct (Hdec k) as [A|A]; [|by left]. right. by apply T3.
  Qed.
  Lemma upto_size s db : upto s db -> (length (js_log s) <= size db)%nat.
  Proof.
    intros [U1 U2]. assert (length (js_log s) = length ((js_log s).*1).*1) as -> by (by rewrite !fmap_length).
    assert (size db = length (map_to_list db).*1) as -> by (rewrite fmap_length; done).
    apply submseteq_length, NoDup_submseteq; [by apply key_sorted_nodup|].
    intros k ([k' e] & -> & Hin)%elem_of_list_fmap. cbn [fst]. apply U2 in Hin as [(_ & v & H & _) _].
    apply elem_of_list_fmap. exists (k', v). split; [done|]. by apply elem_of_map_to_list.
  Qed.
  Lemma smooth_run db : readable db -> forall is s, Forall smooth is -> tok_ok (js_tok s) -> upto s db ->
    (size db < length (js_log s) + 100 * length is)%nat ->
    let r := job_run dec s (map (pair db) is) in
    last r.2 = Some JFinished /\ js_tok r.1 = None /\ StronglySorted key_lt (js_log r.1).*1 /\ forall k e, (k, e) ∈ (js_log r.1).*1 <-> holds db k e.
  Proof.
    intros Hr. induction is as [|i is IH]; intros s F Ht U Hl; cbn zeta.
    - pose proof (upto_size s db U). cbn [length] in Hl. lia.
    - apply Forall_cons in F as [F1 F2]. cbn [map]. rewrite job_run_cons.
      pose proof (smooth_iter s db i F1 Hr Ht U) as [G1 G2]. 
      assert ((job_iter dec s db i).2 = JFinished -> js_tok (job_iter dec s db i).1 = None) as GF.
      { destruct F1 as (S1 & _). destruct (job_iter_ok s db i Hr Ht S1) as (l & _ & _ & _ & _ & L5). intros Q. rewrite Q in L5. apply L5. }
      destruct (job_iter dec s db i) as [s' o]. cbn [fst snd] in *. destruct o; [| |done].
      + destruct G2 as [G2 G3]. destruct (IH s' F2 G1 G2) as (R1 & R2); [rewrite G3; cbn [length] in Hl; lia|]. cbn [fst snd].
        split; [|done]. destruct (job_run dec s' (map (pair db) is)) as [s2 os]. cbn [snd] in *. destruct os; [done|]. by rewrite last_cons_cons.
      + cbn [fst snd]. split; [done|]. split; [by apply GF|done].
  Qed.

  (** The token cannot be read: the first page again and again. *)
  Lemma stuck_iter s db i l t : job_page dec db None = Ok (l, Some t) -> j_read i = false ->
    (job_iter dec s db i).2 <> JFinished /\
    (j_sends i = None -> js_log (job_iter dec s db i).1 = js_log s ++ judged (j_trial i) l).
  Proof.
    intros HJ Hi. unfold job_iter. rewrite Hi, HJ. split.
    - destruct (offer (j_trial i) (j_sends i) l) as [x ok]. destruct ok; cbn [negb snd]; [|done]. by destruct (j_write i).
    - intros ->. rewrite offer_all. cbn [negb fst]. by destruct (j_write i).
  Qed.
  Lemma stuck_run db l t : job_page dec db None = Ok (l, Some t) -> forall is s, Forall (fun i => j_read i = false) is ->
    JFinished ∉ (job_run dec s (map (pair db) is)).2 /\ length (job_run dec s (map (pair db) is)).2 = length is /\
    (Forall (fun i => j_sends i = None) is ->
     (js_log (job_run dec s (map (pair db) is)).1).*1 = (js_log s).*1 ++ concat (replicate (length is) l)).
  Proof.
    intros HJ. induction is as [|i is IH]; intros s F.
    - split; [apply not_elem_of_nil|]. split; [done|]. intros _. cbn [map job_run fst length replicate concat]. by rewrite app_nil_r.
    - apply Forall_cons in F as [F1 F2]. cbn [map]. rewrite job_run_cons. destruct (stuck_iter s db i l t HJ F1) as [H1 H2].
      destruct (job_iter dec s db i) as [s' o]. cbn [fst snd] in *. destruct (IH s' F2) as (I1 & I2 & I3).
      assert (forall o, o <> JFinished -> JFinished ∉ o :: (job_run dec s' (map (pair db) is)).2) as G by (intros o' Ho; rewrite elem_of_cons; intros [Q|Q]; [congruence|done]).
      assert (Forall (fun i => j_sends i = None) (i :: is) -> (js_log (job_run dec s' (map (pair db) is)).1).*1 = (js_log s).*1 ++ concat (replicate (length (i :: is)) l)) as G2.
      { intros [Q1 Q2]%Forall_cons. rewrite I3 by done. rewrite H2 by done. rewrite fmap_app, judged_fst. cbn [length replicate concat]. by rewrite app_assoc. }
      destruct o; [|done|]; cbn [fst snd length]; (split; [by apply G|split; [by rewrite I2|exact G2]]).
  Qed.
End Job.
