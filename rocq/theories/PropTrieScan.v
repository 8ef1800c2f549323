(** Properties C07 (listing) and C67: the keys below a prefix, in one answer and in pages. *)
From Verif Require Import TrieScanProofs PropTrie.
From Coq Require Import ZifyN ZifyNat ZifyBool.
#[local] Open Scope N_scope.

(** [l] lists the keys with property [P], each once, in ascending byte order. *)
Definition lists (l : list bytes) (P : bytes -> Prop) : Prop :=
  StronglySorted (fun a b => blt a b = true) l /\ forall k, k ∈ l <-> P k.

Lemma sorted_lists b X : lists (sorted_keys (below b X)) (fun k => k ∈ X /\ is_prefix b k = true).
Proof.
  split.
  - pose proof (sorted_keys_sorted (below b X)) as Hs. pose proof (sorted_keys_NoDup (below b X)) as Hn.
    induction Hs as [|a l Hs IH Ha]; [constructor|]. apply NoDup_cons in Hn as [Hn1 Hn2]. constructor; [by apply IH|].
    rewrite Forall_forall in Ha |- *. intros y Hy. pose proof (Ha y Hy) as Hay. apply ble_eq_or_lt in Hay as [->|]; [done|done].
  - intros k. rewrite elem_sorted_keys. unfold below. rewrite elem_of_filter. tauto.
Qed.

Section Reached.
  Context (H : bytes -> bytes) (order : list N -> list N) (os : list trie_op) (s : tstate) (rs : list (list bool)) (b : bytes).
  Hypothesis order_perm : forall l, Permutation (order l) l.
  Hypothesis H_ne : forall x, H x <> [].
  Hypothesis ok : history_ok os = true.
  Hypothesis run : trun H order trie_init os = Ok (rs, s).
  Lemma reached : exists d, BInv H (ops_keys os) s (final os).1 (final os).2 d.
  Proof. destruct (reach H order os order_perm H_ne ok) as (s' & d & E & HB). rewrite run in E. injection E as -> ->. by exists d. Qed.
End Reached.
Ltac reached Ho Hne Hok E := let d := fresh "d" in let HB := fresh "HB" in destruct (reached _ _ _ _ _ Ho Hne Hok E) as [d HB].

(** C07. The values listed for a prefix of at most 6 bytes are the stored keys below it in ascending order; the list
    may stop early, but only after more than 1024 keys. *)
Theorem C07_listing : forall H order os s rs b,
  (forall l, Permutation (order l) l) -> (forall x, H x <> []) -> history_ok os = true ->
  trun H order trie_init os = Ok (rs, s) -> bytes_ok b = true -> (length b <= 6)%nat ->
  (exists k, k ∈ (final os).2 /\ is_prefix b k = true) ->
  exists F, forall fuel, (F <= fuel)%nat -> exists vs rest, trie_all_values fuel s b = Ok vs /\
    lists (vs ++ rest) (fun k => k ∈ (final os).2 /\ is_prefix b k = true) /\ (rest = [] \/ 1024 < length vs)%nat.
Proof.
  intros H order os s rs b Ho Hne Hok E Hb Hl (k & Hk & Hp). parts Hok. reached Ho Hne Hok E.
  exists (FB (ops_keys os)). intros fuel Hf.
  destruct (trie_all_values_ok H order _ Ho Hne Hg Hn _ _ _ _ HB b Hb fuel Hf) as (vs & rest & Ev & [[Es Hr]|(_ & Hl' & _)]); [| |lia].
  - intros He. assert (k ∈ below b (final os).2) as Hin by (unfold below; by apply elem_of_filter). rewrite He in Hin. set_solver.
  - exists vs, rest. split; [done|]. split; [|exact Hr]. rewrite <- Es. apply sorted_lists.
Qed.

(** Listings of at most 1024 keys are complete. *)
Theorem C07_listing_complete : forall H order os s rs b,
  (forall l, Permutation (order l) l) -> (forall x, H x <> []) -> history_ok os = true ->
  trun H order trie_init os = Ok (rs, s) -> bytes_ok b = true -> (length b <= 6)%nat ->
  (exists k, k ∈ (final os).2 /\ is_prefix b k = true) -> (size (below b (final os).2) <= 1024)%nat ->
  exists F, forall fuel, (F <= fuel)%nat -> exists vs, trie_all_values fuel s b = Ok vs /\
    lists vs (fun k => k ∈ (final os).2 /\ is_prefix b k = true).
Proof.
  intros H order os s rs b Ho Hne Hok E Hb Hl (k & Hk & Hp) Hsz. parts Hok. reached Ho Hne Hok E.
  exists (FB (ops_keys os)). intros fuel Hf.
  destruct (trie_all_values_ok H order _ Ho Hne Hg Hn _ _ _ _ HB b Hb fuel Hf) as (vs & rest & Ev & [[Es Hr]|(_ & Hl' & _)]); [| |lia].
  - intros He. assert (k ∈ below b (final os).2) as Hin by (unfold below; by apply elem_of_filter). rewrite He in Hin. set_solver.
  - exists vs. split; [done|]. assert (rest = []) as ->.
    { destruct Hr as [|Hr]; [done|]. exfalso. pose proof (sorted_keys_length (below b (final os).2)) as Hsl. rewrite Es, app_length in Hsl.
      change MAX_VALUES with 1024%nat in Hr. rewrite <- Hsl in Hsz.
      eapply Nat.lt_irrefl, Nat.lt_le_trans; [exact Hr|]. etrans; [|exact Hsz]. apply Nat.le_add_r. }
    rewrite app_nil_r in Es. rewrite <- Es. apply sorted_lists.
Qed.

(** Prefixes below which nothing is stored list nothing, except that the empty prefix of the empty trie lists one
    empty key, which is not stored. *)
Theorem C07_listing_empty : forall H order os s rs b fuel,
  (forall l, Permutation (order l) l) -> (forall x, H x <> []) -> history_ok os = true ->
  trun H order trie_init os = Ok (rs, s) -> bytes_ok b = true -> (0 < fuel)%nat ->
  (forall k, k ∈ (final os).2 -> is_prefix b k = false) ->
  trie_all_values fuel s b = Ok (match b with [] => [[]] | _ => [] end).
Proof.
  intros H order os s rs b fuel Ho Hne Hok E Hb Hf Hno. parts Hok. reached Ho Hne Hok E.
  assert (He : below b (final os).2 = ∅).
  { apply set_eq. intros k. unfold below. rewrite elem_of_filter. split; [|set_solver]. intros [Hp Hk]. by rewrite Hno in Hp. }
  pose proof (scan_node H order _ Ho Hne Hg Hn _ _ _ _ HB b Hb) as Hsn. unfold trie_all_values.
  destruct (node_at _ _ _ _) as [n|] eqn:En.
  - destruct Hsn as (f & Hr & [Hd| ->]); [done|].
    rewrite (scan_below H _ Hg _ _ _ _ HB [] Hb), He, nib_empty in Hr.
    apply (rep_empty_leaf H (UB (ops_keys os)) Hne (UB_len H order Ho Hne _ Hg Hn) (UB_pf _ Hg) (UB_nib _ Hg)) in Hr as [Hl Hk].
    destruct fuel as [|fuel]; [lia|]. cbn [all_values]. rewrite Hl, Hk. done.
  - destruct b; [|done]. done.
Qed.

(** C67. Following the page tokens from the start, with any page size of at least one, gives every stored key below the
    prefix exactly once and in ascending order; every page but the last is full, and the last one ends the walk. *)
Theorem C67_paging : forall H order os s rs b,
  (forall l, Permutation (order l) l) -> (forall x, H x <> []) -> history_ok os = true ->
  trun H order trie_init os = Ok (rs, s) -> bytes_ok b = true -> (length b <= 6)%nat ->
  (forall k, k ∈ ops_keys os -> N.of_nat (length k) < 2 ^ 30) ->
  exists F, forall fuel max n, (F <= fuel)%nat -> (0 < max)%nat -> (size (below b (final os).2) < n)%nat ->
  exists pages, follow n fuel s b max None = Some pages /\
    lists (concat pages) (fun k => k ∈ (final os).2 /\ is_prefix b k = true) /\
    exists front last, pages = front ++ [last] /\ Forall (fun p => length p = max) front /\ (length last <= max)%nat.
Proof.
  intros H order os s rs b Ho Hne Hok E Hb Hl Hsh. parts Hok. reached Ho Hne Hok E.
  destruct (trie_pages_ok H order _ Ho Hne Hg Hn _ _ _ _ HB b Hb Hsh) as [K HK]. exists K. intros fuel max n Hf Hm Hsz.
  destruct (HK fuel max n Hf Hm Hsz) as (pages & Ep & Hp & [Hc|(_ & Hl' & _)]); [|lia].
  exists pages. split; [done|]. split; [rewrite Hc; apply sorted_lists|].
  assert (Hne' : pages <> []) by (destruct n as [|n]; [lia|]; cbn [follow] in Ep; destruct (trie_page _ _ _ _ _) as [[[ks [t|]]| |]|]; try done;
    [destruct (follow _ _ _ _ _ _); [by injection Ep as <-|done]|by injection Ep as <-]).
  destruct (exists_last Hne') as (front & last & ->). exists front, last. split; [done|]. split.
  - apply Forall_lookup. intros i p Hi. apply (Hp i p); [by apply lookup_app_l_Some|]. apply lookup_lt_Some in Hi. rewrite app_length. cbn. lia.
  - apply (Hp (length front) last). by rewrite list_lookup_middle.
Qed.

(** Corollary: what a walk delivers depends only on the set of stored keys, neither on the page size nor on the history. *)
Theorem C67_page_size_irrelevant : forall H1 H2 order1 order2 os1 os2 s1 s2 rs1 rs2 b,
  (forall l, Permutation (order1 l) l) -> (forall l, Permutation (order2 l) l) -> (forall x, H1 x <> []) -> (forall x, H2 x <> []) ->
  history_ok os1 = true -> history_ok os2 = true ->
  trun H1 order1 trie_init os1 = Ok (rs1, s1) -> trun H2 order2 trie_init os2 = Ok (rs2, s2) -> (final os1).2 = (final os2).2 ->
  bytes_ok b = true -> (length b <= 6)%nat ->
  (forall k, k ∈ ops_keys os1 \/ k ∈ ops_keys os2 -> N.of_nat (length k) < 2 ^ 30) ->
  exists F, forall fuel max1 max2 n, (F <= fuel)%nat -> (0 < max1)%nat -> (0 < max2)%nat -> (size (below b (final os1).2) < n)%nat ->
  exists p1 p2, follow n fuel s1 b max1 None = Some p1 /\ follow n fuel s2 b max2 None = Some p2 /\ concat p1 = concat p2.
Proof.
  intros H1 H2 o1 o2 os1 os2 s1 s2 rs1 rs2 b Ho1 Ho2 Hn1 Hn2 Hk1 Hk2 E1 E2 Ef Hb Hl Hsh.
  destruct (C67_paging H1 o1 os1 s1 rs1 b Ho1 Hn1 Hk1 E1 Hb Hl) as [F1 P1]; [auto|].
  destruct (C67_paging H2 o2 os2 s2 rs2 b Ho2 Hn2 Hk2 E2 Hb Hl) as [F2 P2]; [auto|].
  exists (F1 + F2)%nat. intros fuel m1 m2 n Hf Hm1 Hm2 Hn.
  destruct (P1 fuel m1 n) as (p1 & Q1 & [S1 L1] & _); [lia..|]. destruct (P2 fuel m2 n) as (p2 & Q2 & [S2 L2] & _); [lia|lia|by rewrite <- Ef|].
  exists p1, p2. split; [done|]. split; [done|].
  assert (Hperm : forall l1 l2 : list bytes, StronglySorted (fun a b => blt a b = true) l1 -> StronglySorted (fun a b => blt a b = true) l2 ->
    (forall k, k ∈ l1 <-> k ∈ l2) -> l1 = l2).
  { clear. intros l1. induction l1 as [|a l1 IH]; intros l2 S1 S2 Hiff.
    - destruct l2 as [|c l2]; [done|]. pose proof (proj2 (Hiff c) ltac:(left)) as Hc. by apply elem_of_nil in Hc.
    - destruct l2 as [|c l2]; [pose proof (proj1 (Hiff a) ltac:(left)) as Hc; by apply elem_of_nil in Hc|].
      apply StronglySorted_inv in S1 as [S1 A1], S2 as [S2 A2]. rewrite Forall_forall in A1, A2.
      assert (a = c) as ->.
      { pose proof (proj1 (Hiff a) ltac:(left)) as Ha. pose proof (proj2 (Hiff c) ltac:(left)) as Hc.
        apply elem_of_cons in Ha as [->|Ha]; [done|]. apply elem_of_cons in Hc as [->|Hc]; [done|].
        pose proof (A2 _ Ha) as X. pose proof (blt_trans _ _ _ X (A1 _ Hc)) as Y. by rewrite blt_irrefl in Y. }
      f_equal. apply IH; [done..|]. intros k. pose proof (Hiff k) as Hk. rewrite !elem_of_cons in Hk.
      split; intros Hin; [destruct (proj1 Hk (or_intror Hin)) as [->|]|destruct (proj2 Hk (or_intror Hin)) as [->|]]; try done.
      + pose proof (A1 _ Hin) as X. by rewrite blt_irrefl in X.
      + pose proof (A2 _ Hin) as X. by rewrite blt_irrefl in X. }
  apply Hperm; [done..|]. intros k. by rewrite L1, L2, Ef.
Qed.

(** Prefixes longer than 6 bytes: a key below such a prefix is not listed, neither at once nor in pages. *)
Theorem C07_listing_long_prefix_refuted : exists H order os s rs b,
  (forall x, H x <> []) /\ (forall l, Permutation (order l) l) /\ history_ok os = true /\ bytes_ok b = true /\ length b = 7%nat /\
  trun H order trie_init os = Ok (rs, s) /\ size (below b (final os).2) = 1%nat /\
  (forall fuel, trie_all_values fuel s b = Ok []) /\ (forall fuel max token, trie_page fuel s b max token = Some (Ok ([], None))).
Proof.
  pose (os := [TInsert ex_a; TCommit]).
  exists (fun _ => [1]), (fun l => l), os.
  destruct (run_witness (fun s => match node_at (ts_db s) (ts_root s) [] (expand_nibbles (take 7 ex_a)) with None => true | _ => false end)
    (trun (fun _ => [1]) (fun l => l) trie_init os)) as (rs & s & E & HP); [by vm_compute|].
  exists s, rs, (take 7 ex_a). split; [done|]. split; [done|]. split; [by vm_compute|]. split; [by vm_compute|]. split; [by vm_compute|]. split; [exact E|].
  split; [by vm_compute|]. split; intros; unfold trie_all_values, trie_page; destruct (node_at _ _ _ _); done.
Qed.

(** The empty trie lists a key it does not store. *)
Theorem C07_listing_phantom_refuted : forall fuel, (0 < fuel)%nat -> trie_all_values fuel trie_init [] = Ok [[]].
Proof. intros [|fuel] Hf; [lia|]. done. Qed.

(** A listed child whose node is gone from the disk is loaded as an empty node (trie_node.rs:609), so a damaged database
    is not noticed: the listing contains the empty key in place of everything below the child, ... *)
Theorem C07_lost_node_refuted : forall db fuel n p c, aget c (n_children n) = Some CSer -> db !! make_primary_key p (Some c) = None ->
  exists m, load_child db n p c = Some m /\ all_values db (S fuel) m (p ++ [c]) = Ok [[]].
Proof. intros db fuel n p c Hc Hdb. exists empty_node. unfold load_child. by rewrite Hc, Hdb. Qed.
(** ... and the paged walk goes on as if the child held nothing, without an error. *)
Theorem C67_lost_node_refuted : forall db root q st r stack c n, ps_stack st = (r ++ [c]) :: stack ->
  node_at db root [] (q ++ ps_rel st) = Some n -> aget c (n_children n) = Some CSer ->
  db !! make_primary_key (q ++ ps_rel st) (Some c) = None -> page_step db root q st = PNext None (mk_pstate (ps_rel st) (r :: stack)).
Proof.
  intros db root q st r stack c n Hst Hn Hc Hdb. unfold page_step. rewrite Hst, rev_app_distr. cbn [rev app].
  rewrite (app_assoc q), node_at_snoc, Hn. cbn [app]. unfold load_child. rewrite Hc, Hdb. cbn. by rewrite rev_involutive.
Qed.

(** What is noticed, on any database: a page token that names a child the tree does not have. The walk from such a token
    never ends with success. *)
Theorem C67_unknown_child : forall db fuel root q max level ks, page_loop db fuel root q max (mk_pstate [] [level]) [] = Some (Ok (ks, None)) ->
  forall c, c ∈ level -> node_at db root [] (q ++ [c]) <> None.
Proof.
  intros db fuel root q max level ks E c Hc.
  assert (G : forall f st acc stack, page_loop db f root q max st acc = Some (Ok (ks, None)) -> ps_stack st = stack ++ [level] ->
    length (ps_rel st) = length stack -> node_at db root [] (q ++ [c]) <> None).
  { clear E. revert Hc. revert level. intros level Hc f. revert level Hc. induction f as [|f IH]; intros level Hc st acc stack; [done|]. cbn [page_loop].
    destruct (Nat.leb max (length acc)); [done|]. unfold page_step. intros E Hst Hlen. rewrite Hst in E.
    destruct stack as [|l stack]; cbn [app] in E.
    - assert (Hrel : ps_rel st = []) by (destruct (ps_rel st); done). rewrite Hrel in E. cbn [app] in E.
      destruct (rev level) as [|x r] eqn:Er.
      { apply (f_equal (@rev _)) in Er. rewrite rev_involutive in Er. cbn in Er. subst level. by apply elem_of_nil in Hc. }
      assert (Hl : level = rev r ++ [x]) by (rewrite <- (rev_involutive level), Er; done).
      destruct (node_at db root [] (q ++ [x])) as [n|] eqn:En; [|done].
      rewrite Hl in Hc. apply elem_of_app in Hc as [Hc|Hc]; [|apply elem_of_list_singleton in Hc as ->; by rewrite En].
      destruct (is_leaf n).
      + destruct (n_key n) as [[|y k]|]; [done| |].
        * destruct (combine_nibbles (y :: k)) as [b|]; [|done]. by eapply (IH (rev r) Hc _ _ [] E).
        * by eapply (IH (rev r) Hc _ _ [] E).
      + by eapply (IH (rev r) Hc _ _ [_] E).
    - destruct (rev l) as [|x r] eqn:Er.
      + eapply (IH level Hc _ _ stack E); [done|]. cbn. cbn [length] in Hlen.
        destruct (ps_rel st) as [|y rel] using rev_ind; [done|]. rewrite removelast_last. rewrite app_length in Hlen. cbn in Hlen. lia.
      + destruct (node_at db root [] (q ++ ps_rel st ++ [x])) as [n|]; [|done]. destruct (is_leaf n).
        * destruct (n_key n) as [[|y k]|]; [done| |].
          -- destruct (combine_nibbles (y :: k)) as [b|]; [|done]. by eapply (IH level Hc _ _ (rev r :: stack) E).
          -- by eapply (IH level Hc _ _ (rev r :: stack) E).
        * eapply (IH level Hc _ _ (_ :: rev r :: stack) E); [done|]. cbn in *. rewrite app_length. cbn. lia. }
  by eapply (G fuel _ _ [] E).
Qed.

(** The hypotheses are satisfiable: three keys, two of them below one prefix, one page each. *)
Definition ex_scan : list trie_op := [TInsert ex_a; TInsert ex_c; TCommit; TInsert ex_b].
Example C07_listing_satisfiable : history_ok ex_scan = true /\
  match trun (fun _ => [1]) (fun l => l) trie_init ex_scan with
  | Ok (_, s) => trie_all_values 100 s (take 6 ex_a) = Ok [ex_a; ex_b] /\ trie_all_values 100 s [] = Ok [ex_a; ex_b; ex_c]
  | _ => False
  end.
Proof. by vm_compute. Qed.
Example C67_satisfiable : forallb (fun k => N.of_nat (length k) <? 2 ^ 30) (ops_keys ex_scan) = true /\
  match trun (fun _ => [1]) (fun l => l) trie_init ex_scan with
  | Ok (_, s) => follow 4 200 s [] 1 None = Some [[ex_a]; [ex_b]; [ex_c]; []] /\ follow 4 200 s [] 2 None = Some [[ex_a; ex_b]; [ex_c]]
  | _ => False
  end.
Proof. by vm_compute. Qed.

(** A committed trie, reopened after the node of its first branch was lost: both listings succeed, with wrong answers. *)
Example C67_lost_node_satisfiable :
  match trun (fun _ => [1]) (fun l => l) trie_init [TInsert ex_a; TInsert ex_c; TCommit; TRollback] with
  | Ok (_, s) =>
      let lost c := delete (make_primary_key [] (Some c)) (ts_db s) in
      forallb (fun c => match aget c (n_children (ts_root s)) with
                        | Some CSer => match page_loop (lost c) 50 (ts_root s) [] 9 (mk_pstate [] [rev (akeys (n_children (ts_root s)))]) [] with
                                       | Some (Ok (ks, None)) => Nat.ltb (length ks) 2
                                       | _ => false
                                       end
                        | _ => false
                        end) (take 1 (akeys (n_children (ts_root s)))) && negb (bool_decide (n_children (ts_root s) = []))
  | _ => false
  end = true.
Proof. by vm_compute. Qed.
Example C67_unknown_child_satisfiable :
  match trun (fun _ => [1]) (fun l => l) trie_init ex_scan with
  | Ok (_, s) => page_loop (ts_db s) 50 (ts_root s) [] 9 (mk_pstate [] [[15]]) [] = Some (Err SNodeNotFound)
  | _ => False
  end.
Proof. by vm_compute. Qed.

Print Assumptions C07_listing.
Print Assumptions C07_listing_complete.
Print Assumptions C07_listing_empty.
Print Assumptions C67_paging.
Print Assumptions C67_page_size_irrelevant.
Print Assumptions C07_listing_long_prefix_refuted.
Print Assumptions C07_listing_phantom_refuted.
Print Assumptions C07_lost_node_refuted.
Print Assumptions C67_lost_node_refuted.
Print Assumptions C67_unknown_child.
