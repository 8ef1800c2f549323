(** C129: what the node tells about a node of the trie. *)
From Verif Require Import TrieRun PropTrie TrieMeta AMap.
From Coq Require Import Lia ZifyN ZifyNat ZifyBool.
#[local] Open Scope N_scope.

(** The node stored at a path below which there are keys. *)
Lemma walk H f : forall db p n X q, rep H f db p n X -> (forall c x, aget c (n_children n) = Some x -> x = CSer) -> p `prefix_of` q -> (length q <= 12)%nat ->
  under q X <> ∅ -> exists n' f', (q = p /\ n' = n \/ exists d, db !! pk q = Some d /\ n' = deserialize d) /\ rep H f' db q n' (under q X).
Proof.
  induction f as [|f IH]; intros db p n X q R S P L Ne; [done|]. destruct (decide (q = p)) as [->|Nq].
  { exists n, (Datatypes.S f). split; [by left|]. rewrite under_all; [exact R|apply R]. }
  destruct P as [[|c r] ->]; [by rewrite app_nil_r in Nq|]. rewrite app_length in L. cbn [length] in L.
  destruct R as (Hi & Hp & _ & _ & [(-> & _)|[(Hd & _)|(_ & _ & _ & Hk)]]).
  - destruct Ne. apply under_empty_iff. intros k Hk. by apply not_elem_of_empty in Hk.
  - lia.
  - assert (Pq : p ++ [c] `prefix_of` p ++ c :: r) by (exists r; by rewrite <- app_assoc).
    specialize (Hk c). destruct (aget c (n_children n)) as [x|] eqn:E.
    + destruct Hk as (Hs & _ & R). rewrite (S c x E) in R. cbn [loadc] in R. rewrite <- (under_sub p c _ X Hp Pq) in Ne |- *.
      destruct (db !! pk (p ++ [c])) as [d|] eqn:D.
      * destruct (IH db (p ++ [c]) (deserialize d) (sub (length p) c X) (p ++ c :: r) R (deser_all_CSer d) Pq) as (n' & f' & Hn & R'); [rewrite app_length; cbn; lia|done|].
        exists n', f'. split; [|done]. right. destruct Hn as [[-> ->]|(d' & D' & ->)]; [exists d|exists d']; done.
      * exfalso. apply Hs. apply rep_items in R. cbn [empty_node n_items] in R. apply leibniz_equiv, size_empty_inv. lia.
    + destruct Hk as [Hs _]. exfalso. rewrite <- (under_sub p c _ X Hp Pq), Hs in Ne. destruct Ne. apply under_empty_iff. intros k Hk. by apply not_elem_of_empty in Hk.
Qed.

(** ** The theorem: the committed keys below the prefix, their hash, and the same for each next nibble that occurs. *)
Theorem C129_meta : forall H order os s rs b,
  (forall l, Permutation (order l) l) -> (forall x, H x <> []) -> history_ok os = true ->
  trun H order trie_init os = Ok (rs, s) -> bytes_ok b = true -> (length b <= 5)%nat ->
  let C := (final os).1 in
  (below b C = ∅ -> b <> [] -> serve_meta H s b = Err tt) /\
  (below b C <> ∅ \/ b = [] -> exists l, serve_meta H s b = Ok (N.of_nat (size (below b C)), spec_node H b C, l) /\ NoDup (map (fun x => x.1.1) l) /\
    forall p n h, (p, n, h) ∈ l <-> let Y := under p (nib C) in
      (exists c, p = expand_nibbles b ++ [c]) /\ Y <> ∅ /\ n = N.of_nat (size Y) /\ h = shash H (S (maxlen Y)) (length p) Y).
Proof.
  intros H order os s rs b Ho Hne Hok E Hb Hl C. parts Hok. destruct (reach H order os Ho Hne Hok) as (s' & dd & E' & HB). rewrite E in E'. injection E' as -> ->.
  set (L := ops_keys os) in *. set (q := expand_nibbles b). assert (Lq : (length q <= 10)%nat) by (unfold q; rewrite expand_len; lia).
  destruct HB as (HC & _ & HI). fold C in HC, HI. pose proof HI as (HU & _ & (d & Hd & HR) & _ & _ & _ & Hcl & _).
  destruct (Inv_rollback H (UB L) (FB L) s' _ _ _ HI) as (s2 & E2 & HI2). unfold trie_rollback, trie_reload in E2. change ROOT_KEY with (pk []) in E2. rewrite Hd in E2. injection E2 as <-.
  set (s2 := mk_tstate (ts_db s') ∅ (deserialize d)) in *.
  assert (Look : forall x, (length x <= 12)%nat -> match get_node_from_txn_or_db s2 (pk x) with
      | Some m => n_items m = N.of_nat (size (under x (nib C))) /\ node_hash H m = shash H (FB L) (length x) (under x (nib C))
      | None => under x (nib C) = ∅ end).
  { intros x Hx. pose proof (Inv_lookup H order (UB L) Ho Hne (UB_len H order Ho Hne L Hg Hn) (UB_pf L Hg) (UB_nib L Hg) (UB_nocol L Hn) (FB L) (UB_fuel L) (FB_pos L) _ _ _ _ x HI2 Hx) as K.
    unfold visible in K. by destruct (decide (under x (nib C) = ∅)). }
  assert (Fu : forall x, shash H (FB L) (length x) (under x (nib C)) = shash H (S (maxlen (under x (nib C)))) (length x) (under x (nib C))).
  { intros x. apply shash_fuel. intros k Hk. pose proof (maxlen_lt _ _ Hk) as Hm. apply elem_under in Hk as [Hk Hp]. split; [done|]. split; [|lia]. apply HU, UB_fuel in Hk. lia. }
  assert (Nb : nib (below b C) = under q (nib C)) by (by apply (nib_below (B L) (B_ok L Hg))).
  assert (Sz : size (under q (nib C)) = size (below b C)).
  { rewrite <- Nb. apply (nib_size (B L) (B_ok L Hg)). intros k Hk. apply elem_of_filter in Hk as [_ Hk]. auto. }
  assert (Sn : spec_node H b C = shash H (FB L) (length q) (under q (nib C))) by (rewrite Fu; unfold spec_node; rewrite Nb; unfold q; by rewrite expand_len).
  assert (Em : below b C = ∅ <-> under q (nib C) = ∅).
  { rewrite <- Nb. symmetry. apply nib_empty_iff. }
  assert (Sv : serve_meta H s' b = node_meta H s2 b) by done. rewrite Sv. unfold node_meta, get_node. fold q. split.
  - intros Z Nz. apply Em in Z. unfold get_node_from_txn_or_db. cbn [ts_txn ts_db s2]. rewrite lookup_empty. rewrite (Hcl q); [done| |lia|done].
    intros Q. apply Nz. apply (f_equal length) in Q. unfold q in Q. rewrite expand_len in Q. destruct b; [done|cbn in Q; lia].
  - intros Z. pose proof (Look q ltac:(lia)) as Lk. 
    assert (Node : exists n, get_node_from_txn_or_db s2 (pk q) = Some n /\ forall c, c ∈ akeys (n_children n) <-> under (q ++ [c]) (nib C) <> ∅).
    { destruct (decide (under q (nib C) = ∅)) as [Y|Y].
      - destruct Z as [Z| ->]; [by rewrite Em in Z|]. exists (deserialize d). split; [unfold get_node_from_txn_or_db; cbn [ts_txn ts_db s2]; rewrite lookup_empty; change (pk q) with (pk []); by rewrite Hd|].
        change q with (@nil N) in Y. rewrite under_nil in Y. rewrite Y in HR |- *. intros c. destruct (FB L) as [|f]; [done|]. destruct HR as (_ & _ & _ & _ & [(_ & -> & _)|[(_ & _ & k & X & _)|(_ & X & _)]]).
        + split; [intros X; by apply elem_of_nil in X|]. intros X. destruct X. apply under_empty_iff. intros k Hk. by apply not_elem_of_empty in Hk.
        + exfalso. assert (K : k ∈ (∅ : gset bytes)) by (rewrite X; by apply elem_of_singleton). by apply not_elem_of_empty in K.
        + done.
      - destruct (walk H (FB L) (ts_db s') [] (deserialize d) (nib C) q HR (deser_all_CSer d) (prefix_nil _) ltac:(lia) Y) as (n & f & Hnn & R).
        assert (Eq : get_node_from_txn_or_db s2 (pk q) = Some n).
        { unfold get_node_from_txn_or_db. cbn [ts_txn ts_db s2]. rewrite lookup_empty. destruct Hnn as [[-> ->]|(d' & D' & ->)]; [by rewrite Hd|by rewrite D']. }
        exists n. split; [done|]. intros c. destruct f as [|f]; [done|]. destruct R as (_ & Hp & _ & _ & [(X & _)|[(X & _)|(_ & _ & _ & Hk)]]); [done|lia|].
        specialize (Hk c). rewrite elem_of_akeys.
        assert (Us : sub (length q) c (under q (nib C)) = under (q ++ [c]) (nib C)).
        { apply set_eq. intros k. rewrite elem_sub, !elem_under, prefix_snoc. tauto. }
        rewrite Us in Hk. destruct (aget c (n_children n)) as [x|].
        + split; [intros _; apply Hk|by eexists].
        + split; [by intros [? ?]|]. intros X. by destruct X, Hk. }
    destruct Node as (n & En & Ch). rewrite En in Lk |- *. destruct Lk as [-> ->].
    assert (Cm : forall c, c ∈ akeys (n_children n) -> child_meta H s2 b c = Some (q ++ [c], N.of_nat (size (under (q ++ [c]) (nib C))), shash H (FB L) (length (q ++ [c])) (under (q ++ [c]) (nib C)))).
    { intros c Hc. apply Ch in Hc. unfold child_meta. fold q. pose proof (Look (q ++ [c]) ltac:(rewrite app_length; cbn; lia)) as K.
      destruct (get_node_from_txn_or_db s2 (pk (q ++ [c]))) as [m|]; [|done]. destruct K as [K1 K2]. cbn [mbind option_bind]. by rewrite K1, K2. }
    set (g := fun c : N => (q ++ [c], N.of_nat (size (under (q ++ [c]) (nib C))), shash H (FB L) (length (q ++ [c])) (under (q ++ [c]) (nib C)))).
    assert (Mm : mapM (child_meta H s2 b) (akeys (n_children n)) = Some (map g (akeys (n_children n)))).
    { clear Ch. induction (akeys (n_children n)) as [|c cs IH]; [done|]. cbn [mapM map]. rewrite Cm by left. cbn [mbind option_bind]. rewrite IH; [done|]. intros c' Hc. apply Cm. by right. }
    rewrite Mm. exists (map g (akeys (n_children n))). split; [by rewrite Sz, Sn|]. split.
    + rewrite map_map. cbn [g fst]. apply NoDup_fmap_2; [intros c c' X; apply app_inv_head in X; by injection X|].
      assert (As : asorted (n_children n)).
      { unfold get_node_from_txn_or_db in En. cbn [ts_txn ts_db s2] in En. rewrite lookup_empty in En. destruct (ts_db s' !! pk q) as [d'|]; [|done]. injection En as <-. unfold deserialize. cbn [n_children]. apply fold_CSer_sorted. }
      unfold asorted in As. clear -As. induction As as [|x l S IH F]; constructor; [|done]. intros X. rewrite Forall_forall in F. apply F in X. lia.
    + intros p m h. rewrite elem_of_list_fmap. split.
      * intros (c & [= -> -> ->] & Hc). apply Ch in Hc. split; [by exists c|]. split; [done|]. split; [done|]. apply Fu.
      * intros ((c & ->) & Y & -> & ->). exists c. split; [|by apply Ch]. unfold g. by rewrite Fu.
Qed.

(** Two keys of one account and one of another, the last one not committed. *)
Definition xops : list trie_op := [TInsert ex_a; TInsert ex_b; TCommit; TInsert ex_c].
Definition xH (x : bytes) : bytes := [fold_left N.add x 1 mod 256].
Definition xs : tstate := match trun xH (fun l => l) trie_init xops with Ok (_, s) => s | _ => trie_init end.
Example C129_ex : history_ok xops = true /\ (exists rs, trun xH (fun l => l) trie_init xops = Ok (rs, xs)) /\ size (final xops).1 = 2%nat /\
  bytes_ok (take 5 ex_a) = true /\ size (below (take 5 ex_a) (final xops).1) = 2%nat /\ (exists h x, serve_meta xH xs (take 5 ex_a) = Ok (2, h, [x])) /\
  serve_meta xH xs [255] = Err tt.
Proof. split; [by vm_compute|]. split; [eexists; by vm_compute|]. split; [by vm_compute|]. split; [by vm_compute|]. split; [by vm_compute|]. split; [eexists _, _; by vm_compute|by vm_compute]. Qed.

(** The claim that the prefix told for a child asks for that child is false: it is spelled in nibbles but read as bytes. *)
Theorem C129_child_prefix_refuted : exists H order os rs s b c n h l, (forall x, H x <> []) /\ (forall l, Permutation (order l) l) /\ history_ok os = true /\
  trun H order trie_init os = Ok (rs, s) /\ serve_meta H s b = Ok l /\ (c, n, h) ∈ l.2 /\ n = 2 /\ serve_meta H s c = Err tt.
Proof.
  exists xH, (fun l => l), xops. destruct C129_ex as (K & (rs & R) & _). exists rs, xs, (take 1 ex_a).
  destruct (serve_meta xH xs (take 1 ex_a)) as [[[a h0] [|[[c n] h] l]]| |] eqn:M; [by vm_compute in M| |by vm_compute in M|by vm_compute in M].
  exists c, n, h, (a, h0, (c, n, h) :: l). split; [done|]. split; [done|]. split; [done|]. split; [done|]. split; [done|]. split; [left|]. vm_compute in M. injection M as <- <- <- <- <- <-. split; [done|]. by vm_compute.
Qed.

Print Assumptions C129_meta. Print Assumptions C129_child_prefix_refuted.
