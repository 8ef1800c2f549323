(** Property C123: what the public reads say about who owns a channel. *)
From Coq Require Import Lia ZifyN ZifyNat ZifyBool.
From Verif Require Import Http.
From Verif Require Import Base Codec CodecProofs Kv Paging PagingProofs PropPaging OnChain OnChainProofs ChannelReads ChannelReadsProofs.
#[local] Open Scope N_scope.

(** A node whose channel tables come from any history of on-chain events carrying proper strings and bytes, and whose other rows
    lie outside the owner-address index ([12, 57]; nothing is stored under [12, 58]). *)
Definition reachable (keccak : bytes -> bytes) (s : node) : Prop :=
  (exists bs, Forall (fun e => chan_typed e = true) (concat bs) /\ n_chain s = orun keccak o_init bs) /\ other_ok (n_other s).
Lemma reach_facts keccak s : reachable keccak s -> other_ok (n_other s) /\ idx_ok (t_addr (n_chain s)) /\ agree s.
Proof.
  intros [(bs & Ht & E) Ho]. split; [done|]. unfold agree. rewrite E. split; [by apply idx_ok_run|]. apply (proj1 (ch_inv_run keccak bs)).
Qed.
(** An account has verified an Ethereum address, as its own shard knows. *)
Definition has_verified (vs : list vadd) (a : bytes) : Prop := exists v, v ∈ vs /\ v_protocol v = 0 /\ v_addr v = a /\ length a = 20%nat.
Definition addresses_ok (vs : list vadd) : Prop := Forall (fun v => bytes_ok (v_addr v) = true) vs.

(** ** Nothing false is listed: whatever the page size and token, an entry is what [get_channel_owner] answers for its key. *)
Theorem C123_by_fid_true : forall s vs fid sz tok l nt, channels_by_fid s vs fid sz tok = Ok (l, nt) ->
  forall c, c ∈ l -> i_fid c = fid /\ get_channel_owner s (i_key c) = Ok (fid, i_addr c, i_expiry c) /\ has_verified vs (i_addr c).
Proof.
  intros s vs fid sz tok l nt H c Hc. unfold channels_by_fid in H. destruct (page_limit sz) as [n|]; [|injection H as <- _; by apply elem_of_nil in Hc].
  destruct (keys_for_owners _ _ _ _) as [[ks k]| |] eqn:E; [|done|done]. injection H as <- _.
  apply infos_elem in Hc as (p & w & Hp & W & A & ->). cbn. split; [done|].
  unfold keys_for_owners in E. destruct (keys_loop _ _ _ _ _) as [[l' k']| |] eqn:El; [|done|done]. injection E as -> _.
  destruct (keys_loop_from _ _ _ _ _ _ _ El p Hp) as [Hn|Hw]; [by apply elem_of_nil in Hn|].
  unfold winning in Hw. apply elem_of_list_filter in Hw as [Hr Hw]. unfold get_channel_owner. rewrite W, A, Hr. split; [done|].
  unfold owner_addresses in Hw. rewrite merge_sort_Permutation, elem_of_remove_dups, elem_of_list_omap in Hw. destruct Hw as (v & Hv & Ev).
  unfold eth_address in Ev. destruct (N.eqb_spec (v_protocol v) 0) as [P|]; [|done]. destruct (Nat.eqb_spec (length (v_addr v)) 20) as [L|]; [|done].
  cbn in Ev. injection Ev as <-. by exists v.
Qed.
Theorem C123_by_address_true : forall s a sz tok rev l nt, channels_by_address s a sz tok rev = Ok (l, nt) ->
  forall c, c ∈ l -> i_addr c = a /\ get_channel_owner s (i_key c) = Ok (i_fid c, a, i_expiry c).
Proof.
  intros s a sz tok rev l nt H c Hc. unfold channels_by_address in H. destruct (page_limit sz) as [n|]; [|injection H as <- _; by apply elem_of_nil in Hc].
  destruct (keys_by_owner _ _ _) as [[ks k]| |]; [|done|done]. injection H as <- _. apply elem_of_list_fmap in Hc as (d & -> & Hd).
  apply infos_elem in Hd as (p & w & Hp & W & A & ->). apply elem_of_list_fmap in Hp as (ck & -> & _). cbn in *. split; [done|].
  unfold get_channel_owner. by rewrite W, A.
Qed.

Lemma page_limit_pos sz n : page_limit sz = Some n -> 1 <= n.
Proof. unfold page_limit, PAGE_SIZE_MAX. destruct sz as [[|p]|]; intros H; [discriminate|injection H as <-; lia|injection H as <-; lia]. Qed.
(** ** Pages are bounded: never more than asked for, never more than 1000. *)
Theorem C123_page_bound : forall s vs fid a sz tok rev l nt,
  channels_by_fid s vs fid sz tok = Ok (l, nt) \/ channels_by_address s a sz tok rev = Ok (l, nt) ->
  N.of_nat (length l) <= 1000 /\ forall n, sz = Some n -> N.of_nat (length l) <= n.
Proof.
  intros s vs fid a sz tok rev l nt H.
  assert (Hg : match page_limit sz with None => l = [] | Some n => N.of_nat (length l) <= n end).
  { destruct H as [H|H]; [unfold channels_by_fid in H|unfold channels_by_address in H];
      (destruct (page_limit sz) as [n|] eqn:E; [|by injection H as <- _]);
      assert (Hn : 1 <= n) by (by apply (page_limit_pos sz)).
    - unfold keys_for_owners in H. destruct (keys_loop _ _ _ _ _) as [[l' k']| |] eqn:El; [|done|done]. injection H as <- _.
      pose proof (keys_loop_bound (all_rows s) tok n (winning s fid (owner_addresses vs)) ([], None) l' k' Hn ltac:(cbn; lia) El) as Hb.
      assert (Hl : (length (infos s fid l') <= length l')%nat).
      { clear. unfold infos. induction l' as [|p l IH]; [done|]. cbn [omap list_omap]. destruct (info_of s fid p); cbn; lia. }
      lia.
    - destruct (keys_by_owner _ _ _) as [[ks k']| |] eqn:El; [|done|done]. injection H as <- _. rewrite map_length.
      pose proof (keys_bound _ _ _ _ _ _ _ Hn El) as Hb.
      assert (Hl : (length (infos s 0 (map (pair a) ks)) <= length ks)%nat).
      { clear. unfold infos. induction ks as [|p l IH]; [done|]. cbn [map omap list_omap]. destruct (info_of s 0 (a, p)); cbn; lia. }
      lia. }
  destruct sz as [[|p]|]; unfold page_limit in Hg; [subst l; split; [cbn; lia|intros n _; cbn; lia]| |]; unfold PAGE_SIZE_MAX in Hg.
  - split; [lia|]. intros n E. injection E as <-. lia.
  - split; [lia|done].
Qed.

(** ** Nothing is left out *)
Lemma addresses_sorted vs : StronglySorted (fun a b => blt a b = true) (owner_addresses vs).
Proof.
  assert (Hs : StronglySorted addr_le (owner_addresses vs)).
  { apply StronglySorted_merge_sort; [intros a b c; apply ble_trans|].
    intros a b. unfold addr_le. destruct (blt_total a b) as [H|[H|H]]; [left|left|right]; apply ble_eq_or_lt; auto. }
  assert (Hn : NoDup (owner_addresses vs)). { unfold owner_addresses. rewrite merge_sort_Permutation. apply NoDup_remove_dups. }
  revert Hs Hn. generalize (owner_addresses vs). induction 1 as [|a l Hs IH Hf]; intros Hn; [constructor|].
  apply NoDup_cons in Hn as [Hni Hn]. constructor; [by apply IH|]. rewrite Forall_forall in Hf |- *. intros b Hb.
  destruct (proj1 (ble_eq_or_lt a b) (Hf b Hb)) as [->|]; [done|done].
Qed.
Lemma winning_elem s fid vs a : a ∈ winning s fid (owner_addresses vs) <-> has_verified vs a /\ n_resolve s a = Some fid.
Proof.
  unfold winning. rewrite elem_of_list_filter. unfold owner_addresses. rewrite merge_sort_Permutation, elem_of_remove_dups, elem_of_list_omap.
  unfold has_verified, eth_address. split.
  - intros [Hr (v & Hv & Ev)]. destruct (N.eqb_spec (v_protocol v) 0) as [P|]; [|done]. destruct (Nat.eqb_spec (length (v_addr v)) 20) as [L|]; [|done].
    cbn in Ev. injection Ev as <-. split; [by exists v|done].
  - intros [(v & Hv & P & <- & L) Hr]. split; [done|]. exists v. split; [done|]. by rewrite P, L.
Qed.
Lemma sorted_filter (P : bytes -> Prop) `{!forall x, Decision (P x)} (R : bytes -> bytes -> Prop) l : StronglySorted R l -> StronglySorted R (filter P l).
Proof.
  induction 1 as [|a l Hs IH Hf]; [constructor|]. rewrite filter_cons. destruct (decide (P a)); [|done]. constructor; [done|].
  rewrite Forall_forall in Hf |- *. intros b Hb. apply elem_of_list_filter in Hb as [_ Hb]. by apply Hf.
Qed.
Lemma sorted_concat (es : bytes -> list bytes) os : StronglySorted (fun a b => blt a b = true) os -> Forall (fun a => length a = 20%nat) os ->
  (forall a, a ∈ os -> StronglySorted (dir false) (es a)) ->
  StronglySorted (fun p q : bytes * bytes => blt (p.1 ++ p.2) (q.1 ++ q.2) = true) (concat (map (fun a => map (pair a) (es a)) os)).
Proof.
  induction 1 as [|a os Hs IH Hf]; intros Hl He; [constructor|]. apply Forall_cons in Hl as [La Hl]. cbn [map concat].
  assert (Ha : StronglySorted (fun p q : bytes * bytes => blt (p.1 ++ p.2) (q.1 ++ q.2) = true) (map (pair a) (es a))).
  { assert (H : StronglySorted (dir false) (es a)) by (apply He; left). clear -H. induction H as [|x l Hs IH Hf]; [constructor|]. cbn [map]. constructor; [done|].
    rewrite Forall_forall in Hf. apply Forall_forall. intros q Hq. apply elem_of_list_fmap in Hq as (y & -> & Hy). cbn. apply blt_lex. rewrite lex_app_l. apply blt_lex. by apply Hf. }
  assert (Hr := IH Hl (fun b Hb => He b (elem_of_list_further _ _ _ Hb))).
  assert (Hx : forall p q, p ∈ map (pair a) (es a) -> q ∈ concat (map (fun a => map (pair a) (es a)) os) -> blt (p.1 ++ p.2) (q.1 ++ q.2) = true).
  { intros p q Hp Hq. apply elem_of_list_fmap in Hp as (x & -> & _). apply elem_of_list_In, in_concat in Hq as (z & Hz & Hq). apply in_map_iff in Hz as (b & <- & Hb).
    apply in_map_iff in Hq as (y & <- & _). apply elem_of_list_In in Hb. cbn. rewrite Forall_forall in Hf, Hl. apply blt_lex. rewrite lex_app by (rewrite La; symmetry; by apply Hl).
    specialize (Hf b Hb). apply blt_lex in Hf. by rewrite Hf. }
  revert Ha Hx. generalize (map (pair a) (es a)). intros l. induction 1 as [|p l Hs' IH' Hf']; intros Hx; [exact Hr|]. cbn [app]. constructor.
  - apply IH'. intros p' q Hp Hq. apply Hx; [by right|done].
  - apply Forall_app. split; [done|]. apply Forall_forall. intros q Hq. apply Hx; [left|done].
Qed.

(** Following the tokens lists exactly the channels whose recorded owner the account has verified and is the account for, each once,
    ordered by address and key, in full pages. *)
Theorem C123_by_fid_complete : forall keccak s vs fid sz n, reachable keccak s -> addresses_ok vs -> page_limit sz = Some n ->
  exists bound, forall fuel, (bound < fuel)%nat -> exists ps,
    follow (fun t => forget (channels_by_fid s vs fid sz t)) fuel None = Some (Ok ps) /\ page_shape n ps /\
    (forall c, c ∈ concat ps <-> i_fid c = fid /\ has_verified vs (i_addr c) /\ n_resolve s (i_addr c) = Some fid /\
       exists w, t_own (n_chain s) !! i_key c = Some w /\ w_addr w = i_addr c /\ w_expiry w = i_expiry c) /\
    StronglySorted (fun c d => blt (i_addr c ++ i_key c) (i_addr d ++ i_key d) = true) (concat ps).
Proof.
  intros keccak s vs fid sz n Hr Hv Hn. destruct (reach_facts keccak s Hr) as (Ho & Hi & Ha).
  set (os := winning s fid (owner_addresses vs)).
  assert (Hlen : Forall (fun a => length a = 20%nat) os). { apply Forall_forall. intros a H. apply winning_elem in H as [(v & _ & _ & _ & L) _]. done. }
  set (L := fun a => scan (all_rows s) (owner_prefix a) (increment_vec_u8 (owner_prefix a)) (POpts None None false)).
  assert (Hn1 : 1 <= n) by (by apply (page_limit_pos sz)).
  exists (length (concat (map L os))). intros fuel Hf.
  destruct (C12_owners mkk OWNER_ROOT (idx_rows s) os n L) with (fuel := fuel) as (ps & H1 & H2 & H3); [exact Hn1| |done| | | | | |exact Hf|].
  - apply Forall_forall. intros a H. split; [rewrite Forall_forall in Hlen; by apply Hlen|].
    apply winning_elem in H as [(v & Hin & _ & <- & _) _]. unfold addresses_ok in Hv. rewrite Forall_forall in Hv. by apply Hv.
  - left. done.
  - apply sorted_filter, addresses_sorted.
  - intros k v Hk. apply map_filter_lookup_Some in Hk as [Hk Hp]. destruct (all_rows_root s Ho Hi k v Hk) as (_ & Hb & Hy). split; [done|].
    destruct (Hy Hp) as (a & ck & Hin & ->). destruct (Hi a ck Hin) as (La & _). unfold owner_key, owner_prefix, OWNER_ROOT. rewrite !app_length. cbn. lia.
  - intros a H. unfold L. rewrite Forall_forall in Hlen. rewrite (idx_rows_scan s a None None false Ho Hi (Hlen a H) I). apply scan_listing.
  - intros a H. rewrite Forall_forall in Hlen. apply (scan_decodes s Ho Hi a None None false (Hlen a H) I).
  - assert (Hidx : forall p, p ∈ concat ps <-> p.1 ∈ os /\ p ∈ t_addr (n_chain s)).
    { intros [a ck]. rewrite H2. rewrite elem_of_list_In, in_concat. setoid_rewrite in_map_iff. cbn [fst]. split.
      - intros (z & (b & <- & Hb) & Hz). apply in_map_iff in Hz as (x & Hx & Hin). injection Hx as -> ->. apply elem_of_list_In in Hb. split; [done|].
        apply elem_of_list_In in Hin. rewrite Forall_forall in Hlen. by apply (rng_entries s Ho Hi a None false ck (Hlen a Hb)).
      - intros [Hb Hin]. eexists. split; [exists a; split; [reflexivity|by apply elem_of_list_In]|]. apply in_map_iff. exists ck. split; [done|]. apply elem_of_list_In.
        rewrite Forall_forall in Hlen. by apply (rng_entries s Ho Hi a None false ck (Hlen a Hb)). }
    exists (map (infos s fid) ps). split; [|split; [|split]].
    + apply (follow_map (fun _ => True) (infos s fid) (fun t => list_owners mkk (fun a => OWNER_ROOT ++ a) (idx_rows s) os n t)); [|done|exact H1].
      intros t l k _ E. split; [|by right]. unfold channels_by_fid. rewrite Hn. fold os. rewrite keys_for_owners_eq by done.
      change owner_prefix with (fun a => OWNER_ROOT ++ a). by rewrite E.
    + destruct H3 as (init & last & -> & P1 & P2). exists (map (infos s fid) init), (infos s fid last). rewrite map_app. split; [done|].
      assert (Hall : forall l, l ∈ init ++ [last] -> length (infos s fid l) = length l).
      { intros l Hl. apply infos_length; [done|]. apply Forall_forall. intros p Hp. apply Hidx. apply elem_of_list_In, in_concat. exists l. by rewrite <- !elem_of_list_In. }
      split; [|rewrite Hall by (apply elem_of_app; right; left); done]. apply Forall_map, Forall_forall. intros l Hl. rewrite Hall by (apply elem_of_app; by left).
      rewrite Forall_forall in P1. by apply P1.
    + intros c. rewrite infos_concat, infos_elem. split.
      * intros (p & w & Hp & W & A & ->). apply Hidx in Hp as [Hp _]. apply winning_elem in Hp as [Hp1 Hp2]. cbn. rewrite A. split; [done|]. split; [done|]. split; [done|]. by exists w.
      * intros (F & V & R & w & W & A & X). exists (i_addr c, i_key c), w. split; [|split; [done|split; [done|]]].
        -- apply Hidx. cbn. split; [by apply winning_elem|]. apply Ha. by exists w.
        -- destruct c as [k f a x]. cbn in *. by subst.
    + rewrite infos_concat. apply (infos_sorted s fid (fun x y => blt x y = true) (fun p => p.1 ++ p.2)). rewrite H2.
      apply sorted_concat; [apply sorted_filter, addresses_sorted|done|]. intros a H. rewrite Forall_forall in Hlen. by apply (rng_sorted s Ho Hi a None false (Hlen a H)).
Qed.

Lemma info_fid s f p : info_of s f p = match info_of s 0 p with Some c => Some (Info (i_key c) f (i_addr c) (i_expiry c)) | None => None end.
Proof. unfold info_of. destruct (t_own (n_chain s) !! p.2) as [w|]; [|done]. by destruct (decide (w_addr w = p.1)). Qed.
(** The same for one address, in either direction; every entry carries the account the address resolves to (0: none). *)
Theorem C123_by_address_complete : forall keccak s a sz n rev, reachable keccak s -> length a = 20%nat -> page_limit sz = Some n ->
  exists bound, forall fuel, (bound < fuel)%nat -> exists ps,
    follow (fun t => forget (channels_by_address s a sz t rev)) fuel None = Some (Ok ps) /\ page_shape n ps /\
    (forall c, c ∈ concat ps <-> i_addr c = a /\ i_fid c = default 0 (n_resolve s a) /\
       exists w, t_own (n_chain s) !! i_key c = Some w /\ w_addr w = a /\ w_expiry w = i_expiry c) /\
    StronglySorted (fun c d => if rev then blt (i_key d) (i_key c) = true else blt (i_key c) (i_key d) = true) (concat ps).
Proof.
  intros keccak s a sz n rev Hr La Hn. destruct (reach_facts keccak s Hr) as (Ho & Hi & Ha).
  set (st := fun ck => omap (fun c => Some (Info (i_key c) (default 0 (n_resolve s a)) (i_addr c) (i_expiry c))) (infos s 0 (map (pair a) ck))).
  assert (Hst : forall ks, st ks = infos s (default 0 (n_resolve s a)) (map (pair a) ks)).
  { intros ks. unfold st, infos. induction ks as [|ck ks IH]; [done|]. cbn [map]. rewrite !omap_cons', <- IH, (info_fid s (default 0 (n_resolve s a))).
    destruct (info_of s 0 (a, ck)) as [c|]; [|done]. by rewrite omap_cons'. }
  assert (Hmap : forall l, map (fun c => Info (i_key c) (default 0 (n_resolve s a)) (i_addr c) (i_expiry c)) l = omap (fun c => Some (Info (i_key c) (default 0 (n_resolve s a)) (i_addr c) (i_expiry c))) l).
  { induction l as [|c l IH]; [done|]. cbn. by rewrite IH. }
  assert (Hn1 : 1 <= n) by (by apply (page_limit_pos sz)).
  set (L := scan (all_rows s) (owner_prefix a) (increment_vec_u8 (owner_prefix a)) (POpts (Some n) None rev)).
  exists (length L). intros fuel Hf.
  destruct (C12_limited (mkk a) (all_rows s) (owner_prefix a) (increment_vec_u8 (owner_prefix a)) (Some n) rev L) with (fuel := fuel) as (ps & H1 & H2 & H3);
    [done|apply scan_listing|apply (scan_decodes s Ho Hi a (Some n) None rev La I)|exact Hf|].
  exists (map st ps).
  assert (Hc : concat (map st ps) = infos s (default 0 (n_resolve s a)) (map (pair a) (concat ps))).
  { clear -Hst. induction ps as [|l ps IH]; [done|]. cbn [map concat]. rewrite IH, Hst, map_app. unfold infos. by rewrite omap_app. }
  assert (Hel : forall ck, ck ∈ concat ps <-> (a, ck) ∈ t_addr (n_chain s)).
  { intros ck. rewrite H2. apply (rng_entries s Ho Hi a (Some n) rev ck La). }
  split; [|split; [|split]].
  - apply (follow_map (inside a) st (fun t => list_limited (mkk a) (fun _ => true) (all_rows s) (owner_prefix a) (increment_vec_u8 (owner_prefix a)) (POpts (Some n) t rev))); [|done|exact H1].
    intros t l k Ht E. pose proof (scan_decodes s Ho Hi a (Some n) t rev La Ht) as Hd. split.
    + unfold channels_by_address. rewrite Hn. assert (token_of t = t) as ->. { destruct t as [[|]|]; [|done|done]. done. }
      rewrite keys_by_owner_eq by done. unfold list_owner. change (fun (k : bytes) (v : unit) => mkk a k v) with (mkk a). rewrite E. cbn [lift forget]. by rewrite Hmap.
    + destruct k as [k|]; [right|by left]. destruct (limited_token a (all_rows s) (owner_prefix a) _ _ l k ltac:(done) Hd E) as [v Hk].
      destruct (scan_inside s Ho Hi a (Some n) t rev k v La Ht Hk) as (ck & _ & ->). cbn. apply is_prefix_spec. by exists ck.
  - destruct H3 as (init & last & -> & P1 & P2). exists (map st init), (st last). rewrite map_app. split; [done|].
    assert (Hpl : page_len (Some n) = n) by (unfold page_len; cbn; lia). rewrite Hpl in P1, P2.
    assert (Hall : forall l, l ∈ init ++ [last] -> length (st l) = length l).
    { intros l Hl. rewrite Hst, infos_length; [by rewrite map_length|done|]. apply Forall_map, Forall_forall. intros ck Hp. apply Hel. apply elem_of_list_In, in_concat. exists l. by rewrite <- !elem_of_list_In. }
    split; [|rewrite Hall by (apply elem_of_app; right; left); done]. apply Forall_map, Forall_forall. intros l Hl. rewrite Hall by (apply elem_of_app; by left).
    rewrite Forall_forall in P1. by apply P1.
  - intros c. rewrite Hc, infos_elem. split.
    + intros (p & w & Hp & W & A & ->). apply elem_of_list_fmap in Hp as (ck & -> & Hp). cbn in *. rewrite A. split; [done|]. split; [done|]. by exists w.
    + intros (A & F & w & W & A' & X). exists (a, i_key c), w. split; [|split; [done|split; [done|]]].
      * apply elem_of_list_fmap. exists (i_key c). split; [done|]. apply Hel, Ha. by exists w.
      * destruct c as [k f b x]. cbn in *. by subst.
  - rewrite Hc. assert (Hs : StronglySorted (dir rev) (concat ps)) by (rewrite H2; exact (rng_sorted s Ho Hi a (Some n) rev La)).
    assert (Hs' : StronglySorted (fun p q : bytes * bytes => dir rev p.2 q.2) (map (pair a) (concat ps))).
    { revert Hs. generalize (concat ps). clear. induction 1 as [|x l Hs IH Hf]; [constructor|]. cbn [map]. constructor; [done|].
      rewrite Forall_forall in Hf. apply Forall_forall. intros q Hq. apply elem_of_list_fmap in Hq as (y & -> & Hy). by apply Hf. }
    exact (infos_sorted s (default 0 (n_resolve s a)) (dir rev) snd _ Hs').
Qed.

(** ** Tokens from elsewhere *)

(** By account, any bytes are a harmless token: the read always answers. *)
Theorem C123_by_fid_any_token : forall keccak s vs fid sz tok, reachable keccak s ->
  exists l nt, channels_by_fid s vs fid sz tok = Ok (l, nt).
Proof.
  intros keccak s vs fid sz tok Hr. destruct (reach_facts keccak s Hr) as (Ho & Hi & Ha). unfold channels_by_fid.
  destruct (page_limit sz) as [n|]; [|by do 2 eexists]. unfold keys_for_owners.
  assert (Hlen : Forall (fun a => length a = 20%nat) (winning s fid (owner_addresses vs))).
  { apply Forall_forall. intros a H. apply winning_elem in H as [(v & _ & _ & _ & L) _]. done. }
  assert (Hg : forall os acc, Forall (fun a => length a = 20%nat) os -> exists r, keys_loop (all_rows s) tok n os acc = Ok r).
  { induction os as [|a os IH]; intros acc Hl; [by eexists|]. apply Forall_cons in Hl as [La Hl]. cbn [keys_loop]. destruct (n <=? _); [by eexists|].
    destruct (owner_token owner_prefix tok a) as [t|] eqn:Et; [|by apply IH].
    assert (Hin : inside a t).
    { unfold owner_token in Et. destruct tok as [u|]; [|by injection Et as <-]. destruct (is_prefix _ u) eqn:Ep; [by injection Et as <-|].
      destruct (blt u _); [by injection Et as <-|done]. }
    pose proof (scan_decodes s Ho Hi a (Some (n - N.of_nat (length acc.1))) t false La Hin) as Hd. rewrite keys_by_owner_eq by done.
    unfold list_owner. change (fun (k : bytes) (v : unit) => mkk a k v) with (mkk a). rewrite limited_filtered by done.
    destruct (page_split (mkk a) (fun _ => true) (all_rows s) (owner_prefix a) _ _ ltac:(done) Hd) as [[_ ->]|(pre & k & v & suf & _ & _ & ->)]; cbn [lift]; by apply IH. }
  destruct (Hg _ ([], None) Hlen) as [[l k] ->]. by do 2 eexists.
Qed.

(** By address the token is used as it is. In a database that holds any row with a short key, a token below it makes the read
    panic; a token below another account's messages makes it fail. *)
Definition ad (i : N) : bytes := repeat i 20.
Definition plain (other : kv unit) : node := Node o_init other (fun _ => None).
Theorem C123_by_address_token_refuted :
  other_ok {[ [5] := tt ]} /\ other_ok {[ 5 :: repeat 200 30 := tt ]} /\
  channels_by_address (plain {[ [5] := tt ]}) (ad 1) None (Some [1]) false = Panic /\
  channels_by_address (plain {[ 5 :: repeat 200 30 := tt ]}) (ad 1) None (Some [1]) false = Err EStore /\
  channels_by_address (plain {[ [5] := tt ]}) (ad 1) None None false = Ok ([], None).
Proof.
  split; [intros k v H; apply lookup_singleton_Some in H as [<- _]; done|]. split; [intros k v H; apply lookup_singleton_Some in H as [<- _]; done|].
  repeat split; vm_compute; reflexivity.
Qed.
(** With a token of the address itself, or none, it always answers. *)
Theorem C123_by_address_answers : forall keccak s a sz tok rev, reachable keccak s -> length a = 20%nat ->
  (forall u, tok = Some u -> u = [] \/ is_prefix (owner_prefix a) u = true) ->
  exists l nt, channels_by_address s a sz tok rev = Ok (l, nt).
Proof.
  intros keccak s a sz tok rev Hr La Ht. destruct (reach_facts keccak s Hr) as (Ho & Hi & Ha). unfold channels_by_address.
  destruct (page_limit sz) as [n|]; [|by do 2 eexists].
  assert (Hin : inside a (token_of tok)). { destruct tok as [[|x u]|]; cbn; [done| |done]. destruct (Ht _ eq_refl) as [?|H]; [done|exact H]. }
  pose proof (scan_decodes s Ho Hi a (Some n) (token_of tok) rev La Hin) as Hd. rewrite keys_by_owner_eq by done.
  unfold list_owner. change (fun (k : bytes) (v : unit) => mkk a k v) with (mkk a). rewrite limited_filtered by done.
  destruct (page_split (mkk a) (fun _ => true) (all_rows s) (owner_prefix a) _ _ ltac:(done) Hd) as [[_ ->]|(pre & k & v & suf & _ & _ & ->)]; cbn [lift]; by do 2 eexists.
Qed.
(** An address of another length is refused. *)
Theorem C123_bad_address : forall s a sz tok rev n, page_limit sz = Some n -> length a <> 20%nat ->
  channels_by_address s a sz tok rev = Err EInvalid.
Proof. intros s a sz tok rev n Hn La. unfold channels_by_address, keys_by_owner. rewrite Hn. by rewrite (proj2 (Nat.eqb_neq _ _) La). Qed.

(** ** What the answers do not say *)
Definition hash0 (ck : bytes) : bytes := ck ++ repeat 0 31.
Definition reg (k i x n : N) : oev := OEv 0 n 0 0 0 (BChan CRegister (hash0 [k]) [k] (ad i) x).
Definition world : node := Node (orun hash0 o_init [[reg 97 1 50 10; reg 98 2 60 11]; [reg 99 1 70 12]]) {[ [5] := tt; [12; 56; 1] := tt ]}
  (fun a => if decide (a = ad 1) then Some 7 else if decide (a = ad 2) then Some 8 else None).
Definition ver (i : N) : vadd := VAdd 0 (ad i).
Lemma world_reachable : reachable hash0 world.
Proof.
  split; [eexists; split; [|reflexivity]; repeat constructor|]. intros k v H. cbn [n_other world] in H.
  apply lookup_insert_Some in H as [[<- _]|[_ H]]; [done|]. apply lookup_singleton_Some in H as [<- _]. done.
Qed.
Example C123_ex :
  follow (fun t => forget (channels_by_fid world [ver 2; ver 1; VAdd 1 (ad 3); ver 1] 7 (Some 1) t)) 10 None =
    Some (Ok [[Info [97] 7 (ad 1) 50]; [Info [99] 7 (ad 1) 70]; []]) /\
  channels_by_fid world [ver 2; ver 1] 8 None None = Ok ([Info [98] 8 (ad 2) 60], None) /\
  channels_by_address world (ad 1) None None true = Ok ([Info [99] 7 (ad 1) 70; Info [97] 7 (ad 1) 50], None) /\
  get_channel_owner world [98] = Ok (8, ad 2, 60) /\ get_channel_owner world [100] = Err ENotFound /\
  require_registered world (hash0 [97]) = Ok (hash0 [97]) /\ require_registered world (hash0 [100]) = Err ENotFound.
Proof. repeat split; vm_compute; reflexivity. Qed.
(** A page size of 0 reads as a finished list. *)
Theorem C123_size_zero_refuted : forall s vs fid a tok rev,
  channels_by_fid s vs fid (Some 0) tok = Ok ([], None) /\ channels_by_address s a (Some 0) tok rev = Ok ([], None).
Proof. done. Qed.
(** A verification that the account's own shard has pruned: [get_channel_owner] answers account 7, its list is empty. *)
Theorem C123_pruned_refuted : get_channel_owner world [97] = Ok (7, ad 1, 50) /\ channels_by_fid world [ver 2] 7 None None = Ok ([], None).
Proof. split; vm_compute; reflexivity. Qed.

(** ** Registration
    The gate of the member, pin, moderation and metadata reads opens exactly for the hashes of registered channels. *)
Theorem C123_registered : forall keccak s id, reachable keccak s ->
  (require_registered s id = Ok id <-> length id = 32%nat /\ exists ck w, t_own (n_chain s) !! ck = Some w /\ keccak ck = id) /\
  (require_registered s id = Ok id \/ require_registered s id = Err EInvalid \/ require_registered s id = Err ENotFound).
Proof.
  intros keccak s id [(bs & _ & E) _]. destruct (ch_inv_run keccak bs) as (_ & Hl & Hc). rewrite <- E in Hl, Hc. unfold require_registered.
  destruct (Nat.eqb_spec (length id) 32) as [L|L]; cbn [negb]; [|split; [split; [done|intros [? _]; done]|auto]].
  destruct (t_label (n_chain s) !! id) as [ck|] eqn:El.
  - destruct (Hl id ck El) as [Hk [w Hw]]. rewrite Hw. split; [|auto]. split; [intros _; split; [done|]; by exists ck, w|done].
  - split; [|auto]. split; [done|]. intros [_ (ck & w & Hw & <-)]. destruct (Hc ck w Hw) as [_ [ck' Hx]]. congruence.
Qed.

(** ** Hints
    After a verification of [a], the hints name the first [max] channels recorded for [a], in key order, whatever the page
    boundaries; none twice and none of another owner. *)
Lemma hint_page_spec max ks hints : N.of_nat (length hints) <= max ->
  hint_page max ks [] hints = (firstn (N.to_nat max) (hints ++ ks), [], (max <? N.of_nat (length (hints ++ ks)))%N).
Proof.
  revert hints. induction ks as [|k ks IH]; intros hints Hm; cbn [hint_page].
  - rewrite app_nil_r. rewrite firstn_all2 by lia. f_equal. lia.
  - destruct (N.leb_spec max (N.of_nat (length hints))) as [H|H].
    + rewrite firstn_app. replace (N.to_nat max - length hints)%nat with 0%nat by lia. cbn [firstn]. rewrite app_nil_r, firstn_all2 by lia.
      f_equal. rewrite app_length. cbn [length]. lia.
    + rewrite IH by (rewrite app_length; cbn [length]; lia). by rewrite <- app_assoc.
Qed.
Theorem C123_hints : forall keccak s a max, reachable keccak s -> length a = 20%nat ->
  exists keys, (forall ck, ck ∈ keys <-> exists w, t_own (n_chain s) !! ck = Some w /\ w_addr w = a) /\
    StronglySorted (fun x y => blt x y = true) keys /\
    exists bound, forall fuel, (bound < fuel)%nat -> hint_scan fuel (all_rows s) a max None [] [] = Some (firstn (N.to_nat max) keys).
Proof.
  intros keccak s a max Hr La. destruct (reach_facts keccak s Hr) as (Ho & Hi & Ha).
  set (L := scan (all_rows s) (owner_prefix a) (increment_vec_u8 (owner_prefix a)) (POpts None None false)).
  exists (entries (mkk a) (fun _ => true) L). split; [|split].
  - intros ck. rewrite <- (Ha a ck). exact (rng_entries s Ho Hi a None false ck La).
  - exact (rng_sorted s Ho Hi a None false La).
  - exists (length L). intros fuel Hf.
    destruct (C12_limited (mkk a) (all_rows s) (owner_prefix a) (increment_vec_u8 (owner_prefix a)) None false L) with (fuel := fuel) as (ps & H1 & H2 & _);
      [done|apply scan_listing|apply (scan_decodes s Ho Hi a None None false La I)|exact Hf|].
    rewrite <- H2. clear H2 Hf.
    assert (Hg : forall t hints, inside a t -> N.of_nat (length hints) <= max -> 
      follow (fun t => list_limited (mkk a) (fun _ => true) (all_rows s) (owner_prefix a) (increment_vec_u8 (owner_prefix a)) (POpts None t false)) fuel t = Some (Ok ps) ->
      hint_scan fuel (all_rows s) a max t [] hints = Some (firstn (N.to_nat max) (hints ++ concat ps))).
    { clear H1 L. revert ps. induction fuel as [|n IH]; intros ps t hints Ht Hm E; [done|]. cbn [follow hint_scan] in *.
      pose proof (scan_decodes s Ho Hi a None t false La Ht) as Hd. rewrite keys_by_owner_eq by done. unfold list_owner. change (fun (k : bytes) (v : unit) => mkk a k v) with (mkk a).
      destruct (list_limited _ _ _ _ _ _) as [[l k]| |] eqn:El; [|done|done]. cbn [lift]. rewrite hint_page_spec by done.
      destruct (N.ltb_spec max (N.of_nat (length (hints ++ l)))) as [Hlt|Hlt].
      - assert (Hp : exists r, concat ps = l ++ r).
        { destruct k as [k|]; [destruct (follow _ n (Some k)) as [[ls| |]|]; [|done|done|done]; injection E as <-; by exists (concat ls)|injection E as <-; by exists []]. }
        destruct Hp as [r ->]. rewrite app_assoc. symmetry. f_equal. apply take_app_le. lia.
      - rewrite firstn_all2 by lia. destruct k as [k|].
        + destruct (follow _ n (Some k)) as [[ls| |]|] eqn:Ef; [|done|done|done]. injection E as <-. cbn [concat]. rewrite app_assoc. apply IH; [|lia|done].
          destruct (limited_token a (all_rows s) (owner_prefix a) _ _ l k ltac:(done) Hd El) as [v Hk].
          destruct (scan_inside s Ho Hi a None t false k v La Ht Hk) as (ck & _ & ->). cbn. apply is_prefix_spec. by exists ck.
        + injection E as <-. cbn [concat]. rewrite app_nil_r. by rewrite firstn_all2 by lia. }
    exact (Hg None [] I ltac:(cbn; lia) H1).
Qed.
(** An event that could not be written is skipped and not counted; whatever fails, at most [max] hints and only of the address. *)
Theorem C123_hints_bounded : forall keccak s a max fuel saves hs, reachable keccak s -> length a = 20%nat ->
  hint_scan fuel (all_rows s) a max None saves [] = Some hs ->
  N.of_nat (length hs) <= max /\ forall ck, ck ∈ hs -> exists w, t_own (n_chain s) !! ck = Some w /\ w_addr w = a.
Proof.
  intros keccak s a max fuel saves hs Hr La. destruct (reach_facts keccak s Hr) as (Ho & Hi & Ha).
  assert (Hp : forall ks sv hints h sv' b, hint_page max ks sv hints = (h, sv', b) -> N.of_nat (length hints) <= max ->
    N.of_nat (length h) <= max /\ forall ck, ck ∈ h -> ck ∈ hints \/ ck ∈ ks).
  { induction ks as [|k ks IH]; intros sv hints h sv' b E Hm; cbn [hint_page] in E; [injection E as <- _ _; split; [done|auto]|].
    destruct (N.leb_spec max (N.of_nat (length hints))) as [Hc|Hc]; [injection E as <- _ _; split; [done|auto]|].
    assert (Hadd : forall sv, hint_page max ks sv (hints ++ [k]) = (h, sv', b) -> N.of_nat (length h) <= max /\ forall ck, ck ∈ h -> ck ∈ hints \/ ck ∈ k :: ks).
    { intros sv0 E0. destruct (IH _ _ _ _ _ E0) as [H1 H2]; [rewrite app_length; cbn [length]; lia|]. split; [done|]. intros ck Hk. destruct (H2 ck Hk) as [H|H]; [|right; by right].
      apply elem_of_app in H as [H|H]; [by left|]. apply elem_of_list_singleton in H as ->. right. left. }
    destruct sv as [|[] sv]; [by apply (Hadd [])|by apply (Hadd sv)|]. destruct (IH _ _ _ _ _ E Hm) as [H1 H2]. split; [done|]. intros ck Hk. destruct (H2 ck Hk); [by left|right; by right]. }
  assert (Hg : forall fuel t sv hints hs, inside a t -> N.of_nat (length hints) <= max -> (forall ck, ck ∈ hints -> (a, ck) ∈ t_addr (n_chain s)) ->
    hint_scan fuel (all_rows s) a max t sv hints = Some hs -> N.of_nat (length hs) <= max /\ forall ck, ck ∈ hs -> (a, ck) ∈ t_addr (n_chain s)).
  { clear fuel saves hs. induction fuel as [|n IH]; intros t sv hints hs Ht Hm Hin E; [done|]. cbn [hint_scan] in E.
    pose proof (scan_decodes s Ho Hi a None t false La Ht) as Hd. rewrite keys_by_owner_eq in E by done. unfold list_owner in E. change (fun (k : bytes) (v : unit) => mkk a k v) with (mkk a) in E.
    destruct (list_limited _ _ _ _ _ _) as [[l k]| |] eqn:El; cbn [lift] in E; [|injection E as <-; done|injection E as <-; done].
    assert (Hl : forall ck, ck ∈ l -> (a, ck) ∈ t_addr (n_chain s)).
    { intros ck Hck. rewrite limited_filtered in El by done.
      assert (Hsub : exists pre suf, scan (all_rows s) (owner_prefix a) (increment_vec_u8 (owner_prefix a)) (POpts None t false) = pre ++ suf /\ l = omap (entry (mkk a) (fun _ => true)) pre).
      { destruct (page_split (mkk a) (fun _ => true) (all_rows s) (owner_prefix a) _ _ ltac:(done) Hd) as [[_ E']|(pre & k' & v & suf & E1 & _ & E')]; rewrite E' in El; injection El as <- _.
        - eexists _, []. split; [by rewrite app_nil_r|done].
        - exists (pre ++ [(k', v)]), suf. split; [by rewrite <- app_assoc|done]. }
      destruct Hsub as (pre & suf & Es & ->). apply elem_of_list_omap in Hck as ([k0 v0] & H0 & E0). unfold entry in E0. cbn [fst snd] in E0.
      destruct (scan_inside s Ho Hi a None t false k0 v0 La Ht) as (ck0 & Hc & ->); [rewrite Es; apply elem_of_app; by left|].
      rewrite (mkk_row s Hi a ck0 v0 a Hc) in E0. by injection E0 as <-. }
    destruct (hint_page max l sv hints) as [[h sv'] b] eqn:Ep. destruct (Hp _ _ _ _ _ _ Ep Hm) as [H1 H2].
    assert (H3 : forall ck, ck ∈ h -> (a, ck) ∈ t_addr (n_chain s)) by (intros ck Hk; destruct (H2 ck Hk); auto).
    destruct b; [injection E as <-; done|]. destruct k as [k|]; [|injection E as <-; done]. apply (IH (Some k) sv' h hs); [|done|done|done].
    destruct (limited_token a (all_rows s) (owner_prefix a) _ _ l k ltac:(done) Hd El) as [v Hk].
    destruct (scan_inside s Ho Hi a None t false k v La Ht Hk) as (ck & _ & ->). cbn. apply is_prefix_spec. by exists ck. }
  intros E. destruct (Hg fuel None saves [] hs I ltac:(cbn; lia) ltac:(intros ck H; by apply elem_of_nil in H) E) as [H1 H2]. split; [done|].
  intros ck Hk. apply Ha. by apply H2.
Qed.
Example C123_hints_ex :
  hint_scan 5 (all_rows world) (ad 1) 256 None [] [] = Some [[97]; [99]] /\
  hint_scan 5 (all_rows world) (ad 1) 1 None [] [] = Some [[97]] /\
  hint_scan 5 (all_rows world) (ad 1) 1 None [false] [] = Some [[99]].
Proof. repeat split; vm_compute; reflexivity. Qed.

Print Assumptions C123_by_fid_true.
Print Assumptions C123_by_address_true.
Print Assumptions C123_page_bound.
Print Assumptions C123_by_fid_complete.
Print Assumptions C123_by_address_complete.
Print Assumptions C123_by_fid_any_token.
Print Assumptions C123_by_address_token_refuted.
Print Assumptions C123_by_address_answers.
Print Assumptions C123_bad_address.
Print Assumptions C123_size_zero_refuted.
Print Assumptions C123_pruned_refuted.
Print Assumptions C123_registered.
Print Assumptions C123_hints.
Print Assumptions C123_hints_bounded.
