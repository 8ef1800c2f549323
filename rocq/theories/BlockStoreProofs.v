(** Proofs about the block store of Paging.v: invariant of every run of ordered puts and pruning jobs. *)
From Coq Require Import ZifyN ZifyNat ZifyBool.
From Verif Require Import Base Codec CodecProofs Kv Paging PagingProofs.
#[local] Open Scope N_scope.

(** The operations on one block store: a commit stores the next block, the pruning job runs at some cutoff. *)
Inductive bop := BPut (n ts body : N) | BJob (cutoff : N).
Definition bstep (root shard : N) (db : kv bval) (o : bop) : kv bval :=
  match o with
  | BPut n ts b => put_block root shard db n ts b
  | BJob c => match prune_job root shard (S (size db)) db c with Some (db', _) => db' | None => db end
  end.
Definition brun (root shard : N) (ops : list bop) : kv bval := fold_left (bstep root shard) ops ∅.
(** The blocks put by a run, oldest first. *)
Definition bput (o : bop) : option (N * N * N) := match o with BPut n ts b => Some (n, ts, b) | BJob _ => None end.
Definition puts (ops : list bop) : list (N * N * N) := omap bput ops.
(** Blocks are committed with increasing numbers and non-decreasing timestamps (64-bit values). *)
Definition before (x y : N * N * N) : bool := (x.1.1 <? y.1.1) && (x.1.2 <=? y.1.2).
Definition in64 (x : N * N * N) : bool := (x.1.1 <? 2 ^ 64) && (x.1.2 <? 2 ^ 64).
Fixpoint chain (l : list (N * N * N)) : bool :=
  match l with [] => true | x :: r => in64 x && forallb (before x) r && chain r end.

Lemma lex_block r a b : a < 2 ^ 64 -> b < 2 ^ 64 -> lex (block_key r a) (block_key r b) = (a ?= b).
Proof. intros Ha Hb. unfold block_key. cbn [lex]. rewrite N.compare_refl. by apply be_lex. Qed.
Lemma lex_ts s a b : a < 2 ^ 64 -> b < 2 ^ 64 -> lex (ts_key s a) (ts_key s b) = (a ?= b).
Proof. intros Ha Hb. unfold ts_key. cbn [lex]. rewrite N.compare_refl, lex_app_l. by apply be_lex. Qed.
Lemma block_key_inj r a b : a < 2 ^ 64 -> b < 2 ^ 64 -> block_key r a = block_key r b -> a = b.
Proof. intros Ha Hb H. apply lex_eq in H. rewrite lex_block in H by done. by apply N.compare_eq. Qed.
Lemma ts_key_inj s a b : a < 2 ^ 64 -> b < 2 ^ 64 -> ts_key s a = ts_key s b -> a = b.
Proof. intros Ha Hb H. apply lex_eq in H. rewrite lex_ts in H by done. by apply N.compare_eq. Qed.
Lemma block_ts_ne r s a b : r <> 18 -> block_key r a <> ts_key s b.
Proof. intros Hr H. unfold block_key, ts_key in H. by apply cons_inj in H as [H _]. Qed.

Section Inv.
  Context (root shard : N) (Hroot : root < 18).

  (** [n] is the first block of [h] with timestamp [ts]. *)
  Definition first_at (h : list (N * N * N)) (n ts : N) : Prop :=
    (exists b, (n, ts, b) ∈ h) /\ forall n' b', (n', ts, b') ∈ h -> n <= n'.
  Record binv (h : list (N * N * N)) (lo : N) (db : kv bval) : Prop := BInv {
    bi_block : forall n ts b, (n, ts, b) ∈ h -> lo <= n -> db !! block_key root n = Some (VBlock n ts b);
    bi_idx : forall n ts, first_at h n ts -> db !! ts_key shard ts = Some (VIdx (block_key root n));
    bi_only : forall k v, db !! k = Some v ->
      (exists n ts b, (n, ts, b) ∈ h /\ lo <= n /\ k = block_key root n /\ v = VBlock n ts b) \/
      (exists n ts, first_at h n ts /\ k = ts_key shard ts /\ v = VIdx (block_key root n));
    bi_lo : h <> [] -> exists n ts b, last h = Some (n, ts, b) /\ lo <= n;
    bi_lo0 : h = [] -> lo = 0
  }.

  Lemma chain_in h x : chain h = true -> x ∈ h -> x.1.1 < 2 ^ 64 /\ x.1.2 < 2 ^ 64.
  Proof using Type.
    clear. induction h as [|y h IH]; intros H Hx; [by apply elem_of_nil in Hx|].
    cbn [chain] in H. apply andb_prop in H as [H1 H2]. apply andb_prop in H1 as [H1 _].
    apply elem_of_cons in Hx as [->|Hx]; [|by apply IH].
    unfold in64 in H1. apply andb_prop in H1 as [H1 H3]. apply N.ltb_lt in H1, H3. done.
  Qed.
  Lemma chain_n h n ts b : chain h = true -> (n, ts, b) ∈ h -> n < 2 ^ 64.
  Proof using Type. clear. intros Hc Hx. exact (proj1 (chain_in h _ Hc Hx)). Qed.
  Lemma chain_t h n ts b : chain h = true -> (n, ts, b) ∈ h -> ts < 2 ^ 64.
  Proof using Type. clear. intros Hc Hx. exact (proj2 (chain_in h _ Hc Hx)). Qed.
  Lemma chain_ordered h x y : chain h = true -> x ∈ h -> y ∈ h -> x = y \/ before x y = true \/ before y x = true.
  Proof using Type.
    clear. induction h as [|z h IH]; intros H Hx Hy; [by apply elem_of_nil in Hx|].
    cbn [chain] in H. apply andb_prop in H as [H1 H2]. apply andb_prop in H1 as [_ H1].
    rewrite forallb_forall in H1.
    apply elem_of_cons in Hx as [->|Hx]; apply elem_of_cons in Hy as [->|Hy]; [by left| | |by apply IH].
    - right. left. apply H1. by apply elem_of_list_In.
    - right. right. apply H1. by apply elem_of_list_In.
  Qed.
  Lemma chain_app h x : chain (h ++ [x]) = true <-> chain h = true /\ in64 x = true /\ forall y, y ∈ h -> before y x = true.
  Proof using Type.
    clear. induction h as [|z h IH]; cbn [app chain].
    - rewrite forallb_nil || cbn [forallb]. rewrite !andb_true_r. split; [intros H; repeat split; try done|tauto].
      intros y Hy. by apply elem_of_nil in Hy.
    - rewrite forallb_app. cbn [forallb]. rewrite !andb_true_iff, IH. split.
      + intros ((Hz & Hf & Hb & _) & Hc & Hx & Hy). repeat split; try done.
        intros y [->|H]%elem_of_cons; [done|by apply Hy].
      + intros (((Hz & Hf) & Hc) & Hx & Hy). repeat split; try done.
        * apply Hy. left.
        * intros y H. apply Hy. by right.
  Qed.
  Lemma chain_last_max h x l : chain h = true -> x ∈ h -> last h = Some l -> x.1.1 <= l.1.1 /\ x.1.2 <= l.1.2.
  Proof using Type.
    clear. intros Hc Hx Hl. apply last_Some in Hl as [h' ->]. apply chain_app in Hc as (_ & _ & Hb).
    apply elem_of_app in Hx as [Hx|Hx]; [|by apply elem_of_list_singleton in Hx as ->].
    specialize (Hb x Hx). unfold before in Hb. apply andb_prop in Hb as [H1 H2].
    apply N.ltb_lt in H1. apply N.leb_le in H2. lia.
  Qed.

  Lemma block_vs_range n stop : n < 2 ^ 64 -> stop < 2 ^ 64 ->
    in_bounds (block_key root 0, block_key root stop) (block_key root n) = (n <? stop).
  Proof using Type.
    clear. intros Hn Hs. unfold in_bounds, ble, blt. cbn [fst snd]. rewrite !lex_block by (done || lia).
    destruct (N.compare_spec 0 n); [| |lia]; cbn; unfold N.ltb; by destruct (n ?= stop).
  Qed.
  Lemma ts_vs_range a b ts : in_bounds (block_key root a, block_key root b) (ts_key shard ts) = false.
  Proof using Hroot.
    unfold in_bounds, ble, blt, ts_key, block_key. cbn [fst snd lex]. unfold RP_BlockIndex.
    destruct (N.compare_spec root 18); [lia| |lia]. destruct (N.compare_spec 18 root); [lia|lia|done].
  Qed.

  Lemma binv_put h lo db n ts b : chain (h ++ [(n, ts, b)]) = true -> binv h lo db ->
    binv (h ++ [(n, ts, b)]) lo (put_block root shard db n ts b).
  Proof using Hroot.
    intros Hc HI. apply chain_app in Hc as (Hch & H64 & Hb).
    unfold in64 in H64. apply andb_prop in H64 as [Hn64 Hts64]. cbn [fst snd] in *. apply N.ltb_lt in Hn64, Hts64.
    assert (Hfresh : forall ts' b', (n, ts', b') ∈ h -> False).
    { intros ts' b' H. apply Hb in H. unfold before in H. cbn [fst snd] in H. rewrite N.ltb_irrefl in H. done. }
    assert (Hfa : forall n' t', first_at (h ++ [(n, ts, b)]) n' t' <->
      first_at h n' t' \/ (n' = n /\ t' = ts /\ forall n0 b0, (n0, ts, b0) ∉ h)).
    { intros n' t'. unfold first_at. split.
      - intros [[b' H] Hm]. apply elem_of_app in H as [H|H].
        + left. split; [by exists b'|]. intros n0 b0 H0. apply (Hm n0 b0). apply elem_of_app. by left.
        + apply elem_of_list_singleton in H. injection H as -> -> ->. right. repeat split; try done.
          intros n0 b0 H0. assert (n <= n0) by (apply (Hm n0 b0); apply elem_of_app; by left).
          apply Hb in H0. unfold before in H0. cbn in H0. apply andb_prop in H0 as [H0 _]. apply N.ltb_lt in H0. lia.
      - intros [[[b' H] Hm]|(-> & -> & Hno)].
        + split; [exists b'; apply elem_of_app; by left|]. intros n0 b0 H0. apply elem_of_app in H0 as [H0|H0]; [by apply (Hm n0 b0)|].
          apply elem_of_list_singleton in H0. injection H0 as -> -> ->.
          apply Hb in H. unfold before in H. cbn in H. apply andb_prop in H as [H _]. apply N.ltb_lt in H. lia.
        + split; [exists b; apply elem_of_app; right; by left|]. intros n0 b0 H0.
          apply elem_of_app in H0 as [H0|H0]; [by apply Hno in H0|]. apply elem_of_list_singleton in H0. injection H0 as -> ->. lia. }
    assert (Hidx : db !! ts_key shard ts = None <-> forall n0 b0, (n0, ts, b0) ∉ h).
    { split.
      - intros Hnone n0 b0 H0. destruct (db !! ts_key shard ts) eqn:E; [done|].
        assert (exists n1, first_at h n1 ts) as [n1 Hn1].
        { clear -H0 Hch Hb. revert n0 b0 H0. induction h as [|[[n1 t1] b1] h IH]; intros n0 b0 H0; [by apply elem_of_nil in H0|].
          cbn [chain] in Hch. apply andb_prop in Hch as [H1 Hch]. apply andb_prop in H1 as [_ H1]. rewrite forallb_forall in H1.
          destruct (decide (t1 = ts)) as [->|Hne].
          - exists n1. split; [exists b1; left|]. intros n' b' [H|H]%elem_of_cons; [injection H as -> ->; lia|].
            specialize (H1 (n', ts, b') ltac:(by apply elem_of_list_In)). unfold before in H1. cbn in H1.
            apply andb_prop in H1 as [H1 _]. apply N.ltb_lt in H1. lia.
          - apply elem_of_cons in H0 as [H0|H0]; [congruence|].
            destruct (IH Hch (fun y Hy => Hb y (elem_of_list_further _ _ _ Hy)) n0 b0 H0) as [n2 [[b2 Hin] Hm]].
            exists n2. split; [exists b2; by right|]. intros n' b' [H|H]%elem_of_cons; [congruence|by apply (Hm n' b')]. }
        apply (bi_idx _ _ _ HI) in Hn1. congruence.
      - intros Hno. destruct (db !! ts_key shard ts) as [v|] eqn:E; [|done]. exfalso.
        destruct (bi_only _ _ _ HI _ _ E) as [(n' & t' & b' & _ & _ & Hk & _)|(n' & t' & [[b' Hin] _] & Hk & _)].
        + symmetry in Hk. apply block_ts_ne in Hk; [done|lia].
        + assert (t' = ts).
          { symmetry. apply (ts_key_inj shard); [done| |done]. (by eapply chain_n) || (by eapply chain_t). }
          subst t'. by apply Hno in Hin. }
    assert (Hlk : forall k, put_block root shard db n ts b !! k =
      if decide (k = block_key root n) then Some (VBlock n ts b)
      else if decide (k = ts_key shard ts /\ db !! ts_key shard ts = None) then Some (VIdx (block_key root n)) else db !! k).
    { intros k. unfold put_block. rewrite lookup_commit.
      pose proof (block_ts_ne root shard n ts ltac:(lia)) as Hne.
      destruct (db !! ts_key shard ts) as [v|] eqn:E.
      - destruct (decide (k = block_key root n)) as [->|Hk]; [apply tget_put|].
        rewrite tget_put_ne, tget_empty by done. by rewrite decide_False by (intros [_ ?]; done).
      - destruct (decide (k = block_key root n)) as [->|Hk].
        + rewrite tget_put_ne by done. apply tget_put.
        + destruct (decide (k = ts_key shard ts /\ None = None)) as [[-> _]|Hk2].
          * apply tget_put.
          * rewrite !tget_put_ne, tget_empty; [done|done|]. intros <-. by apply Hk2. }
    split.
    - intros n' t' b' Hin Hlo. rewrite Hlk. apply elem_of_app in Hin as [Hin|Hin].
      + rewrite decide_False.
        2:{ intros He. apply block_key_inj in He; [|(by eapply chain_n) || (by eapply chain_t)|done]. subst n'. by eapply Hfresh. }
        rewrite decide_False by (intros [He _]; by apply block_ts_ne in He; [|lia]).
        by apply (bi_block _ _ _ HI).
      + apply elem_of_list_singleton in Hin. injection Hin as -> -> ->. by rewrite decide_True.
    - intros n' t' Hf. rewrite Hlk. rewrite decide_False.
      2:{ intros He. symmetry in He. apply block_ts_ne in He; [done|lia]. }
      apply Hfa in Hf as [Hf|(-> & -> & Hno)].
      + pose proof (bi_idx _ _ _ HI _ _ Hf) as He.
        rewrite decide_False; [done|]. intros [Hk Hnone]. rewrite <- Hk in Hnone. congruence.
      + rewrite decide_True; [done|]. split; [done|by apply Hidx].
    - intros k v. rewrite Hlk. destruct (decide (k = block_key root n)) as [->|Hk].
      { intros [= <-]. left. exists n, ts, b. repeat split; try done; [apply elem_of_app; right; by left|].
        destruct h as [|y h]; [rewrite (bi_lo0 _ _ _ HI eq_refl); lia|].
        destruct (bi_lo _ _ _ HI) as (n' & t' & b' & Hl & Hle); [done|].
        assert (Hin : (n', t', b') ∈ y :: h).
        { apply last_Some in Hl as [h' Hh]. rewrite Hh. apply elem_of_app. right. by left. }
        apply Hb in Hin. unfold before in Hin. cbn in Hin. apply andb_prop in Hin as [Hin _]. apply N.ltb_lt in Hin. lia. }
      destruct (decide (k = ts_key shard ts /\ db !! ts_key shard ts = None)) as [[-> Hno]|Hk2].
      { intros [= <-]. right. exists n, ts. repeat split; try done; [exists b; apply elem_of_app; right; by left|].
        pose proof (proj1 Hidx Hno) as Hno'. intros n' b' [H|H]%elem_of_app; [by apply Hno' in H|].
        apply elem_of_list_singleton in H. injection H as -> ->. lia. }
      intros Hv. destruct (bi_only _ _ _ HI _ _ Hv) as [(n' & t' & b' & Hin & Hlo & H3)|(n' & t' & Hf & H3)].
      + left. exists n', t', b'. repeat split; try done; [apply elem_of_app; by left|apply H3|apply H3].
      + right. exists n', t'. split; [|done]. apply Hfa. by left.
    - intros _. exists n, ts, b. split; [by rewrite last_snoc|].
      destruct h as [|y h]; [rewrite (bi_lo0 _ _ _ HI eq_refl); lia|].
      destruct (bi_lo _ _ _ HI) as (n' & t' & b' & Hl & Hle); [done|].
      assert (Hin : (n', t', b') ∈ y :: h).
      { apply last_Some in Hl as [h' Hh]. rewrite Hh. apply elem_of_app. right. by left. }
      apply Hb in Hin. unfold before in Hin. cbn in Hin. apply andb_prop in Hin as [Hin _]. apply N.ltb_lt in Hin. lia.
    - intros H. by destruct h.
  Qed.

  (** The first block at or after a time, in the history. *)
  Definition first_from (h : list (N * N * N)) (t n : N) : Prop :=
    exists ts b, (n, ts, b) ∈ h /\ t <= ts /\ forall n' ts' b', (n', ts', b') ∈ h -> t <= ts' -> n <= n'.

  Lemma next_height_spec h lo db t : chain h = true -> binv h lo db -> t < 2 ^ 64 ->
    (next_height_by_ts shard db t = Ok None /\ forall n ts b, (n, ts, b) ∈ h -> ts < t) \/
    (exists n, first_from h t n /\
       next_height_by_ts shard db t = if n <? lo then Err tt else Ok (Some n)).
  Proof using Hroot.
    intros Hc HI Ht. unfold next_height_by_ts, get_next_by_index, for_each, for_each_paged.
    change (increment_vec_u8 [RP_BlockIndex]) with [19].
    set (l := scan db (ts_key shard t) [19] _).
    assert (Hel : forall k v, (k, v) ∈ l <-> exists n ts, first_at h n ts /\ t <= ts /\ k = ts_key shard ts /\ v = VIdx (block_key root n)).
    { intros k v. subst l. rewrite scan_elem. unfold bounds. cbn [po_reverse po_token]. split.
      - intros [Hv Hb]. destruct (bi_only _ _ _ HI _ _ Hv) as [(n & ts & b & Hin & _ & -> & _)|(n & ts & Hf & -> & ->)].
        + exfalso. unfold in_bounds, ble, blt, ts_key, block_key in Hb. cbn [fst snd lex] in Hb. unfold RP_BlockIndex in Hb.
          destruct (N.compare_spec 18 root); [lia|lia|done].
        + exists n, ts. repeat split; try done; [apply Hf|apply Hf|].
          assert (ts < 2 ^ 64). { destruct Hf as [[b Hin] _]. (by eapply chain_n) || (by eapply chain_t). }
          unfold in_bounds, ble in Hb. cbn [fst snd] in Hb. apply andb_prop in Hb as [Hb _]. rewrite lex_ts in Hb by done.
          destruct (N.compare_spec t ts); [lia|lia|done].
      - intros (n & ts & Hf & Hle & -> & ->). split; [by apply (bi_idx _ _ _ HI)|].
        assert (ts < 2 ^ 64). { destruct Hf as [[b Hin] _]. (by eapply chain_n) || (by eapply chain_t). }
        unfold in_bounds, ble, blt. cbn [fst snd]. rewrite lex_ts by done.
        destruct (N.compare_spec t ts); [done|done|lia]. }
    pose proof (scan_sorted db (ts_key shard t) [19] (POpts None None false)) as Hs.
    change (scan db (ts_key shard t) [19] (POpts None None false)) with l in Hs. cbn [po_reverse ordered] in Hs.
    clearbody l. destruct l as [|[k v] l].
    - left. cbn [iterate]. split; [done|]. intros n ts b Hin.
      destruct (N.lt_ge_cases ts t) as [|Hge]; [done|]. exfalso.
      assert (exists n1, first_at h n1 ts) as [n1 Hn1].
      { clear -Hin Hc. revert n b Hin. induction h as [|[[n1 t1] b1] h IH]; intros n0 b0 H0; [by apply elem_of_nil in H0|].
        cbn [chain] in Hc. apply andb_prop in Hc as [H1 Hc]. apply andb_prop in H1 as [_ H1]. rewrite forallb_forall in H1.
        destruct (decide (t1 = ts)) as [->|Hne].
        - exists n1. split; [exists b1; left|]. intros n' b' [H|H]%elem_of_cons; [injection H as -> ->; lia|].
          specialize (H1 (n', ts, b') ltac:(by apply elem_of_list_In)). unfold before in H1. cbn in H1.
          apply andb_prop in H1 as [H1 _]. apply N.ltb_lt in H1. lia.
        - apply elem_of_cons in H0 as [H0|H0]; [congruence|].
          destruct (IH Hc n0 b0 H0) as [n2 [[b2 Hi] Hm]].
          exists n2. split; [exists b2; by right|]. intros n' b' [H|H]%elem_of_cons; [congruence|by apply (Hm n' b')]. }
      assert (Hmem : (ts_key shard ts, VIdx (block_key root n1)) ∈ (@nil (bytes * bval))).
      { apply Hel. by exists n1, ts. }
      by apply elem_of_nil in Hmem.
    - right. cbn [iterate].
      destruct (proj1 (Hel k v) ltac:(left)) as (n & ts & Hf & Hle & -> & ->). cbn [idx_of].
      destruct Hf as [[b Hin] Hm]. exists n.
      assert (Hff : first_from h t n).
      { exists ts, b. repeat split; try done. intros n' ts' b' Hin' Hle'.
        destruct (chain_ordered h _ _ Hc Hin Hin') as [He|[Hb|Hb]].
        - injection He as -> _ _. lia.
        - unfold before in Hb. cbn in Hb. lia.
        - unfold before in Hb. cbn in Hb.
          destruct (decide (ts' = ts)) as [->|Hne]; [by apply (Hm n' b')|]. exfalso.
          (* a smaller timestamp at or after [t] would come first in the scan *)
          assert (exists n1, first_at h n1 ts') as [n1 Hn1].
          { clear -Hin' Hc. revert n' b' Hin'. induction h as [|[[n1 t1] b1] h IH]; intros n0 b0 H0; [by apply elem_of_nil in H0|].
            cbn [chain] in Hc. apply andb_prop in Hc as [H1 Hc]. apply andb_prop in H1 as [_ H1]. rewrite forallb_forall in H1.
            destruct (decide (t1 = ts')) as [->|Hne].
            - exists n1. split; [exists b1; left|]. intros n' b' [H|H]%elem_of_cons; [injection H as -> ->; lia|].
              specialize (H1 (n', ts', b') ltac:(by apply elem_of_list_In)). unfold before in H1. cbn in H1.
              apply andb_prop in H1 as [H1 _]. apply N.ltb_lt in H1. lia.
            - apply elem_of_cons in H0 as [H0|H0]; [congruence|].
              destruct (IH Hc n0 b0 H0) as [n2 [[b2 Hi] Hm]].
              exists n2. split; [exists b2; by right|]. intros n' b' [H|H]%elem_of_cons; [congruence|by apply (Hm n' b')]. }
          assert (Hmem : (ts_key shard ts', VIdx (block_key root n1)) ∈ (ts_key shard ts, VIdx (block_key root n)) :: l).
          { apply Hel. by exists n1, ts'. }
          apply elem_of_cons in Hmem as [He|Hmem].
          { apply pair_equal_spec in He as [He _]. apply ts_key_inj in He; [done| |]; (by eapply chain_n) || (by eapply chain_t). }
          apply StronglySorted_inv in Hs as [_ Hfo]. rewrite Forall_forall in Hfo. specialize (Hfo _ Hmem).
          unfold klt in Hfo. cbn [fst] in Hfo. apply blt_lex in Hfo.
          rewrite lex_ts in Hfo by ((by eapply chain_n) || (by eapply chain_t)). rewrite N.compare_lt_iff in Hfo. lia. }
      split; [done|]. destruct (N.ltb_spec n lo) as [Hlt|Hge].
      + destruct (db !! block_key root n) as [v|] eqn:Ev; [|done]. exfalso.
        destruct (bi_only _ _ _ HI _ _ Ev) as [(n' & t' & b' & Hin' & Hlo & Hk & _)|(n' & t' & _ & Hk & _)].
        * apply block_key_inj in Hk; [lia| |]; (by eapply chain_n) || (by eapply chain_t).
        * apply block_ts_ne in Hk; [done|lia].
      + by rewrite (bi_block _ _ _ HI n ts b Hin Hge).
  Qed.

  Lemma binv_prune h lo db stop fuel po : chain h = true -> binv h lo db -> stop < 2 ^ 64 -> po_token po = None ->
    (length (scan db (block_key root 0) (block_key root stop) po) < fuel)%nat ->
    (h <> [] -> exists n ts b, last h = Some (n, ts, b) /\ stop <= n) -> (h = [] -> stop = 0) ->
    exists db' c, prune_until root fuel db stop po = Some (db', c) /\ binv h (N.max lo stop) db' /\
      (forall ts, db' !! ts_key shard ts = db !! ts_key shard ts).
  Proof using Hroot.
    intros Hc HI Hs Htok Hf Hlast Hnil. unfold prune_until.
    destruct (delete_paginated_spec _ _ po fuel db 0 Hf) as (db' & -> & Hlk).
    eexists db', _. split; [done|].
    assert (Hb : bounds (block_key root 0) (block_key root stop) po = (block_key root 0, block_key root stop)).
    { unfold bounds. rewrite Htok. by destruct (po_reverse po). }
    rewrite Hb in Hlk.
    assert (Hbl : forall n, n < 2 ^ 64 -> db' !! block_key root n = if n <? stop then None else db !! block_key root n).
    { intros n Hn. rewrite Hlk, block_vs_range by done. done. }
    assert (Hix : forall ts, db' !! ts_key shard ts = db !! ts_key shard ts).
    { intros ts. by rewrite Hlk, ts_vs_range. }
    split; [|done]. split.
    - intros n ts b Hin Hlo. rewrite Hbl by ((by eapply chain_n) || (by eapply chain_t)).
      destruct (N.ltb_spec n stop); [lia|]. apply (bi_block _ _ _ HI); [done|lia].
    - intros n ts Hfa. rewrite Hix. by apply (bi_idx _ _ _ HI).
    - intros k v Hv. rewrite Hlk in Hv. destruct (in_bounds _ k) eqn:E; [done|].
      destruct (bi_only _ _ _ HI _ _ Hv) as [(n & ts & b & Hin & Hlo & -> & ->)|H]; [|by right].
      left. exists n, ts, b. repeat split; try done.
      rewrite block_vs_range in E by (done || (by eapply chain_n) || (by eapply chain_t)). apply N.ltb_ge in E. lia.
    - intros Hne. destruct (bi_lo _ _ _ HI Hne) as (n & ts & b & Hl & Hle).
      destruct (Hlast Hne) as (n' & ts' & b' & Hl' & Hle'). rewrite Hl in Hl'. injection Hl' as <- <- <-.
      exists n, ts, b. split; [done|lia].
    - intros H. rewrite (bi_lo0 _ _ _ HI H), (Hnil H). done.
  Qed.

  Lemma scan_le_size (db : kv bval) start stop po : (length (scan db start stop po) <= size db)%nat.
  Proof using Type.
    clear. unfold scan. set (f := filter _ _).
    assert (Hf : (length f <= length (rows db))%nat) by apply filter_length.
    assert (Hr : length (rows db) = size db).
    { unfold rows. rewrite (Permutation_length (merge_sort_Permutation key_le _)). done. }
    destruct (po_reverse po); [rewrite reverse_length|]; lia.
  Qed.

  Lemma first_from_last h t n l : chain h = true -> first_from h t n -> last h = Some l -> n <= l.1.1.
  Proof using Type. clear. intros Hc (ts & b & Hin & _) Hl. exact (proj1 (chain_last_max h _ l Hc Hin Hl)). Qed.

  Lemma binv_job h lo db c : chain h = true -> binv h lo db -> c < 2 ^ 64 ->
    exists lo', binv h lo' (bstep root shard db (BJob c)) /\
      ((exists n, first_from h c n /\ lo <= n /\ lo' = N.max lo n) \/
       (lo' = lo /\ bstep root shard db (BJob c) = db /\
        ((forall n ts b, (n, ts, b) ∈ h -> ts < c) \/ (exists n, first_from h c n /\ n < lo)))).
  Proof using Hroot.
    intros Hc HI Ht. cbn [bstep]. unfold prune_job.
    destruct (next_height_spec h lo db c Hc HI Ht) as [[-> Hall]|(n & Hff & ->)].
    - exists lo. split; [done|]. right. repeat split; try done. by left.
    - destruct (N.ltb_spec n lo) as [Hlt|Hge].
      { exists lo. split; [done|]. right. repeat split; try done. right. by exists n. }
      assert (Hn : n < 2 ^ 64). { destruct Hff as (ts & b & Hin & _). (by eapply chain_n) || (by eapply chain_t). }
      destruct (binv_prune h lo db n (S (size db)) (POpts (Some PAGE_SIZE_MAX) None false)) as (db' & cnt & -> & HI' & _);
        try done.
      + pose proof (scan_le_size db (block_key root 0) (block_key root n) (POpts (Some PAGE_SIZE_MAX) None false)). lia.
      + intros Hne. destruct (last h) as [[[n' t'] b']|] eqn:El.
        * exists n', t', b'. split; [done|]. exact (first_from_last h c n (n', t', b') Hc Hff El).
        * by apply last_None in El.
      + intros ->. destruct Hff as (ts & b & Hin & _). by apply elem_of_nil in Hin.
      + exists (N.max lo n). split; [done|]. left. by exists n.
  Qed.

  Lemma puts_snoc ops o : puts (ops ++ [o]) = puts ops ++ match bput o with Some x => [x] | None => [] end.
  Proof using Type. clear. unfold puts. by rewrite omap_app. Qed.
  Lemma chain_prefix h1 h2 : chain (h1 ++ h2) = true -> chain h1 = true.
  Proof using Type.
    clear. induction h1 as [|x h1 IH]; [done|]. cbn [app chain]. rewrite forallb_app, !andb_true_iff.
    intros ((Hx & Hf & _) & Hc). repeat split; try done. by apply IH.
  Qed.

  Definition job_ok (o : bop) : bool := match o with BPut _ _ _ => true | BJob c => c <? 2 ^ 64 end.

  Lemma binv_run ops : chain (puts ops) = true -> forallb job_ok ops = true ->
    exists lo, binv (puts ops) lo (brun root shard ops).
  Proof using Hroot.
    induction ops as [|o ops IH] using rev_ind; intros Hc Hj.
    - exists 0. split; try done.
      + intros n ts b H. by apply elem_of_nil in H.
      + intros n ts [[b H] _]. by apply elem_of_nil in H.
    - rewrite forallb_app in Hj. apply andb_prop in Hj as [Hj Hjo]. cbn in Hjo. rewrite andb_true_r in Hjo.
      rewrite puts_snoc in Hc |- *. destruct (IH (chain_prefix _ _ Hc) Hj) as [lo HI].
      unfold brun in *. rewrite fold_left_app. cbn [fold_left].
      destruct o as [n ts b|c]; cbn [bput] in *.
      + exists lo. cbn [bstep]. by apply binv_put.
      + rewrite app_nil_r in *. apply N.ltb_lt in Hjo.
        destruct (binv_job (puts ops) lo _ c Hc HI Hjo) as (lo' & HI' & _). by exists lo'.
  Qed.

  (** ** First and last block *)
  Lemma first_or_last_spec rev h lo db : chain h = true -> binv h lo db ->
    (h = [] /\ first_or_last root rev db = Ok None) \/
    (exists n ts b, (n, ts, b) ∈ h /\ lo <= n /\ first_or_last root rev db = Ok (Some (n, ts, b)) /\
      forall n' ts' b', (n', ts', b') ∈ h -> lo <= n' -> if rev then n' <= n else n <= n').
  Proof using Hroot.
    intros Hc HI. unfold first_or_last, block_page. cbn [default]. rewrite limited_filtered by done.
    set (po := POpts (Some 1) None rev).
    assert (Hel : forall k v, (k, v) ∈ scan db (block_key root 0) [root + 1] po <->
      exists n ts b, (n, ts, b) ∈ h /\ lo <= n /\ k = block_key root n /\ v = VBlock n ts b).
    { intros k v. rewrite scan_elem.
      assert (Hbd : bounds (block_key root 0) [root + 1] po = (block_key root 0, [root + 1])) by (by destruct rev).
      rewrite Hbd. split.
      - intros [Hv Hb]. destruct (bi_only _ _ _ HI _ _ Hv) as [H|(n & ts & _ & -> & _)]; [done|]. exfalso.
        unfold in_bounds, blt, ts_key in Hb. cbn [fst snd lex] in Hb. unfold RP_BlockIndex in Hb.
        apply andb_prop in Hb as [_ Hb]. destruct (N.compare_spec 18 (root + 1)) as [E|E|E]; [|lia|done].
        by destruct (be 4 shard ++ be 8 ts).
      - intros (n & ts & b & Hin & Hlo & -> & ->). split; [by apply (bi_block _ _ _ HI)|].
        unfold in_bounds, ble, blt. cbn [fst snd]. rewrite lex_block; [|lia|(by eapply chain_n) || (by eapply chain_t)].
        unfold block_key. cbn [lex]. destruct (N.compare_spec root (root + 1)); [lia| |lia].
        destruct (N.compare_spec 0 n); [done|done|lia]. }
    assert (Hd : decodes block_mk (scan db (block_key root 0) [root + 1] po)).
    { unfold decodes. apply Forall_forall. intros [k v] H. apply Hel in H as (n & ts & b & _ & _ & _ & ->). by eexists. }
    assert (Hen : forall l, decodes block_mk l -> length (omap (entry block_mk (fun _ => true)) l) = length l).
    { clear. induction l as [|[k v] l IH]; intros Hd; [done|]. apply Forall_cons in Hd as [[x Hx] Hd]. cbn [fst snd] in Hx.
      rewrite omap_cons'. unfold entry at 1. cbn [fst snd]. rewrite Hx. cbn [length]. by rewrite IH. }
    destruct (page_split block_mk (fun _ => true) db (block_key root 0) [root + 1] po ltac:(done) Hd)
      as [[H1 H2]|(pre & k & v & suf & H1 & H2 & H3)].
    - rewrite Hen in H1 by done. unfold psize, eff in H1. cbn [po po_size default] in H1.
      destruct (scan db (block_key root 0) [root + 1] po) as [|x l] eqn:E; [|cbn in H1; lia].
      rewrite H2. cbn. left. split; [|done].
      destruct h as [|y h]; [done|]. exfalso.
      destruct (bi_lo _ _ _ HI) as (n & ts & b & Hl & Hle); [done|].
      assert (Hin : (block_key root n, VBlock n ts b) ∈ (@nil (bytes * bval))).
      { apply Hel. exists n, ts, b. repeat split; try done.
        apply last_Some in Hl as [h' ->]. apply elem_of_app. right. by left. }
      by apply elem_of_nil in Hin.
    - rewrite H3. assert (Hdp : decodes block_mk (pre ++ [(k, v)])).
      { unfold decodes in *. rewrite H1 in Hd. rewrite !Forall_app in *. destruct Hd as [Hd1 Hd2]. split; [done|].
        apply Forall_cons in Hd2 as [Hd2 _]. by constructor. }
      rewrite Hen in H2 by done. unfold psize, eff in H2. cbn [po po_size default] in H2. rewrite app_length in H2. cbn in H2.
      destruct pre as [|x pre]; [|cbn in H2; lia]. cbn [app] in *.
      destruct (proj1 (Hel k v)) as (n & ts & b & Hin & Hlo & -> & ->); [rewrite H1; left|].
      right. exists n, ts, b. cbn. repeat split; try done.
      intros n' ts' b' Hin' Hlo'.
      assert (Hmem : (block_key root n', VBlock n' ts' b') ∈ scan db (block_key root 0) [root + 1] po).
      { apply Hel. by exists n', ts', b'. }
      pose proof (scan_sorted db (block_key root 0) [root + 1] po) as Hs.
      rewrite H1 in Hmem, Hs. cbn [po po_reverse] in Hs.
      apply elem_of_cons in Hmem as [He|Hmem].
      { apply pair_equal_spec in He as [_ He]. injection He as -> _ _. destruct rev; lia. }
      apply StronglySorted_inv in Hs as [_ Hf]. rewrite Forall_forall in Hf. specialize (Hf _ Hmem).
      assert (n < 2 ^ 64) by ((by eapply chain_n) || (by eapply chain_t)).
      assert (n' < 2 ^ 64) by ((by eapply chain_n) || (by eapply chain_t)).
      destruct rev; unfold ordered, klt, kgt in Hf; cbn [fst] in Hf; apply blt_lex in Hf; rewrite lex_block in Hf by done;
        rewrite N.compare_lt_iff in Hf; lia.
  Qed.
End Inv.
