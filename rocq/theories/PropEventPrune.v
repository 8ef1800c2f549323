(** Property C77: the event pruning job (jobs/event_pruning.rs, stores.rs:699-759) next to the block pruning job
    (jobs/block_pruning.rs, stores.rs:761-830), over the chunk store and event rows of one shard (Paging.v).

    Simplifications: chunks and events are kept in two maps (their keys differ in the first byte, C12_prune_events shows
    that other keys are untouched); the chunk and the events of a block are stored in one step; the prune lock is left
    out (it only skips a job while another one runs); pages are read to the end. *)
From Coq Require Import ZifyN ZifyNat ZifyBool.
From Verif Require Import Base Codec CodecProofs Kv Paging PagingProofs BlockStoreProofs PropPaging.
#[local] Open Scope N_scope.

(** ** Model *)
Definition RP_Shard : N := 2.
Record pst := PSt { p_chunks : kv bval; p_events : kv N }.
Inductive pop :=
| PBlock (n ts body : N) (evs : list (N * N))   (* a block is committed: its chunk and its events (sequence number, body) *)
| PBlockJob (cutoff : N)
| PEventJob (cutoff : N).
(** event.rs:109-124: the events of a block. *)
Definition put_events (n : N) (evs : list (N * N)) (db : kv N) : kv N :=
  fold_left (fun db e => <[make_event_key (make_event_id n e.1) := e.2]> db) evs db.
(** stores.rs:699-759 [prune_events_until]: nothing is pruned when the lookup by time finds nothing or fails
    (stores.rs:687-697). *)
Definition event_job (shard : N) (st : pst) (cutoff : N) : pst :=
  match next_height_by_ts shard (p_chunks st) cutoff with
  | Ok (Some h) =>
      match prune_events (S (size (p_events st))) (p_events st) h (POpts (Some PAGE_SIZE_MAX) None false) with
      | Some (db, _) => PSt (p_chunks st) db
      | None => st
      end
  | _ => st
  end.
Definition pstep (shard : N) (st : pst) (o : pop) : pst :=
  match o with
  | PBlock n ts b evs => PSt (put_block RP_Shard shard (p_chunks st) n ts b) (put_events n evs (p_events st))
  | PBlockJob c => PSt (bstep RP_Shard shard (p_chunks st) (BJob c)) (p_events st)
  | PEventJob c => event_job shard st c
  end.
Definition prun (shard : N) (ops : list pop) : pst := fold_left (pstep shard) ops (PSt ∅ ∅).

(** ** Specification *)
Definition bop_of (o : pop) : option bop :=
  match o with PBlock n ts b _ => Some (BPut n ts b) | PBlockJob c => Some (BJob c) | PEventJob _ => None end.
Definition bops (ops : list pop) : list bop := omap bop_of ops.
(** The blocks form a chain (heights grow, times do not decrease) of heights that fit an event id. *)
Definition history_ok (ops : list pop) : bool :=
  chain (puts (bops ops)) && forallb job_ok (bops ops) &&
  forallb (fun o => match o with PBlock n _ _ evs => (n <? 2 ^ 50) && forallb (fun e => e.1 <? 2 ^ 14) evs | _ => true end) ops.
(** An event of block [n], by its sequence number. *)
Definition event_at (st : pst) (n q : N) : option N := p_events st !! make_event_key (make_event_id n q).
Definition chunk_at (st : pst) (n ts b : N) : Prop := stored RP_Shard (p_chunks st) n ts b.
Definition committed (ops : list pop) (n ts b : N) : Prop := exists evs, PBlock n ts b evs ∈ ops.

Lemma scan_size (db : kv N) start stop po : (length (scan db start stop po) <= size db)%nat.
Proof.
  unfold scan. set (f := filter _ _).
  assert (Hf : (length f <= length (rows db))%nat) by apply filter_length.
  assert (Hr : length (rows db) = size db).
  { unfold rows. rewrite (Permutation_length (merge_sort_Permutation key_le _)). done. }
  destruct (po_reverse po); [rewrite reverse_length|]; lia.
Qed.
Lemma run_chunks shard ops : p_chunks (prun shard ops) = brun RP_Shard shard (bops ops).
Proof.
  unfold prun, brun, bops.
  assert (H : forall st, p_chunks (fold_left (pstep shard) ops st) = fold_left (bstep RP_Shard shard) (omap bop_of ops) (p_chunks st)); [|apply H].
  induction ops as [|o ops IH]; intros st; [done|]. cbn [fold_left]. rewrite IH.
  destruct o as [n ts b evs|c|c]; cbn [omap list_omap bop_of fold_left pstep p_chunks]; [done|done|].
  f_equal. unfold event_job. destruct (next_height_by_ts _ _ _) as [[h|]| |]; [|done|done|done].
  by destruct (prune_events _ _ _ _) as [[db x]|].
Qed.
Lemma committed_puts ops n ts b : committed ops n ts b <-> (n, ts, b) ∈ puts (bops ops).
Proof.
  unfold committed, puts, bops. induction ops as [|o ops IH].
  - cbn. split; [intros [evs H]; by apply elem_of_nil in H|intros H; by apply elem_of_nil in H].
  - destruct o as [n' ts' b' evs'|c|c]; cbn [omap list_omap bop_of bput].
    + rewrite elem_of_cons, <- IH. split.
      * intros [evs [E|H]%elem_of_cons]; [injection E as -> -> -> _; by left|right; by exists evs].
      * intros [[= -> -> ->]|[evs H]]; [exists evs'; left|exists evs; by right].
    + rewrite <- IH. split; intros [evs H]; exists evs; [by apply elem_of_cons in H as [|]|by right].
    + rewrite <- IH. split; intros [evs H]; exists evs; [by apply elem_of_cons in H as [|]|by right].
Qed.
Lemma history_parts ops : history_ok ops = true -> chain (puts (bops ops)) = true /\ forallb job_ok (bops ops) = true /\
  forall n ts b, committed ops n ts b -> n < 2 ^ 50.
Proof.
  unfold history_ok. intros H. apply andb_prop in H as [H H3]. apply andb_prop in H as [H1 H2]. split; [done|]. split; [done|].
  intros n ts b [evs Hin]. rewrite forallb_forall in H3. apply elem_of_list_In in Hin. specialize (H3 _ Hin). cbn in H3.
  apply andb_prop in H3 as [H3 _]. by apply N.ltb_lt.
Qed.

(** What one run of the event job does, for every history of blocks and jobs: if the first block at or after the
    cutoff still has its chunk, exactly the events of older blocks are removed; otherwise nothing is. *)
Theorem C77_event_job : forall shard ops c, history_ok ops = true -> c < 2 ^ 64 ->
  let st := prun shard ops in let st' := prun shard (ops ++ [PEventJob c]) in
  p_chunks st' = p_chunks st /\
  (forall n ts b, committed ops n ts b -> c <= ts -> (forall n' ts' b', committed ops n' ts' b' -> c <= ts' -> n <= n') ->
     chunk_at st n ts b ->
     forall n1 ts1 b1 q, committed ops n1 ts1 b1 -> q < 2 ^ 14 -> event_at st' n1 q = if c <=? ts1 then event_at st n1 q else None) /\
  ((forall n ts b, committed ops n ts b -> c <= ts -> (forall n' ts' b', committed ops n' ts' b' -> c <= ts' -> n <= n') ->
     ~ chunk_at st n ts b) -> st' = st).
Proof.
  intros shard ops c Hok Hc st st'. destruct (history_parts ops Hok) as (H1 & H2 & H3).
  assert (E : st' = event_job shard st c) by (unfold st', prun; by rewrite fold_left_app).
  assert (Ec : p_chunks st' = p_chunks st).
  { unfold st', st. rewrite !run_chunks. unfold bops. rewrite omap_app. cbn. by rewrite app_nil_r. }
  split; [done|].
  pose proof (C57_first_at_or_after RP_Shard shard (bops ops) c ltac:(done) H1 H2 Hc) as Hf.
  rewrite <- run_chunks in Hf. fold st in Hf.
  assert (Hcmt : forall n ts b, committed ops n ts b <-> (n, ts, b) ∈ puts (bops ops)) by apply committed_puts.
  assert (Hord : forall n ts b n' ts' b', committed ops n ts b -> committed ops n' ts' b' -> n < n' -> ts <= ts').
  { intros n ts b n' ts' b' Ha Hb Hlt. apply Hcmt in Ha, Hb. destruct (chain_ordered _ _ _ H1 Ha Hb) as [He|[Hbf|Hbf]].
    - injection He as -> -> ->. lia.
    - unfold before in Hbf. cbn in Hbf. lia.
    - unfold before in Hbf. cbn in Hbf. lia. }
  assert (Huniq : forall n ts b ts' b', committed ops n ts b -> committed ops n ts' b' -> ts = ts' /\ b = b').
  { intros n ts b ts' b' Ha Hb. apply Hcmt in Ha, Hb. destruct (chain_ordered _ _ _ H1 Ha Hb) as [He|[Hbf|Hbf]].
    - by injection He as -> ->.
    - unfold before in Hbf. cbn in Hbf. lia.
    - unfold before in Hbf. cbn in Hbf. lia. }
  unfold event_job in E. destruct (next_height_by_ts shard (p_chunks st) c) as [[h|]| |] eqn:En.
  - destruct Hf as (ts0 & b0 & Hin0 & Hle0 & Hst0 & Hmin0). apply Hcmt in Hin0.
    assert (Hfirst : forall n' ts' b', committed ops n' ts' b' -> c <= ts' -> h <= n').
    { intros n' ts' b' Hn' Hle'. destruct (N.le_gt_cases h n') as [|Hlt]; [done|]. apply Hcmt in Hn'.
      specialize (Hmin0 _ _ _ Hn' Hlt). lia. }
    split.
    + intros n ts b Hn Hle Hm Hst n1 ts1 b1 q Hn1 Hq.
      assert (n = h) as -> by (apply N.le_antisymm; [by apply (Hm _ _ _ Hin0)|by apply (Hfirst _ _ _ Hn)]).
      set (l := scan (p_events st) (make_event_key 0) (make_event_key (make_event_id h 0)) (POpts (Some PAGE_SIZE_MAX) None false)).
      assert (Hl : is_listing (p_events st) (make_event_key 0) (make_event_key (make_event_id h 0)) false l) by apply scan_listing.
      assert (Hlen : (length l < S (size (p_events st)))%nat).
      { apply Nat.lt_succ_r, scan_size. }
      destruct (C12_prune_events (p_events st) h (Some PAGE_SIZE_MAX) false l (H3 _ _ _ Hin0) Hl _ Hlen) as (db' & Hp & Hlk & _).
      rewrite Hp in E. rewrite E. unfold event_at. cbn [p_events]. rewrite (Hlk n1 q (H3 _ _ _ Hn1) Hq).
      destruct (N.ltb_spec n1 h) as [Hlt|Hge].
      * assert (ts1 < c) by (apply Hcmt in Hn1; by apply (Hmin0 _ _ _ Hn1)). destruct (N.leb_spec c ts1); [lia|done].
      * destruct (N.leb_spec c ts1) as [|Hlt]; [done|]. exfalso. destruct (N.eq_dec n1 h) as [->|Hne].
        -- destruct (Huniq _ _ _ _ _ Hn1 Hin0). lia.
        -- pose proof (Hord _ _ _ _ _ _ Hin0 Hn1 ltac:(lia)). lia.
    + intros Hno. exfalso. apply (Hno h ts0 b0 Hin0 Hle0); [|done]. exact Hfirst.
  - split; [|done]. intros n ts b Hn Hle. apply Hcmt in Hn. apply Hf in Hn. lia.
  - destruct Hf as (n0 & ts0 & b0 & Hin0 & Hle0 & Hns0). split; [|done].
    intros n ts b Hn Hle Hm Hst. exfalso.
    (* the first block at or after the cutoff is stored, so the lookup succeeds *)
    pose proof (binv_run RP_Shard shard ltac:(done) (bops ops) H1 H2) as [lo HI]. rewrite <- run_chunks in HI. fold st in HI.
    destruct (next_height_spec RP_Shard shard ltac:(done) _ lo _ c H1 HI Hc) as [[Hx _]|(m & (ts2 & b2 & Hin2 & Hle2 & Hm2) & Hx)]; [congruence|].
    rewrite En in Hx. destruct (N.ltb_spec m lo) as [Hlt|]; [|done].
    assert (m = n) as ->.
    { apply N.le_antisymm; [apply Hcmt in Hn; by apply (Hm2 _ _ _ Hn)|apply Hcmt in Hin2; by apply (Hm _ _ _ Hin2)]. }
    destruct (bi_only _ _ _ _ _ HI _ _ Hst) as [(n' & t' & b' & _ & Hlo & _ & He)|(n' & t' & _ & _ & He)]; [|done].
    injection He as -> _ _. lia.
  - exfalso. unfold next_height_by_ts in En. destruct (get_next_by_index _ _ _ _) as [[v|]| |]; try done. by destruct (block_of v) as [[[? ?] ?]|].
Qed.

Lemma history_prefix ops more : history_ok (ops ++ more) = true -> history_ok ops = true.
Proof.
  intros Hok. unfold history_ok in *. apply andb_prop in Hok as [Hok Hf]. apply andb_prop in Hok as [Hc Hj].
  unfold bops in *. rewrite omap_app in *. rewrite forallb_app in Hj, Hf. apply andb_prop in Hj as [Hj _]. apply andb_prop in Hf as [Hf _].
  unfold puts in *. rewrite omap_app in Hc. apply (chain_prefix _ _) in Hc. by rewrite Hc, Hj, Hf.
Qed.

(** The chunks are what the block job leaves: a block job removes chunks older than its cutoff only. *)
Lemma chunk_kept shard ops n ts b : history_ok ops = true -> committed ops n ts b ->
  (forall c', PBlockJob c' ∈ ops -> c' <= ts) -> chunk_at (prun shard ops) n ts b.
Proof.
  revert n ts b. induction ops as [|o ops IH] using rev_ind; intros n ts b Hok Hin Hjobs; [destruct Hin as [evs H]; by apply elem_of_nil in H|].
  pose proof (history_prefix _ _ Hok) as Hok'.
  destruct (history_parts _ Hok) as (H1 & H2 & _). destruct (history_parts _ Hok') as (H1' & H2' & _).
  unfold chunk_at. rewrite run_chunks. unfold bops. rewrite omap_app.
  assert (Hold : committed ops n ts b -> chunk_at (prun shard ops) n ts b).
  { intros Hin'. apply IH; [done|done|]. intros c' Hc'. apply Hjobs. apply elem_of_app. by left. }
  destruct o as [n' ts' b' evs'|c|c]; cbn [omap list_omap bop_of].
  - (* a new block *)
    pose proof (binv_run RP_Shard shard ltac:(done) (bops (ops ++ [PBlock n' ts' b' evs'])) H1 H2) as [lo HI].
    assert (Hst : forall n ts b, (n, ts, b) ∈ puts (bops (ops ++ [PBlock n' ts' b' evs'])) -> lo <= n ->
      stored RP_Shard (brun RP_Shard shard (bops (ops ++ [PBlock n' ts' b' evs']))) n ts b).
    { intros n1 ts1 b1 Hi Hl. by apply (bi_block _ _ _ _ _ HI). }
    unfold bops in Hst. rewrite omap_app in Hst. cbn [omap list_omap bop_of] in Hst.
    destruct Hin as [evs [Hin|Hin]%elem_of_app].
    + specialize (Hold (ex_intro _ evs Hin)). unfold chunk_at in Hold. rewrite run_chunks in Hold. unfold bops in Hold.
      unfold brun in *. rewrite fold_left_app. cbn [fold_left bstep]. unfold stored in *. unfold put_block. rewrite lookup_commit.
      assert (Hne : block_key RP_Shard n <> block_key RP_Shard n').
      { intros Hk. pose proof (committed_puts ops n ts b) as Hcp. assert (Hi : (n, ts, b) ∈ puts (bops ops)) by (apply Hcp; by exists evs).
        unfold bops in H1. rewrite omap_app in H1. unfold puts in H1. rewrite omap_app in H1. cbn [omap list_omap bop_of bput] in H1.
        apply (chain_app _ _) in H1 as (_ & Hin64 & Hb). specialize (Hb _ Hi). unfold before in Hb. cbn in Hb.
        pose proof (chain_in _ _ H1' Hi) as [Hn64 _]. cbn in Hn64.
        apply block_key_inj in Hk; [lia|done|]. unfold in64 in Hin64. cbn in Hin64. lia. }
      assert (Hnt : forall t, block_key RP_Shard n <> ts_key shard t) by (intros t; by apply block_ts_ne).
      destruct (fold_left (bstep RP_Shard shard) (omap bop_of ops) ∅ !! ts_key shard ts').
      * rewrite tget_put_ne by done. by rewrite tget_empty.
      * rewrite tget_put_ne by done. rewrite tget_put_ne by done. by rewrite tget_empty.
    + apply elem_of_list_singleton in Hin. injection Hin as -> -> -> ->.
      unfold brun. rewrite fold_left_app. cbn [fold_left bstep]. unfold stored, put_block. rewrite lookup_commit.
      destruct (_ !! ts_key shard ts').
      * apply tget_put.
      * rewrite tget_put_ne by (apply not_eq_sym; by apply block_ts_ne). apply tget_put.
  - (* a block job *)
    assert (Hin' : committed ops n ts b).
    { destruct Hin as [evs [Hin|Hin]%elem_of_app]; [by exists evs|]. apply elem_of_list_singleton in Hin. done. }
    specialize (Hold Hin'). unfold chunk_at in Hold. rewrite run_chunks in Hold.
    assert (Hcl : c < 2 ^ 64).
    { unfold bops in H2. rewrite omap_app, forallb_app in H2. apply andb_prop in H2 as [_ H2]. cbn in H2. lia. }
    pose proof (C57_job_exact RP_Shard shard (bops ops) c ltac:(done) H1' H2' Hcl) as Hj. cbv zeta in Hj.
    change (omap bop_of ops) with (bops ops). destruct (next_height_by_ts shard (brun RP_Shard shard (bops ops)) c) as [[h|]| |];
      [|rewrite Hj; done..].
    apply Hj. split; [done|]. apply Hjobs. apply elem_of_app. right. by left.
  - rewrite app_nil_r. change (omap bop_of ops) with (bops ops). rewrite <- run_chunks. apply Hold.
    destruct Hin as [evs [Hin|Hin]%elem_of_app]; [by exists evs|]. apply elem_of_list_singleton in Hin. done.
Qed.

(** Blocks kept at least as long as events: if no block job so far had a cutoff after [c] and some block is not older
    than [c], the event job removes exactly the events of blocks older than [c]. *)
Theorem C77_retention : forall shard ops c, history_ok ops = true -> c < 2 ^ 64 ->
  (forall c', PBlockJob c' ∈ ops -> c' <= c) -> (exists n ts b, committed ops n ts b /\ c <= ts) ->
  forall n ts b q, committed ops n ts b -> q < 2 ^ 14 ->
  event_at (prun shard (ops ++ [PEventJob c])) n q = if c <=? ts then event_at (prun shard ops) n q else None.
Proof.
  intros shard ops c Hok Hc Hjobs (n0 & ts0 & b0 & Hin0 & Hle0).
  destruct (C77_event_job shard ops c Hok Hc) as (_ & H & _). destruct (history_parts ops Hok) as (H1 & _ & _).
  (* the first block at or after the cutoff *)
  assert (Hmin : exists n ts b, committed ops n ts b /\ c <= ts /\ forall n' ts' b', committed ops n' ts' b' -> c <= ts' -> n <= n').
  { clear H. revert n0 ts0 b0 Hin0 Hle0.
    assert (Hw : forall (k : nat) n0 ts0 b0, (N.to_nat n0 < k)%nat -> committed ops n0 ts0 b0 -> c <= ts0 ->
      exists n ts b, committed ops n ts b /\ c <= ts /\ forall n' ts' b', committed ops n' ts' b' -> c <= ts' -> n <= n').
    { induction k as [|k IHk]; intros n0 ts0 b0 Hlt Hin Hle; [lia|].
      destruct (existsb (fun p => (c <=? p.1.2) && (p.1.1 <? n0)) (puts (bops ops))) eqn:Ex.
      - apply existsb_exists in Ex as ([[n1 ts1] b1] & Hi & Hx). cbn in Hx. apply (IHk n1 ts1 b1); [lia| |lia].
        apply committed_puts. by apply elem_of_list_In.
      - exists n0, ts0, b0. split; [done|]. split; [done|]. intros n' ts' b' Hi' Hle'. destruct (N.le_gt_cases n0 n') as [|Hl]; [done|].
        exfalso. apply committed_puts, elem_of_list_In in Hi'.
        assert (Ht : existsb (fun p => (c <=? p.1.2) && (p.1.1 <? n0)) (puts (bops ops)) = true).
        { apply existsb_exists. exists (n', ts', b'). split; [done|]. cbn. lia. }
        congruence. }
    intros n0 ts0 b0 Hi0 Hl0. apply (Hw (S (N.to_nat n0)) n0 ts0 b0 ltac:(lia) Hi0 Hl0). }
  destruct Hmin as (n1 & ts1 & b1 & Hin1 & Hle1 & Hm1). intros n ts b q Hin Hq.
  refine (H n1 ts1 b1 Hin1 Hle1 Hm1 _ n ts b q Hin Hq).
  apply chunk_kept; [done|done|]. intros c' Hc'. specialize (Hjobs c' Hc'). lia.
Qed.

(** A removed chunk never comes back. *)
Lemma chain_before h1 h2 x y : chain (h1 ++ h2) = true -> x ∈ h1 -> y ∈ h2 -> before x y = true.
Proof.
  induction h2 as [|z h2 IH] using rev_ind; intros Hc Hx Hy; [by apply elem_of_nil in Hy|].
  rewrite app_assoc in Hc. apply chain_app in Hc as (Hc & _ & Hb).
  apply elem_of_app in Hy as [Hy|Hy]; [by apply IH|]. apply elem_of_list_singleton in Hy as ->. apply Hb, elem_of_app. by left.
Qed.
Lemma committed_app ops more n ts b : committed (ops ++ more) n ts b <-> committed ops n ts b \/ committed more n ts b.
Proof.
  unfold committed. split.
  - intros [evs [H|H]%elem_of_app]; [left|right]; by exists evs.
  - intros [[evs H]|[evs H]]; exists evs; apply elem_of_app; [by left|by right].
Qed.
Lemma committed_before ops more n ts b n' ts' b' : history_ok (ops ++ more) = true ->
  committed ops n ts b -> committed more n' ts' b' -> n < n' /\ ts <= ts'.
Proof.
  intros Hok H H'. destruct (history_parts _ Hok) as (Hc & _ & _). unfold bops, puts in Hc. rewrite !omap_app in Hc.
  apply committed_puts in H, H'. pose proof (chain_before _ _ _ _ Hc H H') as Hb. unfold before in Hb. cbn in Hb. lia.
Qed.
Lemma gone shard ops more n ts b : history_ok (ops ++ more) = true -> committed ops n ts b ->
  ~ chunk_at (prun shard ops) n ts b -> ~ chunk_at (prun shard (ops ++ more)) n ts b.
Proof.
  induction more as [|o more IH] using rev_ind; intros Hok Hin Hno; [by rewrite app_nil_r|].
  rewrite app_assoc in *. pose proof (history_prefix _ _ Hok) as Hok'. specialize (IH Hok' Hin Hno).
  destruct (history_parts _ Hok) as (H1 & H2 & H50). destruct (history_parts _ Hok') as (H1' & H2' & _).
  intros Hst. apply IH. unfold chunk_at in *. rewrite run_chunks in *. unfold bops in *. rewrite omap_app in Hst.
  assert (Hin' : committed (ops ++ more) n ts b) by (apply committed_app; by left).
  destruct o as [n' ts' b' evs'|c|c]; cbn [omap list_omap bop_of] in Hst.
  - destruct (committed_before (ops ++ more) [PBlock n' ts' b' evs'] n ts b n' ts' b' Hok Hin') as [Hlt _]; [exists evs'; by left|].
    assert (Hn : n < 2 ^ 50) by (apply (H50 n ts b); apply committed_app; by left).
    assert (Hn' : n' < 2 ^ 50) by (apply (H50 n' ts' b'); apply committed_app; right; exists evs'; by left).
    unfold brun in Hst |- *. rewrite fold_left_app in Hst. cbn [fold_left bstep] in Hst. unfold stored in *. unfold put_block in Hst. rewrite lookup_commit in Hst.
    assert (Hne : block_key RP_Shard n' <> block_key RP_Shard n) by (intros Hk; apply block_key_inj in Hk; lia).
    assert (Hnt : forall t, ts_key shard t <> block_key RP_Shard n) by (intros t; apply not_eq_sym; by apply block_ts_ne).
    destruct (fold_left (bstep RP_Shard shard) (omap bop_of (ops ++ more)) ∅ !! ts_key shard ts').
    + rewrite tget_put_ne in Hst by done. by rewrite tget_empty in Hst.
    + rewrite tget_put_ne in Hst by done. rewrite tget_put_ne in Hst by done. by rewrite tget_empty in Hst.
  - assert (Hcl : c < 2 ^ 64).
    { rewrite omap_app, forallb_app in H2. apply andb_prop in H2 as [_ H2]. cbn in H2. lia. }
    pose proof (C57_job_exact RP_Shard shard (bops (ops ++ more)) c ltac:(done) H1' H2' Hcl) as Hj. cbv zeta in Hj.
    change (omap bop_of (ops ++ more)) with (bops (ops ++ more)) in *.
    destruct (next_height_by_ts shard (brun RP_Shard shard (bops (ops ++ more))) c) as [[h|]| |]; [|rewrite <- Hj; done..].
    by apply Hj in Hst as [Hst _].
  - by rewrite app_nil_r in Hst.
Qed.

(** Blocks kept for a shorter time than events: once a block job has removed blocks up to [c'], every later run of the
    event job with a cutoff [c] below a removed block runs into the stale time index and removes nothing at all,
    whatever happens in between. *)
Theorem C77_stuck_refuted : forall shard ops more c c' n ts b, history_ok (ops ++ [PBlockJob c'] ++ more) = true -> c < 2 ^ 64 ->
  committed ops n ts b -> c <= ts -> ts < c' ->
  (exists h, next_height_by_ts shard (p_chunks (prun shard ops)) c' = Ok (Some h)) ->
  prun shard (ops ++ [PBlockJob c'] ++ more ++ [PEventJob c]) = prun shard (ops ++ [PBlockJob c'] ++ more).
Proof.
  intros shard ops more c c' n ts b Hok Hc Hin Hle Hlt [h Hn].
  rewrite !app_assoc in *. set (all := (ops ++ [PBlockJob c']) ++ more) in *.
  destruct (C77_event_job shard all c Hok Hc) as (_ & _ & H). apply H. clear H.
  intros n1 ts1 b1 Hin1 Hle1 Hm1 Hst.
  assert (Hnn : n1 <= n) by (apply (Hm1 n ts b); [|done]; apply committed_app; left; apply committed_app; by left).
  pose proof (history_prefix _ _ Hok) as Hok1. pose proof (history_prefix _ _ Hok1) as Hok0.
  destruct (history_parts _ Hok0) as (H1 & H2 & _).
  assert (Hc' : c' < 2 ^ 64).
  { destruct (history_parts _ Hok1) as (_ & H2' & _). unfold bops in H2'. rewrite omap_app, forallb_app in H2'.
    apply andb_prop in H2' as [_ H2']. cbn in H2'. lia. }
  assert (Hin1' : committed ops n1 ts1 b1).
  { apply committed_app in Hin1 as [Hin1|Hin1].
    - apply committed_app in Hin1 as [Hin1|[evs Hin1]]; [done|]. by apply elem_of_list_singleton in Hin1.
    - exfalso. destruct (committed_before _ _ n ts b n1 ts1 b1 Hok) as [Hx _]; [apply committed_app; by left|done|lia]. }
  assert (Hts1 : ts1 < c').
  { pose proof (proj1 (committed_puts _ _ _ _) Hin1') as Hp1. pose proof (proj1 (committed_puts _ _ _ _) Hin) as Hp.
    destruct (chain_ordered _ _ _ H1 Hp1 Hp) as [He|[Hb|Hb]].
    - injection He as -> -> ->. lia.
    - unfold before in Hb. cbn in Hb. lia.
    - unfold before in Hb. cbn in Hb. lia. }
  revert Hst. apply gone; [done|apply committed_app; by left|].
  intros Hst. pose proof (C57_job_exact RP_Shard shard (bops ops) c' ltac:(done) H1 H2 Hc') as Hj. cbv zeta in Hj.
  rewrite run_chunks in Hn. rewrite Hn in Hj.
  unfold chunk_at in Hst. rewrite run_chunks in Hst. unfold bops in Hst. rewrite omap_app in Hst. cbn [omap list_omap bop_of] in Hst.
  apply Hj in Hst as [_ Hts]. lia.
Qed.

(** Ten blocks, one per second, two events each. *)
Definition tenblocks : list pop := map (fun i => PBlock i (100 + i) i [(0, i); (1, 50 + i)]) [1; 2; 3; 4; 5; 6; 7; 8; 9; 10].
Definition left_of (st : pst) : list N := List.filter (fun n => match event_at st n 1 with Some _ => true | None => false end) [1; 2; 3; 4; 5; 6; 7; 8; 9; 10].
Example C77_retention_ex :
  history_ok tenblocks = true /\ left_of (prun 1 (tenblocks ++ [PEventJob 106])) = [6; 7; 8; 9; 10] /\
  left_of (prun 1 (tenblocks ++ [PBlockJob 104; PEventJob 106])) = [6; 7; 8; 9; 10].
Proof. vm_compute. repeat split. Qed.
(** Blocks kept 2 seconds, events 5: no event is ever removed. *)
Example C77_stuck_ex :
  history_ok (tenblocks ++ [PBlockJob 109] ++ [PBlock 11 111 11 []; PBlockJob 110; PEventJob 102]) = true /\
  next_height_by_ts 1 (p_chunks (prun 1 tenblocks)) 109 = Ok (Some 9) /\
  left_of (prun 1 (tenblocks ++ [PBlockJob 109] ++ [PBlock 11 111 11 []; PBlockJob 110; PEventJob 102] ++ [PEventJob 106])) = [1; 2; 3; 4; 5; 6; 7; 8; 9; 10].
Proof. vm_compute. repeat split. Qed.

Print Assumptions C77_event_job.
Print Assumptions C77_retention.
Print Assumptions C77_stuck_refuted.
