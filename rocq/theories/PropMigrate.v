(** Properties C69-C71: the background migration of the by-address index, the migration runner, and the owner of an
    address. *)
From Coq Require Import ZifyN ZifyNat ZifyBool.
From Verif Require Import MigrateLookup.
#[local] Open Scope N_scope.

(** Where everything starts: a database in order, of an older schema or already migrated; no migration running. *)
Definition g_init (ev : bytes -> option (option N)) (s : gstate) : Prop :=
  wf ev (g_db s) /\ g_run s = RIdle /\ (2 <= schema_version (g_db s) -> mirrors (g_db s)).
Lemma g_init_inv ev chunk s : g_init ev s -> ginv ev chunk s.
Proof. intros (W & Hr & V). split; [done|]. split; [done|]. by rewrite Hr. Qed.
Lemma reachable_inv ev chunk s ls s' : g_init ev s -> allowed ev chunk s ls -> g_run_all ev chunk s ls = Some s' -> ginv ev chunk s'.
Proof. intros H Ha E. by eapply g_run_inv; [apply g_init_inv| |]. Qed.

(** C69. The iterator yields exactly the registered fids, each once and in ascending order. *)
Theorem C69_fids : forall ev db, regs_ok ev db -> decodable ev db ->
  exists l, StronglySorted N.lt l /\ (forall f, f ∈ l <-> registered ev db f) /\ forall fuel, (length l <= fuel)%nat -> fids ev fuel db 0 [] = Some l.
Proof.
  intros ev db Hr Hd. destruct (fids_spec ev db Hr Hd (N.to_nat (2 ^ 32 - 0)) 0 []) as (l & H1 & H2 & H3).
  - clear. lia.
  - split; repeat constructor.
  - constructor.
  - intros f _ Hf. by right.
  - exists l. split; [by apply StronglySorted_inv in H1 as [H1 _]|]. split; [|done]. intros f. rewrite H2. split; [tauto|]. intros Hf.
    split; [done|]. destruct Hf as [Hf _]. apply fid_ok_lt in Hf. lia.
Qed.
(** The order of events matters: a page of rows without a registration ends the iteration, whatever follows. *)
Theorem C69_fids_page_refuted : forall ev (db : kv bytes) lst pre post,
  scan db (reg_prefix ++ make_fid_key (lst + 1)) (increment_vec_u8 reg_prefix) (POpts (Some FID_PAGE) None false) = pre ++ post ->
  N.of_nat (length pre) = FID_PAGE -> Forall (fun r => ev r.2 = Some None) pre -> next ev db lst [] = NEnd.
Proof.
  intros ev db lst pre post Hs Hl Hp.
  assert (Hi : forall c, pre <> [] -> N.of_nat (length pre) + c = FID_PAGE -> iterate (fetch_cb ev) (Some FID_PAGE) c (pre ++ post) ([], 0) = Ok ([], 0, true)).
  { clear Hs Hl. induction Hp as [|[k v] pre Hv Hp IH]; intros c Hne Hl; [done|]. cbn [app iterate]. unfold fetch_cb at 1. cbn [snd] in Hv. rewrite Hv.
    cbn [length] in Hl. destruct (N.leb_spec FID_PAGE (c + 1)); [done|]. destruct pre as [|r pre]; [cbn in Hl; lia|]. apply IH; [done|]. lia. }
  unfold next, fetch, for_each_paged. rewrite Hs. rewrite Hi; [done| |by rewrite N.add_0_r]. intros ->. done.
Qed.
(** A registration of the greatest fid of the key space makes the iteration endless. *)
Theorem C69_fids_endless_refuted : forall ev v, ev v = Some (Some (2 ^ 32 - 1)) ->
  forall fuel, fids ev fuel {[ reg_row (2 ^ 32 - 1) [] := v ]} 0 [] = None.
Proof.
  intros ev v Hev. set (db := {[ _ := _ ]}).
  assert (Hn : forall lst, (lst = 0 \/ lst = 2 ^ 32 - 1) -> next ev db lst [] = NFid (2 ^ 32 - 1) []).
  { intros lst Hlst. unfold next, fetch, for_each_paged.
    assert (Es : scan db (reg_prefix ++ make_fid_key (lst + 1)) (increment_vec_u8 reg_prefix) (POpts (Some FID_PAGE) None false) = [(reg_row (2 ^ 32 - 1) [], v)]).
    { destruct Hlst as [->| ->]; unfold db; vm_compute; done. }
    rewrite Es. cbn [iterate]. unfold fetch_cb at 1. rewrite Hev. done. }
  assert (G : forall fuel lst, (lst = 0 \/ lst = 2 ^ 32 - 1) -> fids ev fuel db lst [] = None).
  { induction fuel as [|fuel IH]; intros lst Hlst; cbn [fids]; rewrite Hn by done; [done|]. by rewrite IH by by right. }
  intros fuel. apply G. by left.
Qed.

(** At every moment, whatever blocks, crashes and restarts come in between: an entry of the new form agrees with the
    primary entry.  (The comment at verification_store.rs:332-340 expects stale entries.) *)
Theorem C69_never_wrong : forall ev chunk s ls s', g_init ev s -> allowed ev chunk s ls -> g_run_all ev chunk s ls = Some s' -> never_wrong (g_db s').
Proof. intros ev chunk s ls s' H Ha E. destruct (reachable_inv _ _ _ _ _ H Ha E) as (W & _). by eapply never_wrong_intro. Qed.
(** An entry of the old form is only given up when every primary entry is in the index. *)
Theorem C69_no_early_sweep : forall ev chunk s ls s' l s'', g_init ev s -> allowed ev chunk s (ls ++ [l]) -> g_run_all ev chunk s ls = Some s' ->
  g_step ev chunk s' l = Some s'' -> forall k v, legacy k v -> g_db s' !! k = Some v -> g_db s'' !! k <> Some v ->
  forall f a h, f < 2 ^ 32 -> g_db s' !! adds_key f a = Some h -> g_db s' !! by_key a f = Some h.
Proof.
  intros ev chunk s ls s' l s'' H Ha E El k v Hl Hk Hk' f a h Hf Hh.
  assert (Ha' : allowed ev chunk s ls /\ match l with GLive t => live_ok ev (g_db s') t | GM1 t => m1_ok t | _ => True end).
  { clear H. revert s Ha E. induction ls as [|l0 ls IH]; intros s Ha E; cbn [app allowed g_run_all] in *.
    - injection E as <-. split; [done|]. by destruct Ha as [Ha _].
    - destruct Ha as [H0 Ha]. destruct (g_step ev chunk s l0) as [s1|]; [|done]. destruct (IH s1 Ha E) as [H1 H2]. done. }
  destruct Ha' as [Ha1 Hlab]. destruct (reachable_inv _ _ _ _ _ H Ha1 E) as (W & V & P).
  assert (Hslot : slot (g_db s') k) by by exists v.
  assert (Hcomp : complete (g_db s') -> g_db s' !! by_key a f = Some h).
  { intros Hc. destruct (decide (g_db s' !! by_key a f = Some h)) as [?|Hne]; [done|]. exfalso. apply (Hc f a). by exists h. }
  pose proof Hl as (Hv & b & -> & Hb). destruct s' as [db v0 run]. cbn [g_db g_run] in *.
  assert (Hflag : forall db' w c, (set_flag db' w c) !! (RP_VerByAddress :: b) = db' !! (RP_VerByAddress :: b)) by (intros; unfold set_flag; by rewrite lookup_insert_ne).
  assert (Hset : forall db' w, (set_schema db' w) !! (RP_VerByAddress :: b) = db' !! (RP_VerByAddress :: b)) by (intros; unfold set_schema; by rewrite lookup_insert_ne).
  destruct l as [| |t|t|[|]|]; cbn [g_step g_run g_db g_from] in El.
  - destruct run; try done. injection El as <-. unfold g_start in Hk'. cbn [g_db] in Hk'. destruct (_ <=? _); cbn [g_db] in Hk'; rewrite ?Hflag in Hk'; done.
  - injection El as <-. done.
  - assert (s'' = GState (commit db t) v0 run) as -> by (destruct run; congruence). cbn [g_db] in Hk'. rewrite lookup_commit in Hk'. unfold tget in Hk'.
    destruct (t !! (RP_VerByAddress :: b)) as [x|] eqn:Et; [|done]. destruct (lo_index _ _ _ Hlab b _ Et) as (fid & c & _ & Hc & Ec). by destruct (by_key_slot c fid b).
  - destruct run; try done. injection El as <-. cbn [g_db] in Hk'. rewrite lookup_commit in Hk'. unfold tget in Hk'.
    destruct (t !! (RP_VerByAddress :: b)) as [x|] eqn:Et; [|done]. by destruct (Hlab _ _ Et) as (r & w & ? & _).
  - destruct run; try done. injection El as <-. cbn [g_db] in Hk'. by rewrite Hset in Hk'.
  - destruct run; try done. injection El as <-. cbn [g_db] in Hk'. by rewrite Hflag in Hk'.
  - destruct run as [| |p]; try done. apply Hcomp. apply (m2_step_slots ev chunk db p (RP_VerByAddress :: b) W P Hslot).
    intros (w & Hw & Hlw).
    assert (HM : g_db s'' = db \/ g_db s'' !! (RP_VerByAddress :: b) = db !! (RP_VerByAddress :: b) \/ g_db s'' = (m2_step ev chunk db p).1).
    { destruct p; [..|right; left; injection El as <-; cbn [g_db]; by rewrite Hflag, Hset|right; left; injection El as <-; cbn [g_db]; by rewrite Hflag].
      all: right; right; match type of El with (let '(_, _) := ?x in _) = _ => destruct x as [db' p'] eqn:Em end; injection El as <-; done. }
    destruct HM as [HM|[HM|HM]]; [by rewrite HM in Hk'|by rewrite HM in Hk'|]. rewrite HM in Hk'.
    (* a slot that is still there has kept its value *)
    assert (Hsame : db !! (RP_VerByAddress :: b) = Some w); [|congruence].
    clear -W P Hw Hlw Hk Hb. destruct p as [lst q|g q|g q [|x l]|from|l| |]; cbn [m2_step] in Hw; try done.
    + by destruct (next ev db lst q).
    + by destruct (addresses db g).
    + cbn [fst] in Hw. rewrite serial_m2 in Hw. destruct (db !! adds_key g x) as [u|] eqn:Eu; [|done]. destruct (blen u =? TS_LEN); [|done].
      rewrite lookup_commit in Hw. unfold tget in Hw. rewrite lookup_insert_ne, lookup_empty in Hw; [done|].
      assert (Hlt : g < 2 ^ 32). { destruct P as [[_ Hq] _]. apply Forall_cons in Hq as [Hq _]. lia. }
      destruct (wf_adds _ _ W g x u Hlt Eu) as (Hx & _). by apply by_key_slot.
    + destruct (sweep chunk db from) as [[|]| |]; done.
    + cbn [fst] in Hw. rewrite commit_deletes in Hw. by destruct (decide _).
Qed.
(** A finished run has built the exact mirror. *)
Theorem C69_done : forall ev chunk s ls s', g_init ev s -> allowed ev chunk s ls -> g_run_all ev chunk s ls = Some s' -> g_run s' = R2 MDone -> mirrors (g_db s').
Proof.
  intros ev chunk s ls s' H Ha E Hd. destruct (reachable_inv _ _ _ _ _ H Ha E) as (W & _ & P). rewrite Hd in P. destruct P as [Hc Hn].
  by eapply mirrors_intro.
Qed.
(** Running it again changes nothing. *)
Theorem C69_idempotent : forall ev chunk db, wf ev db -> mirrors db -> forall n, (m2_iter ev chunk n db m2_start).1 = db.
Proof. intros ev chunk db W M n. apply m2_iter_idle; [done|done|by eapply m2_start_inv|done]. Qed.
(** Left alone it finishes, from whatever point it has reached. *)
Theorem C69_finishes : forall ev chunk s ls s' p, g_init ev s -> allowed ev chunk s ls -> g_run_all ev chunk s ls = Some s' ->
  g_run s' = R2 p -> p <> MFail -> decodable ev (g_db s') -> exists n, (m2_iter ev chunk n (g_db s') p).2 = MDone.
Proof.
  intros ev chunk s ls s' p H Ha E Hr Hp Hd. destruct (reachable_inv _ _ _ _ _ H Ha E) as (W & _ & P). rewrite Hr in P. by apply m2_finishes.
Qed.
(** Its transaction takes its keys in the order of every other transaction (C68). *)
Theorem C69_lock_order : forall f a, asc [] (m2_prog f a).
Proof.
  intros f a. unfold m2_prog. destruct (adds_cons f a) as [r Hr]. split; [by rewrite Hr|]. intros [v|]; [|done].
  destruct (blen v =? TS_LEN); [|done]. split; [|done]. rewrite Hr. done.
Qed.

(** C70. A schema version of at least two guarantees the exact mirror, whatever happened: blocks, crashes, failed and
    repeated migrations. *)
Theorem C70_version : forall ev chunk s ls s', g_init ev s -> allowed ev chunk s ls -> g_run_all ev chunk s ls = Some s' ->
  2 <= schema_version (g_db s') -> mirrors (g_db s').
Proof. intros ev chunk s ls s' H Ha E. by destruct (reachable_inv _ _ _ _ _ H Ha E) as (_ & V & _). Qed.
(** An interrupted migration never blocks the next start: every state whose events decode can be brought to the latest
    version by restarting. *)
Definition quiet (l : glabel) : bool := match l with GLive _ | GM1 _ => false | _ => true end.
Lemma quiet_allowed ev chunk ls : forallb quiet ls = true -> forall s, allowed ev chunk s ls.
Proof.
  induction ls as [|l ls IH]; intros Hq s; cbn [allowed forallb] in *; [done|]. apply andb_prop in Hq as [Hl Hq]. split; [by destruct l|].
  destruct (g_step ev chunk s l); [by apply IH|done].
Qed.
Lemma g_run_app ev chunk ls1 : forall ls2 s, g_run_all ev chunk s (ls1 ++ ls2) = match g_run_all ev chunk s ls1 with Some s => g_run_all ev chunk s ls2 | None => None end.
Proof. induction ls1 as [|l ls1 IH]; intros ls2 s; cbn [app g_run_all]; [done|]. destruct (g_step ev chunk s l); [apply IH|done]. Qed.
Lemma drive ev chunk n : forall db v0 p, (m2_iter ev chunk n db p).2 = MDone -> exists ls s', forallb quiet ls = true /\
  g_run_all ev chunk (GState db v0 (R2 p)) ls = Some s' /\ schema_version (g_db s') = 2 /\ g_run s' = RIdle.
Proof.
  assert (Hdone : forall db v0, exists ls s', forallb quiet ls = true /\ g_run_all ev chunk (GState db v0 (R2 MDone)) ls = Some s' /\ schema_version (g_db s') = 2 /\ g_run s' = RIdle).
  { intros db v0. exists [GM2]. eexists. split; [done|]. split; [done|]. split; [|done]. cbn [g_db]. rewrite schema_flag. by apply schema_set. }
  induction n as [|n IH]; intros db v0 p H; cbn [m2_iter] in H; [cbn in H; subst p; apply Hdone|].
  destruct (m2_step ev chunk db p) as [db' p'] eqn:Em. destruct (IH db' v0 p' H) as (ls & s' & Hq & Hr & Hv & Hi).
  assert (Hp : p = MDone \/ p = MFail \/ g_step ev chunk (GState db v0 (R2 p)) GM2 = Some (GState db' v0 (R2 p'))).
  { destruct p; [..|by left|by right; left]; right; right; cbn [g_step g_run g_db g_from]; by rewrite Em. }
  destruct Hp as [->|[->|Hp]]; [apply Hdone| |].
  - cbn in Em. injection Em as <- <-. exfalso. clear -H. induction n as [|n IH]; cbn in H; [done|by apply IH].
  - exists (GM2 :: ls), s'. split; [done|]. cbn [g_run_all]. rewrite Hp. done.
Qed.
Theorem C70_restartable : forall ev chunk s ls s', g_init ev s -> allowed ev chunk s ls -> g_run_all ev chunk s ls = Some s' ->
  decodable ev (g_db s') -> exists ls' s'', forallb quiet ls' = true /\ g_run_all ev chunk s' ls' = Some s'' /\ 2 <= schema_version (g_db s'').
Proof.
  intros ev chunk s ls s' H Ha E D. destruct (reachable_inv _ _ _ _ _ H Ha E) as (W & V & P). destruct s' as [db v0 run]. cbn [g_db g_run] in *.
  destruct (N.leb_spec LATEST_SCHEMA (schema_version db)) as [Hv|Hv]; [by exists [], (GState db v0 run)|].
  set (db1 := set_flag db (schema_version db) true).
  destruct (wf_flag ev db (schema_version db) true W) as (W1 & _ & _). fold db1 in W1.
  assert (D1 : decodable ev db1).
  { intros k v Hk Hp. apply (D k v); [|done]. unfold db1, set_flag in Hk. rewrite lookup_insert_ne in Hk; [done|]. intros <-. done. }
  assert (Hs : exists ls1 db2 , forallb quiet ls1 = true /\ g_run_all ev chunk (GState db v0 run) ls1 = Some (GState db2 (schema_version db) (R2 m2_start)) /\ wf ev db2 /\ decodable ev db2).
  { destruct (N.eqb_spec (schema_version db) 0) as [Hz|Hz].
    - exists [GCrash; GStart; GM1End true], (set_schema db1 1). split; [done|]. split.
      + cbn [g_run_all g_step g_run g_db g_from]. unfold g_start. cbn [g_db]. rewrite (proj2 (N.leb_gt _ _) Hv). rewrite (proj2 (N.eqb_eq _ _) Hz). done.
      + destruct (wf_put ev db1 [] (be 4 1) W1 eq_refl) as (W2 & _ & _). split; [done|].
        intros k v Hk Hp. apply (D1 k v); [|done]. unfold set_schema in Hk. rewrite lookup_insert_ne in Hk; [done|]. intros <-. done.
    - exists [GCrash; GStart], db1. split; [done|]. split; [|done].
      cbn [g_run_all g_step g_run g_db g_from]. unfold g_start. cbn [g_db]. rewrite (proj2 (N.leb_gt _ _) Hv). rewrite (proj2 (N.eqb_neq _ _) Hz). done. }
  destruct Hs as (ls1 & db2 & Hq1 & Hr1 & W2 & D2).
  destruct (m2_finishes ev chunk db2 m2_start W2 D2) as [n Hn]; [done|by eapply m2_start_inv|].
  destruct (drive ev chunk n db2 (schema_version db) m2_start Hn) as (ls2 & s2 & Hq2 & Hr2 & Hv2 & _).
  exists (ls1 ++ ls2), s2. split; [by rewrite forallb_app, Hq1, Hq2|]. rewrite g_run_app, Hr1. split; [done|]. by rewrite Hv2.
Qed.

(** C71. The lookup by address lists verifiers only, with their time and hash, through the open batch; ... *)
Theorem C71_lookup_sound : forall ev db t a f h, wf ev db -> live_ok ev db t -> addr_ok a = true ->
  (f, h) ∈ verifications_by_address db t a -> verifies db t a f h.
Proof.
  intros ev db t a f h W L Ha Hin. apply (entry_elem ev) in Hin as (Hf & Ht & Hh); [|done..]. split; [done|].
  destruct (live_step ev db t W L) as (W' & _ & _). rewrite <- lookup_commit in *. unfold by_key in Ht.
  destruct (wf_index _ _ W' _ h Ht) as [[Hv _]|(g & b & Hg & Hb & E & Hadd)]; [lia|]. apply (by_key_inj f a g b) in E as [-> ->]; done.
Qed.
(** ... all of them once the index is complete. *)
Theorem C71_lookup : forall ev db t a f h, wf ev db -> live_ok ev db t -> mirrors db -> addr_ok a = true ->
  (f, h) ∈ verifications_by_address db t a <-> verifies db t a f h.
Proof.
  intros ev db t a f h W L M Ha. split; [by apply (C71_lookup_sound ev)|]. intros [Hf Ht]. apply (entry_elem ev); [done..|]. split; [done|].
  destruct (live_step ev db t W L) as (W' & Hu & Hs). pose proof (mirrors_less ev db (commit db t) W W' Hu Hs M) as M'.
  rewrite <- lookup_commit in *. split; [|by apply (wf_adds _ _ W' f a h)]. unfold by_key. apply M'. exists f, a. done.
Qed.
(** The owner of an address is the verifier with the greatest time and hash, the lower fid on a tie; it is unique. *)
Theorem C71_owner : forall ev db t a, wf ev db -> live_ok ev db t -> mirrors db -> addr_ok a = true ->
  match resolve_owner db t a with Some w => best (verifies db t a) w | None => forall f h, ~ verifies db t a f h end.
Proof.
  intros ev db t a W L M Ha. unfold resolve_owner. set (l := omap _ _).
  assert (Hl : forall f h, (f, h) ∈ l <-> verifies db t a f h).
  { intros f h. unfold l. rewrite elem_of_list_omap. split.
    - intros ([g h0] & Hin & Hg). apply (C71_lookup ev) in Hin as [Hf Ht]; [|done..]. cbn [fst] in Hg. destruct (tget db t (adds_key g a)) eqn:Et; [|done].
      injection Hg as -> ->. by split.
    - intros [Hf Ht]. exists (f, h). split; [by apply (C71_lookup ev)|]. cbn [fst]. by rewrite Ht. }
  pose proof (select_winner_spec l) as Hw. destruct (select_winner l) as [w|].
  - destruct Hw as (h & Hin & Hmax). exists h. split; [by apply Hl|]. intros f h' Hf. apply Hmax. by apply Hl.
  - intros f h Hf. apply Hl in Hf. rewrite Hw in Hf. by apply elem_of_nil in Hf.
Qed.
Theorem C71_owner_sound : forall ev db t a w, wf ev db -> live_ok ev db t -> addr_ok a = true ->
  resolve_owner db t a = Some w -> exists h, verifies db t a w h.
Proof.
  intros ev db t a w W L Ha Hw. unfold resolve_owner in Hw. set (l := omap _ _) in Hw. pose proof (select_winner_spec l) as H. rewrite Hw in H.
  destruct H as (h & Hin & _). unfold l in Hin. apply elem_of_list_omap in Hin as ([g h0] & Hin & Hg). apply (C71_lookup_sound ev) in Hin as [Hf Ht]; [|done..].
  cbn [fst] in Hg. destruct (tget db t (adds_key g a)) eqn:Et; [|done]. injection Hg as -> ->. exists h. by split.
Qed.
Theorem C71_best_unique : forall (P : N -> bytes -> Prop) w w', (forall f h h', P f h -> P f h' -> h = h') -> best P w -> best P w' -> w = w'.
Proof.
  intros P w w' HP (h & Hw & Hb) (h' & Hw' & Hb'). destruct (Hb w' h' Hw') as [H1|[E1 H1]], (Hb' w h Hw) as [H2|[E2 H2]].
  - rewrite (blt_asym _ _ H1) in H2. done.
  - subst h'. by rewrite blt_irrefl in H1.
  - subst h'. by rewrite blt_irrefl in H2.
  - lia.
Qed.

(** Batches as verification merges make them meet [live_ok]. *)
Definition pair_batch (f : N) (a : bytes) (x : option bytes) : batch bytes := <[adds_key f a := x]> (<[by_key a f := x]> ∅).
Lemma live_pair ev db f a x : wf ev db -> addr_ok a = true -> registered ev db f -> (forall h, x = Some h -> blen h = 24) -> live_ok ev db (pair_batch f a x).
Proof.
  intros W Ha Hreg Hx. pose proof Hreg as [Hok _]. apply fid_ok_lt in Hok. assert (Hf : f < 2 ^ 32) by lia. unfold pair_batch. set (t := <[adds_key f a := x]> _).
  assert (Hcase : forall k y, t !! k = Some y -> (k = adds_key f a \/ k = by_key a f) /\ y = x).
  { intros k y Hk. unfold t in Hk. apply lookup_insert_Some in Hk as [[<- <-]|[_ Hk]]; [by split; [left|]|].
    apply lookup_insert_Some in Hk as [[<- <-]|[_ Hk]]; [by split; [right|]|done]. }
  assert (Hreg' : forall g r, t !! reg_row g r = None).
  { intros g r. destruct (t !! reg_row g r) eqn:E; [|done]. apply Hcase in E as [[E|E] _]; destruct (reg_cons g r) as [z Ez]; rewrite Ez in E.
    - destruct (adds_cons f a) as [y Ey]. by rewrite Ey in E.
    - done. }
  assert (Hregp : forall k, is_prefix reg_prefix k = true -> t !! k = None).
  { intros k Hk. apply reg_prefix_head in Hk as [r ->]. destruct (t !! (RP_OnChain :: r)) eqn:E; [|done]. apply Hcase in E as [[E|E] _]; [|done].
    destruct (adds_cons f a) as [y Ey]. by rewrite Ey in E. }
  assert (Hregc : forall g, registered ev db g -> registered ev (commit db t) g).
  { intros g [Hg (rest & v & Hv & Hev)]. split; [done|]. exists rest, v. rewrite lookup_commit. unfold tget. by rewrite Hreg'. }
  split.
  - intros k v Hk. apply Hcase in Hk as [[->| ->] _]; [|by apply by_key_bytes]. unfold adds_key, adds_prefix, make_user_key, make_fid_key.
    rewrite !bytes_ok_app. change (bytes_ok (RP_User :: be 4 f)) with (true && bytes_ok (be 4 f)). rewrite be_ok, (addr_bytes a Ha). done.
  - intros g b Hg Hb. unfold t. destruct (decide (adds_key f a = adds_key g b)) as [E|Hne].
    + apply adds_key_inj in E as [<- <-]; [|done..]. rewrite lookup_insert_ne by by destruct (adds_cons f a) as [y ->]. by rewrite !lookup_insert.
    + rewrite (lookup_insert_ne _ (adds_key f a) (adds_key g b)) by done. rewrite (lookup_insert_ne _ (adds_key f a) (by_key b g)) by by destruct (adds_cons f a) as [y ->].
      rewrite (lookup_insert_ne _ (by_key a f) (adds_key g b)) by by destruct (adds_cons g b) as [y ->]. rewrite lookup_empty.
      rewrite lookup_insert_ne; [done|]. intros E. apply by_key_inj in E as [-> ->]; done.
  - intros k y Hk. apply Hcase in Hk as [[E|E] _]; [by destruct (adds_cons f a) as [z Ez]; rewrite Ez in E|]. by exists f, a.
  - intros g r v Hg Hk. apply Hcase in Hk as [[E|E] Ev]; [|by destruct (adds_cons g r) as [z Ez]; rewrite Ez in E].
    apply adds_key_inj in E as [-> ->]; [|done..]. split; [done|]. split; [by apply Hx|]. by apply Hregc.
  - intros k Hk. by rewrite Hregp.
  - intros k v v' Hk. by rewrite Hregp.
  - intros k v Hk Hp. rewrite lookup_commit in Hk. unfold tget in Hk. rewrite Hregp in Hk by done.
    destruct (wf_regs _ _ W k v Hk Hp) as (g & rest & H1 & H2 & H3 & rest' & v' & H4 & H5 & H6).
    exists g, rest. split; [done|]. split; [done|]. split; [done|]. exists rest', v'. split; [|done]. rewrite lookup_commit. unfold tget. by rewrite Hreg'.
  - intros k. destruct (t !! (RP_Schema :: k)) eqn:E; [|done]. apply Hcase in E as [[E|E] _]; [by destruct (adds_cons f a) as [z Ez]; rewrite Ez in E|done].
Qed.

(** The hypotheses are satisfiable: two verifiers of one address, a slot of the old form; one of them removes the
    verification in the middle of the run, then the process restarts. *)
Definition ex_ev (v : bytes) : option (option N) := match v with [f] => Some (Some f) | _ => Some None end.
Definition ex_addr : bytes := repeat 7 20.
Definition ex_h (x : N) : bytes := repeat x 24.
Definition ex_db : kv bytes := <[reg_row 1 [] := [1]]> (<[reg_row 2 [] := [2]]> (<[adds_key 1 ex_addr := ex_h 1]>
  (<[adds_key 2 ex_addr := ex_h 2]> (<[RP_VerByAddress :: ex_addr := be 4 2]> ∅)))).
Definition ex_before : list glabel := [GStart; GM1End true; GM2; GM2; GM2; GM2].
Definition ex_after : list glabel := [GCrash; GStart] ++ repeat GM2 12.
Lemma ex_wf : wf ex_ev ex_db.
Proof.
  assert (Hc : forall k v, ex_db !! k = Some v -> (k = reg_row 1 [] /\ v = [1]) \/ (k = reg_row 2 [] /\ v = [2]) \/ (k = adds_key 1 ex_addr /\ v = ex_h 1) \/
    (k = adds_key 2 ex_addr /\ v = ex_h 2) \/ (k = RP_VerByAddress :: ex_addr /\ v = be 4 2)).
  { intros k v H. unfold ex_db in H. do 5 (apply lookup_insert_Some in H as [[<- <-]|[_ H]]; [tauto|]). done. }
  split.
  - intros k v H. apply Hc in H. clear Hc. destruct H as [[-> _]|[[-> _]|[[-> _]|[[-> _]|[-> _]]]]]; vm_compute; reflexivity.
  - intros k v H Hp. apply Hc in H. clear Hc. destruct H as [[-> ->]|[[-> ->]|[[-> ->]|[[-> ->]|[-> ->]]]]]; [| |vm_compute in Hp; discriminate Hp..].
    + exists 1, []. split; [reflexivity|]. split; [reflexivity|]. split; [by intros f [= <-]|]. exists [], [1].
      split; [vm_compute; reflexivity|]. split; [reflexivity|]. apply ble_refl.
    + exists 2, []. split; [reflexivity|]. split; [reflexivity|]. split; [by intros f [= <-]|]. exists [], [2].
      split; [vm_compute; reflexivity|]. split; [reflexivity|]. apply ble_refl.
  - intros f r v Hf H. apply Hc in H. clear Hc. destruct H as [[E _]|[[E _]|[[E ->]|[[E ->]|[E _]]]]].
    1, 2, 5: destruct (adds_cons f r) as [z Ez]; rewrite Ez in E; discriminate E.
    all: apply adds_key_inj in E as [-> ->]; [|exact Hf|reflexivity]; split; [vm_compute; reflexivity|]; split; [vm_compute; reflexivity|].
    + split; [reflexivity|]. exists [], [1]. split; [vm_compute; reflexivity|reflexivity].
    + split; [reflexivity|]. exists [], [2]. split; [vm_compute; reflexivity|reflexivity].
  - intros k v H. apply Hc in H. clear Hc. destruct H as [[E _]|[[E _]|[[E _]|[[E _]|[E ->]]]]]; try discriminate E. left. split; [reflexivity|].
    exists ex_addr. split; [exact E|]. vm_compute. reflexivity.
Qed.
Lemma allowed_live ev chunk t ls2 : forall ls1 s, forallb quiet ls1 = true -> forallb quiet ls2 = true ->
  (forall s', g_run_all ev chunk s ls1 = Some s' -> live_ok ev (g_db s') t) -> allowed ev chunk s (ls1 ++ GLive t :: ls2).
Proof.
  induction ls1 as [|l ls1 IH]; intros s H1 H2 H; cbn [app allowed].
  - split; [by apply H|]. by apply quiet_allowed.
  - cbn [forallb] in H1. apply andb_prop in H1 as [Hl H1]. split; [by destruct l|]. cbn [g_run_all] in H. destruct (g_step ev chunk s l); [by apply IH|done].
Qed.
Lemma ex_keeps : match g_run_all ex_ev 1 (GState ex_db 0 RIdle) ex_before with Some s => bool_decide (g_db s !! reg_row 1 [] = Some [1]) | None => false end = true.
Proof. vm_compute. reflexivity. Qed.
Lemma ex_init : g_init ex_ev (GState ex_db 0 RIdle).
Proof. split; [apply ex_wf|]. split; [reflexivity|]. intros H. vm_compute in H. by destruct H. Qed.
Example C69_satisfiable :
  let s := GState ex_db 0 RIdle in let t := pair_batch 1 ex_addr None in
  g_init ex_ev s /\ allowed ex_ev 1 s (ex_before ++ GLive t :: ex_after) /\
  match g_run_all ex_ev 1 s (ex_before ++ GLive t :: ex_after) with
  | Some s => (schema_version (g_db s) =? 2) && bool_decide (g_db s !! by_key ex_addr 2 = Some (ex_h 2)) &&
      bool_decide (g_db s !! by_key ex_addr 1 = None) && bool_decide (g_db s !! (RP_VerByAddress :: ex_addr) = None) &&
      bool_decide (resolve_owner (g_db s) ∅ ex_addr = Some 2)
  | None => false
  end = true.
Proof.
  cbv zeta. split; [apply ex_init|]. split; [|vm_compute; reflexivity].
  apply allowed_live; [reflexivity|reflexivity|]. intros s' E.
  assert (Hr : g_db s' !! reg_row 1 [] = Some [1]). { pose proof ex_keeps as Hb. rewrite E in Hb. by apply bool_decide_eq_true in Hb. }
  apply reachable_inv in E as (W & _); [|apply ex_init|apply quiet_allowed; reflexivity].
  apply live_pair; [exact W|vm_compute; reflexivity| |discriminate]. split; [reflexivity|]. exists [], [1]. split; [exact Hr|reflexivity].
Qed.
Example C70_satisfiable : decodable ex_ev ex_db.
Proof. intros k v _ _. unfold ex_ev. destruct v as [|x [|]]; done. Qed.
Example C71_satisfiable : let db := <[by_key ex_addr 1 := ex_h 1]> (<[by_key ex_addr 2 := ex_h 2]> ex_db) in
  bool_decide (verifications_by_address db ∅ ex_addr = [(1, ex_h 1); (2, ex_h 2)]) &&
  bool_decide (verifications_by_address db (pair_batch 2 ex_addr None) ex_addr = [(1, ex_h 1)]) &&
  bool_decide (resolve_owner db ∅ ex_addr = Some 2) && bool_decide (resolve_owner db (pair_batch 2 ex_addr None) ex_addr = Some 1) = true.
Proof. by vm_compute. Qed.

Print Assumptions C69_fids.
Print Assumptions C69_fids_endless_refuted.
Print Assumptions C69_never_wrong.
Print Assumptions C69_no_early_sweep.
Print Assumptions C69_done.
Print Assumptions C69_idempotent.
Print Assumptions C69_finishes.
Print Assumptions C70_version.
Print Assumptions C70_restartable.
Print Assumptions C71_lookup.
Print Assumptions C71_owner.
