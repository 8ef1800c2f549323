(** Lemmas for C76. *)
From Coq Require Import ZifyN ZifyNat ZifyBool.
From Verif Require Import Base Codec CodecProofs Kv Paging PagingProofs EventApi.
#[local] Open Scope N_scope.

(** ** Pages *)

(** The chunks of a shard are stored under their own block number. *)
Definition chunks_ok (cs : chunks) : Prop := forall b c, cs b = Some c -> c.1 = b.
Definition ann (s : shardst) (e : hev) : hev :=
  rewrite_hub_event e (sh_id s) (option_map snd (sh_chunks s (extract_height_and_seq (he_id e)).1)).

Lemma annotate_fst cs shard last l : chunks_ok cs -> (forall c, last = Some c -> cs c.1 = Some c) ->
  (annotate cs shard last l).1 = map (fun e => rewrite_hub_event e shard (option_map snd (cs (extract_height_and_seq (he_id e)).1))) l.
Proof.
  intros Hcs. revert last. induction l as [|e l IH]; intros last Hl; [done|]. cbn [annotate map].
  set (b := (extract_height_and_seq (he_id e)).1).
  set (last' := if match last with Some c => negb (b =? c.1) | None => true end then cs b else last).
  assert (E : last' = cs b).
  { unfold last'. destruct last as [c|]; [|done]. destruct (N.eqb_spec b c.1) as [E|]; [|done]. cbn [negb].
    rewrite E. symmetry. by apply Hl. }
  assert (Hl' : forall c, last' = Some c -> cs c.1 = Some c).
  { intros c. rewrite E. intros H. by rewrite (Hcs _ _ H). }
  specialize (IH last' Hl'). destruct (annotate cs shard last' l) as [r' x]. cbn [fst] in *. by rewrite IH, E.
Qed.

Section Pg.
  Context {V A : Type} (mk : bytes -> V -> A).
  Lemma limited_total (db : kv V) start stop po : start <> [] ->
    exists r, list_limited (fun k v => Some (mk k v)) (fun _ => true) db start stop po = Ok r.
  Proof.
    intros Hst. rewrite limited_filtered by done.
    assert (Hd : decodes (fun k v => Some (mk k v)) (scan db start stop po)).
    { apply Forall_forall. intros x _. by eexists. }
    destruct (page_split _ (fun _ => true) db start stop po Hst Hd) as [[_ ->]|(pre & k & v & suf & _ & _ & ->)]; by eexists.
  Qed.
End Pg.

Lemma event_key_nonempty i : make_event_key i <> [].
Proof. done. Qed.
Lemma get_events_total (db : kv hev) start stop po : exists r, get_events (fun _ e => Some e) db start stop po = Ok r.
Proof. unfold get_events. by apply (limited_total (fun _ e => e)). Qed.

(** The page a shard returns for a token. *)
Definition pgf (rq : ereq) (s : shardst) (t : option bytes) : list hev * option bytes :=
  match get_events_from_store s (rq_start rq) (rq_stop rq) (POpts (rq_size rq) t (rq_rev rq)) None with
  | Ok (l, nt, _) => (l, nt)
  | _ => ([], None)
  end.
Lemma pgf_raw rq s t : chunks_ok (sh_chunks s) ->
  exists l nt, get_events (fun _ e => Some e) (sh_db s) (rq_start rq) (rq_stop rq) (POpts (rq_size rq) t (rq_rev rq)) = Ok (l, nt) /\
    pgf rq s t = (map (ann s) l, nt).
Proof.
  intros Hcs. unfold pgf, get_events_from_store.
  destruct (get_events_total (sh_db s) (rq_start rq) (rq_stop rq) (POpts (rq_size rq) t (rq_rev rq))) as [[l nt] E].
  exists l, nt. rewrite E. split; [done|].
  pose proof (annotate_fst (sh_chunks s) (sh_id s) None l Hcs ltac:(done)) as H.
  destruct (annotate _ _ _ _) as [l' x]. cbn [fst] in H. by rewrite H.
Qed.
Lemma shard_pages_eq rq l toks :
  shard_pages rq l toks = Ok (zip_with (pgf rq) l toks).
Proof.
  revert toks. induction l as [|s l IH]; intros [|t toks]; [done..|]. cbn [shard_pages zip_with]. unfold pgf at 1.
  unfold get_events_from_store.
  destruct (get_events_total (sh_db s) (rq_start rq) (rq_stop rq) (POpts (rq_size rq) t (rq_rev rq))) as [[x nt] E].
  rewrite E. destruct (annotate _ _ _ _) as [l' y]. by rewrite IH.
Qed.

(** ** Cycling through the pages of one listing *)
Section Cycle.
  Context {A : Type} (page : option bytes -> list A * option bytes).
  Definition nextt (t : option bytes) : option bytes := (page t).2.
  Definition tokk (k : nat) (t : option bytes) : option bytes := Nat.iter k nextt t.
  Lemma tokk_S k t : tokk (S k) t = tokk k (nextt t).
  Proof. unfold tokk. by rewrite Nat.iter_succ_r. Qed.
  Lemma follow_iter fuel t ps : follow (fun t => Ok (page t)) fuel t = Some (Ok ps) ->
    (1 <= length ps)%nat /\
    forall j, (j < length ps)%nat -> ps !! j = Some (page (tokk j t)).1 /\ (tokk (S j) t = None <-> S j = length ps).
  Proof.
    revert t ps. induction fuel as [|n IH]; intros t ps H; [done|]. cbn [follow] in H.
    destruct (page t) as [l [t'|]] eqn:E.
    - destruct (follow _ n (Some t')) as [[ls| |]|] eqn:E2; try done. injection H as <-.
      destruct (IH _ _ E2) as [H1 H2]. split; [cbn; lia|]. intros j Hj. cbn [length] in Hj.
      assert (En : nextt t = Some t') by (unfold nextt; by rewrite E).
      destruct j as [|j].
      + split; [cbn; by rewrite E|]. cbn [tokk Nat.iter]. change (tokk 1 t) with (nextt t). rewrite En. split; [done|]. cbn. lia.
      + destruct (H2 j ltac:(lia)) as [H3 H4]. rewrite tokk_S, En. cbn [lookup list_lookup length]. split; [done|].
        rewrite tokk_S, En, H4. lia.
    - injection H as <-. split; [done|]. intros j Hj. cbn [length] in Hj. assert (j = 0%nat) as -> by lia.
      split; [cbn; by rewrite E|]. change (tokk 1 t) with (nextt t). unfold nextt. by rewrite E.
  Qed.
  Lemma cycle fuel ps : follow (fun t => Ok (page t)) fuel None = Some (Ok ps) ->
    forall k, ps !! (k mod length ps)%nat = Some (page (tokk k None)).1 /\
      (tokk (S k) None = None <-> (S k mod length ps = 0)%nat).
  Proof.
    intros H k. destruct (follow_iter _ _ _ H) as [H1 H2].
    assert (Hn : tokk (length ps) None = None).
    { destruct (length ps) as [|m] eqn:E; [lia|]. by apply (H2 m ltac:(lia)). }
    assert (Hq : forall q r, tokk (q * length ps + r) None = tokk r None).
    { intros q r. induction q as [|q IH]; [done|]. cbn [Nat.mul].
      replace (length ps + q * length ps + r)%nat with ((q * length ps + r) + length ps)%nat by lia.
      unfold tokk in *. by rewrite Nat.iter_add, Hn. }
    set (n := length ps) in *. pose proof (Nat.mod_upper_bound k n ltac:(lia)) as Hr.
    pose proof (Nat.div_mod k n ltac:(lia)) as Hk.
    replace k with (k / n * n + k mod n)%nat at 2 3 4 by lia. rewrite Hq.
    replace (S (k / n * n + k mod n)) with (k / n * n + S (k mod n))%nat by lia. rewrite Hq.
    destruct (H2 _ Hr) as [H3 H4]. split; [done|]. rewrite H4.
    rewrite Nat.add_comm, Nat.mod_add by lia. split.
    - intros ->. apply Nat.mod_same. lia.
    - intros E. destruct (decide (S (k mod n) = n)) as [|Hne]; [done|]. rewrite Nat.mod_small in E by lia. lia.
  Qed.
End Cycle.

(** ** Rounds *)
Definition all_null (l : list (option bytes)) : bool := forallb (fun t => match t with None => true | Some _ => false end) l.
Lemma all_null_spec l : all_null l = true <-> forall t, t ∈ l -> t = None.
Proof.
  unfold all_null. rewrite forallb_forall. split; intros H t Ht.
  - apply elem_of_list_In in Ht. apply H in Ht. by destruct t.
  - apply elem_of_list_In in Ht. by rewrite (H t Ht).
Qed.

Lemma api_tokens sv rq num stores toks : sel_stores sv (rq_shard rq) = Ok (num, stores) ->
  (rq_token rq = TNone /\ toks = repeat None (N.to_nat num) \/ rq_token rq = TList toks) -> N.of_nat (length toks) = num ->
  api_get_events sv rq = Ok (concat (map fst (zip_with (pgf rq) stores toks)), Some (map snd (zip_with (pgf rq) stores toks))).
Proof.
  intros E Ht Hl. unfold api_get_events. rewrite E. destruct Ht as [[-> ->]| ->]; rewrite (proj2 (N.eqb_eq _ _) Hl); cbn [negb];
    by rewrite shard_pages_eq.
Qed.
Lemma pgf_token rq t s : pgf (with_token rq t) s = pgf rq s.
Proof. done. Qed.

Lemma api_round_eq sv rq num stores : sel_stores sv (rq_shard rq) = Ok (num, stores) -> rq_token rq = TNone ->
  N.of_nat (length stores) = num ->
  forall k, api_round sv rq k = Ok (concat (map (fun s => (pgf rq s (tokk (pgf rq s) k None)).1) stores),
                               Some (map (fun s => tokk (pgf rq s) (S k) None) stores)).
Proof.
  intros E Ht Hl. induction k as [|k IH].
  - cbn [api_round]. rewrite (api_tokens sv rq num stores (repeat None (N.to_nat num)) E); [|by left|].
    2:{ rewrite repeat_length. lia. }
    assert (Hz : forall n, n = length stores -> zip_with (pgf rq) stores (repeat None n) = map (fun s => pgf rq s None) stores).
    { clear. induction stores as [|s l IH]; intros n ->; [done|]. cbn. by rewrite IH. }
    rewrite Hz by lia. by rewrite !map_map.
  - cbn [api_round]. rewrite IH.
    rewrite (api_tokens sv (with_token rq (TList _)) num stores (map (fun s => tokk (pgf rq s) (S k) None) stores) E);
      [|by right|by rewrite map_length].
    assert (Hz : zip_with (pgf rq) stores (map (fun s => tokk (pgf rq s) (S k) None) stores) =
      map (fun s => pgf rq s (tokk (pgf rq s) (S k) None)) stores).
    { clear. induction stores as [|s l IH]; [done|]. cbn [map zip_with]. by rewrite IH. }
    change (pgf (with_token rq (TList (map (fun s => tokk (pgf rq s) (S k) None) stores)))) with (pgf rq).
    rewrite Hz, !map_map. done.
Qed.

(** ** The stored rows of a log *)
Lemma ids_above_spec lo l : ids_above lo l = true ->
  (forall e, e ∈ l -> he_id e < 2 ^ 64 /\ (forall i, lo = Some i -> i < he_id e)) /\ StronglySorted (fun a b => he_id a < he_id b) l.
Proof.
  revert lo. induction l as [|e l IH]; intros lo H.
  - split; [intros e He; by apply elem_of_nil in He|constructor].
  - cbn [ids_above] in H. apply andb_prop in H as [H H2]. apply andb_prop in H as [H H1].
    destruct (IH _ H2) as [H3 H4]. apply N.ltb_lt in H1. split.
    + intros x [->|Hx]%elem_of_cons.
      * split; [done|]. intros i ->. by apply N.ltb_lt.
      * destruct (H3 x Hx) as [H5 H6]. split; [done|]. intros i ->. apply N.ltb_lt in H. specialize (H6 _ eq_refl). lia.
    + constructor; [done|]. apply Forall_forall. intros x Hx. by apply (H3 x Hx).
Qed.

Definition sorted_log (l : list hev) : Prop :=
  StronglySorted (fun a b => he_id a < he_id b) l /\ (forall e, e ∈ l -> he_id e < 2 ^ 64).
Lemma log_app l evs : sorted_log l -> ids_above (last_id l) evs = true ->
  sorted_log (l ++ evs) /\ forall a b, a ∈ l -> b ∈ evs -> he_id a < he_id b.
Proof.
  intros [Hs Hb] H. destruct (ids_above_spec _ _ H) as [H1 H2].
  assert (Hx : forall a b, a ∈ l -> b ∈ evs -> he_id a < he_id b).
  { intros a b Ha Hbb. destruct (H1 b Hbb) as [_ Hlt].
    destruct (last l) as [z|] eqn:El.
    - assert (Hz : he_id z < he_id b). { apply Hlt. unfold last_id. by rewrite El. }
      apply last_Some in El as [l0 ->].
      apply elem_of_app in Ha as [Ha|Ha%elem_of_list_singleton]; [|by subst].
      clear -Hs Ha Hz. induction l0 as [|x l0 IH]; [by apply elem_of_nil in Ha|]. cbn in Hs. apply StronglySorted_inv in Hs as [Hs Hf].
      apply elem_of_cons in Ha as [->|Ha]; [|by apply IH].
      rewrite Forall_forall in Hf. specialize (Hf z). etrans; [|exact Hz]. apply Hf. apply elem_of_app. right. by left.
    - apply last_None in El as ->. by apply elem_of_nil in Ha. }
  split; [|done]. split.
  - clear -Hs H2 Hx. induction l as [|x l IH]; [done|]. cbn. apply StronglySorted_inv in Hs as [Hs Hf]. constructor.
    + apply IH; [done|]. intros a b Ha. apply Hx. by right.
    + apply Forall_app. split; [done|]. apply Forall_forall. intros b Hb. apply Hx; [by left|done].
  - intros e [He|He]%elem_of_app; [by apply Hb|by apply (H1 e He)].
Qed.

Lemma event_key_lex a b : a < 2 ^ 64 -> b < 2 ^ 64 -> lex (make_event_key a) (make_event_key b) = (a ?= b).
Proof. intros Ha Hb. unfold make_event_key. cbn [lex]. rewrite N.compare_refl. by apply be_lex. Qed.
Lemma event_key_stop a : a < 2 ^ 64 -> blt (make_event_key a) (increment_vec_u8 (make_event_key (2 ^ 64 - 1))) = true.
Proof.
  intros Ha. change (increment_vec_u8 (make_event_key (2 ^ 64 - 1))) with (10 :: repeat 0 8). unfold make_event_key, blt. cbn [lex].
  done.
Qed.

(** The lower end of a scan for a start id and a token. *)
Definition above (i : N) (t : option N) (e : hev) : bool := match t with Some j => j <? he_id e | None => i <=? he_id e end.
Lemma scan_log l i t sz : sorted_log l -> i < 2 ^ 64 -> (forall j, t = Some j -> j < 2 ^ 64) ->
  scan (db_of l) (make_event_key i) (increment_vec_u8 (make_event_key (2 ^ 64 - 1))) (POpts sz (option_map make_event_key t) false)
  = map ev_row (List.filter (above i t) l).
Proof.
  intros [Hs Hb] Hi Ht. apply (sorted_unique false).
  - exact (scan_sorted (db_of l) (make_event_key i) _ (POpts sz (option_map make_event_key t) false)).
  - unfold ordered. clear Ht. induction l as [|e l IH]; [constructor|]. apply StronglySorted_inv in Hs as [Hs Hf].
    assert (Hb' : forall e, e ∈ l -> he_id e < 2 ^ 64) by (intros x Hx; apply Hb; by right).
    specialize (IH Hs Hb'). cbn [List.filter]. destruct (above i t e); [|done]. cbn [map]. constructor; [done|].
    apply Forall_forall. intros r Hr. apply elem_of_list_fmap in Hr as (x & -> & Hx).
    apply elem_of_list_In, filter_In in Hx as [Hx _]. apply elem_of_list_In in Hx. unfold klt, blt, ev_row. cbn [fst].
    rewrite Forall_forall in Hf. specialize (Hf x Hx). cbn in Hf.
    rewrite event_key_lex by (apply Hb; (by left) || (by right)). by rewrite (proj2 (N.compare_lt_iff _ _) Hf).
  - intros [k v]. rewrite scan_elem.
    assert (Hnd : NoDup (map ev_row l).*1).
    { clear Ht. induction l as [|e l IH]; [constructor|]. apply StronglySorted_inv in Hs as [Hs Hf]. cbn. constructor.
      - rewrite elem_of_list_fmap. intros ([k' x] & Hk & Hx). apply elem_of_list_fmap in Hx as (y & Ey & Hy). assert (E1 := f_equal fst Ey). assert (E2 := f_equal snd Ey). cbn [fst snd ev_row] in E1, E2. subst k' x.
        rewrite Forall_forall in Hf. specialize (Hf y Hy). cbn in Hf, Hk.
        assert (He := event_key_lex (he_id e) (he_id y) ltac:(apply Hb; by left) ltac:(apply Hb; by right)).
        change (make_event_key (he_id e) = make_event_key (he_id y)) in Hk. rewrite Hk in He. rewrite event_key_lex in He by (apply Hb; by right).
        rewrite N.compare_refl in He. symmetry in He. apply N.compare_eq_iff in He. lia.
      - apply IH; [done|]. intros x Hx. apply Hb. by right. }
    unfold db_of. rewrite <- elem_of_list_to_map by done. rewrite !elem_of_list_fmap. unfold in_bounds.
    assert (Hab : forall x, x ∈ l ->
      (ble (bounds (make_event_key i) (increment_vec_u8 (make_event_key (2 ^ 64 - 1))) (POpts sz (option_map make_event_key t) false)).1 (make_event_key (he_id x)) &&
       blt (make_event_key (he_id x)) (bounds (make_event_key i) (increment_vec_u8 (make_event_key (2 ^ 64 - 1))) (POpts sz (option_map make_event_key t) false)).2)
      = above i t x).
    { intros x Hx. assert (Hxb := Hb x Hx). unfold bounds. cbn [po_reverse po_token]. cbn [fst snd].
      rewrite event_key_stop by done. rewrite andb_true_r. destruct t as [j|]; cbn [option_map above].
      - rewrite blt_snoc0. unfold blt. rewrite event_key_lex by (done || by apply Ht). unfold N.ltb. by destruct (j ?= he_id x).
      - unfold ble. rewrite event_key_lex by done. unfold N.leb. by destruct (i ?= he_id x). }
    split.
    + intros [(x & Ex & Hx) H]. assert (E1 := f_equal fst Ex). assert (E2 := f_equal snd Ex). cbn [fst snd ev_row] in E1, E2. subst k v. exists x. split; [done|]. apply elem_of_list_In, filter_In. split; [by apply elem_of_list_In|].
      rewrite <- (Hab x Hx). exact H.
    + intros (x & Ex & Hx). assert (E1 := f_equal fst Ex). assert (E2 := f_equal snd Ex). cbn [fst snd ev_row] in E1, E2. subst k v. apply elem_of_list_In, filter_In in Hx as [Hx H]. apply elem_of_list_In in Hx.
      split; [by exists x|]. rewrite <- (Hab x Hx) in H. exact H.
Qed.

Lemma entries_rows l : omap (entry (fun (_ : bytes) e => Some e) (fun _ => true)) (map ev_row l) = l.
Proof. induction l as [|e l IH]; [done|]. cbn. by rewrite IH. Qed.
Lemma map_app_inv_row l pre k v suf : map ev_row l = pre ++ (k, v) :: suf ->
  exists p s, l = p ++ v :: s /\ pre = map ev_row p /\ k = make_event_key (he_id v) /\ suf = map ev_row s.
Proof.
  revert pre. induction l as [|e l IH]; intros pre H; [by destruct pre|]. destruct pre as [|r pre].
  - cbn in H. injection H as H1 <- H3. exists [], l. done.
  - cbn in H. injection H as H1 H2. destruct (IH _ H2) as (p & s & -> & -> & -> & ->). exists (e :: p), s. by rewrite <- H1.
Qed.

(** A page of the replay. *)
Lemma page_log l i t : sorted_log l -> i < 2 ^ 64 -> (forall j, t = Some j -> j < 2 ^ 64) ->
  get_events (fun _ e => Some e) (db_of l) i None (POpts None (option_map make_event_key t) false) = Ok (List.filter (above i t) l, None) \/
  exists p v s, List.filter (above i t) l = p ++ v :: s /\
    get_events (fun _ e => Some e) (db_of l) i None (POpts None (option_map make_event_key t) false)
      = Ok (p ++ [v], Some (make_event_key (he_id v))).
Proof.
  intros Hl Hi Ht. unfold get_events. rewrite limited_filtered by done.
  set (po := POpts None (option_map make_event_key t) false).
  set (stop := increment_vec_u8 (make_event_key (2 ^ 64 - 1))).
  assert (Hd : decodes (fun (_ : bytes) (e : hev) => Some e) (scan (db_of l) (make_event_key i) stop po)).
  { apply Forall_forall. intros x _. by eexists. }
  destruct (page_split _ (fun _ => true) (db_of l) (make_event_key i) stop po (event_key_nonempty i) Hd)
    as [[_ H]|(pre & k & v & suf & H1 & _ & H)].
  - left. rewrite H. unfold po, stop. rewrite scan_log by done. by rewrite entries_rows.
  - right. unfold po, stop in H1. rewrite scan_log in H1 by done.
    destruct (map_app_inv_row _ _ _ _ _ H1) as (p & s & E & -> & -> & ->). exists p, v, s. split; [done|].
    rewrite H. change [(make_event_key (he_id v), v)] with (map ev_row [v]). by rewrite <- map_app, entries_rows.
Qed.

(** ** Subscription *)
  Lemma filter_none (P : hev -> bool) l : (forall x, x ∈ l -> P x = false) -> List.filter P l = [].
  Proof.
    induction l as [|x l IH]; intros H; [done|]. cbn. rewrite (H x) by left. apply IH. intros y Hy. apply H. by right.
  Qed.
  Lemma sorted_mid (l : list hev) i j p v u : sorted_log l -> List.filter (above i j) l = p ++ v :: u ->
    List.filter (fun x => above i j x && (he_id x <=? he_id v)) l = p ++ [v].
  Proof.
    intros [Hs _] E.
    assert (Hf : forall (P Q : hev -> bool) l, List.filter (fun x => P x && Q x) l = List.filter Q (List.filter P l)).
    { clear. intros P Q l. induction l as [|x l IH]; [done|]. cbn. destruct (P x); cbn; [destruct (Q x); by rewrite IH|done]. }
    rewrite (Hf (above i j) (fun x => he_id x <=? he_id v)), E.
    assert (Hs' : StronglySorted (fun a b => he_id a < he_id b) (p ++ v :: u)).
    { rewrite <- E. clear -Hs. induction l as [|x l IH]; [constructor|]. apply StronglySorted_inv in Hs as [Hs Hf]. cbn.
      destruct (above i j x); [|by apply IH]. constructor; [by apply IH|]. rewrite Forall_forall in Hf |- *.
      intros y Hy. apply elem_of_list_In, filter_In in Hy as [Hy _]. apply Hf. by apply elem_of_list_In. }
    clear -Hs'. induction p as [|x p IH]; cbn in Hs' |- *.
    - apply StronglySorted_inv in Hs' as [_ Hf]. rewrite N.leb_refl. f_equal. apply filter_none. intros x Hx.
      rewrite Forall_forall in Hf. specialize (Hf x Hx). cbn in Hf. lia.
    - apply StronglySorted_inv in Hs' as [Hs Hf]. rewrite Forall_forall in Hf. specialize (Hf v ltac:(apply elem_of_app; right; left)).
      cbn in Hf. destruct (N.leb_spec (he_id x) (he_id v)); [|lia]. f_equal. by apply IH.
  Qed.
  Lemma filter_split (l : list hev) i j k : sorted_log l -> i <= j ->
    List.filter (fun x => (i <=? he_id x) && (he_id x <=? j)) l ++ List.filter (fun x => (j <? he_id x) && k x) l =
    List.filter (fun x => (i <=? he_id x) && ((he_id x <=? j) || k x)) l.
  Proof.
    intros [Hs _] Hij. induction l as [|x l IH]; [done|]. apply StronglySorted_inv in Hs as [Hs Hf]. cbn.
    destruct (N.leb_spec i (he_id x)); cbn [andb].
    - destruct (N.leb_spec (he_id x) j); cbn [orb].
      + destruct (N.ltb_spec j (he_id x)); [lia|]. cbn [andb]. cbn. f_equal. by apply IH.
      + destruct (N.ltb_spec j (he_id x)); [|lia]. cbn [andb].
        rewrite <- (IH Hs). rewrite (filter_none (fun x => (i <=? he_id x) && (he_id x <=? j))).
        * by destruct (k x).
        * intros y Hy. rewrite Forall_forall in Hf. specialize (Hf y Hy). cbn in Hf. lia.
    - destruct (N.ltb_spec j (he_id x)); [lia|]. cbn [andb]. by apply IH.
  Qed.
Section Sub.
  Variables (cap : nat) (start : option N) (types : list N) (n : nat).
  Hypothesis Hcap : (0 < cap)%nat.
  Hypothesis Hstart : forall i, start = Some i -> i < 2 ^ 64.
  Notation step := (sstep cap start types).
  Notation W := (List.filter (wanted types)).
  Implicit Types (st : sst) (s : nat).

  Lemma filter_tag_same s l : map snd (List.filter (fun p : nat * hev => (p.1 =? s)%nat) (tag types s l)) = W l.
  Proof.
    unfold tag. induction (W l) as [|e r IH]; [done|]. cbn. rewrite Nat.eqb_refl. cbn. by rewrite IH.
  Qed.
  Lemma filter_tag_other s t l : s <> t -> map snd (List.filter (fun p : nat * hev => (p.1 =? s)%nat) (tag types t l)) = [].
  Proof.
    intros Hne. unfold tag. induction (W l) as [|e r IH]; [done|]. cbn. destruct (Nat.eqb_spec t s); [congruence|]. done.
  Qed.
  Lemma got_out f todo tok out t l s :
    got (SSt f todo tok (out ++ tag types t l)) s =
    map snd (List.filter (fun p => (p.1 =? s)%nat) out) ++ (if (s =? t)%nat then W l else []).
  Proof.
    unfold got. cbn [s_out]. rewrite List.filter_app, map_app. f_equal.
    destruct (Nat.eqb_spec s t) as [->|]; [apply filter_tag_same|by apply filter_tag_other].
  Qed.
  Lemma upd_same f s b : upd f s b s = b.
  Proof. unfold upd. by rewrite Nat.eqb_refl. Qed.
  Lemma upd_other f s b t : t <> s -> upd f s b t = f t.
  Proof. intros. unfold upd. by destruct (Nat.eqb_spec t s). Qed.

  (** What the replay has passed on of a shard. *)
  Definition tok_id (t : option bytes) (j : N) : Prop := t = Some (make_event_key j).
  Inductive rpart (st : sst) (s : nat) : list hev -> Prop :=
  | rp_none : start = None -> rpart st s []
  | rp_later i t rest : start = Some i -> s_todo st = t :: rest -> s <> t -> s ∈ rest -> rpart st s []
  | rp_first i rest : start = Some i -> s_todo st = s :: rest -> s_tok st = None -> rpart st s []
  | rp_mid i rest j e : start = Some i -> s_todo st = s :: rest -> s_tok st = Some (make_event_key j) -> i <= j ->
      e ∈ b_log (s_shards st s) -> he_id e = j ->
      rpart st s (W (List.filter (fun x => (i <=? he_id x) && (he_id x <=? j)) (b_log (s_shards st s))))
  | rp_done i : start = Some i -> s ∉ s_todo st ->
      rpart st s (W (List.filter (fun x => i <=? he_id x) (take (b_read (s_shards st s)) (b_log (s_shards st s))))).

  Definition jsh (st : sst) (s : nat) : Prop :=
    let b := s_shards st s in
    sorted_log (b_log b) /\ (b_sent b <= length (b_log b))%nat /\ (b_read b <= length (b_log b))%nat /\
    exists R, rpart st s R /\
      match b_rx b with
      | None => got st s = R
      | Some q => s_todo st = [] /\ (b_from b <= b_sent b)%nat /\ exists G, got st s = R ++ W G /\
          G ++ q `sublist_of` drop (b_from b) (take (b_sent b) (b_log b)) /\
          (length (G ++ q) + b_lag b = b_sent b - b_from b)%nat
      end.
  Definition jinv (st : sst) : Prop :=
    NoDup (s_todo st) /\ (s_todo st = [] -> s_tok st = None) /\ forall s, (s < n)%nat -> jsh st s.

  Lemma jinit : jinv (sinit start n).
  Proof.
    unfold jinv, sinit. cbn. split; [destruct start; [apply NoDup_ListNoDup, seq_NoDup|constructor]|].
    split; [done|]. intros s Hs. unfold jsh. cbn. split; [split; [constructor|intros e He; by apply elem_of_nil in He]|].
    split; [lia|]. split; [lia|]. exists []. split; [|done].
    destruct start as [i|] eqn:E.
    - destruct s as [|s].
      + destruct n as [|m]; [lia|]. eapply (rp_first _ _ i (seq 1 m)); done.
      + destruct n as [|m]; [lia|]. eapply (rp_later _ _ i 0%nat (seq 1 m)); [done|done|lia|].
        apply elem_of_list_In, in_seq. lia.
    - by apply rp_none.
  Qed.

  (** Steps that leave the replay alone. *)
  Lemma rpart_frame st st' s R : s_todo st' = s_todo st -> s_tok st' = s_tok st ->
    b_log (s_shards st' s) = b_log (s_shards st s) -> b_read (s_shards st' s) = b_read (s_shards st s) ->
    rpart st s R -> rpart st' s R.
  Proof.
    intros H1 H2 H3 H4 H. destruct H as [?|i t rest ? ? ? ?|i rest ? ? ?|i rest j e ? ? ? ? ? ?|i ? ?].
    - by apply rp_none.
    - eapply rp_later; [done|by rewrite H1|done|done].
    - eapply rp_first; [done|by rewrite H1|by rewrite H2].
    - rewrite <- H3 in *. eapply rp_mid; [done|by rewrite H1|by rewrite H2|done|done|done].
    - rewrite <- H3, <- H4. eapply rp_done; [done|by rewrite H1].
  Qed.
  Lemma rpart_commit st st' s R evs : s_todo st' = s_todo st -> s_tok st' = s_tok st ->
    b_log (s_shards st' s) = b_log (s_shards st s) ++ evs -> b_read (s_shards st' s) = b_read (s_shards st s) ->
    (b_read (s_shards st s) <= length (b_log (s_shards st s)))%nat ->
    (forall (a b : hev), a ∈ b_log (s_shards st s) -> b ∈ evs -> he_id a < he_id b) ->
    rpart st s R -> rpart st' s R.
  Proof.
    intros H1 H2 H3 H4 H5 H6 H. destruct H as [?|i t rest ? ? ? ?|i rest ? ? ?|i rest j e ? ? ? ? He Hj|i ? ?].
    - by apply rp_none.
    - eapply rp_later; [done|by rewrite H1|done|done].
    - eapply rp_first; [done|by rewrite H1|by rewrite H2].
    - assert (E : List.filter (fun x => (i <=? he_id x) && (he_id x <=? j)) (b_log (s_shards st s)) =
        List.filter (fun x => (i <=? he_id x) && (he_id x <=? j)) (b_log (s_shards st' s))).
      { rewrite H3, List.filter_app, (filter_none _ evs), app_nil_r; [done|]. intros x Hx. specialize (H6 e x He Hx). lia. }
      rewrite E. eapply rp_mid; [done|by rewrite H1|by rewrite H2|done| |exact Hj]. rewrite H3. apply elem_of_app. by left.
    - assert (E : take (b_read (s_shards st s)) (b_log (s_shards st s)) = take (b_read (s_shards st' s)) (b_log (s_shards st' s))).
      { rewrite H3, H4. by rewrite take_app_le. }
      rewrite E. eapply rp_done; [done|by rewrite H1].
  Qed.

  (** A step of one shard does not touch the others. *)
  Lemma jsh_frame st st' s : s_todo st' = s_todo st -> s_tok st' = s_tok st -> s_shards st' s = s_shards st s ->
    got st' s = got st s -> jsh st s -> jsh st' s.
  Proof.
    intros H1 H2 H3 H4 (J1 & J2 & J3 & R & J4 & J5). unfold jsh. rewrite H3. split; [done|]. split; [done|]. split; [done|].
    exists R. split; [apply (rpart_frame st); try done; by rewrite H3|]. rewrite H4. rewrite H1. done.
  Qed.


  Lemma jstep st a : jinv st -> jinv (step st a).
  Proof.
    intros Hst. pose proof Hst as (Hnd & Htk & HJ). destruct a as [s evs|s| |s|s]; cbn [sstep].
    - (* commit *)
      destruct (ids_above (last_id (b_log (s_shards st s))) evs) eqn:Hids; [|done].
      split; [done|]. split; [done|]. intros t Ht. destruct (decide (t = s)) as [->|Hne].
      + destruct (HJ s Ht) as (J1 & J2 & J3 & R & J4 & J5).
        destruct (log_app _ _ J1 Hids) as [H1 H2]. unfold jsh. cbn [s_shards]. rewrite upd_same. cbn [b_log b_sent b_read b_rx b_from b_lag].
        rewrite app_length. split; [done|]. split; [lia|]. split; [lia|]. exists R. split.
        * eapply (rpart_commit st _ s R evs); cbn [s_todo s_tok s_shards]; rewrite ?upd_same; done.
        * rewrite take_app_le by done. exact J5.
      + apply (jsh_frame st); cbn [s_todo s_tok s_shards]; [done|done|by apply upd_other|done|by apply HJ].
    - (* send *)
      destruct (b_log (s_shards st s) !! b_sent (s_shards st s)) as [e|] eqn:He; [|done].
      split; [done|]. split; [done|]. intros t Ht. destruct (decide (t = s)) as [->|Hne].
      + destruct (HJ s Ht) as (J1 & J2 & J3 & R & J4 & J5). pose proof (lookup_lt_Some _ _ _ He) as Hlt.
        unfold jsh. cbn [s_shards s_todo]. rewrite upd_same.
        assert (Hg : forall b', got (SSt (upd (s_shards st) s b') (s_todo st) (s_tok st) (s_out st)) s = got st s) by done.
        destruct (b_rx (s_shards st s)) as [q|] eqn:Eq.
        * destruct J5 as (J5 & J6 & G & J7 & J8 & J9).
          assert (Ht' : drop (b_from (s_shards st s)) (take (S (b_sent (s_shards st s))) (b_log (s_shards st s))) =
            drop (b_from (s_shards st s)) (take (b_sent (s_shards st s)) (b_log (s_shards st s))) ++ [e]).
          { rewrite (take_S_r _ _ _ He), drop_app_le; [done|]. rewrite take_length. lia. }
          destruct (Nat.leb_spec cap (length q)) as [Hq|Hq]; cbn [b_log b_sent b_read b_rx b_from b_lag];
            (split; [done|]); (split; [lia|]); (split; [done|]); exists R;
            (split; [eapply (rpart_frame st); cbn [s_todo s_tok s_shards]; rewrite ?upd_same; done|]);
            (split; [done|]); (split; [lia|]); exists G; rewrite Hg, Ht'; (split; [done|]).
          -- destruct q as [|x q]; [cbn in Hq; lia|]. cbn [tail]. rewrite app_length in J9. cbn [length] in J9.
             split; [|rewrite !app_length; cbn [length]; lia]. rewrite app_assoc. apply sublist_app; [|done].
             etrans; [|exact J8]. apply sublist_app; [done|]. by apply sublist_cons.
          -- rewrite app_length in J9. split; [|rewrite !app_length; cbn [length]; lia].
             rewrite app_assoc. by apply sublist_app.
        * cbn [b_log b_sent b_read b_rx b_from b_lag]. split; [done|]. split; [lia|]. split; [done|]. exists R. split; [|done].
          eapply (rpart_frame st); cbn [s_todo s_tok s_shards]; rewrite ?upd_same; done.
      + apply (jsh_frame st); cbn [s_todo s_tok s_shards]; [done|done|by apply upd_other|done|by apply HJ].
    - (* page *)
      destruct start as [i|] eqn:Es; [|done]. destruct (s_todo st) as [|s rest] eqn:Etodo; [done|].
      assert (Hi : i < 2 ^ 64) by (by apply Hstart).
      destruct (get_events_total (db_of (b_log (s_shards st s))) i None (POpts None (s_tok st) false)) as [[l nt] El].
      rewrite El. apply NoDup_cons in Hnd as Hnd'. destruct Hnd' as [Hni Hnd'].
      split; [cbn [s_todo]; destruct nt; [done|done]|].
      split; [cbn [s_todo s_tok]; by destruct nt|]. intros t Ht. destruct (decide (t = s)) as [->|Hne].
      + destruct (HJ s Ht) as (J1 & J2 & J3 & R & J4 & J5).
        unfold jsh. cbn [s_shards s_todo]. rewrite upd_same. cbn [b_log b_sent b_read b_rx b_from b_lag].
        split; [done|]. split; [done|]. split; [done|].
        destruct (b_rx (s_shards st s)) as [q|]; [destruct J5 as [J5 _]; congruence|].
        rewrite got_out, Nat.eqb_refl. change (map snd (List.filter (fun p : nat * hev => (p.1 =? s)%nat) (s_out st))) with (got st s).
        rewrite J5. exists (R ++ W l). split; [|done].
        assert (HR : s_tok st = None /\ R = [] \/ exists j e, s_tok st = Some (make_event_key j) /\ i <= j /\ e ∈ b_log (s_shards st s) /\
          he_id e = j /\ R = W (List.filter (fun x => (i <=? he_id x) && (he_id x <=? j)) (b_log (s_shards st s)))).
        { destruct J4 as [?|i' t rest' ? E2 ? ?|i' rest' ? ? ?|i' rest' j e ? E1 ? ? ? ?|i' ? E2].
          - congruence.
          - congruence.
          - by left.
          - right. exists j, e. assert (i' = i) as -> by congruence. done.
          - rewrite Etodo in E2. exfalso. apply E2. left. }
        assert (Hid : exists t : option N, s_tok st = option_map make_event_key t /\ (forall j, t = Some j -> j < 2 ^ 64) /\
          forall (k : hev -> bool), R ++ W (List.filter (fun x => above i t x && k x) (b_log (s_shards st s))) =
            W (List.filter (fun x => (i <=? he_id x) && ((match t with Some j => he_id x <=? j | None => false end) || k x)) (b_log (s_shards st s)))).
        { destruct HR as [[H1 ->]|(j & e & H1 & H2 & H3 & H4 & ->)].
          - exists None. split; [done|]. split; [done|]. intros k. cbn. done.
          - exists (Some j). split; [done|]. split; [intros j' [= <-]; rewrite <- H4; by apply J1|]. intros k. cbn [above].
            rewrite <- List.filter_app. by rewrite filter_split. }
        destruct Hid as (t & Et & Htb & HRk). rewrite Et in El.
        destruct (page_log _ i t J1 Hi Htb) as [Hp|(p & v & u & Ep & Hp)].
        * rewrite El in Hp. injection Hp as -> ->.
          assert (Ef : List.filter (above i t) (b_log (s_shards st s)) = List.filter (fun x => above i t x && true) (b_log (s_shards st s))).
          { apply filter_ext. intros x. by rewrite andb_true_r. }
          rewrite Ef, HRk.
          assert (Eg : List.filter (fun x => (i <=? he_id x) && ((match t with Some j => he_id x <=? j | None => false end) || true)) (b_log (s_shards st s)) =
            List.filter (fun x => i <=? he_id x) (take (length (b_log (s_shards st s))) (b_log (s_shards st s)))).
          { rewrite firstn_all. apply filter_ext. intros x. by rewrite orb_true_r, andb_true_r. }
          rewrite Eg.
          pose proof (rp_done (SSt (upd (s_shards st) s (BSt (b_log (s_shards st s)) (b_sent (s_shards st s)) None
            (b_lag (s_shards st s)) (length (b_log (s_shards st s))) (b_from (s_shards st s)))) rest None (s_out st ++ tag types s
            (List.filter (above i t) (b_log (s_shards st s))))) s i Es) as Hd.
          cbn [s_shards s_todo] in Hd. rewrite upd_same in Hd. cbn [b_log b_read] in Hd. specialize (Hd Hni).
          eapply rpart_frame; [| | | |exact Hd]; cbn [s_todo s_tok s_shards]; rewrite ?upd_same; done.
        * rewrite El in Hp. injection Hp as -> ->. rewrite <- (sorted_mid _ _ _ _ _ _ J1 Ep), HRk.
          assert (Hv : v ∈ b_log (s_shards st s) /\ above i t v = true).
          { assert (Hin : v ∈ List.filter (above i t) (b_log (s_shards st s))) by (rewrite Ep; apply elem_of_app; right; left).
            apply elem_of_list_In, filter_In in Hin as [H1 H2]. split; [by apply elem_of_list_In|done]. }
          destruct Hv as [Hv Hav].
          assert (Hiv : i <= he_id v /\ forall j, t = Some j -> j <= he_id v).
          { destruct HR as [[H1 _]|(j & e & H1 & H2 & H3 & H4 & _)].
            - rewrite H1 in Et. destruct t as [j|]; [done|]. cbn in Hav. split; [lia|done].
            - rewrite H1 in Et. destruct t as [j'|]; [|done]. assert (Ek : make_event_key j = make_event_key j') by (exact (f_equal (fun o => match o with Some x => x | None => [] end) Et)).
              assert (Hjj : j = j').
              { assert (Hjb : j < 2 ^ 64) by (rewrite <- H4; by apply J1).
                pose proof (event_key_lex j j' Hjb (Htb _ eq_refl)) as Hl.
                rewrite Ek, event_key_lex, N.compare_refl in Hl by (by apply Htb). symmetry in Hl. by apply N.compare_eq_iff in Hl. }
              subst j'. cbn in Hav. split; [lia|]. intros j' [= <-]. lia. }
          destruct Hiv as [Hiv Htv].
          assert (Eg : List.filter (fun x => (i <=? he_id x) && ((match t with Some j => he_id x <=? j | None => false end) || (he_id x <=? he_id v))) (b_log (s_shards st s)) =
            List.filter (fun x => (i <=? he_id x) && (he_id x <=? he_id v)) (b_log (s_shards st s))).
          { apply filter_ext. intros x. f_equal. destruct t as [j|]; [|done]. specialize (Htv _ eq_refl).
            destruct (N.leb_spec (he_id x) j); destruct (N.leb_spec (he_id x) (he_id v)); try done; lia. }
          rewrite Eg.
          pose proof (rp_mid (SSt (upd (s_shards st) s (BSt (b_log (s_shards st s)) (b_sent (s_shards st s)) None
            (b_lag (s_shards st s)) (length (b_log (s_shards st s))) (b_from (s_shards st s)))) (s :: rest) (Some (make_event_key (he_id v))) (s_out st)) s i rest (he_id v) v Es eq_refl eq_refl Hiv) as Hd.
          cbn [s_shards s_todo] in Hd. rewrite upd_same in Hd. cbn [b_log b_read] in Hd. specialize (Hd Hv eq_refl).
          eapply rpart_frame; [| | | |exact Hd]; cbn [s_todo s_tok s_shards]; rewrite ?upd_same; done.
      + destruct (HJ t Ht) as (J1 & J2 & J3 & R & J4 & J5).
        unfold jsh. cbn [s_shards s_todo]. rewrite upd_other by done.
        split; [done|]. split; [done|]. split; [done|]. exists R. split.
        * destruct J4 as [?|i' t' rest' ? E2 ? ?|i' rest' ? ? ?|i' rest' j e ? E1 ? ? ? ?|i' ? E2].
          -- congruence.
          -- assert (t' = s /\ rest' = rest) as [-> ->] by (split; congruence). destruct nt as [k|].
             ++ eapply rp_later; [done|done|done|done].
             ++ destruct rest as [|s2 rest2]; [by apply elem_of_nil in H1|]. destruct (decide (t = s2)) as [->|Hn2].
                ** eapply rp_first; [done|done|done].
                ** eapply rp_later; [done|done|done|]. apply elem_of_cons in H1 as [|]; done.
          -- congruence.
          -- congruence.
          -- pose proof (rp_done (SSt (upd (s_shards st) s (BSt (b_log (s_shards st s)) (b_sent (s_shards st s)) (b_rx (s_shards st s))
               (b_lag (s_shards st s)) (length (b_log (s_shards st s))) (b_from (s_shards st s)))) (match nt with Some _ => s :: rest | None => rest end) nt (s_out st ++ tag types s l)) t i' ltac:(congruence)) as Hd.
             cbn [s_shards s_todo] in Hd. rewrite upd_other in Hd by done. apply Hd.
             rewrite Etodo in E2. destruct nt; [done|]. intros Hin. apply E2. by right.
        * rewrite got_out. destruct (Nat.eqb_spec t s) as [|_]; [done|]. rewrite app_nil_r.
          change (map snd (List.filter (fun p : nat * hev => (p.1 =? t)%nat) (s_out st))) with (got st t).
          destruct (b_rx (s_shards st t)) as [q|]; [|done]. destruct J5 as [J5 _]. congruence.
    - (* attach *)
      destruct (s_todo st) as [|] eqn:Etodo; [|done].
      destruct (b_rx (s_shards st s)) as [q|] eqn:Eq; [done|].
      split; [constructor|]. split; [done|]. intros t Ht. destruct (decide (t = s)) as [->|Hne].
      + destruct (HJ s Ht) as (J1 & J2 & J3 & R & J4 & J5). rewrite Eq in J5.
        unfold jsh. cbn [s_shards s_todo]. rewrite upd_same. cbn [b_log b_sent b_read b_rx b_from b_lag].
        split; [done|]. split; [done|]. split; [done|]. exists R. split.
        * eapply (rpart_frame st); cbn [s_todo s_tok s_shards]; rewrite ?upd_same; done.
        * split; [done|]. split; [done|]. exists []. split; [cbn; rewrite app_nil_r; exact J5|]. split; [apply sublist_nil_l|]. cbn. lia.
      + apply (jsh_frame st); cbn [s_todo s_tok s_shards]; [done|done|by apply upd_other|done|by apply HJ].
    - (* receive *)
      destruct (b_rx (s_shards st s)) as [[|e q]|] eqn:Eq; [done| |done].
      split; [done|]. split; [done|]. intros t Ht. destruct (decide (t = s)) as [->|Hne].
      + destruct (HJ s Ht) as (J1 & J2 & J3 & R & J4 & J5). rewrite Eq in J5.
        destruct J5 as (J5 & J6 & G & J7 & J8 & J9).
        unfold jsh. cbn [s_shards s_todo]. rewrite upd_same. cbn [b_log b_sent b_read b_rx b_from b_lag].
        split; [done|]. split; [done|]. split; [done|]. exists R. split.
        * eapply (rpart_frame st); cbn [s_todo s_tok s_shards]; rewrite ?upd_same; done.
        * split; [done|]. split; [done|]. exists (G ++ [e]). split.
          -- rewrite got_out, Nat.eqb_refl. change (map snd (List.filter (fun p : nat * hev => (p.1 =? s)%nat) (s_out st))) with (got st s).
             rewrite J7, List.filter_app, app_assoc. done.
          -- rewrite <- app_assoc. cbn [app]. split; done.
      + apply (jsh_frame st); cbn [s_todo s_tok s_shards]; [done|done|by apply upd_other| |by apply HJ].
        rewrite got_out. destruct (Nat.eqb_spec t s) as [|_]; [done|]. by rewrite app_nil_r.
  Qed.
  Lemma jrun l : jinv (srun cap start types n l).
  Proof.
    unfold srun. assert (H : forall st, jinv st -> jinv (fold_left step l st)); [|apply H, jinit].
    induction l as [|a l IH]; intros st Hst; [done|]. cbn. apply IH. by apply jstep.
  Qed.
End Sub.
