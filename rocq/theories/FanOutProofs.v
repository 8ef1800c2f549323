(** Proofs about FanOut.v. *)
From Coq Require Import ZifyN ZifyNat ZifyBool.
From Verif Require Import Base Codec Kv Paging PagingProofs FanOut.

(** ** Listings as traces of tokens *)
Section Trace.
  Context {A : Type}.
  Definition trace (page : option bytes -> res unit (list A * option bytes)) (tok : option bytes)
      (ps : list (list A)) (tk : nat -> option bytes) : Prop :=
    tk 0%nat = tok /\ (forall j, (j < length ps)%nat -> page (tk j) = Ok (nth j ps [], tk (S j))) /\
    (forall j, (0 < j < length ps)%nat -> is_Some (tk j)) /\ tk (length ps) = None /\ (0 < length ps)%nat.
  Lemma follow_trace page fuel tok ps : follow page fuel tok = Some (Ok ps) -> exists tk, trace page tok ps tk.
  Proof.
    revert tok ps. induction fuel as [|fuel IH]; intros tok ps; cbn [follow]; [done|].
    destruct (page tok) as [[l [t|]]| |] eqn:Ep; [| |done|done].
    - destruct (follow page fuel (Some t)) as [[ls| |]|] eqn:Ef; [|done|done|done].
      intros H. assert (ps = l :: ls) as -> by congruence.
      destruct (IH _ _ Ef) as (tk & H0 & H1 & H2 & H3 & H4).
      exists (fun j => match j with O => tok | S j => tk j end). split; [done|]. split; [|split; [|split; [done|cbn; lia]]].
      + intros [|j] Hj; cbn [nth length] in *; [by rewrite H0|]. apply H1. lia.
      + intros [|[|j]] Hj; cbn [length] in *; [lia|by rewrite H0|]. apply H2. lia.
    - intros H. assert (ps = [l]) as -> by congruence.
      exists (fun j => match j with O => tok | S j => None end). split; [done|]. split; [|split; [|split; [done|cbn; lia]]].
      + intros [|j] Hj; cbn [nth length] in *; [done|lia].
      + intros j Hj. cbn in Hj. lia.
  Qed.
End Trace.

(** ** Positional tokens *)
Section Positional.
  Context {A : Type}.
  Variable json : list (option bytes) -> bytes.
  Variable unjson : bytes -> option (list (option bytes)).
  Hypothesis json_ok : forall ts, unjson (json ts) = Some ts.
  Variables (sz : option N) (rev : bool).

  Record cshard := CShard { c_p : pager A; c_ps : list (list A); c_tk : nat -> option bytes }.
  Definition cn (c : cshard) : nat := length (c_ps c).
  Definition ctrace (c : cshard) : Prop := trace (fun t => c_p c (POpts sz t rev)) None (c_ps c) (c_tk c).
  Definition crow (j : nat) (c : cshard) : list A := nth (j mod cn c) (c_ps c) [].
  Definition ctok (j : nat) (c : cshard) : option bytes := c_tk c (j mod cn c).

  Lemma shards_traces shards pss :
    Forall2 (fun p ps => exists fuel, follow (fun t => p (POpts sz t rev)) fuel None = Some (Ok ps)) shards pss ->
    exists cs, map c_p cs = shards /\ map c_ps cs = pss /\ Forall ctrace cs.
  Proof.
    induction 1 as [|p ps shards pss [fuel Hf] _ (cs & H1 & H2 & H3)]; [by exists []|].
    destruct (follow_trace _ _ _ _ Hf) as [tk Ht]. exists (CShard p ps tk :: cs). cbn. rewrite H1, H2. split; [done|]. split; [done|]. by constructor.
  Qed.
  Lemma cpos c : ctrace c -> (0 < cn c)%nat.
  Proof. by intros (_ & _ & _ & _ & H). Qed.
  Lemma mod_S j n : (0 < n)%nat -> (S j mod n = if Nat.eqb (S (j mod n)) n then 0 else S (j mod n))%nat.
  Proof.
    intros Hn. pose proof (Nat.mod_upper_bound j n ltac:(lia)) as Hb.
    pose proof (Nat.div_mod j n ltac:(lia)) as Hd.
    destruct (Nat.eqb_spec (S (j mod n)) n) as [E|E].
    - symmetry. apply (Nat.mod_unique _ _ (S (j / n))); lia.
    - symmetry. apply (Nat.mod_unique _ _ (j / n)); lia.
  Qed.
  Lemma ctok_step c j : ctrace c -> page_or_empty (c_p c) (POpts sz (ctok j c) rev) = (crow j c, ctok (S j) c).
  Proof.
    intros Hc. pose proof (cpos c Hc) as Hn. destruct Hc as (H0 & H1 & H2 & H3 & _). fold (cn c) in *.
    pose proof (Nat.mod_upper_bound j (cn c) ltac:(lia)) as Hb.
    unfold page_or_empty, ctok, crow. rewrite (H1 _ Hb). f_equal. rewrite mod_S by done.
    destruct (Nat.eqb_spec (S (j mod cn c)) (cn c)) as [->|E]; [|done]. by rewrite H3, H0.
  Qed.
  Lemma ctok_some c j : ctrace c -> (match ctok j c with Some _ => true | None => false end = negb (Nat.eqb (j mod cn c) 0)).
  Proof.
    intros Hc. pose proof (cpos c Hc) as Hn. destruct Hc as (H0 & H1 & H2 & H3 & _). fold (cn c) in *.
    pose proof (Nat.mod_upper_bound j (cn c) ltac:(lia)) as Hb. unfold ctok.
    destruct (Nat.eqb_spec (j mod cn c) 0) as [->|E]; [by rewrite H0|].
    destruct (H2 (j mod cn c)%nat) as [t ->]; [lia|done].
  Qed.
  (** The request with the tokens of position [j]. *)
  Definition at_pos (cs : list cshard) (j : nat) (tok : option bytes) : Prop :=
    shard_tokens unjson (length (map c_p cs)) tok = Some (map (ctok j) cs).
  Lemma at_start cs : Forall ctrace cs -> at_pos cs 0 None.
  Proof.
    intros H. unfold at_pos, shard_tokens. f_equal. rewrite map_length.
    induction H as [|c cs Hc _ IH]; [done|]. cbn [repeat map length]. rewrite IH. f_equal.
    pose proof (cpos c Hc). destruct Hc as (H0 & _). unfold ctok. by rewrite Nat.mod_0_l, H0 by lia.
  Qed.
  Lemma at_json cs j : at_pos cs j (Some (json (map (ctok j) cs))).
  Proof. apply json_ok. Qed.
  Definition more (cs : list cshard) (j : nat) : bool := existsb (fun c => negb (Nat.eqb (j mod cn c) 0)) cs.
  Lemma fan_step always cs j tok : Forall ctrace cs -> at_pos cs j tok ->
    fan_out json unjson always (map c_p cs) sz rev tok =
    Ok (concat (map (crow j) cs), if always || more cs (S j) then Some (json (map (ctok (S j)) cs)) else None).
  Proof.
    intros Hcs Ht. unfold fan_out. unfold at_pos in Ht. rewrite Ht. rewrite !map_length, Nat.eqb_refl. cbn [negb].
    assert (Hz : zip_with (fun p t => page_or_empty p (POpts sz t rev)) (map c_p cs) (map (ctok j) cs) =
                 map (fun c => (crow j c, ctok (S j) c)) cs).
    { clear Ht. induction Hcs as [|c cs Hc _ IH]; [done|]. cbn [map zip_with]. by rewrite IH, ctok_step. }
    rewrite Hz.
    assert (H1 : (map (fun c => (crow j c, ctok (S j) c)) cs).*1 = map (crow j) cs) by (by rewrite <- list_fmap_compose).
    assert (H2 : (map (fun c => (crow j c, ctok (S j) c)) cs).*2 = map (ctok (S j)) cs) by (by rewrite <- list_fmap_compose).
    rewrite H1, H2. do 2 f_equal.
    assert (Hm : existsb (fun t : option bytes => match t with Some _ => true | None => false end) (map (ctok (S j)) cs) = more cs (S j)).
    { clear -Hcs. induction Hcs as [|c cs Hc _ IH]; [done|]. cbn [map existsb more]. rewrite ctok_some by done. unfold more in IH. by rewrite IH. }
    by rewrite Hm.
  Qed.

  Lemma fan_never cs : Forall ctrace cs -> forall fuel j tok, at_pos cs j tok ->
    follow (fan_out json unjson true (map c_p cs) sz rev) fuel tok = None.
  Proof.
    intros Hcs. induction fuel as [|fuel IH]; intros j tok Ht; [done|]. cbn [follow]. rewrite (fan_step true cs j tok Hcs Ht).
    cbn [orb]. by rewrite (IH (S j)) by apply at_json.
  Qed.

  (** The number of requests. *)
  Definition clcm (cs : list cshard) : nat := foldr Nat.lcm 1%nat (map cn cs).
  Lemma clcm_pos cs : Forall ctrace cs -> (0 < clcm cs)%nat.
  Proof.
    unfold clcm. induction 1 as [|c cs Hc _ IH]; [cbn; lia|]. cbn. pose proof (cpos c Hc).
    destruct (Nat.eq_dec (Nat.lcm (cn c) (foldr Nat.lcm 1 (map cn cs))) 0)%nat as [E|E]; [|lia].
    apply Nat.lcm_eq_0 in E. lia.
  Qed.
  Lemma clcm_div cs c : c ∈ cs -> Nat.divide (cn c) (clcm cs).
  Proof.
    unfold clcm. induction cs as [|c' cs IH]; intros Hc; [by apply elem_of_nil in Hc|]. cbn.
    apply elem_of_cons in Hc as [->|Hc]; [apply Nat.divide_lcm_l|].
    etransitivity; [by apply IH|apply Nat.divide_lcm_r].
  Qed.
  Lemma clcm_least cs m : (forall c, c ∈ cs -> Nat.divide (cn c) m) -> Nat.divide (clcm cs) m.
  Proof.
    unfold clcm. induction cs as [|c cs IH]; intros H; [apply Nat.divide_1_l|]. cbn. apply Nat.lcm_least.
    - apply H. left.
    - apply IH. intros c' Hc'. apply H. by right.
  Qed.
  Lemma more_spec cs j : Forall ctrace cs -> (more cs j = false <-> Nat.divide (clcm cs) j).
  Proof.
    intros Hcs. unfold more. split.
    - intros H. apply clcm_least. intros c Hc. rewrite Forall_forall in Hcs. pose proof (cpos c (Hcs c Hc)).
      destruct (Nat.eqb_spec (j mod cn c) 0) as [E|E]; [by apply Nat.mod_divide in E; [|lia]|].
      exfalso. assert (existsb (fun c => negb (Nat.eqb (j mod cn c) 0)) cs = true) as Hx; [|congruence].
      apply existsb_exists. exists c. split; [by apply elem_of_list_In|]. by destruct (Nat.eqb_spec (j mod cn c) 0).
    - intros Hd. apply not_true_iff_false. intros (c & Hc & H)%existsb_exists. apply elem_of_list_In in Hc.
      rewrite Forall_forall in Hcs. pose proof (cpos c (Hcs c Hc)).
      destruct (Nat.eqb_spec (j mod cn c) 0) as [E|E]; [done|]. apply E. apply Nat.mod_divide; [lia|].
      etransitivity; [by apply clcm_div|done].
  Qed.
  Lemma fan_ends cs : Forall ctrace cs -> forall k j fuel tok, at_pos cs j tok ->
    (j + k = clcm cs)%nat -> (0 < k)%nat -> (k <= fuel)%nat ->
    follow (fan_out json unjson false (map c_p cs) sz rev) fuel tok =
    Some (Ok (map (fun j => concat (map (crow j) cs)) (seq j k))).
  Proof.
    intros Hcs. induction k as [|k IH]; intros j fuel tok Ht Hj Hk Hf; [lia|].
    destruct fuel as [|fuel]; [lia|]. cbn [follow]. rewrite (fan_step false cs j tok Hcs Ht). cbn [orb].
    destruct k as [|k].
    - replace (more cs (S j)) with false; [done|]. symmetry. apply more_spec; [done|].
      replace (S j) with (clcm cs) by lia. done.
    - replace (more cs (S j)) with true.
      2:{ symmetry. apply not_false_iff_true. intros E. apply more_spec in E; [|done].
          apply Nat.divide_pos_le in E; lia. }
      rewrite (IH (S j)); [done|apply at_json|lia|lia|lia].
  Qed.

  Lemma concat_zip_perm {B} (f g : B -> list A) l :
    concat (map (fun j => f j ++ g j) l) ≡ₚ concat (map f l) ++ concat (map g l).
  Proof.
    induction l as [|b l IH]; [done|]. cbn [map concat]. rewrite IH, <- !app_assoc. f_equiv.
    rewrite !app_assoc. f_equiv. apply Permutation_app_comm.
  Qed.
  Lemma seq_nth (ps : list (list A)) k : (k <= length ps)%nat -> map (fun j => nth j ps []) (seq 0 k) = take k ps.
  Proof.
    revert ps. induction k as [|k IH]; intros ps Hk; [done|]. destruct ps as [|p ps]; [cbn in Hk; lia|].
    cbn [seq map take nth]. f_equal. rewrite <- seq_shift, map_map. cbn [nth]. apply IH. cbn in Hk. lia.
  Qed.
  Lemma cycle_rows (ps : list (list A)) q : (0 < length ps)%nat ->
    concat (map (fun j => nth (j mod length ps) ps []) (seq 0 (q * length ps))) = concat (repeat (concat ps) q).
  Proof.
    intros Hn. set (n := length ps) in *.
    assert (H : forall q s, concat (map (fun j => nth (j mod n) ps []) (seq (s * n) (q * n))) = concat (repeat (concat ps) q)).
    { clear q. induction q as [|q IH]; intros s; [done|]. cbn [repeat concat]. cbn [Nat.mul]. rewrite seq_app, map_app, concat_app.
      replace (s * n + n)%nat with (S s * n)%nat by lia. rewrite IH. f_equal. f_equal.
      transitivity (take n ps); [|apply firstn_all]. rewrite <- seq_nth by (subst n; lia).
      replace (s * n)%nat with (s * n + 0)%nat by lia.
      assert (Hs : forall l a, seq (a + 0) l = map (fun i => a + i)%nat (seq 0 l)).
      { clear. intros l a. generalize 0%nat. induction l as [|l IH]; intros b; [done|]. cbn. f_equal.
        rewrite <- IH. f_equal. lia. }
      rewrite Hs, map_map. apply map_ext_in. intros i Hi. apply in_seq in Hi.
      rewrite Nat.add_comm, Nat.mod_add, Nat.mod_small by lia. done. }
    specialize (H q 0%nat). done.
  Qed.
  Lemma fan_rows cs L : Forall ctrace cs -> (forall c, c ∈ cs -> Nat.divide (cn c) L) ->
    concat (map (fun j => concat (map (crow j) cs)) (seq 0 L)) ≡ₚ
    concat (map (fun c => concat (repeat (concat (c_ps c)) (L / cn c))) cs).
  Proof.
    induction 1 as [|c cs Hc Hcs IH]; intros Hd.
    - cbn. clear. induction (seq 0 L); done.
    - cbn [map concat]. rewrite concat_zip_perm, IH by (intros c' Hc'; apply Hd; by right). f_equiv.
      destruct (Hd c) as [q Hq]; [left|]. pose proof (cpos c Hc) as Hn. rewrite Hq at 1. unfold crow, cn in *.
      rewrite cycle_rows by done. by rewrite Hq, Nat.div_mul by lia.
  Qed.
End Positional.

(** ** Named cursors *)
Section Cursors.
  Context {A : Type}.
  Variable json : list (N * scan_pos) -> bytes.
  Variable unjson : bytes -> option (list (N * scan_pos)).
  Hypothesis json_ok : forall cs, unjson (json cs) = Some cs.
  Hypothesis json_ne : forall cs, json cs <> [].
  Variables (sz : option N) (rev : bool).

  Record nshard := NShard { n_id : N; n_p : pager A; n_ps : list (list A); n_tk : nat -> option bytes }.
  Definition ntrace (c : nshard) : Prop := trace (fun t => n_p c (channel_opts sz t rev)) None (n_ps c) (n_tk c).
  Definition npos (j : nat) (c : nshard) : scan_pos :=
    if Nat.leb (length (n_ps c)) j then Exhausted
    else match n_tk c j with Some t => Resume t | None => Fresh end.

  Lemma add_cursors_spec cs : forall m m', add_cursors m cs = Some m' ->
    NoDup cs.*1 /\ (forall id, id ∈ cs.*1 -> m !! id = None) /\
    (forall id s, m' !! id = Some s <-> m !! id = Some s \/ (id, s) ∈ cs).
  Proof.
    induction cs as [|[id s] cs IH]; intros m m' H; cbn [add_cursors] in H.
    - assert (m' = m) as -> by congruence. split; [constructor|]. split; [intros id Hid; by apply elem_of_nil in Hid|].
      intros id s. rewrite elem_of_nil. tauto.
    - destruct (m !! id) as [s0|] eqn:E; [done|]. destruct (IH _ _ H) as (H1 & H2 & H3). cbn.
      assert (Hni : id ∉ cs.*1).
      { intros Hid. apply H2 in Hid. by rewrite lookup_insert in Hid. }
      split; [by constructor|]. split.
      + intros id' [->|Hid]%elem_of_cons; [done|]. pose proof (H2 id' Hid) as Hx.
        rewrite lookup_insert_ne in Hx; [done|]. intros ->. done.
      + intros id' s'. rewrite H3, elem_of_cons. destruct (decide (id' = id)) as [->|Hne].
        * rewrite lookup_insert, E. split.
          -- intros [Hs|Hs]; [right; left; congruence|]. right. by right.
          -- intros [Hs|[Hs|Hs]]; [done|left; congruence|by right].
        * rewrite lookup_insert_ne by done. split.
          -- intros [Hs|Hs]; [by left|]. right. by right.
          -- intros [Hs|[Hs|Hs]]; [by left|congruence|by right].
  Qed.
  Lemma add_cursors_ok cs : forall m, NoDup cs.*1 -> (forall id, id ∈ cs.*1 -> m !! id = None) ->
    exists m', add_cursors m cs = Some m' /\ size m' = (size m + length cs)%nat.
  Proof.
    induction cs as [|[id s] cs IH]; intros m Hnd Hm; cbn [add_cursors].
    - exists m. split; [done|]. cbn. lia.
    - cbn in Hnd. apply NoDup_cons in Hnd as [Hni Hnd]. rewrite (Hm id) by left.
      destruct (IH (<[id:=s]> m) Hnd) as (m' & H1 & H2).
      + intros id' Hid. rewrite lookup_insert_ne; [apply Hm; by right|]. intros ->. done.
      + exists m'. split; [done|]. rewrite H2, map_size_insert_None by (apply Hm; left). cbn. lia.
  Qed.

  Definition at_req (cs : list nshard) (j : nat) (tok : option bytes) : Prop :=
    exists m, decode_cursors unjson tok (map n_id cs) = Some m /\ forall c, c ∈ cs -> m !! n_id c = Some (npos j c).
  Lemma elem_map (f : nshard -> N * scan_pos) cs c : c ∈ cs -> f c ∈ map f cs.
  Proof. intros H. apply elem_of_list_In, in_map, elem_of_list_In. done. Qed.
  Lemma req_start cs : Forall ntrace cs -> NoDup (map n_id cs) -> at_req cs 0 None.
  Proof.
    intros Hcs Hnd. eexists. split; [done|]. intros c Hc. apply elem_of_list_to_map_1.
    - by rewrite <- list_fmap_compose, list_fmap_id.
    - rewrite Forall_forall in Hcs. destruct (Hcs c Hc) as (H0 & _ & _ & _ & Hn).
      assert (npos 0 c = Fresh) as ->.
      { unfold npos. rewrite H0. destruct (Nat.leb_spec (length (n_ps c)) 0); [lia|done]. }
      apply elem_of_list_In, in_map_iff. exists (n_id c). split; [done|]. by apply in_map, elem_of_list_In.
  Qed.
  Lemma req_json cs j : NoDup (map n_id cs) -> at_req cs j (Some (json (map (fun c => (n_id c, npos j c)) cs))).
  Proof.
    intros Hnd. unfold at_req, decode_cursors. destruct (json _) as [|b0 b] eqn:Ej; [by apply json_ne in Ej|].
    rewrite <- Ej, json_ok.
    assert (Hids : (map (fun c => (n_id c, npos j c)) cs).*1 = map n_id cs) by (by rewrite <- list_fmap_compose).
    destruct (add_cursors_ok (map (fun c => (n_id c, npos j c)) cs) ∅) as (m & Hm & Hs); [by rewrite Hids|intros; apply lookup_empty|].
    rewrite Hm. destruct (add_cursors_spec _ _ _ Hm) as (_ & _ & Hl).
    assert (Hc : forall c, c ∈ cs -> m !! n_id c = Some (npos j c)).
    { intros c Hc. apply Hl. right. by apply (elem_map (fun c => (n_id c, npos j c))). }
    rewrite Hs, !map_length, map_size_empty, Nat.eqb_refl. cbn [negb orb].
    destruct (existsb _ _) eqn:Ex; [|by exists m].
    exfalso. apply existsb_exists in Ex as (id & Hid & Hx). apply in_map_iff in Hid as (c & <- & Hin).
    rewrite (Hc c) in Hx by (by apply elem_of_list_In). done.
  Qed.
  Lemma loop_spec j cs : forall m acc next, Forall ntrace cs -> (forall c, c ∈ cs -> m !! n_id c = Some (npos j c)) ->
    cursors_loop sz rev m (map (fun c => (n_id c, n_p c)) cs) acc next =
    Ok (acc ++ concat (map (fun c => nth j (n_ps c) []) cs), next ++ map (fun c => (n_id c, npos (S j) c)) cs).
  Proof.
    induction cs as [|c cs IH]; intros m acc next Hcs Hm; cbn [map cursors_loop concat].
    - by rewrite !app_nil_r.
    - apply Forall_cons in Hcs as [Hc Hcs]. rewrite (Hm c) by left.
      assert (Hm' : forall c', c' ∈ cs -> m !! n_id c' = Some (npos j c')) by (intros; apply Hm; by right).
      destruct Hc as (H0 & H1 & H2 & H3 & H4).
      destruct (Nat.leb_spec (length (n_ps c)) j) as [Hj|Hj].
      + assert (npos j c = Exhausted) as -> by (unfold npos; by rewrite (proj2 (Nat.leb_le _ _) Hj)).
        rewrite IH by done. rewrite (nth_overflow (n_ps c)) by done. cbn [app].
        assert (npos (S j) c = Exhausted) as -> by (unfold npos; destruct (Nat.leb_spec (length (n_ps c)) (S j)); [done|lia]).
        by rewrite <- app_assoc.
      + set (go := fun tok : option bytes => match n_p c (channel_opts sz tok rev) with
          | Ok (l, nt) => cursors_loop sz rev m (map (fun c => (n_id c, n_p c)) cs) (acc ++ l) (next ++ [(n_id c, match nt with Some t => Resume t | None => Exhausted end)])
          | Err e => Err e | Panic => Panic end).
        assert (Hgo : go (n_tk c j) = Ok (acc ++ nth j (n_ps c) [] ++ concat (map (fun c => nth j (n_ps c) []) cs),
            next ++ (n_id c, npos (S j) c) :: map (fun c => (n_id c, npos (S j) c)) cs)).
        { unfold go. rewrite (H1 j Hj). rewrite IH by done. rewrite <- !app_assoc. cbn [app].
          assert (Hp : npos (S j) c = match n_tk c (S j) with Some t => Resume t | None => Exhausted end); [|by rewrite Hp].
          unfold npos. destruct (Nat.leb_spec (length (n_ps c)) (S j)) as [Hj'|Hj'].
          - replace (S j) with (length (n_ps c)) by lia. by rewrite H3.
          - destruct (H2 (S j)) as [t ->]; [lia|done]. }
        assert (Hp : npos j c = match n_tk c j with Some t => Resume t | None => Fresh end).
        { unfold npos. destruct (Nat.leb_spec (length (n_ps c)) j); [lia|done]. }
        rewrite Hp. destruct (n_tk c j) as [t|]; exact Hgo.
  Qed.

  Definition nmax (cs : list nshard) : nat := foldr Nat.max 1%nat (map (fun c => length (n_ps c)) cs).
  Lemma nmax_all cs j : (0 < j)%nat ->
    forallb (fun c => bool_decide (c.2 = Exhausted)) (map (fun c => (n_id c, npos j c)) cs) = Nat.leb (nmax cs) j.
  Proof.
    intros Hj. unfold nmax. induction cs as [|c cs IH]; [destruct j; [lia|done]|].
    cbn [map forallb foldr snd]. rewrite IH.
    assert (bool_decide (npos j c = Exhausted) = Nat.leb (length (n_ps c)) j) as ->.
    { unfold npos. destruct (Nat.leb (length (n_ps c)) j) eqn:El; [apply bool_decide_eq_true_2; done|].
      apply bool_decide_eq_false_2. by destruct (n_tk c j). }
    set (q := foldr Nat.max 1%nat (map _ cs)).
    destruct (Nat.leb_spec (length (n_ps c)) j), (Nat.leb_spec q j), (Nat.leb_spec (length (n_ps c) `max` q) j); cbn; try done; lia.
  Qed.
  Lemma nmax_pos cs : (1 <= nmax cs)%nat.
  Proof. unfold nmax. induction cs as [|c cs IH]; cbn in *; lia. Qed.

  Lemma hosted_shards n (hosted : gmap N (pager A)) pss :
    Forall2 (fun i ps => exists p, hosted !! N.of_nat i = Some p /\
      exists fuel, follow (fun t => p (channel_opts sz t rev)) fuel None = Some (Ok ps)) (seq 1 n) pss ->
    exists cs, all_shards n hosted = Some (map (fun c => (n_id c, n_p c)) cs) /\ map n_ps cs = pss /\
      Forall ntrace cs /\ map n_id cs = map N.of_nat (seq 1 n).
  Proof.
    unfold all_shards. generalize (seq 1 n) as ids. clear n.
    induction 1 as [|i ps ids pss (p & Hp & fuel & Hf) _ (cs & H1 & H2 & H3 & H4)]; [by exists []|].
    destruct (follow_trace _ _ _ _ Hf) as [tk Ht]. exists (NShard (N.of_nat i) p ps tk :: cs).
    cbn. rewrite Hp. cbn. rewrite H1. cbn. rewrite H2, H4. split; [done|]. split; [done|]. split; [by constructor|done].
  Qed.
  Lemma ids_nodup n : NoDup (map N.of_nat (seq 1 n)).
  Proof. apply NoDup_fmap_2; [intros x y; lia|apply NoDup_ListNoDup, seq_NoDup]. Qed.

  Lemma followers_ends n hosted cs : sz <> Some 0%N ->
    all_shards n hosted = Some (map (fun c => (n_id c, n_p c)) cs) -> Forall ntrace cs -> NoDup (map n_id cs) ->
    forall k j fuel tok, at_req cs j tok -> (j + k = nmax cs)%nat -> (0 < k)%nat -> (k <= fuel)%nat ->
    follow (followers_page json unjson n hosted sz rev) fuel tok =
    Some (Ok (map (fun j => concat (map (fun c => nth j (n_ps c) []) cs)) (seq j k))).
  Proof.
    intros Hsz Hall Hcs Hnd. induction k as [|k IH]; intros j fuel tok (m & Hm & Hl) Hj Hk Hf; [lia|].
    destruct fuel as [|fuel]; [lia|]. cbn [follow].
    assert (Hp : followers_page json unjson n hosted sz rev tok =
      Ok (concat (map (fun c => nth j (n_ps c) []) cs),
          if Nat.leb (nmax cs) (S j) then None else Some (json (map (fun c => (n_id c, npos (S j) c)) cs)))).
    { unfold followers_page. rewrite bool_decide_false by done. rewrite Hall.
      assert ((map (fun c => (n_id c, n_p c)) cs).*1 = map n_id cs) as -> by (by rewrite <- list_fmap_compose).
      rewrite Hm, (loop_spec j cs m [] [] Hcs Hl). cbn [app]. unfold encode_cursors. by rewrite nmax_all by lia. }
    rewrite Hp. destruct k as [|k].
    - replace (Nat.leb (nmax cs) (S j)) with true; [done|]. symmetry. apply Nat.leb_le. lia.
    - destruct (Nat.leb_spec (nmax cs) (S j)); [lia|]. rewrite (IH (S j)); [done|by apply req_json|lia|lia|lia].
  Qed.
  Lemma followers_rows cs M : (forall c, c ∈ cs -> (length (n_ps c) <= M)%nat) ->
    concat (map (fun j => concat (map (fun c => nth j (n_ps c) []) cs)) (seq 0 M)) ≡ₚ concat (map (fun c => concat (n_ps c)) cs).
  Proof.
    induction cs as [|c cs IH]; intros Hle; cbn [map concat].
    - clear. induction (seq 0 M); done.
    - rewrite (concat_zip_perm (fun j => nth j (n_ps c) [])), IH by (intros; apply Hle; by right). f_equiv.
      assert (Hl : (length (n_ps c) <= M)%nat) by (apply Hle; left).
      replace M with (length (n_ps c) + (M - length (n_ps c)))%nat by lia.
      rewrite seq_app, map_app, concat_app, seq_nth, firstn_all by done. cbn [Nat.add].
      assert (H0 : forall k s, (length (n_ps c) <= s)%nat -> concat (map (fun j => nth j (n_ps c) []) (seq s k)) = []).
      { clear. induction k as [|k IH]; intros s Hs; [done|]. cbn [seq map concat]. rewrite nth_overflow by done. apply IH. lia. }
      rewrite H0 by done. by rewrite app_nil_r.
  Qed.
  Lemma nmax_le cs c : c ∈ cs -> (length (n_ps c) <= nmax cs)%nat.
  Proof.
    unfold nmax. induction cs as [|c' cs IH]; intros Hc; [by apply elem_of_nil in Hc|]. cbn.
    apply elem_of_cons in Hc as [->|Hc]; [lia|]. specialize (IH Hc). lia.
  Qed.

  (** A page contains what every shard that was not finished had to say. *)
  Lemma loop_ok m (shards : list (N * pager A)) : forall acc next r, cursors_loop sz rev m shards acc next = Ok r ->
    Forall (fun s => match m !! s.1 with
      | Some Exhausted => True
      | Some Fresh => exists x, s.2 (channel_opts sz None rev) = Ok x
      | Some (Resume t) => exists x, s.2 (channel_opts sz (Some t) rev) = Ok x
      | None => False end) shards.
  Proof.
    induction shards as [|[id p] shards IH]; intros acc next r H; [constructor|]. cbn [cursors_loop] in H.
    constructor; cbn [fst snd].
    - destruct (m !! id) as [[|t|]|]; [| |done|done].
      + destruct (p (channel_opts sz None rev)) as [x| |]; [by exists x|done|done].
      + destruct (p (channel_opts sz (Some t) rev)) as [x| |]; [by exists x|done|done].
    - destruct (m !! id) as [[|t|]|]; [| |by eapply IH|done].
      + destruct (p (channel_opts sz None rev)) as [[l nt]| |]; [by eapply IH|done|done].
      + destruct (p (channel_opts sz (Some t) rev)) as [[l nt]| |]; [by eapply IH|done|done].
  Qed.
End Cursors.

(** ** Signers *)
Section Signers.
  Context {A : Type}.
  Variable json : stoken -> bytes.
  Variable unjson : bytes -> option stoken.
  Hypothesis json_ok : forall c, unjson (json c) = Some c.
  Variable rev : bool.
  Definition eff_len (sz : option N) : nat := N.to_nat (N.max 1 (default PAGE_SIZE_MAX sz)).

  (** A store that lists the rows [s] after the token [tok], whatever page sizes are asked for. *)
  Inductive lists (pg : pager A) : option bytes -> list A -> Prop :=
    Lists tok s :
      (forall sz,
        ((length s < eff_len sz)%nat /\ pg (POpts sz tok rev) = Ok (s, None)) \/
        ((eff_len sz <= length s)%nat /\ exists t, pg (POpts sz tok rev) = Ok (take (eff_len sz) s, Some t) /\
           lists pg (Some t) (drop (eff_len sz) s))) -> lists pg tok s.

  Definition parse (tok : option bytes) : option stoken :=
    match tok with None => Some (SToken None None false false) | Some b => unjson b end.
  Variables o g : pager A.
  Notation page n := (fun t => list_signers json unjson o g (POpts n t rev)).

  Lemma stage_gasless n : (1 <= n)%N -> forall fuel tg s tok, parse tok = Some (SToken None tg true false) -> lists g tg s ->
    (length s < fuel)%nat ->
    exists init last, follow (page (Some n)) fuel tok = Some (Ok (init ++ [last])) /\ concat (init ++ [last]) = s /\
      Forall (fun p => N.of_nat (length p) = n) init /\ (N.of_nat (length last) < n)%N.
  Proof.
    intros Hn. induction fuel as [|fuel IH]; intros tg s tok Hp Hl Hf; [lia|]. cbn [follow].
    unfold list_signers at 1. cbn [po_token po_size po_reverse]. unfold parse in Hp. rewrite Hp.
    cbn [st_odone st_gdone st_gasless negb andb length]. change (N.of_nat 0) with 0%N. rewrite N.sub_0_r.
    destruct (N.ltb_spec 0 n); [|lia]. destruct Hl as [tg s Hl].
    destruct (Hl (Some n)) as [[Hlen ->]|(Hlen & t & -> & Hl')]; unfold eff_len in *; cbn [default option_fmap] in *.
    - cbn [app andb]. exists [], s. split; [done|]. cbn. rewrite app_nil_r. split; [done|]. split; [done|]. unfold id in *. cbn in *. lia.
    - cbn [app andb]. unfold id in *. cbn in *. set (k := N.to_nat (N.max 1 n)) in *.
      destruct (IH (Some t) (drop k s) (Some (json (SToken None (Some t) true false)))) as (init & last & H1 & H2 & H3 & H4);
        [apply json_ok|done|rewrite drop_length; lia|].
      rewrite H1. exists (take k s :: init), last. split; [done|]. split; [|split; [|done]].
      + cbn [app concat]. by rewrite H2, take_drop.
      + constructor; [|done]. rewrite take_length_le by done. lia.
  Qed.
  Lemma stage_onchain n sg : (1 <= n)%N -> lists g None sg ->
    forall fuel to s tok, parse tok = Some (SToken to None false false) -> lists o to s ->
    (length s + length sg < fuel)%nat ->
    exists init last, follow (page (Some n)) fuel tok = Some (Ok (init ++ [last])) /\ concat (init ++ [last]) = s ++ sg /\
      Forall (fun p => N.of_nat (length p) = n) init /\ (N.of_nat (length last) < n)%N.
  Proof.
    intros Hn Hg. induction fuel as [|fuel IH]; intros to s tok Hp Hl Hf; [lia|]. cbn [follow].
    unfold list_signers at 1. cbn [po_token po_size po_reverse]. unfold parse in Hp. rewrite Hp.
    cbn [st_odone st_gdone st_gasless st_onchain negb andb]. destruct Hl as [to s Hl].
    destruct (Hl (Some n)) as [[Hlen ->]|(Hlen & t & -> & Hl')]; unfold eff_len in *; cbn [default option_fmap] in *; unfold id in *; cbn in Hlen.
    - cbn [andb]. destruct (N.ltb_spec 0 (n - N.of_nat (length s))); [|lia].
      inversion Hg as [tg sg' Hg' E1 E2]. subst tg sg'.
      destruct (Hg' (Some (n - N.of_nat (length s))%N)) as [[Hlen' ->]|(Hlen' & t & -> & Hl')]; unfold eff_len in *;
        cbn [default option_fmap] in *; unfold id in *; cbn in Hlen'.
      + cbn [andb]. exists [], (s ++ sg). split; [done|]. cbn. rewrite app_nil_r. split; [done|]. split; [done|]. rewrite app_length. lia.
      + cbn [andb]. set (k := N.to_nat (N.max 1 (n - N.of_nat (length s)))) in *.
        destruct (stage_gasless n Hn fuel (Some t) (drop k sg) (Some (json (SToken None (Some t) true false)))) as (init & last & H1 & H2 & H3 & H4);
          [apply json_ok|done|rewrite drop_length; lia|].
        rewrite H1. exists ((s ++ take k sg) :: init), last. split; [done|]. split; [|split; [|done]].
        * cbn [app concat]. by rewrite H2, <- app_assoc, take_drop.
        * constructor; [|done]. rewrite app_length, take_length_le by done. lia.
    - set (k := N.to_nat (N.max 1 n)) in *.
      assert (Hz : (n - N.of_nat (length (take k s)) = 0)%N) by (rewrite take_length_le by done; lia).
      rewrite Hz. change (0 <? 0)%N with false. cbn [andb]. cbv iota. rewrite app_nil_r.
      destruct (IH (Some t) (drop k s) (Some (json (SToken (Some t) None false false)))) as (init & last & H1 & H2 & H3 & H4);
        [apply json_ok|done|rewrite drop_length; lia|].
      rewrite H1. exists (take k s :: init), last. split; [done|]. split; [|split; [|done]].
      + cbn [app concat]. by rewrite H2, app_assoc, take_drop.
      + constructor; [|done]. rewrite take_length_le by done. lia.
  Qed.

  Definition side (pg : pager A) (done : bool) (tok : option bytes) (s : list A) : Prop :=
    if done then s = [] else lists pg tok s.
  Lemma side_page pg tok s : lists pg tok s -> exists l t s', pg (POpts None tok rev) = Ok (l, t) /\ s = l ++ s' /\
    (match t with None => s' = [] | Some _ => lists pg t s' /\ (length s' < length s)%nat end).
  Proof.
    intros [tok' s' Hl]. destruct (Hl None) as [[Hlen H]|(Hlen & t & H & Hl')].
    - exists s', None, []. by rewrite app_nil_r.
    - exists (take (eff_len None) s'), (Some t), (drop (eff_len None) s'). split; [done|]. split; [by rewrite take_drop|].
      split; [done|]. rewrite drop_length. unfold eff_len in *. cbn in *. lia.
  Qed.
  Lemma both_sides fuel : forall to tg od gd so sg tok, parse tok = Some (SToken to tg od gd) -> side o od to so -> side g gd tg sg ->
    (length so + length sg < fuel)%nat ->
    exists ps, follow (page None) fuel tok = Some (Ok ps) /\ concat ps ≡ₚ so ++ sg.
  Proof.
    induction fuel as [|fuel IH]; intros to tg od gd so sg tok Hp Ho Hg Hf; [lia|]. cbn [follow].
    unfold list_signers at 1. cbn [po_token po_size po_reverse]. unfold parse in Hp. rewrite Hp.
    cbn [st_odone st_gdone st_gasless st_onchain]. rewrite andb_true_r.
    assert (H1 : exists l1 t1 d1 s1, (if od then Ok ([], None, true)
       else match o (POpts None to rev) with
            | Ok (l, t) => Ok (l, t, match t with None => true | Some _ => false end)
            | Err e => Err e | Panic => Panic end) = Ok (E := unit) (l1, t1, d1) /\ so = l1 ++ s1 /\ side o d1 t1 s1 /\
       (d1 = true \/ (length s1 < length so)%nat)).
    { unfold side in Ho. destruct od; [subst so; exists [], None, true, []; split; [done|]; split; [done|]; split; [done|]; by left|].
      destruct (side_page o to so Ho) as (l & t & s' & -> & He & Ht). exists l, t, (match t with None => true | Some _ => false end), s'.
      split; [done|]. split; [done|]. destruct t as [t|]; [destruct Ht as [Ht1 Ht2]; split; [done|by right]|split; [done|by left]]. }
    destruct H1 as (l1 & t1 & d1 & s1 & -> & -> & Hs1 & Hd1).
    assert (H2 : exists l2 t2 d2 s2, (if negb gd then match g (POpts None tg rev) with
            | Ok (l, t) => Ok (l, t, match t with None => true | Some _ => false end)
            | Err e => Err e | Panic => Panic end else Ok ([], None, gd)) = Ok (E := unit) (l2, t2, d2) /\ sg = l2 ++ s2 /\ side g d2 t2 s2 /\
       (d2 = true \/ (length s2 < length sg)%nat)).
    { unfold side in Hg. destruct gd; [subst sg; exists [], None, true, []; split; [done|]; split; [done|]; split; [done|]; by left|].
      destruct (side_page g tg sg Hg) as (l & t & s' & -> & He & Ht). exists l, t, (match t with None => true | Some _ => false end), s'.
      split; [done|]. split; [done|]. destruct t as [t|]; [destruct Ht as [Ht1 Ht2]; split; [done|by right]|split; [done|by left]]. }
    destruct H2 as (l2 & t2 & d2 & s2 & -> & -> & Hs2 & Hd2).
    destruct (d1 && d2) eqn:Ed.
    - apply andb_prop in Ed as [-> ->]. cbn [side] in Hs1, Hs2. subst s1 s2. exists [l1 ++ l2]. split; [done|]. cbn. by rewrite !app_nil_r.
    - rewrite !app_length in *.
      destruct (IH t1 t2 d1 d2 s1 s2 (Some (json (SToken t1 t2 d1 d2)))) as (ps & H1 & H2);
        [apply json_ok|done|done| |].
      { destruct d1, d2; [done| | |]; destruct Hd1, Hd2; try done; lia. }
      rewrite H1. exists ((l1 ++ l2) :: ps). split; [done|]. cbn [concat]. rewrite H2, <- !app_assoc. f_equiv.
      rewrite !app_assoc. f_equiv. apply Permutation_app_comm.
  Qed.

  (** Pages of size zero: the gasless side is never read and the listing never ends. *)
  Lemma zero_endless fuel : forall to od s tok, parse tok = Some (SToken to None od false) -> side o od to s ->
    follow (page (Some 0%N)) fuel tok = None.
  Proof.
    induction fuel as [|fuel IH]; intros to od s tok Hp Hs; [done|]. cbn [follow].
    unfold list_signers at 1. cbn [po_token po_size po_reverse]. unfold parse in Hp. rewrite Hp.
    cbn [st_odone st_gdone st_gasless st_onchain negb andb].
    destruct od.
    - rewrite N.sub_0_l. change (0 <? 0)%N with false. cbn [andb]. cbv iota. by rewrite (IH None true []) by (apply json_ok || done).
    - destruct Hs as [to s Hs].
      destruct (Hs (Some 0%N)) as [[_ ->]|(_ & t & -> & Hl)]; rewrite N.sub_0_l; change (0 <? 0)%N with false; cbn [andb]; cbv iota.
      + by rewrite (IH None true []) by (apply json_ok || done).
      + by rewrite (IH (Some t) false (drop (eff_len (Some 0%N)) s)) by (apply json_ok || done).
  Qed.
End Signers.

Section ListsExt.
  Context {A : Type}.
  Lemma lists_ext rev (p q : pager A) tok s : (forall po, p po = q po) -> lists rev p tok s -> lists rev q tok s.
  Proof.
    intros He. remember (length s) as n eqn:Hn. revert tok s Hn.
    induction n as [n IH] using lt_wf_ind. intros tok s -> H. inversion H as [tok' s' Hl E1 E2]. subst tok' s'.
    constructor. intros sz. destruct (Hl sz) as [[H1 H2]|(H1 & t & H2 & H3)]; rewrite He in H2; [by left|right].
    split; [done|]. exists t. split; [done|]. eapply IH; [|done|done]. rewrite drop_length. unfold eff_len in *. lia.
  Qed.
End ListsExt.

Section Lists.
  Context {V A : Type} (mk : bytes -> V -> option A) (keep : A -> bool).
  Lemma filtered_lists rev db start stop : start <> [] -> forall n tok,
    (length (scan db start stop (POpts None tok rev)) < n)%nat -> decodes mk (scan db start stop (POpts None tok rev)) ->
    lists rev (list_filtered mk keep db start stop) tok (omap (entry mk keep) (scan db start stop (POpts None tok rev))).
  Proof.
    intros Hst. induction n as [|n IH]; intros tok Hn Hd; [lia|]. constructor. intros sz.
    destruct (page_split mk keep db start stop (POpts sz tok rev) Hst Hd) as [[H1 H2]|(pre & k & v & suf & H1 & H2 & H3)].
    - left. rewrite H2. split; [|done]. unfold eff, psize, eff_len in *. cbn [po_size] in H1.
      change (scan db start stop (POpts sz tok rev)) with (scan db start stop (POpts None tok rev)) in H1. lia.
    - right. rewrite H3.
      assert (Hsc : scan db start stop (POpts None tok rev) = pre ++ (k, v) :: suf) by (by rewrite <- H1).
      pose proof (scan_token db start stop None rev tok pre k v suf Hsc) as Hsuf.
      assert (Hom : omap (entry mk keep) (scan db start stop (POpts None tok rev)) =
        omap (entry mk keep) (pre ++ [(k, v)]) ++ omap (entry mk keep) suf).
      { rewrite Hsc. replace (pre ++ (k, v) :: suf) with ((pre ++ [(k, v)]) ++ suf) by (by rewrite <- app_assoc). apply omap_app. }
      assert (Hlen : eff_len sz = length (omap (entry mk keep) (pre ++ [(k, v)]))) by (unfold eff, psize, eff_len in *; cbn [po_size] in H2; lia).
      rewrite Hom. split; [rewrite app_length; lia|]. exists k. split.
      + by rewrite Hlen, take_app.
      + rewrite Hlen, drop_app, <- Hsuf. apply IH.
        * rewrite Hsuf. rewrite Hsc, app_length in Hn. cbn in Hn. lia.
        * rewrite Hsuf. unfold decodes in *. rewrite Hsc in Hd. apply Forall_app in Hd as [_ Hd]. by apply Forall_cons in Hd as [_ Hd].
  Qed.
End Lists.
