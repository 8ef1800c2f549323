(** Lemmas on message submission. *)
From Verif Require Import Submit.
From Coq Require Import ZifyN ZifyNat ZifyBool.
#[local] Open Scope N_scope.

Lemma ends_with_spec s l : ends_with s l = true <-> exists a, l = a ++ s.
Proof.
  unfold ends_with. rewrite bool_decide_eq_true. split.
  - intros H. exists (take (length l - length s) l). rewrite <- H at 2. by rewrite take_drop.
  - intros [a ->]. rewrite app_length. replace (length a + length s - length s)%nat with (length a) by lia. by rewrite drop_app.
Qed.

Lemma forward_spec fid xs :
  forward fid xs = map (fun y => EvXfer (x_id y.1)) (List.filter (fun y => (default 0 (x_target y.1) =? fid) && y.2) xs).
Proof.
  induction xs as [|[x b] r IH]; cbn [forward List.filter fst snd]; [done|]. destruct ((default 0 (x_target x) =? fid) && b); cbn [map fst]; by rewrite IH.
Qed.

(** How the trial runs end. *)
Lemma poll_spec nd w m fuel : forall k r, poll nd w m fuel k = Some r ->
  exists j, (k <= j < k + fuel)%nat /\
    (forall i, (k <= i < j)%nat -> simulate nd w i m = VMissing /\ w_clock w i < w_deadline w) /\
    match r with
    | None => simulate nd w j m = VOk
    | Some e => simulate nd w j m = VErr e \/ (simulate nd w j m = VMissing /\ e = E_valid /\ w_deadline w <= w_clock w j)
    end.
Proof.
  induction fuel as [|fuel IH]; intros k r; cbn [poll]; [done|]. destruct (simulate nd w k m) as [| |e] eqn:E.
  - intros [= <-]. exists k. split; [lia|]. split; [lia|done].
  - destruct (w_deadline w <=? w_clock w k) eqn:D.
    + intros [= <-]. exists k. split; [lia|]. split; [lia|]. right. split; [done|]. split; [done|]. lia.
    + intros H. destruct (IH _ _ H) as (j & J & A & B). exists j. split; [lia|]. split; [|done]. intros i Hi.
      destruct (decide (i = k)) as [->|]; [split; [done|lia]|]. apply A. lia.
  - intros [= <-]. exists k. split; [lia|]. split; [lia|by left].
Qed.
Lemma poll_ok nd w m fuel : forall k j, (k <= j < k + fuel)%nat ->
  (forall i, (k <= i < j)%nat -> simulate nd w i m = VMissing /\ w_clock w i < w_deadline w) ->
  simulate nd w j m = VOk -> poll nd w m fuel k = Some None.
Proof.
  induction fuel as [|fuel IH]; intros k j J A B; [lia|]. cbn [poll]. destruct (decide (k = j)) as [->|N]; [by rewrite B|].
  destruct (A k ltac:(lia)) as [-> D]. assert (w_deadline w <=? w_clock w k = false) as -> by lia. apply (IH _ j); [lia| |done].
  intros i Hi. apply A. lia.
Qed.
Lemma poll_ends nd w m : forall fuel k, (exists i, (k <= i < k + fuel)%nat /\ w_deadline w <= w_clock w i) -> poll nd w m fuel k <> None.
Proof.
  induction fuel as [|fuel IH]; intros k (i & Hi & D); [lia|]. cbn [poll]. destruct (simulate nd w k m); [done| |done].
  destruct (w_deadline w <=? w_clock w k) eqn:E; [done|]. apply IH. exists i. split; [|done].
  destruct (decide (i = k)) as [->|]; [lia|lia].
Qed.

(** ** Many messages *)
Section Bulk.
  Context {T : Type} (app : T -> smsg -> T * verdict).
  Lemma run_txn_go t e ms :
    foldl (fun s m => let r := app s.1 m in (r.1, match s.2 with Some e => Some e | None => code_of r.2 end)) (t, Some e) ms =
    ((run_txn app t ms).1, Some e).
  Proof.
    unfold run_txn. revert t. assert (forall ms (t : T) a b,
      (foldl (fun s m => let r := app s.1 m in (r.1, match s.2 with Some e => Some e | None => code_of r.2 end)) (t, a) ms).1 =
      (foldl (fun s m => let r := app s.1 m in (r.1, match s.2 with Some e => Some e | None => code_of r.2 end)) (t, b) ms).1) as A.
    { clear. induction ms as [|m ms IH]; intros t a b; cbn [foldl fst snd]; [done|]. apply IH. }
    induction ms as [|m ms IH]; intros t; cbn [foldl fst snd]; [done|]. rewrite IH. f_equal. apply A.
  Qed.
  Lemma run_txn_nil t : run_txn app t [] = (t, None). Proof. done. Qed.
  Lemma run_txn_cons t m ms : run_txn app t (m :: ms) =
    match code_of (app t m).2 with
    | Some e => ((run_txn app (app t m).1 ms).1, Some e)
    | None => run_txn app (app t m).1 ms
    end.
  Proof.
    unfold run_txn at 1. cbn [foldl fst snd]. destruct (code_of (app t m).2); [|done]. apply run_txn_go.
  Qed.

  Lemma of_fid_elem f ms m : m ∈ of_fid f ms <-> m ∈ ms /\ sm_fid m = f.
  Proof. unfold of_fid. rewrite !elem_of_list_In, filter_In, N.eqb_eq. done. Qed.
  Lemma of_shard_elem nd sh ms m : m ∈ of_shard nd sh ms <-> m ∈ ms /\ route nd m = sh.
  Proof. unfold of_shard. rewrite !elem_of_list_In, filter_In, N.eqb_eq. done. Qed.
  Lemma of_shard_cons nd sh m ms : of_shard nd sh (m :: ms) = if route nd m =? sh then m :: of_shard nd sh ms else of_shard nd sh ms.
  Proof. done. Qed.

  Lemma sim_shard_len nd t fs sh ms : length (sim_shard app nd t fs sh ms) = length ms.
  Proof. unfold sim_shard. repeat case_match; by rewrite map_length. Qed.
  Lemma sim_shard_lookup nd t fs sh ms i m : ms !! i = Some m ->
    sim_shard app nd t fs sh ms !! i =
      Some (if sh =? 0 then Some E_valid else
            match nd_stores nd sh with None => Some E_param | Some _ => assoc (sim_accounts app t fs ms) (sm_fid m) end).
  Proof. intros E. unfold sim_shard. repeat case_match; change (@map smsg) with (@fmap list _ smsg); by rewrite list_lookup_fmap, E. Qed.

  Lemma send_hashes nd ch h l : map fst (send_all nd ch h l).2 = map (fun x => sm_hash x.2) l.
  Proof. revert h. induction l as [|[[e|] m] r IH]; intros h; cbn [send_all map fst snd]; by rewrite ?IH. Qed.
  Lemma send_spec nd ch l : forall h a, a ∈ (send_all nd ch h l).2 ->
    exists e m, (e, m) ∈ l /\ a.1 = sm_hash m /\
      match e with Some e => a.2 = inl e | None => exists h', a.2 = (to_mempool nd m (ch h' m)).2 end.
  Proof.
    induction l as [|[[e|] m] r IH]; intros h a; cbn [send_all snd]; [intros H; by apply elem_of_nil in H|..];
      intros H; apply elem_of_cons in H as [->|H].
    - exists (Some e), m. split; [left|]. done.
    - destruct (IH _ _ H) as (e' & m' & A & B). exists e', m'. split; [by right|done].
    - exists None, m. split; [left|]. split; [done|]. by exists h.
    - destruct (IH _ _ H) as (e' & m' & A & B). exists e', m'. split; [by right|done].
  Qed.
  (** What goes out: for every accepted answer its message; nothing that was refused. *)
  Lemma send_events nd ch l : forall h, exists es, (send_all nd ch h l).1 = h ++ es /\
    (forall x, x ∈ es -> exists m, x = EvMsg m /\ (None, m) ∈ l /\ check_outside nd m = None) /\
    (forall m hs, (hs, inr m) ∈ (send_all nd ch h l).2 -> EvMsg m ∈ es).
  Proof.
    induction l as [|[[e|] m] r IH]; intros h; cbn [send_all fst snd].
    - exists []. split; [by rewrite app_nil_r|]. split; [intros x H; by apply elem_of_nil in H|intros m hs H; by apply elem_of_nil in H].
    - destruct (IH h) as (es & A & B & C). exists es. split; [done|]. split.
      + intros x Hx. destruct (B x Hx) as (m' & ? & ? & ?). exists m'. split; [done|]. split; [by right|done].
      + intros m' hs H. apply elem_of_cons in H as [H|H]; [done|]. by apply (C m' hs).
    - set (y := to_mempool nd m (ch h m)). destruct (IH (h ++ y.1)) as (es & A & B & C). exists (y.1 ++ es). split; [by rewrite A, app_assoc|]. split.
      + intros x Hx. apply elem_of_app in Hx as [Hx|Hx].
        * subst y. unfold to_mempool in Hx. destruct (check_outside nd m) eqn:Q; cbn [fst] in Hx; [by apply elem_of_nil in Hx|].
          exists m. split; [|split; [left|done]]. destruct (ch h m) as [| |[]]; cbn [fst] in Hx; try (by apply elem_of_nil in Hx); by apply elem_of_list_singleton in Hx.
        * destruct (B x Hx) as (m' & ? & ? & ?). exists m'. split; [done|]. split; [by right|done].
      + intros m' hs H. apply elem_of_app. apply elem_of_cons in H as [H|H]; [left|right; by apply (C m' hs)].
        injection H as _ H. subst y. unfold to_mempool in *. destruct (check_outside nd m); [done|].
        destruct (ch h m) as [| |[]]; cbn [fst snd] in *; try done. injection H as ->. left.
  Qed.

  Lemma combine_snd {A B} (l : list A) (k : list B) : length l = length k -> map snd (combine l k) = k.
  Proof. revert k. induction l as [|x l IH]; intros [|y k] H; try done. cbn in *. f_equal. apply IH. lia. Qed.

  Lemma bulk_shards_hashes nd t0 ford ch ms : forall shs h,
    map fst (bulk_shards app nd t0 ford ch h shs ms).2 = concat (map (fun sh => map sm_hash (of_shard nd sh ms)) shs).
  Proof.
    induction shs as [|sh r IH]; intros h; cbn [bulk_shards map concat snd]; [done|]. rewrite map_app, IH. f_equal.
    rewrite send_hashes, <- (map_map snd sm_hash). f_equal. apply combine_snd, sim_shard_len.
  Qed.
  Lemma shards_perm nd ms : forall shs, NoDup shs -> (forall m, m ∈ ms -> route nd m ∈ shs) ->
    concat (map (fun sh => of_shard nd sh ms) shs) ≡ₚ ms.
  Proof.
    intros shs ND H. induction ms as [|m ms IH].
    - clear. induction shs; [done|]. cbn. done.
    - assert (route nd m ∈ shs) as Hm by (apply H; left).
      assert (forall shs, NoDup shs -> concat (map (fun sh => of_shard nd sh (m :: ms)) shs) ≡ₚ
                (if bool_decide (route nd m ∈ shs) then [m] else []) ++ concat (map (fun sh => of_shard nd sh ms) shs)) as A.
      { clear. induction shs as [|sh r IH]; intros ND; [done|]. inversion ND; subst. cbn [map concat]. rewrite IH by done.
        rewrite of_shard_cons. destruct (route nd m =? sh) eqn:E.
        - assert (sh = route nd m) as -> by lia. rewrite (bool_decide_true (_ ∈ _ :: r)) by left. rewrite (bool_decide_false (_ ∈ r)) by done. done.
        - rewrite (bool_decide_ext (route nd m ∈ sh :: r) (route nd m ∈ r)).
          + case_bool_decide; [|done]. cbn [List.app]. by rewrite Permutation_middle.
          + rewrite elem_of_cons. split; [intros [?|?]; [lia|done]|tauto]. }
      rewrite A by done. rewrite bool_decide_true by done. cbn [List.app]. constructor. apply IH. intros m' Hm'. apply H. by right.
  Qed.

  Lemma bulk_shards_in nd t0 ford ch ms a : forall shs h, a ∈ (bulk_shards app nd t0 ford ch h shs ms).2 ->
    exists sh h', sh ∈ shs /\ a ∈ (send_all nd ch h' (combine (sim_shard app nd (t0 sh) (ford sh) sh (of_shard nd sh ms)) (of_shard nd sh ms))).2.
  Proof.
    induction shs as [|sh r IH]; intros h; cbn [bulk_shards snd]; [intros H; by apply elem_of_nil in H|]. intros H.
    apply elem_of_app in H as [H|H]; [exists sh, h; split; [left|done]|]. destruct (IH _ H) as (sh' & h' & A & B). exists sh', h'. split; [by right|done].
  Qed.
  Lemma bulk_shards_events nd t0 ford ch ms : forall shs h, exists es, (bulk_shards app nd t0 ford ch h shs ms).1 = h ++ es /\
    (forall x, x ∈ es -> exists m sh, x = EvMsg m /\ sh ∈ shs /\ check_outside nd m = None /\
       (None, m) ∈ combine (sim_shard app nd (t0 sh) (ford sh) sh (of_shard nd sh ms)) (of_shard nd sh ms)) /\
    (forall m hs, (hs, inr m) ∈ (bulk_shards app nd t0 ford ch h shs ms).2 -> EvMsg m ∈ es).
  Proof.
    induction shs as [|sh r IH]; intros h; cbn [bulk_shards fst snd].
    - exists []. split; [by rewrite app_nil_r|]. split; [intros x H; by apply elem_of_nil in H|intros m hs H; by apply elem_of_nil in H].
    - set (l := combine _ _). destruct (send_events nd ch l h) as (e1 & A1 & B1 & C1). rewrite A1. destruct (IH (h ++ e1)) as (e2 & A2 & B2 & C2).
      exists (e1 ++ e2). split; [by rewrite A2, app_assoc|]. split.
      + intros x Hx. apply elem_of_app in Hx as [Hx|Hx].
        * destruct (B1 x Hx) as (m & ? & ? & ?). exists m, sh. split; [done|]. split; [left|done].
        * destruct (B2 x Hx) as (m & sh' & ? & ? & ?). exists m, sh'. split; [done|]. split; [by right|done].
      + intros m hs H. apply elem_of_app. apply elem_of_app in H as [H|H]; [left; by apply (C1 m hs)|right; by apply (C2 m hs)].
  Qed.
  Lemma combine_elem nd t fs sh ms e m : (e, m) ∈ combine (sim_shard app nd t fs sh ms) ms ->
    m ∈ ms /\ e = if sh =? 0 then Some E_valid else
            match nd_stores nd sh with None => Some E_param | Some _ => assoc (sim_accounts app t fs ms) (sm_fid m) end.
  Proof.
    intros H. apply elem_of_list_lookup in H as [i H]. assert (sim_shard app nd t fs sh ms !! i = Some e /\ ms !! i = Some m) as [A B].
    { revert i H. generalize (sim_shard app nd t fs sh ms) as l. clear. intros l. revert ms. induction l as [|x l IH]; intros [|y k] i H; try by destruct i.
      destruct i; cbn in *; [injection H as -> ->; done|]. by apply IH. }
    split; [by eapply elem_of_list_lookup_2|]. rewrite (sim_shard_lookup _ _ _ _ _ _ _ B) in A. congruence.
  Qed.

  (** Accounts that do not see each other. *)
  Definition separate (R : N -> T -> T -> Prop) : Prop :=
    (forall f t, R f t t) /\ (forall f t u v, R f t u -> R f u v -> R f t v) /\
    (forall f t u m, R f t u -> sm_fid m = f -> (app t m).2 = (app u m).2 /\ R f (app t m).1 (app u m).1) /\
    (forall f t m, sm_fid m <> f -> R f t (app t m).1).
  Lemma run_txn_same R f : separate R -> forall ms t u, R f t u -> Forall (fun m => sm_fid m = f) ms ->
    (run_txn app t ms).2 = (run_txn app u ms).2.
  Proof.
    intros (R1 & R2 & R3 & R4). induction ms as [|m ms IH]; intros t u H F; [done|]. inversion F as [|? ? F1 F2]; subst.
    destruct (R3 _ _ _ _ H eq_refl) as [V S]. rewrite !run_txn_cons, V. destruct (code_of (app u m).2); [done|]. by apply IH.
  Qed.
  Lemma run_txn_other R f g : separate R -> f <> g -> forall ms t, Forall (fun m => sm_fid m = f) ms -> R g t (run_txn app t ms).1.
  Proof.
    intros (R1 & R2 & R3 & R4) N. induction ms as [|m ms IH]; intros t F; [apply R1|]. inversion F as [|? ? F1 F2]; subst.
    assert (R g t (run_txn app (app t m).1 ms).1) as Q by (eapply R2; [apply R4; done|by apply IH]).
    rewrite run_txn_cons. by destruct (code_of (app t m).2).
  Qed.
  Lemma of_fid_all f ms : Forall (fun m => sm_fid m = f) (of_fid f ms).
  Proof. apply Forall_forall. intros m H. by apply of_fid_elem in H as [_ ?]. Qed.
  Lemma sim_accounts_separate R f ms : separate R -> forall fs t, NoDup fs -> f ∈ fs ->
    assoc (sim_accounts app t fs ms) f = (run_txn app t (of_fid f ms)).2.
  Proof.
    intros S. assert (forall fs t u, NoDup fs -> f ∈ fs -> R f u t -> assoc (sim_accounts app t fs ms) f = (run_txn app u (of_fid f ms)).2) as A.
    { pose proof S as (R1 & R2 & R3 & R4). induction fs as [|g r IH]; intros t u ND H Q; [by apply elem_of_nil in H|]. inversion ND; subst.
      cbn [sim_accounts assoc]. destruct (g =? f) eqn:E.
      - assert (g = f) as -> by lia. symmetry. eapply run_txn_same; [exact S|exact Q|apply of_fid_all].
      - apply elem_of_cons in H as [->|H]; [lia|]. apply IH; [done|done|]. eapply R2; [exact Q|]. eapply (run_txn_other R g f); [exact S|lia|apply of_fid_all]. }
    intros fs t ND H. apply A; [done|done|apply S].
  Qed.
End Bulk.
