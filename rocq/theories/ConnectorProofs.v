(** Proofs about the connectors of Connector.v. *)
From Coq Require Import ZifyN ZifyNat ZifyBool.
From Verif Require Import Base Connector.
#[local] Open Scope N_scope.

(** Every log of contract [c] with [lo <= block < hi] is in [sent]. *)
Definition covered (chain : list clog) (c lo hi : N) (sent : list clog) : Prop :=
  forall l, l ∈ chain -> l_contract l = c -> lo <= l_block l -> l_block l < hi -> l ∈ sent.
Definition good (chain : list clog) (ok : clog -> bool) : bool := forallb ok chain.
Definition good_ans (chain : list clog) (a : answer) : bool := match a with Some ok => good chain ok | None => true end.

Lemma covered_mono chain c lo hi sent more : covered chain c lo hi sent -> covered chain c lo hi (sent ++ more).
Proof. intros H l H1 H2 H3 H4. apply elem_of_app. left. by apply H. Qed.
Lemma covered_less chain c lo hi hi' sent : hi' <= hi -> covered chain c lo hi sent -> covered chain c lo hi' sent.
Proof. intros Hh H l H1 H2 H3 H4. apply H; [done..|lia]. Qed.
Lemma covered_join chain c lo m hi sent more : covered chain c lo m sent -> covered chain c m hi more -> covered chain c lo hi (sent ++ more).
Proof.
  intros H1 H2 l A B C D. apply elem_of_app. destruct (N.lt_ge_cases (l_block l) m); [left; by apply H1|right; by apply H2].
Qed.

Lemma logs_in_elem chain c from to l : l ∈ logs_in chain c from to <-> l ∈ chain /\ l_contract l = c /\ from <= l_block l /\ l_block l <= to.
Proof. unfold logs_in. rewrite !elem_of_list_In, filter_In, !andb_true_iff, N.eqb_eq, !N.leb_le. tauto. Qed.
Lemma filter_id {A} (f : A -> bool) l : forallb f l = true -> List.filter f l = l.
Proof. induction l as [|a l IH]; [done|]. cbn. intros H. apply andb_prop in H as [-> H]. by rewrite IH. Qed.
Lemma processed_good chain ok c from to : good chain ok = true -> processed ok (logs_in chain c from to) = logs_in chain c from to.
Proof.
  intros H. unfold processed. apply filter_id. apply forallb_forall. intros l Hl.
  apply elem_of_list_In, logs_in_elem in Hl as [Hl _]. unfold good in H. rewrite forallb_forall in H. apply H. by apply elem_of_list_In.
Qed.
Lemma range_covered chain c from to : covered chain c from (to + 1) (logs_in chain c from to).
Proof. intros l H1 H2 H3 H4. apply logs_in_elem. repeat split; [done..|lia]. Qed.

(** ** Historical sync *)
Lemma retry_spec chain c from to : forall ans n l rest e, forallb (good_ans chain) ans = true ->
  get_logs_with_retry chain c from to n ans = (l, rest, e) ->
  forallb (good_ans chain) rest = true /\ (e = EDone -> l = logs_in chain c from to).
Proof.
  induction ans as [|[ok|] ans IH]; intros n l rest e Hg H; cbn in H.
  - injection H as <- <- <-. by split.
  - injection H as <- <- <-. cbn in Hg. apply andb_prop in Hg as [Hg Hr]. split; [done|]. intros _. by apply processed_good.
  - destruct (5 <? n + 1).
    + injection H as <- <- <-. by split.
    + by apply (IH (n + 1)).
Qed.
Lemma batch_spec chain from to : forall cs ans l rest e, forallb (good_ans chain) ans = true ->
  batch chain cs from to ans = (l, rest, e) ->
  forallb (good_ans chain) rest = true /\ (e = EDone -> l = concat (map (fun c => logs_in chain c from to) cs)).
Proof.
  induction cs as [|c cs IH]; intros ans l rest e Hg H; cbn in H.
  - injection H as <- <- <-. by split.
  - destruct (get_logs_with_retry chain c from to 0 ans) as [[l1 r1] e1] eqn:E1.
    destruct (retry_spec _ _ _ _ _ _ _ _ _ Hg E1) as [Hr1 Hl1].
    destruct e1; [|injection H as <- <- <-; by split..].
    destruct (batch chain cs from to r1) as [[l2 r2] e2] eqn:E2. injection H as <- <- <-.
    destruct (IH _ _ _ _ Hr1 E2) as [Hr2 Hl2]. split; [done|]. intros He. cbn. by rewrite (Hl1 eq_refl), (Hl2 He).
Qed.
Lemma concat_covered chain cs c from to : c ∈ cs -> covered chain c from (to + 1) (concat (map (fun c => logs_in chain c from to) cs)).
Proof.
  intros Hc l H1 H2 H3 H4. apply elem_of_list_In, in_concat. exists (logs_in chain c from to). split.
  - apply in_map_iff. exists c. split; [done|]. by apply elem_of_list_In.
  - apply elem_of_list_In. by apply range_covered.
Qed.
Lemma record_le db n : record db n = N.max db n.
Proof. unfold record. destruct (N.ltb_spec db n); lia. Qed.

Lemma historical_spec chain cs c s0 : c ∈ cs -> forall n from final db ans sent db' l e,
  forallb (good_ans chain) ans = true -> covered chain c s0 from sent -> covered chain c s0 db sent ->
  historical chain n cs from final db ans = (db', l, e) ->
  covered chain c s0 db' (sent ++ l) /\ (e = EDone -> covered chain c s0 (final + 1) (sent ++ l)).
Proof.
  intros Hc. induction n as [|n IH]; intros from final db ans sent db' l e Hg Hf Hd H; cbn [historical] in H.
  - injection H as <- <- <-. split; [by apply covered_mono|done].
  - set (to := N.min final (from + 1000)) in *. destruct (batch chain cs from to ans) as [[l1 r1] e1] eqn:E1.
    destruct (batch_spec _ _ _ _ _ _ _ _ Hg E1) as [Hr1 Hl1].
    destruct e1; [|injection H as <- <- <-; split; [by apply covered_mono|done]..].
    specialize (Hl1 eq_refl).
    assert (Hto : covered chain c s0 (to + 1) (sent ++ l1)).
    { apply (covered_join _ _ _ from); [done|]. rewrite Hl1. by apply concat_covered. }
    assert (Hrec : covered chain c s0 (record db to) (sent ++ l1)).
    { rewrite record_le. destruct (N.max_spec db to) as [[_ ->]|[_ ->]]; [|by apply covered_mono].
      apply (covered_less _ _ _ (to + 1)); [lia|done]. }
    destruct (N.ltb_spec final (from + 1000)) as [Hl|Hge].
    + injection H as <- <- <-. split; [done|]. intros _. apply (covered_less _ _ _ (to + 1)); [lia|done].
    + destruct (historical chain n cs (from + 1000) final (record db to) r1) as [[db2 l2] e2] eqn:E2. injection H as <- <- <-.
      rewrite app_assoc. apply (IH (from + 1000) final (record db to) r1); [done| |done|done].
      apply (covered_less _ _ _ (to + 1)); [lia|done].
Qed.

(** ** Polling *)
Lemma poll_spec chain stop c head s0 : forall ans cur cur' l e sent, forallb (good_ans chain) ans = true ->
  poll chain stop c head cur ans = (cur', l, e) -> covered chain c s0 cur sent -> covered chain c s0 cur' (sent ++ l).
Proof.
  induction ans as [|a ans IH]; intros cur cur' l e sent Hg H Hc; cbn [poll] in H.
  - destruct (cur <=? head); injection H as <- <- <-; by apply covered_mono.
  - destruct (cur <=? head); [|injection H as <- <- <-; by apply covered_mono].
    cbn in Hg. apply andb_prop in Hg as [Ha Hg]. destruct a as [ok|]; [|injection H as <- <- <-; by apply covered_mono].
    set (to := N.min _ (cur + 8000)) in *. destruct (poll chain stop c head (to + 1) ans) as [[cur2 l2] e2] eqn:E2.
    injection H as <- <- <-. rewrite processed_good by done. rewrite app_assoc.
    apply (IH (to + 1) cur2 l2 e2); [done|done|]. apply (covered_join _ _ _ cur); [done|apply range_covered].
Qed.
Definition cursors_ok (chain : list clog) (s0 : N) (sent : list clog) (cs : list (N * N)) : Prop :=
  forall p, p ∈ cs -> covered chain p.1 s0 p.2 sent.
Lemma lowest_le cs m : lowest cs = Some m -> forall p, p ∈ cs -> m <= p.2.
Proof.
  destruct cs as [|[c x] cs]; [done|]. cbn. intros [= <-].
  assert (G : forall (l : list (N * N)) (a : N), fold_left (fun a p => N.min a p.2) l a <= a /\ forall p, p ∈ l -> fold_left (fun a p => N.min a p.2) l a <= p.2).
  { induction l as [|q l IH]; intros a; cbn; [split; [lia|]; intros p Hp; by apply elem_of_nil in Hp|].
    destruct (IH (N.min a q.2)) as [H1 H2]. split; [lia|]. intros p [->|Hp]%elem_of_cons; [lia|by apply H2]. }
  destruct (G cs x) as [H1 H2]. intros p [->|Hp]%elem_of_cons; [done|by apply H2].
Qed.

(** ** The stream *)
Definition sorted_blocks (chain : list clog) : Prop := StronglySorted (fun a b => l_block a <= l_block b) chain.
Lemma filter_sorted {A} (R : A -> A -> Prop) f (l : list A) : StronglySorted R l -> StronglySorted R (List.filter f l).
Proof.
  induction 1 as [|a l H IH HF]; cbn; [constructor|]. destruct (f a); [|done]. constructor; [done|].
  rewrite Forall_forall in *. intros x Hx. apply HF. apply elem_of_list_In in Hx. apply filter_In in Hx as [Hx _]. by apply elem_of_list_In.
Qed.
Lemma receive_good chain ok l : good chain ok = true -> (forall x, x ∈ l -> x ∈ chain) -> forall db sent,
  (fold_left (receive ok) l (db, sent)).2 = sent ++ l /\
  ((fold_left (receive ok) l (db, sent)).1 = db \/ exists x, x ∈ l /\ (fold_left (receive ok) l (db, sent)).1 = l_block x).
Proof.
  intros Hg. unfold good in Hg. rewrite forallb_forall in Hg. induction l as [|x l IH]; intros Hin db sent; cbn [fold_left].
  - rewrite app_nil_r. split; [done|by left].
  - unfold receive at 2 4 6. cbn [fst snd].
    assert (Hx : ok x = true) by (apply Hg, elem_of_list_In, Hin; by left). rewrite Hx.
    destruct (IH ltac:(intros y Hy; apply Hin; by right) (record db (l_block x)) (sent ++ [x])) as [H1 H2]. split.
    + rewrite H1. by rewrite <- app_assoc.
    + destruct H2 as [H2|(y & Hy & H2)].
      * rewrite H2. rewrite record_le. destruct (N.max_spec db (l_block x)) as [[_ ->]|[_ ->]]; [right; exists x; split; [by left|done]|by left].
      * right. exists y. split; [by right|done].
Qed.
Lemma prefix_below {A} (R : A -> A -> Prop) (l : list A) k x y : StronglySorted R l -> x ∈ take k l -> y ∈ l -> ~ R x y -> y ∈ take k l.
Proof.
  revert k. induction l as [|a l IH]; intros k Hs Hx Hy Hn; [by apply elem_of_nil in Hy|].
  destruct k as [|k]; [by apply elem_of_nil in Hx|]. cbn in *. apply StronglySorted_inv in Hs as [Hs Hf].
  apply elem_of_cons in Hy as [->|Hy]; [by left|]. apply elem_of_cons in Hx as [->|Hx].
  - exfalso. apply Hn. rewrite Forall_forall in Hf. by apply Hf.
  - right. by apply IH.
Qed.

(** ** The invariant *)
Section Inv.
  Context (chain : list clog) (first : N) (start stop : option N).
  Context (c : N) (polled : bool).
  Definition origin : N := match start with Some s => N.max s first | None => first end.
  (** Histories in which every request that is answered is processed without failures and [c] is always watched, in the
      same way as all the other contracts. *)
  Definition op_good (o : sop) : bool :=
    match o with
    | SStart ws _ ans => forallb (good_ans chain) ans && existsb (fun w => w_addr w =? c) ws && forallb (fun w => Bool.eqb (w_polled w) polled) ws
    | STick ins => forallb (fun i : option N * list answer => forallb (good_ans chain) i.2) ins
    | SStream _ ok => good chain ok
    | _ => true
    end.
  Record inv (st : sub) : Prop := Inv {
    i_db : covered chain c origin (s_db st) (s_sent st);
    i_live : forall lv, s_live st = Some lv ->
      covered chain c origin (lv_start lv) (s_sent st) /\ cursors_ok chain origin (s_sent st) (List.filter (fun p => p.1 =? c) (lv_polled lv)) /\
      (if polled then c ∈ map fst (lv_polled lv) /\ lv_streamed lv = [] else c ∈ lv_streamed lv /\ lv_polled lv = []) /\
      (forall l, l ∈ take (lv_off lv) (stream_logs chain stop lv) -> l_contract l = c -> l ∈ s_sent st) }.

  Lemma elem_filter {A} (f : A -> bool) l x : x ∈ List.filter f l <-> x ∈ l /\ f x = true.
  Proof using Type. by rewrite !elem_of_list_In, filter_In. Qed.
  Lemma new_live_inv ws from sent db : existsb (fun w => w_addr w =? c) ws = true -> forallb (fun w => Bool.eqb (w_polled w) polled) ws = true ->
    covered chain c origin from sent -> covered chain c origin db sent -> inv (Sub db sent (Some (new_live ws from))).
  Proof using Type.
    intros He Hu Hf Hd. constructor; [done|]. cbn [s_live]. intros lv [= <-]. cbn [lv_start lv_polled lv_streamed lv_off new_live s_sent].
    split; [done|]. split.
    { intros p Hp. apply elem_filter in Hp as [Hp Hpc]. apply elem_of_list_In, in_map_iff in Hp as (w & <- & _). cbn in *.
      apply N.eqb_eq in Hpc as ->. done. }
    split; [|intros l Hl; by apply elem_of_nil in Hl].
    apply existsb_exists in He as (w & Hw & Hwc). apply N.eqb_eq in Hwc. rewrite forallb_forall in Hu.
    destruct polled.
    - split.
      + apply elem_of_list_In, in_map_iff. exists (c, from). split; [done|]. apply in_map_iff. exists w. split; [by rewrite Hwc|].
        apply filter_In. split; [done|]. specialize (Hu _ Hw). by destruct (w_polled w).
      + destruct (List.filter (fun w => negb (w_polled w)) ws) as [|w' l] eqn:E; [done|]. exfalso.
        assert (Hw' : In w' (List.filter (fun w => negb (w_polled w)) ws)) by (rewrite E; by left).
        apply filter_In in Hw' as [Hw' Hn]. specialize (Hu _ Hw'). by destruct (w_polled w').
    - split.
      + apply elem_of_list_In, in_map_iff. exists w. split; [done|]. apply filter_In. split; [done|]. specialize (Hu _ Hw). by destruct (w_polled w).
      + destruct (List.filter w_polled ws) as [|w' l] eqn:E; [done|]. exfalso.
        assert (Hw' : In w' (List.filter w_polled ws)) by (rewrite E; by left).
        apply filter_In in Hw' as [Hw' Hn]. specialize (Hu _ Hw'). by destruct (w_polled w').
  Qed.
  Lemma inv_start st ws latest ans : inv st -> op_good (SStart ws latest ans) = true -> inv (run_start chain first start stop ws latest ans st).
  Proof using Type.
    intros HI Hg. cbn in Hg. apply andb_prop in Hg as [Hg Hu]. apply andb_prop in Hg as [Hg He]. destruct HI as [Hdb _].
    unfold run_start. destruct start as [s|] eqn:Es.
    - set (from := N.max (s_db st) (N.max s first)). set (final := N.min latest _).
      destruct (historical chain _ _ from final (s_db st) ans) as [[db l] e] eqn:E.
      assert (Hcs : c ∈ map w_addr ws).
      { apply existsb_exists in He as (w & Hw & Hwc). apply elem_of_list_In, in_map_iff. exists w. split; [by apply N.eqb_eq|done]. }
      assert (Hfrom : covered chain c origin from (s_sent st)).
      { intros x A B C D. apply Hdb; [done..|]. unfold from in D. unfold origin in C. rewrite Es in C. lia. }
      destruct (historical_spec chain (map w_addr ws) c origin Hcs (S (N.to_nat (final - from))) from final (s_db st) ans (s_sent st) db l e Hg Hfrom Hdb E) as [H1 H2].
      assert (Hn : inv (Sub db (s_sent st ++ l) None)) by (by constructor).
      destruct e; [|done..]. specialize (H2 eq_refl).
      assert (Hl : inv (Sub db (s_sent st ++ l) (Some (new_live ws final)))).
      { apply new_live_inv; [done|done| |done]. apply (covered_less _ _ _ (final + 1)); [lia|done]. }
      destruct stop as [x|]; [|done]. by destruct (final <? x).
    - apply new_live_inv; [done|done| |done]. intros x A B C D. apply Hdb; [done..|]. unfold origin in C. rewrite Es in C. lia.
  Qed.
  Lemma inv_tick st lv ins : inv st -> s_live st = Some lv -> op_good (STick ins) = true -> inv (tick chain stop ins st lv).
  Proof using Type.
    intros [Hdb Hlv] El Hg. cbn in Hg. destruct (Hlv lv El) as (H1 & H2 & H3 & H4). unfold tick.
    destruct (poll_all chain stop (lv_polled lv) ins) as [[cs l] b] eqn:E.
    (* the cursors of [c] only *)
    assert (G : forall cs0 ins0 cs' l0 b0 sent, forallb (fun i : option N * list answer => forallb (good_ans chain) i.2) ins0 = true ->
      poll_all chain stop cs0 ins0 = (cs', l0, b0) -> cursors_ok chain origin sent (List.filter (fun p => p.1 =? c) cs0) ->
      cursors_ok chain origin (sent ++ l0) (List.filter (fun p => p.1 =? c) cs') /\ map fst cs' = map fst cs0).
    { clear. induction cs0 as [|[c0 cur] cs0 IH]; intros ins0 cs' l0 b0 sent Hg H Hc; cbn [poll_all] in H.
      { injection H as <- <- <-. split; [|done]. intros p Hp. by apply elem_of_nil in Hp. }
      assert (Hcs : cursors_ok chain origin sent (List.filter (fun p => p.1 =? c) cs0)).
      { intros p Hp. apply Hc. apply elem_filter in Hp as [Hp Hpc]. apply elem_filter. split; [by right|done]. }
      assert (Hmono : forall cs2 m, cursors_ok chain origin sent cs2 -> cursors_ok chain origin (sent ++ m) cs2).
      { intros cs2 m H2 p Hp. by apply covered_mono, H2. }
      assert (Hcons : forall x sent2 cs2, (c0 = c -> covered chain c0 origin x sent2) -> cursors_ok chain origin sent2 (List.filter (fun p => p.1 =? c) cs2) ->
        cursors_ok chain origin sent2 (List.filter (fun p => p.1 =? c) ((c0, x) :: cs2))).
      { intros x sent2 cs2 Hx H2 p Hp. apply elem_filter in Hp as [[->|Hp]%elem_of_cons Hpc].
        - cbn in *. apply Hx. by apply N.eqb_eq.
        - apply H2. by apply elem_filter. }
      assert (Hc1 : c0 = c -> covered chain c0 origin cur sent).
      { intros ->. apply (Hc (c, cur)). apply elem_filter. split; [by left|]. apply N.eqb_refl. }
      destruct ins0 as [|[[head|] ans] ins0].
      - injection H as <- <- <-. split; [|done]. apply Hmono. by apply Hcons.
      - cbn in Hg. apply andb_prop in Hg as [Ha Hg]. destruct (poll chain stop c0 head cur ans) as [[cur1 l1] e1] eqn:E1.
        assert (Hp1 : c0 = c -> covered chain c0 origin cur1 (sent ++ l1)).
        { intros Hx. by apply (poll_spec _ _ _ _ _ _ _ _ _ _ _ Ha E1), Hc1. }
        assert (Hdone : (let '(cs', l', b) := poll_all chain stop cs0 ins0 in ((c0, cur1) :: cs', l1 ++ l', b)) = (cs', l0, b0) ->
          cursors_ok chain origin (sent ++ l0) (List.filter (fun p => p.1 =? c) cs') /\ map fst cs' = map fst ((c0, cur) :: cs0)).
        { destruct (poll_all chain stop cs0 ins0) as [[cs2 l2] b2] eqn:E2. intros Hx. injection Hx as <- <- <-.
          destruct (IH _ _ _ _ (sent ++ l1) Hg E2) as [H2 H3]; [by apply Hmono|]. rewrite app_assoc. split; [|cbn; by rewrite H3].
          apply Hcons; [|done]. intros Hx. by apply covered_mono, Hp1. }
        destruct e1; [by apply Hdone|by apply Hdone|]. injection H as <- <- <-. split; [|done]. apply Hcons; [done|by apply Hmono].
      - cbn in Hg. destruct (forallb (good_ans chain) ans); [|done]. cbn in Hg.
        destruct (poll_all chain stop cs0 ins0) as [[cs2 l2] b2] eqn:E2. injection H as <- <- <-.
        destruct (IH _ _ _ _ sent Hg E2 Hcs) as [H2 H3]. split; [|cbn; by rewrite H3].
        apply Hcons; [|done]. intros Hx. by apply covered_mono, Hc1. }
    destruct (G _ _ _ _ _ (s_sent st) Hg E H2) as [G1 G2]. destruct b; [|constructor; [by apply covered_mono|done]].
    constructor.
    - cbn [s_db s_sent]. destruct (lowest cs) as [m|] eqn:Em; [|by apply covered_mono].
      destruct (0 <? m); [|by apply covered_mono]. rewrite record_le.
      destruct (N.max_spec (s_db st) (m - 1)) as [[_ ->]|[_ ->]]; [|by apply covered_mono].
      destruct polled.
      + destruct H3 as [H3 _]. rewrite <- G2 in H3. apply elem_of_list_In, in_map_iff in H3 as ([c' cur] & Hc' & Hin). cbn in Hc'. subst c'.
        apply elem_of_list_In in Hin. pose proof (lowest_le _ _ Em _ Hin) as Hle. cbn in Hle.
        apply (covered_less _ _ _ cur); [lia|]. apply (G1 (c, cur)). apply elem_filter. split; [done|]. apply N.eqb_refl.
      + destruct H3 as [_ H3]. rewrite H3 in G2. destruct cs; [done|]. done.
    - cbn [s_live]. intros lv' [= <-]. cbn [lv_start lv_polled lv_streamed lv_off s_sent]. split; [by apply covered_mono|]. split; [done|]. split.
      + destruct polled; [by rewrite G2|]. destruct H3 as [H3 H3']. split; [done|]. rewrite H3' in G2. by destruct cs.
      + intros x Hx Hxc. apply elem_of_app. left. by apply H4.
  Qed.
  Lemma inv_stream st lv k ok : sorted_blocks chain -> inv st -> s_live st = Some lv -> op_good (SStream k ok) = true -> inv (stream chain stop k ok st lv).
  Proof using Type.
    intros Hs [Hdb Hlv] El Hg. cbn in Hg. destruct (Hlv lv El) as (H1 & H2 & H3 & H4). unfold stream.
    set (sl := stream_logs chain stop lv) in *. set (nx := take k (drop (lv_off lv) sl)).
    assert (Hin : forall x, x ∈ sl -> x ∈ chain) by (intros x Hx; unfold sl, stream_logs in Hx; by apply elem_filter in Hx as [Hx _]).
    assert (Hnx : forall x, x ∈ nx -> x ∈ sl).
    { intros x Hx. unfold nx in Hx. rewrite <- (take_drop (lv_off lv) sl). apply elem_of_app. right. rewrite <- (take_drop k (drop (lv_off lv) sl)).
      apply elem_of_app. by left. }
    destruct (receive_good chain ok nx Hg ltac:(intros x Hx; by apply Hin, Hnx) (s_db st) (s_sent st)) as [R1 R2].
    destruct (fold_left (receive ok) nx (s_db st, s_sent st)) as [db sent] eqn:Ef. cbn [fst snd] in R1, R2. subst sent.
    assert (Htake : take (lv_off lv + k) sl = take (lv_off lv) sl ++ nx).
    { unfold nx. clear. revert k. generalize (lv_off lv). induction sl as [|a l IH]; intros n k; [by rewrite !take_nil, drop_nil, take_nil|].
      destruct n; [done|]. cbn. f_equal. apply IH. }
    assert (Hsl : forall x, x ∈ take (lv_off lv + k) sl -> l_contract x = c -> x ∈ s_sent st ++ nx).
    { intros x Hx Hxc. rewrite Htake in Hx. apply elem_of_app in Hx as [Hx|Hx]; apply elem_of_app; [left; by apply H4|by right]. }
    constructor.
    - cbn [s_db s_sent]. destruct R2 as [->|(y & Hy & ->)]; [by apply covered_mono|].
      intros x A B C D. destruct (N.lt_ge_cases (l_block x) (lv_start lv)) as [|Hge]; [apply elem_of_app; left; by apply H1|].
      assert (Hysl : y ∈ sl) by by apply Hnx.
      assert (Hst : lv_streamed lv = [] -> False).
      { intros Hnil. unfold sl, stream_logs in Hysl. apply elem_filter in Hysl as [_ Hf]. by rewrite Hnil in Hf. }
      destruct polled; [destruct H3 as [_ H3]; by apply Hst in H3|]. destruct H3 as [H3 _].
      assert (Hxsl : x ∈ sl).
      { unfold sl, stream_logs. apply elem_filter. split; [done|]. unfold sl, stream_logs in Hysl. apply elem_filter in Hysl as [_ Hf].
        apply andb_prop in Hf as [_ Hf]. apply andb_true_intro. split.
        - apply andb_true_intro. split; [|by apply N.leb_le]. apply existsb_exists. exists c. split; [by apply elem_of_list_In|]. apply N.eqb_eq. exact B.
        - destruct stop; [|done]. apply N.leb_le in Hf. apply N.leb_le. lia. }
      apply Hsl; [|done]. apply (prefix_below (fun a b => l_block a <= l_block b) sl _ y x).
      + unfold sl, stream_logs. by apply filter_sorted.
      + rewrite Htake. apply elem_of_app. by right.
      + done.
      + lia.
    - cbn [s_live]. intros lv' [= <-]. cbn [lv_start lv_polled lv_streamed lv_off s_sent]. split; [by apply covered_mono|]. split; [|split; [done|]].
      + intros p Hp. by apply covered_mono, H2.
      + exact Hsl.
  Qed.
  Lemma inv_run ops : sorted_blocks chain -> forallb op_good ops = true -> inv (sub_run chain first start stop ops).
  Proof using Type.
    intros Hs. unfold sub_run.
    assert (G : forall st, inv st -> forallb op_good ops = true -> inv (fold_left (sub_step chain first start stop) ops st)).
    { induction ops as [|o ops' IH]; intros st HI Hg; [done|]. cbn [fold_left forallb] in *. apply andb_prop in Hg as [Ho Hg].
      apply IH; [|done]. destruct o as [ws latest ans|ins|k ok| |cs from to ok|]; cbn [sub_step].
      - by apply inv_start.
      - destruct (s_live st) as [lv|] eqn:El; [|done]. by apply inv_tick.
      - destruct (s_live st) as [lv|] eqn:El; [|done]. by apply inv_stream.
      - destruct (s_live st) as [lv|] eqn:El; [|done]. destruct HI as [Hdb Hlv]. destruct (Hlv lv El) as (H1 & H2 & H3 & H4).
        constructor; [done|]. cbn [s_live]. intros lv' [= <-]. cbn [lv_start lv_polled lv_streamed lv_off s_sent]. split; [done|]. split; [|split].
        + intros p Hp. apply elem_filter in Hp as [Hp Hpc]. apply elem_of_list_In, in_map_iff in Hp as (q & <- & _). cbn in *.
          apply N.eqb_eq in Hpc as ->. done.
        + destruct polled.
          * destruct H3 as [H3 H3']. split; [|done]. rewrite map_map. exact H3.
          * destruct H3 as [H3 H3']. split; [done|]. by rewrite H3'.
        + intros l Hl. by apply elem_of_nil in Hl.
      - destruct (s_live st) as [lv|] eqn:El; [|done]. destruct HI as [Hdb Hlv]. destruct (Hlv lv El) as (H1 & H2 & H3 & H4).
        constructor; [by apply covered_mono|]. cbn [s_live]. intros lv' [= <-]. cbn [s_sent]. split; [by apply covered_mono|]. split; [|split; [done|]].
        + intros p Hp. by apply covered_mono, H2.
        + intros l Hl Hlc. apply elem_of_app. left. by apply H4.
      - destruct HI as [Hdb _]. by constructor. }
    intros Hg. apply G; [|done]. constructor; [|done]. intros l A B C D. cbn in D. lia.
  Qed.
End Inv.
