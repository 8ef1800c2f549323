(** Properties C78 and C79: every on-chain event and every username transfer reaches the mempool (Connector.v). *)
From Coq Require Import ZifyN ZifyNat ZifyBool.
From Verif Require Import Base Connector ConnectorProofs.
#[local] Open Scope N_scope.

(** * C78: the on-chain event subscriber *)
(** For every history of starts, crashes, polls, stream batches and failing requests in which contract [c] was watched at
    every start and no log failed to be processed: every log of [c] from the configured start up to the recorded block
    was sent, so was every log below the live cursor of [c] and every log received from the stream. *)
Theorem C78_at_least_once : forall chain first start stop c polled ops,
  sorted_blocks chain -> forallb (op_good chain c polled) ops = true ->
  let st := sub_run chain first start stop ops in
  let s0 := match start with Some s => N.max s first | None => first end in
  (forall l, l ∈ chain -> l_contract l = c -> s0 <= l_block l -> l_block l < s_db st -> l ∈ s_sent st) /\
  (forall lv cur, s_live st = Some lv -> (c, cur) ∈ lv_polled lv ->
     forall l, l ∈ chain -> l_contract l = c -> s0 <= l_block l -> l_block l < cur -> l ∈ s_sent st) /\
  (forall lv, s_live st = Some lv ->
     forall l, l ∈ take (lv_off lv) (stream_logs chain stop lv) -> l_contract l = c -> l ∈ s_sent st).
Proof.
  intros chain first start stop c polled ops Hs Hg st s0. destruct (inv_run chain first start stop c polled ops Hs Hg) as [H1 H2].
  split; [exact H1|]. split.
  - intros lv cur El Hin. destruct (H2 lv El) as (_ & H3 & _). apply (H3 (c, cur)). apply elem_filter. split; [done|]. apply N.eqb_refl.
  - intros lv El. by destruct (H2 lv El) as (_ & _ & _ & H4).
Qed.

Lemma range_split chain c a m b : sorted_blocks chain -> a <= m + 1 -> m <= b ->
  logs_in chain c a m ++ logs_in chain c (m + 1) b = logs_in chain c a b.
Proof.
  intros Hs Ham Hmb. unfold logs_in. induction Hs as [|x l Hs IH HF]; [done|]. cbn [List.filter].
  destruct (N.eqb_spec (l_contract x) c) as [Hc|]; cbn [andb]; [|exact IH].
  destruct (N.leb_spec a (l_block x)) as [H1|H1]; cbn [andb].
  - destruct (N.leb_spec (l_block x) m) as [H2|H2].
    + destruct (N.leb_spec (m + 1) (l_block x)); [lia|]. destruct (N.leb_spec (l_block x) b); [|lia]. cbn [andb app]. by rewrite IH.
    + destruct (N.leb_spec (m + 1) (l_block x)); [|lia]. cbn [andb].
      assert (Hnil : List.filter (fun l => (l_contract l =? c) && (a <=? l_block l) && (l_block l <=? m)) l = []).
      { clear IH Hs. induction l as [|y l IHl]; [done|]. apply Forall_cons in HF as [Hy HF]. cbn.
        destruct (N.leb_spec (l_block y) m); [lia|]. rewrite andb_false_r. by apply IHl. }
      rewrite Hnil in IH |- *. cbn [app] in IH |- *. destruct (N.leb_spec (l_block x) b); by rewrite IH.
  - destruct (N.leb_spec (m + 1) (l_block x)); [lia|]. cbn [andb]. exact IH.
Qed.

(** One poll of a contract, without a stop block: exactly the logs of the blocks the cursor passed, once each and in chain
    order; it is done when the cursor is past the head, never goes further, and enough answers finish it. *)
Theorem C78_poll : forall chain c head ans cur cur' l e, sorted_blocks chain -> forallb (good_ans chain) ans = true ->
  poll chain None c head cur ans = (cur', l, e) ->
  l = (if cur <? cur' then logs_in chain c cur (cur' - 1) else []) /\ cur <= cur' /\ cur' <= N.max cur (head + 1) /\
  (e = EDone <-> head < cur') /\
  (forallb (fun a : answer => match a with Some _ => true | None => false end) ans = true ->
   (N.to_nat (head + 1 - cur) <= length ans)%nat -> e = EDone).
Proof.
  intros chain c head ans. induction ans as [|a ans IH]; intros cur cur' l e Hs Hg H; cbn [poll] in H.
  - destruct (N.leb_spec cur head) as [Hl|Hl]; injection H as <- <- <-; rewrite N.ltb_irrefl.
    + cbn. repeat split; try lia; done.
    + repeat split; try lia; done.
  - destruct (N.leb_spec cur head) as [Hl|Hl].
    2:{ injection H as <- <- <-. rewrite N.ltb_irrefl. repeat split; try lia; done. }
    cbn in Hg. apply andb_prop in Hg as [Ha Hg]. destruct a as [ok|].
    2:{ injection H as <- <- <-. rewrite N.ltb_irrefl. repeat split; try lia; done. }
    set (to := N.min head (cur + 8000)) in *. destruct (poll chain None c head (to + 1) ans) as [[cur2 l2] e2] eqn:E2.
    injection H as <- <- <-. destruct (IH _ _ _ _ Hs Hg E2) as (I1 & I2 & I3 & I4 & I5).
    assert (Hto : cur <= to) by lia. repeat split; [|lia|lia|apply I4|apply I4|].
    + rewrite processed_good by done. destruct (N.ltb_spec cur cur2); [|lia]. rewrite I1.
      destruct (N.ltb_spec (to + 1) cur2).
      * apply range_split; [done|lia|lia].
      * rewrite app_nil_r. f_equal. lia.
    + cbn. intros Hall Hlen. apply I5; [done|]. lia.
Qed.

(** With a stop block below the head, a poll never ends by itself: it asks for an empty range again and again until a
    request fails. *)
Theorem C78_stop_refuted : forall chain c x head ans cur, x < head -> cur <= head ->
  forallb (fun a : answer => match a with Some _ => true | None => false end) ans = true ->
  (poll chain (Some x) c head cur ans).2 = ECrash.
Proof.
  intros chain c x head ans. induction ans as [|a ans IH]; intros cur Hx Hc Hall; cbn [poll].
  - destruct (N.leb_spec cur head); [done|lia].
  - destruct (N.leb_spec cur head); [|lia]. cbn in Hall. destruct a as [ok|]; [|done].
    set (to := N.min (N.min x head) (cur + 8000)). specialize (IH (to + 1) Hx ltac:(lia) Hall).
    by destruct (poll chain (Some x) c head (to + 1) ans) as [[cur2 l2] e2].
Qed.

(** ** How often the historical sync sends a log *)
Definition times (l : clog) (s : list clog) : nat := length (List.filter (fun x => bool_decide (x = l)) s).
Lemma times_app l a b : times l (a ++ b) = (times l a + times l b)%nat.
Proof. unfold times. by rewrite List.filter_app, app_length. Qed.
Lemma times_none l s : l ∉ s -> times l s = 0%nat.
Proof.
  unfold times. induction s as [|x s IH]; [done|]. intros H. cbn. apply not_elem_of_cons in H as [H1 H2].
  rewrite bool_decide_false by congruence. by apply IH.
Qed.
Lemma times_once l s : NoDup s -> l ∈ s -> times l s = 1%nat.
Proof.
  intros Hn Hl. induction Hn as [|x s Hx Hn IH]; [by apply elem_of_nil in Hl|]. apply elem_of_cons in Hl as [->|Hl].
  - unfold times. cbn. rewrite bool_decide_true by done. cbn. f_equal. by apply times_none.
  - unfold times. cbn. rewrite bool_decide_false; [by apply IH|]. intros ->. done.
Qed.
Lemma nodup_filter {A} (f : A -> bool) l : NoDup l -> NoDup (List.filter f l).
Proof.
  induction 1 as [|x l Hx Hn IH]; cbn; [constructor|]. destruct (f x); [|done]. constructor; [|done].
  intros H. apply elem_filter in H as [H _]. done.
Qed.
Lemma times_batch chain cs from to l : NoDup chain -> NoDup cs -> l ∈ chain -> l_contract l ∈ cs ->
  times l (concat (map (fun c => logs_in chain c from to) cs)) = if (from <=? l_block l) && (l_block l <=? to) then 1%nat else 0%nat.
Proof.
  intros Hn Hcs Hl Hc. induction Hcs as [|c cs Hx Hcs IH]; [by apply elem_of_nil in Hc|]. cbn [map concat]. rewrite times_app.
  assert (Hr : forall c', times l (logs_in chain c' from to) = if (l_contract l =? c') && (from <=? l_block l) && (l_block l <=? to) then 1%nat else 0%nat).
  { intros c'. destruct ((l_contract l =? c') && (from <=? l_block l) && (l_block l <=? to)) eqn:E.
    - apply times_once; [by apply nodup_filter|]. unfold logs_in. by apply elem_filter.
    - apply times_none. intros H. unfold logs_in in H. apply elem_filter in H as [_ H]. by rewrite H in E. }
  rewrite Hr. apply elem_of_cons in Hc as [Hc|Hc].
  - rewrite Hc, N.eqb_refl. cbn [andb]. assert (H0 : times l (concat (map (fun c => logs_in chain c from to) cs)) = 0%nat).
    { apply times_none. intros H. apply elem_of_list_In, in_concat in H as (r & Hr1 & Hr2). apply in_map_iff in Hr1 as (c' & <- & Hc').
      apply elem_of_list_In, logs_in_elem in Hr2 as (_ & Hr2 & _). apply Hx. rewrite <- Hc, Hr2. by apply elem_of_list_In. }
    rewrite H0. lia.
  - destruct (N.eqb_spec (l_contract l) c) as [Hcc|]; [by rewrite Hcc in Hc|]. cbn [andb]. by apply IH.
Qed.
(** A historical sync that ends sends every log of the range once, and those of the blocks a whole number of thousands
    after its start twice. *)
Theorem C78_historical : forall chain cs n from final db ans db' sent l, NoDup chain -> NoDup cs ->
  forallb (good_ans chain) ans = true -> historical chain n cs from final db ans = (db', sent, EDone) ->
  l ∈ chain -> l_contract l ∈ cs -> from <= l_block l -> l_block l <= final ->
  times l sent = (if (0 <? l_block l - from) && ((l_block l - from) mod 1000 =? 0) then 2%nat else 1%nat) /\ db' = N.max db final.
Proof.
  intros chain cs n. induction n as [|n IH]; intros from final db ans db' sent l Hn Hcs Hg H Hl Hc Hf Hb; cbn [historical] in H; [done|].
  set (to := N.min final (from + 1000)) in *. destruct (batch chain cs from to ans) as [[l1 r1] e1] eqn:E1.
  destruct (batch_spec _ _ _ _ _ _ _ _ Hg E1) as [Hr1 Hl1]. destruct e1; [|done..]. specialize (Hl1 eq_refl).
  pose proof (times_batch chain cs from to l Hn Hcs Hl Hc) as Ht.
  rewrite record_le in H. destruct (N.ltb_spec final (from + 1000)) as [Hlt|Hge].
  - injection H as <- <-. rewrite Hl1, Ht. assert (to = final) as -> by lia. split; [|lia].
    destruct (N.leb_spec from (l_block l)); [|lia]. destruct (N.leb_spec (l_block l) final); [|lia]. cbn [andb].
    destruct (N.ltb_spec 0 (l_block l - from)); [|done]. cbn [andb]. rewrite N.mod_small by lia.
    destruct (N.eqb_spec (l_block l - from) 0); [lia|done].
  - destruct (historical chain n cs (from + 1000) final (N.max db to) r1) as [[db2 l2] e2] eqn:E2. injection H as <- <- ->.
    rewrite times_app, Hl1, Ht.
    assert (to = from + 1000) as Hto by lia. rewrite Hto in *. clear Hto to.
    destruct (N.lt_ge_cases (l_block l) (from + 1000)) as [Hlow|Hhigh].
    + (* not reached by the later batches *)
      assert (Hno : times l l2 = 0%nat /\ db2 = N.max (N.max db (from + 1000)) final).
      { assert (G : forall n from final db ans db' sent, forallb (good_ans chain) ans = true -> historical chain n cs from final db ans = (db', sent, EDone) ->
          l_block l < from -> times l sent = 0%nat /\ (db' = N.max db final)).
        { clear - Hl Hc Hn Hcs. induction n as [|n IH]; intros from final db ans db' sent Hg H Hlt; cbn [historical] in H; [done|].
          set (to := N.min final (from + 1000)) in *. destruct (batch chain cs from to ans) as [[l1 r1] e1] eqn:E1.
          destruct (batch_spec _ _ _ _ _ _ _ _ Hg E1) as [Hr1 Hl1]. destruct e1; [|done..]. specialize (Hl1 eq_refl).
          pose proof (times_batch chain cs from to l Hn Hcs Hl Hc) as Ht. destruct (N.leb_spec from (l_block l)); [lia|]. cbn [andb] in Ht.
          rewrite record_le in H. destruct (N.ltb_spec final (from + 1000)).
          - injection H as <- <-. rewrite Hl1, Ht. split; [done|lia].
          - destruct (historical chain n cs (from + 1000) final (N.max db to) r1) as [[db2 l2] e2] eqn:E2. injection H as <- <- ->.
            destruct (IH _ _ _ _ _ _ Hr1 E2 ltac:(lia)) as [I1 I2]. rewrite times_app, Hl1, Ht, I1. split; [done|lia]. }
        by apply (G n (from + 1000) final (N.max db (from + 1000)) r1). }
      destruct Hno as [Hno Hdb]. rewrite Hno. split; [|lia].
      destruct (N.leb_spec from (l_block l)); [|lia]. destruct (N.leb_spec (l_block l) (from + 1000)); [|lia]. cbn [andb].
      destruct (N.ltb_spec 0 (l_block l - from)); [|done]. cbn [andb]. rewrite N.mod_small by lia.
      destruct (N.eqb_spec (l_block l - from) 0); [lia|done].
    + destruct (IH _ _ _ _ _ _ l Hn Hcs Hr1 E2 Hl Hc ltac:(lia) Hb) as [I1 I2]. rewrite I1. split; [|lia].
      destruct (N.leb_spec from (l_block l)); [|lia]. cbn [andb].
      assert (Hmod : (l_block l - from) mod 1000 = (l_block l - (from + 1000)) mod 1000).
      { replace (l_block l - from) with (l_block l - (from + 1000) + 1 * 1000) by lia. by rewrite N.mod_add. }
      rewrite Hmod. destruct (N.ltb_spec 0 (l_block l - from)); [|lia]. cbn [andb].
      destruct (N.leb_spec (l_block l) (from + 1000)) as [He|He].
      * replace (l_block l - (from + 1000)) with 0 by lia. cbn. done.
      * destruct (N.ltb_spec 0 (l_block l - (from + 1000))); [|lia]. cbn [andb]. by destruct (_ =? 0).
Qed.

(** ** What is lost *)
(** The operations after the restart: no retry by an operator, and the head reported at a start is not behind. *)
Definition later_op (d : N) (o : sop) : bool :=
  match o with SStart _ latest _ => d <=? latest | SRetry _ _ _ _ => false | _ => true end.
Definition above (d : N) (st : sub) : Prop :=
  d <= s_db st /\ forall lv, s_live st = Some lv -> d <= lv_start lv /\ forall p, p ∈ lv_polled lv -> d <= p.2.
Lemma poll_above chain c head d : forall ans cur cur' l e, d <= cur -> poll chain None c head cur ans = (cur', l, e) ->
  d <= cur' /\ forall x, x ∈ l -> d <= l_block x.
Proof.
  induction ans as [|a ans IH]; intros cur cur' l e Hd H; cbn [poll] in H.
  - destruct (cur <=? head); injection H as <- <- <-; (split; [done|]; intros x Hx; by apply elem_of_nil in Hx).
  - destruct (N.leb_spec cur head).
    2:{ injection H as <- <- <-. split; [done|]. intros x Hx. by apply elem_of_nil in Hx. }
    destruct a as [ok|].
    2:{ injection H as <- <- <-. split; [done|]. intros x Hx. by apply elem_of_nil in Hx. }
    set (to := N.min head (cur + 8000)) in *. destruct (poll chain None c head (to + 1) ans) as [[cur2 l2] e2] eqn:E2.
    injection H as <- <- <-. destruct (IH (to + 1) cur2 l2 e2 ltac:(lia) E2) as [I1 I2]. split; [done|].
    intros x [Hx|Hx]%elem_of_app; [|by apply I2]. unfold processed in Hx. apply elem_filter in Hx as [Hx _]. apply logs_in_elem in Hx. lia.
Qed.
Lemma poll_all_above chain d : forall cs ins cs' l b, (forall p, p ∈ cs -> d <= p.2) -> poll_all chain None cs ins = (cs', l, b) ->
  (forall p, p ∈ cs' -> d <= p.2) /\ forall x, x ∈ l -> d <= l_block x.
Proof.
  induction cs as [|[c cur] cs IH]; intros ins cs' l b Hcs H; cbn [poll_all] in H.
  - injection H as <- <- <-. split; [done|]. intros x Hx. by apply elem_of_nil in Hx.
  - assert (Hc : d <= cur) by (apply (Hcs (c, cur)); by left).
    assert (Hcs' : forall p, p ∈ cs -> d <= p.2) by (intros p Hp; apply Hcs; by right).
    destruct ins as [|[[head|] ans] ins].
    + injection H as <- <- <-. split; [done|]. intros x Hx. by apply elem_of_nil in Hx.
    + destruct (poll chain None c head cur ans) as [[cur1 l1] e1] eqn:E1. destruct (poll_above _ _ _ d _ _ _ _ _ Hc E1) as [P1 P2].
      assert (Hdone : (let '(cs', l', b) := poll_all chain None cs ins in ((c, cur1) :: cs', l1 ++ l', b)) = (cs', l, b) ->
        (forall p, p ∈ cs' -> d <= p.2) /\ forall x, x ∈ l -> d <= l_block x).
      { destruct (poll_all chain None cs ins) as [[cs2 l2] b2] eqn:E2. intros Hx. injection Hx as <- <- <-.
        destruct (IH _ _ _ _ Hcs' E2) as [I1 I2]. split.
        - intros p [->|Hp]%elem_of_cons; [done|by apply I1].
        - intros x [Hx|Hx]%elem_of_app; [by apply P2|by apply I2]. }
      destruct e1; [by apply Hdone|by apply Hdone|]. injection H as <- <- <-. split; [|done].
      intros p [->|Hp]%elem_of_cons; [done|by apply Hcs'].
    + destruct (poll_all chain None cs ins) as [[cs2 l2] b2] eqn:E2. injection H as <- <- <-.
      destruct (IH _ _ _ _ Hcs' E2) as [I1 I2]. split; [|done]. intros p [->|Hp]%elem_of_cons; [done|by apply I1].
Qed.
Lemma retry_above chain c from to : forall ans n l rest e, get_logs_with_retry chain c from to n ans = (l, rest, e) ->
  forall x, x ∈ l -> from <= l_block x.
Proof.
  induction ans as [|[ok|] ans IH]; intros n l rest e H x Hx; cbn in H.
  - injection H as <- _ _. by apply elem_of_nil in Hx.
  - injection H as <- _ _. unfold processed in Hx. apply elem_filter in Hx as [Hx _]. apply logs_in_elem in Hx. lia.
  - destruct (5 <? n + 1); [injection H as <- _ _; by apply elem_of_nil in Hx|by apply (IH (n + 1) l rest e)].
Qed.
Lemma batch_above chain from to : forall cs ans l rest e, batch chain cs from to ans = (l, rest, e) -> forall x, x ∈ l -> from <= l_block x.
Proof.
  induction cs as [|c cs IH]; intros ans l rest e H x Hx; cbn in H; [injection H as <- _ _; by apply elem_of_nil in Hx|].
  destruct (get_logs_with_retry chain c from to 0 ans) as [[l1 r1] e1] eqn:E1. pose proof (retry_above _ _ _ _ _ _ _ _ _ E1) as H1.
  destruct e1; [|injection H as <- _ _; by apply H1..]. destruct (batch chain cs from to r1) as [[l2 r2] e2] eqn:E2.
  injection H as <- _ _. apply elem_of_app in Hx as [Hx|Hx]; [by apply H1|by apply (IH _ _ _ _ E2)].
Qed.
Lemma historical_above chain cs d : forall n from final db ans db' l e, d <= from -> d <= db ->
  historical chain n cs from final db ans = (db', l, e) -> d <= db' /\ forall x, x ∈ l -> d <= l_block x.
Proof.
  induction n as [|n IH]; intros from final db ans db' l e Hf Hd H; cbn [historical] in H.
  - injection H as <- <- <-. split; [done|]. intros x Hx. by apply elem_of_nil in Hx.
  - set (to := N.min final (from + 1000)) in *. destruct (batch chain cs from to ans) as [[l1 r1] e1] eqn:E1.
    pose proof (batch_above _ _ _ _ _ _ _ _ E1) as H1.
    assert (H1' : forall x, x ∈ l1 -> d <= l_block x) by (intros x Hx; specialize (H1 x Hx); lia).
    destruct e1; [|injection H as <- <- <-; by split..]. rewrite record_le in H.
    destruct (final <? from + 1000).
    + injection H as <- <- <-. split; [lia|done].
    + destruct (historical chain n cs (from + 1000) final (N.max db to) r1) as [[db2 l2] e2] eqn:E2. injection H as <- <- <-.
      destruct (IH (from + 1000) final (N.max db to) r1 db2 l2 e2 ltac:(lia) ltac:(lia) E2) as [I1 I2]. split; [done|].
      intros x [Hx|Hx]%elem_of_app; [by apply H1'|by apply I2].
Qed.
Lemma start_above chain first start ws latest ans d st l : d <= s_db st -> d <= latest -> l_block l < d -> l ∉ s_sent st ->
  above d (run_start chain first start None ws latest ans st) /\ l ∉ s_sent (run_start chain first start None ws latest ans st).
Proof.
  intros Hd Hlat Hl Hno. unfold run_start.
  assert (Hnew : forall from, d <= from -> d <= lv_start (new_live ws from) /\ forall p, p ∈ lv_polled (new_live ws from) -> d <= p.2).
  { intros from Hf. cbn. split; [done|]. intros p Hp. apply elem_of_list_In, in_map_iff in Hp as (w & <- & _). done. }
  destruct start as [s|].
  - set (from := N.max (s_db st) (N.max s first)). set (final := N.min latest latest).
    assert (Hfin : d <= final) by (unfold final; lia).
    destruct (historical chain _ _ from final (s_db st) ans) as [[db sent] e] eqn:E.
    destruct (historical_above chain (map w_addr ws) d _ from final (s_db st) ans db sent e ltac:(lia) Hd E) as [H1 H2].
    split; [|cbn; rewrite elem_of_app; intros [Hx|Hx]; [done|specialize (H2 _ Hx); lia]].
    split; [done|]. cbn [s_live]. destruct e; [|done..]. intros lv [= <-]. by apply Hnew.
  - split; [|done]. split; [done|]. cbn [s_live]. intros lv [= <-]. apply Hnew. lia.
Qed.
Lemma receive_above ok d l : l_block l < d -> forall s db sent, (forall x, x ∈ s -> d <= l_block x) -> d <= db -> l ∉ sent ->
  d <= (fold_left (receive ok) s (db, sent)).1 /\ l ∉ (fold_left (receive ok) s (db, sent)).2.
Proof.
  intros Hl. induction s as [|x s IH]; intros db sent Hs Hdb Hno; [done|]. cbn [fold_left].
  assert (Hx : d <= l_block x) by (apply Hs; by left). unfold receive at 2 4. cbn [fst snd]. destruct (ok x).
  - apply IH; [intros y Hy; apply Hs; by right|rewrite record_le; lia|].
    rewrite elem_of_app. intros [H|H]; [done|]. apply elem_of_list_singleton in H. subst x. lia.
  - apply IH; [intros y Hy; apply Hs; by right|done|done].
Qed.
(** A log below the recorded block that was not sent (its processing failed, or its contract was not watched then) is not
    sent by any later run either, whatever the answers, unless an operator asks for it. *)
Theorem C78_lost_refuted : forall chain first start ops ws latest ans more l,
  let st := sub_run chain first start None ops in
  l_block l < s_db st -> l ∉ s_sent st -> s_db st <= latest -> forallb (later_op (s_db st)) more = true ->
  l ∉ s_sent (sub_run chain first start None (ops ++ SStart ws latest ans :: more)).
Proof.
  intros chain first start ops ws latest ans more l st Hl Hno Hlat Hmore. unfold sub_run. rewrite fold_left_app. fold (sub_run chain first start None ops).
  fold st. cbn [fold_left sub_step]. set (d := s_db st) in *.
  destruct (start_above chain first start ws latest ans d st l ltac:(lia) Hlat Hl Hno) as [Ha Hn].
  generalize dependent (run_start chain first start None ws latest ans st). clearbody d. clear Hno Hlat st.
  induction more as [|o more IH]; intros st Ha Hn; [done|]. cbn [fold_left forallb] in *. apply andb_prop in Hmore as [Ho Hmore].
  destruct Ha as [Hdb Hlv].
  assert (G : above d (sub_step chain first start None st o) /\ l ∉ s_sent (sub_step chain first start None st o)); [|apply IH; [done|apply G..]].
  destruct o as [ws' latest' ans'|ins|k ok| |cs from to ok|]; cbn [sub_step].
  - apply start_above; [done|cbn in Ho; lia|done|done].
  - destruct (s_live st) as [lv|] eqn:El; [|split; [split; [done|]|done]; intros lv Hx; congruence].
    destruct (Hlv lv eq_refl) as [L1 L2]. unfold tick. destruct (poll_all chain None (lv_polled lv) ins) as [[cs l'] b] eqn:E.
    destruct (poll_all_above _ d _ _ _ _ _ L2 E) as [P1 P2].
    assert (Hl' : l ∉ s_sent st ++ l') by (rewrite elem_of_app; intros [H|H]; [done|specialize (P2 _ H); lia]).
    destruct b; (split; [|exact Hl']).
    + split.
      * cbn [s_db]. destruct (lowest cs) as [m|]; [|done]. destruct (0 <? m); [|done]. rewrite record_le. lia.
      * cbn [s_live]. intros lv' [= <-]. by split.
    + split; [done|]. cbn [s_live]. done.
  - destruct (s_live st) as [lv|] eqn:El; [|split; [split; [done|]|done]; intros lv Hx; congruence].
    destruct (Hlv lv eq_refl) as [L1 L2]. unfold stream.
    destruct (receive_above ok d l Hl (take k (drop (lv_off lv) (stream_logs chain None lv))) (s_db st) (s_sent st)) as [R1 R2].
    { intros x Hx. assert (Hx' : x ∈ stream_logs chain None lv).
      { rewrite <- (take_drop (lv_off lv) (stream_logs chain None lv)). apply elem_of_app. right.
        rewrite <- (take_drop k (drop (lv_off lv) (stream_logs chain None lv))). apply elem_of_app. by left. }
      unfold stream_logs in Hx'. apply elem_filter in Hx' as [_ Hx']. lia. }
    { done. } { done. }
    destruct (fold_left (receive ok) _ (s_db st, s_sent st)) as [db sent]. cbn [fst snd] in R1, R2. split; [|done].
    split; [done|]. cbn [s_live]. intros lv' [= <-]. by split.
  - destruct (s_live st) as [lv|] eqn:El; [|split; [split; [done|]|done]; intros lv Hx; congruence].
    destruct (Hlv lv eq_refl) as [L1 L2]. split; [|done]. split; [done|]. cbn [s_live]. intros lv' [= <-]. cbn. split; [done|].
    intros p Hp. apply elem_of_list_In, in_map_iff in Hp as (q & <- & _). done.
  - done.
  - split; [|done]. split; [done|]. done.
Qed.

(** Six failed requests in a row during the historical sync end the subscriber: nothing more is sent until the node is
    restarted. *)
Theorem C78_gives_up_refuted : forall chain first s stop w ws latest ans st more,
  forallb (fun o => match o with SStart _ _ _ => false | _ => true end) more = true ->
  s_sent (fold_left (sub_step chain first (Some s) stop) (SStart (w :: ws) latest (repeat None 6 ++ ans) :: more) st) = s_sent st.
Proof.
  intros chain first s stop w ws latest ans st more Hm. cbn [fold_left sub_step].
  assert (E : exists db, run_start chain first (Some s) stop (w :: ws) latest (repeat None 6 ++ ans) st = Sub db (s_sent st) None).
  { unfold run_start. cbn [historical map batch].
    assert (R : forall c from to, get_logs_with_retry chain c from to 0 (repeat None 6 ++ ans) = ([], ans, EError)) by reflexivity.
    rewrite R. rewrite app_nil_r. eauto. }
  destruct E as [db ->]. induction more as [|o more IH]; [done|]. cbn [fold_left forallb] in *. apply andb_prop in Hm as [Ho Hm].
  destruct o; cbn [sub_step s_live]; [done|by apply IH..].
Qed.

(** ** Retry by account (mod.rs:454-503): the kinds of events asked for, next to the kinds processed (mod.rs:906-1198). *)
Inductive kind := KRent | KRegister | KIdTransfer | KChangeRecovery | KAdd | KRemove | KAdminReset | KPurchasedTier.
Inductive registry := RStorage | RId | RKey | RTier.
Definition home (k : kind) : registry :=
  match k with KRent => RStorage | KRegister | KIdTransfer | KChangeRecovery => RId | KAdd | KRemove | KAdminReset => RKey | KPurchasedTier => RTier end.
Definition retry_kinds (r : registry) : list kind :=
  match r with RStorage => [KRent] | RId => [KRegister; KIdTransfer] | RKey => [KAdd; KRemove] | RTier => [KPurchasedTier] end.
(** A retry of an account asks for all its kinds of events except changes of the recovery address and administrative
    removals of keys. *)
Theorem C78_retry_kinds_refuted : forall k, In k (retry_kinds (home k)) <-> k <> KChangeRecovery /\ k <> KAdminReset.
Proof.
  intros k. split.
  - destruct k; cbn; intros H; (split; intros Hk; try discriminate Hk); destruct H as [H|[H|[]]] || destruct H as [H|[]]; discriminate H.
  - intros [H1 H2]. destruct k; cbn; auto; by exfalso.
Qed.

Section Examples.
  Let mk c b i := CLog c b i.
  Let chain := [mk 1 10 0; mk 2 10 1; mk 1 12 0; mk 2 2010 0; mk 1 2012 0; mk 2 9015 0; mk 1 9020 0].
  Let yes : answer := Some (fun _ => true).
  Let ws := [Watched 1 true; Watched 2 true].
  Let run := sub_run chain 5 None None.
  Lemma chain_sorted : sorted_blocks chain.
  Proof using Type. unfold sorted_blocks, chain, mk. repeat constructor; cbn; lia. Qed.
  (** A crash during a tick, then a restart: the first tick records nothing. *)
  Let h1 := [SStart ws 100 []; STick [(Some 9100, [yes; yes]); (Some 9100, [yes])]; SStart ws 9100 []; STick [(Some 9100, [yes; yes]); (None, [])];
             STick [(None, []); (Some 9100, [yes; yes])]].
  Example C78_at_least_once_ex : forallb (op_good chain 1 true) h1 = true /\ forallb (op_good chain 2 true) h1 = true /\
    map l_index (s_sent (run h1)) = [0; 0; 0; 0; 1; 0; 0; 0; 0; 0; 1; 0; 0] /\ s_db (run h1) = 9100.
  Proof using Type. vm_compute. repeat split. Qed.
  Example C78_stream_ex : let wso := [Watched 1 false; Watched 2 false] in
    let h := [SStart wso 1500 [yes; yes; None; yes; yes]; SStream 2 (fun _ => true); SResubscribe; SStream 1 (fun _ => true); SCrash] in
    forallb (op_good chain 2 false) h = true /\
    s_sent (sub_run chain 5 (Some 0) None h) = [mk 1 10 0; mk 1 12 0; mk 2 10 1; mk 2 2010 0; mk 1 2012 0; mk 2 2010 0] /\
    s_db (sub_run chain 5 (Some 0) None h) = 2012.
  Proof using Type. vm_compute. repeat split. Qed.
  Example C78_historical_ex : exists db, historical chain 10 [1; 2] 10 3000 0 (repeat yes 20) =
    (db, [mk 1 10 0; mk 1 12 0; mk 2 10 1; mk 2 2010 0; mk 1 2012 0; mk 2 2010 0], EDone).
  Proof using Type. vm_compute. eauto. Qed.
  (** The time of block 12 could not be fetched: log (1, 12) is never sent.  Contract 2 was not watched in the first run. *)
  Let h2 := [SStart [Watched 1 true] 100 []; STick [(Some 2000, [Some (fun l => negb (l_block l =? 12))])]].
  Example C78_lost_ex : s_db (run h2) = 2000 /\ mk 1 12 0 ∉ s_sent (run h2) /\ mk 2 10 1 ∉ s_sent (run h2) /\
    s_sent (run (h2 ++ SStart ws 9100 [] :: [STick [(Some 9100, [yes]); (Some 9100, [yes])]])) = [mk 1 10 0; mk 1 2012 0; mk 1 9020 0; mk 2 2010 0; mk 2 9015 0].
  Proof using Type.
    split; [by vm_compute|]. split; [|split; [|by vm_compute]].
    - apply (bool_decide_unpack _). by vm_compute.
    - apply (bool_decide_unpack _). by vm_compute.
  Qed.
  Example C78_stop_ex : (poll chain (Some 50) 1 100 7 (repeat yes 40)).2 = ECrash /\ (poll chain (Some 50) 1 100 7 (repeat yes 40)).1.1 = 51.
  Proof using Type. vm_compute. repeat split. Qed.
End Examples.

(** * C79: the username transfer fetcher *)
(** The transfers of the server, oldest first; ids start above 0. *)
Definition transfers_ok (W : list transfer) : Prop := StronglySorted (fun a b => t_id a < t_id b) W /\ Forall (fun t => 0 < t_id t) W.
(** An honest answer to a request from position [p]: some of the transfers after [p], without gaps (not all of them, as
    pages are limited and transfers may come later). *)
Definition after (W : list transfer) (p : N) : list transfer := List.filter (fun t => p <? t_id t) W.
Fixpoint is_start (a b : list transfer) : bool :=
  match a, b with [], _ => true | x :: a, y :: b => bool_decide (x = y) && is_start a b | _, [] => false end.
Definition answer_of (o : fop) : option (list transfer) := match o with FAnswer l | FCrash l _ => Some l | _ => None end.
Fixpoint honest (W : list transfer) (start_from stop_at : option N) (st : fst_) (ops : list fop) : bool :=
  match ops with
  | [] => true
  | o :: ops => match answer_of o with Some l => is_start l (after W (f_pos st)) | None => true end &&
                honest W start_from stop_at (fstep start_from stop_at st o) ops
  end.

Lemma is_start_prefix a : forall b, is_start a b = true -> exists r, b = a ++ r.
Proof.
  induction a as [|x a IH]; intros b H; [by exists b|]. destruct b as [|y b]; [done|]. cbn in H. apply andb_prop in H as [H1 H2].
  apply bool_decide_eq_true in H1 as ->. destruct (IH _ H2) as [r ->]. by exists r.
Qed.
Lemma after_elem W p t : t ∈ after W p <-> t ∈ W /\ p < t_id t.
Proof. unfold after. rewrite elem_filter. by rewrite N.ltb_lt. Qed.
Lemma last_cons_d {A} (l : list A) : forall y d, List.last (y :: l) d = List.last l y.
Proof. induction l as [|z l IH]; intros y d; [done|]. change (List.last (z :: l) d = List.last (z :: l) y). by rewrite !IH. Qed.
Lemma ids_sorted l : StronglySorted (fun a b => t_id a < t_id b) l -> StronglySorted N.lt (map t_id l).
Proof.
  induction l as [|y l IH]; intros H; [constructor|]. apply StronglySorted_inv in H as [H HF]. cbn [map]. constructor; [by apply IH|].
  apply Forall_forall. intros z Hz. apply elem_of_list_In, in_map_iff in Hz as (w & <- & Hw). rewrite Forall_forall in HF. apply HF. by apply elem_of_list_In.
Qed.
(** One page: the position moves to the last transfer handled, everything up to it that is well formed is sent. *)
Lemma fpage_spec stop : forall k l pos pos' sent e, fpage stop k l pos = (pos', sent, e) ->
  exists a b, l = a ++ b /\ sent = List.filter t_ok a /\ pos' = List.last (map t_id a) pos /\
    StronglySorted N.lt (pos :: map t_id a) /\ (forall s t, stop = Some s -> t ∈ a -> t_id t < s) /\ (e = FMore -> b = []).
Proof.
  intros k l. revert k. induction l as [|t l IH]; intros k pos pos' sent e H; cbn [fpage] in H.
  - destruct k; injection H as <- <- <-; (exists [], []; repeat split; [repeat constructor|intros s t _ Ht; by apply elem_of_nil in Ht]).
  - assert (Hnil : (pos', sent, e) = (pos, [], e) -> e <> FMore -> exists a b, t :: l = a ++ b /\ sent = List.filter t_ok a /\
      pos' = List.last (map t_id a) pos /\ StronglySorted N.lt (pos :: map t_id a) /\ (forall s t, stop = Some s -> t ∈ a -> t_id t < s) /\ (e = FMore -> b = [])).
    { intros Hx He. injection Hx as -> ->. exists [], (t :: l). repeat split; [repeat constructor|intros s x _ Hx; by apply elem_of_nil in Hx|done]. }
    destruct k as [|k]; [injection H as <- <- <-; by apply Hnil|].
    cbn [fpage] in H. destruct (t_id t <=? pos) eqn:Hgt; [injection H as <- <- <-; by apply Hnil|]. apply N.leb_gt in Hgt.
    destruct (match stop with Some s => s <=? t_id t | None => false end) eqn:Es; [injection H as <- <- <-; by apply Hnil|].
    destruct (fpage stop k l (t_id t)) as [[p2 s2] e2] eqn:E2. injection H as <- <- <-.
    destruct (IH _ _ _ _ _ E2) as (a & b & -> & -> & -> & Hs & Hst & Hm). exists (t :: a), b. split; [done|]. split.
    { cbn. by destruct (t_ok t). }
    split; [by rewrite map_cons, last_cons_d|]. split; [|split; [|done]].
    + cbn. apply SSorted_cons; [done|]. apply StronglySorted_inv in Hs as [_ Hf]. constructor; [done|].
      eapply Forall_impl; [exact Hf|]. cbn. intros x Hx. lia.
    + intros s x -> [->|Hx]%elem_of_cons; [lia|by apply (Hst s)].
Qed.
Lemma last_ge pos l : StronglySorted N.lt (pos :: l) -> pos <= List.last l pos /\ forall x, x ∈ l -> x <= List.last l pos.
Proof.
  revert pos. induction l as [|y l IH]; intros pos H; [split; [done|]; intros x Hx; by apply elem_of_nil in Hx|].
  apply StronglySorted_inv in H as [H HF]. apply Forall_cons in HF as [Hy HF].
  rewrite last_cons_d. destruct (IH _ H) as [I1 I2]. split; [lia|]. intros x [->|Hx]%elem_of_cons; [done|by apply I2].
Qed.
(** An honest page leaves no gap. *)
Lemma page_no_gap W p a b : transfers_ok W -> is_start (a ++ b) (after W p) = true ->
  forall t, t ∈ W -> p < t_id t -> t_id t <= List.last (map t_id a) p -> t ∈ a.
Proof.
  intros [Hs _] H t Ht Hp Hl. destruct (is_start_prefix _ _ H) as [r Hr]. rewrite <- app_assoc in Hr.
  assert (Hta : t ∈ after W p) by (by apply after_elem).
  assert (Hsa : StronglySorted (fun a b => t_id a < t_id b) (after W p)) by (by apply filter_sorted).
  rewrite Hr in Hta, Hsa. apply elem_of_app in Hta as [|Hta]; [done|]. exfalso.
  assert (Hlast : exists x, (x ∈ a /\ List.last (map t_id a) p = t_id x) \/ (a = [] /\ List.last (map t_id a) p = p)).
  { clear. destruct a as [|y a]; [exists (Transfer 0 true); by right|]. 
    assert (G : forall l d, exists x, x ∈ (y :: l) /\ List.last (map t_id (y :: l)) d = t_id x).
    { clear. intros l. revert y. induction l as [|z l IH]; intros y d; [exists y; split; [by left|done]|].
      destruct (IH z d) as (x & Hx & Hx2). exists x. split; [by right|]. exact Hx2. }
    destruct (G a p) as (x & Hx). exists x. by left. }
  destruct Hlast as (x & [[Hx Hx2]|[-> Hx2]]); [|lia].
  assert (Hlt : t_id x < t_id t).
  { clear -Hsa Hx Hta. induction a as [|y a IH]; [by apply elem_of_nil in Hx|]. cbn in Hsa. apply StronglySorted_inv in Hsa as [Hsa HF].
    apply elem_of_cons in Hx as [->|Hx]; [|by apply IH]. rewrite Forall_forall in HF. apply HF. apply elem_of_app. by right. }
  lia.
Qed.

(** With a configured start id, for every honest server and every history of answers, failures, crashes and restarts: every
    well-formed transfer after the start id up to the position (and up to the recorded id) was sent. *)
Theorem C79_at_least_once : forall W s stop ops, transfers_ok W -> honest W (Some s) stop (FSt 0 None [] false) ops = true ->
  let st := frun (Some s) stop ops in
  forall t, t ∈ W -> t_ok t = true -> s < t_id t ->
    (f_running st = true -> t_id t <= f_pos st -> t ∈ f_sent st) /\ (forall d, f_db st = Some d -> t_id t <= d -> t ∈ f_sent st).
Proof.
  intros W s stop ops HW. unfold frun.
  set (P := fun st => forall t, t ∈ W -> t_ok t = true -> s < t_id t ->
    (f_running st = true -> t_id t <= f_pos st -> t ∈ f_sent st) /\ (forall d, f_db st = Some d -> t_id t <= d -> t ∈ f_sent st)).
  assert (G : forall st, P st -> honest W (Some s) stop st ops = true -> P (fold_left (fstep (Some s) stop) ops st)).
  { induction ops as [|o ops IH]; intros st HP Hh; [done|]. cbn [fold_left honest] in *. apply andb_prop in Hh as [Ho Hh].
    apply IH; [|done]. clear IH Hh.
    assert (Hpage : forall k l pos sent e, is_start l (after W (f_pos st)) = true -> f_running st = true ->
      fpage stop k l (f_pos st) = (pos, sent, e) ->
      (forall t, t ∈ W -> t_ok t = true -> s < t_id t -> t_id t <= pos -> t ∈ f_sent st ++ sent) /\
      (forall t d, t ∈ W -> t_ok t = true -> s < t_id t -> f_db st = Some d -> t_id t <= d -> t ∈ f_sent st ++ sent)).
    { intros k l pos sent e Hst Hr E. destruct (fpage_spec _ _ _ _ _ _ _ E) as (a & b & -> & -> & -> & Hs & _ & _). split.
      - intros t Ht Hok Hs0 Hle. apply elem_of_app. destruct (N.le_gt_cases (t_id t) (f_pos st)) as [Hl|Hl].
        + left. by apply (proj1 (HP t Ht Hok Hs0)).
        + right. apply elem_filter. split; [|done]. by apply (page_no_gap W (f_pos st) a b).
      - intros t d Ht Hok Hs0 Hd Hle. apply elem_of_app. left. by apply (proj2 (HP t Ht Hok Hs0) d). }
    intros t Ht Hok Hs0. destruct o as [cur|l| |l k|l]; cbn [fstep answer_of] in *.
    - cbn [f_running f_pos f_db f_sent]. split; [|apply (HP t Ht Hok Hs0)]. intros _ Hle. unfold initial in Hle.
      destruct (f_db st) as [d|] eqn:Ed; [|lia]. apply (proj2 (HP t Ht Hok Hs0) d Ed). lia.
    - destruct (f_running st) eqn:Er; [|exact (HP t Ht Hok Hs0)]. unfold fetch_answer.
      destruct l as [|x l]; [exact (HP t Ht Hok Hs0)|].
      destruct (fpage stop (length (x :: l)) (x :: l) (f_pos st)) as [[pos sent] e] eqn:E.
      destruct (Hpage _ _ _ _ _ Ho eq_refl E) as [H1 H2].
      destruct e; cbn [fst f_running f_pos f_db f_sent]; (split; [intros _ Hle; by apply H1|]); try (intros d Hd Hle; by apply (H2 t d)).
      intros d Hd Hle. destruct (0 <? pos); [|by apply (H2 t d)]. injection Hd as <-. by apply H1.
    - apply (HP t Ht Hok Hs0).
    - destruct (f_running st) eqn:Er; [|exact (HP t Ht Hok Hs0)].
      destruct (fpage stop k l (f_pos st)) as [[pos sent] e] eqn:E. destruct (Hpage _ _ _ _ _ Ho eq_refl E) as [H1 H2].
      cbn [fst f_running f_pos f_db f_sent]. split; [done|]. intros d Hd Hle. by apply (H2 t d).
    - destruct (f_running st) eqn:Er; [|exact (HP t Ht Hok Hs0)]. cbn [f_running f_pos f_db f_sent].
      split; [intros _ Hle|intros d Hd Hle]; apply elem_of_app; left; [by apply (proj1 (HP t Ht Hok Hs0))|by apply (proj2 (HP t Ht Hok Hs0) d)]. }
  intros Hh st. apply G; [|done]. intros t Ht Hok Hs. done.
Qed.

(** Once the server has nothing after the position, every well-formed transfer after the start id was sent. *)
Theorem C79_caught_up : forall W s stop ops, transfers_ok W -> honest W (Some s) stop (FSt 0 None [] false) ops = true ->
  let st := frun (Some s) stop ops in f_running st = true -> after W (f_pos st) = [] ->
  forall t, t ∈ W -> t_ok t = true -> s < t_id t -> t ∈ f_sent st.
Proof.
  intros W s stop ops HW Hh st Hr Ha t Ht Hok Hs. apply (proj1 (C79_at_least_once W s stop ops HW Hh t Ht Hok Hs) Hr).
  destruct (N.le_gt_cases (t_id t) (f_pos st)) as [|Hl]; [done|]. assert (Hin : t ∈ after W (f_pos st)) by (by apply after_elem).
  rewrite Ha in Hin. by apply elem_of_nil in Hin.
Qed.

(** An honest page with something new is handled to its end when there is no stop id: the position moves to its last id,
    which is recorded. *)
Theorem C79_progress : forall W start_from st l, transfers_ok W -> f_running st = true -> l <> [] ->
  is_start l (after W (f_pos st)) = true ->
  let st' := (fetch_answer None l st).1 in
  f_pos st < f_pos st' /\ f_pos st' = List.last (map t_id l) 0 /\ f_db st' = Some (f_pos st') /\
  f_sent (fstep start_from None st (FAnswer l)) = f_sent st ++ List.filter t_ok l.
Proof.
  intros W start_from st l [Hs H0] Hr Hne Hst. cbn [fstep]. rewrite Hr.
  assert (Hsl : StronglySorted (fun a b => t_id a < t_id b) l /\ Forall (fun t => f_pos st < t_id t) l).
  { destruct (is_start_prefix _ _ Hst) as [r Hrr].
    assert (Hsa : StronglySorted (fun a b => t_id a < t_id b) (after W (f_pos st))) by (by apply filter_sorted).
    assert (Hfa : Forall (fun t => f_pos st < t_id t) (after W (f_pos st))).
    { rewrite Forall_forall. intros t Ht. by apply (proj1 (after_elem _ _ _)) in Ht as [_ Ht]. }
    rewrite Hrr in Hsa, Hfa. apply Forall_app in Hfa as [Hfa _]. split; [|done].
    clear -Hsa. induction l as [|x l IH]; [constructor|]. cbn in Hsa. apply StronglySorted_inv in Hsa as [Hsa HF]. constructor; [by apply IH|].
    by apply Forall_app in HF as [HF _]. }
  destruct Hsl as [Hsl Hfl].
  assert (E : forall l pos, StronglySorted (fun a b => t_id a < t_id b) l -> Forall (fun t => pos < t_id t) l ->
    fpage None (length l) l pos = (List.last (map t_id l) pos, List.filter t_ok l, FMore)).
  { clear. induction l as [|x l IH]; intros pos Hs Hf; [done|]. cbn [length fpage]. apply Forall_cons in Hf as [Hx Hf].
    apply StronglySorted_inv in Hs as [Hs HF]. destruct (N.leb_spec (t_id x) pos); [lia|]. rewrite (IH (t_id x) Hs HF). rewrite map_cons, last_cons_d.
    cbn. by destruct (t_ok x). }
  specialize (E l (f_pos st) Hsl Hfl).
  assert (Hlast : List.last (map t_id l) (f_pos st) = List.last (map t_id l) 0).
  { clear -Hne. destruct l as [|x l]; [done|]. by rewrite map_cons, !last_cons_d. }
  assert (Hgt : f_pos st < List.last (map t_id l) (f_pos st)).
  { destruct l as [|x l]; [done|]. apply Forall_cons in Hfl as [Hx Hfl].
    assert (Hss : StronglySorted N.lt (f_pos st :: map t_id (x :: l))).
    { apply SSorted_cons.
      - by apply ids_sorted.
      - rewrite Forall_forall. intros z Hz. apply elem_of_list_In, in_map_iff in Hz as (w & <- & Hw).
        destruct Hw as [->|Hw]; [done|]. rewrite Forall_forall in Hfl. apply Hfl. by apply elem_of_list_In. }
    destruct (last_ge _ _ Hss) as [_ H2]. specialize (H2 (t_id x) ltac:(by left)). lia. }
  unfold fetch_answer. destruct l as [|x l]; [done|]. rewrite E. cbn [fst f_pos f_db f_sent]. split; [done|]. split; [done|]. split; [|done].
  destruct (N.ltb_spec 0 (List.last (map t_id (x :: l)) (f_pos st))); [done|lia].
Qed.

(** Whatever the server answers: between two starts the ids sent grow, so nothing is sent twice, and with a stop id only
    ids below it are sent (retries by an operator apart). *)
Definition plain (o : fop) : bool := match o with FAnswer _ | FFail | FCrash _ _ => true | _ => false end.
Theorem C79_in_order : forall start_from stop ops st, forallb plain ops = true ->
  exists new, f_sent (fold_left (fstep start_from stop) ops st) = f_sent st ++ new /\ StronglySorted N.lt (f_pos st :: map t_id new) /\
    (forall s t, stop = Some s -> t ∈ new -> t_id t < s) /\ Forall (fun t => t_ok t = true) new.
Proof.
  intros start_from stop ops st Hp.
  assert (G : exists new, f_sent (fold_left (fstep start_from stop) ops st) = f_sent st ++ new /\
    StronglySorted N.lt (f_pos st :: map t_id new) /\ (forall s t, stop = Some s -> t ∈ new -> t_id t < s) /\ Forall (fun t => t_ok t = true) new).
  2:{ done. }
  revert st. induction ops as [|o ops IH]; intros st.
  - exists []. rewrite app_nil_r. repeat split; [repeat constructor|intros s t _ Ht; by apply elem_of_nil in Ht|constructor].
  - cbn [fold_left forallb] in *. apply andb_prop in Hp as [Ho Hp]. specialize (IH Hp).
    assert (S1 : exists a, f_sent (fstep start_from stop st o) = f_sent st ++ a /\ StronglySorted N.lt (f_pos st :: map t_id a) /\
      f_pos st <= f_pos (fstep start_from stop st o) /\ Forall (fun t => t_id t <= f_pos (fstep start_from stop st o)) a /\
      (forall s t, stop = Some s -> t ∈ a -> t_id t < s) /\ Forall (fun t => t_ok t = true) a).
    { assert (Hn : fstep start_from stop st o = st -> exists a, f_sent (fstep start_from stop st o) = f_sent st ++ a /\ StronglySorted N.lt (f_pos st :: map t_id a) /\
        f_pos st <= f_pos (fstep start_from stop st o) /\ Forall (fun t => t_id t <= f_pos (fstep start_from stop st o)) a /\
        (forall s t, stop = Some s -> t ∈ a -> t_id t < s) /\ Forall (fun t => t_ok t = true) a).
      { intros ->. exists []. rewrite app_nil_r. split; [done|]. split; [repeat constructor|]. split; [done|]. split; [constructor|].
        split; [intros s t _ Ht; by apply elem_of_nil in Ht|constructor]. }
      assert (Hpg : forall k l pos sent e, fpage stop k l (f_pos st) = (pos, sent, e) -> StronglySorted N.lt (f_pos st :: map t_id sent) /\ f_pos st <= pos /\
        Forall (fun t => t_id t <= pos) sent /\ (forall s t, stop = Some s -> t ∈ sent -> t_id t < s) /\ Forall (fun t => t_ok t = true) sent).
      { intros k l pos sent e E. destruct (fpage_spec _ _ _ _ _ _ _ E) as (a & b & -> & -> & -> & Hs & Hst & _).
        destruct (last_ge _ _ Hs) as [L1 L2]. split; [|split; [done|split; [|split]]].
        - clear -Hs. apply StronglySorted_inv in Hs as [Hs HF]. constructor.
          + clear HF. induction a as [|x a IH]; [constructor|]. cbn in *. apply StronglySorted_inv in Hs as [Hs HF]. destruct (t_ok x); [|by apply IH].
            cbn. constructor; [by apply IH|]. rewrite Forall_forall in HF |- *. intros z Hz. apply elem_of_list_In, in_map_iff in Hz as (w & <- & Hw).
            apply filter_In in Hw as [Hw _]. apply HF. apply elem_of_list_In. by apply in_map.
          + rewrite Forall_forall in HF |- *. intros z Hz. apply elem_of_list_In, in_map_iff in Hz as (w & <- & Hw).
            apply filter_In in Hw as [Hw _]. apply HF. apply elem_of_list_In. by apply in_map.
        - rewrite Forall_forall. intros t Ht. apply elem_filter in Ht as [Ht _]. apply L2. apply elem_of_list_In, in_map. by apply elem_of_list_In.
        - intros s t Hs' Ht. apply elem_filter in Ht as [Ht _]. by apply (Hst s).
        - rewrite Forall_forall. intros t Ht. by apply elem_filter in Ht as [_ Ht]. }
      destruct o as [cur|l| |l k|l]; cbn [fstep plain] in *; try done.
      - destruct (f_running st); [|by apply Hn]. unfold fetch_answer in *. destruct l as [|x l]; [by apply Hn|].
        destruct (fpage stop (length (x :: l)) (x :: l) (f_pos st)) as [[pos sent] e] eqn:E. destruct (Hpg _ _ _ _ _ E) as (P1 & P2 & P3 & P4 & P5).
        exists sent. destruct e; cbn [fst f_sent f_pos]; done.
      - by apply Hn.
      - destruct (f_running st); [|by apply Hn].
        destruct (fpage stop k l (f_pos st)) as [[pos sent] e] eqn:E. destruct (Hpg _ _ _ _ _ E) as (P1 & P2 & P3 & P4 & P5).
        exists sent. cbn [fst f_sent f_pos]. done. }
    destruct S1 as (a & A1 & A2 & A3 & A4 & A5 & A6). destruct (IH (fstep start_from stop st o)) as (new & N1 & N2 & N3 & N4).
    exists (a ++ new). split; [rewrite N1, A1; by rewrite app_assoc|]. split; [|split].
    + rewrite map_app. apply StronglySorted_inv in N2 as [N2 NF]. apply StronglySorted_inv in A2 as [A2 AF].
      set (p' := f_pos (fstep start_from stop st o)) in *.
      assert (Hn' : Forall (fun x => f_pos st < x) (map t_id new)).
      { eapply Forall_impl; [exact NF|]. cbn. intros x Hx. lia. }
      constructor; [|apply Forall_app; by split]. clear -A2 A4 N2 NF. induction a as [|x a IHa]; [done|]. cbn in *.
      apply StronglySorted_inv in A2 as [A2 AF]. apply Forall_cons in A4 as [A4 A4']. constructor; [by apply IHa|]. apply Forall_app. split; [done|].
      eapply Forall_impl; [exact NF|]. cbn. intros z Hz. lia.
    + intros s t Hs [Ht|Ht]%elem_of_app; [by apply (A5 s)|by apply (N3 s)].
    + apply Forall_app. by split.
Qed.

(** Without a configured start id (the default) a restart begins at the newest transfer of the server, whatever was
    recorded: transfers made while the node was down are never sent. *)
Theorem C79_restart_refuted : forall stop st c ops t, forallb plain ops = true -> t_id t <= c -> t ∉ f_sent st ->
  t ∉ f_sent (fold_left (fstep None stop) (FStart (Some c) :: ops) st).
Proof.
  intros stop st c ops t Hp Hle Hno. cbn [fold_left fstep initial].
  destruct (C79_in_order None stop ops (FSt c (f_db st) (f_sent st) true) Hp) as (new & -> & Hs & _). cbn [f_sent f_pos] in *.
  rewrite elem_of_app. intros [H|H]; [done|]. apply StronglySorted_inv in Hs as [_ HF]. rewrite Forall_forall in HF.
  specialize (HF (t_id t)). assert (c < t_id t); [|lia]. apply HF. apply elem_of_list_In, in_map. by apply elem_of_list_In.
Qed.
(** A server that starts its answer with the requested id itself stops the fetcher for good. *)
Theorem C79_inclusive_stuck : forall start_from stop st t l, f_running st = true -> t_id t <= f_pos st ->
  fstep start_from stop st (FAnswer (t :: l)) = FSt (f_pos st) (f_db st) (f_sent st) true.
Proof.
  intros start_from stop st t l Hr Hle. cbn [fstep]. rewrite Hr. unfold fetch_answer. cbn [length fpage].
  destruct (N.leb_spec (t_id t) (f_pos st)); [|lia]. cbn [fst]. by rewrite app_nil_r.
Qed.

(** A page that reaches the stop id ends the task: what is below it is sent, and nothing more until a new start. *)
Definition no_start (o : fop) : bool := match o with FStart _ => false | _ => true end.
Lemma fpage_stop s : forall l pos, StronglySorted N.lt (pos :: map t_id l) -> Exists (fun t => s <= t_id t) l ->
  let '(pos', sent, e) := fpage (Some s) (length l) l pos in e = FStop /\ sent = List.filter (fun t => t_ok t && (t_id t <? s)) l.
Proof.
  induction l as [|t l IH]; intros pos Hs He; [by apply Exists_nil in He|]. cbn [length fpage map] in *.
  apply StronglySorted_inv in Hs as [Hs HF]. pose proof HF as [Hlt HF']%Forall_cons.
  destruct (N.leb_spec (t_id t) pos); [lia|]. destruct (N.leb_spec s (t_id t)) as [Hge|Hl].
  - split; [done|]. symmetry. apply StronglySorted_inv in Hs as [_ Hs]. cbn [List.filter].
    destruct (N.ltb_spec (t_id t) s); [lia|]. rewrite andb_false_r. clear -Hs Hge.
    induction l as [|x l IH]; [done|]. cbn [map] in Hs. apply Forall_cons in Hs as [Hx Hs]. cbn [List.filter].
    destruct (N.ltb_spec (t_id x) s); [lia|]. rewrite andb_false_r. by apply IH.
  - apply Exists_cons in He as [He|He]; [lia|]. specialize (IH (t_id t) Hs He).
    destruct (fpage (Some s) (length l) l (t_id t)) as [[pos' sent] e]. destruct IH as [-> ->]. split; [done|]. cbn [List.filter].
    destruct (N.ltb_spec (t_id t) s); [|lia]. rewrite andb_true_r. by destruct (t_ok t).
Qed.
Theorem C79_stop : forall start_from s st l ops, f_running st = true -> StronglySorted N.lt (f_pos st :: map t_id l) ->
  Exists (fun t => s <= t_id t) l -> forallb no_start ops = true ->
  let st' := fold_left (fstep start_from (Some s)) (FAnswer l :: ops) st in
  f_running st' = false /\ f_sent st' = f_sent st ++ List.filter (fun t => t_ok t && (t_id t <? s)) l /\ f_db st' = f_db st.
Proof.
  intros start_from s st l ops Hr Hs He Hn st'. subst st'. cbn [fold_left fstep]. rewrite Hr. unfold fetch_answer.
  destruct l as [|t0 l0]; [by apply Exists_nil in He|]. pose proof (fpage_stop s _ _ Hs He) as Hp.
  destruct (fpage (Some s) (length (t0 :: l0)) (t0 :: l0) (f_pos st)) as [[pos sent] e]. destruct Hp as [-> ->]. cbn [fst].
  set (st1 := FSt _ _ _ false).
  assert (fold_left (fstep start_from (Some s)) ops st1 = st1) as ->; [|done].
  clear -Hn. induction ops as [|o ops IH]; [done|]. cbn [forallb] in Hn. apply andb_true_iff in Hn as [Ho Hn]. cbn [fold_left].
  by destruct o; [done|..]; apply IH.
Qed.

Section FnameExamples.
  Let W := [Transfer 3 true; Transfer 4 true; Transfer 6 false; Transfer 9 true; Transfer 10 true; Transfer 12 true].
  Let h := [FStart None; FAnswer [Transfer 4 true; Transfer 6 false]; FFail; FCrash [Transfer 9 true; Transfer 10 true] 1; FStart None; FAnswer [Transfer 9 true; Transfer 10 true]; FAnswer []].
  Example C79_at_least_once_ex : honest W (Some 3) None (FSt 0 None [] false) h = true /\
    f_sent (frun (Some 3) None h) = [Transfer 4 true; Transfer 9 true; Transfer 9 true; Transfer 10 true] /\
    f_pos (frun (Some 3) None h) = 10 /\ f_db (frun (Some 3) None h) = Some 10.
  Proof using Type. vm_compute. repeat split. Qed.
  Lemma W_ok : transfers_ok W.
  Proof using Type. unfold transfers_ok, W. split; repeat constructor; cbn; lia. Qed.
  Example C79_caught_up_ex : let st := frun (Some 3) None (h ++ [FAnswer [Transfer 12 true]]) in f_running st = true /\ after W (f_pos st) = [] /\
    honest W (Some 3) None (FSt 0 None [] false) (h ++ [FAnswer [Transfer 12 true]]) = true /\ last (f_sent st) = Some (Transfer 12 true).
  Proof using Type. vm_compute. repeat split. Qed.
  (** An answer that begins with the requested id itself. *)
  Example C79_inclusive_ex : f_pos (frun (Some 3) None [FStart None; FAnswer [Transfer 3 true; Transfer 4 true]]) = 3 /\
    f_sent (frun (Some 3) None [FStart None; FAnswer [Transfer 3 true; Transfer 4 true]]) = [].
  Proof using Type. vm_compute. repeat split. Qed.
  (** Down while transfers 9 and 10 happened. *)
  Example C79_restart_ex : f_sent (frun None None [FStart (Some 3); FAnswer [Transfer 4 true; Transfer 6 false]; FStart (Some 10); FAnswer [Transfer 12 true]]) =
    [Transfer 4 true; Transfer 12 true].
  Proof using Type. vm_compute. repeat split. Qed.
  Example C79_stop_ex : frun (Some 3) (Some 9) [FStart None; FAnswer [Transfer 4 true; Transfer 6 false; Transfer 9 true]; FAnswer [Transfer 12 true]] =
    FSt 6 None [Transfer 4 true] false.
  Proof using Type. vm_compute. reflexivity. Qed.
End FnameExamples.

Print Assumptions C78_at_least_once.
Print Assumptions C78_poll.
Print Assumptions C78_stop_refuted.
Print Assumptions C78_historical.
Print Assumptions C78_lost_refuted.
Print Assumptions C78_gives_up_refuted.
Print Assumptions C78_retry_kinds_refuted.
Print Assumptions C79_at_least_once.
Print Assumptions C79_caught_up.
Print Assumptions C79_progress.
Print Assumptions C79_in_order.
Print Assumptions C79_restart_refuted.
Print Assumptions C79_inclusive_stuck.
Print Assumptions C79_stop.
