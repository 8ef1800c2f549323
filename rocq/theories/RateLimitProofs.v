(** Bounds on what one rate limiter admits. *)
From Verif Require Export RateLimit.
From Coq Require Import ZifyN ZifyNat ZifyBool.
#[local] Open Scope N_scope.

(** Accesses to one cache entry. *)
Inductive acc := Acc (now : N) (quota : option N) | Drop.
Section One.
  Variables (tti period tmin T C : N).
  Definition astep (e : entry) (a : acc) : bool * entry :=
    match a with Acc now q => consume tti period q now e | Drop => (false, None) end.
  Fixpoint arun (e : entry) (l : list acc) : entry * nat :=
    match l with
    | [] => (e, O)
    | a :: r => let '(b, e1) := astep e a in let '(e2, n) := arun e1 r in (e2, ((if b then 1 else 0) + n)%nat)
    end.
  Fixpoint drops (l : list acc) : N := match l with [] => 0 | Drop :: r => 1 + drops r | Acc _ _ :: r => drops r end.
  (** Times are nondecreasing, between [a] and [b]. *)
  Fixpoint timed (a b : N) (l : list acc) : Prop :=
    match l with [] => a <= b | Acc x _ :: r => a <= x /\ timed x b r | Drop :: r => timed a b r end.
  Definition quotas_ok (l : list acc) : Prop :=
    forall x n, Acc x (Some n) ∈ l -> 0 < n /\ tmin <= period / n <= T.

  Hypothesis Hti : 0 < tti.
  Hypothesis HC : period + T - tti <= C.

  Definition lim_ok (l : limiter) (now : N) : Prop :=
    lm_tat l <= now + period + T /\ tmin <= lm_t l <= T /\ lm_t l * lm_burst l <= period.
  Definition einv (e : entry) (now : N) : Prop :=
    match e with Some (l, last) => last <= now /\ lim_ok l last | None => True end.
  Definition level (e : entry) (now : N) : N := match e with Some (l, _) => N.max (lm_tat l) now | None => now end.

  Lemma check_ok l last now b l' : last <= now -> lim_ok l last -> check l now = (b, l') ->
    lim_ok l' now /\ (if b then tmin else 0) + N.max (lm_tat l) now <= N.max (lm_tat l') now.
  Proof.
    intros Hl (H1 & H2 & H3). unfold check. destruct (N.ltb_spec now (lm_tat l - lm_t l * lm_burst l)); intros [= <- <-].
    - unfold lim_ok. lia.
    - unfold lim_ok. cbn [lm_tat lm_t lm_burst]. lia.
  Qed.
  Lemma direct_ok n now : 0 < n -> tmin <= period / n <= T -> lim_ok (direct period n now) now.
  Proof.
    intros Hn Ht. unfold lim_ok, direct. cbn [lm_tat lm_t lm_burst]. pose proof (N.mul_div_le period n). lia.
  Qed.

  Lemma arun_bound l : forall e now b g, einv e now -> timed now b l -> quotas_ok l ->
    (match e with Some (_, last) => g <= last \/ g + tti <= now | None => True end) -> g <= now ->
    N.of_nat (arun e l).2 * tmin + level e now <= b + (1 + drops l) * (period + T) + ((b - g) / tti) * C /\
    einv (arun e l).1 b.
  Proof.
    induction l as [|a l IH]; intros e now b g He Ht Hq Hg Hgn; cbn [arun timed drops] in *.
    - cbn [fst snd]. split.
      + destruct e as [[l last]|]; cbn [level einv] in *; [|generalize ((b - g) / tti * C); intros; lia]. destruct He as [? (? & _)]. generalize ((b - g) / tti * C). intros. lia.
      + destruct e as [[l last]|]; [|done]. cbn [einv] in *. destruct He as [? ?]. split; [lia|done].
    - assert (Hq' : quotas_ok l) by (intros x n Hin; apply (Hq x n); by right).
      destruct a as [x q|]; cbn [astep].
      2:{ destruct (arun None l) as [e2 n2] eqn:Er.
          pose proof (IH None now b g I Ht Hq' I Hgn) as [IH1 IH2]. rewrite Er in IH1, IH2. cbn [fst snd] in *. split; [|done].
          assert (Hlv : level e now <= now + (period + T)).
          { destruct e as [[l0 last]|]; cbn [level einv] in *; [|lia]. destruct He as [? (? & _)]. lia. }
          cbn [level] in IH1. change (0 + n2)%nat with n2. lia. }
      destruct Ht as [Hx Ht]. unfold consume.
      assert (Hfresh : forall extra, level e now <= x + extra -> forall (b0 : bool) e1,
        match q with None => (false, None) | Some n => let '(b0, l') := check (direct period n x) x in (b0, Some (l', x)) end = (b0, e1) ->
        einv e1 x /\ (if b0 then tmin else 0) + level e now <= level e1 x + extra /\ (match e1 with Some (_, last) => last = x | None => True end)).
      { intros extra Hlv b0 e1. destruct q as [n|].
        - destruct (Hq x n) as [Hn Ht']; [left|]. pose proof (direct_ok n x Hn Ht') as Hd.
          destruct (check (direct period n x) x) as [b1 l1] eqn:Ec. intros [= <- <-].
          destruct (check_ok _ x x _ _ ltac:(lia) Hd Ec) as [H1 H2]. cbn [einv level]. split; [split; [lia|done]|]. split; [|done]. lia.
        - intros [= <- <-]. cbn. split; [done|]. split; [lia|done]. }
      destruct e as [[l0 last]|]; cbn [alive einv] in *.
      + destruct He as [Hl Hlk]. destruct (N.leb_spec (last + tti) x) as [Hexp|Hal].
        * (* expired *)
          destruct (match q with None => _ | Some n => _ end) as [b0 e1] eqn:E1.
          destruct (Hfresh C) with (b0 := b0) (e1 := e1) as (He1 & Hlev & Hlast); [|done|].
          { cbn [level]. destruct Hlk as (? & _). lia. }
          destruct (arun e1 l) as [e2 n2] eqn:Er.
          pose proof (IH e1 x b x He1 Ht Hq') as IHx. rewrite Er in IHx. cbn [fst snd] in IHx.
          destruct IHx as [IH1 IH2]; [destruct e1 as [[? ?]|]; [left; lia|done]|lia|]. cbn [fst snd]. split; [|done].
          assert (Hxb : x <= b). { clear -Ht. revert x Ht. induction l as [|[y ?|] l IH]; intros x Ht; cbn in Ht; [done|destruct Ht as [? Ht]; apply IH in Ht; lia|by apply IH]. }
          assert (Hdiv : 1 + (b - x) / tti <= (b - g) / tti).
          { replace (1 + (b - x) / tti) with ((b - x + 1 * tti) / tti) by (rewrite N.div_add; lia). apply N.div_le_mono; lia. }
          assert (Hmul : (1 + (b - x) / tti) * C <= (b - g) / tti * C) by (apply N.mul_le_mono_r; exact Hdiv).
          rewrite Nat2N.inj_add, N.mul_add_distr_r. destruct b0; lia.
        * destruct (check l0 x) as [b0 l1] eqn:Ec. destruct (check_ok l0 last x b0 l1 ltac:(lia) Hlk Ec) as [H1 H2].
          destruct (arun (Some (l1, x)) l) as [e2 n2] eqn:Er.
          pose proof (IH (Some (l1, x)) x b g) as IHx. rewrite Er in IHx. cbn [fst snd einv level] in IHx.
          destruct IHx as [IH1 IH2]; [split; [lia|done]|done|done|left; lia|lia|]. cbn [fst snd]. split; [|done].
          cbn [level]. rewrite Nat2N.inj_add, N.mul_add_distr_r. destruct b0; lia.
      + destruct (match q with None => _ | Some n => _ end) as [b0 e1] eqn:E1.
        destruct (Hfresh 0) with (b0 := b0) (e1 := e1) as (He1 & Hlev & Hlast); [cbn [level]; lia|done|].
        destruct (arun e1 l) as [e2 n2] eqn:Er.
        pose proof (IH e1 x b g He1 Ht Hq') as IHx. rewrite Er in IHx. cbn [fst snd] in IHx.
        destruct IHx as [IH1 IH2]; [destruct e1 as [[? ?]|]; [left; lia|done]|lia|]. cbn [fst snd]. split; [|done].
        rewrite Nat2N.inj_add, N.mul_add_distr_r. destruct b0; lia.
  Qed.

  (** After any past [pre] and within any window [a, b]. *)
  Lemma window_bound pre l a b : timed 0 a pre -> timed a b l -> quotas_ok pre -> quotas_ok l ->
    N.of_nat (arun (arun None pre).1 l).2 * tmin <=
    (b - a) + (1 + drops l) * (period + T) + (1 + (b - a) / tti) * C.
  Proof.
    intros H1 H2 Hq1 Hq2.
    destruct (arun_bound pre None 0 a 0 I H1 Hq1 I ltac:(lia)) as [_ He].
    assert (Hg : exists g, g <= a /\ (g + tti <= a \/ g = 0) /\ a <= g + tti).
    { destruct (N.le_gt_cases tti a); [exists (a - tti)|exists 0]; lia. }
    destruct Hg as (g & Hg1 & Hg2 & Hg3).
    destruct (arun_bound l _ a b g He H2 Hq2) as [Hb _]; [|done|].
    { destruct (arun None pre).1 as [[? last]|]; [|done]. lia. }
    assert (Hab : a <= b). { clear -H2. revert a H2. induction l as [|[y ?|] l IH]; intros a H2; cbn in H2; [done|destruct H2 as [? H2]; apply IH in H2; lia|by apply IH]. }
    assert (Hlv : a <= level (arun None pre).1 a) by (destruct (arun None pre).1 as [[? ?]|]; cbn; lia).
    assert (Hdiv : (b - g) / tti <= 1 + (b - a) / tti).
    { replace (1 + (b - a) / tti) with ((b - a + 1 * tti) / tti) by (rewrite N.div_add; lia). apply N.div_le_mono; lia. }
    assert (Hmul : (b - g) / tti * C <= (1 + (b - a) / tti) * C) by (apply N.mul_le_mono_r; exact Hdiv). lia.
  Qed.
End One.

(** ** Projection of a system trace to the accesses of one entry *)
Definition key_acc (f : N) (ev : rev) : list acc :=
  match ev with RMsg now _ _ u => if is_key_add u && (um_fid u =? f) then [Acc now (Some 1)] else [] | RDrop _ => [] end.
Definition live_acc (f : N) (ev : rev) : list acc :=
  match ev with
  | RMsg now _ un u => if is_live_at u && (um_fid u =? f) then [Acc now (live_quota un)] else []
  | RDrop f' => if f' =? f then [Drop] else []
  end.

Lemma put_lookup f e m : put f e m !! f = e.
Proof. destruct e; cbn; [apply lookup_insert|apply lookup_delete]. Qed.
Lemma put_ne f f' e m : f <> f' -> put f e m !! f' = m !! f'.
Proof. intros H. destruct e; cbn; [by apply lookup_insert_ne|by apply lookup_delete_ne]. Qed.
Lemma key_not_live u : is_key_add u = true -> is_live_at u = false.
Proof. unfold is_key_add, is_live_at. by destruct (um_body u). Qed.

(** Number of admitted events satisfying [P]. *)
Fixpoint adm (P : rev -> bool) (evs : list rev) (bs : list bool) : nat :=
  match evs, bs with ev :: r, b :: s => ((if b && P ev then 1 else 0) + adm P r s)%nat | _, _ => O end.
Definition is_live_of (f : N) (ev : rev) : bool := match ev with RMsg _ _ _ u => is_live_at u && (um_fid u =? f) | RDrop _ => false end.
Definition is_key_of (f : N) (ev : rev) : bool := match ev with RMsg _ _ _ u => is_key_add u && (um_fid u =? f) | RDrop _ => false end.
Definition is_store_of (f : N) (ev : rev) : bool := match ev with RMsg _ _ _ u => negb (is_live_at u) && (um_fid u =? f) | RDrop _ => false end.

(** [m] follows the accesses [accs], admitting at least as many as the system admits events in [P]. *)
Lemma live_proj en f evs : forall s, let '(s', bs) := rrun en s evs in
  arun LIVE_TTI HOUR (rl_live s !! f) (flat_map (live_acc f) evs) = (rl_live s' !! f, adm (is_live_of f) evs bs).
Proof.
  induction evs as [|ev evs IH]; intros s; cbn [rrun flat_map]; [done|].
  destruct (rstep en s ev) as [b s1] eqn:E. specialize (IH s1). destruct (rrun en s1 evs) as [s2 bs]. cbn [adm].
  destruct ev as [now a un u|f']; cbn [rstep live_acc is_live_of] in *.
  - unfold exceeds in E. destruct (is_key_add u) eqn:Ek.
    + rewrite (key_not_live u Ek) in *. cbn [andb app]. rewrite andb_false_r. cbn [Nat.add].
      destruct (consume KEY_TTI MINUTE (Some 1) now (rl_key s !! um_fid u)) as [kb ke]. destruct (negb kb) eqn:Enb.
      * injection E as <- <-. cbn [rl_live] in IH. done.
      * destruct en; [|injection E as <- <-; done].
        destruct (consume STORE_TTI _ _ _ _) as [b' e']. injection E as <- <-. done.
    + destruct (is_live_at u) eqn:El.
      * destruct (consume LIVE_TTI HOUR (live_quota un) now (rl_live s !! um_fid u)) as [b' e'] eqn:Ec. injection E as <- <-.
        cbn [rl_live] in IH. cbn [andb]. destruct (N.eqb_spec (um_fid u) f) as [<-|Hn].
        -- rewrite put_lookup in IH. cbn [app arun astep]. rewrite Ec, IH, negb_involutive, andb_true_r. done.
        -- rewrite put_ne in IH by done. cbn [app]. rewrite IH, andb_false_r. done.
      * cbn [andb app]. rewrite andb_false_r. cbn [Nat.add]. destruct en; [|injection E as <- <-; done].
        destruct (consume STORE_TTI _ _ _ _) as [b' e']. injection E as <- <-. done.
  - injection E as <- <-. cbn [rl_live andb] in *. destruct (N.eqb_spec f' f) as [->|Hn].
    + rewrite lookup_delete in IH. cbn [app arun astep]. rewrite IH. done.
    + rewrite lookup_delete_ne in IH by done. done.
Qed.

Lemma key_proj en f evs : forall s, let '(s', bs) := rrun en s evs in
  exists n, arun KEY_TTI MINUTE (rl_key s !! f) (flat_map (key_acc f) evs) = (rl_key s' !! f, n) /\ (adm (is_key_of f) evs bs <= n)%nat.
Proof.
  induction evs as [|ev evs IH]; intros s; cbn [rrun flat_map]; [by exists 0%nat|].
  destruct (rstep en s ev) as [b s1] eqn:E. specialize (IH s1). destruct (rrun en s1 evs) as [s2 bs]. cbn [adm].
  destruct IH as (n & IH & Hn). destruct ev as [now a un u|f']; cbn [rstep key_acc is_key_of] in *.
  - unfold exceeds in E. destruct (is_key_add u) eqn:Ek.
    + rewrite (key_not_live u Ek) in *. cbn [andb].
      destruct (consume KEY_TTI MINUTE (Some 1) now (rl_key s !! um_fid u)) as [kb ke] eqn:Ec.
      assert (Hs : (b = true -> kb = true) /\ rl_key s1 = put (um_fid u) ke (rl_key s)).
      { destruct kb; cbn [negb] in E; [|by injection E as <- <-].
        destruct en; [|by injection E as <- <-]. cbn [rl_store rl_key rl_live] in E.
        destruct (consume STORE_TTI _ _ _ _) as [b' e']. by injection E as <- <-. }
      destruct Hs as [Hb Hs]. rewrite Hs in IH. destruct (N.eqb_spec (um_fid u) f) as [<-|Hne].
      * rewrite put_lookup in IH. cbn [app arun astep]. rewrite Ec, IH. eexists. split; [done|]. destruct b; [rewrite Hb by done|]; cbn; destruct kb; lia.
      * rewrite put_ne in IH by done. cbn [app]. rewrite IH, andb_false_r. exists n. done.
    + cbn [andb app]. rewrite andb_false_r. exists n. split; [|done].
      assert (Hs : rl_key s1 = rl_key s); [|by rewrite <- Hs].
      destruct (is_live_at u).
      * destruct (consume LIVE_TTI _ _ _ _) as [b' e']. by injection E as <- <-.
      * destruct en; [|by injection E as <- <-]. destruct (consume STORE_TTI _ _ _ _) as [b' e']. by injection E as <- <-.
  - injection E as <- <-. cbn [rl_key andb] in *. exists n. done.
Qed.

Fixpoint drops_of (f : N) (evs : list rev) : N :=
  match evs with [] => 0 | RDrop f' :: r => (if f' =? f then 1 else 0) + drops_of f r | RMsg _ _ _ _ :: r => drops_of f r end.
(** Event times are nondecreasing and within [a, b]. *)
Fixpoint rtimed (a b : N) (evs : list rev) : Prop :=
  match evs with [] => a <= b | RMsg x _ _ _ :: r => a <= x /\ rtimed x b r | RDrop _ :: r => rtimed a b r end.

(** The store limiter: which accesses happen depends on the key limiter's verdict, so a projection exists. *)
Lemma store_proj f evs : forall s, let '(s', bs) := rrun true s evs in
  exists accs, arun STORE_TTI HOUR (rl_store s !! f) accs = (rl_store s' !! f, adm (is_store_of f) evs bs) /\
    (forall x q, Acc x q ∈ accs -> exists a un u, RMsg x a un u ∈ evs /\ um_fid u = f /\ q = store_quota a) /\
    drops accs = drops_of f evs /\ (forall lo lo' hi, lo' <= lo -> rtimed lo hi evs -> timed lo' hi accs).
Proof.
  induction evs as [|ev evs IH]; intros s; cbn [rrun].
  { exists []. split; [done|]. split; [intros x q Hin; inversion Hin|]. split; [done|]. cbn. intros; lia. }
  destruct (rstep true s ev) as [b s1] eqn:E. specialize (IH s1). destruct (rrun true s1 evs) as [s2 bs]. cbn [adm drops_of].
  destruct IH as (accs & IH & Hq & Hd & Ht).
  assert (Hskip : rl_store s1 !! f = rl_store s !! f -> (b && is_store_of f ev) = false ->
    drops_of f [ev] = 0 ->
    exists accs, arun STORE_TTI HOUR (rl_store s !! f) accs = (rl_store s2 !! f, ((if b && is_store_of f ev then 1 else 0) + adm (is_store_of f) evs bs)%nat) /\
    (forall x q, Acc x q ∈ accs -> exists a un u, RMsg x a un u ∈ ev :: evs /\ um_fid u = f /\ q = store_quota a) /\
    drops accs = drops_of f (ev :: evs) /\ (forall lo lo' hi, lo' <= lo -> rtimed lo hi (ev :: evs) -> timed lo' hi accs)).
  { intros Es Eb Ed. exists accs. rewrite Eb. split; [by rewrite <- Es|]. split.
    - intros x q Hin. destruct (Hq x q Hin) as (a & un & u & H1 & H2). exists a, un, u. split; [by right|done].
    - split; [destruct ev; cbn [drops_of] in *; lia|]. intros lo lo' hi Hlo Hr. destruct ev as [x ? ? ?|]; cbn [rtimed] in Hr.
      + destruct Hr as [? Hr]. apply (Ht x); [lia|done].
      + by apply (Ht lo). }
  destruct ev as [now a un u|f']; cbn [rstep] in E.
  - assert (Hcase : (rl_store s1 = rl_store s /\ (b = false \/ is_live_at u = true)) \/
      (exists b' e', consume STORE_TTI HOUR (store_quota a) now (rl_store s !! um_fid u) = (b', e') /\ b = b' /\
        rl_store s1 = put (um_fid u) e' (rl_store s) /\ is_live_at u = false)).
    { unfold exceeds in E. destruct (is_key_add u) eqn:Ek.
      - destruct (consume KEY_TTI MINUTE (Some 1) now (rl_key s !! um_fid u)) as [kb ke]. destruct kb; cbn [negb] in E.
        + rewrite (key_not_live u Ek) in *. cbn [rl_store rl_key rl_live] in E.
          destruct (consume STORE_TTI _ _ _ _) as [b' e'] eqn:Ec. injection E as <- <-. right. exists b', e'. by rewrite negb_involutive.
        + injection E as <- <-. left. split; [done|by left].
      - destruct (is_live_at u).
        + destruct (consume LIVE_TTI _ _ _ _). injection E as <- <-. left. split; [done|by right].
        + destruct (consume STORE_TTI _ _ _ _) as [b' e'] eqn:Ec. injection E as <- <-. right. exists b', e'. by rewrite negb_involutive. }
    destruct Hcase as [[Es Hb]|(b' & e' & Ec & -> & Es & El)].
    { apply Hskip; [by rewrite Es| |done]. cbn [is_store_of]. destruct Hb as [->| ->]; [done|]. by rewrite andb_false_r. }
    destruct (N.eqb_spec (um_fid u) f) as [Ef|Hn].
    2:{ apply Hskip; [by rewrite Es, put_ne| |done]. cbn [is_store_of]. apply N.eqb_neq in Hn. rewrite Hn, andb_false_r. apply andb_false_r. }
    rewrite Es in IH. rewrite <- Ef in *. rewrite put_lookup in IH.
    exists (Acc now (store_quota a) :: accs). cbn [arun astep]. rewrite Ec, IH. split.
    { cbn [is_store_of]. rewrite El, N.eqb_refl, andb_true_r. done. }
    split.
    { intros x q [Hx|Hin]%elem_of_cons.
      - injection Hx as -> ->. exists a, un, u. split; [left|done].
      - destruct (Hq x q Hin) as (a0 & un0 & u0 & H1 & H2). exists a0, un0, u0. split; [by right|done]. }
    split; [cbn; lia|]. intros lo lo' hi Hlo [H1 H2]. cbn [timed]. split; [lia|]. by apply (Ht now).
  - injection E as <- <-. cbn [rl_store] in *. destruct (decide (f' = f)) as [->|Hn].
    + rewrite N.eqb_refl. rewrite lookup_delete in IH. exists (Drop :: accs). cbn [arun astep]. rewrite IH. split; [done|]. split.
      { intros x q [Hx|Hin]%elem_of_cons; [done|].
        destruct (Hq x q Hin) as (a0 & un0 & u0 & H1 & H2). exists a0, un0, u0. split; [by right|done]. }
      split; [cbn; lia|]. intros lo lo' hi Hlo Hr. cbn [timed]. by apply (Ht lo).
    + apply Hskip; [by rewrite lookup_delete_ne|done|]. cbn. by rewrite (proj2 (N.eqb_neq f' f) Hn).
Qed.

Lemma live_timed f evs : forall lo lo' hi, lo' <= lo -> rtimed lo hi evs -> timed lo' hi (flat_map (live_acc f) evs).
Proof.
  induction evs as [|[x a un u|f'] evs IH]; intros lo lo' hi Hlo Hr; cbn in *; [lia| |].
  - destruct Hr as [Hx Hr]. destruct (is_live_at u && (um_fid u =? f)); cbn; [split; [lia|by apply (IH x)]|apply (IH x); [lia|done]].
  - destruct (f' =? f); cbn; by apply (IH lo).
Qed.
Lemma key_timed f evs : forall lo lo' hi, lo' <= lo -> rtimed lo hi evs -> timed lo' hi (flat_map (key_acc f) evs).
Proof.
  induction evs as [|[x a un u|f'] evs IH]; intros lo lo' hi Hlo Hr; cbn in *; [lia| |].
  - destruct Hr as [Hx Hr]. destruct (is_key_add u && (um_fid u =? f)); cbn; [split; [lia|by apply (IH x)]|apply (IH x); [lia|done]].
  - by apply (IH lo).
Qed.
Lemma live_drops f evs : drops (flat_map (live_acc f) evs) = drops_of f evs.
Proof.
  induction evs as [|[x a un u|f'] evs IH]; cbn; [done| |].
  - destruct (is_live_at u && (um_fid u =? f)); cbn; done.
  - destruct (f' =? f); cbn; lia.
Qed.
Lemma key_drops f evs : drops (flat_map (key_acc f) evs) = 0.
Proof.
  induction evs as [|[x a un u|f'] evs IH]; cbn; [done| |done].
  destruct (is_key_add u && (um_fid u =? f)); cbn; done.
Qed.
