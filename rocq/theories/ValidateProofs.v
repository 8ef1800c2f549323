(** Proofs about [Regex] and [Validate]. *)
From stdpp Require Import list sorting.
From Verif Require Import Base Codec Version ChannelUri ChannelUriProofs Regex Validate.
From Coq Require Import ZifyN ZifyNat ZifyBool.
#[local] Open Scope N_scope.

(** ** Regular expressions: the matcher decides the usual language *)

Inductive lang : re -> bytes -> Prop :=
| LEps : lang REps []
| LChar (f : N -> bool) c : f c = true -> lang (RChar f) [c]
| LSeq a b s t : lang a s -> lang b t -> lang (RSeq a b) (s ++ t)
| LAltL a b s : lang a s -> lang (RAlt a b) s
| LAltR a b s : lang b s -> lang (RAlt a b) s
| LStar0 a : lang (RStar a) []
| LStarS a s t : lang a s -> lang (RStar a) t -> lang (RStar a) (s ++ t).

Lemma lang_none s : ~ lang RNone s.
Proof. intros H. inversion H. Qed.
Lemma lang_eps s : lang REps s <-> s = [].
Proof. split; [intros H; inversion H; reflexivity|intros ->; constructor]. Qed.
Lemma lang_char f s : lang (RChar f) s <-> exists c, s = [c] /\ f c = true.
Proof. split; [intros H; inversion H; eauto|intros (c & -> & H); constructor; exact H]. Qed.
Lemma lang_seq a b s : lang (RSeq a b) s <-> exists s1 s2, s = s1 ++ s2 /\ lang a s1 /\ lang b s2.
Proof. split; [intros H; inversion H; subst; eauto|intros (s1 & s2 & -> & H1 & H2); constructor; assumption]. Qed.
Lemma lang_alt a b s : lang (RAlt a b) s <-> lang a s \/ lang b s.
Proof. split; [intros H; inversion H; subst; auto|intros [H|H]; [apply LAltL|apply LAltR]; exact H]. Qed.

Lemma nullable_iff r : nullable r = true <-> lang r [].
Proof.
  induction r as [| |f|a IHa b IHb|a IHa b IHb|a IHa]; cbn [nullable].
  - split; [discriminate|intros H; inversion H].
  - split; [constructor|reflexivity].
  - split; [discriminate|]. rewrite lang_char. intros (c & H & _). discriminate.
  - rewrite andb_true_iff, IHa, IHb, lang_seq. split; [intros [H1 H2]; exists [], []; auto|].
    intros (s1 & s2 & H & H1 & H2). symmetry in H. apply app_eq_nil in H as [-> ->]. auto.
  - rewrite orb_true_iff, IHa, IHb, lang_alt. reflexivity.
  - split; [constructor|reflexivity].
Qed.

Lemma star_cons a c s : lang (RStar a) (c :: s) -> exists s1 s2, s = s1 ++ s2 /\ lang a (c :: s1) /\ lang (RStar a) s2.
Proof.
  intros H. remember (RStar a) as r eqn:Er. remember (c :: s) as w eqn:Ew. revert c s Ew.
  induction H as [| | | | | |a' s1 s2 H1 IH1 H2 IH2]; intros y w Ew; try discriminate. injection Er as ->.
  destruct s1 as [|x s1]; [apply IH2; auto|]. cbn in Ew. injection Ew as -> <-. eauto.
Qed.

Lemma deriv_iff c r : forall s, lang (deriv c r) s <-> lang r (c :: s).
Proof.
  induction r as [| |f|a IHa b IHb|a IHa b IHb|a IHa]; intros s; cbn [deriv].
  - split; intros H; inversion H.
  - split; intros H; inversion H.
  - rewrite lang_char. destruct (f c) eqn:Ef.
    + rewrite lang_eps. split; [intros ->; eauto|intros (x & [= _ ->] & _); reflexivity].
    + split; [intros H; inversion H|intros (x & [= -> _] & H); congruence].
  - assert (HS : lang (RSeq (deriv c a) b) s <-> exists s1 s2, s = s1 ++ s2 /\ lang a (c :: s1) /\ lang b s2).
    { rewrite lang_seq. split; intros (s1 & s2 & -> & H1 & H2); exists s1, s2; (split; [reflexivity|]); (split; [apply IHa, H1|exact H2]). }
    rewrite lang_seq. destruct (nullable a) eqn:En.
    + apply nullable_iff in En. rewrite lang_alt, HS, IHb. split.
      * intros [(s1 & s2 & -> & H1 & H2)|H]; [exists (c :: s1), s2; auto|exists [], (c :: s); auto].
      * intros ([|x s1] & s2 & H & H1 & H2); cbn in H; [subst; auto|]. injection H as <- ->. left. eauto.
    + rewrite HS. split.
      * intros (s1 & s2 & -> & H1 & H2). exists (c :: s1), s2; auto.
      * intros ([|x s1] & s2 & H & H1 & H2); cbn in H; [apply nullable_iff in H1; congruence|]. injection H as <- ->. eauto.
  - rewrite !lang_alt, IHa, IHb. reflexivity.
  - rewrite lang_seq. split.
    + intros (s1 & s2 & -> & H1 & H2). apply IHa in H1. change (c :: s1 ++ s2) with ((c :: s1) ++ s2). constructor; assumption.
    + intros H. apply star_cons in H as (s1 & s2 & -> & H1 & H2). exists s1, s2. split; [reflexivity|]. split; [apply IHa, H1|exact H2].
Qed.

Lemma matches_iff s : forall r, matches r s = true <-> lang r s.
Proof. induction s as [|c s IH]; intros r; cbn [matches]; [apply nullable_iff|rewrite IH; apply deriv_iff]. Qed.

Lemma lang_upto f n : forall s, lang (upto f n) s <-> Forall (fun c => f c = true) s /\ (length s <= n)%nat.
Proof.
  induction n as [|n IH]; intros s; cbn [upto].
  - rewrite lang_eps. split; [intros ->; split; [constructor|cbn; lia]|]. intros [_ H]. destruct s; [reflexivity|cbn in H; lia].
  - rewrite lang_alt, lang_eps, lang_seq. split.
    + intros [->|(s1 & s2 & -> & H1 & H2)]; [split; [constructor|cbn; lia]|]. apply lang_char in H1 as (c & -> & Hc).
      apply IH in H2 as [HF HL]. split; [constructor; assumption|cbn; lia].
    + intros [HF HL]. destruct s as [|c s]; [auto|]. right. apply Forall_cons in HF as [Hc HF]. exists [c], s.
      split; [reflexivity|]. split; [apply lang_char; eauto|]. apply IH. split; [exact HF|cbn in HL; lia].
Qed.

Lemma lang_rep f lo : forall extra s, lang (rep f lo extra) s <-> Forall (fun c => f c = true) s /\ (lo <= length s <= lo + extra)%nat.
Proof.
  induction lo as [|lo IH]; intros extra s; cbn [rep].
  - rewrite lang_upto. split; intros [H1 H2]; (split; [exact H1|lia]).
  - rewrite lang_seq. split.
    + intros (s1 & s2 & -> & H1 & H2). apply lang_char in H1 as (c & -> & Hc). apply IH in H2 as [HF HL].
      split; [constructor; assumption|cbn; lia].
    + intros [HF HL]. destruct s as [|c s]; [cbn in HL; lia|]. apply Forall_cons in HF as [Hc HF]. exists [c], s.
      split; [reflexivity|]. split; [apply lang_char; eauto|]. apply IH. split; [exact HF|cbn in HL; lia].
Qed.

Lemma lang_star f s : lang (RStar (RChar f)) s <-> Forall (fun c => f c = true) s.
Proof.
  induction s as [|c s IH]; [split; intros _; constructor|]. split.
  - intros H. apply star_cons in H as (s1 & s2 & -> & H1 & H2). apply lang_char in H1 as (x & [= <- ->] & Hx).
    constructor; [exact Hx|]. apply IH. exact H2.
  - intros HF. apply Forall_cons in HF as [Hc HF]. change (c :: s) with ([c] ++ s). constructor; [constructor; exact Hc|]. apply IH, HF.
Qed.

Lemma lang_plus f s : lang (plus f) s <-> Forall (fun c => f c = true) s /\ s <> [].
Proof.
  unfold plus. rewrite lang_seq. split.
  - intros (s1 & s2 & -> & H1 & H2). apply lang_char in H1 as (c & -> & Hc). apply lang_star in H2. split; [constructor; assumption|discriminate].
  - intros [HF HN]. destruct s as [|c s]; [congruence|]. apply Forall_cons in HF as [Hc HF]. exists [c], s.
    split; [reflexivity|]. split; [apply lang_char; eauto|apply lang_star, HF].
Qed.

Lemma lang_lit c s : lang (lit c) s <-> s = [c].
Proof.
  unfold lit. rewrite lang_char. split; [intros (x & -> & H); apply N.eqb_eq in H; subst; reflexivity|].
  intros ->. exists c. split; [reflexivity|apply N.eqb_refl].
Qed.

Lemma lang_opt r s : lang (opt r) s <-> s = [] \/ lang r s.
Proof. unfold opt. rewrite lang_alt, lang_eps. reflexivity. Qed.

(** ** Small facts *)

Lemma len_le s n : (len s <=? N.of_nat n) = true <-> (length s <= n)%nat.
Proof. unfold len. lia. Qed.
Lemma zmem_iff z l : zmem z l = true <-> In z l.
Proof.
  unfold zmem. rewrite existsb_exists. split; [intros (x & H & E); apply Z.eqb_eq in E; subst; exact H|].
  intros H. exists z. split; [exact H|apply Z.eqb_refl].
Qed.
Lemma valid_fid_iff f : valid_fid f = true <-> f <> 0.
Proof. unfold valid_fid. lia. Qed.

(** ** Casts *)

Definition ref_ok (r : ref) : Prop :=
  match r with
  | RUrl u => (1 <= length u <= 256)%nat
  | RCast c => ci_fid c <> 0 /\ length (ci_hash c) = 20%nat
  end.

Lemma valid_url_iff u : valid_url u = true <-> (1 <= length u <= 256)%nat.
Proof. unfold valid_url, len. lia. Qed.
Lemma valid_cast_id_iff c : valid_cast_id c = true <-> ci_fid c <> 0 /\ length (ci_hash c) = 20%nat.
Proof. unfold valid_cast_id. rewrite andb_true_iff, valid_fid_iff. unfold len. split; intros [H1 H2]; (split; [exact H1|lia]). Qed.
Lemma valid_ref_iff r : valid_ref r = true <-> ref_ok r.
Proof. destruct r as [u|c]; [apply valid_url_iff|apply valid_cast_id_iff]. Qed.

Lemma mentions_ok_iff n ms : forall ps first prev,
  length ms = length ps ->
  mentions_ok n first prev ms ps = true <->
  Forall (fun f => f <> 0) ms /\ Forall (fun p => p <= n) ps /\ Sorted N.le ps /\
  (first = true \/ match ps with [] => True | p :: _ => (prev <= Z.of_N p)%Z end).
Proof.
  induction ms as [|f ms IH]; intros [|p ps] first prev HL; try discriminate.
  - cbn. split; [intros _; repeat split; auto|reflexivity].
  - cbn in HL. injection HL as HL. cbn [mentions_ok]. rewrite !andb_true_iff, (IH ps false (Z.of_N p) HL), valid_fid_iff.
    rewrite !Forall_cons, orb_true_iff, N.leb_le, negb_true_iff, Z.ltb_ge. split.
    + intros [[[Hf Hp] Hs] (HF & HP & HS & Hd)]. split; [tauto|]. split; [tauto|]. split; [|tauto].
      constructor; [exact HS|]. destruct Hd as [|Hd]; [discriminate|]. destruct ps as [|q ps]; constructor. lia.
    + intros ((Hf & HF) & (Hp & HP) & HS & Hd). apply Sorted_inv in HS as [HS HR]. repeat split; try assumption.
      right. destruct ps as [|q ps]; [exact I|]. apply HdRel_inv in HR. lia.
Qed.

(** ** Names *)

Lemma lower_alnum_bound c : lower_alnum c = true -> c <> 46 /\ c <> 45 /\ c < 128.
Proof. unfold lower_alnum, is_digit. lia. Qed.

Definition fname_ok (s : bytes) : Prop :=
  exists c r, s = c :: r /\ (length r <= 15)%nat /\
    (48 <= c <= 57 \/ 97 <= c <= 122) /\ Forall (fun x => 48 <= x <= 57 \/ 97 <= x <= 122 \/ x = 45) r.

Lemma lower_alnum_iff c : lower_alnum c = true <-> 48 <= c <= 57 \/ 97 <= c <= 122.
Proof. unfold lower_alnum, is_digit. lia. Qed.

Lemma fname_re_iff s : matches FNAME_RE s = true <-> fname_ok s.
Proof.
  rewrite matches_iff. unfold FNAME_RE. rewrite lang_seq. split.
  - intros (s1 & s2 & -> & H1 & H2). apply lang_char in H1 as (c & -> & Hc). apply lang_rep in H2 as [HF HL].
    exists c, s2. split; [reflexivity|]. split; [lia|]. split; [apply lower_alnum_iff, Hc|].
    eapply Forall_impl; [exact HF|]. cbn beta. intros x Hx. apply orb_true_iff in Hx as [Hx|Hx]; [apply lower_alnum_iff in Hx; tauto|].
    apply N.eqb_eq in Hx. unfold HYPHEN in Hx. auto.
  - intros (c & r & -> & HL & Hc & HF). exists [c], r. split; [reflexivity|]. split; [apply lang_char; exists c; split; [reflexivity|apply lower_alnum_iff, Hc]|].
    apply lang_rep. split; [|lia]. eapply Forall_impl; [exact HF|]. cbn beta. intros x Hx. apply orb_true_iff.
    destruct Hx as [Hx|[Hx|Hx]]; [left; apply lower_alnum_iff; auto|left; apply lower_alnum_iff; auto|right; subst; reflexivity].
Qed.

Lemma fname_ok_length s : fname_ok s -> (1 <= length s <= 16)%nat.
Proof. intros (c & r & -> & HL & _). cbn. lia. Qed.

Lemma fname_ok_chars s : fname_ok s -> Forall (fun x => x <> 46) s.
Proof.
  intros (c & r & -> & HL & Hc & HF). constructor; [lia|]. eapply Forall_impl; [exact HF|]. cbn beta. intros x Hx. lia.
Qed.

Lemma ends_with_iff suf s : ends_with suf s = true <-> exists p, s = p ++ suf.
Proof.
  unfold ends_with. rewrite bool_decide_eq_true. split.
  - intros H. exists (take (length s - length suf) s). rewrite <-H at 2. symmetry. apply take_drop.
  - intros (p & ->). rewrite app_length. replace (length p + length suf - length suf)%nat with (length p) by lia. apply drop_app.
Qed.

Lemma split_on_plain c s : Forall (fun x => x <> c) s -> split_on c s = [s].
Proof.
  induction 1 as [|x s Hx _ IH]; [reflexivity|]. cbn. destruct (N.eqb_spec x c); [congruence|]. rewrite IH. reflexivity.
Qed.

Lemma split_on_app c p s : Forall (fun x => x <> c) p -> split_on c (p ++ c :: s) = p :: split_on c s.
Proof.
  induction 1 as [|x p Hx _ IH]; [cbn; rewrite N.eqb_refl; reflexivity|]. cbn. destruct (N.eqb_spec x c); [congruence|].
  rewrite IH. reflexivity.
Qed.

Lemma split_on_inv c s : forall p ps, split_on c s = p :: ps ->
  Forall (fun x => x <> c) p /\ match ps with [] => s = p | _ => exists s', s = p ++ c :: s' /\ split_on c s' = ps end.
Proof.
  induction s as [|x s IH]; intros p ps H; [cbn in H; injection H as <- <-; split; [constructor|reflexivity]|].
  cbn in H. destruct (N.eqb_spec x c) as [->|Hne].
  - injection H as <- <-. split; [constructor|]. destruct (split_on c s) as [|q qs] eqn:E; [exfalso; eapply split_on_ne; exact E|].
    exists s. auto.
  - destruct (split_on c s) as [|q qs] eqn:E; [exfalso; eapply split_on_ne; exact E|]. injection H as <- <-.
    destruct (IH q qs eq_refl) as [HF Hs]. split; [constructor; assumption|].
    destruct qs as [|q' qs]; [subst; reflexivity|]. destruct Hs as (s' & -> & Hs'). exists s'. auto.
Qed.

Lemma sep_unique_l (c : N) (p : bytes) : forall q s t : bytes, Forall (fun x => x <> c) p -> Forall (fun x => x <> c) q ->
  p ++ c :: s = q ++ c :: t -> p = q /\ s = t.
Proof.
  induction p as [|x p IH]; intros [|y q] s t Hp Hq H; cbn in H.
  - injection H as ->. auto.
  - injection H as <- _. apply Forall_cons in Hq as [Hq _]. congruence.
  - injection H as -> _. apply Forall_cons in Hp as [Hp _]. congruence.
  - injection H as -> H. apply Forall_cons in Hp as [_ Hp]. apply Forall_cons in Hq as [_ Hq].
    destruct (IH q s t Hp Hq H) as [-> ->]. auto.
Qed.

Lemma sep_unique_r (c : N) (p q s t : bytes) : Forall (fun x => x <> c) s -> Forall (fun x => x <> c) t ->
  p ++ c :: s = q ++ c :: t -> p = q /\ s = t.
Proof.
  intros Hs Ht H. assert (H' : reverse s ++ c :: reverse p = reverse t ++ c :: reverse q).
  { apply (f_equal reverse) in H. rewrite !reverse_app, !reverse_cons, <-!app_assoc in H. exact H. }
  apply sep_unique_l in H' as [H1 H2]; [split; apply (inj reverse); assumption| |];
    [rewrite Forall_forall in Hs|rewrite Forall_forall in Ht]; apply Forall_forall; intros x Hx; [apply Hs|apply Ht]; apply elem_of_reverse, Hx.
Qed.

Lemma validate_fname_iff s : validate_fname s = true <-> fname_ok s.
Proof.
  unfold validate_fname. rewrite !andb_true_iff, fname_re_iff. split; [tauto|]. intros H. pose proof (fname_ok_length s H).
  unfold len. repeat split; try assumption; lia.
Qed.

Lemma validate_ens_iff s : validate_ens_name s = true <-> exists l, fname_ok l /\ s = l ++ ETH.
Proof.
  unfold validate_ens_name. rewrite andb_true_iff, ends_with_iff. split.
  - intros [(p & ->) H]. destruct (split_on DOT (p ++ ETH)) as [|q [|q2 [|]]] eqn:E; try discriminate.
    apply andb_true_iff in H as [_ H]. apply fname_re_iff in H. exists q. split; [exact H|].
    apply split_on_inv in E as [HF (s' & E & E2)]. apply split_on_inv in E2 as [HF2 ->]. change ETH with (DOT :: [101; 116; 104]) in *.
    apply sep_unique_r in E as [-> _]; [reflexivity|repeat constructor; unfold DOT; lia|exact HF2].
  - intros (l & Hl & ->). split; [eauto|]. change ETH with (DOT :: [101; 116; 104]). rewrite split_on_app by (apply fname_ok_chars, Hl).
    rewrite split_on_plain by (repeat constructor; unfold DOT; lia). pose proof (fname_ok_length l Hl).
    rewrite !andb_true_iff, fname_re_iff. unfold len. rewrite app_length. cbn [length]. repeat split; try assumption; lia.
Qed.

Lemma validate_base_iff s : validate_base_name s = true <-> exists l, fname_ok l /\ s = l ++ BASE_ETH.
Proof.
  unfold validate_base_name. rewrite andb_true_iff, ends_with_iff. split.
  - intros [(p & ->) H]. destruct (split_on DOT (p ++ BASE_ETH)) as [|q [|q2 [|q3 [|]]]] eqn:E; try discriminate.
    apply andb_true_iff in H as [_ H]. apply fname_re_iff in H. exists q. split; [exact H|].
    apply split_on_inv in E as [HF (s' & E & E2)]. apply split_on_inv in E2 as [HF2 (s2 & -> & E3)]. apply split_on_inv in E3 as [HF3 ->].
    change BASE_ETH with (DOT :: [98; 97; 115; 101] ++ DOT :: [101; 116; 104]) in *.
    change (p ++ DOT :: [98; 97; 115; 101] ++ DOT :: [101; 116; 104]) with (p ++ (DOT :: [98; 97; 115; 101]) ++ DOT :: [101; 116; 104]) in E.
    change (q ++ DOT :: q2 ++ DOT :: q3) with (q ++ (DOT :: q2) ++ DOT :: q3) in E. rewrite !app_assoc in E.
    apply sep_unique_r in E as [E _]; [|repeat constructor; unfold DOT; lia|exact HF3].
    apply sep_unique_r in E as [-> _]; [reflexivity|repeat constructor; unfold DOT; lia|exact HF2].
  - intros (l & Hl & ->). split; [eauto|]. change BASE_ETH with (DOT :: [98; 97; 115; 101] ++ DOT :: [101; 116; 104]).
    rewrite split_on_app by (apply fname_ok_chars, Hl). rewrite split_on_app by (repeat constructor; unfold DOT; lia).
    rewrite split_on_plain by (repeat constructor; unfold DOT; lia). pose proof (fname_ok_length l Hl).
    rewrite !andb_true_iff, fname_re_iff. unfold len. rewrite app_length. cbn [length app]. repeat split; try assumption; lia.
Qed.

(** ** Twitter and GitHub *)

Lemma validate_twitter_iff s : validate_twitter s = true <->
  (length s <= 15)%nat /\ Forall (fun x => 48 <= x <= 57 \/ 97 <= x <= 122 \/ x = 95) s.
Proof.
  unfold validate_twitter, TWITTER_RE. rewrite andb_true_iff, matches_iff, lang_rep. unfold len.
  assert (HF : Forall (fun c => lower_alnum c || (c =? UNDERSCORE) = true) s <-> Forall (fun x => 48 <= x <= 57 \/ 97 <= x <= 122 \/ x = 95) s).
  { apply Forall_iff. intros c. rewrite orb_true_iff, lower_alnum_iff, N.eqb_eq. unfold UNDERSCORE. tauto. }
  rewrite HF. split; [intros (H1 & H2 & H3); split; [lia|exact H2]|]. intros [H1 H2]. repeat split; try assumption; lia.
Qed.

Lemma alnum_iff c : alnum c = true <-> 48 <= c <= 57 \/ 97 <= c <= 122 \/ 65 <= c <= 90.
Proof. unfold alnum. rewrite orb_true_iff, lower_alnum_iff. lia. Qed.

Lemma chars_ascii s : Forall (fun c => c < 128) s -> chars s = map (fun c => [c]) s.
Proof.
  induction 1 as [|c s Hc HF IH]; [reflexivity|]. cbn [chars]. rewrite IH. destruct HF as [|d s Hd HF]; [reflexivity|].
  cbn [map]. unfold continuation. destruct (N.leb_spec 128 d); [lia|]. reflexivity.
Qed.

Lemma chars_concat s : concat (chars s) = s.
Proof.
  induction s as [|c s IH]; [reflexivity|]. cbn [chars]. destruct (chars s) as [|[|d p] ps]; cbn in *; [subst; reflexivity|subst; reflexivity|].
  destruct (continuation d); cbn; rewrite IH; reflexivity.
Qed.

Definition no_double (s : list bytes) : Prop := forall a b, s <> a ++ [HYPHEN] :: [HYPHEN] :: b.

Lemma no_double_cons ch r : no_double (ch :: r) <-> no_double r /\ ~ (ch = [HYPHEN] /\ head r = Some [HYPHEN]).
Proof.
  split.
  - intros H. split; [intros a b ->; apply (H (ch :: a) b); reflexivity|]. intros [-> Hh]. destruct r as [|x r]; [discriminate|].
    injection Hh as ->. apply (H [] r). reflexivity.
  - intros [H1 H2] [|x a] b E; cbn in E; [injection E as -> ->; apply H2; auto|]. injection E as -> ->. eapply H1. reflexivity.
Qed.

Lemma github_rest_iff E n : forall s, github_rest E n s = true <->
  (length s <= n)%nat /\ Forall (fun ch => github_char E ch = true \/ ch = [HYPHEN]) s /\ no_double s.
Proof.
  induction n as [|n IH]; intros [|ch r]; cbn [github_rest].
  - split; [intros _; repeat split; [cbn; lia|constructor|intros [|] b; discriminate]|reflexivity].
  - split; [discriminate|intros [H _]; cbn in H; lia].
  - split; [intros _; repeat split; [cbn; lia|constructor|intros [|] b; discriminate]|reflexivity].
  - rewrite andb_true_iff, IH, orb_true_iff, andb_true_iff, bool_decide_eq_true, negb_true_iff, bool_decide_eq_false, Forall_cons, no_double_cons.
    cbn [length]. split.
    + intros [Hc (HL & HF & HN)]. split; [lia|]. split; [split; [tauto|exact HF]|]. split; [exact HN|]. intros [-> Hh].
      destruct Hc as [Hc|[_ Hc]]; [|tauto]. cbn in Hc. discriminate.
    + intros (HL & (Hc & HF) & HN & Hd). split; [|repeat split; try assumption; lia].
      destruct Hc as [Hc|Hc]; [auto|]. right. split; [exact Hc|]. intros Hh. tauto.
Qed.

(** ** Locations *)

Definition digits_ok (lo hi : nat) (s : bytes) : Prop := Forall digit_ok s /\ (lo <= length s <= hi)%nat.

Lemma is_digit_forall s : Forall (fun c => is_digit c = true) s <-> Forall digit_ok s.
Proof. apply Forall_iff. intros c. apply is_digit_iff. Qed.

Lemma coord_re_iff extra s : matches (coord_re extra) s = true <->
  exists sign i f, s = sign ++ i ++ DOT :: f /\ (sign = [] \/ sign = [HYPHEN]) /\ digits_ok 1 (1 + extra) i /\ digits_ok 2 2 f.
Proof.
  rewrite matches_iff. unfold coord_re, digits_ok. rewrite lang_seq. split.
  - intros (s1 & s2 & -> & H1 & H2). apply lang_opt in H1. rewrite lang_lit in H1.
    apply lang_seq in H2 as (s3 & s4 & -> & H3 & H4). apply lang_rep in H3 as [F3 L3]. apply lang_seq in H4 as (s5 & s6 & -> & H5 & H6).
    apply lang_lit in H5 as ->. apply lang_rep in H6 as [F6 L6]. apply is_digit_forall in F3. apply is_digit_forall in F6.
    exists s1, s3, s6. split; [reflexivity|]. split; [exact H1|]. split; (split; [assumption|lia]).
  - intros (sg & i & f & -> & Hs & [F1 L1] & [F2 L2]). exists sg, (i ++ DOT :: f). split; [reflexivity|].
    split; [apply lang_opt; rewrite lang_lit; exact Hs|]. apply lang_seq. exists i, (DOT :: f). split; [reflexivity|].
    split; [apply lang_rep; split; [apply is_digit_forall, F1|lia]|]. apply lang_seq. exists [DOT], f. split; [reflexivity|].
    split; [apply lang_lit; reflexivity|]. apply lang_rep. split; [apply is_digit_forall, F2|lia].
Qed.

Lemma hundredths_digits s : forall a, Forall digit_ok s -> fold_left (fun a c => if is_digit c then a * 10 + (c - 48) else a) s a = vacc a s.
Proof.
  induction s as [|c s IH]; intros a HF; [reflexivity|]. apply Forall_cons in HF as [Hc HF]. apply is_digit_iff in Hc.
  cbn [fold_left]. rewrite Hc. apply IH, HF.
Qed.

Lemma hundredths_coord sg i f : (sg = [] \/ sg = [HYPHEN]) -> Forall digit_ok i -> digits_ok 2 2 f ->
  hundredths (sg ++ i ++ DOT :: f) = value i * 100 + value f.
Proof.
  intros Hs Hi [Hf Hl]. assert (E : hundredths (sg ++ i ++ DOT :: f) = hundredths (i ++ DOT :: f)) by (destruct Hs as [->| ->]; reflexivity).
  rewrite E. unfold hundredths. rewrite fold_left_app, (hundredths_digits i 0 Hi). cbn [fold_left]. change (is_digit DOT) with false. cbv iota.
  rewrite (hundredths_digits f _ Hf). rewrite vacc_split. replace (length f) with 2%nat by lia. reflexivity.
Qed.

(** ** Asset identifiers of profile tokens *)

Lemma alnum_forall s : Forall (fun c => alnum c = true) s <-> Forall (fun c => 48 <= c <= 57 \/ 97 <= c <= 122 \/ 65 <= c <= 90) s.
Proof. apply Forall_iff. intros c. apply alnum_iff. Qed.
Lemma lower_forall s : Forall (fun c => lower_alnum c = true) s <-> Forall (fun c => 48 <= c <= 57 \/ 97 <= c <= 122) s.
Proof. apply Forall_iff. intros c. apply lower_alnum_iff. Qed.

(** "namespace:reference/asset namespace:asset reference", or with "/token" behind it. *)
Definition caip19_ok (s : bytes) : Prop :=
  exists ns rf an ar tok,
    s = ns ++ [58] ++ rf ++ [47] ++ an ++ [58] ++ ar ++ tok /\
    (Forall (fun c => 48 <= c <= 57 \/ 97 <= c <= 122) ns /\ ns <> []) /\
    (Forall (fun c => 48 <= c <= 57 \/ 97 <= c <= 122 \/ 65 <= c <= 90) rf /\ rf <> []) /\
    (Forall (fun c => 48 <= c <= 57 \/ 97 <= c <= 122 \/ c = 45) an /\ (3 <= length an <= 8)%nat) /\
    (Forall (fun c => 48 <= c <= 57 \/ 97 <= c <= 122 \/ 65 <= c <= 90 \/ c = 45 \/ c = 46 \/ c = 37) ar /\ (1 <= length ar <= 128)%nat) /\
    (tok = [] \/ exists t, tok = 47 :: t /\ Forall (fun c => 48 <= c <= 57 \/ 97 <= c <= 122 \/ 65 <= c <= 90) t /\ t <> []).

Lemma caip19_re_iff s : matches CAIP19_RE s = true <-> caip19_ok s.
Proof.
  rewrite matches_iff. unfold CAIP19_RE, caip19_ok. split.
  - intros H. apply lang_seq in H as (ns & s1 & -> & H1 & H). apply lang_plus in H1 as [F1 N1]. apply lower_forall in F1.
    apply lang_seq in H as (x1 & s2 & -> & L1 & H). apply lang_lit in L1 as ->.
    apply lang_seq in H as (rf & s3 & -> & H2 & H). apply lang_plus in H2 as [F2 N2]. apply alnum_forall in F2.
    apply lang_seq in H as (x2 & s4 & -> & L2 & H). apply lang_lit in L2 as ->.
    apply lang_seq in H as (an & s5 & -> & H3 & H). apply lang_rep in H3 as [F3 N3].
    apply lang_seq in H as (x3 & s6 & -> & L3 & H). apply lang_lit in L3 as ->.
    apply lang_seq in H as (ar & tok & -> & H4 & H). apply lang_rep in H4 as [F4 N4].
    exists ns, rf, an, ar, tok. split; [reflexivity|]. split; [auto|]. split; [auto|]. split.
    { split; [|lia]. eapply Forall_impl; [exact F3|]. cbn beta. intros c Hc. unfold hyphen_lower in Hc. apply orb_true_iff in Hc as [Hc|Hc]; [apply lower_alnum_iff in Hc; tauto|].
      apply N.eqb_eq in Hc. unfold HYPHEN in Hc. auto. }
    split.
    { split; [|lia]. eapply Forall_impl; [exact F4|]. cbn beta. intros c Hc. unfold asset_char in Hc. rewrite !orb_true_iff, alnum_iff, !N.eqb_eq in Hc. unfold HYPHEN, DOT in Hc. tauto. }
    apply lang_opt in H as [->|H]; [auto|]. right. apply lang_seq in H as (x4 & t & -> & L4 & H). apply lang_lit in L4 as ->.
    apply lang_plus in H as [F5 N5]. apply alnum_forall in F5. exists t. auto.
  - intros (ns & rf & an & ar & tok & -> & [F1 N1] & [F2 N2] & [F3 N3] & [F4 N4] & H5).
    apply LSeq; [apply lang_plus; split; [apply lower_forall, F1|exact N1]|]. apply LSeq; [apply lang_lit; reflexivity|].
    apply LSeq; [apply lang_plus; split; [apply alnum_forall, F2|exact N2]|]. apply LSeq; [apply lang_lit; reflexivity|].
    apply LSeq. { apply lang_rep. split; [|lia]. eapply Forall_impl; [exact F3|]. cbn beta. intros c Hc. unfold hyphen_lower.
      rewrite orb_true_iff, lower_alnum_iff, N.eqb_eq. unfold HYPHEN. tauto. }
    apply LSeq; [apply lang_lit; reflexivity|].
    apply LSeq. { apply lang_rep. split; [|lia]. eapply Forall_impl; [exact F4|]. cbn beta. intros c Hc. unfold asset_char.
      rewrite !orb_true_iff, alnum_iff, !N.eqb_eq. unfold HYPHEN, DOT. tauto. }
    apply lang_opt. destruct H5 as [->|(t & -> & F5 & N5)]; [auto|]. right. apply (LSeq _ _ [47] t); [apply lang_lit; reflexivity|].
    apply lang_plus. split; [apply alnum_forall, F5|exact N5].
Qed.

Lemma after_app c p s : Forall (fun x => x <> c) p -> after c (p ++ c :: s) = Some s.
Proof.
  induction 1 as [|x p Hx _ IH]; cbn; [rewrite N.eqb_refl; reflexivity|]. destruct (N.eqb_spec x c); [congruence|exact IH].
Qed.

(** The checks behind the regular expression never reject. *)
Lemma validate_caip19_iff s : validate_caip19 s = true <-> s = [] \/ ((length s <= 256)%nat /\ caip19_ok s).
Proof.
  unfold validate_caip19. rewrite orb_true_iff, bool_decide_eq_true, !andb_true_iff, caip19_re_iff. split.
  - intros [->|[[H1 H2] _]]; [auto|]. right. split; [unfold len in H1; lia|exact H2].
  - intros [->|[H1 H2]]; [auto|]. right. split; [split; [unfold len; lia|exact H2]|].
    destruct H2 as (ns & rf & an & ar & tok & -> & [F1 N1] & [F2 N2] & [F3 N3] & [F4 N4] & H5). clear H1.
    assert (S1 : Forall (fun x => x <> SLASH) (ns ++ [58] ++ rf)).
    { unfold SLASH. apply Forall_app; split; [|apply Forall_app; split].
      - eapply Forall_impl; [exact F1|]. cbn beta. intros; lia.
      - repeat constructor; lia.
      - eapply Forall_impl; [exact F2|]. cbn beta. intros; lia. }
    assert (S2 : Forall (fun x => x <> SLASH) (an ++ [58] ++ ar)).
    { unfold SLASH. apply Forall_app; split; [|apply Forall_app; split].
      - eapply Forall_impl; [exact F3|]. cbn beta. intros; lia.
      - repeat constructor; lia.
      - eapply Forall_impl; [exact F4|]. cbn beta. intros; lia. }
    assert (S3 : Forall (fun x => x <> COLON) an).
    { unfold COLON. eapply Forall_impl; [exact F3|]. cbn beta. intros; lia. }
    assert (A : after COLON (an ++ [58] ++ ar) = Some ar) by (apply (after_app COLON an ar), S3).
    assert (AL : (len ar <=? 128) = true) by (unfold len; lia).
    replace (ns ++ [58] ++ rf ++ [47] ++ an ++ [58] ++ ar ++ tok) with ((ns ++ [58] ++ rf) ++ SLASH :: (an ++ [58] ++ ar) ++ tok)
      by (rewrite <-!app_assoc; reflexivity).
    rewrite split_on_app by exact S1. destruct H5 as [->|(t & -> & F5 & N5)].
    + rewrite app_nil_r, split_on_plain by exact S2. rewrite A. exact AL.
    + change (47 :: t) with (SLASH :: t). rewrite split_on_app by exact S2. rewrite split_on_plain; [rewrite A; exact AL|].
      unfold SLASH. eapply Forall_impl; [exact F5|]. cbn beta. intros; lia.
Qed.

(** ** Locations *)

Definition coord_ok (imax : nat) (bound : N) (s : bytes) : Prop :=
  exists sign i f, s = sign ++ i ++ [46] ++ f /\ (sign = [] \/ sign = [45]) /\ digits_ok 1 imax i /\ digits_ok 2 2 f /\
    value i * 100 + value f <= bound.

Lemma coord_iff extra bound s : matches (coord_re extra) s && (hundredths s <=? bound) = true <-> coord_ok (1 + extra) bound s.
Proof.
  rewrite andb_true_iff, coord_re_iff. split.
  - intros [(sg & i & f & -> & Hs & Hi & Hf) Hb]. rewrite (hundredths_coord sg i f Hs (proj1 Hi) Hf) in Hb. exists sg, i, f.
    split; [reflexivity|]. split; [exact Hs|]. split; [exact Hi|]. split; [exact Hf|]. lia.
  - intros (sg & i & f & -> & Hs & Hi & Hf & Hb). change ([46] ++ f) with (DOT :: f).
    split; [exists sg, i, f; auto|]. rewrite (hundredths_coord sg i f Hs (proj1 Hi) Hf). lia.
Qed.

Lemma coord_no_comma imax bound s : coord_ok imax bound s -> Forall (fun x => x <> COMMA) s.
Proof.
  assert (D : forall l, Forall digit_ok l -> Forall (fun x => x <> COMMA) l).
  { intros l H. eapply Forall_impl; [exact H|]. unfold digit_ok, COMMA. cbn beta. intros; lia. }
  intros (sg & i & f & -> & Hs & [Hi _] & [Hf _] & _). apply Forall_app; split; [destruct Hs as [->| ->]; repeat constructor; unfold COMMA; lia|].
  apply Forall_app; split; [apply D, Hi|]. apply Forall_app; split; [repeat constructor; unfold COMMA; lia|apply D, Hf].
Qed.

Lemma validate_location_iff s : validate_location s = true <->
  s = [] \/ exists lat lon, s = GEO ++ lat ++ [44] ++ lon /\ coord_ok 2 9000 lat /\ coord_ok 3 18000 lon.
Proof.
  unfold validate_location. rewrite orb_true_iff, bool_decide_eq_true. split.
  - intros [->|H]; [auto|]. right. destruct (strip_prefix GEO s) as [r|] eqn:E; [|discriminate]. apply strip_prefix_iff in E as ->.
    destruct (split_on COMMA r) as [|lat [|lon [|]]] eqn:E; try discriminate. apply split_on_inv in E as [_ (r' & -> & E)].
    apply split_on_inv in E as [_ ->]. rewrite !andb_true_iff in H. destruct H as [[[H1 H2] H3] H4].
    exists lat, lon. split; [reflexivity|]. split; [apply (coord_iff 1)|apply (coord_iff 2)]; apply andb_true_iff; auto.
  - intros [->|(lat & lon & -> & H1 & H2)]; [auto|]. right.
    assert (E : strip_prefix GEO (GEO ++ lat ++ [44] ++ lon) = Some (lat ++ COMMA :: lon)) by (apply strip_prefix_iff; reflexivity).
    rewrite E, split_on_app, split_on_plain by (eapply coord_no_comma; eassumption).
    apply (coord_iff 1) in H1. apply (coord_iff 2) in H2. apply andb_true_iff in H1 as [-> ->]. apply andb_true_iff in H2 as [-> ->]. reflexivity.
Qed.

(** ** Usernames *)

Lemma validate_username_iff s : validate_username_value s = true <->
  s = [] \/ exists l, fname_ok l /\ (s = l \/ s = l ++ ETH \/ s = l ++ BASE_ETH).
Proof.
  unfold validate_username_value. rewrite orb_true_iff, bool_decide_eq_true. split.
  - intros [->|H]; [auto|]. right. destruct (ends_with BASE_ETH s) eqn:E1; [apply validate_base_iff in H as (l & H & ->); eauto|].
    destruct (ends_with ETH s) eqn:E2; [apply validate_ens_iff in H as (l & H & ->); eauto|]. apply validate_fname_iff in H. eauto.
  - intros [->|(l & Hl & H)]; [auto|]. right. pose proof (fname_ok_chars l Hl) as HC.
    destruct (ends_with BASE_ETH s) eqn:E1.
    + apply validate_base_iff. apply ends_with_iff in E1 as (p & ->). destruct H as [H|[H|H]].
      * subst l. apply Forall_app in HC as [_ HC]. apply Forall_cons in HC as [HC _]. congruence.
      * exfalso. change BASE_ETH with ([46; 98; 97; 115; 101] ++ 46 :: [101; 116; 104]) in H. change ETH with (46 :: [101; 116; 104]) in H.
        rewrite app_assoc in H. apply sep_unique_r in H as [<- _]; [|repeat constructor; lia|repeat constructor; lia].
        apply Forall_app in HC as [_ HC]. apply Forall_cons in HC as [HC _]. congruence.
      * exists l. auto.
    + assert (NB : s <> l ++ BASE_ETH).
      { intros ->. assert (X : ends_with BASE_ETH (l ++ BASE_ETH) = true) by (apply ends_with_iff; eauto). congruence. }
      destruct (ends_with ETH s) eqn:E2.
      * apply validate_ens_iff. destruct H as [H|[H|H]]; [|eauto|congruence]. subst l. apply ends_with_iff in E2 as (p & ->).
        apply Forall_app in HC as [_ HC]. apply Forall_cons in HC as [HC _]. congruence.
      * apply validate_fname_iff. destruct H as [->|[H|H]]; [exact Hl| |congruence]. subst s.
        assert (X : ends_with ETH (l ++ ETH) = true) by (apply ends_with_iff; eauto). congruence.
Qed.
