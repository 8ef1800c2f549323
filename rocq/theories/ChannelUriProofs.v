(** Proofs about [ChannelUri]. *)
From stdpp Require Import list.
From Verif Require Import Base Codec Version ChannelUri.
From Coq Require Import ZifyN ZifyNat ZifyBool.
#[local] Open Scope N_scope.

(** ** Decimal numerals *)

Definition digit_ok (c : N) : Prop := 48 <= c <= 57.
Definition value (s : bytes) : N := fold_left (fun a c => a * 10 + (c - 48)) s 0.

(** The ordinary decimal numeral: at least one digit, no leading zero except in "0" itself. *)
Definition numeral (s : bytes) (n : N) : Prop :=
  Forall digit_ok s /\ value s = n /\ s <> [] /\ (forall r, s = 48 :: r -> r = []).

Lemma is_digit_iff c : is_digit c = true <-> digit_ok c.
Proof. unfold is_digit, digit_ok. lia. Qed.

Definition vacc (a : N) (s : bytes) : N := fold_left (fun a c => a * 10 + (c - 48)) s a.

Lemma vacc_ge s : forall a, a <= vacc a s.
Proof.
  induction s as [|c s IH]; intros a; [apply N.le_refl|]. change (vacc a (c :: s)) with (vacc (a * 10 + (c - 48)) s).
  specialize (IH (a * 10 + (c - 48))). lia.
Qed.

Lemma vacc_mono s : forall a b, a <= b -> vacc a s <= vacc b s.
Proof.
  induction s as [|c s IH]; intros a b Hab; [exact Hab|]. change (vacc (a * 10 + (c - 48)) s <= vacc (b * 10 + (c - 48)) s).
  apply IH. lia.
Qed.

Lemma decimal_iff bound s : forall a v,
  a < bound -> decimal bound a s = Some v <-> Forall digit_ok s /\ vacc a s = v /\ v < bound.
Proof.
  induction s as [|c s IH]; intros a v Ha.
  { cbn. split; [intros [= <-]; auto| intros (_ & -> & _); reflexivity]. }
  cbn [decimal]. destruct (is_digit c) eqn:Ec.
  - apply is_digit_iff in Ec. cbv zeta. destruct (N.ltb_spec (a * 10 + (c - 48)) bound) as [Hl|Hl].
    + rewrite (IH _ v Hl). rewrite Forall_cons. change (vacc a (c :: s)) with (vacc (a * 10 + (c - 48)) s). tauto.
    + split; [discriminate|]. intros (_ & Hv & Hlt). change (vacc a (c :: s)) with (vacc (a * 10 + (c - 48)) s) in Hv.
      pose proof (vacc_ge s (a * 10 + (c - 48))). lia.
  - split; [discriminate|]. intros (HF & _). apply Forall_cons in HF as [H _]. apply is_digit_iff in H. congruence.
Qed.

(** *** Printing *)

Lemma digits_app f : forall n acc, digits f n acc = digits f n [] ++ acc.
Proof.
  induction f as [|f IH]; intros n acc; [reflexivity|]. cbn [digits]. cbv zeta.
  destruct (n / 10 =? 0); [reflexivity|]. rewrite (IH (n / 10) (_ :: acc)), (IH (n / 10) [_]). rewrite <-app_assoc. reflexivity.
Qed.

Lemma vacc_app a s t : vacc a (s ++ t) = vacc (vacc a s) t.
Proof. apply fold_left_app. Qed.

Lemma digits_numeral f : forall n, n < 2 ^ N.of_nat f -> numeral (digits (f + 1) n []) n.
Proof.
  induction f as [|f IH]; intros n Hn.
  - assert (n = 0) by (change (2 ^ N.of_nat 0) with 1 in Hn; lia). subst. cbn.
    repeat split; [repeat constructor; unfold digit_ok; lia| discriminate| intros r [= <-]; reflexivity].
  - change (S f + 1)%nat with (S (f + 1)). cbn [digits]. cbv zeta.
    assert (Hm : n mod 10 < 10) by (apply N.mod_lt; lia).
    pose proof (N.div_mod n 10 ltac:(lia)) as Hdm.
    destruct (N.eqb_spec (n / 10) 0) as [H0|H0].
    + repeat split.
      * repeat constructor; unfold digit_ok; lia.
      * unfold value. cbn. lia.
      * discriminate.
      * intros r [= _ <-]; reflexivity.
    + assert (Hlt : n / 10 < 2 ^ N.of_nat f).
      { rewrite Nat2N.inj_succ, N.pow_succ_r' in Hn. apply N.div_lt_upper_bound; lia. }
      destruct (IH (n / 10) Hlt) as (HF & HV & HN & HZ). rewrite digits_app. repeat split.
      * apply Forall_app; split; [exact HF|]. repeat constructor; unfold digit_ok; lia.
      * change (value ?x) with (vacc 0 x). rewrite vacc_app. change (vacc 0 (digits (f + 1) (n / 10) [])) with (value (digits (f + 1) (n / 10) [])).
        rewrite HV. cbn. lia.
      * destruct (digits (f + 1) (n / 10) []); discriminate.
      * intros r Hr. exfalso. destruct (digits (f + 1) (n / 10) []) as [|c l] eqn:El; [congruence|].
        cbn in Hr. injection Hr as -> <-. specialize (HZ l eq_refl) as ->. cbn in HV. lia.
Qed.

Lemma size_bound n : n < 2 ^ N.size n.
Proof. destruct n as [|p]; [cbn; lia|]. apply N.size_gt. Qed.

Lemma to_string_numeral n : numeral (to_string n) n.
Proof. unfold to_string. apply digits_numeral. rewrite N2Nat.id. apply size_bound. Qed.

Lemma vacc_split s : forall a, vacc a s = a * 10 ^ N.of_nat (length s) + vacc 0 s.
Proof.
  induction s as [|c s IH]; intros a; [cbn; lia|]. cbn [length].
  change (vacc a (c :: s)) with (vacc (a * 10 + (c - 48)) s). change (vacc 0 (c :: s)) with (vacc (0 * 10 + (c - 48)) s).
  rewrite (IH (a * 10 + (c - 48))), (IH (0 * 10 + (c - 48))), Nat2N.inj_succ, N.pow_succ_r'. lia.
Qed.

Lemma vacc_lt s : Forall digit_ok s -> vacc 0 s < 10 ^ N.of_nat (length s).
Proof.
  induction 1 as [|c s Hc HF IH]; [cbn; lia|]. change (vacc 0 (c :: s)) with (vacc (0 * 10 + (c - 48)) s).
  rewrite vacc_split. cbn [length]. rewrite Nat2N.inj_succ, N.pow_succ_r'. unfold digit_ok in Hc. nia.
Qed.

(** A numeral is determined by its value, and the number of digits by the magnitude. *)
Lemma numeral_low s n : numeral s n -> n <> 0 -> 10 ^ (N.of_nat (length s) - 1) <= n.
Proof.
  intros (HF & HV & HN & HZ) Hn. destruct s as [|c s]; [congruence|].
  change (value (c :: s)) with (vacc (0 * 10 + (c - 48)) s) in HV. rewrite vacc_split in HV.
  apply Forall_cons in HF as [Hc HF]. unfold digit_ok in Hc. cbn [length].
  replace (N.of_nat (S (length s)) - 1) with (N.of_nat (length s)) by lia.
  destruct (N.eq_dec c 48) as [->|Hne]; [|nia]. specialize (HZ s eq_refl) as ->. cbn in HV. lia.
Qed.

Lemma numeral_high s n : numeral s n -> n < 10 ^ N.of_nat (length s).
Proof. intros (HF & HV & _). rewrite <-HV. apply vacc_lt, HF. Qed.

Lemma vacc_inj s : forall t, length s = length t -> Forall digit_ok s -> Forall digit_ok t -> vacc 0 s = vacc 0 t -> s = t.
Proof.
  induction s as [|c s IH]; intros [|d t] Hl Hs Ht Hv; try discriminate; [reflexivity|].
  apply Forall_cons in Hs as [Hc Hs]. apply Forall_cons in Ht as [Hd Ht]. cbn in Hl. injection Hl as Hl.
  change (vacc (0 * 10 + (c - 48)) s = vacc (0 * 10 + (d - 48)) t) in Hv. rewrite (vacc_split s), (vacc_split t) in Hv.
  rewrite <-Hl in Hv. pose proof (vacc_lt s Hs) as H1. pose proof (vacc_lt t Ht) as H2. rewrite <-Hl in H2.
  unfold digit_ok in Hc, Hd. assert (c = d) by nia. subst. f_equal. apply IH; auto. nia.
Qed.

Lemma numeral_zero s : numeral s 0 -> s = [48].
Proof.
  intros (HF & HV & HN & HZ). destruct s as [|c s]; [congruence|]. apply Forall_cons in HF as [Hc HF].
  change (value (c :: s)) with (vacc (0 * 10 + (c - 48)) s) in HV. rewrite vacc_split in HV. unfold digit_ok in Hc.
  pose proof (N.pow_nonzero 10 (N.of_nat (length s)) ltac:(lia)). assert (c = 48) by nia. subst. rewrite (HZ s eq_refl). reflexivity.
Qed.

Lemma numeral_unique s t n : numeral s n -> numeral t n -> s = t.
Proof.
  intros Hs Ht. destruct (N.eq_dec n 0) as [->|Hn]; [rewrite (numeral_zero s), (numeral_zero t); auto|].
  pose proof (numeral_low _ _ Hs Hn) as L1. pose proof (numeral_low _ _ Ht Hn) as L2.
  pose proof (numeral_high _ _ Hs) as U1. pose proof (numeral_high _ _ Ht) as U2.
  assert (Hl : N.of_nat (length s) = N.of_nat (length t)).
  { destruct s as [|c1 s']; [destruct Hs as (_ & _ & Hs & _); congruence|].
    destruct t as [|c2 t']; [destruct Ht as (_ & _ & Ht & _); congruence|].
    cbn [length] in *. destruct (N.lt_trichotomy (N.of_nat (S (length s'))) (N.of_nat (S (length t')))) as [H|[H|H]]; [|exact H|].
    - pose proof (N.pow_le_mono_r 10 (N.of_nat (S (length s'))) (N.of_nat (S (length t')) - 1) ltac:(lia) ltac:(lia)). lia.
    - pose proof (N.pow_le_mono_r 10 (N.of_nat (S (length t'))) (N.of_nat (S (length s')) - 1) ltac:(lia) ltac:(lia)). lia. }
  destruct Hs as (F1 & V1 & _). destruct Ht as (F2 & V2 & _). apply vacc_inj; auto; [lia|].
  change (value s = value t). congruence.
Qed.

Lemma to_string_iff s n : to_string n = s <-> numeral s n.
Proof.
  split; [intros <-; apply to_string_numeral|]. intros H. eapply numeral_unique; [apply to_string_numeral|exact H].
Qed.

Lemma numeral_length s n k : numeral s n -> n < 10 ^ k -> 1 <= k -> N.of_nat (length s) <= k.
Proof.
  intros H Hn Hk. destruct (N.eq_dec n 0) as [->|H0]; [rewrite (numeral_zero s H); cbn; lia|].
  pose proof (numeral_low _ _ H H0) as HL. destruct (N.le_gt_cases (N.of_nat (length s)) k) as [|Hgt]; [assumption|].
  pose proof (N.pow_le_mono_r 10 k (N.of_nat (length s) - 1) ltac:(lia) ltac:(lia)). lia.
Qed.

Lemma numeral_not_plus s n r : numeral s n -> s <> 43 :: r.
Proof. intros (HF & _) ->. apply Forall_cons in HF as [H _]. unfold digit_ok in H. lia. Qed.

Lemma parse_u64_numeral s n : numeral s n -> n < 2 ^ 64 -> parse_u64 s = Some n.
Proof.
  intros H Hn. pose proof H as (HF & HV & HN & _). unfold parse_u64. destruct s as [|c r]; [congruence|].
  destruct (N.eqb_spec c PLUS) as [->|_]; [exfalso; eapply numeral_not_plus; eauto|].
  apply decimal_iff; [reflexivity|]. auto.
Qed.

Lemma decimal_bound bound a s v : a < bound -> decimal bound a s = Some v -> v < bound.
Proof. intros Ha H. apply decimal_iff in H; tauto. Qed.

Lemma parse_u64_bound s n : parse_u64 s = Some n -> n < 2 ^ 64.
Proof.
  unfold parse_u64. destruct s as [|c r]; [discriminate|]. destruct (c =? PLUS); [destruct r; [discriminate|]|];
    apply decimal_bound; reflexivity.
Qed.

Lemma filter_digits s : Forall digit_ok s -> List.filter (fun c => negb (c =? UNDERSCORE)) s = s.
Proof.
  induction 1 as [|c s Hc _ IH]; [reflexivity|]. cbn. unfold digit_ok, UNDERSCORE in *.
  destruct (N.eqb_spec c 95); [lia|]. cbn. rewrite IH. reflexivity.
Qed.

Lemma parse_u256_numeral s n : numeral s n -> n < 2 ^ 256 -> parse_u256 s = Some n.
Proof.
  intros (HF & HV & _) Hn. unfold parse_u256. rewrite filter_digits by exact HF. apply decimal_iff; [reflexivity|]. auto.
Qed.

Lemma parse_u256_bound s n : parse_u256 s = Some n -> n < 2 ^ 256.
Proof. apply decimal_bound. reflexivity. Qed.

(** ** Splitting *)

Lemma strip_prefix_iff p : forall s r, strip_prefix p s = Some r <-> s = p ++ r.
Proof.
  induction p as [|a p IH]; intros s r; [cbn; split; [intros [= ->]; reflexivity|intros ->; reflexivity]|].
  destruct s as [|b s]; [split; discriminate|]. cbn [strip_prefix]. destruct (N.eqb_spec a b) as [->|Hne].
  - rewrite IH. cbn. split; [intros ->; reflexivity|intros [= ->]; reflexivity].
  - split; [discriminate|]. cbn. intros [= -> _]. congruence.
Qed.

Lemma split_on_ne c s : split_on c s <> [].
Proof. destruct s as [|x s]; [discriminate|]. cbn. destruct (x =? c); [discriminate|]. destruct (split_on c s); discriminate. Qed.

Lemma split_on_none c s : c ∉ s -> split_on c s = [s].
Proof.
  induction s as [|x s IH]; intros H; [reflexivity|]. apply not_elem_of_cons in H as [H1 H2]. cbn.
  destruct (N.eqb_spec x c); [congruence|]. rewrite IH by exact H2. reflexivity.
Qed.

Lemma split_on_app c s t : c ∉ s -> split_on c (s ++ c :: t) = s :: split_on c t.
Proof.
  induction s as [|x s IH]; intros H; [cbn; rewrite N.eqb_refl; reflexivity|]. apply not_elem_of_cons in H as [H1 H2]. cbn.
  destruct (N.eqb_spec x c); [congruence|]. rewrite IH by exact H2. reflexivity.
Qed.

Lemma split_on_cons_inv c : forall s x y l, split_on c s = x :: y :: l -> exists t, s = x ++ c :: t /\ split_on c t = y :: l.
Proof.
  induction s as [|b s IH]; intros x y l; [discriminate|]. cbn. destruct (N.eqb_spec b c) as [->|Hne].
  - intros [= <- H]. exists s. auto.
  - destruct (split_on c s) as [|p ps] eqn:E; [discriminate|]. intros [= <- ->].
    destruct (IH p y l eq_refl) as (t & -> & Ht). exists t. auto.
Qed.

Lemma split_on_one_inv c : forall s x, split_on c s = [x] -> s = x.
Proof.
  induction s as [|b s IH]; intros x; [cbn; congruence|]. cbn. destruct (b =? c).
  - intros [= _ H]. exfalso. eapply split_on_ne; eauto.
  - destruct (split_on c s) as [|p ps] eqn:E; [exfalso; eapply split_on_ne; eauto|]. intros [= <- ->].
    rewrite (IH p eq_refl). reflexivity.
Qed.

Lemma split_on_three c s x y z : split_on c s = [x; y; z] -> s = x ++ c :: y ++ c :: z.
Proof.
  intros H. apply split_on_cons_inv in H as (t & -> & H). apply split_on_cons_inv in H as (u & -> & H).
  apply split_on_one_inv in H as ->. reflexivity.
Qed.

(** ** Hexadecimal *)

Lemma hex_val_low v : v < 16 -> hex_val (hex_low v) = Some v.
Proof.
  intros Hv. unfold hex_low. destruct (N.ltb_spec v 10) as [H|H]; unfold hex_val, is_digit.
  - replace ((48 <=? 48 + v) && (48 + v <=? 57)) with true by lia. f_equal. lia.
  - replace ((48 <=? 87 + v) && (87 + v <=? 57)) with false by lia.
    replace ((97 <=? 87 + v) && (87 + v <=? 102)) with true by lia. f_equal. lia.
Qed.

Lemma hex_val_up v : v < 16 -> hex_val (hex_up v) = Some v.
Proof.
  intros Hv. unfold hex_up. destruct (N.ltb_spec v 10) as [H|H]; unfold hex_val, is_digit.
  - replace ((48 <=? 48 + v) && (48 + v <=? 57)) with true by lia. f_equal. lia.
  - replace ((48 <=? 55 + v) && (55 + v <=? 57)) with false by lia.
    replace ((97 <=? 55 + v) && (55 + v <=? 102)) with false by lia.
    replace ((65 <=? 55 + v) && (55 + v <=? 70)) with true by lia. f_equal. lia.
Qed.

Lemma nibbles_length l : length (nibbles l) = (2 * length l)%nat.
Proof. induction l as [|b l IH]; [reflexivity|]. change (nibbles (b :: l)) with (b / 16 :: b mod 16 :: nibbles l).
  cbn [length]. rewrite IH. lia. Qed.

Lemma nibbles_lt l : bytes_ok l = true -> Forall (fun v => v < 16) (nibbles l).
Proof.
  induction l as [|b l IH]; intros H; [constructor|]. cbn in H. apply andb_true_iff in H as [Hb Hl]. cbn.
  constructor; [|constructor; [|exact (IH Hl)]].
  - apply N.div_lt_upper_bound; [lia|]. apply N.ltb_lt in Hb. lia.
  - apply N.mod_lt. lia.
Qed.

(** Any string of hex digits, in either case, with the right values decodes to the bytes. *)
Lemma unhex_nibbles l : bytes_ok l = true ->
  forall s, Forall2 (fun c v => hex_val c = Some v) s (nibbles l) -> unhex s = Some l.
Proof.
  induction l as [|b l IH]; intros Hb s H; cbn in H; [inversion H; reflexivity|].
  inversion H as [|c ? s1 ? Hc H1]; subst. inversion H1 as [|d ? s2 ? Hd H2]; subst. cbn in Hb. apply andb_true_iff in Hb as [Hb Hl].
  cbn [unhex]. rewrite Hc, Hd. cbn. rewrite (IH Hl s2 H2). cbn. f_equal. f_equal.
  pose proof (N.div_mod b 16 ltac:(lia)). lia.
Qed.

Lemma hex_val_lt c v : hex_val c = Some v -> v < 16.
Proof.
  unfold hex_val, is_digit. destruct (_ && _) eqn:E1; [intros [= <-]; lia|].
  destruct ((97 <=? c) && (c <=? 102)) eqn:E2; [intros [= <-]; lia|].
  destruct ((65 <=? c) && (c <=? 70)) eqn:E3; [intros [= <-]; lia|discriminate].
Qed.

Lemma unhex_inv n : forall s l, (length s <= n)%nat -> unhex s = Some l ->
  bytes_ok l = true /\ Forall2 (fun c v => hex_val c = Some v) s (nibbles l).
Proof.
  induction n as [|n IH]; intros s l Hn H.
  - destruct s; [|cbn in Hn; lia]. injection H as <-. split; [reflexivity|constructor].
  - destruct s as [|a [|b r]]; [injection H as <-; split; [reflexivity|constructor]|discriminate|].
    cbn [unhex] in H. destruct (hex_val a) as [x|] eqn:Ea; [|discriminate]. destruct (hex_val b) as [y|] eqn:Eb; [|discriminate].
    cbn in H. destruct (unhex r) as [l'|] eqn:Er; [|discriminate]. injection H as <-.
    destruct (IH r l' ltac:(cbn in Hn; lia) Er) as (H1 & H2). pose proof (hex_val_lt _ _ Ea). pose proof (hex_val_lt _ _ Eb).
    split.
    + change (bytes_ok (x * 16 + y :: l')) with ((x * 16 + y <? 256) && bytes_ok l'). rewrite H1.
      replace (x * 16 + y <? 256) with true by lia. reflexivity.
    + change (nibbles (x * 16 + y :: l')) with ((x * 16 + y) / 16 :: (x * 16 + y) mod 16 :: nibbles l').
      replace ((x * 16 + y) / 16) with x by lia. replace ((x * 16 + y) mod 16) with y by lia. constructor; [exact Ea|]. constructor; assumption.
Qed.

Lemma hex_val_not_slash c v : hex_val c = Some v -> c <> SLASH.
Proof. intros H ->. discriminate. Qed.

Lemma be_be_dec l : bytes_ok l = true -> be (length l) (be_dec l) = l.
Proof.
  induction l as [|x l IH] using rev_ind; intros H; [reflexivity|].
  unfold bytes_ok in H. rewrite forallb_app in H. apply andb_true_iff in H as [H1 H2]. cbn in H2. rewrite andb_true_r in H2.
  apply N.ltb_lt in H2. rewrite app_length. cbn [length]. rewrite Nat.add_1_r, be_S. unfold be_dec. rewrite be_dec_acc_app. cbn [be_dec_acc].
  fold (be_dec l). replace ((be_dec l * 256 + x) / 256) with (be_dec l) by lia.
  replace ((be_dec l * 256 + x) mod 256) with x by lia. rewrite IH by exact H1. reflexivity.
Qed.

Lemma be_dec_lt l : bytes_ok l = true -> be_dec l < 256 ^ N.of_nat (length l).
Proof.
  induction l as [|x l IH] using rev_ind; intros H; [reflexivity|].
  unfold bytes_ok in H. rewrite forallb_app in H. apply andb_true_iff in H as [H1 H2]. cbn in H2. rewrite andb_true_r in H2.
  apply N.ltb_lt in H2. rewrite app_length. cbn [length]. rewrite Nat.add_1_r, Nat2N.inj_succ, N.pow_succ_r'.
  unfold be_dec. rewrite be_dec_acc_app. cbn [be_dec_acc]. fold (be_dec l). specialize (IH H1). lia.
Qed.

(** ** Checksummed addresses *)

Definition lower (c : N) : N := if (65 <=? c) && (c <=? 90) then c + 32 else c.
Definition is_upper (c : N) : Prop := 65 <= c <= 90.
Definition is_lower (c : N) : Prop := 97 <= c <= 122.

Section K.
  Context (keccak : bytes -> bytes).

  (** EIP-55 as in its text: 40 hex digits denoting the address, each letter upper case iff the matching hex digit of the keccak
      hash of the lower-case form is 8 or more. *)
  Definition eip55 (a s : bytes) : Prop :=
    length s = 40%nat /\ unhex s = Some a /\
    forall i c h, s !! i = Some c -> nibbles (keccak (map lower s)) !! i = Some h -> (is_upper c -> 8 <= h) /\ (is_lower c -> h < 8).

  Definition case_of (v h : N) : N := if 8 <=? h then hex_up v else hex_low v.

  Lemma hex_val_case v h : v < 16 -> hex_val (case_of v h) = Some v.
  Proof. intros Hv. unfold case_of. destruct (8 <=? h); [apply hex_val_up|apply hex_val_low]; exact Hv. Qed.

  Lemma lower_hex c v : hex_val c = Some v -> lower c = hex_low v.
  Proof.
    unfold hex_val, is_digit, lower, hex_low. destruct (_ && _) eqn:E1; [intros [= <-]|].
    { replace ((65 <=? c) && (c <=? 90)) with false by lia. replace (c - 48 <? 10) with true by lia. lia. }
    destruct ((97 <=? c) && (c <=? 102)) eqn:E2; [intros [= <-]|].
    { replace ((65 <=? c) && (c <=? 90)) with false by lia. replace (c - 87 <? 10) with false by lia. lia. }
    destruct ((65 <=? c) && (c <=? 70)) eqn:E3; [intros [= <-]|discriminate].
    replace ((65 <=? c) && (c <=? 90)) with true by lia. replace (c - 55 <? 10) with false by lia. lia.
  Qed.

  Lemma map_lower s l : Forall2 (fun c v => hex_val c = Some v) s l -> map lower s = map hex_low l.
  Proof. induction 1 as [|c v s l Hc _ IH]; [reflexivity|]. cbn. rewrite (lower_hex c v Hc), IH. reflexivity. Qed.

  Lemma case_iff c v h : hex_val c = Some v -> c = case_of v h <-> (is_upper c -> 8 <= h) /\ (is_lower c -> h < 8).
  Proof.
    unfold hex_val, is_digit, case_of, hex_up, hex_low, is_upper, is_lower. destruct (_ && _) eqn:E1; [intros [= <-]|].
    { replace (c - 48 <? 10) with true by lia. destruct (8 <=? h); lia. }
    destruct ((97 <=? c) && (c <=? 102)) eqn:E2; [intros [= <-]|].
    { replace (c - 87 <? 10) with false by lia. destruct (N.leb_spec 8 h); lia. }
    destruct ((65 <=? c) && (c <=? 70)) eqn:E3; [intros [= <-]|discriminate].
    replace (c - 55 <? 10) with false by lia. destruct (N.leb_spec 8 h); lia.
  Qed.

  Definition hash_len : Prop := forall x, length (keccak x) = 32%nat.

  Lemma checksum_tail (Hk : hash_len) a :
    take 40 (nibbles (keccak (map hex_low (nibbles a))) ++ repeat 0 40) = take 40 (nibbles (keccak (map hex_low (nibbles a)))).
  Proof. rewrite take_app_le; [reflexivity|]. rewrite nibbles_length, Hk. lia. Qed.

  Definition checksum_body (a : bytes) : bytes :=
    zip_with case_of (nibbles a) (take 40 (nibbles (keccak (map hex_low (nibbles a))) ++ repeat 0 40)).

  Lemma to_checksum_body a : to_checksum keccak a = [48; 120] ++ checksum_body a.
  Proof. reflexivity. Qed.

  Lemma body_length a : length a = 20%nat -> length (checksum_body a) = 40%nat.
  Proof.
    intros Ha. unfold checksum_body. rewrite zip_with_length, nibbles_length, take_length, app_length, repeat_length. lia.
  Qed.

  Lemma body_vals a : length a = 20%nat -> bytes_ok a = true -> Forall2 (fun c v => hex_val c = Some v) (checksum_body a) (nibbles a).
  Proof.
    intros Hl Ha. apply Forall2_same_length_lookup_2; [rewrite body_length, nibbles_length by exact Hl; lia|].
    intros i c v Hc Hv. unfold checksum_body in Hc. apply lookup_zip_with_Some in Hc as (v' & h & -> & Hv' & Hh).
    rewrite Hv in Hv'. injection Hv' as <-. apply hex_val_case.
    eapply (Forall_lookup_1 _ _ _ _ (nibbles_lt a Ha)); eauto.
  Qed.

  Lemma eip55_body (Hk : hash_len) a s : bytes_ok a = true -> length a = 20%nat -> eip55 a s <-> s = checksum_body a.
  Proof.
    intros Ha Hl. split.
    - intros (Hs & Hu & Hc). pose proof (unhex_inv _ _ _ (Nat.le_refl _) Hu) as (_ & HF).
      rewrite (map_lower _ _ HF) in Hc. apply list_eq_same_length with 40%nat; [rewrite body_length by exact Hl; reflexivity|exact Hs|].
      intros i x y Hi Hx Hy. unfold checksum_body in Hy. rewrite checksum_tail in Hy by exact Hk.
      apply lookup_zip_with_Some in Hy as (v & h & -> & Hv & Hh). apply lookup_take_Some in Hh as [Hh _].
      apply case_iff; [|exact (Hc i x h Hx Hh)]. exact (Forall2_lookup_lr _ _ _ _ _ _ HF Hx Hv).
    - intros ->. pose proof (body_vals a Hl Ha) as HF. repeat split; [apply body_length, Hl|apply unhex_nibbles; [exact Ha|exact HF]| |].
      all: destruct (checksum_body a !! i) as [c'|] eqn:Ec; [|discriminate]; injection H as ->.
      all: rewrite (map_lower _ _ HF) in H0.
      all: pose proof Ec as Ec'; unfold checksum_body in Ec'; rewrite checksum_tail in Ec' by exact Hk;
        apply lookup_zip_with_Some in Ec' as (v & h' & -> & Hv & Hh); apply lookup_take_Some in Hh as [Hh _];
        rewrite H0 in Hh; injection Hh as <-.
      all: pose proof (Forall2_lookup_lr _ _ _ _ _ _ HF Ec Hv) as Hx; apply (case_iff _ v h Hx); reflexivity.
  Qed.

  Lemma parse_checksummed_iff (s a : bytes) :
    parse_checksummed keccak s = Some a <-> length a = 20%nat /\ bytes_ok a = true /\ s = to_checksum keccak a.
  Proof.
    unfold parse_checksummed. split.
    - destruct (strip_prefix [48; 120] s) as [r|] eqn:Er; [|discriminate]. cbn. destruct (unhex r) as [l|] eqn:El; [|discriminate]. cbn.
      destruct (N.eqb_spec (N.of_nat (length l)) 20) as [Hl|]; [|discriminate]. cbn.
      destruct (bool_decide _) eqn:Eb; [|discriminate]. intros [= <-]. apply bool_decide_eq_true_1 in Eb.
      repeat split; [lia| |congruence]. apply (unhex_inv _ _ _ (Nat.le_refl _) El).
    - intros (Hl & Ha & ->). rewrite to_checksum_body.
      rewrite (proj2 (strip_prefix_iff [48; 120] _ (checksum_body a)) eq_refl). cbn [mbind option_bind].
      rewrite (unhex_nibbles a Ha _ (body_vals a Hl Ha)). cbn [mbind option_bind].
      rewrite Hl. rewrite bool_decide_true by (symmetry; apply to_checksum_body). reflexivity.
  Qed.

  (** ** The parser *)

  Definition asset_ok (a : asset) : Prop :=
    as_chain a < 2 ^ 64 /\ (length (as_contract a) = 20%nat /\ bytes_ok (as_contract a) = true) /\
    (length (as_channel a) = 32%nat /\ bytes_ok (as_channel a) = true).

  Lemma no_slash_num s n : numeral s n -> SLASH ∉ s.
  Proof. intros (HF & _) Hin. rewrite Forall_forall in HF. specialize (HF _ Hin). unfold digit_ok, SLASH in HF. lia. Qed.

  Lemma no_slash_sum a : length a = 20%nat -> bytes_ok a = true -> SLASH ∉ to_checksum keccak a.
  Proof.
    intros Hl Ha Hin. rewrite to_checksum_body in Hin. apply elem_of_app in Hin as [Hin|Hin].
    - rewrite !elem_of_cons, elem_of_nil in Hin. unfold SLASH in Hin. lia.
    - apply elem_of_list_lookup in Hin as [i Hi]. destruct (Forall2_lookup_l _ _ _ _ _ (body_vals a Hl Ha) Hi) as (v & _ & Hv).
      exact (hex_val_not_slash _ _ Hv eq_refl).
  Qed.

  Definition assemble (d1 cs d2 : bytes) : bytes :=
    (EIP155 ++ COLON :: d1) ++ SLASH :: (ERC721 ++ COLON :: cs) ++ SLASH :: d2.

  Lemma canonical_assemble a :
    canonical keccak a = assemble (to_string (as_chain a)) (to_checksum keccak (as_contract a)) (to_string (be_dec (as_channel a))).
  Proof. unfold canonical, assemble. rewrite <-!app_assoc. reflexivity. Qed.

  Lemma pow_19_20 : 2 ^ 64 < 10 ^ 20. Proof. reflexivity. Qed.
  Lemma pow_256_78 : 2 ^ 256 < 10 ^ 78. Proof. reflexivity. Qed.
  Lemma pow_256 : 256 ^ 32 = 2 ^ 256. Proof. reflexivity. Qed.

  Lemma canonical_length a : asset_ok a -> N.of_nat (length (canonical keccak a)) <= 156.
  Proof.
    intros (Hc & (Hl & _) & (Hh & Hb)). rewrite canonical_assemble. unfold assemble.
    pose proof (numeral_length _ _ 20 (to_string_numeral (as_chain a)) ltac:(pose proof pow_19_20; lia) ltac:(lia)) as L1.
    pose proof (be_dec_lt _ Hb) as Hd. rewrite Hh in Hd. change (256 ^ N.of_nat 32) with (2 ^ 256) in Hd.
    pose proof (numeral_length _ _ 78 (to_string_numeral (be_dec (as_channel a))) ltac:(pose proof pow_256_78; lia) ltac:(lia)) as L2.
    rewrite to_checksum_body. repeat (rewrite ?app_length; cbn [length]). rewrite body_length by exact Hl.
    change (length EIP155) with 6%nat. change (length ERC721) with 6%nat. lia.
  Qed.

  Lemma parse_canonical a : asset_ok a -> parse keccak (canonical keccak a) = Ok a.
  Proof.
    intros Hok. pose proof (canonical_length a Hok) as HL. unfold parse.
    replace (MAX_URI_LENGTH <? N.of_nat (length (canonical keccak a))) with false by (unfold MAX_URI_LENGTH; lia).
    rewrite canonical_assemble. unfold assemble. destruct Hok as (Hc & (Hl & Ha) & (Hh & Hb)).
    pose proof (to_string_numeral (as_chain a)) as N1. pose proof (to_string_numeral (be_dec (as_channel a))) as N2.
    pose proof (be_dec_lt _ Hb) as Hd. rewrite Hh in Hd. change (256 ^ N.of_nat 32) with (2 ^ 256) in Hd.
    rewrite split_on_app.
    2:{ rewrite elem_of_app, elem_of_cons. intros [H|[H|H]]; [|discriminate|exact (no_slash_num _ _ N1 H)].
        unfold EIP155 in H. rewrite !elem_of_cons, elem_of_nil in H. unfold SLASH in H. lia. }
    rewrite split_on_app.
    2:{ rewrite elem_of_app, elem_of_cons. intros [H|[H|H]]; [|discriminate|exact (no_slash_sum _ Hl Ha H)].
        unfold ERC721 in H. rewrite !elem_of_cons, elem_of_nil in H. unfold SLASH in H. lia. }
    rewrite split_on_none by exact (no_slash_num _ _ N2).
    rewrite (proj2 (strip_prefix_iff EIP155 _ (COLON :: to_string (as_chain a))) eq_refl). cbn [mbind option_bind].
    rewrite (proj2 (strip_prefix_iff [COLON] (COLON :: to_string (as_chain a)) (to_string (as_chain a))) eq_refl).
    rewrite (parse_u64_numeral _ _ N1 Hc). rewrite bool_decide_true by reflexivity. cbn [negb].
    rewrite (proj2 (strip_prefix_iff ERC721 _ (COLON :: to_checksum keccak (as_contract a))) eq_refl). cbn [mbind option_bind].
    rewrite (proj2 (strip_prefix_iff [COLON] (COLON :: to_checksum keccak (as_contract a)) (to_checksum keccak (as_contract a))) eq_refl).
    rewrite (proj2 (parse_checksummed_iff _ (as_contract a))) by auto.
    pose proof (numeral_length _ _ 78 N2 ltac:(pose proof pow_256_78; lia) ltac:(lia)) as L2.
    replace (MAX_TOKEN_ID_DIGITS <? _) with false by (unfold MAX_TOKEN_ID_DIGITS; lia).
    rewrite (parse_u256_numeral _ _ N2 Hd). rewrite bool_decide_true by reflexivity. cbn [negb].
    rewrite <-Hh, be_be_dec by exact Hb. destruct a; reflexivity.
  Qed.

  Lemma parse_inv u a : parse keccak u = Ok a -> asset_ok a /\ u = canonical keccak a.
  Proof.
    unfold parse. destruct (_ <? _); [discriminate|].
    destruct (split_on SLASH u) as [|chain [|ass [|tok [|]]]] eqn:Es; try discriminate. apply split_on_three in Es as ->.
    destruct (strip_prefix EIP155 chain) as [r1|] eqn:E1; [|discriminate]. apply strip_prefix_iff in E1 as ->. cbn [mbind option_bind].
    destruct (strip_prefix [COLON] r1) as [ref|] eqn:E2; [|discriminate]. apply strip_prefix_iff in E2 as ->.
    destruct (parse_u64 ref) as [cid|] eqn:E3; [|discriminate].
    destruct (bool_decide (to_string cid = ref)) eqn:E4; [|discriminate]. apply bool_decide_eq_true_1 in E4 as <-. cbn [negb].
    destruct (strip_prefix ERC721 ass) as [r2|] eqn:E5; [|discriminate]. apply strip_prefix_iff in E5 as ->. cbn [mbind option_bind].
    destruct (strip_prefix [COLON] r2) as [addr|] eqn:E6; [|discriminate]. apply strip_prefix_iff in E6 as ->.
    destruct (parse_checksummed keccak addr) as [con|] eqn:E7; [|discriminate]. apply parse_checksummed_iff in E7 as (Hl & Ha & ->).
    destruct (MAX_TOKEN_ID_DIGITS <? _); [discriminate|]. destruct (parse_u256 tok) as [t|] eqn:E8; [|discriminate].
    destruct (bool_decide (to_string t = tok)) eqn:E9; [|discriminate]. apply bool_decide_eq_true_1 in E9 as <-. cbn [negb].
    intros [= <-]. pose proof (parse_u64_bound _ _ E3). pose proof (parse_u256_bound _ _ E8) as Ht.
    split.
    - unfold asset_ok. cbn [as_chain as_contract as_channel]. rewrite be_length, be_ok. auto.
    - rewrite canonical_assemble. cbn [as_chain as_contract as_channel].
      rewrite be_dec_be by (change (256 ^ N.of_nat 32) with (2 ^ 256); exact Ht). reflexivity.
  Qed.
End K.
