(** Reading back what was written (Wire.v). *)
From Coq Require Import ZifyN ZifyNat ZifyBool.
From Verif Require Import Base Wire.
#[local] Open Scope N_scope.

(** A field that can be written. *)
Definition field_ok (f : field) : bool :=
  (1 <=? f.1) && (f.1 <? 2 ^ 29) &&
  match f.2 with
  | WVar n => n <? 2 ^ 64
  | W64 b => (length b =? 8)%nat
  | W32 b => (length b =? 4)%nat
  | WLen b => N.of_nat (length b) <? 2 ^ 64
  end.

Lemma unvarint_varint_aux : forall f n r, (f <= 10)%nat -> n < 2 ^ (7 * N.of_nat f - 6) -> (1 <= f)%nat ->
  unvarint_aux f (varint_aux f n ++ r) = Some (n, r).
Proof.
  induction f as [|f IH]; intros n r Hf Hn H1; [lia|]. cbn [varint_aux]. destruct (n <? 128) eqn:E.
  - cbn [app unvarint_aux]. rewrite E. destruct (f =? 0)%nat eqn:E0; [|done]. cbn [andb].
    apply Nat.eqb_eq in E0. subst f. change (2 ^ (7 * N.of_nat 1 - 6)) with 2 in Hn. destruct (N.leb_spec 2 n); [lia|done].
  - apply N.ltb_ge in E. cbn [app unvarint_aux]. pose proof (N.mod_lt n 128). destruct (N.ltb_spec (n mod 128 + 128) 128); [lia|].
    destruct f as [|f]. { change (2 ^ (7 * N.of_nat 1 - 6)) with 2 in Hn. lia. }
    rewrite IH; [|lia| |lia].
    + f_equal. f_equal. pose proof (N.div_mod n 128). lia.
    + apply N.div_lt_upper_bound; [lia|]. change 128 with (2 ^ 7). rewrite <- N.pow_add_r.
      eapply N.lt_le_trans; [exact Hn|]. apply N.pow_le_mono_r; lia.
Qed.
Lemma unvarint_varint n r : n < 2 ^ 64 -> unvarint (varint n ++ r) = Some (n, r).
Proof. intros H. apply unvarint_varint_aux; [lia| |lia]. exact H. Qed.
Lemma varint_nonempty n : varint n <> [].
Proof. unfold varint. cbn [varint_aux]. by destruct (n <? 128). Qed.
Lemma varint_aux_ok : forall f n, bytes_ok (varint_aux f n) = true.
Proof.
  induction f as [|f IH]; intros n; [done|]. cbn [varint_aux]. destruct (n <? 128) eqn:E; cbn.
  - apply N.ltb_lt in E. rewrite andb_true_r. apply N.ltb_lt. lia.
  - rewrite andb_true_iff. split; [|apply IH]. apply N.ltb_lt. pose proof (N.mod_lt n 128). lia.
Qed.
Lemma varint_ok n : bytes_ok (varint n) = true. Proof. apply varint_aux_ok. Qed.

Lemma take_bytes_app b r : take_bytes (N.of_nat (length b)) (b ++ r) = Some (b, r).
Proof.
  unfold take_bytes. rewrite app_length. destruct (N.leb_spec (N.of_nat (length b)) (N.of_nat (length b + length r))); [|lia].
  rewrite Nat2N.id. by rewrite take_app, drop_app.
Qed.
Lemma dec_enc_field f r : field_ok f = true -> dec_field (enc_field f ++ r) = Some (f, r).
Proof.
  destruct f as [i v]. unfold field_ok, dec_field, enc_field. cbn [fst snd]. intros ((H1 & H2)%andb_true_iff & Hv)%andb_true_iff.
  apply N.leb_le in H1. apply N.ltb_lt in H2. rewrite <- app_assoc.
  assert (wire_type v < 8) as Hw by (destruct v; cbn; lia).
  change (2 ^ 29) with 536870912 in H2.
  rewrite unvarint_varint by (change (2 ^ 64) with 18446744073709551616; lia).
  replace ((i * 8 + wire_type v) / 8) with i by (symmetry; rewrite N.div_add_l, N.div_small; lia).
  replace ((i * 8 + wire_type v) mod 8) with (wire_type v) by (rewrite N.add_comm, N.mod_add, N.mod_small; lia).
  destruct (N.leb_spec (2 ^ 32) (i * 8 + wire_type v)) as [E|_]. { change (2 ^ 32) with 4294967296 in E. lia. }
  destruct (N.eqb_spec i 0) as [?|Hi0]; [lia|]. cbn [orb].
  destruct v as [n|b|b|b]; cbn [wire_type].
  - apply N.ltb_lt in Hv. by rewrite unvarint_varint.
  - apply Nat.eqb_eq in Hv. replace 8 with (N.of_nat (length b)) by lia. by rewrite take_bytes_app.
  - apply N.ltb_lt in Hv. rewrite <- app_assoc, unvarint_varint by done. by rewrite take_bytes_app.
  - apply Nat.eqb_eq in Hv. replace 4 with (N.of_nat (length b)) by lia. by rewrite take_bytes_app.
Qed.
Lemma enc_field_nonempty f : enc_field f <> [].
Proof. unfold enc_field. intros H. apply app_eq_nil in H as [H _]. by apply varint_nonempty in H. Qed.

Lemma parse_enc_aux : forall l n, (length (enc_fields l) <= n)%nat -> forallb field_ok l = true -> parse_aux n (enc_fields l) = Some l.
Proof.
  induction l as [|f l IH]; intros n Hn Hl; [by destruct n|]. cbn [forallb] in Hl. apply andb_true_iff in Hl as [Hf Hl].
  unfold enc_fields in *. cbn [map concat] in *. fold (enc_fields l) in *. rewrite app_length in Hn.
  pose proof (enc_field_nonempty f) as Hne. destruct n as [|n]. { destruct (enc_field f); [done|cbn in Hn; lia]. }
  assert (enc_field f ++ enc_fields l <> []) as Hne' by (intros []%app_eq_nil; done).
  destruct (enc_field f ++ enc_fields l) as [|x b] eqn:E; [done|]. cbn [parse_aux]. rewrite <- E, dec_enc_field by done.
  rewrite IH; [done| |done]. destruct (enc_field f); [done|]. cbn in Hn. lia.
Qed.
Lemma parse_enc l : forallb field_ok l = true -> parse (enc_fields l) = Some l.
Proof. apply parse_enc_aux. done. Qed.

(** * What was read can be written *)
Lemma unvarint_aux_spec : forall f b n r, bytes_ok b = true -> unvarint_aux f b = Some (n, r) ->
  (f <= 10)%nat -> n < 2 ^ (7 * N.of_nat f - 6) /\ bytes_ok r = true /\ (length r < length b)%nat /\ (1 <= f)%nat.
Proof.
  induction f as [|f IH]; intros b n r Hb H Hf; [done|]. destruct b as [|x b]; [done|]. cbn [unvarint_aux] in H.
  cbn [bytes_ok forallb] in Hb. apply andb_true_iff in Hb as [Hx Hb]. apply N.ltb_lt in Hx. destruct (x <? 128) eqn:E.
  - destruct ((f =? 0)%nat && (2 <=? x)) eqn:E2; [done|]. injection H as <- <-. split_and!; [|done|cbn; lia|lia].
    apply N.ltb_lt in E. destruct f as [|f].
    + cbn in E2. apply N.leb_gt in E2. change (2 ^ (7 * N.of_nat 1 - 6)) with 2. lia.
    + eapply N.lt_le_trans; [exact E|]. change 128 with (2 ^ 7). apply N.pow_le_mono_r; lia.
  - destruct (unvarint_aux f b) as [[m r']|] eqn:E2; [|done]. injection H as <- <-. apply N.ltb_ge in E.
    destruct (IH _ _ _ Hb E2) as (Hm & Hr & Hl & H1); [lia|]. split_and!; [|done|cbn; lia|lia].
    assert (x - 128 + 128 * m < 128 * 2 ^ (7 * N.of_nat f - 6)) as H3 by lia.
    eapply N.lt_le_trans; [exact H3|]. change 128 with (2 ^ 7) at 1. rewrite <- N.pow_add_r. apply N.pow_le_mono_r; lia.
Qed.
Lemma unvarint_spec b n r : bytes_ok b = true -> unvarint b = Some (n, r) -> n < 2 ^ 64 /\ bytes_ok r = true /\ (length r < length b)%nat.
Proof. intros Hb H. destruct (unvarint_aux_spec 10 b n r Hb H) as (? & ? & ? & ?); [lia|]. done. Qed.
Lemma take_bytes_spec n b x r : bytes_ok b = true -> take_bytes n b = Some (x, r) ->
  N.of_nat (length x) = n /\ bytes_ok x = true /\ bytes_ok r = true /\ (length x <= length b)%nat /\ (length r <= length b)%nat.
Proof.
  unfold take_bytes. intros Hb H. destruct (N.leb_spec n (N.of_nat (length b))); [|done]. injection H as <- <-.
  rewrite take_length, drop_length. rewrite <- (take_drop (N.to_nat n) b), bytes_ok_app in Hb.
  apply andb_true_iff in Hb as [? ?]. split_and!; [lia|done|done|lia|lia].
Qed.
Definition fbytes_ok (f : field) : bool := match f.2 with WVar _ => true | W64 b | W32 b | WLen b => bytes_ok b end.
Lemma dec_field_spec b f r : bytes_ok b = true -> N.of_nat (length b) < 2 ^ 64 -> dec_field b = Some (f, r) ->
  field_ok f = true /\ fbytes_ok f = true /\ bytes_ok r = true /\ (length r < length b)%nat /\
  match f.2 with WLen x => (length x < length b)%nat | _ => True end.
Proof.
  intros Hb Hlen H. unfold dec_field in H. destruct (unvarint b) as [[key b1]|] eqn:E1; [|done].
  destruct (unvarint_spec _ _ _ Hb E1) as (Hk & Hb1 & Hl1).
  destruct (2 ^ 32 <=? key) eqn:E2; [done|]. destruct (key / 8 =? 0) eqn:E3; [done|]. cbn [orb] in H.
  apply N.leb_gt in E2. apply N.eqb_neq in E3. change (2 ^ 32) with 4294967296 in E2.
  assert (forall v, match v with
                    | WVar n => n <? 2 ^ 64 | W64 b => (length b =? 8)%nat | W32 b => (length b =? 4)%nat
                    | WLen b => N.of_nat (length b) <? 2 ^ 64
                    end = true -> field_ok (key / 8, v) = true) as Hok.
  { intros v Hv. unfold field_ok. cbn [fst snd]. rewrite Hv, andb_true_r. change (2 ^ 29) with 536870912.
    rewrite andb_true_iff, N.leb_le, N.ltb_lt. split; [lia|]. apply N.div_lt_upper_bound; lia. }
  destruct (key mod 8) as [|p] eqn:Em.
  - destruct (unvarint b1) as [[n b2]|] eqn:E4; [|done]. destruct (unvarint_spec _ _ _ Hb1 E4) as (Hn & Hb2 & Hl2). injection H as <- <-.
    split_and!; [|done|done|lia|done]. apply Hok. by apply N.ltb_lt.
  - destruct p as [[[?|?|]|[?|?|]|]|[?|?|]|]; try done.
    + destruct (take_bytes 4 b1) as [[x b2]|] eqn:E4; [|done]. destruct (take_bytes_spec _ _ _ _ Hb1 E4) as (? & ? & ? & ? & ?). injection H as <- <-.
      split_and!; [|done|done|lia|done]. apply Hok. apply Nat.eqb_eq. lia.
    + destruct (unvarint b1) as [[n b2]|] eqn:E4; [|done]. destruct (unvarint_spec _ _ _ Hb1 E4) as (Hn & Hb2 & Hl2).
      destruct (take_bytes n b2) as [[x b3]|] eqn:E5; [|done]. destruct (take_bytes_spec _ _ _ _ Hb2 E5) as (? & ? & ? & ? & ?). injection H as <- <-.
      split_and!; [|done|done|lia|cbn; lia]. apply Hok. apply N.ltb_lt. lia.
    + destruct (take_bytes 8 b1) as [[x b2]|] eqn:E4; [|done]. destruct (take_bytes_spec _ _ _ _ Hb1 E4) as (? & ? & ? & ? & ?). injection H as <- <-.
      split_and!; [|done|done|lia|done]. apply Hok. apply Nat.eqb_eq. lia.
Qed.
(** The fields read from a byte string can be written, and their contents are shorter. *)
Definition read_ok (n : nat) (f : field) : bool :=
  field_ok f && fbytes_ok f && match f.2 with WLen x => (length x <? n)%nat | _ => true end.
Lemma parse_aux_spec : forall k b l n, bytes_ok b = true -> N.of_nat (length b) < 2 ^ 64 -> (length b <= n)%nat ->
  parse_aux k b = Some l -> forallb (read_ok n) l = true.
Proof.
  induction k as [|k IH]; intros b l n Hb Hlen Hn H.
  - destruct b; [|done]. by injection H as <-.
  - destruct b as [|x b']; [by injection H as <-|]. remember (x :: b') as b eqn:Eb.
    assert (match dec_field b with Some (f, r) => match parse_aux k r with Some l => Some (f :: l) | None => None end | None => None end = Some l) as H'
      by (by subst b). clear H. destruct (dec_field b) as [[f r]|] eqn:E; [|done]. destruct (parse_aux k r) as [l'|] eqn:E2; [|done].
    injection H' as <-. destruct (dec_field_spec _ _ _ Hb Hlen E) as (H1 & H2 & H3 & H4 & H5). cbn [forallb].
    rewrite andb_true_iff. split; [|eapply IH; [exact H3|lia|lia|exact E2]]. unfold read_ok. rewrite H1, H2. cbn [andb].
    destruct f.2; [done|done| |done]. apply Nat.ltb_lt. lia.
Qed.
Lemma parse_spec b l : bytes_ok b = true -> N.of_nat (length b) < 2 ^ 64 -> parse b = Some l -> forallb (read_ok (length b)) l = true.
Proof. intros Hb Hl H. eapply parse_aux_spec; [exact Hb|exact Hl|done|exact H]. Qed.
