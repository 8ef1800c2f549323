(** Lemmas for Http.v: text forms, UTF-8, pages. *)
From Coq Require Import Lia ZifyN ZifyNat ZifyBool.
From stdpp Require Import strings list.
From Verif Require Import Base Codec ChannelUri ChannelUriProofs Validate ValidateProofs Http.
From Verif Require Auth AuthProofs.
#[local] Open Scope N_scope.
#[local] Arguments N.mul : simpl never.
#[local] Arguments N.add : simpl never.
#[local] Arguments N.div : simpl never.
#[local] Arguments N.modulo : simpl never.

(** ** Hexadecimal *)
Lemma nibbles_lt b : bytes_ok b = true -> Forall (fun v => v < 16) (nibbles b).
Proof.
  induction b as [|x b IH]; intros H; [constructor|]. cbn in H. apply andb_true_iff in H as [Hx H].
  change (nibbles (x :: b)) with (x / 16 :: x mod 16 :: nibbles b). constructor; [lia|]. constructor; [lia|]. exact (IH H).
Qed.

Lemma hex_vals b : bytes_ok b = true -> Forall2 (fun c v => hex_val c = Some v) (hex b) (nibbles b).
Proof.
  intros H. apply nibbles_lt in H. unfold hex. induction H as [|v l Hv _ IH]; [constructor|].
  cbn [map]. constructor; [apply hex_val_low; exact Hv|exact IH].
Qed.

Lemma unhex_hex b : bytes_ok b = true -> unhex (hex b) = Some b.
Proof. intros H. apply (unhex_nibbles b H). apply hex_vals. exact H. Qed.

Lemma hex_inj a b : bytes_ok a = true -> bytes_ok b = true -> hex a = hex b -> a = b.
Proof. intros Ha Hb H. apply unhex_hex in Ha, Hb. rewrite H in Ha. congruence. Qed.

Lemma hex0x_inj a b : bytes_ok a = true -> bytes_ok b = true -> hex0x a = hex0x b -> a = b.
Proof. intros Ha Hb H. unfold hex0x in H. apply hex_inj; [assumption..|]. congruence. Qed.

Definition hexdigit (c : N) : Prop := exists v, hex_val c = Some v.
Lemma hexdigit_not_x : ~ hexdigit 120.
Proof. intros (v & H). discriminate H. Qed.

Lemma unhex_digits s l : unhex s = Some l -> Forall hexdigit s /\ bytes_ok l = true /\ map lower s = hex l.
Proof.
  intros H. destruct (unhex_inv (length s) s l ltac:(lia) H) as (Hok & HF). split; [|split; [exact Hok|]].
  - eapply Forall_impl with (P := fun c => exists v, hex_val c = Some v); [|intros c Hc; exact Hc].
    apply Forall_forall. intros c Hc. apply elem_of_list_lookup in Hc as (i & Hc). destruct (Forall2_lookup_l _ _ _ _ _ HF Hc) as (v & _ & Hv). exists v. exact Hv.
  - unfold hex. exact (map_lower _ _ HF).
Qed.

Lemma hex_digits b : bytes_ok b = true -> Forall hexdigit (hex b).
Proof. intros H. exact (proj1 (unhex_digits _ _ (unhex_hex b H))). Qed.

Lemma replace_digits s : Forall hexdigit s -> replace_0x s = s.
Proof.
  induction 1 as [|c s Hc H IH]; [reflexivity|]. cbn [replace_0x]. destruct s as [|d s]; [reflexivity|].
  inversion H; subst. replace (d =? 120) with false.
  - rewrite andb_false_r. rewrite IH. reflexivity.
  - symmetry. apply N.eqb_neq. intros ->. apply hexdigit_not_x. assumption.
Qed.
Lemma trim_digits s : Forall hexdigit s -> trim_0x s = s.
Proof.
  intros H. destruct s as [|c [|d s]]; [reflexivity..|]. cbn [trim_0x].
  replace (d =? 120) with false; [rewrite andb_false_r; reflexivity|]. inversion H as [|? ? ? H']; subst. inversion H'; subst.
  symmetry. apply N.eqb_neq. intros ->. apply hexdigit_not_x. assumption.
Qed.
Lemma strip_digits s : Forall hexdigit s -> strip_0x s = s.
Proof.
  intros H. unfold strip_0x. destruct s as [|c [|d s]]; [reflexivity|cbn [strip_prefix]; destruct (48 =? c); reflexivity|].
  cbn [strip_prefix]. destruct (48 =? c); [|reflexivity]. destruct (120 =? d) eqn:E; [|reflexivity]. apply N.eqb_eq in E as <-.
  inversion H as [|? ? ? H']; subst. inversion H'; subst. exfalso. apply hexdigit_not_x. assumption.
Qed.

(** ** base64 *)
Lemma unsextet_sextet v : v < 64 -> unsextet (sextet v) = Some v.
Proof.
  intros H. unfold sextet. destruct (v <? 26) eqn:E1; [|destruct (v <? 52) eqn:E2; [|destruct (v <? 62) eqn:E3; [|destruct (v =? 62) eqn:E4]]];
    unfold unsextet.
  - replace ((65 <=? 65 + v) && (65 + v <=? 90)) with true by lia. f_equal. lia.
  - replace ((65 <=? 71 + v) && (71 + v <=? 90)) with false by lia.
    replace ((97 <=? 71 + v) && (71 + v <=? 122)) with true by lia. f_equal. lia.
  - replace ((65 <=? v - 4) && (v - 4 <=? 90)) with false by lia.
    replace ((97 <=? v - 4) && (v - 4 <=? 122)) with false by lia.
    replace ((48 <=? v - 4) && (v - 4 <=? 57)) with true by lia. f_equal. lia.
  - apply N.eqb_eq in E4 as ->. reflexivity.
  - replace v with 63 by lia. reflexivity.
Qed.
Lemma sextet_unsextet c v : unsextet c = Some v -> v < 64 /\ sextet v = c.
Proof.
  unfold unsextet. destruct (_ && _) eqn:E1; [intros [= <-]; unfold sextet; split; [lia|]; replace (c - 65 <? 26) with true by lia; lia|].
  destruct ((97 <=? c) && _) eqn:E2; [intros [= <-]; unfold sextet; split; [lia|]; replace (c - 71 <? 26) with false by lia;
    replace (c - 71 <? 52) with true by lia; lia|].
  destruct ((48 <=? c) && _) eqn:E3; [intros [= <-]; unfold sextet; split; [lia|]; replace (c + 4 <? 26) with false by lia;
    replace (c + 4 <? 52) with false by lia; replace (c + 4 <? 62) with true by lia; lia|].
  destruct (c =? 43) eqn:E4; [intros [= <-]; apply N.eqb_eq in E4 as ->; split; [lia|reflexivity]|].
  destruct (c =? 47) eqn:E5; [intros [= <-]; apply N.eqb_eq in E5 as ->; split; [lia|reflexivity]|discriminate].
Qed.
Lemma sextet_not_pad v : v < 64 -> (sextet v =? PAD) = false.
Proof. intros H. destruct (sextet v =? PAD) eqn:E; [|reflexivity]. apply N.eqb_eq in E. apply unsextet_sextet in H. rewrite E in H. discriminate H. Qed.
Lemma sextet_not_space v : v < 64 -> sextet v <> SPACE.
Proof. intros H E. apply unsextet_sextet in H. rewrite E in H. discriminate H. Qed.

Lemma six_a a : a < 256 -> a / 4 < 64 /\ a mod 4 < 4 /\ a / 4 * 4 + a mod 4 = a.
Proof. lia. Qed.
Lemma six_b b : b < 256 -> b / 16 < 16 /\ b mod 16 < 16 /\ b / 16 * 16 + b mod 16 = b.
Proof. lia. Qed.
Lemma six_c c : c < 256 -> c / 64 < 4 /\ c mod 64 < 64 /\ c / 64 * 64 + c mod 64 = c.
Proof. lia. Qed.
Lemma comb k q r : r < k -> (q * k + r) / k = q /\ (q * k + r) mod k = r.
Proof.
  intros H. split.
  - rewrite N.div_add_l by lia. rewrite N.div_small by exact H. lia.
  - rewrite N.add_comm, N.mod_add by lia. apply N.mod_small. exact H.
Qed.

Lemma bytes_cons a l : bytes_ok (a :: l) = true <-> a < 256 /\ bytes_ok l = true.
Proof. change (bytes_ok (a :: l)) with ((a <? 256) && bytes_ok l). rewrite andb_true_iff, N.ltb_lt. tauto. Qed.

Lemma unb64_b64_len n : forall l, (length l <= n)%nat -> bytes_ok l = true -> unb64 (b64 l) = Some l.
Proof.
  induction n as [|n IH]; intros l Hn Hl; [destruct l; [reflexivity|cbn in Hn; lia]|].
  destruct l as [|a [|b [|c r]]]; [reflexivity| | |].
  - apply bytes_cons in Hl as [Ha _]. destruct (six_a a Ha) as (H1 & H2 & H3). cbn [b64 unb64].
    rewrite (unsextet_sextet (a / 4) H1). rewrite (unsextet_sextet (a mod 4 * 16) ltac:(lia)). cbn [mbind option_bind].
    change (PAD =? PAD) with true. cbn iota. destruct (comb 16 (a mod 4) 0 ltac:(lia)) as [E1 E2]. rewrite N.add_0_r in E1, E2.
    rewrite E1, E2. change (0 =? 0) with true. cbn iota. rewrite H3. reflexivity.
  - apply bytes_cons in Hl as [Ha Hl]. apply bytes_cons in Hl as [Hb _].
    destruct (six_a a Ha) as (H1 & H2 & H3). destruct (six_b b Hb) as (H4 & H5 & H6). cbn [b64 unb64].
    rewrite (unsextet_sextet (a / 4) H1), (unsextet_sextet (a mod 4 * 16 + b / 16) ltac:(lia)). cbn [mbind option_bind].
    change (PAD =? PAD) with true. cbn iota. rewrite (sextet_not_pad (b mod 16 * 4) ltac:(lia)).
    rewrite (unsextet_sextet (b mod 16 * 4) ltac:(lia)). cbn [mbind option_bind].
    destruct (comb 16 (a mod 4) (b / 16) H4) as [E1 E2]. destruct (comb 4 (b mod 16) 0 ltac:(lia)) as [E3 E4]. rewrite N.add_0_r in E3, E4.
    rewrite E1, E2, E3, E4. change (0 =? 0) with true. cbn iota. rewrite H3, H6. reflexivity.
  - apply bytes_cons in Hl as [Ha Hl]. apply bytes_cons in Hl as [Hb Hl]. apply bytes_cons in Hl as [Hc Hl].
    destruct (six_a a Ha) as (H1 & H2 & H3). destruct (six_b b Hb) as (H4 & H5 & H6). destruct (six_c c Hc) as (H7 & H8 & H9).
    cbn [b64 unb64].
    rewrite (unsextet_sextet (a / 4) H1), (unsextet_sextet (a mod 4 * 16 + b / 16) ltac:(lia)). cbn [mbind option_bind].
    rewrite (sextet_not_pad (c mod 64) H8). rewrite (unsextet_sextet (b mod 16 * 4 + c / 64) ltac:(lia)), (unsextet_sextet (c mod 64) H8).
    cbn [mbind option_bind]. rewrite (IH r ltac:(cbn in Hn; lia) Hl). cbn [mbind option_bind].
    destruct (comb 16 (a mod 4) (b / 16) H4) as [E1 E2]. destruct (comb 4 (b mod 16) (c / 64) H7) as [E3 E4].
    rewrite E1, E2, E3, E4. rewrite H3, H6, H9. reflexivity.
Qed.
Lemma unb64_b64 l : bytes_ok l = true -> unb64 (b64 l) = Some l.
Proof. apply (unb64_b64_len (length l)). lia. Qed.

Lemma b64_unb64_len n : forall s l, (length s <= n)%nat -> unb64 s = Some l -> bytes_ok l = true /\ b64 l = s.
Proof.
  induction n as [|n IH]; intros s l Hn H; [destruct s; [injection H as <-; split; reflexivity|cbn in Hn; lia]|].
  destruct s as [|cw [|cx [|cy [|cz r]]]]; [injection H as <-; split; reflexivity|discriminate..|].
  cbn [unb64] in H. destruct (unsextet cw) as [w|] eqn:Ew; [|discriminate]. destruct (unsextet cx) as [x|] eqn:Ex; [|discriminate].
  apply sextet_unsextet in Ew as [Hw Ew], Ex as [Hx Ex]. cbn [mbind option_bind] in H.
  assert (Dx : x / 16 < 4 /\ x mod 16 < 16 /\ x / 16 * 16 + x mod 16 = x) by lia.
  destruct Dx as (Dx1 & Dx2 & Dx3). destruct (comb 4 w (x / 16) Dx1) as [F1 F2].
  destruct (cz =? PAD) eqn:Ez.
  - apply N.eqb_eq in Ez as ->. destruct r as [|? ?]; [|discriminate]. destruct (cy =? PAD) eqn:Ey.
    + apply N.eqb_eq in Ey as ->. destruct (x mod 16 =? 0) eqn:E0; [|discriminate]. apply N.eqb_eq in E0. injection H as <-. split.
      * apply bytes_cons. split; [lia|reflexivity].
      * cbn [b64]. rewrite F1, F2. rewrite Ew. replace (x / 16 * 16) with x by lia. rewrite Ex. reflexivity.
    + destruct (unsextet cy) as [y|] eqn:Ey'; [|discriminate]. cbn [mbind option_bind] in H. apply sextet_unsextet in Ey' as [Hy Ey'].
      destruct (y mod 4 =? 0) eqn:E0; [|discriminate]. apply N.eqb_eq in E0. injection H as <-.
      assert (Dy : y / 4 < 16 /\ y / 4 * 4 = y) by lia. destruct Dy as (Dy1 & Dy2). destruct (comb 16 (x mod 16) (y / 4) Dy1) as [F3 F4]. split.
      * apply bytes_cons. split; [lia|]. apply bytes_cons. split; [lia|reflexivity].
      * cbn [b64]. rewrite F1, F2, F3, F4. rewrite Ew, Dx3, Ex, Dy2, Ey'. reflexivity.
  - destruct (unsextet cy) as [y|] eqn:Ey; [|discriminate]. cbn [mbind option_bind] in H. destruct (unsextet cz) as [z|] eqn:Ez'; [|discriminate].
    cbn [mbind option_bind] in H. destruct (unb64 r) as [l'|] eqn:Er; [|discriminate]. injection H as <-.
    apply sextet_unsextet in Ey as [Hy Ey], Ez' as [Hz Ez']. destruct (IH r l' ltac:(cbn in Hn; lia) Er) as [Hl' El'].
    assert (Dy : y / 4 < 16 /\ y mod 4 < 4 /\ y / 4 * 4 + y mod 4 = y) by lia. destruct Dy as (Dy1 & Dy2 & Dy3).
    destruct (comb 16 (x mod 16) (y / 4) Dy1) as [F3 F4]. destruct (comb 64 (y mod 4) z Hz) as [F5 F6]. split.
    + apply bytes_cons. split; [lia|]. apply bytes_cons. split; [lia|]. apply bytes_cons. split; [lia|exact Hl'].
    + cbn [b64]. rewrite F1, F2, F3, F4, F5, F6. rewrite Ew, Dx3, Ex, Dy3, Ey, Ez', El'. reflexivity.
Qed.
Lemma b64_unb64 s l : unb64 s = Some l -> bytes_ok l = true /\ b64 l = s.
Proof. apply (b64_unb64_len (length s)). lia. Qed.

Lemma b64_chars l : bytes_ok l = true -> Forall (fun c => c <> SPACE) (b64 l).
Proof.
  cut (forall n l, (length l <= n)%nat -> bytes_ok l = true -> Forall (fun c => c <> SPACE) (b64 l)); [intros H; apply (H (length l)); lia|].
  clear. induction n as [|n IH]; intros l Hn Hl; [destruct l; [constructor|cbn in Hn; lia]|].
  assert (HP : PAD <> SPACE) by discriminate.
  destruct l as [|a [|b [|c r]]]; [constructor| | |].
  - apply bytes_cons in Hl as [Ha _]. destruct (six_a a Ha) as (H1 & H2 & H3). cbn [b64].
    repeat apply Forall_cons_2; [apply sextet_not_space; lia..|exact HP|exact HP|constructor].
  - apply bytes_cons in Hl as [Ha Hl]. apply bytes_cons in Hl as [Hb _].
    destruct (six_a a Ha) as (H1 & H2 & H3). destruct (six_b b Hb) as (H4 & H5 & H6). cbn [b64].
    repeat apply Forall_cons_2; [apply sextet_not_space; lia..|exact HP|constructor].
  - apply bytes_cons in Hl as [Ha Hl]. apply bytes_cons in Hl as [Hb Hl]. apply bytes_cons in Hl as [Hc Hl].
    destruct (six_a a Ha) as (H1 & H2 & H3). destruct (six_b b Hb) as (H4 & H5 & H6). destruct (six_c c Hc) as (H7 & H8 & H9). cbn [b64].
    apply Forall_cons_2; [apply sextet_not_space; lia|]. apply Forall_cons_2; [apply sextet_not_space; lia|].
    apply Forall_cons_2; [apply sextet_not_space; lia|]. apply Forall_cons_2; [apply sextet_not_space; lia|].
    apply IH; [cbn in Hn; lia|exact Hl].
Qed.
Lemma b64_nil l : b64 l = [] <-> l = [].
Proof. destruct l as [|a [|b [|c r]]]; cbn [b64]; split; intros H; try reflexivity; discriminate H. Qed.

(** Turning some plus signs into spaces is undone. *)
Lemma unspace s s' : Forall (fun c => c <> SPACE) s -> Forall2 (fun c d => d = c \/ c = PLUS /\ d = SPACE) s s' ->
  map (fun c => if c =? SPACE then PLUS else c) s' = s.
Proof.
  intros HF H. induction H as [|c d s s' Hcd _ IH]; [reflexivity|]. inversion HF as [|? ? Hc HF']; subst. cbn [map]. rewrite (IH HF'). f_equal.
  destruct Hcd as [->|[-> ->]]; [|reflexivity]. destruct (c =? SPACE) eqn:E; [apply N.eqb_eq in E; contradiction|reflexivity].
Qed.

(** ** UTF-8 *)
(** Unicode scalar values and their encoding (RFC 3629). *)
Definition scalar (p : N) : Prop := p < 55296 \/ 57344 <= p /\ p < 1114112.
Definition utf8_char (p : N) : bytes :=
  if p <? 128 then [p]
  else if p <? 2048 then [192 + p / 64; 128 + p mod 64]
  else if p <? 65536 then [224 + p / 4096; 128 + p / 64 mod 64; 128 + p mod 64]
  else [240 + p / 262144; 128 + p / 4096 mod 64; 128 + p / 64 mod 64; 128 + p mod 64].

Lemma parts2 p : 128 <= p -> p < 2048 -> exists a b, p / 64 = a /\ p mod 64 = b /\ p = a * 64 + b /\ 2 <= a /\ a < 32 /\ b < 64.
Proof. intros H1 H2. exists (p / 64), (p mod 64). repeat split; lia. Qed.
Lemma parts3 p : 2048 <= p -> p < 65536 -> exists a b c, p / 4096 = a /\ p / 64 mod 64 = b /\ p mod 64 = c /\ p = (a * 64 + b) * 64 + c /\
  a < 16 /\ b < 64 /\ c < 64.
Proof.
  intros H1 H2. exists (p / 4096), (p / 64 mod 64), (p mod 64). split; [reflexivity|]. split; [reflexivity|]. split; [reflexivity|].
  assert (E : p / 4096 = p / 64 / 64) by (rewrite N.div_div by lia; reflexivity). rewrite E. remember (p / 64) as q eqn:Eq.
  assert (p = q * 64 + p mod 64) by lia. assert (q < 1024) by lia. clear Eq E. repeat split; lia.
Qed.
Lemma parts4 p : 65536 <= p -> p < 1114112 -> exists a b c d, p / 262144 = a /\ p / 4096 mod 64 = b /\ p / 64 mod 64 = c /\ p mod 64 = d /\
  p = ((a * 64 + b) * 64 + c) * 64 + d /\ a < 5 /\ b < 64 /\ c < 64 /\ d < 64.
Proof.
  intros H1 H2. exists (p / 262144), (p / 4096 mod 64), (p / 64 mod 64), (p mod 64).
  split; [reflexivity|]. split; [reflexivity|]. split; [reflexivity|]. split; [reflexivity|].
  assert (E1 : p / 262144 = p / 64 / 64 / 64) by (rewrite !N.div_div by lia; reflexivity).
  assert (E2 : p / 4096 = p / 64 / 64) by (rewrite N.div_div by lia; reflexivity). rewrite E1, E2.
  remember (p / 64) as q eqn:Eq. assert (p = q * 64 + p mod 64 /\ q < 17408 /\ p mod 64 < 64) as (F1 & F2 & F3) by lia.
  remember (q / 64) as t eqn:Et. assert (q = t * 64 + q mod 64 /\ t < 272 /\ q mod 64 < 64) as (G1 & G2 & G3) by lia.
  assert (t = t / 64 * 64 + t mod 64 /\ t / 64 < 5 /\ t mod 64 < 64) as (K1 & K2 & K3) by lia.
  remember (p mod 64) as p0. remember (q mod 64) as q0. remember (t / 64) as a. remember (t mod 64) as t0.
  clear Heqp0 Heqq0 Heqa Heqt0 Eq Et E1 E2. repeat split; lia.
Qed.

Lemma utf8_char_app p s : scalar p -> utf8 (utf8_char p ++ s) = utf8 s.
Proof.
  intros Hs. unfold utf8_char. destruct (p <? 128) eqn:E1; [cbn [app utf8]; rewrite E1; reflexivity|].
  destruct (p <? 2048) eqn:E2.
  { destruct (parts2 p ltac:(lia) ltac:(lia)) as (a & b & -> & -> & Hp & Ha & Ha' & Hb). cbn [app utf8].
    replace (192 + a <? 128) with false by lia. unfold within. replace ((194 <=? 192 + a) && (192 + a <=? 223)) with true by lia.
    replace ((128 <=? 128 + b) && (128 + b <=? 191)) with true by lia. reflexivity. }
  destruct (p <? 65536) eqn:E3.
  { destruct (parts3 p ltac:(lia) ltac:(lia)) as (a & b & c & -> & -> & -> & Hp & Ha & Hb & Hc). cbn [app utf8]. unfold within.
    replace (224 + a <? 128) with false by lia. replace ((194 <=? 224 + a) && (224 + a <=? 223)) with false by lia.
    replace ((224 <=? 224 + a) && (224 + a <=? 239)) with true by lia.
    replace ((128 <=? 128 + c) && (128 + c <=? 191)) with true by lia.
    destruct (224 + a =? 224) eqn:Ea; destruct (224 + a =? 237) eqn:Ea'; [lia| | |].
    - replace ((160 <=? 128 + b) && (128 + b <=? 191)) with true by lia. reflexivity.
    - unfold scalar in Hs. replace ((128 <=? 128 + b) && (128 + b <=? 159)) with true by lia. reflexivity.
    - replace ((128 <=? 128 + b) && (128 + b <=? 191)) with true by lia. reflexivity. }
  unfold scalar in Hs. destruct (parts4 p ltac:(lia) ltac:(lia)) as (a & b & c & d & -> & -> & -> & -> & Hp & Ha & Hb & Hc & Hd).
  cbn [app utf8]. unfold within.
  replace (240 + a <? 128) with false by lia. replace ((194 <=? 240 + a) && (240 + a <=? 223)) with false by lia.
  replace ((224 <=? 240 + a) && (240 + a <=? 239)) with false by lia. replace ((240 <=? 240 + a) && (240 + a <=? 244)) with true by lia.
  replace ((128 <=? 128 + c) && (128 + c <=? 191)) with true by lia. replace ((128 <=? 128 + d) && (128 + d <=? 191)) with true by lia.
  destruct (240 + a =? 240) eqn:Ea; destruct (240 + a =? 244) eqn:Ea'; [lia| | |].
  - replace ((144 <=? 128 + b) && (128 + b <=? 191)) with true by lia. reflexivity.
  - replace ((128 <=? 128 + b) && (128 + b <=? 143)) with true by lia. reflexivity.
  - replace ((128 <=? 128 + b) && (128 + b <=? 191)) with true by lia. reflexivity.
Qed.

Lemma utf8_decode n : forall s, (length s <= n)%nat -> utf8 s = true -> exists ps, Forall scalar ps /\ s = concat (map utf8_char ps).
Proof.
  induction n as [|n IH]; intros s Hn H; [destruct s; [exists []; split; [constructor|reflexivity]|cbn in Hn; lia]|].
  assert (Hstep : forall p r, scalar p -> s = utf8_char p ++ r -> (length r <= n)%nat -> utf8 r = true ->
    exists ps, Forall scalar ps /\ s = concat (map utf8_char ps)).
  { intros p r Hp -> Hr Hu. destruct (IH r Hr Hu) as (ps & HF & ->). exists (p :: ps). split; [constructor; assumption|reflexivity]. }
  destruct s as [|a r]; [exists []; split; [constructor|reflexivity]|]. cbn [utf8] in H. cbn [length] in Hn.
  destruct (a <? 128) eqn:E1.
  { apply (Hstep a r); [left; lia|unfold utf8_char; rewrite E1; reflexivity|lia|exact H]. }
  destruct r as [|b r1]; [discriminate|]. destruct (within 194 223 a) eqn:E2.
  { apply andb_true_iff in H as [Hb H]. unfold within in *.
    apply (Hstep ((a - 192) * 64 + (b - 128)) r1); [left; lia| |cbn [length] in Hn; lia|exact H].
    unfold utf8_char. replace ((a - 192) * 64 + (b - 128) <? 128) with false by lia.
    replace ((a - 192) * 64 + (b - 128) <? 2048) with true by lia.
    destruct (comb 64 (a - 192) (b - 128) ltac:(lia)) as [-> ->]. cbn [app]. f_equal; [lia|]. f_equal. lia. }
  destruct r1 as [|c r2]; [discriminate|]. destruct (within 224 239 a) eqn:E3.
  { apply andb_true_iff in H as [H Hu]. apply andb_true_iff in H as [Hb Hc]. unfold within in *.
    assert (Hb' : 128 <= b /\ b <= 191) by (destruct (a =? 224), (a =? 237); lia).
    apply (Hstep (((a - 224) * 64 + (b - 128)) * 64 + (c - 128)) r2); [| |cbn [length] in Hn; lia|exact Hu].
    - unfold scalar. destruct (a =? 224) eqn:F1; destruct (a =? 237) eqn:F2; lia.
    - unfold utf8_char. replace (((a - 224) * 64 + (b - 128)) * 64 + (c - 128) <? 128) with false by (destruct (a =? 224) eqn:F1; lia).
      replace (((a - 224) * 64 + (b - 128)) * 64 + (c - 128) <? 2048) with false by (destruct (a =? 224) eqn:F1; lia).
      replace (((a - 224) * 64 + (b - 128)) * 64 + (c - 128) <? 65536) with true by lia.
      replace 4096 with (64 * 64) by reflexivity. rewrite <- N.div_div by lia.
      destruct (comb 64 ((a - 224) * 64 + (b - 128)) (c - 128) ltac:(lia)) as [-> ->].
      destruct (comb 64 (a - 224) (b - 128) ltac:(lia)) as [-> ->]. cbn [app].
      f_equal; [lia|]. f_equal; [lia|]. f_equal. lia. }
  destruct r2 as [|d r3]; [discriminate|].
  apply andb_true_iff in H as [H Hu]. apply andb_true_iff in H as [H Hd]. apply andb_true_iff in H as [H Hc]. apply andb_true_iff in H as [Ha Hb].
  unfold within in *. assert (Hb' : 128 <= b /\ b <= 191) by (destruct (a =? 240), (a =? 244); lia).
  apply (Hstep ((((a - 240) * 64 + (b - 128)) * 64 + (c - 128)) * 64 + (d - 128)) r3); [| |cbn [length] in Hn; lia|exact Hu].
  - unfold scalar. destruct (a =? 240) eqn:F1; destruct (a =? 244) eqn:F2; lia.
  - assert (Hlo : 65536 <= (((a - 240) * 64 + (b - 128)) * 64 + (c - 128)) * 64 + (d - 128)) by (destruct (a =? 240) eqn:F1; lia).
    unfold utf8_char. replace ((((a - 240) * 64 + (b - 128)) * 64 + (c - 128)) * 64 + (d - 128) <? 128) with false by lia.
    replace ((((a - 240) * 64 + (b - 128)) * 64 + (c - 128)) * 64 + (d - 128) <? 2048) with false by lia.
    replace ((((a - 240) * 64 + (b - 128)) * 64 + (c - 128)) * 64 + (d - 128) <? 65536) with false by lia.
    replace 262144 with (64 * 4096) by reflexivity. replace 4096 with (64 * 64) by reflexivity. rewrite <- !N.div_div by lia.
    destruct (comb 64 (((a - 240) * 64 + (b - 128)) * 64 + (c - 128)) (d - 128) ltac:(lia)) as [-> ->].
    destruct (comb 64 ((a - 240) * 64 + (b - 128)) (c - 128) ltac:(lia)) as [-> ->].
    destruct (comb 64 (a - 240) (b - 128) ltac:(lia)) as [-> ->]. cbn [app].
    f_equal; [lia|]. f_equal; [lia|]. f_equal; [lia|]. f_equal. lia.
Qed.

Lemma utf8_iff s : utf8 s = true <-> exists ps, Forall scalar ps /\ s = concat (map utf8_char ps).
Proof.
  split; [apply (utf8_decode (length s)); lia|]. intros (ps & HF & ->). induction HF as [|p ps Hp _ IH]; [reflexivity|].
  cbn [map concat]. rewrite utf8_char_app by exact Hp. exact IH.
Qed.
Lemma utf8_ascii s : Forall (fun c => c < 128) s -> utf8 s = true.
Proof. induction 1 as [|c s Hc _ IH]; [reflexivity|]. cbn [utf8]. replace (c <? 128) with true by lia. exact IH. Qed.

(** ** Pages *)
Lemma unwrap_all_done {A B} (f : A -> option B) l ys : unwrap_all f l = Done ys <-> Forall2 (fun x y => f x = Some y) l ys.
Proof.
  revert ys. induction l as [|x l IH]; intros ys; cbn [unwrap_all].
  - split; [intros [= <-]; constructor|inversion 1; reflexivity].
  - destruct (f x) as [y|] eqn:E.
    + destruct (unwrap_all f l) as [zs| |] eqn:El.
      * split; [intros [= <-]; constructor; [exact E|apply IH; reflexivity]|].
        inversion 1 as [|? ? ? ? H1 H2]; subst. apply IH in H2. congruence.
      * split; [discriminate|]. inversion 1 as [|? ? ? ? H1 H2]; subst. apply IH in H2. discriminate.
      * split; [discriminate|]. inversion 1 as [|? ? ? ? H1 H2]; subst. apply IH in H2. discriminate.
    + split; [discriminate|]. inversion 1; subst. congruence.
Qed.
Lemma unwrap_all_panic {A B} (f : A -> option B) l : unwrap_all f l = Panic <-> Exists (fun x => f x = None) l.
Proof.
  induction l as [|x l IH]; cbn [unwrap_all]; [split; [discriminate|inversion 1]|]. destruct (f x) as [y|] eqn:E.
  - destruct (unwrap_all f l) as [zs| |] eqn:El.
    + split; [discriminate|]. inversion 1; subst; [congruence|]. exfalso. assert (HX : Exists (fun x => f x = None) l) by assumption. apply IH in HX. discriminate HX.
    + split; [discriminate|]. inversion 1; subst; [congruence|]. exfalso. assert (HX : Exists (fun x => f x = None) l) by assumption. apply IH in HX. discriminate HX.
    + split; [intros _; right; apply IH; reflexivity|reflexivity].
  - split; [intros _; left; exact E|reflexivity].
Qed.
Lemma unwrap_all_no_fault {A B} (f : A -> option B) l : unwrap_all f l <> Fault.
Proof. induction l as [|x l IH]; cbn [unwrap_all]; [discriminate|]. destruct (f x); [|discriminate]. destruct (unwrap_all f l); congruence. Qed.

(** ** Enumerations *)
Lemma zmem_iff z l : zmem z l = true <-> In z l.
Proof.
  unfold zmem. rewrite existsb_exists. split; [intros (x & Hx & E); apply Z.eqb_eq in E as ->; exact Hx|intros H; exists z; split; [exact H|apply Z.eqb_refl]].
Qed.
Lemma enum_some l z x : enum l z = Some x <-> x = z /\ In z l.
Proof.
  unfold enum. rewrite <- zmem_iff. destruct (zmem z l); split; [intros [= <-]; tauto|intros [-> _]; reflexivity|discriminate|intros [_ [=]]].
Qed.
Lemma opt_enum_some l o x : opt_enum l o = Some x <-> x = o /\ forall z, o = Some z -> In z l.
Proof.
  destruct o as [z|]; cbn [opt_enum].
  - destruct (enum l z) as [y|] eqn:E; cbn [mbind option_bind].
    + apply enum_some in E as [-> H]. split; [intros [= <-]; split; [reflexivity|intros ? [= <-]; exact H]|intros [-> _]; reflexivity].
    + split; [discriminate|]. intros [-> H]. specialize (H z eq_refl). assert (enum l z = Some z) by (apply enum_some; tauto). congruence.
  - split; [intros [= <-]; split; [reflexivity|discriminate]|intros [-> _]; reflexivity].
Qed.
