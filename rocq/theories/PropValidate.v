(** C48, C51, C63-C66: stateless validation (src/core/validations) and what of a message the signature covers. *)
From stdpp Require Import list sorting.
From Verif Require Import Base Codec Version ChannelUri ChannelUriProofs Regex Validate ValidateProofs.
From Coq Require Import ZifyN ZifyNat ZifyBool.
#[local] Open Scope N_scope.

(** ** C51: size and text rules *)

(** The documented limits of a cast. *)
Definition cast_limits (c : cast_add) (old pro : bool) (v : version) : Prop :=
  (ca_type c = 0%Z /\ (length (ca_text c) <= 320)%nat \/
   ca_type c = 1%Z /\ 320 < len (ca_text c) <= 1024 \/
   ca_type c = 2%Z /\ pro = true /\ 1024 < len (ca_text c) <= 10000) /\
  ((length (ca_embeds c) <= 2)%nat \/ (length (ca_embeds c) <= 4)%nat /\ (pro = true \/ 20 <= v)) /\
  (ca_embeds_deprecated c = [] \/ old = true /\ (length (ca_embeds_deprecated c) <= 2)%nat /\ ca_embeds c = []) /\
  ((length (ca_mentions c) <= 10)%nat /\ length (ca_mentions c) = length (ca_positions c)) /\
  Forall (fun f => f <> 0) (ca_mentions c) /\
  (Forall (fun p => p <= len (ca_text c)) (ca_positions c) /\ Sorted N.le (ca_positions c)) /\
  ~ (ca_text c = [] /\ ca_embeds c = [] /\ ca_embeds_deprecated c = [] /\ ca_mentions c = []) /\
  Forall (fun e => exists r, e = Some r /\ ref_ok r) (ca_embeds c) /\
  Forall (fun u => (1 <= length u <= 256)%nat) (ca_embeds_deprecated c) /\
  (forall p, ca_parent c = Some p -> ref_ok p).

Lemma forallb_Forall' {A} (f : A -> bool) (P : A -> Prop) (l : list A) : (forall x, f x = true <-> P x) -> forallb f l = true <-> Forall P l.
Proof.
  intros H. induction l as [|x l IH]; [split; [constructor|reflexivity]|]. cbn. rewrite andb_true_iff, IH, H, Forall_cons. reflexivity.
Qed.

Lemma nat_leb_10 (n : nat) : (N.of_nat n <=? 10) = true <-> (n <= 10)%nat.
Proof. lia. Qed.
Lemma nat_eqb (n k : nat) : (N.of_nat n =? N.of_nat k) = true <-> n = k.
Proof. lia. Qed.

Theorem C51_cast_iff c old pro v : validate_cast_add c old pro v = true <-> cast_limits c old pro v.
Proof.
  unfold validate_cast_add, cast_limits. rewrite !andb_true_iff.
  rewrite (forallb_Forall' valid_embed (fun e => exists r, e = Some r /\ ref_ok r)).
  2:{ intros [r|]; cbn; [rewrite valid_ref_iff; split; [eauto|intros (x & [= ->] & H); exact H]|split; [discriminate|intros (x & H & _); discriminate]]. }
  rewrite (forallb_Forall' valid_url (fun u => (1 <= length u <= 256)%nat) _ valid_url_iff).
  assert (HT : valid_text (ca_type c) pro (len (ca_text c)) = true <->
    (ca_type c = 0%Z /\ (length (ca_text c) <= 320)%nat \/ ca_type c = 1%Z /\ 320 < len (ca_text c) <= 1024 \/
     ca_type c = 2%Z /\ pro = true /\ 1024 < len (ca_text c) <= 10000)).
  { unfold valid_text, len. destruct (Z.eqb_spec (ca_type c) 0); [lia|]. destruct (Z.eqb_spec (ca_type c) 1); [lia|].
    destruct (Z.eqb_spec (ca_type c) 2); [|lia]. destruct pro; lia. }
  assert (HE : (N.of_nat (length (ca_embeds c)) <=? embed_limit pro v) = true <->
    ((length (ca_embeds c) <= 2)%nat \/ (length (ca_embeds c) <= 4)%nat /\ (pro = true \/ 20 <= v))).
  { unfold embed_limit. cbn [is_enabled]. destruct pro; cbn [orb]; [lia|]. destruct (N.leb_spec 20 v); lia. }
  assert (HP : match ca_parent c with Some p => valid_ref p | None => true end = true <-> (forall p, ca_parent c = Some p -> ref_ok p)).
  { destruct (ca_parent c) as [p|]; [rewrite valid_ref_iff; split; [intros H q [= <-]; exact H|auto]|split; [discriminate|reflexivity]]. }
  assert (HD : (if old then N.of_nat (length (ca_embeds_deprecated c)) <=? 2 else bool_decide (ca_embeds_deprecated c = [])) = true /\
               bool_decide (ca_embeds c = []) || bool_decide (ca_embeds_deprecated c = []) = true <->
    (ca_embeds_deprecated c = [] \/ old = true /\ (length (ca_embeds_deprecated c) <= 2)%nat /\ ca_embeds c = [])).
  { rewrite orb_true_iff, !bool_decide_eq_true. destruct old; [|rewrite bool_decide_eq_true; intuition discriminate]. split.
    - intros [H1 [H2|H2]]; [right|left; exact H2]. split; [reflexivity|]. split; [lia|exact H2].
    - intros [H|(_ & H1 & H2)]; [rewrite H; cbn; auto|]. split; [lia|auto]. }
  assert (HN : negb (bool_decide (ca_text c = []) && bool_decide (ca_embeds c = []) && bool_decide (ca_embeds_deprecated c = []) &&
        bool_decide (ca_mentions c = [])) = true <-> ~ (ca_text c = [] /\ ca_embeds c = [] /\ ca_embeds_deprecated c = [] /\ ca_mentions c = [])).
  { rewrite negb_true_iff, <-not_true_iff_false, !andb_true_iff, !bool_decide_eq_true. tauto. }
  pose proof (nat_leb_10 (length (ca_mentions c))) as HM. pose proof (nat_eqb (length (ca_mentions c)) (length (ca_positions c))) as HQ.
  rewrite HT, HE, HP, HN, HM, HQ. clear HT HE HP HN HM HQ. split.
  - intros [[[[[[[[[[H1 H2] H3] H4] H5] H6] H7] H8] H9] H10] H11].
    apply mentions_ok_iff in H10 as (M1 & M2 & M3 & _); [|exact H5].
    split; [exact H1|]. split; [exact H2|]. split; [apply HD; split; assumption|]. split; [split; assumption|].
    split; [exact M1|]. split; [split; assumption|]. split; [exact H7|]. split; [exact H8|]. split; [exact H9|exact H11].
  - intros (H1 & H2 & H3 & [H4 H5] & H6 & [H7 H8] & H9 & H10 & H11 & H12). apply HD in H3 as [H3 H3'].
    assert (H13 : mentions_ok (len (ca_text c)) true (-1) (ca_mentions c) (ca_positions c) = true).
    { apply mentions_ok_iff; [exact H5|]. auto. }
    tauto.
Qed.

(** Links and compact link states. *)
Theorem C51_link_iff t f : validate_link t f = true <-> (1 <= length t <= 8)%nat /\ exists g, f = Some g /\ g <> 0.
Proof.
  unfold validate_link. rewrite andb_true_iff. unfold valid_link_type, len. destruct f as [g|].
  - rewrite valid_fid_iff. split; [intros [H1 H2]; split; [lia|eauto]|intros [H1 (x & [= ->] & H2)]; split; [lia|exact H2]].
  - split; [intros [_ H]; discriminate|intros [_ (x & H & _)]; discriminate].
Qed.

Theorem C51_link_compact_iff t fs : validate_link_compact t fs = true <-> (1 <= length t <= 8)%nat /\ fs <> [] /\ Forall (fun f => f <> 0) fs.
Proof.
  unfold validate_link_compact. rewrite !andb_true_iff, negb_true_iff, bool_decide_eq_false, (forallb_Forall' _ _ _ valid_fid_iff).
  unfold valid_link_type, len. split; [intros [[H1 H2] H3]|intros (H1 & H2 & H3)]; repeat split; try assumption; lia.
Qed.

(** The length of the signed bytes, by kind of message. *)
Definition size_limit (t : Z) (pro : bool) (v : version) (n : N) : Prop :=
  n <= 2048 \/
  5 <= v /\ (t = 14%Z /\ n <= 65536 \/ t = 1%Z /\ pro = true /\ n <= 16384 \/ t = 12%Z /\ 15 <= v /\ n <= 16384).

Lemma max_size_iff t pro v n : n <= max_size t pro v <-> size_limit t pro v n.
Proof.
  unfold max_size, size_limit, T_LINK_COMPACT, T_CAST_ADD, T_USERNAME_PROOF. cbn [is_enabled].
  destruct (N.leb_spec 5 v); [|lia]. destruct (Z.eqb_spec t 14); [lia|]. destruct pro; cbn [andb].
  - destruct (Z.eqb_spec t 1); [lia|]. destruct (Z.eqb_spec t 12); cbn [andb]; [destruct (N.leb_spec 15 v)|]; lia.
  - destruct (Z.eqb_spec t 12); cbn [andb]; [destruct (N.leb_spec 15 v)|]; lia.
Qed.

(** A message is accepted iff the bytes that are signed fit, its network is right, hash and signature match, it is not too far
    in the future, and the body is valid. *)
Lemma validate_message_iff E m cur pro ts v : validate_message E m cur pro ts v = true <->
  exists b d, signed_content E m = Some (b, d) /\ size_limit (d_type d) pro v (len b) /\
    network_ok cur (d_network d) = true /\ hash_ok E m b = true /\ signature_ok E m = true /\
    (6 <= v -> d_ts d <= ts + 600) /\ validate_body E d pro ts v = true.
Proof.
  unfold validate_message. split.
  - destruct (signed_content E m) as [[b d]|]; [|discriminate]. rewrite !andb_true_iff. intros [[[[[H1 H2] H3] H4] H5] H6].
    exists b, d. split; [reflexivity|]. split; [apply max_size_iff, N.leb_le, H1|]. do 3 (split; [assumption|]). split; [|exact H6].
    intros Hv. unfold validate_timestamp in H5. cbn [is_enabled] in H5. destruct (N.leb_spec 6 v); [|lia].
    destruct (N.leb_spec ts (d_ts d)); lia.
  - intros (b & d & -> & H1 & H2 & H3 & H4 & H5 & H6). apply max_size_iff in H1. rewrite H2, H3, H4, H6.
    unfold validate_timestamp. cbn [is_enabled]. destruct (N.leb_spec 6 v); [specialize (H5 ltac:(lia)); destruct (N.leb_spec ts (d_ts d))|]; lia.
Qed.

(** An accepted cast obeys the limits, whatever the type field says. *)
Theorem C51_accepted_cast E m cur pro ts v b d c : signed_content E m = Some (b, d) -> d_body d = Some (VCastAdd c) ->
  validate_message E m cur pro ts v = true ->
  cast_limits c (d_ts d <? 73612800) pro v /\ size_limit (d_type d) pro v (len b).
Proof.
  intros Hs Hb H. apply validate_message_iff in H as (b' & d' & Hs' & H1 & _ & _ & _ & _ & H2). rewrite Hs in Hs'. injection Hs' as <- <-.
  split; [|exact H1]. apply C51_cast_iff. unfold validate_body in H2. rewrite Hb in H2. exact H2.
Qed.

Theorem C51_accepted_link E m cur pro ts v b d : signed_content E m = Some (b, d) -> validate_message E m cur pro ts v = true ->
  (forall t dt f, d_body d = Some (VLink t dt f) -> (1 <= length t <= 8)%nat /\ exists g, f = Some g /\ g <> 0) /\
  (forall t fs, d_body d = Some (VLinkCompact t fs) -> (1 <= length t <= 8)%nat /\ fs <> [] /\ Forall (fun f => f <> 0) fs) /\
  size_limit (d_type d) pro v (len b).
Proof.
  intros Hs H. apply validate_message_iff in H as (b' & d' & Hs' & H1 & _ & _ & _ & _ & H2). rewrite Hs in Hs'. injection Hs' as <- <-.
  unfold validate_body in H2. split; [|split; [|exact H1]].
  - intros t dt f Hb. rewrite Hb in H2. apply C51_link_iff, H2.
  - intros t fs Hb. rewrite Hb in H2. apply C51_link_compact_iff, H2.
Qed.

(** Limits are only ever raised: a cast accepted at some version stays accepted later and for a pro user. *)
Theorem C51_cast_monotone c old pro pro' v v' : v <= v' -> (pro = true -> pro' = true) ->
  validate_cast_add c old pro v = true -> validate_cast_add c old pro' v' = true.
Proof.
  intros Hv Hp H. apply C51_cast_iff in H. apply C51_cast_iff. destruct H as (H1 & H2 & H). split; [|split; [|exact H]].
  - destruct H1 as [H1|[H1|(H1 & H3 & H4)]]; [auto|auto|]. right. right. auto.
  - destruct H2 as [H2|[H2 [H3|H3]]]; [auto|right; auto|right; split; [exact H2|right; lia]].
Qed.

Lemma size_monotone t pro pro' v v' n : v <= v' -> (pro = true -> pro' = true) -> size_limit t pro v n -> size_limit t pro' v' n.
Proof. intros Hv Hp [H|[H1 H2]]; [left; exact H|]. right. split; [lia|]. intuition lia. Qed.

Lemma user_data_monotone E t s pro pro' v v' : v <= v' -> (pro = true -> pro' = true) ->
  validate_user_data E t s pro v = true -> validate_user_data E t s pro' v' = true.
Proof.
  intros Hv Hp. unfold validate_user_data.
  assert (G : forall n b, (n <=? v) && b = true -> (n <=? v') && b = true).
  { intros n b. rewrite !andb_true_iff. intros [H1 H2]. split; [lia|exact H2]. }
  destruct t as [|p|p]; try discriminate. do 4 (destruct p as [p|p|]; try discriminate; auto; try (apply G)).
  destruct pro; [rewrite (Hp eq_refl); auto|discriminate].
Qed.

(** The two rules that were tightened: ENS names from version 5, timestamps in the future from version 6. *)
Definition ens_rule (d : data) : Prop :=
  forall p, d_body d = Some (VUsernameProof p) -> np_type p = 2%Z -> exists l, fname_ok l /\ np_name p = l ++ ETH.

Lemma body_monotone E d pro pro' ts v v' : v <= v' -> (pro = true -> pro' = true) -> validate_body E d pro ts v = true ->
  validate_body E d pro' ts v' = true <-> (5 <= v' -> ens_rule d).
Proof.
  intros Hv Hp H. unfold validate_body, ens_rule in *.
  assert (G : forall n b, (n <=? v) && b = true -> (n <=? v') && b = true).
  { intros n b. rewrite !andb_true_iff. intros [H1 H2]. split; [lia|exact H2]. }
  assert (T : forall b, b = true -> b = true <-> (5 <= v' -> forall p, d_body d = Some (VUsernameProof p) -> np_type p = 2%Z -> exists l, fname_ok l /\ np_name p = l ++ ETH) ->
    b = true <-> (5 <= v' -> forall p, d_body d = Some (VUsernameProof p) -> np_type p = 2%Z -> exists l, fname_ok l /\ np_name p = l ++ ETH)) by (intros; assumption).
  destruct (d_body d) as [[c|h|t r|w|a p|t s|t dt f|p|f|t fs|to u ut|k|k|i cm mm|i f a|i h|i h a]|] eqn:Eb;
    try (split; [intros _ _ q Hq; discriminate|intros _; first [exact H|apply (G 21), H]]).
  - split; [intros _ _ q Hq; discriminate|intros _]. eapply C51_cast_monotone; eassumption.
  - split; [intros _ _ q Hq; discriminate|intros _]. eapply user_data_monotone; eassumption.
  - unfold validate_name_proof in *. cbn [is_enabled] in *. destruct (Z.eqb_spec (np_type p) 2) as [E2|E2].
    + destruct (N.leb_spec 5 v') as [Hv'|Hv'].
      * rewrite validate_ens_iff. split; [intros HX _ q [= <-] _; exact HX|intros HX; apply HX; [lia|reflexivity|exact E2]].
      * split; [intros _ H5; lia|reflexivity].
    + split; [intros _ _ q [= <-] Hq; congruence|]. intros _. destruct (Z.eqb_spec (np_type p) 3); [apply (G 5), H|discriminate].
Qed.

(** Exactly these two rules can reject, at a later version or for a pro user, what was accepted. *)
Theorem C51_later_version E m cur pro pro' ts v v' b d : v <= v' -> (pro = true -> pro' = true) ->
  signed_content E m = Some (b, d) -> validate_message E m cur pro ts v = true ->
  validate_message E m cur pro' ts v' = true <-> (6 <= v' -> d_ts d <= ts + 600) /\ (5 <= v' -> ens_rule d).
Proof.
  intros Hv Hp Hs H. apply validate_message_iff in H as (b' & d' & Hs' & H1 & H2 & H3 & H4 & H5 & H6). rewrite Hs in Hs'. injection Hs' as <- <-.
  rewrite validate_message_iff, Hs. pose proof (body_monotone E d pro pro' ts v v' Hv Hp H6) as HB. split.
  - intros (b' & d' & [= <- <-] & _ & _ & _ & _ & HT & HX). split; [exact HT|]. apply HB, HX.
  - intros [HT HX]. exists b, d. split; [reflexivity|]. split; [eapply size_monotone; eassumption|]. repeat split; try assumption. apply HB, HX.
Qed.

(** From version 6 on, nothing accepted is rejected later. *)
Theorem C51_monotone_from_6 E m cur pro pro' ts v v' : 6 <= v -> v <= v' -> (pro = true -> pro' = true) ->
  validate_message E m cur pro ts v = true -> validate_message E m cur pro' ts v' = true.
Proof.
  intros H6 Hv Hp H. pose proof H as H'. apply validate_message_iff in H' as (b & d & Hs & _ & _ & _ & _ & HT & HB).
  apply (C51_later_version E m cur pro pro' ts v v' b d Hv Hp Hs H). split; [intros _; apply HT, H6|]. intros _.
  apply (body_monotone E d pro pro ts v v (N.le_refl v) (fun x => x) HB); [exact HB|lia].
Qed.

(** ** C48: what is merged is what was signed *)

(** The content an accepted message was signed for: hash and signature cover bytes that stand for [d]. *)
Definition signs (E : env) (m : message) (b : bytes) (d : data) : Prop :=
  e_blake3 E b = g_hash m /\ e_ed25519 E (g_signer m) (g_hash m) (g_signature m) = true /\ (e_decode E b = Some d \/ e_encode E d = b).

Lemma admit_valid E W cur ts v m : admit E W cur ts v m = true -> exists d, g_data m = Some d /\
  validate_message E m cur (w_pro W (d_fid d)) ts v = true.
Proof.
  unfold admit. destruct (g_data m) as [d|]; [|discriminate]. rewrite !andb_true_iff. intros H. exists d. split; [reflexivity|]. tauto.
Qed.

Lemma hash_signs E m b : hash_ok E m b = true -> signature_ok E m = true ->
  e_blake3 E b = g_hash m /\ e_ed25519 E (g_signer m) (g_hash m) (g_signature m) = true.
Proof.
  unfold hash_ok, signature_ok. rewrite !andb_true_iff, bool_decide_eq_true. tauto.
Qed.

(** A message without separate bytes, and any message after the decoding step of the gossip and RPC entries, is merged as signed. *)
Theorem C48_plain E W cur ts v m : g_data_bytes m = None -> admit E W cur ts v m = true ->
  exists d, merged m = Some d /\ signs E m (e_encode E d) d.
Proof.
  intros Hb H. apply admit_valid in H as (d & Hd & H). apply validate_message_iff in H as (b & d' & Hs & _ & _ & H3 & H4 & _).
  unfold signed_content in Hs. rewrite Hb, Hd in Hs. injection Hs as <- <-. exists d. split; [exact Hd|].
  destruct (hash_signs E m _ H3 H4). repeat split; auto.
Qed.

Theorem C48_entry E W cur ts v m : admit E W cur ts v (message_bytes_decode E m) = true ->
  exists b d, merged (message_bytes_decode E m) = Some d /\ signs E m b d /\
    (forall b', g_data_bytes m = Some b' -> b = b').
Proof.
  destruct (g_data_bytes m) as [b|] eqn:Eb.
  - intros H. apply admit_valid in H as (d & Hd & H). apply validate_message_iff in H as (b' & d' & Hs & _ & _ & H3 & H4 & _).
    assert (Em : g_data_bytes (message_bytes_decode E m) = Some b).
    { unfold message_bytes_decode. rewrite Eb. destruct (len b =? 0); exact Eb. }
    unfold signed_content in Hs. rewrite Em in Hs. destruct (len b =? 0) eqn:El; [discriminate|].
    destruct (e_decode E b) as [d0|] eqn:Ed; [|discriminate]. injection Hs as <- <-.
    exists b, d0. unfold message_bytes_decode in *. rewrite Eb, El in *. split; [exact Ed|].
    destruct (hash_signs E _ _ H3 H4) as [HA HB]. split; [repeat split; auto|]. intros b' [= <-]. reflexivity.
  - intros H. unfold message_bytes_decode in *. rewrite Eb in *. apply C48_plain in H as (d & Hd & H); [|exact Eb].
    exists (e_encode E d), d. split; [exact Hd|]. split; [exact H|]. intros b' Hb'. discriminate.
Qed.

(** Same hash, same content, unless the hash function collides on the two signed strings. *)
Theorem C48_hash_binds E W W' cur ts ts' v v' m m' b b' d d' :
  admit E W cur ts v (message_bytes_decode E m) = true -> admit E W' cur ts' v' (message_bytes_decode E m') = true ->
  g_data_bytes m = Some b -> g_data_bytes m' = Some b' -> g_hash m = g_hash m' -> (e_blake3 E b = e_blake3 E b' -> b = b') ->
  merged (message_bytes_decode E m) = Some d -> merged (message_bytes_decode E m') = Some d' -> d = d'.
Proof.
  assert (K : forall W ts v m b d, admit E W cur ts v (message_bytes_decode E m) = true -> g_data_bytes m = Some b ->
    merged (message_bytes_decode E m) = Some d -> e_blake3 E b = g_hash m /\ e_decode E b = Some d).
  { clear. intros W ts v m b d H Hb Hd. apply admit_valid in H as (d0 & Hd0 & H). apply validate_message_iff in H as (b1 & d1 & Hs & _ & _ & H3 & H4 & _).
    unfold message_bytes_decode in *. rewrite Hb in *. destruct (len b =? 0) eqn:El.
    - unfold signed_content in Hs. rewrite Hb, El in Hs. discriminate.
    - unfold signed_content in Hs. cbn [set_data g_data_bytes] in Hs. rewrite Hb, El in Hs. destruct (e_decode E b) as [d2|]; [|discriminate].
      injection Hs as <- <-. destruct (hash_signs E _ _ H3 H4) as [HA _]. split; [exact HA|exact Hd]. }
  intros H H' Hb Hb' Hh Hc Hd Hd'. destruct (K _ _ _ _ _ _ H Hb Hd) as [A1 A2]. destruct (K _ _ _ _ _ _ H' Hb' Hd') as [B1 B2].
  assert (b = b') by (apply Hc; congruence). subst b'. congruence.
Qed.

(** But a transaction in a proposed block is not decoded again, and validation looks at the decoded copy nowhere: *)
Theorem C48_data_ignored E m d cur pro ts v : g_data_bytes m <> None ->
  validate_message E (set_data m d) cur pro ts v = validate_message E m cur pro ts v.
Proof.
  intros H. unfold validate_message, signed_content, hash_ok, signature_ok. cbn [set_data g_data_bytes g_data g_hash g_hash_scheme g_signature g_signature_scheme g_signer].
  destruct (g_data_bytes m); [reflexivity|congruence].
Qed.

(** so any content at all can ride on a valid signature: all that is asked of it is that the account it names has a custody
    record and lists the key for the type it names, and the ownership checks of names. None of the rules for bodies, sizes,
    timestamps or networks apply to it. *)
Definition may_pose (W : view) (v : version) (signer : bytes) (d : data) : Prop :=
  w_custody W (d_fid d) = true /\ (exists admits, w_key W (d_fid d) signer = Some admits /\ admits (d_type d) = true) /\
  w_ttl W (d_fid d) signer (d_ts d) = true /\ w_owned W (d_fid d) (d_body d) = true /\
  In (d_type d) [1; 2; 3; 4; 5; 6; 11; 12; 13; 14]%Z.

Theorem C48_forgery E W cur ts v m b d0 d : g_data_bytes m = Some b -> g_data m = Some d0 ->
  admit E W cur ts v m = true -> w_pro W (d_fid d) = w_pro W (d_fid d0) -> may_pose W v (g_signer m) d ->
  admit E W cur ts v (set_data m (Some d)) = true /\ merged (set_data m (Some d)) = Some d.
Proof.
  intros Hb Hd0 H Hp (H1 & (ad & H2 & H3) & H4 & H5 & H6). split; [|reflexivity].
  assert (HV : validate_message E (set_data m (Some d)) cur (w_pro W (d_fid d)) ts v = true).
  { rewrite C48_data_ignored by congruence. rewrite Hp. apply admit_valid in H as (d1 & Hd1 & H). congruence. }
  unfold admit. cbn [set_data g_data g_signer]. rewrite HV, H1, H2, H4, H5.
  assert (HT : known_type (d_type d) = d_type d /\ is_key_type (d_type d) = false /\ (d_type d =? T_LEND)%Z = false /\
    zmem (d_type d) [T_VERIFICATION_ADD; T_VERIFICATION_REMOVE] = false /\ zmem (d_type d) T_CHANNEL = false).
  { cbn [In] in H6. intuition (subst; match goal with H : _ = d_type _ |- _ => rewrite <-H; repeat split; reflexivity end). }
  destruct HT as (-> & -> & -> & -> & ->). rewrite H3, andb_false_r. reflexivity.
Qed.

(** The store keeps the bytes and drops the copy, so the row filed under the forged content reads back as the signed one. *)
Theorem C48_reads_back_signed E m b d : g_data_bytes m = Some b -> len b <> 0 ->
  g_data (read_back E (set_data m (Some d))) = e_decode E b.
Proof.
  intros Hb Hl. unfold read_back, message_encode, message_bytes_decode, nonempty. cbn [set_data g_data_bytes]. rewrite Hb.
  destruct (N.eqb_spec (len b) 0); [congruence|]. cbn [negb set_data g_data_bytes g_data]. rewrite Hb.
  destruct (N.eqb_spec (len b) 0); [congruence|]. reflexivity.
Qed.

(** Messages without separate bytes are no safer: their bytes can be added. *)
Theorem C48_add_bytes E m d cur pro ts v : g_data_bytes m = None -> g_data m = Some d -> e_decode E (e_encode E d) = Some d ->
  validate_message E m cur pro ts v = true -> validate_message E (set_data_bytes m (Some (e_encode E d))) cur pro ts v = true.
Proof.
  intros Hb Hd He H. apply validate_message_iff in H as (b & d' & Hs & H1 & H2 & H3 & H4 & H5 & H6).
  unfold signed_content in Hs. rewrite Hb, Hd in Hs. injection Hs as <- <-. apply validate_message_iff. exists (e_encode E d), d.
  split; [|repeat split; assumption]. unfold signed_content. cbn [set_data_bytes g_data_bytes]. rewrite He.
  destruct (N.eqb_spec (len (e_encode E d)) 0) as [El|]; [|reflexivity]. unfold hash_ok in H3. rewrite El in H3. cbn in H3.
  rewrite andb_false_r in H3. discriminate.
Qed.

(** ** C63: the type field and the body *)

(** Validation by body never looks at the type... *)
Theorem C63_type_ignored E d t pro ts v :
  validate_body E (Data t (d_fid d) (d_ts d) (d_network d) (d_body d)) pro ts v = validate_body E d pro ts v.
Proof. reflexivity. Qed.

(** ... nor does the message, except for the size limit: a valid message of one type, signed again with another type, is valid
    whenever it is short enough for it. *)
Theorem C63_retype E m m' cur pro ts v b b' d t : signed_content E m = Some (b, d) ->
  signed_content E m' = Some (b', Data t (d_fid d) (d_ts d) (d_network d) (d_body d)) ->
  hash_ok E m' b' = true -> signature_ok E m' = true -> len b' <= 2048 ->
  validate_message E m cur pro ts v = true -> validate_message E m' cur pro ts v = true.
Proof.
  intros Hs Hs' Hh Hg Hl H. apply validate_message_iff in H as (b0 & d0 & Hs0 & H1 & H2 & H3 & H4 & H5 & H6). rewrite Hs in Hs0. injection Hs0 as <- <-.
  apply validate_message_iff. exists b', (Data t (d_fid d) (d_ts d) (d_network d) (d_body d)). split; [exact Hs'|]. split; [left; exact Hl|].
  repeat split; assumption.
Qed.

(** A message without a body is valid, of any type. *)
Theorem C63_no_body E t fid time net pro ts v : validate_body E (Data t fid time net None) pro ts v = true.
Proof. reflexivity. Qed.

(** ** C64: a verification shows control of the address *)

(** Externally owned and Solana accounts: accepted only with a signature of the address over fid, address, network and block hash. *)
Theorem C64_signed E w fid net : validate_verif_add E w fid net = true -> ~ (va_protocol w = 0%Z /\ va_vtype w = 1) ->
  va_protocol w = 0%Z /\ va_vtype w = 0 /\ length (va_address w) = 20%nat /\ e_eoa E fid (va_address w) net (va_block_hash w) (va_signature w) = true \/
  va_protocol w = 1%Z /\ length (va_address w) = 32%nat /\ e_sol E fid (va_address w) net (va_block_hash w) (va_signature w) = true.
Proof.
  unfold validate_verif_add, validate_eth_claim, validate_sol_claim, len. intros H Hn.
  destruct (Z.eqb_spec (va_protocol w) 0) as [E0|E0].
  - left. rewrite !andb_true_iff in H. destruct H as [[H1 H2] [H3 H4]]. destruct (va_vtype w) as [|[p|p|]] eqn:Ev; try discriminate.
    + apply andb_true_iff in H4 as [_ H4]. repeat split; try assumption; lia.
    + exfalso. auto.
  - destruct (Z.eqb_spec (va_protocol w) 1); [|discriminate]. right. rewrite !andb_true_iff in H. destruct H as [[H1 H2] [H3 H4]].
    repeat split; try assumption; lia.
Qed.

(** Contract accounts: any address can be claimed by anyone; the signature is only measured. *)
Theorem C64_contract_unchecked E fid net a sig h k c : length a = 20%nat -> length h = 32%nat -> (length sig <= 2 ^ k)%nat -> (k <= 11)%nat ->
  In c [0; 1; 5; 10; 420] -> forall n, validate_verif_add E (VerifAdd a sig h 1 (c + 65536 * n) 0) fid net = true.
Proof.
  intros Ha Hh Hs Hk Hc n. unfold validate_verif_add, validate_eth_claim, len. cbn [va_address va_signature va_block_hash va_vtype va_chain va_protocol].
  change (0 =? 0)%Z with true. cbv iota. rewrite Ha, Hh.
  assert (HL : N.of_nat (length sig) <= 2048).
  { assert (H : N.of_nat (2 ^ k) <= 2 ^ 11) by (rewrite Nat2N.inj_pow; apply N.pow_le_mono_r; lia). change (2 ^ 11) with 2048 in H. lia. }
  assert (HM : (c + 65536 * n) mod 2 ^ 16 = c).
  { change (2 ^ 16) with 65536. rewrite (N.mul_comm 65536), N.mod_add by discriminate. apply N.mod_small. cbn [In] in Hc. lia. }
  rewrite HM. apply N.leb_le in HL. rewrite HL. cbn [andb]. change (N.of_nat 20 =? 20) with true. change (N.of_nat 32 =? 32) with true. cbn [andb].
  rewrite andb_true_r. apply existsb_exists. exists c. split; [exact Hc|apply N.eqb_refl].
Qed.

(** Chain identifiers are compared after cutting them to 16 bits. *)
Theorem C64_chain_truncated E w fid net n : 
  validate_verif_add E (VerifAdd (va_address w) (va_signature w) (va_block_hash w) (va_vtype w) (va_chain w + 65536 * n) (va_protocol w)) fid net =
  validate_verif_add E w fid net.
Proof.
  unfold validate_verif_add, validate_eth_claim, validate_sol_claim. cbn [va_address va_signature va_block_hash va_vtype va_chain va_protocol].
  change (2 ^ 16) with 65536. rewrite (N.mul_comm 65536), N.mod_add by discriminate. reflexivity.
Qed.

Theorem C64_remove_iff a p : validate_verif_remove a p = true <-> p = 0%Z /\ length a = 20%nat \/ p = 1%Z /\ length a = 32%nat.
Proof.
  unfold validate_verif_remove, len. destruct (Z.eqb_spec p 0) as [->|H0]; [lia|]. destruct (Z.eqb_spec p 1) as [->|H1]; [lia|].
  split; [discriminate|lia].
Qed.

(** ** C65: names and profile fields *)

(** The names: a label is 1 to 16 lower-case letters, digits and hyphens, not beginning with a hyphen. *)
Definition label (s : bytes) : Prop :=
  (1 <= length s <= 16)%nat /\ Forall (fun x => 48 <= x <= 57 \/ 97 <= x <= 122 \/ x = 45) s /\ head s <> Some 45.

Lemma label_iff s : fname_ok s <-> label s.
Proof.
  unfold fname_ok, label. split.
  - intros (c & r & -> & HL & Hc & HF). cbn [length head]. split; [lia|]. split; [constructor; [lia|exact HF]|]. intros [= ->]. lia.
  - intros (HL & HF & Hh). destruct s as [|c r]; [cbn in HL; lia|]. cbn [length] in HL. apply Forall_cons in HF as [Hc HF]. exists c, r.
    split; [reflexivity|]. split; [lia|]. split; [|exact HF]. destruct (N.eq_dec c 45) as [->|]; [cbn in Hh; congruence|lia].
Qed.

Theorem C65_username_iff s : validate_username_value s = true <->
  s = [] \/ exists l, label l /\ (s = l \/ s = l ++ [46; 101; 116; 104] \/ s = l ++ [46; 98; 97; 115; 101; 46; 101; 116; 104]).
Proof.
  rewrite validate_username_iff. split; (intros [->|(l & Hl & H)]; [auto|]); right; exists l; (split; [apply label_iff, Hl|exact H]).
Qed.

(** Username proofs. *)
Theorem C65_proof_iff p v : validate_name_proof p v = true <->
  np_type p = 2%Z /\ (5 <= v -> exists l, label l /\ np_name p = l ++ [46; 101; 116; 104]) \/
  np_type p = 3%Z /\ 5 <= v /\ exists l, label l /\ np_name p = l ++ [46; 98; 97; 115; 101; 46; 101; 116; 104].
Proof.
  unfold validate_name_proof. cbn [is_enabled]. destruct (Z.eqb_spec (np_type p) 2) as [E2|E2].
  - rewrite E2. destruct (N.leb_spec 5 v) as [Hv|Hv].
    + rewrite validate_ens_iff. split.
      * intros (l & Hl & H). left. split; [reflexivity|]. intros _. exists l. split; [apply label_iff, Hl|exact H].
      * intros [[_ H]|(H & _)]; [|discriminate]. destruct (H Hv) as (l & Hl & HE). exists l. split; [apply label_iff, Hl|exact HE].
    + split; [intros _; left; split; [reflexivity|]; lia|reflexivity].
  - destruct (Z.eqb_spec (np_type p) 3) as [E3|E3].
    + rewrite andb_true_iff, validate_base_iff, N.leb_le. split.
      * intros [H (l & Hl & HE)]. right. split; [exact E3|]. split; [exact H|]. exists l. split; [apply label_iff, Hl|exact HE].
      * intros [[H _]|(_ & H & l & Hl & HE)]; [congruence|]. split; [exact H|]. exists l. split; [apply label_iff, Hl|exact HE].
    + split; [discriminate|intros [[H _]|[H _]]; congruence].
Qed.

(** GitHub names, without a digit class beyond ASCII: letters, digits and single hyphens, not beginning with a hyphen, 1 to 38
    bytes (GitHub itself allows 39). *)
Theorem C65_github_ascii E s : Forall (fun c => c < 128) s -> validate_github E s = true <->
  (1 <= length s <= 38)%nat /\ Forall (fun c => 48 <= c <= 57 \/ 97 <= c <= 122 \/ 65 <= c <= 90 \/ c = 45) s /\
  head s <> Some 45 /\ (forall a b, s <> a ++ 45 :: 45 :: b).
Proof.
  intros HA. unfold validate_github. rewrite (chars_ascii s HA). rewrite andb_true_iff. destruct s as [|c r].
  { cbn. split; [intros [_ H]; discriminate|]. intros [H _]. cbn in H. lia. }
  cbn [map]. rewrite andb_true_iff, github_rest_iff, map_length, Forall_map. cbn [github_char]. rewrite alnum_iff, Forall_cons. cbn [head length].
  assert (HF : Forall ((fun ch => github_char E ch = true \/ ch = [HYPHEN]) ∘ (fun c => [c])) r <->
               Forall (fun c => 48 <= c <= 57 \/ 97 <= c <= 122 \/ 65 <= c <= 90 \/ c = 45) r).
  { apply Forall_iff. intros x. unfold compose. cbn [github_char]. rewrite alnum_iff. unfold HYPHEN. split; [intros [H|[= ->]]; tauto|].
    intros [H|[H|[H|H]]]; auto. right. congruence. }
  assert (HD : no_double (map (fun c => [c]) r) <-> forall a b, r <> a ++ 45 :: 45 :: b).
  { unfold no_double, HYPHEN. split.
    - intros H a b ->. rewrite map_app in H. apply (H (map (fun c => [c]) a) (map (fun c => [c]) b)). reflexivity.
    - intros H a b E1. apply map_eq_app in E1 as (l1 & l2 & -> & <- & E2). destruct l2 as [|x [|y l2]]; try discriminate. cbn in E2.
      injection E2 as -> -> <-. eapply H. reflexivity. }
  rewrite HF, HD. unfold len. cbn [length]. split.
  - intros (H1 & H2 & H3 & H4 & H5). split; [lia|]. split; [split; [tauto|exact H4]|]. split; [intros [= ->]; lia|].
    intros [|x a] b Heq; cbn in Heq; [injection Heq as -> _; lia|]. injection Heq as _ Heq. eapply H5. exact Heq.
  - intros (H1 & [H2 H3] & H4 & H5). split; [lia|]. split; [|split; [lia|split; [exact H3|]]].
    + destruct H2 as [H2|[H2|[H2|H2]]]; auto. subst. congruence.
    + intros a b ->. apply (H5 (c :: a) b). reflexivity.
Qed.

(** Every Unicode decimal digit passes for a digit there: a name of nothing but such characters is accepted. *)
Theorem C65_github_unicode E d1 d2 : e_nd E [d1; d2] = true -> 192 <= d1 -> continuation d2 = true -> validate_github E [d1; d2] = true.
Proof. intros H H1 H2. unfold validate_github. cbn [chars]. rewrite H2. cbn. rewrite H. reflexivity. Qed.

(** Twitter names. *)
Theorem C65_twitter_iff s : validate_twitter s = true <-> (length s <= 15)%nat /\ Forall (fun x => 48 <= x <= 57 \/ 97 <= x <= 122 \/ x = 95) s.
Proof. apply validate_twitter_iff. Qed.

(** Locations: empty, or "geo:" and two coordinates with two decimals, within 90 and 180 degrees. *)
Theorem C65_location_iff s : validate_location s = true <->
  s = [] \/ exists lat lon, s = [103; 101; 111; 58] ++ lat ++ [44] ++ lon /\ coord_ok 2 9000 lat /\ coord_ok 3 18000 lon.
Proof. apply validate_location_iff. Qed.

(** Profile tokens. *)
Theorem C65_token_iff s : validate_caip19 s = true <-> s = [] \/ ((length s <= 256)%nat /\ caip19_ok s).
Proof. apply validate_caip19_iff. Qed.

(** Primary addresses: empty, or the one EIP-55 spelling of 20 bytes; the base58 form of 32 bytes. *)
Theorem C65_eth_address_iff E s : validate_eth_primary E s = true <->
  s = [] \/ exists a, length a = 20%nat /\ bytes_ok a = true /\ s = to_checksum (e_keccak E) a.
Proof.
  unfold validate_eth_primary. rewrite orb_true_iff, bool_decide_eq_true, andb_true_iff. split.
  - intros [H|[_ H]]; [auto|]. right. destruct (parse_checksummed (e_keccak E) s) as [a|] eqn:Ea; [|discriminate]. apply parse_checksummed_iff in Ea. eauto.
  - intros [H|(a & H)]; [auto|]. right. pose proof H as (Hl & Hb & Hs). apply parse_checksummed_iff in H. rewrite H. split; [|reflexivity].
    subst s. rewrite to_checksum_body. unfold len. rewrite app_length, body_length by exact Hl. reflexivity.
Qed.
Theorem C65_sol_address_iff E s : validate_sol_primary E s = true <-> s = [] \/ exists a, e_base58 E s = Some a /\ length a = 32%nat.
Proof.
  unfold validate_sol_primary, len. rewrite orb_true_iff, bool_decide_eq_true. destruct (e_base58 E s) as [a|].
  - split; [intros [H|H]; [auto|right; exists a; split; [reflexivity|lia]]|intros [H|(x & [= ->] & H)]; [auto|right; lia]].
  - split; [intros [H|H]; [auto|discriminate]|intros [H|(x & H & _)]; [auto|discriminate]].
Qed.

(** Which profile fields there are, from which version, and how long they may be. *)
Definition field_rule (E : env) (t : Z) (s : bytes) (pro : bool) (v : version) : Prop :=
  (t = 1%Z \/ t = 3%Z \/ t = 5%Z) /\ len s <= 256 \/
  t = 2%Z /\ len s <= 32 \/
  t = 6%Z /\ validate_username_value s = true \/
  t = 7%Z /\ validate_location s = true \/
  t = 8%Z /\ validate_twitter s = true \/
  t = 9%Z /\ validate_github E s = true \/
  t = 10%Z /\ pro = true /\ len s <= 256 \/
  t = 11%Z /\ 5 <= v /\ validate_eth_primary E s = true \/
  t = 12%Z /\ 5 <= v /\ validate_sol_primary E s = true \/
  t = 13%Z /\ 10 <= v /\ validate_caip19 s = true \/
  t = 14%Z /\ 17 <= v /\ len s <= 256.

Theorem C65_fields_iff E t s pro v : validate_user_data E t s pro v = true <-> field_rule E t s pro v.
Proof.
  unfold field_rule. set (A := validate_username_value s). set (B := validate_location s). set (C := validate_twitter s). set (D := validate_github E s).
  set (F := validate_eth_primary E s). set (G := validate_sol_primary E s). set (H := validate_caip19 s). set (n := len s).
  unfold validate_user_data. fold A B C D F G H n. clearbody A B C D F G H n. cbn [is_enabled].
  split.
  - destruct t as [|p|p]; try discriminate. do 4 (try destruct p as [p|p|]; try discriminate);
      rewrite ?andb_true_iff, ?N.leb_le; intros Hx;
      repeat first [left; split; [first [reflexivity|left; reflexivity|right; left; reflexivity|right; right; reflexivity]|exact Hx]|right];
      split; [reflexivity|exact Hx].
  - intros [[[->|[->| ->]] Hx]|[[-> Hx]|[[-> Hx]|[[-> Hx]|[[-> Hx]|[[-> Hx]|[[-> Hx]|[[-> Hx]|[[-> Hx]|[[-> Hx]|[-> Hx]]]]]]]]]]];
      rewrite ?andb_true_iff, ?N.leb_le; exact Hx.
Qed.

(** ** C66: the other bodies *)

Theorem C66_key_add_iff k : validate_key_add k = true <->
  length (ka_key k) = 32%nat /\ ka_key_type k = 1 /\ ka_deadline k <> 0 /\ 1 <= ka_ttl k <= 7776000 /\ ka_metadata_type k = 1 /\
  ka_metadata k <> [] /\ (1 <= length (ka_scopes k) <= 16)%nat /\
  Forall (fun z => 1 <= z <= 8 \/ 11 <= z <= 15)%Z (ka_scopes k).
Proof.
  unfold validate_key_add. rewrite !andb_true_iff, !negb_true_iff, bool_decide_eq_false.
  rewrite (forallb_Forall' _ (fun z => 1 <= z <= 8 \/ 11 <= z <= 15)%Z).
  2:{ intros z. rewrite zmem_iff. unfold ADMISSIBLE_SCOPES. cbn [In]. lia. }
  assert (HM : (len (ka_metadata k) =? 0) = false <-> ka_metadata k <> []) by (unfold len; destruct (ka_metadata k); split; try congruence; cbn; lia).
  assert (HS : ka_scopes k <> [] /\ (N.of_nat (length (ka_scopes k)) <=? 16) = true <-> (1 <= length (ka_scopes k) <= 16)%nat).
  { destruct (ka_scopes k); cbn [length]; split; [intros [H _]; congruence|lia|lia|intros H; split; [discriminate|lia]]. }
  rewrite HM. unfold MAX_KEY_TTL_SECONDS. assert (HK : (len (ka_key k) =? 32) = true <-> length (ka_key k) = 32%nat) by (unfold len; lia).
  rewrite HK, !N.eqb_eq, N.eqb_neq.
  assert (HT : (ka_ttl k =? 0) || (7776000 <? ka_ttl k) = false <-> 1 <= ka_ttl k <= 7776000) by lia. rewrite HT. tauto.
Qed.

Theorem C66_key_remove_iff k : validate_key_remove k = true <->
  length (kr_key k) = 32%nat /\ 1 <= kr_sig_type k <= 2 /\ kr_deadline k <> 0.
Proof. unfold validate_key_remove, len. lia. Qed.

Theorem C66_channel_iff i c m f a h h' a' :
  (validate_chan_update i c m = true <-> length i = 32%nat /\ (forall z, c = Some z -> 0 <= z <= 3)%Z /\ (forall z, m = Some z -> 0 <= z <= 2)%Z) /\
  (validate_chan_member i f a = true <-> length i = 32%nat /\ 1 <= f < 4294967296 /\ (1 <= a <= 6)%Z) /\
  (validate_chan_pin i h = true <-> length i = 32%nat /\ (h = [] \/ length h = 20%nat)) /\
  (validate_chan_moderate i h' a' = true <-> length i = 32%nat /\ length h' = 20%nat /\ (1 <= a' <= 2)%Z).
Proof.
  assert (HI : valid_channel_id i = true <-> length i = 32%nat) by (unfold valid_channel_id, len; lia).
  assert (HO : forall o l (P : Z -> Prop), (forall z, In z l <-> P z) -> opt_in o l = true <-> forall z, o = Some z -> P z).
  { intros [z|] l P HP; cbn; [rewrite zmem_iff, HP; split; [intros Hz y [= <-]; exact Hz|auto]|split; [discriminate|reflexivity]]. }
  split; [|split; [|split]].
  - unfold validate_chan_update. rewrite !andb_true_iff, HI. rewrite (HO c _ (fun z => 0 <= z <= 3)%Z) by (intros z; cbn [In]; lia).
    rewrite (HO m _ (fun z => 0 <= z <= 2)%Z) by (intros z; cbn [In]; lia). tauto.
  - unfold validate_chan_member. rewrite !andb_true_iff, HI, zmem_iff. change (2 ^ 32) with 4294967296. cbn [In].
    assert (HF : negb (f =? 0) = true /\ (f <? 4294967296) = true <-> 1 <= f < 4294967296) by lia.
    assert (HA : (1 = a \/ 2 = a \/ 3 = a \/ 4 = a \/ 5 = a \/ 6 = a \/ False)%Z <-> (1 <= a <= 6)%Z) by lia. rewrite HA. tauto.
  - unfold validate_chan_pin. rewrite andb_true_iff, HI, orb_true_iff. unfold len.
    assert (H0 : (N.of_nat (length h) =? 0) = true <-> h = []) by (destruct h; cbn [length]; split; try congruence; lia).
    assert (H20 : (N.of_nat (length h) =? 20) = true <-> length h = 20%nat) by lia. rewrite H0, H20. tauto.
  - unfold validate_chan_moderate. rewrite !andb_true_iff, HI, zmem_iff. cbn [In].
    assert (H20 : (len h' =? 20) = true <-> length h' = 20%nat) by (unfold len; lia).
    assert (HA : (1 = a' \/ 2 = a' \/ False)%Z <-> (1 <= a' <= 2)%Z) by lia. rewrite H20, HA. tauto.
Qed.

(** A lend is at most ten minutes old, of a known unit type, of at most 5000 units — once the clock is past the first ten
    minutes; before, the subtraction wraps around and every ordinary timestamp is refused. *)
Theorem C66_lend_iff ts time units t : time < 2 ^ 32 -> 600 <= time ->
  lend_fresh ts time && validate_lend units t = true <-> time <= ts + 600 /\ (0 <= t <= 2)%Z /\ units <= 5000.
Proof.
  intros H32 H. unfold lend_fresh, validate_lend, decr_by. rewrite !andb_true_iff, zmem_iff. cbn [In].
  replace (2 ^ 64 + time - 600) with (time - 600 + 1 * 2 ^ 64) by lia. rewrite N.mod_add by lia.
  rewrite (N.mod_small (time - 600)) by (eapply N.le_lt_trans; [apply N.le_sub_l|]; eapply N.lt_trans; [exact H32|]; reflexivity).
  rewrite N.mod_small by lia. lia.
Qed.

Theorem C66_lend_at_start ts time units t : time < 600 -> ts < 2 ^ 32 - 600 -> lend_fresh ts time && validate_lend units t = false.
Proof.
  intros H Hts. unfold lend_fresh, decr_by. replace ((2 ^ 64 + time - 600) mod 2 ^ 64) with (2 ^ 64 + time - 600) by (symmetry; apply N.mod_small; lia).
  replace (2 ^ 64 + time - 600) with (2 ^ 32 + time - 600 + (2 ^ 32 - 1) * 2 ^ 32) by lia. rewrite N.mod_add by lia. rewrite N.mod_small by lia.
  assert (HL : (ts <? 2 ^ 32 + time - 600) = true) by lia. rewrite HL. reflexivity.
Qed.

Theorem C66_frame_iff f : validate_frame f = true <->
  fa_button f <= 5 /\ 1 <= len (fa_url f) <= 1024 /\ len (fa_input f) <= 256 /\ len (fa_state f) <= 4096 /\ len (fa_tx f) <= 256 /\
  len (fa_address f) <= 64 /\ (forall c, fa_cast f = Some c -> ci_fid c <> 0 /\ length (ci_hash c) = 20%nat).
Proof.
  assert (HC : match fa_cast f with Some c => valid_cast_id c | None => true end = true <->
    (forall c, fa_cast f = Some c -> ci_fid c <> 0 /\ length (ci_hash c) = 20%nat)).
  { destruct (fa_cast f) as [c|]; [rewrite valid_cast_id_iff; split; [intros H x [= <-]; exact H|auto]|split; [discriminate|reflexivity]]. }
  unfold validate_frame. rewrite andb_true_iff, HC. generalize (len (fa_url f)) (len (fa_input f)) (len (fa_state f)) (len (fa_tx f)) (len (fa_address f)).
  intros n1 n2 n3 n4 n5.
  assert (HR : (fa_button f <=? 5) && negb (n1 =? 0) && (n1 <=? 1024) && (n2 <=? 256) && (n3 <=? 4096) && (n4 <=? 256) && (n5 <=? 64) = true <->
    fa_button f <= 5 /\ 1 <= n1 <= 1024 /\ n2 <= 256 /\ n3 <= 4096 /\ n4 <= 256 /\ n5 <= 64) by lia.
  rewrite HR. tauto.
Qed.

Theorem C66_reaction_iff t r : validate_reaction t r = true <-> (0 <= t <= 2)%Z /\ exists x, r = Some x /\ ref_ok x.
Proof.
  unfold validate_reaction. rewrite andb_true_iff, zmem_iff. cbn [In].
  assert (HA : (0 = t \/ 1 = t \/ 2 = t \/ False)%Z <-> (0 <= t <= 2)%Z) by lia. rewrite HA. destruct r as [x|].
  - rewrite valid_ref_iff. split; [intros [H1 H2]; eauto|intros [H1 (y & [= ->] & H2)]; auto].
  - split; [intros [_ H]; discriminate|intros [_ (y & H & _)]; discriminate].
Qed.

(** The whole of validation in one statement: the rule each body has to obey, and what is asked of every message. *)
Definition body_rule (E : env) (d : data) (pro : bool) (time : N) (v : version) : Prop :=
  match d_body d with
  | None => True
  | Some (VUserData t s) => field_rule E t s pro v
  | Some (VUsernameProof p) => np_type p = 2%Z /\ (5 <= v -> exists l, label l /\ np_name p = l ++ [46; 101; 116; 104]) \/
      np_type p = 3%Z /\ 5 <= v /\ exists l, label l /\ np_name p = l ++ [46; 98; 97; 115; 101; 46; 101; 116; 104]
  | Some (VVerifAdd b) => validate_verif_add E b (d_fid d) (d_network d) = true
  | Some (VLinkCompact t fs) => (1 <= length t <= 8)%nat /\ fs <> [] /\ Forall (fun f => f <> 0) fs
  | Some (VCastAdd c) => cast_limits c (d_ts d <? 73612800) pro v
  | Some (VCastRemove h) => length h = 20%nat
  | Some (VReaction t r) => (0 <= t <= 2)%Z /\ exists x, r = Some x /\ ref_ok x
  | Some (VLink t _ f) => (1 <= length t <= 8)%nat /\ exists g, f = Some g /\ g <> 0
  | Some (VVerifRemove a p) => p = 0%Z /\ length a = 20%nat \/ p = 1%Z /\ length a = 32%nat
  | Some (VFrame f) =>
      fa_button f <= 5 /\ 1 <= len (fa_url f) <= 1024 /\ len (fa_input f) <= 256 /\ len (fa_state f) <= 4096 /\ len (fa_tx f) <= 256 /\
      len (fa_address f) <= 64 /\ (forall c, fa_cast f = Some c -> ci_fid c <> 0 /\ length (ci_hash c) = 20%nat)
  | Some (VLend _ u t) => time <= d_ts d + 600 /\ (0 <= t <= 2)%Z /\ u <= 5000
  | Some (VKeyAdd k) =>
      length (ka_key k) = 32%nat /\ ka_key_type k = 1 /\ ka_deadline k <> 0 /\ 1 <= ka_ttl k <= 7776000 /\ ka_metadata_type k = 1 /\
      ka_metadata k <> [] /\ (1 <= length (ka_scopes k) <= 16)%nat /\ Forall (fun z => 1 <= z <= 8 \/ 11 <= z <= 15)%Z (ka_scopes k)
  | Some (VKeyRemove k) => length (kr_key k) = 32%nat /\ 1 <= kr_sig_type k <= 2 /\ kr_deadline k <> 0
  | Some (VChanUpdate i c m) =>
      21 <= v /\ length i = 32%nat /\ (forall z, c = Some z -> 0 <= z <= 3)%Z /\ (forall z, m = Some z -> 0 <= z <= 2)%Z
  | Some (VChanMember i f a) => 21 <= v /\ length i = 32%nat /\ 1 <= f < 4294967296 /\ (1 <= a <= 6)%Z
  | Some (VChanPin i h) => 21 <= v /\ length i = 32%nat /\ (h = [] \/ length h = 20%nat)
  | Some (VChanModerate i h a) => 21 <= v /\ length i = 32%nat /\ length h = 20%nat /\ (1 <= a <= 2)%Z
  end.

Theorem C66_body_iff E d pro time v : 600 <= time < 2 ^ 32 -> validate_body E d pro time v = true <-> body_rule E d pro time v.
Proof.
  intros [H600 H32]. unfold validate_body, body_rule. destruct (d_body d) as [[]|]; cbn [is_enabled]; rewrite ?andb_true_iff, ?N.leb_le.
  all: first [apply C65_fields_iff|apply C65_proof_iff|apply C51_link_compact_iff|apply C51_cast_iff|apply C66_reaction_iff|apply C51_link_iff|
    apply C64_remove_iff|apply C66_frame_iff|apply C66_key_add_iff|apply C66_key_remove_iff|(unfold validate_cast_remove, len; lia)|
    (rewrite <- andb_true_iff; apply C66_lend_iff; assumption)|rewrite (proj1 (C66_channel_iff _ _ _ 0 0%Z [] [] 0%Z)); reflexivity|
    rewrite (proj1 (proj2 (C66_channel_iff _ None None _ _ [] [] 0%Z))); reflexivity|
    rewrite (proj1 (proj2 (proj2 (C66_channel_iff _ None None 0 0%Z _ [] 0%Z)))); reflexivity|
    rewrite (proj2 (proj2 (proj2 (C66_channel_iff _ None None 0 0%Z [] _ _)))); reflexivity|reflexivity|(split; auto)].
Qed.

Theorem C66_message_iff E m cur pro time v : 600 <= time < 2 ^ 32 -> validate_message E m cur pro time v = true <->
  exists b d, signed_content E m = Some (b, d) /\ size_limit (d_type d) pro v (len b) /\
    ((1 <= d_network d <= 3)%Z /\ (cur = Mainnet -> d_network d = 1%Z)) /\
    (g_hash_scheme m = 1%Z /\ b <> [] /\ e_blake3 E b = g_hash m) /\
    (g_signature_scheme m = 1%Z /\ g_signature m <> [] /\ e_ed25519 E (g_signer m) (g_hash m) (g_signature m) = true) /\
    (6 <= v -> d_ts d <= time + 600) /\ body_rule E d pro time v.
Proof.
  intros Ht. rewrite validate_message_iff.
  assert (HL : forall l : bytes, negb (len l =? 0) = true <-> l <> []) by (intros [|x l]; unfold len; cbn [length]; split; try congruence; lia).
  assert (HN : forall z, network_ok cur z = true <-> (1 <= z <= 3)%Z /\ (cur = Mainnet -> z = 1%Z)).
  { intros z. unfold network_ok. rewrite andb_true_iff, zmem_iff. cbn [In]. destruct cur; (split; [intros [H1 H2]; split; [lia|intros Hc; try discriminate; lia]|]).
    all: intros [H1 H2]; split; [lia|]. all: try reflexivity. rewrite H2 by reflexivity. reflexivity. }
  assert (HH : forall b, hash_ok E m b = true <-> g_hash_scheme m = 1%Z /\ b <> [] /\ e_blake3 E b = g_hash m).
  { intros b. unfold hash_ok. rewrite !andb_true_iff, HL, Z.eqb_eq, bool_decide_eq_true. tauto. }
  assert (HS : signature_ok E m = true <-> g_signature_scheme m = 1%Z /\ g_signature m <> [] /\ e_ed25519 E (g_signer m) (g_hash m) (g_signature m) = true).
  { unfold signature_ok. rewrite !andb_true_iff, HL, Z.eqb_eq. tauto. }
  split; intros (b & d & H1 & H2 & H3 & H4 & H5 & H6 & H7); exists b, d; (split; [exact H1|]; split; [exact H2|]);
    apply HN in H3; apply HH in H4; apply HS in H5; apply (C66_body_iff E d pro time v Ht) in H7; auto.
Qed.

(** ** Examples and refutations *)

From Coq Require Import String Ascii.
#[local] Open Scope N_scope.
Definition str (s : string) : bytes := map N_of_ascii (list_ascii_of_string s).

(** A toy environment: cast removes, link adds, username proofs and casts of plain text can be encoded. *)
Definition toy_encode (d : data) : bytes :=
  [Z.to_N (d_type d); d_fid d; d_ts d; Z.to_N (d_network d)] ++
  match d_body d with
  | Some (VCastRemove h) => 1 :: h
  | Some (VCastAdd c) => 2 :: ca_text c
  | Some (VUsernameProof p) => 3 :: np_name p
  | Some _ => [4]
  | None => []
  end.
Definition toy_decode (b : bytes) : option data :=
  match b with
  | t :: f :: s :: n :: r =>
      let mk := fun b => Some (Data (Z.of_N t) f s (Z.of_N n) b) in
      match r with
      | [] => mk None
      | 1 :: h => mk (Some (VCastRemove h))
      | 2 :: x => mk (Some (VCastAdd (CastAdd [] [] None x [] [] 0)))
      | 3 :: x => mk (Some (VUsernameProof (NameProof s x [] [] f 2)))
      | _ => None
      end
  | _ => None
  end.
Definition toy : env := {|
  e_decode := toy_decode; e_encode := toy_encode; e_blake3 := fun b => take 20 (b ++ repeat 0 20);
  e_ed25519 := fun k h s => bool_decide (s = k ++ h);
  e_eoa := fun fid a _ _ s => bool_decide (s = repeat fid 65); e_sol := fun _ _ _ _ _ => false; e_keccak := fun _ => repeat 0 32;
  e_base58 := fun s => if len s <=? 44 then Some (repeat 7 32) else None;
  e_nd := fun c => bool_decide (c = [217; 160]) |}.

Definition toy_sign (d : data) (with_bytes : bool) : message :=
  let b := toy_encode d in let h := e_blake3 toy b in
  Message (Some d) h 1 ([9] ++ h) 1 [9] (if with_bytes then Some b else None).

(** Account 5 lists key [9] for everything, account 6 too; account 7 does not. *)
Definition toy_view : view := {|
  w_pro := fun _ => false; w_custody := fun f => f <? 100;
  w_key := fun f k => if (f <? 7) && bool_decide (k = [9]) then Some (fun _ => true) else None;
  w_owned := fun _ _ => true; w_ttl := fun _ _ _ => true |}.

Definition cast_ex : cast_add :=
  CastAdd [] [3; 4] (Some (RUrl (str "https://x.yz"))) (str "hello") [0; 5] [Some (RCast (CastId 8 (repeat 1 20))); Some (RUrl (str "a"))] 0.
Example C51_cast_ex :
  validate_cast_add cast_ex false false 5 = true /\ cast_limits cast_ex false false 5 /\
  validate_cast_add (CastAdd [] [] None (repeat 97 320) [] [] 0) false false 0 = true /\
  validate_cast_add (CastAdd [] [] None (repeat 97 321) [] [] 0) false false 0 = false /\
  validate_cast_add (CastAdd [] [] None (repeat 97 321) [] [] 1) false false 0 = true /\
  validate_cast_add (CastAdd [] [3; 4] None (str "hello") [5; 0] [] 0) false false 0 = false /\
  validate_cast_add (CastAdd [] [3] None (str "hello") [6] [] 0) false false 0 = false /\
  validate_cast_add (CastAdd [] [] None [] [] (repeat (Some (RUrl [97])) 4) 0) false false 19 = false /\
  validate_cast_add (CastAdd [] [] None [] [] (repeat (Some (RUrl [97])) 4) 0) false false 20 = true /\
  validate_cast_add (CastAdd [] [] None [] [] (repeat (Some (RUrl [97])) 4) 0) false true 19 = true /\
  validate_cast_add (CastAdd [[97]] [] None [] [] [] 0) true false 0 = true /\
  validate_cast_add (CastAdd [[97]] [] None [] [] [] 0) false false 0 = false.
Proof. split; [reflexivity|]. split; [apply C51_cast_iff; reflexivity|]. vm_compute. repeat split. Qed.

Example C51_link_ex :
  validate_link (str "follow") (Some 3) = true /\ validate_link (str "following") (Some 3) = false /\ validate_link (str "follow") (Some 0) = false /\
  validate_link_compact (str "follow") [3; 3; 4] = true /\ validate_link_compact (str "follow") [] = false.
Proof. vm_compute. repeat split. Qed.

(** Whole messages: accepted at one version, rejected at a later one. *)
Theorem C51_monotone_refuted : exists E m m' cur pro ts,
  (validate_message E m cur pro ts 4 = true /\ validate_message E m cur pro ts 5 = false) /\
  (validate_message E m' cur pro ts 5 = true /\ validate_message E m' cur pro ts 6 = false).
Proof.
  exists toy, (toy_sign (Data 12 5 1000 1 (Some (VUsernameProof (NameProof 1000 (str "Not.A.Name") [] [] 5 2)))) true),
    (toy_sign (Data 1 5 2000 1 (Some (VCastAdd (CastAdd [] [] None (str "hi") [] [] 0)))) true), Mainnet, false, 1000.
  vm_compute. repeat split.
Qed.

Example C51_later_ex :
  let m := toy_sign (Data 1 5 1600 1 (Some (VCastAdd (CastAdd [] [] None (str "hi") [] [] 0)))) false in
  validate_message toy m Mainnet false 1000 5 = true /\ validate_message toy m Mainnet false 1000 21 = true /\
  validate_message toy m Mainnet true 1000 21 = true /\ signed_content toy m <> None.
Proof. vm_compute. repeat split. discriminate. Qed.

(** An admitted message whose merged content has another account, type, time and body than the signed one, and a body and a
    time that validation would never accept; the stored row reads back as the signed content. *)
Definition signed_ex : data := Data 2 5 1000 1 (Some (VCastRemove (repeat 3 20))).
Definition forged_ex : data := Data 1 6 4000000000 3 (Some (VCastAdd (CastAdd [] [0; 0] None [] [] [] 77))).
Theorem C48_refuted : exists E W cur ts v m b d d',
  admit E W cur ts v m = true /\ g_data_bytes m = Some b /\ signed_content E m = Some (b, d) /\ merged m = Some d' /\
  d_fid d <> d_fid d' /\ d_type d <> d_type d' /\ d_ts d <> d_ts d' /\ d_body d <> d_body d' /\
  validate_body E d' (w_pro W (d_fid d')) ts v = false /\ validate_timestamp (d_ts d') ts v = false /\ network_ok cur (d_network d') = false /\
  g_data (read_back E m) = Some d.
Proof.
  exists toy, toy_view, Mainnet, 1000, 21, (set_data (toy_sign signed_ex true) (Some forged_ex)), (toy_encode signed_ex), signed_ex, forged_ex.
  vm_compute. repeat split; discriminate.
Qed.

(** The conditions of the forgery are met by the same message. *)
Example C48_forgery_ex :
  admit toy toy_view Mainnet 1000 21 (toy_sign signed_ex true) = true /\ may_pose toy_view 21 [9] forged_ex /\
  admit toy toy_view Mainnet 1000 21 (message_bytes_decode toy (set_data (toy_sign signed_ex true) (Some forged_ex))) = true /\
  merged (message_bytes_decode toy (set_data (toy_sign signed_ex true) (Some forged_ex))) = Some signed_ex /\
  admit toy toy_view Mainnet 1000 21 (toy_sign signed_ex false) = true /\ toy_decode (toy_encode signed_ex) = Some signed_ex /\
  len (toy_encode signed_ex) <> 0 /\ may_pose toy_view 21 [9] signed_ex.
Proof.
  split; [vm_compute; reflexivity|]. split.
  { split; [reflexivity|]. split; [exists (fun _ => true); split; reflexivity|]. repeat split. left. reflexivity. }
  do 5 (split; [vm_compute; first [reflexivity|discriminate]|]).
  split; [reflexivity|]. split; [exists (fun _ => true); split; reflexivity|]. repeat split. right. left. reflexivity.
Qed.

(** A message typed as a cast that holds a cast remove is admitted, and so is one that holds nothing. *)
Theorem C63_refuted : exists E W cur ts v m m' h,
  admit E W cur ts v m = true /\ g_data m = Some (Data 1 5 1000 1 (Some (VCastRemove h))) /\
  admit E W cur ts v m' = true /\ g_data m' = Some (Data 1 5 1000 1 None).
Proof.
  exists toy, toy_view, Mainnet, 1000, 21, (toy_sign (Data 1 5 1000 1 (Some (VCastRemove (repeat 3 20)))) false), (toy_sign (Data 1 5 1000 1 None) false), (repeat 3 20).
  vm_compute. repeat split.
Qed.
Example C63_retype_ex :
  let m := toy_sign signed_ex false in let m' := toy_sign (Data 1 5 1000 1 (d_body signed_ex)) true in
  signed_content toy m = Some (toy_encode signed_ex, signed_ex) /\
  signed_content toy m' = Some (toy_encode (Data 1 5 1000 1 (d_body signed_ex)), Data 1 5 1000 1 (d_body signed_ex)) /\
  hash_ok toy m' (toy_encode (Data 1 5 1000 1 (d_body signed_ex))) = true /\ signature_ok toy m' = true /\
  validate_message toy m Mainnet false 1000 21 = true /\ validate_message toy m' Mainnet false 1000 21 = true.
Proof. vm_compute. repeat split. Qed.

(** The same address claimed by two accounts, with no signature at all. *)
Theorem C64_refuted : exists E a w, va_address w = a /\ va_signature w = [] /\
  (forall fid net sig, e_eoa E fid a net (va_block_hash w) sig = true -> fid = 5) /\
  validate_verif_add E w 6 1 = true /\ validate_verif_add E w 7 1 = true.
Proof.
  exists (Env toy_decode toy_encode (e_blake3 toy) (e_ed25519 toy) (fun fid _ _ _ _ => fid =? 5) (e_sol toy) (e_keccak toy) (e_base58 toy) (e_nd toy)),
    (repeat 1 20), (VerifAdd (repeat 1 20) [] (repeat 2 32) 1 10 0).
  split; [reflexivity|]. split; [reflexivity|]. split; [intros fid net sig H; apply N.eqb_eq, H|]. vm_compute. repeat split.
Qed.
Example C64_signed_ex :
  validate_verif_add toy (VerifAdd (repeat 1 20) (repeat 5 65) (repeat 2 32) 0 1 0) 5 1 = true /\
  validate_verif_add toy (VerifAdd (repeat 1 20) (repeat 5 65) (repeat 2 32) 0 1 0) 6 1 = false /\
  validate_verif_add toy (VerifAdd (repeat 1 20) (repeat 5 65) (repeat 2 32) 0 65537 0) 5 1 = true /\
  validate_verif_add toy (VerifAdd (repeat 1 20) [] (repeat 2 32) 1 (420 + 65536 * 3) 0) 5 1 = true.
Proof. vm_compute. repeat split. Qed.

Example C65_names_ex :
  map validate_username_value [[]; str "alice"; str "alice.eth"; str "a-b.base.eth"; str "0123456789abcdef"; str "0123456789abcdef.eth"] = repeat true 6 /\
  map validate_username_value [str "-a"; str "Alice"; str ".eth"; str "a.b.eth"; str "a.eth.eth"; str "base.eth."; str "0123456789abcdefg"; str "x.base.base.eth"; [217; 160]] = repeat false 9 /\
  validate_username_value (str "base.eth") = true /\
  map validate_twitter [[]; str "a_b9"; str "0123456789abcde"] = repeat true 3 /\ map validate_twitter [str "A"; str "0123456789abcdef"] = repeat false 2 /\
  map (validate_github toy) [str "a"; str "A-b-9"; str "a-"; [217; 160]; repeat 97 38] = repeat true 5 /\
  map (validate_github toy) [[]; str "-a"; str "a--b"; repeat 97 39; str "a_b"; [217; 161]] = repeat false 6 /\
  map validate_location [[]; str "geo:12.34,-123.45"; str "geo:90.00,180.00"; str "geo:-0.00,5.00"] = repeat true 4 /\
  map validate_location [str "geo:90.01,0.00"; str "geo:1.2,3.45"; str "geo:1.23,3.45,"; str "geo:1.23,-180.01"; str "1.23,3.45"] = repeat false 5 /\
  map validate_caip19 [[]; str "eip155:1/erc20:0x6b17"; str "eip155:1/erc721:0xAb/771769"] = repeat true 3 /\
  map validate_caip19 [str "eip155:1"; str "eip155:1/ab:0x"; str "EIP155:1/erc20:0x6b"; str "eip155:1/erc721:0xAb/7/7"; str "eip155:1/erc721:0xAb/"] = repeat false 5.
Proof. vm_compute. repeat split. Qed.

Example C65_unicode_ex : e_nd toy [217; 160] = true /\ 192 <= 217 /\ continuation 160 = true.
Proof. vm_compute. repeat split. discriminate. Qed.

Example C65_fields_ex :
  validate_user_data toy 14 (str "x") false 17 = true /\ validate_user_data toy 14 (str "x") false 16 = false /\
  validate_user_data toy 10 (str "x") false 21 = false /\ validate_user_data toy 10 (str "x") true 0 = true /\
  validate_user_data toy 4 [] true 21 = false /\ validate_user_data toy 0 [] true 21 = false /\
  validate_user_data toy 12 (str "abc") false 5 = true /\ validate_user_data toy 2 (repeat 97 33) false 5 = false /\
  validate_user_data toy 11 (to_checksum (e_keccak toy) (repeat 171 20)) false 5 = true /\
  validate_name_proof (NameProof 0 (str "x.eth") [] [] 1 2) 5 = true /\ validate_name_proof (NameProof 0 (str "x.base.eth") [] [] 1 3) 4 = false.
Proof. vm_compute. repeat split. Qed.

Example C66_ex :
  validate_key_add (KeyAdd (repeat 1 32) 1 [] 5 0 [1] 1 [1; 15]%Z 7776000) = true /\
  validate_key_add (KeyAdd (repeat 1 32) 1 [] 5 0 [1] 1 [16]%Z 60) = false /\
  validate_key_remove (KeyRemove (repeat 1 32) [] 2 5 0) = true /\
  validate_chan_update (repeat 1 32) (Some 3%Z) None = true /\ validate_chan_member (repeat 1 32) 7 6 = true /\
  validate_chan_pin (repeat 1 32) [] = true /\ validate_chan_moderate (repeat 1 32) (repeat 2 20) 2 = true /\
  lend_fresh 1000 1600 && validate_lend 5000 2 = true /\ lend_fresh 999 1600 && validate_lend 5000 2 = false /\ lend_fresh 500 500 = false /\
  validate_frame (Frame (str "x") 5 None [] [] [] []) = true /\ validate_reaction 0 (Some (RUrl (str "x"))) = true.
Proof. vm_compute. repeat split. Qed.

Print Assumptions C48_forgery.
Print Assumptions C48_refuted.
Print Assumptions C51_later_version.
Print Assumptions C64_contract_unchecked.
Print Assumptions C65_username_iff.
Print Assumptions C65_github_ascii.
Print Assumptions C66_channel_iff.
Print Assumptions C66_message_iff.
