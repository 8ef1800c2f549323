(** C114-C116: messages and events as JSON, text parameters, statuses of the HTTP front (src/network/http_server.rs). *)
From Coq Require Import Lia ZifyN ZifyNat ZifyBool.
From stdpp Require Import strings list.
From Verif Require Import Base Codec Version ChannelUri ChannelUriProofs Validate ValidateProofs Http HttpProofs PropValidate.
From Verif Require Auth AuthProofs.
#[local] Open Scope N_scope.

(** ** C114: what can be shown, and what a page shows *)

(** Independent of the mapping: the messages that have a JSON form. *)
Definition between (a b z : Z) : Prop := (a <= z <= b)%Z.
Definition body_showable (b : body) : Prop :=
  match b with
  | VCastAdd c => between 0 2 (ca_type c)
  | VReaction t _ => between 0 2 t
  | VVerifAdd v => va_protocol v = 0%Z \/ va_protocol v = 1%Z
  | VVerifRemove _ p => p = 0%Z \/ p = 1%Z
  | VUserData t _ => between 0 14 t /\ t <> 4%Z
  | VLink _ _ target => target <> None
  | VUsernameProof p => between 0 3 (np_type p) /\ exists ps, Forall scalar ps /\ np_name p = concat (map utf8_char ps)
  | VChanUpdate _ c m => (forall z, c = Some z -> between 0 3 z) /\ (forall z, m = Some z -> between 0 2 z)
  | VChanMember _ _ a => between 0 6 a
  | VChanModerate _ _ a => between 0 2 a
  | VCastRemove _ | VFrame _ | VLinkCompact _ _ | VLend _ _ _ | VKeyAdd _ | VKeyRemove _ | VChanPin _ _ => True
  end.
Definition known_message_type (t : Z) : Prop := between 0 21 t /\ t <> 9%Z /\ t <> 10%Z.
Definition showable (m : message) : Prop :=
  exists d b, g_data m = Some d /\ d_body d = Some b /\ body_showable b /\
    known_message_type (d_type d) /\ between 0 3 (d_network d) /\ between 0 1 (g_hash_scheme m) /\ between 0 2 (g_signature_scheme m).

Lemma in_range l a b z : (forall x, In x l <-> between a b x) -> In z l <-> between a b z.
Proof. intros H. apply H. Qed.
Ltac ranges := cbn [In]; unfold between; lia.

Lemma proof_some p j : show_proof p = Some j <->
  j = JProof (np_ts p) (np_name p) (hex0x (np_owner p)) (np_sig p) (np_fid p) (np_type p) /\ In (np_type p) NAME_TYPES /\ utf8 (np_name p) = true.
Proof.
  unfold show_proof. destruct (enum NAME_TYPES (np_type p)) as [t|] eqn:E.
  - apply enum_some in E as [-> H]. cbn [mbind option_bind]. destruct (utf8 (np_name p)).
    + split; [intros [= <-]; tauto|intros [-> _]; reflexivity].
    + split; [discriminate|intros (_ & _ & [=])].
  - split; [discriminate|]. intros (_ & H & _). assert (X : enum NAME_TYPES (np_type p) = Some (np_type p)) by (apply enum_some; tauto). congruence.
Qed.

Lemma body_shown_iff b58 b : (exists j, show_body b58 b = Some j) <-> body_showable b.
Proof.
  assert (EN : forall A l z (k : Z -> A), (exists j, (x ← enum l z; Some (k x)) = Some j) <-> In z l).
  { intros A l z k. destruct (enum l z) as [x|] eqn:E; cbn [mbind option_bind].
    - apply enum_some in E as [_ H]. split; [intros _; exact H|intros _; eexists; reflexivity].
    - split; [intros (j & [=])|]. intros H. assert (X : enum l z = Some z) by (apply enum_some; tauto). congruence. }
  destruct b; cbn [show_body body_showable]; try (split; [tauto|eexists; reflexivity]).
  - rewrite (EN _ CAST_TYPES). unfold CAST_TYPES. ranges.
  - rewrite (EN _ REACTION_TYPES). unfold REACTION_TYPES. ranges.
  - rewrite (EN _ PROTOCOLS). unfold PROTOCOLS. ranges.
  - rewrite (EN _ PROTOCOLS). unfold PROTOCOLS. ranges.
  - rewrite (EN _ USER_DATA_TYPES). unfold USER_DATA_TYPES. ranges.
  - destruct target as [f|]; cbn [mbind option_bind]; [split; [discriminate|eexists; reflexivity]|split; [intros (j & [=])|congruence]].
  - rewrite <- utf8_iff. destruct (show_proof p) as [j|] eqn:E; cbn [mbind option_bind].
    + apply proof_some in E as (_ & H1 & H2). split; [intros _; split; [revert H1; unfold NAME_TYPES; ranges|exact H2]|eexists; reflexivity].
    + split; [intros (j & [=])|]. intros [H1 H2]. exfalso.
      assert (X : show_proof p = Some (JProof (np_ts p) (np_name p) (hex0x (np_owner p)) (np_sig p) (np_fid p) (np_type p))).
      { apply proof_some. split; [reflexivity|]. split; [|exact H2]. revert H1. unfold NAME_TYPES. ranges. }
      congruence.
  - destruct (opt_enum CASTING_MODES casting) as [c|] eqn:E1; cbn [mbind option_bind].
    + apply opt_enum_some in E1 as [-> H1]. destruct (opt_enum MEMBERSHIP_MODES membership) as [m|] eqn:E2; cbn [mbind option_bind].
      * apply opt_enum_some in E2 as [-> H2]. split; [intros _|eexists; reflexivity].
        split; intros z Hz; [specialize (H1 z Hz); revert H1; unfold CASTING_MODES|specialize (H2 z Hz); revert H2; unfold MEMBERSHIP_MODES]; ranges.
      * split; [intros (j & [=])|]. intros [_ H2]. exfalso. assert (X : opt_enum MEMBERSHIP_MODES membership = Some membership).
        { apply opt_enum_some. split; [reflexivity|]. intros z Hz. specialize (H2 z Hz). revert H2. unfold MEMBERSHIP_MODES. ranges. }
        congruence.
    + split; [intros (j & [=])|]. intros [H1 _]. exfalso. assert (X : opt_enum CASTING_MODES casting = Some casting).
      { apply opt_enum_some. split; [reflexivity|]. intros z Hz. specialize (H1 z Hz). revert H1. unfold CASTING_MODES. ranges. }
      congruence.
  - rewrite (EN _ MEMBER_ACTIONS). unfold MEMBER_ACTIONS. ranges.
  - rewrite (EN _ MODERATE_ACTIONS). unfold MODERATE_ACTIONS. ranges.
Qed.

Lemma message_some b58 m j : show_message b58 m = Some j <->
  exists d b jb, g_data m = Some d /\ d_body d = Some b /\ show_body b58 b = Some jb /\
    In (d_type d) MESSAGE_TYPES /\ In (d_network d) NETWORKS /\ In (g_hash_scheme m) HASH_SCHEMES /\ In (g_signature_scheme m) SIGNATURE_SCHEMES /\
    j = JMessage (d_type d) (d_fid d) (d_ts d) (d_network d) jb (hex0x (g_hash m)) (g_hash_scheme m) (g_signature m) (g_signature_scheme m)
          (hex0x (g_signer m)).
Proof.
  unfold show_message. split.
  - destruct (g_data m) as [d|]; [|discriminate]. cbn [mbind option_bind]. destruct (d_body d) as [b|] eqn:Eb; [|discriminate]. cbn [mbind option_bind].
    destruct (show_body b58 b) as [jb|] eqn:Ej; [|discriminate]. cbn [mbind option_bind].
    destruct (enum MESSAGE_TYPES (d_type d)) as [t|] eqn:Et; [|discriminate]. cbn [mbind option_bind].
    destruct (enum NETWORKS (d_network d)) as [n|] eqn:En; [|discriminate]. cbn [mbind option_bind].
    destruct (enum HASH_SCHEMES (g_hash_scheme m)) as [hs|] eqn:Eh; [|discriminate]. cbn [mbind option_bind].
    destruct (enum SIGNATURE_SCHEMES (g_signature_scheme m)) as [ss|] eqn:Es; [|discriminate]. cbn [mbind option_bind].
    apply enum_some in Et as [-> Ht], En as [-> Hn], Eh as [-> Hh], Es as [-> Hs]. intros [= <-]. exists d, b, jb. tauto.
  - intros (d & b & jb & Hd & Hbo & Hb & Ht & Hn & Hh & Hs & ->). rewrite Hd. cbn [mbind option_bind]. rewrite Hbo. cbn [mbind option_bind].
    rewrite Hb. cbn [mbind option_bind].
    rewrite (proj2 (enum_some MESSAGE_TYPES (d_type d) _) (conj eq_refl Ht)). cbn [mbind option_bind].
    rewrite (proj2 (enum_some NETWORKS (d_network d) _) (conj eq_refl Hn)). cbn [mbind option_bind].
    rewrite (proj2 (enum_some HASH_SCHEMES (g_hash_scheme m) _) (conj eq_refl Hh)). cbn [mbind option_bind].
    rewrite (proj2 (enum_some SIGNATURE_SCHEMES (g_signature_scheme m) _) (conj eq_refl Hs)). reflexivity.
Qed.

(** Exactly these messages have a JSON form. *)
Theorem C114_shown_iff b58 m : (exists j, show_message b58 m = Some j) <-> showable m.
Proof.
  split.
  - intros (j & H). apply message_some in H as (d & b & jb & H1 & H2 & H3 & Ht & Hn & Hh & Hs & _). exists d, b.
    split; [exact H1|]. split; [exact H2|]. split; [apply (body_shown_iff b58); eexists; exact H3|].
    split; [unfold known_message_type; revert Ht; unfold MESSAGE_TYPES; ranges|]. split; [revert Hn; unfold NETWORKS; ranges|].
    split; [revert Hh; unfold HASH_SCHEMES; ranges|revert Hs; unfold SIGNATURE_SCHEMES; ranges].
  - intros (d & b & H1 & H2 & H3 & Ht & Hn & Hh & Hs). apply (body_shown_iff b58) in H3 as (jb & H3). eexists. apply message_some. exists d, b, jb.
    split; [exact H1|]. split; [exact H2|]. split; [exact H3|].
    split; [unfold known_message_type in Ht; revert Ht; unfold MESSAGE_TYPES; ranges|]. split; [revert Hn; unfold NETWORKS; ranges|].
    split; [revert Hh; unfold HASH_SCHEMES; ranges|]. split; [revert Hs; unfold SIGNATURE_SCHEMES; ranges|reflexivity].
Qed.

Lemma not_shown b58 m : ~ showable m -> show_message b58 m = None.
Proof. intros H. destruct (show_message b58 m) as [j|] eqn:E; [|reflexivity]. exfalso. apply H, (C114_shown_iff b58). eexists. exact E. Qed.

(** The JSON form keeps the message: two messages with the same form agree in everything but [data_bytes], unless base58 collides.
    Required of both: fields are bytes, every embed is set, the unit type and the scopes are known (validation asks for all of
    these but the first). *)
Definition cast_id_bytes (c : cast_id) : Prop := bytes_ok (ci_hash c) = true.
Definition ref_bytes (r : ref) : Prop := match r with RCast c => cast_id_bytes c | RUrl _ => True end.
Definition regular (b : body) : Prop :=
  match b with
  | VCastAdd c => Forall (fun e => exists r, e = Some r /\ ref_bytes r) (ca_embeds c) /\ (forall r, ca_parent c = Some r -> ref_bytes r)
  | VReaction _ r => forall x, r = Some x -> ref_bytes x
  | VVerifAdd v => bytes_ok (va_address v) = true /\ bytes_ok (va_block_hash v) = true
  | VVerifRemove a _ => bytes_ok a = true
  | VUsernameProof p => bytes_ok (np_owner p) = true
  | VFrame f => forall c, fa_cast f = Some c -> cast_id_bytes c
  | VLend _ _ t => between 0 2 t
  | VKeyAdd k => Forall (fun z => In z MESSAGE_TYPES) (ka_scopes k)
  | _ => True
  end.
Definition regular_message (m : message) : Prop :=
  bytes_ok (g_hash m) = true /\ bytes_ok (g_signer m) = true /\ forall d b, g_data m = Some d -> d_body d = Some b -> regular b.

Lemma show_cast_id_inj a b : cast_id_bytes a -> cast_id_bytes b -> show_cast_id a = show_cast_id b -> a = b.
Proof.
  destruct a as [f h], b as [f' h']. unfold cast_id_bytes, show_cast_id. cbn [ci_fid ci_hash]. intros Ha Hb H.
  injection H as Hf Hh. f_equal; [exact Hf|]. apply hex_inj; assumption.
Qed.
Lemma ref_inj r r' : (forall x, r = Some x -> ref_bytes x) -> (forall x, r' = Some x -> ref_bytes x) ->
  ref_cast r = ref_cast r' -> ref_url r = ref_url r' -> r = r'.
Proof.
  intros H H'. destruct r as [[u|c]|], r' as [[u'|c']|]; cbn [ref_cast ref_url]; intros E1 E2; try discriminate; try reflexivity.
  - congruence.
  - f_equal. f_equal. apply show_cast_id_inj; [exact (H _ eq_refl)|exact (H' _ eq_refl)|congruence].
Qed.
Lemma embeds_inj l : forall l', Forall (fun e => exists r, e = Some r /\ ref_bytes r) l -> Forall (fun e => exists r, e = Some r /\ ref_bytes r) l' ->
  map show_embed l = map show_embed l' -> l = l'.
Proof.
  induction l as [|e l IH]; intros [|e' l'] HF HF' H; try discriminate; [reflexivity|]. inversion HF as [|? ? (r & -> & Hr) HF1]; subst.
  inversion HF' as [|? ? (r' & -> & Hr') HF1']; subst. cbn [map] in H. injection H as He Hl. rewrite (IH l' HF1 HF1' Hl). f_equal.
  destruct r as [u|c], r' as [u'|c']; cbn [show_embed] in He; try discriminate; [congruence|]. injection He as He.
  cbn [ref_bytes] in Hr, Hr'. f_equal. f_equal. apply show_cast_id_inj; [exact Hr|exact Hr'|]. unfold show_cast_id, hex0x. congruence.
Qed.
Lemma filter_all {A} (f : A -> bool) l : Forall (fun x => f x = true) l -> List.filter f l = l.
Proof. induction 1 as [|x l Hx _ IH]; [reflexivity|]. cbn [List.filter]. rewrite Hx, IH. reflexivity. Qed.

Definition b58_collision (b58 : bytes -> bytes) : Prop := exists x y, x <> y /\ b58 x = b58 y.
Lemma addr_inj b58 p a a' : bytes_ok a = true -> bytes_ok a' = true -> addr_text b58 p a = addr_text b58 p a' -> a = a' \/ b58_collision b58.
Proof.
  unfold addr_text. intros Ha Ha' H. destruct (p =? 0)%Z; [left; apply hex0x_inj; assumption|].
  destruct (decide (a = a')) as [E|E]; [left; exact E|right; exists a, a'; tauto].
Qed.

Lemma enum_bind {A} l z (k : Z -> option A) j : (x ← enum l z; k x) = Some j -> k z = Some j.
Proof. destruct (enum l z) as [x|] eqn:E; [|discriminate]. apply enum_some in E as [-> _]. intros H. exact H. Qed.

Lemma body_same b58 b b' j : regular b -> regular b' -> show_body b58 b = Some j -> show_body b58 b' = Some j -> b = b' \/ b58_collision b58.
Proof.
  intros R R' H H'.
  destruct b; cbn [show_body] in H; try (apply enum_bind in H);
    repeat match type of H with
    | (_ ← opt_enum ?l ?o; _) = Some _ => destruct (opt_enum l o) as [?|] eqn:?; [|discriminate]; cbn [mbind option_bind] in H
    | (_ ← show_proof ?p; _) = Some _ => destruct (show_proof p) as [?|] eqn:?; [|discriminate]; cbn [mbind option_bind] in H
    | (_ ← ?t; _) = Some _ => destruct t as [?|] eqn:?; [|discriminate]; cbn [mbind option_bind] in H
    end;
    destruct b'; cbn [show_body] in H'; try (apply enum_bind in H');
    repeat match type of H' with
    | (_ ← opt_enum ?l ?o; _) = Some _ => destruct (opt_enum l o) as [?|] eqn:?; [|discriminate]; cbn [mbind option_bind] in H'
    | (_ ← show_proof ?p; _) = Some _ => destruct (show_proof p) as [?|] eqn:?; [|discriminate]; cbn [mbind option_bind] in H'
    | (_ ← ?t; _) = Some _ => destruct t as [?|] eqn:?; [|discriminate]; cbn [mbind option_bind] in H'
    end;
    rewrite <- H in H'; clear H; try discriminate H'.
  - left. cbn [regular] in R, R'. destruct R as [R1 R2], R' as [R1' R2']. destruct c as [c1 c2 c3 c4 c5 c6 c7], c0 as [d1 d2 d3 d4 d5 d6 d7].
    cbn [ca_embeds_deprecated ca_mentions ca_parent ca_text ca_positions ca_embeds ca_type] in *.
    assert (E1 : ref_cast d3 = ref_cast c3) by congruence. assert (E2 : ref_url d3 = ref_url c3) by congruence.
    assert (E3 : map show_embed d6 = map show_embed c6) by congruence.
    pose proof (ref_inj d3 c3 R2' R2 E1 E2). pose proof (embeds_inj d6 c6 R1' R1 E3). congruence.
  - left. congruence.
  - left. cbn [regular] in R, R'. assert (E1 : ref_cast target0 = ref_cast target) by congruence. assert (E2 : ref_url target0 = ref_url target) by congruence.
    pose proof (ref_inj target0 target R' R E1 E2). congruence.
  - cbn [regular] in R, R'. destruct v as [a1 a2 a3 a4 a5 a6], v0 as [e1 e2 e3 e4 e5 e6].
    cbn [va_address va_signature va_block_hash va_vtype va_chain va_protocol] in *. assert (Ep : e6 = a6) by congruence. subst e6.
    destruct R as [R1 R2], R' as [R1' R2'].
    assert (E1 : addr_text b58 a6 e1 = addr_text b58 a6 a1) by congruence. assert (E2 : addr_text b58 a6 e3 = addr_text b58 a6 a3) by congruence.
    destruct (addr_inj b58 a6 e1 a1 R1' R1 E1) as [F1|F1]; [|right; exact F1]. destruct (addr_inj b58 a6 e3 a3 R2' R2 E2) as [F2|F2]; [|right; exact F2].
    left. congruence.
  - cbn [regular] in R, R'. assert (Ep : protocol0 = protocol) by congruence. subst protocol0.
    assert (E1 : addr_text b58 protocol address0 = addr_text b58 protocol address) by congruence.
    destruct (addr_inj b58 protocol address0 address R' R E1) as [F1|F1]; [left; congruence|right; exact F1].
  - left. congruence.
  - left. congruence.
  - left. cbn [regular] in R, R'. match goal with A : show_proof p = Some _, B : show_proof p0 = Some _ |- _ => apply proof_some in A as (-> & _ & _), B as (-> & _ & _) end.
    destruct p as [a1 a2 a3 a4 a5 a6], p0 as [e1 e2 e3 e4 e5 e6]. cbn [np_ts np_name np_owner np_sig np_fid np_type] in *.
    assert (E1 : hex0x e3 = hex0x a3) by congruence. pose proof (hex0x_inj e3 a3 R' R E1). congruence.
  - left. cbn [regular] in R, R'. destruct f as [a1 a2 a3 a4 a5 a6 a7], f0 as [e1 e2 e3 e4 e5 e6 e7].
    cbn [fa_url fa_button fa_cast fa_input fa_state fa_tx fa_address] in *.
    assert (E1 : option_map show_cast_id e3 = option_map show_cast_id a3) by congruence.
    assert (E2 : e3 = a3).
    { destruct e3 as [x|], a3 as [y|]; cbn [option_map] in E1; try discriminate; [|reflexivity].
      f_equal. apply show_cast_id_inj; [exact (R' _ eq_refl)|exact (R _ eq_refl)|congruence]. }
    congruence.
  - left. congruence.
  - left. cbn [regular] in R, R'. unfold between in R, R'.
    assert (E1 : (if (unit_type0 =? 2)%Z then 2 else if (unit_type0 =? 1)%Z then 1 else 0)%Z = (if (unit_type =? 2)%Z then 2 else if (unit_type =? 1)%Z then 1 else 0)%Z) by congruence.
    assert (unit_type0 = unit_type); [|congruence]. clear - E1 R R'.
    destruct (unit_type0 =? 2)%Z eqn:A1, (unit_type =? 2)%Z eqn:A2; try destruct (unit_type0 =? 1)%Z eqn:A3; try destruct (unit_type =? 1)%Z eqn:A4; lia.
  - left. cbn [regular] in R, R'. destruct k as [a1 a2 a3 a4 a5 a6 a7 a8 a9], k0 as [e1 e2 e3 e4 e5 e6 e7 e8 e9].
    cbn [ka_key ka_key_type ka_custody_sig ka_deadline ka_nonce ka_metadata ka_metadata_type ka_scopes ka_ttl] in *.
    assert (K : forall l, Forall (fun z => In z MESSAGE_TYPES) l -> List.filter (fun z => zmem z MESSAGE_TYPES) l = l).
    { intros l Hl. apply filter_all. eapply Forall_impl; [exact Hl|]. intros z Hz. apply zmem_iff. exact Hz. }
    rewrite (K a8 R), (K e8 R') in H'. congruence.
  - left. destruct k as [a1 a2 a3 a4 a5], k0 as [e1 e2 e3 e4 e5]. cbn [kr_key kr_sig kr_sig_type kr_deadline kr_nonce] in *. congruence.
  - left. repeat match goal with A : opt_enum _ _ = Some _ |- _ => apply opt_enum_some in A as [-> _] end. congruence.
  - left. congruence.
  - left. congruence.
  - left. congruence.
Qed.

Theorem C114_same_json b58 m m' j : regular_message m -> regular_message m' -> show_message b58 m = Some j -> show_message b58 m' = Some j ->
  m' = set_data_bytes m (g_data_bytes m') \/ b58_collision b58.
Proof.
  intros (R1 & R2 & R3) (R1' & R2' & R3') H H'.
  apply message_some in H as (d & b & jb & Hd & Hb & Hj & _ & _ & _ & _ & ->).
  apply message_some in H' as (d' & b' & jb' & Hd' & Hb' & Hj' & _ & _ & _ & _ & E).
  assert (Ej : jb' = jb) by congruence. subst jb'.
  destruct (body_same b58 b b' jb (R3 _ _ Hd Hb) (R3' _ _ Hd' Hb') Hj Hj') as [Eb|C]; [left|right; exact C].
  assert (E1 : hex0x (g_hash m') = hex0x (g_hash m)) by congruence. assert (E2 : hex0x (g_signer m') = hex0x (g_signer m)) by congruence.
  pose proof (hex0x_inj _ _ R1' R1 E1) as F1. pose proof (hex0x_inj _ _ R2' R2 E2) as F2.
  assert (Ed : d' = d).
  { destruct d as [t f ts n bo], d' as [t' f' ts' n' bo']. cbn [d_type d_fid d_ts d_network d_body] in *. congruence. }
  destruct m as [x1 x2 x3 x4 x5 x6 x7], m' as [y1 y2 y3 y4 y5 y6 y7]. unfold set_data_bytes.
  cbn [g_data g_hash g_hash_scheme g_signature g_signature_scheme g_signer g_data_bytes] in *. congruence.
Qed.

(** What is lost: the signed bytes themselves. A client cannot check the hash of a message that was signed over [data_bytes]. *)
Theorem C114_signed_bytes_refuted b58 m x : show_message b58 (set_data_bytes m x) = show_message b58 m.
Proof. reflexivity. Qed.

(** Each value under its own name (fields of one type could be mixed up without two messages looking alike). *)
Theorem C114_fields b58 b j : show_body b58 b = Some j ->
  match j with
  | JKeyAdd key kt sig deadline nonce md mt scopes ttl =>
      exists k, b = VKeyAdd k /\ ka_key k = key /\ ka_key_type k = kt /\ ka_custody_sig k = sig /\ ka_deadline k = deadline /\ ka_nonce k = nonce /\
        ka_metadata k = md /\ ka_metadata_type k = mt /\ ka_ttl k = ttl /\ forall z, z ∈ scopes -> z ∈ ka_scopes k
  | JKeyRemove key sig st deadline nonce => b = VKeyRemove (KeyRemove key sig st deadline nonce)
  | JLend f u _ => exists ty, b = VLend f u ty
  | JFrame url button cast input state tx address =>
      exists f, b = VFrame f /\ fa_url f = url /\ fa_button f = button /\ fa_input f = input /\ fa_state f = state /\ fa_tx f = tx /\ fa_address f = address
  | JVerifAdd _ sig _ vt ch _ => exists v, b = VVerifAdd v /\ va_signature v = sig /\ va_vtype v = vt /\ va_chain v = ch
  | JCastAdd dep ms _ _ txt ps _ _ =>
      exists c, b = VCastAdd c /\ ca_embeds_deprecated c = dep /\ ca_mentions c = ms /\ ca_text c = txt /\ ca_positions c = ps
  | JUsernameProof p =>
      exists n, b = VUsernameProof n /\ np_ts n = jp_ts p /\ np_name n = jp_name p /\ np_sig n = jp_sig p /\ np_fid n = jp_fid p
  | JLink ty d f => b = VLink ty d (Some f)
  | JLinkCompact ty ts => b = VLinkCompact ty ts
  | JCastRemove h => b = VCastRemove h
  | JUserData _ v => exists ty, b = VUserData ty v
  | JChanUpdate id _ _ => exists c m, b = VChanUpdate id c m
  | JChanMember id f _ => exists a, b = VChanMember id f a
  | JChanPin id h => b = VChanPin id h
  | JChanModerate id h _ => exists a, b = VChanModerate id h a
  | _ => True
  end.
Proof.
  intros H. destruct b; cbn [show_body] in H; unfold show_proof, opt_enum in H; repeat (case_match || simplify_option_eq); eauto 12.
  all: try (destruct k; reflexivity).
  all: try match goal with H : @eq jbody _ _ |- _ => injection H; intros; subst end; eexists; (repeat split).
  all: intros z Hz; apply elem_of_list_In, filter_In in Hz as [Hz _]; apply elem_of_list_In; exact Hz.
Qed.
(** An embed that holds nothing is shown like one that holds the empty URL ([regular_message] has none). *)
Theorem C114_empty_embed_refuted e : show_embed None = show_embed e <-> e = None \/ e = Some (RUrl []).
Proof. destruct e as [[u|c]|]; cbn; split; intros H; try discriminate H; auto; [injection H as <-; auto|destruct H as [[=]|[= ->]]; reflexivity|destruct H; discriminate]. Qed.

(** A page shows all its messages in their order, or fails as a whole. *)
Theorem C114_page b58 ms next js tok :
  show_page b58 ms next = Done (js, tok) <-> Forall2 (fun m j => show_message b58 m = Some j) ms js /\ tok = token_show next.
Proof.
  unfold show_page. rewrite <- unwrap_all_done. destruct (unwrap_all (show_message b58) ms) as [ys| |]; cbn [obind].
  - split; [intros [= <- <-]; tauto|intros [[= ->] ->]; reflexivity].
  - split; [discriminate|intros [[=] _]].
  - split; [discriminate|intros [[=] _]].
Qed.

Theorem C114_page_fails_refuted b58 ms next : show_page b58 ms next = Panic <-> exists m, m ∈ ms /\ ~ showable m.
Proof.
  unfold show_page. transitivity (unwrap_all (show_message b58) ms = Panic).
  { destruct (unwrap_all (show_message b58) ms); cbn [obind]; [split; discriminate|split; discriminate|tauto]. }
  rewrite unwrap_all_panic, Exists_exists. split; intros (m & Hm & H); exists m; (split; [exact Hm|]).
  - intros Hs. apply (C114_shown_iff b58) in Hs as (j & Hj). congruence.
  - apply not_shown. exact H.
Qed.

(** Validated messages with a body and a known type are shown; so are pages of them. *)
Lemma fname_low l : fname_ok l -> Forall (fun c => c < 128) l.
Proof.
  intros (c & r & -> & _ & Hc & Hr). constructor; [lia|]. eapply Forall_impl; [exact Hr|]. cbn beta. intros x Hx. lia.
Qed.
Lemma valid_body_showable E d pro ts v b : d_body d = Some b -> validate_body E d pro ts v = true ->
  (forall p, b = VUsernameProof p -> is_enabled v EnsValidation = true) -> body_showable b.
Proof.
  intros Hb H He. unfold validate_body in H. rewrite Hb in H. destruct b; cbn [body_showable]; try exact I.
  - unfold validate_cast_add, valid_text in H. unfold between.
    destruct (ca_type c =? 0)%Z eqn:E0; [lia|]. destruct (ca_type c =? 1)%Z eqn:E1; [lia|]. destruct (ca_type c =? 2)%Z eqn:E2; [lia|]. discriminate H.
  - unfold validate_reaction in H. apply andb_true_iff in H as [H _]. apply zmem_iff in H. revert H. ranges.
  - unfold validate_verif_add in H. destruct (va_protocol v0 =? 0)%Z eqn:E0; [lia|]. destruct (va_protocol v0 =? 1)%Z eqn:E1; [lia|discriminate].
  - unfold validate_verif_remove in H. destruct (protocol =? 0)%Z eqn:E0; [lia|]. destruct (protocol =? 1)%Z eqn:E1; [lia|discriminate].
  - unfold validate_user_data in H. unfold between. destruct ty as [|ty|ty]; try discriminate H; try lia.
    all: try (destruct ty as [ty|ty|]; try discriminate H; try lia). all: try (destruct ty as [ty|ty|]; try discriminate H; try lia).
    all: try (destruct ty as [ty|ty|]; try discriminate H; try lia). all: try (destruct ty as [ty|ty|]; try discriminate H; try lia).
  - unfold validate_link in H. destruct target; [discriminate|]. rewrite andb_false_r in H. discriminate.
  - specialize (He p eq_refl). rewrite <- utf8_iff. unfold validate_name_proof in H. rewrite He in H. unfold between.
    destruct (np_type p =? 2)%Z eqn:E2.
    + split; [lia|]. apply validate_ens_iff in H as (l & Hl & ->). apply utf8_ascii, Forall_app. split; [apply fname_low; exact Hl|].
      unfold ETH. repeat constructor; lia.
    + destruct (np_type p =? 3)%Z eqn:E3; [|discriminate]. apply andb_true_iff in H as [_ H]. split; [lia|].
      apply validate_base_iff in H as (l & Hl & ->). apply utf8_ascii, Forall_app. split; [apply fname_low; exact Hl|].
      unfold BASE_ETH. repeat constructor; lia.
  - apply andb_true_iff in H as [_ H]. unfold validate_chan_update in H. apply andb_true_iff in H as [H H2]. apply andb_true_iff in H as [_ H1].
    split; intros z ->; cbn [opt_in] in *; [apply zmem_iff in H1; revert H1|apply zmem_iff in H2; revert H2]; ranges.
  - apply andb_true_iff in H as [_ H]. unfold validate_chan_member in H. apply andb_true_iff in H as [_ H]. apply zmem_iff in H. revert H. ranges.
  - apply andb_true_iff in H as [_ H]. unfold validate_chan_moderate in H. apply andb_true_iff in H as [_ H]. apply zmem_iff in H. revert H. ranges.
Qed.

Theorem C114_valid_shown E m d b cur pro ts v bs : validate_message E m cur pro ts v = true -> signed_content E m = Some (bs, d) ->
  g_data m = Some d -> d_body d = Some b -> known_message_type (d_type d) ->
  (forall p, b = VUsernameProof p -> is_enabled v EnsValidation = true) -> showable m.
Proof.
  intros H Hs Hd Hb Ht He. unfold validate_message in H. rewrite Hs in H.
  apply andb_true_iff in H as [H H6]. apply andb_true_iff in H as [H H5]. apply andb_true_iff in H as [H H4]. apply andb_true_iff in H as [H H3].
  apply andb_true_iff in H as [H1 H2]. exists d, b. split; [exact Hd|]. split; [exact Hb|].
  split; [exact (valid_body_showable E d pro ts v b Hb H6 He)|]. split; [exact Ht|].
  unfold network_ok in H2. apply andb_true_iff in H2 as [H2 _]. apply zmem_iff in H2. split; [revert H2; ranges|].
  unfold hash_ok in H3. apply andb_true_iff in H3 as [H3 _]. apply andb_true_iff in H3 as [H3 _].
  unfold signature_ok in H4. apply andb_true_iff in H4 as [H4 _]. apply andb_true_iff in H4 as [H4 _]. unfold between. lia.
Qed.

(** Not so without the body, which validation does not ask for; nor before names are validated. *)
Theorem C114_valid_not_shown_refuted E m d cur pro ts v bs : validate_message E m cur pro ts v = true -> signed_content E m = Some (bs, d) ->
  g_data m = Some d -> d_body d = None -> ~ showable m.
Proof. intros _ _ Hd Hb (d' & b & H1 & H2 & _). congruence. Qed.

(** Hub events. An event is shown if its type is known and everything it carries can be shown. *)
Definition proof_showable (p : name_proof) : Prop :=
  between 0 3 (np_type p) /\ exists ps, Forall scalar ps /\ np_name p = concat (map utf8_char ps).
Definition opt_all {A} (P : A -> Prop) (o : option A) : Prop := forall x, o = Some x -> P x.
Definition carries_showable (b : event_body) : Prop :=
  match b with
  | EMerge None _ => True
  | EMerge (Some m) del => showable m /\ Forall showable del
  | EPrune m | ERevoke m | EFailure m _ _ => opt_all showable m
  | EProof p dp pm dpm => opt_all proof_showable p /\ opt_all proof_showable dp /\ opt_all showable pm /\ opt_all showable dpm
  | EOther => True
  end.
Definition known_event_type (t : Z) : Prop := between 0 12 t /\ ~ between 4 5 t /\ ~ between 7 8 t.
Definition event_showable (e : event) : Prop := known_event_type (ev_type e) /\ opt_all carries_showable (ev_body e).

Lemma proof_shown_iff p : (exists j, show_proof p = Some j) <-> proof_showable p.
Proof.
  unfold proof_showable. rewrite <- utf8_iff. split.
  - intros (j & H). apply proof_some in H as (_ & H1 & H2). split; [revert H1; unfold NAME_TYPES; ranges|exact H2].
  - intros [H1 H2]. eexists. apply proof_some. split; [reflexivity|]. split; [revert H1; unfold NAME_TYPES; ranges|exact H2].
Qed.
Lemma unwrap_opt_spec {A B} (f : A -> option B) (P : A -> Prop) o : (forall x, (exists y, f x = Some y) <-> P x) ->
  (exists r, unwrap_opt f o = Done r) /\ opt_all P o \/ unwrap_opt f o = Panic /\ ~ opt_all P o.
Proof.
  intros H. destruct o as [x|]; cbn [unwrap_opt].
  - destruct (f x) as [y|] eqn:E.
    + left. split; [eexists; reflexivity|]. intros z [= <-]. apply H. eexists. exact E.
    + right. split; [reflexivity|]. intros Hx. destruct (proj2 (H x) (Hx x eq_refl)) as (y & Hy). congruence.
  - left. split; [eexists; reflexivity|]. intros z [=].
Qed.
Lemma event_body_spec b58 b : (exists r, show_event_body b58 b = Done r) /\ opt_all carries_showable b \/
  show_event_body b58 b = Panic /\ ~ opt_all carries_showable b.
Proof.
  destruct b as [b|]; [|left; split; [eexists; reflexivity|intros x [=]]].
  assert (SM : forall m, (exists j, show_message b58 m = Some j) <-> showable m) by apply C114_shown_iff.
  assert (OA : forall P : event_body -> Prop, opt_all P (Some b) <-> P b).
  { intros P. unfold opt_all. split; [intros H; exact (H b eq_refl)|intros H x [= <-]; exact H]. }
  rewrite OA. destruct b as [[m|] del|m|m|p dp pm dpm|m c r|]; cbn [show_event_body carries_showable].
  - destruct (show_message b58 m) as [j|] eqn:E.
    + assert (Hm : showable m) by (apply SM; eexists; exact E). destruct (unwrap_all (show_message b58) del) as [js| |] eqn:Ed; cbn [obind].
      * left. split; [eexists; reflexivity|]. split; [exact Hm|]. apply unwrap_all_done in Ed. apply Forall_forall. intros x Hx.
        apply elem_of_list_lookup in Hx as (i & Hx). destruct (Forall2_lookup_l _ _ _ _ _ Ed Hx) as (y & _ & Hy). apply SM. eexists. exact Hy.
      * exfalso. exact (unwrap_all_no_fault _ _ Ed).
      * right. split; [reflexivity|]. intros [_ HF]. apply unwrap_all_panic, Exists_exists in Ed as (x & Hx & Hn).
        rewrite Forall_forall in HF. destruct (proj2 (SM x) (HF x Hx)) as (y & Hy). congruence.
    + right. split; [reflexivity|]. intros [Hm _]. destruct (proj2 (SM m) Hm) as (y & Hy). congruence.
  - left. split; [eexists; reflexivity|exact I].
  - destruct (unwrap_opt_spec _ _ m SM) as [[(x & ->) H]|[-> H]]; cbn [obind]; [left|right]; (split; [|exact H]); [eexists|]; reflexivity.
  - destruct (unwrap_opt_spec _ _ m SM) as [[(x & ->) H]|[-> H]]; cbn [obind]; [left|right]; (split; [|exact H]); [eexists|]; reflexivity.
  - destruct (unwrap_opt_spec _ _ p proof_shown_iff) as [[(x1 & ->) H1]|[-> H1]]; cbn [obind]; [|right; split; [reflexivity|tauto]].
    destruct (unwrap_opt_spec _ _ pm SM) as [[(x2 & ->) H2]|[-> H2]]; cbn [obind]; [|right; split; [reflexivity|tauto]].
    destruct (unwrap_opt_spec _ _ dp proof_shown_iff) as [[(x3 & ->) H3]|[-> H3]]; cbn [obind]; [|right; split; [reflexivity|tauto]].
    destruct (unwrap_opt_spec _ _ dpm SM) as [[(x4 & ->) H4]|[-> H4]]; cbn [obind]; [|right; split; [reflexivity|tauto]].
    left. split; [eexists; reflexivity|tauto].
  - destruct (unwrap_opt_spec _ _ m SM) as [[(x & ->) H]|[-> H]]; cbn [obind]; [left|right]; (split; [|exact H]); [eexists|]; reflexivity.
  - left. split; [eexists; reflexivity|exact I].
Qed.

Theorem C114_event_iff b58 e : (exists j, show_event b58 e = Done j) <-> event_showable e.
Proof.
  unfold show_event, event_showable. destruct (event_body_spec b58 (ev_body e)) as [[(r & ->) H]|[-> H]]; cbn [obind].
  - destruct (enum EVENT_TYPES (ev_type e)) as [t|] eqn:E.
    + apply enum_some in E as [-> Ht]. split; [intros _; split; [|exact H]|intros _; eexists; reflexivity].
      revert Ht. unfold known_event_type, EVENT_TYPES. ranges.
    + split; [intros (j & [=])|]. intros [Ht _]. exfalso. assert (X : enum EVENT_TYPES (ev_type e) = Some (ev_type e)).
      { apply enum_some. split; [reflexivity|]. revert Ht. unfold known_event_type, EVENT_TYPES. ranges. }
      congruence.
  - split; [intros (j & [=])|intros [_ H']; contradiction].
Qed.

(** The event shown is the event: number, block, shard, type; the merged message with the deleted ones in order; a proof, the one it
    replaces, and the messages of each. An unknown type alone is an error, not a panic. *)
Theorem C114_event_same b58 e j : show_event b58 e = Done j ->
  je_id j = ev_id e /\ je_block j = ev_block e /\ je_shard j = ev_shard e /\ je_type j = ev_type e /\
  match ev_body e with
  | Some (EMerge (Some m) del) => exists jm js, je_body j = Some (JEMerge jm js) /\ show_message b58 m = Some jm /\ Forall2 (fun m j => show_message b58 m = Some j) del js
  | Some (EProof p dp pm dpm) => exists p' dp' pm' dpm', je_body j = Some (JEProof p' dp' pm' dpm') /\
      (p ≫= show_proof) = p' /\ (dp ≫= show_proof) = dp' /\ (pm ≫= show_message b58) = pm' /\ (dpm ≫= show_message b58) = dpm'
  | Some (EPrune (Some m)) => exists jm, je_body j = Some (JEPrune jm) /\ show_message b58 m = Some jm
  | Some (ERevoke (Some m)) => exists jm, je_body j = Some (JERevoke jm) /\ show_message b58 m = Some jm
  | Some (EFailure (Some m) c r) => exists jm, je_body j = Some (JEFailure jm c r) /\ show_message b58 m = Some jm
  | Some EOther => je_body j = Some JEOther
  | _ => je_body j = None
  end.
Proof.
  unfold show_event. destruct (show_event_body b58 (ev_body e)) as [b| |] eqn:E; cbn [obind]; try discriminate. unfold enum. destruct (zmem (ev_type e) EVENT_TYPES); [|discriminate].
  intros [= <-]. cbn [je_id je_block je_shard je_type je_body]. refine (conj eq_refl (conj eq_refl (conj eq_refl (conj eq_refl _)))).
  assert (UA : forall del js, unwrap_all (show_message b58) del = Done js -> Forall2 (fun m j => show_message b58 m = Some j) del js).
  { induction del as [|m del IH]; intros js H; cbn [unwrap_all] in H; [injection H as <-; constructor|].
    destruct (show_message b58 m) eqn:Em; [|discriminate]. cbn [obind] in H. destruct (unwrap_all (show_message b58) del) as [r| |] eqn:Er; cbn [obind] in H; try discriminate. injection H as <-.
    constructor; [exact Em|apply IH; reflexivity]. }
  assert (UO : forall (A B : Type) (f : A -> option B) o r, unwrap_opt f o = Done r -> (o ≫= f) = r).
  { intros A B f [x|] r H; cbn [unwrap_opt] in H; [|injection H as <-; reflexivity]. cbn. destruct (f x); [injection H as <-; reflexivity|discriminate]. }
  destruct (ev_body e) as [[[m|] del|[m|]|[m|]|p dp pm dpm|[m|] c r|]|]; cbn [show_event_body] in E.
  all: try (cbn in E; injection E as <-; reflexivity).
  - destruct (show_message b58 m) as [jm|] eqn:Em; [|discriminate]. destruct (unwrap_all (show_message b58) del) as [js| |] eqn:Ea; cbn [obind] in E; try discriminate.
    injection E as <-. exists jm, js. split; [reflexivity|]. split; [reflexivity|apply UA; exact Ea].
  - cbn in E. destruct (show_message b58 m) as [jm|]; [|discriminate]. injection E as <-. eauto.
  - cbn in E. destruct (show_message b58 m) as [jm|]; [|discriminate]. injection E as <-. eauto.
  - destruct (unwrap_opt show_proof p) as [p'| |] eqn:E1; cbn [obind] in E; try discriminate. destruct (unwrap_opt (show_message b58) pm) as [pm'| |] eqn:E2; cbn [obind] in E; try discriminate.
    destruct (unwrap_opt show_proof dp) as [dp'| |] eqn:E3; cbn [obind] in E; try discriminate. destruct (unwrap_opt (show_message b58) dpm) as [dpm'| |] eqn:E4; cbn [obind] in E; try discriminate.
    injection E as <-. exists p', dp', pm', dpm'. split; [reflexivity|]. refine (conj (UO _ _ _ _ _ E1) (conj (UO _ _ _ _ _ E3) (conj (UO _ _ _ _ _ E2) (UO _ _ _ _ _ E4)))).
  - cbn in E. destruct (show_message b58 m) as [jm|]; [|discriminate]. injection E as <-. eauto.
Qed.
Theorem C114_event_fault b58 e : show_event b58 e = Fault <-> ~ known_event_type (ev_type e) /\ opt_all carries_showable (ev_body e).
Proof.
  unfold show_event. destruct (event_body_spec b58 (ev_body e)) as [[(r & ->) H]|[-> H]]; cbn [obind].
  - assert (KT : known_event_type (ev_type e) <-> In (ev_type e) EVENT_TYPES) by (unfold known_event_type, EVENT_TYPES; ranges).
    destruct (enum EVENT_TYPES (ev_type e)) as [t|] eqn:E.
    + split; [discriminate|]. intros [K _]. exfalso. apply K, KT. apply enum_some in E as [_ E]. exact E.
    + split; [|reflexivity]. intros _. split; [|exact H]. intros K.
      assert (X : enum EVENT_TYPES (ev_type e) = Some (ev_type e)) by (apply enum_some; tauto). congruence.
  - split; [discriminate|]. intros [_ K]. contradiction.
Qed.

(** A list of events is answered, in order, exactly if every event can be shown; otherwise the request panics. *)
Theorem C114_events b58 es next js : show_events b58 es next = Done js <-> Forall2 (fun e j => show_event b58 e = Done j) es js.
Proof.
  revert js. induction es as [|e es IH]; intros js; cbn [show_events].
  - split; [intros [= <-]; constructor|inversion 1; reflexivity].
  - destruct (show_event b58 e) as [j| |] eqn:E; [|split; [discriminate|inversion 1; subst; congruence]..].
    destruct (show_events b58 es next) as [zs| |] eqn:El.
    + split; [intros [= <-]; constructor; [exact E|apply IH; reflexivity]|]. inversion 1 as [|? ? ? ? H1 H2]; subst. apply IH in H2. congruence.
    + split; [discriminate|]. inversion 1 as [|? ? ? ? H1 H2]; subst. apply IH in H2. discriminate.
    + split; [discriminate|]. inversion 1 as [|? ? ? ? H1 H2]; subst. apply IH in H2. discriminate.
Qed.

Theorem C114_events_fail_refuted b58 es next : show_events b58 es next = Panic <-> exists e, e ∈ es /\ ~ event_showable e.
Proof.
  induction es as [|e es IH]; cbn [show_events].
  - split; [discriminate|intros (e & He & _); inversion He].
  - destruct (show_event b58 e) as [j| |] eqn:E.
    + assert (He : event_showable e) by (apply (C114_event_iff b58); eexists; exact E).
      assert (X : match show_events b58 es next with Done js => Done (j :: js) | Fault => Fault | Panic => Panic end = Panic <-> show_events b58 es next = Panic).
      { destruct (show_events b58 es next); split; congruence. }
      transitivity (show_events b58 es next = Panic).
      { rewrite <- X. destruct (show_events b58 es next); split; intros H; (exact H || discriminate H). }
      rewrite IH. split; intros (x & Hx & Hn); exists x; (split; [|exact Hn]); [right; exact Hx|].
      apply elem_of_cons in Hx as [->|Hx]; [contradiction|exact Hx].
    + split; [intros _; exists e|reflexivity]. split; [left|]. intros H. apply (C114_event_iff b58) in H as (j & Hj). congruence.
    + split; [intros _; exists e|reflexivity]. split; [left|]. intros H. apply (C114_event_iff b58) in H as (j & Hj). congruence.
Qed.

(** One rejected message in the log is enough: the engine logs it whole, whatever is wrong with it. *)
Theorem C114_failure_event_refuted b58 es1 es2 next m code reason id blk sh :
  ~ showable m -> show_events b58 (es1 ++ Event 10 id (Some (EFailure (Some m) code reason)) blk sh :: es2) next = Panic.
Proof.
  intros H. apply C114_events_fail_refuted. eexists. split; [apply elem_of_app; right; left|]. intros [_ H']. apply H. exact (H' _ eq_refl m eq_refl).
Qed.

(** Bulk answers: one message that cannot be shown hides the outcome of all the others. *)
Theorem C114_bulk b58 ms : show_bulk b58 ms = Fault <-> exists m, Some m ∈ ms /\ ~ showable m.
Proof.
  induction ms as [|[m|] ms IH]; cbn [show_bulk].
  - split; [discriminate|intros (m & Hm & _); inversion Hm].
  - destruct (show_message b58 m) as [j|] eqn:E.
    + assert (Hm : showable m) by (apply (C114_shown_iff b58); eexists; exact E).
      transitivity (show_bulk b58 ms = Fault); [destruct (show_bulk b58 ms); cbn [obind]; split; congruence|].
      rewrite IH. split; intros (x & Hx & Hn); exists x; (split; [|exact Hn]); [right; exact Hx|].
      apply elem_of_cons in Hx as [[= ->]|Hx]; [contradiction|exact Hx].
    + split; [intros _; exists m|reflexivity]. split; [left|]. intros H. apply (C114_shown_iff b58) in H as (j & Hj). congruence.
  - transitivity (show_bulk b58 ms = Fault); [destruct (show_bulk b58 ms); cbn [obind]; split; congruence|].
    rewrite IH. split; intros (x & Hx & Hn); exists x; (split; [|exact Hn]); [right; exact Hx|].
    apply elem_of_cons in Hx as [[=]|Hx]. exact Hx.
Qed.

Definition ex_cast : message :=
  Message (Some (Data 1 5 100 1 (Some (VCastAdd (CastAdd [] [7] (Some (RCast (CastId 3 [1; 255]))) [104; 105] [0] [Some (RUrl [97])] 0))))) [171] 1 [9] 1 [16] None.
Example C114_ex_shown : show_message (fun x => x) ex_cast =
  Some (JMessage 1 5 100 1 (JCastAdd [] [7] (Some (JCastId 3 [48; 120; 48; 49; 102; 102])) None [104; 105] [0] [JEUrl [97]] 0)
          [48; 120; 97; 98] 1 [9] 1 [48; 120; 49; 48]).
Proof. reflexivity. Qed.
Example C114_ex_showable : showable ex_cast.
Proof. apply (C114_shown_iff (fun x => x)). eexists. apply C114_ex_shown. Qed.
Example C114_ex_regular : regular_message ex_cast.
Proof.
  split; [reflexivity|]. split; [reflexivity|]. intros d b [= <-] [= <-]. cbn. split; [|intros r [= <-]; reflexivity].
  constructor; [exists (RUrl [97]); split; [reflexivity|exact I]|constructor].
Qed.
(** A validly signed message without a body, the panic of an event list holding it, and of a page. *)
Definition ex_bodyless : message := toy_sign (Data 1 5 100 1 None) false.
Example C114_ex_bodyless_valid : validate_message toy ex_bodyless Mainnet false 100 5 = true.
Proof. reflexivity. Qed.
Example C114_ex_bodyless_panics b58 : show_page b58 [ex_cast; ex_bodyless; ex_cast] None = Panic.
Proof. reflexivity. Qed.
Example C114_ex_failure b58 : show_events b58 [Event 1 1 (Some (EMerge (Some ex_cast) [])) 1 1; Event 10 2 (Some (EFailure (Some ex_bodyless) [] [])) 1 1] None = Panic.
Proof. reflexivity. Qed.
Example C114_ex_valid_shown : validate_message toy (toy_sign (Data 2 5 100 1 (Some (VCastRemove (repeat 7 20)))) false) Mainnet false 100 5 = true.
Proof. reflexivity. Qed.

(** ** C115: text parameters *)

(** base64 as written is read back, and nothing else is read as the same bytes. *)
Theorem C115_base64 l s : bytes_ok l = true -> (unb64 s = Some l <-> s = b64 l).
Proof.
  intros Hl. split; [intros H; apply b64_unb64 in H as [_ <-]; reflexivity|]. intros ->. apply unb64_b64. exact Hl.
Qed.
Theorem C115_base64_reads_bytes s l : unb64 s = Some l -> bytes_ok l = true.
Proof. intros H. exact (proj1 (b64_unb64 s l H)). Qed.

(** A page token handed out comes back as it was, also when the query string turned plus signs into spaces. An empty token is the
    same as none. *)
Theorem C115_token t s : (forall l, t = Some l -> bytes_ok l = true) ->
  Forall2 (fun c d => d = c \/ c = PLUS /\ d = SPACE) (token_show t) s ->
  token_read s = Some (match t with Some [] => None | _ => t end).
Proof.
  intros Ht H. unfold token_show in H. assert (Hb : bytes_ok (default [] t) = true) by (destruct t as [l|]; [exact (Ht l eq_refl)|reflexivity]).
  unfold token_read. rewrite (unspace _ _ (b64_chars _ Hb) H). destruct t as [[|a l]|].
  - reflexivity.
  - change (default [] (Some (a :: l))) with (a :: l) in *. pose proof (unb64_b64 (a :: l) Hb) as HU. destruct (b64 (a :: l)) as [|x r] eqn:E.
    + exfalso. assert (X : a :: l = []) by (apply b64_nil; exact E). discriminate X.
    + rewrite HU. reflexivity.
  - reflexivity.
Qed.

(** Different tokens are written differently, except that an absent and an empty one coincide. *)
Theorem C115_token_distinct t t' : (forall l, t = Some l -> bytes_ok l = true) -> (forall l, t' = Some l -> bytes_ok l = true) ->
  token_show t = token_show t' -> default [] t = default [] t'.
Proof.
  intros H H' E. unfold token_show in E. assert (B : bytes_ok (default [] t) = true) by (destruct t as [l|]; [exact (H l eq_refl)|reflexivity]).
  assert (B' : bytes_ok (default [] t') = true) by (destruct t' as [l|]; [exact (H' l eq_refl)|reflexivity]).
  apply unb64_b64 in B, B'. congruence.
Qed.

(** Hence the last page's reply cannot be told from one whose token is empty: following it starts over. *)
Theorem C115_last_page_restarts : token_read (token_show None) = Some None.
Proof. reflexivity. Qed.

(** Event lists: the token of the next page is not in the reply. *)
Theorem C115_events_token_refuted b58 es t t' : show_events b58 es t = show_events b58 es t'.
Proof. induction es as [|e es IH]; [reflexivity|]. cbn [show_events]. rewrite IH. reflexivity. Qed.

(** Both spellings of a parameter are read; the snake-case one wins. *)
Theorem C115_either {A} (a b : option A) x : either a b = Some x <-> a = Some x \/ a = None /\ b = Some x.
Proof. destruct a as [y|]; cbn [either]; split; intros H; [left; exact H|destruct H as [H|[[=] _]]; exact H|right; tauto|destruct H as [[=]|[_ H]]; exact H]. Qed.

(** No hash is the empty hash. *)
Theorem C115_hash_absent : hash_trim None = Some [] /\ hash_trim None = hash_trim (Some []).
Proof. split; reflexivity. Qed.
(** Hashes: what the replies print is read back by all three readers, with and without "0x", in either case of letters. *)
Theorem C115_hash_read h s : bytes_ok h = true -> map lower s = hex h ->
  hash_replace s = Some h /\ hash_replace (48 :: 120 :: s) = Some h /\ hash_trim (Some s) = Some h /\ hash_trim (Some (48 :: 120 :: s)) = Some h /\
  hash_strip s = Some h /\ hash_strip (48 :: 120 :: s) = Some h.
Proof.
  intros Hb Hs. assert (HV : Forall2 (fun c v => hex_val c = Some v) s (nibbles h)).
  { pose proof (hex_vals h Hb) as HF. rewrite <- Hs in HF. clear - HF. remember (nibbles h) as n eqn:E. clear E. revert n HF.
    induction s as [|c s IH]; intros [|v n] HF; inversion HF; subst; [constructor|]. constructor; [|apply IH; assumption].
    match goal with A : hex_val (lower c) = Some v |- _ => revert A end. unfold lower, hex_val, is_digit.
    destruct ((65 <=? c) && (c <=? 90)) eqn:E; [|tauto].
    replace ((48 <=? c + 32) && (c + 32 <=? 57)) with false by lia. replace ((48 <=? c) && (c <=? 57)) with false by lia.
    replace ((97 <=? c) && (c <=? 102)) with false by lia. destruct ((97 <=? c + 32) && (c + 32 <=? 102)) eqn:E1.
    - replace ((65 <=? c) && (c <=? 70)) with true by lia. intros [= <-]. f_equal. lia.
    - replace ((65 <=? c + 32) && (c + 32 <=? 70)) with false by lia. discriminate. }
  pose proof (unhex_nibbles h Hb s HV) as HU. pose proof (proj1 (unhex_digits s h HU)) as HD.
  unfold hash_replace, hash_trim, hash_strip.
  change (replace_0x (48 :: 120 :: s)) with (replace_0x s). change (trim_0x (48 :: 120 :: s)) with (trim_0x s). change (strip_0x (48 :: 120 :: s)) with s.
  rewrite (replace_digits s HD), (trim_digits s HD), (strip_digits s HD). tauto.
Qed.

(** [serdehex] reads nothing else. *)
Theorem C115_strip_only s h : hash_strip s = Some h -> exists r, (s = r \/ s = 48 :: 120 :: r) /\ map lower r = hex h.
Proof.
  unfold hash_strip. intros H. exists (strip_0x s). split; [|exact (proj2 (proj2 (unhex_digits _ _ H)))]. unfold strip_0x.
  destruct (strip_prefix [48; 120] s) as [r|] eqn:E; [right|left; reflexivity]. destruct s as [|c [|d s]]; [discriminate| |].
  - cbn [strip_prefix] in E. destruct (48 =? c); discriminate.
  - cbn [strip_prefix] in E. destruct (48 =? c) eqn:E1; [|discriminate]. destruct (120 =? d) eqn:E2; [|discriminate]. apply N.eqb_eq in E1, E2. congruence.
Qed.

(** The other two also read strings that are no hash: "0x" is dropped anywhere, or as often as it stands in front. *)
Theorem C115_hash_lax_refuted h s1 s2 n : bytes_ok h = true -> s1 ++ s2 = hex h ->
  (forall x, last s1 = Some x -> x <> 48) ->
  hash_replace (s1 ++ 48 :: 120 :: s2) = Some h /\ hash_trim (Some (concat (repeat [48; 120] n) ++ s1 ++ s2)) = Some h.
Proof.
  intros Hb Hs Hl. pose proof (hex_digits h Hb) as HD. assert (HD' := HD). rewrite <- Hs in HD'. split.
  - unfold hash_replace. replace (replace_0x (s1 ++ 48 :: 120 :: s2)) with (hex h); [apply unhex_hex; exact Hb|].
    rewrite <- Hs. apply Forall_app in HD' as [H1 H2]. clear Hs HD. induction H1 as [|c s1 Hc H1 IH].
    + change (replace_0x ([] ++ 48 :: 120 :: s2)) with (replace_0x s2). rewrite (replace_digits s2 H2). reflexivity.
    + destruct s1 as [|d s1].
      * change (([c] ++ 48 :: 120 :: s2)) with (c :: 48 :: 120 :: s2).
        change (replace_0x (c :: 48 :: 120 :: s2)) with (if (c =? 48) && (48 =? 120) then replace_0x (120 :: s2) else c :: replace_0x (48 :: 120 :: s2)).
        change (48 =? 120) with false. rewrite andb_false_r. change (replace_0x (48 :: 120 :: s2)) with (replace_0x s2).
        rewrite (replace_digits s2 H2). reflexivity.
      * change ((c :: d :: s1) ++ 48 :: 120 :: s2) with (c :: (d :: s1 ++ 48 :: 120 :: s2)).
        change (replace_0x (c :: d :: s1 ++ 48 :: 120 :: s2)) with
          (if (c =? 48) && (d =? 120) then replace_0x (s1 ++ 48 :: 120 :: s2) else c :: replace_0x ((d :: s1) ++ 48 :: 120 :: s2)).
        replace (d =? 120) with false; [rewrite andb_false_r; rewrite <- (IH Hl); reflexivity|].
        symmetry. apply N.eqb_neq. intros ->. inversion H1; subst. apply hexdigit_not_x. assumption.
  - unfold hash_trim. rewrite Hs. replace (trim_0x (concat (repeat [48; 120] n) ++ hex h)) with (hex h); [apply unhex_hex; exact Hb|].
    induction n as [|n IH]; [cbn [repeat concat]; symmetry; apply trim_digits; exact HD|]. exact IH.
Qed.

Example C115_ex_token : token_show (Some [255; 239; 190; 1]) = [47; 43; 43; 43; 65; 81; 61; 61] /\
  token_read [47; 32; 43; 32; 65; 81; 61; 61] = Some (Some [255; 239; 190; 1]).
Proof. split; reflexivity. Qed.
(** Unused bits and missing padding are refused. *)
Example C115_ex_strict : unb64 [65; 82; 61; 61] = None /\ unb64 [65; 81] = None /\ unb64 [65; 81; 61; 61; 65; 81; 61; 61] = None.
Proof. repeat split. Qed.
Example C115_ex_hash : hash_replace [48; 120; 97; 66] = Some [171] /\ hash_replace [97; 48; 120; 98] = Some [171] /\ hash_trim (Some [97; 48; 120; 98]) = None /\
  hash_trim (Some [48; 120; 48; 120; 97; 98]) = Some [171] /\ hash_strip [48; 120; 48; 120; 97; 98] = None.
Proof. repeat split. Qed.

(** ** C116: statuses, forwarding, the mesh query *)

(** The table names every path once. *)
Theorem C116_routes_distinct : List.NoDup (map (fun r => snd (fst r)) route_table).
Proof.
  apply NoDup_ListNoDup. apply (bool_decide_unpack (NoDup (map (fun r => snd (fst r)) route_table))). vm_compute. exact I.
Qed.

(** Requests that reach a handler. *)
Definition reaches (m : method) (path : string) (ct : option bytes) (p : parsed) : Prop :=
  exists h, route m path = Some h /\ match h with HQuery _ => p = Parsed | HMessage | HBulk => p = Parsed /\ ct = Some OCTET | HMesh | HPage => True end.

Lemma request_200 st p a : status_request st p a = 200 <-> p = Parsed /\ a = Replied true.
Proof.
  destruct p; cbn [status_request]; [|split; [discriminate|intros [[=] _]]..].
  destruct a as [c|[|]]; [|split; [tauto|reflexivity]|split; [discriminate|intros [_ [=]]]].
  split; [|intros [_ [=]]]. destruct st; cbn [error_status]; [discriminate|]. unfold from_status. destruct (_ || _); discriminate.
Qed.
Lemma protobuf_200 bulk ct p a : status_protobuf bulk ct p a = 200 <-> (p = Parsed /\ ct = Some OCTET) /\ a = Replied true.
Proof.
  unfold status_protobuf. case_bool_decide as E; [|split; [discriminate|intros [[_ H] _]; contradiction]].
  destruct p; [|split; [discriminate|intros [[[=] _] _]]|destruct bulk; (split; [discriminate|intros [[[=] _] _]])].
  destruct a as [c|[|]]; (split; [|intros [_ H]]); try discriminate; try reflexivity. intros _. tauto.
Qed.

(** Success is told apart: 200 is answered exactly to requests that were handled and whose reply could be shown (the mesh page is
    static, mesh replies always can). *)
Theorem C116_success m path ct p a : status m path ct p a = 200 <->
  reaches m path ct p /\ (a = Replied true \/ route m path = Some HPage \/ route m path = Some HMesh /\ exists s, a = Replied s).
Proof.
  unfold status, reaches. destruct (route m path) as [h|] eqn:E.
  - destruct h as [st| | | |].
    + rewrite request_200. split; [intros [Hp Ha]; split; [exists (HQuery st); split; [reflexivity|exact Hp]|left; exact Ha]|].
      intros [(h & [= <-] & Hp) [Ha|[[=]|[[=] _]]]]. tauto.
    + rewrite protobuf_200. split; [intros [Hp Ha]; split; [exists HMessage; split; [reflexivity|exact Hp]|left; exact Ha]|].
      intros [(h & [= <-] & Hp) [Ha|[[=]|[[=] _]]]]. tauto.
    + rewrite protobuf_200. split; [intros [Hp Ha]; split; [exists HBulk; split; [reflexivity|exact Hp]|left; exact Ha]|].
      intros [(h & [= <-] & Hp) [Ha|[[=]|[[=] _]]]]. tauto.
    + destruct a as [c|s]; cbn [status_mesh].
      * split; [destruct (c =? C_UNAUTHENTICATED); discriminate|]. intros [_ [[=]|[[=]|[_ (s & [=])]]]].
      * split; [intros _|reflexivity]. split; [exists HMesh; split; [reflexivity|exact I]|]. right. right. split; [reflexivity|exists s; reflexivity].
    + split; [intros _|reflexivity]. split; [exists HPage; split; [reflexivity|exact I]|]. right. left. reflexivity.
  - split; [discriminate|]. intros [(h & [=] & _) _].
Qed.

(** Nothing else is answered 404 but what the table does not name. *)
Theorem C116_not_found m path ct p a : status m path ct p a = 404 <-> ~ exists h, In (m, path, h) route_table.
Proof.
  assert (HR : route m path = None <-> ~ exists h, In (m, path, h) route_table).
  { unfold route. destruct (List.find _ route_table) as [r|] eqn:E; cbn [option_map].
    - apply find_some in E as [HI H]. apply andb_true_iff in H as [H1 H2]. apply String.eqb_eq in H2. split; [discriminate|].
      intros H. exfalso. apply H. destruct r as [[m' q] h]. cbn [fst snd] in *. subst q. exists h. destruct m', m; try discriminate H1; exact HI.
    - split; [intros _|reflexivity]. intros (h & HI). pose proof (find_none _ _ E _ HI) as H. cbn [fst snd] in H. rewrite String.eqb_refl, andb_true_r in H.
      destruct m; [discriminate H|discriminate H|]. clear - HI. cbn in HI. repeat (destruct HI as [HI|HI]; [discriminate HI|]). exact HI. }
  rewrite <- HR. unfold status. destruct (route m path) as [h|]; [|tauto]. split; [|discriminate]. intros H. exfalso. revert H.
  destruct h as [st| | | |]; cbn [status_request].
  - unfold status_request. destruct p; [|discriminate..]. destruct a as [c|[|]]; [|discriminate..]. destruct st; cbn [error_status]; [discriminate|].
    unfold from_status. destruct (_ || _); discriminate.
  - unfold status_protobuf. case_bool_decide; [|discriminate]. destruct p; [|discriminate..]. destruct a as [c|[|]]; discriminate.
  - unfold status_protobuf. case_bool_decide; [|discriminate]. destruct p; [|discriminate..]. destruct a as [c|[|]]; discriminate.
  - unfold status_mesh. destruct a as [c|s]; [|discriminate]. destruct (_ =? _); discriminate.
  - discriminate.
Qed.

(** The channel queries tell the server's own faults (unknown, internal, data loss) from the caller's. *)
Theorem C116_graded m path ct a : route m path = Some (HQuery Graded) ->
  (status m path ct Parsed a = 500 <-> exists c, a = Refused c /\ (c = 2 \/ c = 13 \/ c = 15)).
Proof.
  intros H. unfold status. rewrite H. cbn [status_request]. destruct a as [c|[|]].
  - cbn [error_status]. unfold from_status, C_INTERNAL, C_DATA_LOSS, C_UNKNOWN. destruct ((c =? 13) || (c =? 15) || (c =? 2)) eqn:E; cbn [default].
    + split; [intros _; exists c; split; [reflexivity|lia]|reflexivity].
    + split; [discriminate|]. intros (c' & [= <-] & Hc). lia.
  - split; [discriminate|intros (c & [=] & _)].
  - split; [discriminate|intros (c & [=] & _)].
Qed.

(** All other queries and the submissions do not: whatever the service says, the answer is 400. *)
Theorem C116_ungraded_refuted m path ct p c :
  route m path = Some (HQuery Plain) \/ route m path = Some HMessage \/ route m path = Some HBulk /\ p <> BodyFailed ->
  status m path ct p (Refused c) = 400.
Proof.
  unfold status. intros [->|[->|[-> Hp]]].
  - destruct p; reflexivity.
  - unfold status_protobuf. case_bool_decide; [|reflexivity]. destruct p; reflexivity.
  - unfold status_protobuf. case_bool_decide; [|reflexivity]. destruct p; try reflexivity. contradiction.
Qed.

(** A body that breaks off is the caller's fault on the single path and the server's on the bulk path. *)
Theorem C116_broken_body_refuted a : status POST "/v1/submitMessage" (Some OCTET) BodyFailed a = 400 /\ status POST "/v1/submitBulkMessages" (Some OCTET) BodyFailed a = 500.
Proof. split; reflexivity. Qed.

(** The mesh endpoint: refused credentials are 401, every other refusal 500. *)
Theorem C116_mesh ct p c : status GET "/v1/mesh" ct p (Refused c) = if c =? 16 then 401 else 500.
Proof. reflexivity. Qed.

(** A submission's authorization header is forwarded unchanged, or the request is refused; it never panics and is never dropped. *)
Theorem C116_forward_submit h : 
  (h = None /\ forward_submit h = Done None) \/
  (exists s, h = Some s /\ Forall (fun c => 32 <= c /\ c < 127 \/ c = 9) s /\ forward_submit h = Done (Some s)) \/
  (exists s, h = Some s /\ ~ Forall (fun c => 32 <= c /\ c < 127 \/ c = 9) s /\ forward_submit h = Fault).
Proof.
  destruct h as [s|]; [right|left; tauto]. assert (HV : forallb visible s = true <-> Forall (fun c => 32 <= c /\ c < 127 \/ c = 9) s).
  { rewrite forallb_forall, List.Forall_forall. unfold visible, within. split; intros H x Hx; specialize (H x Hx); lia. }
  cbn [forward_submit]. destruct (forallb visible s) eqn:E.
  - left. exists s. split; [reflexivity|]. split; [apply HV; reflexivity|]. replace (forallb header_ok s) with true; [reflexivity|].
    symmetry. apply forallb_forall. rewrite forallb_forall in E. intros x Hx. specialize (E x Hx). revert E. unfold visible, within, header_ok. lia.
  - right. exists s. split; [reflexivity|]. split; [|reflexivity]. intros H. apply HV in H. discriminate H.
Qed.

(** The mesh endpoint forwards the same headers and drops the others: such a caller is taken for anonymous. *)
Theorem C116_forward_mesh h s : forward_mesh h = Some s <-> h = Some s /\ Forall (fun c => 32 <= c /\ c < 127 \/ c = 9) s.
Proof.
  assert (HV : forall s, forallb visible s && forallb header_ok s = true <-> Forall (fun c => 32 <= c /\ c < 127 \/ c = 9) s).
  { intros t. rewrite andb_true_iff, !forallb_forall, List.Forall_forall. unfold visible, within, header_ok.
    split; [intros [H _] x Hx; specialize (H x Hx); lia|intros H; split; intros x Hx; specialize (H x Hx); lia]. }
  destruct h as [t|]; cbn [forward_mesh]; [|split; [discriminate|intros [[=] _]]].
  destruct (forallb visible t && forallb header_ok t) eqn:E.
  - split; [intros [= <-]; split; [reflexivity|apply HV; exact E]|intros [[= ->] _]; reflexivity].
  - split; [discriminate|]. intros [[= ->] H]. apply HV in H. congruence.
Qed.

(** The mesh query. Independent reading: the values given to a key, in order. *)
Definition pair_of (k v : bytes) : bytes := k ++ EQUALS :: v.
Definition values (k : bytes) (parts : list bytes) : list bytes :=
  omap (fun p => match split_once EQUALS p with Some (k', v) => if bool_decide (k' = k) then Some v else None | None => None end) parts.

Lemma split_once_spec c s k v : split_once c s = Some (k, v) <-> s = k ++ c :: v /\ c ∉ k.
Proof.
  revert k v. induction s as [|x s IH]; intros k v; cbn [split_once].
  - split; [discriminate|intros [H _]; destruct k; discriminate].
  - destruct (x =? c) eqn:E.
    + apply N.eqb_eq in E as ->. split; [intros [= <- <-]; split; [reflexivity|apply not_elem_of_nil]|].
      intros [H Hn]. destruct k as [|y k]; [cbn in H; congruence|]. cbn in H. injection H as <- _. exfalso. apply Hn. left.
    + apply N.eqb_neq in E. destruct (split_once c s) as [[k' v']|] eqn:Es.
      * destruct (proj1 (IH k' v') eq_refl) as [Hs Hn]. split.
        -- intros [= <- <-]. split; [rewrite Hs; reflexivity|]. apply not_elem_of_cons. split; [congruence|exact Hn].
        -- intros [H Hk]. destruct k as [|y k]; [cbn in H; congruence|]. cbn in H. injection H as <- H. apply not_elem_of_cons in Hk as [_ Hk].
           pose proof (proj2 (IH k v) (conj H Hk)) as X. congruence.
      * split; [discriminate|]. intros [H Hk]. destruct k as [|y k]; [cbn in H; congruence|]. cbn in H. injection H as <- H.
        apply not_elem_of_cons in Hk as [_ Hk]. pose proof (proj2 (IH k v) (conj H Hk)) as X. discriminate X.
Qed.

Lemma mesh_fold parts : forall q, fold_left mesh_pair parts q =
  MeshQuery (mq_ascii q || bool_decide (V_ASCII ∈ values K_FORMAT parts))
    (match last (values K_VALIDATORS parts) with Some v => truthy v | None => mq_validators q end)
    (match last (values K_CRAWL parts) with Some v => truthy v | None => mq_crawl q end)
    (match last (values K_TOPICS parts) with Some v => Some v | None => mq_topics q end).
Proof.
  assert (L : forall (v : bytes) l, last (v :: l) = match last l with Some w => Some w | None => Some v end).
  { intros v l. destruct l as [|w l]; [reflexivity|]. cbn [last]. fold (last (w :: l)). destruct (last (w :: l)) eqn:E; [reflexivity|]. apply last_None in E. discriminate. }
  induction parts as [|p parts IH]; intros q.
  - cbn [fold_left values omap list_omap last]. rewrite bool_decide_eq_false_2 by apply not_elem_of_nil. rewrite orb_false_r. destruct q; reflexivity.
  - cbn [fold_left]. rewrite IH. clear IH. unfold mesh_pair. unfold values. cbn [omap list_omap]. fold (values K_FORMAT parts) (values K_VALIDATORS parts) (values K_CRAWL parts) (values K_TOPICS parts).
    destruct (split_once EQUALS p) as [[k v]|]; [|reflexivity].
    destruct (decide (k = K_FORMAT)) as [->|N1].
    { rewrite (bool_decide_eq_true_2 (K_FORMAT = K_FORMAT) eq_refl).
      rewrite (bool_decide_eq_false_2 (K_FORMAT = K_VALIDATORS)), (bool_decide_eq_false_2 (K_FORMAT = K_CRAWL)), (bool_decide_eq_false_2 (K_FORMAT = K_TOPICS)) by discriminate.
      destruct (decide (v = V_ASCII)) as [->|Nv].
      - rewrite (bool_decide_eq_true_2 (V_ASCII = V_ASCII) eq_refl). cbn [mq_ascii mq_validators mq_crawl mq_topics].
        rewrite (bool_decide_eq_true_2 (V_ASCII ∈ V_ASCII :: _)) by left. rewrite orb_true_r. reflexivity.
      - rewrite (bool_decide_eq_false_2 (v = V_ASCII) Nv). f_equal. f_equal. apply bool_decide_ext. rewrite elem_of_cons. intuition congruence. }
    rewrite (bool_decide_eq_false_2 (k = K_FORMAT) N1).
    destruct (decide (k = K_VALIDATORS)) as [->|N2].
    { rewrite (bool_decide_eq_true_2 (K_VALIDATORS = K_VALIDATORS) eq_refl).
      rewrite (bool_decide_eq_false_2 (K_VALIDATORS = K_CRAWL)), (bool_decide_eq_false_2 (K_VALIDATORS = K_TOPICS)) by discriminate.
      cbn [mq_ascii mq_validators mq_crawl mq_topics]. rewrite L. destruct (last (values K_VALIDATORS parts)); reflexivity. }
    rewrite (bool_decide_eq_false_2 (k = K_VALIDATORS) N2).
    destruct (decide (k = K_CRAWL)) as [->|N3].
    { rewrite (bool_decide_eq_true_2 (K_CRAWL = K_CRAWL) eq_refl). rewrite (bool_decide_eq_false_2 (K_CRAWL = K_TOPICS)) by discriminate.
      cbn [mq_ascii mq_validators mq_crawl mq_topics]. rewrite L. destruct (last (values K_CRAWL parts)); reflexivity. }
    rewrite (bool_decide_eq_false_2 (k = K_CRAWL) N3).
    destruct (decide (k = K_TOPICS)) as [->|N4].
    { rewrite (bool_decide_eq_true_2 (K_TOPICS = K_TOPICS) eq_refl). cbn [mq_ascii mq_validators mq_crawl mq_topics]. rewrite L.
      destruct (last (values K_TOPICS parts)); reflexivity. }
    rewrite (bool_decide_eq_false_2 (k = K_TOPICS) N4). reflexivity.
Qed.

(** The last value of a switch counts; ASCII output is chosen by any [format=ascii] and cannot be taken back; without a query:
    JSON, validators only, the local view. *)
Theorem C116_mesh_query q : let parts := Auth.split AMP q in
  mq_ascii (parse_mesh q) = bool_decide (V_ASCII ∈ values K_FORMAT parts) /\
  (mq_validators (parse_mesh q) = false <-> exists v, last (values K_VALIDATORS parts) = Some v /\ (v = V_FALSE \/ v = V_ZERO)) /\
  (mq_crawl (parse_mesh q) = true <-> exists v, last (values K_CRAWL parts) = Some v /\ v <> V_FALSE /\ v <> V_ZERO) /\
  mq_topics (parse_mesh q) = last (values K_TOPICS parts).
Proof.
  intros parts. unfold parse_mesh. fold parts. rewrite mesh_fold. cbn [mq_ascii mq_validators mq_crawl mq_topics].
  assert (T : forall v, truthy v = false <-> v = V_FALSE \/ v = V_ZERO).
  { intros v. unfold truthy. rewrite negb_false_iff, orb_true_iff, !bool_decide_eq_true. tauto. }
  split; [reflexivity|]. split; [|split].
  - destruct (last (values K_VALIDATORS parts)) as [v|]; [|split; [discriminate|intros (v & [=] & _)]].
    rewrite T. split; [intros H; exists v; tauto|intros (w & [= <-] & H); exact H].
  - destruct (last (values K_CRAWL parts)) as [v|]; [|split; [discriminate|intros (v & [=] & _)]].
    split; [intros H; exists v; split; [reflexivity|]|intros (w & [= <-] & H)].
    + assert (X : ~ (v = V_FALSE \/ v = V_ZERO)) by (rewrite <- T; congruence). tauto.
    + destruct (truthy v) eqn:E; [reflexivity|]. apply T in E. tauto.
  - destruct (last (values K_TOPICS parts)); reflexivity.
Qed.

(** Topics: only known ones are shown, all of the known ones asked for, and there is always something to show. *)
Theorem C116_topics all def param : def <> [] -> (forall t, t ∈ def -> t ∈ all) -> all <> [] ->
  let parts := Auth.split COMMA (default [] param) in
  parse_topics all def param <> [] /\
  (forall t, t ∈ parse_topics all def param -> t ∈ all) /\
  (forall t, t ∈ parts -> t ∈ all -> t ∈ parse_topics all def param) /\
  (forall t, t ∈ parts -> map lower_ascii t = V_ALL -> parse_topics all def param = all).
Proof.
  intros Hd Hda Ha parts. unfold parse_topics. fold parts. destruct (existsb _ parts) eqn:E.
  - split; [exact Ha|]. split; [tauto|]. split; [tauto|reflexivity].
  - assert (HF : forall t, t ∈ List.filter (fun t => bool_decide (t ∈ all)) parts <-> t ∈ parts /\ t ∈ all).
    { intros t. rewrite !elem_of_list_In, filter_In, bool_decide_eq_true, elem_of_list_In. tauto. }
    assert (HN : forall t, t ∈ parts -> map lower_ascii t <> V_ALL).
    { intros t Ht Hl. assert (X : existsb (fun t => bool_decide (map lower_ascii t = V_ALL)) parts = true).
      { apply existsb_exists. exists t. split; [apply elem_of_list_In; exact Ht|apply bool_decide_eq_true; exact Hl]. }
      congruence. }
    destruct (List.filter (fun t => bool_decide (t ∈ all)) parts) as [|x r].
    + split; [exact Hd|]. split; [exact Hda|]. split; [intros t Ht Hx; exfalso; pose proof (proj2 (HF t) (conj Ht Hx)) as X; inversion X|].
      intros t Ht Hl. exfalso. exact (HN t Ht Hl).
    + split; [discriminate|]. split; [intros t Ht; apply HF in Ht; tauto|]. split; [intros t Ht Hx; apply HF; tauto|].
      intros t Ht Hl. exfalso. exact (HN t Ht Hl).
Qed.

Example C116_ex : status GET "/v1/channelPin" None Parsed (Refused 13) = 500 /\ status GET "/v1/castById" None Parsed (Refused 13) = 400 /\
  status GET "/v1/castById" None Parsed (Refused 5) = 400 /\ status GET "/v1/channelPin" None Parsed (Refused 5) = 400 /\ status POST "/v1/info" None Parsed (Replied true) = 404.
Proof. repeat split. Qed.
Example C116_ex_mesh : (* format=ascii&validators_only=0&crawl=1&crawl=false&format=json *)
  parse_mesh ([102;111;114;109;97;116;61;97;115;99;105;105] ++ AMP :: [118;97;108;105;100;97;116;111;114;115;95;111;110;108;121;61;48] ++
              AMP :: [99;114;97;119;108;61;49] ++ AMP :: [99;114;97;119;108;61;102;97;108;115;101] ++ AMP :: [102;111;114;109;97;116;61;106;115;111;110])
  = MeshQuery true false false None.
Proof. reflexivity. Qed.
Example C116_ex_topics : parse_topics [[97]; [98]] [[97]] (Some [98; 44; 99]) = [[98]] /\ parse_topics [[97]; [98]] [[97]] (Some [99]) = [[97]] /\
  parse_topics [[97]; [98]] [[97]] (Some [65; 76; 108]) = [[97]; [98]].
Proof. repeat split. Qed.

Print Assumptions C114_shown_iff. Print Assumptions C114_same_json. Print Assumptions C114_signed_bytes_refuted. Print Assumptions C114_page.
Print Assumptions C114_page_fails_refuted. Print Assumptions C114_valid_shown. Print Assumptions C114_valid_not_shown_refuted.
Print Assumptions C114_event_iff. Print Assumptions C114_events. Print Assumptions C114_events_fail_refuted. Print Assumptions C114_failure_event_refuted.
Print Assumptions C114_bulk. Print Assumptions C115_base64. Print Assumptions C115_base64_reads_bytes. Print Assumptions C115_token.
Print Assumptions C115_token_distinct. Print Assumptions C115_last_page_restarts. Print Assumptions C115_events_token_refuted. Print Assumptions C115_either.
Print Assumptions C115_hash_read. Print Assumptions C115_strip_only. Print Assumptions C115_hash_lax_refuted.
Print Assumptions C116_routes_distinct. Print Assumptions C116_success. Print Assumptions C116_not_found. Print Assumptions C116_graded.
Print Assumptions C116_ungraded_refuted. Print Assumptions C116_broken_body_refuted. Print Assumptions C116_mesh. Print Assumptions C116_forward_submit.
Print Assumptions C116_forward_mesh. Print Assumptions C116_mesh_query. Print Assumptions C116_topics.
