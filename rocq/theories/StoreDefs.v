(** The store definitions of Store.v meet the conditions of the generic proof. *)
From Coq Require Import ZifyN ZifyNat ZifyBool.
From Verif Require Import Store StoreSpec StoreProofs.
#[local] Open Scope N_scope.

Lemma set_msg_basic D m : set_msg D m = true ->
  length (m_hash m) = 20%nat /\ m_ts m < 2 ^ 32 /\ 0 < m_fid m < 2 ^ 32 /\
  (d_is_add D m = true \/ (d_has_rem D && d_is_rem D m) = true) /\ is_some (d_slot D m) = true.
Proof.
  unfold set_msg. rewrite !andb_true_iff, !orb_true_iff, andb_true_iff.
  intros [[[[[[H1 H2] H3] H4] H5] H6] H7]. apply Nat.eqb_eq in H1. repeat split; try lia; tauto.
Qed.

Lemma lex_cons a b x y : lex (a :: x) (b :: y) = match N.compare a b with Eq => lex x y | c => c end.
Proof. done. Qed.
Lemma tsh_take m : take 4 (tsh m) = be 4 (m_ts m).
Proof. unfold tsh. rewrite take_app_alt; [done|by rewrite be_length]. Qed.
Lemma tsh_drop m : drop 4 (tsh m) = m_hash m.
Proof. unfold tsh. rewrite drop_app_alt; [done|by rewrite be_length]. Qed.

Lemma default_cmp_rank ta tr a b : m_ts a < 2 ^ 32 -> m_ts b < 2 ^ 32 ->
  ta <> tr -> (forall m, (m_type m = ta -> is_removal m = false) /\ (m_type m = tr -> tr <> 0 -> is_removal m = true)) ->
  (m_type a = ta \/ (tr <> 0 /\ m_type a = tr)) -> (m_type b = ta \/ (tr <> 0 /\ m_type b = tr)) ->
  default_cmp ta tr (m_type a) (tsh a) (m_type b) (tsh b) = lex (lww_rank a) (lww_rank b).
Proof.
  intros La Lb Nt Hr Ha Hb. unfold default_cmp, lww_rank. rewrite !tsh_take, !tsh_drop, be_lex by (cbn; lia).
  rewrite !lex_cons. destruct (m_ts a ?= m_ts b); try done.
  destruct (Hr a) as [Ra1 Ra2], (Hr b) as [Rb1 Rb2].
  destruct Ha as [Ha|[Hn Ha]], Hb as [Hb|[Hn' Hb]];
    repeat match goal with
    | H1 : ?P -> _ = false, H2 : ?P |- _ => rewrite (H1 H2); clear H1
    | H1 : ?P -> _ -> _ = true, H2 : ?P, H3 : tr <> 0 |- _ => rewrite (H1 H2 H3); clear H1
    end; rewrite Ha, Hb, ?N.eqb_refl;
    repeat (rewrite (proj2 (N.eqb_neq ta tr)) by done); repeat (rewrite (proj2 (N.eqb_neq tr ta)) by congruence);
    done.
Qed.

Lemma lww_rank_hash a b : lww_rank a = lww_rank b -> m_hash a = m_hash b.
Proof. unfold lww_rank. congruence. Qed.
Lemma cast_rank_hash a b : cast_rank a = cast_rank b -> m_hash a = m_hash b.
Proof. unfold cast_rank. congruence. Qed.

(** Keys ending in ts_hash and author. *)
Lemma fid_suffix_pos f : 0 < f -> fid_suffix f = make_fid_key f.
Proof. unfold fid_suffix. by intros H%N.ltb_lt; rewrite H. Qed.
Lemma fid_key_len f : length (make_fid_key f) = 4%nat.
Proof. apply be_length. Qed.
Lemma fid_key_inj f g : f < 2 ^ 32 -> g < 2 ^ 32 -> make_fid_key f = make_fid_key g -> f = g.
Proof. intros H1 H2. apply (be_inj 4); done. Qed.
Lemma tsh_length m : length (m_hash m) = 20%nat -> length (tsh m) = 24%nat.
Proof. intros H. unfold tsh. by rewrite app_length, be_length, H. Qed.
Lemma tsh_parts a b : m_ts a < 2 ^ 32 -> m_ts b < 2 ^ 32 -> tsh a = tsh b -> m_hash a = m_hash b /\ m_ts a = m_ts b.
Proof.
  intros H1 H2. unfold tsh. intros E. apply app_inj_len in E as [E ->]; [|by rewrite !be_length].
  split; [done|]. by apply (be_inj 4).
Qed.
Lemma suffix_sep a b p q :
  length (m_hash a) = 20%nat -> length (m_hash b) = 20%nat -> m_ts a < 2 ^ 32 -> m_ts b < 2 ^ 32 ->
  0 < m_fid a < 2 ^ 32 -> 0 < m_fid b < 2 ^ 32 ->
  p ++ tsh a ++ fid_suffix (m_fid a) = q ++ tsh b ++ fid_suffix (m_fid b) ->
  m_fid a = m_fid b /\ m_hash a = m_hash b /\ m_ts a = m_ts b.
Proof.
  intros La Lb Ta Tb Fa Fb E. rewrite !fid_suffix_pos in E by lia.
  apply app_inj_2 in E as [_ E]; [|by rewrite !app_length, !tsh_length, !fid_key_len].
  apply app_inj_2 in E as [E1 E2]; [|by rewrite !fid_key_len].
  split; [by apply fid_key_inj; [lia..|]|]. by apply tsh_parts.
Qed.

Lemma cast_def_ok : def_ok cast_def cast_rank.
Proof.
  split; cbn.
  - done.
  - intros m. by intros H%N.eqb_eq.
  - intros m. by intros H%N.eqb_eq.
  - done.
  - intros a b Ha Hb. apply set_msg_basic in Ha as (_ & Ta & _ & Ka & _), Hb as (_ & Tb & _ & Kb & _).
    cbn in Ka, Kb. rewrite !N.eqb_eq in Ka, Kb.
    unfold cast_cmp, cast_rank, is_removal. rewrite !tsh_take, !tsh_drop, be_lex by (cbn; lia).
    rewrite ?lex_cons.
    destruct Ka as [Ka|Ka], Kb as [Kb|Kb]; rewrite Ka, Kb; cbn; by destruct (m_ts a ?= m_ts b).
  - intros a b _ _. apply cast_rank_hash.
  - intros a b _ _ _ Eh Eb. unfold cast_slot. by rewrite Eh, Eb.
  - done.
  - done.
  - intros _ m l [= <-]. eexists. split; [done|]. rewrite <- list_fmap_compose. intros k Hk.
    apply elem_of_list_fmap in Hk as (x & -> & Hx). done.
  - done.
  - intros _ m l k x y [= <-] H1 H2. apply elem_of_list_fmap in H1 as (? & [= _ ->] & _).
    apply elem_of_list_fmap in H2 as (? & [= _ ->] & _). done.
  - intros a b l1 l2 k Ha Hb _ _ [= <-] [= <-] H1 H2.
    apply set_msg_basic in Ha as (La & Ta & Fa & _), Hb as (Lb & Tb & Fb & _).
    assert (Hk : forall m, k ∈ cast_index_keys m -> exists p, k = p ++ tsh m ++ fid_suffix (m_fid m)).
    { intros m. unfold cast_index_keys. destruct (m_body m) as [p ms| | | | | | | | |]; try (intros H; by apply elem_of_nil in H).
      rewrite elem_of_app. intros [H|H].
      - destruct p as [t|]; [|by apply elem_of_nil in H]. apply elem_of_list_singleton in H as ->.
        by exists (4 :: target_key t).
      - apply elem_of_list_fmap in H as (f & -> & _). by exists (5 :: make_fid_key f). }
    destruct (Hk a H1) as [p E1], (Hk b H2) as [q E2]. rewrite E1 in E2.
    apply suffix_sep in E2 as (E2 & E3 & E4); try done. split; [done|]. by right.
Qed.

Lemma link_def_ok : def_ok link_def lww_rank.
Proof.
  split; cbn.
  - done.
  - intros m. by intros H%N.eqb_eq.
  - intros m. by intros H%N.eqb_eq.
  - intros m H%N.eqb_eq. by rewrite H.
  - intros a b Ha Hb. apply set_msg_basic in Ha as (_ & Ta & _ & Ka & _), Hb as (_ & Tb & _ & Kb & _).
    cbn in Ka, Kb. rewrite !N.eqb_eq in Ka, Kb. apply default_cmp_rank; try done.
    + intros m. unfold is_removal. split; intros ->; done.
    + destruct Ka; [by left|by right].
    + destruct Kb; [by left|by right].
  - intros a b _ _. apply lww_rank_hash.
  - intros a b _ _ _ _ Eb. unfold link_slot. by rewrite Eb.
  - intros m _ H. apply set_msg_basic in H as (_ & _ & _ & _ & H). cbn in H. unfold link_slot in H. unfold link_comp_slot.
    by destruct (m_body m).
  - done.
  - intros _ m l H. destruct (link_index m) as [p|]; [|done]. injection H as <-. eexists. split; [done|]. done.
  - intros _ m. by destruct (link_index m).
  - intros _ m l k x y H. destruct (link_index m) as [p|]; [|done]. injection H as <-.
    rewrite !elem_of_list_singleton. congruence.
  - intros a b l1 l2 k Ha Hb _ _ E1 E2 H1 H2.
    apply set_msg_basic in Ha as (La & Ta & Fa & _), Hb as (Lb & Tb & Fb & _).
    assert (Hk : forall m l, 0 < m_fid m -> match link_index m with Some p => Some [p.1] | None => None end = Some l -> k ∈ l ->
      exists p, k = p ++ tsh m ++ fid_suffix (m_fid m)).
    { intros m l Fm H Hl. rewrite fid_suffix_pos by done. unfold link_index in H. destruct (m_body m) as [| | |ty [f|]| | | | | |]; try done.
      destruct (m_fid m =? 0); [done|]. injection H as <-. apply elem_of_list_singleton in Hl as ->.
      exists (6 :: make_fid_key f). done. }
    destruct (Hk a l1) as [p P1]; [lia|done|done|]. destruct (Hk b l2) as [q P2]; [lia|done|done|]. rewrite P1 in P2.
    apply suffix_sep in P2 as (P2 & P3 & P4); try done. split; [done|]. by right.
Qed.

(** The follow index needs different channels for different channel URIs (C50). *)
Lemma reaction_def_ok chan : (forall u1 u2 c, chan u1 = Some c -> chan u2 = Some c -> u1 = u2) ->
  def_ok (reaction_def chan) lww_rank.
Proof.
  intros Hch. split; cbn.
  - done.
  - intros m. by intros H%N.eqb_eq.
  - intros m. by intros H%N.eqb_eq.
  - done.
  - intros a b Ha Hb. apply set_msg_basic in Ha as (_ & Ta & _ & Ka & _), Hb as (_ & Tb & _ & Kb & _).
    cbn in Ka, Kb. rewrite !N.eqb_eq in Ka, Kb. apply default_cmp_rank; try done.
    + intros m. unfold is_removal. split; intros ->; done.
    + destruct Ka; [by left|by right].
    + destruct Kb; [by left|by right].
  - intros a b _ _. apply lww_rank_hash.
  - intros a b _ _ _ _ Eb. unfold reaction_slot. by rewrite Eb.
  - done.
  - done.
  - intros g m l H. destruct (reaction_index m) as [p|]; [|done]. injection H as <-. eexists. split; [done|].
    cbn. destruct (follow_channel chan m) as [c|], g; cbn; set_solver.
  - intros g m. by destruct (reaction_index m).
  - intros g m l k x y H. destruct (reaction_index m) as [p|] eqn:Ep; [|done]. injection H as <-.
    assert (P7 : exists q, p.1 = 7 :: q).
    { unfold reaction_index in Ep. destruct (m_body m) as [| |ty [t|]| | | | | | |]; try done.
      injection Ep as <-. eauto. }
    destruct P7 as [q P7].
    assert (Hf : forall z, (k, z) ∈ (if g then match follow_channel chan m with
                    | Some c => map (fun k => (k, be 4 (m_ts m))) (follow_keys (m_fid m) c)
                    | None => [] end else []) -> z = be 4 (m_ts m) /\ exists q, k = 25 :: q).
    { intros z Hz. destruct g; [|by apply elem_of_nil in Hz]. destruct (follow_channel chan m); [|by apply elem_of_nil in Hz].
      apply elem_of_list_fmap in Hz as (k' & Ek & Hk). apply pair_equal_spec in Ek as [-> ->]. split; [done|].
      unfold follow_keys in Hk. apply elem_of_cons in Hk as [->|Hk]; [eauto|].
      apply elem_of_list_singleton in Hk as ->. eauto. }
    rewrite !elem_of_cons. intros [H1|H1] [H2|H2].
    + congruence.
    + apply Hf in H2 as [_ [q' ->]]. destruct p; cbn in *. congruence.
    + apply Hf in H1 as [_ [q' ->]]. destruct p; cbn in *. congruence.
    + apply Hf in H1 as [-> _], H2 as [-> _]. done.
  - intros a b l1 l2 k Ha Hb _ _ E1 E2 H1 H2.
    apply set_msg_basic in Ha as (La & Ta & Fa & _), Hb as (Lb & Tb & Fb & _).
    assert (Hk : forall m l, match reaction_index m with
        | Some p => Some (p.1 :: match follow_channel chan m with Some c => follow_keys (m_fid m) c | None => [] end)
        | None => None end = Some l -> k ∈ l ->
      (exists p, k = 7 :: p ++ tsh m ++ fid_suffix (m_fid m)) \/
      (exists u c, m_body m = BReaction 1 (Some (TUrl u)) /\ chan u = Some c /\
         (k = 25 :: 1 :: make_fid_key (m_fid m) ++ c \/ k = 25 :: 2 :: c ++ make_fid_key (m_fid m)))).
    { intros m l H Hl. destruct (reaction_index m) as [p|] eqn:Ep; [|done]. injection H as <-.
      apply elem_of_cons in Hl as [->|Hl].
      - left. unfold reaction_index in Ep. destruct (m_body m) as [| |ty [t|]| | | | | | |]; try done.
        injection Ep as <-. cbn. exists (target_key t). done.
      - right. destruct (follow_channel chan m) as [c|] eqn:Ec; [|by apply elem_of_nil in Hl].
        unfold follow_channel in Ec. destruct (m_body m) as [| |ty [[u|]|]| | | | | | |]; try done;
          destruct ty as [|[ | |]]; try done.
        exists u, c. split; [done|]. split; [done|]. unfold follow_keys in Hl.
        rewrite elem_of_cons, elem_of_list_singleton in Hl. done. }
    destruct (Hk a l1 E1 H1) as [[p P1]|(u & c & B1 & C1 & P1)], (Hk b l2 E2 H2) as [[q P2]|(u' & c' & B2 & C2 & P2)].
    + rewrite P1 in P2. assert (X : p ++ tsh a ++ fid_suffix (m_fid a) = q ++ tsh b ++ fid_suffix (m_fid b)) by congruence.
      apply suffix_sep in X as (X1 & X2 & X3); try done. split; [done|]. by right.
    + exfalso. destruct P2; congruence.
    + exfalso. destruct P1; congruence.
    + assert (X : make_fid_key (m_fid a) = make_fid_key (m_fid b) /\ c = c').
      { destruct P1 as [P1|P1], P2 as [P2|P2]; rewrite P1 in P2; [|congruence|congruence|].
        - assert (make_fid_key (m_fid a) ++ c = make_fid_key (m_fid b) ++ c') as X by congruence.
          apply app_inj_1 in X; [done|by rewrite !fid_key_len].
        - assert (c ++ make_fid_key (m_fid a) = c' ++ make_fid_key (m_fid b)) as X by congruence.
          apply app_inj_2 in X; [tauto|by rewrite !fid_key_len]. }
      destruct X as [X ->]. split; [apply fid_key_inj; [lia..|done]|]. left.
      rewrite (Hch u u' c' C1 C2) in B1. unfold reaction_slot. by rewrite B1, B2.
Qed.

Lemma user_data_def_ok : def_ok user_data_def lww_rank.
Proof.
  split; cbn; try done.
  - intros m. by intros H%N.eqb_eq.
  - intros a b Ha Hb. apply set_msg_basic in Ha as (_ & Ta & _ & Ka & _), Hb as (_ & Tb & _ & Kb & _).
    cbn in Ka, Kb. rewrite !N.eqb_eq in Ka, Kb. apply default_cmp_rank; try done.
    + intros m. unfold is_removal. split; intros ->; done.
    + destruct Ka; [by left|done].
    + destruct Kb; [by left|done].
  - intros a b _ _. apply lww_rank_hash.
  - intros a b _ _ _ _ Eb. unfold user_data_slot. by rewrite Eb.
  - intros _ m l [= <-]. by exists [].
  - intros _ m l k x y [= <-] H. by apply elem_of_nil in H.
  - intros a b l1 l2 k _ _ _ _ [= <-] _ H. by apply elem_of_nil in H.
Qed.

Lemma verif_def_ok : def_ok verif_def lww_rank.
Proof.
  split; cbn.
  - done.
  - intros m H. apply andb_true_iff in H as [H _]. by apply N.eqb_eq in H.
  - intros m H. apply andb_true_iff in H as [H _]. by apply N.eqb_eq in H.
  - done.
  - intros a b Ha Hb. apply set_msg_basic in Ha as (_ & Ta & _ & Ka & _), Hb as (_ & Tb & _ & Kb & _).
    cbn in Ka, Kb. rewrite !andb_true_iff, !N.eqb_eq in Ka, Kb. apply default_cmp_rank; try done.
    + intros m. unfold is_removal. split; intros ->; done.
    + destruct Ka as [[Ka _]|[Ka _]]; [by left|by right].
    + destruct Kb as [[Kb _]|[Kb _]]; [by left|by right].
  - intros a b _ _. apply lww_rank_hash.
  - intros a b _ _ _ _ Eb. unfold verif_slot. by rewrite Eb.
  - done.
  - done.
  - intros _ m l H. destruct (verif_index m) as [p|]; [|done]. injection H as <-. eexists. split; [done|]. done.
  - intros _ m. by destruct (verif_index m).
  - intros _ m l k x y H. destruct (verif_index m) as [p|]; [|done]. injection H as <-.
    rewrite !elem_of_list_singleton. congruence.
  - intros a b l1 l2 k Ha Hb _ _ E1 E2 H1 H2.
    apply set_msg_basic in Ha as (La & Ta & Fa & _), Hb as (Lb & Tb & Fb & _).
    assert (Hk : forall m l, match verif_index m with Some p => Some [p.1] | None => None end = Some l -> k ∈ l ->
      exists x, verif_slot m = Some x /\ k = 14 :: x ++ make_fid_key (m_fid m)).
    { intros m l H Hl. unfold verif_index in H. unfold verif_slot. destruct (m_body m) as [| | | | |x pr| | | |]; try done.
      destruct (Nat.eqb (length x) 0); [done|]. injection H as <-. apply elem_of_list_singleton in Hl as ->. eauto. }
    destruct (Hk a l1 E1 H1) as (x & S1 & P1), (Hk b l2 E2 H2) as (y & S2 & P2). rewrite P1 in P2.
    assert (X : x ++ make_fid_key (m_fid a) = y ++ make_fid_key (m_fid b)) by congruence.
    apply app_inj_2 in X as [-> X]; [|by rewrite !fid_key_len]. split; [apply fid_key_inj; [lia..|done]|]. left. congruence.
Qed.

Lemma lend_def_ok : def_ok lend_def lww_rank.
Proof.
  split; cbn; try done.
  - intros m. by intros H%N.eqb_eq.
  - intros a b Ha Hb. apply set_msg_basic in Ha as (_ & Ta & _ & Ka & _), Hb as (_ & Tb & _ & Kb & _).
    cbn in Ka, Kb. rewrite !N.eqb_eq in Ka, Kb. apply default_cmp_rank; try done.
    + intros m. unfold is_removal. split; intros ->; done.
    + destruct Ka; [by left|done].
    + destruct Kb; [by left|done].
  - intros a b _ _. apply lww_rank_hash.
  - intros a b _ _ _ _ Eb. unfold lend_slot. by rewrite Eb.
  - intros _ m l [= <-]. eexists. split; [done|]. rewrite <- list_fmap_compose. intros k Hk.
    apply elem_of_list_fmap in Hk as (x & -> & Hx). done.
  - intros _ m l k x y [= <-] H1 H2. apply elem_of_list_fmap in H1 as (? & [= _ ->] & _).
    apply elem_of_list_fmap in H2 as (? & [= _ ->] & _). done.
  - intros a b l1 l2 k Ha Hb _ _ [= <-] [= <-] H1 H2.
    apply set_msg_basic in Ha as (La & Ta & Fa & _), Hb as (Lb & Tb & Fb & _).
    assert (Hk : forall m, k ∈ lend_index m -> exists x, lend_slot m = Some x /\ k = 22 :: x ++ make_fid_key (m_fid m)).
    { intros m H. unfold lend_index in H. unfold lend_slot. destruct (m_body m); try (by apply elem_of_nil in H).
      apply elem_of_list_singleton in H as ->. eauto. }
    destruct (Hk a H1) as (x & S1 & P1), (Hk b H2) as (y & S2 & P2). rewrite P1 in P2.
    assert (X : x ++ make_fid_key (m_fid a) = y ++ make_fid_key (m_fid b)) by congruence.
    apply app_inj_2 in X as [-> X]; [|by rewrite !fid_key_len]. split; [apply fid_key_inj; [lia..|done]|]. left. congruence.
Qed.
