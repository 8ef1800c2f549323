(** Round trips of the consensus messages (ConsensusWire.v). *)
From Coq Require Import ZifyN ZifyNat ZifyBool.
From Verif Require Import Base Consensus Wire WireProofs ConsensusWire.
#[local] Open Scope N_scope.

(** * Reading fields of a written message *)
Lemma occ_app i a b : occ i (a ++ b) = occ i a ++ occ i b.
Proof. unfold occ. by rewrite List.filter_app, map_app. Qed.
Lemma occ_nil i : occ i [] = []. Proof. done. Qed.
Lemma occ_num i n : occ i (f_num i n) = if n =? 0 then [] else [WVar n].
Proof. unfold occ, f_num. destruct (n =? 0); [done|]. cbn. by rewrite N.eqb_refl. Qed.
Lemma occ_num_ne i j n : (j =? i) = false -> occ i (f_num j n) = [].
Proof. intros H. unfold occ, f_num. destruct (n =? 0); [done|]. cbn. by rewrite H. Qed.
Lemma occ_bytes i b : occ i (f_bytes i b) = match b with [] => [] | _ => [WLen b] end.
Proof. unfold occ, f_bytes. destruct b; [done|]. cbn. by rewrite N.eqb_refl. Qed.
Lemma occ_bytes_ne i j b : (j =? i) = false -> occ i (f_bytes j b) = [].
Proof. intros H. unfold occ, f_bytes. destruct b; [done|]. cbn. by rewrite H. Qed.
Lemma occ_sub i o : occ i (f_sub i o) = match o with Some l => [WLen (enc_fields l)] | None => [] end.
Proof. unfold occ, f_sub. destruct o; [|done]. cbn. by rewrite N.eqb_refl. Qed.
Lemma occ_sub_ne i j o : (j =? i) = false -> occ i (f_sub j o) = [].
Proof. intros H. unfold occ, f_sub. destruct o; [|done]. cbn. by rewrite H. Qed.
Lemma occ_rep i l : occ i (f_rep i l) = map WLen l.
Proof. unfold occ, f_rep. induction l as [|b l IH]; [done|]. cbn. rewrite N.eqb_refl. cbn. by rewrite IH. Qed.
Lemma occ_rep_ne i j l : (j =? i) = false -> occ i (f_rep j l) = [].
Proof. intros H. unfold occ, f_rep. induction l as [|b l IH]; [done|]. cbn. by rewrite H. Qed.
Lemma lens_map l : lens (map WLen l) = Some l.
Proof. induction l as [|b l IH]; [done|]. cbn. by rewrite IH. Qed.

Lemma g_num_eq i l n : occ i l = occ i (f_num i n) -> g_num i l = Some n.
Proof. intros H. unfold g_num. rewrite H, occ_num. destruct (N.eqb_spec n 0) as [->|]; done. Qed.
Lemma g_bytes_eq i l b : occ i l = occ i (f_bytes i b) -> g_bytes i l = Some b.
Proof. intros H. unfold g_bytes. rewrite H, occ_bytes. by destruct b. Qed.
Lemma g_rep_eq i l bs : occ i l = occ i (f_rep i bs) -> g_rep i l = Some bs.
Proof. intros H. unfold g_rep. rewrite H, occ_rep. apply lens_map. Qed.
Lemma g_sub_eq {A} (dec : list field -> option A) i l (o : option (list field)) (r : option A) : occ i l = occ i (f_sub i o) ->
  match o, r with Some fs, Some a => forallb field_ok fs = true /\ dec fs = Some a | None, None => True | _, _ => False end ->
  g_sub dec i l = Some r.
Proof.
  intros H Hr. unfold g_sub. rewrite H, occ_sub. destruct o as [fs|], r as [a|]; try done. destruct Hr as [Hok Hd]. cbn [lens parse_all].
  rewrite parse_enc by done. cbn [concat]. by rewrite app_nil_r, Hd.
Qed.
Lemma dec_all_eq {A B} (dec : list field -> option A) (enc : B -> list field) (f : B -> A) l :
  Forall (fun x => forallb field_ok (enc x) = true /\ dec (enc x) = Some (f x)) l -> dec_all dec (map (fun x => enc_fields (enc x)) l) = Some (map f l).
Proof. induction 1 as [|x l [H1 H2] _ IH]; [done|]. cbn [map dec_all]. by rewrite parse_enc, H2, IH. Qed.
Lemma g_reps_eq {A B} (dec : list field -> option A) (enc : B -> list field) (f : B -> A) i l xs :
  occ i l = occ i (f_rep i (map (fun x => enc_fields (enc x)) xs)) ->
  Forall (fun x => forallb field_ok (enc x) = true /\ dec (enc x) = Some (f x)) xs -> g_reps dec i l = Some (map f xs).
Proof. intros H HF. unfold g_reps. rewrite H, occ_rep, lens_map. by apply dec_all_eq. Qed.
(** A oneof with one member written among fields of other numbers. *)
Lemma runs_skip is : forall l cur, forallb (fun f => negb (existsb (N.eqb f.1) is)) l = true ->
  runs is l cur = Some match cur with Some c => [c] | None => [] end.
Proof.
  induction l as [|[i v] l IH]; intros cur H; [done|]. cbn [forallb fst] in H. apply andb_prop in H as [H1 H2]. cbn [runs].
  destruct (existsb (N.eqb i) is); [done|]. by apply IH.
Qed.
Lemma runs_app_skip is : forall l l' cur, forallb (fun f => negb (existsb (N.eqb f.1) is)) l = true -> runs is (l ++ l') cur = runs is l' cur.
Proof.
  induction l as [|[i v] l IH]; intros l' cur H; [done|]. cbn [forallb fst] in H. apply andb_prop in H as [H1 H2]. cbn [app runs].
  destruct (existsb (N.eqb i) is); [done|]. by apply IH.
Qed.
Lemma g_oneof_eq {A} (dec : N -> list field -> option A) is pre post i fs a :
  forallb (fun f => negb (existsb (N.eqb f.1) is)) pre = true -> forallb (fun f => negb (existsb (N.eqb f.1) is)) post = true ->
  existsb (N.eqb i) is = true -> forallb field_ok fs = true -> dec i fs = Some a ->
  g_oneof dec is (pre ++ f_sub i (Some fs) ++ post) = Some (Some a).
Proof.
  intros H1 H2 H3 H4 H5. unfold g_oneof. rewrite runs_app_skip by done. unfold f_sub. cbn [app runs]. rewrite H3, parse_enc by done.
  rewrite runs_skip by done. cbn [dec_runs]. by rewrite H5.
Qed.
Lemma g_oneof_eq0 {A} (dec : N -> list field -> option A) is post i fs a :
  forallb (fun f => negb (existsb (N.eqb f.1) is)) post = true ->
  existsb (N.eqb i) is = true -> forallb field_ok fs = true -> dec i fs = Some a ->
  g_oneof dec is (f_sub i (Some fs) ++ post) = Some (Some a).
Proof. intros. by apply (g_oneof_eq dec is []). Qed.
Lemma g_oneof_eq1 {A} (dec : N -> list field -> option A) is i fs a :
  existsb (N.eqb i) is = true -> forallb field_ok fs = true -> dec i fs = Some a ->
  g_oneof dec is (f_sub i (Some fs)) = Some (Some a).
Proof. intros. rewrite <- (app_nil_r (f_sub i (Some fs))). by apply (g_oneof_eq dec is []). Qed.
Lemma g_oneof_none {A} (dec : N -> list field -> option A) is l :
  forallb (fun f => negb (existsb (N.eqb f.1) is)) l = true -> g_oneof dec is l = Some None.
Proof. intros H. unfold g_oneof. by rewrite runs_skip. Qed.

(** * Sizes and validity of written fields *)
Definition fsize (f : field) : N := 20 + match f.2 with WVar _ => 0 | W64 b | W32 b | WLen b => N.of_nat (length b) end.
Definition fsizes (l : list field) : N := foldr (fun f n => fsize f + n) 0 l.
Lemma varint_aux_len : forall f n, (length (varint_aux f n) <= f)%nat.
Proof. induction f as [|f IH]; intros n; [done|]. cbn [varint_aux]. destruct (n <? 128); cbn; [lia|]. pose proof (IH (n / 128)). lia. Qed.
Lemma varint_len n : (length (varint n) <= 10)%nat. Proof. apply varint_aux_len. Qed.
Lemma fsizes_cons f l : fsizes (f :: l) = fsize f + fsizes l. Proof. done. Qed.
Lemma enc_fields_cons f l : enc_fields (f :: l) = enc_field f ++ enc_fields l. Proof. done. Qed.
Lemma enc_fields_len l : N.of_nat (length (enc_fields l)) <= fsizes l.
Proof.
  induction l as [|[i v] l IH]; [cbn; lia|]. rewrite fsizes_cons, enc_fields_cons, app_length.
  unfold enc_field, fsize. cbn [fst snd]. rewrite app_length. pose proof (varint_len (i * 8 + wire_type v)).
  destruct v as [n|b|b|b]; [pose proof (varint_len n)|..]; rewrite ?app_length; try pose proof (varint_len (N.of_nat (length b))); lia.
Qed.
Lemma fsizes_app a b : fsizes (a ++ b) = fsizes a + fsizes b.
Proof. induction a as [|f a IH]; [done|]. cbn [app]. rewrite !fsizes_cons. lia. Qed.
Lemma fsizes_num i n : fsizes (f_num i n) <= 20.
Proof. unfold f_num. destruct (n =? 0); [cbn; lia|]. rewrite fsizes_cons. unfold fsize. cbn. lia. Qed.
Lemma fsizes_bytes i b : fsizes (f_bytes i b) <= 20 + N.of_nat (length b).
Proof. unfold f_bytes. destruct b as [|x b]; [cbn; lia|]. rewrite fsizes_cons. unfold fsize. cbn [snd]. change (fsizes []) with 0. lia. Qed.
Lemma fsizes_sub i l : fsizes (f_sub i (Some l)) <= 20 + fsizes l.
Proof. unfold f_sub. rewrite fsizes_cons. unfold fsize. cbn [snd]. change (fsizes []) with 0. pose proof (enc_fields_len l). lia. Qed.

Definition num_ok (i : N) : bool := (1 <=? i) && (i <? 2 ^ 29).
Lemma ok_app a b : forallb field_ok (a ++ b) = forallb field_ok a && forallb field_ok b.
Proof. apply forallb_app. Qed.
Lemma ok_num i n : num_ok i = true -> n < 2 ^ 64 -> forallb field_ok (f_num i n) = true.
Proof. intros Hi Hn. unfold f_num. destruct (n =? 0); [done|]. cbn [forallb]. unfold field_ok, num_ok in *. cbn [fst snd]. rewrite Hi. apply N.ltb_lt in Hn. by rewrite Hn. Qed.
Lemma ok_bytes i b : num_ok i = true -> N.of_nat (length b) < 2 ^ 64 -> forallb field_ok (f_bytes i b) = true.
Proof. intros Hi Hn. unfold f_bytes. destruct b; [done|]. cbn [forallb]. unfold field_ok, num_ok in *. cbn [fst snd]. rewrite Hi. apply N.ltb_lt in Hn. by rewrite Hn. Qed.
Lemma ok_sub i l : num_ok i = true -> fsizes l < 2 ^ 64 -> forallb field_ok (f_sub i (Some l)) = true.
Proof.
  intros Hi Hn. unfold f_sub. cbn [forallb]. unfold field_ok, num_ok in *. cbn [fst snd]. rewrite Hi. pose proof (enc_fields_len l).
  assert (N.of_nat (length (enc_fields l)) < 2 ^ 64) as H' by lia. apply N.ltb_lt in H'. by rewrite H'.
Qed.
Lemma ok_rep i l : num_ok i = true -> forallb (fun b => N.of_nat (length b) <? 2 ^ 64) l = true -> forallb field_ok (f_rep i l) = true.
Proof.
  intros Hi H. unfold f_rep. induction l as [|b l IH]; [done|]. cbn [forallb] in H. apply andb_prop in H as [H1 H2]. cbn [map forallb].
  rewrite IH by done. rewrite andb_true_r. unfold field_ok, num_ok in *. cbn [fst snd]. by rewrite Hi.
Qed.

(** * Integers *)
Lemma u64_of_lt z : u64_of z < 2 ^ 64.
Proof. unfold u64_of. pose proof (Z.mod_pos_bound z (2 ^ 64)). change (2 ^ 64) with (Z.to_N (2 ^ 64)). lia. Qed.
Lemma i64_u64 z : (- 2 ^ 63 <= z < 2 ^ 63)%Z -> i64_of (u64_of z) = z.
Proof.
  intros H. unfold i64_of, u64_of. change (2 ^ 64)%Z with 18446744073709551616%Z. change (2 ^ 63)%Z with 9223372036854775808%Z in *.
  rewrite Z2N.id by (apply Z.mod_pos_bound; lia). rewrite Z.mod_mod by lia. destruct (Z.ltb_spec (z mod 18446744073709551616) 9223372036854775808); lia.
Qed.
Lemma i32_u64 z : (- 2 ^ 31 <= z < 2 ^ 31)%Z -> i32_of (u64_of z) = z.
Proof.
  intros H. unfold i32_of, u64_of. change (2 ^ 64)%Z with 18446744073709551616%Z. change (2 ^ 32)%Z with 4294967296%Z. change (2 ^ 31)%Z with 2147483648%Z in *.
  rewrite Z2N.id by (apply Z.mod_pos_bound; lia).
  destruct (Z.ltb_spec ((z mod 18446744073709551616) mod 4294967296) 2147483648); lia.
Qed.

(** * The messages *)
Definition small (b : bytes) : bool := N.of_nat (length b) <? 2 ^ 32.
Definition opt_ok {A} (p : A -> bool) (o : option A) : bool := match o with Some a => p a | None => true end.
Definition height_ok (h : height) : bool := (h.1 <? 2 ^ 32) && (h.2 <? 2 ^ 64).
Definition shash_ok (v : shash) : bool := (v.1 <? 2 ^ 32) && small v.2.
Definition i64_ok (z : Z) : bool := ((- 2 ^ 63 <=? z) && (z <? 2 ^ 63))%Z.
Definition i32_ok (z : Z) : bool := ((- 2 ^ 31 <=? z) && (z <? 2 ^ 31))%Z.
Definition pvote_ok (v : pvote) : bool :=
  i32_ok (pv_type v) && opt_ok height_ok (pv_height v) && i64_ok (pv_round v) && opt_ok shash_ok (pv_value v) && small (pv_voter v).
Definition pprop_ok (p : pprop) : bool :=
  opt_ok height_ok (pp_height p) && i64_ok (pp_round p) && i64_ok (pp_pol p) && small (pp_proposer p) && opt_ok shash_ok (pp_value p).
Definition csig_ok (s : csig) : bool := small (sg_addr s) && small (sg_sig s).
Definition commits_ok (c : commits) : bool :=
  opt_ok height_ok (cm_height c) && i64_ok (cm_round c) && opt_ok shash_ok (cm_value c) && forallb csig_ok (cm_sigs c) && (N.of_nat (length (cm_sigs c)) <? 2 ^ 24).
Definition pcm_ok (m : pcm) : bool :=
  match pc_body m with Some (PBVote v) => pvote_ok v | Some (PBProp p) => pprop_ok p | None => true end && small (pc_sig m).
Definition pstatus_ok (s : pstatus) : bool := small (ps_peer s) && opt_ok height_ok (ps_height s) && opt_ok height_ok (ps_min s).

Ltac occs :=
  rewrite ?occ_app;
  repeat match goal with
         | |- context [occ ?i (f_num ?j ?n)] => rewrite (occ_num_ne i j n) by done
         | |- context [occ ?i (f_bytes ?j ?n)] => rewrite (occ_bytes_ne i j n) by done
         | |- context [occ ?i (f_sub ?j ?n)] => rewrite (occ_sub_ne i j n) by done
         | |- context [occ ?i (f_rep ?j ?n)] => rewrite (occ_rep_ne i j n) by done
         end; rewrite ?app_nil_r; cbn [app]; reflexivity.
Ltac bsplit := repeat match goal with H : _ && _ = true |- _ => apply andb_prop in H as [? ?] end.
Ltac oks := rewrite ?ok_app; repeat (apply andb_true_intro; split); first [apply ok_num; [done|]|apply ok_bytes; [done|]|idtac].

Lemma small_lt b : small b = true -> N.of_nat (length b) < 4294967296.
Proof. unfold small. intros H. by apply N.ltb_lt in H. Qed.
Lemma height_rt h : height_ok h = true -> dec_height (enc_height h) = Some h.
Proof.
  destruct h as [a b]. unfold height_ok, dec_height, enc_height. cbn [fst snd]. intros H. bsplit.
  rewrite (g_num_eq 1 _ a) by occs. rewrite (g_num_eq 2 _ b) by occs. rewrite N.mod_small; [done|]. by apply N.ltb_lt.
Qed.
Lemma height_fok h : height_ok h = true -> forallb field_ok (enc_height h) = true /\ fsizes (enc_height h) <= 40.
Proof.
  destruct h as [a b]. unfold height_ok, enc_height. cbn [fst snd]. intros H. bsplit. split.
  - rewrite ok_app. rewrite !ok_num; [done|done|by apply N.ltb_lt|done|]. apply N.ltb_lt in H. eapply N.lt_le_trans; [exact H|done].
  - rewrite fsizes_app. pose proof (fsizes_num 1 a). pose proof (fsizes_num 2 b). lia.
Qed.
Lemma shash_rt v : shash_ok v = true -> dec_shash (enc_shash v) = Some v.
Proof.
  destruct v as [a b]. unfold shash_ok, dec_shash, enc_shash. cbn [fst snd]. intros H. bsplit.
  rewrite (g_num_eq 1 _ a) by occs. rewrite (g_bytes_eq 2 _ b) by occs. rewrite N.mod_small; [done|]. by apply N.ltb_lt.
Qed.
Lemma shash_fok v : shash_ok v = true -> forallb field_ok (enc_shash v) = true /\ fsizes (enc_shash v) <= 2 ^ 33.
Proof.
  destruct v as [a b]. unfold shash_ok, enc_shash. cbn [fst snd]. intros H. bsplit. apply N.ltb_lt in H. pose proof (small_lt _ H0). split.
  - rewrite ok_app. rewrite ok_num, ok_bytes; [done|done| |done|].
    + change (2 ^ 64) with 18446744073709551616. lia.
    + eapply N.lt_le_trans; [exact H|done].
  - rewrite fsizes_app. pose proof (fsizes_num 1 a). pose proof (fsizes_bytes 2 b). change (2 ^ 33) with 8589934592. lia.
Qed.
(** An optional embedded message. *)
Lemma sub_rt {A} (p : A -> bool) (enc : A -> list field) dec i l o :
  (forall a, p a = true -> dec (enc a) = Some a) -> (forall a, p a = true -> forallb field_ok (enc a) = true) -> opt_ok p o = true ->
  occ i l = occ i (f_sub i (enc <$> o)) -> g_sub dec i l = Some o.
Proof. intros H1 H2 Ho H. apply (g_sub_eq _ _ _ _ _ H). destruct o as [a|]; [|done]. cbn in *. auto. Qed.
Lemma sub_fok {A} (p : A -> bool) (enc : A -> list field) i o n : num_ok i = true -> n < 2 ^ 60 ->
  (forall a, p a = true -> forallb field_ok (enc a) = true /\ fsizes (enc a) <= n) -> opt_ok p o = true ->
  forallb field_ok (f_sub i (enc <$> o)) = true /\ fsizes (f_sub i (enc <$> o)) <= 20 + n.
Proof.
  intros Hi Hn H Ho. destruct o as [a|]; cbn [fmap option_fmap option_map]; [|split; [done|cbn; lia]]. destruct (H a Ho) as [H1 H2]. split.
  - apply ok_sub; [done|]. change (2 ^ 60) with 1152921504606846976 in Hn. change (2 ^ 64) with 18446744073709551616. lia.
  - pose proof (fsizes_sub i (enc a)). lia.
Qed.
Lemma i64_rt z : i64_ok z = true -> i64_of (u64_of z) = z.
Proof. unfold i64_ok. intros H. bsplit. apply i64_u64. lia. Qed.
Lemma i32_rt z : i32_ok z = true -> i32_of (u64_of z) = z.
Proof. unfold i32_ok. intros H. bsplit. apply i32_u64. lia. Qed.

Lemma vote_rt v : pvote_ok v = true -> dec_vote (enc_vote v) = Some v.
Proof.
  destruct v as [t h r s b]. unfold pvote_ok, dec_vote, enc_vote. cbn [pv_type pv_height pv_round pv_value pv_voter]. intros H. bsplit.
  rewrite (g_num_eq 1 _ (u64_of t)) by occs. rewrite (sub_rt height_ok enc_height dec_height 2 _ h); [|apply height_rt|apply height_fok|done|occs].
  rewrite (g_num_eq 3 _ (u64_of r)) by occs. rewrite (sub_rt shash_ok enc_shash dec_shash 4 _ s); [|apply shash_rt|apply shash_fok|done|occs].
  rewrite (g_bytes_eq 5 _ b) by occs. by rewrite i32_rt, i64_rt.
Qed.
Lemma vote_fok v : pvote_ok v = true -> forallb field_ok (enc_vote v) = true /\ fsizes (enc_vote v) <= 2 ^ 35.
Proof.
  destruct v as [t h r s b]. unfold pvote_ok, enc_vote. cbn [pv_type pv_height pv_round pv_value pv_voter]. intros H. bsplit.
  destruct (sub_fok height_ok enc_height 2 h 40) as [A1 A2]; [done|done|apply height_fok|done|].
  destruct (sub_fok shash_ok enc_shash 4 s (2 ^ 33)) as [B1 B2]; [done|done|apply shash_fok|done|].
  pose proof (small_lt b ltac:(done)) as Hb. change (2 ^ 33) with 8589934592 in B2. change (2 ^ 35) with 34359738368. split.
  - rewrite !ok_app, A1, B1. rewrite !ok_num by (done || apply u64_of_lt). rewrite ok_bytes; [done|done|]. change (2 ^ 64) with 18446744073709551616. lia.
  - rewrite !fsizes_app. pose proof (fsizes_num 1 (u64_of t)). pose proof (fsizes_num 3 (u64_of r)). pose proof (fsizes_bytes 5 b). lia.
Qed.
Lemma prop_rt p : pprop_ok p = true -> dec_prop (enc_prop p) = Some p.
Proof.
  destruct p as [h r q b s]. unfold pprop_ok, dec_prop, enc_prop. cbn [pp_height pp_round pp_pol pp_proposer pp_value]. intros H. bsplit.
  rewrite (sub_rt height_ok enc_height dec_height 1 _ h); [|apply height_rt|apply height_fok|done|occs].
  rewrite (g_num_eq 2 _ (u64_of r)) by occs. rewrite (g_num_eq 3 _ (u64_of q)) by occs. rewrite (g_bytes_eq 4 _ b) by occs.
  rewrite (sub_rt shash_ok enc_shash dec_shash 5 _ s); [|apply shash_rt|apply shash_fok|done|occs]. by rewrite !i64_rt.
Qed.
Lemma prop_fok p : pprop_ok p = true -> forallb field_ok (enc_prop p) = true /\ fsizes (enc_prop p) <= 2 ^ 35.
Proof.
  destruct p as [h r q b s]. unfold pprop_ok, enc_prop. cbn [pp_height pp_round pp_pol pp_proposer pp_value]. intros H. bsplit.
  destruct (sub_fok height_ok enc_height 1 h 40) as [A1 A2]; [done|done|apply height_fok|done|].
  destruct (sub_fok shash_ok enc_shash 5 s (2 ^ 33)) as [B1 B2]; [done|done|apply shash_fok|done|].
  pose proof (small_lt b ltac:(done)) as Hb. change (2 ^ 33) with 8589934592 in B2. change (2 ^ 35) with 34359738368. split.
  - rewrite !ok_app, A1, B1. rewrite !ok_num by (done || apply u64_of_lt). rewrite ok_bytes; [done|done|]. change (2 ^ 64) with 18446744073709551616. lia.
  - rewrite !fsizes_app. pose proof (fsizes_num 2 (u64_of r)). pose proof (fsizes_num 3 (u64_of q)). pose proof (fsizes_bytes 4 b). lia.
Qed.
Lemma csig_rt s : csig_ok s = true -> dec_csig (enc_csig s) = Some s.
Proof.
  destruct s as [a b]. unfold csig_ok, dec_csig, enc_csig. cbn [sg_addr sg_sig]. intros H. bsplit.
  rewrite (g_bytes_eq 1 _ a) by occs. by rewrite (g_bytes_eq 2 _ b) by occs.
Qed.
Lemma csig_fok s : csig_ok s = true -> forallb field_ok (enc_csig s) = true /\ fsizes (enc_csig s) <= 2 ^ 34.
Proof.
  destruct s as [a b]. unfold csig_ok, enc_csig. cbn [sg_addr sg_sig]. intros H. bsplit.
  pose proof (small_lt a ltac:(done)). pose proof (small_lt b ltac:(done)). change (2 ^ 34) with 17179869184. split.
  - rewrite ok_app, !ok_bytes; [done|done| |done|]; change (2 ^ 64) with 18446744073709551616; lia.
  - rewrite fsizes_app. pose proof (fsizes_bytes 1 a). pose proof (fsizes_bytes 2 b). lia.
Qed.
Lemma rep_fok {A} (p : A -> bool) (enc : A -> list field) i l n : num_ok i = true -> n < 2 ^ 60 ->
  (forall a, p a = true -> forallb field_ok (enc a) = true /\ fsizes (enc a) <= n) -> forallb p l = true ->
  forallb field_ok (f_rep i (map (fun a => enc_fields (enc a)) l)) = true /\
  fsizes (f_rep i (map (fun a => enc_fields (enc a)) l)) <= N.of_nat (length l) * (20 + n).
Proof.
  intros Hi Hn H Hl. induction l as [|a l IH]; [split; [done|cbn; lia]|]. cbn [forallb] in Hl. apply andb_prop in Hl as [Ha Hl].
  destruct (IH Hl) as [I1 I2]. destruct (H a Ha) as [H1 H2]. unfold f_rep in *. cbn [map]. pose proof (enc_fields_len (enc a)). split.
  - cbn [forallb]. rewrite I1, andb_true_r. unfold field_ok, num_ok in *. cbn [fst snd]. rewrite Hi. cbn [andb]. apply N.ltb_lt.
    change (2 ^ 60) with 1152921504606846976 in Hn. change (2 ^ 64) with 18446744073709551616. lia.
  - rewrite fsizes_cons. unfold fsize. cbn [snd length]. lia.
Qed.
Lemma reps_rt {A} (p : A -> bool) (enc : A -> list field) dec i l xs :
  (forall a, p a = true -> dec (enc a) = Some a) -> (forall a, p a = true -> forallb field_ok (enc a) = true) -> forallb p xs = true ->
  occ i l = occ i (f_rep i (map (fun x => enc_fields (enc x)) xs)) -> g_reps dec i l = Some xs.
Proof.
  intros H1 H2 Hp H. rewrite (g_reps_eq dec enc id _ _ _ H); [by rewrite map_id|]. rewrite forallb_forall in Hp. apply Forall_forall.
  intros x Hx. apply elem_of_list_In in Hx. split; [apply H2|apply H1]; by apply Hp.
Qed.
Lemma commits_rt c : commits_ok c = true -> dec_commits (enc_commits c) = Some c.
Proof.
  destruct c as [h r v s]. unfold commits_ok, dec_commits, enc_commits. cbn [cm_height cm_round cm_value cm_sigs]. intros H. bsplit.
  rewrite (sub_rt height_ok enc_height dec_height 1 _ h); [|apply height_rt|apply height_fok|done|occs].
  rewrite (g_num_eq 2 _ (u64_of r)) by occs.
  rewrite (sub_rt shash_ok enc_shash dec_shash 3 _ v); [|apply shash_rt|apply shash_fok|done|occs].
  rewrite (reps_rt csig_ok enc_csig dec_csig 4 _ s); [|apply csig_rt|apply csig_fok|done|occs]. by rewrite i64_rt.
Qed.
Lemma commits_fok c : commits_ok c = true -> forallb field_ok (enc_commits c) = true /\ fsizes (enc_commits c) <= 2 ^ 59.
Proof.
  destruct c as [h r v s]. unfold commits_ok, enc_commits. cbn [cm_height cm_round cm_value cm_sigs]. intros H. bsplit.
  destruct (sub_fok height_ok enc_height 1 h 40) as [A1 A2]; [done|done|apply height_fok|done|].
  destruct (sub_fok shash_ok enc_shash 3 v (2 ^ 33)) as [B1 B2]; [done|done|apply shash_fok|done|].
  destruct (rep_fok csig_ok enc_csig 4 s (2 ^ 34)) as [C1 C2]; [done|done|apply csig_fok|done|].
  apply N.ltb_lt in H0. change (2 ^ 33) with 8589934592 in B2. change (2 ^ 34) with 17179869184 in C2. change (2 ^ 24) with 16777216 in H0.
  change (2 ^ 59) with 576460752303423488. split.
  - rewrite !ok_app, A1, B1, C1. by rewrite !ok_num by (done || apply u64_of_lt).
  - rewrite !fsizes_app. pose proof (fsizes_num 2 (u64_of r)). nia.
Qed.
Lemma cm_rt m : pcm_ok m = true -> dec_cm (enc_cm m) = Some m.
Proof.
  destruct m as [b s]. unfold pcm_ok, dec_cm, enc_cm. cbn [pc_body pc_sig]. intros H. bsplit.
  destruct b as [[v|p]|].
  - rewrite (g_oneof_eq0 dec_body [1; 2] (f_bytes 3 s) 1 (enc_vote v) (PBVote v)); [|by destruct s|done|by apply vote_fok|].
    + rewrite (g_bytes_eq 3 _ s) by occs. done.
    + unfold dec_body. change (1 =? 1) with true. cbn [fmap option_fmap option_map]. by rewrite vote_rt.
  - rewrite (g_oneof_eq0 dec_body [1; 2] (f_bytes 3 s) 2 (enc_prop p) (PBProp p)); [|by destruct s|done|by apply prop_fok|].
    + rewrite (g_bytes_eq 3 _ s) by occs. done.
    + unfold dec_body. change (2 =? 1) with false. by rewrite prop_rt.
  - cbn [app]. rewrite g_oneof_none by (by destruct s). by rewrite (g_bytes_eq 3 _ s) by occs.
Qed.
Lemma cm_fok m : pcm_ok m = true -> forallb field_ok (enc_cm m) = true /\ fsizes (enc_cm m) <= 2 ^ 36.
Proof.
  destruct m as [b s]. unfold pcm_ok, enc_cm. cbn [pc_body pc_sig]. intros H. bsplit.
  pose proof (small_lt s ltac:(done)). pose proof (fsizes_bytes 3 s). change (2 ^ 36) with 68719476736.
  assert (forallb field_ok (f_bytes 3 s) = true) as Hs by (apply ok_bytes; [done|]; change (2 ^ 64) with 18446744073709551616; lia).
  destruct b as [[v|p]|].
  - destruct (vote_fok v) as [V1 V2]; [done|]. change (2 ^ 35) with 34359738368 in V2. pose proof (fsizes_sub 1 (enc_vote v)). split.
    + rewrite ok_app, Hs, ok_sub; [done|done|]. change (2 ^ 64) with 18446744073709551616. lia.
    + rewrite fsizes_app. lia.
  - destruct (prop_fok p) as [V1 V2]; [done|]. change (2 ^ 35) with 34359738368 in V2. pose proof (fsizes_sub 2 (enc_prop p)). split.
    + rewrite ok_app, Hs, ok_sub; [done|done|]. change (2 ^ 64) with 18446744073709551616. lia.
    + rewrite fsizes_app. lia.
  - split; [done|]. cbn [app]. lia.
Qed.
Lemma status_rt s : pstatus_ok s = true -> dec_status (enc_status s) = Some s.
Proof.
  destruct s as [p h m]. unfold pstatus_ok, dec_status, enc_status. cbn [ps_peer ps_height ps_min]. intros H. bsplit.
  rewrite (g_bytes_eq 1 _ p) by occs. rewrite (sub_rt height_ok enc_height dec_height 2 _ h); [|apply height_rt|apply height_fok|done|occs].
  by rewrite (sub_rt height_ok enc_height dec_height 3 _ m); [|apply height_rt|apply height_fok|done|occs].
Qed.
Lemma status_fok s : pstatus_ok s = true -> forallb field_ok (enc_status s) = true /\ fsizes (enc_status s) <= 2 ^ 33.
Proof.
  destruct s as [p h m]. unfold pstatus_ok, enc_status. cbn [ps_peer ps_height ps_min]. intros H. bsplit.
  destruct (sub_fok height_ok enc_height 2 h 40) as [A1 A2]; [done|done|apply height_fok|done|].
  destruct (sub_fok height_ok enc_height 3 m 40) as [B1 B2]; [done|done|apply height_fok|done|].
  pose proof (small_lt p ltac:(done)). pose proof (fsizes_bytes 1 p). change (2 ^ 33) with 8589934592. split.
  - rewrite !ok_app, A1, B1, ok_bytes; [done|done|]. change (2 ^ 64) with 18446744073709551616. lia.
  - rewrite !fsizes_app. lia.
Qed.

(** Requests and responses. *)
Definition preq_ok (r : preq) : bool := match r with PRValue h => opt_ok height_ok h | PRVotes h r => opt_ok height_ok h && i64_ok r end.
Lemma req_rt r : preq_ok r = true -> dec_req (enc_req (Some r)) = Some (Some r).
Proof.
  intros H. unfold dec_req, enc_req. destruct r as [h|h r]; cbn [preq_ok] in H; bsplit.
  - destruct (sub_fok height_ok enc_height 1 h 40) as [A1 A2]; [done|done|apply height_fok|done|].
    apply g_oneof_eq1; [done|done|]. unfold dec_req1. change (1 =? 1) with true. cbv iota.
    by rewrite (sub_rt height_ok enc_height dec_height 1 _ h); [|apply height_rt|apply height_fok|done|occs].
  - destruct (sub_fok height_ok enc_height 1 h 40) as [A1 A2]; [done|done|apply height_fok|done|].
    apply g_oneof_eq1; [done| |].
    + rewrite ok_app, A1, ok_num; [done|done|apply u64_of_lt].
    + unfold dec_req1. change (2 =? 1) with false. cbv iota.
      rewrite (sub_rt height_ok enc_height dec_height 1 _ h); [|apply height_rt|apply height_fok|done|occs].
      rewrite (g_num_eq 2 _ (u64_of r)) by occs. by rewrite i64_rt.
Qed.
Lemma req_fok r : preq_ok r = true -> forallb field_ok (enc_req (Some r)) = true.
Proof.
  intros H. unfold enc_req. destruct r as [h|h r]; cbn [preq_ok] in H; bsplit;
    (destruct (sub_fok height_ok enc_height 1 h 40) as [A1 A2]; [done|done|apply height_fok|done|]); (apply ok_sub; [done|]);
    change (2 ^ 64) with 18446744073709551616; rewrite ?fsizes_app; [lia|]. pose proof (fsizes_num 2 (u64_of r)). lia.
Qed.
Definition presp_ok (r : presp) : bool :=
  match r with
  | PSValue h v c => opt_ok height_ok h && small v && opt_ok commits_ok c
  | PSVotes h r vs ss =>
      opt_ok height_ok h && i64_ok r && forallb pvote_ok vs && forallb small ss &&
      (N.of_nat (length vs) <? 2 ^ 24) && (N.of_nat (length ss) <? 2 ^ 24)
  end.
Lemma reps_bytes_fok i l : num_ok i = true -> forallb small l = true ->
  forallb field_ok (f_rep i l) = true /\ fsizes (f_rep i l) <= N.of_nat (length l) * (20 + 2 ^ 32).
Proof.
  intros Hi. unfold f_rep. induction l as [|b l IH]; intros Hl; [split; [done|cbn; lia]|]. cbn [forallb] in Hl. apply andb_prop in Hl as [Hb Hl].
  destruct (IH Hl) as [I1 I2]. apply small_lt in Hb. cbn [map]. split.
  - cbn [forallb]. rewrite I1, andb_true_r. unfold field_ok, num_ok in *. cbn [fst snd]. rewrite Hi. cbn [andb]. apply N.ltb_lt.
    change (2 ^ 64) with 18446744073709551616. lia.
  - rewrite fsizes_cons. unfold fsize. cbn [snd length]. change (2 ^ 32) with 4294967296 in *. lia.
Qed.
Lemma presp_inner r : presp_ok r = true -> exists i fs, enc_resp (Some r) = f_sub i (Some fs) /\ num_ok i = true /\ existsb (N.eqb i) [1; 2] = true /\
  forallb field_ok fs = true /\ fsizes fs < 2 ^ 61 /\ dec_resp1 i fs = Some r.
Proof.
  intros H. destruct r as [h v c|h r vs ss]; cbn [presp_ok] in H; bsplit; unfold enc_resp.
  - destruct (sub_fok height_ok enc_height 1 h 40) as [A1 A2]; [done|done|apply height_fok|done|].
    destruct (sub_fok commits_ok enc_commits 3 c (2 ^ 59)) as [B1 B2]; [done|done|apply commits_fok|done|].
    pose proof (small_lt v ltac:(done)). eexists 1, _. split; [done|]. split; [done|]. split; [done|]. split; [|split].
    + rewrite !ok_app, A1, B1, ok_bytes; [done|done|]. change (2 ^ 64) with 18446744073709551616. lia.
    + rewrite !fsizes_app. pose proof (fsizes_bytes 2 v). change (2 ^ 59) with 576460752303423488 in *. change (2 ^ 61) with 2305843009213693952. lia.
    + unfold dec_resp1. change (1 =? 1) with true. cbv iota.
      rewrite (sub_rt height_ok enc_height dec_height 1 _ h); [|apply height_rt|apply height_fok|done|occs].
      rewrite (g_bytes_eq 2 _ v) by occs.
      by rewrite (sub_rt commits_ok enc_commits dec_commits 3 _ c); [|apply commits_rt|apply commits_fok|done|occs].
  - destruct (sub_fok height_ok enc_height 1 h 40) as [A1 A2]; [done|done|apply height_fok|done|].
    destruct (rep_fok pvote_ok enc_vote 3 vs (2 ^ 35)) as [B1 B2]; [done|done|apply vote_fok|done|].
    destruct (reps_bytes_fok 4 ss) as [C1 C2]; [done|done|]. eexists 2, _. split; [done|]. split; [done|]. split; [done|]. split; [|split].
    + rewrite !ok_app, A1, B1, C1, ok_num; [done|done|apply u64_of_lt].
    + rewrite !fsizes_app. pose proof (fsizes_num 2 (u64_of r)).
      match goal with H : (N.of_nat (length vs) <? _) = true |- _ => apply N.ltb_lt in H; change (2 ^ 24) with 16777216 in H end.
      match goal with H : (N.of_nat (length ss) <? _) = true |- _ => apply N.ltb_lt in H; change (2 ^ 24) with 16777216 in H end.
      change (2 ^ 35) with 34359738368 in *. change (2 ^ 32) with 4294967296 in *. change (2 ^ 61) with 2305843009213693952. nia.
    + unfold dec_resp1. change (2 =? 1) with false. cbv iota.
      rewrite (sub_rt height_ok enc_height dec_height 1 _ h); [|apply height_rt|apply height_fok|done|occs].
      rewrite (g_num_eq 2 _ (u64_of r)) by occs.
      rewrite (reps_rt pvote_ok enc_vote dec_vote 3 _ vs); [|apply vote_rt|apply vote_fok|done|occs].
      rewrite (g_rep_eq 4 _ ss) by occs. by rewrite i64_rt.
Qed.
Lemma resp_rt r : presp_ok r = true -> dec_resp (enc_resp (Some r)) = Some (Some r) /\ forallb field_ok (enc_resp (Some r)) = true.
Proof.
  intros H. destruct (presp_inner r H) as (i & fs & -> & Hi & Hin & Hok & Hsz & Hd). split.
  - unfold dec_resp. by apply g_oneof_eq1.
  - apply ok_sub; [done|]. eapply N.lt_trans; [exact Hsz|done].
Qed.

(** * The engine's values *)
Definition round_ok (r : round) : bool := match r with RNil => true | RSome n => n <? 2 ^ 32 end.
Definition cvote_ok (v : cvote) : bool :=
  height_ok (cv_height v) && round_ok (cv_round v) && opt_ok shash_ok (cv_value v) && addr_ok (cv_voter v).
Definition cprop_ok (p : cprop) : bool :=
  height_ok (cp_height p) && round_ok (cp_round p) && shash_ok (cp_value p) && round_ok (cp_pol p) && addr_ok (cp_proposer p).
Definition ccert_ok (c : ccert) : bool :=
  height_ok (cc_height c) && round_ok (cc_round c) && shash_ok (cc_value c) &&
  forallb (fun s => addr_ok (sg_addr s) && small (sg_sig s)) (cc_sigs c) && (N.of_nat (length (cc_sigs c)) <? 2 ^ 24).
Lemma round_rt r : round_ok r = true -> round_of (round_i64 r) = r.
Proof.
  destruct r as [|n]; [done|]. cbn [round_ok round_i64]. intros H%N.ltb_lt. change (2 ^ 32) with 4294967296 in H. unfold round_of.
  destruct (Z.ltb_spec (Z.of_N n) 0); [lia|]. rewrite Z.mod_small by (change (2 ^ 32)%Z with 4294967296%Z; lia). by rewrite N2Z.id.
Qed.
Lemma round_i64_ok r : round_ok r = true -> i64_ok (round_i64 r) = true.
Proof.
  destruct r as [|n]; [done|]. cbn [round_ok round_i64]. intros H%N.ltb_lt. unfold i64_ok. change (2 ^ 32) with 4294967296 in H.
  change (2 ^ 63)%Z with 9223372036854775808%Z. apply andb_true_intro. split; [apply Z.leb_le|apply Z.ltb_lt]; lia.
Qed.
Lemma addr_small b : addr_ok b = true -> small b = true.
Proof. unfold addr_ok, small. intros H%Nat.eqb_eq. by rewrite H. Qed.
Lemma cvote_rt v : cvote_ok v = true -> vote_of (vote_proto v) = Some v /\ pvote_ok (vote_proto v) = true.
Proof.
  destruct v as [t h r s b]. unfold cvote_ok, vote_of, vote_proto, pvote_ok. cbn [cv_type cv_height cv_round cv_value cv_voter pv_type pv_height pv_round pv_value pv_voter].
  intros H. bsplit. split.
  - destruct t; cbn; rewrite H0, round_rt; done.
  - cbn [opt_ok]. rewrite round_i64_ok, addr_small, H1, H by done. destruct t; done.
Qed.
Lemma cprop_rt p : cprop_ok p = true -> prop_of (prop_proto p) = Some p /\ pprop_ok (prop_proto p) = true.
Proof.
  destruct p as [h r v q b]. unfold cprop_ok, prop_of, prop_proto, pprop_ok. cbn [cp_height cp_round cp_value cp_pol cp_proposer pp_height pp_round pp_value pp_pol pp_proposer].
  intros H. bsplit. split.
  - rewrite H0, !round_rt; done.
  - cbn [opt_ok]. rewrite !round_i64_ok, addr_small, H, H2 by done. done.
Qed.
Lemma ccert_rt c : ccert_ok c = true -> cert_of (cert_commits c) = Some c /\ commits_ok (cert_commits c) = true.
Proof.
  destruct c as [h r v s]. unfold ccert_ok, cert_of, cert_commits, commits_ok, to_cert. cbn [cc_height cc_round cc_value cc_sigs cm_height cm_round cm_value cm_sigs].
  intros H. bsplit.
  assert (forallb (fun s => (length (sg_addr s) =? 32)%nat) s = true) as Ha.
  { apply forallb_forall. intros x Hx. rewrite forallb_forall in H1. specialize (H1 x Hx). bsplit. done. }
  assert (forallb csig_ok s = true) as Hs.
  { apply forallb_forall. intros x Hx. rewrite forallb_forall in H1. specialize (H1 x Hx). bsplit. unfold csig_ok. by rewrite addr_small. }
  split.
  - rewrite Ha. cbn [ct_height ct_round ct_value ct_sigs]. by rewrite round_rt.
  - cbn [opt_ok]. rewrite H, H2, Hs, H0, round_i64_ok by done. done.
Qed.

(** The codec. *)
Definition cmsg_ok (m : cmsg) : bool := match m with MVote v s => cvote_ok v && small s | MProp p s => cprop_ok p && small s end.
Lemma cmsg_pcm m : cmsg_ok m = true -> pcm_ok (cmsg_proto m) = true /\ cmsg_of (cmsg_proto m) = Ok m.
Proof.
  destruct m as [v s|p s]; cbn [cmsg_ok]; intros H; bsplit; unfold pcm_ok, cmsg_of, cmsg_proto; cbn [pc_body pc_sig].
  - destruct (cvote_rt v) as [-> ->]; [done|]. by rewrite H0.
  - destruct (cprop_rt p) as [-> ->]; [done|]. by rewrite H0.
Qed.
Lemma g_msg_eq {A} (dec : list field -> option A) fs : forallb field_ok fs = true -> g_msg dec (enc_fields fs) = dec fs.
Proof. intros H. unfold g_msg. by rewrite parse_enc. Qed.
Lemma cm_msg m : pcm_ok m = true -> decode_msg (enc_fields (enc_cm m)) = cmsg_of m.
Proof. intros H. unfold decode_msg. rewrite g_msg_eq by (by apply cm_fok). by rewrite cm_rt. Qed.
Lemma codec_msg m : cmsg_ok m = true -> decode_msg (encode_msg m) = Ok m.
Proof. intros H. destruct (cmsg_pcm m H) as [H1 H2]. unfold encode_msg. by rewrite cm_msg. Qed.
Definition status_ok (s : status) : bool := small (st_peer s) && height_ok (st_height s) && height_ok (st_min s).
Lemma status_pok s : status_ok s = true -> pstatus_ok (PStatus (st_peer s) (Some (st_height s)) (Some (st_min s))) = true.
Proof. done. Qed.
Lemma codec_status peer_ok s : status_ok s = true -> peer_ok (st_peer s) = true -> decode_status peer_ok (encode_status s) = Ok s.
Proof.
  intros H Hp. unfold decode_status, encode_status. rewrite g_msg_eq by (by apply status_fok). rewrite status_rt by done.
  cbn [ps_peer ps_height ps_min]. rewrite Hp. by destruct s.
Qed.
Definition req_ok (r : request) : bool := match r with QValue h => height_ok h | QVotes h r => height_ok h && round_ok r end.
Lemma codec_req r : req_ok r = true -> decode_req (encode_req r) = Ok r.
Proof.
  intros H. unfold decode_req, encode_req. destruct r as [h|h r]; cbn [req_ok] in H; bsplit.
  - rewrite g_msg_eq by (by apply req_fok). by rewrite req_rt.
  - assert (preq_ok (PRVotes (Some h) (round_i64 r)) = true) as Hk by (cbn [preq_ok opt_ok]; by rewrite H, round_i64_ok).
    rewrite g_msg_eq by (by apply req_fok). rewrite req_rt by done. by rewrite round_rt.
Qed.
Definition resp_ok (r : response) : bool :=
  match r with
  | AValue h v => height_ok h && match v with Some (b, c) => small b && ccert_ok c | None => false end
  | AVotes h r vs => height_ok h && round_ok r && forallb (fun p => cvote_ok p.1 && small p.2) vs && (N.of_nat (length vs) <? 2 ^ 24)
  end.
Lemma votes_of_rt vs : forallb (fun p => cvote_ok p.1 && small p.2) vs = true -> votes_of (zip (map (fun p => vote_proto p.1) vs) (map snd vs)) = Some vs.
Proof.
  induction vs as [|[v s] vs IH]; intros H; [done|]. cbn [forallb fst snd] in H. bsplit. cbn [map zip zip_with votes_of fst snd].
  destruct (cvote_rt v) as [-> _]; [done|]. by rewrite IH.
Qed.
Lemma codec_resp r : resp_ok r = true -> exists b, encode_resp r = Ok b /\ decode_resp b = Ok r.
Proof.
  intros H. destruct r as [h v|h r vs]; cbn [resp_ok] in H; bsplit; unfold encode_resp.
  - destruct v as [[b c]|]; [|done]. bsplit. eexists. split; [reflexivity|]. destruct (ccert_rt c) as [C1 C2]; [done|].
    destruct (resp_rt (PSValue (Some h) b (Some (cert_commits c)))) as [R1 R2]. { cbn [presp_ok opt_ok]. by rewrite H, H0, C2. }
    unfold decode_resp. rewrite g_msg_eq by done. rewrite R1. by rewrite C1.
  - eexists. split; [reflexivity|].
    destruct (resp_rt (PSVotes (Some h) (round_i64 r) (map (fun p => vote_proto p.1) vs) (map snd vs))) as [R1 R2].
    { cbn [presp_ok opt_ok]. rewrite !map_length, H0, H, round_i64_ok by done. cbn [andb]. rewrite !andb_true_r. apply andb_true_intro. split.
      - apply forallb_forall. intros x Hx. apply in_map_iff in Hx as ([v s] & <- & Hx). rewrite forallb_forall in H1. specialize (H1 _ Hx). bsplit.
        by apply cvote_rt.
      - apply forallb_forall. intros x Hx. apply in_map_iff in Hx as ([v s] & <- & Hx). rewrite forallb_forall in H1. specialize (H1 _ Hx). by bsplit. }
    unfold decode_resp. rewrite g_msg_eq by done. rewrite R1. rewrite votes_of_rt by done. by rewrite round_rt.
Qed.

(** * What was read can be written again *)
Definition rok (n : nat) (l : list field) : bool := forallb (read_ok n) l.
Lemma read_ok_le n m f : (n <= m)%nat -> read_ok n f = true -> read_ok m f = true.
Proof.
  unfold read_ok. intros Hn H. apply andb_prop in H as [H1 H2]. rewrite H1. destruct (f.2); try done. cbn [andb]. apply Nat.ltb_lt in H2. apply Nat.ltb_lt. lia.
Qed.
Lemma rok_le n m l : (n <= m)%nat -> rok n l = true -> rok m l = true.
Proof. unfold rok. rewrite !forallb_forall. intros Hn H x Hx. eapply read_ok_le; [exact Hn|auto]. Qed.
Lemma rok_app n a b : rok n (a ++ b) = rok n a && rok n b. Proof. apply forallb_app. Qed.
Definition wok (n : nat) (v : wval) : bool :=
  match v with WVar k => k <? 2 ^ 64 | WLen b => bytes_ok b && (length b <? n)%nat | _ => true end.
Lemma occ_wok n i l : rok n l = true -> forallb (wok n) (occ i l) = true.
Proof.
  unfold rok, occ. rewrite !forallb_forall. intros H v Hv. apply in_map_iff in Hv as ([j w] & <- & Hv). apply filter_In in Hv as [Hv _].
  specialize (H _ Hv). unfold read_ok, field_ok, fbytes_ok in H. cbn [fst snd] in *. bsplit. destruct w; cbn [wok]; try done. apply andb_true_intro. done.
Qed.
Lemma vars_wok n l r : forallb (wok n) l = true -> vars l = Some r -> forallb (fun k => k <? 2 ^ 64) r = true.
Proof.
  revert r. induction l as [|v l IH]; intros r Hl H; [by injection H as <-|]. cbn [forallb] in Hl. bsplit. destruct v as [k| | |]; try done. cbn [vars] in H.
  destruct (vars l) as [r'|]; [|done]. injection H as <-. cbn [forallb]. rewrite (IH r') by done. by rewrite andb_true_r.
Qed.
Lemma lens_wok n l r : forallb (wok n) l = true -> lens l = Some r -> forallb (fun b => bytes_ok b && (length b <? n)%nat) r = true.
Proof.
  revert r. induction l as [|v l IH]; intros r Hl H; [by injection H as <-|]. cbn [forallb] in Hl. bsplit. destruct v as [| |b|]; try done. cbn [lens] in H.
  destruct (lens l) as [r'|]; [|done]. injection H as <-. cbn [forallb]. rewrite (IH r') by done. by rewrite andb_true_r.
Qed.
Lemma last_forallb {A} (p : A -> bool) l d : forallb p l = true -> p d = true -> p (default d (last l)) = true.
Proof.
  intros Hl Hd. destruct (last l) as [x|] eqn:E; [|done]. cbn. rewrite forallb_forall in Hl. apply Hl. apply elem_of_list_In. by apply last_Some_elem_of.
Qed.
Lemma g_num_ok n i l k : rok n l = true -> g_num i l = Some k -> k < 2 ^ 64.
Proof.
  intros Hl H. unfold g_num in H. destruct (vars (occ i l)) as [v|] eqn:E; [|done]. injection H as <-. apply N.ltb_lt.
  apply (last_forallb (fun k => k <? 2 ^ 64)); [|done]. eapply vars_wok; [|exact E]. by apply (occ_wok n).
Qed.
Lemma g_bytes_ok n i l b : rok n l = true -> (0 < n)%nat -> g_bytes i l = Some b -> (length b < n)%nat.
Proof.
  intros Hl Hn H. unfold g_bytes in H. destruct (lens (occ i l)) as [v|] eqn:E; [|done]. injection H as <-.
  assert (bytes_ok (default [] (last v)) && (length (default [] (last v)) <? n)%nat = true) as H'.
  { apply (last_forallb (fun b => bytes_ok b && (length b <? n)%nat)). - eapply lens_wok; [|exact E]. by apply occ_wok. - destruct n; [lia|done]. }
  apply andb_prop in H' as [_ H']. by apply Nat.ltb_lt.
Qed.
Lemma parse_rok n b fs : N.of_nat n < 2 ^ 64 -> bytes_ok b = true -> (length b < n)%nat -> parse b = Some fs -> rok n fs = true.
Proof. intros Hn Hb Hl H. apply (rok_le (length b)); [lia|]. apply parse_spec; [done| |done]. lia. Qed.
Lemma parse_all_rok n ps fs : N.of_nat n < 2 ^ 64 -> forallb (fun b => bytes_ok b && (length b <? n)%nat) ps = true -> parse_all ps = Some fs -> rok n (concat fs) = true.
Proof.
  intros Hn. revert fs. induction ps as [|b ps IH]; intros fs Hp H; [by injection H as <-|]. cbn [forallb] in Hp. bsplit. cbn [parse_all] in H.
  destruct (parse b) as [x|] eqn:E; [|done]. destruct (parse_all ps) as [r|]; [|done]. injection H as <-. cbn [concat]. rewrite rok_app.
  apply andb_true_intro. split; [|by apply IH]. eapply parse_rok; [done|done| |exact E]. by apply Nat.ltb_lt.
Qed.
Lemma g_sub_ok {A} (p : A -> bool) (dec : list field -> option A) n i l o : N.of_nat n < 2 ^ 64 ->
  (forall fs a, rok n fs = true -> dec fs = Some a -> p a = true) -> rok n l = true -> g_sub dec i l = Some o -> opt_ok p o = true.
Proof.
  intros Hn Hd Hl H. unfold g_sub in H. destruct (lens (occ i l)) as [ps|] eqn:E; [|done].
  assert (forallb (fun b => bytes_ok b && (length b <? n)%nat) ps = true) as Hps. { eapply lens_wok; [|exact E]. by apply occ_wok. }
  destruct ps as [|b ps]; [by injection H as <-|]. destruct (parse_all (b :: ps)) as [fs|] eqn:E2; [|done].
  destruct (dec (concat fs)) as [a|] eqn:E3; [|done]. injection H as <-. cbn [opt_ok]. eapply Hd; [|exact E3]. by eapply parse_all_rok.
Qed.
Lemma runs_rok is n l cur rs : N.of_nat n < 2 ^ 64 -> rok n l = true -> match cur with Some c => rok n c.2 = true /\ existsb (N.eqb c.1) is = true | None => True end ->
  runs is l cur = Some rs -> Forall (fun c => rok n c.2 = true /\ existsb (N.eqb c.1) is = true) rs.
Proof.
  intros Hn. revert cur rs. induction l as [|[i v] l IH]; intros cur rs Hl Hc H.
  - injection H as <-. destruct cur; [|constructor]. by constructor.
  - cbn [runs] in H. unfold rok in Hl. cbn [forallb] in Hl. apply andb_prop in Hl as [Hf Hl]. change (rok n l = true) in Hl.
    destruct (existsb (N.eqb i) is) eqn:Ei; [|by eapply IH]. destruct v as [| |b|]; try done. destruct (parse b) as [fs|] eqn:Eb; [|done].
    assert (rok n fs = true) as Hfs.
    { unfold read_ok, field_ok, fbytes_ok in Hf. cbn [fst snd] in Hf. bsplit. eapply parse_rok; [done|done| |exact Eb]. by apply Nat.ltb_lt. }
    destruct cur as [[j gs]|].
    + cbn [fst snd] in Hc. destruct (i =? j).
      * eapply IH; [done| |exact H]. cbn [fst snd]. rewrite rok_app. destruct Hc as [-> ?]. by rewrite Hfs.
      * destruct (runs is l (Some (i, fs))) as [r|] eqn:Er; [|done]. injection H as <-. constructor; [done|]. by eapply IH; [| |exact Er].
    + by eapply IH; [| |exact H].
Qed.
Lemma g_oneof_ok {A} (p : A -> bool) (dec : N -> list field -> option A) is n l o : N.of_nat n < 2 ^ 64 ->
  (forall i fs a, existsb (N.eqb i) is = true -> rok n fs = true -> dec i fs = Some a -> p a = true) -> rok n l = true -> g_oneof dec is l = Some o -> opt_ok p o = true.
Proof.
  intros Hn Hd Hl H. unfold g_oneof in H. destruct (runs is l None) as [rs|] eqn:E; [|done]. apply (runs_rok is n) in E; [|done|done|done].
  destruct (dec_runs dec rs) as [v|] eqn:E2; [|done]. injection H as <-.
  assert (forallb p v = true) as Hv.
  { clear -E E2 Hd. revert v E2. induction E as [|[i fs] rs [Hc Hi] _ IH]; intros v H; [by injection H as <-|]. cbn [dec_runs] in H.
    destruct (dec i fs) as [a|] eqn:Ea; [|done]. destruct (dec_runs dec rs) as [r|]; [|done]. injection H as <-. cbn [forallb]. rewrite (IH r) by done.
    rewrite andb_true_r. eapply Hd; [exact Hi|exact Hc|exact Ea]. }
  destruct (last v) as [a|] eqn:Ea; [|done]. cbn [opt_ok]. rewrite forallb_forall in Hv. apply Hv. apply elem_of_list_In. by apply last_Some_elem_of.
Qed.
Lemma g_msg_ok {A} (dec : list field -> option A) b a : bytes_ok b = true -> N.of_nat (length b) < 2 ^ 32 -> g_msg dec b = Some a ->
  exists l, rok (length b) l = true /\ dec l = Some a.
Proof.
  intros Hb Hl H. unfold g_msg in H. destruct (parse b) as [l|] eqn:E; [|done]. exists l. split; [|done].
  apply parse_spec; [done| |done]. change (2 ^ 32) with 4294967296 in Hl. change (2 ^ 64) with 18446744073709551616. lia.
Qed.
Definition cap (n : nat) : Prop := (0 < n)%nat /\ N.of_nat n <= 2 ^ 32.
Lemma cap_lt n : cap n -> N.of_nat n < 2 ^ 64.
Proof. intros [_ H]. change (2 ^ 32) with 4294967296 in H. change (2 ^ 64) with 18446744073709551616. lia. Qed.
Lemma len_small n b : cap n -> (length b < n)%nat -> small b = true.
Proof. intros [_ H] Hb. unfold small. apply N.ltb_lt. change (2 ^ 32) with 4294967296 in *. lia. Qed.
Lemma mod32_ok a : (a mod 2 ^ 32 <? 2 ^ 32) = true.
Proof. apply N.ltb_lt. by apply N.mod_lt. Qed.
Lemma dec_height_ok n l h : cap n -> rok n l = true -> dec_height l = Some h -> height_ok h = true.
Proof.
  intros Hn Hl H. unfold dec_height in H. destruct (g_num 1 l) as [a|]; [|done]. destruct (g_num 2 l) as [b|] eqn:E; [|done]. injection H as <-.
  unfold height_ok. cbn [fst snd]. rewrite mod32_ok. apply N.ltb_lt. by eapply g_num_ok.
Qed.
Lemma dec_shash_ok n l v : cap n -> rok n l = true -> dec_shash l = Some v -> shash_ok v = true.
Proof.
  intros Hn Hl H. unfold dec_shash in H. destruct (g_num 1 l) as [a|]; [|done]. destruct (g_bytes 2 l) as [b|] eqn:E; [|done]. injection H as <-.
  unfold shash_ok. cbn [fst snd]. rewrite mod32_ok. eapply len_small; [exact Hn|]. eapply g_bytes_ok; [exact Hl|apply Hn|exact E].
Qed.
Lemma i64_of_ok k : i64_ok (i64_of k) = true.
Proof.
  unfold i64_ok, i64_of. change (2 ^ 63)%Z with 9223372036854775808%Z. change (2 ^ 64)%Z with 18446744073709551616%Z.
  pose proof (Z.mod_pos_bound (Z.of_N k) 18446744073709551616 ltac:(lia)). destruct (Z.of_N k mod 18446744073709551616 <? 9223372036854775808)%Z eqn:E; lia.
Qed.
Lemma i32_of_ok k : i32_ok (i32_of k) = true.
Proof.
  unfold i32_ok, i32_of. change (2 ^ 31)%Z with 2147483648%Z. change (2 ^ 32)%Z with 4294967296%Z.
  pose proof (Z.mod_pos_bound (Z.of_N k) 4294967296 ltac:(lia)). destruct (Z.of_N k mod 4294967296 <? 2147483648)%Z eqn:E; lia.
Qed.
Lemma dec_vote_ok n l v : cap n -> rok n l = true -> dec_vote l = Some v -> pvote_ok v = true.
Proof.
  intros Hn Hl H. unfold dec_vote in H. destruct (g_num 1 l) as [t|]; [|done]. destruct (g_sub dec_height 2 l) as [h|] eqn:Eh; [|done].
  destruct (g_num 3 l) as [r|]; [|done]. destruct (g_sub dec_shash 4 l) as [s|] eqn:Es; [|done]. destruct (g_bytes 5 l) as [b|] eqn:Eb; [|done]. injection H as <-.
  unfold pvote_ok. cbn [pv_type pv_height pv_round pv_value pv_voter]. rewrite i32_of_ok, i64_of_ok.
  rewrite (g_sub_ok height_ok dec_height n 2 l h), (g_sub_ok shash_ok dec_shash n 4 l s); try done; try (by apply cap_lt).
  - eapply len_small; [exact Hn|]. eapply g_bytes_ok; [exact Hl|apply Hn|exact Eb].
  - intros. by eapply dec_shash_ok.
  - intros. by eapply dec_height_ok.
Qed.
Lemma dec_prop_ok n l p : cap n -> rok n l = true -> dec_prop l = Some p -> pprop_ok p = true.
Proof.
  intros Hn Hl H. unfold dec_prop in H. destruct (g_sub dec_height 1 l) as [h|] eqn:Eh; [|done]. destruct (g_num 2 l) as [r|]; [|done].
  destruct (g_num 3 l) as [q|]; [|done]. destruct (g_bytes 4 l) as [b|] eqn:Eb; [|done]. destruct (g_sub dec_shash 5 l) as [s|] eqn:Es; [|done]. injection H as <-.
  unfold pprop_ok. cbn [pp_height pp_round pp_pol pp_proposer pp_value]. rewrite !i64_of_ok.
  rewrite (g_sub_ok height_ok dec_height n 1 l h), (g_sub_ok shash_ok dec_shash n 5 l s); try done; try (by apply cap_lt).
  - rewrite (len_small n); [done|done|]. eapply g_bytes_ok; [exact Hl|apply Hn|exact Eb].
  - intros. by eapply dec_shash_ok.
  - intros. by eapply dec_height_ok.
Qed.
Lemma dec_cm_ok n l m : cap n -> rok n l = true -> dec_cm l = Some m -> pcm_ok m = true.
Proof.
  intros Hn Hl H. unfold dec_cm in H. destruct (g_oneof dec_body [1; 2] l) as [b|] eqn:Eb; [|done]. destruct (g_bytes 3 l) as [s|] eqn:Es; [|done]. injection H as <-.
  unfold pcm_ok. cbn [pc_body pc_sig]. rewrite (len_small n s); [|done|eapply g_bytes_ok; [exact Hl|apply Hn|exact Es]]. rewrite andb_true_r.
  assert (opt_ok (fun b => match b with PBVote v => pvote_ok v | PBProp p => pprop_ok p end) b = true) as Hb.
  { eapply (g_oneof_ok _ dec_body [1; 2] n l b); [by apply cap_lt| |done|done]. intros i fs a _ Hfs Ha. unfold dec_body in Ha.
    destruct (i =? 1).
    - destruct (dec_vote fs) as [v|] eqn:Ev; [|done]. injection Ha as <-. by eapply dec_vote_ok.
    - destruct (dec_prop fs) as [p|] eqn:Ep; [|done]. injection Ha as <-. by eapply dec_prop_ok. }
  destruct b as [[v|p]|]; done.
Qed.
Lemma dec_status_ok n l s : cap n -> rok n l = true -> dec_status l = Some s -> pstatus_ok s = true.
Proof.
  intros Hn Hl H. unfold dec_status in H. destruct (g_bytes 1 l) as [b|] eqn:Eb; [|done]. destruct (g_sub dec_height 2 l) as [h|] eqn:Eh; [|done].
  destruct (g_sub dec_height 3 l) as [m|] eqn:Em; [|done]. injection H as <-. unfold pstatus_ok. cbn [ps_peer ps_height ps_min].
  rewrite (g_sub_ok height_ok dec_height n 2 l h), (g_sub_ok height_ok dec_height n 3 l m); try done; try (by apply cap_lt); try (intros; by eapply dec_height_ok).
  rewrite (len_small n b); [done|done|]. eapply g_bytes_ok; [exact Hl|apply Hn|exact Eb].
Qed.

(** * Full proposals and the envelope *)
Section GossipProofs.
  Context {pval other : Type} (enc_val : pval -> N * list field) (dec_val : N -> list field -> option pval).
  Context (dec_other : N -> list field -> option other).
  Definition val_ok (v : pval) : bool :=
    (((enc_val v).1 =? 4) || ((enc_val v).1 =? 5)) && forallb field_ok (enc_val v).2 && (fsizes (enc_val v).2 <? 2 ^ 60).
  Definition full_ok (p : full) : bool :=
    opt_ok height_ok (fp_height p) && i64_ok (fp_round p) && small (fp_proposer p) && opt_ok val_ok (fp_value p).
  Lemma full_val i v : val_ok v = true -> i <> 4 -> i <> 5 -> occ i (f_sub (enc_val v).1 (Some (enc_val v).2)) = [].
  Proof.
    unfold val_ok. intros H H4 H5. bsplit. apply occ_sub_ne. apply N.eqb_neq. apply orb_prop in H as [H%N.eqb_eq|H%N.eqb_eq]; congruence.
  Qed.
  Lemma full_occ p i : full_ok p = true -> i <> 4 -> i <> 5 ->
    occ i (enc_full enc_val p) = occ i (f_sub 1 (enc_height <$> fp_height p) ++ f_num 2 (u64_of (fp_round p)) ++ f_bytes 3 (fp_proposer p)).
  Proof.
    intros H H4 H5. unfold enc_full. rewrite !occ_app. rewrite (app_assoc (occ i _) (occ i _)). rewrite app_assoc, <- !app_assoc. do 3 f_equal.
    destruct (fp_value p) as [v|] eqn:E; [|by rewrite app_nil_r]. unfold full_ok in H. bsplit. rewrite full_val; [by rewrite app_nil_r| |done|done].
    by rewrite E in *.
  Qed.
  Lemma full_fok p : full_ok p = true -> forallb field_ok (enc_full enc_val p) = true /\ fsizes (enc_full enc_val p) < 2 ^ 61.
  Proof.
    unfold full_ok, enc_full. intros H. bsplit.
    destruct (sub_fok height_ok enc_height 1 (fp_height p) 40) as [A1 A2]; [done|done|apply height_fok|done|].
    pose proof (small_lt (fp_proposer p) ltac:(done)). pose proof (fsizes_bytes 3 (fp_proposer p)). pose proof (fsizes_num 2 (u64_of (fp_round p))).
    change (2 ^ 61) with 2305843009213693952.
    assert (forallb field_ok (f_bytes 3 (fp_proposer p)) = true) as Hb by (apply ok_bytes; [done|]; change (2 ^ 64) with 18446744073709551616; lia).
    destruct (fp_value p) as [v|]; cbn [opt_ok] in *.
    - unfold val_ok in *. bsplit. match goal with H : (fsizes _ <? _) = true |- _ => apply N.ltb_lt in H; change (2 ^ 60) with 1152921504606846976 in H end.
      pose proof (fsizes_sub (enc_val v).1 (enc_val v).2). split.
      + rewrite !ok_app, A1, Hb, ok_num, ok_sub; [done| | |done|apply u64_of_lt].
        * match goal with H : (_ =? 4) || _ = true |- _ => apply orb_prop in H as [H%N.eqb_eq|H%N.eqb_eq]; rewrite H; done end.
        * change (2 ^ 64) with 18446744073709551616. lia.
      + rewrite !fsizes_app. lia.
    - split.
      + rewrite !ok_app, A1, Hb, ok_num; [done|done|apply u64_of_lt].
      + rewrite !fsizes_app. cbn [fsizes foldr]. lia.
  Qed.
  Lemma full_height p : full_ok p = true -> g_sub dec_height 1 (enc_full enc_val p) = Some (fp_height p).
  Proof.
    intros H. assert (opt_ok height_ok (fp_height p) = true) by (unfold full_ok in H; by bsplit).
    apply (sub_rt height_ok enc_height dec_height 1); [apply height_rt|apply height_fok|done|]. rewrite full_occ by done. occs.
  Qed.
  Lemma full_rt p : full_ok p = true -> (forall v, fp_value p = Some v -> dec_val (enc_val v).1 (enc_val v).2 = Some v) ->
    dec_full dec_val (enc_full enc_val p) = Some p.
  Proof.
    intros H Hv. unfold dec_full. rewrite full_height by done.
    rewrite (g_num_eq 2 _ (u64_of (fp_round p))) by (rewrite full_occ by done; occs).
    rewrite (g_bytes_eq 3 _ (fp_proposer p)) by (rewrite full_occ by done; occs).
    unfold full_ok in H. bsplit. unfold enc_full.
    assert (forallb (fun f => negb (existsb (N.eqb f.1) [4; 5])) (f_sub 1 (enc_height <$> fp_height p) ++ f_num 2 (u64_of (fp_round p)) ++ f_bytes 3 (fp_proposer p)) = true) as Hpre.
    { rewrite !forallb_app. apply andb_true_intro. split; [by destruct (fp_height p)|]. apply andb_true_intro. split.
      - unfold f_num. by destruct (u64_of (fp_round p) =? 0).
      - by destruct (fp_proposer p). }
    destruct p as [h r b [v|]]; cbn [fp_height fp_round fp_proposer fp_value opt_ok] in *.
    - specialize (Hv v eq_refl). unfold val_ok in *. bsplit.
      assert (g_oneof dec_val [4; 5] (f_sub 1 (enc_height <$> h) ++ f_num 2 (u64_of r) ++ f_bytes 3 b ++ f_sub (enc_val v).1 (Some (enc_val v).2)) = Some (Some v)) as ->.
      { pose proof (g_oneof_eq dec_val [4; 5] (f_sub 1 (enc_height <$> h) ++ f_num 2 (u64_of r) ++ f_bytes 3 b) [] (enc_val v).1 (enc_val v).2 v) as G.
        rewrite app_nil_r, <- !app_assoc in G. apply G; [done|done| |done|done]. cbn [existsb]. rewrite orb_false_r. done. }
      by rewrite i64_rt.
    - rewrite app_nil_r. rewrite g_oneof_none by done. by rewrite i64_rt.
  Qed.

  Lemma env_in (i : N) (fs : list field) (e : @envelope pval other) : existsb (N.eqb i) [1; 2; 3; 4; 5; 6] = true -> num_ok i = true ->
    forallb field_ok fs = true -> fsizes fs < 2 ^ 62 -> dec_env1 dec_val dec_other i fs = Some e ->
    g_msg (dec_env dec_val dec_other) (enc_fields (f_sub i (Some fs))) = Some (Some e).
  Proof.
    intros Hin Hi Hok Hsz Hd. rewrite g_msg_eq by (apply ok_sub; [done|]; eapply N.lt_trans; [exact Hsz|done]).
    unfold dec_env. by apply g_oneof_eq1.
  Qed.

  (** Reading back what gossip encoded again. *)
  Lemma env_ok b e n : bytes_ok b = true -> N.of_nat (length b) < 2 ^ 32 -> n = S (length b) ->
    (forall i fs v, rok n fs = true -> dec_val i fs = Some v -> val_ok v = true) ->
    g_msg (dec_env dec_val dec_other) b = Some (Some e) ->
    match e with EnvMsg m => pcm_ok m = true | EnvFull p => full_ok p = true | EnvStatus s => pstatus_ok s = true | EnvOther _ => True end.
  Proof.
    intros Hb Hl -> Hval H. apply g_msg_ok in H as (l & Hlk & H); [|done|done]. apply (rok_le _ (S (length b))) in Hlk; [|lia].
    assert (cap (S (length b))) as Hcap. { split; [lia|]. change (2 ^ 32) with 4294967296 in *. lia. }
    set (n := S (length b)) in *. clearbody n.
    assert (opt_ok (fun e => match e with EnvMsg m => pcm_ok m | EnvFull p => full_ok p | EnvStatus s => pstatus_ok s | EnvOther _ => true end) (Some e) = true) as He.
    { eapply (g_oneof_ok _ (dec_env1 dec_val dec_other) [1; 2; 3; 4; 5; 6] n l (Some e)); [by apply cap_lt| |exact Hlk|exact H].
      clear e H Hlk l. intros i fs e _ Hfs He.
      assert ((exists m, dec_cm fs = Some m /\ e = EnvMsg m) \/ (exists p, dec_full dec_val fs = Some p /\ e = EnvFull p) \/
              (exists s, dec_status fs = Some s /\ e = EnvStatus s) \/ (exists o, e = EnvOther o)) as Hc.
      { assert (EnvOther <$> dec_other i fs = Some e -> exists o, e = EnvOther o) as Ho.
        { intros Hx. destruct (dec_other i fs) as [o|]; [|done]. exists o. by injection Hx. }
        unfold dec_env1 in He. destruct i as [|[[[]|[[]|[]|]|]|[[]|[[]|[]|]|]|]]; try (right; right; right; apply Ho; exact He).
        - right; right; left. destruct (dec_status fs) as [s|]; [|done]. exists s. by injection He.
        - right; left. destruct (dec_full dec_val fs) as [p|]; [|done]. exists p. by injection He.
        - left. destruct (dec_cm fs) as [m|]; [|done]. exists m. by injection He. }
      destruct Hc as [(m & Hm & ->)|[(p & Hp & ->)|[(s & Hs & ->)|(o & ->)]]]; [by eapply dec_cm_ok| |by eapply dec_status_ok|done].
      unfold dec_full in Hp. destruct (g_sub dec_height 1 fs) as [h|] eqn:Eh; [|done]. destruct (g_num 2 fs) as [r|]; [|done].
      destruct (g_bytes 3 fs) as [c|] eqn:Ec; [|done]. destruct (g_oneof dec_val [4; 5] fs) as [v|] eqn:Ev; [|done]. injection Hp as <-.
      unfold full_ok. cbn [fp_height fp_round fp_proposer fp_value]. rewrite i64_of_ok.
      rewrite (g_sub_ok height_ok dec_height n 1 fs h); [|by apply cap_lt|intros; by eapply dec_height_ok|done|done].
      rewrite (len_small n c); [|done|eapply g_bytes_ok; [exact Hfs|apply Hcap|exact Ec]].
      eapply (g_oneof_ok val_ok dec_val [4; 5] n fs v); [by apply cap_lt| |done|done]. intros i' fs' v' _. apply Hval. }
    cbn [opt_ok] in He. by destruct e.
  Qed.
End GossipProofs.
