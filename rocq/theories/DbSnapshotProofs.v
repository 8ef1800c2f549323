(** Proofs about DbSnapshot.v. *)
From Coq Require Import ZifyN ZifyNat ZifyBool.
From Verif Require Import Base Kv Paging PagingProofs ChannelUriProofs DbSnapshot.
#[local] Open Scope N_scope.

(** ** The chunk writer *)

Definition tot (g : list bytes) : N := N.of_nat (length (concat g)).
(** Buffers packed greedily: no group is empty, a group larger than the limit is one buffer, and the first buffer of a
    group did not fit into the group before it. *)
Record greedy (max : N) (gs : list (list bytes)) : Prop := Greedy {
  gr_group : forall g, g ∈ gs -> g <> [] /\ (tot g <= max \/ length g = 1%nat);
  gr_next : forall i g b h, gs !! i = Some g -> gs !! S i = Some (b :: h) -> max < tot g + N.of_nat (length b) }.
Definition numbered (gs : list (list bytes)) : list (N * bytes) := imap (fun i g => (N.of_nat i + 1, concat g)) gs.

Lemma concat_snoc {A} (l : list (list A)) x : concat (l ++ [x]) = concat l ++ x.
Proof. rewrite concat_app. cbn. by rewrite app_nil_r. Qed.
Lemma tot_snoc g b : tot (g ++ [b]) = tot g + N.of_nat (length b).
Proof. unfold tot. rewrite concat_snoc, app_length. lia. Qed.

Definition mcw_inv (max : N) (bufs : list bytes) (w : mcw) : Prop :=
  (bufs = [] /\ w = mcw_new) \/
  exists gs g, bufs = concat gs ++ g /\ greedy max (gs ++ [g]) /\
    w = Mcw (N.of_nat (length gs) + 1) (tot g) (Some (concat g)) (numbered gs).

Lemma numbered_snoc gs g : numbered (gs ++ [g]) = numbered gs ++ [(N.of_nat (length gs) + 1, concat g)].
Proof. unfold numbered. rewrite imap_app. cbn. rewrite Nat.add_0_r. done. Qed.

Lemma greedy_one max b : greedy max [[b]].
Proof.
  split.
  - intros g ->%elem_of_list_singleton. split; [done|]. by right.
  - intros [|i] g c h; cbn; done.
Qed.
Lemma greedy_extend max gs g b : tot g + N.of_nat (length b) <= max -> greedy max (gs ++ [g]) -> greedy max (gs ++ [g ++ [b]]).
Proof.
  intros Hle [H1 H2]. split.
  - intros x [Hx| ->%elem_of_list_singleton]%elem_of_app; [apply H1; apply elem_of_app; by left|].
    split; [by destruct g|]. left. rewrite tot_snoc. done.
  - intros i x c h Hi Hs. destruct (decide (S i = length gs)) as [E|E].
    + rewrite lookup_app_r in Hs by lia. rewrite E, Nat.sub_diag in Hs. cbn in Hs. apply (inj Some) in Hs.
      rewrite lookup_app_l in Hi by lia.
      destruct (H1 g) as [Hg _]; [apply elem_of_app; right; by apply elem_of_list_singleton|].
      destruct g as [|c' g]; [done|]. cbn in Hs. injection Hs as -> _.
      apply (H2 i x c g); [by rewrite lookup_app_l by lia|].
      rewrite lookup_app_r by lia. by rewrite E, Nat.sub_diag.
    + destruct (decide (S i < length gs)%nat) as [L|L].
      * rewrite lookup_app_l in Hs by lia. rewrite lookup_app_l in Hi by lia.
        apply (H2 i x c h); rewrite lookup_app_l by lia; done.
      * apply lookup_lt_Some in Hs. rewrite app_length in Hs. cbn in Hs. lia.
Qed.
Lemma greedy_next max gs b g : max < tot g + N.of_nat (length b) -> greedy max (gs ++ [g]) -> greedy max ((gs ++ [g]) ++ [[b]]).
Proof.
  intros Hlt [H1 H2]. split.
  - intros x [Hx| ->%elem_of_list_singleton]%elem_of_app; [by apply H1|]. split; [done|]. by right.
  - intros i x c h Hi Hs. destruct (decide (S i = length (gs ++ [g]))) as [E|E].
    + rewrite lookup_app_r in Hs by lia. rewrite E, Nat.sub_diag in Hs. injection Hs as -> <-.
      rewrite app_length in E. cbn in E. rewrite lookup_app_l, lookup_app_r in Hi by (rewrite ?app_length; cbn; lia).
      replace (i - length gs)%nat with 0%nat in Hi by lia. by injection Hi as ->.
    + destruct (decide (S i < length (gs ++ [g]))%nat) as [L|L].
      * rewrite lookup_app_l in Hs by lia. rewrite lookup_app_l in Hi by lia. by apply (H2 i x c h).
      * apply lookup_lt_Some in Hs. rewrite app_length in Hs. cbn in Hs. lia.
Qed.

Lemma mcw_write_inv max bufs w b : mcw_inv max bufs w -> mcw_inv max (bufs ++ [b]) (mcw_write max w b).
Proof.
  intros [[-> ->]|(gs & g & -> & Hg & ->)].
  - right. exists [], [b]. split; [done|]. split; [apply greedy_one|].
    unfold mcw_write, tot, numbered. cbn. rewrite app_nil_r. f_equal; lia.
  - right. unfold mcw_write. cbn [w_open w_size]. rewrite bool_decide_eq_false_2 by done. cbn [orb].
    destruct (max <? tot g + N.of_nat (length b)) eqn:E.
    + exists (gs ++ [g]), [b]. rewrite concat_snoc. split; [done|]. split; [apply greedy_next; [lia|done]|].
      cbn [next_part mcw_finish w_open w_part w_size w_files]. rewrite numbered_snoc, app_length. cbn [length].
      cbn [app concat]. unfold tot. cbn [concat]. rewrite app_nil_r. f_equal; lia.
    + exists gs, (g ++ [b]). rewrite app_assoc. split; [done|]. split; [apply greedy_extend; [lia|done]|].
      cbn [w_open w_part w_size w_files]. rewrite tot_snoc, concat_snoc. done.
Qed.
Lemma mcw_fold_inv max bufs : mcw_inv max bufs (foldl (mcw_write max) mcw_new bufs).
Proof.
  induction bufs as [|b bufs IH] using rev_ind; [by left|].
  rewrite foldl_snoc. by apply mcw_write_inv.
Qed.

Lemma chunk_files_spec max bufs : exists gs,
  concat gs = bufs /\ greedy max gs /\ chunk_files max bufs = numbered gs.
Proof.
  unfold chunk_files. destruct (mcw_fold_inv max bufs) as [[-> ->]|(gs & g & -> & Hg & ->)].
  - exists []. split; [done|]. split; [|done]. split; [by intros g ?%elem_of_nil|]. intros [|i] ? ? ?; done.
  - exists (gs ++ [g]). rewrite concat_snoc. split; [done|]. split; [done|]. cbn. by rewrite numbered_snoc.
Qed.
Lemma numbered_snd gs : map snd (numbered gs) = map (@concat N) gs.
Proof. unfold numbered. induction gs as [|g gs IH] using rev_ind; [done|]. rewrite imap_app, !map_app, IH. done. Qed.
Lemma numbered_fst gs : map fst (numbered gs) = map (fun i => N.of_nat i + 1) (seq 0 (length gs)).
Proof.
  unfold numbered. induction gs as [|g gs IH] using rev_ind; [done|].
  rewrite imap_app, app_length, seq_app, !map_app, IH. cbn. by rewrite Nat.add_0_r.
Qed.
Lemma concat_concat {A} (gs : list (list (list A))) : concat (map (@concat A) gs) = concat (concat gs).
Proof. induction gs as [|g gs IH]; [done|]. cbn. by rewrite concat_app, IH. Qed.
Lemma chunk_files_concat max bufs : concat (map snd (chunk_files max bufs)) = concat bufs.
Proof. destruct (chunk_files_spec max bufs) as (gs & <- & _ & ->). by rewrite numbered_snd, concat_concat. Qed.
Lemma chunk_files_parts max bufs :
  map fst (chunk_files max bufs) = map (fun i => N.of_nat i + 1) (seq 0 (length (chunk_files max bufs))).
Proof.
  destruct (chunk_files_spec max bufs) as (gs & <- & _ & ->). rewrite numbered_fst. f_equal.
  unfold numbered. by rewrite imap_length.
Qed.

(** ** Names *)

Lemma vacc_app a b : forall x, vacc x (a ++ b) = vacc (vacc x a) b.
Proof. intros x. unfold vacc. apply fold_left_app. Qed.
Lemma vacc_zeros n s : vacc 0 (repeat 48 n ++ s) = vacc 0 s.
Proof. induction n as [|n IH]; [done|]. cbn [repeat app]. change (vacc 0 (48 :: repeat 48 n ++ s)) with (vacc 0 (repeat 48 n ++ s)). done. Qed.
Lemma digits_dec n : Forall digit_ok (ChannelUri.to_string n).
Proof. apply (to_string_numeral n). Qed.
Lemma value_dec n : vacc 0 (ChannelUri.to_string n) = n.
Proof. apply (to_string_numeral n). Qed.
Lemma dec_inj a b : ChannelUri.to_string a = ChannelUri.to_string b -> a = b.
Proof. intros H. by rewrite <- (value_dec a), <- (value_dec b), H. Qed.
Lemma pad4_value n : vacc 0 (pad4 (ChannelUri.to_string n)) = n.
Proof. unfold pad4. by rewrite vacc_zeros, value_dec. Qed.
Lemma pad4_digits n : Forall digit_ok (pad4 (ChannelUri.to_string n)).
Proof.
  unfold pad4. apply Forall_app. split; [|apply digits_dec]. apply Forall_forall. intros x Hx%elem_of_list_In%repeat_spec.
  subst. unfold digit_ok. lia.
Qed.
Lemma chunk_name_inj a b : chunk_name a = chunk_name b -> a = b.
Proof.
  unfold chunk_name. intros H. apply app_inv_head in H. apply app_inv_tail in H.
  by rewrite <- (pad4_value a), <- (pad4_value b), H.
Qed.
Lemma lex_digits s : forall t, length s = length t -> Forall digit_ok s -> Forall digit_ok t -> vacc 0 s < vacc 0 t -> lex s t = Lt.
Proof.
  induction s as [|c s IH]; intros [|d t] Hl Hs Ht Hv; try discriminate.
  apply Forall_cons in Hs as [Hc Hs]. apply Forall_cons in Ht as [Hd Ht]. cbn in Hl. injection Hl as Hl.
  change (vacc (0 * 10 + (c - 48)) s < vacc (0 * 10 + (d - 48)) t) in Hv. rewrite (vacc_split s), (vacc_split t) in Hv.
  rewrite <- Hl in Hv. pose proof (vacc_lt s Hs) as H1. pose proof (vacc_lt t Ht) as H2. rewrite <- Hl in H2.
  unfold digit_ok in Hc, Hd. cbn [lex]. destruct (N.compare_spec c d) as [->|?|?]; [|done|exfalso; nia].
  apply IH; auto. nia.
Qed.
Lemma pad4_length n : n < 10000 -> length (pad4 (ChannelUri.to_string n)) = 4%nat.
Proof.
  intros H. unfold pad4. rewrite app_length, repeat_length.
  pose proof (numeral_length _ n 4 (to_string_numeral n)) as L. change (10 ^ 4) with 10000 in L. lia.
Qed.
Lemma chunk_name_lt a b : a < b -> b < 10000 -> blt (chunk_name a) (chunk_name b) = true.
Proof.
  intros H1 H2. apply blt_lex. unfold chunk_name. rewrite lex_app_l, lex_app by (rewrite !pad4_length; lia).
  rewrite lex_digits; [done|rewrite !pad4_length; lia|apply pad4_digits|apply pad4_digits|by rewrite !pad4_value].
Qed.

(** ** The copy *)

Lemma put_rows_app d a b : put_rows d (a ++ b) = put_rows (put_rows d a) b.
Proof. apply foldl_app. Qed.
Lemma copy_rows_spec lim l : forall batch d, copy_rows lim batch l d = put_rows d (batch ++ l).
Proof.
  induction l as [|r l IH]; intros batch d; cbn [copy_rows]; [by rewrite app_nil_r|].
  destruct (lim <=? length (batch ++ [r]))%nat; rewrite IH.
  - by rewrite <- put_rows_app, <- app_assoc.
  - by rewrite <- app_assoc.
Qed.
Lemma put_rows_lookup l : forall d k, NoDup l.*1 ->
  put_rows d l !! k = match list_to_map (M := gmap bytes bytes) l !! k with Some v => Some v | None => d !! k end.
Proof.
  induction l as [|[k' v] l IH]; intros d k Hnd; [done|].
  cbn in Hnd. apply NoDup_cons in Hnd as [Hni Hnd]. cbn [put_rows foldl fst snd].
  change (foldl (fun d e => <[e.1:=e.2]> d) (<[k':=v]> d) l) with (put_rows (<[k':=v]> d) l).
  rewrite IH by done. cbn [list_to_map foldr uncurry]. unfold list_to_map. cbn [foldr fst snd].
  change (foldr (fun p => <[p.1:=p.2]>) ∅ l) with (list_to_map (M := gmap bytes bytes) l).
  destruct (decide (k' = k)) as [->|Hne].
  - rewrite lookup_insert, (not_elem_of_list_to_map_1 l k) by done. by rewrite lookup_insert.
  - rewrite (lookup_insert_ne (list_to_map l)), lookup_insert_ne by done. done.
Qed.
Lemma backup_open lim d : backup_copy lim (PTransaction d) = d.
Proof.
  cbn. rewrite copy_rows_spec. cbn [app]. apply map_eq. intros k. rewrite put_rows_lookup by apply rows_nodup.
  rewrite lookup_empty. destruct (list_to_map (rows d) !! k) as [v|] eqn:E.
  - apply elem_of_list_to_map_2 in E. symmetry. by apply rows_elem.
  - destruct (d !! k) as [v|] eqn:D; [|done]. apply rows_elem in D.
    apply not_elem_of_list_to_map_2 in E. exfalso. apply E. change k with (k, v).1. by apply elem_of_list_fmap_1.
Qed.

(** ** The bucket *)

Lemma do_puts_app b l l' : do_puts b (l ++ l') = do_puts (do_puts b l) l'.
Proof. apply foldl_app. Qed.
Lemma do_puts_other l : forall b k, k ∉ l.*1 -> do_puts b l !! k = b !! k.
Proof.
  induction l as [|[k' o] l IH]; intros b k Hk; [done|]. cbn in Hk. apply not_elem_of_cons in Hk as [Hne Hk].
  cbn [do_puts foldl fst snd]. change (do_puts (<[k':=o]> b) l !! k = b !! k). rewrite IH by done.
  by rewrite lookup_insert_ne.
Qed.
Lemma do_puts_in l : forall b k o, NoDup l.*1 -> (k, o) ∈ l -> do_puts b l !! k = Some o.
Proof.
  induction l as [|[k' o'] l IH]; intros b k o Hnd Hin; [by apply elem_of_nil in Hin|].
  cbn in Hnd. apply NoDup_cons in Hnd as [Hni Hnd].
  cbn [do_puts foldl fst snd]. change (do_puts (<[k':=o']> b) l !! k = Some o).
  apply elem_of_cons in Hin as [[= -> ->]|Hin]; [|by apply IH].
  rewrite do_puts_other by done. by rewrite lookup_insert.
Qed.

Lemma contains_spec sub s : contains sub s = true <-> exists a c, s = a ++ sub ++ c.
Proof.
  split.
  - induction s as [|x s IH]; cbn [contains]; intros H.
    + rewrite orb_false_r in H. apply is_prefix_spec in H as [r H]. by exists [], r.
    + apply orb_true_iff in H as [H|H].
      * apply is_prefix_spec in H as [r H]. by exists [], r.
      * destruct (IH H) as (a & c & ->). by exists (x :: a), c.
  - intros (a & c & ->). induction a as [|x a IH]; cbn [app].
    + assert (H : is_prefix sub (sub ++ c) = true) by (apply is_prefix_spec; eauto).
      destruct (sub ++ c) eqn:E; cbn [contains]; rewrite H; done.
    + cbn [contains]. rewrite IH. apply orb_true_r.
Qed.
Lemma contains_false sub s : contains sub s = false <-> forall a c, s <> a ++ sub ++ c.
Proof.
  split.
  - intros H a c E. assert (contains sub s = true) as H' by (apply contains_spec; eauto). congruence.
  - intros H. destruct (contains sub s) eqn:E; [|done]. apply contains_spec in E as (a & c & E). by destruct (H a c).
Qed.

Lemma elem_take {A} n (l : list A) x : x ∈ take n l -> x ∈ l.
Proof. intros H. rewrite <- (take_drop n l). apply elem_of_app. by left. Qed.
Lemma rows_keys {V} (b : kv V) k : k ∈ (rows b).*1 <-> is_Some (b !! k).
Proof.
  split.
  - intros ([k' v] & -> & H)%elem_of_list_fmap. cbn. exists v. by apply rows_elem.
  - intros [v H]. apply rows_elem in H. change k with (k, v).1. by apply elem_of_list_fmap_1.
Qed.
Lemma list_keys_in lim b pre k : k ∈ list_keys lim b pre -> is_Some (b !! k) /\ is_prefix pre k = true.
Proof. intros H%elem_take. apply elem_of_list_filter in H as [H1 H2]. by rewrite rows_keys in H2. Qed.
(** The keys under a prefix, without the limit. *)
Definition under (b : bucket) (pre : bytes) : nat := length (filter (fun k => is_prefix pre k = true) (rows b).*1).
Lemma list_keys_all lim b pre k : (under b pre <= lim)%nat ->
  k ∈ list_keys lim b pre <-> is_Some (b !! k) /\ is_prefix pre k = true.
Proof.
  intros H. split; [apply list_keys_in|]. intros [H1 H2]. unfold list_keys. rewrite take_ge by exact H.
  apply elem_of_list_filter. by rewrite rows_keys.
Qed.

Lemma foldl_delete_lookup (l : list bytes) : forall (b : bucket) k,
  foldl (fun b k => delete k b) b l !! k = if bool_decide (k ∈ l) then None else b !! k.
Proof.
  induction l as [|x l IH]; intros b k; cbn [foldl].
  - by rewrite bool_decide_eq_false_2 by apply not_elem_of_nil.
  - rewrite IH. destruct (decide (k ∈ l)) as [H|H].
    + rewrite !bool_decide_eq_true_2; [done|by apply elem_of_cons; right|done].
    + rewrite (bool_decide_eq_false_2 (k ∈ l)) by done. destruct (decide (k = x)) as [->|Hne].
      * rewrite bool_decide_eq_true_2 by (apply elem_of_cons; by left). by rewrite lookup_delete.
      * rewrite bool_decide_eq_false_2 by (rewrite elem_of_cons; tauto). by rewrite lookup_delete_ne.
Qed.

(** ** Keys *)

Lemma digit_noslash s : Forall digit_ok s -> SLASH ∉ s.
Proof. intros H Hin. rewrite Forall_forall in H. specialize (H _ Hin). unfold digit_ok, SLASH in H. lia. Qed.
Lemma dec_noslash n : SLASH ∉ ChannelUri.to_string n.
Proof. apply digit_noslash, digits_dec. Qed.
Lemma chunk_name_noslash p : SLASH ∉ chunk_name p.
Proof.
  unfold chunk_name. rewrite !elem_of_app. intros [H|[H|H]].
  - revert H. unfold SLASH. set_solver.
  - revert H. apply digit_noslash, pad4_digits.
  - revert H. unfold SLASH. set_solver.
Qed.
Lemma snap_name_noslash (date : N -> bytes) ms : SLASH ∉ date ms -> SLASH ∉ snap_name date ms.
Proof.
  intros Hd. unfold snap_name. rewrite !elem_of_app. intros [H|[H|[H|[H|H]]]]; [|done| |by apply dec_noslash in H|];
  revert H; unfold SLASH; set_solver.
Qed.
Lemma latest_noslash : SLASH ∉ LATEST.
Proof. unfold LATEST, SLASH. set_solver. Qed.

Lemma split_slash a b r r' : SLASH ∉ a -> SLASH ∉ b -> a ++ [SLASH] ++ r = b ++ [SLASH] ++ r' -> a = b /\ r = r'.
Proof.
  revert b; induction a as [|x a IH]; intros [|y b] Ha Hb H; cbn in H.
  - injection H. done.
  - injection H as <- _. exfalso. apply Hb. by left.
  - injection H as -> _. exfalso. apply Ha. by left.
  - injection H as -> H. apply not_elem_of_cons in Ha as [_ Ha]. apply not_elem_of_cons in Hb as [_ Hb].
    destruct (IH b Ha Hb H) as [-> ->]. done.
Qed.
Lemma prefix_slash a b r r' : SLASH ∉ a -> SLASH ∉ b -> a ++ r = b ++ [SLASH] ++ r' -> exists c, b = a ++ c.
Proof.
  revert b; induction a as [|x a IH]; intros b Ha Hb H; [by exists b|].
  destruct b as [|y b]; cbn in H.
  - injection H as -> _. exfalso. apply Ha. by left.
  - injection H as -> H. apply not_elem_of_cons in Ha as [_ Ha]. apply not_elem_of_cons in Hb as [_ Hb].
    destruct (IH b Ha Hb H) as [c ->]. by exists c.
Qed.

(** The parts of a key between slashes. *)
Fixpoint comps (k : bytes) : list bytes :=
  match k with
  | [] => [[]]
  | x :: k =>
      if x =? SLASH then [] :: comps k
      else match comps k with [] => [[x]] | c :: cs => (x :: c) :: cs end
  end.
Lemma comps_cons a k : SLASH ∉ a -> comps (a ++ [SLASH] ++ k) = a :: comps k.
Proof.
  induction a as [|x a IH]; intros Ha; cbn [app comps].
  - by rewrite N.eqb_refl.
  - apply not_elem_of_cons in Ha as [Hx Ha]. destruct (x =? SLASH) eqn:E; [apply N.eqb_eq in E; congruence|].
    cbn [app] in IH. by rewrite (IH Ha).
Qed.
Lemma comps_one a : SLASH ∉ a -> comps a = [a].
Proof.
  induction a as [|x a IH]; intros Ha; cbn [comps]; [done|].
  apply not_elem_of_cons in Ha as [Hx Ha]. destruct (x =? SLASH) eqn:E; [apply N.eqb_eq in E; congruence|].
  by rewrite (IH Ha).
Qed.
Lemma comps_nonempty k : comps k <> [].
Proof. destruct k as [|x k]; cbn; [done|]. destruct (x =? SLASH); [done|]. by destruct (comps k). Qed.
Lemma comps_mid p m q : SLASH ∉ m -> m ∈ tail (comps (p ++ [SLASH] ++ m ++ [SLASH] ++ q)).
Proof.
  intros Hm. induction p as [|x p IH]; cbn [app comps].
  - rewrite N.eqb_refl. cbn [tail]. change (m ++ SLASH :: q) with (m ++ [SLASH] ++ q). rewrite comps_cons by done. by left.
  - cbn [app] in IH. destruct (x =? SLASH).
    + cbn [tail]. destruct (comps _) as [|c cs]; [by apply elem_of_nil in IH|]. cbn in IH. by right.
    + destruct (comps _) as [|c cs]; [by apply elem_of_nil in IH|]. exact IH.
Qed.

Section Keys.
  Context (net : bytes) (date : N -> bytes).
  Hypothesis Hnet : SLASH ∉ net.
  Hypothesis Hdate : forall ms, SLASH ∉ date ms.

  Notation snap_dir := (snap_dir net).
  Notation meta_path := (meta_path net).
  Notation upload_dir := (upload_dir net date).

  (** The key of a chunk. *)
  Definition ckey (s ms : N) (name : bytes) : bytes := upload_dir s ms ++ [SLASH] ++ name.

  Lemma dir_split s r t r' : snap_dir s ++ [SLASH] ++ r = snap_dir t ++ [SLASH] ++ r' -> s = t /\ r = r'.
  Proof.
    unfold DbSnapshot.snap_dir. rewrite <- !app_assoc. intros H. apply app_inv_head, app_inv_head in H.
    apply split_slash in H as [H ->]; [|apply dec_noslash..]. by apply dec_inj in H as ->.
  Qed.
  Lemma ckey_split s ms n t ms' n' : ckey s ms n = ckey t ms' n' -> s = t /\ snap_name date ms = snap_name date ms' /\ n = n'.
  Proof.
    unfold ckey, DbSnapshot.upload_dir. rewrite <- !app_assoc. intros H. apply dir_split in H as [-> H].
    apply split_slash in H as [H ->]; [|by apply snap_name_noslash..]. done.
  Qed.
  Lemma base_split s ms t ms' : upload_dir s ms = upload_dir t ms' -> s = t /\ snap_name date ms = snap_name date ms'.
  Proof. unfold DbSnapshot.upload_dir. intros H. by apply dir_split in H. Qed.
  Lemma meta_inj s t : meta_path s = meta_path t -> s = t.
  Proof. unfold DbSnapshot.meta_path. intros H. by apply dir_split in H as [? _]. Qed.
  Lemma meta_ckey s t ms n : meta_path s <> ckey t ms n.
  Proof.
    unfold DbSnapshot.meta_path, ckey, DbSnapshot.upload_dir. rewrite <- !app_assoc. intros H. apply dir_split in H as [_ H].
    unfold LATEST, snap_name in H. discriminate H.
  Qed.

  (** A key of shard [t] starts with the directory of shard [s] just when the decimals do. *)
  Lemma dir_prefix s t r : is_prefix (snap_dir s) (snap_dir t ++ [SLASH] ++ r) = true <->
    is_prefix (ChannelUri.to_string s) (ChannelUri.to_string t) = true.
  Proof.
    rewrite !is_prefix_spec. unfold DbSnapshot.snap_dir. split.
    - intros [x H]. rewrite <- !app_assoc in H. apply app_inv_head, app_inv_head in H.
      apply (prefix_slash _ _ x r); [apply dec_noslash..|done].
    - intros [x H]. exists (x ++ [SLASH] ++ r). rewrite H. by rewrite <- !app_assoc.
  Qed.

  Lemma upload_keys s ms files : (upload_puts net date s ms files).*1 = map (ckey s ms) files.*1 ++ [meta_path s].
  Proof.
    unfold upload_puts. change (@fmap list _ (bytes * obj) bytes fst) with (@map (bytes * obj) bytes fst).
    rewrite map_app, map_map. cbn. f_equal. induction files as [|f l IH]; [done|]. cbn. by rewrite IH.
  Qed.
  Lemma upload_nodup s ms files : NoDup files.*1 -> NoDup (upload_puts net date s ms files).*1.
  Proof.
    intros H. rewrite upload_keys. apply NoDup_app. split; [|split].
    - apply NoDup_fmap_2; [|done]. intros a b E. by apply ckey_split in E as (_ & _ & ?).
    - intros k (n & -> & _)%elem_of_list_fmap Hk%elem_of_list_singleton. symmetry in Hk. by apply meta_ckey in Hk.
    - apply NoDup_singleton.
  Qed.

  Lemma upload_meta b s ms files : metadata (do_puts b (upload_puts net date s ms files)) net s = Some (upload_dir s ms, files.*1, ms).
  Proof.
    unfold metadata, upload_puts. rewrite do_puts_app. cbn [do_puts foldl fst snd]. by rewrite lookup_insert.
  Qed.

  Lemma download_upload gunzip b s ms files : NoDup files.*1 ->
    download_stream gunzip (do_puts b (upload_puts net date s ms files)) net s =
    match mapM gunzip files.*2 with Some parts => Some (concat parts) | None => None end.
  Proof.
    intros Hnd. unfold download_stream. rewrite upload_meta.
    assert (E : forall l, (forall f, f ∈ l -> f ∈ files) ->
      mapM (fun c => match do_puts b (upload_puts net date s ms files) !! (upload_dir s ms ++ [SLASH] ++ c) with
                     | Some (OChunk b) => gunzip b | _ => None end) l.*1 = mapM gunzip l.*2).
    { induction l as [|f l IH]; intros Hl; [done|]. cbn [fmap list_fmap mapM].
      rewrite (do_puts_in _ b _ (OChunk f.2)).
      - rewrite IH; [done|]. intros g Hg. apply Hl. by right.
      - by apply upload_nodup.
      - unfold upload_puts. apply elem_of_app. left. apply elem_of_list_fmap. exists f. split; [done|]. apply Hl. by left. }
    rewrite E by auto. done.
  Qed.

  (** The bucket holds what uploads put there. *)
  Definition bucket_ok (b : bucket) : Prop := forall t base chunks ts,
    metadata b net t = Some (base, chunks, ts) -> base = upload_dir t ts /\ Forall (fun c => SLASH ∉ c) chunks.

  Lemma bucket_ok_empty : bucket_ok ∅.
  Proof. intros t base chunks ts. unfold metadata. by rewrite lookup_empty. Qed.

  (** A download only reads the metadata and the chunks of its own shard. *)
  Lemma download_local gunzip b b' t : bucket_ok b -> b' !! meta_path t = b !! meta_path t ->
    (forall ms base chunks, metadata b net t = Some (base, chunks, ms) -> forall n, n ∈ chunks -> b' !! ckey t ms n = b !! ckey t ms n) ->
    download_stream gunzip b' net t = download_stream gunzip b net t.
  Proof.
    intros Hok Hm Hc. unfold download_stream.
    assert (Em : metadata b' net t = metadata b net t) by (unfold metadata; by rewrite Hm).
    rewrite Em. destruct (metadata b net t) as [[[base chunks] ms]|] eqn:E; [|done].
    destruct (Hok _ _ _ _ E) as [-> _].
    assert (Hall : forall l, (forall n, n ∈ l -> n ∈ chunks) ->
      mapM (fun c => match b' !! (upload_dir t ms ++ [SLASH] ++ c) with Some (OChunk b) => gunzip b | _ => None end) l =
      mapM (fun c => match b !! (upload_dir t ms ++ [SLASH] ++ c) with Some (OChunk b) => gunzip b | _ => None end) l).
    { induction l as [|n l IH]; intros Hl; [done|]. cbn [mapM].
      pose proof (Hc _ _ _ eq_refl n (Hl n ltac:(by left))) as Hn. unfold ckey in Hn. rewrite Hn.
      rewrite IH; [done|]. intros x Hx. apply Hl. by right. }
    by rewrite Hall by auto.
  Qed.

  Lemma puts_take_keys n s ms files k : k ∈ (take n (upload_puts net date s ms files)).*1 ->
    (exists c, c ∈ files.*1 /\ k = ckey s ms c) \/ (k = meta_path s /\ (length (upload_puts net date s ms files) <= n)%nat).
  Proof.
    intros Hk. destruct (le_lt_dec (length (upload_puts net date s ms files)) n) as [L|L].
    - rewrite take_ge in Hk by lia. rewrite upload_keys in Hk. apply elem_of_app in Hk as [Hk|Hk].
      + left. apply elem_of_list_fmap in Hk as (c & -> & Hc). eauto.
      + right. apply elem_of_list_singleton in Hk. done.
    - left. unfold upload_puts in *. rewrite app_length, map_length in L. cbn in L.
      rewrite take_app_le in Hk by (rewrite map_length; lia).
      apply elem_of_list_fmap in Hk as (x & -> & Hx%elem_take). apply elem_of_list_fmap in Hx as (f & -> & Hf). cbn.
      exists f.1. split; [by apply elem_of_list_fmap_1|done].
  Qed.

  (** An upload that stopped early, for its own shard, and any upload, for every other. *)
  Lemma upload_partial_same gunzip n b s ms files : bucket_ok b ->
    (forall base chunks ts, metadata b net s = Some (base, chunks, ts) -> base <> upload_dir s ms) ->
    (upload n b (upload_puts net date s ms files)).2 = false ->
    download_stream gunzip (upload n b (upload_puts net date s ms files)).1 net s = download_stream gunzip b net s.
  Proof.
    intros Hok Hne Hf. cbn in *. apply Nat.leb_gt in Hf. apply download_local; [done| |].
    - apply do_puts_other. intros [(c & _ & Hk)|[_ Hk]]%puts_take_keys; [by eapply meta_ckey|lia].
    - intros ts base chunks E c Hc. apply do_puts_other. intros [(c' & _ & Hk)|[Hk _]]%puts_take_keys.
      + apply ckey_split in Hk as (_ & Hk & _). destruct (Hok _ _ _ _ E) as [-> _]. eapply Hne; [done|].
        unfold DbSnapshot.upload_dir. by rewrite Hk.
      + symmetry in Hk. by apply meta_ckey in Hk.
  Qed.
  Lemma upload_other gunzip n b s ms files t : bucket_ok b -> s <> t ->
    download_stream gunzip (upload n b (upload_puts net date s ms files)).1 net t = download_stream gunzip b net t.
  Proof.
    intros Hok Hne. cbn. apply download_local; [done| |].
    - apply do_puts_other. intros [(c & _ & Hk)|[Hk _]]%puts_take_keys; [by eapply meta_ckey|by apply meta_inj in Hk].
    - intros ts base chunks E c Hc. apply do_puts_other. intros [(c' & _ & Hk)|[Hk _]]%puts_take_keys.
      + by apply ckey_split in Hk as (? & _).
      + symmetry in Hk. by apply meta_ckey in Hk.
  Qed.
  Lemma upload_ok n b s ms files : bucket_ok b -> Forall (fun c => SLASH ∉ c) files.*1 ->
    bucket_ok (upload n b (upload_puts net date s ms files)).1.
  Proof.
    intros Hok Hfs t base chunks ts. cbn. destruct (le_lt_dec (length (upload_puts net date s ms files)) n) as [L|L].
    - rewrite take_ge by lia. destruct (decide (s = t)) as [->|Hne].
      + rewrite upload_meta. intros [= <- <- <-]. done.
      + unfold metadata. rewrite do_puts_other; [apply Hok|]. rewrite upload_keys.
        intros [(c & Hk & _)%elem_of_list_fmap|Hk%elem_of_list_singleton]%elem_of_app; [by apply meta_ckey in Hk|].
        by apply meta_inj in Hk.
    - unfold metadata. rewrite do_puts_other; [apply Hok|].
      intros [(c & _ & Hk)|[_ Hk]]%puts_take_keys; [by apply meta_ckey in Hk|lia].
  Qed.

  (** *** Clearing *)

  Lemma clear_lookup lim b view s b' base chunks ts k : metadata view net s = Some (base, chunks, ts) ->
    clear_old lim b view net s = Some b' ->
    b' !! k = if bool_decide (k ∈ list_keys lim b (snap_dir s)) && negb (contains base k) && negb (contains (meta_path s) k)
              then None else b !! k.
  Proof.
    intros Hm Hc. unfold clear_old in Hc. rewrite Hm in Hc. injection Hc as <-. rewrite foldl_delete_lookup.
    unfold old_keys. destruct (decide (k ∈ list_keys lim b (snap_dir s))) as [H|H].
    - rewrite (bool_decide_eq_true_2 (k ∈ list_keys _ _ _)) by done. cbn [andb].
      destruct (negb (contains base k) && negb (contains (meta_path s) k)) eqn:E.
      + rewrite bool_decide_eq_true_2; [done|]. apply elem_of_list_filter. done.
      + rewrite bool_decide_eq_false_2; [done|]. intros [H1 _]%elem_of_list_filter. congruence.
    - rewrite (bool_decide_eq_false_2 (k ∈ list_keys _ _ _)) by done. cbn [andb].
      rewrite bool_decide_eq_false_2; [done|]. intros [_ H1]%elem_of_list_filter. done.
  Qed.
  Lemma contains_base s ms n : contains (upload_dir s ms) (ckey s ms n) = true.
  Proof. apply contains_spec. by exists [], ([SLASH] ++ n). Qed.
  Lemma contains_refl k : contains k k = true.
  Proof. apply contains_spec. exists [], []. by rewrite app_nil_r. Qed.

  Lemma clear_own_keeps gunzip lim b view s b' : bucket_ok b -> metadata view net s = metadata b net s ->
    clear_old lim b view net s = Some b' -> download_stream gunzip b' net s = download_stream gunzip b net s.
  Proof.
    intros Hok Hv Hc. destruct (metadata b net s) as [[[base chunks] ts]|] eqn:E.
    2:{ unfold clear_old in Hc. by rewrite Hv in Hc. }
    apply download_local; [done| |].
    - rewrite (clear_lookup _ _ _ _ _ _ _ _ _ Hv Hc), contains_refl, andb_false_r. done.
    - intros ms base' chunks' [= <- <- <-]%(eq_trans (eq_sym E)) n Hn.
      destruct (Hok _ _ _ _ E) as [-> _].
      rewrite (clear_lookup _ _ _ _ _ _ _ _ _ Hv Hc), contains_base. cbn [negb]. by rewrite andb_false_r.
  Qed.
  Lemma clear_other_keeps gunzip lim b view s t b' : bucket_ok b ->
    is_prefix (ChannelUri.to_string s) (ChannelUri.to_string t) = false ->
    clear_old lim b view net s = Some b' -> download_stream gunzip b' net t = download_stream gunzip b net t.
  Proof.
    intros Hok Hp Hc. destruct (metadata view net s) as [[[base chunks] ts]|] eqn:E.
    2:{ unfold clear_old in Hc. by rewrite E in Hc. }
    assert (Hk : forall r, b' !! (snap_dir t ++ [SLASH] ++ r) = b !! (snap_dir t ++ [SLASH] ++ r)).
    { intros r. rewrite (clear_lookup _ _ _ _ _ _ _ _ _ E Hc). rewrite bool_decide_eq_false_2; [done|].
      intros [_ H]%list_keys_in. apply dir_prefix in H. congruence. }
    apply download_local; [done|apply Hk|]. intros ms base' chunks' _ n _.
    unfold ckey, DbSnapshot.upload_dir. rewrite <- !app_assoc. apply Hk.
  Qed.
  Lemma clear_ok lim b view s b' : bucket_ok b -> clear_old lim b view net s = Some b' -> bucket_ok b'.
  Proof.
    intros Hok Hc t base chunks ts. unfold metadata.
    destruct (metadata view net s) as [[[vb vc] vt]|] eqn:E.
    2:{ unfold clear_old in Hc. by rewrite E in Hc. }
    rewrite (clear_lookup _ _ _ _ _ _ _ _ _ E Hc). destruct (_ && _); [done|]. apply Hok.
  Qed.


  Lemma not_contains_mid pre s x k : (forall c, c ∈ tail (comps k) -> c <> ChannelUri.to_string s) ->
    contains (pre ++ [SLASH] ++ ChannelUri.to_string s ++ [SLASH] ++ x) k = false.
  Proof.
    intros H. apply contains_false. intros a c E.
    apply (H (ChannelUri.to_string s)); [|done]. rewrite E.
    replace (a ++ (pre ++ [SLASH] ++ ChannelUri.to_string s ++ [SLASH] ++ x) ++ c)
      with ((a ++ pre) ++ [SLASH] ++ ChannelUri.to_string s ++ [SLASH] ++ (x ++ c)) by (by rewrite <- !app_assoc).
    apply comps_mid, dec_noslash.
  Qed.
  Lemma dec_head s c r : ChannelUri.to_string s = c :: r -> digit_ok c.
  Proof. intros E. pose proof (digits_dec s) as H. rewrite E in H. by inversion H. Qed.
  Lemma own_comps_meta t : comps (meta_path t) = [net; ChannelUri.to_string t; LATEST].
  Proof.
    unfold DbSnapshot.meta_path, DbSnapshot.snap_dir. rewrite <- !app_assoc.
    rewrite !comps_cons, comps_one; [done|apply latest_noslash|apply dec_noslash|done].
  Qed.
  Lemma own_comps_ckey t ms n : SLASH ∉ n -> comps (ckey t ms n) = [net; ChannelUri.to_string t; snap_name date ms; n].
  Proof.
    intros Hn. unfold ckey, DbSnapshot.upload_dir, DbSnapshot.snap_dir. rewrite <- !app_assoc.
    rewrite !comps_cons, comps_one; [done|done|by apply snap_name_noslash|apply dec_noslash|done].
  Qed.
  (** No key of another shard contains what [clear_old] looks for. *)
  Lemma foreign_key s t ms n x : s <> t -> SLASH ∉ n -> (forall s, n <> ChannelUri.to_string s) ->
    contains (snap_dir s ++ [SLASH] ++ x) (meta_path t) = false /\ contains (snap_dir s ++ [SLASH] ++ x) (ckey t ms n) = false.
  Proof.
    intros Hne Hn Hnd. unfold DbSnapshot.snap_dir. rewrite <- !app_assoc. split; apply not_contains_mid.
    - rewrite own_comps_meta. cbn [tail]. intros c [->|[->|[]%elem_of_nil]%elem_of_cons]%elem_of_cons.
      + intros E%dec_inj. by subst.
      + intros E. symmetry in E. apply dec_head in E. unfold digit_ok in E. lia.
    - rewrite own_comps_ckey by done. cbn [tail]. intros c [->|[->|[->|[]%elem_of_nil]%elem_of_cons]%elem_of_cons]%elem_of_cons.
      + intros E%dec_inj. by subst.
      + intros E. symmetry in E. apply dec_head in E. unfold digit_ok in E. lia.
      + apply Hnd.
  Qed.
  Lemma clear_prefix_loses lim b view s t b' : s <> t ->
    is_prefix (ChannelUri.to_string s) (ChannelUri.to_string t) = true ->
    (under b (snap_dir s) <= lim)%nat -> clear_old lim b view net s = Some b' -> bucket_ok view ->
    b' !! meta_path t = None /\
    (forall ms n, SLASH ∉ n -> (forall s, n <> ChannelUri.to_string s) -> b' !! ckey t ms n = None).
  Proof.
    intros Hne Hp Hu Hc Hv. destruct (metadata view net s) as [[[base chunks] ts]|] eqn:E.
    2:{ unfold clear_old in Hc. by rewrite E in Hc. }
    destruct (Hv _ _ _ _ E) as [-> _].
    assert (Hk : forall k r, k = snap_dir t ++ [SLASH] ++ r -> (forall x, contains (snap_dir s ++ [SLASH] ++ x) k = false) -> b' !! k = None).
    { intros k r -> Hx. rewrite (clear_lookup _ _ _ _ _ _ _ _ _ E Hc).
      unfold DbSnapshot.upload_dir. rewrite Hx. unfold DbSnapshot.meta_path at 1. rewrite Hx. cbn [negb]. rewrite !andb_true_r.
      destruct (b !! (snap_dir t ++ [SLASH] ++ r)) as [o|] eqn:Eb; [|by destruct (bool_decide _)].
      rewrite bool_decide_eq_true_2; [done|]. apply list_keys_all; [done|]. split; [by rewrite Eb|by apply dir_prefix]. }
    assert (Hl : forall s, LATEST <> ChannelUri.to_string s).
    { intros u Eu. symmetry in Eu. apply dec_head in Eu. unfold digit_ok in Eu. lia. }
    split.
    - apply (Hk _ LATEST); [done|]. intros x. apply (foreign_key s t 0 LATEST x Hne latest_noslash Hl).
    - intros ms n Hn Hnd. apply (Hk _ (snap_name date ms ++ [SLASH] ++ n)).
      + unfold ckey, DbSnapshot.upload_dir. by rewrite <- !app_assoc.
      + intros x. by apply foreign_key.
  Qed.

  Lemma clear_removes lim b view s b' k r base chunks ts : metadata view net s = Some (base, chunks, ts) ->
    (under b (snap_dir s) <= lim)%nat -> clear_old lim b view net s = Some b' ->
    k = snap_dir s ++ r -> is_Some (b' !! k) -> contains base k = true \/ contains (meta_path s) k = true.
  Proof.
    intros E Hu Hc -> [o Ho]. rewrite (clear_lookup _ _ _ _ _ _ _ _ _ E Hc) in Ho.
    destruct (contains base _); [by left|]. destruct (contains (meta_path s) _); [by right|]. exfalso.
    cbn [negb] in Ho. rewrite !andb_true_r in Ho.
    destruct (bool_decide_reflect (snap_dir s ++ r ∈ list_keys lim b (snap_dir s))) as [_|Hn]; [done|].
    apply Hn. apply list_keys_all; [done|]. split; [by rewrite Ho|]. apply is_prefix_spec. eauto.
  Qed.

  (** Metadata read from an address that still serves the one before. *)
  Lemma stale_not_contained s ms ms' n : SLASH ∉ n -> (forall s, n <> ChannelUri.to_string s) ->
    length (snap_name date ms) = length (snap_name date ms') -> snap_name date ms <> snap_name date ms' ->
    contains (upload_dir s ms') (ckey s ms n) = false.
  Proof.
    intros Hn Hnd Hl Hne. apply contains_false. intros a c E.
    destruct (decide (SLASH ∈ a)) as [Ha|Ha].
    - apply elem_of_list_split in Ha as (a1 & a2 & Ea).
      (* the slash before the network's name is not the first one: the decimal would be a later component *)
      assert (Hc : ChannelUri.to_string s ∈ tail (tail (comps (ckey s ms n)))).
      { rewrite E, Ea. unfold DbSnapshot.upload_dir, DbSnapshot.snap_dir.
        replace ((a1 ++ SLASH :: a2) ++ ((net ++ [SLASH] ++ ChannelUri.to_string s) ++ [SLASH] ++ snap_name date ms') ++ c)
          with (a1 ++ [SLASH] ++ (a2 ++ net) ++ [SLASH] ++ ChannelUri.to_string s ++ [SLASH] ++ (snap_name date ms' ++ c))
          by (repeat (rewrite <- app_assoc; cbn [app]); reflexivity).
        generalize (snap_name date ms' ++ c) as q. generalize (a2 ++ net) as p. clear. intros p q.
        induction a1 as [|x a1 IH].
        - cbn [app comps]. rewrite N.eqb_refl. cbn [tail]. apply comps_mid, dec_noslash.
        - cbn [app comps] in *. destruct (x =? SLASH).
          + cbn [tail]. destruct (comps _) as [|d ds]; [by apply elem_of_nil in IH|]. cbn [tail] in *.
            destruct ds as [|d' ds]; [by apply elem_of_nil in IH|]. cbn [tail] in IH. by right.
          + destruct (comps _) as [|d ds]; [by apply elem_of_nil in IH|]. exact IH. }
      rewrite own_comps_ckey in Hc by done. cbn [tail] in Hc.
      apply elem_of_cons in Hc as [Hc|[Hc|[]%elem_of_nil]%elem_of_cons].
      + apply dec_head in Hc. unfold digit_ok in Hc. lia.
      + by eapply Hnd.
    - unfold ckey, DbSnapshot.upload_dir, DbSnapshot.snap_dir in E. rewrite <- !app_assoc in E.
      rewrite (app_assoc a net) in E. apply split_slash in E as [E1 E]; [|done|].
      2:{ rewrite elem_of_app. tauto. }
      apply split_slash in E as [_ E]; [|apply dec_noslash..].
      apply app_inj_len in E as [E _]; [|done]. done.
  Qed.
  Lemma stale_view_loses gunzip lim b0 s ms files view vb vc vms b' :
    Forall (fun c => SLASH ∉ c /\ forall s, c <> ChannelUri.to_string s) files.*1 -> NoDup files.*1 -> files <> [] ->
    metadata view net s = Some (vb, vc, vms) -> vb = upload_dir s vms ->
    length (snap_name date ms) = length (snap_name date vms) -> snap_name date ms <> snap_name date vms ->
    (under (do_puts b0 (upload_puts net date s ms files)) (snap_dir s) <= lim)%nat ->
    clear_old lim (do_puts b0 (upload_puts net date s ms files)) view net s = Some b' ->
    metadata b' net s = Some (upload_dir s ms, files.*1, ms) /\ download_stream gunzip b' net s = None.
  Proof.
    intros Hf Hnd Hne Hv -> Hl Hsn Hu Hc.
    assert (Hm : metadata b' net s = Some (upload_dir s ms, files.*1, ms)).
    { unfold metadata. rewrite (clear_lookup _ _ _ _ _ _ _ _ _ Hv Hc), contains_refl, andb_false_r.
      apply upload_meta. }
    split; [done|]. unfold download_stream. rewrite Hm.
    destruct files as [|f files]; [done|]. cbn [fmap list_fmap mapM]. cbn [fmap list_fmap] in Hf. apply Forall_cons in Hf as [[Hf1 Hf2] _].
    change (upload_dir s ms ++ [SLASH] ++ f.1) with (ckey s ms f.1).
    rewrite (clear_lookup _ _ _ _ _ _ _ _ _ Hv Hc), (stale_not_contained s ms vms f.1) by done.
    assert (Hmc : contains (meta_path s) (ckey s ms f.1) = false).
    { apply contains_false. intros a c E.
      destruct (decide (SLASH ∈ a)) as [Ha|Ha].
      - apply elem_of_list_split in Ha as (a1 & a2 & Ea).
        assert (Hk : length (comps (ckey s ms f.1)) = 4%nat) by (by rewrite own_comps_ckey).
        assert (Hc' : ChannelUri.to_string s ∈ tail (tail (comps (ckey s ms f.1)))).
        { rewrite E, Ea. unfold DbSnapshot.meta_path, DbSnapshot.snap_dir.
          replace ((a1 ++ SLASH :: a2) ++ ((net ++ [SLASH] ++ ChannelUri.to_string s) ++ [SLASH] ++ LATEST) ++ c)
            with (a1 ++ [SLASH] ++ (a2 ++ net) ++ [SLASH] ++ ChannelUri.to_string s ++ [SLASH] ++ (LATEST ++ c))
            by (repeat (rewrite <- app_assoc; cbn [app]); reflexivity).
          generalize (LATEST ++ c) as q. generalize (a2 ++ net) as p. clear. intros p q.
          induction a1 as [|x a1 IH].
          - cbn [app comps]. rewrite N.eqb_refl. cbn [tail]. apply comps_mid, dec_noslash.
          - cbn [app comps] in *. destruct (x =? SLASH).
            + cbn [tail]. destruct (comps _) as [|d ds]; [by apply elem_of_nil in IH|]. cbn [tail] in *.
              destruct ds as [|d' ds]; [by apply elem_of_nil in IH|]. cbn [tail] in IH. by right.
            + destruct (comps _) as [|d ds]; [by apply elem_of_nil in IH|]. exact IH. }
        rewrite own_comps_ckey in Hc' by done. cbn [tail] in Hc'.
        apply elem_of_cons in Hc' as [Hc'|[Hc'|[]%elem_of_nil]%elem_of_cons].
        + apply dec_head in Hc'. unfold digit_ok in Hc'. lia.
        + by eapply Hf2.
      - unfold ckey, DbSnapshot.upload_dir, DbSnapshot.meta_path, DbSnapshot.snap_dir in E. rewrite <- !app_assoc in E.
        rewrite (app_assoc a net) in E. apply split_slash in E as [E1 E]; [|done|].
        2:{ rewrite elem_of_app. tauto. }
        apply split_slash in E as [_ E]; [|apply dec_noslash..]. unfold snap_name, LATEST in E. discriminate E. }
    rewrite Hmc. cbn [negb]. rewrite !andb_true_r.
    destruct (bool_decide_reflect (ckey s ms f.1 ∈ list_keys lim (do_puts b0 (upload_puts net date s ms (f :: files))) (snap_dir s))) as [_|Hn].
    - done.
    - exfalso. apply Hn. apply list_keys_all; [done|]. split.
      + rewrite (do_puts_in _ b0 _ (OChunk f.2)); [by eexists|by apply upload_nodup|].
        unfold upload_puts. apply elem_of_app. left. apply elem_of_list_fmap. exists f. split; [done|]. by left.
      + apply is_prefix_spec. unfold ckey, DbSnapshot.upload_dir. rewrite <- !app_assoc. eauto.
  Qed.
End Keys.

(** ** The guard *)

Lemma guard_spec now d : upload_guard now d =
  if bool_decide (bd_entries d = ∅) then Some d
  else if bool_decide (0 <= now - bd_mtime d <= STALE)%Z then None else Some (Bdir ∅ now).
Proof.
  unfold upload_guard. destruct (bool_decide (bd_entries d = ∅)); [done|].
  destruct (decide (0 <= now - bd_mtime d <= STALE)%Z) as [H|H].
  - rewrite (bool_decide_eq_true_2 (0 <= _ <= _)%Z) by done. rewrite !bool_decide_eq_false_2 by lia. done.
  - rewrite (bool_decide_eq_false_2 (0 <= _ <= _)%Z) by done.
    destruct (decide (now < bd_mtime d)%Z) as [H'|H'].
    + by rewrite bool_decide_eq_true_2.
    + rewrite (bool_decide_eq_false_2 (now < _)%Z) by done. rewrite bool_decide_eq_true_2 by lia. done.
Qed.

(** The states before, between and after the events. *)
Fixpoint gstates (s : gstate) (l : list (Z * gevent)) : list gstate :=
  s :: match l with [] => [] | e :: l => gstates (gstep e.1 s e.2) l end.

(** Uploads that make their first entry before anything else happens, never empty the directory before they are
    done, and are never found idle for more than the limit. *)
Fixpoint paced (s : gstate) (l : list (Z * gevent)) : Prop :=
  match l with
  | [] => True
  | (now, ev) :: r =>
      match ev with
      | GStart u =>
          (gs_run s <> ∅ -> 0 <= now - bd_mtime (gs_dir s) <= STALE)%Z /\
          match r with (_, GMake u' _) :: _ => u' = u | _ => False end
      | GDrop _ e => exists e', e' <> e /\ e' ∈ bd_entries (gs_dir s)
      | _ => True
      end /\ paced (gstep now s ev) r
  end.
Definition excl (s : gstate) : Prop := gs_run s = ∅ \/ exists u, gs_run s = {[u]} /\ bd_entries (gs_dir s) <> ∅.
Definition pend (s : gstate) (l : list (Z * gevent)) : Prop :=
  exists u now e r, gs_run s = {[u]} /\ l = (now, GMake u e) :: r.

Lemma excl_states l : forall s, excl s \/ pend s l -> paced s l -> forall t, t ∈ gstates s l -> (size (gs_run t) <= 1)%nat.
Proof.
  induction l as [|[now ev] l IH]; intros s Hs Hp t Ht; cbn [gstates] in Ht; apply elem_of_cons in Ht as [->|Ht].
  - destruct Hs as [[->|(u & -> & _)]|(u & ? & ? & ? & -> & _)]; rewrite ?size_empty, ?size_singleton; lia.
  - by apply elem_of_nil in Ht.
  - destruct Hs as [[->|(u & -> & _)]|(u & ? & ? & ? & -> & _)]; rewrite ?size_empty, ?size_singleton; lia.
  - cbn [fst snd paced] in *. destruct Hp as [Hev Hp]. eapply IH; [|done|done]. clear IH Ht t.
    destruct Hs as [Hs|(u & now' & e & r & Hr & [= -> -> ->])].
    2:{ left. cbn [gstep]. rewrite Hr. rewrite bool_decide_eq_true_2 by set_solver. right. exists u. cbn. split; [done|]. set_solver. }
    destruct ev as [u|u e|u e|u|]; cbn [gstep].
    + destruct Hev as [Hev Hl].
      destruct Hs as [Hs|(u' & Hs & Hne)].
      * destruct (upload_guard now (gs_dir s)) as [d|]; [|left; by left].
        right. destruct l as [|[now' [|u'' e'| | |]] l]; try done. subst.
        exists u, now', e', l. cbn. rewrite Hs. split; [set_solver|done].
      * rewrite guard_spec. rewrite bool_decide_eq_false_2 by done. rewrite bool_decide_eq_true_2; [left; right; eauto|].
        apply Hev. rewrite Hs. set_solver.
    + left. destruct (decide (u ∈ gs_run s)) as [Hu|Hu]; [rewrite bool_decide_eq_true_2 by done|by rewrite bool_decide_eq_false_2].
      destruct Hs as [Hs|(u' & Hs & Hne)]; [rewrite Hs in Hu; set_solver|].
      right. exists u'. cbn. split; [done|set_solver].
    + left. destruct (decide (u ∈ gs_run s)) as [Hu|Hu]; [rewrite bool_decide_eq_true_2 by done|by rewrite bool_decide_eq_false_2].
      destruct Hs as [Hs|(u' & Hs & Hne)]; [rewrite Hs in Hu; set_solver|].
      right. exists u'. cbn. split; [done|]. destruct Hev as (e' & He1 & He2). unfold drop_entry.
      destruct (bool_decide _); cbn; [|done]. set_solver.
    + left. destruct (decide (u ∈ gs_run s)) as [Hu|Hu]; [rewrite bool_decide_eq_true_2 by done|by rewrite bool_decide_eq_false_2].
      destruct Hs as [Hs|(u' & Hs & Hne)]; [rewrite Hs in Hu; set_solver|].
      left. cbn. rewrite Hs in *. set_solver.
    + left. by left.
Qed.
