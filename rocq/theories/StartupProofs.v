(** Proofs about Startup.v. *)
From stdpp Require Import gmap.
From Verif Require Import Base Startup.

(** A file on the disk, and the archive as a list of files. *)
Definition get (m : gmap N files) (s : N) (f : bytes) : option bytes :=
  match m !! s with Some fs => fs !! f | None => None end.
Definition flat (a : archive) : list ((N * bytes) * bytes) :=
  concat (map (fun e => map (fun f => ((e.1, f.1), f.2)) e.2) a).
Definition mk (o : N -> bytes -> bytes -> dop) (x : (N * bytes) * bytes) : dop := o x.1.1 x.1.2 x.2.

Lemma get_put m s f c s' f' : get (put_file m s f c) s' f' = if decide ((s, f) = (s', f')) then Some c else get m s' f'.
Proof.
  unfold get, put_file. destruct (decide (s = s')) as [->|Hs].
  - rewrite lookup_insert. destruct (decide (f = f')) as [->|Hf].
    + rewrite lookup_insert. by rewrite decide_True.
    + rewrite lookup_insert_ne by done. rewrite decide_False by congruence. destruct (m !! s'); cbn; [done|apply lookup_empty].
  - rewrite lookup_insert_ne by done. by rewrite decide_False by congruence.
Qed.
Lemma get_empty s f : get ∅ s f = None.
Proof. unfold get. by rewrite lookup_empty. Qed.

Lemma shard_ops_flat o a : concat (map (shard_ops o) a) = map (mk o) (flat a).
Proof.
  unfold flat. induction a as [|e a IH]; [done|]. cbn [map concat]. rewrite map_app, IH. f_equal.
  unfold shard_ops. rewrite map_map. done.
Qed.

(** What a list of files leaves. *)
Definition layer (m : option bytes) (l : list ((N * bytes) * bytes)) (s : N) (f : bytes) : option bytes :=
  match list_to_map (M := gmap (N * bytes) bytes) l !! (s, f) with Some c => Some c | None => m end.
Definition puts (m : gmap N files) (l : list ((N * bytes) * bytes)) : gmap N files :=
  foldl (fun m x => put_file m x.1.1 x.1.2 x.2) m l.
Lemma get_puts l : forall m s f, NoDup l.*1 -> get (puts m l) s f = layer (get m s f) l s f.
Proof.
  unfold layer. induction l as [|[[s' f'] c] l IH]; intros m s f Hnd; [done|].
  cbn in Hnd. apply NoDup_cons in Hnd as [Hni Hnd]. cbn [puts foldl fst snd].
  change (foldl (fun m x => put_file m x.1.1 x.1.2 x.2) (put_file m s' f' c) l) with (puts (put_file m s' f' c) l).
  rewrite IH, get_put by done. rewrite list_to_map_cons. destruct (decide ((s', f') = (s, f))) as [[= -> ->]|Hne].
  - rewrite lookup_insert. by rewrite (not_elem_of_list_to_map_1 l (s, f)).
  - by rewrite lookup_insert_ne.
Qed.
Lemma unpack_ops l : forall d, apply_ops d (map (mk OUnpack) l) = Disk (puts (dk_main d) l) (dk_work d).
Proof.
  induction l as [|x l IH]; intros d; [by destruct d|]. cbn [map apply_ops foldl puts].
  change (apply_ops (apply_op d (mk OUnpack x)) (map (mk OUnpack) l) = Disk (puts (put_file (dk_main d) x.1.1 x.1.2 x.2) l) (dk_work d)).
  by rewrite IH.
Qed.
Lemma work_ops l : forall d, apply_ops d (map (mk OWork) l) =
  Disk (dk_main d) (match l with [] => dk_work d | _ => Some (puts (default ∅ (dk_work d)) l) end).
Proof.
  induction l as [|x l IH]; intros d; [by destruct d|]. cbn [map apply_ops foldl].
  change (apply_ops (apply_op d (mk OWork x)) (map (mk OWork) l) =
    Disk (dk_main d) (Some (puts (put_file (default ∅ (dk_work d)) x.1.1 x.1.2 x.2) l))).
  rewrite IH. cbn. by destruct l.
Qed.
Lemma move_ops ss : forall m w, NoDup ss ->
  exists m' w', apply_ops (Disk m (Some w)) (map OMove ss) = Disk m' (Some w') /\
    forall s, m' !! s = if bool_decide (s ∈ ss) then match w !! s with Some fs => Some fs | None => m !! s end else m !! s.
Proof.
  induction ss as [|x ss IH]; intros m w Hnd.
  - exists m, w. split; [done|]. intros s. by rewrite bool_decide_eq_false_2 by apply not_elem_of_nil.
  - apply NoDup_cons in Hnd as [Hni Hnd]. cbn [map apply_ops foldl apply_op dk_work dk_main].
    destruct (w !! x) as [fs|] eqn:E.
    + destruct (IH (<[x := fs]> m) (delete x w) Hnd) as (m' & w' & H1 & H2). exists m', w'. split; [done|].
      intros s. rewrite H2. destruct (decide (s = x)) as [->|Hne].
      * rewrite (bool_decide_eq_false_2 (x ∈ ss)), (bool_decide_eq_true_2 (x ∈ x :: ss)) by (done || by left).
        by rewrite lookup_insert, E.
      * rewrite lookup_insert_ne, lookup_delete_ne by done.
        rewrite (bool_decide_ext (s ∈ ss) (s ∈ x :: ss)); [done|]. rewrite elem_of_cons. tauto.
    + destruct (IH m w Hnd) as (m' & w' & H1 & H2). exists m', w'. split; [done|].
      intros s. rewrite H2. destruct (decide (s = x)) as [->|Hne].
      * rewrite (bool_decide_eq_false_2 (x ∈ ss)), (bool_decide_eq_true_2 (x ∈ x :: ss)) by (done || by left). by rewrite E.
      * rewrite (bool_decide_ext (s ∈ ss) (s ∈ x :: ss)); [done|]. rewrite elem_of_cons. tauto.
Qed.

(** The archive names each shard once and each of its files once, and no shard is without files. *)
Record arch_ok (a : archive) : Prop := Arch_ok {
  ao_shards : NoDup a.*1; ao_files : NoDup (flat a).*1; ao_some : forall e, e ∈ a -> e.2 <> []; ao_any : a <> [] }.
Lemma flat_shard a s f c : ((s, f), c) ∈ flat a -> s ∈ a.*1.
Proof.
  unfold flat. induction a as [|e a IH]; [by intros ?%elem_of_nil|]. cbn. intros [H|H]%elem_of_app.
  - apply elem_of_list_fmap in H as (g & [= -> _ _] & _). by left.
  - right. by apply IH.
Qed.
Lemma flat_of_shard a e : e ∈ a -> e.2 <> [] -> exists f c, ((e.1, f), c) ∈ flat a.
Proof.
  intros Hin Hne. destruct e as [s fl]. destruct fl as [|[f c] fl]; [done|]. exists f, c. unfold flat.
  apply elem_of_list_In, in_concat. exists (map (fun x => ((s, x.1), x.2)) ((f, c) :: fl)). split.
  - apply in_map_iff. exists (s, (f, c) :: fl). split; [done|]. by apply elem_of_list_In.
  - by left.
Qed.
Lemma flat_nonempty a : arch_ok a -> flat a <> [].
Proof.
  intros [_ _ Hs Ha] E. destruct a as [|e a]; [done|].
  destruct (flat_of_shard (e :: a) e) as (f & c & H); [by left|apply Hs; by left|]. rewrite E in H. by apply elem_of_nil in H.
Qed.

Definition complete (a : archive) (d : disk) : Prop := forall s f c, ((s, f), c) ∈ flat a -> get (dk_main d) s f = Some c.
Definition exact (a : archive) (d : disk) : Prop := forall s f, get (dk_main d) s f = layer None (flat a) s f.
Lemma exact_complete a d : NoDup (flat a).*1 -> exact a d -> complete a d.
Proof. intros Hnd H s f c Hin. rewrite H. unfold layer. by rewrite (elem_of_list_to_map_1 _ _ _ Hnd Hin). Qed.

Lemma download_disk a d : apply_ops d (download_ops a) = Disk (puts (dk_main d) (flat a)) (dk_work d).
Proof. unfold download_ops. by rewrite shard_ops_flat, unpack_ops. Qed.

Lemma nodup_take {A} n (l : list A) : NoDup l -> NoDup (take n l).
Proof. rewrite <- (take_drop n l) at 1. by intros (? & _)%NoDup_app. Qed.

(** A download from an empty directory that was cut short. *)
Lemma download_cut a n : arch_ok a -> (n < length (download_ops a))%nat ->
  ~ complete a (apply_ops disk0 (take n (download_ops a))).
Proof.
  intros Hok Hn Hc. unfold download_ops in *. rewrite shard_ops_flat, map_length in *.
  rewrite firstn_map, unpack_ops in Hc. cbn [dk_main] in Hc.
  destruct (lookup_lt_is_Some_2 (flat a) n Hn) as [[[s f] c] Hx].
  pose proof (elem_of_list_lookup_2 _ _ _ Hx) as Hin. specialize (Hc s f c Hin). cbn [dk_main] in Hc.
  pose proof (ao_files a Hok) as Hnd.
  assert (Hni : (s, f) ∉ (take n (flat a)).*1).
  { intros (y & Hy & Hyin)%elem_of_list_fmap. apply elem_of_take in Hyin as (j & Hj & Hlt).
    assert (j = n); [|lia]. eapply (NoDup_lookup (flat a).*1); [done| |].
    - rewrite list_lookup_fmap, Hj. cbn. by rewrite <- Hy.
    - rewrite list_lookup_fmap, Hx. done. }
  rewrite get_puts in Hc.
  - unfold layer in Hc. rewrite not_elem_of_list_to_map_1 in Hc by done. cbn in Hc. by rewrite get_empty in Hc.
  - rewrite fmap_take. by apply nodup_take.
Qed.

Lemma replicate_full a : arch_ok a -> exact a (apply_ops disk0 (replicate_ops a)).
Proof.
  intros Hok s f. unfold replicate_ops. unfold apply_ops. rewrite foldl_app. fold (apply_ops disk0 (concat (map (shard_ops OWork) a))).
  rewrite shard_ops_flat, work_ops. cbn [disk0 dk_main dk_work default].
  pose proof (flat_nonempty a Hok) as Hne. destruct (flat a) as [|x l] eqn:E; [done|]. rewrite <- E.
  rewrite <- (map_map fst OMove a).
  destruct (move_ops (map fst a) ∅ (puts ∅ (flat a)) (ao_shards a Hok)) as (m' & w' & H1 & H2).
  unfold apply_ops in H1. cbn [default option_fmap] in *. unfold id. rewrite H1. cbn [dk_main].
  pose proof (get_puts (flat a) ∅ s f (ao_files a Hok)) as Hg. rewrite get_empty in Hg.
  unfold get in *. rewrite H2, lookup_empty. destruct (decide (s ∈ map fst a)) as [Hin|Hin].
  - rewrite bool_decide_eq_true_2 by done. rewrite <- Hg. by destruct (puts ∅ (flat a) !! s).
  - rewrite bool_decide_eq_false_2 by done. unfold layer.
    destruct (list_to_map (flat a) !! (s, f)) as [c|] eqn:El; [|done].
    apply elem_of_list_to_map_2 in El. exfalso. apply Hin. by eapply flat_shard.
Qed.
Lemma replicate_cut a n : arch_ok a -> (n < length (replicate_ops a))%nat ->
  ~ complete a (apply_ops disk0 (take n (replicate_ops a))).
Proof.
  intros Hok Hn Hc. unfold replicate_ops in *. rewrite app_length, map_length in Hn.
  set (k := length (concat (map (shard_ops OWork) a))) in *.
  pose proof (flat_nonempty a Hok) as Hne.
  destruct (le_lt_dec n k) as [L|L].
  - rewrite take_app_le in Hc by (unfold k in L; lia). rewrite shard_ops_flat, firstn_map, work_ops in Hc.
    destruct (flat a) as [|[[s f] c] l] eqn:E; [done|]. specialize (Hc s f c). cbn [dk_main disk0] in Hc. rewrite get_empty in Hc.
    rewrite E in Hc. by specialize (Hc ltac:(by left)).
  - rewrite take_app_ge in Hc by (unfold k in *; lia). fold k in Hc.
    destruct (lookup_lt_is_Some_2 a (n - k)) as [e He]; [lia|].
    pose proof (elem_of_list_lookup_2 _ _ _ He) as Hin.
    destruct (flat_of_shard a e Hin (ao_some a Hok e Hin)) as (f & c & Hf).
    specialize (Hc _ _ _ Hf). unfold apply_ops in Hc. rewrite foldl_app in Hc.
    fold (apply_ops disk0 (concat (map (shard_ops OWork) a))) in Hc. rewrite shard_ops_flat, work_ops in Hc.
    destruct (flat a) as [|y l] eqn:E; [done|]. rewrite <- E in Hc. cbn [dk_main dk_work disk0 default] in Hc.
    rewrite firstn_map, <- (map_map fst OMove) in Hc.
    assert (Hnd : NoDup (map fst (take (n - k) a))).
    { rewrite <- firstn_map. apply nodup_take, (ao_shards a Hok). }
    destruct (move_ops (map fst (take (n - k) a)) ∅ (puts ∅ (flat a)) Hnd) as (m' & w' & H1 & H2).
    unfold apply_ops in H1. unfold id in Hc. rewrite H1 in Hc. cbn [dk_main] in Hc. unfold get in Hc.
    rewrite H2, lookup_empty, bool_decide_eq_false_2 in Hc; [done|].
    intros (e' & He' & Hin')%elem_of_list_In%in_map_iff. apply elem_of_list_In, elem_of_take in Hin' as (j & Hj & Hlt).
    assert (j = (n - k)%nat); [|lia]. eapply (NoDup_lookup a.*1); [apply (ao_shards a Hok)| |].
    + rewrite list_lookup_fmap, Hj. cbn. by rewrite He'.
    + rewrite list_lookup_fmap, He. done.
Qed.

(** Any change leaves the directory with an entry. *)
Definition touched (d : disk) : Prop := db_is_empty d = false.
Lemma touched_iff d : touched d <-> dk_main d <> ∅ \/ dk_work d <> None.
Proof.
  unfold touched, db_is_empty. destruct (decide (dk_main d = ∅)) as [H|H].
  - rewrite bool_decide_eq_true_2 by done. destruct (decide (dk_work d = None)) as [H'|H'].
    + rewrite bool_decide_eq_true_2 by done. split; [done|]. tauto.
    + rewrite bool_decide_eq_false_2 by done. tauto.
  - rewrite bool_decide_eq_false_2 by done. tauto.
Qed.
Lemma op_touched d o : touched d -> touched (apply_op d o).
Proof.
  rewrite !touched_iff. destruct o as [s f c|s f c|s]; cbn; intros H.
  - left. unfold put_file. apply insert_non_empty.
  - by right.
  - destruct (dk_work d) as [w|] eqn:E; [|by rewrite E]. destruct (w !! s); cbn; [by right|]. by rewrite E.
Qed.
Lemma ops_touched l : forall d, touched d -> touched (apply_ops d l).
Proof. induction l as [|o l IH]; intros d H; [done|]. cbn. apply IH. by apply op_touched. Qed.
Definition writes (o : dop) : bool := match o with OMove _ => false | _ => true end.
Lemma write_touches d o : writes o = true -> touched (apply_op d o).
Proof.
  rewrite touched_iff. destruct o; cbn; [| |done]; intros _; [left|by right]. unfold put_file. apply insert_non_empty.
Qed.
Lemma start_ops_first cfg a d : arch_ok a -> db_is_empty d = true -> start_ops cfg a d <> [] ->
  exists o l, start_ops cfg a d = o :: l /\ writes o = true.
Proof.
  intros Hok Hd. unfold start_ops. rewrite Hd. pose proof (flat_nonempty a Hok) as Hne.
  assert (H1 : exists o l, download_ops a = o :: l /\ writes o = true).
  { unfold download_ops. rewrite shard_ops_flat. destruct (flat a) as [|x l]; [done|]. cbn. eauto. }
  assert (H2 : exists o l, replicate_ops a = o :: l /\ writes o = true).
  { unfold replicate_ops. rewrite shard_ops_flat. destruct (flat a) as [|x l]; [done|]. cbn. eauto. }
  destruct (bc_method cfg); [done|]. by destruct (bc_force cfg || bc_load cfg).
Qed.
