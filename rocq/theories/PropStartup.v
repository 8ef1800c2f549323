(** C88: a node does not serve before it has its database. *)
From stdpp Require Import gmap.
From Verif Require Import Base Startup StartupProofs.
#[local] Open Scope N_scope.

(** Two shards; two files for the first, one for the second. *)
Definition ex_arch : archive := [(1, [([97], [1; 1]); ([98], [1; 2])]); (0, [([97], [0; 1])])].
Lemma ex_arch_ok : arch_ok ex_arch.
Proof.
  split; [| | |done].
  - apply (bool_decide_unpack _). vm_compute. exact I.
  - apply (bool_decide_unpack _). vm_compute. exact I.
  - intros e [->|[->|[]%elem_of_nil]%elem_of_cons]%elem_of_cons; done.
Qed.

(** A first start that gets to the end serves with exactly the files delivered. *)
Theorem C88_uninterrupted cfg a n :
  arch_ok a -> bc_method cfg = Replicate \/ bc_load cfg = true ->
  (length (start_ops cfg a disk0) <= n)%nat ->
  (start cfg a n disk0).2 = true /\ exact a (start cfg a n disk0).1.
Proof.
  intros Hok Hm Hn. unfold start. replace (after_clear cfg disk0) with disk0 by (unfold after_clear; by destruct (bc_clear cfg)).
  cbn [fst snd]. split; [by apply Nat.leb_le|]. rewrite take_ge by done. unfold start_ops.
  change (db_is_empty disk0) with true. cbn [andb].
  assert (Hd : exact a (apply_ops disk0 (download_ops a))).
  { intros s f. rewrite download_disk. cbn [dk_main]. rewrite get_puts by apply (ao_files a Hok). cbn. by rewrite get_empty. }
  destruct (bc_method cfg); [by apply replicate_full|]. destruct Hm as [|Hm]; [done|]. by rewrite Hm, orb_true_r.
Qed.
Example C88_uninterrupted_ex :
  let d := (start (Bcfg false Replicate true false) ex_arch 5 disk0).1 in
  (get (dk_main d) 1 [98], get (dk_main d) 0 [97], get (dk_main d) 0 [98]) = (Some [1; 2], Some [0; 1], None).
Proof. vm_compute. reflexivity. Qed.

(** A start that stops before the first change is repeated by the next. *)
Theorem C88_before_first cfg a d : (start cfg a 0 d).1 = after_clear cfg d.
Proof. unfold start. cbn. done. Qed.
Example C88_before_first_ex : (start (Bcfg false Snapshot true false) ex_arch 0 disk0) = (disk0, false).
Proof. vm_compute. reflexivity. Qed.

(** One that stops anywhere between the first change and the last is not: without the flags to clear or to force, every
    later start, however short, finds a directory that is not empty, changes nothing, and serves without the rest. *)
Theorem C88_interrupted_refuted cfg a n cfg' :
  arch_ok a -> (0 < n < length (start_ops cfg a disk0))%nat ->
  bc_clear cfg' = false -> bc_force cfg' = false ->
  let d := (start cfg a n disk0).1 in
  (start cfg a n disk0).2 = false /\
  (forall m, start cfg' a m d = (d, true)) /\ ~ complete a d.
Proof.
  intros Hok [Hn0 Hn] Hc Hf. unfold start.
  replace (after_clear cfg disk0) with disk0 by (unfold after_clear; by destruct (bc_clear cfg)). cbn [fst snd].
  split; [by apply Nat.leb_gt|].
  assert (Ht : touched (apply_ops disk0 (take n (start_ops cfg a disk0)))).
  { destruct (start_ops_first cfg a disk0 Hok eq_refl) as (o & l & E & Hw); [intros E; rewrite E in Hn; cbn in Hn; lia|].
    rewrite E. destruct n as [|n]; [lia|]. cbn [take]. change (touched (apply_ops (apply_op disk0 o) (take n l))).
    apply ops_touched. by apply write_touches. }
  split.
  - intros m. unfold after_clear. rewrite Hc.
    assert (E : start_ops cfg' a (apply_ops disk0 (take n (start_ops cfg a disk0))) = []).
    { unfold start_ops at 1. by rewrite Ht, Hf. }
    rewrite E. by rewrite take_nil.
  - unfold start_ops in *. change (db_is_empty disk0) with true in *. cbn iota in *.
    destruct (bc_method cfg); [by apply replicate_cut|].
    destruct (bc_force cfg || bc_load cfg); [by apply download_cut|cbn in Hn; lia].
Qed.
Example C88_interrupted_ex :
  let d := (start (Bcfg false Replicate true false) ex_arch 4 disk0).1 in
  length (start_ops (Bcfg false Replicate true false) ex_arch disk0) = 5%nat /\
  (get (dk_main d) 1 [98], get (dk_main d) 0 [97], (start (Bcfg false Replicate true false) ex_arch 0 d).2) = (Some [1; 2], None, true).
Proof. vm_compute. done. Qed.

(** With the flag to clear the database, any start that gets to the end serves with exactly the files delivered. *)
Theorem C88_cleared cfg a n d :
  arch_ok a -> bc_clear cfg = true -> bc_method cfg = Replicate \/ bc_load cfg = true ->
  (start cfg a n d).2 = true -> exact a (start cfg a n d).1.
Proof.
  intros Hok Hc Hm Hs. unfold start in *. unfold after_clear in *. rewrite Hc in *. cbn [fst snd] in *.
  pose proof (C88_uninterrupted cfg a n Hok Hm) as H. unfold start, after_clear in H. rewrite Hc in H. cbn [fst snd] in H.
  apply H. by apply Nat.leb_le.
Qed.
Example C88_cleared_ex :
  let d := (start (Bcfg false Replicate true false) ex_arch 2 disk0).1 in
  (start (Bcfg true Replicate true false) ex_arch 5 d).2 = true.
Proof. vm_compute. reflexivity. Qed.

(** With the flag to force a download on a directory that is not empty: the files delivered, over the files that were
    there. *)
Theorem C88_forced cfg a n d s f :
  arch_ok a -> bc_clear cfg = false -> bc_force cfg = true -> db_is_empty d = false ->
  (start cfg a n d).2 = true ->
  get (dk_main (start cfg a n d).1) s f =
    match list_to_map (M := gmap (N * bytes) bytes) (flat a) !! (s, f) with Some c => Some c | None => get (dk_main d) s f end.
Proof.
  intros Hok Hc Hf He Hs. unfold start in *. unfold after_clear in *. rewrite Hc in *. cbn [fst snd] in *.
  unfold start_ops in *. rewrite He, Hf in *. apply Nat.leb_le in Hs. rewrite take_ge by done. rewrite download_disk. cbn [dk_main].
  by rewrite get_puts by apply (ao_files a Hok).
Qed.
(** So a download that was cut short is completed by a forced one ... *)
Theorem C88_forced_completes cfg a n cfg' m :
  arch_ok a -> (0 < n)%nat -> bc_method cfg = Snapshot -> bc_force cfg || bc_load cfg = true ->
  bc_clear cfg' = false -> bc_force cfg' = true ->
  let d := (start cfg a n disk0).1 in
  (start cfg' a m d).2 = true -> exact a (start cfg' a m d).1.
Proof.
  intros Hok Hn Hm Hl Hc Hf d Hs s f.
  assert (Ed : d = Disk (puts ∅ (take n (flat a))) None).
  { unfold d, start. replace (after_clear cfg disk0) with disk0 by (unfold after_clear; by destruct (bc_clear cfg)). cbn [fst].
    unfold start_ops. change (db_is_empty disk0) with true. rewrite Hm, Hl. unfold download_ops.
    rewrite shard_ops_flat, firstn_map, unpack_ops. done. }
  assert (He : db_is_empty d = false).
  { pose proof (flat_nonempty a Hok) as Hne. rewrite Ed. destruct (flat a) as [|x l]; [done|]. destruct n as [|n]; [lia|].
    apply touched_iff. left. cbn [take dk_main puts foldl].
    assert (G : forall l m, m <> ∅ -> foldl (fun m x => put_file m x.1.1 x.1.2 x.2) m l <> (∅ : gmap N files)).
    { clear. induction l as [|x l IH]; intros m H; [done|]. cbn. apply IH. unfold put_file. apply insert_non_empty. }
    apply G. unfold put_file. apply insert_non_empty. }
  rewrite (C88_forced cfg' a m d s f Hok Hc Hf He Hs). unfold layer.
  destruct (list_to_map (flat a) !! (s, f)) as [c|] eqn:E; [done|].
  rewrite Ed. cbn [dk_main]. rewrite get_puts.
  2:{ rewrite fmap_take. apply nodup_take, (ao_files a Hok). }
  unfold layer. rewrite not_elem_of_list_to_map_1; [apply get_empty|].
  apply not_elem_of_list_to_map_2 in E. intros H. apply E. rewrite fmap_take in H.
  rewrite <- (take_drop n (flat a).*1). apply elem_of_app. by left.
Qed.
Example C88_forced_ex :
  let d := (start (Bcfg false Snapshot true false) ex_arch 2 disk0).1 in
  (get (dk_main d) 0 [97], (start (Bcfg false Snapshot true true) ex_arch 3 d).2,
   get (dk_main (start (Bcfg false Snapshot true true) ex_arch 3 d).1) 0 [97]) = (None, true, Some [0; 1]).
Proof. vm_compute. reflexivity. Qed.
(** ... but one over an older database leaves every old file that the snapshot does not have. *)
Theorem C88_forced_stale_refuted cfg a n d s f c :
  arch_ok a -> bc_clear cfg = false -> bc_force cfg = true ->
  (start cfg a n d).2 = true -> get (dk_main d) s f = Some c -> (s, f) ∉ (flat a).*1 ->
  get (dk_main (start cfg a n d).1) s f = Some c /\ ~ exact a (start cfg a n d).1.
Proof.
  intros Hok Hc Hf Hs Hg Hni.
  assert (He : db_is_empty d = false).
  { apply touched_iff. left. intros E. rewrite E, get_empty in Hg. done. }
  assert (H : get (dk_main (start cfg a n d).1) s f = Some c).
  { rewrite (C88_forced cfg a n d s f Hok Hc Hf He Hs). by rewrite not_elem_of_list_to_map_1. }
  split; [done|]. intros Hx. rewrite Hx in H. unfold layer in H. by rewrite not_elem_of_list_to_map_1 in H.
Qed.
Example C88_forced_stale_ex :
  let d := Disk {[1 := {[ [99] := [7] ]}]} None in
  get (dk_main (start (Bcfg false Snapshot true true) ex_arch 3 d).1) 1 [99] = Some [7].
Proof. vm_compute. reflexivity. Qed.

Print Assumptions C88_uninterrupted.
Print Assumptions C88_before_first.
Print Assumptions C88_interrupted_refuted.
Print Assumptions C88_cleared.
Print Assumptions C88_forced.
Print Assumptions C88_forced_completes.
Print Assumptions C88_forced_stale_refuted.
