(** C85, C86, C87: uploaded database snapshots, the bucket they live in, and the guard of the upload. *)
From Coq Require Import ZifyN ZifyNat ZifyBool String Ascii.
From Verif Require Import Base Kv Paging PagingProofs DbSnapshot DbSnapshotProofs.
From Verif Require ChannelUri.
#[local] Open Scope N_scope.

Definition txt (s : string) : bytes := map N_of_ascii (list_ascii_of_string s).
Definition MAIN : bytes := txt "FARCASTER_NETWORK_MAINNET".
(** A day, always the same: enough for examples. *)
Definition aday (ms : N) : bytes := txt "2026-11-17".
Definition ex_ms : N := 1794873600000.

(** ** C85: what is restored *)

(** The archive is cut between buffers: the files are numbered from one, their contents in the order of the numbers are
    the archive, no file is larger than the limit unless it is one buffer, and none could have held the next buffer. *)
Theorem C85_chunks max bufs : exists gs,
  concat gs = bufs /\
  chunk_files max bufs = imap (fun i g => (N.of_nat i + 1, concat g)) gs /\
  (forall g, g ∈ gs -> g <> [] /\ (N.of_nat (length (concat g)) <= max \/ length g = 1%nat)) /\
  (forall i g b h, gs !! i = Some g -> gs !! S i = Some (b :: h) -> max < N.of_nat (length (concat g)) + N.of_nat (length b)).
Proof. destruct (chunk_files_spec max bufs) as (gs & H1 & [H2 H3] & H4). eauto. Qed.
Example C85_chunks_ex : chunk_files 3 [[1; 2]; [3]; [4]; [5; 6; 7; 8]; []; [9]] =
  [(1, [1; 2; 3]); (2, [4]); (3, [5; 6; 7; 8]); (4, [9])].
Proof. vm_compute. reflexivity. Qed.

(** The copy that is archived holds the rows of the open database, whatever the size of a batch ... *)
Theorem C85_copy lim d : backup_copy lim (PTransaction d) = d.
Proof. apply backup_open. Qed.
Example C85_copy_ex :
  let d : kv bytes := {[ [1] := [10]; [2] := [20]; [3] := [30] ]} in
  backup_copy 2 (PTransaction d) !! [3] = Some [30] /\ size (backup_copy 2 (PTransaction d)) = 3%nat.
Proof. vm_compute. done. Qed.
(** ... but a database that is closed or opened for reading is archived as an empty one, without an error. *)
Theorem C85_closed_refuted lim d : d <> ∅ -> backup_copy lim (PReadOnly d) <> d /\ backup_copy lim PNotOpen <> d.
Proof. intros H. split; cbn; congruence. Qed.
Example C85_closed_ex : ({[ [1] := [2] ]} : kv bytes) <> ∅.
Proof. apply map_non_empty_singleton. Qed.

Lemma names_of (gz : bytes -> bytes) (l : list (N * bytes)) :
  (map (fun f => (chunk_name f.1, gz f.2)) l).*1 = map chunk_name l.*1.
Proof. induction l as [|f l IH]; [done|]. cbn. f_equal. exact IH. Qed.
(** A snapshot uploaded from the files in the order [l] and downloaded is the contents in the order [l]. *)
Theorem C85_restore net date gz gunzip b s ms (l : list (N * bytes)) max bufs :
  SLASH ∉ net -> (forall m, SLASH ∉ date m) -> (forall x, gunzip (gz x) = Some x) ->
  l ≡ₚ chunk_files max bufs ->
  download_stream gunzip (do_puts b (upload_puts net date s ms (map (fun f => (chunk_name f.1, gz f.2)) l))) net s =
  Some (concat (map snd l)).
Proof.
  intros Hn Hd Hg Hp. rewrite download_upload; [| |]; [|done|].
  - assert (E : mapM gunzip (map (fun f => (chunk_name f.1, gz f.2)) l).*2 = Some (map snd l)).
    { clear Hp. induction l as [|f l IH]; [done|]. cbn in *. rewrite Hg. cbn. rewrite IH. done. }
    by rewrite E.
  - rewrite names_of. apply NoDup_fmap_2; [intros x y; apply chunk_name_inj|].
    rewrite Hp. change ((chunk_files max bufs).*1) with (map fst (chunk_files max bufs)). rewrite chunk_files_parts.
    apply NoDup_fmap_2; [intros x y E; lia|]. apply NoDup_seq.
Qed.

(** In the order of the numbers it is the archive, so the database comes back. *)
Theorem C85_in_order net date gz gunzip tar untar lim d b s ms max :
  SLASH ∉ net -> (forall m, SLASH ∉ date m) -> (forall x, gunzip (gz x) = Some x) ->
  (forall d : kv bytes, untar (concat (tar d)) = Some d) ->
  let dir := chunk_dir gz max (tar (backup_copy lim (PTransaction d))) in
  match download_stream gunzip (do_puts b (upload_puts net date s ms dir)) net s with
  | Some a => untar a
  | None => None
  end = Some d.
Proof.
  intros Hn Hd Hg Ht dir. unfold dir, chunk_dir.
  rewrite (C85_restore net date gz gunzip b s ms (chunk_files max (tar (backup_copy lim (PTransaction d)))) max
    (tar (backup_copy lim (PTransaction d)))) by done.
  by rewrite chunk_files_concat, Ht, C85_copy.
Qed.
Example C85_in_order_ex :
  let bufs := [[1; 2]; [3]; [4; 5]] in
  download_stream Some (do_puts ∅ (upload_puts MAIN aday 1 ex_ms (chunk_dir id 3 bufs))) MAIN 1 = Some [1; 2; 3; 4; 5].
Proof. vm_compute. reflexivity. Qed.

(** The order is that of [read_dir], which promises none, and the metadata keeps it.  Listed by name it would be right
    up to 9999 files ... *)
Theorem C85_by_name max bufs l : l ≡ₚ chunk_files max bufs -> N.of_nat (length l) < 10000 ->
  StronglySorted (fun a b => blt (chunk_name a.1) (chunk_name b.1) = true) l -> l = chunk_files max bufs.
Proof.
  intros Hp Hl Hs.
  assert (Ha : AntiSymm (=) (fun a b : N * bytes => blt (chunk_name a.1) (chunk_name b.1) = true)).
  { intros x y H1 H2. apply blt_asym in H1. congruence. }
  refine (StronglySorted_unique _ l (chunk_files max bufs) Hs _ Hp). clear Ha.
  rewrite Hp in Hl. clear Hp Hs l.
  destruct (chunk_files_spec max bufs) as (gs & _ & _ & E). rewrite E in *. unfold numbered in *. rewrite imap_length in Hl.
  assert (H : forall k gs, N.of_nat (k + length gs) < 10000 ->
    StronglySorted (fun a b : N * bytes => blt (chunk_name a.1) (chunk_name b.1) = true) (imap (fun i g => (N.of_nat (k + i) + 1, concat g)) gs)).
  2:{ apply (H 0%nat). lia. }
  clear. intros k gs. revert k. induction gs as [|g gs IH]; intros k Hk; [constructor|]. cbn [length imap] in *. constructor.
  - eapply eq_ind; [apply (IH (S k)); lia|]. apply imap_ext. intros i x _. cbn. f_equal. lia.
  - apply Forall_forall. intros x Hx. apply elem_of_list_lookup in Hx as [i Hi].
    rewrite list_lookup_imap in Hi. destruct (gs !! i) as [h|] eqn:Eh; [|done]. cbn in Hi. injection Hi as <-.
    apply lookup_lt_Some in Eh. cbn [fst]. apply chunk_name_lt; lia.
Qed.
Example C85_by_name_ex : StronglySorted (fun a b : N * bytes => blt (chunk_name a.1) (chunk_name b.1) = true) (chunk_files 1 [[1]; [2]; [3]]).
Proof. repeat (constructor; [|repeat constructor; vm_compute; reflexivity]). constructor. Qed.
(** ... and no further. *)
Theorem C85_by_name_limit : blt (chunk_name 10000) (chunk_name 9999) = true.
Proof. vm_compute. reflexivity. Qed.

(** Two files listed the other way round restore the archive only if the order of their contents does not matter. *)
Theorem C85_swapped net date gz gunzip b s ms max bufs p a q c :
  SLASH ∉ net -> (forall m, SLASH ∉ date m) -> (forall x, gunzip (gz x) = Some x) ->
  chunk_files max bufs = [(p, a); (q, c)] ->
  download_stream gunzip (do_puts b (upload_puts net date s ms (map (fun f => (chunk_name f.1, gz f.2)) [(q, c); (p, a)]))) net s =
    Some (concat bufs) <-> a ++ c = c ++ a.
Proof.
  intros Hn Hd Hg Hf. rewrite (C85_restore _ _ _ _ _ _ _ _ max bufs); [|done|done|done|].
  - rewrite <- (chunk_files_concat max bufs), Hf. cbn. rewrite !app_nil_r. split; [by intros [= ->]|by intros ->].
  - rewrite Hf. apply Permutation_swap.
Qed.
Theorem C85_order_refuted : ~ forall max bufs l, l ≡ₚ chunk_files max bufs ->
  download_stream Some (do_puts ∅ (upload_puts MAIN aday 1 ex_ms (map (fun f => (chunk_name f.1, f.2)) l))) MAIN 1 =
  Some (concat bufs).
Proof.
  intros H. specialize (H 2 [[1; 2]; [3; 4]] [(2, [3; 4]); (1, [1; 2])]).
  assert (E : chunk_files 2 [[1; 2]; [3; 4]] = [(1, [1; 2]); (2, [3; 4])]) by (vm_compute; reflexivity).
  rewrite E in H. specialize (H (Permutation_swap _ _ _)). vm_compute in H. discriminate H.
Qed.
Example C85_swapped_ex : chunk_files 2 [[1; 2]; [3; 4]] = [(1, [1; 2]); (2, [3; 4])].
Proof. vm_compute. reflexivity. Qed.

(** ** C86: the bucket *)

Section C86.
  Context (net : bytes) (date : N -> bytes).
  Hypothesis Hnet : SLASH ∉ net.
  Hypothesis Hdate : forall ms, SLASH ∉ date ms.

  (** The bucket holds only what uploads leave there: the metadata of a shard names a snapshot of that shard. *)
  Theorem C86_invariant :
    bucket_ok net date ∅ /\
    (forall n b s ms files, bucket_ok net date b -> Forall (fun c => SLASH ∉ c) files.*1 ->
       bucket_ok net date (upload n b (upload_puts net date s ms files)).1) /\
    (forall lim b view s b', bucket_ok net date b -> clear_old lim b view net s = Some b' -> bucket_ok net date b').
  Proof using Hnet Hdate.
    split; [apply bucket_ok_empty|]. split; [intros; by apply upload_ok|]. intros; by eapply clear_ok.
  Qed.

  (** An upload that stops before its last put leaves the download of its shard as it was ... *)
  Theorem C86_interrupted gunzip n b s ms files :
    bucket_ok net date b ->
    (forall base chunks ts, metadata b net s = Some (base, chunks, ts) -> base <> upload_dir net date s ms) ->
    (upload n b (upload_puts net date s ms files)).2 = false ->
    download_stream gunzip (upload n b (upload_puts net date s ms files)).1 net s = download_stream gunzip b net s.
  Proof using Hnet Hdate. by apply upload_partial_same. Qed.
  (** ... and no upload changes the download of another. *)
  Theorem C86_upload_other gunzip n b s ms files t :
    bucket_ok net date b -> s <> t ->
    download_stream gunzip (upload n b (upload_puts net date s ms files)).1 net t = download_stream gunzip b net t.
  Proof using Hnet Hdate. by apply upload_other. Qed.

  (** Clearing with the current metadata keeps the snapshot it names, and of the shard's directory nothing else if the
      listing was whole. *)
  Theorem C86_clear_own gunzip lim b s base chunks ts b' :
    bucket_ok net date b -> metadata b net s = Some (base, chunks, ts) -> clear_old lim b b net s = Some b' ->
    download_stream gunzip b' net s = download_stream gunzip b net s /\
    ((under b (snap_dir net s) <= lim)%nat -> forall r, is_Some (b' !! (snap_dir net s ++ [SLASH] ++ r)) ->
       contains base (snap_dir net s ++ [SLASH] ++ r) = true \/ contains (meta_path net s) (snap_dir net s ++ [SLASH] ++ r) = true).
  Proof using Hnet Hdate.
    intros Hok Hm Hc. split; [by eapply clear_own_keeps|]. intros Hu r Hr. by eapply clear_removes.
  Qed.

  (** A shard whose number does not begin with the digits of [s] is not touched. *)
  Theorem C86_clear_other gunzip lim b view s t b' :
    bucket_ok net date b -> is_prefix (ChannelUri.to_string s) (ChannelUri.to_string t) = false ->
    clear_old lim b view net s = Some b' -> download_stream gunzip b' net t = download_stream gunzip b net t.
  Proof using Hnet Hdate. intros. by eapply clear_other_keeps. Qed.

  (** One whose number does loses its metadata and all its chunks: the listing of "NET/1" has "NET/10/..." in it. *)
  Theorem C86_clear_prefix_refuted gunzip lim b view s t b' :
    s <> t -> is_prefix (ChannelUri.to_string s) (ChannelUri.to_string t) = true ->
    (under b (snap_dir net s) <= lim)%nat -> bucket_ok net date view -> clear_old lim b view net s = Some b' ->
    download_stream gunzip b' net t = None /\
    (forall ms p, b' !! (upload_dir net date t ms ++ [SLASH] ++ chunk_name p) = None).
  Proof using Hnet Hdate.
    intros Hne Hp Hu Hv Hc.
    destruct (clear_prefix_loses net date Hnet Hdate lim b view s t b' Hne Hp Hu Hc Hv) as [H1 H2]. split.
    - unfold download_stream, metadata. by rewrite H1.
    - intros ms p. apply H2; [apply chunk_name_noslash|]. intros u E. symmetry in E. unfold chunk_name in E. cbn [app] in E.
      apply dec_head in E. unfold ChannelUriProofs.digit_ok in E. lia.
  Qed.

  (** Clearing with the metadata of the snapshot before, which the public address may still serve, removes the chunks of
      the one just uploaded while its metadata stays. *)
  Theorem C86_stale_refuted gunzip lim b0 s ms (l : list (N * bytes)) view vc vms b' :
    NoDup l.*1 -> l <> [] ->
    metadata view net s = Some (upload_dir net date s vms, vc, vms) ->
    length (snap_name date ms) = length (snap_name date vms) -> snap_name date ms <> snap_name date vms ->
    let files := map (fun f => (chunk_name f.1, f.2)) l in
    let b := do_puts b0 (upload_puts net date s ms files) in
    (under b (snap_dir net s) <= lim)%nat -> clear_old lim b view net s = Some b' ->
    metadata b' net s = Some (upload_dir net date s ms, files.*1, ms) /\ download_stream gunzip b' net s = None.
  Proof using Hnet Hdate.
    intros Hnd Hne Hv Hl Hs files b Hu Hc.
    apply (stale_view_loses net date Hnet Hdate gunzip lim b0 s ms files view (upload_dir net date s vms) vc vms b'); try done.
    - apply Forall_forall. intros c (f & -> & Hf)%elem_of_list_fmap. apply elem_of_list_fmap in Hf as (g & -> & _). cbn [fst].
      split; [apply chunk_name_noslash|]. intros u E. symmetry in E. unfold chunk_name in E. cbn [app] in E.
      apply dec_head in E. unfold ChannelUriProofs.digit_ok in E. lia.
    - unfold files. rewrite (names_of id).
      apply NoDup_fmap_2; [intros x y; apply chunk_name_inj|done].
    - unfold files. by destruct l.
  Qed.
End C86.

(** Snapshots of shards 1, 2 and 10; then shard 1 is uploaded again and cleared. *)
Definition ex_files (x : N) : list (bytes * bytes) := [(chunk_name 1, [x; 1]); (chunk_name 2, [x; 2])].
Definition ex_bucket : bucket :=
  do_puts (do_puts (do_puts ∅ (upload_puts MAIN aday 1 ex_ms (ex_files 1))) (upload_puts MAIN aday 2 ex_ms (ex_files 2)))
    (upload_puts MAIN aday 10 ex_ms (ex_files 10)).
Definition ex_bucket' : bucket := do_puts ex_bucket (upload_puts MAIN aday 1 (ex_ms + 86400000) (ex_files 9)).
Definition ex_cleared (view : bucket) : bucket := default ∅ (clear_old 1000 ex_bucket' view MAIN 1).
Example C86_ex :
  map (fun s => download_stream Some ex_bucket' MAIN s) [1; 2; 10] = [Some [9; 1; 9; 2]; Some [2; 1; 2; 2]; Some [10; 1; 10; 2]] /\
  map (fun s => download_stream Some (ex_cleared ex_bucket') MAIN s) [1; 2; 10] = [Some [9; 1; 9; 2]; Some [2; 1; 2; 2]; None] /\
  map (fun s => download_stream Some (ex_cleared ex_bucket) MAIN s) [1; 2; 10] = [None; Some [2; 1; 2; 2]; None] /\
  (size ex_bucket', size (ex_cleared ex_bucket'), under ex_bucket' (snap_dir MAIN 1)) = (11, 6, 8)%nat.
Proof. vm_compute. done. Qed.
Example C86_hyps : SLASH ∉ MAIN /\ (forall ms, SLASH ∉ aday ms) /\ is_prefix (ChannelUri.to_string 1) (ChannelUri.to_string 10) = true /\
  length (snap_name aday (ex_ms + 86400000)) = length (snap_name aday ex_ms) /\
  snap_name aday (ex_ms + 86400000) <> snap_name aday ex_ms.
Proof.
  split; [apply (bool_decide_unpack _); vm_compute; done|].
  split; [intros ms; change (aday ms) with (aday 0); apply (bool_decide_unpack _); vm_compute; done|].
  vm_compute. done.
Qed.
Example C86_ok_ex : bucket_ok MAIN aday ex_bucket.
Proof.
  destruct C86_hyps as (H1 & H2 & _). destruct (C86_invariant MAIN aday H1 H2) as (I0 & I1 & _).
  assert (Hn : forall x, Forall (fun c => SLASH ∉ c) (ex_files x).*1).
  { intros x. repeat constructor; apply chunk_name_noslash. }
  unfold ex_bucket. set (b1 := do_puts ∅ _). set (b2 := do_puts b1 _).
  assert (G1 : bucket_ok MAIN aday b1) by apply (I1 3%nat ∅ 1 ex_ms (ex_files 1) I0 (Hn 1)).
  assert (G2 : bucket_ok MAIN aday b2) by apply (I1 3%nat b1 2 ex_ms (ex_files 2) G1 (Hn 2)).
  apply (I1 3%nat b2 10 ex_ms (ex_files 10) G2 (Hn 10)).
Qed.

(** ** C87: one upload at a time *)

(** When the guard lets an upload start: the directory is empty, or was last changed more than twelve hours ago or in
    the future; in the last two cases everything in it is removed. *)
Theorem C87_guard now d :
  upload_guard now d =
    if bool_decide (bd_entries d = ∅) then Some d
    else if bool_decide (0 <= now - bd_mtime d <= 43200000)%Z then None else Some (Bdir ∅ now).
Proof. apply guard_spec. Qed.
Example C87_guard_ex :
  let d := Bdir {[1%N]} 1000 in
  upload_guard 43201000 d = None /\ upload_guard 43201001 d = Some (Bdir ∅ 43201001) /\ upload_guard 999 d = Some (Bdir ∅ 999).
Proof. vm_compute. done. Qed.

(** A running upload makes and removes the entries it names, and no others; when it is done the next start goes ahead at
    once. *)
Theorem C87_entries now s u e x : u ∈ gs_run s ->
  (x ∈ bd_entries (gs_dir (gstep now s (GMake u e))) <-> x = e \/ x ∈ bd_entries (gs_dir s)) /\
  (x ∈ bd_entries (gs_dir (gstep now s (GDrop u e))) <-> x <> e /\ x ∈ bd_entries (gs_dir s)) /\
  (forall later v, v ∈ gs_run (gstep later (gstep now s (GFinish u)) (GStart v))).
Proof.
  intros Hu. cbn [gstep]. rewrite (bool_decide_eq_true_2 (u ∈ _)) by done. cbn [gs_dir gs_run]. split_and!.
  - unfold make_entry. cbn. set_solver.
  - unfold drop_entry. case_bool_decide; cbn; set_solver.
  - intros later v. cbn [drop_all]. rewrite guard_spec. cbn [bd_entries drop_all]. rewrite bool_decide_eq_true_2 by done. cbn. set_solver.
Qed.
Example C87_entries_ex :
  let s := Gs (Bdir {[1%N; 2%N]} 0) {[7%N]} in
  (elements (bd_entries (gs_dir (gstep 5 s (GDrop 7 1)))), elements (gs_run (gstep 9 (gstep 5 s (GFinish 7)) (GStart 8)))) = ([2%N], [8%N]).
Proof. vm_compute. done. Qed.

(** After a crash no start is refused for longer than twelve hours from the last change of the directory. *)
Theorem C87_after_crash s now u :
  (43200000 < now - bd_mtime (gs_dir s))%Z ->
  u ∈ gs_run (gstep now (gstep now s GCrash) (GStart u)).
Proof.
  intros H. cbn [gstep gs_dir gs_run]. rewrite guard_spec. unfold STALE. rewrite (bool_decide_eq_false_2 (0 <= _ <= _)%Z) by lia.
  destruct (bool_decide _); cbn; set_solver.
Qed.
Example C87_after_crash_ex :
  let s := Gs (Bdir {[1%N]} 0) {[7%N]} in
  elements (gs_run (gstep 43200000 (gstep 5 s GCrash) (GStart 8))) = [] /\
  elements (gs_run (gstep 43200001 (gstep 5 s GCrash) (GStart 8))) = [8%N].
Proof. vm_compute. done. Qed.

(** Uploads that make an entry as soon as they start, keep one until they are done, and are never found with a directory
    unchanged for twelve hours exclude each other. *)
Theorem C87_exclusive_partial s l :
  gs_run s = ∅ -> paced s l -> forall t, t ∈ gstates s l -> (size (gs_run t) <= 1)%nat.
Proof. intros Hs Hp t Ht. eapply excl_states; [|done|done]. left. by left. Qed.
Definition ex_trace : list (Z * gevent) :=
  [(0, GStart 1); (10, GMake 1 5); (20, GStart 2); (21, GMake 2 5); (43200010, GMake 1 6); (43200011, GDrop 1 5);
   (43200012, GFinish 1); (43200013, GStart 3); (43200014, GMake 3 5)]%Z%N.
Example C87_paced_ex : paced (Gs (Bdir ∅ 0) ∅) ex_trace /\ elements (gs_run (grun (Gs (Bdir ∅ 0) ∅) ex_trace)) = [3%N].
Proof.
  split; [|vm_compute; done]. unfold ex_trace. cbn [paced].
  repeat match goal with
         | |- _ /\ _ => split
         | |- True => exact I
         | |- exists e', _ => exists 6%N; split; [done|apply (bool_decide_unpack _); vm_compute; exact I]
         end; try done; try (vm_compute; done).
  all: intros _; vm_compute; split; discriminate.
Qed.

(** Without that they do not: two starts before the first entry both go on, and the one that ends first removes what the
    other has written ... *)
Theorem C87_two_starts_refuted d now u v e : bd_entries d = ∅ -> u <> v ->
  gs_run (grun (Gs d ∅) [(now, GStart u); (now, GStart v)]) = {[u; v]} /\
  bd_entries (gs_dir (grun (Gs d ∅) [(now, GStart u); (now, GStart v); (now, GMake u e); (now, GFinish v)])) = ∅.
Proof.
  intros Hd Hne. assert (G : upload_guard now d = Some d) by (by rewrite guard_spec, bool_decide_eq_true_2).
  cbn [grun foldl fst snd gstep gs_dir gs_run]. rewrite G. cbn [gs_dir gs_run gstep]. rewrite G. cbn [gs_dir gs_run gstep].
  split; [set_solver|]. rewrite (bool_decide_eq_true_2 (u ∈ _)) by set_solver. cbn [gs_run gs_dir].
  rewrite (bool_decide_eq_true_2 (v ∈ _)) by set_solver. done.
Qed.
(** ... and a shard that takes more than twelve hours to copy or to upload is wiped by the next start. *)
Theorem C87_slow_refuted d now later u v e : bd_entries d = ∅ -> u <> v -> (43200000 < later - now)%Z ->
  let s := grun (Gs d ∅) [(now, GStart u); (now, GMake u e); (later, GStart v)] in
  gs_run s = {[u; v]} /\ bd_entries (gs_dir s) = ∅.
Proof.
  intros Hd Hne Hl s. unfold s. assert (G : upload_guard now d = Some d) by (by rewrite guard_spec, bool_decide_eq_true_2).
  cbn [grun foldl fst snd gstep gs_dir gs_run]. rewrite G.
  cbn [gs_dir gs_run gstep]. rewrite (bool_decide_eq_true_2 (u ∈ _)) by set_solver. cbn [gs_run gs_dir].
  rewrite guard_spec. cbn [make_entry bd_entries bd_mtime]. rewrite bool_decide_eq_false_2 by (rewrite Hd; set_solver).
  rewrite bool_decide_eq_false_2 by (unfold STALE; lia). cbn. split; [set_solver|done].
Qed.
Example C87_refuted_ex : bd_entries (Bdir ∅ 5) = ∅ /\ (43200000 < 43200011 - 10)%Z.
Proof. split; [done|lia]. Qed.

Print Assumptions C85_chunks.
Print Assumptions C85_copy.
Print Assumptions C85_closed_refuted.
Print Assumptions C85_restore.
Print Assumptions C85_in_order.
Print Assumptions C85_by_name.
Print Assumptions C85_by_name_limit.
Print Assumptions C85_swapped.
Print Assumptions C85_order_refuted.
Print Assumptions C86_invariant.
Print Assumptions C86_interrupted.
Print Assumptions C86_upload_other.
Print Assumptions C86_clear_own.
Print Assumptions C86_clear_other.
Print Assumptions C86_clear_prefix_refuted.
Print Assumptions C86_stale_refuted.
Print Assumptions C87_guard.
Print Assumptions C87_entries.
Print Assumptions C87_after_crash.
Print Assumptions C87_exclusive_partial.
Print Assumptions C87_two_starts_refuted.
Print Assumptions C87_slow_refuted.
