(** C74: parallel and interrupted bootstraps end with the root of the snapshot. *)
From Verif Require Import BootSched.
From stdpp Require Import gmap.

(** ** Specification *)

(** The rows of a trie with keys [R]. *)
Definition stored (rows : gmap bytes (gset bytes)) (R : gset bytes) : Prop :=
  forall p, rows !! p = if decide (below R p = ∅) then None else Some (below R p).
(** Writes happen in the order of the additions to the trie; no page is refused. *)
Fixpoint in_order (queue : list N) (es : list bev) : bool :=
  match es with
  | [] => true
  | STrie t _ :: es => bool_decide (t ∉ queue) && in_order (queue ++ [t]) es
  | SDb t :: es => match queue with x :: q => bool_decide (x = t) && in_order q es | [] => false end
  | SFail _ :: _ => false
  | SRestart :: es => in_order [] es
  end.
(** The keys of the pages that were written: a stop loses the pages that were not. *)
Fixpoint written (acc : gset bytes) (queue : list (gset bytes)) (es : list bev) : gset bytes :=
  match es with
  | [] => acc
  | STrie _ ks :: es => written acc (queue ++ [ks]) es
  | SDb _ :: es => match queue with ks :: q => written (acc ∪ ks) q es | [] => written acc [] es end
  | SFail _ :: es => written acc queue es
  | SRestart :: es => written acc [] es
  end.

(** ** Lemmas *)

Lemma elem_of_below K p k : k ∈ below K p <-> k ∈ K /\ p `prefix_of` k.
Proof. unfold below. rewrite elem_of_filter. tauto. Qed.
Lemma elem_of_path k p : p ∈ path k <-> p `prefix_of` k.
Proof.
  unfold path. rewrite elem_of_list_fmap. split.
  - intros (n & -> & _). exists (drop n k). by rewrite take_drop.
  - intros [q ->]. exists (length p). split; [by rewrite take_app|]. apply elem_of_seq. rewrite app_length. lia.
Qed.
Lemma node_rows_spec K new p : node_rows K new !! p = if decide (below new p = ∅) then None else Some (below K p).
Proof.
  unfold node_rows. destruct (decide (below new p = ∅)) as [He|Hne].
  - apply not_elem_of_list_to_map_1. intros Hp. apply elem_of_list_fmap in Hp as ([p' S] & E1 & Hp). cbn in E1. subst p'.
    apply elem_of_list_fmap in Hp as (p' & [= <- _] & Hp). apply elem_of_list_bind in Hp as (k & Hk & Hin).
    apply elem_of_path in Hk. apply elem_of_elements in Hin. assert (k ∈ below new p) by (by apply elem_of_below). set_solver.
  - apply set_choose_L in Hne as [k Hk]. apply elem_of_below in Hk as [Hin Hp].
    set (l := elements new ≫= path). assert (Hl : p ∈ l).
    { unfold l. apply elem_of_list_bind. exists k. by rewrite elem_of_path, elem_of_elements. }
    clearbody l. clear -Hl. induction l as [|q l IH]; [by apply elem_of_nil in Hl|]. cbn.
    destruct (decide (q = p)) as [->|Hq]; [by rewrite lookup_insert|]. rewrite lookup_insert_ne by done. apply IH.
    apply elem_of_cons in Hl as [?|?]; congruence.
Qed.
Lemma new_keys (X Y : gset bytes) : ~ X ⊆ Y -> X ∖ Y <> ∅.
Proof.
  intros H E. apply H. intros x Hx. destruct (decide (x ∈ Y)) as [|Hn]; [done|].
  assert (Hd : x ∈ X ∖ Y) by (by apply elem_of_difference). rewrite E in Hd. by apply elem_of_empty in Hd.
Qed.
Lemma below_root K : below K [] = K.
Proof. apply set_eq. intros k. rewrite elem_of_below. split; [tauto|]. intros H. split; [done|]. by exists k. Qed.
Lemma stored_write rows R ks : stored rows R -> stored (node_rows (R ∪ ks) (ks ∖ R) ∪ rows) (R ∪ ks).
Proof.
  intros H p. rewrite lookup_union, node_rows_spec, (H p).
  destruct (decide (below (ks ∖ R) p = ∅)) as [He|Hne].
  - assert (E1 : below (R ∪ ks) p = below R p).
    { apply set_eq. intros k. rewrite !elem_of_below, elem_of_union. split; [|tauto]. intros [[Hk|Hk] Hp]; [done|].
      destruct (decide (k ∈ R)); [done|]. assert (k ∈ below (ks ∖ R) p) by (apply elem_of_below; set_solver). set_solver. }
    rewrite E1. by destruct (decide (below R p = ∅)).
  - destruct (decide (below (R ∪ ks) p = ∅)) as [He'|_].
    + exfalso. apply Hne. apply set_eq. intros k. rewrite elem_of_below. split; [|set_solver]. intros [Hk Hp].
      assert (k ∈ below (R ∪ ks) p) by (apply elem_of_below; set_solver). set_solver.
    + by destruct (decide (below R p = ∅)).
Qed.
Lemma stored_root rows R : stored rows R -> default ∅ (rows !! []) = R.
Proof. intros H. rewrite (H []), below_root. by destruct (decide (R = ∅)) as [->|]. Qed.
Lemma stored_empty : stored ∅ ∅.
Proof. intros p. rewrite lookup_empty. rewrite decide_True; [done|]. apply set_eq. intros k. rewrite elem_of_below. set_solver. Qed.
Lemma stored_restart rows R : stored rows R -> filter (fun k => is_Some (rows !! k)) (default ∅ (rows !! [])) = R.
Proof.
  intros H. rewrite (stored_root rows R H). apply set_eq. intros k. rewrite elem_of_filter. split; [tauto|]. intros Hk. split; [|done].
  rewrite (H k). rewrite decide_False; [eauto|]. intros He. assert (k ∈ below R k) by (by apply elem_of_below). set_solver.
Qed.

(** The pending batches, in order, each on top of the previous. *)
Fixpoint chain (R : gset bytes) (l : list (N * gmap bytes (gset bytes))) (q : list (gset bytes)) (mem : gset bytes) : Prop :=
  match l, q with
  | [], [] => mem = R
  | (_, b) :: l, ks :: q => b = node_rows (R ∪ ks) (ks ∖ R) /\ chain (R ∪ ks) l q mem
  | _, _ => False
  end.
Lemma chain_snoc l : forall R q mem t ks, chain R l q mem ->
  chain R (l ++ [(t, node_rows (mem ∪ ks) (ks ∖ mem))]) (q ++ [ks]) (mem ∪ ks).
Proof.
  induction l as [|[t' b] l IH]; intros R [|ks' q] mem t ks; cbn; try done.
  - by intros ->.
  - intros [-> H]. split; [done|]. by apply IH.
Qed.
Lemma pending_head t b l : pending t ((t, b) :: l) = Some b.
Proof. unfold pending. cbn. by rewrite decide_True. Qed.
Lemma drop_head t b l : t ∉ l.*1 -> drop_task t ((t, b) :: l) = l.
Proof.
  intros H. unfold drop_task. rewrite filter_cons_False by (by cbn; intros ?). induction l as [|[t' b'] l IH]; [done|].
  cbn in H. rewrite filter_cons_True by (cbn; set_solver). by rewrite IH by set_solver.
Qed.
Lemma in_order_run es : forall s R q, stored (b_rows s) R -> chain R (b_pend s) q (b_mem s) -> NoDup (b_pend s).*1 ->
  in_order (b_pend s).*1 es = true -> stored (b_rows (brun s es)) (written R q es) /\ (b_pend (brun s es) = [] -> b_mem (brun s es) = written R q es).
Proof.
  induction es as [|e es IH]; intros s R q HR Hc Hnd Ho.
  - cbn. split; [done|]. intros Hp. rewrite Hp in Hc. by destruct q.
  - change (brun s (e :: es)) with (brun (bstep s e) es). destruct e as [t ks|t|t|]; cbn [in_order written] in *.
    + apply andb_true_iff in Ho as [Ht Ho]. apply bool_decide_eq_true in Ht. cbn [bstep].
      apply IH; cbn [b_rows b_pend b_mem]; [done|by apply chain_snoc| |by rewrite fmap_app].
      rewrite fmap_app. apply NoDup_app. split; [done|]. split; [|apply NoDup_singleton]. intros x Hx Hx'. apply elem_of_list_singleton in Hx'. cbn in Hx'. congruence.
    + destruct s as [mem pend rows]. cbn [b_rows b_pend b_mem] in *. destruct pend as [|[t' b] pend]; [done|]. cbn [fmap list_fmap fst] in *.
      apply andb_true_iff in Ho as [Ht Ho]. apply bool_decide_eq_true in Ht as ->. destruct q as [|ks q]; [done|]. destruct Hc as [-> Hc].
      apply NoDup_cons in Hnd as [Hn Hnd]. unfold bstep. cbn [b_rows b_pend b_mem]. rewrite pending_head, drop_head by done.
      apply IH; cbn [b_rows b_pend b_mem]; try done. by apply stored_write.
    + done.
    + cbn [bstep]. apply IH; cbn [b_rows b_pend b_mem]; try done; [|constructor]. by apply stored_restart.
Qed.

(** ** What holds when writes follow the order of additions (one lock for both steps, for example) *)

(** Then at every moment, also after any stops, the stored trie is the trie of the pages written.  (Missing: the code does not
    order the writes, nor stop the other tasks when a page is refused; see the refutations.) *)
Theorem C74_in_order_partial : forall es, in_order [] es = true ->
  stored (b_rows (brun b_init es)) (written ∅ [] es) /\ verified (brun b_init es) (written ∅ [] es) = true.
Proof.
  intros es H. destruct (in_order_run es b_init ∅ [] stored_empty eq_refl NoDup_nil_2 H) as [HR _]. split; [done|].
  unfold verified. apply bool_decide_eq_true. by apply stored_root.
Qed.

(** ** What the code allows *)

(** Two tasks, any pages with something new: if the later addition is written first, the root row that stays is the one of
    the earlier addition. All pages are written, all tasks finish, and the verification of the shard fails ever after, since
    no page is left that would touch the root again. *)
Definition overtaken (a b : N) (ka kb : gset bytes) : list bev := [STrie a ka; STrie b kb; SDb b; SDb a].
Lemma two_pending (a b : N) (x y : gmap bytes (gset bytes)) : a <> b ->
  pending b [(a, x); (b, y)] = Some y /\ drop_task b [(a, x); (b, y)] = [(a, x)] /\
  pending a [(a, x); (b, y)] = Some x /\ drop_task a [(a, x); (b, y)] = [(b, y)].
Proof.
  intros Hab. unfold pending, drop_task. cbn. repeat (case_decide; cbn); try congruence; try done; tauto.
Qed.
Theorem C74_overtaken_root : forall R rows (a b : N) (ka kb : gset bytes) n, stored rows R -> a <> b -> ~ ka ⊆ R -> ~ kb ⊆ R ∪ ka ->
  let s := brun (BSt R [] rows) (overtaken a b ka kb ++ repeat SRestart n) in
  b_pend s = [] /\ default ∅ (b_rows s !! []) = R ∪ ka /\ verified s (R ∪ ka ∪ kb) = false.
Proof.
  intros R rows a b ka kb n HR Hab Ha Hb s.
  destruct (two_pending a b (node_rows (R ∪ ka) (ka ∖ R)) (node_rows (R ∪ ka ∪ kb) (kb ∖ (R ∪ ka))) Hab) as (P1 & P2 & _ & _).
  assert (Hs : brun (BSt R [] rows) (overtaken a b ka kb) =
    BSt (R ∪ ka ∪ kb) [] (node_rows (R ∪ ka) (ka ∖ R) ∪ (node_rows (R ∪ ka ∪ kb) (kb ∖ (R ∪ ka)) ∪ rows))).
  { unfold overtaken, brun. cbn [foldl bstep b_mem b_pend b_rows app]. rewrite P1, P2. cbn [b_mem b_pend b_rows].
    rewrite pending_head, drop_head by (by apply not_elem_of_nil). done. }
  assert (Hk : forall m st, b_pend st = [] -> b_pend (brun st (repeat SRestart m)) = [] /\ b_rows (brun st (repeat SRestart m)) = b_rows st).
  { induction m as [|m IH]; intros st Hst; [done|]. cbn [repeat]. change (brun st (SRestart :: repeat SRestart m)) with (brun (bstep st SRestart) (repeat SRestart m)).
    by destruct (IH (bstep st SRestart) eq_refl). }
  assert (Er : default ∅ ((node_rows (R ∪ ka) (ka ∖ R) ∪ (node_rows (R ∪ ka ∪ kb) (kb ∖ (R ∪ ka)) ∪ rows)) !! []) = R ∪ ka).
  { rewrite lookup_union, node_rows_spec, !below_root. rewrite decide_False by (by apply new_keys). by destruct ((_ ∪ rows) !! []). }
  assert (Hfin : b_pend s = [] /\ b_rows s = b_rows (brun (BSt R [] rows) (overtaken a b ka kb))).
  { unfold s. unfold brun at 1 2. rewrite foldl_app. fold (brun (BSt R [] rows) (overtaken a b ka kb)). apply Hk. by rewrite Hs. }
  destruct Hfin as [Hf1 Hf2]. split; [done|]. rewrite Hf2, Hs. cbn [b_rows]. split; [done|].
  unfold verified. rewrite Hf2, Hs. cbn [b_rows]. rewrite Er. apply bool_decide_eq_false. intros E1. apply Hb. rewrite E1. clear. set_solver.
Qed.

(** A stop between the two writes, or a refused page, leaves a root that commits to keys of which no node is stored. (A missing
    node reads as an empty one, trie_node.rs:604-609, so the hash is right again once the subtree is rewritten, while the
    root has counted the keys already.) *)
Definition dangling (rows : gmap bytes (gset bytes)) (p : bytes) : Prop := below (default ∅ (rows !! [])) p <> ∅ /\ rows !! p = None.
Lemma stored_not_dangling rows R p : stored rows R -> ~ dangling rows p.
Proof. intros H [H1 H2]. rewrite (stored_root _ _ H) in H1. rewrite (H p) in H2. by rewrite decide_False in H2. Qed.
Theorem C74_stopped_dangling : forall R rows (a b : N) (ka kb : gset bytes) p (failed : bool), stored rows R -> a <> b -> ~ kb ⊆ R ∪ ka ->
  below ka p <> ∅ -> below (R ∪ kb) p = ∅ ->
  dangling (b_rows (brun (BSt R [] rows) ([STrie a ka] ++ (if failed then [SFail a] else []) ++ [STrie b kb; SDb b; SRestart]))) p.
Proof.
  intros R rows a b ka kb p failed HR Hab Hb Hka Hnone.
  assert (G : b_rows (brun (BSt R [] rows) ([STrie a ka] ++ (if failed then [SFail a] else []) ++ [STrie b kb; SDb b; SRestart]))
    = node_rows (R ∪ ka ∪ kb) (kb ∖ (R ∪ ka)) ∪ rows).
  { destruct (two_pending a b (node_rows (R ∪ ka) (ka ∖ R)) (node_rows (R ∪ ka ∪ kb) (kb ∖ (R ∪ ka))) Hab) as (P1 & P2 & _ & _).
    destruct failed; unfold brun; cbn [foldl bstep b_mem b_pend b_rows app].
    - rewrite drop_head by (by apply not_elem_of_nil). cbn [app b_mem b_pend b_rows]. rewrite pending_head. done.
    - rewrite P1. done. }
  rewrite G. split.
  - rewrite lookup_union, node_rows_spec, !below_root. rewrite decide_False by (by apply new_keys).
    assert (Hd : default ∅ (union_with (fun x _ : gset bytes => Some x) (Some (R ∪ ka ∪ kb)) (rows !! [])) = R ∪ ka ∪ kb) by (by destruct (rows !! [])).
    rewrite Hd. intros He. apply Hka. apply set_eq. intros k. split; [|set_solver]. rewrite <- He, !elem_of_below. clear. set_solver.
  - rewrite lookup_union, node_rows_spec, (HR p).
    rewrite decide_True. 2:{ apply set_eq. intros k. split; [|set_solver]. rewrite <- Hnone, !elem_of_below. clear. set_solver. }
    rewrite decide_True; [done|]. apply set_eq. intros k. split; [|set_solver]. rewrite <- Hnone, !elem_of_below. clear. set_solver.
Qed.

(** ** Resuming with another snapshot *)

(** The keys are those of the new snapshot exactly if nothing changed behind the tokens. *)
Theorem C74_resumed_iff : forall old new cut,
  resumed old new cut = new <-> forall k, cut k = true -> (k ∈ old <-> k ∈ new).
Proof.
  intros old new cut. unfold resumed. split.
  - intros E k Hk. assert (H : k ∈ filter (fun k => cut k = true) old ∪ filter (fun k => cut k = false) new <-> k ∈ new) by (by rewrite E).
    rewrite elem_of_union, !elem_of_filter in H. rewrite <- H. split; [tauto|]. intros [?|[? _]]; [tauto|congruence].
  - intros H. apply set_eq. intros k. rewrite elem_of_union, !elem_of_filter. destruct (cut k) eqn:Ek.
    + rewrite <- (H k Ek). split; [intros [?|[? _]]; [tauto|done]|tauto].
    + split; [intros [[? _]|?]; [done|tauto]|tauto].
Qed.

(** ** Examples *)

Local Open Scope N_scope.
Definition ka : gset bytes := {[ [1; 5]; [1; 6] ]}.
Definition kb : gset bytes := {[ [2; 5] ]}.
Definition in_turn : list bev := [STrie 1 ka; SDb 1; STrie 2 kb; SRestart; STrie 2 kb; STrie 1 {[ [1; 9] ]}; SDb 2; SDb 1].
Example C74_in_order_ex : in_order [] in_turn = true /\ written ∅ [] in_turn = {[ [1; 5]; [1; 6]; [2; 5]; [1; 9] ]} /\
  verified (brun b_init in_turn) {[ [1; 5]; [1; 6]; [2; 5]; [1; 9] ]} = true.
Proof. split; [reflexivity|]. split; [apply (bool_decide_eq_true_1 _); vm_compute; reflexivity|vm_compute; reflexivity]. Qed.

Theorem C74_overtaken_refuted : exists es all, b_pend (brun b_init es) = [] /\ written ∅ [] es = all /\
  b_mem (brun b_init es) = all /\ verified (brun b_init es) all = false.
Proof.
  exists (overtaken 1 2 ka kb), (ka ∪ kb). split; [reflexivity|]. split; [apply (bool_decide_eq_true_1 _); vm_compute; reflexivity|].
  split; [apply (bool_decide_eq_true_1 _); vm_compute; reflexivity|vm_compute; reflexivity].
Qed.
(** A stop after one of two tasks has written; a refused page with made-up keys. In both the node of virtual shard 1 is missing. *)
Theorem C74_stopped_refuted : exists es es' p,
  es = [STrie 1 ka; STrie 2 kb; SDb 2; SRestart] /\ dangling (b_rows (brun b_init es)) p /\
  es' = [STrie 1 ka; SFail 1; STrie 2 kb; SDb 2; SRestart] /\ dangling (b_rows (brun b_init es')) p.
Proof.
  assert (H1 : ~ kb ⊆ ∅ ∪ ka) by (intros H; specialize (H [2; 5]); set_solver).
  assert (H2 : below ka [1] <> ∅).
  { intros H. assert ([1; 5] ∈ below ka [1]) as H0; [|set_solver]. apply elem_of_below. split; [set_solver|by exists [5]]. }
  assert (H3 : below (∅ ∪ kb) [1] = ∅).
  { apply set_eq. intros k. rewrite elem_of_below. split; [|set_solver]. intros [Hk [q Hq]].
    assert (k = [2; 5]) as -> by set_solver. discriminate. }
  exists [STrie 1 ka; STrie 2 kb; SDb 2; SRestart], [STrie 1 ka; SFail 1; STrie 2 kb; SDb 2; SRestart], [1].
  split; [reflexivity|]. split; [exact (C74_stopped_dangling ∅ ∅ 1 2 ka kb [1] false stored_empty ltac:(done) H1 H2 H3)|].
  split; [reflexivity|]. exact (C74_stopped_dangling ∅ ∅ 1 2 ka kb [1] true stored_empty ltac:(done) H1 H2 H3).
Qed.
Theorem C74_resumed_refuted : exists old new cut, resumed old new cut <> new /\ (exists k, cut k = true /\ k ∈ new /\ k ∉ old).
Proof.
  exists {[ [1; 5] ]}, {[ [1; 5]; [1; 7]; [2; 5] ]}, (fun k => bool_decide (take 1 k = [1])). split.
  - rewrite C74_resumed_iff. intros H. specialize (H [1; 7] eq_refl). set_solver.
  - exists [1; 7]. split; [reflexivity|]. set_solver.
Qed.

Print Assumptions C74_in_order_partial.
Print Assumptions C74_overtaken_root.
Print Assumptions C74_stopped_dangling.
Print Assumptions C74_resumed_iff.
