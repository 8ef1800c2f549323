(** Property C103: what a node says about a name. *)
From Verif Require Import Names NamesProofs PropNames NameReads.
From Coq Require Import ZifyN ZifyNat ZifyBool.
#[local] Open Scope N_scope.

Lemma find_map_spec {A B} (f : A -> option B) l :
  match find_map f l with
  | Some y => exists l1 x l2, l = l1 ++ x :: l2 /\ f x = Some y /\ forall z, z ∈ l1 -> f z = None
  | None => forall z, z ∈ l -> f z = None
  end.
Proof.
  induction l as [|x l IH]; cbn [find_map]; [intros z H; by apply elem_of_nil in H|]. destruct (f x) as [y|] eqn:E.
  - exists [], x, l. split; [done|]. split; [done|]. intros z H. by apply elem_of_nil in H.
  - destruct (find_map f l) as [y|].
    + destruct IH as (l1 & x' & l2 & -> & A1 & A2). exists (x :: l1), x', l2. split; [done|]. split; [done|]. intros z H. apply elem_of_cons in H as [->|H]; [done|by apply A2].
    + intros z H. apply elem_of_cons in H as [->|H]; [done|by apply IH].
Qed.
(** The answer does not depend on the order exactly if no two shards say different things. *)
Lemma find_map_order {A B} (f : A -> option B) l :
  (forall l', l' ≡ₚ l -> find_map f l' = find_map f l) <-> (forall x y a b, x ∈ l -> y ∈ l -> f x = Some a -> f y = Some b -> a = b).
Proof.
  split.
  - intros H x y a b Hx Hy Ex Ey. apply elem_of_list_split in Hx as (l1 & l2 & E1). apply elem_of_list_split in Hy as (k1 & k2 & E2).
    assert (find_map f (x :: l1 ++ l2) = find_map f l) as F1 by (apply H; rewrite E1; by rewrite Permutation_middle).
    assert (find_map f (y :: k1 ++ k2) = find_map f l) as F2 by (apply H; rewrite E2; by rewrite Permutation_middle).
    cbn [find_map] in F1, F2. rewrite Ex in F1. rewrite Ey in F2. congruence.
  - intros H l' P. pose proof (find_map_spec f l) as S. pose proof (find_map_spec f l') as S'.
    destruct (find_map f l) as [a|], (find_map f l') as [b|]; try done.
    + destruct S as (l1 & x & l2 & E1 & Ex & _), S' as (k1 & y & k2 & E2 & Ey & _). f_equal. apply (H y x); [|rewrite E1|done|done].
      * rewrite <- P, E2. apply elem_of_app. right. left.
      * apply elem_of_app. right. left.
    + destruct S as (l1 & x & l2 & -> & Ex & _). rewrite (S' x) in Ex; [done|]. rewrite P. apply elem_of_app. right. left.
    + destruct S' as (l1 & x & l2 & -> & Ex & _). rewrite (S x) in Ex; [done|]. rewrite <- P. apply elem_of_app. right. left.
Qed.

(** What shard [s] says about name [n]. *)
Definition says (s : shard) (n : bytes) : option (pmsg + fproof) := if is_eth n then inl <$> read_proof n s else inr <$> read_fname n s.
Lemma get_find shs n : get_username_proof shs n = find_map (fun s => says s n) shs.
Proof.
  unfold get_username_proof, says. destruct (is_eth n).
  - induction shs as [|s l IH]; cbn [find_map]; [done|]. by destruct (read_proof n s).
  - induction shs as [|s l IH]; cbn [find_map]; [done|]. by destruct (read_fname n s).
Qed.
(** An answer is what some shard says; "not found" means that no shard says anything. *)
Theorem C103_some_shard : forall shs n x, get_username_proof shs n = Some x -> exists s, s ∈ shs /\ says s n = Some x.
Proof.
  intros shs n x H. rewrite get_find in H. pose proof (find_map_spec (fun s => says s n) shs) as S. rewrite H in S.
  destruct S as (l1 & s & l2 & -> & E & _). exists s. split; [|done]. apply elem_of_app. right. left.
Qed.
Theorem C103_not_found : forall shs n, get_username_proof shs n = None <-> forall s, s ∈ shs -> says s n = None.
Proof.
  intros shs n. rewrite get_find. pose proof (find_map_spec (fun s => says s n) shs) as S. destruct (find_map _ shs) as [y|]; [|done].
  split; [done|]. intros H. destruct S as (l1 & s & l2 & -> & E & _). rewrite H in E; [done|]. apply elem_of_app. right. left.
Qed.
(** The answer is the same for every order of the node's map exactly if the shards do not contradict each other. *)
Theorem C103_stable_iff : forall shs n,
  (forall shs', shs' ≡ₚ shs -> get_username_proof shs' n = get_username_proof shs n) <->
  (forall s t x y, s ∈ shs -> t ∈ shs -> says s n = Some x -> says t n = Some y -> x = y).
Proof.
  intros shs n. rewrite <- find_map_order. split; intros H l' P; specialize (H l' P); by rewrite !get_find in *.
Qed.

(** With transfers sent to every shard, a registered name looks up to its newest counting transfer, in every order. *)
Theorem C103_fname_current : forall rt h ord n, is_eth n = false -> ord <> [] ->
  let ps := omap (fun i => match i with HXfer p => Some p | HProof _ => None end) h in
  match get_username_proof (node_at rt true h ord) n with
  | Some (inr p) => counts n ps p /\ forall q, counts n ps q -> ~ f_after q p
  | Some (inl _) => False
  | None => forall q, ~ counts n ps q
  end.
Proof.
  intros rt h ord n E O ps. assert (forall sh, xfers_at rt true sh h = ps) as X by reflexivity.
  pose proof (C22_name_latest ps n) as L.
  assert (get_username_proof (node_at rt true h ord) n = inr <$> fs_name (f_run fs_init ps) !! n) as ->.
  { unfold get_username_proof. rewrite E. f_equal. destruct ord as [|sh ord]; [done|]. unfold node_at. cbn [map find_map].
    assert (forall sh, read_fname n (shard_at rt true h sh) = fs_name (f_run fs_init ps) !! n) as R by (intros sh'; unfold read_fname, shard_at; cbn [sh_f_fails sh_f]; by rewrite X).
    rewrite R. destruct (fs_name (f_run fs_init ps) !! n) eqn:Q; [done|]. clear O sh. induction ord as [|sh ord IH]; [done|]. cbn [map find_map]. rewrite R. exact IH. }
  destruct (fs_name (f_run fs_init ps) !! n) as [p|]; exact L.
Qed.
(** An .eth name whose proofs all come from accounts of one shard looks up to the newest of them, in every order. *)
Theorem C103_eth_current : forall nm rt fx h ord n sh, is_eth n = true -> sh ∈ ord ->
  (forall m, HProof m ∈ h -> msg_ok nm m) -> (forall m, HProof m ∈ h -> p_name m = n -> rt (p_fid m) = sh) ->
  match get_username_proof (node_at rt fx h ord) n with
  | Some (inl x) => HProof x ∈ h /\ p_name x = n /\ forall m, HProof m ∈ h -> p_name m = n -> ~ after m x
  | Some (inr _) => False
  | None => forall m, HProof m ∈ h -> p_name m <> n
  end.
Proof.
  intros nm rt fx h ord n sh E Hsh Ok One.
  assert (forall i m, m ∈ proofs_at rt i h <-> HProof m ∈ h /\ rt (p_fid m) = i) as PA.
  { intros i m. unfold proofs_at. rewrite elem_of_list_omap. split.
    - intros (x & Hx & Q). destruct x as [m'|]; [|done]. destruct (rt (p_fid m') =? i) eqn:Z; [|done]. injection Q as <-. split; [done|lia].
    - intros [H <-]. exists (HProof m). split; [done|]. by rewrite N.eqb_refl. }
  assert (forall i, let v := p_run ps_init (map (fun m => [PMerge m]) (proofs_at rt i h)) in
    (forall x, proof_by_name v n = Some x -> p_name x = n /\ x ∈ proofs_at rt i h /\ forall m, m ∈ proofs_at rt i h -> p_name m = n -> ~ after m x) /\
    (proof_by_name v n = None -> forall m, m ∈ proofs_at rt i h -> p_name m <> n)) as V.
  { intros i v. assert (map (fun m => [PMerge m]) (proofs_at rt i h) = map (map PMerge) (map (fun m => [m]) (proofs_at rt i h))) as Q by (by rewrite map_map).
    assert (concat (map (fun m => [m]) (proofs_at rt i h)) = proofs_at rt i h) as Cc by (clear; induction (proofs_at rt i h) as [|a l IH]; [done|]; cbn; by rewrite IH).
    destruct (C21_one_owner nm (map (fun m => [m]) (proofs_at rt i h))) as (A & B & C).
    - rewrite List.Forall_forall. intros l Hl. apply in_map_iff in Hl as (m & <- & Hm). constructor; [|constructor]. apply elem_of_list_In, PA in Hm as [Hm _]. by apply Ok.
    - subst v. rewrite Q. rewrite Cc in B, C. split; [|by apply C]. intros x Hx. split; [by apply A in Hx|]. by apply B. }
  destruct (V sh) as [V1 V2]. assert (forall i, i ∈ ord -> i <> sh -> read_proof n (shard_at rt fx h i) = None) as Oth.
  { intros i _ N. unfold read_proof, shard_at. cbn [sh_p_fails sh_p]. destruct (proof_by_name (p_run ps_init (map (fun m => [PMerge m]) (proofs_at rt i h))) n) as [x|] eqn:Q; [|done].
    apply (V i) in Q as (Q1 & Q2 & _). apply PA in Q2 as [Q2 <-]. exfalso. apply N. by apply One. }
  pose proof (find_map_spec (read_proof n) (node_at rt fx h ord)) as S. unfold get_username_proof. rewrite E.
  destruct (find_map (read_proof n) (node_at rt fx h ord)) as [x|]; cbn [fmap option_fmap option_map].
  - destruct S as (l1 & s & l2 & EQ & Ex & _). assert (s ∈ node_at rt fx h ord) as Hs by (rewrite EQ; apply elem_of_app; right; left).
    unfold node_at in Hs. apply elem_of_list_In, in_map_iff in Hs as (i & <- & Hi). apply elem_of_list_In in Hi. destruct (decide (i = sh)) as [->|N]; [|by rewrite Oth in Ex].
    apply V1 in Ex as (X1 & X2 & X3). apply PA in X2 as [X2 _]. split; [done|]. split; [done|]. intros m Hm Q. apply X3; [|done]. apply PA. split; [done|]. by apply One.
  - intros m Hm Q. assert (read_proof n (shard_at rt fx h sh) = None) as R.
    { apply S. unfold node_at. apply elem_of_list_In, in_map. by apply elem_of_list_In. }
    apply (V2 R m); [|done]. apply PA. split; [done|]. by apply One.
Qed.

(** The names of an account: every proof message of it in any shard, and what every shard's registry says. *)
Theorem C103_by_fid : forall shs f l, get_proofs_by_fid shs f = Some l ->
  (forall m, inl m ∈ l <-> exists s, s ∈ shs /\ m ∈ p_rows_of (sh_p s) f) /\
  (forall p, inr p ∈ l <-> exists s, s ∈ shs /\ sh_f_fails s = false /\ fname_by_fid (sh_f s) f = Some p).
Proof.
  intros shs f l H. unfold get_proofs_by_fid in H. destruct (existsb sh_p_fails shs); [done|]. injection H as <-. split.
  - intros m. rewrite elem_of_app. rewrite !elem_of_list_In, !in_map_iff. split.
    + intros [(m' & [= ->] & Hm)|(p & ? & _)]; [|done]. apply in_concat in Hm as (k & Hk & Hm). apply in_map_iff in Hk as (s & <- & Hs).
      exists s. rewrite !elem_of_list_In. done.
    + intros (s & Hs & Hm). rewrite elem_of_list_In in Hs. rewrite elem_of_list_In in Hm. left. exists m. split; [done|]. apply in_concat. eexists. split; [|exact Hm]. apply in_map_iff. by exists s.
  - intros p. rewrite elem_of_app. split.
    + intros [Q|Q]; [apply elem_of_list_In, in_map_iff in Q as (? & ? & _); done|]. apply elem_of_list_In, in_map_iff in Q as (p' & [= ->] & Q).
      apply elem_of_list_In, elem_of_list_omap in Q as (s & Hs & Q). exists s. destruct (sh_f_fails s); done.
    + intros (s & Hs & Fs & Q). right. apply elem_of_list_In, in_map_iff. exists p. split; [done|]. apply elem_of_list_In, elem_of_list_omap. exists s. by rewrite Fs.
Qed.
Theorem C103_by_fid_fails : forall shs f, get_proofs_by_fid shs f = None <-> exists s, s ∈ shs /\ sh_p_fails s = true.
Proof.
  intros shs f. unfold get_proofs_by_fid. destruct (existsb sh_p_fails shs) eqn:E.
  - split; [|done]. intros _. apply existsb_exists in E as (s & A & B). exists s. by rewrite elem_of_list_In.
  - split; [done|]. intros (s & A & B). rewrite elem_of_list_In in A. assert (existsb sh_p_fails shs = true) by (apply existsb_exists; by exists s). congruence.
Qed.
(** Refuted: "an account's registered name is listed once": it is listed once per shard. *)
Theorem C103_copies_refuted : forall rt h ord f p, 
  fname_by_fid (f_run fs_init (omap (fun i => match i with HXfer p => Some p | HProof _ => None end) h)) f = Some p ->
  exists ms, get_proofs_by_fid (node_at rt true h ord) f = Some (map inl ms ++ repeat (inr p) (length ord)).
Proof.
  intros rt h ord f p H. eexists. unfold get_proofs_by_fid. assert (existsb sh_p_fails (node_at rt true h ord) = false) as ->.
  { induction ord as [|sh ord IH]; [done|]. exact IH. }
  f_equal. f_equal. induction ord as [|sh ord IH]; [done|]. cbn [node_at map omap list_omap length repeat]. unfold shard_at at 1 2. cbn [sh_f_fails sh_f].
  assert (xfers_at rt true sh h = omap (fun i => match i with HXfer p => Some p | HProof _ => None end) h) as -> by reflexivity.
  rewrite H. cbn [map]. f_equal. exact IH.
Qed.

(** Concrete runs: two shards, account mod 2. *)
Definition rt2 (f : N) : N := f mod 2 + 1.
Definition ethx : bytes := [97; 46; 101; 116; 104].
Definition pe (f ts : N) : pmsg := PMsg f ts (repeat ts 20) [f] ethx f.
Definition fe (f ts : N) : fproof := FProof [97] f ts [f] true.
(** Refuted: "an .eth name has one owner". A newer proof by an account of another shard does not replace the older one: which
    of them the node names depends on the order of its map, and both accounts may display the name. *)
Theorem C103_two_owners_refuted : let h := [HProof (pe 1 10); HProof (pe 2 20)] in
  get_username_proof (node_at rt2 true h [1; 2]) ethx = Some (inl (pe 2 20)) /\
  get_username_proof (node_at rt2 true h [2; 1]) ethx = Some (inl (pe 1 10)) /\
  (let shd i := shard_at rt2 true h i in
   username_ok (NSt (sh_f (shd 2)) (sh_p (shd 2)) ∅) 1 ethx = true /\ username_ok (NSt (sh_f (shd 1)) (sh_p (shd 1)) ∅) 2 ethx = true).
Proof. by vm_compute. Qed.
(** Refuted: "a registered name looks up to its owner" for transfers made before the routing fix: the old owner's shard still
    names the old owner. *)
Theorem C103_old_routing_refuted : let h := [HXfer (fe 1 10); HXfer (fe 2 20)] in
  get_username_proof (node_at rt2 false h [2; 1]) [97] = Some (inr (fe 1 10)) /\
  get_username_proof (node_at rt2 false h [1; 2]) [97] = Some (inr (fe 2 20)) /\
  get_username_proof (node_at rt2 true h [2; 1]) [97] = Some (inr (fe 2 20)).
Proof. by vm_compute. Qed.
(** Refuted: "a released name is not found": a proof naming account 0 is answered. *)
Theorem C103_released_refuted : 
  get_username_proof (node_at rt2 true [HXfer (fe 1 10); HXfer (fe 0 20)] [1; 2]) [97] = Some (inr (fe 0 20)) /\
  get_username_proof (node_at rt2 true [] [1; 2]) [97] = None.
Proof. by vm_compute. Qed.
(** Refuted: "a failing store is reported": the search goes on to the next shard, or ends with NOT_FOUND. *)
Theorem C103_error_hidden_refuted : forall n p f, get_username_proof [Shard true true p f] n = None.
Proof. intros n p f. unfold get_username_proof. by destruct (is_eth n). Qed.
Example C103_ex : let h := [HXfer (fe 1 10); HProof (pe 1 10); HXfer (fe 3 20); HProof (pe 3 5)] in
  get_username_proof (node_at rt2 true h [1; 2]) [97] = Some (inr (fe 3 20)) /\
  get_username_proof (node_at rt2 true h [1; 2]) ethx = Some (inl (pe 1 10)) /\
  get_proofs_by_fid (node_at rt2 true h [1; 2]) 3 = Some [inr (fe 3 20); inr (fe 3 20)] /\
  get_proofs_by_fid (node_at rt2 true h [1; 2]) 1 = Some [inl (pe 1 10)] /\
  get_username_proof (node_at rt2 true h [1; 2]) [98] = None.
Proof. by vm_compute. Qed.

Print Assumptions C103_some_shard.
Print Assumptions C103_not_found.
Print Assumptions C103_stable_iff.
Print Assumptions C103_fname_current.
Print Assumptions C103_eth_current.
Print Assumptions C103_by_fid.
Print Assumptions C103_by_fid_fails.
Print Assumptions C103_copies_refuted.
Print Assumptions C103_two_owners_refuted.
