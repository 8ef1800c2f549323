From Verif Require Import LocalState CodecProofs Paging PagingProofs.
From Coq Require Import ZifyN ZifyNat ZifyBool.
#[local] Open Scope N_scope.

(** ** Ranges: what the Rust types hold *)
Definition round_ok (r : Z) : bool := ((- 2 ^ 63 <=? r) && (r <? 2 ^ 63))%Z.
Definition height_ok (h : height) : bool := (h_shard h <? 2 ^ 32) && (h_num h <? 2 ^ 64).
Definition lkey_ok (k : lkey) : bool :=
  match k with
  | KProposal s h r => height_ok (s, h) && round_ok r
  | KBlockOptimism | KBlockBase | KFname => true
  | KToken s => s <? 2 ^ 32
  | KWork s v => (s <? 256) && (v <? 256)
  | KRoot s v f => (s <? 256) && (v <? 256) && (f <? 2 ^ 32)
  end.

Lemma i64_be_inj a b : round_ok a = true -> round_ok b = true -> i64_be a = i64_be b -> a = b.
Proof.
  unfold round_ok, i64_be. intros Ha Hb E.
  change (2 ^ 63)%Z with 9223372036854775808%Z in *. change (2 ^ 64)%Z with 18446744073709551616%Z in *.
  pose proof (Z.mod_pos_bound a 18446744073709551616 ltac:(lia)) as Ba.
  pose proof (Z.mod_pos_bound b 18446744073709551616 ltac:(lia)) as Bb.
  apply be_inj in E; [|change (256 ^ N.of_nat 8) with 18446744073709551616; lia..].
  apply Z2N.inj in E; [|lia..].
  pose proof (Z.div_mod a 18446744073709551616 ltac:(lia)). pose proof (Z.div_mod b 18446744073709551616 ltac:(lia)).
  lia.
Qed.
Lemma height_prefix_inj s h s' h' t t' :
  height_ok (s, h) = true -> height_ok (s', h') = true ->
  height_prefix s h ++ t = height_prefix s' h' ++ t' -> s = s' /\ h = h' /\ t = t'.
Proof.
  unfold height_ok, height_prefix, h_shard, h_num. cbn [fst snd]. intros [H1 H2]%andb_true_iff [H3 H4]%andb_true_iff E.
  apply N.ltb_lt in H1, H2, H3, H4. cbn [app] in E. apply (inj (cons RP_Block)) in E. rewrite <- !app_assoc in E.
  apply app_inj_len in E as [E1 E]; [|by rewrite !be_length]. apply app_inj_len in E as [E2 E]; [|by rewrite !be_length].
  apply be_inj in E1; [|done..]. by apply be_inj in E2.
Qed.
Lemma proposal_key_inj s h r s' h' r' :
  height_ok (s, h) = true -> height_ok (s', h') = true -> round_ok r = true -> round_ok r' = true ->
  proposal_key s h r = proposal_key s' h' r' -> s = s' /\ h = h' /\ r = r'.
Proof.
  intros H1 H2 H3 H4 E. apply height_prefix_inj in E as (-> & -> & E); [|done..]. by apply i64_be_inj in E as ->.
Qed.
Lemma proposal_key_ok s h r : bytes_ok (proposal_key s h r) = true.
Proof.
  unfold proposal_key, height_prefix, i64_be, bytes_ok. cbn [app forallb]. rewrite !forallb_app.
  pose proof (be_ok 4 s) as H1. pose proof (be_ok 8 h) as H2. pose proof (be_ok 8 (Z.to_N (r mod 2 ^ 64))) as H3.
  unfold bytes_ok in *. by rewrite H1, H2, H3.
Qed.
Lemma height_prefix_length s h : length (height_prefix s h) = 13%nat.
Proof. unfold height_prefix. cbn [length]. by rewrite app_length, !be_length. Qed.
Lemma incr_le_last l : exists l' x, incr_le (l ++ [RP_Block]) = (l' ++ [x], false) /\ x <= 2.
Proof.
  induction l as [|y l (l' & x & E & Hx)]; [exists [], 2; done|]. cbn [app incr_le]. rewrite E.
  destruct (y =? 255); [exists (0 :: l'), x; done|]. exists (y + 1 :: l), RP_Block. split; [done|]. unfold RP_Block. lia.
Qed.
Lemma scan_other s h x k : 2 < x -> in_prefix_scan (height_prefix s h) (x :: k) = false.
Proof.
  intros Hx. unfold in_prefix_scan, increment_vec_u8, height_prefix. rewrite reverse_cons.
  destruct (incr_le_last (reverse (be 4 s ++ be 8 h))) as (l' & y & -> & Hy). rewrite reverse_snoc.
  apply andb_false_iff. right. unfold blt. cbn [lex]. destruct (N.compare_spec x y); [lia|lia|done].
Qed.
Lemma scan_proposal s h s' h' r : height_ok (s, h) = true -> height_ok (s', h') = true ->
  in_prefix_scan (height_prefix s h) (proposal_key s' h' r) = bool_decide (s = s' /\ h = h').
Proof.
  intros H1 H2. rewrite in_prefix_scan_spec.
  - apply eq_true_iff_eq. rewrite is_prefix_spec, bool_decide_eq_true. split.
    + intros [t E]. unfold proposal_key in E. symmetry in E. apply height_prefix_inj in E as (-> & -> & _); done.
    + intros [-> ->]. by eexists.
  - apply proposal_key_ok.
  - left. done.
  - unfold proposal_key. rewrite app_length, !height_prefix_length. lia.
Qed.
(** A scan of a height finds, of all the keys the store uses, those of the proposals of the height. *)
Lemma scan_lkey s h k : height_ok (s, h) = true -> lkey_ok k = true ->
  in_prefix_scan (height_prefix s h) (lkey_bytes k) =
  match k with KProposal s' h' _ => bool_decide (s = s' /\ h = h') | _ => false end.
Proof.
  intros Hh Hk. destruct k as [s' h' r'| | | |s'|s' v'|s' v' f']; cbn [lkey_bytes app];
    try (apply scan_other; unfold RP_NodeLocalState, RP_BootstrapStatus; lia).
  cbn in Hk. apply andb_true_iff in Hk as [Hk _]. by apply scan_proposal.
Qed.

Lemma lkey_inj a b : lkey_ok a = true -> lkey_ok b = true -> lkey_bytes a = lkey_bytes b -> a = b.
Proof.
  destruct a as [s h r| | | |s|s v|s v f], b as [s' h' r'| | | |s'|s' v'|s' v' f']; cbn [lkey_ok lkey_bytes]; intros Ha Hb E;
    try (unfold proposal_key, height_prefix, make_fid_key in E; cbn [app] in E; discriminate E); try done.
  - apply andb_true_iff in Ha as [? ?], Hb as [? ?]. by apply proposal_key_inj in E as (-> & -> & ->).
  - apply (f_equal (drop 2)) in E. cbn [drop] in E. apply N.ltb_lt in Ha, Hb. by apply be_inj in E as ->.
  - apply andb_true_iff in Ha as [H1%N.ltb_lt H2%N.ltb_lt], Hb as [H3%N.ltb_lt H4%N.ltb_lt].
    pose proof (f_equal (fun l => nth 1 l 0) E) as E1. pose proof (f_equal (fun l => nth 2 l 0) E) as E2. cbn [nth] in E1, E2.
    rewrite !N.mod_small in E1, E2 by done. by subst.
  - apply andb_true_iff in Ha as [[H1%N.ltb_lt H2%N.ltb_lt]%andb_true_iff H5%N.ltb_lt], Hb as [[H3%N.ltb_lt H4%N.ltb_lt]%andb_true_iff H6%N.ltb_lt].
    pose proof (f_equal (fun l => nth 1 l 0) E) as E1. pose proof (f_equal (fun l => nth 2 l 0) E) as E2. pose proof (f_equal (drop 4) E) as E3.
    cbn [nth app drop] in E1, E2, E3. rewrite !N.mod_small in E1 by done. unfold make_fid_key in E3. apply be_inj in E3; [|done..]. by subst.
Qed.

(** ** Deleting the proposals of a height *)
Lemma lookup_deletes (l : list bytes) (d : kv bytes) k : foldl (fun d k => delete k d) d l !! k = if bool_decide (k ∈ l) then None else d !! k.
Proof.
  revert d. induction l as [|x l IH]; intros d; cbn [foldl]; [done|]. rewrite IH.
  case_bool_decide as H1; case_bool_decide as H2; try done.
  - destruct H2. by right.
  - apply elem_of_cons in H2 as [->|H2]; [|done]. by rewrite lookup_delete.
  - rewrite lookup_delete_ne; [done|]. intros ->. destruct H2. by left.
Qed.
Lemma height_keys_elem d s h k : k ∈ height_keys d s h <-> in_prefix_scan (height_prefix s h) k = true /\ is_Some (d !! k).
Proof.
  unfold height_keys. rewrite elem_of_list_filter, elem_of_list_fmap. split.
  - intros [? ([k' v] & -> & Hin)]. split; [done|]. apply rows_elem in Hin. by eexists.
  - intros [? [v Hv]]. split; [done|]. exists (k, v). split; [done|]. by apply rows_elem.
Qed.
Lemma lookup_delete_proposals n d s h k : in_prefix_scan (height_prefix s h) k = false -> delete_proposals n d s h !! k = d !! k.
Proof.
  intros Hk. unfold delete_proposals. rewrite lookup_deletes, bool_decide_false; [done|].
  intros Hin%elem_of_take. destruct Hin as (i & Hin & _). apply elem_of_list_lookup_2 in Hin.
  apply height_keys_elem in Hin as [Hin _]. congruence.
Qed.
Lemma lookup_delete_all n d s h k : (length (height_keys d s h) <= n)%nat ->
  delete_proposals n d s h !! k = if in_prefix_scan (height_prefix s h) k then None else d !! k.
Proof.
  intros Hn. destruct (in_prefix_scan (height_prefix s h) k) eqn:E; [|by apply lookup_delete_proposals].
  unfold delete_proposals. rewrite take_ge by done. rewrite lookup_deletes. case_bool_decide as H; [done|].
  destruct (d !! k) eqn:Ek; [|done]. destruct H. apply height_keys_elem. split; [done|by eexists].
Qed.

(** ** The validator *)
Section V.
  Variable E : Type.
  Variable confirmed : E -> height.
  Variable validate : E -> proposal -> bool.
  Variable commit : E -> proposal -> option E.
  Variable reopen : E -> E.
  Variable enc : proposal -> bytes.
  Variable dec : bytes -> option proposal.
  Notation vstep := (vstep E confirmed validate commit reopen enc dec).
  Notation vrun := (vrun E confirmed validate commit reopen enc dec).

  (** Heights and rounds in range, reads and writes that work. *)
  Definition vin_ok (i : vinput) : bool :=
    match i with
    | VGet h r _ _ get_ok put_ok => height_ok h && round_ok r && get_ok && put_ok
    | VDecide c _ => height_ok (ct_height c)
    | VReceive _ | VRestart => true
    end.
  (** The input committed the height. *)
  Definition commits_at (h : N) (e : vinput * voutput) : Prop :=
    match e with (VDecide c _, VDecided (DCommit _)) => h_num (ct_height c) = h | _ => False end.
  Definition commits (e : vinput * voutput) : Prop :=
    match e with (_, VDecided (DCommit _)) => True | _ => False end.

  Lemma decide_commit my s c s' p : decide_value E commit my s c = (s', DCommit p) ->
    my = h_shard (ct_height c) /\ pv_values (pn_vals s) !! ct_value c = Some p.
  Proof.
    unfold decide_value. destruct (ct_sigs c); [done|]. destruct (pv_values (pn_vals s) !! ct_value c) as [q|]; [|done].
    destruct (my =? h_shard (ct_height c)) eqn:Em; cbn [negb]; [|done]. apply N.eqb_eq in Em.
    destruct (commit (pn_engine s) q); [|done]. intros H. by inversion H.
  Qed.
  Lemma decide_same my s c s' o : decide_value E commit my s c = (s', o) -> (forall p, o <> DCommit p) -> s' = s.
  Proof.
    unfold decide_value. destruct (ct_sigs c); [intros H; by inversion H|].
    destruct (pv_values (pn_vals s) !! ct_value c) as [q|]; [|intros H; by inversion H].
    destruct (my =? h_shard (ct_height c)); cbn [negb]; [|intros H; by inversion H].
    destruct (commit (pn_engine s) q); intros H Hn; inversion H; [|done]. subst. by destruct (Hn q).
  Qed.

  (** The disk holds [p] for the height and round. *)
  Definition holds (my : N) (h : height) (r : Z) (p : proposal) (s : vnode E) : Prop :=
    get_proposal dec (v_disk s) my (h_num h) r = Some (Some p).

  Hypothesis Hdec : forall p, dec (enc p) = Some p.

  Lemma get_step k my s h r hash body g s1 p :
    h_shard h = my ->
    vstep k my s (VGet h r hash body g true) = (s1, VProposed p) -> holds my h r p s1.
  Proof.
    intros Hmy. unfold vstep. destruct (if g then get_proposal dec (v_disk s) my (h_num h) r else None) as [[q|]|] eqn:Eg.
    - intros H. inversion H; subst. destruct g; [|done]. exact Eg.
    - unfold put_proposal. cbn [p_round p_height]. destruct (_ && _)%bool; [|done]. intros H. inversion H; subst; clear H.
      unfold holds, get_proposal. cbn [v_disk]. rewrite lookup_insert, Hdec. done.
    - unfold put_proposal. cbn [p_round p_height]. destruct (_ && _)%bool; [|done]. intros H. inversion H; subst; clear H.
      unfold holds, get_proposal. cbn [v_disk]. rewrite lookup_insert, Hdec. done.
  Qed.
  Lemma get_again k my s h r hash body pok p :
    holds my h r p s -> vstep k my s (VGet h r hash body true pok) = (s, VProposed p).
  Proof. unfold holds, vstep. by intros ->. Qed.

  Lemma step_holds k my s i s1 o h r p :
    height_ok h = true -> round_ok r = true -> h_shard h = my ->
    vin_ok i = true -> vstep k my s i = (s1, o) -> ~ commits_at (h_num h) (i, o) ->
    holds my h r p s -> holds my h r p s1.
  Proof.
    intros Hh Hr Hmy Hi Hs Hc Hp. destruct i as [h' r' hash body g pok|q|c n|]; cbn [vin_ok] in Hi.
    - apply andb_true_iff in Hi as [[[Hh' Hr']%andb_true_iff Hg]%andb_true_iff Hput]. subst g pok.
      unfold vstep in Hs. destruct (get_proposal dec (v_disk s) my (h_num h') r') as [[q|]|] eqn:Eg; [by inversion Hs; subst| |].
      all: unfold put_proposal in Hs; cbn [p_round p_height] in Hs; destruct (_ && _)%bool; [|by inversion Hs; subst].
      all: inversion Hs; subst; clear Hs; unfold holds, get_proposal in *; cbn [v_disk].
      all: rewrite lookup_insert_ne; [done|]; intros Ek; destruct h as [hs hn], h' as [hs' hn']; cbn [h_shard h_num fst snd] in *;
        apply proposal_key_inj in Ek as (-> & -> & ->); [|done..]; rewrite Hp in Eg; congruence.
    - unfold vstep in Hs. destruct (pstep _ _ _ _ _ _ _ _) as [n o']. inversion Hs; subst. done.
    - unfold vstep in Hs. destruct (decide_value E commit my (v_node s) c) as [n' o'] eqn:Ed. inversion Hs; subst; clear Hs.
      destruct o' as [|q|]; [done| |done]. apply decide_commit in Ed as [Es _]. cbn [commits_at] in Hc.
      unfold holds, get_proposal in *. cbn [v_disk]. rewrite lookup_delete_proposals; [done|].
      destruct h as [hs hn], (ct_height c) as [cs cn]. cbn [h_shard h_num fst snd] in *. subst cs.
      rewrite scan_proposal by done. apply bool_decide_false. intros [_ ->]. done.
    - unfold vstep in Hs. inversion Hs; subst. done.
  Qed.
  Lemma run_holds k my is : forall s tr sf h r p,
    height_ok h = true -> round_ok r = true -> h_shard h = my ->
    Forall (fun i => vin_ok i = true) is -> vrun k my s is = (tr, sf) ->
    Forall (fun e => ~ commits_at (h_num h) e) tr ->
    holds my h r p s -> holds my h r p sf.
  Proof.
    induction is as [|i is IH]; intros s tr sf h r p Hh Hr Hmy Hi Hrun Hc Hp; cbn [LocalState.vrun] in Hrun; [by inversion Hrun; subst|].
    destruct (vstep k my s i) as [s1 o] eqn:Es. destruct (vrun k my s1 is) as [tr' sf'] eqn:Er. inversion Hrun; subst; clear Hrun.
    apply Forall_cons in Hi as [Hi Hi'], Hc as [Hc Hc']. eapply IH; [..|exact Er| |]; [done..|].
    by eapply step_holds.
  Qed.

  (** ** What is on the disk belongs to its key *)
  Definition disk_ok (k : kind) (d : kv bytes) : Prop := forall key b, d !! key = Some b ->
    exists p, b = enc p /\ p_kind p = k /\ key = proposal_key (h_shard (p_height p)) (h_num (p_height p)) (p_round p) /\
              height_ok (p_height p) = true /\ round_ok (p_round p) = true.
  Definition vrange (i : vinput) : bool :=
    match i with VGet h r _ _ _ _ => height_ok h && round_ok r | _ => true end.
  Lemma disk_ok_delete k n d s h : disk_ok k d -> disk_ok k (delete_proposals n d s h).
  Proof.
    intros Hd key b. unfold delete_proposals. rewrite lookup_deletes. case_bool_decide; [done|]. apply Hd.
  Qed.
  Lemma disk_ok_step k my s i s1 o : vrange i = true -> vstep k my s i = (s1, o) -> disk_ok k (v_disk s) -> disk_ok k (v_disk s1).
  Proof.
    intros Hi Hs Hd. destruct i as [h r hash body g pok|q|c n|]; unfold vstep in Hs.
    - cbn [vrange] in Hi. apply andb_true_iff in Hi as [Hh Hr].
      assert (Hput : forall d, put_proposal enc (v_disk s) (Proposal k h r h hash body) = Some d -> disk_ok k d).
      { intros d. unfold put_proposal. destruct (_ && _)%bool; [|done]. intros [= <-] key b.
        destruct (decide (key = proposal_key (h_shard h) (h_num h) r)) as [->|Hne]; cbn [p_height p_round].
        - rewrite lookup_insert. intros [= <-]. exists (Proposal k h r h hash body). done.
        - rewrite lookup_insert_ne by done. apply Hd. }
      destruct (if g then get_proposal dec (v_disk s) my (h_num h) r else None) as [[q|]|]; [by inversion Hs; subst| |];
        (destruct (put_proposal enc (v_disk s) (Proposal k h r h hash body)) as [d|]; [|by inversion Hs; subst]);
        inversion Hs; subst; cbn [v_disk]; destruct pok; auto.
    - destruct (pstep _ _ _ _ _ _ _ _) as [n o']. inversion Hs; subst. done.
    - destruct (decide_value E commit my (v_node s) c) as [n' o'] eqn:Ed. inversion Hs; subst. cbn [v_disk].
      destruct o'; [done|by apply disk_ok_delete|done].
    - inversion Hs; subst. done.
  Qed.
  Lemma proposed_ok k my s h r hash body g pok s1 p :
    h_shard h = my -> height_ok h = true -> round_ok r = true -> disk_ok k (v_disk s) ->
    vstep k my s (VGet h r hash body g pok) = (s1, VProposed p) -> p_height p = h /\ p_round p = r /\ p_kind p = k.
  Proof.
    intros Hmy Hh Hr Hd Hs. unfold vstep in Hs.
    assert (Hp : forall q, get_proposal dec (v_disk s) my (h_num h) r = Some (Some q) -> p_height q = h /\ p_round q = r /\ p_kind q = k).
    { intros q. unfold get_proposal. destruct (v_disk s !! _) as [b|] eqn:Eb; [|done].
      apply Hd in Eb as (q' & -> & Hk & Ek & Hh' & Hr'). rewrite Hdec. intros [= <-].
      destruct h as [hs hn], (p_height q') as [qs qn]. cbn [h_shard h_num fst snd] in *. subst hs.
      apply proposal_key_inj in Ek as (-> & -> & ->); done. }
    destruct (if g then get_proposal dec (v_disk s) my (h_num h) r else None) as [[q|]|] eqn:Eg.
    { inversion Hs; subst. destruct g; [|done]. by apply Hp. }
    all: destruct (put_proposal enc (v_disk s) (Proposal k h r h hash body)) as [d|]; [|done]; by inversion Hs; subst.
  Qed.
  Lemma run_disk_ok k my is : forall s tr sf, Forall (fun i => vrange i = true) is -> vrun k my s is = (tr, sf) ->
    disk_ok k (v_disk s) -> disk_ok k (v_disk sf).
  Proof.
    induction is as [|i is IH]; intros s tr sf Hi Hrun Hd; cbn [LocalState.vrun] in Hrun; [by inversion Hrun; subst|].
    destruct (vstep k my s i) as [s1 o] eqn:Es. destruct (vrun k my s1 is) as [tr' sf'] eqn:Er. inversion Hrun; subst; clear Hrun.
    apply Forall_cons in Hi as [Hi Hi']. eapply IH; [done|done|]. by eapply disk_ok_step.
  Qed.

  (** ** A value proposed again after a restart *)
  (** Inputs that carry nothing new: the same round of the same height, its decision, another restart. *)
  Definition only (h : height) (r : Z) (id : shash) (i : vinput) : Prop :=
    match i with
    | VGet h' r' _ _ g _ => h' = h /\ r' = r /\ g = true
    | VDecide c _ => ct_value c = id
    | VReceive _ => False
    | VRestart => True
    end.
  Lemma stuck k my h r p is : forall s tr sf,
    Forall (only h r (p_id p)) is -> vrun k my s is = (tr, sf) ->
    holds my h r p s -> pv_values (pn_vals (v_node s)) !! p_id p = None ->
    v_disk sf = v_disk s /\
    Forall (fun e => match e with
                     | (VGet _ _ _ _ _ _, o) => o = VProposed p
                     | (VDecide _ _, o) => o = VDecided DNone
                     | _ => True end) tr.
  Proof.
    induction is as [|i is IH]; intros s tr sf Hi Hrun Hp Hv; cbn [LocalState.vrun] in Hrun; [by inversion Hrun; subst|].
    destruct (vstep k my s i) as [s1 o] eqn:Es. destruct (vrun k my s1 is) as [tr' sf'] eqn:Er. inversion Hrun; subst; clear Hrun.
    apply Forall_cons in Hi as [Hi Hi']. destruct i as [h' r' hash body g pok|q|c n|]; cbn [only] in Hi; [|done| |].
    - destruct Hi as (-> & -> & ->). rewrite (get_again _ _ _ _ _ _ _ _ _ Hp) in Es. inversion Es; subst; clear Es.
      destruct (IH _ _ _ Hi' Er Hp Hv) as [H1 H2]. split; [done|]. by constructor.
    - unfold vstep in Es. assert (Ed : decide_value E commit my (v_node s) c = (v_node s, DNone)).
      { unfold decide_value. destruct (ct_sigs c); [done|]. by rewrite Hi, Hv. }
      rewrite Ed in Es. inversion Es; subst; clear Es. destruct s as [n' d'].
      destruct (IH _ _ _ Hi' Er Hp Hv) as [H1 H2]. split; [done|]. by constructor.
    - unfold vstep in Es. inversion Es; subst; clear Es.
      destruct (IH _ _ _ Hi' Er Hp) as [H1 H2]; [apply lookup_empty|]. split; [done|]. by constructor.
  Qed.

  (** ** A value proposed in this process *)
  Definition no_restart (i : vinput) : Prop := match i with VRestart => False | _ => True end.
  Lemma pv_add_keeps v q id : is_Some (pv_values v !! id) -> is_Some (pv_values (pv_add v q) !! id).
  Proof.
    intros H. cbn [pv_values pv_add]. destruct (decide (p_id q = id)) as [<-|Hne]; [rewrite lookup_insert; by eexists|].
    by rewrite lookup_insert_ne.
  Qed.
  Lemma known_step k my s i s1 o id : no_restart i -> vstep k my s i = (s1, o) -> ~ commits (i, o) ->
    is_Some (pv_values (pn_vals (v_node s)) !! id) -> is_Some (pv_values (pn_vals (v_node s1)) !! id).
  Proof.
    intros Hi Hs Hc Hv. destruct i as [h r hash body g pok|q|c n|]; unfold vstep in Hs; [| | |done].
    - destruct (if g then get_proposal dec (v_disk s) my (h_num h) r else None) as [[q|]|]; [by inversion Hs; subst| |];
        (destruct (put_proposal enc (v_disk s) (Proposal k h r h hash body)) as [d|]; inversion Hs; subst; by apply pv_add_keeps).
    - destruct (pstep _ _ _ _ _ _ _ _) as [n o'] eqn:Ep. inversion Hs; subst; clear Hs. cbn [v_node]. revert Ep.
      unfold pstep. destruct (negb _); [intros H; by inversion H; subst|].
      destruct k; cbn [padd]; unfold block_add, shard_add; destruct (p_kind q);
        repeat match goal with |- context [if ?b then _ else _] => destruct b end; intros H; inversion H; subst; try done; by apply pv_add_keeps.
    - destruct (decide_value E commit my (v_node s) c) as [n' o'] eqn:Ed. inversion Hs; subst; clear Hs. cbn [v_node].
      apply decide_same in Ed as ->; [done|]. intros p ->. by destruct Hc.
  Qed.
  Lemma known_run k my is id : forall s tr sf, Forall no_restart is -> vrun k my s is = (tr, sf) -> Forall (fun e => ~ commits e) tr ->
    is_Some (pv_values (pn_vals (v_node s)) !! id) -> is_Some (pv_values (pn_vals (v_node sf)) !! id).
  Proof.
    induction is as [|i is IH]; intros s tr sf Hi Hrun Hc Hv; cbn [LocalState.vrun] in Hrun; [by inversion Hrun; subst|].
    destruct (vstep k my s i) as [s1 o] eqn:Es. destruct (vrun k my s1 is) as [tr' sf'] eqn:Er. inversion Hrun; subst; clear Hrun.
    apply Forall_cons in Hi as [Hi Hi'], Hc as [Hc Hc']. eapply IH; [done|exact Er|done|]. by eapply known_step.
  Qed.
End V.
