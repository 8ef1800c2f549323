(** C89: a validator proposes one value for a height and round, also over restarts.  C90: a value that the node proposed
    and that is decided gets committed.  C91: the node's local records do not disturb each other. *)
From Verif Require Import LocalState LocalStateProofs.
#[local] Open Scope N_scope.

(** ** An instance: the engine is the number of committed blocks, a proposal is encoded as one number. *)
#[local] Instance kind_countable : Countable kind.
Proof.
  refine (inj_countable' (fun k => match k with KBlock => true | KShard => false end) (fun b : bool => if b then KBlock else KShard) _).
  by intros [].
Defined.
#[local] Instance proposal_countable : Countable proposal.
Proof.
  refine (inj_countable' (fun p => (p_kind p, p_height p, p_round p, p_hdr p, p_hash p, p_body p))
    (fun t => let '(k, h, r, d, a, b) := t in Proposal k h r d a b) _).
  by intros [].
Defined.
Definition ex_enc (p : proposal) : bytes := [Npos (encode p)].
Definition ex_dec (b : bytes) : option proposal := match b with [Npos x] => decode x | _ => None end.
Lemma ex_dec_enc p : ex_dec (ex_enc p) = Some p.
Proof. unfold ex_dec, ex_enc. apply decode_encode. Qed.
Definition ex_confirmed (n : N) : height := (1, n).
Definition ex_commit (n : N) (p : proposal) : option N := Some (n + 1).
Notation ex_run := (vrun N ex_confirmed (fun _ _ => true) ex_commit (fun n => n) ex_enc ex_dec KShard 1).
Definition ex_start : vnode N := VNode (PNode 4 pv_empty) ∅.
(** Height 5, hash [7] first, hash [8] offered later. *)
Definition ex_get (r : Z) (x : N) (g p : bool) : vinput := VGet (1, 5) r [x] 0 g p.
Definition ex_cert (x : N) : cert := Cert (1, 5) 0 (1, [x]) [CSig [] []].

Section C89.
  Variable E : Type.
  Variable confirmed : E -> height.
  Variable validate : E -> proposal -> bool.
  Variable commit : E -> proposal -> option E.
  Variable reopen : E -> E.
  Variable enc : proposal -> bytes.
  Variable dec : bytes -> option proposal.
  Hypothesis Hdec : forall p, dec (enc p) = Some p.
  Notation vstep := (vstep E confirmed validate commit reopen enc dec).
  Notation vrun := (vrun E confirmed validate commit reopen enc dec).

  (** From any state: once a value was proposed and stored, whatever follows (other proposals, received values,
      restarts, decisions of other heights cut short anywhere), the same height and round get the same value, as long as
      the height is not committed and the database works. *)
  Theorem C89_one_value_partial k my s h r hash body g s1 p mid tr sf hash' body' pok :
    h_shard h = my -> height_ok h = true -> round_ok r = true ->
    vstep k my s (VGet h r hash body g true) = (s1, VProposed p) ->
    Forall (fun i => vin_ok i = true) mid -> vrun k my s1 mid = (tr, sf) ->
    Forall (fun e => ~ commits_at (h_num h) e) tr ->
    vstep k my sf (VGet h r hash' body' true pok) = (sf, VProposed p).
  Proof.
    intros Hmy Hh Hr Hs Hi Hrun Hc. apply get_again. apply get_step in Hs; [|done..].
    by eapply run_holds.
  Qed.
  (** What is proposed for a height and round is a value of that height and round, however the node got there. *)
  Theorem C89_right_height k my e is tr sf h r hash body g pok s1 p :
    h_shard h = my -> Forall (fun i => vrange i = true) is -> height_ok h = true -> round_ok r = true ->
    vrun k my (VNode (PNode e pv_empty) ∅) is = (tr, sf) ->
    vstep k my sf (VGet h r hash body g pok) = (s1, VProposed p) ->
    p_height p = h /\ p_round p = r /\ p_kind p = k.
  Proof.
    intros Hmy Hi Hh Hr Hrun Hs. eapply proposed_ok; [done|done|done|done| |done].
    eapply run_disk_ok; [done|done|]. intros key b. cbn [v_disk]. by rewrite lookup_empty.
  Qed.
End C89.
Example C89_one_value_ex :
  (ex_run ex_start [ex_get 0 7 true true; VRestart; ex_get 1 9 true true; VReceive (Proposal KShard (1, 5) 2 (1, 5) [3] 0);
     ex_get 0 8 true true; ex_get 1 8 true true]).1.*2 =
  [VProposed (Proposal KShard (1, 5) 0 (1, 5) [7] 0); VNew; VProposed (Proposal KShard (1, 5) 1 (1, 5) [9] 0);
   VVerdict (OVerdict Valid); VProposed (Proposal KShard (1, 5) 0 (1, 5) [7] 0); VProposed (Proposal KShard (1, 5) 1 (1, 5) [9] 0)].
Proof. vm_compute. reflexivity. Qed.

(** A write that fails is logged and the value is proposed all the same: the next request, even in the same process,
    proposes another one.  So is a read that fails. *)
Theorem C89_storage_error_refuted :
  (ex_run ex_start [ex_get 0 7 true false; ex_get 0 8 true true]).1.*2 =
  [VProposed (Proposal KShard (1, 5) 0 (1, 5) [7] 0); VProposed (Proposal KShard (1, 5) 0 (1, 5) [8] 0)] /\
  (ex_run ex_start [ex_get 0 7 true true; ex_get 0 8 false true]).1.*2 =
  [VProposed (Proposal KShard (1, 5) 0 (1, 5) [7] 0); VProposed (Proposal KShard (1, 5) 0 (1, 5) [8] 0)].
Proof. split; vm_compute; reflexivity. Qed.

Section C90.
  Variable E : Type.
  Variable confirmed : E -> height.
  Variable validate : E -> proposal -> bool.
  Variable commit : E -> proposal -> option E.
  Variable reopen : E -> E.
  Variable enc : proposal -> bytes.
  Variable dec : bytes -> option proposal.
  Hypothesis Hdec : forall p, dec (enc p) = Some p.
  Notation vstep := (vstep E confirmed validate commit reopen enc dec).
  Notation vrun := (vrun E confirmed validate commit reopen enc dec).

  (** A value built in this process is found when it is decided: it is committed (or the engine panics). *)
  Theorem C90_committed_partial k my s h r hash body g pok s1 mid tr sf c n p :
    get_proposal dec (v_disk s) my (h_num h) r = Some None ->
    vstep k my s (VGet h r hash body g pok) = (s1, VProposed p) ->
    Forall no_restart mid -> vrun k my s1 mid = (tr, sf) -> Forall (fun e => ~ commits e) tr ->
    ct_sigs c <> [] -> ct_value c = p_id p -> h_shard (ct_height c) = my ->
    (exists q, pv_values (pn_vals (v_node sf)) !! p_id p = Some q /\
       (vstep k my sf (VDecide c n)).2 = VDecided (match commit (pn_engine (v_node sf)) q with Some _ => DCommit q | None => DPanic end)).
  Proof.
    intros Hd Hs Hm Hrun Hc Hsig Hval Hmy.
    assert (Hk : is_Some (pv_values (pn_vals (v_node s1)) !! p_id p)).
    { unfold LocalState.vstep in Hs. replace (if g then get_proposal dec (v_disk s) my (h_num h) r else None) with
        (if g then Some (@None proposal) else None) in Hs by (by rewrite Hd).
      destruct g; (destruct (put_proposal enc (v_disk s) (Proposal k h r h hash body)); [|done]); inversion Hs; subst;
        cbn [v_node pn_vals]; exists (Proposal k h r h hash body); apply lookup_insert. }
    eapply known_run in Hk; [|done|exact Hrun|done]. destruct Hk as [q Hq]. exists q. split; [done|].
    unfold LocalState.vstep, decide_value. destruct (ct_sigs c) as [|? ?]; [done|]. rewrite Hval, Hq, Hmy, N.eqb_refl. cbn [negb].
    by destruct (commit (pn_engine (v_node sf)) q).
  Qed.

  (** One built before a restart is not: the stored value is proposed again without being remembered, so its decision
      finds nothing and the height starts over, for ever.  Nothing gets committed until the value arrives from
      elsewhere. *)
  Theorem C90_restart_refuted k my s h r hash body g s1 p s2 is tr sf :
    h_shard h = my ->
    vstep k my s (VGet h r hash body g true) = (s1, VProposed p) ->
    vstep k my s1 VRestart = (s2, VNew) ->
    Forall (only h r (p_id p)) is -> vrun k my s2 is = (tr, sf) ->
    v_disk sf = v_disk s2 /\
    Forall (fun e => match e with
                     | (VGet _ _ _ _ _ _, o) => o = VProposed p
                     | (VDecide _ _, o) => o = VDecided DNone
                     | _ => True end) tr.
  Proof.
    intros Hmy Hs Hr Hi Hrun. apply get_step in Hs; [|done..].
    unfold LocalState.vstep in Hr. inversion Hr; subst. eapply stuck; [done|done|exact Hs|]. apply lookup_empty.
  Qed.
End C90.
Example C90_committed_ex :
  let '(t, s) := ex_run ex_start [ex_get 0 7 true true; VReceive (Proposal KShard (1, 5) 2 (1, 5) [3] 0); VDecide (ex_cert 7) 5; ex_get 0 8 true true] in
  (t.*2, pn_engine (v_node s)) =
  ([VProposed (Proposal KShard (1, 5) 0 (1, 5) [7] 0); VVerdict (OVerdict Valid);
    VDecided (DCommit (Proposal KShard (1, 5) 0 (1, 5) [7] 0)); VProposed (Proposal KShard (1, 5) 0 (1, 5) [8] 0)], 5).
Proof. vm_compute. reflexivity. Qed.
Example C90_restart_ex :
  let '(t, s) := ex_run ex_start [ex_get 0 7 true true; VRestart; ex_get 0 8 true true; VDecide (ex_cert 7) 5; ex_get 0 8 true true; VDecide (ex_cert 7) 5] in
  (t.*2, pn_engine (v_node s)) =
  ([VProposed (Proposal KShard (1, 5) 0 (1, 5) [7] 0); VNew; VProposed (Proposal KShard (1, 5) 0 (1, 5) [7] 0); VDecided DNone;
    VProposed (Proposal KShard (1, 5) 0 (1, 5) [7] 0); VDecided DNone], 4).
Proof. vm_compute. reflexivity. Qed.

(** ** C91 *)
(** The keys on disk, which an upgraded node must find again. *)
Example C91_layout_ex :
  map lkey_bytes [KBlockOptimism; KBlockBase; KFname; KToken 258; KWork 3 200; KRoot 3 200 7; KProposal 1 5 2] =
  [[17; 1]; [17; 3]; [17; 2]; [17; 4; 0; 0; 1; 2]; [21; 3; 200; 1]; [21; 3; 200; 2; 0; 0; 0; 7];
   [1; 0; 0; 0; 1; 0; 0; 0; 0; 0; 0; 0; 5; 0; 0; 0; 0; 0; 0; 0; 2]].
Proof. vm_compute. done. Qed.
#[local] Instance lkey_eq_dec : EqDecision lkey.
Proof. solve_decision. Defined.
(** What a store with one value for each key would answer. *)
Definition last_value (k : lkey) (ops : list lop) : option bytes :=
  foldl (fun acc o => match o with
                      | LSet k' v => if bool_decide (k' = k) then Some v else acc
                      | LDel k' => if bool_decide (k' = k) then None else acc end) None ops.
Definition lop_key (o : lop) : lkey := match o with LSet k _ => k | LDel k => k end.
(** After any writes, each record reads as it was last written: proposals, block numbers, name transfer ids, page tokens,
    work units and account roots never overwrite one another, if the shards are below 256 in the last two. *)
Theorem C91_records_partial ops k :
  Forall (fun o => lkey_ok (lop_key o) = true) ops -> lkey_ok k = true ->
  foldl lapply ∅ ops !! lkey_bytes k = last_value k ops.
Proof.
  intros Ho Hk. induction ops as [|o ops IH] using rev_ind; [done|].
  apply Forall_app in Ho as [Ho Hl]. apply Forall_cons in Hl as [Hl _]. specialize (IH Ho).
  unfold last_value. rewrite !foldl_app. cbn [foldl]. fold (last_value k ops). destruct o as [k' v|k']; cbn [lop_key lapply] in *.
  - case_bool_decide as He; [subst; by rewrite lookup_insert|]. rewrite lookup_insert_ne; [done|]. intros Hb. by apply He, lkey_inj.
  - case_bool_decide as He; [subst; by rewrite lookup_delete|]. rewrite lookup_delete_ne; [done|]. intros Hb. by apply He, lkey_inj.
Qed.
Example C91_records_ex :
  let d := foldl lapply ∅ [LSet (KProposal 1 5 0) [1]; LSet (KProposal 1 5 (-1)) [2]; LSet KFname [3]; LSet (KToken 2) [4];
    LSet (KWork 2 255) [5]; LSet (KRoot 2 255 9) [6]; LDel (KToken 2); LSet KBlockBase [7]; LSet (KProposal 1 5 0) [8]] in
  map (fun k => d !! lkey_bytes k) [KProposal 1 5 0; KProposal 1 5 (-1); KFname; KToken 2; KWork 2 255; KRoot 2 255 9; KBlockBase; KBlockOptimism] =
  [Some [8]; Some [2]; Some [3]; None; Some [5]; Some [6]; Some [7]; None].
Proof. vm_compute. reflexivity. Qed.

(** Deleting the proposals of a height removes these and nothing else; cut short, it removes nothing else either. *)
Theorem C91_delete d s h k n :
  height_ok (s, h) = true -> lkey_ok k = true ->
  match k with
  | KProposal s' h' _ => if bool_decide (s = s' /\ h = h')
                         then (length (height_keys d s h) <= n)%nat -> delete_proposals n d s h !! lkey_bytes k = None
                         else delete_proposals n d s h !! lkey_bytes k = d !! lkey_bytes k
  | _ => delete_proposals n d s h !! lkey_bytes k = d !! lkey_bytes k
  end.
Proof.
  intros Hh Hk. pose proof (scan_lkey s h k Hh Hk) as Hs. destruct k; try by apply lookup_delete_proposals.
  case_bool_decide; [|by apply lookup_delete_proposals]. intros Hn. by rewrite lookup_delete_all, Hs.
Qed.
Example C91_delete_ex :
  let d := foldl lapply ∅ [LSet (KProposal 1 255 0) [1]; LSet (KProposal 1 255 3) [2]; LSet (KProposal 1 256 0) [3]; LSet (KProposal 2 255 0) [4]; LSet KFname [5]] in
  (map (fun k => delete_proposals 2 d 1 255 !! lkey_bytes k) [KProposal 1 255 0; KProposal 1 255 3; KProposal 1 256 0; KProposal 2 255 0; KFname],
   map (fun k => delete_proposals 1 d 1 255 !! lkey_bytes k) [KProposal 1 255 0; KProposal 1 255 3; KProposal 1 256 0]) =
  ([None; None; Some [3]; Some [4]; Some [5]], [None; Some [2]; Some [3]]).
Proof. vm_compute. reflexivity. Qed.

(** The account root just written into the batch is the one read back, whatever the database holds; other accounts read as
    before. *)
Theorem C91_account_root dec d t s v f b s' v' f' :
  lkey_ok (KRoot s v f) = true -> lkey_ok (KRoot s' v' f') = true ->
  read_root dec d (tput t (lkey_bytes (KRoot s v f)) b) s' v' f' =
  if bool_decide ((s, v, f) = (s', v', f')) then dec b else read_root dec d t s' v' f'.
Proof.
  intros H1 H2. unfold read_root, tput. case_bool_decide as He.
  - injection He as <- <- <-. by rewrite lookup_insert.
  - rewrite lookup_insert_ne; [done|]. intros Ek. apply lkey_inj in Ek; [|done..]. destruct He. congruence.
Qed.
Example C91_account_root_ex :
  let t := tput ∅ (lkey_bytes (KRoot 2 17 9)) [1] in
  (read_root Some {[ lkey_bytes (KRoot 2 17 9) := [5]; lkey_bytes (KRoot 2 17 8) := [6] ]} t 2 17 9,
   read_root Some {[ lkey_bytes (KRoot 2 17 9) := [5]; lkey_bytes (KRoot 2 17 8) := [6] ]} t 2 17 8) = (Some [1], Some [6]).
Proof. vm_compute. reflexivity. Qed.

(** Shards 256 apart share their bootstrap records, whatever the virtual shard and the account. *)
Theorem C91_shard_cut_refuted s v f :
  lkey_bytes (KWork s v) = lkey_bytes (KWork (s + 256) v) /\ lkey_bytes (KRoot s v f) = lkey_bytes (KRoot (s + 256) v f).
Proof.
  cbn [lkey_bytes]. replace ((s + 256) mod 256) with (s mod 256); [done|].
  rewrite <- (N.mod_add s 1 256) by done. done.
Qed.
Example C91_shard_cut_ex :
  foldl lapply ∅ [LSet (KWork 1 3) [1]; LSet (KWork 257 3) [2]] !! lkey_bytes (KWork 1 3) = Some [2].
Proof. vm_compute. reflexivity. Qed.

Print Assumptions C89_one_value_partial.
Print Assumptions C89_right_height.
Print Assumptions C89_storage_error_refuted.
Print Assumptions C90_committed_partial.
Print Assumptions C90_restart_refuted.
Print Assumptions C91_records_partial.
Print Assumptions C91_delete.
Print Assumptions C91_account_root.
Print Assumptions C91_shard_cut_refuted.
