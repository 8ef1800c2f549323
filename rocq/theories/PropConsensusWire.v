(** C82-C84: consensus and sync messages on the wire. *)
From Verif Require Import Base Consensus Wire WireProofs ConsensusWire ConsensusWireProofs.
#[local] Open Scope N_scope.

(** * Specification *)
(** The shard a delivered message is about, and the shard whose actors get it. *)
Definition delivery_shard {pval other} (d : @delivery pval other) : option N :=
  match d with
  | DMsg (MVote v _) => Some (cv_height v).1
  | DMsg (MProp p _) => Some (cp_height p).1
  | DFull _ p => match fp_height p with Some h => Some h.1 | None => None end
  | DStatus s => Some (st_height s).1
  | DOther _ => None
  end.
Definition event_shard {other} (e : @event other) : option N :=
  match e with EvMsg s _ | EvFull s _ | EvStatus s _ => Some s | EvOther _ => None end.
(** What breaks the conversion of a consensus message. *)
Definition breaks (m : pcm) : bool :=
  match pc_body m with
  | Some (PBVote v) => negb ((pv_type v =? 0)%Z || (pv_type v =? 1)%Z) || negb (length (pv_voter v) =? 32)%nat
  | Some (PBProp p) => match pp_value p with None => true | Some _ => false end || negb (length (pp_proposer p) =? 32)%nat
  | None => false
  end.
(** What breaks the conversion of a vote of a sync response, and of a certificate. *)
Definition vote_breaks (v : pvote) : bool :=
  negb ((pv_type v =? 0)%Z || (pv_type v =? 1)%Z) || match pv_height v with None => true | Some _ => false end || negb (length (pv_voter v) =? 32)%nat.
Definition commits_break (c : commits) : bool :=
  match cm_height c with None => true | Some _ => false end || match cm_value c with None => true | Some _ => false end ||
  existsb (fun s => negb (length (sg_addr s) =? 32)%nat) (cm_sigs c).

(** * C82 *)
Section C82.
  Context (peer_ok : bytes -> bool) {pval other : Type} (enc_val : pval -> N * list field) (dec_val : N -> list field -> option pval).
  Context (dec_other : N -> list field -> option other).
  Notation gossip_in := (gossip_in enc_val dec_val dec_other).
  Notation deliver := (deliver peer_ok dec_val).

  (** A vote or proposal that is published reaches the actors of its shard as it was. *)
  Theorem C82_message m : cmsg_ok m = true ->
    exists e, gossip_in (gossip_msg m) = Ok (Some e) /\ deliver e = Ok (DMsg m) /\
              event_shard e = delivery_shard (DMsg m : @delivery pval other).
  Proof.
    intros H. destruct (cmsg_pcm m H) as [Hp Hc].
    assert (g_msg (dec_env dec_val dec_other) (gossip_msg m) = Some (Some (EnvMsg (cmsg_proto m)))) as He.
    { unfold gossip_msg. apply env_in; [done|done|by apply cm_fok| |].
      - destruct (cm_fok _ Hp) as [_ Hs]. eapply N.le_lt_trans; [exact Hs|done].
      - change (EnvMsg <$> dec_cm (enc_cm (cmsg_proto m)) = Some (EnvMsg (cmsg_proto m) : @envelope pval other)). by rewrite cm_rt. }
    unfold ConsensusWire.gossip_in. rewrite He.
    destruct m as [v s|p s]; cbn [cmsg_proto cm_shard pc_body vote_proto pv_height prop_proto pp_height fmap option_fmap option_map];
      (eexists; split; [reflexivity|]; split; [|reflexivity]); unfold ConsensusWire.deliver.
    - change (PCm (Some (PBVote (vote_proto v))) s) with (cmsg_proto (MVote v s)) in *. rewrite cm_msg, Hc by done. done.
    - change (PCm (Some (PBProp (prop_proto p))) s) with (cmsg_proto (MProp p s)) in *. rewrite cm_msg, Hc by done. done.
  Qed.
  (** A proposed block or chunk likewise, whatever its value is, as long as that can be read back. *)
  Theorem C82_full p h : full_ok enc_val p = true -> fp_height p = Some h ->
    (forall v, fp_value p = Some v -> dec_val (enc_val v).1 (enc_val v).2 = Some v) ->
    exists e, gossip_in (gossip_full enc_val p) = Ok (Some e) /\ event_shard e = Some h.1 /\
              deliver e = Ok (DFull (be 8 h.2 ++ be 8 (u64_of (fp_round p))) p).
  Proof.
    intros H Hh Hv. destruct (full_fok _ _ H) as [F1 F2].
    assert (g_msg (dec_env dec_val dec_other) (gossip_full enc_val p) = Some (Some (EnvFull p))) as He.
    { unfold gossip_full. apply env_in; [done|done|done| |].
      - eapply N.lt_trans; [exact F2|done].
      - change (EnvFull <$> dec_full dec_val (enc_full enc_val p) = Some (EnvFull p : @envelope pval other)). by rewrite full_rt. }
    unfold ConsensusWire.gossip_in. rewrite He, Hh. eexists. split; [reflexivity|]. split; [reflexivity|].
    unfold ConsensusWire.deliver, decode_stream. rewrite g_msg_eq by done. rewrite full_rt by done. by rewrite Hh.
  Qed.
  Theorem C82_status s : status_ok s = true -> peer_ok (st_peer s) = true ->
    exists e, gossip_in (gossip_status s) = Ok (Some e) /\ event_shard e = Some (st_height s).1 /\ deliver e = Ok (DStatus s).
  Proof.
    intros H Hp. set (ps := PStatus (st_peer s) (Some (st_height s)) (Some (st_min s))). destruct (status_fok ps) as [F1 F2]; [done|].
    assert (g_msg (dec_env dec_val dec_other) (gossip_status s) = Some (Some (EnvStatus ps))) as He.
    { unfold gossip_status. apply env_in; [done|done|done| |].
      - eapply N.le_lt_trans; [exact F2|done].
      - change (EnvStatus <$> dec_status (enc_status ps) = Some (EnvStatus ps : @envelope pval other)). by rewrite status_rt. }
    unfold ConsensusWire.gossip_in. rewrite He. eexists. split; [reflexivity|]. split; [reflexivity|].
    unfold ConsensusWire.deliver. pose proof (codec_status peer_ok s H Hp) as Hc. unfold encode_status in Hc. fold ps in Hc. by rewrite Hc.
  Qed.
  (** Whatever a peer sends: what the actors of a shard get is about that shard. *)
  Theorem C82_routed b e d :
    bytes_ok b = true -> N.of_nat (length b) < 2 ^ 32 ->
    (forall i fs v, rok (S (length b)) fs = true -> dec_val i fs = Some v -> val_ok enc_val v = true) ->
    gossip_in b = Ok (Some e) -> deliver e = Ok d -> event_shard e = delivery_shard d.
  Proof.
    intros Hb Hl Hval Hg Hd. unfold ConsensusWire.gossip_in in Hg.
    destruct (g_msg (dec_env dec_val dec_other) b) as [[env|]|] eqn:Ee; [|done|done].
    pose proof (env_ok enc_val dec_val dec_other b env _ Hb Hl eq_refl Hval Ee) as Hok. destruct env as [m|p|s|o].
    - destruct (cm_shard m) as [sh|] eqn:Es; [|done]. injection Hg as <-. cbn [ConsensusWire.deliver] in Hd. rewrite cm_msg in Hd by done.
      unfold cmsg_of, cm_shard in *. destruct (pc_body m) as [[v|p]|]; [| |done].
      + unfold vote_of in Hd. destruct (if (pv_type v =? 0)%Z then _ else _) as [t|]; [|done]. destruct (pv_height v) as [h|]; [|done].
        destruct (addr_ok (pv_voter v)); [|done]. injection Hd as <-. by injection Es as <-.
      + unfold prop_of in Hd. destruct (pp_height p) as [h|]; [|done]. destruct (pp_value p) as [v|]; [|done].
        destruct (addr_ok (pp_proposer p)); [|done]. injection Hd as <-. by injection Es as <-.
    - destruct (fp_height p) as [h|] eqn:Eh; [|done]. injection Hg as <-. cbn [ConsensusWire.deliver] in Hd. unfold decode_stream in Hd.
      destruct (full_fok _ _ Hok) as [F1 F2]. rewrite g_msg_eq in Hd by done. unfold dec_full in Hd. rewrite full_height in Hd by done.
      destruct (g_num 2 _) as [r|]; [|done]. destruct (g_bytes 3 _) as [c|]; [|done]. destruct (g_oneof dec_val [4; 5] _) as [v|]; [|done].
      cbn [fp_height] in Hd. rewrite Eh in Hd. injection Hd as <-. cbn. by rewrite ?Eh.
    - destruct (ps_height s) as [h|] eqn:Eh; [|done]. injection Hg as <-. cbn [ConsensusWire.deliver] in Hd. unfold decode_status in Hd.
      rewrite g_msg_eq in Hd by (by apply status_fok). rewrite status_rt in Hd by done. destruct (negb (peer_ok (ps_peer s))); [done|].
      rewrite Eh in Hd. destruct (ps_min s); [|done]. by injection Hd as <-.
    - injection Hg as <-. by injection Hd as <-.
  Qed.
End C82.
(** The request and response bodies of the sync protocol. *)
Theorem C82_request r : req_ok r = true -> decode_req (encode_req r) = Ok r.
Proof. apply codec_req. Qed.
Theorem C82_response r : resp_ok r = true -> exists b, encode_resp r = Ok b /\ decode_resp b = Ok r.
Proof. apply codec_resp. Qed.
(** Only the answer "no such value" cannot be said: the requester is left to its timeout. *)
Theorem C82_no_value r : (exists e, encode_resp r = Err e) <-> exists h, r = AValue h None.
Proof.
  split.
  - intros [e He]. destruct r as [h [[b c]|]|h r vs]; try done. by exists h.
  - intros [h ->]. by eexists.
Qed.

(** * C83 *)
Theorem C83_votes v w : cvote_ok v = true -> cvote_ok w = true -> vote_sign v = vote_sign w -> v = w.
Proof.
  intros Hv Hw H. destruct (cvote_rt v Hv) as [V1 V2]. destruct (cvote_rt w Hw) as [W1 W2]. unfold vote_sign in H.
  apply (f_equal (g_msg dec_vote)) in H. rewrite !g_msg_eq in H by (by apply vote_fok). rewrite !vote_rt in H by done. apply (inj Some) in H.
  rewrite H in V1. congruence.
Qed.
Theorem C83_proposals p q : cprop_ok p = true -> cprop_ok q = true -> prop_sign p = prop_sign q -> p = q.
Proof.
  intros Hv Hw H. destruct (cprop_rt p Hv) as [V1 V2]. destruct (cprop_rt q Hw) as [W1 W2]. unfold prop_sign in H.
  apply (f_equal (g_msg dec_prop)) in H. rewrite !g_msg_eq in H by (by apply prop_fok). rewrite !prop_rt in H by done. apply (inj Some) in H.
  rewrite H in V1. congruence.
Qed.
(** The signature of one kind never is one of another: a vote, a proposal and a proposed block all differ. *)
Theorem C83_kinds v p : cvote_ok v = true -> cprop_ok p = true -> vote_sign v <> prop_sign p.
Proof.
  intros Hv Hp H. destruct (cvote_rt v Hv) as [_ V2]. destruct (cprop_rt p Hp) as [_ P2]. unfold vote_sign, prop_sign in H.
  apply (f_equal parse) in H. rewrite !parse_enc in H by (by apply vote_fok || by apply prop_fok). injection H as H.
  apply (f_equal (occ 1)) in H. unfold enc_vote, enc_prop in H. cbn [pv_height vote_proto pp_height prop_proto fmap option_fmap option_map] in H.
  rewrite !occ_app in H. rewrite (occ_sub_ne 1 2) in H by done. rewrite (occ_num_ne 1 3), (occ_sub_ne 1 4), (occ_bytes_ne 1 5) in H by done.
  unfold f_sub, f_num in H. cbn in H. destruct (u64_of _ =? 0); cbn in H; by inversion H.
Qed.
Theorem C83_full {pval} (enc_val : pval -> N * list field) f v p : full_ok enc_val f = true -> cvote_ok v = true -> cprop_ok p = true ->
  fp_height f <> None -> enc_fields (enc_full enc_val f) <> vote_sign v /\ enc_fields (enc_full enc_val f) <> prop_sign p.
Proof.
  intros Hf Hv Hp Hh. destruct (cvote_rt v Hv) as [_ V2]. destruct (cprop_rt p Hp) as [_ P2]. split; intros H; unfold vote_sign, prop_sign in H.
  - apply (f_equal parse) in H. rewrite !parse_enc in H by (by apply vote_fok || by apply full_fok). injection H as H.
    apply (f_equal (occ 1)) in H. rewrite full_occ in H by done. destruct (fp_height f) as [h|]; [|done].
    unfold enc_vote in H. cbn [pv_height vote_proto fmap option_fmap option_map] in H.
    rewrite !occ_app in H. rewrite (occ_sub_ne 1 2) in H by done. rewrite (occ_num_ne 1 3), (occ_sub_ne 1 4), (occ_bytes_ne 1 5) in H by done.
    rewrite (occ_num 1) in H. unfold f_sub in H. cbn [occ List.filter map fst snd] in H. by destruct (u64_of (pv_type _) =? 0); inversion H.
  - apply (f_equal parse) in H. rewrite !parse_enc in H by (by apply prop_fok || by apply full_fok). injection H as H.
    assert (exists x, cp_proposer p = x /\ x <> []) as (x & Hx & Hne).
    { eexists. split; [reflexivity|]. unfold cprop_ok in Hp. bsplit. intros E. unfold addr_ok in *. by rewrite E in *. }
    pose proof (f_equal (fun l => existsb (fun f => f.1 =? 4) l && existsb (fun f => f.1 =? 5) l) H) as H'. cbn beta in H'.
    unfold enc_prop, enc_full in H'. rewrite !existsb_app in H'. unfold prop_proto in H'. cbn [pp_height pp_round pp_pol pp_proposer pp_value fmap option_fmap option_map] in H'.
    rewrite Hx in H'. destruct x as [|x0 x]; [done|]. unfold full_ok in Hf. bsplit.
    assert (forall i, 4 <= i -> existsb (fun f => f.1 =? i) (f_sub 1 (enc_height <$> fp_height f)) = false) as E1.
    { intros i Hi. destruct (fp_height f); [|done]. cbn [fmap option_fmap option_map f_sub existsb fst]. rewrite orb_false_r. apply N.eqb_neq. lia. }
    assert (forall i, 4 <= i -> existsb (fun f => f.1 =? i) (f_num 2 (u64_of (fp_round f))) = false) as E2.
    { intros i Hi. unfold f_num. destruct (u64_of (fp_round f) =? 0); [done|]. cbn [existsb fst]. rewrite orb_false_r. apply N.eqb_neq. lia. }
    assert (forall i, 4 <= i -> existsb (fun f => f.1 =? i) (f_bytes 3 (fp_proposer f)) = false) as E3.
    { intros i Hi. destruct (fp_proposer f); [done|]. cbn [f_bytes existsb fst]. rewrite orb_false_r. apply N.eqb_neq. lia. }
    rewrite !E1, !E2, !E3 in H' by lia. cbn [orb] in H'.
    cbn [f_bytes] in H'. unfold f_sub in H' at 3 4 5 6. cbn [existsb fst] in H'. change (4 =? 4) with true in H'. change (5 =? 5) with true in H'.
    rewrite ?orb_true_r in H'. cbn [andb orb] in H'. rewrite ?orb_true_r in H'. cbn [andb orb] in H'.
    destruct (fp_value f) as [val|]; [|done].
    unfold f_sub in H'. cbn [existsb fst] in H'. rewrite !orb_false_r in H'. apply andb_prop in H' as [A%N.eqb_eq B%N.eqb_eq]. congruence.
Qed.

(** * C84 *)
Section C84.
  Context (peer_ok : bytes -> bool) {pval other : Type} (enc_val : pval -> N * list field) (dec_val : N -> list field -> option pval).
  Context (dec_other : N -> list field -> option other).
  Notation network := (network peer_ok enc_val dec_val dec_other).
  (** Exactly when bytes from a peer make a task of the node panic. *)
  Theorem C84_gossip_iff b : bytes_ok b = true -> N.of_nat (length b) < 2 ^ 32 ->
    (forall i fs v, rok (S (length b)) fs = true -> dec_val i fs = Some v -> val_ok enc_val v = true) ->
    network b = Panic <->
    (exists p, g_msg (dec_env dec_val dec_other) b = Some (Some (EnvFull p)) /\ fp_height p = None) \/
    (exists m, g_msg (dec_env dec_val dec_other) b = Some (Some (EnvMsg m)) /\ cm_shard m <> None /\ breaks m = true).
  Proof.
    intros Hb Hl Hval. unfold ConsensusWire.network, ConsensusWire.gossip_in.
    destruct (g_msg (dec_env dec_val dec_other) b) as [[env|]|] eqn:Ee.
    2: { split; [done|]. intros [(p & Hx & _)|(m & Hx & _)]; done. }
    2: { split; [done|]. intros [(p & Hx & _)|(m & Hx & _)]; done. }
    pose proof (env_ok enc_val dec_val dec_other b env _ Hb Hl eq_refl Hval Ee) as Hok. destruct env as [m|p|s|o].
    - assert ((exists p, Some (Some (EnvMsg m : @envelope pval other)) = Some (Some (EnvFull p)) /\ fp_height p = None) <-> False) as Hfalse
        by (split; [intros (p & Hx & _); done|done]). rewrite Hfalse.
      assert ((exists m', Some (Some (EnvMsg m : @envelope pval other)) = Some (Some (EnvMsg m')) /\ cm_shard m' <> None /\ breaks m' = true) <->
              (cm_shard m <> None /\ breaks m = true)) as Hm.
      { split; [intros (m' & Hx & Hy); by injection Hx as ->|]. intros Hx. by exists m. }
      rewrite Hm. clear Hfalse Hm. destruct (cm_shard m) as [sh|] eqn:Es; [|split; [done|intros [[]|[]]; done]].
      cbn [deliver]. rewrite cm_msg by done. unfold cmsg_of, cm_shard, breaks in *. destruct (pc_body m) as [[v|p]|]; [| |done].
      + unfold vote_of, addr_ok. destruct (pv_height v) as [h|]; [|done].
        destruct (pv_type v =? 0)%Z; [|destruct (pv_type v =? 1)%Z]; cbn [orb negb]; try (destruct (length (pv_voter v) =? 32)%nat; cbn [negb]);
          (split; [try done; intros _; by right|intros [[]|[_ ?]]; done]).
      + unfold prop_of, addr_ok. destruct (pp_height p) as [h|]; [|done]. destruct (pp_value p) as [v|]; cbn [orb];
          try (destruct (length (pp_proposer p) =? 32)%nat; cbn [negb]); (split; [try done; intros _; by right|intros [[]|[_ ?]]; done]).
    - destruct (fp_height p) as [h|] eqn:Eh.
      2: { split; [intros _; left; by exists p|done]. }
      split.
      + cbn [deliver]. unfold decode_stream. destruct (full_fok _ _ Hok) as [F1 F2]. rewrite g_msg_eq by done. unfold dec_full. rewrite full_height by done.
        destruct (g_num 2 _) as [r|]; [|done]. destruct (g_bytes 3 _) as [c|]; [|done]. destruct (g_oneof dec_val [4; 5] _) as [v|]; [|done].
        cbn [fp_height]. by rewrite Eh.
      + intros [(p' & Hx & Hy)|(m & Hx & _)]; [|done]. injection Hx as <-. congruence.
    - split; [|intros [(p & Hx & _)|(m & Hx & _)]; done]. destruct (ps_height s) as [h|] eqn:Eh; [|done]. cbn [deliver]. unfold decode_status.
      rewrite g_msg_eq by (by apply status_fok). rewrite status_rt by done. destruct (negb (peer_ok (ps_peer s))); [done|].
      rewrite Eh. by destruct (ps_min s).
    - split; [done|]. intros [(p & Hx & _)|(m & Hx & _)]; done.
  Qed.
  (** Such bytes exist, for either task. *)
  Theorem C84_gossip_refuted : exists a b, bytes_ok a = true /\ bytes_ok b = true /\ gossip_in enc_val dec_val dec_other a = Panic /\
    gossip_in enc_val dec_val dec_other b <> Panic /\ network b = Panic.
  Proof.
    (* an empty proposed value; a vote of an empty voter *)
    exists [18; 0], [10; 4; 10; 2; 18; 0]. by vm_compute.
  Qed.
End C84.
(** Sync requests never do; responses exactly when a vote or the certificate breaks. *)
Theorem C84_request b : decode_req b <> Panic.
Proof. unfold decode_req. destruct (g_msg dec_req b) as [[[[h|]|[h|] r]|]|]; done. Qed.
Lemma votes_of_none vs : votes_of vs = None <-> existsb (fun p => vote_breaks p.1) vs = true.
Proof.
  induction vs as [|[v s] vs IH]; [done|]. cbn [votes_of existsb fst].
  assert (vote_of v = None <-> vote_breaks v = true) as Hv.
  { unfold vote_of, vote_breaks, addr_ok. destruct (pv_type v =? 0)%Z; [|destruct (pv_type v =? 1)%Z]; cbn [orb negb]; try done;
      destruct (pv_height v); try done; cbn [orb]; by destruct (length (pv_voter v) =? 32)%nat. }
  destruct (vote_of v) as [w|].
  - assert (vote_breaks v = false) as -> by (destruct (vote_breaks v); [by (destruct Hv as [_ Hv]; specialize (Hv eq_refl))|done]).
    cbn [orb]. rewrite <- IH. by destruct (votes_of vs).
  - destruct Hv as [Hv _]. by rewrite Hv.
Qed.
Theorem C84_response_iff b : decode_resp b = Panic <->
  (exists h v c, g_msg dec_resp b = Some (Some (PSValue h v (Some c))) /\ commits_break c = true) \/
  (exists h r vs ss, g_msg dec_resp b = Some (Some (PSVotes h r vs ss)) /\ existsb (fun p => vote_breaks p.1) (zip vs ss) = true).
Proof.
  unfold decode_resp. destruct (g_msg dec_resp b) as [[[h v [c|]|h r vs ss]|]|] eqn:E.
  - assert (cert_of c = None <-> commits_break c = true) as Hc.
    { unfold cert_of, to_cert, commits_break. destruct (cm_height c); [|done]. destruct (cm_value c); [|done]. cbn [orb].
      assert (existsb (fun s => negb (length (sg_addr s) =? 32)%nat) (cm_sigs c) = negb (forallb (fun s => (length (sg_addr s) =? 32)%nat) (cm_sigs c))) as ->.
      { induction (cm_sigs c) as [|x l IH]; [done|]. cbn. rewrite IH. by destruct (length (sg_addr x) =? 32)%nat. }
      by destruct (forallb _ (cm_sigs c)). }
    split.
    + destruct (cert_of c) as [cc|]; [by destruct h|]. intros _. left. exists h, v, c. split; [done|]. by apply Hc.
    + intros [(h' & v' & c' & Hx & Hy)|(h' & r & vs & ss & Hx & _)]; [|done]. injection Hx as -> -> ->. apply Hc in Hy. by rewrite Hy.
  - split; [done|]. intros [(h' & v' & c' & Hx & Hy)|(h' & r & vs & ss & Hx & _)]; done.
  - split.
    + intros Hx. right. exists h, r, vs, ss. split; [done|]. apply votes_of_none. destruct (votes_of (zip vs ss)); [by destruct h|done].
    + intros [(h' & v' & c' & Hx & Hy)|(h' & r' & vs' & ss' & Hx & Hy)]; [done|]. injection Hx as -> -> -> ->. apply votes_of_none in Hy. by rewrite Hy.
  - split; [done|]. intros [(h' & v' & c' & Hx & Hy)|(h' & r & vs & ss & Hx & _)]; done.
  - split; [done|]. intros [(h' & v' & c' & Hx & Hy)|(h' & r & vs & ss & Hx & _)]; done.
Qed.
Theorem C84_response_refuted : exists b, bytes_ok b = true /\ decode_resp b = Panic.
Proof. exists [10; 2; 26; 0]. by vm_compute. Qed.

(** * Examples *)
Definition ex_voter : bytes := repeat 7 32.
Definition ex_vote : cvote := CVote Precommit_ (1, 300) (RSome 2) (Some (1, [9; 9; 9])) ex_voter.
Definition ex_nil : cvote := CVote Prevote (0, 0) RNil None ex_voter.
Definition ex_prop : cprop := CProp (2, 1000000) (RSome 0) (2, [5; 6]) RNil ex_voter.
(** Proposed values that are just bytes. *)
Definition ex_enc (v : bytes) : N * list field := (5, f_bytes 1 v).
Definition ex_dec (i : N) (fs : list field) : option bytes := if i =? 5 then g_bytes 1 fs else None.
Definition ex_other (i : N) (fs : list field) : option unit := Some tt.
Definition ex_full : @full bytes := Full (Some (1, 70)) 3 ex_voter (Some [1; 2; 3]).
Definition ex_status : status := Status [1; 2] (1, 40) (1, 3).
Definition ex_peer (b : bytes) : bool := (length b =? 2)%nat.
Example C82_message_ex : cmsg_ok (MVote ex_vote [1; 2; 3]) = true /\ cmsg_ok (MVote ex_nil []) = true /\ cmsg_ok (MProp ex_prop [4]) = true /\
  gossip_msg (MVote ex_nil []) = [10; 49; 10; 47; 18; 0; 24; 255; 255; 255; 255; 255; 255; 255; 255; 255; 1; 42; 32] ++ ex_voter.
Proof. by vm_compute. Qed.
Example C82_message_run : network ex_peer ex_enc ex_dec ex_other (gossip_msg (MProp ex_prop [4])) = Ok (Some (DMsg (MProp ex_prop [4]))).
Proof. by vm_compute. Qed.
Example C82_full_ex : full_ok ex_enc ex_full = true /\ (forall v, fp_value ex_full = Some v -> ex_dec (ex_enc v).1 (ex_enc v).2 = Some v) /\
  network ex_peer ex_enc ex_dec ex_other (gossip_full ex_enc ex_full) = Ok (Some (DFull [0; 0; 0; 0; 0; 0; 0; 70; 0; 0; 0; 0; 0; 0; 0; 3] ex_full)).
Proof. split; [by vm_compute|]. split; [|by vm_compute]. intros v Hv. injection Hv as <-. by vm_compute. Qed.
Example C82_status_ex : status_ok ex_status = true /\ ex_peer (st_peer ex_status) = true /\
  network ex_peer ex_enc ex_dec ex_other (gossip_status ex_status) = Ok (Some (DStatus ex_status)).
Proof. by vm_compute. Qed.
Lemma ex_dec_ok n i fs v : rok n fs = true -> (N.of_nat n <= 2 ^ 32) -> ex_dec i fs = Some v -> val_ok ex_enc v = true.
Proof.
  intros Hr Hn Hd. unfold ex_dec in Hd. destruct (i =? 5); [|done]. destruct n as [|n].
  { unfold g_bytes in Hd. destruct (lens (occ 1 fs)) as [l|] eqn:E; [|done]. apply (lens_wok 0) in E; [|by apply occ_wok].
    destruct l as [|x l]; [by injection Hd as <-|]. cbn in E. rewrite andb_false_r in E. done. }
  apply (g_bytes_ok (S n)) in Hd; [|done|lia]. change (2 ^ 32) with 4294967296 in Hn. unfold val_ok, ex_enc. cbn [fst snd].
  change ((5 =? 4) || (5 =? 5)) with true. cbn [andb]. apply andb_true_intro. split.
  - apply ok_bytes; [done|]. change (2 ^ 64) with 18446744073709551616. lia.
  - apply N.ltb_lt. pose proof (fsizes_bytes 1 v). change (2 ^ 60) with 1152921504606846976. lia.
Qed.
(** The hypotheses of C82_routed and C84_gossip_iff are met by these values, for any bytes. *)
Example C82_routed_ex b : bytes_ok b = true -> N.of_nat (length b) < 2 ^ 32 ->
  forall i fs v, rok (S (length b)) fs = true -> ex_dec i fs = Some v -> val_ok ex_enc v = true.
Proof. intros _ Hl i fs v Hr. apply (ex_dec_ok _ _ _ _ Hr). change (2 ^ 32) with 4294967296 in *. lia. Qed.
Definition ex_cert : ccert := CCert (1, 12) (RSome 0) (1, [8; 8]) [CSig ex_voter [1]; CSig (repeat 8 32) [2; 2]].
Example C82_response_ex : resp_ok (AValue (1, 12) (Some ([7; 7; 7], ex_cert))) = true /\
  resp_ok (AVotes (1, 12) (RSome 3) [(ex_vote, [1]); (ex_nil, [])]) = true /\ req_ok (QVotes (1, 12) (RSome 3)) = true /\
  encode_req (QVotes (1, 12) (RSome 3)) = [18; 8; 10; 4; 8; 1; 16; 12; 16; 3] /\ encode_resp (AValue (1, 12) None) = Err WField.
Proof. by vm_compute. Qed.
Example C83_ex : cvote_ok ex_vote = true /\ cvote_ok ex_nil = true /\ cprop_ok ex_prop = true /\ full_ok ex_enc ex_full = true /\
  vote_sign ex_vote <> vote_sign ex_nil /\ take 3 (vote_sign ex_vote) = [8; 1; 18] /\ take 3 (prop_sign ex_prop) = [10; 6; 8].
Proof. repeat split; by vm_compute. Qed.
(** A vote of kind 2, a proposal without a value, a sync vote without height. *)
Example C84_ex :
  network ex_peer ex_enc ex_dec ex_other (enc_fields (f_sub 1 (Some (enc_cm (PCm (Some (PBVote (PVote 2 (Some (1, 5)) 0 None ex_voter))) [1]))))) = Panic /\
  network ex_peer ex_enc ex_dec ex_other (enc_fields (f_sub 1 (Some (enc_cm (PCm (Some (PBProp (PProp (Some (1, 5)) 0 0 ex_voter None))) [1]))))) = Panic /\
  decode_resp (enc_fields (enc_resp (Some (PSVotes (Some (1, 5)) 0 [PVote 1 None 0 None ex_voter] [[1]])))) = Panic /\
  network ex_peer ex_enc ex_dec ex_other [26; 0] = Ok (Some (DOther tt)) /\ network ex_peer ex_enc ex_dec ex_other [1; 2; 3] = Ok None.
Proof. by vm_compute. Qed.

Print Assumptions C82_message.
Print Assumptions C82_full.
Print Assumptions C82_status.
Print Assumptions C82_routed.
Print Assumptions C82_request.
Print Assumptions C82_response.
Print Assumptions C82_no_value.
Print Assumptions C83_votes.
Print Assumptions C83_proposals.
Print Assumptions C83_kinds.
Print Assumptions C83_full.
Print Assumptions C84_gossip_iff.
Print Assumptions C84_gossip_refuted.
Print Assumptions C84_request.
Print Assumptions C84_response_iff.
Print Assumptions C84_response_refuted.
