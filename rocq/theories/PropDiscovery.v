(** C110: peers to copy from; C111: the heartbeat put in at start-up; C112: what a serving node says; C113: pages fetched ahead. *)
From Verif Require Import Discovery AuthProofs DiscoveryProofs.
From stdpp Require Import list fin_maps.
From Coq Require Import Lia ZifyN ZifyNat ZifyBool.
#[local] Open Scope N_scope.

(** * C110 *)
(** However contacts, tasks and answers interleave: every address that is asked for data is the configured one, or one that a
    contact announced and whose own answer listed the height that is being copied. *)
Theorem C110_holders height first evs a : a ∈ d_addrs (drun height first evs) ->
  a = first \/ exists i p s, d_tasks (drun height first evs) !! i = Some (p, a, s) /\
    (exists t hs, EAnswer i t (Some hs) ∈ evs /\ height ∈ hs) /\
    (exists t c, ESee t c ∈ evs /\ c_pid c = Some p /\ addr_of c = Some a).
Proof.
  intros H. apply addrs_confirmed in H as [->|(i & p & s & T & C)]; [by left|right]. exists i, p, s. split; [done|]. split; [exact C|].
  by apply tasks_announced in T.
Qed.
(** The configured peer stays first, nobody is dropped, and one step adds at most one. *)
Theorem C110_grow height first evs evs' : exists l, d_addrs (drun height first (evs ++ evs')) = d_addrs (drun height first evs) ++ l /\
  (length l <= length evs')%nat.
Proof.
  induction evs' as [|e evs' IH] using rev_ind.
  - exists []. rewrite !app_nil_r. auto.
  - rewrite app_assoc, drun_snoc. destruct IH as (l & E & L). destruct (addrs_grow height (drun height first (evs ++ evs')) e) as (l' & E' & L').
    exists (l ++ l'). rewrite E', E, app_assoc. split; [done|]. rewrite !app_length. cbn. lia.
Qed.
(** Which address: the announced one, otherwise the IP of the gossip address with the usual port. *)
Theorem C110_address c a : addr_of c = Some a <->
  (c_rpc c <> [] /\ a = c_rpc c) \/
  (c_rpc c = [] /\ exists x ip rest, a = HTTP ++ ip ++ PORT /\ SLASH ∉ x /\ SLASH ∉ ip /\
     (c_gossip c = x ++ SLASH :: IP4 ++ SLASH :: ip \/ c_gossip c = x ++ SLASH :: IP4 ++ SLASH :: ip ++ SLASH :: rest)).
Proof.
  assert (HG : forall g, http_of_gossip g = Some a <-> exists x ip rest, a = HTTP ++ ip ++ PORT /\ SLASH ∉ x /\ SLASH ∉ ip /\
     (g = x ++ SLASH :: IP4 ++ SLASH :: ip \/ g = x ++ SLASH :: IP4 ++ SLASH :: ip ++ SLASH :: rest)).
  { assert (NI : SLASH ∉ IP4) by (unfold SLASH, IP4; rewrite !elem_of_cons, elem_of_nil; intros [?|[?|[?|[]]]]; discriminate).
    intros g. unfold http_of_gossip. destruct (split_spec SLASH g) as [J F]. split.
    - destruct (Auth.split SLASH g) as [|x [|y [|ip r]]] eqn:E; try discriminate. destruct (bool_decide (y = IP4)) eqn:B; [|discriminate].
      apply bool_decide_eq_true in B as ->. intros H. injection H as <-. inversion_clear F as [|? ? Fx F1]. inversion_clear F1 as [|? ? _ F2].
      inversion_clear F2 as [|? ? Fi F3]. exists x, ip, (AuthProofs.join SLASH r). split; [done|]. split; [done|]. split; [done|]. destruct r as [|z r].
      + left. by rewrite <- J.
      + right. rewrite <- J. done.
    - intros (x & ip & rest & -> & Nx & Nip & [->| ->]).
      + rewrite split_app by done. rewrite split_app by done. rewrite split_free by done. by rewrite bool_decide_eq_true_2.
      + rewrite split_app by done. rewrite split_app by done. rewrite split_app by done. by rewrite bool_decide_eq_true_2. }
  unfold addr_of. destruct (c_rpc c) as [|b r].
    assert (Q : (match c_gossip c with [] => None | (_ :: _) as g => http_of_gossip g end) = http_of_gossip (c_gossip c)) by (by destruct (c_gossip c)).
    rewrite Q, HG. split; [intros H; right; tauto|]. intros [[H _]|[_ H]]; [congruence|tauto].
  - split; [intros H; left; split; congruence|]. intros [[_ H]|[H _]]; [congruence|discriminate].
Qed.
(** Thirty minutes after a failed question the peer's contacts are ignored, then heard again. *)
Theorem C110_cooldown height i t p a now c d : d_tasks d !! i = Some (p, a, Asked) -> c_pid c = Some p -> t <= now ->
  let d' := answer height i t None d in
  (now < t + COOLDOWN -> see now c d' = d') /\
  (t + COOLDOWN <= now -> forall b, addr_of c = Some b -> d_tasks (see now c d') = d_tasks d' ++ [(p, b, Spawned)]).
Proof.
  intros T P L. cbv zeta. unfold answer. rewrite T. unfold see. rewrite P. cbn [d_cool]. rewrite lookup_insert. split.
  - intros H. destruct (addr_of c); [|done]. by replace (now - t <? COOLDOWN) with true by lia.
  - intros H b ->. by replace (now - t <? COOLDOWN) with false by lia.
Qed.
(** Peers are added one at a time: no address twice. *)
Theorem C110_one_by_one_partial height first (l : list (N * contact * option (list N))) :
  NoDup (d_addrs (foldl (whole height) (disc0 first) l)).
Proof.
  induction l as [|x l IH] using rev_ind; [apply NoDup_singleton|]. rewrite foldl_app. cbn [foldl]. by apply whole_nodup.
Qed.
(** In general not: one peer, heard twice before it has answered, is added twice (and gets twice its share of the work). *)
Theorem C110_twice_refuted height first c p a t hs : c_pid c = Some p -> addr_of c = Some a -> a <> first -> height ∈ hs ->
  d_addrs (drun height first [ESee t c; ESee t c; ECheck 0; ECheck 1; EAnswer 0 t (Some hs); EAnswer 1 t (Some hs)]) = [first; a; a].
Proof.
  intros P A N H. assert (NI : a ∉ [first]) by (by rewrite elem_of_list_singleton).
  unfold drun. cbn [foldl dstep]. unfold see at 2. rewrite P, A. cbn [disc0 d_cool d_tasks d_addrs app]. rewrite lookup_empty.
  unfold see. rewrite P, A. cbn [d_cool d_tasks d_addrs app]. rewrite lookup_empty.
  unfold check at 2. cbn [d_cool d_tasks d_addrs lookup list_lookup]. rewrite bool_decide_eq_false_2 by done.
  unfold check. cbn [d_cool d_tasks d_addrs lookup list_lookup insert list_insert]. rewrite bool_decide_eq_false_2 by done.
  unfold answer at 2. cbn [d_cool d_tasks d_addrs lookup list_lookup insert list_insert]. rewrite bool_decide_eq_true_2 by done.
  unfold answer. cbn [d_cool d_tasks d_addrs lookup list_lookup insert list_insert]. rewrite bool_decide_eq_true_2 by done. done.
Qed.
(** A peer without the height is not put aside: it is asked again at its very next contact. *)
Theorem C110_unfit_refuted height i t p a now c b hs d : d_tasks d !! i = Some (p, a, Asked) -> d_cool d !! p = None -> height ∉ hs ->
  c_pid c = Some p -> addr_of c = Some b ->
  let d' := answer height i t (Some hs) d in d_cool d' = d_cool d /\ d_tasks (see now c d') = d_tasks d' ++ [(p, b, Spawned)].
Proof.
  intros T C H P A. cbv zeta. unfold answer. rewrite T. rewrite bool_decide_eq_false_2 by done. split; [done|]. unfold see. rewrite P, A.
  cbn [d_cool]. by rewrite C.
Qed.
(** The peer id is whatever the contact claims: a contact in somebody else's name with an address nobody answers at silences them. *)
Theorem C110_silenced_refuted height first victim bad good t now : bad <> [] -> bad <> first -> t <= now -> now < t + COOLDOWN ->
  let forged := Contact (Some victim) bad [] in let own := Contact (Some victim) good [] in
  d_addrs (drun height first [ESee t forged; ECheck 0; EAnswer 0 t None; ESee now own; ECheck 1; EAnswer 1 now (Some [height])]) = [first].
Proof.
  intros Nb Nf L1 L2. cbv zeta. assert (NI : bad ∉ [first]) by (by rewrite elem_of_list_singleton).
  unfold drun. cbn [foldl dstep]. destruct bad as [|x bad]; [done|].
  unfold see at 2. cbn [c_pid addr_of c_rpc]. cbn [disc0 d_cool d_tasks d_addrs app]. rewrite lookup_empty.
  unfold check at 2. cbn [d_cool d_tasks d_addrs lookup list_lookup insert list_insert]. rewrite bool_decide_eq_false_2 by done.
  unfold answer at 2. cbn [d_cool d_tasks d_addrs lookup list_lookup insert list_insert].
  match goal with |- context [see now ?c ?d] => assert (S : see now c d = d) end.
  { unfold see. cbn [c_pid d_cool]. destruct (addr_of _); [|done]. rewrite lookup_insert. by replace (now - t <? COOLDOWN) with true by lia. }
  rewrite S. done.
Qed.

(** The peer asked for a part is one of the addresses, and it stays the one for that part, whoever else is found. *)
Theorem C110_pick ok m v a m' : mok m -> pick ok m v = (PPeer a, m') ->
  mok m' /\ a ∈ m_addrs m /\ forall ok' more, pick ok' (foldr madd m' more) v = (PPeer a, foldr madd m' more).
Proof.
  intros M H. destruct (pick_ok _ _ _ _ _ M H) as (M' & A & R). destruct (R a eq_refl) as (R1 & R2 & R3). split; [done|]. split; [done|].
  intros ok' more. assert (Q : m_aff (foldr madd m' more) = m_aff m' /\ m_conn (foldr madd m' more) = m_conn m') by (induction more as [|x l [I1 I2]]; auto).
  destruct Q as [Q1 Q2]. unfold pick. rewrite Q1, R2, Q2. by rewrite bool_decide_eq_true_2.
Qed.
Theorem C110_pick_start first : mok (mgr0 first). Proof. split; cbn; [set_solver|]. intros v a H. by rewrite lookup_empty in H. Qed.
(** Parts are dealt out in turn. *)
Theorem C110_turns ok m v : m_aff m !! v = None -> m_addrs m <> [] -> (forall a, ok a = true) ->
  exists a m', pick ok m v = (PPeer a, m') /\ m_addrs m !! N.to_nat (v mod N.of_nat (length (m_addrs m))) = Some a.
Proof.
  intros A N O. unfold pick. rewrite A. destruct (m_addrs m !! _) as [a|] eqn:E.
  - destruct (bool_decide (a ∈ m_conn m)); [eauto|]. rewrite O. eauto.
  - apply lookup_ge_None in E. assert (length (m_addrs m) <> 0%nat) by (by destruct (m_addrs m)).
    pose proof (N.mod_lt v (N.of_nat (length (m_addrs m))) ltac:(lia)). lia.
Qed.
(** No peer takes over for one that is down: the part's turn fails for as long as the addresses are the same. *)
Theorem C110_down_refuted ok m v a : m_aff m !! v = None -> m_addrs m !! N.to_nat (v mod N.of_nat (length (m_addrs m))) = Some a ->
  a ∉ m_conn m -> ok a = false -> pick ok m v = (PErr, m).
Proof. intros A E C O. unfold pick. rewrite A, E. rewrite bool_decide_eq_false_2 by done. by rewrite O. Qed.
(** After [close] every further question panics (an index modulo the number of addresses, none). *)
Theorem C110_closed_refuted ok m v : pick ok (mclose m) v = (PPanic, mclose m).
Proof. done. Qed.

Definition ex_c1 : contact := Contact (Some [1]) [97] [].
Definition ex_c2 : contact := Contact (Some [2]) [] [47; 105; 112; 52; 47; 49; 47; 117].
Example C110_ex :
  addr_of ex_c2 = Some (HTTP ++ [49] ++ PORT) /\
  d_addrs (drun 7 [0] [ESee 0 ex_c1; ECheck 0; EAnswer 0 0 (Some [6; 7]); ESee 5 ex_c2; ECheck 1; EAnswer 1 6 None; ESee 9 ex_c2; ECheck 2])
    = [[0]; [97]] /\
  d_tasks (drun 7 [0] [ESee 5 ex_c2; ECheck 0; EAnswer 0 6 None; ESee 1805 ex_c2]) = [([2], HTTP ++ [49] ++ PORT, Done)] /\
  length (d_tasks (drun 7 [0] [ESee 5 ex_c2; ECheck 0; EAnswer 0 6 None; ESee 1806 ex_c2])) = 2%nat /\
  fst (pick (fun _ => true) (madd [5] (mgr0 [4])) 3) = PPeer [5] /\ fst (pick (fun _ => true) (madd [5] (mgr0 [4])) 4) = PPeer [4] /\
  fst (pick (fun _ => false) (mgr0 [4]) 3) = PErr.
Proof. repeat split; vm_compute; reflexivity. Qed.

(** * C111 *)
(** The store is left alone, or gets exactly the source's event of that number - a heartbeat, and the next in line. *)
Theorem C111_next src tgt n m : keyed src -> reconcile src tgt n = FStore m ->
  m = tgt \/ exists d mx, src !! n = Some (Some d) /\ b_heart d = true /\ b_seq d = n /\ max_seq tgt = Some mx /\ n = mx + 1 /\ m = <[n := Some d]> tgt.
Proof.
  intros K H. unfold reconcile in H. destruct (src !! n) as [[d|]|] eqn:E; [|discriminate|left; congruence].
  destruct (K _ _ E) as (d' & Q & S). injection Q as <-. destruct (b_heart d) eqn:B; [|left; congruence]. destruct (max_seq tgt) as [mx|]; [|discriminate].
  destruct (mx + 1 =? b_seq d) eqn:L; [|left; congruence]. right. exists d, mx. rewrite S in *. repeat split; try done; [lia|congruence].
Qed.
(** Nothing stored is changed. *)
Theorem C111_kept src tgt n m k x : keyed src -> keyed tgt -> reconcile src tgt n = FStore m -> tgt !! k = Some x -> m !! k = Some x.
Proof.
  intros Ks Kt H T. destruct (C111_next _ _ _ _ Ks H) as [->|(d & mx & _ & _ & _ & M & -> & ->)]; [done|].
  destruct (max_seq_keyed tgt Kt) as (mx' & M' & U & _). assert (mx' = mx) as -> by congruence.
  assert (k <= mx) by (apply U; eauto). by rewrite lookup_insert_ne by lia.
Qed.
(** Numbers stay without gaps, and doing it again changes nothing. *)
Theorem C111_gapless src tgt n m N0 : keyed src -> keyed tgt -> gapless tgt N0 -> reconcile src tgt n = FStore m ->
  keyed m /\ (gapless m N0 \/ (n = N0 + 1 /\ gapless m (N0 + 1))) /\ reconcile src m n = FStore m.
Proof.
  intros Ks Kt G H. pose proof (C111_next _ _ _ _ Ks H) as [->|(d & mx & S & B & Q & M & E & ->)]; [split; [done|]; split; [by left|done]|].
  rewrite (max_seq_gapless _ _ Kt G) in M. injection M as <-.
  assert (K' : keyed (<[n := Some d]> tgt)).
  { intros k x X. destruct (decide (k = n)) as [->|Nk]; [rewrite lookup_insert in X; injection X as <-; eauto|]. rewrite lookup_insert_ne in X by done. eauto. }
  assert (G' : gapless (<[n := Some d]> tgt) (N0 + 1)).
  { intros k. destruct (decide (k = n)) as [->|Nk]; [rewrite lookup_insert; split; [lia|eauto]|]. rewrite lookup_insert_ne by done. rewrite (G k). lia. }
  split; [done|]. split; [right; done|]. unfold reconcile. rewrite S, B, (max_seq_gapless _ _ K' G'). by replace (N0 + 1 + 1 =? b_seq d) with false by lia.
Qed.
(** The missing next heartbeat does get in. *)
Theorem C111_filled src tgt N0 d : keyed src -> keyed tgt -> gapless tgt N0 -> src !! (N0 + 1) = Some (Some d) -> b_heart d = true ->
  reconcile src tgt (N0 + 1) = FStore (<[N0 + 1 := Some d]> tgt).
Proof.
  intros Ks Kt G S B. destruct (Ks _ _ S) as (d' & Q & E). injection Q as <-. unfold reconcile. rewrite S, B, (max_seq_gapless _ _ Kt G), E.
  by rewrite N.eqb_refl.
Qed.
(** A hole below the greatest number is never filled. *)
Theorem C111_hole_refuted src tgt n k : keyed src -> keyed tgt -> is_Some (tgt !! k) -> n <= k -> src !! n <> Some None -> reconcile src tgt n = FStore tgt.
Proof.
  intros Ks Kt I L P. destruct (max_seq_keyed tgt Kt) as (mx & M & U & _). pose proof (U _ I). unfold reconcile.
  destruct (src !! n) as [[d|]|] eqn:E; [|done|done]. destruct (b_heart d); [|done]. rewrite M. destruct (Ks _ _ E) as (d' & Q & S).
  injection Q as <-. by replace (mx + 1 =? b_seq d) with false by lia.
Qed.
(** A source event without data stops the node at start. *)
Theorem C111_panic src tgt n : reconcile src tgt n = FPanic <-> src !! n = Some None.
Proof.
  unfold reconcile. destruct (src !! n) as [[d|]|]; [|done|done]. split; [|done]. destruct (b_heart d); [|done]. destruct (max_seq tgt); [|done].
  by destruct (_ =? _).
Qed.
Definition ex_b (h : bool) (n : N) : option bdata := Some (BData h n [n]).
Definition ex_src : bstore := <[1 := ex_b true 1]> (<[2 := ex_b true 2]> (<[3 := ex_b false 3]> ∅)).
Example C111_ex :
  keyed ex_src /\ gapless (<[1 := ex_b true 1]> ∅) 1 /\
  (exists m, reconcile ex_src (<[1 := ex_b true 1]> ∅) 2 = FStore m /\ m !! 2 = Some (ex_b true 2)) /\
  (exists m, reconcile ex_src (<[1 := ex_b true 1]> ∅) 3 = FStore m /\ m !! 3 = None).
Proof.
  split; [|split; [|split]].
  - intros k x H. unfold ex_src in H. repeat (apply lookup_insert_Some in H as [[<- <-]|[_ H]]; [eexists; split; reflexivity|]). by rewrite lookup_empty in H.
  - intros k. split.
    + intros [x H]. apply lookup_insert_Some in H as [[<- _]|[_ H]]; [lia|by rewrite lookup_empty in H].
    + intros H. replace k with 1 by lia. rewrite lookup_insert. eauto.
  - eexists. split; vm_compute; reflexivity.
  - eexists. split; vm_compute; reflexivity.
Qed.

(** * C112 *)
Section C112.
  Variable net : network.
  Variable block_at : N -> option (option blk).
  Variable snaps_of : N -> option (list (N * N * N)).
  Variable chunk_at : N -> N -> option (option bytes).
  Notation serve := (serve_metadata net block_at snaps_of chunk_at).
  (** A shard with data: every snapshot the node keeps, in order, each with the chunk of its height; or nothing at all. *)
  Theorem C112_snapshots shard l : shard <> 0 -> serve shard = Some l <->
    exists ss, snaps_of shard = Some ss /\ Forall2 (fun s x => exists c, chunk_at shard (fst (fst s)) = Some c /\
      x = Snap shard (fst (fst s)) (snd (fst s)) (snd s) None c) ss l.
  Proof.
    intros N. unfold serve_metadata. replace (shard =? 0) with false by lia.
    assert (W : forall ss l, with_chunks chunk_at shard ss = Some l <-> Forall2 (fun s x => exists c, chunk_at shard (fst (fst s)) = Some c /\
      x = Snap shard (fst (fst s)) (snd (fst s)) (snd s) None c) ss l).
    { clear l. induction ss as [|[[h t] n] ss IH]; intros l; cbn [with_chunks].
      - split; [intros H; injection H as <-; constructor|]. intros H. by inversion H.
      - split.
        + destruct (chunk_at shard h) as [c|] eqn:C; [|discriminate]. destruct (with_chunks chunk_at shard ss) as [r|]; [|discriminate].
          intros H. injection H as <-. constructor; [cbn; eauto|]. by apply IH.
        + intros H. inversion H as [|? x ? r (c & C & ->) F]; subst. cbn in C. rewrite C. apply IH in F. by rewrite F. }
    destruct (snaps_of shard) as [ss|]; [|split; [discriminate|intros (? & H & _); discriminate]]. rewrite W.
    split; [eauto|]. intros (ss' & H & F). congruence.
  Qed.
  (** One unreadable chunk hides all snapshots of the shard. *)
  Theorem C112_all_or_nothing shard ss s : shard <> 0 -> snaps_of shard = Some ss -> s ∈ ss -> chunk_at shard (fst (fst s)) = None -> serve shard = None.
  Proof.
    intros N S I C. destruct (serve shard) as [l|] eqn:E; [|done]. apply C112_snapshots in E as (ss' & S' & F); [|done].
    assert (ss' = ss) as -> by congruence. apply elem_of_list_lookup in I as [i I]. destruct (Forall2_lookup_l _ _ _ _ _ F I) as (x & _ & c & C' & _). congruence.
  Qed.
  (** The copying node takes the highest of them. *)
  Theorem C112_highest shard h : client_height net block_at snaps_of chunk_at shard = Some h ->
    exists l x, serve shard = Some l /\ x ∈ l /\ sn_height x = h /\ forall y, y ∈ l -> sn_height y <= h.
  Proof.
    unfold client_height. destruct (serve shard) as [l|]; [|discriminate]. intros H. exists l. unfold highest in H.
    pose proof (highest_acc (map (fun s => (sn_height s, s)) l) None) as A. destruct (foldl _ None _) as [[h' x]|]; [|discriminate].
    injection H as <-. destruct A as ([A|A] & U & _); [discriminate|]. cbn [fst] in *.
    apply elem_of_list_fmap in A as (y & E & I). injection E as -> ->. exists y. split; [done|]. split; [done|]. split; [done|].
    intros z Hz. apply (U (sn_height z, z)). apply elem_of_list_fmap. eauto.
  Qed.
  (** Shard 0: the block at the fixed height, if blocks stand at their heights. *)
  Theorem C112_shard0 b h t body : block_at (shard0_height net) = Some (Some b) -> b = Blk (Some (Some h, t)) body -> h = shard0_height net ->
    serve 0 = Some [Snap 0 (shard0_height net) t 0 (Some b) None] /\ client_height net block_at snaps_of chunk_at 0 = Some (shard0_height net).
  Proof. intros B -> ->. unfold client_height, serve_metadata. cbn [N.eqb]. rewrite B. done. Qed.
  (** A node that does not have that block still answers, with height 0: the copying node starts at genesis, and cannot tell this
      from an answer. *)
  Theorem C112_genesis_refuted : block_at (shard0_height net) = Some None ->
    serve 0 = Some [Snap 0 0 0 0 None None] /\ client_height net block_at snaps_of chunk_at 0 = Some 0.
  Proof. intros B. unfold client_height, serve_metadata. cbn [N.eqb]. by rewrite B. Qed.
  (** A part is a byte, and it is not cut to one. *)
  Theorem C112_part part : (serve_part part = Some part <-> part < 256) /\ (serve_part part = None <-> 256 <= part).
  Proof. unfold serve_part. destruct (255 <? part) eqn:E; split; split; try done; lia. Qed.
End C112.
Example C112_ex :
  let snaps := fun s : N => Some [(5, 50, 1); (9, 90, 2)] in let chunk := fun s h : N => Some (Some [h]) in
  serve_metadata Mainnet (fun _ => None) snaps chunk 1 = Some [Snap 1 5 50 1 None (Some [5]); Snap 1 9 90 2 None (Some [9])] /\
  client_height Mainnet (fun _ => None) snaps chunk 1 = Some 9 /\
  serve_metadata Mainnet (fun _ => None) snaps (fun s h => if h =? 5 then None else Some None) 1 = None /\
  client_height Testnet (fun h => Some (Some (Blk (Some (Some h, 3)) []))) snaps chunk 0 = Some 13302000.
Proof. repeat split; vm_compute; reflexivity. Qed.

(** * C113 *)
(** Whatever is asked in whatever order: a page is handed out for a part and a token only if a peer gave it for exactly these (an
    empty token is none). *)
Theorem C113_faithful srv n reqs gs c : gets srv n reqs cache0 = (gs, c) ->
  Forall2 (fun r g => forall p, g = GPage p -> exists k tok, srv k (fst r) tok = Some p /\ norm tok = norm (snd r)) reqs gs.
Proof.
  assert (G : forall reqs c0 gs c, cok srv c0 -> gets srv n reqs c0 = (gs, c) ->
    Forall2 (fun r g => forall p, g = GPage p -> exists k tok, srv k (fst r) tok = Some p /\ norm tok = norm (snd r)) reqs gs).
  { clear. induction reqs as [|[v tok] reqs IH]; intros c0 gs c C H; cbn [gets] in H; [injection H as <- _; constructor|].
    destruct (get srv n v tok c0) as [g c1] eqn:E1. destruct (gets srv n reqs c1) as [gs' c2] eqn:E2. injection H as <- _.
    destruct (get_ok _ _ _ _ _ _ _ C E1) as [C1 R]. constructor; [exact R|]. eapply IH; [exact C1|exact E2]. }
  intros H. eapply G; [|exact H]. intros v t p X. cbn in X. by rewrite lookup_empty in X.
Qed.
(** Peers that always say the same are seen as if there were no cache. *)
Theorem C113_transparent (ask : N -> option bytes -> option page) n reqs : n <> 0%nat -> (forall v, ask v (Some []) = ask v None) ->
  fst (gets (fun _ => ask) n reqs cache0) = map (fun r => match ask (fst r) (snd r) with Some p => GPage p | None => GErr end) reqs.
Proof.
  intros N A. set (srv := fun _ : nat => ask).
  assert (AT : forall m k v tok, fst (attempts srv m k v tok) = if Nat.eqb m 0 then None else ask v tok).
  { induction m as [|m IH]; intros k v tok; [done|]. cbn. unfold srv at 1. destruct (ask v tok) as [p|] eqn:E; [done|]. rewrite IH. destruct m; cbn; congruence. }
  assert (NZ : Nat.eqb n 0 = false) by lia.
  assert (AN : forall v tok, ask v (norm tok) = ask v tok) by (intros v [[|]|]; cbn [norm]; congruence).
  set (rows := fun c : cache => forall v t r, ca_rows c !! (v, t) = Some r -> r = ask v (Some t)).
  assert (AH : forall v nx c, rows c -> rows (ahead srv n v nx c)).
  { intros v nx c R. unfold ahead. destruct (norm nx) as [t|]; [|done]. pose proof (AT n (ca_calls c) v (Some t)) as Q.
    destruct (attempts srv n _ v (Some t)) as [r k]. cbn [fst] in Q. rewrite NZ in Q. subst. intros w u x H. cbn in H.
    destruct (decide ((w, u) = (v, t))) as [E|D]; [injection E as -> ->; rewrite lookup_insert in H; congruence|].
    rewrite lookup_insert_ne in H by congruence. by apply R. }
  assert (ST : forall v tok c, rows c -> fst (get srv n v tok c) = (match ask v tok with Some p => GPage p | None => GErr end) /\ rows (snd (get srv n v tok c))).
  { intros v tok c R.
    assert (MISS : forall x : got * cache, x = (match n with O => (GPanic, c) | _ => let '(r, k) := attempts srv n (ca_calls c) v tok in let c' := Cache (ca_rows c) k in
       match r with Some p => (GPage p, ahead srv n v (pg_next p) c') | None => (GErr, c') end end) ->
       fst x = (match ask v tok with Some p => GPage p | None => GErr end) /\ rows (snd x)).
    { intros x ->. destruct n as [|n']; [done|]. pose proof (AT (S n') (ca_calls c) v tok) as Q. destruct (attempts srv (S n') _ v tok) as [r k].
      cbn [fst Nat.eqb] in Q. subst. cbv zeta. destruct (ask v tok); [|done]. split; [done|]. apply AH. exact R. }
    unfold get. cbv zeta. destruct (norm tok) as [t|] eqn:E; [|by apply MISS]. destruct (ca_rows c !! (v, t)) as [r|] eqn:X; [|by apply MISS].
    pose proof (R _ _ _ X) as Q. rewrite <- E, AN in Q. subst r.
    assert (RD : rows (Cache (delete (v, t) (ca_rows c)) (ca_calls c))) by (intros w u x H; cbn in H; apply lookup_delete_Some in H as [_ H]; by apply R).
    destruct (ask v tok); [|done]. split; [done|]. by apply AH. }
  assert (G : forall c, rows c -> fst (gets srv n reqs c) = map (fun r => match ask (fst r) (snd r) with Some p => GPage p | None => GErr end) reqs).
  { induction reqs as [|[v tok] reqs IH]; intros c R; [done|]. cbn [gets map fst snd]. destruct (ST v tok c R) as [S1 S2].
    destruct (get srv n v tok c) as [g c1]. cbn [fst snd] in S1, S2. specialize (IH c1 S2). destruct (gets srv n reqs c1) as [gs c2]. cbn [fst] in *. congruence. }
  apply G. intros v t r H. cbn in H. by rewrite lookup_empty in H.
Qed.
(** An error fetched ahead is told once; the next question goes to the peer again. *)
Theorem C113_again srv n v t c : ca_rows c !! (v, t) = Some None -> t <> [] -> n <> 0%nat ->
  fst (get srv n v (Some t) c) = GErr /\ ca_rows (snd (get srv n v (Some t) c)) !! (v, t) = None /\
  (forall p, srv (ca_calls c) v (Some t) = Some p -> fst (get srv n v (Some t) (snd (get srv n v (Some t) c))) = GPage p).
Proof.
  intros H T N. assert (E : norm (Some t) = Some t) by (by destruct t).
  assert (G : get srv n v (Some t) c = (GErr, Cache (delete (v, t) (ca_rows c)) (ca_calls c))) by (unfold get; cbv zeta; by rewrite E, H).
  rewrite G. cbn [fst snd ca_rows]. split; [done|]. split; [apply lookup_delete|]. intros p P. unfold get. cbv zeta. rewrite E. cbn [ca_rows].
  rewrite lookup_delete. destruct n as [|n]; [done|]. cbn [attempts ca_calls]. by rewrite P.
Qed.
(** As many attempts as configured before a question fails. *)
Theorem C113_retries srv n v tok c : norm tok = None -> n <> 0%nat -> fst (get srv n v tok c) = GErr ->
  forall j, (ca_calls c <= j < ca_calls c + n)%nat -> srv j v tok = None.
Proof.
  intros T N H. unfold get in H. cbv zeta in H. rewrite T in H. destruct n as [|n]; [done|]. destruct (attempts srv (S n) (ca_calls c) v tok) as [[p|] k] eqn:E; [done|].
  eapply attempts_none. exact E.
Qed.
(** With no retries configured the first question panics. *)
Theorem C113_zero_refuted srv v tok : get srv 0 v tok cache0 = (GPanic, cache0).
Proof. unfold get. cbv zeta. cbn [cache0 ca_rows]. destruct (norm tok); [rewrite lookup_empty|]; done. Qed.
Example C113_ex :
  let srv := fun (k : nat) (v : N) (tok : option bytes) =>
    match tok with None => Some (Page [1] (Some [7])) | Some _ => if Nat.eqb k 1 then None else Some (Page [2] None) end in
  fst (gets srv 1 [(3, None); (3, Some [7]); (3, Some [7])] cache0) = [GPage (Page [1] (Some [7])); GErr; GPage (Page [2] None)] /\
  fst (gets srv 2 [(3, None); (3, Some [7])] cache0) = [GPage (Page [1] (Some [7])); GPage (Page [2] None)].
Proof. split; vm_compute; reflexivity. Qed.
Print Assumptions C110_holders.
Print Assumptions C110_grow.
Print Assumptions C110_address.
Print Assumptions C110_cooldown.
Print Assumptions C110_one_by_one_partial.
Print Assumptions C110_twice_refuted.
Print Assumptions C110_unfit_refuted.
Print Assumptions C110_silenced_refuted.
Print Assumptions C110_pick.
Print Assumptions C110_pick_start.
Print Assumptions C110_turns.
Print Assumptions C110_down_refuted.
Print Assumptions C110_closed_refuted.
Print Assumptions C111_next.
Print Assumptions C111_kept.
Print Assumptions C111_gapless.
Print Assumptions C111_filled.
Print Assumptions C111_hole_refuted.
Print Assumptions C111_panic.
Print Assumptions C112_snapshots.
Print Assumptions C112_all_or_nothing.
Print Assumptions C112_highest.
Print Assumptions C112_shard0.
Print Assumptions C112_genesis_refuted.
Print Assumptions C112_part.
Print Assumptions C113_faithful.
Print Assumptions C113_transparent.
Print Assumptions C113_again.
Print Assumptions C113_retries.
Print Assumptions C113_zero_refuted.
