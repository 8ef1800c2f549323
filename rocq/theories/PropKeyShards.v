(** C120, C121: gasless keys across shards, and reading signers. *)
From Verif Require Import KeyShardsProofs PropGasless.
From Coq Require Import ZifyN ZifyNat ZifyBool.
#[local] Open Scope N_scope.

(** ** C120: a key has the same standing on every shard *)

(** Shard 0's keys after the messages of a list, by themselves. *)
Definition after meta ra rr (l : list (genv * kmsg)) : gst := (grun meta ra rr g_init (map (fun x => as_op x.1 false x.2) l)).1.

(** What a data shard with the accounts [mine] holds, at any time: the keys of its accounts as they stood after the block events
    taken so far, with count and custody counter; nothing of other accounts. If each block event finds the account as shard 0
    found it ([agreed]). *)
Theorem C120_lagging meta ra rr mine os y outs :
  srun meta ra rr sys_init os = (y, outs) -> agreed meta ra rr mine sys_init os ->
  exists z, z = after meta ra rr (firstn (y_pos y) (y_log y)) /\
  forall f k, if mine (f mod 2 ^ 32) then
      g_rec (y_data y) !! (f mod 2 ^ 32, k) = g_rec z !! (f mod 2 ^ 32, k) /\ count_of (g_cnt (y_data y)) f = count_of (g_cnt z) f /\
      nonce_of (g_un (y_data y)) f = nonce_of (g_un z) f
    else g_rec (y_data y) !! (f mod 2 ^ 32, k) = None.
Proof.
  intros E A. pose proof (Inv_run meta ra rr mine os sys_init (Inv_init meta ra rr mine) A) as (_ & _ & I3 & _). rewrite E in I3. cbn [fst] in I3.
  eexists. split; [reflexivity|]. intros f k. destruct I3 as (R1 & R2 & R3 & R4 & R5). change (f mod 2 ^ 32) with (w32 f).
  destruct (mine (w32 f)) eqn:M; [|rewrite R1, M; reflexivity]. rewrite R1, M. unfold count_of, nonce_of. rewrite R3, R4 by exact M. repeat split.
Qed.
(** And once it has taken them all: what shard 0 holds now, so both shards give the same answer about a key. *)
Theorem C120_same_standing meta ra rr mine os y outs :
  srun meta ra rr sys_init os = (y, outs) -> agreed meta ra rr mine sys_init os -> y_pos y = length (y_log y) ->
  forall e f k, mine (f mod 2 ^ 32) = true ->
    active_key e (y_data y) f k = active_key e (y_zero y) f k /\ count_of (g_cnt (y_data y)) f = count_of (g_cnt (y_zero y)) f /\
    nonce_of (g_un (y_data y)) f = nonce_of (g_un (y_zero y)) f.
Proof.
  intros E A P e f k M. pose proof (Inv_run meta ra rr mine os sys_init (Inv_init meta ra rr mine) A) as (S & _ & I3 & _). rewrite E in S, I3. cbn [fst] in *.
  rewrite P, List.firstn_all in I3. destruct I3 as (R1 & R2 & R3 & R4 & R5). destruct S as (S1 & S2 & S3 & S4 & S5). change (f mod 2 ^ 32) with (w32 f) in M.
  unfold active_key, count_of, nonce_of. rewrite R1, M, R3, R4 by exact M. rewrite S1, S3, S4. repeat split.
Qed.

(** Each type of message is looked at on one of the two shards only: verifications (7, 8), lends (15) and channel messages (18 to 21) on
    shard 0, all others on the account's. *)
Theorem C120_one_place meta ra rr y e u bt :
  ((sstep meta ra rr y (OUseZero e u bt)).2 = SWrongShard <-> ~ (ku_type u = 7 \/ ku_type u = 8 \/ ku_type u = 15 \/ 18 <= ku_type u <= 21)) /\
  ((sstep meta ra rr y (OUse e u bt)).2 = SWrongShard <-> ku_type u = 7 \/ ku_type u = 8 \/ ku_type u = 15 \/ 18 <= ku_type u <= 21).
Proof.
  assert (Z : zero_type (ku_type u) = true <-> ku_type u = 7 \/ ku_type u = 8 \/ ku_type u = 15 \/ 18 <= ku_type u <= 21) by (unfold zero_type; cbn [existsb]; lia).
  assert (N : forall x, as_sout x <> SWrongShard) by (intros [?|?]; discriminate). cbn [sstep]. destruct (zero_type (ku_type u)).
  - split; [|split; [intros _; apply Z; reflexivity|reflexivity]]. destruct (gstep _ _ _ _ _) as [z x]. cbn [snd]. split; [intros H; destruct (N x H)|]. intros H. destruct (H (proj1 Z eq_refl)).
  - split; [split; [intros _ H; apply Z in H; discriminate|reflexivity]|]. destruct (gstep _ _ _ _ _) as [z x]. cbn [snd]. split; [intros H; destruct (N x H)|]. intros H. apply Z in H. discriminate.
Qed.

(** [agreed], computed. *)
Fixpoint agreedb meta ra rr (mine : N -> bool) (y : sys) (os : list sop) : bool :=
  match os with
  | [] => true
  | o :: r =>
      match o with
      | OReplay e =>
          match nth_error (y_log y) (y_pos y) with
          | Some (e0, m) =>
              if mine (w32 (kfid m)) then bool_decide (ge_custody e (kfid m) = ge_custody e0 (kfid m)) && eqb (ge_signer e (kfid m) (kkey m)) (ge_signer e0 (kfid m) (kkey m))
              else bool_decide (ge_custody e (kfid m) = None)
          | None => true
          end
      | ODirect _ _ => false
      | _ => true
      end && agreedb meta ra rr mine (sstep meta ra rr y o).1 r
  end.
Lemma agreedb_agreed meta ra rr mine os : forall y, agreedb meta ra rr mine y os = true -> agreed meta ra rr mine y os.
Proof.
  induction os as [|o os IH]; intros y H; [exact I|]. cbn [agreedb] in H. apply andb_prop in H as [H1 H2]. cbn [agreed]. split; [|apply IH; exact H2].
  destruct o; try exact I; try discriminate. destruct (nth_error _ _) as [[e0 m]|]; [|exact I]. unfold agree. destruct (mine (w32 (kfid m))).
  - apply andb_prop in H1 as [A B]. split; [exact (bool_decide_eq_true_1 _ A)|exact (eqb_prop _ _ B)].
  - exact (bool_decide_eq_true_1 _ H1).
Qed.

(** Without agreement: a block event that finds another owner is dropped for good. *)
Theorem C120_dropped meta ra rr y e e0 m :
  nth_error (y_log y) (y_pos y) = Some (e0, KA m) -> ge_custody e (ka_fid m) <> ra m ->
  exists err, sstep meta ra rr y (OReplay e) = (Sys (y_zero y) (y_log y) (y_data y) (S (y_pos y)), SRefused err).
Proof.
  intros En C. cbn [sstep]. rewrite En. cbn [as_op gstep negb andb].
  destruct (merge_key_add meta ra e true (y_data y) m) as [err|[s' d]] eqn:E; [exists err; reflexivity|].
  destruct (add_spec _ _ _ _ _ _ _ _ E) as (? & ? & ? & _ & _ & _ & Er & _). congruence.
Qed.
(** The account changed hands between shard 0's block and the data shard's: shard 0 still takes the key's messages, the data
    shard never does. *)
Definition xsold : genv := GEnv (fun f => if f =? 7 then Some [99] else Some [f]) (fun _ _ => false).
Definition ykey (f n : N) (scopes : list Z) (ttl c t req : N) : kmsg := KA (KAdd f t (xkey n) scopes ttl c 1 [req; 100000000]).
Definition yuse (f n ty t : N) : kuse := KUse f (xkey n) ty t.
Theorem C120_dropped_refuted :
  (srun xmeta xra xrr sys_init [OKey xenv (ykey 7 1 [1; 7]%Z 5000 1 100 50); OReplay xsold;
     OUse xsold (yuse 7 1 1 200) 200; OUseZero xsold (yuse 7 1 7 200) 200]).2
  = [SAccepted; SRefused EBadSignature; SRefused EMissingSigner; SAccepted].
Proof. vm_compute. reflexivity. Qed.

(** Each shard has its own record of use. Using a key elsewhere does not keep it alive here. *)
Definition about (f : N) (k : bytes) (o : sop) : bool :=
  match o with
  | OKey _ m => bool_decide (w32 (kfid m) = w32 f) && bool_decide (kkey m = k)
  | OUseZero _ u _ => bool_decide (w32 (ku_fid u) = w32 f) && bool_decide (ku_signer u = k)
  | _ => false
  end.
Theorem C120_zero_clock meta ra rr os : forall y f k last, g_last (y_zero y) !! (w32 f, k) = Some last ->
  forallb (fun o => negb (about f k o)) os = true ->
  g_last (y_zero (srun meta ra rr y os).1) !! (w32 f, k) = Some last.
Proof.
  induction os as [|o os IH]; intros y f k last L F; [exact L|]. cbn [forallb] in F. apply andb_prop in F as [F1 F2]. cbn [srun].
  assert (H : g_last (y_zero (sstep meta ra rr y o).1) !! (w32 f, k) = Some last).
  { destruct o as [e m|e|e u bt|e u bt|e m]; cbn [sstep about] in *.
    - assert (N : (w32 (kfid m), kkey m) <> (w32 f, k)).
      { intros [= E1 E2]. rewrite !bool_decide_eq_true_2 in F1 by assumption. discriminate. }
      destruct (gstep meta ra rr (y_zero y) (as_op e false m)) as [z x] eqn:E.
      assert (Z : g_last z !! (w32 f, k) = Some last).
      { destruct m as [m|m]; cbn [as_op gstep] in E.
        - destruct (negb false && _); [injection E as <- _; exact L|]. destruct (merge_key_add meta ra e false (y_zero y) m) as [q|[q1 q2]] eqn:Q; injection E as <- _; [exact L|].
          destruct (add_spec _ _ _ _ _ _ _ _ Q) as (? & ? & ? & _ & _ & _ & _ & _ & _ & _ & _ & _ & _ & El & _). rewrite El, lookup_insert_ne by exact N. exact L.
        - destruct (negb false && _); [injection E as <- _; exact L|]. destruct (merge_key_remove rr e (y_zero y) m) as [q|[q1 q2]] eqn:Q; injection E as <- _; [exact L|].
          destruct (rem_spec _ _ _ _ _ _ Q) as (? & _ & _ & _ & _ & El & _). rewrite El, lookup_delete_ne by exact N. exact L. }
      destruct x; exact Z.
    - destruct (nth_error _ _) as [[e0 m]|]; [|exact L]. destruct (gstep _ _ _ _ _) as [d x]. exact L.
    - assert (N : (w32 (ku_fid u), ku_signer u) <> (w32 f, k)).
      { intros [= E1 E2]. rewrite !bool_decide_eq_true_2 in F1 by assumption. discriminate. }
      destruct (zero_type _); [|exact L]. cbn [gstep]. destruct (use_key e (y_zero y) u bt) as [q|s'] eqn:Q; cbn; [exact L|].
      destruct (use_spec _ _ _ _ _ Q) as [->|(st & _ & _ & ->)]; [exact L|]. cbn. rewrite lookup_insert_ne by exact N. exact L.
    - destruct (zero_type _); [exact L|]. destruct (gstep _ _ _ _ _) as [d x]. exact L.
    - destruct (body_ok m); [|exact L]. destruct (gstep _ _ _ _ _) as [d x]. exact L. }
  destruct (sstep meta ra rr y o) as [y1 x]. specialize (IH y1 f k last H F2). destruct (srun meta ra rr y1 os) as [y2 xs]. exact IH.
Qed.
(** A key in daily use for casts: the data shard takes the next one, shard 0 no longer takes a verification, though both are
    within the key's scopes and 90 days have not passed since its last use. *)
Definition clocks : list sop := [OKey xenv (ykey 7 1 [1; 7]%Z 5000 1 100 50); OReplay xenv; OUse xenv (yuse 7 1 1 4000) 4000; OUse xenv (yuse 7 1 1 8000) 8000].
Theorem C120_two_clocks_refuted :
  agreed xmeta xra xrr (fun _ => true) sys_init clocks /\ (srun xmeta xra xrr sys_init (clocks ++ [OUse xenv (yuse 7 1 1 9000) 9000; OUseZero xenv (yuse 7 1 7 9000) 9000])).2 =
  [SAccepted; SAccepted; SAccepted; SAccepted; SAccepted; SRefused EExpired].
Proof. split; [apply agreedb_agreed; vm_compute; reflexivity|vm_compute; reflexivity]. Qed.

(** A proposer can put a key message into a data shard's block. It is merged like a block event, so the requesting app's account is
    not looked at, shard 0 does not know the key, and what shard 0 admits later under a smaller counter is dropped. *)
Theorem C120_direct_refuted :
  let noapp := GEnv (fun f => if f =? 7 then Some [7] else None) (fun _ _ => false) in
  (srun xmeta xra xrr sys_init [ODirect noapp (ykey 7 1 [1; 7]%Z 5000 9 100 50); OUse noapp (yuse 7 1 1 200) 200; OUseZero noapp (yuse 7 1 7 200) 200;
     OKey noapp (ykey 7 1 [1; 7]%Z 5000 9 100 50); OKey xenv (ykey 7 2 [1; 7]%Z 5000 3 100 50); OReplay xenv; OUse xenv (yuse 7 2 1 200) 200]).2
  = [SAccepted; SAccepted; SRefused EMissingSigner; SRefused ERequestFid; SAccepted; SRefused ENonce; SRefused EMissingSigner].
Proof. vm_compute. reflexivity. Qed.

(** ** C121: what the node tells about a signer is what it accepts *)

Lemma srun_basic meta ra rr os y outs : srun meta ra rr sys_init os = (y, outs) -> Basic y.
Proof. intros E. pose proof (Basic_run meta ra rr os sys_init Basic_init) as B. rewrite E in B. exact B. Qed.

(** Told about exactly the keys whose messages are looked at. *)
Theorem C121_found_iff onchain e s f k : (ge_signer e f k = true <-> is_Some (onchain f k)) ->
  (exists sg, read_signer onchain s f k = RSigner sg) <-> is_Some (active_key e s f k).
Proof.
  intros H. unfold read_signer, active_key. destruct (onchain f k) as [t|] eqn:O.
  - rewrite (proj2 H) by eauto. split; eauto.
  - destruct (ge_signer e f k) eqn:G; [destruct (proj1 H eq_refl); discriminate|].
    destruct (Nat.eqb _ _); cbn [negb]; [|split; [intros [? ?]; discriminate|intros [? ?]; discriminate]].
    destruct (g_rec s !! (w32 f, k)); split; intros [? ?]; try discriminate; eauto.
Qed.
(** On the account's shard a message of the key passes exactly if the key is on chain, or its type is among the scopes told and
    the block's time, in Unix seconds, is not past the expiry told. *)
Theorem C121_told_is_so meta ra rr os y outs onchain e f k sg ty ts bt :
  srun meta ra rr sys_init os = (y, outs) -> (ge_signer e f k = true <-> is_Some (onchain f k)) ->
  read_signer onchain (y_data y) f k = RSigner sg -> ty < 64 -> zero_type ty = false ->
  (sstep meta ra rr y (OUse e (KUse f k ty ts) bt)).2 = SAccepted <->
  sg_source sg = SOnchain \/ (Z.of_N ty ∈ sg_scopes sg /\ exists x, sg_expires sg = Some x /\ bt + 1609459200 <= x).
Proof.
  intros E H Rd T Z. destruct (srun_basic _ _ _ _ _ _ E) as (_ & (_ & GL & _) & _ & LL & _). cbn [sstep ku_type]. rewrite Z. cbn [gstep]. unfold use_key, active_key. cbn [ku_fid ku_signer ku_type ku_ts].
  unfold read_signer in Rd. destruct (onchain f k) as [t|] eqn:O.
  - rewrite (proj2 H) by eauto. injection Rd as <-. cbn. split; auto.
  - destruct (ge_signer e f k) eqn:G; [destruct (proj1 H eq_refl); discriminate|].
    destruct (Nat.eqb (length k) ED25519_LEN); cbn [negb] in *; [|discriminate].
    destruct (g_rec (y_data y) !! (w32 f, k)) as [r|] eqn:Er; [|discriminate].
    assert (HL : is_Some (g_last (y_data y) !! (w32 f, k))) by (apply GL; eauto). destruct HL as [last El]. rewrite El in Rd.
    pose proof (LL _ _ Er) as Tl. injection Rd as <-. unfold gasless_signer, unix, EPOCH. cbn [sg_source sg_scopes sg_expires].
    assert (E0 : (0 <? ka_ttl (r_msg r)) = true) by lia. rewrite E0.
    assert (Ad : admits (AGasless (scopes_mask (ka_scopes (r_msg r))) (ka_ttl (r_msg r))) ty = true <-> Z.of_N ty ∈ ka_scopes (r_msg r)) by (apply admits_spec; exact T).
    destruct (admits _ ty) eqn:Ea; cbn [negb].
    + destruct (N.eqb_spec (ka_ttl (r_msg r)) 0); [lia|]. unfold bump. rewrite El. destruct (N.ltb_spec (last + ka_ttl (r_msg r)) bt).
      * cbn. split; [discriminate|]. intros [X|(_ & x & Hx & L)]; [discriminate|]. injection Hx as <-. lia.
      * split; [|intros _; destruct (last + THROTTLE <? ts); reflexivity]. intros _. right. split; [apply Ad; reflexivity|]. eexists. split; [reflexivity|]. lia.
    + cbn. split; [discriminate|]. intros [X|(X & _)]; [discriminate|]. apply Ad in X. discriminate.
Qed.
(** Of a key the node does not know, no message passes. *)
Theorem C121_not_found meta ra rr y onchain e f k ty ts bt :
  (ge_signer e f k = true <-> is_Some (onchain f k)) -> (forall sg, read_signer onchain (y_data y) f k <> RSigner sg) -> zero_type ty = false ->
  sstep meta ra rr y (OUse e (KUse f k ty ts) bt) = (y, SRefused EMissingSigner).
Proof.
  intros H N Z. destruct y as [z l d p]. cbn [sstep ku_type]. rewrite Z. cbn [gstep y_zero y_log y_data y_pos] in *. unfold use_key. cbn [ku_fid ku_signer].
  destruct (active_key e d f k) as [a|] eqn:A; [|reflexivity]. exfalso.
  destruct (proj2 (C121_found_iff onchain e d f k H) ltac:(eauto)) as [sg Hs]. exact (N sg Hs).
Qed.
(** Every other field is what was signed for. *)
Theorem C121_fields onchain s f k sg : onchain f k = None -> read_signer onchain s f k = RSigner sg ->
  exists r, g_rec s !! (f mod 2 ^ 32, k) = Some r /\ sg_source sg = SOffchain /\ sg_key sg = k /\ sg_fid sg = f /\
    sg_added sg = ka_ts (r_msg r) + 1609459200 /\ sg_ttl sg = Some (ka_ttl (r_msg r)) /\ sg_scopes sg = ka_scopes (r_msg r) /\
    sg_request sg = Some (r_req r) /\ sg_nonce sg = Some (ka_nonce (r_msg r)) /\
    (forall t, g_last s !! (f mod 2 ^ 32, k) = Some t -> sg_used sg = Some (t + 1609459200)).
Proof.
  intros O Rd. unfold read_signer in Rd. rewrite O in Rd. destruct (negb _); [discriminate|]. change (w32 f) with (f mod 2 ^ 32) in Rd.
  destruct (g_rec s !! (f mod 2 ^ 32, k)) as [r|]; [|discriminate]. injection Rd as <-. exists r. repeat split. intros t Ht. cbn. rewrite Ht. reflexivity.
Qed.

(** The counters. The custody counter told is never ahead of shard 0's: what it rules out, shard 0 refuses; and once the data shard
    has caught up, a larger one is not refused for its counter. *)
Lemma zfold_mono meta ra rr l l' f : nonce_of (g_un (zfold meta ra rr l)) f <= nonce_of (g_un (zfold meta ra rr (l ++ l'))) f.
Proof.
  unfold zfold. rewrite map_app, run_app. destruct (grun meta ra rr g_init (map (fun x => as_op x.1 false x.2) l)) as [s1 x1] eqn:E1.
  pose proof (nonce_run meta ra rr (map (fun x => as_op x.1 false x.2) l') s1 f) as [N _]. destruct (grun meta ra rr s1 _) as [s2 x2]. exact N.
Qed.
Theorem C121_custody_counter meta ra rr mine os y outs f :
  srun meta ra rr sys_init os = (y, outs) -> agreed meta ra rr mine sys_init os -> mine (f mod 2 ^ 32) = true ->
  (forall e m, ka_fid m = f -> (sstep meta ra rr y (OKey e (KA m))).2 = SAccepted -> read_user_nonce (y_data y) f < ka_nonce m) /\
  (y_pos y = length (y_log y) -> forall e m, ka_fid m = f -> read_user_nonce (y_data y) f < ka_nonce m ->
     (sstep meta ra rr y (OKey e (KA m))).2 <> SRefused ENonce).
Proof.
  intros E A M. split.
  - intros e m Ef Hs. destruct (C120_lagging _ _ _ _ _ _ _ E A) as (z & Ez & Hz). specialize (Hz f []). rewrite M in Hz. destruct Hz as (_ & _ & Hn).
    pose proof (Inv_run meta ra rr mine os sys_init (Inv_init meta ra rr mine) A) as ((_ & _ & _ & S4 & _) & _ & _). rewrite E in S4. cbn [fst] in S4.
    unfold read_user_nonce. rewrite Hn, Ez. change (after meta ra rr ?l) with (zfold meta ra rr l).
    pose proof (zfold_mono meta ra rr (firstn (y_pos y) (y_log y)) (skipn (y_pos y) (y_log y)) f) as Mo. rewrite List.firstn_skipn, S4 in Mo.
    cbn [sstep as_op gstep negb andb] in Hs. destruct (add_body_ok m); cbn [negb] in Hs; [|discriminate].
    destruct (merge_key_add meta ra e false (y_zero y) m) as [q|[q1 q2]] eqn:Q; [discriminate|].
    destruct (add_spec _ _ _ _ _ _ _ _ Q) as (? & ? & ? & _ & _ & _ & _ & _ & _ & _ & Lt & _). rewrite Ef in Lt. lia.
  - intros P e m Ef Lt Hs. destruct (C120_same_standing _ _ _ _ _ _ _ E A P e f [] M) as (_ & _ & Hn). unfold read_user_nonce in Lt. rewrite Hn in Lt.
    cbn [sstep as_op gstep negb andb] in Hs. destruct (add_body_ok m); cbn [negb] in Hs; [|discriminate].
    destruct (merge_key_add meta ra e false (y_zero y) m) as [q|[q1 q2]] eqn:Q; [|discriminate]. injection Hs as ->.
    unfold merge_key_add in Q. subst f.
    repeat first [discriminate Q | match type of Q with context [match ?x with _ => _ end] => lazymatch x with context [match _ with _ => _ end] => fail | cas_nonce _ _ _ => fail | _ => destruct x end end].
    all: unfold cas_nonce in Q; destruct (N.leb_spec (ka_nonce m) (nonce_of (g_un (y_zero y)) (ka_fid m))); [lia|discriminate Q].
Qed.

(** A message handed straight to the data shard is accepted only with a well-formed body. *)
Theorem C120_direct_wellformed meta ra rr y e m : (sstep meta ra rr y (ODirect e m)).2 = SAccepted ->
  match m with
  | KA a => length (ka_key a) = 32%nat /\ ka_deadline a <> 0 /\ 0 < ka_ttl a /\ ka_scopes a <> []
  | KR r => length (kr_key r) = 32%nat /\ kr_deadline r <> 0 /\ (kr_sigtype r = 1 \/ kr_sigtype r = 2)
  end.
Proof.
  intros H. cbn [sstep] in H. destruct (body_ok m) eqn:B; [|discriminate H]. clear H. destruct m as [a|r]; cbn [body_ok] in B.
  - unfold add_body_ok, scopes_ok in B. rewrite !andb_true_iff in B. destruct B as ((((B1 & B2) & B3) & _) & ((B5 & _) & _)).
    apply Nat.eqb_eq in B1. apply negb_true_iff in B2, B3, B5. apply N.eqb_neq in B2, B3.
    split; [exact B1|]. split; [exact B2|]. split; [lia|]. intros E. rewrite E in B5. discriminate B5.
  - unfold rem_body_ok in B. rewrite !andb_true_iff, orb_true_iff in B. destruct B as ((B1 & B2) & B3).
    apply Nat.eqb_eq in B1. rewrite !N.eqb_eq in B2. apply negb_true_iff in B3. apply N.eqb_neq in B3. split; [exact B1|]. split; [exact B3|exact B2].
Qed.
(** The counter told for an app is the one of its last revocation on this shard; every revocation raises it. *)
Theorem C121_app_counter_told rr e s m s' x : merge_key_remove rr e s m = inr (s', x) -> kr_sigtype m = 2 ->
  exists r, g_rec s !! (kr_fid m mod 2 ^ 32, kr_key m) = Some r /\
    read_app_nonce s (r_req r) < kr_nonce m /\ read_app_nonce s' (r_req r) = kr_nonce m.
Proof.
  intros H T. unfold merge_key_remove in H. destruct (negb _); [discriminate|]. change (w32 (kr_fid m)) with (kr_fid m mod 2 ^ 32) in H.
  destruct (g_rec s !! _) as [r|] eqn:R; [|discriminate]. exists r. split; [reflexivity|]. rewrite T in H. change (2 =? 1) with false in H. change (2 =? 2) with true in H. cbv iota in H.
  destruct (negb _); [discriminate|]. unfold cas_nonce in H. destruct (N.leb_spec (kr_nonce m) (nonce_of (g_an s) (r_req r))) as [L|L]; [discriminate|].
  injection H as <- _. split; [exact L|]. unfold read_app_nonce, nonce_of. cbn [g_an]. rewrite lookup_insert. reflexivity.
Qed.

(** Not so: an expired key is told of as active; shard 0 does not keep to the expiry told (C120_two_clocks_refuted); the counter told
    for an app lacks the revocations of other shards' accounts; an account number above 2^32 is told to have the keys of another. *)
Definition ystate := (srun xmeta xra xrr sys_init [OKey xenv (ykey 7 1 [1; 7]%Z 5000 1 100 50); OReplay xenv; OUse xenv (yuse 7 1 1 4000) 4000]).1.
Theorem C121_expired_refuted : exists sg, read_signer (fun _ _ => None) (y_data ystate) 7 (xkey 1) = RSigner sg /\
  forall ty ts bt, 9000 < bt -> (sstep xmeta xra xrr ystate (OUse xenv (KUse 7 (xkey 1) ty ts) bt)).2 <> SAccepted.
Proof.
  eexists. split; [vm_compute; reflexivity|]. intros ty ts bt L H. cbn [sstep ku_type] in H. destruct (zero_type ty); [discriminate|]. cbn [gstep] in H.
  unfold use_key in H. cbn [ku_fid ku_signer ku_type ku_ts] in H.
  assert (EA : active_key xenv (y_data ystate) 7 (xkey 1) = Some (AGasless 130 5000)) by (vm_compute; reflexivity).
  rewrite EA in H. destruct (negb _); [discriminate|].
  unfold bump in H. assert (EL : g_last (y_data ystate) !! (w32 7, xkey 1) = Some 4000) by (vm_compute; reflexivity).
  cbn [N.eqb] in H. rewrite EL in H. change (4000 + 5000) with 9000 in H. rewrite (proj2 (N.ltb_lt 9000 bt) L) in H. discriminate.
Qed.
Theorem C121_zero_refuted : exists sg x, read_signer (fun _ _ => None) (y_data ystate) 7 (xkey 1) = RSigner sg /\
  7%Z ∈ sg_scopes sg /\ sg_expires sg = Some x /\ 8000 + 1609459200 <= x /\
  (sstep xmeta xra xrr ystate (OUseZero xenv (yuse 7 1 7 8000) 8000)).2 = SRefused EExpired.
Proof.
  do 2 eexists. split; [vm_compute; reflexivity|]. split; [cbn; apply elem_of_list_In; cbn; auto|]. split; [reflexivity|]. split; [lia|]. vm_compute. reflexivity.
Qed.
(** App 50 revokes a key of account 8, which another shard holds, with counter 5. The shard of account 7 tells counter 0; a revocation
    with counter 1 is refused by shard 0. *)
Definition honest7 : genv := GEnv (fun f => if f =? 7 then Some [7] else None) (fun _ _ => false).
Theorem C121_app_counter_refuted :
  let os := [OKey xenv (ykey 7 1 [1]%Z 5000 1 100 50); OReplay honest7; OKey xenv (ykey 8 2 [1]%Z 5000 1 100 50); OReplay honest7;
             OKey xenv (KR (KRem 8 0 (xkey 2) 2 5 1 (xkey 2) [])); OReplay honest7] in
  let y := (srun xmeta xra xrr sys_init os).1 in
  agreed xmeta xra xrr (fun f => f =? 7) sys_init os /\ y_pos y = length (y_log y) /\ length (y_log y) = 3%nat /\
  read_app_nonce (y_data y) 50 = 0 /\
  (sstep xmeta xra xrr y (OKey xenv (KR (KRem 7 0 (xkey 1) 2 1 1 (xkey 1) [])))).2 = SRefused ENonce.
Proof. cbv zeta. split; [apply agreedb_agreed; vm_compute; reflexivity|]. repeat split; vm_compute; reflexivity. Qed.
Theorem C121_wrap_refuted onchain s f k : onchain f k = None -> onchain (f + 2 ^ 32) k = None ->
  read_signer onchain s (f + 2 ^ 32) k =
  match read_signer onchain s f k with
  | RSigner g => RSigner (Signer (sg_source g) (sg_key g) (f + 2 ^ 32) (sg_added g) (sg_used g) (sg_ttl g) (sg_expires g) (sg_scopes g) (sg_request g) (sg_nonce g))
  | x => x
  end.
Proof.
  intros A B. unfold read_signer. rewrite A, B. assert (W : w32 (f + 2 ^ 32) = w32 f).
  { unfold w32. rewrite <- (N.mul_1_l (2 ^ 32)) at 1. apply N.mod_add. discriminate. }
  rewrite W. destruct (negb _); [reflexivity|]. destruct (g_rec s !! (w32 f, k)); reflexivity.
Qed.

(** The hypotheses are met: two shards' accounts, an addition, a removal, uses. *)
Example C120_example :
  let os := [OKey xenv (ykey 7 1 [1; 7]%Z 5000 1 100 50); OKey xenv (ykey 8 2 [1]%Z 5000 1 100 50); OReplay honest7; OReplay honest7;
             OUse honest7 (yuse 7 1 1 600) 600; OUseZero xenv (yuse 7 1 7 700) 700; OKey xenv (KR (KRem 7 0 (xkey 1) 1 2 1 [] [])); OReplay honest7] in
  agreed xmeta xra xrr (fun f => f =? 7) sys_init os /\
  (srun xmeta xra xrr sys_init os).2 = [SAccepted; SAccepted; SAccepted; SRefused EMissingFid; SAccepted; SAccepted; SAccepted; SAccepted] /\
  y_pos (srun xmeta xra xrr sys_init os).1 = length (y_log (srun xmeta xra xrr sys_init os).1).
Proof. cbv zeta. split; [apply agreedb_agreed; vm_compute; reflexivity|]. split; vm_compute; reflexivity. Qed.
Example C121_example : read_signer (fun _ _ => None) (y_data ystate) 7 (xkey 1) =
  RSigner (Signer SOffchain (xkey 1) 7 1609459300 (Some 1609463200) (Some 5000) (Some 1609468200) [1; 7]%Z (Some 50) (Some 1)) /\
  read_signer (fun _ _ => None) (y_data ystate) 8 (xkey 1) = RNotFound /\ read_signer (fun _ _ => Some 3) g_init 7 [1] = RSigner (Signer SOnchain [1] 7 3 None None None [] None None).
Proof. split; [|split]; vm_compute; reflexivity. Qed.

Print Assumptions C120_same_standing.
Print Assumptions C120_two_clocks_refuted.
Print Assumptions C121_told_is_so.
Print Assumptions C121_custody_counter.
