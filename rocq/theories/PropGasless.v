(** Properties C27-C30 (and C53): gasless keys. Every theorem is for arbitrary cryptography ([meta], [rec_add],
    [rec_rem]) and arbitrary histories, where each operation sees its own on-chain state. *)
From Verif Require Import GaslessProofs.
From Coq Require Import ZifyN ZifyNat ZifyBool.
#[local] Open Scope N_scope.

Definition registered (s : gst) (f : N) (k : bytes) : Prop := is_Some (g_rec s !! (f, k)).
Definition accepted (x : gout) : bool := match x with GOk _ => true | GErr _ => false end.

(** Who owns key [k] according to the accepted messages alone: the last accepted KEY_ADD, unless removed since. *)
Fixpoint owner_by_log (k : bytes) (o : option N) (log : list (gop * gout)) : option N :=
  match log with
  | [] => o
  | (GAdd _ _ m, GOk _) :: r => owner_by_log k (if bool_decide (ka_key m = k) then Some (ka_fid m mod 2 ^ 32) else o) r
  | (GRem _ _ m, GOk _) :: r => owner_by_log k (if bool_decide (kr_key m = k) then None else o) r
  | _ :: r => owner_by_log k o r
  end.

(** ** C27 *)
Theorem C27_one_owner : forall meta ra rr os s outs, grun meta ra rr g_init os = (s, outs) ->
  (forall k f1 f2, registered s f1 k -> registered s f2 k -> f1 = f2) /\
  (forall k f, g_own s !! k = Some f <-> registered s f k) /\
  (forall f k, is_Some (g_last s !! (f, k)) <-> registered s f k) /\
  (forall f k r, g_rec s !! (f, k) = Some r -> ka_key (r_msg r) = k /\ ka_fid (r_msg r) mod 2 ^ 32 = f).
Proof.
  intros meta ra rr os s outs Hrun. pose proof (Ginv_run meta ra rr os g_init Ginv_init) as (H1 & H2 & _ & H4). rewrite Hrun in *. cbn [fst] in *.
  split; [|split; [exact H1|split; [intros f k; exact (H2 (f, k))|]]].
  - intros k f1 f2 Ha Hb. apply H1 in Ha, Hb. congruence.
  - intros f k r Hr. destruct (H4 f k r Hr) as [-> ->]. done.
Qed.

Theorem C27_owner_is_last_accepted : forall meta ra rr os s outs k, grun meta ra rr g_init os = (s, outs) ->
  g_own s !! k = owner_by_log k None (combine os outs).
Proof.
  intros meta ra rr os s outs k Hrun.
  assert (Hgen : forall os s0 s outs, grun meta ra rr s0 os = (s, outs) -> g_own s !! k = owner_by_log k (g_own s0 !! k) (combine os outs)).
  { clear. induction os as [|o os IH]; intros s0 s outs Hrun; [by injection Hrun as <- <-|].
    cbn [grun] in Hrun. destruct (gstep meta ra rr s0 o) as [s1 x] eqn:Es. destruct (grun meta ra rr s1 os) as [s2 xs] eqn:Er.
    injection Hrun as <- <-. rewrite (IH _ _ _ Er). cbn [combine].
    destruct o as [e rp m|e rp m|e u bt]; cbn [gstep] in Es.
    - destruct (negb rp && _); [by injection Es as <- <-|]. destruct (merge_key_add meta ra e rp s0 m) as [err|[s' d]] eqn:E; injection Es as <- <-; [done|].
      destruct (add_spec _ _ _ _ _ _ _ _ E) as (req & rs & dl & _ & _ & _ & _ & _ & _ & _ & _ & _ & Eo & _). rewrite Eo. cbn [owner_by_log].
      destruct (bool_decide_reflect (ka_key m = k)) as [->|]; [by rewrite lookup_insert|by rewrite lookup_insert_ne].
    - destruct (negb rp && _); [by injection Es as <- <-|]. destruct (merge_key_remove rr e s0 m) as [err|[s' d]] eqn:E; injection Es as <- <-; [done|].
      destruct (rem_spec _ _ _ _ _ _ E) as (r & _ & _ & _ & Eo & _). rewrite Eo. cbn [owner_by_log].
      destruct (bool_decide_reflect (kr_key m = k)) as [->|]; [by rewrite lookup_delete|by rewrite lookup_delete_ne].
    - destruct (use_key e s0 u bt) as [err|s'] eqn:E; injection Es as <- <-; [done|]. cbn [owner_by_log].
      destruct (use_spec _ _ _ _ _ E) as [->|(st & _ & _ & ->)]; done. }
  by rewrite (Hgen _ _ _ _ Hrun).
Qed.

(** An accepted removal leaves no registration, reverse lookup or usage time, and touches no other key. *)
Theorem C27_removal_clears : forall meta ra rr os e rp m s outs s' d, grun meta ra rr g_init os = (s, outs) ->
  gstep meta ra rr s (GRem e rp m) = (s', GOk d) ->
  (forall f, ~ registered s' f (kr_key m)) /\ g_own s' !! kr_key m = None /\ (forall f, g_last s' !! (f, kr_key m) = None) /\
  (forall f k, k <> kr_key m -> g_rec s' !! (f, k) = g_rec s !! (f, k) /\ g_own s' !! k = g_own s !! k /\ g_last s' !! (f, k) = g_last s !! (f, k)).
Proof.
  intros meta ra rr os e rp m s outs s' d Hrun Hs. pose proof (Ginv_run meta ra rr os g_init Ginv_init) as HI. rewrite Hrun in HI. cbn [fst] in HI.
  pose proof (Ginv_step meta ra rr s (GRem e rp m) HI) as (H1 & H2 & _). rewrite Hs in H1, H2. cbn [fst] in *.
  cbn [gstep] in Hs. destruct (negb rp && _); [done|]. destruct (merge_key_remove rr e s m) as [err|[s1 d1]] eqn:E; [done|]. injection Hs as -> ->.
  destruct (rem_spec _ _ _ _ _ _ E) as (r & Hr & _ & Er & Eo & El & _).
  assert (Ho : g_own s' !! kr_key m = None) by (rewrite Eo; apply lookup_delete).
  assert (Hnr : forall f, ~ registered s' f (kr_key m)) by (intros f Hf; apply H1 in Hf; congruence).
  split; [done|]. split; [done|]. split.
  - intros f. destruct (g_last s' !! (f, kr_key m)) eqn:Hl; [|done]. exfalso. apply (Hnr f), H2. eauto.
  - intros f k Hk. rewrite Er, Eo, El. rewrite !lookup_delete_ne by congruence. done.
Qed.

(** ** C28 *)
(** The account and counter value authorized by the custody wallet of the account. *)
Definition custody_auth (o : gop) : option (N * N) :=
  match o with
  | GAdd _ _ m => Some (ka_fid m mod 2 ^ 32, ka_nonce m)
  | GRem _ _ m => if kr_sigtype m =? 1 then Some (kr_fid m mod 2 ^ 32, kr_nonce m) else None
  | GUse _ _ _ => None
  end.

Lemma custody_accept meta ra rr s o s' d f n : gstep meta ra rr s o = (s', GOk d) -> custody_auth o = Some (f, n) ->
  nonce_of (g_un s) f < n /\ nonce_of (g_un s') f = n.
Proof.
  assert (Hw : forall x, w32 (x mod 2 ^ 32) = w32 x) by (intros x; unfold w32; by apply N.mod_mod).
  assert (Hn0 : forall m x, nonce_of m (x mod 2 ^ 32) = nonce_of m x) by (intros m x; unfold nonce_of; by rewrite Hw).
  destruct o as [e rp m|e rp m|e u bt]; intros Hs Ha; cbn [gstep] in Hs; cbn [custody_auth] in Ha.
  - injection Ha as <- <-. destruct (negb rp && _); [done|]. destruct (merge_key_add meta ra e rp s m) as [err|[s1 d1]] eqn:E; [done|]. injection Hs as -> ->.
    destruct (add_spec _ _ _ _ _ _ _ _ E) as (req & rs & dl & _ & _ & _ & _ & _ & _ & _ & Hn & _ & _ & _ & Hun & _).
    rewrite !Hn0, Hun, nonce_insert. by rewrite decide_True.
  - destruct (N.eqb_spec (kr_sigtype m) 1) as [E1|]; [|done]. injection Ha as <- <-.
    destruct (negb rp && _); [done|]. destruct (merge_key_remove rr e s m) as [err|[s1 d1]] eqn:E; [done|]. injection Hs as -> ->.
    destruct (rem_spec _ _ _ _ _ _ E) as (r & _ & _ & _ & _ & _ & _ & [(_ & _ & _ & Hn & Hun & _)|(E2 & _)]); [|congruence].
    rewrite !Hn0, Hun, nonce_insert. by rewrite decide_True.
  - done.
Qed.

(** Every accepted custody authorization carries a larger counter value than all accepted ones before it. *)
Theorem C28_counter_strictly_increases : forall meta ra rr s o1 s1 d1 mid s2 outs o2 s3 d2 f n1 n2,
  gstep meta ra rr s o1 = (s1, GOk d1) -> custody_auth o1 = Some (f, n1) ->
  grun meta ra rr s1 mid = (s2, outs) ->
  gstep meta ra rr s2 o2 = (s3, GOk d2) -> custody_auth o2 = Some (f, n2) -> n1 < n2.
Proof.
  intros meta ra rr s o1 s1 d1 mid s2 outs o2 s3 d2 f n1 n2 H1 A1 Hr H2 A2.
  destruct (custody_accept _ _ _ _ _ _ _ _ _ H1 A1) as [_ Hn1]. destruct (custody_accept _ _ _ _ _ _ _ _ _ H2 A2) as [Hn2 _].
  pose proof (nonce_run meta ra rr mid s1 f) as [Hm _]. rewrite Hr in Hm. cbn [fst] in Hm. lia.
Qed.

(** So an accepted custody authorization is refused ever after, whatever happens in between and whatever the chain says. *)
Theorem C28_no_replay : forall meta ra rr s o1 s1 d1 mid s2 outs o2,
  gstep meta ra rr s o1 = (s1, GOk d1) -> is_Some (custody_auth o1) -> custody_auth o2 = custody_auth o1 ->
  grun meta ra rr s1 mid = (s2, outs) -> exists err, gstep meta ra rr s2 o2 = (s2, GErr err).
Proof.
  intros meta ra rr s o1 s1 d1 mid s2 outs o2 H1 [[f n] Ha] Ha2 Hr. rewrite Ha in Ha2.
  destruct (gstep meta ra rr s2 o2) as [s3 [d2|err]] eqn:H2.
  - pose proof (C28_counter_strictly_increases _ _ _ _ _ _ _ _ _ _ _ _ _ _ _ _ H1 Ha Hr H2 Ha2). lia.
  - exists err. f_equal. destruct o2 as [e rp m|e rp m|e u bt]; [| |done]; cbn [gstep] in H2.
    + destruct (negb rp && _); [congruence|]. destruct (merge_key_add meta ra e rp s2 m) as [err'|[s' d']]; congruence.
    + destruct (negb rp && _); [congruence|]. destruct (merge_key_remove rr e s2 m) as [err'|[s' d']]; congruence.
Qed.

(** Self-revocations count per app: strictly increasing as long as the app that requested the key is the same. *)
Definition self_revoked (s : gst) (o : gop) : option (N * N) :=
  match o with
  | GRem _ _ m => if kr_sigtype m =? 2 then r ← g_rec s !! (kr_fid m mod 2 ^ 32, kr_key m); Some (r_req r mod 2 ^ 32, kr_nonce m) else None
  | _ => None
  end.
Theorem C28_self_revocation_counter : forall meta ra rr s o1 s1 d1 mid s2 outs o2 s3 d2 f n1 n2,
  gstep meta ra rr s o1 = (s1, GOk d1) -> self_revoked s o1 = Some (f, n1) ->
  grun meta ra rr s1 mid = (s2, outs) ->
  gstep meta ra rr s2 o2 = (s3, GOk d2) -> self_revoked s2 o2 = Some (f, n2) -> n1 < n2.
Proof.
  intros meta ra rr s o1 s1 d1 mid s2 outs o2 s3 d2 f n1 n2 H1 A1 Hr H2 A2.
  assert (Hacc : forall s o s' d n, gstep meta ra rr s o = (s', GOk d) -> self_revoked s o = Some (f, n) -> nonce_of (g_an s) f < n /\ nonce_of (g_an s') f = n).
  { clear. intros s o s' d n Hs Ha. assert (Hw : forall x, w32 (x mod 2 ^ 32) = w32 x) by (intros x; unfold w32; by apply N.mod_mod).
    destruct o as [e rp m|e rp m|e u bt]; cbn [self_revoked] in Ha; [done| |done]. cbn [gstep] in Hs.
    destruct (N.eqb_spec (kr_sigtype m) 2) as [E2|]; [|done]. destruct (g_rec s !! (kr_fid m mod 2 ^ 32, kr_key m)) as [r|] eqn:Er; [|done].
    cbn in Ha. injection Ha as <- <-. destruct (negb rp && _); [done|].
    destruct (merge_key_remove rr e s m) as [err|[s1 d1]] eqn:E; [done|]. injection Hs as -> ->.
    destruct (rem_spec _ _ _ _ _ _ E) as (r' & Hr' & _ & _ & _ & _ & _ & [(E1 & _)|(_ & _ & Hn & _ & Han)]); [congruence|].
    change (w32 (kr_fid m)) with (kr_fid m mod 2 ^ 32) in Hr'. rewrite Er in Hr'. injection Hr' as <-.
    assert (Hn0 : forall m x, nonce_of m (x mod 2 ^ 32) = nonce_of m x) by (intros m0 x; unfold nonce_of; by rewrite Hw).
    rewrite !Hn0, Han, nonce_insert. by rewrite decide_True. }
  destruct (Hacc _ _ _ _ _ H1 A1) as [_ Hn1]. destruct (Hacc _ _ _ _ _ H2 A2) as [Hn2 _].
  pose proof (nonce_run meta ra rr mid s1 f) as [_ Hm]. rewrite Hr in Hm. cbn [fst] in Hm. lia.
Qed.

(** One self-revocation with the largest counter value ends self-revocation for every key requested by that app, of any
    account: the counter is shared and never goes back. *)
Theorem C28_app_counter_exhausted : forall meta ra rr s o1 s1 d1 mid s2 outs e rp m f,
  gstep meta ra rr s o1 = (s1, GOk d1) -> self_revoked s o1 = Some (f, 2 ^ 32 - 1) ->
  grun meta ra rr s1 mid = (s2, outs) -> kr_nonce m < 2 ^ 32 -> kr_sigtype m = 2 ->
  self_revoked s2 (GRem e rp m) = Some (f, kr_nonce m) -> accepted (gstep meta ra rr s2 (GRem e rp m)).2 = false.
Proof.
  intros meta ra rr s o1 s1 d1 mid s2 outs e rp m f H1 A1 Hr Hlt _ A2. destruct (gstep meta ra rr s2 (GRem e rp m)) as [s3 [d2|err]] eqn:H2; [|done].
  pose proof (C28_self_revocation_counter _ _ _ _ _ _ _ _ _ _ _ _ _ _ _ _ H1 A1 Hr H2 A2). change (2 ^ 32) with 4294967296 in *. lia.
Qed.

(** ** C29 *)
Theorem C29_count_exact_and_bounded : forall meta ra rr os s outs f, grun meta ra rr g_init os = (s, outs) -> f < 2 ^ 32 ->
  default 0 (g_cnt s !! f) = N.of_nat (size (filter (fun p : N * bytes => p.1 = f) (dom (g_rec s)))) /\
  (size (filter (fun p : N * bytes => p.1 = f) (dom (g_rec s))) <= 1000)%nat.
Proof.
  intros meta ra rr os s outs f Hrun Hf. pose proof (Ginv_run meta ra rr os g_init Ginv_init) as (_ & _ & H3 & _). rewrite Hrun in H3. cbn [fst] in H3.
  destruct (H3 f Hf) as [Ha Hb]. unfold keys_of, MAX_KEYS in *. split; [done|]. lia.
Qed.
(** The cap refuses only new keys: below it the count never causes a refusal, and re-submission never does. *)
Theorem C29_cap_only_for_new : forall meta ra rr os e rp m s outs s', grun meta ra rr g_init os = (s, outs) ->
  gstep meta ra rr s (GAdd e rp m) = (s', GErr ECap) ->
  ~ registered s (ka_fid m mod 2 ^ 32) (ka_key m) /\ size (filter (fun p : N * bytes => p.1 = ka_fid m mod 2 ^ 32) (dom (g_rec s))) = 1000%nat.
Proof.
  intros meta ra rr os e rp m s outs s' Hrun Hs. destruct (C27_one_owner _ _ _ _ _ _ Hrun) as (_ & Hown & _).
  destruct (C29_count_exact_and_bounded _ _ _ _ _ _ (ka_fid m mod 2 ^ 32) Hrun) as [Hc Hle]; [by apply N.mod_lt|].
  cbn [gstep] in Hs. destruct (negb rp && _); [done|]. unfold merge_key_add in Hs.
  destruct (meta m) as [[[req rs] dl]|]; [|done]. destruct (dl <? ka_ts m); [done|].
  destruct (negb rp && match ge_custody e req with Some _ => false | None => true end); [done|]. destruct (negb rp && negb (bool_decide (ge_custody e req = Some rs))); [done|].
  destruct (ra m) as [addr|]; [|done]. destruct (ge_custody e (ka_fid m)) as [c|]; [|done]. destruct (negb (bool_decide (c = addr))); [done|].
  destruct (ge_signer e (ka_fid m) (ka_key m)); [done|]. destruct (negb (Nat.eqb (length (ka_key m)) ED25519_LEN)); [done|]. cbv zeta in Hs.
  destruct (g_own s !! ka_key m) as [o|] eqn:Eo.
  - destruct (negb (o =? ka_fid m)); [done|]. destruct (g_rec s !! _) as [r|]; [|done]. destruct (negb (r_req r =? req)); [done|].
    destruct (cas_nonce _ _ _); done.
  - destruct (N.leb_spec MAX_KEYS (count_of (g_cnt s) (ka_fid m))) as [Hcap|]; [|destruct (cas_nonce _ _ _); done].
    split; [intros Hreg; apply Hown in Hreg; congruence|]. unfold count_of, w32, MAX_KEYS in Hcap. lia.
Qed.

(** ** C30 *)
Lemma scopes_mask_bit l : forall m t, t < 64 -> N.testbit (foldl (fun m z => N.lor m (scope_bit z)) m l) t = N.testbit m t || existsb (Z.eqb (Z.of_N t)) l.
Proof.
  induction l as [|z l IH]; intros m t Ht; cbn [foldl existsb]; [by rewrite orb_false_r|]. rewrite IH by done. rewrite N.lor_spec, <- orb_assoc. f_equal.
  f_equal. unfold scope_bit. destruct (Z.leb_spec 0 z), (Z.ltb_spec z 64); cbn [andb]; rewrite ?N.bits_0; try (symmetry; apply Z.eqb_neq; lia).
  destruct (Z.eqb_spec (Z.of_N t) z) as [<-|Hne]; [rewrite N2Z.id; apply N.pow2_bits_true|]. apply N.pow2_bits_false. lia.
Qed.
Lemma admits_spec l ttl t : t < 64 -> admits (AGasless (scopes_mask l) ttl) t = true <-> Z.of_N t ∈ l.
Proof.
  intros Ht. cbn [admits]. assert (Hb : scope_bit (Z.of_N t) = 2 ^ t).
  { unfold scope_bit. destruct (Z.leb_spec 0 (Z.of_N t)), (Z.ltb_spec (Z.of_N t) 64); try lia. cbn [andb]. by rewrite N2Z.id. }
  rewrite Hb. assert (Hl : negb (N.land (scopes_mask l) (2 ^ t) =? 0) = N.testbit (scopes_mask l) t).
  { destruct (N.testbit (scopes_mask l) t) eqn:E.
    - apply negb_true_iff, N.eqb_neq. intros H0. assert (Hx : N.testbit (N.land (scopes_mask l) (2 ^ t)) t = true) by (rewrite N.land_spec, E; apply N.pow2_bits_true).
      rewrite H0, N.bits_0 in Hx. done.
    - apply negb_false_iff, N.eqb_eq. apply N.bits_inj. intros i. rewrite N.bits_0, N.land_spec. destruct (decide (i = t)) as [->|Hi]; [by rewrite E|].
      rewrite N.pow2_bits_false by done. apply andb_false_r. }
  rewrite Hl. unfold scopes_mask. rewrite scopes_mask_bit by done. rewrite N.bits_0. cbn [orb]. rewrite existsb_exists. split.
  - intros (x & Hx & Ex). apply Z.eqb_eq in Ex as <-. by apply elem_of_list_In.
  - intros Hx. apply elem_of_list_In in Hx. exists (Z.of_N t). split; [done|apply Z.eqb_refl].
Qed.

(** Exactly when a message passes the key check. *)
Theorem C30_admission : forall meta ra rr os e u bt s outs, grun meta ra rr g_init os = (s, outs) -> ku_type u < 64 ->
  accepted (gstep meta ra rr s (GUse e u bt)).2 = true <->
  ge_signer e (ku_fid u) (ku_signer u) = true \/
  (length (ku_signer u) = 32%nat /\ exists r last,
     g_rec s !! (ku_fid u mod 2 ^ 32, ku_signer u) = Some r /\ g_last s !! (ku_fid u mod 2 ^ 32, ku_signer u) = Some last /\
     Z.of_N (ku_type u) ∈ ka_scopes (r_msg r) /\ (ka_ttl (r_msg r) = 0 \/ bt <= last + ka_ttl (r_msg r))).
Proof.
  intros meta ra rr os e u bt s outs Hrun Ht. destruct (C27_one_owner _ _ _ _ _ _ Hrun) as (_ & _ & Hlast & _).
  cbn [gstep]. unfold use_key, active_key. destruct (ge_signer e (ku_fid u) (ku_signer u)) eqn:Eg; [cbn; naive_solver|].
  destruct (Nat.eqb_spec (length (ku_signer u)) ED25519_LEN) as [El|El]; cbn [negb]; [|cbn; naive_solver].
  change (w32 (ku_fid u)) with (ku_fid u mod 2 ^ 32).
  destruct (g_rec s !! (ku_fid u mod 2 ^ 32, ku_signer u)) as [r|] eqn:Er; [|cbn; naive_solver].
  pose proof (admits_spec (ka_scopes (r_msg r)) (ka_ttl (r_msg r)) (ku_type u) Ht) as Ha.
  destruct (g_last s !! (ku_fid u mod 2 ^ 32, ku_signer u)) as [last|] eqn:Els.
  2:{ assert (Hs : is_Some (g_last s !! (ku_fid u mod 2 ^ 32, ku_signer u))) by (apply Hlast; unfold registered; eauto). rewrite Els in Hs. by destruct Hs. }
  destruct (admits _ (ku_type u)) eqn:Ead; cbn [negb].
  - destruct (N.eqb_spec (ka_ttl (r_msg r)) 0) as [E0|E0].
    + cbn. split; [|done]. intros _. right. split; [done|]. exists r, last. naive_solver.
    + unfold bump. change (w32 (ku_fid u)) with (ku_fid u mod 2 ^ 32). rewrite Els. destruct (N.ltb_spec (last + ka_ttl (r_msg r)) bt).
      * cbn. split; [done|]. intros [|(_ & r' & l' & [= <-] & [= <-] & _ & [|])]; [done|done|lia].
      * destruct (last + THROTTLE <? ku_ts u); cbn; (split; [|done]); intros _; right; split; try done; exists r, last; naive_solver.
  - cbn. split; [done|]. intros [|(_ & r' & l' & [= <-] & _ & Hin & _)]; [done|]. apply Ha in Hin. congruence.
Qed.

(** Using a key never lowers any recorded time of use, and changes nothing else. *)
Theorem C30_use_never_shortens : forall meta ra rr s e u bt p last, g_last s !! p = Some last ->
  exists last', g_last (gstep meta ra rr s (GUse e u bt)).1 !! p = Some last' /\ last <= last' /\ (last' = last \/ last' = ku_ts u) /\
  g_rec (gstep meta ra rr s (GUse e u bt)).1 = g_rec s.
Proof.
  intros meta ra rr s e u bt p last Hl. cbn [gstep]. destruct (use_key e s u bt) as [err|s'] eqn:E; cbn [fst]; [exists last; repeat split; [done|lia|by left]|].
  destruct (use_spec _ _ _ _ _ E) as [->|(st & Hst & Hlt & ->)]; [exists last; repeat split; [done|lia|by left]|]. cbn [g_last g_rec].
  destruct (decide (p = (w32 (ku_fid u), ku_signer u))) as [->|Hp].
  - rewrite lookup_insert. exists (ku_ts u). rewrite Hst in Hl. injection Hl as ->. repeat split; [unfold THROTTLE in *; lia|by right].
  - rewrite lookup_insert_ne by done. exists last. repeat split; [done|lia|by left].
Qed.

(** An expired key stays expired: using it, or anything done with other keys, cannot revive it; only a new KEY_ADD for
    this account and key can. Block times do not decrease. *)
Definition touches (f : N) (k : bytes) (bt : N) (o : gop) : bool :=
  match o with
  | GAdd _ _ m => bool_decide (ka_fid m mod 2 ^ 32 = f) && bool_decide (ka_key m = k)
  | GRem _ _ _ => false
  | GUse _ _ b => b <? bt
  end.
Theorem C30_expired_stays_expired : forall meta ra rr s f k bt r last os s' outs e ts ty bt',
  g_rec s !! (f mod 2 ^ 32, k) = Some r -> g_last s !! (f mod 2 ^ 32, k) = Some last -> ka_ttl (r_msg r) <> 0 -> last + ka_ttl (r_msg r) < bt ->
  forallb (fun o => negb (touches (f mod 2 ^ 32) k bt o)) os = true -> grun meta ra rr s os = (s', outs) ->
  bt <= bt' -> ge_signer e f k = false -> accepted (gstep meta ra rr s' (GUse e (KUse f k ty ts) bt')).2 = false.
Proof.
  intros meta ra rr s f k bt r last os s' outs e ts ty bt' Hr Hl Httl Hexp Hos Hrun Hbt He.
  assert (Hfin : (g_rec s' !! (w32 f, k) = None) \/ (g_rec s' !! (w32 f, k) = Some r /\ g_last s' !! (w32 f, k) = Some last)).
  { assert (H0 : g_rec s !! (w32 f, k) = None \/ (g_rec s !! (w32 f, k) = Some r /\ g_last s !! (w32 f, k) = Some last)) by (by right).
    clear Hr Hl. revert s s' outs H0 Hrun. induction os as [|o os IH]; intros s s' outs H0 Hrun; [injection Hrun as <- <-; done|].
    cbn [grun] in Hrun. destruct (gstep meta ra rr s o) as [s1 x] eqn:Es. destruct (grun meta ra rr s1 os) as [s2 xs] eqn:Eg. injection Hrun as <- <-.
    cbn [forallb] in Hos. apply andb_prop in Hos as [Ho Hos]. apply (IH Hos s1 s2 xs); [|done].
    destruct o as [e' rp m|e' rp m|e' u b]; cbn [gstep] in Es.
    - destruct (negb rp && _); [by injection Es as <- <-|]. destruct (merge_key_add meta ra e' rp s m) as [err|[s3 d]] eqn:E; injection Es as <- <-; [done|].
      destruct (add_spec _ _ _ _ _ _ _ _ E) as (req & rs & dl & _ & _ & _ & _ & _ & _ & _ & _ & Er & _ & El & _). rewrite Er, El.
      assert (Hne : (w32 (ka_fid m), ka_key m) <> (w32 f, k)).
      { intros [= Ha Hb]. cbn in Ho. unfold w32 in Ha. rewrite Ha, Hb in Ho. rewrite !bool_decide_true in Ho by done. done. }
      by rewrite !lookup_insert_ne by done.
    - destruct (negb rp && _); [by injection Es as <- <-|]. destruct (merge_key_remove rr e' s m) as [err|[s3 d]] eqn:E; injection Es as <- <-; [done|].
      destruct (rem_spec _ _ _ _ _ _ E) as (r' & _ & _ & Er & _ & El & _). rewrite Er, El.
      destruct (decide ((w32 (kr_fid m), kr_key m) = (w32 f, k))) as [->|Hne]; [left; apply lookup_delete|by rewrite !lookup_delete_ne by done].
    - cbn in Ho. destruct (use_key e' s u b) as [err|s3] eqn:E; injection Es as <- <-; [done|].
      destruct (use_spec _ _ _ _ _ E) as [->|(st & Hst & Hlt & ->)]; [done|]. cbn [g_rec g_last].
      destruct (decide ((w32 (ku_fid u), ku_signer u) = (w32 f, k))) as [Ep|Hne]; [|by rewrite !lookup_insert_ne by done].
      destruct H0 as [H0|[H0 H0']]; [by left|]. exfalso.
      (* the use would have been refused, unless the key is also an on-chain signer, and then nothing is written *)
      revert E. unfold use_key, active_key. destruct (ge_signer e' (ku_fid u) (ku_signer u)).
      { cbn. intros Heq. injection Heq as Heq. apply (f_equal g_last) in Heq. cbn in Heq.
        assert (Hx : g_last s !! (w32 (ku_fid u), ku_signer u) = Some (ku_ts u)) by (rewrite Heq; apply lookup_insert). rewrite Hst in Hx. injection Hx as Hx. lia. }
      destruct (Nat.eqb _ _); cbn [negb]; [|intros ?; discriminate]. rewrite Ep, H0. destruct (negb (admits _ _)); [done|]. destruct (N.eqb_spec (ka_ttl (r_msg r)) 0); [done|].
      unfold bump. rewrite Ep, H0'. destruct (N.ltb_spec (last + ka_ttl (r_msg r)) b); [done|]. apply negb_true_iff in Ho. apply N.ltb_ge in Ho. lia. }
  cbn [gstep]. unfold use_key, active_key. cbn [ku_fid ku_signer ku_type ku_ts]. rewrite He. destruct (negb _); [done|].
  destruct Hfin as [->|[-> Hl']]; [done|]. destruct (negb (admits _ _)); [done|]. destruct (N.eqb_spec (ka_ttl (r_msg r)) 0); [done|].
  unfold bump. rewrite Hl'. destruct (N.ltb_spec (last + ka_ttl (r_msg r)) bt'); [done|lia].
Qed.

(** Keys let in through the block shard have a lifetime of 1 s to 90 days and scopes from the permitted list, so they can
    never sign key or channel messages. *)
Definition block_shard_only (os : list gop) : bool := forallb (fun o => match o with GAdd _ rp _ | GRem _ rp _ => negb rp | _ => true end) os.
Theorem C30_granted_scopes : forall meta ra rr os s outs f k r, block_shard_only os = true -> grun meta ra rr g_init os = (s, outs) ->
  g_rec s !! (f, k) = Some r ->
  0 < ka_ttl (r_msg r) <= 90 * 24 * 60 * 60 /\ ka_scopes (r_msg r) <> [] /\ (length (ka_scopes (r_msg r)) <= 16)%nat /\
  (forall z, z ∈ ka_scopes (r_msg r) -> (1 <= z <= 8 \/ 11 <= z <= 15)%Z).
Proof.
  intros meta ra rr os s outs f k r Hb Hrun Hr.
  assert (Hgen : forall os s0 s outs, block_shard_only os = true -> grun meta ra rr s0 os = (s, outs) ->
    (forall p r, g_rec s0 !! p = Some r -> add_body_ok (r_msg r) = true) -> (forall p r, g_rec s !! p = Some r -> add_body_ok (r_msg r) = true)).
  { clear. induction os as [|o os IH]; intros s0 s outs Hb Hrun H0; [by injection Hrun as <- <-|].
    cbn [grun] in Hrun. destruct (gstep meta ra rr s0 o) as [s1 x] eqn:Es. destruct (grun meta ra rr s1 os) as [s2 xs] eqn:Er. injection Hrun as <- <-.
    cbn [block_shard_only forallb] in Hb. apply andb_prop in Hb as [Ho Hb]. apply (IH s1 s2 xs Hb Er). clear IH Er.
    destruct o as [e rp m|e rp m|e u bt]; cbn [gstep] in Es.
    - rewrite Ho in Es. cbn [andb] in Es. destruct (add_body_ok m) eqn:Eb; cbn [negb] in Es; [|by injection Es as <- <-].
      destruct (merge_key_add meta ra e rp s0 m) as [err|[s' d]] eqn:E; injection Es as <- <-; [done|].
      destruct (add_spec _ _ _ _ _ _ _ _ E) as (req & rs & dl & _ & _ & _ & _ & _ & _ & _ & _ & Er & _). rewrite Er. intros p r Hp.
      apply lookup_insert_Some in Hp as [[_ <-]|[_ Hp]]; [done|by eapply H0].
    - destruct (negb rp && _); [by injection Es as <- <-|]. destruct (merge_key_remove rr e s0 m) as [err|[s' d]] eqn:E; injection Es as <- <-; [done|].
      destruct (rem_spec _ _ _ _ _ _ E) as (r & _ & _ & Er & _). rewrite Er. intros p r' Hp. apply lookup_delete_Some in Hp as [_ Hp]. by eapply H0.
    - destruct (use_key e s0 u bt) as [err|s'] eqn:E; injection Es as <- <-; [done|]. destruct (use_spec _ _ _ _ _ E) as [->|(st & _ & _ & ->)]; done. }
  pose proof (Hgen _ _ _ _ Hb Hrun ltac:(done) _ _ Hr) as Hok. unfold add_body_ok in Hok. rewrite !andb_true_iff in Hok.
  destruct Hok as ((((_ & _) & Ht) & Hm) & Hs). unfold scopes_ok in Hs. rewrite !andb_true_iff in Hs. destruct Hs as ((Hne & Hlen) & Hall).
  unfold MAX_KEY_TTL in Hm. split; [lia|]. split; [by destruct (ka_scopes (r_msg r))|]. split; [apply Nat.leb_le in Hlen; exact Hlen|].
  intros z Hz. rewrite forallb_forall in Hall. apply elem_of_list_In in Hz. specialize (Hall z Hz). unfold scope_ok in Hall. cbn [existsb] in Hall. lia.
Qed.

(** ** Examples and refutations. A toy cryptography: the "recovered address" is the account number. *)
Definition xmeta (m : kadd) : option (N * bytes * N) := match ka_blob m with [req; dl] => Some (req, [req], dl) | _ => None end.
Definition xra (m : kadd) : option bytes := Some [ka_fid m].
Definition xrr (m : krem) : option bytes := Some [kr_fid m].
Definition xenv : genv := GEnv (fun f => Some [f]) (fun _ _ => false).
Definition xkey (n : N) : bytes := replicate 32 n.
(** account [f], key [n], app [req], counter [c], at time [t] *)
Definition xadd (f n req c t : N) : gop := GAdd xenv false (KAdd f t (xkey n) [1; 3]%Z 1000 c 1 [req; 100000]).
Definition xrem (f n ty c : N) : gop := GRem xenv false (KRem f 0 (xkey n) ty c 1 (xkey n) []).
Definition xuse (f n ty t bt : N) : gop := GUse xenv (KUse f (xkey n) ty t) bt.
Definition xouts (os : list gop) : list bool := map accepted (grun xmeta xra xrr g_init os).2.

Example gasless_example :
  xouts [xadd 7 1 50 1 100; xadd 8 1 50 1 100; xuse 7 1 1 500 600; xuse 7 1 2 500 600; xuse 7 1 3 500 1500; xuse 7 1 3 500 1501;
         xadd 7 1 50 2 1501; xuse 7 1 3 500 1501; xadd 7 1 51 3 1501; xrem 7 1 1 2; xrem 7 1 1 3; xuse 7 1 3 500 1501; xadd 8 1 50 1 100]
  = [true; false; true; false; true; false; true; true; false; false; true; false; true].
Proof. by vm_compute. Qed.
Example C27_example : let s := (grun xmeta xra xrr g_init [xadd 7 1 50 1 100; xadd 7 2 50 2 100; xadd 8 3 50 1 100; xrem 7 1 2 9]).1 in
  g_own s !! xkey 1 = None /\ g_own s !! xkey 2 = Some 7 /\ g_own s !! xkey 3 = Some 8 /\ g_cnt s !! 7 = Some 1.
Proof. by vm_compute. Qed.
(** The hypotheses of the strictly-increasing and no-replay theorems are met by an add followed by a removal. *)
Example C28_example : exists s1 d1 s2 outs s3 d2,
  gstep xmeta xra xrr g_init (xadd 7 1 50 1 100) = (s1, GOk d1) /\ grun xmeta xra xrr s1 [xuse 7 1 1 500 600] = (s2, outs) /\
  gstep xmeta xra xrr s2 (xrem 7 1 1 2) = (s3, GOk d2) /\ custody_auth (xadd 7 1 50 1 100) = Some (7, 1) /\ custody_auth (xrem 7 1 1 2) = Some (7, 2).
Proof.
  do 6 eexists. split; [vm_compute; reflexivity|]. split; [vm_compute; reflexivity|]. split; [vm_compute; reflexivity|]. by vm_compute.
Qed.
Example C30_expired_example : let s := (gstep xmeta xra xrr g_init (xadd 7 1 50 1 100)).1 in
  g_last s !! (7, xkey 1) = Some 100 /\ xouts [xadd 7 1 50 1 100; xuse 7 1 1 1500 1101; xuse 7 1 1 1500 1102] = [true; false; false].
Proof. by vm_compute. Qed.

(** Refuted as stated: a self-revocation that was accepted once is accepted again once the same key has been registered
    anew through another app, because its counter is looked up under the current requesting app. *)
Theorem C28_self_revocation_replay_refuted : exists o mid s1 d1 s2 outs s3 d2,
  gstep xmeta xra xrr (grun xmeta xra xrr g_init [xadd 7 1 50 1 100]).1 o = (s1, GOk d1) /\
  grun xmeta xra xrr s1 mid = (s2, outs) /\ forallb accepted outs = true /\
  gstep xmeta xra xrr s2 o = (s3, GOk d2).
Proof.
  exists (xrem 7 1 2 5), [xadd 7 1 60 2 200]. do 6 eexists. split; [vm_compute; reflexivity|]. split; [vm_compute; reflexivity|].
  split; [vm_compute; reflexivity|]. vm_compute; reflexivity.
Qed.
(** Re-submitting KEY_ADD can bring the expiry forward: the recorded use is overwritten by the message's own timestamp. *)
Theorem C30_readd_shortens_refuted : exists os p a b, g_last (grun xmeta xra xrr g_init os).1 !! p = Some a /\
  exists o, accepted (gstep xmeta xra xrr (grun xmeta xra xrr g_init os).1 o).2 = true /\
    g_last (gstep xmeta xra xrr (grun xmeta xra xrr g_init os).1 o).1 !! p = Some b /\ b < a.
Proof.
  exists [xadd 7 1 50 1 100; xuse 7 1 1 900 600], (7, xkey 1), 900, 150. split; [by vm_compute|]. exists (xadd 7 1 50 2 150). by vm_compute.
Qed.
(** A gasless key that is also an active on-chain signer of the account is not confined by its scopes. *)
Theorem C30_onchain_unconfined : forall meta ra rr s e u bt, ge_signer e (ku_fid u) (ku_signer u) = true -> gstep meta ra rr s (GUse e u bt) = (s, GOk None).
Proof. intros meta ra rr s e u bt H. cbn [gstep]. unfold use_key, active_key. by rewrite H. Qed.

(** ** C53: signed authorizations have a deadline *)
(** What holds: the deadline of the app's key request is respected, measured by the message's own timestamp. *)
Theorem C53_request_deadline : forall meta ra rr s e rp m s' d, gstep meta ra rr s (GAdd e rp m) = (s', GOk d) ->
  exists req rs dl, meta m = Some (req, rs, dl) /\ ka_ts m <= dl.
Proof.
  intros meta ra rr s e rp m s' d Hs. cbn [gstep] in Hs. destruct (negb rp && _); [done|].
  destruct (merge_key_add meta ra e rp s m) as [err|[s1 d1]] eqn:E; [done|]. destruct (add_spec _ _ _ _ _ _ _ _ E) as (req & rs & dl & H1 & H2 & _). eauto.
Qed.
(** Refuted: the deadline the account's custody wallet signed is never compared with any time: an authorization that
    expired in second 1 is accepted in a message dated 50000 seconds later, for additions and for removals. *)
Theorem C53_custody_deadline_refuted : exists e m s' d m' s'' d', gstep xmeta xra xrr g_init (GAdd e false m) = (s', GOk d) /\
  ka_deadline m = 1 /\ ka_ts m = 50000 /\
  gstep xmeta xra xrr s' (GRem e false m') = (s'', GOk d') /\ kr_deadline m' = 1 /\ kr_ts m' = 50000 /\ kr_sigtype m' = 1.
Proof.
  exists xenv, (KAdd 7 50000 (xkey 1) [1; 3]%Z 1000 1 1 [50; 100000]). do 2 eexists.
  exists (KRem 7 50000 (xkey 1) 1 2 1 (xkey 1) []). do 2 eexists. split; [vm_compute; reflexivity|]. split; [done|]. split; [done|]. split; [vm_compute; reflexivity|]. done.
Qed.

Print Assumptions C27_one_owner.
Print Assumptions C28_no_replay.
Print Assumptions C29_count_exact_and_bounded.
Print Assumptions C30_admission.
Print Assumptions C30_expired_stays_expired.
Print Assumptions C30_granted_scopes.
