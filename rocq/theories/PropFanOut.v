(** Properties C92 (reads over all shards with tokens by position), C93 (followers: cursors by shard) and C94 (the
    signers of an account from two stores). *)
From Coq Require Import ZifyN ZifyNat ZifyBool.
From Verif Require Import Base Codec Kv Paging PagingProofs PropPaging FanOut FanOutProofs.
#[local] Open Scope N_scope.

(** [ps] is what a client reads from one shard alone. *)
Definition shard_reads {A} (page : option bytes -> res unit (list A * option bytes)) (ps : list (list A)) : Prop :=
  exists fuel, follow page fuel None = Some (Ok ps).
Definition round_trips {B} (json : B -> bytes) (unjson : bytes -> option B) : Prop := forall x, unjson (json x) = Some x.

(** A page token format for the examples. *)
Definition ex_json {B} `{Countable B} (x : B) : bytes := [Npos (encode x)].
Definition ex_unjson {B} `{Countable B} (b : bytes) : option B := match b with [Npos p] => decode p | _ => None end.
Lemma ex_round {B} `{Countable B} : round_trips (B := B) ex_json ex_unjson.
Proof. intros x. apply decode_encode. Qed.

(** ** C92 *)

(** Casts by parent and by mention, reactions by cast, links by target: the listing never ends, whatever the shards
    hold. *)
Theorem C92_endless_refuted : forall {A} json unjson (shards : list (pager A)) sz rev pss,
  round_trips json unjson -> Forall2 (fun p ps => shard_reads (fun t => p (POpts sz t rev)) ps) shards pss ->
  forall fuel, follow (fan_out json unjson true shards sz rev) fuel None = None.
Proof.
  intros A json unjson shards sz rev pss Hj Hs fuel. destruct (shards_traces sz rev shards pss Hs) as (cs & <- & <- & Hcs).
  eapply fan_never; [done|done|by apply (at_start unjson sz rev)].
Qed.
(** The pages of any such listing: request [j] gives every shard's page [j] modulo its number of pages. *)
Fixpoint requests {A} (page : option bytes -> res unit (list A * option bytes)) (k : nat) (tok : option bytes) : list (list A) :=
  match k with
  | O => []
  | S k => match page tok with Ok (l, t) => l :: requests page k t | _ => [] end
  end.
Theorem C92_pages : forall {A} json unjson (shards : list (pager A)) sz rev pss,
  round_trips json unjson -> Forall2 (fun p ps => shard_reads (fun t => p (POpts sz t rev)) ps) shards pss ->
  forall k, requests (fan_out json unjson true shards sz rev) k None =
    map (fun j => concat (map (fun ps => nth (j mod length ps) ps []) pss)) (seq 0 k).
Proof.
  intros A json unjson shards sz rev pss Hj Hs k. destruct (shards_traces sz rev shards pss Hs) as (cs & <- & <- & Hcs).
  assert (H : forall k j tok, at_pos unjson cs j tok -> requests (fan_out json unjson true (map c_p cs) sz rev) k tok =
    map (fun j => concat (map (fun ps => nth (j mod length ps) ps []) (map c_ps cs))) (seq j k)).
  { clear k. induction k as [|k IH]; intros j tok Ht; [done|]. cbn [requests seq map].
    rewrite (fan_step json unjson sz rev true cs j tok Hcs Ht). cbn [orb]. f_equal; [by rewrite map_map|].
    apply IH. by apply at_json. }
  apply H. by apply (at_start unjson sz rev).
Qed.
(** Reactions by target: the listing ends, after as many requests as the least common multiple of the shards' numbers
    of pages. *)
Theorem C92_lcm : forall {A} json unjson (shards : list (pager A)) sz rev pss,
  round_trips json unjson -> Forall2 (fun p ps => shard_reads (fun t => p (POpts sz t rev)) ps) shards pss ->
  let L := foldr Nat.lcm 1%nat (map length pss) in
  forall fuel, (L <= fuel)%nat ->
  follow (fan_out json unjson false shards sz rev) fuel None =
    Some (Ok (map (fun j => concat (map (fun ps => nth (j mod length ps) ps []) pss)) (seq 0 L))).
Proof.
  intros A json unjson shards sz rev pss Hj Hs L fuel Hf. destruct (shards_traces sz rev shards pss Hs) as (cs & <- & <- & Hcs).
  assert (HL : clcm cs = L) by (unfold clcm, L; by rewrite map_map).
  rewrite (fan_ends json unjson Hj sz rev cs Hcs L 0 fuel None); [| |lia| |lia].
  - do 2 f_equal. apply map_ext. intros j. by rewrite map_map.
  - by apply (at_start unjson sz rev).
  - rewrite <- HL. by apply (clcm_pos sz rev).
Qed.
(** A shard with [n] pages is listed [L / n] times. *)
Theorem C92_repeats_refuted : forall {A} json unjson (shards : list (pager A)) sz rev pss,
  round_trips json unjson -> Forall2 (fun p ps => shard_reads (fun t => p (POpts sz t rev)) ps) shards pss ->
  let L := foldr Nat.lcm 1%nat (map length pss) in
  exists pages, follow (fan_out json unjson false shards sz rev) L None = Some (Ok pages) /\
    concat pages ≡ₚ concat (map (fun ps => concat (repeat (concat ps) (L / length ps))) pss).
Proof.
  intros A json unjson shards sz rev pss Hj Hs L. eexists. split; [by apply (C92_lcm json unjson shards sz rev pss)|].
  destruct (shards_traces sz rev shards pss Hs) as (cs & <- & <- & Hcs).
  assert (HL : clcm cs = L) by (unfold clcm, L; by rewrite map_map).
  transitivity (concat (map (fun j => concat (map (crow j) cs)) (seq 0 L))).
  { apply reflexive_eq. f_equal. apply map_ext. intros j. by rewrite map_map. }
  rewrite (fan_rows sz rev) by (done || (intros c Hc; rewrite <- HL; by apply clcm_div)). by rewrite map_map.
Qed.
(** Shards with the same number of pages are listed once.
    Partial: only then; a shard with fewer pages than another is listed again. *)
Theorem C92_once_partial : forall {A} json unjson (shards : list (pager A)) sz rev pss n,
  round_trips json unjson -> Forall2 (fun p ps => shard_reads (fun t => p (POpts sz t rev)) ps) shards pss ->
  Forall (fun ps => length ps = n) pss -> pss <> [] ->
  exists pages, follow (fan_out json unjson false shards sz rev) n None = Some (Ok pages) /\ length pages = n /\
    concat pages ≡ₚ concat (map (@concat A) pss).
Proof.
  intros A json unjson shards sz rev pss n Hj Hs Hn Hne.
  assert (Hn0 : (0 < n)%nat).
  { destruct (shards_traces sz rev shards pss Hs) as (cs & _ & <- & Hcs). destruct cs as [|c cs]; [done|].
    apply Forall_cons in Hcs as [Hc _]. apply (cpos sz rev) in Hc. cbn in Hn. apply Forall_cons in Hn as [Hn _]. unfold cn in Hc. lia. }
  assert (HL : foldr Nat.lcm 1%nat (map length pss) = n).
  { clear -Hn Hne Hn0. induction Hn as [|ps pss Hp Hn IH]; [done|]. cbn [map foldr]. rewrite Hp.
    destruct pss as [|ps' pss]; [cbn; apply Nat.lcm_1_r|]. rewrite IH by done.
    apply Nat.divide_lcm_eq_r. done. }
  destruct (C92_repeats_refuted json unjson shards sz rev pss Hj Hs) as (pages & H1 & H2).
  pose proof (C92_lcm json unjson shards sz rev pss Hj Hs) as Hlen. cbv zeta in Hlen.
  rewrite HL in H1, H2, Hlen. specialize (Hlen n ltac:(lia)). exists pages. split; [done|].
  rewrite H1 in Hlen. assert (pages = map (fun j => concat (map (fun ps => nth (j mod length ps) ps []) pss)) (seq 0 n)) as -> by congruence.
  split; [by rewrite map_length, seq_length|]. rewrite H2. apply reflexive_eq. f_equal. apply map_ext_in. intros ps Hps.
  rewrite Forall_forall in Hn. rewrite (Hn ps) by (by apply elem_of_list_In). rewrite Nat.div_same by lia. cbn. by rewrite app_nil_r.
Qed.
(** A shard whose store fails is listed as empty. *)
Theorem C92_failure_hidden_refuted : forall {A} json unjson always (before after : list (pager A)) p sz rev tok,
  (forall po x, p po <> Ok x) ->
  fan_out json unjson always (before ++ p :: after) sz rev tok =
  fan_out json unjson always (before ++ (fun _ => Ok ([], None)) :: after) sz rev tok.
Proof.
  intros A json unjson always before after p sz rev tok Hp. unfold fan_out. rewrite !app_length. cbn [length].
  destruct (shard_tokens _ _ _) as [ts|]; [|done]. destruct (negb _); [done|].
  assert (H : zip_with (fun p t => page_or_empty p (POpts sz t rev)) (before ++ p :: after) ts =
              zip_with (fun p t => page_or_empty p (POpts sz t rev)) (before ++ (fun _ => Ok ([], None)) :: after) ts).
  { revert ts. induction before as [|b before IH]; intros [|t ts]; cbn [app zip_with]; try done.
    - f_equal. unfold page_or_empty. destruct (p _) as [x| |] eqn:E; [by apply Hp in E|done|done].
    - by rewrite IH. }
  by rewrite H.
Qed.

(** Two shards, with three and with one row. *)
Definition ex_shard (l : list N) : pager N :=
  list_filtered (fun _ v => Some v) (fun _ => true) (list_to_map (map (fun n => ([7; n], n)) l)) [7] [8].
Definition ex_shards : list (pager N) := [ex_shard [1; 3; 5]; ex_shard [2]].
Notation ex_fan always shards sz := (fan_out (A := N) (ex_json (B := list (option bytes))) ex_unjson always shards (Some sz) false).
Lemma ex_reads : Forall2 (fun p ps => shard_reads (fun t => p (POpts (Some 2) t false)) ps) ex_shards [[[1; 3]; [5]]; [[2]]].
Proof. repeat constructor; exists 3%nat; vm_compute; done. Qed.
Example C92_ex :
  round_trips (B := list (option bytes)) ex_json ex_unjson /\
  requests (ex_fan true ex_shards 2) 5 None = [[1; 3; 2]; [5; 2]; [1; 3; 2]; [5; 2]; [1; 3; 2]] /\
  follow (ex_fan true ex_shards 2) 20 None = None /\
  (* the row of the second shard twice *)
  follow (ex_fan false ex_shards 2) 20 None = Some (Ok [[1; 3; 2]; [5; 2]]) /\
  (* pages of one row: four pages and two pages *)
  follow (ex_fan false ex_shards 1) 20 None = Some (Ok [[1; 2]; [3]; [5; 2]; []]) /\
  follow (ex_fan false [ex_shard [1; 3]; ex_shard [2; 4]] 2) 20 None = Some (Ok [[1; 3; 2; 4]; []]).
Proof. split; [apply ex_round|]. vm_compute. done. Qed.
(** After a restart the shards may be visited in another order.  The old token then repeats the rows of one shard and
    passes over those of the other. *)
Theorem C92_order_refuted : exists (a b : pager N) l t,
  ex_fan false [a; b] 2 None = Ok (l, Some t) /\ l = [8; 9; 1; 2] /\
  ex_fan false [a; b] 2 (Some t) = Ok ([10; 3], None) /\
  exists t', ex_fan false [b; a] 2 (Some t) = Ok ([8; 9], Some t') /\
  (* the shard [b] starts over *)
  exists t'', ex_fan false [b; a] 2 (Some t') = Ok ([1; 2; 10], Some t'').
Proof.
  exists (ex_shard [8; 9; 10]), (ex_shard [1; 2; 3]). eexists _, _. split; [vm_compute; reflexivity|]. split; [done|].
  split; [vm_compute; reflexivity|]. eexists. split; [vm_compute; reflexivity|]. eexists. vm_compute. reflexivity.
Qed.

(** ** C93 *)
#[global] Instance scan_pos_countable : Countable scan_pos.
Proof.
  refine (inj_countable' (fun s => match s with Fresh => inl false | Exhausted => inl true | Resume t => inr t end)
    (fun x => match x with inl false => Fresh | inl true => Exhausted | inr t => Resume t end) _). by intros [| |].
Defined.

(** The pages of a follower listing: request [j] has every shard's page [j], if it has one. *)
Theorem C93_pages : forall {A} json unjson n (hosted : gmap N (pager A)) sz rev pss,
  round_trips json unjson -> (forall cs, json cs <> []) -> sz <> Some 0 ->
  Forall2 (fun i ps => exists p, hosted !! N.of_nat i = Some p /\ shard_reads (fun t => p (channel_opts sz t rev)) ps) (seq 1 n) pss ->
  let M := foldr Nat.max 1%nat (map length pss) in
  forall fuel, (M <= fuel)%nat ->
  follow (followers_page json unjson n hosted sz rev) fuel None =
    Some (Ok (map (fun j => concat (map (fun ps => nth j ps []) pss)) (seq 0 M))).
Proof.
  intros A json unjson n hosted sz rev pss Hj Hne Hsz Hs M fuel Hf.
  destruct (hosted_shards sz rev n hosted pss Hs) as (cs & H1 & <- & H3 & H4).
  assert (HM : nmax cs = M) by (unfold nmax, M; by rewrite map_map).
  assert (Hnd : NoDup (map n_id cs)) by (rewrite H4; apply ids_nodup).
  rewrite (followers_ends json unjson Hj Hne sz rev n hosted cs Hsz H1 H3 Hnd M 0 fuel None); [| |lia| |lia].
  - do 2 f_equal. apply map_ext. intros j. by rewrite map_map.
  - by apply (req_start unjson sz rev).
  - rewrite <- HM. apply nmax_pos.
Qed.
(** Together they have every shard's rows exactly once. *)
Theorem C93_once : forall {A} json unjson n (hosted : gmap N (pager A)) sz rev pss,
  round_trips json unjson -> (forall cs, json cs <> []) -> sz <> Some 0 ->
  Forall2 (fun i ps => exists p, hosted !! N.of_nat i = Some p /\ shard_reads (fun t => p (channel_opts sz t rev)) ps) (seq 1 n) pss ->
  forall fuel, (foldr Nat.max 1 (map length pss) <= fuel)%nat ->
  exists pages, follow (followers_page json unjson n hosted sz rev) fuel None = Some (Ok pages) /\
    concat pages ≡ₚ concat (map (@concat A) pss).
Proof.
  intros A json unjson n hosted sz rev pss Hj Hne Hsz Hs fuel Hf. eexists. split; [by apply C93_pages|].
  destruct (hosted_shards sz rev n hosted pss Hs) as (cs & H1 & <- & H3 & H4).
  rewrite (map_map n_ps (@concat A) cs), (map_map n_ps length cs). rewrite <- (followers_rows cs (nmax cs)) by apply nmax_le.
  unfold nmax. apply reflexive_eq. f_equal. apply map_ext. intros j. by rewrite map_map.
Qed.
(** With the stores: the follower rows of every shard's database, each once. *)
Theorem C93_followers : forall {V A} (mk : bytes -> V -> option A) json unjson n (dbs : nat -> kv V) prefix sz rev ls,
  round_trips json unjson -> (forall cs, json cs <> []) -> sz <> Some 0 ->
  prefix <> [] -> Exists (fun x => x <> 255) prefix ->
  (forall i k v, dbs i !! k = Some v -> bytes_ok k = true /\ (length prefix <= length k)%nat) ->
  Forall2 (fun i l => is_listing (dbs i) prefix (increment_vec_u8 prefix) rev l /\ Forall (fun r => is_Some (mk r.1 r.2)) l) (seq 1 n) ls ->
  let hosted := list_to_map (map (fun i => (N.of_nat i, list_channel mk (fun _ => true) (dbs i) prefix)) (seq 1 n)) in
  exists fuel pages, follow (followers_page json unjson n hosted sz rev) fuel None = Some (Ok pages) /\
    concat pages ≡ₚ concat (map (entries mk (fun _ => true)) ls).
Proof.
  intros V A mk json unjson n dbs prefix sz rev ls Hj Hne Hsz Hp Hex Hk Hl hosted.
  assert (Hs : exists pss, Forall2 (fun i ps => exists p, hosted !! N.of_nat i = Some p /\ shard_reads (fun t => p (channel_opts sz t rev)) ps) (seq 1 n) pss
    /\ map (@concat A) pss = map (entries mk (fun _ => true)) ls).
  { assert (Hh : forall i, i ∈ seq 1 n -> hosted !! N.of_nat i = Some (list_channel mk (fun _ => true) (dbs i) prefix)).
    { intros i Hi. unfold hosted. apply elem_of_list_to_map_1.
      - rewrite <- list_fmap_compose. apply (ids_nodup n).
      - apply elem_of_list_In, in_map_iff. exists i. split; [done|]. by apply elem_of_list_In. }
    revert Hh. clearbody hosted. revert Hl. generalize (seq 1 n) as ids. intros ids Hl Hh.
    induction Hl as [|i l ids ls [Hl1 Hl2] Hl IH]; [by exists []|].
    destruct IH as (pss & H1 & H2); [intros i' Hi'; apply Hh; by right|].
    destruct (C12_channel mk (fun _ => true) (dbs i) prefix (Some (N.min (default PAGE_SIZE_MAX sz) PAGE_SIZE_MAX)) rev l Hp Hex (Hk i) Hl1 Hl2 (S (length l)) ltac:(lia))
      as (ps & Hf & Hc & _).
    exists (ps :: pss). split; [|cbn; by rewrite Hc, H2]. constructor; [|done]. eexists. split; [apply Hh; left|].
    exists (S (length l)). rewrite <- Hf. generalize (S (length l)) as fuel. clear -Hp Hex Hk Hl1.
    assert (H : forall fuel tok, tok <> Some [] -> follow (fun t => list_channel mk (fun _ => true) (dbs i) prefix (channel_opts sz t rev)) fuel tok =
      follow (fun t => list_channel mk (fun _ => true) (dbs i) prefix (POpts (Some (N.min (default PAGE_SIZE_MAX sz) PAGE_SIZE_MAX)) t rev)) fuel tok).
    { induction fuel as [|fuel IH]; intros tok Ht; [done|]. cbn [follow].
      assert (channel_opts sz tok rev = POpts (Some (N.min (default PAGE_SIZE_MAX sz) PAGE_SIZE_MAX)) tok rev) as ->.
      { unfold channel_opts. by destruct tok as [[|]|]. }
      destruct (list_channel _ _ _ _ _) as [[x [t|]]| |] eqn:E; [|done|done|done].
      destruct t as [|b t]; [|by rewrite IH].
      (* an empty token is refused by the store *)
      destruct fuel as [|fuel]; [done|]. cbn [follow]. exfalso. clear -E Hp. unfold list_channel in E.
      destruct (negb _); [done|].
      destruct (for_each _ _ _ _ _ _) as [[[l k] d]| |] eqn:Ef; [|done|done].
      assert (d = false /\ k = Some []) as [-> ->] by (destruct d; split; congruence).
      unfold for_each, for_each_paged in Ef. cbn [po_size] in Ef.
      set (po := POpts None _ _) in Ef.
      assert (Hkn : forall l0 a, (forall k v, (k, v) ∈ l0 -> k <> []) -> a.2 <> Some [] ->
        forall r, iterate (chan_cb mk (fun _ => true) (psize (POpts (Some (N.min (default PAGE_SIZE_MAX sz) PAGE_SIZE_MAX)) tok rev))) None 0 l0 a = Ok r -> r.1.2 <> Some []).
      { clear. induction l0 as [|[k v] l0 IH]; intros a Hin Ha r H; cbn [iterate] in H.
        - assert (r = (a, true)) as -> by congruence. done.
        - unfold chan_cb at 1 in H. destruct (mk k v) as [x|]; [|done].
          assert (Hkk : k <> []) by (eapply Hin; left).
          destruct (_ <=? _).
          + assert (r = (a.1 ++ [x], Some k, false)) as -> by congruence. cbn. congruence.
          + eapply IH; [|  |exact H]; [intros k' v' Hk'; eapply Hin; right; exact Hk'|cbn; congruence]. }
      eapply (Hkn _ _) in Ef; [done| |done]. intros k v Hkv. eapply (scan_key_nonempty (dbs i) prefix); [done|exact Hkv]. }
    intros fuel. by apply H. }
  destruct Hs as (pss & Hs & He).
  destruct (C93_once json unjson n hosted sz rev pss Hj Hne Hsz Hs _ (le_n _)) as (pages & H1 & H2).
  eexists _, pages. split; [exact H1|]. by rewrite H2, He.
Qed.
(** A token is accepted only if it names every shard of the node exactly once and no other. *)
Theorem C93_token_names_shards : forall unjson b ids m, b <> [] -> NoDup ids -> decode_cursors unjson (Some b) ids = Some m ->
  exists cs, unjson b = Some cs /\ NoDup cs.*1 /\ (forall id, id ∈ cs.*1 <-> id ∈ ids) /\
    (forall id s, m !! id = Some s <-> (id, s) ∈ cs).
Proof.
  intros unjson b ids m Hb Hnd. unfold decode_cursors. destruct b as [|x b]; [done|].
  destruct (unjson (x :: b)) as [cs|]; [|done]. destruct (add_cursors ∅ cs) as [m'|] eqn:Ea; [|done].
  destruct (add_cursors_spec _ _ _ Ea) as (H1 & _ & H3).
  destruct (negb _ || existsb _ _) eqn:Ec; [done|]. intros H. assert (m' = m) as -> by congruence.
  apply orb_false_iff in Ec as [Ec1 Ec2]. apply negb_false_iff, Nat.eqb_eq in Ec1.
  assert (Hm : forall id s, m !! id = Some s <-> (id, s) ∈ cs).
  { intros id s. rewrite H3, lookup_empty. split; [by intros [?|?]|by right]. }
  exists cs. split; [done|]. split; [done|]. split; [|done].
  assert (Hin : forall id, id ∈ ids -> id ∈ cs.*1).
  { intros id Hid. destruct (m !! id) as [s|] eqn:E.
    - apply Hm in E. apply elem_of_list_fmap. by exists (id, s).
    - exfalso. apply not_true_iff_false in Ec2. apply Ec2, existsb_exists. exists id. split; [by apply elem_of_list_In|by rewrite E]. }
  assert (Hsz : length cs.*1 = length ids).
  { rewrite <- Ec1, <- size_dom.
    assert (dom m = (list_to_set cs.*1 : gset N)) as ->.
    { apply set_eq. intros id. rewrite elem_of_dom, elem_of_list_to_set, elem_of_list_fmap. split.
      - intros [s Hs]. apply Hm in Hs. by exists (id, s).
      - intros ([id' s] & -> & Hs). exists s. by apply Hm. }
    by rewrite size_list_to_set. }
  assert (Hp : ids ⊆+ cs.*1) by (by apply NoDup_submseteq).
  apply submseteq_Permutation_length_eq in Hp; [|done].
  intros id. by rewrite Hp.
Qed.
(** A page is served only if every shard of the network is hosted and every unfinished one answers. *)
Theorem C93_no_gap : forall {A} json unjson n (hosted : gmap N (pager A)) sz rev tok r,
  followers_page json unjson n hosted sz rev tok = Ok r ->
  forall i, (1 <= i <= n)%nat -> exists p m, hosted !! N.of_nat i = Some p /\
    decode_cursors unjson tok (map N.of_nat (seq 1 n)) = Some m /\
    (m !! N.of_nat i = Some Exhausted \/
     exists t x, (m !! N.of_nat i = Some Fresh /\ t = None \/ exists u, m !! N.of_nat i = Some (Resume u) /\ t = Some u) /\
       p (channel_opts sz t rev) = Ok x).
Proof.
  intros A json unjson n hosted sz rev tok r H i Hi. unfold followers_page in H.
  destruct (bool_decide _); [done|]. destruct (all_shards n hosted) as [shards|] eqn:Ea; [|done].
  unfold all_shards in Ea. apply mapM_Some in Ea.
  assert (Hids : shards.*1 = map N.of_nat (seq 1 n)).
  { clear -Ea. induction Ea as [|j s js shards Hj _ IH]; [done|]. destruct (hosted !! N.of_nat j) as [p|]; [|done].
    assert (s = (N.of_nat j, p)) as -> by congruence. cbn. by rewrite <- IH. }
  assert (Hs : exists p, hosted !! N.of_nat i = Some p /\ (N.of_nat i, p) ∈ shards).
  { assert (Hin : i ∈ seq 1 n) by (apply elem_of_seq; lia). clear -Ea Hin.
    induction Ea as [|j s js shards Hj _ IH]; [by apply elem_of_nil in Hin|].
    apply elem_of_cons in Hin as [->|Hin].
    - destruct (hosted !! N.of_nat j) as [p|]; [|done]. exists p. split; [done|].
      assert (s = (N.of_nat j, p)) as -> by congruence. left.
    - destruct (IH Hin) as (p & H1 & H2). exists p. split; [done|by right]. }
  destruct Hs as (p & Hp & Hin). rewrite Hids in H.
  destruct (decode_cursors _ _ _) as [m|]; [|done]. exists p, m. split; [done|]. split; [done|].
  destruct (cursors_loop sz rev m shards [] []) as [y| |] eqn:El; [|done|done].
  apply loop_ok in El. rewrite Forall_forall in El. specialize (El _ Hin). cbn in El.
  destruct (m !! N.of_nat i) as [[|u|]|]; [| |by left|done].
  - destruct El as [x Hx]. right. exists None, x. split; [by left|done].
  - destruct El as [x Hx]. right. exists (Some u), x. split; [right; by exists u|done].
Qed.
Definition ex_chan (l : list N) : pager N :=
  list_channel (fun _ v => Some v) (fun _ => true) (list_to_map (map (fun n => ([7; n], n)) l)) [7].
Definition ex_hosted : gmap N (pager N) := <[1 := ex_chan [1; 3; 5]]> (<[2 := ex_chan [2]]> (<[3 := ex_chan []]> ∅)).
Notation ex_followers n sz := (followers_page (A := N) (ex_json (B := list (N * scan_pos))) ex_unjson n ex_hosted sz false).
Lemma C93_ex_reads :
  Forall2 (fun i ps => exists p, ex_hosted !! N.of_nat i = Some p /\ shard_reads (fun t => p (channel_opts (Some 2) t false)) ps)
    (seq 1 3) [[[1; 3]; [5]]; [[2]]; [[]]].
Proof. repeat constructor; eexists; (split; [vm_compute; reflexivity|]); exists 3%nat; vm_compute; done. Qed.
Example C93_ex :
  follow (ex_followers 3 (Some 2)) 20 None = Some (Ok [[1; 3; 2]; [5]]) /\
  follow (ex_followers 3 None) 20 None = Some (Ok [[1; 3; 5; 2]]) /\
  follow (ex_followers 3 (Some 1)) 20 None = Some (Ok [[1; 2]; [3]; [5]; []]) /\
  (* a shard named twice, a shard missing, a shard too many, a fourth shard that is not hosted *)
  ex_followers 3 (Some 2) (Some (ex_json [(1, Fresh); (1, Exhausted); (2, Fresh); (3, Fresh)])) = Err tt /\
  ex_followers 3 (Some 2) (Some (ex_json [(1, Fresh); (3, Fresh)])) = Err tt /\
  ex_followers 3 (Some 2) (Some (ex_json [(1, Fresh); (2, Exhausted); (3, Fresh); (4, Fresh)])) = Err tt /\
  ex_followers 4 (Some 2) None = Err tt /\ ex_followers 3 (Some 0) None = Err tt /\
  ex_followers 3 (Some 2) (Some (ex_json [(1, Resume [7; 1]); (2, Exhausted); (3, Fresh)])) =
    Ok ([3; 5], Some (ex_json [(1, Resume [7; 5]); (2, Exhausted); (3, Exhausted)])).
Proof. vm_compute. done. Qed.

(** ** C94 *)
#[global] Instance stoken_eq_dec : EqDecision stoken.
Proof. solve_decision. Defined.
#[global] Instance stoken_countable : Countable stoken.
Proof.
  refine (inj_countable' (fun s => (st_onchain s, st_gasless s, st_odone s, st_gdone s))
    (fun x => let '(a, b, c, d) := x in SToken a b c d) _). by intros [].
Defined.

(** The two stores of the signers of an account: a filtered listing of on-chain events, a listing of gasless keys. *)
Section C94.
  Context {V W A : Type}.
  Variables (mk1 : bytes -> V -> option A) (keep : A -> bool) (db1 : kv V) (start1 stop1 : bytes).
  Variables (mk2 : bytes -> W -> option A) (db2 : kv W) (start2 stop2 : bytes).
  Definition onchain_store : pager A := list_filtered mk1 keep db1 start1 stop1.
  Definition gasless_store : pager A := list_limited mk2 (fun _ => true) db2 start2 stop2.
End C94.
Lemma store_lists {V A} (mk : bytes -> V -> option A) (keep : A -> bool) (db : kv V) start stop rev l :
  start <> [] -> is_listing db start stop rev l -> Forall (fun r => is_Some (mk r.1 r.2)) l ->
  lists rev (list_filtered mk keep db start stop) None (entries mk keep l).
Proof.
  intros Hst Hl Hd. rewrite (C12_listing_unique _ _ _ _ _ _ Hl (scan_listing db start stop None rev)) in *.
  apply (filtered_lists mk keep rev db start stop Hst (S (length (scan db start stop (POpts None None rev))))); [lia|done].
Qed.
Lemma gasless_lists {V A} (mk : bytes -> V -> option A) (db : kv V) start stop rev l :
  start <> [] -> is_listing db start stop rev l -> Forall (fun r => is_Some (mk r.1 r.2)) l ->
  lists rev (gasless_store mk db start stop) None (entries mk (fun _ => true) l).
Proof.
  intros Hst Hl Hd. apply (lists_ext rev (list_filtered mk (fun _ => true) db start stop)).
  - intros po. symmetry. by apply limited_filtered.
  - by apply store_lists.
Qed.

(** With a fixed page size, the on-chain rows and then the gasless keys, each once, all pages full but the last. *)
Theorem C94_sized : forall {V W A} (mk1 : bytes -> V -> option A) (keep : A -> bool) (db1 : kv V) start1 stop1 (mk2 : bytes -> W -> option A) (db2 : kv W) start2 stop2 (json : stoken -> bytes) unjson rev n l1 l2,
  round_trips json unjson -> 1 <= n -> start1 <> [] -> start2 <> [] ->
  is_listing db1 start1 stop1 rev l1 -> Forall (fun r => is_Some (mk1 r.1 r.2)) l1 ->
  is_listing db2 start2 stop2 rev l2 -> Forall (fun r => is_Some (mk2 r.1 r.2)) l2 ->
  forall fuel, (length (entries mk1 keep l1) + length (entries mk2 (fun _ => true) l2) < fuel)%nat ->
  exists ps, follow (fun t => list_signers (A := A) json unjson (onchain_store mk1 keep db1 start1 stop1) (gasless_store mk2 db2 start2 stop2) (POpts (Some n) t rev)) fuel None = Some (Ok ps) /\
    concat ps = entries mk1 keep l1 ++ entries mk2 (fun _ => true) l2 /\ page_shape n ps.
Proof.
  intros V W A mk1 keep db1 start1 stop1 mk2 db2 start2 stop2 json unjson rev n l1 l2 Hj Hn Hs1 Hs2 Hl1 Hd1 Hl2 Hd2 fuel Hf.
  destruct (stage_onchain json unjson Hj rev (onchain_store mk1 keep db1 start1 stop1) (gasless_store mk2 db2 start2 stop2) n
    (entries mk2 (fun _ => true) l2) Hn (gasless_lists mk2 db2 start2 stop2 rev l2 Hs2 Hl2 Hd2) fuel None (entries mk1 keep l1) None eq_refl
    (store_lists mk1 keep db1 start1 stop1 rev l1 Hs1 Hl1 Hd1) Hf) as (init & last & H1 & H2 & H3 & H4).
  exists (init ++ [last]). split; [done|]. split; [done|]. by exists init, last.
Qed.
(** Without a page size, the same rows, each once. *)
Theorem C94_unsized : forall {V W A} (mk1 : bytes -> V -> option A) (keep : A -> bool) (db1 : kv V) start1 stop1 (mk2 : bytes -> W -> option A) (db2 : kv W) start2 stop2 (json : stoken -> bytes) unjson rev l1 l2,
  round_trips json unjson -> start1 <> [] -> start2 <> [] ->
  is_listing db1 start1 stop1 rev l1 -> Forall (fun r => is_Some (mk1 r.1 r.2)) l1 ->
  is_listing db2 start2 stop2 rev l2 -> Forall (fun r => is_Some (mk2 r.1 r.2)) l2 ->
  forall fuel, (length (entries mk1 keep l1) + length (entries mk2 (fun _ => true) l2) < fuel)%nat ->
  exists ps, follow (fun t => list_signers (A := A) json unjson (onchain_store mk1 keep db1 start1 stop1) (gasless_store mk2 db2 start2 stop2) (POpts None t rev)) fuel None = Some (Ok ps) /\
    concat ps ≡ₚ entries mk1 keep l1 ++ entries mk2 (fun _ => true) l2.
Proof.
  intros V W A mk1 keep db1 start1 stop1 mk2 db2 start2 stop2 json unjson rev l1 l2 Hj Hs1 Hs2 Hl1 Hd1 Hl2 Hd2 fuel Hf.
  exact (both_sides json unjson Hj rev (onchain_store mk1 keep db1 start1 stop1) (gasless_store mk2 db2 start2 stop2) fuel None None false false _ _ None eq_refl
    (store_lists mk1 keep db1 start1 stop1 rev l1 Hs1 Hl1 Hd1) (gasless_lists mk2 db2 start2 stop2 rev l2 Hs2 Hl2 Hd2) Hf).
Qed.
(** A page size of zero gives a listing that never ends. *)
Theorem C94_zero_refuted : forall {V W A} (mk1 : bytes -> V -> option A) (keep : A -> bool) (db1 : kv V) start1 stop1 (mk2 : bytes -> W -> option A) (db2 : kv W) start2 stop2 (json : stoken -> bytes) unjson rev l1,
  round_trips json unjson -> start1 <> [] ->
  is_listing db1 start1 stop1 rev l1 -> Forall (fun r => is_Some (mk1 r.1 r.2)) l1 ->
  forall fuel, follow (fun t => list_signers (A := A) json unjson (onchain_store mk1 keep db1 start1 stop1) (gasless_store mk2 db2 start2 stop2) (POpts (Some 0) t rev)) fuel None = None.
Proof.
  intros V W A mk1 keep db1 start1 stop1 mk2 db2 start2 stop2 json unjson rev l1 Hj Hs1 Hl1 Hd1 fuel.
  exact (zero_endless json unjson Hj rev (onchain_store mk1 keep db1 start1 stop1) (gasless_store mk2 db2 start2 stop2) fuel None false _ None eq_refl
    (store_lists mk1 keep db1 start1 stop1 rev l1 Hs1 Hl1 Hd1)).
Qed.

(** An account with four on-chain rows and three gasless keys. *)
Definition ex_on (l : list N) : pager N := onchain_store (fun _ v => Some v) (fun _ => true) (list_to_map (map (fun n => ([7; n], n)) l)) [7] [8].
Definition ex_gl (l : list N) : pager N := gasless_store (fun _ v => Some v) (list_to_map (map (fun n => ([9; n], n)) l)) [9] [10].
Notation ex_signers o g := (fun sz t => list_signers (A := N) (ex_json (B := stoken)) ex_unjson (ex_on o) (ex_gl g) (POpts sz t false)).
Example C94_ex :
  follow (ex_signers [1; 2; 3; 4] [11; 12; 13] (Some 3)) 20 None = Some (Ok [[1; 2; 3]; [4; 11; 12]; [13]]) /\
  follow (ex_signers [1; 2; 3; 4] [11; 12; 13] (Some 2)) 20 None = Some (Ok [[1; 2]; [3; 4]; [11; 12]; [13]]) /\
  follow (ex_signers [1; 2; 3; 4] [11; 12; 13] None) 20 None = Some (Ok [[1; 2; 3; 4; 11; 12; 13]]) /\
  follow (ex_signers [1; 2; 3; 4] [11; 12; 13] (Some 0)) 50 None = None /\
  requests (ex_signers [1; 2] [11; 12; 13] (Some 0)) 6 None = [[1]; [2]; []; []; []; []].
Proof. vm_compute. done. Qed.
(** A request with a smaller page size than the one before forgets how far the gasless keys were read: they are
    listed again. *)
Theorem C94_size_change_refuted : forall (o g : pager N) b t1 t2 l1 l2,
  (* the token of a page that left both sides unfinished *)
  ex_unjson b = Some (SToken (Some t1) (Some t2) false false) ->
  (* the next page is filled by the on-chain side alone *)
  o (POpts (Some (N.of_nat (length l1))) (Some t1) false) = Ok (l1, Some l2) ->
  exists b', list_signers ex_json ex_unjson o g (POpts (Some (N.of_nat (length l1))) (Some b) false) = Ok (l1, Some b') /\
    ex_unjson b' = Some (SToken (Some l2) None false false).
Proof.
  intros o g b t1 t2 l1 l2 Hb Ho. unfold list_signers. cbn [po_token po_size po_reverse]. rewrite Hb.
  cbn [st_odone st_onchain st_gdone st_gasless]. rewrite Ho, N.sub_diag. change (0 <? 0) with false. cbn [negb andb].
  eexists. split; [by rewrite app_nil_r|]. apply ex_round.
Qed.

(** The signer listing should have one entry for each active key. *)
Theorem C94_one_per_key_refuted : exists index db l,
  (* the key was added, removed and added again *)
  l = [SEvent [5] true 1; SEvent [5] false 1; SEvent [5] true 1] /\
  index = {[ [5] := SEvent [5] true 1 ]} /\
  get_signers index db [7] (POpts None None false) = Ok (l, None).
Proof.
  exists {[ [5] := SEvent [5] true 1 ]},
    (<[[7; 1] := SEvent [5] true 1]> (<[[7; 2] := SEvent [5] false 1]> (<[[7; 3] := SEvent [5] true 1]> ∅))).
  eexists. split; [done|]. split; [done|]. vm_compute. done.
Qed.
(** What it has: the signer events of the account, of either kind, whose key is active.
    Partial: not one event for each key. *)
Theorem C94_signers_partial : forall index (db : kv sevent) start sz rev l, start <> [] ->
  is_listing db start (increment_vec_u8 start) rev l ->
  forall fuel, (length l < fuel)%nat ->
  exists ps, follow (fun t => get_signers index db start (POpts sz t rev)) fuel None = Some (Ok ps) /\
    page_shape (page_len sz) ps /\
    forall e, e ∈ concat ps <-> e ∈ l.*2 /\ exists a, index !! se_key e = Some a /\ se_add a = true /\ se_ktype a = 1.
Proof.
  intros index db start sz rev l Hst Hl fuel Hf.
  destruct (C12_filtered (fun _ e => Some e) (fun e => key_active index (se_key e)) db start (increment_vec_u8 start) sz rev l Hst Hl) with (fuel := fuel)
    as (ps & H1 & H2 & H3); [|done|].
  { apply Forall_forall. intros r _. by eexists. }
  exists ps. split; [exact H1|]. split; [done|]. intros e. rewrite H2. unfold entries. rewrite elem_of_list_omap.
  assert (Ha : key_active index (se_key e) = true <-> exists a, index !! se_key e = Some a /\ se_add a = true /\ se_ktype a = 1).
  { unfold key_active. destruct (index !! se_key e) as [a|]; [|split; [done|by intros (a & ? & _)]].
    rewrite andb_true_iff, N.eqb_eq. split; [intros [? ?]; by exists a|]. intros (a' & E & ? & ?). assert (a = a') as -> by congruence. done. }
  rewrite <- Ha, elem_of_list_fmap. split.
  - intros ([k e'] & Hin & He). cbn in He. destruct (key_active index (se_key e')) eqn:E; [|done].
    assert (e' = e) as -> by congruence. split; [|done]. by exists (k, e).
  - intros [([k e'] & He & Hin) Hk]. cbn in He. subst e'. exists (k, e). split; [done|]. cbn. by rewrite Hk.
Qed.
Example C94_signers_ex :
  let index := {[ [5] := SEvent [5] true 1; [6] := SEvent [6] false 1 ]} in
  let db : kv sevent := <[[7; 1] := SEvent [5] true 1]> (<[[7; 2] := SEvent [6] true 1]> (<[[7; 3] := SEvent [6] false 1]> ∅)) in
  follow (fun t => get_signers index db [7] (POpts (Some 1) t false)) 5 None = Some (Ok [[SEvent [5] true 1]; []]) /\
  (* a token with both sides unfinished, then pages of one row: the gasless key 11 comes back *)
  requests (ex_signers [1; 2] [11; 12] (Some 1)) 5 (Some (ex_json (SToken (Some [7; 1]) (Some [9; 11]) false false))) =
    [[2]; [11]; [12]; []; [1]].
Proof. vm_compute. done. Qed.

(** A shard's cursor that holds an empty token reads from the start, whatever the shard; the store alone would refuse it. *)
Theorem C93_empty_token : forall (A : Type) (sz : option N) (rev : bool) (p : pager A), p (channel_opts sz (Some []) rev) = p (channel_opts sz None rev).
Proof. done. Qed.
Example C93_empty_token_ex :
  let page := list_channel (fun k (_ : N) => Some k) (fun _ => true) ({[ [5; 1] := 0%N; [5; 2] := 0%N ]} : kv N) [5%N] in
  page (channel_opts (Some 1%N) (Some []) false) = Ok ([[5%N; 1%N]], Some [5%N; 1%N]) /\ page (POpts (Some 1%N) (Some []) false) = Err tt.
Proof. split; vm_compute; done. Qed.

Print Assumptions C92_repeats_refuted.
Print Assumptions C92_once_partial.
Print Assumptions C93_followers.
Print Assumptions C93_token_names_shards.
Print Assumptions C93_no_gap.
Print Assumptions C94_sized.
Print Assumptions C94_unsized.
Print Assumptions C94_signers_partial.
Print Assumptions C93_empty_token.
