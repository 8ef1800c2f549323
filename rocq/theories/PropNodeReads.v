(** C125: what a node tells about its chain and itself. *)
From Verif Require Import OnChain OnChainProofs.
From Verif Require Import Base Codec CodecProofs Kv Paging PagingProofs BlockStoreProofs PropPaging NodeReads.
From Coq Require Import Lia ZifyN ZifyNat ZifyBool Sorting.Sorted.
#[local] Open Scope N_scope.

(** ** Blocks of a range *)
Definition in_range (start : N) (stop : option N) (n : N) : Prop := start <= n /\ match stop with Some t => n < t | None => True end.
Definition by_number (x y : N * N * N) : Prop := x.1.1 < y.1.1.
(** The stored blocks of a range, each once, by number. *)
Definition is_range (root : N) (db : kv bval) (start : N) (stop : option N) (xs : list (N * N * N)) : Prop :=
  StronglySorted by_number xs /\ forall n ts b, (n, ts, b) ∈ xs <-> stored root db n ts b /\ n < 2 ^ 64 /\ in_range start stop n.

Section R.
  Context (root shard : N) (Hr : root < 18) (ops : list bop) (Hc : chain (puts ops) = true) (Hj : forallb job_ok ops = true).
  Notation db := (brun root shard ops).
  Notation lim stop := (default [root + 1] (block_key root <$> stop)).

  Lemma range_rows start stop k v : start < 2 ^ 64 -> match stop with Some t => t < 2 ^ 64 | None => True end ->
    (k, v) ∈ scan db (block_key root start) (lim stop) (POpts (Some 100) None false) <->
    exists n ts b, stored root db n ts b /\ n < 2 ^ 64 /\ in_range start stop n /\ k = block_key root n /\ v = VBlock n ts b.
  Proof using Hr Hc Hj.
    intros Hs Ht. destruct (binv_run root shard Hr ops Hc Hj) as [lo HI]. rewrite scan_elem.
    change (bounds (block_key root start) (lim stop) (POpts (Some 100) None false)) with (block_key root start, lim stop).
    assert (HB : forall n, n < 2 ^ 64 -> in_bounds (block_key root start, lim stop) (block_key root n) = true <-> in_range start stop n).
    { intros n Hn. unfold in_bounds, ble, blt, in_range. cbn [fst snd]. rewrite lex_block by done. destruct stop as [t|]; cbn [default from_option id fmap option_fmap option_map].
      - rewrite lex_block by done. destruct (N.compare_spec start n), (N.compare_spec n t); cbn; split; intros; try done; try lia.
      - unfold block_key. cbn [lex]. destruct (N.compare_spec root (root + 1)); [lia| |lia]. destruct (N.compare_spec start n); cbn; split; intros; try done; try lia. }
    split.
    - intros [Hv Hb]. destruct (bi_only _ _ _ _ _ HI _ _ Hv) as [(n & ts & b & Hin & Hlo & -> & ->)|(n & ts & _ & -> & _)].
      + assert (n < 2 ^ 64) by (by eapply chain_n). exists n, ts, b. split; [exact Hv|]. split; [done|]. split; [by apply HB|done].
      + exfalso. unfold in_bounds, blt, ts_key in Hb. cbn [fst snd] in Hb. apply andb_prop in Hb as [_ Hb]. destruct stop as [t|]; cbn [default from_option id fmap option_fmap option_map] in Hb.
        * unfold block_key, RP_BlockIndex in Hb. cbn [lex] in Hb. destruct (N.compare_spec 18 root); [lia|lia|done].
        * cbn [lex] in Hb. unfold RP_BlockIndex in Hb. destruct (N.compare_spec 18 (root + 1)) as [E|E|E]; [|lia|done]. by destruct (be 4 shard ++ be 8 ts).
    - intros (n & ts & b & Hst & Hn & Hi & -> & ->). split; [exact Hst|]. by apply HB.
  Qed.

  Lemma range_listing start stop : start < 2 ^ 64 -> match stop with Some t => t < 2 ^ 64 | None => True end ->
    exists l, is_listing db (block_key root start) (lim stop) false l /\ Forall (fun r => is_Some (block_mk r.1 r.2)) l /\
      length (entries block_mk (fun _ => true) l) = length l /\ is_range root db start stop (entries block_mk (fun _ => true) l).
  Proof using Hr Hc Hj.
    intros Hs Ht. pose proof (scan_listing db (block_key root start) (lim stop) (Some 100) false) as L.
    pose proof (range_rows start stop) as E. set (l := scan db (block_key root start) (lim stop) (POpts (Some 100) None false)) in *. exists l. split; [done|].
    assert (D : forall r, r ∈ l -> exists n ts b, stored root db n ts b /\ n < 2 ^ 64 /\ in_range start stop n /\ r = (block_key root n, VBlock n ts b)).
    { intros [k v] H. apply E in H as (n & ts & b & A & B & C & -> & ->); [|done..]. by exists n, ts, b. }
    split; [apply Forall_forall; intros r H; destruct (D r H) as (n & ts & b & _ & _ & _ & ->); by eexists|].
    destruct L as [_ S]. assert (M : forall l', (forall r, r ∈ l' -> r ∈ l) -> length (entries block_mk (fun _ => true) l') = length l' /\
      forall n ts b, (n, ts, b) ∈ entries block_mk (fun _ => true) l' <-> (block_key root n, VBlock n ts b) ∈ l' /\ n < 2 ^ 64).
    { clear S. induction l' as [|r l' IH]; intros H; [split; [done|intros n ts b; split; [intros X; by apply elem_of_nil in X|intros [X _]; by apply elem_of_nil in X]]|].
      destruct IH as [I1 I2]; [intros; apply H; by right|]. destruct (D r (H r (elem_of_list_here _ _))) as (n0 & t0 & b0 & A & B & C & ->).
      unfold entries in *. rewrite omap_cons'. cbn [fst snd block_mk block_of]. split; [cbn [length]; by rewrite I1|].
      intros n ts b. rewrite elem_of_cons, I2, elem_of_cons. split.
      - intros [[= -> -> ->]|[X Y]]; [split; [by left|done]|split; [by right|done]].
      - intros [[X|X] Y]; [left; apply (f_equal snd) in X; cbn [snd] in X; by injection X as -> -> ->|by right]. }
    split; [by apply M|]. split.
    - clear E. assert (Hsub : forall r, r ∈ l -> r ∈ l) by done. enough (G : forall l', (forall r, r ∈ l' -> r ∈ l) -> StronglySorted (fun a b : bytes * bval => blt a.1 b.1 = true) l' -> StronglySorted by_number (entries block_mk (fun _ => true) l')) by (by apply G).
      clear S Hsub. induction l' as [|r l' IH]; intros Hsub S; [constructor|].
      apply StronglySorted_inv in S as [S F]. destruct (D r (Hsub r (elem_of_list_here _ _))) as (n0 & t0 & b0 & A & B & C & ->).
      destruct (M l') as [_ M2]; [intros; apply Hsub; by right|]. specialize (IH ltac:(intros; apply Hsub; by right) S).
      unfold entries in *. rewrite omap_cons'. cbn [fst snd block_mk block_of]. constructor; [exact IH|]. apply Forall_forall. intros [[n ts] b] H. apply M2 in H as [H Hn].
      rewrite Forall_forall in F. specialize (F _ H). cbn [fst] in F. unfold blt in F. rewrite lex_block in F by done. unfold by_number. cbn [fst]. destruct (N.compare_spec n0 n); done.
    - intros n ts b. rewrite (proj2 (M l ltac:(done)) n ts b). split.
      + intros [H Hn]. apply E in H as (n1 & t1 & b1 & A & B & C & _ & [= -> -> ->]); done.
      + intros (A & B & C). split; [|done]. apply E; [done..|]. by exists n, ts, b.
  Qed.
End R.

Lemma stream_follow {A} (page : option bytes -> res unit (list A * option bytes)) fuel : forall tok alive ps, follow page fuel tok = Some (Ok ps) ->
  stream page fuel tok alive = Some (map Some (take alive (concat ps)), length ps).
Proof.
  induction fuel as [|n IH]; intros tok alive ps H; [done|]. cbn [follow] in H. cbn [stream]. destruct (page tok) as [[l [t|]]| |]; [| |done|done].
  - unfold send_some. destruct (follow page n (Some t)) as [[ls| |]|] eqn:F; [|done..]. injection H as <-. rewrite (IH _ _ _ F). cbn [concat length]. f_equal. f_equal.
    rewrite <- map_app. f_equal. symmetry. apply firstn_app.
  - injection H as <-. unfold send_some. cbn [concat length]. by rewrite app_nil_r.
Qed.
Lemma shape_count {A} (ps : list (list A)) : page_shape 100 ps -> length ps = S (length (concat ps) / 100).
Proof.
  intros (init & last & -> & F & L). rewrite concat_app, !app_length. cbn [concat length]. rewrite app_nil_r.
  assert (E : length (concat init) = (length init * 100)%nat).
  { clear L. induction F as [|p init Hp _ IH]; [done|]. cbn [concat length]. rewrite app_length, IH. lia. }
  rewrite E. rewrite Nat.add_comm at 1. cbn [Nat.add]. f_equal. symmetry. rewrite Nat.add_comm. rewrite Nat.div_add by lia. rewrite Nat.div_small by lia. lia.
Qed.

Lemma block_key_ne r n : block_key r n <> [].
Proof. done. Qed.
Definition in64o (x : option N) : bool := match x with Some t => t <? 2 ^ 64 | None => true end.
(** In every history of commits and pruning, GetBlocks sends exactly the stored blocks of the range (the stop excluded), in order,
    as many of them as the client takes; and it reads the whole range in any case, also when the client is gone. *)
Theorem C125_blocks : forall shard ops start stop, chain (puts ops) = true -> forallb job_ok ops = true -> start < 2 ^ 64 -> in64o stop = true ->
  exists xs, is_range 1 (brun 1 shard ops) start stop xs /\
    forall fuel alive, (length xs < fuel)%nat -> NodeReads.get_blocks (brun 1 shard ops) start stop fuel alive = Some (map Some (take alive xs), S (length xs / 100)).
Proof.
  intros shard ops start stop Hc Hj Hs Ht. assert (Ht' : match stop with Some t => t < 2 ^ 64 | None => True end) by (destruct stop; [by apply N.ltb_lt|done]).
  destruct (range_listing 1 shard ltac:(lia) ops Hc Hj start stop Hs Ht') as (l & L & D & E & R). exists (entries block_mk (fun _ => true) l). split; [done|]. intros fuel alive Hf.
  rewrite E in Hf. destruct (C12_limited block_mk _ _ _ (Some 100) false l (block_key_ne _ _) L D fuel Hf) as (ps & P1 & P2 & P3).
  unfold NodeReads.get_blocks. rewrite (stream_follow _ _ _ _ _ P1), (shape_count _ P3), P2. done.
Qed.
Theorem C125_gone_client_refuted : forall shard ops start stop fuel, chain (puts ops) = true -> forallb job_ok ops = true -> start < 2 ^ 64 -> in64o stop = true ->
  (size (brun 1 shard ops) < fuel)%nat ->
  exists pages xs, is_range 1 (brun 1 shard ops) start stop xs /\ pages = S (length xs / 100) /\ NodeReads.get_blocks (brun 1 shard ops) start stop fuel 0 = Some ([], pages).
Proof.
  intros shard ops start stop fuel Hc Hj Hs Ht Hf. assert (Ht' : match stop with Some t => t < 2 ^ 64 | None => True end) by (destruct stop; [by apply N.ltb_lt|done]).
  destruct (range_listing 1 shard ltac:(lia) ops Hc Hj start stop Hs Ht') as (l & L & D & E & R).
  assert (Hl : (length l <= size (brun 1 shard ops))%nat).
  { rewrite (C12_listing_unique _ _ _ _ _ _ L (scan_listing (brun 1 shard ops) (block_key 1 start) (default [1 + 1] (block_key 1 <$> stop)) None false)). apply scan_le_size. }
  destruct (C12_limited block_mk _ _ _ (Some 100) false l (block_key_ne _ _) L D fuel ltac:(lia)) as (ps & P1 & P2 & P3).
  eexists _, (entries block_mk (fun _ => true) l). split; [done|]. split; [done|].
  unfold NodeReads.get_blocks. rewrite (stream_follow _ _ _ _ _ P1), (shape_count _ P3), P2. done.
Qed.
(** GetShardChunks: all of the range at once, from the shard asked for. *)
Theorem C125_chunks : forall (shards : gmap N (kv bval)) id shard ops start stop, shards !! id = Some (brun 2 shard ops) ->
  chain (puts ops) = true -> forallb job_ok ops = true -> start < 2 ^ 64 -> in64o stop = true ->
  exists xs, is_range 2 (brun 2 shard ops) start stop xs /\ forall fuel, (length xs < fuel)%nat -> get_chunks shards id start stop fuel = Some (Some (Ok xs)).
Proof.
  intros shards id shard ops start stop Hsh Hc Hj Hs Ht. assert (Ht' : match stop with Some t => t < 2 ^ 64 | None => True end) by (destruct stop; [by apply N.ltb_lt|done]).
  destruct (range_listing 2 shard ltac:(lia) ops Hc Hj start stop Hs Ht') as (l & L & D & E & R). exists (entries block_mk (fun _ => true) l). split; [done|]. intros fuel Hf.
  rewrite E in Hf. destruct (C12_limited block_mk _ _ _ (Some 100) false l (block_key_ne _ _) L D fuel Hf) as (ps & P1 & P2 & P3).
  unfold get_chunks. rewrite Hsh. unfold blocks_in_range, block_page, CHUNK_PAGE. rewrite P1. cbn. by rewrite P2.
Qed.
Theorem C125_other_shard : forall shards id start stop fuel, shards !! id = None -> get_chunks shards id start stop fuel = Some None.
Proof. intros shards id start stop fuel H. unfold get_chunks. by rewrite H. Qed.

(** ** The node's account of itself *)

(** A clock behind the newest block of shard 0: the call stops, or tells a delay of centuries. For the other shards it tells 0. *)
Theorem C125_clock_refuted : forall now msgs height time shards mem, now < time -> time < 2 ^ 64 ->
  get_info true now (msgs, height, time) shards mem = None /\
  exists r x, get_info false now (msgs, height, time) shards mem = Some r /\ head (ni_shards r) = Some x /\ si_delay x = 2 ^ 64 - (time - now).
Proof.
  intros now msgs height time shards mem H T. unfold get_info, usub. destruct (N.leb_spec time now); [lia|]. split; [done|]. eexists _, _. split; [done|]. split; [done|]. cbn [si_delay]. lia.
Qed.
(** Otherwise: one entry per shard, shard 0 first, each with its own figures. *)
Theorem C125_info : forall checked now msgs height time shards mem, time <= now ->
  exists r, get_info checked now (msgs, height, time) shards mem = Some r /\
    map si_id (ni_shards r) = 0 :: map fst shards /\
    (forall x, head (ni_shards r) = Some x -> si_height x = height /\ si_msgs x = msgs /\ si_delay x + time = now) /\
    (forall i id s, shards !! i = Some (id, s) -> exists x, ni_shards r !! S i = Some x /\ si_id x = id /\ si_height x = is_height s /\ si_msgs x = is_msgs s /\
       (is_time s <= now -> si_delay x + is_time s = now) /\ (now < is_time s -> si_delay x = 0) /\
       (forall n, mem !! id = Some n -> si_mempool x = n) /\ (mem !! id = None -> si_mempool x = 4294967295)) /\
    ni_msgs r = foldr (fun p acc => is_msgs p.2 + acc) 0 shards.
Proof.
  intros checked now msgs height time shards mem H. unfold get_info, usub. destruct (N.leb_spec time now); [|lia]. eexists. split; [done|]. cbn [ni_shards ni_msgs].
  split; [cbn; f_equal; rewrite map_map; apply map_ext; by intros [id s]|]. split; [|split].
  - intros x [= <-]. cbn. split; [done|]. split; [done|lia].
  - intros i id s L. exists (info_of_shard now mem (id, s)). split; [change (map (info_of_shard now mem) shards !! i = Some (info_of_shard now mem (id, s))); change (map (info_of_shard now mem) shards) with (info_of_shard now mem <$> shards); rewrite list_lookup_fmap; by rewrite L|].
    cbn. split; [done|]. split; [done|]. split; [done|]. split; [lia|]. split; [lia|]. split; [intros n ->; done|intros ->; done].
  - clear. induction shards as [|[id s] l IH]; [done|]. cbn. by rewrite IH.
Qed.
(** The accounts of a shard: those with a registration or transfer; the total, when no account is on two shards, is their number. *)
Definition accounts (es : list oev) : gset N := list_to_set (omap (fun e => if registers (fidk (o_fid e)) e then Some (fidk (o_fid e)) else None) es).
Lemma accounts_in es f : f ∈ accounts es <-> exists e, e ∈ es /\ registers f e = true.
Proof.
  unfold accounts. rewrite elem_of_list_to_set, elem_of_list_omap. split.
  - intros (e & He & H). destruct (registers (fidk (o_fid e)) e) eqn:R; [|done]. injection H as <-. by exists e.
  - intros (e & He & H). exists e. split; [done|]. assert (fidk (o_fid e) = f) as ->; [|by rewrite H]. unfold registers in H. destruct (o_body e); try done. apply andb_prop in H as [H _]. by apply N.eqb_eq.
Qed.
Theorem C125_accounts : forall keccak now mem id msgs height time bs, NoDup (map prim (concat bs)) ->
  si_fids (info_of_shard now mem (id, IShard msgs (orun keccak o_init bs) height time)) = N.of_nat (size (accounts (concat bs))).
Proof.
  intros keccak now mem id msgs height time bs ND. cbn [info_of_shard si_fids is_chain]. f_equal. rewrite <- size_dom. f_equal. apply set_eq. intros f.
  rewrite accounts_in, elem_of_dom. destruct (id_inv_run keccak bs) as (_ & Hp & Hl). split.
  - intros [k Hk]. destruct (Hp _ _ Hk) as (e & He & R). exists e. split; [by eapply (run_ev_in keccak bs k)|done].
  - intros (e & He & R). destruct (Hl f (prim e) e) as (k & e' & H & _); [by apply run_ev_in|done|]. by exists k.
Qed.
Theorem C125_total_accounts : forall keccak checked now msgs height time mem (l : list (N * list (list oev) * (N * N * N))), time <= now ->
  Forall (fun x => NoDup (map prim (concat x.1.2))) l ->
  (forall i j x y, l !! i = Some x -> l !! j = Some y -> i <> j -> accounts (concat x.1.2) ## accounts (concat y.1.2)) ->
  exists r, get_info checked now (msgs, height, time) (map (fun x => (x.1.1, IShard x.2.1.1 (orun keccak o_init x.1.2) x.2.1.2 x.2.2)) l) mem = Some r /\
    ni_fids r = N.of_nat (size (accounts (concat (map (fun x => concat x.1.2) l)))).
Proof.
  intros keccak checked now msgs height time mem l H F D. unfold get_info, usub. destruct (N.leb_spec time now); [|lia]. eexists. split; [done|]. cbn [ni_fids].
  induction l as [|[[id bs] [[m h] t]] l IH]; [done|]. apply Forall_cons in F as [F1 F2]. cbn [map foldr fst snd concat].
  rewrite IH; [|done|intros i j x y A B C; by apply (D (S i) (S j)); [| |lia]]. pose proof (C125_accounts keccak now mem id m h t bs F1) as E. rewrite E.
  rewrite <- Nat2N.inj_add. f_equal. cbn [fst snd] in *.
  assert (U : accounts (concat bs ++ concat (map (fun x => concat x.1.2) l)) = accounts (concat bs) ∪ accounts (concat (map (fun x => concat x.1.2) l))).
  { unfold accounts. by rewrite omap_app, list_to_set_app_L. }
  rewrite U, size_union; [done|]. intros f A B. apply accounts_in in B as (e & Be & R). apply elem_of_list_In, in_concat in Be as (es & M & Be).
  apply in_map_iff in M as (x & <- & M). apply elem_of_list_In, elem_of_list_lookup in M as [j J].
  apply (D 0%nat (S j) (id, bs, (m, h, t)) x eq_refl J ltac:(lia) f); [done|]. apply accounts_in. exists e. split; [by apply elem_of_list_In|done].
Qed.

(** ** The accounts of a shard *)

(** Following the tokens gives the account of every registration stored, in the order of the rows. *)
Theorem C125_fids : forall {V} (dec : V -> option oev) (db : kv V) sz rev l, is_listing db ID_PREFIX [12; 1; 4] rev l -> Forall (fun r => is_Some (dec r.2)) l ->
  forall fuel, (length l < fuel)%nat -> exists ps, follow (fun t => get_fids dec db (POpts sz t rev)) fuel None = Some (Ok ps) /\
    concat ps = omap (fun r => dec r.2 ≫= registered) l.
Proof.
  intros V dec db sz rev l L D fuel Hf.
  destruct (C12_limited (fun _ v => dec v) db ID_PREFIX (increment_vec_u8 ID_PREFIX) sz rev l ltac:(done) L D fuel Hf) as (ps & P1 & P2 & _).
  exists (map (omap registered) ps). split.
  - clear P2 Hf L D. revert ps P1. generalize (@None bytes) as t. induction fuel as [|n IH]; intros t ps P1; [done|]. cbn [follow] in *. unfold get_fids at 1.
    destruct (list_limited _ _ _ _ _ _) as [[x [t'|]]| |]; [| |done|done].
    + destruct (follow _ n (Some t')) as [[ls| |]|] eqn:F; [|done..]. injection P1 as <-. rewrite (IH _ _ F). done.
    + by injection P1 as <-.
  - assert (C : forall q : list (list oev), concat (map (omap registered) q) = omap registered (concat q)).
    { induction q as [|p q IH]; [done|]. cbn [map concat]. by rewrite omap_app, IH. }
    rewrite C, P2. clear -D. unfold entries. induction l as [|r l IH]; [done|]. apply Forall_cons in D as [[e E] D]. rewrite !omap_cons'. rewrite E. cbn [mbind option_bind].
    rewrite omap_cons'. rewrite (IH D). done.
Qed.
(** A page can be empty though more follow, and a row that cannot be read is told as the end of the list. *)
Definition tr (f : N) (k : id_kind) : option oev := Some (OEv f 10 0 0 0 (BIdReg k [1])).
Definition frow (f : N) : bytes := ID_PREFIX ++ be 4 f ++ be 4 10 ++ be 4 0.
Theorem C125_fids_empty_page_refuted : exists db : kv (option oev),
  get_fids id db (POpts (Some 1) None false) = Ok ([], Some (frow 5)) /\ get_fids id db (POpts (Some 1) (Some (frow 5)) false) = Ok ([6], Some (frow 6)).
Proof. exists {[ frow 5 := tr 5 ITransfer; frow 6 := tr 6 IRegister ]}. by vm_compute. Qed.
Theorem C125_fids_error_refuted : forall {V} (dec : V -> option oev) (db : kv V) po,
  list_limited (fun _ v => dec v) (fun _ => true) db ID_PREFIX (increment_vec_u8 ID_PREFIX) po = Err tt -> get_fids dec db po = Ok ([], None).
Proof. intros V dec db po H. unfold get_fids. by rewrite H. Qed.
Example C125_fids_error_ex : let db : kv (option oev) := {[ frow 5 := tr 5 IRegister; frow 6 := None ]} in
  list_limited (fun _ v => id v) (fun _ => true) db ID_PREFIX (increment_vec_u8 ID_PREFIX) (POpts None None false) = Err tt /\
  get_fids id db (POpts None None false) = Ok ([], None) /\ get_fids id db (POpts (Some 1) None false) = Ok ([5], Some (frow 5)).
Proof. by vm_compute. Qed.

Example C125_blocks_ex : let ops := [BPut 1 10 7; BPut 2 20 7; BPut 3 30 7; BPut 4 30 8; BJob 15] in
  chain (puts ops) = true /\ forallb job_ok ops = true /\
  NodeReads.get_blocks (brun 1 0 ops) 1 (Some 4) 10 9 = Some ([Some (2, 20, 7); Some (3, 30, 7)], 1%nat) /\
  NodeReads.get_blocks (brun 1 0 ops) 3 None 10 1 = Some ([Some (3, 30, 7)], 1%nat) /\
  get_chunks {[ 1 := brun 2 1 ops ]} 1 0 None 10 = Some (Some (Ok [(2, 20, 7); (3, 30, 7); (4, 30, 8)])).
Proof. by vm_compute. Qed.
Example C125_info_ex : exists r, get_info true 100 (9, 7, 90) [(1, IShard 4 (orun id o_init [[OEv 5 10 0 0 0 (BIdReg IRegister [1]); OEv 6 10 0 1 0 (BIdReg IRegister [2])]]) 8 95); (2, IShard 3 o_init 6 101)] {[ 1 := 2 ]} = Some r /\
  ni_shards r = [SInfo 0 7 9 0 10 0; SInfo 1 8 4 2 5 2; SInfo 2 6 3 0 0 4294967295] /\ ni_fids r = 2 /\ ni_msgs r = 7.
Proof. eexists. split; [by vm_compute|by vm_compute]. Qed.

Print Assumptions C125_blocks. Print Assumptions C125_gone_client_refuted. Print Assumptions C125_chunks. Print Assumptions C125_other_shard. Print Assumptions C125_clock_refuted.
Print Assumptions C125_info. Print Assumptions C125_accounts. Print Assumptions C125_total_accounts. Print Assumptions C125_fids. Print Assumptions C125_fids_empty_page_refuted.
Print Assumptions C125_fids_error_refuted.
