(** C128: who follows a channel. *)
From Verif Require Import ChannelUriProofs PropChannelUri Base Codec Kv Paging ChanStateReads PropChanStateReads CodecProofs PagingProofs PropPaging ChannelFollow.
From Coq Require Import Lia ZifyN ZifyNat ZifyBool.
#[local] Open Scope N_scope.

(** ** Specification: the last word on a reaction key, read off the history. *)
Fixpoint word (k : reakey) (w : option (bool * react)) (os : list fop) : option (bool * react) :=
  match os with
  | [] => w
  | FAdd g true m :: os => word k (if bool_decide (key_of m = k) then Some (g, m) else w) os
  | FRemove true k' :: os | FDrop k' :: os => word k (if bool_decide (k' = k) then None else w) os
  | _ :: os => word k w os
  end.
(** Account numbers and times are 32 bits. *)
Definition fits (o : fop) : bool := match o with FAdd _ _ m => (r_fid m <? 2 ^ 32) && (r_ts m <? 2 ^ 32) | _ => true end.

Lemma byfid_inj f f' id id' : f < 2 ^ 32 -> f' < 2 ^ 32 -> byfid_key f id = byfid_key f' id' -> f = f' /\ id = id'.
Proof.
  intros F F' E. apply (f_equal (drop 2)) in E. change (be 4 f ++ id = be 4 f' ++ id') in E. apply app_inj_len in E as [E <-]; [|by rewrite !be_length].
  apply be_inj in E; [done|exact F|exact F'].
Qed.
Lemma bychan_inj f f' id id' : f < 2 ^ 32 -> f' < 2 ^ 32 -> length id = length id' -> bychan_key id f = bychan_key id' f' -> f = f' /\ id = id'.
Proof.
  intros F F' L E. apply (f_equal (drop 2)) in E. change (id ++ be 4 f = id' ++ be 4 f') in E. apply app_inj_len in E as [<- E]; [|done].
  apply be_inj in E; [done|exact F|exact F'].
Qed.
Lemma two_indexes f id id' f' : byfid_key f id <> bychan_key id' f'. Proof. intros E. apply (f_equal (take 2)) in E. done. Qed.

Section P.
  Context (keccak : bytes -> bytes) (reg : registrar).
  Notation cls := (classify keccak (Some reg)).
  (** The one spelling of a channel. *)
  Notation url id := (canonical keccak (for_channel reg id)).
  (** An account follows a channel since a time: its last accepted like of the channel's spelling is neither removed nor dropped and was
      merged when follows were switched on. *)
  Definition follows_at (os : list fop) (f : N) (id : bytes) (t : N) : Prop :=
    exists m, word (f, 1, url id) None os = Some (true, m) /\ r_target m = TUrl (url id) /\ r_ts m = t /\ asset_ok (for_channel reg id).

  Lemma cls_spec m id : cls m = Some id <-> r_type m = 1 /\ r_target m = TUrl (url id) /\ asset_ok (for_channel reg id).
  Proof.
    unfold classify. destruct (N.eqb_spec (r_type m) 1) as [T|T]; [|by split; [|intros [? _]]]. destruct (r_target m) as [u|f h].
    - rewrite C50_follow_iff. split; [by intros [? ->]|]. intros (_ & [= ->] & ?). done.
    - split; [done|]. by intros (_ & ? & _).
  Qed.
  Lemma cls_key m id : cls m = Some id -> key_of m = (r_fid m, 1, url id).
  Proof. intros (T & E & _)%cls_spec. unfold key_of. by rewrite T, E. Qed.
  Lemma cls_len m id : cls m = Some id -> length id = 32%nat /\ bytes_ok id = true.
  Proof. intros (_ & _ & (_ & _ & L & B))%cls_spec. done. Qed.
  Lemma url_inj id id' : asset_ok (for_channel reg id) -> asset_ok (for_channel reg id') -> url id = url id' -> id = id'.
  Proof. intros A B E. assert (X : Some id = Some id'); [|by injection X]. rewrite <- (proj2 (C50_follow_iff keccak (url id) reg id) (conj A eq_refl)), E. by apply C50_follow_iff. Qed.

  (** The rows are those of the last words. *)
  Definition row_of (W : reakey -> option (bool * react)) (kb v : bytes) : Prop :=
    exists k m id, W k = Some (true, m) /\ cls m = Some id /\ v = be 4 (r_ts m) /\ (kb = byfid_key (r_fid m) id \/ kb = bychan_key id (r_fid m)).
  Definition FInv (W : reakey -> option (bool * react)) (s : fols) : Prop :=
    (forall k, fl_adds s !! k = snd <$> W k) /\ (forall k g m, W k = Some (g, m) -> key_of m = k /\ r_fid m < 2 ^ 32 /\ r_ts m < 2 ^ 32) /\
    (forall kb v, fl_rows s !! kb = Some v <-> row_of W kb v).

  Lemma same_row m m' id id' kb : r_fid m < 2 ^ 32 -> r_fid m' < 2 ^ 32 -> cls m = Some id -> cls m' = Some id' ->
    (kb = byfid_key (r_fid m) id \/ kb = bychan_key id (r_fid m)) -> (kb = byfid_key (r_fid m') id' \/ kb = bychan_key id' (r_fid m')) -> key_of m = key_of m' /\ id = id' /\ r_fid m = r_fid m'.
  Proof.
    intros F F' C C' K K'. assert (E : r_fid m = r_fid m' /\ id = id').
    { destruct (cls_len _ _ C) as [L _], (cls_len _ _ C') as [L' _]. destruct K as [->| ->], K' as [K'|K'].
      - by apply byfid_inj.
      - by apply two_indexes in K'.
      - symmetry in K'. by apply two_indexes in K'.
      - apply bychan_inj; [done|done|lia|done]. }
    destruct E as [E <-]. split; [|done]. by rewrite (cls_key _ _ C), (cls_key _ _ C'), E.
  Qed.

  Lemma drop_inv W s k : FInv W s -> FInv (fun k' => if bool_decide (k = k') then None else W k') (drop_add keccak (Some reg) s k).
  Proof.
    intros (A & B & R). unfold drop_add. rewrite A. destruct (W k) as [[g m]|] eqn:Wk; cbn [fmap option_fmap option_map snd].
    - destruct (B k g m Wk) as (K & F & T). split; [|split].
      + intros k'. cbn [fl_adds]. destruct (decide (k = k')) as [<-|N]; [by rewrite lookup_delete, bool_decide_true|]. by rewrite lookup_delete_ne, bool_decide_false, A.
      + intros k' g' m'. destruct (decide (k = k')) as [<-|N]; [by rewrite bool_decide_true|]. rewrite bool_decide_false by done. apply B.
      + intros kb v. cbn [fl_rows]. destruct (cls m) as [id|] eqn:C.
        * destruct (decide (kb = byfid_key (r_fid m) id \/ kb = bychan_key id (r_fid m))) as [H|H].
          { split.
            - destruct H as [->| ->]; [rewrite lookup_delete_ne by (intros E; symmetry in E; by apply two_indexes in E)|]; by rewrite lookup_delete.
            - intros (k' & m' & id' & W' & C' & _ & H'). destruct (decide (k = k')) as [<-|N]; [by rewrite bool_decide_true in W'|]. rewrite bool_decide_false in W' by done.
              destruct (B k' true m' W') as (K' & F' & _). destruct (same_row _ _ _ _ _ F F' C C' H H') as [E _]. congruence. }
          rewrite !lookup_delete_ne by (intros <-; apply H; auto). rewrite R. split; intros (k' & m' & id' & W' & C' & V & H'); exists k', m', id'.
          { destruct (decide (k = k')) as [<-|N]; [|by rewrite bool_decide_false]. exfalso. rewrite Wk in W'. injection W' as _ <-. rewrite C in C'. injection C' as <-. by apply H. }
          { destruct (decide (k = k')) as [<-|N]; [by rewrite bool_decide_true in W'|]. by rewrite bool_decide_false in W'. }
        * rewrite R. split; intros (k' & m' & id' & W' & C' & V & H'); exists k', m', id'.
          { destruct (decide (k = k')) as [<-|N]; [|by rewrite bool_decide_false]. rewrite Wk in W'. injection W' as _ <-. congruence. }
          { destruct (decide (k = k')) as [<-|N]; [by rewrite bool_decide_true in W'|]. by rewrite bool_decide_false in W'. }
    - assert (E : forall k', (if bool_decide (k = k') then None else W k') = W k').
      { intros k'. destruct (decide (k = k')) as [<-|N]; [by rewrite bool_decide_true|by rewrite bool_decide_false]. }
      split; [intros k'; rewrite E; apply A|]. split; [intros k' g m; rewrite E; apply B|]. intros kb v. rewrite R.
      split; intros (k' & m' & id' & W' & H); exists k', m', id'; [by rewrite E|by rewrite E in W'].
  Qed.
  Lemma put_inv W s g m : FInv W s -> W (key_of m) = None -> r_fid m < 2 ^ 32 -> r_ts m < 2 ^ 32 ->
    FInv (fun k' => if bool_decide (key_of m = k') then Some (g, m) else W k') (put_add keccak (Some reg) g s m).
  Proof.
    intros (A & B & R) Wk F T. split; [|split].
    - intros k'. cbn [put_add fl_adds]. destruct (decide (key_of m = k')) as [<-|N]; [by rewrite lookup_insert, bool_decide_true|]. by rewrite lookup_insert_ne, bool_decide_false, A.
    - intros k' g' m'. destruct (decide (key_of m = k')) as [<-|N]; [rewrite bool_decide_true by done; by intros [= <- <-]|]. rewrite bool_decide_false by done. apply B.
    - intros kb v. cbn [put_add fl_rows].
      assert (Old : row_of W kb v -> row_of (fun k' => if bool_decide (key_of m = k') then Some (g, m) else W k') kb v).
      { intros (k' & m' & id' & W' & H). exists k', m', id'. split; [|done]. rewrite bool_decide_false; [done|]. intros <-. congruence. }
      assert (New : row_of (fun k' => if bool_decide (key_of m = k') then Some (g, m) else W k') kb v -> row_of W kb v \/
        (g = true /\ exists id, cls m = Some id /\ v = be 4 (r_ts m) /\ (kb = byfid_key (r_fid m) id \/ kb = bychan_key id (r_fid m)))).
      { intros (k' & m' & id' & W' & C & H). destruct (decide (key_of m = k')) as [<-|N].
        - rewrite bool_decide_true in W' by done. injection W' as -> <-. right. split; [done|]. by exists id'.
        - rewrite bool_decide_false in W' by done. left. by exists k', m', id'. }
      destruct g; [|rewrite R; split; [done|]; intros [?|[? _]]%New; done].
      destruct (cls m) as [id|] eqn:C; [|rewrite R; split; [done|]; intros [?|(_ & ? & ? & _)]%New; done].
      destruct (decide (kb = byfid_key (r_fid m) id \/ kb = bychan_key id (r_fid m))) as [H|H].
      + assert (L : <[bychan_key id (r_fid m) := be 4 (r_ts m)]> (<[byfid_key (r_fid m) id := be 4 (r_ts m)]> (fl_rows s)) !! kb = Some (be 4 (r_ts m))).
        { destruct H as [->| ->]; [rewrite lookup_insert_ne by (intros E; symmetry in E; by apply two_indexes in E)|]; by rewrite lookup_insert. }
        rewrite L. split.
        * intros [= <-]. exists (key_of m), m, id. by rewrite bool_decide_true.
        * intros [(k' & m' & id' & W' & C' & _ & H')|(_ & id' & _ & -> & _)]%New; [|done]. destruct (B k' true m' W') as (K' & F' & _).
          destruct (same_row _ _ _ _ _ F F' C C' H H') as [E _]. congruence.
      + rewrite !lookup_insert_ne by (intros <-; apply H; auto). rewrite R. split; [done|]. intros [?|(_ & id' & C' & _ & H')]%New; [done|].
        by injection C' as <-.
  Qed.
  Lemma run_inv os : forall W s, forallb fits os = true -> FInv W s -> FInv (fun k => word k (W k) os) (fold_left (fstep keccak (Some reg)) os s).
  Proof.
    induction os as [|o os IH]; intros W s Fo I; [done|]. cbn in Fo. apply andb_true_iff in Fo as [Ho Fo]. cbn [fold_left].
    destruct o as [g [] m|[] k|k]; cbn [fstep word]; try (by apply (IH W)).
    - cbn in Ho. assert (r_fid m < 2 ^ 32 /\ r_ts m < 2 ^ 32) as [F T] by lia.
      specialize (IH (fun k' => if bool_decide (key_of m = k') then Some (g, m) else if bool_decide (key_of m = k') then None else W k') (put_add keccak (Some reg) g (drop_add keccak (Some reg) s (key_of m)) m) Fo).
      cbv beta in IH. assert (X : FInv (fun k => word k (if bool_decide (key_of m = k) then Some (g, m) else if bool_decide (key_of m = k) then None else W k) os)
        (fold_left (fstep keccak (Some reg)) os (put_add keccak (Some reg) g (drop_add keccak (Some reg) s (key_of m)) m))).
      { apply IH. apply (put_inv (fun k' => if bool_decide (key_of m = k') then None else W k')); [by apply drop_inv|by rewrite bool_decide_true|done|done]. }
      assert (E : forall k, word k (if bool_decide (key_of m = k) then Some (g, m) else if bool_decide (key_of m = k) then None else W k) os = word k (if bool_decide (key_of m = k) then Some (g, m) else W k) os).
      { intros k. by destruct (bool_decide (key_of m = k)). }
      destruct X as (A & B & R). split; [intros k; rewrite <- E; apply A|]. split; [intros k g' m'; rewrite <- E; apply B|]. intros kb v. rewrite R.
      split; intros (k' & m' & id' & W' & H); exists k', m', id'; [by rewrite <- E|by rewrite E].
    - by apply (IH _ _ Fo (drop_inv W s k I)).
    - by apply (IH _ _ Fo (drop_inv W s k I)).
  Qed.

  Context (os : list fop) (Ho : forallb fits os = true).
  Notation st := (frun keccak (Some reg) os).
  Lemma inv : FInv (fun k => word k None os) st.
  Proof using Ho.
    apply (run_inv os (fun _ => None) fol_init Ho). split; [done|]. split; [done|]. intros kb v. split; [done|]. by intros (k & m & id & ? & _).
  Qed.
  Lemma follows_row f id t : follows_at os f id t <-> exists m, word (f, 1, url id) None os = Some (true, m) /\ cls m = Some id /\ r_fid m = f /\ r_ts m = t.
  Proof using Ho.
    destruct inv as (_ & B & _). split.
    - intros (m & W & T & E & A). exists m. destruct (B _ _ _ W) as (K & _). unfold key_of in K. injection K as K1 K2 _. split; [done|]. split; [by apply cls_spec|done].
    - intros (m & W & C & F & E). exists m. apply cls_spec in C as (_ & T & A). done.
  Qed.
  Lemma row_byfid f id v : f < 2 ^ 32 -> fl_rows st !! byfid_key f id = Some v <-> exists t, follows_at os f id t /\ v = be 4 t.
  Proof using Ho.
    intros F. destruct inv as (_ & B & R). rewrite R. split.
    - intros (k & m & id' & W & C & -> & [E|E]); [|by apply two_indexes in E]. destruct (B _ _ _ W) as (K & F' & _). apply byfid_inj in E as [-> ->]; [|done|done].
      exists (r_ts m). split; [|done]. apply follows_row. exists m. rewrite <- (cls_key _ _ C), K. done.
    - intros (t & H & ->). apply follows_row in H as (m & W & C & <- & <-). exists (r_fid m, 1, url id), m, id. auto.
  Qed.
  Lemma row_bychan f id v : f < 2 ^ 32 -> length id = 32%nat -> fl_rows st !! bychan_key id f = Some v <-> exists t, follows_at os f id t /\ v = be 4 t.
  Proof using Ho.
    intros F L. destruct inv as (_ & B & R). rewrite R. split.
    - intros (k & m & id' & W & C & -> & [E|E]); [symmetry in E; by apply two_indexes in E|]. destruct (B _ _ _ W) as (K & F' & _). destruct (cls_len _ _ C) as [L' _].
      apply bychan_inj in E as [-> ->]; [|done|done|lia]. exists (r_ts m). split; [|done]. apply follows_row. exists m. rewrite <- (cls_key _ _ C), K. done.
    - intros (t & H & ->). apply follows_row in H as (m & W & C & <- & <-). exists (r_fid m, 1, url id), m, id. auto 6.
  Qed.
  Lemma follows_bound f id t : follows_at os f id t -> f < 2 ^ 32 /\ t < 2 ^ 32 /\ length id = 32%nat /\ bytes_ok id = true.
  Proof using Ho. intros (m & W & C & <- & <-)%follows_row. destruct inv as (_ & B & _). destruct (B _ _ _ W) as (_ & ? & ?). split; [done|]. split; [done|]. by apply (cls_len m). Qed.
  Lemma rows_shape kb v : fl_rows st !! kb = Some v -> exists f id t, follows_at os f id t /\ v = be 4 t /\ (kb = byfid_key f id \/ kb = bychan_key id f).
  Proof using Ho.
    destruct inv as (_ & B & R). intros (k & m & id & W & C & -> & H)%R. exists (r_fid m), id, (r_ts m). split; [|done]. apply follows_row. exists m.
    destruct (B _ _ _ W) as (K & _). by rewrite <- (cls_key _ _ C), K.
  Qed.
  Lemma rows_ok kb v : fl_rows st !! kb = Some v -> bytes_ok kb = true /\ length kb = 38%nat.
  Proof using Ho.
    intros (f & id & t & H & _ & [->| ->])%rows_shape; apply follows_bound in H as (_ & _ & L & B).
    - split; [cbn; by rewrite bytes_ok_app, be_ok, B|]. cbn [byfid_key byfid_prefix app length]. rewrite app_length, be_length, L. done.
    - split; [cbn; by rewrite bytes_ok_app, be_ok, B|]. cbn [bychan_key bychan_prefix app length]. rewrite app_length, be_length, L. done.
  Qed.

  (** One account and one channel: told since when, exactly if it follows. *)
  Theorem C128_is_following f id : 0 < f < 2 ^ 32 -> length id = 32%nat ->
    (forall t, is_following st f id = Ok (Some t) <-> follows_at os f id t) /\ (is_following st f id = Ok None <-> forall t, ~ follows_at os f id t).
  Proof using Ho.
    intros F L. unfold is_following. replace (fid_ok f) with true by (unfold fid_ok; clear Ho; lia). rewrite L. cbn [andb Nat.eqb negb].
    pose proof (fun v => row_byfid f id v ltac:(apply F)) as R. destruct (fl_rows st !! byfid_key f id) as [v|].
    - destruct (proj1 (R v) eq_refl) as (t & H & ->). rewrite be_length. cbn [Nat.eqb]. pose proof (follows_bound _ _ _ H) as (_ & T & _). rewrite be_dec_be by exact T.
      split; [|split; [done|intros N; by apply N in H]]. intros t'. split; [by intros [= <-]|]. intros H'. f_equal. f_equal.
      assert (E : Some (be 4 t) = Some (be 4 t')) by (apply R; by exists t'). apply (inj Some) in E. pose proof (follows_bound _ _ _ H') as (_ & T' & _). apply be_inj in E; done.
    - assert (N : forall t, ~ follows_at os f id t) by (intros t H; assert (E : None = Some (be 4 t)) by (apply R; by exists t); done).
      split; [|done]. intros t. split; [done|]. intros H. by apply N in H.
  Qed.

  (** The channels of an account, page by page. *)
  Theorem C128_follows f size rev : 0 < f < 2 ^ 32 -> size_ok size = true ->
    exists l, all_pages (get_follows st f size rev) size l /\ StronglySorted (fun x y => (if rev then blt y.1 x.1 else blt x.1 y.1) = true) l /\
      forall id t, (id, t) ∈ l <-> follows_at os f id t.
  Proof using Ho.
    intros F S. assert (Mk : forall r v, fl_rows st !! (byfid_prefix f ++ r) = Some v -> exists t, follows_at os f r t /\ follow_mk pair (byfid_prefix f) (byfid_prefix f ++ r) v = Some (r, t)).
    { intros r v H. pose proof (rows_ok _ _ H) as [_ L]. apply row_byfid in H as (t & H & ->); [|apply F]. exists t. split; [done|]. unfold follow_mk. rewrite L, be_length. cbn [Nat.eqb negb].
      rewrite drop_app_alt by done. apply follows_bound in H as (_ & T & _). by rewrite be_dec_be. }
    destruct (pages (follow_mk pair (byfid_prefix f)) (fun _ => true) (fl_rows st) (byfid_prefix f) size rev (fun x y => (if rev then blt y.1 x.1 else blt x.1 y.1) = true) ltac:(apply Exists_cons; by left) S) as (l & P & So & In).
    - intros k v H. apply rows_ok in H as [B L]. split; [done|]. rewrite L. cbn [byfid_prefix length]. rewrite be_length. clear. lia.
    - intros r v H. apply Mk in H as (t & _ & ->). by eexists.
    - intros r v r' v' x x' H H' E E' B. apply Mk in H as (t & _ & X), H' as (t' & _ & X'). rewrite X in E. rewrite X' in E'. injection E as <-. injection E' as <-. exact B.
    - exists l. split; [|split; [done|]].
      + unfold get_follows. replace (fid_ok f) with true by (unfold fid_ok; clear Ho; lia). rewrite S. exact P.
      + intros id t. rewrite In. split.
        * intros (r & v & H & E & _). apply Mk in H as (t' & H & X). rewrite X in E. by injection E as -> ->.
        * intros H. assert (X : fl_rows st !! (byfid_prefix f ++ id) = Some (be 4 t)) by (apply row_byfid; [apply F|by exists t]).
          exists id, (be 4 t). split; [done|]. split; [|done]. apply follows_bound in H as (_ & T & _). pose proof (rows_ok _ _ X) as [_ L]. unfold follow_mk. rewrite L, be_length. cbn [Nat.eqb negb].
          rewrite drop_app_alt by done. by rewrite be_dec_be.
  Qed.

  (** The followers of a channel on this shard, page by page, and how many they are. *)
  Lemma bychan_row id r v : length id = 32%nat -> fl_rows st !! (bychan_prefix id ++ r) = Some v -> exists f t, r = be 4 f /\ v = be 4 t /\ follows_at os f id t.
  Proof using Ho.
    intros L H. destruct (rows_shape _ _ H) as (f & id' & t & Fo & -> & [E|E]); [by apply (f_equal (take 2)) in E|]. apply (f_equal (drop 2)) in E. change (id ++ r = id' ++ be 4 f) in E.
    pose proof (follows_bound _ _ _ Fo) as (_ & _ & L' & _). apply app_inj_len in E as [<- ->]; [|by rewrite L, L']. by exists f, t.
  Qed.
  Theorem C128_followers id size rev : length id = 32%nat -> size_ok size = true ->
    exists l, all_pages (followers_by_channel st id size rev) size l /\ StronglySorted (fun x y => if rev then y.1 < x.1 else x.1 < y.1) l /\
      (forall f t, (f, t) ∈ l <-> follows_at os f id t) /\ follower_count st id = Ok (N.of_nat (length l)).
  Proof using Ho.
    intros L32 S. set (mk := follow_mk (fun x at_ => (be_dec x, at_)) (bychan_prefix id)).
    assert (Mk : forall f t, follows_at os f id t -> mk (bychan_prefix id ++ be 4 f) (be 4 t) = Some (f, t)).
    { intros f t H. apply follows_bound in H as (F & T & _). unfold mk, follow_mk. cbn [bychan_prefix app length]. rewrite !app_length, !be_length, L32. cbn [Nat.add Nat.eqb negb].
      change (25 :: 2 :: id ++ be 4 f) with ((25 :: 2 :: id) ++ be 4 f). rewrite drop_app_alt by (cbn [length]; by rewrite ?L32). by rewrite !be_dec_be. }
    assert (Hex : Exists (fun x => x <> 255) (bychan_prefix id)) by (apply Exists_cons; by left).
    assert (Hk : forall k v, fl_rows st !! k = Some v -> bytes_ok k = true /\ (length (bychan_prefix id) <= length k)%nat).
    { intros k v H. apply rows_ok in H as [B L]. split; [done|]. rewrite L. cbn [bychan_prefix length]. rewrite L32. clear. lia. }
    destruct (pages mk (fun _ => true) (fl_rows st) (bychan_prefix id) size rev (fun x y => if rev then y.1 < x.1 else x.1 < y.1) Hex S Hk) as (l & P & So & In).
    - intros r v H. apply bychan_row in H as (f & t & -> & -> & H); [|done]. rewrite Mk by done. by eexists.
    - intros r v r' v' x x' H H' E E' B. apply bychan_row in H as (f & t & -> & -> & H), H' as (f' & t' & -> & -> & H'); [|done..]. rewrite Mk in E, E' by done. injection E as <-. injection E' as <-. cbn [fst].
      apply follows_bound in H as (F & _), H' as (F' & _). unfold blt in B. rewrite !be_lex in B by done. destruct rev.
      + destruct (N.compare_spec f' f); done.
      + destruct (N.compare_spec f f'); done.
    - exists l. split; [|split; [done|]].
      + unfold followers_by_channel. rewrite L32, S. exact P.
      + assert (El : forall f t, (f, t) ∈ l <-> follows_at os f id t).
        { intros f t. rewrite In. split.
          - intros (r & v & H & E & _). apply bychan_row in H as (f' & t' & -> & -> & H); [|done]. rewrite Mk in E by done. by injection E as -> ->.
          - intros H. exists (be 4 f), (be 4 t). split; [|by rewrite Mk]. apply row_bychan; [by apply follows_bound in H as (? & _)|done|by exists t]. }
        split; [exact El|]. unfold follower_count, for_each, for_each_paged. cbn [po_size po_token po_reverse].
        set (rows := scan _ _ _ _). assert (It : forall c a, iterate (fun n _ _ => Ok (n + 1, false)) None c rows a = Ok (a + N.of_nat (length rows), true)).
        { clear. induction rows as [|[k v] rows IH]; intros c a; cbn [iterate]; [f_equal; f_equal; cbn; lia|]. rewrite IH. f_equal. f_equal. cbn [length]. lia. }
        rewrite It. rewrite N.add_0_l. f_equal. f_equal.
        assert (ND : NoDup l).
        { clear -So. induction So as [|x l S IH F]; constructor; [|done]. intros H. rewrite Forall_forall in F. apply F in H. destruct rev; lia. }
        pose proof (scan_listing (fl_rows st) (bychan_prefix id) (increment_vec_u8 (bychan_prefix id)) None false) as Li. fold rows in Li.
        pose proof (C12_prefix_range _ _ _ _ Hex Hk Li) as Rw.
        assert (NDr : NoDup rows).
        { destruct Li as [_ So']. clear -So'. induction So' as [|x rows S IH F]; constructor; [|done]. intros H. rewrite Forall_forall in F. apply F in H. unfold blt in H. by rewrite lex_refl in H. }
        transitivity (length (map (fun x : N * N => (bychan_key id x.1, be 4 x.2)) l)); [|apply map_length]. apply Permutation_length, NoDup_Permutation; [done| |].
        * apply NoDup_fmap_2_strong; [|done]. intros [f t] [f' t'] H H' E. apply El in H, H'. apply follows_bound in H as (F & T & _), H' as (F' & T' & _). cbn [fst snd] in E. apply pair_equal_spec in E as [E E2].
          apply bychan_inj in E as [-> _]; [|done|done|done]. apply be_inj in E2; [by subst|done|done].
        * intros [k v]. rewrite Rw, elem_of_list_fmap. split.
          { intros [H [r ->]]. apply bychan_row in H as (f & t & -> & -> & H); [|done]. exists (f, t). split; [done|]. by apply El. }
          { intros ([f t] & [= -> ->] & H). apply El in H. split; [|by eexists]. apply row_bychan; [by apply follows_bound in H as (? & _)|done|by exists t]. }
  Qed.

  (** The stored add of a key is the last word on it. When follows were switched on at every merge, an account follows a channel
      exactly if its like of the channel's spelling is stored. *)
  Theorem C128_stored f id t : (forall m, FAdd false true m ∉ os) ->
    follows_at os f id t <-> exists m, fl_adds st !! (f, 1, url id) = Some m /\ r_target m = TUrl (url id) /\ r_ts m = t /\ asset_ok (for_channel reg id).
  Proof using Ho.
    intros G. destruct inv as (A & _).
    assert (Wg : forall os' w k m, (forall m, FAdd false true m ∉ os') -> (forall m, w <> Some (false, m)) -> word k w os' <> Some (false, m)).
    { clear. induction os' as [|o os' IH]; intros w k m G Hw; [apply Hw|].
      assert (G' : forall m, FAdd false true m ∉ os') by (intros m' H; apply (G m'); by right).
      destruct o as [g [] m'|[] k'|k']; cbn [word]; apply IH; try done; intros m2.
      - destruct (bool_decide _); [|apply Hw]. destruct g; [done|]. destruct (G m'). left.
      - by destruct (bool_decide _).
      - by destruct (bool_decide _). }
    split.
    - intros (m & W & H). exists m. by rewrite A, W.
    - intros (m & H & R). exists m. split; [|done]. rewrite A in H. specialize (Wg os None (f, 1, url id) m G ltac:(done)).
      destruct (word (f, 1, url id) None os) as [[[] m']|]; [|by injection H as ->|done]. by injection H as ->.
  Qed.
End P.

(** The count told is the sum over the shards of their followers. *)
Theorem C128_total keccak reg oss id : length id = 32%nat -> Forall (fun os => forallb fits os = true) oss ->
  exists ls, Forall2 (fun os l => NoDup l /\ forall f t, (f, t) ∈ l <-> follows_at keccak reg os f id t) oss ls /\
    total_count (map (frun keccak (Some reg)) oss) id = Ok (N.of_nat (length (concat ls))).
Proof.
  intros L. induction 1 as [|os oss H Hs (ls & F & E)]; [by exists []|]. destruct (C128_followers keccak reg os H id None false L eq_refl) as (l & _ & So & In & C).
  exists (l :: ls). split; [constructor; [|done]; split; [|done]|].
  - clear -So. induction So as [|x l S IH F]; constructor; [|done]. intros H. rewrite Forall_forall in F. apply F in H. lia.
  - cbn [map total_count concat]. rewrite C, E, app_length. f_equal. lia.
Qed.
(** Without a registrar nothing is followed, whatever is stored. *)
Theorem C128_no_registrar keccak os : fl_rows (frun keccak None os) = ∅.
Proof.
  unfold frun. assert (H : forall s, fl_rows s = ∅ -> fl_rows (fold_left (fstep keccak None) os s) = ∅); [|by apply H].
  assert (D : forall s k, fl_rows (drop_add keccak None s k) = fl_rows s) by (intros s k; unfold drop_add; by destruct (fl_adds s !! k)).
  induction os as [|o os IH]; intros s E; [done|]. cbn [fold_left]. apply IH. destruct o as [g [] m|[] k|k]; cbn [fstep]; try done; [|by rewrite D..].
  unfold put_add. cbn [fl_rows classify]. rewrite D. by destruct g.
Qed.

(** ** A like, a recast of the same channel removed again, a like before activation, a second account *)
Definition xl (f t : N) : react := React f 1 (TUrl u0) t.
Definition xhist : list fop :=
  [FAdd true true (xl 5 10); FAdd true true (React 5 2 (TUrl u0) 11); FRemove true (5, 2, u0); FAdd false true (xl 7 12); FAdd true true (xl 300 13);
   FAdd true false (xl 8 14); FAdd true true (React 9 1 (TCast 5 [1]) 15); FAdd true true (xl 5 16); FAdd true true (xl 6 17); FDrop (6, 1, u0)].
Example C128_ex : let s := frun k0 (Some r0) xhist in forallb fits xhist = true /\ length id0 = 32%nat /\
  is_following s 5 id0 = Ok (Some 16) /\ is_following s 6 id0 = Ok None /\ is_following s 8 id0 = Ok None /\ is_following s 0 id0 = Err tt /\
  get_follows s 300 None false None = Ok ([(id0, 13)], None) /\ followers_by_channel s id0 (Some 5) true None = Ok ([(300, 13); (5, 16)], None) /\
  follower_count s id0 = Ok 2 /\ total_count [s; frun k0 (Some r0) [FAdd true true (xl 11 1)]] id0 = Ok 3 /\
  is_Some (word (5, 1, canonical k0 (for_channel r0 id0)) None xhist).
Proof. vm_compute. repeat (split; [done|]). by eexists. Qed.
(** The claim that every stored like of a channel is a follow is false: one merged before follows were switched on stays unlisted,
    until the account likes the channel anew. *)
Theorem C128_before_activation_refuted : let s := frun k0 (Some r0) xhist in
  fl_adds s !! (7, 1, u0) = Some (xl 7 12) /\ classify k0 (Some r0) (xl 7 12) = Some id0 /\ is_following s 7 id0 = Ok None /\
  is_following (frun k0 (Some r0) (xhist ++ [FAdd true true (xl 7 20)])) 7 id0 = Ok (Some 20).
Proof. by vm_compute. Qed.

Print Assumptions C128_is_following. Print Assumptions C128_follows. Print Assumptions C128_followers. Print Assumptions C128_stored. Print Assumptions C128_total.
Print Assumptions C128_no_registrar. Print Assumptions C128_before_activation_refuted.
