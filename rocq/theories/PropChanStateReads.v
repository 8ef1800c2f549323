(** C127: what the node tells about the members, pins, moderations and settings of a channel. *)
From Verif Require Import ChanStateReads ChannelProofs PropChannel Base Codec Kv Paging CodecProofs PagingProofs PropPaging.
From Verif Require ChannelReadsProofs.
From Coq Require Import Lia ZifyN ZifyNat ZifyBool.
#[local] Open Scope N_scope.

(** ** Following the pages of one index *)
Lemma iter_key {V A} (mk : bytes -> V -> option A) (keep : A -> bool) (size : N) (l : list (bytes * V)) : forall c acc lk x k d,
  iterate (chan_cb mk keep size) None c l (acc, lk) = Ok (x, Some k, d) -> lk = Some k \/ exists v, (k, v) ∈ l.
Proof.
  induction l as [|[k' v'] l IH]; intros c acc lk x k d; cbn [iterate]; [intros [= <- -> <-]; by left|].
  unfold chan_cb at 1. destruct (mk k' v') as [a|]; [|done]. destruct (keep a); cbn [fst snd].
  - destruct (size <=? _); [intros [= _ <- _]; right; exists v'; left|]. intros H. apply IH in H as [[= <-]|[v H]]; right; [exists v'; left|exists v; by right].
  - intros H. apply IH in H as [->|[v H]]; [by left|right; exists v; by right].
Qed.
Lemma channel_token {V A} (mk : bytes -> V -> option A) (keep : A -> bool) (db : kv V) (prefix : bytes) (po : popts) (l : list A) (k : bytes) : prefix <> [] ->
  list_channel mk keep db prefix po = Ok (l, Some k) -> k <> [].
Proof.
  intros Hp. unfold list_channel. destruct (negb _); [done|]. unfold for_each, for_each_paged. cbn [po_size].
  destruct (iterate _ _ _ _ _) as [[[x lk] d]| |] eqn:E; [|done|done]. destruct d; [done|]. intros [= -> ->].
  apply iter_key in E as [?|[v H]]; [done|]. by eapply scan_key_nonempty.
Qed.
Lemma entries_elem {V A} (mk : bytes -> V -> option A) (keep : A -> bool) (l : list (bytes * V)) (x : A) : x ∈ entries mk keep l <-> exists k v, (k, v) ∈ l /\ mk k v = Some x /\ keep x = true.
Proof.
  unfold entries. rewrite elem_of_list_omap. split.
  - intros ([k v] & H & E). exists k, v. cbn [fst snd] in E. destruct (mk k v) as [a|]; [|done]. destruct (keep a) eqn:K; [|done]. by injection E as ->.
  - intros (k & v & H & E & K). exists (k, v). split; [done|]. cbn [fst snd]. by rewrite E, K.
Qed.
Lemma entries_sorted {V A} (mk : bytes -> V -> option A) (keep : A -> bool) (Q : bytes * V -> bytes * V -> Prop) (R : A -> A -> Prop) (l : list (bytes * V)) : StronglySorted Q l ->
  (forall k v k' v' x x', (k, v) ∈ l -> (k', v') ∈ l -> mk k v = Some x -> mk k' v' = Some x' -> Q (k, v) (k', v') -> R x x') ->
  StronglySorted R (entries mk keep l).
Proof.
  induction 1 as [|[k v] l S IH F]; intros HR; [constructor|].
  assert (S' : StronglySorted R (entries mk keep l)) by (apply IH; intros k1 v1 k2 v2 x1 x2 I1 I2; apply (HR k1 v1 k2 v2 x1 x2); by right).
  unfold entries. cbn [omap list_omap fst snd]. destruct (mk k v) as [a|] eqn:E; [|exact S']. destruct (keep a); [|exact S']. constructor; [exact S'|].
  apply Forall_forall. intros y Hy. apply entries_elem in Hy as (k' & v' & I & E' & _). rewrite Forall_forall in F.
  eapply (HR k v k' v'); [apply elem_of_list_here|by right|done|done|by apply F].
Qed.

Definition limit (size : option N) : N := N.min (default 1000 size) 1000.
(** All pages of a listing, whatever the page size and direction. *)
Definition all_pages {A} (page : option bytes -> res unit (list A * option bytes)) (size : option N) (l : list A) : Prop :=
  exists n ps, (forall fuel, (n < fuel)%nat -> follow page fuel None = Some (Ok ps)) /\ concat ps = l /\ page_shape (limit size) ps.

Lemma pages {V A} (mk : bytes -> V -> option A) (keep : A -> bool) (db : kv V) (prefix : bytes) (size : option N) (rev : bool) (R : A -> A -> Prop) :
  Exists (fun x => x <> 255) prefix -> size_ok size = true ->
  (forall k v, db !! k = Some v -> bytes_ok k = true /\ (length prefix <= length k)%nat) ->
  (forall r v, db !! (prefix ++ r) = Some v -> is_Some (mk (prefix ++ r) v)) ->
  (forall r v r' v' x x', db !! (prefix ++ r) = Some v -> db !! (prefix ++ r') = Some v' -> mk (prefix ++ r) v = Some x -> mk (prefix ++ r') v' = Some x' ->
     (if rev then blt r' r else blt r r') = true -> R x x') ->
  exists l, all_pages (fun t => list_channel mk keep db prefix (page_opts size t rev)) size l /\ StronglySorted R l /\
    forall x, x ∈ l <-> exists r v, db !! (prefix ++ r) = Some v /\ mk (prefix ++ r) v = Some x /\ keep x = true.
Proof.
  intros Hex Hsz Hk Hd HR. assert (Hne : prefix <> []) by (intros ->; inversion Hex). set (sz := Some (N.min (default PAGE_SIZE_MAX size) PAGE_SIZE_MAX)).
  set (l := scan db prefix (increment_vec_u8 prefix) (POpts sz None rev)). pose proof (scan_listing db prefix (increment_vec_u8 prefix) sz rev) as L. fold l in L.
  pose proof (C12_prefix_range db prefix rev l Hex Hk L) as In.
  assert (D : Forall (fun r => is_Some (mk r.1 r.2)) l).
  { apply Forall_forall. intros [k v] H. apply In in H as (H & r & ->). by apply Hd. }
  exists (entries mk keep l). split; [|split].
  - exists (length l).
    assert (G : forall fuel, (length l < fuel)%nat -> exists ps, follow (fun t => list_channel mk keep db prefix (page_opts size t rev)) fuel None = Some (Ok ps) /\ concat ps = entries mk keep l /\ page_shape (limit size) ps).
    { intros fuel Hf. destruct (C12_channel mk keep db prefix sz rev l Hne Hex Hk L D fuel Hf) as (ps & F & C & S). exists ps.
      split; [|split; [done|]].
      - rewrite <- (map_id ps).
        apply (ChannelReadsProofs.follow_map (fun t => t <> Some []) id (fun t => list_channel mk keep db prefix (POpts sz t rev))
          (fun t => list_channel mk keep db prefix (page_opts size t rev))); [|done|exact F]. intros t x k Ht E. cbn [id]. split.
        + unfold page_opts. fold sz. destruct t as [[|b t]|]; [done|exact E|exact E].
        + destruct k as [k|]; [|by left]. right. intros [= ->]. by apply channel_token in E.
      - unfold page_len, limit in *. cbn [default sz] in S. replace (N.max 1 _) with (N.min (default 1000 size) 1000) in S; [done|].
        unfold size_ok in Hsz. unfold PAGE_SIZE_MAX. destruct size as [n|]; cbn [default]; [|done]. destruct (decide (n = 0)) as [->|]; [done|]. unfold id. lia. }
    destruct (G (S (length l)) ltac:(lia)) as (ps & F & C & S). exists ps. split; [|done]. intros fuel Hf.
    assert (Mono : forall (page : option bytes -> res unit (list A * option bytes)) f t x, follow page f t = Some x -> follow page (Datatypes.S f) t = Some x).
    { clear. intros page. induction f as [|f IH]; intros t x E; [done|]. cbn [follow] in E |- *. destruct (page t) as [[y [k|]]| |]; try done.
      destruct (follow page f (Some k)) as [z|] eqn:Z; [|done]. apply IH in Z. cbn [follow] in Z. by rewrite Z. }
    clear G. induction Hf as [|fuel Hf IH]; [done|]. by apply Mono.
  - destruct L as [L1 L2]. eapply entries_sorted; [exact L2|]. intros k v k' v' x x' I I' E E' Q. cbn [fst] in Q.
    apply In in I as (I & r & ->), I' as (I' & r' & ->). eapply (HR r v r' v'); [done..|]. unfold blt in *. rewrite !lex_app_l in Q. by destruct rev.
  - intros x. rewrite entries_elem. split.
    + intros (k & v & H & E & K). apply In in H as (H & r & ->). by exists r, v.
    + intros (r & v & H & E & K). exists (prefix ++ r), v. split; [|done]. apply In. split; [done|]. by exists r.
Qed.

(** ** The slots as rows *)
(** Identifiers are byte strings. *)
Definition typed (o : cop) : bool := bytes_ok (cm_chan o.2) && match cm_body o.2 with BModerate c _ => bytes_ok c | _ => true end.
Definition slots_wf (s : chst) : Prop := forall k ch x, is_Some (c_slot s !! (k, ch, x)) -> length ch = 32%nat /\ bytes_ok ch = true /\ bytes_ok x = true.
Lemma merge_slots s m s' d : merge_slot s m = inr (s', d) -> length (cm_chan m) = 32%nat /\ exists x, slot_suffix (cm_body m) = Some x /\ c_slot s' = <[(kind (cm_body m), cm_chan m, x) := ptr_of m]> (c_slot s).
Proof.
  unfold merge_slot. destruct (Nat.eqb_spec (length (cm_chan m)) CHANNEL_ID_LEN) as [L|]; [|done]. cbn [negb]. destruct (negb _); [done|]. destruct (negb _); [done|].
  destruct (slot_suffix (cm_body m)) as [x|]; [|done]. destruct (load_slot _ _) as [|inc]; [done|]. destruct (match inc with Some _ => _ | None => _ end); [done|].
  destruct (match inc with Some _ => _ | None => _ end) as [|cnts]; [done|]. destruct (if eqb _ _ then _ else _) as [|lives]; [done|]. destruct (2 ^ 32 <=? cm_fid m); [done|].
  intros E. injection E as <- _. split; [exact L|]. exists x. done.
Qed.
Lemma suffix_ok b x : slot_suffix b = Some x -> match b with BModerate c _ => bytes_ok c | _ => true end = true -> bytes_ok x = true.
Proof. destruct b as [| t a | |]; cbn; [by intros [= <-]| |by intros [= <-]|by intros [= <-]]. destruct (t <? _); [|done]. intros [= <-] _. apply be_ok. Qed.
Lemma slots_run os : forall s, forallb typed os = true -> slots_wf s -> slots_wf (crun s os).1.
Proof.
  induction os as [|o os IH]; intros s T W; [done|]. cbn in T. apply andb_true_iff in T as [To T]. cbn [crun].
  assert (W' : slots_wf (cstep s o).1).
  { unfold cstep. destruct (validate_channel o.1 s o.2); [done|]. destruct (merge_slot s o.2) as [|[s' d]] eqn:M; [done|]. cbn [fst].
    apply merge_slots in M as (L & x & X & E). unfold typed in To. apply andb_true_iff in To as [T1 T2]. intros k ch y H. rewrite E in H.
    destruct (decide ((kind (cm_body o.2), cm_chan o.2, x) = (k, ch, y))) as [[= <- <- <-]|Hne]; [|rewrite lookup_insert_ne in H by done; by apply (W k)].
    split; [done|]. split; [done|]. by apply (suffix_ok (cm_body o.2)). }
  destruct (cstep s o) as [s1 y]. specialize (IH s1 T W'). by destruct (crun s1 os).
Qed.
Lemma slot_rows_spec s k kb p : slots_wf s -> slot_rows s k !! kb = Some p <-> exists ch x, kb = index_key (k + 1) (ch ++ x) /\ c_slot s !! (k, ch, x) = Some p.
Proof.
  intros W. unfold slot_rows. set (L := omap _ _).
  assert (A : forall kb p, (kb, p) ∈ L <-> exists ch x, kb = index_key (k + 1) (ch ++ x) /\ c_slot s !! (k, ch, x) = Some p).
  { intros kb' p'. unfold L. rewrite elem_of_list_omap. split.
    - intros ([[[k' ch] x] q] & H & E). apply elem_of_map_to_list in H. cbn [fst snd] in E. destruct (N.eqb_spec k' k) as [->|]; [|done]. injection E as <- <-. by exists ch, x.
    - intros (ch & x & -> & H). exists ((k, ch, x), p'). split; [by apply elem_of_map_to_list|]. cbn [fst snd]. by rewrite N.eqb_refl. }
  split; [intros H; apply A; by apply elem_of_list_to_map_2|]. intros H. pose proof H as (ch & x & -> & E). apply A in H.
  destruct (list_to_map L !! index_key (k + 1) (ch ++ x)) as [q|] eqn:Q.
  - apply elem_of_list_to_map_2, A in Q as (ch' & x' & EQ & E'). injection EQ as EQ. apply app_inj_len in EQ as [<- <-]; [congruence|].
    destruct (W k ch x ltac:(by eexists)) as [-> _], (W k ch' x' ltac:(by eexists)) as [-> _]. done.
  - apply not_elem_of_list_to_map in Q. destruct Q. apply elem_of_list_fmap. by exists (index_key (k + 1) (ch ++ x), p).
Qed.

Section P.
  Context (registered : bytes -> bool).
  Context (os : list cop) (s : chst) (outs : list cout).
  Context (Hok : history_ok os) (Ht : forallb typed os = true) (Hr : crun ch_init os = (s, outs)).
  (** The last accepted message about something, read off the log. *)
  Notation last k := (last_accepted k None (combine os outs)).

  Lemma HI : CInv (msgs os) s. Proof using Hok Hr. by apply (reach os s outs). Qed.
  Lemma HW : slots_wf s.
  Proof using Ht Hr. pose proof (slots_run os ch_init Ht) as W. rewrite Hr in W. apply W. intros k ch x [p H]. done. Qed.
  Lemma Hlast k : load_slot s k = inr (last k). Proof using Hok Hr. by apply C33_slot_shows_last_accepted. Qed.
  Lemma last_view k : view s !! k = last k.
  Proof using Hok Hr. pose proof (Hlast k) as H. rewrite (load_view _ s k HI) in H. by injection H. Qed.
  Lemma row_last k p : c_slot s !! k = Some p -> exists m, c_row s !! (k.1.1, p) = Some m /\ last k = Some m.
  Proof using Hok Hr. intros H. destruct HI as (H1 & _). destruct (H1 k p H) as (m & M & _). exists m. split; [done|]. rewrite <- last_view, view_lookup, H. done. Qed.
  Lemma last_row k m : last k = Some m -> exists p, c_slot s !! k = Some p /\ c_row s !! (k.1.1, p) = Some m.
  Proof using Hok Hr. intros H. rewrite <- last_view, view_lookup in H. destruct (c_slot s !! k) as [p|]; [|done]. by exists p. Qed.
  Lemma last_member ch f m : last (1, ch, be 4 f) = Some m -> exists t a st, cm_body m = BMember t a /\ member_state_of (cm_body m) = Some st.
  Proof using Hok Hr.
    clear Ht. intros H. rewrite <- last_view in H. destruct (view_ok _ _ _ _ HI H) as (K & _ & _ & S). unfold slot_key in K. destruct (cm_body m) as [|t a| |]; cbn in K; try done.
    { destruct (t <? 2 ^ 32); [|done]. cbn [slot_message_ok] in S. destruct (member_state_of (BMember t a)) as [st|]; [|done]. by exists t, a, st. }
  Qed.

  (** One member: the state and time of the last accepted message about the account, or none. *)
  Theorem C127_member id f : known registered id = true -> 0 < f < 2 ^ 32 ->
    get_member registered s id f =
      match last (1, id, be 4 f) with
      | Some m => match member_state_of (cm_body m) with Some st => Ok (state_no st, Some (cm_ts m)) | None => Err tt end
      | None => Ok (0, None)
      end /\
    (last (1, id, be 4 f) = None <-> get_member registered s id f = Ok (0, None)) /\ get_member registered s id f <> Err tt.
  Proof using Hok Hr.
    clear Ht. intros K F. unfold get_member. rewrite K. replace (fid_ok f) with true by (unfold fid_ok; lia). cbn [andb negb]. rewrite Hlast.
    split; [done|]. destruct (last (1, id, be 4 f)) as [m|] eqn:L; [|done]. destruct (last_member _ _ _ L) as (t & a & st & _ & ->). split; [|done].
    split; [done|]. intros [= E _].
  Qed.

  (** All members: every account with an accepted message about it, in the state of the last one, each once and in order; with a
      filter those in that state. *)
  Theorem C127_members id flt want size rev : known registered id = true -> size_ok size = true -> state_filter flt = Some want ->
    exists l, all_pages (get_members registered s id flt size rev) size l /\
      StronglySorted (fun x y => if rev then y.1 < x.1 else x.1 < y.1) l /\
      forall f st, (f, st) ∈ l <-> f < 2 ^ 32 /\ (want = None \/ want = Some st) /\ exists m, last (1, id, be 4 f) = Some m /\ member_state_of (cm_body m) = Some st.
  Proof using Hok Hr Ht.
    intros K S W. pose proof K as K'. unfold known in K'. assert (L32 : length id = 32%nat) by lia. clear K'.
    set (keep := fun e : N * mstate => match want with Some st => bool_decide (st = e.2) | None => true end).
    assert (Row : forall r p, slot_rows s 1 !! (index_key 2 id ++ r) = Some p <-> c_slot s !! (1, id, r) = Some p).
    { intros r p. rewrite slot_rows_spec by apply HW. split.
      - intros (ch & x & E & H). injection E as E. apply app_inj_len in E as [<- <-]; [done|]. destruct (HW 1 ch x ltac:(by eexists)) as [-> _]. done.
      - intros H. by exists id, r. }
    assert (Slot : forall r p, c_slot s !! (1, id, r) = Some p -> exists f m st, r = be 4 f /\ f < 2 ^ 32 /\ last (1, id, r) = Some m /\ member_state_of (cm_body m) = Some st /\
      member_mk s (index_key 2 id) (index_key 2 id ++ r) p = Some (f, st)).
    { intros r p H. destruct (row_last _ _ H) as (m & M & L). cbn [fst] in M. pose proof L as L'. rewrite <- last_view in L'.
      destruct (member_slot _ s id _ m HI L' eq_refl) as (t & a & B & T & E). injection E as ->. destruct (last_member _ _ _ L) as (t' & a' & st & _ & St). exists t, m, st.
      split; [done|]. split; [done|]. split; [done|]. split; [done|]. unfold member_mk. rewrite app_length, be_length, Nat.eqb_refl. cbn [negb]. rewrite M. cbn [mbind option_bind]. rewrite St. cbn [mbind option_bind].
      rewrite drop_app_alt by done. by rewrite be_dec_be. }
    destruct (pages (member_mk s (index_key 2 id)) keep (slot_rows s 1) (index_key 2 id) size rev (fun x y => if rev then y.1 < x.1 else x.1 < y.1) ltac:(apply Exists_cons; by left) S) as (l & P & So & In).
    - intros k p H. apply slot_rows_spec in H as (ch & x & -> & H); [|apply HW]. destruct (HW 1 ch x ltac:(by eexists)) as (A & B & C).
      unfold index_key. split; [cbn; by rewrite bytes_ok_app, B, C|]. cbn [length]. rewrite app_length. lia.
    - intros r p H. apply Row, Slot in H as (f & m & st & _ & _ & _ & _ & ->). by eexists.
    - intros r p r' p' x x' H H' E E' B. apply Row in H, H'. destruct (Slot _ _ H) as (f & m & st & -> & F & _ & _ & X). destruct (Slot _ _ H') as (f' & m' & st' & -> & F' & _ & _ & X').
      rewrite X in E. rewrite X' in E'. injection E as <-. injection E' as <-. cbn [fst]. unfold blt in B. rewrite !be_lex in B by done. destruct rev.
      + destruct (N.compare_spec f' f); done.
      + destruct (N.compare_spec f f'); done.
    - exists l. split; [|split; [done|]].
      + unfold get_members. rewrite K, S, W. exact P.
      + intros f st. rewrite In. split.
        * intros (r & p & H & E & Kp). apply Row in H. destruct (Slot _ _ H) as (f' & m & st' & -> & F & L & M & X). rewrite X in E. injection E as -> ->.
          split; [done|]. split; [|by exists m]. unfold keep in Kp. destruct want; [right|by left]. apply bool_decide_eq_true in Kp. cbn in Kp. by subst.
        * intros (F & Wst & m & L & M). destruct (last_row _ _ L) as (p & H & _). exists (be 4 f), p. split; [by apply Row|].
          destruct (Slot _ _ H) as (f' & m' & st' & E & F' & L' & M' & X). apply be_inj in E; [|done|done]. subst f'. rewrite L in L'. injection L' as <-. rewrite M in M'. injection M' as <-. split; [done|].
          unfold keep. destruct Wst as [->| ->]; [done|]. by apply bool_decide_eq_true.
  Qed.
  (** The list and the single read agree. *)
  Theorem C127_members_agree id size rev : known registered id = true -> size_ok size = true ->
    exists l, all_pages (get_members registered s id None size rev) size l /\
      forall f st, 0 < f < 2 ^ 32 -> (f, st) ∈ l <-> exists ts, get_member registered s id f = Ok (state_no st, Some ts).
  Proof using Hok Hr Ht.
    intros K S. destruct (C127_members id None None size rev K S eq_refl) as (l & P & _ & In). exists l. split; [done|]. intros f st F. rewrite In.
    destruct (C127_member id f K F) as (-> & _). split.
    - intros (_ & _ & m & -> & ->). by exists (cm_ts m).
    - intros [ts E]. split; [lia|]. split; [by left|]. destruct (last (1, id, be 4 f)) as [m|]; [|done]. exists m. split; [done|].
      destruct (member_state_of (cm_body m)) as [st'|]; [|done]. injection E as E _. f_equal. by destruct st, st'.
  Qed.
  (** The claim that the filter "none" lists nobody is false: it lists everybody, also removed and banned accounts. *)
  Theorem C127_filter_none_refuted id size rev tok : get_members registered s id (Some 0) size rev tok = get_members registered s id None size rev tok.
  Proof using. done. Qed.

  (** The channels of an account: every channel with an accepted message about it (left and banned ones too), registered or not. *)
  Theorem C127_memberships f size rev : 0 < f < 2 ^ 32 -> size_ok size = true ->
    exists l, all_pages (get_memberships s f size rev) size l /\
      StronglySorted (fun x y => (if rev then blt y.1 x.1 else blt x.1 y.1) = true) l /\
      forall id st, (id, st) ∈ l <-> exists m, last (1, id, be 4 f) = Some m /\ member_state_of (cm_body m) = Some st.
  Proof using Hok Hr Ht.
    clear registered. intros F S. assert (Byf : forall ch, (f, ch) ∈ c_byfid s <-> is_Some (c_slot s !! (1, ch, be 4 f))).
    { intros ch. destruct HI as (_ & _ & _ & _ & _ & _ & H7). rewrite H7. split; [by intros [_ ?]|]. intros; split; [lia|done]. }
    assert (Row0 : forall k v, byfid_rows s !! k = Some v <-> exists g ch, k = index_key 8 (be 4 g ++ ch) /\ (g, ch) ∈ c_byfid s).
    { intros k []. unfold byfid_rows. rewrite lookup_gset_to_gmap_Some, elem_of_map. split.
      - intros [([g ch] & -> & H) _]. by exists g, ch.
      - intros (g & ch & -> & H). split; [|done]. by exists (g, ch). }
    assert (Row : forall r v, byfid_rows s !! (index_key 8 (be 4 f) ++ r) = Some v <-> (f, r) ∈ c_byfid s).
    { intros r v. rewrite Row0. split.
      - intros (g & ch & E & H). apply (f_equal (drop 2)) in E. change (be 4 f ++ r = be 4 g ++ ch) in E. apply app_inj_len in E as [E <-]; [|by rewrite !be_length]. apply be_inj in E; [by subst|cbn; lia|].
        destruct HI as (_ & _ & _ & _ & _ & _ & H7). apply H7 in H as [H _]. exact H.
      - intros H. exists f, r. done. }
    assert (Slot : forall ch, (f, ch) ∈ c_byfid s -> length ch = 32%nat /\ exists m st, last (1, ch, be 4 f) = Some m /\ member_state_of (cm_body m) = Some st /\
      membership_mk s f (index_key 8 (be 4 f)) (index_key 8 (be 4 f) ++ ch) tt = Some (ch, st)).
    { intros ch H. apply Byf in H as [p H]. destruct (HW 1 ch (be 4 f) ltac:(by eexists)) as [L32 _]. split; [done|]. destruct (row_last _ _ H) as (m & M & L). destruct (last_member _ _ _ L) as (t & a & st & _ & St).
      exists m, st. split; [done|]. split; [done|]. unfold membership_mk. rewrite app_length, L32, Nat.eqb_refl. cbn [negb]. rewrite drop_app_alt by done.
      rewrite (member_state_view _ s ch f HI) by lia. by rewrite last_view, L, St. }
    destruct (pages (membership_mk s f (index_key 8 (be 4 f))) (fun _ => true) (byfid_rows s) (index_key 8 (be 4 f)) size rev (fun x y => (if rev then blt y.1 x.1 else blt x.1 y.1) = true) ltac:(apply Exists_cons; by left) S) as (l & P & So & In).
    - intros k v H. apply Row0 in H as (g & ch & -> & H). destruct HI as (_ & _ & _ & _ & _ & _ & H7). apply H7 in H as [_ H]. destruct (HW 1 ch (be 4 g) H) as (A & B & _).
      unfold index_key. split; [cbn; by rewrite bytes_ok_app, be_ok, B|]. cbn [length]. rewrite app_length, !be_length. lia.
    - intros r [] H. apply Row, Slot in H as (_ & m & st & _ & _ & ->). by eexists.
    - intros r [] r' [] x x' H H' E E' B. apply Row in H, H'. destruct (Slot _ H) as (_ & m & st & _ & _ & X), (Slot _ H') as (_ & m' & st' & _ & _ & X').
      rewrite X in E. rewrite X' in E'. injection E as <-. injection E' as <-. cbn [fst]. exact B.
    - exists l. split; [|split; [done|]].
      + unfold get_memberships. replace (fid_ok f) with true by (unfold fid_ok; lia). rewrite S. exact P.
      + intros id st. rewrite In. split.
        * intros (r & [] & H & E & _). apply Row, Slot in H as (_ & m & st' & L & M & X). rewrite X in E. injection E as -> ->. by exists m.
        * intros (m & L & M). destruct (last_row _ _ L) as (p & H & _). assert (B : (f, id) ∈ c_byfid s) by (apply Byf; by exists p).
          exists id, tt. split; [by apply Row|]. destruct (Slot _ B) as (_ & m' & st' & L' & M' & X). rewrite L in L'. injection L' as <-. rewrite M in M'. by injection M' as <-.
  Qed.

  (** The pin: the cast of the last accepted pin message and its author; none after an empty one. *)
  Theorem C127_pin id : known registered id = true -> get_pin registered s id = Ok (
    match last (2, id, []) with
    | Some m => match cm_body m with BPin c => if bool_decide (c = []) then None else Some (c, cm_fid m) | _ => None end
    | None => None
    end).
  Proof using Hok Hr.
    clear Ht. intros K. unfold get_pin. rewrite K, Hlast. cbn [negb]. destruct (last (2, id, [])) as [m|] eqn:L; [|done]. rewrite <- last_view in L.
    destruct (view_ok _ _ _ _ HI L) as (Q & _). unfold slot_key in Q. destruct (cm_body m) as [|t a| |]; cbn in Q; try done. by destruct (t <? 2 ^ 32).
  Qed.

  (** The moderations: every cast with an accepted moderation, the last action and who took it (lifted ones too). *)
  Theorem C127_moderations id size rev : known registered id = true -> size_ok size = true ->
    exists l, all_pages (get_moderations registered s id size rev) size l /\
      StronglySorted (fun x y => (if rev then blt y.1.1 x.1.1 else blt x.1.1 y.1.1) = true) l /\
      forall c a f, (c, a, f) ∈ l <-> exists m, last (3, id, c) = Some m /\ cm_body m = BModerate c a /\ cm_fid m = f.
  Proof using Hok Hr Ht.
    intros K S. pose proof K as K'. unfold known in K'. assert (L32 : length id = 32%nat) by lia. clear K'.
    assert (Row : forall r p, slot_rows s 3 !! (index_key 4 id ++ r) = Some p <-> c_slot s !! (3, id, r) = Some p).
    { intros r p. rewrite slot_rows_spec by apply HW. split.
      - intros (ch & x & E & H). injection E as E. apply app_inj_len in E as [<- <-]; [done|]. destruct (HW 3 ch x ltac:(by eexists)) as [-> _]. done.
      - intros H. by exists id, r. }
    assert (Slot : forall r p, c_slot s !! (3, id, r) = Some p -> exists m a, last (3, id, r) = Some m /\ cm_body m = BModerate r a /\
      moderation_mk s (index_key 4 id) (index_key 4 id ++ r) p = Some (r, a, cm_fid m)).
    { intros r p H. destruct (row_last _ _ H) as (m & M & L). cbn [fst] in M. pose proof L as L'. rewrite <- last_view in L'.
      destruct (view_ok _ _ _ _ HI L') as (Q & _ & _ & Sm). unfold slot_key in Q. destruct (cm_body m) as [|t a| |c a] eqn:B; cbn in Q; try done; [by destruct (t <? 2 ^ 32)|].
      injection Q as _ ->. exists m, a. split; [done|]. split; [done|]. cbn [slot_message_ok] in Sm. unfold HASH_LEN in Sm. unfold moderation_mk. rewrite app_length.
      replace (length r) with 20%nat by lia. rewrite Nat.eqb_refl. cbn [negb]. rewrite M. cbn [mbind option_bind]. rewrite B. replace (a <=? 2) with true by lia. done. }
    destruct (pages (moderation_mk s (index_key 4 id)) (fun _ => true) (slot_rows s 3) (index_key 4 id) size rev (fun x y => (if rev then blt y.1.1 x.1.1 else blt x.1.1 y.1.1) = true) ltac:(apply Exists_cons; by left) S) as (l & P & So & In).
    - intros k p H. apply slot_rows_spec in H as (ch & x & -> & H); [|apply HW]. destruct (HW 3 ch x ltac:(by eexists)) as (A & B & C).
      unfold index_key. split; [cbn; by rewrite bytes_ok_app, B, C|]. cbn [length]. rewrite app_length. lia.
    - intros r p H. apply Row, Slot in H as (m & a & _ & _ & ->). by eexists.
    - intros r p r' p' x x' H H' E E' B. apply Row in H, H'. destruct (Slot _ _ H) as (m & a & _ & _ & X), (Slot _ _ H') as (m' & a' & _ & _ & X').
      rewrite X in E. rewrite X' in E'. injection E as <-. injection E' as <-. exact B.
    - exists l. split; [|split; [done|]].
      + unfold get_moderations. rewrite K, S. exact P.
      + intros c a f. rewrite In. split.
        * intros (r & p & H & E & _). apply Row, Slot in H as (m & a' & L & B & X). rewrite X in E. injection E as -> -> <-. by exists m.
        * intros (m & L & B & <-). destruct (last_row _ _ L) as (p & H & _). exists c, p. split; [by apply Row|]. destruct (Slot _ _ H) as (m' & a' & L' & B' & X).
          rewrite L in L'. injection L' as <-. rewrite B in B'. by injection B' as <-.
  Qed.

  (** The settings: those of the last accepted update alone; unset and unspecified modes are told as members-only and by approval,
      and a channel without update is told the same. Whether it is told as open is what admission uses. *)
  Theorem C127_metadata id : known registered id = true -> exists txt c b, get_metadata registered s id = Ok (txt, (c, b)) /\
    membership_open s id = inr (b =? 1) /\
    match last (0, id, []) with
    | None => txt = None /\ c = 2 /\ b = 2
    | Some m => txt = Some (cm_rest m) /\ exists x y, cm_body m = BUpdate x y /\
        c = match x with Some 1 => 1 | Some 3 => 3 | _ => 2 end /\ b = match y with Some 1 => 1 | _ => 2 end
    end.
  Proof using Hok Hr.
    clear Ht. intros K. unfold get_metadata, membership_open. rewrite K, Hlast. cbn [negb]. destruct (last (0, id, [])) as [m|] eqn:L; [|by exists None, 2, 2]. rewrite <- last_view in L.
    destruct (view_ok _ _ _ _ HI L) as (Q & _ & _ & Sm). unfold slot_key in Q. destruct (cm_body m) as [x y|t a| |]; cbn in Q; try done; [|by destruct (t <? 2 ^ 32)].
    assert (X : x = None \/ x = Some 0 \/ x = Some 1 \/ x = Some 2 \/ x = Some 3).
    { unfold slot_message_ok, fold_modes in Sm. destruct x as [x|]; [|by left]. destruct (N.leb_spec x 3); [|done]. assert (x = 0 \/ x = 1 \/ x = 2 \/ x = 3) by lia. naive_solver. }
    assert (Y : y = None \/ y = Some 0 \/ y = Some 1 \/ y = Some 2).
    { unfold slot_message_ok, fold_modes in Sm. destruct y as [y|]; [|by left]. destruct (match x with Some _ => _ | None => _ end); [|done]. cbn in Sm.
      destruct y as [|[y|[y|y|]|]]; try done; right; auto. }
    destruct X as [->|[->|[->|[->| ->]]]], Y as [->|[->|[->| ->]]]; cbn; eexists _, _, _; (split; [reflexivity|]); (split; [reflexivity|]); (split; [reflexivity|]); eexists _, _; (split; [reflexivity|]); split; reflexivity.
  Qed.

  (** The states are numbered as in the protocol, by the reads and by the filter; other filters are refused. *)
  Theorem C127_numbers n st : (state_no st = n <-> nth_error [None; Some SMember; Some SModerator; Some SRemoved; Some SBanned] (N.to_nat n) = Some (Some st)) /\
    state_filter (Some n) = nth_error [None; Some SMember; Some SModerator; Some SRemoved; Some SBanned] (N.to_nat n).
  Proof using.
    clear Ht Hok Hr. assert (C : n = 0 \/ n = 1 \/ n = 2 \/ n = 3 \/ n = 4 \/ 5 <= n) by lia. destruct C as [->|[->|[->|[->|[->|C]]]]]; [by destruct st..|].
    assert (E : nth_error [None; Some SMember; Some SModerator; Some SRemoved; Some SBanned] (N.to_nat n) = None) by (apply nth_error_None; cbn; lia). rewrite E.
    split; [split; [destruct st; cbn; lia|done]|]. destruct n as [|[[[p|p|]|[p|p|]|]|[[p|p|]|[p|p|]|]|]]; try done; lia.
  Qed.
  (** An empty token asks for the first page; account numbers out of range, pages of no entries and unknown filters are refused. *)
  Theorem C127_requests id flt size rev tok f :
    get_members registered s id flt size rev (Some []) = get_members registered s id flt size rev None /\
    get_memberships s f size rev (Some []) = get_memberships s f size rev None /\
    get_moderations registered s id size rev (Some []) = get_moderations registered s id size rev None /\
    (f = 0 \/ 2 ^ 32 <= f -> get_member registered s id f = Err tt /\ get_memberships s f size rev tok = Err tt) /\
    (size = Some 0 -> get_members registered s id flt size rev tok = Err tt /\ get_memberships s f size rev tok = Err tt /\ get_moderations registered s id size rev tok = Err tt) /\
    (state_filter flt = None -> get_members registered s id flt size rev tok = Err tt).
  Proof using.
    clear Ht Hok Hr. split; [done|]. split; [done|]. split; [done|]. split; [|split].
    - intros F. assert (E : fid_ok f = false) by (unfold fid_ok; lia). unfold get_member, get_memberships. rewrite E. by destruct (known registered id).
    - intros ->. unfold get_members, get_memberships, get_moderations. replace (size_ok (Some 0)) with false by done. by destruct (known registered id), (fid_ok f).
    - intros E. unfold get_members. rewrite E. by destruct (negb _).
  Qed.

  (** An unregistered channel is told nothing, whatever is stored for it. *)
  Theorem C127_unregistered id flt size rev tok f : known registered id = false -> get_member registered s id f = Err tt /\ get_members registered s id flt size rev tok = Err tt /\
    get_pin registered s id = Err tt /\ get_moderations registered s id size rev tok = Err tt /\ get_metadata registered s id = Err tt.
  Proof using. intros K. unfold get_member, get_members, get_pin, get_moderations, get_metadata. by rewrite K. Qed.
End P.

(** A channel with a member, a moderator and a banned account, one cast hidden and a pin put and taken away. *)
Definition xid : bytes := repeat 7 32.
Definition xenv : chenv := fun _ => Some (Some 1).
Definition xm (n ts : N) (b : cbody) : cop := (xenv, CMsg 1 ts (repeat n 20) xid b [n]).
Definition xos : list cop :=
  [xm 1 10 (BUpdate (Some 0) (Some 1)); xm 2 11 (BMember 300 1); xm 3 12 (BMember 5 3); xm 4 13 (BMember 9 5); xm 5 14 (BPin (repeat 3 20));
   xm 6 15 (BModerate (repeat 4 20) 1); xm 7 16 (BPin []); xm 8 17 (BMember 300 2)].
Example C127_ex : let s := (crun ch_init xos).1 in let reg := fun _ => true in
  forallb typed xos = true /\ nodup_keys (map snd xos) = true /\ known reg xid = true /\
  get_member reg s xid 5 = Ok (2, Some 12) /\ get_member reg s xid 6 = Ok (0, None) /\ get_member reg s xid 0 = Err tt /\
  (exists k1 k2, get_members reg s xid None (Some 2) false None = Ok ([(5, SModerator); (9, SBanned)], Some k1) /\
     get_members reg s xid None (Some 2) false (Some k1) = Ok ([(300, SRemoved)], None) /\
     get_members reg s xid (Some 4) (Some 1) true (Some []) = Ok ([(9, SBanned)], Some k2) /\ get_members reg s xid (Some 4) (Some 1) true (Some k2) = Ok ([], None)) /\
  get_memberships s 300 None false None = Ok ([(xid, SRemoved)], None) /\ get_pin reg s xid = Ok None /\
  get_moderations reg s xid None false None = Ok ([(repeat 4 20, 1, 1)], None) /\ get_metadata reg s xid = Ok (Some [1], (2, 1)).
Proof. vm_compute. repeat (split; [done|]). split; [|done]. eexists _, _. done. Qed.
Example C127_history_ex : history_ok xos.
Proof. unfold history_ok, msgs. apply nodup_keys_ok. by vm_compute. Qed.

Print Assumptions C127_member. Print Assumptions C127_members. Print Assumptions C127_members_agree. Print Assumptions C127_filter_none_refuted.
Print Assumptions C127_memberships. Print Assumptions C127_pin. Print Assumptions C127_moderations. Print Assumptions C127_metadata. Print Assumptions C127_unregistered.
Print Assumptions C127_numbers. Print Assumptions C127_requests.
