(** Proofs about ChannelReads.v. *)
From Coq Require Import Lia ZifyN ZifyNat ZifyBool.
From Verif Require Import Http.
From Verif Require Import Base Codec CodecProofs Kv Paging PagingProofs PropPaging OnChain OnChainProofs ChannelReads.
#[local] Open Scope N_scope.

Definition lift {A} (r : res unit A) : res cerr A := match r with Ok a => Ok a | Err _ => Err EStore | Panic => Panic end.
Definition mkk (a k : bytes) (_ : unit) : option bytes :=
  if (length k <? 22)%nat then None else if utf8 (drop 22 k) then Some (drop 22 k) else None.
Definition all_decode (a : bytes) (l : list (bytes * unit)) : Prop := Forall (fun r => is_Some (mkk a r.1 r.2)) l.

(** ** Ranges *)
Lemma incr_le_app l r : incr_le (l ++ r) =
  let '(l', c) := incr_le l in if c then let '(r', c') := incr_le r in (l' ++ r', c') else (l' ++ r, false).
Proof.
  induction l as [|x l IH]; cbn [app incr_le]; [by destruct (incr_le r)|]. rewrite IH.
  destruct (x =? 255); [|done]. destruct (incr_le l) as [l' []]; [|done]. by destruct (incr_le r).
Qed.
Lemma inc_owner a : exists t, increment_vec_u8 (owner_prefix a) = 12 :: 57 :: t \/ increment_vec_u8 (owner_prefix a) = 12 :: 58 :: t.
Proof.
  unfold increment_vec_u8, owner_prefix, OWNER_ROOT. rewrite reverse_app, incr_le_app.
  destruct (incr_le (reverse a)) as [l' []].
  - change (incr_le (reverse [12; 57])) with ([58; 12], false). cbn iota beta zeta. rewrite reverse_app. eexists. right. reflexivity.
  - rewrite reverse_app. eexists. left. reflexivity.
Qed.
Lemma range_root a k : ble (owner_prefix a) k = true -> blt k (increment_vec_u8 (owner_prefix a)) = true ->
  is_prefix [12; 57] k = true \/ is_prefix [12; 58] k = true.
Proof.
  intros H1 H2. destruct (inc_owner a) as [t Ht]. apply ble_lex in H1. apply blt_lex in H2.
  unfold owner_prefix, OWNER_ROOT in H1. cbn [app] in H1.
  destruct k as [|x k]; [done|]. cbn [lex] in H1.
  assert (Hx : x = 12).
  { destruct Ht as [Ht|Ht]; rewrite Ht in H2; cbn [lex] in H2; destruct (N.compare_spec 12 x); destruct (N.compare_spec x 12); try done; lia. }
  subst x. rewrite N.compare_refl in H1. destruct k as [|y k]; [done|]. cbn [lex] in H1.
  destruct Ht as [Ht|Ht]; rewrite Ht in H2; cbn [lex] in H2; rewrite N.compare_refl in H2; cbn [is_prefix]; rewrite N.eqb_refl; cbn [andb].
  - left. assert (y = 57) as ->; [|done]. destruct (N.compare_spec 57 y); destruct (N.compare_spec y 57); try done; lia.
  - destruct (N.compare_spec 57 y) as [<-|Hy|]; [by left| |done]. right.
    assert (y = 58) as ->; [|done]. destruct (N.compare_spec y 58); try done; lia.
Qed.

(** ** What the database holds *)
Definition other_ok (m : kv unit) : Prop := forall k v, m !! k = Some v ->
  bytes_ok k = true /\ is_prefix [12; 57] k = false /\ is_prefix [12; 58] k = false.
Definition idx_ok (t : gset (bytes * bytes)) : Prop := forall a ck, (a, ck) ∈ t ->
  length a = 20%nat /\ bytes_ok a = true /\ bytes_ok ck = true /\ utf8 ck = true.

Section Rows.
  Context (s : node) (Hother : other_ok (n_other s)) (Hidx : idx_ok (t_addr (n_chain s))).

  Lemma all_rows_elem k v : all_rows s !! k = Some v <->
    (exists a ck, (a, ck) ∈ t_addr (n_chain s) /\ k = owner_key a ck) \/ n_other s !! k = Some v.
  Proof.
    unfold all_rows. rewrite lookup_union_Some_raw, lookup_gset_to_gmap_Some, lookup_gset_to_gmap_None. destruct v. split.
    - intros [[([a ck] & -> & H)%elem_of_map _]|[_ H]]; [left; by exists a, ck|by right].
    - intros [(a & ck & H & ->)|H]; [left; split; [|done]; apply elem_of_map; by exists (a, ck)|].
      destruct (decide (k ∈ (set_map (fun p : bytes * bytes => owner_key p.1 p.2) (t_addr (n_chain s)) : gset bytes))); [by left|by right].
  Qed.
  Lemma all_rows_root k v : all_rows s !! k = Some v -> is_prefix [12; 58] k = false /\ bytes_ok k = true /\
    (is_prefix [12; 57] k = true -> exists a ck, (a, ck) ∈ t_addr (n_chain s) /\ k = owner_key a ck).
  Proof.
    intros [(a & ck & Hin & ->)|H]%all_rows_elem.
    - split; [done|]. split; [|by exists a, ck]. destruct (Hidx a ck Hin) as (_ & H1 & H2 & _).
      unfold owner_key, owner_prefix. by rewrite !bytes_ok_app, H1, H2.
    - destruct (Hother k v H) as (H1 & H2 & H3). split; [done|]. split; [done|]. by rewrite H2.
  Qed.
  Lemma owner_key_drop a ck : length a = 20%nat -> drop 22 (owner_key a ck) = ck.
  Proof. intros H. unfold owner_key, owner_prefix, OWNER_ROOT. rewrite drop_app_alt; [done|]. rewrite app_length. cbn. lia. Qed.
  Lemma owner_key_inj a ck b dk : length a = 20%nat -> length b = 20%nat -> owner_key a ck = owner_key b dk -> a = b /\ ck = dk.
  Proof.
    intros H1 H2. unfold owner_key, owner_prefix. rewrite <- !app_assoc. intros E. apply app_inv_head in E. apply app_inj_1 in E; [done|lia].
  Qed.
  (** A row in the range of an address is a row of the index of that address, and is read. *)
  Lemma in_range a k v : length a = 20%nat -> all_rows s !! k = Some v -> ble (owner_prefix a) k = true ->
    blt k (increment_vec_u8 (owner_prefix a)) = true -> exists ck, (a, ck) ∈ t_addr (n_chain s) /\ k = owner_key a ck.
  Proof.
    intros Ha Hk H1 H2. destruct (all_rows_root k v Hk) as (Hn & Hb & Hy).
    destruct (range_root a k H1 H2) as [Hr|Hr]; [|congruence].
    destruct (Hy Hr) as (b & ck & Hin & ->). destruct (Hidx b ck Hin) as (Hl & _).
    assert (Hp : is_prefix (owner_prefix a) (owner_key b ck) = true).
    { rewrite <- in_prefix_scan_spec; [|done| |].
      - unfold in_prefix_scan. by rewrite H1, H2.
      - unfold owner_prefix. apply Exists_app. left. left. done.
      - unfold owner_key, owner_prefix, OWNER_ROOT. rewrite !app_length. cbn. lia. }
    apply is_prefix_spec in Hp as [r Hr']. apply (owner_key_inj b ck a r) in Hr' as [-> ->]; [|done|done]. by exists r.
  Qed.
  Lemma range_of a ck : length a = 20%nat -> (a, ck) ∈ t_addr (n_chain s) ->
    ble (owner_prefix a) (owner_key a ck) = true /\ blt (owner_key a ck) (increment_vec_u8 (owner_prefix a)) = true.
  Proof.
    intros Ha Hin. destruct (Hidx a ck Hin) as (Hl & H1 & H2 & _). apply andb_true_iff. fold (in_prefix_scan (owner_prefix a) (owner_key a ck)).
    rewrite in_prefix_scan_spec.
    - apply is_prefix_spec. by exists ck.
    - unfold owner_key, owner_prefix. by rewrite !bytes_ok_app, H1, H2.
    - unfold owner_prefix. apply Exists_app. left. left. done.
    - unfold owner_key. rewrite app_length. lia.
  Qed.
  Lemma mkk_row a ck v b : (a, ck) ∈ t_addr (n_chain s) -> mkk b (owner_key a ck) v = Some ck.
  Proof.
    intros Hin. destruct (Hidx a ck Hin) as (Hl & _ & _ & Hu). unfold mkk. rewrite (owner_key_drop a ck Hl), Hu.
    destruct (Nat.ltb_spec (length (owner_key a ck)) 22) as [Hlt|]; [|done]. exfalso. unfold owner_key, owner_prefix, OWNER_ROOT in Hlt.
    rewrite !app_length in Hlt. cbn in Hlt. lia.
  Qed.

  (** Tokens that stay inside an address. *)
  Definition inside (a : bytes) (t : option bytes) : Prop := match t with Some u => is_prefix (owner_prefix a) u = true | None => True end.
  Lemma prefix_ble p u : is_prefix p u = true -> ble p u = true.
  Proof. intros [r ->]%is_prefix_spec. apply ble_lex. replace p with (p ++ []) at 1 by apply app_nil_r. rewrite lex_app_l. by destruct r. Qed.
  Lemma blt_inc a u k : is_prefix (owner_prefix a) u = true -> blt k u = true -> ble (owner_prefix a) k = true ->
    blt k (increment_vec_u8 (owner_prefix a)) = true \/ is_prefix (owner_prefix a) k = true.
  Proof.
    intros [r ->]%is_prefix_spec H1 H2. right. apply blt_lex in H1. apply ble_lex in H2. generalize (owner_prefix a) H1 H2. clear.
    intros p. revert k. induction p as [|x p IH]; intros k H1 H2; [done|]. destruct k as [|y k]; [cbn in H2; congruence|].
    cbn in H1, H2 |- *. destruct (N.compare_spec y x) as [->|?|?]; [|rewrite (proj2 (N.compare_gt_iff x y)) in H2 by done; done|done].
    rewrite N.compare_refl in H2. rewrite N.eqb_refl. cbn. by apply IH.
  Qed.
  Lemma scan_inside a n t rev k v : length a = 20%nat -> inside a t ->
    (k, v) ∈ scan (all_rows s) (owner_prefix a) (increment_vec_u8 (owner_prefix a)) (POpts n t rev) ->
    exists ck, (a, ck) ∈ t_addr (n_chain s) /\ k = owner_key a ck.
  Proof.
    intros Ha Ht [Hk Hb]%scan_elem. unfold in_bounds, bounds in Hb. cbn in Hb. apply andb_prop in Hb as [H1 H2].
    destruct t as [u|]; cbn in Ht.
    - destruct rev.
      + destruct (blt_inc a u k Ht H2 H1) as [H3|H3]; [by apply (in_range a k v)|].
        apply is_prefix_spec in H3 as [r ->]. destruct (all_rows_root _ _ Hk) as (_ & _ & Hy).
        destruct (Hy eq_refl) as (b & ck & Hin & E). destruct (Hidx b ck Hin) as (Hl & _).
        destruct (owner_key_inj a r b ck Ha Hl E) as [-> ->]. by exists ck.
      + rewrite blt_snoc0 in H1. apply (in_range a k v); try done.
        apply (ble_trans _ u); [by apply prefix_ble|]. apply ble_eq_or_lt. by right.
    - apply (in_range a k v); try done; by destruct rev.
  Qed.
  Lemma scan_decodes a n t rev : length a = 20%nat -> inside a t ->
    all_decode a (scan (all_rows s) (owner_prefix a) (increment_vec_u8 (owner_prefix a)) (POpts n t rev)).
  Proof.
    intros Ha Ht. apply Forall_forall. intros [k v] Hk. destruct (scan_inside a n t rev k v Ha Ht Hk) as (ck & Hin & ->).
    cbn [fst snd]. rewrite (mkk_row a ck v a Hin). by eexists.
  Qed.
End Rows.

(** ** One address *)
Lemma iterate_ext (a : bytes) (size : N) (limit : option N) l : all_decode a l -> forall c acc,
  iterate (key_cb 22 size) limit c l acc = iterate (page_cb (mkk a) (fun _ => true) size) limit c l acc.
Proof.
  induction l as [|[k v] l IH]; intros Hd c acc; [done|]. apply Forall_cons in Hd as [[x Hx] Hd]. cbn [iterate]. cbn [fst snd] in Hx.
  unfold key_cb at 1, page_cb at 1. rewrite Hx. unfold mkk in Hx. destruct (length k <? 22)%nat; [done|]. destruct (utf8 (drop 22 k)); [|done].
  injection Hx as <-. destruct (size <=? _); [done|]. destruct limit as [m|]; [destruct (m <=? c + 1); [done|]|]; by apply IH.
Qed.
Lemma keys_by_owner_eq rows a po : length a = 20%nat ->
  all_decode a (scan rows (owner_prefix a) (increment_vec_u8 (owner_prefix a)) po) ->
  keys_by_owner rows a po = lift (list_owner mkk owner_prefix rows a po).
Proof.
  intros Ha Hd. unfold keys_by_owner, list_owner, list_limited, for_each_paged. rewrite Ha. cbn [Nat.eqb negb].
  assert (length (owner_prefix a) = 22%nat) as -> by (unfold owner_prefix, OWNER_ROOT; rewrite app_length; cbn; lia).
  rewrite (iterate_ext a _ _ _ Hd). by destruct (page_of _).
Qed.
Lemma keys_bound rows a n t rev ks nt : 1 <= n -> keys_by_owner rows a (POpts (Some n) t rev) = Ok (ks, nt) -> N.of_nat (length ks) <= n.
Proof.
  intros Hn H. unfold keys_by_owner in H. destruct (negb _); [done|]. unfold for_each_paged in H. cbn [po_size psize] in H. unfold psize in H. cbn [po_size default] in H.
  set (l := scan _ _ _ _) in H. clearbody l.
  assert (Hg : forall l c acc lk l' k' d, N.of_nat (length acc) < n -> iterate (key_cb (length (owner_prefix a)) n) (Some n) c l (acc, lk) = Ok (l', k', d) -> N.of_nat (length l') <= n).
  { clear H l. induction l as [|[k v] l IH]; intros c acc lk l' k' d Hlt H; cbn [iterate] in H; [injection H; intros; subst; lia|].
    unfold key_cb at 1 in H. destruct (_ <? _)%nat; [done|]. destruct (utf8 _); [|done]. cbn [fst snd] in H.
    destruct (N.leb_spec n (N.of_nat (length (acc ++ [drop (length (owner_prefix a)) k])))) as [Hs|Hs].
    - injection H; intros; subst. rewrite app_length in *. cbn [length] in *. lia.
    - destruct (n <=? c + 1); [injection H as <- _ _; rewrite app_length in *; cbn [length] in *; lia|]. by apply (IH _ _ _ _ _ _ Hs H). }
  unfold page_of in H. cbn [po_size] in H. change (default PAGE_SIZE_MAX (Some n)) with n in H.
  destruct (iterate _ _ _ l _) as [[[l' k'] d]| |] eqn:E; [|done|done]. injection H; intros _ <-. eapply Hg; [|exact E]. cbn. lia.
Qed.
Lemma keys_loop_bound rows tok size os acc l nt : 1 <= size -> N.of_nat (length acc.1) <= size ->
  keys_loop rows tok size os acc = Ok (l, nt) -> N.of_nat (length l) <= size.
Proof.
  intros Hs. revert acc. induction os as [|a os IH]; intros acc Ha H; cbn [keys_loop] in H; [injection H; intros; subst; done|].
  destruct (N.leb_spec size (N.of_nat (length acc.1))) as [Hc|Hc]; [injection H; intros; subst; done|].
  destruct (owner_token _ _ _) as [t|]; [|by apply (IH acc)].
  destruct (keys_by_owner _ _ _) as [[ks nt']| |] eqn:E; [|done|done]. eapply IH; [|exact H]. cbn. rewrite app_length, map_length.
  apply keys_bound in E; lia.
Qed.
Lemma keys_loop_from rows tok size os acc l nt : keys_loop rows tok size os acc = Ok (l, nt) ->
  forall p, p ∈ l -> p ∈ acc.1 \/ p.1 ∈ os.
Proof.
  revert acc. induction os as [|a os IH]; intros acc H p Hp; cbn [keys_loop] in H; [injection H; intros; subst; by left|].
  destruct (size <=? _); [injection H; intros; subst; by left|].
  destruct (owner_token _ _ _) as [t|]; [|destruct (IH acc H p Hp); [by left|right; by right]].
  destruct (keys_by_owner _ _ _) as [[ks nt']| |] eqn:E; [|done|done].
  destruct (IH _ H p Hp) as [H1|H1]; [|right; by right]. cbn in H1. apply elem_of_app in H1 as [H1|H1]; [by left|].
  apply elem_of_list_fmap in H1 as (y & -> & _). right. left.
Qed.

(** ** Many addresses: the rows that are not of the index do not matter *)
Lemma scan_ext {V} (db1 db2 : kv V) start stop po :
  (forall k, in_bounds (bounds start stop po) k = true -> db1 !! k = db2 !! k) -> scan db1 start stop po = scan db2 start stop po.
Proof.
  intros H. apply (sorted_unique (po_reverse po)); [apply scan_sorted|apply scan_sorted|].
  intros [k v]. rewrite !scan_elem. split; intros [H1 H2]; (split; [|done]); [by rewrite <- (H k H2)|by rewrite (H k H2)].
Qed.
Definition idx_rows (s : node) : kv unit := filter (fun r => is_prefix [12; 57] r.1 = true) (all_rows s).
Lemma idx_rows_scan s a n t rev : other_ok (n_other s) -> idx_ok (t_addr (n_chain s)) -> length a = 20%nat -> inside a t ->
  scan (all_rows s) (owner_prefix a) (increment_vec_u8 (owner_prefix a)) (POpts n t rev) =
  scan (idx_rows s) (owner_prefix a) (increment_vec_u8 (owner_prefix a)) (POpts n t rev).
Proof.
  intros Ho Hi Ha Ht. apply scan_ext. intros k Hk. unfold idx_rows.
  destruct (all_rows s !! k) as [v|] eqn:E; symmetry.
  - apply map_filter_lookup_Some. split; [done|].
    destruct (scan_inside s Ho Hi a n t rev k v Ha Ht) as (ck & _ & ->); [by apply scan_elem|]. done.
  - apply map_filter_lookup_None. by left.
Qed.
Lemma list_owner_idx s a n t : other_ok (n_other s) -> idx_ok (t_addr (n_chain s)) -> length a = 20%nat -> inside a t ->
  keys_by_owner (all_rows s) a (POpts n t false) = lift (list_owner mkk owner_prefix (idx_rows s) a (POpts n t false)).
Proof.
  intros Ho Hi Ha Ht. rewrite keys_by_owner_eq by (done || by apply scan_decodes).
  unfold list_owner, list_limited, for_each_paged. by rewrite idx_rows_scan.
Qed.
Lemma keys_loop_eq s tok size os : other_ok (n_other s) -> idx_ok (t_addr (n_chain s)) -> Forall (fun a => length a = 20%nat) os -> forall acc,
  keys_loop (all_rows s) tok size os acc = lift (owners_loop mkk owner_prefix (idx_rows s) tok size os acc).
Proof.
  intros Ho Hi. induction os as [|a os IH]; intros Hl acc; [done|]. apply Forall_cons in Hl as [Ha Hl]. cbn [keys_loop owners_loop].
  destruct (size <=? _); [done|]. destruct (owner_token owner_prefix tok a) as [t|] eqn:Et; [|by apply IH].
  assert (Hin : inside a t).
  { unfold owner_token in Et. destruct tok as [u|]; [|by injection Et as <-]. destruct (is_prefix _ u) eqn:Ep; [by injection Et as <-|].
    destruct (blt u _); [by injection Et as <-|done]. }
  rewrite list_owner_idx by done. destruct (list_owner _ _ _ _ _) as [[ks nt]| |]; [|done|done]. cbn [lift]. by apply IH.
Qed.
Lemma keys_for_owners_eq s tok size os : other_ok (n_other s) -> idx_ok (t_addr (n_chain s)) -> Forall (fun a => length a = 20%nat) os ->
  keys_for_owners (all_rows s) os tok size = lift (list_owners mkk owner_prefix (idx_rows s) os size tok).
Proof.
  intros Ho Hi Hl. unfold keys_for_owners, list_owners. rewrite keys_loop_eq by done. by destruct (owners_loop _ _ _ _ _ _ _) as [[]| |].
Qed.

(** ** The tables after a history *)
Definition chan_typed (e : oev) : bool :=
  match o_body e with BChan _ _ ck owner _ => bytes_ok ck && utf8 ck && bytes_ok owner | _ => true end.
Definition own_typed (s : ost) : Prop := forall ck w, t_own s !! ck = Some w ->
  bytes_ok ck = true /\ utf8 ck = true /\ bytes_ok (w_addr w) = true.
Lemma own_typed_step keccak db s e : chan_typed e = true -> own_typed s -> own_typed (ostep keccak db s e).
Proof.
  intros Ht HI. destruct (t_ev s !! prim e) as [x|] eqn:E; [by rewrite (ostep_dup keccak db s e) by (by rewrite E; eexists)|].
  pose proof (ostep_chan keccak db s e) as H. unfold chan_typed in Ht.
  destruct (o_body e) as [| | |k label ckey owner expiry| |]; try (destruct H as (H & _); intros ck w; rewrite H; apply HI).
  apply andb_prop in Ht as [[H1 H2]%andb_prop H3].
  destruct (H E) as (Ho & _). intros ck w. rewrite Ho. clear H Ho.
  assert (HI' : own_typed (with_ev s e)) by exact HI. revert HI'. generalize (with_ev s e). intros s0 HI'.
  destruct (index_chan_step keccak s0 e k label ckey owner expiry) as [| ? ? ? ? -> L1 L2 Hold|? ? ? ? w1 -> L1 Hw1 Hold|? ? ? ? ck1 w1 El L1 L2 Hw1 Hold]; cbn [t_own fst].
  - apply HI'.
  - intros [[<- <-]|[_ Hw]]%lookup_insert_Some; [done|by apply HI'].
  - intros [[<- <-]|[_ Hw]]%lookup_insert_Some; [|by apply HI']. cbn. split; [done|]. split; [done|]. by apply (HI' _ _ Hw1).
  - intros [[<- <-]|[_ Hw]]%lookup_insert_Some; [|by apply HI']. cbn. destruct (HI' _ _ Hw1) as (? & ? & _). done.
Qed.
Lemma own_typed_run keccak bs : Forall (fun e => chan_typed e = true) (concat bs) -> own_typed (orun keccak o_init bs).
Proof.
  intros Ht. unfold orun.
  assert (H0 : own_typed o_init) by (intros ck w H; cbn in H; by rewrite lookup_empty in H).
  revert H0. generalize o_init. induction bs as [|b bs IH]; intros s Hs; [done|]. cbn [foldl]. cbn [concat] in Ht. apply Forall_app in Ht as [Hb Ht].
  apply IH; [done|]. unfold obatch. generalize s at 1. intros db. clear IH Ht bs. revert s Hs. induction b as [|e b IH]; intros s Hs; [done|].
  apply Forall_cons in Hb as [He Hb]. cbn [foldl]. apply IH; [done|]. by apply own_typed_step.
Qed.
Lemma idx_ok_run keccak bs : Forall (fun e => chan_typed e = true) (concat bs) -> idx_ok (t_addr (orun keccak o_init bs)).
Proof.
  intros Ht a ck Hin. destruct (ch_inv_run keccak bs) as (Ha & _ & Hc). apply Ha in Hin as (w & Hw & <-).
  destruct (Hc ck w Hw) as [Hl _]. destruct (own_typed_run keccak bs Ht ck w Hw) as (? & ? & ?). done.
Qed.

(** ** Listings of one address *)
Section Listing.
  Context (s : node) (Hother : other_ok (n_other s)) (Hidx : idx_ok (t_addr (n_chain s))).
  Let rng (a : bytes) (n : option N) (rev : bool) := scan (all_rows s) (owner_prefix a) (increment_vec_u8 (owner_prefix a)) (POpts n None rev).

  Lemma rng_entries a n rev ck : length a = 20%nat -> ck ∈ entries (mkk a) (fun _ => true) (rng a n rev) <-> (a, ck) ∈ t_addr (n_chain s).
  Proof.
    intros Ha. unfold entries. rewrite elem_of_list_omap. split.
    - intros ([k v] & Hk & E). cbn [fst snd] in E.
      destruct (scan_inside s Hother Hidx a n None rev k v Ha I Hk) as (c & Hin & ->). rewrite (mkk_row s Hidx a c v a Hin) in E. by injection E as <-.
    - intros Hin. exists (owner_key a ck, tt). cbn [fst snd]. rewrite (mkk_row s Hidx a ck tt a Hin). split; [|done].
      apply scan_elem. split; [apply all_rows_elem; left; by exists a, ck|].
      destruct (range_of s Hidx a ck Ha Hin) as [H1 H2]. unfold in_bounds, bounds. cbn [po_reverse po_token fst snd]. destruct rev; by rewrite H1, H2.
  Qed.
  Definition dir (rev : bool) (x y : bytes) : Prop := if rev then blt y x = true else blt x y = true.
  Lemma rng_sorted a n rev : length a = 20%nat -> StronglySorted (dir rev) (entries (mkk a) (fun _ => true) (rng a n rev)).
  Proof.
    intros Ha. pose proof (scan_sorted (all_rows s) (owner_prefix a) (increment_vec_u8 (owner_prefix a)) (POpts n None rev)) as Hs.
    fold (rng a n rev) in Hs. cbn [po_reverse] in Hs.
    assert (Hk : Forall (fun r => exists ck, (a, ck) ∈ t_addr (n_chain s) /\ r.1 = owner_key a ck) (rng a n rev)).
    { apply Forall_forall. intros [k v] H. by apply (scan_inside s Hother Hidx a n None rev k v Ha I). }
    revert Hs Hk. generalize (rng a n rev). clear -Hidx Ha. induction l as [|[k v] l IH]; intros Hs Hk; [constructor|].
    apply Forall_cons in Hk as [(ck & Hin & E) Hk]. cbn [fst] in E. subst k. inversion Hs as [|? ? Hs' Hf]; subst.
    unfold entries in *. cbn [omap list_omap fst snd]. rewrite (mkk_row s Hidx a ck v a Hin). constructor; [by apply IH|].
    apply Forall_forall. intros y Hy. apply elem_of_list_omap in Hy as ([k' v'] & Hin' & E). rewrite Forall_forall in Hf, Hk.
    destruct (Hk _ Hin') as (ck' & Hc & E'). cbn [fst] in E'. subst k'. cbn [fst snd] in E. rewrite (mkk_row s Hidx a ck' v' a Hc) in E. injection E as <-.
    specialize (Hf _ Hin'). unfold ordered, klt, kgt in Hf. unfold dir.
    assert (Hlt : forall x z, blt (owner_key a x) (owner_key a z) = true -> blt x z = true).
    { intros x z. rewrite !blt_lex. unfold owner_key. by rewrite lex_app_l. }
    destruct rev; by apply Hlt.
  Qed.
  Lemma rng_length a n rev : length a = 20%nat -> length (entries (mkk a) (fun _ => true) (rng a n rev)) = length (rng a n rev).
  Proof.
    intros Ha. pose proof (scan_decodes s Hother Hidx a n None rev Ha I) as Hd. fold (rng a n rev) in Hd. revert Hd. generalize (rng a n rev).
    induction l as [|[k v] l IH]; intros Hd; [done|]. apply Forall_cons in Hd as [[x Hx] Hd]. unfold entries in *. cbn [omap list_omap]. rewrite Hx. cbn. by rewrite IH.
  Qed.
End Listing.

(** ** Following pages *)
Definition forget {A} (r : res cerr A) : res unit A := match r with Ok a => Ok a | Err _ => Err tt | Panic => Panic end.
Lemma follow_map {A B} (P : option bytes -> Prop) (f : list A -> list B)
  (page : option bytes -> res unit (list A * option bytes)) (page' : option bytes -> res unit (list B * option bytes)) :
  (forall t l k, P t -> page t = Ok (l, k) -> page' t = Ok (f l, k) /\ (k = None \/ P k)) ->
  forall fuel t ps, P t -> follow page fuel t = Some (Ok ps) -> follow page' fuel t = Some (Ok (map f ps)).
Proof.
  intros H. induction fuel as [|n IH]; intros t ps Ht E; [done|]. cbn [follow] in E |- *.
  destruct (page t) as [[l k]| |] eqn:Ep; [|done|done]. destruct (H t l k Ht Ep) as [-> Hk].
  destruct k as [k|]; [|by injection E as <-]. destruct (follow page n (Some k)) as [[ls| |]|] eqn:Ef; [|done|done|done].
  injection E as <-. destruct Hk as [?|Hk]; [done|]. by rewrite (IH _ _ Hk Ef).
Qed.
Lemma limited_token (a : bytes) (rows : kv unit) start stop po l k : start <> [] -> decodes (mkk a) (scan rows start stop po) ->
  list_limited (mkk a) (fun _ => true) rows start stop po = Ok (l, Some k) -> exists v, (k, v) ∈ scan rows start stop po.
Proof.
  intros Hst Hd H. rewrite limited_filtered in H by done.
  destruct (page_split (mkk a) (fun _ => true) rows start stop po Hst Hd) as [[_ E]|(pre & k' & v & suf & E & _ & E')]; [by rewrite E in H|].
  rewrite E' in H. injection H as _ ->. exists v. rewrite E. apply elem_of_app. right. left.
Qed.

(** ** Skipping nothing *)
Definition agree (s : node) : Prop := forall a ck, (a, ck) ∈ t_addr (n_chain s) <-> exists w, t_own (n_chain s) !! ck = Some w /\ w_addr w = a.
Lemma infos_elem s fid l c : c ∈ infos s fid l <-> exists p w, p ∈ l /\ t_own (n_chain s) !! p.2 = Some w /\ w_addr w = p.1 /\ c = Info p.2 fid (w_addr w) (w_expiry w).
Proof.
  unfold infos. rewrite elem_of_list_omap. split.
  - intros (p & Hp & E). unfold info_of in E. destruct (t_own _ !! p.2) as [w|] eqn:W; [|done]. destruct (decide _); [|done]. injection E as <-. by exists p, w.
  - intros (p & w & Hp & W & A & ->). exists p. split; [done|]. unfold info_of. rewrite W. by rewrite decide_True.
Qed.
Lemma infos_length s fid l : agree s -> Forall (fun p => p ∈ t_addr (n_chain s)) l -> length (infos s fid l) = length l.
Proof.
  intros Ha. induction l as [|[a ck] l IH]; intros H; [done|]. apply Forall_cons in H as [H1 H]. apply Ha in H1 as (w & W & A).
  unfold infos in *. cbn [omap list_omap]. unfold info_of at 1. cbn [fst snd]. rewrite W, decide_True by done. cbn. by rewrite IH.
Qed.
Lemma infos_sorted s fid (R : bytes -> bytes -> Prop) (f : bytes * bytes -> bytes) l : StronglySorted (fun p q => R (f p) (f q)) l ->
  StronglySorted (fun c d => R (f (i_addr c, i_key c)) (f (i_addr d, i_key d))) (infos s fid l).
Proof.
  induction 1 as [|p l Hs IH Hf]; [constructor|]. unfold infos in *. cbn [omap list_omap]. unfold info_of at 1.
  destruct (t_own (n_chain s) !! p.2) as [w|] eqn:W; [|exact IH]. destruct (decide (w_addr w = p.1)) as [A|]; [|exact IH]. constructor; [exact IH|].
  apply Forall_forall. intros c Hc. fold (infos s fid l) in Hc. apply infos_elem in Hc as (q & w' & Hq & _ & A' & ->). cbn. rewrite A, A'.
  rewrite Forall_forall in Hf. destruct p, q. cbn. by apply (Hf _ Hq).
Qed.
Lemma infos_concat s fid ls : concat (map (infos s fid) ls) = infos s fid (concat ls).
Proof. induction ls as [|l ls IH]; [done|]. cbn. rewrite IH. unfold infos. by rewrite omap_app. Qed.
