(** C73: what a bootstrapping node accepts is what the snapshot's root stands for, whoever serves the pages. *)
From Coq Require Import ZifyN ZifyNat ZifyBool.
From Verif Require Import BootClient CodecProofs BootClientProofs PropValidate.
From stdpp Require Import gmap sorting.
#[local] Open Scope N_scope.

(** ** Specification *)

(** The bytes a message signs: its [data_bytes], else the encoding of its content. *)
Definition signed (E : env) (m : message) : bytes :=
  match g_data_bytes m, g_data m with
  | Some b, _ => b
  | None, Some d => e_encode E d
  | None, None => []
  end.
Definition authentic (E : env) (m : message) : Prop :=
  signed E m <> [] /\ e_blake3 E (signed E m) = g_hash m /\ e_ed25519 E (g_signer m) (g_hash m) (g_signature m) = true.

Lemma msg_ok_authentic E m : msg_ok E m = true -> authentic E m.
Proof.
  unfold msg_ok, authentic, signed, hash_ok, len. rewrite !andb_true_iff. intros [[H1 _] H2].
  destruct (g_data_bytes m) as [b|]; [|destruct (g_data m) as [d|]; [|done]];
    apply andb_true_iff in H1 as [H1 H3]; apply andb_true_iff in H1 as [_ H1]; apply bool_decide_eq_true in H3;
    (split; [|done]); intros E0; rewrite E0 in H1; done.
Qed.

(** The names registered by the entries. *)
Definition named (xs : list (bytes * payload)) : list bytes :=
  omap (fun x => match x.2 with PName p => Some (f_name p) | _ => None end) xs.
Lemma named_app xs ys : named (xs ++ ys) = named xs ++ named ys.
Proof. unfold named. apply omap_app. Qed.

Section Props.
  Context (sha4 : bytes -> N) (E : env) (keccak : bytes -> bytes) (merges : list message -> message -> bool)
    (root : gset bytes -> N -> bytes).
  Notation take_pages := (take_pages sha4 E keccak merges root).

  (** ** What holds *)

  (** Every message merged was listed, is properly signed, and one of its keys is in the trie; all keys listed are in the trie,
      and nothing else. *)
  Theorem C73_merged_are_listed : forall vts ps st, take_pages vts c_init ps = Some st ->
    (forall m, m ∈ c_msgs st -> authentic E m /\ exists k, (k, PUser m) ∈ entries ps /\ k ∈ user_keys sha4 m /\ k ∈ c_keys st) /\
    (forall k, k ∈ c_keys st <-> k ∈ (entries ps).*1).
  Proof.
    intros vts ps st H.
    refine (take_pages_inv sha4 E keccak merges root vts (fun xs st =>
      (forall m, m ∈ c_msgs st -> authentic E m /\ exists k, (k, PUser m) ∈ xs /\ k ∈ user_keys sha4 m /\ k ∈ c_keys st) /\
      (forall k, k ∈ c_keys st <-> k ∈ xs.*1)) _ _ ps c_init st _ H).
    - clear. intros db xs st chk [k p] st' chk' Hok [Hm Hk] H. apply take_entry_cases in H as (K & _ & H).
      assert (Hk' : forall k0, k0 ∈ c_keys st' <-> k0 ∈ (xs ++ [(k, p)]).*1).
      { intros k0. rewrite K, fmap_app, elem_of_app, elem_of_union, elem_of_singleton, Hk. cbn. rewrite elem_of_list_singleton. tauto. }
      split; [|done]. intros m Hin.
      assert (Hold : m ∈ c_msgs st -> authentic E m /\ exists k0, (k0, PUser m) ∈ xs ++ [(k, p)] /\ k0 ∈ user_keys sha4 m /\ k0 ∈ c_keys st').
      { intros H0. apply Hm in H0 as (H1 & k0 & H2 & H3 & H4). split; [done|]. exists k0. rewrite elem_of_app, K, elem_of_union. auto. }
      destruct H as [(n & pr & -> & Hf & ->)|(dk & _ & _ & [(m' & -> & Hin' & Em & _)|[(e & tx & -> & _ & Em & _)|(pr & -> & _ & Em & _)]])];
        try (rewrite Em in Hin); try (by apply Hold).
      apply elem_of_cons in Hin as [-> |Hin]; [|by apply Hold]. split; [by apply msg_ok_authentic|].
      exists k. rewrite elem_of_app, elem_of_list_singleton, K, elem_of_union, elem_of_singleton. auto.
    - done.
    - cbn. split; [set_solver|]. intros k. set_solver.
  Qed.

  (** If no name is listed twice, every key in the trie has its message, event or name in the stores. *)
  Definition backed (xs : list (bytes * payload)) (st : cst) (k : bytes) : Prop :=
    (exists m, m ∈ c_msgs st /\ k ∈ user_keys sha4 m) \/
    (exists e tx, (k, PChain e tx) ∈ xs /\ k = for_onchain_event sha4 (OnChain.o_fid e) (OnChain.o_type e) tx (OnChain.o_log e)) \/
    (exists p, fs_name (c_names st) !! f_name p = Some p /\ k = for_fname sha4 (f_fid p) (f_name p)).
  Lemma f_merge_new s p : fs_name s !! f_name p = None -> forall e, (f_merge s p).2 = Some e -> e = FMissing.
  Proof. intros H e. unfold f_merge. rewrite H. cbn. destruct (f_fid p =? 0); cbn; congruence. Qed.
  Lemma f_merge_writes s p s' : f_merge s p = (s', None) -> fs_name s' = <[f_name p := p]> (fs_name s).
  Proof. unfold f_merge. destruct (match fs_name s !! f_name p with Some o => f_cmp o p | None => Lt end); try done.
    destruct (_ && _); [done|]. intros [= <-]. done. Qed.
  Definition names_of (xs : list (bytes * payload)) (st : cst) : Prop := forall n, is_Some (fs_name (c_names st) !! n) -> n ∈ named xs.
  (** So a name never meets an older one. *)
  Lemma no_duplicate vts db xs st chk k p st' chk' : take_entry sha4 keccak merges vts db (Some (st, chk)) (k, p) = Some (st', chk') ->
    NoDup (named (xs ++ [(k, p)])) -> names_of xs st ->
    names_of (xs ++ [(k, p)]) st' /\ ~ (exists n pr, p = PName pr /\ f_merge (c_names st) pr = (n, Some FDuplicate)) /\
    (forall pr, p = PName pr -> fs_name (c_names st) !! f_name pr = None).
  Proof.
    intros H Hnd Hn.
    assert (Hnew : forall pr, p = PName pr -> fs_name (c_names st) !! f_name pr = None).
    { intros pr ->. rewrite named_app in Hnd. cbn in Hnd. apply NoDup_app in Hnd as (_ & Hnd & _).
      destruct (fs_name (c_names st) !! f_name pr) as [o|] eqn:Eo; [|done].
      exfalso. apply (Hnd (f_name pr)); [apply Hn; by rewrite Eo|by left]. }
    assert (Hno : ~ (exists n pr, p = PName pr /\ f_merge (c_names st) pr = (n, Some FDuplicate))).
    { intros (n & pr & Hp & Hf). pose proof (f_merge_new (c_names st) pr (Hnew pr Hp) FDuplicate) as G. rewrite Hf in G.
      by specialize (G eq_refl). }
    split; [|done]. intros n Hs. rewrite named_app, elem_of_app.
    apply take_entry_cases in H as (_ & _ & H).
    destruct H as [(n' & pr & Hp & Hf & _)|(dk & _ & _ & [(m' & -> & _ & _ & En)|[(e & tx & -> & _ & _ & En)|(pr & -> & _ & _ & Hf)]])].
    - exfalso. apply Hno. eauto.
    - rewrite En in Hs. left. by apply Hn.
    - rewrite En in Hs. left. by apply Hn.
    - apply f_merge_writes in Hf. rewrite Hf in Hs. destruct (decide (n = f_name pr)) as [->|Hne].
      + right. cbn. by left.
      + rewrite lookup_insert_ne in Hs by done. left. by apply Hn.
  Qed.
  Lemma NoDup_named_prefix xs ys : NoDup (named (xs ++ ys)) -> NoDup (named xs).
  Proof. rewrite named_app. by intros (H & _)%NoDup_app. Qed.

  (** Names listed twice are what is missing: see [C73_withheld_refuted]. *)
  Theorem C73_keys_backed_partial : forall vts ps st, NoDup (named (entries ps)) ->
    take_pages vts c_init ps = Some st -> forall k, k ∈ c_keys st -> backed (entries ps) st k.
  Proof.
    intros vts ps st Hnd H.
    assert (G : NoDup (named (entries ps)) -> names_of (entries ps) st /\ forall k, k ∈ c_keys st -> backed (entries ps) st k).
    2:{ by apply G. }
    clear Hnd. refine (take_pages_inv sha4 E keccak merges root vts (fun xs st =>
      NoDup (named xs) -> names_of xs st /\ forall k, k ∈ c_keys st -> backed xs st k) _ _ ps c_init st _ H).
    - clear. intros db xs st chk [k p] st' chk' Hok IH H Hnd.
      destruct (IH (NoDup_named_prefix _ _ Hnd)) as [Hn Hb]. destruct (no_duplicate _ _ _ _ _ _ _ _ _ H Hnd Hn) as (Hn' & Hno & Hnew).
      split; [done|]. apply take_entry_cases in H as (K & _ & H). intros k0. rewrite K, elem_of_union, elem_of_singleton.
      assert (Hold : forall k0, (forall m, m ∈ c_msgs st -> m ∈ c_msgs st') ->
        (forall q, fs_name (c_names st) !! f_name q = Some q -> fs_name (c_names st') !! f_name q = Some q) ->
        backed xs st k0 -> backed (xs ++ [(k, p)]) st' k0).
      { clear. intros k0 Hm Hq [(m & H1 & H2)|[(e & tx & H1 & H2)|(q & H1 & H2)]].
        - left. exists m. auto.
        - right; left. exists e, tx. set_solver.
        - right; right. exists q. auto. }
      destruct H as [(n' & pr & Hp & Hf & _)|(dk & _ & _ & [(m' & -> & Hin & Em & En)|[(e & tx & -> & Hk & Em & En)|(pr & -> & Hin & Em & Hf)]])].
      + exfalso. apply Hno. eauto.
      + intros [-> |Hk0]; [left; exists m'; rewrite Em; set_solver|].
        apply Hold; [rewrite Em; set_solver|by rewrite En|by apply Hb].
      + intros [-> |Hk0]; [right; left; exists e, tx; set_solver|].
        apply Hold; [rewrite Em; set_solver|by rewrite En|by apply Hb].
      + specialize (Hnew pr eq_refl). apply f_merge_writes in Hf. intros [-> |Hk0].
        * right; right. exists pr. rewrite Hf. split; [by rewrite lookup_insert|].
          unfold name_keys in Hin. destruct (_ && _); [|by apply elem_of_nil in Hin]. by apply elem_of_list_singleton in Hin.
        * apply Hold; [rewrite Em; set_solver| |by apply Hb]. intros q Hq. rewrite Hf, lookup_insert_ne; [done|].
          intros Ef. rewrite Ef in Hnew. congruence.
    - done.
    - cbn. intros _. split; [intros n [? ?]; set_solver|set_solver].
  Qed.

  (** A key that is not of the kind of names names the signed bytes: messages with the same key sign the same bytes, or
      exhibit a BLAKE3 collision. *)
  Theorem C73_key_binds_bytes : forall m m' k, authentic E m -> authentic E m' ->
    k ∈ user_keys sha4 m -> k ∈ user_keys sha4 m' -> nth 5 k 0 <> 7 ->
    signed E m = signed E m' \/ (signed E m <> signed E m' /\ e_blake3 E (signed E m) = e_blake3 E (signed E m')).
  Proof.
    intros m m' k (_ & Hm & _) (_ & Hm' & _) Hk Hk' H7. unfold user_keys in *. apply elem_of_app in Hk, Hk'.
    destruct Hk as [Hk|Hk]; [|by apply claim_keys_spec in Hk]. destruct Hk' as [Hk'|Hk']; [|by apply claim_keys_spec in Hk'].
    apply hash_keys_spec in Hk as [Hk _]. apply hash_keys_spec in Hk' as [Hk' _]. assert (e_blake3 E (signed E m) = e_blake3 E (signed E m')) by congruence.
    destruct (decide (signed E m = signed E m')) as [Es|Es]; [by left|by right].
  Qed.

  (** So, for a snapshot whose messages are [ms], a node that reaches its keys, was served no name twice and no message claiming
      a registered name, merged exactly the signed bytes of [ms], or exhibits a collision. *)
  Definition collision (ms ms' : list message) : Prop := exists m m', m ∈ ms /\ m' ∈ ms' /\
    signed E m <> signed E m' /\ e_blake3 E (signed E m) = e_blake3 E (signed E m').
  Theorem C73_same_signed_bytes_partial : forall vts ps st ms, NoDup (named (entries ps)) ->
    take_pages vts c_init ps = Some st ->
    (forall m, m ∈ ms -> authentic E m) ->
    (forall k, k ∈ c_keys st -> 8 <= nth 5 k 0 -> exists m, m ∈ ms /\ k ∈ user_keys sha4 m) ->
    (forall m, m ∈ ms -> exists k, k ∈ c_keys st /\ 8 <= nth 5 k 0 /\ k ∈ user_keys sha4 m) ->
    (forall k m, (k, PUser m) ∈ entries ps -> 8 <= nth 5 k 0) ->
    (forall b, b ∈ signed E <$> c_msgs st <-> b ∈ signed E <$> ms) \/ collision (c_msgs st) ms.
  Proof.
    intros vts ps st ms Hnd H Ha Hk Hc Hu. destruct (C73_merged_are_listed vts ps st H) as [Hm _].
    pose proof (C73_keys_backed_partial vts ps st Hnd H) as Hb.
    destruct (decide (Forall (fun m => Forall (fun m' => ~ (signed E m <> signed E m' /\ e_blake3 E (signed E m) = e_blake3 E (signed E m'))) ms) (c_msgs st))) as [Hno|Hyes].
    2:{ right. apply not_Forall_Exists in Hyes; [|apply _]. apply Exists_exists in Hyes as (m & H1 & H2).
        apply not_Forall_Exists in H2; [|apply _]. apply Exists_exists in H2 as (m' & H2 & H3). exists m, m'.
        split; [done|]. split; [done|]. apply dec_stable in H3. done. }
    left. rewrite Forall_forall in Hno. setoid_rewrite Forall_forall in Hno.
    assert (S : forall m m' k, m ∈ c_msgs st -> m' ∈ ms -> k ∈ user_keys sha4 m -> k ∈ user_keys sha4 m' -> 8 <= nth 5 k 0 -> signed E m = signed E m').
    { intros m m' k H1 H2 H3 H4 H5. destruct (C73_key_binds_bytes m m' k) as [?|Hcol]; try done.
      - by apply Hm. - by apply Ha. - lia. - by destruct (Hno m H1 m' H2). }
    intros b. rewrite !elem_of_list_fmap. split.
    - intros (m & -> & Hin). destruct (Hm m Hin) as (_ & k & H1 & H2 & H3). pose proof (Hu k m H1) as H8.
      destruct (Hk k H3 H8) as (m' & H4 & H5). exists m'. split; [|done]. by apply (S m m' k).
    - intros (m' & -> & Hin). destruct (Hc m' Hin) as (k & H1 & H2 & H3). destruct (Hb k H1) as [(m & H4 & H5)|[(e & tx & H4 & H5)|(p & _ & H5)]].
      + exists m. split; [|done]. symmetry. by apply (S m m' k).
      + exfalso. assert (OnChain.o_type e < 8) by (unfold OnChain.o_type; destruct (OnChain.o_body e); lia).
        pose proof (chain_keys_spec sha4 e tx) as C. unfold chain_key in C. rewrite H5, C, N.mod_small in H2 by lia. lia.
      + exfalso. rewrite H5 in H2. change (8 <= 7) in H2. lia.
  Qed.

  (** ** What does not: the content that is merged is not the content that is signed *)

  (** Content [g m] rides on the signature of [m]. *)
  Definition forge (g : message -> data) (m : message) : message :=
    match g_data m with
    | None => m
    | Some _ => Message (Some (g m)) (g_hash m) (g_hash_scheme m) (g_signature m) (g_signature_scheme m) (g_signer m) (Some (signed E m))
    end.
  Definition claimed (d : data) : option (Z * N * bytes) :=
    match d_body d with Some (VUsernameProof p) => Some (np_type p, np_fid p, np_name p) | _ => None end.
  Definition lent_to (d : data) : option N := match d_body d with Some (VLend to _ _) => Some to | _ => None end.
  (** All that must be kept: account, type, borrower and claimed name. *)
  Definition alike (d d' : data) : Prop :=
    d_fid d = d_fid d' /\ d_type d = d_type d' /\ lent_to d = lent_to d' /\ claimed d = claimed d'.
  Definition forge_entry (g : message -> data) (x : bytes * payload) : bytes * payload :=
    (x.1, match x.2 with PUser m => PUser (forge g m) | p => p end).
  Definition forge_state (g : message -> data) (st : cst) : cst :=
    CSt (forge g <$> c_msgs st) (c_names st) (c_chain st) (c_keys st) (c_roots st) (c_last st).
  Lemma forge_ok g m : msg_ok E (forge g m) = msg_ok E m.
  Proof. unfold forge, msg_ok, signed, hash_ok. destruct (g_data m) as [d|] eqn:Ed; cbn; [|by rewrite Ed].
    by destruct (g_data_bytes m). Qed.
  Lemma forge_keys g m : (forall m d, g_data m = Some d -> alike d (g m)) -> user_keys sha4 (forge g m) = user_keys sha4 m.
  Proof.
    intros Hg. unfold forge. destruct (g_data m) as [d|] eqn:Ed; [|done]. destruct (Hg m d Ed) as (H1 & H2 & H3 & H4).
    unfold user_keys, hash_keys, claim_keys. cbn [g_data g_hash]. rewrite Ed, H1, H2. apply (f_equal2 app).
    - change (lend_to d) with (lent_to d). rewrite H3. done.
    - clear Hg. unfold claimed in H4. destruct (d_body d) as [[]|]; destruct (d_body (g m)) as [[]|]; try done.
      injection H4 as -> -> ->. done.
  Qed.

  (** For every accepted bootstrap and every other content for its messages -- other times, slots, targets, texts -- the
      forged pages are accepted as well, with the same trie, the same roots and the forged content merged. Only the stores'
      own verdict can object. *)
  Theorem C73_content_forged : forall vts ps (g : message -> data),
    (forall m d, g_data m = Some d -> alike d (g m)) ->
    (forall l m, merges (forge g <$> l) (forge g m) = merges l m) ->
    take_pages vts c_init (tampered (forge_entry g) ps) = forge_state g <$> take_pages vts c_init ps.
  Proof.
    intros vts ps g Hg Hm. change c_init with (forge_state g c_init) at 1.
    apply (sim_pages sha4 E keccak merges root (forge_state g) (forge_entry g) vts); try done.
    - intros db [[st chk]|] [k p]; [|done]. cbn [fmap option_fmap option_map].
      change (on_fst (forge_state g) (st, chk)) with (forge_state g st, chk).
      assert (Ex : forge_entry g (k, p) = (k, (forge_entry g (k, p)).2)) by done. rewrite Ex. clear Ex.
      unfold take_entry. destruct (trie_decode k) as [dk|]; [|done].
      destruct p as [m|e tx|pr|]; cbn [replay forge_entry fst snd].
      + assert (Hd : is_Some (g_data (forge g m)) <-> is_Some (g_data m)).
        { unfold forge. destruct (g_data m) as [d|] eqn:Ed; cbn; [|rewrite Ed]; split; intros; eauto. }
        destruct (g_data (forge g m)) as [d'|] eqn:Ed'; destruct (g_data m) as [d|] eqn:Ed;
          [| |exfalso; destruct Hd as [_ Hd]; by destruct (Hd ltac:(eauto))|done].
        2:{ exfalso. destruct Hd as [Hd _]. by destruct (Hd ltac:(eauto)). }
        cbn [forge_state add_key c_msgs on_fst fst snd]. rewrite Hm. destruct (merges (c_msgs st) m); [|done]. rewrite (forge_keys g m Hg).
        destruct (bool_decide _); [|done]. cbn. destruct (_ =? _); [|done]. cbn. destruct (c_last st) as [l|]; [|done]. by destruct (_ <? _).
      + cbn [forge_state add_key on_fst fst snd].
        destruct (bool_decide _); [|done]. cbn. destruct (_ =? _); [|done]. cbn. destruct (c_last st) as [l|]; [|done]. by destruct (_ <? _).
      + cbn [forge_state add_key c_names on_fst fst snd]. destruct (f_merge (c_names st) pr) as [n [[]|]]; try done.
        destruct (bool_decide _); [|done]. cbn. destruct (_ =? _); [|done]. cbn. destruct (c_last st) as [l|]; [|done]. by destruct (_ <? _).
      + done.
    - intros [k []]; try done. unfold entry_ok. cbn. apply forge_ok.
  Qed.

  (** On-chain events are not signed, and their key holds only the account, the type and the place on the chain: every other
      content is accepted with the same trie. *)
  Definition swap_entry (h : oev -> oev) (x : bytes * payload) : bytes * payload :=
    (x.1, match x.2 with PChain e tx => PChain (h e) tx | p => p end).
  Definition same_place (e e' : oev) : Prop :=
    OnChain.o_fid e = OnChain.o_fid e' /\ OnChain.o_type e = OnChain.o_type e' /\ OnChain.o_log e = OnChain.o_log e'.
  (** Everything but the on-chain state. *)
  Definition off_chain (st : cst) := (c_msgs st, c_names st, c_keys st, c_roots st, c_last st).
  Definition sim2 (a b : option (cst * list N)) : Prop :=
    match a, b with Some (s, c), Some (s', c') => off_chain s = off_chain s' /\ c = c' | None, None => True | _, _ => False end.
  Lemma sim2_entry h vts db db' a b x : (forall e, same_place e (h e)) -> sim2 a b ->
    sim2 (take_entry sha4 keccak merges vts db a x) (take_entry sha4 keccak merges vts db' b (swap_entry h x)).
  Proof.
    intros Hh Hs. destruct a as [[s c]|], b as [[s' c']|]; try done. destruct Hs as [Hs <-].
    destruct s as [m1 n1 o1 k1 r1 l1], s' as [m2 n2 o2 k2 r2 l2]. unfold off_chain in Hs. cbn in Hs. injection Hs as <- <- <- <- <-.
    destruct x as [k p]. unfold take_entry, swap_entry. cbn [fst snd]. destruct (trie_decode k) as [dk|]; [|done].
    destruct p as [m|e tx|pr|]; cbn [replay add_key c_msgs c_names c_chain c_keys c_roots c_last].
    - destruct (g_data m); [|done]. destruct (merges m1 m); [|done].
      destruct (bool_decide _); [|done]. cbn. destruct (_ =? _); [|done]. cbn. destruct l1 as [l|]; [|done]. by destruct (_ <? _).
    - assert (Ek : chain_key sha4 (h e) tx = chain_key sha4 e tx).
      { destruct (Hh e) as (H1 & H2 & H3). unfold chain_key. by rewrite <- H1, <- H2, <- H3. }
      rewrite Ek. destruct (bool_decide _); [|done]. cbn. destruct (_ =? _); [|done]. cbn. destruct l1 as [l|]; [|done]. by destruct (_ <? _).
    - destruct (f_merge n1 pr) as [n [[]|]]; try done.
      destruct (bool_decide _); [|done]. cbn. destruct (_ =? _); [|done]. cbn. destruct l1 as [l|]; [|done]. by destruct (_ <? _).
    - done.
  Qed.
  Lemma sim2_check vts s s' f : off_chain s = off_chain s' -> check_root sha4 root vts s f = check_root sha4 root vts s' f.
  Proof. destruct s, s'. unfold off_chain. cbn. intros [= -> -> -> -> ->]. done. Qed.
  Theorem C73_chain_forged : forall vts ps h st, (forall e, same_place e (h e)) -> take_pages vts c_init ps = Some st ->
    exists st', take_pages vts c_init (tampered (swap_entry h) ps) = Some st' /\ off_chain st' = off_chain st.
  Proof.
    intros vts ps h st Hh.
    assert (He : forall xs db db' a b, sim2 a b -> sim2 (foldl (take_entry sha4 keccak merges vts db) a xs)
      (foldl (take_entry sha4 keccak merges vts db') b (swap_entry h <$> xs))).
    { induction xs as [|x xs IH]; intros db db' a b Hs; [done|]. cbn. apply IH. by apply sim2_entry. }
    assert (Hp : forall s s' p s1, off_chain s = off_chain s' -> take_page sha4 E keccak merges root vts (Some s) p = Some s1 ->
      exists s2, take_page sha4 E keccak merges root vts (Some s') (Page (swap_entry h <$> pg_entries p) (pg_roots p)) = Some s2 /\ off_chain s1 = off_chain s2).
    { intros s s' p s1 Hs. unfold take_page. cbn [pg_entries pg_roots].
      assert (Ho : forallb (entry_ok E) (swap_entry h <$> pg_entries p) = forallb (entry_ok E) (pg_entries p)).
      { clear. induction (pg_entries p) as [|[k []] xs IH]; [done|..]; cbn; by rewrite IH. }
      rewrite Ho. destruct (forallb (entry_ok E) (pg_entries p)); [|done].
      assert (Er : c_roots s = c_roots s') by (unfold off_chain in Hs; congruence). rewrite <- Er.
      set (r := foldl _ (c_roots s) (pg_roots p)). clearbody r.
      change (CSt (c_msgs s) (c_names s) (c_chain s) (c_keys s) r (c_last s)) with (with_roots s r).
      change (CSt (c_msgs s') (c_names s') (c_chain s') (c_keys s') r (c_last s')) with (with_roots s' r).
      specialize (He (pg_entries p) (with_roots s r) (with_roots s' r) (Some (with_roots s r, [])) (Some (with_roots s' r, []))).
      assert (Hr : off_chain (with_roots s r) = off_chain (with_roots s' r)).
      { unfold off_chain in *. cbn. congruence. }
      specialize (He (conj Hr eq_refl)).
      destruct (foldl (take_entry sha4 keccak merges vts (with_roots s r)) _ _) as [[s3 c3]|]; [|done].
      destruct (foldl (take_entry sha4 keccak merges vts (with_roots s' r)) _ _) as [[s4 c4]|]; [|done].
      destruct He as [H34 <-].
      assert (Hc : forallb (check_root sha4 root vts s4) c3 = forallb (check_root sha4 root vts s3) c3).
      { clear -H34. induction c3 as [|f c IH]; [done|]. cbn. by rewrite IH, (sim2_check vts s3 s4). }
      rewrite Hc. destruct (forallb (check_root sha4 root vts s3) c3); [|done]. intros [= <-]. eauto. }
    assert (Hps : forall ps s s' s1, off_chain s = off_chain s' -> foldl (take_page sha4 E keccak merges root vts) (Some s) ps = Some s1 ->
      exists s2, foldl (take_page sha4 E keccak merges root vts) (Some s') (tampered (swap_entry h) ps) = Some s2 /\ off_chain s1 = off_chain s2).
    { clear ps. induction ps as [|p ps IH]; intros s s' s1 Hs.
      - cbn. intros [= <-]. eauto.
      - cbn [foldl tampered fmap list_fmap]. destruct (take_page _ _ _ _ _ _ (Some s) p) as [s2|] eqn:E2; [|by rewrite pages_none].
        intros H1. destruct (Hp _ _ _ _ Hs E2) as (s3 & E3 & H23). rewrite E3. by apply (IH s2 s3 s1). }
    unfold take_pages. destruct (foldl _ (Some c_init) ps) as [s1|] eqn:E1; [|done].
    destruct (Hps ps c_init c_init s1 eq_refl E1) as (s2 & E2 & H12). rewrite E2.
    assert (El : c_last s1 = c_last s2) by (unfold off_chain in H12; congruence). rewrite <- El.
    destruct (c_last s1) as [f|]; [|intros [= <-]; eauto].
    rewrite <- (sim2_check vts s1 s2 f H12). destruct (check_root sha4 root vts s1 f); [|done]. intros [= <-]. eauto.
  Qed.

  (** Once a name is registered, it backs any key: the name is a duplicate, which is passed over, and the key stays noted. *)
  Theorem C73_any_key_accepted : forall vts db st chk k dk p, trie_decode k = Some dk ->
    fs_name (c_names st) !! f_name p = Some p ->
    take_entry sha4 keccak merges vts db (Some (st, chk)) (k, PName p) = Some (add_key st k, chk).
  Proof.
    intros vts db st chk k dk p Hd Hp. unfold take_entry. rewrite Hd. cbn [replay add_key c_names]. unfold f_merge. rewrite Hp.
    assert (Hc : f_cmp p p = Eq) by (unfold f_cmp; rewrite N.compare_refl; apply lex_refl). by rewrite Hc.
  Qed.

  (** ** Account roots *)

  Definition fid_of (k : bytes) : N := match trie_decode k with Some dk => dk_fid dk | None => 0 end.
  (** The root of an account depends on its keys only. *)
  Definition local_root : Prop := forall K K' f, (forall k, fid_of k = f -> k ∈ K <-> k ∈ K') -> root K f = root K' f.
  Definition supplied (ps : list page) (f : N) (r : bytes) : Prop := exists p, p ∈ ps /\ (f, r) ∈ pg_roots p.
  Definition checked (ps : list page) (st : cst) (f : N) : Prop := exists r, supplied ps f r /\ r = root (c_keys st) f.

  (** Pages sorted by account, with no name twice: each account has the root that was supplied for it.  (Missing: other orders
      and repeated names, see [C73_unsorted_refuted]; and the supplied root is the peer's own word.) *)
  Definition asc (xs : list (bytes * payload)) : Prop := StronglySorted N.le (fid_of <$> xs.*1).
  Record J (all : list page) (xs : list (bytes * payload)) (st : cst) (chk : list N) : Prop := {
    J_names : names_of xs st;
    J_keys : forall k, k ∈ c_keys st <-> k ∈ xs.*1;
    J_roots : forall f r, c_roots st !! f = Some r -> supplied all f r;
    J_max : forall k, k ∈ c_keys st -> exists l, c_last st = Some l /\ fid_of k <= l;
    J_last : forall l, c_last st = Some l -> exists k, k ∈ c_keys st /\ fid_of k = l;
    J_done : forall k, k ∈ c_keys st -> c_last st = Some (fid_of k) \/ fid_of k ∈ chk \/ checked all st (fid_of k) }.
  Lemma J_step all vts db xs st chk x st' chk' : local_root -> NoDup (named (xs ++ [x])) -> asc (xs ++ [x]) ->
    J all xs st chk -> take_entry sha4 keccak merges vts db (Some (st, chk)) x = Some (st', chk') -> J all (xs ++ [x]) st' chk'.
  Proof.
    intros HL Hnd Hasc [Jn Jk Jr Jm Jl Jd] H. destruct x as [k p].
    destruct (no_duplicate _ _ _ _ _ _ _ _ _ H Hnd Jn) as (Hn' & Hno & _).
    assert (exists dk, trie_decode k = Some dk) as [dk Hdk].
    { unfold take_entry in H. destruct (trie_decode k); [eauto|done]. }
    pose proof (take_entry_last _ _ _ _ _ _ _ _ _ _ _ _ H Hdk) as HT. destruct HT as [HT|HT]; [by destruct Hno|].
    assert (Hf : fid_of k = dk_fid dk) by (unfold fid_of; by rewrite Hdk).
    apply take_entry_cases in H as (K & R & _).
    assert (Hge : forall k0, k0 ∈ c_keys st -> fid_of k0 <= fid_of k).
    { intros k0 Hk0. apply Jk in Hk0. unfold asc in Hasc. rewrite !fmap_app in Hasc. cbn in Hasc. clear -Hasc Hk0.
      induction (xs.*1) as [|a l IH]; [by apply elem_of_nil in Hk0|]. cbn in Hasc. apply StronglySorted_inv in Hasc as [H1 H2].
      apply elem_of_cons in Hk0 as [-> |Hk0]; [|by apply IH]. rewrite Forall_forall in H2. apply H2. set_solver. }
    assert (Hin : forall k0, k0 ∈ c_keys st' <-> k0 = k \/ k0 ∈ c_keys st).
    { intros k0. by rewrite K, elem_of_union, elem_of_singleton. }
    assert (Hch : forall f, f <> fid_of k -> checked all st f -> checked all st' f).
    { intros f Hne (r & H1 & H2). exists r. split; [done|]. rewrite H2. apply HL. intros k0 E0. rewrite Hin. split; [by right|].
      intros [-> |?]; [congruence|done]. }
    constructor.
    - done.
    - intros k0. rewrite Hin, fmap_app, elem_of_app, Jk. cbn. rewrite elem_of_list_singleton. tauto.
    - intros f r. rewrite R. apply Jr.
    - intros k0 Hk0. apply Hin in Hk0. destruct HT as [(L1 & L2 & _)|(l & L1 & [(L2 & L3 & _)|(L2 & L3 & _)])].
      + exists (dk_fid dk). split; [done|]. destruct Hk0 as [-> |Hk0]; [lia|]. specialize (Hge k0 Hk0). lia.
      + exists (dk_fid dk). split; [done|]. destruct Hk0 as [-> |Hk0]; [lia|]. specialize (Hge k0 Hk0). lia.
      + exists l. split; [done|]. destruct Hk0 as [-> |Hk0]; [lia|]. destruct (Jm k0 Hk0) as (l' & E1 & E2). rewrite L1 in E1. by injection E1 as <-.
    - intros l0 El. destruct HT as [(L1 & L2 & _)|(l & L1 & [(L2 & L3 & _)|(L2 & L3 & _)])].
      + exists k. split; [by apply Hin; left|congruence].
      + exists k. split; [by apply Hin; left|congruence].
      + destruct (Jl l0) as (k0 & H1 & H2); [congruence|]. exists k0. split; [by apply Hin; right|done].
    - intros k0 Hk0. apply Hin in Hk0. destruct HT as [(L1 & L2 & ->)|(l & L1 & [(L2 & L3 & ->)|(L2 & L3 & ->)])].
      + destruct Hk0 as [-> |Hk0]; [left; congruence|]. destruct (Jm k0 Hk0) as (? & ? & _). congruence.
      + destruct Hk0 as [-> |Hk0]; [left; congruence|]. destruct (Jm k0 Hk0) as (l' & E1 & E2). rewrite L1 in E1. injection E1 as <-.
        destruct (Jd k0 Hk0) as [H|[H|H]].
        * right; left. rewrite L1 in H. injection H as ->. apply elem_of_app. right. by left.
        * right; left. apply elem_of_app. by left.
        * right; right. apply Hch; [lia|done].
      + assert (Hl : l = dk_fid dk).
        { destruct (Jl l L1) as (k1 & H1 & H2). specialize (Hge k1 H1). lia. }
        destruct Hk0 as [-> |Hk0]; [left; congruence|]. destruct (decide (fid_of k0 = fid_of k)) as [Ek|Ek]; [left; congruence|].
        destruct (Jd k0 Hk0) as [H|[H|H]]; [left; congruence|by right; left|right; right; by apply Hch].
  Qed.
  Lemma asc_prefix xs ys : asc (xs ++ ys) -> asc xs.
  Proof. unfold asc. rewrite !fmap_app. apply StronglySorted_app_inv_l. Qed.
  Lemma J_entries all vts db xs : local_root -> forall ys st chk st' chk', NoDup (named (ys ++ xs)) -> asc (ys ++ xs) ->
    J all ys st chk -> foldl (take_entry sha4 keccak merges vts db) (Some (st, chk)) xs = Some (st', chk') -> J all (ys ++ xs) st' chk'.
  Proof.
    intros HL. induction xs as [|x xs IH]; intros ys st chk st' chk' Hnd Ha HJ.
    - cbn. intros [= <- <-]. by rewrite app_nil_r.
    - cbn [foldl]. destruct (take_entry _ _ _ _ _ (Some (st, chk)) x) as [[st1 chk1]|] eqn:E1; [|by rewrite entries_none].
      intros H. replace (ys ++ x :: xs) with ((ys ++ [x]) ++ xs) in * by (by rewrite <- app_assoc).
      apply (IH _ st1 chk1); try done. apply (J_step all vts db ys st chk x); try done.
      + by apply NoDup_named_prefix in Hnd. + by apply asc_prefix in Ha.
  Qed.
  Lemma J_pages vts ps : local_root -> forall all ys st st', (forall p, p ∈ ps -> p ∈ all) -> NoDup (named (ys ++ entries ps)) -> asc (ys ++ entries ps) ->
    J all ys st [] -> foldl (take_page sha4 E keccak merges root vts) (Some st) ps = Some st' -> J all (ys ++ entries ps) st' [].
  Proof.
    intros HL. induction ps as [|p ps IH]; intros all ys st st' Hall Hnd Ha HJ.
    - cbn. intros [= <-]. by rewrite app_nil_r.
    - cbn [foldl]. destruct (take_page _ _ _ _ _ vts (Some st) p) as [st1|] eqn:E1; [|by rewrite pages_none].
      assert (Ee : ys ++ entries (p :: ps) = (ys ++ pg_entries p) ++ entries ps) by (unfold entries; cbn; by rewrite app_assoc).
      rewrite Ee in *. intros H. apply (IH all (ys ++ pg_entries p) st1); try done.
      { intros q Hq. apply Hall. by right. }
      unfold take_page in E1. destruct (forallb (entry_ok E) (pg_entries p)); [|done].
      set (r := foldl _ (c_roots st) (pg_roots p)) in E1.
      change (CSt (c_msgs st) (c_names st) (c_chain st) (c_keys st) r (c_last st)) with (with_roots st r) in E1.
      destruct (foldl (take_entry sha4 keccak merges vts (with_roots st r)) _ _) as [[st2 chk]|] eqn:E2; [|done].
      destruct (forallb (check_root sha4 root vts st2) chk) eqn:Ec; [|done]. injection E1 as <-.
      assert (HJ1 : J all ys (with_roots st r) []).
      { destruct HJ as [Jn Jk Jr Jm Jl Jd]. constructor; try done. cbn [with_roots c_roots].
        assert (Hp : p ∈ all) by (apply Hall; by left). unfold r. clear -Jr Hp.
        assert (G : forall l (acc : gmap N bytes), (forall x, x ∈ l -> x ∈ pg_roots p) -> (forall f r, acc !! f = Some r -> supplied all f r) ->
          forall f r, foldl (fun r (x : N * bytes) => <[x.1:=x.2]> r) acc l !! f = Some r -> supplied all f r).
        { induction l as [|[f0 r0] l IH]; intros acc Hl Ha f r; [apply Ha|]. cbn [foldl fst snd]. apply IH; [intros x Hx; apply Hl; by right|].
          intros f1 r1. rewrite lookup_insert_Some. intros [[<- <-]|[_ H]]; [|by apply Ha]. exists p. split; [done|]. apply Hl. by left. }
        by apply G. }
      apply (J_entries all vts _ (pg_entries p) HL ys _ _ _ _) in E2; [|by apply NoDup_named_prefix in Hnd|by apply asc_prefix in Ha|done].
      destruct E2 as [Jn Jk Jr Jm Jl Jd]. constructor; try done. intros k Hk. destruct (Jd k Hk) as [H0|[H0|H0]]; [by left| |by right; right].
      right; right. rewrite forallb_forall in Ec. apply elem_of_list_In in H0. apply Ec in H0. unfold check_root in H0.
      apply andb_true_iff in H0 as [_ H0]. apply bool_decide_eq_true in H0. exists (root (c_keys st2) (fid_of k)). split; [|done]. by apply Jr.
  Qed.
  Theorem C73_accounts_checked_partial : forall vts ps st, local_root -> NoDup (named (entries ps)) -> asc (entries ps) ->
    take_pages vts c_init ps = Some st -> forall k, k ∈ c_keys st -> exists r, supplied ps (fid_of k) r /\ r = root (c_keys st) (fid_of k).
  Proof.
    intros vts ps st HL Hnd Ha. unfold take_pages. destruct (foldl _ (Some c_init) ps) as [s1|] eqn:E1; [|done].
    apply (J_pages vts ps HL ps []) in E1; [|done|done|done|].
    2:{ constructor; try done; cbn; try (intros k; set_solver). intros n [? ?]. set_solver. }
    destruct E1 as [Jn Jk Jr Jm Jl Jd]. destruct (c_last s1) as [f|] eqn:El.
    - destruct (check_root sha4 root vts s1 f) eqn:Ec; [|done]. intros [= <-] k Hk.
      destruct (Jd k Hk) as [H|[H|H]]; [|by apply elem_of_nil in H|done].
      injection H as ->. unfold check_root in Ec. apply andb_true_iff in Ec as [_ Ec]. apply bool_decide_eq_true in Ec.
      exists (root (c_keys s1) (fid_of k)). split; [|done]. by apply Jr.
    - intros [= <-] k Hk. destruct (Jd k Hk) as [H|[H|H]]; [congruence|by apply elem_of_nil in H|done].
  Qed.
End Props.

(** ** Examples *)

Definition t_sha : bytes -> N := fun _ => 0.
Definition t_mine (f : N) (k : bytes) : bool := fid_of k =? f.
Definition t_root (K : gset bytes) (f : N) : bytes := concat (elements (filter (fun k => t_mine f k = true) K)).
Definition t_keccak : bytes -> bytes := fun b => b.
Definition t_run (ps : list page) : option cst := take_pages t_sha toy t_keccak (fun _ _ => true) t_root 0 c_init ps.
Definition owner_key : bytes := repeat 9 32.
Definition t_msg (d : data) : message :=
  let b := toy_encode d in let h := e_blake3 toy b in Message (Some d) h 1 (owner_key ++ h) 1 owner_key (Some b).
Definition t_cast (f ts : N) : data := Data 1 f ts 1 (Some (VCastAdd (CastAdd [] [] None [104; 105] [] [] 0))).
Definition m5 := t_msg (t_cast 5 1000). Definition m6 := t_msg (t_cast 6 2000).
Definition k5 := hd [] (user_keys t_sha m5). Definition k6 := hd [] (user_keys t_sha m6).
Definition t_signer (key : bytes) : oev := OnChain.OEv 5 10 0 3 777 (OnChain.BSigner OnChain.SAdd key 1).
Definition t_tx : bytes := repeat 8 32.
Definition kc := chain_key t_sha (t_signer owner_key) t_tx.
Definition n5 := FProof [97; 108] 5 50 [1; 2] true.
Definition kn := for_fname t_sha 5 [97; 108].
Definition served : list page :=
  let K : gset bytes := {[ kc; kn; k5; k6 ]} in
  [Page [(kc, PChain (t_signer owner_key) t_tx); (kn, PName n5)] [(5, t_root K 5)]; Page [(k5, PUser m5); (k6, PUser m6)] [(6, t_root K 6)]].

(** An honest bootstrap meets all conditions of the theorems above. *)
Definition st_has (st : cst) (ms : list message) (ks : list bytes) : bool :=
  bool_decide (g_hash <$> c_msgs st = g_hash <$> ms) && bool_decide (c_keys st = list_to_set ks).
Lemma t_root_local : local_root t_root.
Proof.
  intros K K' f H. unfold t_root. f_equal. f_equal.
  apply set_eq. intros k. rewrite !elem_of_filter. unfold t_mine. split; intros [H1 H2]; (split; [done|]); apply (H k); try done; by apply N.eqb_eq.
Qed.

Example C73_ex : exists st, t_run served = Some st /\ st_has st [m6; m5] [kc; kn; k5; k6] = true /\
  NoDup (named (entries served)) /\ asc (entries served) /\ local_root t_root /\ msg_ok toy m5 = true /\
  (forall k m, (k, PUser m) ∈ entries served -> 8 <= nth 5 k 0) /\ fs_name (c_names st) !! [97; 108] = Some n5.
Proof.
  assert (H : match t_run served with Some st => st_has st [m6; m5] [kc; kn; k5; k6] && bool_decide (fs_name (c_names st) !! [97; 108] = Some n5) | None => false end = true)
    by (vm_compute; reflexivity).
  destruct (t_run served) as [st|]; [|discriminate]. exists st. apply andb_true_iff in H as [H1 H2]. apply bool_decide_eq_true in H2.
  split; [done|]. split; [exact H1|].
  split. { apply (bool_decide_unpack _). vm_compute. exact I. }
  split. { change (StronglySorted N.le [5; 5; 5; 6]). repeat constructor; lia. }
  split; [exact t_root_local|].
  split. { vm_compute. reflexivity. }
  split; [|exact H2].
  intros k m Hin. assert (Hb : forallb (fun x => match x.2 with PUser _ => 8 <=? nth 5 x.1 0 | _ => true end) (entries served) = true)
    by (vm_compute; reflexivity).
  rewrite forallb_forall in Hb. apply elem_of_list_In, Hb in Hin. cbn [fst snd] in Hin. by apply N.leb_le.
Qed.
Example C73_bytes_ex : exists st, t_run served = Some st /\
  (forall m, m ∈ [m5; m6] -> authentic toy m) /\
  (forall k, k ∈ c_keys st -> 8 <= nth 5 k 0 -> exists m, m ∈ [m5; m6] /\ k ∈ user_keys t_sha m) /\
  (forall m, m ∈ [m5; m6] -> exists k, k ∈ c_keys st /\ 8 <= nth 5 k 0 /\ k ∈ user_keys t_sha m).
Proof.
  destruct C73_ex as (st & H1 & H2 & _). exists st. split; [exact H1|]. apply andb_true_iff in H2 as [_ H2]. apply bool_decide_eq_true in H2.
  rewrite H2. clear H1 H2.
  split. { intros m Hm. apply msg_ok_authentic. apply elem_of_cons in Hm as [-> |Hm]; [vm_compute; reflexivity|].
    apply elem_of_list_singleton in Hm as ->. vm_compute. reflexivity. }
  split.
  - intros k Hk H8. rewrite elem_of_list_to_set in Hk.
    assert (Hb : forallb (fun k => (nth 5 k 0 <? 8) || existsb (fun m => bool_decide (k ∈ user_keys t_sha m)) [m5; m6]) [kc; kn; k5; k6] = true)
      by (vm_compute; reflexivity).
    rewrite forallb_forall in Hb. apply elem_of_list_In, Hb in Hk. apply orb_true_iff in Hk as [Hk|Hk]; [apply N.ltb_lt in Hk; lia|].
    apply existsb_exists in Hk as (m & Hm & Hk). exists m. split; [by apply elem_of_list_In|by apply bool_decide_eq_true in Hk].
  - intros m Hm.
    assert (Hb : forallb (fun m => existsb (fun k => (8 <=? nth 5 k 0) && bool_decide (k ∈ user_keys t_sha m)) [kc; kn; k5; k6]) [m5; m6] = true)
      by (vm_compute; reflexivity).
    rewrite forallb_forall in Hb. apply elem_of_list_In, Hb in Hm. apply existsb_exists in Hm as (k & Hm & Hk). exists k.
    apply andb_true_iff in Hk as [Hk1 Hk2]. apply bool_decide_eq_true in Hk2. rewrite elem_of_list_to_set.
    split; [by apply elem_of_list_In|]. split; [by apply N.leb_le|done].
Qed.

(** ** Refutations *)

(** A peer changes the key of a signer event: the victim's own key is unknown to the new node, the attacker's is active, and
    trie and messages are as before. *)
Definition thief_key : bytes := repeat 66 32.
Definition steal (e : oev) : oev :=
  match OnChain.o_body e with
  | OnChain.BSigner k _ t => OnChain.OEv (OnChain.o_fid e) (OnChain.o_block e) (OnChain.o_tx e) (OnChain.o_log e) (OnChain.o_ts e) (OnChain.BSigner k thief_key t)
  | _ => e
  end.
Definition signs_for (st : cst) (f : N) (key : bytes) : bool :=
  match OnChain.active_signer (c_chain st) f key with Some _ => true | None => false end.
Theorem C73_forged_signer_refuted : exists st st', t_run served = Some st /\ t_run (tampered (swap_entry steal) served) = Some st' /\
  off_chain st' = off_chain st /\
  signs_for st 5 owner_key = true /\ signs_for st 5 thief_key = false /\ signs_for st' 5 owner_key = false /\ signs_for st' 5 thief_key = true.
Proof.
  assert (Hs : forall e, same_place e (steal e)).
  { intros [f b tx l ts []]; done. }
  assert (H : match t_run served, t_run (tampered (swap_entry steal) served) with
    | Some st, Some st' => signs_for st 5 owner_key && negb (signs_for st 5 thief_key) && negb (signs_for st' 5 owner_key) && signs_for st' 5 thief_key
    | _, _ => false end = true) by (vm_compute; reflexivity).
  pose proof (C73_chain_forged t_sha toy t_keccak (fun _ _ => true) t_root 0 served steal) as G. fold (t_run served) in G.
  fold (t_run (tampered (swap_entry steal) served)) in G.
  destruct (t_run served) as [st|]; [|discriminate]. destruct (G st Hs eq_refl) as (st' & E' & Ho). rewrite E' in H |- *.
  exists st, st'. rewrite !andb_true_iff, !negb_true_iff in H. tauto.
Qed.

(** A peer changes the time of a cast: it is merged, under another time, with the same hash and signature; when read back
    it has the signed time again (C48). *)
Definition late (m : message) : data := match g_data m with Some d => Data (d_type d) (d_fid d) 9999 (d_network d) (d_body d) | None => t_cast 0 0 end.
Theorem C73_forged_time_refuted : exists st st', t_run served = Some st /\ t_run (tampered (forge_entry toy late) served) = Some st' /\
  c_keys st' = c_keys st /\ c_roots st' = c_roots st /\
  (d_ts <$> omap g_data (c_msgs st)) = [2000; 1000] /\ (d_ts <$> omap g_data (c_msgs st')) = [9999; 9999] /\
  (d_ts <$> omap (fun m => g_data (read_back toy m)) (c_msgs st')) = [2000; 1000].
Proof.
  pose proof (C73_content_forged t_sha toy t_keccak (fun _ _ => true) t_root 0 served late) as G. fold (t_run served) in G.
  fold (t_run (tampered (forge_entry toy late) served)) in G.
  assert (H : match t_run served with
    | Some st => bool_decide ((d_ts <$> omap g_data (c_msgs st)) = [2000; 1000]) &&
       bool_decide ((d_ts <$> omap g_data (forge toy late <$> c_msgs st)) = [9999; 9999]) &&
       bool_decide ((d_ts <$> omap (fun m => g_data (read_back toy m)) (forge toy late <$> c_msgs st)) = [2000; 1000])
    | _ => false end = true) by (vm_compute; reflexivity).
  destruct (t_run served) as [st|]; [|discriminate]. rewrite G; [| |done].
  2:{ intros m d Ed. unfold late. rewrite Ed. repeat split; reflexivity. }
  apply andb_true_iff in H as [H H3]. apply andb_true_iff in H as [H1 H2].
  apply bool_decide_eq_true in H1. apply bool_decide_eq_true in H2. apply bool_decide_eq_true in H3.
  exists st, (forge_state toy late st). split; [reflexivity|]. split; [reflexivity|]. split; [reflexivity|]. split; [reflexivity|].
  split; [exact H1|]. split; [exact H2|exact H3].
Qed.

(** A message is withheld: its key comes with a name that is already there. All roots agree. *)
Definition withheld : list page :=
  (fun p => Page ((fun x => if bool_decide (x.1 = k5) then (k5, PName n5) else x) <$> pg_entries p) (pg_roots p)) <$> served.
Theorem C73_withheld_refuted : exists st st', t_run served = Some st /\ t_run withheld = Some st' /\
  c_keys st' = c_keys st /\ c_roots st' = c_roots st /\
  g_hash m5 ∈ g_hash <$> c_msgs st /\ g_hash m5 ∉ g_hash <$> c_msgs st'.
Proof.
  assert (H : match t_run served, t_run withheld with
    | Some st, Some st' => bool_decide (c_keys st' = c_keys st) && bool_decide (c_roots st' = c_roots st) &&
        bool_decide (g_hash m5 ∈ g_hash <$> c_msgs st) && bool_decide (g_hash m5 ∉ g_hash <$> c_msgs st')
    | _, _ => false end = true) by (vm_compute; reflexivity).
  destruct (t_run served) as [st|]; [|discriminate]. destruct (t_run withheld) as [st'|]; [|discriminate].
  exists st, st'. rewrite !andb_true_iff, !bool_decide_eq_true in H. tauto.
Qed.

(** A message that is not listed is merged: a username proof of any account, signed by anyone, that claims a registered
    name stands in for that name. Its own key is not in the trie; the name is not registered. *)
Definition proof_msg : message :=
  let d := Data 12 77 4000 1 (Some (VUsernameProof (NameProof 50 [97; 108] [] [] 5 1))) in
  let h := e_blake3 toy (toy_encode d) in Message (Some d) h 1 (thief_key ++ h) 1 thief_key None.
Definition smuggled : list page :=
  (fun p => Page ((fun x => if bool_decide (x.1 = kn) then (kn, PUser proof_msg) else x) <$> pg_entries p) (pg_roots p)) <$> served.
Theorem C73_unlisted_message_refuted : exists st st', t_run served = Some st /\ t_run smuggled = Some st' /\
  c_keys st' = c_keys st /\ c_roots st' = c_roots st /\
  g_hash proof_msg ∈ g_hash <$> c_msgs st' /\ (forall k, k ∈ hash_keys t_sha proof_msg -> k ∉ c_keys st') /\
  fs_name (c_names st) !! [97; 108] = Some n5 /\ fs_name (c_names st') !! [97; 108] = None.
Proof.
  assert (H : match t_run served, t_run smuggled with
    | Some st, Some st' => bool_decide (c_keys st' = c_keys st) && bool_decide (c_roots st' = c_roots st) &&
        bool_decide (g_hash proof_msg ∈ g_hash <$> c_msgs st') && forallb (fun k => negb (bool_decide (k ∈ c_keys st'))) (hash_keys t_sha proof_msg) &&
        bool_decide (fs_name (c_names st) !! [97; 108] = Some n5) && bool_decide (fs_name (c_names st') !! [97; 108] = None)
    | _, _ => false end = true) by (vm_compute; reflexivity).
  destruct (t_run served) as [st|]; [|discriminate]. destruct (t_run smuggled) as [st'|]; [|discriminate].
  exists st, st'. rewrite !andb_true_iff, !bool_decide_eq_true, forallb_forall in H. destruct H as (((((H1 & H2) & H3) & H4) & H5) & H6).
  split; [done|]. split; [done|]. split; [exact H1|]. split; [exact H2|]. split; [exact H3|]. split; [|split; [exact H5|exact H6]].
  intros k Hk. apply elem_of_list_In, H4 in Hk. by apply negb_true_iff, bool_decide_eq_false in Hk.
Qed.

(** Accounts out of order are not checked: account 5 has no root at all. *)
Definition unsorted : list page := [Page [(k6, PUser m6); (k5, PUser m5)] [(6, t_root {[ k6 ]} 6)]].
Theorem C73_unsorted_refuted : exists st, t_run unsorted = Some st /\ k5 ∈ c_keys st /\ c_roots st !! fid_of k5 = None.
Proof.
  assert (H : match t_run unsorted with
    | Some st => bool_decide (k5 ∈ c_keys st) && bool_decide (c_roots st !! fid_of k5 = None)
    | _ => false end = true) by (vm_compute; reflexivity).
  destruct (t_run unsorted) as [st|]; [|discriminate]. exists st. rewrite !andb_true_iff, !bool_decide_eq_true in H. tauto.
Qed.

Print Assumptions C73_same_signed_bytes_partial.
Print Assumptions C73_content_forged.
Print Assumptions C73_chain_forged.
Print Assumptions C73_accounts_checked_partial.
Print Assumptions C73_unlisted_message_refuted.
