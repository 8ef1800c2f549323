(** C117-C119: chain logs as on-chain events (src/connectors/onchain_events/mod.rs). *)
From Coq Require Import Lia ZifyN ZifyNat ZifyBool.
From stdpp Require Import list.
From Verif Require Import Base OnChain OnChainProofs Http HttpProofs ChainLog PropOnChain.
#[local] Open Scope N_scope.

(** ** C117: the event says what the log said *)

(** The block's time: the first answer, if it comes within five failures. *)
Lemma timestamp_spec ans t : forall count, count <= 5 -> timestamp count ans = Some t <->
  exists k r, N.of_nat k + count <= 5 /\ ans = repeat TFail k ++ TAt t :: r.
Proof.
  induction ans as [|a ans IH]; intros count Hc; cbn [timestamp].
  - split; [discriminate|]. intros (k & r & _ & H). destruct k; discriminate H.
  - destruct a as [| |t'].
    + destruct (5 <? count + 1) eqn:E.
      * split; [discriminate|]. intros (k & r & Hk & H). destruct k as [|k]; [discriminate H|]. lia.
      * rewrite IH by lia. split; intros (k & r & Hk & H).
        -- exists (S k), r. split; [lia|]. rewrite H. reflexivity.
        -- destruct k as [|k]; [discriminate H|]. exists k, r. split; [lia|]. injection H as H. exact H.
    + split; [discriminate|]. intros (k & r & _ & H). destruct k; discriminate H.
    + split; [intros [= ->]; exists 0%nat, ans; split; [lia|reflexivity]|]. intros (k & r & _ & H). destruct k; [|discriminate H]. injection H as -> _. reflexivity.
Qed.
Theorem C117_timestamp ans t : timestamp 0 ans = Some t <-> exists k r, (k <= 5)%nat /\ ans = repeat TFail k ++ TAt t :: r.
Proof.
  rewrite timestamp_spec by lia. split; intros (k & r & Hk & H); exists k, r; (split; [lia|exact H]).
Qed.

(** The numbers a message has room for. *)
Definition numbers_fit (c : chain) (e : evm) : Prop :=
  match e with
  | Rent _ fid units => fid < 2 ^ 64 /\ units < 2 ^ 32
  | Register _ id _ | ChangeRecovery id _ => id < 2 ^ 64
  | Transfer _ _ id => c = Basechain \/ id < 2 ^ 64
  | Add fid _ _ _ _ | Remove fid _ | AdminReset fid _ => fid < 2 ^ 64
  | Migrated t => t < 2 ^ 32
  | Purchased fid tier days _ => fid < 2 ^ 64 /\ tier < 2 ^ 31 /\ days < 2 ^ 64
  | NameRegistered _ _ _ x | NameRenewed _ _ x => x < 2 ^ 64
  | OtherEvent => True
  end.
(** Events that carry a name which is no text. *)
Definition nameless (e : evm) : Prop :=
  match e with NameRegistered n _ _ _ | NameRenewed n _ _ => ~ exists ps, Forall scalar ps /\ n = concat (map utf8_char ps) | _ => False end.
Definition named (e : evm) : Prop := match e with NameRegistered _ _ _ _ | NameRenewed _ _ _ => True | _ => False end.
Definition complete (l : log) : Prop := l_bhash l <> None /\ l_index l <> None /\ l_block l <> None /\ l_tx l <> None /\ l_txhash l <> None.

Lemma fit_spec b n x : fit b n = Some x <-> x = n /\ n < 2 ^ b.
Proof. unfold fit. destruct (n <? 2 ^ b) eqn:E; [split; [intros [= <-]; split; [reflexivity|lia]|intros [-> _]; reflexivity]|split; [discriminate|lia]]. Qed.
Lemma fit_none b n : fit b n = None <-> ~ n < 2 ^ b.
Proof. unfold fit. destruct (n <? 2 ^ b) eqn:E; [split; [discriminate|lia]|split; [lia|reflexivity]]. Qed.

Definition is_event (a : arm) : Prop := match a with AEvent _ _ => True | _ => False end.
Ltac fits := repeat match goal with
  | |- context [fit ?b ?n] => let E := fresh "F" in destruct (fit b n) eqn:E; [apply fit_spec in E as [-> E]|apply fit_none in E]; cbn [mbind option_bind aevent fmap option_fmap option_map]
  end.

Lemma arm_event c ts d e : is_event (arm_of c ts d e) <-> d = true /\ numbers_fit c e /\ ~ nameless e /\ e <> OtherEvent.
Proof.
  destruct e; cbn [arm_of numbers_fit nameless]; try rewrite <- utf8_iff.
  all: try (destruct d; [|cbn [andb is_event]; split; [tauto|intros [H _]; discriminate H]]).
  all: try (destruct (utf8 name); cbn [andb]; [|cbn [is_event]; split; [tauto|intros (_ & _ & H & _); exfalso; apply H; discriminate]]).
  all: try (destruct c); fits; cbn [is_event]; (split; [intros H; try destruct H; (split; [reflexivity|]); (split; [|split; [tauto || congruence|discriminate]])|intros (_ & H & _ & HO)]);
    try tauto; try congruence; try lia.
  all: try (right; assumption). all: try (destruct H as [H|H]; [discriminate H|contradiction]).
Qed.
(** A log is delivered exactly if it is complete, its block's time is known, it can be decoded, its numbers fit, its name is
    text, and it is one of the watched events. *)
Theorem C117_sent_iff c ans l : (exists e, process c ans l = Sent e) <->
  complete l /\ timestamp 0 ans <> None /\ l_decodes l = true /\ numbers_fit c (l_ev l) /\ ~ nameless (l_ev l) /\ l_ev l <> OtherEvent.
Proof.
  unfold process, complete.
  destruct (l_bhash l) as [bh|]; [|split; [intros (e & [=])|intros [H _]; tauto]].
  destruct (l_index l) as [li|]; [|split; [intros (e & [=])|intros [H _]; tauto]].
  destruct (l_block l) as [bn|]; [|split; [intros (e & [=])|intros [H _]; tauto]].
  destruct (l_tx l) as [ti|]; [|split; [intros (e & [=])|intros [H _]; tauto]].
  destruct (l_txhash l) as [th|]; [|split; [intros (e & [=])|intros [H _]; tauto]].
  destruct (timestamp 0 ans) as [ts|]; [|split; [intros (e & [=])|intros (_ & H & _); tauto]].
  pose proof (arm_event c ts (l_decodes l) (l_ev l)) as HA. destruct (arm_of c ts (l_decodes l) (l_ev l)) as [| |f b]; cbn [is_event] in HA.
  - split; [intros (e & [=])|intros (_ & _ & H); tauto].
  - split; [intros (e & [=])|intros (_ & _ & H); tauto].
  - split; [intros _; split; [repeat split; discriminate|split; [discriminate|tauto]]|eexists; reflexivity].
Qed.

(** A registration under a name that is no text is passed over without an error; so is everything unknown. *)
Theorem C117_ignored_iff c ans l : process c ans l = Ignored <->
  complete l /\ timestamp 0 ans <> None /\ (l_ev l = OtherEvent \/ named (l_ev l) /\ (l_decodes l = false \/ nameless (l_ev l))).
Proof.
  unfold process, complete.
  destruct (l_bhash l) as [bh|]; [|split; [discriminate|intros [H _]; tauto]].
  destruct (l_index l) as [li|]; [|split; [discriminate|intros [H _]; tauto]].
  destruct (l_block l) as [bn|]; [|split; [discriminate|intros [H _]; tauto]].
  destruct (l_tx l) as [ti|]; [|split; [discriminate|intros [H _]; tauto]].
  destruct (l_txhash l) as [th|]; [|split; [discriminate|intros [H _]; tauto]].
  destruct (timestamp 0 ans) as [ts|]; [|split; [discriminate|intros (_ & H & _); tauto]].
  assert (HN : arm_of c ts (l_decodes l) (l_ev l) = ANothing <-> l_ev l = OtherEvent \/ named (l_ev l) /\ (l_decodes l = false \/ nameless (l_ev l))).
  { destruct (l_ev l); cbn [arm_of named nameless]; try rewrite <- utf8_iff.
    all: try (split; [|intros [H|[H _]]; [discriminate H|destruct H]]; destruct (l_decodes l); [|discriminate]; try destruct c; fits; discriminate).
    - destruct (l_decodes l), (utf8 name); cbn [andb]; fits; (split; [intros H; try discriminate H; (right; split; [exact I|]; first [tauto|right; discriminate])|]);
        intros [H|(_ & [H|H])]; try discriminate H; try reflexivity; exfalso; apply H; reflexivity.
    - destruct (l_decodes l), (utf8 name); cbn [andb]; fits; (split; [intros H; try discriminate H; (right; split; [exact I|]; first [tauto|right; discriminate])|]);
        intros [H|(_ & [H|H])]; try discriminate H; try reflexivity; exfalso; apply H; reflexivity.
    - tauto. }
  destruct (arm_of c ts (l_decodes l) (l_ev l)) as [| |f b].
  - split; [discriminate|]. intros (_ & _ & H). apply HN in H. discriminate H.
  - split; [intros _|reflexivity]. split; [repeat split; discriminate|]. split; [discriminate|apply HN; reflexivity].
  - split; [discriminate|]. intros (_ & _ & H). apply HN in H. discriminate H.
Qed.

Lemma process_sent c ans l e : process c ans l = Sent e ->
  exists bh li bn ti th ts f b, l_bhash l = Some bh /\ l_index l = Some li /\ l_block l = Some bn /\ l_tx l = Some ti /\ l_txhash l = Some th /\
    timestamp 0 ans = Some ts /\ arm_of c ts (l_decodes l) (l_ev l) = AEvent f b /\
    e = CEvent f (as_u32 bn) bh ts (as_u32 li) (as_u32 ti) (chain_id c) b th.
Proof.
  unfold process. destruct (l_bhash l) as [bh|]; [|discriminate]. destruct (l_index l) as [li|]; [|discriminate].
  destruct (l_block l) as [bn|]; [|discriminate]. destruct (l_tx l) as [ti|]; [|discriminate]. destruct (l_txhash l) as [th|]; [|discriminate].
  destruct (timestamp 0 ans) as [ts|]; [|discriminate]. destruct (arm_of c ts (l_decodes l) (l_ev l)) as [| |f b] eqn:E; [discriminate..|].
  intros [= <-]. exists bh, li, bn, ti, th, ts, f, b. tauto.
Qed.

(** On Base a transfer's sender is not passed on. *)
Definition passed_on (c : chain) (e : evm) : evm :=
  match c, e with Basechain, Transfer _ to id => Transfer [] to id | _, _ => e end.
Definition token_ok (e : evm) : Prop := match e with Transfer _ _ id => id < 2 ^ 256 | _ => True end.

Definition arm_inv (c : chain) (ts : N) (f : N) (b : cbody) (e : evm) : Prop :=
  match e with
  | Rent p fid u => f = fid /\ b = KRent p u (as_u32 (ts + YEAR))
  | Register to id r => f = id /\ b = KId IRegister to [] r
  | Transfer fr to id => match c with Basechain => f = 0 /\ b = KChan CTransfer [] 0 to (be 32 id) | Optimism => f = id /\ b = KId ITransfer to fr [] end
  | ChangeRecovery id r => f = id /\ b = KId IRecovery [] [] r
  | Add fid kt k mt md => f = fid /\ b = KSigner SAdd k kt md mt
  | Remove fid k => f = fid /\ b = KSigner SRemove k 0 [] 0
  | AdminReset fid k => f = fid /\ b = KSigner SReset k 0 [] 0
  | Migrated t => f = 0 /\ b = KMigrated t
  | Purchased fid t d p => f = fid /\ b = KTier t d p
  | NameRegistered n lb ow x => f = 0 /\ b = KChan CRegister n x ow lb
  | NameRenewed n lb x => f = 0 /\ b = KChan CRenew n x [] lb
  | OtherEvent => False
  end.
Lemma arm_inverse c ts d e f b : arm_of c ts d e = AEvent f b -> arm_inv c ts f b e.
Proof.
  destruct e; cbn [arm_of arm_inv]; try (destruct d; [|discriminate]); try (destruct (utf8 name); [|discriminate]); cbn [andb]; try destruct c; fits;
    intros H; try discriminate H; apply (f_equal (fun a => match a with AEvent f b => Some (f, b) | _ => None end)) in H; split; congruence.
Qed.

(** The event determines the log: the same event from two logs means the same chain, block, transaction, payload, and the
    same position up to multiples of 2^32. *)
Theorem C117_faithful c c' ans ans' l l' e : token_ok (l_ev l) -> token_ok (l_ev l') -> process c ans l = Sent e -> process c' ans' l' = Sent e ->
  c = c' /\ l_bhash l = l_bhash l' /\ l_txhash l = l_txhash l' /\ timestamp 0 ans = timestamp 0 ans' /\
  passed_on c (l_ev l) = passed_on c' (l_ev l') /\
  (as_u32 <$> l_block l) = (as_u32 <$> l_block l') /\ (as_u32 <$> l_tx l) = (as_u32 <$> l_tx l') /\ (as_u32 <$> l_index l) = (as_u32 <$> l_index l').
Proof.
  intros T T' H H'. apply process_sent in H as (bh & li & bn & ti & th & ts & f & b & -> & -> & -> & -> & -> & -> & HA & He).
  apply process_sent in H' as (bh' & li' & bn' & ti' & th' & ts' & f' & b' & -> & -> & -> & -> & -> & -> & HA' & He').
  rewrite He in He'. clear He. injection He' as H1 H2 H3 H4 H5 H6 H7 H8 H9. subst f' bh' ts' b' th'.
  assert (Hc : c = c') by (destruct c, c'; (reflexivity || discriminate H7)). subst c'. cbn [fmap option_fmap option_map].
  apply arm_inverse in HA, HA'. split; [reflexivity|]. split; [reflexivity|]. split; [reflexivity|]. split; [reflexivity|].
  split; [|split; [congruence|split; congruence]]. clear - HA HA' T T'. unfold passed_on.
  destruct (l_ev l), (l_ev l'); cbn [arm_inv token_ok] in *; try contradiction; try destruct c; destruct HA as [A1 A2], HA' as [B1 B2]; try congruence.
  assert (E : be 32 id = be 32 id0) by congruence. apply be_inj in E; [congruence|exact T|exact T'].
Qed.

(** The account is the one of the log, never a shortened number. *)
Definition account (c : chain) (e : evm) : option N :=
  match e with
  | Rent _ f _ | Register _ f _ | ChangeRecovery f _ | Add f _ _ _ _ | Remove f _ | AdminReset f _ | Purchased f _ _ _ => Some f
  | Transfer _ _ f => match c with Optimism => Some f | Basechain => None end
  | _ => None
  end.
Theorem C117_account c ans l e : process c ans l = Sent e -> e_fid e = default 0 (account c (l_ev l)) /\ e_fid e < 2 ^ 64.
Proof.
  intros H. assert (HF : numbers_fit c (l_ev l)) by (apply (C117_sent_iff c ans l); eexists; exact H).
  apply process_sent in H as (bh & li & bn & ti & th & ts & f & b & _ & _ & _ & _ & _ & _ & HA & ->). apply arm_inverse in HA. cbn [e_fid].
  destruct (l_ev l); cbn [arm_inv account numbers_fit] in *; try contradiction; try destruct c; destruct HA as [-> _]; cbn [default from_option Datatypes.id]; try (split; [reflexivity|]; first [lia|tauto]).
  split; [reflexivity|]. destruct HF as [HF|HF]; [discriminate HF|exact HF].
Qed.

(** Channel names in events are text, and the number of a transferred token is the label of the registration. *)
Theorem C117_names c ans l e k n x o lb : process c ans l = Sent e -> e_body e = KChan k n x o lb ->
  k <> CTransfer -> exists ps, Forall scalar ps /\ n = concat (map utf8_char ps).
Proof.
  intros H Hb Hk. assert (HN : l_decodes l = true /\ ~ nameless (l_ev l)) by (split; apply (C117_sent_iff c ans l); eexists; exact H).
  apply process_sent in H as (bh & li & bn & ti & th & ts & f & b & _ & _ & _ & _ & _ & _ & HA & ->). cbn [e_body] in Hb. subst b.
  destruct HN as [_ HN]. apply arm_inverse in HA. apply utf8_iff.
  destruct (l_ev l); cbn [arm_inv nameless] in *; try contradiction; try destruct c; destruct HA as [_ A]; try discriminate A; try congruence;
    injection A as -> -> -> ->; try congruence; rewrite <- utf8_iff in HN; match goal with |- utf8 ?z = true => destruct (utf8 z); [reflexivity|exfalso; apply HN; discriminate] end.
Qed.

(** After the registration of a name whose label is its hash, a later transfer of the token with this number moves the
    channel to the receiver. *)
Theorem C117_transfer_moves keccak db s ans ans' l l' e e' name label owner x from to id w :
  process Basechain ans l = Sent e -> l_ev l = NameRegistered name label owner x -> process Basechain ans' l' = Sent e' -> l_ev l' = Transfer from to id ->
  label = be 32 id -> keccak name = label -> length owner = 20%nat -> length to = 20%nat ->
  t_ev s !! prim (as_oev e) = None -> (forall w, t_own s !! name = Some w -> older (as_oev e) w = false) ->
  let s1 := ostep keccak db s (as_oev e) in
  t_own s1 !! name = Some w -> older (as_oev e') w = false -> t_ev s1 !! prim (as_oev e') = None ->
  w_addr w = owner /\ w_expiry w = x /\
  t_own (ostep keccak db s1 (as_oev e')) !! name = Some (ChOwn to x (e_block e') (e_tx e') (e_log e')).
Proof.
  intros H HE H' HE' HL HK HO HT HP Hold s1 Hw Hold' HP'.
  apply process_sent in H as (bh & li & bn & ti & th & ts & f & b & _ & _ & _ & _ & _ & _ & HA & He). apply arm_inverse in HA.
  apply process_sent in H' as (bh' & li' & bn' & ti' & th' & ts' & f' & b' & _ & _ & _ & _ & _ & _ & HA' & He'). apply arm_inverse in HA'.
  rewrite HE in HA. rewrite HE' in HA'. cbn [arm_inv] in HA, HA'. destruct HA as [-> ->], HA' as [-> ->].
  assert (L32 : length label = 32%nat) by (rewrite HL; apply be_length).
  assert (B : o_body (as_oev e) = BChan CRegister label name owner x) by (rewrite He; reflexivity).
  assert (B' : o_body (as_oev e') = BChan CTransfer (be 32 id) [] to 0) by (rewrite He'; reflexivity).
  assert (S1 : t_own s1 !! name = Some (ChOwn owner x (o_block (as_oev e)) (o_tx (as_oev e)) (o_log (as_oev e))) /\ t_label s1 !! label = Some name).
  { unfold s1, ostep, omerge. rewrite HP, B. cbn [default from_option Datatypes.id]. unfold index_chan. rewrite L32, HO. cbn [Nat.eqb negb andb].
    rewrite (bool_decide_eq_true_2 (keccak name = label) HK). cbn [negb]. cbn [t_own t_ev t_id t_sig t_label t_addr].
    destruct (t_own s !! name) as [w0|] eqn:E0; [rewrite (Hold w0 eq_refl)|]; cbn [fst t_own t_label]; rewrite !lookup_insert; split; reflexivity. }
  destruct S1 as [SO SL]. assert (Hw' : w = ChOwn owner x (o_block (as_oev e)) (o_tx (as_oev e)) (o_log (as_oev e))) by congruence. rewrite Hw' in *. cbn [w_addr w_expiry]. split; [reflexivity|]. split; [reflexivity|].
  unfold ostep at 1. unfold omerge. rewrite HP', B'. cbn [default from_option Datatypes.id]. unfold index_chan. rewrite be_length, HT. cbn [Nat.eqb negb].
  cbn [t_own t_ev t_id t_sig t_label t_addr]. rewrite <- HL, SL, SO. rewrite Hold'. cbn [fst t_own w_expiry]. rewrite lookup_insert. reflexivity.
Qed.

(** Storage is rented for a year, as long as dates fit 32 bits. *)
Theorem C117_rent_expiry c ans l e p u x ts : process c ans l = Sent e -> e_body e = KRent p u x -> timestamp 0 ans = Some ts ->
  x = (ts + 31536000) mod 4294967296 /\ (ts + 31536000 < 4294967296 -> x = ts + 31536000).
Proof.
  intros H Hb Ht. apply process_sent in H as (bh & li & bn & ti & th & ts' & f & b & _ & _ & _ & _ & _ & Ht' & HA & ->). cbn [e_body] in Hb. subst b.
  rewrite Ht in Ht'. injection Ht' as <-. apply arm_inverse in HA.
  destruct (l_ev l); cbn [arm_inv] in HA; try contradiction; try destruct c; destruct HA as [_ A]; try discriminate A;
    injection A as _ _ ->; unfold as_u32, YEAR; change (2 ^ 32) with 4294967296; (split; [reflexivity|]; intros H; apply N.mod_small; exact H).
Qed.
(** Afterwards it is over before it begins. *)
Theorem C117_rent_expiry_refuted c ans l e p u x ts : process c ans l = Sent e -> e_body e = KRent p u x -> timestamp 0 ans = Some ts ->
  4294967296 <= ts + 31536000 -> ts < 4294967296 -> x < ts.
Proof.
  intros H Hb Ht H1 H2. destruct (C117_rent_expiry c ans l e p u x ts H Hb Ht) as [-> _].
  replace (ts + 31536000) with ((ts + 31536000 - 4294967296) + 1 * 4294967296) by lia. rewrite N.mod_add by lia. rewrite N.mod_small; lia.
Qed.

(** What storage accounting and subscriptions read of the event is what was paid for: the units rented; the days bought of the tier,
    from the block's time on. *)
Theorem C117_rented c ans l e p f u : process c ans l = Sent e -> l_ev l = Rent p f u -> o_fid (as_oev e) = f /\ o_body (as_oev e) = BRent u.
Proof.
  intros H HL. apply process_sent in H as (bh & li & bn & ti & th & ts & f' & b & _ & _ & _ & _ & _ & _ & HA & ->). apply arm_inverse in HA.
  rewrite HL in HA. destruct HA as [-> ->]. split; reflexivity.
Qed.
Theorem C117_subscribed c ans l e p f t d ts : process c ans l = Sent e -> l_ev l = Purchased f t d p -> timestamp 0 ans = Some ts ->
  o_fid (as_oev e) = f /\ tier_expires t None [as_oev e] = ts + d * 86400 /\ (forall t', t' <> t -> tier_expires t' None [as_oev e] = 0) /\
  (forall now, tier_active t now [as_oev e] = true <-> ts <= now <= ts + d * 86400 \/ now = 0).
Proof.
  intros H HL HT. apply process_sent in H as (bh & li & bn & ti & th & ts' & f' & b & _ & _ & _ & _ & _ & HT' & HA & ->). apply arm_inverse in HA.
  rewrite HL in HA. destruct HA as [-> ->]. rewrite HT in HT'. injection HT' as <-. unfold tier_expires, tier_active. unfold tier_expires.
  cbn [tier_fold as_oev o_body e_body o_ts e_ts o_fid e_fid]. rewrite N.eqb_refl.
  refine (conj eq_refl (conj _ (conj _ _))).
  - lia.
  - intros t' Hne. destruct (N.eqb_spec t t'); [congruence|]. reflexivity.
  - intros now. rewrite N.leb_le. destruct (N.ltb_spec now ts); lia.
Qed.

(** ** C118: every log has its own place *)

(** The events of the contracts' ABI files (storage_, id_, key_, tier_registry_abi.json, channel_registrar_abi.json). *)
Definition emits (k : contract) (e : evm) : Prop :=
  match e with
  | Rent _ _ _ => k = CStorage
  | Register _ _ _ | ChangeRecovery _ _ => k = CId
  | Transfer _ _ _ => k = CId \/ k = CToken
  | Add _ _ _ _ _ | Remove _ _ | AdminReset _ _ => k = CKey
  | Migrated _ => k = CKey \/ k = CTier
  | Purchased _ _ _ _ => k = CTier
  | NameRegistered _ _ _ _ | NameRenewed _ _ _ => k = CController
  | OtherEvent => True
  end.
Definition on (k : contract) : chain := match k with CStorage | CKey | CId => Optimism | CTier | CController | CToken => Basechain end.
(** What each contract is about, by event type. *)
Definition about (k : contract) (t : N) : Prop :=
  match k with CStorage => t = 4 | CId => t = 3 | CKey => t = 1 \/ t = 2 | CTier => t = 5 | CController | CToken => t = 6 end.

Lemma sent_type c ans l e : process c ans l = Sent e -> o_type (as_oev e) =
  match l_ev l with
  | Rent _ _ _ => 4 | Register _ _ _ | ChangeRecovery _ _ => 3 | Transfer _ _ _ => match c with Optimism => 3 | Basechain => 6 end
  | Add _ _ _ _ _ | Remove _ _ | AdminReset _ _ => 1 | Migrated _ => 2 | Purchased _ _ _ _ => 5
  | NameRegistered _ _ _ _ | NameRenewed _ _ _ => 6 | OtherEvent => 0 end.
Proof.
  intros H. apply process_sent in H as (bh & li & bn & ti & th & ts & f & b & _ & _ & _ & _ & _ & _ & HA & ->). apply arm_inverse in HA.
  destruct (l_ev l); cbn [arm_inv] in HA; try contradiction; try destruct c; destruct HA as [_ ->]; reflexivity.
Qed.

(** An event's type is one its contract is about, with one exception. *)
Theorem C118_attributed k ans l e : emits k (l_ev l) -> process (on k) ans l = Sent e ->
  about k (o_type (as_oev e)) <-> ~ (k = CTier /\ exists t, l_ev l = Migrated t).
Proof.
  intros HE H. rewrite (sent_type _ _ _ _ H). assert (HO : l_ev l <> OtherEvent) by (apply (C117_sent_iff (on k) ans l); eexists; exact H).
  destruct (l_ev l); cbn [emits] in HE; try (subst k); try (split; [intros _ (_ & t & [=])|intros _]; cbn [about on]; tauto).
  - destruct HE as [->| ->]; cbn [about on]; (split; [intros _ (_ & t & [=])|tauto]).
  - destruct HE as [->| ->]; cbn [about on]; [split; [intros _ ([=] & _)|tauto]|split; [discriminate|]]. intros HN. exfalso. apply HN. split; [reflexivity|eexists; reflexivity].
Qed.

(** The exception: the tier registry on Base has a [Migrated(uint256)] of its own. It is taken for the key registry's. *)
Theorem C118_tier_migration_refuted ans l t : complete l -> timestamp 0 ans <> None -> l_decodes l = true -> t < 2 ^ 32 -> l_ev l = Migrated t ->
  emits CTier (l_ev l) /\ exists e, process (on CTier) ans l = Sent e /\ e_body e = KMigrated t /\ e_fid e = 0 /\ e_chain e = 8453.
Proof.
  intros HC HT HD Ht HE. split; [rewrite HE; right; reflexivity|].
  assert (X : exists e, process (on CTier) ans l = Sent e).
  { apply C117_sent_iff. rewrite HE. cbn [numbers_fit nameless]. split; [exact HC|]. split; [exact HT|]. split; [exact HD|]. split; [exact Ht|]. split; [tauto|discriminate]. }
  destruct X as (e & He). exists e. split; [exact He|]. apply process_sent in He as (bh & li & bn & ti & th & ts & f & b & _ & _ & _ & _ & _ & _ & HA & ->).
  apply arm_inverse in HA. rewrite HE in HA. destruct HA as [-> ->]. repeat split.
Qed.

(** Two logs of the watched contracts stored under one key are one position on one chain, as long as positions fit 32 bits and
    the tier registry does not migrate. *)
Definition small_position (l : log) : Prop := forall b i, l_block l = Some b -> l_index l = Some i -> b < 2 ^ 32 /\ i < 2 ^ 32.
Theorem C118_own_place k k' ans ans' l l' e e' : emits k (l_ev l) -> emits k' (l_ev l') ->
  ~ (k = CTier /\ exists t, l_ev l = Migrated t) -> ~ (k' = CTier /\ exists t, l_ev l' = Migrated t) -> small_position l -> small_position l' ->
  process (on k) ans l = Sent e -> process (on k') ans' l' = Sent e' -> prim (as_oev e) = prim (as_oev e') ->
  on k = on k' /\ l_block l = l_block l' /\ l_index l = l_index l'.
Proof.
  intros HE HE' HN HN' HS HS' H H' HP.
  pose proof (proj2 (C118_attributed k ans l e HE H) HN) as A. pose proof (proj2 (C118_attributed k' ans' l' e' HE' H') HN') as A'.
  unfold prim in HP. assert (P1 : o_type (as_oev e) = o_type (as_oev e')) by congruence. assert (P2 : o_block (as_oev e) = o_block (as_oev e')) by congruence.
  assert (P3 : o_log (as_oev e) = o_log (as_oev e')) by congruence. clear HP.
  apply process_sent in H as (bh & li & bn & ti & th & ts & f & b & _ & Hi & Hb & _ & _ & _ & _ & He).
  apply process_sent in H' as (bh' & li' & bn' & ti' & th' & ts' & f' & b' & _ & Hi' & Hb' & _ & _ & _ & _ & He').
  destruct (HS bn li Hb Hi) as [S1 S2]. destruct (HS' bn' li' Hb' Hi') as [S1' S2'].
  assert (Q2 : bn = bn').
  { rewrite He, He' in P2. cbn [as_oev o_block e_block] in P2. unfold as_u32 in P2. rewrite !N.mod_small in P2 by assumption. exact P2. }
  assert (Q3 : li = li').
  { rewrite He, He' in P3. cbn [as_oev o_log e_log] in P3. unfold as_u32 in P3. rewrite !N.mod_small in P3 by assumption. exact P3. }
  split; [|split; congruence]. rewrite <- P1 in A'. clear - A A'. revert A A'. generalize (o_type (as_oev e)). intros t.
  destruct k, k'; cbn [about on]; intros A A'; try reflexivity; exfalso; lia.
Qed.

(** So the logs of both chains, each taken once, are stored under different keys: what C26, C58 and C60 assume. *)
Theorem C118_distinct (xs : list (contract * list tanswer * log)) (es : list cevent) :
  (forall k a l, (k, a, l) ∈ xs -> emits k (l_ev l) /\ small_position l /\ ~ (k = CTier /\ exists t, l_ev l = Migrated t)) ->
  NoDup (map (fun x => (on x.1.1, l_block x.2, l_index x.2)) xs) ->
  Forall2 (fun x e => process (on x.1.1) x.1.2 x.2 = Sent e) xs es ->
  NoDup (map (fun e => prim (as_oev e)) es).
Proof.
  intros HX HN HF. induction HF as [|x e xs es Hx HF IH]; [constructor|]. cbn [map] in HN. apply NoDup_cons in HN as [Hnot HN]. cbn [map]. apply NoDup_cons. split.
  - intros Hin. apply elem_of_list_In, in_map_iff in Hin as (e' & Hp & Hin). apply elem_of_list_In, elem_of_list_lookup in Hin as (i & Hi).
    destruct (Forall2_lookup_r _ _ _ _ _ HF Hi) as (x' & Hi' & Hx'). destruct x as [[k a] l], x' as [[k' a'] l']. cbn [fst snd] in *.
    destruct (HX k a l ltac:(left)) as (E1 & E2 & E3). assert (Hmem : (k', a', l') ∈ xs) by (eapply elem_of_list_lookup_2; exact Hi').
    destruct (HX k' a' l' ltac:(right; exact Hmem)) as (F1 & F2 & F3).
    destruct (C118_own_place k k' a a' l l' e e' E1 F1 E3 F3 E2 F2 Hx Hx' (eq_sym Hp)) as (G1 & G2 & G3).
    apply Hnot. apply elem_of_list_In, in_map_iff. exists (k', a', l'). cbn [fst snd]. split; [congruence|apply elem_of_list_In; exact Hmem].
  - apply IH; [|exact HN]. intros k a l Hin. apply (HX k a l). right. exact Hin.
Qed.

(** From the registry to the answer: whoever holds an account was named by a log of the id registry, and no log of it about
    this account is in a later block; in whatever order and grouping the events arrive. Accounts are told apart by their low
    32 bits. *)
Definition gives (l : log) (f : N) (to : bytes) : Prop :=
  exists i, i mod 2 ^ 32 = f mod 2 ^ 32 /\ ((exists r, l_ev l = Register to i r) \/ exists from, l_ev l = Transfer from to i).
Theorem C118_custody_from_logs keccak (xs : list (contract * list tanswer * log)) (es : list cevent) bs f x :
  (forall k a l, (k, a, l) ∈ xs -> emits k (l_ev l) /\ small_position l /\ ~ (k = CTier /\ exists t, l_ev l = Migrated t)) ->
  NoDup (map (fun x => (on x.1.1, l_block x.2, l_index x.2)) xs) ->
  Forall2 (fun x e => process (on x.1.1) x.1.2 x.2 = Sent e) xs es ->
  concat bs ≡ₚ map as_oev es ->
  custody_event (orun keccak o_init bs) f = Some x ->
  exists a l to k b, (CId, a, l) ∈ xs /\ gives l f to /\ o_body x = BIdReg k to /\ l_block l = Some b /\ o_block x = b /\
    forall a' l' to' b', (CId, a', l') ∈ xs -> gives l' f to' -> l_block l' = Some b' -> b' <= b.
Proof.
  intros HX HN HF HP HC. assert (ND : NoDup (map prim (concat bs))).
  { rewrite (Permutation_map prim HP), map_map. exact (C118_distinct xs es HX HN HF). }
  destruct (proj1 (C60_custody_latest keccak bs f ND) x HC) as (Hin & Hr & Hlast).
  assert (HT : forall a l e, (CId, a, l) ∈ xs -> process Optimism a l = Sent e -> exists b, l_block l = Some b /\ o_block (as_oev e) = b).
  { intros a l e Hm Hp. apply process_sent in Hp as (bh & li & bn & ti & th & ts & f0 & b0 & _ & Hi & Hb & _ & _ & _ & _ & ->).
    exists bn. split; [exact Hb|]. cbn [as_oev o_block e_block]. unfold as_u32. apply N.mod_small. destruct (HX _ _ _ Hm) as (_ & HS & _). exact (proj1 (HS _ _ Hb Hi)). }
  rewrite HP in Hin. apply elem_of_list_In, in_map_iff in Hin as (e & <- & Hin). apply elem_of_list_In, elem_of_list_lookup in Hin as (i & Hi).
  destruct (Forall2_lookup_r _ _ _ _ _ HF Hi) as ([[k a] l] & Hl & Hp). cbn [fst snd] in Hp. assert (Hm : (k, a, l) ∈ xs) by (eapply elem_of_list_lookup_2; exact Hl).
  pose proof (process_sent _ _ _ _ Hp) as (bh & li & bn & ti & th & ts & f0 & b0 & _ & _ & _ & _ & _ & _ & HA & He). apply arm_inverse in HA.
  destruct (HX _ _ _ Hm) as (HE & _ & _).
  assert (G : k = CId /\ exists to kk, gives l f to /\ o_body (as_oev e) = BIdReg kk to).
  { unfold registers in Hr. rewrite He in *. cbn [as_oev o_body e_body o_fid e_fid] in *. unfold gives.
    destruct (l_ev l); cbn [arm_inv emits] in *; try contradiction.
    all: try (destruct HA as [-> ->]; discriminate Hr).
    - destruct HA as [-> ->]. split; [exact HE|]. exists to, IRegister. split; [|reflexivity]. exists id. split; [|left; eexists; reflexivity].
      apply andb_true_iff in Hr as [Hr _]. apply N.eqb_eq in Hr. exact Hr.
    - destruct (on k) eqn:Ek; destruct HA as [-> ->]; [|discriminate Hr]. destruct HE as [->| ->]; [|discriminate Ek]. split; [reflexivity|]. exists to, ITransfer.
      split; [|reflexivity]. exists id. split; [|right; eexists; reflexivity].
      apply andb_true_iff in Hr as [Hr _]. apply N.eqb_eq in Hr. exact Hr.
    - destruct HA as [-> ->]. apply andb_true_iff in Hr as [_ Hr]. rewrite bool_decide_eq_true_2 in Hr by reflexivity. discriminate Hr. }
  destruct G as (-> & to & kk & G & B). destruct (HT a l e Hm Hp) as (b & Hb & Ho).
  exists a, l, to, kk, b. split; [exact Hm|]. split; [exact G|]. split; [exact B|]. split; [exact Hb|]. split; [exact Ho|].
  intros a' l' to' b' Hm' G' Hb'. apply elem_of_list_lookup in Hm' as (i' & Hi'). destruct (Forall2_lookup_l _ _ _ _ _ HF Hi') as (e' & He' & Hp').
  cbn [fst snd] in Hp'. assert (Hm' : (CId, a', l') ∈ xs) by (eapply elem_of_list_lookup_2; exact Hi'). destruct (HT a' l' e' Hm' Hp') as (b2 & Hb2 & Ho2).
  assert (E2 : b' = o_block (as_oev e')) by congruence. rewrite E2, <- Ho. apply Hlast.
  - rewrite HP. apply elem_of_list_In, in_map_iff. exists e'. split; [reflexivity|]. apply elem_of_list_In. eapply elem_of_list_lookup_2. exact He'.
  - pose proof (process_sent _ _ _ _ Hp') as (bh' & li' & bn' & ti' & th' & ts' & f0' & b0' & _ & _ & _ & _ & _ & _ & HA' & He2). apply arm_inverse in HA'.
    destruct G' as (j & Hj & [(r & HL)|(fr & HL)]); rewrite HL in HA'; cbn [arm_inv on] in HA'; destruct HA' as [-> ->]; rewrite He2; unfold registers, fidk; cbn [as_oev o_body e_body o_fid e_fid];
      apply andb_true_iff; (split; [apply N.eqb_eq; exact Hj|rewrite bool_decide_eq_false_2 by discriminate; reflexivity]).
Qed.

(** Beyond 32 bits, a log is taken for another one: the block number is cut, and the store refuses the later of the two. *)
Theorem C118_wrap_refuted keccak db s c ans l l' e e' : process c ans l = Sent e -> process c ans l' = Sent e' ->
  l_ev l' = l_ev l -> l_index l' = l_index l -> l_block l' = (fun b => b + 2 ^ 32) <$> l_block l ->
  prim (as_oev e') = prim (as_oev e) /\ omerge keccak db (ostep keccak db s (as_oev e)) (as_oev e') = None.
Proof.
  intros H H' HE HI HB. assert (HP : prim (as_oev e') = prim (as_oev e)).
  { unfold prim. rewrite (sent_type _ _ _ _ H), (sent_type _ _ _ _ H'), HE.
    destruct (C117_account _ _ _ _ H) as [Hf _]. destruct (C117_account _ _ _ _ H') as [Hf' _]. rewrite HE, <- Hf in Hf'.
    apply process_sent in H as (bh & li & bn & ti & th & ts & f & b & _ & Hi & Hb & _ & _ & _ & _ & ->).
    apply process_sent in H' as (bh' & li' & bn' & ti' & th' & ts' & f' & b' & _ & Hi' & Hb' & _ & _ & _ & _ & ->). cbn [e_fid] in Hf'. subst f'.
    rewrite HI, Hi in Hi'. injection Hi' as <-. rewrite HB, Hb in Hb'. cbn [fmap option_fmap option_map] in Hb'. injection Hb' as <-.
    cbn [as_oev o_fid o_block o_log e_fid e_block e_log]. unfold as_u32. replace (bn + 2 ^ 32) with (bn + 1 * 2 ^ 32) by lia. rewrite N.mod_add by discriminate. reflexivity. }
  split; [exact HP|]. assert (X : exists z, t_ev (ostep keccak db s (as_oev e)) !! prim (as_oev e) = Some z).
  { unfold ostep, omerge. destruct (t_ev s !! prim (as_oev e)) as [z|] eqn:E; cbn [default from_option Datatypes.id]; [exists z; exact E|]. exists (as_oev e).
    destruct (o_body (as_oev e)); cbn [t_ev]; try apply lookup_insert. unfold index_chan.
    repeat match goal with |- context [if ?b then _ else _] => destruct b | |- context [match ?x with _ => _ end] => destruct x end; cbn [fst t_ev]; apply lookup_insert. }
  destruct X as (z & Hz). unfold omerge. rewrite HP, Hz. reflexivity.
Qed.

(** ** C119: what is watched and what a retry finds *)

(** With a controller configured and channels active, its token is watched too, or the node does not start. *)
Theorem C119_both_watched sa ka ia ta w root owner ctl l : wc_chain w = Basechain -> wc_controller w = Some ctl -> wc_active w = true ->
  watched sa ka ia ta w root owner = Some l ->
  exists r t, root = Some r /\ owner r = Some t /\ ~ Forall (eq 0) t /\ l = [(default ta (wc_tier w), CTier); (ctl, CController); (t, CToken)].
Proof.
  intros Hc Hk Ha. unfold watched, resolve_token, contracts. rewrite Hk, Hc, Ha. destruct root as [r|]; [|discriminate]. cbn [mbind option_bind].
  destruct (owner r) as [t|] eqn:E; [|discriminate]. cbn [mbind option_bind]. destruct (forallb (N.eqb 0) t) eqn:EF; [discriminate|]. intros [= <-].
  exists r, t. split; [reflexivity|]. split; [exact E|]. split; [|reflexivity]. intros HF.
  assert (X : forallb (N.eqb 0) t = true) by (apply forallb_forall; intros x Hx; apply N.eqb_eq; rewrite List.Forall_forall in HF; exact (HF x Hx)). congruence.
Qed.
(** Before, the controller may be watched alone: names get registered, transfers are not seen, and nothing looks again. *)
Theorem C119_half_watched_refuted sa ka ia ta w root owner ctl : wc_chain w = Basechain -> wc_controller w = Some ctl -> wc_active w = false ->
  resolve_token root owner = None ->
  exists l, watched sa ka ia ta w root owner = Some l /\ (ctl, CController) ∈ l /\ ~ exists a, (a, CToken) ∈ l.
Proof.
  intros Hc Hk Ha HR. unfold watched, contracts. rewrite Hk, HR, Ha, Hc. cbn [app]. eexists. split; [reflexivity|]. split; [right; left|].
  intros (a & H). apply elem_of_cons in H as [H|H]; [discriminate H|]. apply elem_of_list_singleton in H. discriminate H.
Qed.
(** Every kind of contract that exists without configuration is watched on its chain, once. *)
Theorem C119_fixed sa ka ia ta w root owner l : watched sa ka ia ta w root owner = Some l ->
  NoDup (map snd l) /\ (forall a k, (a, k) ∈ l -> on k = wc_chain w) /\
  (forall k, k <> CController -> k <> CToken -> on k = wc_chain w -> exists a, (a, k) ∈ l).
Proof.
  intros H. assert (HL : exists t, l = contracts sa ka ia ta w t).
  { revert H. unfold watched. destruct (wc_controller w); [|intros [= <-]; eexists; reflexivity].
    destruct (resolve_token root owner); [intros [= <-]; eexists; reflexivity|]. destruct (wc_active w); [discriminate|intros [= <-]; eexists; reflexivity]. }
  destruct HL as (t & ->). clear H. unfold contracts. destruct (wc_chain w).
  - split; [cbn [map snd]; apply (bool_decide_unpack (NoDup [CStorage; CKey; CId])); exact I|]. split.
    + intros a k H. apply elem_of_cons in H as [[= -> ->]|H]; [reflexivity|]. apply elem_of_cons in H as [[= -> ->]|H]; [reflexivity|].
      apply elem_of_list_singleton in H as [= -> ->]. reflexivity.
    + intros k H1 H2 H. destruct k; try discriminate H; eexists; [left|right; left|right; right; left].
  - split; [|split].
    + destruct (wc_controller w), t; cbn [app map snd].
      * apply (bool_decide_unpack (NoDup [CTier; CController; CToken])); exact I.
      * apply (bool_decide_unpack (NoDup [CTier; CController])); exact I.
      * apply (bool_decide_unpack (NoDup [CTier; CToken])); exact I.
      * apply (bool_decide_unpack (NoDup [CTier])); exact I.
    + intros a k H. apply elem_of_cons in H as [[= -> ->]|H]; [reflexivity|]. apply elem_of_app in H as [H|H].
      * destruct (wc_controller w); [apply elem_of_list_singleton in H as [= -> ->]; reflexivity|inversion H].
      * destruct t; [apply elem_of_list_singleton in H as [= -> ->]; reflexivity|inversion H].
    + intros k H1 H2 H. destruct k; try discriminate H; try congruence. eexists. left.
Qed.

(** Retrying an account asks for exactly its logs, but for two kinds: changed recovery addresses and keys reset by the
    administrator are not asked for. *)
Definition not_retried (e : evm) : Prop := match e with ChangeRecovery _ _ | AdminReset _ _ => True | _ => False end.
Theorem C119_retry_refuted khash k fid e : emits k e ->
  (retried khash k fid e = true <-> account (on k) e = Some fid /\ ~ not_retried e).
Proof.
  intros HE. unfold retried. rewrite existsb_exists. unfold matches.
  destruct e; cbn [emits account not_retried] in *;
    try (destruct HE as [HE|HE]); try (subst k); try (destruct k); cbn [on retry_filters];
    (split; [intros (f & Hf & Hm); cbn [In] in Hf; repeat (destruct Hf as [<-|Hf]); try contradiction; cbn [f_sigs f_topic f_fid signature_of topics] in Hm;
       apply andb_true_iff in Hm as [Hm1 Hm2]; apply bool_decide_eq_true in Hm1, Hm2; cbn in Hm2;
       rewrite ?elem_of_cons, ?elem_of_nil in Hm1; first [exfalso; intuition discriminate|split; [cbn; congruence|tauto]]
     |intros [Hacc Hno]; try (exfalso; apply Hno; exact I); cbn in Hacc; try discriminate Hacc; injection Hacc as ->]).
  - eexists. split; [left; reflexivity|]. apply andb_true_iff. split; apply bool_decide_eq_true; [left|reflexivity].
  - eexists. split; [left; reflexivity|]. apply andb_true_iff. split; apply bool_decide_eq_true; [left|reflexivity].
  - eexists. split; [right; left; reflexivity|]. apply andb_true_iff. split; apply bool_decide_eq_true; [left|reflexivity].
  - eexists. split; [left; reflexivity|]. apply andb_true_iff. split; apply bool_decide_eq_true; [left|reflexivity].
  - eexists. split; [left; reflexivity|]. apply andb_true_iff. split; apply bool_decide_eq_true; [right; left|reflexivity].
  - eexists. split; [left; reflexivity|]. apply andb_true_iff. split; apply bool_decide_eq_true; [left|reflexivity].
Qed.

(** Examples. *)
Definition ex_log (e : evm) : log := Log (Some [1]) (Some 7) (Some 100) (Some 3) (Some [2]) e true.
Example C117_ex_sent : process Optimism [TFail; TFail; TAt 1700000000] (ex_log (Rent [9] 42 5)) =
  Sent (CEvent 42 100 [1] 1700000000 7 3 10 (KRent [9] 5 1731536000) [2]).
Proof. reflexivity. Qed.
Example C117_ex_failed : process Optimism [TAt 5] (ex_log (Rent [9] (2 ^ 64) 5)) = Failed /\ process Optimism [TGone; TAt 5] (ex_log (Rent [9] 1 5)) = Failed /\
  process Basechain [TAt 5] (ex_log (NameRegistered [255] [] [] 1)) = Ignored.
Proof. repeat split. Qed.
Example C117_ex_transfer : process Basechain [TAt 5] (ex_log (Transfer [9] (repeat 8 20) 258)) =
  Sent (CEvent 0 100 [1] 5 7 3 8453 (KChan CTransfer [] 0 (repeat 8 20) (be 32 258)) [2]) /\
  process Optimism [TAt 5] (ex_log (Transfer [9] (repeat 8 20) 258)) = Sent (CEvent 258 100 [1] 5 7 3 10 (KId ITransfer (repeat 8 20) [9] []) [2]).
Proof. split; reflexivity. Qed.
(** The hypotheses of [C117_transfer_moves]: a name registered and then transferred, with a toy hash. *)
Definition ex_reg : log := Log (Some [1]) (Some 7) (Some 100) (Some 3) (Some [2]) (NameRegistered [97] (be 32 258) (repeat 8 20) 9) true.
Definition ex_tra : log := Log (Some [1]) (Some 2) (Some 101) (Some 0) (Some [2]) (Transfer (repeat 8 20) (repeat 6 20) 258) true.
Definition sent_of (r : res) : cevent := match r with Sent e => e | _ => CEvent 0 0 [] 0 0 0 0 (KMigrated 0) [] end.
Example C117_ex_moves : let k := fun _ => be 32 258 in
  let s1 := ostep k o_init o_init (as_oev (sent_of (process Basechain [TAt 5] ex_reg))) in
  t_own s1 !! [97] = Some (ChOwn (repeat 8 20) 9 100 3 7) /\
  t_own (ostep k o_init s1 (as_oev (sent_of (process Basechain [TAt 6] ex_tra)))) !! [97] = Some (ChOwn (repeat 6 20) 9 101 0 2).
Proof. vm_compute. split; reflexivity. Qed.
Example C118_ex_migrated : process (on CTier) [TAt 5] (ex_log (Migrated 77)) = Sent (CEvent 0 100 [1] 5 7 3 8453 (KMigrated 77) [2]).
Proof. reflexivity. Qed.
Example C118_ex_distinct : NoDup (map (fun x : contract * list tanswer * log => (on x.1.1, l_block x.2, l_index x.2))
  [(CStorage, [TAt 5], ex_log (Rent [9] 42 5)); (CTier, [TAt 5], ex_log (Purchased 42 1 30 [9]))]).
Proof. apply (bool_decide_unpack (NoDup _)). vm_compute. exact I. Qed.
Example C119_ex_watched : watched [1] [2] [3] [4] (WConfig Basechain None (Some [5]) true) (Some [6]) (fun _ => Some [7]) = Some [([4], CTier); ([5], CController); ([7], CToken)] /\
  watched [1] [2] [3] [4] (WConfig Basechain None (Some [5]) true) (Some [6]) (fun _ => Some [0]) = None /\
  watched [1] [2] [3] [4] (WConfig Basechain None (Some [5]) false) None (fun _ => Some [0]) = Some [([4], CTier); ([5], CController)].
Proof. repeat split. Qed.
Example C119_ex_retry : retried (fun _ => 0) CId 42 (Register [1] 42 [2]) = true /\ retried (fun _ => 0) CId 42 (ChangeRecovery 42 [2]) = false /\
  retried (fun _ => 0) CKey 42 (AdminReset 42 [2]) = false.
Proof. repeat split. Qed.

Print Assumptions C117_timestamp. Print Assumptions C117_sent_iff. Print Assumptions C117_ignored_iff. Print Assumptions C117_faithful.
Print Assumptions C117_account. Print Assumptions C117_names. Print Assumptions C117_transfer_moves. Print Assumptions C117_rent_expiry.
Print Assumptions C117_rent_expiry_refuted. Print Assumptions C118_attributed. Print Assumptions C118_tier_migration_refuted.
Print Assumptions C118_own_place. Print Assumptions C118_distinct. Print Assumptions C118_custody_from_logs. Print Assumptions C118_wrap_refuted.
Print Assumptions C119_both_watched. Print Assumptions C119_half_watched_refuted. Print Assumptions C119_fixed. Print Assumptions C119_retry_refuted.
