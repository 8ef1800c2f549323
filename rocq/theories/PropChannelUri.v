(** C50: a channel has exactly one accepted spelling (src/core/channel_uri.rs). *)
From stdpp Require Import list.
From Verif Require Import Base Codec Version ChannelUri ChannelUriProofs.
#[local] Open Scope N_scope.

(** Specification, written without the parser and the printer: the accepted strings are
    "eip155:<d1>/erc721:0x<hx>/<d2>" with [d1], [d2] ordinary decimal numerals (no sign, no leading zero, no separators) of a
    64-bit and a 256-bit number and [hx] the EIP-55 spelling of 20 bytes. *)
Definition spelled (keccak : bytes -> bytes) (u : bytes) (a : asset) : Prop :=
  exists d1 hx d2,
    u = [101; 105; 112; 49; 53; 53; 58] ++ d1 ++ [47; 101; 114; 99; 55; 50; 49; 58; 48; 120] ++ hx ++ [47] ++ d2 /\
    numeral d1 (as_chain a) /\ as_chain a < 2 ^ 64 /\
    length (as_contract a) = 20%nat /\ eip55 keccak (as_contract a) hx /\
    length (as_channel a) = 32%nat /\ bytes_ok (as_channel a) = true /\ numeral d2 (be_dec (as_channel a)).

Section K.
  Context (keccak : bytes -> bytes).

  (** Parsing undoes printing for every identifier... *)
  Theorem C50_print_parse a : asset_ok a -> parse keccak (canonical keccak a) = Ok a.
  Proof. apply parse_canonical. Qed.

  (** ... and printing undoes parsing for every accepted string. *)
  Theorem C50_parse_print u a : parse keccak u = Ok a -> asset_ok a /\ canonical keccak a = u.
  Proof. intros H. apply parse_inv in H as [H ->]. auto. Qed.

  (** Accepted are exactly the strings of the grammar. *)
  Theorem C50_accepted_iff (Hk : forall x, length (keccak x) = 32%nat) u a : parse keccak u = Ok a <-> spelled keccak u a.
  Proof.
    split.
    - intros H. apply parse_inv in H as ((Hc & (Hl & Ha) & (Hh & Hb)) & ->). exists (to_string (as_chain a)), (checksum_body keccak (as_contract a)), (to_string (be_dec (as_channel a))).
      split; [rewrite canonical_assemble, to_checksum_body; unfold assemble; rewrite <-!app_assoc; reflexivity|].
      split; [apply to_string_numeral|]. split; [exact Hc|]. split; [exact Hl|]. split; [apply eip55_body; auto|].
      split; [exact Hh|]. split; [exact Hb|]. apply to_string_numeral.
    - intros (d1 & hx & d2 & -> & N1 & Hc & Hl & He & Hh & Hb & N2).
      assert (Ha : bytes_ok (as_contract a) = true) by (destruct He as (_ & Hu & _); eapply unhex_inv; [apply Nat.le_refl|exact Hu]).
      apply (eip55_body keccak Hk _ _ Ha Hl) in He as ->. apply to_string_iff in N1 as <-. apply to_string_iff in N2 as <-.
      rewrite <-(parse_canonical keccak a); [|repeat split; assumption]. f_equal.
  Qed.

  (** One spelling: two accepted strings that denote the same identifier are the same string, and conversely. *)
  Theorem C50_one_spelling u v a b : parse keccak u = Ok a -> parse keccak v = Ok b -> u = v <-> a = b.
  Proof.
    intros Hu Hv. split; [intros ->; congruence|]. intros ->. apply parse_inv in Hu as [_ ->]. apply parse_inv in Hv as [_ ->]. reflexivity.
  Qed.

  (** Every channel can be named, within the length limit of the parser and far below it. *)
  Theorem C50_every_channel r id :
    rg_chain r < 2 ^ 64 -> length (rg_address r) = 20%nat -> bytes_ok (rg_address r) = true -> length id = 32%nat -> bytes_ok id = true ->
    follow_target keccak (canonical keccak (for_channel r id)) r = Some id /\
    N.of_nat (length (canonical keccak (for_channel r id))) <= 156.
  Proof.
    intros H1 H2 H3 H4 H5. assert (Hok : asset_ok (for_channel r id)) by (repeat split; assumption). split; [|apply canonical_length, Hok].
    unfold follow_target. rewrite parse_canonical by exact Hok. unfold is_in, for_channel. cbn [as_chain as_contract as_channel].
    rewrite N.eqb_refl, bool_decide_true by reflexivity. reflexivity.
  Qed.

  (** A reaction target counts as a follow of a channel iff it is that channel's one spelling: no other string follows it, and
      a string follows at most one channel of one registrar. *)
  Theorem C50_follow_iff u r id : follow_target keccak u r = Some id <->
    asset_ok (for_channel r id) /\ u = canonical keccak (for_channel r id).
  Proof.
    unfold follow_target. split.
    - destruct (parse keccak u) as [a| |] eqn:E; try discriminate. apply parse_inv in E as [Hok ->]. unfold is_in.
      destruct (N.eqb_spec (as_chain a) (rg_chain r)) as [Hc|]; [|discriminate]. cbn [andb].
      destruct (bool_decide _) eqn:Eb; [|discriminate]. apply bool_decide_eq_true_1 in Eb. intros [= <-].
      assert (Ha : for_channel r (as_channel a) = a) by (destruct a; unfold for_channel; cbn in *; congruence).
      rewrite Ha. auto.
    - intros [Hok ->]. rewrite parse_canonical by exact Hok. unfold is_in, for_channel. cbn [as_chain as_contract as_channel].
      rewrite N.eqb_refl, bool_decide_true by reflexivity. reflexivity.
  Qed.

  Theorem C50_follow_one u r1 r2 id1 id2 :
    follow_target keccak u r1 = Some id1 -> follow_target keccak u r2 = Some id2 -> r1 = r2 /\ id1 = id2.
  Proof.
    intros H1 H2. apply C50_follow_iff in H1 as [O1 H1]. apply C50_follow_iff in H2 as [O2 H2].
    assert (E : for_channel r1 id1 = for_channel r2 id2).
    { apply (C50_one_spelling (canonical keccak (for_channel r1 id1)) (canonical keccak (for_channel r2 id2))); [apply parse_canonical, O1|apply parse_canonical, O2|congruence]. }
    destruct r1, r2. unfold for_channel in E. cbn in E. split; congruence.
  Qed.
End K.

(** Where and when channel follows are switched on there is a registrar, and its address is a valid one. *)
Theorem C50_scheduled n t v : version_for t n = Some v -> is_enabled v ChannelFollows = true ->
  exists r, registrar_for n = Some r /\ rg_chain r < 2 ^ 64 /\ length (rg_address r) = 20%nat /\ bytes_ok (rg_address r) = true.
Proof.
  intros Hv He. destruct n; [exfalso| |]; try (eexists; repeat split; reflexivity).
  unfold version_for, version_at in Hv. apply fmap_Some in Hv as ([t0 v'] & Hl & ->). cbn in He.
  apply last_Some_elem_of, elem_of_list_filter in Hl as [_ Hin].
  assert (Hall : forallb (fun x : N * N => snd x <? 21) (schedule Mainnet) = true) by reflexivity.
  rewrite forallb_forall in Hall. apply elem_of_list_In in Hin. specialize (Hall _ Hin). cbn in Hall.
  apply N.leb_le in He. apply N.ltb_lt in Hall. exact (N.lt_irrefl _ (N.lt_le_trans _ _ _ Hall He)).
Qed.

(** Examples, with a stand-in for keccak: the devnet registrar and the channel with token id 260. *)
Definition k0 : bytes -> bytes := fun x => be 32 (fold_left N.add x 0 * 2 ^ 200 + 2 ^ 255).
Definition r0 : registrar := Registrar SEPOLIA_CHAIN_ID SEPOLIA_CHANNEL_REGISTRAR.
Definition id0 : bytes := repeat 0 30 ++ [1; 4].
(** "eip155:11155111/erc721:0x7Dd80c661D...BE4/260" *)
Definition u0 : bytes := canonical k0 (for_channel r0 id0).

Example C50_ex_len x : length (k0 x) = 32%nat.
Proof. apply be_length. Qed.
Example C50_ex_asset : asset_ok (for_channel r0 id0).
Proof. repeat split; reflexivity. Qed.
Example C50_ex_parse : parse k0 u0 = Ok (for_channel r0 id0) /\ follow_target k0 u0 r0 = Some id0.
Proof. split; vm_compute; reflexivity. Qed.
Example C50_ex_tail : drop 65 u0 = [47; 50; 54; 48].
Proof. vm_compute. reflexivity. Qed.
(** Near misses of the same channel: a leading zero, a plus sign, an underscore, a lower-case address, a trailing slash. *)
Example C50_ex_rejected :
  parse k0 (take 65 u0 ++ [47; 48; 50; 54; 48]) = Err InvalidTokenId /\
  parse k0 (take 65 u0 ++ [47; 50; 95; 54; 48]) = Err InvalidTokenId /\
  parse k0 (take 7 u0 ++ [43] ++ drop 7 u0) = Err InvalidChainReference /\
  parse k0 (take 7 u0 ++ [48] ++ drop 7 u0) = Err InvalidChainReference /\
  parse k0 (map lower u0) = Err InvalidContractAddress /\
  parse k0 (u0 ++ [47]) = Err MalformedAssetId.
Proof. repeat split; vm_compute; reflexivity. Qed.
Example C50_ex_scheduled : version_for 200000000 Devnet = Some 21 /\ is_enabled 21 ChannelFollows = true.
Proof. split; vm_compute; reflexivity. Qed.

Print Assumptions C50_print_parse.
Print Assumptions C50_parse_print.
Print Assumptions C50_accepted_iff.
Print Assumptions C50_one_spelling.
Print Assumptions C50_every_channel.
Print Assumptions C50_follow_iff.
Print Assumptions C50_follow_one.
Print Assumptions C50_scheduled.
