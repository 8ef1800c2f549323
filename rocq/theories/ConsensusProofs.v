(** Lemmas about validator sets, certificates, the read node, proposals and witnesses. *)
From Verif Require Export Consensus.
From Coq Require Import ZifyN ZifyNat ZifyBool.
#[local] Open Scope N_scope.

(** ** Heights *)
Lemma h_eqb_eq a b : h_eqb a b = true <-> a = b.
Proof. destruct a, b. unfold h_eqb; cbn. rewrite andb_true_iff, !N.eqb_eq. split; [intros []; congruence|intros [= -> ->]; done]. Qed.
Lemma h_eqb_neq a b : h_eqb a b = false <-> a <> b.
Proof. rewrite <- h_eqb_eq. destruct (h_eqb a b); split; congruence. Qed.
Lemma h_ltb_lt a b : h_ltb a b = true <-> a.1 < b.1 \/ (a.1 = b.1 /\ a.2 < b.2).
Proof. unfold h_ltb. lia. Qed.
Lemma h_ltb_ge a b : h_ltb a b = false <-> b.1 < a.1 \/ (a.1 = b.1 /\ b.2 <= a.2).
Proof. unfold h_ltb. lia. Qed.

Lemma beqb_eq a b : beqb a b = true <-> a = b.
Proof. unfold beqb. rewrite <- lex_eq. destruct (lex a b); split; congruence. Qed.
Lemma beqb_refl a : beqb a a = true.
Proof. by apply beqb_eq. Qed.

(** ** Building a validator set *)
Definition key_lt (a b : bytes) : Prop := blt a b = true.
Definition built (sh : N) (s : list validator) : Prop :=
  Forall (fun v => v_shard v = sh) s /\ StronglySorted key_lt (map v_key s).

Lemma v_leb_same sh a b : v_leb (Validator sh a) (Validator sh b) = ble a b.
Proof. unfold v_leb; cbn. rewrite N.ltb_irrefl, N.eqb_refl. done. Qed.

Lemma blt_of_ble_neq a b : ble a b = false -> key_lt b a.
Proof. unfold key_lt. intros E. rewrite blt_ble. by rewrite E. Qed.
Lemma key_lt_trans a b c : key_lt a b -> key_lt b c -> key_lt a c.
Proof. apply blt_trans. Qed.

Lemma v_insert_keys sh k s : forall x, x ∈ map v_key (v_insert (Validator sh k) s) <-> x = k \/ x ∈ map v_key s.
Proof.
  induction s as [|y r IH]; intros x; cbn; [set_solver|].
  destruct (v_leb y (Validator sh k)); cbn; rewrite ?elem_of_cons, ?IH; rewrite ?elem_of_cons; tauto.
Qed.

Lemma v_insert_built sh k s : built sh s -> k ∉ map v_key s -> built sh (v_insert (Validator sh k) s).
Proof.
  unfold built. induction s as [|y r IH]; intros [Hf Hs] Hn; cbn.
  - split; [by repeat constructor|]. repeat constructor.
  - apply Forall_cons in Hf as [Hy Hf]. cbn in Hs. apply StronglySorted_inv in Hs as [Hs Hall].
    destruct y as [ys yk]; cbn in Hy, Hn, Hall. subst ys. rewrite v_leb_same.
    apply not_elem_of_cons in Hn as [Hk Hn].
    destruct (ble yk k) eqn:E.
    + destruct (IH (conj Hf Hs) Hn) as [IH1 IH2]. split; [by constructor|]. cbn. constructor; [done|].
      apply Forall_forall. intros x Hx. apply v_insert_keys in Hx as [->|Hx].
      * apply ble_eq_or_lt in E as [->|E]; [done|done].
      * rewrite Forall_forall in Hall. by apply Hall.
    + split; [by repeat constructor|]. cbn. apply blt_of_ble_neq in E. constructor.
      * constructor; [done|]. done.
      * constructor; [done|]. rewrite Forall_forall in Hall |- *. intros x Hx. eapply key_lt_trans; [exact E|]. by apply Hall.
Qed.

Lemma existsb_key k (s : list validator) : existsb (fun v => beqb (v_key v) k) s = true <-> k ∈ map v_key s.
Proof.
  rewrite existsb_exists. setoid_rewrite beqb_eq. rewrite elem_of_list_fmap. setoid_rewrite elem_of_list_In. naive_solver.
Qed.

Lemma v_add_built sh k s : built sh s ->
  built sh (v_add s (Validator sh k)) /\ forall x, x ∈ map v_key (v_add s (Validator sh k)) <-> x = k \/ x ∈ map v_key s.
Proof.
  intros Hb. unfold v_add. cbn [v_key v_shard]. destruct (existsb _ _) eqn:E.
  - apply existsb_key in E. split; [done|]. intros x. split; [tauto|]. intros [-> | Hx]; done.
  - assert (Hn : k ∉ map v_key s) by (rewrite <- existsb_key; congruence).
    destruct s as [|y r].
    + split; [|cbn; set_solver]. split; repeat constructor.
    + destruct Hb as [Hf Hs]. apply Forall_cons in Hf as Hf'. destruct Hf' as [Hy _]. rewrite Hy, N.eqb_refl.
      split; [by apply v_insert_built|]. apply v_insert_keys.
Qed.

Lemma v_build_spec sh ks : built sh (v_build sh ks) /\ forall x, x ∈ map v_key (v_build sh ks) <-> x ∈ ks.
Proof.
  unfold v_build.
  assert (H : forall s, built sh s -> built sh (fold_left (fun s k => v_add s (Validator sh k)) ks s) /\
    forall x, x ∈ map v_key (fold_left (fun s k => v_add s (Validator sh k)) ks s) <-> x ∈ ks \/ x ∈ map v_key s).
  { induction ks as [|k r IH]; intros s Hs; cbn; [set_solver|].
    destruct (v_add_built sh k s Hs) as [H1 H2]. destruct (IH _ H1) as [H3 H4]. split; [done|].
    intros x. rewrite H4, H2, elem_of_cons. tauto. }
  destruct (H [] ltac:(split; constructor)) as [H1 H2]. split; [done|]. intros x. rewrite H2. set_solver.
Qed.

Lemma sorted_key_ext (l1 l2 : list bytes) : StronglySorted key_lt l1 -> StronglySorted key_lt l2 ->
  (forall x, x ∈ l1 <-> x ∈ l2) -> l1 = l2.
Proof.
  revert l2. induction l1 as [|a r1 IH]; intros [|b r2] H1 H2 He; [done| | |].
  - exfalso. apply (not_elem_of_nil b). apply He. left.
  - exfalso. apply (not_elem_of_nil a). apply He. left.
  - apply StronglySorted_inv in H1 as [H1 A1], H2 as [H2 A2]. rewrite Forall_forall in A1, A2.
    assert (a = b) as <-.
    { assert (Ha : a ∈ b :: r2) by (apply He; left). assert (Hb : b ∈ a :: r1) by (apply He; left).
      apply elem_of_cons in Ha as [->|Ha]; [done|]. apply elem_of_cons in Hb as [->|Hb]; [done|].
      apply A2 in Ha. apply A1 in Hb. pose proof (key_lt_trans _ _ _ Ha Hb) as Hx. unfold key_lt in Hx. rewrite blt_irrefl in Hx. done. }
    f_equal. apply IH; [done|done|]. intros x. specialize (He x). rewrite !elem_of_cons in He. split; intros Hx.
    + destruct (proj1 He (or_intror Hx)) as [->|?]; [|done]. apply A1 in Hx. unfold key_lt in Hx. by rewrite blt_irrefl in Hx.
    + destruct (proj2 He (or_intror Hx)) as [->|?]; [|done]. apply A2 in Hx. unfold key_lt in Hx. by rewrite blt_irrefl in Hx.
Qed.

Lemma key_lt_NoDup l : StronglySorted key_lt l -> NoDup l.
Proof.
  induction 1 as [|a r Hs IH Ha]; constructor; [|done]. intros Hin. rewrite Forall_forall in Ha. apply Ha in Hin.
  unfold key_lt in Hin. by rewrite blt_irrefl in Hin.
Qed.

Lemma built_keys_inj sh s1 s2 : built sh s1 -> built sh s2 -> map v_key s1 = map v_key s2 -> s1 = s2.
Proof.
  intros [H1 _] [H2 _]. revert s2 H2. induction s1 as [|x r IH]; intros [|y r2] H2 E; try done.
  cbn in E. injection E as E1 E2. apply Forall_cons in H1 as [Hx H1], H2 as [Hy H2].
  f_equal; [|by apply IH]. destruct x, y; cbn in *; congruence.
Qed.

Lemma v_build_ext sh ks1 ks2 : (forall x, x ∈ ks1 <-> x ∈ ks2) -> v_build sh ks1 = v_build sh ks2.
Proof.
  intros He. destruct (v_build_spec sh ks1) as [B1 E1], (v_build_spec sh ks2) as [B2 E2].
  apply (built_keys_inj sh); [done|done|]. apply sorted_key_ext; [apply B1|apply B2|].
  intros x. rewrite E1, E2. apply He.
Qed.

(** ** Choosing the set of a height *)
Lemma pick_fold sh h l r0 :
  let r := fold_left (pick sh h) l r0 in
  (r = r0 \/ (r ∈ l /\ eligible sh h r = true /\ vs_effective r0 < vs_effective r)) /\ vs_effective r0 <= vs_effective r /\
  forall c, c ∈ l -> eligible sh h c = true -> vs_effective c <= vs_effective r.
Proof.
  revert r0. induction l as [|c l IH]; intros r0; cbn -[pick]; [split; [by left|]; split; [lia|]; set_solver|].
  specialize (IH (pick sh h r0 c)). cbn -[pick] in IH. destruct IH as (IH1 & IH2 & IH3).
  assert (Hp : (pick sh h r0 c = r0 /\ (eligible sh h c = true -> vs_effective c <= vs_effective r0)) \/
               (pick sh h r0 c = c /\ eligible sh h c = true /\ vs_effective r0 < vs_effective c)).
  { unfold pick. destruct (eligible sh h c) eqn:El; cbn; [|by left].
    destruct (vs_effective r0 <? vs_effective c) eqn:E; [right|left]; repeat split; lia. }
  destruct Hp as [[E Hc]|(E & El & Hlt)]; rewrite E in *.
  - split; [|split; [done|]].
    + destruct IH1 as [->|(Hi & ?)]; [by left|right; split; [by right|done]].
    + intros x Hx. apply elem_of_cons in Hx as [->|Hx]; [|by apply IH3]. intros Hx. specialize (Hc Hx). lia.
  - split; [|split; [lia|]].
    + right. destruct IH1 as [->|(Hi & He & Hl)]; [split; [left|done]|]. split; [by right|]. split; [done|lia].
    + intros x Hx. apply elem_of_cons in Hx as [->|Hx]; [lia|by apply IH3].
Qed.

(** ** Certificates *)
Lemma take_until_sub k l r : take_until k l = Some r -> forall s, k :: s `sublist_of` l <-> s `sublist_of` r.
Proof.
  revert r. induction l as [|x l IH]; intros r; cbn; [done|]. destruct (beqb x k) eqn:E.
  - apply beqb_eq in E as ->. intros [= ->] s. split.
    + intros H. inversion H; subst; [done|]. by eapply sublist_cons_l in H2 as (l1 & l2 & -> & H2); apply sublist_inserts_l, sublist_cons.
    + intros H. by constructor.
  - intros H s. rewrite <- (IH _ H). split.
    + intros Hs. inversion Hs; subst; [|done]. by rewrite beqb_refl in E.
    + intros Hs. by constructor.
Qed.
Lemma take_until_None k l : take_until k l = None <-> k ∉ l.
Proof.
  induction l as [|x l IH]; cbn; [set_solver|]. destruct (beqb x k) eqn:E.
  - apply beqb_eq in E as ->. split; [done|set_solver].
  - rewrite IH, not_elem_of_cons. assert (k <> x) by (intros ->; by rewrite beqb_refl in E). tauto.
Qed.

Definition sig_valid (sig_ok : bytes -> vote -> bytes -> bool) (c : cert) (s : csig) : bool :=
  sig_ok (sg_addr s) (Precommit (ct_height c) (ct_round c) (ct_value c) (sg_addr s)) (sg_sig s).
Lemma check_sigs_iff sig_ok c sigs expected :
  check_sigs sig_ok c sigs expected = true <->
  map sg_addr sigs `sublist_of` expected /\ Forall (fun s => sig_valid sig_ok c s = true) sigs.
Proof.
  revert expected. induction sigs as [|s r IH]; intros ex; cbn.
  - split; [|done]. intros _. split; [apply sublist_nil_l|constructor].
  - destruct (take_until (sg_addr s) ex) as [rest|] eqn:E.
    + rewrite (take_until_sub _ _ _ E), andb_true_iff, IH, Forall_cons. unfold sig_valid. tauto.
    + split; [done|]. intros [H _]. apply take_until_None in E. exfalso. apply E.
      eapply elem_of_submseteq; [left|]. by apply sublist_submseteq.
Qed.

(** ** The read node *)
Section ReadNode.
  Context (sig_ok : bytes -> vote -> bytes -> bool) {E : Type} (apply : E -> dvalue -> option E) (my_kind : kind).
  Context (shard : N) (sets : list vset) (max_buf : N).
  Notation process := (process sig_ok E apply my_kind shard sets max_buf).
  Notation read_run := (read_run sig_ok E apply my_kind shard sets max_buf).
  Notation commit_value := (commit_value E apply my_kind).
  Notation drain := (drain E apply my_kind).

  (** The value passed the signature and version checks. *)
  Definition accepted (v : dvalue) : Prop :=
    dv_version_ok v = true /\ exists cm, dv_commits v = Some cm /\ verify_signatures sig_ok shard sets cm = Some true.

  (** Applying values one after the other. *)
  Definition apply_all (e : E) (vs : list dvalue) : option E := foldl (fun o v => e ← o; apply e v) (Some e) vs.
  Lemma apply_all_snoc e vs v : apply_all e (vs ++ [v]) = (e' ← apply_all e vs; apply e' v).
  Proof. unfold apply_all. by rewrite foldl_snoc. Qed.

  (** [arr] is everything that arrived so far. *)
  Record rinv (e0 : E) (h0 : height) (arr : list dvalue) (s : rnode E) : Prop := RInv {
    ri_last : rn_last s = (h0.1, h0.2 + N.of_nat (length (rn_log s)));
    ri_log : forall i v, rn_log s !! i = Some v -> dv_height v = Some (h0.1, h0.2 + 1 + N.of_nat i);
    ri_engine : apply_all e0 (rn_log s) = Some (rn_engine s);
    ri_acc : forall v, v ∈ rn_log s -> v ∈ arr /\ accepted v /\ dv_kind v = my_kind;
    ri_buf : forall h v, (h, v) ∈ rn_buf s -> v ∈ arr /\ accepted v /\ dv_height v = Some h }.

  Lemma buf_insert_elem h v b x : x ∈ buf_insert h v b -> x = (h, v) \/ x ∈ b.
  Proof.
    induction b as [|[h' v'] r IH]; cbn; [set_solver|]. destruct (h_eqb h h'); [set_solver|].
    destruct (h_ltb h h'); [set_solver|]. rewrite !elem_of_cons. tauto.
  Qed.

  Lemma commit_value_inv e0 h0 arr s v s' : rinv e0 h0 arr s -> v ∈ arr -> accepted v ->
    dv_height v = Some (h_inc (rn_last s)) -> commit_value s (h_inc (rn_last s)) v = Some s' ->
    rinv e0 h0 arr s' /\ rn_log s' = rn_log s ++ [v] /\ rn_buf s' = rn_buf s /\ rn_last s' = h_inc (rn_last s).
  Proof.
    intros Hi Hv Ha Hh. unfold Consensus.commit_value. destruct (kind_eqb _ _) eqn:K; [|done].
    destruct (apply (rn_engine s) v) as [e|] eqn:Ee; [|done]. cbn. intros [= <-].
    split; [|done]. destruct Hi. split; cbn [rn_last rn_log rn_engine rn_buf].
    - rewrite ri_last0. unfold h_inc; cbn. rewrite app_length; cbn. f_equal. lia.
    - intros i w Hw. apply lookup_app_Some in Hw as [Hw|[Hlen Hw]]; [by apply ri_log0|].
      apply list_lookup_singleton_Some in Hw as [Hz <-]. rewrite Hh, ri_last0. unfold h_inc; cbn. do 2 f_equal. lia.
    - by rewrite apply_all_snoc, ri_engine0.
    - intros w [Hw|Hw%elem_of_list_singleton]%elem_of_app; [by apply ri_acc0|]. subst w. split; [done|]. split; [done|].
      destruct (dv_kind v), my_kind; done.
    - done.
  Qed.

  Lemma set_buf_inv e0 h0 arr s b : rinv e0 h0 arr s -> (forall h v, (h, v) ∈ b -> v ∈ arr /\ accepted v /\ dv_height v = Some h) ->
    rinv e0 h0 arr (set_buf s b).
  Proof. intros [] Hb. by split. Qed.

  Lemma drain_inv e0 h0 arr b : forall s s', rinv e0 h0 arr s ->
    (forall h v, (h, v) ∈ b -> v ∈ arr /\ accepted v /\ dv_height v = Some h) -> drain b s = Some s' -> rinv e0 h0 arr s'.
  Proof.
    induction b as [|[h v] r IH]; intros s s' Hi Hb; cbn.
    - intros [= <-]. apply set_buf_inv; [done|]. set_solver.
    - destruct (h_eqb h (h_inc (rn_last s))) eqn:Eh.
      + apply h_eqb_eq in Eh. destruct (commit_value s h v) as [s1|] eqn:Ec; [|done]. cbn. intros Hd.
        destruct (Hb h v ltac:(left)) as (H1 & H2 & H3). subst h.
        destruct (commit_value_inv _ _ _ _ _ _ Hi H1 H2 H3 Ec) as (Hi1 & _). apply (IH s1 s'); [done| |done].
        intros h' v' Hin. apply Hb. by right.
      + destruct (h_ltb _ _).
        * intros [= <-]. by apply set_buf_inv.
        * apply IH; [done|]. intros h' v' Hin. apply Hb. by right.
  Qed.

  Lemma rinv_more e0 h0 arr arr' s : rinv e0 h0 arr s -> (forall v, v ∈ arr -> v ∈ arr') -> rinv e0 h0 arr' s.
  Proof.
    intros [] Hm. split; try done.
    - intros v Hv. destruct (ri_acc0 v Hv) as (? & ?). split; [by apply Hm|done].
    - intros h v Hv. destruct (ri_buf0 h v Hv) as (? & ?). split; [by apply Hm|done].
  Qed.

  Lemma process_inv e0 h0 arr s v s' : rinv e0 h0 arr s -> process s v = Some s' -> rinv e0 h0 (arr ++ [v]) s'.
  Proof.
    intros Hi0. assert (Hi : rinv e0 h0 (arr ++ [v]) s) by (eapply rinv_more; [done|]; intros; apply elem_of_app; by left). clear Hi0.
    unfold Consensus.process. destruct (dv_height v) as [h|] eqn:Hh; [|done]. destruct (dv_commits v) as [cm|] eqn:Hc; [|done].
    destruct (verify_signatures sig_ok shard sets cm) as [ok|] eqn:Hv; [|done]. cbn.
    destruct ok; cbn; [|by intros [= <-]]. destruct (dv_version_ok v) eqn:Ev; cbn; [|by intros [= <-]].
    assert (Ha : accepted v) by (split; [done|]; eauto).
    assert (Hin : v ∈ arr ++ [v]) by (apply elem_of_app; right; left).
    destruct (h_ltb _ h).
    - intros [= <-]. destruct (_ <? _); [|done]. apply set_buf_inv; [done|]. intros h' v' Hx.
      apply buf_insert_elem in Hx as [[= -> ->]|Hx]; [done|]. by apply (ri_buf _ _ _ _ Hi).
    - destruct (h_eqb h _) eqn:Eh; [|by intros [= <-]]. apply h_eqb_eq in Eh. subst h.
      destruct (commit_value s _ v) as [s1|] eqn:Ec; [|done]. cbn. intros Hd.
      destruct (commit_value_inv _ _ _ _ _ _ Hi Hin Ha Hh Ec) as (Hi1 & _ & Hb1 & _).
      eapply drain_inv; [exact Hi1| |exact Hd]. intros h' v' Hx. rewrite Hb1 in Hx. by apply (ri_buf _ _ _ _ Hi).
  Qed.

  Lemma read_run_inv e0 h0 vs : forall arr s s', rinv e0 h0 arr s -> read_run s vs = Some s' -> rinv e0 h0 (arr ++ vs) s'.
  Proof.
    induction vs as [|v r IH]; intros arr s s' Hi; cbn.
    - intros [= <-]. by rewrite app_nil_r.
    - destruct (process s v) as [s1|] eqn:E1; [|done]. cbn. intros Hr.
      change (v :: r) with ([v] ++ r). rewrite app_assoc. eapply IH; [|done]. by eapply process_inv.
  Qed.

  Definition rstart (e0 : E) (h0 : height) : rnode E := RNode e0 h0 [] [].
  Lemma rstart_inv e0 h0 : rinv e0 h0 [] (rstart e0 h0).
  Proof.
    split; cbn; try done; try set_solver.
    destruct h0; cbn. f_equal. lia.
  Qed.

  (** *** Nothing that arrived is lost while the buffer has room *)
  Definition bkey_lt (a b : height * dvalue) : Prop := h_ltb a.1 b.1 = true.
  Record linv (h0 : height) (arr : list dvalue) (s : rnode E) : Prop := LInv {
    li_sorted : StronglySorted bkey_lt (rn_buf s);
    li_above : forall h v, (h, v) ∈ rn_buf s -> h_ltb (h_inc (rn_last s)) h = true;
    li_len : (length (rn_buf s) <= length arr)%nat;
    li_kept : forall v h, v ∈ arr -> accepted v -> dv_height v = Some h -> h_ltb (rn_last s) h = true -> h ∈ map fst (rn_buf s) }.

  Lemma h_ltb_trans a b c : h_ltb a b = true -> h_ltb b c = true -> h_ltb a c = true.
  Proof. unfold h_ltb. lia. Qed.
  Lemma h_tri a b : h_eqb a b = false -> h_ltb a b = false -> h_ltb b a = true.
  Proof. unfold h_eqb, h_ltb. lia. Qed.

  Lemma buf_insert_sorted h v b : StronglySorted bkey_lt b -> StronglySorted bkey_lt (buf_insert h v b).
  Proof.
    induction 1 as [|[h' v'] r Hs IH Hall]; cbn; [repeat constructor|].
    destruct (h_eqb h h') eqn:E1; [apply h_eqb_eq in E1 as <-; by constructor|].
    destruct (h_ltb h h') eqn:E2.
    - constructor; [by constructor|]. constructor; [done|]. rewrite Forall_forall in Hall |- *. intros x Hx.
      eapply h_ltb_trans; [exact E2|]. by apply Hall.
    - constructor; [done|]. apply Forall_forall. intros x Hx. apply buf_insert_elem in Hx as [->|Hx].
      + by apply h_tri.
      + rewrite Forall_forall in Hall. by apply Hall.
  Qed.
  Lemma buf_insert_keys h v b x : x ∈ map fst (buf_insert h v b) <-> x = h \/ x ∈ map fst b.
  Proof.
    induction b as [|[h' v'] r IH]; cbn; [set_solver|]. destruct (h_eqb h h') eqn:E1.
    - apply h_eqb_eq in E1 as <-. cbn. rewrite !elem_of_cons. tauto.
    - destruct (h_ltb h h'); cbn; rewrite !elem_of_cons; [tauto|]. rewrite IH. tauto.
  Qed.
  Lemma buf_insert_length h v b : (length (buf_insert h v b) <= S (length b))%nat.
  Proof.
    induction b as [|[h' v'] r IH]; cbn; [lia|]. destruct (h_eqb h h'); cbn; [lia|]. destruct (h_ltb h h'); cbn; lia.
  Qed.

  (** Draining a sorted list of entries: everything above the final height stays. *)
  Lemma drain_keeps b : forall s s', StronglySorted bkey_lt b -> drain b s = Some s' ->
    StronglySorted bkey_lt (rn_buf s') /\ (forall h v, (h, v) ∈ rn_buf s' -> h_ltb (h_inc (rn_last s')) h = true) /\
    (length (rn_buf s') <= length b)%nat /\
    (forall h, h ∈ map fst b -> h_ltb (rn_last s') h = true -> h ∈ map fst (rn_buf s')) /\
    (rn_last s).1 = (rn_last s').1 /\ (rn_last s).2 <= (rn_last s').2.
  Proof.
    induction b as [|[h v] r IH]; intros s s' Hs; cbn.
    - intros [= <-]. cbn. repeat split; try done; try constructor; set_solver.
    - apply StronglySorted_inv in Hs as [Hs Hall]. destruct (h_eqb h (h_inc (rn_last s))) eqn:Eh.
      + apply h_eqb_eq in Eh. destruct (commit_value s h v) as [s1|] eqn:Ec; [|done]. cbn. intros Hd.
        destruct (IH s1 s' Hs Hd) as (A & B & C & D & F & G).
        assert (Hl : rn_last s1 = h).
        { revert Ec. unfold Consensus.commit_value. destruct (kind_eqb _ _); [|done]. destruct (apply _ _); [|done]. cbn. by intros [= <-]. }
        split; [done|]. split; [done|]. split; [lia|]. split.
        * intros x Hx Hlt. apply elem_of_cons in Hx as [->|Hx]; [|by apply D]. exfalso.
          rewrite Hl in F, G. apply h_ltb_lt in Hlt. rewrite Eh in *. lia.
        * rewrite Hl, Eh in F, G. unfold h_inc in F, G; cbn in F, G. split; [done|lia].
      + destruct (h_ltb (h_inc (rn_last s)) h) eqn:El.
        * intros [= <-]. cbn. split; [by constructor|]. split.
          { intros h' v' [[= -> ->]|Hx]%elem_of_cons; [done|]. rewrite Forall_forall in Hall. eapply h_ltb_trans; [exact El|]. by apply (Hall (h', v')). }
          split; [lia|]. done.
        * intros Hd. destruct (IH s s' Hs Hd) as (A & B & C & D & F & G). split; [done|]. split; [done|]. split; [lia|]. split; [|done].
          intros x Hx Hlt. apply elem_of_cons in Hx as [->|Hx]; [|by apply D]. exfalso.
          apply h_ltb_ge in El. apply h_ltb_lt in Hlt. apply h_eqb_neq in Eh. destruct h as [h1 h2], (rn_last s) as [l1 l2], (rn_last s') as [m1 m2]. unfold h_inc in *; cbn in *.
          apply Eh. f_equal; [lia|]. destruct (N.eq_dec h2 (l2 + 1)); [done|]. lia.
  Qed.

  Lemma process_linv h0 arr s v s' : (length arr < N.to_nat max_buf)%nat -> linv h0 arr s -> process s v = Some s' -> linv h0 (arr ++ [v]) s'.
  Proof.
    intros Hcap [A B C D]. unfold Consensus.process.
    destruct (dv_height v) as [h|] eqn:Hh; [|done]. destruct (dv_commits v) as [cm|] eqn:Hc; [|done].
    destruct (verify_signatures sig_ok shard sets cm) as [ok|] eqn:Hv; [|done]. cbn.
    assert (Hsame : (accepted v -> h_ltb (rn_last s) h = true -> h ∈ map fst (rn_buf s)) -> linv h0 (arr ++ [v]) s).
    { intros Hx. split; [done|done|rewrite app_length; lia|]. intros w g [Hw|Hw%elem_of_list_singleton]%elem_of_app Hacc Hg Hlt; [by eapply D|].
      subst w. rewrite Hh in Hg. injection Hg as <-. by apply Hx. }
    destruct ok; cbn.
    2:{ intros [= <-]. apply Hsame. intros (_ & cm' & Hcm & Hve). rewrite Hc in Hcm. injection Hcm as <-. congruence. }
    destruct (dv_version_ok v) eqn:Ev; cbn.
    2:{ intros [= <-]. apply Hsame. intros (? & _). congruence. }
    destruct (h_ltb (h_inc (rn_last s)) h) eqn:El.
    - intros [= <-]. assert (Hroom : N.of_nat (length (rn_buf s)) <? max_buf = true) by lia. rewrite Hroom.
      split; cbn.
      + by apply buf_insert_sorted.
      + intros h' v' Hx. apply buf_insert_elem in Hx as [[= -> ->]|Hx]; [done|]. by eapply B.
      + pose proof (buf_insert_length h v (rn_buf s)). rewrite app_length; cbn. lia.
      + intros w g [Hw|Hw%elem_of_list_singleton]%elem_of_app Hacc Hg Hlt; apply buf_insert_keys.
        * right. by eapply D.
        * subst w. rewrite Hh in Hg. injection Hg as <-. by left.
    - destruct (h_eqb h (h_inc (rn_last s))) eqn:Eh.
      + apply h_eqb_eq in Eh. destruct (commit_value s h v) as [s1|] eqn:Ec; [|done]. cbn. intros Hd.
        assert (Hl : rn_last s1 = h /\ rn_buf s1 = rn_buf s).
        { revert Ec. unfold Consensus.commit_value. destruct (kind_eqb _ _); [|done]. destruct (apply _ _); [|done]. cbn. by intros [= <-]. }
        destruct Hl as [Hl Hb]. rewrite Hb in Hd. destruct (drain_keeps _ _ _ A Hd) as (A' & B' & C' & D' & F & G).
        split; [done|done|rewrite app_length; lia|].
        intros w g [Hw|Hw%elem_of_list_singleton]%elem_of_app Hacc Hg Hlt.
        * apply D'; [|done]. eapply D; [done|done|done|]. rewrite Hl in F, G. apply h_ltb_lt in Hlt. apply h_ltb_lt. rewrite Eh in F, G. unfold h_inc in F, G; cbn in F, G.
          rewrite <- F in Hlt. lia.
        * subst w. rewrite Hh in Hg. injection Hg as <-. exfalso. apply h_ltb_lt in Hlt. rewrite Hl in F, G. lia.
      + intros [= <-]. apply Hsame. intros _ Hlt. exfalso. apply h_ltb_ge in El. apply h_eqb_neq in Eh. apply h_ltb_lt in Hlt.
        destruct h as [h1 h2], (rn_last s) as [l1 l2]. unfold h_inc in *; cbn in *. apply Eh. f_equal; lia.
  Qed.

  Lemma read_run_linv h0 vs : forall arr s s', (length arr + length vs <= N.to_nat max_buf)%nat -> linv h0 arr s -> read_run s vs = Some s' -> linv h0 (arr ++ vs) s'.
  Proof.
    induction vs as [|v r IH]; intros arr s s' Hcap Hi; cbn.
    - intros [= <-]. by rewrite app_nil_r.
    - cbn in Hcap. destruct (process s v) as [s1|] eqn:E1; [|done]. cbn. intros Hr.
      change (v :: r) with ([v] ++ r). rewrite app_assoc. eapply IH; [|eapply process_linv|done]; [rewrite app_length; cbn; lia| |exact Hi|exact E1]. lia.
  Qed.
  Lemma rstart_linv e0 h0 : linv h0 [] (rstart e0 h0).
  Proof. split; cbn; [constructor|set_solver|lia|set_solver]. Qed.
End ReadNode.

(** ** Proposals *)
#[global] Instance pvals_eq_dec : EqDecision pvals.
Proof. solve_decision. Defined.
Lemma fold_delete_sub (ks : list shash) (m : gmap shash proposal) k p :
  fold_left (fun m k => delete k m) ks m !! k = Some p -> m !! k = Some p.
Proof.
  revert m. induction ks as [|x r IH]; intros m; cbn; [done|]. intros H. apply IH in H. by apply lookup_delete_Some in H as [_ H].
Qed.
Lemma pv_decide_sub s h k p : pv_values (pv_decide s h) !! k = Some p -> pv_values s !! k = Some p.
Proof. apply fold_delete_sub. Qed.
Lemma pv_add_lookup s p k q : pv_values (pv_add s p) !! k = Some q -> (k = p_id p /\ q = p) \/ pv_values s !! k = Some q.
Proof. cbn. intros H. apply lookup_insert_Some in H as [[<- <-]|[_ H]]; auto. Qed.

Section ProposerRuns.
  Context {E : Type} (confirmed : E -> height) (validate : E -> proposal -> bool) (commit : E -> proposal -> option E).
  Notation prun := (prun E confirmed validate commit).
  Notation pstep := (pstep E confirmed validate commit).
  Notation trace := (list (pnode E * pinput * poutput)).

  (** This node built the proposal itself. *)
  Definition own (t : trace) (p : proposal) : Prop := exists s, (s, IPropose p, OPropose) ∈ t.
  (** This node checked the proposal against the engine state of that moment and answered valid. *)
  Definition checked (t : trace) (e : E) (p : proposal) : Prop :=
    exists s, (s, IReceive p, OVerdict Valid) ∈ t /\ pn_engine s = e /\ validate e p = true /\ p_hdr p = h_inc (confirmed e).
  (** The proposal reached this node. *)
  Definition seen (t : trace) (p : proposal) : Prop := own t p \/ exists s o, (s, IReceive p, o) ∈ t.

  (** What holds of every stored value, for a class [P] of traces and proposals that only grows. *)
  Definition stored_inv (P : trace -> proposal -> Prop) (t : trace) (s : pnode E) : Prop :=
    forall k p, pv_values (pn_vals s) !! k = Some p -> p_id p = k /\ P t p.

  Lemma decide_commit my s c s' p : decide_value E commit my s c = (s', DCommit p) ->
    pv_values (pn_vals s) !! ct_value c = Some p /\ commit (pn_engine s) p = Some (pn_engine s') /\ s' = PNode (pn_engine s') (pv_decide (pn_vals s) (ct_height c)).
  Proof.
    unfold decide_value. destruct (ct_sigs c); [done|]. destruct (_ !! _) as [q|] eqn:Eq; [|done].
    destruct (negb _); [done|]. destruct (commit _ q) as [e|] eqn:Ee; [|done]. intros [= <- <-]. done.
  Qed.
  Lemma decide_other my s c s' d : decide_value E commit my s c = (s', d) -> (exists p, d = DCommit p) \/ s' = s.
  Proof.
    unfold decide_value. destruct (ct_sigs c); [intros [= <- <-]; by right|]. destruct (_ !! _) as [q|] eqn:Eq; [|intros [= <- <-]; by right].
    destruct (negb _); [intros [= <- <-]; by right|]. destruct (commit _ q) as [e|]; intros [= <- <-]; eauto.
  Qed.

  Lemma stored_step (P : trace -> proposal -> Prop) k my t s i s' o :
    (forall t1 x p, P t1 p -> P (t1 ++ [x]) p) ->
    (forall p, i = IPropose p -> P (t ++ [(s, i, o)]) p) ->
    (forall p, i = IReceive p -> pn_vals s' <> pn_vals s -> P (t ++ [(s, i, o)]) p) ->
    stored_inv P t s -> pstep k my s i = (s', o) -> stored_inv P (t ++ [(s, i, o)]) s'.
  Proof.
    intros Hmono Hown Hrecv Hi. destruct i as [p|p|c]; cbn.
    - intros [= <- <-] k' q Hq. apply pv_add_lookup in Hq as [[-> ->]|Hq]; [split; [done|by apply Hown]|].
      destruct (Hi _ _ Hq). split; [done|by apply Hmono].
    - destruct (negb _).
      + intros [= <- <-] k' q Hq. destruct (Hi _ _ Hq). split; [done|by apply Hmono].
      + destruct (padd _ _ _ _ s p) as [s1 v] eqn:Ep. intros [= <- <-].
        assert (Hs1 : pn_vals s1 = pn_vals s \/ pn_vals s1 = pv_add (pn_vals s) p).
        { destruct k; cbn in Ep; unfold block_add, shard_add in Ep; destruct (p_kind p); repeat (destruct (negb _) || destruct (validate _ _)); injection Ep as <- <-; cbn; auto. }
        intros k' q Hq. destruct (decide (pn_vals s1 = pn_vals s)) as [E1|E1]; [|].
        * rewrite E1 in Hq. destruct (Hi _ _ Hq). split; [done|by apply Hmono].
        * destruct Hs1 as [?|E2]; [done|]. rewrite E2 in Hq. apply pv_add_lookup in Hq as [[-> ->]|Hq]; [split; [done|by apply Hrecv]|].
          destruct (Hi _ _ Hq). split; [done|by apply Hmono].
    - destruct (decide_value _ _ my s c) as [s1 d] eqn:Ed. intros [= <- <-] k' q Hq.
      assert (Hq' : pv_values (pn_vals s) !! k' = Some q).
      { destruct (decide_other _ _ _ _ _ Ed) as [[p ->]| ->]; [|done].
        apply decide_commit in Ed as (_ & _ & Es1). rewrite Es1 in Hq. cbn [pn_vals] in Hq. by apply pv_decide_sub in Hq. }
      destruct (Hi _ _ Hq'). split; [done|by apply Hmono].
  Qed.

  (** Whatever is committed was stored, with the class of its trace. *)
  Lemma commit_stored (P : trace -> proposal -> Prop) k my :
    (forall t1 x p, P t1 p -> P (t1 ++ [x]) p) ->
    (forall t s o p, P (t ++ [(s, IPropose p, o)]) p \/ o <> OPropose) ->
    (forall t s s' o p, pstep k my s (IReceive p) = (s', o) -> pn_vals s' <> pn_vals s -> P (t ++ [(s, IReceive p, o)]) p) ->
    forall is t0 s0 t sf, stored_inv P t0 s0 -> prun k my s0 is = (t, sf) ->
    forall t1 s c p t2, t = t1 ++ (s, IDecide c, ODecide (DCommit p)) :: t2 -> p_id p = ct_value c /\ P (t0 ++ t1) p.
  Proof.
    intros Hmono Hown Hrecv. induction is as [|i r IH]; intros t0 s0 t sf Hi; cbn.
    - intros [= <- <-] t1 ? ? ? ? H. by destruct t1.
    - destruct (pstep k my s0 i) as [s1 o] eqn:Es. destruct (prun k my s1 r) as [tr sr] eqn:Er. intros [= <- <-] t1 s c p t2 Ht.
      destruct t1 as [|x t1]; cbn in Ht.
      + injection Ht as -> -> -> _. cbn in Es. destruct (decide_value _ _ my s c) as [s2 d] eqn:Ed. injection Es as -> ->.
        apply decide_commit in Ed as (Hl & _). rewrite app_nil_r. by apply Hi.
      + injection Ht as <- Ht. replace (t0 ++ (s0, i, o) :: t1) with ((t0 ++ [(s0, i, o)]) ++ t1) by (by rewrite <- app_assoc).
        eapply IH; [|exact Er|exact Ht]. eapply stored_step; [done| | |done|exact Es].
        * intros q ->. destruct (Hown t0 s0 o q) as [?|Ho]; [done|]. cbn in Es. injection Es as <- <-. done.
        * intros q -> Hne. by eapply Hrecv.
  Qed.

  Lemma own_mono t x p : own t p -> own (t ++ [x]) p.
  Proof. intros [s H]. exists s. apply elem_of_app. by left. Qed.
  Lemma checked_mono t x e p : checked t e p -> checked (t ++ [x]) e p.
  Proof. intros (s & H & ?). exists s. split; [|done]. apply elem_of_app. by left. Qed.
  Lemma own_now t s p : own (t ++ [(s, IPropose p, OPropose)]) p.
  Proof. exists s. apply elem_of_app. right. left. Qed.

  Definition pstart (e : E) : pnode E := PNode e pv_empty.
  Lemma pstart_stored P e : stored_inv P [] (pstart e).
  Proof. intros k p. cbn. by rewrite lookup_empty. Qed.

  Lemma block_committed my e0 is t sf t1 s c p t2 :
    prun KBlock my (pstart e0) is = (t, sf) -> t = t1 ++ (s, IDecide c, ODecide (DCommit p)) :: t2 ->
    p_id p = ct_value c /\ (own t1 p \/ exists e, checked t1 e p).
  Proof.
    intros Hr Ht. change t1 with ([] ++ t1). eapply (commit_stored (fun t p => own t p \/ exists e, checked t e p) KBlock my); [| | |apply pstart_stored|exact Hr|exact Ht].
    - intros t' x q [H|[e H]]; [left; by apply own_mono|right; exists e; by apply checked_mono].
    - intros t' s' o q. destruct o; try (right; done). left. left. apply own_now.
    - intros t' s1 s2 o q Hs Hne. cbn in Hs. destruct (negb _); [injection Hs as <- <-; done|].
      unfold block_add in Hs. destruct (p_kind q); [|injection Hs as <- <-; done].
      destruct (h_eqb (p_hdr q) _) eqn:Eh; cbn in Hs; [|injection Hs as <- <-; done].
      destruct (validate (pn_engine s1) q) eqn:Ev; [|injection Hs as <- <-; done]. injection Hs as <- <-.
      right. exists (pn_engine s1), s1. split; [apply elem_of_app; right; left|]. apply h_eqb_eq in Eh. done.
  Qed.
  Lemma shard_committed my e0 is t sf t1 s c p t2 :
    prun KShard my (pstart e0) is = (t, sf) -> t = t1 ++ (s, IDecide c, ODecide (DCommit p)) :: t2 ->
    p_id p = ct_value c /\ seen t1 p.
  Proof.
    intros Hr Ht. change t1 with ([] ++ t1). eapply (commit_stored seen KShard my); [| | |apply pstart_stored|exact Hr|exact Ht].
    - intros t' x q [H|(s' & o & H)]; [left; by apply own_mono|right; exists s', o; apply elem_of_app; by left].
    - intros t' s' o q. destruct o; try (right; done). left. left. apply own_now.
    - intros t' s1 s2 o q Hs Hne. right. exists s1, o. apply elem_of_app. right. left.
  Qed.

  (** A valid verdict of the chunk proposer comes from the engine's check. *)
  Lemma shard_verdict my is : forall s0 t sf, prun KShard my s0 is = (t, sf) ->
    forall s p, (s, IReceive p, OVerdict Valid) ∈ t -> validate (pn_engine s) p = true /\ p_hdr p = h_inc (confirmed (pn_engine s)).
  Proof.
    induction is as [|i r IH]; intros s0 t sf; cbn; [intros [= <- <-]; set_solver|].
    destruct (pstep KShard my s0 i) as [s1 o] eqn:Es. destruct (prun KShard my s1 r) as [tr sr] eqn:Er. intros [= <- <-] s p [Hin|Hin]%elem_of_cons; [|by eapply IH].
    injection Hin as -> <- <-. cbn in Es. destruct (negb _); [done|]. unfold shard_add in Es. destruct (p_kind p); [done|].
    destruct (h_eqb (p_hdr p) _) eqn:Eh; cbn in Es; [|done]. destruct (validate (pn_engine s0) p); [|done]. split; [done|by apply h_eqb_eq].
  Qed.

  (** *** The engine moves only forward *)
  Definition in_order (t : trace) : Prop :=
    forall s c p, (s, IDecide c, ODecide (DCommit p)) ∈ t -> p_hdr p = h_inc (confirmed (pn_engine s)).
  Definition engine_law : Prop := forall e p e', commit e p = Some e' -> p_hdr p = h_inc (confirmed e) -> confirmed e' = h_inc (confirmed e).
  Definition older (e e' : E) : Prop := e = e' \/ h_ltb (confirmed e) (confirmed e') = true.
  Lemma pstep_engine k my s i s' o : engine_law -> (forall c p, i = IDecide c -> o = ODecide (DCommit p) -> p_hdr p = h_inc (confirmed (pn_engine s))) ->
    pstep k my s i = (s', o) -> older (pn_engine s) (pn_engine s').
  Proof.
    intros Hlaw Hord. destruct i as [p|p|c]; cbn.
    - intros [= <- <-]. by left.
    - destruct (negb _); [intros [= <- <-]; by left|]. destruct (padd _ _ _ _ s p) as [s1 v] eqn:Ep. intros [= <- <-]. left.
      destruct k; cbn in Ep; unfold block_add, shard_add in Ep; destruct (p_kind p); repeat (destruct (negb _) || destruct (validate _ _)); by injection Ep as <- <-.
    - destruct (decide_value _ _ my s c) as [s1 d] eqn:Ed. intros [= <- <-].
      destruct (decide_other _ _ _ _ _ Ed) as [[p ->]| ->]; [|by left]. apply decide_commit in Ed as (_ & Hc & _).
      right. apply h_ltb_lt. rewrite (Hlaw _ _ _ Hc); [unfold h_inc; cbn; lia|]. by eapply Hord.
  Qed.
  Lemma older_trans a b c : older a b -> older b c -> older a c.
  Proof. intros [->|H1] [->|H2]; unfold older; auto. right. unfold h_ltb in *. lia. Qed.
  Lemma trace_older k my (Hlaw : engine_law) is : forall s0 t sf, prun k my s0 is = (t, sf) -> in_order t ->
    forall t1 s i o t2, t = t1 ++ (s, i, o) :: t2 -> older (pn_engine s0) (pn_engine s) /\
    forall s' i' o', (s', i', o') ∈ t1 -> older (pn_engine s') (pn_engine s).
  Proof.
    induction is as [|i0 r IH]; intros s0 t sf; cbn; [intros [= <- <-] _ t1 ? ? ? ? H; by destruct t1|].
    destruct (pstep k my s0 i0) as [s1 o0] eqn:Es. destruct (prun k my s1 r) as [tr sr] eqn:Er. intros [= <- <-] Hord t1 s i o t2 Ht.
    destruct t1 as [|x t1]; cbn in Ht.
    - injection Ht as <- <- <- _. split; [by left|]. set_solver.
    - injection Ht as <- Ht. assert (Hstep : older (pn_engine s0) (pn_engine s1)).
      { eapply pstep_engine; [done| |exact Es]. intros c p -> ->. apply (Hord s0 c p). left. }
      destruct (IH s1 tr sr Er ltac:(intros ? ? ? Hin; eapply Hord; by right) t1 s i o t2 Ht) as [H1 H2].
      split; [by eapply older_trans|]. intros s' i' o' [[= -> -> ->]|Hin]%elem_of_cons; [by eapply older_trans|by eapply H2].
  Qed.
End ProposerRuns.
Global Arguments own {E}.
Global Arguments seen {E}.

(** ** Witnesses *)
Fixpoint witness_run (num h : N) (prev : option (list witness)) (steps : list (bool * list (N * (N -> option witness)))) : list (list witness) :=
  match steps with
  | [] => []
  | (d, stores) :: r => let ws := collect d num h prev stores in ws :: witness_run num (h + 1) (Some ws) r
  end.

Definition stores_ok (ids : list N) (stores : list (N * (N -> option witness))) : Prop :=
  map fst stores = ids /\ forall sh ch n w, (sh, ch) ∈ stores -> ch n = Some w -> w_shard w = sh /\ w_height w = n.

Lemma witness_run_lookup num steps : forall h prev i ws, witness_run num h prev steps !! i = Some ws ->
  exists d stores, steps !! i = Some (d, stores) /\
    ws = collect d num (h + N.of_nat i) (match i with O => prev | S j => witness_run num h prev steps !! j end) stores.
Proof.
  induction steps as [|[d stores] r IH]; intros h prev i ws; [done|]. destruct i as [|i]; cbn -[N.of_nat].
  - intros [= <-]. exists d, stores. split; [done|]. change (N.of_nat 0) with 0. by rewrite N.add_0_r.
  - intros H. destruct (IH _ _ _ _ H) as (d' & st' & H1 & H2). exists d', st'. split; [done|]. rewrite H2.
    replace (h + 1 + N.of_nat i) with (h + N.of_nat (S i)) by lia. by destruct i.
Qed.

Lemma omap_length_full {A B} (f : A -> option B) (l : list A) : length (omap f l) = length l -> forall x, x ∈ l -> exists y, f x = Some y /\ y ∈ omap f l.
Proof.
  induction l as [|a l IH]; cbn; [set_solver|]. intros Hl x Hx.
  assert (Hle : (length (omap f l) <= length l)%nat) by (clear; induction l as [|a l IH]; cbn; [lia|]; destruct (f a); cbn; lia).
  destruct (f a) as [b|] eqn:Ea; cbn in Hl; [|lia]. apply elem_of_cons in Hx as [->|Hx].
  - exists b. split; [done|left].
  - destruct (IH ltac:(lia) x Hx) as (y & H1 & H2). exists y. split; [done|by right].
Qed.

Lemma collect_elem d num h prev stores w : w ∈ collect d num h prev stores ->
  N.of_nat (length (collect d num h prev stores)) = num /\
  exists sh ch, (sh, ch) ∈ stores /\ (if d then pick_witness h prev sh ch else ch h) = Some w.
Proof.
  unfold collect. destruct (_ =? num) eqn:En; [|set_solver]. intros Hw. split; [lia|].
  apply elem_of_list_omap in Hw as ([sh ch] & H1 & H2). eauto.
Qed.
Lemma last_witness_spec h prev sh w : last_witness h prev sh = Some w -> exists ws, prev = Some ws /\ w ∈ ws /\ w_shard w = sh.
Proof.
  unfold last_witness. destruct (h =? 0); [done|]. destruct prev as [ws|]; [|done]. intros H. apply find_some in H as [H1 H2].
  exists ws. split; [done|]. split; [by apply elem_of_list_In|lia].
Qed.
Lemma pick_witness_spec h prev sh ch w ids stores : stores_ok ids stores -> (sh, ch) ∈ stores -> pick_witness h prev sh ch = Some w ->
  w_shard w = sh /\ ((h = 1 /\ w_height w = 1) \/ exists ws w0, prev = Some ws /\ w0 ∈ ws /\ w_shard w0 = sh /\ (w = w0 \/ (h <> 1 /\ w_height w = w_height w0 + 1))).
Proof.
  intros [_ Hok] Hin. unfold pick_witness. destruct (h =? 1) eqn:E1.
  - destruct (ch 1) as [w1|] eqn:Ec.
    + intros [= ->]. destruct (Hok _ _ _ _ Hin Ec). split; [done|]. left. split; [lia|done].
    + intros H. apply last_witness_spec in H as (ws & -> & H1 & H2). split; [done|]. right. exists ws, w. auto.
  - destruct (last_witness h prev sh) as [w0|] eqn:El; [|done]. apply last_witness_spec in El as (ws & -> & H1 & H2).
    destruct (ch (w_height w0 + 1)) as [w1|] eqn:Ec.
    + intros [= ->]. destruct (Hok _ _ _ _ Hin Ec). split; [done|]. right. exists ws, w0. split; [done|]. split; [done|]. split; [done|]. right. split; [lia|done].
    + intros [= ->]. split; [done|]. right. exists ws, w. auto.
Qed.
