(** Properties C21 (username proofs), C22 (registered names) and C62 (displayed usernames). *)
From Verif Require Import Names NamesProofs.
From Coq Require Import ZifyN ZifyNat ZifyBool.
#[local] Open Scope N_scope.

(** ** C21: a username proof names one owner *)

(** Messages that passed validation; [nm] gives the name a message hash stands for (equal hashes, equal names). *)
Definition msg_ok (nm : bytes -> bytes) (m : pmsg) : Prop :=
  0 < p_fid m < 2 ^ 32 /\ p_ts m < 2 ^ 32 /\ length (p_hash m) = 20%nat /\ p_name m <> [] /\ nm (p_hash m) = p_name m.
Definition op_ok (nm : bytes -> bytes) (o : pop) : Prop := match o with PMerge m => msg_ok nm m | _ => True end.
(** [a] comes after [b]. *)
Definition after (a b : pmsg) : Prop := p_ts b < p_ts a \/ (p_ts b = p_ts a /\ blt (p_hash b) (p_hash a) = true).
(** Lookup by name, lookup by account and name, and the account's listing tell the same. *)
Definition views_agree (v : pst) : Prop :=
  (forall f n x, f < 2 ^ 32 -> proof_by_fid_name v f n = Some x <-> proof_by_name v n = Some x /\ p_fid x = f) /\
  (forall f x, f < 2 ^ 32 -> x ∈ p_rows_of v f <-> proof_by_name v (p_name x) = Some x /\ p_fid x = f) /\
  (forall n x, proof_by_name v n = Some x -> p_name x = n).

Lemma after_newer a b : after a b <-> newer a b = true.
Proof. unfold after, newer. destruct (blt (p_hash b) (p_hash a)); lia. Qed.
Lemma prep_agree nm v h : prep nm v h -> views_agree v.
Proof.
  intros P. split; [|split].
  - intros f n x Hf. rewrite (prep_by_name nm v h) by done. unfold proof_by_fid_name. rewrite fidk_small by done.
    pose proof P as (A & B & C & D). rewrite C. destruct (h !! n) as [y|] eqn:E; cbn [mbind option_bind]; [|split; [done|intros [? _]; done]].
    destruct (A _ _ E) as [En Hy]. destruct (ok_tsh nm y Hy) as [t Et].
    destruct (N.eqb_spec f (p_fid y)) as [->|Q]; cbn [mbind option_bind].
    + rewrite Et. cbn [mbind option_bind]. assert (ps_rows v !! (p_fid y, t) = Some y) as -> by (apply D; rewrite En; done).
      split; [intros [= <-]; done|intros [? _]; done].
    + split; [done|]. intros [[= <-] Q2]. congruence.
  - intros f x Hf. rewrite (prep_by_name nm v h) by done. by apply (rows_of_elem nm v h).
  - intros n x. rewrite (prep_by_name nm v h) by done. intros E. apply P in E. apply E.
Qed.

(** Every history of merges by any accounts, cut into blocks in any way: at most one account holds a name, namely the one with
    the newest proof ever offered, and all views agree. *)
Theorem C21_one_owner : forall nm (bs : list (list pmsg)), Forall (Forall (msg_ok nm)) bs ->
  let v := p_run ps_init (map (map PMerge) bs) in
  views_agree v /\
  (forall n x, proof_by_name v n = Some x -> x ∈ concat bs /\ forall m, m ∈ concat bs -> p_name m = n -> ~ after m x) /\
  (forall n, proof_by_name v n = None -> forall m, m ∈ concat bs -> p_name m <> n).
Proof.
  intros nm bs F v.
  assert (prep nm v (foldl sp_merge ∅ (concat bs))) as P.
  { rewrite <- (merges_run_sp ps_init ∅ bs). apply prep_run; [apply prep_init| |apply merges_run_clean].
    apply Forall_fmap. eapply Forall_impl; [exact F|]. intros b Hb. apply Forall_fmap. exact Hb. }
  split; [by eapply prep_agree|]. split.
  - intros n x. rewrite (prep_by_name nm v _ n P). intros E. pose proof (sp_merge_winner (concat bs) n) as W. rewrite E in W.
    destruct W as (W1 & W2 & W3). split; [done|]. intros m Hm En Q. apply after_newer in Q. rewrite W3 in Q by done. done.
  - intros n. rewrite (prep_by_name nm v _ n P). intros E. pose proof (sp_merge_winner (concat bs) n) as W. rewrite E in W. exact W.
Qed.

(** The order in which proofs arrive does not matter. *)
Theorem C21_order_irrelevant : forall nm (ms ms' : list pmsg), Forall (msg_ok nm) ms -> ms ≡ₚ ms' ->
  (forall a b, a ∈ ms -> b ∈ ms -> p_name a = p_name b -> p_ts a = p_ts b -> p_hash a = p_hash b -> a = b) ->
  forall n, proof_by_name (p_block ps_init (map PMerge ms)) n = proof_by_name (p_block ps_init (map PMerge ms')) n.
Proof.
  intros nm ms ms' F HP U n.
  assert (forall l, Forall (msg_ok nm) l -> proof_by_name (p_block ps_init (map PMerge l)) n = foldl sp_merge ∅ l !! n) as G.
  { intros l Fl. apply (prep_by_name nm). unfold p_block. rewrite <- (merges_sp ps_init).
    eapply prep_steps; [apply prep_init..| |apply merges_clean]. apply Forall_fmap. exact Fl. }
  rewrite !G by (try done; by rewrite <- HP). pose proof (sp_merge_winner ms n) as W1. pose proof (sp_merge_winner ms' n) as W2.
  destruct (foldl sp_merge ∅ ms !! n) as [x|], (foldl sp_merge ∅ ms' !! n) as [y|]; cbn [winner] in *; [|..|done].
  - destruct W1 as (X1 & X2 & X3), W2 as (Y1 & Y2 & Y3). f_equal. rewrite <- HP in Y1. destruct (newer_total x y) as [Q1 Q2].
    + apply Y3; [by rewrite <- HP|done].
    + apply X3; done.
    + apply U; congruence.
  - destruct W1 as (X1 & X2 & _). exfalso. apply (W2 x); [by rewrite <- HP|done].
  - destruct W2 as (X1 & X2 & _). exfalso. apply (W1 y); [by rewrite HP|done].
Qed.

(** A message is accepted exactly when nobody holds the name or the holder's proof is older; rejected merges change nothing. *)
Theorem C21_accepted_iff : forall nm (bs : list (list pmsg)) m, Forall (Forall (msg_ok nm)) bs -> msg_ok nm m ->
  let v := p_run ps_init (map (map PMerge) bs) in
  ((p_merge v m).2 = None <-> match proof_by_name v (p_name m) with Some x => after m x | None => True end) /\
  forall n, proof_by_name (p_merge v m).1 n =
    if decide ((p_merge v m).2 = None /\ p_name m = n) then Some m else proof_by_name v n.
Proof.
  intros nm bs m F Hm v.
  assert (prep nm v (foldl sp_merge ∅ (concat bs))) as P.
  { rewrite <- (merges_run_sp ps_init ∅ bs). apply prep_run; [apply prep_init| |apply merges_run_clean].
    apply Forall_fmap. eapply Forall_impl; [exact F|]. intros b Hb. apply Forall_fmap. exact Hb. }
  set (h := foldl sp_merge ∅ (concat bs)) in *. destruct (prep_merge nm v h m P Hm) as [P2 A].
  assert ((p_merge v m).2 = None <-> match proof_by_name v (p_name m) with Some x => after m x | None => True end) as G.
  { rewrite A, (prep_by_name nm v h) by done. unfold sp_accepts. destruct (h !! p_name m); [|done]. by rewrite after_newer. }
  split; [exact G|]. intros n. rewrite (prep_by_name nm _ _ n P2), (prep_by_name nm v h) by done. unfold sp_merge.
  unfold sp_accepts in A. destruct (decide (p_name m = n)) as [<-|N].
  - destruct (h !! p_name m) as [x|] eqn:E.
    + destruct (newer m x) eqn:B.
      * rewrite lookup_insert, decide_True; [done|]. split; [by apply A|done].
      * rewrite E, decide_False; [done|]. intros [Q _]. apply A in Q. done.
    + rewrite lookup_insert, decide_True; [done|]. split; [by apply A|done].
  - rewrite decide_False by tauto. repeat case_match; rewrite ?lookup_insert_ne by done; done.
Qed.

(** Histories that also prune. Missing: blocks in which a deletion meets a name taken earlier in the same block
    by another proof (see the refutations). *)
Theorem C21_history_partial : forall nm bs, Forall (Forall (op_ok nm)) bs -> clean_run ps_init bs = true -> views_agree (p_run ps_init bs).
Proof. intros nm bs F C. eapply prep_agree. apply prep_run; [apply prep_init|exact F|exact C]. Qed.

(** Blocks whose deletions come before any merge of the names they take away are of that kind. *)
Theorem C21_deletes_first_partial : forall nm bs b, Forall (Forall (op_ok nm)) bs -> clean_run ps_init bs = true -> Forall (op_ok nm) b ->
  let s := p_run ps_init bs in
  (forall c o d x m, b = c ++ o :: d -> x ∈ p_victims s o -> PMerge m ∈ c -> p_name m <> p_name x) -> clean_block s s b = true.
Proof.
  intros nm bs b F C Fb s H. assert (prep nm s (sp_run ps_init ∅ bs)) as P by (apply prep_run; [apply prep_init|exact F|exact C]).
  eapply (early_deletes_clean nm s s _ _ []); [exact P|exact P|exact Fb|by left|].
  intros c o d E x Hx. split; [apply not_elem_of_nil|]. intros m Hm. by eapply H.
Qed.

(** The effect of a prune: it takes exactly the account's [k] oldest proofs. *)
Theorem C21_deletion_effect_partial : forall nm bs, Forall (Forall (op_ok nm)) bs -> clean_run ps_init bs = true ->
  let s := p_run ps_init bs in
  forall f k n x, f < 2 ^ 32 ->
    proof_by_name (p_step s s (PPrune f k)) n = Some x <->
    proof_by_name s n = Some x /\ ~ (p_fid x = f /\ (length (List.filter (fun y => newer x y) (p_rows_of s f)) < k)%nat).
Proof.
  intros nm bs F C s. set (h := sp_run ps_init ∅ bs).
  assert (prep nm s h) as P by (apply prep_run; [apply prep_init|exact F|exact C]).
  assert (forall o n x, (match o with PMerge _ => False | _ => True end) ->
            proof_by_name (p_step s s o) n = Some x <-> h !! n = Some x /\ x ∉ p_victims s o) as G.
  { intros o n x Ho. assert (op_ok nm o) as Ok by (destruct o; done).
    rewrite (prep_by_name nm _ _ n (prep_step nm s s h h o P P Ok (single_clean nm s h o P))).
    assert (sp_step s h o = foldl sp_delete h (p_victims s o)) as -> by (destruct o; done).
    rewrite sp_deletes_lookup. destruct (h !! n) as [y|] eqn:E; [|split; [done|intros [? _]; done]].
    assert (p_name y = n) as En by (apply P in E; apply E). destruct (decide (y ∈ p_victims s o /\ p_name y = n)) as [D|D].
    - split; [done|]. intros [[= <-] N]. destruct D as [D _]. done.
    - split; [intros [= <-]; split; [done|]; intros Q; apply D; done|intros [? _]; done]. }
  { intros f k n x Hf. rewrite (G (PPrune f k)) by done. rewrite (prep_by_name nm s h) by done. cbn [p_victims].
    assert (h !! n = Some x -> (x ∈ take k (p_rows_of s f) <-> p_fid x = f /\ (length (List.filter (fun y => newer x y) (p_rows_of s f)) < k)%nat)) as Q.
    { intros E. assert (p_name x = n) as En by (apply P in E; apply E). split.
      - intros Hx. assert (x ∈ p_rows_of s f) as Hr.
        { apply elem_of_list_lookup in Hx as [i Hx]. apply lookup_take_Some in Hx as [Hx _]. by eapply elem_of_list_lookup_2. }
        split; [by apply (rows_of_elem nm s h f x P Hf) in Hr as [_ ?]|].
        by apply (take_oldest _ _ _ (rows_of_strict nm s h f P Hf) Hr).
      - intros [Ef L]. assert (x ∈ p_rows_of s f) as Hr by (apply (rows_of_elem nm s h f x P Hf); rewrite En; done).
        by apply (take_oldest _ _ _ (rows_of_strict nm s h f P Hf) Hr). }
    split; intros [E N]; (split; [done|]); rewrite (Q E) in *; done. }
Qed.

(** Concrete runs: accounts 1, 2 and 3, the name "n". *)
Definition nmx (h : bytes) : bytes := match h with b :: _ => if b <? 9 then [110] else [102 + b] | _ => [110] end.
Definition pm (f ts h : N) : pmsg := PMsg f ts (repeat h 20) [f] (nmx (repeat h 20)) f.
Example C21_ex : Forall (msg_ok nmx) [pm 1 10 1; pm 2 20 2; pm 3 15 3; pm 1 5 9] /\
  proof_by_name (p_run ps_init (map (map PMerge) [[pm 1 10 1; pm 2 20 2]; [pm 3 15 3; pm 1 5 9]])) [110] = Some (pm 2 20 2) /\
  p_rows_of (p_run ps_init (map (map PMerge) [[pm 1 10 1; pm 2 20 2]; [pm 3 15 3; pm 1 5 9]])) 1 = [pm 1 5 9].
Proof.
  split; [|vm_compute; done]. repeat constructor; try done; vm_compute; intros; congruence.
Qed.
Example C21_clean_ex :
  clean_run ps_init [[PMerge (pm 1 10 1); PMerge (pm 1 11 9)]; [PPrune 1 1; PMerge (pm 2 8 2)]; [PPrune 2 1]] = true /\
  proof_by_name (p_run ps_init [[PMerge (pm 1 10 1); PMerge (pm 1 11 9)]; [PPrune 1 1; PMerge (pm 2 8 2)]]) [110] = Some (pm 2 8 2) /\
  proof_by_name (p_run ps_init [[PMerge (pm 1 10 1); PMerge (pm 1 11 9)]; [PPrune 1 1; PMerge (pm 2 8 2)]; [PPrune 2 1]]) [110] = None.
Proof. vm_compute. repeat split. Qed.

(** Account 1 has two names, its limit. Account 2 takes the older; later in the same block account 1 claims two more names and is
    one above the limit. The prune scan still sees account 1's proof of the lost name and deletes account 2's by-name row; then
    account 3 gets the name with an older proof and both list it. *)
Theorem C21_takeover_prune_refuted : exists nm bs, Forall (Forall (op_ok nm)) bs /\
  let v := p_run ps_init bs in
  exists x y, p_name x = p_name y /\ p_fid x <> p_fid y /\ after x y /\ x ∈ p_rows_of v (p_fid x) /\ y ∈ p_rows_of v (p_fid y) /\
    proof_by_fid_name v (p_fid x) (p_name x) = Some x /\ proof_by_fid_name v (p_fid y) (p_name y) = Some y /\
    proof_by_name v (p_name x) = Some y.
Proof.
  exists nmx, [[PMerge (pm 1 10 1); PMerge (pm 1 11 9)]; [PMerge (pm 2 20 2); PMerge (pm 1 21 10); PMerge (pm 1 22 11); PPrune 1 1]; [PMerge (pm 3 15 3)]]. split.
  - repeat constructor; try done; vm_compute; intros; congruence.
  - exists (pm 2 20 2), (pm 3 15 3). split; [done|]. split; [done|]. split; [left; done|].
    assert (p_rows_of (p_run ps_init [[PMerge (pm 1 10 1); PMerge (pm 1 11 9)]; [PMerge (pm 2 20 2); PMerge (pm 1 21 10); PMerge (pm 1 22 11); PPrune 1 1]; [PMerge (pm 3 15 3)]]) 2 = [pm 2 20 2]) as E1 by (vm_compute; done).
    assert (p_rows_of (p_run ps_init [[PMerge (pm 1 10 1); PMerge (pm 1 11 9)]; [PMerge (pm 2 20 2); PMerge (pm 1 21 10); PMerge (pm 1 22 11); PPrune 1 1]; [PMerge (pm 3 15 3)]]) 3 = [pm 3 15 3]) as E2 by (vm_compute; done).
    cbn [p_fid pm]. rewrite E1, E2. split; [by left|]. split; [by left|]. vm_compute. repeat split; try done; congruence.
Qed.

(** Revoking a signer does not take its username proofs: they stay and still resolve. *)
Theorem C20_username_proof_refuted : exists nm bs f key n x, Forall (Forall (op_ok nm)) bs /\
  let v := p_run ps_init (bs ++ [[PRevoke f key]]) in
  x ∈ p_rows_of v f /\ p_signer x = key /\ proof_by_name v n = Some x.
Proof.
  exists nmx, [[PMerge (pm 1 10 1)]], 1, [1], [110], (pm 1 10 1). split.
  - repeat constructor; try done; vm_compute; intros; congruence.
  - assert (p_rows_of (p_run ps_init ([[PMerge (pm 1 10 1)]] ++ [[PRevoke 1 [1]]])) 1 = [pm 1 10 1]) as E by (vm_compute; done).
    cbn zeta. rewrite E. split; [by left|]. split; [done|]. vm_compute. done.
Qed.

(** One account alone: it renews its oldest name and claims another one beyond its limit in the same block. The prune scan still
    sees the replaced proof: the renewed name is no longer found, its row stays and the limit stays exceeded. *)
Theorem C21_renew_prune_refuted : exists nm bs f n x, Forall (Forall (op_ok nm)) bs /\
  let v := p_run ps_init bs in
  x ∈ p_rows_of v f /\ p_name x = n /\ proof_by_name v n = None /\ proof_by_fid_name v f n = None /\ length (p_rows_of v f) = 2%nat.
Proof.
  exists nmx, [[PMerge (pm 1 10 1)]; [PMerge (pm 1 20 2); PMerge (pm 1 21 9); PPrune 1 1]], 1, [110], (pm 1 20 2). split.
  - repeat constructor; try done; vm_compute; intros; congruence.
  - assert (p_rows_of (p_run ps_init [[PMerge (pm 1 10 1)]; [PMerge (pm 1 20 2); PMerge (pm 1 21 9); PPrune 1 1]]) 1 = [pm 1 20 2; pm 1 21 9]) as E by (vm_compute; done).
    cbn zeta. rewrite E. split; [by left|]. vm_compute. repeat split; try done; congruence.
Qed.

(** In all histories, also those of the refutations: a by-name row is never left without its proof. So a name whose lookup
    finds nothing has no by-name row, and the next proof of it, whoever's, is accepted. *)
Theorem C21_no_dangling_name : forall nm bs n, Forall (Forall (op_ok nm)) bs ->
  let v := p_run ps_init bs in
  (forall f, ps_name v !! n = Some f -> exists x, proof_by_name v n = Some x /\ p_name x = n /\ p_fid x = f /\ msg_ok nm x) /\
  (proof_by_name v n = None -> forall m, msg_ok nm m -> p_name m = n ->
     (p_merge v m).2 = None /\ proof_by_name (p_merge v m).1 n = Some m).
Proof.
  intros nm bs n F v. assert (pw nm v) as (A & B & C) by (apply pw_run; [apply pw_init|exact F]).
  assert (forall f, ps_name v !! n = Some f -> exists x, proof_by_name v n = Some x /\ p_name x = n /\ p_fid x = f /\ msg_ok nm x) as G.
  { intros f H. destruct (C _ _ H) as [t Ht]. destruct (B _ _ _ Ht) as (x & Hx & Nx). destruct (A _ _ _ Hx) as (Ox & Fx & _).
    exists x. unfold proof_by_name. rewrite H. cbn [mbind option_bind]. rewrite Ht. cbn [mbind option_bind]. done. }
  split; [exact G|]. intros L m Hm Nm. destruct (ps_name v !! n) as [f|] eqn:E; [destruct (G f) as (x & Q & _); congruence|].
  destruct (ok_tsh nm m Hm) as [t Et]. unfold p_merge. rewrite Et. unfold p_conflicts. rewrite Nm, E. unfold p_put.
  destruct (p_name m) as [|c l] eqn:En; [destruct Hm as (_ & _ & _ & Q & _); done|]. cbn [fst snd]. split; [done|].
  unfold proof_by_name. cbn [ps_name ps_adds ps_rows]. rewrite <- Nm, lookup_insert. cbn [mbind option_bind]. rewrite lookup_insert. cbn [mbind option_bind]. by rewrite lookup_insert.
Qed.
Example C21_no_dangling_ex :
  let v := p_run ps_init [[PMerge (pm 1 10 1); PMerge (pm 1 11 9)]; [PMerge (pm 2 20 2); PMerge (pm 1 21 10); PMerge (pm 1 22 11); PPrune 1 1]] in
  proof_by_name v [110] = None /\ msg_ok nmx (pm 3 15 3).
Proof. cbn zeta. split; [vm_compute; done|]. repeat constructor; vm_compute; congruence. Qed.

(** ** C22: registered names resolve to their owner *)

Definition f_after (a b : fproof) : Prop := f_ts b < f_ts a \/ (f_ts b = f_ts a /\ blt (f_sig b) (f_sig a) = true).
Lemma f_after_newer a b : f_after a b <-> f_newer a b = true.
Proof. unfold f_after, f_newer. destruct (blt (f_sig b) (f_sig a)); lia. Qed.

(** The proofs of a name that count: those from the first that gives it an owner on. *)
Inductive counts (n : bytes) : list fproof -> fproof -> Prop :=
| counts_intro (a b : list fproof) (p q : fproof) :
    f_name p = n -> f_fid p <> 0 -> q ∈ p :: b -> f_name q = n -> counts n (a ++ p :: b) q.
Lemma counts_live n ps q : counts n ps q <-> q ∈ live n ps.
Proof.
  induction ps as [|p ps IH]; cbn [live].
  - split; [|intros ?%elem_of_nil; done]. inversion 1 as [a b p' q' ? ? ? ? E]. destruct a; done.
  - destruct (bool_decide (f_name p = n) && negb (f_fid p =? 0)) eqn:B.
    + apply andb_true_iff in B as [B1 B2]. apply bool_decide_eq_true in B1. apply negb_true_iff, N.eqb_neq in B2.
      rewrite elem_of_list_In, List.filter_In, <- elem_of_list_In, bool_decide_eq_true. split.
      * inversion 1 as [a b p' q' H1 H2 H3 H4 E]. subst. split; [|done]. apply elem_of_app. by right.
      * intros [H1 H2]. by apply (counts_intro n []).
    + rewrite <- IH. split.
      * inversion 1 as [a b p' q' H1 H2 H3 H4 E]. subst. destruct a as [|r a]; cbn [app] in E; injection E as -> <-.
        -- rewrite bool_decide_true in B by done. cbn [andb] in B. apply negb_false_iff, N.eqb_eq in B. done.
        -- by apply counts_intro.
      * inversion 1 as [a b p' q' H1 H2 H3 H4 E]. subst. by apply (counts_intro _ (p :: a)).
Qed.

(** A name looks up to the newest counting proof; that is its last owner (account 0: released). *)
Theorem C22_name_latest : forall ps n,
  match fs_name (f_run fs_init ps) !! n with
  | Some p => counts n ps p /\ forall q, counts n ps q -> ~ f_after q p
  | None => forall q, ~ counts n ps q
  end.
Proof.
  intros ps n. pose proof (fs_name_winner ps n) as W. destruct (fs_name (f_run fs_init ps) !! n) as [p|]; cbn [f_winner] in W.
  - destruct W as [W1 W2]. split; [by apply counts_live|]. intros q Hq Q. apply f_after_newer in Q. apply counts_live in Hq.
    rewrite W2 in Q by done. done.
  - intros q Hq. apply counts_live in Hq. rewrite W in Hq. by apply elem_of_nil in Hq.
Qed.

(** Without releases the order of arrival does not matter. Missing: histories with releases. *)
Theorem C22_order_irrelevant_partial : forall ps ps', ps ≡ₚ ps' -> Forall (fun p => f_fid p <> 0) ps ->
  (forall a b, a ∈ ps -> b ∈ ps -> f_name a = f_name b -> f_ts a = f_ts b -> f_sig a = f_sig b -> a = b) ->
  forall n, fs_name (f_run fs_init ps) !! n = fs_name (f_run fs_init ps') !! n.
Proof.
  intros ps ps' HP F U n.
  assert (forall l, Forall (fun p => f_fid p <> 0) l -> forall q, q ∈ live n l <-> q ∈ l /\ f_name q = n) as G.
  { intros l Fl q. rewrite <- counts_live. split.
    - inversion 1 as [a b p q' H1 H2 H3 H4]. subst. split; [apply elem_of_app; by right|done].
    - intros [H1 H2]. apply elem_of_list_split in H1 as (a & b & ->). rewrite Forall_forall in Fl.
      apply counts_intro; [done| |by left|done]. apply Fl, elem_of_app. right. by left. }
  assert (Forall (fun p => f_fid p <> 0) ps') as F' by (by rewrite <- HP).
  pose proof (fs_name_winner ps n) as W1. pose proof (fs_name_winner ps' n) as W2. pose proof (G ps F) as G1. pose proof (G ps' F') as G2.
  assert (forall q, q ∈ live n ps <-> q ∈ live n ps') as E by (intros q; rewrite G1, G2, HP; done).
  destruct (fs_name (f_run fs_init ps) !! n) as [x|], (fs_name (f_run fs_init ps') !! n) as [y|]; cbn [f_winner] in *; [|..|done].
  - destruct W1 as (X1 & X2), W2 as (Y1 & Y2). f_equal. destruct (f_newer_total x y) as [Q1 Q2].
    + apply Y2. by apply E.
    + apply X2. by apply E.
    + apply G1 in X1 as [X3 X4]. apply E, G1 in Y1 as [Y3 Y4]. apply U; congruence.
  - destruct W1 as [X1 _]. apply E in X1. rewrite W2 in X1. by apply elem_of_nil in X1.
  - destruct W2 as [X1 _]. apply E in X1. rewrite W1 in X1. by apply elem_of_nil in X1.
Qed.

(** What an account looks up to is always a name it owns now. *)
Theorem C22_account_sound : forall ps f p, fname_by_fid (f_run fs_init ps) f = Some p ->
  f_fid p mod 2 ^ 32 = f mod 2 ^ 32 /\ f_fid p <> 0 /\ fs_name (f_run fs_init ps) !! f_name p = Some p.
Proof.
  intros ps f p. unfold fname_by_fid. intros E. apply bind_Some in E as (n & E1 & E2).
  destruct (f_sound_run fs_init ps) with (f := fidk f) (n := n) as (q & Q1 & Q2 & Q3); [intros ? ? Q; cbn [fs_init fs_fid] in Q; by rewrite lookup_empty in Q|done|].
  assert (q = p) as -> by congruence. split; [done|]. split; [done|].
  rewrite (f_named_run fs_init ps) with (n := n) (p := p); [done| |done]. intros ? ? Q. cbn [fs_init fs_name] in Q. by rewrite lookup_empty in Q.
Qed.

(** If no account is given a name while it owns one, every owner looks up to the name. Missing: renewals and several names. *)
Theorem C22_account_complete_partial : forall ps, Forall (fun p => f_fid p < 2 ^ 32) ps -> one_name_each fs_init ps = true ->
  forall n p, fs_name (f_run fs_init ps) !! n = Some p -> f_fid p <> 0 -> fname_by_fid (f_run fs_init ps) (f_fid p) = Some p.
Proof.
  intros ps F C n p E Z. assert (f_fid p < 2 ^ 32) as Sm.
  { pose proof (fs_name_winner ps n) as W. rewrite E in W. destruct W as [W _]. apply counts_live in W.
    inversion W as [a b p' q H1 H2 H3 H4]. subst. rewrite Forall_forall in F. apply F, elem_of_app. by right. }
  unfold fname_by_fid. rewrite fidk_small by done. rewrite (f_complete_run fs_init ps) with (n := n) (p := p); [done| |..|done|done|done|done].
  - intros ? ? Q. cbn [fs_init fs_name] in Q. by rewrite lookup_empty in Q.
  - intros ? ? Q. cbn [fs_init fs_name] in Q. by rewrite lookup_empty in Q.
Qed.

(** Without renewals the trie holds exactly the owned names. Missing: renewals. *)
Theorem C22_trie_exact_partial : forall ps, Forall (fun p => f_fid p < 2 ^ 32) ps -> no_renewals fs_init ps = true ->
  forall f n, (f, n) ∈ fs_trie (f_run fs_init ps) <->
    exists p, fs_name (f_run fs_init ps) !! n = Some p /\ f_fid p = f /\ f_fid p <> 0 /\ f_isf p = true.
Proof.
  intros ps F C f n. apply (f_trie_run fs_init ps); [| | |exact F|exact C].
  - intros g m. cbn [fs_init fs_trie fs_name]. rewrite lookup_empty. split; [intros Q; by apply elem_of_empty in Q|intros (? & ? & _); done].
  - intros ? ? Q. cbn [fs_init fs_name] in Q. by rewrite lookup_empty in Q.
  - intros ? ? Q. cbn [fs_init fs_name] in Q. by rewrite lookup_empty in Q.
Qed.

Definition fp (n f ts : N) : fproof := FProof [n] f ts [ts] true.
Example C22_ex :
  let ps := [fp 97 1 10; fp 98 2 11; fp 97 0 12; fp 97 3 9; fp 97 3 13; fp 98 1 14] in
  one_name_each fs_init ps = true /\ no_renewals fs_init ps = true /\ Forall (fun p => f_fid p < 2 ^ 32) ps /\
  fname_by_fid (f_run fs_init ps) 1 = Some (fp 98 1 14) /\ fname_by_fid (f_run fs_init ps) 2 = None /\
  fs_name (f_run fs_init ps) !! [97] = Some (fp 97 3 13) /\ elements (fs_trie (f_run fs_init ps)) = [(3, [97]); (1, [98])].
Proof.
  cbn zeta. split; [vm_compute; done|]. split; [vm_compute; done|]. split; [repeat constructor|].
  split; [vm_compute; done|]. split; [vm_compute; done|]. split; vm_compute; done.
Qed.

(** Renewing a name removes its owner's by-account row and its trie entry: the state root no longer covers the name. *)
Theorem C22_renewal_refuted : exists ps n p, Forall (fun p => f_fid p < 2 ^ 32) ps /\
  fs_name (f_run fs_init ps) !! n = Some p /\ f_fid p <> 0 /\ f_isf p = true /\
  fname_by_fid (f_run fs_init ps) (f_fid p) = None /\ elements (fs_trie (f_run fs_init ps)) = [].
Proof. exists [fp 97 1 10; fp 97 1 11], [97], (fp 97 1 11). split; [repeat constructor|]. vm_compute. repeat split; try done; congruence. Qed.

(** An account with two names that gives up the second is no longer found under the first. *)
Theorem C22_two_names_refuted : exists ps n p, no_renewals fs_init ps = true /\
  fs_name (f_run fs_init ps) !! n = Some p /\ f_fid p <> 0 /\ fname_by_fid (f_run fs_init ps) (f_fid p) = None.
Proof. exists [fp 97 1 10; fp 98 1 11; fp 98 2 12], [97], (fp 97 1 10). vm_compute. repeat split; try done; congruence. Qed.

(** A release that arrives before the registration it follows is lost. *)
Theorem C22_order_refuted : exists ps ps' n, ps ≡ₚ ps' /\
  fs_name (f_run fs_init ps) !! n = Some (fp 97 0 11) /\ fs_name (f_run fs_init ps') !! n = Some (fp 97 1 10).
Proof. exists [fp 97 1 10; fp 97 0 11], [fp 97 0 11; fp 97 1 10], [97]. split; [apply perm_swap|]. vm_compute. repeat split; try done; congruence. Qed.

(** ** C62: displayed usernames are owned *)

(** Every account that displays a registered name owns it, if transfers name the owner they take the name from and no username set
    in the same block is affected. Missing: other transfers, and names of the ".eth" kind. *)
Theorem C62_displayed_owned_partial : forall bs, Forall (Forall nop_ok) bs -> n_clean_run n_init bs = true ->
  let v := n_run n_init bs in
  forall f t n, n_user v !! f = Some (t, n) -> n <> [] -> is_eth n = false ->
    exists p, fs_name (n_f v) !! n = Some p /\ f_fid p mod 2 ^ 32 = f.
Proof. intros bs F C v f t n. apply (n_inv_run n_init bs n_inv_init F C). Qed.

(** A username is set only by an account that holds the name at that moment, and by a message newer than the one it replaces. *)
Theorem C62_set_checked : forall db v f th n, n_user (n_step db v (NSet f th n)) <> n_user v -> n <> [] ->
  n_user (n_step db v (NSet f th n)) = <[f mod 2 ^ 32 := (th, n)]> (n_user v) /\
  (forall t m, n_user v !! (f mod 2 ^ 32) = Some (t, m) -> blt t th = true) /\
  if is_eth n then exists m, proof_by_name (n_p v) n = Some m /\ p_claim m = f
  else exists p, fs_name (n_f v) !! n = Some p /\ f_fid p = f.
Proof.
  intros db v f th n H Hn. cbn [n_step] in *. destruct (username_ok v f n && _) eqn:B; [|done]. split; [done|].
  apply andb_true_iff in B as [B B2]. split; [intros t m E; unfold fidk in B2; rewrite E in B2; exact B2|]. unfold username_ok in B. destruct n as [|c l]; [done|]. destruct (is_eth (c :: l)).
  - destruct (proof_by_name (n_p v) (c :: l)) as [m|]; [|done]. apply N.eqb_eq in B. eauto.
  - destruct (fs_name (n_f v) !! (c :: l)) as [m|]; [|done]. apply N.eqb_eq in B. eauto.
Qed.

Example C62_ex :
  let bs := [[NTransfer (fp 97 1 10) 0; NSet 1 [1] [97]]; [NTransfer (fp 97 2 11) 1; NSet 2 [2] [97]]] in
  n_clean_run n_init bs = true /\ Forall (Forall nop_ok) bs /\
  n_user (n_run n_init bs) !! 1 = None /\ n_user (n_run n_init bs) !! 2 = Some ([2], [97]).
Proof. cbn zeta. split; [vm_compute; done|]. split; [repeat constructor|]. split; vm_compute; done. Qed.

(** A username set and lost in the same block stays displayed. *)
Theorem C62_same_block_refuted : exists bs f t n, Forall (Forall nop_ok) bs /\
  n_user (n_run n_init bs) !! f = Some (t, n) /\ exists p, fs_name (n_f (n_run n_init bs)) !! n = Some p /\ f_fid p <> f.
Proof.
  exists [[NTransfer (fp 97 1 10) 0; NSet 1 [1] [97]; NTransfer (fp 97 2 11) 1]], 1, [1], [97].
  split; [repeat constructor|]. split; [vm_compute; done|]. exists (fp 97 2 11). vm_compute. repeat split; try done; congruence.
Qed.
(** The sender's account id is not covered by the signature: a transfer naming account 0 leaves the old owner's username. *)
Theorem C62_unsigned_sender_refuted : exists bs f t n, Forall (Forall nop_ok) bs /\ Forall (fun b => length b = 1%nat) bs /\
  n_user (n_run n_init bs) !! f = Some (t, n) /\ exists p, fs_name (n_f (n_run n_init bs)) !! n = Some p /\ f_fid p <> f.
Proof.
  exists [[NTransfer (fp 97 1 10) 0]; [NSet 1 [1] [97]]; [NTransfer (fp 97 2 11) 0]], 1, [1], [97].
  split; [repeat constructor|]. split; [repeat constructor|]. split; [vm_compute; done|]. exists (fp 97 2 11). vm_compute. repeat split; try done; congruence.
Qed.
(** A rejected transfer (repeated, or older than the registration) still takes the displayed username of the account it names. *)
Theorem C62_rejected_transfer_refuted : exists s p from, (f_merge (n_f s) p).2 <> None /\
  n_user s !! from = Some ([1], [98]) /\ (exists q, fs_name (n_f s) !! [98] = Some q /\ f_fid q = from) /\
  n_user (n_block s [NTransfer p from]) !! from = None.
Proof.
  exists (n_run n_init [[NTransfer (fp 97 1 10) 0; NTransfer (fp 97 2 11) 1; NTransfer (fp 98 1 12) 0; NSet 1 [1] [98]]]), (fp 97 2 11), 1.
  split; [vm_compute; done|]. split; [vm_compute; done|]. split; [|vm_compute; done]. exists (fp 98 1 12). vm_compute. repeat split; try done; congruence.
Qed.
(** A ".eth" name whose proof moves to another account stays displayed by the first. *)
Definition eth : bytes := [97; 46; 101; 116; 104].
Theorem C62_eth_refuted : exists bs f t n, Forall (fun b => length b = 1%nat) bs /\ is_eth n = true /\
  n_user (n_run n_init bs) !! f = Some (t, n) /\ exists m, proof_by_name (n_p (n_run n_init bs)) n = Some m /\ p_claim m <> f /\ p_fid m <> f.
Proof.
  exists [[NProof (PMerge (PMsg 1 10 (repeat 1 20) [1] eth 1))]; [NSet 1 [1] eth]; [NProof (PMerge (PMsg 2 20 (repeat 2 20) [2] eth 2))]], 1, [1], eth.
  split; [repeat constructor|]. split; [done|]. split; [vm_compute; done|]. exists (PMsg 2 20 (repeat 2 20) [2] eth 2). vm_compute. repeat split; try done; congruence.
Qed.

Print Assumptions C20_username_proof_refuted.
Print Assumptions C21_no_dangling_name.
Print Assumptions C21_one_owner.
Print Assumptions C21_order_irrelevant.
Print Assumptions C21_accepted_iff.
Print Assumptions C21_history_partial.
Print Assumptions C21_deletes_first_partial.
Print Assumptions C21_deletion_effect_partial.
Print Assumptions C22_name_latest.
Print Assumptions C22_order_irrelevant_partial.
Print Assumptions C22_account_sound.
Print Assumptions C22_account_complete_partial.
Print Assumptions C22_trie_exact_partial.
Print Assumptions C62_displayed_owned_partial.
Print Assumptions C62_set_checked.
