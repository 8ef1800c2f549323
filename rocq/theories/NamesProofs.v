(** Facts about [Names]. *)
From Verif Require Export Names CodecProofs.
From Coq Require Import ZifyN ZifyNat ZifyBool.
#[local] Open Scope N_scope.

(** ** Username proofs *)

(** A message that passed validation: [nm] is the content the hash stands for (no two messages with one hash and different
    names). *)
Definition pm_ok (nm : bytes -> bytes) (m : pmsg) : Prop :=
  0 < p_fid m < 2 ^ 32 /\ p_ts m < 2 ^ 32 /\ length (p_hash m) = 20%nat /\ p_name m <> [] /\ nm (p_hash m) = p_name m.
(** [a] was issued after [b]: by time, ties by hash. *)
Definition newer (a b : pmsg) : bool := (p_ts b <? p_ts a) || (p_ts b =? p_ts a) && blt (p_hash b) (p_hash a).

(** The table of holders and its changes. *)
Definition sp_merge (h : gmap bytes pmsg) (m : pmsg) : gmap bytes pmsg :=
  match h !! p_name m with
  | Some x => if newer m x then <[p_name m := m]> h else h
  | None => <[p_name m := m]> h
  end.
Definition sp_delete (h : gmap bytes pmsg) (x : pmsg) : gmap bytes pmsg :=
  if bool_decide (h !! p_name x = Some x) then delete (p_name x) h else h.

Lemma fidk_small (f : N) : f < 2 ^ 32 -> fidk f = f.
Proof. apply N.mod_small. Qed.

Lemma sp_delete_lookup (h : gmap bytes pmsg) (x : pmsg) (n : bytes) :
  sp_delete h x !! n = if decide (h !! n = Some x /\ p_name x = n) then None else h !! n.
Proof.
  unfold sp_delete. case_bool_decide as E.
  - destruct (decide (p_name x = n)) as [<-|N].
    + rewrite lookup_delete, decide_True by done. done.
    + rewrite lookup_delete_ne by done. rewrite decide_False by tauto. done.
  - rewrite decide_False; [done|]. intros [H <-]. done.
Qed.

Section P.
Context (nm : bytes -> bytes).

Lemma ok_tsh (m : pmsg) : pm_ok nm m -> exists t, p_tsh m = Some t.
Proof.
  intros (_ & _ & L & _). unfold p_tsh, make_ts_hash. rewrite L. cbn [Nat.eqb]. eauto.
Qed.
Lemma tsh_blt (a b : pmsg) (s t : bytes) : pm_ok nm a -> pm_ok nm b -> p_tsh a = Some s -> p_tsh b = Some t ->
  blt s t = newer b a.
Proof.
  intros Ha Hb Es Et. unfold p_tsh in *. destruct Ha as (_ & Ta & _), Hb as (_ & Tb & _).
  apply eq_true_iff_eq. rewrite (ts_hash_order _ _ _ _ _ _ Ta Tb Es Et). unfold newer.
  destruct (blt (p_hash a) (p_hash b)); lia.
Qed.
Lemma tsh_cmp (a b : pmsg) (s t : bytes) : pm_ok nm a -> pm_ok nm b -> p_tsh a = Some s -> p_tsh b = Some t ->
  lex s t = if newer b a then Lt else if newer a b then Gt else Eq.
Proof.
  intros Ha Hb Es Et. rewrite <- (tsh_blt a b s t), <- (tsh_blt b a t s) by done.
  destruct (lex s t) eqn:L.
  - apply lex_eq in L as ->. rewrite blt_irrefl. done.
  - apply blt_lex in L. rewrite L. done.
  - assert (lex t s = Lt) as L' by (rewrite lex_antisym, L; done).
    apply blt_lex in L'. rewrite (blt_asym _ _ L'), L'. done.
Qed.
Lemma tsh_inj (a b : pmsg) (t : bytes) : pm_ok nm a -> pm_ok nm b -> p_tsh a = Some t -> p_tsh b = Some t ->
  p_ts a = p_ts b /\ p_hash a = p_hash b.
Proof. intros (_ & ? & _) (_ & ? & _). unfold p_tsh. apply ts_hash_inj; done. Qed.
Lemma newer_irrefl (a : pmsg) : newer a a = false.
Proof. unfold newer. rewrite blt_irrefl. lia. Qed.
Lemma newer_trans (a b c : pmsg) : newer a b = true -> newer b c = true -> newer a c = true.
Proof.
  unfold newer. intros H1 H2. destruct (blt (p_hash b) (p_hash a)) eqn:B1, (blt (p_hash c) (p_hash b)) eqn:B2; [| |..];
    try (assert ((p_ts c <? p_ts a) = true) as -> by lia; done).
  rewrite (blt_trans _ _ _ B2 B1). lia.
Qed.
Lemma newer_total (a b : pmsg) : newer a b = false -> newer b a = false -> p_ts a = p_ts b /\ p_hash a = p_hash b.
Proof.
  unfold newer. intros H1 H2. assert (p_ts a = p_ts b) as E by lia. split; [done|].
  rewrite E, N.ltb_irrefl, N.eqb_refl in *. cbn [orb andb] in H1, H2.
  destruct (blt_total (p_hash a) (p_hash b)) as [?|[?|?]]; congruence.
Qed.

(** The store holds exactly the table [h]. *)
Definition prep (v : pst) (h : gmap bytes pmsg) : Prop :=
  (forall (n : bytes) (x : pmsg), h !! n = Some x -> p_name x = n /\ pm_ok nm x) /\
  (forall n : bytes, ps_name v !! n = p_fid <$> h !! n) /\
  (forall (f : N) (n : bytes), ps_adds v !! (f, n) = x ← h !! n; if f =? p_fid x then p_tsh x else None) /\
  (forall (f : N) (t : bytes) (x : pmsg), ps_rows v !! (f, t) = Some x <-> h !! p_name x = Some x /\ p_fid x = f /\ p_tsh x = Some t).

Lemma prep_init : prep ps_init ∅.
Proof.
  split; [|split; [|split]].
  - intros n x H. by rewrite lookup_empty in H.
  - done.
  - done.
  - intros f t x. cbn [ps_init ps_rows]. rewrite !lookup_empty. split; [done|intros [H _]; done].
Qed.

Lemma prep_by_name (v : pst) (h : gmap bytes pmsg) (n : bytes) : prep v h -> proof_by_name v n = h !! n.
Proof.
  intros (A & B & C & D). unfold proof_by_name. rewrite B. destruct (h !! n) as [x|] eqn:E; cbn [fmap option_fmap option_map mbind option_bind]; [|done].
  rewrite C, E. cbn [mbind option_bind]. rewrite N.eqb_refl. destruct (A _ _ E) as [<- Hx]. destruct (ok_tsh x Hx) as [t Ht].
  rewrite Ht. apply D. done.
Qed.

Lemma prep_conflicts (v : pst) (h : gmap bytes pmsg) (m : pmsg) (t : bytes) : prep v h -> pm_ok nm m -> p_tsh m = Some t ->
  p_conflicts v m t = match h !! p_name m with
                      | None => inr []
                      | Some x => if newer m x then inr [x] else if newer x m then inl PConflict else inl PDuplicate
                      end.
Proof.
  intros (A & B & C & D) Hm Et. unfold p_conflicts. rewrite B. destruct (h !! p_name m) as [x|] eqn:E; [|done].
  cbn [fmap option_fmap option_map]. destruct (A _ _ E) as [En Hx]. destruct (ok_tsh x Hx) as [s Es].
  assert ((p_fid x =? 0) = false) as -> by (destruct Hx; lia). rewrite C, E. cbn [mbind option_bind]. rewrite N.eqb_refl, Es.
  assert (ps_rows v !! (p_fid x, s) = Some x) as -> by (apply D; rewrite En; done).
  rewrite (tsh_cmp x m s t) by done. destruct (newer m x); [done|]. destruct (newer x m); done.
Qed.

Lemma prep_delete (v : pst) (h : gmap bytes pmsg) (x : pmsg) : prep v h -> h !! p_name x = Some x ->
  prep (p_delete v x).1 (delete (p_name x) h) /\ (p_delete v x).2 = None.
Proof.
  intros (A & B & C & D) E. destruct (A _ _ E) as [_ Hx]. destruct (ok_tsh x Hx) as [t Et]. unfold p_delete.
  rewrite (fidk_small (p_fid x)) by (destruct Hx; lia). rewrite Et.
  destruct (p_name x) as [|c l] eqn:En; [destruct Hx as (_ & _ & _ & ? & _); done|]. rewrite <- En in *. clear c l En.
  cbn [fst snd ps_rows ps_adds ps_name]. split; [|done]. split; [|split; [|split]]; cbn [ps_rows ps_adds ps_name].
  - intros n y Hy. apply lookup_delete_Some in Hy as [_ Hy]. auto.
  - intros n. destruct (decide (n = p_name x)) as [->|N1].
    + rewrite !lookup_delete. done.
    + rewrite !lookup_delete_ne by done. apply B.
  - intros f n. destruct (decide (n = p_name x)) as [->|N1].
    + rewrite lookup_delete. cbn [mbind option_bind]. destruct (decide (f = p_fid x)) as [->|N2].
      * apply lookup_delete.
      * rewrite lookup_delete_ne by congruence. rewrite C, E. cbn [mbind option_bind].
        assert ((f =? p_fid x) = false) as -> by lia. done.
    + rewrite !lookup_delete_ne by congruence. apply C.
  - intros f s y. rewrite lookup_delete_Some, D. split.
    + intros (N1 & Hy & <- & Ey). split; [|done]. apply lookup_delete_Some. split; [|done]. intros Q. rewrite <- Q, E in Hy.
      injection Hy as ->. rewrite Et in Ey. injection Ey as ->. done.
    + intros (Hy & <- & Ey). apply lookup_delete_Some in Hy as [N1 Hy]. split; [|done].
      intros Q. injection Q as Q1 Q2. subst s. destruct (A _ _ Hy) as [_ Hok].
      destruct (tsh_inj x y t Hx Hok Et Ey) as [_ Hh]. destruct Hx as (_ & _ & _ & _ & F1), Hok as (_ & _ & _ & _ & F2).
      congruence.
Qed.

Lemma prep_put (v : pst) (h : gmap bytes pmsg) (m : pmsg) (t : bytes) : prep v h -> pm_ok nm m -> p_tsh m = Some t ->
  h !! p_name m = None -> prep (p_put v m t).1 (<[p_name m := m]> h) /\ (p_put v m t).2 = None.
Proof.
  intros (A & B & C & D) Hm Et E. unfold p_put. rewrite (fidk_small (p_fid m)) by (destruct Hm; lia).
  destruct (p_name m) as [|c l] eqn:En; [destruct Hm as (_ & _ & _ & ? & _); done|]. rewrite <- En in *. clear c l En.
  cbn [fst snd ps_rows ps_adds ps_name]. split; [|done]. split; [|split; [|split]]; cbn [ps_rows ps_adds ps_name].
  - intros n y [[<- <-]|[_ Hy]]%lookup_insert_Some; auto.
  - intros n. destruct (decide (n = p_name m)) as [->|N1].
    + rewrite !lookup_insert. done.
    + rewrite !lookup_insert_ne by done. apply B.
  - intros f n. destruct (decide (n = p_name m)) as [->|N1].
    + rewrite lookup_insert. cbn [mbind option_bind]. destruct (decide (f = p_fid m)) as [->|N2].
      * rewrite lookup_insert, N.eqb_refl. done.
      * rewrite lookup_insert_ne by congruence. rewrite C, E. cbn [mbind option_bind].
        assert ((f =? p_fid m) = false) as -> by lia. done.
    + rewrite !lookup_insert_ne by congruence. apply C.
  - intros f s y. rewrite lookup_insert_Some, D. split.
    + intros [[Q <-]|(N1 & Hy & <- & Ey)].
      * injection Q as <- <-. rewrite lookup_insert. done.
      * split; [|done]. rewrite lookup_insert_ne; [done|]. intros Q. rewrite <- Q in Hy. congruence.
    + intros (Hy & <- & Ey). apply lookup_insert_Some in Hy as [[Q <-]|[N1 Hy]].
      * left. rewrite Et in Ey. injection Ey as ->. done.
      * right. split; [|done]. intros Q. injection Q as Q1 Q2. subst s. destruct (A _ _ Hy) as [_ Hok].
        destruct (tsh_inj m y t Hm Hok Et Ey) as [_ Hh]. destruct Hm as (_ & _ & _ & _ & F1), Hok as (_ & _ & _ & _ & F2).
        congruence.
Qed.

Definition sp_accepts (h : gmap bytes pmsg) (m : pmsg) : bool :=
  match h !! p_name m with Some x => newer m x | None => true end.

Lemma prep_merge (v : pst) (h : gmap bytes pmsg) (m : pmsg) : prep v h -> pm_ok nm m ->
  prep (p_merge v m).1 (sp_merge h m) /\ ((p_merge v m).2 = None <-> sp_accepts h m = true).
Proof.
  intros P Hm. destruct (ok_tsh m Hm) as [t Et]. unfold p_merge, sp_merge, sp_accepts. rewrite Et, (prep_conflicts v h m t) by done.
  destruct (h !! p_name m) as [x|] eqn:E.
  - destruct (newer m x); [|destruct (newer x m); cbn [fst snd]; split; done].
    assert (p_name x = p_name m) as En by (apply P in E; apply E).
    destruct (prep_delete v h x P) as [P1 N1]; [congruence|].
    destruct (p_delete v x) as [v' o]. cbn [fst snd] in P1, N1. subst o. rewrite En in P1.
    destruct (prep_put v' _ m t P1 Hm Et (lookup_delete _ _)) as [P2 N2]. rewrite insert_delete_insert in P2. done.
  - destruct (prep_put v _ m t P Hm Et E) as [P2 N2]. done.
Qed.

(** Deleting a message that is not stored, when nobody holds its name, changes nothing. *)
Lemma prep_delete_absent (v : pst) (h : gmap bytes pmsg) (x : pmsg) : prep v h -> pm_ok nm x -> h !! p_name x = None ->
  prep (p_delete v x).1 h.
Proof.
  intros (A & B & C & D) Hx E. destruct (ok_tsh x Hx) as [t Et]. unfold p_delete.
  rewrite (fidk_small (p_fid x)) by (destruct Hx; lia). rewrite Et.
  destruct (p_name x) as [|c l] eqn:En; [destruct Hx as (_ & _ & _ & ? & _); done|]. rewrite <- En in *. clear c l En.
  cbn [fst ps_rows ps_adds ps_name]. split; [done|split; [|split]]; cbn [ps_rows ps_adds ps_name].
  - intros n. rewrite <- B. destruct (decide (n = p_name x)) as [->|N1].
    + rewrite lookup_delete, B, E. done.
    + rewrite lookup_delete_ne by done. done.
  - intros f n. rewrite <- C. destruct (decide ((p_fid x, p_name x) = (f, n))) as [Q|Q].
    + rewrite Q, lookup_delete. injection Q as <- <-. rewrite C, E. done.
    + rewrite lookup_delete_ne by done. done.
  - intros f s y. rewrite <- D. rewrite lookup_delete_Some. split; [intros [_ ?]; done|]. intros Hy. split; [|done].
    intros Q. injection Q as <- <-. apply D in Hy as (Hy & _ & Ey). destruct (A _ _ Hy) as [_ Hok].
    destruct (tsh_inj x y t Hx Hok Et Ey) as [_ Hh]. destruct Hx as (_ & _ & _ & _ & F1), Hok as (_ & _ & _ & _ & F2).
    congruence.
Qed.

(** Rows of an account. *)
Lemma rows_of_elem (v : pst) (h : gmap bytes pmsg) (f : N) (x : pmsg) : prep v h -> f < 2 ^ 32 ->
  x ∈ p_rows_of v f <-> h !! p_name x = Some x /\ p_fid x = f.
Proof.
  intros P Hf. unfold p_rows_of. rewrite elem_of_list_fmap. split.
  - intros ([t y] & -> & H). rewrite merge_sort_Permutation, elem_of_list_omap in H. destruct H as ([[g s] z] & Hz & Q).
    cbn [fst snd] in Q. apply elem_of_map_to_list in Hz. destruct (N.eqb_spec g (fidk f)); [|done]. injection Q as <- <-.
    apply P in Hz as (? & ? & _). rewrite fidk_small in e by done. cbn [snd]. split; congruence.
  - intros [H <-]. destruct P as (A & _ & _ & D). destruct (A _ _ H) as [_ Hx]. destruct (ok_tsh x Hx) as [t Et].
    exists (t, x). split; [done|]. rewrite merge_sort_Permutation, elem_of_list_omap. exists ((p_fid x, t), x).
    rewrite elem_of_map_to_list, D. cbn [fst snd]. rewrite fidk_small, N.eqb_refl by done. done.
Qed.
Lemma rows_of_NoDup (v : pst) (h : gmap bytes pmsg) (f : N) : prep v h -> NoDup (p_rows_of v f).
Proof.
  intros P. unfold p_rows_of. apply NoDup_fmap_2_strong.
  - intros [s x] [t y]. rewrite !merge_sort_Permutation, !elem_of_list_omap.
    intros ([[g1 s1] x1] & H1 & Q1) ([[g2 s2] x2] & H2 & Q2). cbn [fst snd] in *.
    destruct (g1 =? fidk f); [|done]. destruct (g2 =? fidk f); [|done]. injection Q1 as <- <-. injection Q2 as <- <-.
    intros ->. apply elem_of_map_to_list, P in H1 as (_ & _ & E1). apply elem_of_map_to_list, P in H2 as (_ & _ & E2). congruence.
  - rewrite merge_sort_Permutation. pose proof (NoDup_fst_map_to_list (ps_rows v)) as ND.
    induction (map_to_list (ps_rows v)) as [|[[g s] x] l IH]; cbn [omap list_omap]; [constructor|].
    inversion ND as [|? ? ND1 ND2]; subst. cbn [fst snd]. destruct (g =? fidk f) eqn:Eg; [|auto]. apply N.eqb_eq in Eg. constructor; [|auto].
    rewrite elem_of_list_omap. intros ([[g2 s2] x2] & H2 & Q2). cbn [fst snd] in Q2. destruct (g2 =? fidk f) eqn:Eg2; [|done].
    apply N.eqb_eq in Eg2. injection Q2 as <- <-. apply ND1. apply elem_of_list_fmap. exists ((g2, s2), x2). split; [cbn; congruence|done].
Qed.
Lemma rows_of_sorted (v : pst) (h : gmap bytes pmsg) (f : N) : prep v h ->
  StronglySorted (fun a b => newer b a = true \/ newer a b = false) (p_rows_of v f).
Proof.
  intros P. unfold p_rows_of.
  set (l := omap _ _). assert (forall r, r ∈ merge_sort prow_le l -> pm_ok nm r.2 /\ p_tsh r.2 = Some r.1) as W.
  { intros [t x]. rewrite merge_sort_Permutation. unfold l. rewrite elem_of_list_omap. intros ([[g s] z] & Hz & Q). cbn [fst snd] in *.
    destruct (g =? fidk f); [|done]. injection Q as <- <-. apply elem_of_map_to_list, P in Hz as (Hn & _ & Ht).
    apply P in Hn as [_ Hn]. done. }
  assert (StronglySorted prow_le (merge_sort prow_le l)) as S.
  { apply StronglySorted_merge_sort.
    - intros a b c. unfold prow_le. apply ble_trans.
    - intros a b. unfold prow_le. destruct (blt_total a.1 b.1) as [Q|[Q|Q]]; rewrite ?ble_eq_or_lt; auto. }
  revert W S. generalize (merge_sort prow_le l). clear l. intros k. induction k as [|a k IH]; cbn [map]; intros W S; [constructor|].
  inversion S as [|? ? S1 F1]; subst. constructor; [apply IH; [|done]; intros; apply W; by right|].
  apply Forall_fmap, Forall_forall. intros b Hb. rewrite Forall_forall in F1.
  destruct (W a) as [Wa Ta]; [by left|]. destruct (W b) as [Wb Tb]; [by right|]. cbn [compose].
  assert (ble a.1 b.1 = true) as L by (by apply F1). apply ble_lex in L. rewrite (tsh_cmp a.2 b.2) in L by done.
  destruct (newer b.2 a.2); [by left|right]. by destruct (newer a.2 b.2).
Qed.

(** Victims of an operation. *)
Lemma victims_held (db : pst) (hd : gmap bytes pmsg) (o : pop) (x : pmsg) :
  prep db hd -> x ∈ p_victims db o -> hd !! p_name x = Some x.
Proof.
  intros P H. assert (forall (f : N), x ∈ p_rows_of db f -> hd !! p_name x = Some x) as G.
  { intros f Hf. unfold p_rows_of in Hf. apply elem_of_list_fmap in Hf as ([t y] & -> & H'). rewrite merge_sort_Permutation, elem_of_list_omap in H'.
    destruct H' as ([[g s] z] & Hz & Q). cbn [fst snd] in Q. apply elem_of_map_to_list, P in Hz. destruct (g =? fidk f); [|done].
    injection Q as <- <-. apply Hz. }
  destruct o as [m|f key|f k]; cbn [p_victims] in H; [by apply elem_of_nil in H|..].
  - by apply elem_of_nil in H.
  - apply (G f). eapply elem_of_list_lookup in H as [i H]. apply lookup_take_Some in H as [H _]. by eapply elem_of_list_lookup_2.
Qed.

(** An operation is clean in a block when no message it takes away was displaced earlier in the block. *)
Definition p_clean (db v : pst) (o : pop) : bool :=
  forallb (fun x => bool_decide (proof_by_name v (p_name x) = Some x) || bool_decide (proof_by_name v (p_name x) = None)) (p_victims db o).
Definition sp_step (db : pst) (h : gmap bytes pmsg) (o : pop) : gmap bytes pmsg :=
  match o with PMerge m => sp_merge h m | _ => foldl sp_delete h (p_victims db o) end.
Definition pop_ok (o : pop) : Prop := match o with PMerge m => pm_ok nm m | _ => True end.

Lemma prep_deletes (v : pst) (h : gmap bytes pmsg) (xs : list pmsg) : prep v h ->
  (forall x, x ∈ xs -> pm_ok nm x /\ (h !! p_name x = Some x \/ h !! p_name x = None)) ->
  prep (foldl (fun v x => (p_delete v x).1) v xs) (foldl sp_delete h xs).
Proof.
  revert v h. induction xs as [|x xs IH]; intros v h P H; [done|]. cbn [foldl]. apply IH.
  - destruct (H x) as [Hx [Q|Q]]; [by left|..]; unfold sp_delete.
    + rewrite bool_decide_true by done. by apply prep_delete.
    + rewrite bool_decide_false by congruence. by apply prep_delete_absent.
  - intros y Hy. destruct (H y) as [Hok Q]; [by right|]. split; [done|]. rewrite sp_delete_lookup. case_decide as D; [by right|done].
Qed.

Lemma prep_step (db v : pst) (hd h : gmap bytes pmsg) (o : pop) : prep db hd -> prep v h -> pop_ok o -> p_clean db v o = true ->
  prep (p_step db v o) (sp_step db h o).
Proof.
  intros Pd P Ho C.
  assert (prep (foldl (fun v x => (p_delete v x).1) v (p_victims db o)) (foldl sp_delete h (p_victims db o))) as G.
  { apply prep_deletes; [done|]. intros x Hx. split.
    - eapply victims_held in Hx; [|done]. destruct Pd as (A & _). apply (A _ _ Hx).
    - unfold p_clean in C. rewrite forallb_forall in C. apply elem_of_list_In, C in Hx.
      rewrite !(prep_by_name v h) in Hx by done. apply orb_true_iff in Hx as [Hx|Hx]; apply bool_decide_eq_true in Hx; auto. }
  destruct o as [m|f key|f k]; cbn [p_step sp_step]; [|done|done]. apply prep_merge; done.
Qed.

Fixpoint clean_block (db v : pst) (os : list pop) : bool :=
  match os with [] => true | o :: r => p_clean db v o && clean_block db (p_step db v o) r end.
Fixpoint clean_run (s : pst) (bs : list (list pop)) : bool :=
  match bs with [] => true | b :: r => clean_block s s b && clean_run (p_block s b) r end.
Fixpoint sp_run (s : pst) (h : gmap bytes pmsg) (bs : list (list pop)) : gmap bytes pmsg :=
  match bs with [] => h | b :: r => sp_run (p_block s b) (foldl (sp_step s) h b) r end.

Lemma prep_steps (db v : pst) (hd h : gmap bytes pmsg) (os : list pop) : prep db hd -> prep v h -> Forall pop_ok os ->
  clean_block db v os = true -> prep (foldl (p_step db) v os) (foldl (sp_step db) h os).
Proof.
  intros Pd. revert v h. induction os as [|o os IH]; intros v h P F C; [done|]. cbn [foldl clean_block] in *.
  apply andb_true_iff in C as [C1 C2]. inversion F; subst. apply IH; [|done..]. by eapply prep_step.
Qed.
Lemma prep_run (s : pst) (h : gmap bytes pmsg) (bs : list (list pop)) : prep s h -> Forall (Forall pop_ok) bs ->
  clean_run s bs = true -> prep (p_run s bs) (sp_run s h bs).
Proof.
  unfold p_run. revert s h. induction bs as [|b bs IH]; intros s h P F C; [done|]. cbn [foldl clean_run sp_run] in *.
  apply andb_true_iff in C as [C1 C2]. inversion F; subst. apply IH; [|done..]. by eapply prep_steps.
Qed.

(** Merges only. *)
Lemma merges_clean (db v : pst) (ms : list pmsg) : clean_block db v (map PMerge ms) = true.
Proof. revert v. induction ms as [|m ms IH]; intros v; [done|]. cbn [map clean_block p_clean p_victims forallb andb]. apply IH. Qed.
Lemma merges_run_clean (s : pst) (bs : list (list pmsg)) : clean_run s (map (map PMerge) bs) = true.
Proof.
  revert s. induction bs as [|b bs IH]; intros s; [done|]. cbn [map clean_run]. rewrite merges_clean. cbn [andb]. apply IH.
Qed.
Lemma merges_sp (db : pst) (h : gmap bytes pmsg) (ms : list pmsg) : foldl (sp_step db) h (map PMerge ms) = foldl sp_merge h ms.
Proof. revert h. induction ms as [|m ms IH]; intros h; [done|]. cbn [map foldl sp_step]. apply IH. Qed.
Lemma merges_run_sp (s : pst) (h : gmap bytes pmsg) (bs : list (list pmsg)) :
  sp_run s h (map (map PMerge) bs) = foldl sp_merge h (concat bs).
Proof.
  revert s h. induction bs as [|b bs IH]; intros s h; [done|]. cbn [map sp_run concat]. rewrite foldl_app, IH, merges_sp. done.
Qed.
End P.

Definition winner (ms : list pmsg) (n : bytes) (r : option pmsg) : Prop :=
  match r with
  | Some x => x ∈ ms /\ p_name x = n /\ forall m, m ∈ ms -> p_name m = n -> newer m x = false
  | None => forall m, m ∈ ms -> p_name m <> n
  end.
Lemma sp_merge_winner (ms : list pmsg) (n : bytes) : winner ms n (foldl sp_merge ∅ ms !! n).
Proof.
  induction ms as [|m ms IH] using rev_ind.
  - cbn [foldl]. rewrite lookup_empty. cbn [winner]. intros m H. by apply elem_of_nil in H.
  - rewrite foldl_app. cbn [foldl]. set (h := foldl sp_merge ∅ ms) in *. unfold sp_merge.
    assert (forall r, p_name m <> n -> winner ms n r -> winner (ms ++ [m]) n r) as G.
    { intros [x|] N1 W; cbn [winner] in *.
      - destruct W as (W1 & W2 & W3). split; [apply elem_of_app; by left|split; [done|]]. intros y [Hy|Hy%elem_of_list_singleton]%elem_of_app; [auto|].
        intros E. subst y. done.
      - intros y [Hy|Hy%elem_of_list_singleton]%elem_of_app; [auto|]. by subst y. }
    destruct (decide (p_name m = n)) as [E|E].
    + rewrite E. destruct (h !! n) as [x|] eqn:Hn.
      * cbn [winner] in IH. destruct IH as (W1 & W2 & W3). destruct (newer m x) eqn:B.
        -- rewrite lookup_insert. cbn [winner]. split; [apply elem_of_app; right; by apply elem_of_list_singleton|split; [done|]].
           intros y [Hy|Hy%elem_of_list_singleton]%elem_of_app Ey.
           ++ destruct (newer y m) eqn:Q; [|done]. rewrite <- (W3 y) by done. symmetry. by apply (newer_trans y m x).
           ++ subst y. apply newer_irrefl.
        -- rewrite Hn. cbn [winner]. split; [apply elem_of_app; by left|split; [done|]].
           intros y [Hy|Hy%elem_of_list_singleton]%elem_of_app Ey; [auto|]. by subst y.
      * rewrite lookup_insert. cbn [winner] in *. split; [apply elem_of_app; right; by apply elem_of_list_singleton|split; [done|]].
        intros y [Hy|Hy%elem_of_list_singleton]%elem_of_app Ey; [by apply IH in Hy|]. subst y. apply newer_irrefl.
    + assert ((match h !! p_name m with Some x => if newer m x then <[p_name m:=m]> h else h | None => <[p_name m:=m]> h end) !! n = h !! n) as ->.
      { repeat case_match; rewrite ?lookup_insert_ne by done; done. }
      apply G; done.
Qed.

(** Deleting several messages. *)
Lemma sp_deletes_lookup (xs : list pmsg) (h : gmap bytes pmsg) (n : bytes) :
  foldl sp_delete h xs !! n = match h !! n with
                              | Some x => if decide (x ∈ xs /\ p_name x = n) then None else Some x
                              | None => None
                              end.
Proof.
  revert h. induction xs as [|y xs IH]; intros h; cbn [foldl].
  - destruct (h !! n); [|done]. rewrite decide_False; [done|]. intros [H _]. by apply elem_of_nil in H.
  - rewrite IH, sp_delete_lookup. destruct (h !! n) as [x|] eqn:E.
    + destruct (decide (Some x = Some y /\ p_name y = n)) as [[Q1 Q2]|Q].
      * injection Q1 as ->. rewrite decide_True; [done|]. split; [by left|done].
      * destruct (decide (x ∈ xs /\ p_name x = n)) as [D|D].
        -- rewrite decide_True; [done|]. split; [right|]; apply D.
        -- rewrite decide_False; [done|]. intros [[->|H]%elem_of_cons H2]; [apply Q; done|apply D; done].
    + destruct (decide _); done.
Qed.

(** A block none of whose deletions follows a merge of the same name is clean. *)
Lemma early_deletes_clean (nm : bytes -> bytes) (db v : pst) (hd h : gmap bytes pmsg) (merged : list bytes) (os : list pop) :
  prep nm db hd -> prep nm v h -> Forall (pop_ok nm) os ->
  (forall n, n ∉ merged -> h !! n = hd !! n \/ h !! n = None) ->
  (forall a o b, os = a ++ o :: b -> forall x, x ∈ p_victims db o ->
     p_name x ∉ merged /\ forall m, PMerge m ∈ a -> p_name m <> p_name x) ->
  clean_block db v os = true.
Proof.
  intros Pd. revert v h merged. induction os as [|o os IH]; intros v h merged P F M H; [done|].
  cbn [clean_block]. inversion F; subst. apply andb_true_iff.
  assert (p_clean db v o = true) as C.
  { unfold p_clean. apply forallb_forall. intros x Hx. apply elem_of_list_In in Hx. rewrite !(prep_by_name nm v h) by done.
    destruct (H [] o os eq_refl x Hx) as [N1 _]. pose proof (victims_held nm db hd o x Pd Hx) as E.
    destruct (M _ N1) as [Q|Q]; rewrite Q, ?E; [by rewrite bool_decide_true|apply orb_true_r]. }
  split; [done|].
  apply (IH _ (sp_step db h o) (match o with PMerge m => p_name m :: merged | _ => merged end)).
  - by eapply prep_step.
  - done.
  - intros n Hn. destruct o as [m|f k|f k]; cbn [sp_step].
    + apply not_elem_of_cons in Hn as [N1 N2]. unfold sp_merge.
      assert ((match h !! p_name m with Some x => if newer m x then <[p_name m:=m]> h else h | None => <[p_name m:=m]> h end) !! n = h !! n) as ->.
      { repeat case_match; rewrite ?lookup_insert_ne by done; done. }
      auto.
    + rewrite sp_deletes_lookup. destruct (M n Hn) as [Q|Q]; rewrite Q; [|by right]. destruct (hd !! n); [|by left]. case_decide; auto.
    + rewrite sp_deletes_lookup. destruct (M n Hn) as [Q|Q]; rewrite Q; [|by right]. destruct (hd !! n); [|by left]. case_decide; auto.
  - intros a o' b E x Hx. destruct (H (o :: a) o' b) with (x := x) as [N1 N2]; [by rewrite E|done|]. split.
    + destruct o as [m|f k|f k]; [|done..]. apply not_elem_of_cons. split; [|done]. intros Q. apply (N2 m); [by left|done].
    + intros m Hm. apply N2. by right.
Qed.

(** ** Registered names *)

(** [a] was issued after [b]. *)
Definition f_newer (a b : fproof) : bool := (f_ts b <? f_ts a) || (f_ts b =? f_ts a) && blt (f_sig b) (f_sig a).
Lemma f_cmp_newer (a b : fproof) : f_cmp a b = if f_newer b a then Lt else if f_newer a b then Gt else Eq.
Proof.
  unfold f_cmp, f_newer. destruct (N.compare_spec (f_ts a) (f_ts b)) as [Q|Q|Q].
  - rewrite Q, N.ltb_irrefl, N.eqb_refl. cbn [orb andb]. destruct (lex (f_sig a) (f_sig b)) eqn:L.
    + apply lex_eq in L. rewrite L, blt_irrefl. done.
    + apply blt_lex in L. rewrite L. done.
    + assert (lex (f_sig b) (f_sig a) = Lt) as L' by (rewrite lex_antisym, L; done).
      apply blt_lex in L'. rewrite (blt_asym _ _ L'), L'. done.
  - apply N.ltb_lt in Q. rewrite Q. done.
  - assert ((f_ts a <? f_ts b) = false) as -> by lia. assert ((f_ts a =? f_ts b) = false) as -> by lia.
    assert ((f_ts b <? f_ts a) = true) as -> by lia. done.
Qed.
Lemma f_newer_irrefl (a : fproof) : f_newer a a = false.
Proof. unfold f_newer. rewrite blt_irrefl. lia. Qed.
Lemma f_newer_trans (a b c : fproof) : f_newer a b = true -> f_newer b c = true -> f_newer a c = true.
Proof.
  unfold f_newer. intros H1 H2. destruct (blt (f_sig b) (f_sig a)) eqn:B1, (blt (f_sig c) (f_sig b)) eqn:B2;
    try (assert ((f_ts c <? f_ts a) = true) as -> by lia; done).
  rewrite (blt_trans _ _ _ B2 B1). lia.
Qed.
Lemma f_newer_total (a b : fproof) : f_newer a b = false -> f_newer b a = false -> f_ts a = f_ts b /\ f_sig a = f_sig b.
Proof.
  unfold f_newer. intros H1 H2. assert (f_ts a = f_ts b) as E by lia. split; [done|].
  rewrite E, N.ltb_irrefl, N.eqb_refl in *. cbn [orb andb] in H1, H2.
  destruct (blt_total (f_sig a) (f_sig b)) as [?|[?|?]]; congruence.
Qed.

Definition f_accepts (t : gmap bytes fproof) (p : fproof) : bool :=
  match t !! f_name p with Some o => f_newer p o | None => negb (f_fid p =? 0) end.
Definition f_byfid (s : fst_) (p : fproof) : gmap N bytes :=
  let byfid := if f_fid p =? 0 then fs_fid s else <[fidk (f_fid p) := f_name p]> (fs_fid s) in
  match fs_name s !! f_name p with Some o => delete (fidk (f_fid o)) byfid | None => byfid end.
Lemma f_merge_eq (s : fst_) (p : fproof) :
  ((f_merge s p).2 = None <-> f_accepts (fs_name s) p = true) /\
  (f_merge s p).1 = if f_accepts (fs_name s) p
                    then FSt (<[f_name p := p]> (fs_name s)) (f_byfid s p) (f_trie (fs_trie s) p (fs_name s !! f_name p)) else s.
Proof.
  unfold f_merge, f_accepts, f_byfid, f_write. destruct (fs_name s !! f_name p) as [o|].
  - rewrite f_cmp_newer. destruct (f_newer p o); [split; [split|]; done|]. destruct (f_newer o p); (split; [split|]; done).
  - cbn [andb]. destruct (f_fid p =? 0); (split; [split|]; done).
Qed.

(** The proofs of a name that count: from the first that gives it an owner. *)
Fixpoint live (n : bytes) (ps : list fproof) : list fproof :=
  match ps with
  | [] => []
  | p :: r => if bool_decide (f_name p = n) && negb (f_fid p =? 0) then List.filter (fun q => bool_decide (f_name q = n)) (p :: r) else live n r
  end.
Definition f_winner (l : list fproof) (r : option fproof) : Prop :=
  match r with Some p => p ∈ l /\ forall q, q ∈ l -> f_newer q p = false | None => l = [] end.
Lemma live_snoc (n : bytes) (ps : list fproof) (p : fproof) :
  live n (ps ++ [p]) = if bool_decide (f_name p = n) && negb (bool_decide (live n ps = []) && (f_fid p =? 0)) then live n ps ++ [p] else live n ps.
Proof.
  induction ps as [|q ps IH]; cbn [live app].
  - rewrite (bool_decide_true (@nil fproof = [])) by done. cbn [andb List.filter]. destruct (bool_decide (f_name p = n)) eqn:E; [|done].
    cbn [andb]. destruct (f_fid p =? 0); done.
  - destruct (bool_decide (f_name q = n) && negb (f_fid q =? 0)) eqn:E; [|done].
    apply andb_true_iff in E as [E1 E2]. cbn [List.filter]. rewrite E1. rewrite (bool_decide_false (_ :: _ = [])) by done. cbn [andb negb].
    rewrite List.filter_app. cbn [List.filter]. destruct (bool_decide (f_name p = n)); cbn [andb]; [done|]. by rewrite app_nil_r.
Qed.
Lemma fs_name_winner (ps : list fproof) (n : bytes) : f_winner (live n ps) (fs_name (f_run fs_init ps) !! n).
Proof.
  unfold f_run. induction ps as [|p ps IH] using rev_ind; [done|].
  rewrite foldl_app, live_snoc. cbn [foldl]. set (s := foldl _ _ ps) in *. rewrite (proj2 (f_merge_eq s p)). unfold f_accepts.
  destruct (bool_decide (f_name p = n)) eqn:En; cbn [andb].
  - apply bool_decide_eq_true in En. rewrite En. destruct (fs_name s !! n) as [o|] eqn:Eo; cbn [f_winner] in IH.
    + destruct IH as [I1 I2]. rewrite bool_decide_false by (intros Q; rewrite Q in I1; by apply elem_of_nil in I1). cbn [andb negb].
      destruct (f_newer p o) eqn:W; cbn [fs_name].
      * rewrite lookup_insert. cbn [f_winner]. split; [apply elem_of_app; right; by apply elem_of_list_singleton|].
        intros q [Hq|Hq%elem_of_list_singleton]%elem_of_app; [|subst q; apply f_newer_irrefl].
        destruct (f_newer q p) eqn:Q; [|done]. rewrite <- (I2 q) by done. symmetry. by apply (f_newer_trans q p o).
      * rewrite Eo. cbn [f_winner]. split; [apply elem_of_app; by left|].
        intros q [Hq|Hq%elem_of_list_singleton]%elem_of_app; [auto|by subst q].
    + rewrite IH, bool_decide_true by done. cbn [andb]. destruct (f_fid p =? 0); cbn [negb fs_name].
      * rewrite Eo. done.
      * rewrite lookup_insert. cbn [f_winner app]. split; [by left|]. intros q Hq%elem_of_list_singleton. subst q. apply f_newer_irrefl.
  - apply bool_decide_eq_false in En.
    match goal with |- f_winner _ (fs_name (if ?b then _ else _) !! n) => destruct b; cbn [fs_name] end;
      rewrite ?lookup_insert_ne by done; done.
Qed.

(** By-account rows are sound. *)
Definition f_sound (s : fst_) : Prop :=
  forall (f : N) (n : bytes), fs_fid s !! f = Some n -> exists p, fs_name s !! n = Some p /\ fidk (f_fid p) = f /\ f_fid p <> 0.
Definition f_named (s : fst_) : Prop := forall (n : bytes) (p : fproof), fs_name s !! n = Some p -> f_name p = n.
Lemma f_named_run (s : fst_) (ps : list fproof) : f_named s -> f_named (f_run s ps).
Proof.
  unfold f_run. revert s. induction ps as [|p ps IH]; intros s H; [done|]. cbn [foldl]. apply IH.
  rewrite (proj2 (f_merge_eq s p)). destruct (f_accepts _ _); [|done]. intros n q. cbn [fs_name].
  intros [[<- <-]|[_ Hq]]%lookup_insert_Some; [done|auto].
Qed.
Lemma f_sound_step (s : fst_) (p : fproof) : f_sound s -> f_sound (f_merge s p).1.
Proof.
  intros H. rewrite (proj2 (f_merge_eq s p)). destruct (f_accepts _ _); [|done]. intros f n. cbn [fs_name fs_fid]. unfold f_byfid.
  assert (forall o, fs_name s !! f_name p = Some o -> fidk (f_fid o) <> f ->
          (if f_fid p =? 0 then fs_fid s else <[fidk (f_fid p):=f_name p]> (fs_fid s)) !! f = Some n ->
          exists q, <[f_name p:=p]> (fs_name s) !! n = Some q /\ fidk (f_fid q) = f /\ f_fid q <> 0) as G1.
  { intros o Eo Nf. destruct (N.eqb_spec (f_fid p) 0) as [Z|Z].
    - intros E. destruct (H f n E) as (q & Q1 & Q2 & Q3). destruct (decide (f_name p = n)) as [<-|N1].
      + rewrite Eo in Q1. injection Q1 as ->. done.
      + rewrite lookup_insert_ne by done. eauto.
    - intros [[<- <-]|[N1 E]]%lookup_insert_Some; [rewrite lookup_insert; eauto|].
      destruct (H f n E) as (q & Q1 & Q2 & Q3). destruct (decide (f_name p = n)) as [<-|N2].
      + rewrite Eo in Q1. injection Q1 as ->. done.
      + rewrite lookup_insert_ne by done. eauto. }
  destruct (fs_name s !! f_name p) as [o|] eqn:Eo.
  - intros [N1 E]%lookup_delete_Some. eauto.
  - assert (forall m, fs_fid s !! m = Some (f_name p) -> False) as G2.
    { intros m E. destruct (H _ _ E) as (q & Q & _). congruence. }
    destruct (N.eqb_spec (f_fid p) 0) as [Z|Z].
    + intros E. destruct (H f n E) as (q & Q1 & Q2 & Q3). destruct (decide (f_name p = n)) as [<-|N1]; [by apply G2 in E|].
      rewrite lookup_insert_ne by done. eauto.
    + intros [[<- <-]|[N1 E]]%lookup_insert_Some; [rewrite lookup_insert; eauto|].
      destruct (H f n E) as (q & Q1 & Q2 & Q3). destruct (decide (f_name p = n)) as [<-|N2]; [by apply G2 in E|].
      rewrite lookup_insert_ne by done. eauto.
Qed.
Lemma f_sound_run (s : fst_) (ps : list fproof) : f_sound s -> f_sound (f_run s ps).
Proof. unfold f_run. revert s. induction ps as [|p ps IH]; intros s H; [done|]. cbn [foldl]. by apply IH, f_sound_step. Qed.

(** Histories without renewals (a name given again to its owner); with at most one name for each account. *)
Fixpoint no_renewals (s : fst_) (ps : list fproof) : bool :=
  match ps with
  | [] => true
  | p :: r => match fs_name s !! f_name p with
              | Some o => negb (f_accepts (fs_name s) p) || negb (f_fid o =? f_fid p) || (f_fid p =? 0)
              | None => true
              end && no_renewals (f_merge s p).1 r
  end.
Fixpoint one_name_each (s : fst_) (ps : list fproof) : bool :=
  match ps with
  | [] => true
  | p :: r => (negb (f_accepts (fs_name s) p) || (f_fid p =? 0) ||
               forallb (fun e => negb (f_fid e.2 =? f_fid p)) (map_to_list (fs_name s))) && one_name_each (f_merge s p).1 r
  end.
Definition f_small (p : fproof) : Prop := f_fid p < 2 ^ 32.
Definition f_smalls (s : fst_) : Prop := forall (n : bytes) (p : fproof), fs_name s !! n = Some p -> f_small p.
Lemma f_smalls_step (s : fst_) (p : fproof) : f_smalls s -> f_small p -> f_smalls (f_merge s p).1.
Proof.
  intros H Hp. rewrite (proj2 (f_merge_eq s p)). destruct (f_accepts _ _); [|done]. intros n q. cbn [fs_name].
  intros [[<- <-]|[_ Hq]]%lookup_insert_Some; [done|eauto].
Qed.

Definition f_complete (s : fst_) : Prop :=
  forall (n : bytes) (p : fproof), fs_name s !! n = Some p -> f_fid p <> 0 -> fs_fid s !! f_fid p = Some n.
Lemma f_complete_run (s : fst_) (ps : list fproof) : f_complete s -> f_smalls s -> Forall f_small ps -> one_name_each s ps = true ->
  f_complete (f_run s ps).
Proof.
  unfold f_run. revert s. induction ps as [|p ps IH]; intros s H Sm F C; [done|]. cbn [foldl one_name_each] in *.
  inversion F as [|? ? Hp F']; subst. apply andb_true_iff in C as [C1 C2]. apply IH; [|by apply f_smalls_step|done..].
  rewrite (proj2 (f_merge_eq s p)). destruct (f_accepts (fs_name s) p) eqn:A; [|done].
  cbn [negb orb] in C1. intros n q. cbn [fs_name fs_fid]. unfold f_byfid.
  assert (f_fid p <> 0 -> forall m o, fs_name s !! m = Some o -> f_fid o <> f_fid p) as U.
  { intros Z m o Eo. apply orb_true_iff in C1 as [C1|C1]; [lia|]. rewrite forallb_forall in C1.
    specialize (C1 (m, o)). cbn [snd] in C1. apply N.eqb_neq, negb_true_iff, C1, elem_of_list_In, elem_of_map_to_list. done. }
  unfold f_small in Hp. rewrite (fidk_small (f_fid p)) by done.
  intros [[<- <-]|[N1 Hq]]%lookup_insert_Some Z.
  - rewrite (proj2 (N.eqb_neq _ _) Z). destruct (fs_name s !! f_name p) as [o|] eqn:Eo; [|apply lookup_insert].
    pose proof (Sm _ _ Eo) as Ho. unfold f_small in Ho. rewrite (fidk_small (f_fid o)) by done.
    rewrite lookup_delete_ne by (by eapply U). apply lookup_insert.
  - pose proof (H _ _ Hq Z) as E.
    assert ((if f_fid p =? 0 then fs_fid s else <[f_fid p := f_name p]> (fs_fid s)) !! f_fid q = Some n) as E2.
    { destruct (N.eqb_spec (f_fid p) 0) as [Y|Y]; [done|]. rewrite lookup_insert_ne; [done|]. apply not_eq_sym. by eapply U. }
    destruct (fs_name s !! f_name p) as [o|] eqn:Eo; [|done]. pose proof (Sm _ _ Eo) as Ho. unfold f_small in Ho.
    rewrite (fidk_small (f_fid o)) by done. rewrite lookup_delete_ne; [done|]. intros Q.
    assert (f_fid o <> 0) as Zo by congruence. pose proof (H _ _ Eo Zo) as E3. congruence.
Qed.

(** The trie entries are those of the owned names. *)
Definition f_trie_exact (s : fst_) : Prop :=
  forall (f : N) (n : bytes), (f, n) ∈ fs_trie s <-> exists p, fs_name s !! n = Some p /\ f_fid p = f /\ f_fid p <> 0 /\ f_isf p = true.
Lemma f_trie_run (s : fst_) (ps : list fproof) : f_trie_exact s -> f_named s -> f_smalls s -> Forall f_small ps -> no_renewals s ps = true ->
  f_trie_exact (f_run s ps).
Proof.
  unfold f_run. revert s. induction ps as [|p ps IH]; intros s H Nm Sm F C; [done|]. cbn [foldl no_renewals] in *.
  inversion F as [|? ? Hp F']; subst. apply andb_true_iff in C as [C1 C2]. apply IH; [|by apply (f_named_run s [p])|by apply f_smalls_step|done..].
  rewrite (proj2 (f_merge_eq s p)). destruct (f_accepts (fs_name s) p) eqn:A; [|done]. cbn [negb orb] in C1.
  unfold f_small in Hp. unfold f_trie_exact in H. intros f n. cbn [fs_name fs_trie]. unfold f_trie. rewrite (fidk_small (f_fid p)) by done.
  assert ((f, n) ∈ (if f_isf p && negb (f_fid p =? 0) then fs_trie s ∪ {[(f_fid p, f_name p)]} else fs_trie s) <->
          (f, n) ∈ fs_trie s \/ (f_isf p = true /\ f_fid p <> 0 /\ f = f_fid p /\ n = f_name p)) as G.
  { destruct (f_isf p && negb (f_fid p =? 0)) eqn:B.
    - apply andb_true_iff in B as [B1 B2]. apply negb_true_iff, N.eqb_neq in B2. rewrite elem_of_union, elem_of_singleton. split.
      + intros [?|Q]; [by left|]. injection Q as -> ->. by right.
      + intros [?|(_ & _ & -> & ->)]; [by left|by right].
    - split; [by left|]. intros [?|(B1 & B2 & _)]; [done|]. rewrite B1 in B. cbn [andb] in B. apply negb_false_iff, N.eqb_eq in B. done. }
  destruct (decide (f_name p = n)) as [<-|N1].
  - rewrite lookup_insert. destruct (fs_name s !! f_name p) as [o|] eqn:Eo.
    + pose proof (Sm _ _ Eo) as Ho. unfold f_small in Ho. pose proof (Nm _ _ Eo) as En. rewrite (fidk_small (f_fid o)), En by done.
      assert (f_fid o <> f_fid p \/ f_fid p = 0) as Ne by lia.
      assert ((f, f_name p) ∈ fs_trie s <-> f = f_fid o /\ f_fid o <> 0 /\ f_isf o = true) as T.
      { rewrite H, Eo. split; [intros (q & [= <-] & <- & ? & ?); done|intros (-> & ? & ?); eauto]. }
      destruct (f_isf o) eqn:Io.
      * rewrite elem_of_difference, elem_of_singleton, G, T. split.
        -- intros [[(-> & ? & _)|(? & ? & -> & _)] N]; [done|]. exists p. done.
        -- intros (q & [= <-] & <- & Z & I). split; [by right|]. intros [= Q]. lia.
      * rewrite G, T. split.
        -- intros [(_ & _ & ?)|(? & ? & -> & _)]; [done|]. exists p. done.
        -- intros (q & [= <-] & <- & Z & I). by right.
    + rewrite G. assert ((f, f_name p) ∉ fs_trie s) as T by (rewrite H, Eo; intros (? & ? & _); done). split.
      * intros [?|(? & ? & -> & _)]; [done|]. exists p. done.
      * intros (q & [= <-] & <- & Z & I). by right.
  - rewrite lookup_insert_ne by done. rewrite <- H.
    assert (forall o : fproof, f_name o = f_name p -> (f, n) <> (fidk (f_fid o), f_name o)) as Q by (intros o Q1 [= Q2 Q3]; congruence).
    destruct (fs_name s !! f_name p) as [o|] eqn:Eo.
    + pose proof (Nm _ _ Eo) as En. destruct (f_isf o); [rewrite elem_of_difference, elem_of_singleton|]; rewrite G.
      * split; [intros [[?|(_ & _ & _ & ?)] _]; congruence|]. intros ?. split; [by left|]. by apply Q.
      * split; [intros [?|(_ & _ & _ & ?)]; congruence|by left].
    + rewrite G. split; [intros [?|(_ & _ & _ & ?)]; congruence|by left].
Qed.

(** ** Displayed usernames *)

(** A transfer that names the owner it takes the name from, whose username (if any) was set in an earlier block; a name that
    goes back to its owner needs nothing. *)
Definition n_clean (db v : nst) (o : nop) : bool :=
  match o with
  | NTransfer p from =>
      match fs_name (n_f v) !! f_name p with
      | Some q =>
          negb (f_accepts (fs_name (n_f v)) p) || (f_fid q =? f_fid p) || (f_fid q =? 0) ||
          (f_fid q =? from) && (bool_decide (n_user v !! fidk from = None) || bool_decide (is_Some (n_user db !! fidk from)))
      | None => true
      end
  | _ => true
  end.
Fixpoint n_clean_block (db v : nst) (os : list nop) : bool :=
  match os with [] => true | o :: r => n_clean db v o && n_clean_block db (n_step db v o) r end.
Fixpoint n_clean_run (s : nst) (bs : list (list nop)) : bool :=
  match bs with [] => true | b :: r => n_clean_block s s b && n_clean_run (n_block s b) r end.
Definition n_owned (v : nst) : Prop :=
  forall (f : N) (t n : bytes), n_user v !! f = Some (t, n) -> n <> [] -> is_eth n = false ->
    exists p, fs_name (n_f v) !! n = Some p /\ fidk (f_fid p) = f.
Definition nop_ok (o : nop) : Prop :=
  match o with NTransfer p from => f_fid p < 2 ^ 32 | NSet f _ _ => 0 < f < 2 ^ 32 | _ => True end.
Definition n_inv (v : nst) : Prop := n_owned v /\ f_smalls (n_f v) /\ n_user v !! 0 = None.

Lemma n_inv_step (db v : nst) (o : nop) : n_inv v -> nop_ok o -> n_clean db v o = true -> n_inv (n_step db v o).
Proof.
  intros (H & Sm & Z0) Ok C. destruct o as [p from|f th n|f|o]; cbn [n_step nop_ok] in *.
  - set (u := if (0 <? from) && _ then _ else n_user v).
    assert (forall (f : N) (r : bytes * bytes), u !! f = Some r -> n_user v !! f = Some r /\
              ((0 <? from) = true -> is_Some (n_user db !! fidk from) -> f <> fidk from)) as Hu.
    { intros f r. unfold u. destruct ((0 <? from) && bool_decide (is_Some (n_user db !! fidk from))) eqn:B.
      - intros [N1 E]%lookup_delete_Some. split; [done|]. intros _ _. congruence.
      - intros E. split; [done|]. intros B1 B2. rewrite B1, bool_decide_true in B by done. done. }
    split; [|split; cbn [n_f n_user]; [by apply f_smalls_step|]].
    2: { destruct (u !! 0) eqn:E; [|done]. apply Hu in E as [E _]. congruence. }
    intros f t n E Hn He. cbn [n_user] in E. cbn [n_f]. apply Hu in E as [E D]. destruct (H f t n E Hn He) as (q & Q1 & Q2).
    rewrite (proj2 (f_merge_eq (n_f v) p)). destruct (f_accepts (fs_name (n_f v)) p) eqn:A; [cbn [fs_name]|eauto].
    destruct (decide (f_name p = n)) as [<-|N1]; [|rewrite lookup_insert_ne by done; eauto].
    rewrite lookup_insert. exists p. split; [done|]. cbn [n_clean] in C. rewrite Q1 in C. rewrite A in C. cbn [negb orb] in C.
    pose proof (Sm _ _ Q1) as Hq. unfold f_small in Hq. rewrite (fidk_small (f_fid q)) in Q2 by done.
    rewrite fidk_small by done. destruct (N.eqb_spec (f_fid q) (f_fid p)) as [W|W]; [congruence|].
    destruct (N.eqb_spec (f_fid q) 0) as [W0|W0]; [congruence|]. cbn [orb] in C.
    apply andb_true_iff in C as [C1 C2]. apply N.eqb_eq in C1. subst from. rewrite (fidk_small (f_fid q)) in * by done.
    apply orb_true_iff in C2 as [C2|C2]; apply bool_decide_eq_true in C2; [congruence|]. exfalso. apply D; [lia|done|done].
  - destruct (username_ok v f n && _) eqn:B; [|done]. apply andb_true_iff in B as [B _].
    split; [|split; cbn [n_f n_user]; [done|rewrite lookup_insert_ne; [done|]; rewrite fidk_small by lia; lia]].
    intros g t m. cbn [n_user n_f]. intros [[<- [= <- <-]]|[N1 E]]%lookup_insert_Some Hn He; [|eauto].
    unfold username_ok in B. destruct n as [|c l] eqn:En; [done|]. rewrite <- En in *. rewrite He in B.
    destruct (fs_name (n_f v) !! n) as [p|]; [|done]. apply N.eqb_eq in B as <-. eauto.
  - split; [|split; cbn [n_f n_user]; [done|by rewrite lookup_delete_None; right]].
    intros g t m. cbn [n_user n_f]. intros [N1 E]%lookup_delete_Some. eauto.
  - split; [|split; cbn [n_f n_user]; done]. intros g t m. cbn [n_user n_f]. eauto.
Qed.
Lemma n_inv_block (db v : nst) (os : list nop) : n_inv v -> Forall nop_ok os -> n_clean_block db v os = true ->
  n_inv (foldl (n_step db) v os).
Proof.
  revert v. induction os as [|o os IH]; intros v H F C; [done|]. cbn [foldl n_clean_block] in *. inversion F; subst.
  apply andb_true_iff in C as [C1 C2]. apply IH; [|done..]. by apply n_inv_step.
Qed.
Lemma n_inv_run (s : nst) (bs : list (list nop)) : n_inv s -> Forall (Forall nop_ok) bs -> n_clean_run s bs = true -> n_inv (n_run s bs).
Proof.
  unfold n_run. revert s. induction bs as [|b bs IH]; intros s H F C; [done|]. cbn [foldl n_clean_run] in *. inversion F; subst.
  apply andb_true_iff in C as [C1 C2]. apply IH; [|done..]. by apply n_inv_block.
Qed.
Lemma n_inv_init : n_inv n_init.
Proof.
  split; [|split]; [| |done].
  - intros f t n E. cbn [n_init n_user] in E. by rewrite lookup_empty in E.
  - intros n p E. cbn [n_init n_f fs_init fs_name] in E. by rewrite lookup_empty in E.
Qed.

(** The first [k] rows of an account are its [k] oldest proofs. *)
Lemma newer_asym (a b : pmsg) : newer a b = true -> newer b a = false.
Proof. intros H. destruct (newer b a) eqn:E; [|done]. rewrite <- (newer_irrefl a). symmetry. by eapply newer_trans. Qed.
Lemma take_oldest (l : list pmsg) (k : nat) (x : pmsg) : StronglySorted (fun a b => newer b a = true) l -> x ∈ l ->
  x ∈ take k l <-> (length (List.filter (fun y => newer x y) l) < k)%nat.
Proof.
  revert k. induction l as [|a l IH]; intros k S Hx; [by apply elem_of_nil in Hx|]. inversion S as [|? ? S1 F1]; subst.
  rewrite Forall_forall in F1. destruct k as [|k]; cbn [take]; [split; [intros ?%elem_of_nil; done|lia]|].
  rewrite elem_of_cons. destruct (decide (x = a)) as [->|N].
  - split; [intros _|by left]. assert (List.filter (fun y => newer a y) (a :: l) = []) as ->; [|cbn; lia].
    cbn [List.filter]. rewrite newer_irrefl. clear - F1. induction l as [|b l IH]; [done|]. cbn [List.filter].
    rewrite (newer_asym b a) by (apply F1; by left). apply IH. intros; apply F1; by right.
  - apply elem_of_cons in Hx as [Hx|Hx]; [done|]. cbn [List.filter]. rewrite F1 by done. cbn [length].
    rewrite <- Nat.succ_lt_mono, <- IH by done. tauto.
Qed.
Lemma rows_of_strict (nm : bytes -> bytes) (v : pst) (h : gmap bytes pmsg) (f : N) : prep nm v h -> f < 2 ^ 32 ->
  StronglySorted (fun a b => newer b a = true) (p_rows_of v f).
Proof.
  intros P Hf. pose proof (rows_of_sorted nm v h f P) as S. pose proof (rows_of_NoDup nm v h f P) as ND.
  assert (forall a b, a ∈ p_rows_of v f -> b ∈ p_rows_of v f -> newer b a = false -> newer a b = false -> a = b) as U.
  { intros a b Ha Hb N1 N2. apply (rows_of_elem nm v h f a P Hf) in Ha as [Ha _]. apply (rows_of_elem nm v h f b P Hf) in Hb as [Hb _].
    destruct P as (A & _). destruct (A _ _ Ha) as [_ Oa], (A _ _ Hb) as [_ Ob]. destruct (newer_total a b N2 N1) as [_ Q].
    destruct Oa as (_ & _ & _ & _ & Oa), Ob as (_ & _ & _ & _ & Ob). congruence. }
  revert S ND U. generalize (p_rows_of v f). intros l. induction l as [|a l IH]; intros S ND U; [constructor|].
  inversion S as [|? ? S1 F1]; subst. inversion ND as [|? ? D1 D2]; subst. constructor.
  - apply IH; [done..|]. intros. apply U; [by right|by right|done..].
  - rewrite Forall_forall in *. intros b Hb. destruct (F1 b Hb) as [?|Q]; [done|]. destruct (newer b a) eqn:E; [done|].
    exfalso. apply D1. rewrite (U a b); [done|by left|by right|done..].
Qed.

(** One operation on a committed state. *)
Lemma single_clean (nm : bytes -> bytes) (s : pst) (h : gmap bytes pmsg) (o : pop) : prep nm s h -> p_clean s s o = true.
Proof.
  intros P. unfold p_clean. apply forallb_forall. intros x Hx. apply elem_of_list_In in Hx. rewrite (prep_by_name nm s h) by done.
  rewrite (victims_held nm s h o x P Hx), bool_decide_true by done. done.
Qed.

(** Consistency of the indexes that holds in all histories, also those in which a deletion meets a name taken in the same
    block. *)
Section W.
Context (nm : bytes -> bytes).
Definition pw (v : pst) : Prop :=
  (forall f t x, ps_rows v !! (f, t) = Some x -> pm_ok nm x /\ p_fid x = f /\ p_tsh x = Some t) /\
  (forall f n t, ps_adds v !! (f, n) = Some t -> exists x, ps_rows v !! (f, t) = Some x /\ p_name x = n) /\
  (forall n f, ps_name v !! n = Some f -> is_Some (ps_adds v !! (f, n))).
Lemma pw_init : pw ps_init.
Proof. split; [|split]; intros *; cbn [ps_init ps_rows ps_adds ps_name]; by rewrite lookup_empty. Qed.

Lemma pw_delete (v : pst) (x : pmsg) : pw v -> pm_ok nm x -> pw (p_delete v x).1.
Proof.
  intros (A & B & C) Hx. unfold p_delete. destruct (ok_tsh nm x Hx) as [tx Ex]. rewrite Ex.
  destruct (p_name x) as [|c l] eqn:En; [destruct Hx as (_ & _ & _ & ? & _); done|]. rewrite <- En. clear c l En. cbn [fst].
  assert (fidk (p_fid x) = p_fid x) as -> by (apply fidk_small; destruct Hx; lia).
  split; [|split]; cbn [ps_rows ps_adds ps_name].
  - intros f t y [_ H]%lookup_delete_Some. by apply A.
  - intros f n t [N H]%lookup_delete_Some. destruct (B _ _ _ H) as (y & Hy & Ny). exists y. split; [|done].
    apply lookup_delete_Some. split; [|done]. intros Q. injection Q as Q1 Q2. destruct (A _ _ _ Hy) as (Oy & Fy & Ty).
    destruct (tsh_inj nm x y t Hx Oy) as [_ Hh]; [congruence|done|]. apply N.
    destruct Hx as (_ & _ & _ & _ & Nx). destruct Oy as (_ & _ & _ & _ & Nyy). congruence.
  - intros n f [N H]%lookup_delete_Some. rewrite lookup_delete_ne; [by apply C|]. intros Q. injection Q as _ Q. done.
Qed.
Lemma pw_put (v : pst) (m : pmsg) (t : bytes) : pw v -> pm_ok nm m -> p_tsh m = Some t -> pw (p_put v m t).1.
Proof.
  intros (A & B & C) Hm Et. unfold p_put. destruct (p_name m) as [|c l] eqn:En; [destruct Hm as (_ & _ & _ & ? & _); done|]. rewrite <- En. clear c l En. cbn [fst].
  assert (fidk (p_fid m) = p_fid m) as -> by (apply fidk_small; destruct Hm; lia).
  split; [|split]; cbn [ps_rows ps_adds ps_name].
  - intros f s y [[Q <-]|[_ H]]%lookup_insert_Some; [injection Q as <- <-; done|by apply A].
  - intros f n s [[Q <-]|[_ H]]%lookup_insert_Some; [injection Q as <- <-; exists m; by rewrite lookup_insert|].
    destruct (B _ _ _ H) as (y & Hy & Ny). destruct (decide ((p_fid m, t) = (f, s))) as [Q|Q].
    + injection Q as <- <-. rewrite lookup_insert. exists m. split; [done|]. destruct (A _ _ _ Hy) as (Oy & Fy & Ty).
      destruct (tsh_inj nm m y t Hm Oy Et Ty) as [_ Hh]. destruct Hm as (_ & _ & _ & _ & Nm). destruct Oy as (_ & _ & _ & _ & Nyy). congruence.
    + rewrite lookup_insert_ne by done. eauto.
  - intros n f [[<- <-]|[_ H]]%lookup_insert_Some; [rewrite lookup_insert; eauto|].
    destruct (decide ((p_fid m, p_name m) = (f, n))) as [Q|Q]; [rewrite Q, lookup_insert; eauto|]. rewrite lookup_insert_ne by done. by apply C.
Qed.
Lemma pw_merge (v : pst) (m : pmsg) : pw v -> pm_ok nm m -> pw (p_merge v m).1.
Proof.
  intros W Hm. unfold p_merge. destruct (ok_tsh nm m Hm) as [t Et]. rewrite Et. unfold p_conflicts.
  destruct (ps_name v !! p_name m) as [f|]; [|by apply pw_put]. destruct (f =? 0); [by apply pw_put|].
  destruct (ps_adds v !! _) as [t'|]; [|done]. destruct (ps_rows v !! _) as [x|] eqn:Ex; [|by apply pw_put].
  destruct (lex t' t); [done| |done]. assert (pm_ok nm x) as Hx by (destruct W as (A & _); by apply A in Ex as (? & _)).
  pose proof (pw_delete v x W Hx) as Wd. destruct (p_delete v x) as [v' [e|]]; [done|]. by apply pw_put.
Qed.
Lemma pw_victims (db : pst) (o : pop) (x : pmsg) : pw db -> x ∈ p_victims db o -> pm_ok nm x.
Proof.
  intros W H. assert (exists f, x ∈ p_rows_of db f) as (f & Hf).
  { destruct o as [m|f key|f n]; cbn [p_victims] in H; [by apply elem_of_nil in H|by apply elem_of_nil in H|exists f].
    eapply elem_of_submseteq; [exact H|]. apply sublist_submseteq, sublist_take. }
  unfold p_rows_of in Hf. apply elem_of_list_fmap in Hf as ([t y] & -> & H'). rewrite merge_sort_Permutation, elem_of_list_omap in H'.
  destruct H' as ([[g s] z] & Hz & E). cbn in E. destruct (g =? fidk f); [|done]. injection E as -> ->.
  apply elem_of_map_to_list in Hz. destruct W as (A & _). by apply A in Hz as (? & _).
Qed.
Lemma pw_step (db v : pst) (o : pop) : pw db -> pw v -> match o with PMerge m => pm_ok nm m | _ => True end -> pw (p_step db v o).
Proof.
  intros Wd W Ho. assert (forall l v, Forall (pm_ok nm) l -> pw v -> pw (foldl (fun v x => (p_delete v x).1) v l)) as G.
  { intros l. induction l as [|x l IH]; intros v0 F W0; [done|]. inversion F; subst. cbn [foldl]. apply IH; [done|]. by apply pw_delete. }
  assert (Forall (pm_ok nm) (p_victims db o)) as F by (apply Forall_forall; intros x Hx; exact (pw_victims db o x Wd Hx)).
  destruct o; [by apply pw_merge|by apply G|by apply G].
Qed.
Lemma pw_run (bs : list (list pop)) (s : pst) : pw s -> Forall (Forall (fun o => match o with PMerge m => pm_ok nm m | _ => True end)) bs -> pw (p_run s bs).
Proof.
  unfold p_run. revert s. induction bs as [|b bs IH]; intros s W F; [done|]. inversion F as [|? ? Fb F']; subst. cbn [foldl]. apply IH; [|done].
  unfold p_block. clear IH F F'. assert (forall b v, pw v -> Forall (fun o => match o with PMerge m => pm_ok nm m | _ => True end) b -> pw (foldl (p_step s) v b)) as G; [|by apply G].
  clear -W. intros b. induction b as [|o b IH]; intros v Wv F; [done|]. inversion F; subst. cbn [foldl]. apply IH; [|done]. by apply pw_step.
Qed.
End W.
