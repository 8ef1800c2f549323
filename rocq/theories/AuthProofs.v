(** Lemmas on credentials. *)
From Verif Require Import Auth.
From Coq Require Import ZifyN ZifyNat ZifyBool.
#[local] Open Scope N_scope.

(** Pieces put together again. *)
Fixpoint join (c : N) (es : list bytes) : bytes :=
  match es with [] => [] | [e] => e | e :: r => e ++ c :: join c r end.

Lemma split_ne c l : split c l <> [].
Proof. destruct l as [|x r]; cbn [split]; [done|]. destruct (x =? c); [done|]. by destruct (split c r). Qed.
Lemma split_app c a l : c ∉ a -> split c (a ++ c :: l) = a :: split c l.
Proof.
  induction a as [|x a IH]; intros H; cbn [split app].
  - by rewrite N.eqb_refl.
  - apply not_elem_of_cons in H as [H1 H2]. assert (x =? c = false) as -> by lia. by rewrite IH.
Qed.
Lemma split_free c a : c ∉ a -> split c a = [a].
Proof.
  induction a as [|x a IH]; intros H; cbn [split]; [done|]. apply not_elem_of_cons in H as [H1 H2].
  assert (x =? c = false) as -> by lia. by rewrite IH.
Qed.
Lemma split_join c es : es <> [] -> Forall (fun e => c ∉ e) es -> split c (join c es) = es.
Proof.
  induction es as [|e [|e2 r] IH]; intros H F; [done| |].
  - cbn [join]. apply split_free. by inversion F.
  - change (join c (e :: e2 :: r)) with (e ++ c :: join c (e2 :: r)). inversion F. rewrite split_app by done. by rewrite IH.
Qed.
Lemma split_spec c l : join c (split c l) = l /\ Forall (fun e => c ∉ e) (split c l).
Proof.
  induction l as [|x r [IH1 IH2]]; cbn [split].
  - split; [done|]. repeat constructor. apply not_elem_of_nil.
  - pose proof (split_ne c r). destruct (x =? c) eqn:E.
    + assert (x = c) as -> by lia. split; [|constructor; [apply not_elem_of_nil|done]].
      destruct (split c r) as [|p ps]; [done|]. change (join c ([] :: p :: ps)) with (c :: join c (p :: ps)). by rewrite IH1.
    + destruct (split c r) as [|p ps]; [done|]. inversion IH2; subst. split.
      * by destruct ps.
      * constructor; [|done]. apply not_elem_of_cons. split; [lia|done].
Qed.
(** Exactly one colon. *)
Lemma split_two c l a b : split c l = [a; b] <-> l = a ++ c :: b /\ c ∉ a /\ c ∉ b.
Proof.
  split.
  - intros E. destruct (split_spec c l) as [J F]. rewrite E in J, F. cbn [join] in J. rewrite !Forall_cons in F. subst. tauto.
  - intros (-> & A & B). rewrite split_app by done. by rewrite split_free.
Qed.
Lemma entry_spec e u p : entry e = Some (u, p) <-> e = u ++ COLON :: p /\ COLON ∉ u /\ COLON ∉ p.
Proof.
  rewrite <- split_two. unfold entry. destruct (split COLON e) as [|a [|b [|? ?]]]; split; intros H; try done; congruence.
Qed.

Lemma words_go_ws cur w l : Forall (fun x => is_ws x = true) w -> cur = [] -> words_go cur (w ++ l) = words_go [] l.
Proof. intros F ->. induction F as [|x w E F IH]; cbn [words_go app]; [done|]. by rewrite E. Qed.
Lemma words_go_word cur w l : Forall (fun x => is_ws x = false) w -> words_go cur (w ++ l) = words_go (rev w ++ cur) l.
Proof.
  intros F. revert cur. induction F as [|x w E F IH]; intros cur; cbn [words_go app rev]; [done|].
  rewrite E, IH, <- app_assoc. done.
Qed.
Definition ws := Forall (fun x => is_ws x = true).
Definition word (w : bytes) := w <> [] /\ Forall (fun x => is_ws x = false) w.
Lemma words_sep cur w l : cur <> [] -> ws w -> w <> [] -> words_go cur (w ++ l) = rev cur :: words_go [] l.
Proof.
  intros C F N. destruct F as [|x w E F]; [done|]. cbn [words_go app]. rewrite E. destruct cur as [|y cur]; [done|].
  by rewrite (words_go_ws [] w l).
Qed.
Lemma words_end cur w : cur <> [] -> ws w -> words_go cur w = [rev cur].
Proof.
  intros C F. destruct w as [|x w]; [by destruct cur|]. inversion F; subst. cbn [words_go]. rewrite H1. destruct cur as [|y cur]; [done|].
  rewrite <- (app_nil_r w). by rewrite words_go_ws.
Qed.
(** The words of a text with words [a] and [b]. *)
Lemma words_two s1 a s2 b s3 : ws s1 -> ws s2 -> s2 <> [] -> ws s3 -> word a -> word b ->
  words (s1 ++ a ++ s2 ++ b ++ s3) = [a; b].
Proof.
  intros S1 S2 N S3 [Na Fa] [Nb Fb]. unfold words. rewrite words_go_ws, words_go_word, app_nil_r by done.
  assert (rev a <> []) as Ra. { intros E. apply Na. rewrite <- (rev_involutive a), E. done. }
  assert (rev b <> []) as Rb. { intros E. apply Nb. rewrite <- (rev_involutive b), E. done. }
  rewrite words_sep, words_go_word, app_nil_r, words_end by done. by rewrite !rev_involutive.
Qed.
Lemma words_go_inv l : forall cur, Forall (fun x => is_ws x = false) cur ->
  (words_go cur l = [] -> cur = [] /\ ws l) /\
  (forall w r, words_go cur l = w :: r -> exists s1 a s2, l = s1 ++ a ++ s2 /\ ws s1 /\ w = rev cur ++ a /\
     Forall (fun x => is_ws x = false) a /\ w <> [] /\ (cur <> [] -> s1 = []) /\
     (s2 = [] /\ r = [] \/ exists y s, s2 = y :: s /\ is_ws y = true /\ words_go [] s = r)).
Proof.
  induction l as [|x l IH]; intros cur F; cbn [words_go].
  - destruct cur as [|c cur]; split; try done; try (intros; split; [done|constructor]).
    intros w r [= <- <-]. exists [], [], []. split; [done|]. split; [constructor|]. split; [by rewrite app_nil_r|].
    split; [constructor|]. split; [by destruct (rev cur)|]. split; [done|]. by left.
  - destruct (is_ws x) eqn:E.
    + destruct cur as [|c cur].
      * destruct (IH [] ltac:(constructor)) as [A B]. split.
        -- intros H. destruct (A H) as [_ W]. split; [done|]. by constructor.
        -- intros w r H. destruct (B w r H) as (s1 & a & s2 & -> & W1 & -> & Fa & Nw & _ & T).
           exists (x :: s1), a, s2. split; [done|]. split; [by constructor|]. split; [done|]. split; [done|]. split; [done|]. split; [done|]. done.
      * split; [done|]. intros w r [= <- <-]. exists [], [], (x :: l). split; [done|]. split; [constructor|].
        split; [by rewrite app_nil_r|]. split; [constructor|]. split; [by destruct (rev cur)|]. split; [done|]. right. by exists x, l.
    + destruct (IH (x :: cur) ltac:(by constructor)) as [A B]. split.
      * intros H. by destruct (A H).
      * intros w r H. destruct (B w r H) as (s1 & a & s2 & -> & W1 & -> & Fa & Nw & S & T).
        rewrite (S ltac:(done)). exists [], (x :: a), s2. split; [done|]. split; [constructor|]. cbn [rev]. split; [by rewrite <- app_assoc|].
        split; [by constructor|]. split; [by cbn [rev] in Nw|]. split; [done|]. done.
Qed.
Lemma words_two_inv l a b : words l = [a; b] ->
  exists s1 s2 s3, l = s1 ++ a ++ s2 ++ b ++ s3 /\ ws s1 /\ ws s2 /\ s2 <> [] /\ ws s3 /\ word a /\ word b.
Proof.
  intros H. destruct (words_go_inv l [] ltac:(constructor)) as [_ B]. destruct (B _ _ H) as (s1 & a' & t & -> & W1 & Ea & Fa & Na & _ & T).
  cbn [rev app] in Ea. subst a'. destruct T as [[-> T]|(y & s & -> & Ey & T)]; [done|].
  destruct (words_go_inv s [] ltac:(constructor)) as [_ B2]. destruct (B2 _ _ T) as (s2 & b' & t2 & -> & W2 & Eb & Fb & Nb & _ & T2).
  cbn [rev app] in Eb. subst b'. assert (ws t2) as W3.
  { destruct T2 as [[-> _]|(y2 & s3 & -> & Ey2 & T2)]; [constructor|].
    destruct (words_go_inv s3 [] ltac:(constructor)) as [A3 _]. destruct (A3 T2) as [_ W]. by constructor. }
  exists s1, (y :: s2), t2. split; [done|]. split; [done|]. split; [by constructor|]. split; [done|]. split; [done|]. done.
Qed.

Lemma lookup_user_spec us u p :
  lookup_user us u = Some p <-> exists l1 l2, us = l1 ++ (u, p) :: l2 /\ forall q, (u, q) ∉ l2.
Proof.
  induction us as [|[u' p'] r IH]; cbn [lookup_user].
  - split; [done|]. by intros ([|] & l2 & ? & _).
  - destruct (lookup_user r u) as [q|] eqn:E.
    + split.
      * intros [= <-]. destruct IH as [IH _]. destruct (IH eq_refl) as (l1 & l2 & -> & N). by exists ((u', p') :: l1), l2.
      * intros (l1 & l2 & H & N). destruct l1 as [|z l1].
        -- injection H as -> -> ->. exfalso. assert (exists l1 l3, l2 = l1 ++ (u, q) :: l3) as (l1 & l3 & ->).
           { clear -E. induction l2 as [|[a b] l IH]; cbn [lookup_user] in E; [done|]. destruct (lookup_user l u) as [z|] eqn:E2.
             - injection E as ->. destruct (IH eq_refl) as (l1 & l3 & ->). by exists ((a, b) :: l1), l3.
             - case_bool_decide; [|done]. injection E as ->. subst. by exists [], l. }
           apply (N q). apply elem_of_app. right. left.
        -- injection H as _ ->. apply IH. by exists l1, l2.
    + assert (forall q, (u, q) ∉ r) as Nr.
      { clear -E. induction r as [|[a b] l IH]; cbn [lookup_user] in E; [intros; apply not_elem_of_nil|].
        destruct (lookup_user l u); [done|]. case_bool_decide as D; [done|]. intros q Q. apply elem_of_cons in Q as [Q|Q]; [congruence|].
        by apply (IH eq_refl q). }
      split.
      * case_bool_decide as D; [|done]. intros [= <-]. subst. by exists [], r.
      * intros (l1 & l2 & H & N). destruct l1 as [|z l1].
        -- injection H as -> -> ->. by rewrite bool_decide_true.
        -- injection H as _ ->. exfalso. apply (Nr p). apply elem_of_app. right. left.
Qed.
Lemma parse_join es : es <> [] -> Forall (fun e => COMMA ∉ e) es -> parse_auth (join COMMA es) = omap entry es.
Proof. intros H F. unfold parse_auth. by rewrite split_join. Qed.
Lemma omap_mid {A B} (f : A -> option B) l x l1 l2 : omap f l = l1 ++ x :: l2 ->
  exists k1 y k2, l = k1 ++ y :: k2 /\ f y = Some x /\ omap f k1 = l1 /\ omap f k2 = l2.
Proof.
  revert l1. induction l as [|a l IH]; intros l1; cbn [omap list_omap]; [by destruct l1|]. destruct (f a) as [b|] eqn:E.
  - destruct l1 as [|c l1].
    + intros [= -> <-]. by exists [], a, l.
    + intros [= -> H]. destruct (IH _ H) as (k1 & y & k2 & -> & ? & H1 & ?). exists (a :: k1), y, k2. split; [done|]. split; [done|].
      split; [cbn [omap list_omap]; by rewrite E, <- H1|done].
  - intros H. destruct (IH _ H) as (k1 & y & k2 & -> & ? & H1 & ?). exists (a :: k1), y, k2. split; [done|]. split; [done|].
    split; [cbn [omap list_omap]; by rewrite E|done].
Qed.
