(** Bytes, big-endian integers and lexicographic order. *)
From stdpp Require Export prelude list.
From Coq Require Export NArith ZArith Sorted.
From Coq Require Import ZifyN ZifyNat ZifyBool.
Ltac Zify.zify_post_hook ::= Z.div_mod_to_equations.

#[global] Open Scope N_scope.

(** A byte string; [u8] values are [N] with the predicate [bytes_ok]. *)
Notation bytes := (list N).

Definition bytes_ok (b : bytes) : bool := forallb (fun x => x <? 256) b.

(** Result of a fallible operation: [Ok], an error value, or a Rust panic. *)
Inductive res (E A : Type) := Ok (a : A) | Err (e : E) | Panic.
Global Arguments Ok {E A} a.
Global Arguments Err {E A} e.
Global Arguments Panic {E A}.

(** [to_be_bytes] of an unsigned integer of [n] bytes (std; wraps above the width). *)
Fixpoint be (n : nat) (x : N) : bytes :=
  match n with
  | O => []
  | S m => be m (x / 256) ++ [x mod 256]
  end.

(** [from_be_bytes]. *)
Fixpoint be_dec_acc (acc : N) (b : bytes) : N :=
  match b with [] => acc | x :: r => be_dec_acc (acc * 256 + x) r end.
Definition be_dec (b : bytes) : N := be_dec_acc 0 b.

(** Lexicographic comparison of byte strings: RocksDB's default comparator and
    [bytes_compare] in storage/util.rs. *)
Fixpoint lex (a b : bytes) : comparison :=
  match a, b with
  | [], [] => Eq
  | [], _ :: _ => Lt
  | _ :: _, [] => Gt
  | x :: a', y :: b' =>
      match x ?= y with Eq => lex a' b' | c => c end
  end.
Definition blt (a b : bytes) : bool := match lex a b with Lt => true | _ => false end.
Definition ble (a b : bytes) : bool := match lex a b with Gt => false | _ => true end.

Fixpoint is_prefix (p b : bytes) : bool :=
  match p, b with
  | [], _ => true
  | _ :: _, [] => false
  | x :: p', y :: b' => (x =? y) && is_prefix p' b'
  end.

(** ** Facts *)

Lemma be_S n x : be (S n) x = be n (x / 256) ++ [x mod 256].
Proof. done. Qed.
Lemma be_length n x : length (be n x) = n.
Proof. revert x; induction n as [|n IH]; intros x; cbn [be]; [done|]. rewrite app_length, IH; cbn; lia. Qed.

Lemma bytes_ok_app a b : bytes_ok (a ++ b) = bytes_ok a && bytes_ok b.
Proof. apply forallb_app. Qed.

Lemma be_ok n x : bytes_ok (be n x) = true.
Proof.
  revert x; induction n as [|n IH]; intros x; cbn [be]; [done|].
  rewrite bytes_ok_app, IH. cbn. rewrite andb_true_r. apply N.ltb_lt. apply N.mod_lt; lia.
Qed.

Lemma be_dec_acc_app acc a b : be_dec_acc acc (a ++ b) = be_dec_acc (be_dec_acc acc a) b.
Proof. revert acc; induction a as [|x a IH]; intros acc; cbn; auto. Qed.

Lemma be_dec_be n x : x < 256 ^ N.of_nat n -> be_dec (be n x) = x.
Proof.
  unfold be_dec. revert x; induction n as [|n IH]; intros x Hx.
  - cbn in *. change (256 ^ 0) with 1 in Hx. lia.
  - cbn [be]. rewrite be_dec_acc_app, IH.
    + cbn. pose proof (N.div_mod x 256). lia.
    + apply N.div_lt_upper_bound; [lia|]. rewrite Nat2N.inj_succ, N.pow_succ_r' in Hx. lia.
Qed.

Lemma be_inj n x y : x < 256 ^ N.of_nat n -> y < 256 ^ N.of_nat n -> be n x = be n y -> x = y.
Proof. intros Hx Hy E. rewrite <- (be_dec_be n x), <- (be_dec_be n y) by done. by rewrite E. Qed.

Lemma lex_refl a : lex a a = Eq.
Proof. induction a as [|x a IH]; cbn; [done|]. by rewrite N.compare_refl. Qed.

Lemma lex_eq a b : lex a b = Eq <-> a = b.
Proof.
  split; [|intros ->; apply lex_refl].
  revert b; induction a as [|x a IH]; intros [|y b]; cbn; try done.
  destruct (N.compare_spec x y); try done. intros E%IH. by subst.
Qed.

Lemma lex_antisym a b : lex b a = CompOpp (lex a b).
Proof.
  revert b; induction a as [|x a IH]; intros [|y b]; cbn; try done.
  rewrite (N.compare_antisym x y). destruct (x ?= y); cbn; auto.
Qed.

Lemma lex_trans_lt a b c : lex a b = Lt -> lex b c = Lt -> lex a c = Lt.
Proof.
  revert b c; induction a as [|x a IH]; intros [|y b] [|z c]; cbn; try done.
  destruct (N.compare_spec x y), (N.compare_spec y z); subst; try done; intros H1 H2.
  - rewrite N.compare_refl. eauto.
  - by rewrite (proj2 (N.compare_lt_iff _ _)).
  - by rewrite (proj2 (N.compare_lt_iff _ _)).
  - rewrite (proj2 (N.compare_lt_iff x z)); [done|lia].
Qed.

Lemma blt_lex a b : blt a b = true <-> lex a b = Lt.
Proof. unfold blt. destruct (lex a b); split; congruence. Qed.
Lemma ble_lex a b : ble a b = true <-> lex a b <> Gt.
Proof. unfold ble. destruct (lex a b); split; congruence. Qed.
Lemma blt_irrefl a : blt a a = false.
Proof. unfold blt. by rewrite lex_refl. Qed.
Lemma blt_trans a b c : blt a b = true -> blt b c = true -> blt a c = true.
Proof. rewrite !blt_lex. apply lex_trans_lt. Qed.
Lemma blt_ble a b : blt a b = negb (ble b a).
Proof. unfold blt, ble. rewrite (lex_antisym a b). by destruct (lex a b). Qed.
Lemma ble_eq_or_lt a b : ble a b = true <-> a = b \/ blt a b = true.
Proof.
  rewrite ble_lex, blt_lex, <- lex_eq. destruct (lex a b); split; intros H; auto; try congruence.
  all: destruct H; congruence.
Qed.
Lemma ble_refl a : ble a a = true.
Proof. apply ble_eq_or_lt; auto. Qed.
Lemma ble_trans a b c : ble a b = true -> ble b c = true -> ble a c = true.
Proof.
  rewrite !ble_eq_or_lt. intros [->|H1] [->|H2]; auto. right; eauto using blt_trans.
Qed.
Lemma blt_ble_trans a b c : blt a b = true -> ble b c = true -> blt a c = true.
Proof. rewrite ble_eq_or_lt. intros H1 [->|H2]; eauto using blt_trans. Qed.
Lemma ble_blt_trans a b c : ble a b = true -> blt b c = true -> blt a c = true.
Proof. rewrite ble_eq_or_lt. intros [->|H1] H2; eauto using blt_trans. Qed.
Lemma blt_total a b : blt a b = true \/ a = b \/ blt b a = true.
Proof.
  rewrite !blt_lex, <- lex_eq, (lex_antisym a b). destruct (lex a b); cbn; auto.
Qed.
Lemma ble_antisym a b : ble a b = true -> ble b a = true -> a = b.
Proof.
  rewrite !ble_eq_or_lt. intros [E1|H1] [E2|H2]; subst; auto.
  pose proof (blt_trans _ _ _ H1 H2) as H. by rewrite blt_irrefl in H.
Qed.
Lemma blt_asym a b : blt a b = true -> blt b a = false.
Proof.
  intros H. destruct (blt b a) eqn:E; [|done]. pose proof (blt_trans _ _ _ H E) as H'. by rewrite blt_irrefl in H'.
Qed.

(** A common prefix does not influence the order. *)
Lemma lex_app_l p a b : lex (p ++ a) (p ++ b) = lex a b.
Proof. induction p as [|x p IH]; cbn; [done|]. by rewrite N.compare_refl. Qed.

(** Equal-length heads decide first. *)
Lemma lex_app a1 a2 b1 b2 : length a1 = length b1 ->
  lex (a1 ++ a2) (b1 ++ b2) = match lex a1 b1 with Eq => lex a2 b2 | c => c end.
Proof.
  revert b1; induction a1 as [|x a1 IH]; intros [|y b1] E; cbn in *; try done.
  destruct (x ?= y); auto.
Qed.

Lemma be_lex n x y : x < 256 ^ N.of_nat n -> y < 256 ^ N.of_nat n -> lex (be n x) (be n y) = (x ?= y).
Proof.
  revert x y; induction n as [|n IH]; intros x y Hx Hy.
  - change (256 ^ N.of_nat 0) with 1 in *. cbn. symmetry; apply N.compare_eq_iff; lia.
  - cbn [be]. rewrite lex_app by (by rewrite !be_length).
    rewrite Nat2N.inj_succ, N.pow_succ_r' in Hx, Hy.
    rewrite IH by (apply N.div_lt_upper_bound; lia).
    pose proof (N.div_mod x 256). pose proof (N.div_mod y 256).
    pose proof (N.mod_lt x 256). pose proof (N.mod_lt y 256).
    destruct (N.compare_spec (x / 256) (y / 256)) as [E|E|E]; symmetry.
    + cbn. destruct (N.compare_spec (x mod 256) (y mod 256)).
      * apply N.compare_eq_iff; lia.
      * apply N.compare_lt_iff; lia.
      * apply N.compare_gt_iff; lia.
    + apply N.compare_lt_iff. nia.
    + apply N.compare_gt_iff. nia.
Qed.

Lemma is_prefix_spec p b : is_prefix p b = true <-> exists r, b = p ++ r.
Proof.
  split.
  - revert b; induction p as [|x p IH]; intros [|y b]; cbn; try done; eauto.
    intros [E H]%andb_prop. apply N.eqb_eq in E as ->. destruct (IH _ H) as [r ->]. by exists r.
  - intros [r ->]. induction p as [|x p IH]; cbn; [done|]. by rewrite N.eqb_refl, IH.
Qed.

Lemma cons_inj {A} (x y : A) l k : x :: l = y :: k -> x = y /\ l = k.
Proof. intros [=]; auto. Qed.

Lemma app_inj_len {A} (a b c d : list A) : length a = length c -> a ++ b = c ++ d -> a = c /\ b = d.
Proof. intros H E. by apply app_inj_1. Qed.

Global Arguments be : simpl never.
Global Arguments N.shiftr : simpl never.
Global Arguments N.shiftl : simpl never.
Global Arguments N.land : simpl never.
Global Arguments N.lor : simpl never.
Global Arguments N.div : simpl never.
Global Arguments N.modulo : simpl never.
Global Arguments N.pow : simpl never.
Global Arguments N.add : simpl never.
Global Arguments N.sub : simpl never.
Global Arguments N.mul : simpl never.
Global Arguments N.leb : simpl never.
Global Arguments N.ltb : simpl never.
