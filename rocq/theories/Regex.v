(** Regular expressions over bytes, matched by derivatives: stands for the anchored matching [^...$] of the regex crates that
    src/core/validations/message.rs uses. Only character classes within ASCII are expressed, so matching bytes is matching
    characters. *)
From Verif Require Import Base.
#[local] Open Scope N_scope.

Inductive re := RNone | REps | RChar (f : N -> bool) | RSeq (a b : re) | RAlt (a b : re) | RStar (a : re).

Fixpoint nullable (r : re) : bool :=
  match r with
  | RNone | RChar _ => false
  | REps | RStar _ => true
  | RSeq a b => nullable a && nullable b
  | RAlt a b => nullable a || nullable b
  end.

Fixpoint deriv (c : N) (r : re) : re :=
  match r with
  | RNone | REps => RNone
  | RChar f => if f c then REps else RNone
  | RSeq a b => if nullable a then RAlt (RSeq (deriv c a) b) (deriv c b) else RSeq (deriv c a) b
  | RAlt a b => RAlt (deriv c a) (deriv c b)
  | RStar a => RSeq (deriv c a) (RStar a)
  end.

Fixpoint matches (r : re) (s : bytes) : bool :=
  match s with [] => nullable r | c :: s' => matches (deriv c r) s' end.

(** A class between [lo] and [lo + extra] times, at least once, a literal, an optional part. *)
Fixpoint upto (f : N -> bool) (n : nat) : re :=
  match n with O => REps | S m => RAlt REps (RSeq (RChar f) (upto f m)) end.
Fixpoint rep (f : N -> bool) (lo extra : nat) : re :=
  match lo with O => upto f extra | S m => RSeq (RChar f) (rep f m extra) end.
Definition plus (f : N -> bool) : re := RSeq (RChar f) (RStar (RChar f)).
Definition lit (c : N) : re := RChar (N.eqb c).
Definition opt (r : re) : re := RAlt REps r.
