(** Two background jobs: store/migrations/m1_fix_fname_index.rs (the by-account rows of registered names) and
    jobs/migrate_onchain_events.rs (copying a shard's on-chain events to shard 0).

    Simplifications: log lines and metrics are left out.  A failing read or commit of m1 ends the run, like a crash: the
    run simply has no further steps.  The trie that m1 lists is the one of the last commit. *)
From Verif Require Export Names Paging Migrate.
#[local] Open Scope N_scope.

(** ** m1: by-account rows of registered names *)

(** merkle_trie.rs:15, 73-87 [for_fname]: the name in the key of its trie entry. *)
Definition USERNAME_MAX_LENGTH : nat := 20.
Definition pad (n : bytes) : bytes := n ++ repeat 0 (USERNAME_MAX_LENGTH - length n).
(** m1:57-62: the name up to the first zero byte. *)
Fixpoint unpad (b : bytes) : bytes :=
  match b with
  | [] => []
  | x :: r => if x =? 0 then [] else x :: unpad r
  end.

Definition bytes_le (a b : bytes) : Prop := ble a b = true.
#[export] Instance bytes_le_dec a b : Decision (bytes_le a b). Proof. unfold bytes_le. apply _. Defined.
(** m1:42-54: the trie's keys below the account and the type of names, in order, without those first six bytes
    (C13: [get_all_values] is sorted, and stops once it has found more than 1024; where exactly depends on the shape of the
    trie and is left open as [cut]). *)
Definition trie_names (s : fst_) (f : N) : list bytes :=
  merge_sort bytes_le (omap (fun e => if e.1 =? fidk f then Some (pad e.2) else None) (elements (fs_trie s))).

(** m1:56-90: one key; [t] is the batch.  The proof is looked up in the database, and so is the by-account row, which is
    the one of the account in the proof. *)
Definition m1_name (s : fst_) (t : gmap N bytes) (b : bytes) : gmap N bytes :=
  match unpad b with
  | [] => t
  | n =>
      match fs_name s !! n with
      | None => t
      | Some p => match fs_fid s !! fidk (f_fid p) with None => <[fidk (f_fid p) := n]> t | Some _ => t end
      end
  end.
(** m1:92-98. *)
Definition m1_commit (s : fst_) (t : gmap N bytes) : fst_ := FSt (fs_name s) (t ∪ fs_fid s) (fs_trie s).

(** Before an account, inside one, finished. *)
Inductive m1_phase := P1Next (fs : list N) | P1Names (l : list bytes) (t : gmap N bytes) (fs : list N) | P1Done.
Section M1.
  Variable cut : N -> nat.
  (** m1:22-116 [run], one step; [fs]: the accounts that the iterator gives (C69). *)
  Definition m1_step (s : fst_) (p : m1_phase) : fst_ * m1_phase :=
    match p with
    | P1Next [] => (s, P1Done)
    | P1Next (f :: fs) => (s, P1Names (take (cut f) (trie_names s f)) ∅ fs)
    | P1Names (b :: l) t fs => (s, P1Names l (m1_name s t b) fs)
    | P1Names [] t fs => (m1_commit s t, P1Next fs)
    | P1Done => (s, P1Done)
    end.
  Fixpoint m1_iter (n : nat) (s : fst_) (p : m1_phase) : fst_ * m1_phase :=
    match n with
    | O => (s, p)
    | S n => let '(s, p) := m1_step s p in m1_iter n s p
    end.

  (** The run while the engine commits: [L1] a step of m1, [LName] a proof merged, [LAgain] the process starts anew. *)
  Inductive m1_label := L1 | LName (p : fproof) | LAgain (fs : list N).
  Definition m1_lstep (x : fst_ * m1_phase) (l : m1_label) : fst_ * m1_phase :=
    match l with
    | L1 => m1_step x.1 x.2
    | LName p => ((f_merge x.1 p).1, x.2)
    | LAgain fs => (x.1, P1Next fs)
    end.
  Definition m1_run (x : fst_ * m1_phase) (ls : list m1_label) : fst_ * m1_phase := foldl m1_lstep x ls.
End M1.

(** ** Copying on-chain events to shard 0 *)

Section Job.
  Context {E : Type}.
  Variable dec : bytes -> option E.

  (** migrate_onchain_events.rs:17. *)
  Definition JOB_PAGE : N := 100.
  (** onchain_event_store.rs:1105-1119 [get_all_onchain_events]; the keys are kept for the log. *)
  Definition ev_prefix : bytes := [RP_OnChain; 1].
  Definition job_page (db : kv bytes) (tok : option bytes) : res unit (list (bytes * E) * option bytes) :=
    list_limited (fun k v => match dec v with Some e => Some (k, e) | None => None end) (fun _ => true) db
      ev_prefix (increment_vec_u8 ev_prefix) (POpts (Some JOB_PAGE) tok false).

  (** What the trial merge into shard 0's store says about an event (128-173): accepted, there already, another error. *)
  Inductive trial := TNew | TKnown | TFail.
  (** 127-174: the events in order with the verdicts; a new one is sent to the mempool, and a send that fails ends the
      batch.  [sends]: how many sends work, [None] for all. *)
  Fixpoint offer (tr : E -> trial) (sends : option nat) (l : list (bytes * E)) : list (bytes * E * trial) * bool :=
    match l with
    | [] => ([], true)
    | (k, e) :: r =>
        match tr e, sends with
        | TNew, Some O => ([], false)
        | TNew, Some (S n) => let '(x, ok) := offer tr (Some n) r in ((k, e, TNew) :: x, ok)
        | v, _ => let '(x, ok) := offer tr sends r in ((k, e, v) :: x, ok)
        end
    end.

  (** One pass of the loop (32-82): whether the token can be read, the verdicts, the sends, whether the token can be
      written.  A process that stops during the pass is one whose sends or write fail. *)
  Record jin := JIn { j_read : bool; j_trial : E -> trial; j_sends : option nat; j_write : bool }.
  (** The token on disk, and the events looked at so far. *)
  Record jstate := JState { js_tok : option bytes; js_log : list (bytes * E * trial) }.
  Definition j_init : jstate := JState None [].
  Inductive jout := JMore | JFinished | JFailed.
  #[global] Instance jout_eq_dec : EqDecision jout. Proof. solve_decision. Defined.
  Definition job_iter (s : jstate) (db : kv bytes) (i : jin) : jstate * jout :=
    match job_page db (if j_read i then js_tok s else None) with
    | Ok (l, next) =>
        let '(x, ok) := offer (j_trial i) (j_sends i) l in
        let log := js_log s ++ x in
        if negb ok then (JState (js_tok s) log, JFailed)
        else if negb (j_write i) then (JState (js_tok s) log, JFailed)
        else (JState next log, match next with None => JFinished | Some _ => JMore end)
    | _ => (s, JFailed)
    end.
  (** The passes of one or several calls, each with the shard's database at that time, up to the first that finishes. *)
  Fixpoint job_run (s : jstate) (is : list (kv bytes * jin)) : jstate * list jout :=
    match is with
    | [] => (s, [])
    | (db, i) :: is =>
        let '(s, o) := job_iter s db i in
        match o with
        | JFinished => (s, [o])
        | _ => let '(s, os) := job_run s is in (s, o :: os)
        end
    end.
  (** What was handed to the mempool. *)
  Definition handed (l : list (bytes * E * trial)) : list (bytes * E) :=
    omap (fun x => match x.2 with TNew => Some x.1 | _ => None end) l.
End Job.
Global Arguments jin : clear implicits.
Global Arguments jstate : clear implicits.
