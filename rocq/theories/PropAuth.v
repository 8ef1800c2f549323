(** Property C104: who may call the node. *)
From Verif Require Import Auth AuthProofs.
From Coq Require Import ZifyN ZifyNat ZifyBool.
#[local] Open Scope N_scope.

(** A configuration is a list of entries without commas, joined by commas. An entry names a user if it is "user:password" with
    neither containing a colon. *)
Definition cred (u p : bytes) : bytes := u ++ COLON :: p.
Definition plain (x : bytes) : Prop := COLON ∉ x.
Definition usable (e : bytes) : Prop := exists u p, e = cred u p /\ plain u /\ plain p.
Definition config (es : list bytes) : bytes := join COMMA es.
Definition entries_ok (es : list bytes) : Prop := es <> [] /\ Forall (fun e => COMMA ∉ e) es.
(** The password the configuration gives [u]: that of the last usable entry for [u]. *)
Definition assigned (es : list bytes) (u p : bytes) : Prop :=
  plain u /\ plain p /\ exists l1 l2, es = l1 ++ cred u p :: l2 /\ forall q, plain q -> cred u q ∉ l2.
(** The header "Basic x", words separated by spaces or tabs. *)
Definition basic_header (h : header) (x : bytes) : Prop :=
  exists s1 s2 s3, h = HText (s1 ++ BASIC ++ s2 ++ x ++ s3) /\ ws s1 /\ ws s2 /\ s2 <> [] /\ ws s3 /\ word x.

Lemma usable_entry e : usable e <-> entry e <> None.
Proof.
  split.
  - intros (u & p & E & A & B) N. assert (entry e = Some (u, p)) as Q by (by apply entry_spec). congruence.
  - intros N. destruct (entry e) as [[u p]|] eqn:E; [|done]. apply entry_spec in E. exists u, p. exact E.
Qed.
Lemma no_users es : entries_ok es -> parse_auth (config es) = [] <-> Forall (fun e => ~ usable e) es.
Proof.
  intros [N F]. unfold config. rewrite parse_join by done. clear N F. induction es as [|e r IH]; cbn [omap list_omap]; [split; intros; constructor|].
  rewrite Forall_cons, <- IH, usable_entry. destruct (entry e); cbn; split; try done; [intros [X _]; exfalso; by apply X|intros H; split; [|done]; intros X; by apply X|tauto].
Qed.
Lemma assigned_lookup es u p : entries_ok es -> plain u -> plain p ->
  lookup_user (parse_auth (config es)) u = Some p <-> assigned es u p.
Proof.
  intros [N F] Pu Pp. unfold config. rewrite parse_join, lookup_user_spec by done. split.
  - intros (l1 & l2 & H & Q). apply omap_mid in H as (k1 & e & k2 & -> & E & _ & <-). apply entry_spec in E as [E _].
    split; [done|]. split; [done|]. exists k1, k2. split; [by rewrite E|]. intros q Pq X. apply (Q q). apply elem_of_list_omap.
    exists (cred u q). split; [done|]. by apply entry_spec.
  - intros (_ & _ & k1 & k2 & -> & Q). exists (omap entry k1), (omap entry k2). split.
    + rewrite omap_app. cbn [omap list_omap]. assert (entry (cred u p) = Some (u, p)) as -> by (by apply entry_spec). done.
    + intros q X. apply elem_of_list_omap in X as (e & X & E). apply entry_spec in E as (-> & _ & Pq). by apply (Q q).
Qed.

(** With at least one usable entry, a call is let in exactly with the header "Basic x" where [x] decodes to a name and the
    password the configuration gives it. *)
Theorem C104_accepts_iff : forall dec es h, entries_ok es -> Exists usable es ->
  authenticate dec (parse_auth (config es)) h = true <->
  exists x u p, basic_header h x /\ dec x = Some (cred u p) /\ assigned es u p.
Proof.
  intros dec es h Ok Ex. assert (parse_auth (config es) <> []) as NE.
  { rewrite no_users by done. intros F. rewrite List.Forall_forall in F. apply Exists_exists in Ex as (e & He & U).
    apply (F e); [by apply elem_of_list_In|done]. }
  unfold authenticate. destruct (parse_auth (config es)) as [|us0 us] eqn:EU; [done|]. rewrite <- EU. clear NE. split.
  - destruct h as [| |h]; try done. destruct (words h) as [|w [|x [|? ?]]] eqn:W; try done. case_bool_decide as D; [|done]. subst w.
    destruct (dec x) as [d|] eqn:Ed; [|done]. destruct (split COLON d) as [|u [|p [|? ?]]] eqn:Sp; try done. case_bool_decide as L; [|done].
    intros _. apply split_two in Sp as (-> & Pu & Pp). exists x, u, p. apply words_two_inv in W as (s1 & s2 & s3 & -> & W1 & W2 & N2 & W3 & _ & Wx).
    split; [exists s1, s2, s3; done|]. split; [done|]. by apply assigned_lookup.
  - intros (x & u & p & (s1 & s2 & s3 & -> & W1 & W2 & N2 & W3 & Wx) & Ed & As). rewrite (words_two s1 BASIC s2 x s3); try done.
    + rewrite bool_decide_true by done. rewrite Ed. destruct As as (Pu & Pp & As). assert (split COLON (cred u p) = [u; p]) as -> by (by apply split_two).
      rewrite bool_decide_true; [done|]. apply assigned_lookup; done.
    + split; [done|]. repeat constructor.
Qed.

(** A call without credentials is let in exactly if no entry is usable. *)
Theorem C104_open_iff : forall dec es, entries_ok es ->
  authenticate dec (parse_auth (config es)) HNone = true <-> Forall (fun e => ~ usable e) es.
Proof.
  intros dec es Ok. rewrite <- no_users by done. unfold authenticate. by destruct (parse_auth (config es)).
Qed.
Theorem C104_open_to_all : forall dec es h, entries_ok es -> Forall (fun e => ~ usable e) es ->
  authenticate dec (parse_auth (config es)) h = true.
Proof. intros dec es h Ok F. apply no_users in F; [|done]. by rewrite F. Qed.

(** Refuted: "a node configured with a user and a password is closed". A password with a colon in it turns the check off. *)
Theorem C104_fail_open_refuted : forall dec u p h, COMMA ∉ u -> COMMA ∉ p -> COLON ∈ p ->
  authenticate dec (parse_auth (config [cred u p])) h = true.
Proof.
  intros dec u p h Cu Cp Hp. apply C104_open_to_all.
  - split; [done|]. constructor; [|constructor]. unfold cred. intros X. apply elem_of_app in X as [X|X]; [done|].
    apply elem_of_cons in X as [X|X]; [by vm_compute in X|done].
  - constructor; [|constructor]. intros (a & b & E & Pa & Pb).
    assert (split COLON (cred u p) = [a; b]) as Sp by (apply split_two; done).
    assert (forall l : bytes, length (split COLON l) = S (length (List.filter (fun x => x =? COLON) l))) as L.
    { clear. induction l as [|x l IH]; [done|]. cbn [split List.filter]. destruct (x =? COLON).
      - cbn [length]. by rewrite IH.
      - pose proof (split_ne COLON l). destruct (split COLON l); [done|]. cbn [length] in *. done. }
    pose proof (L (cred u p)) as Q. rewrite Sp in Q. unfold cred in Q. rewrite List.filter_app in Q. cbn [List.filter] in Q. rewrite N.eqb_refl, app_length in Q. cbn [length] in Q.
    assert (length (List.filter (fun x => x =? COLON) p) <> 0%nat) as Np.
    { clear -Hp. induction p as [|x p IH]; [by apply elem_of_nil in Hp|]. cbn [List.filter]. destruct (x =? COLON) eqn:E; [done|].
      apply IH. apply elem_of_cons in Hp as [Hp|Hp]; [lia|done]. }
    lia.
Qed.
(** Beside a usable entry such a user is shut out, whatever they send. *)
Theorem C104_colon_shut_out : forall dec es h x u p, entries_ok es -> Exists usable es -> plain u -> COLON ∈ p ->
  basic_header h x -> dec x = Some (cred u p) -> authenticate dec (parse_auth (config es)) h = false.
Proof.
  intros dec es h x u p Ok Ex Pu Cp Hh Hd. destruct (authenticate dec (parse_auth (config es)) h) eqn:E; [|done]. exfalso.
  apply C104_accepts_iff in E as (x' & u' & p' & Hh' & Hd' & As); [|done|done].
  destruct Hh as (s1 & s2 & s3 & -> & ?), Hh' as (t1 & t2 & t3 & Eh & ?).
  assert (s1 ++ BASIC ++ s2 ++ x ++ s3 = t1 ++ BASIC ++ t2 ++ x' ++ t3) as Eh' by congruence. clear Eh.
  assert (words (s1 ++ BASIC ++ s2 ++ x ++ s3) = [BASIC; x]) as W by (apply words_two; try tauto; split; [done|repeat constructor]).
  assert (words (t1 ++ BASIC ++ t2 ++ x' ++ t3) = [BASIC; x']) as W' by (apply words_two; try tauto; split; [done|repeat constructor]).
  rewrite Eh' in W. rewrite W in W'. injection W' as <-. rewrite Hd in Hd'. injection Hd' as Hd'. destruct As as (Pu' & Pp' & _).
  assert (split COLON (cred u p) = [u'; p']) as Sp by (rewrite Hd'; by apply split_two).
  unfold cred in Sp. rewrite split_app in Sp by done. injection Sp as <- Sp. destruct (split_spec COLON p) as [J _]. rewrite Sp in J. cbn [join] in J. by subst.
Qed.

(** ** Which calls ask *)

(** Submissions are served only with credentials of [rpc_auth]; the mesh view, the snapshot upload and the migration only with
    those of [admin_rpc_auth]; without [admin_rpc_auth] there is no admin service. *)
Theorem C104_gated : forall dec c k h, guard_call dec c k h = GServed ->
  match k with
  | CSubmit | CSubmitBulk _ => authenticate dec (parse_auth (a_rpc c)) h = true
  | CMeshView | CMeshTopology => authenticate dec (parse_auth (a_admin c)) h = true
  | CAdminSnapshot | CAdminMigrate => parse_auth (a_admin c) <> [] /\ authenticate dec (parse_auth (a_admin c)) h = true
  | CAdminRetry => parse_auth (a_admin c) <> []
  | CAdminDebug => parse_auth (a_admin c) <> [] /\ a_devnet c = true
  | CRead => True
  end.
Proof.
  intros dec c k h. unfold guard_call, admin_enabled. destruct k; try done; repeat case_match; try done; intros _; split; try done; congruence.
Qed.
(** Reading never asks. *)
Theorem C104_reads : forall dec c h, guard_call dec c CRead h = GServed.
Proof. done. Qed.
(** Nobody with the right credentials is turned away. *)
Theorem C104_admits : forall dec c k h,
  authenticate dec (parse_auth (a_rpc c)) h = true -> authenticate dec (parse_auth (a_admin c)) h = true ->
  guard_call dec c k h = GServed \/
  match k with
  | CSubmitBulk f => f = false
  | CAdminSnapshot | CAdminMigrate | CAdminRetry => parse_auth (a_admin c) = []
  | CAdminDebug => parse_auth (a_admin c) = [] \/ a_devnet c = false
  | _ => False
  end.
Proof.
  intros dec c k h A B. unfold guard_call, admin_enabled. rewrite A, B.
  destruct k as [|[]| | | | | | |]; destruct (parse_auth (a_admin c)), (a_devnet c); auto.
Qed.
(** Refuted: "admin calls ask for credentials". The retries never do; on a devnet neither do the debug submissions. *)
Theorem C104_admin_open_refuted : forall dec c, parse_auth (a_admin c) <> [] ->
  guard_call dec c CAdminRetry HNone = GServed /\ (a_devnet c = true -> guard_call dec c CAdminDebug HNone = GServed) /\
  guard_call dec c CAdminSnapshot HNone = GUnauthenticated.
Proof.
  intros dec c N. unfold guard_call, admin_enabled. destruct (parse_auth (a_admin c)) as [|u us]; [done|]. split; [done|].
  split; [by intros ->|done].
Qed.
(** Refuted: "without admin credentials the diagnostic calls are closed": they are open to everybody, while the rest of the admin
    service is not there. *)
Theorem C104_mesh_open_refuted : forall dec c h, parse_auth (a_admin c) = [] ->
  guard_call dec c CMeshView h = GServed /\ guard_call dec c CMeshTopology h = GServed /\ guard_call dec c CAdminSnapshot h = GNotMounted.
Proof. intros dec c h E. unfold guard_call, admin_enabled. by rewrite E. Qed.
(** Refuted: "a debug submission that answers well was accepted": an error of the mempool is not looked at. *)
Theorem C104_debug_ok_refuted : forall fid e, fid <> 0 -> debug_submit fid (DSent (Some (Some e))) = debug_submit fid (DSent (Some None)).
Proof. intros fid e H. unfold debug_submit. by destruct (fid =? 0). Qed.
Theorem C104_debug : forall fid c, debug_submit fid c = Some tt <-> fid <> 0 /\ exists a, c = DSent (Some a).
Proof.
  intros fid c. unfold debug_submit. destruct (fid =? 0) eqn:E.
  - split; [done|]. intros [? _]. lia.
  - destruct c as [|[a|]]; split; try done; try (intros [_ [? ?]]; done). intros _. split; [lia|by exists a].
Qed.

(** Users "a:x,b:y,a:z"; the decoder is the identity. *)
Definition exa : list bytes := [[97; 58; 120]; [98; 58; 121]; [97; 58; 122]].
Definition hd (u p : N) : header := HText (BASIC ++ [32; u; 58; p]).
Example C104_ex :
  config exa = [97; 58; 120; 44; 98; 58; 121; 44; 97; 58; 122] /\
  authenticate Some (parse_auth (config exa)) (hd 97 122) = true /\
  authenticate Some (parse_auth (config exa)) (hd 97 120) = false /\
  authenticate Some (parse_auth (config exa)) (hd 98 121) = true /\
  authenticate Some (parse_auth (config exa)) (HText [32; 66; 97; 115; 105; 99; 9; 32; 98; 58; 121; 32]) = true /\
  authenticate Some (parse_auth (config exa)) (HText [98; 97; 115; 105; 99; 32; 98; 58; 121]) = false /\
  authenticate Some (parse_auth (config exa)) HNone = false /\
  authenticate Some (parse_auth (config [[97; 58; 120; 58; 121]])) HNone = true /\
  authenticate Some (parse_auth (config [[97; 58; 120; 58; 121]; [98; 58; 121]])) (HText (BASIC ++ [32; 97; 58; 120; 58; 121])) = false.
Proof. by vm_compute. Qed.
Example C104_ex_calls : let c := ACfg (config exa) [97; 58; 98] false in
  guard_call Some c CSubmit (hd 98 121) = GServed /\ guard_call Some c CSubmit HNone = GUnauthenticated /\
  guard_call Some c (CSubmitBulk false) HNone = GInvalid /\ guard_call Some c CAdminMigrate (hd 97 98) = GServed /\
  guard_call Some c CAdminMigrate (hd 98 121) = GUnauthenticated /\ guard_call Some c CAdminDebug (hd 97 98) = GDenied /\
  guard_call Some c CAdminRetry HNone = GServed.
Proof. by vm_compute. Qed.
Example C104_ex_hyps : entries_ok exa /\ Exists usable exa /\ assigned exa [97] [122].
Proof.
  split; [|split].
  - split; [done|]. repeat constructor; apply (bool_decide_unpack _); by vm_compute.
  - left. exists [97], [120]. split; [done|]. split; apply (bool_decide_unpack _); by vm_compute.
  - split; [apply (bool_decide_unpack _); by vm_compute|]. split; [apply (bool_decide_unpack _); by vm_compute|].
    exists (take 2 exa), []. split; [done|]. intros q _. apply not_elem_of_nil.
Qed.

Print Assumptions C104_accepts_iff.
Print Assumptions C104_open_iff.
Print Assumptions C104_open_to_all.
Print Assumptions C104_fail_open_refuted.
Print Assumptions C104_colon_shut_out.
Print Assumptions C104_gated.
Print Assumptions C104_reads.
Print Assumptions C104_admits.
Print Assumptions C104_admin_open_refuted.
Print Assumptions C104_mesh_open_refuted.
Print Assumptions C104_debug_ok_refuted.
Print Assumptions C104_debug.
