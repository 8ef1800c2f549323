(** C98: gossip messages reach the actors they name and nothing else; none takes the node down; contact information.
    C99: connected peers as the sync actor sees them; the sweep of half-subscribed direct peers. *)
From stdpp Require Import gmap fin_sets sets.
From Coq Require Import NArith List Sorted Lia ZifyN ZifyNat ZifyBool.
From Verif Require Import Inbound InboundProofs ReadSync ReadSyncProofs.
#[local] Open Scope N_scope.

(** ** C98 *)

(** The shard a consensus, proposal or status message is for. *)
Definition addressed (x : N * gmsg) : option (N * (channel * N * N)) :=
  match x.2 with
  | GProposal (Some i) p => Some (i, (ChProposal, x.1, p))
  | GConsensus (Some i) p => Some (i, (ChConsensus, x.1, p))
  | GStatus (Some i) p => Some (i, (ChSync, x.1, p))
  | _ => None
  end.
(** The messages for shard [i] in a stream, in order; what the actor of shard [i] got, in order. *)
Definition for_shard (i : N) (l : list (N * gmsg)) : list (channel * N * N) :=
  omap (fun x => match addressed x with Some (j, y) => if i =? j then Some y else None | None => None end) l.
Definition actor_got (i : N) (l : list delivery) : list (channel * N * N) :=
  omap (fun d => match d with ToActor j c f x => if i =? j then Some (c, f, x) else None | _ => None end) l.
Definition start : nst := NSt ∅ [] [].

Lemma node_run_ind (P : list (N * gmsg) -> nst -> Prop) e actors s0 : P [] s0 ->
  (forall l s x s', P l s -> node_run e actors s0 l = Some s -> node_step e actors s x = Some s' -> P (l ++ [x]) s') ->
  forall l s, node_run e actors s0 l = Some s -> P l s.
Proof.
  intros P0 PS. assert (A : forall l s x, node_run e actors s (l ++ [x]) =
    match node_run e actors s l with Some s1 => node_step e actors s1 x | None => None end).
  { induction l as [|y l IH]; intros s x; cbn; [by destruct (node_step e actors s x)|].
    destruct (node_step e actors s y); [apply IH|done]. }
  induction l as [|x l IH] using rev_ind; intros s H; [cbn in H; by injection H as <-|].
  rewrite A in H. destruct (node_run e actors s0 l) as [s1|] eqn:E; [|done]. eapply PS; eauto.
Qed.

(** Every actor gets exactly the messages that name its shard, in order, each with the peer that delivered it. *)
Theorem C98_routed e actors l s i : node_run e actors start l = Some s ->
  actor_got i (n_got s) = if bool_decide (i ∈ actors) then for_shard i l else [].
Proof.
  revert l s. apply node_run_ind.
  { cbn. by destruct (bool_decide _). }
  intros l s [f g] s' IH _ H. unfold node_step in H. cbn [fst snd] in H.
  assert (K : forall y, (if bool_decide (i ∈ actors) then for_shard i l else []) ++ (if bool_decide (i ∈ actors) then y else []) =
              if bool_decide (i ∈ actors) then for_shard i l ++ y else []) by (intros y; by destruct (bool_decide _)).
  assert (D : for_shard i (l ++ [(f, g)]) = for_shard i l ++ for_shard i [(f, g)]) by (unfold for_shard; apply omap_app).
  rewrite D, <- K, <- IH. clear D K IH.
  assert (M : forall j c x, (if bool_decide (i ∈ actors) then if i =? j then [(c, f, x)] else [] else []) =
    actor_got i (if bool_decide (j ∈ actors) then [ToActor j c f x] else []) :> list (channel * N * N)).
  { intros j c x. destruct (N.eqb_spec i j) as [->|Hij].
    - destruct (bool_decide (j ∈ actors)); cbn; by rewrite ?N.eqb_refl.
    - destruct (bool_decide (i ∈ actors)), (bool_decide (j ∈ actors)); cbn; try done;
        by rewrite (proj2 (N.eqb_neq i j) Hij). }
  assert (Z : forall a : list delivery, actor_got i a ++ [] = actor_got i a) by (intros; apply app_nil_r).
  assert (Z2 : forall (b : bool) (a : list delivery), actor_got i a ++ (if b then [] else []) = actor_got i a) by (intros []; intros; apply app_nil_r).
  assert (GA : forall a b : list delivery, actor_got i (a ++ b) = actor_got i a ++ actor_got i b) by (intros; apply omap_app).
  destruct g as [| |b|v|sh x|sh x|sh x|m]; cbn in H.
  1-2: injection H as <-; cbn; by rewrite Z2.
  - unfold contact in H. destruct b as [b|]; [|injection H as <-; cbn; by rewrite Z2].
    destruct (cb_peer b); [|done].
    repeat match type of H with context [if ?c then _ else _] => destruct c end; injection H as <-; cbn; by rewrite Z2.
  - destruct v as [v|]; [|injection H as <-; cbn; by rewrite Z2].
    cbn in H. destruct (g_read e); [|injection H as <-; cbn; by rewrite app_nil_r, Z2].
    destruct v as [| | |j x]; try done. destruct (bool_decide (j ∈ actors)); [|done]. injection H as <-. cbn [n_got].
    rewrite GA. cbn. apply (f_equal2 app); [done|by destruct (bool_decide _)].
  - destruct sh as [j|]; [|done]. cbn in H. injection H as <-. cbn [n_got]. rewrite GA. f_equal. rewrite <- M. cbn. destruct (bool_decide (i ∈ actors)); [|done]. by destruct (i =? j).
  - destruct sh as [j|]; [|injection H as <-; cbn; by rewrite Z2]. cbn in H. injection H as <-. cbn [n_got].
    rewrite GA. f_equal. rewrite <- M. cbn. destruct (bool_decide (i ∈ actors)); [|done]. by destruct (i =? j).
  - destruct sh as [j|]; [|injection H as <-; cbn; by rewrite Z2]. cbn in H. injection H as <-. cbn [n_got].
    rewrite GA. f_equal. rewrite <- M. cbn. destruct (bool_decide (i ∈ actors)); [|done]. by destruct (i =? j).
  - destruct m as [m|]; [|injection H as <-; cbn; by rewrite Z2]. cbn in H. injection H as <-. cbn [n_got].
    rewrite GA. f_equal. destruct (g_read e); cbn; by destruct (bool_decide _).
Qed.
Definition ex_env : genv := GEnv true 1 12 true {[3]}.
Definition ex_msgs : list (N * gmsg) :=
  [ (3, GStatus (Some 1) 40); (4, GConsensus (Some 2) 41); (3, GConsensus (Some 9) 42); (4, GConsensus None 43);
    (3, GRead (Some (DShard 2 44))); (4, GContact (Some (CBody (Some 8) 500 1 12))); (4, GProposal (Some 1) 45); (4, GEmpty) ].
Example C98_ex : exists s, node_run ex_env {[0; 1; 2]} start ex_msgs = Some s /\
  n_got s = [ToActor 1 ChSync 3 40; ToActor 2 ChConsensus 4 41; ToHost 2 (DShard 2 44); ToActor 1 ChProposal 4 45] /\
  n_dialled s = [500] /\ n_peers s !! 8 = Some (CBody (Some 8) 500 1 12).
Proof. vm_compute. by eexists. Qed.

(** A read node puts nothing into a mempool and a validator gives no decided value to a host; what a validator's mempool
    gets are the user messages of the stream, in order, each with its data re-read from data_bytes when that is set. *)
Definition mempool_got (l : list delivery) : list umsg := omap (fun d => match d with ToMempool m => Some m | _ => None end) l.
Definition host_got (l : list delivery) : list dval := omap (fun d => match d with ToHost _ v => Some v | _ => None end) l.
Definition user_messages (l : list (N * gmsg)) : list umsg := omap (fun x => match x.2 with GMempool (Some m) => Some m | _ => None end) l.
Definition decided_values (l : list (N * gmsg)) : list dval := omap (fun x => match x.2 with GRead (Some v) => Some v | _ => None end) l.
Definition reread (m : umsg) : umsg := UMsg (um_bytes m) (match um_bytes m with Some d => d | None => um_data m end).
Theorem C98_roles e actors l s : node_run e actors start l = Some s ->
  mempool_got (n_got s) = (if g_read e then [] else map reread (user_messages l)) /\
  host_got (n_got s) = (if g_read e then decided_values l else []).
Proof.
  revert l s. apply node_run_ind; [by destruct (g_read e)|].
  intros l s [f g] s' [IH1 IH2] _ H. unfold node_step in H. cbn [fst snd] in H.
  assert (D1 : user_messages (l ++ [(f, g)]) = user_messages l ++ user_messages [(f, g)]) by apply omap_app.
  assert (D2 : decided_values (l ++ [(f, g)]) = decided_values l ++ decided_values [(f, g)]) by apply omap_app.
  rewrite D1, D2, map_app. clear D1 D2.
  assert (G : exists d, n_got s' = n_got s ++ d /\ mempool_got d = (if g_read e then [] else map reread (user_messages [(f, g)])) /\
    host_got d = (if g_read e then decided_values [(f, g)] else [])).
  { destruct g as [| |b|v|sh x|sh x|sh x|m]; cbn in H.
    1-2: injection H as <-; exists []; cbn; rewrite app_nil_r; by destruct (g_read e).
    - unfold contact in H. exists []. cbn. rewrite app_nil_r. destruct b as [b|]; [|injection H as <-; by destruct (g_read e)].
      destruct (cb_peer b); [|done].
      repeat match type of H with context [if ?c then _ else _] => destruct c end; injection H as <-; by destruct (g_read e).
    - destruct v as [v|]; [|injection H as <-; exists []; cbn; rewrite app_nil_r; by destruct (g_read e)].
      cbn in H. destruct (g_read e); [|injection H as <-; exists []; done].
      destruct v as [| | |j x]; try done. destruct (bool_decide (j ∈ actors)); [|done]. injection H as <-. by exists [ToHost j (DShard j x)].
    - destruct sh as [j|]; [|done]. cbn in H. injection H as <-. eexists. split; [reflexivity|]. destruct (bool_decide _), (g_read e); done.
    - destruct sh as [j|]; cbn in H; injection H as <-.
      + eexists. split; [reflexivity|]. destruct (bool_decide _), (g_read e); done.
      + exists []. cbn. rewrite app_nil_r. by destruct (g_read e).
    - destruct sh as [j|]; cbn in H; injection H as <-.
      + eexists. split; [reflexivity|]. destruct (bool_decide _), (g_read e); done.
      + exists []. cbn. rewrite app_nil_r. by destruct (g_read e).
    - destruct m as [m|]; [|injection H as <-; exists []; cbn; rewrite app_nil_r; by destruct (g_read e)].
      cbn in H. injection H as <-. eexists. split; [reflexivity|]. destruct (g_read e); [done|]. cbn. split; [|done].
      unfold bytes_decode, reread. by destruct m as [[d|] x]. }
  destruct G as (d & -> & A & B). unfold mempool_got, host_got in *. rewrite !omap_app, IH1, IH2, A, B.
  by destruct (g_read e).
Qed.
Example C98_roles_ex : exists s, node_run (GEnv false 1 12 true ∅) {[0; 1]} start
    [ (3, GMempool (Some (UMsg (Some (Some 7)) None))); (3, GRead (Some DNoValue)); (4, GMempool (Some (UMsg (Some None) (Some 8)))) ] = Some s /\
  n_got s = [ToMempool (UMsg (Some (Some 7)) (Some 7)); ToMempool (UMsg (Some None) None)].
Proof. vm_compute. by eexists. Qed.

(** The node goes down exactly when one of these arrives. *)
Definition deadly (read : bool) (actors : gset N) (g : gmsg) : Prop :=
  match g with
  | GContact (Some b) => cb_peer b = None
  | GProposal None _ => True
  | GRead (Some (DShard i _)) => read = true /\ i ∉ actors
  | GRead (Some _) => read = true
  | _ => False
  end.
Theorem C98_down_iff e actors l s : node_run e actors s l = None <-> exists f g, (f, g) ∈ l /\ deadly (g_read e) actors g.
Proof.
  assert (S1 : forall s f g, node_step e actors s (f, g) = None <-> deadly (g_read e) actors g).
  { clear. intros s f g. unfold node_step. cbn [fst snd].
    destruct g as [| |[b|]|[v|]|[j|] x|[j|] x|[j|] x|[m|]]; cbn; try done.
    - destruct (cb_peer b) as [p|]; [|done].
      repeat match goal with |- context [if ?c then _ else _] => destruct c end; done.
    - destruct (g_read e).
      + destruct v as [| | |i x]; cbn; try done. destruct (bool_decide_reflect (i ∈ actors)); split; try done; tauto.
      + split; [done|]. destruct v; cbn; try done; by intros []. }
  revert s. induction l as [|[f g] l IH]; intros s; cbn.
  - split; [done|]. intros (f & g & H & _). by apply not_elem_of_nil in H.
  - destruct (node_step e actors s (f, g)) as [s'|] eqn:E.
    + rewrite IH. split; intros (f' & g' & H & D); exists f', g'; (split; [|done]); [by right|].
      apply elem_of_cons in H as [[= -> ->]|H]; [|done]. apply (S1 s f) in D. congruence.
    + split; [|done]. intros _. exists f, g. split; [left|]. by apply (S1 s f).
Qed.
(** So any peer that can publish takes any node down with one message, whatever the node's state and configuration; a read
    node also with a decided value that has no header, or that names a shard the node does not run. *)
Theorem C98_down_refuted e actors s f :
  (exists g, node_run e actors s [(f, g)] = None) /\
  (g_read e = true -> forall i x, i ∉ actors -> node_run e actors s [(f, GRead (Some (DShard i x)))] = None) /\
  (g_read e = true -> node_run e actors s [(f, GRead (Some DNoHeader))] = None) /\
  (forall x, node_run e actors s [(f, GProposal None x)] = None).
Proof.
  split; [exists (GProposal None 0)|split; [intros R i x H|split; [intros R|intros x]]]; apply C98_down_iff; eexists _, _; (split; [left|]); cbn; done.
Qed.

(** *** Contact information *)
(** An address is dialled only by a read node with autodiscovery, for a contact of its own network and version whose peer is
    not connected. *)
Theorem C98_dials e actors l s a : node_run e actors start l = Some s -> a ∈ n_dialled s ->
  g_read e = true /\ g_auto e = true /\
  exists f b p, (f, GContact (Some b)) ∈ l /\ cb_addr b = a /\ cb_peer b = Some p /\ p ∉ g_connected e /\
    cb_network b = g_network e /\ cb_version b = g_version e.
Proof.
  revert l s. refine (node_run_ind (fun l s => a ∈ n_dialled s -> g_read e = true /\ g_auto e = true /\
    exists f b p, (f, GContact (Some b)) ∈ l /\ cb_addr b = a /\ cb_peer b = Some p /\ p ∉ g_connected e /\
    cb_network b = g_network e /\ cb_version b = g_version e) e actors start _ _).
  { intros H. by apply not_elem_of_nil in H. }
  intros l s [f g] s' IH _ H A. unfold node_step in H. cbn [fst snd] in H.
  assert (L : a ∈ n_dialled s -> g_read e = true /\ g_auto e = true /\ exists f0 b p, (f0, GContact (Some b)) ∈ l ++ [(f, g)] /\
    cb_addr b = a /\ cb_peer b = Some p /\ p ∉ g_connected e /\ cb_network b = g_network e /\ cb_version b = g_version e).
  { intros Q. destruct (IH Q) as (R1 & R2 & f0 & b & p & B & C). split; [done|]. split; [done|]. exists f0, b, p.
    split; [|done]. apply elem_of_app. by left. }
  clear IH. destruct g as [| |[b|]|[v|]|[j|] x|[j|] x|[j|] x|[m|]]; cbn in H; try done;
    try (injection H as <-; cbn in A; rewrite app_nil_r in A; by apply L).
  - destruct (cb_peer b) as [p|] eqn:P; [|done].
    destruct (g_read e) eqn:R; cbn in H; [|injection H as <-; cbn in A; rewrite app_nil_r in A; by apply L].
    destruct (bool_decide_reflect (p ∈ g_connected e)) as [C|C]; [injection H as <-; cbn in A; rewrite app_nil_r in A; by apply L|].
    destruct (N.eqb_spec (cb_network b) (g_network e)) as [Nw|Nw]; cbn in H; [|injection H as <-; cbn in A; rewrite app_nil_r in A; by apply L].
    destruct (N.eqb_spec (cb_version b) (g_version e)) as [V|V]; cbn in H; [|injection H as <-; cbn in A; rewrite app_nil_r in A; by apply L].
    destruct (g_auto e) eqn:AU; [|injection H as <-; cbn in A; rewrite app_nil_r in A; by apply L].
    injection H as <-. cbn in A. apply elem_of_app in A as [A|A]; [by apply L|]. apply elem_of_list_singleton in A as ->.
    split; [done|]. split; [done|]. exists f, b, p. split; [|done]. apply elem_of_app. right. left.
  - destruct (g_read e); [|injection H as <-; cbn in A; rewrite app_nil_r in A; by apply L].
    destruct v as [| | |j x]; try done. destruct (bool_decide _); [|done]. injection H as <-. cbn in A. rewrite app_nil_r in A. by apply L.
Qed.

(** Every entry of the contact table came in a contact message naming that peer... *)
Theorem C98_table e actors l s p b : node_run e actors start l = Some s -> n_peers s !! p = Some b ->
  cb_peer b = Some p /\ exists f, (f, GContact (Some b)) ∈ l.
Proof.
  revert l s. refine (node_run_ind (fun l s => n_peers s !! p = Some b -> cb_peer b = Some p /\ exists f, (f, GContact (Some b)) ∈ l)
    e actors start _ _); [done|].
  intros l s [f g] s' IH _ H A. unfold node_step in H. cbn [fst snd] in H.
  assert (L : n_peers s !! p = Some b -> cb_peer b = Some p /\ exists f0, (f0, GContact (Some b)) ∈ l ++ [(f, g)]).
  { intros Q. destruct (IH Q) as (R & f0 & B). split; [done|]. exists f0. apply elem_of_app. by left. }
  clear IH. destruct g as [| |[c|]|[v|]|[j|] x|[j|] x|[j|] x|[m|]]; cbn in H; try done; try (injection H as <-; by apply L).
  - destruct (cb_peer c) as [q|] eqn:P; [|done].
    assert (A' : <[q := c]> (n_peers s) !! p = Some b).
    { repeat match type of H with context [if ?c then _ else _] => destruct c end; injection H as <-; exact A. }
    apply lookup_insert_Some in A' as [[<- <-]|[_ A']]; [|by apply L]. split; [done|]. exists f. apply elem_of_app. right. left.
  - destruct (g_read e); [|injection H as <-; by apply L].
    destruct v as [| | |j x]; try done. destruct (bool_decide _); [|done]. injection H as <-. by apply L.
Qed.
(** ...but not from that peer: anyone can replace anyone's entry, and an entry is never dropped, so one peer can fill the
    table with as many entries as it likes. *)
Theorem C98_spoof_refuted e actors s f p a net v : exists s',
  node_run e actors s [(f, GContact (Some (CBody (Some p) a net v)))] = Some s' /\ n_peers s' !! p = Some (CBody (Some p) a net v) /\
  dom (n_peers s) ⊆ dom (n_peers s').
Proof.
  cbn. unfold node_step. cbn.
  repeat match goal with |- context [if ?c then _ else _] => destruct c end; eexists; (split; [reflexivity|]); cbn;
    rewrite lookup_insert; (split; [done|]); rewrite dom_insert_L; set_solver.
Qed.
Theorem C98_table_grows_refuted e actors f n : exists l s,
  Forall (fun x => x.1 = f) l /\ length l = n /\ node_run e actors start l = Some s /\ size (n_peers s) = n.
Proof.
  set (msg := fun i => (f, GContact (Some (CBody (Some (N.of_nat i)) 0 0 0)))).
  assert (G : forall k s0, (forall i, (i < k)%nat -> n_peers s0 !! N.of_nat i = None) ->
    exists s, node_run e actors s0 (map msg (seq 0 k)) = Some s /\ size (n_peers s) = (k + size (n_peers s0))%nat /\
      forall i, (k <= i)%nat -> n_peers s !! N.of_nat i = n_peers s0 !! N.of_nat i).
  { induction k as [|k IH]; intros s0 H; [exists s0; done|].
    destruct (IH s0) as (s & R & S1 & S2); [intros i Hi; apply H; lia|].
    rewrite seq_S, map_app. cbn [map].
    assert (X : exists s', node_step e actors s (msg k) = Some s' /\ n_peers s' = <[N.of_nat k := CBody (Some (N.of_nat k)) 0 0 0]> (n_peers s)).
    { unfold node_step, msg. cbn. repeat match goal with |- context [if ?c then _ else _] => destruct c end; by eexists. }
    destruct X as (s' & X1 & X2). exists s'. split.
    - assert (A : forall l s x, node_run e actors s (l ++ [x]) =
        match node_run e actors s l with Some s1 => node_step e actors s1 x | None => None end).
      { clear. induction l as [|y l IH]; intros s x; cbn; [by destruct (node_step e actors s x)|].
        destruct (node_step e actors s y); [apply IH|done]. }
      rewrite A, R. exact X1.
    - rewrite X2. split.
      + rewrite map_size_insert_None; [by rewrite S1|]. rewrite S2 by lia. apply H. lia.
      + intros i Hi. rewrite lookup_insert_ne by lia. apply S2. lia. }
  destruct (G n start) as (s & R & S1 & _); [done|]. exists (map msg (seq 0 n)), s.
  split; [by apply List.Forall_map, List.Forall_forall|]. split; [by rewrite map_length, seq_length|]. split; [done|].
  rewrite S1. change (size (n_peers start)) with 0%nat. lia.
Qed.

(** ** C99 *)

(** The sync actor's set of connected peers ([conn_to_sync]: it is [c_known]) holds only peers with a live connection. *)
Theorem C99_known_connected l p o : exists s out, rrun rs_init (map (fun e => (cmsg e, o)) l) = Alive s out /\
  (p ∈ rs_conn s -> (0 < conns (conn_run l) p)%nat).
Proof.
  destruct (conn_to_sync l o) as (s & out & R & K). exists s, out. split; [done|]. rewrite K. apply known_connected.
Qed.
(** And all of them, as long as no peer ever has two connections at once. Missing: peers with several connections. *)
Fixpoint single (l : list cev) (live : list N) : bool :=
  match l with
  | [] => true
  | Established p :: r => negb (existsb (N.eqb p) live) && single r (p :: live)
  | Closed p :: r => existsb (N.eqb p) live && single r (List.filter (fun q => negb (p =? q)) live)
  end.
Theorem C99_all_connected_partial l : single l [] = true ->
  forall p, p ∈ c_known (conn_run l) <-> (0 < conns (conn_run l) p)%nat.
Proof.
  assert (G : forall l live s, single l live = true ->
    (forall p, (conns s p = if existsb (N.eqb p) live then 1 else 0)%nat /\ (p ∈ c_known s <-> existsb (N.eqb p) live = true)) ->
    forall p, p ∈ c_known (fold_left conn_step l s) <-> (0 < conns (fold_left conn_step l s) p)%nat).
  { clear. induction l as [|e l IH]; intros live s V I p.
    - cbn. destruct (I p) as [A B]. rewrite B, A. destruct (existsb _ live); split; (done || lia).
    - cbn [fold_left]. destruct e as [q|q]; cbn in V; apply andb_true_iff in V as [V1 V2].
      + eapply IH; [exact V2|]. intros r. rewrite known_step, conns_step. destruct (I r) as [A B]. cbn [existsb].
        destruct (N.eqb_spec r q) as [->|Hr]; cbn.
        * apply negb_true_iff in V1. rewrite A, V1. split; [done|]. tauto.
        * split; [done|]. rewrite B. split; [|by right]. intros [?|?]; done.
      + eapply IH; [exact V2|]. intros r. rewrite known_step, conns_step. destruct (I r) as [A B].
        assert (F : existsb (N.eqb r) (List.filter (fun x => negb (q =? x)) live) = negb (r =? q) && existsb (N.eqb r) live).
        { clear. induction live as [|x live IH]; cbn; [by rewrite andb_false_r|].
          destruct (N.eqb_spec q x) as [->|Hx]; cbn.
          - rewrite IH. destruct (N.eqb_spec r x); done.
          - rewrite IH. destruct (N.eqb_spec r x) as [->|]; cbn; [|done]. destruct (N.eqb_spec x q); [congruence|done]. }
        rewrite F. destruct (N.eqb_spec r q) as [->|Hr]; cbn.
        * rewrite A, V1. split; [done|]. split; [by intros []|done].
        * split; [done|]. rewrite B. tauto. }
  intros V. unfold conn_run. eapply G; [exact V|]. intros p. cbn. split; [done|]. split; [|done]. intros H. by apply not_elem_of_empty in H.
Qed.
Example C99_single_ex : single [Established 1; Established 2; Closed 1; Established 1] [] = true /\
  elements (c_known (conn_run [Established 1; Established 2; Closed 1; Established 1])) = [1; 2].
Proof. done. Qed.
(** When one of two connections to a peer closes, the peer is dropped although it is still connected, and until it opens a
    further connection all its statuses are ignored. *)
Theorem C99_second_connection_refuted l p l' o : (1 < conns (conn_run l) p)%nat ->
  Forall (fun e => match e with Established q | Closed q => q <> p end) l' ->
  let all := l ++ Closed p :: l' in
  (0 < conns (conn_run all) p)%nat /\
  exists s out, rrun rs_init (map (fun e => (cmsg e, o)) all) = Alive s out /\
    forall h m o', rstep s (MStatus p h m) o' = Alive s [].
Proof.
  intros C F all.
  assert (G : (0 < conns (conn_run all) p)%nat /\ p ∉ c_known (conn_run all)).
  { unfold all. clear all. induction l' as [|e l' IH] using rev_ind.
    - rewrite conn_run_snoc, conns_step, known_step, N.eqb_refl. split; [lia|]. by intros [].
    - apply Forall_app in F as [F1 F2]. pose proof (Forall_inv F2) as Fe. destruct (IH F1) as [A B].
      rewrite app_comm_cons, app_assoc, conn_run_snoc, conns_step, known_step.
      destruct e as [q|q]; (destruct (N.eqb_spec p q); [congruence|]); (split; [done|]).
      + by intros [|].
      + by intros []. }
  destruct G as [G1 G2]. split; [done|]. destruct (conn_to_sync all o) as (s & out & R & K). exists s, out. split; [done|].
  intros h m o'. cbn. rewrite bool_decide_eq_false_2; [done|]. by rewrite K.
Qed.
Example C99_second_ex : conns (conn_run [Established 1; Established 1]) 1 = 2%nat. Proof. done. Qed.

(** *** The sweep.  The times of the events do not go backwards. *)
Definition ordered (l : list (N * swev)) : Prop := StronglySorted N.le (map fst l).
Definition fresh : sweep := Sweep ∅ ∅.
(** A peer is disconnected only if it is a direct peer, connected, not subscribed to contact information, and was first seen
    at least 30 s earlier without having been lost since. *)
Theorem C99_bounce_justified direct l now p : (now, p) ∈ sw_run direct fresh l ->
  p ∈ direct /\ exists l1 topics l2, l = l1 ++ (now, SwTick topics) :: l2 /\ topics !! p = Some false /\
    exists k1 t e k2, l1 = k1 ++ (t, e) :: k2 /\ 30 <= now - t /\ seen_at e p /\ Forall (fun x => ~ gone_at x.2 p) k2.
Proof.
  intros R. destruct (sw_run_elem _ _ _ _ _ R) as (l1 & topics & l2 & -> & Q). unfold sw_tick in Q. cbn [snd] in Q.
  apply bouncable_elem in Q as (D & T & S & _). split; [done|]. exists l1, topics, l2. split; [done|]. split; [done|].
  destruct (sw_since (sw_fold direct fresh l1) !! p) as [t|] eqn:E.
  - destruct (since_origin direct fresh l1 p t D) as (k1 & e & k2 & -> & A & B); [done|done|].
    exists k1, t, e, k2. split; [done|]. split; [|done]. apply S. apply reconcile_lookup. split; [by eexists|by left].
  - exfalso. assert (X : SETTLE <= now - now); [|unfold SETTLE in X; lia]. apply S. apply reconcile_lookup.
    split; [by eexists|]. right. done.
Qed.
(** Two forced disconnects of the same peer are more than 60 s apart. *)
Theorem C99_bounce_spacing direct l1 now1 p l2 now2 : ordered (l1 ++ l2) ->
  (exists l0 topics, l1 = l0 ++ [(now1, SwTick topics)] /\ p ∈ (sw_tick direct topics (sw_fold direct fresh l0) now1).2) ->
  (now2, p) ∈ sw_run direct (sw_fold direct fresh l1) l2 -> now1 + 60 < now2.
Proof.
  intros O (l0 & topics & -> & Q) R. unfold ordered in O. rewrite map_app in O.
  apply (sw_spacing direct l2 (sw_fold direct fresh (l0 ++ [(now1, SwTick topics)])) p now1 now2); [|done| |].
  - unfold sw_fold. rewrite fold_left_app. fold (sw_fold direct fresh l0). cbn [fold_left fst snd sw_step].
    unfold sw_tick in *. cbn [snd sw_last] in *. cbn [fst sw_last]. rewrite bounced_last. by rewrite bool_decide_eq_true_2.
  - assert (H : forall a x b, StronglySorted N.le (a ++ x :: b) -> List.Forall (N.le x) b).
    { clear. induction a as [|y a IH]; intros x b H; cbn in H; apply StronglySorted_inv in H as [H1 H2]; [done|by apply IH]. }
    rewrite map_app, <- app_assoc in O. cbn in O. apply H in O. rewrite List.Forall_map in O. exact O.
  - clear -O. revert O. generalize (map fst (l0 ++ [(now1, SwTick topics)])). intros a. induction a as [|y a IH]; cbn; [done|].
    intros H. apply StronglySorted_inv in H as [H _]. auto.
Qed.
Definition ex_sweep : list (N * swev) :=
  [ (0, SwConnect 5); (10, SwTick {[5 := false]}); (30, SwTick {[5 := false]}); (31, SwClose 5 false); (32, SwConnect 5);
    (70, SwTick {[5 := false]}); (91, SwTick {[5 := false; 6 := false]}); (200, SwTick {[5 := true]}) ].
Example C99_sweep_ex : sw_run {[5]} fresh ex_sweep = [(30, 5); (91, 5)] /\ ordered ex_sweep.
Proof.
  split; [vm_compute; done|]. unfold ordered, ex_sweep. cbn. repeat (constructor; [|repeat (constructor; [lia|]); constructor]). constructor.
Qed.
(** It does find them: a direct peer listed without the subscription, first seen 30 s or more ago and not disconnected in
    the last 60 s, is disconnected at the tick. *)
Theorem C99_bounce_complete direct topics s now p t : p ∈ direct -> topics !! p = Some false -> sw_since s !! p = Some t ->
  30 <= now - t -> (forall b, sw_last s !! p = Some b -> 60 < now - b) -> p ∈ (sw_tick direct topics s now).2.
Proof.
  intros D T S1 S2 B. unfold sw_tick. cbn [snd]. apply bouncable_elem. split; [done|]. split; [done|]. split; [|exact B].
  intros t' H. apply reconcile_lookup in H as [_ [H|(H & _)]]; [|congruence]. rewrite S1 in H. injection H as <-. exact S2.
Qed.

Print Assumptions C98_routed.
Print Assumptions C98_roles.
Print Assumptions C98_down_iff.
Print Assumptions C98_down_refuted.
Print Assumptions C98_dials.
Print Assumptions C98_table.
Print Assumptions C98_spoof_refuted.
Print Assumptions C98_table_grows_refuted.
Print Assumptions C99_known_connected.
Print Assumptions C99_all_connected_partial.
Print Assumptions C99_second_connection_refuted.
Print Assumptions C99_bounce_justified.
Print Assumptions C99_bounce_spacing.
Print Assumptions C99_bounce_complete.
