(** The picture a node gives of the network: src/network/mesh/view.rs:17-85, crawl.rs:27-163, nodes.rs:57-79, 327-445, 447-522;
    src/network/gossip.rs:1000-1044 (who is answered).

    A peer id is its bytes; [valid] says which byte strings are peer ids ([PeerId::from_bytes]). Facts about a peer that no
    function here looks at (addresses, topics, rates) are one field, [rest]. The map of validators has no order of its own: it is a
    list of pairs in the order of the map. Error texts are dropped. *)
From Verif Require Export Base.
From stdpp Require Export list gmap.
#[local] Open Scope N_scope.

Notation pid := bytes (only parsing).
Definition vset := list (pid * bytes).
Fixpoint vget (vs : vset) (p : pid) : option bytes :=
  match vs with [] => None | (q, k) :: r => if bool_decide (q = p) then Some k else vget r p end.

(** proto MeshNodeType, MeshSelf, MeshPeer, MeshView. *)
Inductive ntype := TUnknown | TValidator | TNonValidator.
#[global] Instance ntype_eq_dec : EqDecision ntype. Proof. solve_decision. Defined.
Record mself := MSelf { s_pid : bytes; s_key : bytes; s_isval : bool; s_height : N; s_rest : N }.
Record mpeer := MPeer { p_pid : bytes; p_type : ntype; p_key : option bytes; p_rest : N }.
Record mview := MView { v_local : option mself; v_peers : list mpeer; v_at : N }.

Section Mesh.
  Variable valid : bytes -> bool.

  Definition vmatch (vs : vset) (b : bytes) : option bytes := if valid b then vget vs b else None.
  (** view.rs:41-85 [classify_mesh_view]. *)
  Definition classify_self (vs : vset) (h : N) (s : mself) : mself :=
    match vmatch vs (s_pid s) with
    | Some k => MSelf (s_pid s) k true h (s_rest s)
    | None => MSelf (s_pid s) (s_key s) (s_isval s) h (s_rest s)
    end.
  Definition classify_peer (vs : vset) (p : mpeer) : mpeer :=
    match vmatch vs (p_pid p) with
    | Some k => MPeer (p_pid p) TValidator (Some k) (p_rest p)
    | None => MPeer (p_pid p) TNonValidator None (p_rest p)
    end.
  Definition keep (only : bool) (p : mpeer) : bool := negb only || bool_decide (p_type p = TValidator).
  Definition classify (vs : vset) (h : N) (only : bool) (v : mview) : mview :=
    MView (classify_self vs h <$> v_local v) (List.filter (keep only) (map (classify_peer vs) (v_peers v))) (v_at v).

  (** ** The crawl (crawl.rs:40-138) *)
  Definition MAX_QUERIED : nat := 256.
  (** What becomes of a request: an answer, an error of the peer or the connection, a dropped channel, no answer in 3 s. *)
  Inductive reply := RView (v : mview) | RFailed | RClosed | RSilent.
  Inductive reason := WError | WClosed | WTimeout | WNotConnected.
  Record unreach := Unreach { u_pid : pid; u_key : bytes; u_why : reason }.
  Record topology := Topology { t_nodes : list mview; t_unreach : list unreach }.
  (** The gossip task: its own view ([None]: no answer), whether its channel takes the request for a peer, the replies. *)
  Record genv := GEnv { g_local : option mview; g_takes : pid -> bool; g_reply : pid -> reply }.

  (** crawl.rs:55-58. *)
  Definition self_pid (v : mview) : option pid :=
    match v_local v with Some s => if valid (s_pid s) then Some (s_pid s) else None | None => None end.
  (** crawl.rs:63-70. *)
  Definition seed (v : mview) : list pid :=
    take MAX_QUERIED
      (List.filter (fun p => negb (bool_decide (Some p = self_pid v)))
         (omap (fun p => if bool_decide (p_type p = TValidator) && valid (p_pid p) then Some (p_pid p) else None) (v_peers v))).
  Definition queried (e : genv) (v : mview) : list pid := List.filter (g_takes e) (seed v).
  Definition key_or_empty (vs : vset) (p : pid) : bytes := default [] (vget vs p).
  (** crawl.rs:100-126. *)
  Definition node_of (e : genv) (vs : vset) (only : bool) (p : pid) : option mview :=
    match g_reply e p with RView v => Some (classify vs 0 only v) | _ => None end.
  Definition unreach_of (e : genv) (vs : vset) (p : pid) : option unreach :=
    match g_reply e p with
    | RView _ => None
    | RFailed => Some (Unreach p (key_or_empty vs p) WError)
    | RClosed => Some (Unreach p (key_or_empty vs p) WClosed)
    | RSilent => Some (Unreach p (key_or_empty vs p) WTimeout)
    end.
  Definition crawl (e : genv) (vs : vset) (h : N) (only : bool) : option topology :=
    match g_local e with
    | None => None
    | Some raw =>
        let v := classify vs h only raw in
        let qs := queried e v in
        let missing := List.filter (fun x => negb (bool_decide (Some (fst x) = self_pid v) || bool_decide (fst x ∈ seed v))) vs in
        Some (Topology (v :: omap (node_of e vs only) qs)
                (omap (unreach_of e vs) qs ++ map (fun x => Unreach (fst x) (snd x) WNotConnected) missing))
    end.
  (** gossip.rs:1005-1030: a node answers a request of [from] only if that is one of its validators. *)
  Definition serve (vs : vset) (own : mview) (from : pid) : option mview :=
    match vget vs from with Some _ => Some own | None => None end.
End Mesh.

(** ** Known nodes (nodes.rs) *)

(** nodes.rs:57-79; name, operator, role and note are one field. *)
Record known := Known { k_info : N; k_url : option bytes; k_key : option bytes; k_pid : option bytes; k_off : bool }.
Definition lower1 (c : N) : N := if (65 <=? c) && (c <=? 90) then c + 32 else c.
Definition lower (b : bytes) : bytes := map lower1 b.
Record registry := Registry { by_key : gmap bytes known; by_pid : gmap bytes known }.
Definition r_empty : registry := Registry ∅ ∅.
(** A key that is present and not empty. *)
Definition usable (o : option bytes) : option bytes := match o with Some [] => None | _ => o end.
(** nodes.rs:386-400. *)
Definition r_insert (r : registry) (n : known) : registry :=
  Registry (match usable (k_key n) with Some k => <[lower k := n]> (by_key r) | None => by_key r end)
           (match usable (k_pid n) with Some p => <[p := n]> (by_pid r) | None => by_pid r end).
(** nodes.rs:412-431. *)
Definition r_existing (r : registry) (n : known) : option known :=
  match (match usable (k_key n) with Some k => by_key r !! lower k | None => None end) with
  | Some e => Some e
  | None => match usable (k_pid n) with Some p => by_pid r !! p | None => None end
  end.
Definition r_remove (r : registry) (n : known) : registry :=
  match r_existing r n with
  | None => r
  | Some e =>
      Registry (match k_key e with Some k => delete (lower k) (by_key r) | None => by_key r end)
               (match k_pid e with Some p => delete p (by_pid r) | None => by_pid r end)
  end.
(** nodes.rs:334-343, 348-362. *)
Definition r_builtin (l : list known) : registry := foldl r_insert r_empty l.
Definition r_add (r : registry) (n : known) : registry :=
  match k_key n, k_pid n with None, None => r | _, _ => r_insert (r_remove r n) n end.
Definition r_config (builtin cfg : list known) : registry := foldl r_add (r_builtin builtin) cfg.
(** nodes.rs:366-375. *)
Definition r_lookup (r : registry) (p : bytes) (k : option bytes) : option known :=
  match usable k with
  | Some k => match by_key r !! lower k with Some n => Some n | None => by_pid r !! p end
  | None => by_pid r !! p
  end.

(** ** A browser's address of a node (nodes.rs:447-522) *)

(** The host of a multiaddr: an IPv4 address as 4 octets, an IPv6 address as 8 segments, a name, or none. *)
Inductive host := H4 (a b c d : N) | H6 (segs : list N) | HDns (name : bytes).
(** [Ipv4Addr::is_private], [is_loopback], [is_link_local], [is_unspecified], [is_broadcast]. *)
Definition private4 (a b c d : N) : bool :=
  ((a =? 10) || ((a =? 172) && (16 <=? b) && (b <=? 31)) || ((a =? 192) && (b =? 168)))
  || (a =? 127) || ((a =? 169) && (b =? 254))
  || ((a =? 0) && (b =? 0) && (c =? 0) && (d =? 0))
  || ((a =? 255) && (b =? 255) && (c =? 255) && (d =? 255)).
(** nodes.rs:489-512. *)
Definition private_host (h : host) : bool :=
  match h with
  | H4 a b c d => private4 a b c d
  | H6 [s0; s1; s2; s3; s4; s5; s6; s7] =>
      if (s0 =? 0) && (s1 =? 0) && (s2 =? 0) && (s3 =? 0) && (s4 =? 0) && (s5 =? 65535)
      then private4 (s6 / 256) (s6 mod 256) (s7 / 256) (s7 mod 256)
      else
        ((s0 =? 0) && (s1 =? 0) && (s2 =? 0) && (s3 =? 0) && (s4 =? 0) && (s5 =? 0) && (s6 =? 0) && ((s7 =? 0) || (s7 =? 1)))
        || (N.land (s0 / 256) 254 =? 252) || (N.land s0 65472 =? 65152)
  | H6 _ => false
  | HDns _ => false
  end.
Inductive url := UKnown (u : bytes) | UObserved (h : host).
(** nodes.rs:457-468; the URL of an observed host is http, the host (in brackets if IPv6) and the default port. *)
Definition resolve_url (k : option known) (h : option host) : option url :=
  let observed := match h with Some h => if private_host h then None else Some (UObserved h) | None => None end in
  match k with
  | Some k => if k_off k then None
              else match usable (k_url k) with Some u => Some (UKnown u) | None => observed end
  | None => observed
  end.
