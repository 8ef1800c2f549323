(** C108, C109: what a node asks of a chain. *)
From Verif Require Import Extern AuthProofs.
From Coq Require Import Lia ZifyN ZifyNat ZifyBool.
#[local] Open Scope N_scope.

(** * C108: contract signatures *)

Lemma app_same {A} (a b c d : list A) : length a = length c -> a ++ b = c ++ d -> a = c /\ b = d.
Proof.
  revert c. induction a as [|x a IH]; intros [|y c] L E; try discriminate; [auto|]. cbn in *. injection E as -> E. injection L as L.
  destruct (IH _ L E) as [-> ->]. auto.
Qed.
Lemma abi_tail_inj s s' : N.of_nat (length s) < 256 ^ 32 -> N.of_nat (length s') < 256 ^ 32 -> abi_tail s = abi_tail s' -> s = s'.
Proof.
  intros L L' E. unfold abi_tail in E. apply app_same in E; [|rewrite !be_length; reflexivity]. destruct E as [E1 E2].
  apply be_inj in E1; [|exact L|exact L']. apply app_same in E2; [tauto|lia].
Qed.
Lemma CTo_inj a d a' d' : CTo a d = CTo a' d' -> a = a' /\ d = d'.
Proof. intros E. injection E. auto. Qed.
Lemma CDeploy_inj d d' : CDeploy d = CDeploy d' -> d = d'.
Proof. intros E. injection E. auto. Qed.
(** The question put to the chain says exactly which address, digest and signature it is about. *)
Theorem C108_question helper a a' h h' s s' :
  length a = 20%nat -> length a' = 20%nat -> length h = 32%nat -> length h' = 32%nat ->
  N.of_nat (length s) < 256 ^ 32 -> N.of_nat (length s') < 256 ^ 32 ->
  (CTo a (abi_1271 h s) = CTo a' (abi_1271 h' s') -> a = a' /\ h = h' /\ s = s') /\
  (CDeploy (abi_deploy helper a h s) = CDeploy (abi_deploy helper a' h' s') -> a = a' /\ h = h' /\ s = s').
Proof.
  intros La La' Lh Lh' Ls Ls'. split.
  - intros E. apply CTo_inj in E as [-> E]. unfold abi_1271 in E. apply app_inv_head in E. apply app_same in E; [|congruence]. destruct E as [-> E].
    apply app_inv_head in E. apply abi_tail_inj in E; auto.
  - intros E. apply CDeploy_inj in E. unfold abi_deploy in E. apply app_inv_head in E. apply app_inv_head in E. apply app_same in E; [|congruence].
    destruct E as [-> E]. apply app_same in E; [|congruence]. destruct E as [-> E]. apply app_inv_head in E. apply abi_tail_inj in E; auto.
Qed.
(** Words: a call is a selector and whole words. *)
Theorem C108_words hash sig : length hash = 32%nat -> exists n, length (abi_1271 hash sig) = (4 + 32 * n)%nat.
Proof.
  intros L. unfold abi_1271, abi_tail. exists (3 + (length sig + (32 - length sig mod 32) mod 32) / 32)%nat.
  rewrite !app_length, !be_length, L. unfold zeros. rewrite repeat_length. cbn [length MAGIC].
  assert (E : ((length sig + (32 - length sig mod 32) mod 32) mod 32 = 0)%nat).
  { pose proof (Nat.mod_upper_bound (length sig) 32 ltac:(lia)). pose proof (Nat.div_mod (length sig) 32 ltac:(lia)).
    destruct (Nat.eq_dec (length sig mod 32)%nat 0%nat) as [Z|Z].
    - rewrite Z, Nat.sub_0_r, Nat.mod_same, Nat.add_0_r by lia. exact Z.
    - rewrite (Nat.mod_small (32 - length sig mod 32)%nat 32%nat) by lia.
      replace (length sig + (32 - length sig mod 32))%nat with ((length sig / 32 + 1) * 32)%nat by lia. apply Nat.mod_mul. lia. }
  pose proof (Nat.div_mod (length sig + (32 - length sig mod 32) mod 32) 32 ltac:(lia)). lia.
Qed.

(** A signature is valid exactly if the contract at the address says so with the magic value, or - without a contract there - the
    helper says so. *)
Theorem C108_valid_iff helper p sig addr hash : verify helper p sig addr hash = inr true <->
  (exists c, pr_code p addr = inr c /\ c <> [] /\ exists r, pr_call p (CTo addr (abi_1271 hash sig)) = inr (MAGIC ++ r)) \/
  (pr_code p addr = inr [] /\ exists r, pr_call p (CDeploy (abi_deploy helper addr hash sig)) = inr (1 :: r)).
Proof.
  assert (OE : forall e, on_error e <> inr true).
  { intros [m|]; cbn; [destruct (String.prefix _ m)|]; discriminate. }
  unfold verify. destruct (pr_code p addr) as [e|[|x c]].
  - split; [discriminate|]. intros [(c & H & _)|[H _]]; discriminate.
  - destruct (pr_call p (CDeploy _)) as [e|[|b r]] eqn:E.
    + split; [intros H; destruct (OE _ H)|]. intros [(c & H & N & _)|[_ (r & H)]]; [congruence|discriminate].
    + split; [discriminate|]. intros [(c & H & N & _)|[_ (r & H)]]; [congruence|discriminate].
    + split.
      * intros H. injection H as H. apply N.eqb_eq in H. subst. right. eauto.
      * intros [(c & H & N & _)|[_ (r' & H)]]; [congruence|]. injection H as -> ->. reflexivity.
  - destruct (pr_call p (CTo addr _)) as [e|r] eqn:E.
    + split; [intros H; destruct (OE _ H)|]. intros [(c' & _ & _ & r & H)|[H _]]; discriminate.
    + split.
      * intros H. injection H as H. apply bool_decide_eq_true in H. left. exists (x :: c). split; [reflexivity|]. split; [discriminate|].
        exists (drop 4 r). rewrite <- H at 1. rewrite take_drop. reflexivity.
      * intros [(c' & _ & _ & r' & H)|[H _]]; [|discriminate]. injection H as ->. reflexivity.
Qed.
(** A revert is a refusal; every other failure is passed on. *)
Theorem C108_failures helper p sig addr hash :
  (forall e, verify helper p sig addr hash = inl e -> forall d, e <> EResp ("execution reverted" ++ d)%string \/ pr_code p addr = inl e) /\
  (forall c d, pr_code p addr = inr c -> c <> [] -> pr_call p (CTo addr (abi_1271 hash sig)) = inl (EResp ("execution reverted" ++ d)) ->
     verify helper p sig addr hash = inr false).
Proof.
  assert (PX : forall d, String.prefix "execution reverted" ("execution reverted" ++ d) = true).
  { intros d. change (String.prefix "execution reverted" ("execution reverted" ++ d)) with (String.prefix "" d). destruct d; reflexivity. }
  split.
  - intros e H d. unfold verify in H. destruct (pr_code p addr) as [e'|[|x c]]; [right; congruence| |]; left.
    + destruct (pr_call p _) as [e'|r]; [|discriminate]. destruct e' as [m|]; cbn in H; [|congruence].
      destruct (String.prefix "execution reverted" m) eqn:P; [discriminate|]. injection H as <-. intros E. injection E as ->. rewrite PX in P. discriminate.
    + destruct (pr_call p _) as [e'|r]; [|discriminate]. destruct e' as [m|]; cbn in H; [|congruence].
      destruct (String.prefix "execution reverted" m) eqn:P; [discriminate|]. injection H as <-. intros E. injection E as ->. rewrite PX in P. discriminate.
  - intros c d Hc N E. unfold verify. rewrite Hc. destruct c; [congruence|]. rewrite E. cbn [on_error]. rewrite PX. reflexivity.
Qed.

(** There is no verdict at all exactly if a question failed: the one about the code, whatever the failure, or the call, if the
    contract did not revert. *)
Theorem C108_no_verdict_iff helper p sig addr hash e : verify helper p sig addr hash = inl e <->
  pr_code p addr = inl e \/
  exists c, pr_code p addr = inr c /\
    pr_call p (match c with [] => CDeploy (abi_deploy helper addr hash sig) | _ => CTo addr (abi_1271 hash sig) end) = inl e /\
    (forall d, e <> EResp ("execution reverted" ++ d)%string).
Proof.
  assert (PX : forall d, String.prefix "execution reverted" ("execution reverted" ++ d) = true).
  { intros d. change (String.prefix "execution reverted" ("execution reverted" ++ d)) with (String.prefix "" d). destruct d; reflexivity. }
  assert (PY : forall m, String.prefix "execution reverted" m = true -> exists d, m = ("execution reverted" ++ d)%string).
  { intros m. exists (String.substring (String.length "execution reverted") (String.length m - String.length "execution reverted") m).
    revert m H. enough (G : forall a m, String.prefix a m = true -> m = (a ++ String.substring (String.length a) (String.length m - String.length a) m)%string) by (intros m H; apply G; exact H).
    induction a as [|x a IH]; intros m H.
    - cbn [String.length]. rewrite Nat.sub_0_r. clear H. change (m = String.substring 0 (String.length m) m). induction m as [|y m IHm]; cbn; [reflexivity|]. rewrite <- IHm. reflexivity.
    - destruct m as [|y m]; cbn in H; [discriminate|]. destruct (Ascii.ascii_dec x y) as [->|]; [|discriminate].
      change (String y m = String y (a ++ String.substring (String.length a) (String.length m - String.length a) m)). f_equal. apply IH. exact H. }
  assert (OE : forall e', on_error e' = inl e <-> e' = e /\ forall d, e <> EResp ("execution reverted" ++ d)%string).
  { intros [m|]; cbn.
    - destruct (String.prefix "execution reverted" m) eqn:P.
      + destruct (PY _ P) as [d ->]. split; [discriminate|]. intros [<- X]. exfalso. exact (X d eq_refl).
      + split; [|intros [-> _]; reflexivity]. intros E. injection E as <-. split; [reflexivity|]. intros d E. injection E as ->. rewrite PX in P. discriminate.
    - split; [|intros [-> _]; reflexivity]. intros E. injection E as <-. split; [reflexivity|]. discriminate. }
  unfold verify. destruct (pr_code p addr) as [e'|c].
  - split; [intros E; left; congruence|]. intros [E|(c & X & _)]; [congruence|discriminate].
  - split.
    + intros E. right. exists c. split; [reflexivity|].
      destruct c as [|x c]; destruct (pr_call p _) as [e'|r]; try discriminate; apply OE in E as [-> X]; auto.
    + intros [X|(c' & E & Q & X)]; [discriminate|]. injection E as <-. destruct c as [|x c]; rewrite Q; apply OE; auto.
Qed.

(** A claim is accepted exactly if its digest can be made, the address has 20 bytes and the signature is valid. *)
Theorem C108_claim {C} (digest : N -> C -> cverr + bytes) helper p chain c addr sig :
  validate_contract digest helper p chain c addr sig = None <->
  length addr = 20%nat /\ exists h, digest (chain mod 65536) c = inr h /\ verify helper p sig addr h = inr true.
Proof.
  unfold validate_contract. destruct (digest _ c) as [e|h] eqn:D.
  - split; [discriminate|]. intros (_ & h & H & _). discriminate.
  - destruct (Nat.eqb (length addr) 20) eqn:L.
    + apply Nat.eqb_eq in L. destruct (verify helper p sig addr h) as [e|[|]] eqn:V; split; try discriminate; try (intros (_ & h' & H & H'); congruence). eauto.
    + apply Nat.eqb_neq in L. split; [discriminate|tauto].
Qed.
(** An unreachable chain is told as a bad signature: whatever fails, the caller hears the same as for a forged claim. *)
Theorem C108_unreachable_refuted {C} (digest : N -> C -> cverr + bytes) helper p chain c addr sig h e :
  digest (chain mod 65536) c = inr h -> length addr = 20%nat -> verify helper p sig addr h = inl e ->
  validate_contract digest helper p chain c addr sig = Some CInvalidClaimSignature /\
  (exists p', verify helper p' sig addr h = inr false /\ validate_contract digest helper p' chain c addr sig = Some CInvalidClaimSignature).
Proof.
  intros D L V. unfold validate_contract. rewrite D, L. cbn [Nat.eqb]. rewrite V. split; [reflexivity|].
  exists (Provider (fun _ => inr []) (fun _ => inr [])). split; reflexivity.
Qed.
(** The digest does not tell chains apart that agree in their last 16 bits. *)
Theorem C108_chain_cut_refuted {C} (digest : N -> C -> cverr + bytes) helper p chain c addr sig :
  validate_contract digest helper p (chain + 65536) c addr sig = validate_contract digest helper p chain c addr sig.
Proof. unfold validate_contract. rewrite <- (N.mul_1_l 65536) at 1. rewrite N.mod_add by discriminate. reflexivity. Qed.
(** ERC-6492 signatures (wrapped for a wallet that is not deployed yet) of a wallet that has been deployed since: the wallet is
    asked about the wrapping, not about the signature inside. A wallet that accepts just the inner signature refuses. *)
Theorem C108_wrapped_refuted helper addr hash code inner wrapped : inner <> wrapped -> code <> [] ->
  N.of_nat (length inner) < 256 ^ 32 -> N.of_nat (length wrapped) < 256 ^ 32 ->
  exists p, pr_code p addr = inr code /\ verify helper p inner addr hash = inr true /\ verify helper p wrapped addr hash = inr false.
Proof.
  intros N Nc Li Lw. exists (Provider (fun _ => inr code) (fun r => inr (if bool_decide (r = CTo addr (abi_1271 hash inner)) then MAGIC else zeros 32))).
  split; [reflexivity|]. unfold verify. cbn [pr_code pr_call]. destruct code as [|x c]; [congruence|]. split.
  - rewrite (bool_decide_eq_true_2 (CTo addr (abi_1271 hash inner) = CTo addr (abi_1271 hash inner))) by reflexivity. reflexivity.
  - rewrite (bool_decide_eq_false_2 (CTo addr (abi_1271 hash wrapped) = CTo addr (abi_1271 hash inner))); [reflexivity|]. intros E. apply CTo_inj in E as [_ E]. unfold abi_1271 in E. do 3 apply app_inv_head in E.
    apply abi_tail_inj in E; congruence.
Qed.

(** A wallet at address 1..20, a digest, a signature. *)
Definition ex_addr : bytes := repeat 7 20.
Definition ex_hash : bytes := repeat 9 32.
Definition ex_wallet : provider :=
  Provider (fun a => inr (if bool_decide (a = ex_addr) then [96; 96] else []))
    (fun r => match r with
              | CTo a d => if bool_decide (d = abi_1271 ex_hash [1; 2; 3]) then inr (MAGIC ++ zeros 28) else inl (EResp "execution reverted: no")
              | CDeploy _ => inr [1]
              end).
Example C108_ex :
  verify [1] ex_wallet [1; 2; 3] ex_addr ex_hash = inr true /\ verify [1] ex_wallet [1; 2] ex_addr ex_hash = inr false /\
  verify [1] ex_wallet [1; 2] (repeat 8 20) ex_hash = inr true /\
  verify [1] (Provider (fun _ => inr [1]) (fun _ => inl ETransport)) [1] ex_addr ex_hash = inl ETransport /\
  validate_contract (fun chain (c : bytes) => inr ex_hash) [1] ex_wallet 10 [5] ex_addr [1; 2; 3] = None /\
  validate_contract (fun chain (c : bytes) => inr ex_hash) [1] ex_wallet 10 [5] [1] [1; 2; 3] = Some CInvalidData.
Proof. repeat split; vm_compute; reflexivity. Qed.

(** * C109: ENS names *)
Section Names.
  Variable keccak : bytes -> bytes.
  (** EIP-137, independent of the model: over the labels, outermost last. *)
  Fixpoint eip137 (labels : list bytes) : bytes :=
    match labels with [] => zeros 32 | l :: r => keccak (eip137 r ++ keccak l) end.
  Lemma nh_fold labels : foldl (fun node label => keccak (node ++ keccak label)) (zeros 32) (rev labels) = eip137 labels.
  Proof. induction labels as [|l r IH]; [reflexivity|]. cbn [rev eip137]. rewrite foldl_app. cbn [foldl]. rewrite IH. reflexivity. Qed.
  Lemma strip_cons x r : x <> 239 -> strip (x :: r) = x :: strip r.
  Proof. intros N. cbn [strip]. repeat (case_match; try reflexivity; subst; try congruence). Qed.
  Lemma strip_id l : 239 ∉ l -> strip l = l.
  Proof.
    induction l as [|x r IH]; intros H; [reflexivity|]. apply not_elem_of_cons in H as [H1 H2]. rewrite strip_cons by congruence. rewrite (IH H2). reflexivity.
  Qed.

  (** The hash of a name made of labels is EIP-137's. *)
  Theorem C109_eip137 labels : labels <> [] -> labels <> [[]] -> Forall (fun l => DOT ∉ l /\ 239 ∉ l) labels ->
    namehash keccak (join DOT labels) = eip137 labels.
  Proof.
    intros N N' F. assert (J : 239 ∉ join DOT labels).
    { clear N N'. induction F as [|l r [_ H] F IH]; [apply not_elem_of_nil|]. destruct r as [|l2 r]; [exact H|].
      change (join DOT (l :: l2 :: r)) with (l ++ DOT :: join DOT (l2 :: r)). rewrite elem_of_app, elem_of_cons. intros [?|[?|?]]; [tauto|discriminate|tauto]. }
    unfold namehash. destruct (join DOT labels) as [|x r] eqn:E.
    - destruct labels as [|[|a l] [|l2 r]]; [congruence|congruence|discriminate|discriminate|discriminate].
    - rewrite <- E in *. rewrite strip_id by exact J. rewrite split_join; [apply nh_fold|exact N|].
      eapply Forall_impl; [exact F|]. intros ? [? _]; assumption.
  Qed.
  Theorem C109_empty : namehash keccak [] = zeros 32. Proof. reflexivity. Qed.
  (** Any name hashes as its labels, once the selectors are gone. *)
  Theorem C109_all name : name <> [] -> exists labels,
    namehash keccak name = eip137 labels /\ join DOT labels = strip name /\ Forall (fun l => DOT ∉ l) labels.
  Proof.
    intros N. exists (Auth.split DOT (strip name)). destruct (split_spec DOT (strip name)) as [J F]. split; [|tauto].
    unfold namehash. destruct name; [congruence|]. apply nh_fold.
  Qed.

  (** Two names with the same hash are the same name - or somebody has found a collision of keccak or an input that hashes to
      zeros. *)
  Definition broken : Prop := (exists a b, a <> b /\ keccak a = keccak b) \/ (exists a, keccak a = zeros 32).
  Lemma eip_len : (forall x, length (keccak x) = 32%nat) -> forall l, length (eip137 l) = 32%nat.
  Proof. intros K [|l r]; [reflexivity|apply K]. Qed.
  Theorem C109_labels_binding (K : forall x, length (keccak x) = 32%nat) l l' : eip137 l = eip137 l' -> l = l' \/ broken.
  Proof.
    revert l'. induction l as [|x r IH]; intros [|y r'] E; [left; reflexivity| | |].
    - right. right. eexists. symmetry. exact E.
    - right. right. eexists. exact E.
    - cbn [eip137] in E. destruct (decide (eip137 r ++ keccak x = eip137 r' ++ keccak y)) as [S|D].
      + apply app_same in S; [|rewrite !eip_len by exact K; reflexivity]. destruct S as [S1 S2].
        destruct (decide (x = y)) as [->|Nx]; [|right; left; eauto]. destruct (IH _ S1) as [->|B]; [left; reflexivity|right; exact B].
      + right. left. eauto.
  Qed.
  Theorem C109_binding (K : forall x, length (keccak x) = 32%nat) name name' : name <> [] -> name' <> [] ->
    namehash keccak name = namehash keccak name' -> strip name = strip name' \/ broken.
  Proof.
    intros N N' E. destruct (C109_all _ N) as (l & H & J & _). destruct (C109_all _ N') as (l' & H' & J' & _).
    rewrite H, H' in E. destruct (C109_labels_binding K _ _ E) as [->|B]; [left; congruence|right; exact B].
  Qed.
  (** The selector is not part of a name: two spellings of a name have one hash - *)
  Theorem C109_selector_refuted a b : 239 ∉ a -> a ++ b <> [] -> namehash keccak (a ++ [239; 184; 143] ++ b) = namehash keccak (a ++ b).
  Proof.
    intros H N. assert (S : strip (a ++ [239; 184; 143] ++ b) = strip (a ++ b)).
    { clear N. induction a as [|x a IH]; [reflexivity|]. apply not_elem_of_cons in H as [H1 H2].
      change ((x :: a) ++ [239; 184; 143] ++ b) with (x :: a ++ [239; 184; 143] ++ b). change ((x :: a) ++ b) with (x :: a ++ b).
      rewrite !strip_cons by congruence. rewrite (IH H2). reflexivity. }
    unfold namehash. rewrite S. destruct (a ++ [239; 184; 143] ++ b) eqn:E1; [destruct a; discriminate|]. destruct (a ++ b); [congruence|reflexivity].
  Qed.
  (** - except that of nothing: the selector alone is one empty label and not the root. *)
  Theorem C109_root_refuted : namehash keccak [239; 184; 143] = keccak (zeros 32 ++ keccak []).
  Proof. reflexivity. Qed.

  (** Resolution: what comes back is the answer of the resolver the registry names for exactly this node; a resolver is never the
      zero address. *)
  Theorem C109_resolve registry addr_of name a : resolve_ens keccak registry addr_of name = EAddr a <->
    exists reg res, registry = Some reg /\ reg (namehash keccak name) = Some res /\ res <> zeros 20 /\ addr_of res (namehash keccak name) = Some a.
  Proof.
    unfold resolve_ens. destruct registry as [reg|]; [|split; [discriminate|intros (? & ? & ? & _); discriminate]].
    destruct (reg (namehash keccak name)) as [res|] eqn:R.
    - destruct (bool_decide (res = zeros 20)) eqn:Z.
      + apply bool_decide_eq_true in Z. split; [discriminate|]. intros (reg' & res' & H & H' & H'' & _). congruence.
      + apply bool_decide_eq_false in Z. destruct (addr_of res _) as [x|] eqn:A.
        * split; [intros H; exists reg, res; repeat split; congruence|]. intros (reg' & res' & H & H' & _ & H''). congruence.
        * split; [discriminate|]. intros (reg' & res' & H & H' & _ & H''). congruence.
    - split; [discriminate|]. intros (reg' & res' & H & H' & _). congruence.
  Qed.
  (** A name without an address resolves, to the zero address. *)
  Theorem C109_unset_refuted reg res name : reg (namehash keccak name) = Some res -> res <> zeros 20 ->
    resolve_ens keccak (Some reg) (fun _ _ => Some (zeros 20)) name = EAddr (zeros 20).
  Proof. intros R Z. apply C109_resolve. exists reg, res. tauto. Qed.
End Names.

(** A toy hash shows the order of the labels. *)
Definition ex_hashf (x : bytes) : bytes := take 32 (fold_left N.add x (N.of_nat (length x)) :: drop 31 x ++ zeros 32).
Example C109_ex :
  namehash ex_hashf [97; 46; 98] = eip137 ex_hashf [[97]; [98]] /\
  namehash ex_hashf [97; 46; 98] <> namehash ex_hashf [98; 46; 97] /\
  namehash ex_hashf [97; 239; 184; 143; 46; 98] = namehash ex_hashf [97; 46; 98] /\
  length (namehash ex_hashf [97; 46; 98]) = 32%nat /\
  resolve_ens ex_hashf (Some (fun _ => Some [1])) (fun r _ => Some r) [97] = EAddr [1] /\
  resolve_ens ex_hashf (Some (fun _ => Some (zeros 20))) (fun r _ => Some r) [97] = ENoResolver /\
  resolve_ens ex_hashf None (fun r _ => Some r) [97] = ENoRegistry.
Proof. repeat split; vm_compute; try reflexivity; discriminate. Qed.

Print Assumptions C108_question.
Print Assumptions C108_words.
Print Assumptions C108_valid_iff.
Print Assumptions C108_failures.
Print Assumptions C108_claim.
Print Assumptions C108_unreachable_refuted.
Print Assumptions C108_chain_cut_refuted.
Print Assumptions C108_wrapped_refuted.
Print Assumptions C109_eip137.
Print Assumptions C109_empty.
Print Assumptions C109_all.
Print Assumptions C109_labels_binding.
Print Assumptions C109_binding.
Print Assumptions C109_selector_refuted.
Print Assumptions C109_root_refuted.
Print Assumptions C109_resolve.
Print Assumptions C109_unset_refuted.
