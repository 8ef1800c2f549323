(** What a node asks of a chain: src/core/validations/contract_signature.rs:36-143, src/core/validations/verification.rs:272-322,
    src/connectors/onchain_events/ens.rs:55-85, src/connectors/onchain_events/mod.rs:358-384.

    The chain's node is a record of functions: the code at an address and the result of an [eth_call]. Typed-data hashing and
    keccak are oracles; the bytecode of the helper contract is a parameter. ABI encoding is modelled. *)
From stdpp Require Export strings.
From Verif Require Export Base Auth.
From stdpp Require Export strings.
#[local] Open Scope N_scope.

(** ** Contract signatures *)
Inductive rerr := EResp (msg : string) | ETransport.
Inductive creq := CTo (addr data : bytes) | CDeploy (data : bytes).
#[global] Instance creq_eq_dec : EqDecision creq. Proof. solve_decision. Defined.
Record provider := Provider { pr_code : bytes -> rerr + bytes; pr_call : creq -> rerr + bytes }.

(** ABI encoding of a [bytes] argument at the end of the arguments: its length and itself, filled up to full words. *)
Definition zeros (n : nat) : bytes := repeat 0 n.
Definition abi_tail (sig : bytes) : bytes :=
  be 32 (N.of_nat (length sig)) ++ sig ++ zeros ((32 - length sig mod 32) mod 32)%nat.
Definition MAGIC : bytes := [22; 38; 186; 126]. (* 0x1626ba7e, also the selector of isValidSignature(bytes32,bytes) *)
(** contract_signature.rs:46-52, 103-112. *)
Definition abi_1271 (hash sig : bytes) : bytes := MAGIC ++ hash ++ be 32 64 ++ abi_tail sig.
(** contract_signature.rs:42-45, 127-136. *)
Definition abi_deploy (code addr hash sig : bytes) : bytes := code ++ zeros 12 ++ addr ++ hash ++ be 32 96 ++ abi_tail sig.
(** contract_signature.rs:71-79. *)
Definition on_error (e : rerr) : rerr + bool :=
  match e with EResp m => if String.prefix "execution reverted" m then inr false else inl e | ETransport => inl e end.
(** contract_signature.rs:86-143. *)
Definition verify (helper : bytes) (p : provider) (sig addr hash : bytes) : rerr + bool :=
  match pr_code p addr with
  | inl e => inl e
  | inr [] =>
      match pr_call p (CDeploy (abi_deploy helper addr hash sig)) with
      | inl e => on_error e
      | inr r => inr (match r with b :: _ => b =? 1 | [] => false end)
      end
  | inr _ =>
      match pr_call p (CTo addr (abi_1271 hash sig)) with
      | inl e => on_error e
      | inr r => inr (bool_decide (take 4 r = MAGIC))
      end
  end.

(** verification.rs:272-322. [digest chain claim]: the EIP-712 digest with the chain id cut to 16 bits, [inl] if the typed data or
    the hashing fails. *)
Inductive cverr := CInvalidData | CInvalidHash | CInvalidClaimSignature.
Section Claim.
  Context {C : Type} (digest : N -> C -> cverr + bytes) (helper : bytes) (p : provider).
  Definition validate_contract (chain : N) (c : C) (addr sig : bytes) : option cverr :=
    match digest (chain mod 65536) c with
    | inl e => Some e
    | inr h =>
        if Nat.eqb (length addr) 20 then
          match verify helper p sig addr h with inr true => None | inr false => Some CInvalidClaimSignature | inl _ => Some CInvalidClaimSignature end
        else Some CInvalidData
    end.
End Claim.

(** ** ENS names *)
Definition DOT : N := 46.
(** [str::replace] of U+FE0F by nothing, on UTF-8. *)
Fixpoint strip (l : bytes) : bytes :=
  match l with
  | [] => []
  | x :: r => match l with 239 :: 184 :: 143 :: r' => strip r' | _ => x :: strip r end
  end.
Section Ens.
  Variable keccak : bytes -> bytes.
  (** ens.rs:55-85. *)
  Definition namehash (name : bytes) : bytes :=
    match name with
    | [] => zeros 32
    | _ => foldl (fun node label => keccak (node ++ keccak label)) (zeros 32) (rev (Auth.split DOT (strip name)))
    end.
  (** mod.rs:358-384: the registry (its [resolver] call, [None]: the call failed), and the resolvers ([addr]). *)
  Inductive ensres := ENoRegistry | ECallFailed | ENoResolver | EAddr (a : bytes).
  Definition resolve_ens (registry : option (bytes -> option bytes)) (addr_of : bytes -> bytes -> option bytes) (name : bytes) : ensres :=
    let node := namehash name in
    match registry with
    | None => ENoRegistry
    | Some resolver =>
        match resolver node with
        | None => ECallFailed
        | Some a => if bool_decide (a = zeros 20) then ENoResolver
                    else match addr_of a node with None => ECallFailed | Some x => EAddr x end
        end
    end.
End Ens.
