(** Model of the protobuf wire format as the [prost] crate reads and writes it (prost is a dependency: modelled from its
    documented behaviour, like the other libraries).  Used by the consensus messages (ConsensusWire.v).

    Simplifications.  Groups (wire types 3 and 4, in none of the definitions) are refused; prost skips them in unknown
    fields.  The nesting limit of 100 is not reached by the definitions used. *)
From Verif Require Import Base.
#[local] Open Scope N_scope.

(** A field: its number and what is on the wire. *)
Inductive wval := WVar (n : N) | W64 (b : bytes) | WLen (b : bytes) | W32 (b : bytes).
Definition field : Type := N * wval.

(** * Writing *)
(** prost [encode_varint]: seven bits per byte, lowest first; at most ten bytes for a [u64]. *)
Fixpoint varint_aux (fuel : nat) (n : N) : bytes :=
  match fuel with
  | O => []
  | S f => if n <? 128 then [n] else (n mod 128 + 128) :: varint_aux f (n / 128)
  end.
Definition varint (n : N) : bytes := varint_aux 10 n.
Definition wire_type (v : wval) : N := match v with WVar _ => 0 | W64 _ => 1 | WLen _ => 2 | W32 _ => 5 end.
Definition enc_field (f : field) : bytes :=
  varint (f.1 * 8 + wire_type f.2) ++
  match f.2 with
  | WVar n => varint n
  | W64 b | W32 b => b
  | WLen b => varint (N.of_nat (length b)) ++ b
  end.
Definition enc_fields (l : list field) : bytes := concat (map enc_field l).

(** Fields of a message: default values are left out (proto3), an embedded message is written when it is there. *)
Definition f_num (i n : N) : list field := if n =? 0 then [] else [(i, WVar n)].
Definition f_bytes (i : N) (b : bytes) : list field := match b with [] => [] | _ => [(i, WLen b)] end.
Definition f_sub (i : N) (o : option (list field)) : list field := match o with Some l => [(i, WLen (enc_fields l))] | None => [] end.
Definition f_rep (i : N) (l : list bytes) : list field := map (fun b => (i, WLen b)) l.
(** An [i64] is written as the [u64] of the same bits. *)
Definition u64_of (z : Z) : N := Z.to_N (z mod 2 ^ 64).
Definition i64_of (n : N) : Z := let z := (Z.of_N n mod 2 ^ 64)%Z in if (z <? 2 ^ 63)%Z then z else (z - 2 ^ 64)%Z.

(** * Reading *)
(** prost [decode_varint]: at most ten bytes, the tenth at most 1. *)
Fixpoint unvarint_aux (left : nat) (b : bytes) : option (N * bytes) :=
  match left, b with
  | S l, x :: b =>
      if x <? 128 then if (l =? 0)%nat && (2 <=? x) then None else Some (x, b)
      else match unvarint_aux l b with Some (n, r) => Some (x - 128 + 128 * n, r) | None => None end
  | _, _ => None
  end.
Definition unvarint (b : bytes) : option (N * bytes) := unvarint_aux 10 b.
Definition take_bytes (n : N) (b : bytes) : option (bytes * bytes) :=
  if n <=? N.of_nat (length b) then Some (take (N.to_nat n) b, drop (N.to_nat n) b) else None.
(** prost [decode_key] and the reading of one field. *)
Definition dec_field (b : bytes) : option (field * bytes) :=
  match unvarint b with
  | None => None
  | Some (key, b) =>
      if (2 ^ 32 <=? key) || (key / 8 =? 0) then None else
      let i := key / 8 in
      match key mod 8 with
      | 0 => match unvarint b with Some (n, b) => Some ((i, WVar n), b) | None => None end
      | 1 => match take_bytes 8 b with Some (x, b) => Some ((i, W64 x), b) | None => None end
      | 2 => match unvarint b with
             | Some (n, b) => match take_bytes n b with Some (x, b) => Some ((i, WLen x), b) | None => None end
             | None => None
             end
      | 5 => match take_bytes 4 b with Some (x, b) => Some ((i, W32 x), b) | None => None end
      | _ => None
      end
  end.
(** prost [Message::merge]: until nothing is left. *)
Fixpoint parse_aux (fuel : nat) (b : bytes) : option (list field) :=
  match b, fuel with
  | [], _ => Some []
  | _, O => None
  | _, S f => match dec_field b with
              | Some (x, b) => match parse_aux f b with Some l => Some (x :: l) | None => None end
              | None => None
              end
  end.
Definition parse (b : bytes) : option (list field) := parse_aux (length b) b.

(** What a message keeps of its fields; [None] is a decoding error.  A known field with another wire type is an error;
    unknown fields are skipped. *)
Definition occ (i : N) (l : list field) : list wval := map snd (List.filter (fun f => f.1 =? i) l).
Fixpoint vars (l : list wval) : option (list N) :=
  match l with [] => Some [] | WVar n :: l => match vars l with Some r => Some (n :: r) | None => None end | _ :: _ => None end.
Fixpoint lens (l : list wval) : option (list bytes) :=
  match l with [] => Some [] | WLen b :: l => match lens l with Some r => Some (b :: r) | None => None end | _ :: _ => None end.
(** The last one counts. *)
Definition g_num (i : N) (l : list field) : option N := match vars (occ i l) with Some v => Some (default 0 (last v)) | None => None end.
Definition g_bytes (i : N) (l : list field) : option bytes := match lens (occ i l) with Some v => Some (default [] (last v)) | None => None end.
Definition g_rep (i : N) (l : list field) : option (list bytes) := lens (occ i l).
Fixpoint parse_all (l : list bytes) : option (list (list field)) :=
  match l with
  | [] => Some []
  | b :: l => match parse b, parse_all l with Some x, Some r => Some (x :: r) | _, _ => None end
  end.
(** Several occurrences of one embedded message are merged, field by field: their fields are those of one message. *)
Definition g_sub {A} (dec : list field -> option A) (i : N) (l : list field) : option (option A) :=
  match lens (occ i l) with
  | None => None
  | Some [] => Some None
  | Some ps => match parse_all ps with
               | Some fs => match dec (concat fs) with Some a => Some (Some a) | None => None end
               | None => None
               end
  end.
Fixpoint dec_all {A} (dec : list field -> option A) (l : list bytes) : option (list A) :=
  match l with
  | [] => Some []
  | b :: l => match parse b with
              | Some fs => match dec fs, dec_all dec l with Some a, Some r => Some (a :: r) | _, _ => None end
              | None => None
              end
  end.
Definition g_reps {A} (dec : list field -> option A) (i : N) (l : list field) : option (list A) :=
  match lens (occ i l) with Some ps => dec_all dec ps | None => None end.
(** A oneof: occurrences of the member that is set are merged, another member replaces it.  The runs of equal members. *)
Fixpoint runs (is : list N) (l : list field) (cur : option (N * list field)) : option (list (N * list field)) :=
  match l with
  | [] => Some match cur with Some c => [c] | None => [] end
  | (i, v) :: l =>
      if existsb (N.eqb i) is then
        match v with
        | WLen b =>
            match parse b with
            | None => None
            | Some fs =>
                match cur with
                | None => runs is l (Some (i, fs))
                | Some (j, gs) =>
                    if i =? j then runs is l (Some (j, gs ++ fs))
                    else match runs is l (Some (i, fs)) with Some r => Some ((j, gs) :: r) | None => None end
                end
            end
        | _ => None
        end
      else runs is l cur
  end.
Fixpoint dec_runs {A} (dec : N -> list field -> option A) (l : list (N * list field)) : option (list A) :=
  match l with
  | [] => Some []
  | (i, fs) :: l => match dec i fs, dec_runs dec l with Some a, Some r => Some (a :: r) | _, _ => None end
  end.
Definition g_oneof {A} (dec : N -> list field -> option A) (is : list N) (l : list field) : option (option A) :=
  match runs is l None with
  | Some rs => match dec_runs dec rs with Some v => Some (last v) | None => None end
  | None => None
  end.
Definition g_msg {A} (dec : list field -> option A) (b : bytes) : option A := match parse b with Some l => dec l | None => None end.
