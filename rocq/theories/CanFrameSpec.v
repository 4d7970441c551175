(** Specification vocabulary for CAN frames, written from ISO 11898-1 and independent of the library's tables. *)
From Coq Require Import ZArith Bool List.
From Verif Require Import CanFrameModel.
Import ListNotations.
Open Scope Z_scope.

(** Number of data bytes denoted by a CAN FD data length code 0..15. *)
Definition iso_length (c : Z) : Z :=
  if c <=? 8 then c
  else if c <=? 12 then 8 + 4 * (c - 8)
  else if c =? 13 then 32
  else if c =? 14 then 48
  else 64.

Definition valid_code (c : Z) : Prop := 0 <= c <= 15.

(** The lengths a CAN FD frame can have. *)
Definition fd_length (n : Z) : Prop := exists c, valid_code c /\ iso_length c = n.
(** The lengths a classic frame can have. *)
Definition classic_length (n : Z) : Prop := 0 <= n <= 8.

(** The type invariant of a C++ frame object of a given MTU: an array of MTU bytes and an unsigned code. *)
Definition frame_typed (mtu : nat) (f : frame) : Prop :=
  length (fdata f) = mtu /\ 0 <= fdlc f /\ 0 <= fid f < 2 ^ 32.

(** Well-formed frame: its code denotes a length that fits the buffer. *)
Definition frame_wf (mtu : nat) (f : frame) : Prop :=
  frame_typed mtu f /\ getDataLength f <= Z.of_nat mtu.

(** Identifier bit [k] takes part in equality: the 29 id bits and the flag bits selected by the mask. *)
Definition compared_bit (fm k : Z) : Prop := 0 <= k < 29 \/ (29 <= k < 32 /\ Z.testbit fm (k - 29) = true).

(** Equality of frames as a user understands it. *)
Definition frames_equal (fm : Z) (a b : frame) : Prop :=
  (forall k, compared_bit fm k -> Z.testbit (fid a) k = Z.testbit (fid b) k) /\
  fdlc a = fdlc b /\
  (forall i, (Z.of_nat i < getDataLength a) -> nth i (fdata a) 0 = nth i (fdata b) 0).

(** CAN arbitration: identifier bits are sent most significant first; at the first difference the node sending the
    dominant bit (0 = false) wins. *)
Fixpoint wins_arbitration (a b : list bool) : bool :=
  match a, b with
  | x :: a', y :: b' =>
      match x, y with
      | false, true => true
      | true, false => false
      | _, _ => wins_arbitration a' b'
      end
  | _, _ => false
  end.

(** The 29 identifier bits, most significant first. *)
Definition id_bits (id : Z) : list bool := map (fun k => Z.testbit id (Z.of_nat k)) (rev (seq 0 29)).

(** What callers of the frame operations must respect. *)
Definition op_respects (mtu : nat) (nframes : nat) (op : frame_op) : Prop :=
  match op with
  | OpDefault => True
  | OpCopy s => (s < nframes)%nat
  | OpMake id d dlc ts =>
      0 <= id < 2 ^ 32 /\ 0 <= dlc /\
      match d with
      | None => True
      | Some bytes => dlcToLength dlc <= Z.of_nat mtu /\ dlcToLength dlc <= Z.of_nat (length bytes)
      end
  | OpAssign d s => (d < nframes)%nat /\ (s < nframes)%nat /\ d <> s
  | OpSetLength i n => (i < nframes)%nat /\ 0 <= n
  | OpSetId i v => (i < nframes)%nat /\ 0 <= v < 2 ^ 32
  | OpSetByte i k v => (i < nframes)%nat /\ (k < mtu)%nat
  | OpSetTime i t => (i < nframes)%nat
  | OpCompare fm i j => (i < nframes)%nat /\ (j < nframes)%nat
  end.

(** Number of frames after an operation. *)
Definition frames_after (n : nat) (op : frame_op) : nat :=
  match op with OpDefault | OpCopy _ | OpMake _ _ _ _ => S n | _ => n end.

(** None of the operations changes frame [k]. *)
Definition untouched (k : nat) (ops : list frame_op) : Prop :=
  Forall (fun op => match op with
                    | OpAssign i _ | OpSetLength i _ | OpSetId i _ | OpSetByte i _ _ | OpSetTime i _ => i <> k
                    | OpDefault | OpCopy _ | OpMake _ _ _ _ | OpCompare _ _ _ => True
                    end) ops.

Fixpoint ops_respect (mtu n : nat) (ops : list frame_op) : Prop :=
  match ops with
  | [] => True
  | op :: rest => op_respects mtu n op /\ ops_respect mtu (frames_after n op) rest
  end.
