(** Specification vocabulary for what travels between the interface, the kernel and the bus. *)
From Coq Require Import ZArith Bool String List.
From Verif Require Import Outcome ResultModel CanFrameModel CanFrameSpec SocketCanModel SocketCanSpec GroupModel.
Import ListNotations.
Open Scope Z_scope.

(** Linux (net/can/raw.c, raw_setsockopt): a filter array is taken if it consists of whole entries of 8 bytes and is at most
    4096 bytes long, that is 512 entries. *)
Definition linux_takes (ans : list kfilter -> Z -> Z) : Prop :=
  forall fs optlen, ans fs optlen = 0 <-> optlen mod 8 = 0 /\ optlen <= 4096.

(** A received message fills the whole data part of the kernel's structure it arrives in: 8 bytes for a classic frame, which
    is at most 8 bytes long, 64 for an FD frame. *)
Definition whole (m : kmsg) : Prop := (length (km_bytes m) = 8%nat /\ km_len m <= 8) \/ length (km_bytes m) = 64%nat.

(** A message handed to the kernel and the message received from the bus at the other end. The bus carries frames of the
    sixteen CAN FD lengths only: the controller takes the shortest that is long enough. The bytes up to the length asked for
    arrive, padding bytes are anything, and the receiving kernel clears the rest of its structure. *)
Definition carried (m : canfd) (r : kmsg) : Prop :=
  exists c, valid_code c /\ cf_len m <= iso_length c /\ (forall d, valid_code d -> cf_len m <= iso_length d -> c <= d) /\
    km_id r = cf_id m /\ km_len r = iso_length c /\ length (km_bytes r) = 64%nat /\
    (forall i, Z.of_nat i < cf_len m -> nth i (km_bytes r) 0 = nth i (cf_data m) 0) /\
    (forall i, iso_length c <= Z.of_nat i -> nth i (km_bytes r) 0 = 0).
