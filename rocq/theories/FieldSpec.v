(** Specification vocabulary for a value travelling from one program to another: packed, framed, written, carried, read. *)
From Coq Require Import ZArith Bool List.
From Verif Require Import Outcome ResultModel CanFrameModel CanFrameSpec SocketCanModel SocketCanSpec BitCopyModel BitCopySpec WireSpec.
Import ListNotations.
Open Scope Z_scope.

(** The sender copies bytes [o] up to [l] of [value] into a scratch buffer and makes a frame of the buffer. *)
Definition field_framed (sw : Z) (value scratch : list Z) (o l id dlc ts : Z) (f : frame) : Prop :=
  exists packed c, copyBitsAlignedToUnaligned sw (Some value) (Some scratch) (8 * o) (8 * l) = Ret (Some packed, c) /\
    frame_make 64 id (Some packed) dlc ts = Ret f.

(** The receiver copies bytes [o] up to [l] of the frame's data into [dst], which becomes [dst']. *)
Definition field_extracted (sw : Z) (g : frame) (dst : list Z) (o l : Z) (dst' : list Z) : Prop :=
  exists c, copyBitsUnalignedToAligned sw (Some (fdata g)) (8 * o) (Some dst) (8 * l) = Ret (Some dst', c).

(** One call of write, of one to four frames with valid codes and identifiers other than zero, of which [f] is one; the bus
    carries what was handed to the kernel; one call of read at the other end, which delivers [g] in the same place. The
    state of both interfaces, the other frames and the padding are anything. *)
Definition crosses (f g : frame) : Prop :=
  exists k s fs n i w sent ks errno s2 out r,
    iface_typed s /\ frames_typed fs /\ (1 <= n <= 4)%nat /\
    (forall j x, (j < n)%nat -> nth_error fs j = Some x -> identifier (fid x) <> 0 /\ fdlc x <= 15) /\
    (i < n)%nat /\ nth_error fs i = Some f /\
    write k s fs n = Ret w /\ wr_sent w = Some sent /\
    Forall2 carried sent ks /\ Forall kmsg_typed ks /\ Forall (fun m => Forall (fun b => 0 <= b < 256) (km_bytes m)) ks /\
    iface_typed s2 /\ frames_typed out /\
    read (Z.of_nat n) errno ks s2 out = Ret r /\ nth_error (rd_frames r) i = Some g.
