(** Specification vocabulary for interface groups: Linux's receive filters and poll. *)
From Coq Require Import ZArith Bool String List.
From Verif Require Import Outcome ResultModel CanFrameModel SocketCanModel SocketCanSpec GroupModel.
Import ListNotations.
Open Scope Z_scope.

(** Linux receive filtering (net/can/af_can.c, can_rcv_list_find and can_rcv_filter) of data and remote frames: an entry
    whose mask has the error bit (29) subscribes to error messages only; an entry whose identifier has bit 29 set (the same
    bit, called CAN_INV_FILTER there) is inverted; otherwise the frame must agree with the entry on the bits of the mask. *)
Definition entry_matches (w : Z) (e : kfilter) : bool :=
  if Z.testbit (kf_mask e) 29 then false
  else if Z.testbit (kf_id e) 29 then negb (Z.land w (kf_mask e) =? Z.land (kf_id e) (kf_mask e))
  else Z.land w (kf_mask e) =? Z.land (kf_id e) (kf_mask e).
Definition kernel_passes (fs : list kfilter) (w : Z) : bool := existsb (entry_matches w) fs.

(** The filters in force on a socket; [None] if none were ever configured. *)
Fixpoint filters_of (fd : Z) (log : filter_log) : option (list kfilter) :=
  match log with
  | [] => None
  | (fd', fs) :: t => if fd =? fd' then Some fs else filters_of fd t
  end.

(** A frame with identifier word [w] is selected by a user's filter: its identifier agrees with the filter's on every
    identifier bit of the mask. *)
Definition selected (w : Z) (f : filter) : Prop :=
  forall k, 0 <= k < 29 -> Z.testbit (flt_mask f) k = true -> Z.testbit w k = Z.testbit (flt_id f) k.

(** The mask selects identifier bits only. *)
Definition id_mask (f : filter) : Prop := 0 <= flt_mask f < 2 ^ 29.

Definition filter_typed (f : filter) : Prop := 0 <= flt_id f < 2 ^ 32 /\ 0 <= flt_mask f < 2 ^ 32.

(** A data or remote frame's identifier word. *)
Definition not_error (w : Z) : Prop := 0 <= w < 2 ^ 32 /\ is_error w = false.

(** An answer of poll for one descriptor that reports an error or urgent data. *)
Definition trouble (revents : Z) : Prop :=
  Z.testbit revents 1 = true \/ Z.testbit revents 3 = true \/ Z.testbit revents 4 = true \/ Z.testbit revents 5 = true.

(** The time ppoll waits, in nanoseconds, for the timeout it is given. *)
Definition wait_ns (req : poll_request) : Z := pr_sec req * 1000000000 + pr_nsec req.

(** The sockets of a group. *)
Definition descriptors (g : group) : list Z := map getSocketDescriptor g.
