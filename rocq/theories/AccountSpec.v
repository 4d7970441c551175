(** Specification vocabulary for what a program can count on about its group and the statistics of its interfaces. *)
From Coq Require Import ZArith Bool String List.
From Verif Require Import Outcome ResultModel CanFrameModel SocketCanModel SocketCanSpec GroupModel GroupSpec ManagerModel ManagerSpec
  ClientModel ClientSpec TrafficSpec.
Import ListNotations.
Open Scope Z_scope.

(** The messages taken from the socket of interface [i] since the group was started, in order: those that recvmmsg delivered
    to the reads of this interface. *)
Fixpoint messages_read (i : Z) (h : list (call * reply)) : list kmsg :=
  match h with
  | [] => []
  | (Start _ _ _, Started r) :: t => if isSuccess r then [] else messages_read i t
  | (Stop, _) :: _ => []
  | (Read res _ msgs j _, _) :: t => messages_read i t ++ (if (j =? i) && (0 <? res) then msgs else [])
  | _ :: t => messages_read i t
  end.

(** How many messages are error messages with this error bit. *)
Definition errors_among (bit : Z) (ps : list packet) : Z :=
  Z.of_nat (length (List.filter (fun p => is_error (pk_id p) && Z.testbit (pk_id p) bit) ps)).

(** The numbers of dropped frames that the kernel reported along with the messages, summed up. *)
Definition reported_drops (ms : list kmsg) : Z :=
  fold_right (fun m a => fold_right (fun c b => cm_u32 c + b) 0 (List.filter is_drop (km_cmsgs m)) + a) 0 ms.

(** What a program sees of an interface apart from its traffic and its statistics. *)
Definition identity (s : iface) : Z * string * Z := (getInterfaceIndex s, getInterfaceName s, getSocketDescriptor s).

(** The receive times of a list of frames do not decrease. *)
Fixpoint in_order (ts : list Z) : Prop :=
  match ts with
  | a :: ((b :: _) as t) => a <= b /\ in_order t
  | _ => True
  end.
