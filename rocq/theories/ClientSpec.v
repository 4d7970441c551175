(** Specification vocabulary for programs that use the interface manager. *)
From Coq Require Import ZArith Bool String List.
From Verif Require Import Outcome ResultModel CanFrameModel SocketCanModel SocketCanSpec GroupModel GroupSpec ManagerModel ManagerSpec
  ClientModel.
Import ListNotations.
Open Scope Z_scope.

(** Calls within the interface's contract, and kernels that answer as Linux does: the filter array is readable, descriptors
    handed out are not open ([live] are those open at the beginning), the pointer is not null when the group is used, an index
    is an 8-bit number, at most four frames are written, and received messages are what recvmmsg may deliver. *)
Definition legal (live : list Z) (o : call) (c : client) : Prop :=
  match o with
  | Start configs num kernel => configs_ok configs num /\ fresh_descriptors live kernel
  | Stop => True
  | Reconfigure _ configs num => cl_group c <> None /\ configs_ok configs num
  | Write _ i fs n => cl_group c <> None /\ 0 <= i <= 255 /\ frames_typed fs /\ (n <= 4)%nat
  | Read res _ msgs i out => cl_group c <> None /\ 0 <= i <= 255 /\ frames_typed out /\ recv_ok res msgs
  end.

(** The states a program can reach, with its calls and their replies, most recent first. It begins with a null pointer. *)
Inductive history (live : list Z) (m : manager) : list (call * reply) -> client -> Prop :=
| h_begin : history live m [] (Client None (World [] []))
| h_call : forall h c o fuel r c', history live m h c -> legal live o c -> perform fuel m o c = Some (Ret (r, c')) ->
    history live m ((o, r) :: h) c'.

(** The filters a call asks for. *)
Definition asked (configs : option (list filter)) (num : nat) : list filter :=
  match configs with Some cs => firstn num cs | None => [] end.

(** The filters the program last asked for with success; [None] if there is no group, or a reconfiguration failed since, so
    that some of its interfaces may have the new filters and others the old. A start that fails leaves everything as it is. *)
Fixpoint in_force (h : list (call * reply)) : option (list filter) :=
  match h with
  | [] => None
  | (Start configs num _, Started r) :: t => if isSuccess r then Some (asked configs num) else in_force t
  | (Stop, _) :: _ => None
  | (Reconfigure _ configs num, Reconfigured r) :: t => if isSuccess r then Some (asked configs num) else None
  | _ :: t => in_force t
  end.
