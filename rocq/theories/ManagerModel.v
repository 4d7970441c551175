(** Model of test/linux/example/media_on_linux/SocketCANInterfaceManager.{hpp,cpp}. *)
From Coq Require Import ZArith Bool String List.
From Verif Require Import Outcome ResultModel CanFrameModel SocketCanModel GroupModel.
Import ListNotations.
Open Scope Z_scope.

(** net/if.h. Used at SocketCANInterfaceManager.cpp line 92. *)
Definition IFNAMSIZ : Z := 16.

(** Descriptors the kernel hands out and descriptors the program closes, oldest first.
    SocketCANInterfaceManager.cpp lines 40 and 58, SocketCANInterface.cpp line 73. *)
Inductive event : Type := Opened (fd : Z) | Closed (fd : Z).

(** What the kernel answers to the system calls of one attempt to open a socket: socket, the CAN FD and own-messages
    options, the ioctl and the interface index it fills in, bind, the SO_ERROR it reports, and the filter option. The
    answers to the calls whose failure is ignored (cpp lines 113-137) do not appear. *)
Record answers : Type := Answers {
  a_socket : Z; a_canfd : Z; a_own : Z; a_ioctl : Z; a_ifindex : Z; a_bind : Z; a_error : Z;
  a_filter : list kfilter -> Z -> Z
}.

(** SocketCANInterfaceManager.cpp lines 54-154. The RAII guard of line 64 closes the socket on every return until it is released at line 152. *)
Definition openSocket (name : string) (enable_canfd own : bool) (a : answers) (tr : list event) : Z * list event :=
  let s := a_socket a in
  if s <? 0 then (s, tr)
  else
    let tr := tr ++ [Opened s] in
    if enable_canfd && negb (a_canfd a =? 0) then (-1, tr ++ [Closed s])
    else if own && negb (a_own a =? 0) then (-1, tr ++ [Closed s])
    else if IFNAMSIZ <=? Z.of_nat (String.length name) then (-1, tr ++ [Closed s])
    else if (a_ioctl a <? 0) || (a_ifindex a <? 0) then (-1, tr ++ [Closed s])
    else if a_bind a <? 0 then (-1, tr ++ [Closed s])
    else if negb (a_error a =? 0) then (-1, tr ++ [Closed s])
    else (s, tr).

(** SocketCANInterfaceManager.hpp lines 34-36. *)
Record manager : Type := Manager { m_required : list string; m_canfd : bool; m_own : bool }.

(** The parts of the world that starting a group changes. SocketCANInterfaceManager.cpp lines 170-241. *)
Record world : Type := World { w_trace : list event; w_filters : filter_log }.

(** SocketCANInterfaceManager.cpp lines 212-241. Simplification: operator new does not fail. *)
Definition createInterface (m : manager) (index : Z) (name : string) (configs : option (list filter)) (num : nat)
  (a : answers) (w : world) : outcome (result * option iface * world) :=
  let '(fd, tr) := openSocket name (m_canfd m) (m_own m) a (w_trace w) in
  if fd <=? 0 then Ret (UnknownInternalError, None, World tr (w_filters w))
  else
    let* (r, log) := configureFilters (a_filter a) fd configs num (w_filters w) in
    if result_not r then Ret (r, None, World (tr ++ [Closed fd]) log)
    else Ret (Success, Some (iface_make index name fd), World tr log).

(** SocketCANInterfaceManager.cpp lines 178-185. [i] is a uint_fast8_t of 8 bits (glibc on x86-64); [t] counts the attempts, so that the kernel may
    answer differently each time. [kernel t tr] are its answers, given what was opened and closed before. *)
Fixpoint start_loop (fuel : nat) (i : Z) (t : nat) (m : manager) (configs : option (list filter)) (num : nat)
  (kernel : nat -> list event -> answers) (acc : list iface) (w : world) : option (outcome (list iface * world)) :=
  match fuel with
  | O => None
  | S k =>
      if i <? Z.of_nat (length (m_required m))
      then match nth_error (m_required m) (Z.to_nat i) with
           | None => Some UB
           | Some name =>
               match createInterface m i name configs num (kernel t (w_trace w)) w with
               | UB => Some UB
               | Ret (r, o, w') =>
                   start_loop k ((i + 1) mod 256) (S t) m configs num kernel
                     (match o with Some s => if negb (result_not r) then acc ++ [s] else acc | None => acc end) w'
               end
           end
      else Some (Ret (acc, w))
  end.

(** SocketCANInterface.cpp lines 70-74, for each interface of a group that is destroyed. *)
Definition destroy (g : group) (tr : list event) : list event := tr ++ map (fun s => Closed (getSocketDescriptor s)) g.

(** The reset of SocketCANInterfaceManager.cpp line 192 and the assignment of line 203. *)
Definition destroy_ptr (p : option group) (tr : list event) : list event :=
  match p with Some g => destroy g tr | None => tr end.

(** SocketCANInterfaceManager.cpp lines 170-196. [out] is the caller's shared_ptr, [None] when null. Simplification: it is the only owner of the
    group it points to, which is therefore destroyed when it is reset. *)
Definition startInterfaceGroup (fuel : nat) (m : manager) (configs : option (list filter)) (num : nat)
  (kernel : nat -> list event -> answers) (out : option group) (w : world)
  : option (outcome (result * option group * world)) :=
  match start_loop fuel 0 0 m configs num kernel [] w with
  | None => None
  | Some UB => Some UB
  | Some (Ret ([], w')) => Some (Ret (NotFound, out, w'))
  | Some (Ret (g, w')) =>
      Some (Ret (if Z.of_nat (length (m_required m)) <=? getInterfaceCount g then Success else SuccessPartial,
                 Some g, World (destroy_ptr out (w_trace w')) (w_filters w')))
  end.

(** SocketCANInterfaceManager.cpp lines 198-205, with the same simplification. *)
Definition stopInterfaceGroup (out : option group) (w : world) : result * option group * world :=
  (Success, None, World (destroy_ptr out (w_trace w)) (w_filters w)).

(** SocketCANInterfaceManager.cpp lines 207-210. *)
Definition doesReceiveOwnMessages (m : manager) : bool := m_own m.
(** SocketCANInterfaceManager.cpp lines 243-248. *)
Definition getMaxFrameFilters : Z := 512.
