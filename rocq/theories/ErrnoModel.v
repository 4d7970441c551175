(** Model of errno in startInterfaceGroup of test/linux/example/media_on_linux/SocketCANInterfaceManager.cpp, which sets it on purpose at
    lines 56, 94 and 147. ManagerModel.v has the same functions without it; ErrnoProofs.v shows that they agree. *)
From Coq Require Import ZArith Bool String List.
From Verif Require Import Outcome ResultModel CanFrameModel SocketCanModel GroupModel ManagerModel.
Import ListNotations.
Open Scope Z_scope.

(** The error numbers of the system calls of one attempt to open a socket, for those that fail. For the calls whose answer is ignored,
    SocketCANInterfaceManager.cpp lines 40, 117-137 and 144, [None] if they succeed. *)
Record numbers : Type := Numbers {
  n_socket : Z; n_canfd : Z; n_own : Z; n_ioctl : Z; n_bind : Z; n_timestamp : option Z; n_overflow : option Z; n_errors : option Z;
  n_getsockopt : option Z; n_filter : Z; n_close : option Z }.

(** errno.h. SocketCANInterfaceManager.cpp line 94. *)
Definition ENAMETOOLONG : Z := 36.

(** SocketCANInterfaceManager.cpp lines 40, 117, 125, 132 and 144: a call whose answer is ignored. It sets errno if it fails and leaves it alone if
    it succeeds. *)
Definition ignored (call : option Z) (errno : Z) : Z := match call with Some e => e | None => errno end.

(** errno after SocketCANInterfaceManager.cpp lines 54-154. The guard of line 64 closes the socket after errno was set. Traces, at lines
    119-136, are taken to leave errno alone. *)
Definition open_errno (name : string) (enable_canfd own : bool) (a : answers) (n : numbers) : Z :=
  if a_socket a <? 0 then n_socket n
  else if enable_canfd && negb (a_canfd a =? 0) then ignored (n_close n) (n_canfd n)
  else if own && negb (a_own a =? 0) then ignored (n_close n) (n_own n)
  else if IFNAMSIZ <=? Z.of_nat (String.length name) then ignored (n_close n) ENAMETOOLONG
  else if a_ioctl a <? 0 then ignored (n_close n) (n_ioctl n)
  else if a_ifindex a <? 0 then ignored (n_close n) 0
  else if a_bind a <? 0 then ignored (n_close n) (n_bind n)
  else
    let errno := ignored (n_getsockopt n) (ignored (n_errors n) (ignored (n_overflow n) (ignored (n_timestamp n) 0))) in
    if negb (a_error a =? 0) then ignored (n_close n) (a_error a)
    else errno.

(** SocketCANInterfaceManager.cpp lines 212-241, with errno at the end. The guard of line 224 closes the socket. Of the results of
    configureFilters, SocketCANInterfaceGroup.cpp lines 155-200, UnknownInternalError follows a failed setsockopt and BadArgument no call.
    Simplification: allocation leaves errno alone. *)
Definition create_errno (m : manager) (index : Z) (name : string) (configs : option (list filter)) (num : nat) (a : answers) (n : numbers)
  (w : world) : outcome (result * option iface * world * Z) :=
  let '(fd, tr) := openSocket name (m_canfd m) (m_own m) a (w_trace w) in
  let errno := open_errno name (m_canfd m) (m_own m) a n in
  if fd <=? 0 then Ret (UnknownInternalError, None, World tr (w_filters w), errno)
  else
    let* (r, log) := configureFilters (a_filter a) fd configs num (w_filters w) in
    if result_not r
    then Ret (r, None, World (tr ++ [Closed fd]) log,
              ignored (n_close n) (if r =? UnknownInternalError then n_filter n else errno))
    else Ret (Success, Some (iface_make index name fd), World tr log, errno).

(** SocketCANInterfaceManager.cpp lines 178-185, with errno. *)
Fixpoint start_loop_errno (fuel : nat) (i : Z) (t : nat) (m : manager) (configs : option (list filter)) (num : nat)
  (kernel : nat -> list event -> answers) (numbering : nat -> list event -> numbers) (acc : list iface) (w : world) (errno : Z)
  : option (outcome (list iface * world * Z)) :=
  match fuel with
  | O => None
  | S k =>
      if i <? Z.of_nat (length (m_required m))
      then match nth_error (m_required m) (Z.to_nat i) with
           | None => Some UB
           | Some name =>
               match create_errno m i name configs num (kernel t (w_trace w)) (numbering t (w_trace w)) w with
               | UB => Some UB
               | Ret (r, o, w', errno') =>
                   start_loop_errno k ((i + 1) mod 256) (S t) m configs num kernel numbering
                     (match o with Some s => if negb (result_not r) then acc ++ [s] else acc | None => acc end) w' errno'
               end
           end
      else Some (Ret (acc, w, errno))
  end.

(** SocketCANInterfaceManager.cpp lines 170-196, with errno. The argument [errno] is what it was before the call. When a group was started, this
    is errno before line 192, where the group that the caller held is destroyed. *)
Definition start_errno (fuel : nat) (m : manager) (configs : option (list filter)) (num : nat) (kernel : nat -> list event -> answers)
  (numbering : nat -> list event -> numbers) (out : option group) (w : world) (errno : Z)
  : option (outcome (result * option group * world * Z)) :=
  match start_loop_errno fuel 0 0 m configs num kernel numbering [] w errno with
  | None => None
  | Some UB => Some UB
  | Some (Ret ([], w', errno')) => Some (Ret (NotFound, out, w', errno'))
  | Some (Ret (g, w', errno')) =>
      Some (Ret (if Z.of_nat (length (m_required m)) <=? getInterfaceCount g then Success else SuccessPartial,
                 Some g, World (destroy_ptr out (w_trace w')) (w_filters w'), errno'))
  end.
