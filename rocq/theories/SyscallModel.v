(** Model of the system calls that test/linux/example/media_on_linux makes, with their arguments, in order. ManagerModel.v,
    GroupModel.v and SocketCanModel.v model what the program makes of the answers; SyscallProofs.v ties the two together. *)
From Coq Require Import ZArith Bool String Ascii List.
From Verif Require Import Outcome ResultModel CInt CanFrameModel SocketCanModel GroupModel ManagerModel ClientModel.
Import ListNotations.
Open Scope Z_scope.

(** sys/socket.h, linux/can.h, linux/can/raw.h, linux/can/error.h, linux/sockios.h (x86-64).
    Used at SocketCANInterfaceManager.cpp line 58. *)
Definition PF_CAN : Z := 29.
(** Used at SocketCANInterfaceManager.cpp line 106. *)
Definition AF_CAN : Z := 29.
(** Used at SocketCANInterfaceManager.cpp line 58. *)
Definition SOCK_RAW : Z := 3.
(** Used at SocketCANInterfaceManager.cpp line 58. *)
Definition CAN_RAW : Z := 1.
(** Used at SocketCANInterfaceManager.cpp lines 69, 82 and 132. *)
Definition SOL_CAN_RAW : Z := 101.
(** Used at SocketCANInterfaceManager.cpp line 132. *)
Definition CAN_RAW_ERR_FILTER : Z := 2.
(** Used at SocketCANInterfaceManager.cpp line 82. *)
Definition CAN_RAW_RECV_OWN_MSGS : Z := 4.
(** Used at SocketCANInterfaceManager.cpp line 69. *)
Definition CAN_RAW_FD_FRAMES : Z := 5.
(** Used at SocketCANInterfaceManager.cpp line 131. *)
Definition CAN_ERR_MASK : Z := 0x1FFFFFFF.
(** Used at SocketCANInterfaceManager.cpp line 98. *)
Definition SIOCGIFINDEX : Z := 0x8933.
(** Used at SocketCANInterface.cpp line 151. *)
Definition MSG_DONTWAIT : Z := 0x40.

(** The system calls and their arguments. [Sys_ioctl] has the 16 bytes of ifr_name; [Sys_filter] is setsockopt with
    CAN_RAW_FILTER and an array.
    SocketCANInterfaceManager.cpp lines 40-144, SocketCANInterface.cpp lines 73, 120 and 151, SocketCANInterfaceGroup.cpp lines 133, 170 and 189-193. *)
Inductive syscall : Type :=
| Sys_socket (family type protocol : Z)
| Sys_setsockopt (fd level option value : Z)
| Sys_filter (fd : Z) (fs : list kfilter) (optlen : Z)
| Sys_ioctl (fd request : Z) (name : list ascii)
| Sys_bind (fd family ifindex : Z)
| Sys_so_error (fd : Z)
| Sys_close (fd : Z)
| Sys_sendmmsg (fd : Z) (msgs : list canfd) (vlen flags : Z)
| Sys_recvmmsg (fd vlen flags : Z)
| Sys_ppoll (fds : list (Z * Z)) (sec nsec : Z).

(** The value a call returns and what it stores: the interface index, the pending error, or errno. *)
Notation answer := (Z * Z)%type (only parsing).
Notation trace := (list (syscall * (Z * Z))) (only parsing).
(** The kernel answers each call depending on all that happened before.
    For all calls of SocketCANInterfaceManager.cpp lines 40-144, SocketCANInterface.cpp lines 73-151 and SocketCANInterfaceGroup.cpp lines 133-193. *)
Definition system : Type := trace -> syscall -> answer.
(** One of the calls of SocketCANInterfaceManager.cpp lines 40-144, SocketCANInterface.cpp lines 73-151 and SocketCANInterfaceGroup.cpp lines 133-193. *)
Definition sys (k : system) (c : syscall) (tr : trace) : answer * trace := (k tr c, tr ++ [(c, k tr c)]).

(** strncpy: copies at most [n] characters, up to a NUL, and fills the rest of the [n] bytes with NUL; the destination's
    other bytes keep their value. Called at SocketCANInterfaceManager.cpp line 97. *)
Fixpoint strncpy (dst : list ascii) (src : string) (n : nat) : list ascii :=
  match n, dst with
  | S n', _ :: dst' =>
      match src with
      | String c src' => if Ascii.eqb c zero then zero :: strncpy dst' EmptyString n' else c :: strncpy dst' src' n'
      | EmptyString => zero :: strncpy dst' EmptyString n'
      end
  | _, _ => dst
  end.

(** SocketCANInterfaceManager.cpp lines 36-42: what the guard does on the way out. *)
Definition guarded (k : system) (s : Z) (tr : trace) : Z * trace := (-1, snd (sys k (Sys_close s) tr)).

(** SocketCANInterfaceManager.cpp lines 54-154. *)
Definition open_socket (k : system) (name : string) (enable_canfd own : bool) (tr : trace) : Z * trace :=
  let '((s, _), tr) := sys k (Sys_socket PF_CAN SOCK_RAW CAN_RAW) tr in
  if s <? 0 then (s, tr)
  else
    let '((canfd_result, _), tr) :=
      if enable_canfd then sys k (Sys_setsockopt s SOL_CAN_RAW CAN_RAW_FD_FRAMES 1) tr else ((0, 0), tr) in
    if negb (canfd_result =? 0) then guarded k s tr
    else
      let '((own_result, _), tr) :=
        if own then sys k (Sys_setsockopt s SOL_CAN_RAW CAN_RAW_RECV_OWN_MSGS 1) tr else ((0, 0), tr) in
      if negb (own_result =? 0) then guarded k s tr
      else if IFNAMSIZ <=? Z.of_nat (String.length name) then guarded k s tr
      else
        let ifr_name := strncpy (repeat zero 16) name (String.length name) in
        let '((r, ifindex), tr) := sys k (Sys_ioctl s SIOCGIFINDEX ifr_name) tr in
        if (r <? 0) || (ifindex <? 0) then guarded k s tr
        else
          let '((b, _), tr) := sys k (Sys_bind s AF_CAN ifindex) tr in
          if b <? 0 then guarded k s tr
          else
            let '(_, tr) := sys k (Sys_setsockopt s SOL_SOCKET SO_TIMESTAMP 1) tr in
            let '(_, tr) := sys k (Sys_setsockopt s SOL_SOCKET SO_RXQ_OVFL 1) tr in
            let '(_, tr) := sys k (Sys_setsockopt s SOL_CAN_RAW CAN_RAW_ERR_FILTER CAN_ERR_MASK) tr in
            let '((_, socket_error), tr) := sys k (Sys_so_error s) tr in
            if negb (socket_error =? 0) then guarded k s tr
            else (s, tr).

(** SocketCANInterfaceGroup.cpp lines 155-199. *)
Definition configure_filters (k : system) (fd : Z) (configs : option (list filter)) (num : nat) (tr : trace)
  : outcome (result * trace) :=
  if (match configs with None => true | Some _ => false end) && negb (num =? 0)%nat && (Z.of_nat num <=? CAN_RAW_FILTER_MAX)
  then Ret (BadArgument, tr)
  else if (num =? 0)%nat
  then let '((r, _), tr) := sys k (Sys_filter fd [] 0) tr in
       Ret (if negb (r =? 0) then UnknownInternalError else Success, tr)
  else
    match configs with
    | None => UB
    | Some cs =>
        let* fs := convert_filters num cs in
        let '((r, _), tr) := sys k (Sys_filter fd fs ((sizeof_can_filter * Z.of_nat (length fs)) mod 2 ^ 32)) tr in
        Ret (if negb (r =? 0) then UnknownInternalError else Success, tr)
    end.

(** SocketCANInterfaceManager.cpp lines 212-241, with the simplification of ManagerModel.v. *)
Definition create_interface (k : system) (m : manager) (index : Z) (name : string) (configs : option (list filter)) (num : nat)
  (tr : trace) : outcome (result * option iface * trace) :=
  let '(fd, tr) := open_socket k name (m_canfd m) (m_own m) tr in
  if fd <=? 0 then Ret (UnknownInternalError, None, tr)
  else
    let* (r, tr) := configure_filters k fd configs num tr in
    if result_not r then Ret (r, None, snd (guarded k fd tr))
    else Ret (Success, Some (iface_make index name fd), tr).

(** SocketCANInterfaceManager.cpp lines 178-185. *)
Fixpoint create_all (fuel : nat) (i : Z) (k : system) (m : manager) (configs : option (list filter)) (num : nat)
  (acc : list iface) (tr : trace) : option (outcome (list iface * trace)) :=
  match fuel with
  | O => None
  | S fuel' =>
      if i <? Z.of_nat (length (m_required m))
      then match nth_error (m_required m) (Z.to_nat i) with
           | None => Some UB
           | Some name =>
               match create_interface k m i name configs num tr with
               | UB => Some UB
               | Ret (r, o, tr') =>
                   create_all fuel' ((i + 1) mod 256) k m configs num
                     (match o with Some s => if negb (result_not r) then acc ++ [s] else acc | None => acc end) tr'
               end
           end
      else Some (Ret (acc, tr))
  end.

(** SocketCANInterface.cpp lines 70-74 for each interface of a group. *)
Definition close_group (k : system) (g : group) (tr : trace) : trace :=
  fold_left (fun tr s => snd (sys k (Sys_close (getSocketDescriptor s)) tr)) g tr.
(** Dropping a pointer, SocketCANInterfaceManager.cpp lines 192 and 203: SocketCANInterface.cpp lines 70-74 for each interface. *)
Definition close_ptr (k : system) (p : option group) (tr : trace) : trace :=
  match p with Some g => close_group k g tr | None => tr end.

(** SocketCANInterfaceManager.cpp lines 170-196 and 198-205, with the simplifications of ManagerModel.v. *)
Definition start_group (fuel : nat) (k : system) (m : manager) (configs : option (list filter)) (num : nat) (out : option group)
  (tr : trace) : option (outcome (result * option group * trace)) :=
  match create_all fuel 0 k m configs num [] tr with
  | None => None
  | Some UB => Some UB
  | Some (Ret ([], tr')) => Some (Ret (NotFound, out, tr'))
  | Some (Ret (g, tr')) =>
      Some (Ret (if Z.of_nat (length (m_required m)) <=? getInterfaceCount g then Success else SuccessPartial,
                 Some g, close_ptr k out tr'))
  end.
(** SocketCANInterfaceManager.cpp lines 198-205. *)
Definition stop_group (k : system) (out : option group) (tr : trace) : result * option group * trace :=
  (Success, None, close_ptr k out tr).

(** SocketCANInterfaceGroup.cpp lines 96-108. *)
Fixpoint reconfigure (fuel : nat) (i : Z) (k : system) (g : group) (configs : option (list filter)) (num : nat) (tr : trace)
  : option (outcome (result * trace)) :=
  match fuel with
  | O => None
  | S fuel' =>
      if i <? Z.of_nat (length g)
      then match nth_error g (Z.to_nat i) with
           | None => Some UB
           | Some s =>
               match configure_filters k (getSocketDescriptor s) configs num tr with
               | UB => Some UB
               | Ret (r, tr') => if result_not r then Some (Ret (r, tr'))
                                 else reconfigure fuel' ((i + 1) mod 256) k g configs num tr'
               end
           end
      else Some (Ret (Success, tr))
  end.

(** SocketCANInterface.cpp lines 96-139: sendmmsg is called without flags (line 120). *)
Definition write_call (k : system) (s : iface) (frames : list frame) (n : nat) (tr : trace) : outcome (write_out * trace) :=
  let call := fun sent => Sys_sendmmsg (getSocketDescriptor s) sent (Z.of_nat n mod 2 ^ 32) 0 in
  let* w := write (fun sent => k tr (call sent)) s frames n in
  Ret (w, match wr_sent w with Some sent => snd (sys k (call sent) tr) | None => tr end).

(** SocketCANInterface.cpp lines 141-254: recvmmsg is called with MSG_DONTWAIT (line 151). [msgs] are the messages it delivers. *)
Definition read_call (k : system) (msgs : list kmsg) (s : iface) (out : list frame) (tr : trace) : outcome (read_out * trace) :=
  let '((res, errno), tr) := sys k (Sys_recvmmsg (getSocketDescriptor s) 4 MSG_DONTWAIT) tr in
  let* r := read res errno msgs s out in
  Ret (r, tr).

(** SocketCANInterfaceGroup.cpp lines 67-80. *)
Definition group_write_call (k : system) (g : group) (index : Z) (frames : list frame) (n : nat) (tr : trace)
  : outcome (reply * group * trace) :=
  if Z.of_nat (length g) <=? index then Ret (Wrote BadArgument 0 None, g, tr)
  else match nth_error g (Z.to_nat index) with
       | Some s => let* (w, tr) := write_call k s frames n tr in
                   Ret (Wrote (wr_result w) (wr_count w) (wr_sent w), replace_nth (Z.to_nat index) (wr_if w) g, tr)
       | None => UB
       end.

(** SocketCANInterfaceGroup.cpp lines 82-94. *)
Definition group_read_call (k : system) (msgs : list kmsg) (g : group) (index : Z) (out : list frame) (tr : trace)
  : outcome (reply * group * trace) :=
  if Z.of_nat (length g) <=? index then Ret (WasRead BadArgument 0 out, g, tr)
  else match nth_error g (Z.to_nat index) with
       | Some s => let* (r, tr) := read_call k msgs s out tr in
                   Ret (WasRead (rd_result r) (Z.of_nat (rd_count r)) (rd_frames r), replace_nth (Z.to_nat index) (rd_if r) g, tr)
       | None => UB
       end.

(** SocketCANInterfaceGroup.cpp lines 110-153. [revents] are the events ppoll reports. *)
Definition select_call (P : platform) (k : system) (revents : list Z) (g : group) (timeout : Z) (ignore : bool) (tr : trace)
  : outcome (result * trace) :=
  let call := fun req => Sys_ppoll (pr_fds req) (pr_sec req) (pr_nsec req) in
  let* (r, req) := select P (fun req => (fst (k tr (call req)), revents)) g timeout ignore in
  Ret (r, snd (sys k (call req) tr)).

(** The calls of a program that owns one pointer to a group, as in ClientModel.v, and what it gets back. What is not in the
    answers of the system, i.e. the messages and events reported, comes with the call.
    Of SocketCANInterfaceManager.cpp lines 170-205 and SocketCANInterfaceGroup.cpp lines 67-153. *)
Inductive operation : Type :=
| Op_start (configs : option (list filter)) (num : nat)
| Op_stop
| Op_reconfigure (configs : option (list filter)) (num : nat)
| Op_write (index : Z) (frames : list frame) (n : nat)
| Op_read (msgs : list kmsg) (index : Z) (out : list frame)
| Op_select (timeout : Z) (ignore : bool) (revents : list Z).

(** What SocketCANInterfaceManager.cpp lines 170-205 and SocketCANInterfaceGroup.cpp lines 67-153 answer. *)
Inductive response : Type := Answered (r : reply) | Selected (r : result).

(** A call of SocketCANInterfaceManager.cpp lines 170-205 or SocketCANInterfaceGroup.cpp lines 67-153. *)
Definition step (P : platform) (fuel : nat) (k : system) (m : manager) (o : operation) (p : option group) (tr : trace)
  : option (outcome (response * option group * trace)) :=
  match o, p with
  | Op_start configs num, _ =>
      match start_group fuel k m configs num p tr with
      | None => None
      | Some UB => Some UB
      | Some (Ret (r, p', tr')) => Some (Ret (Answered (Started r), p', tr'))
      end
  | Op_stop, _ => let '(r, p', tr') := stop_group k p tr in Some (Ret (Answered (Stopped r), p', tr'))
  | Op_reconfigure configs num, Some g =>
      match reconfigure fuel 0 k g configs num tr with
      | None => None
      | Some UB => Some UB
      | Some (Ret (r, tr')) => Some (Ret (Answered (Reconfigured r), Some g, tr'))
      end
  | Op_write i frames n, Some g =>
      Some (let* (x, tr') := group_write_call k g i frames n tr in let '(r, g') := x in Ret (Answered r, Some g', tr'))
  | Op_read msgs i out, Some g =>
      Some (let* (x, tr') := group_read_call k msgs g i out tr in let '(r, g') := x in Ret (Answered r, Some g', tr'))
  | Op_select timeout ignore revents, Some g =>
      Some (let* (r, tr') := select_call P k revents g timeout ignore tr in Ret (Selected r, Some g, tr'))
  | _, None => Some UB
  end.
