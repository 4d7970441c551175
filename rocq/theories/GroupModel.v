(** Model of test/linux/example/media_on_linux/SocketCANInterfaceGroup.{hpp,cpp}. What the kernel answers is a parameter. *)
From Coq Require Import ZArith Bool String List.
From Verif Require Import Outcome ResultModel CInt SatMathModel TimeModel CanFrameModel SocketCanModel.
Import ListNotations.
Open Scope Z_scope.

(** linux/can.h struct can_filter and its size; linux/can/raw.h. Built at SocketCANInterfaceGroup.cpp lines 181-182. *)
Record kfilter : Type := KFilter { kf_id : Z; kf_mask : Z }.
(** Used at SocketCANInterfaceGroup.cpp line 193. *)
Definition sizeof_can_filter : Z := 8.
(** Used at SocketCANInterfaceGroup.cpp line 159. *)
Definition CAN_RAW_FILTER_MAX : Z := 512.

(** poll.h. Used at SocketCANInterfaceGroup.cpp line 112. *)
Definition POLLIN : Z := 1.
(** Used at SocketCANInterfaceGroup.cpp lines 112 and 147. *)
Definition POLLPRI : Z := 2.
(** Used at SocketCANInterfaceGroup.cpp line 117. *)
Definition POLLOUT : Z := 4.
(** Used at SocketCANInterfaceGroup.cpp line 147. *)
Definition POLLERR : Z := 8.
(** Used at SocketCANInterfaceGroup.cpp line 147. *)
Definition POLLHUP : Z := 16.
(** Used at SocketCANInterfaceGroup.cpp line 147. *)
Definition POLLNVAL : Z := 32.

(** SocketCANInterfaceGroup.hpp line 34: the interfaces. (pollfds_, line 35, is scratch space of select: it is reserved and
    then filled through data() without being resized; here select gets a fresh array of the right size, PollModel.v has the
    vector and C144 shows that the two agree.) *)
Definition group : Type := list iface.

(** The filters installed on sockets, most recent setsockopt first: descriptor and filters.
    By SocketCANInterfaceGroup.cpp lines 170 and 189-193. *)
Definition filter_log : Type := list (Z * list kfilter).

(** SocketCANInterfaceGroup.cpp lines 36-40: uint_fast8_t has 8 bits. *)
Definition getInterfaceCount (g : group) : Z := Z.min 255 (Z.of_nat (length g)).

(** SocketCANInterfaceGroup.cpp lines 42-53. *)
Definition group_getInterfaceName (g : group) (index : Z) : string :=
  if Z.of_nat (length g) <=? index then "<bad index>"%string
  else match nth_error g (Z.to_nat index) with Some s => getInterfaceName s | None => EmptyString end.

(** SocketCANInterfaceGroup.cpp lines 55-65: [None] is a null pointer. *)
Definition group_getInterface (g : group) (index : Z) : option iface :=
  if Z.of_nat (length g) <=? index then None else nth_error g (Z.to_nat index).

(** SocketCANInterfaceGroup.cpp lines 67-80. [count] is the caller's variable out_frames_written before the call. *)
Definition group_write (sendmmsg : list canfd -> Z * Z) (g : group) (index : Z) (frames : list frame) (frames_len : nat)
  (count : Z) : outcome (group * result * Z * option (list canfd)) :=
  if Z.of_nat (length g) <=? index then Ret (g, BadArgument, count, None)
  else match nth_error g (Z.to_nat index) with
       | Some s => let* w := write sendmmsg s frames frames_len in
                   Ret (replace_nth (Z.to_nat index) (wr_if w) g, wr_result w, wr_count w, wr_sent w)
       | None => UB
       end.

(** SocketCANInterfaceGroup.cpp lines 82-94. *)
Definition group_read (res errno : Z) (msgs : list kmsg) (g : group) (index : Z) (out : list frame) (count : Z)
  : outcome (group * result * Z * list frame) :=
  if Z.of_nat (length g) <=? index then Ret (g, BadArgument, count, out)
  else match nth_error g (Z.to_nat index) with
       | Some s => let* r := read res errno msgs s out in
                   Ret (replace_nth (Z.to_nat index) (rd_if r) g, rd_result r, Z.of_nat (rd_count r), rd_frames r)
       | None => UB
       end.

(** SocketCANInterfaceGroup.cpp lines 177-183: build the kernel's filters from [num] elements of the array. *)
Fixpoint convert_filters (num : nat) (configs : list filter) : outcome (list kfilter) :=
  match num with
  | O => Ret []
  | S k =>
      match configs with
      | [] => UB
      | fc :: rest =>
          let* t := convert_filters k rest in
          Ret (KFilter (Z.lor (Z.land (flt_id fc) MaskExtID) CAN_EFF_FLAG) (Z.lor (flt_mask fc) CAN_EFF_FLAG) :: t)
      end
  end.

(** What setsockopt(CAN_RAW_FILTER) does when it answers 0: the filters are the first [optlen] bytes of the array.
    Called at SocketCANInterfaceGroup.cpp lines 170 and 189-193. *)
Definition install (fd : Z) (fs : list kfilter) (optlen : Z) (log : filter_log) : filter_log :=
  (fd, firstn (Z.to_nat (optlen / sizeof_can_filter)) fs) :: log.

(** SocketCANInterfaceGroup.cpp lines 155-199. [configs] is [None] for a null pointer, else the elements readable through it. [ans fs optlen] is
    what setsockopt answers. The length is converted to a 32-bit socklen_t (line 193). Simplification: the 32-bit loop
    counter of line 177 never wraps and memory for the vector is available, i.e. num_configs < 2^32 (FilterLoopModel.v has every
    length, OomModel.v memory that runs out). *)
Definition configureFilters (ans : list kfilter -> Z -> Z) (fd : Z) (configs : option (list filter)) (num_configs : nat)
  (log : filter_log) : outcome (result * filter_log) :=
  if (match configs with None => true | Some _ => false end) && negb (num_configs =? 0)%nat
     && (Z.of_nat num_configs <=? CAN_RAW_FILTER_MAX)
  then Ret (BadArgument, log)
  else if (num_configs =? 0)%nat
  then if negb (ans [] 0 =? 0) then Ret (UnknownInternalError, log)
       else Ret (Success, install fd [] 0 log)
  else
    match configs with
    | None => UB
    | Some cs =>
        let* fs := convert_filters num_configs cs in
        let optlen := (sizeof_can_filter * Z.of_nat (length fs)) mod 2 ^ 32 in
        if negb (ans fs optlen =? 0) then Ret (UnknownInternalError, log)
        else Ret (Success, install fd fs optlen log)
    end.

(** SocketCANInterfaceGroup.cpp lines 96-108. [i] is a uint8_t; [fuel] bounds the number of loop iterations and the outcome [None] says that they
    did not suffice. [ans t] is what the [t]-th setsockopt call answers. *)
Fixpoint reconfigure_loop (fuel : nat) (i : Z) (t : nat) (g : group) (ans : nat -> list kfilter -> Z -> Z)
  (configs : option (list filter)) (num : nat) (log : filter_log) : option (outcome (result * filter_log)) :=
  match fuel with
  | O => None
  | S k =>
      if i <? Z.of_nat (length g)
      then match nth_error g (Z.to_nat i) with
           | None => Some UB
           | Some s =>
               match configureFilters (ans t) (getSocketDescriptor s) configs num log with
               | UB => Some UB
               | Ret (r, log') =>
                   if result_not r then Some (Ret (r, log'))
                   else reconfigure_loop k ((i + 1) mod 256) (S t) g ans configs num log'
               end
           end
      else Some (Ret (Success, log))
  end.

(** SocketCANInterfaceGroup.cpp lines 96-108. *)
Definition reconfigureFilters (fuel : nat) (g : group) (ans : nat -> list kfilter -> Z -> Z)
  (configs : option (list filter)) (num : nat) (log : filter_log) : option (outcome (result * filter_log)) :=
  reconfigure_loop fuel 0 0 g ans configs num log.

(** What select passes to ppoll: descriptors with requested events, and the timeout's seconds and nanoseconds members.
    SocketCANInterfaceGroup.cpp lines 126-133. *)
Record poll_request : Type := PollRequest { pr_fds : list (Z * Z); pr_sec : Z; pr_nsec : Z }.

(** SocketCANInterfaceGroup.cpp lines 110-153. [ppoll] answers the result and the returned events of each descriptor. The division and the
    multiplication are done in 64-bit signed integers (the unsigned int operand is converted); the subtraction is that of
    duration::Monotonic. *)
Definition select (P : platform) (ppoll : poll_request -> Z * list Z) (g : group) (timeout : Z) (ignore_write_available : bool)
  : outcome (result * poll_request) :=
  let events := Z.lor POLLIN POLLPRI in
  let events := if negb ignore_write_available then Z.lor events POLLOUT else events in
  let pollfds := map (fun s => (getSocketDescriptor s, events)) g in
  let sec := Z.quot timeout 1000000 in
  let* nsec := dur_sub P 64 timeout (sec * 1000000) in
  let req := PollRequest pollfds sec nsec in
  let '(res, revents) := ppoll req in
  if res =? 0 then Ret (SuccessTimeout, req)
  else if res <? 0 then Ret (Failure, req)
  else if existsb (fun rv => has rv (Z.lor POLLPRI (Z.lor POLLERR (Z.lor POLLHUP POLLNVAL)))) (firstn (length g) revents)
       then Ret (SuccessPartial, req)
       else Ret (Success, req).
