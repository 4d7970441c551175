(** Model of calls of one interface group (test/linux/example/media_on_linux/SocketCANInterfaceGroup.cpp and
    SocketCANInterface.cpp) that overlap in time: each call as the sequence of its accesses to the data members of the group and its
    interfaces, and the interleavings of such sequences.

    One access reads or writes one message buffer, one control buffer with its length, the counters of one interface, or the array of
    select as a whole. This is coarser than the code, which accesses bytes: by C++'s rules an execution in which two threads access the
    same member at the same time, at least one of them writing, is undefined anyway, and OverlapSpec.v says what that means here.
    The accesses of the kernel on behalf of sendmmsg, recvmmsg and ppoll are part of the calling thread's. Sequentially consistent. *)
From Coq Require Import ZArith Bool String List Arith.
From Verif Require Import Outcome ResultModel CInt SatMathModel TimeModel CanFrameModel SocketCanModel GroupModel PollModel.
Import ListNotations.
Open Scope Z_scope.

(** What can change while a group is in use: trx_socketcan_frames_[k], trx_control_[k] with msg_controllen of trx_msghdrs_[k], stats_
    (SocketCANInterface.hpp lines 64-68) of interface number [i], and pollfds_ (SocketCANInterfaceGroup.hpp line 35). The other members
    (index_, name_, socket_descriptor_, interfaces_) are constant. *)
Inductive loc : Type := Slot (i k : nat) | Ctl (i k : nat) | Stat (i : nat) | Polls.
(** Equality of the members of SocketCANInterface.hpp lines 64-68. *)
Definition loc_eq_dec (a b : loc) : {a = b} + {a <> b}.
Proof. decide equality; apply Nat.eq_dec. Defined.

(** What these members hold (SocketCANInterface.hpp lines 64-68, SocketCANInterfaceGroup.hpp line 35). *)
Inductive val : Type :=
| VSlot (c : canfd)
| VCtl (controllen : Z) (cs : list cmsg)
| VStat (st : stats)
| VPolls (v : pvec).

(** The members of all interfaces and of the group (SocketCANInterface.hpp lines 64-68, SocketCANInterfaceGroup.hpp line 35). *)
Definition memory : Type := loc -> val.
(** A write to one of them, e.g. SocketCANInterface.cpp line 114. *)
Definition upd (l : loc) (v : val) (m : memory) : memory := fun x => if loc_eq_dec x l then v else m x.

(** A call of a member function, with the answers the kernel gives during it. [count] is the caller's out_frames_written or
    out_frames_read before the call. SocketCANInterfaceGroup.cpp lines 36-153, SocketCANInterface.cpp lines 86-89. *)
Inductive call : Type :=
| Write (index : Z) (sendmmsg : list canfd -> Z * Z) (frames : list frame) (n : nat) (count : Z)
| Read (index : Z) (res errno : Z) (msgs : list kmsg) (out : list frame) (count : Z)
| Statistics (index : Z)                       (** getInterface(index)->getStatistics(...) *)
| Select (c : scall)
| Filters (fuel : nat) (ans : nat -> list kfilter -> Z -> Z) (configs : option (list filter)) (num : nat)
| Name (index : Z)
| Count.

(** What the calls of SocketCANInterfaceGroup.cpp lines 36-153 and SocketCANInterface.cpp lines 86-89 return, with what write hands to sendmmsg. *)
Inductive reply : Type :=
| RWrite (r : result) (count : Z) (sent : option (list canfd))
| RRead (r : result) (count : Z) (frames : list frame)
| RStats (st : option stats)
| RSelect (e : ended)
| RFilters (x : option (outcome (result * filter_log)))
| RName (s : string)
| RCount (n : Z).

(** ** One call after the other: the functions of GroupModel.v and PollModel.v *)
(** The members of SocketCANInterfaceGroup.hpp lines 34-35. *)
Definition state : Type := (group * pvec)%type.

(** SocketCANInterfaceGroup.cpp lines 36-153, one call that nothing interrupts. *)
Definition serve (P : platform) (c : call) (s : state) : outcome (reply * state) :=
  let '(g, v) := s in
  match c with
  | Write i k fs n cnt => let* (g', r, cnt', sent) := group_write k g i fs n cnt in Ret (RWrite r cnt' sent, (g', v))
  | Read i res errno msgs out cnt =>
      let* (g', r, cnt', out') := group_read res errno msgs g i out cnt in Ret (RRead r cnt' out', (g', v))
  | Statistics i => Ret (RStats (option_map getStatistics (group_getInterface g i)), s)
  | Select c =>
      let* (e, v', asked) := select_mem P Storage (sc_mem c) (sc_ppoll c) g (sc_timeout c) (sc_ignore c) v in
      Ret (RSelect e, (g, v'))
  | Filters fuel ans configs num => Ret (RFilters (reconfigureFilters fuel g ans configs num []), s)
  | Name i => Ret (RName (group_getInterfaceName g i), s)
  | Count => Ret (RCount (getInterfaceCount g), s)
  end.

(** Any sequence of calls of SocketCANInterfaceGroup.cpp lines 36-153 that do not overlap. *)
Fixpoint serve_all (P : platform) (cs : list call) (s : state) : outcome (list reply * state) :=
  match cs with
  | [] => Ret ([], s)
  | c :: rest =>
      let* (r, s1) := serve P c s in
      let* (rs, s2) := serve_all P rest s1 in
      Ret (r :: rs, s2)
  end.

(** ** A call as accesses to memory *)
(** What remains to be done of a call of SocketCANInterfaceGroup.cpp lines 36-153: nothing, a read or a write of a member first. *)
Inductive prog : Type :=
| Done (o : outcome reply)
| Rd (l : loc) (k : val -> prog)
| Wr (l : loc) (v : val) (p : prog).

(** A read of trx_socketcan_frames_[k], e.g. SocketCANInterface.cpp line 162. *)
Definition with_slot (i k : nat) (f : canfd -> prog) : prog :=
  Rd (Slot i k) (fun w => match w with VSlot c => f c | _ => Done UB end).
(** A read of trx_msghdrs_[k] and trx_control_[k], e.g. SocketCANInterface.cpp lines 161-166. *)
Definition with_ctl (i k : nat) (f : Z -> list cmsg -> prog) : prog :=
  Rd (Ctl i k) (fun w => match w with VCtl z cs => f z cs | _ => Done UB end).
(** A read of stats_, e.g. SocketCANInterface.cpp line 88. *)
Definition with_stat (i : nat) (f : stats -> prog) : prog :=
  Rd (Stat i) (fun w => match w with VStat st => f st | _ => Done UB end).
(** A read of pollfds_, e.g. SocketCANInterfaceGroup.cpp line 147. *)
Definition with_polls (f : pvec -> prog) : prog :=
  Rd Polls (fun w => match w with VPolls v => f v | _ => Done UB end).
(** One computation after the other; none after something undefined (e.g. SocketCANInterface.cpp lines 114-117). *)
Definition after {A : Type} (m : outcome A) (f : A -> prog) : prog := match m with Ret a => f a | UB => Done UB end.

(** SocketCANInterface.cpp lines 108-118, from index [k] with [n] iterations to go. *)
Fixpoint fill_prog (i n k : nat) (frames : list frame) (next : prog) : prog :=
  match n with
  | O => next
  | S n' =>
      match nth_error frames k with
      | Some f =>
          if (k <? RxFramesLen)%nat
          then with_slot i k (fun c => after (SocketCanModel.fill f c) (fun c' => Wr (Slot i k) (VSlot c') (fill_prog i n' (S k) frames next)))
          else Done UB
      | None => Done UB
      end
  end.
(** sendmmsg reads [n] message headers and buffers, from number [k]. SocketCANInterface.cpp line 120. *)
Fixpoint send_prog (i n k : nat) (sent : list canfd) (next : list canfd -> prog) : prog :=
  match n with
  | O => next sent
  | S n' => with_ctl i k (fun _ _ => with_slot i k (fun c => send_prog i n' (S k) (sent ++ [c]) next))
  end.
(** SocketCANInterface.cpp lines 96-139. *)
Definition write_prog (i : nat) (sendmmsg : list canfd -> Z * Z) (frames : list frame) (n : nat) : prog :=
  if (n =? 0)%nat then Done (Ret (RWrite BadArgument 0 None))
  else
    fill_prog i n 0 frames (send_prog i n 0 [] (fun sent =>
      let '(res, errno) := sendmmsg sent in
      if res <=? 0
      then Done (Ret (RWrite (if (errno =? ENOBUFS) || (errno =? EAGAIN) then BufferFull else Failure) 0 (Some sent)))
      else Done (Ret (RWrite (if res <? Z.of_nat n then SuccessPartial else Success) res (Some sent))))).

(** recvmmsg stores messages, the first in slot [k]. SocketCANInterface.cpp line 151. *)
Fixpoint recv_prog (i k : nat) (msgs : list kmsg) (next : prog) : prog :=
  match msgs with
  | [] => next
  | m :: rest =>
      with_slot i k (fun c =>
        Wr (Slot i k) (VSlot (receive_into m c))
           (Wr (Ctl i k) (VCtl (km_controllen m) (km_cmsgs m)) (recv_prog i (S k) rest next)))
  end.
(** SocketCANInterface.cpp lines 159-251, from slot [k] with [n] to go; [out] and [count] are the caller's. The counters are written once per message,
    also when they do not change. *)
Fixpoint look_prog (i n k : nat) (out : list frame) (count : nat) (next : list frame -> nat -> prog) : prog :=
  match n with
  | O => next out count
  | S n' =>
      match nth_error out count with
      | None => Done UB
      | Some old =>
          with_ctl i k (fun controllen cs => with_stat i (fun st =>
            let '(ts, dropped) := cmsg_loop controllen cs 0 (rx_dropped st) in
            let st1 := set_dropped dropped st in
            with_slot i k (fun c =>
              if has (cf_id c) CAN_ERR_FLAG
              then Wr (Stat i) (VStat (count_error (cf_id c) st1)) (look_prog i n' (S k) out count next)
              else if has (cf_id c) CAN_EFF_MASK
              then after (let* tmp := frame_make mtu (cf_id c) (Some (cf_data c)) (get_message_length c) ts in frame_assign mtu old tmp)
                     (fun f => Wr (Stat i) (VStat st1) (look_prog i n' (S k) (replace_nth count f out) (S count) next))
              else Wr (Stat i) (VStat st1) (look_prog i n' (S k) out count next))))
      end
  end.
(** SocketCANInterface.cpp lines 141-254. *)
Definition read_prog (i : nat) (res errno : Z) (msgs : list kmsg) (out : list frame) : prog :=
  if res <=? 0
  then Done (Ret (RRead (if (res <? 0) && (errno =? EWOULDBLOCK) then SuccessNothing else UnknownInternalError) 0 out))
  else
    let seen := firstn RxFramesLen (firstn (Z.to_nat res) msgs) in
    recv_prog i 0 seen (look_prog i (length seen) 0 out 0 (fun out' count =>
      with_stat i (fun st => Wr (Stat i) (VStat (add_total (Z.of_nat count mod 2 ^ 32) st))
                                (Done (Ret (RRead Success (Z.of_nat count) out')))))).

(** SocketCANInterfaceGroup.cpp lines 110-153: reserve and fill the array (lines 120-127), then ppoll, which reads it when it begins and
    writes it when it ends, then look at it (lines 145-151). *)
Definition select_prog (P : platform) (g : group) (c : scall) : prog :=
  let events := Z.lor POLLIN POLLPRI in
  let n := length g in
  let events := if negb (sc_ignore c) then Z.lor events POLLOUT else events in
  with_polls (fun v =>
    match reserve (sc_mem c) n v with
    | (None, _) => Done (Ret (RSelect Thrown))
    | (Some v1, _) =>
        after (PollModel.fill Storage v1 0 events g) (fun v2 =>
        Wr Polls (VPolls v2)
          (let sec := Z.quot (sc_timeout c) 1000000 in
           after (dur_sub P 64 (sc_timeout c) (sec * 1000000)) (fun nsec =>
           with_polls (fun v2' =>
             after (fetch v2' 0 n) (fun fds =>
               let req := PollRequest fds sec nsec in
               let '(res, revents) := sc_ppoll c req in
               if res <? 0 then Done (Ret (RSelect (Returned Failure req)))
               else
                 with_polls (fun v2'' =>
                   after (answer_cells v2'' 0 n revents) (fun v3 =>
                   Wr Polls (VPolls v3)
                     (if res =? 0 then Done (Ret (RSelect (Returned SuccessTimeout req)))
                      else with_polls (fun v3' =>
                             after (scan Storage v3' 0 n) (fun r => Done (Ret (RSelect (Returned r req)))))))))))))
    end).

(** A call of a group whose constant members are those of [g]. SocketCANInterfaceGroup.cpp lines 36-153. *)
Definition program (P : platform) (g : group) (c : call) : prog :=
  let in_range i := negb (Z.of_nat (length g) <=? i) in
  match c with
  | Write i k fs n cnt => if in_range i then write_prog (Z.to_nat i) k fs n else Done (Ret (RWrite BadArgument cnt None))
  | Read i res errno msgs out cnt =>
      if in_range i then read_prog (Z.to_nat i) res errno msgs out else Done (Ret (RRead BadArgument cnt out))
  | Statistics i =>
      if in_range i then with_stat (Z.to_nat i) (fun st => Done (Ret (RStats (Some st)))) else Done (Ret (RStats None))
  | Select c => select_prog P g c
  | Filters fuel ans configs num => Done (Ret (RFilters (reconfigureFilters fuel g ans configs num [])))
  | Name i => Done (Ret (RName (group_getInterfaceName g i)))
  | Count => Done (Ret (RCount (getInterfaceCount g)))
  end.

(** ** Threads *)
(** What a thread is doing: the call it is in and the rest of its accesses. [log] has the calls that have returned, in that order.
    Threads that make the calls of SocketCANInterfaceGroup.cpp lines 36-153. *)
Record conf : Type := Conf {
  mem_of : memory; doing : nat -> option (call * prog); log : list (nat * call * outcome reply)
}.

(** A thread begins a call of SocketCANInterfaceGroup.cpp lines 36-153, makes its next access to a member, or returns. *)
Inductive event : Type := Begin (t : nat) (c : call) | Access (t : nat) | End (t : nat).

(** What a thread is doing with the functions of SocketCANInterfaceGroup.cpp lines 36-153. *)
Definition set_thread (t : nat) (x : option (call * prog)) (d : nat -> option (call * prog)) : nat -> option (call * prog) :=
  fun u => if (u =? t)%nat then x else d u.

(** One event; [None] if it cannot happen. Interleaving of the calls of SocketCANInterfaceGroup.cpp lines 36-153. *)
Definition step (P : platform) (g : group) (e : event) (s : conf) : option conf :=
  match e with
  | Begin t c =>
      match doing s t with
      | None => Some (Conf (mem_of s) (set_thread t (Some (c, program P g c)) (doing s)) (log s))
      | Some _ => None
      end
  | Access t =>
      match doing s t with
      | Some (c, Rd l k) => Some (Conf (mem_of s) (set_thread t (Some (c, k (mem_of s l))) (doing s)) (log s))
      | Some (c, Wr l v p) => Some (Conf (upd l v (mem_of s)) (set_thread t (Some (c, p)) (doing s)) (log s))
      | _ => None
      end
  | End t =>
      match doing s t with
      | Some (c, Done o) => Some (Conf (mem_of s) (set_thread t None (doing s)) (log s ++ [(t, c, o)]))
      | _ => None
      end
  end.

(** Any sequence of events of calls of SocketCANInterfaceGroup.cpp lines 36-153. *)
Fixpoint steps (P : platform) (g : group) (es : list event) (s : conf) : option conf :=
  match es with
  | [] => Some s
  | e :: rest => match step P g e s with Some s' => steps P g rest s' | None => None end
  end.

(** The memory of a group (a member that does not exist has an arbitrary value; control buffers are not initialized).
    SocketCANInterface.cpp lines 47-68, SocketCANInterfaceGroup.cpp lines 31-34. *)
Definition memory_of (s : state) (rest : memory) : memory := fun l =>
  match l with
  | Slot i k => match nth_error (fst s) i with
                | Some f => match nth_error (if_buf f) k with Some c => VSlot c | None => rest l end
                | None => rest l
                end
  | Ctl i k => match nth_error (fst s) i with
               | Some f => match nth_error (if_ctl f) k with
                           | Some z => VCtl z (match rest l with VCtl _ cs => cs | _ => [] end)
                           | None => rest l
                           end
               | None => rest l
               end
  | Stat i => match nth_error (fst s) i with Some f => VStat (if_stats f) | None => rest l end
  | Polls => VPolls (snd s)
  end.
(** No thread is in a call of SocketCANInterfaceGroup.cpp lines 36-153. *)
Definition start (s : state) (rest : memory) : conf := Conf (memory_of s rest) (fun _ => None) [].
