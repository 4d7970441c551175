(** Model of test/linux/example/media_on_linux/SocketCANInterface.{hpp,cpp}: the SocketCAN media interface.

    The kernel is not modelled here: what sendmmsg and recvmmsg answer is a parameter of the modelled functions, so every
    theorem holds for every kernel. Platform: x86-64 Linux with glibc (the constants below). *)
From Coq Require Import ZArith Bool String List.
From Verif Require Import Outcome ResultModel CanFrameModel.
Import ListNotations.
Open Scope Z_scope.

(** linux/can.h. Used in SocketCANInterface.cpp line 114. *)
Definition CAN_EFF_FLAG : Z := 0x80000000.
(** linux/can.h; used in SocketCANInterface.cpp line 195. *)
Definition CAN_ERR_FLAG : Z := 0x20000000.
(** linux/can.h; used in SocketCANInterface.cpp line 234. *)
Definition CAN_EFF_MASK : Z := 0x1FFFFFFF.
(** linux/can/error.h. Used in SocketCANInterface.cpp line 197. *)
Definition CAN_ERR_TX_TIMEOUT : Z := 0x1.
(** linux/can/error.h; used in SocketCANInterface.cpp line 201. *)
Definition CAN_ERR_LOSTARB : Z := 0x2.
(** linux/can/error.h; used in SocketCANInterface.cpp line 205. *)
Definition CAN_ERR_CRTL : Z := 0x4.
(** linux/can/error.h; used in SocketCANInterface.cpp line 209. *)
Definition CAN_ERR_PROT : Z := 0x8.
(** linux/can/error.h; used in SocketCANInterface.cpp line 213. *)
Definition CAN_ERR_TRX : Z := 0x10.
(** linux/can/error.h; used in SocketCANInterface.cpp line 217. *)
Definition CAN_ERR_ACK : Z := 0x20.
(** linux/can/error.h; used in SocketCANInterface.cpp line 221. *)
Definition CAN_ERR_BUSOFF : Z := 0x40.
(** linux/can/error.h; used in SocketCANInterface.cpp line 225. *)
Definition CAN_ERR_BUSERROR : Z := 0x80.
(** linux/can/error.h; used in SocketCANInterface.cpp line 229. *)
Definition CAN_ERR_RESTARTED : Z := 0x100.
(** errno.h; EWOULDBLOCK is EAGAIN on Linux. Used in SocketCANInterface.cpp line 124. *)
Definition EAGAIN : Z := 11.
(** errno.h; used in SocketCANInterface.cpp line 155. *)
Definition EWOULDBLOCK : Z := 11.
(** errno.h; used in SocketCANInterface.cpp line 124. *)
Definition ENOBUFS : Z := 105.
(** sys/socket.h. Used in SocketCANInterface.cpp line 168. *)
Definition SOL_SOCKET : Z := 1.
(** sys/socket.h; used in SocketCANInterface.cpp line 170. *)
Definition SO_TIMESTAMP : Z := 29.
(** sys/socket.h; used in SocketCANInterface.cpp line 177. *)
Definition SO_RXQ_OVFL : Z := 40.
(** sizeof(::timeval), SocketCANInterface.cpp line 170 and SocketCANInterface.hpp line 55. *)
Definition sizeof_timeval : Z := 16.
(** sizeof(cmsghdr), SocketCANInterface.hpp line 55. *)
Definition sizeof_cmsghdr : Z := 16.

(** SocketCANInterface.hpp line 53. *)
Definition TxFramesLen : nat := 4.
(** SocketCANInterface.hpp line 54. *)
Definition RxFramesLen : nat := 4.
(** SocketCANInterface.hpp line 55. *)
Definition ControlSize : Z := sizeof_cmsghdr + sizeof_timeval.
(** SocketCANInterface.hpp line 56, with TypeFD::MaxFrameSizeBytes, media/can.hpp line 41. *)
Definition mtu : nat := 64.

(** linux/can.h struct canfd_frame, SocketCANInterface.hpp line 58; the flags and reserved members are never accessed. *)
Record canfd : Type := CanFd { cf_id : Z; cf_len : Z; cf_data : list Z }.

(** SocketCANInterface.hpp lines 38-51. *)
Record stats : Type := Stats {
  rx_total : Z; rx_dropped : Z;
  err_tx_timeout : Z; err_lostarb : Z; err_crtl : Z; err_prot : Z; err_trx : Z;
  err_ack : Z; err_bussoff : Z; err_buserror : Z; err_restarted : Z
}.
(** The initial values, SocketCANInterface.hpp lines 40-50. *)
Definition stats_zero : stats := Stats 0 0 0 0 0 0 0 0 0 0 0.

(** The data members of the interface (SocketCANInterface.hpp lines 61-68). [if_ctl] lists the msg_controllen member of each of the four
    message headers; the other header members and the iovecs never change. *)
Record iface : Type := Iface {
  if_index : Z; if_name : string; if_fd : Z;
  if_stats : stats; if_buf : list canfd; if_ctl : list Z
}.

(** SocketCANInterface.cpp lines 47-68. trx_socketcan_frames_() is value-initialized: all bytes zero. *)
Definition iface_make (index : Z) (name : string) (fd : Z) : iface :=
  Iface index name fd stats_zero
        (repeat (CanFd 0 0 (repeat 0 64)) RxFramesLen) (repeat ControlSize RxFramesLen).

(** SocketCANInterface.cpp lines 76-79. *)
Definition getInterfaceName (s : iface) : string := if_name s.
(** SocketCANInterface.cpp lines 81-84. *)
Definition getInterfaceIndex (s : iface) : Z := if_index s.
(** SocketCANInterface.cpp lines 86-89. *)
Definition getStatistics (s : iface) : stats := if_stats s.
(** SocketCANInterface.cpp lines 91-94. *)
Definition getSocketDescriptor (s : iface) : Z := if_fd s.

(** SocketCANInterface.cpp lines 25-43: the byte length member of the kernel's frame, a uint8_t. *)
Definition get_message_length (c : canfd) : Z := cf_len c.
(** SocketCANInterface.cpp lines 40-43. *)
Definition set_message_length (c : canfd) (n : Z) : canfd := CanFd (cf_id c) (n mod 256) (cf_data c).

(** SocketCANInterface.cpp lines 110-117: fill one message buffer from one frame. *)
Definition fill (f : frame) (c : canfd) : outcome canfd :=
  let c1 := CanFd (Z.lor CAN_EFF_FLAG (Z.land (fid f) MaskExtID)) (cf_len c) (cf_data c) in
  let c2 := set_message_length c1 (getDLC f) in
  let* d := copy_into (Z.to_nat (getDataLength f)) (fdata f) (cf_data c2) in
  Ret (CanFd (cf_id c2) (cf_len c2) d).

(** SocketCANInterface.cpp lines 108-118, from index [i] with [n] iterations to go; an index outside either array is undefined. *)
Fixpoint fill_loop (n i : nat) (frames : list frame) (buf : list canfd) : outcome (list canfd) :=
  match n with
  | O => Ret buf
  | S k =>
      match nth_error frames i, nth_error buf i with
      | Some f, Some c =>
          let* c' := fill f c in
          fill_loop k (S i) frames (replace_nth i c' buf)
      | _, _ => UB
      end
  end.

(** What a write call did: the interface afterwards, the result, out_frames_written and the messages handed to sendmmsg
    ([None] if it was not called). The outputs of SocketCANInterface.cpp lines 96-139. *)
Record write_out : Type := WriteOut {
  wr_if : iface; wr_result : result; wr_count : Z; wr_sent : option (list canfd)
}.

(** The frame buffers after SocketCANInterface.cpp lines 108-118; the other members stay. *)
Definition set_buf (s : iface) (b : list canfd) : iface :=
  Iface (if_index s) (if_name s) (if_fd s) (if_stats s) b (if_ctl s).

(** SocketCANInterface.cpp lines 96-139. [sendmmsg msgs] is the kernel's answer: return value and errno. *)
Definition write (sendmmsg : list canfd -> Z * Z) (s : iface) (frames : list frame) (frames_len : nat)
  : outcome write_out :=
  if (frames_len =? 0)%nat then Ret (WriteOut s BadArgument 0 None)
  else
    let* b := fill_loop frames_len 0 frames (if_buf s) in
    let s' := set_buf s b in
    let sent := firstn frames_len b in
    let '(res, errno) := sendmmsg sent in
    if res <=? 0
    then Ret (WriteOut s' (if (errno =? ENOBUFS) || (errno =? EAGAIN) then BufferFull else Failure) 0 (Some sent))
    else if res <? Z.of_nat frames_len
         then Ret (WriteOut s' SuccessPartial res (Some sent))
         else Ret (WriteOut s' Success res (Some sent)).

(** One control message of a received message. [cm_tv] is the timeval and [cm_u32] the 32-bit word found at CMSG_DATA.
    Read in SocketCANInterface.cpp lines 166-192. *)
Record cmsg : Type := CMsg { cm_level : Z; cm_type : Z; cm_len : Z; cm_tv : Z * Z; cm_u32 : Z }.

(** One message as the kernel delivers it into a slot of the receive buffers: the frame's identifier word and length, the
    data bytes written to the buffer (8 for a classic frame, 64 for an FD frame: later bytes keep their old value), the
    control messages that iterating with CMSG_FIRSTHDR / CMSG_NXTHDR yields, and msg_controllen afterwards.
    Used in SocketCANInterface.cpp lines 161-162. *)
Record kmsg : Type := KMsg { km_id : Z; km_len : Z; km_bytes : list Z; km_cmsgs : list cmsg; km_controllen : Z }.

(** recvmmsg stores a message in slot [i]. The call in SocketCANInterface.cpp line 151. *)
Definition receive_into (m : kmsg) (c : canfd) : canfd :=
  CanFd (km_id m) (km_len m) (km_bytes m ++ skipn (length (km_bytes m)) (cf_data c)).

(** The frames that the call in SocketCANInterface.cpp line 151 stores, from the first slot on. *)
Fixpoint receive_all (msgs : list kmsg) (buf : list canfd) : list canfd :=
  match msgs, buf with
  | m :: ms, c :: cs => receive_into m c :: receive_all ms cs
  | _, _ => buf
  end.

(** The msg_controllen members that the call in SocketCANInterface.cpp line 151 stores. *)
Fixpoint receive_ctl (msgs : list kmsg) (ctl : list Z) : list Z :=
  match msgs, ctl with
  | m :: ms, c :: cs => km_controllen m :: receive_ctl ms cs
  | _, _ => ctl
  end.

(** std::uint64_t arithmetic, SocketCANInterface.cpp lines 174-179 and SocketCANInterface.hpp lines 40-50. *)
Definition u64 (x : Z) : Z := x mod 2 ^ 64.

(** SocketCANInterface.cpp lines 166-193: the control message loop; carries the timestamp (microseconds, time::Monotonic) and rx_dropped. *)
Fixpoint cmsg_loop (controllen : Z) (cs : list cmsg) (ts dropped : Z) : Z * Z :=
  match cs with
  | [] => (ts, dropped)
  | c :: rest =>
      if cm_level c =? SOL_SOCKET
      then if (cm_type c =? SO_TIMESTAMP) && (sizeof_timeval <=? controllen)
           then cmsg_loop controllen rest (u64 (u64 (fst (cm_tv c)) * 1000000 + u64 (snd (cm_tv c)))) dropped
           else if (cm_type c =? SO_RXQ_OVFL) && (4 <=? cm_len c)
                then cmsg_loop controllen rest ts (u64 (dropped + cm_u32 c))
                else cmsg_loop controllen rest ts dropped
      else cmsg_loop controllen rest ts dropped
  end.

(** [x & m] as a condition. SocketCANInterface.cpp lines 195-234. *)
Definition has (x m : Z) : bool := negb (Z.land x m =? 0).
(** A counter that is increased if a bit is set, SocketCANInterface.cpp lines 197-232. *)
Definition bump (b : bool) (n : Z) : Z := if b then u64 (n + 1) else n.

(** SocketCANInterface.cpp lines 195-233. *)
Definition count_error (id : Z) (s : stats) : stats :=
  Stats (rx_total s) (rx_dropped s)
    (bump (has id CAN_ERR_TX_TIMEOUT) (err_tx_timeout s))
    (bump (has id CAN_ERR_LOSTARB) (err_lostarb s))
    (bump (has id CAN_ERR_CRTL) (err_crtl s))
    (bump (has id CAN_ERR_PROT) (err_prot s))
    (bump (has id CAN_ERR_TRX) (err_trx s))
    (bump (has id CAN_ERR_ACK) (err_ack s))
    (bump (has id CAN_ERR_BUSOFF) (err_bussoff s))
    (bump (has id CAN_ERR_BUSERROR) (err_buserror s))
    (bump (has id CAN_ERR_RESTARTED) (err_restarted s)).

(** The member changed in SocketCANInterface.cpp line 179. *)
Definition set_dropped (d : Z) (s : stats) : stats :=
  Stats (rx_total s) d (err_tx_timeout s) (err_lostarb s) (err_crtl s) (err_prot s) (err_trx s)
        (err_ack s) (err_bussoff s) (err_buserror s) (err_restarted s).
(** SocketCANInterface.cpp line 252. *)
Definition add_total (n : Z) (s : stats) : stats :=
  Stats (u64 (rx_total s + n)) (rx_dropped s) (err_tx_timeout s) (err_lostarb s) (err_crtl s) (err_prot s) (err_trx s)
        (err_ack s) (err_bussoff s) (err_buserror s) (err_restarted s).

(** SocketCANInterface.cpp lines 159-251: the loop over received messages, from slot [i]. [buf] holds the frames the kernel delivered, [out]
    the caller's array and [k] out_frames_read. *)
Fixpoint read_loop (msgs : list kmsg) (i : nat) (buf : list canfd) (st : stats) (out : list frame) (k : nat)
  : outcome (stats * list frame * nat) :=
  match msgs with
  | [] => Ret (st, out, k)
  | m :: rest =>
      match nth_error buf i, nth_error out k with
      | Some c, Some old =>
          let '(ts, dropped) := cmsg_loop (km_controllen m) (km_cmsgs m) 0 (rx_dropped st) in
          let st1 := set_dropped dropped st in
          if has (cf_id c) CAN_ERR_FLAG
          then read_loop rest (S i) buf (count_error (cf_id c) st1) out k
          else if has (cf_id c) CAN_EFF_MASK
          then let* tmp := frame_make mtu (cf_id c) (Some (cf_data c)) (get_message_length c) ts in
               let* f := frame_assign mtu old tmp in
               read_loop rest (S i) buf st1 (replace_nth k f out) (S k)
          else read_loop rest (S i) buf st1 out k
      | _, _ => UB
      end
  end.

(** What a read call did. The outputs of SocketCANInterface.cpp lines 141-254. *)
Record read_out : Type := ReadOut { rd_if : iface; rd_result : result; rd_count : nat; rd_frames : list frame }.

(** SocketCANInterface.cpp lines 141-254. [res] and [errno] are what recvmmsg answers and [msgs] the messages it delivered, the first in slot
    0. Messages beyond the fourth slot are not looked at (line 159). *)
Definition read (res errno : Z) (msgs : list kmsg) (s : iface) (out : list frame) : outcome read_out :=
  if res <=? 0
  then Ret (ReadOut s (if (res <? 0) && (errno =? EWOULDBLOCK) then SuccessNothing else UnknownInternalError) 0 out)
  else
    let seen := firstn RxFramesLen (firstn (Z.to_nat res) msgs) in
    let buf := receive_all seen (if_buf s) in
    let* (st, out', k) := read_loop seen 0 buf (if_stats s) out 0 in
    Ret (ReadOut (Iface (if_index s) (if_name s) (if_fd s) (add_total (Z.of_nat k mod 2 ^ 32) st) buf
                        (receive_ctl seen (if_ctl s)))
                 Success k out').

(** ** Histories of one interface *)
(** A call of one of the two functions of SocketCANInterface.cpp lines 96-254 with what the kernel answers it. *)
Inductive call : Type :=
| CallWrite (sendmmsg : list canfd -> Z * Z) (frames : list frame) (n : nat)
| CallRead (res errno : Z) (msgs : list kmsg) (out : list frame).

(** What a call of SocketCANInterface.cpp lines 96-254 did. *)
Inductive reply : Type :=
| RepWrite (w : write_out)
| RepRead (r : read_out).

(** One call, SocketCANInterface.cpp lines 96-139 and 141-254. *)
Definition do_call (c : call) (s : iface) : outcome (reply * iface) :=
  match c with
  | CallWrite k fs n => let* w := write k s fs n in Ret (RepWrite w, wr_if w)
  | CallRead res errno msgs out => let* r := read res errno msgs s out in Ret (RepRead r, rd_if r)
  end.

(** Any sequence of calls of SocketCANInterface.cpp lines 96-254 on one interface. *)
Fixpoint do_calls (cs : list call) (s : iface) : outcome (list reply * iface) :=
  match cs with
  | [] => Ret ([], s)
  | c :: rest =>
      let* (r, s1) := do_call c s in
      let* (rs, s2) := do_calls rest s1 in
      Ret (r :: rs, s2)
  end.
