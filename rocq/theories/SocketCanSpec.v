(** Specification vocabulary for the SocketCAN interface: how Linux describes CAN frames, and what the kernel promises. *)
From Coq Require Import ZArith Bool String List.
From Verif Require Import Outcome ResultModel CanFrameModel CanFrameSpec SocketCanModel.
Import ListNotations.
Open Scope Z_scope.

(** Linux SocketCAN identifier word: bits 0-28 identifier, bit 29 error message, bit 30 remote request, bit 31 extended
    (29-bit) format. *)
Definition is_error (w : Z) : bool := Z.testbit w 29.
Definition is_remote (w : Z) : bool := Z.testbit w 30.
Definition is_extended (w : Z) : bool := Z.testbit w 31.
Definition identifier (w : Z) : Z := w mod 2 ^ 29.
Definition extended_data_frame (w : Z) : bool := is_extended w && negb (is_error w) && negb (is_remote w).

(** The error classes counted by the statistics: the bit of an error message's identifier word (linux/can/error.h: tx
    timeout, lost arbitration, controller, protocol, transceiver, no ack, bus off, bus error, restarted). *)
Inductive err_class := TxTimeout | LostArb | Crtl | Prot | Trx | Ack | BusOff | BusError | Restarted.
Definition class_bit (e : err_class) : Z :=
  match e with
  | TxTimeout => 0 | LostArb => 1 | Crtl => 2 | Prot => 3 | Trx => 4 | Ack => 5 | BusOff => 6 | BusError => 7
  | Restarted => 8
  end.
Definition counter (e : err_class) (s : stats) : Z :=
  match e with
  | TxTimeout => err_tx_timeout s | LostArb => err_lostarb s | Crtl => err_crtl s | Prot => err_prot s
  | Trx => err_trx s | Ack => err_ack s | BusOff => err_bussoff s | BusError => err_buserror s
  | Restarted => err_restarted s
  end.

(** ** Objects of the C++ types *)
Definition canfd_typed (c : canfd) : Prop :=
  0 <= cf_id c < 2 ^ 32 /\ 0 <= cf_len c < 256 /\ length (cf_data c) = 64%nat.
Definition iface_typed (s : iface) : Prop :=
  length (if_buf s) = 4%nat /\ Forall canfd_typed (if_buf s) /\ length (if_ctl s) = 4%nat.
(** An array of four frames (FrameType has an MTU of 64 and the code is an unsigned 8-bit value). *)
Definition frames_typed (fs : list frame) : Prop :=
  length fs = 4%nat /\ Forall (fun f => frame_typed 64 f /\ fdlc f < 256) fs.

(** ** What the kernel promises *)
(** A message is an identifier word, a length byte, and at most 64 bytes written to the buffer; if there is any control
    message then the space they use is at least one header. *)
Definition kmsg_typed (m : kmsg) : Prop :=
  0 <= km_id m < 2 ^ 32 /\ 0 <= km_len m < 256 /\ (length (km_bytes m) <= 64)%nat /\
  (km_cmsgs m <> [] -> 16 <= km_controllen m).
(** recvmmsg, asked for at most four messages, delivers as many messages as it says. *)
Definition recv_ok (res : Z) (msgs : list kmsg) : Prop :=
  res <= 4 /\ Forall kmsg_typed msgs /\ (0 < res -> Z.of_nat (length msgs) = res).
(** sendmmsg never reports more messages than it was given. *)
Definition send_ok (sendmmsg : list canfd -> Z * Z) : Prop :=
  forall msgs, fst (sendmmsg msgs) <= Z.of_nat (length msgs).

(** The receive time the kernel attached to a message, in microseconds modulo 2^64: that of the last timestamp control
    message; 0 if there is none. *)
Definition timestamps (m : kmsg) : list (Z * Z) :=
  map cm_tv (List.filter (fun c => (cm_level c =? SOL_SOCKET) && (cm_type c =? SO_TIMESTAMP)) (km_cmsgs m)).
Definition stamp (m : kmsg) : Z :=
  match rev (timestamps m) with
  | [] => 0
  | (sec, usec) :: _ => (sec * 1000000 + usec) mod 2 ^ 64
  end.

(** Bytes of the frame as it is on the wire: the kernel takes the first [len] data bytes. *)
Definition wire_payload (c : canfd) : list Z := firstn (Z.to_nat (cf_len c)) (cf_data c).
Definition payload (f : frame) : list Z := firstn (Z.to_nat (getDataLength f)) (fdata f).

(** [f] is the frame received as message [m]: same identifier word, the kernel's time, the message's length as length
    code, and the received bytes. *)
Definition delivered_frame (m : kmsg) (f : frame) : Prop :=
  fid f = km_id m /\ fts f = stamp m /\ fdlc f = km_len m /\
  (forall i, Z.of_nat i < getDataLength f -> (i < length (km_bytes m))%nat -> nth i (fdata f) 0 = nth i (km_bytes m) 0).

(** The kernel hands back what it was given, all 64 bytes, with any control messages. *)
Definition looped (c : canfd) (cms : list cmsg) (cl : Z) : kmsg := KMsg (cf_id c) (cf_len c) (cf_data c) cms cl.

(** Looping back a list of messages, each with its own control messages. *)
Fixpoint zip_looped (cs : list canfd) (ex : list (list cmsg * Z)) : list kmsg :=
  match cs, ex with
  | c :: cs', e :: ex' => looped c (fst e) (snd e) :: zip_looped cs' ex'
  | _, _ => []
  end.

(** A control message by which the kernel reports dropped frames. *)
Definition is_drop (c : cmsg) : bool := (cm_level c =? SOL_SOCKET) && (cm_type c =? SO_RXQ_OVFL) && (4 <=? cm_len c).

(** ** Histories *)
Definition call_ok (c : call) : Prop :=
  match c with
  | CallWrite k fs n => send_ok k /\ frames_typed fs /\ (n <= 4)%nat
  | CallRead res errno msgs out => recv_ok res msgs /\ frames_typed out
  end.

(** Number of frames handed to the caller by the reads of a history. *)
Fixpoint delivered (rs : list reply) : Z :=
  match rs with
  | [] => 0
  | RepRead r :: t => Z.of_nat (rd_count r) + delivered t
  | RepWrite _ :: t => delivered t
  end.

(** The messages the kernel delivered in a history. *)
Fixpoint received (cs : list call) : list kmsg :=
  match cs with
  | [] => []
  | CallRead res _ msgs _ :: t => (if 0 <? res then msgs else []) ++ received t
  | CallWrite _ _ _ :: t => received t
  end.

(** Number of error messages with a given error bit. *)
Definition errors_with (bit : Z) (ms : list kmsg) : Z :=
  Z.of_nat (length (List.filter (fun m => is_error (km_id m) && Z.testbit (km_id m) bit) ms)).

(** ** Linux ancillary data (net/core/scm.c put_cmsg, net/socket.c sock_recv_timestamp and sock_recv_drops).
    The kernel appends control messages while they fit in what is left of the caller's msg_controllen: a message that does
    not fit is cut short, and none is stored when not even its header fits. Afterwards it sets msg_controllen to the
    number of bytes used. *)
Record skb : Type := Skb {
  sk_id : Z; sk_len : Z; sk_bytes : list Z;
  sk_stamp : option (Z * Z);  (** receive time, if the socket option SO_TIMESTAMP is on *)
  sk_drops : Z                (** frames the socket has dropped so far; reported if non-zero and SO_RXQ_OVFL is on *)
}.

Definition align8 (n : Z) : Z := (n + 7) / 8 * 8.

(** Space left and messages so far; returns the same. [datalen] is the size of the data. *)
Definition put_cmsg (left : Z) (datalen : Z) (mk : Z -> cmsg) (acc : list cmsg) : Z * list cmsg :=
  if left <? sizeof_cmsghdr then (left, acc)
  else
    let cmlen := Z.min (sizeof_cmsghdr + datalen) left in
    (left - Z.min (align8 (sizeof_cmsghdr + datalen)) left, acc ++ [mk cmlen]).

(** [stale] is the number already in memory where the microseconds of a cut-short timestamp would have been. *)
Definition kernel_msg (stale : Z) (controllen : Z) (k : skb) : kmsg :=
  let '(l1, c1) :=
    match sk_stamp k with
    | None => (controllen, [])
    | Some (sec, usec) =>
        put_cmsg controllen sizeof_timeval
          (fun len => CMsg SOL_SOCKET SO_TIMESTAMP len (sec, if len <? sizeof_cmsghdr + sizeof_timeval then stale else usec) 0)
          []
    end in
  let '(l2, c2) :=
    if sk_drops k =? 0 then (l1, c1)
    else put_cmsg l1 4 (fun len => CMsg SOL_SOCKET SO_RXQ_OVFL len (0, 0) (sk_drops k)) c1 in
  KMsg (sk_id k) (sk_len k) (sk_bytes k) c2 (controllen - l2).

Definition skb_typed (k : skb) : Prop :=
  0 <= sk_id k < 2 ^ 32 /\ 0 <= sk_len k < 256 /\ (length (sk_bytes k) <= 64)%nat /\ 0 <= sk_drops k < 2 ^ 32.

(** The kernel's answer to one recvmmsg with messages [ks] waiting (at most four are taken), given the control lengths
    the interface passed in. *)
Fixpoint kernel_msgs (stale : Z) (ctl : list Z) (ks : list skb) : list kmsg :=
  match ctl, ks with
  | c :: ctl', k :: ks' => kernel_msg stale c k :: kernel_msgs stale ctl' ks'
  | _, _ => []
  end.

(** A read of the messages [ks] (empty: nothing waiting) by this kernel. *)
Definition kernel_read (stale : Z) (ks : list skb) (s : iface) (out : list frame) : outcome read_out :=
  match ks with
  | [] => read (-1) EAGAIN [] s out
  | _ => let ms := kernel_msgs stale (if_ctl s) ks in read (Z.of_nat (length ms)) 0 ms s out
  end.

Fixpoint kernel_reads (hist : list (Z * list skb * list frame)) (s : iface) : outcome (list read_out * iface) :=
  match hist with
  | [] => Ret ([], s)
  | (stale, ks, out) :: rest =>
      let* r := kernel_read stale ks s out in
      let* (rs, s') := kernel_reads rest (rd_if r) in
      Ret (r :: rs, s')
  end.

(** The kernel stamps every message (socket option SO_TIMESTAMP is on). *)
Definition stamped (k : skb) : Prop := sk_stamp k <> None.

(** One read of a run in which every message is stamped: unspecified memory, waiting messages, the caller's array. *)
Definition run_ok (h : Z * list skb * list frame) : Prop :=
  let '(stale, ks, out) := h in Forall skb_typed ks /\ Forall stamped ks /\ frames_typed out.

