(** Specification vocabulary for the ancillary data of the messages that are sent. *)
From Coq Require Import ZArith Bool String List.
From Verif Require Import Outcome ResultModel CanFrameModel SocketCanModel SocketCanSpec ControlModel.
Import ListNotations.
Open Scope Z_scope.

(** Four control buffers of 32 bytes each. *)
Definition memory_typed (memory : list (list Z)) : Prop := length memory = 4%nat /\ Forall (fun b => length b = 32%nat) memory.

(** What the kernel promises: as many bytes of ancillary data as it says, and not more than a buffer holds. *)
Definition came_with (x : kmsg * list Z) : Prop := km_controllen (fst x) = Z.of_nat (length (snd x)) /\ (length (snd x) <= 32)%nat.
Definition ccall_ok (c : ccall) : Prop :=
  match c with
  | CWrite k fs n => frames_typed fs /\ (n <= 4)%nat
  | CRead res errno msgs out => recv_ok res (map fst msgs) /\ frames_typed out /\ Forall came_with msgs
  end.

(** The messages that were received as the [i]-th of a call of read, with the ancillary data they came with. *)
Definition received_in (i : nat) (cs : list ccall) : list (kmsg * list Z) :=
  flat_map (fun c => match c with
    | CRead res errno msgs out => if 0 <? res then match nth_error msgs i with Some x => [x] | None => [] end else []
    | CWrite _ _ _ => []
    end) cs.

(** The last element of a list. *)
Definition latest {A} (l : list A) : option A := last (map Some l) None.

(** Little-endian numbers. *)
Fixpoint bytes_of (n : nat) (z : Z) : list Z := match n with O => [] | S k => z mod 256 :: bytes_of k (z / 256) end.
Definition value (bs : list Z) : Z := fold_right (fun b rest => b + 256 * rest) 0 bs.

(** ** Linux: struct cmsghdr and the ancillary data that the kernel stores with a received message whose socket has the option
    SO_TIMESTAMP (SocketCanSpec.v has the same without the representation as bytes). *)
Definition timestamp_bytes (sec usec : Z) : list Z :=
  bytes_of 8 32 ++ bytes_of 4 SOL_SOCKET ++ bytes_of 4 SO_TIMESTAMP ++ bytes_of 8 sec ++ bytes_of 8 usec.
Definition stamped_message (x : kmsg * list Z) : Prop :=
  exists stale k sec usec, sk_stamp k = Some (sec, usec) /\ fst x = kernel_msg stale 32 k /\ snd x = timestamp_bytes sec usec.
Definition stamped_call (c : ccall) : Prop :=
  match c with CWrite _ _ _ => True | CRead _ _ msgs _ => Forall stamped_message msgs end.

(** Linux, net/core/sock.c sock_cmsg_send, which raw_sendmsg of net/can/raw.c calls in recent kernels: ancillary data is
    examined header by header. A length that is less than a header or more than what is left is an error; headers of other
    levels are ignored; of those of the level SOL_SOCKET each kernel understands some types with the right data. *)
Fixpoint sendable (fuel : nat) (understood : Z -> list Z -> bool) (b : list Z) : bool :=
  match fuel with
  | O => true
  | S more =>
      if (length b <? 16)%nat then true
      else
        let len := value (firstn 8 b) in
        let level := value (firstn 4 (skipn 8 b)) in
        let type := value (firstn 4 (skipn 12 b)) in
        (16 <=? len) && (len <=? Z.of_nat (length b)) &&
        ((negb (level =? SOL_SOCKET)) || understood type (firstn (Z.to_nat len - 16) (skipn 16 b))) &&
        sendable more understood (skipn (Z.to_nat (align8 len)) b)
  end.
Definition EINVAL : Z := 22.
(** A kernel that examines ancillary data: if that of the first message is not sendable, sendmmsg fails. None understands a
    receive time as something to send. *)
Definition examining (understood : Z -> list Z -> bool) (sendmmsg : list (canfd * list Z) -> Z * Z) : Prop :=
  (forall data, understood SO_TIMESTAMP data = false) /\
  forall c a rest, sendable (length a) understood a = false -> sendmmsg ((c, a) :: rest) = (-1, EINVAL).
