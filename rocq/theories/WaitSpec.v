(** Specification vocabulary for waiting for messages: what Linux's poll says about a CAN socket. *)
From Coq Require Import ZArith Bool String List.
From Verif Require Import Outcome ResultModel CanFrameModel SocketCanModel SocketCanSpec GroupModel GroupSpec ManagerModel ManagerSpec
  ClientModel ClientSpec TrafficSpec.
Import ListNotations.
Open Scope Z_scope.

(** What ppoll may answer, when the sockets' queues are those of [k] and [writable] have room for transmission: it fails, or it
    answers how many sockets have events, and the events of each. A socket has the event POLLIN (bit 0) if that was requested
    and its queue is not empty, and POLLOUT (bit 2) if that was requested and it is writable. Events that were not requested
    are reported only if they are POLLERR, POLLHUP or POLLNVAL (bits 3, 4, 5). (net/core/datagram.c datagram_poll,
    fs/select.c do_pollfd.) *)
Definition has_event (rv : Z) : bool := negb (rv =? 0).
Definition polls (k : sockets) (writable : Z -> Prop) (req : poll_request) (answer : Z * list Z) : Prop :=
  fst answer < 0 \/
  (fst answer = Z.of_nat (length (List.filter has_event (snd answer))) /\
   Forall2 (fun fe rv =>
     0 <= rv /\
     (Z.testbit rv 0 = true <-> Z.testbit (snd fe) 0 = true /\ waiting k (fst fe) <> []) /\
     (Z.testbit rv 2 = true <-> Z.testbit (snd fe) 2 = true /\ writable (fst fe)) /\
     (forall b, Z.testbit rv b = true -> Z.testbit (snd fe) b = true \/ b = 3 \/ b = 4 \/ b = 5)) (pr_fds req) (snd answer)).
