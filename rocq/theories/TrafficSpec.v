(** Specification vocabulary for the traffic a program sees: what Linux keeps for a socket between its arrival and the read.
    Linux (net/can/raw.c, raw_rcv) applies a socket's filters when a message arrives; what passes waits in the socket's queue,
    in order, until it is read. A socket receives everything from the moment it is bound until filters are installed. *)
From Coq Require Import ZArith Bool String List.
From Verif Require Import Outcome ResultModel CanFrameModel SocketCanModel SocketCanSpec GroupModel GroupSpec ManagerModel ManagerSpec
  ClientModel ClientSpec.
Import ListNotations.
Open Scope Z_scope.

(** A message without what is attached to it when it is read. *)
Record packet : Type := Packet { pk_id : Z; pk_len : Z; pk_bytes : list Z }.
Definition packet_of (k : kmsg) : packet := Packet (km_id k) (km_len k) (km_bytes k).

(** For each socket: all that was ever put into its queue, and what is still there. *)
Record sockets : Type := Sockets { arrived : Z -> list packet; waiting : Z -> list packet }.
Definition update (f : Z -> list packet) (fd : Z) (v : list packet) : Z -> list packet := fun x => if x =? fd then v else f x.

(** The socket's filters let a message pass; error messages are not subject to them. *)
Definition admits (log : filter_log) (fd : Z) (p : packet) : Prop :=
  is_error (pk_id p) = true \/
  exists kfs, filters_of fd log = Some kfs /\ kernel_passes kfs (pk_id p) = true.

(** What recvmmsg may answer on a queue [q], and what it leaves: the first messages of the queue, or an error; it does not
    answer that there is nothing while there is something. *)
Definition receives (q : list packet) (res errno : Z) (msgs : list kmsg) (rest : list packet) : Prop :=
  (0 < res /\ q = map packet_of msgs ++ rest /\ Z.of_nat (length msgs) = res) \/
  (res <= 0 /\ rest = q /\ (res < 0 -> errno = EWOULDBLOCK -> q = [])).

(** The queues before and after a call. The queues of the sockets of a new group contain anything that arrived between the
    moments at which they were bound and at which their filters were installed. *)
Definition effect (o : call) (r : reply) (c : client) (k k' : sockets) : Prop :=
  match o, r with
  | Start _ _ _, Started r => if isSuccess r then forall fd, waiting k' fd = arrived k' fd else k' = k
  | Read res errno msgs i _, _ =>
      match cl_group c with
      | None => False
      | Some g =>
          match nth_error g (Z.to_nat i) with
          | None => k' = k
          | Some s => exists rest, receives (waiting k (getSocketDescriptor s)) res errno msgs rest /\
                        k' = Sockets (arrived k) (update (waiting k) (getSocketDescriptor s) rest)
          end
      end
  | _, _ => k' = k
  end.

(** The states a program and its sockets can reach: calls (ClientSpec.v), and between them arrivals of messages that pass the
    filters in force. (An arrival during a call that installs filters is one before or after it, because each socket's
    filters are replaced at once; one that the kernel drops because the queue is full is none.) *)
Inductive life (live : list Z) (m : manager) : list (call * reply) -> client -> sockets -> Prop :=
| life_begin : life live m [] (Client None (World [] [])) (Sockets (fun _ => []) (fun _ => []))
| life_arrival : forall h c k fd p, life live m h c k -> In fd (owned (cl_group c)) -> admits (w_filters (cl_world c)) fd p ->
    life live m h c (Sockets (update (arrived k) fd (arrived k fd ++ [p])) (update (waiting k) fd (waiting k fd ++ [p])))
| life_call : forall h c k o fuel r c' k', life live m h c k -> legal live o c -> perform fuel m o c = Some (Ret (r, c')) ->
    effect o r c k k' -> life live m ((o, r) :: h) c' k'.

(** Since the filters were last configured, a read of interface [i] has answered that nothing is there. *)
Fixpoint drained (i : Z) (h : list (call * reply)) : Prop :=
  match h with
  | [] => False
  | (Start _ _ _, Started r) :: t => if isSuccess r then False else drained i t
  | (Stop, _) :: _ => False
  | (Reconfigure _ _ _, _) :: _ => False
  | (Read _ _ _ j _, WasRead r _ _) :: t => (j = i /\ r = SuccessNothing) \/ drained i t
  | _ :: t => drained i t
  end.

(** The frames read from interface [i] since the group was started, in order. *)
Fixpoint frames_read (i : Z) (h : list (call * reply)) : list frame :=
  match h with
  | [] => []
  | (Start _ _ _, Started r) :: t => if isSuccess r then [] else frames_read i t
  | (Stop, _) :: _ => []
  | (Read _ _ _ j _, WasRead _ count fs) :: t => frames_read i t ++ (if j =? i then firstn (Z.to_nat count) fs else [])
  | _ :: t => frames_read i t
  end.

(** Messages that the interface hands on: no error messages, and none with the identifier 0 (C58). *)
Definition readable (p : packet) : bool := negb (is_error (pk_id p)) && negb (identifier (pk_id p) =? 0).

(** The frame shows the message: its identifier word, its length as length code, its bytes. *)
Definition shows (p : packet) (f : frame) : Prop :=
  fid f = pk_id p /\ fdlc f = pk_len p /\
  (forall i, Z.of_nat i < getDataLength f -> (i < length (pk_bytes p))%nat -> nth i (fdata f) 0 = nth i (pk_bytes p) 0).

(** A call that leaves the group and its filters as they are: it starts no group with success, stops none and configures
    nothing. *)
Definition leaves_filters (e : call * reply) : Prop :=
  match e with
  | (Start _ _ _, Started r) => isSuccess r = false
  | (Stop, _) | (Reconfigure _ _ _, _) => False
  | _ => True
  end.

(** From a state of a program and its sockets to a later one, with the calls made in between, most recent first; none of them
    changes filters. *)
Inductive goes_on (live : list Z) (m : manager) (c0 : client) (k0 : sockets) : list (call * reply) -> client -> sockets -> Prop :=
| on_here : goes_on live m c0 k0 [] c0 k0
| on_arrival : forall h c k fd p, goes_on live m c0 k0 h c k -> In fd (owned (cl_group c)) -> admits (w_filters (cl_world c)) fd p ->
    goes_on live m c0 k0 h c (Sockets (update (arrived k) fd (arrived k fd ++ [p])) (update (waiting k) fd (waiting k fd ++ [p])))
| on_call : forall h c k o fuel r c' k', goes_on live m c0 k0 h c k -> legal live o c -> perform fuel m o c = Some (Ret (r, c')) ->
    effect o r c k k' -> leaves_filters (o, r) -> goes_on live m c0 k0 ((o, r) :: h) c' k'.
