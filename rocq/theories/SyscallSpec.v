(** Specification vocabulary for the system calls of the media layer: what they do to the process's sockets, which of them may
    wait, and programs. *)
From Coq Require Import ZArith Bool String Ascii List.
From Verif Require Import Outcome ResultModel CInt CanFrameModel SocketCanModel SocketCanSpec GroupModel GroupSpec ManagerModel ManagerSpec
  ClientModel ClientSpec SyscallModel.
Import ListNotations.
Open Scope Z_scope.

(** An open socket: the family, type and protocol it was created with, the address it is bound to (family and index of the
    device), the options that were set (most recent first: level, option, value), and its receive filters ([None]: as created). *)
Record sock : Type := Sock {
  so_kind : Z * Z * Z; so_bound : option (Z * Z); so_options : list (Z * Z * Z); so_filters : option (list kfilter)
}.
Definition so_type (s : sock) : Z := snd (fst (so_kind s)).

(** What a call with its answer does to descriptor [fd]; [None] is a descriptor that is not an open socket. A call that
    answers a failure changes nothing. *)
Definition effect (fd : Z) (st : option sock) (e : syscall * answer) : option sock :=
  match e with
  | (Sys_socket f t p, (s, _)) => if (s =? fd) && (0 <=? s) then Some (Sock (f, t, p) None [] None) else st
  | (Sys_setsockopt d l o v, (r, _)) =>
      if (d =? fd) && (r =? 0)
      then option_map (fun s => Sock (so_kind s) (so_bound s) ((l, o, v) :: so_options s) (so_filters s)) st else st
  | (Sys_filter d fs optlen, (r, _)) =>
      if (d =? fd) && (r =? 0)
      then option_map (fun s => Sock (so_kind s) (so_bound s) (so_options s) (Some (firstn (Z.to_nat (optlen / 8)) fs))) st else st
  | (Sys_bind d f i, (r, _)) =>
      if (d =? fd) && (0 <=? r) then option_map (fun s => Sock (so_kind s) (Some (f, i)) (so_options s) (so_filters s)) st else st
  | (Sys_close d, _) => if d =? fd then None else st
  | _ => st
  end.

(** The socket behind a descriptor after these calls. *)
Definition sock_at (tr : trace) (fd : Z) : option sock := fold_left (effect fd) tr None.
Definition is_open (tr : trace) (fd : Z) : Prop := sock_at tr fd <> None.

(** The value an option was last set to, [None] if it was not set. *)
Fixpoint option_value (l o : Z) (set : list (Z * Z * Z)) : option Z :=
  match set with
  | [] => None
  | (l', o', v) :: t => if (l =? l') && (o =? o') then Some v else option_value l o t
  end.

(** The text in a buffer: what precedes the first NUL. *)
Fixpoint text (buffer : list ascii) : string :=
  match buffer with
  | [] => EmptyString
  | c :: t => if Ascii.eqb c zero then EmptyString else String c (text t)
  end.

(** A name a device can have. *)
Fixpoint no_nul (s : string) : Prop := match s with EmptyString => True | String c t => c <> zero /\ no_nul t end.

(** A system that never hands out a descriptor that is open: neither one of [live], those open at the beginning, nor a socket
    of the program. *)
Definition proper (live : list Z) (k : system) : Prop :=
  forall tr f t p, let s := fst (k tr (Sys_socket f t p)) in 0 <= s -> ~ In s live /\ ~ is_open tr s.

(** A system that looks device names up (request SIOCGIFINDEX, 0x8933): [devices name index] says that there is, or was, a device with this name and index. *)
Definition looks_up (devices : string -> Z -> Prop) (k : system) : Prop :=
  forall tr fd buffer, 0 <= fst (k tr (Sys_ioctl fd 0x8933 buffer)) ->
    devices (text buffer) (snd (k tr (Sys_ioctl fd 0x8933 buffer))).

(** A system that supports every socket option. *)
Definition grants (k : system) : Prop := forall tr fd l o v, fst (k tr (Sys_setsockopt fd l o v)) = 0.

(** The descriptors a call is given. *)
Definition uses (c : syscall) : list Z :=
  match c with
  | Sys_socket _ _ _ => []
  | Sys_setsockopt fd _ _ _ | Sys_filter fd _ _ | Sys_ioctl fd _ _ | Sys_bind fd _ _ | Sys_so_error fd | Sys_close fd
  | Sys_sendmmsg fd _ _ _ | Sys_recvmmsg fd _ _ => [fd]
  | Sys_ppoll fds _ _ => map fst fds
  end.

(** The calls that may put the caller to sleep until something happens: transfers that neither the flags nor the socket's type
    (sys/socket.h SOCK_NONBLOCK, 0x800) make non-blocking, and ppoll. *)
Definition nonblocking (flags : Z) (st : option sock) : Prop :=
  Z.testbit flags 6 = true \/ match st with Some s => Z.testbit (so_type s) 11 = true | None => True end.
Definition may_wait (tr : trace) (c : syscall) : Prop :=
  match c with
  | Sys_sendmmsg fd _ _ flags | Sys_recvmmsg fd _ flags => ~ nonblocking flags (sock_at tr fd)
  | Sys_ppoll _ _ _ => True
  | _ => False
  end.

(** Calls within the interface's contract, as in ClientSpec.v. The messages that come with a read are those the system says it
    delivers (0x40 is MSG_DONTWAIT). *)
Definition permitted (k : system) (o : operation) (p : option group) (tr : trace) : Prop :=
  match o with
  | Op_start configs num => configs_ok configs num
  | Op_stop => True
  | Op_reconfigure configs num => p <> None /\ configs_ok configs num
  | Op_write i fs n => p <> None /\ 0 <= i <= 255 /\ frames_typed fs /\ (n <= 4)%nat
  | Op_read msgs i out =>
      p <> None /\ 0 <= i <= 255 /\ frames_typed out /\ Forall kmsg_typed msgs /\
      forall g s, p = Some g -> nth_error g (Z.to_nat i) = Some s ->
        recv_ok (fst (k tr (Sys_recvmmsg (getSocketDescriptor s) 4 0x40))) msgs
  | Op_select _ _ _ => p <> None
  end.

(** What a program has done, most recent first, the group it owns and the system calls that were made. It begins with a null
    pointer. *)
Inductive run (P : platform) (k : system) (m : manager) : list (operation * response) -> option group -> trace -> Prop :=
| r_begin : run P k m [] None []
| r_step : forall h p tr o fuel r p' tr', run P k m h p tr -> permitted k o p tr ->
    step P fuel k m o p tr = Some (Ret (r, p', tr')) -> run P k m ((o, r) :: h) p' tr'.

(** A call of ClientModel.v is the same as one of SyscallModel.v up to what the system answers. *)
Definition same_call (o : operation) (c : call) : Prop :=
  match o, c with
  | Op_start configs num, Start configs' num' _ => configs' = configs /\ num' = num
  | Op_stop, Stop => True
  | Op_reconfigure configs num, Reconfigure _ configs' num' => configs' = configs /\ num' = num
  | Op_write i fs n, Write _ i' fs' n' => i' = i /\ fs' = fs /\ n' = n
  | Op_read msgs i out, Read _ _ msgs' i' out' => msgs' = msgs /\ i' = i /\ out' = out
  | _, _ => False
  end.

(** The same calls with the same replies; select does not appear in ClientModel.v. *)
Inductive same_calls : list (operation * response) -> list (call * reply) -> Prop :=
| sc_nil : same_calls [] []
| sc_call : forall o r c h h', same_calls h h' -> same_call o c -> same_calls ((o, Answered r) :: h) ((c, r) :: h')
| sc_select : forall t i v r h h', same_calls h h' -> same_calls ((Op_select t i v, Selected r) :: h) h'.

(** The world of ManagerModel.v after these calls: descriptors opened and closed, oldest first, and filters, most recent first. *)
Fixpoint events (tr : trace) : list event :=
  match tr with
  | [] => []
  | (Sys_socket _ _ _, (s, _)) :: t => if 0 <=? s then Opened s :: events t else events t
  | (Sys_close d, _) :: t => Closed d :: events t
  | _ :: t => events t
  end.
Fixpoint filters_set (tr : trace) : filter_log :=
  match tr with
  | [] => []
  | (Sys_filter d fs optlen, (r, _)) :: t =>
      filters_set t ++ (if r =? 0 then [(d, firstn (Z.to_nat (optlen / 8)) fs)] else [])
  | _ :: t => filters_set t
  end.
Definition world_of (tr : trace) : world := World (events tr) (filters_set tr).

(** The operations that wait: writing at least one frame to an interface there is, and select. *)
Definition waiting (o : operation) (p : option group) : Prop :=
  match o with
  | Op_write i _ n => (1 <= n)%nat /\ exists g, p = Some g /\ i < Z.of_nat (length g)
  | Op_select _ _ _ => True
  | _ => False
  end.
