(** The system calls of the media layer: which of them wait (C130), what the sockets are bound to (C131), which descriptors are
    used (C132). *)
From Coq Require Import ZArith Bool String Ascii List Lia.
From Verif Require Import Outcome ResultModel CInt CanFrameModel SatMathSpec SocketCanModel SocketCanSpec GroupModel GroupSpec ManagerModel ManagerSpec
  ClientModel ClientSpec SyscallModel SyscallSpec SyscallProofs.
Import ListNotations.
Open Scope Z_scope.

(** A system that gives out descriptors above all it ever gave out, knows a device "can0" with index 7 and lets every call
    succeed, except that there is never anything to read. *)
Definition highest (tr : trace) : Z :=
  fold_left (fun h e => match e with (Sys_socket _ _ _, (s, _)) => Z.max h s | _ => h end) tr 2.
Definition can0 : string := "can0".
Definition example_system : system := fun tr c =>
  match c with
  | Sys_socket _ _ _ => (highest tr + 1, 0)
  | Sys_ioctl _ _ name => if String.eqb (text name) can0 then (0, 7) else (-1, -1)
  | Sys_sendmmsg _ _ vlen _ => (vlen, 0)
  | Sys_recvmmsg _ _ _ => (-1, EAGAIN)
  | _ => (0, 0)
  end.
Definition example_manager : manager := Manager [can0; "vcan5"%string] true false.
Definition example_frame : frame := Frame 0x123 ([1; 2; 3] ++ repeat 0 61) 3 0.
Definition example_filters : option (list filter) := Some [Filter 0x120 0xFF0].

Lemma highest_open : forall tr d, is_open tr d -> d <= highest tr.
Proof.
  unfold is_open. intros tr. induction tr as [|[c [x y]] tr IH] using rev_ind; intros d O.
  - exfalso. apply O. reflexivity.
  - rewrite sock_app in O. unfold highest in *. rewrite fold_left_app. cbn [fold_left]. specialize (IH d).
    destruct c; cbn [effect] in O; auto;
      try (destruct (_ && _) in O; [|auto]; destruct (sock_at tr d); cbn in O; [|congruence]; apply IH; discriminate).
    + destruct ((x =? d) && (0 <=? x)) eqn:E; [lia|]. specialize (IH O). lia.
    + destruct (fd =? d); [congruence|auto].
Qed.

Lemma highest_least : forall tr, 2 <= highest tr.
Proof.
  unfold highest. intros tr. induction tr as [|[c [x y]] tr IH] using rev_ind; [cbn; lia|].
  rewrite fold_left_app. cbn [fold_left]. destruct c; auto. lia.
Qed.

Lemma example_proper : proper [0; 1; 2] example_system.
Proof.
  intros tr f t p. cbn. intros _. pose proof (highest_least tr). split; [lia|]. intros O. apply highest_open in O. lia.
Qed.

Lemma example_looks_up : looks_up (fun name i => name = can0 /\ i = 7) example_system.
Proof.
  intros tr fd buffer. cbn. destruct (String.eqb (text buffer) can0) eqn:E; cbn; [|lia]. apply String.eqb_eq in E. auto.
Qed.

(** A program that starts its interfaces, writes a frame, reads, changes its filters, waits and stops. *)
Definition example_ops : list operation :=
  [Op_start example_filters 1; Op_write 0 (repeat example_frame 4) 2; Op_read [] 0 (repeat (frame_default 64) 4);
   Op_reconfigure example_filters 0; Op_select 1000000 true [0]; Op_stop].
Definition do_op (s : option group * trace) (o : operation) : option group * trace :=
  match step lp64_wrapping 8 example_system example_manager o (fst s) (snd s) with Some (Ret (_, p, tr)) => (p, tr) | _ => s end.
Definition after (n : nat) : option group * trace := fold_left do_op (firstn n example_ops) (None, []).


Lemma example_frames : frames_typed (repeat example_frame 4).
Proof.
  split; [reflexivity|]. apply Forall_forall. intros f I. apply repeat_spec in I. subst. split; [|cbn; lia].
  split; [reflexivity|]. split; cbn; lia.
Qed.

Lemma example_room : frames_typed (repeat (frame_default 64) 4).
Proof.
  split; [reflexivity|]. apply Forall_forall. intros f I. apply repeat_spec in I. subst. split; [|cbn; lia].
  split; [reflexivity|]. split; cbn; lia.
Qed.

Definition response_of (n : nat) : response :=
  match step lp64_wrapping 8 example_system example_manager (nth n example_ops Op_stop) (fst (after n)) (snd (after n)) with
  | Some (Ret (r, _, _)) => r
  | _ => Selected Failure
  end.
Fixpoint example_history (n : nat) : list (operation * response) :=
  match n with O => [] | S n' => (nth n' example_ops Op_stop, response_of n') :: example_history n' end.

Lemma example_permitted : forall n, (n < 6)%nat -> permitted example_system (nth n example_ops Op_stop) (fst (after n)) (snd (after n)).
Proof.
  intros n L. destruct n as [|[|[|[|[|[|n]]]]]]; [..|lia].
  - cbn. lia.
  - split; [vm_compute; discriminate|]. split; [lia|]. split; [exact example_frames|lia].
  - split; [vm_compute; discriminate|]. split; [lia|]. split; [exact example_room|]. split; [constructor|].
    intros g s _ _. cbn. split; [lia|]. split; [constructor|lia].
  - split; [vm_compute; discriminate|]. cbn. lia.
  - vm_compute. discriminate.
  - exact Logic.I.
Qed.

Lemma example_run : forall n, (n <= 6)%nat -> run lp64_wrapping example_system example_manager (example_history n) (fst (after n)) (snd (after n)).
Proof.
  induction n as [|n IH]; intros L; [constructor|]. cbn [example_history]. apply r_step with (p := fst (after n)) (tr := snd (after n)) (fuel := 8%nat).
  - apply IH. lia.
  - apply example_permitted. lia.
  - do 6 (destruct n as [|n]; [vm_compute; reflexivity|]). lia.
Qed.

(** ** C130: the calls of the media layer do not wait

    Full statement: write and read are non-blocking (media/interfaces.hpp), and so is everything else but select: no call
    that an operation other than select makes may put the caller to sleep. *)

(** It fails: the sockets are opened without SOCK_NONBLOCK and sendmmsg is called without MSG_DONTWAIT. *)
Theorem C130_only_select_waits_refuted : exists P live k m h g tr i fs n fuel r p' tr' c a, In 0 live /\ proper live k /\
  run P k m h (Some g) tr /\ permitted k (Op_write i fs n) (Some g) tr /\
  step P fuel k m (Op_write i fs n) (Some g) tr = Some (Ret (r, p', tr')) /\ tr' = (tr ++ [(c, a)])%list /\ may_wait tr c.
Proof.
  pose proof (example_run 1 ltac:(lia)) as R. pose proof (example_permitted 1 ltac:(lia)) as OK.
  exists lp64_wrapping, [0; 1; 2], example_system, example_manager, (example_history 1).
  destruct (fst (after 1)) as [g|] eqn:G; [|vm_compute in G; discriminate].
  exists g, (snd (after 1)), 0, (repeat example_frame 4), 2%nat, 8%nat, (response_of 1), (fst (after 2)), (snd (after 2)).
  eexists; eexists. split; [left; reflexivity|]. split; [exact example_proper|]. split; [exact R|]. split; [exact OK|].
  split; [rewrite <- G; vm_compute; reflexivity|]. split; [vm_compute; reflexivity|].
  cbn [may_wait]. vm_compute. intros [H|H]; discriminate.
Qed.
Print Assumptions C130_only_select_waits_refuted.

(** Exactly: an operation makes a call that may wait if and only if it is select, or it writes at least one frame to an
    interface there is. Starting, stopping, configuring filters and reading never wait. *)
Theorem C130_which_operations_wait_partial : forall P live k m h p tr o fuel r p' tr', In 0 live -> proper live k ->
  run P k m h p tr -> permitted k o p tr -> step P fuel k m o p tr = Some (Ret (r, p', tr')) ->
  exists new, tr' = (tr ++ new)%list /\
    ((exists pre c a post, new = (pre ++ (c, a) :: post)%list /\ may_wait (tr ++ pre) c) <-> waiting o p).
Proof. exact step_waits. Qed.
Print Assumptions C130_which_operations_wait_partial.

(** The example's reading and stopping do not wait, its writing and select do. *)
Example C130_case : map (fun e => match fst e with Sys_sendmmsg _ _ _ f => (1, f) | Sys_recvmmsg _ _ f => (2, f) | Sys_ppoll _ _ _ => (3, 0) | _ => (0, 0) end)
    (skipn 12 (snd (after 6))) = [(0, 0); (1, 0); (2, 64); (0, 0); (3, 0); (0, 0)] /\
  ~ waiting (nth 2 example_ops Op_stop) (fst (after 2)) /\ waiting (nth 1 example_ops Op_stop) (fst (after 1)).
Proof.
  split; [vm_compute; reflexivity|]. split; [exact (fun H => H)|]. split; [lia|].
  destruct (fst (after 1)) as [g|] eqn:G; [|vm_compute in G; discriminate]. exists g. split; [reflexivity|].
  vm_compute in G. injection G as <-. reflexivity.
Qed.

(** ** C131: every interface's socket is bound to the device whose name it reports, with the options asked for

    At any time in the life of a program, each interface of its group has an open socket that is bound to a device of the
    interface's name (as the system resolved it; device names do not contain NUL), the name is one of those required, and the
    socket delivers CAN FD frames, respectively the program's own frames, if and only if the manager was made to do so. On a
    system that supports these options, receive times, drop counts and all error messages are delivered too.

    The numbers are those of the Linux headers: family PF_CAN = AF_CAN = 29, type SOCK_RAW = 3, protocol CAN_RAW = 1; level
    SOL_SOCKET = 1 with SO_TIMESTAMP = 29 and SO_RXQ_OVFL = 40; level SOL_CAN_RAW = 101 with CAN_RAW_ERR_FILTER = 2,
    CAN_RAW_RECV_OWN_MSGS = 4 and CAN_RAW_FD_FRAMES = 5; CAN_ERR_MASK = 0x1FFFFFFF. *)
Theorem C131_sockets_are_bound_to_their_devices : forall P live k devices m h g tr s, In 0 live -> proper live k -> looks_up devices k ->
  (forall name, In name (m_required m) -> no_nul name) -> run P k m h (Some g) tr -> In s g ->
  In (getInterfaceName s) (m_required m) /\
  exists st i, sock_at tr (getSocketDescriptor s) = Some st /\ so_kind st = (29, 3, 1) /\
    so_bound st = Some (29, i) /\ devices (getInterfaceName s) i /\
    (grants k -> option_value 1 29 (so_options st) = Some 1 /\
                 option_value 1 40 (so_options st) = Some 1 /\
                 option_value 101 2 (so_options st) = Some 0x1FFFFFFF) /\
    option_value 101 5 (so_options st) = (if m_canfd m then Some 1 else None) /\
    option_value 101 4 (so_options st) = (if doesReceiveOwnMessages m then Some 1 else None).
Proof.
  intros P live k devices m h g tr s Z0 PR LK NN R I. destruct (run_inv P live k devices m h (Some g) tr Z0 PR LK R) as (_ & _ & _ & OG).
  rewrite Forall_forall in OG. destruct (OG s I) as (Q1 & st & S & K & (i & B & D) & G & O1 & O2).
  split; [exact Q1|]. exists st, i. split; [exact S|]. split; [exact K|]. split; [exact B|]. split; [apply D, NN, Q1|]. split; [exact G|].
  split; [exact O1|exact O2].
Qed.
Print Assumptions C131_sockets_are_bound_to_their_devices.

Example C131_case : exists g s, run lp64_wrapping example_system example_manager (example_history 4) (Some g) (snd (after 4)) /\ In s g /\
  getInterfaceName s = can0 /\ In 0 [0; 1; 2] /\ proper [0; 1; 2] example_system /\
  looks_up (fun name i => name = can0 /\ i = 7) example_system /\ (forall name, In name (m_required example_manager) -> no_nul name) /\
  option_map so_bound (sock_at (snd (after 4)) (getSocketDescriptor s)) = Some (Some (29, 7)) /\ grants example_system.
Proof.
  pose proof (example_run 4 ltac:(lia)) as R.
  destruct (fst (after 4)) as [g|] eqn:G; [|vm_compute in G; discriminate]. vm_compute in G. injection G as <-.
  eexists. eexists. split; [exact R|]. split; [left; reflexivity|]. split; [reflexivity|]. split; [left; reflexivity|].
  split; [exact example_proper|]. split; [exact example_looks_up|]. split; [|split; [vm_compute; reflexivity|intros ? ? ? ? ?; reflexivity]].
  intros name [<-|[<-|[]]]; cbn; repeat split; discriminate.
Qed.

(** ** C132: descriptors are used only while they are open *)

(** Every system call a program makes through the media layer is given only descriptors of sockets that it opened and that are
    open at that time; in particular none is closed twice. *)
Theorem C132_only_open_descriptors_are_used : forall P live k m h p tr, In 0 live -> proper live k -> run P k m h p tr ->
  forall pre c a post, tr = (pre ++ (c, a) :: post)%list -> forall d, In d (uses c) -> is_open pre d.
Proof.
  intros P live k m h p tr Z0 PR R pre c a post EQ.
  destruct (run_inv P live k (fun _ _ => True) m h p tr Z0 PR (fun _ _ _ _ => Logic.I) R) as (E & _).
  apply (E pre c a post EQ).
Qed.
Print Assumptions C132_only_open_descriptors_are_used.

(** At any time the open sockets are exactly those of the group, each interface having its own. *)
Theorem C132_open_sockets_are_the_groups : forall P live k m h p tr, In 0 live -> proper live k -> run P k m h p tr ->
  NoDup (owned p) /\ forall d, is_open tr d <-> In d (owned p).
Proof.
  intros P live k m h p tr Z0 PR R.
  destruct (run_inv P live k (fun _ _ => True) m h p tr Z0 PR (fun _ _ _ _ => Logic.I) R) as (_ & ND & O & _).
  destruct p as [g|]; split; [exact ND|exact O|exact ND|exact O].
Qed.
Print Assumptions C132_open_sockets_are_the_groups.

(** A write to an interface there is makes one call: it hands the frames to that interface's socket, as many as it says, and
    reports as many as the system took. *)
Theorem C132_write_asks_for_its_frames : forall P live k m h g tr i fs n fuel r p' tr' s, (length (m_required m) <= 255)%nat ->
  proper live k -> run P k m h (Some g) tr -> permitted k (Op_write i fs n) (Some g) tr -> nth_error g (Z.to_nat i) = Some s -> (1 <= n)%nat ->
  step P fuel k m (Op_write i fs n) (Some g) tr = Some (Ret (r, p', tr')) -> exists msgs a res,
  tr' = (tr ++ [(Sys_sendmmsg (getSocketDescriptor s) msgs (Z.of_nat n) 0, a)])%list /\ length msgs = n /\
  r = Answered (Wrote res (Z.max 0 (fst a)) (Some msgs)).
Proof. exact step_write. Qed.
Print Assumptions C132_write_asks_for_its_frames.

(** A read makes one call, on the interface's socket, for as many messages as there are buffers. *)
Theorem C132_read_asks_for_four : forall P k m g tr msgs i out fuel r p' tr' s, 0 <= i -> nth_error g (Z.to_nat i) = Some s ->
  step P fuel k m (Op_read msgs i out) (Some g) tr = Some (Ret (r, p', tr')) -> exists a x,
  tr' = (tr ++ [(Sys_recvmmsg (getSocketDescriptor s) 4 0x40, a)])%list /\ read (fst a) (snd a) msgs s out = Ret x /\
  r = Answered (WasRead (rd_result x) (Z.of_nat (rd_count x)) (rd_frames x)).
Proof. exact step_read. Qed.
Print Assumptions C132_read_asks_for_four.

(** What is proved about programs in terms of ClientModel.v (C121, C122, C127-C129) holds of the system calls: each run is a
    history with the same calls and replies, the same group, and the descriptors and filters that the calls amount to. *)
Theorem C132_runs_are_histories : forall P live k m h p tr, proper live k -> run P k m h p tr ->
  exists h', same_calls h h' /\ history live m h' (Client p (world_of tr)).
Proof. exact run_refines. Qed.
Print Assumptions C132_runs_are_histories.

Example C132_case : run lp64_wrapping example_system example_manager (example_history 6) (fst (after 6)) (snd (after 6)) /\
  fst (after 6) = None /\ option_map (map if_fd) (fst (after 5)) = Some [3] /\ events (snd (after 6)) = [Opened 3; Opened 4; Closed 4; Closed 3] /\
  option_map (@length iface) (fst (after 1)) = Some 1%nat /\ (length (m_required example_manager) <= 255)%nat /\
  match response_of 1 with Answered (Wrote r c (Some msgs)) => (r, c, length msgs) | _ => (0, 0, O) end = (Success, 2, 2%nat).
Proof. split; [apply example_run; lia|]. vm_compute. repeat split; lia. Qed.
