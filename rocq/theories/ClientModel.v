(** Model of a program that uses the interface manager of test/linux/example/media_on_linux for as long as it likes: it owns
    one pointer to an interface group (as main.cpp lines 375-404 do) and calls the manager and, while the pointer is not null,
    the group. The order and the arguments of the calls are those of the caller, not of the code. *)
From Coq Require Import ZArith Bool String List.
From Verif Require Import Outcome ResultModel CanFrameModel SocketCanModel GroupModel ManagerModel.
Import ListNotations.
Open Scope Z_scope.

(** The caller's shared_ptr, [None] when null, and the world. The out_group of SocketCANInterfaceManager.cpp lines 173 and 198. *)
Record client : Type := Client { cl_group : option group; cl_world : world }.

(** The calls, each with the kernel's answers to the system calls it makes: SocketCANInterfaceManager.cpp lines 170-196 and
    198-205, SocketCANInterfaceGroup.cpp lines 96-108, 67-80 and 82-94. Calls that change nothing (the getters and select)
    are left out. *)
Inductive call : Type :=
| Start (configs : option (list filter)) (num : nat) (kernel : nat -> list event -> answers)
| Stop
| Reconfigure (ans : nat -> list kfilter -> Z -> Z) (configs : option (list filter)) (num : nat)
| Write (sendmmsg : list canfd -> Z * Z) (index : Z) (frames : list frame) (frames_len : nat)
| Read (res errno : Z) (msgs : list kmsg) (index : Z) (out : list frame).

(** What the caller gets back: the result, and what was written to its variables.
    From SocketCANInterfaceManager.cpp lines 170-205 and SocketCANInterfaceGroup.cpp lines 36-153. *)
Inductive reply : Type :=
| Started (r : result)
| Stopped (r : result)
| Reconfigured (r : result)
| Wrote (r : result) (count : Z) (sent : option (list canfd))
| WasRead (r : result) (count : Z) (frames : list frame).

(** One call. A call through a null pointer is undefined; [None] is a call that has not returned after [fuel] iterations of its
    loop over the interfaces. SocketCANInterfaceManager.cpp lines 170-205 and SocketCANInterfaceGroup.cpp lines 36-153. *)
Definition perform (fuel : nat) (m : manager) (o : call) (c : client) : option (outcome (reply * client)) :=
  let w := cl_world c in
  match o, cl_group c with
  | Start configs num kernel, p =>
      match startInterfaceGroup fuel m configs num kernel p w with
      | None => None
      | Some UB => Some UB
      | Some (Ret (r, p', w')) => Some (Ret (Started r, Client p' w'))
      end
  | Stop, p => let '(r, p', w') := stopInterfaceGroup p w in Some (Ret (Stopped r, Client p' w'))
  | Reconfigure ans configs num, Some g =>
      match reconfigureFilters fuel g ans configs num (w_filters w) with
      | None => None
      | Some UB => Some UB
      | Some (Ret (r, log)) => Some (Ret (Reconfigured r, Client (Some g) (World (w_trace w) log)))
      end
  | Write k i fs n, Some g =>
      Some (let* (t, sent) := group_write k g i fs n 0 in
            let '(g', r, count) := t in
            Ret (Wrote r count sent, Client (Some g') w))
  | Read res errno msgs i out, Some g =>
      Some (let* (t, frames) := group_read res errno msgs g i out 0 in
            let '(g', r, count) := t in
            Ret (WasRead r count frames, Client (Some g') w))
  | _, None => Some UB
  end.
