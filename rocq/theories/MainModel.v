(** Model of main of test/linux/example/media_on_linux/main.cpp. What it prints is in ConsoleModel.v. *)
From Coq Require Import ZArith Bool String List.
From Verif Require Import Outcome ResultModel CanFrameModel SocketCanModel GroupModel ManagerModel ParseArgsModel LoopBackModel.
Import ListNotations.
Open Scope Z_scope.

(** main.cpp lines 358-406. The answer is the exit status and the world; [None] if it has not finished with the given fuel
    and rounds. [args] are the arguments without the program's name. The guard of lines 381-391 stops the group on every way
    out of the block. run_test does not return the group it has read from: stopping it looks only at the descriptors, which
    reading does not change (MainProofs.v, [read_round_fds]). *)
Definition main (fuel : nat) (args : list string) (kernel : nat -> list event -> answers)
  (sendmmsg : nat -> list canfd -> Z * Z) (rounds : list round) (w : world) : option (outcome (Z * world)) :=
  match parse_args fuel args with
  | None => None
  | Some UB => Some UB
  | Some (Ret (r, ns)) =>
      if negb (Success =? r) then Some (Ret (-1, w))
      else
        match start_test fuel loopback_make (Manager (ns_devices ns) true true) kernel sendmmsg w with
        | None => None
        | Some UB => Some UB
        | Some (Ret (None, _, _, w1)) => Some (Ret (-1, w1))
        | Some (Ret (Some g, lb, _, w1)) =>
            match run_test (ns_continuous ns) rounds g lb with
            | None => None
            | Some UB => Some UB
            | Some (Ret passed) =>
                let '(_, _, w2) := stopInterfaceGroup (Some g) w1 in
                Some (Ret (if result_not passed then -1 else 0, w2))
            end
        end
  end.
