(** Model of the clock and of the console in class LoopBackTest of test/linux/example/media_on_linux/main.cpp: when run_test
    gives up and which statistics it prints. LoopBackModel.v has the test itself. *)
From Coq Require Import ZArith Bool String List.
From Verif Require Import Outcome ResultModel CInt CanFrameModel SocketCanModel GroupModel LoopBackModel.
Import ListNotations.
Open Scope Z_scope.

(** std::chrono::steady_clock counts nanoseconds in a signed 64-bit integer (libstdc++); main.cpp line 158:
    test_timeout_ counts seconds in an unsigned 64-bit integer. *)
Definition ns_per_second : Z := 1000000000.

(** What the kernel does in one iteration of run_test: the clock at main.cpp line 246, ppoll in select, the clock at line 256, and what
    recvmmsg answers on each interface. *)
Record tick : Type := Tick {
  tk_check : Z; tk_ppoll : poll_request -> Z * list Z; tk_now : Z; tk_recv : nat -> Z * Z * list kmsg
}.

(** The time at which statistics were printed, and the name and the statistics on each line. main.cpp lines 118-137 and 259-262. *)
Definition report : Type := Z * list (string * stats).

(** main.cpp lines 118-137 and 259-262: one line for each interface. *)
Definition print_all (g : group) : list (string * stats) :=
  map (fun s => (getInterfaceName s, getStatistics s)) (firstn (Z.to_nat (getInterfaceCount g)) g).

(** main.cpp line 246: the difference of two time points is a signed 64-bit number of nanoseconds; it is compared with the
    timeout after both are converted to their common type, an unsigned 64-bit number of nanoseconds. *)
Definition timed_out (P : platform) (timeout started now : Z) : outcome bool :=
  let* d := sarith P 64 (now - started) in
  Ret (ucast 64 (timeout * ns_per_second) <? ucast 64 d).

(** main.cpp lines 240-291: run_test, with the clock, the call of select and the printed statistics. [last] is last_period.
    The result is [None] if it still runs after the given iterations. Other output is in ConsoleModel.v. *)
Fixpoint run_timed (P : platform) (timeout : Z) (continuous : bool) (started last : Z) (ticks : list tick) (g : group) (lb : loopback)
  : outcome (option result * list report) :=
  match ticks with
  | [] => Ret (None, [])
  | k :: rest =>
      let* over := timed_out P timeout started (tk_check k) in
      if over : bool then Ret (Some (lb_result lb), [])
      else
        let* selected := select P (tk_ppoll k) g 100000 true in
        let* period := sarith P 64 (tk_now k - last) in
        let due := ns_per_second <=? period in
        let printed := if due then [(tk_now k, print_all g)] else [] in
        let last' := if due then tk_now k else last in
        let* (g', batch) := read_round (Z.to_nat (getInterfaceCount g)) 0 (tk_recv k) g (repeat (frame_default mtu) RxFramesLen) in
        let* found := (if result_not (lb_result lb) then evaluate_round 0 batch (lb_found lb) else Ret (lb_found lb)) in
        let* (r, more) :=
          (if isComplete g' found
           then if negb continuous then Ret (Some Success, [])
                else run_timed P timeout continuous started last' rest g' (LoopBack found Success)
           else run_timed P timeout continuous started last' rest g' (LoopBack found (lb_result lb))) in
        Ret (r, printed ++ more)
  end.
