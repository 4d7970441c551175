(** Model of the console output of test/linux/example/media_on_linux/main.cpp, and of the whole program with its clock.
    LoopBackModel.v, TimedModel.v and MainModel.v have the program without it; ConsoleProofs.v shows that these are what is
    left when the output is forgotten. What getopt_long prints on the standard error stream is not modelled. Here
    LIBUAVCAN_TRACE does nothing; TraceModel.v adds the traces of debug builds (introspection.hpp lines 33-45). *)
From Coq Require Import ZArith Bool String Ascii List DecimalString.
From Verif Require Import Outcome ResultModel CInt CanFrameModel SocketCanModel GroupModel ManagerModel ParseArgsModel LoopBackModel
  TimedModel.
Import ListNotations.
Open Scope string_scope.
Open Scope Z_scope.

(** std::endl. As at main.cpp lines 66-72. *)
Definition endl : string := String (ascii_of_nat 10) EmptyString.
(** A tab, as at main.cpp lines 67-72. *)
Definition tab : string := String (ascii_of_nat 9) EmptyString.
(** operator<< for an unsigned number. As at main.cpp lines 124-134, 210, 219, 248 and 304. *)
Definition number (z : Z) : string := NilZero.string_of_int (Z.to_int z).

(** main.cpp lines 64-73: print_usage. *)
Definition usage : string :=
  "Usage:" ++ endl ++
  tab ++ "--device, -d      : ip device name(s) to use for the test." ++ endl ++ endl ++
  tab ++ "--continuous, --c : run until the test times out." ++ endl ++
  endl ++
  tab ++ "To create a virtual device on linux do:" ++ endl ++ endl ++
  tab ++ tab ++ "ip link add dev vcan0 type vcan" ++ endl ++
  tab ++ tab ++ "ip link set up vcan0" ++ endl ++ endl.

(** main.cpp lines 118-137: print_stats. *)
Definition print_stats (name : string) (st : stats) : string :=
  name ++ ": rx=" ++ number (rx_total st) ++ ", rx_dropped=" ++ number (rx_dropped st) ++
  ", err_ack=" ++ number (err_ack st) ++ ", err_bussoff=" ++ number (err_bussoff st) ++
  ", err_buserror=" ++ number (err_buserror st) ++ ", err_crtl=" ++ number (err_crtl st) ++
  ", err_tx_timeout=" ++ number (err_tx_timeout st) ++ ", err_lostarb=" ++ number (err_lostarb st) ++
  ", err_prot=" ++ number (err_prot st) ++ ", err_trx=" ++ number (err_trx st) ++
  ", err_restarted=" ++ number (err_restarted st) ++ endl.

(** main.cpp lines 215-230, as start_writes of LoopBackModel.v, with what is printed. *)
Fixpoint start_writes_c (n i : nat) (sendmmsg : nat -> list canfd -> Z * Z) (g : group) (found : list Z)
  : outcome (group * list Z * bool * list (list canfd) * string) :=
  match n with
  | O => Ret (g, found, true, [], "")
  | S k =>
      let* w := group_write (sendmmsg i) g (Z.of_nat i) test_frames TxTestFramesLen 0 in
      let '(g1, r, frames_written, sent) := w in
      let name := group_getInterfaceName g1 (Z.of_nat i) in
      if negb (result_not r)
      then let* t := start_writes_c k (S i) sendmmsg g1 (found ++ [0])%list in
           let '(g2, found2, ok, sents, out) := t in
           Ret (g2, found2, ok, (match sent with Some s => s | None => [] end) :: sents,
                "Successfully enqueued " ++ number frames_written ++ " frame(s) on interface " ++ name ++ endl ++ out)
      else Ret (g1, found, false, [], "Failed to enqueue a frame on interface group " ++ name ++ endl)
  end.

(** main.cpp lines 191-238, as start_test of LoopBackModel.v. *)
Definition start_test_c (fuel : nat) (lb : loopback) (m : manager) (kernel : nat -> list event -> answers)
  (sendmmsg : nat -> list canfd -> Z * Z) (w : world)
  : option (outcome (option group * loopback * list (list canfd) * world * string)) :=
  if 0 <? Z.of_nat (List.length (lb_found lb)) then Some (Ret (None, lb, [], w, ""))
  else if negb (doesReceiveOwnMessages m)
  then Some (Ret (None, lb, [], w, "You must enable local loopback of frames sent from this process for this test to work." ++ endl))
  else
    match startInterfaceGroup fuel m (Some test_filters) (List.length test_filters) kernel None w with
    | None => None
    | Some UB => Some UB
    | Some (Ret (r, out, w1)) =>
        if isFailure r then Some (Ret (out, lb, [], w1, ""))
        else
          match out with
          | None => Some UB
          | Some g =>
              let opened := "Opened " ++ number (getInterfaceCount g) ++ " interface(s)." ++ endl in
              match start_writes_c (Z.to_nat (getInterfaceCount g)) 0 sendmmsg g [] with
              | UB => Some UB
              | Ret (g', found, ok, sents, text) =>
                  if (0 <? getInterfaceCount g) && ok
                  then Some (Ret (Some g', LoopBack found (lb_result lb), sents, w1, opened ++ text))
                  else Some (Ret (None, LoopBack [] (lb_result lb), [], World (destroy g' (w_trace w1)) (w_filters w1), opened ++ text))
              end
          end
    end.

(** main.cpp lines 298-328, as evaluate of LoopBackModel.v. *)
Definition evaluate_c (g : group) (index : nat) (frames : list frame) (found : list Z) : outcome (list Z * string) :=
  let said := "Evaluating " ++ number (Z.of_nat (List.length frames)) ++ " frame(s)..." ++ endl in
  match nth_error found index with
  | None => UB
  | Some v =>
      if v =? 3 then Ret (found, said)
      else let* v' := eval_frames v frames in
           Ret (replace_nth index v' found,
                said ++ (if v' =? 3
                         then "...Got all frames for interface " ++ group_getInterfaceName g (Z.of_nat index) ++ endl
                         else ""))
  end.

(** main.cpp lines 272-278, as evaluate_round of LoopBackModel.v. Reading prints nothing. *)
Fixpoint evaluate_round_c (g : group) (i : nat) (batch : list (result * list frame)) (found : list Z) : outcome (list Z * string) :=
  match batch with
  | [] => Ret (found, "")
  | (r, fs) :: rest =>
      let* (found', said) := (if negb (result_not r) && (0 <? Z.of_nat (List.length fs)) then evaluate_c g i fs found else Ret (found, "")) in
      let* (found'', more) := evaluate_round_c g (S i) rest found' in
      Ret (found'', said ++ more)
  end.

(** main.cpp lines 240-291, as run_timed of TimedModel.v. *)
Fixpoint run_console (P : platform) (timeout : Z) (continuous : bool) (started last : Z) (ticks : list tick) (g : group) (lb : loopback)
  : outcome (option result * string) :=
  match ticks with
  | [] => Ret (None, "")
  | k :: rest =>
      let* over := timed_out P timeout started (tk_check k) in
      if over : bool then Ret (Some (lb_result lb), "Test timed out after " ++ number timeout ++ endl)
      else
        let* selected := select P (tk_ppoll k) g 100000 true in
        let* period := sarith P 64 (tk_now k - last) in
        let due := ns_per_second <=? period in
        let printed := if due then String.concat "" (map (fun x => print_stats (fst x) (snd x)) (print_all g)) else "" in
        let last' := if due then tk_now k else last in
        let* (g', batch) := read_round (Z.to_nat (getInterfaceCount g)) 0 (tk_recv k) g (repeat (frame_default mtu) RxFramesLen) in
        let* (found, said) := (if result_not (lb_result lb) then evaluate_round_c g' 0 batch (lb_found lb) else Ret (lb_found lb, "")) in
        let* (r, more) :=
          (if isComplete g' found
           then if negb continuous then Ret (Some Success, "")
                else run_console P timeout continuous started last' rest g' (LoopBack found Success)
           else run_console P timeout continuous started last' rest g' (LoopBack found (lb_result lb))) in
        Ret (r, printed ++ said ++ more)
  end.

(** What the program finds and does: exit status, the world afterwards, what it printed. main.cpp lines 358-406. *)
Record ending : Type := Ending { e_code : Z; e_world : world; e_console : string }.

(** main.cpp lines 358-406. [started] is the clock at line 236, [last] at line 242; the time limit is ten seconds (line 168).
    The guard of lines 383-393 stops the group on every way out of the block, after line 401. *)
Definition main_c (P : platform) (fuel : nat) (args : list string) (kernel : nat -> list event -> answers)
  (sendmmsg : nat -> list canfd -> Z * Z) (started last : Z) (ticks : list tick) (w : world) : option (outcome ending) :=
  match parse_args fuel args with
  | None => None
  | Some UB => Some UB
  | Some (Ret (r, ns)) =>
      if negb (Success =? r) then Some (Ret (Ending (-1) w usage))
      else
        match start_test_c fuel loopback_make (Manager (ns_devices ns) true true) kernel sendmmsg w with
        | None => None
        | Some UB => Some UB
        | Some (Ret (None, _, _, w1, text)) => Some (Ret (Ending (-1) w1 text))
        | Some (Ret (Some g, lb, _, w1, text)) =>
            match run_console P 10 (ns_continuous ns) started last ticks g lb with
            | UB => Some UB
            | Ret (None, _) => None
            | Ret (Some passed, more) =>
                let '(_, _, w2) := stopInterfaceGroup (Some g) w1 in
                let failed := result_not passed in
                Some (Ret (Ending (if failed then -1 else 0) w2
                  (text ++ more ++ (if failed then "" else "Test passed!" ++ endl) ++ "Stopped interface group." ++ endl)))
            end
        end
  end.
