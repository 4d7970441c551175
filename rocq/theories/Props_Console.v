(** C139: what the example program prints. *)
From Coq Require Import ZArith Bool String Ascii List Lia Sorted.
From Verif Require Import Outcome ResultModel CInt CanFrameModel SocketCanModel SocketCanSpec SocketCanHist GroupModel ManagerModel ManagerSpec
  ParseArgsModel ParseArgsSpec SatMathSpec LoopBackModel LoopBackSpec LoopBackProofs TimedModel TimedSpec TimedProofs MainModel
  ConsoleModel ConsoleSpec ConsoleProofs ConsoleEval Props_Group Props_Manager Props_LoopBack Props_Timed.
Import ListNotations.
Open Scope string_scope.
Open Scope Z_scope.

(** C139. The program with its console and clock is the program of C86: what that theorem says of exit status and sockets
    holds here, with the rounds that the clock makes. *)
Theorem C139_same_program : forall P fuel args kernel send started last ticks w, wf_platform P -> steady started last ticks ->
  main fuel args kernel send (map (fun k => Round (10 * 1000000000 <? tk_check k - started) (tk_recv k)) ticks) w =
  match main_c P fuel args kernel send started last ticks w with
  | Some (Ret e) => Some (Ret (e_code e, e_world e))
  | Some UB => Some UB
  | None => None
  end.
Proof. exact main_erase. Qed.
Print Assumptions C139_same_program.

(** C139. Whatever the arguments, the kernel and the clock do: a finished program has exit status 0 and its last words are
    that the test passed and the group is stopped, or -1 and it never said so. Then it printed the help, or its last words
    are that a frame could not be enqueued, or that the test timed out and the group is stopped, or it printed nothing. *)
Theorem C139_last_words_partial : forall P fuel args kernel send started last ticks w e, Forall one_line args ->
  main_c P fuel args kernel send started last ticks w = Some (Ret e) ->
  (e_code e = 0 /\ ends_with (lines (e_console e)) [passed; stopped]) \/
  (e_code e = -1 /\ ~ In passed (lines (e_console e)) /\
   (lines (e_console e) = help \/ (exists name, ends_with (lines (e_console e)) [not_enqueued name]) \/
    ends_with (lines (e_console e)) [gave_up; stopped] \/ e_console e = "")).
Proof.
  intros P fuel args kernel send started last ticks w e A H. destruct (main_text _ _ _ _ _ _ _ _ _ _ A H) as [(C & _ & E)|(C & N & E)].
  - left. auto.
  - right. split; [exact C|]. split; [exact N|]. destruct E as [-> | [-> | [E|E]]]; [left; vm_compute; reflexivity|auto|auto|auto].
Qed.
Print Assumptions C139_last_words_partial.

(** The full claim, that a program that fails says why, does not hold: if no interface comes up nothing is printed. *)
Theorem C139_failure_is_explained_refuted : exists P fuel args kernel send started last ticks w e,
  Forall one_line args /\ main_c P fuel args kernel send started last ticks w = Some (Ret e) /\ e_code e = -1 /\ e_console e = "".
Proof.
  exists lp64, 9%nat, ["-d"; "vcan0"], (ex_answers (fun _ => true)), (fun _ _ => (2, 0)), 0, 0, [], (World [] []).
  eexists. split; [repeat (constructor; [apply one_lineb_true; reflexivity|]); constructor|]. split; [vm_compute; reflexivity|]. split; reflexivity.
Qed.
Print Assumptions C139_failure_is_explained_refuted.

(** C139. For documented options with devices (without the undefined ones of C77): nothing is printed exactly if none of the
    interfaces came up. *)
Theorem C139_silent_iff : forall P l fuel kernel send started last ticks w e,
  ~ late_long_device l -> devices l <> [] -> (List.length (devices l) <= 255)%nat -> (List.length l < fuel)%nat ->
  main_c P fuel (command_line l) kernel send started last ticks w = Some (Ret e) ->
  exists ans tr, answered kernel (devices l) tr ans /\ (exists more, w_trace (e_world e) = (tr ++ more)%list) /\
    (e_console e = "" <->
     Forall2 (fun name a => ~ comes_up (Manager (devices l) true true) (Some [Filter 0 0]) 1 name a) (devices l) ans).
Proof. exact main_silent. Qed.
Print Assumptions C139_silent_iff.

(** C139. What starting the test prints, unless nothing: how many interfaces were opened and, for each in turn, how many
    frames the kernel took, up to the first where it took none. *)
Theorem C139_opening : forall fuel m kernel send w og lb sents w' text, (List.length (m_required m) <= 255)%nat ->
  (List.length (m_required m) < fuel)%nat -> Forall one_line (m_required m) -> m_own m = true ->
  start_test_c fuel loopback_make m kernel send w = Some (Ret (og, lb, sents, w', text)) -> text <> "" ->
  exists names, match og with
  | Some g => names = map getInterfaceName g /\ accepted send (List.length names) /\
      lines text = opened (Z.of_nat (List.length names)) :: enqueued_lines send names (List.length names)
  | None => exists k name, nth_error names k = Some name /\ accepted send k /\ ~ 0 < fst (send k [test_message 1; test_message 2]) /\
      lines text = (opened (Z.of_nat (List.length names)) :: enqueued_lines send names k ++ [not_enqueued name])%list
  end.
Proof. exact opening_lines. Qed.
Print Assumptions C139_opening.

(** C139. A manager that does not receive its own messages is refused, with an explanation and before anything is opened. *)
Theorem C139_needs_loopback : forall fuel m kernel send w, m_own m = false ->
  exists text, start_test_c fuel loopback_make m kernel send w = Some (Ret (None, loopback_make, [], w, text)) /\
  lines text = [needs_loopback].
Proof.
  intros fuel [req fd own] kernel send w O. cbn in O. subst own. eexists. split; [reflexivity|]. vm_compute. reflexivity.
Qed.
Print Assumptions C139_needs_loopback.

(** C139. While it runs, from interfaces and flags as start_test leaves them, the test says once for each interface of a
    name, and only for those, that all frames were got, if both frames arrived on it in time. (Linux allows no colon in the
    name of a device.) *)
Theorem C139_interfaces_reported : forall P timeout continuous started last ticks g r out name,
  wf_platform P -> 0 <= timeout * 1000000000 < 2 ^ 64 -> steady started last ticks -> Forall iface_typed g -> (List.length g <= 255)%nat ->
  ticks_ok (List.length g) ticks -> Forall one_line (map getInterfaceName g) -> has_colon name = false ->
  run_console P timeout continuous started last ticks g (LoopBack (repeat 0 (List.length g)) Failure) = Ret (r, out) ->
  exists js, NoDup js /\
    (forall j, In j js <-> nth_error (map getInterfaceName g) j = Some name /\
       arrived (deliveries (within timeout started ticks)) j 1 /\ arrived (deliveries (within timeout started ticks)) j 2) /\
    count_occ string_dec (lines out) (got_all name) = List.length js.
Proof. exact interfaces_reported. Qed.
Print Assumptions C139_interfaces_reported.

(** C139. The lines about statistics are those of the reports of C123, in order, and no other line looks like them. *)
Theorem C139_statistics : forall P timeout continuous started last ticks g lb r out,
  Forall (fun s => one_line (getInterfaceName s) /\ has_colon (getInterfaceName s) = false) g ->
  run_console P timeout continuous started last ticks g lb = Ret (r, out) ->
  exists reps, run_timed P timeout continuous started last ticks g lb = Ret (r, reps) /\
  List.filter has_colon (lines out) = flat_map (fun rep => map (fun x => statistics_line (fst x) (snd x)) (snd rep)) reps.
Proof.
  intros P timeout continuous started last ticks g lb r out N H.
  pose proof (run_erase P timeout continuous started ticks last g lb) as E. rewrite H in E. destruct E as [reps E].
  destruct (run_statistics _ _ _ _ _ _ _ _ _ _ _ _ N H E) as (ls & TX & _ & F). rewrite (is_text_lines _ _ TX). eauto.
Qed.
Print Assumptions C139_statistics.

(** C139. The lines about frames that are looked at are, in the order of the iterations and of the interfaces in each, one for
    every read that hands out frames, with their number; and these are the iterations in time up to the first after which both
    frames have arrived on all interfaces. *)
Theorem C139_evaluations : forall P timeout continuous started last ticks g r out,
  wf_platform P -> 0 <= timeout * 1000000000 < 2 ^ 64 -> steady started last ticks -> Forall iface_typed g -> (List.length g <= 255)%nat ->
  ticks_ok (List.length g) ticks -> Forall (fun s => one_line (getInterfaceName s) /\ has_colon (getInterfaceName s) = false) g ->
  run_console P timeout continuous started last ticks g (LoopBack (repeat 0 (List.length g)) Failure) = Ret (r, out) ->
  exists used later, within timeout started ticks = (used ++ later)%list /\
    (later = [] \/ all_arrived (deliveries used) (List.length g)) /\ ~ all_arrived (deliveries (removelast used)) (List.length g) /\
    List.filter on_evaluation (lines out) = flat_map (evaluating_lines (List.length g)) used.
Proof. exact evaluations_reported. Qed.
Print Assumptions C139_evaluations.
Example C139_case_evaluations : steady 100 103 ex_ticks /\ ticks_ok 2 ex_ticks /\ Forall unused ex_pair /\
  Forall (fun s => one_line (getInterfaceName s) /\ has_colon (getInterfaceName s) = false) ex_pair /\
  flat_map (evaluating_lines 2) (firstn 2 ex_ticks) = ["Evaluating 1 frame(s)..."; "Evaluating 3 frame(s)..."; "Evaluating 2 frame(s)..."] /\
  exists r out, run_console ex_platform 1 true 100 103 ex_ticks ex_pair (LoopBack [0; 0] Failure) = Ret (r, out) /\
    List.filter on_evaluation (lines out) = ["Evaluating 1 frame(s)..."; "Evaluating 3 frame(s)..."; "Evaluating 2 frame(s)..."].
Proof.
  split; [apply C123_case|]. split; [apply C123_case|]. split; [apply C123_case|].
  split; [repeat (constructor; [split; [apply one_lineb_true; reflexivity|reflexivity]|]); constructor|].
  split; [vm_compute; reflexivity|]. eexists _, _. split; vm_compute; reflexivity.
Qed.

(** Two interfaces are opened; the frames of C76's example arrive, some after a second. Run with another kernel that takes no
    frame on the second interface, and with iterations that only begin too late. *)
Definition ex_words : list string := ["--device"; "vcan0"; "-dvcan1"].
Definition ex_run (took : nat -> Z) (ticks : list tick) : option (Z * list string) :=
  match main_c lp64 9 ex_words (ex_answers (fun _ => false)) (fun i _ => (took i, 0)) 100 103 ticks (World [] []) with
  | Some (Ret e) => Some (e_code e, lines (e_console e)) | _ => None end.
Example C139_case : Forall one_line ex_words /\ steady 100 103 ex_ticks /\
  ex_run (fun i => 2 - Z.of_nat i) ex_ticks = Some (0,
    ["Opened 2 interface(s)."; "Successfully enqueued 2 frame(s) on interface vcan0";
     "Successfully enqueued 1 frame(s) on interface vcan1"; "Evaluating 1 frame(s)..."; "Evaluating 3 frame(s)...";
     "...Got all frames for interface vcan1";
     "vcan0: rx=1, rx_dropped=0, err_ack=0, err_bussoff=0, err_buserror=0, err_crtl=0, err_tx_timeout=0, err_lostarb=0, err_prot=0, err_trx=0, err_restarted=0";
     "vcan1: rx=3, rx_dropped=0, err_ack=0, err_bussoff=0, err_buserror=0, err_crtl=0, err_tx_timeout=0, err_lostarb=0, err_prot=0, err_trx=0, err_restarted=0";
     "Evaluating 2 frame(s)..."; "...Got all frames for interface vcan0"; "Test passed!"; "Stopped interface group."]) /\
  ex_run (fun i => 1 - Z.of_nat i) ex_ticks = Some (-1,
    ["Opened 2 interface(s)."; "Successfully enqueued 1 frame(s) on interface vcan0"; "Failed to enqueue a frame on interface group vcan1"]) /\
  ex_run (fun _ => 2) [Tick 10000000101 ex_poll 10000000102 (fun _ => (-1, EWOULDBLOCK, []))] = Some (-1,
    ["Opened 2 interface(s)."; "Successfully enqueued 2 frame(s) on interface vcan0"; "Successfully enqueued 2 frame(s) on interface vcan1";
     "Test timed out after 10"; "Stopped interface group."]) /\
  ex_run (fun _ => 2) (firstn 1 ex_ticks) = None.
Proof.
  split; [repeat (constructor; [apply one_lineb_true; reflexivity|]); constructor|]. split; [apply C123_case|]. vm_compute. auto.
Qed.
