(** C145: what builds with LIBUAVCAN_INTROSPECTION_TRACE_ENABLE trace. *)
From Coq Require Import ZArith Bool String Ascii List Lia Sorted.
From Verif Require Import Outcome ResultModel CInt CanFrameModel SocketCanModel SocketCanSpec GroupModel GroupSpec ManagerModel ManagerSpec
  ParseArgsModel ParseArgsSpec SatMathSpec LoopBackModel LoopBackSpec TimedModel TimedSpec ConsoleModel ConsoleSpec ConsoleProofs
  TraceModel TraceSpec TraceProofs Props_Manager Props_LoopBack Props_Timed.
Import ListNotations.
Open Scope string_scope.
Open Scope Z_scope.

(** C145. Tracing changes nothing else: with or without it, reads, starts and stops answer the same and do the same to the
    frames, the interfaces and the world; without it they print nothing. *)
Theorem C145_library_is_the_same :
  (forall res errno msgs s out, read res errno msgs s out = let* (r, said) := read_t res errno msgs s out in Ret r) /\
  (forall fuel m configs num kernel opts out w, startInterfaceGroup fuel m configs num kernel out w =
     match startInterfaceGroup_t fuel m configs num kernel opts out w with
     | None => None | Some UB => Some UB | Some (Ret (r, g, w', said)) => Some (Ret (r, g, w')) end) /\
  (forall out w, stopInterfaceGroup out w = fst (stopInterfaceGroup_t out w)) /\
  (forall res errno msgs s out r said, read_t res errno msgs s out = Ret (r, said) -> render false said = "") /\
  (forall fuel m configs num kernel opts out w r g w' said,
     startInterfaceGroup_t fuel m configs num kernel opts out w = Some (Ret (r, g, w', said)) -> render false said = "") /\
  (forall out w, render false (snd (stopInterfaceGroup_t out w)) = "").
Proof.
  split; [exact read_erase|]. split; [exact start_erase|]. split; [exact stop_erase|].
  split; [intros; eapply traces_off, read_traces; eauto|]. split; [intros; eapply traces_off, start_traces; eauto|].
  intros [g|] w; [|reflexivity]. cbn [stopInterfaceGroup_t snd destroy_ptr_traces]. apply traces_off, destroy_traces_traces.
Qed.
Print Assumptions C145_library_is_the_same.

(** C145. Without traces the program is the program of C139. *)
Theorem C145_off : forall P fuel args kernel opts send started last ticks w,
  main_c P fuel args kernel send started last ticks w =
  match main_t P fuel args kernel opts send started last ticks w with
  | None => None | Some UB => Some UB | Some (Ret (c, w', out)) => Some (Ret (Ending c w' (render false out))) end.
Proof. exact main_off. Qed.
Print Assumptions C145_off.

(** C145. With them it prints the same lines, and between them lines that end with a carriage return. *)
Theorem C145_on : forall P fuel args kernel opts send started last ticks w c w' out, Forall plain_word args ->
  main_t P fuel args kernel opts send started last ticks w = Some (Ret (c, w', out)) ->
  List.filter (fun l => negb (is_trace l)) (lines (render true out)) = lines (render false out).
Proof. intros. eapply main_on; eauto. Qed.
Print Assumptions C145_on.

(** C145. A read traces, for each message the kernel delivers, its unknown headers and then, iff it gives the caller a frame for
    it, the identifier word of that message and the time of the frame; and nothing else. *)
Theorem C145_read : forall res errno msgs s out r said, iface_typed s -> recv_ok res msgs ->
  read_t res errno msgs s out = Ret (r, said) ->
  lines (render true said) = flat_map message_traces (if 0 <? res then msgs else []).
Proof. intros. eapply read_text; eauto. Qed.
Print Assumptions C145_read.

(** C145. A start traces, for each name in turn whose socket got bound, the options that the kernel refused; then, if any
    interface came up, the interfaces of the group it replaces. Nothing of which names did not come up, and why. *)
Theorem C145_start : forall fuel m configs num kernel opts out w r out' w' said, configs_ok configs num ->
  (List.length (m_required m) <= 255)%nat -> Forall plain_word (m_required m) -> Forall no_nul (m_required m) ->
  startInterfaceGroup_t fuel m configs num kernel opts out w = Some (Ret (r, out', w', said)) ->
  exists l, attempts m configs num kernel opts (w_trace w') l /\ (r = NotFound <-> up l = 0%nat) /\
    lines (render true said) = (attempts_traces m l ++ if (0 <? up l)%nat then repeat closing (List.length (owned out)) else [])%list.
Proof. intros. eapply start_text; eauto. Qed.
Print Assumptions C145_start.

(** C145. A stop traces once for every interface of the group. *)
Theorem C145_stop : forall out w, lines (render true (snd (stopInterfaceGroup_t out w))) = repeat closing (List.length (owned out)).
Proof. exact stop_text. Qed.
Print Assumptions C145_stop.

(** C145. The traces of the program, in order: those of the start, those of the reads of every iteration until the test ends,
    and one for each interface. [j] is how many iterations it takes; the last part says where the traces stand between the other
    lines. *)
Theorem C145_program : forall P fuel cl kernel opts send started last ticks w c w' out,
  wf_platform P -> steady started last ticks -> ticks_ok 255 ticks ->
  ~ late_long_device cl -> devices cl <> [] -> (List.length (devices cl) <= 255)%nat -> (List.length cl < fuel)%nat ->
  Forall plain_word (devices cl) -> Forall no_nul (devices cl) ->
  main_t P fuel (command_line cl) kernel opts send started last ticks w = Some (Ret (c, w', out)) ->
  exists l tr more j, let m := Manager (devices cl) true true in
    attempts m (Some [Filter 0 0]) 1 kernel opts tr l /\ w_trace w' = (tr ++ more)%list /\
    List.filter is_trace (lines (render true out)) =
      (attempts_traces m l ++ reading_traces (up l) (firstn j ticks) ++ repeat closing (up l))%list /\
    ((0 < up l)%nat -> accepted send (up l) -> ends_after 10 started (continuous cl) (up l) ticks j) /\
    (up l = 0%nat \/ ~ accepted send (up l) -> j = 0%nat) /\
    console_order (up l) (attempts_traces m l) (accepted send (up l)) (firstn j ticks) (lines (render true out)).
Proof.
  intros P fuel cl kernel opts send started last ticks w c w' out W SD TK NL NE LD F A ND H.
  destruct (main_out _ _ _ _ _ _ _ _ _ _ _ _ _ W SD TK NL NE LD F A ND H) as (l & tr & more & j & AT & WT & TR & J1 & J0 & OFF & CO).
  exists l, tr, more, j. cbv zeta in *. tauto.
Qed.
Print Assumptions C145_program.

(** C145. Full statement: with traces a program that fails says something. It need not. *)
Theorem C145_failure_is_explained_refuted : exists P fuel args kernel opts send started last ticks w w' out,
  Forall plain_word args /\ main_t P fuel args kernel opts send started last ticks w = Some (Ret (-1, w', out)) /\ render true out = "".
Proof.
  exists lp64, 9%nat, ["--device"; "vcan0"], (ex_answers (fun _ => true)), (fun _ _ => Options 0 0 0), (fun _ _ => (2, 0)), 100, 103, ex_ticks,
    (World [] []). do 2 eexists. split; [repeat (constructor; [plain_tac|]); constructor|]. split; [vm_compute; reflexivity|reflexivity].
Qed.
Print Assumptions C145_failure_is_explained_refuted.

(** C145. It says nothing iff no interface comes up and no option of a bound socket is refused. *)
Theorem C145_silent_iff : forall P fuel cl kernel opts send started last ticks w c w' out,
  wf_platform P -> steady started last ticks -> ticks_ok 255 ticks ->
  ~ late_long_device cl -> devices cl <> [] -> (List.length (devices cl) <= 255)%nat -> (List.length cl < fuel)%nat ->
  Forall plain_word (devices cl) -> Forall no_nul (devices cl) ->
  main_t P fuel (command_line cl) kernel opts send started last ticks w = Some (Ret (c, w', out)) ->
  exists l tr more, let m := Manager (devices cl) true true in
    attempts m (Some [Filter 0 0]) 1 kernel opts tr l /\ w_trace w' = (tr ++ more)%list /\
    (render true out = "" <-> up l = 0%nat /\ attempts_traces m l = []).
Proof. exact main_silent_on. Qed.
Print Assumptions C145_silent_iff.

(** The program of C139's example, on a kernel that knows no counts of dropped frames and refuses everything on the second
    socket; a message with headers the interface does not know. *)
Definition ex_line : list item := [LongDevice "vcan0"; ShortDevice "vcan1"].
Definition ex_opts (t : nat) (tr : list event) : options := Options (- Z.of_nat t) (-1) (- Z.of_nat t).
Definition cr (s : string) : string := s ++ String carriage_return "".
Definition ex_headers : kmsg := KMsg (2 ^ 31 + 5) 0 [] [CMsg 2 3 16 (0, 0) 0; CMsg SOL_SOCKET SO_TIMESTAMP 16 (7, 9) 0; CMsg SOL_SOCKET 77 16 (0, 0) 0] 48.
Example C145_case : ~ late_long_device ex_line /\ Forall plain_word (devices ex_line) /\ Forall no_nul (devices ex_line) /\
  match main_t lp64 9 (command_line ex_line) (ex_answers (fun _ => false)) ex_opts (fun _ _ => (2, 0)) 100 103 ex_ticks (World [] []) with
  | Some (Ret (c, w, out)) => c = 0 /\ lines (render true out) =
      [cr "SocketCANInterfaceManager: SO_RXQ_OVFL was not supported for socket vcan0";
       cr "SocketCANInterfaceManager: SO_TIMESTAMP was not supported for socket vcan1";
       cr "SocketCANInterfaceManager: SO_RXQ_OVFL was not supported for socket vcan1";
       cr "SocketCANInterfaceManager: SOL_CAN_RAW was not supported for socket vcan1";
       "Opened 2 interface(s)."; "Successfully enqueued 2 frame(s) on interface vcan0"; "Successfully enqueued 2 frame(s) on interface vcan1";
       cr "SocketCANInterface: rx [2147483649:0]"; "Evaluating 1 frame(s)...";
       cr "SocketCANInterface: rx [2147483655:0]"; cr "SocketCANInterface: rx [2147483650:0]"; cr "SocketCANInterface: rx [2147483649:0]";
       "Evaluating 3 frame(s)..."; "...Got all frames for interface vcan1";
       "vcan0: rx=1, rx_dropped=0, err_ack=0, err_bussoff=0, err_buserror=0, err_crtl=0, err_tx_timeout=0, err_lostarb=0, err_prot=0, err_trx=0, err_restarted=0";
       "vcan1: rx=3, rx_dropped=0, err_ack=0, err_bussoff=0, err_buserror=0, err_crtl=0, err_tx_timeout=0, err_lostarb=0, err_prot=0, err_trx=0, err_restarted=0";
       cr "SocketCANInterface: rx [2147483649:0]"; cr "SocketCANInterface: rx [2147483650:0]";
       "Evaluating 2 frame(s)..."; "...Got all frames for interface vcan0"; "Test passed!";
       cr "SocketCANInterface: closing socket."; cr "SocketCANInterface: closing socket."; "Stopped interface group."]
  | _ => False end /\
  message_traces ex_headers = [cr "SocketCANInterface: Unknown header level. level=2";
    cr "SocketCANInterface: Unknown header found. type=77, size=48"; cr "SocketCANInterface: rx [2147483653:7000009]"] /\
  match read_t 1 0 [ex_headers] (iface_make 0 "vcan0" 3) (repeat (frame_default mtu) RxFramesLen) with
  | Ret (r, said) => rd_result r = Success /\ lines (render true said) = message_traces ex_headers | UB => False end.
Proof.
  split. { intros (b & n & a & E & H). unfold ex_line in E. destruct b as [|x [|y [|z b]]]; cbn [app] in E; try discriminate. apply H. reflexivity. }
  split; [repeat (constructor; [plain_tac|]); constructor|].
  split; [repeat (constructor; [intros X; cbn in X; intuition discriminate|]); constructor|].
  split; [vm_compute; auto|]. split; vm_compute; auto.
Qed.
