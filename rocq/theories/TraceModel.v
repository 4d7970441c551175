(** Model of the traces that a build with LIBUAVCAN_INTROSPECTION_TRACE_ENABLE (introspection.hpp lines 18-45) adds to the
    console output of test/linux/example/media_on_linux. The functions are those of SocketCanModel.v, GroupModel.v,
    ManagerModel.v and ConsoleModel.v, with the output they produce; TraceProofs.v shows that these are what is left of them
    when tracing is off. std::printf and std::cout write to the same stream in program order (they are synchronized). *)
From Coq Require Import ZArith Bool String Ascii List.
From Verif Require Import Outcome ResultModel CInt CanFrameModel SocketCanModel GroupModel ManagerModel ParseArgsModel LoopBackModel
  TimedModel ConsoleModel.
Import ListNotations.
Open Scope string_scope.
Open Scope Z_scope.

(** What is written, in order: text that is always written, and traces.
    introspection.hpp lines 37-38, std::cout in main.cpp lines 66-401. *)
Inductive piece : Type := Print (text : string) | Trace (src msg : string).
(** introspection.hpp lines 37-38, std::cout in main.cpp lines 66-401. *)
Definition output : Type := list piece.

(** introspection.hpp lines 33-45: with tracing on, LIBUAVCAN_TRACE and LIBUAVCAN_TRACEF print the source, a colon, the
    message and a carriage return and line feed; with tracing off they print nothing. *)
Definition render_piece (on : bool) (p : piece) : string :=
  match p with
  | Print s => s
  | Trace src msg => if on then src ++ ": " ++ msg ++ String (ascii_of_nat 13) (String (ascii_of_nat 10) "") else ""
  end.
(** introspection.hpp lines 33-45. *)
Definition render (on : bool) (out : output) : string := String.concat "" (map (render_piece on) out).

(** std::string::c_str as printf's %s sees it: up to the first NUL. As at SocketCANInterfaceManager.cpp lines 121, 129 and 136. *)
Fixpoint c_str (s : string) : string :=
  match s with
  | EmptyString => EmptyString
  | String c t => if Ascii.eqb c zero then EmptyString else String c (c_str t)
  end.

(** SocketCANInterface.cpp lines 166-193, as cmsg_loop of SocketCanModel.v. *)
Fixpoint cmsg_loop_t (controllen : Z) (cs : list cmsg) (ts dropped : Z) : Z * Z * output :=
  match cs with
  | [] => (ts, dropped, [])
  | c :: rest =>
      if cm_level c =? SOL_SOCKET
      then if (cm_type c =? SO_TIMESTAMP) && (sizeof_timeval <=? controllen)
           then cmsg_loop_t controllen rest (u64 (u64 (fst (cm_tv c)) * 1000000 + u64 (snd (cm_tv c)))) dropped
           else if (cm_type c =? SO_RXQ_OVFL) && (4 <=? cm_len c)
                then cmsg_loop_t controllen rest ts (u64 (dropped + cm_u32 c))
                else let '(ts', d', out) := cmsg_loop_t controllen rest ts dropped in
                     (ts', d', Trace "SocketCANInterface"
                        ("Unknown header found. type=" ++ number (cm_type c) ++ ", size=" ++ number controllen) :: out)
      else let '(ts', d', out) := cmsg_loop_t controllen rest ts dropped in
           (ts', d', Trace "SocketCANInterface" ("Unknown header level. level=" ++ number (cm_level c)) :: out)
  end.

(** SocketCANInterface.cpp lines 159-251, as read_loop. *)
Fixpoint read_loop_t (msgs : list kmsg) (i : nat) (buf : list canfd) (st : stats) (out : list frame) (k : nat)
  : outcome (stats * list frame * nat * output) :=
  match msgs with
  | [] => Ret (st, out, k, [])
  | m :: rest =>
      match nth_error buf i, nth_error out k with
      | Some c, Some old =>
          let '(ts, dropped, heads) := cmsg_loop_t (km_controllen m) (km_cmsgs m) 0 (rx_dropped st) in
          let st1 := set_dropped dropped st in
          if has (cf_id c) CAN_ERR_FLAG
          then let* (st2, o, n, more) := read_loop_t rest (S i) buf (count_error (cf_id c) st1) out k in Ret (st2, o, n, (heads ++ more)%list)
          else if has (cf_id c) CAN_EFF_MASK
          then let* tmp := frame_make mtu (cf_id c) (Some (cf_data c)) (get_message_length c) ts in
               let* f := frame_assign mtu old tmp in
               let* (st2, o, n, more) := read_loop_t rest (S i) buf st1 (replace_nth k f out) (S k) in
               Ret (st2, o, n, (heads ++ Trace "SocketCANInterface" ("rx [" ++ number (fid f) ++ ":" ++ number ts ++ "]") :: more)%list)
          else let* (st2, o, n, more) := read_loop_t rest (S i) buf st1 out k in Ret (st2, o, n, (heads ++ more)%list)
      | _, _ => UB
      end
  end.

(** SocketCANInterface.cpp lines 141-254, as read. *)
Definition read_t (res errno : Z) (msgs : list kmsg) (s : iface) (out : list frame) : outcome (read_out * output) :=
  if res <=? 0
  then Ret (ReadOut s (if (res <? 0) && (errno =? EWOULDBLOCK) then SuccessNothing else UnknownInternalError) 0 out, [])
  else
    let seen := firstn RxFramesLen (firstn (Z.to_nat res) msgs) in
    let buf := receive_all seen (if_buf s) in
    let* (st, out', k, said) := read_loop_t seen 0 buf (if_stats s) out 0 in
    Ret (ReadOut (Iface (if_index s) (if_name s) (if_fd s) (add_total (Z.of_nat k mod 2 ^ 32) st) buf
                        (receive_ctl seen (if_ctl s)))
                 Success k out', said).

(** SocketCANInterfaceGroup.cpp lines 82-94, as group_read. *)
Definition group_read_t (res errno : Z) (msgs : list kmsg) (g : group) (index : Z) (out : list frame) (count : Z)
  : outcome (group * result * Z * list frame * output) :=
  if Z.of_nat (List.length g) <=? index then Ret (g, BadArgument, count, out, [])
  else match nth_error g (Z.to_nat index) with
       | Some s => let* (r, said) := read_t res errno msgs s out in
                   Ret (replace_nth (Z.to_nat index) (rd_if r) g, rd_result r, Z.of_nat (rd_count r), rd_frames r, said)
       | None => UB
       end.

(** What the kernel answers when a timestamp, a count of dropped frames and error messages are asked for
    (SocketCANInterfaceManager.cpp lines 116-137). *)
Record options : Type := Options { o_timestamp : Z; o_overflow : Z; o_errors : Z }.

(** SocketCANInterfaceManager.cpp lines 115-138. *)
Definition option_traces (name : string) (o : options) : output :=
  let refused (answer : Z) (what : string) : output :=
    if answer <? 0 then [Trace "SocketCANInterfaceManager" (what ++ " was not supported for socket " ++ c_str name)] else [] in
  (refused (o_timestamp o) "SO_TIMESTAMP" ++ refused (o_overflow o) "SO_RXQ_OVFL" ++ refused (o_errors o) "SOL_CAN_RAW")%list.

(** SocketCANInterfaceManager.cpp lines 54-154, as openSocket. *)
Definition openSocket_t (name : string) (enable_canfd own : bool) (a : answers) (o : options) (tr : list event)
  : Z * list event * output :=
  let s := a_socket a in
  if s <? 0 then (s, tr, [])
  else
    let tr := (tr ++ [Opened s])%list in
    let closed := (tr ++ [Closed s])%list in
    if enable_canfd && negb (a_canfd a =? 0) then (-1, closed, [])
    else if own && negb (a_own a =? 0) then (-1, closed, [])
    else if IFNAMSIZ <=? Z.of_nat (String.length name) then (-1, closed, [])
    else if (a_ioctl a <? 0) || (a_ifindex a <? 0) then (-1, closed, [])
    else if a_bind a <? 0 then (-1, closed, [])
    else
      let out := option_traces name o in
      if negb (a_error a =? 0) then (-1, closed, out)
      else (s, tr, out).

(** SocketCANInterfaceManager.cpp lines 212-241, as createInterface. *)
Definition createInterface_t (m : manager) (index : Z) (name : string) (configs : option (list filter)) (num : nat)
  (a : answers) (o : options) (w : world) : outcome (result * option iface * world * output) :=
  let '(fd, tr, out) := openSocket_t name (m_canfd m) (m_own m) a o (w_trace w) in
  if fd <=? 0 then Ret (UnknownInternalError, None, World tr (w_filters w), out)
  else
    let* (r, log) := configureFilters (a_filter a) fd configs num (w_filters w) in
    if result_not r then Ret (r, None, World (tr ++ [Closed fd])%list log, out)
    else Ret (Success, Some (iface_make index name fd), World tr log, out).

(** SocketCANInterfaceManager.cpp lines 178-185, as start_loop. *)
Fixpoint start_loop_t (fuel : nat) (i : Z) (t : nat) (m : manager) (configs : option (list filter)) (num : nat)
  (kernel : nat -> list event -> answers) (opts : nat -> list event -> options) (acc : list iface) (w : world)
  : option (outcome (list iface * world * output)) :=
  match fuel with
  | O => None
  | S k =>
      if i <? Z.of_nat (List.length (m_required m))
      then match nth_error (m_required m) (Z.to_nat i) with
           | None => Some UB
           | Some name =>
               match createInterface_t m i name configs num (kernel t (w_trace w)) (opts t (w_trace w)) w with
               | UB => Some UB
               | Ret (r, o, w', said) =>
                   match start_loop_t k ((i + 1) mod 256) (S t) m configs num kernel opts
                     (match o with Some s => if negb (result_not r) then acc ++ [s] else acc | None => acc end)%list w' with
                   | None => None
                   | Some UB => Some UB
                   | Some (Ret (g, w2, more)) => Some (Ret (g, w2, (said ++ more)%list))
                   end
               end
           end
      else Some (Ret (acc, w, []))
  end.

(** SocketCANInterface.cpp lines 70-74, for each interface of a group that is destroyed. *)
Definition destroy_traces (g : group) : output := map (fun _ => Trace "SocketCANInterface" "closing socket.") g.
(** The reset of SocketCANInterfaceManager.cpp line 192 and the assignment of line 203: SocketCANInterface.cpp line 72. *)
Definition destroy_ptr_traces (p : option group) : output := match p with Some g => destroy_traces g | None => [] end.

(** SocketCANInterfaceManager.cpp lines 170-196, as startInterfaceGroup. *)
Definition startInterfaceGroup_t (fuel : nat) (m : manager) (configs : option (list filter)) (num : nat)
  (kernel : nat -> list event -> answers) (opts : nat -> list event -> options) (out : option group) (w : world)
  : option (outcome (result * option group * world * output)) :=
  match start_loop_t fuel 0 0 m configs num kernel opts [] w with
  | None => None
  | Some UB => Some UB
  | Some (Ret ([], w', said)) => Some (Ret (NotFound, out, w', said))
  | Some (Ret (g, w', said)) =>
      Some (Ret (if Z.of_nat (List.length (m_required m)) <=? getInterfaceCount g then Success else SuccessPartial,
                 Some g, World (destroy_ptr out (w_trace w')) (w_filters w'), (said ++ destroy_ptr_traces out)%list))
  end.

(** SocketCANInterfaceManager.cpp lines 198-205, as stopInterfaceGroup. *)
Definition stopInterfaceGroup_t (out : option group) (w : world) : result * option group * world * output :=
  (Success, None, World (destroy_ptr out (w_trace w)) (w_filters w), destroy_ptr_traces out).

(** main.cpp lines 191-238, as start_test_c of ConsoleModel.v; writing traces nothing. *)
Definition start_test_t (fuel : nat) (lb : loopback) (m : manager) (kernel : nat -> list event -> answers)
  (opts : nat -> list event -> options) (sendmmsg : nat -> list canfd -> Z * Z) (w : world)
  : option (outcome (option group * loopback * list (list canfd) * world * output)) :=
  if 0 <? Z.of_nat (List.length (lb_found lb)) then Some (Ret (None, lb, [], w, []))
  else if negb (doesReceiveOwnMessages m)
  then Some (Ret (None, lb, [], w, [Print ("You must enable local loopback of frames sent from this process for this test to work." ++ endl)]))
  else
    match startInterfaceGroup_t fuel m (Some test_filters) (List.length test_filters) kernel opts None w with
    | None => None
    | Some UB => Some UB
    | Some (Ret (r, out, w1, said)) =>
        if isFailure r then Some (Ret (out, lb, [], w1, said))
        else
          match out with
          | None => Some UB
          | Some g =>
              let opened := Print ("Opened " ++ number (getInterfaceCount g) ++ " interface(s)." ++ endl) in
              match start_writes_c (Z.to_nat (getInterfaceCount g)) 0 sendmmsg g [] with
              | UB => Some UB
              | Ret (g', found, ok, sents, text) =>
                  if (0 <? getInterfaceCount g) && ok
                  then Some (Ret (Some g', LoopBack found (lb_result lb), sents, w1, (said ++ [opened; Print text])%list))
                  else Some (Ret (None, LoopBack [] (lb_result lb), [], World (destroy g' (w_trace w1)) (w_filters w1),
                                  (said ++ [opened; Print text] ++ destroy_traces g')%list))
              end
          end
    end.

(** main.cpp lines 266-279, the reads, as read_round of LoopBackModel.v: with what each of them traces. *)
Fixpoint read_round_t (n i : nat) (recv : nat -> Z * Z * list kmsg) (g : group) (frames : list frame)
  : outcome (group * list (result * list frame * output)) :=
  match n with
  | O => Ret (g, [])
  | S k =>
      let '(res, errno, msgs) := recv i in
      let* t := group_read_t res errno msgs g (Z.of_nat i) frames 0 in
      let '(g1, r, count, frames1, said) := t in
      let* (g2, rest) := read_round_t k (S i) recv g1 frames1 in
      Ret (g2, (r, firstn (Z.to_nat count) frames1, said) :: rest)
  end.

(** main.cpp lines 266-279: each read traces before its frames are evaluated, if [open] (the test has not passed before). *)
Fixpoint evaluate_round_t (open : bool) (g : group) (i : nat) (batch : list (result * list frame * output)) (found : list Z)
  : outcome (list Z * output) :=
  match batch with
  | [] => Ret (found, [])
  | (r, fs, said) :: rest =>
      let* (found', text) :=
        (if open && (negb (result_not r) && (0 <? Z.of_nat (List.length fs))) then evaluate_c g i fs found else Ret (found, "")) in
      let* (found'', more) := evaluate_round_t open g (S i) rest found' in
      Ret (found'', (said ++ Print text :: more)%list)
  end.

(** main.cpp lines 240-291, as run_console. *)
Fixpoint run_t (P : platform) (timeout : Z) (continuous : bool) (started last : Z) (ticks : list tick) (g : group) (lb : loopback)
  : outcome (option result * output) :=
  match ticks with
  | [] => Ret (None, [])
  | k :: rest =>
      let* over := timed_out P timeout started (tk_check k) in
      if over : bool then Ret (Some (lb_result lb), [Print ("Test timed out after " ++ number timeout ++ endl)])
      else
        let* selected := select P (tk_ppoll k) g 100000 true in
        let* period := sarith P 64 (tk_now k - last) in
        let due := ns_per_second <=? period in
        let printed := if due then String.concat "" (map (fun x => print_stats (fst x) (snd x)) (print_all g)) else "" in
        let last' := if due then tk_now k else last in
        let* (g', batch) := read_round_t (Z.to_nat (getInterfaceCount g)) 0 (tk_recv k) g (repeat (frame_default mtu) RxFramesLen) in
        let* (found, said) := evaluate_round_t (result_not (lb_result lb)) g' 0 batch (lb_found lb) in
        let* (r, more) :=
          (if isComplete g' found
           then if negb continuous then Ret (Some Success, [])
                else run_t P timeout continuous started last' rest g' (LoopBack found Success)
           else run_t P timeout continuous started last' rest g' (LoopBack found (lb_result lb))) in
        Ret (r, (Print printed :: said ++ more)%list)
  end.

(** main.cpp lines 358-406, as main_c: exit status, the world afterwards and the output. *)
Definition main_t (P : platform) (fuel : nat) (args : list string) (kernel : nat -> list event -> answers)
  (opts : nat -> list event -> options) (sendmmsg : nat -> list canfd -> Z * Z) (started last : Z) (ticks : list tick) (w : world)
  : option (outcome (Z * world * output)) :=
  match parse_args fuel args with
  | None => None
  | Some UB => Some UB
  | Some (Ret (r, ns)) =>
      if negb (Success =? r) then Some (Ret (-1, w, [Print usage]))
      else
        match start_test_t fuel loopback_make (Manager (ns_devices ns) true true) kernel opts sendmmsg w with
        | None => None
        | Some UB => Some UB
        | Some (Ret (None, _, _, w1, said)) => Some (Ret (-1, w1, said))
        | Some (Ret (Some g, lb, _, w1, said)) =>
            match run_t P 10 (ns_continuous ns) started last ticks g lb with
            | UB => Some UB
            | Ret (None, _) => None
            | Ret (Some passed, more) =>
                let '(_, _, w2, closing) := stopInterfaceGroup_t (Some g) w1 in
                let failed := result_not passed in
                Some (Ret (if failed then -1 else 0, w2,
                  (said ++ more ++ [Print (if failed then "" else "Test passed!" ++ endl)] ++ closing ++
                   [Print ("Stopped interface group." ++ endl)])%list))
            end
        end
  end.
