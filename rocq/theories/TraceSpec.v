(** Specification vocabulary for the traces of debug builds. *)
From Coq Require Import ZArith Bool String Ascii List.
From Verif Require Import Outcome ResultModel CanFrameModel SocketCanModel SocketCanSpec ManagerModel ManagerSpec LoopBackSpec TimedModel TimedSpec
  ConsoleSpec TraceModel.
Import ListNotations.
Open Scope string_scope.

(** A trace is a line that ends with a carriage return. *)
Definition carriage_return : ascii := ascii_of_nat 13.
Definition trace_line (src msg : string) : string := src ++ ": " ++ msg ++ String carriage_return "".
Fixpoint is_trace (l : string) : bool :=
  match l with
  | EmptyString => false
  | String c EmptyString => Ascii.eqb c carriage_return
  | String _ t => is_trace t
  end.
(** A name on one line without a carriage return, such as the name of a network device. *)
Definition plain_word (s : string) : Prop := one_line s /\ ~ In carriage_return (list_ascii_of_string s).

(** A name that is the same read as a C string. *)
Definition no_nul (s : string) : Prop := ~ In zero (list_ascii_of_string s).

(** A header of a message whose control data have size [size] that the interface does not know is traced. (A header that the
    kernel calls a count of dropped frames has a size of 4 bytes or more.) *)
Definition header_traces (size : Z) (c : cmsg) : list string :=
  if negb (cm_level c =? SOL_SOCKET)%Z then [trace_line "SocketCANInterface" ("Unknown header level. level=" ++ decimal (cm_level c))]
  else if (cm_type c =? SO_TIMESTAMP)%Z || is_drop c then []
  else [trace_line "SocketCANInterface" ("Unknown header found. type=" ++ decimal (cm_type c) ++ ", size=" ++ decimal size)].

(** The traces of a message: its unknown headers and, if it is a frame for the caller, the identifier word and the time. *)
Definition message_traces (m : kmsg) : list string :=
  (flat_map (header_traces (km_controllen m)) (km_cmsgs m) ++
   (if negb (is_error (km_id m)) && negb (identifier (km_id m) =? 0)%Z
    then [trace_line "SocketCANInterface" ("rx [" ++ decimal (km_id m) ++ ":" ++ decimal (stamp m) ++ "]")] else []))%list.

(** The socket for the interface [name] was opened and bound. *)
Definition gets_bound (m : manager) (name : string) (a : answers) : bool :=
  (0 <=? a_socket a)%Z && (negb (m_canfd m) || (a_canfd a =? 0)%Z) && (negb (m_own m) || (a_own a =? 0)%Z) &&
  (Z.of_nat (String.length name) <? 16)%Z && (0 <=? a_ioctl a)%Z && (0 <=? a_ifindex a)%Z && (0 <=? a_bind a)%Z.

(** Then each of the three options that the kernel refuses is traced. *)
Definition attempt_traces (m : manager) (name : string) (a : answers) (o : options) : list string :=
  if gets_bound m name a
  then map (fun what => trace_line "SocketCANInterfaceManager" (what ++ " was not supported for socket " ++ name))
    (map snd (List.filter (fun x => fst x <? 0)%Z
      [(o_timestamp o, "SO_TIMESTAMP"); (o_overflow o, "SO_RXQ_OVFL"); (o_errors o, "SOL_CAN_RAW")]))
  else [].

(** The destructor of an interface. *)
Definition closing : string := trace_line "SocketCANInterface" "closing socket.".

(** One attempt to open an interface: its name, what the kernel answered, and whether it came up. *)
Record attempt : Type := Attempt { at_name : string; at_answers : answers; at_options : options; at_up : bool }.
(** The attempts that a start of [m] makes in the course of the history [tr']. *)
Definition attempts (m : manager) (configs : option (list filter)) (num : nat) (kernel : nat -> list event -> answers)
  (opts : nat -> list event -> options) (tr' : list event) (l : list attempt) : Prop :=
  map at_name l = m_required m /\
  forall t x, nth_error l t = Some x ->
    (at_up x = true <-> comes_up m configs num (at_name x) (at_answers x)) /\
    exists tr more, tr' = (tr ++ more)%list /\ at_answers x = kernel t tr /\ at_options x = opts t tr.
Definition attempts_traces (m : manager) (l : list attempt) : list string :=
  flat_map (fun x => attempt_traces m (at_name x) (at_answers x) (at_options x)) l.
Definition up (l : list attempt) : nat := List.length (List.filter at_up l).

(** What reading from [n] interfaces traces in the course of these iterations. *)
Definition reading_traces (n : nat) (ticks : list tick) : list string :=
  flat_map (fun k => flat_map (fun i => flat_map message_traces (received_on i [k])) (seq 0 n)) ticks.

(** The test, on [n] interfaces, ends after exactly [j] of these iterations: all of them begin in time, and either the last of
    them makes it complete and it is not to continue, or the next one begins too late. *)
Definition ends_after (timeout started : Z) (continuous : bool) (n : nat) (ticks : list tick) (j : nat) : Prop :=
  (j <= List.length ticks)%nat /\ within timeout started (firstn j ticks) = firstn j ticks /\
  (forall i, (i < j)%nat -> continuous = true \/ ~ all_arrived (deliveries (firstn i ticks)) n) /\
  ((continuous = false /\ all_arrived (deliveries (firstn j ticks)) n) \/
   ((continuous = true \/ ~ all_arrived (deliveries (firstn j ticks)) n) /\
    exists k, nth_error ticks j = Some k /\ (timeout * 1000000000 < tk_check k - started)%Z)).

(** Where the traces stand between the other lines. An iteration prints statistics or not; then, interface by interface, come
    the traces of the read and what is printed about its frames. *)
Definition untraced (ls : list string) : Prop := Forall (fun l => is_trace l = false) ls.
Definition iteration_lines (n : nat) (k : tick) (block : list string) : Prop :=
  exists statistics evaluations, untraced statistics /\ List.length evaluations = n /\ Forall untraced evaluations /\
    block = (statistics ++ flat_map (fun i => flat_map message_traces (received_on i [k]) ++ nth i evaluations []) (seq 0 n))%list.
(** The lines of the program with [n] interfaces: the traces of the start; the lines that say what was opened and enqueued; if
    the test runs, its iterations [seen] and its verdict; the traces of the destructors; and that the group is stopped. *)
Definition console_order (n : nat) (starting : list string) (runs : Prop) (seen : list tick) (ls : list string) : Prop :=
  (n = 0%nat /\ ls = starting) \/
  ((0 < n)%nat /\ ~ runs /\ exists opening, untraced opening /\ ls = (starting ++ opening ++ repeat closing n)%list) \/
  ((0 < n)%nat /\ runs /\ exists opening blocks verdict, untraced opening /\ Forall2 (iteration_lines n) seen blocks /\ untraced verdict /\
     ls = (starting ++ opening ++ concat blocks ++ verdict ++ repeat closing n ++ [stopped])%list).
