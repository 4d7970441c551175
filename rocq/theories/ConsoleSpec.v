(** Specification vocabulary for what the example program prints. *)
From Coq Require Import ZArith Bool String Ascii List DecimalString.
From Verif Require Import Outcome ResultModel SocketCanModel LoopBackModel LoopBackSpec TimedModel TimedSpec.
Import ListNotations.
Open Scope string_scope.

Definition newline : ascii := ascii_of_nat 10.

(** The lines of a text, without their ends. *)
Fixpoint lines (s : string) : list string :=
  match s with
  | EmptyString => []
  | String c t =>
      if Ascii.eqb c newline then "" :: lines t
      else match lines t with
           | [] => [String c ""]
           | l :: ls => String c l :: ls
           end
  end.

(** A word without a line end, such as the name of a network device. *)
Definition one_line (s : string) : Prop := ~ In newline (list_ascii_of_string s).

(** The lines of the program that the properties mention. *)
Definition passed : string := "Test passed!".
Definition stopped : string := "Stopped interface group.".
Definition gave_up : string := "Test timed out after 10".
Definition got_all (name : string) : string := "...Got all frames for interface " ++ name.
Definition not_enqueued (name : string) : string := "Failed to enqueue a frame on interface group " ++ name.
Definition needs_loopback : string :=
  "You must enable local loopback of frames sent from this process for this test to work.".

(** [said] ends with these lines. *)
Definition ends_with (said tail : list string) : Prop := exists before, said = (before ++ tail)%list.

(** A number in decimal digits. *)
Definition decimal (z : Z) : string := NilZero.string_of_int (Z.to_int z).

(** The lines about opening the interfaces: [taken] frames were taken on the interface [name]. *)
Definition opened (n : Z) : string := "Opened " ++ decimal n ++ " interface(s).".
Definition enqueued (taken : Z) (name : string) : string :=
  "Successfully enqueued " ++ decimal taken ++ " frame(s) on interface " ++ name.
(** These lines for the first [n] of the interfaces with these names. *)
Definition enqueued_lines (send : nat -> list canfd -> Z * Z) (names : list string) (n : nat) : list string :=
  map (fun i => enqueued (fst (send i [test_message 1; test_message 2])) (nth i names "")) (seq 0 n).

(** The line about the statistics of one interface, the only kind with a colon. *)
Definition statistics_line (name : string) (st : stats) : string :=
  name ++ ": rx=" ++ decimal (rx_total st) ++ ", rx_dropped=" ++ decimal (rx_dropped st) ++
  String.concat "" (map (fun x => ", " ++ fst x ++ "=" ++ decimal (snd x))
    [("err_ack", err_ack st); ("err_bussoff", err_bussoff st); ("err_buserror", err_buserror st); ("err_crtl", err_crtl st);
     ("err_tx_timeout", err_tx_timeout st); ("err_lostarb", err_lostarb st); ("err_prot", err_prot st); ("err_trx", err_trx st);
     ("err_restarted", err_restarted st)]).
Definition has_colon (s : string) : bool := existsb (Ascii.eqb ":") (list_ascii_of_string s).

(** The line about frames that the test looks at. Only lines about statistics have a colon. *)
Definition evaluating (n : Z) : string := "Evaluating " ++ decimal n ++ " frame(s)...".
Definition on_evaluation (s : string) : bool := prefix "Evaluating " s && negb (has_colon s).
(** These lines for one iteration, with [n] interfaces: one for each on which frames were received that a read hands out. *)
Definition evaluating_lines (n : nat) (k : tick) : list string :=
  flat_map (fun i => let c := frames_among (received_on i [k]) in if (0 <? c)%Z then [evaluating c] else []) (seq 0 n).

(** The help text. *)
Definition tabbed (s : string) : string := String (ascii_of_nat 9) s.
Definition help : list string :=
  ["Usage:"; tabbed "--device, -d      : ip device name(s) to use for the test."; "";
   tabbed "--continuous, --c : run until the test times out."; ""; tabbed "To create a virtual device on linux do:"; "";
   tabbed (tabbed "ip link add dev vcan0 type vcan"); tabbed (tabbed "ip link set up vcan0"); ""].
