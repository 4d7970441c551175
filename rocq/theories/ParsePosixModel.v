(** Model of the command line parsing of test/linux/example/media_on_linux/main.cpp when the environment sets
    POSIXLY_CORRECT: getopt_long then does not permute argv. *)
From Coq Require Import ZArith Bool Ascii String List.
From Verif Require Import Outcome ResultModel ParseArgsModel.
Import ListNotations.
Open Scope Z_scope.
Open Scope string_scope.

(** glibc (REQUIRE_ORDER): the options end at a word that does not begin with '-', or is '-' alone. An option is taken as
    without POSIXLY_CORRECT. The call at main.cpp line 85. *)
Definition getopt_long_posix (args : list string) (table : list long_option) : getopt_answer * list string :=
  match args with
  | [] => (NoMore, [])
  | w :: rest =>
      match w with
      | String c0 (String c1 body) => if negb (Ascii.eqb c0 "-") then (NoMore, args) else getopt_long args table
      | _ => (NoMore, args)
      end
  end.

(** main.cpp lines 78-110, as [parse_loop]. *)
Fixpoint parse_loop_posix (fuel : nat) (args : list string) (table : list long_option) (ns : namespace)
  : option (outcome (result * namespace)) :=
  match fuel with
  | O => None
  | S k =>
      match getopt_long_posix args table with
      | (NoMore, _) =>
          Some (Ret (match table with
                     | o :: _ => if (lo_has_arg o =? required_argument)%Z then BadArgument else Success
                     | [] => Success
                     end, ns))
      | (Question, _) => Some (Ret (SuccessPartial, ns))
      | (Option_ index val optarg, rest) =>
          if Ascii.eqb val "e" || Ascii.eqb val "c"
          then parse_loop_posix k rest table (Namespace (ns_devices ns) true)
          else if Ascii.eqb val "d"
          then match optarg with
               | None => Some UB
               | Some v => parse_loop_posix k rest (clear_has_arg (match index with Some i => i | None => 0 end) table)
                             (Namespace (ns_devices ns ++ [v]) (ns_continuous ns))
               end
          else Some (Ret (Failure, ns))
      end
  end.

(** Called at main.cpp line 362. *)
Definition parse_args_posix (fuel : nat) (args : list string) : option (outcome (result * namespace)) :=
  parse_loop_posix fuel args long_options (Namespace [] false).
