(** Model of the command line parsing of test/linux/example/media_on_linux/main.cpp and of the part of glibc's getopt_long
    it uses. The environment does not set POSIXLY_CORRECT (if it does see ParsePosixModel.v). Simplifications: the messages
    getopt_long prints are ignored and allocation does not fail. *)
From Coq Require Import ZArith Bool Ascii String List.
From Verif Require Import Outcome ResultModel.
Import ListNotations.
Open Scope Z_scope.
Open Scope string_scope.

(** getopt.h. As in main.cpp lines 42-45. *)
Record long_option : Type := LongOption { lo_name : string; lo_has_arg : Z; lo_val : ascii }.
(** Used at main.cpp lines 42 and 109. *)
Definition required_argument : Z := 1.

(** main.cpp lines 42-45; the terminating entry is the end of the list. *)
Definition long_options : list long_option :=
  [LongOption "device" required_argument "d"; LongOption "continuous" 0 "c"; LongOption "c" 0 "e"].

(** main.cpp lines 50-59. *)
Record namespace : Type := Namespace { ns_devices : list string; ns_continuous : bool }.

(** The part of a word before the first '=' and, if there is one, the part after it. For the call at main.cpp line 85. *)
Fixpoint split_eq (s : string) : string * option string :=
  match s with
  | EmptyString => (EmptyString, None)
  | String c t => if Ascii.eqb c "=" then (EmptyString, Some t) else let '(n, v) := split_eq t in (String c n, v)
  end.

(** What getopt_long answers: no more options (-1), an option (its index in the table for a long option, its value and
    optarg), or '?'. To the call at main.cpp line 85. *)
Inductive getopt_answer : Type := NoMore | Option_ (longindex : option nat) (val : ascii) (optarg : option string) | Question.

(** glibc: the long option a name refers to: an exact match, or else the only one it abbreviates. (Several abbreviated
    options are accepted by glibc if they are indistinguishable; no two of this table ever are, their values differ.)
    For the call at main.cpp line 85. *)
Fixpoint find_exact (name : string) (i : nat) (table : list long_option) : option (nat * long_option) :=
  match table with
  | [] => None
  | o :: t => if String.eqb name (lo_name o) then Some (i, o) else find_exact name (S i) t
  end.
(** The entries (as in main.cpp lines 42-45) whose names begin with [name]. *)
Fixpoint find_prefix (name : string) (i : nat) (table : list long_option) : list (nat * long_option) :=
  match table with
  | [] => []
  | o :: t => if String.prefix name (lo_name o) then (i, o) :: find_prefix name (S i) t else find_prefix name (S i) t
  end.
(** For the call at main.cpp line 85. *)
Definition find_long (name : string) (table : list long_option) : option (nat * long_option) :=
  match find_exact name 0 table with
  | Some x => Some x
  | None => match find_prefix name 0 table with [x] => Some x | _ => None end
  end.

(** glibc getopt_long(argc, argv, "d:", table, &index) on the words not yet scanned; it answers the words left. A word that
    is not an option is skipped (argv is permuted); "--" ends the options; an option may take the next word.
    The call at main.cpp line 85. *)
Fixpoint getopt_long (args : list string) (table : list long_option) : getopt_answer * list string :=
  match args with
  | [] => (NoMore, [])
  | w :: rest =>
      match w with
      | String c0 (String c1 body) =>
          if negb (Ascii.eqb c0 "-") then getopt_long rest table
          else if Ascii.eqb c1 "-"
          then if String.eqb body "" then (NoMore, rest)
               else
                 let '(name, value) := split_eq body in
                 match find_long name table with
                 | None => (Question, rest)
                 | Some (i, o) =>
                     match value with
                     | Some v => if (lo_has_arg o =? 0)%Z then (Question, rest)
                                 else (Option_ (Some i) (lo_val o) (Some v), rest)
                     | None =>
                         if (lo_has_arg o =? required_argument)%Z
                         then match rest with
                              | v :: rest' => (Option_ (Some i) (lo_val o) (Some v), rest')
                              | [] => (Question, [])
                              end
                         else (Option_ (Some i) (lo_val o) None, rest)
                     end
                 end
          else if Ascii.eqb c1 "d"
          then if String.eqb body ""
               then match rest with
                    | v :: rest' => (Option_ None "d" (Some v), rest')
                    | [] => (Question, [])
                    end
               else (Option_ None "d" (Some body), rest)
          else (Question, rest)
      | _ => getopt_long rest table
      end
  end.

(** main.cpp line 98. *)
Fixpoint clear_has_arg (i : nat) (table : list long_option) : list long_option :=
  match table, i with
  | [], _ => []
  | o :: t, O => LongOption (lo_name o) 0 (lo_val o) :: t
  | o :: t, S k => o :: clear_has_arg k t
  end.

(** main.cpp lines 78-110. [fuel] bounds the iterations of the loop; [None] says that they did not suffice. A null optarg
    is turned into a std::string, which is undefined. option_index is 0 unless getopt_long sets it. *)
Fixpoint parse_loop (fuel : nat) (args : list string) (table : list long_option) (ns : namespace)
  : option (outcome (result * namespace)) :=
  match fuel with
  | O => None
  | S k =>
      match getopt_long args table with
      | (NoMore, _) =>
          Some (Ret (match table with
                     | o :: _ => if (lo_has_arg o =? required_argument)%Z then BadArgument else Success
                     | [] => Success
                     end, ns))
      | (Question, _) => Some (Ret (SuccessPartial, ns))
      | (Option_ index val optarg, rest) =>
          if Ascii.eqb val "e" || Ascii.eqb val "c"
          then parse_loop k rest table (Namespace (ns_devices ns) true)
          else if Ascii.eqb val "d"
          then match optarg with
               | None => Some UB
               | Some v => parse_loop k rest (clear_has_arg (match index with Some i => i | None => 0 end) table)
                             (Namespace (ns_devices ns ++ [v]) (ns_continuous ns))
               end
          else Some (Ret (Failure, ns))
      end
  end.

(** The arguments without the program's name, as main calls it with a new Namespace. Called at main.cpp line 362. *)
Definition parse_args (fuel : nat) (args : list string) : option (outcome (result * namespace)) :=
  parse_loop fuel args long_options (Namespace [] false).
