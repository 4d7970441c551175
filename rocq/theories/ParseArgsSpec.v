(** Specification vocabulary for command lines: what the usage message documents. *)
From Coq Require Import Bool String List.
Import ListNotations.
Open Scope string_scope.

(** The options of the usage message. *)
Inductive item : Type :=
| ShortDevice (name : string)      (* -d NAME *)
| LongDevice (name : string)       (* --device NAME *)
| Continuous                       (* --continuous *)
| ShortContinuous.                 (* --c *)

Definition words (x : item) : list string :=
  match x with
  | ShortDevice n => ["-d"; n]
  | LongDevice n => ["--device"; n]
  | Continuous => ["--continuous"]
  | ShortContinuous => ["--c"]
  end.
Definition command_line (l : list item) : list string := flat_map words l.

Definition devices_of (x : item) : list string :=
  match x with ShortDevice n | LongDevice n => [n] | _ => [] end.
Definition devices (l : list item) : list string := flat_map devices_of l.

Definition is_continuous (x : item) : bool := match x with Continuous | ShortContinuous => true | _ => false end.
Definition continuous (l : list item) : bool := existsb is_continuous l.

(** A device given with --device after another device. *)
Definition late_long_device (l : list item) : Prop :=
  exists before n after, l = (before ++ LongDevice n :: after)%list /\ devices before <> [].

(** ** All the ways to spell the options that getopt_long accepts *)
Inductive form : Type :=
| Operand (w : string)             (* a word that is no option *)
| NextD (n : string)               (* -d NAME *)
| GluedD (n : string)              (* -dNAME *)
| NextLong (a n : string)          (* --device NAME, or an abbreviation *)
| EqualsLong (a n : string)        (* --device=NAME, or an abbreviation *)
| Go (a : string).                 (* --continuous, --c, or another abbreviation *)

(** A word that starts with '-' and is not '-' alone. *)
Definition option_word (w : string) : Prop := exists c t, w = "-" ++ String c t.
Definition abbreviates (a full : string) : Prop := a <> "" /\ prefix a full = true.

Definition well_formed (x : form) : Prop :=
  match x with
  | Operand w => ~ option_word w
  | NextD _ => True
  | GluedD n => n <> ""
  | NextLong a _ | EqualsLong a _ => abbreviates a "device"
  | Go a => abbreviates a "continuous"
  end.

Definition spelling (x : form) : list string :=
  match x with
  | Operand w => [w]
  | NextD n => ["-d"; n]
  | GluedD n => ["-d" ++ n]
  | NextLong a n => ["--" ++ a; n]
  | EqualsLong a n => ["--" ++ a ++ "=" ++ n]
  | Go a => ["--" ++ a]
  end.

Definition device_in (x : form) : list string :=
  match x with NextD n | GluedD n | NextLong _ n | EqualsLong _ n => [n] | _ => [] end.
Definition devices_in (l : list form) : list string := flat_map device_in l.
Definition go_in (l : list form) : bool := existsb (fun x => match x with Go _ => true | _ => false end) l.

(** The long option for devices is not used after another device. *)
Definition is_long_device (x : form) : Prop := match x with NextLong _ _ | EqualsLong _ _ => True | _ => False end.
Definition no_late_long (l : list form) : Prop :=
  forall before x after, l = (before ++ x :: after)%list -> is_long_device x -> devices_in before = [].

(** How the words of a command line can go on after some forms that gave the devices [ds]: they end, or "--" ends the
    options; *)
Definition options_end (tail : list string) : Prop := tail = [] \/ exists rest, tail = "--" :: rest.
(** or the next word is the long device option, without '=', although there is a device already; *)
Definition bare_late_device (ds tail : list string) : Prop :=
  ds <> [] /\ exists a rest, abbreviates a "device" /\ tail = ("--" ++ a) :: rest.
(** or it is the long device option with '=', although there is a device already, or an option word that is no form. *)
Definition rejected (ds tail : list string) : Prop :=
  ~ options_end tail /\ ~ bare_late_device ds tail /\
  ((ds <> [] /\ exists a n rest, abbreviates a "device" /\ tail = ("--" ++ a ++ "=" ++ n) :: rest) \/
   forall x rest, well_formed x -> tail <> (spelling x ++ rest)%list).

(** ** When POSIXLY_CORRECT is set *)
Definition is_operand (x : form) : Prop := match x with Operand _ => True | _ => False end.
(** The next word is no option. *)
Definition operand_next (tail : list string) : Prop := exists w rest, tail = w :: rest /\ ~ option_word w.
