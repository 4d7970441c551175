(** C77, C82: command line parsing. *)
From Coq Require Import ZArith Bool Ascii String List Lia.
From Verif Require Import Outcome ResultModel ParseArgsModel ParsePosixModel ParseArgsSpec ParseArgsProofs
  ParseFormsProofs ParsePosixProofs.
Import ListNotations.
Open Scope string_scope.

(** C77. Full statement: for every list of items with at least one device,
    [parse_args fuel (command_line l) = Some (Ret (Success, Namespace (devices l) (continuous l)))]. *)
Theorem C77_devices_accepted_refuted : forall fuel, (2 < fuel)%nat ->
  parse_args fuel ["--device"; "vcan0"; "--device"; "vcan1"] = Some UB.
Proof.
  intros fuel F. apply (proj1 (parse_documented [LongDevice "vcan0"; LongDevice "vcan1"] fuel F)).
  exists [LongDevice "vcan0"], "vcan1", []. split; [reflexivity|discriminate].
Qed.
Print Assumptions C77_devices_accepted_refuted.
(** Exactly: undefined if --device follows another device, otherwise the names in order, and BadArgument without any. *)
Theorem C77_documented_options : forall l fuel, (length l < fuel)%nat ->
  (late_long_device l -> parse_args fuel (command_line l) = Some UB) /\
  (~ late_long_device l -> parse_args fuel (command_line l) =
     Some (Ret (match devices l with [] => BadArgument | _ => Success end, Namespace (devices l) (continuous l)))).
Proof. exact parse_documented. Qed.
Print Assumptions C77_documented_options.
Example C77_case : parse_args 5 (command_line [LongDevice "vcan0"; ShortDevice "-d"; Continuous; ShortDevice ""]) =
  Some (Ret (Success, Namespace ["vcan0"; "-d"; ""] true)).
Proof. reflexivity. Qed.

(** C82. *)
Theorem C82_success_means_a_device : forall args fuel, (length args < fuel)%nat ->
  parse_args fuel args = Some UB \/
  exists r ns, parse_args fuel args = Some (Ret (r, ns)) /\
    (r = Success \/ r = BadArgument \/ r = SuccessPartial) /\
    (r = Success -> ns_devices ns <> []) /\ (r = BadArgument -> ns_devices ns = []).
Proof. intros args fuel F. apply (parse_any fuel args false (Namespace [] false) F). split; [discriminate|intros H; contradiction H; reflexivity]. Qed.
Print Assumptions C82_success_means_a_device.
Example C82_case : parse_args 9 ["x"; "--dev=a"; "y"; "-db"; "--"; "-d"] = Some (Ret (Success, Namespace ["a"; "b"] false)) /\
  parse_args 9 ["-d"; "a"; "-c"] = Some (Ret (SuccessPartial, Namespace ["a"] false)) /\
  parse_args 9 ["--c"; "x"] = Some (Ret (BadArgument, Namespace [] true)).
Proof. repeat split. Qed.

(** What every command line does. The forms, their spellings and the three ways a command line can go on after them are
    those of ParseArgsSpec.v. *)
Theorem C82_meaning : forall l tail fuel, Forall well_formed l -> no_late_long l -> (length (flat_map spelling l ++ tail) < fuel)%nat ->
  (options_end tail -> parse_args fuel (flat_map spelling l ++ tail) =
     Some (Ret (match devices_in l with [] => BadArgument | _ => Success end, Namespace (devices_in l) (go_in l)))) /\
  (bare_late_device (devices_in l) tail -> parse_args fuel (flat_map spelling l ++ tail) = Some UB) /\
  (rejected (devices_in l) tail -> parse_args fuel (flat_map spelling l ++ tail) =
     Some (Ret (SuccessPartial, Namespace (devices_in l) (go_in l)))).
Proof. exact parse_all. Qed.
Print Assumptions C82_meaning.
Theorem C82_every_command_line : forall args, exists l tail, args = (flat_map spelling l ++ tail)%list /\ Forall well_formed l /\
  no_late_long l /\ (options_end tail \/ bare_late_device (devices_in l) tail \/ rejected (devices_in l) tail).
Proof. exact split_command_line. Qed.
Print Assumptions C82_every_command_line.
(** So parsing is undefined exactly if the long device option stands, without '=', after another device ... *)
Theorem C82_undefined_iff : forall args fuel, (length args < fuel)%nat ->
  (parse_args fuel args = Some UB <->
   exists l tail, args = (flat_map spelling l ++ tail)%list /\ Forall well_formed l /\ no_late_long l /\ bare_late_device (devices_in l) tail).
Proof.
  intros args fuel F. split.
  - intros U. destruct (split_command_line args) as (l & tail & -> & W & N & T).
    destruct (parse_all l tail fuel W N F) as (A & _ & C).
    destruct T as [T|[T|T]]; [rewrite (A T) in U; discriminate | exists l, tail; auto | rewrite (C T) in U; discriminate].
  - intros (l & tail & -> & W & N & T). now apply (parse_all l tail fuel W N F).
Qed.
Print Assumptions C82_undefined_iff.
(** ... and succeeds exactly if it consists of forms that name a device, with the names in order. *)
Theorem C82_success_iff : forall args fuel ns, (length args < fuel)%nat ->
  (parse_args fuel args = Some (Ret (Success, ns)) <->
   exists l tail, args = (flat_map spelling l ++ tail)%list /\ Forall well_formed l /\ no_late_long l /\ options_end tail /\
     devices_in l <> [] /\ ns = Namespace (devices_in l) (go_in l)).
Proof.
  intros args fuel ns F. split.
  - intros U. destruct (split_command_line args) as (l & tail & -> & W & N & T).
    destruct (parse_all l tail fuel W N F) as (A & B & C).
    destruct T as [T|[T|T]]; [|rewrite (B T) in U; discriminate | rewrite (C T) in U; discriminate].
    rewrite (A T) in U. exists l, tail. destruct (devices_in l) as [|d ds] eqn:D; [discriminate|].
    split; [reflexivity|]. split; [exact W|]. split; [exact N|]. split; [exact T|]. split; [discriminate|]. congruence.
  - intros (l & tail & -> & W & N & T & D & ->). destruct (parse_all l tail fuel W N F) as (A & _). rewrite (A T).
    destruct (devices_in l); [congruence|reflexivity].
Qed.
Print Assumptions C82_success_iff.
Example C82_forms_case :
  Forall well_formed [Operand "-"; EqualsLong "dev" "a=b"; Go "cont"; GluedD "x"; NextD "--"] /\
  no_late_long [Operand "-"; EqualsLong "dev" "a=b"; Go "cont"; GluedD "x"; NextD "--"] /\
  options_end ["--"; "-d"] /\ bare_late_device ["a"] ["--d"] /\ rejected [] ["--c=1"].
Proof.
  split; [|split; [|split; [|split]]].
  - repeat (apply Forall_cons; [|]); try apply Forall_nil; cbn; try (split; [discriminate|reflexivity]); try discriminate; auto.
    intros (c & t & E). discriminate.
  - intros before x after E L. destruct before as [|b1 [|b2 before]].
    + reflexivity.
    + cbn in E. injection E as <- _. reflexivity.
    + exfalso. cbn in E. injection E as _ _ E.
      repeat (destruct before as [|? before]; cbn in E; [injection E as <-; cbn in L; contradiction|injection E as _ E]).
      destruct before; discriminate.
  - right. eexists. reflexivity.
  - split; [discriminate|]. exists "d", []. split; [split; [discriminate|reflexivity]|reflexivity].
  - split; [intros [E|[r E]]; discriminate|]. split; [intros [E _]; congruence|]. right.
    intros x rest W E. destruct x as [w|n|n|a n|a n|a]; cbn in E, W; try discriminate.
    + injection E as <- _. apply W. exists "-"%char, "c=1". reflexivity.
    + injection E as E _. destruct W as [N P]. destruct a as [|c [|c' a]]; [congruence|..]; cbn in E; injection E as <- E;
        [|cbn in P; discriminate]. cbn in P. discriminate.
    + injection E as <- _. destruct W as [_ W]. discriminate.
Qed.

(** When POSIXLY_CORRECT is set the first word that is no option ends the options; nothing else changes. *)
Theorem C82_posix_meaning : forall l tail fuel, Forall well_formed l -> (forall x, In x l -> ~ is_operand x) -> no_late_long l ->
  (length (flat_map spelling l ++ tail) < fuel)%nat ->
  (options_end tail \/ operand_next tail -> parse_args_posix fuel (flat_map spelling l ++ tail) =
     Some (Ret (match devices_in l with [] => BadArgument | _ => Success end, Namespace (devices_in l) (go_in l)))) /\
  (bare_late_device (devices_in l) tail -> parse_args_posix fuel (flat_map spelling l ++ tail) = Some UB) /\
  (rejected (devices_in l) tail -> parse_args_posix fuel (flat_map spelling l ++ tail) =
     Some (Ret (SuccessPartial, Namespace (devices_in l) (go_in l)))).
Proof. exact posix_meaning. Qed.
Print Assumptions C82_posix_meaning.
Theorem C82_posix_every_command_line : forall args, exists l tail, args = (flat_map spelling l ++ tail)%list /\ Forall well_formed l /\
  (forall x, In x l -> ~ is_operand x) /\ no_late_long l /\
  (options_end tail \/ operand_next tail \/ bare_late_device (devices_in l) tail \/ rejected (devices_in l) tail).
Proof. exact split_posix. Qed.
Print Assumptions C82_posix_every_command_line.
(** So it parses a beginning of the command line as it would parse it alone without POSIXLY_CORRECT, and the rest, if any,
    starts with a word that is no option. *)
Theorem C82_posix_cut : forall args fuel, (length args < fuel)%nat -> exists before rest, args = (before ++ rest)%list /\
  (rest = [] \/ operand_next rest) /\ parse_args_posix fuel args = parse_args fuel before.
Proof.
  intros args fuel F. destruct (split_posix args) as (l & tail & -> & W & O & N & T).
  destruct (posix_meaning l tail fuel W O N F) as (A & B & C).
  destruct (parse_all l tail fuel W N F) as (A' & B' & C').
  destruct T as [T|[T|[T|T]]].
  - exists (flat_map spelling l ++ tail)%list, []. rewrite app_nil_r. split; [reflexivity|]. split; [auto|].
    rewrite (A (or_introl T)). symmetry. exact (A' T).
  - exists (flat_map spelling l), tail. split; [reflexivity|]. split; [auto|]. rewrite (A (or_intror T)).
    assert (F' : (length (flat_map spelling l ++ []) < fuel)%nat) by (rewrite app_length in F; rewrite app_nil_r; lia).
    destruct (parse_all l [] fuel W N F') as (A'' & _). rewrite app_nil_r in A''. symmetry. apply A''. left. reflexivity.
  - exists (flat_map spelling l ++ tail)%list, []. rewrite app_nil_r. split; [reflexivity|]. split; [auto|].
    rewrite (B T). symmetry. exact (B' T).
  - exists (flat_map spelling l ++ tail)%list, []. rewrite app_nil_r. split; [reflexivity|]. split; [auto|].
    rewrite (C T). symmetry. exact (C' T).
Qed.
Print Assumptions C82_posix_cut.
Example C82_posix_case : parse_args_posix 9 ["--dev=a"; "-db"; "y"; "--continuous"] = Some (Ret (Success, Namespace ["a"; "b"] false)) /\
  parse_args 9 ["--dev=a"; "-db"; "y"; "--continuous"] = Some (Ret (Success, Namespace ["a"; "b"] true)) /\
  parse_args_posix 9 ["y"; "-d"; "a"] = Some (Ret (BadArgument, Namespace [] false)) /\
  parse_args_posix 9 ["-d"; "a"; "-c"] = Some (Ret (SuccessPartial, Namespace ["a"] false)).
Proof. repeat split. Qed.
