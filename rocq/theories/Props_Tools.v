(** C124, C125: the format check and the script that runs the tests on the board. *)
From Coq Require Import ZArith Bool Ascii String List Lia.
From Verif Require Import ToolsModel ToolsSpec ToolsProofs.
Import ListNotations.
Open Scope string_scope.
Open Scope Z_scope.

(** C124. Full statement: the check exits with 0 iff files were found, clang-format worked on each and none needs a change.
    It fails if a replacement contains a character that XML forbids: the parser's exception is logged and the file passes. *)
Definition ex_include : string -> list change :=
  fun _ => [Change "0" "40" (String.append "#include ""b" (String (Ascii.ascii_of_nat 1) ".hpp"""))].
Theorem C124_passing_files_need_no_change_refuted : exists clang_format needs files,
  (forall f, works clang_format needs f) /\ (exists f, In f files /\ needs f <> []) /\
  fst (format_check "clang-format" clang_format files) = 0.
Proof.
  exists (fun _ => Formatted 0 None), ex_include, ["time.hpp"]. split; [|split; [|reflexivity]].
  - intros f. exists "", "". reflexivity.
  - exists "time.hpp". split; [now left|discriminate].
Qed.
Print Assumptions C124_passing_files_need_no_change_refuted.

(** That is the only case: run on files on which clang-format works, the check exits with 0 or 255, with 0 iff each file
    needs no change or has such a replacement, having run clang-format once on each file without asking it to edit. *)
Theorem C124_status_partial : forall path clang_format needs files, files <> [] ->
  (forall f, In f files -> works clang_format needs f) ->
  exists status, format_check path clang_format files =
    (status, map (fun f => [path; "-fallback-style=none"; "-style=file"; "-output-replacements-xml"; f]) files) /\
    (status = 0 \/ status = 255) /\
    (status = 0 <-> forall f, In f files -> needs f = [] \/ exists c, In c (needs f) /\ unreadable c = true).
Proof. exact format_check_works. Qed.
Print Assumptions C124_status_partial.

(** A pattern that matches nothing, and a clang-format that fails, never pass: the status is 255 without any command, and 1. *)
Theorem C124_failures_do_not_pass : forall path clang_format files,
  (files = [] -> format_check path clang_format files = (255, [])) /\
  ((exists f, In f files /\ ft_status (clang_format f) <> 0) -> fst (format_check path clang_format files) = 1).
Proof.
  intros path cf files. split; [intros ->; reflexivity|]. intros (f & I & N).
  assert (F : exists before g after, files = (before ++ g :: after)%list /\ Forall (fun f => ft_status (cf f) = 0) before /\ ft_status (cf g) <> 0).
  { clear -I N. induction files as [|b rest IH]; [destruct I|]. destruct (Z.eq_dec (ft_status (cf b)) 0) as [E|E].
    - destruct I as [->|I]; [contradiction|]. destruct (IH I) as (before & g & after & -> & A & B). exists (b :: before), g, after.
      split; [reflexivity|]. split; auto.
    - exists [], b, rest. split; [reflexivity|]. split; auto. }
  destruct F as (before & g & after & E & A & B). unfold format_check.
  destruct (Z.eqb_spec (Z.of_nat (List.length files)) 0) as [L|_]; [rewrite E, app_length in L; cbn [List.length] in L; lia|].
  rewrite (check_files_fail _ _ _ _ _ _ _ E A B). reflexivity.
Qed.
Print Assumptions C124_failures_do_not_pass.

(** Two files of which the second needs a blank removed. *)
Definition ex_needs (f : string) : list change := if String.eqb f "can.hpp" then [Change "120" "1" ""] else [].
Definition ex_clang (f : string) : formatted := Formatted 0 (Some (printed " " "false" (ex_needs f))).
Example C124_case : (forall f, works ex_clang ex_needs f) /\
  format_check "clang-format" ex_clang ["time.hpp"; "can.hpp"] =
    (255, [["clang-format"; "-fallback-style=none"; "-style=file"; "-output-replacements-xml"; "time.hpp"];
           ["clang-format"; "-fallback-style=none"; "-style=file"; "-output-replacements-xml"; "can.hpp"]]) /\
  fst (format_check "clang-format" ex_clang ["time.hpp"]) = 0.
Proof.
  split; [|split; reflexivity]. intros f. exists " ", "false". unfold ex_clang, ex_needs. destruct (String.eqb f "can.hpp"); reflexivity.
Qed.

(** C125. Full statement: on the build server, where the build has an identifier, the script downloads the artifacts. It
    never does. *)
Theorem C125_artifacts_are_downloaded_refuted : forall build_id argument device,
  fst (ontarget_test build_id argument device) = false.
Proof.
  intros. unfold ontarget_test. cbn [fst]. destruct (Z.eqb_spec (build_id_test build_id) 0) as [E|E]; [|reflexivity].
  now apply build_id_test_never in E.
Qed.
Print Assumptions C125_artifacts_are_downloaded_refuted.

(** What holds: the tests are run iff a serial port is known. *)
Theorem C125_tests_need_a_port_partial : forall build_id argument device,
  snd (ontarget_test build_id argument device) = true <-> argument <> "" \/ device <> "".
Proof.
  intros. unfold ontarget_test. cbn [snd]. unfold one. destruct (String.eqb_spec argument "") as [->|A].
  - destruct (String.eqb_spec device "") as [->|D]; cbn; intuition congruence.
  - destruct (String.eqb_spec argument ""); [contradiction|]. cbn. tauto.
Qed.
Print Assumptions C125_tests_need_a_port_partial.

(** The condition is an error if the build has an identifier and false if not; with the blank it would have been true iff it
    has one. *)
Theorem C125_the_condition : forall build_id,
  build_id_test build_id = (if String.eqb build_id "" then 1 else 2) /\
  (bracket ["!"; "-z"; build_id; "]"] = 0 <-> build_id <> "") /\ (bracket ["!"; "-z"; build_id; "]"] = 1 <-> build_id = "").
Proof.
  intros id. split.
  - unfold build_id_test, bracket. cbn [last]. destruct (String.eqb_spec id "") as [->|N]; [reflexivity|].
    destruct (String.eqb_spec (id ++ "]") "]") as [E|E]; [|reflexivity]. exfalso. apply N. apply (f_equal String.length) in E.
    destruct id as [|c id]; [reflexivity|]. exfalso. cbn in E. injection E as E. destruct id; cbn in E; lia.
  - unfold bracket. cbn [last String.eqb Ascii.eqb Bool.eqb removelast operands]. unfold unary. cbn [String.eqb Ascii.eqb Bool.eqb].
    destruct (String.eqb_spec id "") as [->|N]; cbn; split; split; intros; congruence.
Qed.
Print Assumptions C125_the_condition.

(** The test command itself is modelled as it should be: with the blank, it tells the two cases apart. *)
Example C125_case : build_id_test "1234" = 2 /\ build_id_test "" = 1 /\ bracket ["!"; "-z"; "1234"; "]"] = 0 /\
  bracket ["!"; "-z"; ""; "]"] = 1 /\ ontarget_test "1234" "/dev/ttyACM0" "" = (false, true).
Proof. vm_compute. auto. Qed.
