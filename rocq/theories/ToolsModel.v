(** Models of test/cmake/modules/clang-format-check.py and of the branch at the head of test/ci/ontarget-s32k-test.sh. *)
From Coq Require Import ZArith Bool String List.
Import ListNotations.
Open Scope string_scope.
Open Scope Z_scope.

(** ** clang-format-check.py *)

(** A node of the tree that xml.dom.minidom builds. [Other] is a comment, processing instruction or document type with its
    nodeName; it has no children and no method getAttribute. Character data sections are text nodes with another nodeName
    and nodeType; they are [Other] here. As at clang-format-check.py line 51. *)
Inductive node : Type :=
| Element : string -> list (string * string) -> list node -> node
| Text : string -> node
| Other : string -> node.

(** What running clang-format on a file gives: its exit status (nonzero also if it cannot be started) and what parseString
    makes of its output: the document's children, or [None] if it throws. clang-format-check.py lines 44-51. *)
Record formatted : Type := Formatted { ft_status : Z; ft_document : option (list node) }.

(** Python: nodeName and childNodes. As at clang-format-check.py lines 53 and 55. *)
Definition nodeName (n : node) : string := match n with Element name _ _ => name | Text _ => "#text" | Other name => name end.
(** As at clang-format-check.py lines 52, 54 and 57. *)
Definition childNodes (n : node) : list node := match n with Element _ _ c => c | _ => [] end.
(** getAttribute: the empty string if the attribute is missing. Called at clang-format-check.py lines 60-61. *)
Definition getAttribute (attributes : list (string * string)) (name : string) : string :=
  match find (fun p => String.eqb (fst p) name) attributes with Some (_, v) => v | None => "" end.

(** clang-format-check.py lines 56-59. *)
Definition replacement_text (children : list node) : string :=
  fold_left (fun t n => match n with Text s => t ++ s | _ => t end) children "".

(** clang-format-check.py lines 54-62, without the text that is only logged: the length, offset and text of each replacement element. The boolean
    says whether the loop ended without an exception; getAttribute throws on a node that is no element. *)
Fixpoint collect (children : list node) : list (string * string * string) * bool :=
  match children with
  | [] => ([], true)
  | n :: rest =>
      if String.eqb (nodeName n) "replacement"
      then match n with
           | Element _ attributes c =>
               let '(more, ok) := collect rest in
               ((getAttribute attributes "length", getAttribute attributes "offset", replacement_text c) :: more, ok)
           | _ => ([], false)
           end
      else collect rest
  end.

(** clang-format-check.py lines 52-62, with the exception handler of lines 63-64: what was collected before an exception is kept. *)
Fixpoint scan (document : list node) : list (string * string * string) :=
  match document with
  | [] => []
  | n :: rest =>
      if String.eqb (nodeName n) "replacements"
      then let '(found, ok) := collect (childNodes n) in if ok then found ++ scan rest else found
      else scan rest
  end.

(** clang-format-check.py lines 49-64. *)
Definition replacements (document : option (list node)) : list (string * string * string) :=
  match document with Some d => scan d | None => [] end.

(** clang-format-check.py lines 42-74: the files left, the result so far. It answers the process's exit status and the commands run. sys.exit(-1)
    makes the status 255; an exception that nobody catches makes it 1. *)
Fixpoint check_files (path : string) (clang_format : string -> formatted) (files : list string) (result : Z)
  : Z * list (list string) :=
  match files with
  | [] => (result mod 256, [])
  | f :: rest =>
      let command := [path; "-fallback-style=none"; "-style=file"; "-output-replacements-xml"; f] in
      let o := clang_format f in
      if ft_status o =? 0
      then let found := replacements (ft_document o) in
           let '(status, commands) :=
             check_files path clang_format rest (if 0 <? Z.of_nat (List.length found) then -1 else result) in
           (status, command :: commands)
      else (1, [command])
  end.

(** clang-format-check.py lines 28-38 and 136. [files] is what glob finds. *)
Definition format_check (path : string) (clang_format : string -> formatted) (files : list string) : Z * list (list string) :=
  if Z.of_nat (List.length files) =? 0 then (-1 mod 256, []) else check_files path clang_format files 0.

(** ** ontarget-s32k-test.sh *)

(** The shell's command [ with the given words: its exit status is 0 for true, 1 for false and 2 for an error, after POSIX.
    Binary operators and unary ones other than -z are left out: the script uses none.
    As at ontarget-s32k-test.sh lines 33 and 43. *)
Definition unary (op arg : string) : Z :=
  if String.eqb op "-z" then (if String.eqb arg "" then 0 else 1) else 2.
(** The operator ! of ontarget-s32k-test.sh line 33. *)
Definition negate (status : Z) : Z := if status =? 0 then 1 else if status =? 1 then 0 else status.
(** The command [ with one word, as at ontarget-s32k-test.sh lines 33 and 43. *)
Definition one (arg : string) : Z := if String.eqb arg "" then 1 else 0.
(** The command [ with words that do not begin with !, as at ontarget-s32k-test.sh lines 33 and 43. *)
Definition operands (words : list string) : Z :=
  match words with
  | [] => 1
  | [a] => one a
  | [a; b] => if String.eqb a "!" then negate (one b) else unary a b
  | [a; b; c] => if String.eqb a "!" then negate (unary b c) else 2
  | _ => 2
  end.
(** The command [ of ontarget-s32k-test.sh lines 33 and 43. *)
Definition bracket (words : list string) : Z :=
  if String.eqb (last words "") "]" then operands (removelast words) else 2.

(** ontarget-s32k-test.sh line 33: there is no blank before the closing bracket. *)
Definition build_id_test (build_id : string) : Z := bracket ["!"; "-z"; build_id ++ "]"].

(** ontarget-s32k-test.sh lines 33-46: whether the artifacts are downloaded, and whether the script goes on to run the tests; [argument] is its
    first argument, [device] NAIT_UART_DEVICE, the empty string if unset. A condition's status does not end the script. *)
Definition ontarget_test (build_id argument device : string) : bool * bool :=
  let port := if String.eqb argument "" then device else argument in
  (build_id_test build_id =? 0, negb (one port =? 1)).
