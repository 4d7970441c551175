(** Specification vocabulary for the tools. *)
From Coq Require Import ZArith Bool Ascii String List.
From Verif Require Import ToolsModel.
Import ListNotations.
Open Scope string_scope.
Open Scope Z_scope.

(** A change that clang-format asks for. *)
Record change : Type := Change { ch_offset : string; ch_length : string; ch_text : string }.

(** The document that clang-format prints for changes: one element per change on a line of its own. [blank] is the white
    space between them; [incomplete] the value of an attribute that does not matter here. *)
Definition printed (blank incomplete : string) (changes : list change) : list node :=
  [Element "replacements" [("xml:space", "preserve"); ("incomplete_format", incomplete)]
     (Text blank :: flat_map (fun c => [Element "replacement" [("offset", ch_offset c); ("length", ch_length c)]
                                          (if String.eqb (ch_text c) "" then [] else [Text (ch_text c)]); Text blank]) changes)].

(** Characters that XML 1.0 forbids even when escaped: the controls other than tab, line feed and carriage return. Clang-format
    prints them as they are, and no parser takes the document. *)
Definition forbidden (c : ascii) : bool :=
  let n := nat_of_ascii c in Nat.ltb n 32 && negb (Nat.eqb n 9 || Nat.eqb n 10 || Nat.eqb n 13).
Definition unreadable (c : change) : bool := existsb forbidden (list_ascii_of_string (ch_text c)).

(** clang-format runs on the file, which needs the given changes. *)
Definition works (clang_format : string -> formatted) (needs : string -> list change) (f : string) : Prop :=
  exists blank incomplete, clang_format f =
    Formatted 0 (if existsb unreadable (needs f) then None else Some (printed blank incomplete (needs f))).
