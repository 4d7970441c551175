(** The headers of the library as the preprocessor and the compiler see them: which headers each includes, its include guard, and which names of the
    standard library it uses: libuavcan/include/libuavcan/*.hpp, media/*.hpp, platform/memory.hpp and util/math.hpp. Cited below without the directory. *)
From Coq Require Import Bool List String ZArith.
Import ListNotations.
Open Scope string_scope.
Open Scope list_scope.

(** The headers: build_config.hpp line 10, libuavcan.hpp line 9, introspection.hpp line 13, math.hpp line 9, time.hpp line 19, can.hpp line 7,
    interfaces.hpp line 10, memory.hpp line 5. *)
Inductive header : Type := BuildConfig | Libuavcan | Introspection | Math | Time | Can | Interfaces | Memory.

(** The macro of the include guard: build_config.hpp line 10 and the others above. *)
Definition guard (h : header) : string :=
  match h with
  | BuildConfig => "LIBUAVCAN_BUILD_CONFIG_HPP_INCLUDED"
  | Libuavcan => "LIBUAVCAN_HPP_INCLUDED"
  | Introspection => "LIBUAVCAN_INTROSPECTION_HPP_INCLUDED"
  | Math => "LIBUAVCAN_UTIL_MATH_HPP_INCLUDED"
  | Time => "LIBUAVCAN_TIME_HPP_INCLUDED"
  | Can => "LIBUAVCAN_TRANSPORT_MEDIA_CAN_HPP_INCLUDED"
  | Interfaces => "LIBUAVCAN_TRANSPORT_MEDIA_INTERFACES_HPP_INCLUDED"
  | Memory => "LIBUAVCAN_PLATFORM_MEMORY_HPP_INCLUDED"
  end.

(** How a unit is compiled: the value of __cplusplus and whether LIBUAVCAN_CPP_VERSION_NOCHECK is defined (build_config.hpp lines 42-50),
    LIBUAVCAN_ENABLE_EXCEPTIONS (memory.hpp lines 150 and 161), and the two switches of introspection.hpp lines 34 and 47. *)
Record settings : Type := Settings { cplusplus : Z; nocheck : bool; exceptions : bool; trace : bool; asserts : bool }.

(** An include directive: of a standard header (as memory.hpp line 8) or of one of the library's (as memory.hpp line 10). *)
Inductive directive : Type := Std (name : string) | Lib (h : header).

(** The include directives: libuavcan.hpp lines 12-18, introspection.hpp lines 16, 36 and 48, math.hpp lines 12-15, time.hpp lines 22-23, can.hpp
    lines 10-14, interfaces.hpp lines 13-15, memory.hpp lines 8-11. All come before what uses the headers. *)
Definition includes (c : settings) (h : header) : list directive :=
  match h with
  | BuildConfig => []
  | Libuavcan => [Lib BuildConfig; Std "cstdint"; Std "cinttypes"; Std "limits"; Std "type_traits"; Std "cstddef"]
  | Introspection => [Lib Libuavcan] ++ (if trace c then [Std "cstdio"] else []) ++ (if asserts c then [Std "cassert"] else [])
  | Math => [Lib Libuavcan; Std "cstdlib"; Std "cmath"; Lib Introspection]
  | Time => [Lib Libuavcan; Lib Math]
  | Can => [Std "array"; Lib Libuavcan; Lib Introspection; Lib Time]
  | Interfaces => [Lib Libuavcan; Lib Introspection; Lib Time]
  | Memory => [Std "atomic"; Std "unordered_map"; Lib Libuavcan; Lib Introspection]
  end.

(** The names of namespace std in each header: libuavcan.hpp lines 33 and 109, introspection.hpp line 38, math.hpp lines 40-56, time.hpp lines 56-236, can.hpp
    lines 27-47, 187, 223, 320 and 415, interfaces.hpp lines 57-119, memory.hpp lines 41-151, 199-230 and 319-335. The name printf is in a macro, which is
    expanded where a program uses it. Simplification: names of integer types and of type traits are represented by those that stand for the others of
    the same standard header. *)
Definition uses (c : settings) (h : header) : list string :=
  match h with
  | BuildConfig => []
  | Libuavcan => ["int_fast8_t"; "underlying_type"]
  | Introspection => if trace c then ["printf"] else []
  | Math => ["abs"; "enable_if"; "is_integral"; "is_signed"; "numeric_limits"]
  | Time => ["abs"; "int64_t"; "uint64_t"; "is_signed"; "numeric_limits"]
  | Can => ["array"; "copy"; "equal"; "extent"; "size_t"; "uint8_t"; "uint16_t"; "uint32_t"; "uint_fast8_t"; "underlying_type"]
  | Interfaces => ["size_t"; "uint_fast8_t"]
  | Memory => ["aligned_storage"; "atomic"; "atomic_compare_exchange_weak"; "atomic_exchange"; "conditional"; "is_same"; "max_align_t"; "min";
               "ptrdiff_t"; "size_t"; "uint8_t"] ++ (if exceptions c then ["bad_alloc"] else [])
  end.

(** The headers whose declarations and macros each uses: libuavcan.hpp line 12, introspection.hpp line 16, math.hpp lines 12-15, time.hpp lines 179 and 215, can.hpp
    lines 145 and 298, interfaces.hpp lines 58, 119 and 173, memory.hpp lines 42 and 150. *)
Definition uses_of (h : header) : list header :=
  match h with
  | BuildConfig | Libuavcan | Introspection | Math => []
  | Time => [BuildConfig; Math]
  | Can => [BuildConfig; Time]
  | Interfaces => [BuildConfig; Libuavcan; Time]
  | Memory => [BuildConfig]
  end.

(** The names that ISO C++11 requires of the standard headers in question, as far as they are used here: can.hpp lines 10-14, memory.hpp lines 8-9. *)
Definition required (x : string) : list string :=
  let integers := ["int_fast8_t"; "int64_t"; "uint8_t"; "uint16_t"; "uint32_t"; "uint64_t"; "uint_fast8_t"] in
  if String.eqb x "cstdint" then integers
  else if String.eqb x "cinttypes" then integers
  else if String.eqb x "limits" then ["numeric_limits"]
  else if String.eqb x "type_traits" then
    ["underlying_type"; "enable_if"; "is_integral"; "is_signed"; "extent"; "aligned_storage"; "conditional"; "is_same"]
  else if String.eqb x "cstddef" then ["size_t"; "ptrdiff_t"; "max_align_t"]
  else if String.eqb x "cstdlib" then ["abs"; "size_t"]
  else if String.eqb x "cmath" then ["abs"]
  else if String.eqb x "cstdio" then ["printf"; "size_t"]
  else if String.eqb x "array" then ["array"]
  else if String.eqb x "atomic" then ["atomic"; "atomic_compare_exchange_weak"; "atomic_exchange"]
  else if String.eqb x "unordered_map" then ["unordered_map"]
  else if String.eqb x "algorithm" then ["copy"; "equal"; "min"]
  else if String.eqb x "new" then ["bad_alloc"]
  else [].

(** An implementation of the standard library: which other names its headers declare, by including each other. As memory.hpp line 8. *)
Definition library : Type := string -> string -> bool.

(** A text is in a list, as the preprocessor looks for a macro: memory.hpp line 5. *)
Definition mem (x : string) (l : list string) : bool := existsb (String.eqb x) l.
(** Equality of headers, as for memory.hpp line 10. *)
Definition header_eqb (a b : header) : bool := String.eqb (guard a) (guard b).

(** A standard header declares a name, as <array> does at can.hpp line 10. *)
Definition declares (more : library) (x n : string) : bool := mem n (required x) || more x n.

(** While a unit is compiled: the macros, the standard headers seen and the library's headers compiled, build_config.hpp lines 10-82. *)
Record state : Type := State { macros : list string; seen : list string; compiled : list header }.

(** #define of the guard, memory.hpp line 6. *)
Definition define (h : header) (s : state) : state := State (guard h :: macros s) (seen s) (compiled s).
(** A standard header is included, memory.hpp line 8. *)
Definition see (x : string) (s : state) : state := State (macros s) (x :: seen s) (compiled s).
(** The end of a header, memory.hpp line 405. *)
Definition finish (h : header) (s : state) : state := State (macros s) (seen s) (h :: compiled s).

(** The #error directives of build_config.hpp lines 42-50. *)
Definition version_error (c : settings) (h : header) : bool :=
  match h with
  | BuildConfig => negb (nocheck c) && ((201800 <=? cplusplus c)%Z || negb (201100 <? cplusplus c)%Z)
  | _ => false
  end.

(** The names are declared where the text of the header begins: for qualified names also in templates, as can.hpp line 320. *)
Definition text_ok (more : library) (c : settings) (h : header) (s : state) : bool :=
  forallb (fun n => existsb (fun x => declares more x n) (seen s)) (uses c h) &&
  forallb (fun d => existsb (header_eqb d) (compiled s)) (uses_of h).

(** A header is included, memory.hpp lines 5-405. None: an error. The first argument bounds the depth; 8 is enough. *)
Fixpoint include (depth : nat) (more : library) (c : settings) (h : header) (s : state) : option state :=
  match depth with
  | O => None
  | S k =>
      if mem (guard h) (macros s) then Some s
      else if version_error c h then None
      else
        match fold_left (fun r i =>
                match r with
                | None => None
                | Some t => match i with Std x => Some (see x t) | Lib d => include k more c d t end
                end) (includes c h) (Some (define h s)) with
        | None => None
        | Some t => if text_ok more c h t then Some (finish h t) else None
        end
  end.

(** A directive of a program, as in main.cpp lines 26-34. *)
Definition directive_of (more : library) (c : settings) (i : directive) (s : state) : option state :=
  match i with Std x => Some (see x s) | Lib h => include 8 more c h s end.

(** The directives of a unit, as main.cpp lines 26-34, after macros were defined on the command line. *)
Definition compile (more : library) (c : settings) (defined : list string) (u : list directive) : option state :=
  fold_left (fun r i => match r with None => None | Some t => directive_of more c i t end) u (Some (State defined [] [])).
