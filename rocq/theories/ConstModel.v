(** The constants of the library as the one definition rule and the linker see them: libuavcan/include/libuavcan/media/can.hpp, media/interfaces.hpp,
    platform/memory.hpp and templates/StructureType.j2. Cited below without the directory. *)
From Coq Require Import Bool List Arith ZArith.
Import ListNotations.

(** Constants at namespace scope: can.hpp lines 27, 30, 41, 47, 63, 69 and 80. *)
Inductive global : Type := TailByteSize | TransferCrcSize | MaxFrameSizeFD | FrameLengthFD | MaxFrameSize2_0 | FrameLength2_0 | BytePadding.

(** Static members of class templates: can.hpp lines 153, 158 and 166, interfaces.hpp lines 74 and 79, memory.hpp lines 247 and 252. *)
Inductive member : Type := MaskExtID | MaskIdWithFlags | MTUBytes | RxFramesLen | TxFramesLen | BlockSize | NumBlocks.

(** A constant: can.hpp line 27; can.hpp line 166, of a specialization that stands as a number for its arguments; or StructureType.j2 line 7, static
    members of a generated structure, which is no template. *)
Inductive constant : Type :=
| Global (g : global)
| Member (m : member) (specialization : nat)
| Generated (structure name : nat).

(** Equality of constants, as the linker compares names of can.hpp line 166. *)
Definition constant_eq_dec (a b : constant) : {a = b} + {a <> b}.
Proof. decide equality; try apply Nat.eq_dec; decide equality. Defined.

(** Expressions, as far as the one definition rule looks at them, as in can.hpp lines 412-416: a name of a constant; anything without one; the conversion of
    an lvalue to its value, as arithmetic, arguments passed by value and bounds of arrays need it; the binding of a reference, the taking of an address
    and a call of a member function; the conditional operator; the comma; a value that is discarded; several operands; and an operand that is not
    evaluated. *)
Inductive expr : Type :=
| Name (c : constant)
| Other
| Convert (e : expr)
| Bind (e : expr)
| Cond (b x y : expr)
| Comma (x y : expr)
| Discard (e : expr)
| Operands (x y : expr)
| Sizeof (e : expr).

(** C++14 or later, as build_config.hpp lines 42-50 compare: the conditional operator and the comma are looked through (core issue 712). *)
Definition looks_through (v : Z) : bool := (201402 <=? v)%Z.
(** C++17 or later, as build_config.hpp lines 42-50 compare: static constexpr members are inline variables. *)
Definition inline_members (v : Z) : bool := (201703 <=? v)%Z.

(** The constants that an expression odr-uses, as can.hpp line 414 does not: clause 3.2 of ISO C++11 and C++14. [converted]: the conversion to a value, or the
    discarding of it, is applied to the expression. Simplification: the constants of can.hpp lines 47 and 69, which are arrays, are used by calling
    member functions or as a whole. *)
Fixpoint odr_uses (v : Z) (converted : bool) (e : expr) : list constant :=
  match e with
  | Name c => if converted then [] else [c]
  | Other => []
  | Convert x => odr_uses v true x
  | Bind x => odr_uses v false x
  | Cond b x y =>
      odr_uses v true b ++ odr_uses v (converted && looks_through v) x ++ odr_uses v (converted && looks_through v) y
  | Comma x y => odr_uses v (looks_through v) x ++ odr_uses v (converted && looks_through v) y
  | Discard x => odr_uses v (looks_through v) x
  | Operands x y => odr_uses v false x ++ odr_uses v false y
  | Sizeof _ => []
  end.

(** A unit of a program: the expressions of its functions, and the definitions of static members that it has outside of their classes, as there are none
    for can.hpp lines 153-166. *)
Record piece : Type := Piece { body : list expr; defines : list constant }.

(** A program that includes can.hpp lines 1-490 and the other headers: the version of the language, its units, and the inline functions and templates that are
    in all of them, because they are in a header. *)
Record program : Type := Program { version : Z; pieces : list piece; shared : list expr }.

(** All expressions of a program. As can.hpp line 414, a template, belongs to each unit. *)
Definition all_expressions (p : program) : list expr := shared p ++ flat_map body (pieces p).

(** A compiler: in which expressions an object is referred to that is odr-used. It may also use the value, as with can.hpp line 153. *)
Definition compiler : Type := expr -> constant -> bool.

(** The names for which the linker needs a definition, such as those of can.hpp line 166. *)
Definition wanted (k : compiler) (p : program) : list constant :=
  flat_map (fun e => filter (k e) (odr_uses (version p) false e)) (all_expressions p).

(** How many units define a name outside of its class: can.hpp lines 147-490 do not. *)
Definition definitions (p : program) (c : constant) : nat :=
  length (filter (fun u => if in_dec constant_eq_dec c (defines u) then true else false) (pieces p)).

(** The linker finds one definition. Those at namespace scope have internal linkage, so that each unit has its own: can.hpp lines 27-80. Those of
    templates are merged: can.hpp line 166. *)
Definition found (p : program) (c : constant) : bool :=
  match c with
  | Global _ => true
  | Member _ _ | Generated _ _ => inline_members (version p) || (0 <? definitions p c)%nat
  end.

(** The linker finds two definitions that are not merged: of the members of StructureType.j2 line 7. *)
Definition twice (p : program) (c : constant) : bool :=
  match c with
  | Generated _ _ => negb (inline_members (version p)) && (1 <? definitions p c)%nat
  | _ => false
  end.

(** The program is linked: can.hpp lines 147-490 with the program's own definitions. *)
Definition links (k : compiler) (p : program) : bool :=
  forallb (found p) (wanted k p) && forallb (fun c => negb (twice p c)) (flat_map defines (pieces p)).

(** A function of a header is the same in all units, clause 3.2 (6): it does not odr-use an object of internal linkage, as those of can.hpp lines 27-80. *)
Definition same_everywhere (p : program) : bool :=
  (length (pieces p) <=? 1)%nat ||
  forallb (fun c => match c with Global _ => false | _ => true end) (flat_map (odr_uses (version p) false) (shared p)).

(** The expressions with static members of class templates in the library itself: can.hpp lines 414 and 473; the conversions are those of the operator &. *)
Definition library_expressions (f : nat) : list expr :=
  [Operands (Convert (Operands (Operands Other (Convert (Name (Member MaskIdWithFlags f)))) (Operands Other (Convert (Name (Member MaskIdWithFlags f)))))) Other;
   Operands (Operands Other (Convert (Name (Member MaskExtID f)))) (Operands Other (Convert (Name (Member MaskExtID f))))].

(** As libuavcan_validation_suite/include/lvs/media/can_frame.hpp lines 136-137: the value is copied to a variable of the function, and a reference is bound to that. *)
Definition suite_expression (f : nat) : expr := Operands (Convert (Name (Member MTUBytes f))) (Bind Other).
