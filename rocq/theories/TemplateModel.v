(** Model of the constants generated by libuavcan/include/libuavcan/templates/StructureType.j2, line 7. The generated text is
      static constexpr TYPE NAME = NUMERATOR / DENOMINATOR;
    where the two are Python integers printed in decimal. What is modelled is the value C++ gives to that text. The rest of
    the template emits declarations without values, the other templates only comments and empty classes. *)
From Coq Require Import ZArith Bool List.
Import ListNotations.
Open Scope Z_scope.

(** A decimal literal without suffix has the first of the types int, long and long long that can represent it (C++11
    [lex.icon]); [None] if there is none: then the program is ill-formed. long long has 64 bits here. A negative number is
    the negation of a literal. The answer is its value, which is never the least value of its type.
    In what StructureType.j2 line 7 generates. *)
Definition literal (n : Z) : option Z := if Z.abs n <? 2 ^ 63 then Some n else None.

(** StructureType.j2 line 7, the initializer: a quotient of integers, truncated. Division by zero is ill-formed in a constant
    expression. *)
Definition initializer (num den : Z) : option Z :=
  match literal num, literal den with
  | Some a, Some b => if b =? 0 then None else Some (Z.quot a b)
  | _, _ => None
  end.

(** The declared type, c.type_from_primitive of nunavut: a standard integer type of width [w], signed or not.
    StructureType.j2 line 7. *)
Inductive ctype : Type := CUnsigned (w : Z) | CSigned (w : Z).

(** Conversion of the initializer to the declared type (C++11 [conv.integral]; two's complement). StructureType.j2 line 7. *)
Definition convert (t : ctype) (v : Z) : Z :=
  match t with
  | CUnsigned w => v mod 2 ^ w
  | CSigned w => (v + 2 ^ (w - 1)) mod 2 ^ w - 2 ^ (w - 1)
  end.

(** StructureType.j2 line 7. *)
Definition constant (t : ctype) (num den : Z) : option Z :=
  match initializer num den with Some v => Some (convert t v) | None => None end.
