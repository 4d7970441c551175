(** Model of the headers that nunavut generates from libuavcan/include/libuavcan/templates: what a translation unit that includes them
    contains, and which members the generated types have. The values of constants are in TemplateModel.v. Comments, the include of
    <cstdint> and the text of the declarations are left out. *)
From Coq Require Import ZArith Bool List String.
Import ListNotations.
Open Scope list_scope.
Open Scope Z_scope.

(** ** Header.j2 *)

(** A DSDL definition: the components of its full_namespace, its short_name, its version and what its generated body says.
    As used by Header.j2 lines 15-26. *)
Record definition : Type := Def { namespace : list string; short_name : string; version : Z * Z; body : string }.

(** The name of the generated type: the block of StructureType.j2 line 4, or of its like, within the namespaces that Header.j2 lines 20
    and 24 open and close. nunavut may alter a component that is a word of C++; that is left out. *)
Definition qualified (d : definition) : list string := namespace d ++ [short_name d].

(** T.full_name of pydsdl: the components joined by dots, without the version. Header.j2 lines 15-16. *)
Definition full_name (d : definition) : string := String.concat "." (qualified d).

(** What a compiler knows at a point of a translation unit: the macros defined and the types with their bodies. For Header.j2 lines 15-26. *)
Record tunit : Type := TUnit { macros : list string; types : list (list string * string) }.

(** Including the header of [d]: Header.j2 lines 15-26. [macrofy] is nunavut's filter c.macrofy, any function. A second type of the
    same name is ill-formed: [None]. *)
Definition include (macrofy : string -> string) (d : definition) (u : tunit) : option tunit :=
  let guard := macrofy (full_name d) in
  if existsb (String.eqb guard) (macros u) then Some u
  else if existsb (fun t => if list_eq_dec string_dec (fst t) (qualified d) then true else false) (types u) then None
  else Some (TUnit (guard :: macros u) (types u ++ [(qualified d, body d)])).

(** A translation unit that includes these headers one after the other. Header.j2 lines 15-26. *)
Fixpoint translate (macrofy : string -> string) (hs : list definition) (u : tunit) : option tunit :=
  match hs with
  | [] => Some u
  | d :: rest => match include macrofy d u with Some u' => translate macrofy rest u' | None => None end
  end.

(** ** StructureType.j2 and UnionType.j2 *)

(** The type of a DSDL field: a primitive of so many bits (a boolean, an integer or a float), padding, an array of a fixed length or of
    any length up to one, or a structure. As StructureType.j2 lines 9-13 find it. *)
Inductive dtype : Type :=
| Primitive (bits : Z)
| Padding
| Array (element : dtype) (length : nat)
| ArrayUpTo (element : dtype) (capacity : nat)
| Composite (fields : list dtype).

(** The value of a field; a primitive's is its bits, as a number. For StructureType.j2 lines 9-13. *)
Inductive dvalue : Type :=
| VBits (z : Z)
| VPadding
| VList (l : list dvalue).

(** StructureType.j2 line 10: "is primitive". *)
Definition is_primitive (t : dtype) : bool := match t with Primitive _ => true | _ => false end.

(** What is left of a message with these fields and values when it is stored in the generated type. StructureType.j2 lines 9-13: the
    struct has a member for each field of primitive type and no others. *)
Fixpoint store_structure (fields : list dtype) (message : list dvalue) : list dvalue :=
  match fields, message with
  | t :: fields, v :: message => if is_primitive t then v :: store_structure fields message else store_structure fields message
  | _, _ => []
  end.

(** UnionType.j2 lines 4-12: the class has comments only, whatever the tag and the value. *)
Definition store_union (fields : list dtype) (tag : nat) (v : dvalue) : list dvalue := [].

(** ServiceType.j2 lines 4-12: the class has comments only, whatever is stored; [of_request]: the message is a request, not a response. *)
Definition store_service (request response : list dtype) (of_request : bool) (message : list dvalue) : list dvalue := [].
