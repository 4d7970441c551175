(** Specification vocabulary for generated headers. *)
From Coq Require Import ZArith Bool List String.
From Verif Require Import GenModel.
Import ListNotations.
Open Scope list_scope.
Open Scope Z_scope.

(** The translation unit has the type of this definition, with the body that this definition gives it. *)
Definition sees (u : tunit) (d : definition) : Prop := In (qualified d, body d) (types u).

(** The same type but for the version. *)
Definition versions_of_one (d e : definition) : Prop := namespace d = namespace e /\ short_name d = short_name e.

(** A value of a type. *)
Fixpoint value_of (t : dtype) (v : dvalue) : Prop :=
  match t, v with
  | Primitive bits, VBits z => 0 <= z < 2 ^ bits
  | Padding, VPadding => True
  | Array e n, VList l => List.length l = n /\ Forall (value_of e) l
  | ArrayUpTo e n, VList l => (List.length l <= n)%nat /\ Forall (value_of e) l
  | Composite ts, VList l =>
      (fix go ts l := match ts, l with [], [] => True | t :: ts, v :: l => value_of t v /\ go ts l | _, _ => False end) ts l
  | _, _ => False
  end.

(** A message of a structure with these fields. *)
Definition message_of (fields : list dtype) (message : list dvalue) : Prop := Forall2 value_of fields message.

(** The type has no two values: it carries no information. *)
Definition empty_of_news (t : dtype) : Prop := forall v w, value_of t v -> value_of t w -> v = w.

(** Whoever gets the generated struct can tell which message was stored. *)
Definition keeps_messages (fields : list dtype) : Prop :=
  exists read : list dvalue -> list dvalue, forall m, message_of fields m -> read (store_structure fields m) = m.

(** Widths are not negative. *)
Fixpoint sound (t : dtype) : Prop :=
  match t with
  | Primitive bits => 0 <= bits
  | Padding => True
  | Array e _ | ArrayUpTo e _ => sound e
  | Composite ts => (fix go ts := match ts with [] => True | t :: ts => sound t /\ go ts end) ts
  end.

(** Whoever gets the class generated for a service can tell which request, and which response, was stored. *)
Definition keeps_service (request response : list dtype) : Prop :=
  exists read : bool -> list dvalue -> list dvalue, forall (of_request : bool) m, message_of (if of_request then request else response) m ->
    read of_request (store_service request response of_request m) = m.
