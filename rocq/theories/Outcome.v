(** Outcomes of modelled C++ calls.

    [UB] is the outcome "the C++ abstract machine has undefined behaviour" (signed overflow, out-of-bounds access,
    null dereference, ...). It is a distinct observable outcome: no theorem treats it as a value. *)

(** Of the calls in can.hpp lines 300-486, memory.hpp lines 139-177 and the other files modelled. *)
Inductive outcome (A : Type) : Type :=
| Ret (a : A)
| UB.
Arguments Ret {A} a.
Arguments UB {A}.

(** Sequencing of C++ expressions: once behaviour is undefined the whole call is.
    As in can.hpp lines 300-486, memory.hpp lines 139-177 and the other files modelled. *)
Definition bind {A B : Type} (m : outcome A) (f : A -> outcome B) : outcome B :=
  match m with
  | Ret a => f a
  | UB => UB
  end.

Notation "'let*' x ':=' m 'in' k" := (bind m (fun x => k)) (at level 200, x pattern, m at level 100, k at level 200).

Lemma bind_ret_inv : forall {A B} (m : outcome A) (f : A -> outcome B) b,
  bind m f = Ret b -> exists a, m = Ret a /\ f a = Ret b.
Proof. intros A B [a|] f b H; simpl in H; [eauto | discriminate]. Qed.
