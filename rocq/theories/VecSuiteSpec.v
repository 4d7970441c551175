(** When the validation suite's vector tests pass. *)
From Coq Require Import ZArith Bool List.
From Verif Require Import ContainerModel VecSuiteModel.
Open Scope Z_scope.

(** The capacities a standard library may choose: more than the vector's size, at least what is reserved, at most
    max_size(). *)
Definition chooses (max_size : Z) (t : vtest) : Prop :=
  match t with
  | TestVector grow => forall s, Z.of_nat s < max_size -> (s < grow s)%nat /\ Z.of_nat (grow s) <= max_size
  | TestVectorCapacity newcap _ | TestEmplace newcap => (10 <= newcap)%nat /\ Z.of_nat newcap <= max_size
  end.

(** The blocks a test case uses at once: two when the vector moves, as it does unless its first array has room for the six
    characters. *)
Definition blocks_used (t : vtest) : nat :=
  match t with TestVector grow => if (grow 0%nat <? 6)%nat then 2 else 1 | _ => 1 end.

(** The verdict with [free] free blocks. *)
Definition passes (free : nat) (t : vtest) : bool :=
  (blocks_used t <=? free)%nat && match t with TestVectorCapacity newcap _ => (newcap =? 10)%nat | _ => true end.
