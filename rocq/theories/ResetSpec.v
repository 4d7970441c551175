(** Specification vocabulary for the reset code. *)
From Coq Require Import ZArith Bool List String.
From Verif Require Import Outcome TargetModel TargetSpec BoardModel BoardSpec ResetModel.
Import ListNotations.
Open Scope Z_scope.

(** The interrupts requested at steps [a] to [a + n - 1], in order. *)
Definition requested (w : world) (a n : nat) : list Z := List.concat (map (w_requests w) (seq a n)).

(** The little-endian word at an address. *)
Definition word_at (m : memory) (a : Z) : Z := m a + 2 ^ 8 * m (a + 1) + 2 ^ 16 * m (a + 2) + 2 ^ 24 * m (a + 3).

(** Memory holds the vector table at an address. *)
Definition holds_vectors (strong : string -> option Z) (base : string -> Z) (m : memory) (a : Z) : Prop :=
  forall n e, nth_error vectors n = Some e -> word_at m (a + 4 * Z.of_nat n) = entry_word strong base e.

Definition entry_dec (a b : entry) : {a = b} + {a <> b}.
Proof. decide equality; [apply string_dec | apply Z.eq_dec]. Defined.
