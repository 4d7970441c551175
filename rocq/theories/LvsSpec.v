(** Specification for the validation suite: a run of a suite is accepted when every test case ends with all its assertions
    satisfied, without undefined behaviour. *)
From Coq Require Import ZArith List Arith.
From Verif Require Import Outcome LvsModel.
Import ListNotations.
Open Scope Z_scope.

Definition accepted (suite : list (outcome bool)) : Prop := Forall (fun t => t = Ret true) suite.

(** The lengths a CAN or CAN FD frame can have that are at least the eight bytes of CAN 2.0. *)
Definition can_mtu (mtu : nat) : Prop := In mtu [8; 12; 16; 20; 24; 32; 48; 64]%nat.

(** What a test case of the pool suite needs: [used] of the pool's [n] blocks are in use when it starts. *)
Definition passes (n used : nat) (c : pool_test) : bool :=
  match c with
  | AllocTooLargeBlock | DeallocateNull => true
  | AllocDealloc | AllocThenDeallocContinuously => (used <? n)%nat
  | AllocTillOutOfMemoryThenDealloc => (used =? 0)%nat
  end.

(** How many blocks are in use after it: the test case that exhausts the pool, when it fails, leaves it exhausted. *)
Definition used_after (n used : nat) (c : pool_test) : nat :=
  match c with
  | AllocTillOutOfMemoryThenDealloc => if (used =? 0)%nat then O else n
  | _ => used
  end.

(** The verdicts of test cases run one after another. *)
Fixpoint verdicts (n used : nat) (cs : list pool_test) : list bool :=
  match cs with
  | [] => []
  | c :: rest => passes n used c :: verdicts n (used_after n used c) rest
  end.

(** The test cases that need a block. *)
Definition needs_block (c : pool_test) : bool :=
  match c with AllocTooLargeBlock | DeallocateNull => false | _ => true end.
