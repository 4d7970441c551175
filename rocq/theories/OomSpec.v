(** Specification vocabulary for running out of memory. *)
From Coq Require Import ZArith Bool String List.
From Verif Require Import Outcome ResultModel CanFrameModel SocketCanModel GroupModel ManagerModel OomModel.
Import ListNotations.
Open Scope Z_scope.

(** There is always memory. *)
Definition plenty (mem : place -> bool) : Prop := forall p, mem p = false.

(** A kernel that refuses the filters of those interfaces for which new answers null, and is like [kernel] otherwise. *)
Definition refusing (null : place -> bool) (kernel : nat -> list event -> answers) (t : nat) (tr : list event) : answers :=
  let a := kernel t tr in
  if null (P_interface t)
  then Answers (a_socket a) (a_canfd a) (a_own a) (a_ioctl a) (a_ifindex a) (a_bind a) (a_error a) (fun _ _ => -1)
  else a.
