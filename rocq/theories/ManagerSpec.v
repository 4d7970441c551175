(** Specification vocabulary for starting and stopping interface groups. *)
From Coq Require Import ZArith Bool String List.
From Verif Require Import Outcome ResultModel CanFrameModel SocketCanModel GroupModel ManagerModel.
Import ListNotations.
Open Scope Z_scope.

(** Every system call of the attempt to open this interface succeeds, with a positive descriptor. *)
Definition comes_up (m : manager) (configs : option (list filter)) (num : nat) (name : string) (a : answers) : Prop :=
  0 < a_socket a /\
  (m_canfd m = true -> a_canfd a = 0) /\
  (m_own m = true -> a_own a = 0) /\
  Z.of_nat (String.length name) < 16 /\
  0 <= a_ioctl a /\ 0 <= a_ifindex a /\ 0 <= a_bind a /\ a_error a = 0 /\
  exists log, configureFilters (a_filter a) (a_socket a) configs num [] = Ret (Success, log).

(** [a] is what the kernel answered to attempt [t] in the course of the history [tr']. *)
Definition answered_during (kernel : nat -> list event -> answers) (t : nat) (tr' : list event) (a : answers) : Prop :=
  exists tr more, tr' = tr ++ more /\ a = kernel t tr.

(** The caller's filter array is readable, or null and caught by the null check. *)
Definition configs_ok (configs : option (list filter)) (num : nat) : Prop :=
  match configs with Some cs => (num <= length cs)%nat | None => Z.of_nat num <= 512 end.

(** The open descriptors after a history, starting from [live]; [None] if a descriptor was opened while open or closed while
    not open. *)
Fixpoint replay (live : list Z) (tr : list event) : option (list Z) :=
  match tr with
  | [] => Some live
  | Opened d :: t => if existsb (Z.eqb d) live then None else replay (d :: live) t
  | Closed d :: t => if existsb (Z.eqb d) live then replay (List.remove Z.eq_dec d live) t else None
  end.

(** A kernel that, when [live] are the descriptors open at the beginning, never hands out a descriptor that is open. *)
Definition fresh_descriptors (live : list Z) (kernel : nat -> list event -> answers) : Prop :=
  forall t tr now, replay live tr = Some now -> 0 <= a_socket (kernel t tr) -> ~ In (a_socket (kernel t tr)) now.

(** The descriptors owned by the caller's group. *)
Definition owned (p : option group) : list Z := match p with Some g => map getSocketDescriptor g | None => [] end.
