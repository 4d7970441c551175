(** Specification vocabulary for what errno says when no interface came up. *)
From Coq Require Import ZArith Bool String List.
From Verif Require Import Outcome ResultModel CanFrameModel SocketCanModel GroupModel ManagerModel ErrnoModel.
Import ListNotations.
Open Scope Z_scope.

(** What can stop an interface from coming up, in the order in which it is met, each with its error number. [None]: there is none. *)
Definition obstacles (m : manager) (name : string) (configs : option (list filter)) (num : nat) (a : answers) (n : numbers)
  : list (Prop * option Z) :=
  [ (a_socket a < 0, Some (n_socket n));
    (m_canfd m = true /\ a_canfd a <> 0, Some (n_canfd n));
    (m_own m = true /\ a_own a <> 0, Some (n_own n));
    (16 <= Z.of_nat (String.length name), Some 36);
    (a_ioctl a < 0, Some (n_ioctl n));
    (a_ifindex a < 0, None);
    (a_bind a < 0, Some (n_bind n));
    (a_error a <> 0, Some (a_error a));
    (a_socket a = 0, None);
    (configs = None /\ num <> 0%nat, None);
    (exists log, configureFilters (a_filter a) (a_socket a) configs num [] = Ret (UnknownInternalError, log), Some (n_filter n)) ].

(** The first of the obstacles that is met has the error number [e]. *)
Definition stopped_by (l : list (Prop * option Z)) (e : option Z) : Prop :=
  exists before P after, l = before ++ (P, e) :: after /\ P /\ Forall (fun o => ~ fst o) before.

(** No call whose answer is ignored fails, closing included. *)
Definition quiet (n : numbers) : Prop :=
  n_timestamp n = None /\ n_overflow n = None /\ n_errors n = None /\ n_getsockopt n = None /\ n_close n = None.

(** Error numbers are positive. *)
Definition positive (a : answers) (n : numbers) : Prop :=
  0 <= a_error a /\ 0 < n_socket n /\ 0 < n_canfd n /\ 0 < n_own n /\ 0 < n_ioctl n /\ 0 < n_bind n /\ 0 < n_filter n.

(** The calls whose answer is ignored and that are made if the last interface is stopped by something without an error number. A negative index
    is noticed before the options are set; descriptor 0 is not closed. *)
Definition ignored_calls (a : answers) (n : numbers) : list (option Z) :=
  if a_ifindex a <? 0 then [n_close n]
  else [n_timestamp n; n_overflow n; n_errors n; n_getsockopt n] ++ (if a_socket a =? 0 then [] else [n_close n]).

(** The number of the last of these calls that fails, or 0. *)
Definition last_failed (calls : list (option Z)) (e : Z) : Prop :=
  (exists before after, calls = before ++ Some e :: after /\ Forall (fun c => c = None) after) \/ (e = 0 /\ Forall (fun c => c = None) calls).
