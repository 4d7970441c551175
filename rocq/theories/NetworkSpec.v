(** Specification vocabulary for programs that exchange frames over one bus. *)
From Coq Require Import ZArith Bool String List.
From Verif Require Import Outcome ResultModel CanFrameModel SocketCanModel SocketCanSpec GroupModel GroupSpec ManagerModel ManagerSpec
  ClientModel ClientSpec TrafficSpec WireSpec.
Import ListNotations.
Open Scope Z_scope.

(** The frames a program was told to have written to interface [i] since its group was started, in order: of each write as
    many as the call reported. *)
Fixpoint written (i : Z) (h : list (call * reply)) : list frame :=
  match h with
  | [] => []
  | (Start _ _ _, Started r) :: t => if isSuccess r then [] else written i t
  | (Stop, _) :: _ => []
  | (Write _ j fs _, Wrote _ count _) :: t => written i t ++ (if j =? i then firstn (Z.to_nat count) fs else [])
  | _ :: t => written i t
  end.

(** The messages the kernel took from it for the bus: of each sendmmsg the first ones, as many as the kernel answered. *)
Fixpoint taken (i : Z) (h : list (call * reply)) : list canfd :=
  match h with
  | [] => []
  | (Start _ _ _, Started r) :: t => if isSuccess r then [] else taken i t
  | (Stop, _) :: _ => []
  | (Write k j _ _, Wrote _ _ (Some sent)) :: t => taken i t ++ (if j =? i then firstn (Z.to_nat (fst (k sent))) sent else [])
  | _ :: t => taken i t
  end.

(** A program and one of its interfaces. Kernels report at most as many messages as they were given. *)
Definition writer : Type := list (call * reply) * Z.
Definition program (w : writer) : Prop :=
  exists live m c, (length (m_required m) <= 255)%nat /\ history live m (fst w) c /\
    Forall (fun x => match fst x with Write k _ _ _ => send_ok k | _ => True end) (fst w).

(** [l] contains the elements of all the lists, those of each list in order. *)
Inductive interleaving {A : Type} : list (list A) -> list A -> Prop :=
| il_done : forall ls, Forall (eq []) ls -> interleaving ls []
| il_next : forall pre x l post rest, interleaving (pre ++ l :: post) rest -> interleaving (pre ++ (x :: l) :: post) (x :: rest).

(** Frames that survive the bus (C95). *)
Definition fits_the_bus (f : frame) : Prop :=
  fdlc f <= 8 \/ (fdlc f = 12 /\ forall j, (12 <= j < 24)%nat -> nth j (fdata f) 0 = 0).
