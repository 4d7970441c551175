(** Model of a program with any number of pointers to interface groups (std::shared_ptr, SocketCANInterfaceManager.hpp line 32) that it
    copies and drops as it likes, and that goes on after std::bad_alloc. ClientModel.v has a program with one pointer and enough
    memory; OwnerProofs.v shows that it is a special case. *)
From Coq Require Import ZArith Bool String List.
From Verif Require Import Outcome ResultModel CInt CanFrameModel SocketCanModel GroupModel ManagerModel OomModel.
Import ListNotations.
Open Scope Z_scope.

(** A group with the use count of its control block. When it drops to zero the group is destroyed.
    Made at SocketCANInterfaceManager.cpp line 192. *)
Record cell : Type := Cell { c_group : group; c_uses : nat }.

(** All groups there ever were, the program's pointers ([None] when null), and the world.
    What SocketCANInterfaceManager.cpp lines 170-205 act on. *)
Record owners : Type := Owners { o_heap : list cell; o_vars : list (option nat); o_world : world }.

(** A shared_ptr is destroyed: the use count drops; the last one destroys the group (SocketCANInterface.cpp lines 70-74). *)
Definition release (p : option nat) (s : owners) : outcome owners :=
  match p with
  | None => Ret s
  | Some i =>
      match nth_error (o_heap s) i with
      | Some (Cell g (S n)) =>
          let w := o_world s in
          Ret (Owners (replace_nth i (Cell g n) (o_heap s)) (o_vars s)
                      (if (n =? 0)%nat then World (destroy g (w_trace w)) (w_filters w) else w))
      | _ => UB
      end
  end.

(** A shared_ptr is copied. SocketCANInterfaceManager.hpp line 32. *)
Definition retain (p : option nat) (s : owners) : outcome owners :=
  match p with
  | None => Ret s
  | Some i =>
      match nth_error (o_heap s) i with
      | Some (Cell g (S n)) => Ret (Owners (replace_nth i (Cell g (S (S n))) (o_heap s)) (o_vars s) (o_world s))
      | _ => UB
      end
  end.

(** Pointer [v] gets a value, which it owns from then on; the old one is dropped after that, as reset and operator= do by swapping
    with a temporary. SocketCANInterfaceManager.cpp lines 192 and 203. *)
Definition assign (v : nat) (p : option nat) (s : owners) : outcome owners :=
  match nth_error (o_vars s) v with
  | None => UB
  | Some old => release old (Owners (o_heap s) (replace_nth v p (o_vars s)) (o_world s))
  end.

(** The group a pointer points to. A null pointer, and a group that was destroyed, must not be used.
    SocketCANInterfaceManager.hpp line 32. *)
Definition deref (v : nat) (s : owners) : outcome (nat * group) :=
  match nth_error (o_vars s) v with
  | Some (Some i) => match nth_error (o_heap s) i with
                     | Some (Cell g (S _)) => Ret (i, g)
                     | _ => UB
                     end
  | _ => UB
  end.

(** The group behind a pointer changes. By SocketCANInterfaceGroup.cpp lines 67-153. *)
Definition store (i : nat) (g : group) (s : owners) : owners :=
  match nth_error (o_heap s) i with
  | Some (Cell _ n) => Owners (replace_nth i (Cell g n) (o_heap s)) (o_vars s) (o_world s)
  | None => s
  end.

(** What the program does: with a manager and pointer [v], start and stop (SocketCANInterfaceManager.cpp lines 170-205); copy a pointer
    or drop it; through pointer [v], the calls of a group (SocketCANInterfaceGroup.cpp lines 67-153). [fails] of USelect
    says whether the vector of line 119 cannot get its memory (C144 says when it asks for any). *)
Inductive use : Type :=
| UStart (v : nat) (m : manager) (configs : option (list filter)) (num : nat) (kernel : nat -> list event -> answers) (mem : place -> bool)
| UStop (v : nat)
| UCopy (dst src : nat)
| UDrop (v : nat)
| UReconfigure (v : nat) (ans : nat -> list kfilter -> Z -> Z) (configs : option (list filter)) (num : nat) (fails : nat -> nat -> bool)
| UWrite (v : nat) (sendmmsg : list canfd -> Z * Z) (index : Z) (frames : list frame) (frames_len : nat)
| URead (v : nat) (res errno : Z) (msgs : list kmsg) (index : Z) (out : list frame)
| USelect (v : nat) (P : platform) (ppoll : poll_request -> Z * list Z) (timeout : Z) (ignore_write_available : bool) (fails : bool).

(** What it gets back. From SocketCANInterfaceManager.cpp lines 170-205 and SocketCANInterfaceGroup.cpp lines 36-153. *)
Inductive answer : Type :=
| Result_ (r : result)
| OutOfMem                                   (* std::bad_alloc was thrown *)
| Done
| Wrote_ (r : result) (count : Z) (sent : option (list canfd))
| WasRead_ (r : result) (count : Z) (frames : list frame)
| Selected_ (r : result) (req : poll_request).

(** SocketCANInterfaceManager.cpp lines 170-205 and SocketCANInterfaceGroup.cpp lines 36-153. *)
Definition do_use (fuel : nat) (u : use) (s : owners) : option (outcome (answer * owners)) :=
  let w := o_world s in
  match u with
  | UStart v m configs num kernel mem =>
      match start_x mem fuel m configs num kernel None w with
      | None => None
      | Some UB => Some UB
      | Some (Ret (Threw (_, w'))) => Some (Ret (OutOfMem, Owners (o_heap s) (o_vars s) w'))
      | Some (Ret (Returned (r, None, w'))) => Some (Ret (Result_ r, Owners (o_heap s) (o_vars s) w'))
      | Some (Ret (Returned (r, Some g, w'))) =>
          Some (let* s' := assign v (Some (length (o_heap s))) (Owners (o_heap s ++ [Cell g 1]) (o_vars s) w') in
                Ret (Result_ r, s'))
      end
  | UStop v => Some (let* s' := assign v None s in Ret (Result_ Success, s'))
  | UCopy dst src =>
      Some (match nth_error (o_vars s) src with
            | None => UB
            | Some p => let* s1 := retain p s in let* s2 := assign dst p s1 in Ret (Done, s2)
            end)
  | UDrop v => Some (let* s' := assign v None s in Ret (Done, s'))
  | UReconfigure v ans configs num fails =>
      match deref v s with
      | UB => Some UB
      | Ret (_, g) =>
          match reconfigure_loop_x fails fuel 0 0 g ans configs num (w_filters w) with
          | None => None
          | Some UB => Some UB
          | Some (Ret (Threw log)) => Some (Ret (OutOfMem, Owners (o_heap s) (o_vars s) (World (w_trace w) log)))
          | Some (Ret (Returned (r, log))) => Some (Ret (Result_ r, Owners (o_heap s) (o_vars s) (World (w_trace w) log)))
          end
      end
  | UWrite v k i fs n =>
      Some (let* (id, g) := deref v s in
            let* (t, sent) := group_write k g i fs n 0 in
            let '(g', r, count) := t in
            Ret (Wrote_ r count sent, store id g' s))
  | URead v res errno msgs i out =>
      Some (let* (id, g) := deref v s in
            let* (t, frames) := group_read res errno msgs g i out 0 in
            let '(g', r, count) := t in
            Ret (WasRead_ r count frames, store id g' s))
  | USelect v P ppoll timeout ignore fails =>
      Some (let* (_, g) := deref v s in
            if fails then Ret (OutOfMem, s)
            else let* (r, req) := select P ppoll g timeout ignore in Ret (Selected_ r req, s))
  end.
