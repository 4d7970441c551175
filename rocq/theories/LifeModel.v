(** Model of a program whose threads start, stop, share, drop and use interface groups at the same time. OwnerModel.v has the same
    operations made one after the other; here each is a sequence of steps, between which other threads make theirs: reading a
    pointer, raising and lowering a use count (one atomic operation each, as std::shared_ptr promises), storing a pointer, each
    system call that opens, uses or closes a descriptor. What threads do to the members of a group is in OverlapModel.v. *)
From Coq Require Import ZArith Bool String List.
From Verif Require Import Outcome ResultModel CanFrameModel SocketCanModel GroupModel ManagerModel OomModel OwnerModel.
Import ListNotations.
Open Scope Z_scope.

(** What a thread is about. [back] is the pointer that startInterfaceGroup reads again before it returns
    (SocketCANInterfaceManager.cpp line 193).
    - [Calling v i ds]: a call through pointer [v] to group [i], which has still to use the descriptors [ds]
      (SocketCANInterfaceGroup.cpp lines 67-153: write and read use one, reconfigureFilters the first ones, select all);
    - [Starting v past todo p]: startInterfaceGroup (SocketCANInterfaceManager.cpp lines 170-196) has made the system calls [past],
      will make [todo], and then has the group [p] or none;
    - [Retaining dst src i]: a shared_ptr is being copied from [src], its use count is not raised yet;
    - [Storing v p back]: a counted reference is to be put into [v];
    - [Releasing i back]: the reference that was in the pointer is to be given up;
    - [Closing i ds back]: the last reference is gone and the descriptors [ds] of the group have to be closed
      (SocketCANInterface.cpp lines 70-74);
    - [Checking v]: startInterfaceGroup asks the new group for its number of interfaces. *)
Inductive task : Type :=
| Idle
| Calling (v i : nat) (ds : list Z)
| Starting (v : nat) (past todo : list event) (p : option group)
| Retaining (dst src i : nat)
| Storing (v : nat) (p : option nat) (back : option nat)
| Releasing (i : nat) (back : option nat)
| Closing (i : nat) (ds : list Z) (back : option nat)
| Checking (v : nat).

(** All groups there ever were with their use counts, the pointers, the open descriptors, and what each thread does.
    What SocketCANInterfaceManager.cpp lines 170-205 and SocketCANInterfaceGroup.cpp lines 36-199 act on. *)
Record life : Type := Life { l_heap : list cell; l_vars : list (option nat); l_table : list Z; l_doing : list task }.

(** What a thread can begin: a call that uses the descriptors of the interfaces at the positions [which]; starting a group,
    while memory runs out at the places [mem] says; copying a pointer; dropping one (also stopInterfaceGroup, SocketCANInterfaceManager.cpp lines 198-205). *)
Inductive op : Type :=
| Call (v : nat) (which : list nat)
| Start (v : nat) (fuel : nat) (m : manager) (configs : option (list filter)) (num : nat) (kernel : nat -> list event -> answers)
    (mem : place -> bool)
| Copy (dst src : nat)
| Drop (v : nat).

(** What happens next: thread [t] begins something, or makes its next step.
    In SocketCANInterfaceManager.cpp lines 170-205, SocketCANInterfaceGroup.cpp lines 36-199 or a copy or destructor of a std::shared_ptr. *)
Inductive act : Type := Begin (t : nat) (o : op) | Go (t : nat).

(** A group that has a use count. Made at SocketCANInterfaceManager.cpp line 192. *)
Definition alive (s : life) (i : nat) : option group :=
  match nth_error (l_heap s) i with Some (Cell g (S _)) => Some g | _ => None end.

(** From SocketCANInterfaceManager.cpp line 58 to SocketCANInterface.cpp line 73. *)
Definition is_open (d : Z) (s : life) : bool := existsb (Z.eqb d) (l_table s).

(** The descriptors at the positions [which] of a group; a position the group does not have is refused without a system call
    (SocketCANInterfaceGroup.cpp lines 72-75 and 86-89). *)
Definition chosen (g : group) (which : list nat) : list Z :=
  flat_map (fun k => match nth_error g k with Some f => [getSocketDescriptor f] | None => [] end) which.

(** From the reset of SocketCANInterfaceManager.cpp line 192 to line 193. *)
Definition then_check (back : option nat) : task := match back with Some v => Checking v | None => Idle end.

(** A thread goes on in SocketCANInterfaceManager.cpp lines 170-205 or SocketCANInterfaceGroup.cpp lines 36-199. *)
Definition now (t : nat) (k : task) (s : life) : life :=
  Life (l_heap s) (l_vars s) (l_table s) (replace_nth t k (l_doing s)).

(** The first step of an operation. [None]: it is not over (a start whose loop has not ended within [fuel] iterations).
    SocketCANInterfaceManager.cpp lines 170-181 and 198-205, SocketCANInterfaceGroup.cpp lines 36-199. *)
Definition begin (t : nat) (o : op) (s : life) : option (outcome life) :=
  match o with
  | Call v which =>
      match nth_error (l_vars s) v with
      | Some (Some i) => match alive s i with
                         | Some g => Some (Ret (now t (Calling v i (chosen g which)) s))
                         | None => Some UB
                         end
      | _ => Some UB
      end
  | Start v fuel m configs num kernel mem =>
      match start_x mem fuel m configs num kernel None (World [] []) with
      | None => None
      | Some UB => Some UB
      | Some (Ret (Returned (_, p, w))) => Some (Ret (now t (Starting v [] (w_trace w) p) s))
      | Some (Ret (Threw (_, w))) => Some (Ret (now t (Starting v [] (w_trace w) None) s))
      end
  | Copy dst src =>
      match nth_error (l_vars s) src with
      | Some (Some i) => Some (Ret (now t (Retaining dst src i) s))
      | Some None => Some (Ret (now t (Storing dst None None) s))
      | None => Some UB
      end
  | Drop v => Some (Ret (now t (Storing v None None) s))
  end.

(** The next step of an operation. [None]: nothing is to be done, or the kernel does not hand out a descriptor that is open.
    Using a group that was destroyed, or its use count, is undefined.
    SocketCANInterfaceManager.cpp lines 178-195 and SocketCANInterface.cpp lines 70-74. *)
Definition go (t : nat) (k : task) (s : life) : option (outcome life) :=
  match k with
  | Idle => None
  | Calling v i ds =>
      match alive s i with
      | None => Some UB
      | Some _ => Some (Ret (now t (match ds with [] => Idle | _ :: ds => Calling v i ds end) s))
      end
  | Starting v past (Opened d :: todo) p =>
      if is_open d s then None
      else Some (Ret (now t (Starting v (past ++ [Opened d]) todo p)
                       (Life (l_heap s) (l_vars s) (d :: l_table s) (l_doing s))))
  | Starting v past (Closed d :: todo) p =>
      Some (Ret (now t (Starting v (past ++ [Closed d]) todo p)
                  (Life (l_heap s) (l_vars s) (List.remove Z.eq_dec d (l_table s)) (l_doing s))))
  | Starting v past [] None => Some (Ret (now t Idle s))
  | Starting v past [] (Some g) =>
      Some (Ret (now t (Storing v (Some (length (l_heap s))) (Some v))
                  (Life (l_heap s ++ [Cell g 1]) (l_vars s) (l_table s) (l_doing s))))
  | Retaining dst src i =>
      match nth_error (l_heap s) i with
      | Some (Cell g (S n)) =>
          Some (Ret (now t (Storing dst (Some i) None)
                      (Life (replace_nth i (Cell g (S (S n))) (l_heap s)) (l_vars s) (l_table s) (l_doing s))))
      | _ => Some UB
      end
  | Storing v p back =>
      match nth_error (l_vars s) v with
      | None => Some UB
      | Some old =>
          Some (Ret (now t (match old with Some i => Releasing i back | None => then_check back end)
                      (Life (l_heap s) (replace_nth v p (l_vars s)) (l_table s) (l_doing s))))
      end
  | Releasing i back =>
      match nth_error (l_heap s) i with
      | Some (Cell g (S n)) =>
          Some (Ret (now t (if (n =? 0)%nat then Closing i (map getSocketDescriptor g) back else then_check back)
                      (Life (replace_nth i (Cell g n) (l_heap s)) (l_vars s) (l_table s) (l_doing s))))
      | _ => Some UB
      end
  | Closing i (d :: ds) back =>
      Some (Ret (now t (Closing i ds back)
                  (Life (l_heap s) (l_vars s) (List.remove Z.eq_dec d (l_table s)) (l_doing s))))
  | Closing i [] back => Some (Ret (now t (then_check back) s))
  | Checking v =>
      match nth_error (l_vars s) v with
      | Some (Some i) => match alive s i with Some _ => Some (Ret (now t Idle s)) | None => Some UB end
      | _ => Some UB
      end
  end.

(** One step of one thread. Of SocketCANInterfaceManager.cpp lines 170-205 or SocketCANInterfaceGroup.cpp lines 36-199. *)
Definition life_step (a : act) (s : life) : option (outcome life) :=
  match a with
  | Begin t o => match nth_error (l_doing s) t with Some Idle => begin t o s | _ => None end
  | Go t => match nth_error (l_doing s) t with Some k => go t k s | None => None end
  end.

(** A program begins with [threads] threads, [vars] null pointers and the descriptors [live] open.
    Before any call of SocketCANInterfaceManager.cpp lines 170-205. *)
Definition life_start (live : list Z) (vars threads : nat) : life := Life [] (repeat None vars) live (repeat Idle threads).
