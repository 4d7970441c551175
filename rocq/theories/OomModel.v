(** Model of startInterfaceGroup and reconfigureFilters of test/linux/example/media_on_linux when memory runs out. ManagerModel.v and
    GroupModel.v have these functions for the case that it does not; OomProofs.v shows that they agree then. *)
From Coq Require Import ZArith Bool String List.
From Verif Require Import Outcome ResultModel CanFrameModel SocketCanModel GroupModel ManagerModel.
Import ListNotations.
Open Scope Z_scope.

(** Where memory is asked for: SocketCANInterfaceManager.cpp line 176; SocketCANInterfaceGroup.cpp line 181, for the [k]-th filter of
    the [t]-th interface (whether the vector grows then is up to the library); SocketCANInterfaceManager.cpp line 230, for the
    object or its name; line 192, for the group and for the control block of the shared_ptr. *)
Inductive place : Type := P_reserve | P_filter (t k : nat) | P_interface (t : nat) | P_group | P_control.

(** A call returned, or std::bad_alloc left it.
    SocketCANInterfaceManager.cpp lines 170-196, SocketCANInterfaceGroup.cpp lines 96-108. *)
Inductive ended (A B : Type) : Type := Returned (a : A) | Threw (b : B).
Arguments Returned {A B}. Arguments Threw {A B}.

(** SocketCANInterfaceGroup.cpp lines 177-183, from filter [k]: [None] if an exception is thrown. *)
Fixpoint convert_x (fails : nat -> bool) (k num : nat) (configs : list filter) : outcome (option (list kfilter)) :=
  match num with
  | O => Ret (Some [])
  | S n =>
      match configs with
      | [] => UB
      | fc :: rest =>
          if fails k then Ret None
          else let* t := convert_x fails (S k) n rest in
               Ret (option_map (cons (KFilter (Z.lor (Z.land (flt_id fc) MaskExtID) CAN_EFF_FLAG) (Z.lor (flt_mask fc) CAN_EFF_FLAG))) t)
      end
  end.

(** SocketCANInterfaceGroup.cpp lines 155-199, as configureFilters of GroupModel.v. The exception leaves the function before the
    system call. *)
Definition configure_x (fails : nat -> bool) (ans : list kfilter -> Z -> Z) (fd : Z) (configs : option (list filter)) (num_configs : nat)
  (log : filter_log) : outcome (ended (result * filter_log) filter_log) :=
  if (match configs with None => true | Some _ => false end) && negb (num_configs =? 0)%nat
     && (Z.of_nat num_configs <=? CAN_RAW_FILTER_MAX)
  then Ret (Returned (BadArgument, log))
  else if (num_configs =? 0)%nat
  then if negb (ans [] 0 =? 0) then Ret (Returned (UnknownInternalError, log))
       else Ret (Returned (Success, install fd [] 0 log))
  else
    match configs with
    | None => UB
    | Some cs =>
        let* o := convert_x fails 0 num_configs cs in
        match o with
        | None => Ret (Threw log)
        | Some fs =>
            let optlen := (sizeof_can_filter * Z.of_nat (length fs)) mod 2 ^ 32 in
            if negb (ans fs optlen =? 0) then Ret (Returned (UnknownInternalError, log))
            else Ret (Returned (Success, install fd fs optlen log))
        end
    end.

(** SocketCANInterfaceGroup.cpp lines 96-108, as reconfigure_loop of GroupModel.v. *)
Fixpoint reconfigure_loop_x (fails : nat -> nat -> bool) (fuel : nat) (i : Z) (t : nat) (g : group) (ans : nat -> list kfilter -> Z -> Z)
  (configs : option (list filter)) (num : nat) (log : filter_log) : option (outcome (ended (result * filter_log) filter_log)) :=
  match fuel with
  | O => None
  | S k =>
      if i <? Z.of_nat (length g)
      then match nth_error g (Z.to_nat i) with
           | None => Some UB
           | Some s =>
               match configure_x (fails t) (ans t) (getSocketDescriptor s) configs num log with
               | UB => Some UB
               | Ret (Threw log') => Some (Ret (Threw log'))
               | Ret (Returned (r, log')) =>
                   if result_not r then Some (Ret (Returned (r, log')))
                   else reconfigure_loop_x fails k ((i + 1) mod 256) (S t) g ans configs num log'
               end
           end
      else Some (Ret (Returned (Success, log)))
  end.

(** SocketCANInterfaceManager.cpp lines 212-241. The guard of line 224 closes the socket when an exception passes it; the object
    of line 230 is not complete then, so its destructor does not run. *)
Definition create_x (mem : place -> bool) (t : nat) (m : manager) (index : Z) (name : string) (configs : option (list filter)) (num : nat)
  (a : answers) (w : world) : outcome (ended (result * option iface * world) world) :=
  let '(fd, tr) := openSocket name (m_canfd m) (m_own m) a (w_trace w) in
  if fd <=? 0 then Ret (Returned (UnknownInternalError, None, World tr (w_filters w)))
  else
    let* e := configure_x (fun k => mem (P_filter t k)) (a_filter a) fd configs num (w_filters w) in
    match e with
    | Threw log => Ret (Threw (World (tr ++ [Closed fd]) log))
    | Returned (r, log) =>
        if result_not r then Ret (Returned (r, None, World (tr ++ [Closed fd]) log))
        else if mem (P_interface t) then Ret (Threw (World (tr ++ [Closed fd]) log))
        else Ret (Returned (Success, Some (iface_make index name fd), World tr log))
    end.

(** SocketCANInterfaceManager.cpp lines 178-185. An exception destroys the interfaces created so far. *)
Fixpoint start_loop_x (mem : place -> bool) (fuel : nat) (i : Z) (t : nat) (m : manager) (configs : option (list filter)) (num : nat)
  (kernel : nat -> list event -> answers) (acc : list iface) (w : world) : option (outcome (ended (list iface * world) world)) :=
  match fuel with
  | O => None
  | S k =>
      if i <? Z.of_nat (length (m_required m))
      then match nth_error (m_required m) (Z.to_nat i) with
           | None => Some UB
           | Some name =>
               match create_x mem t m i name configs num (kernel t (w_trace w)) w with
               | UB => Some UB
               | Ret (Threw w') => Some (Ret (Threw (World (destroy acc (w_trace w')) (w_filters w'))))
               | Ret (Returned (r, o, w')) =>
                   start_loop_x mem k ((i + 1) mod 256) (S t) m configs num kernel
                     (match o with Some s => if negb (result_not r) then acc ++ [s] else acc | None => acc end) w'
               end
           end
      else Some (Ret (Returned (acc, w)))
  end.

(** SocketCANInterfaceManager.cpp lines 170-196: what becomes of the caller's pointer and of the world. If there is no memory for the
    group its interfaces are still in the vector, which is destroyed; if there is none for the control block, shared_ptr::reset
    deletes the group. Either way the pointer keeps its value. *)
Definition start_x (mem : place -> bool) (fuel : nat) (m : manager) (configs : option (list filter)) (num : nat)
  (kernel : nat -> list event -> answers) (out : option group) (w : world)
  : option (outcome (ended (result * option group * world) (option group * world))) :=
  if mem P_reserve then Some (Ret (Threw (out, w)))
  else
  match start_loop_x mem fuel 0 0 m configs num kernel [] w with
  | None => None
  | Some UB => Some UB
  | Some (Ret (Threw w')) => Some (Ret (Threw (out, w')))
  | Some (Ret (Returned ([], w'))) => Some (Ret (Returned (NotFound, out, w')))
  | Some (Ret (Returned (g, w'))) =>
      if mem P_group || mem P_control then Some (Ret (Threw (out, World (destroy g (w_trace w')) (w_filters w'))))
      else
      Some (Ret (Returned (if Z.of_nat (length (m_required m)) <=? getInterfaceCount g then Success else SuccessPartial,
                           Some g, World (destroy_ptr out (w_trace w')) (w_filters w'))))
  end.

(** ** Builds without exceptions in which new answers null *)

(** SocketCANInterfaceManager.cpp lines 212-241, with the branch of lines 231-235. *)
Definition create_n (null : place -> bool) (t : nat) (m : manager) (index : Z) (name : string) (configs : option (list filter)) (num : nat)
  (a : answers) (w : world) : outcome (result * option iface * world) :=
  let '(fd, tr) := openSocket name (m_canfd m) (m_own m) a (w_trace w) in
  if fd <=? 0 then Ret (UnknownInternalError, None, World tr (w_filters w))
  else
    let* (r, log) := configureFilters (a_filter a) fd configs num (w_filters w) in
    if result_not r then Ret (r, None, World (tr ++ [Closed fd]) log)
    else if null (P_interface t) then Ret (OutOfMemory, None, World (tr ++ [Closed fd]) log)
    else Ret (Success, Some (iface_make index name fd), World tr log).

(** SocketCANInterfaceManager.cpp lines 178-185. *)
Fixpoint start_loop_n (null : place -> bool) (fuel : nat) (i : Z) (t : nat) (m : manager) (configs : option (list filter)) (num : nat)
  (kernel : nat -> list event -> answers) (acc : list iface) (w : world) : option (outcome (list iface * world)) :=
  match fuel with
  | O => None
  | S k =>
      if i <? Z.of_nat (length (m_required m))
      then match nth_error (m_required m) (Z.to_nat i) with
           | None => Some UB
           | Some name =>
               match create_n null t m i name configs num (kernel t (w_trace w)) w with
               | UB => Some UB
               | Ret (r, o, w') =>
                   start_loop_n null k ((i + 1) mod 256) (S t) m configs num kernel
                     (match o with Some s => if negb (result_not r) then acc ++ [s] else acc | None => acc end) w'
               end
           end
      else Some (Ret (acc, w))
  end.

(** SocketCANInterfaceManager.cpp lines 170-196. Line 193 calls a member through the pointer of line 192, which is null if there is
    no memory for the group. *)
Definition start_n (null : place -> bool) (fuel : nat) (m : manager) (configs : option (list filter)) (num : nat)
  (kernel : nat -> list event -> answers) (out : option group) (w : world)
  : option (outcome (result * option group * world)) :=
  match start_loop_n null fuel 0 0 m configs num kernel [] w with
  | None => None
  | Some UB => Some UB
  | Some (Ret ([], w')) => Some (Ret (NotFound, out, w'))
  | Some (Ret (g, w')) =>
      if null P_group then Some UB
      else
      Some (Ret (if Z.of_nat (length (m_required m)) <=? getInterfaceCount g then Success else SuccessPartial,
                 Some g, World (destroy_ptr out (w_trace w')) (w_filters w')))
  end.
