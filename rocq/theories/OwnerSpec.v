(** Specification vocabulary for programs with several pointers to interface groups. *)
From Coq Require Import ZArith Bool String List.
From Verif Require Import Outcome ResultModel CInt CanFrameModel SocketCanModel SocketCanSpec GroupModel GroupSpec ManagerModel ManagerSpec
  ClientModel OomModel OwnerModel.
Import ListNotations.
Open Scope Z_scope.

(** Pointer [v] points to the [i]-th group that was started. *)
Definition points (s : owners) (v i : nat) : Prop := nth_error (o_vars s) v = Some (Some i).

(** The [i]-th group that was started. *)
Definition the_group (s : owners) (i : nat) : group :=
  match nth_error (o_heap s) i with Some c => c_group c | None => [] end.

(** Some pointer points to it. *)
Definition pointed_to (s : owners) (i : nat) : bool :=
  existsb (fun p => match p with Some j => (j =? i)%nat | None => false end) (o_vars s).

(** The sockets of the groups that some pointer points to. *)
Definition held (s : owners) : list Z :=
  flat_map (fun i => if pointed_to s i then descriptors (the_group s i) else []) (seq 0 (List.length (o_heap s))).

(** Calls within the contract, as [legal] of ClientSpec.v: pointers exist, a pointer through which a group is used is not null. *)
Definition legal_use (live : list Z) (u : use) (s : owners) : Prop :=
  let exists_ v := (v < List.length (o_vars s))%nat in
  match u with
  | UStart v m configs num kernel _ =>
      exists_ v /\ configs_ok configs num /\ fresh_descriptors live kernel /\ (List.length (m_required m) <= 255)%nat
  | UStop v | UDrop v => exists_ v
  | UCopy dst src => exists_ dst /\ exists_ src
  | UReconfigure v _ configs num _ => (exists i, points s v i) /\ configs_ok configs num
  | UWrite v _ i fs n => (exists j, points s v j) /\ 0 <= i <= 255 /\ frames_typed fs /\ (n <= 4)%nat
  | URead v res _ msgs i out => (exists j, points s v j) /\ 0 <= i <= 255 /\ frames_typed out /\ recv_ok res msgs
  | USelect v P _ timeout _ _ => (exists j, points s v j) /\ wf_platform P /\ 0 < timeout < 2 ^ 63
  end.

(** The states a program with [n] pointers, null at first, can reach, with what it did, most recent first. *)
Inductive program (live : list Z) (n : nat) : list (use * answer) -> owners -> Prop :=
| p_begin : program live n [] (Owners [] (repeat None n) (World [] []))
| p_use : forall h s u fuel a s', program live n h s -> legal_use live u s -> do_use fuel u s = Some (Ret (a, s')) ->
    program live n ((u, a) :: h) s'.

(** A pointer gets a new value. *)
Definition sets (u : use) (v : nat) : Prop :=
  match u with UStart w _ _ _ _ _ => w = v | UStop w => w = v | UDrop w => w = v | UCopy w _ => w = v | _ => False end.

(** A group is used through a pointer. *)
Definition goes_through (u : use) (s : owners) (i : nat) : Prop :=
  match u with UReconfigure v _ _ _ _ => points s v i | UWrite v _ _ _ _ => points s v i | URead v _ _ _ _ _ => points s v i
  | _ => False end.

(** A program with one pointer and enough memory, seen as a client of ClientModel.v. *)
Definition as_client (s : owners) : client :=
  Client (match o_vars s with Some i :: _ => Some (the_group s i) | _ => None end) (o_world s).
Definition as_use (m : manager) (o : call) : use :=
  match o with
  | Start configs num kernel => UStart 0 m configs num kernel (fun _ => false)
  | Stop => UStop 0
  | Reconfigure ans configs num => UReconfigure 0 ans configs num (fun _ _ => false)
  | Write k i fs n => UWrite 0 k i fs n
  | Read res errno msgs i out => URead 0 res errno msgs i out
  end.
Definition as_answer (r : reply) : answer :=
  match r with
  | Started r | Stopped r | Reconfigured r => Result_ r
  | Wrote r c sent => Wrote_ r c sent
  | WasRead r c fs => WasRead_ r c fs
  end.

(** What a call does to the pointer it sets and to the group it goes through, and what it answers, in terms of the functions of the
    manager and of groups with enough memory. *)
Definition does (fuel : nat) (u : use) (s : owners) (a : answer) (s' : owners) : Prop :=
  match u, a with
  | UStart v m configs num kernel _, Result_ r =>
      exists p w', startInterfaceGroup fuel m configs num kernel None (o_world s) = Some (Ret (r, p, w')) /\
        match p with
        | Some g => exists i, (List.length (o_heap s) <= i)%nat /\ points s' v i /\ the_group s' i = g
        | None => o_vars s' = o_vars s
        end
  | UStart _ _ _ _ _ _, OutOfMem => o_vars s' = o_vars s
  | UStop v, Result_ r => r = Success /\ nth_error (o_vars s') v = Some None
  | UCopy dst src, Done => nth_error (o_vars s') dst = nth_error (o_vars s) src
  | UDrop v, Done => nth_error (o_vars s') v = Some None
  | UReconfigure v ans configs num _, Result_ r =>
      exists i, points s v i /\ the_group s' i = the_group s i /\
        reconfigureFilters fuel (the_group s i) ans configs num (w_filters (o_world s)) = Some (Ret (r, w_filters (o_world s')))
  | UReconfigure v _ _ _ _, OutOfMem => exists i, points s v i /\ the_group s' i = the_group s i
  | UWrite v k index fs n, Wrote_ r c sent =>
      exists i, points s v i /\ group_write k (the_group s i) index fs n 0 = Ret (the_group s' i, r, c, sent)
  | URead v res errno msgs index out, WasRead_ r c fs =>
      exists i, points s v i /\ group_read res errno msgs (the_group s i) index out 0 = Ret (the_group s' i, r, c, fs)
  | USelect v P ppoll timeout ignore _, Selected_ r req =>
      exists i, points s v i /\ s' = s /\ select P ppoll (the_group s i) timeout ignore = Ret (r, req)
  | USelect v _ _ _ _ _, OutOfMem => s' = s
  | _, _ => False
  end.
