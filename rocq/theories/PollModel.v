(** Model of the array that SocketCANInterfaceGroup::select hands to ppoll (SocketCANInterfaceGroup.hpp line 35 and
    SocketCANInterfaceGroup.cpp lines 110-153): a std::vector that is reserved and then filled through data(), without ever
    being resized. GroupModel.v has the same function with a fresh array at each call. *)
From Coq Require Import ZArith Bool List.
From Verif Require Import Outcome ResultModel CInt SatMathModel TimeModel CanFrameModel SocketCanModel GroupModel.
Import ListNotations.
Open Scope Z_scope.

(** poll.h struct pollfd. Built at SocketCANInterfaceGroup.cpp line 126. *)
Record pollfd : Type := Pollfd { pl_fd : Z; pl_events : Z; pl_revents : Z }.

(** SocketCANInterfaceGroup.hpp line 35: the storage the vector owns ([None]: memory nothing was written to yet) and the number of its elements. *)
Record pvec : Type := PVec { pv_cells : list (option pollfd); pv_size : nat }.

(** SocketCANInterfaceGroup.cpp line 33: pollfds_(). *)
Definition pvec_new : pvec := PVec [] 0.

(** What may be accessed through data(): all storage the vector owns, or only the elements it has.
    SocketCANInterfaceGroup.cpp line 122. *)
Inductive rule : Type := Storage | Elements.
(** Behind the pointer of SocketCANInterfaceGroup.cpp line 122. *)
Definition reach (r : rule) (v : pvec) : nat :=
  match r with Storage => length (pv_cells v) | Elements => pv_size v end.

(** SocketCANInterfaceGroup.cpp line 126. *)
Definition put (r : rule) (v : pvec) (i : nat) (c : pollfd) : outcome pvec :=
  if (i <? reach r v)%nat then Ret (PVec (replace_nth i (Some c) (pv_cells v)) (pv_size v)) else UB.
(** SocketCANInterfaceGroup.cpp line 147. *)
Definition get (r : rule) (v : pvec) (i : nat) : outcome pollfd :=
  if (i <? reach r v)%nat
  then match nth_error (pv_cells v) i with Some (Some c) => Ret c | _ => UB end
  else UB.

(** std::vector::reserve: [mem] is how many elements the storage asked for holds, [None] when there is no memory (an
    exception). The elements are moved to the new storage. The second component says whether memory was asked for.
    Called at SocketCANInterfaceGroup.cpp line 120. *)
Definition reserve (mem : option nat) (n : nat) (v : pvec) : option pvec * bool :=
  if (n <=? length (pv_cells v))%nat then (Some v, false)
  else match mem with
       | None => (None, true)
       | Some k => (Some (PVec (firstn (pv_size v) (pv_cells v) ++ repeat None (Nat.max n k - pv_size v)) (pv_size v)), true)
       end.

(** SocketCANInterfaceGroup.cpp lines 124-127. *)
Fixpoint fill (r : rule) (v : pvec) (i : nat) (events : Z) (g : group) : outcome pvec :=
  match g with
  | [] => Ret v
  | s :: rest => let* v' := put r v i (Pollfd (getSocketDescriptor s) events 0) in fill r v' (S i) events rest
  end.

(** What the kernel finds in [n] entries of the array, and what it leaves there: it writes the revents members only.
    SocketCANInterfaceGroup.cpp line 133. *)
Fixpoint fetch (v : pvec) (i n : nat) : outcome (list (Z * Z)) :=
  match n with
  | O => Ret []
  | S k => let* c := get Storage v i in
           let* t := fetch v (S i) k in
           Ret ((pl_fd c, pl_events c) :: t)
  end.
(** SocketCANInterfaceGroup.cpp line 133. *)
Fixpoint answer_cells (v : pvec) (i n : nat) (revents : list Z) : outcome pvec :=
  match n, revents with
  | S k, rv :: rest =>
      let* c := get Storage v i in
      let* v' := put Storage v i (Pollfd (pl_fd c) (pl_events c) rv) in
      answer_cells v' (S i) k rest
  | _, _ => Ret v
  end.

(** SocketCANInterfaceGroup.cpp lines 145-151. *)
Fixpoint scan (r : rule) (v : pvec) (i n : nat) : outcome result :=
  match n with
  | O => Ret Success
  | S k => let* c := get r v i in
           if has (pl_revents c) (Z.lor POLLPRI (Z.lor POLLERR (Z.lor POLLHUP POLLNVAL))) then Ret SuccessPartial
           else scan r v (S i) k
  end.

(** What a call ends with: a result, after the given request to ppoll, or an exception before ppoll was called.
    A call of SocketCANInterfaceGroup.cpp lines 110-153. *)
Inductive ended : Type :=
| Returned (r : result) (req : poll_request)
| Thrown.

(** SocketCANInterfaceGroup.cpp lines 110-153. The kernel writes the revents members also when it finds nothing (0) but not when it fails. *)
Definition select_mem (P : platform) (rl : rule) (mem : option nat) (ppoll : poll_request -> Z * list Z)
  (g : group) (timeout : Z) (ignore_write_available : bool) (v : pvec) : outcome (ended * pvec * bool) :=
  let events := Z.lor POLLIN POLLPRI in
  let n := length g in
  let events := if negb ignore_write_available then Z.lor events POLLOUT else events in
  match reserve mem n v with
  | (None, asked) => Ret (Thrown, v, asked)
  | (Some v1, asked) =>
      let* v2 := fill rl v1 0 events g in
      let sec := Z.quot timeout 1000000 in
      let* nsec := dur_sub P 64 timeout (sec * 1000000) in
      let* fds := fetch v2 0 n in
      let req := PollRequest fds sec nsec in
      let '(res, revents) := ppoll req in
      let* v3 := (if res <? 0 then Ret v2 else answer_cells v2 0 n revents) in
      if res =? 0 then Ret (Returned SuccessTimeout req, v3, asked)
      else if res <? 0 then Ret (Returned Failure req, v3, asked)
      else let* r := scan rl v3 0 n in Ret (Returned r req, v3, asked)
  end.

(** One call by the user of a group: the arguments, what ppoll answers and whether there is memory.
    A call of SocketCANInterfaceGroup.cpp lines 110-153. *)
Record scall : Type := SCall { sc_timeout : Z; sc_ignore : bool; sc_ppoll : poll_request -> Z * list Z; sc_mem : option nat }.

(** A group's history of calls of select: how each ended, the array afterwards, and how often memory was asked for. (Calls
    of write, read and reconfigureFilters do not touch the array; the descriptors are those of the group's construction.)
    Calls of SocketCANInterfaceGroup.cpp lines 110-153. *)
Fixpoint select_history (P : platform) (rl : rule) (g : group) (calls : list scall) (v : pvec)
  : outcome (list ended * pvec * nat) :=
  match calls with
  | [] => Ret ([], v, O)
  | c :: rest =>
      let* x := select_mem P rl (sc_mem c) (sc_ppoll c) g (sc_timeout c) (sc_ignore c) v in
      let '(e, v', asked) := x in
      let* y := select_history P rl g rest v' in
      let '(es, v'', k) := y in
      Ret (e :: es, v'', if asked then S k else k)
  end.
