(** Model of the control buffers of test/linux/example/media_on_linux/SocketCANInterface.{hpp,cpp}. SocketCanModel.v has the
    frames and the length of each control buffer (msg_controllen); here are the bytes in these buffers, which sendmmsg and
    recvmmsg are given along with the frames. Platform: x86-64 Linux with glibc. *)
From Coq Require Import ZArith Bool String List.
From Verif Require Import Outcome ResultModel CanFrameModel SocketCanModel.
Import ListNotations.
Open Scope Z_scope.

(** The interface with its member trx_control_ (SocketCANInterface.hpp line 67). *)
Record ciface : Type := CIface { ci_if : iface; ci_control : list (list Z) }.

(** SocketCANInterface.cpp lines 47-68. The constructor does not mention trx_control_, so its bytes are what was in memory:
    [memory]. *)
Definition ciface_make (memory : list (list Z)) (index : Z) (name : string) (fd : Z) : ciface :=
  CIface (iface_make index name fd) memory.

(** What the four message headers say of the control buffers: where they are and how long (SocketCANInterface.cpp lines
    57-60, and the lengths that recvmmsg stored since). *)
Definition ancillary (s : ciface) : list (list Z) :=
  map (fun x => firstn (Z.to_nat (snd x)) (fst x)) (combine (ci_control s) (if_ctl (ci_if s))).

(** What a write did (SocketCANInterface.cpp lines 96-139), with all that was handed to sendmmsg: for each message the frame
    and the ancillary data. *)
Record cwrite_out : Type := CWriteOut { cw_out : write_out; cw_handed : option (list (canfd * list Z)) }.

(** SocketCANInterface.cpp lines 96-139. Line 120 passes the message headers as they are. *)
Definition write_a (sendmmsg : list (canfd * list Z) -> Z * Z) (s : ciface) (frames : list frame) (frames_len : nat)
  : outcome (cwrite_out * ciface) :=
  let* w := write (fun msgs => sendmmsg (combine msgs (ancillary s))) (ci_if s) frames frames_len in
  Ret (CWriteOut w (match wr_sent w with Some msgs => Some (combine msgs (ancillary s)) | None => None end),
       CIface (wr_if w) (ci_control s)).

(** What the call in SocketCANInterface.cpp line 151 stores in the control buffers, from the first on: with each message come
    the bytes at the beginning of its buffer, as many as msg_controllen says afterwards. *)
Fixpoint receive_control (wrote : list (list Z)) (control : list (list Z)) : list (list Z) :=
  match wrote, control with
  | w :: ws, c :: cs => (w ++ skipn (length w) c) :: receive_control ws cs
  | _, _ => control
  end.

(** SocketCANInterface.cpp lines 141-254. *)
Definition read_a (res errno : Z) (msgs : list (kmsg * list Z)) (s : ciface) (out : list frame) : outcome (read_out * ciface) :=
  let* r := read res errno (map fst msgs) (ci_if s) out in
  Ret (r, CIface (rd_if r)
            (if res <=? 0 then ci_control s
             else receive_control (firstn RxFramesLen (firstn (Z.to_nat res) (map snd msgs))) (ci_control s))).

(** A call of one of the two functions of SocketCANInterface.cpp lines 96-254 with what the kernel answers it. *)
Inductive ccall : Type :=
| CWrite (sendmmsg : list (canfd * list Z) -> Z * Z) (frames : list frame) (n : nat)
| CRead (res errno : Z) (msgs : list (kmsg * list Z)) (out : list frame).

(** The interface after one call, SocketCANInterface.cpp lines 96-139 and 141-254. *)
Definition do_ccall (c : ccall) (s : ciface) : outcome ciface :=
  match c with
  | CWrite k fs n => let* (w, s1) := write_a k s fs n in Ret s1
  | CRead res errno msgs out => let* (r, s1) := read_a res errno msgs s out in Ret s1
  end.

(** The interface after any sequence of calls of SocketCANInterface.cpp lines 96-254. *)
Fixpoint do_ccalls (cs : list ccall) (s : ciface) : outcome ciface :=
  match cs with
  | [] => Ret s
  | c :: rest => let* s1 := do_ccall c s in do_ccalls rest s1
  end.
