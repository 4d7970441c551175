(** Model of class LoopBackTest of test/linux/example/media_on_linux/main.cpp. What it prints is in ConsoleModel.v. *)
From Coq Require Import ZArith Bool String List.
From Verif Require Import Outcome ResultModel CanFrameModel SocketCanModel GroupModel ManagerModel.
Import ListNotations.
Open Scope Z_scope.

(** main.cpp lines 168-176: frames with identifiers 1 and 2, a null data pointer and length 0, at times 0 and 1; the rest of
    the array is default-initialized. frame_make of CanFrameModel.v gives exactly these members for a null pointer. *)
Definition test_frames : list frame :=
  [Frame 1 (repeat 0 mtu) 0 0; Frame 2 (repeat 0 mtu) 0 1; frame_default mtu; frame_default mtu].
(** main.cpp line 149. *)
Definition TxTestFramesLen : nat := 2.
(** main.cpp line 177. *)
Definition test_filters : list filter := [Filter 0 0].

(** main.cpp lines 157 and 161, the members that change: test_frames_found_ and test_result_. Time is a parameter of run_test. *)
Record loopback : Type := LoopBack { lb_found : list Z; lb_result : result }.
(** main.cpp lines 178 and 182. *)
Definition loopback_make : loopback := LoopBack [] Failure.

(** main.cpp lines 215-230: the loop over the interfaces, [n] of them left. It answers the group, test_frames_found_, success
    and, for the theorems only, what was handed to the kernel on each interface. *)
Fixpoint start_writes (n i : nat) (sendmmsg : nat -> list canfd -> Z * Z) (g : group) (found : list Z)
  : outcome (group * list Z * bool * list (list canfd)) :=
  match n with
  | O => Ret (g, found, true, [])
  | S k =>
      let* w := group_write (sendmmsg i) g (Z.of_nat i) test_frames TxTestFramesLen 0 in
      let '(g1, r, _, sent) := w in
      if negb (result_not r)
      then let* t := start_writes k (S i) sendmmsg g1 (found ++ [0]) in
           let '(g2, found2, ok, sents) := t in
           Ret (g2, found2, ok, (match sent with Some s => s | None => [] end) :: sents)
      else Ret (g1, found, false, [])
  end.

(** main.cpp lines 191-238. The answer is the group, [None] if null, the test's state, what was sent and the world. Setting
    the last pointer to the group to null (line 234) destroys it. *)
Definition start_test (fuel : nat) (lb : loopback) (m : manager) (kernel : nat -> list event -> answers)
  (sendmmsg : nat -> list canfd -> Z * Z) (w : world)
  : option (outcome (option group * loopback * list (list canfd) * world)) :=
  if 0 <? Z.of_nat (length (lb_found lb)) then Some (Ret (None, lb, [], w))
  else if negb (doesReceiveOwnMessages m) then Some (Ret (None, lb, [], w))
  else
    match startInterfaceGroup fuel m (Some test_filters) (length test_filters) kernel None w with
    | None => None
    | Some UB => Some UB
    | Some (Ret (r, out, w1)) =>
        if isFailure r then Some (Ret (out, lb, [], w1))
        else
          match out with
          | None => Some UB
          | Some g =>
              match start_writes (Z.to_nat (getInterfaceCount g)) 0 sendmmsg g [] with
              | UB => Some UB
              | Ret (g', found, ok, sents) =>
                  if (0 <? getInterfaceCount g) && ok then Some (Ret (Some g', LoopBack found (lb_result lb), sents, w1))
                  else Some (Ret (None, LoopBack [] (lb_result lb), [], World (destroy g' (w_trace w1)) (w_filters w1)))
              end
          end
    end.

(** main.cpp lines 313-317, for one frame and one test frame. FrameType compares no flags. *)
Definition eval_bit (found : Z) (f : frame) (j : nat) : outcome Z :=
  if Z.land found (2 ^ Z.of_nat j) =? 0
  then let* e := frame_eq 0 f (nth j test_frames (frame_default mtu)) in
       Ret (if e : bool then Z.lor found (2 ^ Z.of_nat j) else found)
  else Ret found.

(** main.cpp lines 309-319. *)
Fixpoint eval_frames (found : Z) (frames : list frame) : outcome Z :=
  match frames with
  | [] => Ret found
  | f :: t => let* v0 := eval_bit found f 0 in let* v1 := eval_bit v0 f 1 in eval_frames v1 t
  end.

(** main.cpp lines 298-328; its result is not used. *)
Definition evaluate (index : nat) (frames : list frame) (found : list Z) : outcome (list Z) :=
  match nth_error found index with
  | None => UB
  | Some v => if v =? 3 then Ret found else let* v' := eval_frames v frames in Ret (replace_nth index v' found)
  end.

(** main.cpp lines 333-350. *)
Definition isComplete (g : group) (found : list Z) : bool :=
  (getInterfaceCount g =? Z.of_nat (length found)) && (0 <? Z.of_nat (length found)) &&
  forallb (fun v => Z.land v 3 =? 3) (firstn (Z.to_nat (getInterfaceCount g)) found).

(** What the kernel does in one iteration of run_test: whether the timeout has passed, and what recvmmsg answers on each
    interface: result, errno, messages. For main.cpp lines 244-289. *)
Record round : Type := Round { rn_timed_out : bool; rn_recv : nat -> Z * Z * list kmsg }.

(** main.cpp lines 266-279, the reads: [n] interfaces left. It answers, for each, the result and the frames read. (The code
    evaluates each batch before the next read; evaluation changes test_frames_found_ only, so the reads are separated here.) *)
Fixpoint read_round (n i : nat) (recv : nat -> Z * Z * list kmsg) (g : group) (frames : list frame)
  : outcome (group * list (result * list frame)) :=
  match n with
  | O => Ret (g, [])
  | S k =>
      let '(res, errno, msgs) := recv i in
      let* t := group_read res errno msgs g (Z.of_nat i) frames 0 in
      let '(g1, r, count, frames1) := t in
      let* (g2, rest) := read_round k (S i) recv g1 frames1 in
      Ret (g2, (r, firstn (Z.to_nat count) frames1) :: rest)
  end.

(** main.cpp lines 272-278. *)
Fixpoint evaluate_round (i : nat) (batch : list (result * list frame)) (found : list Z) : outcome (list Z) :=
  match batch with
  | [] => Ret found
  | (r, fs) :: rest =>
      let* found' := (if negb (result_not r) && (0 <? Z.of_nat (length fs)) then evaluate i fs found else Ret found) in
      evaluate_round (S i) rest found'
  end.

(** main.cpp lines 240-291, on the given rounds; [None] if it still runs after them. The call of select (line 254), with a
    timeout of 100000 microseconds and an ignored result, is left out: by C69 it is defined. *)
Fixpoint run_test (continuous : bool) (rounds : list round) (g : group) (lb : loopback) : option (outcome result) :=
  match rounds with
  | [] => None
  | rn :: rest =>
      if rn_timed_out rn then Some (Ret (lb_result lb))
      else
        match read_round (Z.to_nat (getInterfaceCount g)) 0 (rn_recv rn) g (repeat (frame_default mtu) RxFramesLen) with
        | UB => Some UB
        | Ret (g', batch) =>
            match (if result_not (lb_result lb) then evaluate_round 0 batch (lb_found lb) else Ret (lb_found lb)) with
            | UB => Some UB
            | Ret found =>
                if isComplete g' found
                then if negb continuous then Some (Ret Success) else run_test continuous rest g' (LoopBack found Success)
                else run_test continuous rest g' (LoopBack found (lb_result lb))
            end
        end
  end.
